(** * Model of PrintShape (src/raw/debug.rs:65-115) running next to other calls.  Definitions only. *)
From Verif Require Import Model.

Section print.
Context {C : Config}.

(** What is written: debug.rs:71 (pointer and flags), 77 (the elements of a data node), 80, 82 and 85.
    Simplification: the text itself is not modelled, only the values it is made of; nor that the formatter may report an error,
    which ends the printing early (what is proved about the states on the way covers that). *)
Inductive tok :=
| TPtr (a : N) (cond data : bool)
| TData (it : list Pl)
| TOpen
| TIdx (i : nat)
| TClose.

(** Where the printing is: before the first load; in the loops (81-84) over the slots of the nodes on the stack, innermost first, each with
    the number of the slot that is next; finished; failed.  [out] is what has been written. *)
Inductive pstat :=
| PStart
| PLoop (frames : list (sh * nat)) (out : list tok)
| PDone (out : list tok)
| PFail (f : failure).

(** The ends of loops that are over: 85 and the return to the caller, 83. *)
Fixpoint leave (frames : list (sh * nat)) (out : list tok) : pstat :=
  match frames with
  | [] => PDone out
  | (v, i) :: rest => if i <? LEVEL_CELLS then PLoop frames out else leave rest (out ++ [TClose])
  end.

(** [print_shape_ptr] after its load, up to the next load: 70-87. *)
Definition print_ptr (m : mem) (v : sh) (frames : list (sh * nat)) (out : list tok) : pstat :=
  let out := out ++ [TPtr (paddr m v) (sh_cond v) (sh_data v)] in                 (* 71 *)
  if is_null v then leave frames out                                              (* 73-74 *)
  else if sh_data v then                                                          (* 75-77 *)
    match load_data m v with
    | inl f => PFail f
    | inr it => leave frames (out ++ [TData it])
    end
  else PLoop ((v, 0) :: frames) (out ++ [TOpen]).                                 (* 78-81 *)

(** One load (69) and everything up to the next one.  [print_shape] (90-96) starts with the root. *)
Definition print_step (m : mem) (st : pstat) : pstat :=
  match st with
  | PStart => print_ptr m (m_root m) [] []
  | PLoop ((v, i) :: rest) out =>
    match sh_loc v with
    | None => PFail FUB
    | Some l => match read_cell m (CSlot l i) with
                | None => PFail FUB
                | Some w => print_ptr m w ((v, S i) :: rest) (out ++ [TIdx i])    (* 81-83 *)
                end
    end
  | _ => st
  end.

(** The printing next to the calls of the machine.  The printing thread holds a guard (94), which is represented by the call [o] of the
    machine: a call that has started, but takes no step.  [PSys]: a transition of the machine; [PPrint]: a load of the printing thread. *)
Inductive plabel := PSys (lb : label) | PPrint.

Definition of_printer (o : opid) (lb : label) : bool :=
  match lb with LStep o' _ _ | LAbort o' | LUnpin o' => bool_decide (o' = o) | _ => false end.

Definition pstep (o : opid) (x : state * pstat) (pl : plabel) : option (state * pstat * list event) :=
  match pl with
  | PSys lb => if of_printer o lb then None
               else match step x.1 lb with Some (s', e) => Some (s', x.2, e) | None => None end
  | PPrint => match x.2 with PStart | PLoop _ _ => Some (x.1, print_step (s_mem x.1) x.2, []) | _ => None end
  end.
Fixpoint prun (o : opid) (x : state * pstat) (pls : list plabel) : option (state * pstat * list event) :=
  match pls with
  | [] => Some (x.1, x.2, [])
  | pl :: pls => match pstep o x pl with
                 | Some (s1, st1, e1) => match prun o (s1, st1) pls with Some (s2, st2, e2) => Some (s2, st2, e1 ++ e2) | None => None end
                 | None => None
                 end
  end.
End print.
