(** * Vocabulary for progress on weakly ordered memory.  Definitions only.
    The machine is that of WeakFree.v: loads may return old values, nodes are freed, addresses are used again. *)
From Verif Require Import Model Spec ProgSpec Weak WeakCoh WeakFree.

Section wprog.
Context {C : Config} (w : orders).
Implicit Types (s : fstate) (ls : list flabel) (o : opid).

(** Call [o] is in progress: it has neither returned nor been broken off. *)
Definition f_running s o (op : oper) : Prop := f_alive s o = true /\ exists p tv pv, w_ops (c_w (f_c s)) !! o = Some (WOp (SRun op p) tv pv).
(** It is an insert, get_or_insert_with or remove that is in progress. *)
Definition f_mod s o : bool := f_alive s o && match w_ops (c_w (f_c s)) !! o with Some x => modifying (w_st x) | None => false end.
(** How many of them there are. *)
Definition f_mod_running s : nat := length (List.filter (f_mod s) (map_to_list (w_ops (c_w (f_c s)))).*1).
(** The transition is a step of one of them. *)
Definition f_mod_step s (lb : flabel) : bool := match lb with FStep o _ _ _ => f_mod s o | _ => false end.
(** How many steps modifying calls take when the schedule [ls] is run from [s]. *)
Fixpoint f_mod_steps s ls : nat :=
  match ls with
  | [] => 0
  | lb :: ls => (if f_mod_step s lb then 1 else 0) + match fstep w s lb with Some (s', _) => f_mod_steps s' ls | None => 0 end
  end.
(** Steps in which a weak compare-and-set fails although it could have succeeded. *)
Definition f_spurious (lb : flabel) : bool := match lb with FStep _ _ spur _ => spur | _ => false end.
Definition f_spurious_steps ls : nat := length (List.filter f_spurious ls).
(** No modifying call starts. *)
Definition f_no_new ls : Prop := forall o op ps ds, FInv o op ps ds ∈ ls -> is_reader op = true.
(** The transition ends a modifying call: it returns, or it is broken off. *)
Definition f_mod_ends s (lb : flabel) (e : list event) : Prop :=
  exists o op, f_running s o op /\ is_reader op = false /\ ((exists r, ERet o r ∈ e) \/ lb = FAbort o).
(** Only call [o] takes steps. *)
Definition f_alone o ls : Prop := forall lb, lb ∈ ls -> exists n spur a, lb = FStep o n spur a.
(** The number of steps call [o] takes in a schedule. *)
Definition f_is_step o (lb : flabel) : bool := match lb with FStep o' _ _ _ => bool_decide (o' = o) | _ => false end.
Definition f_steps_of ls o : nat := length (List.filter (f_is_step o) ls).
(** An infinite execution from the empty map. *)
Definition f_infinite (sch : nat -> flabel) (st : nat -> fstate) : Prop := st 0 = finit /\ forall n, exists e, fstep w (st n) (sch n) = Some (st (S n), e).
End wprog.
