(** * Weakly ordered memory with coherence, and what a map shared by threads must guarantee there.
    Definitions only.

    Weak.v lets every load return any value the cell ever had, so that nothing is said about what a thread sees twice.  Here the accesses
    to one cell are coherent, as C11 demands (read-read, write-read, read-write and write-write coherence): a load does not return an older value
    than one that was read or written by something that happens before it.  "Happens before" is what the caller provides: when a call starts, it is
    given the calls that happened before it: the previous call of the same thread, and calls of other threads whose return was
    communicated to this thread (by joining it, by a channel or a lock...).  Nothing is assumed about how calls that overlap influence each other, beyond the
    orderings of the code.  (Synchronization through the map itself, by acquire loads, would only exclude more executions.) *)
From Verif Require Import Model Spec LinSpec Weak.

Section coh.
Context {C : Config} (w : orders).

Definition same_cell (c c' : cell) : bool :=
  match c, c' with CRoot, CRoot => true | CSlot l i, CSlot l' i' => bool_decide (l = l' /\ i = i') | _, _ => false end.

(** [c_fl o c]: the newest value of cell [c] (its number) that was read or written by call [o], or by a call that happens before it. *)
Record cstate := CState { c_w : wstate; c_fl : opid -> cell -> nat }.
Definition cinit : cstate := CState winit (fun _ _ => 0).

Inductive clabel :=
| CInv (o : opid) (op : oper) (ps : list opid)       (* a call starts; the calls [ps] returned before that, and it is known *)
| CStep (o : opid) (n : nat) (spur : bool) (a : N).  (* it takes a step; if it accesses a cell, it reads the [n]-th value *)

Definition is_returned (s : wstate) (o : opid) : bool := match w_ops s !! o with Some (WOp (SRet _ _) _ _) => true | _ => false end.
(** The cell call [o] is about to access. *)
Definition next_cell (s : wstate) (o : opid) : option cell :=
  match w_ops s !! o with Some (WOp (SRun _ p) _ _) => (fun x => x.1.1) <$> access w p | _ => None end.

Definition cstep (s : cstate) (lb : clabel) : option (cstate * list event) :=
  match lb with
  | CInv o op ps =>
      if forallb (is_returned (c_w s)) ps then
        match wstep w (c_w s) (WInv o op) with
        | Some (s', ev) => Some (CState s' (fun o' c => if decide (o' = o) then max_list ((fun p => c_fl s p c) <$> ps) else c_fl s o' c), ev)
        | None => None
        end
      else None
  | CStep o n spur a =>
      match wstep w (c_w s) (WStep o n spur a) with
      | Some (s', ev) =>
          match next_cell (c_w s) o with
          | None => Some (CState s' (c_fl s), ev)
          | Some c =>
              if n <? c_fl s o c then None
              else
                (* a read-modify-write has added a value, which is then the newest one *)
                let n' := if length (w_hist (c_w s) c) <? length (w_hist s' c) then length (w_hist (c_w s) c) else n in
                Some (CState s' (fun o' c' => if decide (o' = o) then if same_cell c c' then n' else c_fl s o' c' else c_fl s o' c'), ev)
          end
      | None => None
      end
  end.

Fixpoint crun (s : cstate) (ls : list clabel) : option (cstate * list event) :=
  match ls with
  | [] => Some (s, [])
  | lb :: ls =>
    match cstep s lb with
    | Some (s', ev) => match crun s' ls with Some (s'', ev') => Some (s'', ev ++ ev') | None => None end
    | None => None
    end
  end.

(** [ls] is the schedule, [s] the state it leads to from the empty map, [ev] everything the callers saw. *)
Definition cexec (ls : list clabel) (s : cstate) (ev : list event) : Prop := crun cinit ls = Some (s, ev).
Definition wf_ccalls (ls : list clabel) : Prop := forall o op ps, CInv o op ps ∈ ls -> op_wf op.

(** Call [o1] happens before call [o2]. *)
Inductive hb (ls : list clabel) : opid -> opid -> Prop :=
| hb_direct o1 o2 op ps : CInv o2 op ps ∈ ls -> o1 ∈ ps -> hb ls o1 o2
| hb_trans o1 o2 o3 : hb ls o1 o2 -> hb ls o2 o3 -> hb ls o1 o3.

(** The call is about key [k].  (That the map is empty is a statement about every key.) *)
Definition concerns (op : oper) (k : Key) : Prop :=
  match op with
  | OInsert p => keqb (keyof p) k = true
  | OGetOrInsert k' _ | OGet k' | ORemove k' => keqb k' k = true
  | OIsEmpty => True
  | OIter => False
  end.

(** The calls about key [k], one after the other in some order that respects happens-before, behave as on a plain map.
    (is_empty counts when it returned true: that says that [k] is not there.  When it returned false it says nothing.
    An iterator counts as a lookup of [k]: one that found an element, if it yields an element with that key; one that found nothing, if it comes to its end without that.) *)
Record key_order (k : Key) (l : list entry) (ls : list clabel) (ev : list event) : Prop := {
  ko_once : NoDup (e_id <$> l);
  ko_called : forall e, e ∈ l -> EInv (e_id e) (e_op e) ∈ ev /\ concerns (e_op e) k \/ EInv (e_id e) OIter ∈ ev /\ e_op e = OGet k;
  ko_complete : forall o op r v, EInv o op ∈ ev -> ERet o r ∈ ev -> concerns op k -> val_of r = Some v -> v <> ABool false -> Entry o op v ∈ l;
  ko_yield : forall o r, EInv o OIter ∈ ev -> EYield o r ∈ ev -> keqb (keyof (rr_val r)) k = true -> Entry o (OGet k) (AOpt (Some (rr_val r))) ∈ l;
  ko_end : forall o ys, EInv o OIter ∈ ev -> ERet o (RIter ys) ∈ ev -> (forall r, EYield o r ∈ ev -> keqb (keyof (rr_val r)) k = false) -> Entry o (OGet k) (AOpt None) ∈ l;
  ko_legal : exists a, spec_run aempty l a;
  ko_order : forall o1 o2, o1 ∈ (e_id <$> l) -> o2 ∈ (e_id <$> l) -> hb ls o1 o2 -> before l o1 o2;
}.
End coh.
