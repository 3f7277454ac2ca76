(** * Vocabulary for the property about interleavings and weakly ordered executions (C69).
    The first are the executions of Model.v, where every access is atomic and there is one order of all of them; the second those of WeakFree.v,
    where loads may return old values.  Definitions only. *)
From Verif Require Import Model LinSpec Weak WeakCoh WeakFree.

Section inter.
Context {C : Config}.
Implicit Types (o : opid) (f : fstate).

(** The status of a call, as an interleaving shows it. *)
Definition shown f o : option ostat := match w_ops (c_w (f_c f)) !! o with Some x => Some (if decide (o ∈ f_gone f) then SGone else w_st x) | None => None end.
(** The same move of both machines.  (What the second says in addition: which value is read, what the call is known to come after; and the destructions are numbered differently.) *)
Definition same_move (lb : label) (fb : flabel) : Prop :=
  match lb, fb with
  | LInv o op, FInv o' op' _ _ => o = o' /\ op = op'
  | LStep o spur a, FStep o' _ spur' a' => o = o' /\ spur = spur' /\ a = a'
  | LUnpin o, FUnpin o' | LAbort o, FAbort o' => o = o'
  | LFree _, FFree _ => True
  | LDrop, FDrop => True
  | _, _ => False
  end.

(** Every call comes after everything that had returned when it was made. *)
Definition real_time (lsf : list flabel) : Prop := forall l1 o op ps ds l2 f1 e1, lsf = l1 ++ FInv o op ps ds :: l2 -> fexec code_orders l1 f1 e1 -> forall o' r, ERet o' r ∈ e1 -> o' ∈ ps.
(** The steps read the newest value of the cell. *)
Definition reads_newest (lsf : list flabel) : Prop := forall l1 o n spur a l2 f1 e1 c, lsf = l1 ++ FStep o n spur a :: l2 -> fexec code_orders l1 f1 e1 ->
  next_cell code_orders (c_w (f_c f1)) o = Some c -> S n = length (w_hist (c_w (f_c f1)) c).
(** The calls, in the order in which they were made. *)
Definition callers (ev : list event) : list opid := omap (fun e => match e with EInv o _ => Some o | _ => None end) ev.
(** The map is handed from one call to the next: when a call is made, all those before have returned, and it is known that the last of them has. *)
Definition handed_over (lsf : list flabel) : Prop := forall l1 o op ps ds l2 f1 e1, lsf = l1 ++ FInv o op ps ds :: l2 -> fexec code_orders l1 f1 e1 ->
  (forall o', o' ∈ callers e1 -> exists r, ERet o' r ∈ e1) /\ (forall q, last (callers e1) = Some q -> q ∈ ps).
End inter.
