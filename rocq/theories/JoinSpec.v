(** * Vocabulary for calls about one key that are made in turn.  Definitions only. *)
From Verif Require Import Model Spec IterSpec WeakCoh.

Section joinspec.
Context {C : Config}.

(** The call is an insert, get, remove or get_or_insert_with with key [k]; or is_empty or an iteration, which say something about every key. *)
Definition keyed (op : oper) (k : Key) : Prop :=
  match op with
  | OInsert p => keqb (keyof p) k = true
  | OGetOrInsert k' _ | OGet k' | ORemove k' => keqb k' k = true
  | OIsEmpty | OIter => True
  end.
(** What such a call returns, exactly, if [x] is stored under the key [k] (or nothing is), and what is stored afterwards.  [ys] is what it has yielded.
    (Whether is_empty may say false depends on the other keys.) *)
Definition turn (k : Key) (ys : list Pl) (x : option Pl) (op : oper) (r : res) (x' : option Pl) : Prop :=
  match op, r with
  | OInsert p, ROpt y => rr_val <$> y = x /\ x' = Some p
  | OGetOrInsert _ f, REon (Existing y) => x = Some (rr_val y) /\ x' = x
  | OGetOrInsert k' f, REon (New y) => x = None /\ rr_val y = f k' /\ x' = Some (f k')
  | OGet _, ROpt y => rr_val <$> y = x /\ x' = x
  | ORemove _, ROpt y => rr_val <$> y = x /\ x' = None
  | OIsEmpty, RBool b => (b = true -> x = None) /\ x' = x
  | OIter, RIter _ => List.find (fun p => keqb (keyof p) k) ys = x /\ x' = x
  | _, _ => False
  end.
Fixpoint turns (ev : list event) (k : Key) (x : option Pl) (cs : list (opid * oper * res)) (x' : option Pl) : Prop :=
  match cs with
  | [] => x' = x
  | (o, op, r) :: cs => exists y, turn k (rr_val <$> yields_of ev o) x op r y /\ turns ev k y cs x'
  end.
(** The calls [cs] are about key [k], were made with these operations and returned these results, and each is known to come after those before it. *)
Definition in_turn (ls : list clabel) (ev : list event) (k : Key) (cs : list (opid * oper * res)) : Prop :=
  (forall o op r, (o, op, r) ∈ cs -> EInv o op ∈ ev /\ ERet o r ∈ ev /\ keyed op k) /\
  (forall i j c1 c2, cs !! i = Some c1 -> cs !! j = Some c2 -> i < j -> hb ls c1.1.1 c2.1.1).
End joinspec.
