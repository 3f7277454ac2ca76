(** * Vocabulary for sequential use.  Definitions only. *)
From Verif Require Import Model Spec LinSpec IterSpec.

Section seqspec.
Context {C : Config}.
Implicit Types (s : state) (m : mem) (ls : list label) (ev : list event) (o : opid) (k : Key) (p : Pl).

(** The calls of the schedule do not overlap (and none is broken off by a panic of user code). *)
Definition sequential ls : Prop :=
  (forall n s o1 op1 o2 op2, state_at ls n = Some s -> in_progress s o1 op1 -> in_progress s o2 op2 -> o1 = o2) /\
  (forall o, LAbort o ∉ ls).

(** From state number [n0] of the schedule on, the calls do not overlap and none is broken off. *)
Definition sequential_from (n0 : nat) ls : Prop :=
  (forall n s o1 op1 o2 op2, n0 <= n -> state_at ls n = Some s -> in_progress s o1 op1 -> in_progress s o2 op2 -> o1 = o2) /\
  (forall n o, n0 <= n -> ls !! n <> Some (LAbort o)).

(** No two removals of the schedule overlap, and no modifying call is broken off by a panic of user code.  Everything else may run in parallel:
    inserts with each other and with the removal, lookups, is_empty and iterations with everything (and those may be abandoned). *)
Definition removals_alone ls : Prop :=
  (forall n s o1 k1 o2 k2, state_at ls n = Some s -> in_progress s o1 (ORemove k1) -> in_progress s o2 (ORemove k2) -> o1 = o2) /\
  (forall n s o op, ls !! n = Some (LAbort o) -> state_at ls n = Some s -> in_progress s o op -> is_reader op = true).

(** No call is in progress. *)
Definition quiescent s : Prop := forall o op, ~ in_progress s o op.

(** No modifying call is in progress. *)
Definition no_writer s : Prop := forall o op, in_progress s o op -> is_reader op = true.

(** What call [op] on the plain map [a] returns, exactly, and the map it leaves. *)
Definition exact (a : amap) (op : oper) (r : res) (a' : amap) : Prop :=
  match op, r with
  | OInsert p, ROpt x => rr_val <$> x = a (keyof p) /\ put a p a'
  | OGetOrInsert k f, REon (Existing x) => a k = Some (rr_val x) /\ same a a'
  | OGetOrInsert k f, REon (New x) => a k = None /\ rr_val x = f k /\ put a (f k) a'
  | OGet k, ROpt x => rr_val <$> x = a k /\ same a a'
  | ORemove k, ROpt x => rr_val <$> x = a k /\ del a k a'
  | OIsEmpty, RBool b => (b = true <-> forall k, a k = None) /\ same a a'
  | OIter, RIter ys => distinct_keys (rr_val <$> ys) /\ (forall k, listed (rr_val <$> ys) k (a k)) /\ same a a'
  | _, _ => False
  end.
Fixpoint exact_run (a : amap) (h : list (oper * res)) (a' : amap) : Prop :=
  match h with
  | [] => same a a'
  | (op, r) :: h => exists b, exact a op r b /\ exact_run b h a'
  end.

(** The operation call [o] was made with. *)
Definition call_of ev o : option oper :=
  head (omap (fun e => match e with EInv o' op => if decide (o' = o) then Some op else None | _ => None end) ev).
(** The calls that were made, in order. *)
Definition calls ev : list oper := omap (fun e => match e with EInv _ op => Some op | _ => None end) ev.
(** The calls that have returned, in the order in which they returned, with their results. *)
Definition history ev : list (oper * res) :=
  omap (fun e => match e with ERet o r => (fun op => (op, r)) <$> call_of ev o | _ => None end) ev.

(** ** The tree, seen from the root *)
(** The pointer that is found by starting at the root and going through the slots numbered [q]. *)
Inductive at_path m : list nat -> sh -> Prop :=
| at_root : at_path m [] (m_root m)
| at_slot q v l a sl i w : at_path m q v -> sh_loc v = Some l -> m_heap m !! l = Some (HObj a (BInner sl)) -> sl !! i = Some w ->
    at_path m (q ++ [i]) w.
(** At path [q] there is a branching node / a leaf that holds [p]. *)
Definition branch_at m (q : list nat) : Prop := exists v l a sl, at_path m q v /\ sh_loc v = Some l /\ m_heap m !! l = Some (HObj a (BInner sl)).
Definition leaf_at m (q : list nat) p : Prop := exists v l a it, at_path m q v /\ sh_loc v = Some l /\ m_heap m !! l = Some (HObj a (BData it)) /\ p ∈ it.

(** The [d]-th hexadecimal digit of the hash of [k], from the least significant one. *)
Definition digit k (d : nat) : nat := N.to_nat ((hashf k / 16 ^ N.of_nat d) mod 16)%N.
(** The hash of [k] starts with the digits [q]. *)
Definition hash_prefix k (q : list nat) : Prop := forall d i, q !! d = Some i -> digit k d = i.
End seqspec.

(** ** Changing the hash function *)
(** The configuration [C] with the hash function [h]. *)
Definition rehash (C : Config) (h : @Key C -> N) : Config := {| Key := @Key C; Pl := @Pl C; keyof := @keyof C; keqb := @keqb C; hashf := h |}.
(** The same call, to a map with another hash function. *)
Definition op_re (C : Config) (h : @Key C -> N) (op : @oper C) : @oper (rehash C h) :=
  match op with
  | OInsert p => @OInsert (rehash C h) p
  | OGetOrInsert k f => @OGetOrInsert (rehash C h) k f
  | OGet k => @OGet (rehash C h) k
  | ORemove k => @ORemove (rehash C h) k
  | OIsEmpty => @OIsEmpty (rehash C h)
  | OIter => @OIter (rehash C h)
  end.
(** The caller sees the same: the same elements, the same truth value, the same variant of ExistingOrNew; an iteration may list the elements in another order. *)
Definition same_result (C : Config) (h : @Key C -> N) (r : @res C) (r' : @res (rehash C h)) : Prop :=
  match r, r' with
  | ROpt x, ROpt y => (@rr_val C <$> x) = (@rr_val (rehash C h) <$> y)
  | REon (Existing x), REon (Existing y) => @rr_val C x = @rr_val (rehash C h) y
  | REon (New x), REon (New y) => @rr_val C x = @rr_val (rehash C h) y
  | RBool b, RBool b' => b = b'
  | RIter xs, RIter ys => Permutation (@rr_val C <$> xs) (@rr_val (rehash C h) <$> ys)
  | _, _ => False
  end.
