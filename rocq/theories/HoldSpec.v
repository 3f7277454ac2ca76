(** * Vocabulary for the question which elements a map keeps alive.  Definitions only. *)
From Verif Require Import Model Spec.

Section holdspec.
Context {C : Config}.
Implicit Types (s : state) (m : mem) (ls : list label) (p : Pl).

(** The places at which the map has ever put a copy of an element (a clone of the payload; for ConMap and CloneConMap a clone of
    the Arc): position [i] of the node [l], or position [i] of the [n]-th node that was built but not published. *)
Inductive place := InNode (l : loc) (i : nat) | InTmp (n i : nat).

(** At that place there is a copy of [p], and its destructor has not been run: the node has not been freed as a node with elements.
    (Freeing it as an inner node gives the memory back but does not run the destructors of the elements.) *)
Definition copy_at m (c : place) p : Prop :=
  match c with
  | InNode l i => exists a it, m_heap m !! l = Some (HObj a (BData it)) /\ it !! i = Some p /\ (l, KData) ∉ m_freed m
  | InTmp n i => exists it k, m_tmp m !! n = Some (BData it, k) /\ it !! i = Some p /\ k <> KData
  end.

(** Everybody is done: no guard is alive (so no call is in progress and no reference is outstanding), the collector has nothing left to do,
    and the map has not been dropped. *)
Definition settled s : Prop := guards s = ∅ /\ m_garb (s_mem s) = [] /\ s_dropped s = false.

(** The map keeps alive exactly the elements it contains, one copy of each. *)
Definition holds_exactly s : Prop :=
  (forall p, (exists c, copy_at (s_mem s) c p) <-> stored (s_mem s) p) /\
  (forall c c' p p', copy_at (s_mem s) c p -> copy_at (s_mem s) c' p' -> keqb (keyof p) (keyof p') = true -> c = c').

(** The modifying calls of the schedule do not overlap (with each other; lookups, is_empty and iterations may overlap with everything). *)
Definition one_writer ls : Prop :=
  forall n s o1 op1 o2 op2, state_at ls n = Some s -> in_progress s o1 op1 -> in_progress s o2 op2 ->
    is_reader op1 = false -> is_reader op2 = false -> o1 = o2.
(** No weak compare-and-set of the schedule fails spuriously. *)
Definition no_spurious ls : Prop := forall o a, LStep o true a ∉ ls.
End holdspec.
