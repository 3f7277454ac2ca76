(** * What property C55 speaks of: the nodes a map owns.
    mod.rs:76-92: a node is a branching node (Inner) or a data node (Data), each a heap allocation of its own. *)
From Verif Require Import Model.

Section spec.
Context {C : Config}.
Implicit Types (m : mem) (l : loc).

(** The allocation at [l] is a branching node. *)
Definition inner_at m l : Prop := exists a sl, m_heap m !! l = Some (HObj a (BInner sl)).

(** The allocation at [l] is a data node. *)
Definition data_at m l : Prop := exists a it, m_heap m !! l = Some (HObj a (BData it)).

(** [l] has been allocated and has neither been freed nor been handed to the collector. *)
Definition in_use m l : Prop := is_Some (m_heap m !! l) /\ l ∉ ((fun g => g.1.1) <$> m_garb m) /\ l ∉ (m_freed m).*1.
End spec.
