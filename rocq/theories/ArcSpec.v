(** * Which handles there are (for property C56).  Definitions only. *)
From Verif Require Import Model Spec Arcs.

#[global] Instance dkind_eq_dec' : EqDecision dkind. Proof. solve_decision. Defined.

Section arcspec.
Context {C : Config} (ident : Pl -> positive).

(** How many of the handles in [L] are handles of element [i]. *)
Definition cn (i : positive) (L : list Pl) : nat := length (filter (fun p => ident p = i) L).

(** All the handles in a family of lists. *)
Definition all_of `{Countable J} (M : gmap J (list Pl)) : list Pl := concat (map snd (map_to_list M)).

(** The leaves whose elements have not been destroyed (because the leaf has not been freed as one), with their elements. *)
Definition leaves (m : mem) : gmap loc (list Pl) :=
  map_imap (fun l o => match ho_body o with BData it => if bool_decide ((l, KData) ∈ m_freed m) then None else Some it | BInner _ => None end) (m_heap m).

(** The elements of leaves that were built, not published, and freed in a way that did not destroy them. *)
Definition tmp_copies (m : mem) : list Pl := concat (map (fun x => match x with (BData it, KInner) => it | _ => [] end) (m_tmp m)).

(** The handles that calls in progress have. *)
Definition calls_have (s : state) : gmap opid (list Pl) :=
  (fun st => match st with SRun _ p => pc_state p ++ pc_node p | _ => [] end) <$> s_ops s.

(** All handles: those of the callers, those in the map, those of calls in progress, and those that have leaked. *)
Definition all_handles (s : astate) : list Pl :=
  a_hand s ++ all_of (leaves (s_mem (a_map s))) ++ all_of (calls_have (a_map s)) ++ tmp_copies (s_mem (a_map s)) ++ a_lost s.

Definition areachable (s : astate) : Prop := exists ls ev, aexec ident ls s ev.
End arcspec.
