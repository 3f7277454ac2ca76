(** * Vocabulary for the properties of iterators.  Definitions only. *)
From Verif Require Import Model Spec LinSpec.

Section iterspec.
Context {C : Config}.
Implicit Types (s : state) (ls : list label) (ev : list event) (o : opid) (k : Key) (p : Pl).

(** What iterator [o] has yielded so far, in order. *)
Definition yields_of ev o : list rref :=
  omap (fun e => match e with EYield o' r => if decide (o' = o) then Some r else None | _ => None end) ev.

(** No two elements of the list have equal keys. *)
Definition distinct_keys (l : list Pl) : Prop :=
  forall i j p q, l !! i = Some p -> l !! j = Some q -> keqb (keyof p) (keyof q) = true -> i = j.

(** In the list [l], key [k] is listed with value [p] / is not listed at all. *)
Definition listed (l : list Pl) k (x : option Pl) : Prop :=
  match x with Some p => p ∈ l /\ keqb (keyof p) k = true | None => forall p, p ∈ l -> keqb (keyof p) k = false end.

(** In state [s], which occurs in the execution, call [o] of operation [op] is in progress. *)
Definition during ls o op s : Prop := exists j, state_at ls j = Some s /\ in_progress s o op.

(** The list [l] is exactly the contents of the map in state [s]: every element once, and nothing else. *)
Definition lists_contents (l : list Pl) s : Prop := distinct_keys l /\ forall p, p ∈ l <-> stored (s_mem s) p.
End iterspec.
