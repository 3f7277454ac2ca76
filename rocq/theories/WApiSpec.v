(** * What the containers promise on weakly ordered memory.
    Definitions only. *)
From Verif Require Import Model Spec LinSpec Api ApiSpec WeakCoh Rc11.

(** ** One order for the calls on one key
    [cl o] is the method call number [o]; [about c k]: call [c] reads or writes the key [k]; [iterates c]: it is an iteration; [lookup k] is the call that looks for [k], and
    [answer k x] the result [x] of it.  [l] lists calls with their results: every call about [k] that returned, with the result it returned (except is_empty saying false, which promises
    nothing); and every iteration as one lookup of [k], that finds what the iteration yielded under this key, or nothing if it came to its end without.  One after the other these calls
    lead from [st0] to some state as on a plain map, in an order that respects happens-before. *)
Section apiorder.
Context {C : Config} {A R St : Type} (raw : A -> oper) (view : A -> res -> R) (about : A -> Key -> Prop) (iterates : A -> Prop) (look : Key -> A) (answer : Key -> option Pl -> R)
  (spec : St -> A -> R -> St -> Prop) (cl : opid -> A).
Record ccall := CCall { cc_id : opid; cc_call : A; cc_ret : R }.
Fixpoint capi_run (st : St) (l : list ccall) (st' : St) : Prop :=
  match l with
  | [] => st = st'
  | e :: l => exists st1, spec st (cc_call e) (cc_ret e) st1 /\ capi_run st1 l st'
  end.
Record api_key_order (k : Key) (l : list ccall) (st0 : St) (ls : list clabel) (ev : list event) : Prop := {
  ak_once : NoDup (cc_id <$> l);
  ak_called : forall e, e ∈ l -> EInv (cc_id e) (raw (cl (cc_id e))) ∈ ev /\ (cc_call e = cl (cc_id e) /\ about (cc_call e) k \/ iterates (cl (cc_id e)) /\ cc_call e = look k);
  ak_complete : forall o r, ERet o r ∈ ev -> about (cl o) k -> r <> RBool false -> CCall o (cl o) (view (cl o) r) ∈ l;
  ak_yield : forall o r, iterates (cl o) -> EYield o r ∈ ev -> keqb (keyof (rr_val r)) k = true -> CCall o (look k) (answer k (Some (rr_val r))) ∈ l;
  ak_end : forall o r, iterates (cl o) -> ERet o r ∈ ev -> (forall y, EYield o y ∈ ev -> keqb (keyof (rr_val y)) k = false) -> CCall o (look k) (answer k None) ∈ l;
  ak_legal : exists st, capi_run st0 l st;
  ak_order : forall o1 o2, o1 ∈ (cc_id <$> l) -> o2 ∈ (cc_id <$> l) -> hb ls o1 o2 -> exists l1 l2, l = l1 ++ l2 /\ o1 ∈ (cc_id <$> l1) /\ o2 ∈ (cc_id <$> l2);
}.
(** Every call in the graph is a call of a method of the container. *)
Definition gclient (ls : list glabel) : Prop := forall o op ps ds, GInv o op ps ds ∈ ls -> op = raw (cl o).
End apiorder.
Arguments CCall {A R} _ _ _.

(** ** ConMap *)
Section conmap.
Context {K V : Type} (eqb : K -> K -> bool).
Definition map_about (c : map_call K V) (k : K) : Prop :=
  match c with
  | MInsert k' _ _ | MGetOrInsert k' _ _ | MGetOrInsertWith k' _ _ | MGetOrInsertDefault k' _ _ | MGetOrInsertWithElement k' _ | MGet k' | MRemove k' => eqb k' k = true
  | MInsertElement e => eqb (el_key (arc_val e)) k = true
  | MIsEmpty => True
  | MIter => False
  end.
Definition map_iterates (c : map_call K V) : Prop := c = MIter.
End conmap.

(** ** CloneConMap *)
Section clonemap.
Context {K V : Type} (eqb : K -> K -> bool).
Definition clone_about (c : clone_call K V) (k : K) : Prop :=
  match c with
  | KInsert k' _ | KGetOrInsert k' _ | KGetOrInsertWith k' _ | KGetOrInsertDefault k' _ | KGet k' | KRemove k' => eqb k' k = true
  | KIsEmpty => True
  | KIter => False
  end.
Definition clone_iterates (c : clone_call K V) : Prop := c = KIter.
End clonemap.

(** ** ConSet *)
Section conset.
Context {T : Type} (eqb : T -> T -> bool).
Definition set_about (c : set_call T) (k : T) : Prop :=
  match c with
  | SInsert k' | SGet k' | SContains k' | SRemove k' => eqb k' k = true
  | SIsEmpty => True
  | SIter => False
  end.
Definition set_iterates (c : set_call T) : Prop := c = SIter.
End conset.

(** ** A list of elements, inserted one after the other *)
Section extend.
Context {C : Config}.
(** The calls [os] insert the elements [L], each when the one before has returned; [ls] says which call happens before which. *)
Definition extends (ls : list clabel) (ev : list event) (os : list opid) (L : list Pl) : Prop :=
  Forall2 (fun o p => EInv o (OInsert p) ∈ ev /\ exists old, ERet o (ROpt old) ∈ ev) os L /\
  forall i j o1 o2, os !! i = Some o1 -> os !! j = Some o2 -> i < j -> hb ls o1 o2.
End extend.
