(** * What the containers promise: a plain map of element handles, a plain map of pairs, a plain set.
    Definitions only.  The specifications do not mention the trie. *)
From Verif Require Import Model Spec LinSpec Api.

(** ** Linearizability of a container
    [cl o] is the method call number [o]; [ev] is the history of the trie below it.  [spec st c r st']: call [c] on [st] returns [r] and leaves [st'].
    [l] lists calls with their results: every call that was made at most once, every call that returned (except iterations) with the result it returned; one after the other
    they lead from [st0] to [st]; a call that returned before another was made comes first. *)
Section apilin.
Context {C : Config} {A R St : Type} (raw : A -> oper) (view : A -> res -> R) (atomic : A -> bool) (cl : opid -> A) (spec : St -> A -> R -> St -> Prop).
Fixpoint api_run (st : St) (l : list (opid * R)) (st' : St) : Prop :=
  match l with
  | [] => st = st'
  | (o, r) :: l => exists st1, spec st (cl o) r st1 /\ api_run st1 l st'
  end.
Record api_linearizes (l : list (opid * R)) (ev : list event) (st0 st : St) : Prop := {
  al_once : NoDup (l.*1);
  al_called : forall o r, (o, r) ∈ l -> EInv o (raw (cl o)) ∈ ev;
  al_complete : forall o r, ERet o r ∈ ev -> atomic (cl o) = true -> (o, view (cl o) r) ∈ l;
  al_legal : api_run st0 l st;
  al_order : forall o1 o2, o1 ∈ l.*1 -> o2 ∈ l.*1 -> precedes ev o1 o2 -> exists l1 l2, l = l1 ++ l2 /\ o1 ∈ l1.*1 /\ o2 ∈ l2.*1;
}.
(** Every call in the history is a call of a method of the container. *)
Definition client (ls : list label) : Prop := forall o op, LInv o op ∈ ls -> op = raw (cl o).
End apilin.

(** ** A plain map from keys to values of type [P] *)
Section plain.
Context {K P : Type} (eqb : K -> K -> bool).
Definition pmap := K -> option P.
Definition pset (a : pmap) (k : K) (x : option P) : pmap -> Prop := fun a' => forall k', a' k' = if eqb k k' then x else a k'.
Definition psame (a a' : pmap) : Prop := forall k, a' k = a k.
(** get_or_insert: the value that is there, or else the new one [p]. *)
Definition p_get_or_insert (a : pmap) (k : K) (p : P) (r : eon P) (a' : pmap) : Prop :=
  match r with
  | Existing x => a k = Some x /\ psame a a'
  | New x => a k = None /\ x = p /\ pset a k (Some p) a'
  end.
End plain.

(** ** ConMap: a plain map from keys to element handles *)
Section conmapspec.
Context {K V : Type} (eqb : K -> K -> bool).
Definition handle := arc (element K V).
Definition map_spec (a : pmap) (c : map_call K V) (r : map_ret K V) (a' : pmap) : Prop :=
  match c, r with
  | MInsert k v id, MROpt x => x = a k /\ pset eqb a k (Some (Arc id (Element k v))) a'
  | MInsertElement e, MROpt x => x = a (el_key (arc_val e)) /\ pset eqb a (el_key (arc_val e)) (Some e) a'
  | MGetOrInsert k v id, MREon x => p_get_or_insert eqb a k (Arc id (Element k v)) x a'
  | MGetOrInsertWith k create id, MREon x => p_get_or_insert eqb a k (Arc id (Element k (create tt))) x a'
  | MGetOrInsertDefault k v id, MREon x => p_get_or_insert eqb a k (Arc id (Element k v)) x a'
  | MGetOrInsertWithElement k create, MREon x => p_get_or_insert eqb a k (create k) x a'
  | MGet k, MROpt x => x = a k /\ psame a a'
  | MRemove k, MROpt x => x = a k /\ pset eqb a k None a'
  | MIsEmpty, MRBool b => (b = true -> forall k, a k = None) /\ psame a a'
  | _, _ => False
  end.
(** The closure given to get_or_insert_with_element makes an element with the key that was asked for (all other methods do so by construction). *)
Definition map_proper (c : map_call K V) : Prop :=
  match c with MGetOrInsertWithElement k create => eqb (el_key (arc_val (create k))) k = true | _ => True end.
End conmapspec.
Definition map_atomic {K V} (c : map_call K V) : bool := match c with MIter => false | _ => true end.

(** ** CloneConMap: a plain map from keys to pairs *)
Section cloneconmapspec.
Context {K V : Type} (eqb : K -> K -> bool).
Inductive clone_ret := KROpt (x : option (K * V)) | KREon (x : eon (K * V)) | KRBool (b : bool) | KRIter (l : list (K * V)).
Definition clone_spec (a : pmap) (c : clone_call K V) (r : clone_ret) (a' : pmap) : Prop :=
  match c, r with
  | KInsert k v, KROpt x => x = a k /\ pset eqb a k (Some (k, v)) a'
  | KGetOrInsert k v, KREon x => p_get_or_insert eqb a k (k, v) x a'
  | KGetOrInsertWith k create, KREon x => p_get_or_insert eqb a k (k, create tt) x a'
  | KGetOrInsertDefault k v, KREon x => p_get_or_insert eqb a k (k, v) x a'
  | KGet k, KROpt x => x = a k /\ psame a a'
  | KRemove k, KROpt x => x = a k /\ pset eqb a k None a'
  | KIsEmpty, KRBool b => (b = true -> forall k, a k = None) /\ psame a a'
  | _, _ => False
  end.
Definition clone_view {hash : K -> N} (r : @res (clone_config K V eqb hash)) : clone_ret :=
  match r with
  | ROpt x => KROpt (option_map (@rr_val (clone_config K V eqb hash)) x)
  | REon x => KREon (eon_map (@rr_val (clone_config K V eqb hash)) x)
  | RBool b => KRBool b
  | RIter l => KRIter (map (@rr_val (clone_config K V eqb hash)) l)
  end.
End cloneconmapspec.
Definition clone_atomic {K V} (c : clone_call K V) : bool := match c with KIter => false | _ => true end.

(** ** ConSet: a set of values, at most one of each class of equal ones *)
Section consetspec.
Context {T : Type} (eqb : T -> T -> bool).
Definition pl_set := T -> Prop.
(** What is found when looking for [q]. *)
Definition found (S : pl_set) (q : T) (x : option T) : Prop :=
  match x with Some y => S y /\ eqb y q = true | None => forall y, S y -> eqb y q = false end.
Definition set_spec (S : pl_set) (c : set_call T) (r : set_ret T) (S' : pl_set) : Prop :=
  match c, r with
  | SInsert v, SROpt x => found S v x /\ forall y, S' y <-> y = v \/ (S y /\ eqb y v = false)
  | SGet q, SROpt x => found S q x /\ forall y, S' y <-> S y
  | SContains q, SRBool b => (b = true <-> exists y, S y /\ eqb y q = true) /\ forall y, S' y <-> S y
  | SRemove q, SROpt x => found S q x /\ forall y, S' y <-> S y /\ eqb y q = false
  | SIsEmpty, SRBool b => (b = true -> forall y, ~ S y) /\ forall y, S' y <-> S y
  | _, _ => False
  end.
End consetspec.
Definition set_atomic {T} (c : set_call T) : bool := match c with SIter => false | _ => true end.

(** ** extend *)
(** The last element of the list that has key [k]. *)
Definition last_with `{C : Config} (L : list Pl) (k : Key) : option Pl := List.find (fun p => keqb (keyof p) k) (rev L).
