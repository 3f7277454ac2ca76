(** * The abstract map and linearizability.
    This file defines what a plain key/value map does and what it means for a history to be linearizable.  It refers to
    the model only for the types of operations and events. *)
From Verif Require Import Model.

Section linspec.
Context {C : Config}.

(** A plain map. *)
Definition amap := Key -> option Pl.
Definition aempty : amap := fun _ => None.

(** What a caller sees of a result: the elements, not where they are stored. *)
Inductive aret := AOpt (x : option Pl) | AEon (x : eon Pl) | ABool (b : bool).

Definition val_of (r : res) : option aret :=
  match r with
  | ROpt x => Some (AOpt (rr_val <$> x))
  | REon x => Some (AEon (eon_map rr_val x))
  | RBool b => Some (ABool b)
  | RIter _ => None
  end.

(** [a'] is [a] with the element [p] put under its key. *)
Definition put (a : amap) (p : Pl) (a' : amap) : Prop := forall k, a' k = if keqb (keyof p) k then Some p else a k.
(** [a'] is [a] without key [k]. *)
Definition del (a : amap) (k : Key) (a' : amap) : Prop := forall k', a' k' = if keqb k k' then None else a k'.
Definition same (a a' : amap) : Prop := forall k, a' k = a k.

(** Operation [op], applied to the plain map [a], may return [r] and leave [a'].  All operations are deterministic except
    is_empty, which is only required not to lie when it says true.  (Iteration is not an atomic operation.) *)
Definition spec_step (a : amap) (op : oper) (r : aret) (a' : amap) : Prop :=
  match op, r with
  | OInsert p, AOpt x => x = a (keyof p) /\ put a p a'
  | OGetOrInsert k f, AEon (Existing p) => a k = Some p /\ same a a'
  | OGetOrInsert k f, AEon (New p) => a k = None /\ p = f k /\ put a p a'
  | OGet k, AOpt x => x = a k /\ same a a'
  | ORemove k, AOpt x => x = a k /\ del a k a'
  | OIsEmpty, ABool b => (b = true -> forall k, a k = None) /\ same a a'
  | _, _ => False
  end.

(** An operation with its result. *)
Record entry := Entry { e_id : opid; e_op : oper; e_ret : aret }.

Fixpoint spec_run (a : amap) (l : list entry) (a' : amap) : Prop :=
  match l with
  | [] => same a a'
  | e :: l => exists b, spec_step a (e_op e) (e_ret e) b /\ spec_run b l a'
  end.

(** In history [ev], operation [o1] returned before [o2] was called. *)
Definition precedes (ev : list event) (o1 o2 : opid) : Prop :=
  exists ev1 ev2 r op, ev = ev1 ++ ev2 /\ ERet o1 r ∈ ev1 /\ EInv o2 op ∈ ev2.

(** In the list [l], [o1] comes before [o2]. *)
Definition before (l : list entry) (o1 o2 : opid) : Prop :=
  exists l1 l2 e1 e2, l = l1 ++ l2 /\ e1 ∈ l1 /\ e2 ∈ l2 /\ e_id e1 = o1 /\ e_id e2 = o2.

(** Herlihy and Wing: [l] is a linearization of the history [ev], leading to the map [a]. *)
Record linearizes (l : list entry) (ev : list event) (a : amap) : Prop := {
  (* every operation occurs at most once and was really called *)
  lin_once : NoDup (e_id <$> l);
  lin_called : forall e, e ∈ l -> EInv (e_id e) (e_op e) ∈ ev;
  (* every operation that returned (other than iteration) occurs, with the result it returned *)
  lin_complete : forall o r v, ERet o r ∈ ev -> val_of r = Some v -> exists op, Entry o op v ∈ l;
  (* one after the other, starting from the empty map, they behave as on a plain map *)
  lin_legal : spec_run aempty l a;
  (* the order respects real time *)
  lin_order : forall o1 o2, o1 ∈ (e_id <$> l) -> o2 ∈ (e_id <$> l) -> precedes ev o1 o2 -> before l o1 o2;
}.

(** The element a get_or_insert_with closure makes has the key that was asked for (as it does for every caller in the crate's
    own wrappers that build the element from the key). *)
Definition op_wf (op : oper) : Prop :=
  match op with OGetOrInsert k f => keqb (keyof (f k)) k = true | _ => True end.
Definition wf_calls (ls : list label) : Prop := forall o op, LInv o op ∈ ls -> op_wf op.

End linspec.
