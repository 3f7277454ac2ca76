(** * Which containers can be sent to another thread, and which can be shared: the auto traits Send and Sync.
    Definitions only.

    rustc implements Send (Sync) for a struct or enum without being asked if all its fields are Send (Sync); for recursive types it assumes the conclusion (the rule is
    coinductive).  The crate has no [unsafe impl] of its own, so what holds for its types follows from the types of their fields.
    Modelled: the type definitions of the crate and this rule.  Not modelled: the rest of the type checker; in particular lifetimes. *)
From Verif Require Import Model.

Inductive trait := Send | Sync.

(** Types.  [TUser]: a type of the user, of which only matters if it is Send and if it is Sync
    (usize, String: both; Cell<usize>: only Send; MutexGuard<usize>: only Sync; Rc<usize>: none). *)
Inductive ty :=
| TUser (send sync : bool)
(* the standard library and crossbeam-epoch *)
| TArc (t : ty)                  (* std::sync::Arc<t> *)
| TRef (t : ty)                  (* &t *)
| TPhantom (t : ty)              (* PhantomData<t> *)
| TAtomic (t : ty)               (* crossbeam_epoch::Atomic<t> *)
| TShared (t : ty)               (* crossbeam_epoch::Shared<'_, t> *)
| TGuard                         (* crossbeam_epoch::Guard *)
| TArray (t : ty)                (* [t; n], ArrayVec<[t; n]> *)
| TPair (t1 t2 : ty)             (* (t1, t2) *)
| TUsize
(* the crate *)
| TInner                         (* raw::Inner *)
| TRaw (p s : ty)                (* raw::Raw<C, s> with C::Payload = p *)
| TLevel                         (* raw::iterator::Level<'_> *)
| TRawIter (p s : ty)            (* raw::iterator::Iter<'_, C, s> *)
| TElement (k v : ty)            (* map::Element<k, v> *)
| TMapPayload (k v : ty)         (* map::MapPayload<k, v> *)
| TConMap (k v s : ty)           (* ConMap<k, v, s> *)
| TMapIter (k v s : ty)          (* map::Iter<'_, k, v, s> *)
| TClonePayload (k v : ty)       (* clonemap::CloneMapPayload<k, v> *)
| TCloneConMap (k v s : ty)      (* CloneConMap<k, v, s> *)
| TCloneIter (k v s : ty)        (* clonemap::Iter<'_, k, v, s> *)
| TConSet (t s : ty)             (* ConSet<t, s> *)
| TSetIter (t s : ty)            (* set::Iter<'_, t, s> *)
| TEon (t : ty).                 (* ExistingOrNew<t> *)

(** What trait [tr] for type [t] is reduced to; [None]: it is not implemented. *)
Definition needs (tr : trait) (t : ty) : option (list (trait * ty)) :=
  match t with
  | TUser send sync => if (match tr with Send => send | Sync => sync end) then Some [] else None
  | TUsize => Some []
  (* unsafe impl<T: ?Sized + Sync + Send> Send for Arc<T>, and the same for Sync *)
  | TArc t => Some [(Send, t); (Sync, t)]
  (* unsafe impl<T: ?Sized + Sync> Send for &T; &T is Sync if T is *)
  | TRef t => Some [(Sync, t)]
  (* unsafe impl<T: Send + Sync> Send for Atomic<T>, and the same for Sync *)
  | TAtomic t => Some [(Send, t); (Sync, t)]
  (* they hold raw pointers *)
  | TShared _ => None
  | TGuard => None
  | TPhantom t => Some [(tr, t)]
  | TArray t => Some [(tr, t)]
  | TPair t1 t2 => Some [(tr, t1); (tr, t2)]
  | TInner => Some [(tr, TArray (TAtomic TInner))]                                            (* raw/mod.rs:257 *)
  | TRaw p s => Some [(tr, s); (tr, TAtomic TInner); (tr, TPhantom p)]                        (* raw/mod.rs:350-354 *)
  | TLevel => Some [(tr, TShared TInner); (tr, TUsize)]                                       (* raw/iterator.rs:17-20 *)
  | TRawIter p s => Some [(tr, TGuard); (tr, TArray TLevel); (tr, TPhantom (TRef (TRaw p s)))]  (* raw/iterator.rs:52-59 *)
  | TElement k v => Some [(tr, k); (tr, v)]                                                   (* map.rs:24-27 *)
  | TMapPayload k v => Some [(tr, TArc (TElement k v))]                                       (* map.rs:48 *)
  | TConMap k v s => Some [(tr, TRaw (TMapPayload k v) s)]                                    (* map.rs:151-158, 70-71 *)
  | TMapIter k v s => Some [(tr, TRawIter (TMapPayload k v) s)]                               (* map.rs:76-83 *)
  | TClonePayload k v => Some [(tr, TPair k v)]                                               (* clonemap.rs:18 *)
  | TCloneConMap k v s => Some [(tr, TRaw (TClonePayload k v) s)]                             (* clonemap.rs:110-116, 34-35 *)
  | TCloneIter k v s => Some [(tr, TRawIter (TClonePayload k v) s)]                           (* clonemap.rs:41-47 *)
  | TConSet t s => Some [(tr, TRaw t s)]                                                      (* set.rs:63-68, config.rs:24-33 *)
  | TSetIter t s => Some [(tr, TRawIter t s)]                                                 (* set.rs:177-182 *)
  | TEon t => Some [(tr, t)]                                                                  (* existing_or_new.rs:10-16 *)
  end.

(** [implements tr t]: there is a set of facts with this one in it, each of which is reduced to facts in the set (the rule is coinductive). *)
Definition implements (tr : trait) (t : ty) : Prop :=
  exists P : trait -> ty -> Prop, P tr t /\
    forall tr t, P tr t -> exists l, needs tr t = Some l /\ forall tr' t', (tr', t') ∈ l -> P tr' t'.

(** Some types.  [t_hasher]: RandomState. *)
Definition t_string := TUser true true.
Definition t_rc := TUser false false.
Definition t_cell := TUser true false.
Definition t_mutex_guard := TUser false true.
Definition t_hasher := TUser true true.
