(** * Model of the three containers built on the trie: ConMap (src/map.rs), CloneConMap (src/clonemap.rs), ConSet (src/set.rs),
    and of ExistingOrNew (src/existing_or_new.rs).

    Every method of a container pins the epoch, calls one method of [Raw] with a payload it builds, and copies what it gets out of the result.
    So a method is modelled by the operation of the trie it starts and by what it makes of the operation's result.
    The methods that make several calls ([extend], [from_iter], [clone]) are modelled by the list of calls they make.
    Definitions only. *)
From Verif Require Import Model.

(** ** ExistingOrNew (existing_or_new.rs:10-64): the type [eon], [eon_inner] (into_inner, 20-25), [eon_map] (map, 31-36) and [eon_is_new] (is_new, 39-44)
    are in Model.v. *)
(** [Deref::deref], existing_or_new.rs:47-55: the value the reference points to. *)
Definition eon_deref {T} (e : eon T) : T := match e with Existing x => x | New x => x end.
(** [DerefMut::deref_mut], existing_or_new.rs:57-64: what [e] becomes when the caller replaces the value [x] behind the reference by [f x]. *)
Definition eon_deref_mut {T} (f : T -> T) (e : eon T) : eon T := match e with Existing x => Existing (f x) | New x => New (f x) end.

(** ** ConMap *)
(** [Element], map.rs:24-46, with its accessors [key] and [value]. *)
Record element (K V : Type) := Element { el_key : K; el_value : V }.
Arguments Element {K V} _ _. Arguments el_key {K V} _. Arguments el_value {K V} _.
(** [Arc<T>]: which allocation it points to, and what is there.  [Arc::clone] copies the handle; two handles are the same ([Arc::ptr_eq]) if they
    are equal as values of this type.  Simplification: reference counts are not modelled. *)
Record arc (T : Type) := Arc { arc_id : positive; arc_val : T }.
Arguments Arc {T} _ _. Arguments arc_id {T} _. Arguments arc_val {T} _.

Section conmap.
Context (K V : Type) (eqb : K -> K -> bool) (hash : K -> N).

(** [MapPayload] and [MapConfig], map.rs:48-73. *)
Definition map_config : Config := {| Key := K; Pl := arc (element K V); keyof := fun p => el_key (arc_val p); keqb := eqb; hashf := hash |}.

(** The methods, map.rs:172-315.  [id] is the allocation [Arc::new] returns (within the closure, where there is one). *)
Inductive map_call :=
| MInsert (k : K) (v : V) (id : positive)                        (* 181-183 *)
| MGetOrInsert (k : K) (v : V) (id : positive)                   (* 189-191 *)
| MGetOrInsertWith (k : K) (create : unit -> V) (id : positive)  (* 204-212 *)
| MGetOrInsertDefault (k : K) (default : V) (id : positive)      (* 218-223 *)
| MInsertElement (e : arc (element K V))                         (* 246-251 *)
| MGetOrInsertWithElement (k : K) (create : K -> arc (element K V))   (* 260-273 *)
| MGet (k : K)                                                   (* 276-283 *)
| MRemove (k : K)                                                (* 286-293 *)
| MIsEmpty                                                       (* 305-307 *)
| MIter.                                                         (* 310-314, 85-94, 360-370 *)
(** get_or_insert_with, map.rs:204-212, in terms of get_or_insert_with_element. *)
Definition map_with (k : K) (create : unit -> V) (id : positive) : @oper map_config :=
  @OGetOrInsert map_config k (fun key => Arc id (Element key (create tt))).
Definition map_raw (c : map_call) : @oper map_config :=
  match c with
  | MInsert k v id => @OInsert map_config (Arc id (Element k v))
  | MGetOrInsert k v id => map_with k (fun _ => v) id
  | MGetOrInsertWith k create id => map_with k create id
  | MGetOrInsertDefault k default id => map_with k (fun _ => default) id
  | MInsertElement e => @OInsert map_config e
  | MGetOrInsertWithElement k create => @OGetOrInsert map_config k create
  | MGet k => @OGet map_config k
  | MRemove k => @ORemove map_config k
  | MIsEmpty => @OIsEmpty map_config
  | MIter => @OIter map_config
  end.
(** What a method returns: [.map(|p| Arc::clone(&p.0))] etc. *)
Inductive map_ret :=
| MROpt (x : option (arc (element K V)))
| MREon (x : eon (arc (element K V)))
| MRBool (b : bool)
| MRIter (l : list (arc (element K V))).
Definition map_view (r : @res map_config) : map_ret :=
  match r with
  | ROpt x => MROpt (option_map (@rr_val map_config) x)
  | REon x => MREon (eon_map (@rr_val map_config) x)
  | RBool b => MRBool b
  | RIter l => MRIter (map (@rr_val map_config) l)
  end.

(** [Extend<Arc<Element>>], map.rs:372-386, 401-414; [FromIterator<Arc<Element>>], 430-443: the latter starts with a new map. *)
Definition map_extend (l : list (arc (element K V))) : list map_call := map MInsertElement l.
(** [Extend<(K, V)>], map.rs:388-399, 416-428, [FromIterator<(K, V)>], 445-456: with the allocations the pairs are put in. *)
Definition map_extend_pairs (l : list (K * V * positive)) : list map_call :=
  map_extend (map (fun '(k, v, id) => Arc id (Element k v)) l).
(** [Clone], map.rs:346-358: the calls made on the new map, given what the iteration of the old one yielded. *)
Definition map_clone (yielded : list (arc (element K V))) : list map_call := map_extend yielded.
(** [ParallelExtend], map.rs:459-528, [FromParallelIterator], 530-561: the calls that are made, in no particular order and overlapping in any way. *)
Definition map_par_extend (l : list (arc (element K V))) : list map_call := map MInsertElement l.
Definition map_par_extend_pairs (l : list (K * V * positive)) : list map_call :=
  map_par_extend (map (fun '(k, v, id) => Arc id (Element k v)) l).
End conmap.
Arguments MInsert {K V}. Arguments MGetOrInsert {K V}. Arguments MGetOrInsertWith {K V}. Arguments MGetOrInsertDefault {K V}. Arguments MInsertElement {K V}.
Arguments MGetOrInsertWithElement {K V}. Arguments MGet {K V}. Arguments MRemove {K V}. Arguments MIsEmpty {K V}. Arguments MIter {K V}.
Arguments MROpt {K V}. Arguments MREon {K V}. Arguments MRBool {K V}. Arguments MRIter {K V}.
Arguments map_raw {K V}. Arguments map_view {K V eqb hash}. Arguments map_extend {K V}. Arguments map_extend_pairs {K V}. Arguments map_clone {K V}. Arguments map_par_extend {K V}. Arguments map_par_extend_pairs {K V}. Arguments map_with {K V}.

(** ** CloneConMap *)
Section clonemap.
Context (K V : Type) (eqb : K -> K -> bool) (hash : K -> N).
(** [CloneMapPayload] and [CloneMapConfig], clonemap.rs:17-36.  Simplification: a clone of a key or value is identified with the original. *)
Definition clone_config : Config := {| Key := K; Pl := K * V; keyof := fst; keqb := eqb; hashf := hash |}.
(** The methods, clonemap.rs:129-251. *)
Inductive clone_call :=
| KInsert (k : K) (v : V)                           (* 138-143 *)
| KGetOrInsert (k : K) (v : V)                      (* 149-151 *)
| KGetOrInsertWith (k : K) (create : unit -> V)     (* 166-182 *)
| KGetOrInsertDefault (k : K) (default : V)         (* 189-194 *)
| KGet (k : K)                                      (* 211-218 *)
| KRemove (k : K)                                   (* 221-228 *)
| KIsEmpty                                          (* 241-243 *)
| KIter.                                            (* 246-250, 49-58 *)
Definition clone_with (k : K) (create : unit -> V) : @oper clone_config := @OGetOrInsert clone_config k (fun key => (key, create tt)).
Definition clone_raw (c : clone_call) : @oper clone_config :=
  match c with
  | KInsert k v => @OInsert clone_config (k, v)
  | KGetOrInsert k v => clone_with k (fun _ => v)
  | KGetOrInsertWith k create => clone_with k create
  | KGetOrInsertDefault k default => clone_with k (fun _ => default)
  | KGet k => @OGet clone_config k
  | KRemove k => @ORemove clone_config k
  | KIsEmpty => @OIsEmpty clone_config
  | KIter => @OIter clone_config
  end.
(** [Extend], clonemap.rs:299-328, [FromIterator], 330-343. *)
Definition clone_extend (l : list (K * V)) : list clone_call := map (fun '(k, v) => KInsert k v) l.
(** [Clone], clonemap.rs:273-285. *)
Definition clone_clone (yielded : list (K * V)) : list clone_call := clone_extend yielded.
(** [ParallelExtend], clonemap.rs:345-377, [FromParallelIterator], 379-393: calls that may overlap. *)
Definition clone_par_extend (l : list (K * V)) : list clone_call := map (fun '(k, v) => KInsert k v) l.
End clonemap.
Arguments KInsert {K V}. Arguments KGetOrInsert {K V}. Arguments KGetOrInsertWith {K V}. Arguments KGetOrInsertDefault {K V}. Arguments KGet {K V}.
Arguments KRemove {K V}. Arguments KIsEmpty {K V}. Arguments KIter {K V}. Arguments clone_raw {K V}. Arguments clone_extend {K V}. Arguments clone_clone {K V}. Arguments clone_par_extend {K V}. Arguments clone_with {K V}.

(** ** ConSet *)
Section conset.
Context (T : Type) (eqb : T -> T -> bool) (hash : T -> N).
(** [config::Trivial], config.rs:24-33: the payload is its own key. *)
Definition set_config : Config := {| Key := T; Pl := T; keyof := fun x => x; keqb := eqb; hashf := hash |}.
(** The methods, set.rs:80-172. *)
Inductive set_call :=
| SInsert (v : T)         (* 95-98 *)
| SGet (q : T)            (* 103-110 *)
| SContains (q : T)       (* 116-123 *)
| SRemove (q : T)         (* 126-133 *)
| SIsEmpty                (* 139-141 *)
| SIter.                  (* 167-171, 184-193 *)
Definition set_raw (c : set_call) : @oper set_config :=
  match c with
  | SInsert v => @OInsert set_config v
  | SGet q => @OGet set_config q
  | SContains q => @OGet set_config q
  | SRemove q => @ORemove set_config q
  | SIsEmpty => @OIsEmpty set_config
  | SIter => @OIter set_config
  end.
Inductive set_ret := SROpt (x : option T) | SRBool (b : bool) | SRIter (l : list T) | SRBad.
(** [.cloned()], [.is_some()].  [SRBad]: the trie returned something of another type (this cannot happen). *)
Definition set_view (c : set_call) (r : @res set_config) : set_ret :=
  match c, r with
  | SContains _, ROpt x => SRBool (match x with Some _ => true | None => false end)
  | SIsEmpty, RBool b => SRBool b
  | SIter, RIter l => SRIter (map (@rr_val set_config) l)
  | (SInsert _ | SGet _ | SRemove _), ROpt x => SROpt (option_map (@rr_val set_config) x)
  | _, _ => SRBad
  end.
(** [Extend], set.rs:207-234, [FromIterator], 236-248. *)
Definition set_extend (l : list T) : list set_call := map SInsert l.
(** [ParallelExtend], set.rs:250-279, [FromParallelIterator], 281-293: calls that may overlap. *)
Definition set_par_extend (l : list T) : list set_call := map SInsert l.
End conset.
Arguments SInsert {T}. Arguments SGet {T}. Arguments SContains {T}. Arguments SRemove {T}. Arguments SIsEmpty {T}. Arguments SIter {T}.
Arguments SROpt {T}. Arguments SRBool {T}. Arguments SRIter {T}. Arguments SRBad {T}.
Arguments set_raw {T}. Arguments set_view {T eqb hash}. Arguments set_extend {T}. Arguments set_par_extend {T}.
