(** * Model of the concurrent trie of contrie (src/raw/mod.rs, src/raw/iterator.rs)

    An executable small-step machine.  Every shared memory access of the Rust code (a load, a
    compare-and-set, a fetch_or on an [Atomic<Inner>]) is one step of the machine; the purely local
    code between two accesses is executed together with the access before it.  Line numbers refer
    to /repo/src/raw/mod.rs unless another file is named.

    This file contains definitions only. *)

From stdpp Require Export base gmap list numbers option fin_maps fin_sets.
From Coq Require Export NArith Lia.

(** ** The type parameters: [Config] and the hasher
    src/raw/config.rs:15-22 (trait Config: Payload, Key, Borrow<Key>), mod.rs:350-354 ([hash_builder])
    and mod.rs:382-389 ([Raw::hash]).
    Simplification: the query type [Q] with [Key: Borrow<Q>] is identified with [Key] (the [Borrow]
    contract says that [Eq] and [Hash] of the two agree). *)
Class Config := {
  Key : Type;
  Pl : Type;                       (* C::Payload *)
  keyof : Pl -> Key;               (* Payload: Borrow<Key> *)
  keqb : Key -> Key -> bool;       (* Key: Eq *)
  hashf : Key -> N;                (* Raw::hash, mod.rs:382-389 *)
}.

(** The contracts of [Eq], [Hash] and the range of [u64].  These are promises of the user of the crate. *)
Class ConfigOk (C : Config) : Prop := {
  keqb_refl : forall a, keqb a a = true;
  keqb_sym : forall a b, keqb a b = keqb b a;
  keqb_trans : forall a b c, keqb a b = true -> keqb b c = true -> keqb a c = true;
  hash_compat : forall a b, keqb a b = true -> hashf a = hashf b;
  hash_u64 : forall a, (hashf a < 2 ^ 64)%N;
}.

(** mod.rs:188-191 *)
Definition LEVEL_BITS : nat := 4.
Definition LEVEL_MASK : N := 15.
Definition LEVEL_CELLS : nat := 16.
Definition HASH_BITS : nat := 64.                        (* mem::size_of_val(&hash) * 8 *)
Definition MAX_LEVELS : nat := HASH_BITS / LEVEL_BITS.   (* 16 *)

(** [(hash >> shift) & LEVEL_MASK] as an index: mod.rs:604, 648, 677, 792. *)
Definition bits (h : N) (shift : nat) : nat :=
  N.to_nat (N.land (N.shiftr h (N.of_nat shift)) LEVEL_MASK).

(** Logical node names.  A name is never reused; the physical address of a node is in [ho_addr]. *)
Definition loc := positive.
Definition opid := positive.

(** [Shared<Inner>]: pointer (None = null) and the two flags of [NodeFlags], mod.rs:193-218.
    [nf] (mod.rs:221-223) cannot fail on two flag bits. *)
Record sh := Sh { sh_loc : option loc; sh_cond : bool; sh_data : bool }.
Definition sh_null : sh := Sh None false false.          (* Atomic::null, Shared::null *)
Definition is_null (v : sh) : bool := match sh_loc v with None => true | Some _ => false end.
Definition uncond (v : sh) : sh := Sh (sh_loc v) false (sh_data v).   (* & !CONDEMNED; mod.rs:448-449 *)
Definition recond (v : sh) : sh := Sh (sh_loc v) true (sh_data v).    (* fetch_or(CONDEMNED); mod.rs:445 *)

(** A reference to an [Atomic<Inner>]: the root or a slot of an inner node. *)
Inductive cell := CRoot | CSlot (l : loc) (i : nat).

(** How a node is (de)allocated: as [Inner] or as [Data<C>]. *)
Inductive dkind := KInner | KData.

Section model.
Context {C : Config}.

(** [Inner] (mod.rs:253-257) and [Data] (mod.rs:259-270). *)
Inductive body := BInner (slots : list sh) | BData (items : list Pl).

(** [Inner::default()] *)
Definition empty_slots : list sh := replicate LEVEL_CELLS sh_null.

(** A heap object: physical address and contents. *)
Record hobj := HObj { ho_addr : N; ho_body : body }.

(** Shared memory.
    [m_garb]: deferred destructions registered with crossbeam-epoch ([Guard::defer_destroy]): the node,
      the type it will be destroyed as, and the guards that were alive when it was registered.
    [m_freed]: nodes that have been freed, with the type they were freed as (newest first).
    [m_tmp]: nodes that were allocated and freed again without having been published (failed CAS), with
      the type they were freed as.  Such a node is private, so it never gets a name in the heap. *)
Record mem := Mem {
  m_root : sh;
  m_heap : gmap loc hobj;
  m_garb : list (loc * dkind * gset opid);
  m_freed : list (loc * dkind);
  m_tmp : list (body * dkind);
  m_next : loc;
}.

Definition freed (m : mem) (l : loc) : bool := bool_decide (l ∈ (m_freed m).*1).

(** Dereferencing a pointer.  [None] is undefined behaviour: dangling. *)
Definition deref (m : mem) (l : loc) : option body :=
  if freed m l then None else ho_body <$> m_heap m !! l.

(** Reading the pointer in a cell (load, load_consume, and the read part of CAS and fetch_or). *)
Definition read_cell (m : mem) (c : cell) : option sh :=
  match c with
  | CRoot => Some (m_root m)
  | CSlot l i => match deref m l with Some (BInner sl) => sl !! i | _ => None end
  end.

Definition set_slot (i : nat) (v : sh) (o : hobj) : hobj :=
  match ho_body o with
  | BInner sl => HObj (ho_addr o) (BInner (<[i := v]> sl))
  | BData _ => o
  end.

Definition write_cell (m : mem) (c : cell) (v : sh) : mem :=
  match c with
  | CRoot => Mem v (m_heap m) (m_garb m) (m_freed m) (m_tmp m) (m_next m)
  | CSlot l i => Mem (m_root m) (alter (set_slot i v) l (m_heap m)) (m_garb m) (m_freed m) (m_tmp m) (m_next m)
  end.

(** The allocator returns an address that no live object occupies; it may well be the former address of a
    freed object. *)
Definition addr_free (m : mem) (a : N) : bool :=
  negb (N.eqb a 0) &&
  forallb (fun '(l, o) => freed m l || negb (N.eqb (ho_addr o) a)) (map_to_list (m_heap m)).

Definition alloc (m : mem) (a : N) (b : body) : mem :=
  Mem (m_root m) (<[m_next m := HObj a b]> (m_heap m)) (m_garb m) (m_freed m) (m_tmp m) (Pos.succ (m_next m)).

(** [pin.defer_destroy(node)] *)
Definition retire (m : mem) (l : loc) (k : dkind) (gs : gset opid) : mem :=
  Mem (m_root m) (m_heap m) ((l, k, gs) :: m_garb m) (m_freed m) (m_tmp m) (m_next m).

(** Allocating and immediately dropping an unpublished node. *)
Definition drop_tmp (m : mem) (b : body) (k : dkind) : mem :=
  Mem (m_root m) (m_heap m) (m_garb m) (m_freed m) ((b, k) :: m_tmp m) (m_next m).

(** [drop_data] (mod.rs:244-251) checks the DATA flag and then drops [ptr.into_owned()].  [ptr] has type
    [Shared<Inner>], so what is dropped is an [Owned<Inner>]: the node is freed AS AN INNER NODE (no
    type-cast takes place, contrary to the doc comment; compare [load_data] and the casts at 545, 733). *)
Definition drop_data_kind : dkind := KInner.

(** Physical addresses; CAS compares these together with the tag bits. *)
Definition paddr (m : mem) (v : sh) : N :=
  match sh_loc v with
  | None => 0%N
  | Some l => match m_heap m !! l with Some o => ho_addr o | None => 0%N end
  end.

Definition sh_same (m : mem) (v w : sh) : bool :=
  N.eqb (paddr m v) (paddr m w) && Bool.eqb (sh_cond v) (sh_cond w) && Bool.eqb (sh_data v) (sh_data w).

(** ** Panics: every assert!/expect/unwrap/unreachable!/capacity check of the modelled code *)
Inductive panic :=
| PLoadInner          (* 227 load_data: "Tried to load data from inner node pointer" *)
| PLoadNull           (* 233 load_data: "A null pointer with data flag found" *)
| PPruneData          (* 423 prune: "Child passed to prune must not be data" *)
| PPruneNull          (* 427 prune: "Null child node passed to prune" *)
| PPruneTag           (* 487 prune: "Attempt to replace condemned pointer or prune data node" *)
| PReplaceNotData     (* 544, 731 replace: assert!(flags.contains(DATA)) *)
| PCondemnedRoot      (* 570, 752 "Condemned the root!" *)
| PEmptyData          (* 593 "Empty data nodes must not be kept around" *)
| PCollisionShallow   (* 595 "Collision node not deep enough" *)
| PShift              (* 604, 648, 792 shift overflow *)
| PNewEmpty           (* 587, 636 &new[0], new.last().unwrap() *)
| PNotCreated         (* 704 "Should have created one for me" *)
| PLevelsFull         (* 791 ArrayVec::push; iterator.rs:71,104 *)
| PCountNull.         (* 801 "We just checked for NULL" *)

Inductive failure := FPanic (p : panic) | FUB.

(** [load_data], mod.rs:225-234. *)
Definition load_data (m : mem) (v : sh) : failure + list Pl :=
  if negb (sh_data v) then inl (FPanic PLoadInner)
  else match sh_loc v with
  | None => inl (FPanic PLoadNull)
  | Some l => match deref m l with Some (BData it) => inr it | _ => inl FUB end
  end.

(** A returned reference [&'r C::Payload]: element [rr_idx] of data node [rr_loc]; [rr_val] is the payload it
    shows. *)
Record rref := RRef { rr_loc : loc; rr_idx : nat; rr_val : Pl }.

(** src/existing_or_new.rs:10-16 *)
Inductive eon (T : Type) := Existing (x : T) | New (x : T).
Arguments Existing {T} x.
Arguments New {T} x.
Definition eon_inner {T} (e : eon T) : T := match e with Existing x => x | New x => x end.   (* 20-25 *)
Definition eon_map {T U} (f : T -> U) (e : eon T) : eon U :=                                  (* 31-36 *)
  match e with Existing x => Existing (f x) | New x => New (f x) end.
Definition eon_is_new {T} (e : eon T) : bool := match e with New _ => true | Existing _ => false end. (* 39-44 *)

(** ** The operations of the API *)
Inductive oper :=
| OInsert (p : Pl)                           (* Raw::insert, 391-409 *)
| OGetOrInsert (k : Key) (f : Key -> Pl)     (* Raw::get_or_insert_with, 684-705 *)
| OGet (k : Key)                             (* Raw::get, 656-682 *)
| ORemove (k : Key)                          (* Raw::remove, 707-829 *)
| OIsEmpty                                   (* Raw::is_empty, 833-843 *)
| OIter.                                     (* raw::iterator::Iter::new and next until exhausted *)

Inductive res :=
| ROpt (o : option rref)
| REon (e : eon rref)
| RBool (b : bool)
| RIter (ys : list rref).

(** ** Local state of a running operation *)

(** [TraverseState], 272-308.  The state [Empty] exists only inside [payload] and is not represented. *)
Inductive tstate := TSCreated (p : Pl) | TSFuture (k : Key) (f : Key -> Pl).
Definition ts_key (t : tstate) : Key :=                       (* 283-289 *)
  match t with TSCreated p => keyof p | TSFuture k _ => k end.
(** [payload], 290-302: the payload, the new state, and the key the constructor was called with, if it was.
    Simplification: [payload.clone()] is the payload itself. *)
Definition ts_payload (t : tstate) : Pl * tstate * option Key :=
  match t with
  | TSCreated p => (p, TSCreated p, None)
  | TSFuture k f => (f k, TSCreated (f k), Some k)
  end.

Inductive tmode := Overwrite | IfMissing.                     (* 310-314 *)
Record tloc := TLoc { t_st : tstate; t_mode : tmode; t_hash : N }.
Definition t_with (t : tloc) (s : tstate) : tloc := TLoc s (t_mode t) (t_hash t).

Inductive prune_result := PRNull | PRSingleton | PRCopy | PRCasFail.   (* 316-327 *)

(** What a CAS in [traverse] is trying to do. *)
Inductive tcas := TKNew | TKSplit | TKData (result : option rref).

(** Where [prune] was called from. *)
Inductive pcont :=
| KTrav (t : tloc)                                    (* 571, then restart 577-579 *)
| KRem (k : Key) (h : N)                              (* 753, then restart 757-759 *)
| KUp (del : rref) (levels : list (cell * sh)).       (* 816, the remaining levels, deepest first *)

Inductive pc :=
| TLoad (t : tloc) (shift : nat) (cur : cell) (par : option (cell * sh))                  (* 530 *)
| TCas (t : tloc) (shift : nat) (cur : cell) (par : option (cell * sh))
       (node : sh) (new : body) (kind : tcas)                                             (* 536 *)
| PMark (k : pcont) (parent : cell) (child : sh) (i : nat)
        (ac : bool) (cnt : nat) (last : option sh) (new : list sh)                        (* 445 *)
| PCas (k : pcont) (parent : cell) (child : sh) (ins : sh + list sh) (pr : prune_result)  (* 495 *)
| GLoad (k : Key) (h : N) (cur : cell)                                                    (* 667 *)
| RLoad (k : Key) (h : N) (shift : nat) (cur : cell) (levels : list (cell * sh))          (* 720 *)
| RCas (k : Key) (h : N) (shift : nat) (cur : cell) (levels : list (cell * sh))
       (node : sh) (new : list Pl) (del : rref)                                           (* 723 *)
| RCount (del : rref) (levels : list (cell * sh)) (parent : cell) (child : sh)
         (i cnt : nat)                                                                    (* 808 *)
| ELoad                                                                                   (* 839 *)
| INew                                                                                    (* iterator.rs:69 *)
| INext (levels : list (sh * nat)) (out : list rref).                                     (* iterator.rs:84 *)

Inductive next := NRun (p : pc) | NRet (r : res) | NFail (f : failure).

(** Effects the caller can see: invocation of the user's closure, an element yielded by an iterator. *)
Inductive act := ACall (k : Key) | AYield (r : rref).

Definition sres : Type := option (mem * next * list act).
Definition ok (m : mem) (n : next) : sres := Some (m, n, []).
Definition panics (m : mem) (p : panic) : sres := ok m (NFail (FPanic p)).

(** First element whose key equals [k], with its index: [data.iter().find(..)], 618-621, 672-674. *)
Fixpoint find_idx (k : Key) (i : nat) (it : list Pl) : option (nat * Pl) :=
  match it with
  | [] => None
  | p :: it => if keqb (keyof p) k then Some (i, p) else find_idx k (S i) it
  end.
Definition find_ref (k : Key) (l : loc) (it : list Pl) : option rref :=
  match find_idx k 0 it with Some (i, p) => Some (RRef l i p) | None => None end.

(** 625-629: the other elements, in order. *)
Definition others (k : Key) (it : list Pl) : list Pl := filter (fun p => keqb (keyof p) k = false) it.

(** 763-775: [deleted] is the last element with the key. *)
Fixpoint find_last (k : Key) (i : nat) (it : list Pl) (acc : option (nat * Pl)) : option (nat * Pl) :=
  match it with
  | [] => acc
  | p :: it => find_last k (S i) it (if keqb (keyof p) k then Some (i, p) else acc)
  end.

(** How [traverse]'s [Option<ExistingOrNew>] is turned into the result of the API call:
    [insert] 408 (map into_inner), [get_or_insert_with] 703-704 (expect). *)
Definition t_finish (m : mem) (t : tloc) (r : option (eon rref)) (acts : list act) : sres :=
  match t_mode t with
  | Overwrite => Some (m, NRet (ROpt (eon_inner <$> r)), acts)
  | IfMissing => match r with
                 | Some e => Some (m, NRet (REon e), acts)
                 | None => panics m PNotCreated
                 end
  end.

(** Entry of [prune], 422-431. *)
Definition prune_start (m : mem) (k : pcont) (parent : cell) (child : sh) : sres :=
  if sh_data child then panics m PPruneData
  else if is_null child then panics m PPruneNull
  else ok m (NRun (PMark k parent child 0 true 0 None [])).

(** Start of one round of the cleanup loop in [remove], 798-829. *)
Definition rem_up (m : mem) (del : rref) (levels : list (cell * sh)) : sres :=
  match levels with
  | [] => ok m (NRet (ROpt (Some del)))
  | (parent, child) :: rest =>
      if is_null child then panics m PCountNull
      else ok m (NRun (RCount del rest parent child 0 0))
  end.

(** What happens after [prune] returned. *)
Definition prune_return (m : mem) (k : pcont) (pr : prune_result) : sres :=
  match k with
  | KTrav t => ok m (NRun (TLoad t 0 CRoot None))          (* 577-579 *)
  | KRem key h => ok m (NRun (RLoad key h 0 CRoot []))     (* 757-759 *)
  | KUp del levels =>
      match pr with
      | PRCopy => ok m (NRet (ROpt (Some del)))            (* 816-821 *)
      | _ => rem_up m del levels
      end
  end.

(** 467-491: decide what to put into the parent. *)
Definition prune_decide (m : mem) (k : pcont) (parent : cell) (child : sh)
    (ac : bool) (cnt : nat) (last : option sh) (new : list sh) : sres :=
  let d : (sh + list sh) * prune_result :=
    match ac, cnt, last with
    | true, 1, Some leaf => (inl leaf, PRSingleton)        (* 472 *)
    | _, 0, None => (inl sh_null, PRNull)                  (* 474 *)
    | _, _, _ => (inr new, PRCopy)                         (* 477-484 *)
    end in
  if sh_cond child || sh_data child then panics m PPruneTag
  else ok m (NRun (PCas k parent child d.1 d.2)).

(** One atomic step of an operation.  [gs]: the guards that are currently alive; [spur]: a weak CAS
    fails spuriously; [a]: the address the allocator returns if something is allocated (the step is not
    possible if that address is in use). *)
Definition op_step (gs : gset opid) (m : mem) (p : pc) (spur : bool) (a : N) : sres :=
  match p with

  (* [traverse], the loop body 529-653 *)
  | TLoad t shift cur par =>
    match read_cell m cur with
    | None => ok m (NFail FUB)
    | Some node =>
      if sh_cond node then                                            (* 563 *)
        match par with
        | None => panics m PCondemnedRoot
        | Some (parent, child) => prune_start m (KTrav t) parent child
        end
      else if is_null node then                                       (* 580 *)
        let '(p, st', call) := ts_payload (t_st t) in
        Some (m, NRun (TCas (t_with t st') shift cur par node (BData [p]) TKNew),
              match call with Some k => [ACall k] | None => [] end)
      else if sh_data node then                                       (* 591 *)
        match load_data m node with
        | inl f => ok m (NFail f)
        | inr [] => panics m PEmptyData
        | inr ((d0 :: _) as it) =>
          if negb (keqb (keyof d0) (ts_key (t_st t))) && (shift <? HASH_BITS) then    (* 594 *)
            if negb (length it =? 1) then panics m PCollisionShallow
            else
              let ob := bits (hashf (keyof d0)) shift in                          (* 603-604 *)
              ok m (NRun (TCas t shift cur par node
                               (BInner (<[ob := node]> empty_slots)) TKSplit))    (* 605-611 *)
          else
            let key := ts_key (t_st t) in
            let result := match sh_loc node with Some l => find_ref key l it | None => None end in
            match result, t_mode t with
            | Some r, IfMissing => t_finish m t (Some (Existing r)) []            (* 643 *)
            | _, _ =>                                                             (* 623-632 *)
              let '(p, st', call) := ts_payload (t_st t) in
              Some (m, NRun (TCas (t_with t st') shift cur par node
                                  (BData (others key it ++ [p])) (TKData result)),
                    match call with Some k => [ACall k] | None => [] end)
            end
        end
      else                                                            (* 645-652 *)
        match sh_loc node with
        | None => ok m (NFail FUB)
        | Some l =>
          if HASH_BITS <=? shift then panics m PShift
          else ok m (NRun (TLoad t (shift + LEVEL_BITS) (CSlot l (bits (t_hash t) shift))
                                 (Some (cur, node))))
        end
    end

  (* the closure [replace] of [traverse], 533-561, and what its callers do next *)
  | TCas t shift cur par node new kind =>
    match read_cell m cur with
    | None => ok m (NFail FUB)
    | Some now =>
      if negb (addr_free m a) then None
      else if sh_same m now node && negb spur then
        let l := m_next m in
        let is_data := match new with BData _ => true | BInner _ => false end in
        let m1 := write_cell (alloc m a new) cur (Sh (Some l) false is_data) in
        match kind with
        | TKSplit => ok m1 (NRun (TLoad t shift cur par))             (* 611: delete_previous = false *)
        | TKNew =>                                                    (* 582-589 *)
          match new with
          | BData (p0 :: _) =>
            t_finish m1 t (match t_mode t with Overwrite => None
                                             | IfMissing => Some (New (RRef l 0 p0)) end) []
          | _ => panics m1 PNewEmpty
          end
        | TKData result =>                                            (* 633-643 *)
          match sh_loc node with
          | None => ok m1 (NFail FUB)
          | Some old =>
            if negb (sh_data node) then panics m1 PReplaceNotData     (* 544 *)
            else
            let m2 := retire m1 old KData gs in                       (* 545-546 *)
            match new with
            | BData it =>
              match result, t_mode t with
              | None, IfMissing =>
                match it !! (length it - 1) with                      (* 636: new.last() *)
                | Some pl => t_finish m2 t (Some (New (RRef l (length it - 1) pl))) []
                | None => panics m2 PNewEmpty
                end
              | _, _ => t_finish m2 t (Existing <$> result) []
              end
            | BInner _ => ok m2 (NFail FUB)
            end
          end
        end
      else                                                            (* 550-559 *)
        ok (drop_tmp m new (match new with BData _ => drop_data_kind | BInner _ => KInner end))
           (NRun (TLoad t shift cur par))
    end

  (* [prune]: one round of the marking loop, 436-464 *)
  | PMark k parent child i ac cnt last new =>
    match sh_loc child with
    | None => ok m (NFail FUB)
    | Some l =>
      match read_cell m (CSlot l i) with
      | None => ok m (NFail FUB)
      | Some v =>
        let m1 := write_cell m (CSlot l i) (recond v) in
        let gc := uncond v in
        let r : failure + (bool * nat * option sh) :=
          if is_null gc then inr (ac, cnt, last)
          else if sh_data gc then
            match load_data m1 gc with
            | inl f => inl f
            | inr it => inr (ac, cnt + length it, Some gc)
            end
          else inr (false, S cnt, last) in
        match r with
        | inl f => ok m1 (NFail f)
        | inr (ac', cnt', last') =>
          let new' := new ++ [gc] in
          if S i <? LEVEL_CELLS then ok m1 (NRun (PMark k parent child (S i) ac' cnt' last' new'))
          else prune_decide m1 k parent child ac' cnt' last' new'
        end
      end
    end

  (* [prune]: the (strong) CAS on the parent, 492-507 *)
  | PCas k parent child ins pr =>
    match read_cell m parent with
    | None => ok m (NFail FUB)
    | Some now =>
      match ins, addr_free m a with
      | inr _, false => None
      | _, _ =>
        if sh_same m now child then
          let m1 := match ins with
                    | inl v => write_cell m parent v
                    | inr sl => write_cell (alloc m a (BInner sl)) parent (Sh (Some (m_next m)) false false)
                    end in
          match sh_loc child with
          | None => ok m1 (NFail FUB)
          | Some l => prune_return (retire m1 l KInner gs) k pr       (* 501-502 *)
          end
        else
          prune_return (match ins with inl _ => m | inr sl => drop_tmp m (BInner sl) KInner end)
                       k PRCasFail                                    (* 504-506 *)
      end
    end

  (* [get], 666-681 *)
  | GLoad k h cur =>
    match read_cell m cur with
    | None => ok m (NFail FUB)
    | Some node =>
      if is_null node then ok m (NRet (ROpt None))
      else if sh_data node then
        match load_data m node with
        | inl f => ok m (NFail f)
        | inr it => ok m (NRet (ROpt (match sh_loc node with Some l => find_ref k l it | None => None end)))
        end
      else
        match sh_loc node with
        | None => ok m (NFail FUB)
        | Some l => ok m (NRun (GLoad k (N.shiftr h (N.of_nat LEVEL_BITS)) (CSlot l (bits h 0))))
        end
    end

  (* [remove], the search loop 719-796 *)
  | RLoad k h shift cur levels =>
    match read_cell m cur with
    | None => ok m (NFail FUB)
    | Some node =>
      if is_null node then ok m (NRet (ROpt None))                    (* 747-749 *)
      else if sh_cond node then                                       (* 750-759 *)
        match levels with
        | [] => panics m PCondemnedRoot
        | (parent, child) :: _ => prune_start m (KRem k h) parent child
        end
      else if sh_data node then                                       (* 760-788 *)
        match load_data m node with
        | inl f => ok m (NFail f)
        | inr it =>
          match find_last k 0 it None, sh_loc node with
          | Some (i, p), Some l => ok m (NRun (RCas k h shift cur levels node (others k it) (RRef l i p)))
          | _, _ => ok m (NRet (ROpt None))
          end
        end
      else                                                            (* 789-795 *)
        match sh_loc node with
        | None => ok m (NFail FUB)
        | Some l =>
          if MAX_LEVELS <=? length levels then panics m PLevelsFull
          else if HASH_BITS <=? shift then panics m PShift
          else ok m (NRun (RLoad k h (shift + LEVEL_BITS) (CSlot l (bits h shift)) ((cur, node) :: levels)))
        end
    end

  (* [remove]: the closure [replace], 722-745, and 778-788 *)
  | RCas k h shift cur levels node new del =>
    match read_cell m cur with
    | None => ok m (NFail FUB)
    | Some now =>
      match new, addr_free m a with
      | _ :: _, false => None
      | _, _ =>
        if sh_same m now node && negb spur then
          let m1 := match new with
                    | [] => write_cell m cur sh_null
                    | _ :: _ => write_cell (alloc m a (BData new)) cur (Sh (Some (m_next m)) false true)
                    end in
          if negb (sh_data node) then panics m1 PReplaceNotData       (* 731 *)
          else match sh_loc node with
          | None => ok m1 (NFail FUB)
          | Some old => rem_up (retire m1 old KData gs) del levels    (* 732-735, 798 *)
          end
        else
          ok (match new with [] => m | _ :: _ => drop_tmp m (BData new) drop_data_kind end)
             (NRun (RLoad k h shift cur levels))                      (* 738-743, 783-785 *)
      end
    end

  (* [remove]: counting the non-null pointers of a level, 801-821 *)
  | RCount del levels parent child i cnt =>
    match sh_loc child with
    | None => ok m (NFail FUB)
    | Some l =>
      match read_cell m (CSlot l i) with
      | None => ok m (NFail FUB)
      | Some v =>
        let cnt' := if is_null v then cnt else S cnt in
        if S i <? LEVEL_CELLS then ok m (NRun (RCount del levels parent child (S i) cnt'))
        else if 1 <? cnt' then ok m (NRet (ROpt (Some del)))          (* 810-813 *)
        else prune_start m (KUp del levels) parent child              (* 816 *)
      end
    end

  (* [is_empty], 838-842 *)
  | ELoad => ok m (NRet (RBool (is_null (m_root m))))

  (* [Iter::new], iterator.rs:66-77 *)
  | INew => ok m (NRun (INext [(m_root m, 0)] []))

  (* one round of the loop in [Iter::next], iterator.rs:84-108; the machine calls [next] until it returns
     None.  [levels] has the top of the stack first; [out] is what has been yielded so far. *)
  | INext levels out =>
    match levels with
    | [] => ok m (NRet (RIter out))                                   (* 85: last_mut()? *)
    | (v, idx) :: rest =>
      if is_null v then ok m (NRun (INext rest out))                  (* 88-89 *)
      else if sh_data v then                                          (* 90-98 *)
        match load_data m v, sh_loc v with
        | inl f, _ => ok m (NFail f)
        | inr _, None => ok m (NFail FUB)
        | inr it, Some l =>
          match it !! idx with
          | Some p => Some (m, NRun (INext ((v, S idx) :: rest) (out ++ [RRef l idx p])), [AYield (RRef l idx p)])
          | None => ok m (NRun (INext rest out))
          end
        end
      else if idx <? LEVEL_CELLS then                                 (* 99-104 *)
        match sh_loc v with
        | None => ok m (NFail FUB)
        | Some l =>
          match read_cell m (CSlot l idx) with
          | None => ok m (NFail FUB)
          | Some w =>
            if MAX_LEVELS + 1 <=? length levels then panics m PLevelsFull
            else ok m (NRun (INext ((w, 0) :: (v, S idx) :: rest) out))
          end
        end
      else ok m (NRun (INext rest out))                               (* 105-106 *)
    end
  end.

(** First program point of an operation: 401-406 and 525-528; 664-665; 699-703; 715-718; 838; iterator.rs:66. *)
Definition op_init (o : oper) : pc :=
  match o with
  | OInsert p => TLoad (TLoc (TSCreated p) Overwrite (hashf (keyof p))) 0 CRoot None
  | OGetOrInsert k f => TLoad (TLoc (TSFuture k f) IfMissing (hashf k)) 0 CRoot None
  | OGet k => GLoad k (hashf k) CRoot
  | ORemove k => RLoad k (hashf k) 0 CRoot []
  | OIsEmpty => ELoad
  | OIter => INew
  end.

(** ** The whole system *)

(** Status of an operation.  [SRun]: in progress; [SRet]: has returned, but the guard it ran under is still
    held (so the references in the result may still be used); [SFail]: panicked inside the crate or ran
    into undefined behaviour; [SGone]: its guard has been dropped. *)
Inductive ostat :=
| SRun (o : oper) (p : pc)
| SRet (o : oper) (r : res)
| SFail (o : oper) (f : failure)
| SGone.

Definition active (st : ostat) : bool := match st with SGone => false | _ => true end.

(** [s_dropped]: the map has been dropped; [s_ub]: something was freed twice or the destructor met a
    dangling pointer. *)
Record state := State { s_mem : mem; s_ops : gmap opid ostat; s_dropped : bool; s_ub : bool }.

(** [Raw::with_hasher], 362-379 *)
Definition mem0 : mem := Mem sh_null ∅ [] [] [] 1%positive.
Definition init : state := State mem0 ∅ false false.

(** The guards that are alive. *)
Definition guards (s : state) : gset opid := dom (filter (fun kv => active kv.2 = true) (s_ops s)).

(** ** The destructor, 851-881.
    The frees [drop_recursive] performs, in order; [None]: a dangling pointer was followed (or the trie is
    deeper than the fuel, which is larger than the greatest possible depth). *)
Fixpoint drop_rec (fuel : nat) (m : mem) (v : sh) : option (list (loc * dkind)) :=
  match fuel with
  | 0 => None
  | S fuel =>
    match sh_loc v with
    | None => Some []                                                (* 867 *)
    | Some l =>
      if sh_data v then                                              (* 869-870 *)
        match deref m l with Some (BData _) => Some [(l, drop_data_kind)] | _ => None end
      else                                                           (* 871-877 *)
        match deref m l with
        | Some (BInner sl) =>
          match
            (fix go (ws : list sh) : option (list (loc * dkind)) :=
               match ws with
               | [] => Some []
               | w :: ws => match drop_rec fuel m w, go ws with
                            | Some a, Some b => Some (a ++ b)
                            | _, _ => None
                            end
               end) sl
          with
          | Some fs => Some (fs ++ [(l, KInner)])
          | None => None
          end
        | _ => None
        end
    end
  end.

Definition free_list (m : mem) (fs : list (loc * dkind)) : mem :=
  Mem (m_root m) (m_heap m) (m_garb m) (reverse fs ++ m_freed m) (m_tmp m) (m_next m).

(** Labels: who does what next. *)
Inductive label :=
| LInv (o : opid) (op : oper)               (* a call starts, under a fresh guard *)
| LStep (o : opid) (spur : bool) (a : N)    (* an operation performs its next atomic access *)
| LUnpin (o : opid)                         (* the guard of a finished operation is dropped *)
| LAbort (o : opid)                         (* a call unwinds (user code panicked) or an iterator is dropped early *)
| LFree (n : nat)                           (* the collector runs the n-th deferred destruction *)
| LDrop.                                    (* the map is dropped *)

Inductive event :=
| EInv (o : opid) (op : oper)
| ERet (o : opid) (r : res)
| ECall (o : opid) (k : Key)
| EYield (o : opid) (r : rref).

Definition act_event (o : opid) (a : act) : event :=
  match a with ACall k => ECall o k | AYield r => EYield o r end.

Definition set_op (s : state) (o : opid) (st : ostat) : state :=
  State (s_mem s) (<[o := st]> (s_ops s)) (s_dropped s) (s_ub s).

Definition step (s : state) (lb : label) : option (state * list event) :=
  match lb with
  | LInv o op =>
    match s_ops s !! o, s_dropped s with
    | None, false => Some (set_op s o (SRun op (op_init op)), [EInv o op])
    | _, _ => None
    end
  | LStep o spur a =>
    match s_ops s !! o with
    | Some (SRun op p) =>
      match op_step (guards s) (s_mem s) p spur a with
      | Some (m, nx, acts) =>
        let st := match nx with NRun p' => SRun op p' | NRet r => SRet op r | NFail f => SFail op f end in
        Some (State m (<[o := st]> (s_ops s)) (s_dropped s) (s_ub s),
              map (act_event o) acts ++ match nx with NRet r => [ERet o r] | _ => [] end)
      | None => None
      end
    | _ => None
    end
  | LUnpin o =>
    match s_ops s !! o with Some (SRet _ _) => Some (set_op s o SGone, []) | _ => None end
  | LAbort o =>
    match s_ops s !! o with Some (SRun _ _) => Some (set_op s o SGone, []) | _ => None end
  | LFree n =>
    (* crossbeam-epoch: a deferred destruction runs once no guard that was alive at registration is alive *)
    match m_garb (s_mem s) !! n with
    | Some (l, k, gs) =>
      if bool_decide (gs ∩ guards s = ∅) then
        let m := s_mem s in
        Some (State (Mem (m_root m) (m_heap m) (delete n (m_garb m)) ((l, k) :: m_freed m) (m_tmp m) (m_next m))
                    (s_ops s) (s_dropped s) (s_ub s || freed m l), [])
      else None
    | None => None
    end
  | LDrop =>
    (* needs &mut self: no call in progress, no guard-bound reference outstanding *)
    if bool_decide (guards s = ∅) && negb (s_dropped s) then
      match drop_rec (MAX_LEVELS + 2) (s_mem s) (m_root (s_mem s)) with
      | Some fs =>
        Some (State (free_list (s_mem s) fs) (s_ops s) true
                    (s_ub s || negb (bool_decide (NoDup (fs.*1 ++ (m_freed (s_mem s)).*1)))), [])
      | None => Some (State (s_mem s) (s_ops s) true true, [])
      end
    else None
  end.

(** Executions: the list of transitions taken from the initial state, oldest first. *)
Fixpoint run (s : state) (ls : list label) : option (state * list event) :=
  match ls with
  | [] => Some (s, [])
  | lb :: ls =>
    match step s lb with
    | Some (s', ev) =>
      match run s' ls with Some (s'', ev') => Some (s'', ev ++ ev') | None => None end
    | None => None
    end
  end.

End model.

Arguments Existing {T} x.
Arguments New {T} x.
