(** * Vocabulary used to state the properties.
    Definitions only.  Nothing here is used by the model; it only speaks about states, executions and events
    of the machine in Model.v. *)
From Verif Require Import Model.

Section spec.
Context {C : Config}.
Implicit Types (s : state) (m : mem) (ls : list label) (ev : list event) (k : Key) (p : Pl).

(** ** Executions *)

(** [ls] is the schedule, [s] the state it leads to from the empty map, [ev] everything the callers saw. *)
Definition exec ls s ev : Prop := run init ls = Some (s, ev).
Definition reachable s : Prop := exists ls ev, exec ls s ev.

(** The state after the first [n] transitions of a schedule. *)
Definition state_at ls (n : nat) : option state := fst <$> run init (take n ls).

(** ** What is in the map *)

(** Nodes that can be reached from the root by following pointers; [n] inner nodes are passed on the way. *)
Inductive linked_at m : nat -> loc -> Prop :=
| linked_root l : sh_loc (m_root m) = Some l -> linked_at m 0 l
| linked_slot n l a sl w l' : linked_at m n l -> m_heap m !! l = Some (HObj a (BInner sl)) -> w ∈ sl -> sh_loc w = Some l' ->
    linked_at m (S n) l'.
Definition linked m l : Prop := exists n, linked_at m n l.

(** Element [p] is stored in the map. *)
Definition stored m p : Prop := exists l a it, linked m l /\ m_heap m !! l = Some (HObj a (BData it)) /\ p ∈ it.

(** In state [s], key [k] has the value [p] / has no value. *)
Definition maps s k p : Prop := stored (s_mem s) p /\ keqb (keyof p) k = true.
Definition absent s k : Prop := forall p, ~ maps s k p.
Definition has s k (r : option Pl) : Prop := match r with Some p => maps s k p | None => absent s k end.

(** ** Compare-and-sets
    The cell and the expected pointer of the compare-and-set an operation is about to execute
    (mod.rs:536, 723, 495). *)
Definition cas_of (p : pc) : option (cell * sh) :=
  match p with
  | TCas _ _ cur _ node _ _ => Some (cur, node)
  | RCas _ _ _ cur _ node _ _ => Some (cur, node)
  | PCas _ parent child _ _ => Some (parent, child)
  | _ => None
  end.

(** The reference [r] can be dereferenced and shows its payload. *)
Definition ref_valid m (r : rref) : Prop :=
  exists it, deref m (rr_loc r) = Some (BData it) /\ it !! rr_idx r = Some (rr_val r).

(** The references inside a result. *)
Definition refs_of (r : res) : list rref :=
  match r with
  | ROpt (Some x) => [x]
  | ROpt None => []
  | REon (Existing x) => [x]
  | REon (New x) => [x]
  | RBool _ => []
  | RIter ys => ys
  end.

(** The type a node was allocated as. *)
Definition kind_of_body (b : body) : dkind := match b with BInner _ => KInner | BData _ => KData end.

(** ** Calls *)
(** In state [s] the call [o] of operation [op] is in progress / has come to an end. *)
Definition in_progress s (o : opid) (op : oper) : Prop := exists q, s_ops s !! o = Some (SRun op q).
Definition finished s (o : opid) : Prop := (exists op r, s_ops s !! o = Some (SRet op r)) \/ s_ops s !! o = Some SGone.

(** Every key has the same value in [s] and [s']. *)
Definition same_contents s s' : Prop := forall k x, has s k x <-> has s' k x.
(** Every key other than [k] has the same value in [s] and [s']. *)
Definition same_elsewhere k s s' : Prop := forall k' x, keqb k k' = false -> has s k' x <-> has s' k' x.

(** The transition number [j] of the schedule is a step of call [o], and goes from [s] to [s']. *)
Definition step_at ls (j : nat) (o : opid) s s' : Prop :=
  (exists spur a, ls !! j = Some (LStep o spur a)) /\ state_at ls j = Some s /\ state_at ls (S j) = Some s'.

(** Operation [op] is one that could change what key [k] maps to. *)
Definition touches (op : oper) k : Prop :=
  match op with
  | OInsert p => keqb (keyof p) k = true
  | OGetOrInsert k' _ => keqb k' k = true
  | ORemove k' => keqb k' k = true
  | _ => False
  end.

(** Call [o] took element [p] out of the map: it removed it or displaced it, and got it back. *)
Definition took_out ev (o : opid) p : Prop :=
  exists x, ERet o (ROpt (Some x)) ∈ ev /\ rr_val x = p /\ ((exists k, EInv o (ORemove k) ∈ ev) \/ (exists q, EInv o (OInsert q) ∈ ev)).
(** Call [o] put element [p] into the map. *)
Definition put_in ev (o : opid) p : Prop :=
  EInv o (OInsert p) ∈ ev \/ exists k f x, EInv o (OGetOrInsert k f) ∈ ev /\ ERet o (REon (New x)) ∈ ev /\ rr_val x = p /\ p = f k.

(** A call to get_or_insert_with for [k] that was not over in state [s0] and has returned [e]. *)
Definition goi_call ev s0 k (o : opid) (e : eon rref) : Prop :=
  ~ finished s0 o /\ (exists k' f, EInv o (OGetOrInsert k' f) ∈ ev /\ keqb k' k = true) /\ ERet o (REon e) ∈ ev.

(** The key a call is about. *)
Definition op_key (op : oper) : option Key :=
  match op with OInsert p => Some (keyof p) | OGetOrInsert k _ | OGet k | ORemove k => Some k | OIsEmpty | OIter => None end.

(** The operations that do not modify the map. *)
Definition is_reader (op : oper) : bool := match op with OGet _ | OIsEmpty | OIter => true | _ => false end.

(** The keys call [o] invoked its closure with, in order. *)
Definition calls_of ev (o : opid) : list Key :=
  omap (fun e => match e with ECall o' k => if decide (o' = o) then Some k else None | _ => None end) ev.

End spec.
