(** * The C11 memory model, without views.
    Definitions only.

    Rc11.v leaves it to the views of Weak.v whether what a step looks at has been initialised.  Here there are no views: a step works on the nodes as they are, initialised or not.
    That everything a step looks at has been initialised BEFORE is then a matter of the happens-before relation of the C11 standard (C++11 [intro.multithread] 1.10), which is defined here from
    the steps of an execution: sequenced-before, synchronizes-with (release and acquire), carries-a-dependency and dependency-ordered-before (release and consume), inter-thread-happens-before.

    Simplification, towards a smaller relation: the edges by which one call happens before another one (of another thread) outside the map, and those of crossbeam-epoch, are not in it.
    Sequential consistency, fences and kill_dependency do not occur in the code. *)
From Verif Require Import Model Spec LinSpec Weak WeakCoh WeakFree Rc11.

Section plain.
Context {C : Config} (w : orders).

(** ** The machine *)
(** The nodes (with the values of the cells that are last in the list of steps), all the values of every cell, and the calls. *)
Record pmach := PM { pm_mem : mem; pm_hist : cell -> list sh; pm_ops : gmap opid ostat }.

(** A step of a call: what it was about to do; if it accesses a cell, who wrote the value it read; the memory it worked on, which shows this value in the cell;
    whether a weak compare-and-set failed spuriously, and the address for a new node. *)
Record xstep := XStep { x_call : opid; x_pc : pc; x_rf : gev; x_mem : mem; x_spur : bool; x_addr : N }.

(** Does the access write? *)
Definition writes_cell (m : mem) (p : pc) (spur : bool) (k : akind) : bool := match k with ALoad | ATest => false | AFetch => true | ACas => cas_wins m p spur end.

Definition p_alloc (m m' : mem) (h : cell -> list sh) (c : cell) : list sh :=
  match c with
  | CSlot l i => if decide (l = m_next m /\ m_next m' <> m_next m) then match ptrs m' l !! i with Some v => [v] | None => [] end else h c
  | CRoot => h c
  end.
Definition p_write (h : cell -> list sh) (c : cell) (v : sh) (c' : cell) : list sh := if decide (c' = c) then h c ++ [v] else h c'.

(** A step of a call: as in Rc11.v, but [op_step] has the whole memory. *)
Definition pcall (s : pmach) (who : cell -> list gev) (o : opid) (r : gev) (spur : bool) (a : N) : option (pmach * list event * option xstep) :=
  match pm_ops s !! o with
  | Some (SRun op p) =>
      let go (m : mem) (wr : option cell) :=
        match op_step ∅ m p spur a with
        | Some (m', nx, acts) =>
            Some (match wr with
                  | None => PM (pm_mem s) (pm_hist s) (<[o := nx_stat op nx]> (pm_ops s))
                  | Some c => PM m' (p_write (p_alloc m m' (pm_hist s)) c (default sh_null (read_cell m' c))) (<[o := nx_stat op nx]> (pm_ops s))
                  end, nx_events o nx acts, Some (XStep o p r m spur a))
        | None => None
        end in
      match access w p with
      | None => go (pm_mem s) None
      | Some (c, k, _) =>
          match who c with
          | [] => Some (PM (pm_mem s) (pm_hist s) (<[o := SFail op FUB]> (pm_ops s)), [], None)      (* there is no such cell *)
          | _ =>
              match list_find (fun x => x = r) (who c) with
              | None => None
              | Some (n, _) =>
                  match pm_hist s c !! n with
                  | None => None
                  | Some v => let seen := write_cell (pm_mem s) c v in go seen (if writes_cell seen p spur k then Some c else None)
                  end
              end
          end
      end
  | _ => None
  end.

(** The fields are those of Rc11.v. *)
Record pstate := PState { p_m : pmach; p_who : cell -> list gev; p_regs : list (loc * dkind * nat); p_sync : opid -> list nat; p_done : list nat; p_gone : gset opid;
  p_dropped : bool; p_ub : bool; p_log : list (option xstep) }.
Definition pinit : pstate :=
  PState (PM mem0 (fun c => match c with CRoot => [sh_null] | CSlot _ _ => [] end) ∅) (fun c => match c with CRoot => [Init CRoot] | CSlot _ _ => [] end) [] (fun _ => []) [] ∅ false false [].

Definition p_mem (s : pstate) : mem := pm_mem (p_m s).
Definition p_alive (s : pstate) (o : opid) : bool := bool_decide (is_Some (pm_ops (p_m s) !! o) /\ o ∉ p_gone s).
Definition p_all_alive (s : pstate) (P : opid -> bool) : bool := forallb (fun kv => bool_decide (kv.1 ∈ p_gone s) || P kv.1) (map_to_list (pm_ops (p_m s))).
Definition p_returned (s : pmach) (o : opid) : bool := match pm_ops s !! o with Some (SRet _ _) => true | _ => false end.
Definition p_grow (t : nat) (c : cell) (h : list sh) (wh : list gev) : list gev := if length h <=? length wh then wh else match wh with [] => [Init c] | _ => wh ++ [At t] end.

Definition pstep (s : pstate) (lb : glabel) : option (pstate * list event) :=
  let t := length (p_log s) in
  let quiet s' := s' (p_log s ++ [None]) in
  match lb with
  | GInv o op ps ds =>
      if negb (p_dropped s) && forallb (fun i => bool_decide (i < length (p_regs s))) ds && forallb (fun i => bool_decide (i ∈ ds)) (p_done s) && forallb (p_returned (p_m s)) ps then
        match pm_ops (p_m s) !! o with
        | None => Some (quiet (PState (PM (p_mem s) (pm_hist (p_m s)) (<[o := SRun op (op_init op)]> (pm_ops (p_m s)))) (p_who s) (p_regs s) (fun o' => if decide (o' = o) then ds else p_sync s o') (p_done s) (p_gone s)
                                 (p_dropped s) (p_ub s)), [EInv o op])
        | Some _ => None
        end
      else None
  | GStep o r spur a =>
      if p_alive s o then
        match pcall (p_m s) (p_who s) o r spur a with
        | Some (s', ev, l) =>
            Some (PState s' (fun c => p_grow t c (pm_hist s' c) (p_who s c))
              (p_regs s ++ ((fun g => (g.1.1, g.1.2, t)) <$> take (length (m_garb (pm_mem s')) - length (m_garb (p_mem s))) (m_garb (pm_mem s'))))
              (p_sync s) (p_done s) (p_gone s) (p_dropped s) (p_ub s) (p_log s ++ [l]), ev)
        | None => None
        end
      else None
  | GUnpin o => if p_alive s o && p_returned (p_m s) o then Some (quiet (PState (p_m s) (p_who s) (p_regs s) (p_sync s) (p_done s) ({[o]} ∪ p_gone s) (p_dropped s) (p_ub s)), []) else None
  | GAbort o => if p_alive s o && negb (p_returned (p_m s) o) then Some (quiet (PState (p_m s) (p_who s) (p_regs s) (p_sync s) (p_done s) ({[o]} ∪ p_gone s) (p_dropped s) (p_ub s)), []) else None
  | GFree i =>
      match p_regs s !! i with
      | Some (l, k, _) =>
          if bool_decide (i ∉ p_done s) && p_all_alive s (fun o => bool_decide (i ∈ p_sync s o)) then
            let m := p_mem s in
            Some (quiet (PState (PM (Mem (m_root m) (m_heap m) (m_garb m) ((l, k) :: m_freed m) (m_tmp m) (m_next m)) (pm_hist (p_m s)) (pm_ops (p_m s)))
                         (p_who s) (p_regs s) (p_sync s) (i :: p_done s) (p_gone s) (p_dropped s) (p_ub s || freed m l)), [])
          else None
      | None => None
      end
  | GDrop =>
      if negb (p_dropped s) && p_all_alive s (fun _ => false) then
        let m := p_mem s in
        match drop_rec (MAX_LEVELS + 2) m (m_root m) with
        | Some fs => Some (quiet (PState (PM (free_list m fs) (pm_hist (p_m s)) (pm_ops (p_m s))) (p_who s) (p_regs s) (p_sync s) (p_done s) (p_gone s) true
                                  (p_ub s || negb (bool_decide (NoDup (fs.*1 ++ (m_freed m).*1))))), [])
        | None => Some (quiet (PState (p_m s) (p_who s) (p_regs s) (p_sync s) (p_done s) (p_gone s) true true), [])
        end
      else None
  end.

Fixpoint prun (s : pstate) (ls : list glabel) : option (pstate * list event) :=
  match ls with
  | [] => Some (s, [])
  | lb :: ls =>
    match pstep s lb with
    | Some (s', ev) => match prun s' ls with Some (s'', ev') => Some (s'', ev ++ ev') | None => None end
    | None => None
    end
  end.
Definition pexec (ls : list glabel) (s : pstate) (ev : list event) : Prop := prun pinit ls = Some (s, ev).

(** The accesses, for the axioms of Rc11.v. *)
Definition acc_of (x : xstep) : option acc :=
  match access w (x_pc x) with Some (c, k, _) => Some (Acc (x_call x) c (x_rf x) (writes_cell (x_mem x) (x_pc x) (x_spur x) k)) | None => None end.
Definition accs_of (L : list (option xstep)) : list (option acc) := (fun x => match x with Some x => acc_of x | None => None end) <$> L.

(** An execution that the axioms coherence and atomicity allow. *)
Definition pallowed (ls : list glabel) (s : pstate) (ev : list event) : Prop :=
  pexec ls s ev /\ exists mo hb, consistent ls (accs_of (p_log s)) (p_regs s) mo hb.

(** ** What a step does *)
Definition x_acc (x : xstep) : option (cell * akind * ordering) := access w (x_pc x).
(** The memory it leaves. *)
Definition x_after (x : xstep) : mem := match op_step ∅ (x_mem x) (x_pc x) (x_spur x) (x_addr x) with Some (m', _, _) => m' | None => x_mem x end.
Definition x_writes (x : xstep) : bool := match x_acc x with Some (_, k, _) => writes_cell (x_mem x) (x_pc x) (x_spur x) k | None => false end.
Definition reads_value (x : xstep) (v : sh) : Prop := exists c k ord, x_acc x = Some (c, k, ord) /\ read_cell (x_mem x) c = Some v.
Definition writes_value (x : xstep) (v : sh) : Prop := exists c k ord, x_acc x = Some (c, k, ord) /\ x_writes x = true /\ read_cell (x_after x) c = Some v.
(** It accesses slot [i] of node [l]. *)
Definition in_slot (x : xstep) (l : loc) (i : nat) : Prop := exists k ord, x_acc x = Some (CSlot l i, k, ord).
(** It loads a pointer to node [l], to use it.  (The loads of 808 and 840 are only compared with null; a compare-and-set does not keep what it reads.) *)
Definition loads_ptr (x : xstep) (l : loc) : Prop := exists c k ord v, x_acc x = Some (c, k, ord) /\ (k = ALoad \/ k = AFetch) /\ read_cell (x_mem x) c = Some v /\ sh_loc v = Some l.
(** It allocates node [l]; slot [i] of it is initialised with [v]. *)
Definition allocs (x : xstep) (l : loc) : Prop := l = m_next (x_mem x) /\ m_next (x_after x) <> m_next (x_mem x).
Definition init_slot (x : xstep) (l : loc) (i : nat) (v : sh) : Prop := allocs x l /\ ptrs (x_after x) l !! i = Some v.
(** It looks into node [l]: what the call does next, or what the caller sees, depends on the contents of the node. *)
Definition with_body (m : mem) (l : loc) (b : body) : mem := Mem (m_root m) (alter (fun o => HObj (ho_addr o) b) l (m_heap m)) (m_garb m) (m_freed m) (m_tmp m) (m_next m).
Definition outcome (m : mem) (x : xstep) : option (next * list act) := (fun r => (r.1.2, r.2)) <$> op_step ∅ m (x_pc x) (x_spur x) (x_addr x).
Definition looks_into (x : xstep) (l : loc) : Prop := exists b, outcome (with_body (x_mem x) l b) x <> outcome (x_mem x) x.
(** It hands out a reference to node [l] to the caller: in the result of the call, or as the next element of an iteration. *)
Definition hands_out (x : xstep) (l : loc) : Prop := exists nx acts r, outcome (x_mem x) x = Some (nx, acts) /\ rr_loc r = l /\ ((exists res, nx = NRet res /\ r ∈ refs_of res) \/ AYield r ∈ acts).
Definition uses (x : xstep) (l : loc) : Prop := looks_into x l \/ hands_out x l.

(** The orderings: a compare-and-set that fails is relaxed. *)
Definition acquire_read (x : xstep) : Prop := exists c k ord, x_acc x = Some (c, k, ord) /\ acquires ord = true /\ (k = ACas -> x_writes x = true).
Definition consume_read (x : xstep) : Prop := exists c k, x_acc x = Some (c, k, Consume) /\ (k = ACas -> x_writes x = true).
Definition release_write (x : xstep) : Prop := exists c k ord, x_acc x = Some (c, k, ord) /\ releases ord = true /\ x_writes x = true.

(** ** The happens-before relation of C11 *)
(** The events: the initialisation of part [i] of node [l] (of slot [i]; a data node has no slots: any number stands for its contents), which is not atomic; the atomic access of step [t]; what is read in node [l], not atomically,
    by step [t] after its access, or by the caller through a reference that step [t] hands out. *)
Inductive cev := EInit (l : loc) (i : nat) | EAcc (t : nat) | EUse (t : nat) (l : loc).

Section relations.
(** [L]: the steps; [thr]: the thread a call belongs to; [from e l]: if [e] needs a pointer to [l], the step of the call that has loaded it ([None]: the call has allocated the node). *)
Context (L : list (option xstep)) (thr : opid -> nat) (from : cev -> loc -> option nat).

Definition step_at (t : nat) (x : xstep) : Prop := L !! t = Some (Some x).

(** The call an event belongs to, and its place there. *)
Inductive place : cev -> opid -> nat -> nat -> Prop :=
| place_init t x l i : step_at t x -> allocs x l -> place (EInit l i) (x_call x) t 0
| place_acc t x : step_at t x -> is_Some (x_acc x) -> place (EAcc t) (x_call x) t 1
| place_use t x l : step_at t x -> uses x l -> place (EUse t l) (x_call x) t 2.
(** Sequenced before. *)
Definition sb (e1 e2 : cev) : Prop := exists o1 t1 j1 o2 t2 j2, place e1 o1 t1 j1 /\ place e2 o2 t2 j2 /\ thr o1 = thr o2 /\ (t1 < t2 \/ t1 = t2 /\ j1 < j2).

(** Reads-from. *)
Inductive rfe : cev -> cev -> Prop :=
| rfe_at t0 t x : step_at t x -> is_Some (x_acc x) -> x_rf x = At t0 -> rfe (EAcc t0) (EAcc t)
| rfe_init l i t x : step_at t x -> is_Some (x_acc x) -> x_rf x = Init (CSlot l i) -> rfe (EInit l i) (EAcc t).

(** The write of step [t] is in the release sequence headed by the one of step [h].  (After initialisation there are only read-modify-writes.) *)
Inductive rseq (h : nat) : nat -> Prop :=
| rseq_head : rseq h h
| rseq_rmw t0 t x : rseq h t0 -> step_at t x -> x_writes x = true -> x_rf x = At t0 -> rseq h t.

(** Synchronizes with: a release, and an acquire that reads a value of its release sequence. *)
Inductive sw : cev -> cev -> Prop :=
| sw_intro h xh t0 t x : step_at h xh -> release_write xh -> rseq h t0 -> rfe (EAcc t0) (EAcc t) -> step_at t x -> acquire_read x -> sw (EAcc h) (EAcc t).

(** Carries a dependency to: the address of the cell; the node that is looked into, or that the caller has a reference to; the pointer that is written, by a compare-and-set or into a new node; or through memory, within the thread. *)
Inductive cdep : cev -> cev -> Prop :=
| cd_addr t t' x l i : step_at t x -> in_slot x l i -> from (EAcc t) l = Some t' -> cdep (EAcc t') (EAcc t)
| cd_use t t' x l : step_at t x -> uses x l -> from (EUse t l) l = Some t' -> cdep (EAcc t') (EUse t l)
| cd_store t t' x v l c ord : step_at t x -> x_acc x = Some (c, ACas, ord) -> writes_value x v -> sh_loc v = Some l -> from (EAcc t) l = Some t' -> cdep (EAcc t') (EAcc t)
| cd_init t t' x b i v l : step_at t x -> init_slot x b i v -> sh_loc v = Some l -> from (EInit b i) l = Some t' -> cdep (EAcc t') (EInit b i)
| cd_mem e e' : rfe e e' -> sb e e' -> cdep e e'.

(** Dependency-ordered before. *)
Inductive dob : cev -> cev -> Prop :=
| dob_intro h xh t0 t x : step_at h xh -> release_write xh -> rseq h t0 -> rfe (EAcc t0) (EAcc t) -> step_at t x -> consume_read x -> thr (x_call xh) <> thr (x_call x) -> dob (EAcc h) (EAcc t)
| dob_dep e e1 e2 : dob e e1 -> cdep e1 e2 -> dob e e2.

(** Inter-thread happens before.  (Not: dependency-ordered before, then sequenced before.) *)
Inductive ithb : cev -> cev -> Prop :=
| ithb_sw e1 e2 : sw e1 e2 -> ithb e1 e2
| ithb_dob e1 e2 : dob e1 e2 -> ithb e1 e2
| ithb_sw_sb e1 e2 e3 : sw e1 e2 -> sb e2 e3 -> ithb e1 e3
| ithb_sb e1 e2 e3 : sb e1 e2 -> ithb e2 e3 -> ithb e1 e3
| ithb_trans e1 e2 e3 : ithb e1 e2 -> ithb e2 e3 -> ithb e1 e3.
Definition c11_hb (e1 e2 : cev) : Prop := sb e1 e2 \/ ithb e1 e2.

(** The call [o] has loaded a pointer to [l] in step [t']. *)
Definition loaded (o : opid) (t' : nat) (l : loc) : Prop := exists x, step_at t' x /\ x_call x = o /\ loads_ptr x l.
Definition allocated (o : opid) (t' : nat) (l : loc) : Prop := exists x, step_at t' x /\ x_call x = o /\ allocs x l.
(** [from] says where a call may have its pointers from: ANY load of the pointer by the same call, before the event; or the allocation of the node by the call (if it has never loaded the pointer, there is nothing else). *)
Definition from_ok : Prop := forall e l o t j, place e o t j ->
  match from e l with
  | Some t' => loaded o t' l /\ (t' < t \/ t' = t /\ 1 < j)
  | None => (exists t', (t' < t \/ t' = t /\ 0 < j) /\ allocated o t' l) \/ forall t', t' < t \/ t' = t /\ 1 < j -> ~ loaded o t' l
  end.
End relations.
End plain.
