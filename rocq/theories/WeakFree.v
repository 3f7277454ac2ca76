(** * Weakly ordered memory with reclamation: nodes are really freed, and their addresses used again.
    Definitions only.

    WeakCoh.v never frees anything.  Here the nodes that were retired ([Guard::defer_destroy], mod.rs:502, 546, 735) are freed by crossbeam-epoch,
    the map can be dropped, and the allocator may give the address of a freed node to a new one.  A step that follows a pointer to
    a freed node is undefined behaviour, as in Model.v ([deref]).

    What crossbeam-epoch promises is, on weakly ordered memory: when a deferred destruction is run, then for every guard, either the guard was
    dropped before (and its accesses happen before the destruction), or the registration of the destruction happens before the guard was created.
    So a call starts with a list of registrations it is synchronised with ([ds]): any list that contains those
    that were run already.  A registration can be run once every guard that is alive is synchronised with it.
    All a call knows about memory through a registration is what happens before it: it does not read a value older than one that was
    read or written by the registering call, up to then.  Nothing is assumed about the order in which destructions are run. *)
From Verif Require Import Model Spec LinSpec Weak WeakCoh.

Section free.
Context {C : Config} (w : orders).

(** A registered destruction: the node, how it will be freed, and the newest values seen by the call that registered it. *)
Record reg := Reg { g_loc : loc; g_kind : dkind; g_fl : cell -> nat }.

(** [f_regs]: everything that was ever registered (oldest first); [f_done]: what was run, by number; [f_sync]: the registrations a call is synchronised with;
    [f_gone]: the calls whose guard has been dropped; [f_dropped]: the map was dropped; [f_ub]: something was freed twice, or the destructor met a dangling pointer. *)
Record fstate := FState { f_c : cstate; f_regs : list reg; f_sync : opid -> list nat; f_done : list nat; f_gone : gset opid; f_dropped : bool; f_ub : bool }.
Definition finit : fstate := FState cinit [] (fun _ => []) [] ∅ false false.

Inductive flabel :=
| FInv (o : opid) (op : oper) (ps : list opid) (ds : list nat)   (* a call starts, under a new guard *)
| FStep (o : opid) (n : nat) (spur : bool) (a : N)               (* it takes a step *)
| FUnpin (o : opid)                                              (* it has returned, and its guard is dropped *)
| FAbort (o : opid)                                              (* it is broken off by a panic of user code, or it is an iterator that is dropped early *)
| FFree (i : nat)                                                (* crossbeam-epoch runs the [i]-th registered destruction *)
| FDrop.                                                         (* the map is dropped *)

Definition f_mem (s : fstate) : mem := w_mem (c_w (f_c s)).
Definition set_mem (s : cstate) (m : mem) : cstate := CState (WState m (w_hist (c_w s)) (w_ops (c_w s))) (c_fl s).
(** The call has been made, and its guard is alive. *)
Definition f_alive (s : fstate) (o : opid) : bool := bool_decide (is_Some (w_ops (c_w (f_c s)) !! o) /\ o ∉ f_gone s).
(** Every guard that is alive satisfies [P]. *)
Definition all_alive (s : fstate) (P : opid -> bool) : bool :=
  forallb (fun kv => bool_decide (kv.1 ∈ f_gone s) || P kv.1) (map_to_list (w_ops (c_w (f_c s)))).

(** The newest value of [c] that a call synchronised with [ds] is known to be preceded by. *)
Definition f_floor (s : fstate) (ds : list nat) (c : cell) : nat :=
  max_list ((fun i => match f_regs s !! i with Some g => g_fl g c | None => 0 end) <$> ds).

(** What the step from [m] to [m'] registered. *)
Definition new_regs (m m' : mem) (fl : cell -> nat) : list reg :=
  (fun g => Reg g.1.1 g.1.2 fl) <$> take (length (m_garb m') - length (m_garb m)) (m_garb m').

Definition fstep (s : fstate) (lb : flabel) : option (fstate * list event) :=
  match lb with
  | FInv o op ps ds =>
      if negb (f_dropped s) && forallb (fun i => bool_decide (i < length (f_regs s))) ds && forallb (fun i => bool_decide (i ∈ ds)) (f_done s) then
        match cstep w (f_c s) (CInv o op ps) with
        | Some (c', ev) => Some (FState c' (f_regs s) (fun o' => if decide (o' = o) then ds else f_sync s o') (f_done s) (f_gone s) (f_dropped s) (f_ub s), ev)
        | None => None
        end
      else None
  | FStep o n spur a =>
      if f_alive s o && match next_cell w (c_w (f_c s)) o with Some c => f_floor s (f_sync s o) c <=? n | None => true end then
        match cstep w (f_c s) (CStep o n spur a) with
        | Some (c', ev) =>
            Some (FState c' (f_regs s ++ new_regs (f_mem s) (w_mem (c_w c')) (c_fl c' o)) (f_sync s) (f_done s) (f_gone s) (f_dropped s) (f_ub s), ev)
        | None => None
        end
      else None
  | FUnpin o =>
      if f_alive s o && is_returned (c_w (f_c s)) o then Some (FState (f_c s) (f_regs s) (f_sync s) (f_done s) ({[o]} ∪ f_gone s) (f_dropped s) (f_ub s), []) else None
  | FAbort o =>
      if f_alive s o && negb (is_returned (c_w (f_c s)) o) then Some (FState (f_c s) (f_regs s) (f_sync s) (f_done s) ({[o]} ∪ f_gone s) (f_dropped s) (f_ub s), []) else None
  | FFree i =>
      match f_regs s !! i with
      | Some g =>
          if bool_decide (i ∉ f_done s) && all_alive s (fun o => bool_decide (i ∈ f_sync s o)) then
            let m := f_mem s in
            Some (FState (set_mem (f_c s) (Mem (m_root m) (m_heap m) (m_garb m) ((g_loc g, g_kind g) :: m_freed m) (m_tmp m) (m_next m)))
                         (f_regs s) (f_sync s) (i :: f_done s) (f_gone s) (f_dropped s) (f_ub s || freed m (g_loc g)), [])
          else None
      | None => None
      end
  | FDrop =>
      (* it takes &mut self: all the guards are gone, and everything they did happens before *)
      if negb (f_dropped s) && all_alive s (fun _ => false) then
        let m := f_mem s in
        match drop_rec (MAX_LEVELS + 2) m (m_root m) with
        | Some fs => Some (FState (set_mem (f_c s) (free_list m fs)) (f_regs s) (f_sync s) (f_done s) (f_gone s) true
                                  (f_ub s || negb (bool_decide (NoDup (fs.*1 ++ (m_freed m).*1)))), [])
        | None => Some (FState (f_c s) (f_regs s) (f_sync s) (f_done s) (f_gone s) true true, [])
        end
      else None
  end.

Fixpoint frun (s : fstate) (ls : list flabel) : option (fstate * list event) :=
  match ls with
  | [] => Some (s, [])
  | lb :: ls =>
    match fstep s lb with
    | Some (s', ev) => match frun s' ls with Some (s'', ev') => Some (s'', ev ++ ev') | None => None end
    | None => None
    end
  end.

Definition fexec (ls : list flabel) (s : fstate) (ev : list event) : Prop := frun finit ls = Some (s, ev).
Definition wf_fcalls (ls : list flabel) : Prop := forall o op ps ds, FInv o op ps ds ∈ ls -> op_wf op.

(** The calls and their steps. *)
Definition calls_of (ls : list flabel) : list clabel :=
  omap (fun lb => match lb with FInv o op ps _ => Some (CInv o op ps) | FStep o n spur a => Some (CStep o n spur a) | _ => None end) ls.
End free.
