(** * Weakly ordered memory, axiomatically.
    Definitions only.

    WeakFree.v says operationally which values a load may return (no older ones than the "floors").  Here this is left to the axioms of the C11 memory model, in the
    form of RC11 (Lahav et al., "Repairing sequential consistency in C/C++11", PLDI 2017): an execution is a graph of events with the relations reads-from, modification order and
    happens-before, and it has to satisfy the axioms coherence and atomicity.

    An execution is written down as a list of steps of the calls, and the axiom "no thin air" (program order and reads-from together have no cycle) says
    that there is such a list in which every step comes after those that precede it in program order and after the one whose value it reads.  Apart from this, the order of the list
    means nothing: a step may read ANY value that a step before it in the list has written to the cell, and a read-modify-write does not have to read the one which is last in the list.
    A read-modify-write is one event.

    What the code does with the value it got is [op_step] of Model.v, as everywhere.  Whether the contents of a node are visible (initialised, C38) is decided by the views of Weak.v; what
    crossbeam-epoch promises is as in WeakFree.v: the registration of a destruction that has been run happens before the creation of the guards that are alive. *)
From Verif Require Import Model Spec LinSpec Weak WeakCoh WeakFree.

(** Who wrote a value: the initialisation of the cell, or the step with that number. *)
Inductive gev := Init (c : cell) | At (t : nat).
#[global] Instance cell_eq_dec : EqDecision cell. Proof. solve_decision. Defined.
#[global] Instance gev_eq_dec : EqDecision gev. Proof. solve_decision. Defined.

Section rc11.
Context {C : Config} (w : orders).

(** An access to a cell: which call, which cell, where the value comes from, and whether a new value was written (a successful read-modify-write). *)
Record acc := Acc { a_call : opid; a_cell : cell; a_rf : gev; a_wr : bool }.

Inductive glabel :=
| GInv (o : opid) (op : oper) (ps : list opid) (ds : list nat)   (* as in WeakFree.v *)
| GStep (o : opid) (r : gev) (spur : bool) (a : N)               (* it takes a step; if it accesses a cell, it reads what [r] wrote *)
| GUnpin (o : opid)
| GAbort (o : opid)
| GFree (i : nat)
| GDrop.

(** [g_w]: the nodes, all the values of the cells, the calls; [g_who c]: who wrote the values of [c]; [g_regs]: the registered destructions, and the step that registered them;
    [g_log]: the accesses, by number of the step; the other fields as in WeakFree.v. *)
Record gstate := GState { g_w : wstate; g_who : cell -> list gev; g_regs : list (loc * dkind * nat); g_sync : opid -> list nat; g_done : list nat; g_gone : gset opid;
  g_dropped : bool; g_ub : bool; g_log : list (option acc) }.
Definition ginit : gstate := GState winit (fun c => match c with CRoot => [Init CRoot] | CSlot _ _ => [] end) [] (fun _ => []) [] ∅ false false [].

Definition with_mem (s : wstate) (m : mem) : wstate := WState m (w_hist s) (w_ops s).
Definition g_mem (s : gstate) : mem := w_mem (g_w s).
Definition g_alive (s : gstate) (o : opid) : bool := bool_decide (is_Some (w_ops (g_w s) !! o) /\ o ∉ g_gone s).
Definition g_all_alive (s : gstate) (P : opid -> bool) : bool := forallb (fun kv => bool_decide (kv.1 ∈ g_gone s) || P kv.1) (map_to_list (w_ops (g_w s))).

(** A step of a call.  It reads the value that [r] wrote to the cell; a read-modify-write works on that very value. *)
Definition gcall (s : wstate) (who : cell -> list gev) (o : opid) (r : gev) (spur : bool) (a : N) : option (wstate * list event * option acc) :=
  match w_ops s !! o with
  | Some (WOp (SRun op p) tv pv) =>
      let log (x : option (wstate * list event)) (l : option acc) := match x with Some (s', ev) => Some (s', ev, l) | None => None end in
      match access w p with
      | None => log (w_local s o op tv pv (w_mem s) p spur a) None
      | Some (c, k, ord) =>
          let fault := Some (WState (w_mem s) (w_hist s) (<[o := WOp (SFail op FUB) tv pv]> (w_ops s)), [], None) in
          if negb (base_seen tv pv c) then fault else
          match who c with
          | [] => fault
          | _ =>
              match list_find (fun x => x = r) (who c) with
              | None => None
              | Some (n, _) =>
                  match w_hist s c !! n with
                  | None => None
                  | Some (v, W) =>
                      let seen := write_cell (w_mem s) c v in
                      match k with
                      | ALoad => log (w_local s o op (tv_read ord tv W) (pv_read ord pv c v W) seen p spur a) (Some (Acc o c r false))
                      | ATest => log (w_local s o op tv pv seen p spur a) (Some (Acc o c r false))
                      | AFetch => log (w_write (with_mem s seen) o op (tv_read ord tv W) (pv_read ord pv c v W) c ord p spur a) (Some (Acc o c r true))
                      | ACas => if cas_wins seen p spur then log (w_write (with_mem s seen) o op (tv_read ord tv W) pv c ord p spur a) (Some (Acc o c r true))
                                else log (w_local s o op tv pv seen p spur a) (Some (Acc o c r false))
                      end
                  end
              end
          end
      end
  | _ => None
  end.

(** Step number [t] has led to the values [h]: those that are new were written by it, or by an initialisation if the cell is new. *)
Definition grow (t : nat) (c : cell) (h : list msg) (wh : list gev) : list gev :=
  if length h <=? length wh then wh else match wh with [] => [Init c] | _ => wh ++ [At t] end.

Definition gstep (s : gstate) (lb : glabel) : option (gstate * list event) :=
  let t := length (g_log s) in
  let quiet s' := s' (g_log s ++ [None]) in
  match lb with
  | GInv o op ps ds =>
      if negb (g_dropped s) && forallb (fun i => bool_decide (i < length (g_regs s))) ds && forallb (fun i => bool_decide (i ∈ ds)) (g_done s) && forallb (is_returned (g_w s)) ps then
        match wstep w (g_w s) (WInv o op) with
        | Some (s', ev) => Some (quiet (GState s' (g_who s) (g_regs s) (fun o' => if decide (o' = o) then ds else g_sync s o') (g_done s) (g_gone s) (g_dropped s) (g_ub s)), ev)
        | None => None
        end
      else None
  | GStep o r spur a =>
      if g_alive s o then
        match gcall (g_w s) (g_who s) o r spur a with
        | Some (s', ev, l) =>
            Some (GState s' (fun c => grow t c (w_hist s' c) (g_who s c))
              (g_regs s ++ ((fun g => (g.1.1, g.1.2, t)) <$> take (length (m_garb (w_mem s')) - length (m_garb (g_mem s))) (m_garb (w_mem s'))))
              (g_sync s) (g_done s) (g_gone s) (g_dropped s) (g_ub s) (g_log s ++ [l]), ev)
        | None => None
        end
      else None
  | GUnpin o => if g_alive s o && is_returned (g_w s) o then Some (quiet (GState (g_w s) (g_who s) (g_regs s) (g_sync s) (g_done s) ({[o]} ∪ g_gone s) (g_dropped s) (g_ub s)), []) else None
  | GAbort o => if g_alive s o && negb (is_returned (g_w s) o) then Some (quiet (GState (g_w s) (g_who s) (g_regs s) (g_sync s) (g_done s) ({[o]} ∪ g_gone s) (g_dropped s) (g_ub s)), []) else None
  | GFree i =>
      match g_regs s !! i with
      | Some (l, k, _) =>
          if bool_decide (i ∉ g_done s) && g_all_alive s (fun o => bool_decide (i ∈ g_sync s o)) then
            let m := g_mem s in
            Some (quiet (GState (with_mem (g_w s) (Mem (m_root m) (m_heap m) (m_garb m) ((l, k) :: m_freed m) (m_tmp m) (m_next m)))
                         (g_who s) (g_regs s) (g_sync s) (i :: g_done s) (g_gone s) (g_dropped s) (g_ub s || freed m l)), [])
          else None
      | None => None
      end
  | GDrop =>
      if negb (g_dropped s) && g_all_alive s (fun _ => false) then
        let m := g_mem s in
        match drop_rec (MAX_LEVELS + 2) m (m_root m) with
        | Some fs => Some (quiet (GState (with_mem (g_w s) (free_list m fs)) (g_who s) (g_regs s) (g_sync s) (g_done s) (g_gone s) true
                                  (g_ub s || negb (bool_decide (NoDup (fs.*1 ++ (m_freed m).*1))))), [])
        | None => Some (quiet (GState (g_w s) (g_who s) (g_regs s) (g_sync s) (g_done s) (g_gone s) true true), [])
        end
      else None
  end.

Fixpoint grun (s : gstate) (ls : list glabel) : option (gstate * list event) :=
  match ls with
  | [] => Some (s, [])
  | lb :: ls =>
    match gstep s lb with
    | Some (s', ev) => match grun s' ls with Some (s'', ev') => Some (s'', ev ++ ev') | None => None end
    | None => None
    end
  end.
(** The graph made of the steps [ls]; [s]: what is known at the end, [ev]: what the callers saw.  No axiom yet. *)
Definition gexec (ls : list glabel) (s : gstate) (ev : list event) : Prop := grun ginit ls = Some (s, ev).
Definition wf_gcalls (ls : list glabel) : Prop := forall o op ps ds, GInv o op ps ds ∈ ls -> op_wf op.
(** The calls, and which calls happen before them. *)
Definition gcalls (ls : list glabel) : list clabel := omap (fun lb => match lb with GInv o op ps _ => Some (CInv o op ps) | _ => None end) ls.

(** ** The relations *)
Section relations.
Context (ls : list glabel) (log : list (option acc)) (regs : list (loc * dkind * nat)).

(** The call a step belongs to. *)
Definition of_call (t : nat) (o : opid) : Prop := exists lb, ls !! t = Some lb /\ match lb with GInv o' _ _ _ | GStep o' _ _ _ => o' = o | _ => False end.

(** The edges of happens-before that the callers and crossbeam-epoch provide.  (There may be more, by acquire loads.) *)
Inductive edge : nat -> nat -> Prop :=
| edge_po t1 t2 o : of_call t1 o -> of_call t2 o -> t1 < t2 -> edge t1 t2                                      (* program order *)
| edge_call t1 t2 o op ps ds p : ls !! t2 = Some (GInv o op ps ds) -> p ∈ ps -> of_call t1 p -> t1 < t2 -> edge t1 t2     (* call [p] has returned, and the caller of [o] knows *)
| edge_reg t1 t2 o op ps ds d l k : ls !! t2 = Some (GInv o op ps ds) -> d ∈ ds -> regs !! d = Some (l, k, t1) -> edge t1 t2.   (* crossbeam-epoch *)

Definition access_at (t : nat) (x : acc) : Prop := log !! t = Some (Some x).
(** The writes to cell [c]. *)
Definition writes (c : cell) (e : gev) : Prop := match e with Init c' => c' = c | At t => exists x, access_at t x /\ a_cell x = c /\ a_wr x = true end.
(** Reads-from. *)
Inductive rf : gev -> gev -> Prop := rf_intro t x : access_at t x -> rf (a_rf x) (At t).

Context (mo hb : gev -> gev -> Prop).
(** From-reads: the value read is older than the one written. *)
Definition fr (e1 e2 : gev) : Prop := exists e, rf e e1 /\ mo e e2 /\ e1 <> e2.
(** Extended coherence order. *)
Inductive eco : gev -> gev -> Prop :=
| eco_rf e1 e2 : rf e1 e2 -> eco e1 e2
| eco_mo e1 e2 : mo e1 e2 -> eco e1 e2
| eco_fr e1 e2 : fr e1 e2 -> eco e1 e2
| eco_trans e1 e2 e3 : eco e1 e2 -> eco e2 e3 -> eco e1 e3.

(** The axioms. *)
Record consistent : Prop := {
  ax_mo_cell : forall e1 e2, mo e1 e2 -> exists c, writes c e1 /\ writes c e2;
  ax_mo_trans : forall e1 e2 e3, mo e1 e2 -> mo e2 e3 -> mo e1 e3;
  ax_mo_total : forall c e1 e2, writes c e1 -> writes c e2 -> e1 <> e2 -> mo e1 e2 \/ mo e2 e1;
  ax_hb : forall t1 t2, edge t1 t2 -> hb (At t1) (At t2);
  ax_hb_trans : forall e1 e2 e3, hb e1 e2 -> hb e2 e3 -> hb e1 e3;
  ax_irr : forall e, ~ eco e e;
  ax_coherence : forall e1 e2, hb e1 e2 -> ~ eco e2 e1;
  ax_atomicity : forall e1 e2, fr e1 e2 -> ~ mo e2 e1;
}.
End relations.

(** An execution that the memory model allows. *)
Definition allowed (ls : list glabel) (s : gstate) (ev : list event) : Prop :=
  gexec ls s ev /\ exists mo hb, consistent ls (g_log s) (g_regs s) mo hb.
End rc11.
