(** * The trie on weakly ordered memory: the orderings of the atomic accesses (comment in mod.rs "Inter-thread synchronization of data").
    Definitions only.

    The code of the operations is that of Model.v ([op_step]); what changes is the memory.  Every cell (an [Atomic<Inner>]) keeps all the
    values ever written to it, each with the view the writer published.  A load returns ANY of them, however old.  A view is a set of nodes:
    those whose initialisation happens before (in the sense of C11's inter-thread happens-before) the point in question.  A step that looks into a
    node whose initialisation does not happen before it, is undefined behaviour ([SFail _ FUB]): this is what the orderings have to prevent.

    - an acquire load adds the view of the value it reads to the view of the thread;
    - a consume load does not: the view is only attached to the pointer that was loaded (dependency ordering), and so is the one of the pointer
      through which the cell was found;
    - a relaxed load gives nothing (only the dependency on the pointer through which the cell was found);
    - a write with release publishes the view of the thread and the one attached to the pointer written; a relaxed one publishes nothing;
    - a read-modify-write reads the newest value; a compare-and-set that fails reads any value, relaxed.

    Simplifications, all towards fewer guarantees: a thread does not remember which value of a cell it saw last (no coherence of loads);
    release sequences are ignored; a call starts without any knowledge; if the same pointer is loaded twice, only what both loads
    guarantee is kept.  Not modelled here: reclamation (nothing is freed; crossbeam-epoch has its own fences), the destructor
    and assert_pruned (which have the map to themselves).

    Load buffering (a load that reads a value which is written later): excluded, as in RC11, by taking steps one after the other.  The models that allow it (the promising
    semantics, ARMv8, POWER) allow it for relaxed writes only: a release write cannot be promised, resp. is not executed before the accesses that precede it in its thread.
    Every write to a cell that other threads can reach (445, 496, 539, 726) is a read-modify-write with release or acquire-release ordering, so there is nothing these models add. *)
From Verif Require Import Model Spec.

Inductive ordering := Relaxed | Consume | Acquire | Release | AcqRel.
Definition acquires (o : ordering) : bool := match o with Acquire | AcqRel => true | _ => false end.
Definition releases (o : ordering) : bool := match o with Release | AcqRel => true | _ => false end.

(** The orderings of the atomic accesses. *)
Record orders := Orders {
  o_trav : ordering; o_tcas : ordering; o_mark : ordering; o_pcas : ordering; o_get : ordering; o_rem : ordering; o_rcas : ordering;
  o_count : ordering; o_empty : ordering; o_iroot : ordering; o_iter : ordering }.
(** Those of the code. *)
Definition code_orders : orders := {|
  o_trav := Consume;    (* mod.rs:530 load_consume *)
  o_tcas := Release;    (* mod.rs:539 *)
  o_mark := AcqRel;     (* mod.rs:445 *)
  o_pcas := Release;    (* mod.rs:496 *)
  o_get := Consume;     (* mod.rs:667 load_consume *)
  o_rem := Consume;     (* mod.rs:720 load_consume *)
  o_rcas := Release;    (* mod.rs:726 *)
  o_count := Relaxed;   (* mod.rs:808 *)
  o_empty := Relaxed;   (* mod.rs:840 *)
  o_iroot := Acquire;   (* iterator.rs:69 *)
  o_iter := Acquire;    (* iterator.rs:101 *)
|}.

Section weak.
Context {C : Config} (w : orders).

(** What a step does with the cell: load it; load it only to compare it with null (808, 840); fetch_or (445); compare-and-set (536, 495, 723). *)
Inductive akind := ALoad | ATest | AFetch | ACas.

(** The atomic access an operation is about to execute. *)
Definition access (p : pc) : option (cell * akind * ordering) :=
  match p with
  | TLoad _ _ cur _ => Some (cur, ALoad, o_trav w)
  | TCas _ _ cur _ _ _ _ => Some (cur, ACas, o_tcas w)
  | PMark _ _ child i _ _ _ _ => (fun l => (CSlot l i, AFetch, o_mark w)) <$> sh_loc child
  | PCas _ parent _ _ _ => Some (parent, ACas, o_pcas w)
  | GLoad _ _ cur => Some (cur, ALoad, o_get w)
  | RLoad _ _ _ cur _ => Some (cur, ALoad, o_rem w)
  | RCas _ _ _ cur _ _ _ _ => Some (cur, ACas, o_rcas w)
  | RCount _ _ _ child i _ => (fun l => (CSlot l i, ATest, o_count w)) <$> sh_loc child
  | ELoad => Some (CRoot, ATest, o_empty w)
  | INew => Some (CRoot, ALoad, o_iroot w)
  | INext ((v, idx) :: _) _ =>
      if is_null v || sh_data v || (LEVEL_CELLS <=? idx) then None else (fun l => (CSlot l idx, ALoad, o_iter w)) <$> sh_loc v
  | INext [] _ => None
  end.

(** Views, and what a cell was ever set to (oldest first; the first entry of a slot is what the node was initialised with). *)
Definition view := gset loc.
Definition msg : Type := sh * view.

(** A call: its status; the view of the thread; the views attached to the pointers it has loaded. *)
Record wop := WOp { w_st : ostat; w_tv : view; w_pv : gmap loc view }.
(** [w_mem]: the newest value of every cell, and the nodes. *)
Record wstate := WState { w_mem : mem; w_hist : cell -> list msg; w_ops : gmap opid wop }.

Definition winit : wstate := WState mem0 (fun c => match c with CRoot => [(sh_null, ∅)] | CSlot _ _ => [] end) ∅.

(** The view attached to a pointer. *)
Definition dep (pv : gmap loc view) (l : option loc) : view := match l with Some l => default ∅ (pv !! l) | None => ∅ end.
(** The initialisation of [l] happens before what the call does with its pointer to [l]. *)
Definition sees (tv : view) (pv : gmap loc view) (l : loc) : Prop := l ∈ tv ∪ dep pv (Some l).
#[global] Instance sees_dec tv pv l : Decision (sees tv pv l) := decide (l ∈ tv ∪ dep pv (Some l)).

(** The pointer [v] has been loaded with guarantee [D]. *)
Definition learn (pv : gmap loc view) (v : sh) (D : view) : gmap loc view :=
  match sh_loc v with
  | None => pv
  | Some l => <[l := match pv !! l with Some D0 => D0 ∩ D | None => D end]> pv
  end.

Definition base (c : cell) : option loc := match c with CRoot => None | CSlot l _ => Some l end.

(** The node the cell is in is initialised. *)
Definition base_seen (tv : view) (pv : gmap loc view) (c : cell) : bool := match c with CRoot => true | CSlot l _ => bool_decide (sees tv pv l) end.

(** The views of a call after it has read [(v, W)] from cell [c] with ordering [o]. *)
Definition tv_read (o : ordering) (tv : view) (W : view) : view := if acquires o then tv ∪ W else tv.
Definition pv_read (o : ordering) (pv : gmap loc view) (c : cell) (v : sh) (W : view) : gmap loc view :=
  learn pv v (dep pv (base c) ∪ match o with Consume => W | _ => ∅ end).

(** What a call can see of the memory: a node whose initialisation need not have happened shows neither pointers nor elements. *)
Definition hide (tv : view) (pv : gmap loc view) (m : mem) : mem :=
  Mem (m_root m) (map_imap (fun l o => Some (if decide (sees tv pv l) then o else HObj (ho_addr o) (BInner []))) (m_heap m))
      (m_garb m) (m_freed m) (m_tmp m) (m_next m).

(** [op_step], with undefined behaviour when something that is not seen is looked at. *)
Definition see_step (tv : view) (pv : gmap loc view) (m : mem) (p : pc) (spur : bool) (a : N) : sres :=
  match op_step ∅ (hide tv pv m) p spur a with
  | Some (_, NFail FUB, _) => ok m (NFail FUB)
  | _ => op_step ∅ m p spur a
  end.

(** Would the compare-and-set succeed?  The one of prune (495) is strong: it does not fail spuriously. *)
Definition cas_wins (m : mem) (p : pc) (spur : bool) : bool :=
  match cas_of p with
  | Some (c, expected) =>
      match read_cell m c with
      | Some now => sh_same m now expected && negb (match p with PCas _ _ _ _ _ => false | _ => spur end)
      | None => false
      end
  | None => false
  end.

(** The pointers a new node contains. *)
Definition ptrs (m : mem) (l : loc) : list sh := match m_heap m !! l with Some (HObj _ (BInner sl)) => sl | _ => [] end.

(** The step from memory [m] to [m'] allocated a node (it is then number [m_next m]): the view attached to the writer's pointer to it,
    and the cells it comes with. *)
Definition pv_alloc (m m' : mem) (pv : gmap loc view) : gmap loc view :=
  if decide (m_next m' = m_next m) then pv
  else <[m_next m := {[m_next m]} ∪ ⋃ map (fun v => dep pv (sh_loc v)) (ptrs m' (m_next m))]> pv.
Definition hist_alloc (m m' : mem) (h : cell -> list msg) (c : cell) : list msg :=
  match c with
  | CSlot l i => if decide (l = m_next m /\ m_next m' <> m_next m) then match ptrs m' l !! i with Some v => [(v, ∅)] | None => [] end else h c
  | CRoot => h c
  end.
(** A read-modify-write has set cell [c]. *)
Definition hist_write (h : cell -> list msg) (c : cell) (x : msg) (c' : cell) : list msg :=
  match c, c' with
  | CRoot, CRoot => h c ++ [x]
  | CSlot l i, CSlot l' i' => if decide (l = l' /\ i = i') then h c ++ [x] else h c'
  | _, _ => h c'
  end.

Inductive wlabel :=
| WInv (o : opid) (op : oper)                        (* a call starts *)
| WStep (o : opid) (n : nat) (spur : bool) (a : N).  (* it takes a step; if it loads something, it gets the [n]-th value that was written *)

Definition nx_stat (op : oper) (nx : next) : ostat := match nx with NRun p => SRun op p | NRet r => SRet op r | NFail f => SFail op f end.
Definition nx_events (o : opid) (nx : next) (acts : list act) : list event := map (act_event o) acts ++ match nx with NRet r => [ERet o r] | _ => [] end.

(** The step neither writes nor reads the newest value: the operation runs on [m] (which shows what was loaded), the memory stays. *)
Definition w_local (s : wstate) (o : opid) (op : oper) (tv : view) (pv : gmap loc view) (m : mem) (p : pc) (spur : bool) (a : N) :
    option (wstate * list event) :=
  match see_step tv pv m p spur a with
  | Some (_, nx, acts) => Some (WState (w_mem s) (w_hist s) (<[o := WOp (nx_stat op nx) tv pv]> (w_ops s)), nx_events o nx acts)
  | None => None
  end.
(** A read-modify-write of cell [c]. *)
Definition w_write (s : wstate) (o : opid) (op : oper) (tv : view) (pv : gmap loc view) (c : cell) (ord : ordering) (p : pc) (spur : bool) (a : N) :
    option (wstate * list event) :=
  match see_step tv pv (w_mem s) p spur a with
  | Some (m', nx, acts) =>
      let pv' := pv_alloc (w_mem s) m' pv in
      let v := default sh_null (read_cell m' c) in
      let W := if releases ord then tv ∪ dep pv' (sh_loc v) else ∅ in
      Some (WState m' (hist_write (hist_alloc (w_mem s) m' (w_hist s)) c (v, W)) (<[o := WOp (nx_stat op nx) tv pv']> (w_ops s)), nx_events o nx acts)
  | None => None
  end.

Definition wstep (s : wstate) (lb : wlabel) : option (wstate * list event) :=
  match lb with
  | WInv o op =>
      match w_ops s !! o with None => Some (WState (w_mem s) (w_hist s) (<[o := WOp (SRun op (op_init op)) ∅ ∅]> (w_ops s)), [EInv o op]) | Some _ => None end
  | WStep o n spur a =>
      match w_ops s !! o with
      | Some (WOp (SRun op p) tv pv) =>
          match access p with
          | None => w_local s o op tv pv (w_mem s) p spur a
          | Some (c, k, ord) =>
              let fault := Some (WState (w_mem s) (w_hist s) (<[o := WOp (SFail op FUB) tv pv]> (w_ops s)), []) in
              if negb (base_seen tv pv c) then fault else
              match w_hist s c with
              | [] => fault       (* there is no such cell *)
              | h =>
                  match h !! n with
                  | None => None
                  | Some (v, W) =>
                      let seen := write_cell (w_mem s) c v in
                      let newest := bool_decide (S n = length h) in
                      match k with
                      | ALoad => w_local s o op (tv_read ord tv W) (pv_read ord pv c v W) seen p spur a
                      | ATest => w_local s o op tv pv seen p spur a
                      | AFetch => if newest then w_write s o op (tv_read ord tv W) (pv_read ord pv c v W) c ord p spur a else None
                      | ACas => if newest && cas_wins (w_mem s) p spur then w_write s o op (tv_read ord tv W) pv c ord p spur a
                                else if cas_wins seen p spur then None else w_local s o op tv pv seen p spur a
                      end
                  end
              end
          end
      | _ => None
      end
  end.

Fixpoint wrun (s : wstate) (ls : list wlabel) : option (wstate * list event) :=
  match ls with
  | [] => Some (s, [])
  | lb :: ls =>
    match wstep s lb with
    | Some (s', ev) => match wrun s' ls with Some (s'', ev') => Some (s'', ev ++ ev') | None => None end
    | None => None
    end
  end.

Definition wreachable (s : wstate) : Prop := exists ls ev, wrun winit ls = Some (s, ev).
End weak.
