(** * Reference counts of the elements.
    A payload of ConMap is an [Arc<Element>] (map.rs:48-54); its clone increments the strong count of the element, its destructor decrements it and
    destroys the element when the count gets to 0.  Here is the machine of Model.v with these counts: every clone and every destructor run by the code is an
    effect on the counts, and using an element that has been destroyed is an error ([a_bad]).
    [ident p] says which element [p] is a handle of ([arc_id] for ConMap).  Definitions only. *)
From Verif Require Import Model.

Section arcs.
Context {C : Config} (ident : Pl -> positive).

(** What the code does with a handle: read through it, [Arc::clone], [Drop for Arc]. *)
Inductive eff := EfLook (p : Pl) | EfClone (p : Pl) | EfDrop (p : Pl).

(** The state: the map; the strong count of each element (0: destroyed; none: not yet made); the handles in the hands of the callers; the
    handles that calls which never ended had (nobody has them any more, nor did anybody drop them); whether a destroyed element has been used. *)
Record astate := AState { a_map : state; a_cnt : gmap positive nat; a_hand : list Pl; a_lost : list Pl; a_bad : bool }.
Definition ainit : astate := AState init ∅ [] [] false.

Definition strong (cnt : gmap positive nat) (i : positive) : nat := default 0 (cnt !! i).
Definition effect (x : gmap positive nat * bool) (e : eff) : gmap positive nat * bool :=
  let '(cnt, bad) := x in
  match e with
  | EfLook p => (cnt, bad || (strong cnt (ident p) =? 0))
  | EfClone p => (<[ident p := S (strong cnt (ident p))]> cnt, bad || (strong cnt (ident p) =? 0))
  | EfDrop p => (<[ident p := strong cnt (ident p) - 1]> cnt, bad || (strong cnt (ident p) =? 0))
  end.
Definition effects (x : gmap positive nat * bool) (es : list eff) : gmap positive nat * bool := foldl effect x es.

(** [TraverseState::payload], mod.rs:290-302, apart from the call of the constructor: the payload is cloned, one of the two stays in the state. *)
Definition payload_eff (t : tstate) : list eff := [EfClone (ts_payload t).1.1].
(** The destructor of [TraverseState], when [traverse] returns. *)
Definition state_drop (t : tstate) : list eff := match t with TSCreated p => [EfDrop p] | TSFuture _ _ => [] end.
(** Destroying a node, as what it is destroyed: a [Data] drops its elements (SmallVec), an [Inner] does not know of any. *)
Definition node_drop (b : body) (k : dkind) : list eff := match b, k with BData it, KData => map EfDrop it | _, _ => [] end.
(** The node that a step built and threw away. *)
Definition tmp_drop (m m' : mem) : list eff :=
  match m_tmp m' with (b, k) :: _ => if length (m_tmp m) <? length (m_tmp m') then node_drop b k else [] | [] => [] end.
(** The elements of the leaf in cell [c], whose keys are compared. *)
Definition leaf_look (m : mem) (c : cell) : list eff :=
  match read_cell m c with
  | Some v => if sh_data v then match load_data m v with inr it => map EfLook it | inl _ => [] end else []
  | None => []
  end.

(** The effects of one step of a call, from its program point, the memory before and after, and what it does next.
    - traverse finds null or a leaf and builds a new leaf (mod.rs:582, 624-632): the other elements are cloned ([cloned()]), then comes [payload()];
    - traverse returns: its state is dropped;
    - remove builds a new leaf (mod.rs:763-775): the remaining elements are cloned;
    - a compare-and-set fails (mod.rs:550-559, 738-743): the new node is thrown away;
    - get, remove, traverse compare keys (mod.rs:594, 618-621, 672-674, 763-775).
    Simplification: all keys of the leaf are looked at. *)
Definition eff_of (m : mem) (p : pc) (m' : mem) (nx : next) : list eff :=
  match p with TLoad _ _ c _ | GLoad _ _ c | RLoad _ _ _ c _ => leaf_look m c | _ => [] end ++
  match p, nx with
  | TLoad t _ _ _, NRun (TCas _ _ _ _ _ (BData new) _) => map EfClone (removelast new) ++ payload_eff (t_st t)
  | TLoad t _ _ _, NRet _ => state_drop (t_st t)
  | TCas t _ _ _ _ _ _, NRet _ => state_drop (t_st t)
  | RLoad _ _ _ _ _, NRun (RCas _ _ _ _ _ _ new _) => map EfClone new
  | _, _ => []
  end ++ tmp_drop m m'.

(** What happens: as in Model.v, and what callers do with handles.  Where a caller gives a handle away, [src] says which: the n-th of those in hand, or a
    new [Arc]. *)
Inductive alabel :=
| AInv (o : opid) (op : oper) (src : option nat)                  (* insert takes the handle *)
| AStep (o : opid) (spur : bool) (a : N) (src : option nat)       (* src: where the closure gets the handle it returns *)
| AUnpin (o : opid)
| AAbort (o : opid) (unwind : bool)                               (* the call unwinds, or never goes on *)
| AFree (n : nat)
| ADrop
| ANew (p : Pl)                                                   (* a caller makes an element: Arc::new *)
| ADup (n : nat)                                                  (* a caller clones a handle *)
| ARelease (n : nat)                                              (* a caller drops a handle *)
| ATake (o : opid) (n : nat).                                     (* Arc::clone of the n-th element handed out by call o, under its guard (map.rs:181-315, 91-93) *)

(** The label of Model.v. *)
Definition base (lb : alabel) : option label :=
  match lb with
  | AInv o op _ => Some (LInv o op) | AStep o spur a _ => Some (LStep o spur a) | AUnpin o => Some (LUnpin o) | AAbort o _ => Some (LAbort o)
  | AFree n => Some (LFree n) | ADrop => Some LDrop | ANew _ | ADup _ | ARelease _ | ATake _ _ => None
  end.

(** A caller gives away a handle [p]. *)
Definition give (cnt : gmap positive nat) (hand : list Pl) (p : Pl) (src : option nat) : option (gmap positive nat * list Pl) :=
  match src with
  | None => match cnt !! ident p with None => Some (<[ident p := 1]> cnt, hand) | Some _ => None end
  | Some n => match hand !! n with Some q => if decide (ident q = ident p) then Some (cnt, delete n hand) else None | None => None end
  end.

(** The element the closure of the step makes. *)
Definition made (p : pc) (acts : list act) : option Pl :=
  match p, acts with TLoad t _ _ _, ACall _ :: _ => Some (ts_payload (t_st t)).1.1 | _, _ => None end.

(** The nodes a step of the collector, or the destructor, has freed. *)
Definition frees (m m' : mem) : list (loc * dkind) := take (length (m_freed m') - length (m_freed m)) (m_freed m').
Definition free_eff (m m' : mem) : list eff :=
  concat (map (fun x => match m_heap m !! x.1 with Some o => node_drop (ho_body o) x.2 | None => [] end) (frees m m')).

(** The references call [o] has handed out so far. *)
Definition handed (s : state) (o : opid) : list rref :=
  match s_ops s !! o with
  | Some (SRet _ (ROpt (Some x))) => [x]
  | Some (SRet _ (REon e)) => [eon_inner e]
  | Some (SRet _ (RIter out)) | Some (SRun _ (INext _ out)) => out
  | _ => []
  end.

(** The handles a call in progress has: in its [TraverseState], and in the node it has built. *)
Definition pc_state (p : pc) : list Pl :=
  match p with
  | TLoad t _ _ _ | TCas t _ _ _ _ _ _ | PMark (KTrav t) _ _ _ _ _ _ _ | PCas (KTrav t) _ _ _ _ => match t_st t with TSCreated p => [p] | TSFuture _ _ => [] end
  | _ => []
  end.
Definition pc_node (p : pc) : list Pl :=
  match p with TCas _ _ _ _ _ (BData new) _ => new | RCas _ _ _ _ _ _ new _ => new | _ => [] end.

Definition astep (s : astate) (lb : alabel) : option (astate * list event) :=
  let m := s_mem (a_map s) in
  match lb with
  | AInv o op src =>
    match step (a_map s) (LInv o op) with
    | Some (s', ev) =>
      match op with
      | OInsert p => match give (a_cnt s) (a_hand s) p src with Some (cnt, hand) => Some (AState s' cnt hand (a_lost s) (a_bad s), ev) | None => None end
      | _ => Some (AState s' (a_cnt s) (a_hand s) (a_lost s) (a_bad s), ev)
      end
    | None => None
    end
  | AStep o spur a src =>
    match s_ops (a_map s) !! o with
    | Some (SRun op p) =>
      match op_step (guards (a_map s)) m p spur a, step (a_map s) (LStep o spur a) with
      | Some (m', nx, acts), Some (s', ev) =>
        match match made p acts with Some q => give (a_cnt s) (a_hand s) q src | None => Some (a_cnt s, a_hand s) end with
        | Some (cnt, hand) => let '(cnt', bad) := effects (cnt, a_bad s) (eff_of m p m' nx) in Some (AState s' cnt' hand (a_lost s) bad, ev)
        | None => None
        end
      | _, _ => None
      end
    | _ => None
    end
  | AUnpin o => match step (a_map s) (LUnpin o) with Some (s', ev) => Some (AState s' (a_cnt s) (a_hand s) (a_lost s) (a_bad s), ev) | None => None end
  | AAbort o unwind =>
    match s_ops (a_map s) !! o, step (a_map s) (LAbort o) with
    | Some (SRun _ p), Some (s', ev) =>
      if unwind then
        let '(cnt, bad) := effects (a_cnt s, a_bad s) (map EfDrop (pc_state p)) in Some (AState s' cnt (a_hand s) (pc_node p ++ a_lost s) bad, ev)
      else Some (AState s' (a_cnt s) (a_hand s) (pc_state p ++ pc_node p ++ a_lost s) (a_bad s), ev)
    | _, _ => None
    end
  | AFree n =>
    match step (a_map s) (LFree n) with
    | Some (s', ev) => let '(cnt, bad) := effects (a_cnt s, a_bad s) (free_eff m (s_mem s')) in Some (AState s' cnt (a_hand s) (a_lost s) bad, ev)
    | None => None
    end
  | ADrop =>
    match step (a_map s) LDrop with
    | Some (s', ev) => let '(cnt, bad) := effects (a_cnt s, a_bad s) (free_eff m (s_mem s')) in Some (AState s' cnt (a_hand s) (a_lost s) bad, ev)
    | None => None
    end
  | ANew p =>
    match a_cnt s !! ident p with None => Some (AState (a_map s) (<[ident p := 1]> (a_cnt s)) (p :: a_hand s) (a_lost s) (a_bad s), []) | Some _ => None end
  | ADup n =>
    match a_hand s !! n with
    | Some p => let '(cnt, bad) := effect (a_cnt s, a_bad s) (EfClone p) in Some (AState (a_map s) cnt (p :: a_hand s) (a_lost s) bad, [])
    | None => None
    end
  | ARelease n =>
    match a_hand s !! n with
    | Some p => let '(cnt, bad) := effect (a_cnt s, a_bad s) (EfDrop p) in Some (AState (a_map s) cnt (delete n (a_hand s)) (a_lost s) bad, [])
    | None => None
    end
  | ATake o n =>
    match handed (a_map s) o !! n with
    | Some x =>
      match deref m (rr_loc x) with
      | Some (BData it) =>
        match it !! rr_idx x with
        | Some p => let '(cnt, bad) := effect (a_cnt s, a_bad s) (EfClone p) in Some (AState (a_map s) cnt (p :: a_hand s) (a_lost s) bad, [])
        | None => Some (AState (a_map s) (a_cnt s) (a_hand s) (a_lost s) true, [])
        end
      | _ => Some (AState (a_map s) (a_cnt s) (a_hand s) (a_lost s) true, [])
      end
    | None => None
    end
  end.

Fixpoint arun (s : astate) (ls : list alabel) : option (astate * list event) :=
  match ls with
  | [] => Some (s, [])
  | lb :: ls => match astep s lb with Some (s', ev) => match arun s' ls with Some (s'', ev') => Some (s'', ev ++ ev') | None => None end | None => None end
  end.
Definition aexec (ls : list alabel) (s : astate) (ev : list event) : Prop := arun ainit ls = Some (s, ev).
End arcs.
