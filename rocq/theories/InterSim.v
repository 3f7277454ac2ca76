(** * Interleavings are weakly ordered executions: the simulation. *)
From Verif Require Import Model Mem Spec ProgSpec LinSpec Inv Safe SafeStep SafeOps SafeSys SafeProps Weak WeakInv WeakStep WeakSys WeakRun WeakCoh WeakFun WeakBase WeakLin WeakFree FreeSim FreeStep FreeInv FreeRun WeakProg InterSpec WeakLag WeakLock WeakLockSys WeakLockRun WeakLockEnd PropWeak PropFree.

(** ** Steps do not look at what has been retired before, or freed without having been published *)
Section add.
Context {C : Config}.
Implicit Types (m : mem) (gs : gset opid) (c : cell) (v : sh) (o : opid).

Definition addm (g : list (loc * dkind * gset opid)) (t : list (body * dkind)) m : mem := Mem (m_root m) (m_heap m) (m_garb m ++ g) (m_freed m) (m_tmp m ++ t) (m_next m).
Definition amap g t (r : sres) : sres := match r with Some (m', nx, acts) => Some (addm g t m', nx, acts) | None => None end.

Lemma add_write g t0 m c v : write_cell (addm g t0 m) c v = addm g t0 (write_cell m c v).
Proof. by destruct c. Qed.
Lemma add_rem_up g t0 m d levels : rem_up (addm g t0 m) d levels = amap g t0 (rem_up m d levels).
Proof. unfold rem_up. by repeat case_match. Qed.
Lemma add_prune_start g t0 m k p ch : prune_start (addm g t0 m) k p ch = amap g t0 (prune_start m k p ch).
Proof. unfold prune_start. by repeat case_match. Qed.
Lemma add_prune_return g t0 m k pr : prune_return (addm g t0 m) k pr = amap g t0 (prune_return m k pr).
Proof. unfold prune_return. repeat case_match; try done. all: apply add_rem_up. Qed.
Lemma add_prune_decide g t0 m k p ch ac cnt la new : prune_decide (addm g t0 m) k p ch ac cnt la new = amap g t0 (prune_decide m k p ch ac cnt la new).
Proof. unfold prune_decide. by repeat case_match. Qed.
Lemma add_t_finish g t0 m t r acts : t_finish (addm g t0 m) t r acts = amap g t0 (t_finish m t r acts).
Proof. unfold t_finish. by repeat case_match. Qed.

Lemma op_step_add gs g t0 m p spur a : op_step gs (addm g t0 m) p spur a = amap g t0 (op_step gs m p spur a).
Proof.
  assert (forall c, read_cell (addm g t0 m) c = read_cell m c) as R by done.
  destruct p; cbn [op_step]; rewrite ?R.
  - destruct (read_cell m cur) as [node|]; [|done]. destruct (sh_cond node). { destruct par as [[? ?]|]; [apply add_prune_start|done]. }
    destruct (is_null node). { by destruct (ts_payload (t_st t)) as [[? ?] ?]. } change (load_data (addm g t0 m) node) with (load_data m node).
    repeat (case_match; try done). all: apply add_t_finish.
  - destruct (read_cell m cur) as [now|]; [|done]. change (addr_free (addm g t0 m) a) with (addr_free m a). destruct (addr_free m a); [|done].
    change (sh_same (addm g t0 m) now node) with (sh_same m now node). cbn [negb]. destruct (sh_same m now node && negb spur); [|done].
    change (alloc (addm g t0 m) a new) with (addm g t0 (alloc m a new)). rewrite add_write. destruct kind as [| |result].
    + repeat (case_match; try done). all: apply add_t_finish.
    + done.
    + destruct (sh_loc node) as [old|]; [|done]. destruct (negb (sh_data node)); [done|].
      change (retire (addm g t0 (write_cell (alloc m a new) cur (Sh (Some (m_next (addm g t0 m))) false (match new with BInner _ => false | BData _ => true end)))) old KData gs)
        with (addm g t0 (retire (write_cell (alloc m a new) cur (Sh (Some (m_next m)) false (match new with BInner _ => false | BData _ => true end))) old KData gs)).
      destruct new as [|it]; [done|]. repeat (case_match; try done). all: apply add_t_finish.
  - destruct (sh_loc child) as [l|]; [|done]. rewrite R. destruct (read_cell m (CSlot l i)) as [v|]; [|done]. rewrite add_write.
    change (load_data (addm g t0 (write_cell m (CSlot l i) (recond v))) (uncond v)) with (load_data (write_cell m (CSlot l i) (recond v)) (uncond v)).
    destruct (if is_null (uncond v) then _ else _) as [f|[[ac' cnt'] last']]; [done|]. destruct (S i <? LEVEL_CELLS); [done|]. apply add_prune_decide.
  - destruct (read_cell m parent) as [now|]; [|done]. change (addr_free (addm g t0 m) a) with (addr_free m a). change (sh_same (addm g t0 m) now child) with (sh_same m now child).
    destruct ins as [v|sl].
    + destruct (sh_same m now child); [|apply add_prune_return]. rewrite add_write. destruct (sh_loc child) as [l|]; [|done].
      change (retire (addm g t0 (write_cell m parent v)) l KInner gs) with (addm g t0 (retire (write_cell m parent v) l KInner gs)). apply add_prune_return.
    + destruct (addr_free m a); [|done]. destruct (sh_same m now child); [|apply (add_prune_return g t0 (drop_tmp m (BInner sl) KInner))].
      change (alloc (addm g t0 m) a (BInner sl)) with (addm g t0 (alloc m a (BInner sl))). rewrite add_write. destruct (sh_loc child) as [l|]; [|done].
      change (retire (addm g t0 (write_cell (alloc m a (BInner sl)) parent (Sh (Some (m_next (addm g t0 m))) false false))) l KInner gs)
        with (addm g t0 (retire (write_cell (alloc m a (BInner sl)) parent (Sh (Some (m_next m)) false false)) l KInner gs)). apply add_prune_return.
  - destruct (read_cell m cur) as [node|]; [|done]. change (load_data (addm g t0 m) node) with (load_data m node). by repeat case_match.
  - destruct (read_cell m cur) as [node|]; [|done]. change (load_data (addm g t0 m) node) with (load_data m node). destruct (is_null node); [done|].
    destruct (sh_cond node). { destruct levels as [|[? ?] ?]; [done|]. apply add_prune_start. } by repeat case_match.
  - destruct (read_cell m cur) as [now|]; [|done]. change (addr_free (addm g t0 m) a) with (addr_free m a). change (sh_same (addm g t0 m) now node) with (sh_same m now node).
    destruct new as [|p new].
    + destruct (sh_same m now node && negb spur); [|done]. rewrite add_write. destruct (negb (sh_data node)); [done|]. destruct (sh_loc node) as [old|]; [|done].
      change (retire (addm g t0 (write_cell m cur sh_null)) old KData gs) with (addm g t0 (retire (write_cell m cur sh_null) old KData gs)). apply add_rem_up.
    + destruct (addr_free m a); [|done]. destruct (sh_same m now node && negb spur); [|done].
      change (alloc (addm g t0 m) a (BData (p :: new))) with (addm g t0 (alloc m a (BData (p :: new)))). rewrite add_write. destruct (negb (sh_data node)); [done|]. destruct (sh_loc node) as [old|]; [|done].
      change (retire (addm g t0 (write_cell (alloc m a (BData (p :: new))) cur (Sh (Some (m_next (addm g t0 m))) false true))) old KData gs)
        with (addm g t0 (retire (write_cell (alloc m a (BData (p :: new))) cur (Sh (Some (m_next m)) false true)) old KData gs)). apply add_rem_up.
  - destruct (sh_loc child) as [l|]; [|done]. rewrite R. destruct (read_cell m (CSlot l i)) as [v|]; [|done]. destruct (S i <? LEVEL_CELLS); [done|]. destruct (1 <? _); [done|]. apply add_prune_start.
  - done.
  - done.
  - destruct levels as [|[v idx] rest]; [done|]. change (load_data (addm g t0 m) v) with (load_data m v). destruct (is_null v); [done|].
    destruct (sh_data v); [by repeat case_match|]. destruct (idx <? LEVEL_CELLS); [|done]. destruct (sh_loc v) as [l|]; [|done]. rewrite R. by repeat case_match.
Qed.

End add.

Section core.
Context {C : Config}.
Implicit Types (m : mem) (gs : gset opid) (c : cell) (v : sh) (o : opid).

(** Memory without the lists of what is to be freed, and of what has been freed without having been published. *)
Definition core m : mem := Mem (m_root m) (m_heap m) [] (m_freed m) [] (m_next m).
Lemma core_add m : m = addm (m_garb m) (m_tmp m) (core m).
Proof. by destruct m. Qed.

(** The same step of two machines: it registers the same destructions. *)
Lemma step_core gs m1 m2 p spur a m1' nx acts : core m1 = core m2 -> op_step gs m1 p spur a = Some (m1', nx, acts) ->
  exists m2' d, op_step ∅ m2 p spur a = Some (m2', nx, acts) /\ core m2' = core m1' /\ m_garb m1' = ((fun g => (g.1, gs)) <$> d) ++ m_garb m1 /\ m_garb m2' = d ++ m_garb m2.
Proof.
  intros Hc H. rewrite (core_add m1), op_step_add in H. change (core m1) with (tagm gs (core m1)) in H. rewrite op_step_tag in H. rewrite (core_add m2), op_step_add, <-Hc.
  destruct (op_step ∅ (core m1) p spur a) as [[[k' nx'] acts']|]; [|done]. cbn [rmap amap] in *. injection H as <- <- <-. exists (addm (m_garb m2) (m_tmp m2) k'), (m_garb k'). done.
Qed.

(** Steps that do not write *)
Lemma dry_step (w : orders) m p spur a m' nx acts : op_step ∅ m p spur a = Some (m', nx, acts) ->
  match access w p with None => True | Some (_, k, _) => match k with ALoad | ATest => True | ACas => cas_wins m p spur = false | AFetch => False end end ->
  core m' = core m /\ m_garb m' = m_garb m.
Proof.
  intros H Hk. destruct p; cbn [op_step access] in *; unfold panics, ok in H.
  - repeat (case_match; simplify_eq; try done). all: try (apply t_finish_mem in H; by subst). all: try (apply prune_start_mem in H; by subst).
  - unfold cas_wins in Hk. cbn [cas_of] in Hk. destruct (read_cell m cur) as [now|]; [|by simplify_eq]. destruct (negb (addr_free m a)); [done|]. cbn [negb] in Hk. rewrite Hk in H.
    destruct kind; simplify_eq; done.
  - destruct (sh_loc child); [done|]. by simplify_eq.
  - unfold cas_wins in Hk. cbn [cas_of] in Hk. destruct (read_cell m parent) as [now|]; [|by simplify_eq]. cbn [negb] in Hk. rewrite andb_true_r in Hk.
    destruct ins; repeat (case_match; simplify_eq; try done). all: try (apply prune_return_mem in H; by subst).
  - repeat (case_match; simplify_eq; try done).
  - repeat (case_match; simplify_eq; try done). all: try (apply prune_start_mem in H; by subst).
  - unfold cas_wins in Hk. cbn [cas_of] in Hk. destruct (read_cell m cur) as [now|]; [|by simplify_eq]. cbn [negb] in Hk. destruct new; [|destruct (addr_free m a); [|done]]; rewrite Hk in H; by simplify_eq.
  - repeat (case_match; simplify_eq; try done). all: try (apply prune_start_mem in H; by subst).
  - by simplify_eq.
  - by simplify_eq.
  - repeat (case_match; simplify_eq; try done).
Qed.
End core.

(** ** Reading the newest value *)
Section newest.
Context {C : Config} {HC : ConfigOk C} (w : orders).
Implicit Types (o : opid) (op : oper) (s f : fstate) (p : pc) (m : mem).

Definition newest_of (x : wstate) p : nat := match access w p with Some (c, _, _) => pred (length (w_hist x c)) | None => 0 end.
Definition went (x x' : wstate) o op m' nx acts (e : list event) : Prop :=
  e = nx_events o nx acts /\ (w_mem x' = m' \/ w_mem x' = w_mem x /\ core m' = core (w_mem x) /\ m_garb m' = m_garb (w_mem x)) /\ exists tv pv, w_ops x' = <[o := WOp (nx_stat op nx) tv pv]> (w_ops x).
Definition failed (x : wstate) o : Prop := exists op fl tv pv, w_ops x !! o = Some (WOp (SFail op fl) tv pv).

Lemma step_newest (x : wstate) o op p tv pv spur a m' nx acts : w_ops x !! o = Some (WOp (SRun op p) tv pv) -> op_step ∅ (w_mem x) p spur a = Some (m', nx, acts) ->
  (forall c k ord v W, access w p = Some (c, k, ord) -> last (w_hist x c) = Some (v, W) -> write_cell (w_mem x) c v = w_mem x) ->
  exists x' e, wstep w x (WStep o (newest_of x p) spur a) = Some (x', e) /\ (failed x' o \/ went x x' o op m' nx acts e).
Proof.
  intros Ho Hst Hl.
  assert (forall tv pv, see_step tv pv (w_mem x) p spur a = Some (m', nx, acts) \/ see_step tv pv (w_mem x) p spur a = ok (w_mem x) (NFail FUB)) as Hsee.
  { intros tv1 pv1. unfold see_step. destruct (op_step ∅ (hide _ _ _) p spur a) as [[[? []] ?]|]; try (left; done). destruct f; first [by right|by left]. }
  assert (match access w p with None => True | Some (_, k, _) => match k with ALoad | ATest => True | ACas => cas_wins (w_mem x) p spur = false | AFetch => False end end ->
    forall tv pv, exists (x' : wstate) e, w_local x o op tv pv (w_mem x) p spur a = Some (x', e) /\ (failed x' o \/ went x x' o op m' nx acts e)) as Hloc.
  { intros Hd tv1 pv1. destruct (dry_step w _ _ _ _ _ _ _ Hst Hd) as [D1 D2]. unfold w_local. destruct (Hsee tv1 pv1) as [->| ->].
    - eexists _, _. split; [reflexivity|]. right. split; [done|]. split; [right; done|by eexists _, _].
    - eexists _, _. split; [reflexivity|]. left. eexists _, _, _, _. simpl. apply lookup_insert. }
  assert (forall c ord tv pv, exists (x' : wstate) e, w_write x o op tv pv c ord p spur a = Some (x', e) /\ (failed x' o \/ went x x' o op m' nx acts e)) as Hwr.
  { intros c ord tv1 pv1. unfold w_write. destruct (Hsee tv1 pv1) as [->| ->].
    - eexists _, _. split; [reflexivity|]. right. split; [done|]. split; [by left|by eexists _, _].
    - eexists _, _. split; [reflexivity|]. left. eexists _, _, _, _. simpl. apply lookup_insert. }
  assert (forall tv pv, failed (WState (w_mem x) (w_hist x) (<[o := WOp (SFail op FUB) tv pv]> (w_ops x))) o) as Hfl. { intros tv1 pv1. eexists _, _, _, _. apply lookup_insert. }
  unfold newest_of. cbn [wstep]. rewrite Ho. destruct (access w p) as [[[c k] ord]|] eqn:Ea; [|apply Hloc; done].
  destruct (negb _); [eexists _, _; split; [reflexivity|by left]|]. pose proof (fun v W => Hl c k ord v W eq_refl) as Hlc. destruct (w_hist x c) as [|y h] eqn:Eh; [eexists _, _; split; [reflexivity|by left]|]. cbn [pred length].
  destruct (lookup_lt_is_Some_2 (y :: h) (length h) ltac:(simpl; lia)) as [[v W] Hv]. match goal with |- context [match ?z with Some _ => _ | None => _ end] => change z with ((y :: h) !! length h) end. rewrite Hv.
  rewrite last_lookup in Hlc. cbn [length pred] in Hlc. rewrite (Hlc v W Hv). rewrite bool_decide_eq_true_2 by done. clear Hl.
  destruct k; [apply Hloc; done|apply Hloc; done|apply Hwr|]. cbn [andb]. destruct (cas_wins (w_mem x) p spur) eqn:Ew; [apply Hwr|apply Hloc; done].
Qed.

(** A cell that has no value is not there. *)
Lemma fault_empty (x : wstate) o op p tv pv n spur a c k ord (x' : wstate) e : w_ops x !! o = Some (WOp (SRun op p) tv pv) -> access w p = Some (c, k, ord) -> w_hist x c = [] ->
  wstep w x (WStep o n spur a) = Some (x', e) -> failed x' o.
Proof.
  intros Ho Ha Hh. cbn [wstep]. rewrite Ho, Ha, Hh. destruct (negb _); intros [= <- <-]; eexists _, _, _, _; apply lookup_insert.
Qed.
End newest.

(** ** A step that reads the newest value can be taken on the weakly ordered machine *)
Section fnewest.
Context {C : Config} {HC : ConfigOk C} (w : orders).
Implicit Types (o : opid) (op : oper) (f : fstate) (p : pc) (m : mem).

Lemma fnewest M H N pos ll b ev f o op p tv pv spur a m' nx acts d : pinv M H N pos ll b ev f -> f_alive f o = true -> w_ops (c_w (f_c f)) !! o = Some (WOp (SRun op p) tv pv) ->
  op_step ∅ (f_mem f) p spur a = Some (m', nx, acts) -> m_garb m' = d ++ m_garb (f_mem f) ->
  exists f' e, fstep w f (FStep o (newest_of w (c_w (f_c f)) p) spur a) = Some (f', e) /\
    (failed (c_w (f_c f')) o \/
     e = nx_events o nx acts /\ core (f_mem f') = core m' /\ (exists tv' pv', w_ops (c_w (f_c f')) = <[o := WOp (nx_stat op nx) tv' pv']> (w_ops (c_w (f_c f)))) /\
     (exists gs, f_regs f' = f_regs f ++ gs /\ (fun g => (g_loc g, g_kind g)) <$> gs = d.*1) /\
     f_sync f' = f_sync f /\ f_done f' = f_done f /\ f_gone f' = f_gone f /\ f_dropped f' = f_dropped f /\ f_ub f' = f_ub f).
Proof.
  intros P Hal Ho Hst Hd. set (n := newest_of w (c_w (f_c f)) p).
  assert (next_cell w (c_w (f_c f)) o = (fun x => x.1.1) <$> access w p) as En by (unfold next_cell; by rewrite Ho).
  assert (forall c, next_cell w (c_w (f_c f)) o = Some c -> n = pred (length (w_hist (c_w (f_c f)) c))) as Hn.
  { intros c. rewrite En. unfold n, newest_of. destruct (access w p) as [[[c' k] ord]|]; [|done]. by intros [= ->]. }
  destruct (step_newest w (c_w (f_c f)) o op p tv pv spur a m' nx acts Ho Hst) as (x' & e & Ew & Hx). { intros c k ord v W _ Hl. by eapply pi_newest. }
  fold n in Ew.
  assert (exists fl, cstep w (f_c f) (CStep o n spur a) = Some (CState x' fl, e)) as [fl Ec].
  { cbn [cstep]. rewrite Ew. destruct (next_cell w (c_w (f_c f)) o) as [c|]; [|eauto]. rewrite (Hn c eq_refl).
    assert (c_fl (f_c f) o c <= pred (length (w_hist (c_w (f_c f)) c))) as Hfl.
    { destruct P as [I L _]. rewrite <-(cs_fl _ _ (fi_sim _ _ _ _ _ _ _ _ I)). rewrite <-(ws_hist _ _ (cs_w _ _ (fi_sim _ _ _ _ _ _ _ _ I))). destruct (wl_fl _ L o c); lia. }
    destruct (Nat.ltb_spec (pred (length (w_hist (c_w (f_c f)) c))) (c_fl (f_c f) o c)); [lia|eauto]. }
  cbn [fstep]. rewrite Hal, Ec. cbn [andb].
  assert (match next_cell w (c_w (f_c f)) o with Some c => f_floor f (f_sync f o) c <=? n | None => true end = true) as ->.
  { destruct (next_cell w (c_w (f_c f)) o) as [c|]; [|done]. rewrite (Hn c eq_refl). apply Nat.leb_le. unfold f_floor. apply max_list_lt. intros x (i & -> & _)%elem_of_list_fmap.
    destruct (f_regs f !! i) as [g|] eqn:Eg; [|by left]. destruct (pi_reg _ _ _ _ _ _ _ _ P _ _ c Eg); lia. }
  eexists _, _. split; [reflexivity|]. cbn [f_c c_w f_regs f_sync f_done f_gone f_dropped f_ub]. destruct Hx as [Hx|(-> & Hm & Hops)]; [by left|right].
  split; [done|]. split. { unfold f_mem. cbn [f_c c_w]. destruct Hm as [E|(E1 & E2 & _)]; [by rewrite E|by rewrite E1, E2]. } split; [done|]. split; [|done].
  eexists. split; [reflexivity|]. unfold new_regs. rewrite <-list_fmap_compose. destruct Hm as [Em|(Em & _ & E)]; rewrite Em.
  - rewrite Hd, app_length, Nat.add_sub, take_app. apply list_fmap_ext. intros i y Hy. by destruct y as [[? ?] ?].
  - assert (d = []) as ->. { rewrite Hd in E. apply (f_equal length) in E. rewrite app_length in E. destruct d; [done|]. simpl in E. unfold f_mem in E. lia. }
    by rewrite Nat.sub_diag.
Qed.
End fnewest.

(** ** The simulation *)
Section sim.
Context {C : Config} {HC : ConfigOk C}.
Implicit Types (o : opid) (op : oper) (s : state) (f : fstate) (p : pc) (m : mem).

(** The step reads the newest value of the cell. *)
Definition newest_at f (fb : flabel) : Prop := forall o n spur a c, fb = FStep o n spur a -> next_cell code_orders (c_w (f_c f)) o = Some c -> S n = length (w_hist (c_w (f_c f)) c).

(** The destruction [g] is the [i]-th registered. *)
Definition as_reg f (g : loc * dkind * gset opid) (i : nat) : Prop :=
  i ∉ f_done f /\ (exists r, f_regs f !! i = Some r /\ g.1 = (g_loc r, g_kind r)) /\ forall o, f_alive f o = true -> i ∈ f_sync f o \/ o ∈ g.2.
Record rel s f : Prop := {
  rl_core : core (s_mem s) = core (f_mem f);
  rl_ops : forall o, s_ops s !! o = shown f o;
  rl_gone : forall o, o ∈ f_gone f -> is_Some (w_ops (c_w (f_c f)) !! o);
  rl_st : forall o x, w_ops (c_w (f_c f)) !! o = Some x -> w_st x <> SGone;
  rl_drop : s_dropped s = f_dropped f;
  rl_ub : s_ub s = f_ub f;
  rl_done : forall i, i ∈ f_done f -> i < length (f_regs f);
  rl_garb : exists is, NoDup is /\ Forall2 (as_reg f) (m_garb (s_mem s)) is;
}.

Lemma rel0 : rel init finit.
Proof. constructor; try done. - intros i Hi. by apply elem_of_nil in Hi. - exists []. split; [constructor|constructor]. Qed.

Lemma alive_shown s f o : rel s f -> f_alive f o = true <-> o ∈ guards s.
Proof.
  intros R. rewrite elem_of_guards, (rl_ops _ _ R). unfold f_alive, shown. rewrite bool_decide_eq_true. split.
  - intros [[x Hx] Hg]. rewrite Hx, decide_False by done. eexists. split; [done|]. destruct (w_st x) eqn:E; try done. by destruct (rl_st _ _ R _ _ Hx).
  - intros (st & Hst & Ha). destruct (w_ops (c_w (f_c f)) !! o) as [x|]; [|done]. split; [eauto|]. intros Hg. rewrite decide_True in Hst by done. by injection Hst as <-.
Qed.


Lemma rel_len s f : rel s f -> forall i, i ∈ f_done f -> i < length (f_regs f).
Proof. intros R. apply R. Qed.

(** What can be freed, and what the destructor frees *)
Lemma free_add g t m v fuel : drop_rec fuel (addm g t m) v = drop_rec fuel m v.
Proof.
  revert v. induction fuel as [|fuel IH]; intros v; [done|]. cbn [drop_rec]. destruct (sh_loc v) as [l|]; [|done]. change (deref (addm g t m) l) with (deref m l).
  destruct (sh_data v); [done|]. destruct (deref m l) as [[sl|]|]; [|done..]. match goal with |- match ?x with _ => _ end = match ?y with _ => _ end => assert (x = y) as -> end; [|done].
  induction sl as [|u sl IHs]; [done|]. rewrite IH, IHs. done.
Qed.
Lemma core_drop m1 m2 v fuel : core m1 = core m2 -> drop_rec fuel m1 v = drop_rec fuel m2 v.
Proof. intros E. rewrite (core_add m1), (core_add m2), !free_add. by rewrite E. Qed.

Lemma all_alive_intro f P : (forall o, f_alive f o = true -> P o = true) -> all_alive f P = true.
Proof.
  intros Hp. unfold all_alive. apply forallb_forall. intros [o x] Hin. apply elem_of_list_In, elem_of_map_to_list in Hin. simpl. destruct (decide (o ∈ f_gone f)); [by rewrite bool_decide_eq_true_2|].
  rewrite Hp; [by rewrite orb_true_r|]. apply bool_decide_eq_true. split; [by eexists|done].
Qed.
Lemma rel_gone s f o x : rel s f -> w_ops (c_w (f_c f)) !! o = Some x -> rel (set_op s o SGone) (FState (f_c f) (f_regs f) (f_sync f) (f_done f) ({[o]} ∪ f_gone f) (f_dropped f) (f_ub f)).
Proof.
  intros R Hx. constructor; cbn [set_op s_mem s_ops s_dropped s_ub f_c c_w w_ops f_gone f_dropped f_ub f_done f_regs]; try apply R.
  - intros o'. unfold shown. cbn [f_c c_w w_ops f_gone]. destruct (decide (o' = o)) as [->|Hne].
    + rewrite lookup_insert, Hx, decide_True by set_solver. done.
    + rewrite lookup_insert_ne by done. rewrite (rl_ops _ _ R). unfold shown. destruct (w_ops (c_w (f_c f)) !! o'); [|done]. destruct (decide (o' ∈ f_gone f)); [by rewrite decide_True by set_solver|by rewrite decide_False by set_solver].
  - intros o' [->%elem_of_singleton|Hg]%elem_of_union; [by eexists|by apply R].
  - destruct (rl_garb _ _ R) as (is & Hnd & Hf). exists is. split; [done|]. eapply Forall2_impl; [exact Hf|]. intros g i (H1 & H2 & H3). split; [done|]. split; [done|].
    intros o' Ha. apply H3. unfold f_alive in *. cbn [f_c c_w w_ops f_gone] in Ha. apply bool_decide_eq_true in Ha as [? ?]. apply bool_decide_eq_true. split; [done|set_solver].
Qed.

Context (Hw : strong code_orders).

(** Every registration that is there: all calls that start now are synchronised with all of them. *)
Definition all_regs f : list nat := seq 0 (length (f_regs f)).
(** Everything that has returned. *)
Definition all_rets f : list opid := List.filter (is_returned (c_w (f_c f))) (map_to_list (w_ops (c_w (f_c f)))).*1.
Lemma all_rets_spec f o : o ∈ all_rets f <-> is_returned (c_w (f_c f)) o = true.
Proof.
  unfold all_rets. rewrite elem_of_list_In, filter_In. split; [by intros [_ ?]|]. intros Hr. split; [|done]. apply elem_of_list_In, elem_of_list_fmap.
  unfold is_returned in Hr. destruct (w_ops (c_w (f_c f)) !! o) as [x|] eqn:E; [|done]. exists (o, x). split; [done|]. by apply elem_of_map_to_list.
Qed.

Lemma rel_step lsf s f ev lb s' e : wf_fcalls lsf -> fexec code_orders lsf f ev -> rel s f -> step s lb = Some (s', e) -> (forall o op, lb = LInv o op -> op_wf op) ->
  exists fb f', fstep code_orders f fb = Some (f', e) /\ rel s' f' /\ same_move lb fb /\
    (forall o op ps ds, fb = FInv o op ps ds -> op_wf op /\ forall o', is_returned (c_w (f_c f)) o' = true -> o' ∈ ps) /\ newest_at f fb.
Proof.
  intros Hwf Hx R Hst Hop. destruct lb as [o op|o spur a|o|o|n|]; cbn [step] in Hst.
  - pose proof (rl_ops _ _ R o) as Eo. destruct (s_ops s !! o); [done|]. destruct (s_dropped s) eqn:Ed; [done|]. injection Hst as <- <-. unfold shown in Eo.
    destruct (w_ops (c_w (f_c f)) !! o) as [x|] eqn:Ew; [done|]. exists (FInv o op (all_rets f) (all_regs f)). cbn [fstep]. rewrite <-(rl_drop _ _ R), Ed. cbn [negb andb].
    assert (forallb (fun i => bool_decide (i < length (f_regs f))) (all_regs f) = true) as ->.
    { apply forallb_forall. intros i Hi. apply in_seq in Hi. apply bool_decide_eq_true. lia. }
    assert (forallb (fun i => bool_decide (i ∈ all_regs f)) (f_done f) = true) as ->.
    { apply forallb_forall. intros i Hi. apply bool_decide_eq_true. apply elem_of_seq. pose proof (rl_done _ _ R i ltac:(by apply elem_of_list_In)). lia. }
    cbn [cstep wstep]. assert (forallb (is_returned (c_w (f_c f))) (all_rets f) = true) as ->. { apply forallb_forall. intros o' Hi. by apply all_rets_spec, elem_of_list_In. }
    rewrite Ew. eexists. split; [reflexivity|]. split; [|split; [done|split; [intros ? ? ? ? [= <- <- <- _]; split; [by eapply Hop|intros o' Hr; by apply all_rets_spec]|done]]].
    assert (o ∉ f_gone f) as Hog. { intros Hg. apply (rl_gone _ _ R) in Hg as [? ?]. congruence. }
    constructor; cbn [set_op s_mem s_ops s_dropped s_ub f_c c_w w_ops f_gone f_dropped f_ub f_done f_regs].
    + apply R.
    + intros o'. unfold shown. cbn [f_c c_w w_ops f_gone]. destruct (decide (o' = o)) as [->|Hne]; [rewrite !lookup_insert; by rewrite decide_False by done|]. rewrite !lookup_insert_ne by done. apply (rl_ops _ _ R).
    + intros o' Hg. rewrite lookup_insert_ne by (intros ->; done). by apply R.
    + intros o' x. rewrite lookup_insert_Some. intros [[<- <-]|[_ Hx']]; [done|]. by eapply R.
    + done.
    + apply R.
    + apply R.
    + destruct (rl_garb _ _ R) as (is & Hnd & Hf). exists is. split; [done|]. eapply Forall2_impl; [exact Hf|]. intros g i (H1 & (r & Hr & H2) & H3). split; [done|]. split; [eauto|].
      intros o' Ha. cbn [f_sync]. destruct (decide (o' = o)) as [->|Hne].
      * left. apply elem_of_seq. apply lookup_lt_Some in Hr. lia.
      * apply H3. unfold f_alive in *. cbn [f_c c_w w_ops f_gone] in Ha. rewrite lookup_insert_ne in Ha by done. done.
  - destruct (s_ops s !! o) as [[op p| | |]|] eqn:Eo; try done. destruct (op_step (guards s) (s_mem s) p spur a) as [[[m nx] acts]|] eqn:Es; [|done]. injection Hst as <- <-.
    pose proof Eo as Eo2. rewrite (rl_ops _ _ R) in Eo. unfold shown in Eo. destruct (w_ops (c_w (f_c f)) !! o) as [[st tv pv]|] eqn:Ew; [|done]. destruct (decide (o ∈ f_gone f)) as [|Hog]; [done|]. injection Eo as ->.
    destruct (step_core _ _ (f_mem f) _ _ _ _ _ _ (rl_core _ _ R) Es) as (m2 & d & Es2 & Hc & Hg1 & Hg2).
    assert (f_alive f o = true) as Hal by (unfold f_alive; apply bool_decide_eq_true; split; [by eexists|done]).
    destruct (fexec_pinv _ _ _ _ Hw Hwf Hx) as (M & H & N & pos & ll & b & P).
    destruct (fnewest code_orders _ _ _ _ _ _ _ _ _ _ _ _ _ _ _ _ _ _ _ P Hal Ew Es2 Hg2) as (f' & e & Ef & Hf).
    assert (~ failed (c_w (f_c f')) o) as Hnf.
    { intros (op' & fl & tv' & pv' & Hf1). refine (proj1 (C46_no_use_after_free (lsf ++ [FStep o (newest_of code_orders (c_w (f_c f)) p) spur a]) f' (ev ++ e) _ _) _ _ op' fl Hf1 eq_refl).
      - intros o1 op1 ps1 ds1 [Hin|Hin%elem_of_list_singleton]%elem_of_app; [by eapply Hwf|done].
      - eapply frun_app; [exact Hx|]. cbn [frun]. rewrite Ef. by rewrite app_nil_r. }
    destruct Hf as [Hf|(-> & Hcm & (tv' & pv' & Hops) & (gs & Hr & Hgs) & F1 & F2 & F3 & F4 & F5)]; [done|].
    exists (FStep o (newest_of code_orders (c_w (f_c f)) p) spur a), f'. split; [|split; [|split; [done|split; [done|]]]].
    { rewrite Ef. done. }
    2:{ intros o1 n1 sp1 a1 c [= <- <- <- <-] Hnc. destruct (w_hist (c_w (f_c f)) c) as [|y h] eqn:Eh.
      - exfalso. unfold next_cell in Hnc. rewrite Ew in Hnc. destruct (access code_orders p) as [[[c' k] ord]|] eqn:Ea; [|done]. injection Hnc as ->.
        apply Hnf. cbn [fstep] in Ef. destruct (_ && _); [|done]. destruct (cstep code_orders (f_c f) _) as [[c1 e1]|] eqn:Ec; [|done]. injection Ef as <- _. cbn [f_c cstep] in *.
        destruct (wstep code_orders (c_w (f_c f)) _) as [[x1 e2]|] eqn:Ews; [|done]. assert (c_w c1 = x1) as -> by (destruct (next_cell code_orders (c_w (f_c f)) o); [destruct (_ <? _); [done|]|]; by injection Ec as <- _).
        by eapply fault_empty.
      - unfold newest_of. unfold next_cell in Hnc. rewrite Ew in Hnc. destruct (access code_orders p) as [[[c' k] ord]|] eqn:Ea; [|done]. injection Hnc as ->. by rewrite Eh. }
    constructor; cbn [s_mem s_ops s_dropped s_ub].
    + by rewrite Hcm, Hc.
    + intros o'. unfold shown. rewrite Hops, F3. destruct (decide (o' = o)) as [->|Hne]; [rewrite !lookup_insert; by rewrite decide_False by done|]. rewrite !lookup_insert_ne by done. apply (rl_ops _ _ R).
    + intros o'. rewrite F3, Hops. intros Hg. rewrite lookup_insert_ne by (intros ->; done). by apply R.
    + intros o' x. rewrite Hops, lookup_insert_Some. intros [[<- <-]|[_ Hx']]; [by destruct nx|]. by eapply R.
    + rewrite F4. apply R.
    + rewrite F5. apply R.
    + rewrite F2, Hr, app_length. intros i Hi. pose proof (rl_done _ _ R i Hi). lia.
    + destruct (rl_garb _ _ R) as (is & Hnd & Hf). exists (seq (length (f_regs f)) (length d) ++ is). split.
      { apply NoDup_app. split; [apply NoDup_ListNoDup, seq_NoDup|]. split; [|done]. intros i Hi Hi2. apply elem_of_seq in Hi. apply elem_of_list_lookup in Hi2 as [j Hj].
        destruct (Forall2_lookup_r _ _ _ _ _ Hf Hj) as (g & _ & _ & (r & Hr' & _) & _). apply lookup_lt_Some in Hr'. lia. }
      assert (forall o', f_alive f' o' = f_alive f o') as Hae.
      { intros o'. unfold f_alive. rewrite Hops, F3. apply bool_decide_ext. destruct (decide (o' = o)) as [->|Hne]; [rewrite lookup_insert, Ew|by rewrite lookup_insert_ne by done]. split; intros [_ ?]; (split; [by eexists|done]). }
      rewrite Hg1. apply Forall2_app.
      * apply Forall2_same_length_lookup_2; [by rewrite fmap_length, seq_length|]. intros j g i Hg Hi. rewrite list_lookup_fmap in Hg. destruct (d !! j) as [g0|] eqn:Eg; [|done]. injection Hg as <-. apply lookup_seq in Hi as [-> Hj].
        split. { rewrite F2. intros Hi. pose proof (rl_done _ _ R _ Hi). lia. } split.
        -- rewrite Hr. assert (((fun g => (g_loc g, g_kind g)) <$> gs) !! j = Some g0.1) as Hgj by (rewrite Hgs, list_lookup_fmap, Eg; done). rewrite list_lookup_fmap in Hgj. destruct (gs !! j) as [r|] eqn:Er; [|done]. exists r.
           split; [rewrite lookup_app_r by lia; replace (length (f_regs f) + j - length (f_regs f)) with j by lia; done|]. cbn [fst]. by injection Hgj as <-.
        -- intros o' Ha. right. cbn [snd]. rewrite Hae in Ha. by apply (alive_shown s f o' R).
      * eapply Forall2_impl; [exact Hf|]. intros g i (H1 & (r & Hr' & H2) & H3). split; [by rewrite F2|]. split; [exists r; split; [rewrite Hr; by apply lookup_app_l_Some|exact H2]|].
        intros o' Ha. rewrite F1. apply H3. by rewrite <-Hae.
  - destruct (s_ops s !! o) as [[|op r| |]|] eqn:Eo; try done. injection Hst as <- <-. pose proof Eo as Eo2. rewrite (rl_ops _ _ R) in Eo. unfold shown in Eo. destruct (w_ops (c_w (f_c f)) !! o) as [[st tv pv]|] eqn:Ew; [|done]. destruct (decide (o ∈ f_gone f)) as [|Hog]; [done|]. injection Eo as ->.
    exists (FUnpin o). cbn [fstep]. assert (f_alive f o = true) as -> by (unfold f_alive; apply bool_decide_eq_true; split; [by eexists|done]). unfold is_returned. rewrite Ew. cbn [andb]. eexists. split; [reflexivity|]. split; [|done].
    by eapply rel_gone.
  - destruct (s_ops s !! o) as [[op p| | |]|] eqn:Eo; try done. injection Hst as <- <-. pose proof Eo as Eo2. rewrite (rl_ops _ _ R) in Eo. unfold shown in Eo. destruct (w_ops (c_w (f_c f)) !! o) as [[st tv pv]|] eqn:Ew; [|done]. destruct (decide (o ∈ f_gone f)) as [|Hog]; [done|]. injection Eo as ->.
    exists (FAbort o). cbn [fstep]. assert (f_alive f o = true) as -> by (unfold f_alive; apply bool_decide_eq_true; split; [by eexists|done]). unfold is_returned. rewrite Ew. cbn [andb negb]. eexists. split; [reflexivity|]. split; [|done].
    by eapply rel_gone.
  - destruct (m_garb (s_mem s) !! n) as [[[l k] gs]|] eqn:Eg; [|done]. destruct (bool_decide (gs ∩ guards s = ∅)) eqn:Eb; [|done]. apply bool_decide_eq_true in Eb. injection Hst as <- <-.
    destruct (rl_garb _ _ R) as (is & Hnd & Hf). destruct (Forall2_lookup_l _ _ _ _ _ Hf Eg) as (i & Hi & H1 & (r & Hr & H2) & H3). cbn [fst snd] in *. injection H2 as -> ->.
    exists (FFree i). cbn [fstep]. rewrite Hr, bool_decide_eq_true_2 by done. rewrite all_alive_intro.
    2:{ intros o' Ha. apply bool_decide_eq_true. destruct (H3 o' Ha) as [|Hgs]; [done|]. exfalso. apply (alive_shown s f o' R) in Ha. set_solver. }
    cbn [andb]. eexists. split; [reflexivity|]. split; [|done]. pose proof (rl_core _ _ R) as Ec. injection Ec as E1 E2 E3 E4.
    constructor; cbn [s_mem s_ops s_dropped s_ub f_c c_w set_mem w_ops f_gone f_dropped f_ub f_done f_regs].
    + unfold f_mem, core. cbn. unfold f_mem in *. by rewrite E1, E2, E3, E4.
    + apply (rl_ops _ _ R).
    + apply R.
    + apply R.
    + apply R.
    + rewrite (rl_ub _ _ R). unfold freed. by rewrite E3.
    + intros j [->|Hj]%elem_of_cons; [by apply lookup_lt_Some in Hr|by apply R].
    + exists (delete n is). split. { rewrite (delete_Permutation _ _ _ Hi) in Hnd. by apply NoDup_cons in Hnd as [_ ?]. } cbn [m_garb].
      apply Forall2_same_length_lookup_2. { rewrite !length_delete by eauto. by rewrite (Forall2_length _ _ _ Hf). }
      intros j g i' Hg Hi'. 
      assert (exists j', j' <> n /\ m_garb (s_mem s) !! j' = Some g /\ is !! j' = Some i') as (j' & Hj' & Hg' & Hi2). 
      { destruct (decide (j < n)). - rewrite list.lookup_delete_lt in Hg by done. rewrite list.lookup_delete_lt in Hi' by done. exists j. repeat split; [lia|done..]. - rewrite list.lookup_delete_ge in Hg by lia. rewrite list.lookup_delete_ge in Hi' by lia. exists (S j). repeat split; [lia|done..]. }
      destruct (Forall2_lookup_lr _ _ _ _ _ _ Hf Hg' Hi2) as (G1 & G2 & G3). split; [|split; [done|done]]. intros [->|?]%elem_of_cons; [|done]. apply Hj'. by eapply NoDup_lookup.
  - destruct (bool_decide (guards s = ∅) && negb (s_dropped s)) eqn:Eb; [|done]. apply andb_true_iff in Eb as [Eg Ed]. apply bool_decide_eq_true in Eg.
    exists FDrop. cbn [fstep]. rewrite <-(rl_drop _ _ R), Ed, all_alive_intro.
    2:{ intros o' Ha. exfalso. apply (alive_shown s f o' R) in Ha. set_solver. }
    cbn [andb]. pose proof (rl_core _ _ R) as Ec. rewrite <-(core_drop _ _ _ _ Ec). injection Ec as E1 E2 E3 E4. rewrite <-E1.
    destruct (drop_rec (MAX_LEVELS + 2) (s_mem s) (m_root (s_mem s))) as [fs|]; injection Hst as <- <-; (eexists; split; [reflexivity|]; split; [|done]).
    + constructor; cbn [s_mem s_ops s_dropped s_ub f_c c_w set_mem w_ops f_gone f_dropped f_ub f_done f_regs]; try apply R; try done.
      * unfold f_mem, core, free_list. cbn. unfold f_mem in *. by rewrite E1, E2, E3, E4.
      * by rewrite (rl_ub _ _ R), E3.
    + constructor; cbn [s_mem s_ops s_dropped s_ub f_c c_w set_mem w_ops f_gone f_dropped f_ub f_done f_regs]; try apply R; done.
Qed.

(** Every interleaving is a weakly ordered execution. *)
Lemma inter_sim ls s ev : wf_calls ls -> exec ls s ev -> exists lsf f, wf_fcalls lsf /\ fexec code_orders lsf f ev /\ Forall2 same_move ls lsf /\ rel s f /\ real_time lsf /\ reads_newest lsf.
Proof.
  revert s ev. induction ls as [|lb ls IH] using rev_ind; intros s ev Hwf Hx; unfold exec in Hx.
  { injection Hx as <- <-. exists [], finit. split; [intros ? ? ? ? Hin; by apply elem_of_nil in Hin|]. split; [done|]. split; [constructor|]. split; [apply rel0|]. split; [intros l1 o op ps ds l2 f1 e1 E; by destruct l1|intros l1 o n spur a l2 f1 e1 c E; by destruct l1]. }
  rewrite run_app in Hx. destruct (run init ls) as [[s1 e1]|] eqn:Er; [|done]. cbn [run] in Hx. destruct (step s1 lb) as [[s2 e2]|] eqn:Es; [|done]. injection Hx as <- <-.
  destruct (IH s1 e1) as (lsf & f & Hwff & Hxf & Hsm & R & Hrt & Hrn); [|exact Er|]. { intros o op Hin. apply (Hwf o). apply elem_of_app. by left. }
  destruct (rel_step lsf s1 f e1 lb s2 e2 Hwff Hxf R Es) as (fb & f' & Ef & R' & Hm & Hop & Hna). { intros o op ->. apply (Hwf o). apply elem_of_app. right. by left. }
  exists (lsf ++ [fb]), f'. split. { intros o op ps ds [Hin|Hin%elem_of_list_singleton]%elem_of_app; [by eapply Hwff|by eapply Hop]. }
  split. { eapply frun_app; [exact Hxf|]. cbn [frun]. by rewrite Ef. } split; [apply Forall2_app; [done|]; by constructor|]. split; [exact R'|].
  split.
  2:{ intros l1 o n spur a l2 f1 e3 c E Hx1 Hc. destruct l2 as [|y l2 _] using rev_ind.
      - apply app_inj_tail in E as [<- ->]. assert (f1 = f) as -> by (unfold fexec in *; rewrite Hxf in Hx1; by injection Hx1 as <- _). by eapply Hna.
      - rewrite app_comm_cons, app_assoc in E. apply app_inj_tail in E as [-> ->]. by eapply Hrn. }
  intros l1 o op ps ds l2 f1 e3 E Hx1 o' r Hret. destruct l2 as [|y l2 _] using rev_ind.
  - apply app_inj_tail in E as [<- ->]. assert (f1 = f /\ e3 = e1) as [-> ->] by (unfold fexec in *; rewrite Hxf in Hx1; by injection Hx1 as <- <-).
    eapply Hop; [done|]. destruct (fexec_pinv _ _ _ _ Hw Hwff Hxf) as (M & H & N & pos & ll & b & P). pose proof (pi_f _ _ _ _ _ _ _ _ P) as I.
    destruct (b_evr _ _ _ _ _ _ _ (fi_b _ _ _ _ _ _ _ _ I) _ _ Hret) as (op1 & tv & pv & Ho). rewrite (pi_ops _ _ _ _ _ _ _ _ P) in Ho. unfold is_returned. by rewrite Ho.
  - rewrite app_comm_cons, app_assoc in E. apply app_inj_tail in E as [-> ->]. by eapply Hrt.
Qed.
End sim.
