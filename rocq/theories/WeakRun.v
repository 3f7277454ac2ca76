(** * Every reachable state of the machine with weakly ordered memory satisfies the invariant. *)
From Verif Require Import Model Mem Spec Weak WeakInv WeakStep WeakSys.

Section wrun.
Context {C : Config}.
Implicit Types (m : mem) (s : wstate) (l : loc) (v : sh) (tv W D : view) (pv : gmap loc view) (h : cell -> list msg).

(** ** What a read-modify-write does to the memory *)
Lemma sm_refl m : same_mem m m.
Proof. by split. Qed.
Lemma sm_retire m l k gs : same_mem (retire m l k gs) m.
Proof. by split. Qed.
Lemma rem_up_mem m del levels m' nx acts : rem_up m del levels = Some (m', nx, acts) -> m' = m.
Proof. unfold rem_up. destruct levels as [|[p c] r]; [by intros [= <- _ _]|]. destruct (is_null c); by intros [= <- _ _]. Qed.
Lemma prune_return_mem m k pr m' nx acts : prune_return m k pr = Some (m', nx, acts) -> m' = m.
Proof. unfold prune_return. destruct k; try (by intros [= <- _ _]). destruct pr; try apply rem_up_mem. by intros [= <- _ _]. Qed.
Lemma prune_decide_mem m k p c ac cnt la new m' nx acts : prune_decide m k p c ac cnt la new = Some (m', nx, acts) -> m' = m.
Proof. unfold prune_decide. destruct (_ || _); by intros [= <- _ _]. Qed.
Lemma t_finish_mem m t r acts0 m' nx acts : t_finish m t r acts0 = Some (m', nx, acts) -> m' = m.
Proof. unfold t_finish. destruct (t_mode t); [by intros [= <- _ _]|]. destruct r; by intros [= <- _ _]. Qed.

Definition isdata (b : body) : bool := match b with BData _ => true | BInner _ => false end.
Definition cas_val (p : pc) : sh := match p with PCas _ _ _ (inl v) _ => v | _ => sh_null end.

Lemma cas_mem w M p c ord spur a M' nx acts : access w p = Some (c, ACas, ord) -> cas_wins M p spur = true -> op_step ∅ M p spur a = Some (M', nx, acts) ->
  same_mem M' (match new_body p with Some b => write_cell (alloc M a b) c (Sh (Some (m_next M)) false (isdata b)) | None => write_cell M c (cas_val p) end).
Proof.
  intros Hacc Hw H. unfold cas_wins in Hw. destruct p; cbn [access] in Hacc; try done; cbn [cas_of] in Hw.
  - injection Hacc as -> <-. cbn [op_step] in H. destruct (read_cell M c) as [now|]; [|done]. destruct (addr_free M a); [|done]. cbn [negb] in H. rewrite Hw in H. cbn [new_body].
    set (m1 := write_cell _ _ _) in H. change (same_mem M' m1). destruct kind as [| |result].
    + destruct new as [|[|p0 it]]; try (injection H as <- _ _; apply sm_refl). apply t_finish_mem in H as ->. apply sm_refl.
    + injection H as <- _ _. apply sm_refl.
    + destruct (sh_loc node) as [old|]; [|injection H as <- _ _; apply sm_refl]. destruct (negb _); [injection H as <- _ _; apply sm_refl|].
      destruct new as [|it]; [injection H as <- _ _; apply sm_retire|]. destruct result as [r|]; [|destruct (t_mode t)].
      * destruct (t_mode t); apply t_finish_mem in H as ->; apply sm_retire.
      * apply t_finish_mem in H as ->; apply sm_retire.
      * destruct (it !! _); [apply t_finish_mem in H as ->; apply sm_retire|injection H as <- _ _; apply sm_retire].
  - injection Hacc as -> <-. cbn [op_step] in H. destruct (read_cell M c) as [now|]; [|done]. rewrite andb_true_r in Hw.
    destruct ins as [u|sl]; cbn [new_body cas_val].
    + rewrite Hw in H. destruct (sh_loc child); [|injection H as <- _ _; apply sm_refl]. apply prune_return_mem in H as ->. apply sm_retire.
    + destruct (addr_free M a); [|done]. rewrite Hw in H. destruct (sh_loc child); [|injection H as <- _ _; apply sm_refl]. apply prune_return_mem in H as ->. apply sm_retire.
  - injection Hacc as -> <-. cbn [op_step] in H. destruct (read_cell M c) as [now|]; [|done].
    destruct new as [|x new]; cbn [new_body cas_val].
    + rewrite Hw in H. destruct (negb _); [injection H as <- _ _; apply sm_refl|]. destruct (sh_loc node); [|injection H as <- _ _; apply sm_refl]. apply rem_up_mem in H as ->. apply sm_retire.
    + destruct (addr_free M a); [|done]. rewrite Hw in H. destruct (negb _); [injection H as <- _ _; apply sm_refl|]. destruct (sh_loc node); [|injection H as <- _ _; apply sm_refl].
      apply rem_up_mem in H as ->. apply sm_retire.
Qed.

Lemma fetch_mem w M p c ord v spur a M' nx acts : access w p = Some (c, AFetch, ord) -> read_cell M c = Some v -> op_step ∅ M p spur a = Some (M', nx, acts) ->
  M' = write_cell M c (recond v).
Proof.
  intros Hacc Hr H. destruct p; cbn [access] in Hacc; try done.
  - cbn [op_step] in H. destruct (sh_loc child) as [l|]; [|done]. simpl in Hacc. injection Hacc as <- <-. rewrite Hr in H.
    destruct (if is_null _ then _ else _) as [f|[[ac' cnt'] last']]; [by injection H as <- _ _|]. destruct (S i <? LEVEL_CELLS); [by injection H as <- _ _|]. by apply prune_decide_mem in H.
  - exfalso. destruct (sh_loc child); simpl in Hacc; congruence.
  - exfalso. destruct levels as [|[u idx] rest]; [done|]. destruct (_ || _); [done|]. destruct (sh_loc u); simpl in Hacc; congruence.
Qed.

(** ** A compare-and-set that succeeds *)
Lemma view_more m h tv pv W : view_ok m h tv pv -> closed h W -> within m W -> view_ok m h (tv ∪ W) pv.
Proof.
  intros Hv H1 H2. split; [apply closed_union; [apply Hv|done]|apply within_union; [apply Hv|done]|]. intros l D HD. destruct (vo_pv _ _ _ _ Hv _ _ HD) as (H3 & H4 & H5).
  split; [|split; [|done]].
  - apply (closed_eq _ ((tv ∪ D) ∪ W)); [set_solver|]. by apply closed_union.
  - set_solver.
Qed.

Lemma new_body_ok m tv pv p b : pc_ok m tv pv p -> new_body p = Some b -> body_ok m tv pv b.
Proof.
  intros Hp H. destruct p; try done; simpl in H.
  - injection H as ->. destruct Hp as (_ & _ & Hk). destruct kind.
    + by destruct Hk as [p ->].
    + destruct Hk as [(l & Hl & Hd & Hkn & Hda) (i & Hi & ->)]. simpl. split; [by rewrite insert_length|]. apply Forall_forall. intros x Hx.
      apply elem_of_list_lookup in Hx as [j Hj]. apply list_lookup_insert_Some in Hj as [(-> & <- & _)|[_ Hj]].
      * split; intros l' Hl'; rewrite Hl in Hl'; injection Hl' as <-; [by rewrite Hd|done].
      * apply lookup_replicate in Hj as [-> _]. by split.
    + by destruct Hk as (_ & (it & ->) & _).
  - destruct ins as [u|sl]; [done|]. injection H as <-. by destruct Hp as (_ & _ & Hins).
  - destruct new as [|x new]; [done|]. by injection H as <-.
Qed.
Lemma cas_val_held w m tv pv p c ord : pc_ok m tv pv p -> access w p = Some (c, ACas, ord) -> new_body p = None -> held m tv pv (cas_val p).
Proof.
  intros Hp Hacc H. assert (held m tv pv sh_null) as Hnull by (split; done). destruct p; try done. simpl. destruct ins; [|done]. by destruct Hp as (_ & _ & Hins).
Qed.

Lemma cas_inv w s o op p tv pv c ord n v W spur a m' nx acts : strong w -> winv s -> w_ops s !! o = Some (WOp (SRun op p) tv pv) ->
  access w p = Some (c, ACas, ord) -> w_hist s c !! n = Some (v, W) -> cas_wins (w_mem s) p spur = true ->
  see_step (tv_read ord tv W) pv (w_mem s) p spur a = Some (m', nx, acts) ->
  let tv1 := tv_read ord tv W in let pv1 := pv_alloc (w_mem s) m' pv in let u := default sh_null (read_cell m' c) in
  winv (WState m' (hist_write (hist_alloc (w_mem s) m' (w_hist s)) c (u, tv1 ∪ dep pv1 (sh_loc u))) (<[o := WOp (nx_stat op nx) tv1 pv1]> (w_ops s))).
Proof.
  intros Hw Hs Ho Hacc Hn Hwin Hsee tv1. fold tv1 in Hsee. destruct (wi_ops _ Hs _ _ Ho) as [Hv0 Hp0]. simpl in Hv0, Hp0.
  destruct (wi_msg _ Hs _ _ _ _ Hn) as [_ (HW1 & HW2 & _)]. simpl in HW1, HW2.
  assert (view_ok (w_mem s) (w_hist s) tv1 pv) as Hv. { unfold tv1, tv_read. destruct (acquires ord); [by apply view_more|done]. }
  assert (forall l, known tv pv l -> known tv1 pv l) as Hkn. { intros l [Hl|Hl]; [|by right]. left. unfold tv1, tv_read. destruct (acquires ord); [|done]. set_solver. }
  assert (pc_ok (w_mem s) tv1 pv p) as Hp by (eapply pc_grow; [by apply self_grows|done]).
  pose proof (access_cell _ _ _ _ _ _ _ _ Hp Hacc) as Hc. destruct (base_known _ _ _ _ _ Hv Hc) as [Hb1 _].
  destruct (cell_cval _ _ _ _ Hs Hc) as [v0 Hcv]. pose proof Hcv as Hrd. rewrite <- (read_is_cval _ _ Hs) in Hrd.
  destruct (new_body p) as [b|] eqn:Eb.
  - (* with allocation *)
    pose proof (new_body_ok _ _ _ _ _ Hp Eb) as Hbok. set (l0 := m_next (w_mem s)).
    set (h1 := fun c => match c with CSlot l i => if decide (l = m_next (w_mem s)) then match node_of b !! i with Some v => [(v, ∅)] | None => [] end else w_hist s c | CRoot => w_hist s CRoot end).
    destruct (alloc_inv s o op tv1 pv a b h1 Hs Hv ltac:(by eexists) Hbok ltac:(done)) as (Hs1 & Hmono & Hk0).
    set (pv2 := pv_new (w_mem s) pv b) in *. set (s1 := WState _ _ _) in Hs1. fold l0 in Hk0.
    assert (hbody (w_mem s) l0 = None) as Hfresh.
    { destruct (hbody (w_mem s) l0) eqn:E; [|done]. assert (l0 < l0)%positive; [|lia]. apply Hs. rewrite E. by eexists. }
    assert (grows (w_mem s) tv1 pv (alloc (w_mem s) a b) tv1 pv2) as HG.
    { split; [| |done].
      - intros l it Hl. rewrite hbody_alloc. rewrite decide_False; [done|]. intros ->. fold l0 in Hl. congruence.
      - intros l (sl & Hl & Hlen). unfold is_inner. rewrite hbody_alloc. rewrite decide_False; [by exists sl|]. intros ->. fold l0 in Hl. congruence. }
    set (m2 := write_cell (alloc (w_mem s) a b) c (Sh (Some l0) false (isdata b))).
    assert (grows (alloc (w_mem s) a b) tv1 pv2 m2 tv1 pv2) as HG2 by (eapply write_grows; apply sm_refl).
    assert (pc_ok m2 tv1 pv2 p) as Hp2 by (eapply pc_grow; [exact HG2|]; eapply pc_grow; [exact HG|done]).
    assert (forall l i, c = CSlot l i -> l <> l0) as Hcl. { intros l i -> ->. destruct Hc as (_ & (sl & Hsl & _) & _). congruence. }
    assert (hbody m2 l0 = Some b) as Hb0.
    { unfold m2. rewrite hbody_write. rewrite hbody_alloc. fold l0. rewrite decide_True by done. destruct c as [|l i]; [done|]. rewrite decide_False; [done|]. by eapply Hcl. }
    assert (op_step ∅ (w_mem s) p spur a = Some (m', nx, acts)) as Hreal.
    { eapply (see_ok (nx_ok m2 tv1 pv2)); [simpl; by intros H; apply H| |exact Hsee]. intros m3 nx3 acts3 H3.
      eapply next_cas; [exact Hp2|exact Hacc|rewrite read_hide by done; exact Hrd| |exact H3]. intros _ b' Hb'. simpl. fold l0. assert (b' = b) as -> by congruence. done. }
    assert (nx_ok m2 tv1 pv2 nx) as Hnx.
    { eapply next_cas; [exact Hp2|exact Hacc|exact Hrd| |exact Hreal]. intros _ b' Hb'. fold l0. assert (b' = b) as -> by congruence. done. }
    pose proof (cas_mem _ _ _ _ _ _ _ _ _ _ Hacc Hwin Hreal) as Hm. rewrite Eb in Hm. fold l0 m2 in Hm.
    assert (m_next m' = Pos.succ l0) as Hnext. { rewrite (sm_next _ _ Hm). unfold m2. by destruct c. }
    assert (ptrs m' l0 = node_of b) as Hptrs.
    { pose proof (sm_hbody _ _ l0 Hm) as Hx. rewrite Hb0 in Hx. unfold ptrs. unfold hbody in Hx. destruct (m_heap m' !! l0) as [[a0 b0]|]; [|done]. simpl in Hx. injection Hx as ->. by destruct b. }
    assert (pv_alloc (w_mem s) m' pv = pv2) as ->.
    { unfold pv_alloc. rewrite decide_False by (rewrite Hnext; fold l0; lia). fold l0. rewrite Hptrs. done. }
    assert (cval (alloc (w_mem s) a b) c = Some v0) as Hcv1.
    { destruct c as [|l i]; [done|]. cbn [cval]. rewrite hbody_alloc. rewrite decide_False; [done|]. by eapply Hcl. }
    assert (read_cell m' c = Some (Sh (Some l0) false (isdata b))) as Hru.
    { apply cval_read_cell; [rewrite (sm_cval _ _ c Hm); unfold m2; by eapply cval_write_eq|]. intros l i ->. apply no_freed. rewrite (sm_freed _ _ Hm). simpl. apply Hs. }
    rewrite Hru. cbn [default sh_loc].
    set (u := Sh (Some l0) false (isdata b)) in *.
    replace (<[o:=WOp (nx_stat op nx) tv1 pv2]> (w_ops s)) with (<[o:=WOp (nx_stat op nx) tv1 pv2]> (w_ops s1)) by (simpl; apply insert_insert).
    eapply (write_inv s1 o tv1 pv2 (nx_stat op nx) c u).
    + done.
    + destruct (wi_ops _ Hs1 o _ ltac:(simpl; apply lookup_insert)) as [Hx _]. exact Hx.
    + simpl. rewrite lookup_insert. by eexists.
    + simpl. by eapply cell_grow.
    + split; [|intros l [= <-]; done]. intros l [= <-]. simpl. unfold isdata, is_dat, is_inner. rewrite hbody_alloc. fold l0. rewrite decide_True by done.
      destruct b as [sl|it]; simpl; [|by eexists]. exists sl. split; [done|]. by destruct Hbok.
    + done.
    + intros c'. assert (forall c', hist_alloc (w_mem s) m' (w_hist s) c' = h1 c') as Hha.
      { intros [|l i]; [done|]. simpl. fold l0. destruct (decide (l = l0)) as [->|Hne].
        - rewrite decide_True by (split; [done|rewrite Hnext; lia]). by rewrite Hptrs.
        - rewrite decide_False; [done|]. by intros [? _]. }
      simpl. destruct (decide (c' = c)) as [->|Hne]; [by rewrite !hist_write_eq, Hha|by rewrite !hist_write_ne, Hha].
    + apply st_of_nx. assert (grows m2 tv1 pv2 m' tv1 pv2) as HG3.
      { split; [| |done]; intros l; unfold is_inner; by rewrite (sm_hbody _ _ l Hm). }
      destruct nx; simpl in *; [by eapply pc_grow|by eapply refs_grow|done].
  - (* without *)
    pose proof (cas_val_held _ _ _ _ _ _ _ Hp Hacc Eb) as Hval.
    assert (op_step ∅ (w_mem s) p spur a = Some (m', nx, acts)) as Hreal.
    { eapply (see_ok (nx_ok (w_mem s) tv1 pv)); [simpl; by intros H; apply H| |exact Hsee]. intros m3 nx3 acts3 H3.
      eapply next_cas; [exact Hp|exact Hacc|rewrite read_hide by done; exact Hrd| |exact H3]. intros _ b' Hb'. congruence. }
    assert (nx_ok (w_mem s) tv1 pv nx) as Hnx.
    { eapply next_cas; [exact Hp|exact Hacc|exact Hrd| |exact Hreal]. intros _ b' Hb'. congruence. }
    pose proof (cas_mem _ _ _ _ _ _ _ _ _ _ Hacc Hwin Hreal) as Hm. rewrite Eb in Hm.
    assert (m_next m' = m_next (w_mem s)) as Hnext. { rewrite (sm_next _ _ Hm). by destruct c. }
    assert (pv_alloc (w_mem s) m' pv = pv) as ->. { unfold pv_alloc. by rewrite decide_True. }
    assert (read_cell m' c = Some (cas_val p)) as Hru.
    { apply cval_read_cell; [rewrite (sm_cval _ _ c Hm); by eapply cval_write_eq|]. intros l i ->. apply no_freed. rewrite (sm_freed _ _ Hm). simpl. apply Hs. }
    rewrite Hru. cbn [default].
    assert (grows (w_mem s) tv1 pv m' tv1 pv) as HG by (by eapply write_grows).
    eapply (write_inv s o tv1 pv (nx_stat op nx) c (cas_val p)); [done|done|by eexists|done|done|done| |].
    + intros c'. assert (forall c', hist_alloc (w_mem s) m' (w_hist s) c' = w_hist s c') as Hha.
      { intros [|l i]; [done|]. simpl. rewrite decide_False; [done|]. by intros [_ ?]. }
      destruct (decide (c' = c)) as [->|Hne]; [by rewrite !hist_write_eq, Hha|by rewrite !hist_write_ne, Hha].
    + apply st_of_nx. destruct nx; simpl in *; [by eapply pc_grow|by eapply refs_grow|done].
Qed.

Lemma fetch_inv w s o op p tv pv c ord n v W spur a m' nx acts : strong w -> winv s -> w_ops s !! o = Some (WOp (SRun op p) tv pv) ->
  access w p = Some (c, AFetch, ord) -> w_hist s c !! n = Some (v, W) -> S n = length (w_hist s c) ->
  see_step (tv_read ord tv W) (pv_read ord pv c v W) (w_mem s) p spur a = Some (m', nx, acts) ->
  let tv1 := tv_read ord tv W in let pv1 := pv_alloc (w_mem s) m' (pv_read ord pv c v W) in let u := default sh_null (read_cell m' c) in
  winv (WState m' (hist_write (hist_alloc (w_mem s) m' (w_hist s)) c (u, tv1 ∪ dep pv1 (sh_loc u))) (<[o := WOp (nx_stat op nx) tv1 pv1]> (w_ops s))).
Proof.
  intros Hw Hs Ho Hacc Hn Hlast Hsee tv1.
  destruct (load_step w s o op p tv pv c AFetch ord n v W spur a m' nx acts Hw Hs Ho Hacc (or_intror eq_refl) Hn) as (Hv & Hp & Hheld & Hstep).
  fold tv1 in Hv, Hp, Hheld, Hstep, Hsee. set (pv0 := pv_read ord pv c v W) in *.
  pose proof (access_cell _ _ _ _ _ _ _ _ Hp Hacc) as Hc. destruct (cell_cval _ _ _ _ Hs Hc) as [v0 Hcv].
  assert (v0 = v) as ->.
  { destruct (wi_last _ Hs _ _ Hcv) as [W0 HW0]. rewrite last_lookup in HW0. replace (pred (length (w_hist s c))) with n in HW0 by lia. pose proof (eq_trans (eq_sym HW0) Hn) as Hx. by injection Hx. }
  pose proof Hcv as Hrd. rewrite <- (read_is_cval _ _ Hs) in Hrd.
  destruct (Hstep _ (agree_self s _ _ Hs) Hrd Hsee) as [Hreal Hnx].
  pose proof (fetch_mem _ _ _ _ _ _ _ _ _ _ _ Hacc Hrd Hreal) as Hm.
  assert (same_mem m' (write_cell (w_mem s) c (recond v))) as Hsm by (rewrite Hm; apply sm_refl).
  assert (m_next m' = m_next (w_mem s)) as Hnext. { rewrite Hm. by destruct c. }
  assert (pv_alloc (w_mem s) m' pv0 = pv0) as ->. { unfold pv_alloc. by rewrite decide_True. }
  assert (read_cell m' c = Some (recond v)) as Hru.
  { apply cval_read_cell; [rewrite (sm_cval _ _ c Hsm); by eapply cval_write_eq|]. intros l i ->. apply no_freed. rewrite (sm_freed _ _ Hsm). simpl. apply Hs. }
  rewrite Hru. cbn [default].
  assert (grows (w_mem s) tv1 pv0 m' tv1 pv0) as HG by (by eapply write_grows).
  eapply (write_inv s o tv1 pv0 (nx_stat op nx) c (recond v)); [done|done|by eexists|done|done|done| |].
  + intros c'. assert (forall c', hist_alloc (w_mem s) m' (w_hist s) c' = w_hist s c') as Hha.
    { intros [|l i]; [done|]. simpl. rewrite decide_False; [done|]. by intros [_ ?]. }
    destruct (decide (c' = c)) as [->|Hne]; [by rewrite !hist_write_eq, Hha|by rewrite !hist_write_ne, Hha].
  + apply st_of_nx. destruct nx; simpl in *; [by eapply pc_grow|by eapply refs_grow|done].
Qed.

(** ** All steps *)
Lemma op_init_ok m tv pv op : pc_ok m tv pv (op_init op).
Proof. destruct op; simpl; try done. Qed.

Lemma wstep_inv w s lb s' ev : strong w -> winv s -> wstep w s lb = Some (s', ev) -> winv s'.
Proof.
  intros Hw Hs H. destruct lb as [o op|o n spur a]; cbn [wstep] in H.
  - destruct (w_ops s !! o) eqn:Ho; [done|]. injection H as <- _. split; simpl; [apply Hs..|]. intros o' y Hy. destruct (decide (o' = o)) as [->|Hne].
    + rewrite lookup_insert in Hy. injection Hy as <-. simpl. split; [|apply op_init_ok]. split; [apply closed_empty|intros l Hl; by apply elem_of_empty in Hl|]. intros l D HD. by rewrite lookup_empty in HD.
    + rewrite lookup_insert_ne in Hy by done. by apply (wi_ops _ Hs o').
  - destruct (w_ops s !! o) as [[st tv pv]|] eqn:Ho; [|done]. destruct st as [op p| | |]; try done. destruct (wi_ops _ Hs _ _ Ho) as [Hv Hp]. simpl in Hv, Hp.
    destruct (access w p) as [[[c k] ord]|] eqn:Hacc.
    + pose proof (access_cell _ _ _ _ _ _ _ _ Hp Hacc) as Hc. destruct (base_known _ _ _ _ _ Hv Hc) as [Hb _]. rewrite Hb in H. cbn [negb] in H.
      destruct (cell_cval _ _ _ _ Hs Hc) as [v0 Hcv]. destruct (hist_cons _ _ _ Hs Hcv) as (y & r & Hr). rewrite Hr in H. rewrite <- Hr in H.
      destruct (w_hist s c !! n) as [[v W]|] eqn:Hn; [|done].
      assert (forall M tv' pv', M = write_cell (w_mem s) c v -> read_cell M c = Some v) as Hrd.
      { intros M _ _ ->. apply cval_read_cell; [by eapply cval_write_eq|]. intros l i ->. apply no_freed. simpl. apply Hs. }
      destruct k.
      * unfold w_local in H. destruct (see_step _ _ _ _ _ _) as [[[m' nx] acts]|] eqn:Esee; [|done]. injection H as <- _.
        destruct (load_step w s o op p tv pv c ALoad ord n v W spur a m' nx acts Hw Hs Ho Hacc (or_introl eq_refl) Hn) as (Hv1 & _ & _ & Hstep).
        destruct (Hstep _ (agree_write s c v _ _ Hs) (Hrd _ tv pv eq_refl) Esee) as [_ Hnx]. eapply local_inv; [done|done|done|]. by apply st_of_nx.
      * unfold w_local in H. destruct (see_step _ _ _ _ _ _) as [[[m' nx] acts]|] eqn:Esee; [|done]. injection H as <- _.
        eapply local_inv; [done|done|done|]. apply st_of_nx. eapply test_step; [done|exact Ho|exact Hacc|by left|exact Hn|exact Esee].
      * destruct (bool_decide (S n = length (w_hist s c))) eqn:En; [|done]. apply bool_decide_eq_true in En.
        unfold w_write in H. destruct (see_step _ _ _ _ _ _) as [[[m' nx] acts]|] eqn:Esee; [|done]. injection H as <- _. destruct (strong_fetch _ _ _ _ Hw Hacc) as [_ Hrel]. rewrite Hrel.
        by eapply fetch_inv.
      * destruct (_ && _) eqn:En.
        -- apply andb_true_iff in En as [_ Hwin]. unfold w_write in H. destruct (see_step _ _ _ _ _ _) as [[[m' nx] acts]|] eqn:Esee; [|done]. injection H as <- _.
           rewrite (strong_cas _ _ _ _ Hw Hacc). by eapply cas_inv.
        -- destruct (cas_wins (write_cell (w_mem s) c v) p spur) eqn:Hlose; [done|]. unfold w_local in H. destruct (see_step _ _ _ _ _ _) as [[[m' nx] acts]|] eqn:Esee; [|done]. injection H as <- _.
           eapply local_inv; [done|done|done|]. apply st_of_nx. eapply test_step; [done|exact Ho|exact Hacc|by right|exact Hn|exact Esee].
    + unfold w_local in H. destruct (see_step _ _ _ _ _ _) as [[[m' nx] acts]|] eqn:Esee; [|done]. injection H as <- _. eapply local_inv; [done|done|done|]. apply st_of_nx. by eapply none_step.
Qed.

Lemma wrun_inv w s ls s' ev : strong w -> winv s -> wrun w s ls = Some (s', ev) -> winv s'.
Proof.
  intros Hw. revert s ev. induction ls as [|lb ls IH]; intros s ev Hs H; simpl in H; [by injection H as <- _|].
  destruct (wstep w s lb) as [[s1 ev1]|] eqn:E; [|done]. destruct (wrun w s1 ls) as [[s2 ev2]|] eqn:E2; [|done]. injection H as <- _.
  eapply IH; [|exact E2]. by eapply wstep_inv.
Qed.
Theorem wreach_inv w s : strong w -> wreachable w s -> winv s.
Proof. intros Hw (ls & ev & H). eapply wrun_inv; [done|apply winit_inv|exact H]. Qed.
End wrun.
