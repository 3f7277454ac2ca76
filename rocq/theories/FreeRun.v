(** * Reclamation on weakly ordered memory, 5: the invariant holds throughout. *)
From Verif Require Import Model Mem Spec Weak WeakInv WeakStep WeakSys WeakRun LinSpec Inv Safe SafeStep SafeOps SafeSys Look Sem SemOps Lin LinProps Iter IterSpec IterSys WeakCoh WeakFun WeakWrite WeakWalk WeakTime WeakIter WeakBase
  WeakFree FreeSim FreeStep FreeWalk FreeInv.

Section frun.
Context {C : Config} {HC : ConfigOk C} (w : orders).
Implicit Types (m : mem) (pos : loc -> list nat) (c : cell) (v : sh) (o : opid) (op : oper) (l : loc) (b : cstate) (s : fstate) (ls : list clabel) (ev : list event)
  (M : nat -> mem) (H : nat -> cell -> list sh).

Lemma pok_mono H N H' N' m m' regs nr ds fl fl' y : (forall c, H N c `prefix_of` H' N' c) -> (forall l, is_Some (m_heap m !! l) -> is_Some (m_heap m' !! l)) ->
  (forall i, i ∈ ds -> i < length regs) -> (forall x, fl x <= fl' x) -> pok H N m regs ds fl y -> pok H' N' m' (regs ++ nr) ds fl' y.
Proof.
  intros Hp Hh Hi Hf (H1 & H2 & H3). split; [by apply Hh|]. assert (forall i, i ∈ ds -> (regs ++ nr) !! i = regs !! i) as E. { intros i Hin. by rewrite lookup_app_l by (by apply Hi). }
  split; [intros i g Hin; rewrite E by done; by apply H2|]. intros Hd j Hj. destruct (H3 Hd j Hj) as (q & ws & Hw & Hb). exists q, ws. split; [by eapply walkq_pre|].
  intros x a Hx. destruct (Hb x a Hx) as [Hb1 Hb2]. split; [|by etrans; [|apply Hf]]. intros i g Hin. rewrite E by done. by apply Hb1.
Qed.

Lemma finv0 : exists pos, finv (fun _ => mem0) (fun _ => vals (w_hist winit)) 0 pos [] cinit [] finit.
Proof.
  destruct binv0 as [pos B]. exists pos. split; try done.
  - intros _ l Hl. by apply elem_of_nil in Hl.
  - apply NoDup_nil_2.
  - intros i Hi. by apply elem_of_nil in Hi.
Qed.

Lemma cinv_bm (s b : cstate) o op ps (s' : cstate) ev : csim s b -> cstep w s (CInv o op ps) = Some (s', ev) -> exists b', cstep w b (CInv o op ps) = Some (b', ev) /\ csim s' b'.
Proof.
  intros [[Sm Sh So] Sf] Hst. cbn [cstep wstep] in *. assert (forall x, is_returned (c_w b) x = is_returned (c_w s) x) as E by (intros x; unfold is_returned; by rewrite So).
  assert (forallb (is_returned (c_w b)) ps = forallb (is_returned (c_w s)) ps) as -> by (clear Hst; induction ps as [|x ps IH]; [done|]; simpl; by rewrite E, IH).
  destruct (forallb (is_returned (c_w s)) ps); [|done]. rewrite So. destruct (w_ops (c_w s) !! o); [done|]. injection Hst as <- <-. eexists. split; [done|]. constructor; [constructor|]; cbn [c_w w_mem w_hist w_ops c_fl]; [done|done|done|].
  intros o' c. destruct (decide (o' = o)); [|done]. f_equal. apply list_fmap_ext. intros i x _. apply Sf.
Qed.

Lemma init_ptr op : pptr (op_init op) = [].
Proof. by destruct op. Qed.

Lemma finv_inv M H N pos ls b ev s o op ps ds s' ev1 : op_wf op -> strong w -> finv M H N pos ls b ev s -> fstep w s (FInv o op ps ds) = Some (s', ev1) ->
  exists b', cstep w b (CInv o op ps) = Some (b', ev1) /\ finv M H N pos (ls ++ [CInv o op ps]) b' (ev ++ ev1) s'.
Proof.
  intros Hwf Hw I Hst. cbn [fstep] in Hst. destruct (_ && _ && _) eqn:Ec; [|done]. apply andb_true_iff in Ec as [[Hdr Hds]%andb_true_iff Hdn]. apply negb_true_iff in Hdr.
  rewrite forallb_forall in Hds, Hdn. destruct (cstep w (f_c s) (CInv o op ps)) as [[c' ev2]|] eqn:Ecs; [|done]. injection Hst as <- <-.
  destruct (cinv_bm _ _ _ _ _ _ _ (fi_sim _ _ _ _ _ _ _ _ I) Ecs) as (b' & Hb & Hsim). exists b'. split; [done|].
  destruct (binv_inv w M H N pos ls b ev o op ps b' ev2 Hwf Hw (fi_b _ _ _ _ _ _ _ _ I) Hb) as (_ & _ & _ & _ & B' & _).
  cbn [cstep wstep] in Ecs. destruct (forallb _ ps); [|done]. destruct (w_ops (c_w (f_c s)) !! o) eqn:Eo; [done|]. injection Ecs as <- <-.
  split; cbn [f_c f_regs f_done f_dropped f_gone f_ub f_sync]; try apply I; try done.
  intros o' x Hx Hg. cbn [c_w w_ops] in Hx. destruct (decide (o' = o)) as [->|Hne].
  - rewrite lookup_insert in Hx. injection Hx as <-. split; [done|]. split; [intros i Hi; apply elem_of_list_In in Hi; specialize (Hdn i Hi); by apply bool_decide_eq_true in Hdn|].
    split; [intros i Hi; apply elem_of_list_In in Hi; specialize (Hds i Hi); by apply bool_decide_eq_true in Hds|]. cbn [w_st stptr]. rewrite init_ptr. by intros y ?%elem_of_nil.
  - rewrite lookup_insert_ne in Hx by done. destruct (fi_alive _ _ _ _ _ _ _ _ I _ _ Hx Hg) as (H1 & H2 & H3 & H4). split; [done|]. split; [done|]. split; [done|]. intros y Hy.
    specialize (H4 y Hy). cbn [c_fl]. destruct (H4) as (K1 & K2 & K3). split; [done|]. split; [done|]. intros Hd j Hj. destruct (K3 Hd j Hj) as (q & ws & Hws & Hbd). exists q, ws. split; [done|].
    intros z a Hz. rewrite decide_False by done. by apply Hbd.
Qed.

Lemma finv_gone M H N pos ls b ev s o : finv M H N pos ls b ev s -> finv M H N pos ls b ev (FState (f_c s) (f_regs s) (f_sync s) (f_done s) ({[o]} ∪ f_gone s) (f_dropped s) (f_ub s)).
Proof. intros I. split; try apply I. intros o' x Hx Hg. cbn [f_gone f_sync f_regs f_c f_dropped f_done] in *. apply (fi_alive _ _ _ _ _ _ _ _ I o' x Hx). intros Hin. apply Hg. by apply elem_of_union_r. Qed.

Lemma all_alive_spec s P : all_alive s P = true -> forall o x, w_ops (c_w (f_c s)) !! o = Some x -> o ∉ f_gone s -> P o = true.
Proof.
  unfold all_alive. rewrite forallb_forall. intros Ha o x Hx Hg. specialize (Ha (o, x) ltac:(by apply elem_of_list_In, elem_of_map_to_list)). simpl in Ha.
  apply orb_true_iff in Ha as [Ha|Ha]; [by apply bool_decide_eq_true in Ha|done].
Qed.
Lemma elem_of_freed m l : freed m l = true <-> l ∈ (m_freed m).*1.
Proof. unfold freed. apply bool_decide_eq_true. Qed.

Lemma finv_free M H N pos ls b ev s i s' ev1 : finv M H N pos ls b ev s -> fstep w s (FFree i) = Some (s', ev1) -> ev1 = [] /\ finv M H N pos ls b ev s'.
Proof.
  intros I Hst. cbn [fstep] in Hst. destruct (f_regs s !! i) as [g|] eqn:Eg; [|done]. destruct (_ && _) eqn:Ec; [|done]. apply andb_true_iff in Ec as [Hi Hall]. apply bool_decide_eq_true in Hi.
  injection Hst as <- <-. split; [done|]. pose proof (fi_free _ _ _ _ _ _ _ _ I _ _ Eg Hi) as Hfr.
  set (m' := Mem _ _ _ _ _ _). assert (forall l, freed m' l = freed (f_mem s) l || bool_decide (l = g_loc g)) as Hm'.
  { intros l. apply eq_true_iff_eq. rewrite orb_true_iff, !elem_of_freed, bool_decide_eq_true. unfold m'. simpl. rewrite elem_of_cons. tauto. }
  assert (forall j g', f_regs s !! j = Some g' -> j <> i -> g_loc g' <> g_loc g) as Hinj.
  { intros j g' Hj Hne E. apply Hne. assert (NoDup (g_loc <$> f_regs s)) as Hnd.
    { rewrite (fi_garb _ _ _ _ _ _ _ _ I). pose proof (mi_nodup _ _ (fi_minv _ _ _ _ _ _ _ _ I)) as Hn. rewrite (b_mem _ _ _ _ _ _ _ (fi_b _ _ _ _ _ _ _ _ I)), (ws_mem _ _ (cs_w _ _ (fi_sim _ _ _ _ _ _ _ _ I))) in Hn. by apply NoDup_app in Hn as [? _]. }
    eapply (NoDup_lookup _ j i (g_loc g) Hnd); rewrite list_lookup_fmap; [rewrite Hj|rewrite Eg]; simpl; congruence. }
  split; cbn [f_c f_regs f_done f_dropped f_gone f_ub f_sync].
  - apply I.
  - destruct (fi_sim _ _ _ _ _ _ _ _ I) as [[S1 S2 S3] S4]. by constructor; [constructor|].
  - intros l x Hx Hf. unfold f_mem in *. cbn [f_c set_mem c_w w_mem] in *. rewrite Hm' in Hf. apply orb_false_iff in Hf as [Hf _]. destruct (fi_aok _ _ _ _ _ _ _ _ I l x Hx Hf) as [A1 A2]. split; [done|].
    intros l' x' Hx' Hf'. rewrite Hm' in Hf'. apply orb_false_iff in Hf' as [Hf' _]. by apply A2.
  - apply I.
  - apply I.
  - intros j g' Hj Hn. unfold f_mem. cbn [f_c set_mem c_w w_mem]. rewrite Hm'. apply orb_false_iff. rewrite not_elem_of_cons in Hn. destruct Hn as [Hn1 Hn2]. split; [by eapply (fi_free _ _ _ _ _ _ _ _ I)|].
    apply bool_decide_eq_false. by apply (Hinj j).
  - intros Hdr l Hl. unfold f_mem in Hl. cbn [f_c set_mem c_w w_mem] in Hl. unfold m' in Hl. simpl in Hl. apply elem_of_cons in Hl as [->|Hl]; [exists i, g; split; [by left|done]|].
    destruct (fi_done _ _ _ _ _ _ _ _ I Hdr l Hl) as (j & g' & ? & ? & ?). exists j, g'. split; [by right|done].
  - intros j g' Hj Hg'. unfold f_mem. cbn [f_c set_mem c_w w_mem]. rewrite Hm'. apply orb_true_iff. apply elem_of_cons in Hj as [->|Hj]; [right; apply bool_decide_eq_true; congruence|left; by eapply (fi_run _ _ _ _ _ _ _ _ I)].
  - intros Hdr l Hl. unfold f_mem. cbn [f_c set_mem c_w w_mem]. rewrite Hm'. destruct (fi_left _ _ _ _ _ _ _ _ I Hdr l Hl) as [->|?]; [by left|by right].
  - intros l. unfold f_mem. cbn [f_c set_mem c_w w_mem]. rewrite Hm'. intros [Hl|Hl]%orb_true_iff; [by apply (fi_heapd _ _ _ _ _ _ _ _ I)|]. apply bool_decide_eq_true in Hl as ->.
    assert (is_Some (m_heap (f_mem s) !! g_loc g)); [|done]. eapply fi_heap; [exact I|]. apply (mi_heap _ _ (fi_minv _ _ _ _ _ _ _ _ I)). left.
    rewrite (b_mem _ _ _ _ _ _ _ (fi_b _ _ _ _ _ _ _ _ I)), (ws_mem _ _ (cs_w _ _ (fi_sim _ _ _ _ _ _ _ _ I))). change (garb_locs (bm (f_mem s))) with (garb_locs (f_mem s)).
    rewrite <-(fi_garb _ _ _ _ _ _ _ _ I). apply elem_of_list_fmap. exists g. split; [done|]. by eapply elem_of_list_lookup_2.
  - unfold f_mem. cbn [f_c set_mem c_w w_mem]. unfold m'. simpl. apply NoDup_cons. split; [|apply (fi_nodup _ _ _ _ _ _ _ _ I)]. intros Hin. apply elem_of_freed in Hin. congruence.
  - intros j Hj. apply elem_of_cons in Hj as [->|Hj]; [by eapply lookup_lt_Some|by apply (fi_ds _ _ _ _ _ _ _ _ I)].
  - intros o x Hx Hg. cbn [set_mem c_w w_ops] in Hx. destruct (fi_alive _ _ _ _ _ _ _ _ I _ _ Hx Hg) as (H1 & H2 & H3 & H4). split; [done|]. split; [|done].
    intros j Hj. apply elem_of_cons in Hj as [->|Hj]; [|by apply H2]. pose proof (all_alive_spec _ _ Hall o x Hx Hg) as Hb. by apply bool_decide_eq_true in Hb.
  - rewrite (fi_ub _ _ _ _ _ _ _ _ I), Hfr. done.
Qed.

Lemma drop_rec_bm m fuel : forall v fs, drop_rec fuel (bm m) v = Some fs -> (forall l, l ∈ fs.*1 -> freed m l = false) -> drop_rec fuel m v = Some fs.
Proof.
  induction fuel as [|fuel IH]; intros v fs Hd Hf; [done|]. rewrite drop_rec_S in *. destruct (sh_loc v) as [l|]; [|done].
  assert (freed (bm m) l = false) as Hb by (apply bool_decide_eq_false; apply not_elem_of_nil).
  destruct (sh_data v).
  - destruct (deref (bm m) l) as [[|it]|] eqn:E; try done. injection Hd as <-. rewrite <-(bm_deref m l), E; [done|]. apply Hf. by left.
  - destruct (deref (bm m) l) as [[sl|]|] eqn:E; try done. destruct (go_drop fuel (bm m) sl) as [gs|] eqn:Eg; [|done]. injection Hd as <-.
    rewrite <-(bm_deref m l), E; [|apply Hf; rewrite fmap_app, elem_of_app; right; by left].
    assert (go_drop fuel m sl = Some gs) as ->; [|done]. assert (forall l, l ∈ gs.*1 -> freed m l = false) as Hg. { intros l' Hl'. apply Hf. rewrite fmap_app, elem_of_app. by left. }
    clear E Hf Hb. revert gs Eg Hg. induction sl as [|u sl IHs]; intros gs Eg Hg; [done|]. simpl in *. destruct (drop_rec fuel (bm m) u) as [x|] eqn:E1; [|done]. destruct (go_drop fuel (bm m) sl) as [y|] eqn:E2; [|done].
    injection Eg as <-. rewrite fmap_app in Hg. rewrite (IH u x E1), (IHs y eq_refl); [done| |]; intros l' Hl'; apply Hg; rewrite elem_of_app; auto.
Qed.

Lemma finv_drop M H N pos ls b ev s s' ev1 : finv M H N pos ls b ev s -> fstep w s FDrop = Some (s', ev1) -> ev1 = [] /\ finv M H N pos ls b ev s'.
Proof.
  intros I Hst. cbn [fstep] in Hst. destruct (_ && _) eqn:Ec; [|done]. apply andb_true_iff in Ec as [Hdr Hall]. apply negb_true_iff in Hdr.
  pose proof (fi_minv _ _ _ _ _ _ _ _ I) as Hm. assert (M N = bm (f_mem s)) as EM by (by rewrite (b_mem _ _ _ _ _ _ _ (fi_b _ _ _ _ _ _ _ _ I)), (ws_mem _ _ (cs_w _ _ (fi_sim _ _ _ _ _ _ _ _ I)))). rewrite EM in Hm.
  destruct (drop_root_ok _ _ Hm) as (fs & Hd & Hnd & Hin & _).
  assert (forall l, dead (bm (f_mem s)) l <-> l ∈ g_loc <$> f_regs s) as Hdead.
  { intros l. rewrite (fi_garb _ _ _ _ _ _ _ _ I). unfold dead. simpl. rewrite elem_of_nil. unfold garb_locs. simpl. tauto. }
  assert (forall l, l ∈ fs.*1 -> freed (f_mem s) l = false) as Hf.
  { intros l [_ Hl]%Hin. destruct (freed (f_mem s) l) eqn:E; [|done]. exfalso. apply Hl, Hdead. apply elem_of_freed in E. destruct (fi_done _ _ _ _ _ _ _ _ I Hdr l E) as (i & g & _ & Hg & <-).
    apply elem_of_list_fmap. exists g. split; [done|]. by eapply elem_of_list_lookup_2. }
  change (m_root (bm (f_mem s))) with (m_root (f_mem s)) in Hd. rewrite (drop_rec_bm _ _ _ _ Hd Hf) in Hst. injection Hst as <- <-. split; [done|].
  assert (forall l, freed (free_list (f_mem s) fs) l = true <-> l ∈ fs.*1 \/ freed (f_mem s) l = true) as Hm'.
  { intros l. rewrite !elem_of_freed. simpl. rewrite fmap_app, elem_of_app, fmap_reverse, elem_of_reverse. done. }
  assert (NoDup (fs.*1 ++ (m_freed (f_mem s)).*1)) as Hn2.
  { apply NoDup_app. split; [done|]. split; [|apply (fi_nodup _ _ _ _ _ _ _ _ I)]. intros l Hl Hl2. apply Hf in Hl. apply elem_of_freed in Hl2. congruence. }
  split; cbn [f_c f_regs f_done f_dropped f_gone f_ub f_sync].
  - apply I.
  - destruct (fi_sim _ _ _ _ _ _ _ _ I) as [[S1 S2 S3] S4]. by constructor; [constructor|].
  - intros l x Hx Hfr. unfold f_mem in Hx, Hfr. cbn [f_c set_mem c_w w_mem] in Hx, Hfr. assert (forall l, freed (free_list (f_mem s) fs) l = false -> freed (f_mem s) l = false) as Hless.
    { intros l' Hl'. destruct (freed (f_mem s) l') eqn:E; [|done]. rewrite (proj2 (Hm' l')) in Hl' by auto. done. }
    destruct (fi_aok _ _ _ _ _ _ _ _ I l x Hx (Hless _ Hfr)) as [A1 A2]. split; [done|]. intros l' x' Hx' Hf'. apply A2; [done|]. by apply Hless.
  - apply I.
  - apply I.
  - intros j g' Hj Hn. unfold f_mem. cbn [f_c set_mem c_w w_mem]. destruct (freed _ _) eqn:E; [|done]. exfalso. apply Hm' in E as [E|E].
    + apply Hin in E as [_ E]. apply E, Hdead. apply elem_of_list_fmap. exists g'. split; [done|]. by eapply elem_of_list_lookup_2.
    + by rewrite (fi_free _ _ _ _ _ _ _ _ I _ _ Hj Hn) in E.
  - done.
  - intros j g' Hj Hg'. unfold f_mem. cbn [f_c set_mem c_w w_mem]. apply Hm'. right. by eapply (fi_run _ _ _ _ _ _ _ _ I).
  - intros _ l Hl. unfold f_mem in *. cbn [f_c set_mem c_w w_mem] in *. destruct (decide (l ∈ g_loc <$> f_regs s)) as [Hr|Hr]; [by right|left]. apply Hm'. left. apply Hin. split; [|by rewrite Hdead].
    rewrite bm_heap, fmap_is_Some. exact Hl.
  - intros l. unfold f_mem. cbn [f_c set_mem c_w w_mem]. intros [Hl|Hl]%Hm'; [|by apply (fi_heapd _ _ _ _ _ _ _ _ I)]. apply Hin in Hl as [Hl _]. rewrite bm_heap, fmap_is_Some in Hl. exact Hl.
  - unfold f_mem. cbn [f_c set_mem c_w w_mem]. simpl. rewrite fmap_app, fmap_reverse. by rewrite reverse_Permutation.
  - apply I.
  - intros o x Hx Hg. cbn [set_mem c_w w_ops] in Hx. by pose proof (all_alive_spec _ _ Hall o x Hx Hg) as Hb.
  - rewrite (fi_ub _ _ _ _ _ _ _ _ I). rewrite bool_decide_eq_true_2 by done. done.
Qed.

(** ** A step *)
Lemma cstep_bm (s b : cstate) o n spur a (s' : cstate) ev op p tv pv : csim s b -> w_ops (c_w s) !! o = Some (WOp (SRun op p) tv pv) -> touch_ok w (c_w s) n p -> cstep w s (CStep o n spur a) = Some (s', ev) ->
  exists b', cstep w b (CStep o n spur (N.pos (m_next (w_mem (c_w s))))) = Some (b', ev) /\ csim s' b' /\ aok (w_mem (c_w s')) /\ m_freed (w_mem (c_w s')) = m_freed (w_mem (c_w s)).
Proof.
  intros [Sw Sf] Ho Ht Hst. cbn [cstep] in *. destruct (wstep w (c_w s) (WStep o n spur a)) as [[s1 ev1]|] eqn:Ew; [|done].
  destruct (wstep_bm w _ _ _ _ _ _ _ _ _ _ _ _ Sw Ho Ht Ew) as (b1 & -> & Sw' & Ha & Hf). unfold next_cell in *. rewrite (ws_ops _ _ Sw). rewrite Ho in *.
  destruct (access w p) as [[[c kd] ord]|]; simpl in *.
  - rewrite Sf, !(ws_hist _ _ Sw), !(ws_hist _ _ Sw'). destruct (n <? c_fl s o c); [done|]. injection Hst as <- <-. eexists. split; [done|]. split; [|done]. constructor; [done|]. intros o' c'. cbn [c_fl]. by rewrite Sf.
  - injection Hst as <- <-. eexists. split; [done|]. split; [|done]. by constructor.
Qed.

Lemma cas_wins_acc m p spur : cas_wins m p spur = true -> exists c ord, access w p = Some (c, ACas, ord).
Proof. unfold cas_wins. destruct p; simpl; try done; eauto. Qed.

(** A registration that is made now. *)
Lemma reg_new M H N pos ls b ev M' H' N' pos' ls' b' ev' o op p tv pv c ord n v W W' spur a nx acts fl fl' :
  binv M H N pos ls b ev -> binv M' H' N' pos' ls' b' ev' -> (forall c, H N c `prefix_of` H' N' c) -> w_ops (c_w b) !! o = Some (WOp (SRun op p) tv pv) ->
  access w p = Some (c, ACas, ord) -> cas_wins (w_mem (c_w b)) p spur = true -> w_hist (c_w b) c !! n = Some (v, W) -> S n = length (w_hist (c_w b) c) ->
  op_step ∅ (w_mem (c_w b)) p spur a = Some (w_mem (c_w b'), nx, acts) -> (forall f, nx <> NFail f) ->
  w_hist (c_w b') = hist_write (hist_alloc (w_mem (c_w b)) (w_mem (c_w b')) (w_hist (c_w b))) c (default sh_null (read_cell (w_mem (c_w b')) c), W') ->
  (exists q ws, walkq H N q (ws ++ [(c, 0)]) /\ forall x a, (x, a) ∈ ws -> a <= fl x) -> (forall x, fl x <= fl' x) -> S n <= fl' c ->
  m_garb (w_mem (c_w b')) = m_garb (w_mem (c_w b)) \/ exists l k, m_garb (w_mem (c_w b')) = (l, k, ∅) :: m_garb (w_mem (c_w b)) /\ reg_ok M' H' N' (Reg l k fl').
Proof.
  intros B B' Hpre Ho Hacc Hwin Hn Hlen Hstep Hnf Hhist (q & ws & Hwk & Hbd) Hfl Hflc.
  destruct (cas_garb w _ _ _ _ _ _ _ _ _ Hacc Hwin Hstep Hnf) as [E|(e & l & k & Ec & El & Eg & Hkind)]; [by left|right]. exists l, k. split; [done|].
  pose proof (b_tl _ _ _ _ _ _ _ B) as T. pose proof (b_tl _ _ _ _ _ _ _ B') as T'. pose proof (b_mem _ _ _ _ _ _ _ B) as HMN. pose proof (b_mem _ _ _ _ _ _ _ B') as HMN'.
  pose proof (tl_minv _ _ _ _ T N ltac:(lia)) as Hm. rewrite HMN in Hm. pose proof (tl_minv _ _ _ _ T' N' ltac:(lia)) as Hm'. rewrite HMN' in Hm'.
  pose proof (b_ops _ _ _ _ _ _ _ B _ _ Ho) as (_ & Hpc & _). cbn [w_st] in Hpc.
  assert (H N c !! n = Some v) as HHn. { rewrite (b_hist _ _ _ _ _ _ _ B). by eapply vals_lookup. }
  assert (forall x, last (H N x) = cval (w_mem (c_w b)) x) as Hlast. { intros x. rewrite (tl_last _ _ _ _ T) by lia. by rewrite HMN. }
  assert (cval (w_mem (c_w b)) c = Some v) as Hcv.
  { rewrite <-Hlast, last_lookup. assert (length (H N c) = S n) as ->; [|exact HHn]. rewrite (b_hist _ _ _ _ _ _ _ B). unfold vals. etrans; [apply fmap_length|]. by symmetry. }
  destruct (write_grown w (c_w b) o n spur a (c_w b') op p nx c ACas ord v W W' acts pos pos' (H N) (b_winv _ _ _ _ _ _ _ B) (b_winv _ _ _ _ _ _ _ B') Hm Hm' Hpc (b_hist _ _ _ _ _ _ _ B) Hlast Hacc) as [_ Hgl]; [by right|exact Hn|exact Hlen|by eexists|exact Hstep|exact Hhist|].
  assert (length (H' N' c) = S (S n)) as Hl'. { rewrite (b_hist _ _ _ _ _ _ _ B'). unfold vals. etrans; [apply fmap_length|]. etrans; [exact Hgl|]. by f_equal. }
  (* the expected value *)
  assert (v = e /\ (match p with PCas _ _ _ _ _ => sh_data e = false | _ => True end)) as [-> Hdp].
  { pose proof (tag_minv_1 {[o]} _ _ Hm) as Hmv. unfold cas_wins in Hwin. rewrite Ec in Hwin. rewrite read_is_cval in Hwin by apply B. rewrite Hcv in Hwin. apply andb_true_iff in Hwin as [Hsame _].
    destruct p; try done; simpl in Ec; injection Ec as -> ->.
    - destruct Hpc as (_ & _ & _ & Hv & Hu & _). split; [|done]. eapply same_eq_vok; [exact Hmv|exact Hcv|exact Hu|exact Hv|exact Hsame].
    - destruct Hpc as ((_ & Hv & Hu & Hd & _) & _). split; [|done]. eapply same_eq_vok; [exact Hmv|exact Hcv|exact Hu|exact Hv|exact Hsame].
    - destruct Hpc as (_ & _ & _ & nl & it & -> & Hv & _). split; [|done]. eapply same_eq_vok; [exact Hmv|exact Hcv|done|exact Hv|exact Hsame]. }
  (* the new value *)
  pose proof (cas_mem _ _ _ _ _ _ _ _ _ _ Hacc Hwin Hstep) as Hsm. set (m := w_mem (c_w b)) in *.
  assert (cval (w_mem (c_w b')) c = Some (cas_new m p) /\ sh_cond (cas_new m p) = false) as [Hcn Hun].
  { unfold cas_new. destruct (new_body p) as [bo|].
    - split; [|done]. rewrite (sm_cval _ _ _ Hsm). eapply cval_write_eq. destruct c as [|l0 i]; [done|]. cbn [cval]. rewrite hbody_alloc, decide_False; [exact Hcv|]. intros ->. simpl in Hcv. by rewrite (next_fresh _ _ Hm) in Hcv.
    - split; [rewrite (sm_cval _ _ _ Hsm); by eapply cval_write_eq|]. eapply cas_val_uncond; [|exact Hpc]. by apply tag_minv_1. }
  exists q, ws, c, (S n), (cas_new m p), N', n, e. split; [eapply walkq_end, walkq_pre; [exact Hpre|exact Hwk]|]. split; [|split; [|split; [by eapply prefix_lookup|split; [done|split]]]].
  - split; [lia|]. rewrite HMN'. split; [by eapply uncond_live|]. split; [done|]. split; [|by left].
    assert (last (H' N' c) = Some (cas_new m p)) as Hla by (rewrite (tl_last _ _ _ _ T') by lia; by rewrite HMN'). rewrite last_lookup, Hl' in Hla. exact Hla.
  - intros Hd. destruct p; try (by destruct Hkind as [?|?]; [left|right]). congruence.
  - intros x y Hxy. simpl. apply elem_of_app in Hxy as [Hxy|Hxy]; [etrans; [by eapply Hbd|apply Hfl]|]. apply elem_of_list_singleton in Hxy. injection Hxy as -> ->. done.
  - rewrite HMN'. left. unfold garb_locs. rewrite Eg. simpl. by left.
Qed.

Lemma finv_step_ext M H N pos ls b ev s o n spur a s' ev1 : strong w -> finv M H N pos ls b ev s -> fstep w s (FStep o n spur a) = Some (s', ev1) ->
  exists M' H' N' pos' b' a', cstep w b (CStep o n spur a') = Some (b', ev1) /\ ext pos (w_mem (c_w b)) pos' (w_mem (c_w b')) /\ finv M' H' N' pos' (ls ++ [CStep o n spur a']) b' (ev ++ ev1) s'.
Proof.
  intros Hw I Hst. cbn [fstep] in Hst. destruct (_ && _) eqn:Ec; [|done]. apply andb_true_iff in Ec as [Hal Hfl]. unfold f_alive in Hal. apply bool_decide_eq_true in Hal as [[x Hx] Hg].
  destruct (cstep w (f_c s) (CStep o n spur a)) as [[c' ev2]|] eqn:Ecs; [|done]. injection Hst as <- <-.
  pose proof (fi_sim _ _ _ _ _ _ _ _ I) as Sim. pose proof (fi_b _ _ _ _ _ _ _ _ I) as B.
  assert (exists op p tv pv, x = WOp (SRun op p) tv pv) as (op & p & tv & pv & ->).
  { cbn [cstep wstep] in Ecs. rewrite Hx in Ecs. destruct x as [[op p| | |] tv pv]; try done. eauto. }
  assert (forall c kd ord, access w p = Some (c, kd, ord) -> f_floor s (f_sync s o) c <= n) as Hfloor.
  { intros c kd ord Hacc. unfold next_cell in Hfl. rewrite Hx, Hacc in Hfl. simpl in Hfl. by apply Nat.leb_le in Hfl. }
  pose proof (touch _ _ _ _ _ _ _ _ _ I _ _ _ _ _ _ Hx Hg Hfloor) as Ht.
  destruct (cstep_bm _ _ _ _ _ _ _ _ _ _ _ _ Sim Hx Ht Ecs) as (b' & Hbs & Sim' & Ha' & Hfr').
  destruct (binv_step w _ _ _ _ _ _ _ _ _ _ _ _ _ Hw B Hbs) as (op1 & p1 & tv1 & pv1 & nx & tv' & pv' & acts & M' & H' & N' & pos' & Ho1 & Hops & -> & B' & (K1 & _ & K2 & K3) & F1 & F2 & Hext & _).
  pose proof Hx as Hxb. rewrite <-(fi_ops _ _ _ _ _ _ _ _ I) in Hxb. rewrite Hxb in Ho1. injection Ho1 as <- <- <- <-.
  exists M', H', N', pos', b', (N.pos (m_next (f_mem s))). split; [exact Hbs|]. split; [exact Hext|].
  assert (bm (f_mem s) = w_mem (c_w b)) as Emb by (symmetry; apply Sim). assert (bm (w_mem (c_w c')) = w_mem (c_w b')) as Emb' by (symmetry; apply Sim').
  assert (forall l, is_Some (m_heap (f_mem s) !! l) <-> is_Some (m_heap (w_mem (c_w b)) !! l)) as Hh1. { intros l. rewrite <-Emb, bm_heap, fmap_is_Some. done. }
  assert (forall l, is_Some (m_heap (w_mem (c_w c')) !! l) <-> is_Some (m_heap (w_mem (c_w b')) !! l)) as Hh2. { intros l. rewrite <-Emb', bm_heap, fmap_is_Some. done. }
  assert (forall l, is_Some (m_heap (f_mem s) !! l) -> is_Some (m_heap (w_mem (c_w c')) !! l)) as Hgrow.
  { intros l Hl. apply Hh2, hbody_is_Some. apply Hh1, hbody_is_Some in Hl as [bo Hbo]. destruct (Hext _ _ Hbo) as [_ Hb2]. destruct bo; [destruct Hb2 as (? & ? & _)|]; eauto. }
  assert (forall x y, c_fl c' x y = c_fl b' x y) as Ef' by (intros; symmetry; apply Sim'). assert (forall x y, c_fl (f_c s) x y = c_fl b x y) as Ef by (intros; symmetry; apply Sim).
  (* what kind of step *)
  pose proof Hbs as Hbs2. cbn [cstep] in Hbs2. destruct (wstep w (c_w b) _) as [[b1 ev3]|] eqn:Ew; [|done].
  destruct (wstep_st _ _ _ _ _ _ _ _ Hw (b_winv _ _ _ _ _ _ _ B) Ew) as (op2 & p2 & tv2 & pv2 & nx2 & tv2' & pv2' & acts2 & Ho2 & Hops2 & -> & Hwst).
  rewrite Hxb in Ho2. injection Ho2 as <- <- <- <-. unfold next_cell in Hbs2. rewrite Hxb in Hbs2.
  assert (forall c kd ord, access w p = Some (c, kd, ord) -> n < length (w_hist (c_w b) c)) as Hnlt.
  { intros c kd ord Hacc. destruct Hwst as [M1 Hacc' _ _ _|c0 kd0 ord0 v0 W0 M1 Hacc' _ Hn0 _ _ _ _|c0 kd0 ord0 v0 W0 W1 Hacc' _ Hn0 _ _ _]; rewrite Hacc' in Hacc; [done|..]; injection Hacc as -> _ _; by eapply lookup_lt_Some. }
  assert (c_w b' = b1 /\ forall c kd ord, access w p = Some (c, kd, ord) -> n <= c_fl b' o c /\ (length (w_hist (c_w b) c) < length (w_hist b1 c) -> c_fl b' o c = length (w_hist (c_w b) c))) as [Eb1 Hflc].
  { destruct (access w p) as [[[c kd] ord]|] eqn:Hacc; simpl in Hbs2; [|injection Hbs2 as <- _; done]. destruct (n <? c_fl b o c) eqn:E; [done|]. injection Hbs2 as <- _. split; [done|]. intros c0 kd0 ord0 [= <- <- <-]. cbn [c_fl]. rewrite decide_True by done. rewrite (proj2 (same_cell_spec c c) eq_refl).
    specialize (Hnlt _ _ _ eq_refl). destruct (length (w_hist (c_w b) c) <? length (w_hist b1 c)) eqn:E2; [apply Nat.ltb_lt in E2|apply Nat.ltb_ge in E2]; (split; [lia|]); [done|lia]. }
  subst b1. clear Hbs2.
  assert (nx_stat op nx = nx_stat op nx2) as Enx. { rewrite Hops in Hops2. apply (f_equal (fun f => f !! o)) in Hops2. rewrite !lookup_insert in Hops2. by injection Hops2. }
  assert (forall f, nx2 <> NFail f) as Hnf. { intros f ->. assert (w_ops (c_w b') !! o = Some (WOp (nx_stat op (NFail f)) tv' pv')) as E by (rewrite Hops, Enx; apply lookup_insert). by apply (b_ops _ _ _ _ _ _ _ B') in E. }
  destruct (fi_alive _ _ _ _ _ _ _ _ I _ _ Hx Hg) as (Hdr & Hsd & Hsl & Hpp). cbn [w_st stptr] in Hpp.
  assert (forall c v W, w_hist (c_w b) c !! n = Some (v, W) -> H N c !! n = Some v /\ exists v0, cval (w_mem (c_w b)) c = Some v0 /\ (S n = length (w_hist (c_w b) c) -> v0 = v)) as Hcvs.
  { intros c v W E. assert (H N c !! n = Some v) as HHn by (rewrite (b_hist _ _ _ _ _ _ _ B); by eapply vals_lookup). split; [done|]. destruct (hist_ptr _ _ _ _ _ _ _ (b_tl _ _ _ _ _ _ _ B) HHn) as (_ & _ & [v0 Hv0]).
    rewrite (b_mem _ _ _ _ _ _ _ B) in Hv0. exists v0. split; [done|]. intros Hl. pose proof (tl_last _ _ _ _ (b_tl _ _ _ _ _ _ _ B) N c ltac:(lia)) as Hla. rewrite (b_mem _ _ _ _ _ _ _ B), Hv0, last_lookup in Hla.
    assert (length (H N c) = S n) as El; [|rewrite El in Hla; simpl in Hla; congruence]. rewrite (b_hist _ _ _ _ _ _ _ B). unfold vals. etrans; [apply fmap_length|]. by symmetry. }
  assert (minv pos (w_mem (c_w b))) as Hm. { rewrite <-(b_mem _ _ _ _ _ _ _ B). by eapply fi_minv. }
  assert (forall c v W, w_hist (c_w b) c !! n = Some (v, W) -> w_hist (c_w (f_c s)) c !! n = Some (v, W)) as Hhs. { intros c v W E. rewrite <-(ws_hist _ _ (cs_w _ _ Sim)). exact E. }
  (* what is registered *)
  set (nr := new_regs (f_mem s) (w_mem (c_w c')) (c_fl c' o)).
  assert (nr = [] /\ m_garb (w_mem (c_w b')) = m_garb (w_mem (c_w b)) \/
    exists l k, nr = [Reg l k (c_fl c' o)] /\ m_garb (w_mem (c_w b')) = (l, k, ∅) :: m_garb (w_mem (c_w b)) /\ reg_ok M' H' N' (Reg l k (c_fl c' o))) as Hnr.
  { assert (m_garb (w_mem (c_w c')) = m_garb (w_mem (c_w b')) /\ m_garb (f_mem s) = m_garb (w_mem (c_w b))) as [G1 G2] by (by rewrite <-Emb, <-Emb').
    assert (m_garb (w_mem (c_w b')) = m_garb (w_mem (c_w b)) -> nr = []) as Hsame. { intros E. unfold nr, new_regs. by rewrite G1, G2, E, Nat.sub_diag. }
    destruct Hwst as [M1 Hacc _ Hmem _|c kd ord v W M1 Hacc _ Hn0 _ _ Hmem _|c kd ord v W W1 Hacc Hkd Hn0 Hlen Hstep Hhist].
    - left. rewrite Hmem. split; [apply Hsame; by rewrite Hmem|done].
    - left. rewrite Hmem. split; [apply Hsame; by rewrite Hmem|done].
    - destruct Hkd as [->|[-> Hwin]].
      + assert (m_garb (w_mem (c_w b')) = m_garb (w_mem (c_w b))) as E; [|left; auto].
        destruct (read_cell (w_mem (c_w b)) c) as [v0|] eqn:Er; [by rewrite (fetch_mem _ _ _ _ _ _ _ _ _ _ _ Hacc Er Hstep); destruct c|]. exfalso.
        rewrite read_is_cval in Er by apply B. destruct (Hcvs _ _ _ Hn0) as (_ & ? & Hc & _). congruence.
      + destruct (read_pok _ _ _ _ _ _ _ _ _ I _ _ _ _ _ _ _ _ _ _ _ Hx Hg Hacc (Hhs _ _ _ Hn0) (Hfloor _ _ _ Hacc)) as ((q & ws & Hwk & Hbd) & _).
        assert (length (w_hist (c_w b') c) = S (length (w_hist (c_w b) c))) as Hlen'. { rewrite Hhist, hist_write_eq, app_length. simpl. rewrite Nat.add_1_r. do 2 f_equal. destruct c as [|l i]; [done|]. simpl. rewrite decide_False; [done|].
          intros [-> _]. destruct (Hcvs _ _ _ Hn0) as (_ & ? & Hc & _). simpl in Hc. by rewrite (next_fresh _ _ Hm) in Hc. }
        destruct (reg_new _ _ _ _ _ _ _ _ _ _ _ _ _ _ _ _ _ _ _ _ _ _ _ _ _ _ _ _ _ (c_fl (f_c s) o) (c_fl c' o) B B' K3 Hxb Hacc Hwin Hn0 Hlen Hstep Hnf Hhist) as [E|(l & k & E & Hr)].
        * exists q, ws. split; [done|]. intros x a0 Hxa. by apply (Hbd x a0 Hxa).
        * intros x. by rewrite Ef, Ef'.
        * rewrite Ef'. destruct (Hflc _ _ _ Hacc) as [_ E]. rewrite E; [|rewrite Hlen'; lia]. by rewrite Hlen.
        * left. auto.
        * right. exists l, k. split; [|done]. unfold nr, new_regs. rewrite G1, G2, E. cbn [length]. replace (S _ - _) with 1 by lia. done. }
  assert (forall o' y, (forall i, i ∈ f_sync s o' -> i < length (f_regs s)) -> (forall x, c_fl (f_c s) o' x <= c_fl c' o' x) ->
    pok H N (f_mem s) (f_regs s) (f_sync s o') (c_fl (f_c s) o') y -> pok H' N' (w_mem (c_w c')) (f_regs s ++ nr) (f_sync s o') (c_fl c' o') y) as Hmono by (intros o' y Hi Hf; by apply pok_mono).
  assert (forall l, l ∈ garb_locs (w_mem (c_w b)) <-> l ∈ g_loc <$> f_regs s) as Hgl. { intros l. rewrite (fi_garb _ _ _ _ _ _ _ _ I). by rewrite <-Emb. }
  assert (forall x, c_fl (f_c s) o x <= c_fl c' o x) as Hflo. { intros x. by rewrite Ef, Ef'. }
  split; cbn [f_c f_regs f_done f_dropped f_gone f_ub f_sync]; unfold f_mem; cbn [f_c].
  - done.
  - done.
  - done.
  - fold nr. rewrite fmap_app. assert (garb_locs (w_mem (c_w c')) = garb_locs (w_mem (c_w b'))) as -> by (by rewrite <-Emb').
    assert (g_loc <$> f_regs s ≡ₚ garb_locs (w_mem (c_w b))) as Hp by (rewrite (fi_garb _ _ _ _ _ _ _ _ I); by rewrite <-Emb).
    destruct Hnr as [[-> E]|(l & k & -> & E & _)]; unfold garb_locs at 1; rewrite E; fold (garb_locs (w_mem (c_w b))).
    + simpl. by rewrite app_nil_r.
    + simpl. rewrite Hp. fold (garb_locs (w_mem (c_w b))). by rewrite Permutation_app_comm.
  - fold nr. intros i g Hi. apply lookup_app_Some in Hi as [Hi|[_ Hi]].
    + eapply reg_ok_mono; [exact K1|exact K2|exact K3|]. by eapply (fi_reg _ _ _ _ _ _ _ _ I).
    + destruct Hnr as [[E _]|(l & k & E & _ & Hr)]; rewrite E in Hi; [done|]. apply list_lookup_singleton_Some in Hi as [_ <-]. done.
  - fold nr. intros i g Hi Hnd. unfold freed. rewrite Hfr'. change (freed (f_mem s) (g_loc g) = false). apply lookup_app_Some in Hi as [Hi|[_ Hi]]; [by eapply (fi_free _ _ _ _ _ _ _ _ I)|].
    destruct Hnr as [[E _]|(l & k & E & Eg & Hr)]; rewrite E in Hi; [done|]. apply list_lookup_singleton_Some in Hi as [_ <-]. simpl. destruct (freed (f_mem s) l) eqn:Efr; [|done]. exfalso.
    apply elem_of_freed in Efr. destruct (fi_done _ _ _ _ _ _ _ _ I Hdr _ Efr) as (j & g & _ & Hj & Egl).
    assert (l ∈ garb_locs (w_mem (c_w b))) as Hin. { apply Hgl. rewrite <-Egl. apply elem_of_list_fmap. exists g. split; [done|]. by eapply elem_of_list_lookup_2. }
    assert (minv pos' (w_mem (c_w b'))) as Hm'. { rewrite <-(b_mem _ _ _ _ _ _ _ B'). apply (tl_minv _ _ _ _ (b_tl _ _ _ _ _ _ _ B')). lia. }
    pose proof (mi_nodup _ _ Hm') as Hnn. apply NoDup_app in Hnn as [Hnn _]. unfold garb_locs in Hnn. rewrite Eg in Hnn. simpl in Hnn. apply NoDup_cons in Hnn as [Hnn _]. by apply Hnn.
  - fold nr. intros _ l Hl. rewrite Hfr' in Hl. destruct (fi_done _ _ _ _ _ _ _ _ I Hdr _ Hl) as (j & g & Hj & Hjg & E). exists j, g. split; [done|]. split; [by apply lookup_app_l_Some|done].
  - fold nr. intros i g Hi Hig. unfold freed. rewrite Hfr'. change (freed (f_mem s) (g_loc g) = true). rewrite lookup_app_l in Hig by (by apply (fi_ds _ _ _ _ _ _ _ _ I)). by eapply (fi_run _ _ _ _ _ _ _ _ I).
  - rewrite Hdr. done.
  - intros l. unfold freed. rewrite Hfr'. intros Hl. by apply Hgrow, (fi_heapd _ _ _ _ _ _ _ _ I).
  - rewrite Hfr'. apply (fi_nodup _ _ _ _ _ _ _ _ I).
  - fold nr. intros i Hi. rewrite app_length. pose proof (fi_ds _ _ _ _ _ _ _ _ I _ Hi). lia.
  - fold nr. intros o' x Hxo Hgo. rewrite <-(ws_ops _ _ (cs_w _ _ Sim')), Hops in Hxo. destruct (decide (o' = o)) as [->|Hne].
    + rewrite lookup_insert in Hxo. injection Hxo as <-. split; [done|]. split; [done|]. split; [intros i Hi; rewrite app_length; specialize (Hsl _ Hi); lia|]. cbn [w_st]. rewrite Enx. intros y Hy.
      assert (y ∈ nptr nx2) as Hy' by (by destruct nx2). clear Hy.
      assert (y ∈ pptr p -> pok H' N' (w_mem (c_w c')) (f_regs s ++ nr) (f_sync s o) (c_fl c' o) y) as Hold. { intros Hyp. apply Hmono; [done|done|by apply Hpp]. }
      assert (forall c kd ord v W, access w p = Some (c, kd, ord) -> w_hist (c_w b) c !! n = Some (v, W) -> y ∈ sptr v -> pok H' N' (w_mem (c_w c')) (f_regs s ++ nr) (f_sync s o) (c_fl c' o) y) as Hread.
      { intros c kd ord v W Hacc Hn0 Hyv. destruct (read_pok _ _ _ _ _ _ _ _ _ I _ _ _ _ _ _ _ _ _ _ _ Hx Hg Hacc (Hhs _ _ _ Hn0) (Hfloor _ _ _ Hacc)) as (_ & _ & Hv).
        eapply pok_mono; [exact K3|exact Hgrow|done|reflexivity|]. apply Hv; [done|done|]. rewrite Ef'. by apply (Hflc _ _ _ Hacc). }
      destruct Hwst as [M1 Hacc Hstep Hmem _|c kd ord v W M1 Hacc Hnk Hn0 Hlose Hstep Hmem _|c kd ord v W W1 Hacc Hkd Hn0 Hlen Hstep Hhist].
      * destruct (op_step_src w _ _ _ _ _ _ _ _ Hstep Hy') as [Hs|[(c0 & kd0 & ord0 & v0 & Ha0 & _)|[_ Hs]]]; [by apply Hold|congruence|].
        apply (op_step_next _ _ _ _ _ _ _ Hstep) in Hs. destruct (cas_wins_acc _ _ _ Hs) as (? & ? & ?). congruence.
      * destruct (op_step_src w _ _ _ _ _ _ _ _ Hstep Hy') as [Hs|[(c0 & kd0 & ord0 & v0 & Ha0 & Hr0 & Hs & _)|[_ Hs]]]; [by apply Hold| |].
        -- rewrite Hacc in Ha0. injection Ha0 as <- <- <-. apply read_write in Hr0 as ->. by eapply Hread.
        -- apply (op_step_next _ _ _ _ _ _ _ Hstep) in Hs. destruct (cas_wins_acc _ _ _ Hs) as (? & ? & E). rewrite Hacc in E. injection E as <- -> <-. by rewrite Hlose in Hs.
      * destruct (op_step_src w _ _ _ _ _ _ _ _ Hstep Hy') as [Hs|[(c0 & kd0 & ord0 & v0 & Ha0 & Hr0 & Hs & _)|[-> Hs]]]; [by apply Hold| |].
        -- rewrite Hacc in Ha0. injection Ha0 as <- <- <-. destruct (Hcvs _ _ _ Hn0) as (_ & v1 & Hv1 & Hv1'). rewrite read_is_cval, Hv1 in Hr0 by apply B. injection Hr0 as <-. rewrite (Hv1' Hlen) in Hs. by eapply Hread.
        -- pose proof Hs as Hs2. apply (op_step_next _ _ _ _ _ _ _ Hstep) in Hs. destruct (cas_wins_acc _ _ _ Hs) as (? & ? & E). rewrite Hacc in E. injection E as <- -> <-.
           pose proof (cas_mem _ _ _ _ _ _ _ _ _ _ Hacc Hs Hstep) as Hsm. split; [|split; [|done]].
           ++ simpl. apply Hh2. rewrite (sm_heap _ _ Hsm). destruct (new_body p) as [bo|].
              ** apply hbody_is_Some. assert (hbody (alloc (w_mem (c_w b)) (N.pos (m_next (f_mem s))) bo) (m_next (w_mem (c_w b))) = Some bo) as Hb0 by (rewrite hbody_alloc; by rewrite decide_True).
                 rewrite hbody_write. destruct c as [|l i]; [by eexists|]. unfold f_mem in Hb0. rewrite Hb0. destruct (decide _); [destruct bo|]; eauto.
              ** exfalso. apply Hs2. rewrite (sm_next _ _ Hsm). by destruct c.
           ++ intros i g Hi Hig E. simpl in E. rewrite lookup_app_l in Hig by (by apply Hsl). assert (g_loc g ∈ garb_locs (w_mem (c_w b))) as Hin. { apply Hgl, elem_of_list_fmap. exists g. split; [done|]. by eapply elem_of_list_lookup_2. }
              assert (is_Some (m_heap (w_mem (c_w b)) !! g_loc g)) as Hin2 by (apply (mi_heap _ _ Hm); by left). apply (mi_fresh _ _ Hm) in Hin2. rewrite E in Hin2. lia.
    + rewrite lookup_insert_ne in Hxo by done. rewrite (ws_ops _ _ (cs_w _ _ Sim)) in Hxo. destruct (fi_alive _ _ _ _ _ _ _ _ I _ _ Hxo Hgo) as (G1 & G2 & G3 & G4). split; [done|]. split; [done|]. split; [intros i Hi; rewrite app_length; specialize (G3 _ Hi); lia|].
      intros y Hy. apply Hmono; [done| |by apply G4]. intros z. by rewrite Ef, Ef', F1.
  - apply (fi_ub _ _ _ _ _ _ _ _ I).
Qed.
Lemma finv_step M H N pos ls b ev s o n spur a s' ev1 : strong w -> finv M H N pos ls b ev s -> fstep w s (FStep o n spur a) = Some (s', ev1) ->
  exists M' H' N' pos' b' a', cstep w b (CStep o n spur a') = Some (b', ev1) /\ finv M' H' N' pos' (ls ++ [CStep o n spur a']) b' (ev ++ ev1) s'.
Proof. intros Hw I Hst. destruct (finv_step_ext _ _ _ _ _ _ _ _ _ _ _ _ _ _ Hw I Hst) as (M' & H' & N' & pos' & b' & a' & H1 & _ & H2). by exists M', H', N', pos', b', a'. Qed.

(** ** All executions *)
Definition same_inv (ls ls' : list clabel) : Prop := forall o op ps, CInv o op ps ∈ ls <-> CInv o op ps ∈ ls'.
Lemma crun_app (s : cstate) (l1 l2 : list clabel) (s1 : cstate) e1 (s2 : cstate) e2 : crun w s l1 = Some (s1, e1) -> crun w s1 l2 = Some (s2, e2) -> crun w s (l1 ++ l2) = Some (s2, e1 ++ e2).
Proof.
  revert s e1. induction l1 as [|lb l1 IH]; intros s e1 H1 H2; cbn [crun app] in *; [by injection H1 as <- <-|]. destruct (cstep w s lb) as [[s3 e3]|]; [|done]. destruct (crun w s3 l1) as [[s4 e4]|] eqn:E; [|done]. injection H1 as <- <-.
  rewrite (IH _ _ E H2). by rewrite app_assoc.
Qed.
Lemma frun_inv s (ls : list flabel) s' ev' M H N pos (l1 : list clabel) b ev : strong w -> wf_fcalls ls -> finv M H N pos l1 b ev s -> frun w s ls = Some (s', ev') ->
  exists M' H' N' pos' ll b', crun w b ll = Some (b', ev') /\ finv M' H' N' pos' (l1 ++ ll) b' (ev ++ ev') s' /\ same_inv ll (calls_of ls).
Proof.
  intros Hw. revert s M H N pos l1 b ev ev'. induction ls as [|lb ls IH]; intros s M H N pos l1 b ev ev' Hwf I Hr; cbn [frun] in Hr.
  { injection Hr as <- <-. exists M, H, N, pos, [], b. rewrite !app_nil_r. done. }
  destruct (fstep w s lb) as [[s1 ev1]|] eqn:Es; [|done]. destruct (frun w s1 ls) as [[s2 ev2]|] eqn:Er; [|done]. injection Hr as <- <-.
  assert (wf_fcalls ls) as Hwf' by (intros o op ps ds Hin; eapply Hwf; by right).
  assert (exists M' H' N' pos' ll b', crun w b ll = Some (b', ev1) /\ finv M' H' N' pos' (l1 ++ ll) b' (ev ++ ev1) s1 /\ same_inv ll (calls_of [lb])) as (M' & H' & N' & pos' & ll & b' & Hb' & I' & Hsi).
  { assert (forall s1, finv M H N pos l1 b ev s1 -> ev1 = [] -> calls_of [lb] = [] -> exists M' H' N' pos' ll b', crun w b ll = Some (b', ev1) /\ finv M' H' N' pos' (l1 ++ ll) b' (ev ++ ev1) s1 /\ same_inv ll (calls_of [lb])) as Hq.
    { intros s3 I3 -> ->. exists M, H, N, pos, [], b. rewrite !app_nil_r. done. }
    destruct lb as [o op ps ds|o n spur a|o|o|i|].
    - destruct (finv_inv _ _ _ _ _ _ _ _ _ _ _ _ _ _ ltac:(eapply Hwf; by left) Hw I Es) as (b' & Hb & I'). exists M, H, N, pos, [CInv o op ps], b'. cbn [crun]. rewrite Hb, app_nil_r. done.
    - destruct (finv_step _ _ _ _ _ _ _ _ _ _ _ _ _ _ Hw I Es) as (M' & H' & N' & pos' & b' & a' & Hb & I'). exists M', H', N', pos', [CStep o n spur a'], b'. cbn [crun]. rewrite Hb, app_nil_r.
      split; [done|]. split; [done|]. intros o1 op1 ps1. simpl. rewrite !elem_of_list_singleton. done.
    - cbn [fstep] in Es. destruct (_ && _); [|done]. injection Es as <- <-. apply Hq; [by apply finv_gone|done|done].
    - cbn [fstep] in Es. destruct (_ && _); [|done]. injection Es as <- <-. apply Hq; [by apply finv_gone|done|done].
    - destruct (finv_free _ _ _ _ _ _ _ _ _ _ _ I Es) as [E I']. by apply Hq.
    - destruct (finv_drop _ _ _ _ _ _ _ _ _ _ I Es) as [E I']. by apply Hq. }
  destruct (IH _ _ _ _ _ _ _ _ _ Hwf' I' Er) as (M2 & H2 & N2 & pos2 & ll3 & b2 & Hb2 & I2 & Hsi2). exists M2, H2, N2, pos2, (ll ++ ll3), b2. rewrite app_assoc, (app_assoc ev). split; [by eapply crun_app|]. split; [done|].
  intros o op ps. rewrite elem_of_app, (Hsi o op ps), (Hsi2 o op ps). change (lb :: ls) with ([lb] ++ ls). unfold calls_of. by rewrite omap_app, elem_of_app.
Qed.
Lemma fexec_inv (ls : list flabel) s ev : strong w -> wf_fcalls ls -> fexec w ls s ev ->
  exists M H N pos ll b, cexec w ll b ev /\ finv M H N pos ll b ev s /\ same_inv ll (calls_of ls).
Proof.
  intros Hw Hwf Hr. destruct finv0 as [pos I]. destruct (frun_inv _ _ _ _ _ _ _ _ _ _ _ Hw Hwf I Hr) as (M' & H' & N' & pos' & ll & b' & Hc & I' & Hs). exists M', H', N', pos', ll, b'. done.
Qed.
End frun.
