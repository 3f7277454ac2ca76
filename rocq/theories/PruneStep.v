(** * Steps of the modifying calls keep the trie in shape, if no two removals overlap. *)
From Verif Require Import Model Mem Inv Safe SafeStep SafeOps SafeSys SafeProps Look LinSpec Sem SemOps SysSem Spec SeqSpec Seq Prune.

Section prunestep.
Context {C : Config} {HC : ConfigOk C}.
Implicit Types (c : cell) (v w : sh) (k : Key).

Definition st_of (op : oper) (nx : next) : ostat := match nx with NRun p => SRun op p | NRet r => SRet op r | NFail f => SFail op f end.

Lemma sh_same_refl (m : mem) v : sh_same m v v = true.
Proof. unfold sh_same. by rewrite N.eqb_refl, !eqb_reflx. Qed.

Lemma others_length_nodup k it : nodupk it -> length it <= S (length (others k it)).
Proof.
  induction it as [|p it IH]; [simpl; lia|]. intros [H1 H2]%nodupk_cons. rewrite others_cons.
  destruct (keqb (keyof p) k) eqn:E; [|specialize (IH H2); simpl; lia].
  simpl. enough (others k it = it) as -> by lia. unfold others. clear IH H2.
  induction it as [|q it IH]; [done|]. rewrite filter_cons, decide_True.
  - f_equal. apply IH. intros r Hr. apply H1. by right.
  - destruct (keqb (keyof q) k) eqn:E2; [|done]. exfalso. assert (keqb (keyof p) (keyof q) = true) as E3; [|rewrite H1 in E3; [done|left]].
    by rewrite (keqb_cong _ k).
Qed.

Lemma t_sem_ikey op t k : t_sem op t k -> ikey op = Some k.
Proof. destruct op; simpl; try done; [by intros [-> _]|by intros [-> _]]. Qed.

Section one.
Context {gs : gset opid} {pos : loc -> list nat} {m : mem} {o : opid} {op : oper} {p : pc} {ops : gmap opid ostat}
  (Hm : minv pos m) (Ho : o ∈ gs) (He : esafe gs m) (Hse : sem pos m)
  (Hall : forall o op p, ops !! o = Some (SRun op p) -> op_wf op /\ pc_ok pos m o p /\ pc_sem pos m op p)
  (Huniq : forall o1 k1 p1 o2 k2 p2, ops !! o1 = Some (SRun (ORemove k1) p1) -> ops !! o2 = Some (SRun (ORemove k2) p2) -> o1 = o2)
  (Hg : gro m ops) (Hop : ops !! o = Some (SRun op p)).

Lemma others_fact pos' m' st : ext pos m pos' m' -> (forall l, dead m l -> dead m' l) -> (forall l, rdd p l -> ~ dead m' l -> DD (<[o := st]> ops) l) ->
  (forall op' p', st = SRun op' p' -> gfact m' (DD (<[o := st]> ops)) op' p') ->
  (forall o1 k1 p1, o1 <> o -> ops !! o1 = Some (SRun (ORemove k1) p1) -> gfact m (DD ops) (ORemove k1) p1 -> gfact m' (DD (<[o := st]> ops)) (ORemove k1) p1) ->
  forall o' op' p', <[o := st]> ops !! o' = Some (SRun op' p') -> gfact m' (DD (<[o := st]> ops)) op' p'.
Proof.
  intros Hx Hd HD Hown Hrem o' op' p'. destruct (decide (o = o')) as [<-|Hne].
  - rewrite lookup_insert. intros [= E]. by apply Hown.
  - rewrite lookup_insert_ne by done. intros H. pose proof (g_ops _ _ Hg _ _ _ H) as Hf. destruct (Hall _ _ _ H) as (_ & _ & Hps).
    destruct op'; try (eapply (gfact_ins pos m pos'); [exact Hps|done|exact Hx|exact Hd| |exact Hf]; intros l Hl Hnd; destruct (DD_insert _ _ _ _ st _ Hop Hl); [by apply HD|done]).
    by eapply Hrem.
Qed.

(* the memory stays as it is, an insert goes on *)
Lemma same_mem m' st : silent pos m m' -> m_heap m' = m_heap m -> m_root m' = m_root m -> 
  (forall l, rdd p l -> ~ dead m l -> DD (<[o := st]> ops) l) ->
  (forall l sl, rex m p l -> hbody m l = Some (BInner sl) -> ~ dead m l -> heavy m l \/ ER m' (<[o := st]> ops) l) ->
  (forall op' p', st = SRun op' p' -> gfact m' (DD (<[o := st]> ops)) op' p') ->
  (still st op \/ forall k l sl, ikey op = Some k -> hbody m l = Some (BInner sl) -> ~ dead m l -> onpath m l k -> wit m l k -> heavy m l) ->
  gro m' (<[o := st]> ops).
Proof.
  intros Hs E1 E2 HD Hr Hown Hst. assert (forall c, cval m' c = cval m c) as Hc by (intros; by apply cval_heap).
  assert (forall l, hbody m' l = hbody m l) as Hb by (intros; by apply hbody_heapeq).
  eapply (gro_silent Hm Hs); [exact Hg|exact Hop| | |exact Hr|exact Hst].
  - intros l i v. rewrite Hc. intros Hv Hcd Hl. destruct (DD_insert _ _ _ _ st _ Hop (g_clean _ _ Hg _ _ _ Hv Hcd Hl)); [by apply HD|done].
  - eapply (others_fact pos); [| | |exact Hown|].
    + intros l b Hbl. split; [done|]. destruct b; [eexists; by rewrite Hb|by rewrite Hb].
    + intros l. by rewrite (sl_dead _ _ _ Hs).
    + intros l. rewrite (sl_dead _ _ _ Hs). by apply HD.
    + intros o1 k1 p1 _ H1. eapply (gfact_rem pos); [by apply (Hall _ _ _ H1)|..].
      * intros l. by rewrite (sl_dead _ _ _ Hs).
      * intros q ch _. by rewrite Hc.
      * intros [|x i] _; simpl; [done|]. by rewrite (sl_dead _ _ _ Hs).
      * intros q ch _. rewrite Hc. by left.
      * intros l _. left. split; [intros j; by apply (nn_sil Hs)|by apply (heavy_sil Hs)].
Qed.

Lemma sil_refl : silent pos m m.
Proof. by apply silent_eq. Qed.


(* an insert changes a pointer that is null or leads to a leaf *)
Lemma rem_tcas na cur v w old st o1 k1 p1 : swap_ok pos m na cur v w old -> (sh_data v = true \/ sh_loc v = None) -> is_Some (sh_loc w) ->
  (forall l b g, old = Some (l, b, g) -> exists it, hbody m l = Some (BData it)) ->
  (forall t, sh_loc v = Some t -> fat m t -> exists t', sh_loc w = Some t' /\ fat (swap m na cur w old) t') ->
  ops !! o1 = Some (SRun (ORemove k1) p1) -> gfact m (DD ops) (ORemove k1) p1 ->
  gfact (swap m na cur w old) (DD (<[o := st]> ops)) (ORemove k1) p1.
Proof.
  intros Hs Hv Hw Hold Hfat H1. destruct (Hall _ _ _ H1) as (_ & Hpc1 & Hps1).
  assert (forall q ch, sh_data ch = false -> is_Some (sh_loc ch) -> cval m q = Some ch -> cval (swap m na cur w old) q = Some ch) as Hkeep.
  { intros q ch Hd [x Hx] Hq. rewrite (swap_cval Hm Hs). rewrite decide_False.
    - destruct q as [|y i]; [done|]. destruct (decide (y = m_next m)) as [->|]; [|done]. simpl in Hq. by rewrite (next_fresh _ _ Hm) in Hq.
    - intros ->. rewrite (sw_cur _ _ _ _ _ _ _ Hs) in Hq. injection Hq as ->. destruct Hv; congruence. }
  assert (forall q ch lv cu, lev_ok pos m o1 lv cu -> (q, ch) ∈ lv -> sh_data ch = false /\ is_Some (sh_loc ch)) as Hlev.
  { intros q ch lv. induction lv as [|[q' ch'] lv IH]; intros cu H Hin; [by apply elem_of_nil in Hin|]. simpl in H. destruct H as ((_ & _ & _ & ? & ?) & _ & H).
    apply elem_of_cons in Hin as [[= -> ->]|Hin]; [done|by eapply IH]. }
  assert (forall l, ~ (exists sl, hbody m l = Some (BInner sl)) \/ ~ dead m l -> dead (swap m na cur w old) l -> ~ exists sl, hbody m l = Some (BInner sl)) as Hinn.
  { intros l Hl [Hd|(b & g & E)]%(swap_dead Hm Hs) Hsl; [destruct Hl; done|]. destruct (Hold _ _ _ E) as [it Hit]. destruct Hsl as [sl Hsl]. congruence. }
  eapply (gfact_rem pos); [exact Hps1|..].
  - intros l Hl. apply (swap_dead Hm Hs). by left.
  - intros q ch Hin. destruct p1 as [| |kk ? ? ? ? ? ? ?|kk ? ? ? ?| |? ? ? cu lv|? ? ? cu lv|? lv parent child i cnt| | |]; simpl in Hin, Hpc1; try (by apply elem_of_nil in Hin).
    + destruct kk; try (by apply elem_of_nil in Hin). destruct Hpc1 as (_ & [_ Hl] & _). destruct (Hlev _ _ _ _ Hl Hin). by apply Hkeep.
    + destruct kk; try (by apply elem_of_nil in Hin). destruct Hpc1 as (_ & [_ Hl] & _). destruct (Hlev _ _ _ _ Hl Hin). by apply Hkeep.
    + destruct Hpc1 as (_ & _ & Hl). destruct (Hlev _ _ _ _ Hl Hin). by apply Hkeep.
    + destruct Hpc1 as (_ & _ & Hl & _). destruct (Hlev _ _ _ _ Hl Hin). by apply Hkeep.
    + destruct Hpc1 as ((_ & _ & _ & ? & ?) & [_ Hl] & _). apply elem_of_cons in Hin as [[= -> ->]|Hin]; [by apply Hkeep|]. destruct (Hlev _ _ _ _ Hl Hin). by apply Hkeep.
  - intros c Hc Hl. assert (is_Some (cval m c)) as [u Hu].
    { destruct p1; try done; simpl in Hc, Hpc1; injection Hc as <-; apply Hpc1. }
    destruct c as [|x i]; [done|]. apply cval_slot in Hu as (sl & Hb & _). simpl in *. intros Hd. apply (Hinn x) in Hd; [|by right]. apply Hd. eauto.
  - intros q ch Hq Hcv. left. destruct p1 as [| |kk ? ? ? ? ? ? ?|kk ? ? ? ?| | | | | | |]; try done; destruct kk; try done; simpl in Hq, Hpc1; injection Hq as <- <-; destruct Hpc1 as ((_ & _ & _ & ? & ?) & _); by apply Hkeep.
  - intros l Hx. left. destruct (decide (l = m_next m)) as [->|Hn].
    { split; [intros j (u & Hu & _)|intros [(j & u & t & Hu & _)|(j & _ & _ & (u & Hu & _) & _)]]; simpl in Hu; by rewrite (next_fresh _ _ Hm) in Hu. }
    assert (ownr cur l \/ ~ ownr cur l) as [[i Hi]|Hno].
    { unfold ownr. destruct cur as [|x i]; [right; by intros [? ?]|]. destruct (decide (x = l)) as [->|]; [left; eauto|right; intros [? ?]; congruence]. }
    + split; [|by eapply (heavy_swap_owner Hm Hs)]. intros j (u & Hu & Hn'). destruct (decide (i = j)) as [<-|Hij].
      * exists w. rewrite <-Hi. split; [apply (swap_slot_cur Hm Hs)|done].
      * exists u. by rewrite (swap_slot_ne Hm Hs l i j).
    + split; [|by apply (heavy_swap_other Hm Hs)]. intros j (u & Hu & Hn'). exists u. by rewrite (swap_slot_other Hm Hs).
Qed.

Lemma step_tload t shift cur par spur a m' nx acts : p = TLoad t shift cur par -> op_step gs m p spur a = Some (m', nx, acts) -> (forall f, nx <> NFail f) ->
  gro m' (<[o := st_of op nx]> ops).
Proof.
  intros Epc Hst Hnf. destruct (Hall _ _ _ Hop) as (Hw & Hpc & Hps). rewrite Epc in Hst, Hpc, Hps. destruct Hpc as (Hc & -> & Hpar). destruct Hps as (k & Ht & Hon).
  destruct (cok_read _ _ _ _ Hm Hc) as (node & Hrd & Hcv). cbn [op_step] in Hst. rewrite Hrd in Hst.
  pose proof (vok_load _ _ _ _ _ _ Hm He Ho Hc Hcv) as Hv. destruct (t_sem_key _ _ _ Hw Ht) as [Hkey Hhash]. pose proof (t_sem_ikey _ _ _ Ht) as Hik.
  assert (forall p', gfact m (DD (<[o := SRun op p']> ops)) op p' -> gro m (<[o := SRun op p']> ops)) as Hrun.
  { intros p' Hf. eapply same_mem; [apply sil_refl|done|done|by rewrite Epc; intros ? []|by rewrite Epc; intros ? ? []| |left; by exists p']. intros op' p0 [= <- <-]. done. }
  destruct (sh_cond node) eqn:Ecd.
  { destruct par as [[parent child]|]; [|injection Hst as <- <- <-; by edestruct Hnf].
    destruct Hpar as [Hlk (l & i & -> & El)]. destruct (prune_start_ok pos m o (KTrav t) parent child Hlk I) as [E Hp]. rewrite E in Hst. injection Hst as <- <- <-.
    simpl. apply Hrun. simpl. intros l' El' Hd. assert (l' = l) as -> by congruence.
    destruct (DD_insert _ _ _ _ (SRun op (PMark (KTrav t) parent child 0 true 0 None [])) _ Hop (g_clean _ _ Hg _ _ _ Hcv Ecd Hd)) as [Hx|]; [by rewrite Epc in Hx|done]. }
  pose proof (uncond_live _ _ _ _ Hm Hcv Ecd) as Hlive.
  destruct (is_null node) eqn:Enl.
  { destruct (ts_payload (t_st t)) as [[pl st'] call] eqn:Ep. injection Hst as <- <- <-. simpl. by apply Hrun. }
  destruct (sh_data node) eqn:Ed.
  { destruct (vok_data _ _ _ _ _ Hv Ed) as (tl & it & Etl & Hb & Hdr & Hld & Hlen). rewrite Hld in Hst.
    pose proof (mi_data _ _ Hm _ _ Hb) as Hne. destruct it as [|d0 it']; [done|]. set (it := d0 :: it') in *.
    destruct (negb (keqb (keyof d0) (ts_key (t_st t))) && (4 * length (cpos pos cur) <? HASH_BITS)) eqn:Ecase.
    - apply andb_true_iff in Ecase as [Ek Hsh]. apply Nat.ltb_lt in Hsh. unfold HASH_BITS in Hsh.
      destruct Hlen as [Hlen|]; [|lia]. rewrite Hlen in Hst. cbn [negb Nat.eqb] in Hst.
      injection Hst as <- <- <-. simpl. apply Hrun. intros _. exists k, tl, d0. split; [done|]. split; [done|].
      destruct it'; [|done]. split; [done|]. apply negb_true_iff in Ek. by rewrite <-(keqb_cong _ _ _ Hkey).
    - rewrite Etl in Hst. rewrite (find_ref_cong _ k _ _ Hkey) in Hst.
      assert (forall r, (let '(pl, st', call) := ts_payload (t_st t) in
         Some (m, NRun (TCas (t_with t st') (4 * length (cpos pos cur)) cur par node (BData (others (ts_key (t_st t)) it ++ [pl])) (TKData r)),
           match call with Some k => [ACall k] | None => [] end)) = Some (m', nx, acts) -> gro m' (<[o := st_of op nx]> ops)) as Hcas.
      { intros r Heq. destruct (ts_payload (t_st t)) as [[pl st'] call] eqn:Ep. injection Heq as <- <- <-. simpl. by apply Hrun. }
      destruct (find_ref k tl it) as [r|] eqn:Ef; [|eapply Hcas; exact Hst].
      destruct (t_mode t) eqn:Em; [eapply Hcas; exact Hst|].
      unfold t_finish in Hst. rewrite Em in Hst. injection Hst as <- <- <-. simpl.
      eapply same_mem; [apply sil_refl|done|done|by rewrite Epc; intros ? []|by rewrite Epc; intros ? ? []|done|]. right. intros k' l sl Hk' Hbl Hdl Hp Hwit.
      assert (k' = k) as -> by congruence.
      destruct (path_end pos m cur node k l sl Hm Hcv Hlive ltac:(by left) Hon Hbl Hdl Hp) as [[i ->]|?]; [|done].
      destruct Hwit as (j & u & tj & d1 & Hj & Htj & Hbj & Hkj). destruct (decide (i = j)) as [<-|Hij].
      + exfalso. rewrite Hcv in Hj. injection Hj as <-. rewrite Etl in Htj. injection Htj as <-. rewrite Hb in Hbj. injection Hbj as -> ->.
        unfold it, find_ref, find_idx in Ef. by rewrite Hkj in Ef.
      + right. exists i, j. split; [done|]. split; [exists node|exists u]; split; eauto. }
  unfold is_null in Enl. destruct (sh_loc node) as [l|] eqn:El; [|done].
  destruct (HASH_BITS <=? 4 * length (cpos pos cur)) eqn:Esh; [injection Hst as <- <- <-; by edestruct Hnf|].
  injection Hst as <- <- <-. simpl. by apply Hrun.
Qed.

(* an insert changes a pointer: what is needed for [gro_swap] *)
Lemma ins_swap na cur v w old st k : ikey op = Some k -> (forall m' l, ~ rex m' p l) -> (forall l, ~ rdd p l) ->
  swap_ok pos m na cur v w old -> (sh_data v = true \/ sh_loc v = None) -> is_Some (sh_loc w) -> onp pos cur k ->
  (forall l b g, old = Some (l, b, g) -> exists it, hbody m l = Some (BData it)) ->
  (forall t, sh_loc v = Some t -> fat m t -> exists t', sh_loc w = Some t' /\ fat (swap m na cur w old) t') ->
  (forall i u, new_slots na !! i = Some u -> sh_cond u = false) ->
  (forall a sl, na = Some (a, BInner sl) -> EX (swap m na cur w old) (<[o := st]> ops) (m_next m)) ->
  (forall l i, cur = CSlot l i -> EX m ops l -> heavy (swap m na cur w old) l \/ EX (swap m na cur w old) (<[o := st]> ops) l) ->
  (forall op' p', st = SRun op' p' -> op' = op /\ gfact (swap m na cur w old) (DD (<[o := st]> ops)) op' p') ->
  gro (swap m na cur w old) (<[o := st]> ops).
Proof.
  intros Hk Hrx Hrd Hs Hv Hw Hon Hold Hfat Hcl Hnew Hown Hst.
  pose proof (sw_cur _ _ _ _ _ _ _ Hs) as Hcv. pose proof (swap_cur_live Hm Hs) as Hlive.
  eapply (gro_swap Hm Hs); [exact Hg|exact Hop|exact Hcl| | | | | |].
  - intros a sl E n. right. right. by eapply Hnew.
  - intros l i Ei Hd. assert (exists sl, hbody m l = Some (BInner sl)) as [sl Hb] by (rewrite Ei in Hcv; apply cval_slot in Hcv as (sl & ? & _); eauto).
    assert (~ dead m l) as Hd0 by (intros ?; apply Hd; apply (swap_dead Hm Hs); by left).
    destruct (g_heavy _ _ Hg l sl Hb Hd0) as [Hh|[(o1 & op1 & p1 & Ho1 & Hx)|Hex]].
    + left. eapply (heavy_swap_owner Hm Hs); [exact Ei|by intros _|exact Hfat|done].
    + right. left. destruct (decide (o = o1)) as [<-|Hne].
      * rewrite Hop in Ho1. injection Ho1 as <- <-. by destruct (Hrx _ _ Hx).
      * exists o1, op1, p1. rewrite lookup_insert_ne by done. split; [done|]. by apply (rex_swap Hm Hs).
    + destruct (Hown l i Ei Hex); auto.
  - eapply (others_fact (swap_pos pos m na cur)); [apply (swap_ext Hm Hs)| | | |].
    + intros l Hl. apply (swap_dead Hm Hs). by left.
    + intros l Hl. by apply Hrd in Hl.
    + intros op' p' E. by apply Hst.
    + intros o1 k1 p1 _ H1. by eapply rem_tcas.
  - intros l Hl. by apply Hrd in Hl.
  - intros l Hl. by apply Hrx in Hl.
  - right. intros k' l sl Hk' Hno Hb Hd Hp Hwit.
    assert (k' = k) as -> by congruence. destruct (path_end pos m cur v k l sl) as [?|?]; done.
Qed.

Lemma step_tcas t shift cur par node new kind spur a m' nx acts : p = TCas t shift cur par node new kind -> op_step gs m p spur a = Some (m', nx, acts) -> (forall f, nx <> NFail f) ->
  gro m' (<[o := st_of op nx]> ops).
Proof.
  intros Epc Hst Hnf. destruct (Hall _ _ _ Hop) as (Hw & Hpc & Hps). pose proof (g_ops _ _ Hg _ _ _ Hop) as Hfc. rewrite Epc in Hst, Hpc, Hps, Hfc.
  destruct Hpc as (Hc & -> & Hpar & Hv & Hnc & Htc). destruct Hps as (k & Ht & Hon & Hkd). simpl in Hfc.
  destruct (cok_read _ _ _ _ Hm Hc) as (now & Hrd & Hcv). pose proof (t_sem_ikey _ _ _ Ht) as Hik.
  cbn [op_step] in Hst. rewrite Hrd in Hst. destruct (addr_free m a) eqn:Eaf; [|done]. cbn [negb] in Hst.
  assert (forall m' l, ~ rex m' p l) as Hrx by (rewrite Epc; by intros ? ? []).
  assert (forall l, ~ rdd p l) as Hrdd by (rewrite Epc; by intros ? []).
  destruct (sh_same m now node && negb spur) eqn:Esame; cycle 1.
  { injection Hst as <- <- <-. simpl. eapply same_mem; [apply silent_eq; [by apply minv_drop_tmp|done..]|done|done|intros l Hl; by apply Hrdd in Hl|intros l ? Hl; by apply Hrx in Hl| |left; eexists; done].
    by intros op' p' [= <- <-]. }
  apply andb_true_iff in Esame as [Esame _]. assert (now = node) as -> by (by eapply same_eq_vok). clear Hrd.
  assert (forall l i, cur = CSlot l i -> forall o1 op1 p1 k1, ops !! o1 = Some (SRun op1 p1) -> ikey op1 = Some k1 -> onpath m l k1 -> ~ dead m l) as Hnd.
  { intros l i Ei _ _ _ _ _ _ _. pose proof (uncond_live _ _ _ _ Hm Hcv Hnc) as Hl. by rewrite Ei in Hl. }
  destruct kind as [| |result].
  - destruct Htc as (Hnl & pl' & Enew). destruct Hkd as (pl & -> & Hpl).
    pose proof (swap_new_ok pos m cur node a pl Hm Hcv Hnc Hnl Eaf) as Hs.
    change (write_cell (alloc m a (BData [pl])) cur (Sh (Some (m_next m)) false true)) with
      (swap m (Some (a, BData [pl])) cur (Sh (Some (m_next m)) false true) None) in Hst.
    assert (forall st, (forall op' p', st <> SRun op' p') -> gro (swap m (Some (a, BData [pl])) cur (Sh (Some (m_next m)) false true) None) (<[o := st]> ops)) as Hgo.
    { intros st Hst'. eapply (ins_swap _ _ _ _ _ _ k); [done|done|done|exact Hs|by right|done|done|done|by rewrite Hnl|done|done| |].
      - intros l i Ei (o1 & op1 & p1 & k1 & Ho1 & Hk1 & Hp1 & (j & u & tj & d0 & Hj & Htj & Hbj & Hkj)). left. right. exists i, j.
        assert (i <> j) as Hij. { intros ->. rewrite Ei, Hj in Hcv. congruence. }
        split; [done|]. split; [exists (Sh (Some (m_next m)) false true)|exists u].
        + split; [|simpl; eauto]. rewrite <-Ei. apply (swap_slot_cur Hm Hs).
        + split; [|eauto]. by rewrite (swap_slot_ne Hm Hs l i j).
      - intros op' p' E. by edestruct Hst'. }
    revert Hst. unfold t_finish. destruct (t_mode t); intros [= <- <- <-]; by apply Hgo.
  - destruct Htc as (nl & d0 & -> & Hb & -> & Hlen). destruct (Hfc eq_refl) as (k' & t0 & d0' & Ek' & Et0 & Hb0 & Hk0).
    simpl in Et0. injection Et0 as <-. rewrite Hb in Hb0. injection Hb0 as <-. assert (k' = k) as -> by congruence.
    pose proof (swap_split_ok pos m cur nl d0 a (bits (hashf (keyof d0)) (4 * length (cpos pos cur))) Hm Hcv Hb Eaf Hlen (bits_lt _ _)) as Hs.
    set (ob := bits (hashf (keyof d0)) (4 * length (cpos pos cur))) in *. assert (ob < 16) as Hob by apply bits_lt.
    injection Hst as <- <- <-. 
    change (write_cell (alloc m a (BInner (<[ob := Sh (Some nl) false true]> empty_slots))) cur (Sh (Some (m_next m)) false false)) with
      (swap m (Some (a, BInner (<[ob := Sh (Some nl) false true]> empty_slots))) cur (Sh (Some (m_next m)) false false) None).
    set (m1 := swap m (Some (a, BInner (<[ob := Sh (Some nl) false true]> empty_slots))) cur (Sh (Some (m_next m)) false false) None) in *.
    assert (hbody m1 (m_next m) = Some (BInner (<[ob := Sh (Some nl) false true]> empty_slots))) as Hbn.
    { unfold m1. rewrite (swap_hbody Hm Hs). by rewrite decide_True. }
    assert (fat m1 (m_next m)) as Hfat by (unfold fat; by rewrite Hbn).
    eapply (ins_swap _ _ _ _ _ _ k); [done|done|done|exact Hs|by left|done|done|done| | | | |].
    + intros _ _ _. exists (m_next m). done.
    + intros i u Hu. simpl in Hu. destruct (decide (ob = i)) as [->|Hne].
      * rewrite list_lookup_insert in Hu by (unfold empty_slots; by rewrite replicate_length). by injection Hu as <-.
      * rewrite list_lookup_insert_ne in Hu by done. by apply lookup_empty_slots in Hu as ->.
    + intros a' sl' _. fold m1. exists o, op, (TLoad t (4 * length (cpos pos cur)) cur par), k. cbn [st_of]. rewrite lookup_insert. split; [done|]. split; [done|]. split.
      * eapply (onpath_pos (swap_pos pos m (Some (a, BInner (<[ob := Sh (Some nl) false true]> empty_slots))) cur)); [apply (minv_swap Hm Hs)|exact Hbn| |].
        -- unfold m1. intros [Hd|(? & ? & ?)]%(swap_dead Hm Hs); [|done]. by apply (next_not_dead _ _ Hm).
        -- by rewrite (swap_pos_next Hm Hs).
      * exists ob, (Sh (Some nl) false true), nl, d0. split; [|split; [done|split; [|done]]].
        -- apply cval_slot. eexists. split; [exact Hbn|]. apply list_lookup_insert. unfold empty_slots; by rewrite replicate_length.
        -- by eapply ext_data; [apply (swap_ext Hm Hs)|].
    + intros l i Ei _. left. left. exists i, (Sh (Some (m_next m)) false false), (m_next m). split; [rewrite <-Ei; apply (swap_slot_cur Hm Hs)|]. done.
    + by intros op' p' [= <- <-].
  - destruct Htc as (nl' & it' & pl' & key' & _ & _ & Enew' & Hlen & _).
    destruct Hkd as (nl & it & pl & -> & Hb & -> & Hpl & Hres & Hmode). cbn [sh_loc sh_data negb] in Hst.
    injection Enew' as Enew'. rewrite <-Enew' in Hlen.
    assert (others k it ++ [pl] <> []) as Hne by (by destruct (others k it)).
    pose proof (swap_rep_ok pos m cur nl it (others k it ++ [pl]) a gs Hm Hcv Hb Eaf Hne Hlen) as Hs.
    change (retire (write_cell (alloc m a (BData (others k it ++ [pl]))) cur (Sh (Some (m_next m)) false true)) nl KData gs) with
      (swap m (Some (a, BData (others k it ++ [pl]))) cur (Sh (Some (m_next m)) false true) (Some (nl, KData, gs))) in Hst.
    set (m2 := swap m (Some (a, BData (others k it ++ [pl]))) cur (Sh (Some (m_next m)) false true) (Some (nl, KData, gs))) in *.
    assert (hbody m2 (m_next m) = Some (BData (others k it ++ [pl]))) as Hbn.
    { unfold m2. rewrite (swap_hbody Hm Hs). by rewrite decide_True. }
    assert (2 <= length it \/ (exists d0, it = [d0] /\ keqb (keyof d0) k = false) -> fat m2 (m_next m)) as Hfat.
    { intros Hit. unfold fat. rewrite Hbn, app_length. simpl. destruct Hit as [Hit|(d0 & -> & Hk)].
      - pose proof (others_length_nodup k it ltac:(by eapply se_nodup)). lia.
      - rewrite others_cons, Hk. simpl. lia. }
    assert (keqb (keyof pl) k = true) as Hplk.
    { by eapply pay_key. }
    assert (forall st, (forall op' p', st <> SRun op' p') -> gro m2 (<[o := st]> ops)) as Hgo.
    { intros st Hst'. eapply (ins_swap _ _ _ _ _ _ k); [done|done|done|exact Hs|by left|done|done| | |done|done| |].
      - intros x b g [= <- <- <-]. eauto.
      - intros x Hx Hf. exists (m_next m). split; [done|]. apply Hfat. left. simpl in Hx. injection Hx as <-. unfold fat in Hf. by rewrite Hb in Hf.
      - fold m2. intros l i Ei (o1 & op1 & p1 & k1 & Ho1 & Hk1 & Hp1 & (j & u & tj & d0 & Hj & Htj & Hbj & Hkj)).
        destruct (decide (i = j)) as [<-|Hij]; cycle 1.
        { left. right. exists i, j. split; [done|]. split; [exists (Sh (Some (m_next m)) false true)|exists u].
          + split; [|simpl; eauto]. rewrite <-Ei. apply (swap_slot_cur Hm Hs).
          + split; [|eauto]. unfold m2. by rewrite (swap_slot_ne Hm Hs l i j). }
        rewrite Ei, Hj in Hcv. injection Hcv as ->. simpl in Htj. injection Htj as <-. rewrite Hb in Hbj. injection Hbj as ->.
        assert (cval m2 (CSlot l i) = Some (Sh (Some (m_next m)) false true)) as Hc2 by (rewrite <-Ei; apply (swap_slot_cur Hm Hs)).
        destruct (keqb (keyof d0) k) eqn:Ed0; cycle 1.
        { left. left. exists i, (Sh (Some (m_next m)) false true), (m_next m). split; [done|]. split; [done|]. apply Hfat. right. by exists d0. }
        right. exists o1, op1, p1, k1.
        assert (o1 <> o) as Hno. { intros ->. rewrite Hop in Ho1. injection Ho1 as <- <-. assert (k1 = k) as -> by congruence. congruence. }
        rewrite lookup_insert_ne by done. split; [done|]. split; [done|]. 
        assert (~ dead m l) as Hdl by (pose proof (swap_cur_live Hm Hs) as Hl; by rewrite Ei in Hl).
        pose proof Hj as (sl & Hbl & _)%cval_slot. split.
        + eapply (onpath_swap Hm Hs); [exact Hbl| |done]. intros [?|(? & ? & [= E _ _])]%(swap_dead Hm Hs); [done|]. congruence.
        + exists i, (Sh (Some (m_next m)) false true), (m_next m), pl. split; [done|]. split; [done|]. split.
          * rewrite Hbn. by rewrite others_cons, Ed0.
          * rewrite <-Hkj. rewrite (keqb_sym (keyof pl)), (keqb_sym (keyof d0)). apply keqb_cong. rewrite keqb_sym in Ed0. eapply keqb_trans; [exact Hplk|exact Ed0].
      - intros op' p' E. by edestruct Hst'. }
    clearbody m2. revert Hst. unfold t_finish, panics, ok. 
    repeat case_match; intros Hst; try done; injection Hst as <- <- <-; first [by apply Hgo|by edestruct Hnf].
Qed.

(* the removal that prunes [l] *)
Lemma DD_rem l : DD ops l -> exists o1 k1 p1, ops !! o1 = Some (SRun (ORemove k1) p1) /\ rdd p1 l.
Proof.
  intros (o1 & op1 & p1 & Ho1 & Hx). destruct (Hall _ _ _ Ho1) as (_ & _ & Hps).
  assert (exists k1, op1 = ORemove k1) as [k1 ->]; [|eauto 6].
  destruct p1 as [| |kk ? ? ? ? ? ? ?|kk ? ? ? ?| | | | | | |]; simpl in Hx; try done; destruct kk; try done; simpl in Hps; destruct Hps as (? & ? & _); eauto.
Qed.
Lemma rdd_par p1 l : rdd p1 l -> exists q ch, rpar p1 = Some (q, ch) /\ sh_loc ch = Some l.
Proof. destruct p1 as [| |kk ? ? ? ? ? ? ?|kk ? ? ? ?| | | | | | |]; simpl; try done; destruct kk; try done; eauto. Qed.
Lemma par_lev o1 p1 q ch : pc_ok pos m o1 p1 -> rpar p1 = Some (q, ch) -> link_ok pos m o1 q ch /\ lev_ok pos m o1 (rlev p1) q.
Proof.
  destruct p1 as [| |kk ? ? ? ? ? ? ?|kk ? ? ? ?| | | | | | |]; simpl; try done; destruct kk; try done; intros H [= <- <-]; destruct H as (Hl & [_ Hk] & _); done.
Qed.
Lemma link_pos o1 q ch l : link_ok pos m o1 q ch -> sh_loc ch = Some l -> pos l = cpos pos q.
Proof. intros (_ & [Hp _] & _ & Hd & _) Hl. unfold ptr_ok in Hp. rewrite Hl, Hd in Hp. by destruct Hp as (? & _ & ?). Qed.
Lemma lev_unc o1 lv cu q ch : lev_ok pos m o1 lv cu -> (q, ch) ∈ lv -> sh_cond ch = false.
Proof. intros H Hin. by destruct (lev_shorter _ _ _ _ _ _ _ H Hin) as (_ & _ & ?). Qed.

Lemma rem_mark l i v D' o1 k1 p1 : cval m (CSlot l i) = Some v -> (~ dead m l -> DD ops l) ->
  ops !! o1 = Some (SRun (ORemove k1) p1) -> gfact m (DD ops) (ORemove k1) p1 -> gfact (write_cell m (CSlot l i) (recond v)) D' (ORemove k1) p1.
Proof.
  intros Hcv Hl H1. destruct (Hall _ _ _ H1) as (_ & Hpc1 & Hps1). pose proof (silent_mark pos m l i v Hm Hcv) as Hs.
  set (m1 := write_cell m (CSlot l i) (recond v)) in *.
  assert (forall q ch, (q, ch) ∈ rlev p1 \/ rpar p1 = Some (q, ch) -> sh_cond ch = false /\ (rdd p1 l -> length (cpos pos q) <= length (pos l))) as Hlv.
  { intros q ch Hin. assert (forall lv cu, lev_ok pos m o1 lv cu -> (q, ch) ∈ lv -> sh_cond ch = false) as Hlu by (intros; by eapply lev_unc). split.
    - destruct p1 as [| |kk parent child ? ? ? ? ?|kk parent child ? ?| |? ? ? cu lv|? ? ? cu lv|? lv parent child ? cnt| | |]; simpl in Hin, Hpc1;
        try (by destruct Hin as [Hin%elem_of_nil|]).
      + destruct kk; try (by destruct Hin as [Hin%elem_of_nil|]). destruct Hpc1 as ((_ & _ & ? & _) & [_ Hk] & _). destruct Hin as [Hin|[= <- <-]]; eauto.
      + destruct kk; try (by destruct Hin as [Hin%elem_of_nil|]). destruct Hpc1 as ((_ & _ & ? & _) & [_ Hk] & _). destruct Hin as [Hin|[= <- <-]]; eauto.
      + destruct Hpc1 as (_ & _ & Hk). destruct Hin as [Hin|]; [eauto|done].
      + destruct Hpc1 as (_ & _ & Hk & _). destruct Hin as [Hin|]; [eauto|done].
      + destruct Hpc1 as ((_ & _ & ? & _) & [_ Hk] & _). destruct Hin as [[[= -> ->]|Hin]%elem_of_cons|]; [done|eauto|done].
    - intros Hr. destruct (rdd_par _ _ Hr) as (q0 & ch0 & Hq0 & Hc0). destruct (par_lev _ _ _ _ Hpc1 Hq0) as [Hlk Hlev].
      rewrite (link_pos _ _ _ _ Hlk Hc0). destruct Hin as [Hin|Hin].
      + destruct (lev_shorter _ _ _ _ _ _ _ Hlev Hin). lia.
      + rewrite Hq0 in Hin. injection Hin as <- <-. done. }
  assert (forall q ch, (q, ch) ∈ rlev p1 \/ rpar p1 = Some (q, ch) -> cval m q = Some ch -> cval m1 q = Some ch) as Hkeep.
  { intros q ch Hin Hq. destruct (Hlv _ _ Hin) as [Hu Hlt]. unfold m1. rewrite cval_mark by done. rewrite decide_False; [done|]. intros ->.
    assert (~ dead m l) as Hnd. { intros Hd. by rewrite (mi_deadcond _ _ Hm _ _ _ Hd Hq) in Hu. }
    destruct (DD_rem _ (Hl Hnd)) as (o2 & k2 & p2 & H2 & Hr). assert (o2 = o1) as -> by eauto. rewrite H1 in H2. injection H2 as <- <-.
    specialize (Hlt Hr). simpl in Hlt. rewrite app_length in Hlt. simpl in Hlt. lia. }
  eapply (gfact_rem pos); [exact Hps1|..].
  - intros x. by rewrite (sl_dead _ _ _ Hs).
  - intros q ch Hin. apply Hkeep. by left.
  - intros [|x j] _; simpl; [done|]. done.
  - intros q ch Hq Hc. left. apply Hkeep; [by right|done].
  - intros x _. left. split; [intros j; by apply (nn_sil Hs)|by apply (heavy_sil Hs)].
Qed.

Lemma step_pmark kk parent child i ac cnt last new spur a m' nx acts : p = PMark kk parent child i ac cnt last new ->
  op_step gs m p spur a = Some (m', nx, acts) -> (forall f, nx <> NFail f) -> gro m' (<[o := st_of op nx]> ops).
Proof.
  intros Epc Hst Hnf. destruct (Hall _ _ _ Hop) as (Hw & Hpc & Hps). pose proof (g_ops _ _ Hg _ _ _ Hop) as Hfc. rewrite Epc in Hst, Hpc, Hps.
  destruct Hpc as (Hlk & Hk & Hi & Hlen & Hmk & Hsum). pose proof Hlk as (_ & Hvc & Hcd & Hdt & [l El]).
  destruct (vok_inner _ _ _ _ _ _ Hvc Hdt El) as (sl & Hb & Hpos & Hpr).
  assert (cok m o (CSlot l i)) as Hck by (by eapply cok_slot).
  destruct (cok_read _ _ _ _ Hm Hck) as (v & Hrd & Hcv). cbn [op_step] in Hst. rewrite El, Hrd in Hst.
  set (m1 := write_cell m (CSlot l i) (recond v)) in *. pose proof (silent_mark pos m l i v Hm Hcv) as Hs. fold m1 in Hs.
  assert (exists p', nx = NRun p' /\ m' = m1 /\ ((exists i' ac' cnt' last' new', p' = PMark kk parent child i' ac' cnt' last' new') \/ exists ins pr, p' = PCas kk parent child ins pr)) as (p' & -> & -> & Hp').
  { match goal with H : match ?x with inl _ => _ | inr _ => _ end = _ |- _ => destruct x as [f|[[ac' cnt'] last']] end.
    { injection Hst as <- <- <-. by edestruct Hnf. }
    destruct (S i <? LEVEL_CELLS).
    + injection Hst as <- <- <-. eexists. split; [done|]. split; [done|]. left. eauto 10.
    + unfold prune_decide in Hst. rewrite Hcd, Hdt in Hst. cbn [orb] in Hst. injection Hst as <- <- <-. eexists. split; [done|]. split; [done|]. right. eauto. }
  assert (forall x, rdd p' x <-> rdd p x) as Erdd by (rewrite Epc; destruct Hp' as [(?&?&?&?&?& ->)|(?&?& ->)]; by destruct kk).
  assert (forall mm x, rex mm p' x <-> rex mm p x) as Erex by (rewrite Epc; destruct Hp' as [(?&?&?&?&?& ->)|(?&?& ->)]; by destruct kk).
  assert (forall mm DD0, gfact mm DD0 op p' <-> gfact mm DD0 op p) as Efc by (rewrite Epc; destruct Hp' as [(?&?&?&?&?& ->)|(?&?& ->)]; by destruct kk).
  cbn [st_of]. clear Hst Hp'.
  assert (~ dead m l -> DD ops l) as HDl.
  { intros Hd. rewrite Epc in Hfc. destruct kk; simpl in Hfc; [by apply Hfc|done|]. exists o, op, p. split; [done|]. by rewrite Epc. }
  assert (forall x, DD ops x -> DD (<[o := SRun op p']> ops) x) as HDD.
  { intros x Hx. destruct (DD_insert _ _ _ _ (SRun op p') _ Hop Hx) as [Hr|]; [|done]. exists o, op, p'. rewrite lookup_insert. split; [done|]. by apply Erdd. }
  eapply (gro_silent Hm Hs); [exact Hg|exact Hop| | | |left; by exists p'].
  - intros x j u Hu Hc Hd. apply HDD. destruct (decide (x = l)) as [->|Hne]; [by apply HDl|].
    unfold m1 in Hu. rewrite cval_mark in Hu by done. rewrite decide_False in Hu by congruence. by eapply (g_clean _ _ Hg).
  - eapply (others_fact pos).
    + by apply minv_mark.
    + done.
    + intros x Hx _. apply HDD. exists o, op, p. done.
    + intros op' p0 [= <- <-]. apply Efc. destruct op as [p0|k0 f0|k0|k0| |] eqn:Eop.
      4:{ eapply rem_mark; try done. }
      all: eapply (gfact_ins pos m pos); [rewrite Epc; exact Hps|done|by apply minv_mark|done|intros x Hx _; by apply HDD|done].
    + intros o1 k1 p1 _ H1 Hf1. by eapply rem_mark.
  - intros x sx Hx _ _. right. exists o, op, p'. rewrite lookup_insert. split; [done|]. apply Erex. by apply (rex_sil Hs).
Qed.

(* going up *)
Lemma up_nx mm k d levels cur m' nx acts st : op = ORemove k -> lev_ok pos m o levels cur -> lvalid mm levels -> 
  rem_up mm d levels = Some (m', nx, acts) -> st = st_of op nx ->
  m' = mm /\ (forall D op' p', st = SRun op' p' -> op' = op /\ gfact mm D op' p') /\ (forall x, ownr cur x -> ER mm (<[o := st]> ops) x).
Proof.
  intros Ek Hlev Hlv Hst ->. destruct levels as [|[q ch] rest]; simpl in Hst.
  - injection Hst as <- <- <-. split; [done|]. split; [done|]. simpl in Hlev. subst cur. by intros x [? ?].
  - simpl in Hlev. destruct Hlev as (Hlk & (x & i & -> & Ex) & Hlev). unfold is_null in Hst. rewrite Ex in Hst. injection Hst as <- <- <-.
    split; [done|]. cbn [st_of]. split.
    + intros D op' p' [= <- <-]. split; [done|]. simpl. split; [done|]. exists x. split; [done|]. split; lia.
    + intros y [j [= <- <-]]. exists o, op, (RCount d rest q ch 0 0). rewrite lookup_insert. split; [done|]. done.
Qed.

Lemma step_pcas kk parent child ins pr spur a m' nx acts : p = PCas kk parent child ins pr ->
  op_step gs m p spur a = Some (m', nx, acts) -> (forall f, nx <> NFail f) -> gro m' (<[o := st_of op nx]> ops).
Proof.
  intros Epc Hst Hnf. destruct (Hall _ _ _ Hop) as (Hw & Hpc & Hps). pose proof (g_ops _ _ Hg _ _ _ Hop) as Hfc. rewrite Epc in Hst, Hpc, Hps.
  pose proof Hfc as Hfc0. rewrite Epc in Hfc.
  destruct Hpc as (Hlk & Hk & new & Hlen & Hmk & Hch). pose proof Hlk as (Hcp & Hvc & Hcd & Hdt & [l El]).
  destruct (vok_inner _ _ _ _ _ _ Hvc Hdt El) as (sl & Hb & Hpos & Hpr).
  destruct (cok_read _ _ _ _ Hm Hcp) as (now & Hrd & Hcv). cbn [op_step] in Hst. rewrite Hrd in Hst.
  pose proof (choose_outcome _ _ _ _ _ _ _ Hm Hmk El Hch) as Hoc.
  destruct (sh_same m now child) eqn:Esame; cycle 1.
  - (* somebody else has done it *)
    assert (exists mm, silent pos m mm /\ m_heap mm = m_heap m /\ m_root mm = m_root m /\ prune_return mm kk PRCasFail = Some (m', nx, acts)) as (mm & Hs & E1 & E2 & Hret).
    { destruct ins as [w|sl']; [exists m; split; [apply sil_refl|split; [done|split; [done|]]]; by destruct (addr_free m a)|].
      destruct (addr_free m a); [|done]. eexists. split; [|split; [|split; [|exact Hst]]]; [|done|done]. apply silent_eq; [by apply minv_drop_tmp|done..]. }
    clear Hst. destruct kk as [t|k h|d levels]; [|done|].
    + injection Hret as <- <- <-. cbn [st_of]. eapply same_mem; [exact Hs|done|done|rewrite Epc; by intros ? []|rewrite Epc; by intros ? ? []| |left; by eexists].
      by intros op' p' [= <- <-].
    + destruct Hfc as [Hlv Hdead]. destruct Hk as [_ Hlev]. destruct Hps as (k & Ek & _).
      assert (dead m l) as Hdl. { destruct Hdead as [Hc|(x & Hx & ?)]; [|congruence]. rewrite Hc in Hcv. injection Hcv as <-. by rewrite sh_same_refl in Esame. }
      assert (lvalid mm levels) as Hlv'. { intros q ch Hin. rewrite (cval_heap m mm) by done. by apply Hlv. }
      destruct (up_nx mm k d levels parent m' nx acts _ Ek Hlev Hlv' Hret eq_refl) as (-> & Hf & Hx).
      eapply same_mem; [exact Hs|done|done| | | |].
      * rewrite Epc. intros x Hx' Hd. simpl in Hx'. exfalso. apply Hd. congruence.
      * rewrite Epc. intros x sx Hx' _ Hd. simpl in Hx'. destruct Hx' as [Hx'|[Hx' _]]; [exfalso; apply Hd; congruence|]. right. by apply Hx.
      * intros op' p' E. by apply (Hf (DD (<[o := st_of op nx]> ops))).
      * right. intros k' x sx Hk'. by rewrite Ek in Hk'.
  - assert (now = child) as -> by (by eapply same_eq_vok).
    pose proof (uncond_live _ _ _ _ Hm Hcv Hcd) as Hlive. pose proof (mi_live _ _ Hm _ _ _ Hcv Hlive El) as Hdl.
    (* what is common to the three outcomes *)
    assert (forall na w, swap_ok pos m na parent child w (Some (l, KInner, gs)) -> 
      (forall i u, new_slots na !! i = Some u -> sh_cond u = false) ->
      (forall a sl, na = Some (a, BInner sl) -> heavy (swap m na parent w (Some (l, KInner, gs))) (m_next m)) -> 
      prune_return (swap m na parent w (Some (l, KInner, gs))) kk pr = Some (m', nx, acts) ->
      (pr = PRCopy -> forall x i, parent = CSlot x i -> heavy (swap m na parent w (Some (l, KInner, gs))) x) ->
      gro m' (<[o := st_of op nx]> ops)) as Hdo.
    { intros na w Hs Hcl Hnew Hret Hcopy. set (m1 := swap m na parent w (Some (l, KInner, gs))) in *.
      assert (dead m1 l) as Hdl1 by (apply (swap_dead Hm Hs); eauto).
      assert (forall x, dead m x -> dead m1 x) as Hdm by (intros x Hx; apply (swap_dead Hm Hs); by left).
      assert (forall q ch o1 lv, lev_ok pos m o1 lv parent -> (q, ch) ∈ lv -> cval m q = Some ch -> cval m1 q = Some ch) as Hlvk.
      { intros q ch o1 lv Hlev Hin Hq. destruct (lev_shorter _ _ _ _ _ _ _ Hlev Hin) as [Hlt _]. unfold m1. rewrite (swap_cval Hm Hs).
        rewrite decide_False by (intros ->; lia). destruct q as [|y j]; [done|]. destruct (decide (y = m_next m)) as [->|]; [|done]. simpl in Hq. by rewrite (next_fresh _ _ Hm) in Hq. }
      destruct kk as [t|k h|d levels]; [|done|].
      - (* an insert helps *)
        injection Hret as <- <- <-. cbn [st_of]. specialize (Hfc l El Hdl). destruct (DD_rem _ Hfc) as (o1 & k1 & p1 & H1 & Hr1).
        destruct (rdd_par _ _ Hr1) as (q & ch & Hq & Hch1). destruct (Hall _ _ _ H1) as (_ & Hpc1 & Hps1). destruct (par_lev _ _ _ _ Hpc1 Hq) as [Hlk1 Hlev1].
        assert (q = parent) as ->.
        { pose proof (g_ops _ _ Hg _ _ _ H1) as Hf1. assert (cval m q = Some ch) as Hqc.
          { assert (cval m q = Some ch \/ exists x, sh_loc ch = Some x /\ dead m x) as [?|(x & ? & ?)]; [|done|congruence].
            destruct p1 as [| |kk1 ? ? ? ? ? ? ?|kk1 ? ? ? ?| | | | | | |]; try done; destruct kk1; try done; simpl in Hq, Hf1; injection Hq as -> ->; by destruct Hf1. }
          eapply (mi_uniq _ _ Hm); [exact Hqc|exact Hcv| |done|done|done]. eapply uncond_live; [done|exact Hqc|apply Hlk1]. }
        assert (o1 <> o) as Hno. { intros ->. rewrite Hop in H1. injection H1 as _ ->. rewrite Epc in Hr1. done. }
        eapply (gro_swap Hm Hs); [exact Hg|exact Hop|exact Hcl| | | | | |left; by eexists].
        + intros a' sl' E. left. by eapply Hnew.
        + intros x i Ei _. right. left. exists o1, (ORemove k1), p1. rewrite lookup_insert_ne by done. split; [done|].
          destruct p1 as [| |kk1 ? ? ? ? ? ? ?|kk1 ? ? ? ?| | | | | | |]; try done; destruct kk1; try done; simpl in Hq |- *; injection Hq as -> ->; right; (split; [by exists i|eauto]).
        + eapply (others_fact (swap_pos pos m na parent)); [apply (swap_ext Hm Hs)|exact Hdm|rewrite Epc; by intros ? []|by intros op' p' [= <- <-]|].
          intros o2 k2 p2 _ H2. assert (o2 = o1) as -> by eauto. rewrite H1 in H2. injection H2 as <- <-.
          eapply (gfact_rem pos); [exact Hps1|exact Hdm| | | |].
          * intros q0 ch0 Hin. by eapply Hlvk.
          * intros c Hc. destruct p1; try done.
          * intros q0 ch0 Hq0 _. right. rewrite Hq in Hq0. injection Hq0 as <- <-. eauto.
          * intros x _. right. eauto.
        + rewrite Epc. by intros ? [].
        + rewrite Epc. by intros ? [].
      - destruct Hfc as [Hlv _]. destruct Hk as [_ Hlev]. destruct Hps as (k & Ek & _).
        assert (lvalid m1 levels) as Hlv1 by (intros q ch Hin; eapply Hlvk; [exact Hlev|done|by apply Hlv]).
        assert (m' = m1 /\ (forall D op' p', st_of op nx = SRun op' p' -> op' = op /\ gfact m1 D op' p') /\ (forall x i, parent = CSlot x i -> heavy m1 x \/ ER m1 (<[o := st_of op nx]> ops) x)) as (-> & Hf & Hx).
        { unfold prune_return in Hret. destruct pr.
          3:{ injection Hret as <- <- <-. split; [done|]. split; [done|]. intros x i Ei. left. by eapply Hcopy. }
          all: destruct (up_nx m1 k d levels parent m' nx acts _ Ek Hlev Hlv1 Hret eq_refl) as (-> & Hf & Hx); split; [done|]; split; [done|]; intros x i Ei; right; apply Hx; by exists i. }
        eapply (gro_swap Hm Hs); [exact Hg|exact Hop|exact Hcl| | | | | |].
        + intros a' sl' E. left. by eapply Hnew.
        + intros x i Ei _. destruct (Hx x i Ei); auto.
        + eapply (others_fact (swap_pos pos m na parent)); [apply (swap_ext Hm Hs)|exact Hdm| | |].
          * rewrite Epc. intros x Hx' Hd. simpl in Hx'. exfalso. apply Hd. assert (x = l) as -> by congruence. exact Hdl1.
          * intros op' p' E. by apply (Hf (DD (<[o := st_of op nx]> ops))).
          * intros o1 k1 p1 Hne H1. exfalso. apply Hne. rewrite Ek in Hop. by eapply Huniq.
        + rewrite Epc. intros x Hx' Hd. simpl in Hx'. exfalso. apply Hd. assert (x = l) as -> by congruence. exact Hdl1.
        + rewrite Epc. intros x Hx' Hd Hno. simpl in Hx'. exfalso. destruct Hx' as [Hx'|[? _]]; [|done]. apply Hd. assert (x = l) as -> by congruence. exact Hdl1.
        + right. intros k' x sx Hk'. by rewrite Ek in Hk'. }
    rewrite El in Hst. destruct Hoc as [Hall0|i leaf t p0 Hi Ht Hd Hbt Hoth|Hs1 Hs2].
    + eapply (Hdo None sh_null); [by eapply swap_null_ok|done|done| |done]. destruct (addr_free m a); exact Hst.
    + eapply (Hdo None leaf); [by eapply swap_leaf_ok|done|done| |done]. destruct (addr_free m a); exact Hst.
    + destruct (addr_free m a) eqn:Eaf; [|done].
      assert (swap_ok pos m (Some (a, BInner new)) parent child (Sh (Some (m_next m)) false false) (Some (l, KInner, gs))) as Hs by (by eapply swap_copy_ok).
      eapply (Hdo (Some (a, BInner new)) (Sh (Some (m_next m)) false false)); [done| | |exact Hst|].
      * intros i u Hu. simpl in Hu. by destruct (Hmk l i u El Hu).
      * intros a' sl' _. by eapply (copy_heavy pos m parent child l new a gs Hm El Hmk (oc_copy _ _ Hs1 Hs2)).
      * intros _ x i Ei. left. exists i, (Sh (Some (m_next m)) false false), (m_next m). split; [rewrite <-Ei; apply (swap_slot_cur Hm Hs)|]. split; [done|].
        unfold fat. rewrite (swap_hbody Hm Hs). by rewrite decide_True.
Qed.

(* the steps of a removal on the way down *)
Lemma rem_same m' st k : op = ORemove k -> (forall l, ~ rdd p l) -> (forall mm l, ~ rex mm p l) -> silent pos m m' -> m_heap m' = m_heap m -> m_root m' = m_root m ->
  (forall op' p', st = SRun op' p' -> gfact m' (DD (<[o := st]> ops)) op' p') -> gro m' (<[o := st]> ops).
Proof.
  intros Ek H1 H2 Hs E1 E2 Hf. eapply same_mem; [exact Hs|done|done| | |exact Hf|].
  - intros l Hl. by apply H1 in Hl.
  - intros l sl Hl. by apply H2 in Hl.
  - right. intros k' l sl Hk'. by rewrite Ek in Hk'.
Qed.

Lemma step_rload k h shift cur levels spur a m' nx acts : p = RLoad k h shift cur levels ->
  op_step gs m p spur a = Some (m', nx, acts) -> (forall f, nx <> NFail f) -> gro m' (<[o := st_of op nx]> ops).
Proof.
  intros Epc Hst Hnf. destruct (Hall _ _ _ Hop) as (Hw & Hpc & Hps). pose proof (g_ops _ _ Hg _ _ _ Hop) as Hfc. rewrite Epc in Hst, Hpc, Hps, Hfc.
  destruct Hpc as (Hc & -> & Hlev). destruct (cok_read _ _ _ _ Hm Hc) as (node & Hrd & Hcv). cbn [op_step] in Hst. rewrite Hrd in Hst.
  destruct Hfc as [Hlive Hlv]. destruct Hps as [Ek _].
  assert (forall l, ~ rdd p l) as Hrdd by (rewrite Epc; by intros ? []).
  assert (forall mm l, ~ rex mm p l) as Hrx by (rewrite Epc; by intros ? ? []).
  assert (forall st, (forall op' p', st = SRun op' p' -> gfact m (DD (<[o := st]> ops)) op' p') -> gro m (<[o := st]> ops)) as Hgo.
  { intros st. eapply rem_same; [exact Ek|done|done|apply sil_refl|done|done]. }
  assert (sh_cond node = false) as Ecd.
  { destruct cur as [|l i].
    - simpl in Hcv. injection Hcv as <-. apply (mi_root _ _ Hm).
    - destruct (sh_cond node) eqn:E; [|done]. exfalso. destruct (DD_rem _ (g_clean _ _ Hg _ _ _ Hcv E Hlive)) as (o1 & k1 & p1 & H1 & Hr).
      assert (o1 = o) as -> by (rewrite Ek in Hop; by eapply Huniq). rewrite Hop in H1. injection H1 as _ ->. by apply Hrdd in Hr. }
  rewrite Ecd in Hst. destruct (is_null node) eqn:Enl; [injection Hst as <- <- <-; by apply Hgo|].
  unfold is_null in Enl. destruct (sh_loc node) as [l|] eqn:El; [|done]. destruct (sh_data node) eqn:Ed.
  { destruct (load_data m node) as [f|it]; [injection Hst as <- <- <-; by edestruct Hnf|].
    destruct (find_last k 0 it None) as [[i q]|] eqn:Ef; injection Hst as <- <- <-; apply Hgo; [|done]. by intros op' p' [= <- <-]. }
  destruct (MAX_LEVELS <=? length levels) eqn:Emx; [injection Hst as <- <- <-; by edestruct Hnf|].
  destruct (HASH_BITS <=? 4 * length (cpos pos cur)) eqn:Esh; [injection Hst as <- <- <-; by edestruct Hnf|].
  injection Hst as <- <- <-. apply Hgo. intros op' p' [= <- <-]. split; [by eapply (mi_live _ _ Hm)|].
  intros q ch [[= -> ->]|Hin]%elem_of_cons; [done|by apply Hlv].
Qed.

Lemma step_rcas k h shift cur levels node new d spur a m' nx acts : p = RCas k h shift cur levels node new d ->
  op_step gs m p spur a = Some (m', nx, acts) -> (forall f, nx <> NFail f) -> gro m' (<[o := st_of op nx]> ops).
Proof.
  intros Epc Hst Hnf. destruct (Hall _ _ _ Hop) as (Hw & Hpc & Hps). pose proof (g_ops _ _ Hg _ _ _ Hop) as Hfc. rewrite Epc in Hst, Hpc, Hps, Hfc.
  destruct Hpc as (Hc & -> & Hlev & nl & it & -> & Hv & Hb & -> & Hdel & Hdl & Hdk). destruct (cok_read _ _ _ _ Hm Hc) as (now & Hrd & Hcv).
  destruct Hfc as [Hlive Hlv]. destruct Hps as [Ek _].
  assert (forall l, ~ rdd p l) as Hrdd by (rewrite Epc; by intros ? []).
  assert (forall mm l, ~ rex mm p l) as Hrx by (rewrite Epc; by intros ? ? []).
  assert (forall m1, silent pos m m1 -> m_heap m1 = m_heap m -> m_root m1 = m_root m ->
    ok m1 (NRun (RLoad k h (4 * length (cpos pos cur)) cur levels)) = Some (m', nx, acts) -> gro m' (<[o := st_of op nx]> ops)) as Hfail.
  { intros m1 Hs E1 E2 [= <- <- <-]. eapply rem_same; [exact Ek|done|done|exact Hs|done|done|]. intros op' p' [= <- <-]. split.
    - destruct cur as [|x i]; simpl in *; [done|]. by rewrite (sl_dead _ _ _ Hs).
    - intros q ch Hin. rewrite (cval_heap m m1) by done. by apply Hlv. }
  cbn [op_step] in Hst. rewrite Hrd in Hst.
  destruct (sh_same m now (Sh (Some nl) false true) && negb spur) eqn:Esame; cycle 1.
  { destruct (others k it) as [|q qs] eqn:Eo.
    - eapply (Hfail m); [apply sil_refl|done|done|]. destruct (addr_free m a); exact Hst.
    - destruct (addr_free m a) eqn:Eaf; [|done]. eapply Hfail; [| | |exact Hst]; [|done|done]. apply silent_eq; [by apply minv_drop_tmp|done..]. }
  apply andb_true_iff in Esame as [Esame _]. assert (now = Sh (Some nl) false true) as -> by (by eapply same_eq_vok).
  destruct (vok_data _ _ _ _ _ Hv eq_refl) as (tl & it' & Etl & Hb' & _ & _ & Hlen). simpl in Etl. injection Etl as <-.
  assert (it' = it) as -> by congruence.
  assert (forall na w, swap_ok pos m na cur (Sh (Some nl) false true) w (Some (nl, KData, gs)) -> (forall a sl, na <> Some (a, BInner sl)) ->
    rem_up (swap m na cur w (Some (nl, KData, gs))) d levels = Some (m', nx, acts) -> gro m' (<[o := st_of op nx]> ops)) as Hup.
  { intros na w Hs Hna Hr. set (m1 := swap m na cur w (Some (nl, KData, gs))) in *.
    assert (lvalid m1 levels) as Hlv1.
    { eapply lvalid_swap; [done|done|done|]. intros q ch Hin. by apply (lev_shorter _ _ _ _ _ _ _ Hlev Hin). }
    destruct (up_nx m1 k d levels cur m' nx acts _ Ek Hlev Hlv1 Hr eq_refl) as (-> & Hf & Hx).
    eapply (gro_swap Hm Hs); [exact Hg|exact Hop| | | | | | |].
    - intros i u Hu. destruct na as [[? [|]]|]; simpl in Hu; [naive_solver|done|done].
    - intros a' sl E. by apply Hna in E.
    - intros x i Ei _. right. left. apply Hx. by exists i.
    - eapply (others_fact (swap_pos pos m na cur)); [apply (swap_ext Hm Hs)| | | |].
      + intros x Hd. apply (swap_dead Hm Hs). by left.
      + intros x Hx'. by apply Hrdd in Hx'.
      + intros op' p' E. by apply (Hf (DD (<[o := st_of op nx]> ops))).
      + intros o1 k1 p1 Hne H1. exfalso. apply Hne. rewrite Ek in Hop. by eapply Huniq.
    - intros x Hx'. by apply Hrdd in Hx'.
    - intros x Hx'. by apply Hrx in Hx'.
    - right. intros k' x sx Hk'. by rewrite Ek in Hk'. }
  cbn [sh_data sh_loc negb] in Hst. destruct (others k it) as [|q qs] eqn:Eo.
  - eapply (Hup None); [by eapply swap_del_ok|done|]. destruct (addr_free m a); exact Hst.
  - destruct (addr_free m a) eqn:Eaf; [|done]. eapply (Hup (Some (a, BData (q :: qs)))); [|done|exact Hst].
    eapply swap_rep_ok; try done. destruct Hlen as [Hlen|]; [|by right]. left.
    pose proof (others_length k it) as Hol. rewrite Eo in *. simpl in *. lia.
Qed.

Lemma step_rcount d levels parent child i cnt spur a m' nx acts : p = RCount d levels parent child i cnt ->
  op_step gs m p spur a = Some (m', nx, acts) -> (forall f, nx <> NFail f) -> gro m' (<[o := st_of op nx]> ops).
Proof.
  intros Epc Hst Hnf. destruct (Hall _ _ _ Hop) as (Hw & Hpc & Hps). pose proof (g_ops _ _ Hg _ _ _ Hop) as Hfc. rewrite Epc in Hst, Hpc, Hps, Hfc.
  destruct Hpc as (Hlk & Hk & Hi). pose proof Hlk as (Hcp & Hvc & Hcd & Hdt & [l El]).
  destruct Hfc as (Hlv & l' & El' & H1 & H2). assert (l' = l) as -> by congruence. clear El'. destruct Hps as (k & Ek & _).
  destruct (vok_inner _ _ _ _ _ _ Hvc Hdt El) as (sl & Hb & Hpos & Hpr).
  assert (cok m o (CSlot l i)) as Hck by (by eapply cok_slot).
  destruct (cok_read _ _ _ _ Hm Hck) as (v & Hrd & Hcv). cbn [op_step] in Hst. rewrite El, Hrd in Hst.
  set (cnt' := if is_null v then cnt else S cnt) in *.
  assert ((1 <= cnt' -> exists j, j < S i /\ nn m l j) /\ (2 <= cnt' -> heavy m l)) as [H1' H2'].
  { unfold cnt'. destruct (is_null v) eqn:Enl.
    - split; [|done]. intros Hc. destruct (H1 Hc) as (j & ? & ?). exists j. split; [lia|done].
    - assert (nn m l i) as Hn by (exists v; split; [done|]; unfold is_null in Enl; by destruct (sh_loc v)).
      split; [intros _; exists i; split; [lia|done]|]. intros Hc. destruct (H1 ltac:(lia)) as (j & ? & ?). right. exists j, i. split; [lia|done]. }
  assert (forall st, (forall x, sh_loc child = Some x -> heavy m x \/ ER m (<[o := st]> ops) x) ->
    (forall op' p', st = SRun op' p' -> gfact m (DD (<[o := st]> ops)) op' p') -> gro m (<[o := st]> ops)) as Hgo.
  { intros st Hx Hf. eapply same_mem; [apply sil_refl|done|done| | |exact Hf|].
    - rewrite Epc. by intros ? [].
    - rewrite Epc. intros x sx Hx' _ _. by apply Hx.
    - right. intros k' x sx Hk'. by rewrite Ek in Hk'. }
  destruct (S i <? LEVEL_CELLS) eqn:Elt.
  { injection Hst as <- <- <-. apply Hgo.
    - intros x Hx. right. exists o, op, (RCount d levels parent child (S i) cnt'). cbn [st_of]. by rewrite lookup_insert.
    - intros op' p' [= <- <-]. split; [done|]. exists l. done. }
  destruct (1 <? cnt') eqn:Ecnt.
  { injection Hst as <- <- <-. apply Hgo; [|done]. intros x Hx. left. assert (x = l) as -> by congruence. apply H2'. by apply Nat.ltb_lt in Ecnt. }
  destruct (prune_start_ok pos m o (KUp d levels) parent child Hlk Hk) as [E Hp].
  rewrite E in Hst. injection Hst as <- <- <-. apply Hgo.
  - intros x Hx. right. eexists o, op, _. cbn [st_of]. rewrite lookup_insert. split; [done|]. by left.
  - intros op' p' [= <- <-]. split; [intros q ch Hin; apply Hlv; by right|]. left. apply Hlv. left.
Qed.

End one.

Theorem op_step_gro gs pos m o op p ops spur a m' nx acts :
  minv pos m -> o ∈ gs -> esafe gs m -> sem pos m ->
  (forall o op p, ops !! o = Some (SRun op p) -> op_wf op /\ pc_ok pos m o p /\ pc_sem pos m op p) ->
  (forall o1 k1 p1 o2 k2 p2, ops !! o1 = Some (SRun (ORemove k1) p1) -> ops !! o2 = Some (SRun (ORemove k2) p2) -> o1 = o2) ->
  gro m ops -> ops !! o = Some (SRun op p) ->
  is_reader op = false -> op_step gs m p spur a = Some (m', nx, acts) -> (forall f, nx <> NFail f) ->
  gro m' (<[o := st_of op nx]> ops).
Proof.
  intros Hm Ho He Hse Hall Huniq Hg Hop Hr Hst Hnf. destruct (Hall _ _ _ Hop) as (_ & _ & Hps).
  destruct p; try (exfalso; simpl in Hps; destruct Hps; by subst op); try (exfalso; simpl in Hps; by subst op);
    first [by eapply step_tload|by eapply step_tcas|by eapply step_pmark|by eapply step_pcas|by eapply step_rload|by eapply step_rcas|by eapply step_rcount].
Qed.
End prunestep.
