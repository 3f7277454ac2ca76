(** * The step theorem: every step of an operation either leaves the contents of the map unchanged or is the one step at which the
    operation takes effect, with exactly the effect and result of a plain map. *)
From Verif Require Import Model Mem Inv Safe SafeStep SafeOps Look LinSpec Sem.

Section semstep.
Context {C : Config} {HC : ConfigOk C}.
Implicit Types (m : mem) (pos : loc -> list nat) (c : cell) (v w : sh) (o : opid) (gs : gset opid) (k : Key) (op : oper).

Lemma pay_key op t k p : op_wf op -> t_sem op t k -> t_pay op p -> keqb (keyof p) k = true.
Proof. intros Hw. destruct op; simpl; try done; [intros [-> _] ->; apply keqb_refl|intros (-> & _) ->; done]. Qed.

(* results of a completed traversal *)
Lemma fin_insert op t k m0 m x m' nx acts :
  t_sem op t k -> t_finish m t x [] = Some (m', nx, acts) ->
  match t_mode t, x with
  | Overwrite, _ => spec_step (absm m0) op (AOpt (rr_val <$> (eon_inner <$> x))) (absm m)
  | IfMissing, Some e => spec_step (absm m0) op (AEon (eon_map rr_val e)) (absm m)
  | IfMissing, None => False
  end ->
  m' = m /\ exists r y, nx = NRet r /\ val_of r = Some y /\ spec_step (absm m0) op y (absm m).
Proof.
  intros Ht. unfold t_finish. destruct (t_mode t).
  - intros [= <- <- <-] Hs. split; [done|]. eexists _, _. split; [done|]. split; [done|]. done.
  - destruct x as [e|]; [|done]. intros [= <- <- <-] Hs. split; [done|]. eexists _, _. split; [done|]. split; [done|]. done.
Qed.

Lemma rem_up_eff pos m op k d levels m' nx acts : op = ORemove k -> keqb (keyof (rr_val d)) k = true ->
  rem_up m d levels = Some (m', nx, acts) -> m' = m /\ nx_sem pos m op nx /\
  match nx with NRun p => dn p = Some d | NRet r => r = ROpt (Some d) | NFail _ => True end.
Proof.
  intros Ho Hk. destruct levels as [|[p ch] rest]; simpl.
  - intros [= <- <- <-]. done.
  - destruct (is_null ch); intros [= <- <- <-]; [done|]. split; [done|]. split; [by exists k|done].
Qed.

Lemma prune_return_eff pos m op kk pr m' nx acts : kont_sem op kk ->
  prune_return m kk pr = Some (m', nx, acts) -> m' = m /\ nx_sem pos m op nx /\
  match kk with
  | KUp d _ => match nx with NRun p => dn p = Some d | NRet r => r = ROpt (Some d) | NFail _ => True end
  | _ => exists p, nx = NRun p /\ dn p = None /\ forall k c, hind p = Some (k, c) -> c = CRoot
  end.
Proof.
  intros Hk. destruct kk as [t|key h|d levels]; simpl in *.
  - intros [= <- <- <-]. split; [done|]. destruct Hk as [k Hk]. split; [exists k; split; [done|apply prefix_nil]|]. eexists. split; [done|]. done.
  - intros [= <- <- <-]. split; [done|]. destruct Hk as [-> ->]. split; [split; [done|]; split; [done|apply prefix_nil]|].
    eexists. split; [done|]. split; [done|]. by intros k c [= <- <-].
  - destruct Hk as (k & Ho & Hk). intros H.
    assert (rem_up m d levels = Some (m', nx, acts) \/ ok m (NRet (ROpt (Some d))) = Some (m', nx, acts)) as [H'|H'].
    { destruct pr; auto. }
    + by eapply rem_up_eff.
    + injection H' as <- <- <-. done.
Qed.

Theorem op_step_sem gs pos m o op p spur a m' nx acts :
  minv pos m -> o ∈ gs -> esafe gs m -> pc_ok pos m o p -> sem pos m -> op_wf op -> pc_sem pos m op p ->
  op_step gs m p spur a = Some (m', nx, acts) ->
  res_eff gs pos m op p m' nx.
Proof.
  intros Hm Ho He Hpc Hse Hw Hps Hst.
  destruct (op_step_ok _ _ _ _ _ _ _ _ _ _ Hm Ho He Hpc Hst) as (pos0 & Hmt0 & Hnx0).
  assert (forall m1, mtr gs pos m pos m1 -> m_heap m1 = m_heap m -> m_root m1 = m_root m -> same (absm m) (absm m1) /\ sem pos m1) as Htr.
  { intros m1 _ E1 E2. split; [intros k; by apply abs_heap|by eapply sem_heap]. }
  assert (forall c v, cok m o c -> cval m c = Some v -> vok pos m o (cpos pos c) v) as Hvok.
  { intros c v. by eapply vok_load. }
  destruct p as [t shift cur par|t shift cur par node new kind|kk parent child i ac cnt last new|kk parent child ins pr
    |k h cur|k h shift cur levels|k h shift cur levels node new d|d levels parent child i cnt| | |levels out].
  - (* TLoad *)
    destruct Hpc as (Hc & -> & Hpar). destruct Hps as (k & Ht & Hon).
    destruct (cok_read _ _ _ _ Hm Hc) as (node & Hrd & Hcv). cbn [op_step] in Hst. rewrite Hrd in Hst.
    pose proof (Hvok _ _ Hc Hcv) as Hv. destruct (t_sem_key _ _ _ Hw Ht) as [Hkey Hhash].
    assert (forall p' acts1, Some (m, NRun p', acts1) = Some (m', nx, acts) -> dn p' = None -> hind p' = None -> pc_sem pos m op p' -> res_eff gs pos m op (TLoad t (4 * length (cpos pos cur)) cur par) m' nx) as Hrun.
    { intros p' acts1 Heq Hd Hh Hn. injection Heq as <- <- <-. exists pos. split; [constructor|]. split; [done|]. split; [done|].
      unfold step_eff. rewrite Hd. simpl. split; [apply same_refl|]. intros ? ?. by rewrite Hh. }
    destruct (sh_cond node) eqn:Ecd.
    { destruct par as [[parent child]|]; simpl in Hpar.
      - destruct Hpar as [Hlk _]. destruct (prune_start_ok pos m o (KTrav t) parent child Hlk) as [E _]; [done|].
        rewrite E in Hst. eapply Hrun; [exact Hst|reflexivity|reflexivity|]. simpl. eauto.
      - subst cur. simpl in Hcv. injection Hcv as <-. by rewrite (mi_root _ _ Hm) in Ecd. }
    destruct (is_null node) eqn:Enl.
    { destruct (ts_payload (t_st t)) as [[pl st'] call] eqn:Ep. destruct (t_sem_payload _ _ _ _ _ _ Hw Ht Ep) as (Ht' & Hpl & _).
      eapply Hrun; [exact Hst|reflexivity|reflexivity|]. exists k. split; [done|]. split; [done|]. eauto. }
    destruct (sh_data node) eqn:Ed.
    { destruct (vok_data _ _ _ _ _ Hv Ed) as (tl & it & Etl & Hb & Hdr & Hld & Hlen). rewrite Hld in Hst.
      assert (node = Sh (Some tl) false true) as Enode by (destruct node; simpl in *; congruence).
      pose proof (mi_data _ _ Hm _ _ Hb) as Hne. destruct it as [|d0 it']; [done|]. set (it := d0 :: it') in *.
      destruct (negb (keqb (keyof d0) (ts_key (t_st t))) && (4 * length (cpos pos cur) <? HASH_BITS)) eqn:Ecase.
      - apply andb_true_iff in Ecase as [_ Hsh]. apply Nat.ltb_lt in Hsh. unfold HASH_BITS in Hsh.
        destruct Hlen as [Hlen|]; [|lia]. rewrite Hlen in Hst. cbn [negb Nat.eqb] in Hst.
        eapply Hrun; [exact Hst|reflexivity|reflexivity|]. exists k. done.
      - rewrite Etl in Hst. rewrite (find_ref_cong _ k _ _ Hkey) in Hst.
        assert (rr_val <$> find_ref k tl it = find_pl k it) as Hfr by apply find_ref_spec.
        assert (absm m k = find_pl k it) as Habs.
        { rewrite <-(uncond_abs pos m cur node) by done. by apply (lookc_data pos m cur node k tl). }
        assert (forall r, find_ref k tl it = r -> (t_mode t = IfMissing -> r = None) ->
          (let '(pl, st', call) := ts_payload (t_st t) in
           Some (m, NRun (TCas (t_with t st') (4 * length (cpos pos cur)) cur par node (BData (others (ts_key (t_st t)) it ++ [pl])) (TKData r)),
             match call with Some k => [ACall k] | None => [] end)) = Some (m', nx, acts) ->
          res_eff gs pos m op (TLoad t (4 * length (cpos pos cur)) cur par) m' nx) as Hcas.
        { intros r Er Hr Heq. destruct (ts_payload (t_st t)) as [[pl st'] call] eqn:Ep. destruct (t_sem_payload _ _ _ _ _ _ Hw Ht Ep) as (Ht' & Hpl & _ & Emd).
          eapply Hrun; [exact Heq|reflexivity|reflexivity|]. exists k. split; [done|]. split; [done|]. exists tl, it, pl.
          split; [done|]. split; [done|]. split; [by rewrite (others_cong _ k _ Hkey)|]. split; [done|]. rewrite <-Er. split; [done|]. rewrite Er, Emd. done. }
        destruct (find_ref k tl it) as [r|] eqn:Ef; [|eapply Hcas; [reflexivity|done|exact Hst]].
        destruct (t_mode t) eqn:Em; [eapply Hcas; [reflexivity|done|exact Hst]|].
        apply (fin_insert op t k m m) in Hst; [|done|].
        + destruct Hst as (-> & x & y & -> & Hval & Hsp). exists pos. split; [constructor|]. split; [done|]. split; [done|].
          unfold step_eff. simpl. destruct op; try done; eauto.
        + rewrite Em. destruct op; simpl in Ht; try done; [by destruct Ht as [_ ->]|]. destruct Ht as [-> _]. simpl. rewrite Habs. split; [by rewrite <-Hfr|apply same_refl]. }
    unfold is_null in Enl. destruct (sh_loc node) as [l|] eqn:El; [|done].
    destruct (vok_inner _ _ _ _ _ _ Hv Ed El) as (sl & Hb & Hpos & Hpr).
    pose proof (mi_slots _ _ Hm _ _ Hb) as [_ Hlt]. rewrite Hpos in Hlt.
    destruct (HASH_BITS <=? 4 * length (cpos pos cur)) eqn:Esh; [apply Nat.leb_le in Esh; unfold HASH_BITS in Esh; lia|].
    eapply Hrun; [exact Hst|reflexivity|reflexivity|]. exists k. split; [done|]. rewrite Hhash, nib_hash.
    by eapply (lookc_inner pos m cur node).
  - (* TCas *)
    destruct Hpc as (Hc & -> & Hpar & Hv & Hnc & Htc). destruct Hps as (k & Ht & Hon & Hkd).
    destruct (cok_read _ _ _ _ Hm Hc) as (now & Hrd & Hcv).
    cbn [op_step] in Hst. rewrite Hrd in Hst. destruct (addr_free m a) eqn:Eaf; [|done]. cbn [negb] in Hst.
    destruct (sh_same m now node && negb spur) eqn:Esm.
    2:{ injection Hst as <- <- <-. exists pos. split; [apply mtr_tmp|]. destruct (Htr (drop_tmp m new match new with BInner _ => KInner | BData _ => drop_data_kind end)) as [H1 H2]; [apply mtr_tmp|done|done|].
        split; [done|]. split; [by exists k|]. unfold step_eff. simpl. split; [exact H1|done]. }
    apply andb_true_iff in Esm as [Esm _].
    pose proof (same_eq_vok _ _ _ _ _ _ _ Hm Hcv Hnc Hv Esm) as ->. clear Esm.
    destruct kind as [| |result].
    + destruct Htc as (Hnl & pl' & Enew). destruct Hkd as (pl & -> & Hpl). 
      pose proof (swap_new_ok pos m cur node a pl Hm Hcv Hnc Hnl Eaf) as Hs.
      change (write_cell (alloc m a (BData [pl])) cur (Sh (Some (m_next m)) false true)) with
        (swap m (Some (a, BData [pl])) cur (Sh (Some (m_next m)) false true) None) in Hst.
      pose proof (pay_key _ _ _ _ Hw Ht Hpl) as Hpk.
      destruct (sw_new' pos m cur node a pl Hm Hse Hnl) as (HA & HP & HS); [by apply (onp_cong pos cur _ _ Hpk)|done|].
      apply (fin_insert op t k m) in Hst; [|done|].
      * destruct Hst as (-> & x & y & -> & Hval & Hsp). exists (swap_pos pos m (Some (a, BData [pl])) cur).
        split; [by apply (mtr_swap gs pos m _ _ _ _ _ Hs)|]. split; [done|]. split; [done|].
        unfold step_eff. simpl. destruct op; try done; eauto.
      * destruct op; simpl in Ht; try done.
        -- destruct Ht as [-> ->]. simpl in Hpl. subst pl. simpl. split; [done|exact HP].
        -- destruct Ht as (-> & -> & _). simpl in Hpl. subst pl. simpl. split; [|split; [done|exact HP]].
           rewrite <-(uncond_abs pos m cur node) by done. by eapply lookc_null.
    + destruct Htc as (nl & d0 & -> & Hb & -> & Hlen).
      pose proof (swap_split_ok pos m cur nl d0 a (bits (hashf (keyof d0)) (4 * length (cpos pos cur))) Hm Hcv Hb Eaf Hlen (bits_lt _ _)) as Hs.
      rewrite nib_hash in Hs, Hst. injection Hst as <- <- <-. eexists. split; [by apply (mtr_swap gs pos m _ _ _ _ _ Hs)|].
      split; [by apply sw_split|]. split.
      * exists k. split; [done|]. unfold onp. rewrite (swap_cpos Hm Hs). done.
      * unfold step_eff. simpl. split; [|done]. intros k'. by eapply abs_split.
    + destruct Htc as (nl' & it' & pl' & key' & _ & _ & Enew' & Hlen & _).
      destruct Hkd as (nl & it & pl & -> & Hb & -> & Hpl & Hres & Hmode). cbn [sh_loc sh_data negb] in Hst.
      injection Enew' as Enew'. rewrite <-Enew' in Hlen.
      assert (others k it ++ [pl] <> []) as Hne by (by destruct (others k it)).
      pose proof (swap_rep_ok pos m cur nl it (others k it ++ [pl]) a gs Hm Hcv Hb Eaf Hne Hlen) as Hs.
      change (retire (write_cell (alloc m a (BData (others k it ++ [pl]))) cur (Sh (Some (m_next m)) false true)) nl KData gs) with
        (swap m (Some (a, BData (others k it ++ [pl]))) cur (Sh (Some (m_next m)) false true) (Some (nl, KData, gs))) in Hst.
      assert (mtr gs pos m (swap_pos pos m (Some (a, BData (others k it ++ [pl]))) cur)
        (swap m (Some (a, BData (others k it ++ [pl]))) cur (Sh (Some (m_next m)) false true) (Some (nl, KData, gs)))) as Hmt.
      { apply (mtr_swap gs pos m _ _ _ _ _ Hs). naive_solver. }
      pose proof (pay_key _ _ _ _ Hw Ht Hpl) as Hpk.
      destruct (sw_rep pos m cur nl it k pl a gs Hm Hse Hb Hon Hpk Hs) as (HA & HP & HS).
      remember (swap m (Some (a, BData (others k it ++ [pl]))) cur (Sh (Some (m_next m)) false true) (Some (nl, KData, gs))) as m2 eqn:Em2.
      assert ((others k it ++ [pl]) !! (length (others k it ++ [pl]) - 1) = Some pl) as Hlast.
      { rewrite app_length. simpl. rewrite lookup_app_r by lia. by replace (_ - _) with 0 by lia. }
      assert (forall x, t_finish m2 t x [] = Some (m', nx, acts) ->
        match t_mode t, x with
        | Overwrite, _ => spec_step (absm m) op (AOpt (rr_val <$> (eon_inner <$> x))) (absm m2)
        | IfMissing, Some e => spec_step (absm m) op (AEon (eon_map rr_val e)) (absm m2)
        | IfMissing, None => False
        end -> res_eff gs pos m op (TCas t (4 * length (cpos pos cur)) cur par (Sh (Some nl) false true) (BData (others k it ++ [pl])) (TKData result)) m' nx) as Hfin.
      { intros x Hf Hx. apply (fin_insert op t k m) in Hf; [|done|done]. destruct Hf as (-> & r & y & -> & Hval & Hsp).
        eexists. split; [exact Hmt|]. split; [done|]. split; [done|]. unfold step_eff. simpl. destruct op; try done; eauto. }
      destruct op as [q|kq f| | | |]; simpl in Ht; try done.
      * destruct Ht as [-> ->]. simpl in Hpl. subst pl. cbn [t_mode] in *.
        assert (t_finish m2 (TLoc (TSCreated q) Overwrite (hashf (keyof q))) (Existing <$> result) [] = Some (m', nx, acts)) as Hst' by (by destruct result).
        eapply Hfin; [exact Hst'|]. simpl. split; [|exact HP]. rewrite HA, <-Hres. by destruct result.
      * destruct Ht as (-> & Hmd & _). simpl in Hpl. subst pl. rewrite Hmd in *. rewrite (Hmode eq_refl) in Hst. rewrite Hlast in Hst.
        eapply Hfin; [exact Hst|]. simpl. split; [|split; [done|exact HP]]. rewrite HA, <-Hres, (Hmode eq_refl). done.
  - (* PMark *)
    destruct Hpc as (Hlk & Hk & Hi & Hlen & Hmk & Hsum). pose proof Hlk as (_ & Hvc & Hcd & Hdt & [l El]).
    destruct (vok_inner _ _ _ _ _ _ Hvc Hdt El) as (sl & Hb & Hpos & Hpr).
    assert (cok m o (CSlot l i)) as Hck by (by eapply cok_slot).
    destruct (cok_read _ _ _ _ Hm Hck) as (v & Hrd & Hcv). cbn [op_step] in Hst. rewrite El, Hrd in Hst.
    set (m1 := write_cell m (CSlot l i) (recond v)) in *.
    assert (mtr gs pos m pos m1) as Hmt by (by apply mtr_mark).
    assert (forall p', Some (m1, NRun p', []) = Some (m', nx, acts) -> pc_sem pos m1 op p' ->
       (forall d, dn (PMark kk parent child i ac cnt last new) = Some d -> dn p' = Some d) ->
       (dn (PMark kk parent child i ac cnt last new) = None -> dn p' = None) -> hind p' = None ->
       res_eff gs pos m op (PMark kk parent child i ac cnt last new) m' nx) as Hrun.
    { intros p' Heq Hp' Hd1 Hd2 Hh. injection Heq as <- <- <-. exists pos. split; [done|]. split; [by apply sem_mark|]. split; [done|].
      assert (same (absm m) (absm m1)) as Hsame by (intros k; by apply (abs_mark pos)).
      unfold step_eff. destruct (dn (PMark kk parent child i ac cnt last new)) as [d|] eqn:Ed.
      - rewrite (Hd1 d eq_refl). done.
      - rewrite (Hd2 eq_refl). split; [done|]. intros ? ?. by rewrite Hh. }
    match goal with H : match ?x with inl _ => _ | inr _ => _ end = _ |- _ => destruct x as [f|[[ac' cnt'] last']] end.
    { injection Hst as <- <- <-. done. }
    destruct (S i <? LEVEL_CELLS).
    + eapply Hrun; [exact Hst|done|by intros d|done|done].
    + unfold prune_decide in Hst. rewrite Hcd, Hdt in Hst. cbn [orb] in Hst.
      eapply Hrun; [exact Hst|done|by intros d|done|done].
  - (* PCas *)
    destruct Hpc as (Hlk & Hk & new & Hlen & Hmk & Hch). pose proof Hlk as (Hcp & Hvc & Hcd & Hdt & [l El]).
    destruct (cok_read _ _ _ _ Hm Hcp) as (now & Hrd & Hcv). cbn [op_step] in Hst. rewrite Hrd in Hst. simpl in Hps.
    pose proof (choose_outcome _ _ _ _ _ _ _ Hm Hmk El Hch) as Hoc.
    assert (forall pos1 m1 pr', mtr gs pos m pos1 m1 -> sem pos1 m1 -> same (absm m) (absm m1) -> prune_return m1 kk pr' = Some (m', nx, acts) ->
      res_eff gs pos m op (PCas kk parent child ins pr) m' nx) as Hret.
    { intros pos1 m1 pr' Hmt Hs1 Hsame Hr. apply (prune_return_eff pos1 m1 op) in Hr as (-> & Hnx & Heff); [|done].
      exists pos1. split; [done|]. split; [done|]. split; [done|].
      unfold step_eff. destruct kk as [t|k h|d levels]; cbn [dn].
      - destruct Heff as (p' & -> & -> & Hh). split; [done|]. intros k c Hkc. left. by eapply Hh.
      - destruct Heff as (p' & -> & -> & Hh). split; [done|]. intros k' c Hkc. left. by eapply Hh.
      - destruct nx as [p'|r|f].
        + rewrite Heff. done.
        + done.
        + destruct (mtr_det _ _ _ _ _ _ Hm Hmt0 Hmt). done. }
    assert (forall na w, swap_ok pos m na parent child w (Some (l, KInner, gs)) -> 
      match ins with
      | inl x => na = None /\ w = x
      | inr sl => (exists a, na = Some (a, BInner sl)) /\ w = Sh (Some (m_next m)) false false
      end -> cval m parent = Some child ->
      prune_return (swap m na parent w (Some (l, KInner, gs))) kk pr = Some (m', nx, acts) -> res_eff gs pos m op (PCas kk parent child ins pr) m' nx) as Hret2.
    { intros na w Hs Hins Hcv' Hr. eapply Hret; [|by eapply sem_prune| |exact Hr].
      - eapply mtr_swap; [exact Hs|]. naive_solver.
      - intros k. by eapply abs_prune. }
    destruct (sh_same m now child) eqn:Esm.
    + pose proof (same_eq_vok _ _ _ _ _ _ _ Hm Hcv Hcd Hvc Esm) as ->. rewrite El in Hst.
      pose proof Hoc as Hoc'. destruct Hoc' as [Hall|i leaf t p Hi Ht Hd Hb Hoth|_ _].
      * eapply (Hret2 None sh_null); [by eapply swap_null_ok|done|done|]. destruct (addr_free m a); exact Hst.
      * eapply (Hret2 None leaf); [by eapply swap_leaf_ok|done|done|]. destruct (addr_free m a); exact Hst.
      * destruct (addr_free m a) eqn:Eaf; [|done]. eapply (Hret2 (Some (a, BInner new))); [by eapply swap_copy_ok|eauto|done|]. exact Hst.
    + destruct Hoc as [Hall|i leaf t p Hi Ht Hd Hb Hoth|_ _].
      * eapply (Hret pos m); [constructor|done|apply same_refl|]. destruct (addr_free m a); exact Hst.
      * eapply (Hret pos m); [constructor|done|apply same_refl|]. destruct (addr_free m a); exact Hst.
      * destruct (addr_free m a) eqn:Eaf; [|done]. destruct (Htr (drop_tmp m (BInner new) KInner)) as [H1 H2]; [apply mtr_tmp|done|done|].
        eapply Hret; [apply mtr_tmp|exact H2|exact H1|exact Hst].
  - (* GLoad *)
    destruct (cok_read _ _ _ _ Hm Hpc) as (node & Hrd & Hcv). cbn [op_step] in Hst. rewrite Hrd in Hst.
    pose proof (Hvok _ _ Hpc Hcv) as Hv. destruct Hps as (-> & Hon & ->).
    assert (forall x, Some (m, NRet (ROpt x), []) = Some (m', nx, acts) -> rr_val <$> x = lookc pos m cur k ->
      res_eff gs pos m (OGet k) (GLoad k (N.shiftr (hashf k) (N.of_nat (4 * length (cpos pos cur)))) cur) m' nx) as Hret.
    { intros x Heq Hx. injection Heq as <- <- <-. exists pos. split; [constructor|]. split; [done|]. split; [done|]. unfold step_eff. cbn [dn].
      eexists. split; [done|]. right. split; [done|]. exists k, cur. split; [done|]. split; [by left|]. by rewrite Hx. }
    destruct (is_null node) eqn:Enl.
    { eapply Hret; [exact Hst|]. symmetry. eapply lookc_null; [done|]. unfold is_null in Enl. by destruct (sh_loc node). }
    unfold is_null in Enl. destruct (sh_loc node) as [l|] eqn:El; [|done]. destruct (sh_data node) eqn:Ed.
    { destruct (vok_data _ _ _ _ _ Hv Ed) as (tl & it & Etl & Hb & Hdr & Hld & Hlen). rewrite Hld in Hst.
      assert (tl = l) as -> by congruence. eapply Hret; [exact Hst|]. rewrite find_ref_spec. symmetry. by eapply lookc_data. }
    destruct (lookc_inner pos m cur node k l Hm Hcv Hon El Ed) as (Hs1 & Hon1 & Hln1 & Hlk1).
    assert (N.shiftr (N.shiftr (hashf k) (N.of_nat (4 * length (cpos pos cur)))) (N.of_nat LEVEL_BITS) = N.shiftr (hashf k) (N.of_nat (4 * S (length (cpos pos cur))))) as Esh.
    { rewrite N.shiftr_shiftr. f_equal. unfold LEVEL_BITS. lia. }
    rewrite bits_shiftr, nib_hash, Esh in Hst. clear Hret. remember (4 * S (length (cpos pos cur))) as sft eqn:Esft. injection Hst as <- <- <-. exists pos. split; [constructor|]. split; [done|]. split.
    + split; [done|]. split; [done|]. by rewrite Hln1, Esft.
    + unfold step_eff. cbn [dn hind]. split; [apply same_refl|]. intros k' c [= <- <-]. right. exists cur. split; [done|]. done.
  - (* RLoad *)
    destruct Hpc as (Hc & -> & Hlev). destruct (cok_read _ _ _ _ Hm Hc) as (node & Hrd & Hcv). cbn [op_step] in Hst. rewrite Hrd in Hst.
    pose proof (Hvok _ _ Hc Hcv) as Hv. destruct Hps as (-> & -> & Hon).
    assert (Some (m, NRet (ROpt None), []) = Some (m', nx, acts) -> lookc pos m cur k = None ->
      res_eff gs pos m (ORemove k) (RLoad k (hashf k) (4 * length (cpos pos cur)) cur levels) m' nx) as Hret.
    { intros Heq Hx. injection Heq as <- <- <-. exists pos. split; [constructor|]. split; [done|]. split; [done|]. unfold step_eff. cbn [dn].
      eexists. split; [done|]. right. split; [done|]. exists k, cur. split; [done|]. split; [by right|]. by rewrite Hx. }
    destruct (is_null node) eqn:Enl.
    { eapply Hret; [exact Hst|]. eapply lookc_null; [done|]. unfold is_null in Enl. by destruct (sh_loc node). }
    destruct (sh_cond node) eqn:Ecd.
    { destruct levels as [|[parent child] rest]; simpl in Hlev.
      - subst cur. simpl in Hcv. injection Hcv as <-. by rewrite (mi_root _ _ Hm) in Ecd.
      - destruct Hlev as [Hlk _]. destruct (prune_start_ok pos m o (KRem k (hashf k)) parent child Hlk) as [E _]; [done|].
        rewrite E in Hst. injection Hst as <- <- <-. exists pos. split; [constructor|]. split; [done|]. split; [done|].
        unfold step_eff. cbn [dn hind]. split; [apply same_refl|done]. }
    unfold is_null in Enl. destruct (sh_loc node) as [l|] eqn:El; [|done]. destruct (sh_data node) eqn:Ed.
    { destruct (vok_data _ _ _ _ _ Hv Ed) as (tl & it & Etl & Hb & Hdr & Hld & Hlen). rewrite Hld in Hst.
      assert (node = Sh (Some l) false true) as Enode by (destruct node; simpl in *; congruence).
      assert (tl = l) as -> by congruence.
      destruct (find_last k 0 it None) as [[i p]|] eqn:Ef.
      - injection Hst as <- <- <-. exists pos. split; [constructor|]. split; [done|]. split.
        + split; [done|]. split; [done|]. split; [done|]. exists l, it. split; [done|]. split; [done|]. split; [done|]. simpl.
          eapply find_last_find; [|done]. by eapply se_nodup.
        + unfold step_eff. cbn [dn hind]. split; [apply same_refl|]. intros k' c [= <- <-]. right. exists cur. done.
      - eapply Hret; [exact Hst|]. erewrite lookc_data by done. apply find_pl_None. by eapply find_last_none. }
    destruct (vok_inner _ _ _ _ _ _ Hv Ed El) as (sl & Hb & Hpos & Hpr).
    pose proof (mi_slots _ _ Hm _ _ Hb) as [_ Hlt]. rewrite Hpos in Hlt.
    destruct (MAX_LEVELS <=? length levels) eqn:Emx; [injection Hst as <- <- <-; done|].
    destruct (HASH_BITS <=? 4 * length (cpos pos cur)) eqn:Esh; [apply Nat.leb_le in Esh; unfold HASH_BITS in Esh; lia|].
    destruct (lookc_inner pos m cur node k l Hm Hcv Hon El Ed) as (Hs1 & Hon1 & Hln1 & Hlk1).
    rewrite nib_hash in Hst. injection Hst as <- <- <-. exists pos. split; [constructor|]. split; [done|]. split.
    + split; [done|]. split; [done|]. done.
    + unfold step_eff. cbn [dn hind]. split; [apply same_refl|]. intros k' c [= <- <-]. right. exists cur. split; [done|]. done.
  - (* RCas *)
    destruct Hpc as (Hc & -> & Hlev & nl & it & -> & Hv & Hb & -> & Hdel & Hdl & Hdk). destruct (cok_read _ _ _ _ Hm Hc) as (now & Hrd & Hcv).
    destruct Hps as (-> & -> & Hon & nl' & it' & Enl' & Hb' & _ & Hfp). injection Enl' as <-. assert (it' = it) as -> by congruence. clear Hb'.
    cbn [op_step] in Hst. rewrite Hrd in Hst.
    assert (vok pos m o (cpos pos cur) (Sh (Some nl) false true)) as Hv' by done.
    destruct (vok_data _ _ _ _ _ Hv' eq_refl) as (tl & it' & Etl & Hb' & _ & _ & Hlen). simpl in Etl. injection Etl as <-.
    assert (it' = it) as -> by congruence.
    assert (forall na w, swap_ok pos m na cur (Sh (Some nl) false true) w (Some (nl, KData, gs)) ->
      spec_step (absm m) (ORemove k) (AOpt (Some (rr_val d))) (absm (swap m na cur w (Some (nl, KData, gs)))) ->
      sem (swap_pos pos m na cur) (swap m na cur w (Some (nl, KData, gs))) ->
      rem_up (swap m na cur w (Some (nl, KData, gs))) d levels = Some (m', nx, acts) ->
      res_eff gs pos m (ORemove k) (RCas k (hashf k) (4 * length (cpos pos cur)) cur levels (Sh (Some nl) false true) (others k it) d) m' nx) as Hfin.
    { intros na w Hs Hsp Hsem Hr.
      assert (mtr gs pos m (swap_pos pos m na cur) (swap m na cur w (Some (nl, KData, gs)))) as Hmt.
      { eapply mtr_swap; [exact Hs|]. naive_solver. }
      apply (rem_up_eff (swap_pos pos m na cur) _ (ORemove k) k) in Hr as (-> & Hnx & Hd); [|done|done].
      eexists. split; [exact Hmt|]. split; [done|]. split; [done|].
      unfold step_eff. cbn [dn]. destruct nx as [p'|r|f].
      - rewrite Hd. done.
      - subst r. eexists. split; [done|]. by left.
      - destruct (mtr_det _ _ _ _ _ _ Hm Hmt0 Hmt). done. }
    destruct (sh_same m now (Sh (Some nl) false true) && negb spur) eqn:Esm.
    + apply andb_true_iff in Esm as [Esm _]. pose proof (same_eq_vok pos m o _ cur now (Sh (Some nl) false true) Hm Hcv eq_refl Hv' Esm) as ->.
      cbn [sh_data sh_loc negb] in Hst. destruct (others k it) as [|q qs] eqn:Eo.
      * pose proof (swap_del_ok pos m cur nl it gs Hm Hcv Hb) as Hs. destruct (sw_del pos m cur nl it k (rr_val d) gs Hm Hse Hb Hon Hfp Eo Hs) as (H1 & H2 & H3).
        eapply (Hfin None); [exact Hs|by split|exact H3|]. destruct (addr_free m a); exact Hst.
      * destruct (addr_free m a) eqn:Eaf; [|done]. rewrite <-Eo in Hst, Hfin.
        assert (swap_ok pos m (Some (a, BData (others k it))) cur (Sh (Some nl) false true) (Sh (Some (m_next m)) false true) (Some (nl, KData, gs))) as Hs.
        { eapply swap_rep_ok; try done; [by rewrite Eo|]. destruct Hlen as [Hlen|]; [|by right]. left.
          pose proof (others_length k it) as Hol. rewrite Eo in *. simpl in *. lia. }
        destruct (sw_del_rep pos m cur nl it k (rr_val d) a gs Hm Hse Hb Hon Hfp Hs) as (H1 & H2 & H3).
        rewrite <-Eo. eapply (Hfin (Some (a, BData (others k it)))); [exact Hs|by split|exact H3|]. rewrite Eo in Hst |- *. exact Hst.
    + assert (forall m1, mtr gs pos m pos m1 -> m_heap m1 = m_heap m -> m_root m1 = m_root m -> 
        ok m1 (NRun (RLoad k (hashf k) (4 * length (cpos pos cur)) cur levels)) = Some (m', nx, acts) ->
        res_eff gs pos m (ORemove k) (RCas k (hashf k) (4 * length (cpos pos cur)) cur levels (Sh (Some nl) false true) (others k it) d) m' nx) as Hret.
      { intros m1 Hmt E1 E2 Heq. injection Heq as <- <- <-. destruct (Htr m1 Hmt E1 E2) as [H1 H2]. exists pos. split; [done|]. split; [done|].
        split; [done|]. unfold step_eff. cbn [dn hind]. split; [done|]. intros k' c [= <- <-]. right. exists cur. split; [done|].
        unfold lookc. assert (cval m1 cur = cval m cur) as -> by (destruct cur; simpl; [by rewrite E2|unfold hbody; by rewrite E1]).
        destruct (cval m cur); [|done]. by apply look_heap. }
      destruct (others k it) as [|q qs] eqn:Eo.
      * eapply (Hret m); [constructor|done|done|]. destruct (addr_free m a); exact Hst.
      * destruct (addr_free m a); [|done]. eapply Hret; [apply mtr_tmp|done|done|exact Hst].
  - (* RCount *)
    destruct Hpc as (Hlk & Hk & Hi). pose proof Hlk as (Hcp & Hvc & Hcd & Hdt & [l El]).
    destruct (vok_inner _ _ _ _ _ _ Hvc Hdt El) as (sl & Hb & Hpos & Hpr).
    assert (cok m o (CSlot l i)) as Hck by (by eapply cok_slot).
    destruct (cok_read _ _ _ _ Hm Hck) as (v & Hrd & Hcv). cbn [op_step] in Hst. rewrite El, Hrd in Hst.
    destruct (S i <? LEVEL_CELLS) eqn:Elt.
    { injection Hst as <- <- <-. exists pos. split; [constructor|]. split; [done|]. split; [done|]. unfold step_eff. cbn [dn]. split; [done|apply same_refl]. }
    destruct (1 <? _).
    { injection Hst as <- <- <-. exists pos. split; [constructor|]. split; [done|]. split; [done|]. unfold step_eff. cbn [dn]. split; [done|apply same_refl]. }
    destruct (prune_start_ok pos m o (KUp d levels) parent child Hlk Hk) as [E Hp].
    rewrite E in Hst. injection Hst as <- <- <-. exists pos. split; [constructor|]. split; [done|]. split; [done|]. unfold step_eff. cbn [dn]. split; [done|apply same_refl].
  - (* ELoad *) injection Hst as <- <- <-. simpl in Hps. subst op. exists pos. split; [constructor|]. split; [done|]. split; [done|].
    unfold step_eff. cbn [dn]. eexists. split; [done|]. left. simpl. split; [|apply same_refl]. intros Hn k.
    unfold absm. apply look_null. unfold is_null in Hn. by destruct (sh_loc (m_root m)).
  - (* INew *) injection Hst as <- <- <-. simpl in Hps. subst op. exists pos. split; [constructor|]. split; [done|]. split; [done|].
    unfold step_eff. cbn [dn]. split; [apply same_refl|done].
  - (* INext *)
    simpl in Hps. subst op.
    assert (forall nx1 acts1, Some (m, nx1, acts1) = Some (m', nx, acts) -> match nx1 with NRun p => exists lv out, p = INext lv out | NRet r => exists ys, r = RIter ys | NFail _ => True end ->
      res_eff gs pos m OIter (INext levels out) m' nx) as Hret.
    { intros nx1 acts1 Heq Hn. injection Heq as <- <- <-. exists pos. split; [constructor|]. split; [done|].
      destruct nx1 as [p|r|f]; [|..|done].
      - destruct Hn as (lv & ou & ->). split; [done|]. unfold step_eff. cbn [dn]. split; [apply same_refl|done].
      - split; [done|]. unfold step_eff. cbn [dn]. split; [done|]. apply same_refl. }
    cbn [op_step] in Hst. unfold ok, panics in Hst. repeat case_match; try done; (eapply Hret; [exact Hst|]); simpl; eauto.
Qed.
End semstep.
