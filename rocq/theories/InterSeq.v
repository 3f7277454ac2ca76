(** * Weakly ordered memory, when the map is handed from one call to the next: only the newest values can be read. *)
From Verif Require Import Model Mem Spec SeqSpec ProgSpec Weak WeakInv WeakStep WeakSys WeakRun LinSpec Inv Safe SafeStep SafeOps SafeSys SafeProps Look Sem SemOps LiveStep Lock LockStep Lin LinProps Iter IterSpec IterSys
  WeakCoh WeakFun WeakWrite WeakWalk WeakTime WeakIter WeakBase WeakLin WeakLag WeakLock WeakLockSys WeakFree FreeSim FreeStep FreeInv FreeRun WeakProg WeakLockRun WeakLockEnd InterSpec PropWeak PropFree InterSim InterExact.

Section hist.
Context {C : Config} {HC : ConfigOk C} (w : orders).
Implicit Types (o : opid) (op : oper) (p : pc).

Lemma nofault (x : wstate) o op p tv pv n spur a c k ord (x' : wstate) e : w_ops x !! o = Some (WOp (SRun op p) tv pv) -> access w p = Some (c, k, ord) ->
  wstep w x (WStep o n spur a) = Some (x', e) -> ~ failed x' o -> n < length (w_hist x c).
Proof.
  intros Ho Ha Hst Hf. cbn [wstep] in Hst. rewrite Ho, Ha in Hst.
  assert (forall tv pv, Some (WState (w_mem x) (w_hist x) (<[o := WOp (SFail op FUB) tv pv]> (w_ops x)), @nil event) = Some (x', e) -> n < length (w_hist x c)) as Hfl.
  { intros tv1 pv1 [= <- <-]. destruct Hf. eexists _, _, _, _. apply lookup_insert. }
  destruct (negb _); [by eapply Hfl|]. destruct (w_hist x c) as [|y h] eqn:Eh; [by eapply Hfl|].
  match type of Hst with context [match ?z with Some _ => _ | None => _ end] => change z with ((y :: h) !! n) in Hst end. destruct ((y :: h) !! n) eqn:E; [|done]. by eapply lookup_lt_Some.
Qed.

Lemma hist_wstep (x : wstate) o op p tv pv n spur a (x' : wstate) e : w_ops x !! o = Some (WOp (SRun op p) tv pv) -> wstep w x (WStep o n spur a) = Some (x', e) ->
  (forall l i y, last (w_hist x (CSlot l i)) = Some y -> l <> m_next (w_mem x)) ->
  forall c', w_hist x' c' = w_hist x c' \/ length (w_hist x' c') <= 1 \/ exists k ord y, access w p = Some (c', k, ord) /\ w_hist x' c' = w_hist x c' ++ [y].
Proof.
  intros Ho Hst Hex c'.
  assert (forall tv pv m, w_local x o op tv pv m p spur a = Some (x', e) -> w_hist x' c' = w_hist x c') as Hloc.
  { intros tv1 pv1 m H. unfold w_local in H. destruct (see_step _ _ _ _ _ _) as [[[? ?] ?]|]; [|done]. by injection H as <- _. }
  assert (forall c k ord tv pv ord1, access w p = Some (c, k, ord) -> w_hist x c <> [] -> w_write x o op tv pv c ord1 p spur a = Some (x', e) ->
    w_hist x' c' = w_hist x c' \/ length (w_hist x' c') <= 1 \/ exists k ord y, access w p = Some (c', k, ord) /\ w_hist x' c' = w_hist x c' ++ [y]) as Hwr.
  { intros c k ord tv1 pv1 ord1 Ha Hne H. unfold w_write in H. destruct (see_step _ _ _ _ _ _) as [[[m' nx] acts]|]; [|done]. injection H as <- _. cbn [w_hist]. destruct (decide (c' = c)) as [->|Hc].
    - right. right. eexists k, ord, _. split; [done|]. rewrite hist_write_eq. f_equal. destruct c as [|l i]; [done|]. simpl. destruct (last (w_hist x (CSlot l i))) as [y|] eqn:El; [|by apply last_None in El].
      rewrite decide_False; [done|]. intros [-> _]. by eapply Hex.
    - rewrite hist_write_ne by done. destruct c' as [|l i]; [by left|]. simpl. destruct (decide _); [|by left]. right. left. destruct (ptrs m' l !! i); simpl; lia. }
  cbn [wstep] in Hst. rewrite Ho in Hst. destruct (access w p) as [[[c k] ord]|] eqn:Ea; [|left; by eapply Hloc].
  destruct (negb _); [injection Hst as <- _; by left|]. destruct (w_hist x c) as [|y h] eqn:Eh; [injection Hst as <- _; by left|].
  match type of Hst with context [match ?z with Some _ => _ | None => _ end] => change z with ((y :: h) !! n) in Hst end. destruct ((y :: h) !! n) as [[v W]|] eqn:E; [|done].
  assert (w_hist x c <> []) as Hne by (by rewrite Eh). destruct k; [left; by eapply Hloc|left; by eapply Hloc|..].
  - destruct (bool_decide _); [by eapply Hwr|done].
  - destruct (bool_decide _ && _); [by eapply Hwr|]. destruct (cas_wins _ _ _); [done|left; by eapply Hloc].
Qed.
End hist.

Section seq.
Context {C : Config} {HC : ConfigOk C}.
Implicit Types (o : opid) (op : oper) (s : state) (f : fstate) (p : pc) (m : mem).

Lemma pi_cval (w : orders) M H N pos ll b ev f c v W : pinv M H N pos ll b ev f -> last (w_hist (c_w (f_c f)) c) = Some (v, W) -> cval (f_mem f) c = Some v.
Proof.
  intros [I _ _] Hl. pose proof (fi_b _ _ _ _ _ _ _ _ I) as B.
  rewrite <-bm_cval. unfold f_mem. rewrite <-(ws_mem _ _ (cs_w _ _ (fi_sim _ _ _ _ _ _ _ _ I))), <-(b_mem _ _ _ _ _ _ _ B), <-(tl_last _ _ _ _ (b_tl _ _ _ _ _ _ _ B)) by lia.
  rewrite (b_hist _ _ _ _ _ _ _ B). unfold vals. rewrite (ws_hist _ _ (cs_w _ _ (fi_sim _ _ _ _ _ _ _ _ I))), fmap_last. exact (f_equal (fmap fst) Hl).
Qed.
Lemma pi_old (w : orders) M H N pos ll b ev f l i y : pinv M H N pos ll b ev f -> last (w_hist (c_w (f_c f)) (CSlot l i)) = Some y -> l <> m_next (f_mem f).
Proof.
  intros P Hl. destruct y as [v W]. pose proof (pi_cval w _ _ _ _ _ _ _ _ _ _ _ P Hl) as Hc. unfold cval in Hc. unfold hbody in Hc. destruct (m_heap (f_mem f) !! l) as [x|] eqn:E; [|done].
  pose proof (fi_nok _ _ _ _ _ _ _ _ (pi_f _ _ _ _ _ _ _ _ P) l ltac:(by eexists)). lia.
Qed.

Lemma callers_app e1 e2 : callers (e1 ++ e2) = callers e1 ++ callers e2.
Proof. apply omap_app. Qed.
Lemma callers_in ev o : o ∈ callers ev <-> exists op, EInv o op ∈ ev.
Proof.
  unfold callers. rewrite elem_of_list_omap. split.
  - intros (e & Hin & He). destruct e; try done. injection He as ->. eauto.
  - intros [op Hin]. by eexists.
Qed.

Record seqi f (ev : list event) : Prop := {
  si_hist : forall c, length (w_hist (c_w (f_c f)) c) <= 1 \/ exists q, last (callers ev) = Some q /\ pred (length (w_hist (c_w (f_c f)) c)) <= c_fl (f_c f) q c;
  si_run : forall o op p tv pv, w_ops (c_w (f_c f)) !! o = Some (WOp (SRun op p) tv pv) -> last (callers ev) = Some o;
}.
Lemma seqi0 : seqi finit [].
Proof. split; [|intros o op p tv pv Ho; simpl in Ho; by rewrite lookup_empty in Ho]. intros [|l i]; left; simpl; lia. Qed.

Context (Hw : strong code_orders).

Lemma seqi_step lsf f ev fb f' e : wf_fcalls lsf -> fexec code_orders lsf f ev -> seqi f ev -> fstep code_orders f fb = Some (f', e) ->
  (forall o op ps ds, fb = FInv o op ps ds -> op_wf op /\ (forall o', o' ∈ callers ev -> exists r, ERet o' r ∈ ev) /\ (forall q, last (callers ev) = Some q -> q ∈ ps)) ->
  seqi f' (ev ++ e) /\ newest_at f fb.
Proof.
  intros Hwf Hx Sq Hst Hop. destruct (fexec_pinv _ _ _ _ Hw Hwf Hx) as (M & H & N & pos & ll & b & P). pose proof (pi_f _ _ _ _ _ _ _ _ P) as I. pose proof (fi_b _ _ _ _ _ _ _ _ I) as B.
  assert (fexec code_orders (lsf ++ [fb]) f' (ev ++ e)) as Hx'. { eapply frun_app; [exact Hx|]. cbn [frun]. rewrite Hst. by rewrite app_nil_r. }
  assert (wf_fcalls (lsf ++ [fb])) as Hwf'. { intros o1 op1 ps1 ds1 [Hin|Hin%elem_of_list_singleton]%elem_of_app; [by eapply Hwf|]. subst fb. by eapply (Hop o1). }
  assert (forall o, ~ failed (c_w (f_c f')) o) as Hnf. { intros o (op' & fl & tv' & pv' & Hf1). exact (proj1 (C46_no_use_after_free _ f' _ Hwf' Hx') _ _ op' fl Hf1 eq_refl). }
  assert (forall f2, f_c f2 = f_c f \/ (exists m, f_c f2 = set_mem (f_c f) m) -> seqi f2 (ev ++ [])) as Hsame.
  { intros f2 E. rewrite app_nil_r. destruct E as [E|[m E]]; (split; [intros c; rewrite E; exact (si_hist _ _ Sq c)|intros o op p tv pv; rewrite E; exact (si_run _ _ Sq o op p tv pv)]). }
  destruct fb as [o op ps ds|o n spur a|o|o|i|]; cbn [fstep] in Hst.
  - split; [|done]. destruct (_ && _ && _); [|done]. cbn [cstep wstep] in Hst. destruct (forallb (is_returned _) ps); [|done]. destruct (w_ops (c_w (f_c f)) !! o) as [x|] eqn:Ew; [done|]. injection Hst as <- <-.
    destruct (Hop o op ps ds eq_refl) as (_ & Hret & Hps).
    assert (last (callers (ev ++ [EInv o op])) = Some o) as Hlast by (rewrite callers_app; simpl; apply last_snoc).
    split; cbn [f_c c_w w_hist c_fl w_ops]; rewrite Hlast.
    + intros c. destruct (si_hist _ _ Sq c) as [Hl|(q & Hq & Hfl)]; [by left|right]. exists o. split; [done|]. rewrite decide_True by done.
      etrans; [exact Hfl|]. apply (max_list_elem_of_le (c_fl (f_c f) q c)). apply elem_of_list_fmap. exists q. split; [done|]. by apply Hps.
    + intros o' op' p tv pv. rewrite lookup_insert_Some. intros [[-> _]|[_ Ho]]; [done|]. exfalso.
      pose proof Ho as Ho2. rewrite <-(pi_ops _ _ _ _ _ _ _ _ P) in Ho2. pose proof (b_ops _ _ _ _ _ _ _ B _ _ Ho2) as Hb. cbn [w_st] in Hb.
      destruct (Hret o') as [r Hr]. { apply callers_in. exists op'. by apply Hb. }
      destruct (b_evr _ _ _ _ _ _ _ B _ _ Hr) as (op1 & tv1 & pv1 & Hr2). rewrite Hr2 in Ho2. done.
  - destruct (f_alive f o && _) eqn:Eg; [|done]. destruct (cstep code_orders (f_c f) (CStep o n spur a)) as [[c1 e1]|] eqn:Ec; [|done]. injection Hst as <- <-.
    cbn [cstep] in Ec. destruct (wstep code_orders (c_w (f_c f)) (WStep o n spur a)) as [[x1 e2]|] eqn:Ews; [|done].
    assert (exists op p tv pv, w_ops (c_w (f_c f)) !! o = Some (WOp (SRun op p) tv pv)) as (op & p & tv & pv & Ho).
    { cbn [wstep] in Ews. destruct (w_ops (c_w (f_c f)) !! o) as [[[] tv pv]|]; try done. eauto. }
    pose proof (si_run _ _ Sq _ _ _ _ _ Ho) as Hlast.
    assert (next_cell code_orders (c_w (f_c f)) o = (fun x => x.1.1) <$> access code_orders p) as En by (unfold next_cell; by rewrite Ho).
    assert (c_w c1 = x1 /\ e1 = e2) as [Ex <-] by (destruct (next_cell code_orders (c_w (f_c f)) o); [destruct (_ <? _); [done|]|]; by injection Ec as <- <-).
    assert (forall c, next_cell code_orders (c_w (f_c f)) o = Some c -> S n = length (w_hist (c_w (f_c f)) c)) as Hnew.
    { intros c Hc. rewrite Hc in Ec. destruct (Nat.ltb_spec n (c_fl (f_c f) o c)) as [|Hge]; [done|]. rewrite En in Hc. destruct (access code_orders p) as [[[c' k] ord]|] eqn:Ea; [|done]. injection Hc as ->.
      assert (n < length (w_hist (c_w (f_c f)) c)) as Hlt. { eapply nofault; [exact Ho|exact Ea|exact Ews|]. specialize (Hnf o). cbn [f_c] in Hnf. by rewrite Ex in Hnf. }
      destruct (si_hist _ _ Sq c) as [Hl|(q & Hq & Hfl)]; [lia|]. rewrite Hlast in Hq. injection Hq as <-. lia. }
    split; [|intros o1 n1 sp1 a1 c [= <- <- <- <-] Hc; by apply Hnew].
    assert (callers (ev ++ e1) = callers ev) as Ecl.
    { rewrite callers_app. enough (callers e1 = []) as -> by apply app_nil_r.
      destruct (callers e1) as [|y l] eqn:E; [done|]. exfalso. assert (y ∈ callers e1) as Hy by (rewrite E; left). apply callers_in in Hy as [opy Hy].
      assert (forall nx acts, e1 = nx_events o nx acts -> False) as Hnx.
      { intros nx acts ->. unfold nx_events in Hy. apply elem_of_app in Hy as [Hy|Hy].
        - apply elem_of_list_In, in_map_iff in Hy as (z & Hz & _). by destruct z.
        - destruct nx; [by apply elem_of_nil in Hy| |by apply elem_of_nil in Hy]. by apply elem_of_list_singleton in Hy. }
      clear E Ec Hop Hx' Hwf' Hnf. cbn [wstep] in Ews. rewrite Ho in Ews.
      assert (forall tv1 pv1 m, w_local (c_w (f_c f)) o op tv1 pv1 m p spur a = Some (x1, e1) -> False) as Hl.
      { intros tv1 pv1 m E. unfold w_local in E. destruct (see_step _ _ _ _ _ _) as [[[m' nx] acts]|]; [|done]. injection E as _ E. by eapply Hnx. }
      assert (forall tv1 pv1 c ord, w_write (c_w (f_c f)) o op tv1 pv1 c ord p spur a = Some (x1, e1) -> False) as Hwr.
      { intros tv1 pv1 c ord E. unfold w_write in E. destruct (see_step _ _ _ _ _ _) as [[[m' nx] acts]|]; [|done]. injection E as _ E. by eapply Hnx. }
      destruct (access code_orders p) as [[[c k] ord]|]; [|by eapply Hl]. destruct (negb _); [injection Ews as _ <-; by apply elem_of_nil in Hy|].
      destruct (w_hist (c_w (f_c f)) c) as [|z h]; [injection Ews as _ <-; by apply elem_of_nil in Hy|]. destruct ((z :: h) !! n) as [[v W]|]; [|done]. destruct k.
      - by eapply Hl.
      - by eapply Hl.
      - destruct (bool_decide _); [by eapply Hwr|done].
      - destruct (bool_decide _ && _); [by eapply Hwr|]. destruct (cas_wins _ _ _); [done|by eapply Hl]. }
    split; cbn [f_c]; rewrite Ecl, Ex.
    + intros c. destruct (hist_wstep code_orders _ _ _ _ _ _ _ _ _ _ _ Ho Ews (fun l i y => pi_old code_orders _ _ _ _ _ _ _ _ l i y P) c) as [Eh|[Eh|(k & ord & y & Ea & Eh)]]; [|by left|].
      * rewrite Eh. destruct (si_hist _ _ Sq c) as [Hl|(q & Hq & Hfl)]; [by left|right]. exists q. split; [done|]. rewrite Hlast in Hq. injection Hq as <-.
        destruct (next_cell code_orders (c_w (f_c f)) o) as [c2|] eqn:Enc; [|by injection Ec as <-]. destruct (n <? c_fl (f_c f) o c2); [done|]. injection Ec as <-. cbn [c_fl]. rewrite decide_True by done.
        destruct (same_cell c2 c) eqn:Es; [|done]. apply same_cell_spec in Es as ->. cbn [c_w] in Ex. rewrite Eh, Nat.ltb_irrefl. rewrite <-(Hnew c eq_refl). simpl. lia.
      * right. exists o. split; [done|]. rewrite En, Ea in Ec. cbn [fmap option_fmap option_map fst] in Ec. destruct (n <? c_fl (f_c f) o c); [done|]. injection Ec as <-. cbn [c_fl]. rewrite decide_True by done.
        assert (same_cell c c = true) as -> by (by apply same_cell_spec). rewrite Eh, app_length. simpl. destruct (Nat.ltb_spec (length (w_hist (c_w (f_c f)) c)) (length (w_hist (c_w (f_c f)) c) + 1)); lia.
    + intros o' op' p' tv' pv' Ho'. destruct (decide (o' = o)) as [->|Hne]; [done|]. apply (si_run _ _ Sq o' op' p' tv' pv'). rewrite <-Ho'. symmetry.
      assert (exists y, w_ops x1 = <[o := y]> (w_ops (c_w (f_c f)))) as [y ->]; [|by rewrite lookup_insert_ne by done].
      clear -Ews Ho. cbn [wstep] in Ews. rewrite Ho in Ews.
      assert (forall tv1 pv1 m, w_local (c_w (f_c f)) o op tv1 pv1 m p spur a = Some (x1, e1) -> exists y, w_ops x1 = <[o := y]> (w_ops (c_w (f_c f)))) as Hl.
      { intros tv1 pv1 m E. unfold w_local in E. destruct (see_step _ _ _ _ _ _) as [[[m' nx] acts]|]; [|done]. injection E as <- _. by eexists. }
      assert (forall tv1 pv1 c ord, w_write (c_w (f_c f)) o op tv1 pv1 c ord p spur a = Some (x1, e1) -> exists y, w_ops x1 = <[o := y]> (w_ops (c_w (f_c f)))) as Hwr.
      { intros tv1 pv1 c ord E. unfold w_write in E. destruct (see_step _ _ _ _ _ _) as [[[m' nx] acts]|]; [|done]. injection E as <- _. by eexists. }
      destruct (access code_orders p) as [[[c k] ord]|]; [|by eapply Hl]. destruct (negb _); [injection Ews as <- _; by eexists|].
      destruct (w_hist (c_w (f_c f)) c) as [|z h]; [injection Ews as <- _; by eexists|]. destruct ((z :: h) !! n) as [[v W]|]; [|done]. destruct k.
      * by eapply Hl.
      * by eapply Hl.
      * destruct (bool_decide _); [by eapply Hwr|done].
      * destruct (bool_decide _ && _); [by eapply Hwr|]. destruct (cas_wins _ _ _); [done|by eapply Hl].
  - split; [|done]. destruct (_ && _); [|done]. injection Hst as <- <-. apply Hsame. by left.
  - split; [|done]. destruct (_ && _); [|done]. injection Hst as <- <-. apply Hsame. by left.
  - split; [|done]. destruct (f_regs f !! i); [|done]. destruct (_ && _); [|done]. injection Hst as <- <-. apply Hsame. right. by eexists.
  - split; [|done]. destruct (_ && _); [|done]. destruct (drop_rec _ _ _); injection Hst as <- <-; apply Hsame; [right; by eexists|by left].
Qed.

Lemma seqi_run lsf f ev : wf_fcalls lsf -> fexec code_orders lsf f ev -> handed_over lsf -> seqi f ev /\ reads_newest lsf.
Proof.
  revert f ev. induction lsf as [|fb lsf IH] using rev_ind; intros f ev Hwf Hx Hh.
  { injection Hx as <- <-. split; [apply seqi0|]. intros l1 o n spur a l2 f1 e1 c E. by destruct l1. }
  destruct (frun_snoc _ _ _ _ _ _ Hx) as (f1 & e1 & e2 & Er & Es & ->).
  assert (wf_fcalls lsf) as Hwf1. { intros o op ps ds Hin. apply (Hwf o op ps ds). apply elem_of_app. by left. }
  destruct (IH f1 e1) as [S Hn]; [done|exact Er| |].
  { intros l1 o op ps ds l2 f2 e3 -> Hx2. apply (Hh l1 o op ps ds (l2 ++ [fb]) f2 e3); [|done]. by rewrite <-app_assoc. }
  destruct (seqi_step lsf f1 e1 fb f e2) as [S' Hna]; [done|exact Er|done|exact Es| |].
  { intros o op ps ds ->. split; [apply (Hwf o op ps ds); apply elem_of_app; right; by left|]. by apply (Hh lsf o op ps ds [] f1 e1). }
  split; [done|]. intros l1 o n spur a l2 f2 e3 c E Hx2 Hc. destruct l2 as [|y l2 _] using rev_ind.
  - apply app_inj_tail in E as [<- ->]. assert (f2 = f1) as -> by (unfold fexec in *; rewrite Er in Hx2; by injection Hx2 as <- _). by eapply Hna.
  - rewrite app_comm_cons, app_assoc in E. apply app_inj_tail in E as [-> ->]. by eapply Hn.
Qed.

(** The interleaving, with the states on the way. *)
Lemma exact_sim_all lsf f ev : wf_fcalls lsf -> fexec code_orders lsf f ev -> reads_newest lsf -> exists ls s, wf_calls ls /\ exec ls s ev /\ Forall2 same_move ls lsf /\ rel2 s f /\
  forall n sn, state_at ls n = Some sn -> exists fn en, fexec code_orders (take n lsf) fn en /\ rel2 sn fn.
Proof.
  revert f ev. induction lsf as [|fb lsf IH] using rev_ind; intros f ev Hwf Hx Hn.
  { injection Hx as <- <-. exists [], init. split; [intros ? ? Hin; by apply elem_of_nil in Hin|]. split; [done|]. split; [constructor|]. split; [apply rel20|].
    intros n sn. unfold state_at. rewrite !take_nil. intros [= <-]. exists finit, []. split; [done|apply rel20]. }
  destruct (frun_snoc _ _ _ _ _ _ Hx) as (f1 & e1 & e2 & Er & Es & ->).
  destruct (IH f1 e1) as (ls & s & Hwfs & Hxs & Hsm & R & Hall); [|exact Er| |].
  { intros o op ps ds Hin. apply (Hwf o op ps ds). apply elem_of_app. by left. }
  { intros l1 o n spur a l2 f2 e3 c -> Hx2 Hc. eapply (Hn l1 o n spur a (l2 ++ [fb])); [|done..]. by rewrite <-app_assoc. }
  destruct (rel2_step Hw lsf s f1 e1 fb f e2) as (lb & s' & Ef & R' & Hm); [|exact Er|exact R|exact Es|..].
  { intros o op ps ds Hin. apply (Hwf o op ps ds). apply elem_of_app. by left. }
  { intros o op ps ds ->. apply (Hwf o op ps ds). apply elem_of_app. right. by left. }
  { intros o n spur a c -> Hc. by eapply (Hn lsf o n spur a []). }
  assert (exec (ls ++ [lb]) s' (e1 ++ e2)) as Hxs'. { unfold exec in *. rewrite run_app, Hxs. cbn [run]. rewrite Ef. by rewrite app_nil_r. }
  exists (ls ++ [lb]), s'. split. { intros o op [Hin|Hin%elem_of_list_singleton]%elem_of_app; [by eapply Hwfs|]. subst lb. destruct fb; try done. destruct Hm as [<- <-]. eapply Hwf. apply elem_of_app. right. by left. }
  split; [done|]. split; [apply Forall2_app; [done|]; by constructor|]. split; [done|].
  pose proof (Forall2_length _ _ _ Hsm) as Hlen. intros n sn Hsn. destruct (Nat.le_gt_cases n (length ls)) as [Hle|Hgt].
  - rewrite take_app_le by lia. apply Hall. unfold state_at in *. by rewrite take_app_le in Hsn.
  - rewrite take_ge by (rewrite app_length; simpl; lia). unfold state_at in Hsn. rewrite take_ge in Hsn by (rewrite app_length; simpl; lia). unfold exec in Hxs'. rewrite Hxs' in Hsn. injection Hsn as <-.
    exists f, (e1 ++ e2). split; [exact Hx|exact R'].
Qed.

Lemma handed_take lsf n : handed_over lsf -> handed_over (take n lsf).
Proof.
  intros Hh l1 o op ps ds l2 f1 e1 E Hx. apply (Hh l1 o op ps ds (l2 ++ drop n lsf) f1 e1); [|done]. rewrite <-(take_drop n lsf) at 1. rewrite E. by rewrite <-app_assoc.
Qed.

Lemma handed_sequential lsf f ev : wf_fcalls lsf -> fexec code_orders lsf f ev -> handed_over lsf -> (forall o, FAbort o ∉ lsf) ->
  reads_newest lsf /\ exists ls s, wf_calls ls /\ exec ls s ev /\ sequential ls /\ Forall2 same_move ls lsf /\ rel2 s f.
Proof.
  intros Hwf Hx Hh Hab. destruct (seqi_run _ _ _ Hwf Hx Hh) as [_ Hn]. split; [done|].
  destruct (exact_sim_all _ _ _ Hwf Hx Hn) as (ls & s & Hwfs & Hxs & Hsm & R & Hall). exists ls, s. split; [done|]. split; [done|]. split; [|done]. split.
  - intros n sn o1 op1 o2 op2 Hsn [q1 H1] [q2 H2]. destruct (Hall _ _ Hsn) as (fn & en & Hxn & Rn).
    assert (wf_fcalls (take n lsf)) as Hwfn. { intros o op ps ds Hin. apply (Hwf o op ps ds). rewrite <-(take_drop n lsf). apply elem_of_app. by left. }
    destruct (seqi_run _ _ _ Hwfn Hxn (handed_take _ _ Hh)) as [Sq _].
    assert (forall o op q, s_ops sn !! o = Some (SRun op q) -> last (callers en) = Some o) as Hl.
    { intros o op q Ho. rewrite (r2_ops _ _ Rn) in Ho. unfold shown in Ho. destruct (w_ops (c_w (f_c fn)) !! o) as [[st tv pv]|] eqn:Ew; [|done]. destruct (decide _); [done|]. injection Ho as ->. by apply (si_run _ _ Sq _ _ _ _ _ Ew). }
    pose proof (Hl _ _ _ H1) as E1. rewrite (Hl _ _ _ H2) in E1. by injection E1.
  - intros o Hin. apply elem_of_list_lookup in Hin as [i Hi]. destruct (Forall2_lookup_l _ _ _ _ _ Hsm Hi) as (fb & Hfb & Hm). destruct fb; try done. simpl in Hm. subst. eapply Hab. by eapply elem_of_list_lookup_2.
Qed.
End seq.
