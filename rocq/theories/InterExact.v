(** * Weakly ordered executions that only read the newest values are interleavings: the simulation. *)
From Verif Require Import Model Mem Spec ProgSpec LinSpec Inv Safe SafeStep SafeOps SafeSys SafeProps Weak WeakInv WeakStep WeakSys WeakRun WeakCoh WeakFun WeakBase WeakLin WeakFree FreeSim FreeStep FreeInv FreeRun WeakProg InterSpec WeakLag WeakLock WeakLockSys WeakLockRun WeakLockEnd PropWeak PropFree InterSim.

Section newest.
Context {C : Config} {HC : ConfigOk C} (w : orders).
Implicit Types (o : opid) (op : oper) (p : pc).

Lemma newest_inv (x : wstate) o op p tv pv n spur a (x' : wstate) e : w_ops x !! o = Some (WOp (SRun op p) tv pv) ->
  (forall c k ord, access w p = Some (c, k, ord) -> S n = length (w_hist x c)) ->
  (forall c k ord v W, access w p = Some (c, k, ord) -> last (w_hist x c) = Some (v, W) -> write_cell (w_mem x) c v = w_mem x) ->
  wstep w x (WStep o n spur a) = Some (x', e) -> failed x' o \/ exists m' nx acts, op_step ∅ (w_mem x) p spur a = Some (m', nx, acts) /\ went x x' o op m' nx acts e.
Proof.
  intros Ho Hn Hl Hst. destruct (op_step ∅ (w_mem x) p spur a) as [[[m' nx] acts]|] eqn:Es.
  - destruct (step_newest w x o op p tv pv spur a m' nx acts Ho Es Hl) as (x1 & e1 & Hst1 & Hx1).
    assert (wstep w x (WStep o (newest_of w x p) spur a) = wstep w x (WStep o n spur a)) as E.
    { cbn [wstep]. rewrite Ho. unfold newest_of. destruct (access w p) as [[[c k] ord]|]; [|done]. specialize (Hn c k ord eq_refl). rewrite <-Hn. done. }
    rewrite E, Hst in Hst1. injection Hst1 as <- <-. destruct Hx1 as [|]; [by left|right; eauto 10].
  - left. assert (forall tv pv r, see_step tv pv (w_mem x) p spur a = Some r -> r = (w_mem x, NFail FUB, [])) as Hsee.
    { intros tv1 pv1 r. unfold see_step. rewrite Es. destruct (op_step ∅ (hide _ _ _) p spur a) as [[[? []] ?]|]; try done. destruct f; [done|]. by intros [= <-]. }
    assert (forall tv1 pv1, w_local x o op tv1 pv1 (w_mem x) p spur a = Some (x', e) -> failed x' o) as Hloc.
    { intros tv1 pv1 H. unfold w_local in H. destruct (see_step tv1 pv1 (w_mem x) p spur a) as [r|] eqn:E; [|done]. apply Hsee in E as ->. injection H as <- <-. eexists _, _, _, _. simpl. apply lookup_insert. }
    assert (forall c ord tv1 pv1, w_write x o op tv1 pv1 c ord p spur a = Some (x', e) -> failed x' o) as Hwr.
    { intros c ord tv1 pv1 H. unfold w_write in H. destruct (see_step tv1 pv1 (w_mem x) p spur a) as [r|] eqn:E; [|done]. apply Hsee in E as ->. injection H as <- <-. eexists _, _, _, _. simpl. apply lookup_insert. }
    assert (forall tv pv, Some (WState (w_mem x) (w_hist x) (<[o := WOp (SFail op FUB) tv pv]> (w_ops x)), []) = Some (x', e) -> failed x' o) as Hfl. { intros tv1 pv1 [= <- <-]. eexists _, _, _, _. apply lookup_insert. }
    cbn [wstep] in Hst. rewrite Ho in Hst. destruct (access w p) as [[[c k] ord]|] eqn:Ea; [|by eapply Hloc].
    destruct (negb _); [by eapply Hfl|]. specialize (Hn c k ord eq_refl). pose proof (fun v W => Hl c k ord v W eq_refl) as Hlc. destruct (w_hist x c) as [|y h] eqn:Eh; [done|].
    cbn [length] in Hn. injection Hn as ->. destruct (lookup_lt_is_Some_2 (y :: h) (length h) ltac:(simpl; lia)) as [[v W] Hv]. 
    match type of Hst with context [match ?z with Some _ => _ | None => _ end] => change z with ((y :: h) !! length h) in Hst end. rewrite Hv in Hst.
    rewrite last_lookup in Hlc. cbn [length pred] in Hlc. rewrite (Hlc v W Hv) in Hst. clear Hl Hlc. destruct k; [by eapply Hloc|by eapply Hloc|..].
    + destruct (bool_decide _); [by eapply Hwr|done].
    + destruct (bool_decide _ && _); [by eapply Hwr|]. destruct (cas_wins _ _ _); [done|by eapply Hloc].
Qed.
End newest.

Lemma frun_snoc {C : Config} (w : orders) s ls lb s' ev : frun w s (ls ++ [lb]) = Some (s', ev) -> exists s1 e1 e2, frun w s ls = Some (s1, e1) /\ fstep w s1 lb = Some (s', e2) /\ ev = e1 ++ e2.
Proof.
  revert s ev. induction ls as [|l ls IH]; intros s ev H; cbn [frun app] in *.
  - destruct (fstep w s lb) as [[s1 e1]|] eqn:E; [|done]. injection H as <- <-. eexists _, [], e1. split; [done|]. split; [done|]. by rewrite app_nil_r.
  - destruct (fstep w s l) as [[s1 e1]|] eqn:E; [|done]. destruct (frun w s1 (ls ++ [lb])) as [[s2 e2]|] eqn:E2; [|done]. injection H as <- <-.
    destruct (IH _ _ E2) as (s3 & e3 & e4 & -> & H2 & ->). eexists _, _, e4. split; [reflexivity|]. split; [done|]. by rewrite app_assoc.
Qed.

Section sim.
Context {C : Config} {HC : ConfigOk C}.
Implicit Types (o : opid) (op : oper) (s : state) (f : fstate) (p : pc) (m : mem).

Lemma step_core2 gs m1 m2 p spur a m2' nx acts : core m1 = core m2 -> op_step ∅ m2 p spur a = Some (m2', nx, acts) ->
  exists m1' d, op_step gs m1 p spur a = Some (m1', nx, acts) /\ core m1' = core m2' /\ m_garb m1' = ((fun g => (g.1, gs)) <$> d) ++ m_garb m1 /\ m_garb m2' = d ++ m_garb m2.
Proof.
  intros Hc H. rewrite (core_add m2), op_step_add, <-Hc in H. rewrite (core_add m1), op_step_add. change (core m1) with (tagm gs (core m1)). rewrite op_step_tag.
  destruct (op_step ∅ (core m1) p spur a) as [[[k' nx'] acts']|]; [|done]. cbn [rmap amap] in *. injection H as <- <- <-. eexists _, (m_garb k'). done.
Qed.


Lemma fnewest_inv M H N pos ll b ev f o op p tv pv n spur a f' e : pinv M H N pos ll b ev f -> w_ops (c_w (f_c f)) !! o = Some (WOp (SRun op p) tv pv) ->
  newest_at f (FStep o n spur a) -> fstep code_orders f (FStep o n spur a) = Some (f', e) ->
  failed (c_w (f_c f')) o \/ exists m' nx acts d, op_step ∅ (f_mem f) p spur a = Some (m', nx, acts) /\ m_garb m' = d ++ m_garb (f_mem f) /\
     e = nx_events o nx acts /\ core (f_mem f') = core m' /\ (exists tv' pv', w_ops (c_w (f_c f')) = <[o := WOp (nx_stat op nx) tv' pv']> (w_ops (c_w (f_c f)))) /\
     (exists gs, f_regs f' = f_regs f ++ gs /\ (fun g => (g_loc g, g_kind g)) <$> gs = d.*1) /\
     f_sync f' = f_sync f /\ f_done f' = f_done f /\ f_gone f' = f_gone f /\ f_dropped f' = f_dropped f /\ f_ub f' = f_ub f.
Proof.
  intros P Ho Hn Hst. cbn [fstep] in Hst. destruct (f_alive f o && _) eqn:Eg; [|done]. apply andb_true_iff in Eg as [Hal _].
  destruct (cstep code_orders (f_c f) (CStep o n spur a)) as [[c' e']|] eqn:Ec; [|done]. injection Hst as <- <-.
  assert (exists fl, wstep code_orders (c_w (f_c f)) (WStep o n spur a) = Some (c_w c', e') /\ c' = CState (c_w c') fl) as (fl & Ew & _).
  { cbn [cstep] in Ec. destruct (wstep code_orders (c_w (f_c f)) (WStep o n spur a)) as [[x1 e1]|]; [|done]. destruct (next_cell code_orders (c_w (f_c f)) o); [destruct (_ <? _); [done|]|]; injection Ec as <- <-; by eexists. }
  assert (forall c k ord, access code_orders p = Some (c, k, ord) -> S n = length (w_hist (c_w (f_c f)) c)) as Hn'.
  { intros c k ord Ea. eapply Hn; [done|]. unfold next_cell. by rewrite Ho, Ea. }
  destruct (newest_inv code_orders (c_w (f_c f)) o op p tv pv n spur a (c_w c') e' Ho Hn') as [Hf|(m' & nx & acts & Hs & -> & Hm & Hops)]; [|exact Ew|by left|].
  { intros c k ord v W _ Hl. by eapply pi_newest. }
  right. destruct (step_core2 ∅ (f_mem f) (f_mem f) p spur a m' nx acts eq_refl Hs) as (_ & d & _ & _ & _ & Hd). exists m', nx, acts, d. split; [exact Hs|]. split; [done|].
  cbn [f_c c_w f_regs f_sync f_done f_gone f_dropped f_ub]. split; [done|]. split. { unfold f_mem. cbn [f_c]. destruct Hm as [E|(E1 & E2 & _)]; [by rewrite E|by rewrite E1, E2]. } split; [done|]. split; [|done].
  eexists. split; [reflexivity|]. unfold new_regs. rewrite <-list_fmap_compose. destruct Hm as [Em|(Em & _ & E)]; rewrite Em.
  - rewrite Hd, app_length, Nat.add_sub, take_app. apply list_fmap_ext. intros i y Hy. by destruct y as [[? ?] ?].
  - assert (d = []) as ->. { rewrite Hd in E. apply (f_equal length) in E. rewrite app_length in E. destruct d; [done|]. simpl in E. unfold f_mem in E. lia. }
    by rewrite Nat.sub_diag.
Qed.

Definition as_reg2 f (g : loc * dkind * gset opid) (i : nat) : Prop :=
  i ∉ f_done f /\ (exists r, f_regs f !! i = Some r /\ g.1 = (g_loc r, g_kind r)) /\ (forall o, f_alive f o = true -> i ∈ f_sync f o -> o ∉ g.2) /\ forall o, o ∈ g.2 -> is_Some (w_ops (c_w (f_c f)) !! o).
Record rel2 s f : Prop := {
  r2_core : core (s_mem s) = core (f_mem f);
  r2_ops : forall o, s_ops s !! o = shown f o;
  r2_gone : forall o, o ∈ f_gone f -> is_Some (w_ops (c_w (f_c f)) !! o);
  r2_st : forall o x, w_ops (c_w (f_c f)) !! o = Some x -> w_st x <> SGone;
  r2_drop : s_dropped s = f_dropped f;
  r2_ub : s_ub s = f_ub f;
  r2_garb : exists is, NoDup is /\ Forall2 (as_reg2 f) (m_garb (s_mem s)) is /\ forall i, i < length (f_regs f) -> i ∉ f_done f -> i ∈ is;
}.
Lemma rel20 : rel2 init finit.
Proof. constructor; try done. exists []. split; [constructor|]. split; [constructor|]. simpl. lia. Qed.

Lemma alive_shown2 s f o : rel2 s f -> f_alive f o = true <-> o ∈ guards s.
Proof.
  intros R. rewrite elem_of_guards, (r2_ops _ _ R). unfold f_alive, shown. rewrite bool_decide_eq_true. split.
  - intros [[x Hx] Hg]. rewrite Hx, decide_False by done. eexists. split; [done|]. destruct (w_st x) eqn:E; try done. by destruct (r2_st _ _ R _ _ Hx).
  - intros (st & Hst & Ha). destruct (w_ops (c_w (f_c f)) !! o) as [x|]; [|done]. split; [eauto|]. intros Hg. rewrite decide_True in Hst by done. by injection Hst as <-.
Qed.
Lemma rel2_gone s f o x : rel2 s f -> w_ops (c_w (f_c f)) !! o = Some x -> rel2 (set_op s o SGone) (FState (f_c f) (f_regs f) (f_sync f) (f_done f) ({[o]} ∪ f_gone f) (f_dropped f) (f_ub f)).
Proof.
  intros R Hx. constructor; cbn [set_op s_mem s_ops s_dropped s_ub f_c c_w w_ops f_gone f_dropped f_ub f_done f_regs]; try apply R.
  - intros o'. unfold shown. cbn [f_c c_w w_ops f_gone]. destruct (decide (o' = o)) as [->|Hne].
    + rewrite lookup_insert, Hx, decide_True by set_solver. done.
    + rewrite lookup_insert_ne by done. rewrite (r2_ops _ _ R). unfold shown. destruct (w_ops (c_w (f_c f)) !! o'); [|done]. destruct (decide (o' ∈ f_gone f)); [by rewrite decide_True by set_solver|by rewrite decide_False by set_solver].
  - intros o' [->%elem_of_singleton|Hg]%elem_of_union; [by eexists|by apply R].
  - destruct (r2_garb _ _ R) as (is & Hnd & Hf & Hcov). exists is. split; [done|]. split; [|done]. eapply Forall2_impl; [exact Hf|]. intros g i (H1 & H2 & H3 & H4). split; [done|]. split; [done|]. split; [|done].
    intros o' Ha. apply H3. unfold f_alive in *. cbn [f_c c_w w_ops f_gone] in Ha. apply bool_decide_eq_true in Ha as [? ?]. apply bool_decide_eq_true. split; [done|set_solver].
Qed.

Context (Hw : strong code_orders).

Lemma rel2_step lsf s f ev fb f' e : wf_fcalls lsf -> fexec code_orders lsf f ev -> rel2 s f -> fstep code_orders f fb = Some (f', e) -> (forall o op ps ds, fb = FInv o op ps ds -> op_wf op) -> newest_at f fb ->
  exists lb s', step s lb = Some (s', e) /\ rel2 s' f' /\ same_move lb fb.
Proof.
  intros Hwf Hx R Hst Hop Hn. destruct (fexec_pinv _ _ _ _ Hw Hwf Hx) as (M & H & N & pos & ll & b & P).
  assert (forall o x, w_ops (c_w (f_c f)) !! o = Some x -> o ∉ f_gone f -> s_ops s !! o = Some (w_st x)) as Hsh. { intros o x Hx1 Hg. rewrite (r2_ops _ _ R). unfold shown. by rewrite Hx1, decide_False by done. }
  destruct fb as [o op ps ds|o n spur a|o|o|i|]; cbn [fstep] in Hst.
  - destruct (negb (f_dropped f) && _ && _) eqn:Eb; [|done]. apply andb_true_iff in Eb as [[Ed Eds]%andb_true_iff _]. cbn [cstep wstep] in Hst. destruct (forallb (is_returned _) ps); [|done].
    destruct (w_ops (c_w (f_c f)) !! o) as [x|] eqn:Ew; [done|]. injection Hst as <- <-. exists (LInv o op), (set_op s o (SRun op (op_init op))). cbn [step].
    assert (s_ops s !! o = None) as -> by (rewrite (r2_ops _ _ R); unfold shown; by rewrite Ew). rewrite (r2_drop _ _ R). destruct (f_dropped f) eqn:Ed'; [done|]. split; [done|]. split; [|done].
    assert (o ∉ f_gone f) as Hog. { intros Hg. apply (r2_gone _ _ R) in Hg as [? ?]. congruence. }
    constructor; cbn [set_op s_mem s_ops s_dropped s_ub f_c c_w w_ops f_gone f_dropped f_ub f_done f_regs].
    + apply R.
    + intros o'. unfold shown. cbn [f_c c_w w_ops f_gone]. destruct (decide (o' = o)) as [->|Hne]; [rewrite !lookup_insert; by rewrite decide_False by done|]. rewrite !lookup_insert_ne by done. apply (r2_ops _ _ R).
    + intros o' Hg. rewrite lookup_insert_ne by (intros ->; done). by apply R.
    + intros o' x. rewrite lookup_insert_Some. intros [[<- <-]|[_ Hx']]; [done|]. by eapply R.
    + by rewrite (r2_drop _ _ R).
    + apply R.
    + destruct (r2_garb _ _ R) as (is & Hnd & Hf & Hcov). exists is. split; [done|]. split; [|done]. eapply Forall2_impl; [exact Hf|]. intros g i (H1 & H2 & H3 & H4). split; [done|]. split; [done|]. cbn [f_c c_w w_ops]. split.
      * intros o' Ha. cbn [f_sync]. destruct (decide (o' = o)) as [->|Hne].
        -- intros _ Hin. apply H4 in Hin as [? ?]. congruence.
        -- apply H3. unfold f_alive in *. cbn [f_c c_w w_ops f_gone] in Ha. rewrite lookup_insert_ne in Ha by done. done.
      * intros o' Hin. destruct (decide (o' = o)) as [->|Hne]; [by rewrite lookup_insert|rewrite lookup_insert_ne by done; by apply H4].
  - assert (f_alive f o = true) as Hal by (by destruct (f_alive f o)). pose proof Hal as Hal2. unfold f_alive in Hal2. apply bool_decide_eq_true in Hal2 as [[[st tv pv] Ew] Hog].
    assert (exists op p, st = SRun op p) as (op & p & ->).
    { destruct (_ && _); [|done]. cbn [cstep wstep] in Hst. rewrite Ew in Hst. destruct st; try done. eauto. }
    destruct (fnewest_inv _ _ _ _ _ _ _ _ _ _ _ _ _ _ _ _ _ _ P Ew Hn Hst) as [(op' & fl & tv' & pv' & Hf)|(m' & nx & acts & d & Es & Hg2 & -> & Hcm & (tv' & pv' & Hops) & (gs & Hr & Hgs) & F1 & F2 & F3 & F4 & F5)].
    { exfalso. refine (proj1 (C46_no_use_after_free (lsf ++ [FStep o n spur a]) f' (ev ++ e) _ _) _ _ op' fl Hf eq_refl).
      - intros o1 op1 ps1 ds1 [Hin|Hin%elem_of_list_singleton]%elem_of_app; [by eapply Hwf|done].
      - eapply frun_app; [exact Hx|]. cbn [frun]. cbn [fstep]. rewrite Hst. by rewrite app_nil_r. }
    destruct (step_core2 (guards s) (s_mem s) (f_mem f) p spur a m' nx acts (r2_core _ _ R) Es) as (m1 & d1 & Es1 & Hc & Hg1 & Hd1).
    assert (d1 = d) as -> by (rewrite Hg2 in Hd1; by apply app_inv_tail in Hd1).
    exists (LStep o spur a). cbn [step]. rewrite (Hsh _ _ Ew Hog). cbn [w_st]. rewrite Es1. eexists. split; [reflexivity|]. split; [|done].
    constructor; cbn [s_mem s_ops s_dropped s_ub].
    + by rewrite Hcm, Hc.
    + intros o'. unfold shown. rewrite Hops, F3. destruct (decide (o' = o)) as [->|Hne]; [rewrite !lookup_insert; by rewrite decide_False by done|]. rewrite !lookup_insert_ne by done. apply (r2_ops _ _ R).
    + intros o'. rewrite F3, Hops. intros Hg. rewrite lookup_insert_ne by (intros ->; done). by apply R.
    + intros o' x. rewrite Hops, lookup_insert_Some. intros [[<- <-]|[_ Hx']]; [by destruct nx|]. by eapply R.
    + rewrite F4. apply R.
    + rewrite F5. apply R.
    + pose proof (pi_f _ _ _ _ _ _ _ _ P) as I.
      assert (length gs = length d) as Hlen by (apply (f_equal length) in Hgs; by rewrite !fmap_length in Hgs).
      assert (forall o', f_alive f' o' = f_alive f o') as Hae.
      { intros o'. unfold f_alive. rewrite Hops, F3. apply bool_decide_ext. destruct (decide (o' = o)) as [->|Hne]; [rewrite lookup_insert, Ew|by rewrite lookup_insert_ne by done]. split; intros [_ ?]; (split; [by eexists|done]). }
      assert (forall o', is_Some (w_ops (c_w (f_c f)) !! o') -> is_Some (w_ops (c_w (f_c f')) !! o')) as Hsome.
      { intros o' Hs. rewrite Hops. destruct (decide (o' = o)) as [->|Hne]; [by rewrite lookup_insert|by rewrite lookup_insert_ne by done]. }
      destruct (r2_garb _ _ R) as (is & Hnd & Hf & Hcov). exists (seq (length (f_regs f)) (length d) ++ is). split.
      { apply NoDup_app. split; [apply NoDup_ListNoDup, seq_NoDup|]. split; [|done]. intros i Hi Hi2. apply elem_of_seq in Hi. apply elem_of_list_lookup in Hi2 as [j Hj].
        destruct (Forall2_lookup_r _ _ _ _ _ Hf Hj) as (g & _ & _ & (r & Hr' & _) & _). apply lookup_lt_Some in Hr'. lia. }
      split.
      * rewrite Hg1. apply Forall2_app.
        -- apply Forall2_same_length_lookup_2; [by rewrite fmap_length, seq_length|]. intros j g i Hg Hi. rewrite list_lookup_fmap in Hg. destruct (d !! j) as [g0|] eqn:Eg; [|done]. injection Hg as <-. apply lookup_seq in Hi as [-> Hj].
           split. { rewrite F2. intros Hi. pose proof (fi_ds _ _ _ _ _ _ _ _ I _ Hi). lia. } split; [|split].
           ++ rewrite Hr. assert (((fun g => (g_loc g, g_kind g)) <$> gs) !! j = Some g0.1) as Hgj by (rewrite Hgs, list_lookup_fmap, Eg; done). rewrite list_lookup_fmap in Hgj. destruct (gs !! j) as [r|] eqn:Er; [|done]. exists r.
              split; [rewrite lookup_app_r by lia; replace (length (f_regs f) + j - length (f_regs f)) with j by lia; done|]. cbn [fst]. by injection Hgj as <-.
           ++ intros o' Ha Hi. exfalso. rewrite Hae in Ha. rewrite F1 in Hi. unfold f_alive in Ha. apply bool_decide_eq_true in Ha as [[y Hy] Hgo]. destruct (fi_alive _ _ _ _ _ _ _ _ I _ _ Hy Hgo) as (_ & _ & Hlt & _). specialize (Hlt _ Hi). lia.
           ++ cbn [snd]. intros o' Hin. apply Hsome. apply (alive_shown2 s f o' R) in Hin. unfold f_alive in Hin. by apply bool_decide_eq_true in Hin as [? _].
        -- eapply Forall2_impl; [exact Hf|]. intros g i (H1 & (r & Hr' & H2) & H3 & H4). split; [by rewrite F2|]. split; [exists r; split; [rewrite Hr; by apply lookup_app_l_Some|exact H2]|]. split; [|intros o' Hin; by apply Hsome, H4].
           intros o' Ha. rewrite F1. apply H3. by rewrite <-Hae.
      * intros i Hi Hd. rewrite Hr, app_length, Hlen in Hi. rewrite F2 in Hd. apply elem_of_app. destruct (decide (i < length (f_regs f))); [right; by apply Hcov|left]. apply elem_of_seq. lia.
  - destruct (f_alive f o) eqn:Hal; [|done]. unfold f_alive in Hal. apply bool_decide_eq_true in Hal as [[[st tv pv] Ew] Hog]. unfold is_returned in Hst. rewrite Ew in Hst. destruct st as [|op r| |]; try done. cbn [andb] in Hst. injection Hst as <- <-.
    exists (LUnpin o), (set_op s o SGone). cbn [step]. rewrite (Hsh _ _ Ew Hog). split; [done|]. split; [|done]. by eapply rel2_gone.
  - destruct (f_alive f o) eqn:Hal; [|done]. unfold f_alive in Hal. apply bool_decide_eq_true in Hal as [[[st tv pv] Ew] Hog]. unfold is_returned in Hst. rewrite Ew in Hst. destruct st as [op p|op r|op fl|]; try done.
    + cbn [andb negb] in Hst. injection Hst as <- <-. exists (LAbort o), (set_op s o SGone). cbn [step]. rewrite (Hsh _ _ Ew Hog). split; [done|]. split; [|done]. by eapply rel2_gone.
    + exfalso. exact (proj1 (C46_no_use_after_free lsf f ev Hwf Hx) _ _ op fl Ew eq_refl).
    + by destruct (r2_st _ _ R _ _ Ew).
  - destruct (f_regs f !! i) as [r|] eqn:Hr; [|done]. destruct (bool_decide (i ∉ f_done f) && _) eqn:Eb; [|done]. apply andb_true_iff in Eb as [Hd Hall]. apply bool_decide_eq_true in Hd. injection Hst as <- <-.
    destruct (r2_garb _ _ R) as (is & Hnd & Hf & Hcov). assert (i ∈ is) as Hin by (apply Hcov; [by apply lookup_lt_Some in Hr|done]). apply elem_of_list_lookup in Hin as [n Hi].
    destruct (Forall2_lookup_r _ _ _ _ _ Hf Hi) as ([[l k] gs] & Eg & H1 & (r' & Hr' & H2) & H3 & H4). rewrite Hr in Hr'. injection Hr' as <-. cbn [fst snd] in *. injection H2 as -> ->.
    exists (LFree n). cbn [step]. rewrite Eg. rewrite bool_decide_eq_true_2.
    2:{ apply set_eq. intros o'. rewrite elem_of_intersection. split; [|set_solver]. intros [Hg Ha]. exfalso. apply (alive_shown2 s f o' R) in Ha. apply (H3 o' Ha); [|done].
        pose proof Ha as Ha2. unfold f_alive in Ha2. apply bool_decide_eq_true in Ha2 as [[y Hy] Hgo]. pose proof (all_alive_spec _ _ Hall o' y Hy Hgo) as Hb. by apply bool_decide_eq_true in Hb. }
    eexists. split; [reflexivity|]. split; [|done]. pose proof (r2_core _ _ R) as Ec. injection Ec as E1 E2 E3 E4.
    constructor; cbn [s_mem s_ops s_dropped s_ub f_c c_w set_mem w_ops f_gone f_dropped f_ub f_done f_regs].
    + unfold f_mem, core. cbn. unfold f_mem in *. by rewrite E1, E2, E3, E4.
    + apply (r2_ops _ _ R).
    + apply R.
    + apply R.
    + apply R.
    + rewrite (r2_ub _ _ R). unfold freed. by rewrite E3.
    + exists (delete n is). split. { rewrite (delete_Permutation _ _ _ Hi) in Hnd. by apply NoDup_cons in Hnd as [_ ?]. } cbn [m_garb]. split.
      * apply Forall2_same_length_lookup_2. { rewrite !length_delete by eauto. by rewrite (Forall2_length _ _ _ Hf). }
        intros j g i' Hg Hi'.
        assert (exists j', j' <> n /\ m_garb (s_mem s) !! j' = Some g /\ is !! j' = Some i') as (j' & Hj' & Hg' & Hi2).
        { destruct (decide (j < n)). - rewrite list.lookup_delete_lt in Hg by done. rewrite list.lookup_delete_lt in Hi' by done. exists j. repeat split; [lia|done..].
          - rewrite list.lookup_delete_ge in Hg by lia. rewrite list.lookup_delete_ge in Hi' by lia. exists (S j). repeat split; [lia|done..]. }
        destruct (Forall2_lookup_lr _ _ _ _ _ _ Hf Hg' Hi2) as (G1 & G2 & G3). split; [|split; [done|done]]. intros [->|?]%elem_of_cons; [|done]. apply Hj'. by eapply NoDup_lookup.
      * intros i' Hl Hd'. rewrite not_elem_of_cons in Hd'. destruct Hd' as [Hne Hd']. pose proof (Hcov i' Hl Hd') as Hin. rewrite (delete_Permutation _ _ _ Hi) in Hin. by apply elem_of_cons in Hin as [->|].
  - destruct (negb (f_dropped f) && all_alive f (fun _ => false)) eqn:Eb; [|done]. apply andb_true_iff in Eb as [Ed Hall].
    exists LDrop. cbn [step]. rewrite bool_decide_eq_true_2.
    2:{ apply set_eq. intros o'. split; [|set_solver]. intros Ha. exfalso. apply (alive_shown2 s f o' R) in Ha. unfold f_alive in Ha. apply bool_decide_eq_true in Ha as [[y Hy] Hgo]. by pose proof (all_alive_spec _ _ Hall o' y Hy Hgo). }
    rewrite (r2_drop _ _ R), Ed. cbn [andb]. pose proof (r2_core _ _ R) as Ec. rewrite (core_drop _ _ _ _ Ec). injection Ec as E1 E2 E3 E4. rewrite E1.
    destruct (drop_rec (MAX_LEVELS + 2) (f_mem f) (m_root (f_mem f))) as [fs|]; injection Hst as <- <-; (eexists; split; [reflexivity|]; split; [|done]).
    + constructor; cbn [s_mem s_ops s_dropped s_ub f_c c_w set_mem w_ops f_gone f_dropped f_ub f_done f_regs]; try apply R; try done.
      * unfold f_mem, core, free_list. cbn. unfold f_mem in *. by rewrite E1, E2, E3, E4.
      * by rewrite (r2_ub _ _ R), E3.
    + constructor; cbn [s_mem s_ops s_dropped s_ub f_c c_w set_mem w_ops f_gone f_dropped f_ub f_done f_regs]; try apply R; done.
Qed.

Lemma exact_sim lsf f ev : wf_fcalls lsf -> fexec code_orders lsf f ev -> reads_newest lsf -> exists ls s, wf_calls ls /\ exec ls s ev /\ Forall2 same_move ls lsf /\ rel2 s f.
Proof.
  revert f ev. induction lsf as [|fb lsf IH] using rev_ind; intros f ev Hwf Hx Hn.
  { injection Hx as <- <-. exists [], init. split; [intros ? ? Hin; by apply elem_of_nil in Hin|]. split; [done|]. split; [constructor|apply rel20]. }
  destruct (frun_snoc _ _ _ _ _ _ Hx) as (f1 & e1 & e2 & Er & Es & ->).
  destruct (IH f1 e1) as (ls & s & Hwfs & Hxs & Hsm & R); [|exact Er| |].
  { intros o op ps ds Hin. apply (Hwf o op ps ds). apply elem_of_app. by left. }
  { intros l1 o n spur a l2 f2 e3 c -> Hx2 Hc. eapply (Hn l1 o n spur a (l2 ++ [fb])); [|done..]. by rewrite <-app_assoc. }
  destruct (rel2_step lsf s f1 e1 fb f e2) as (lb & s' & Ef & R' & Hm); [|exact Er|exact R|exact Es|..].
  { intros o op ps ds Hin. apply (Hwf o op ps ds). apply elem_of_app. by left. }
  { intros o op ps ds ->. apply (Hwf o op ps ds). apply elem_of_app. right. by left. }
  { intros o n spur a c -> Hc. by eapply (Hn lsf o n spur a []). }
  exists (ls ++ [lb]), s'. split. { intros o op [Hin|Hin%elem_of_list_singleton]%elem_of_app; [by eapply Hwfs|]. subst lb. destruct fb; try done. destruct Hm as [<- <-]. eapply Hwf. apply elem_of_app. right. by left. }
  split. { unfold exec in *. rewrite run_app, Hxs. cbn [run]. rewrite Ef. by rewrite app_nil_r. } split; [|done]. apply Forall2_app; [done|]. by constructor.
Qed.
End sim.
