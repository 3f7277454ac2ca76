(** * C67: PrintShape on weakly ordered memory.  The machine is in WPrint.v. *)
From Verif Require Import Model Mem Spec LinSpec Iter IterSpec IterSys Concrete Weak WeakInv WeakStep WeakSys WeakCoh PropWeak PropCoh WeakFree FreeSim FreeStep FreeInv FreeRun PropFree ProgSpec WeakProg PropWLock PropWCount
  Print PrintSpec PrintSim PropPrint WPrint WPrintSim.

Section lemmas.
Context {C : Config} {HC : ConfigOk C}.
Implicit Types (s : fstate) (o : opid) (st : pstat) (ys : list rref) (tv : view) (pv : gmap loc view) (pls : list fplabel) (ls : list flabel) (ev : list event).

Lemma wstep_events w (s : wstate) o n spur a (s' : wstate) e : wstep w s (WStep o n spur a) = Some (s', e) -> e = [] \/ exists nx acts, e = nx_events o nx acts.
Proof. intros Hst. cbn [wstep] in Hst. unfold w_local, w_write in Hst. repeat case_match; simplify_eq; eauto. Qed.
Lemma fstep_yields w s o lb s' e : match lb with FStep o' _ _ _ => o' <> o | _ => True end -> fstep w s lb = Some (s', e) -> yields_of e o = [].
Proof.
  intros Hlb Hst. destruct lb as [o' op ps ds|o' n spur a|o'|o'|i|]; cbn [fstep] in Hst.
  - destruct (negb _ && _ && _); [|done]. cbn [cstep wstep] in Hst. repeat case_match; simplify_eq; done.
  - destruct (f_alive s o' && _); [|done]. cbn [cstep] in Hst. destruct (wstep w (c_w (f_c s)) (WStep o' n spur a)) as [[s1 e1]|] eqn:E; [|done]. assert (e = e1) as -> by (repeat case_match; simplify_eq; done).
    apply wstep_events in E as [->|(nx & acts & ->)]; [done|]. unfold nx_events. rewrite yields_app, yields_acts_ne by congruence. by destruct nx.
  - repeat case_match; simplify_eq; done.
  - repeat case_match; simplify_eq; done.
  - repeat case_match; simplify_eq; done.
  - repeat case_match; simplify_eq; done.
Qed.
Lemma fsteps_app ls ls' o : f_steps_of (ls ++ ls') o = f_steps_of ls o + f_steps_of ls' o.
Proof. unfold f_steps_of. by rewrite List.filter_app, app_length. Qed.
Lemma fsteps_lsteps o n : f_steps_of (lsteps o n) o = n.
Proof. induction n as [|n IH]; [done|]. unfold f_steps_of, lsteps in *. simpl. rewrite bool_decide_true by done. simpl. by rewrite IH. Qed.

Definition is_done st : Prop := exists out, st = PDone out.

(** The simulation: the printing replaced by an iteration. *)
Lemma fprun_sim o pls : forall ls ev s st ys tv pv s' st' e, fexec code_orders ls (fshd s o (WOp (sst st ys) tv pv)) ev -> wf_fcalls ls -> wf_fcalls (fsys pls) ->
  w_ops (c_w (f_c s)) !! o = Some (WOp (rst st) tv pv) -> wfp st -> (st <> PStart \/ ys = []) -> fprun code_orders Acquire o (s, st) pls = Some (s', st', e) ->
  exists ls' y e' tv' pv', frun code_orders (fshd s o (WOp (sst st ys) tv pv)) ls' = Some (fshd s' o (WOp (sst st' (ys ++ y)) tv' pv'), e') /\
    w_ops (c_w (f_c s')) !! o = Some (WOp (rst st') tv' pv') /\ wfp st' /\ elements (written st') = elements (written st) ++ (rr_val <$> y) /\ yields_of e' o = y /\
    floads pls + length y <= f_steps_of ls' o /\ (forall o' op ps ds, FInv o' op ps ds ∈ ls' <-> FInv o' op ps ds ∈ fsys pls) /\
    (forall x, x ∈ e -> x ∈ e') /\ (forall x, x ∈ e' -> x ∈ e \/ (exists r, x = EYield o r) \/ exists r, x = ERet o r) /\ (is_done st' -> ~ is_done st -> ERet o (RIter (ys ++ y)) ∈ e').
Proof.
  induction pls as [|pl pls IH]; intros ls ev s st ys tv pv s' st' e Hx Hwf Hws Ho Hw Hy Hrun.
  - injection Hrun as <- <- <-. exists [], [], [], tv, pv. rewrite app_nil_r. split; [done|]. split; [done|]. split; [done|]. split; [by rewrite app_nil_r|]. split; [done|]. split; [simpl; lia|].
    split; [done|]. split; [done|]. split; [intros x Hin; by apply elem_of_nil in Hin|]. done.
  - cbn [fprun] in Hrun. destruct (fpstep code_orders Acquire o (s, st) pl) as [[[s1 st1] e1]|] eqn:Ep; [|done]. destruct (fprun code_orders Acquire o (s1, st1) pls) as [[[s2 st2] e2]|] eqn:Er; [|done]. injection Hrun as <- <- <-.
    destruct pl as [lb|n]; cbn [fpstep fst snd] in Ep.
    + destruct (match lb with FStep o' _ _ _ => bool_decide (o' = o) | _ => false end) eqn:Elb; [done|]. assert (match lb with FStep o' _ _ _ => o' <> o | _ => True end) as Hlb.
      { destruct lb; try done. by apply bool_decide_eq_false in Elb. }
      destruct (fstep code_orders s lb) as [[s1' e1']|] eqn:Es; [|done]. injection Ep as <- <- <-.
      assert (isret (rst st) = isret (sst st ys)) as Eret by (by destruct st).
      destruct (fshd_step _ _ _ _ _ _ _ _ _ _ Ho Eret Hlb Es) as [Hst Ho1].
      assert (fexec code_orders (ls ++ [lb]) (fshd s1' o (WOp (sst st ys) tv pv)) (ev ++ e1')) as Hx1 by (eapply frun_app; [exact Hx|]; rewrite frun_cons, Hst; cbn [frun]; by rewrite app_nil_r).
      destruct (IH (ls ++ [lb]) (ev ++ e1') s1' st ys tv pv s2 st2 e2 Hx1) as (ls' & y & e' & tv' & pv' & H1 & H2 & H3 & H4 & H5 & H6 & H7 & H8 & H9 & H10); [| |done|done|done|exact Er|].
      { intros o' op ps ds [Hin|Hin]%elem_of_app; [by eapply Hwf|]. apply elem_of_list_singleton in Hin as <-. eapply Hws. by left. }
      { intros o' op ps ds Hin. eapply Hws. by right. }
      exists (lb :: ls'), y, (e1' ++ e'), tv', pv'. split; [by rewrite frun_cons, Hst, H1|]. split; [done|]. split; [done|]. split; [done|].
      split; [by rewrite yields_app, (fstep_yields _ _ _ _ _ _ Hlb Es)|]. split; [change (floads (FPSys lb :: pls)) with (floads pls); change (lb :: ls') with ([lb] ++ ls'); rewrite fsteps_app; lia|].
      split. { intros o' op ps ds. change (fsys (FPSys lb :: pls)) with (lb :: fsys pls). by rewrite !elem_of_cons, H7. }
      split; [intros x [Hin|Hin]%elem_of_app; apply elem_of_app; [by left|right; by apply H8]|].
      split; [intros x [Hin|Hin]%elem_of_app; [left; apply elem_of_app; by left|destruct (H9 _ Hin) as [?|?]; [left; apply elem_of_app; by right|by right]]|].
      intros Hd Hnd. apply elem_of_app. right. by apply H10.
    + destruct (fprint Acquire s o st n) as [[s1' st1']|] eqn:Ef; [|done]. injection Ep as <- <- <-.
      assert (sst st ys = SRun OIter (ipc st ys) /\ ~ is_done st) as [Ess Hnd].
      { unfold fprint in Ef. cbn zeta in Ef. rewrite Ho in Ef. destruct st; try (split; [done|]; intros [? ?]; done). cbn [fp_going] in Ef. by rewrite andb_false_r in Ef. }
      rewrite Ess in Hx. destruct (fprint_sim ls ev s o st ys _ tv pv n s1' st1' Hx Hwf Ho Hw Hy Ef) as (k & y & tv1 & pv1 & H1 & H2 & H3 & H4 & H5 & H6).
      assert (fexec code_orders (ls ++ FStep o n false 1%N :: lsteps o k) (fshd s1' o (WOp (sst st1' (ys ++ y)) tv1 pv1)) (ev ++ ((EYield o <$> y) ++ ends o st1' (ys ++ y)))) as Hx1 by (eapply frun_app; [exact Hx|exact H1]).
      assert (forall o' op ps ds, FInv o' op ps ds ∉ FStep o n false 1%N :: lsteps o k) as Hni. { intros o' op ps ds [Hin|Hin]%elem_of_cons; [done|]. by apply elem_of_replicate in Hin as [? _]. }
      destruct (IH _ _ s1' st1' (ys ++ y) tv1 pv1 s2 st2 e2 Hx1) as (ls' & y' & e' & tv' & pv' & J1 & J2 & J3 & J4 & J5 & J6 & J7 & J8 & J9 & J10); [| |done|done|by left|exact Er|].
      { intros o' op ps ds [Hin|Hin]%elem_of_app; [by eapply Hwf|]. by apply Hni in Hin. }
      { intros o' op ps ds Hin. by eapply Hws. }
      exists ((FStep o n false 1%N :: lsteps o k) ++ ls'), (y ++ y'), (((EYield o <$> y) ++ ends o st1' (ys ++ y)) ++ e'), tv', pv'. rewrite <-app_assoc in J1, J10. rewrite Ess.
      split; [by eapply frun_app|]. split; [done|]. split; [done|]. split; [by rewrite J4, H3, fmap_app, app_assoc|].
      assert (yields_of (ends o st1' (ys ++ y)) o = []) as Ee by (by destruct st1').
      split; [by rewrite !yields_app, yields_fmap, Ee, app_nil_r, J5|]. split.
      { change (floads (FPPrint n :: pls)) with (S (floads pls)). rewrite fsteps_app. change (FStep o n false 1%N :: lsteps o k) with ([FStep o n false 1%N] ++ lsteps o k). rewrite fsteps_app, fsteps_lsteps, app_length.
        assert (f_steps_of [FStep o n false 1%N] o = 1) as -> by (unfold f_steps_of; simpl; by rewrite bool_decide_true). lia. }
      split. { intros o' op ps ds. rewrite elem_of_app, J7. change (fsys (FPPrint n :: pls)) with (fsys pls). split; [intros [Hin|Hin]; [by apply Hni in Hin|done]|by right]. }
      split; [intros x Hin; apply elem_of_app; right; by apply J8|].
      split. { intros x [[Hin|Hin]%elem_of_app|Hin]%elem_of_app; [apply elem_of_list_fmap in Hin as (r & -> & _); right; left; eauto| |by apply J9]. destruct st1'; try (by apply elem_of_nil in Hin). apply elem_of_list_singleton in Hin as ->. right. right. eauto. }
      intros Hd _. destruct (match st1' with PDone _ => true | _ => false end) eqn:E1; cycle 1.
      { apply elem_of_app. right. apply J10; [done|]. intros [out ->]. done. }
      destruct st1' as [| |out|]; try done. apply elem_of_app. left. apply elem_of_app. right. cbn [ends].
      enough (y' = []) as -> by (rewrite app_nil_r; by apply elem_of_list_singleton).
      (* nothing is printed after the end *)
      assert (st2 = PDone out) as ->.
      { clear -Er. revert s1' e2 Er. induction pls as [|pl pls IH]; intros s1 e2 Er; [by injection Er as _ <- _|]. cbn [fprun] in Er. destruct (fpstep code_orders Acquire o (s1, PDone out) pl) as [[[s3 st3] e3]|] eqn:Ep; [|done].
        destruct (fprun code_orders Acquire o (s3, st3) pls) as [[[s4 st4] e4]|] eqn:Er'; [|done]. injection Er as <- <- <-. destruct pl as [lb|n]; cbn [fpstep fst snd] in Ep.
        - repeat case_match; simplify_eq; by eapply IH.
        - unfold fprint in Ep. cbn [fp_going] in Ep. destruct (w_ops _ !! o) as [[? ? ?]|]; [|done]. rewrite andb_false_r in Ep. done. }
      cbn [written] in J4. destruct y' as [|r y']; [done|]. exfalso. apply (f_equal length) in J4. rewrite app_length in J4. simpl in J4. lia.
Qed.

Lemma f_none_yields w o ls : forall s0 s e, frun w s0 ls = Some (s, e) -> w_ops (c_w (f_c s)) !! o = None -> yields_of e o = [].
Proof.
  assert (forall s lb s' e, fstep w s lb = Some (s', e) -> w_ops (c_w (f_c s')) !! o = None -> w_ops (c_w (f_c s)) !! o = None /\ match lb with FStep o' _ _ _ => o' <> o | _ => True end) as Hstep.
  { intros s lb s' e Hst Hn. destruct lb as [o' op ps ds|o' n spur a|o'|o'|i|]; cbn [fstep] in Hst.
    - destruct (negb _ && _ && _); [|done]. cbn [cstep wstep] in Hst. repeat case_match; simplify_eq. cbn [f_c c_w w_ops] in Hn. split; [|done]. by apply lookup_insert_None in Hn as [? _].
    - destruct (f_alive s o' && _); [|done]. cbn [cstep] in Hst. destruct (wstep w (c_w (f_c s)) (WStep o' n spur a)) as [[s1 e1]|] eqn:E; [|done].
      assert (w_ops (c_w (f_c s')) = w_ops s1) as Ew by (repeat case_match; simplify_eq; done). rewrite Ew in Hn. cbn [wstep] in E. unfold w_local, w_write in E. repeat case_match; simplify_eq; cbn [w_ops] in Hn; by apply lookup_insert_None in Hn.
    - repeat case_match; simplify_eq; done.
    - repeat case_match; simplify_eq; done.
    - repeat case_match; simplify_eq; done.
    - repeat case_match; simplify_eq; done. }
  induction ls as [|lb ls IH]; intros s0 s e Hr Hn; [by injection Hr as <- <-|]. rewrite frun_cons in Hr. destruct (fstep w s0 lb) as [[s1 e1]|] eqn:E; [|done]. destruct (frun w s1 ls) as [[s2 e2]|] eqn:Er; [|done]. injection Hr as <- <-.
  assert (w_ops (c_w (f_c s1)) !! o = None) as Hn1.
  { clear IH E. revert s1 e2 Er. induction ls as [|lb' ls IH]; intros s1 e2 Er; [by injection Er as <- <-|]. rewrite frun_cons in Er. destruct (fstep w s1 lb') as [[s3 e3]|] eqn:E; [|done]. destruct (frun w s3 ls) as [[s4 e4]|] eqn:Er'; [|done].
    injection Er as <- <-. specialize (IH _ _ Er'). by destruct (Hstep _ _ _ _ E IH). }
  destruct (Hstep _ _ _ _ E Hn1) as [_ Hlb]. by rewrite yields_app, (fstep_yields _ _ _ _ _ _ Hlb E), (IH _ _ _ Er Hn).
Qed.

(** A printing is an iteration in disguise. *)
Lemma fprinting_sim ls o ps ds pls s st ev : wf_fcalls ls -> wf_fcalls (fsys pls) -> fprinting code_orders Acquire ls o ps ds pls s st ev ->
  exists ls' ys evx tv pv, fexec code_orders ls' (fshd s o (WOp (sst st ys) tv pv)) evx /\ wf_fcalls ls' /\ w_ops (c_w (f_c s)) !! o = Some (WOp (rst st) tv pv) /\ wfp st /\
    elements (written st) = rr_val <$> ys /\ yields_of evx o = ys /\ floads pls + length ys <= f_steps_of ls' o /\ (forall o' op ps', (exists ds', FInv o' op ps' ds' ∈ ls') <-> CInv o' op ps' ∈ fcalls ls o ps ds pls) /\
    EInv o OIter ∈ ev /\ (forall x, x ∈ ev -> x ∈ evx) /\ (forall o' op, EInv o' op ∈ evx -> EInv o' op ∈ ev) /\ (is_done st -> ERet o (RIter ys) ∈ evx).
Proof.
  intros Hwf Hws (s0 & ev0 & ev1 & Hx & Hrun & ->). unfold fexec in Hx.
  assert (exists sa eva, fexec code_orders ls sa eva /\ fstep code_orders sa (FInv o OIter ps ds) = Some (s0, [EInv o OIter]) /\ ev0 = eva ++ [EInv o OIter] /\ w_ops (c_w (f_c sa)) !! o = None /\
    w_ops (c_w (f_c s0)) !! o = Some (WOp (SRun OIter INew) ∅ ∅)) as (sa & eva & Hxa & Hst & -> & Hna & Ho0).
  { assert (forall l2 s1 r, frun code_orders s1 (l2 ++ [FInv o OIter ps ds]) = Some r -> exists sa ea s2 e2, frun code_orders s1 l2 = Some (sa, ea) /\ fstep code_orders sa (FInv o OIter ps ds) = Some (s2, e2) /\ r = (s2, ea ++ e2)) as Hsnoc.
    { induction l2 as [|lb l2 IH]; intros s1 r Hr.
      - cbn [app] in Hr. rewrite frun_cons in Hr. destruct (fstep code_orders s1 (FInv o OIter ps ds)) as [[s2 e2]|] eqn:E; [|done]. injection Hr as <-. exists s1, [], s2, e2. split; [done|]. split; [done|]. by rewrite app_nil_r.
      - change ((lb :: l2) ++ [FInv o OIter ps ds]) with (lb :: (l2 ++ [FInv o OIter ps ds])) in Hr. rewrite frun_cons in Hr. destruct (fstep code_orders s1 lb) as [[s2 e2]|] eqn:E; [|done].
        destruct (frun code_orders s2 (l2 ++ [FInv o OIter ps ds])) as [[s3 e3]|] eqn:Er; [|done]. injection Hr as <-. destruct (IH _ _ Er) as (sa & ea & s4 & e4 & H1 & H2 & [= -> ->]).
        exists sa, (e2 ++ ea), s4, e4. rewrite frun_cons, E, H1. split; [done|]. split; [done|]. by rewrite app_assoc. }
    destruct (Hsnoc _ _ _ Hx) as (sa & ea & s2 & e2 & H1 & H2 & [= -> ->]). exists sa, ea. cbn [fstep] in H2. destruct (negb _ && _ && _) eqn:Eg; [|done]. cbn [cstep wstep] in H2.
    destruct (forallb _ ps) eqn:Ep; [|done]. destruct (w_ops (c_w (f_c sa)) !! o) eqn:Eo; [done|]. injection H2 as <- <-. split; [done|]. split; [cbn [fstep cstep wstep]; by rewrite Eg, Ep, Eo|]. split; [done|]. split; [done|]. simpl. by rewrite lookup_insert. }
  assert (fshd s0 o (WOp (sst PStart []) ∅ ∅) = s0) as Es0.
  { destruct s0 as [[[m h ops] fl] a1 a2 a3 a4 a5 a6]. unfold fshd, cshd, wshd. cbn [f_c c_w w_ops w_mem w_hist c_fl f_regs f_sync f_done f_gone f_dropped f_ub] in *. cbn [sst ipc]. by rewrite insert_id. }
  assert (wf_fcalls (ls ++ [FInv o OIter ps ds])) as Hwf0. { intros o' op ps' ds' [Hin|Hin]%elem_of_app; [by eapply Hwf|]. by apply elem_of_list_singleton in Hin as [= -> -> -> ->]. }
  destruct (fprun_sim o pls (ls ++ [FInv o OIter ps ds]) (eva ++ [EInv o OIter]) s0 PStart [] ∅ ∅ s st ev1) as (ls' & y & e' & tv' & pv' & H1 & H2 & H3 & H4 & H5 & H6 & H7 & H8 & H9 & H10); [..|exact Hrun|].
  { by rewrite Es0. } { done. } { done. } { done. } { split; [|done]. intros v i Hv. by apply elem_of_nil in Hv. } { by right. }
  rewrite Es0 in H1. cbn [app] in H1, H10. exists ((ls ++ [FInv o OIter ps ds]) ++ ls'), y, ((eva ++ [EInv o OIter]) ++ e'), tv', pv'.
  split; [by eapply frun_app|]. split. { intros o' op ps' ds' [Hin|Hin]%elem_of_app; [by eapply Hwf0|]. apply H7 in Hin. by eapply Hws. }
  split; [done|]. split; [done|]. split; [exact H4|]. split; [by rewrite !yields_app, (f_none_yields _ _ _ _ _ _ Hxa Hna), H5|]. split; [rewrite fsteps_app; lia|].
  split. { intros o' op ps'. unfold fcalls, calls_of. rewrite elem_of_list_omap. split.
    - intros [ds' Hin]. exists (FInv o' op ps' ds'). split; [|done]. rewrite <-app_assoc in Hin. apply elem_of_app in Hin as [Hin|[Hin|Hin]%elem_of_cons]; apply elem_of_app; [by left|right; rewrite Hin; by left|right; right; by apply H7].
    - intros (lb & Hin & E). destruct lb; simplify_eq. eexists. rewrite <-app_assoc. apply elem_of_app in Hin as [Hin|[Hin|Hin]%elem_of_cons]; apply elem_of_app; [by left|right; rewrite Hin; by left|right; right; by apply H7]. }
  split; [apply elem_of_app; left; apply elem_of_app; right; by apply elem_of_list_singleton|].
  split; [intros x [Hin|Hin]%elem_of_app; apply elem_of_app; [by left|right; by apply H8]|].
  split; [intros o' op [Hin|Hin]%elem_of_app; apply elem_of_app; [by left|right; destruct (H9 _ Hin) as [?|[[r ?]|[r ?]]]; done]|].
  intros Hd. apply elem_of_app. right. apply H10; [done|]. intros [out ?]. done.
Qed.
End lemmas.

Section theorems.
Context {C : Config} {HC : ConfigOk C}.
Implicit Types (s : fstate) (o : opid) (st : pstat) (pls : list fplabel) (ls : list flabel) (ev : list event) (ps : list opid) (ds : list nat) (p : Pl) (k : Key).

(** No step of the printing, or of a call next to it, looks into a node that is freed or whose initialisation it need not see; and nothing is freed twice. *)
Theorem C67_safe ls o ps ds pls s st ev : wf_fcalls ls -> wf_fcalls (fsys pls) -> fprinting code_orders Acquire ls o ps ds pls s st ev ->
  (forall f, st <> PFail f) /\ (forall o' x op f, w_ops (c_w (f_c s)) !! o' = Some x -> w_st x <> SFail op f) /\ f_ub s = false.
Proof.
  intros W1 W2 Hp. destruct (fprinting_sim _ _ _ _ _ _ _ _ W1 W2 Hp) as (ls' & ys & evx & tv & pv & Hx & Hwf & Ho & Hw & _). destruct (C46_no_use_after_free _ _ _ Hwf Hx) as (H1 & H2 & _). split; [|split].
  - intros f ->. by destruct Hw as [_ ?].
  - intros o' x op f Hx' E. destruct (decide (o' = o)) as [->|Hne]; [rewrite Ho in Hx'; injection Hx' as <-; by destruct st|]. apply (H1 o' x op f); [|done]. simpl. by rewrite lookup_insert_ne.
  - exact H2.
Qed.

(** The printing ends after at most 2^66 loads, whatever the others do and whatever old values are loaded ... *)
Theorem C67_finishes ls o ps ds pls s st ev : wf_fcalls ls -> wf_fcalls (fsys pls) -> fprinting code_orders Acquire ls o ps ds pls s st ev -> (N.of_nat (floads pls) <= 2 ^ 66)%N.
Proof.
  intros W1 W2 Hp. destruct (fprinting_sim _ _ _ _ _ _ _ _ W1 W2 Hp) as (ls' & ys & evx & tv & pv & Hx & Hwf & _ & _ & _ & Hy & Hl & _ & Hi & Hin & _).
  pose proof (C59_iter_bound _ _ _ _ Hwf Hx (Hin _ Hi)) as Hb. rewrite Hy in Hb. lia.
Qed.
(** ... and as long as it has not ended, and its guard is there, it can go on. *)
Theorem C67_goes_on ls o ps ds pls s st ev : wf_fcalls ls -> wf_fcalls (fsys pls) -> fprinting code_orders Acquire ls o ps ds pls s st ev -> f_alive s o = true -> (forall out, st <> PDone out) ->
  exists n s' st', fprint Acquire s o st n = Some (s', st').
Proof.
  intros W1 W2 Hp Ha Hnd. destruct (fprinting_sim _ _ _ _ _ _ _ _ W1 W2 Hp) as (ls' & ys & evx & tv & pv & Hx & Hwf & Ho & Hw & _).
  assert (sst st ys = SRun OIter (ipc st ys)) as Es by (destruct st as [|fr out|out|f]; [done|done|by destruct (Hnd out)|done]). rewrite Es in Hx.
  assert (fp_going st = true) as Eg by (destruct st as [|fr out|out|f]; [done|done|by destruct (Hnd out)|by destruct Hw as [_ ?]]).
  destruct (C58_can_step _ _ _ o OIter Hwf Hx) as (n & a & s1 & e1 & Hst). { split; [by rewrite (alive_shd _ _ _ _ _ Ho)|]. eexists _, _, _. simpl. by rewrite lookup_insert. }
  exists n. unfold fprint. cbn zeta. rewrite Ho, Ha, Eg. cbn [andb negb].
  destruct (fp_cell st) as [c|] eqn:Ec; [|by eexists _, _]. destruct (base_seen tv pv c) eqn:Hb; cbn [negb]; [|by eexists _, _]. destruct (w_hist (c_w (f_c s)) c) as [|x0 h] eqn:Eh; [by eexists _, _|].
  assert (access code_orders (ipc st ys) = Some (c, ALoad, Acquire)) as Hac.
  { destruct st as [|[|[v i] rest] out|out|f]; try done; [by injection Ec as <-|]. destruct Hw as [Hfr Hi]. destruct (Hfr v i) as [Hd Hn]; [by left|]. unfold is_null in Hn.
    cbn [fp_cell ipc access] in *. destruct (sh_loc v) as [l|] eqn:El; [|done]. injection Ec as <-. unfold is_null. rewrite El, Hd. apply Nat.leb_gt in Hi. rewrite Hi. done. }
  cbn [fstep] in Hst. rewrite (alive_shd _ _ _ _ _ Ho), Ha in Hst.
  change (c_w (f_c (fshd s o (WOp (SRun OIter (ipc st ys)) tv pv)))) with (wshd (c_w (f_c s)) o (WOp (SRun OIter (ipc st ys)) tv pv)) in Hst.
  assert (next_cell code_orders (wshd (c_w (f_c s)) o (WOp (SRun OIter (ipc st ys)) tv pv)) o = Some c) as En. { unfold next_cell. simpl. rewrite lookup_insert. by rewrite Hac. }
  rewrite En in Hst. change (f_floor (fshd s o (WOp (SRun OIter (ipc st ys)) tv pv)) (f_sync (fshd s o (WOp (SRun OIter (ipc st ys)) tv pv)) o) c) with (f_floor s (f_sync s o) c) in Hst.
  destruct (f_floor s (f_sync s o) c <=? n) eqn:Efl; [|done]. cbn [andb cstep fshd f_c cshd c_w c_fl] in Hst. rewrite En in Hst. cbn [wstep wshd w_ops w_hist] in Hst. rewrite lookup_insert, Hac, Hb in Hst. cbn [negb] in Hst.
  rewrite Eh in Hst. destruct ((x0 :: h) !! n) as [[v W]|]; [|done]. destruct (n <? c_fl (f_c s) o c) eqn:Efl2; [by destruct (w_local _ _ _ _ _ _ _ _ _) as [[]|]|].
  apply Nat.leb_le in Efl. rewrite (proj2 (Nat.ltb_ge _ _) Efl). cbn [orb]. by eexists _, _.
Qed.

Lemma fcalls_hb ls' (ll l2 : list clabel) : (forall o op ps, CInv o op ps ∈ ll <-> exists ds, FInv o op ps ds ∈ ls') -> (forall o op ps, (exists ds, FInv o op ps ds ∈ ls') <-> CInv o op ps ∈ l2) -> same_inv ll l2.
Proof. intros H1 H2 o op ps. by rewrite H1, H2. Qed.

(** No two elements in the text have equal keys. *)
Theorem C67_elements_once ls o ps ds pls s st ev : wf_fcalls ls -> wf_fcalls (fsys pls) -> fprinting code_orders Acquire ls o ps ds pls s st ev -> distinct_keys (elements (written st)).
Proof.
  intros W1 W2 Hp. destruct (fprinting_sim _ _ _ _ _ _ _ _ W1 W2 Hp) as (ls' & ys & evx & tv & pv & Hx & Hwf & _ & _ & Hel & Hy & _ & _ & Hi & Hin & _).
  destruct (C49_unobservable _ _ _ Hwf Hx) as (ll & b & Hc & Hwc & _). rewrite Hel, <-Hy. by apply (C45_no_duplicates ll b evx o Hwc Hc), Hin.
Qed.
(** Somebody put them there, and not after the printing. *)
Theorem C67_only_what_was_put ls o ps ds pls s st ev p : wf_fcalls ls -> wf_fcalls (fsys pls) -> fprinting code_orders Acquire ls o ps ds pls s st ev -> p ∈ elements (written st) ->
  exists oi op, EInv oi op ∈ ev /\ puts op p /\ ~ hb (fcalls ls o ps ds pls) o oi.
Proof.
  intros W1 W2 Hp Hel'. destruct (fprinting_sim _ _ _ _ _ _ _ _ W1 W2 Hp) as (ls' & ys & evx & tv & pv & Hx & Hwf & _ & _ & Hel & Hy & _ & Hcl & Hi & Hin & Hinv & _).
  destruct (C49_unobservable _ _ _ Hwf Hx) as (ll & b & Hc & Hwc & Hll). rewrite Hel, <-Hy in Hel'. apply elem_of_list_fmap in Hel' as (r & -> & Hr). apply elem_of_yields in Hr.
  destruct (C45_yields_only_what_was_put ll b evx o r Hwc Hc (Hin _ Hi) Hr) as (oi & op & H1 & H2 & H3). exists oi, op. split; [by apply Hinv|]. split; [done|]. intros Hh. apply H3. eapply hb_same; [|exact Hh].
  intros o' op' ps'. by rewrite (fcalls_hb _ _ _ Hll Hcl o' op' ps').
Qed.
(** What was inserted before the printing started, and not modified by anything that does not happen before that insertion or after the printing, is in the text. *)
Theorem C67_what_is_there ls o ps ds pls s out ev p oi old : wf_fcalls ls -> wf_fcalls (fsys pls) -> fprinting code_orders Acquire ls o ps ds pls s (PDone out) ev ->
  EInv oi (OInsert p) ∈ ev -> ERet oi (ROpt old) ∈ ev -> hb (fcalls ls o ps ds pls) oi o ->
  (forall o' op, EInv o' op ∈ ev -> modifies op (keyof p) -> o' = oi \/ hb (fcalls ls o ps ds pls) o' oi \/ hb (fcalls ls o ps ds pls) o o') -> p ∈ elements out.
Proof.
  intros W1 W2 Hp Hii Hri Hh Hmod. destruct (fprinting_sim _ _ _ _ _ _ _ _ W1 W2 Hp) as (ls' & ys & evx & tv & pv & Hx & Hwf & _ & _ & Hel & Hy & _ & Hcl & Hi & Hin & Hinv & Hdone).
  destruct (C49_unobservable _ _ _ Hwf Hx) as (ll & b & Hc & Hwc & Hll). pose proof (fcalls_hb _ _ _ Hll Hcl) as Hs. assert (same_inv (fcalls ls o ps ds pls) ll) as Hs' by (intros o' op' ps'; by rewrite (Hs o' op' ps')).
  destruct (C45_yields_what_is_there ll b evx p oi o old ys Hwc Hc (Hin _ Hii) (Hin _ Hri) (Hin _ Hi) (Hdone ltac:(by exists out)) (hb_same _ _ _ _ Hs' Hh)) as (r & Hr & <-).
  { intros o' op Hev Hm. destruct (Hmod o' op (Hinv _ _ Hev) Hm) as [?|[?|?]]; [by left|right; left; by eapply hb_same|right; right; by eapply hb_same]. }
  cbn [written] in Hel. rewrite Hel, <-Hy. apply elem_of_list_fmap. exists r. split; [done|]. by apply elem_of_yields.
Qed.
(** What was removed before, and not inserted again, is not in the text. *)
Theorem C67_removed_is_not_shown ls o ps ds pls s st ev k oi old p : wf_fcalls ls -> wf_fcalls (fsys pls) -> fprinting code_orders Acquire ls o ps ds pls s st ev ->
  EInv oi (ORemove k) ∈ ev -> ERet oi (ROpt old) ∈ ev -> hb (fcalls ls o ps ds pls) oi o ->
  (forall o' op, EInv o' op ∈ ev -> modifies op k -> o' = oi \/ hb (fcalls ls o ps ds pls) o' oi \/ hb (fcalls ls o ps ds pls) o o') -> p ∈ elements (written st) -> keqb (keyof p) k = false.
Proof.
  intros W1 W2 Hp Hii Hri Hh Hmod Hel'. destruct (fprinting_sim _ _ _ _ _ _ _ _ W1 W2 Hp) as (ls' & ys & evx & tv & pv & Hx & Hwf & _ & _ & Hel & Hy & _ & Hcl & Hi & Hin & Hinv & _).
  destruct (C49_unobservable _ _ _ Hwf Hx) as (ll & b & Hc & Hwc & Hll). pose proof (fcalls_hb _ _ _ Hll Hcl) as Hs. assert (same_inv (fcalls ls o ps ds pls) ll) as Hs' by (intros o' op' ps'; by rewrite (Hs o' op' ps')).
  rewrite Hel, <-Hy in Hel'. apply elem_of_list_fmap in Hel' as (r & -> & Hr). apply elem_of_yields in Hr.
  apply (C45_removed_is_not_yielded ll b evx k oi o old r Hwc Hc (Hin _ Hii) (Hin _ Hri) (Hin _ Hi) (hb_same _ _ _ _ Hs' Hh)); [|exact Hr].
  intros o' op Hev Hm. destruct (Hmod o' op (Hinv _ _ Hev) Hm) as [?|[?|?]]; [by left|right; left; by eapply hb_same|right; right; by eapply hb_same].
Qed.
(** The complete text has the form of a trie: every node that is opened shows its sixteen slots in order, and is closed. *)
Lemma fprun_formed w po o pls : forall s st s' st' e, formed st -> fprun w po o (s, st) pls = Some (s', st', e) -> formed st'.
Proof.
  induction pls as [|pl pls IH]; intros s st s' st' e Hf Hr; [by injection Hr as <- <- <-|]. cbn [fprun] in Hr.
  destruct (fpstep w po o (s, st) pl) as [[[s1 st1] e1]|] eqn:Ep; [|done]. destruct (fprun w po o (s1, st1) pls) as [[[s2 st2] e2]|] eqn:Er; [|done]. injection Hr as <- <- <-.
  apply (IH _ _ _ _ _) in Er; [done|]. destruct pl as [lb|n]; cbn [fpstep fst snd] in Ep.
  - repeat case_match; simplify_eq; done.
  - destruct (fprint po s o st n) as [[s3 st3]|] eqn:Ef; [|done]. injection Ep as <- <- <-. unfold fprint in Ef. cbn zeta in Ef.
    destruct (w_ops (c_w (f_c s)) !! o) as [[r tv pv]|]; [|done]. destruct (negb _); [done|]. destruct (fp_cell st) as [c|]; [|by injection Ef as <- <-]. destruct (negb _); [by injection Ef as <- <-|].
    destruct (w_hist (c_w (f_c s)) c) as [|x0 h]; [by injection Ef as <- <-|]. destruct (_ !! n) as [[v W]|]; [|done]. destruct (_ || _); [done|]. injection Ef as _ <-. by apply print_step_formed.
Qed.
Theorem C67_form ls o ps ds pls s out ev : fprinting code_orders Acquire ls o ps ds pls s (PDone out) ev -> shaped out.
Proof. intros (s0 & ev0 & ev1 & _ & Hr & _). change (formed (PDone out)). by eapply fprun_formed; [|exact Hr]. Qed.
End theorems.
Print Assumptions C67_safe.
Print Assumptions C67_finishes.
Print Assumptions C67_goes_on.
Print Assumptions C67_elements_once.
Print Assumptions C67_only_what_was_put.
Print Assumptions C67_what_is_there.
Print Assumptions C67_removed_is_not_shown.
Print Assumptions C67_form.

(** ** A concrete case.  A trie with a collision node, a branch of two and a leaf; key 9 has been there and is removed.  The printing (6) knows of all that.  After five loads another thread
    removes key 2 and inserts key 4; the printing has reached neither of them, but then reads the old values of both slots: key 2 is in the text, key 4 is not. *)
Inductive wpcmd := WPC (c : fcmd) | WPNew (n : nat) | WPOld (n : nat).
Section wscript.
Variables (po : ordering) (o : opid).
Definition wp_newest (s : @fstate CN) (st : @pstat CN) : nat := match fp_cell st with Some c => length (w_hist (c_w (f_c s)) c) - 1 | None => 0 end.
Definition wp_print (x : fstate * pstat * list fplabel) (n : nat) : option (fstate * pstat * list fplabel) :=
  match fprint po x.1.1 o x.1.2 n with Some (s', st') => Some (s', st', x.2 ++ [FPPrint n]) | None => None end.
Fixpoint wp_many (k : nat) (x : fstate * pstat * list fplabel) : option (fstate * pstat * list fplabel) :=
  match k with 0 => Some x | S k => match wp_print x (wp_newest x.1.1 x.1.2) with Some y => wp_many k y | None => None end end.
Definition wp_cmd (x : fstate * pstat * list fplabel) (c : wpcmd) : option (fstate * pstat * list fplabel) :=
  match c with
  | WPC c => match fcmdl code_orders (x.1.1, []) c with Some (s', ls) => Some (s', x.1.2, x.2 ++ (FPSys <$> ls)) | None => None end
  | WPNew k => wp_many k x
  | WPOld n => wp_print x n
  end.
Fixpoint wp_cmds (x : fstate * pstat * list fplabel) (cs : list wpcmd) : option (fstate * pstat * list fplabel) :=
  match cs with [] => Some x | c :: cs => match wp_cmd x c with Some y => wp_cmds y cs | None => None end end.
Definition wp_plan (ls : list flabel) (cs : list wpcmd) : list fplabel :=
  match frun code_orders finit ls with Some (s0, _) => match wp_cmds (s0, PStart, []) cs with Some (_, _, pls) => pls | None => [] end | None => [] end.
Lemma wp_check (ls : list (@flabel CN)) ps ds cs (f : list (@fplabel CN) -> @fstate CN -> @pstat CN -> list (@event CN) -> bool) :
  match frun code_orders finit (ls ++ [FInv o OIter ps ds]) with
  | Some (s0, ev0) => match fprun code_orders po o (s0, PStart) (wp_plan (ls ++ [FInv o OIter ps ds]) cs) with
                      | Some (s, st, ev1) => f (wp_plan (ls ++ [FInv o OIter ps ds]) cs) s st (ev0 ++ ev1) && forallb lbf_wfb ls && forallb lbf_wfb (fsys (wp_plan (ls ++ [FInv o OIter ps ds]) cs))
                      | None => false end
  | None => false end = true ->
  exists pls s st ev, fprinting code_orders po ls o ps ds pls s st ev /\ wf_fcalls ls /\ wf_fcalls (fsys pls) /\ f pls s st ev = true.
Proof.
  intros H. generalize dependent (wp_plan (ls ++ [FInv o OIter ps ds]) cs). intros pls H. destruct (frun code_orders finit (ls ++ [FInv o OIter ps ds])) as [[s0 ev0]|] eqn:E; [|discriminate].
  destruct (fprun code_orders po o (s0, PStart) pls) as [[[s st] ev1]|] eqn:Ep; [|discriminate]. apply andb_true_iff in H as [H H3]. apply andb_true_iff in H as [H1 H2].
  assert (forall l, forallb lbf_wfb l = true -> wf_fcalls l) as Hw. { intros l Hl o' op ps' ds' Hin. rewrite forallb_forall in Hl. apply elem_of_list_In in Hin. apply Hl in Hin. by destruct op. }
  exists pls, s, st, (ev0 ++ ev1). split; [exists s0, ev0, ev1; done|]. split; [by apply Hw|]. split; [by apply Hw|done].
Qed.
End wscript.

Definition wpre : list fcmd :=
  [FI 1 (ins 1 1) [] []; FR 1; FI 2 (ins 17 2) [1] []; FR 2; FI 3 (ins 5 3) [2] []; FR 3; FI 4 (ins (5 + 2 ^ 64) 4) [3] []; FR 4; FI 5 (ins 2 5) [4] []; FR 5;
   FI 11 (ins 9 9) [5] []; FR 11; FI 12 (rem 9) [11] []; FR 12]%positive.
Definition wmid : list wpcmd :=
  [WPNew 19; WPC (FI 7 (rem 2) [12] []); WPC (FR 7); WPC (FI 8 (ins 4 7) [7] []); WPC (FR 8); WPC (FI 9 (get 2) [8] []); WPC (FR 9); WPOld 1; WPNew 1; WPOld 0; WPNew 251; WPC (FL (FUnpin 6)); WPC (FI 10 (rem 17) [6; 8] []); WPC (FR 10)]%positive.
Definition wls : list (@flabel CN) := fschedule code_orders wpre.

Definition linked (l : list (@clabel CN)) (a b : opid) : bool := existsb (fun lb => match lb with CInv o _ ps => bool_decide (o = b) && bool_decide (a ∈ ps) | _ => false end) l.
Lemma linked_hb l a b : linked l a b = true -> hb l a b.
Proof.
  intros H. apply existsb_exists in H as (lb & Hin & H). destruct lb as [o op ps|]; [|discriminate]. apply andb_true_iff in H as [H1 H2]. apply bool_decide_eq_true in H1 as ->. apply bool_decide_eq_true in H2.
  eapply hb_direct; [by apply elem_of_list_In|done].
Qed.
Definition called (ev : list (@event CN)) (o : opid) (f : @oper CN -> bool) : bool := existsb (fun e => match e with EInv o' op => bool_decide (o' = o) && f op | _ => false end) ev.
Definition is_ins (k v : N) (op : @oper CN) : bool := match op with OInsert p => bool_decide ((p : N * N) = (k, v)) | _ => false end.
Definition is_rem (k : N) (op : @oper CN) : bool := match op with ORemove k' => bool_decide ((k' : N) = k) | _ => false end.
Definition mod_by (ev : list (@event CN)) (k : N) (os : list opid) : bool :=
  forallb (fun e => match e with EInv o (OInsert p) => negb (@keqb CN (@keyof CN p) k) || bool_decide (o ∈ os) | EInv o (ORemove k') => negb (@keqb CN k' k) || bool_decide (o ∈ os) | EInv _ (OGetOrInsert _ _) => false | _ => true end) ev.
Definition rets_opt (ev : list (@event CN)) (o : opid) : bool := existsb (fun e => match e with ERet o' (ROpt _) => bool_decide (o' = o) | _ => false end) ev.
Lemma called_spec ev o f : called ev o f = true -> exists op, EInv o op ∈ ev /\ f op = true.
Proof. intros H. apply existsb_exists in H as (e & Hin & H). destruct e as [o' op| | |]; try discriminate. apply andb_true_iff in H as [H1 H2]. apply bool_decide_eq_true in H1 as ->. exists op. split; [by apply elem_of_list_In|done]. Qed.
Lemma rets_spec ev o : rets_opt ev o = true -> exists old, ERet o (ROpt old) ∈ ev.
Proof. intros H. apply existsb_exists in H as (e & Hin & H). destruct e as [|o' r| |]; try discriminate. destruct r as [old| | |]; try discriminate. apply bool_decide_eq_true in H as ->. exists old. by apply elem_of_list_In. Qed.
Lemma mod_spec ev k os : mod_by ev k os = true -> forall o op, EInv o op ∈ ev -> @modifies CN op k -> o ∈ os.
Proof.
  intros H o op Hin Hm. unfold mod_by in H. rewrite forallb_forall in H. apply elem_of_list_In in Hin. apply H in Hin. destruct op as [p|k' f|k'|k'| |]; try done; cbn [modifies] in Hm.
  - rewrite Hm in Hin. by apply bool_decide_eq_true in Hin.
  - rewrite Hm in Hin. by apply bool_decide_eq_true in Hin.
Qed.
Definition shows_these (st : @pstat CN) (l : list (N * N)) : bool := match st with PDone out => bool_decide ((elements out : list (N * N)) = l) | _ => false end.

Example C67_example : exists pls s out ev, fprinting code_orders Acquire wls 6%positive [12%positive] [] pls s (PDone out) ev /\ wf_fcalls wls /\ wf_fcalls (fsys pls) /\
  elements out = [(1, 1); (17, 2); (2, 5); (5, 3); (5 + 2 ^ 64, 4)]%N /\ floads pls = 273 /\
  (* what C67_what_is_there asks for *)
  (exists old, EInv 3%positive (ins 5 3) ∈ ev /\ ERet 3%positive (ROpt old) ∈ ev /\ hb (fcalls wls 6%positive [12%positive] [] pls) 3%positive 6%positive /\ forall o' op, EInv o' op ∈ ev -> @modifies CN op 5%N -> o' = 3%positive) /\
  (* and C67_removed_is_not_shown *)
  (exists old, EInv 12%positive (rem 9) ∈ ev /\ ERet 12%positive (ROpt old) ∈ ev /\ hb (fcalls wls 6%positive [12%positive] [] pls) 12%positive 6%positive /\
     forall o' op, EInv o' op ∈ ev -> @modifies CN op 9%N -> o' = 12%positive \/ hb (fcalls wls 6%positive [12%positive] [] pls) o' 12%positive) /\
  (* key 2 has been removed before the printing got there *)
  (exists old, EInv 7%positive (rem 2) ∈ ev /\ ERet 7%positive (ROpt old) ∈ ev).
Proof.
  destruct (wp_check Acquire 6%positive wls [12%positive] [] wmid (fun pls s st ev =>
    (shows_these st [(1, 1); (17, 2); (2, 5); (5, 3); (5 + 2 ^ 64, 4)]%N && (floads pls =? 273)) &&
    (called ev 3%positive (is_ins 5 3) && rets_opt ev 3%positive && mod_by ev 5 [3%positive] &&
     (linked (fcalls wls 6%positive [12%positive] [] pls) 3%positive 4%positive && linked (fcalls wls 6%positive [12%positive] [] pls) 4%positive 5%positive &&
      linked (fcalls wls 6%positive [12%positive] [] pls) 5%positive 11%positive && linked (fcalls wls 6%positive [12%positive] [] pls) 11%positive 12%positive &&
      linked (fcalls wls 6%positive [12%positive] [] pls) 12%positive 6%positive)) &&
    (called ev 12%positive (is_rem 9) && rets_opt ev 12%positive && mod_by ev 9 [11%positive; 12%positive]) &&
    (called ev 7%positive (is_rem 2) && rets_opt ev 7%positive))) as (pls & s & st & ev & Hp & W1 & W2 & Hf); [vm_compute; reflexivity|].
  revert Hp W1 W2 Hf. generalize wls. intros ls Hp W1 W2 Hf.
  apply andb_true_iff in Hf as [Hf H4]. apply andb_true_iff in Hf as [Hf H3]. apply andb_true_iff in Hf as [H1 H2]. apply andb_true_iff in H1 as [Hs Hl].
  assert (exists out, st = PDone out /\ elements out = [(1, 1); (17, 2); (2, 5); (5, 3); (5 + 2 ^ 64, 4)]%N) as (out & -> & Hout).
  { unfold shows_these in Hs. destruct st as [| |out|]; try discriminate Hs. exists out. split; [reflexivity|]. by apply bool_decide_eq_true in Hs. }
  exists pls, s, out, ev. split; [exact Hp|]. split; [exact W1|]. split; [exact W2|]. split; [exact Hout|]. split; [by apply Nat.eqb_eq|]. clear Hp W1 W2 Hs Hl Hout.
  apply andb_true_iff in H2 as [H2 L]. apply andb_true_iff in L as [L L5]. apply andb_true_iff in L as [L L4]. apply andb_true_iff in L as [L L3]. apply andb_true_iff in L as [L1 L2].
  apply linked_hb in L1, L2, L3, L4, L5. apply andb_true_iff in H2 as [H2 M2]. apply andb_true_iff in H2 as [C2 R2]. apply andb_true_iff in H3 as [H3 M3]. apply andb_true_iff in H3 as [C3 R3]. apply andb_true_iff in H4 as [C4 R4].
  apply called_spec in C2 as (op2 & C2 & E2). apply called_spec in C3 as (op3 & C3 & E3). apply called_spec in C4 as (op4 & C4 & E4).
  apply rets_spec in R2 as [old2 R2]. apply rets_spec in R3 as [old3 R3]. apply rets_spec in R4 as [old4 R4].
  assert (op2 = ins 5 3) as ->. { destruct op2 as [p| | | | |]; try discriminate E2. apply bool_decide_eq_true in E2. by rewrite E2. }
  assert (op3 = rem 9) as ->. { destruct op3 as [| | |k| |]; try discriminate E3. apply bool_decide_eq_true in E3. by rewrite E3. }
  assert (op4 = rem 2) as ->. { destruct op4 as [| | |k| |]; try discriminate E4. apply bool_decide_eq_true in E4. by rewrite E4. }
  split; [exists old2|split; [exists old3|exists old4]].
  - split; [exact C2|]. split; [exact R2|]. split; [exact (hb_trans _ _ _ _ L1 (hb_trans _ _ _ _ L2 (hb_trans _ _ _ _ L3 (hb_trans _ _ _ _ L4 L5))))|]. intros o' op Hin Hm. pose proof (mod_spec _ _ _ M2 _ _ Hin Hm) as H. by apply elem_of_list_singleton in H.
  - split; [exact C3|]. split; [exact R3|]. split; [exact L5|]. intros o' op Hin Hm. pose proof (mod_spec _ _ _ M3 _ _ Hin Hm) as H. apply elem_of_cons in H as [->|H]; [right; exact L4|]. apply elem_of_list_singleton in H. by left.
  - split; [exact C4|exact R4].
Qed.

(** The load has to be at least a consume load: with a relaxed one the printing looks into a node whose initialisation it need not see.  One element is enough. *)
Theorem C67_needed : exists (ls : list (@flabel CN)) ps ds pls s ev, wf_fcalls ls /\ wf_fcalls (fsys pls) /\ fprinting code_orders Relaxed ls 6%positive ps ds pls s (PFail FUB) ev.
Proof.
  destruct (wp_check Relaxed 6%positive (fschedule code_orders [FI 1 (ins 1 1) [] []; FR 1]%positive) [] [] [WPNew 1] (fun pls s st ev => match st with PFail FUB => true | _ => false end)) as (pls & s & st & ev & Hp & W1 & W2 & Hf); [vm_compute; reflexivity|].
  eexists _, _, _, pls, s, ev. split; [exact W1|]. split; [exact W2|]. destruct st as [| | |[|]]; try discriminate Hf. exact Hp.
Qed.
Print Assumptions C67_needed.
