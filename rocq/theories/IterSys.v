(** * Iterators in concurrent executions. *)
From Verif Require Import Model Mem Inv Safe SafeStep SafeOps SafeSys SafeProps Look LinSpec Sem SemOps SysSem Spec Lin LinProps Iter IterSpec.

Section itersys.
Context {C : Config} {HC : ConfigOk C}.
Implicit Types (m : mem) (pos : loc -> list nat) (v w : sh) (o : opid) (gs : gset opid) (k : Key) (op : oper) (s : state)
  (ls : list label) (ev : list event).

Lemma yields_app ev e o : yields_of (ev ++ e) o = yields_of ev o ++ yields_of e o.
Proof. apply omap_app. Qed.
Lemma yields_acts_ne acts o o' : o' <> o -> yields_of (map (act_event o) acts) o' = [].
Proof. intros H. induction acts as [|[k|r] acts IH]; simpl; [done|done|]. by rewrite decide_False. Qed.
Lemma yields_acts_none acts o : (forall r, AYield r ∉ acts) -> yields_of (map (act_event o) acts) o = [].
Proof.
  intros H. induction acts as [|[k|r] acts IH]; simpl; [done| |].
  - apply IH. intros r Hr. apply (H r). by right.
  - exfalso. apply (H r). left.
Qed.
Lemma elem_of_yields ev o r : r ∈ yields_of ev o <-> EYield o r ∈ ev.
Proof.
  unfold yields_of. rewrite elem_of_list_omap. split.
  - intros (e & Hin & He). destruct e as [| | |o' r']; try done. destruct (decide (o' = o)) as [->|]; [|done]. by injection He as ->.
  - intros H. exists (EYield o r). split; [done|]. by rewrite decide_True.
Qed.

Lemma iter_pc pos m op p : pc_sem pos m op p -> op <> OIter \/ p = INew \/ exists lv out, p = INext lv out.
Proof.
  destruct p; simpl; intros H; try (by right; left); try (by right; right; eauto); left; intros ->; simpl in H; try naive_solver;
    destruct k; simpl in H; naive_solver.
Qed.

Definition seen ls o k (x : option Pl) : Prop := exists j, j <= length ls /\ running_at ls j o OIter /\ A_of ls j k = x.

Lemma seen_snoc ls lb o k x : seen ls o k x -> seen (ls ++ [lb]) o k x.
Proof.
  intros (j & Hj & Hr & Ha). exists j. rewrite app_length. split; [lia|]. split; [by apply running_at_snoc|]. by rewrite A_of_snoc.
Qed.

Definition iter_st pos ls s ev o : Prop :=
  match s_ops s !! o with
  | None => yields_of ev o = []
  | Some (SRun _ (INext lv out)) => iinv pos (s_mem s) lv out /\ yields_of ev o = out /\ forall k, seen ls o k (reported pos (s_mem s) lv out k)
  | Some (SRun _ _) => yields_of ev o = []
  | _ => True
  end.

Definition iter_one pos ls s ev o : Prop :=
  nodupk (vals (yields_of ev o)) /\
  (forall r, r ∈ yields_of ev o -> seen ls o (keyof (rr_val r)) (Some (rr_val r))) /\
  (forall ys, ERet o (RIter ys) ∈ ev -> yields_of ev o = ys /\ forall k, seen ls o k (find_pl k (vals ys))) /\
  iter_st pos ls s ev o.

Definition itinv ls s ev : Prop :=
  wf_calls ls -> exists pos, (s_dropped s = false -> full pos s) /\ (s_dropped s = true -> guards s = ∅) /\ forall o, iter_one pos ls s ev o.

(* nothing happened to [o] and its iteration *)
Lemma iter_one_frame pos pos' ls s ev lb s' e o :
  exec ls s ev -> step s lb = Some (s', e) -> iter_one pos ls s ev o ->
  yields_of e o = [] -> (forall r, ERet o r ∉ e) ->
  s_ops s' !! o = s_ops s !! o \/ s_ops s' !! o = Some SGone ->
  (forall op lv out, s_ops s !! o = Some (SRun op (INext lv out)) -> op = OIter /\
     (iinv pos (s_mem s) lv out -> iinv pos' (s_mem s') lv out /\
        forall k, reported pos' (s_mem s') lv out k = reported pos (s_mem s) lv out k \/ reported pos' (s_mem s') lv out k = absm (s_mem s') k)) ->
  iter_one pos' (ls ++ [lb]) s' (ev ++ e) o.
Proof.
  intros Hx Hst (H1 & H2 & H3 & H4) Hy Hr Ho Hin. assert (yields_of (ev ++ e) o = yields_of ev o) as Ey by (rewrite yields_app, Hy; apply app_nil_r).
  split; [by rewrite Ey|]. split; [|split].
  - intros r. rewrite Ey. intros Hin'. apply seen_snoc. auto.
  - intros ys Hys. rewrite Ey. apply elem_of_app in Hys as [Hys|Hys]; [|by apply Hr in Hys]. destruct (H3 _ Hys) as [E Hs]. split; [done|].
    intros k. apply seen_snoc. auto.
  - unfold iter_st in *. rewrite Ey. destruct Ho as [Ho|Ho]; [|by rewrite Ho]. rewrite Ho. destruct (s_ops s !! o) as [[op p| | |]|] eqn:Eo; try done.
    destruct p; try done. destruct H4 as (I1 & I2 & I3). destruct (Hin _ _ _ eq_refl) as [-> Hk]. destruct (Hk I1) as [K1 K2]. split; [done|]. split; [done|].
    intros k. destruct (K2 k) as [->| ->]; [apply seen_snoc; auto|].
    pose proof (exec_snoc _ _ _ _ _ _ Hx Hst) as Hx'. exists (length (ls ++ [lb])). split; [done|]. split.
    + exists s'. eexists. split; [by eapply state_at_end|]. exact Ho.
    + by rewrite (A_of_end _ _ _ Hx').
Qed.

Lemma itinv_step ls s ev lb s' e : exec ls s ev -> itinv ls s ev -> step s lb = Some (s', e) -> itinv (ls ++ [lb]) s' (ev ++ e).
Proof.
  intros Hx IH Hst Hwf. destruct IH as (pos & Hfu & Hdr & Hit).
  { intros o op Hin. apply (Hwf o op). apply elem_of_app. by left. }
  assert (lb_wf lb) as Hlw. { destruct lb; try done. apply (Hwf o op). apply elem_of_app. right. by apply elem_of_list_singleton. }
  pose proof (exec_sinv _ _ _ Hx) as Hsi. pose proof (exec_snoc _ _ _ _ _ _ Hx Hst) as Hx'.
  (* steps that change neither nodes nor root *)
  assert (m_heap (s_mem s') = m_heap (s_mem s) -> m_root (s_mem s') = m_root (s_mem s) -> e = [] ->
    (forall o, s_ops s' !! o = s_ops s !! o \/ s_ops s' !! o = Some SGone) -> (s_dropped s = false \/ guards s = ∅) ->
    (s_dropped s' = false -> full pos s') -> (s_dropped s' = true -> guards s' = ∅) ->
    exists pos, (s_dropped s' = false -> full pos s') /\ (s_dropped s' = true -> guards s' = ∅) /\ forall o, iter_one pos (ls ++ [lb]) s' (ev ++ e) o) as Hquiet.
  { intros E1 E2 -> Hops Hd Hf Hg. exists pos. split; [done|]. split; [done|]. intros o.
    eapply (iter_one_frame pos pos); [done|done|apply Hit|done|intros r Hr; by apply elem_of_nil in Hr|apply Hops|].
    intros op lv out Eo. destruct Hd as [Hd|Hd].
    2:{ exfalso. assert (o ∈ guards s) as Hog by (apply elem_of_guards; eauto). rewrite Hd in Hog. by apply elem_of_empty in Hog. }
    split; [by destruct (fu_ops _ _ (Hfu Hd) _ _ _ Eo) as [_ ?]|]. intros Hi.
    assert (ext pos (s_mem s) pos (s_mem s')) as Hext.
    { intros l b Hb. split; [done|]. assert (hbody (s_mem s') l = Some b) as Hb' by (unfold hbody in *; by rewrite E1). destruct b; [eauto|done]. }
    apply (iinv_ext pos (s_mem s) pos (s_mem s')); [apply (Hfu Hd)|done| |done]. intros c k _ _. left. by apply lookc_same. }
  destruct (s_dropped s) eqn:Ed.
  { specialize (Hdr eq_refl). assert (forall o st, s_ops s !! o = Some st -> active st = true -> False) as Hno.
    { intros o st H1 H2. assert (o ∈ guards s) as Hin by (apply elem_of_guards; eauto). rewrite Hdr in Hin. by apply elem_of_empty in Hin. }
    destruct lb as [o op|o spur a|o|o|n|]; cbn [step] in Hst.
    - rewrite Ed in Hst. by destruct (s_ops s !! o).
    - destruct (s_ops s !! o) as [[]|] eqn:Eo; try done. exfalso. by eapply Hno.
    - destruct (s_ops s !! o) as [[]|] eqn:Eo; try done. exfalso. by eapply Hno.
    - destruct (s_ops s !! o) as [[]|] eqn:Eo; try done. exfalso. by eapply Hno.
    - destruct (m_garb (s_mem s) !! n) as [[[l k] g]|]; [|done]. case_bool_decide; [|done]. injection Hst as <- <-.
      apply Hquiet; try done; [by left|by right|]. simpl. by rewrite Ed.
    - rewrite Ed, andb_false_r in Hst. done. }
  specialize (Hfu eq_refl).
  assert (lb = LDrop \/ lb <> LDrop) as [->|Hnd]; [destruct lb; (by left) || (by right)| |].
  { cbn [step] in Hst. case_bool_decide as Hgu; [|done]. rewrite Ed in Hst. cbn [negb andb] in Hst.
    assert (m_heap (s_mem s') = m_heap (s_mem s) /\ m_root (s_mem s') = m_root (s_mem s) /\ e = [] /\ s_ops s' = s_ops s /\ s_dropped s' = true) as (E1 & E2 & -> & E3 & E4).
    { destruct (drop_rec _ _ _); injection Hst as <- <-; done. }
    apply Hquiet; try done.
    - intros o. left. by rewrite E3.
    - by left.
    - by rewrite E4.
    - intros _. unfold guards. by rewrite E3. }
  destruct (full_step pos s lb s' e Hfu Ed Hsi Hlw Hst Hnd) as (pos' & Hfu' & Ed' & Heff).
  destruct Heff as [o0 spur a op p m' nx acts Eo Estep Hmt Heff Hpc Hps Hw Es'|o0 op Eo -> Es'|o0 lb Eo Elb -> Es'|n -> E1 E2 E3 E4].
  - (* an access *)
    assert (s_mem s' = m') as Em by (by rewrite Es').
    pose proof (li_mem _ _ (fu_live _ _ Hfu)) as Hm. pose proof (mtr_ext _ _ _ _ _ Hm Hmt) as Hext.
    exists pos'. split; [done|]. split; [by rewrite Ed'|]. intros o. destruct (decide (o = o0)) as [->|Hne].
    2:{ eapply (iter_one_frame pos pos'); [done|done|apply Hit| | | |].
        - rewrite yields_app, yields_acts_ne by done. destruct nx; done.
        - intros r [Hr|Hr]%elem_of_app; [by apply acts_no_ret in Hr|]. destruct nx; try by apply elem_of_nil in Hr. apply elem_of_list_singleton in Hr. congruence.
        - left. rewrite Es'. simpl. by rewrite lookup_insert_ne.
        - intros op' lv out Ho'. split; [by destruct (fu_ops _ _ Hfu _ _ _ Ho') as [_ ?]|]. intros Hi. rewrite Em.
          apply (iinv_ext pos (s_mem s)); [done|done| |done]. intros c k Hc Hon. by eapply lookc_mtr_hind. }
    assert (s_ops s' !! o0 = Some (match nx with NRun p' => SRun op p' | NRet r => SRet op r | NFail f => SFail op f end)) as Eo'.
    { rewrite Es'. simpl. by rewrite lookup_insert. }
    destruct (Hit o0) as (H1 & H2 & H3 & H4). unfold iter_st in H4. rewrite Eo in H4.
    assert (forall r, ERet o0 r ∉ ev) as Hnr by (intros r; by eapply step_no_ret).
    assert (forall k lv out, nx = NRun (INext lv out) -> op = OIter -> seen (ls ++ [LStep o0 spur a]) o0 k (absm m' k)) as Hnow.
    { intros k lv out -> ->. exists (length (ls ++ [LStep o0 spur a])). split; [done|]. split; [|by rewrite (A_of_end _ _ _ Hx'), Em].
      exists s'. eexists. split; [by eapply state_at_end|exact Eo']. }
    assert (p = INew \/ (exists lv out, p = INext lv out) \/ (op <> OIter /\ yields_of ev o0 = [])) as [->|[(lv & out & ->)|[Hni Hy0]]].
    { destruct (iter_pc _ _ _ _ Hps) as [?|[->|(lv & out & ->)]]; [|by left|right; left; eauto]. right. right. split; [done|].
      destruct p; try done. }
    + (* creation of the iterator *)
      simpl in Hps. subst op. destruct (inew_step _ _ _ _ _ _ _ _ Hm (fu_sem _ _ Hfu) Estep) as (-> & -> & lv & -> & Hi & Hrep).
      assert (pos' = pos) as -> by (eapply mtr_det; [done|exact Hmt|constructor]).
      simpl. rewrite app_nil_r. split; [done|]. split; [intros r Hr; apply seen_snoc; auto|]. split; [intros ys Hys; by apply Hnr in Hys|].
      unfold iter_st. rewrite Eo', Em. split; [done|]. split; [done|]. intros k. rewrite Hrep. by eapply Hnow.
    + (* one step of it *)
      simpl in Hps. subst op. destruct H4 as (Hi & Hy & Hsn).
      destruct (inext_step _ _ _ _ _ _ _ _ _ _ _ Hm (fu_sem _ _ Hfu) Hpc Hi Estep) as (-> & Hnx).
      assert (pos' = pos) as -> by (eapply mtr_det; [done|exact Hmt|constructor]).
      destruct nx as [p'|r|f]; [|destruct r; try done|done].
      * destruct p'; try done. destruct Hnx as (Hi' & Hrep & Hact). rewrite app_nil_r.
        assert (yields_of (map (act_event o0) acts) o0 = match acts with [AYield r] => [r] | _ => [] end) as Eya.
        { destruct Hact as [[-> _]|(r & -> & _)]; simpl; [done|]. by rewrite decide_True. }
        assert (yields_of (ev ++ map (act_event o0) acts) o0 = out0) as Ey.
        { rewrite yields_app, Eya, Hy. destruct Hact as [[-> ->]|(r & -> & -> & _)]; [apply app_nil_r|done]. }
        unfold iter_one. rewrite Ey. split; [apply Hi'|]. split; [|split].
        -- intros r Hr. destruct Hact as [[-> ->]|(r' & -> & -> & Hr')]; [apply seen_snoc; rewrite <-Hy in Hr; auto|].
           apply elem_of_app in Hr as [Hr| ->%elem_of_list_singleton]; [apply seen_snoc; rewrite <-Hy in Hr; auto|].
           apply seen_snoc. rewrite <-Hr'. apply Hsn.
        -- intros ys [Hys|Hys]%elem_of_app; [by apply Hnr in Hys|by apply acts_no_ret in Hys].
        -- unfold iter_st. rewrite Eo', Em. split; [done|]. split; [done|]. intros k. rewrite Hrep. apply seen_snoc. auto.
      * destruct Hnx as (-> & -> & Hrep). simpl.
        assert (yields_of (ev ++ [ERet o0 (RIter out)]) o0 = out) as Ey by (rewrite yields_app; simpl; rewrite app_nil_r; done).
        unfold iter_one. rewrite Ey. rewrite <-Hy. split; [done|]. split; [intros r Hr; apply seen_snoc; auto|]. split.
        -- intros ys [Hys|Hys]%elem_of_app; [by apply Hnr in Hys|]. apply elem_of_list_singleton in Hys as [= ->]. split; [done|]. intros k. rewrite Hy, <-Hrep. apply seen_snoc. auto.
        -- unfold iter_st. by rewrite Eo'.
    + (* not an iterator *)
      assert (forall lv out, nx <> NRun (INext lv out)) as Hnn.
      { intros lv out ->. destruct (fu_ops _ _ Hfu' _ _ _ Eo') as [_ Hs2]. done. }
      destruct (op_step_yield _ _ _ _ _ _ _ _ Estep) as [Hy1 _].
      assert (forall r, AYield r ∉ acts) as Hna. { intros r Hr. destruct (Hy1 _ Hr) as (lv & out & E & _). by apply Hnn in E. }
      assert (yields_of (ev ++ map (act_event o0) acts ++ match nx with NRet r => [ERet o0 r] | _ => [] end) o0 = []) as Ey.
      { rewrite !yields_app, Hy0, yields_acts_none by done. by destruct nx. }
      unfold iter_one. rewrite Ey. split; [apply nodupk_nil|]. split; [intros r Hr; by apply elem_of_nil in Hr|]. split.
      * intros ys [Hys|Hys]%elem_of_app; [by apply Hnr in Hys|]. exfalso. apply elem_of_app in Hys as [Hys|Hys]; [by apply acts_no_ret in Hys|].
        destruct nx as [|r|]; try by apply elem_of_nil in Hys. apply elem_of_list_singleton in Hys as [= <-].
        unfold step_eff in Heff. destruct (dn p); [by destruct Heff|]. destruct op; try done; by destruct Heff as (x & ? & _).
      * unfold iter_st. rewrite Eo'. destruct nx as [p'|r|f]; try done. destruct p'; try done. by exfalso; eapply Hnn.
  - (* a call *)
    exists pos. split; [done|]. split; [by rewrite Ed'|]. intros o. destruct (decide (o = o0)) as [->|Hne].
    + destruct (Hit o0) as (H1 & H2 & H3 & H4). unfold iter_st in H4. rewrite Eo in H4.
      assert (yields_of (ev ++ [EInv o0 op]) o0 = []) as Ey by (rewrite yields_app, H4; done).
      unfold iter_one. rewrite Ey. split; [apply nodupk_nil|]. split; [intros r Hr; by apply elem_of_nil in Hr|]. split.
      * intros ys [Hys|Hys]%elem_of_app; [|by apply elem_of_list_singleton in Hys]. exfalso. apply (exec_events _ _ _ Hx) in Hys. simpl in Hys. by rewrite Eo in Hys.
      * unfold iter_st. rewrite Es'. simpl. rewrite lookup_insert. by destruct op.
    + eapply (iter_one_frame pos pos); [done|done|apply Hit|done|intros r Hr; by apply elem_of_list_singleton in Hr| |].
      * left. rewrite Es'. simpl. by rewrite lookup_insert_ne.
      * intros op' lv out Ho'. split; [by destruct (fu_ops _ _ Hfu _ _ _ Ho') as [_ ?]|]. intros Hi. rewrite Es'. simpl. split; [done|]. by left.
  - apply Hquiet; try (by rewrite Es'); try done; [|by left|by rewrite Ed'].
    intros o. rewrite Es'. simpl. destruct (decide (o0 = o)) as [<-|Hne]; [right; by rewrite lookup_insert|left; by rewrite lookup_insert_ne].
  - apply Hquiet; try done; [intros o; left; by rewrite E1|by left|by rewrite Ed'].
Qed.

Theorem exec_itinv ls s ev : exec ls s ev -> itinv ls s ev.
Proof.
  revert ls s ev. apply exec_ind.
  - intros _. exists (fun _ => []). split; [intros _; apply full_init|]. split; [done|]. intros o. split; [apply nodupk_nil|].
    split; [intros r Hr; by apply elem_of_nil in Hr|]. split; [intros ys Hys; by apply elem_of_nil in Hys|]. unfold iter_st. simpl. by rewrite lookup_empty.
  - intros ls s ev lb s' e Hx IH Hst. by eapply itinv_step.
Qed.
End itersys.
