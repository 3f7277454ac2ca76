(** * Progress on weakly ordered memory, 3: the machine that frees nodes. *)
From Verif Require Import Model Mem Spec ProgSpec Weak WeakInv WeakStep WeakSys WeakRun LinSpec Inv Safe SafeStep SafeOps SafeSys SafeProps Look Sem SemOps LiveStep Lock LockStep Lin LinProps Iter IterSpec IterSys
  WeakCoh WeakFun WeakWrite WeakWalk WeakTime WeakIter WeakBase WeakLin WeakLag WeakLock WeakLockSys WeakFree FreeSim FreeStep FreeInv FreeRun WeakProg.

Section wlockrun.
Context {C : Config} {HC : ConfigOk C} (w : orders).
Implicit Types (o : opid) (op : oper) (s : fstate) (b : cstate) (ls : list flabel) (ll : list clabel) (ev e : list event) (M : nat -> mem) (H : nat -> cell -> list sh) (pos : loc -> list nat).

Record pinv M H (N : nat) pos ll b ev s : Prop := {
  pi_f : finv M H N pos ll b ev s;
  pi_l : wlinv b;
  pi_reg : forall i g c, f_regs s !! i = Some g -> g_fl g c = 0 \/ g_fl g c < length (w_hist (c_w (f_c s)) c);
}.
Definition lives s o : bool := bool_decide (o ∉ f_gone s).

Lemma pi_ops M H N pos ll b ev s : pinv M H N pos ll b ev s -> w_ops (c_w b) = w_ops (c_w (f_c s)).
Proof. intros [I _ _]. apply (ws_ops _ _ (cs_w _ _ (fi_sim _ _ _ _ _ _ _ _ I))). Qed.
Lemma f_mod_spec s o x : w_ops (c_w (f_c s)) !! o = Some x -> f_mod s o = lives s o && modifying (w_st x).
Proof. intros Hx. unfold f_mod, f_alive, lives. rewrite Hx. f_equal. apply bool_decide_ext. split; [by intros [_ ?]|]. intros ?. split; [by eexists|done]. Qed.
Lemma f_mod_count M H N pos ll b ev s : pinv M H N pos ll b ev s -> f_mod_running s = wCnt (lives s) b.
Proof.
  intros P. unfold f_mod_running, wCnt, msum. rewrite (pi_ops _ _ _ _ _ _ _ _ P).
  assert (forall l : list (opid * wop), (forall o x, (o, x) ∈ l -> w_ops (c_w (f_c s)) !! o = Some x) -> length (List.filter (f_mod s) l.*1) = sum_list_with (fun y => wind (lives s) y.1 y.2) l) as Hl.
  { induction l as [|[o x] l IH]; intros Hin; [done|]. simpl. unfold wind at 1. rewrite (f_mod_spec s o x) by (apply Hin; by left). specialize (IH ltac:(intros; apply Hin; by right)). destruct (lives s o && modifying (w_st x)); [exact (f_equal S IH)|exact IH]. }
  rewrite (Hl (map_to_list (w_ops (c_w (f_c s))))); [done|]. intros o x. by rewrite elem_of_map_to_list.
Qed.
Lemma f_running_mod M H N pos ll b ev s o : pinv M H N pos ll b ev s -> f_mod s o = true <-> exists op, f_running s o op /\ is_reader op = false.
Proof.
  intros P. unfold f_mod, f_running. split.
  - intros [Ha Hm]%andb_true_iff. destruct (w_ops (c_w (f_c s)) !! o) as [[st tv pv]|]; [|done]. destruct st as [op p| | |]; try done. exists op. split; [split; [done|eauto]|]. by apply negb_true_iff in Hm.
  - intros (op & [Ha (p & tv & pv & Ho)] & Hr). rewrite Ha, Ho. simpl. by rewrite Hr.
Qed.

(** The potential does not depend on calls that contribute nothing. *)
Lemma Phi_live n live live' pos b : (forall o x, w_ops (c_w b) !! o = Some x -> live' o = live o \/ wstw n b o x = 0 /\ modifying (w_st x) = false) ->
  wPhi n live' pos b = wPhi n live pos b /\ wCnt live' b = wCnt live b.
Proof.
  intros Hx. split.
  - unfold wPhi, wPsi. f_equal. apply msum_ind. intros o x Ho. destruct (Hx o x Ho) as [->|[-> _]]; [done|]. by destruct (live' o), (live o).
  - unfold wCnt. apply msum_ind. intros o x Ho. unfold wind. destruct (Hx o x Ho) as [->|[_ ->]]; [done|]. by rewrite !andb_false_r.
Qed.

Lemma pinv0 : exists pos, pinv (fun _ => mem0) (fun _ => vals (w_hist winit)) 0 pos [] cinit [] finit.
Proof. destruct (finv0) as [pos I]. exists pos. split; [done|apply wlinv0|done]. Qed.

Lemma pinv_pay n M H N pos ll b ev s lb s' e : strong w -> pinv M H N pos ll b ev s -> (forall o op ps ds, lb = FInv o op ps ds -> op_wf op) -> fstep w s lb = Some (s', e) -> f_mod_running s <= n ->
  exists M' H' N' pos' ll' b', pinv M' H' N' pos' ll' b' (ev ++ e) s' /\
    (f_mod_ends s lb e \/
     (exists o op ps ds, lb = FInv o op ps ds /\ is_reader op = false /\ f_mod_running s' = S (f_mod_running s)) \/
     f_mod_running s' = f_mod_running s /\ wPhi n (lives s') pos' b' + (if f_mod_step s lb then 1 else 0) <= wPhi n (lives s) pos b + 201 * if f_spurious lb then 1 else 0).
Proof.
  intros Hw P Hwf Hst Hn. pose proof P as [I L R]. pose proof (pi_ops _ _ _ _ _ _ _ _ P) as Eops.
  (* nothing changes for the calls *)
  assert (forall s1, finv M H N pos ll b (ev ++ []) s1 -> f_regs s1 = f_regs s -> w_hist (c_w (f_c s1)) = w_hist (c_w (f_c s)) -> pinv M H N pos ll b (ev ++ []) s1) as Hpi.
  { intros s1 I1 E1 E2. split; [done|done|]. by rewrite E1, E2. }
  destruct lb as [o op ps ds|o k spur a|o|o|i|].
  - destruct (finv_inv _ _ _ _ _ _ _ _ _ _ _ _ _ _ _ (Hwf _ _ _ _ eq_refl) Hw I Hst) as (b' & Hb & I').
    assert (pinv M H N pos (ll ++ [CInv o op ps]) b' (ev ++ e) s') as P'.
    { split; [done|by eapply wlinv_inv|]. cbn [fstep] in Hst. destruct (_ && _ && _); [|done]. destruct (cstep w (f_c s) (CInv o op ps)) as [[c' ev2]|] eqn:Ecs; [|done]. injection Hst as <- <-. cbn [f_regs f_c].
      cbn [cstep wstep] in Ecs. destruct (forallb _ ps); [|done]. destruct (w_ops (c_w (f_c s)) !! o); [done|]. by injection Ecs as <- <-. }
    exists M, H, N, pos, (ll ++ [CInv o op ps]), b'. split; [done|].
    rewrite (f_mod_count _ _ _ _ _ _ _ _ P), (f_mod_count _ _ _ _ _ _ _ _ P').
    assert (lives s' = lives s) as -> by (cbn [fstep] in Hst; destruct (_ && _ && _); [|done]; destruct (cstep w (f_c s) _) as [[? ?]|]; [|done]; by injection Hst as <- <-).
    cbn [cstep wstep] in Hb. destruct (forallb _ ps); [|done]. destruct (w_ops (c_w b) !! o) eqn:Eo; [done|]. injection Hb as <- <-.
    assert (wCnt (lives s) (CState (WState (w_mem (c_w b)) (w_hist (c_w b)) (<[o := WOp (SRun op (op_init op)) ∅ ∅]> (w_ops (c_w b)))) (fun o' c => if decide (o' = o) then max_list ((fun y => c_fl b y c) <$> ps) else c_fl b o' c)) = wCnt (lives s) b + if lives s o && negb (is_reader op) then 1 else 0) as Hc.
    { unfold wCnt. cbn [c_w w_ops]. rewrite msum_insert by done. unfold wind at 1. simpl. lia. }
    rewrite Hc. right. destruct (lives s o && negb (is_reader op)) eqn:El.
    + left. apply andb_true_iff in El as [_ El]. apply negb_true_iff in El. exists o, op, ps, ds. split; [done|]. split; [done|]. lia.
    + right. split; [lia|]. cbn [f_mod_step f_spurious]. unfold wPhi, wPsi. cbn [c_w w_ops w_mem]. rewrite msum_insert by done. cbn [wstw w_st].
      assert ((if lives s o then if is_reader op then 0 else 1 else 0) = 0) as E0 by (destruct (lives s o), (is_reader op); done).
      match goal with |- context [(if lives s o then ?zz else 0) + msum ?ff _] => assert ((if lives s o then zz else 0) = 0) as -> by (unfold wstw; cbn [w_st]; destruct (lives s o), (is_reader op); done);
        assert (msum ff (w_ops (c_w b)) = msum (fun o x => if lives s o then wstw n b o x else 0) (w_ops (c_w b))) as ->; [|lia] end.
      apply msum_ind. intros o' x Hx. destruct (lives s o'); [|done]. unfold wstw. destruct (w_st x) as [op' q| | |]; try done. destruct (is_reader op'); [done|]. cbn [c_w w_mem]. f_equal. f_equal. apply lag_same; [done|done|done|].
      intros c. cbn [c_fl]. rewrite decide_False; [done|]. intros ->. discriminate (eq_trans (eq_sym Hx) Eo).
  - destruct (finv_step _ _ _ _ _ _ _ _ _ _ _ _ _ _ _ Hw I Hst) as (M' & H' & N' & pos' & b' & a' & Hb & I').
    pose proof (wlinv_step w _ _ _ _ _ _ _ _ _ _ _ _ _ _ _ _ _ _ _ Hw (fi_b _ _ _ _ _ _ _ _ I) (fi_b _ _ _ _ _ _ _ _ I') L Hb) as L'.
    destruct (step_info w _ _ _ _ _ _ _ _ _ _ _ _ _ _ _ _ _ _ _ Hw (fi_b _ _ _ _ _ _ _ _ I) (fi_b _ _ _ _ _ _ _ _ I') Hb) as (op0 & p0 & tv0 & pv0 & nx & tv' & pv' & acts & Ho0 & _ & _ & _ & _ & Hi).
    pose proof (hist_grows _ _ _ _ _ _ _ _ _ _ Hi) as Hgr.
    cbn [fstep] in Hst. destruct (_ && _) eqn:Ec; [|done]. apply andb_true_iff in Ec as [Hal _].
    destruct (cstep w (f_c s) (CStep o k spur a)) as [[c' ev2]|] eqn:Ecs; [|done]. injection Hst as <- <-.
    match type of I' with finv _ _ _ _ _ _ _ ?st => set (s' := st) in * end.
    assert (pinv M' H' N' pos' (ll ++ [CStep o k spur a']) b' (ev ++ ev2) s') as P'.
    { split; [done|done|]. intros i g c Hg. cbn [s' f_regs f_c] in *.
      assert (forall c, w_hist (c_w c') c = w_hist (c_w b') c) as Eh by (intros x; symmetry; apply (ws_hist _ _ (cs_w _ _ (fi_sim _ _ _ _ _ _ _ _ I')))).
      assert (forall c, w_hist (c_w (f_c s)) c = w_hist (c_w b) c) as Eh0 by (intros x; symmetry; apply (ws_hist _ _ (cs_w _ _ (fi_sim _ _ _ _ _ _ _ _ I)))).
      apply lookup_app_Some in Hg as [Hg|[_ Hg]].
      - destruct (R _ _ c Hg) as [E|E]; [by left|]. right. rewrite Eh. rewrite Eh0 in E. rewrite <-vals_length in E |- *. destruct (lookup_lt_is_Some_2 (vals (w_hist (c_w b)) c) (pred (length (vals (w_hist (c_w b)) c))) ltac:(lia)) as [z Hz].
        apply Hgr, lookup_lt_Some in Hz. lia.
      - unfold new_regs in Hg. apply elem_of_list_lookup_2, elem_of_list_fmap in Hg as (y & -> & _). cbn [g_fl]. rewrite Eh. rewrite <-(cs_fl _ _ (fi_sim _ _ _ _ _ _ _ _ I')). apply (wl_fl _ L'). }
    exists M', H', N', pos', (ll ++ [CStep o k spur a']), b'. split; [done|].
    assert (lives s' = lives s) as El by done. rewrite El. rewrite (f_mod_count _ _ _ _ _ _ _ _ P), (f_mod_count _ _ _ _ _ _ _ _ P'), El. rewrite (f_mod_count _ _ _ _ _ _ _ _ P) in Hn.
    assert (lives s o = true) as Hlo by (unfold f_alive in Hal; apply bool_decide_eq_true in Hal as [_ ?]; by apply bool_decide_eq_true).
    destruct (wsys_step w n (lives s) _ _ _ _ _ _ _ _ _ _ _ _ _ _ _ _ _ _ _ Hw (fi_b _ _ _ _ _ _ _ _ I) (fi_b _ _ _ _ _ _ _ _ I') L Hb Hlo Hn) as (op & p & tv & pv & Ho & Hc).
    rewrite Eops in Ho. cbn [f_mod_step f_spurious]. rewrite (f_mod_spec _ _ _ Ho), Hlo. cbn [andb w_st modifying]. destruct Hc as [[Hr Hret]|[Hc1 Hc2]].
    + left. exists o, op. split; [split; [done|eauto]|]. split; [done|]. by left.
    + right. right. split; [done|]. destruct (is_reader op); simpl; lia.
  - cbn [fstep] in Hst. destruct (_ && _) eqn:Ec; [|done]. apply andb_true_iff in Ec as [_ Hret]. injection Hst as <- <-.
    assert (pinv M H N pos ll b (ev ++ []) (FState (f_c s) (f_regs s) (f_sync s) (f_done s) ({[o]} ∪ f_gone s) (f_dropped s) (f_ub s))) as P' by (apply Hpi; [rewrite app_nil_r; by apply finv_gone|done|done]).
    exists M, H, N, pos, ll, b. split; [done|]. right. right. rewrite (f_mod_count _ _ _ _ _ _ _ _ P), (f_mod_count _ _ _ _ _ _ _ _ P').
    destruct (Phi_live n (lives s) (lives (FState (f_c s) (f_regs s) (f_sync s) (f_done s) ({[o]} ∪ f_gone s) (f_dropped s) (f_ub s))) pos b) as [E1 E2]; [|rewrite E1, E2; split; [done|cbn [f_mod_step f_spurious]; lia]].
    intros o' x Hx. destruct (decide (o' = o)) as [->|Hne]; [|left; unfold lives; apply bool_decide_ext; cbn [f_gone]; set_solver].
    right. rewrite Eops in Hx. unfold is_returned in Hret. rewrite Hx in Hret. destruct x as [[]]; done.
  - cbn [fstep] in Hst. destruct (_ && _) eqn:Ec; [|done]. apply andb_true_iff in Ec as [Hal Hret]. injection Hst as <- <-.
    assert (pinv M H N pos ll b (ev ++ []) (FState (f_c s) (f_regs s) (f_sync s) (f_done s) ({[o]} ∪ f_gone s) (f_dropped s) (f_ub s))) as P' by (apply Hpi; [rewrite app_nil_r; by apply finv_gone|done|done]).
    exists M, H, N, pos, ll, b. split; [done|]. destruct (f_mod s o) eqn:Em.
    + left. apply (f_running_mod _ _ _ _ _ _ _ _ _ P) in Em as (op & Hr1 & Hr2). exists o, op. split; [done|]. split; [done|]. by right.
    + right. right. rewrite (f_mod_count _ _ _ _ _ _ _ _ P), (f_mod_count _ _ _ _ _ _ _ _ P').
      destruct (Phi_live n (lives s) (lives (FState (f_c s) (f_regs s) (f_sync s) (f_done s) ({[o]} ∪ f_gone s) (f_dropped s) (f_ub s))) pos b) as [E1 E2]; [|rewrite E1, E2; split; [done|cbn [f_mod_step f_spurious]; lia]].
      intros o' x Hx. destruct (decide (o' = o)) as [->|Hne]; [|left; unfold lives; apply bool_decide_ext; cbn [f_gone]; set_solver].
      right. rewrite Eops in Hx. unfold f_mod in Em. rewrite Hal, Hx in Em. simpl in Em. split; [|done]. unfold wstw. destruct (w_st x); try done. simpl in Em. apply negb_false_iff in Em. by rewrite Em.
  - destruct (finv_free _ _ _ _ _ _ _ _ _ _ _ _ I Hst) as [-> I']. cbn [fstep] in Hst. destruct (f_regs s !! i) as [g|]; [|done]. destruct (_ && _); [|done]. injection Hst as <-.
    match type of I' with finv _ _ _ _ _ _ _ ?st => set (s' := st) in * end.
    assert (pinv M H N pos ll b (ev ++ []) s') as P' by (apply Hpi; [by rewrite app_nil_r|done|done]).
    exists M, H, N, pos, ll, b. split; [done|]. right. right. rewrite (f_mod_count _ _ _ _ _ _ _ _ P), (f_mod_count _ _ _ _ _ _ _ _ P'). assert (lives s' = lives s) as -> by done. split; [done|cbn [f_mod_step f_spurious]; lia].
  - destruct (finv_drop _ _ _ _ _ _ _ _ _ _ _ I Hst) as [-> I'].
    assert (pinv M H N pos ll b (ev ++ []) s' /\ lives s' = lives s) as [P' El].
    { cbn [fstep] in Hst. destruct (_ && _); [|done]. destruct (drop_rec _ _ _); injection Hst as <-; (split; [apply Hpi; [by rewrite app_nil_r|done|done]|done]). }
    exists M, H, N, pos, ll, b. split; [done|]. right. right. rewrite (f_mod_count _ _ _ _ _ _ _ _ P), (f_mod_count _ _ _ _ _ _ _ _ P'), El. split; [done|cbn [f_mod_step f_spurious]; lia].
Qed.

(** ** Calls in progress were in progress before *)
Lemma wstep_back (s s' : wstate) o n spur a e : wstep w s (WStep o n spur a) = Some (s', e) ->
  forall o' op p tv pv, w_ops s' !! o' = Some (WOp (SRun op p) tv pv) -> exists p' tv' pv', w_ops s !! o' = Some (WOp (SRun op p') tv' pv').
Proof.
  intros Hst o' op p tv pv Ho'. cbn [wstep] in Hst. destruct (w_ops s !! o) as [[st tv0 pv0]|] eqn:Ho; [|done]. destruct st as [op0 p0| | |]; try done.
  assert (forall st tv1 pv1, (forall op1 p1, st = SRun op1 p1 -> op1 = op0) -> w_ops s' = <[o := WOp st tv1 pv1]> (w_ops s) -> exists p' tv' pv', w_ops s !! o' = Some (WOp (SRun op p') tv' pv')) as Hx.
  { intros st tv1 pv1 Hs E. rewrite E in Ho'. destruct (decide (o' = o)) as [->|Hne]; [|rewrite lookup_insert_ne in Ho' by done; eauto]. rewrite lookup_insert in Ho'. injection Ho' as -> -> ->. rewrite (Hs op p eq_refl). eauto. }
  assert (forall nx op1 p1, nx_stat op0 nx = SRun op1 p1 -> op1 = op0) as Hnx by (intros [] ? ?; simpl; congruence).
  assert (forall tv1 pv1 m, w_local s o op0 tv1 pv1 m p0 spur a = Some (s', e) -> exists p' tv' pv', w_ops s !! o' = Some (WOp (SRun op p') tv' pv')) as Hl.
  { intros tv1 pv1 m E. unfold w_local in E. destruct (see_step _ _ _ _ _ _) as [[[m' nx] acts]|]; [|done]. injection E as <- _. eapply Hx; [apply Hnx|reflexivity]. }
  assert (forall tv1 pv1 c ord, w_write s o op0 tv1 pv1 c ord p0 spur a = Some (s', e) -> exists p' tv' pv', w_ops s !! o' = Some (WOp (SRun op p') tv' pv')) as Hwr.
  { intros tv1 pv1 c ord E. unfold w_write in E. destruct (see_step _ _ _ _ _ _) as [[[m' nx] acts]|]; [|done]. injection E as <- _. eapply Hx; [apply Hnx|reflexivity]. }
  destruct (access w p0) as [[[c k] ord]|]; [|by eapply Hl]. destruct (negb _); [injection Hst as <- _; by eapply Hx; [|reflexivity]|].
  destruct (w_hist s c) as [|y h]; [injection Hst as <- _; by eapply Hx; [|reflexivity]|]. destruct ((y :: h) !! n) as [[v W]|]; [|done]. destruct k.
  - by eapply Hl.
  - by eapply Hl.
  - destruct (bool_decide _); [by eapply Hwr|done].
  - destruct (_ && _); [by eapply Hwr|]. destruct (cas_wins _ _ _); [done|by eapply Hl].
Qed.
Lemma f_running_back s lb s' e o op : fstep w s lb = Some (s', e) -> (forall ps ds, lb <> FInv o op ps ds) -> f_running s' o op -> f_running s o op.
Proof.
  intros Hst Hni [Hal (p & tv & pv & Hp)]. unfold f_running, f_alive in *. apply bool_decide_eq_true in Hal as [_ Hg].
  assert (o ∉ f_gone s -> (exists p tv pv, w_ops (c_w (f_c s)) !! o = Some (WOp (SRun op p) tv pv)) -> bool_decide (is_Some (w_ops (c_w (f_c s)) !! o) /\ o ∉ f_gone s) = true /\ exists p tv pv, w_ops (c_w (f_c s)) !! o = Some (WOp (SRun op p) tv pv)) as Hfin.
  { intros H1 (q & tv1 & pv1 & Hq). split; [|eauto]. apply bool_decide_eq_true. rewrite Hq. split; [by eexists|done]. }
  destruct lb as [o1 op1 ps ds|o1 n spur a|o1|o1|i|]; cbn [fstep] in Hst.
  - destruct (_ && _ && _); [|done]. destruct (cstep w (f_c s) _) as [[c' ev2]|] eqn:Ec; [|done]. injection Hst as <- <-. cbn [f_c f_gone] in *. apply Hfin; [done|]. cbn [cstep wstep] in Ec. destruct (forallb _ ps); [|done].
    destruct (w_ops (c_w (f_c s)) !! o1) eqn:E1; [done|]. injection Ec as <- <-. cbn [c_w w_ops] in Hp. destruct (decide (o = o1)) as [->|Hne]; [|rewrite lookup_insert_ne in Hp by done; eauto].
    rewrite lookup_insert in Hp. injection Hp as <- _ _ _. by destruct (Hni ps ds).
  - destruct (_ && _); [|done]. destruct (cstep w (f_c s) _) as [[c' ev2]|] eqn:Ec; [|done]. injection Hst as <- <-. cbn [f_c f_gone] in *. apply Hfin; [done|]. cbn [cstep] in Ec.
    destruct (wstep w (c_w (f_c s)) (WStep o1 n spur a)) as [[s1 e1]|] eqn:Ew; [|done]. assert (c_w c' = s1) as E1. { destruct (next_cell w (c_w (f_c s)) o1); [destruct (_ <? _); [done|]|]; by injection Ec as <- <-. }
    rewrite E1 in Hp. by eapply wstep_back.
  - destruct (_ && _); [|done]. injection Hst as <- <-. cbn [f_c f_gone] in *. apply Hfin; [set_solver|eauto].
  - destruct (_ && _); [|done]. injection Hst as <- <-. cbn [f_c f_gone] in *. apply Hfin; [set_solver|eauto].
  - destruct (f_regs s !! i); [|done]. destruct (_ && _); [|done]. injection Hst as <- <-. cbn [f_c f_gone set_mem c_w w_ops] in *. apply Hfin; [done|eauto].
  - destruct (_ && _); [|done]. destruct (drop_rec _ _ _); injection Hst as <- <-; cbn [f_c f_gone set_mem c_w w_ops] in *; (apply Hfin; [done|eauto]).
Qed.

(** ** Finite schedules *)
Lemma fin_pay n ls : strong w -> forall M H N pos ll b ev s s' ev', pinv M H N pos ll b ev s -> wf_fcalls ls -> f_mod_running s <= n -> frun w s ls = Some (s', ev') -> f_no_new ls ->
  (exists o op, f_running s o op /\ is_reader op = false /\ ((exists r, ERet o r ∈ ev') \/ FAbort o ∈ ls)) \/ f_mod_steps w s ls <= wPhi n (lives s) pos b + 201 * f_spurious_steps ls.
Proof.
  intros Hw. induction ls as [|lb ls IH]; intros M H N pos ll b ev s s' ev' P Hwf Hn Hrun Hnn; [right; simpl; lia|].
  cbn [frun f_mod_steps] in *. destruct (fstep w s lb) as [[s1 e1]|] eqn:Es; [|done]. destruct (frun w s1 ls) as [[s2 e2]|] eqn:Er; [|done]. injection Hrun as <- <-.
  destruct (pinv_pay n M H N pos ll b ev s lb s1 e1 Hw P) as (M1 & H1 & N1 & pos1 & ll1 & b1 & P1 & Hc); [|exact Es|done|].
  { intros o op ps ds ->. eapply Hwf. by left. }
  assert (f_no_new ls) as Hnn1 by (intros o op ps ds Hx; apply (Hnn o op ps ds); by right). assert (wf_fcalls ls) as Hwf1 by (intros o op ps ds Hx; eapply Hwf; by right).
  assert (forall o op ps ds, lb = FInv o op ps ds -> is_reader op = true) as Hinv by (intros o op ps ds ->; apply (Hnn o op ps ds); left).
  destruct Hc as [(o & op & H2 & H3 & H4)|[(o & op & ps & ds & -> & H2 & _)|[H2 H3]]].
  - left. exists o, op. split; [done|]. split; [done|]. destruct H4 as [[r H4]| ->]; [left; exists r; apply elem_of_app; by left|right; left].
  - by rewrite (Hinv _ _ _ _ eq_refl) in H2.
  - destruct (IH _ _ _ _ _ _ _ _ _ _ P1 Hwf1 ltac:(lia) Er Hnn1) as [(o & op & H4 & H5 & H6)|H4].
    + left. exists o, op. split; [eapply f_running_back; [exact Es| |exact H4]|]. { intros ps ds ->. by rewrite (Hinv _ _ _ _ eq_refl) in H5. }
      split; [done|]. destruct H6 as [[r H6]|H6]; [left; exists r; apply elem_of_app; by right|right; by right].
    + right. unfold f_spurious_steps in *. cbn [List.filter]. destruct (f_spurious lb); cbn [length]; lia.
Qed.
Lemma pinv_run ls : strong w -> forall M H N pos ll b ev s s' ev', pinv M H N pos ll b ev s -> wf_fcalls ls -> frun w s ls = Some (s', ev') ->
  exists M' H' N' pos' ll' b', pinv M' H' N' pos' ll' b' (ev ++ ev') s'.
Proof.
  intros Hw. induction ls as [|lb ls IH]; intros M H N pos ll b ev s s' ev' P Hwf Hrun; cbn [frun] in Hrun.
  { injection Hrun as <- <-. rewrite app_nil_r. eauto 10. }
  destruct (fstep w s lb) as [[s1 e1]|] eqn:Es; [|done]. destruct (frun w s1 ls) as [[s2 e2]|] eqn:Er; [|done]. injection Hrun as <- <-.
  destruct (pinv_pay (f_mod_running s) M H N pos ll b ev s lb s1 e1 Hw P) as (M1 & H1 & N1 & pos1 & ll1 & b1 & P1 & _); [|exact Es|done|].
  { intros o op ps ds ->. eapply Hwf. by left. }
  rewrite app_assoc. eapply IH; [exact P1| |exact Er]. intros o op ps ds Hx. eapply Hwf. by right.
Qed.
Lemma fexec_pinv ls s ev : strong w -> wf_fcalls ls -> fexec w ls s ev -> exists M H N pos ll b, pinv M H N pos ll b ev s.
Proof. intros Hw Hwf Hx. destruct pinv0 as [pos P]. exact (pinv_run ls Hw _ _ _ _ _ _ _ _ _ _ P Hwf Hx). Qed.

(** ** A call in progress can take a step *)
Lemma max_list_lt (l : list nat) n : (forall x, x ∈ l -> x = 0 \/ x < S n) -> max_list l <= n.
Proof. intros Hl. destruct (max_list_in l) as [->|Hin]; [lia|]. destruct (Hl _ Hin); lia. Qed.
Lemma see_total tv pv m p a : addr_free m a = true -> see_step tv pv m p false a <> None.
Proof. intros Ha. unfold see_step, ok. pose proof (op_step_total ∅ m p false a Ha). destruct (op_step ∅ (hide tv pv m) p false a) as [[[m1 [|?|[]]] acts]|]; done. Qed.
Definition new_addr (m : mem) : N := N.succ (foldr N.max 0%N ((fun lo => ho_addr lo.2) <$> map_to_list (m_heap m))).
Lemma new_addr_free m : addr_free m (new_addr m) = true.
Proof.
  unfold addr_free, new_addr. apply andb_true_iff. split.
  - apply negb_true_iff, N.eqb_neq. lia.
  - apply forallb_forall. intros [l o] Hin%elem_of_list_In. apply orb_true_iff. right. apply negb_true_iff, N.eqb_neq.
    assert ((ho_addr o <= foldr N.max 0 ((λ lo, ho_addr lo.2) <$> map_to_list (m_heap m)))%N); [|lia].
    apply (elem_of_list_fmap_1 (fun lo => ho_addr lo.2)) in Hin. simpl in Hin. revert Hin.
    generalize ((λ lo : loc * hobj, ho_addr lo.2) <$> map_to_list (m_heap m)). intros xs.
    induction xs as [|x xs IH]; intros Hin; [by apply elem_of_nil in Hin|]. simpl. apply elem_of_cons in Hin as [->|?]; [lia|].
    specialize (IH ltac:(done)). lia.
Qed.
End wlockrun.
