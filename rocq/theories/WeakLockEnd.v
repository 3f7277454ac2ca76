(** * Progress on weakly ordered memory, 4: steps are possible; infinite executions. *)
From Verif Require Import Model Mem Spec ProgSpec Weak WeakInv WeakStep WeakSys WeakRun LinSpec Inv Safe SafeStep SafeOps SafeSys SafeProps Look Sem SemOps LiveStep Lock LockStep Lin LinProps Iter IterSpec IterSys
  WeakCoh WeakFun WeakWrite WeakWalk WeakTime WeakIter WeakBase WeakLin WeakLag WeakLock WeakLockSys WeakFree FreeSim FreeStep FreeInv FreeRun WeakProg WeakLockRun.

Section wlockend.
Context {C : Config} {HC : ConfigOk C} (w : orders).
Implicit Types (o : opid) (op : oper) (s : fstate) (b : cstate) (ls : list flabel) (ll : list clabel) (ev e : list event) (M : nat -> mem) (H : nat -> cell -> list sh) (pos : loc -> list nat).

Lemma write_same (m : mem) c v : cval m c = Some v -> write_cell m c v = m.
Proof.
  destruct c as [|l i]; simpl.
  - intros [= <-]. by destruct m.
  - unfold cval. unfold hbody. destruct (m_heap m !! l) as [[a [sl|it]]|] eqn:E; simpl; try done. intros Hi. replace (alter (set_slot i v) l (m_heap m)) with (m_heap m); [by destruct m|].
    apply map_eq. intros l'. destruct (decide (l' = l)) as [->|Hne]; [|by rewrite lookup_alter_ne]. rewrite lookup_alter, E. simpl. unfold set_slot. simpl. by rewrite list_insert_id.
Qed.
Lemma pi_newest M H N pos ll b ev s c v W : pinv M H N pos ll b ev s -> last (w_hist (c_w (f_c s)) c) = Some (v, W) -> write_cell (f_mem s) c v = f_mem s.
Proof.
  intros [I _ _] Hl. pose proof (fi_b _ _ _ _ _ _ _ _ I) as B.
  apply write_same. rewrite <-bm_cval. unfold f_mem. rewrite <-(ws_mem _ _ (cs_w _ _ (fi_sim _ _ _ _ _ _ _ _ I))), <-(b_mem _ _ _ _ _ _ _ B), <-(tl_last _ _ _ _ (b_tl _ _ _ _ _ _ _ B)) by lia.
  rewrite (b_hist _ _ _ _ _ _ _ B). unfold vals. rewrite (ws_hist _ _ (cs_w _ _ (fi_sim _ _ _ _ _ _ _ _ I))), fmap_last. exact (f_equal (fmap fst) Hl).
Qed.

(** A call in progress can take a step: the newest values can always be read. *)
Lemma wstep_newest (s : wstate) o op p tv pv c k ord : w_ops s !! o = Some (WOp (SRun op p) tv pv) -> access w p = Some (c, k, ord) ->
  (forall v W, last (w_hist s c) = Some (v, W) -> write_cell (w_mem s) c v = w_mem s) ->
  exists (s' : wstate) e, wstep w s (WStep o (pred (length (w_hist s c))) false (new_addr (w_mem s))) = Some (s', e).
Proof.
  intros Ho Ha Hl. cbn [wstep]. rewrite Ho, Ha. destruct (negb _); [eauto|]. destruct (w_hist s c) as [|y h] eqn:Eh; [eauto|]. cbn [pred length].
  destruct (lookup_lt_is_Some_2 (y :: h) (length h) ltac:(simpl; lia)) as [[v W] Hv]. match goal with |- context [match ?z with Some _ => _ | None => _ end] => change z with ((y :: h) !! length h) end. rewrite Hv.
  rewrite last_lookup in Hl. cbn [length pred] in Hl. rewrite (Hl v W Hv). rewrite bool_decide_eq_true_2 by done.
  assert (forall tv pv, exists (s' : wstate) e, w_local s o op tv pv (w_mem s) p false (new_addr (w_mem s)) = Some (s', e)) as Hloc.
  { intros tv1 pv1. unfold w_local. pose proof (see_total tv1 pv1 (w_mem s) p _ (new_addr_free (w_mem s))). destruct (see_step _ _ _ _ _ _) as [[[? ?] ?]|]; [eauto|done]. }
  assert (forall tv pv, exists (s' : wstate) e, w_write s o op tv pv c ord p false (new_addr (w_mem s)) = Some (s', e)) as Hwr.
  { intros tv1 pv1. unfold w_write. pose proof (see_total tv1 pv1 (w_mem s) p _ (new_addr_free (w_mem s))). destruct (see_step _ _ _ _ _ _) as [[[? ?] ?]|]; [eauto|done]. }
  destruct k; [apply Hloc|apply Hloc|apply Hwr|]. cbn [andb]. destruct (cas_wins (w_mem s) p false); [apply Hwr|apply Hloc].
Qed.

Definition newest_step s o : flabel := FStep o (match next_cell w (c_w (f_c s)) o with Some c => pred (length (w_hist (c_w (f_c s)) c)) | None => 0 end) false (new_addr (f_mem s)).
Lemma can_step M H N pos ll b ev s o op : pinv M H N pos ll b ev s -> f_running s o op -> exists s' e, fstep w s (newest_step s o) = Some (s', e).
Proof.
  intros P [Hal (p & tv & pv & Ho)]. unfold newest_step. destruct (access w p) as [[[c k] ord]|] eqn:Ea.
  - assert (next_cell w (c_w (f_c s)) o = Some c) as En by (unfold next_cell; by rewrite Ho, Ea). rewrite En. cbn [fstep]. rewrite Hal, En.
    assert (f_floor s (f_sync s o) c <= pred (length (w_hist (c_w (f_c s)) c))) as Hf.
    { unfold f_floor. apply max_list_lt. intros x (i & -> & _)%elem_of_list_fmap. destruct (f_regs s !! i) as [g|] eqn:Eg; [|by left]. destruct (pi_reg _ _ _ _ _ _ _ _ P _ _ c Eg); lia. }
    assert (c_fl (f_c s) o c <= pred (length (w_hist (c_w (f_c s)) c))) as Hfl.
    { destruct P as [I L _]. rewrite <-(cs_fl _ _ (fi_sim _ _ _ _ _ _ _ _ I)). rewrite <-(ws_hist _ _ (cs_w _ _ (fi_sim _ _ _ _ _ _ _ _ I))). destruct (wl_fl _ L o c); lia. }
    apply Nat.leb_le in Hf. rewrite Hf. cbn [andb cstep].
    destruct (wstep_newest (c_w (f_c s)) o op p tv pv c k ord Ho Ea) as (s1 & e1 & E). { intros v W Hl. by eapply pi_newest. }
    unfold f_mem. rewrite E, En. destruct (Nat.ltb_spec (pred (length (w_hist (c_w (f_c s)) c))) (c_fl (f_c s) o c)); [lia|eauto].
  - assert (next_cell w (c_w (f_c s)) o = None) as En by (unfold next_cell; by rewrite Ho, Ea). rewrite En. cbn [fstep]. rewrite Hal, En. cbn [andb cstep wstep]. rewrite Ho, Ea. unfold w_local, f_mem.
    pose proof (see_total tv pv (w_mem (c_w (f_c s))) p _ (new_addr_free _)) as Ht. destruct (see_step _ _ _ _ _ _) as [[[? ?] ?]|]; [|done]. rewrite En. eauto.
Qed.

(** The call that takes a step is the one that may return, and it was running. *)
Lemma ret_own s o n spur a s' e o' r : fstep w s (FStep o n spur a) = Some (s', e) -> ERet o' r ∈ e -> o' = o.
Proof.
  intros Hst Hin. cbn [fstep] in Hst. destruct (_ && _); [|done]. destruct (cstep w (f_c s) _) as [[c' e']|] eqn:Ec; [|done]. injection Hst as _ <-.
  cbn [cstep] in Ec. destruct (wstep w (c_w (f_c s)) (WStep o n spur a)) as [[s1 e1]|] eqn:Ew; [|done].
  assert (e1 = e') as ->. { destruct (next_cell w (c_w (f_c s)) o); [destruct (_ <? _); [done|]|]; by injection Ec as _ <-. } clear Ec.
  assert (forall nx acts, e' = nx_events o nx acts -> o' = o) as Hnx.
  { intros nx acts ->. unfold nx_events in Hin. apply elem_of_app in Hin as [Hin|Hin].
    - apply elem_of_list_In, in_map_iff in Hin as (x & Hx & _). by destruct x.
    - destruct nx; [by apply elem_of_nil in Hin| |by apply elem_of_nil in Hin]. apply elem_of_list_singleton in Hin. by injection Hin as ->. }
  cbn [wstep] in Ew. destruct (w_ops (c_w (f_c s)) !! o) as [[st tv0 pv0]|] eqn:Ho; [|done]. destruct st as [op0 p0| | |]; try done.
  assert (forall tv1 pv1 m, w_local (c_w (f_c s)) o op0 tv1 pv1 m p0 spur a = Some (s1, e') -> o' = o) as Hl.
  { intros tv1 pv1 m E. unfold w_local in E. destruct (see_step _ _ _ _ _ _) as [[[m' nx] acts]|]; [|done]. injection E as _ E. by eapply Hnx. }
  assert (forall tv1 pv1 c ord, w_write (c_w (f_c s)) o op0 tv1 pv1 c ord p0 spur a = Some (s1, e') -> o' = o) as Hwr.
  { intros tv1 pv1 c ord E. unfold w_write in E. destruct (see_step _ _ _ _ _ _) as [[[m' nx] acts]|]; [|done]. injection E as _ E. by eapply Hnx. }
  destruct (access w p0) as [[[c k] ord]|]; [|by eapply Hl]. destruct (negb _); [injection Ew as _ <-; by apply elem_of_nil in Hin|].
  destruct (w_hist (c_w (f_c s)) c) as [|y h]; [injection Ew as _ <-; by apply elem_of_nil in Hin|]. destruct ((y :: h) !! n) as [[v W]|]; [|done]. destruct k.
  - by eapply Hl.
  - by eapply Hl.
  - destruct (bool_decide _); [by eapply Hwr|done].
  - destruct (_ && _); [by eapply Hwr|]. destruct (cas_wins _ _ _); [done|by eapply Hl].
Qed.
Lemma alone_ret ls : forall s s' ev o o' r, f_alone o ls -> frun w s ls = Some (s', ev) -> ERet o' r ∈ ev -> o' = o.
Proof.
  induction ls as [|lb ls IH]; intros s s' ev o o' r Hal Hrun Hin; cbn [frun] in Hrun.
  { injection Hrun as _ <-. by apply elem_of_nil in Hin. }
  destruct (Hal lb ltac:(left)) as (n & spur & a & ->). destruct (fstep w s _) as [[s1 e1]|] eqn:Es; [|done]. destruct (frun w s1 ls) as [[s2 e2]|] eqn:Er; [|done]. injection Hrun as _ <-.
  apply elem_of_app in Hin as [Hin|Hin]; [by eapply ret_own|]. eapply IH; [|exact Er|exact Hin]. intros lb Hlb. apply Hal. by right.
Qed.
(** Nothing goes wrong: a call that takes a step is in progress or returns. *)
Lemma step_goes M H N pos ll b ev s o op n spur a s' e : strong w -> pinv M H N pos ll b ev s -> f_running s o op -> fstep w s (FStep o n spur a) = Some (s', e) ->
  f_running s' o op \/ exists r, ERet o r ∈ e.
Proof.
  intros Hw P [Hal (p & tv & pv & Ho)] Hst. destruct P as [I L R].
  destruct (finv_step _ _ _ _ _ _ _ _ _ _ _ _ _ _ _ Hw I Hst) as (M' & H' & N' & pos' & b' & a' & Hb & I').
  destruct (step_info w _ _ _ _ _ _ _ _ _ _ _ _ _ _ _ _ _ _ _ Hw (fi_b _ _ _ _ _ _ _ _ I) (fi_b _ _ _ _ _ _ _ _ I') Hb) as (op0 & p0 & tv0 & pv0 & nx & tv' & pv' & acts & Ho0 & Hops & -> & _ & _ & Hi).
  rewrite (ws_ops _ _ (cs_w _ _ (fi_sim _ _ _ _ _ _ _ _ I))), Ho in Ho0. injection Ho0 as <- <- <- <-.
  rewrite (ws_ops _ _ (cs_w _ _ (fi_sim _ _ _ _ _ _ _ _ I'))) in Hops.
  assert (w_ops (c_w (f_c s')) !! o = Some (WOp (nx_stat op nx) tv' pv')) as Ho'. { rewrite Hops. apply lookup_insert. }
  destruct nx as [q|r|f].
  - left. split; [|eauto]. unfold f_alive in *. apply bool_decide_eq_true. apply bool_decide_eq_true in Hal as [_ Hg]. split; [by eexists|].
    cbn [fstep] in Hst. destruct (_ && _); [|done]. destruct (cstep w (f_c s) _) as [[? ?]|]; [|done]. injection Hst as <- _. exact Hg.
  - right. exists r. unfold nx_events. apply elem_of_app. right. left.
  - exfalso. rewrite <-(ws_ops _ _ (cs_w _ _ (fi_sim _ _ _ _ _ _ _ _ I'))) in Ho'. exact (b_ops _ _ _ _ _ _ _ (fi_b _ _ _ _ _ _ _ _ I') _ _ Ho').
Qed.

(** ** A call that runs alone *)
Lemma alone_steps ls : strong w -> forall M H N pos ll b ev s o op s' ev', pinv M H N pos ll b ev s -> f_running s o op -> is_reader op = false -> f_alone o ls -> frun w s ls = Some (s', ev') ->
  (exists r, ERet o r ∈ ev') \/ f_running s' o op /\ f_mod_steps w s ls = length ls.
Proof.
  intros Hw. induction ls as [|lb ls IH]; intros M H N pos ll b ev s o op s' ev' P Hr Hrd Hal Hrun; cbn [frun] in Hrun.
  { injection Hrun as <- <-. by right. }
  assert (wf_fcalls ls /\ f_alone o ls) as [_ Hal1]. { split; [intros o1 op1 ps ds Hin; destruct (Hal _ ltac:(by right)) as (? & ? & ? & ?); done|]. intros lb1 Hlb. apply Hal. by right. }
  destruct (Hal lb ltac:(left)) as (n & spur & a & ->). cbn [f_mod_steps]. destruct (fstep w s _) as [[s1 e1]|] eqn:Es; [|done]. destruct (frun w s1 ls) as [[s2 e2]|] eqn:Er; [|done]. injection Hrun as <- <-.
  destruct (step_goes _ _ _ _ _ _ _ _ _ _ _ _ _ _ _ Hw P Hr Es) as [Hr1|[r Hret]]; [|left; exists r; apply elem_of_app; by left].
  destruct (pinv_pay w (f_mod_running s) M H N pos ll b ev s (FStep o n spur a) s1 e1 Hw P) as (M1 & H1 & N1 & pos1 & ll1 & b1 & P1 & _); [done|exact Es|done|].
  destruct (IH _ _ _ _ _ _ _ _ _ _ _ _ P1 Hr1 Hrd Hal1 Er) as [[r Hret]|[H2 H3]]; [left; exists r; apply elem_of_app; by right|]. right. split; [done|].
  assert (f_mod s o = true) as Hm by (apply (f_running_mod _ _ _ _ _ _ _ _ _ P); eauto). cbn [f_mod_step]. rewrite Hm, H3. done.
Qed.
Lemma alone_run M H N pos ll b ev s o op : strong w -> pinv M H N pos ll b ev s -> f_running s o op -> is_reader op = false -> forall k,
  exists ls s' ev', f_alone o ls /\ f_spurious_steps ls = 0 /\ frun w s ls = Some (s', ev') /\ ((exists r, ERet o r ∈ ev') \/ length ls = k).
Proof.
  intros Hw P Hr Hrd k. revert M H N pos ll b ev s P Hr. induction k as [|k IH]; intros M H N pos ll b ev s P Hr.
  { exists [], s, []. split; [by intros lb Hlb%elem_of_nil|]. split; [done|]. split; [done|by right]. }
  destruct (can_step _ _ _ _ _ _ _ _ _ _ P Hr) as (s1 & e1 & Es). unfold newest_step in Es. set (n := match next_cell w (c_w (f_c s)) o with Some c => pred (length (w_hist (c_w (f_c s)) c)) | None => 0 end) in Es. set (a := new_addr (f_mem s)) in Es. destruct (step_goes _ _ _ _ _ _ _ _ _ _ _ _ _ _ _ Hw P Hr Es) as [Hr1|[r Hret]].
  - destruct (pinv_pay w (f_mod_running s) M H N pos ll b ev s (FStep o n false a) s1 e1 Hw P) as (M1 & H1 & N1 & pos1 & ll1 & b1 & P1 & _); [done|exact Es|done|].
    destruct (IH _ _ _ _ _ _ _ _ P1 Hr1) as (ls & s2 & e2 & Hal & Hsp & Hrun & Hc). exists (FStep o n false a :: ls), s2, (e1 ++ e2).
    split. { intros lb [->|Hlb]%elem_of_cons; [eauto|by apply Hal]. } split; [done|]. split; [cbn [frun]; by rewrite Es, Hrun|]. destruct Hc as [[r Hc]|Hc]; [left; exists r; apply elem_of_app; by right|right; simpl; lia].
  - exists [FStep o n false a], s1, e1. split. { intros lb ->%elem_of_list_singleton. eauto. } split; [done|]. split; [cbn [frun]; rewrite Es; by rewrite app_nil_r|]. left. by exists r.
Qed.

(** ** Infinite executions *)
Lemma f_inf_prefix sch st : f_infinite w sch st -> forall n, exists ev, frun w finit (sch <$> seq 0 n) = Some (st n, ev).
Proof.
  intros [H0 Hs] n. assert (forall k m, exists ev, frun w (st m) (sch <$> seq m k) = Some (st (m + k), ev)) as Hx.
  { induction k as [|k IH]; intros m; [exists []; rewrite Nat.add_0_r; done|]. cbn [seq fmap list_fmap frun]. destruct (Hs m) as [e ->]. destruct (IH (S m)) as [ev ->]. exists (e ++ ev). by rewrite <-Nat.add_succ_comm. }
  destruct (Hx n 0) as [ev Hev]. rewrite H0 in Hev. by exists ev.
Qed.
Lemma f_inf_pinv sch st : strong w -> f_infinite w sch st -> (forall n o op ps ds, sch n = FInv o op ps ds -> op_wf op) -> forall n, exists M H N pos ll b ev, pinv M H N pos ll b ev (st n).
Proof.
  intros Hw Hi Hwf n. destruct (f_inf_prefix _ _ Hi n) as [ev Hrun]. destruct (fexec_pinv w (sch <$> seq 0 n) (st n) ev Hw) as (M & H & N & pos & ll & b & P); [|done|eauto 10].
  intros o op ps ds (k & E & _)%elem_of_list_fmap. by eapply Hwf.
Qed.

Lemma f_inf_pay sch st B n0 : strong w -> f_infinite w sch st -> (forall n o op ps ds, sch n = FInv o op ps ds -> op_wf op) -> (forall n, n0 <= n -> f_spurious (sch n) = false) -> (forall n, f_mod_running (st n) <= B) ->
  infinitely_often (fun n => f_mod_step (st n) (sch n) = true) ->
  forall d n, n0 <= n -> B - f_mod_running (st n) <= d -> exists n' e, n <= n' /\ fstep w (st n') (sch n') = Some (st (S n'), e) /\ f_mod_ends (st n') (sch n') e.
Proof.
  intros Hw Hinf Hwf Hsp HN Hio. pose proof Hinf as [_ Hstep]. intros d. induction d as [d IHd] using lt_wf_ind. intros n Hn Hd.
  destruct (f_inf_pinv _ _ Hw Hinf Hwf n) as (M & H & N & pos & ll & b & ev & P).
  set (upto := fun k => (exists n' e, n <= n' /\ fstep w (st n') (sch n') = Some (st (S n'), e) /\ f_mod_ends (st n') (sch n') e) \/
      exists M' H' N' pos' ll' b' ev', pinv M' H' N' pos' ll' b' ev' (st (n + k)) /\ f_mod_running (st (n + k)) = f_mod_running (st n) /\
        wPhi B (lives (st (n + k))) pos' b' + length (List.filter (fun j => f_mod_step (st j) (sch j)) (seq n k)) <= wPhi B (lives (st n)) pos b).
  assert (forall k, upto k) as Hup.
  { induction k as [|k [IH|(M' & H' & N' & pos' & ll' & b' & ev' & P' & Hrn & HP)]].
    - right. exists M, H, N, pos, ll, b, ev. rewrite Nat.add_0_r. simpl. split; [done|]. split; [done|lia].
    - by left.
    - destruct (Hstep (n + k)) as [e He].
      destruct (pinv_pay w B M' H' N' pos' ll' b' ev' (st (n + k)) (sch (n + k)) (st (S (n + k))) e Hw P') as (M1 & H1 & N1 & pos1 & ll1 & b1 & P1 & [Hc|[(o & op & ps & ds & E & Hrd & Hc)|[Hc1 Hc2]]]); [apply Hwf|done|apply HN|..].
      + left. exists (n + k), e. split; [lia|done].
      + left. assert (f_mod_running (st (S (n + k))) <= B) as HN1 by apply HN.
        destruct (IHd (B - f_mod_running (st (S (n + k)))) ltac:(lia) (S (n + k)) ltac:(lia) ltac:(lia)) as (n' & e' & H2 & H3). exists n', e'. split; [lia|done].
      + right. exists M1, H1, N1, pos1, ll1, b1, (ev' ++ e). rewrite Nat.add_succ_r. split; [done|]. split; [lia|]. rewrite (Hsp (n + k) ltac:(lia)) in Hc2.
        rewrite seq_S, List.filter_app, app_length. cbn [List.filter]. destruct (f_mod_step (st (n + k)) (sch (n + k))); cbn [length]; lia. }
  assert (forall x, exists k, x <= length (List.filter (fun j => f_mod_step (st j) (sch j)) (seq n k))) as Hmany.
  { induction x as [|x [k Hk]]; [exists 0; simpl; lia|]. destruct (Hio (n + k)) as (n' & Hn' & Hms). exists (S (n' - n)).
    rewrite seq_S, List.filter_app, app_length. replace (n + (n' - n)) with n' by lia. cbn [List.filter]. rewrite Hms. cbn [length].
    replace (n' - n) with (k + (n' - n - k)) by lia. rewrite seq_app, List.filter_app, app_length. lia. }
  destruct (Hmany (S (wPhi B (lives (st n)) pos b))) as [k Hk]. destruct (Hup k) as [Hx|(M' & H' & N' & pos' & ll' & b' & ev' & _ & _ & Hx)]; [done|lia].
Qed.
End wlockend.
