(** * Progress of the modifying operations: the whole system, and one operation running alone. *)
From Verif Require Import Model Mem Inv Safe SafeStep SafeOps SafeSys SafeProps Spec LinProps Shape Sem ProgSpec Prog LiveStep Lock LockStep LockHash.

Section locksys.
Context {C : Config}.
Implicit Types (m : mem) (pos : loc -> list nat) (c : cell) (v w : sh) (o : opid) (gs : gset opid) (p : pc) (s : state) (ls : list label) (ev : list event).

Lemma shape_upd op p : shape op p -> upd p = negb (is_reader op).
Proof.
  destruct p as [t shift cur par|t shift cur par node new kind|kk parent child i ac cnt last new|kk parent child ins pr|k h cur|k h shift cur lv|k h shift cur lv node new del|del lv parent child i cnt| | |lv out]; simpl.
  - by destruct op.
  - intros [? _]. by destruct op.
  - destruct kk; simpl; [by destruct op|by intros [? ->]..].
  - destruct kk; simpl; [by destruct op|by intros [? ->]..].
  - by intros [? ->].
  - by intros [? ->].
  - by intros [? ->].
  - by intros [? ->].
  - by intros ->.
  - by intros ->.
  - by intros ->.
Qed.
Lemma reach_upd s o op p : reachable s -> s_ops s !! o = Some (SRun op p) -> upd p = negb (is_reader op).
Proof. intros (ls & ev & Hx) Ho. apply shape_upd. by destruct (si_run _ _ (exec_sh _ _ _ Hx) _ _ _ Ho). Qed.

(** ** The system *)
Section sys.
Context (n : nat).
Notation cost := (200 * n).
Definition allp (q : list nat) : bool := true.
Definition stw m (st : ostat) : nat := if modifying st then match st with SRun _ p => phi cost m p | _ => 0 end else 0.
Definition ind (st : ostat) : nat := if modifying st then 1 else 0.
Definition Psi m (ops : gmap opid ostat) : nat := msum (fun _ st => stw m st) ops.
Definition Phi pos s : nat := G cost allp pos (s_mem s) + Psi (s_mem s) (s_ops s).

Lemma mod_running_sum s : mod_running s = msum (fun _ st => ind st) (s_ops s).
Proof.
  assert (forall l : list (opid * ostat), length (List.filter (fun x => modifying x.2) l) = sum_list_with (fun x => ind x.2) l) as H; [|apply H].
  intros l. unfold ind. induction l as [|x l IH]; simpl; [done|]. destruct (modifying x.2); simpl; by rewrite IH.
Qed.

Lemma Psi_insert m ops o st0 st : ops !! o = Some st0 -> Psi m (<[o := st]> ops) + stw m st0 = Psi m ops + stw m st.
Proof. intros H. apply (msum_update (fun _ st => stw m st) ops o st0 st H). Qed.
Lemma ind_insert (ops : gmap opid ostat) o st0 st : ops !! o = Some st0 -> msum (fun _ st => ind st) (<[o := st]> ops) + ind st0 = msum (fun _ st => ind st) ops + ind st.
Proof. intros H. apply (msum_update (fun _ st => ind st) ops o st0 st H). Qed.

Lemma Psi_others m m' (ops : gmap opid ostat) o st0 : ops !! o = Some st0 -> ind st0 = 1 -> msum (fun _ st => ind st) ops <= n ->
  (forall o' op p, o' <> o -> ops !! o' = Some (SRun op p) -> phi cost m' p <= phi cost m p + 200) ->
  Psi m' ops + stw m st0 <= Psi m ops + stw m' st0 + cost.
Proof.
  intros Ho Hi Hn Hst. unfold Psi. rewrite (msum_delete _ ops o st0 Ho). rewrite (msum_delete (fun _ st => stw m st) ops o st0 Ho).
  rewrite (msum_delete _ ops o st0 Ho) in Hn. rewrite Hi in Hn.
  assert (msum (fun _ st => stw m' st) (delete o ops) <= msum (fun l st => stw m st + 200 * ind st) (delete o ops)) as Hle.
  { apply msum_le. intros o' st [Hne Ho']%lookup_delete_Some. unfold stw, ind. destruct st as [op p| | |]; simpl; try lia. destruct (is_reader op); simpl; [lia|].
    pose proof (Hst o' op p ltac:(congruence) Ho'). simpl in *. lia. }
  rewrite (msum_add (fun _ st => stw m st) (fun _ st => 200 * ind st)), (msum_mul 200 (fun _ st => ind st)) in Hle. unfold opid, loc in *. lia.
Qed.
Lemma Psi_core m m' ops : coreq m m' -> Psi m' ops = Psi m ops.
Proof. intros H. apply msum_ind. intros o st _. unfold stw. destruct (modifying st); [|done]. destruct st; [|done..]. by apply coreq_phi. Qed.
Lemma Phi_core pos m m' ops : coreq m m' -> G cost allp pos m' + Psi m' ops = G cost allp pos m + Psi m ops.
Proof. intros H. by rewrite (coreq_G _ _ _ _ _ H), (Psi_core _ _ _ H). Qed.

Local Ltac ol := unfold opid, loc in *; lia.
Lemma sys_pay pos s lb s' e : linv pos s -> reachable s -> s_dropped s = false -> step s lb = Some (s', e) -> lb <> LDrop -> mod_running s <= n ->
  exists pos', linv pos' s' /\ s_dropped s' = false /\
    (mod_ends s lb e \/
     (exists o op, lb = LInv o op /\ is_reader op = false /\ mod_running s' = S (mod_running s)) \/
     (mod_running s' = mod_running s /\ Phi pos' s' + (if mod_step s lb then 1 else 0) <= Phi pos s + 201 * (if spurious lb then 1 else 0))).
Proof.
  intros Hli Hr Hd Hst Hne Hn. destruct (linv_step _ _ _ _ _ Hli Hr Hd Hst Hne) as (pos' & Hli' & Hd' & Hle). exists pos'. split; [done|]. split; [done|].
  pose proof Hli as [Hl Hh]. pose proof (li_mem _ _ Hl) as Hm. rewrite !mod_running_sum. rewrite mod_running_sum in Hn.
  destruct Hle as [o spur a op p m' nx acts Ho Hop Hmt Hpc Hnx Hog ->|o op Ho -> ->|o lb Hg Hlb -> ->|k l kd g -> Hg E1 E2].
  - pose proof (reach_upd _ _ _ _ Hr Ho) as Hu. cbn [mod_step spurious]. rewrite Ho. unfold modifying at 1. destruct (is_reader op) eqn:Er; simpl in Hu |- *.
    + (* a reader *) right. right. pose proof (op_step_noupd_mem _ _ _ _ _ _ _ _ Hu Hop) as ->.
      assert (pos' = pos) as -> by (eapply mtr_det; [exact Hm|exact Hmt|constructor]).
      set (st := match nx with NRun p' => SRun op p' | NRet r => SRet op r | NFail f => SFail op f end).
      assert (modifying st = false) as Em by (unfold st; destruct nx; simpl; by rewrite ?Er).
      pose proof (ind_insert _ _ _ st Ho) as I1. pose proof (Psi_insert (s_mem s) _ _ _ st Ho) as I2. unfold ind at 2 4 in I1. unfold stw in I2. rewrite Em in I1, I2. simpl in I1, I2. rewrite Er in I1, I2. simpl in I1, I2.
      unfold Phi. simpl. split; [ol|]. destruct spur; ol.
    + destruct nx as [p'|r|f]; [|left; exists o, op; split; [by exists p|]; split; [done|]; left; exists r; set_solver|done].
      right. right. assert (P : allp (cpos pos (pcell p)) = true) by done.
      destruct (op_step_pay cost allp ltac:(done) _ _ _ _ _ _ _ _ _ _ Hm Hog (li_esafe _ _ Hl) Hpc Hu P Hop) as (pos2 & Hmt2 & Hpay).
      assert (pos2 = pos') as -> by (by eapply mtr_det).
      assert (modifying (SRun op p) = true) as Em1 by (simpl; by rewrite Er). assert (modifying (SRun op p') = true) as Em2 by (simpl; by rewrite Er).
      pose proof (ind_insert _ _ _ (SRun op p') Ho) as I1. unfold ind at 2 4 in I1. rewrite Em1, Em2 in I1. split; [simpl; ol|].
      unfold Phi. cbn [s_mem s_ops].
      pose proof (Psi_insert m' _ _ _ (SRun op p') Ho) as I2. unfold stw in I2. rewrite Em1, Em2 in I2.
      destruct Hpay as [(-> & Hco & Hp)|[Hp|(-> & -> & Hco & Hp)]].
      * rewrite (Psi_core _ _ (s_ops s) Hco) in I2. rewrite (coreq_G _ _ _ _ _ Hco). rewrite (coreq_phi _ _ _ p Hco) in I2. destruct spur; ol.
      * pose proof (Psi_others (s_mem s) m' _ _ _ Ho ltac:(unfold ind; by rewrite Em1) Hn) as I3.
        specialize (I3 ltac:(intros o' op' q Hne' Ho'; eapply phi_stable; [exact Hm|exact Hmt|]; apply (li_ops _ _ Hl _ _ Ho'))).
        unfold stw in I3. rewrite Em1 in I3. destruct spur; ol.
      * rewrite (Psi_core _ _ (s_ops s) Hco) in I2. rewrite (coreq_G _ _ _ _ _ Hco). rewrite (coreq_phi _ _ _ p Hco) in I2. ol.
  - right. cbn [mod_step spurious set_op s_ops s_mem]. destruct (is_reader op) eqn:Er.
    + right. unfold Phi, Psi. cbn [set_op s_mem s_ops]. rewrite !msum_insert by done. unfold stw at 1, ind at 1. simpl. rewrite Er. simpl. split; [done|ol].
    + left. exists o, op. split; [done|]. split; [done|]. rewrite msum_insert by done. unfold ind at 1. simpl. by rewrite Er.
  - assert (mod_step s lb = false) as -> by (destruct Hlb as [->| ->]; done). assert (spurious lb = false) as -> by (destruct Hlb as [->| ->]; done).
    assert (forall op0 r, s_ops s !! o = Some (SRet op0 r) -> msum (fun _ st => ind st) (<[o := SGone]> (s_ops s)) = msum (fun _ st => ind st) (s_ops s) /\ Psi (s_mem s) (<[o := SGone]> (s_ops s)) = Psi (s_mem s) (s_ops s)) as Hret.
    { intros op0 r Ho. pose proof (ind_insert _ _ _ SGone Ho) as I1. pose proof (Psi_insert (s_mem s) _ _ _ SGone Ho) as I2. unfold ind at 2 4 in I1. unfold stw in I2. simpl in I1, I2. split; ol. }
    destruct Hg as [(op & r & Ho)|(op & p & Ho)].
    + destruct (Hret _ _ Ho) as [I1 I2]. right. right. unfold Phi. cbn [set_op s_mem s_ops]. rewrite I1, I2. split; [done|ol].
    + destruct Hlb as [->| ->]; [cbn [step] in Hst; by rewrite Ho in Hst|]. destruct (is_reader op) eqn:Er.
      * right. right. pose proof (ind_insert _ _ _ SGone Ho) as I1. pose proof (Psi_insert (s_mem s) _ _ _ SGone Ho) as I2. unfold ind at 2 4 in I1. unfold stw in I2. simpl in I1, I2. rewrite Er in I1, I2. simpl in I1, I2.
        unfold Phi. cbn [set_op s_mem s_ops]. split; ol.
      * left. exists o, op. split; [by exists p|]. split; [done|]. by right.
  - right. right. cbn [mod_step spurious]. rewrite E1. split; [done|]. unfold Phi. rewrite E1, E2.
    rewrite (Phi_core pos (s_mem s) (mem_free (s_mem s) k l kd)); [ol|]. split; [done|]. split; [done|]. intros x. by eapply dead_free.
Qed.
End sys.

(** No infinite sequence of steps without a call that ends. *)
Lemma run_reach s ls s' ev : reachable s -> run s ls = Some (s', ev) -> reachable s'.
Proof. intros (ls0 & ev0 & Hx) Hr. exists (ls0 ++ ls), (ev0 ++ ev). unfold exec in *. by rewrite run_app, Hx, Hr. Qed.
Lemma step_reach s lb s' e : reachable s -> step s lb = Some (s', e) -> reachable s'.
Proof. intros Hr Hs. apply (run_reach s [lb] s' (e ++ [])); [done|]. simpl. by rewrite Hs. Qed.

Lemma mod_steps_none s ls s' ev : (forall o st, s_ops s !! o = Some st -> active st = false) -> s_dropped s = true -> run s ls = Some (s', ev) -> mod_steps s ls = 0.
Proof.
  revert s ev. induction ls as [|lb ls IH]; intros s ev Ha Hd Hr; [done|]. cbn [run mod_steps] in *. destruct (step s lb) as [[s1 e1]|] eqn:Es; [|done].
  destruct (run s1 ls) as [[s2 e2]|] eqn:Er; [|done].
  assert (mod_step s lb = false) as ->.
  { destruct lb; try done. simpl. destruct (s_ops s !! o) as [st|] eqn:Eo; [|done]. pose proof (Ha _ _ Eo). by destruct st. }
  assert (s_ops s1 = s_ops s /\ s_dropped s1 = true) as [E1 E2].
  { destruct lb as [o op|o spur a|o|o|k|]; cbn [step] in Es.
    - rewrite Hd in Es. by destruct (s_ops s !! o).
    - destruct (s_ops s !! o) as [[]|] eqn:Eo; try done. by specialize (Ha _ _ Eo).
    - destruct (s_ops s !! o) as [[]|] eqn:Eo; try done. by specialize (Ha _ _ Eo).
    - destruct (s_ops s !! o) as [[]|] eqn:Eo; try done. by specialize (Ha _ _ Eo).
    - destruct (m_garb (s_mem s) !! k) as [[[l kd] g]|]; [|done]. case_bool_decide; [|done]. by injection Es as <- <-.
    - by rewrite Hd, andb_false_r in Es. }
  injection Hr as -> _. simpl. eapply IH; [by rewrite E1|done|exact Er].
Qed.

Lemma drop_step s s' e : reachable s -> step s LDrop = Some (s', e) -> (forall o st, s_ops s' !! o = Some st -> active st = false) /\ s_dropped s' = true /\ s_dropped s = false.
Proof.
  intros Hr Hs. cbn [step] in Hs. case_bool_decide as Hg; [|done]. destruct (s_dropped s) eqn:Hd; [done|]. cbn [negb andb] in Hs.
  assert (s_ops s' = s_ops s /\ s_dropped s' = true) as [-> ->] by (destruct (drop_rec _ _ _); by injection Hs as <- <-). split; [|done]. intros o st Ho.
  destruct (active st) eqn:Ea; [|done]. assert (o ∈ guards s) as Hin by (apply elem_of_guards; eauto). rewrite Hg in Hin. by apply elem_of_empty in Hin.
Qed.

Lemma in_progress_back s lb s' e o op : reachable s -> s_dropped s = false -> step s lb = Some (s', e) -> lb <> LDrop -> (forall o op, lb = LInv o op -> is_reader op = true) -> is_reader op = false ->
  in_progress s' o op -> in_progress s o op.
Proof.
  intros Hr Hd Hst Hne Hinv Hop [p Hp]. destruct (reach_linv _ Hr Hd) as [pos Hli]. destruct (linv_step _ _ _ _ _ Hli Hr Hd Hst Hne) as (pos' & _ & _ & Hle).
  destruct Hle as [o1 spur a op1 p1 m' nx acts Ho Hst1 Hmt Hpc Hnx Hog ->|o1 op1 Ho -> ->|o1 lb _ _ -> ->|n l k g -> Hg E1 E2]; simpl in Hp.
  - destruct (decide (o = o1)) as [->|Hx]; [|rewrite lookup_insert_ne in Hp by done; by exists p]. rewrite lookup_insert in Hp. destruct nx; [|done|done]. injection Hp as <- <-. by exists p1.
  - destruct (decide (o = o1)) as [->|Hx]; [|rewrite lookup_insert_ne in Hp by done; by exists p]. rewrite lookup_insert in Hp. injection Hp as <- <-. by rewrite (Hinv _ _ eq_refl) in Hop.
  - destruct (decide (o = o1)) as [->|Hx]; [by rewrite lookup_insert in Hp|rewrite lookup_insert_ne in Hp by done; by exists p].
  - rewrite E1 in Hp. by exists p.
Qed.

(** Finite schedules. *)
Lemma fin_pay n ls : forall pos s s' ev, linv pos s -> reachable s -> s_dropped s = false -> mod_running s <= n -> run s ls = Some (s', ev) -> no_new ls ->
  (exists o op, in_progress s o op /\ is_reader op = false /\ ((exists r, ERet o r ∈ ev) \/ LAbort o ∈ ls)) \/ mod_steps s ls <= Phi n pos s + 201 * spurious_steps ls.
Proof.
  induction ls as [|lb ls IH]; intros pos s s' ev Hli Hr Hd Hn Hrun Hnn; [right; simpl; lia|].
  cbn [run mod_steps] in *. destruct (step s lb) as [[s1 e1]|] eqn:Es; [|done]. destruct (run s1 ls) as [[s2 e2]|] eqn:Er; [|done]. injection Hrun as <- <-.
  pose proof (step_reach _ _ _ _ Hr Es) as Hr1.
  assert (lb = LDrop \/ lb <> LDrop) as [->|Hne]; [destruct lb; (by left) || (by right)| |].
  { right. destruct (drop_step _ _ _ Hr Es) as (Ha & Hd1 & _). rewrite (mod_steps_none _ _ _ _ Ha Hd1 Er). simpl. lia. }
  destruct (sys_pay n _ _ _ _ _ Hli Hr Hd Es Hne Hn) as (pos1 & Hli1 & Hd1 & Hc).
  assert (no_new ls) as Hnn1 by (intros o op H; apply (Hnn o op); by right).
  assert (forall o op, lb = LInv o op -> is_reader op = true) as Hinv by (intros o op ->; apply (Hnn o op); left).
  destruct Hc as [(o & op & H1 & H2 & H3)|[(o & op & -> & H2 & _)|[H1 H2]]].
  - left. exists o, op. split; [done|]. split; [done|]. destruct H3 as [[r H3]| ->]; [left; exists r; apply elem_of_app; by left|right; left].
  - by rewrite (Hinv _ _ eq_refl) in H2.
  - destruct (IH pos1 s1 s2 e2 Hli1 Hr1 Hd1 ltac:(lia) Er Hnn1) as [(o & op & H3 & H4 & H5)|H3].
    + left. exists o, op. split; [by eapply in_progress_back|]. split; [done|]. destruct H5 as [[r H5]|H5]; [left; exists r; apply elem_of_app; by right|right; by right].
    + right. unfold spurious_steps in *. cbn [List.filter]. destruct (spurious lb); cbn [length]; lia.
Qed.

Theorem lock_free s : reachable s -> exists B, forall ls s' ev, run s ls = Some (s', ev) -> no_new ls -> (forall o, LAbort o ∉ ls) ->
  B + 201 * spurious_steps ls < mod_steps s ls -> exists o op r, in_progress s o op /\ is_reader op = false /\ ERet o r ∈ ev.
Proof.
  intros Hr. destruct (s_dropped s) eqn:Hd.
  - exists 0. intros ls s' ev Hrun Hnn Hab Hlt. rewrite (mod_steps_none s ls s' ev) in Hlt; [lia| |done|done]. intros o st Ho. destruct Hr as (ls0 & ev0 & Hx).
    destruct (active st) eqn:Ea; [|done]. assert (o ∈ guards s) as Hin by (apply elem_of_guards; eauto). destruct (exec_sinv _ _ _ Hx) as [_ Hsi]. rewrite Hd in Hsi. rewrite (di_guards _ Hsi) in Hin. by apply elem_of_empty in Hin.
  - destruct (reach_linv s Hr Hd) as [pos Hli]. exists (Phi (mod_running s) pos s). intros ls s' ev Hrun Hnn Hab Hlt.
    destruct (fin_pay (mod_running s) ls pos s s' ev Hli Hr Hd ltac:(lia) Hrun Hnn) as [(o & op & H1 & H2 & [[r H3]|H3])|H]; [by exists o, op, r|by destruct (Hab o)|lia].
Qed.

(** Infinite executions. *)
Lemma inf_pay sch st N n0 : infinite_run sch st -> (forall n, n0 <= n -> spurious (sch n) = false) -> (forall n, mod_running (st n) <= N) ->
  infinitely_often (fun n => mod_step (st n) (sch n) = true) ->
  forall d n, n0 <= n -> N - mod_running (st n) <= d -> exists n' e, n <= n' /\ step (st n') (sch n') = Some (st (S n'), e) /\ mod_ends (st n') (sch n') e.
Proof.
  intros Hinf Hsp HN Hio. pose proof Hinf as [_ Hstep].
  assert (forall n, mod_step (st n) (sch n) = true -> s_dropped (st n) = false) as Hlive.
  { intros n Hms. unfold mod_step in Hms. destruct (sch n) as [| o ? ?| | | |]; try done. destruct (s_ops (st n) !! o) as [[op p| | |]|] eqn:Eo; try done.
    destruct (infinite_prefix _ _ n Hinf) as [ev Hx]. eapply running_not_dropped; [by eapply exec_sinv|exact Eo]. }
  assert (forall n, s_dropped (st n) = false) as Hnd.
  { intros n. destruct (Hio n) as (n' & Hn' & Hms). pose proof (Hlive _ Hms) as Hd'. clear Hms. induction Hn' as [|n' Hn' IH]; [done|]. apply IH.
    destruct (s_dropped (st n')) eqn:Ed; [|done]. destruct (Hstep n') as [e He]. destruct (infinite_prefix _ _ n' Hinf) as [ev Hx].
    destruct (exec_sinv _ _ _ Hx) as [_ Hsi]. rewrite Ed in Hsi.
    assert (forall o x, s_ops (st n') !! o = Some x -> active x = true -> False) as Hno.
    { intros o x H1 H2. assert (o ∈ guards (st n')) as Hin by (apply elem_of_guards; eauto). rewrite (di_guards _ Hsi) in Hin. by apply elem_of_empty in Hin. }
    destruct (sch n') as [o op|o spur a|o|o|k|]; cbn [step] in He.
    - rewrite Ed in He. by destruct (s_ops (st n') !! o).
    - destruct (s_ops (st n') !! o) as [[]|] eqn:Eo; try done. exfalso. by eapply Hno.
    - destruct (s_ops (st n') !! o) as [[]|] eqn:Eo; try done. exfalso. by eapply Hno.
    - destruct (s_ops (st n') !! o) as [[]|] eqn:Eo; try done. exfalso. by eapply Hno.
    - destruct (m_garb (s_mem (st n')) !! k) as [[[l kd] g]|]; [|done]. case_bool_decide; [|done]. injection He as He _. rewrite <-He in Hd'. simpl in Hd'. congruence.
    - by rewrite Ed, andb_false_r in He. }
  assert (forall n, sch n <> LDrop) as Hnl.
  { intros n E. destruct (Hstep n) as [e He]. rewrite E in He. destruct (drop_step _ _ _ (infinite_reach _ _ n Hinf) He) as (_ & H & _). by rewrite Hnd in H. }
  intros d. induction d as [d IHd] using lt_wf_ind. intros n Hn Hd.
  destruct (reach_linv _ (infinite_reach _ _ n Hinf) (Hnd n)) as [pos Hli].
  set (upto := fun k => (exists n' e, n <= n' /\ step (st n') (sch n') = Some (st (S n'), e) /\ mod_ends (st n') (sch n') e) \/
      exists pos', linv pos' (st (n + k)) /\ mod_running (st (n + k)) = mod_running (st n) /\
        Phi N pos' (st (n + k)) + length (List.filter (fun j => mod_step (st j) (sch j)) (seq n k)) <= Phi N pos (st n)).
  assert (forall k, upto k) as Hup.
  { induction k as [|k [IH|(pos' & Hli' & Hrn & HP)]].
    - right. exists pos. rewrite Nat.add_0_r. simpl. split; [done|]. split; [done|lia].
    - by left.
    - destruct (Hstep (n + k)) as [e He].
      destruct (sys_pay N _ _ _ _ _ Hli' (infinite_reach _ _ (n + k) Hinf) (Hnd _) He (Hnl _) (HN _)) as (pos2 & Hli2 & _ & [Hc|[(o & op & E & Hrd & Hc)|[Hc1 Hc2]]]).
      + left. exists (n + k), e. split; [lia|done].
      + left. assert (mod_running (st (S (n + k))) <= N) as HN1 by apply HN.
        destruct (IHd (N - mod_running (st (S (n + k)))) ltac:(lia) (S (n + k)) ltac:(lia) ltac:(lia)) as (n' & e' & H1 & H2). exists n', e'. split; [lia|done].
      + right. exists pos2. rewrite Nat.add_succ_r. split; [done|]. split; [lia|]. rewrite (Hsp (n + k) ltac:(lia)) in Hc2.
        rewrite seq_S, List.filter_app, app_length. cbn [List.filter]. destruct (mod_step (st (n + k)) (sch (n + k))); cbn [length]; lia. }
  (* enough steps *)
  assert (forall b, exists k, b <= length (List.filter (fun j => mod_step (st j) (sch j)) (seq n k))) as Hmany.
  { induction b as [|b [k Hk]]; [exists 0; simpl; lia|]. destruct (Hio (n + k)) as (n' & Hn' & Hms). exists (S (n' - n)).
    rewrite seq_S, List.filter_app, app_length. replace (n + (n' - n)) with n' by lia. cbn [List.filter]. rewrite Hms. cbn [length].
    replace (n' - n) with (k + (n' - n - k)) by lia. rewrite seq_app, List.filter_app, app_length. lia. }
  destruct (Hmany (S (Phi N pos (st n)))) as [k Hk]. destruct (Hup k) as [H|(pos' & _ & _ & H)]; [done|lia].
Qed.

Theorem no_livelock sch st N n0 : infinite_run sch st -> (forall n, n0 <= n -> spurious (sch n) = false) -> (forall n, mod_running (st n) <= N) ->
  infinitely_often (fun n => mod_step (st n) (sch n) = true) ->
  infinitely_often (fun n => exists e, step (st n) (sch n) = Some (st (S n), e) /\ mod_ends (st n) (sch n) e).
Proof.
  intros Hinf Hsp HN Hio n. destruct (inf_pay sch st N n0 Hinf Hsp HN Hio (N - mod_running (st (n0 + n))) (n0 + n) ltac:(lia) ltac:(lia)) as (n' & e & H1 & H2 & H3).
  exists n'. split; [lia|]. by exists e.
Qed.
End locksys.
