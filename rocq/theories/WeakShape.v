(** * On weakly ordered memory: which results belong to which calls; how often the closure is called. *)
From Verif Require Import Model Mem Spec Weak WeakInv WeakStep WeakSys WeakRun LinSpec Inv Safe SafeProps Shape Iter IterSpec IterSys
  WeakCoh WeakWrite WeakTime WeakBase WeakLin.

Section wshape.
Context {C : Config} {HC : ConfigOk C} (w : orders).
Implicit Types (o : opid) (op : oper) (s : cstate) (p : pc) (ls : list clabel) (ev e : list event) (acts : list act).

Record csh s ev : Prop := Csh {
  cs_run : forall o op p tv pv, w_ops (c_w s) !! o = Some (WOp (SRun op p) tv pv) -> shape op p /\
     calls_of ev o = (match op with OGetOrInsert k _ => if made p then [k] else [] | _ => [] end);
  cs_calls : forall o, length (calls_of ev o) <= 1;
  cs_ret : forall o op r tv pv, w_ops (c_w s) !! o = Some (WOp (SRet op r) tv pv) -> r_shape op r /\ new_ok ev o op r;
  cs_none : forall o, w_ops (c_w s) !! o = None -> calls_of ev o = [];
}.

Lemma csh0 : csh cinit [].
Proof. split; [intros o op p tv pv H; simpl in H; by rewrite lookup_empty in H|simpl; lia|intros o op r tv pv H; simpl in H; by rewrite lookup_empty in H|done]. Qed.

Lemma csh_inv s ev o op s' : w_ops (c_w s) !! o = None -> w_ops (c_w s') = <[o := WOp (SRun op (op_init op)) ∅ ∅]> (w_ops (c_w s)) -> csh s ev -> csh s' (ev ++ [EInv o op]).
Proof.
  intros Ho E [I1 I2 I3 I4]. assert (forall o', calls_of (ev ++ [EInv o op]) o' = calls_of ev o') as Ec. { intros o'. rewrite calls_of_app. by rewrite app_nil_r. }
  split.
  - intros o' op' p' tv pv. rewrite E, Ec. destruct (decide (o = o')) as [<-|]; [rewrite lookup_insert|rewrite lookup_insert_ne by done; apply I1].
    intros [= <- <- <- <-]. split; [apply shape_init|]. rewrite (I4 _ Ho). by destruct op.
  - intros o'. by rewrite Ec.
  - intros o' op' r tv pv. unfold new_ok. rewrite E, Ec. destruct (decide (o = o')) as [<-|]; [by rewrite lookup_insert|rewrite lookup_insert_ne by done; apply I3].
  - intros o'. rewrite E, Ec. destruct (decide (o = o')) as [<-|]; [by rewrite lookup_insert|rewrite lookup_insert_ne by done; apply I4].
Qed.

Lemma csh_step s ev o op p tv pv nx tv' pv' acts (m m' : mem) spur a s' : w_ops (c_w s) !! o = Some (WOp (SRun op p) tv pv) -> w_ops (c_w s') = <[o := WOp (nx_stat op nx) tv' pv']> (w_ops (c_w s)) ->
  op_step ∅ m p spur a = Some (m', nx, acts) -> csh s ev -> csh s' (ev ++ nx_events o nx acts).
Proof.
  intros Ho E Hst [I1 I2 I3 I4]. destruct (I1 _ _ _ _ _ Ho) as [Hsh Hca]. pose proof (op_step_shape _ _ _ _ _ _ Hsh _ _ _ Hst) as Hg. unfold nx_events.
  assert (forall o', calls_of (match nx with NRet r => [ERet o r] | _ => [] end) o' = []) as E0 by (by destruct nx).
  assert (forall o', o' <> o -> calls_of (ev ++ (map (act_event o) acts ++ match nx with NRet r => [ERet o r] | _ => [] end)) o' = calls_of ev o') as Ene.
  { intros o' Hne. by rewrite !calls_of_app, calls_of_acts_ne, E0, app_nil_r by done. }
  assert (calls_of (ev ++ (map (act_event o) acts ++ match nx with NRet r => [ERet o r] | _ => [] end)) o = calls_of ev o ++ acts_calls acts) as Eeq.
  { by rewrite !calls_of_app, calls_of_acts, E0, app_nil_r by done. }
  split.
  - intros o' op' p' tv2 pv2. rewrite E. destruct (decide (o = o')) as [<-|Hne]; [rewrite lookup_insert|rewrite lookup_insert_ne, Ene by done; apply I1].
    destruct nx as [p2| |]; try done. intros [= <- <- <- <-]. destruct Hg as (Hs2 & Hm2 & Hac). split; [done|]. rewrite Eeq, Hca, Hac.
    destruct op; try (by destruct (made p), (made p2)). destruct (made p); [by rewrite Hm2 by done|]. by destruct (made p2).
  - intros o'. destruct (decide (o' = o)) as [->|Hne]; [|by rewrite Ene]. rewrite Eeq, Hca. destruct nx as [p2|r|f].
    + destruct Hg as (_ & _ & ->). destruct op, (made p), (made p2); simpl; lia.
    + destruct Hg as (_ & -> & _). destruct op, (made p); simpl; lia.
    + rewrite Hg. destruct op, (made p); simpl; lia.
  - intros o' op' r tv2 pv2. rewrite E. destruct (decide (o = o')) as [<-|Hne]; [rewrite lookup_insert|unfold new_ok; rewrite lookup_insert_ne, Ene by done; apply I3].
    destruct nx as [|r2|]; try done. intros [= <- <- <- <-]. destruct Hg as (Hr & Hac & Hn). split; [done|]. intros x ->. destruct (Hn x eq_refl) as (Hm & k & f & -> & Ev). exists k, f. split; [done|]. split; [|done].
    by rewrite Eeq, Hca, Hm, Hac.
  - intros o'. rewrite E. destruct (decide (o = o')) as [<-|Hne]; [by rewrite lookup_insert|rewrite lookup_insert_ne, Ene by done; apply I4].
Qed.

Lemma wst_op (x : wstate) o n spur a (x' : wstate) op p nx acts : wst w x o n spur a x' op p nx acts -> exists m m', op_step ∅ m p spur a = Some (m', nx, acts).
Proof. intros [M' _ H _ _|c kd ord v W M' _ _ _ _ H _ _|c kd ord v W W' _ _ _ _ H _]; eauto. Qed.

Lemma csh_run ls0 s ev0 ls s' ev : strong w -> (forall o op ps, CInv o op ps ∈ ls -> op_wf op) -> good ls0 s ev0 -> csh s ev0 -> crun w s ls = Some (s', ev) -> csh s' (ev0 ++ ev).
Proof.
  intros Hw. revert ls0 s ev0 ev. induction ls as [|lb ls IH]; intros ls0 s ev0 ev Hwf G I Hr; cbn [crun] in Hr.
  - injection Hr as <- <-. by rewrite !app_nil_r.
  - destruct (cstep w s lb) as [[s1 ev1]|] eqn:Es; [|done]. destruct (crun w s1 ls) as [[s2 ev2]|] eqn:Er; [|done]. injection Hr as <- <-.
    assert (good (ls0 ++ [lb]) s1 (ev0 ++ ev1)) as G1.
    { eapply (good_run w ls0 s ev0 [lb]); [done|intros o op ps Hin%elem_of_list_singleton; eapply Hwf; rewrite Hin; by left|done|]. cbn [crun]. rewrite Es. by rewrite app_nil_r. }
    assert (csh s1 (ev0 ++ ev1)) as I1.
    { destruct G as (M & H & N & pos & B & _). destruct lb as [o op ps|o n spur a]; cbn [cstep] in Es.
      - destruct (forallb _ ps); [|done]. cbn [wstep] in Es. destruct (w_ops (c_w s) !! o) eqn:Eo; [done|]. injection Es as <- <-. by eapply csh_inv.
      - destruct (wstep w (c_w s) (WStep o n spur a)) as [[w' e1]|] eqn:Ew; [|done].
        destruct (wstep_st _ _ _ _ _ _ _ _ Hw (b_winv _ _ _ _ _ _ _ B) Ew) as (op & p & tv & pv & nx & tv' & pv' & acts & Ho & Hops & -> & Hst). destruct (wst_op _ _ _ _ _ _ _ _ _ _ Hst) as (m & m' & Ho').
        assert (c_w s1 = w' /\ ev1 = nx_events o nx acts) as [E1 ->]. { destruct (next_cell w (c_w s) o); [|by injection Es as <- <-]. destruct (n <? _); [done|]. by injection Es as <- <-. }
        eapply csh_step; [exact Ho|rewrite E1; exact Hops|exact Ho'|done]. }
    rewrite (app_assoc ev0). eapply IH; [|exact G1|done|done]. intros o op ps Hin. eapply Hwf. by right.
Qed.
Lemma csh_exec ls s ev : strong w -> wf_ccalls ls -> cexec w ls s ev -> csh s ev.
Proof.
  intros Hw Hwf He. apply (csh_run [] cinit [] ls s ev Hw Hwf); [|apply csh0|done]. destruct binv0 as [pos B]. eexists _, _, _, pos. split; [exact B|]. intros k. eexists _, _. apply linv0.
Qed.

Lemma ret_inv ls s ev o r : strong w -> wf_ccalls ls -> cexec w ls s ev -> ERet o r ∈ ev -> exists op, EInv o op ∈ ev /\ r_shape op r /\ new_ok ev o op r.
Proof.
  intros Hw Hwf He Hr. destruct (good_exec w _ _ _ Hw Hwf He) as (M & H & N & pos & B & _). destruct (b_evr _ _ _ _ _ _ _ B _ _ Hr) as (op & tv & pv & Ho). exists op.
  destruct (b_ops _ _ _ _ _ _ _ B _ _ Ho) as (Hi & _). split; [done|]. by eapply (cs_ret _ _ (csh_exec _ _ _ Hw Hwf He)).
Qed.
Lemma inv_unique ls s ev o op op' : strong w -> wf_ccalls ls -> cexec w ls s ev -> EInv o op ∈ ev -> EInv o op' ∈ ev -> op = op'.
Proof.
  intros Hw Hwf He H1 H2. destruct (good_exec w _ _ _ Hw Hwf He) as (M & H & N & pos & B & _). destruct (b_evi _ _ _ _ _ _ _ B _ _ H1) as (x & Hx & E1), (b_evi _ _ _ _ _ _ _ B _ _ H2) as (y & Hy & E2). congruence.
Qed.
End wshape.
