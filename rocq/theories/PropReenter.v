(** * C64: the closure of get_or_insert_with may call the map, and return what it likes.
    The vocabulary is in Reenter.v. *)
From Verif Require SafeProps.
From Verif Require Import Model Spec LinSpec ProgSpec Concrete SysSem Lin LinProps LinMore Shape PropSafety PropLin PropIter PropLock Reenter ReenterSim.

Section facts.
Context {C : Config}.
Implicit Types (s : state) (o : opid) (c : closures) (ev : list event).

Lemma drun_app ls1 : forall x ls2 x' ev, drun x (ls1 ++ ls2) = Some (x', ev) <-> exists x1 ev1 ev2, drun x ls1 = Some (x1, ev1) /\ drun x1 ls2 = Some (x', ev2) /\ ev = ev1 ++ ev2.
Proof.
  induction ls1 as [|lb ls1 IH]; intros x ls2 x' ev; simpl.
  - split; [intros H; exists x, [], ev; done|]. by intros (x1 & ev1 & ev2 & [= <- <-] & ? & ->).
  - destruct (dstep x lb) as [[x1 e1]|]; [|split; [done|by intros (? & ? & ? & ? & _)]]. split.
    + destruct (drun x1 (ls1 ++ ls2)) as [[x2 e2]|] eqn:E; [|done]. intros [= <- <-]. apply IH in E as (x3 & e3 & e4 & -> & E4 & ->).
      exists x3, (e1 ++ e3), e4. split; [done|]. split; [done|]. by rewrite app_assoc.
    + intros (x3 & e3 & e4 & E & E4 & ->). destruct (drun x1 ls1) as [[x4 e5]|] eqn:E5; [|done]. injection E as <- <-.
      assert (drun x1 (ls1 ++ ls2) = Some (x', e5 ++ e4)) as -> by (apply IH; eauto 6). by rewrite app_assoc.
Qed.

Lemma sys_app ls1 ls2 : sys (ls1 ++ ls2) = sys ls1 ++ sys ls2.
Proof. unfold sys. apply omap_app. Qed.

Lemma sys_split ls : forall j lb, sys ls !! j = Some lb -> exists d1 d2, ls = d1 ++ DSys lb :: d2 /\ length (sys d1) = j.
Proof.
  induction ls as [|[lb'|o p] ls IH]; intros j lb H; [done| |].
  - destruct j as [|j]; simpl in H; [injection H as ->; exists [], ls; done|]. destruct (IH _ _ H) as (d1 & d2 & -> & <-). exists (DSys lb' :: d1), d2. done.
  - destruct (IH j lb H) as (d1 & d2 & -> & <-). exists (DReturn o p :: d1), d2. done.
Qed.

Lemma returned_label ls : forall x x' ev o p, drun x ls = Some (x', ev) -> x'.2 !! o = Some (Some p) -> x.2 !! o = Some (Some p) \/ DReturn o p ∈ ls.
Proof.
  induction ls as [|lb ls IH]; intros x x' ev o p H Hp; simpl in H; [injection H as <- <-; by left|].
  destruct (dstep x lb) as [[x1 e1]|] eqn:Hs; [|done]. destruct (drun x1 ls) as [[x2 e2]|] eqn:Hr; [|done]. injection H as <- <-.
  destruct (IH _ _ _ _ _ Hr Hp) as [H1|H1]; [|right; by right]. destruct lb as [lb|o' p']; simpl in Hs.
  - left. destruct (waits x.2 lb); [done|]. destruct (step x.1 lb) as [[s1 e3]|]; [|done]. injection Hs as <- _. simpl in H1. clear -H1.
    induction e3 as [|y e IH]; [done|]. simpl in H1. destruct y as [| |o1 k1|]; try by apply IH. destruct (decide (o = o1)) as [->|]; [by rewrite lookup_insert in H1|].
    rewrite lookup_insert_ne in H1 by done. by apply IH.
  - destruct (x.2 !! o') as [[|]|], (s_ops x.1 !! o') as [[| | |]|]; try done. injection Hs as <- _. simpl in H1.
    destruct (decide (o = o')) as [->|]; [|left; by rewrite lookup_insert_ne in H1]. rewrite lookup_insert in H1. injection H1 as <-. right. by left.
Qed.

Lemma note_called e c o : c !! o <> None \/ (exists k, ECall o k ∈ e) -> note e c !! o <> None.
Proof.
  induction e as [|y e IH]; simpl; [intros [?|[k ?%elem_of_nil]]; done|]. intros H.
  assert ((exists k, y = ECall o k) \/ note e c !! o <> None) as [[k ->]|Hn].
  { destruct H as [H|[k [<-|H]%elem_of_cons]]; [right; apply IH; by left|left; by eexists|right; apply IH; right; by exists k]. }
  - by rewrite lookup_insert.
  - destruct y as [| |o1 k1|]; try done. destruct (decide (o = o1)) as [->|]; [by rewrite lookup_insert|by rewrite lookup_insert_ne].
Qed.
Lemma drun_called ls : forall x x' ev o, drun x ls = Some (x', ev) -> x.2 !! o <> None \/ (exists k, ECall o k ∈ ev) -> x'.2 !! o <> None.
Proof.
  induction ls as [|lb ls IH]; intros x x' ev o H Hp; simpl in H. { injection H as <- <-. destruct Hp as [?|[k ?%elem_of_nil]]; done. }
  destruct (dstep x lb) as [[x1 e1]|] eqn:Hs; [|done]. destruct (drun x1 ls) as [[x2 e2]|] eqn:Hr; [|done]. injection H as <- <-.
  apply (IH _ _ _ _ Hr). assert ((x.2 !! o <> None \/ exists k, ECall o k ∈ e1) \/ exists k, ECall o k ∈ e2) as [H|H].
  { destruct Hp as [?|[k [?|?]%elem_of_app]]; [by left; left|left; right; by exists k|right; by exists k]. }
  - left. destruct lb as [lb|o' p']; simpl in Hs.
    + destruct (waits x.2 lb); [done|]. destruct (step x.1 lb) as [[s1 e3]|]; [|done]. injection Hs as <- <-. simpl. by apply note_called.
    + destruct (x.2 !! o') as [[|]|] eqn:Eo, (s_ops x.1 !! o') as [[| | |]|]; try done. injection Hs as <- <-. simpl.
      destruct (decide (o = o')) as [->|]; [by rewrite lookup_insert|]. rewrite lookup_insert_ne by done. destruct H as [?|[k ?%elem_of_nil]]; done.
  - by right.
Qed.

Lemma wf_hs ls s c ev : dexec ls s c ev -> wf_dcalls ls -> wf_calls (map (hs_lb c) (sys ls)).
Proof.
  intros Hx [Hw Hr] o op Hin. apply elem_of_list_In, in_map_iff in Hin as (lb & E & Hin). apply elem_of_list_In in Hin. destruct lb as [o' op'| | | | |]; try done. injection E as -> <-.
  specialize (Hw _ _ Hin). destruct op' as [|k f| | | |]; try done. simpl. destruct (c !! o) as [[p|]|] eqn:Ec; try done.
  destruct (returned_label _ _ _ _ o p Hx Ec) as [H|H]; [simpl in H; by rewrite lookup_empty in H|]. by eapply Hr.
Qed.

Lemma known_ret c ev o r : ERet o r ∈ map (known c) ev <-> ERet o r ∈ ev.
Proof.
  rewrite !elem_of_list_In, in_map_iff. split; [|intros H; by exists (ERet o r)]. intros (e & E & H). destruct e; simpl in E; try done. by injection E as -> ->.
Qed.
Lemma known_call c ev o k : ECall o k ∈ map (known c) ev <-> ECall o k ∈ ev.
Proof.
  rewrite !elem_of_list_In, in_map_iff. split; [|intros H; by exists (ECall o k)]. intros (e & E & H). destruct e; simpl in E; try done. by injection E as -> ->.
Qed.
Lemma known_inv c ev o op : EInv o op ∈ ev -> EInv o (known_op c o op) ∈ map (known c) ev.
Proof. rewrite !elem_of_list_In, in_map_iff. intros H. by exists (EInv o op). Qed.
Lemma known_calls c ev o : Spec.calls_of (map (known c) ev) o = Spec.calls_of ev o.
Proof. induction ev as [|e ev IH]; [done|]. unfold Spec.calls_of in *. destruct e; [exact IH|exact IH| |exact IH]. cbn. destruct (decide _); [f_equal|]; exact IH. Qed.

Lemma prefix_exec d1 d2 s c ev : dexec (d1 ++ d2) s c ev -> exists s1 c1 ev1, dexec d1 s1 c1 ev1 /\
  exec (map (hs_lb c) (sys d1)) (hs c c1 s1) (map (known c) ev1) /\ (forall o p, c1 !! o = Some (Some p) -> c !! o = Some (Some p)) /\
  exists ev2, drun (s1, c1) d2 = Some ((s, c), ev2) /\ ev = ev1 ++ ev2.
Proof.
  intros Hx. apply drun_app in Hx as ([s1 c1] & ev1 & ev2 & H1 & H2 & ->). exists s1, c1, ev1. split; [done|].
  destruct (drun_once _ _ _ _ once_init H1) as [Ho _]. destruct (drun_once _ _ _ _ Ho H2) as [_ Hk]. simpl in Hk.
  split; [|split; [done|by exists ev2]]. pose proof (drun_hs d1 _ _ _ c once_init H1 Hk) as R. simpl in R. by rewrite hs_init in R.
Qed.
End facts.

Section effect.
Context {C : Config} {HC : ConfigOk C}.
Implicit Types (s : state) (o : opid) (ev : list event).

(** A call that returns New takes effect when it returns. *)
Lemma new_when_returning ls s ev o k f x : exec ls s ev -> wf_calls ls -> EInv o (OGetOrInsert k f) ∈ ev -> ERet o (REon (New x)) ∈ ev ->
  exists j s1 s2 spur a, ls !! j = Some (LStep o spur a) /\ state_at ls j = Some s1 /\ step s1 (LStep o spur a) = Some (s2, [ERet o (REon (New x))]) /\
    state_at ls (S j) = Some s2 /\ absent s1 k /\ maps s2 k (rr_val x) /\ same_elsewhere k s1 s2.
Proof.
  intros Hx Hw Hi Hr. destruct (goi_effect _ _ _ _ _ _ _ Hx Hw Hi Hr) as (e & [= <-] & Ey & j & s1 & s2 & Hst & Hpr & Ha & Hm & He & _).
  destruct Hst as ((spur & a & Hl) & Hs1 & Hs2). assert (j < length ls) as Hj by (by eapply lookup_lt_Some).
  destruct (exec_timeline _ _ _ Hx Hw) as (iv & rd & mu & Htl & [_ Hdone]). pose proof (tl_legal _ _ _ _ _ Htl) as [_ L2]. specialize (L2 j Hj).
  destruct (step_at_A ls s ev j o s1 s2 Hx Hw) as [A1 A2]; [split; eauto|].
  pose proof (proj1 (A1 k None) Ha) as E1. pose proof (proj1 (A2 k (Some (rr_val x))) Hm) as E2.
  destruct (mu j) as [en|] eqn:Em. 2: { exfalso. specialize (L2 k). congruence. }
  destruct (tl_mu _ _ _ _ _ Htl _ _ Hj Em) as [(sj & q & Hsj & Hq) (spur' & a' & Hl')]. rewrite Hl in Hl'. injection Hl' as E <- <-. rewrite Hs1 in Hsj. injection Hsj as <-.
  destruct Hpr as [q0 Hq0]. rewrite <- E, Hq0 in Hq. injection Hq as Eop <-.
  destruct (state_at_step _ _ _ _ _ _ _ Hx Hl Hs1 Hs2) as [es Hstep].
  destruct (Hdone j en Hj Em) as [[k' Hk']|(sj & op & r & Hsj & Hret)]; [by rewrite Hk' in Eop|]. rewrite Hs2 in Hsj. injection Hsj as <-. rewrite <- E in Hret.
  pose proof Hstep as Hstep'. simpl in Hstep'. rewrite Hq0 in Hstep'. destruct (op_step (guards s1) (s_mem s1) q0 spur a) as [[[m' nx] acts]|] eqn:Eop'; [|done].
  injection Hstep' as <- <-. simpl in Hret. rewrite lookup_insert in Hret. destruct nx as [|r'|]; try done. injection Hret as <- <-.
  pose proof (op_step_fut (guards s1) (s_mem s1) q0 spur a) as Hf. rewrite Eop' in Hf. destruct Hf as (F1 & _ & F3).
  assert (acts = []) as ->. { destruct F3 as [->|[(y & _ & Hy)|[k' ->]]]; [done|by destruct (Hy r')|]. destruct (F1 k') as (_ & q' & ? & _); [by left|done]. }
  cbn [map app] in Hstep. exists j, s1. eexists _, spur, a. do 2 (split; [done|]). split; [|done]. rewrite Hstep. f_equal. f_equal. f_equal. f_equal.
  apply (ret_unique ls s ev o); [done| |done].
  destruct (state_at_exec _ _ _ _ _ Hx Hs1) as [ev1 Hx1]. pose proof (exec_snoc _ _ _ _ _ _ Hx1 Hstep) as Hx2.
  assert (take j ls ++ [LStep o spur a] = take (S j) ls) as Et by (by rewrite (take_S_r _ _ (LStep o spur a))).
  rewrite Et in Hx2. unfold exec in Hx, Hx2. rewrite <- (take_drop (S j) ls) in Hx. rewrite SafeProps.run_app, Hx2 in Hx.
  destruct (run _ (drop (S j) ls)) as [[s3 e3]|]; [|done]. injection Hx as <- <-. apply elem_of_app. left. apply elem_of_app. right. by left.
Qed.
End effect.

(** ** The theorems *)
(** The calls, the closures they were given replaced by what these returned, are linearizable. *)
Theorem C64_linearizable `{C : Config} `{!ConfigOk C} : forall ls s c ev, dexec ls s c ev -> wf_dcalls ls ->
  exists l a, linearizes l (map (known c) ev) a /\ (s_dropped s = false -> forall k, has s k (a k)).
Proof. intros ls s c ev Hx Hw. exact (C01_linearizable _ _ _ (dexec_exec _ _ _ _ Hx) (wf_hs _ _ _ _ Hx Hw)). Qed.
Print Assumptions C64_linearizable.

(** No call fails, nothing is freed twice, and results stay usable, whatever closures do with the map. *)
Theorem C64_safe `{C : Config} : forall ls s c ev, dexec ls s c ev -> s_ub s = false /\ (forall o op f, s_ops s !! o <> Some (SFail op f)) /\
  forall o r x, o ∈ guards s -> (ERet o r ∈ ev /\ x ∈ refs_of r) \/ EYield o x ∈ ev -> ref_valid (s_mem s) x.
Proof.
  intros ls s c ev Hx. pose proof (dexec_exec _ _ _ _ Hx) as Hx'. assert (reachable (hs c c s)) as Hr by (by do 2 eexists). split; [|split].
  - exact (proj1 (C09_no_use_after_free _ Hr)).
  - intros o op f E. assert (s_ops (hs c c s) !! o = Some (SFail (known_op c o op) f)) as E' by (by rewrite hs_ops, E).
    destruct f as [p|]; [by eapply C08_no_panic in E'|by eapply (proj2 (C09_no_use_after_free _ Hr))].
  - intros o r x Hg Hin. apply (C10_refs_stay_valid _ _ _ o r x Hx'); [by rewrite hs_guards|]. destruct Hin as [[Hin ?]|Hin]; [left; by rewrite known_ret|right].
    apply elem_of_list_In, in_map_iff. exists (EYield o x). split; [done|]. by apply elem_of_list_In.
Qed.
Print Assumptions C64_safe.

(** The closure is called at most once; who gets New has called it, and the element is what it returned. *)
Theorem C64_closure_once `{C : Config} `{!ConfigOk C} : forall ls s c ev o, dexec ls s c ev -> length (Spec.calls_of ev o) <= 1.
Proof. intros ls s c ev o Hx. rewrite <- (known_calls c). exact (C06_at_most_once _ _ _ o (dexec_exec _ _ _ _ Hx)). Qed.
Print Assumptions C64_closure_once.

(** A call that returns New takes effect in one step, after its closure has returned: then the key has no value (whatever the closure, or others meanwhile, did), and afterwards it has the one the closure returned. *)
Theorem C64_new `{C : Config} `{!ConfigOk C} : forall ls s c ev o k f x, dexec ls s c ev -> wf_dcalls ls -> EInv o (OGetOrInsert k f) ∈ ev -> ERet o (REon (New x)) ∈ ev ->
  Spec.calls_of ev o = [k] /\
  exists d1 d2 s1 c1 ev1 spur a s2 c2, ls = d1 ++ DSys (LStep o spur a) :: d2 /\ dexec d1 s1 c1 ev1 /\ dstep (s1, c1) (DSys (LStep o spur a)) = Some ((s2, c2), [ERet o (REon (New x))]) /\
    DReturn o (rr_val x) ∈ d1 /\ absent s1 k /\ maps s2 k (rr_val x) /\ same_elsewhere k s1 s2.
Proof.
  intros ls s c ev o k f x Hx Hw Hi Hr. pose proof (dexec_exec _ _ _ _ Hx) as Hx'. pose proof (wf_hs _ _ _ _ Hx Hw) as Hw'.
  pose proof (known_inv c _ _ _ Hi) as Hi'. pose proof (proj2 (known_ret c _ _ _) Hr) as Hr'. simpl in Hi'.
  destruct (C06_new _ _ _ _ _ _ _ Hx' Hi' Hr') as [Hcalls Hval]. rewrite known_calls in Hcalls. split; [done|].
  destruct (new_when_returning _ _ _ _ _ _ _ Hx' Hw' Hi' Hr') as (j & t1 & t2 & spur & a & Hl & Ht1 & Hst & Ht2 & Ha & Hm & He).
  rewrite list_lookup_fmap in Hl. apply fmap_Some in Hl as (lb & Hl & E). destruct lb as [|o1 spur1 a1| | | |]; try done. injection E as <- <- <-.
  destruct (sys_split _ _ _ Hl) as (d1 & d2 & -> & Hlen). destruct (prefix_exec _ _ _ _ _ Hx) as (s1 & c1 & ev1 & Hd1 & Hx1 & Hk1 & ev2 & Hd2 & ->).
  simpl in Hd2. destruct (waits c1 (LStep o spur a)) eqn:Ew; [simpl in Ew; by rewrite Ew in Hd2|]. simpl in Ew. rewrite Ew in Hd2.
  assert (t1 = hs c c1 s1) as ->.
  { rewrite sys_app in Ht1. unfold state_at in Ht1. rewrite map_app, take_app_alt in Ht1 by (by rewrite map_length). unfold exec in Hx1. rewrite Hx1 in Ht1. by injection Ht1 as <-. }
  exists d1, d2, s1, c1, ev1, spur, a.
  destruct (step s1 (LStep o spur a)) as [[s2 e2]|] eqn:Hs2; simpl in Hs2; rewrite Hs2 in Hd2; [|done].
  destruct (drun (s2, note e2 c1) d2) as [[x3 e3]|] eqn:Hd3; [|done]. injection Hd2 as -> <-.
  destruct (drun_once _ _ _ _ once_init Hd1) as [Ho1 _].
  assert (dstep (s1, c1) (DSys (LStep o spur a)) = Some ((s2, note e2 c1), e2)) as Hds. { simpl. rewrite Ew. by rewrite Hs2. }
  pose proof (dstep_hs c _ _ _ _ Ho1 Hds (fun _ _ E => ltac:(done))) as Hsim. cbn [fst snd hs_lb] in Hsim. rewrite Hst in Hsim. injection Hsim as -> E2.
  assert (e2 = [ERet o (REon (New x))]) as ->. { destruct e2 as [|y [|]]; try done. destruct y; try done. }
  exists s2, c1. split; [done|]. split; [done|]. split; [done|]. split; [|done].
  assert (c1 !! o <> None) as Hne.
  { apply (drun_called _ _ _ _ o Hd1). right. exists k. 
    assert (Spec.calls_of (ev1 ++ [ERet o (REon (New x))]) o = [k]) as Hc1.
    { assert (dexec (d1 ++ [DSys (LStep o spur a)]) s2 c1 (ev1 ++ [ERet o (REon (New x))])) as Hx3. { apply drun_app. do 3 eexists. split; [exact Hd1|]. split; [cbn [drun]; by rewrite Hds|done]. }
      pose proof (dexec_exec _ _ _ _ Hx3) as Hx4.
      assert (exists f', EInv o (OGetOrInsert k f') ∈ ev1) as [f' Hi3].
      { assert (wf_calls (map (hs_lb c) (sys d1))) as Hw1. { intros o' op' Hin'. apply (Hw' o'). rewrite sys_app, map_app. apply elem_of_app. by left. }
        destruct (exec_linv _ _ _ Hx1 Hw1) as (pos & iv & rd & mu & _ & _ & _ & _ & Hrun).
        simpl in Hst. destruct (map_imap _ _ !! o) as [[op q| | |]|] eqn:Eo; try done. destruct (Hrun o op q) as [Hin1 _]; [exact Eo|].
        assert (EInv o op ∈ map (known c) (ev1 ++ [ERet o (REon (New x))] ++ e3)) as Hin2 by (rewrite map_app; apply elem_of_app; by left).
        pose proof (inv_unique _ _ _ _ _ _ Hx' Hin2 Hi') as ->. clear -Hin1. apply elem_of_list_In, in_map_iff in Hin1 as (y & E & Hy). apply elem_of_list_In in Hy. destruct y as [o1 op1| | |]; try done. simpl in E. injection E as -> E.
        destruct op1 as [|k1 f1| | | |]; try done. simpl in E. injection E as -> _. by exists f1. }
      assert (EInv o (OGetOrInsert k f') ∈ ev1 ++ [ERet o (REon (New x))]) as Hi4 by (apply elem_of_app; by left).
      assert (ERet o (REon (New x)) ∈ map (known c1) (ev1 ++ [ERet o (REon (New x))])) as Hr4 by (apply known_ret, elem_of_app; right; by left).
      destruct (C06_new _ _ _ _ _ _ _ Hx4 (known_inv c1 _ _ _ Hi4) Hr4) as [Hc _]. by rewrite known_calls in Hc. }
    assert (k ∈ Spec.calls_of (ev1 ++ [ERet o (REon (New x))]) o) as H by (rewrite Hc1; by left). apply elem_of_list_omap in H as (y & Hy & E). destruct y; try done.
    destruct (decide (o0 = o)) as [->|]; [|done]. injection E as ->. apply elem_of_app in Hy as [?|Hy%elem_of_list_singleton]; done. }
  destruct (c1 !! o) as [[p|]|] eqn:Ec1; [|done|done].
  rewrite (Hk1 o p Ec1) in Hval. rewrite Hval. destruct (returned_label _ _ _ _ o p Hd1 Ec1) as [H|H]; [simpl in H; by rewrite lookup_empty in H|done].
Qed.
Print Assumptions C64_new.

Section back.
Context {C : Config}.
Implicit Types (s : state) (o : opid) (c : closures) (ev : list event).

Lemma step_back F s c o spur a s' e : run_b c o = false -> once (s, c) -> step (hs F c s) (LStep o spur a) = Some (s', e) ->
  exists s1 c1 e1, dstep (s, c) (DSys (LStep o spur a)) = Some ((s1, c1), e1) /\ hs F c1 s1 = s' /\ map (known F) e1 = e /\ (c1 !! o = c !! o \/ (c !! o = None /\ c1 !! o = Some None /\ exists op q, s_ops s1 !! o = Some (SRun op q))).
Proof.
  intros Hb Ho Hs. assert (exists s1 e1, step s (LStep o spur a) = Some (s1, e1) /\ (note e1 c !! o = c !! o \/ (c !! o = None /\ note e1 c !! o = Some None /\ exists op q, s_ops s1 !! o = Some (SRun op q)))) as (s1 & e1 & Hs1 & Hn).
  { simpl in Hs |- *. rewrite map_lookup_imap in Hs. destruct (s_ops s !! o) as [[op q| | |]|] eqn:Eo; try done. simpl in Hs. rewrite Hb in Hs. simpl in Hs. rewrite hs_guards, op_step_hs in Hs.
    destruct (op_step (guards s) (s_mem s) q spur a) as [[[m' nx] acts]|] eqn:Es; [|done]. do 2 eexists. split; [done|].
    destruct (step_events o op q _ _ _ _ _ _ _ c Es) as (N1 & N2 & N3 & _). rewrite N2. destruct (has_call acts) eqn:Ea; [|by left]. right. destruct (N3 eq_refl) as (Hq & q' & -> & _).
    split; [|split; [done|]]. 2: { simpl. rewrite lookup_insert. eauto. }
    destruct (c !! o) eqn:Ec; [|done]. destruct (Ho o) as (st & Hst & Hf); [simpl; congruence|]. simpl in Hst. rewrite Eo in Hst. injection Hst as <-. congruence. }
  assert (dstep (s, c) (DSys (LStep o spur a)) = Some ((s1, note e1 c), e1)) as Hd. { unfold run_b in Hb. unfold dstep. cbn [fst snd waits]. by rewrite Hb, Hs1. }
  exists s1, (note e1 c), e1. split; [done|]. pose proof (dstep_hs F _ _ _ _ Ho Hd (fun _ _ E => ltac:(done))) as Hsim. cbn [fst snd hs_lb] in Hsim. rewrite Hs in Hsim. injection Hsim as -> ->. done.
Qed.

Lemma solo_back F o p ls : F !! o = Some (Some p) -> forall s c s' ev, once (s, c) -> c !! o <> Some None -> alone o ls -> run (hs F c s) ls = Some (s', ev) ->
  exists dls s1 c1 ev1, drun (s, c) dls = Some ((s1, c1), ev1) /\ map (known F) ev1 = ev /\
    forall lb, lb ∈ dls -> (exists spur a, lb = DSys (LStep o spur a)) \/ (c !! o = None /\ lb = DReturn o p).
Proof.
  intros HF. induction ls as [|lb ls IH]; intros s c s' ev Ho Hc Hal Hr; cbn [run] in Hr.
  { injection Hr as <- <-. exists [], s, c, []. split; [done|]. split; [done|]. by intros lb ?%elem_of_nil. }
  destruct (Hal lb) as (spur & a & ->); [by left|]. destruct (step (hs F c s) (LStep o spur a)) as [[s2 e2]|] eqn:Hs; [|done]. destruct (run s2 ls) as [[s3 e3]|] eqn:Hr2; [|done]. injection Hr as <- <-.
  assert (alone o ls) as Hal2 by (intros x Hx; apply Hal; by right).
  destruct (step_back F s c o spur a s2 e2) as (s1 & c1 & e1 & Hd & <- & <- & Hn); [unfold run_b; by destruct (c !! o) as [[|]|]|done|done|].
  destruct (dstep_once _ _ _ _ Ho Hd) as [Ho1 _]. destruct Hn as [Hn|(Hcn & Hc1 & op & q & Eo)].
  - destruct (IH s1 c1 s3 e3 Ho1) as (dls & s4 & c4 & ev4 & Hd4 & <- & Hl4); [by rewrite Hn|done|done|].
    exists (DSys (LStep o spur a) :: dls), s4, c4, (e1 ++ ev4). split; [cbn [drun]; by rewrite Hd, Hd4|]. split; [by rewrite map_app|].
    intros lb [->|Hin]%elem_of_cons; [left; eauto|]. rewrite <- Hn. by apply Hl4.
  - assert (dstep (s1, c1) (DReturn o p) = Some ((set_op s1 o (SRun op (fill p q)), <[o := Some p]> c1), [])) as Hd2. { simpl. by rewrite Hc1, Eo. }
    destruct (dstep_once _ _ _ _ Ho1 Hd2) as [Ho2 _].
    destruct (dstep_hs F _ _ _ _ Ho1 Hd2) as [Heq _]; [by intros o' p' [= <- <-]|]. cbn [fst snd] in Heq. rewrite <- Heq in Hr2.
    destruct (IH _ _ s3 e3 Ho2) as (dls & s4 & c4 & ev4 & Hd4 & <- & Hl4); [by rewrite lookup_insert|done|done|].
    exists (DSys (LStep o spur a) :: DReturn o p :: dls), s4, c4, (e1 ++ ev4). split. { cbn [drun]. rewrite Hd, Hd2, Hd4. done. } split; [by rewrite map_app|].
    intros lb [->|[->|Hin]%elem_of_cons]%elem_of_cons; [left; eauto|by right|]. destruct (Hl4 _ Hin) as [?|[H _]]; [by left|by rewrite lookup_insert in H].
Qed.
End back.

(** While closures run (for ever, perhaps), every other modifying call can finish alone, whatever its own closure returns: nothing waits for a running closure. *)
Theorem C64_no_deadlock `{C : Config} : forall ls s c ev o op p, dexec ls s c ev -> in_progress s o op -> is_reader op = false -> c !! o <> Some None ->
  exists dls s' c' ev' r, drun (s, c) dls = Some ((s', c'), ev') /\ ERet o r ∈ ev' /\
    forall lb, lb ∈ dls -> (exists spur a, lb = DSys (LStep o spur a)) \/ (c !! o = None /\ lb = DReturn o p).
Proof.
  intros ls s c ev o op p Hx [q Hq] Hm Hc. destruct (drun_once _ _ _ _ once_init Hx) as [Ho _].
  assert (exists (F : closures) p', F !! o = Some (Some p') /\ (forall o' p', c !! o' = Some (Some p') -> F !! o' = Some (Some p')) /\ (c !! o = None -> p' = p)) as (F & p' & HF & Hcons & Hp).
  { destruct (c !! o) as [[p'|]|] eqn:Ec; [exists c, p'; done|done|]. exists (<[o := Some p]> c), p. split; [by rewrite lookup_insert|]. split; [|done].
    intros o' p' E. rewrite lookup_insert_ne; [done|]. intros ->. congruence. }
  pose proof (drun_hs ls _ _ _ F once_init Hx Hcons) as R. cbn [fst snd] in R. rewrite hs_init in R.
  destruct (C26_finishes (hs F c s) o (known_op F o op)) as (ls' & s' & ev' & r & Hal & _ & Hr & Hin).
  - by do 2 eexists.
  - eexists. rewrite hs_ops, Hq. done.
  - by destruct op.
  - destruct (solo_back F o p' ls' HF s c s' ev' Ho Hc Hal Hr) as (dls & s1 & c1 & ev1 & Hd & <- & Hl).
    exists dls, s1, c1, ev1, r. split; [done|]. split; [by apply known_ret in Hin|]. intros lb Hlb. destruct (Hl lb Hlb) as [?|[? ->]]; [by left|right]. by rewrite Hp.
Qed.
Print Assumptions C64_no_deadlock.

(** Lookups, from a closure or elsewhere, take at most 17 steps. *)
Theorem C64_get_wait_free `{C : Config} : forall ls s c ev o k, dexec ls s c ev -> EInv o (OGet k) ∈ ev -> steps_of (sys ls) o <= 17.
Proof.
  intros ls s c ev o k Hx Hi. pose proof (dexec_exec _ _ _ _ Hx) as Hx'. destruct (C24_get_wait_free _ _ _ o k Hx') as [H _]; [exact (known_inv c _ _ _ Hi)|].
  assert (steps_of (map (hs_lb c) (sys ls)) o = steps_of (sys ls) o) as <-; [|done]. clear. unfold steps_of. induction (sys ls) as [|lb l IH]; [done|]. cbn.
  assert (is_step_of o (hs_lb c lb) = is_step_of o lb) as -> by (by destruct lb). destruct (is_step_of o lb); cbn; by rewrite IH.
Qed.
Print Assumptions C64_get_wait_free.

(** A call whose key, from the return of its closure on, always has a value (because the closure, or somebody else, has inserted it) returns an existing element: the map does not keep
    what the closure returned. *)
Lemma returns_once `{C : Config} ls : forall x x' ev o p, drun x ls = Some (x', ev) -> once x -> x.2 !! o = Some (Some p) -> forall p', DReturn o p' ∉ ls.
Proof.
  induction ls as [|lb ls IH]; intros x x' ev o p H Ho Hp p'; simpl in H; [by intros ?%elem_of_nil|].
  destruct (dstep x lb) as [[x1 e1]|] eqn:Hs; [|done]. destruct (drun x1 ls) as [[x2 e2]|] eqn:Hr; [|done]. destruct (dstep_once _ _ _ _ Ho Hs) as [Ho1 Hk].
  intros [<-|Hin]%elem_of_cons; [|by eapply (IH _ _ _ o p Hr Ho1 (Hk _ _ Hp))]. simpl in Hs. by rewrite Hp in Hs.
Qed.

Theorem C64_nested_wins `{C : Config} `{!ConfigOk C} : forall d1 d2 s c ev o k f p e, dexec (d1 ++ DReturn o p :: d2) s c ev -> wf_dcalls (d1 ++ DReturn o p :: d2) ->
  EInv o (OGetOrInsert k f) ∈ ev -> ERet o (REon e) ∈ ev ->
  (forall d3 s' c' ev', d3 `prefix_of` d2 -> dexec (d1 ++ DReturn o p :: d3) s' c' ev' -> exists p', maps s' k p') ->
  exists x, e = Existing x.
Proof.
  intros d1 d2 s c ev o k f p e Hx Hw Hi Hr Hall. destruct e as [x|x]; [by exists x|]. exfalso.
  destruct (C64_new _ _ _ _ _ _ _ _ Hx Hw Hi Hr) as (_ & d1' & d2' & s1 & c1 & ev1 & spur & a & s2 & c2 & E & Hx1 & _ & Hret & Ha & _).
  assert (forall p', DReturn o p' ∉ d1) as Hno.
  { intros p' Hin. apply elem_of_list_split in Hin as (da & db & ->). rewrite <- app_assoc in Hx. cbn [app] in Hx. apply drun_app in Hx as (xa & ea & eb & Hra & Hrb & _).
    destruct (drun_once _ _ _ _ once_init Hra) as [Ho _]. cbn [drun] in Hrb. destruct (dstep xa (DReturn o p')) as [[xb eb']|] eqn:Hs; [|done].
    destruct (drun xb (db ++ _)) as [[xc ec]|] eqn:Hrc; [|done]. destruct (dstep_once _ _ _ _ Ho Hs) as [Ho1 _].
    apply (returns_once _ _ _ _ o p' Hrc Ho1) with (p' := p). 2: { apply elem_of_app. right. by left. }
    simpl in Hs. destruct (xa.2 !! o) as [[|]|], (s_ops xa.1 !! o) as [[| | |]|]; try done. injection Hs as <- _. simpl. by rewrite lookup_insert. }
  assert (exists d3, d1' = d1 ++ DReturn o p :: d3 /\ d3 `prefix_of` d2) as (d3 & -> & Hpre).
  { destruct (app_eq_inv _ _ _ _ E) as [(z & -> & Ez)|(z & -> & Ez)].
    - exfalso. apply (Hno (rr_val x)). apply elem_of_app. by left.
    - destruct z as [|y z]; [done|]. injection Ez as <- ->. exists z. split; [done|]. by eexists. }
  destruct (Hall d3 _ _ _ Hpre Hx1) as [p' Hp']. by destruct (Ha p').
Qed.
Print Assumptions C64_nested_wins.

(** ** Concrete cases *)
Inductive dcmd := CInv (o : opid) (op : @oper CN) | CCall (o : opid) | CFin (o : opid) | CRet (o : opid) (p : @Pl CN).
Definition dgo (x : option (@dstate CN * list dlabel)) (lb : @dstate CN -> dlabel) : option (@dstate CN * list dlabel) :=
  match x with Some (y, ls) => match dstep y (lb y) with Some (y', _) => Some (y', ls ++ [lb y]) | None => None end | None => None end.
Definition dstp (o : opid) (y : @dstate CN) : dlabel := DSys (LStep o false (pick (s_mem y.1))).
Fixpoint dfin (n : nat) (o : opid) (x : option (@dstate CN * list dlabel)) : option (@dstate CN * list dlabel) :=
  match n with 0 => None | S n => match x with Some (y, _) => if running y.1 o then dfin n o (dgo x (dstp o)) else x | None => None end end.
Fixpoint dcal (n : nat) (o : opid) (x : option (@dstate CN * list dlabel)) : option (@dstate CN * list dlabel) :=
  match n with 0 => None | S n => match x with Some (y, _) => if bool_decide (y.2 !! o = None) then dcal n o (dgo x (dstp o)) else x | None => None end end.
Definition dcmdl (x : option (@dstate CN * list dlabel)) (c : dcmd) : option (@dstate CN * list dlabel) :=
  match c with CInv o op => dgo x (fun _ => DSys (LInv o op)) | CCall o => dcal 500 o x | CFin o => dfin 500 o x | CRet o p => dgo x (fun _ => DReturn o p) end.
Definition dsched (cs : list dcmd) : list dlabel := match foldl dcmdl (Some ((init, ∅), [])) cs with Some (_, ls) => ls | None => [] end.
Definition dend (cs : list dcmd) : option (@dstate CN * list (@event CN)) := drun (init, ∅) (dsched cs).
Definition dwfb (ls : list (@dlabel CN)) : bool :=
  forallb lb_wfb (sys ls) &&
  forallb (fun x => match x with DReturn o p => forallb (fun y => match y with LInv o' (OGetOrInsert k _) => negb (Pos.eqb o' o) || N.eqb (fst p) k | _ => true end) (sys ls) | _ => true end) ls.
Lemma dwf_check ls : dwfb ls = true -> wf_dcalls ls.
Proof.
  intros H. apply andb_true_iff in H as [H1 H2]. split; [by apply wf_check|]. intros o p k f Hr Hi. rewrite forallb_forall in H2. apply elem_of_list_In in Hr, Hi. specialize (H2 _ Hr). simpl in H2.
  rewrite forallb_forall in H2. specialize (H2 _ Hi). simpl in H2. by rewrite Pos.eqb_refl in H2.
Qed.
Definition ret_of (ev : list (@event CN)) (o : opid) : list (@res CN) := omap (fun e => match e with ERet o' r => if Pos.eqb o' o then Some r else None | _ => None end) ev.
Lemma ret_of_spec ev o r : r ∈ ret_of ev o -> ERet o r ∈ ev.
Proof. intros (e & He & E)%elem_of_list_omap. destruct e as [|o' r'| |]; try done. destruct (Pos.eqb_spec o' o) as [->|]; [|done]. by injection E as ->. Qed.

(** The closure of call 1 (key 5) looks key 5 up (call 2: not there), inserts key 5 (call 3), and returns another element with key 5.  Then the closure of call 4 (key 6) gets key 5 from the map
    (call 5), and returns an element made of what it found; its call inserts that one. *)
Definition nested : list dcmd := [CInv 1 (goi 5 0); CCall 1; CInv 2 (get 5); CFin 2; CInv 3 (ins 5 9); CFin 3; CRet 1 (el 5 7); CFin 1;
  CInv 4 (goi 6 0); CCall 4; CInv 5 (get 5); CFin 5; CRet 4 (el 6 10); CFin 4]%positive.

Lemma maps_check `{C : Config} `{!ConfigOk C} ls s c ev k p : dexec ls s c ev -> wf_dcalls ls -> s_dropped s = false -> Look.absm (s_mem s) k = Some p -> maps s k p.
Proof.
  intros Hx Hw Hd Ha. destruct (exec_full _ _ _ (dexec_exec _ _ _ _ Hx) (wf_hs _ _ _ _ Hx Hw) Hd) as [pos Hf]. exact (proj2 (has_abs pos (hs c c s) k (Some p) Hf) Ha).
Qed.
(** At every prefix of the schedule that is at least [n] long, key [k] has a value. *)
Definition kept (ls : list (@dlabel CN)) (n : nat) (k : N) : bool :=
  forallb (fun j => match drun (init, ∅) (take j ls) with Some ((s, _), _) => negb (s_dropped s) && match Look.absm (s_mem s) k with Some _ => true | None => false end | None => true end)
    (seq n (S (length ls) - n)).
Lemma kept_spec ls n (k : N) : wf_dcalls ls -> kept ls n k = true -> forall d s c ev, d `prefix_of` ls -> n <= length d -> dexec d s c ev -> exists p', maps s (k : @Key CN) p'.
Proof.
  intros Hw H d s c ev [r ->] Hn Hx. unfold kept in H. rewrite forallb_forall in H. specialize (H (length d)). rewrite take_app in H. unfold dexec in Hx. rewrite Hx in H.
  assert (negb (s_dropped s) && match Look.absm (s_mem s) (k : @Key CN) with Some _ => true | None => false end = true) as H'. { apply H. rewrite app_length. apply in_seq. lia. }
  apply andb_true_iff in H' as [H1 H2]. apply negb_true_iff in H1. destruct (Look.absm (s_mem s) (k : @Key CN)) as [p|] eqn:E; [|done]. exists p.
  eapply (maps_check d); [exact Hx| |done|done]. destruct Hw as [W1 W2]. split.
  - intros o op Hin. apply (W1 o). rewrite sys_app. apply elem_of_app. by left.
  - intros o q k' f Hr Hi. eapply W2; [apply elem_of_app; by left|]. rewrite sys_app. apply elem_of_app. by left.
Qed.

Definition eqb_ret (l : list (@res CN)) (r : N * N) (b : bool) : bool := match l with [REon (Existing x)] => b && N.eqb (fst (rr_val x)) (fst r) && N.eqb (snd (rr_val x)) (snd r) | [REon (New x)] => negb b && N.eqb (fst (rr_val x)) (fst r) && N.eqb (snd (rr_val x)) (snd r) | _ => false end.
Definition inv_of (ev : list (@event CN)) (o : opid) : list N := omap (fun e => match e with EInv o' (OGetOrInsert k _) => if Pos.eqb o' o then Some (k : N) else None | _ => None end) ev.
Lemma inv_of_spec ev o k : k ∈ inv_of ev o -> exists f, EInv o (OGetOrInsert (k : @Key CN) f) ∈ ev.
Proof. intros (e & He & E)%elem_of_list_omap. destruct e as [o' [| | | | |]| | |]; try done. destruct (Pos.eqb_spec o' o) as [->|]; [|done]. injection E as ->. by eexists. Qed.

(** Up to the return of the closure of call 1, and after. *)
Definition nested1 : list (@dlabel CN) := take (length (dsched (take 7 nested)) - 1) (dsched nested).
Definition nested2 : list (@dlabel CN) := drop (length (dsched (take 7 nested))) (dsched nested).
Lemma nested_split : dsched nested = nested1 ++ DReturn 1%positive (el 5 7) :: nested2.
Proof. vm_compute. reflexivity. Qed.
Definition nested_check (x : option (@dstate CN * list (@event CN))) : bool :=
  match x with
  | Some ((s, c), ev) => eqb_ret (ret_of ev 1%positive) (5, 9)%N true && eqb_ret (ret_of ev 4%positive) (6, 10)%N false && bool_decide (5%N ∈ inv_of ev 1%positive) && bool_decide (6%N ∈ inv_of ev 4%positive)
  | None => false
  end.

Example C64_example : exists s c ev f f' x y, dexec (nested1 ++ DReturn 1%positive (el 5 7) :: nested2) s c ev /\ wf_dcalls (nested1 ++ DReturn 1%positive (el 5 7) :: nested2) /\
  EInv 1%positive (OGetOrInsert (5%N : @Key CN) f) ∈ ev /\ ERet 1%positive (REon (Existing x)) ∈ ev /\ rr_val x = el 5 9 /\
  EInv 4%positive (OGetOrInsert (6%N : @Key CN) f') ∈ ev /\ ERet 4%positive (REon (New y)) ∈ ev /\ rr_val y = el 6 10 /\
  (forall d3 s' c' ev', d3 `prefix_of` nested2 -> dexec (nested1 ++ DReturn 1%positive (el 5 7) :: d3) s' c' ev' -> exists p', maps s' (5%N : @Key CN) p').
Proof.
  assert (wf_dcalls (nested1 ++ DReturn 1%positive (el 5 7) :: nested2)) as Hw. { rewrite <- nested_split. apply dwf_check. vm_compute. reflexivity. }
  assert (kept (nested1 ++ DReturn 1%positive (el 5 7) :: nested2) (length nested1) 5 = true) as Hk. { rewrite <- nested_split. vm_compute. reflexivity. }
  assert (nested_check (drun (init, ∅) (nested1 ++ DReturn 1%positive (el 5 7) :: nested2)) = true) as Hc. { rewrite <- nested_split. vm_compute. reflexivity. }
  generalize dependent nested2. intros d2 Hw Hk Hc. generalize dependent nested1. intros d1 Hw Hk Hc. unfold dexec.
  destruct (drun (init, ∅) (d1 ++ DReturn 1%positive (el 5 7) :: d2)) as [[[s c] ev]|] eqn:E; [|done]. simpl in Hc.
  apply andb_true_iff in Hc as [Hc H4]. apply andb_true_iff in Hc as [Hc H3]. apply andb_true_iff in Hc as [H1 H2]. apply bool_decide_eq_true in H3, H4.
  apply inv_of_spec in H3 as [f Hf]. apply inv_of_spec in H4 as [f' Hf'].
  assert (forall o r b, eqb_ret (ret_of ev o) r b = true -> exists x, ERet o (REon (if b then Existing x else New x)) ∈ ev /\ rr_val x = r) as HR.
  { clear. intros o r b H. destruct (ret_of ev o) as [|z [|]] eqn:E; [done| |].
    - assert (ERet o z ∈ ev) as Hin by (apply ret_of_spec; rewrite E; by left). destruct z as [|[x|x]| |]; try done; simpl in H; apply andb_true_iff in H as [H H2]; apply andb_true_iff in H as [H0 H1].
      + destruct b; [|done]. exists x. split; [done|]. destruct (rr_val x), r. apply N.eqb_eq in H1, H2. simpl in *. by subst.
      + destruct b; [done|]. exists x. split; [done|]. destruct (rr_val x), r. apply N.eqb_eq in H1, H2. simpl in *. by subst.
    - by destruct z as [|[]| |]. }
  destruct (HR _ _ _ H1) as (x & Hx1 & Hx2). destruct (HR _ _ _ H2) as (y & Hy1 & Hy2).
  exists s, c, ev, f, f', x, y. do 8 (split; [done|]). intros d3 s' c' ev' [r ->] Hd.
  eapply (kept_spec _ _ _ Hw Hk); [| |exact Hd]; [exists r; by rewrite <- app_assoc|]. rewrite app_length. lia.
Qed.

(** The closure of call 1 does not return; call 2, an insert of another key, and call 3, a get_or_insert of the same key, are in progress. *)
Definition hanging : list dcmd := [CInv 1 (goi 5 0); CCall 1; CInv 2 (ins 6 9); CInv 3 (goi 5 0)]%positive.
Definition hang_check (x : option (@dstate CN * list (@event CN))) : bool :=
  match x with
  | Some ((s, c), ev) => match c !! 1%positive with Some None => true | _ => false end && match c !! 2%positive with None => true | _ => false end && match c !! 3%positive with None => true | _ => false end &&
     match s_ops s !! 2%positive with Some (SRun op _) => negb (is_reader op) | _ => false end && match s_ops s !! 3%positive with Some (SRun op _) => negb (is_reader op) | _ => false end
  | None => false
  end.
Example C64_deadlock_example : exists ls s c ev op2 op3, @dexec CN ls s c ev /\ c !! 1%positive = Some None /\
  in_progress s 2%positive op2 /\ is_reader op2 = false /\ c !! 2%positive <> Some None /\ in_progress s 3%positive op3 /\ is_reader op3 = false /\ c !! 3%positive <> Some None.
Proof.
  exists (dsched hanging). unfold dexec. assert (hang_check (drun (init, ∅) (dsched hanging)) = true) as H by (vm_compute; reflexivity). generalize dependent (dsched hanging). intros ls H.
  destruct (drun (init, ∅) ls) as [[[s c] ev]|]; [|discriminate H]. unfold hang_check in H. unfold in_progress.
  apply andb_true_iff in H as [H H5]. apply andb_true_iff in H as [H H4]. apply andb_true_iff in H as [H H3]. apply andb_true_iff in H as [H1 H2].
  destruct (c !! 1%positive) as [[|]|] eqn:E1; try discriminate H1. destruct (c !! 2%positive) eqn:E2; [discriminate H2|]. destruct (c !! 3%positive) eqn:E3; [discriminate H3|].
  destruct (s_ops s !! 2%positive) as [[op2 q2| | |]|] eqn:Q2; try discriminate H4. destruct (s_ops s !! 3%positive) as [[op3 q3| | |]|] eqn:Q3; try discriminate H5.
  exists s, c, ev, op2, op3. apply negb_true_iff in H4, H5. split; [reflexivity|]. split; [exact E1|]. split; [exists q2; exact Q2|]. split; [exact H4|]. split; [by rewrite E2|]. split; [exists q3; exact Q3|]. split; [exact H5|]. by rewrite E3.
Qed.
