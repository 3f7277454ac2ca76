(** * More consequences of the timeline: single calls, races for one key, parallel insertion. *)
From Verif Require Import Model Mem Inv Safe SafeStep SafeOps SafeSys SafeProps Look LinSpec Sem SemOps Spec SysSem Lin LinProps Shape.

Section linmore.
Context {C : Config} {HC : ConfigOk C}.
Implicit Types (m : mem) (pos : loc -> list nat) (v w : sh) (o : opid) (gs : gset opid) (k : Key) (op : oper) (s : state)
  (ls : list label) (ev : list event) (rd : nat -> list entry) (mu : nat -> option entry).

(** ** Finished calls stay finished *)
Lemma step_finished s lb s' e o : step s lb = Some (s', e) -> finished s o -> finished s' o.
Proof.
  intros Hst Hf. destruct lb as [o' op1|o' spur a|o'|o'|n|]; cbn [step] in Hst.
  - destruct (s_ops s !! o') eqn:Eo, (s_dropped s); simplify_eq. unfold finished in *. simpl. destruct (decide (o' = o)) as [->|]; [|by rewrite lookup_insert_ne].
    rewrite Eo in Hf. naive_solver.
  - destruct (s_ops s !! o') as [[]|] eqn:Eo; try done. destruct (op_step _ _ _ _ _) as [[[? nx] ?]|]; [|done]. injection Hst as <- <-.
    unfold finished in *. simpl. destruct (decide (o' = o)) as [->|]; [|by rewrite lookup_insert_ne]. rewrite Eo in Hf. naive_solver.
  - destruct (s_ops s !! o') as [[]|] eqn:Eo; try done. injection Hst as <- <-. unfold finished in *. simpl. destruct (decide (o' = o)) as [->|]; [rewrite lookup_insert; by right|by rewrite lookup_insert_ne].
  - destruct (s_ops s !! o') as [[]|] eqn:Eo; try done. injection Hst as <- <-. unfold finished in *. simpl. destruct (decide (o' = o)) as [->|]; [rewrite lookup_insert; by right|by rewrite lookup_insert_ne].
  - destruct (m_garb _ !! n) as [[[? ?] ?]|]; [|done]. case_bool_decide; [|done]. by injection Hst as <- <-.
  - destruct (_ && _); [|done]. destruct (drop_rec _ _ _); by injection Hst as <- <-.
Qed.

Lemma finished_mono ls s ev j1 j2 s1 s2 o : exec ls s ev -> j1 <= j2 -> j2 <= length ls -> state_at ls j1 = Some s1 -> state_at ls j2 = Some s2 -> finished s1 o -> finished s2 o.
Proof.
  intros Hx Hj Hl H1. revert s2. induction Hj as [|j2 Hj IH]; intros s2 H2 Hf; [by simplify_eq|].
  destruct (state_at_some _ _ _ j2 Hx) as [s2' H2']; [lia|].
  destruct (lookup_lt_is_Some_2 ls j2) as [lb Hlb]; [lia|]. destruct (state_at_step _ _ _ _ _ _ _ Hx Hlb H2' H2) as [e He].
  eapply step_finished; [exact He|]. apply IH; [lia|done|done].
Qed.

(** ** A call that returned took effect at one instant, and did nothing otherwise *)
Inductive effect_of ls o op (x : aret) : Prop :=
| eo_step j s1 s2 : step_at ls j o s1 s2 -> in_progress s1 o op -> spec_step (A_of ls j) op x (A_of ls (S j)) ->
    (forall j' s1' s2', step_at ls j' o s1' s2' -> j' <> j -> same (A_of ls j') (A_of ls (S j'))) -> effect_of ls o op x
| eo_read j s1 k : state_at ls j = Some s1 -> in_progress s1 o op -> spec_step (A_of ls j) op x (A_of ls j) -> op = OGet k \/ (op = ORemove k /\ x = AOpt None) ->
    (forall j' s1' s2', step_at ls j' o s1' s2' -> same (A_of ls j') (A_of ls (S j'))) -> effect_of ls o op x.

Lemma call_effect ls s ev o op r x : exec ls s ev -> wf_calls ls -> EInv o op ∈ ev -> ERet o r ∈ ev -> val_of r = Some x -> effect_of ls o op x.
Proof.
  intros Hx Hw Hi Hr Hv. destruct (exec_timeline _ _ _ Hx Hw) as (iv & rd & mu & Htl & _). pose proof (tl_legal _ _ _ _ _ Htl) as [L1 L2].
  destruct (tl_ret _ _ _ _ _ Htl _ _ _ Hr Hv) as (op' & t & Hp). destruct (tl_inv _ _ _ _ _ Htl _ _ Hp) as [Hi' _]. simpl in Hi'.
  assert (op' = op) as -> by (by eapply inv_unique).
  assert (forall j' s1' s2', step_at ls j' o s1' s2' -> (forall e, mu j' = Some e -> e_id e <> o) -> same (A_of ls j') (A_of ls (S j'))) as Hsame.
  { intros j' s1' s2' ((spur & a & Hl) & _ & _) Hn. assert (j' < length ls) as Hj by (by eapply lookup_lt_Some). specialize (L2 j' Hj). destruct (mu j') as [e|] eqn:Em; [|done].
    exfalso. apply (Hn e eq_refl). destruct (tl_mu _ _ _ _ _ Htl _ _ Hj Em) as (_ & spur' & a' & Hl'). congruence. }
  pose proof Hp as Hp0. destruct Hp as [(j & Hj & -> & He)|(j & Hj & -> & He)].
  - destruct (tl_rd _ _ _ _ _ Htl _ _ Hj He) as [(s1 & Hs1 & Hpr)%running_prog [k Hk]]. eapply (eo_read _ _ _ _ j s1 k); [done|done|by apply (L1 j (Entry o op x))|done|].
    intros j' s1' s2' Hst. eapply Hsame; [done|]. intros e Hm Hid.
    assert (j' < length ls) as Hj'. { destruct Hst as ((? & ? & ?) & _). by eapply lookup_lt_Some. }
    assert (placed rd mu (length ls) e (2 * j' + 1)) as Hp by (right; exists j'; done).
    pose proof (placed_unique _ _ _ _ _ _ _ (tl_nodup _ _ _ _ _ Htl) Hp Hp0 Hid) as ->.
    (* the entry cannot be placed twice *)
    assert (2 * j' + 1 <> 2 * j) as Hne by lia.
    assert (bef (lin rd mu (length ls)) (Entry o op x) (Entry o op x)) as (l1 & l2 & E & H1 & H2).
    { destruct (decide (2 * j < 2 * j' + 1)); [eapply placed_bef; [exact Hp0|exact Hp|done]|eapply placed_bef; [exact Hp|exact Hp0|lia]]. }
    pose proof (tl_nodup _ _ _ _ _ Htl) as Hnd. rewrite E, fmap_app in Hnd. apply NoDup_app in Hnd as (_ & Hnd & _).
    apply (Hnd o); [change o with (e_id (Entry o op x)); by apply elem_of_list_fmap_1|change o with (e_id (Entry o op x)); by apply elem_of_list_fmap_1].
  - destruct (tl_mu _ _ _ _ _ Htl _ _ Hj He) as [(s1 & Hs1 & Hpr)%running_prog Hl].
    destruct (state_at_some _ _ _ (S j) Hx) as [s2 Hs2]; [lia|]. eapply (eo_step _ _ _ _ j s1 s2); [done|done| |].
    + specialize (L2 j Hj). by rewrite He in L2.
    + intros j' s1' s2' Hst Hne. eapply Hsame; [done|]. intros e Hm Hid. apply Hne.
      eapply nodup_place; [apply (tl_nodup _ _ _ _ _ Htl)| |exact Hj|exact Hm|exact He|done].
      destruct Hst as ((? & ? & ?) & _). by eapply lookup_lt_Some.
Qed.

Lemma step_at_same ls s ev j o s1 s2 : exec ls s ev -> wf_calls ls -> step_at ls j o s1 s2 -> same (A_of ls j) (A_of ls (S j)) -> same_contents s1 s2.
Proof.
  intros Hx Hw Hst Hs k x. destruct (step_at_A _ _ _ _ _ _ _ Hx Hw Hst) as [H1 H2]. rewrite H1, H2. by rewrite (Hs k).
Qed.

Lemma ret_val ls s ev o op r : exec ls s ev -> EInv o op ∈ ev -> ERet o r ∈ ev -> op <> OIter -> exists x, val_of r = Some x.
Proof.
  intros Hx Hi Hr Hn. destruct (si_ret _ _ (exec_sh _ _ _ Hx) _ _ _ Hi Hr) as [Hs _]. destruct op, r; try done; by eexists.
Qed.

Lemma ret_unique ls s ev o r r' : exec ls s ev -> ERet o r ∈ ev -> ERet o r' ∈ ev -> r = r'.
Proof.
  intros Hx. revert ls s ev Hx r r'. apply (exec_ind (fun ls s ev => forall r r', ERet o r ∈ ev -> ERet o r' ∈ ev -> r = r')).
  { intros r r' H. by apply elem_of_nil in H. }
  intros ls s ev lb s' e Hx IH Hst r r' H1 H2. pose proof (exec_events _ _ _ Hx) as He.
  assert (forall r, ERet o r ∈ ev ++ e -> ERet o r ∈ ev \/ ((exists op p, s_ops s !! o = Some (SRun op p)) /\ forall r', ERet o r' ∈ e -> r' = r)) as Hc.
  { intros r2 [?|Hin]%elem_of_app; [by left|]. right. destruct lb as [o' op1|o' spur a|o'|o'|n|]; cbn [step] in Hst.
    - destruct (s_ops s !! o') eqn:Eo, (s_dropped s); simplify_eq. by apply elem_of_list_singleton in Hin.
    - destruct (s_ops s !! o') as [[op p|?|?|]|] eqn:Eo; try done. destruct (op_step _ _ _ _ _) as [[[? nx] acts]|]; [|done]. injection Hst as <- <-.
      assert (forall r, ERet o r ∈ map (act_event o') acts ++ match nx with NRet r0 => [ERet o' r0] | _ => [] end -> o = o' /\ nx = NRet r) as Hn.
      { intros r3 [Hin3|Hin3]%elem_of_app; [by apply acts_no_ret in Hin3|]. destruct nx; try by apply elem_of_nil in Hin3. apply elem_of_list_singleton in Hin3. injection Hin3 as -> ->. done. }
      destruct (Hn _ Hin) as [-> ->]. split; [eauto|]. intros r3 Hr3. destruct (Hn _ Hr3) as [_ E]. congruence.
    - destruct (s_ops s !! o') as [[]|]; try done. injection Hst as <- <-. by apply elem_of_nil in Hin.
    - destruct (s_ops s !! o') as [[]|]; try done. injection Hst as <- <-. by apply elem_of_nil in Hin.
    - destruct (m_garb _ !! n) as [[[? ?] ?]|]; [|done]. case_bool_decide; [|done]. injection Hst as <- <-. by apply elem_of_nil in Hin.
    - destruct (_ && _); [|done]. destruct (drop_rec _ _ _); injection Hst as <- <-; by apply elem_of_nil in Hin. }
  assert (forall r, ERet o r ∈ ev -> ~ exists op p, s_ops s !! o = Some (SRun op p)) as Hno.
  { intros r2 Hr2 (op & p & Ho). apply He in Hr2. simpl in Hr2. by rewrite Ho in Hr2. }
  destruct (Hc _ H1) as [H1'|[N1 E1]], (Hc _ H2) as [H2'|[N2 E2]].
  - by apply IH.
  - exfalso. by eapply Hno.
  - exfalso. by eapply Hno.
  - apply elem_of_app in H1 as [H1|H1]; [exfalso; by eapply Hno|]. by apply E2.
Qed.

(** ** What each kind of call does *)
Theorem insert_effect ls s ev o p r : exec ls s ev -> wf_calls ls -> EInv o (OInsert p) ∈ ev -> ERet o r ∈ ev ->
  exists x j s1 s2, r = ROpt x /\ step_at ls j o s1 s2 /\ in_progress s1 o (OInsert p) /\ has s1 (keyof p) (rr_val <$> x) /\ maps s2 (keyof p) p /\ same_elsewhere (keyof p) s1 s2 /\
    forall j' s1' s2', step_at ls j' o s1' s2' -> j' <> j -> same_contents s1' s2'.
Proof.
  intros Hx Hw Hi Hr. destruct (ret_val _ _ _ _ _ _ Hx Hi Hr) as [x Hv]; [done|].
  destruct (call_effect _ _ _ _ _ _ _ Hx Hw Hi Hr Hv) as [j s1 s2 Hst Hpr Hsp Hot|j s1 k _ _ _ [|[]]]; [|done..].
  destruct x as [x|x|x]; try done. destruct Hsp as [Ex Hput]. destruct (step_at_A _ _ _ _ _ _ _ Hx Hw Hst) as [H1 H2].
  destruct r as [x0| | |]; try done. injection Hv as Hv. exists x0, j, s1, s2. split; [done|]. split; [done|]. split; [done|].
  split; [apply H1; congruence|]. split; [apply (H2 (keyof p) (Some p)); rewrite (Hput (keyof p)), keqb_refl; done|]. split.
  - intros k' y Hk. rewrite H1, H2, (Hput k'), Hk. done.
  - intros j' s1' s2' Hst' Hne. eapply step_at_same; eauto.
Qed.

Theorem get_effect ls s ev o k r : exec ls s ev -> wf_calls ls -> EInv o (OGet k) ∈ ev -> ERet o r ∈ ev ->
  exists x j s1, r = ROpt x /\ state_at ls j = Some s1 /\ in_progress s1 o (OGet k) /\ has s1 k (rr_val <$> x) /\
    forall j' s1' s2', step_at ls j' o s1' s2' -> same_contents s1' s2'.
Proof.
  intros Hx Hw Hi Hr. destruct (ret_val _ _ _ _ _ _ Hx Hi Hr) as [x Hv]; [done|].
  assert (exists j s1, state_at ls j = Some s1 /\ in_progress s1 o (OGet k) /\ (exists y, x = AOpt y /\ has s1 k y) /\
     forall j' s1' s2', step_at ls j' o s1' s2' -> same (A_of ls j') (A_of ls (S j'))) as (j & s1 & Hs1 & Hpr & (y & -> & Hy) & Hsm).
  { destruct (call_effect _ _ _ _ _ _ _ Hx Hw Hi Hr Hv) as [j s1 s2 Hst Hpr Hsp Hot|j s1 k' Hs1 Hpr Hsp _ Hot].
    - exists j, s1. destruct Hst as (Hl & Hs1 & Hs2). split; [done|]. split; [done|]. destruct x as [x|x|x]; try done. destruct Hsp as [-> Hsm]. split.
      + eexists. split; [done|]. by eapply run_has_A.
      + intros j' s1' s2' Hst. destruct (decide (j' = j)) as [->|Hne]; [done|]. by eapply Hot.
    - exists j, s1. split; [done|]. split; [done|]. destruct x as [x|x|x]; try done. destruct Hsp as [-> Hsm]. split.
      + eexists. split; [done|]. by eapply run_has_A.
      + done. }
  destruct r as [x0| | |]; try done. injection Hv as <-. exists x0, j, s1. split; [done|]. split; [done|]. split; [done|]. split; [done|].
  intros j' s1' s2' Hst. eapply step_at_same; eauto.
Qed.

Theorem remove_effect ls s ev o k r : exec ls s ev -> wf_calls ls -> EInv o (ORemove k) ∈ ev -> ERet o r ∈ ev ->
  exists x, r = ROpt x /\
  match x with
  | Some y => exists j s1 s2, step_at ls j o s1 s2 /\ in_progress s1 o (ORemove k) /\ maps s1 k (rr_val y) /\ absent s2 k /\ same_elsewhere k s1 s2 /\
      forall j' s1' s2', step_at ls j' o s1' s2' -> j' <> j -> same_contents s1' s2'
  | None => (exists j s1, state_at ls j = Some s1 /\ in_progress s1 o (ORemove k) /\ absent s1 k) /\
      forall j' s1' s2', step_at ls j' o s1' s2' -> same_contents s1' s2'
  end.
Proof.
  intros Hx Hw Hi Hr. destruct (ret_val _ _ _ _ _ _ Hx Hi Hr) as [x Hv]; [done|].
  destruct (call_effect _ _ _ _ _ _ _ Hx Hw Hi Hr Hv) as [j s1 s2 Hst Hpr Hsp Hot|j s1 k' Hs1 Hpr Hsp Hop Hot].
  - destruct x as [x|x|x]; try done. destruct Hsp as [Ex Hdel]. destruct (step_at_A _ _ _ _ _ _ _ Hx Hw Hst) as [H1 H2].
    destruct r as [x0| | |]; try done. injection Hv as Hv. exists x0. split; [done|]. destruct x0 as [y|]; simpl in Hv.
    + exists j, s1, s2. split; [done|]. split; [done|]. split; [apply (H1 k (Some (rr_val y))); congruence|].
      split; [apply (H2 k None); by rewrite (Hdel k), keqb_refl|]. split.
      * intros k' z Hk. rewrite H1, H2, (Hdel k'), Hk. done.
      * intros j' s1' s2' Hst' Hne. eapply step_at_same; eauto.
    + split.
      * exists j, s1. destruct Hst as (_ & ? & _). split; [done|]. split; [done|]. apply (H1 k None). congruence.
      * intros j' s1' s2' Hst'. eapply step_at_same; eauto. destruct (decide (j' = j)) as [->|Hne]; [|by eapply Hot].
        intros k'. rewrite (Hdel k'). destruct (keqb k k') eqn:E; [|done]. rewrite <-(A_cong _ _ _ _ E). congruence.
  - destruct Hop as [?|[_ ->]]; [done|]. destruct r as [x0| | |]; try done. injection Hv as Hv. exists x0. split; [done|]. destruct x0 as [y|]; [done|]. split.
    + exists j, s1. split; [done|]. split; [done|]. destruct Hsp as [Ex _]. by apply (run_has_A ls s ev j s1 o (ORemove k) k None).
    + intros j' s1' s2' Hst. eapply step_at_same; eauto.
Qed.

Theorem goi_effect ls s ev o k f r : exec ls s ev -> wf_calls ls -> EInv o (OGetOrInsert k f) ∈ ev -> ERet o r ∈ ev ->
  exists e, r = REon e /\
  match e with
  | New y => rr_val y = f k /\ exists j s1 s2, step_at ls j o s1 s2 /\ in_progress s1 o (OGetOrInsert k f) /\ absent s1 k /\ maps s2 k (rr_val y) /\ same_elsewhere k s1 s2 /\
      forall j' s1' s2', step_at ls j' o s1' s2' -> j' <> j -> same_contents s1' s2'
  | Existing y => (exists j s1, state_at ls j = Some s1 /\ in_progress s1 o (OGetOrInsert k f) /\ maps s1 k (rr_val y)) /\
      forall j' s1' s2', step_at ls j' o s1' s2' -> same_contents s1' s2'
  end.
Proof.
  intros Hx Hw Hi Hr. destruct (ret_val _ _ _ _ _ _ Hx Hi Hr) as [x Hv]; [done|].
  pose proof (inv_wf _ _ _ _ _ Hx Hw Hi) as Hwf. simpl in Hwf.
  destruct (call_effect _ _ _ _ _ _ _ Hx Hw Hi Hr Hv) as [j s1 s2 Hst Hpr Hsp Hot|j s1 k' _ _ _ [|[]]]; [|done..].
  destruct (step_at_A _ _ _ _ _ _ _ Hx Hw Hst) as [H1 H2].
  destruct x as [x|x|x]; try done. destruct r as [|e| |]; try done. exists e. split; [done|]. destruct e as [y|y]; injection Hv as <-; simpl in Hsp.
  - destruct Hsp as [Ha Hsm]. split.
    + exists j, s1. destruct Hst as (_ & ? & _). split; [done|]. split; [done|]. by apply (H1 k (Some (rr_val y))).
    + intros j' s1' s2' Hst'. eapply step_at_same; eauto. destruct (decide (j' = j)) as [->|Hne]; [done|by eapply Hot].
  - destruct Hsp as (Ha & Ey & Hput). split; [done|]. exists j, s1, s2. split; [done|]. split; [done|]. split; [by apply (H1 k None)|].
    assert (forall k', keqb (keyof (rr_val y)) k' = keqb k k') as Ek. { intros k'. rewrite Ey. rewrite keqb_sym, (keqb_sym k). by apply keqb_cong. }
    split; [apply (H2 k (Some (rr_val y))); by rewrite (Hput k), Ek, keqb_refl|]. split.
    + intros k' z Hk. rewrite H1, H2, (Hput k'), Ek, Hk. done.
    + intros j' s1' s2' Hst' Hne. eapply step_at_same; eauto.
Qed.

Theorem is_empty_effect ls s ev o r : exec ls s ev -> wf_calls ls -> EInv o OIsEmpty ∈ ev -> ERet o r ∈ ev ->
  exists b, r = RBool b /\ (b = true -> exists j s1, state_at ls j = Some s1 /\ in_progress s1 o OIsEmpty /\ forall k, absent s1 k).
Proof.
  intros Hx Hw Hi Hr. destruct (ret_val _ _ _ _ _ _ Hx Hi Hr) as [x Hv]; [done|].
  destruct (call_effect _ _ _ _ _ _ _ Hx Hw Hi Hr Hv) as [j s1 s2 Hst Hpr Hsp Hot|j s1 k' _ _ _ [|[]]]; [|done..].
  destruct (step_at_A _ _ _ _ _ _ _ Hx Hw Hst) as [H1 H2].
  destruct x as [x|x|x]; try done. destruct r as [| |b|]; try done. injection Hv as <-. exists b. split; [done|]. intros ->. destruct Hsp as [He _].
  exists j, s1. destruct Hst as (_ & ? & _). split; [done|]. split; [done|]. intros k. apply (H1 k None). by apply He.
Qed.

(** ** Where what a call returns comes from *)
Lemma maps_source ls s ev j sj o op k p : exec ls s ev -> wf_calls ls -> j <= length ls -> state_at ls j = Some sj -> in_progress sj o op -> maps sj k p -> exists o', put_in ev o' p.
Proof.
  intros Hx Hw Hj Hs Hpr Hm. destruct (exec_timeline _ _ _ Hx Hw) as (iv & rd & mu & Htl & Had).
  pose proof (proj1 (run_has_A _ _ _ _ _ _ _ k (Some p) Hx Hw Hs Hpr) Hm) as Ha.
  destruct (source _ _ _ _ _ _ _ _ _ Hx Htl Hj Ha) as (i & e & Hi & Hmu & Hp & _). exists (e_id e).
  eapply placed_put; [done..| |done]. right. exists i. split; [lia|done].
Qed.


Lemma state_at_le ls j sj : state_at ls j = Some sj -> exists j', j' <= length ls /\ state_at ls j' = Some sj.
Proof.
  intros H. destruct (decide (j <= length ls)); [by exists j|]. exists (length ls). split; [done|]. unfold state_at in *. rewrite firstn_all. by rewrite take_ge in H by lia.
Qed.

Theorem handle_origin ls s ev o op r x k : exec ls s ev -> wf_calls ls -> EInv o op ∈ ev -> ERet o r ∈ ev -> x ∈ refs_of r -> op_key op = Some k ->
  keqb (keyof (rr_val x)) k = true /\ exists o', put_in ev o' (rr_val x).
Proof.
  intros Hx Hw Hi Hr Hin Hk.
  assert (forall j sj, state_at ls j = Some sj -> in_progress sj o op -> maps sj k (rr_val x) -> keqb (keyof (rr_val x)) k = true /\ exists o', put_in ev o' (rr_val x)) as Hgo.
  { intros j sj Hs Hpr Hm. split; [by destruct Hm|]. destruct (state_at_le _ _ _ Hs) as (j' & Hj' & Hs'). by eapply maps_source. }
  destruct op as [p|k' f|k'|k'| |]; simpl in Hk; try done; injection Hk as <-.
  - destruct (insert_effect _ _ _ _ _ _ Hx Hw Hi Hr) as (y & j & s1 & s2 & -> & (_ & Hs & _) & Hpr & Hh & _). destruct y as [y|]; [|by apply elem_of_nil in Hin].
    apply elem_of_list_singleton in Hin as ->. by eapply Hgo.
  - destruct (goi_effect _ _ _ _ _ _ _ Hx Hw Hi Hr) as (e & -> & He). destruct e as [y|y]; apply elem_of_list_singleton in Hin as ->.
    + destruct He as [(j & s1 & Hs & Hpr & Hm) _]. by eapply Hgo.
    + destruct He as [Ey _]. split; [rewrite Ey; exact (inv_wf _ _ _ _ _ Hx Hw Hi)|]. exists o. right. exists k', f, y. done.
  - destruct (get_effect _ _ _ _ _ _ Hx Hw Hi Hr) as (y & j & s1 & -> & Hs & Hpr & Hh & _). destruct y as [y|]; [|by apply elem_of_nil in Hin].
    apply elem_of_list_singleton in Hin as ->. by eapply Hgo.
  - destruct (remove_effect _ _ _ _ _ _ Hx Hw Hi Hr) as (y & -> & He). destruct y as [y|]; [|by apply elem_of_nil in Hin].
    apply elem_of_list_singleton in Hin as ->. destruct He as (j & s1 & s2 & (_ & Hs & _) & Hpr & Hh & _). by eapply Hgo.
Qed.

(** ** Races for one key *)
Lemma touches_dec op k : touches op k \/ ~ touches op k.
Proof. destruct op as [p|k' f|k'|k'| |]; simpl; try tauto; [destruct (keqb (keyof p) k)|destruct (keqb k' k)..]; auto. Qed.

Lemma mu_start ls s ev iv rd mu j e j0 s0 : exec ls s ev -> timeline ls ev iv rd mu -> all_done ls ev rd mu -> j < length ls -> mu j = Some e -> (forall k, e_op e <> ORemove k) ->
  j0 <= length ls -> state_at ls j0 = Some s0 -> ~ finished s0 (e_id e) -> j0 <= j.
Proof.
  intros Hx Htl Had Hj He Hop Hj0 Hs0 Hnf. destruct (decide (j0 <= j)); [done|]. exfalso. apply Hnf.
  destruct (proj2 Had _ _ Hj He) as [[k Hk]|(sj & op & r & Hsj & Hr)]; [by apply Hop in Hk|].
  eapply (finished_mono ls s ev (S j) j0); try done; [lia|]. left. eauto.
Qed.

Lemma not_finished_before ls s ev j o op j0 s0 sj : exec ls s ev -> j0 <= j -> j <= length ls -> state_at ls j0 = Some s0 -> state_at ls j = Some sj -> in_progress sj o op -> ~ finished s0 o.
Proof.
  intros Hx Hj Hl H0 Hs [p Hp] Hf. pose proof (finished_mono _ _ _ _ _ _ _ _ Hx Hj Hl H0 Hs Hf) as [(? & ? & E)|E]; congruence.
Qed.

Theorem one_winner ls s ev j0 s0 k : exec ls s ev -> wf_calls ls -> j0 <= length ls -> state_at ls j0 = Some s0 -> s_dropped s0 = false -> absent s0 k ->
  (forall j sj o op, j0 <= j -> state_at ls j = Some sj -> in_progress sj o op -> touches op k -> exists k' f, op = OGetOrInsert k' f) ->
  (exists o e, goi_call ev s0 k o e) ->
  exists ow xw, goi_call ev s0 k ow (New xw) /\ forall o e, goi_call ev s0 k o e -> (o = ow /\ e = New xw) \/ (o <> ow /\ exists x, e = Existing x /\ rr_val x = rr_val xw).
Proof.
  intros Hx Hw Hj0 Hs0 Hd0 Habs Hgoi Hex. destruct (exec_timeline _ _ _ Hx Hw) as (iv & rd & mu & Htl & Had). pose proof (tl_legal _ _ _ _ _ Htl) as [L1 L2].
  assert (A_of ls j0 k = None) as HA0 by (by apply (has_A ls s ev j0 s0 k None)).
  assert (forall j e, j0 <= j -> j < length ls -> mu j = Some e -> touches (e_op e) k -> exists k' f, e_op e = OGetOrInsert k' f /\ keqb k' k = true) as Hmu.
  { intros j e Hj Hl He Ht. destruct (tl_mu _ _ _ _ _ Htl _ _ Hl He) as [(s1 & Hs1 & Hpr)%running_prog _].
    destruct (Hgoi _ _ _ _ Hj Hs1 Hpr Ht) as (k' & f & E). exists k', f. split; [done|]. by rewrite E in Ht. }
  assert (forall i p, j0 <= i -> A_of ls i k = Some p -> forall j, i <= j -> j <= length ls -> A_of ls j k = Some p) as Hper.
  { intros i p Hi Ha j Hj. induction Hj as [|j Hj IH]; intros Hl; [done|]. specialize (IH ltac:(lia)). rewrite <-IH.
    destruct (mu j) as [e|] eqn:Em; [|specialize (L2 j ltac:(lia)); rewrite Em in L2; apply L2].
    destruct (touches_dec (e_op e) k) as [Ht|Ht].
    - destruct (Hmu j e ltac:(lia) ltac:(lia) Em Ht) as (k' & f & E & Ek). specialize (L2 j ltac:(lia)). rewrite Em, E in L2. simpl in L2.
      destruct (e_ret e) as [|[x|x]|]; try done; [by apply L2|]. destruct L2 as [L2 _]. rewrite (A_cong _ _ _ _ Ek) in L2. congruence.
    - eapply mu_untouched; [done|done|done|lia|]. intros e' He'. congruence. }
  (* the place of a returned call *)
  assert (forall o e, goi_call ev s0 k o e -> exists j k' f, j0 <= j /\ j < length ls /\ keqb k' k = true /\ mu j = Some (Entry o (OGetOrInsert k' f) (AEon (eon_map rr_val e))) /\
     match e with New x => A_of ls j k = None /\ A_of ls (S j) k = Some (rr_val x) | Existing x => A_of ls j k = Some (rr_val x) /\ A_of ls (S j) k = Some (rr_val x) end) as Hpl.
  { intros o e (Hnf & (k' & f & Hi & Ek) & Hr). destruct (tl_ret _ _ _ _ _ Htl _ _ _ Hr eq_refl) as (op' & t & Hp).
    destruct (tl_inv _ _ _ _ _ Htl _ _ Hp) as [Hi' _]. simpl in Hi'. assert (op' = OGetOrInsert k' f) as -> by (by eapply inv_unique).
    destruct Hp as [(j & Hj & _ & He)|(j & Hj & _ & He)].
    { destruct (tl_rd _ _ _ _ _ Htl _ _ Hj He) as [_ [k2 [E|[E _]]]]; done. }
    exists j, k', f. split; [eapply mu_start; try done|]. split; [done|]. split; [done|]. split; [done|].
    pose proof (inv_wf _ _ _ _ _ Hx Hw Hi) as Hwf. simpl in Hwf.
    specialize (L2 j Hj). rewrite He in L2. simpl in L2. destruct e as [x|x]; simpl in L2.
    - destruct L2 as [E1 E2]. rewrite (A_cong _ _ _ _ Ek) in E1. split; [done|]. by rewrite (E2 k).
    - destruct L2 as (E1 & E2 & E3). rewrite (A_cong _ _ _ _ Ek) in E1. split; [done|]. rewrite (E3 k), E2.
      assert (keqb (keyof (f k')) k = true) as ->; [|done]. by eapply keqb_trans. }
  (* whoever put the element there *)
  assert (forall j p, j0 <= j -> j <= length ls -> A_of ls j k = Some p -> exists ow xw, goi_call ev s0 k ow (New xw)) as Hsrc.
  { intros j p Hj. induction Hj as [|j Hj IH]; intros Hl Ha; [congruence|]. specialize (IH ltac:(lia)).
    pose proof (L2 j ltac:(lia)) as L. destruct (mu j) as [e|] eqn:Em; [|apply IH; by rewrite <-(L k)].
    destruct (spec_step_source _ _ _ _ _ L Ha) as [[Hp Hk]|[Ha' _]]; [|by apply IH].
    assert (placed rd mu (length ls) e (2 * j + 1)) as Hpl1 by (right; exists j; split; [lia|done]).
    destruct (tl_inv _ _ _ _ _ Htl _ _ Hpl1) as [Hi _]. pose proof (inv_wf _ _ _ _ _ Hx Hw Hi) as Hwf.
    assert (touches (e_op e) k) as Ht.
    { destruct Hp as [E|(k2 & f2 & E & _ & Ep)]; rewrite E; simpl; [done|]. rewrite E in Hwf. simpl in Hwf. rewrite <-Ep in Hwf. eapply keqb_trans; [|exact Hk]. by rewrite keqb_sym. }
    destruct (Hmu j e ltac:(lia) ltac:(lia) Em Ht) as (k' & f & E & Ek).
    destruct Hp as [?|(k2 & f2 & E2 & Er & Ep)]; [congruence|].
    destruct (proj1 Had _ _ Hpl1) as [[? ?]|(r & Hr & Hv)]; [congruence|]. rewrite Er in Hv.
    destruct r as [|[x|x]| |]; try done. exists (e_id e), x. split; [|split; [exists k', f; by rewrite <-E|done]].
    destruct (tl_mu _ _ _ _ _ Htl j e ltac:(lia) Em) as [(s1 & Hs1 & Hpr)%running_prog _].
    eapply not_finished_before; [done|exact Hj|lia|done|done|done]. }
  assert (exists ow xw, goi_call ev s0 k ow (New xw)) as (ow & xw & How).
  { destruct Hex as (o & e & Hc). destruct (Hpl _ _ Hc) as (j & k' & f & Hj & Hl & _ & _ & Ha). destruct e as [x|x]; [|by exists o, x].
    destruct Ha as [Ha _]. eapply (Hsrc j); [done|lia|done]. }
  exists ow, xw. split; [done|]. intros o e Hc.
  destruct (Hpl _ _ How) as (jw & kw & fw & Hjw & Hlw & Ekw & Hmw & Hw0 & Hw1). destruct (Hpl _ _ Hc) as (j & k' & f & Hj & Hl & Ek & Hm & Ha).
  destruct (decide (o = ow)) as [->|Hne].
  { left. split; [done|]. destruct Hc as (_ & _ & Hr), How as (_ & _ & Hrw). pose proof (ret_unique _ _ _ _ _ _ Hx Hr Hrw). congruence. }
  right. split; [done|]. destruct (lt_eq_lt_dec j jw) as [[Hlt| ->]|Hlt].
  - exfalso. assert (exists p, A_of ls (S j) k = Some p) as [p Hp] by (destruct e; destruct Ha; eauto).
    rewrite (Hper (S j) p ltac:(lia) Hp jw ltac:(lia) ltac:(lia)) in Hw0. done.
  - exfalso. congruence.
  - pose proof (Hper (S jw) _ ltac:(lia) Hw1 j ltac:(lia) ltac:(lia)) as Hp. destruct e as [x|x]; destruct Ha as [Ha _]; [|congruence].
    exists x. split; [done|]. congruence.
Qed.

(** ** Many inserts at once *)
Theorem parallel_inserts ls s ev j0 s0 (L : list Pl) : exec ls s ev -> wf_calls ls -> j0 <= length ls -> state_at ls j0 = Some s0 -> s_dropped s = false ->
  (forall j sj o op k, j0 <= j -> state_at ls j = Some sj -> in_progress sj o op -> touches op k -> exists p, p ∈ L /\ op = OInsert p) ->
  (forall p, p ∈ L -> exists o r, EInv o (OInsert p) ∈ ev /\ ERet o r ∈ ev /\ ~ finished s0 o) ->
  forall k, ((exists p, p ∈ L /\ keqb (keyof p) k = true) -> exists p, p ∈ L /\ maps s k p) /\
            ((forall p, p ∈ L -> keqb (keyof p) k = false) -> forall x, has s k x <-> has s0 k x).
Proof.
  intros Hx Hw Hj0 Hs0 Hd Hall Hret k. destruct (exec_timeline _ _ _ Hx Hw) as (iv & rd & mu & Htl & Had). pose proof (tl_legal _ _ _ _ _ Htl) as [L1 L2].
  pose proof (state_at_end _ _ _ Hx) as Hend. pose proof (dropped_mono _ _ _ _ _ _ _ Hx Hj0 (le_n _) Hs0 Hend Hd) as Hd0.
  split.
  - assert (forall j e, j0 <= j -> j < length ls -> mu j = Some e -> touches (e_op e) k -> exists p, p ∈ L /\ e_op e = OInsert p /\ A_of ls (S j) k = Some p) as Hmu.
    { intros j e Hj Hl He Ht. destruct (tl_mu _ _ _ _ _ Htl _ _ Hl He) as [(s1 & Hs1 & Hpr)%running_prog _].
      destruct (Hall _ _ _ _ _ Hj Hs1 Hpr Ht) as (p & Hp & E). exists p. split; [done|]. split; [done|]. rewrite E in Ht. simpl in Ht.
      specialize (L2 j Hl). rewrite He, E in L2. simpl in L2. destruct (e_ret e); try done. destruct L2 as [_ L2]. by rewrite (L2 k), Ht. }
    assert (forall i, j0 <= i -> (exists p, p ∈ L /\ A_of ls i k = Some p) -> forall j, i <= j -> j <= length ls -> exists p, p ∈ L /\ A_of ls j k = Some p) as Hper.
    { intros i Hi Ha j Hj. induction Hj as [|j Hj IH]; intros Hl; [done|]. destruct (IH ltac:(lia)) as (p & Hp & E).
      destruct (mu j) as [e|] eqn:Em; [|exists p; specialize (L2 j ltac:(lia)); rewrite Em in L2; by rewrite (L2 k)].
      destruct (touches_dec (e_op e) k) as [Ht|Ht].
      - destruct (Hmu j e ltac:(lia) ltac:(lia) Em Ht) as (q & ? & _ & ?). eauto.
      - exists p. split; [done|]. rewrite <-E. eapply mu_untouched; [done|done|done|lia|]. intros e' He'. congruence. }
    intros (p & Hp & Hk). destruct (Hret p Hp) as (o & r & Hi & Hr & Hnf).
    destruct (ret_val _ _ _ _ _ _ Hx Hi Hr) as [x Hv]; [done|].
    destruct (tl_ret _ _ _ _ _ Htl _ _ _ Hr Hv) as (op' & t & Hpl).
    destruct (tl_inv _ _ _ _ _ Htl _ _ Hpl) as [Hi' _]. simpl in Hi'. assert (op' = OInsert p) as -> by (by eapply inv_unique).
    destruct Hpl as [(j & Hj & _ & He)|(j & Hj & _ & He)].
    { destruct (tl_rd _ _ _ _ _ Htl _ _ Hj He) as [_ [k2 [E|[E _]]]]; done. }
    assert (j0 <= j) as Hjj by (eapply mu_start; try done). destruct (Hmu j _ Hjj Hj He Hk) as (q & Hq & _ & Eq).
    destruct (Hper (S j) ltac:(lia) ltac:(eauto) (length ls) ltac:(lia) ltac:(lia)) as (q' & Hq' & Eq').
    exists q'. split; [done|]. by apply (has_A ls s ev (length ls) s k (Some q')).
  - intros Hno x. assert (A_of ls (length ls) k = A_of ls j0 k) as E.
    { eapply A_untouched; try done. intros j sj o op [Hj _] Hsj Hpr Ht. destruct (Hall _ _ _ _ _ Hj Hsj Hpr Ht) as (p & Hp & ->). simpl in Ht. by rewrite (Hno p Hp) in Ht. }
    rewrite (has_A _ _ _ _ _ _ _ Hx Hw Hend Hd), (has_A _ _ _ _ _ _ _ Hx Hw Hs0 Hd0). by rewrite E.
Qed.

(** ** Depth *)
Lemma hpath_inj h h' : (h < 2 ^ 64)%N -> (h' < 2 ^ 64)%N -> hpath h = hpath h' -> h = h'.
Proof.
  intros H H' E. apply N.bits_inj. intros i. destruct (N.lt_ge_cases i 64) as [Hi|Hi].
  - set (d := N.to_nat (i / 4)). assert (d < 16) as Hd. { unfold d. assert (i / 4 < 16)%N as H16 by (apply N.div_lt_upper_bound; lia). revert H16. generalize (i / 4)%N. intros x Hx. lia. }
    assert (bits h (4 * d) = bits h' (4 * d)) as Eb.
    { pose proof (hpath_lookup h d Hd) as E1. pose proof (hpath_lookup h' d Hd) as E2. rewrite E in E1. congruence. }
    unfold bits in Eb. apply N2Nat.inj in Eb. apply (f_equal (fun x => N.testbit x (i mod 4))) in Eb.
    assert (i = i mod 4 + N.of_nat (4 * d))%N as Ei. { unfold d. rewrite Nat2N.inj_mul, N2Nat.id. pose proof (N.div_mod i 4 ltac:(done)) as E4. rewrite E4 at 1. lia. }
    assert (i mod 4 < 4)%N as Hm by (by apply N.mod_lt). rewrite !N.land_spec, !N.shiftr_spec', <-Ei in Eb.
    assert (N.testbit LEVEL_MASK (i mod 4) = true) as Et.
    { clear -Hm. revert Hm. generalize (i mod 4)%N. intros x Hx. assert (x = 0 \/ x = 1 \/ x = 2 \/ x = 3)%N as [->|[->|[->| ->]]] by lia; done. }
    by rewrite Et, !andb_true_r in Eb.
  - assert (forall x, (x < 2 ^ 64)%N -> N.testbit x i = false) as Hf; [|by rewrite !Hf].
    intros x Hx. destruct (N.eq_0_gt_0_cases x) as [->|Hp]; [apply N.bits_0|]. apply N.bits_above_log2. apply N.log2_lt_pow2 in Hx; lia.
Qed.

Lemma depth_inner s n l a sl : reachable s -> s_dropped s = false -> linked_at (s_mem s) n l -> m_heap (s_mem s) !! l = Some (HObj a (BInner sl)) -> n < 16.
Proof.
  intros Hr Hd Hl Hh. apply reach_sinv in Hr as [_ H]. rewrite Hd in H. destruct H as [pos Hli]. pose proof (li_mem _ _ Hli) as Hm.
  destruct (linked_live _ _ _ _ Hm Hl) as (c & v & Hc & Hlv & Hv & <-). assert (hbody (s_mem s) l = Some (BInner sl)) as Hb by (unfold hbody; by rewrite Hh).
  assert (~ dead (s_mem s) l) as Hnd by (by eapply mi_live). destruct (inner_parent _ _ _ _ Hm Hb Hnd) as (c' & v' & Hc' & Hl' & Hv' & _ & Ep).
  assert (c = c') as <- by (by eapply (mi_uniq _ _ Hm)). rewrite Ep. by apply (mi_slots _ _ Hm _ _ Hb).
Qed.

Lemma depth_data s n l a it : reachable s -> s_dropped s = false -> linked_at (s_mem s) n l -> m_heap (s_mem s) !! l = Some (HObj a (BData it)) -> n <= 16 /\ (length it = 1 \/ n = 16).
Proof.
  intros Hr Hd Hl Hh. apply reach_sinv in Hr as [_ H]. rewrite Hd in H. destruct H as [pos Hli]. pose proof (li_mem _ _ Hli) as Hm.
  destruct (linked_live _ _ _ _ Hm Hl) as (c & v & Hc & Hlv & Hv & <-). assert (hbody (s_mem s) l = Some (BData it)) as Hb by (unfold hbody; by rewrite Hh).
  split; [by eapply cpos_len|]. pose proof (mi_ptr _ _ Hm _ _ Hc) as Hp. unfold ptr_ok in Hp. rewrite Hv in Hp. destruct (sh_data v).
  - destruct Hp as (it' & Hb' & Hp). assert (it' = it) as -> by congruence. done.
  - destruct Hp as (? & ? & _). congruence.
Qed.

Lemma depth_hash ls s ev n l a it p q : exec ls s ev -> wf_calls ls -> s_dropped s = false -> linked_at (s_mem s) n l -> m_heap (s_mem s) !! l = Some (HObj a (BData it)) ->
  p ∈ it -> q ∈ it -> hashf (keyof p) = hashf (keyof q).
Proof.
  intros Hx Hw Hd Hl Hh Hp Hq. destruct (exec_full _ _ _ Hx Hw Hd) as [pos Hf]. pose proof (li_mem _ _ (fu_live _ _ Hf)) as Hm. pose proof (fu_sem _ _ Hf) as Hse.
  destruct (depth_data s n l a it) as [_ [H1|H16]]; try done; [by exists ls, ev| |].
  { destruct it as [|x [|y it]]; try done. apply elem_of_list_singleton in Hp as ->. by apply elem_of_list_singleton in Hq as ->. }
  destruct (linked_live _ _ _ _ Hm Hl) as (c & v & Hc & Hlv & Hv & En). assert (hbody (s_mem s) l = Some (BData it)) as Hb by (unfold hbody; by rewrite Hh).
  assert (sh_data v = true) as Hdv.
  { pose proof (mi_ptr _ _ Hm _ _ Hc) as Hpp. unfold ptr_ok in Hpp. rewrite Hv in Hpp. destruct (sh_data v); [done|]. destruct Hpp as (? & ? & _). congruence. }
  assert (forall p, p ∈ it -> cpos pos c = path (keyof p)) as Hpa.
  { intros p' Hp'. pose proof (se_path _ _ Hse _ _ _ _ _ Hc Hdv Hv Hb Hp') as [x Hx']. rewrite Hx'. assert (x = []) as ->; [|by rewrite app_nil_r].
    apply (f_equal length) in Hx'. rewrite app_length, path_length in Hx'. destruct x; [done|simpl in Hx'; lia]. }
  apply hpath_inj; [apply hash_u64..|]. rewrite (Hpa p Hp) in Hpa. exact (Hpa q Hq).
Qed.

(** ** An element inserted through a closure is found by its own key *)
Lemma known_mono ls s ev j1 j2 s1 s2 o : exec ls s ev -> j1 <= j2 -> j2 <= length ls -> state_at ls j1 = Some s1 -> state_at ls j2 = Some s2 -> s_ops s1 !! o <> None -> s_ops s2 !! o <> None.
Proof.
  intros Hx Hj Hl H1. revert s2. induction Hj as [|j2 Hj IH]; intros s2 H2 Hf; [by simplify_eq|].
  destruct (state_at_some _ _ _ j2 Hx) as [s2' H2']; [lia|].
  destruct (lookup_lt_is_Some_2 ls j2) as [lb Hlb]; [lia|]. destruct (state_at_step _ _ _ _ _ _ _ Hx Hlb H2' H2) as [e Hst].
  specialize (IH ltac:(lia) _ H2' Hf). clear -IH Hst. destruct lb as [o' op1|o' spur a|o'|o'|n|]; cbn [step] in Hst.
  - destruct (s_ops s2' !! o') eqn:Eo, (s_dropped s2'); simplify_eq. simpl. destruct (decide (o' = o)) as [->|]; [by rewrite lookup_insert|by rewrite lookup_insert_ne].
  - destruct (s_ops s2' !! o') as [[]|]; try done. destruct (op_step _ _ _ _ _) as [[[? nx] ?]|]; [|done]. injection Hst as <- <-. simpl.
    destruct (decide (o' = o)) as [->|]; [by rewrite lookup_insert|by rewrite lookup_insert_ne].
  - destruct (s_ops s2' !! o') as [[]|]; try done. injection Hst as <- <-. simpl. destruct (decide (o' = o)) as [->|]; [by rewrite lookup_insert|by rewrite lookup_insert_ne].
  - destruct (s_ops s2' !! o') as [[]|]; try done. injection Hst as <- <-. simpl. destruct (decide (o' = o)) as [->|]; [by rewrite lookup_insert|by rewrite lookup_insert_ne].
  - destruct (m_garb _ !! n) as [[[? ?] ?]|]; [|done]. case_bool_decide; [|done]. by injection Hst as <- <-.
  - destruct (_ && _); [|done]. destruct (drop_rec _ _ _); by injection Hst as <- <-.
Qed.

Theorem new_is_found ls s ev o k f x : exec ls s ev -> wf_calls ls -> EInv o (OGetOrInsert k f) ∈ ev -> ERet o (REon (New x)) ∈ ev ->
  exists j s1 s2, step_at ls j o s1 s2 /\
    forall o' r, (forall i si o2 op2, S j <= i -> state_at ls i = Some si -> in_progress si o2 op2 -> ~ touches op2 (keyof (rr_val x))) ->
      s_ops s2 !! o' = None -> EInv o' (OGet (keyof (rr_val x))) ∈ ev -> ERet o' r ∈ ev -> exists y, r = ROpt (Some y) /\ rr_val y = rr_val x.
Proof.
  intros Hx Hw Hi Hr. destruct (goi_effect _ _ _ _ _ _ _ Hx Hw Hi Hr) as (e & [= <-] & Ey & j & s1 & s2 & Hst & Hpr & Ha & Hm & _).
  exists j, s1, s2. split; [done|]. intros o' r Hno Hnew Hi' Hr'.
  destruct (get_effect _ _ _ _ _ _ Hx Hw Hi' Hr') as (y & j' & s3 & -> & Hs3 & Hpr3 & Hy & _).
  destruct Hst as ((spur & a & Hlb) & Hs1 & Hs2). assert (j < length ls) as Hj by (by eapply lookup_lt_Some).
  destruct (state_at_le _ _ _ Hs3) as (i & Hil & Hs3').
  assert (S j <= i) as Hji.
  { destruct (decide (S j <= i)); [done|]. exfalso. eapply (known_mono ls s ev i (S j)); [done|lia|lia|done|done| |done]. destruct Hpr3 as [p ->]. done. }
  assert (maps s3 (keyof (rr_val x)) (rr_val x)) as Hm3.
  { apply (untouched ls s ev (S j) i s2 s3 (keyof (rr_val x)) (Some (rr_val x)) Hx Hw Hji Hil Hs2 Hs3').
    - destruct (state_at_exec _ _ _ _ _ Hx Hs3') as [ev3 Hx3]. destruct Hpr3 as [p Hp]. eapply running_not_dropped; [by eapply exec_sinv|done].
    - intros i' si o2 op2 [? ?] ? ?. eapply Hno; [|done..]. lia.
    - split; [by destruct Hm|apply keqb_refl]. }
  pose proof (proj1 (run_has_A ls s ev i s3 o' _ (keyof (rr_val x)) (Some (rr_val x)) Hx Hw Hs3' Hpr3) Hm3) as E1.
  pose proof (proj1 (run_has_A ls s ev i s3 o' _ (keyof (rr_val x)) (rr_val <$> y) Hx Hw Hs3' Hpr3) Hy) as E2.
  rewrite E1 in E2. destruct y as [y|]; [|done]. exists y. split; [done|]. by injection E2.
Qed.

(** ** The same as [all_or_nothing], in terms of contents *)
Theorem atomic_or_nothing ls s ev o : exec ls s ev -> wf_calls ls ->
  (forall j s1 s2, step_at ls j o s1 s2 -> same_contents s1 s2) \/
  exists j0 op x s1 s2 a a', step_at ls j0 o s1 s2 /\ in_progress s1 o op /\ EInv o op ∈ ev /\
    (forall k, has s1 k (a k)) /\ (forall k, has s2 k (a' k)) /\ spec_step a op x a' /\
    (forall r y, ERet o r ∈ ev -> val_of r = Some y -> y = x) /\
    forall j s1 s2, step_at ls j o s1 s2 -> j <> j0 -> same_contents s1 s2.
Proof.
  intros Hx Hw. destruct (all_or_nothing _ _ _ o Hx Hw) as [H|(j0 & op & x & s1 & s2 & Hst & Hpr & Hi & Hsp & Hr & Ho)].
  - left. intros j s1 s2 Hst. eapply step_at_same; try done. destruct Hst as ((spur & a & Hl) & _). by eapply H.
  - right. destruct (step_at_A _ _ _ _ _ _ _ Hx Hw Hst) as [H1 H2]. exists j0, op, x, s1, s2, (A_of ls j0), (A_of ls (S j0)).
    split; [done|]. split; [done|]. split; [done|]. split; [intros k; by apply H1|]. split; [intros k; by apply H2|]. split; [done|]. split; [done|].
    intros j s1' s2' Hst' Hne. eapply step_at_same; try done. destruct Hst' as ((spur & a & Hl) & _). by eapply Ho.
Qed.

(** ** Readers do not write *)
Theorem reader_step s o op spur a s' e : reachable s -> in_progress s o op -> is_reader op = true -> step s (LStep o spur a) = Some (s', e) -> s_mem s' = s_mem s.
Proof.
  intros (ls & ev & Hx) [p Hp] Hr Hst. cbn [step] in Hst. rewrite Hp in Hst.
  destruct (op_step _ _ _ _ _) as [[[m' nx] acts]|] eqn:E; [|done]. injection Hst as <- <-. simpl.
  eapply op_step_reader; [|done|done]. by apply (si_run _ _ (exec_sh _ _ _ Hx) _ _ _ Hp).
Qed.
End linmore.
