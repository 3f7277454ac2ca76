(** * The shape of the trie in executions in which no two removals overlap. *)
From Verif Require Import Model Mem Inv Safe SafeStep SafeOps SafeSys SafeProps Look LinSpec Sem SemOps Spec SysSem Lin LinProps LinMore Shape Seq IterSpec SeqSpec LiveStep Prune PruneStep.

Section seqsys.
Context {C : Config} {HC : ConfigOk C}.
Implicit Types (m : mem) (pos : loc -> list nat) (c : cell) (v w : sh) (o : opid) (gs : gset opid) (k : Key) (op : oper) (s : state)
  (ls : list label) (ev : list event).

Lemma removals_alone_snoc ls lb s ev : exec ls s ev -> removals_alone (ls ++ [lb]) -> removals_alone ls.
Proof.
  intros Hx [H1 H2]. split.
  - intros n s1 o1 k1 o2 k2 Hs. destruct (state_at_le _ _ _ Hs) as (n' & Hn' & Hs'). apply (H1 n'). by rewrite state_at_snoc.
  - intros n s1 o op Hl Hs. assert (n < length ls) by (by eapply lookup_lt_Some). apply (H2 n); [by rewrite lookup_app_l|]. rewrite state_at_snoc; [done|lia].
Qed.

Lemma wf_snoc ls lb : wf_calls (ls ++ [lb]) -> wf_calls ls /\ lb_wf lb.
Proof.
  intros H. split.
  - intros o op Hin. apply (H o op). apply elem_of_app. by left.
  - destruct lb as [o op| | | | |]; try done. apply (H o op). apply elem_of_app. right. by left.
Qed.

(* what a call that is running contributes to the invariant *)
Lemma rdd_reader pos m op p l : is_reader op = true -> pc_sem pos m op p -> ~ rdd p l.
Proof.
  intros Hr Hs Hd. destruct p; try done; simpl in Hs, Hd; destruct k; try done; destruct Hs as (? & -> & _); done.
Qed.
Lemma rex_reader pos m op p l : is_reader op = true -> pc_sem pos m op p -> ~ rex m p l.
Proof.
  intros Hr Hs Hd. destruct p; try done; simpl in Hs, Hd; try destruct k; try done; destruct Hs as (? & -> & _); done.
Qed.
Lemma ikey_reader op : is_reader op = true -> ikey op = None.
Proof. by destruct op. Qed.
Lemma gfact_reader pos m D op p : is_reader op = true -> pc_sem pos m op p -> gfact m D op p.
Proof.
  intros Hr Hs. assert (forall t k, t_sem op t k -> False) as Ht by (intros t k Ht%t_sem_ikey; by rewrite ikey_reader in Ht).
  destruct p; simpl in Hs |- *; try done.
  - destruct Hs as (k & H & _). by apply Ht in H.
  - destruct k; simpl in Hs |- *; [destruct Hs as (k & H); by apply Ht in H|by destruct Hs as (-> & _)|by destruct Hs as (? & -> & _)].
  - destruct k; simpl in Hs |- *; [destruct Hs as (k & H); by apply Ht in H|by destruct Hs as (-> & _)|by destruct Hs as (? & -> & _)].
  - by destruct Hs as (-> & _).
  - by destruct Hs as (-> & _).
  - by destruct Hs as (? & -> & _).
Qed.
Lemma gfact_mono m (D D' : loc -> Prop) op p : (forall l, D l -> D' l) -> gfact m D op p -> gfact m D' op p.
Proof. intros HD. destruct p; simpl; try done; destruct k; try done; auto. Qed.
Lemma gfact_init m D op : gfact m D op (op_init op).
Proof. destruct op; simpl; try done. split; [done|]. intros q ch H. by apply elem_of_nil in H. Qed.

Lemma gro_reader pos m ops o st : gro m ops ->
  (forall op p, ops !! o = Some (SRun op p) -> is_reader op = true /\ pc_sem pos m op p) ->
  (forall D op p, st = SRun op p -> gfact m D op p) -> gro m (<[o := st]> ops).
Proof.
  intros [H1 H2 H3] Hold Hnew.
  assert (forall l, DD ops l -> DD (<[o := st]> ops) l) as HD.
  { intros l (o1 & op1 & p1 & Ho1 & Hx). exists o1, op1, p1. rewrite lookup_insert_ne; [done|]. intros ->. destruct (Hold _ _ Ho1) as [Hr Hs]. by eapply rdd_reader in Hx. }
  split.
  - intros l i v Hc Hv Hd. apply HD. by eapply H1.
  - intros l sl Hb Hd. destruct (H2 l sl Hb Hd) as [?|[(o1 & op1 & p1 & Ho1 & Hx)|(o1 & op1 & p1 & k & Ho1 & Hk & Hx)]]; [by left|right; left|right; right].
    + exists o1, op1, p1. rewrite lookup_insert_ne; [done|]. intros ->. destruct (Hold _ _ Ho1) as [Hr Hs]. by eapply rex_reader in Hx.
    + exists o1, op1, p1, k. rewrite lookup_insert_ne; [done|]. intros ->. destruct (Hold _ _ Ho1) as [Hr Hs]. by rewrite ikey_reader in Hk.
  - intros o' op' p'. destruct (decide (o = o')) as [<-|Hne].
    + rewrite lookup_insert. intros [= ->]. by apply Hnew.
    + rewrite lookup_insert_ne by done. intros Hp. eapply gfact_mono; [exact HD|by eapply H3].
Qed.

Lemma gro_eq m m' ops : m_heap m' = m_heap m -> m_root m' = m_root m -> (forall l, dead m' l <-> dead m l) -> gro m ops -> gro m' ops.
Proof.
  intros E1 E2 Hd [H1 H2 H3]. assert (forall c, cval m' c = cval m c) as Hc by (intros; by apply cval_heap).
  assert (forall l, hbody m' l = hbody m l) as Hb by (intros; by apply hbody_heapeq).
  assert (forall l, heavy m l -> heavy m' l) as Hh by (intros; by eapply heavy_eq).
  assert (forall q v, at_path m q v -> at_path m' q v) as Hat.
  { induction 1 as [|q v l a sl i w _ IH]; [rewrite <-E2; constructor|]. eapply at_slot; [exact IH|done| |done]. by rewrite E1. }
  split.
  - intros l i v. rewrite Hc, Hd. apply H1.
  - intros l sl. rewrite Hb, Hd. intros Hbl Hdl. destruct (H2 l sl Hbl Hdl) as [?|[(o1 & op1 & p1 & Ho1 & Hx)|(o1 & op1 & p1 & k & Ho1 & Hk & (q & v & Hq) & (j & v' & t & d0 & Hw))]]; [left; auto|right; left|right; right].
    + exists o1, op1, p1. split; [done|]. destruct p1; try done; simpl in *; destruct k; try done; (destruct Hx as [?|(? & x & ? & ?)]; [by left|right; split; [done|]; exists x; by rewrite Hd]).
    + exists o1, op1, p1, k. split; [done|]. split; [done|]. split; [exists q, v; destruct Hq; auto|]. exists j, v', t, d0. by rewrite Hc, Hb.
  - intros o op p Hp. specialize (H3 o op p Hp).
    assert (forall lv, lvalid m lv -> lvalid m' lv) as Hlv by (intros lv H q ch Hin; rewrite Hc; auto).
    assert (forall c, cell_live m c -> cell_live m' c) as Hl by (intros [|x i]; simpl; [done|by rewrite Hd]).
    destruct p; simpl in *; try done.
    + intros E. destruct (H3 E) as (k & t0 & d0 & ? & ? & ? & ?). exists k, t0, d0. by rewrite Hb.
    + destruct k; try done; [intros l Hl'; rewrite Hd; auto|]. destruct H3 as [? H3]. split; [auto|]. rewrite Hc. destruct H3 as [?|(x & ? & ?)]; [by left|right; exists x; by rewrite Hd].
    + destruct k; try done; [intros l Hl'; rewrite Hd; auto|]. destruct H3 as [? H3]. split; [auto|]. rewrite Hc. destruct H3 as [?|(x & ? & ?)]; [by left|right; exists x; by rewrite Hd].
    + destruct H3. auto.
    + destruct H3. auto.
    + destruct H3 as (? & l & ? & H4 & H5). split; [auto|]. exists l. split; [done|]. split; [|auto].
      intros Hone. destruct (H4 Hone) as (j & ? & (v & ? & ?)). exists j. split; [done|]. exists v. by rewrite Hc.
Qed.

Lemma exec_gro ls s ev : exec ls s ev -> wf_calls ls -> removals_alone ls -> s_dropped s = false -> gro (s_mem s) (s_ops s).
Proof.
  revert ls s ev. apply (exec_ind (fun ls s ev => wf_calls ls -> removals_alone ls -> s_dropped s = false -> gro (s_mem s) (s_ops s))).
  { intros _ _ _. split; [intros l i v H|intros l sl H|intros o op p H]; exfalso; [unfold cval, hbody in H|unfold hbody in H|]; simpl in H; by rewrite lookup_empty in H. }
  intros ls s ev lb s' e Hx IH Hst Hw Hwa Hd'. destruct (wf_snoc _ _ Hw) as [Hw0 Hwl]. pose proof (removals_alone_snoc _ _ _ _ Hx Hwa) as Hwa0.
  assert (s_dropped s = false) as Hd. { destruct (s_dropped s) eqn:E; [|done]. by rewrite (step_dropped_mono _ _ _ _ Hst E) in Hd'. }
  specialize (IH Hw0 Hwa0 Hd). destruct (exec_full _ _ _ Hx Hw0 Hd) as [pos Hf]. pose proof (fu_live _ _ Hf) as Hl.
  pose proof (exec_sh _ _ _ Hx) as Hsh.
  destruct lb as [o op|o spur a|o|o|n|]; cbn [step] in Hst.
  - destruct (s_ops s !! o) as [?|] eqn:Eo; [done|]. rewrite Hd in Hst. injection Hst as <- <-. simpl.
    eapply (gro_reader pos); [done|by rewrite Eo|]. intros D op' p' [= <- <-]. apply gfact_init.
  - destruct (s_ops s !! o) as [[op p|?|?|]|] eqn:Eo; try done.
    destruct (op_step (guards s) (s_mem s) p spur a) as [[[m' nx] acts]|] eqn:Estep; [|done]. injection Hst as <- <-.
    assert (o ∈ guards s) as Hog by (apply elem_of_guards; eauto). simpl.
    assert (forall f, nx <> NFail f) as Hnf.
    { intros f ->. apply (no_failure (State m' (<[o:=SFail op f]> (s_ops s)) (s_dropped s) (s_ub s)) o op f); [|simpl; by rewrite lookup_insert].
      eexists _, _. eapply (exec_snoc _ _ _ (LStep o spur a)); [exact Hx|]. cbn [step]. by rewrite Eo, Estep. }
    destruct (fu_ops _ _ Hf _ _ _ Eo) as [Hopw Hps].
    destruct (is_reader op) eqn:Er.
    + assert (m' = s_mem s) as -> by (eapply op_step_reader; [by apply (si_run _ _ Hsh _ _ _ Eo)|done|done]).
      eapply (gro_reader pos); [done| |].
      * intros op' p' Ho'. rewrite Eo in Ho'. by injection Ho' as <- <-.
      * intros D op' p' E. destruct nx as [p1|r|f]; [|done|by destruct (Hnf f)]. injection E as <- <-.
        assert (exists pos', pc_sem pos' (s_mem s) op p1) as [pos' Hp1]; [|by eapply gfact_reader].
        assert (exec (ls ++ [LStep o spur a]) (State (s_mem s) (<[o:=SRun op p1]> (s_ops s)) (s_dropped s) (s_ub s)) (ev ++ map (act_event o) acts)) as Hx'.
        { replace (map (act_event o) acts) with (map (act_event o) acts ++ match NRun p1 with NRet r => [ERet o r] | _ => [] end) by apply app_nil_r.
          eapply exec_snoc; [exact Hx|]. cbn [step]. by rewrite Eo, Estep. }
        destruct (exec_full _ _ _ Hx' Hw Hd) as [pos' Hf']. exists pos'. apply (fu_ops _ _ Hf' o op p1). simpl. by rewrite lookup_insert.
    + change (gro m' (<[o := st_of op nx]> (s_ops s))). eapply (op_step_gro (guards s) pos (s_mem s)); try done; try apply Hl; try apply Hf.
      * intros o1 op1 p1 H1. destruct (fu_ops _ _ Hf _ _ _ H1). split; [done|]. split; [|done]. by apply (li_ops _ _ Hl _ _ H1).
      * intros o1 k1 p1 o2 k2 p2 H1 H2. apply (proj1 Hwa0 (length ls) s o1 k1 o2 k2); [by eapply state_at_end|by exists p1|by exists p2].
  - destruct (s_ops s !! o) as [[|op r|?|]|] eqn:Eo; try done. injection Hst as <- <-. simpl. eapply (gro_reader pos); [done|by rewrite Eo|done].
  - destruct (s_ops s !! o) as [[op p| |?|]|] eqn:Eo; try done. injection Hst as <- <-.
    assert (is_reader op = true) as Hr. { apply (proj2 Hwa (length ls) s o op); [by rewrite lookup_app_r, Nat.sub_diag|rewrite state_at_snoc; [by eapply state_at_end|done]|by exists p]. }
    simpl. eapply (gro_reader pos); [done| |done]. rewrite Eo. intros op' p' [= <- <-]. split; [done|]. by apply (fu_ops _ _ Hf _ _ _ Eo).
  - destruct (m_garb (s_mem s) !! n) as [[[l k] g]|] eqn:En; [|done]. case_bool_decide as Hgi; [|done]. injection Hst as <- <-.
    eapply gro_eq; [..|exact IH]; [done|done|]. intros; by eapply dead_free.
  - destruct (_ && _); [|done]. destruct (drop_rec _ _ _); by injection Hst as <- <-.
Qed.

Lemma exec_canonical ls s ev : exec ls s ev -> wf_calls ls -> removals_alone ls -> s_dropped s = false -> no_writer s -> canonical (s_mem s).
Proof.
  intros Hx Hw Ha Hd Hn. destruct (exec_gro _ _ _ Hx Hw Ha Hd) as [H1 H2 _]. destruct (exec_full _ _ _ Hx Hw Hd) as [pos Hf].
  assert (forall o op p, s_ops s !! o = Some (SRun op p) -> is_reader op = true /\ pc_sem pos (s_mem s) op p) as Hrd.
  { intros o op p Hp. split; [apply (Hn o); by exists p|]. by apply (fu_ops _ _ Hf _ _ _ Hp). }
  split.
  - intros l i v Hc Hl _. destruct (sh_cond v) eqn:E; [|done]. exfalso. destruct (H1 l i v Hc E Hl) as (o & op & p & Hp & Hx'). destruct (Hrd _ _ _ Hp) as [Hr Hs]. by eapply rdd_reader in Hx'.
  - intros l sl Hb Hl _. destruct (H2 l sl Hb Hl) as [?|[(o & op & p & Hp & Hx')|(o & op & p & k & Hp & Hk & _)]]; [done|exfalso..]; destruct (Hrd _ _ _ Hp) as [Hr Hs].
    + by eapply rex_reader in Hx'.
    + by rewrite ikey_reader in Hk.
Qed.
End seqsys.
