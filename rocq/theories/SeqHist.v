(** * Calls that run without other modifying calls return exactly what a plain map returns. *)
From Verif Require Import Model Mem Inv Safe SafeStep SafeOps SafeSys SafeProps Look LinSpec Sem SemOps Spec SysSem Lin LinProps LinMore Shape Seq Prune Iter IterSpec IterSys SeqSpec SeqSys SeqShape.

Section seqhist.
Context {C : Config} {HC : ConfigOk C}.
Implicit Types (m : mem) (pos : loc -> list nat) (o : opid) (k : Key) (op : oper) (s : state) (ls : list label) (ev : list event) (a b : amap).

(** ** Histories *)
Lemma call_of_inv ev o op : call_of ev o = Some op -> EInv o op ∈ ev.
Proof.
  unfold call_of. induction ev as [|e ev IH]; [done|]. simpl. destruct e as [o' op'| | |]; simpl; try (intros H; right; by apply IH).
  destruct (decide (o' = o)) as [->|]; [intros [= ->]; by left|]. intros H. right. by apply IH.
Qed.
Lemma call_of_some ev o op : EInv o op ∈ ev -> is_Some (call_of ev o).
Proof.
  unfold call_of. induction ev as [|e ev IH]; [intros H; by apply elem_of_nil in H|]. intros [<-|H]%elem_of_cons.
  - simpl. rewrite decide_True by done. by eexists.
  - simpl. destruct e as [o' op'| | |]; simpl; try by apply IH. destruct (decide (o' = o)); [by eexists|by apply IH].
Qed.
Lemma call_of_app ev e o : is_Some (call_of ev o) -> call_of (ev ++ e) o = call_of ev o.
Proof. unfold call_of. rewrite omap_app. intros [op H]. by destruct (omap _ ev). Qed.
Lemma call_of_eq ls s ev o op : exec ls s ev -> EInv o op ∈ ev -> call_of ev o = Some op.
Proof. intros Hx Hi. destruct (call_of_some _ _ _ Hi) as [op' H]. rewrite H. f_equal. eapply inv_unique; [done|by apply call_of_inv|done]. Qed.

Lemma exec_called ls s ev : exec ls s ev -> (forall o r, ERet o r ∈ ev -> exists op, EInv o op ∈ ev) /\
  forall o op p, s_ops s !! o = Some (SRun op p) -> EInv o op ∈ ev /\ exists j, ls !! j = Some (LInv o op).
Proof.
  revert ls s ev. apply exec_ind.
  { split; [intros o r H; by apply elem_of_nil in H|]. intros o op p H. simpl in H. by rewrite lookup_empty in H. }
  intros ls s ev lb s' e Hx [IH1 IH2] Hst.
  assert (forall o op p, s_ops s !! o = Some (SRun op p) -> EInv o op ∈ ev ++ e /\ exists j, (ls ++ [lb]) !! j = Some (LInv o op)) as IH2'.
  { intros o op p H. destruct (IH2 _ _ _ H) as [H1 [j Hj]]. split; [apply elem_of_app; by left|]. exists j. rewrite lookup_app_l; [done|by eapply lookup_lt_Some]. }
  assert (forall o r, ERet o r ∈ ev -> exists op, EInv o op ∈ ev ++ e) as IH1'.
  { intros o r H. destruct (IH1 _ _ H) as [op Hop]. exists op. apply elem_of_app. by left. }
  destruct lb as [o op|o spur a|o|o|n|]; cbn [step] in Hst.
  - destruct (s_ops s !! o) as [?|] eqn:Eo, (s_dropped s); simplify_eq. split.
    + intros o' r [H|H]%elem_of_app; [by eapply IH1'|]. by apply elem_of_list_singleton in H.
    + intros o' op' p. simpl. destruct (decide (o = o')) as [<-|]; [rewrite lookup_insert|rewrite lookup_insert_ne by done; apply IH2'].
      intros [= <- <-]. split; [apply elem_of_app; right; by left|]. exists (length ls). by rewrite lookup_app_r, Nat.sub_diag.
  - destruct (s_ops s !! o) as [[op p|?|?|]|] eqn:Eo; try done. destruct (op_step _ _ _ _ _) as [[[m' nx] acts]|]; [|done]. injection Hst as <- <-. split.
    + intros o' r [H|H]%elem_of_app; [by eapply IH1'|]. apply elem_of_app in H as [H|H]; [by apply acts_no_ret in H|]. destruct nx; try by apply elem_of_nil in H.
      apply elem_of_list_singleton in H as [= -> ->]. exists op. by eapply IH2'.
    + intros o' op' p'. simpl. destruct (decide (o = o')) as [<-|]; [rewrite lookup_insert|rewrite lookup_insert_ne by done; apply IH2'].
      destruct nx; try done. intros [= <- <-]. by eapply IH2'.
  - destruct (s_ops s !! o) as [[]|] eqn:Eo; try done. injection Hst as <- <-. rewrite app_nil_r in *. split; [done|].
    intros o' op' p'. simpl. destruct (decide (o = o')) as [<-|]; [by rewrite lookup_insert|rewrite lookup_insert_ne by done; apply IH2'].
  - destruct (s_ops s !! o) as [[]|] eqn:Eo; try done. injection Hst as <- <-. rewrite app_nil_r in *. split; [done|].
    intros o' op' p'. simpl. destruct (decide (o = o')) as [<-|]; [by rewrite lookup_insert|rewrite lookup_insert_ne by done; apply IH2'].
  - destruct (m_garb _ !! n) as [[[? ?] ?]|]; [|done]. case_bool_decide; [|done]. injection Hst as <- <-. rewrite app_nil_r in *. by split.
  - destruct (_ && _); [|done]. destruct (drop_rec _ _ _); injection Hst as <- <-; rewrite app_nil_r in *; by split.
Qed.

Definition hist_of ev (e : list event) : list (oper * res) :=
  omap (fun x => match x with ERet o r => (fun op => (op, r)) <$> call_of ev o | _ => None end) e.
Lemma omap_ext_in {X Y} (f g : X -> option Y) (l : list X) : (forall x, x ∈ l -> f x = g x) -> omap f l = omap g l.
Proof. induction l as [|x l IH]; intros H; [done|]. csimpl. rewrite (H x) by (by left). rewrite IH; [done|]. intros y Hy. apply H. by right. Qed.
Lemma history_app ev e : (forall o r, ERet o r ∈ ev -> exists op, EInv o op ∈ ev) -> history (ev ++ e) = history ev ++ hist_of (ev ++ e) e.
Proof.
  intros Hc. unfold history. rewrite omap_app. f_equal.
  apply omap_ext_in. intros x Hin. destruct x as [|o r| |]; try done. destruct (Hc o r Hin) as [op Hop]. rewrite call_of_app; [done|by eapply call_of_some].
Qed.
Lemma hist_nil ev e : (forall o r, ERet o r ∉ e) -> hist_of ev e = [].
Proof.
  unfold hist_of. induction e as [|x e IH]; intros H; [done|]. simpl. destruct x; try (apply IH; intros o' r' H'; apply (H o' r'); by right). exfalso. apply (H o r). by left.
Qed.

(** ** Exactness *)
Lemma exact_same a a' op r b b' : same a a' -> same b b' -> exact a op r b -> exact a' op r b'.
Proof.
  unfold exact, put, del, same. intros Ha Hb. destruct op, r as [x|[x|x]|x|x]; try done.
  - intros [-> H]. split; [by rewrite Ha|]. intros k. by rewrite Hb, H, Ha.
  - intros [<- H]. split; [by rewrite Ha|]. intros k'. by rewrite Hb, H, Ha.
  - intros (<- & -> & H). split; [by rewrite Ha|]. split; [done|]. intros k'. by rewrite Hb, H, Ha.
  - intros [-> H]. split; [by rewrite Ha|]. intros k'. by rewrite Hb, H, Ha.
  - intros [-> H]. split; [by rewrite Ha|]. intros k'. by rewrite Hb, H, Ha.
  - intros [-> H]. split; [by setoid_rewrite Ha|]. intros k'. by rewrite Hb, H, Ha.
  - intros (H1 & H2 & H). split; [done|]. split; [intros k; rewrite Ha; apply H2|]. intros k'. by rewrite Hb, H, Ha.
Qed.
Lemma exact_run_app a h1 b h2 c : exact_run a h1 b -> exact_run b h2 c -> exact_run a (h1 ++ h2) c.
Proof.
  revert a. induction h1 as [|[op r] h1 IH]; intros a; simpl.
  - intros Hs. destruct h2 as [|[op2 r2] h2]; simpl; [intros H k; by rewrite (H k), (Hs k)|].
    intros (b' & H1 & H2). exists b'. split; [|done]. eapply exact_same; [|apply same_refl|exact H1]. by apply same_sym.
  - intros (b' & H1 & H2) H3. exists b'. split; [done|]. by eapply IH.
Qed.
Lemma exact_run_same_r a h b b' : same b b' -> exact_run a h b -> exact_run a h b'.
Proof.
  intros Hs. revert a. induction h as [|[op r] h IH]; intros a; simpl; [intros H k; by rewrite (Hs k), (H k)|]. intros (c & H1 & H2). exists c. eauto.
Qed.

Lemma spec_exact a op r x b : op <> OIsEmpty -> val_of r = Some x -> spec_step a op x b -> exact a op r b.
Proof.
  intros Hn Hv. unfold spec_step, exact. destruct op, r as [y|[y|y]|y|y]; simpl in Hv; try discriminate Hv; injection Hv as <-; simpl; try done.
  intros (H1 & -> & H2). done.
Qed.

Lemma lone_exact ls s ev o op r j0 spur ad s' e : exec ls s ev -> wf_calls ls -> step s (LStep o spur ad) = Some (s', e) -> ERet o r ∈ e ->
  in_progress s o op -> ls !! j0 = Some (LInv o op) ->
  (forall j sj o' op', j0 <= j <= length ls -> state_at ls j = Some sj -> in_progress sj o' op' -> o' = o \/ is_reader op' = true) ->
  (op = OIsEmpty -> canonical (s_mem s)) ->
  exact (A_of ls j0) op r (absm (s_mem s')).
Proof.
  intros Hx Hw Hst Hr Hpr Hj0 Hlone Hcan. set (ls' := ls ++ [LStep o spur ad]).
  assert (exec ls' s' (ev ++ e)) as Hx' by (by eapply exec_snoc).
  assert (wf_calls ls') as Hw'. { intros o' op' [H|H]%elem_of_app; [by apply (Hw o')|]. by apply elem_of_list_singleton in H. }
  assert (j0 < length ls) as Hj0l by (by eapply lookup_lt_Some).
  assert (length ls' = S (length ls)) as Hlen by (unfold ls'; rewrite app_length; simpl; lia).
  destruct Hpr as [p Hp]. destruct (exec_called _ _ _ Hx) as [_ Hinv]. destruct (Hinv _ _ _ Hp) as [Hi _].
  assert (EInv o op ∈ ev ++ e) as Hi' by (apply elem_of_app; by left).
  assert (ERet o r ∈ ev ++ e) as Hr' by (apply elem_of_app; by right).
  assert (forall j, j <= length ls -> A_of ls' j = A_of ls j) as HA by (intros; by apply A_of_snoc).
  assert (A_of ls' (length ls') = absm (s_mem s')) as HAend by (by eapply A_of_end).
  destruct (exec_timeline _ _ _ Hx' Hw') as (iv & rd & mu & Htl & _). pose proof (tl_legal _ _ _ _ _ Htl) as [L1 L2].
  (* only steps of o change anything *)
  assert (forall j, j0 <= j <= length ls -> same (A_of ls' j) (A_of ls' (S j)) \/ exists s1 s2, step_at ls' j o s1 s2) as Hch.
  { intros j Hj. specialize (L2 j ltac:(lia)). destruct (mu j) as [en|] eqn:Em; [|by left].
    destruct (tl_mu _ _ _ _ _ Htl j en ltac:(lia) Em) as [(s1 & Hs1 & Hp1)%running_prog (spur' & ad' & Hl)].
    destruct (state_at_some _ _ _ (S j) Hx') as [s2 Hs2]; [lia|]. 
    assert (state_at ls j = Some s1) as Hs1' by (rewrite <-Hs1; symmetry; apply state_at_snoc; lia).
    destruct (Hlone j s1 (e_id en) (e_op en) Hj Hs1' Hp1) as [Eo|Hrd]; [right; exists s1, s2; split; [rewrite Eo in Hl; eauto|done]|].
    left. clear -L2 Hrd. unfold spec_step in L2. destruct (e_op en), (e_ret en); try done; by destruct L2. }
  assert (forall j sj op', state_at ls' j = Some sj -> in_progress sj o op' -> j <= length ls' -> j0 < j) as Hafter.
  { intros j sj op' Hs [q Hq] Hjl. destruct (decide (j0 < j)) as [|Hn]; [done|]. exfalso.
    destruct (state_at_some _ _ _ j0 Hx') as [s0 Hs0]; [lia|]. destruct (state_at_some _ _ _ (S j0) Hx') as [s01 Hs01]; [lia|].
    assert (ls' !! j0 = Some (LInv o op)) as Hl by (unfold ls'; by rewrite lookup_app_l).
    destruct (state_at_step _ _ _ _ _ _ _ Hx' Hl Hs0 Hs01) as [e0 He0]. cbn [step] in He0.
    assert (s_ops s0 !! o <> None) as Hk; [|by destruct (s_ops s0 !! o)].
    eapply (known_mono ls' s' (ev ++ e) j j0); try done; [lia|lia|congruence]. }
  assert (forall i j, j0 <= i -> i <= j -> j <= length ls' -> (forall j', i <= j' < j -> same (A_of ls' j') (A_of ls' (S j'))) -> same (A_of ls' i) (A_of ls' j)) as Hchain.
  { intros i j Hi0 Hij. induction Hij as [|j Hij IH]; intros Hl Hall; [apply same_refl|].
    eapply same_trans; [apply IH; [lia|intros; apply Hall; lia]|]. apply Hall. lia. }
  assert (forall j sj op', state_at ls' j = Some sj -> in_progress sj o op' -> j <= length ls') as Hle.
  { intros j sj op' Hs [q Hq]. destruct (decide (j <= length ls')) as [|Hn]; [done|]. exfalso.
    assert (sj = s') as ->. { pose proof (state_at_end _ _ _ Hx') as He. unfold state_at in Hs, He. rewrite take_ge in Hs, He by lia. congruence. }
    eapply (step_no_ret ls' s' (ev ++ e)); done. }
  assert (forall op1 x, EInv o op1 ∈ ev ++ e -> val_of r = Some x -> spec_step (A_of ls' j0) op1 x (A_of ls' (length ls'))) as Heff.
  { clear Hi'. intros op1 x Hi' Hv. destruct (call_effect _ _ _ _ _ _ _ Hx' Hw' Hi' Hr' Hv) as [j s1 s2 Hsa Hp1 Hsp Hoth|j s1 k' Hs1 Hp1 Hsp Hop Hoth].
    - assert (j < length ls') as Hjl by (destruct Hsa as ((? & ? & H) & _); by eapply lookup_lt_Some).
      assert (j0 < j) as Hj by (eapply Hafter; [apply Hsa|exact Hp1|lia]).
      assert (forall j', j0 <= j' < length ls' -> j' <> j -> same (A_of ls' j') (A_of ls' (S j'))) as Hq.
      { intros j' Hj' Hne. destruct (Hch j') as [?|(t1 & t2 & Ht)]; [lia|done|]. by eapply Hoth. }
      eapply spec_step_same; [| |exact Hsp].
      + apply same_sym. apply Hchain; [lia|lia|lia|]. intros j' Hj'. apply Hq; lia.
      + apply Hchain; [lia|lia|lia|]. intros j' Hj'. apply Hq; lia.
    - assert (j <= length ls') as Hjl by (by eapply Hle).
      assert (j0 < j) as Hj by (eapply Hafter; [apply Hs1|exact Hp1|lia]).
      assert (forall j', j0 <= j' < length ls' -> same (A_of ls' j') (A_of ls' (S j'))) as Hq.
      { intros j' Hj'. destruct (Hch j') as [?|(t1 & t2 & Ht)]; [lia|done|]. by eapply Hoth. }
      eapply spec_step_same; [| |exact Hsp].
      + apply same_sym. apply Hchain; [lia|lia|lia|]. intros j' Hj'. apply Hq; lia.
      + apply Hchain; [lia|lia|lia|]. intros j' Hj'. apply Hq; lia. }
  rewrite <-HAend, <-HA by lia.
  destruct op as [pl|k f|k|k| |] eqn:Eop.
  1-4: assert (exists x, val_of r = Some x) as [x Hv] by (apply (ret_val _ _ _ _ _ _ Hx' Hi' Hr'); done);
    eapply (spec_exact _ _ _ x); [done|done|];
    exact (Heff _ x Hi' Hv).
  - (* is_empty *)
    specialize (Hcan eq_refl). destruct (si_run _ _ (exec_sh _ _ _ Hx) _ _ _ Hp) as [Hsh _].
    assert (s_dropped s = false) as Hd by (eapply running_not_dropped; [by eapply exec_sinv|done]). destruct (exec_full _ _ _ Hx Hw Hd) as [pos Hf].
    assert (forall j, j0 <= j <= length ls -> same (A_of ls' j) (A_of ls' (S j))) as Hall.
    { intros j Hj. specialize (L2 j ltac:(lia)). destruct (mu j) as [en|] eqn:Em; [|done].
      destruct (tl_mu _ _ _ _ _ Htl j en ltac:(lia) Em) as [(s1 & Hs1 & [q Hq])%running_prog (spur' & ad' & Hl)].
      assert (state_at ls j = Some s1) as Hs1' by (rewrite <-Hs1; symmetry; apply state_at_snoc; lia).
      assert (is_reader (e_op en) = true) as Hrd.
      { destruct (Hlone j s1 (e_id en) (e_op en) Hj Hs1' ltac:(by exists q)) as [Eo|?]; [|done].
        destruct (tl_inv _ _ _ _ _ Htl en (2 * j + 1)) as [Hien _]; [right; exists j; split; [lia|done]|]. rewrite Eo in Hien.
        by rewrite (inv_unique _ _ _ _ _ _ Hx' Hien Hi'). }
      clear -L2 Hrd. unfold spec_step in L2. destruct (e_op en), (e_ret en); try done; by destruct L2. }
    assert (forall j, j0 <= j <= length ls' -> same (A_of ls' j0) (A_of ls' j)) as Hs by (intros j Hj; apply Hchain; [lia|lia|lia|intros; apply Hall; lia]).
    assert (r = RBool (is_null (m_root (s_mem s)))) as ->.
    { cbn [step] in Hst. rewrite Hp in Hst. clear -Hsh Hst Hr. destruct p; simpl in Hsh; try done; try (by destruct Hsh); try (by destruct k as [?| |]; [|destruct Hsh..]).
      cbn [op_step] in Hst. unfold ok in Hst. injection Hst as <- <-. simpl in Hr. apply elem_of_list_singleton in Hr. by injection Hr. }
    simpl. split; [|by apply Hs; lia].
    rewrite (root_null pos _ (li_mem _ _ (fu_live _ _ Hf)) (fu_sem _ _ Hf) Hcan).
    pose proof (Hs (length ls) ltac:(lia)) as Hs'. rewrite (HA (length ls)), (A_of_end _ _ _ Hx) in Hs' by done. unfold same in Hs'. by setoid_rewrite Hs'.
  - (* iteration *)
    destruct (exec_itinv _ _ _ Hx' Hw') as (pos & _ & _ & Hit). destruct (Hit o) as (Hnd & _ & Hret & _).
    destruct (si_ret _ _ (exec_sh _ _ _ Hx') _ _ _ Hi' Hr') as [Hsh _]. destruct r as [| | |ys]; try done. destruct (Hret ys Hr') as [Ey Hseen].
    assert (forall j, j0 <= j <= length ls -> same (A_of ls' j) (A_of ls' (S j))) as Hall.
    { intros j Hj. specialize (L2 j ltac:(lia)). destruct (mu j) as [en|] eqn:Em; [|done].
      destruct (tl_mu _ _ _ _ _ Htl j en ltac:(lia) Em) as [(s1 & Hs1 & [q Hq])%running_prog (spur' & ad' & Hl)].
      assert (state_at ls j = Some s1) as Hs1' by (rewrite <-Hs1; symmetry; apply state_at_snoc; lia).
      assert (is_reader (e_op en) = true) as Hrd.
      { destruct (Hlone j s1 (e_id en) (e_op en) Hj Hs1' ltac:(by exists q)) as [Eo|?]; [|done].
        destruct (tl_inv _ _ _ _ _ Htl en (2 * j + 1)) as [Hien _]; [right; exists j; split; [lia|done]|]. rewrite Eo in Hien.
        by rewrite (inv_unique _ _ _ _ _ _ Hx' Hien Hi'). }
      clear -L2 Hrd. unfold spec_step in L2. destruct (e_op en), (e_ret en); try done; by destruct L2. }
    assert (forall j, j0 <= j <= length ls' -> same (A_of ls' j0) (A_of ls' j)) as Hs by (intros j Hj; apply Hchain; [lia|lia|lia|intros; apply Hall; lia]).
    simpl. split; [by rewrite <-Ey|]. split; [|apply Hs; lia].
    intros k. destruct (Hseen k) as (j & Hjl & Hru & EA). apply running_prog in Hru as (s1 & Hs1 & Hp1).
    assert (j0 < j) as Hj by (eapply Hafter; [exact Hs1|exact Hp1|done]).
    rewrite <-(Hs j ltac:(lia) k), EA. unfold vals. destruct (find_pl k (rr_val <$> ys)) as [q|] eqn:E; simpl; [by apply find_pl_Some|by apply find_pl_None].
Qed.

(** ** Sequential executions *)
Lemma sequential_from_0 ls : sequential ls -> sequential_from 0 ls.
Proof.
  intros [H1 H2]. split; [intros n s o1 op1 o2 op2 _; apply H1|]. intros n o _ Hl. apply (H2 o). by eapply elem_of_list_lookup_2.
Qed.
Lemma sequential_from_snoc n0 ls lb s ev : exec ls s ev -> n0 <= length ls -> sequential_from n0 (ls ++ [lb]) -> sequential_from n0 ls.
Proof.
  intros Hx Hn0 [H1 H2]. split.
  - intros n s1 o1 op1 o2 op2 Hn Hs. destruct (decide (n <= length ls)); [apply (H1 n); [done|by rewrite state_at_snoc]|].
    apply (H1 (length ls)); [done|]. rewrite state_at_snoc by done. unfold state_at in *. rewrite take_ge in Hs by lia. by rewrite take_ge by lia.
  - intros n o Hn H. apply (H2 n o Hn). rewrite lookup_app_l; [done|by eapply lookup_lt_Some].
Qed.
Lemma sequential_alone ls : sequential ls -> removals_alone ls.
Proof.
  intros [H1 H2]. split.
  - intros n s o1 k1 o2 k2 Hs Hp1 Hp2. by eapply H1.
  - intros n s o op Hl. exfalso. apply (H2 o). by eapply elem_of_list_lookup_2.
Qed.

Record hinv (n0 : nat) ls s ev1 (a : amap) : Prop := {
  hi_inv : forall o op, in_progress s o op -> EInv o op ∈ ev1;
  hi_ret : forall o r, ERet o r ∈ ev1 -> exists op, EInv o op ∈ ev1;
  hi_run : exact_run (A_of ls n0) (history ev1) a;
  hi_calls : (quiescent s -> calls ev1 = (history ev1).*1) /\ forall o op, in_progress s o op -> calls ev1 = (history ev1).*1 ++ [op];
  hi_case : quiescent s /\ same a (A_of ls (length ls)) \/
   exists o op j0, in_progress s o op /\ n0 <= j0 /\ ls !! j0 = Some (LInv o op) /\ same a (A_of ls j0) /\
     forall j sj o' op', j0 <= j <= length ls -> state_at ls j = Some sj -> in_progress sj o' op' -> o' = o;
}.

Lemma calls_acts o acts : calls (map (act_event o) acts) = [].
Proof. unfold calls. induction acts as [|x l IH]; [done|]. simpl. by destruct x. Qed.

Lemma exec_hinv_from ls0 s0 ev0 : exec ls0 s0 ev0 -> quiescent s0 -> forall ls1 s ev1, run s0 ls1 = Some (s, ev1) ->
  wf_calls (ls0 ++ ls1) -> sequential_from (length ls0) (ls0 ++ ls1) -> (OIsEmpty ∈ calls ev1 -> removals_alone (ls0 ++ ls1)) ->
  exists a, hinv (length ls0) (ls0 ++ ls1) s ev1 a.
Proof.
  intros Hx0 Hq0 ls1. set (n0 := length ls0). induction ls1 as [|lb ls1 IH] using rev_ind; intros s' ev1' Hrun1 Hw Hsq Hcanh.
  { injection Hrun1 as <- <-. rewrite app_nil_r. exists (A_of ls0 (length ls0)). split.
    - intros o op H. by apply Hq0 in H.
    - intros o r H. by apply elem_of_nil in H.
    - apply same_refl.
    - split; [done|]. intros o op H. by apply Hq0 in H.
    - left. split; [done|apply same_refl]. }
  apply run_snoc in Hrun1 as (s & ev1 & e & Hrun1 & Hst & ->). rewrite app_assoc in Hw, Hsq, Hcanh |- *.
  assert (exec (ls0 ++ ls1) s (ev0 ++ ev1)) as Hx by (unfold exec; rewrite run_app, Hx0, Hrun1; done).
  assert (n0 <= length (ls0 ++ ls1)) as Hn0 by (rewrite app_length; unfold n0; lia).
  destruct (wf_snoc _ _ Hw) as [Hw0 Hwl]. pose proof (sequential_from_snoc _ _ _ _ _ Hx Hn0 Hsq) as Hsq0.
  assert (OIsEmpty ∈ calls ev1 -> removals_alone (ls0 ++ ls1)) as Hcanh0.
  { intros H. eapply removals_alone_snoc; [exact Hx|]. apply Hcanh. unfold calls. rewrite omap_app. apply elem_of_app. by left. }
  destruct (IH _ _ Hrun1 Hw0 Hsq0 Hcanh0) as (a & [Hinv Hret Hrun [Hcq Hcp] Hcase]). clear IH. set (ls := ls0 ++ ls1) in *. set (ev := ev0 ++ ev1) in *.
  pose proof (exec_snoc _ _ _ _ _ _ Hx Hst) as Hx'.
  assert (length (ls ++ [lb]) = S (length ls)) as Hlen by (rewrite app_length; simpl; lia).
  assert (forall n s1, state_at (ls ++ [lb]) n = Some s1 -> n <= length ls -> state_at ls n = Some s1) as Hsa by (intros n s1 H Hn; rewrite <-H; symmetry; by apply state_at_snoc).
  assert (forall o r, ERet o r ∈ ev1 -> exists op, EInv o op ∈ ev1 ++ e) as Hret1.
  { intros o r H. destruct (Hret o r H) as [op ?]. exists op. apply elem_of_app. by left. }
  (* a transition that does not change who is in progress, nor the contents, and returns nothing *)
  assert ((forall o r, ERet o r ∉ e) -> calls e = [] -> same (A_of (ls ++ [lb]) (length ls)) (A_of (ls ++ [lb]) (S (length ls))) ->
    (forall o op, in_progress s' o op <-> in_progress s o op) -> hinv n0 (ls ++ [lb]) s' (ev1 ++ e) a) as Hquiet.
  { intros Hnr Hnc Hsame Hpr. assert (history (ev1 ++ e) = history ev1) as Eh by (by rewrite (history_app _ _ Hret), hist_nil, app_nil_r by done).
    assert (calls (ev1 ++ e) = calls ev1) as Ec by (unfold calls in *; by rewrite omap_app, Hnc, app_nil_r).
    split.
    - intros o op H. apply Hpr in H. apply elem_of_app. left. by apply Hinv.
    - intros o r [H|H]%elem_of_app; [by eapply Hret1|by apply Hnr in H].
    - rewrite Eh, A_of_snoc by done. done.
    - rewrite Eh, Ec. split; [intros Hq; apply Hcq; intros o op H; apply Hpr in H; by apply Hq in H|]. intros o op H. eapply Hcp. by apply Hpr.
    - rewrite Hlen. destruct Hcase as [[Hn Ha]|(o & op & j0 & Hp & Hj0 & Hl & Ha & Hal)].
      + left. split; [intros o op H; apply Hpr in H; by apply Hn in H|]. eapply same_trans; [|exact Hsame]. by rewrite A_of_snoc.
      + right. exists o, op, j0. assert (j0 < length ls) by (by eapply lookup_lt_Some). split; [by apply Hpr|]. split; [done|]. split; [by rewrite lookup_app_l|]. split; [rewrite A_of_snoc; [done|lia]|].
        intros j sj o' op' Hj Hs Hp'. destruct (decide (j <= length ls)); [eapply Hal; [|by apply Hsa|done]; lia|].
        assert (j = S (length ls)) as -> by lia. assert (sj = s') as ->. { pose proof (state_at_end _ _ _ Hx') as He. rewrite Hlen in He. congruence. }
        apply Hpr in Hp'. apply (Hal (length ls) s o' op'); [lia|by eapply state_at_end|done]. }
  assert ((forall o spur ad, lb <> LStep o spur ad) -> same (A_of (ls ++ [lb]) (length ls)) (A_of (ls ++ [lb]) (S (length ls)))) as Hno.
  { intros Hne. destruct (exec_timeline _ _ _ Hx' Hw) as (iv & rd & mu & Htl & _). pose proof (tl_legal _ _ _ _ _ Htl) as [L1 L2].
    specialize (L2 (length ls) ltac:(lia)). destruct (mu (length ls)) as [en|] eqn:Em; [|done]. exfalso.
    destruct (tl_mu _ _ _ _ _ Htl (length ls) en ltac:(lia) Em) as [_ (spur & ad & Hl)]. rewrite lookup_app_r, Nat.sub_diag in Hl by done. injection Hl as ->. by eapply Hne. }
  destruct lb as [o op|o spur ad|o|o|n|]; cbn [step] in Hst.
  - clear Hquiet. destruct (s_ops s !! o) as [?|] eqn:Eo, (s_dropped s); simplify_eq. exists a.
    assert (in_progress (set_op s o (SRun op (op_init op))) o op) as Hp by (eexists; simpl; by rewrite lookup_insert).
    assert (history (ev1 ++ [EInv o op]) = history ev1) as Eh.
    { rewrite (history_app _ _ Hret), hist_nil, app_nil_r; [done|]. intros o' r H. by apply elem_of_list_singleton in H. }
    assert (quiescent s) as Hn.
    { destruct Hcase as [[Hn _]|(o1 & op1 & j0 & [p1 Hp1] & _)]; [done|]. exfalso.
      assert (o <> o1) as Hne by (intros ->; congruence). apply Hne. eapply (proj1 Hsq (S (length ls))); [lia|rewrite <-Hlen; by eapply state_at_end|exact Hp|].
      exists p1. simpl. by rewrite lookup_insert_ne. }
    assert (forall o' op', in_progress (set_op s o (SRun op (op_init op))) o' op' -> o' = o /\ op' = op) as Hone.
    { intros o' op' [q Hq]. simpl in Hq. destruct (decide (o = o')) as [<-|Hne]; [rewrite lookup_insert in Hq; by injection Hq as <- <-|].
      rewrite lookup_insert_ne in Hq by done. exfalso. apply (Hn o' op'). by exists q. }
    split.
    + intros o' op' [-> ->]%Hone. apply elem_of_app. right. by left.
    + intros o' r [H|H]%elem_of_app; [by eapply Hret1|]. by apply elem_of_list_singleton in H.
    + rewrite Eh, A_of_snoc by done. done.
    + rewrite Eh. split; [intros Hq; by apply Hq in Hp|]. intros o' op' [-> ->]%Hone. unfold calls in *. rewrite omap_app. simpl. by rewrite (Hcq Hn).
    + rewrite Hlen. right. destruct Hcase as [[_ Ha]|(o1 & op1 & j0 & Hp1 & _)]; [|by apply Hn in Hp1].
      exists o, op, (length ls). split; [done|]. split; [done|]. split; [by rewrite lookup_app_r, Nat.sub_diag|]. split; [by rewrite A_of_snoc|].
      intros j sj o' op' Hj Hs Hp'. destruct (decide (j <= length ls)).
      * assert (j = length ls) as -> by lia. assert (sj = s) as -> by (pose proof (state_at_end _ _ _ Hx); apply Hsa in Hs; [congruence|done]). by apply Hn in Hp'.
      * assert (j = S (length ls)) as -> by lia. rewrite <-Hlen, (state_at_end _ _ _ Hx') in Hs. injection Hs as <-. by apply Hone in Hp' as [-> _].
  - destruct (s_ops s !! o) as [[op p|?|?|]|] eqn:Eo; try done.
    destruct (op_step (guards s) (s_mem s) p spur ad) as [[[m' nx] acts]|] eqn:Estep; [|done].
    pose proof Hst as Hst0. injection Hst as <- <-.
    destruct Hcase as [[Hn _]|(o1 & op1 & j0 & Hp1 & Hj0n & Hl & Ha & Hal)]; [exfalso; apply (Hn o op); by exists p|].
    assert (j0 < length ls) as Hj0 by (by eapply lookup_lt_Some).
    assert (o = o1 /\ op = op1) as [<- <-].
    { assert (o = o1) as <- by (eapply (Hal (length ls) s o op); [lia|by eapply state_at_end|by exists p]).
      destruct Hp1 as [q Hq]. rewrite Eo in Hq. by injection Hq as -> ->. }
    assert (in_progress s o op) as Hp by (by exists p).
    assert (forall o' op', in_progress s o' op' -> o' = o /\ op' = op) as Hone.
    { intros o' op' Hq. assert (o' = o) as -> by (eapply (Hal (length ls) s o' op'); [lia|by eapply state_at_end|done]). destruct Hq as [q Hq]. rewrite Eo in Hq. by injection Hq as <- _. }
    destruct nx as [p'|r|f].
    + (* the call goes on *)
      clear Hquiet Hno. exists a. assert (forall o' r, ERet o' r ∉ map (act_event o) acts ++ []) as Hnr by (intros o' r [H|H]%elem_of_app; [by apply acts_no_ret in H|by apply elem_of_nil in H]).
      assert (history (ev1 ++ map (act_event o) acts ++ []) = history ev1) as Eh by (by rewrite (history_app _ _ Hret), hist_nil, app_nil_r by done).
      assert (calls (ev1 ++ map (act_event o) acts ++ []) = calls ev1) as Ec by (unfold calls; rewrite !omap_app; change (omap ?f (map ?g ?l)) with (calls (map g l)); by rewrite calls_acts, !app_nil_r).
      set (s' := State m' (<[o:=SRun op p']> (s_ops s)) (s_dropped s) (s_ub s)) in *.
      assert (forall o' op', in_progress s' o' op' <-> in_progress s o' op') as Hpr.
      { intros o' op'. unfold in_progress, s'. simpl. destruct (decide (o = o')) as [<-|]; [rewrite lookup_insert, Eo|by rewrite lookup_insert_ne].
        split; intros [q [= <- <-]]; eauto. }
      split.
      * intros o' op' H. apply Hpr in H. apply elem_of_app. left. by apply Hinv.
      * intros o' r [H|H]%elem_of_app; [by eapply Hret1|by apply Hnr in H].
      * rewrite Eh, A_of_snoc by done. done.
      * rewrite Eh, Ec. split; [intros Hq; exfalso; apply (Hq o op); by apply Hpr|]. intros o' op' H. eapply Hcp. by apply Hpr.
      * rewrite Hlen. right. exists o, op, j0. split; [by apply Hpr|]. split; [done|]. split; [by rewrite lookup_app_l|]. split; [rewrite A_of_snoc; [done|lia]|].
        intros j sj o' op' Hj Hs Hp'. destruct (decide (j <= length ls)); [eapply Hal; [|by apply Hsa|done]; lia|].
        assert (j = S (length ls)) as -> by lia. rewrite <-Hlen, (state_at_end _ _ _ Hx') in Hs. injection Hs as <-. apply Hpr in Hp'. by apply Hone in Hp' as [-> _].
    + (* the call returns *)
      clear Hquiet Hno. set (s' := State m' (<[o:=SRet op r]> (s_ops s)) (s_dropped s) (s_ub s)) in *.
      assert (quiescent s') as Hq'.
      { intros o' op' [q Hq]. unfold s' in Hq. simpl in Hq. destruct (decide (o = o')) as [<-|Hne]; [by rewrite lookup_insert in Hq|]. rewrite lookup_insert_ne in Hq by done.
        apply Hne. symmetry. by eapply (Hone o' op'); exists q. }
      assert (exact (A_of ls j0) op r (absm m')) as Hex.
      { change m' with (s_mem s'). eapply (lone_exact ls s ev o op r j0 spur ad s'); [done|done|cbn [step]; rewrite Eo, Estep; reflexivity| |done|done| |].
        - apply elem_of_app. right. by left.
        - intros j sj o' op' Hj Hs Hp'. left. by eapply Hal.
        - intros ->. eapply exec_canonical; [done|done| | |].
          + apply Hcanh0. rewrite (Hcp _ _ Hp). apply elem_of_app. right. by left.
          + eapply running_not_dropped; [by eapply exec_sinv|done].
          + intros o' op' [_ ->]%Hone. done. }
      assert (history (ev1 ++ map (act_event o) acts ++ [ERet o r]) = history ev1 ++ [(op, r)]) as Eh.
      { rewrite (history_app _ _ Hret). f_equal.
        unfold hist_of. rewrite omap_app. change (omap ?f (map ?g ?l)) with (hist_of (ev1 ++ map (act_event o) acts ++ [ERet o r]) (map g l)).
        rewrite hist_nil by (intros o' r' H; by apply acts_no_ret in H). simpl.
        pose proof (Hinv _ _ Hp) as Hi. rewrite call_of_app by (by eapply call_of_some).
        destruct (call_of_some _ _ _ Hi) as [op' Ho']. rewrite Ho'. assert (op' = op) as ->; [|done].
        apply call_of_inv in Ho'. eapply (inv_unique _ _ _ _ _ _ Hx); apply elem_of_app; right; done. }
      assert (calls (ev1 ++ map (act_event o) acts ++ [ERet o r]) = calls ev1) as Ec by (unfold calls; rewrite !omap_app; change (omap ?f (map ?g ?l)) with (calls (map g l)); rewrite calls_acts; simpl; by rewrite app_nil_r).
      exists (absm m'). split.
      * intros o' op' H. by apply Hq' in H.
      * intros o' r' [H|H]%elem_of_app; [by eapply Hret1|]. apply elem_of_app in H as [H|H]; [by apply acts_no_ret in H|].
        apply elem_of_list_singleton in H as [= -> ->]. exists op. apply elem_of_app. left. by apply Hinv.
      * rewrite Eh. eapply exact_run_app; [rewrite A_of_snoc by done; exact Hrun|].
        simpl. exists (absm m'). split; [|apply same_refl]. eapply exact_same; [|apply same_refl|exact Hex]. by apply same_sym.
      * rewrite Eh, Ec. split; [|intros o' op' H; by apply Hq' in H]. intros _. rewrite fmap_app. simpl. by apply Hcp with o.
      * left. split; [done|]. rewrite (A_of_end _ _ _ Hx'). apply same_refl.
    + exfalso. apply (no_failure (State m' (<[o:=SFail op f]> (s_ops s)) (s_dropped s) (s_ub s)) o op f); [|simpl; by rewrite lookup_insert].
      by eexists _, _.
  - destruct (s_ops s !! o) as [[]|] eqn:Eo; try done. injection Hst as <- <-. exists a. apply Hquiet; [intros o' r' H0'; by apply elem_of_nil in H0'|done|by apply Hno|].
    intros o' op'. unfold in_progress. simpl. destruct (decide (o = o')) as [<-|Hne]; [rewrite lookup_insert, Eo; naive_solver|by rewrite lookup_insert_ne].
  - exfalso. apply (proj2 Hsq (length ls) o); [done|]. by rewrite lookup_app_r, Nat.sub_diag.
  - destruct (m_garb _ !! n) as [[[? ?] ?]|]; [|done]. case_bool_decide; [|done]. injection Hst as <- <-. exists a.
    apply Hquiet; [intros o' r' H0'; by apply elem_of_nil in H0'|done|by apply Hno|done].
  - destruct (_ && _); [|done]. destruct (drop_rec _ _ _); injection Hst as <- <-; exists a; (apply Hquiet; [intros o' r' H0'; by apply elem_of_nil in H0'|done|by apply Hno|done]).
Qed.

(** Calls that do not overlap, after a moment at which none was in progress. *)
Theorem exact_from ls0 s0 ev0 ls1 s ev1 : exec ls0 s0 ev0 -> quiescent s0 -> run s0 ls1 = Some (s, ev1) ->
  wf_calls (ls0 ++ ls1) -> sequential_from (length ls0) (ls0 ++ ls1) -> (OIsEmpty ∈ calls ev1 -> removals_alone (ls0 ++ ls1)) ->
  exists a, exact_run (A_of ls0 (length ls0)) (history ev1) a /\
    (quiescent s -> calls ev1 = (history ev1).*1 /\ (s_dropped s = false -> forall k, has s k (a k))).
Proof.
  intros Hx0 Hq0 Hr Hw Hsq Hc. destruct (exec_hinv_from _ _ _ Hx0 Hq0 _ _ _ Hr Hw Hsq Hc) as (a & [_ _ Hrun [Hcq _] Hcase]). exists a.
  assert (A_of (ls0 ++ ls1) (length ls0) = A_of ls0 (length ls0)) as EA by (unfold A_of, state_at; by rewrite take_app, firstn_all).
  rewrite EA in Hrun. split; [done|]. intros Hq. split; [by apply Hcq|]. intros Hd k.
  destruct Hcase as [[_ Ha]|(o & op & j0 & Hp & _)]; [|by apply Hq in Hp].
  assert (exec (ls0 ++ ls1) s (ev0 ++ ev1)) as Hx by (unfold exec; rewrite run_app, Hx0, Hr; done).
  destruct (exec_full _ _ _ Hx Hw Hd) as [pos Hf]. rewrite <-(Ha k), (A_of_end _ _ _ Hx). by eapply has_abs.
Qed.

(** ** The step at which a call returns *)
Lemma ret_step ls s ev o r : exec ls s ev -> ERet o r ∈ ev -> exists n spur ad s1 s2 ev1 e op,
  ls !! n = Some (LStep o spur ad) /\ exec (take n ls) s1 ev1 /\ step s1 (LStep o spur ad) = Some (s2, e) /\ ERet o r ∈ e /\ in_progress s1 o op /\ EInv o op ∈ ev.
Proof.
  revert ls s ev. apply (exec_ind (fun ls s ev => ERet o r ∈ ev -> exists n spur ad s1 s2 ev1 e op,
    ls !! n = Some (LStep o spur ad) /\ exec (take n ls) s1 ev1 /\ step s1 (LStep o spur ad) = Some (s2, e) /\ ERet o r ∈ e /\ in_progress s1 o op /\ EInv o op ∈ ev)).
  { intros H. by apply elem_of_nil in H. }
  intros ls s ev lb s' e Hx IH Hst [H|H]%elem_of_app.
  - destruct (IH H) as (n & spur & ad & s1 & s2 & ev1 & e1 & op & H1 & H2 & H3 & H4 & H5 & H6). pose proof (lookup_lt_Some _ _ _ H1).
    exists n, spur, ad, s1, s2, ev1, e1, op. rewrite lookup_app_l by done. rewrite take_app_le by lia. repeat (split; [done|]). apply elem_of_app. by left.
  - assert (exists spur ad, lb = LStep o spur ad /\ exists op, in_progress s o op) as (spur & ad & -> & op & [p Hp]).
    { destruct lb as [o' op'|o' spur ad|o'|o'|n|]; cbn [step] in Hst.
      - destruct (s_ops s !! o') as [?|], (s_dropped s); simplify_eq. by apply elem_of_list_singleton in H.
      - destruct (s_ops s !! o') as [[op p|?|?|]|] eqn:Eo; try done. destruct (op_step _ _ _ _ _) as [[[m' nx] acts]|]; [|done]. injection Hst as <- <-.
        apply elem_of_app in H as [H|H]; [by apply acts_no_ret in H|]. destruct nx; try by apply elem_of_nil in H. apply elem_of_list_singleton in H as [= -> ->].
        exists spur, ad. split; [done|]. exists op. by exists p.
      - destruct (s_ops s !! o') as [[]|]; try done. injection Hst as <- <-. by apply elem_of_nil in H.
      - destruct (s_ops s !! o') as [[]|]; try done. injection Hst as <- <-. by apply elem_of_nil in H.
      - destruct (m_garb _ !! n) as [[[? ?] ?]|]; [|done]. case_bool_decide; [|done]. injection Hst as <- <-. by apply elem_of_nil in H.
      - destruct (_ && _); [|done]. destruct (drop_rec _ _ _); injection Hst as <- <-; by apply elem_of_nil in H. }
    exists (length ls), spur, ad, s, s', ev, e, op. rewrite lookup_app_r, Nat.sub_diag by done. rewrite take_app.
    split; [done|]. split; [done|]. split; [done|]. split; [done|]. split; [by exists p|].
    destruct (exec_called _ _ _ Hx) as [_ Hc]. destruct (Hc _ _ _ Hp) as [? _]. apply elem_of_app. by left.
Qed.

Lemma alone_take ls s ev n : exec ls s ev -> removals_alone ls -> removals_alone (take n ls).
Proof.
  intros Hx [H1 H2]. destruct (decide (n <= length ls)) as [Hn|]; [|by rewrite take_ge by lia].
  assert (forall j s1, state_at (take n ls) j = Some s1 -> exists j', state_at ls j' = Some s1 /\ (j <= n -> j' = j)) as Hs.
  { intros j s1 Hs. unfold state_at in *. rewrite take_take in Hs. exists (min j n). split; [done|lia]. }
  split.
  - intros j s1 o1 op1 o2 op2 Hj. destruct (Hs _ _ Hj) as (j' & Hj' & _). by apply (H1 j').
  - intros j s1 o op Hl Hj. destruct (Hs _ _ Hj) as (j' & Hj' & E). assert (j < length (take n ls)) as Hlt by (by eapply lookup_lt_Some).
    rewrite take_length in Hlt. rewrite (E ltac:(lia)) in Hj'. apply (H2 j); [|done]. by rewrite lookup_take in Hl by lia.
Qed.
End seqhist.
