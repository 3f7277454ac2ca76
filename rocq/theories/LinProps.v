(** * Consequences of the timeline, in terms of what callers see. *)
From Verif Require Import Model Mem Inv Safe SafeStep SafeOps SafeSys SafeProps Look LinSpec Sem SemOps Spec SysSem Lin.

Section linprops.
Context {C : Config} {HC : ConfigOk C}.
Implicit Types (m : mem) (pos : loc -> list nat) (c : cell) (v w : sh) (o : opid) (gs : gset opid) (k : Key) (op : oper) (s : state)
  (ls : list label) (ev : list event) (rd : nat -> list entry) (mu : nat -> option entry).

Lemma exec_timeline ls s ev : exec ls s ev -> wf_calls ls -> exists iv rd mu, timeline ls ev iv rd mu /\ all_done ls ev rd mu.
Proof. intros Hx Hw. destruct (exec_linv _ _ _ Hx Hw) as (pos & iv & rd & mu & _ & _ & Htl & _). eauto. Qed.

Lemma exec_full ls s ev : exec ls s ev -> wf_calls ls -> s_dropped s = false -> exists pos, full pos s.
Proof. intros Hx Hw Hd. destruct (exec_linv _ _ _ Hx Hw) as (pos & iv & rd & mu & Hf & _). eauto. Qed.

(** ** Prefixes *)
Lemma state_at_exec ls s ev j sj : exec ls s ev -> state_at ls j = Some sj -> exists evj, exec (take j ls) sj evj.
Proof.
  intros Hx. unfold state_at, exec. destruct (run init (take j ls)) as [[s1 e1]|]; [|done]. intros [= <-]. eauto.
Qed.
Lemma wf_take ls j : wf_calls ls -> wf_calls (take j ls).
Proof. intros Hw o op Hin. apply (Hw o op). rewrite <-(take_drop j ls). apply elem_of_app. by left. Qed.

Lemma state_at_full ls s ev j sj : exec ls s ev -> wf_calls ls -> state_at ls j = Some sj -> s_dropped sj = false -> exists pos, full pos sj.
Proof.
  intros Hx Hw Hj Hd. destruct (state_at_exec _ _ _ _ _ Hx Hj) as [evj Hxj]. eapply exec_full; [exact Hxj|by apply wf_take|done].
Qed.

Lemma state_at_some ls s ev j : exec ls s ev -> j <= length ls -> exists sj, state_at ls j = Some sj.
Proof.
  intros Hx Hj. unfold exec in Hx. rewrite <-(take_drop j ls), run_app in Hx. unfold state_at.
  destruct (run init (take j ls)) as [[s1 e1]|]; [by exists s1|done].
Qed.

Lemma state_at_step ls s ev j lb sj sj' : exec ls s ev -> ls !! j = Some lb -> state_at ls j = Some sj -> state_at ls (S j) = Some sj' ->
  exists e, step sj lb = Some (sj', e).
Proof.
  intros Hx Hl Hj Hj'. unfold state_at in *. rewrite (take_S_r ls j lb Hl), run_app in Hj'.
  destruct (run init (take j ls)) as [[s1 e1]|]; [|done]. injection Hj as ->. simpl in Hj'.
  destruct (step sj lb) as [[s2 e2]|]; [|done]. injection Hj' as ->. eauto.
Qed.

Lemma lstep_not_dropped s o spur a s' e : sinv s -> step s (LStep o spur a) = Some (s', e) -> s_dropped s = false /\ s_dropped s' = false.
Proof.
  intros Hi Hst. cbn [step] in Hst. destruct (s_ops s !! o) as [[op p|?|?|]|] eqn:Eo; try done.
  assert (o ∈ guards s) as Hg by (apply elem_of_guards; eauto).
  assert (s_dropped s = false) as Hd. { destruct (s_dropped s) eqn:Ed; [|done]. destruct Hi as [_ Hi]. rewrite Ed in Hi. rewrite (di_guards _ Hi) in Hg. by apply elem_of_empty in Hg. }
  destruct (op_step _ _ _ _ _) as [[[? ?] ?]|]; [|done]. by injection Hst as <- <-.
Qed.

Lemma running_not_dropped s o op p : sinv s -> s_ops s !! o = Some (SRun op p) -> s_dropped s = false.
Proof.
  intros Hi Ho. assert (o ∈ guards s) as Hg by (apply elem_of_guards; eauto).
  destruct (s_dropped s) eqn:Ed; [|done]. destruct Hi as [_ Hi]. rewrite Ed in Hi. rewrite (di_guards _ Hi) in Hg. by apply elem_of_empty in Hg.
Qed.

(** Contents at time [j]. *)
Lemma has_A ls s ev j sj k x : exec ls s ev -> wf_calls ls -> state_at ls j = Some sj -> s_dropped sj = false -> has sj k x <-> A_of ls j k = x.
Proof.
  intros Hx Hw Hj Hd. destruct (state_at_full _ _ _ _ _ Hx Hw Hj Hd) as [pos Hf]. unfold A_of. rewrite Hj. by eapply has_abs.
Qed.

Lemma A_cong ls j k k' : keqb k k' = true -> A_of ls j k = A_of ls j k'.
Proof. intros E. unfold A_of. destruct (state_at ls j); [by apply absm_cong|done]. Qed.

Lemma running_prog ls j o op : running_at ls j o op <-> exists s, state_at ls j = Some s /\ in_progress s o op.
Proof. unfold running_at, in_progress. naive_solver. Qed.

Lemma run_has_A ls s ev j sj o op k x : exec ls s ev -> wf_calls ls -> state_at ls j = Some sj -> in_progress sj o op -> has sj k x <-> A_of ls j k = x.
Proof.
  intros Hx Hw Hj [p Hp]. eapply has_A; try done. destruct (state_at_exec _ _ _ _ _ Hx Hj) as [evj Hxj]. eapply running_not_dropped; [by eapply exec_sinv|done].
Qed.

Lemma step_at_A ls s ev j o s1 s2 : exec ls s ev -> wf_calls ls -> step_at ls j o s1 s2 ->
  (forall k x, has s1 k x <-> A_of ls j k = x) /\ (forall k x, has s2 k x <-> A_of ls (S j) k = x).
Proof.
  intros Hx Hw ((spur & a & Hl) & H1 & H2). destruct (state_at_step _ _ _ _ _ _ _ Hx Hl H1 H2) as [e Hst].
  destruct (state_at_exec _ _ _ _ _ Hx H1) as [ev1 Hx1]. destruct (lstep_not_dropped _ _ _ _ _ _ (exec_sinv _ _ _ Hx1) Hst) as [Hd1 Hd2].
  split; intros k x; by eapply has_A.
Qed.

(** ** Each call id is used once *)
Lemma inv_unique ls s ev o op op' : exec ls s ev -> EInv o op ∈ ev -> EInv o op' ∈ ev -> op = op'.
Proof.
  intros Hx. revert ls s ev Hx op op'. apply (exec_ind (fun ls s ev => forall op op', EInv o op ∈ ev -> EInv o op' ∈ ev -> op = op')).
  { intros op op' H. by apply elem_of_nil in H. }
  intros ls s ev lb s' e Hx IH Hst op op' H1 H2. pose proof (exec_events _ _ _ Hx) as He.
  assert (forall op, EInv o op ∈ ev ++ e -> EInv o op ∈ ev \/ (s_ops s !! o = None /\ e = [EInv o op])) as Hc.
  { intros op2 [?|Hin]%elem_of_app; [by left|]. right. destruct lb as [o' op1|o' spur a|o'|o'|n|]; cbn [step] in Hst.
    - destruct (s_ops s !! o') eqn:Eo, (s_dropped s); simplify_eq. apply elem_of_list_singleton in Hin. injection Hin as -> ->. done.
    - destruct (s_ops s !! o') as [[]|]; try done. destruct (op_step _ _ _ _ _) as [[[? nx] ?]|]; [|done]. injection Hst as <- <-.
      apply elem_of_app in Hin as [Hin|Hin]; [by apply acts_no_inv in Hin|]. destruct nx; try by apply elem_of_nil in Hin. by apply elem_of_list_singleton in Hin.
    - destruct (s_ops s !! o') as [[]|]; try done. injection Hst as <- <-. by apply elem_of_nil in Hin.
    - destruct (s_ops s !! o') as [[]|]; try done. injection Hst as <- <-. by apply elem_of_nil in Hin.
    - destruct (m_garb _ !! n) as [[[? ?] ?]|]; [|done]. case_bool_decide; [|done]. injection Hst as <- <-. by apply elem_of_nil in Hin.
    - destruct (_ && _); [|done]. destruct (drop_rec _ _ _); injection Hst as <- <-; by apply elem_of_nil in Hin. }
  destruct (Hc _ H1) as [H1'|[N1 E1]], (Hc _ H2) as [H2'|[N2 E2]].
  - by apply IH.
  - apply He in H1'. simpl in H1'. by rewrite N2 in H1'.
  - apply He in H2'. simpl in H2'. by rewrite N1 in H2'.
  - congruence.
Qed.

Lemma placed_unique rd mu n e e' t t' : NoDup (e_id <$> lin rd mu n) -> placed rd mu n e t -> placed rd mu n e' t' -> e_id e = e_id e' -> e = e'.
Proof.
  intros Hnd Hp Hp' Hid. assert (e ∈ lin rd mu n) as H1 by (apply elem_lin; eauto). assert (e' ∈ lin rd mu n) as H2 by (apply elem_lin; eauto).
  apply elem_of_list_lookup in H1 as [i Hi], H2 as [i' Hi'].
  assert (i = i') as <-; [|congruence]. eapply NoDup_lookup; [exact Hnd| |]; rewrite list_lookup_fmap; [by rewrite Hi|]. rewrite Hi'. simpl. by rewrite Hid.
Qed.

Lemma nodup_place rd mu n e e' i j : NoDup (e_id <$> lin rd mu n) -> i < n -> j < n -> mu i = Some e -> mu j = Some e' -> e_id e = e_id e' -> i = j.
Proof.
  intros Hnd. assert (forall i j e e', i < j -> j < n -> mu i = Some e -> mu j = Some e' -> e_id e <> e_id e') as H.
  { clear i j e e'. intros i j e e' Hij Hj Hi Hj' Hid.
    assert (bef (lin rd mu n) e e') as (l1 & l2 & E & H1 & H2).
    { eapply (placed_bef _ _ _ _ (2 * i + 1) _ (2 * j + 1)); [right; exists i; split; [lia|done]|right; exists j; split; [lia|done]|lia]. }
    rewrite E, fmap_app in Hnd. apply NoDup_app in Hnd as (_ & Hnd & _). apply (Hnd (e_id e)); [by apply elem_of_list_fmap_1|rewrite Hid; by apply elem_of_list_fmap_1]. }
  intros Hi Hj He He' Hid. destruct (lt_eq_lt_dec i j) as [[Hlt| ->]|Hlt]; [exfalso; by eapply (H i j)|done|exfalso; by eapply (H j i)].
Qed.

(** ** Linearizability *)
Theorem linearizable ls s ev : exec ls s ev -> wf_calls ls ->
  exists l a, linearizes l ev a /\ (s_dropped s = false -> forall k, has s k (a k)).
Proof.
  intros Hx Hw. destruct (exec_timeline _ _ _ Hx Hw) as (iv & rd & mu & Htl & _).
  exists (lin rd mu (length ls)), (A_of ls (length ls)). split.
  - split.
    + apply (tl_nodup _ _ _ _ _ Htl).
    + intros e [t Ht]%elem_lin. by apply (tl_inv _ _ _ _ _ Htl) in Ht as [? _].
    + intros o r v Hr Hv. destruct (tl_ret _ _ _ _ _ Htl _ _ _ Hr Hv) as (op & t & Hp). exists op. apply elem_lin. eauto.
    + eapply spec_run_same_l; [apply same_sym, (tl_zero _ _ _ _ _ Htl)|]. apply legal_run, (tl_legal _ _ _ _ _ Htl).
    + intros o1 o2 (e1 & -> & [t1 H1]%elem_lin)%elem_of_list_fmap (e2 & -> & [t2 H2]%elem_lin)%elem_of_list_fmap Hpre.
      pose proof (tl_prec _ _ _ _ _ Htl _ _ Hpre _ _ H1 eq_refl). destruct (tl_inv _ _ _ _ _ Htl _ _ H2) as [_ ?].
      destruct (placed_bef _ _ _ _ _ _ _ H1 H2) as (l1 & l2 & E & ? & ?); [lia|]. exists l1, l2, e1, e2. done.
  - intros Hd k. destruct (exec_full _ _ _ Hx Hw Hd) as [pos Hf]. rewrite (A_of_end _ _ _ Hx). by eapply has_abs.
Qed.

(** ** When a call takes effect *)
Inductive instant ls o op (x : aret) : Prop :=
| inst_step j s1 s2 : step_at ls j o s1 s2 -> in_progress s1 o op -> spec_step (A_of ls j) op x (A_of ls (S j)) -> instant ls o op x
| inst_read j s1 k : state_at ls j = Some s1 -> in_progress s1 o op -> spec_step (A_of ls j) op x (A_of ls j) -> op = OGet k \/ (op = ORemove k /\ x = AOpt None) -> instant ls o op x.

Lemma placed_instant ls s ev iv rd mu e t : exec ls s ev -> timeline ls ev iv rd mu -> placed rd mu (length ls) e t -> instant ls (e_id e) (e_op e) (e_ret e).
Proof.
  intros Hx Htl Hp. pose proof (tl_legal _ _ _ _ _ Htl) as [L1 L2]. destruct Hp as [(j & Hj & -> & He)|(j & Hj & -> & He)].
  - destruct (tl_rd _ _ _ _ _ Htl _ _ Hj He) as [(s1 & Hs1 & Hpr)%running_prog [k Hk]]. eapply inst_read; eauto.
  - destruct (tl_mu _ _ _ _ _ Htl _ _ Hj He) as [(s1 & Hs1 & Hpr)%running_prog Hl].
    destruct (state_at_some _ _ _ (S j) Hx) as [s2 Hs2]; [lia|]. eapply (inst_step _ _ _ _ j s1 s2); [done|done|]. specialize (L2 j Hj). by rewrite He in L2.
Qed.

Theorem call_instant ls s ev o op r x : exec ls s ev -> wf_calls ls -> EInv o op ∈ ev -> ERet o r ∈ ev -> val_of r = Some x -> instant ls o op x.
Proof.
  intros Hx Hw Hi Hr Hv. destruct (exec_timeline _ _ _ Hx Hw) as (iv & rd & mu & Htl & _).
  destruct (tl_ret _ _ _ _ _ Htl _ _ _ Hr Hv) as (op' & t & Hp). destruct (tl_inv _ _ _ _ _ Htl _ _ Hp) as [Hi' _]. simpl in Hi'.
  assert (op' = op) as -> by (by eapply inv_unique). apply (placed_instant _ _ _ _ _ _ _ _ Hx Htl Hp).
Qed.

(** ** Every step of a call leaves the contents alone, except at most one, which has the effect of the whole call *)
Theorem all_or_nothing ls s ev o : exec ls s ev -> wf_calls ls ->
  (forall j spur a, ls !! j = Some (LStep o spur a) -> same (A_of ls j) (A_of ls (S j))) \/
  exists j0 op x s1 s2, step_at ls j0 o s1 s2 /\ in_progress s1 o op /\ EInv o op ∈ ev /\ spec_step (A_of ls j0) op x (A_of ls (S j0)) /\
    (forall r y, ERet o r ∈ ev -> val_of r = Some y -> y = x) /\
    forall j spur a, ls !! j = Some (LStep o spur a) -> j <> j0 -> same (A_of ls j) (A_of ls (S j)).
Proof.
  intros Hx Hw. destruct (exec_timeline _ _ _ Hx Hw) as (iv & rd & mu & Htl & _). pose proof (tl_legal _ _ _ _ _ Htl) as [L1 L2].
  assert (forall j spur a, ls !! j = Some (LStep o spur a) -> (forall e, mu j = Some e -> e_id e <> o) -> same (A_of ls j) (A_of ls (S j))) as Hsame.
  { intros j spur a Hl Hn. assert (j < length ls) as Hj by (by eapply lookup_lt_Some). specialize (L2 j Hj). destruct (mu j) as [e|] eqn:Em; [|done].
    exfalso. apply (Hn e eq_refl). destruct (tl_mu _ _ _ _ _ Htl _ _ Hj Em) as (_ & spur' & a' & Hl'). congruence. }
  assert ((forall j e, j < length ls -> mu j = Some e -> e_id e <> o) \/ exists j e, j < length ls /\ mu j = Some e /\ e_id e = o) as [Hno|(j0 & e0 & Hj0 & He0 & Hid)].
  { generalize (length ls). intros n. induction n as [|n IH]; [left; intros; lia|]. destruct IH as [IH|(j & e & ? & ?)]; [|right; exists j, e; split; [lia|done]].
    destruct (mu n) as [e|] eqn:Em.
    - destruct (decide (e_id e = o)) as [E|E]; [right; exists n, e; split; [lia|done]|]. left. intros j e' Hj He'. destruct (decide (j = n)) as [->|]; [congruence|]. eapply IH; [|done]. lia.
    - left. intros j e' Hj He'. destruct (decide (j = n)) as [->|]; [congruence|]. eapply IH; [|done]. lia. }
  - left. intros j spur a Hl. eapply Hsame; [done|]. intros e He. eapply Hno; [|done]. by eapply lookup_lt_Some.
  - right. destruct (tl_mu _ _ _ _ _ Htl _ _ Hj0 He0) as [(s1 & Hs1 & Hpr)%running_prog Hl]. rewrite Hid in Hl, Hpr.
    destruct (state_at_some _ _ _ (S j0) Hx) as [s2 Hs2]; [lia|].
    assert (placed rd mu (length ls) e0 (2 * j0 + 1)) as Hp by (right; exists j0; done).
    exists j0, (e_op e0), (e_ret e0), s1, s2. split; [done|]. split; [done|]. split; [rewrite <-Hid; by apply (tl_inv _ _ _ _ _ Htl) in Hp as [? _]|].
    split; [specialize (L2 j0 Hj0); by rewrite He0 in L2|]. split.
    + intros r y Hr Hv. destruct (tl_ret _ _ _ _ _ Htl _ _ _ Hr Hv) as (op' & t & Hp').
      rewrite (placed_unique _ _ _ _ _ _ _ (tl_nodup _ _ _ _ _ Htl) Hp Hp') by done. done.
    + intros j spur a Hl' Hne. eapply Hsame; [done|]. intros e He Hid'. apply Hne.
      eapply nodup_place; [apply (tl_nodup _ _ _ _ _ Htl)|by eapply lookup_lt_Some|exact Hj0|done|done|congruence].
Qed.

(** ** Untouched keys *)
Lemma spec_step_untouched a op x a' k : spec_step a op x a' -> op_wf op -> ~ touches op k -> a' k = a k.
Proof.
  unfold spec_step, touches, put, del, same. intros Hs Hw Ht. destruct op as [p|k' f|k'|k'| |], x as [x|[x|x]|x]; try done.
  - destruct Hs as [_ ->]. by destruct (keqb (keyof p) k).
  - destruct Hs as [_ ->]. done.
  - destruct Hs as (_ & -> & ->). simpl in Hw. destruct (keqb (keyof (f k')) k) eqn:E; [|done]. exfalso. apply Ht.
    rewrite <-E. rewrite keqb_sym, (keqb_sym (keyof (f k'))). symmetry. by apply keqb_cong.
  - destruct Hs as [_ ->]. done.
  - destruct Hs as [_ ->]. by destruct (keqb k' k).
  - destruct Hs as [_ ->]. done.
Qed.

Lemma inv_wf ls s ev o op : exec ls s ev -> wf_calls ls -> EInv o op ∈ ev -> op_wf op.
Proof.
  intros Hx. revert ls s ev Hx. apply (exec_ind (fun ls s ev => wf_calls ls -> EInv o op ∈ ev -> op_wf op)).
  { intros _ H. by apply elem_of_nil in H. }
  intros ls s ev lb s' e Hx IH Hst Hw [Hin|Hin]%elem_of_app.
  { apply IH; [|done]. intros o' op' H. apply (Hw o' op'). apply elem_of_app. by left. }
  apply (Hw o op). apply elem_of_app. right. apply elem_of_list_singleton.
  destruct lb as [o' op1|o' spur a|o'|o'|n|]; cbn [step] in Hst.
  - destruct (s_ops s !! o') eqn:Eo, (s_dropped s); simplify_eq. apply elem_of_list_singleton in Hin. by injection Hin as -> ->.
  - destruct (s_ops s !! o') as [[]|]; try done. destruct (op_step _ _ _ _ _) as [[[? nx] ?]|]; [|done]. injection Hst as <- <-.
    apply elem_of_app in Hin as [Hin|Hin]; [by apply acts_no_inv in Hin|]. destruct nx; try by apply elem_of_nil in Hin. by apply elem_of_list_singleton in Hin.
  - destruct (s_ops s !! o') as [[]|]; try done. injection Hst as <- <-. by apply elem_of_nil in Hin.
  - destruct (s_ops s !! o') as [[]|]; try done. injection Hst as <- <-. by apply elem_of_nil in Hin.
  - destruct (m_garb _ !! n) as [[[? ?] ?]|]; [|done]. case_bool_decide; [|done]. injection Hst as <- <-. by apply elem_of_nil in Hin.
  - destruct (_ && _); [|done]. destruct (drop_rec _ _ _); injection Hst as <- <-; by apply elem_of_nil in Hin.
Qed.

Lemma mu_untouched ls s ev iv rd mu j k : exec ls s ev -> wf_calls ls -> timeline ls ev iv rd mu -> j < length ls ->
  (forall e, mu j = Some e -> ~ touches (e_op e) k) -> A_of ls (S j) k = A_of ls j k.
Proof.
  intros Hx Hw Htl Hj Hn. pose proof (tl_legal _ _ _ _ _ Htl) as [L1 L2]. specialize (L2 j Hj). destruct (mu j) as [e|] eqn:Em; [|apply L2].
  eapply spec_step_untouched; [exact L2| |by apply Hn]. assert (placed rd mu (length ls) e (2 * j + 1)) as Hp by (right; exists j; done).
  apply (tl_inv _ _ _ _ _ Htl) in Hp as [Hi _]. by eapply inv_wf.
Qed.

Lemma step_dropped_mono s lb s' e : step s lb = Some (s', e) -> s_dropped s = true -> s_dropped s' = true.
Proof.
  intros Hst Hd. destruct lb as [o op1|o spur a|o|o|n|]; cbn [step] in Hst.
  - destruct (s_ops s !! o), (s_dropped s) eqn:E; simplify_eq.
  - destruct (s_ops s !! o) as [[]|]; try done. destruct (op_step _ _ _ _ _) as [[[? nx] ?]|]; [|done]. by injection Hst as <- <-.
  - destruct (s_ops s !! o) as [[]|]; try done. by injection Hst as <- <-.
  - destruct (s_ops s !! o) as [[]|]; try done. by injection Hst as <- <-.
  - destruct (m_garb _ !! n) as [[[? ?] ?]|]; [|done]. case_bool_decide; [|done]. by injection Hst as <- <-.
  - destruct (_ && _); [|done]. destruct (drop_rec _ _ _); by injection Hst as <- <-.
Qed.

Lemma dropped_mono ls s ev j1 j2 s1 s2 : exec ls s ev -> j1 <= j2 -> j2 <= length ls -> state_at ls j1 = Some s1 -> state_at ls j2 = Some s2 -> s_dropped s2 = false -> s_dropped s1 = false.
Proof.
  intros Hx Hj Hl H1. revert s2. induction Hj as [|j2 Hj IH]; intros s2 H2 Hd; [by simplify_eq|].
  destruct (state_at_some _ _ _ j2 Hx) as [s2' H2']; [lia|]. apply (IH ltac:(lia) s2' H2').
  destruct (lookup_lt_is_Some_2 ls j2) as [lb Hlb]; [lia|]. destruct (state_at_step _ _ _ _ _ _ _ Hx Hlb H2' H2) as [e He].
  destruct (s_dropped s2') eqn:E; [|done]. by rewrite (step_dropped_mono _ _ _ _ He E) in Hd.
Qed.

Lemma A_untouched ls s ev j1 j2 k : exec ls s ev -> wf_calls ls -> j1 <= j2 -> j2 <= length ls ->
  (forall j sj o op, j1 <= j < j2 -> state_at ls j = Some sj -> in_progress sj o op -> ~ touches op k) -> A_of ls j2 k = A_of ls j1 k.
Proof.
  intros Hx Hw Hj Hl Hn. destruct (exec_timeline _ _ _ Hx Hw) as (iv & rd & mu & Htl & _).
  induction Hj as [|j2 Hj IH]; [done|]. rewrite <-IH; [|lia|intros; eapply Hn; [|done..]; lia].
  eapply mu_untouched; [done|done|done|lia|]. intros e He. destruct (tl_mu _ _ _ _ _ Htl j2 e) as [(s1 & Hs1 & Hpr)%running_prog _]; [lia|done|].
  eapply Hn; [|done..]. lia.
Qed.

Theorem untouched ls s ev j1 j2 s1 s2 k x : exec ls s ev -> wf_calls ls -> j1 <= j2 -> j2 <= length ls -> state_at ls j1 = Some s1 -> state_at ls j2 = Some s2 -> s_dropped s2 = false ->
  (forall j sj o op, j1 <= j < j2 -> state_at ls j = Some sj -> in_progress sj o op -> ~ touches op k) -> has s2 k x <-> has s1 k x.
Proof.
  intros Hx Hw Hj Hl H1 H2 Hd Hn. rewrite (has_A _ _ _ _ _ _ _ Hx Hw H2 Hd), (has_A _ _ _ _ _ _ _ Hx Hw H1 (dropped_mono _ _ _ _ _ _ _ Hx Hj Hl H1 H2 Hd)).
  by rewrite (A_untouched _ _ _ _ _ _ Hx Hw Hj Hl Hn).
Qed.

(** ** Where elements come from and who takes them out *)
Definition is_put (e : entry) (p : Pl) : Prop :=
  e_op e = OInsert p \/ exists k f, e_op e = OGetOrInsert k f /\ e_ret e = AEon (New p) /\ p = f k.
Definition is_rem (e : entry) k : Prop := exists k' p, e_op e = ORemove k' /\ e_ret e = AOpt (Some p) /\ keqb k' k = true.
(** Entry [e] changes key [k]. *)
Definition changes (e : entry) k : Prop := (exists p, is_put e p /\ keqb (keyof p) k = true) \/ is_rem e k.

Lemma spec_step_source a e a' k p : spec_step a (e_op e) (e_ret e) a' -> a' k = Some p ->
  (is_put e p /\ keqb (keyof p) k = true) \/ (a k = Some p /\ ~ changes e k).
Proof.
  destruct e as [o op x]. simpl. unfold spec_step, put, del, same, changes, is_put, is_rem. simpl. intros Hs Hp.
  assert (forall P : Prop, ~ P -> a k = Some p -> P \/ a k = Some p /\ ~ P) as Htriv by tauto. clear Htriv.
  assert (forall A B : Prop, ~ A -> ~ B -> ~ (A \/ B)) as Hor by tauto.
  destruct op as [q|k' f|k'|k'| |], x as [x|[x|x]|x]; try done.
  - destruct Hs as [_ Hs]. rewrite Hs in Hp. destruct (keqb (keyof q) k) eqn:E; [left; split; [by simplify_eq; left|by simplify_eq]|]. right. split; [done|]. apply Hor.
    + intros (q' & [E'|(? & ? & E' & _)] & Hk); [|done]. injection E' as <-. congruence.
    + intros (? & ? & E' & _); done.
  - destruct Hs as [_ Hs]. rewrite Hs in Hp. right. split; [done|]. apply Hor.
    + intros (q' & [E'|(? & ? & _ & E' & _)] & Hk); done.
    + intros (? & ? & E' & _); done.
  - destruct Hs as (_ & -> & Hs). rewrite Hs in Hp. destruct (keqb (keyof (f k')) k) eqn:E; [left; simplify_eq; split; [right; by exists k', f|done]|]. right. split; [done|]. apply Hor.
    + intros (q' & [E'|(? & ? & _ & E' & _)] & Hk); [done|]. injection E' as <-. congruence.
    + intros (? & ? & E' & _); done.
  - destruct Hs as [_ Hs]. rewrite Hs in Hp. right. split; [done|]. apply Hor.
    + intros (q' & [E'|(? & ? & E' & _)] & Hk); done.
    + intros (? & ? & E' & _); done.
  - destruct Hs as [_ Hs]. rewrite Hs in Hp. destruct (keqb k' k) eqn:E; [done|]. right. split; [done|]. apply Hor.
    + intros (q' & [E'|(? & ? & E' & _)] & Hk); done.
    + intros (? & ? & E' & _ & Hk). injection E' as <-. congruence.
  - destruct Hs as [_ Hs]. rewrite Hs in Hp. right. split; [done|]. apply Hor.
    + intros (q' & [E'|(? & ? & E' & _)] & Hk); done.
    + intros (? & ? & E' & _); done.
Qed.

Lemma source ls s ev iv rd mu j k p : exec ls s ev -> timeline ls ev iv rd mu -> j <= length ls -> A_of ls j k = Some p ->
  exists i e, i < j /\ mu i = Some e /\ is_put e p /\ keqb (keyof p) k = true /\ forall i' e', i < i' < j -> mu i' = Some e' -> ~ changes e' k.
Proof.
  intros Hx Htl. pose proof (tl_legal _ _ _ _ _ Htl) as [L1 L2]. induction j as [|j IH]; intros Hj Ha.
  - rewrite (tl_zero _ _ _ _ _ Htl k) in Ha. done.
  - specialize (L2 j ltac:(lia)). destruct (mu j) as [e|] eqn:Em.
    + destruct (spec_step_source _ _ _ _ _ L2 Ha) as [[Hp Hk]|[Ha' Hc]].
      * exists j, e. split; [lia|]. split; [done|]. split; [done|]. split; [done|]. intros; lia.
      * destruct (IH ltac:(lia) Ha') as (i & e' & Hi & Hm & Hp & Hk & Hb). exists i, e'. split; [lia|]. split; [done|]. split; [done|]. split; [done|].
        intros i' e2 Hi' He2. destruct (decide (i' = j)) as [->|]; [congruence|]. eapply Hb; [|done]. lia.
    + rewrite (L2 k) in Ha. destruct (IH ltac:(lia) Ha) as (i & e' & Hi & Hm & Hp & Hk & Hb). exists i, e'. split; [lia|]. split; [done|]. split; [done|]. split; [done|].
      intros i' e2 Hi' He2. destruct (decide (i' = j)) as [->|]; [congruence|]. eapply Hb; [|done]. lia.
Qed.

Lemma placed_put ls s ev iv rd mu e t p : timeline ls ev iv rd mu -> all_done ls ev rd mu -> placed rd mu (length ls) e t -> is_put e p -> put_in ev (e_id e) p.
Proof.
  intros Htl Had Hp Hput. destruct (tl_inv _ _ _ _ _ Htl _ _ Hp) as [Hi _]. destruct Hput as [E|(k & f & E & Er & Ef)].
  - left. by rewrite <-E.
  - right. destruct (proj1 Had _ _ Hp) as [[k' Hk']|(r & Hr & Hv)]; [congruence|]. rewrite Er in Hv. destruct r as [|[x|x]| |]; simpl in Hv; try done. injection Hv as Hv.
    exists k, f, x. rewrite <-E. done.
Qed.

(** What is in the map was put there by a call. *)
Theorem stored_was_put ls s ev k p : exec ls s ev -> wf_calls ls -> s_dropped s = false -> maps s k p -> exists o, put_in ev o p.
Proof.
  intros Hx Hw Hd Hm. destruct (exec_timeline _ _ _ Hx Hw) as (iv & rd & mu & Htl & Had).
  pose proof (proj1 (has_A _ _ _ _ _ k (Some p) Hx Hw (state_at_end _ _ _ Hx) Hd) Hm) as Ha.
  destruct (source _ _ _ _ _ _ _ _ _ Hx Htl (le_n _) Ha) as (i & e & Hi & Hmu & Hp & _). exists (e_id e).
  eapply placed_put; [done..| |done]. right. exists i. done.
Qed.

(** Every element that is taken out was put in, and each putting-in accounts for at most one taking-out. *)
Theorem one_taker ls s ev : exec ls s ev -> wf_calls ls ->
  exists R : opid -> opid -> Prop,
    (forall o p, took_out ev o p -> exists o', R o o' /\ put_in ev o' p) /\
    (forall o1 o2 p1 p2 o', took_out ev o1 p1 -> took_out ev o2 p2 -> R o1 o' -> R o2 o' -> o1 = o2).
Proof.
  intros Hx Hw. destruct (exec_timeline _ _ _ Hx Hw) as (iv & rd & mu & Htl & Had). pose proof (tl_legal _ _ _ _ _ Htl) as [L1 L2].
  (* [o] takes out at step [j] what was put in at step [i] *)
  assert (forall o p, took_out ev o p -> exists j e, j < length ls /\ mu j = Some e /\ e_id e = o /\ A_of ls j (keyof p) = Some p /\ changes e (keyof p)) as Htk.
  { intros o p (x & Hr & Hv & Hop). destruct (tl_ret _ _ _ _ _ Htl _ _ _ Hr eq_refl) as (op & t & Hp). simpl in Hp. rewrite Hv in Hp.
    destruct (tl_inv _ _ _ _ _ Htl _ _ Hp) as [Hi _]. simpl in Hi.
    assert ((exists k, op = ORemove k) \/ exists q, op = OInsert q) as Hop'.
    { destruct Hop as [[k Hk]|[q Hq]]; [left; exists k|right; exists q]; by eapply inv_unique. }
    destruct Hp as [(j & Hj & _ & He)|(j & Hj & _ & He)].
    { destruct (tl_rd _ _ _ _ _ Htl _ _ Hj He) as [_ [k [E|[E1 E2]]]]; simpl in *; destruct Hop' as [[? ->]|[? ->]]; done. }
    exists j, (Entry o op (AOpt (Some p))). split; [done|]. split; [done|]. split; [done|]. specialize (L2 j Hj). rewrite He in L2. simpl in L2.
    assert (forall k, A_of ls j k = Some p -> keqb (keyof p) k = true) as Hkey.
    { intros k Hk. by destruct (source _ _ _ _ _ _ _ _ _ Hx Htl (Nat.lt_le_incl _ _ Hj) Hk) as (i & e' & _ & _ & _ & Hk' & _). }
    destruct Hop' as [[k ->]|[q ->]]; simpl in L2; destruct L2 as [Ea Hs].
    - pose proof (Hkey k (eq_sym Ea)) as Hk. rewrite (A_cong ls j (keyof p) k Hk). split; [done|]. right. exists k, p. split; [done|]. split; [done|]. by rewrite keqb_sym.
    - pose proof (Hkey _ (eq_sym Ea)) as Hk. rewrite (A_cong ls j (keyof p) _ Hk). split; [done|]. left. exists q. split; [by left|]. by rewrite keqb_sym. }
  exists (fun o o' => exists p j e i e', j < length ls /\ mu j = Some e /\ e_id e = o /\ i < j /\ mu i = Some e' /\ e_id e' = o' /\ is_put e' p /\ changes e (keyof p) /\
     (forall i' e2, i < i' < j -> mu i' = Some e2 -> ~ changes e2 (keyof p)) /\ forall p', is_put e' p' -> p' = p).
  split.
  - intros o p Ht. destruct (Htk o p Ht) as (j & e & Hj & Hm & Hid & Ha & Hc).
    destruct (source _ _ _ _ _ _ _ _ _ Hx Htl (Nat.lt_le_incl _ _ Hj) Ha) as (i & e' & Hi & Hm' & Hp & _ & Hb).
    exists (e_id e'). split.
    + exists p, j, e, i, e'. do 9 (split; [done|]). intros p' Hp'. destruct Hp as [E1|(? & ? & E1 & E2 & _)], Hp' as [E1'|(? & ? & E1' & E2' & _)]; congruence.
    + eapply placed_put; [done..| |done]. right. exists i. split; [lia|done].
  - intros o1 o2 p1 p2 o' _ _ (q1 & j1 & e1 & i1 & f1 & Hj1 & Hm1 & Hid1 & Hi1 & Hf1 & Ho1 & Hp1 & Hc1 & Hb1 & Hu1) (q2 & j2 & e2 & i2 & f2 & Hj2 & Hm2 & Hid2 & Hi2 & Hf2 & Ho2 & Hp2 & Hc2 & Hb2 & Hu2).
    assert (i1 = i2) as <-. { eapply nodup_place; [apply (tl_nodup _ _ _ _ _ Htl)| | |exact Hf1|exact Hf2|congruence]; lia. }
    assert (f1 = f2) as <- by congruence. assert (q2 = q1) as -> by (by apply Hu1).
    destruct (lt_eq_lt_dec j1 j2) as [[Hlt| ->]|Hlt].
    + exfalso. eapply Hb2; [|exact Hm1|exact Hc1]. lia.
    + congruence.
    + exfalso. eapply Hb1; [|exact Hm2|exact Hc2]. lia.
Qed.

End linprops.
