(** * Linearization: every operation is given a point in time at which it takes effect. *)
From Verif Require Import Model Mem Inv Safe SafeStep SafeOps SafeSys SafeProps Look LinSpec Sem SemOps Spec SysSem.

Section lin.
Context {C : Config} {HC : ConfigOk C}.
Implicit Types (m : mem) (pos : loc -> list nat) (c : cell) (v w : sh) (o : opid) (gs : gset opid) (k : Key) (op : oper) (s : state)
  (ls : list label) (ev : list event) (rd : nat -> list entry) (mu : nat -> option entry) (A : nat -> amap).

(** ** Sequences of timed entries *)
Definition olist {X} (x : option X) : list X := match x with Some y => [y] | None => [] end.

(** Entries that take effect before time [n]: the readers of each instant, then what changes it. *)
Fixpoint lin_to rd mu (n : nat) : list entry :=
  match n with 0 => [] | S n => lin_to rd mu n ++ rd n ++ olist (mu n) end.
Definition lin rd mu n : list entry := lin_to rd mu n ++ rd n.

(** Entry [e] takes effect at time [t]. *)
Definition placed rd mu n (e : entry) (t : nat) : Prop :=
  (exists j, j <= n /\ t = 2 * j /\ e ∈ rd j) \/ (exists j, j < n /\ t = 2 * j + 1 /\ mu j = Some e).

Lemma elem_olist {X} (x : option X) y : y ∈ olist x <-> x = Some y.
Proof. destruct x; simpl; [rewrite elem_of_list_singleton; naive_solver|]. split; [by intros ?%elem_of_nil|done]. Qed.

Lemma elem_lin_to rd mu n e : e ∈ lin_to rd mu n <-> exists j, j < n /\ (e ∈ rd j \/ mu j = Some e).
Proof.
  induction n as [|n IH]; simpl.
  - split; [by intros ?%elem_of_nil|]. intros (j & ? & _). lia.
  - rewrite !elem_of_app, IH, elem_olist. split.
    + intros [(j & ? & H)|H]; [exists j; split; [lia|done]|]. exists n. split; [lia|done].
    + intros (j & Hj & H). destruct (decide (j = n)) as [->|]; [by right|]. left. exists j. split; [lia|done].
Qed.

Lemma elem_lin rd mu n e : e ∈ lin rd mu n <-> exists t, placed rd mu n e t.
Proof.
  unfold lin, placed. rewrite elem_of_app, elem_lin_to. split.
  - intros [(j & Hj & [H|H])|H].
    + exists (2 * j). left. exists j. split; [lia|done].
    + exists (2 * j + 1). right. by exists j.
    + exists (2 * n). left. by exists n.
  - intros (t & [(j & Hj & -> & H)|(j & Hj & -> & H)]).
    + destruct (decide (j = n)) as [->|]; [by right|]. left. exists j. split; [lia|by left].
    + left. exists j. split; [lia|by right].
Qed.

(* earlier entries come first *)
Definition bef (l : list entry) e1 e2 : Prop := exists l1 l2, l = l1 ++ l2 /\ e1 ∈ l1 /\ e2 ∈ l2.
Lemma bef_app_l l l' e1 e2 : bef l e1 e2 -> bef (l ++ l') e1 e2.
Proof. intros (l1 & l2 & -> & ? & ?). exists l1, (l2 ++ l'). rewrite app_assoc. split; [done|]. split; [done|]. apply elem_of_app. by left. Qed.
Lemma bef_app l l' e1 e2 : e1 ∈ l -> e2 ∈ l' -> bef (l ++ l') e1 e2.
Proof. intros ? ?. by exists l, l'. Qed.

Lemma lin_to_bef rd mu n e1 t1 e2 t2 :
  t1 < t2 -> t2 < 2 * n -> (exists j, (t1 = 2 * j /\ e1 ∈ rd j) \/ (t1 = 2 * j + 1 /\ mu j = Some e1)) ->
  (exists j, (t2 = 2 * j /\ e2 ∈ rd j) \/ (t2 = 2 * j + 1 /\ mu j = Some e2)) -> bef (lin_to rd mu n) e1 e2.
Proof.
  intros Hlt Hn (j1 & H1) (j2 & H2). induction n as [|n IH]; [lia|]. simpl.
  destruct (decide (t2 < 2 * n)) as [|Hge]; [by apply bef_app_l, IH|].
  assert (j2 = n) as -> by lia. destruct (decide (t1 < 2 * n)) as [Hl|Hg].
  - apply bef_app.
    + apply elem_lin_to. exists j1. destruct H1 as [[? ?]|[? ?]]; (split; [lia|auto]).
    + apply elem_of_app. rewrite elem_olist. destruct H2 as [[? ?]|[? ?]]; auto.
  - assert (t1 = 2 * n /\ t2 = 2 * n + 1) as [E1 E2] by lia.
    assert (j1 = n) as -> by lia. destruct H1 as [[_ H1]|[? _]]; [|lia]. destruct H2 as [[? _]|[_ H2]]; [lia|].
    exists (lin_to rd mu n ++ rd n), (olist (mu n)). rewrite app_assoc. split; [done|].
    split; [apply elem_of_app; by right|]. rewrite H2. by apply elem_of_list_singleton.
Qed.

Lemma placed_bef rd mu n e1 t1 e2 t2 : placed rd mu n e1 t1 -> placed rd mu n e2 t2 -> t1 < t2 -> bef (lin rd mu n) e1 e2.
Proof.
  intros H1 H2 Hlt. unfold lin.
  assert (forall e t, placed rd mu n e t -> exists j, (t = 2 * j /\ e ∈ rd j) \/ (t = 2 * j + 1 /\ mu j = Some e)) as Hp.
  { intros e t [(j & _ & -> & ?)|(j & _ & -> & ?)]; exists j; auto. }
  destruct (decide (t2 < 2 * n)) as [Hn|Hn].
  - apply bef_app_l. apply (lin_to_bef rd mu n e1 t1 e2 t2 Hlt Hn (Hp _ _ H1) (Hp _ _ H2)).
  - assert (t2 = 2 * n) as -> by (destruct H2 as [(j & ? & -> & _)|(j & ? & -> & _)]; lia).
    apply bef_app.
    + apply elem_lin_to. destruct (Hp _ _ H1) as (j & [[? ?]|[? ?]]); exists j; (split; [lia|auto]).
    + destruct (Hp _ _ H2) as (j & [[? ?]|[? ?]]); [|lia]. by assert (n = j) as -> by lia.
Qed.

(** ** Legality *)
Lemma same_sym (a b : amap) : same a b -> same b a.
Proof. intros H k. symmetry. apply H. Qed.
Lemma same_trans (a b c : amap) : same a b -> same b c -> same a c.
Proof. intros H1 H2 k. by rewrite H2, H1. Qed.

Lemma spec_step_same a a' op r b b' : same a a' -> same b b' -> spec_step a op r b -> spec_step a' op r b'.
Proof.
  intros Ha Hb. assert (forall k, a' k = a k) as Ea by exact Ha. assert (forall k, b' k = b k) as Eb by exact Hb.
  unfold spec_step, put, del, same. destruct op, r as [x|[x|x]|x]; try done; repeat setoid_rewrite Ea; repeat setoid_rewrite Eb; done.
Qed.

Lemma spec_run_same_l a a' l b : same a a' -> spec_run a l b -> spec_run a' l b.
Proof.
  destruct l as [|e l]; simpl.
  - intros H1 H2. eapply same_trans; [by apply same_sym|done].
  - intros H (x & Hs & Hr). exists x. split; [|done]. by eapply spec_step_same.
Qed.
Lemma spec_run_same_r a l b b' : same b b' -> spec_run a l b -> spec_run a l b'.
Proof.
  intros H. revert a. induction l as [|e l IH]; intros a; simpl.
  - intros H2. by eapply same_trans.
  - intros (x & Hs & Hr). exists x. eauto.
Qed.
Lemma spec_run_app a l1 b l2 z : spec_run a l1 b -> spec_run b l2 z -> spec_run a (l1 ++ l2) z.
Proof.
  revert a. induction l1 as [|e l1 IH]; intros a; simpl.
  - intros H1 H2. eapply spec_run_same_l; [by apply same_sym|done].
  - intros (x & Hs & Hr) H2. exists x. eauto.
Qed.

Definition legal A rd mu n : Prop :=
  (forall j e, j <= n -> e ∈ rd j -> spec_step (A j) (e_op e) (e_ret e) (A j)) /\
  (forall j, j < n -> match mu j with Some e => spec_step (A j) (e_op e) (e_ret e) (A (S j)) | None => same (A j) (A (S j)) end).

Lemma readers_run (a : amap) l : (forall e, e ∈ l -> spec_step a (e_op e) (e_ret e) a) -> spec_run a l a.
Proof.
  induction l as [|e l IH]; intros H; simpl; [apply same_refl|]. exists a. split; [apply H; by left|]. apply IH. intros e' He. apply H. by right.
Qed.

Lemma legal_run A rd mu n : legal A rd mu n -> spec_run (A 0) (lin rd mu n) (A n).
Proof.
  intros [Hr Hm]. unfold lin. eapply (spec_run_app _ _ (A n)); [|apply readers_run; eauto].
  clear -Hr Hm. assert (forall i, i <= n -> spec_run (A 0) (lin_to rd mu i) (A i)) as H; [|by apply H].
  intros i. induction i as [|i IH]; intros Hi; simpl; [apply same_refl|].
  eapply spec_run_app; [apply IH; lia|]. eapply spec_run_app; [apply readers_run; intros e He; apply (Hr i); [lia|done]|].
  specialize (Hm i ltac:(lia)). destruct (mu i) as [e|]; simpl; [|done]. exists (A (S i)). split; [done|apply same_refl].
Qed.

(** ** Changing the ghost entries *)
Definition add_rd rd (j : nat) (e : entry) : nat -> list entry := fun i => if decide (i = j) then e :: rd i else rd i.
Definition add_mu mu (j : nat) (x : option entry) : nat -> option entry := fun i => if decide (i = j) then x else mu i.

Lemma lin_to_ext rd mu rd' mu' n : (forall i, i < n -> rd' i = rd i /\ mu' i = mu i) -> lin_to rd' mu' n = lin_to rd mu n.
Proof.
  induction n as [|n IH]; intros H; simpl; [done|]. destruct (H n) as [-> ->]; [lia|]. rewrite IH; [done|]. intros i ?. apply H. lia.
Qed.

Lemma lin_to_add_rd rd mu n j e : j < n -> lin_to (add_rd rd j e) mu n ≡ₚ e :: lin_to rd mu n.
Proof.
  induction n as [|n IH]; intros Hj; [lia|]. simpl. unfold add_rd at 2. destruct (decide (n = j)) as [->|Hne].
  - rewrite (lin_to_ext rd mu). 2:{ intros i ?. unfold add_rd. rewrite decide_False by lia. done. }
    simpl. by rewrite <-Permutation_middle.
  - rewrite IH by lia. done.
Qed.
Lemma lin_add_rd rd mu n j e : j <= n -> lin (add_rd rd j e) mu n ≡ₚ e :: lin rd mu n.
Proof.
  intros Hj. unfold lin. unfold add_rd at 2. destruct (decide (n = j)) as [->|Hne].
  - rewrite (lin_to_ext rd mu). 2:{ intros i ?. unfold add_rd. rewrite decide_False by lia. done. } by rewrite <-Permutation_middle.
  - rewrite lin_to_add_rd by lia. done.
Qed.
Lemma lin_snoc rd mu n x : rd (S n) = [] -> lin rd (add_mu mu n x) (S n) = lin rd mu n ++ olist x.
Proof.
  intros E. unfold lin. simpl. rewrite E, app_nil_r. unfold add_mu at 2. rewrite decide_True by done.
  rewrite (lin_to_ext rd mu). 2:{ intros i ?. unfold add_mu. rewrite decide_False by lia. done. } by rewrite app_assoc.
Qed.

Lemma placed_snoc rd mu n x e t : placed rd mu n e t -> placed rd (add_mu mu n x) (S n) e t.
Proof.
  intros [(j & ? & ? & ?)|(j & ? & ? & ?)]; [left|right]; exists j; (split; [lia|]); (split; [done|]); [done|].
  unfold add_mu. rewrite decide_False by lia. done.
Qed.
Lemma placed_snoc_inv rd mu n x e t : rd (S n) = [] -> placed rd (add_mu mu n x) (S n) e t -> placed rd mu n e t \/ (t = 2 * n + 1 /\ x = Some e).
Proof.
  intros E [(j & Hj & -> & Hin)|(j & Hj & -> & Hm)].
  - left. left. exists j. destruct (decide (j = S n)) as [->|]; [rewrite E in Hin; by apply elem_of_nil in Hin|]. split; [lia|done].
  - unfold add_mu in Hm. destruct (decide (j = n)) as [->|]; [by right|]. left. right. exists j. split; [lia|done].
Qed.
Lemma placed_add_rd rd mu n j e0 e t : placed rd mu n e t -> placed (add_rd rd j e0) mu n e t.
Proof.
  intros [(i & ? & ? & Hin)|H]; [|by right]. left. exists i. split; [done|]. split; [done|]. unfold add_rd. destruct (decide _); [by right|done].
Qed.
Lemma placed_add_rd_inv rd mu n j e0 e t : placed (add_rd rd j e0) mu n e t -> placed rd mu n e t \/ (t = 2 * j /\ e = e0).
Proof.
  intros [(i & ? & -> & Hin)|H]; [|left; by right]. unfold add_rd in Hin. destruct (decide (i = j)) as [->|].
  - apply elem_of_cons in Hin as [->|Hin]; [by right|]. left. left. eauto.
  - left. left. eauto.
Qed.

(** ** Precedence *)
Lemma app_split {X} (a b c d : list X) : a ++ b = c ++ d -> (exists x, a = c ++ x /\ d = x ++ b) \/ (exists x, c = a ++ x /\ b = x ++ d).
Proof.
  revert c. induction a as [|y a IH]; intros c E; simpl in *.
  - right. exists c. done.
  - destruct c as [|z c]; simpl in *; [left; exists (y :: a); done|]. injection E as -> E. destruct (IH c E) as [(x & -> & ->)|(x & -> & ->)]; eauto.
Qed.

Lemma precedes_app ev e o1 o2 : precedes (ev ++ e) o1 o2 -> precedes ev o1 o2 \/ exists op, EInv o2 op ∈ e.
Proof.
  intros (ev1 & ev2 & r & op & E & H1 & H2). apply app_split in E as [(x & -> & ->)|(x & -> & ->)].
  - apply elem_of_app in H2 as [H2|H2]; [|eauto]. left. exists ev1, x, r, op. done.
  - right. exists op. apply elem_of_app. by right.
Qed.

Lemma precedes_ret ev o1 o2 : precedes ev o1 o2 -> exists r, ERet o1 r ∈ ev.
Proof. intros (ev1 & ev2 & r & op & -> & H1 & H2). exists r. apply elem_of_app. by left. Qed.
Lemma precedes_inv ev o1 o2 : precedes ev o1 o2 -> exists op, EInv o2 op ∈ ev.
Proof. intros (ev1 & ev2 & r & op & -> & H1 & H2). exists op. apply elem_of_app. by right. Qed.

(** ** The timeline of an execution *)
Definition A_of ls (j : nat) : amap := match state_at ls j with Some s => absm (s_mem s) | None => aempty end.

Lemma state_at_snoc ls lb j : j <= length ls -> state_at (ls ++ [lb]) j = state_at ls j.
Proof. intros H. unfold state_at. rewrite take_app_le by done. done. Qed.
Lemma state_at_end ls s ev : exec ls s ev -> state_at ls (length ls) = Some s.
Proof. intros H. unfold state_at. rewrite firstn_all, H. done. Qed.

(** Call [op] with id [o] is in progress at time [j]. *)
Definition running_at ls (j : nat) o op : Prop := exists s p, state_at ls j = Some s /\ s_ops s !! o = Some (SRun op p).

Lemma running_at_snoc ls lb j o op : j <= length ls -> running_at ls j o op -> running_at (ls ++ [lb]) j o op.
Proof. intros Hj (s & p & Hs & Hp). exists s, p. by rewrite state_at_snoc. Qed.

Record timeline ls ev (iv : opid -> nat) rd mu : Prop := Timeline {
  tl_legal : legal (A_of ls) rd mu (length ls);
  tl_zero : same aempty (A_of ls 0);
  tl_nodup : NoDup (e_id <$> lin rd mu (length ls));
  tl_inv : forall e t, placed rd mu (length ls) e t -> EInv (e_id e) (e_op e) ∈ ev /\ 2 * iv (e_id e) < t;
  tl_rd : forall j e, j <= length ls -> e ∈ rd j -> running_at ls j (e_id e) (e_op e) /\
     exists k, e_op e = OGet k \/ (e_op e = ORemove k /\ e_ret e = AOpt None);
  tl_mu : forall j e, j < length ls -> mu j = Some e -> running_at ls j (e_id e) (e_op e) /\ exists spur a, ls !! j = Some (LStep (e_id e) spur a);
  tl_prec : forall o1 o2, precedes ev o1 o2 -> forall e t, placed rd mu (length ls) e t -> e_id e = o1 -> t <= 2 * iv o2;
  tl_ret : forall o r x, ERet o r ∈ ev -> val_of r = Some x -> exists op t, placed rd mu (length ls) (Entry o op x) t;
}.

(** What is known about an operation in progress. *)
Definition pending ls pos m (iv : opid -> nat) rd mu o op p : Prop :=
  iv o < length ls /\
  match dn p with
  | Some d => exists t, placed rd mu (length ls) (Entry o op (AOpt (Some (rr_val d)))) t
  | None => o ∉ e_id <$> lin rd mu (length ls) /\
     forall k c, hind p = Some (k, c) -> exists j, iv o < j <= length ls /\ running_at ls j o op /\ A_of ls j k = lookc pos m c k
  end.

(** Everything that took effect has returned, except removals that are still cleaning up. *)
Definition all_done ls ev rd mu : Prop := (forall e t, placed rd mu (length ls) e t ->
  (exists k, e_op e = ORemove k) \/ exists r, ERet (e_id e) r ∈ ev /\ val_of r = Some (e_ret e)) /\
  forall j e, j < length ls -> mu j = Some e -> (exists k, e_op e = ORemove k) \/ exists sj op r, state_at ls (S j) = Some sj /\ s_ops sj !! e_id e = Some (SRet op r).

Definition linv ls s ev : Prop :=
  wf_calls ls -> exists pos iv rd mu,
    (s_dropped s = false -> full pos s) /\ (s_dropped s = true -> guards s = ∅) /\
    (timeline ls ev iv rd mu /\ all_done ls ev rd mu) /\ (forall j, length ls < j -> rd j = []) /\
    forall o op p, s_ops s !! o = Some (SRun op p) -> EInv o op ∈ ev /\ pending ls pos (s_mem s) iv rd mu o op p.

Lemma A_of_snoc ls lb j : j <= length ls -> A_of (ls ++ [lb]) j = A_of ls j.
Proof. intros H. unfold A_of. by rewrite state_at_snoc. Qed.
Lemma A_of_end ls s ev : exec ls s ev -> A_of ls (length ls) = absm (s_mem s).
Proof. intros H. unfold A_of. by erewrite state_at_end by done. Qed.

Lemma exec_snoc ls s ev lb s' e : exec ls s ev -> step s lb = Some (s', e) -> exec (ls ++ [lb]) s' (ev ++ e).
Proof. intros H1 H2. by eapply run_step. Qed.

(** One more transition. *)
Lemma tl_extend ls s ev lb s' e iv iv' rd mu (x : option entry) :
  exec ls s ev -> step s lb = Some (s', e) -> timeline ls ev iv rd mu -> (forall j, length ls < j -> rd j = []) ->
  (forall o op, EInv o op ∈ ev -> iv' o = iv o) ->
  match x with
  | Some en => spec_step (absm (s_mem s)) (e_op en) (e_ret en) (absm (s_mem s')) /\ running_at ls (length ls) (e_id en) (e_op en) /\
      (exists spur a, lb = LStep (e_id en) spur a) /\ EInv (e_id en) (e_op en) ∈ ev /\ e_id en ∉ e_id <$> lin rd mu (length ls) /\
      iv (e_id en) < length ls /\ (forall r, ERet (e_id en) r ∉ ev)
  | None => same (absm (s_mem s)) (absm (s_mem s'))
  end ->
  (forall o op, EInv o op ∈ e -> x = None /\ length ls <= iv' o) ->
  (forall o r y, ERet o r ∈ e -> val_of r = Some y -> exists op, x = Some (Entry o op y) \/ exists t, placed rd mu (length ls) (Entry o op y) t) ->
  timeline (ls ++ [lb]) (ev ++ e) iv' rd (add_mu mu (length ls) x).
Proof.
  intros Hx Hst Htl Hrd Hiv Hen He Hret. pose proof (exec_snoc _ _ _ _ _ _ Hx Hst) as Hx'.
  assert (length (ls ++ [lb]) = S (length ls)) as En by (rewrite app_length; simpl; lia).
  pose proof (A_of_end _ _ _ Hx) as An. pose proof (A_of_end _ _ _ Hx') as An'. rewrite En in An'.
  assert (forall e0 t, placed rd mu (length ls) e0 t -> t <= 2 * length ls) as Hle.
  { intros e0 t [(j & ? & -> & _)|(j & ? & -> & _)]; lia. }
  destruct Htl as [[Hl1 Hl2] Hz Hnd Hinv Htr Htm Hpr Htret]. split; rewrite ?En.
  - split.
    + intros j e0 Hj Hin. destruct (decide (j = S (length ls))) as [->|]; [rewrite Hrd in Hin by lia; by apply elem_of_nil in Hin|].
      rewrite !A_of_snoc by lia. apply Hl1; [lia|done].
    + intros j Hj. unfold add_mu. destruct (decide (j = length ls)) as [->|].
      * rewrite An', A_of_snoc, An by lia. destruct x as [en|]; [by destruct Hen|done].
      * rewrite !A_of_snoc by lia. apply Hl2. lia.
  - by rewrite A_of_snoc by lia.
  - rewrite lin_snoc by (apply Hrd; lia). destruct x as [en|]; simpl; [|by rewrite app_nil_r].
    rewrite fmap_app. simpl. apply NoDup_app. split; [done|]. split; [|apply NoDup_singleton].
    destruct Hen as (_ & _ & _ & _ & Hn & _). intros y Hy ->%elem_of_list_singleton. done.
  - intros e0 t [Hp|[-> ->]]%placed_snoc_inv; [..|apply Hrd; lia].
    + destruct (Hinv _ _ Hp) as [H1 H2]. rewrite (Hiv _ _ H1). split; [apply elem_of_app; by left|done].
    + destruct Hen as (_ & _ & _ & H1 & _ & H2 & _). rewrite (Hiv _ _ H1). split; [apply elem_of_app; by left|lia].
  - intros j e0 Hj Hin. destruct (decide (j = S (length ls))) as [->|]; [rewrite Hrd in Hin by lia; by apply elem_of_nil in Hin|].
    destruct (Htr j e0) as [H1 H2]; [lia|done|]. split; [apply running_at_snoc; [lia|done]|done].
  - intros j e0 Hj. unfold add_mu. destruct (decide (j = length ls)) as [->|].
    + intros ->. destruct Hen as (_ & H1 & (spur & a & ->) & _). split; [by apply running_at_snoc|]. exists spur, a. by rewrite lookup_app_r, Nat.sub_diag by lia.
    + intros Hm. destruct (Htm j e0) as (H1 & spur & a & H2); [lia|done|]. split; [apply running_at_snoc; [lia|done]|].
      exists spur, a. rewrite lookup_app_l by lia. done.
  - intros o1 o2 Hpre e0 t Hp Hid. apply precedes_app in Hpre as [Hpre|[op Hop]].
    + destruct (precedes_inv _ _ _ Hpre) as [op Hop]. rewrite (Hiv _ _ Hop).
      apply placed_snoc_inv in Hp as [Hp|[-> ->]]; [by eapply Hpr| |apply Hrd; lia].
      destruct Hen as (_ & _ & _ & _ & _ & _ & Hen). subst o1. destruct (precedes_ret _ _ _ Hpre) as [r Hr]. by apply Hen in Hr.
    + destruct (He _ _ Hop) as [-> Hi]. apply placed_snoc_inv in Hp as [Hp|[_ ?]]; [|done|apply Hrd; lia]. specialize (Hle _ _ Hp). lia.
  - intros o r y [Hin|Hin]%elem_of_app Hy.
    + destruct (Htret _ _ _ Hin Hy) as (op & t & Hp). exists op, t. by apply placed_snoc.
    + destruct (Hret _ _ _ Hin Hy) as (op & [->|[t Hp]]).
      * exists op, (2 * length ls + 1). right. exists (length ls). split; [lia|]. split; [done|]. unfold add_mu. by rewrite decide_True.
      * exists op, t. by apply placed_snoc.
Qed.

(** An operation that only read is put at an instant in the past. *)
Lemma tl_reader ls ev iv rd mu j o op y :
  timeline ls ev iv rd mu -> j <= length ls -> iv o < j -> running_at ls j o op ->
  (exists k, op = OGet k \/ (op = ORemove k /\ y = AOpt None)) -> spec_step (A_of ls j) op y (A_of ls j) ->
  o ∉ e_id <$> lin rd mu (length ls) -> EInv o op ∈ ev -> (forall r, ERet o r ∉ ev) ->
  timeline ls ev iv (add_rd rd j (Entry o op y)) mu.
Proof.
  intros [[Hl1 Hl2] Hz Hnd Hinv Htr Htm Hpr Htret] Hj Hiv Hrun Hop Hsp Hn Hei Hnr. split.
  - split; [|done]. intros i e Hi. unfold add_rd. destruct (decide (i = j)) as [->|]; [|by apply Hl1].
    intros [->|Hin]%elem_of_cons; [done|by apply Hl1].
  - done.
  - rewrite lin_add_rd by done. simpl. by apply NoDup_cons.
  - intros e t [Hp|[-> ->]]%placed_add_rd_inv; [by apply Hinv|]. simpl. split; [done|lia].
  - intros i e Hi. unfold add_rd. destruct (decide (i = j)) as [->|]; [|by apply Htr].
    intros [->|Hin]%elem_of_cons; [|by apply Htr]. simpl. done.
  - done.
  - intros o1 o2 Hpre e t [Hp|[-> ->]]%placed_add_rd_inv Hid; [by eapply Hpr|]. simpl in Hid. subst o1.
    destruct (precedes_ret _ _ _ Hpre) as [r Hr]. by apply Hnr in Hr.
  - intros o' r x Hr Hx. destruct (Htret _ _ _ Hr Hx) as (op' & t & Hp). exists op', t. by apply placed_add_rd.
Qed.

Lemma pending_snoc ls s ev lb s' e pos pos' iv iv' rd mu x o op p :
  exec ls s ev -> step s lb = Some (s', e) -> (forall j, length ls < j -> rd j = []) -> s_ops s' !! o = Some (SRun op p) ->
  iv' o = iv o -> (forall en, x = Some en -> e_id en <> o) ->
  (forall k c, hind p = Some (k, c) -> lookc pos' (s_mem s') c k = lookc pos (s_mem s) c k \/ lookc pos' (s_mem s') c k = absm (s_mem s') k) ->
  pending ls pos (s_mem s) iv rd mu o op p ->
  pending (ls ++ [lb]) pos' (s_mem s') iv' rd (add_mu mu (length ls) x) o op p.
Proof.
  intros Hx Hst Hrd Ho Hiv Hxo Hlk [H1 H2]. pose proof (exec_snoc _ _ _ _ _ _ Hx Hst) as Hx'.
  assert (length (ls ++ [lb]) = S (length ls)) as En by (rewrite app_length; simpl; lia).
  split; rewrite ?En, ?Hiv; [lia|]. destruct (dn p).
  - destruct H2 as [t Ht]. exists t. by apply placed_snoc.
  - destruct H2 as [H2 H3]. split.
    + rewrite lin_snoc by (apply Hrd; lia). rewrite fmap_app, elem_of_app. intros [?|Hin]; [done|].
      destruct x as [en|]; simpl in Hin; [|by apply elem_of_nil in Hin]. apply elem_of_list_singleton in Hin. by apply (Hxo en).
    + intros k c Hh. destruct (Hlk k c Hh) as [E|E].
      * destruct (H3 k c Hh) as (j & Hj & Hr & Ha). exists j. split; [lia|]. split; [apply running_at_snoc; [lia|done]|].
        rewrite A_of_snoc by lia. congruence.
      * exists (S (length ls)). split; [lia|]. split; [exists s', p; rewrite <-En; split; [by eapply state_at_end|done]|].
        rewrite <-En, (A_of_end _ _ _ Hx'). done.
Qed.

Lemma pending_reader ls pos m iv rd mu j o0 op0 y o op p : j <= length ls -> o <> o0 ->
  pending ls pos m iv rd mu o op p -> pending ls pos m iv (add_rd rd j (Entry o0 op0 y)) mu o op p.
Proof.
  intros Hj Hne [H1 H2]. split; [done|]. destruct (dn p).
  - destruct H2 as [t Ht]. exists t. by apply placed_add_rd.
  - destruct H2 as [H2 H3]. split; [|done]. rewrite lin_add_rd by done. simpl. rewrite elem_of_cons. naive_solver.
Qed.

Lemma lookc_same pos m m' c k : m_heap m' = m_heap m -> m_root m' = m_root m -> lookc pos m' c k = lookc pos m c k.
Proof.
  intros E1 E2. unfold lookc. assert (cval m' c = cval m c) as -> by (destruct c; simpl; [by rewrite E2|unfold hbody; by rewrite E1]).
  destruct (cval m c); [|done]. by apply look_heap.
Qed.

Lemma hind_ok pos m o op p k c : pc_ok pos m o p -> pc_sem pos m op p -> hind p = Some (k, c) -> is_Some (cval m c) /\ onp pos c k.
Proof.
  intros Hpc Hps Hh. destruct p; simpl in Hh; try done; injection Hh as <- <-; unfold pc_ok in Hpc; unfold pc_sem in Hps.
  - destruct Hps as (_ & ? & _). by destruct Hpc.
  - destruct Hps as (_ & _ & ?). by destruct Hpc as [[? _] _].
  - destruct Hps as (_ & _ & ? & _). by destruct Hpc as [[? _] _].
Qed.

Lemma dn_remove pos m op p d : dn p = Some d -> pc_sem pos m op p -> exists k, op = ORemove k.
Proof. destruct p as [| |[]|[]| | | | | | |]; simpl; try done; intros _ (k & -> & _); by exists k. Qed.

Lemma step_no_ret ls s ev o op p r : exec ls s ev -> s_ops s !! o = Some (SRun op p) -> ERet o r ∉ ev.
Proof. intros Hx Ho Hin. apply (exec_events _ _ _ Hx) in Hin. simpl in Hin. by rewrite Ho in Hin. Qed.

Lemma acts_no_inv o acts o' op : EInv o' op ∈ map (act_event o) acts -> False.
Proof. intros (x & Hx & _)%elem_of_list_fmap. by destruct x. Qed.
Lemma acts_no_ret o acts o' r : ERet o' r ∈ map (act_event o) acts -> False.
Proof. intros (x & Hx & _)%elem_of_list_fmap. by destruct x. Qed.

Lemma linv_step ls s ev lb s' e : exec ls s ev -> linv ls s ev -> step s lb = Some (s', e) -> linv (ls ++ [lb]) s' (ev ++ e).
Proof.
  intros Hx IH Hst Hwf. destruct IH as (pos & iv & rd & mu & Hfu & Hdr & [Htl Had] & Hrd & Hops).
  { intros o op Hin. apply (Hwf o op). apply elem_of_app. by left. }
  assert (lb_wf lb) as Hlw. { destruct lb; try done. apply (Hwf o op). apply elem_of_app. right. by apply elem_of_list_singleton. }
  pose proof (exec_sinv _ _ _ Hx) as Hsi. pose proof (exec_snoc _ _ _ _ _ _ Hx Hst) as Hx'.
  assert (length (ls ++ [lb]) = S (length ls)) as En by (rewrite app_length; simpl; lia).
  assert (forall j, length (ls ++ [lb]) < j -> rd j = []) as Hrd' by (intros j ?; apply Hrd; lia).
  assert (all_done (ls ++ [lb]) (ev ++ e) rd (add_mu mu (length ls) None)) as Had'.
  { split.
    - intros e0 t Hp. rewrite En in Hp. apply placed_snoc_inv in Hp as [Hp|[_ ?]]; [|done|apply Hrd; lia].
      destruct (proj1 Had e0 t Hp) as [?|(r & ? & ?)]; [by left|]. right. exists r. split; [apply elem_of_app; by left|done].
    - intros j e0 Hj. unfold add_mu. destruct (decide (j = length ls)); [done|]. intros He0.
      rewrite state_at_snoc by lia. apply (proj2 Had); [lia|done]. }
  (* steps that change neither nodes nor root and invoke nothing *)
  assert (m_heap (s_mem s') = m_heap (s_mem s) -> m_root (s_mem s') = m_root (s_mem s) -> e = [] ->
    (forall o op p, s_ops s' !! o = Some (SRun op p) -> s_ops s !! o = Some (SRun op p)) ->
    (s_dropped s' = false -> full pos s') -> (s_dropped s' = true -> guards s' = ∅) ->
    exists pos iv rd mu, (s_dropped s' = false -> full pos s') /\ (s_dropped s' = true -> guards s' = ∅) /\
      (timeline (ls ++ [lb]) (ev ++ e) iv rd mu /\ all_done (ls ++ [lb]) (ev ++ e) rd mu) /\ (forall j, length (ls ++ [lb]) < j -> rd j = []) /\
      forall o op p, s_ops s' !! o = Some (SRun op p) -> EInv o op ∈ ev ++ e /\ pending (ls ++ [lb]) pos (s_mem s') iv rd mu o op p) as Hquiet.
  { intros E1 E2 -> Hsub Hf Hg. exists pos, iv, rd, (add_mu mu (length ls) None). split; [done|]. split; [done|]. split; [split; [|by apply Had']|split; [done|]].
    - eapply tl_extend; try done.
      + intros k. by apply abs_heap.
      + intros o op Hin. by apply elem_of_nil in Hin.
      + intros o r y Hin. by apply elem_of_nil in Hin.
    - intros o op p Ho. destruct (Hops o op p (Hsub _ _ _ Ho)) as [H1 H2]. split; [apply elem_of_app; by left|].
      eapply pending_snoc; try done. intros k c _. left. by apply lookc_same. }
  destruct (s_dropped s) eqn:Ed.
  { (* after the map was dropped only the collector runs *)
    specialize (Hdr eq_refl). assert (forall o st, s_ops s !! o = Some st -> active st = true -> False) as Hno.
    { intros o st H1 H2. assert (o ∈ guards s) as Hin by (apply elem_of_guards; eauto). rewrite Hdr in Hin. by apply elem_of_empty in Hin. }
    destruct lb as [o op|o spur a|o|o|n|]; cbn [step] in Hst.
    - rewrite Ed in Hst. by destruct (s_ops s !! o).
    - destruct (s_ops s !! o) as [[]|] eqn:Eo; try done. exfalso. by eapply Hno.
    - destruct (s_ops s !! o) as [[]|] eqn:Eo; try done. exfalso. by eapply Hno.
    - destruct (s_ops s !! o) as [[]|] eqn:Eo; try done. exfalso. by eapply Hno.
    - destruct (m_garb (s_mem s) !! n) as [[[l k] g]|]; [|done]. case_bool_decide; [|done]. injection Hst as <- <-.
      apply Hquiet; try done. simpl. by rewrite Ed.
    - rewrite Ed, andb_false_r in Hst. done. }
  specialize (Hfu eq_refl).
  assert (lb = LDrop \/ lb <> LDrop) as [->|Hnd]; [destruct lb; (by left) || (by right)| |].
  { cbn [step] in Hst. case_bool_decide as Hgu; [|done]. rewrite Ed in Hst. cbn [negb andb] in Hst.
    assert (m_heap (s_mem s') = m_heap (s_mem s) /\ m_root (s_mem s') = m_root (s_mem s) /\ e = [] /\ s_ops s' = s_ops s /\ s_dropped s' = true) as (E1 & E2 & -> & E3 & E4).
    { destruct (drop_rec _ _ _); injection Hst as <- <-; done. }
    apply Hquiet; try done.
    - by rewrite E3.
    - by rewrite E4.
    - intros _. unfold guards. by rewrite E3. }
  destruct (full_step pos s lb s' e Hfu Ed Hsi Hlw Hst Hnd) as (pos' & Hfu' & Ed' & Heff).
  destruct Heff as [o spur a op p m' nx acts Eo Estep Hmt Heff Hpc Hps Hw Es'|o op Eo -> Es'|o lb Eo Elb -> Es'|n -> E1 E2 E3 E4].
  - (* an access *)
    assert (s_mem s' = m') as Em by (by rewrite Es').
    destruct (Hops _ _ _ Eo) as [Hei [Hiv Hpend]].
    assert (forall r, ERet o r ∉ ev) as Hnr by (intros r; by eapply step_no_ret).
    assert (forall o' op' p' k c, o' <> o -> s_ops s' !! o' = Some (SRun op' p') -> hind p' = Some (k, c) ->
      lookc pos' (s_mem s') c k = lookc pos (s_mem s) c k \/ lookc pos' (s_mem s') c k = absm (s_mem s') k) as Hlk.
    { intros o' op' p' k c Hne Ho' Hh. rewrite Es' in Ho'. simpl in Ho'. rewrite lookup_insert_ne in Ho' by done. destruct (fu_ops _ _ Hfu _ _ _ Ho') as [_ Hs'].
      pose proof (li_ops _ _ (fu_live _ _ Hfu) _ _ Ho') as Hp'. destruct (hind_ok _ _ _ _ _ _ _ Hp' Hs' Hh). rewrite Em.
      eapply lookc_mtr_hind; [apply Hfu|done|done|done]. }
    assert (forall o' op' p', o' <> o -> s_ops s' !! o' = Some (SRun op' p') -> s_ops s !! o' = Some (SRun op' p')) as Hsub.
    { intros o' op' p' Hne. rewrite Es'. simpl. by rewrite lookup_insert_ne by done. }
    assert (s_ops s' !! o = Some (match nx with NRun p' => SRun op p' | NRet r => SRet op r | NFail f => SFail op f end)) as Eo'.
    { rewrite Es'. simpl. by rewrite lookup_insert. }
    (* the common part *)
    pose (rd0 := rd).
    assert (forall rd (x : option entry), timeline ls ev iv rd mu -> (forall j, length ls < j -> rd j = []) ->
      (forall o' op' p', s_ops s !! o' = Some (SRun op' p') -> o' <> o -> pending ls pos (s_mem s) iv rd mu o' op' p') ->
      match x with
      | Some en => e_id en = o /\ e_op en = op /\ o ∉ e_id <$> lin rd mu (length ls) /\ spec_step (absm (s_mem s)) op (e_ret en) (absm m')
      | None => same (absm (s_mem s)) (absm m') end ->
      (forall r y, nx = NRet r -> val_of r = Some y -> x = Some (Entry o op y) \/ exists t, placed rd mu (length ls) (Entry o op y) t) ->
      (forall p', nx = NRun p' -> pending (ls ++ [LStep o spur a]) pos' m' iv rd (add_mu mu (length ls) x) o op p') ->
      (forall e t, placed rd (add_mu mu (length ls) x) (S (length ls)) e t -> placed rd0 mu (length ls) e t \/ (exists k, op = ORemove k) /\ e_op e = op \/
         e_id e = o /\ exists r, nx = NRet r /\ val_of r = Some (e_ret e)) ->
      exists pos iv rd mu, (s_dropped s' = false -> full pos s') /\ (s_dropped s' = true -> guards s' = ∅) /\
       (timeline (ls ++ [LStep o spur a]) (ev ++ (map (act_event o) acts ++ match nx with NRet r => [ERet o r] | _ => [] end)) iv rd mu /\ all_done (ls ++ [LStep o spur a]) (ev ++ (map (act_event o) acts ++ match nx with NRet r => [ERet o r] | _ => [] end)) rd mu) /\
       (forall j, length (ls ++ [LStep o spur a]) < j -> rd j = []) /\
       forall o' op' p', s_ops s' !! o' = Some (SRun op' p') -> EInv o' op' ∈ ev ++ (map (act_event o) acts ++ match nx with NRet r => [ERet o r] | _ => [] end) /\
         pending (ls ++ [LStep o spur a]) pos (s_mem s') iv rd mu o' op' p') as Hgo.
    { intros rd2 x Htl2 Hrd2 Hpe2 Hx2 Hret2 Hrun2 Hdn2. exists pos', iv, rd2, (add_mu mu (length ls) x). split; [done|]. split; [by rewrite Ed'|].
      split; [split|split; [intros j ?; apply Hrd2; lia|]].
      2:{ split.
          2:{ intros j e0 Hj He0. destruct (decide (j = length ls)) as [->|Hne].
              - assert (placed rd2 (add_mu mu (length ls) x) (S (length ls)) e0 (2 * length ls + 1)) as Hp by (right; exists (length ls); split; [lia|done]).
                destruct (Hdn2 _ _ Hp) as [Hp'|[[[k Hk] Hk']|(Hid & r & -> & Hr)]].
                + exfalso. destruct Hp' as [(i & ? & ? & _)|(i & ? & ? & _)]; lia.
                + left. exists k. congruence.
                + right. exists s', op, r. rewrite <-En. split; [by eapply state_at_end|]. by rewrite Hid.
              - unfold add_mu in He0. rewrite decide_False in He0 by done. rewrite state_at_snoc by lia. apply (proj2 Had); [lia|done]. }
          intros e0 t Hp. rewrite En in Hp. destruct (Hdn2 _ _ Hp) as [Hp'|[[[k Hk] Hk']|(Hid & r & -> & Hr)]].
          - destruct (proj1 Had _ _ Hp') as [?|(r & ? & ?)]; [by left|]. right. exists r. split; [apply elem_of_app; by left|done].
          - left. exists k. congruence.
          - right. exists r. rewrite Hid. split; [|done]. rewrite !elem_of_app. right. right. by apply elem_of_list_singleton. }
      - eapply tl_extend; try done.
        + destruct x as [en|]; [|by rewrite Em]. destruct Hx2 as (E1 & E2 & Hn & Hsp). rewrite E1, E2, Em.
          split; [done|]. split; [exists s, p; split; [by eapply state_at_end|done]|]. split; [by exists spur, a|]. done.
        + intros o' op' [Hin|Hin]%elem_of_app; [by apply acts_no_inv in Hin|]. destruct nx; try by apply elem_of_nil in Hin. by apply elem_of_list_singleton in Hin.
        + intros o' r y [Hin|Hin]%elem_of_app Hy; [by apply acts_no_ret in Hin|]. destruct nx as [|r'|]; try by apply elem_of_nil in Hin.
          apply elem_of_list_singleton in Hin. injection Hin as -> ->. exists op. by apply (Hret2 r').
      - intros o' op' p' Ho'. destruct (decide (o' = o)) as [->|Hne].
        + rewrite Eo' in Ho'. destruct nx as [p2|r|f]; try done. injection Ho' as <- <-. split; [apply elem_of_app; by left|]. rewrite Em. by apply Hrun2.
        + pose proof (Hsub _ _ _ Hne Ho') as Ho2. split; [apply elem_of_app; left; by apply (Hops _ _ _ Ho2)|].
          eapply pending_snoc; try done.
          * intros en ->. by destruct Hx2 as (-> & _).
          * intros k c. by eapply Hlk.
          * by apply Hpe2. }
    assert (forall o' op' p', s_ops s !! o' = Some (SRun op' p') -> o' <> o -> pending ls pos (s_mem s) iv rd mu o' op' p') as Hpe0.
    { intros o' op' p' Ho' _. by apply Hops. }
    assert (forall p', nx = NRun p' -> running_at (ls ++ [LStep o spur a]) (length (ls ++ [LStep o spur a])) o op) as Hrun.
    { intros p' ->. exists s', p'. split; [by eapply state_at_end|done]. }
    assert (forall rd e t, (forall j, length ls < j -> rd j = []) -> placed rd (add_mu mu (length ls) None) (S (length ls)) e t -> placed rd mu (length ls) e t) as HpN.
    { intros rd2 e0 t Hr Hp. apply placed_snoc_inv in Hp as [?|[_ ?]]; [done|done|apply Hr; lia]. }
    unfold step_eff in Heff. destruct nx as [p'|r|f].
    + destruct (dn p) as [d|] eqn:Ed1, (dn p') as [d'|] eqn:Ed2; try done.
      * destruct Heff as [-> Hsame]. apply (Hgo rd None); try done; try (intros; left; by apply HpN). intros p2 [= <-]. split; [rewrite En; lia|]. rewrite Ed2.
        destruct Hpend as [t Ht]. exists t. rewrite En. by apply placed_snoc.
      * destruct Hpend as [Hn _]. assert (exists k, op = ORemove k) as Hrem.
        { destruct (fu_ops _ _ Hfu' _ _ _ Eo') as [_ Hs2]. by eapply dn_remove. }
        apply (Hgo rd (Some (Entry o op (AOpt (Some (rr_val d')))))); try done.
        2:{ intros e0 t Hp. apply placed_snoc_inv in Hp as [?|[_ [= <-]]]; [by left|right; left; done|apply Hrd; lia]. }
        intros p2 [= <-]. split; [rewrite En; lia|]. rewrite Ed2. exists (2 * length ls + 1). rewrite En. right. exists (length ls). split; [lia|]. split; [done|].
        unfold add_mu. by rewrite decide_True.
      * destruct Hpend as [Hn Hh]. destruct Heff as [Hsame Hh']. apply (Hgo rd None); try done; try (intros; left; by apply HpN).
        intros p2 [= <-]. split; [rewrite En; lia|]. rewrite Ed2. split.
        -- rewrite En, lin_snoc by (apply Hrd; lia). simpl. by rewrite app_nil_r.
        -- intros k c Hhk. destruct (Hh' k c Hhk) as [->|(c0 & Hc0 & E)].
           ++ exists (length (ls ++ [LStep o spur a])). split; [lia|]. split; [by eapply Hrun|]. rewrite (A_of_end _ _ _ Hx'), Em. done.
           ++ destruct (Hh k c0 Hc0) as (j & Hj & Hr & Ha). exists j. split; [lia|]. split; [apply running_at_snoc; [lia|done]|].
              rewrite A_of_snoc by lia. congruence.
    + destruct (dn p) as [d|] eqn:Ed1.
      * destruct Heff as [-> Hsame]. apply (Hgo rd None); try done; try (intros; left; by apply HpN). intros r y [= <-] [= <-]. right. done.
      * destruct Hpend as [Hn Hh].
        assert (op = OIter \/ op <> OIter) as [->|Hni]; [destruct op; naive_solver| |].
        { destruct Heff as [[ys ->] Hsame]. apply (Hgo rd None); try done; try (intros; left; by apply HpN). intros r y [= <-] ?. done. }
        assert (exists x, val_of r = Some x /\
          (spec_step (absm (s_mem s)) op x (absm m') \/
           m' = s_mem s /\ exists k c, hind p = Some (k, c) /\ (op = OGet k \/ op = ORemove k /\ lookc pos (s_mem s) c k = None) /\ x = AOpt (lookc pos (s_mem s) c k))) as (x & Hx2 & Hcase).
        { destruct op; done. }
        destruct Hcase as [Hsp|(-> & k & c & Hhk & Hop & Ex)].
        -- apply (Hgo rd (Some (Entry o op x))); try done; [intros r2 y [= <-] Hy; left; congruence|].
           intros e0 t Hp. apply placed_snoc_inv in Hp as [?|[_ [= <-]]]; [by left|right; right|apply Hrd; lia]. split; [done|]. by exists r.
        -- destruct (Hh k c Hhk) as (j & Hj & Hr & Ha).
           apply (Hgo (add_rd rd j (Entry o op x)) None).
           ++ apply tl_reader; try done; [lia|lia| |].
              ** exists k. destruct Hop as [?|[? E]]; [by left|]. right. split; [done|]. by rewrite Ex, E.
              ** destruct Hop as [->|[-> E]]; simpl; rewrite Ex.
                 --- split; [done|apply same_refl].
                 --- split; [done|]. intros k'. destruct (keqb k k') eqn:Ek; [|done].
                     assert (A_of ls j k' = A_of ls j k) as ->; [|congruence]. unfold A_of. destruct (state_at ls j); [|done]. symmetry. by apply absm_cong.
           ++ intros i Hi. unfold add_rd. rewrite decide_False by lia. by apply Hrd.
           ++ intros o' op' p' Ho' Hne. apply pending_reader; [lia|done|by apply Hops].
           ++ done.
           ++ intros r2 y [= <-] Hy. right. exists (2 * j). left. exists j. split; [lia|]. split; [done|]. unfold add_rd. rewrite decide_True by done.
              assert (x = y) as <- by congruence. by left.
           ++ done.
           ++ intros e0 t Hp. apply HpN in Hp; [|intros i Hi; unfold add_rd; rewrite decide_False by lia; by apply Hrd].
              apply placed_add_rd_inv in Hp as [?|[_ ->]]; [by left|]. right. right. split; [done|]. by exists r.
    + done.
  - (* a call *)
    assert (forall op', EInv o op' ∉ ev) as Hno.
    { intros op' Hin. apply (exec_events _ _ _ Hx) in Hin. simpl in Hin. by rewrite Eo in Hin. }
    exists pos, (fun o' => if decide (o' = o) then length ls else iv o'), rd, (add_mu mu (length ls) None).
    split; [done|]. split; [by rewrite Ed'|]. split; [split; [|by apply Had']|split; [done|]].
    + eapply tl_extend; try done.
      * intros o' op' Hin. rewrite decide_False; [done|]. intros ->. by apply Hno in Hin.
      * by rewrite Es'.
      * intros o' op' Hin. apply elem_of_list_singleton in Hin as [= -> ->]. rewrite decide_True by done. done.
      * intros o' r y Hin. by apply elem_of_list_singleton in Hin.
    + intros o' op' p' Ho'. destruct (decide (o' = o)) as [->|Hne].
      * rewrite Es' in Ho'. simpl in Ho'. rewrite lookup_insert in Ho'. injection Ho' as <- <-. split; [apply elem_of_app; right; by apply elem_of_list_singleton|].
        split; [rewrite decide_True by done; lia|]. assert (dn (op_init op) = None) as -> by (by destruct op). split.
        -- rewrite En, lin_snoc by (apply Hrd; lia). simpl. rewrite app_nil_r. intros (e0 & -> & He0)%elem_of_list_fmap.
           apply elem_lin in He0 as [t Ht]. destruct (tl_inv _ _ _ _ _ Htl _ _ Ht) as [Hin _]. by apply Hno in Hin.
        -- intros k c Hh. exists (length (ls ++ [LInv o op])). rewrite decide_True by done. split; [lia|].
           split; [exists s', (op_init op); split; [by eapply state_at_end|rewrite Es'; simpl; by rewrite lookup_insert]|].
           rewrite (A_of_end _ _ _ Hx'). assert (c = CRoot) as ->; [|done]. by destruct op; simpl in Hh; try done; injection Hh as _ <-.
      * assert (s_ops s !! o' = Some (SRun op' p')) as Ho2. { rewrite Es' in Ho'. simpl in Ho'. by rewrite lookup_insert_ne in Ho'. }
        split; [apply elem_of_app; left; by apply (Hops _ _ _ Ho2)|]. eapply pending_snoc; try done.
        -- by rewrite decide_False by done.
        -- intros k c Hh. left. by rewrite Es'.
        -- by apply Hops.
  - apply Hquiet; try (by rewrite Es'); try done; [|by rewrite Ed'].
    intros o' op' p'. rewrite Es'. simpl. destruct (decide (o = o')) as [<-|Hne]; [by rewrite lookup_insert|by rewrite lookup_insert_ne].
  - apply Hquiet; try done; [by rewrite E1|by rewrite Ed'].
Qed.

Theorem exec_linv ls s ev : exec ls s ev -> linv ls s ev.
Proof.
  revert ls s ev. apply exec_ind.
  - intros _. exists (fun _ => []), (fun _ => 0), (fun _ => []), (fun _ => None). split; [intros _; apply full_init|]. split; [done|].
    split; [split|split; [done|intros o op p H; simpl in H; by rewrite lookup_empty in H]].
    2:{ split; [|done]. intros e t [(j & _ & _ & H)|(j & _ & _ & H)]; [by apply elem_of_nil in H|done]. }
    assert (forall e t, placed (fun _ => []) (fun _ => None) (length (@nil label)) e t -> False) as Hno.
    { intros e t [(j & _ & _ & H)|(j & _ & _ & H)]; [by apply elem_of_nil in H|done]. }
    split; try done.
    + split; [intros j e _ H; by apply elem_of_nil in H|intros j Hj; simpl in Hj; lia].
    + apply NoDup_nil_2.
    + intros e t H. by apply Hno in H.
    + intros j e _ H. by apply elem_of_nil in H.
    + intros o1 o2 _ e t H. by apply Hno in H.
    + intros o r x H. by apply elem_of_nil in H.
  - intros ls s ev lb s' e Hx IH Hst. by eapply linv_step.
Qed.

End lin.
