(** * On coherent weakly ordered memory the calls about one key take effect one after the other. *)
From Verif Require Import Model Mem Spec Weak WeakInv WeakStep WeakSys WeakRun LinSpec Inv Safe SafeStep SafeOps Look Sem SemOps Lin LinProps Iter IterSpec IterSys WeakCoh WeakFun WeakWrite WeakWalk WeakTime WeakIter WeakBase.

Section wlin.
Context {C : Config} {HC : ConfigOk C} (w : orders).
Implicit Types (m : mem) (pos : loc -> list nat) (c : cell) (v : sh) (o : opid) (k : Key) (op : oper) (s : cstate) (ls : list clabel) (ev : list event)
  (M : nat -> mem) (H : nat -> cell -> list sh) (rd : nat -> list entry) (mu : nat -> option entry).

(** ** A reader is added at an instant, after the readers that are there already *)
Definition ins_rd rd (j : nat) (e : entry) : nat -> list entry := fun i => if decide (i = j) then rd i ++ [e] else rd i.

Lemma lin_to_ins rd mu j e n : j < n -> exists L2, lin_to rd mu n = (lin_to rd mu j ++ rd j) ++ L2 /\ lin_to (ins_rd rd j e) mu n = (lin_to rd mu j ++ rd j) ++ e :: L2.
Proof.
  induction n as [|n IH]; intros Hj; [lia|]. destruct (decide (j = n)) as [->|Hne].
  - exists (olist (mu n)). simpl. split; [by rewrite app_assoc|]. rewrite (lin_to_ext rd mu). 2:{ intros i Hi. unfold ins_rd. by rewrite decide_False by lia. }
    unfold ins_rd. rewrite decide_True by done. rewrite <-!app_assoc. done.
  - destruct (IH ltac:(lia)) as (L2 & E1 & E2). exists (L2 ++ rd n ++ olist (mu n)). simpl. rewrite E1, E2. unfold ins_rd. rewrite decide_False by done. rewrite <-!app_assoc. done.
Qed.
Lemma lin_ins rd mu j e n : j <= n -> exists L1 L2, lin rd mu n = L1 ++ L2 /\ lin (ins_rd rd j e) mu n = L1 ++ e :: L2 /\
  forall e0 t, placed rd mu n e0 t -> t <= 2 * j -> e0 ∈ L1.
Proof.
  intros Hj. exists (lin_to rd mu j ++ rd j). destruct (decide (j = n)) as [->|Hne].
  - exists []. unfold lin. split; [by rewrite app_nil_r|]. split.
    + rewrite (lin_to_ext rd mu). 2:{ intros i Hi. unfold ins_rd. by rewrite decide_False by lia. } unfold ins_rd. rewrite decide_True by done. by rewrite app_assoc.
    + intros e0 t Hp _. change (e0 ∈ lin rd mu n). apply elem_lin. eauto.
  - destruct (lin_to_ins rd mu j e n ltac:(lia)) as (L2 & E1 & E2). exists (L2 ++ rd n). unfold lin. rewrite E1, E2. unfold ins_rd at 1. rewrite decide_False by done. rewrite <-!app_assoc. simpl. split; [done|]. split; [done|].
    intros e0 t [(i & Hi & -> & Hin)|(i & Hi & -> & Hm)] Ht; apply elem_of_app.
    + destruct (decide (i = j)) as [->|]; [by right|]. left. apply elem_lin_to. exists i. split; [lia|by left].
    + left. apply elem_lin_to. exists i. split; [lia|by right].
Qed.
Lemma placed_ins rd mu n j e0 e t : placed rd mu n e t -> placed (ins_rd rd j e0) mu n e t.
Proof.
  intros [(i & ? & ? & Hin)|Hx]; [|by right]. left. exists i. split; [done|]. split; [done|]. unfold ins_rd. destruct (decide _); [apply elem_of_app; by left|done].
Qed.
Lemma placed_ins_inv rd mu n j e0 e t : placed (ins_rd rd j e0) mu n e t -> placed rd mu n e t \/ (t = 2 * j /\ e = e0).
Proof.
  intros [(i & ? & -> & Hin)|Hx]; [|left; by right]. unfold ins_rd in Hin. destruct (decide (i = j)) as [->|]; [|left; left; eauto].
  apply elem_of_app in Hin as [Hin|Hin]; [left; left; eauto|]. apply elem_of_list_singleton in Hin as ->. by right.
Qed.
Lemma bef_ins L1 L2 e e1 e2 : bef (L1 ++ L2) e1 e2 -> bef (L1 ++ e :: L2) e1 e2.
Proof.
  intros (l1 & l2 & E & H1 & H2). apply app_split in E as [(x & -> & ->)|(x & -> & ->)].
  - exists l1, (x ++ e :: L2). rewrite app_assoc. split; [done|]. split; [done|]. apply elem_of_app in H2 as [H2|H2]; apply elem_of_app; [by left|right; by right].
  - exists (L1 ++ e :: x), l2. rewrite <-app_assoc. split; [done|]. split; [|done]. apply elem_of_app in H1 as [H1|H1]; apply elem_of_app; [by left|right; by right].
Qed.

(** ** The last instant at which something holds *)
Lemma last_time (P : nat -> Prop) `{!forall t, Decision (P t)} n t0 : (forall t, P t -> t <= n) -> P t0 -> exists t, P t /\ forall u, P u -> u <= t.
Proof.
  intros Hn Ht. induction n as [|n IH].
  - exists t0. split; [done|]. intros u Hu. specialize (Hn _ Hu). lia.
  - destruct (decide (P (S n))) as [Hs|Hs]; [by exists (S n)|]. apply IH. intros t Hp. specialize (Hn _ Hp). destruct (decide (t = S n)) as [->|]; [done|lia].
Qed.
#[local] Instance sh_dec : EqDecision sh.
Proof. solve_decision. Defined.
#[local] Instance live_dec m c : Decision (cell_live m c).
Proof. destruct c as [|l i]; simpl; [left; done|]. apply not_dec. unfold dead. apply _. Defined.
#[local] Instance holds_dec M H N t c n v : Decision (holds M H N t c n v).
Proof. unfold holds. apply _. Defined.

(** ** The invariant *)
(** The call is known to have had, for key [k], the effect of operation [op'] with result [x]. *)
Definition rat k m (st : ostat) (op' : oper) (x : aret) : Prop :=
  match st with
  | SRun op p => op' = op /\ concerns op k /\ (exists d, dn p = Some d /\ x = AOpt (Some (rr_val d))) \/ op = OIter /\ op' = OGet k /\ exists z, ires k m st = Some z /\ x = AOpt z
  | SRet op r => op' = op /\ concerns op k /\ val_of r = Some x \/ op = OIter /\ op' = OGet k /\ exists z, ires k m st = Some z /\ x = AOpt z
  | _ => False
  end.
Lemma rat_fun k m st op1 x1 op2 x2 : rat k m st op1 x1 -> rat k m st op2 x2 -> op1 = op2 /\ x1 = x2.
Proof.
  destruct st as [op p|op r| |]; simpl; try done; intros [(-> & Hc & H1)|(-> & -> & z & H1 & ->)] [(-> & Hc' & H2)|(E & -> & z' & H2 & ->)]; try done; subst; try done.
  - destruct H1 as (d & H1 & ->), H2 as (d' & H2 & ->). split; congruence.
  - split; congruence.
  - split; congruence.
  - split; congruence.
Qed.
Lemma rat_ext H N pos m fl ls ev o st pos' m' k op' x : ext pos m pos' m' -> bst H N pos m fl ls ev o st -> rat k m' st op' x <-> rat k m st op' x.
Proof.
  intros He Hb. destruct st as [op p|op r| |]; simpl; try done. destruct p; simpl; try done. destruct Hb as (_ & _ & _ & _ & _ & Hi).
  split; (intros [?|(-> & -> & z & Hz & ->)]; [by left|right; split; [done|]; split; [done|]; exists z; split; [|done]]).
  - destruct (Hi eq_refl) as [Hio _]. by rewrite (istat_ext _ _ _ _ _ _ _ He (io_stk _ _ _ _ _ _ _ Hio)) in Hz.
  - destruct (Hi eq_refl) as [Hio _]. by rewrite (istat_ext _ _ _ _ _ _ _ He (io_stk _ _ _ _ _ _ _ Hio)).
Qed.

Record linv k M H N ls s rd mu : Prop := {
  li_zero : M 0 = mem0;
  li_legal : legal (fun j => restr k (absm (M j))) rd mu N;
  li_fut : forall j, N < j -> rd j = [];
  li_nodup : NoDup (e_id <$> lin rd mu N);
  li_entry : forall e t, placed rd mu N e t -> exists x, w_ops (c_w s) !! e_id e = Some x /\ rat k (M N) (w_st x) (e_op e) (e_ret e);
  li_rec : forall e t, placed rd mu N e t -> exists ws c n v j, walk H N k (ws ++ [(c, n)]) /\ leafy v /\ holds M H N j c n v /\ t <= 2 * j /\
    forall y a, (y, a) ∈ ws ++ [(c, n)] -> a <= c_fl s (e_id e) y;
  li_comp : forall o x, w_ops (c_w s) !! o = Some x -> forall op y, rat k (M N) (w_st x) op y -> y <> ABool false -> Entry o op y ∈ lin rd mu N;
  li_ord : forall e1 e2, e1 ∈ lin rd mu N -> e2 ∈ lin rd mu N -> hb ls (e_id e1) (e_id e2) -> bef (lin rd mu N) e1 e2;
}.

Lemma linv0 k : linv k (fun _ => mem0) (fun _ => vals (w_hist winit)) 0 [] cinit (fun _ => []) (fun _ => None).
Proof.
  split; try done.
  - by split; [intros j e _ ?%elem_of_nil|intros j ?; lia].
  - apply NoDup_nil_2.
  - intros e t [(j & _ & _ & Hin)|(j & Hj & _)]; [by apply elem_of_nil in Hin|lia].
  - intros e t [(j & _ & _ & Hin)|(j & Hj & _)]; [by apply elem_of_nil in Hin|lia].
  - intros e1 e2 Hin. by apply elem_of_nil in Hin.
Qed.

Lemma linv_inv k M H N pos ls s ev o op ps s' ev1 rd mu : op_wf op -> strong w -> binv M H N pos ls s ev -> linv k M H N ls s rd mu ->
  cstep w s (CInv o op ps) = Some (s', ev1) -> linv k M H N (ls ++ [CInv o op ps]) s' rd mu.
Proof.
  intros Hwf Hw B L Hst. destruct (binv_inv w _ _ _ _ _ _ _ _ _ _ _ _ Hwf Hw B Hst) as (Ho & Hops & _ & Hfl & _ & Hhb).
  assert (forall e, e ∈ lin rd mu N -> e_id e <> o) as Hne. { intros e (t & He)%elem_lin. destruct (li_entry _ _ _ _ _ _ _ _ L _ _ He) as (x & Hx & _). congruence. }
  split; try apply L.
  - intros e t He. destruct (li_entry _ _ _ _ _ _ _ _ L _ _ He) as (x & Hx & Hest). exists x. split; [|done]. rewrite Hops, lookup_insert_ne; [done|]. congruence.
  - intros e t He. destruct (li_rec _ _ _ _ _ _ _ _ L _ _ He) as (ws & c & n & v & j & H1 & H2 & H3 & H4 & H5). exists ws, c, n, v, j. repeat (split; [done|]). intros y a Hya. rewrite Hfl; [by apply H5|]. apply Hne, elem_lin. eauto.
  - intros o' x Hx. rewrite Hops in Hx. destruct (decide (o' = o)) as [->|Hno].
    + rewrite lookup_insert in Hx. injection Hx as <-. simpl. intros op' y Hr. exfalso. destruct Hr as [(_ & _ & d & Hd & _)|(-> & _ & z & Hz & _)]; [by destruct op|done].
    + rewrite lookup_insert_ne in Hx by done. by apply (li_comp _ _ _ _ _ _ _ _ L).
  - intros e1 e2 H1 H2 Hh. apply Hhb in Hh as [Hh|Hh]; [by apply (li_ord _ _ _ _ _ _ _ _ L)|]. by apply Hne in H2.
Qed.


(** A call takes a step that adds nothing. *)
Lemma linv_quiet k M H N pos ls s ev M' H' N' pos' s' o n0 spur a st tv pv st' tv' pv' rd mu mu' : binv M H N pos ls s ev ->
  linv k M H N ls s rd mu -> w_ops (c_w s) !! o = Some (WOp st tv pv) -> w_ops (c_w s') = <[o := WOp st' tv' pv']> (w_ops (c_w s)) -> ext pos (M N) pos' (M' N') ->
  keeps M H N M' H' N' -> (forall o' c, o' <> o -> c_fl s' o' c = c_fl s o' c) -> (forall c, c_fl s o c <= c_fl s' o c) ->
  (N' = N /\ mu' = mu \/ N' = S N /\ mu' = add_mu mu N None /\ same (restr k (absm (M N))) (restr k (absm (M' N')))) ->
  (forall op y, rat k (M N) st op y -> rat k (M' N') st' op y) -> (forall op y, rat k (M' N') st' op y -> y <> ABool false -> rat k (M N) st op y) ->
  linv k M' H' N' (ls ++ [CStep o n0 spur a]) s' rd mu'.
Proof.
  intros B L Ho Hops He (K1 & K2 & K3 & K4) Hf1 Hf2 HN Hr1 Hr2.
  assert (forall o' x op y, o' <> o -> w_ops (c_w s) !! o' = Some x -> rat k (M' N') (w_st x) op y <-> rat k (M N) (w_st x) op y) as Hrat.
  { intros o' x op y _ Hx. pose proof (b_ops _ _ _ _ _ _ _ B _ _ Hx) as Hb. rewrite <-(b_mem _ _ _ _ _ _ _ B) in Hb. by eapply rat_ext. }
  assert (lin rd mu' N' = lin rd mu N) as Elin. { destruct HN as [[-> ->]|(-> & -> & _)]; [done|]. rewrite lin_snoc by (apply (li_fut _ _ _ _ _ _ _ _ L); lia). by rewrite app_nil_r. }
  assert (forall e t, placed rd mu' N' e t -> placed rd mu N e t) as Hpl.
  { intros e t Hp. destruct HN as [[-> ->]|(-> & -> & _)]; [done|]. apply placed_snoc_inv in Hp as [|[_ ?]]; [done|done|]. apply (li_fut _ _ _ _ _ _ _ _ L). lia. }
  split.
  - rewrite K1 by lia. apply L.
  - destruct (li_legal _ _ _ _ _ _ _ _ L) as [Hr Hm]. destruct HN as [[-> ->]|(-> & -> & Hs)].
    + split; [intros j e Hj Hin; rewrite !K1 by done; by apply Hr|]. intros j Hj. rewrite !K1 by lia. by apply Hm.
    + split.
      * intros j e Hj Hin. assert (j <= N). { destruct (decide (j = S N)) as [->|]; [|lia]. rewrite (li_fut _ _ _ _ _ _ _ _ L) in Hin by lia. by apply elem_of_nil in Hin. } rewrite !K1 by done. by apply Hr.
      * intros j Hj. unfold add_mu. destruct (decide (j = N)) as [->|]; [by rewrite (K1 N) by done|]. rewrite !K1 by lia. apply Hm. lia.
  - intros j Hj. apply (li_fut _ _ _ _ _ _ _ _ L). destruct HN as [[-> _]|(-> & _)]; lia.
  - rewrite Elin. apply L.
  - intros e t Hp%Hpl. destruct (li_entry _ _ _ _ _ _ _ _ L _ _ Hp) as (x & Hx & Hest). rewrite Hops. destruct (decide (e_id e = o)) as [E|Hne].
    + rewrite E in Hx |- *. rewrite lookup_insert. eexists. split; [done|]. rewrite Ho in Hx. injection Hx as <-. by apply Hr1.
    + rewrite lookup_insert_ne by done. exists x. split; [done|]. by eapply Hrat.
  - intros e t Hp%Hpl. destruct (li_rec _ _ _ _ _ _ _ _ L _ _ Hp) as (ws & c & n & v & j & H1 & H2 & H3 & H4 & H5). exists ws, c, n, v, j. split; [by apply K2|]. split; [done|]. split; [by apply K3|]. split; [done|].
    intros y b Hyb. specialize (H5 _ _ Hyb). destruct (decide (e_id e = o)) as [E|Hne]; [|by rewrite Hf1]. rewrite E in *. by etrans; [|apply Hf2].
  - rewrite Elin. intros o' x Hx op y Hr Hy. rewrite Hops in Hx. destruct (decide (o' = o)) as [->|Hno].
    + rewrite lookup_insert in Hx. injection Hx as <-. eapply (li_comp _ _ _ _ _ _ _ _ L _ _ Ho); [|done]. by apply Hr2.
    + rewrite lookup_insert_ne in Hx by done. eapply (li_comp _ _ _ _ _ _ _ _ L _ _ Hx); [|done]. by eapply Hrat.
  - rewrite Elin. intros e1 e2 H1 H2 Hh%hb_step. by apply (li_ord _ _ _ _ _ _ _ _ L).
Qed.

(** A call takes effect. *)
Lemma linv_add k M H N pos ls s ev M' H' N' pos' s' o n0 spur a op0 p tv pv st' tv' pv' rd mu rd' mu' op x T L1 L2 : binv M H N pos ls s ev ->
  linv k M H N ls s rd mu -> w_ops (c_w s) !! o = Some (WOp (SRun op0 p) tv pv) -> w_ops (c_w s') = <[o := WOp st' tv' pv']> (w_ops (c_w s)) -> ext pos (M N) pos' (M' N') ->
  keeps M H N M' H' N' -> (forall o' c, o' <> o -> c_fl s' o' c = c_fl s o' c) ->
  (forall op y, ~ rat k (M N) (SRun op0 p) op y) -> rat k (M' N') st' op x ->
  (forall j, N' < j -> rd' j = []) -> legal (fun j => restr k (absm (M' j))) rd' mu' N' ->
  (forall e t, placed rd' mu' N' e t -> placed rd mu N e t \/ t = T /\ e = Entry o op x) ->
  lin rd mu N = L1 ++ L2 -> lin rd' mu' N' = L1 ++ Entry o op x :: L2 ->
  (exists ws c n v j, walk H' N' k (ws ++ [(c, n)]) /\ leafy v /\ holds M' H' N' j c n v /\ T <= 2 * j /\ forall y b, (y, b) ∈ ws ++ [(c, n)] -> b <= c_fl s' o y) ->
  (forall e, e ∈ lin rd mu N -> hb ls (e_id e) o -> e ∈ L1) ->
  linv k M' H' N' (ls ++ [CStep o n0 spur a]) s' rd' mu'.
Proof.
  intros B L Ho Hops Hext (K1 & K2 & K3 & K4) Hf1 Hr0 Hr1 Hfut Hleg Hpl E1 E2 Hrec Hanc.
  assert (forall o' x op y, o' <> o -> w_ops (c_w s) !! o' = Some x -> rat k (M' N') (w_st x) op y <-> rat k (M N) (w_st x) op y) as Hrat.
  { intros o' z op' y _ Hz. pose proof (b_ops _ _ _ _ _ _ _ B _ _ Hz) as Hb. rewrite <-(b_mem _ _ _ _ _ _ _ B) in Hb. by eapply rat_ext. }
  assert (forall o1 o2, hb ls o1 o2 -> is_returned (c_w s) o1 = true) as Hret. { intros o1 o2 Hh. apply (b_hb _ _ _ _ _ _ _ B _ _ Hh). }
  assert (forall e t, placed rd mu N e t -> e_id e <> o) as Hne.
  { intros e t He Eo. destruct (li_entry _ _ _ _ _ _ _ _ L _ _ He) as (y & Hy & Hest). rewrite Eo, Ho in Hy. injection Hy as <-. by eapply Hr0. }
  assert (forall e, e ∈ lin rd mu N -> e_id e <> o) as Hne'. { intros e (t & He)%elem_lin. by eapply Hne. }
  assert (forall e, e ∈ lin rd mu N -> e ∈ lin rd' mu' N') as Hsub. { intros e He. rewrite E1 in He. rewrite E2. apply elem_of_app in He as [He|He]; apply elem_of_app; [by left|right; by right]. }
  assert (forall e, e ∈ lin rd' mu' N' -> e ∈ lin rd mu N \/ e = Entry o op x) as Hsub'.
  { intros e He. rewrite E2 in He. rewrite E1. apply elem_of_app in He as [He|He]; [left; apply elem_of_app; by left|]. apply elem_of_cons in He as [->|He]; [by right|]. left. apply elem_of_app. by right. }
  split.
  - rewrite K1 by lia. apply L.
  - done.
  - done.
  - rewrite E2, fmap_app, fmap_cons, <-Permutation_middle, <-fmap_app, <-E1. apply NoDup_cons. split; [|apply L]. intros (e & Ee & He)%elem_of_list_fmap. apply Hne' in He. apply He. by rewrite <-Ee.
  - intros e t He. rewrite Hops. destruct (Hpl _ _ He) as [He'|[-> ->]].
    + destruct (li_entry _ _ _ _ _ _ _ _ L _ _ He') as (y & Hy & Hest). exists y. rewrite lookup_insert_ne by (apply not_eq_sym; by eapply Hne). split; [done|]. eapply Hrat; [by eapply Hne|done|done].
    + simpl. rewrite lookup_insert. eexists. split; [done|]. exact Hr1.
  - intros e t He. destruct (Hpl _ _ He) as [He'|[-> ->]].
    + destruct (li_rec _ _ _ _ _ _ _ _ L _ _ He') as (ws & c & n & v & j & H1 & H2 & H3 & H4 & H5). exists ws, c, n, v, j. split; [by apply K2|]. split; [done|]. split; [by apply K3|]. split; [done|].
      intros y b Hyb. rewrite Hf1 by (by eapply Hne). by apply H5.
    + exact Hrec.
  - intros o' z Hz op' y Hr Hy. rewrite Hops in Hz. destruct (decide (o' = o)) as [->|Hno].
    + rewrite lookup_insert in Hz. injection Hz as <-. destruct (rat_fun _ _ _ _ _ _ _ Hr Hr1) as [-> ->]. rewrite E2. apply elem_of_app; right; by left.
    + rewrite lookup_insert_ne in Hz by done. apply Hsub. eapply (li_comp _ _ _ _ _ _ _ _ L _ _ Hz); [|done]. by eapply Hrat.
  - intros e1 e2 H1 H2 Hh%hb_step. assert (e_id e1 <> o) as Hn1. { intros Eo. rewrite Eo in Hh. apply Hret in Hh. unfold is_returned in Hh. by rewrite Ho in Hh. }
    destruct (Hsub' _ H1) as [H1'| ->]; [|done]. destruct (Hsub' _ H2) as [H2'| ->].
    + rewrite E2. apply bef_ins. rewrite <-E1. by apply (li_ord _ _ _ _ _ _ _ _ L).
    + rewrite E2. apply bef_app; [by apply Hanc|by left].
Qed.

(** A call has read its result. *)
Lemma linv_read k M H N pos ls s ev M' H' pos' s' ev' o n0 spur a op0 p tv pv st' tv' pv' rd mu op x ws c n v : binv M H N pos ls s ev -> binv M' H' N pos' (ls ++ [CStep o n0 spur a]) s' ev' ->
  linv k M H N ls s rd mu -> w_ops (c_w s) !! o = Some (WOp (SRun op0 p) tv pv) -> w_ops (c_w s') = <[o := WOp st' tv' pv']> (w_ops (c_w s)) -> ext pos (M N) pos' (M' N) ->
  keeps M H N M' H' N -> (forall o' c, o' <> o -> c_fl s' o' c = c_fl s o' c) ->
  (forall op y, ~ rat k (M N) (SRun op0 p) op y) -> rat k (M' N) st' op x ->
  walk H' N k (ws ++ [(c, n)]) -> leafy v -> H' N c !! n = Some v -> bounds (c_fl s') ls o (ws ++ [(c, n)]) ->
  (forall t, holds M' H' N t c n v -> spec_step (restr k (absm (M' t))) op x (restr k (absm (M' t)))) ->
  exists rd' mu', linv k M' H' N (ls ++ [CStep o n0 spur a]) s' rd' mu'.
Proof.
  intros B B' L Ho Hops Hext HK Hf1 Hr0 Hr1 Hwk Hlf Hn Hbd Hspec. pose proof HK as (K1 & K2 & K3 & K4). pose proof (b_tl _ _ _ _ _ _ _ B') as T'.
  assert (forall o1 o2, hb ls o1 o2 -> is_returned (c_w s) o1 = true) as Hret. { intros o1 o2 Hh. apply (b_hb _ _ _ _ _ _ _ B _ _ Hh). }
  destruct (holds_ex _ _ _ _ T' _ _ _ Hn) as [t0 Ht0]. destruct (last_time (fun t => holds M' H' N t c n v) N t0) as (t & Ht & Hlast); [by intros t (? & _)|done|].
  assert (t <= N) as HtN by apply Ht. destruct (lin_ins rd mu t (Entry o op x) N HtN) as (L1 & L2 & E1 & E2 & HL).
  exists (ins_rd rd t (Entry o op x)), mu. eapply (linv_add k M H N pos ls s ev M' H' N); try done.
  - intros j Hj. unfold ins_rd. rewrite decide_False by lia. by apply (li_fut _ _ _ _ _ _ _ _ L).
  - destruct (li_legal _ _ _ _ _ _ _ _ L) as [Hr Hm]. split.
    + intros j e Hj He. unfold ins_rd in He. assert (e ∈ rd j -> spec_step (restr k (absm (M' j))) (e_op e) (e_ret e) (restr k (absm (M' j)))) as Hold. { intros He'. rewrite !K1 by done. by apply Hr. }
      destruct (decide (j = t)) as [->|]; [|by apply Hold]. apply elem_of_app in He as [He|He]; [by apply Hold|]. apply elem_of_list_singleton in He as ->. by apply Hspec.
    + intros j Hj. rewrite !K1 by lia. by apply Hm.
  - intros e u He. apply placed_ins_inv in He as [|[-> ->]]; [by left|]. by right.
  - exists ws, c, n, v, t. split; [done|]. split; [done|]. split; [done|]. split; [done|]. intros y b Hyb. by apply Hbd.
  - intros e (u & He)%elem_lin Hh. apply (HL _ _ He). destruct (li_rec _ _ _ _ _ _ _ _ L _ _ He) as (ws1 & c1 & n1 & v1 & j1 & G1 & G2 & G3 & G4 & G5).
    destruct (walk_mono _ _ _ _ T' k ws1 ws c1 n1 v1 c n v j1) as (t1 & Ht1 & Hh1); [by apply K2|done|by apply K3|done|done|done| |].
    + intros y b1 b2 Hy1 Hy2. etrans; [by apply G5|]. destruct (Hbd _ _ Hy2) as [_ Hb2]. specialize (Hb2 _ Hh). rewrite Hf1 in Hb2; [done|]. intros Eo. rewrite Eo in Hh. apply Hret in Hh. unfold is_returned in Hh. by rewrite Ho in Hh.
    + specialize (Hlast _ Hh1). lia.
Qed.

Lemma rat_run k m op p op' x : op <> OIter -> rat k m (SRun op p) op' x <-> op' = op /\ concerns op k /\ exists d, dn p = Some d /\ x = AOpt (Some (rr_val d)).
Proof. intros Hn. simpl. split; [intros [?|[? _]]; done|by left]. Qed.
Lemma rat_ret k m op r op' x : op <> OIter -> rat k m (SRet op r) op' x <-> op' = op /\ concerns op k /\ val_of r = Some x.
Proof. intros Hn. simpl. split; [intros [?|[? _]]; done|by left]. Qed.
Lemma rat_iter k m st op' x : match st with SRun op _ | SRet op _ => op = OIter | _ => False end -> rat k m st op' x <-> op' = OGet k /\ exists z, ires k m st = Some z /\ x = AOpt z.
Proof. intros E. destruct st as [op p|op r| |]; simpl in E; [| |done|done]; subst op; simpl; (split; [intros [(_ & [] & _)|(_ & H)]; done|intros H; by right]). Qed.

Lemma linv_step k M H N pos ls s ev o n0 spur a op p tv pv nx tv' pv' M' H' N' pos' s' ev' rd mu :
  binv M H N pos ls s ev -> binv M' H' N' pos' (ls ++ [CStep o n0 spur a]) s' ev' -> linv k M H N ls s rd mu ->
  w_ops (c_w s) !! o = Some (WOp (SRun op p) tv pv) -> w_ops (c_w s') = <[o := WOp (nx_stat op nx) tv' pv']> (w_ops (c_w s)) ->
  keeps M H N M' H' N' -> (forall o' c, o' <> o -> c_fl s' o' c = c_fl s o' c) -> (forall c, c_fl s o c <= c_fl s' o c) -> ext pos (w_mem (c_w s)) pos' (w_mem (c_w s')) ->
  (op <> OIter /\ effect M H N M' H' N' (c_fl s') ls o op p nx \/ op = OIter /\ ieffect M H N M' H' N' (c_fl s') ls o op p nx) ->
  exists rd' mu', linv k M' H' N' (ls ++ [CStep o n0 spur a]) s' rd' mu'.
Proof.
  intros B B' L Ho Hops HK Hf1 Hf2 Hext Heff. rewrite <-(b_mem _ _ _ _ _ _ _ B), <-(b_mem _ _ _ _ _ _ _ B') in Hext.
  pose proof HK as (K1 & K2 & K3 & K4). pose proof (b_tl _ _ _ _ _ _ _ B') as T'.
  assert (op_wf op) as Hwf by apply (b_ops _ _ _ _ _ _ _ B _ _ Ho).
  assert (rd (S N) = []) as Hfut by (apply (li_fut _ _ _ _ _ _ _ _ L); lia).
  destruct Heff as [[Hni Heff]|[-> (-> & -> & -> & Hi)]].
  2:{ (* an iterator *)
    pose proof (b_ops _ _ _ _ _ _ _ B _ _ Ho) as Hbo.
    assert (match nx_stat OIter nx with SRun op _ | SRet op _ => op = OIter | _ => False end) as Hst'.
    { destruct nx as [p'|r|f]; try done. pose proof (b_ops _ _ _ _ _ _ _ B' o) as Hb. rewrite Hops in Hb. specialize (Hb _ (lookup_insert _ _ _)). done. }
    destruct (Hi k) as [E|(E & x & Ex & ws & c & n & v & Hwk & Hlf & Hn & Hbd & Hlk)].
    - exists rd, mu. eapply linv_quiet; try done.
      + by left.
      + intros op y. rewrite !rat_iter by done. by rewrite E.
      + intros op y Hr _. revert Hr. rewrite !rat_iter by done. by rewrite E.
    - eapply (linv_read k M H N pos ls s ev M H pos' s' ev' o n0 spur a OIter p tv pv _ tv' pv' rd mu (OGet k) (AOpt x) ws c n v); try done.
      + intros op y. rewrite rat_iter by done. rewrite E. intros (_ & z & Hz & _). done.
      + apply rat_iter; [done|]. split; [done|]. by exists x.
      + intros t Hh. simpl. split; [|done]. unfold restr. rewrite keqb_refl. rewrite (holds_abs _ _ _ _ _ _ _ _ _ _ T' Hwk Hh Hlf k (keqb_refl k)). f_equal. by apply Hlk, keqb_refl. }
  destruct Heff as [HN Hnx|ws c n v r x -> Hd -> Hx Hwk Hlf Hn Hbd Hspec|ws c n v x -> Hd Hset Hspec Hwk Hlf Hh Hbd].
  - assert ((forall op' y, rat k (M N) (SRun op p) op' y -> rat k (M' N') (nx_stat op nx) op' y) /\ (forall op' y, rat k (M' N') (nx_stat op nx) op' y -> y <> ABool false -> rat k (M N) (SRun op p) op' y)) as [Hr1 Hr2].
    { destruct nx as [p'|r|f]; cbn [nx_stat]; [| |done].
      - split; intros op' y; rewrite !rat_run by done; by rewrite Hnx.
      - split; intros op' y; rewrite rat_run, rat_ret by done.
        + intros (-> & Hc & d & Hd & ->). split; [done|]. split; [done|]. destruct Hnx as [(d' & Hd' & ->)|[Hd' _]]; [|congruence]. rewrite Hd in Hd'. by injection Hd' as <-.
        + intros (-> & Hc & Hv) Hy. split; [done|]. split; [done|]. destruct Hnx as [(d' & Hd' & ->)|[Hd' [E|E]]]; [|congruence|congruence]. simpl in Hv. injection Hv as <-. eauto. }
    destruct HN as [->|[-> Hsm]].
    + exists rd, mu. eapply linv_quiet; try done. by left.
    + exists rd, (add_mu mu N None). eapply linv_quiet; try done. right. split; [done|]. split; [done|]. by apply restr_same.
  - destruct (concerns_dec op k) as [Hc|Hc].
    + eapply (linv_read k M H N pos ls s ev M' H' pos' s' ev' o n0 spur a op p tv pv _ tv' pv' rd mu op x ws c n v); try done.
      * intros op' y. rewrite rat_run by done. intros (_ & _ & d & Hd' & _). congruence.
      * by apply rat_ret.
      * by apply Hwk.
      * intros t Hh. by apply Hspec.
    + exists rd, mu. eapply linv_quiet; try done; [by left|..]; intros op' y; cbn [nx_stat]; rewrite rat_run, rat_ret by done; by intros (_ & ? & _).
  - assert (forall op' y, ~ rat k (M N) (SRun op p) op' y) as Hr0. { intros op' y. rewrite rat_run by done. intros (_ & _ & d & Hd' & _). congruence. }
    destruct (concerns_dec op k) as [Hc|Hc].
    + exists rd, (add_mu mu N (Some (Entry o op x))). eapply (linv_add k M H N pos ls s ev M' H' (S N) pos' s' o n0 spur a op p tv pv _ tv' pv' rd mu rd _ op x (2 * N + 1) (lin rd mu N) []); try done.
      * destruct nx as [p'|r|f]; cbn [nx_stat]; simpl in Hset; [|by apply rat_ret|done]. apply rat_run; [done|]. done.
      * intros j Hj. apply (li_fut _ _ _ _ _ _ _ _ L). lia.
      * destruct (li_legal _ _ _ _ _ _ _ _ L) as [Hr Hm]. split.
        -- intros j e Hj He. assert (j <= N). { destruct (decide (j = S N)) as [->|]; [|lia]. rewrite Hfut in He. by apply elem_of_nil in He. } rewrite !K1 by done. by apply Hr.
        -- intros j Hj. unfold add_mu. destruct (decide (j = N)) as [->|]; [rewrite (K1 N) by done; simpl; by apply restr_step|]. rewrite !K1 by lia. apply Hm. lia.
      * intros e u He. apply placed_snoc_inv in He as [|[-> [= <-]]]; [by left| |done]. by right.
      * by rewrite app_nil_r.
      * rewrite lin_snoc by exact Hfut. done.
      * exists ws, c, n, v, (S N). split; [by apply Hwk|]. split; [done|]. split; [done|]. split; [lia|done].
    + exists rd, (add_mu mu N None). eapply linv_quiet; try done.
      * right. split; [done|]. split; [done|]. rewrite <-(K1 N) by done. rewrite <-(K1 N) in Hspec by done. by eapply restr_other.
      * intros op' y Hr. by apply Hr0 in Hr.
      * intros op' y Hr _. exfalso. destruct nx as [p'|r|f]; cbn [nx_stat] in Hr; [apply rat_run in Hr; [|done]|apply rat_ret in Hr; [|done]|done]; by destruct Hr as (_ & ? & _).
Qed.

(** ** Executions *)
Definition good ls s ev : Prop := exists M H N pos, binv M H N pos ls s ev /\ forall k, exists rd mu, linv k M H N ls s rd mu.

Lemma good_run ls0 s ev0 ls s' ev : strong w -> (forall o op ps, CInv o op ps ∈ ls -> op_wf op) -> good ls0 s ev0 -> crun w s ls = Some (s', ev) -> good (ls0 ++ ls) s' (ev0 ++ ev).
Proof.
  intros Hw. revert ls0 s ev0 ev. induction ls as [|lb ls IH]; intros ls0 s ev0 ev Hwf G Hr; cbn [crun] in Hr.
  - injection Hr as <- <-. by rewrite !app_nil_r.
  - destruct (cstep w s lb) as [[s1 ev1]|] eqn:Es; [|done]. destruct (crun w s1 ls) as [[s2 ev2]|] eqn:Er; [|done]. injection Hr as <- <-.
    assert (good (ls0 ++ [lb]) s1 (ev0 ++ ev1)) as G1.
    { destruct G as (M & H & N & pos & B & Hk). destruct lb as [o op ps|o n spur a].
      - assert (op_wf op) as Hop by (eapply Hwf; by left). destruct (binv_inv w _ _ _ _ _ _ _ _ _ _ _ _ Hop Hw B Es) as (_ & _ & _ & _ & B' & _). exists M, H, N, pos. split; [done|].
        intros k. destruct (Hk k) as (rd & mu & L). exists rd, mu. by eapply linv_inv.
      - destruct (binv_step w _ _ _ _ _ _ _ _ _ _ _ _ _ Hw B Es) as (op & p & tv & pv & nx & tv' & pv' & acts & M' & H' & N' & pos' & Ho & Hops & -> & B' & HK & Hf1 & Hf2 & Hext & Heff).
        exists M', H', N', pos'. split; [done|]. intros k. destruct (Hk k) as (rd & mu & L). by eapply linv_step. }
    rewrite (cons_middle lb), !app_assoc. eapply IH; [|done|done]. intros o op ps Hin. eapply Hwf. by right.
Qed.

Theorem good_exec ls s ev : strong w -> wf_ccalls ls -> cexec w ls s ev -> good ls s ev.
Proof.
  intros Hw Hwf He. apply (good_run [] cinit []); [done|done| |done]. destruct binv0 as [pos B]. eexists _, _, _, pos. split; [exact B|]. intros k. eexists _, _. apply linv0.
Qed.

(** What an iterator has yielded. *)
Lemma iter_found M H N pos m fl ls ev o st k r : bst H N pos m fl ls ev o st -> match st with SRun op _ | SRet op _ => op = OIter | _ => False end -> EYield o r ∈ ev -> keqb (keyof (rr_val r)) k = true ->
  ires k m st = Some (Some (rr_val r)).
Proof.
  intros Hb Hop Hy%elem_of_yields Hk. destruct st as [op p|op x| |]; simpl in Hop; try done; subst op.
  - destruct Hb as (_ & _ & Hps & _ & _ & Hi). specialize (Hi eq_refl). destruct (iter_pc _ _ _ _ Hps) as [?|[->|(lv & out & ->)]]; [done|simpl in Hi; rewrite Hi in Hy; by apply elem_of_nil in Hy|].
    destruct Hi as [Hi Eo]. rewrite Eo in Hy. simpl. assert (find_pl k (Iter.vals out ++ ipend m lv) = Some (rr_val r)) as Hf.
    { apply find_pl_nodup; [apply Hi| |done]. apply elem_of_app. left. apply elem_of_list_fmap. by exists r. }
    unfold istat. destruct (iat lv k) as [[t d]|] eqn:E; [|by rewrite Hf]. rewrite (io_new _ _ _ _ _ _ _ Hi _ _ _ E) in Hf. done.
  - destruct Hb as (_ & _ & Hi). destruct (Hi eq_refl) as (out & -> & Eo & Hn). simpl. f_equal. apply find_pl_nodup; [done| |done]. rewrite Eo in Hy. apply elem_of_list_fmap. by exists r.
Qed.

Lemma iter_state M H N pos ls s ev o : binv M H N pos ls s ev -> EInv o OIter ∈ ev -> exists x, w_ops (c_w s) !! o = Some x /\ match w_st x with SRun op _ | SRet op _ => op = OIter | _ => False end.
Proof.
  intros B Hi. destruct (b_evi _ _ _ _ _ _ _ B _ _ Hi) as (x & Hx & Hop). exists x. split; [done|]. pose proof (b_ops _ _ _ _ _ _ _ B _ _ Hx) as Hb. destruct (w_st x); simpl in *; try done; congruence.
Qed.

Theorem yields_distinct ls s ev o : strong w -> wf_ccalls ls -> cexec w ls s ev -> EInv o OIter ∈ ev -> nodupk (Iter.vals (yields_of ev o)).
Proof.
  intros Hw Hwf He Hi. destruct (good_exec _ _ _ Hw Hwf He) as (M & H & N & pos & B & _). destruct (iter_state _ _ _ _ _ _ _ _ B Hi) as (x & Hx & Hop). pose proof (b_ops _ _ _ _ _ _ _ B _ _ Hx) as Hb.
  destruct (w_st x) as [op p|op r| |]; try done; subst op.
  - destruct Hb as (_ & _ & Hps & _ & _ & Hii). specialize (Hii eq_refl). destruct (iter_pc _ _ _ _ Hps) as [?|[->|(lv & out & ->)]]; [done|simpl in Hii; rewrite Hii; apply nodupk_nil|].
    destruct Hii as [Hii ->]. pose proof (io_nodup _ _ _ _ _ _ _ Hii) as Hn. by apply nodupk_app_l in Hn.
  - destruct Hb as (_ & _ & Hii). by destruct (Hii eq_refl) as (out & _ & -> & ?).
Qed.

Theorem key_order_exec ls s ev k : strong w -> wf_ccalls ls -> cexec w ls s ev -> exists l, key_order k l ls ev.
Proof.
  intros Hw Hwf He. destruct (good_exec _ _ _ Hw Hwf He) as (M & H & N & pos & B & Hk). destruct (Hk k) as (rd & mu & L). exists (lin rd mu N). split.
  - apply L.
  - intros e (t & Hp)%elem_lin. destruct (li_entry _ _ _ _ _ _ _ _ L _ _ Hp) as (x & Hx & Hr). pose proof (b_ops _ _ _ _ _ _ _ B _ _ Hx) as Hb.
    destruct (w_st x) as [op p|op r|op f|]; simpl in *; [|..|done|done].
    + destruct Hb as (_ & _ & _ & Hb & _). destruct Hr as [(-> & Hc & _)|(-> & Hop & _)]; [by left|by right].
    + destruct Hb as (Hb & _). destruct Hr as [(-> & Hc & _)|(-> & Hop & _)]; [by left|by right].
  - intros o op r x Hi Hr Hc Hv Hn. destruct (b_evr _ _ _ _ _ _ _ B _ _ Hr) as (op' & tv & pv & Hx). destruct (b_evi _ _ _ _ _ _ _ B _ _ Hi) as (y & Hy & Hop).
    rewrite Hx in Hy. injection Hy as <-. simpl in Hop. injection Hop as ->. eapply (li_comp _ _ _ _ _ _ _ _ L _ _ Hx); [|done]. simpl. by left.
  - intros o r Hi Hy Hk0. destruct (iter_state _ _ _ _ _ _ _ _ B Hi) as (x & Hx & Hop). eapply (li_comp _ _ _ _ _ _ _ _ L _ _ Hx); [|done]. apply rat_iter; [done|]. split; [done|].
    exists (Some (rr_val r)). split; [|done]. rewrite (b_mem _ _ _ _ _ _ _ B). eapply iter_found; try done. by eapply (b_ops _ _ _ _ _ _ _ B).
  - intros o ys Hi Hr Hno. destruct (b_evr _ _ _ _ _ _ _ B _ _ Hr) as (op' & tv & pv & Hx). destruct (b_evi _ _ _ _ _ _ _ B _ _ Hi) as (y & Hy & Hop). rewrite Hx in Hy. injection Hy as <-. simpl in Hop. injection Hop as ->.
    eapply (li_comp _ _ _ _ _ _ _ _ L _ _ Hx); [|done]. apply rat_iter; [done|]. split; [done|]. exists None. split; [|done]. simpl. f_equal. apply find_pl_None. intros q Hq. apply elem_of_list_fmap in Hq as (r & -> & Hin). apply Hno.
    destruct (b_ops _ _ _ _ _ _ _ B _ _ Hx) as (_ & _ & Hb). destruct (Hb eq_refl) as (out & [= ->] & Eo & _). apply elem_of_yields. by rewrite Eo.
  - exists (restr k (absm (M N))). eapply (spec_run_same_l (restr k (absm (M 0)))); [|by apply (legal_run (fun j => restr k (absm (M j)))), L].
    rewrite (li_zero _ _ _ _ _ _ _ _ L). intros k'. unfold restr. by destruct (keqb k k').
  - intros o1 o2 (e1 & -> & H1)%elem_of_list_fmap (e2 & -> & H2)%elem_of_list_fmap Hh. destruct (li_ord _ _ _ _ _ _ _ _ L _ _ H1 H2 Hh) as (l1 & l2 & E & I1 & I2). exists l1, l2, e1, e2. done.
Qed.
End wlin.
