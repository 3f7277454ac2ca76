(** * What the steps of an execution satisfy. *)
From Verif Require Import Model Mem Spec LinSpec Weak WeakInv WeakStep WeakSys WeakRun WeakCoh WeakFree FreeSim FreeStep Rc11 Plain PlainRel PlainLook.

Section inv.
Context {C : Config} (w : orders).
Implicit Types (L : list (option xstep)) (x : xstep) (l : loc) (o : opid) (t i : nat) (v : sh) (c : cell) (m : mem) (s : pstate).

(** ** The log, step by step *)
Definition has L o l : Prop := exists t', loaded w L o t' l \/ allocated L o t' l.
Record wf_new L x : Prop := {
  wn_at : forall c k ord t0, x_acc w x = Some (c, k, ord) -> x_rf x = At t0 -> exists x0, step_at L t0 x0 /\ x_writes w x0 = true /\ forall v l, read_cell (x_mem x) c = Some v -> sh_loc v = Some l -> writes_value w x0 v;
  wn_init : forall c k ord c', x_acc w x = Some (c, k, ord) -> x_rf x = Init c' ->
    c' = c /\ forall v l, read_cell (x_mem x) c = Some v -> sh_loc v = Some l -> exists b i t0 x0, c = CSlot b i /\ step_at L t0 x0 /\ init_slot x0 b i v;
  wn_slot : forall l i, in_slot w x l i -> has L (x_call x) l;
  wn_look : forall l, uses x l -> has L (x_call x) l \/ loads_ptr w x l \/ allocs x l;
  wn_cas : forall c ord v l, x_acc w x = Some (c, ACas, ord) -> writes_value w x v -> sh_loc v = Some l -> has L (x_call x) l \/ allocs x l;
  wn_fetch : forall c ord v l, x_acc w x = Some (c, AFetch, ord) -> writes_value w x v -> sh_loc v = Some l -> loads_ptr w x l;
  wn_body : forall b i v l, init_slot x b i v -> sh_loc v = Some l -> has L (x_call x) l;
  wn_uniq : forall t1 x1 l, step_at L t1 x1 -> allocs x1 l -> ~ allocs x l;
}.
Definition wf_all L : Prop := forall t x, step_at L t x -> wf_new (take t L) x.

Lemma take_at L t t0 x0 : step_at (take t L) t0 x0 -> t0 < t /\ step_at L t0 x0.
Proof. unfold step_at. intros H. pose proof (lookup_lt_Some _ _ _ H) as Hl. rewrite take_length in Hl. split; [lia|]. rewrite lookup_take in H; [done|lia]. Qed.
Lemma take_has L t o l : has (take t L) o l -> hold w L t o l.
Proof.
  intros (t' & [(x & S & E & H)|(x & S & E & H)]); destruct (take_at _ _ _ _ S) as [Hlt S']; exists t'; (split; [done|]); [left|right]; by exists x.
Qed.
Lemma wf_all_log L : wf_all L -> wf_log w L.
Proof.
  intros H. split.
  - intros t x c k ord t0 S A E. destruct (wn_at _ _ (H _ _ S) _ _ _ _ A E) as (x0 & S0 & X). destruct (take_at _ _ _ _ S0) as [Hlt S0']. split; [done|]. by exists x0.
  - intros t x c k ord c' S A E. destruct (wn_init _ _ (H _ _ S) _ _ _ _ A E) as (-> & X). split; [done|]. intros v l Hr Hl. destruct (X v l Hr Hl) as (b & i & t0 & x0 & -> & S0 & I). destruct (take_at _ _ _ _ S0) as [Hlt S0'].
    by exists b, i, t0, x0.
  - intros t x l i S A. eapply take_has, wn_slot; [by apply H|exact A].
  - intros t x l S A. destruct (wn_look _ _ (H _ _ S) _ A) as [X|X]; [left; by apply take_has|by right].
  - intros t x c ord v l S A V E. destruct (wn_cas _ _ (H _ _ S) _ _ _ _ A V E) as [X|X]; [left; by apply take_has|by right].
  - intros t x c ord v l S A V E. by eapply wn_fetch; [by apply H|..].
  - intros t x b i v l S I E. by eapply take_has, wn_body; [by apply H|..].
  - intros t1 x1 t2 x2 l S1 S2 A1 A2. destruct (decide (t1 = t2)) as [|Hne]; [done|]. exfalso. destruct (decide (t1 < t2)) as [Hlt|Hge].
    + eapply (wn_uniq _ _ (H _ _ S2) t1 x1 l); [|done|done]. unfold step_at. rewrite lookup_take; [done|lia].
    + eapply (wn_uniq _ _ (H _ _ S1) t2 x2 l); [|done|done]. unfold step_at. rewrite lookup_take; [done|lia].
Qed.
Lemma wf_snoc L y : wf_all L -> (forall x, y = Some x -> wf_new L x) -> wf_all (L ++ [y]).
Proof.
  intros H Hy t x S. unfold step_at in S. apply lookup_app_Some in S as [S|[Hl S]].
  - rewrite take_app_le by (apply lookup_lt_Some in S; lia). by apply H.
  - apply list_lookup_singleton_Some in S as [E ->]. rewrite take_app_alt by lia. by apply Hy.
Qed.

(** ** The state *)
Definition origin L c v (g : gev) : Prop :=
  match g with
  | At t0 => exists x0, step_at L t0 x0 /\ x_writes w x0 = true /\ forall l, sh_loc v = Some l -> writes_value w x0 v
  | Init c' => c' = c /\ forall l, sh_loc v = Some l -> exists b i t0 x0, c = CSlot b i /\ step_at L t0 x0 /\ init_slot x0 b i v
  end.
Record pinv s : Prop := {
  pi_log : wf_all (p_log s);
  pi_ops : forall o op p l b, pm_ops (p_m s) !! o = Some (SRun op p) -> (l, b) ∈ pptr p -> has (p_log s) o l;
  pi_len : forall c, length (p_who s c) = length (pm_hist (p_m s) c);
  pi_org : forall c n v g, pm_hist (p_m s) c !! n = Some v -> p_who s c !! n = Some g -> origin (p_log s) c v g;
  pi_next : forall t x l, step_at (p_log s) t x -> allocs x l -> (l < m_next (p_mem s))%positive;
  pi_fresh : forall l i, (m_next (p_mem s) <= l)%positive -> pm_hist (p_m s) (CSlot l i) = [];
}.

Lemma at_snoc L y t x : step_at L t x -> step_at (L ++ [y]) t x.
Proof. unfold step_at. intros H. by apply lookup_app_l_Some. Qed.
Lemma has_snoc L y o l : has L o l -> has (L ++ [y]) o l.
Proof. intros (t' & [(x & S & E & H)|(x & S & E & H)]); exists t'; [left|right]; exists x; (split; [by apply at_snoc|done]). Qed.
Lemma origin_snoc L y c v g : origin L c v g -> origin (L ++ [y]) c v g.
Proof.
  destruct g as [c'|t0]; simpl.
  - intros [-> H]. split; [done|]. intros l Hl. destruct (H l Hl) as (b & i & t0 & x0 & -> & S & I). exists b, i, t0, x0. split; [done|]. split; [by apply at_snoc|done].
  - intros (x0 & S & X). exists x0. split; [by apply at_snoc|done].
Qed.
Lemma at_last L y t x : step_at (L ++ [y]) t x -> step_at L t x \/ t = length L /\ y = Some x.
Proof. unfold step_at. intros H. apply lookup_app_Some in H as [H|[Hl H]]; [by left|]. apply list_lookup_singleton_Some in H as [E ->]. right. split; [lia|done]. Qed.

Lemma pinit_inv : pinv pinit.
Proof.
  split; simpl.
  - intros t x H. by apply lookup_nil_Some in H || (unfold step_at in H; rewrite lookup_nil in H; done).
  - intros o op p l b H. by rewrite lookup_empty in H.
  - by intros [|].
  - intros [|l i] [|n] v g H1 H2; simpl in *; try done. injection H1 as <-. injection H2 as <-. simpl. split; done.
  - intros t x l H. unfold step_at in H. by rewrite lookup_nil in H.
  - done.
Qed.

(** Nothing of interest changes. *)
Lemma quiet_inv s s' : pinv s -> p_log s' = p_log s ++ [None] -> pm_hist (p_m s') = pm_hist (p_m s) -> p_who s' = p_who s -> m_next (p_mem s') = m_next (p_mem s) ->
  (forall o op p, pm_ops (p_m s') !! o = Some (SRun op p) -> pm_ops (p_m s) !! o = Some (SRun op p) \/ pptr p = []) -> pinv s'.
Proof.
  intros H EL EH EW EN HO. split; rewrite ?EL, ?EH, ?EW, ?EN.
  - apply wf_snoc; [apply H|done].
  - intros o op p l b Ho Hp. destruct (HO _ _ _ Ho) as [Ho'|E]; [|rewrite E in Hp; by apply elem_of_nil in Hp]. apply has_snoc. by eapply pi_ops.
  - apply H.
  - intros c n v g H1 H2. apply origin_snoc. by eapply pi_org.
  - intros t x l S A. apply at_last in S as [S|[_ S]]; [|done]. by eapply pi_next.
  - apply H.
Qed.
Lemma op_init_ptr (op : oper) : pptr (op_init op) = [].
Proof. by destruct op. Qed.

Lemma grow_ne t c (h : list sh) wh : length h = length wh -> p_grow t c h wh = wh.
Proof. intros E. unfold p_grow. by rewrite E, Nat.leb_refl. Qed.

(** ** A step of a call *)
Lemma write_next m c v : m_next (write_cell m c v) = m_next m.
Proof. by destruct c. Qed.
Lemma same_read m m' c : same_mem m m' -> read_cell m c = read_cell m' c.
Proof. intros [E1 E2 E3 E4]. destruct c as [|l i]; simpl; [congruence|]. unfold deref, freed. by rewrite E2, E3. Qed.
Lemma cas_kind p c k ord m spur : access w p = Some (c, k, ord) -> cas_wins m p spur = true -> k = ACas.
Proof.
  intros A H. unfold cas_wins in H. destruct p; simpl in *; try done; by injection A as _ <- _.
Qed.
Lemma cas_acc p m spur : cas_wins m p spur = true -> access w p <> None.
Proof. unfold cas_wins. by destruct p. Qed.
Lemma new_ptr p b v l : new_body p = Some b -> v ∈ node_of b -> sh_loc v = Some l -> exists d, (l, d) ∈ pptr p.
Proof.
  intros Hb Hin Hl. exists (sh_data v). assert ((l, sh_data v) ∈ bptr b) as Hx. { destruct b as [sl|it]; [|by apply elem_of_nil in Hin]. simpl in *. apply elem_of_list_bind. exists v. split; [|done]. unfold sptr. rewrite Hl. by left. }
  destruct p; try done; simpl in Hb.
  - injection Hb as ->. cbn [pptr]. rewrite !elem_of_app. tauto.
  - destruct ins as [u|sl]; [done|]. injection Hb as <-. cbn [pptr]. rewrite !elem_of_app. right. right. right. exact Hx.
  - destruct new; [done|]. injection Hb as <-. by apply elem_of_nil in Hx.
Qed.
Lemma val_ptr p l : sh_loc (cas_val p) = Some l -> exists d, (l, d) ∈ pptr p.
Proof. intros H. destruct p; try done. simpl in H. destruct ins as [u|]; [|done]. exists (sh_data u). cbn [pptr]. rewrite !elem_of_app. right. right. right. unfold sptr. rewrite H. by left. Qed.

Lemma fetch_read p c ord m spur a m' nx acts u : access w p = Some (c, AFetch, ord) -> op_step ∅ m p spur a = Some (m', nx, acts) -> read_cell m' c = Some u ->
  exists v, read_cell m c = Some v /\ sh_loc v = sh_loc u.
Proof.
  intros A H Hr. destruct (read_cell m c) as [v|] eqn:E.
  - pose proof (fetch_mem _ _ _ _ _ _ _ _ _ _ _ A E H) as ->. apply read_write in Hr as ->. by exists v.
  - exfalso. destruct p; cbn [access] in A; try done.
    + destruct (sh_loc child) as [l|] eqn:El; [|done]. simpl in A. injection A as <- _. cbn [op_step] in H. rewrite El, E in H. injection H as <- _ _. congruence.
    + destruct (sh_loc child); simpl in A; congruence.
    + destruct levels as [|[u0 idx] rest]; [done|]. destruct (_ || _); [done|]. destruct (sh_loc u0); simpl in A; congruence.
Qed.

Section step.
Context (s : pstate) (HI : pinv s) (o : opid) (op : oper) (p : pc) (Ho : pm_ops (p_m s) !! o = Some (SRun op p)).
Context (r : gev) (spur : bool) (a : N).
Lemma held_ptr l b : (l, b) ∈ pptr p -> has (p_log s) o l.
Proof. by eapply pi_ops. Qed.

(** Without an access. *)
Lemma new_none m' nx acts : access w p = None -> op_step ∅ (p_mem s) p spur a = Some (m', nx, acts) ->
  let x := XStep o p r (p_mem s) spur a in wf_new (p_log s) x /\ (forall l, ~ allocs x l) /\ forall l b, (l, b) ∈ nptr nx -> has (p_log s) o l.
Proof.
  intros A H x. assert (m_next m' = m_next (p_mem s)) as Hn. { destruct (decide (m_next m' = m_next (p_mem s))) as [|Hne]; [done|]. exfalso. eapply cas_acc; [|exact A]. by eapply op_step_next. }
  assert (x_after x = m') as Ea by (unfold x_after; simpl; by rewrite H). assert (forall l, ~ allocs x l) as Hal. { intros l [_ Hne]. rewrite Ea in Hne. done. }
  assert (x_acc w x = None) as Ax by done. assert (forall l b, (l, b) ∈ nptr nx -> has (p_log s) o l) as NP.
  { intros l b Hb. destruct (op_step_src w _ _ _ _ _ _ _ _ H Hb) as [Hp|[(c & k & ord & v & A' & _)|[_ Hne]]]; [by eapply held_ptr|congruence|done]. }
  split; [|done].
  - split; try (intros; congruence).
    + intros l i (k & ord & A'). congruence.
    + intros l [Hl|Hl]; [destruct (look_dep w _ _ Hl) as [[b Hb]|Hb]; [left; by eapply held_ptr|by right; left]|]. left. eapply NP. eapply hand_ptr; [exact Hl|exact H].
    + intros b i v l [Hx _]. by apply Hal in Hx.
    + intros t1 x1 l _ _. apply Hal.
Qed.

(** With one. *)
Context (c : cell) (k : akind) (ord : ordering) (A : access w p = Some (c, k, ord)) (n : nat) (v : sh) (Hh : pm_hist (p_m s) c !! n = Some v) (Hr : p_who s c !! n = Some r).
Notation seen := (write_cell (p_mem s) c v).
Notation x := (XStep o p r seen spur a).
Lemma cell_old l i : c = CSlot l i -> (l < m_next (p_mem s))%positive.
Proof. intros ->. destruct (decide (m_next (p_mem s) <= l)%positive) as [H|H]; [|lia]. rewrite (pi_fresh _ HI _ i H) in Hh. done. Qed.

Section done.
Context (m' : mem) (nx : next) (acts : list act) (H : op_step ∅ seen p spur a = Some (m', nx, acts)).
Lemma x_after_eq : x_after x = m'.
Proof. unfold x_after. simpl. by rewrite H. Qed.
Lemma alloc_cas : m_next m' <> m_next seen -> k = ACas /\ cas_wins seen p spur = true /\ exists b, new_body p = Some b /\ same_mem m' (write_cell (alloc seen a b) c (Sh (Some (m_next seen)) false (isdata b))).
Proof.
  intros Hne. pose proof (op_step_next _ _ _ _ _ _ _ H Hne) as Hw. pose proof (cas_kind _ _ _ _ _ _ A Hw) as ->. split; [done|]. split; [done|].
  pose proof (cas_mem _ _ _ _ _ _ _ _ _ _ A Hw H) as Hm. destruct (new_body p) as [b|]; [by exists b|]. exfalso. apply Hne. rewrite (sm_next _ _ Hm), write_next. done.
Qed.
Lemma alloc_ptrs b : same_mem m' (write_cell (alloc seen a b) c (Sh (Some (m_next seen)) false (isdata b))) -> ptrs m' (m_next seen) = node_of b.
Proof.
  intros Hm. unfold ptrs. rewrite (sm_heap _ _ Hm). pose proof cell_old as Hc. rewrite write_next. destruct c as [|l i]; simpl.
  - rewrite lookup_insert. by destruct b.
  - specialize (Hc _ _ eq_refl). assert (l <> m_next (p_mem s)) as Hne by (intros E; rewrite E in Hc; lia). rewrite lookup_alter_ne by done. rewrite lookup_insert. by destruct b.
Qed.

Lemma new_some : wf_new (p_log s) x /\ (forall l b, (l, b) ∈ nptr nx -> has (p_log s) o l \/ loads_ptr w x l \/ allocs x l).
Proof.
  assert (forall l b, (l, b) ∈ nptr nx -> has (p_log s) o l \/ loads_ptr w x l \/ allocs x l) as NP.
  { intros l b Hb. destruct (op_step_src w _ _ _ _ _ _ _ _ H Hb) as [Hp|[(c0 & k0 & ord0 & v0 & A0 & R0 & Hs & Hk)|[E Hne]]].
    + left. by eapply held_ptr.
    + right. left. rewrite A in A0. injection A0 as <- <- <-. exists c, k, ord, v0. split; [exact A|]. split; [destruct k; auto; done|]. split; [done|]. unfold sptr in Hs. destruct (sh_loc v0); [|by apply elem_of_nil in Hs].
      apply elem_of_list_singleton in Hs. by injection Hs as ->.
    + right. right. injection E as -> _. split; [done|]. by rewrite x_after_eq. }
  pose proof (pi_org _ HI _ _ _ _ Hh Hr) as Hor. split; [split|done].
  - intros c0 k0 ord0 t0 A0 E. simpl in E. unfold x_acc in A0. simpl in A0. rewrite A in A0. injection A0 as <- <- <-. rewrite E in Hor. simpl in Hor. destruct Hor as (x0 & S0 & W0 & V0). exists x0. split; [done|]. split; [done|].
    intros v0 l Hrd Hl. simpl in Hrd. apply read_write in Hrd as ->. by eapply V0.
  - intros c0 k0 ord0 c' A0 E. simpl in E. unfold x_acc in A0. simpl in A0. rewrite A in A0. injection A0 as <- <- <-. rewrite E in Hor. simpl in Hor. destruct Hor as (-> & V0). split; [done|].
    intros v0 l Hrd Hl. simpl in Hrd. apply read_write in Hrd as ->. by eapply V0.
  - intros l i (k0 & ord0 & A0). unfold x_acc in A0. simpl in A0. rewrite A in A0. injection A0 as -> <- <-. destruct (acc_ptr w _ _ _ _ A l false) as [b Hb]; [by left|]. by eapply held_ptr.
  - intros l [Hl|Hl]; [destruct (look_dep w _ _ Hl) as [[b Hb]|Hb]; [left; by eapply held_ptr|by right; left]|]. eapply NP. eapply hand_ptr; [exact Hl|exact H].
  - intros c0 ord0 v0 l A0 (c1 & k1 & ord1 & A1 & W1 & R1) Hl. unfold x_acc in A0, A1. simpl in A0, A1. rewrite A in A0, A1. injection A0 as <- -> <-. injection A1 as <- <- <-.
    unfold x_writes, x_acc in W1. simpl in W1. rewrite A in W1. simpl in W1. rewrite x_after_eq in R1. pose proof (cas_mem _ _ _ _ _ _ _ _ _ _ A W1 H) as Hm. rewrite (same_read _ _ _ Hm) in R1.
    destruct (new_body p) as [b|] eqn:Eb.
    + apply read_write in R1 as ->. simpl in Hl. injection Hl as <-. right. split; [done|]. rewrite x_after_eq, (sm_next _ _ Hm), write_next. simpl. lia.
    + apply read_write in R1 as ->. destruct (val_ptr _ _ Hl) as [d Hd]. left. by eapply held_ptr.
  - intros c0 ord0 v0 l A0 (c1 & k1 & ord1 & A1 & W1 & R1) Hl. unfold x_acc in A0, A1. simpl in A0, A1. rewrite A in A0, A1. injection A0 as <- -> <-. injection A1 as <- <- <-. rewrite x_after_eq in R1.
    destruct (fetch_read _ _ _ _ _ _ _ _ _ _ A H R1) as (u & Hu & Eu). exists c, AFetch, ord, u. split; [exact A|]. split; [by right|]. split; [done|]. congruence.
  - intros b i v0 l [[-> Hne] Hi] Hl. rewrite x_after_eq in Hne, Hi. simpl in Hne, Hi. destruct (alloc_cas Hne) as (_ & _ & b0 & Hb0 & Hm). rewrite (alloc_ptrs _ Hm) in Hi. apply elem_of_list_lookup_2 in Hi.
    destruct (new_ptr _ _ _ _ Hb0 Hi Hl) as [d Hd]. by eapply held_ptr.
  - intros t1 x1 l S1 A1 [E _]. pose proof (pi_next _ HI _ _ _ S1 A1) as Hlt. simpl in E. rewrite write_next in E. lia.
Qed.
Lemma next_grows : (m_next seen <= m_next m')%positive.
Proof. destruct (decide (m_next m' = m_next seen)) as [->|Hne]; [lia|]. destruct (alloc_cas Hne) as (_ & _ & b & _ & Hm). rewrite (sm_next _ _ Hm), !write_next. simpl. rewrite write_next. lia. Qed.
End done.
End step.

Lemma pcall_inv s o r spur a pm ev y : pinv s -> pcall w (p_m s) (p_who s) o r spur a = Some (pm, ev, y) -> let t := length (p_log s) in
  forall regs sync dn gone dr ub, pinv (PState pm (fun c => p_grow t c (pm_hist pm c) (p_who s c)) regs sync dn gone dr ub (p_log s ++ [y])).
Proof.
  intros HI H t regs sync dn gone dr ub. unfold pcall in H. destruct (pm_ops (p_m s) !! o) as [[op p| | |]|] eqn:Ho; try done. cbn zeta in H.
  assert (forall nx L', (forall l, has (p_log s) o l -> has L' o l) -> (forall l b, (l, b) ∈ nptr nx -> has L' o l) -> (forall o' l, o' <> o -> has (p_log s) o' l -> has L' o' l) ->
    forall o' op' p' l b, <[o := nx_stat op nx]> (pm_ops (p_m s)) !! o' = Some (SRun op' p') -> (l, b) ∈ pptr p' -> has L' o' l) as Hops.
  { intros nx L' H1 H2 H3 o' op' p' l b E Hp. destruct (decide (o' = o)) as [->|Hne].
    - rewrite lookup_insert in E. destruct nx as [p1| |]; try done. simpl in E. injection E as -> ->. by eapply H2.
    - rewrite lookup_insert_ne in E by done. apply H3; [done|]. by eapply pi_ops. }
  destruct (access w p) as [[[c k] ord]|] eqn:A.
  2:{ destruct (op_step ∅ (pm_mem (p_m s)) p spur a) as [[[m' nx] acts]|] eqn:E; [|done]. injection H as <- _ <-.
      destruct (new_none s HI o op p Ho r spur a m' nx acts A E) as (W & NA & NP). fold (p_mem s) in *. split; cbn [p_log p_m p_who pm_ops pm_hist].
      - apply wf_snoc; [apply HI|]. intros x [= <-]. exact W.
      - apply Hops; [intros l; apply has_snoc|intros l b Hb; by apply has_snoc, (NP l b)|intros o' l _; apply has_snoc].
      - intros c. rewrite grow_ne; [apply HI|symmetry; apply HI].
      - intros c n v g H1 H2. rewrite grow_ne in H2 by (symmetry; apply HI). apply origin_snoc. by eapply pi_org.
      - intros t0 x l S Al. apply at_last in S as [S|[_ S]]; [by apply (pi_next _ HI _ _ _ S Al)|]. injection S as <-. by apply NA in Al.
      - apply HI. }
  destruct (p_who s c) as [|g0 gr] eqn:Ew.
  { injection H as <- _ <-. split; cbn [p_log p_m p_who pm_ops pm_hist].
    - apply wf_snoc; [apply HI|done].
    - intros o' op' p' l b E Hp. destruct (decide (o' = o)) as [->|Hne]; [by rewrite lookup_insert in E|]. rewrite lookup_insert_ne in E by done. apply has_snoc. by eapply pi_ops.
    - intros c'. rewrite grow_ne; [apply HI|symmetry; apply HI].
    - intros c' n v g H1 H2. rewrite grow_ne in H2 by (symmetry; apply HI). apply origin_snoc. by eapply pi_org.
    - intros t0 x l S Al. apply at_last in S as [S|[_ S]]; [by apply (pi_next _ HI _ _ _ S Al)|done].
    - apply HI. }
  destruct (list_find (fun g : gev => g = r) (g0 :: gr)) as [[n g1]|] eqn:Ef; [|done]. apply list_find_Some in Ef as (En & -> & _). rewrite <-Ew in En.
  destruct (pm_hist (p_m s) c !! n) as [v|] eqn:Eh; [|done]. fold (p_mem s) in H. set (sn := write_cell (p_mem s) c v) in *.
  destruct (op_step ∅ sn p spur a) as [[[m' nx] acts]|] eqn:E; [|done]. injection H as <- _ <-.
  destruct (new_some s HI o op p Ho r spur a c k ord A n v Eh En m' nx acts E) as [W NP].
  assert (m_next (write_cell (p_mem s) c v) <= m_next m')%positive as Hgr by (eapply next_grows; eassumption). fold sn in W, NP, Hgr. set (x := XStep o p r sn spur a) in *.
  assert (m_next sn = m_next (p_mem s)) as Esn by apply write_next.
  assert (step_at (p_log s ++ [Some x]) t x) as Sx. { unfold step_at. rewrite lookup_app_r by done. by rewrite Nat.sub_diag. }
  assert (x_after x = m') as Ea by (by eapply x_after_eq).
  assert (forall l b, (l, b) ∈ nptr nx -> has (p_log s ++ [Some x]) o l) as NP'.
  { intros l b Hb. destruct (NP l b Hb) as [X|[X|X]]; [by apply has_snoc|exists t; left|exists t; right]; exists x; done. }
  assert (wf_all (p_log s ++ [Some x])) as HW. { apply wf_snoc; [apply HI|]. intros x' [= <-]. exact W. }
  destruct (writes_cell sn p spur k) eqn:Ewr.
  - (* it writes *)
    set (u := default sh_null (read_cell m' c)). set (h1 := p_alloc sn m' (pm_hist (p_m s))).
    assert (h1 c = pm_hist (p_m s) c) as Ec. { unfold h1, p_alloc. destruct c as [|l i]; [done|]. rewrite decide_False; [done|]. intros [E0 _]. assert (l < m_next (p_mem s))%positive by (by eapply cell_old). lia. }
    assert (forall c', p_write h1 c u c' = pm_hist (p_m s) c' /\ p_grow t c' (p_write h1 c u c') (p_who s c') = p_who s c' \/
      c' = c /\ p_write h1 c u c' = pm_hist (p_m s) c ++ [u] /\ p_grow t c' (p_write h1 c u c') (p_who s c') = p_who s c ++ [At t] \/
      (exists l i v0, c' = CSlot l i /\ allocs x l /\ m_next m' <> m_next sn /\ ptrs m' l !! i = Some v0 /\ p_write h1 c u c' = [v0] /\ p_grow t c' (p_write h1 c u c') (p_who s c') = [Init c']) \/
      (exists l i, c' = CSlot l i /\ allocs x l /\ p_write h1 c u c' = [] /\ p_grow t c' (p_write h1 c u c') (p_who s c') = [])) as Hcell.
    { intros c'. unfold p_write. destruct (decide (c' = c)) as [->|Hne].
      - right. left. split; [done|]. rewrite Ec. split; [done|]. unfold p_grow. rewrite app_length, (pi_len _ HI c). simpl. assert (length (pm_hist (p_m s) c) + 1 <=? length (pm_hist (p_m s) c) = false) as -> by (apply Nat.leb_gt; lia).
        destruct (p_who s c); done.
      - unfold h1, p_alloc. destruct c' as [|l i].
        + left. split; [done|]. apply grow_ne. symmetry. apply HI.
        + destruct (decide (l = m_next sn /\ m_next m' <> m_next sn)) as [[-> Hn]|Hn].
          * assert (p_who s (CSlot (m_next sn) i) = []) as E0. { apply nil_length_inv. rewrite (pi_len _ HI), (pi_fresh _ HI); [done|]. rewrite Esn. lia. }
            assert (allocs x (m_next sn)) as Al. { split; [done|]. by rewrite Ea. }
            destruct (ptrs m' (m_next sn) !! i) as [v0|] eqn:Ep.
            -- right. right. left. exists (m_next sn), i, v0. rewrite E0. done.
            -- right. right. right. exists (m_next sn), i. rewrite E0. done.
          * left. split; [done|]. apply grow_ne. symmetry. apply HI. }
    split; cbn [p_log p_m p_who pm_ops pm_hist pm_mem p_mem]; [exact HW|apply Hops; [intros l; apply has_snoc|exact NP'|intros o' l _; apply has_snoc]|..].
    + intros c'. destruct (Hcell c') as [[-> ->]|[(_ & -> & ->)|[(l & i & v0 & _ & _ & _ & _ & -> & ->)|(l & i & _ & _ & -> & ->)]]]; [apply HI|rewrite !app_length; simpl; by rewrite (pi_len _ HI)|done|done].
    + intros c' n' v' g H1 H2. destruct (Hcell c') as [[E1 E2]|[(-> & E1 & E2)|[(l & i & v0 & -> & Al & _ & Ep & E1 & E2)|(l & i & _ & _ & E1 & E2)]]]; rewrite E1 in H1; rewrite E2 in H2.
      * apply origin_snoc. by eapply pi_org.
      * apply lookup_app_Some in H1 as [H1|[Hl1 H1]].
        -- rewrite lookup_app_l in H2; [|rewrite (pi_len _ HI); by eapply lookup_lt_Some]. apply origin_snoc. by eapply pi_org.
        -- apply list_lookup_singleton_Some in H1 as [E0 <-]. rewrite lookup_app_r in H2 by (rewrite (pi_len _ HI); lia). apply list_lookup_singleton_Some in H2 as [_ <-].
           exists x. split; [exact Sx|]. assert (x_writes w x = true) as Hx by (unfold x_writes, x_acc; simpl; by rewrite A). split; [done|]. intros l Hl. exists c, k, ord. split; [exact A|]. split; [done|]. rewrite Ea.
           unfold u in *. by destruct (read_cell m' c).
      * destruct n'; [|done]. injection H1 as <-. injection H2 as <-. split; [done|]. intros l' Hl'. exists l, i, t, x. split; [done|]. split; [exact Sx|]. split; [done|]. by rewrite Ea.
      * done.
    + intros t0 x0 l S Al. apply at_last in S as [S|[_ S]]; [pose proof (pi_next _ HI _ _ _ S Al); lia|]. injection S as <-. destruct Al as [-> Hn]. rewrite Ea in Hn. simpl in Hn |- *. lia.
    + intros l i Hl. destruct (Hcell (CSlot l i)) as [[-> _]|[(E1 & _)|[(l' & i' & v0 & E1 & [Al _] & Hnn & _)|(l' & i' & E1 & _ & -> & _)]]]; [apply HI; lia| | |done].
      * assert (l < m_next (p_mem s))%positive by (by eapply cell_old). lia.
      * injection E1 as <- <-. simpl in Al. lia.
  - (* it does not *)
    split; cbn [p_log p_m p_who pm_ops pm_hist pm_mem p_mem]; [exact HW|apply Hops; [intros l; apply has_snoc|exact NP'|intros o' l _; apply has_snoc]|..].
    + intros c'. rewrite grow_ne; [apply HI|symmetry; apply HI].
    + intros c' n' v' g H1 H2. rewrite grow_ne in H2 by (symmetry; apply HI). apply origin_snoc. by eapply pi_org.
    + intros t0 x0 l S Al. apply at_last in S as [S|[_ S]]; [by apply (pi_next _ HI _ _ _ S Al)|]. injection S as <-. destruct Al as [-> Hn]. rewrite Ea in Hn. simpl in Hn. assert (k = ACas /\ cas_wins sn p spur = true) as (-> & Hwin) by (edestruct alloc_cas as (? & ? & _); [exact A|exact E|exact Hn|]; done).
      exfalso. simpl in Ewr. fold sn in Hwin. congruence.
    + apply HI.
Qed.

Lemma pstep_inv s lb s' ev : pinv s -> pstep w s lb = Some (s', ev) -> pinv s'.
Proof.
  intros HI H. destruct lb as [o op ps ds|o r spur a|o|o|i|]; cbn [pstep] in H.
  - destruct (_ && _); [|done]. destruct (pm_ops (p_m s) !! o) eqn:Ho; [done|]. injection H as <- _. eapply quiet_inv; [exact HI|done..|]. cbn [p_m pm_ops]. intros o' op' p' E.
    destruct (decide (o' = o)) as [->|Hne]; [|left; by rewrite lookup_insert_ne in E]. rewrite lookup_insert in E. injection E as _ <-. right. apply op_init_ptr.
  - destruct (p_alive s o); [|done]. destruct (pcall w (p_m s) (p_who s) o r spur a) as [[[pm ev'] y]|] eqn:E; [|done]. injection H as <- _. by eapply pcall_inv.
  - destruct (_ && _); [|done]. injection H as <- _. eapply quiet_inv; [exact HI|done..|]. by left.
  - destruct (_ && _); [|done]. injection H as <- _. eapply quiet_inv; [exact HI|done..|]. by left.
  - destruct (p_regs s !! i) as [[[l k] t]|]; [|done]. destruct (_ && _); [|done]. injection H as <- _. eapply quiet_inv; [exact HI|done..|]. by left.
  - destruct (_ && _); [|done]. destruct (drop_rec _ _ _); injection H as <- _; (eapply quiet_inv; [exact HI|done..|]); by left.
Qed.
Lemma prun_inv s ls s' ev : pinv s -> prun w s ls = Some (s', ev) -> pinv s'.
Proof.
  revert s ev. induction ls as [|lb ls IH]; intros s ev HI H; simpl in H; [by injection H as <- _|].
  destruct (pstep w s lb) as [[s1 e1]|] eqn:E1; [|done]. destruct (prun w s1 ls) as [[s2 e2]|] eqn:E2; [|done]. injection H as <- _. eapply IH; [|exact E2]. by eapply pstep_inv.
Qed.
(** The steps of an execution (whether the axioms allow it or not) are as PlainRel.v requires. *)
Theorem exec_wf ls s ev : pexec w ls s ev -> wf_log w (p_log s).
Proof. intros H. apply wf_all_log, pi_log. eapply prun_inv; [apply pinit_inv|exact H]. Qed.
End inv.
