(** * The happens-before relation of C11: every node is initialised before it is used. *)
From Verif Require Import Model Mem Spec LinSpec Weak WeakInv WeakStep WeakSys WeakCoh WeakFree Rc11 Plain.

Section rel.
Context {C : Config} (w : orders) (Hw : strong w).
Context (L : list (option xstep)) (thr : opid -> nat) (from : cev -> loc -> option nat).
Implicit Types (x : xstep) (l b : loc) (o : opid) (t i j : nat) (e : cev) (v : sh) (c : cell).

(** ** What a log of steps satisfies *)
Definition hold t o l : Prop := exists t', t' < t /\ (loaded w L o t' l \/ allocated L o t' l).
Record wf_log : Prop := {
  wl_at : forall t x c k ord t0, step_at L t x -> x_acc w x = Some (c, k, ord) -> x_rf x = At t0 ->
    t0 < t /\ exists x0, step_at L t0 x0 /\ x_writes w x0 = true /\ forall v l, read_cell (x_mem x) c = Some v -> sh_loc v = Some l -> writes_value w x0 v;
  wl_init : forall t x c k ord c', step_at L t x -> x_acc w x = Some (c, k, ord) -> x_rf x = Init c' ->
    c' = c /\ forall v l, read_cell (x_mem x) c = Some v -> sh_loc v = Some l -> exists b i t0 x0, c = CSlot b i /\ t0 < t /\ step_at L t0 x0 /\ init_slot x0 b i v;
  wl_slot : forall t x l i, step_at L t x -> in_slot w x l i -> hold t (x_call x) l;
  wl_look : forall t x l, step_at L t x -> uses x l -> hold t (x_call x) l \/ loads_ptr w x l \/ allocs x l;
  wl_cas : forall t x c ord v l, step_at L t x -> x_acc w x = Some (c, ACas, ord) -> writes_value w x v -> sh_loc v = Some l -> hold t (x_call x) l \/ allocs x l;
  wl_fetch : forall t x c ord v l, step_at L t x -> x_acc w x = Some (c, AFetch, ord) -> writes_value w x v -> sh_loc v = Some l -> loads_ptr w x l;
  wl_body : forall t x b i v l, step_at L t x -> init_slot x b i v -> sh_loc v = Some l -> hold t (x_call x) l;
  wl_uniq : forall t1 x1 t2 x2 l, step_at L t1 x1 -> step_at L t2 x2 -> allocs x1 l -> allocs x2 l -> t1 = t2;
}.
Context (WF : wf_log) (FO : from_ok w L from).

Notation place := (place w L). Notation sb := (sb w L thr). Notation cdep := (cdep w L thr from). Notation dob := (dob w L thr from). Notation sw := (sw w L). Notation ithb := (ithb w L thr from).

Lemma step_inj t x1 x2 : step_at L t x1 -> step_at L t x2 -> x1 = x2.
Proof. unfold step_at. congruence. Qed.
Lemma place_inj e o1 t1 j1 o2 t2 j2 : place e o1 t1 j1 -> place e o2 t2 j2 -> o1 = o2 /\ t1 = t2 /\ j1 = j2.
Proof.
  intros H1 H2. inversion H1 as [? ? ? ? S1 A1|? ? S1 A1|? ? ? S1 A1]; subst; inversion H2 as [? ? ? ? S2 A2|? ? S2 A2|? ? ? S2 A2]; subst.
  - pose proof (wl_uniq WF _ _ _ _ _ S1 S2 A1 A2) as ->. by rewrite (step_inj _ _ _ S1 S2).
  - by rewrite (step_inj _ _ _ S1 S2).
  - by rewrite (step_inj _ _ _ S1 S2).
Qed.
Definition lt_pos t1 j1 t2 j2 : Prop := t1 < t2 \/ t1 = t2 /\ j1 < j2.
Lemma sb_intro e1 o1 t1 j1 e2 o2 t2 j2 : place e1 o1 t1 j1 -> place e2 o2 t2 j2 -> thr o1 = thr o2 -> lt_pos t1 j1 t2 j2 -> sb e1 e2.
Proof. intros. by exists o1, t1, j1, o2, t2, j2. Qed.
Lemma sb_trans e1 e2 e3 : sb e1 e2 -> sb e2 e3 -> sb e1 e3.
Proof.
  intros (o1 & t1 & j1 & o2 & t2 & j2 & P1 & P2 & E1 & X1) (o2' & t2' & j2' & o3 & t3 & j3 & P2' & P3 & E2 & X2). destruct (place_inj _ _ _ _ _ _ _ P2 P2') as (<- & <- & <-).
  eapply sb_intro; [exact P1|exact P3|congruence|]. unfold lt_pos. lia.
Qed.

Lemma loaded_place o t l : loaded w L o t l -> place (EAcc t) o t 1.
Proof. intros (x & S & <- & c & k & ord & v & A & _). constructor; [done|]. rewrite A. by eexists. Qed.
Lemma from_sb e l o t j t' : place e o t j -> from e l = Some t' -> sb (EAcc t') e.
Proof.
  intros P E. pose proof (FO e l o t j P) as H. rewrite E in H. destruct H as [Hl Hlt]. eapply sb_intro; [by eapply loaded_place|exact P|done|]. unfold lt_pos. lia.
Qed.
Lemma cdep_sb e1 e2 : cdep e1 e2 -> sb e1 e2.
Proof.
  intros H. destruct H as [t t' x l i S A F|t t' x l S A F|t t' x v l c ord S A V E F|t t' x b i v l S A E F|e e' R S].
  - eapply from_sb; [|exact F]. constructor; [exact S|]. destruct A as (k & ord & A). rewrite A. by eexists.
  - eapply from_sb; [|exact F]. by constructor.
  - eapply from_sb; [|exact F]. constructor; [exact S|]. rewrite A. by eexists.
  - eapply from_sb; [|exact F]. constructor; [exact S|]. apply A.
  - done.
Qed.

(** ** Chains that end with synchronisation, a dependency, or in the same thread *)
Definition mix : cev -> cev -> Prop := rtc (fun a b : cev => sb a b \/ ithb a b).
Definition Q e e' : Prop := sb e e' \/ (exists a b : cev, mix e a /\ sw a b /\ (b = e' \/ sb b e')) \/ (exists a, mix e a /\ dob a e').
Lemma mix_ithb e a e' : mix e a -> ithb a e' -> ithb e e'.
Proof. induction 1 as [|e y z [H|H] _ IH]; [done| |]; intros X; specialize (IH X); [by eapply ithb_sb|by eapply ithb_trans]. Qed.
Lemma Q_hb e e' : Q e e' -> c11_hb w L thr from e e'.
Proof.
  intros [H|[(a & b & M & S & E)|(a & M & D)]]; [by left|right..].
  - eapply mix_ithb; [exact M|]. destruct E as [<-|E]; [by apply ithb_sw|by eapply ithb_sw_sb].
  - eapply mix_ithb; [exact M|]. by apply ithb_dob.
Qed.
Lemma Q_mix e e' : Q e e' -> mix e e'.
Proof. intros H. apply rtc_once. by apply Q_hb. Qed.
Lemma Q_cdep e e1 e2 : Q e e1 -> cdep e1 e2 -> Q e e2.
Proof.
  intros H D. pose proof (cdep_sb _ _ D) as S. destruct H as [H|[(a & b & M & Y & E)|(a & M & X)]].
  - left. by eapply sb_trans.
  - right. left. exists a, b. split; [done|]. split; [done|]. right. destruct E as [->|E]; [done|]. by eapply sb_trans.
  - right. right. exists a. split; [done|]. by eapply dob_dep.
Qed.
Lemma Q_after e e1 e2 : mix e e1 -> Q e1 e2 -> ~ sb e1 e2 -> Q e e2.
Proof.
  intros H [X|[(a & b & M & Y & E)|(a & M & X)]] Hn; [done| |].
  - right. left. exists a, b. split; [|done]. by eapply rtc_transitive.
  - right. right. exists a. split; [|done]. by eapply rtc_transitive.
Qed.

(** ** The proof *)
Definition good_load t : Prop := forall x l i, step_at L t x -> loads_ptr w x l -> Q (EInit l i) (EAcc t).
(** The call has its pointer to [l] from a load, or it has allocated the node. *)
Lemma hold_Q e o t j l i : place e o t j -> (forall t', lt_pos t' 1 t j -> good_load t') -> (hold t o l \/ 1 < j /\ (loaded w L o t l \/ allocated L o t l)) -> (forall t', from e l = Some t' -> cdep (EAcc t') e) -> Q (EInit l i) e.
Proof.
  intros P G H D. pose proof (FO e l o t j P) as F. destruct (from e l) as [t'|].
  - destruct F as [(x & S & <- & Hl) Hlt]. eapply Q_cdep; [|by apply D]. eapply G; [|exact S|exact Hl]. exact Hlt.
  - assert (forall t', lt_pos t' 0 t j -> allocated L o t' l -> Q (EInit l i) e) as Ha.
    { intros t' Hlt (x & S & <- & A). left. eapply sb_intro; [by apply (place_init _ _ _ _ l i S A)|exact P|done|done]. }
    destruct F as [(t' & Hlt & F)|F].
    { by eapply Ha. }
    destruct H as [(t' & Hlt & [H|H])|[Hj [H|H]]].
    + exfalso. eapply F; [|exact H]. by left.
    + eapply Ha; [|exact H]. by left.
    + exfalso. eapply F; [|exact H]. by right.
    + eapply Ha; [|exact H]. right. lia.
Qed.

Definition good_write t : Prop := forall x v l i, step_at L t x -> writes_value w x v -> sh_loc v = Some l -> Q (EInit l i) (EAcc t).
Definition good_init t : Prop := forall x b k v l i, step_at L t x -> init_slot x b k v -> sh_loc v = Some l -> Q (EInit l i) (EInit b k).
Definition good_slot t : Prop := forall x b k i, step_at L t x -> in_slot w x b k -> Q (EInit b i) (EAcc t).

Lemma reads_keep x c k ord : x_acc w x = Some (c, k, ord) -> (k = ALoad \/ k = AFetch) -> (acquires ord = true \/ ord = Consume) /\ k <> ACas.
Proof.
  intros A [->| ->]; (split; [|done]); unfold x_acc in A.
  - destruct (strong_load _ _ _ _ Hw A) as [->|H]; auto.
  - left. by apply (strong_fetch _ _ _ _ Hw A).
Qed.
Lemma write_release x : x_writes w x = true -> release_write w x.
Proof.
  intros H. pose proof H as H'. unfold x_writes in H. destruct (x_acc w x) as [[[c k] ord]|] eqn:A; [|done]. exists c, k, ord. split; [done|]. split; [|done]. unfold x_acc in A.
  destruct k; try done; [by apply (strong_fetch _ _ _ _ Hw A)|by apply (strong_cas _ _ _ _ Hw A)].
Qed.

Lemma all_good t : good_slot t /\ good_load t /\ good_write t /\ good_init t.
Proof.
  induction t as [t IH] using lt_wf_ind.
  assert (forall t', t' < t -> good_load t') as IHl by (intros t' H; by apply IH).
  assert (good_slot t) as GS.
  { intros x b k i S A. assert (is_Some (x_acc w x)) as HA. { destruct A as (? & ? & A). rewrite A. by eexists. }
    eapply hold_Q; [by apply place_acc| |left; by eapply wl_slot|].
    - intros t' Hlt. apply IHl. unfold lt_pos in Hlt. lia.
    - intros t' F. by eapply cd_addr. }
  assert (good_load t) as GL.
  { intros x l i S (c & k & ord & v & A & Hk & Hr & Hv). destruct (reads_keep _ _ _ _ A Hk) as [Hord Hnc]. assert (is_Some (x_acc w x)) as HA by (rewrite A; by eexists).
    pose proof (place_acc w L t x S HA) as P. destruct (x_rf x) as [c'|t0] eqn:Erf.
    - destruct (wl_init WF _ _ _ _ _ _ S A Erf) as [-> Hini]. destruct (Hini _ _ Hr Hv) as (b & m & t0 & x0 & -> & Hlt & S0 & I0).
      assert (Q (EInit l i) (EInit b m)) as Q0. { destruct (IH t0 Hlt) as (_ & _ & _ & GI). by eapply GI. }
      pose proof (place_init w L t0 x0 b m S0 (proj1 I0)) as P0. assert (rfe w L (EInit b m) (EAcc t)) as R by (by eapply rfe_init).
      destruct (decide (thr (x_call x0) = thr (x_call x))) as [Et|Et].
      + eapply Q_cdep; [exact Q0|]. apply cd_mem; [exact R|]. eapply sb_intro; [exact P0|exact P|done|]. by left.
      + eapply Q_after; [apply Q_mix, Q0| |].
        * eapply GS; [exact S|]. by exists k, ord.
        * intros (o1 & t1 & j1 & o2 & t2 & j2 & P1 & P2 & Ee & _). destruct (place_inj _ _ _ _ _ _ _ P1 P0) as (-> & _). destruct (place_inj _ _ _ _ _ _ _ P2 P) as (-> & _). done.
    - destruct (wl_at WF _ _ _ _ _ _ S A Erf) as (Hlt & x0 & S0 & W0 & Hv0). specialize (Hv0 _ _ Hr Hv).
      assert (Q (EInit l i) (EAcc t0)) as Q0. { destruct (IH t0 Hlt) as (_ & _ & GW & _). by eapply GW. }
      assert (rfe w L (EAcc t0) (EAcc t)) as R by (by eapply rfe_at). pose proof (write_release _ W0) as RW.
      assert (place (EAcc t0) (x_call x0) t0 1) as P0. { constructor; [done|]. unfold x_writes in W0. destruct (x_acc w x0); [by eexists|done]. }
      destruct Hord as [Ha| ->].
      + right. left. exists (EAcc t0), (EAcc t). split; [apply Q_mix, Q0|]. split; [|by left]. eapply sw_intro; [exact S0|exact RW|apply rseq_head|exact R|exact S|]. exists c, k, ord. done.
      + destruct (decide (thr (x_call x0) = thr (x_call x))) as [Et|Et].
        * eapply Q_cdep; [exact Q0|]. apply cd_mem; [exact R|]. eapply sb_intro; [exact P0|exact P|done|]. by left.
        * right. right. exists (EAcc t0). split; [apply Q_mix, Q0|]. eapply dob_intro; [exact S0|exact RW|apply rseq_head|exact R|exact S| |exact Et]. exists c, k. done. }
  assert (good_write t) as GW.
  { intros x v l i S V Hv. pose proof V as (c & k & ord & A & W & Hr). pose proof W as Wk. unfold x_writes in Wk. rewrite A in Wk. destruct k; try done.
    - eapply GL; [exact S|]. by eapply wl_fetch.
    - assert (place (EAcc t) (x_call x) t 1) as P. { constructor; [done|]. rewrite A. by eexists. }
      destruct (wl_cas WF _ _ _ _ _ _ S A V Hv) as [H|H].
      + eapply hold_Q; [exact P| |left; exact H|].
        * intros t' Hlt. apply IHl. unfold lt_pos in Hlt. lia.
        * intros t' F. by eapply cd_store.
      + left. eapply sb_intro; [by apply (place_init w L t x l i S H)|exact P|done|]. right. lia. }
  split; [done|]. split; [done|]. split; [done|].
  intros x b k v l i S I Hv. eapply hold_Q; [by apply (place_init w L t x b k S (proj1 I))| |left; by eapply wl_body|].
  - intros t' Hlt. apply IHl. unfold lt_pos in Hlt. lia.
  - intros t' F. by eapply cd_init.
Qed.

Lemma slot_hb t x l i : step_at L t x -> in_slot w x l i -> c11_hb w L thr from (EInit l i) (EAcc t).
Proof. intros S A. apply Q_hb. destruct (all_good t) as (G & _). by eapply G. Qed.
Lemma look_hb t x l i : step_at L t x -> uses x l -> c11_hb w L thr from (EInit l i) (EUse t l).
Proof.
  intros S A. apply Q_hb. eapply hold_Q; [by apply place_use| | |].
  - intros t' _. by apply all_good.
  - destruct (wl_look WF _ _ _ S A) as [H|[H|H]]; [by left|right; split; [lia|left]; by exists x|right; split; [lia|right]; by exists x].
  - intros t' F. by eapply cd_use.
Qed.
End rel.
