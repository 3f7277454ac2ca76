(** * Every execution of the machine of WeakCoh.v satisfies the axioms. *)
From Verif Require Import Model Mem Spec Iter IterSpec IterSys Weak WeakInv WeakStep WeakSys WeakRun LinSpec Inv WeakCoh WeakWalk WeakTime WeakBase WeakLin PropWeak WeakFree FreeSim FreeStep FreeInv FreeRun PropFree Rc11 Rc11Sim.

Section conv.
Context {C : Config} {HC : ConfigOk C}.
Notation w := code_orders.
Implicit Types (s : gstate) (f : cstate) (ev : list event) (c : cell) (m : mem).

Lemma c_newest cls f ev c v W : wf_ccalls cls -> cexec w cls f ev -> last (w_hist (c_w f) c) = Some (v, W) -> write_cell (w_mem (c_w f)) c v = w_mem (c_w f).
Proof.
  intros Hwf He Hl. destruct (good_exec _ _ _ _ code_strong Hwf He) as (M & H & N & pos & B & _).
  apply write_same. rewrite <-(b_mem _ _ _ _ _ _ _ B), <-(tl_last _ _ _ _ (b_tl _ _ _ _ _ _ _ B)) by lia. rewrite (b_hist _ _ _ _ _ _ _ B). unfold vals. rewrite fmap_last. exact (f_equal (fmap fst) Hl).
Qed.
Lemma c_fresh cls f ev i : wf_ccalls cls -> cexec w cls f ev -> w_hist (c_w f) (CSlot (m_next (w_mem (c_w f))) i) = [].
Proof.
  intros Hwf He. destruct (good_exec _ _ _ _ code_strong Hwf He) as (M & H & N & pos & B & _). apply last_None.
  destruct (last (w_hist (c_w f) (CSlot (m_next (w_mem (c_w f))) i))) as [[v W]|] eqn:El; [exfalso|done].
  assert (cval (M N) (CSlot (m_next (w_mem (c_w f))) i) = Some v) as Hv. { rewrite <-(tl_last _ _ _ _ (b_tl _ _ _ _ _ _ _ B)) by lia. rewrite (b_hist _ _ _ _ _ _ _ B). unfold vals. rewrite fmap_last. exact (f_equal (fmap fst) El). }
  apply cval_slot in Hv as (sl & Hb & _). assert (minv pos (M N)) as Hm by (apply (tl_minv _ _ _ _ (b_tl _ _ _ _ _ _ _ B)); lia).
  pose proof (next_fresh _ _ Hm) as Hn. rewrite (b_mem _ _ _ _ _ _ _ B) in *. congruence.
Qed.

(** ** Graphs in which every access knows the number of its value *)
Record gok (ls : list glabel) (L : list (option acc)) (R : list (loc * dkind * nat)) (who : cell -> list gev) (H : nat -> nat -> Prop) : Prop := {
  ok_nodup : forall c, NoDup (who c);
  ok_init : forall c e, who c !! 0 = Some e -> e = Init c;
  ok_who : forall c i e, who c !! i = Some e -> writes L c e;
  ok_acc : forall t x, access_at L t x -> exists n, who (a_cell x) !! n = Some (a_rf x) /\ (a_wr x = true -> who (a_cell x) !! S n = Some (At t));
  ok_edge : forall t1 t2, edge ls R t1 t2 -> H t1 t2;
  ok_trans : forall t1 t2 t3, H t1 t2 -> H t2 t3 -> H t1 t3;
  ok_coh : forall t1 t2 x y i n, H t1 t2 -> access_at L t1 x -> access_at L t2 y -> a_cell x = a_cell y ->
    who (a_cell x) !! i = Some (latest t1 x) -> who (a_cell y) !! n = Some (a_rf y) -> i <= n;
}.
Section axioms.
Context ls (L : list (option acc)) (R : list (loc * dkind * nat)) (who : cell -> list gev) (H : nat -> nat -> Prop) (V : gok ls L R who H).
Definition mo_ (e1 e2 : gev) : Prop := exists c i j, who c !! i = Some e1 /\ who c !! j = Some e2 /\ i < j.
Definition hb_ (e1 e2 : gev) : Prop := exists t1 t2, e1 = At t1 /\ e2 = At t2 /\ H t1 t2.
(** Event [e] accesses [c] and leaves with its value number [i]; [b]: it writes it. *)
Inductive val c : gev -> nat -> bool -> Prop :=
| val_w e i : who c !! i = Some e -> val c e i true
| val_r t x i : access_at L t x -> a_cell x = c -> a_wr x = false -> who c !! i = Some (a_rf x) -> val c (At t) i false.
Lemma who_fun c c' e i i' : who c !! i = Some e -> who c' !! i' = Some e -> c = c' /\ i = i'.
Proof.
  intros H1 H2. assert (c = c') as <-.
  { pose proof (ok_who _ _ _ _ _ V _ _ _ H1) as W1. pose proof (ok_who _ _ _ _ _ V _ _ _ H2) as W2. destruct e as [c0|t]; simpl in *; [congruence|]. destruct W1 as (x & A1 & <- & _), W2 as (y & A2 & <- & _). unfold access_at in *. congruence. }
  split; [done|]. by eapply NoDup_lookup; [apply V| |].
Qed.
Lemma val_fun c c' e i i' b b' : val c e i b -> val c' e i' b' -> c = c' /\ i = i' /\ b = b'.
Proof.
  intros V1 V2. inversion V1 as [e0 i0 H1|t x i0 H1 H2 H3 H4]; inversion V2 as [e1 i1 H1'|t' x' i1 H1' H2' H3' H4']; subst; simplify_eq.
  - by destruct (who_fun _ _ _ _ _ H1 H1') as [-> ->].
  - pose proof (ok_who _ _ _ _ _ V _ _ _ H1) as (y & A1 & A2 & A3). unfold access_at in *. congruence.
  - pose proof (ok_who _ _ _ _ _ V _ _ _ H1') as (y & A1 & A2 & A3). unfold access_at in *. congruence.
  - assert (x = x') as <- by (unfold access_at in *; congruence). destruct (who_fun _ _ _ _ _ H4 H4') as [_ ->]. done.
Qed.
Definition before (e1 e2 : gev) : Prop := exists c i1 b1 i2 b2, val c e1 i1 b1 /\ val c e2 i2 b2 /\ (i1 < i2 \/ i1 = i2 /\ b1 = true /\ b2 = false).
Lemma before_trans e1 e2 e3 : before e1 e2 -> before e2 e3 -> before e1 e3.
Proof.
  intros (c & i1 & b1 & i2 & b2 & H1 & H2 & H3) (c' & i2' & b2' & i3 & b3 & H4 & H5 & H6). destruct (val_fun _ _ _ _ _ _ _ H2 H4) as (<- & <- & <-).
  exists c, i1, b1, i3, b3. split; [done|]. split; [done|]. destruct H3 as [?|(-> & -> & ->)], H6 as [?|(E & ? & ->)]; [left; lia|left; lia|left; lia|done].
Qed.
Lemma before_irr e : ~ before e e.
Proof. intros (c & i1 & b1 & i2 & b2 & H1 & H2 & H3). destruct (val_fun _ _ _ _ _ _ _ H1 H2) as (_ & <- & <-). destruct H3 as [?|(_ & -> & ?)]; [lia|done]. Qed.
Lemma eco_before e1 e2 : eco L mo_ e1 e2 -> before e1 e2.
Proof.
  induction 1 as [e1 e2 [t x Hx]|e1 e2 (c & i & j & H1 & H2 & H3)|e1 e2 (e & [t x Hx] & (c & i & j & H1 & H2 & H3) & Hne)|e1 e2 e3 _ IH1 _ IH2].
  - destruct (ok_acc _ _ _ _ _ V _ _ Hx) as (n & Hn & Hw). destruct (a_wr x) eqn:Ew.
    + exists (a_cell x), n, true, (S n), true. split; [by constructor|]. split; [constructor; by apply Hw|]. left. lia.
    + exists (a_cell x), n, true, n, false. split; [by constructor|]. split; [by eapply val_r|]. by right.
  - exists c, i, true, j, true. split; [by constructor|]. split; [by constructor|]. by left.
  - destruct (ok_acc _ _ _ _ _ V _ _ Hx) as (n & Hn & Hw). destruct (who_fun _ _ _ _ _ Hn H1) as [Ec <-]. destruct (a_wr x) eqn:Ew.
    + exists c, (S n), true, j, true. split; [constructor; rewrite <-Ec; by apply Hw|]. split; [by constructor|]. left. destruct (decide (j = S n)) as [->|]; [|lia]. rewrite <-Ec, Hw in H2 by done. by injection H2 as <-.
    + exists c, n, false, j, true. split; [eapply val_r; [done|done|done|by rewrite <-Ec]|]. split; [by constructor|]. by left.
  - by eapply before_trans.
Qed.
Lemma ok_consistent : consistent ls L R mo_ hb_.
Proof.
  split.
  - intros e1 e2 (c & i & j & H1 & H2 & H3). exists c. split; by eapply (ok_who _ _ _ _ _ V).
  - intros e1 e2 e3 (c & i & j & H1 & H2 & H3) (c' & i' & j' & H4 & H5 & H6). destruct (who_fun _ _ _ _ _ H2 H4) as [<- <-]. exists c, i, j'. split; [done|]. split; [done|lia].
  - assert (forall c e, writes L c e -> (exists i, who c !! i = Some e) \/ e = Init c) as Hw. { intros c [c'|t]; simpl; [by intros ->; right|]. intros (x & Hx & <- & Hw). destruct (ok_acc _ _ _ _ _ V _ _ Hx) as (n & _ & Hn). left. exists (S n). by apply Hn. }
    assert (forall c i e, who c !! i = Some e -> who c !! 0 = Some (Init c)) as H0. { intros c i e Hi. destruct (who c) as [|e0 r] eqn:E; [done|]. rewrite <-E in *. destruct (lookup_lt_is_Some_2 (who c) 0) as [e1 He1]; [rewrite E; simpl; lia|]. by rewrite (ok_init _ _ _ _ _ V _ _ He1) in He1. }
    intros c e1 e2 W1 W2 Hne. destruct (Hw _ _ W1) as [[i Hi]| ->], (Hw _ _ W2) as [[j Hj]| ->].
    + destruct (lt_eq_lt_dec i j) as [[?| ->]|?]; [left; by exists c, i, j|congruence|right; by exists c, j, i].
    + right. exists c, 0, i. split; [by eapply H0|]. split; [done|]. destruct i; [|lia]. rewrite (H0 _ _ _ Hi) in Hi. congruence.
    + left. exists c, 0, j. split; [by eapply H0|]. split; [done|]. destruct j; [|lia]. rewrite (H0 _ _ _ Hj) in Hj. congruence.
    + done.
  - intros t1 t2 He. exists t1, t2. split; [done|]. split; [done|]. by apply (ok_edge _ _ _ _ _ V).
  - intros e1 e2 e3 (t1 & t2 & -> & -> & H1) (t2' & t3 & [= <-] & -> & H2). exists t1, t3. split; [done|]. split; [done|]. by eapply (ok_trans _ _ _ _ _ V).
  - intros e He%eco_before. by eapply before_irr.
  - intros e1 e2 (t1 & t2 & -> & -> & Hh) He%eco_before. destruct He as (c & i2 & b2 & i1 & b1 & V2 & V1 & Hlt).
    assert (exists x, access_at L t1 x /\ a_cell x = c /\ who c !! i1 = Some (latest t1 x)) as (x & X1 & X2 & X3).
    { inversion V1 as [e0 i0 H1|t x i0 H1 H2 H3 H4]; subst.
      - destruct (ok_who _ _ _ _ _ V _ _ _ H1) as (x & A1 & A2 & A3). exists x. unfold latest. by rewrite A3.
      - exists x. unfold latest. by rewrite H3. }
    assert (exists y n, access_at L t2 y /\ a_cell y = c /\ who c !! n = Some (a_rf y) /\ n <= i2 /\ (b2 = true -> n < i2)) as (y & n & Y1 & Y2 & Y3 & Y4 & Y5).
    { inversion V2 as [e0 i0 H1|t y i0 H1 H2 H3 H4]; subst.
      - destruct (ok_who _ _ _ _ _ V _ _ _ H1) as (y & A1 & A2 & A3). destruct (ok_acc _ _ _ _ _ V _ _ A1) as (n & N1 & N2). rewrite A2 in N1, N2. destruct (who_fun _ _ _ _ _ H1 (N2 A3)) as [_ ->]. exists y, n. split; [done|]. split; [done|]. split; [done|]. lia.
      - exists y, i2. by split. }
    assert (i1 <= n) as Hle. { subst c. by eapply (ok_coh _ _ _ _ _ V t1 t2 x y i1 n); [| | | |exact X3|rewrite Y2]. }
    destruct Hlt as [?|(-> & -> & ->)]; [lia|]. specialize (Y5 eq_refl). lia.
  - intros e1 e2 H1 H2. apply (before_irr e1). apply eco_before. eapply eco_trans; [by apply eco_fr|by apply eco_mo].
Qed.
End axioms.

(** ** Happens-before: program order, and what the callers provide *)
Inductive edge0 (ls : list glabel) : nat -> nat -> Prop :=
| e0_po t1 t2 o : of_call ls t1 o -> of_call ls t2 o -> t1 < t2 -> edge0 ls t1 t2
| e0_call t1 t2 o op ps ds p : ls !! t2 = Some (GInv o op ps ds) -> p ∈ ps -> of_call ls t1 p -> t1 < t2 -> edge0 ls t1 t2.
Inductive hbn (ls : list glabel) : nat -> nat -> Prop :=
| hbn_once t1 t2 : edge0 ls t1 t2 -> hbn ls t1 t2
| hbn_snoc t1 t2 t3 : hbn ls t1 t2 -> edge0 ls t2 t3 -> hbn ls t1 t3.
Lemma edge0_lt ls t1 t2 : edge0 ls t1 t2 -> t1 < t2.
Proof. by destruct 1. Qed.
Lemma hbn_lt ls t1 t2 : hbn ls t1 t2 -> t1 < t2.
Proof. induction 1 as [? ? H%edge0_lt|? ? ? _ ? H%edge0_lt]; lia. Qed.
Lemma hbn_trans ls t1 t2 t3 : hbn ls t1 t2 -> hbn ls t2 t3 -> hbn ls t1 t3.
Proof. intros H1. induction 1 as [? ? H|? ? ? _ IH H]; [by eapply hbn_snoc|eapply hbn_snoc; [by apply IH|done]]. Qed.
Lemma of_call_lt ls t o : of_call ls t o -> t < length ls.
Proof. intros (lb & H & _). by eapply lookup_lt_Some. Qed.
Lemma of_call_old ls lb t o : of_call (ls ++ [lb]) t o -> t < length ls -> of_call ls t o.
Proof. intros (lb' & H & Hm) Hlt. rewrite lookup_app_l in H by done. by exists lb'. Qed.
Lemma edge0_end ls t1 t2 : edge0 ls t1 t2 -> t2 < length ls.
Proof. intros [t3 t4 o _ H _|t3 t4 o op ps ds p H _ _ _]; [by eapply of_call_lt|by eapply lookup_lt_Some]. Qed.
Lemma edge0_old ls lb t1 t2 : edge0 (ls ++ [lb]) t1 t2 -> t2 < length ls -> edge0 ls t1 t2.
Proof.
  intros [t3 t4 o H1 H2 H3|t3 t4 o op ps ds p H1 H2 H3 H4] Hlt.
  - eapply e0_po; [eapply of_call_old; [done|lia]|by eapply of_call_old|done].
  - rewrite lookup_app_l in H1 by done. eapply e0_call; [done|done| |done]. eapply of_call_old; [done|lia].
Qed.
Lemma hbn_old ls lb t1 t2 : hbn (ls ++ [lb]) t1 t2 -> t2 < length ls -> hbn ls t1 t2.
Proof.
  induction 1 as [? ? H|? t2 ? _ IH H]; intros Hlt.
  - apply hbn_once. by eapply edge0_old.
  - pose proof (edge0_lt _ _ _ H). eapply hbn_snoc; [apply IH; lia|by eapply edge0_old].
Qed.
Lemma hbn_last ls t1 t2 : hbn ls t1 t2 -> exists t, edge0 ls t t2 /\ (t1 = t \/ hbn ls t1 t).
Proof. destruct 1 as [? ? H|? t2 ? H1 H2]; [exists t1; split; [done|by left]|exists t2; split; [done|by right]]. Qed.

(** ** The invariant *)
Record cr (cls : list clabel) f (ls : list glabel) s : Prop := {
  cr_T : length (g_log s) = length ls;
  cr_w : g_w s = c_w f;
  cr_gone : g_gone s = ∅;
  cr_done : g_done s = [];
  cr_dropped : g_dropped s = false;
  cr_ds : forall o op ps ds, GInv o op ps ds ∈ ls -> ds = [];
  cr_inv : forall o op ps, CInv o op ps ∈ cls <-> GInv o op ps [] ∈ ls;
  cr_len : forall c, length (g_who s c) = length (w_hist (g_w s) c);
  cr_nodup : forall c, NoDup (g_who s c);
  cr_init : forall c e, g_who s c !! 0 = Some e -> e = Init c;
  cr_who : forall c i e, g_who s c !! i = Some e -> writes (g_log s) c e;
  cr_acc : forall t x, access_at (g_log s) t x -> exists n, g_who s (a_cell x) !! n = Some (a_rf x) /\ (a_wr x = true -> g_who s (a_cell x) !! S n = Some (At t));
  cr_call : forall t o, of_call ls t o -> is_Some (w_ops (g_w s) !! o);
  cr_fl : forall t2 o t1 x i, of_call ls t2 o -> t1 = t2 \/ hbn ls t1 t2 -> access_at (g_log s) t1 x -> g_who s (a_cell x) !! i = Some (latest t1 x) -> i <= c_fl f o (a_cell x);
  cr_coh : forall t1 t2 x y i n, hbn ls t1 t2 -> access_at (g_log s) t1 x -> access_at (g_log s) t2 y -> a_cell x = a_cell y ->
    g_who s (a_cell x) !! i = Some (latest t1 x) -> g_who s (a_cell y) !! n = Some (a_rf y) -> i <= n;
}.

Lemma cr_consistent cls f ls s : cr cls f ls s -> consistent ls (g_log s) (g_regs s) (mo_ (g_who s)) (hb_ (hbn ls)).
Proof.
  intros V. apply ok_consistent. split; try apply V.
  - intros t1 t2 He. apply hbn_once. destruct He as [t1 t2 o H1 H2 H3|t1 t2 o op ps ds p H1 H2 H3 H4|t1 t2 o op ps ds d l k H1 H2 H3].
    + by eapply e0_po.
    + by eapply e0_call.
    + apply elem_of_list_lookup_2 in H1. rewrite (cr_ds _ _ _ _ V _ _ _ _ H1) in H2. by apply elem_of_nil in H2.
  - apply hbn_trans.
Qed.

(** ** The graph of an execution *)
Lemma log_snoc (log : list (option acc)) l t x : access_at (log ++ [l]) t x <-> access_at log t x \/ t = length log /\ l = Some x.
Proof.
  unfold access_at. rewrite lookup_app_Some. split.
  - intros [?|[Hle H]]; [by left|]. apply list_lookup_singleton_Some in H as [H ->]. right. split; [lia|done].
  - intros [?|[-> ->]]; [by left|]. right. split; [done|]. by rewrite Nat.sub_diag.
Qed.
Lemma access_lt (log : list (option acc)) t x : access_at log t x -> t < length log.
Proof. apply lookup_lt_Some. Qed.
Lemma of_call_snoc ls lb t o : of_call (ls ++ [lb]) t o -> of_call ls t o \/ t = length ls /\ match lb with GInv o' _ _ _ | GStep o' _ _ _ => o' = o | _ => False end.
Proof.
  intros (lb' & H & Hm). apply lookup_app_Some in H as [H|[Hle H]]; [left; by exists lb'|]. apply list_lookup_singleton_Some in H as [H ->]. right. split; [lia|done].
Qed.

Lemma conv_call (s0 : wstate) (who : cell -> list gev) o n spur a (w1 : wstate) e1 : (forall c, length (who c) = length (w_hist s0 c)) -> (forall c, NoDup (who c)) ->
  (forall i, w_hist s0 (CSlot (m_next (w_mem s0)) i) = []) -> (forall c v W, last (w_hist s0 c) = Some (v, W) -> write_cell (w_mem s0) c v = w_mem s0) -> wstep w s0 (WStep o n spur a) = Some (w1, e1) ->
  is_Some (w_ops s0 !! o) /\ (forall o', is_Some (w_ops s0 !! o') -> is_Some (w_ops w1 !! o')) /\
  exists l r, gcall w s0 who o r spur a = Some (w1, e1, l) /\
    ((w_hist w1 = w_hist s0 /\ (l = None \/ exists c, next_cell w s0 o = Some c /\ l = Some (Acc o c r false) /\ who c !! n = Some r)) \/
     exists c x, next_cell w s0 o = Some c /\ l = Some (Acc o c r true) /\ who c !! n = Some r /\ S n = length (who c) /\ w_hist w1 c = w_hist s0 c ++ [x] /\
       forall c', c' <> c -> w_hist w1 c' = w_hist s0 c' \/ (w_hist s0 c' = [] /\ length (w_hist w1 c') <= 1)).
Proof.
  intros Hlen Hnd Hfresh Hnew Hw. cbn [wstep] in Hw. unfold next_cell, gcall. destruct (w_ops s0 !! o) as [[st tv pv]|] eqn:Eo; [|done]. destruct st as [op p| | |]; try done. split; [eauto|].
  assert ((forall o', o' <> o -> w_ops w1 !! o' = w_ops s0 !! o') -> is_Some (w_ops w1 !! o) -> forall o', is_Some (w_ops s0 !! o') -> is_Some (w_ops w1 !! o')) as Hops.
  { intros H1 H2 o' Ho'. destruct (decide (o' = o)) as [->|Hne]; [done|by rewrite H1]. }
  assert (forall tv' pv' m1, w_local s0 o op tv' pv' m1 p spur a = Some (w1, e1) -> w_hist w1 = w_hist s0 /\ forall o', is_Some (w_ops s0 !! o') -> is_Some (w_ops w1 !! o')) as Hloc.
  { intros tv' pv' m1 H. destruct (local_hist _ _ _ _ _ _ _ _ _ _ _ H) as [Eh _]. destruct (local_ops _ _ _ _ _ _ _ _ _ _ _ H). split; [done|by apply Hops]. }
  destruct (access w p) as [[[c k] ord]|] eqn:Ea; cbn [fmap option_fmap option_map fst].
  2: { destruct (Hloc _ _ _ Hw) as [H1 H2]. split; [done|]. exists None, (Init CRoot). rewrite Hw. split; [done|]. left. split; [done|]. by left. }
  destruct (base_seen tv pv c) eqn:Eb; cbn [negb] in *.
  2: { injection Hw as <- <-. cbn [w_hist w_ops]. split; [apply Hops; cbn [w_ops]; [intros o' Hne; by rewrite lookup_insert_ne|rewrite lookup_insert; eauto]|]. exists None, (Init CRoot). split; [done|]. left. split; [done|]. by left. }
  destruct (w_hist s0 c) as [|h0 hr] eqn:Eh.
  { assert (who c = []) as E0 by (apply nil_length_inv; by rewrite Hlen, Eh). rewrite E0. injection Hw as <- <-. cbn [w_hist w_ops]. split; [apply Hops; cbn [w_ops]; [intros o' Hne; by rewrite lookup_insert_ne|rewrite lookup_insert; eauto]|]. exists None, (Init CRoot). split; [done|]. left. split; [done|]. by left. }
  rewrite <-Eh in *. destruct (w_hist s0 c !! n) as [[v W]|] eqn:Ev; [|done]. destruct (lookup_lt_is_Some_2 (who c) n) as [r Hr]; [rewrite Hlen; by eapply lookup_lt_Some|].
  assert (list_find (fun x => x = r) (who c) = Some (n, r)) as Hfind. { apply list_find_Some. split; [done|]. split; [done|]. intros j y Hj Hlt ->. pose proof (NoDup_lookup _ _ _ _ (Hnd c) Hj Hr). lia. }
  assert (forall tv' pv', S n = length (w_hist s0 c) -> w_write s0 o op tv' pv' c ord p spur a = Some (w1, e1) -> (forall o', is_Some (w_ops s0 !! o') -> is_Some (w_ops w1 !! o')) /\ with_mem s0 (write_cell (w_mem s0) c v) = s0 /\ write_cell (w_mem s0) c v = w_mem s0 /\
    exists x, w_hist w1 c = w_hist s0 c ++ [x] /\ forall c', c' <> c -> w_hist w1 c' = w_hist s0 c' \/ (w_hist s0 c' = [] /\ length (w_hist w1 c') <= 1)) as Hwr.
  { intros tv' pv' HS H. destruct (write_ops _ _ _ _ _ _ _ _ _ _ _ _ H). split; [by apply Hops|]. assert (write_cell (w_mem s0) c v = w_mem s0) as E. { apply (Hnew c v W). rewrite last_lookup, <-HS. exact Ev. }
    split; [rewrite E; unfold with_mem; by destruct s0|]. split; [done|]. eapply write_hist; [done|done|]. by rewrite Eh. }
  destruct (who c) as [|e0 q] eqn:Ewho; [done|]. rewrite <-Ewho in *.
  destruct k; cbn beta iota zeta in Hw.
  - destruct (Hloc _ _ _ Hw) as [H1 H2]. split; [done|]. exists (Some (Acc o c r false)), r. rewrite Hfind, Ev. cbn beta iota. rewrite Hw. split; [done|]. left. split; [done|]. right. by exists c.
  - destruct (Hloc _ _ _ Hw) as [H1 H2]. split; [done|]. exists (Some (Acc o c r false)), r. rewrite Hfind, Ev. cbn beta iota. rewrite Hw. split; [done|]. left. split; [done|]. right. by exists c.
  - destruct (bool_decide (S n = length (w_hist s0 c))) eqn:En; [|done]. apply bool_decide_eq_true in En. destruct (Hwr _ _ En Hw) as (H1 & H2 & _ & x & H3 & H4). split; [done|].
    exists (Some (Acc o c r true)), r. rewrite Hfind, Ev. cbn beta iota. rewrite H2, Hw. split; [done|]. right. exists c, x. rewrite Hlen. done.
  - destruct (bool_decide (S n = length (w_hist s0 c)) && cas_wins (w_mem s0) p spur) eqn:En.
    + apply andb_true_iff in En as [En Ec]. apply bool_decide_eq_true in En. destruct (Hwr _ _ En Hw) as (H1 & H2 & H2' & x & H3 & H4). split; [done|].
      exists (Some (Acc o c r true)), r. rewrite Hfind, Ev. cbn beta iota. rewrite H2, H2', Ec, Hw. split; [done|]. right. exists c, x. rewrite Hlen. done.
    + destruct (cas_wins (write_cell (w_mem s0) c v) p spur) eqn:Ec; [done|]. destruct (Hloc _ _ _ Hw) as [H1 H2]. split; [done|]. exists (Some (Acc o c r false)), r. rewrite Hfind, Ev. cbn beta iota. rewrite Ec, Hw. split; [done|]. left. split; [done|]. right. by exists c.
Qed.

Lemma conv_inv cls f ls s o op ps f' ev1 : cr cls f ls s -> cstep w f (CInv o op ps) = Some (f', ev1) ->
  exists s', gstep w s (GInv o op ps []) = Some (s', ev1) /\ cr (cls ++ [CInv o op ps]) f' (ls ++ [GInv o op ps []]) s'.
Proof.
  intros V Hc. cbn [cstep] in Hc. destruct (forallb (is_returned (c_w f)) ps) eqn:Eps; [|done]. destruct (wstep w (c_w f) (WInv o op)) as [[w1 e1]|] eqn:Ew; [|done]. injection Hc as <- <-.
  cbn [gstep]. rewrite (cr_dropped _ _ _ _ V), (cr_done _ _ _ _ V), (cr_w _ _ _ _ V), Eps, Ew. cbn [negb forallb andb]. eexists. split; [reflexivity|]. cbn [wstep] in Ew. destruct (w_ops (c_w f) !! o) eqn:Eo; [done|]. injection Ew as <- <-.
  set (ls' := ls ++ [GInv o op ps []]). assert (forall t, of_call ls t o -> False) as Hno. { intros t Ht. apply (cr_call _ _ _ _ V) in Ht. rewrite (cr_w _ _ _ _ V), Eo in Ht. by destruct Ht. }
  assert (forall t x, access_at (g_log s ++ [None]) t x <-> access_at (g_log s) t x) as Hacc. { intros t x. rewrite log_snoc. split; [intros [?|[_ ?]]; done|by left]. }
  split; cbn [g_log g_w g_who g_regs g_sync g_done g_gone g_dropped g_ub c_w c_fl w_hist w_ops].
  - unfold ls'. rewrite !app_length, (cr_T _ _ _ _ V). done.
  - done.
  - apply V.
  - done.
  - done.
  - intros o' op' ps' ds' [H|H]%elem_of_app; [by eapply (cr_ds _ _ _ _ V)|]. apply elem_of_list_singleton in H. by injection H as -> -> -> ->.
  - intros o' op' ps'. unfold ls'. rewrite !elem_of_app, !elem_of_list_singleton, (cr_inv _ _ _ _ V). split; (intros [?|E]; [by left|right]); by injection E as -> -> ->.
  - intros c. rewrite (cr_len _ _ _ _ V), (cr_w _ _ _ _ V). done.
  - apply V.
  - apply V.
  - intros c i e He. pose proof (cr_who _ _ _ _ V _ _ _ He) as Hw. destruct e as [c'|t]; [done|]. destruct Hw as (x & H1 & H2). exists x. by rewrite Hacc.
  - intros t x Hx. apply (cr_acc _ _ _ _ V). by apply Hacc.
  - intros t o' Ht. apply of_call_snoc in Ht as [Ht|[_ ->]]; [|rewrite lookup_insert; eauto]. apply (cr_call _ _ _ _ V) in Ht. rewrite (cr_w _ _ _ _ V) in Ht. destruct (decide (o' = o)) as [->|]; [rewrite lookup_insert; eauto|by rewrite lookup_insert_ne].
  - intros t2 o' t1 x i Ht2 Hhb Hx Hi. apply Hacc in Hx. apply of_call_snoc in Ht2 as [Ht2|[-> E]].
    + rewrite decide_False by (intros ->; by eapply Hno). eapply (cr_fl _ _ _ _ V t2 o' t1); [done| |done|done]. destruct Hhb as [?|Hhb]; [by left|right]. eapply hbn_old; [done|]. by eapply of_call_lt.
    + simpl in E. subst o'. rewrite decide_True by done. destruct Hhb as [->|Hhb]; [apply access_lt in Hx; rewrite (cr_T _ _ _ _ V) in Hx; lia|]. apply hbn_last in Hhb as (t & He & Ht). pose proof (edge0_lt _ _ _ He) as Hlt.
      assert (t1 = t \/ hbn ls t1 t) as Ht'. { destruct Ht as [?|Ht]; [by left|right; by eapply hbn_old]. }
      inversion He as [t3 t4 o' H1 H2 H3|t3 t4 o' op' ps' ds' q H1 H2 H3 H4]; subst.
      * exfalso. apply of_call_snoc in H2 as [H2|[_ E]]; [apply of_call_lt in H2; lia|]. simpl in E. subst o'. eapply Hno. by eapply of_call_old.
      * unfold ls' in H1. rewrite lookup_app_r, Nat.sub_diag in H1 by done. injection H1 as <- <- <- <-. etrans; [|apply (max_list_elem_of_le (c_fl f q (a_cell x)))].
        -- eapply (cr_fl _ _ _ _ V t q t1); [by eapply of_call_old|done|done|done].
        -- apply elem_of_list_fmap. by exists q.
  - intros t1 t2 x y i n Hhb Hx Hy Ec Hi Hn. apply Hacc in Hx, Hy. eapply (cr_coh _ _ _ _ V t1 t2 x y); [|done|done|done|done|done]. eapply hbn_old; [done|]. apply access_lt in Hy. by rewrite <-(cr_T _ _ _ _ V).
Qed.

Lemma conv_step cls f ls s ev o n spur a f' ev1 : wf_ccalls cls -> cexec w cls f ev -> cr cls f ls s -> cstep w f (CStep o n spur a) = Some (f', ev1) ->
  exists r s', gstep w s (GStep o r spur a) = Some (s', ev1) /\ cr (cls ++ [CStep o n spur a]) f' (ls ++ [GStep o r spur a]) s'.
Proof.
  intros Hwf He V Hc. cbn [cstep] in Hc. destruct (wstep w (c_w f) (WStep o n spur a)) as [[w1 e1]|] eqn:Ew; [|done].
  rewrite <-(cr_w _ _ _ _ V) in Ew, Hc.
  destruct (conv_call _ (g_who s) _ _ _ _ _ _ (cr_len _ _ _ _ V) (cr_nodup _ _ _ _ V) ltac:(rewrite (cr_w _ _ _ _ V); intros i; by eapply c_fresh) ltac:(rewrite (cr_w _ _ _ _ V); intros c v W; by eapply c_newest) Ew) as (Hop & Hops & l & r & Hg & Hcase).
  assert (g_alive s o = true) as Hal. { apply bool_decide_eq_true. split; [done|]. rewrite (cr_gone _ _ _ _ V). set_solver. }
  set (T := length (g_log s)). set (who' := fun c => grow T c (w_hist w1 c) (g_who s c)).
  assert (c_w f' = w1 /\ ev1 = e1 /\ (forall o' c, c_fl f o' c <= c_fl f' o' c) /\ forall c, next_cell w (g_w s) o = Some c -> c_fl f o c <= n /\ c_fl f' o c = if length (w_hist (g_w s) c) <? length (w_hist w1 c) then length (w_hist (g_w s) c) else n) as (Ef & -> & Fmono & Ffl).
  { destruct (next_cell w (g_w s) o) as [c0|] eqn:En; [|by injection Hc as <- <-]. destruct (n <? c_fl f o c0) eqn:Elt; [done|]. apply Nat.ltb_ge in Elt. injection Hc as <- <-. split; [done|]. split; [done|]. cbn [c_fl]. split.
    - intros o' c. destruct (decide (o' = o)) as [->|]; [|done]. destruct (same_cell c0 c) eqn:Es; [|done]. apply same_cell_true in Es as <-. destruct (_ <? _) eqn:E2; [|done]. apply Nat.ltb_lt in E2.
      destruct Hcase as [[Eh _]|(c & x & [= <-] & _ & _ & HS & _)]; [rewrite Eh in E2; lia|]. rewrite (cr_len _ _ _ _ V) in HS. lia.
    - intros c [= <-]. split; [done|]. rewrite decide_True by done. by rewrite (proj2 (same_cell_true _ _)). }
  assert (forall c i e, g_who s c !! i = Some e -> who' c !! i = Some e) as W1 by (intros c i e; apply grow_look).
  assert (forall c, length (who' c) = length (w_hist w1 c)) as Wlen.
  { intros c. unfold who', grow. rewrite (cr_len _ _ _ _ V). assert (w_hist w1 c = w_hist (g_w s) c \/ (w_hist (g_w s) c = [] /\ length (w_hist w1 c) <= 1) \/ exists x, w_hist w1 c = w_hist (g_w s) c ++ [x] /\ g_who s c <> []) as [->|[[E1 E2]|(x & -> & Hne)]].
    - destruct Hcase as [[-> _]|(c0 & x & _ & _ & Hr & HS & Hx & Hoth)]; [by left|]. destruct (decide (c = c0)) as [->|Hne]; [|destruct (Hoth c Hne) as [?|?]; [by left|right; by left]]. right. right. exists x. split; [done|]. intros E. by rewrite E in Hr.
    - rewrite (proj2 (Nat.leb_le _ _)) by done. apply V.
    - assert (g_who s c = []) as E0 by (apply nil_length_inv; by rewrite (cr_len _ _ _ _ V), E1). rewrite E0, E1. destruct (w_hist w1 c) as [|? [|? ?]]; simpl in *; [done|done|lia].
    - rewrite app_length. simpl. replace (_ <=? _) with false by (symmetry; apply Nat.leb_gt; lia). destruct (g_who s c) eqn:E; [done|]. rewrite <-E, app_length, (cr_len _ _ _ _ V). done. }
  assert (forall c i e, who' c !! i = Some e -> g_who s c !! i = Some e \/ (e = Init c /\ i = 0 /\ g_who s c = []) \/ (e = At T /\ l = Some (Acc o c r true) /\ i = S n /\ S n = length (g_who s c) /\ g_who s c !! n = Some r)) as W2.
  { intros c i e Hi. unfold who', grow in Hi. rewrite (cr_len _ _ _ _ V) in Hi. destruct (_ <=? _) eqn:Ele; [by left|]. apply Nat.leb_gt in Ele. destruct (g_who s c) as [|e0 q] eqn:Eq.
    - right. left. apply list_lookup_singleton_Some in Hi as [? <-]. done.
    - rewrite <-Eq in *. apply lookup_app_Some in Hi as [Hi|[Hle Hi]]; [by left|]. apply list_lookup_singleton_Some in Hi as [Hz <-]. right. right. split; [done|].
      destruct Hcase as [[Eh _]|(c0 & x & _ & -> & Hr & HS & Hx & Hoth)]; [rewrite Eh in Ele; lia|]. destruct (decide (c = c0)) as [->|Hne].
      + split; [done|]. split; [lia|]. done.
      + destruct (Hoth c Hne) as [E|[E _]]; [rewrite E in Ele; lia|]. assert (g_who s c = []) as E0 by (apply nil_length_inv; by rewrite (cr_len _ _ _ _ V), E). congruence. }
  assert (forall c i, g_who s c !! i <> Some (At T)) as Hold. { intros c i Hi. destruct (cr_who _ _ _ _ V _ _ _ Hi) as (x & Hx & _). apply access_lt in Hx. unfold T in Hx. lia. }
  assert (forall c, NoDup (who' c)) as Wnd.
  { intros c. apply NoDup_alt. intros i j e Hi Hj. destruct (W2 _ _ _ Hi) as [Hi'|[(-> & -> & E)|(-> & _ & -> & _)]], (W2 _ _ _ Hj) as [Hj'|[(E1 & -> & E2)|(E1 & _ & -> & _)]]; subst; try done.
    - by eapply NoDup_lookup; [apply (cr_nodup _ _ _ _ V)| |].
    - by rewrite E2 in Hi'.
    - by apply Hold in Hi'.
    - by rewrite E in Hj'.
    - by apply Hold in Hj'. }
  assert (forall t x i, access_at (g_log s) t x -> who' (a_cell x) !! i = Some (latest t x) -> g_who s (a_cell x) !! i = Some (latest t x)) as Wold.
  { intros t x i Hx Hi. destruct (cr_acc _ _ _ _ V _ _ Hx) as (k & K1 & K2). assert (exists j, g_who s (a_cell x) !! j = Some (latest t x)) as [j Hj]. { unfold latest. destruct (a_wr x); eauto. }
    rewrite (NoDup_lookup _ _ _ _ (Wnd (a_cell x)) Hi (W1 _ _ _ Hj)). done. }
  assert (forall t x i, access_at (g_log s) t x -> who' (a_cell x) !! i = Some (a_rf x) -> g_who s (a_cell x) !! i = Some (a_rf x)) as Wrf.
  { intros t x i Hx Hi. destruct (cr_acc _ _ _ _ V _ _ Hx) as (k & K1 & K2). rewrite (NoDup_lookup _ _ _ _ (Wnd (a_cell x)) Hi (W1 _ _ _ K1)). done. }
  assert (forall x, l = Some x -> exists c b, x = Acc o c r b /\ next_cell w (g_w s) o = Some c /\ g_who s c !! n = Some r /\ (b = true -> who' c !! S n = Some (At T)) /\ c_fl f o c <= n /\
    (forall i, who' c !! i = Some (latest T x) -> i <= c_fl f' o c)) as Hl.
  { intros x ->. destruct Hcase as [[Eh [?|(c & Hnc & [= ->] & Hr)]]|(c & y & Hnc & [= ->] & Hr & HS & Hy & Hoth)]; [done|..].
    - destruct (Ffl c Hnc) as [F1 F2]. exists c, false. do 3 (split; [done|]). split; [done|]. split; [done|]. intros i Hi. unfold latest in Hi. cbn [a_wr a_rf] in Hi. rewrite (NoDup_lookup _ _ _ _ (Wnd c) Hi (W1 _ _ _ Hr)). rewrite F2, Eh, Nat.ltb_irrefl. done.
    - destruct (Ffl c Hnc) as [F1 F2]. assert (who' c !! S n = Some (At T)) as HT.
      { unfold who', grow. rewrite Hy, app_length, (cr_len _ _ _ _ V). simpl. replace (_ <=? _) with false by (symmetry; apply Nat.leb_gt; lia). destruct (g_who s c) eqn:E; [done|]. rewrite <-E in *. by rewrite lookup_app_r, HS, Nat.sub_diag by lia. }
      exists c, true. do 3 (split; [done|]). split; [done|]. split; [done|]. intros i Hi. unfold latest in Hi. cbn [a_wr a_rf] in Hi. rewrite (NoDup_lookup _ _ _ _ (Wnd c) Hi HT).
      rewrite F2, Hy, app_length. simpl. rewrite (proj2 (Nat.ltb_lt _ _)) by lia. by rewrite <-(cr_len _ _ _ _ V), <-HS. }
  assert (forall t1 t2 o', of_call ls t2 o' -> t1 = t2 \/ hbn (ls ++ [GStep o r spur a]) t1 t2 -> t1 = t2 \/ hbn ls t1 t2) as Hhold. { intros t1 t2 o' Ht [?|Hh]; [by left|right]. eapply hbn_old; [done|]. by eapply of_call_lt. }
  assert (length ls = T) as ET by (symmetry; apply V).
  assert (forall t1 x i, hbn (ls ++ [GStep o r spur a]) t1 T -> access_at (g_log s) t1 x -> g_who s (a_cell x) !! i = Some (latest t1 x) -> i <= c_fl f o (a_cell x)) as Hinto.
  { intros t1 x i Hh Hx Hi. apply hbn_last in Hh as (t & Hed & Ht). pose proof (edge0_lt _ _ _ Hed) as Hlt. rewrite <-ET in Hlt, Hed.
    inversion Hed as [t3 t4 o' H1 H2 H3|t3 t4 o' op' ps' ds' q H1 H2 H3 H4]; subst t3 t4.
    - apply of_call_snoc in H2 as [H2|[_ E]]; [apply of_call_lt in H2; lia|]. simpl in E. subst o'. pose proof (of_call_old _ _ _ _ H1 Hlt). eapply (cr_fl _ _ _ _ V t o t1); [done|by eapply Hhold|done|done].
    - exfalso. by rewrite lookup_app_r, Nat.sub_diag in H1 by done. }
  exists r. cbn [gstep]. rewrite Hal, Hg. eexists. split; [reflexivity|]. fold T. fold who'.
  split; cbn [g_log g_w g_who g_regs g_sync g_done g_gone g_dropped g_ub].
  - rewrite !app_length, (cr_T _ _ _ _ V). done.
  - done.
  - apply V.
  - apply V.
  - apply V.
  - intros o' op' ps' ds' [H|H]%elem_of_app; [by eapply (cr_ds _ _ _ _ V)|]. by apply elem_of_list_singleton in H.
  - intros o' op' ps'. rewrite !elem_of_app, !elem_of_list_singleton, (cr_inv _ _ _ _ V). split; (intros [?|E]; [by left|done]).
  - done.
  - done.
  - intros c e Hi. destruct (W2 _ _ _ Hi) as [Hi'|[(-> & _ & _)|(_ & _ & ? & _)]]; [by apply (cr_init _ _ _ _ V)|done|done].
  - intros c i e Hi. destruct (W2 _ _ _ Hi) as [Hi'|[(-> & _ & _)|(-> & El & _)]]; [|done|].
    + pose proof (cr_who _ _ _ _ V _ _ _ Hi') as Hw. destruct e as [c'|t]; [done|]. destruct Hw as (x & H1 & H2). exists x. split; [apply log_snoc; by left|done].
    + exists (Acc o c r true). split; [apply log_snoc; by right|done].
  - intros t x [Hx|[-> El]]%log_snoc.
    + destruct (cr_acc _ _ _ _ V _ _ Hx) as (k & K1 & K2). exists k. split; [by apply W1|]. intros E. apply W1. by apply K2.
    + destruct (Hl _ El) as (c & b & -> & _ & H1 & H2 & _). exists n. cbn [a_cell a_rf a_wr]. split; [by apply W1|done].
  - intros t o' Ht. apply of_call_snoc in Ht as [Ht|[_ <-]]; apply Hops; [|done]. by apply (cr_call _ _ _ _ V) in Ht.
  - intros t2 o' t1 x i Ht2 Hhb Hx Hi. apply of_call_snoc in Ht2 as [Ht2|[-> E]].
    + assert (t1 < T) as Hlt1. { rewrite <-ET. pose proof (of_call_lt _ _ _ Ht2). destruct Hhb as [->|Hq%hbn_lt]; lia. }
      apply log_snoc in Hx as [Hx|[-> _]]; [|fold T in Hlt1; lia]. etrans; [|apply Fmono]. eapply (cr_fl _ _ _ _ V t2 o' t1); [done|by eapply Hhold|done|by eapply Wold].
    + simpl in E. subst o'. apply log_snoc in Hx as [Hx|[-> El]].
      * destruct Hhb as [->|Hhb]; [apply access_lt in Hx; fold T in Hx; lia|]. rewrite ET in Hhb. etrans; [|apply Fmono]. eapply Hinto; [done|done|by eapply Wold].
      * destruct (Hl _ El) as (c & b & -> & _ & _ & _ & _ & H). by apply H.
  - intros t1 t2 x y i k Hhb Hx Hy Ec Hi Hk. apply log_snoc in Hy as [Hy|[-> El]].
    + assert (t2 < length ls) as Hlt by (rewrite <-(cr_T _ _ _ _ V); by eapply access_lt). pose proof (hbn_lt _ _ _ Hhb). apply log_snoc in Hx as [Hx|[-> _]]; [|rewrite (cr_T _ _ _ _ V) in *; lia].
      eapply (cr_coh _ _ _ _ V t1 t2 x y); [by eapply hbn_old|done|done|done|by eapply Wold|by eapply Wrf].
    + pose proof (hbn_lt _ _ _ Hhb) as Hlt. apply log_snoc in Hx as [Hx|[-> _]]; [|lia]. destruct (Hl _ El) as (c & b & -> & _ & H1 & _ & H2 & _). cbn [a_cell a_rf] in *. rewrite (NoDup_lookup _ _ _ _ (Wnd c) Hk (W1 _ _ _ H1)).
      etrans; [|exact H2]. rewrite <-Ec. eapply Hinto; [done|done|by eapply Wold].
Qed.

Lemma crun_split f l1 l2 f2 e : crun w f (l1 ++ l2) = Some (f2, e) -> exists f1 e1 e2, crun w f l1 = Some (f1, e1) /\ crun w f1 l2 = Some (f2, e2) /\ e = e1 ++ e2.
Proof.
  revert f e. induction l1 as [|lb l1 IH]; intros f e H1; cbn [crun app] in *; [by exists f, [], e|]. destruct (cstep w f lb) as [[f3 e3]|]; [|done]. destruct (crun w f3 (l1 ++ l2)) as [[f4 e4]|] eqn:E; [|done]. injection H1 as <- <-.
  destruct (IH _ _ E) as (f1 & e1 & e2 & -> & H2 & ->). exists f1, (e3 ++ e1), e2. by rewrite app_assoc.
Qed.

(** Every execution of the machine of WeakCoh.v is one that the axioms allow. *)
Lemma conv cls f ev : wf_ccalls cls -> cexec w cls f ev -> exists ls s, gexec w ls s ev /\ cr cls f ls s.
Proof.
  intros Hwf. revert f ev. induction cls as [|lb cls IH] using rev_ind; intros f ev He.
  - cbn in He. injection He as <- <-. exists [], ginit. split; [done|]. split; try done.
    + intros o op ps ds Hx. by apply elem_of_nil in Hx.
    + intros o op ps. split; intros Hx; by apply elem_of_nil in Hx.
    + intros [|l i]; done.
    + intros [|l i]; simpl; [apply NoDup_singleton|apply NoDup_nil_2].
    + intros [|l i] e; simpl; [by intros [= <-]|done].
    + intros [|l i] j e; simpl; [|done]. destruct j; simpl; [by intros [= <-]|done].
    + intros t o Ht. apply of_call_lt in Ht. simpl in Ht. lia.
  - assert (wf_ccalls cls) as Hwf' by (intros o op ps Hin; eapply Hwf; apply elem_of_app; by left). apply crun_split in He as (f0 & e0 & e1 & He0 & He1 & ->). destruct (IH Hwf' _ _ He0) as (ls & s & Hg & V). cbn [crun] in He1. destruct (cstep w f0 lb) as [[f1 e2]|] eqn:Es; [|done]. injection He1 as <- <-.
    assert (exists glb s', gstep w s glb = Some (s', e2) /\ cr (cls ++ [lb]) f1 (ls ++ [glb]) s') as (glb & s' & Hst & V').
    { destruct lb as [o op ps|o n spur a]; [destruct (conv_inv _ _ _ _ _ _ _ _ _ V Es) as (s' & ? & ?)|destruct (conv_step _ _ _ _ _ _ _ _ _ _ _ Hwf' He0 V Es) as (r & s' & ? & ?)]; eauto. }
    exists (ls ++ [glb]), s'. split; [|done]. unfold gexec. rewrite (grun_app _ _ _ _ _ Hg). cbn [grun]. by rewrite Hst.
Qed.
Lemma conv_allowed cls f ev : wf_ccalls cls -> cexec w cls f ev -> exists ls s, allowed w ls s ev /\ wf_gcalls ls /\ g_w s = c_w f /\ (forall o op ps, (exists ds, GInv o op ps ds ∈ ls) <-> CInv o op ps ∈ cls).
Proof.
  intros Hwf He. destruct (conv _ _ _ Hwf He) as (ls & s & Hg & V). exists ls, s. split; [split; [done|]; eexists _, _; by eapply cr_consistent|].
  assert (forall o op ps, (exists ds, GInv o op ps ds ∈ ls) <-> CInv o op ps ∈ cls) as Hin. { intros o op ps. rewrite (cr_inv _ _ _ _ V). split; [intros [ds Hd]; by rewrite <-(cr_ds _ _ _ _ V _ _ _ _ Hd)|eauto]. }
  split; [intros o op ps ds Hd; eapply Hwf; apply Hin; eauto|]. split; [apply V|done].
Qed.
End conv.
