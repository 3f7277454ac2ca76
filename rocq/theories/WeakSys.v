(** * The invariant holds in every execution on weakly ordered memory, if the orderings are strong enough. *)
From Verif Require Import Model Mem Spec Weak WeakInv WeakStep.

Section wsys.
Context {C : Config}.
Implicit Types (m : mem) (s : wstate) (l : loc) (v : sh) (tv W D : view) (pv : gmap loc view) (h : cell -> list msg).

Definition loads (o : ordering) : Prop := o = Consume \/ acquires o = true.
Record strong (w : orders) : Prop := {
  sg_trav : loads (o_trav w); sg_get : loads (o_get w); sg_rem : loads (o_rem w); sg_iroot : loads (o_iroot w); sg_iter : loads (o_iter w);
  sg_mark : acquires (o_mark w) = true /\ releases (o_mark w) = true;
  sg_tcas : releases (o_tcas w) = true; sg_rcas : releases (o_rcas w) = true; sg_pcas : releases (o_pcas w) = true }.

Record winv s : Prop := {
  wi_freed : m_freed (w_mem s) = [];
  wi_next : forall l, is_Some (hbody (w_mem s) l) -> (l < m_next (w_mem s))%positive;
  wi_len : forall l sl, hbody (w_mem s) l = Some (BInner sl) -> length sl = LEVEL_CELLS;
  wi_last : forall c v, cval (w_mem s) c = Some v -> exists W, last (w_hist s c) = Some (v, W);
  wi_msg : forall c n v W, w_hist s c !! n = Some (v, W) -> typed (w_mem s) v /\ msg_ok (w_mem s) (w_hist s) c (v, W);
  wi_ops : forall o x, w_ops s !! o = Some x -> view_ok (w_mem s) (w_hist s) (w_tv x) (w_pv x) /\ st_ok (w_mem s) (w_tv x) (w_pv x) (w_st x);
}.

Lemma winit_inv : winv winit.
Proof.
  split; simpl.
  - done.
  - intros l [b Hb]. done.
  - done.
  - intros [|l i] v H; simpl in H; [|done]. injection H as <-. by exists ∅.
  - intros [|l i] n v W H; simpl in H; [|done]. destruct n as [|n]; [|done]. injection H as <- <-. split; [done|]. split; [apply closed_empty|]. split; [|done]. intros l Hl. by apply elem_of_empty in Hl.
  - intros o x H. by rewrite lookup_empty in H.
Qed.

(** ** Cells *)
Lemma cell_cval s tv pv c : winv s -> cell_ok (w_mem s) tv pv c -> exists v, cval (w_mem s) c = Some v.
Proof.
  intros Hs Hc. destruct c as [|l i]; [by eexists|]. destruct Hc as (_ & (sl & Hb & Hlen) & Hi). simpl. rewrite Hb. apply lookup_lt_is_Some. lia.
Qed.
Lemma read_is_cval s c : winv s -> read_cell (w_mem s) c = cval (w_mem s) c.
Proof.
  intros Hs. destruct (cval (w_mem s) c) as [v|] eqn:E.
  - apply cval_read_cell; [done|]. intros l i ->. apply no_freed, Hs.
  - destruct (read_cell (w_mem s) c) as [v|] eqn:E'; [|done]. apply read_cell_cval in E'. congruence.
Qed.

(** ** What is hidden *)
Lemma hbody_hide tv pv m l : sees tv pv l -> hbody (hide tv pv m) l = hbody m l.
Proof. intros Hs. unfold hbody, hide; simpl. rewrite map_lookup_imap. destruct (m_heap m !! l); simpl; [|done]. by rewrite decide_True. Qed.
Lemma paddr_hide tv pv m v : paddr (hide tv pv m) v = paddr m v.
Proof.
  unfold paddr. destruct (sh_loc v) as [l|]; [|done]. simpl. rewrite map_lookup_imap. destruct (m_heap m !! l); simpl; [|done]. by destruct (decide _).
Qed.
Lemma read_hide tv pv m c : base_seen tv pv c = true -> read_cell (hide tv pv m) c = read_cell m c.
Proof.
  intros Hb. destruct c as [|l i]; [done|]. simpl in Hb. apply bool_decide_eq_true in Hb. simpl. unfold deref. change (freed (hide tv pv m) l) with (freed m l).
  destruct (freed m l); [done|]. change (ho_body <$> m_heap (hide tv pv m) !! l) with (hbody (hide tv pv m) l). rewrite hbody_hide by done. done.
Qed.
Lemma wins_hide w tv pv m p c ord spur : access w p = Some (c, ACas, ord) -> base_seen tv pv c = true -> cas_wins (hide tv pv m) p spur = cas_wins m p spur.
Proof.
  intros Hacc Hb. unfold cas_wins. destruct (cas_of p) as [[c' e]|] eqn:E; [|done].
  assert (c' = c) as ->. { destruct p; simpl in *; try discriminate; congruence. }
  rewrite read_hide by done. destruct (read_cell m c); [|done]. unfold sh_same. by rewrite !paddr_hide.
Qed.
Lemma agree_hide m m' tv pv h : view_ok m h tv pv -> agree m' m tv pv -> agree (hide tv pv m') m tv pv.
Proof.
  intros Hv [H1 H2]. split; [done|]. intros l it Hk Hb. rewrite hbody_hide; [by apply H2|by eapply known_sees].
Qed.
Lemma agree_write s c v tv pv : winv s -> agree (write_cell (w_mem s) c v) (w_mem s) tv pv.
Proof. intros Hs. split; [destruct c; apply Hs|]. intros l it _ Hb. by apply hbody_write_data. Qed.
Lemma agree_self s tv pv : winv s -> agree (w_mem s) (w_mem s) tv pv.
Proof. intros Hs. split; [apply Hs|done]. Qed.

Lemma base_known m h tv pv c : view_ok m h tv pv -> cell_ok m tv pv c -> base_seen tv pv c = true /\ match base c with Some l => known tv pv l | None => True end.
Proof. intros Hv Hc. destruct c as [|l i]; [done|]. destruct Hc as [Hk _]. split; [|done]. simpl. apply bool_decide_eq_true. by eapply known_sees. Qed.

(** The cell an operation is about to access. *)
Lemma access_cell w m tv pv p c k ord : pc_ok m tv pv p -> access w p = Some (c, k, ord) -> cell_ok m tv pv c.
Proof.
  intros Hp Hacc. destruct p; cbn [access] in Hacc; simpl in Hp; try (injection Hacc as <- <- <-; apply Hp); try (injection Hacc as <- <- <-; done).
  - destruct Hp as (_ & (_ & l & Hl & _ & Hk & Hi) & Hlt & _). simpl in Hl. rewrite Hl in Hacc. injection Hacc as <- <- <-. done.
  - destruct Hp as (_ & _ & (_ & l & Hl & _ & Hk & Hi) & Hlt). simpl in Hl. rewrite Hl in Hacc. injection Hacc as <- <- <-. done.
  - destruct levels as [|[u idx] rest]; [done|]. destruct Hp as [Hlev _]. apply Forall_cons in Hlev as [Hu _]. simpl in Hu.
    destruct (is_null u) eqn:En; [done|]. destruct (sh_data u) eqn:Ed; [done|]. cbn [orb] in Hacc. destruct (LEVEL_CELLS <=? idx) eqn:Ei; [done|]. apply Nat.leb_gt in Ei.
    destruct (held_inner _ _ _ _ Hu En Ed) as (l & Hl & Hk & Hi). rewrite Hl in Hacc. injection Hacc as <- <- <-. done.
Qed.
Lemma strong_load w p c ord : strong w -> access w p = Some (c, ALoad, ord) -> loads ord.
Proof.
  intros Hw H. destruct p; cbn [access] in H; try discriminate; try (injection H as <- <-; apply Hw); try (destruct (sh_loc child); simpl in H; congruence).
  destruct levels as [|[u idx] rest]; [done|]. destruct (_ || _); [done|]. destruct (sh_loc u); simpl in H; [|done]. injection H as <- <-. apply Hw.
Qed.
Lemma strong_fetch w p c ord : strong w -> access w p = Some (c, AFetch, ord) -> acquires ord = true /\ releases ord = true.
Proof.
  intros Hw H. destruct p; cbn [access] in H; try discriminate; try (destruct (sh_loc child); simpl in H; [|done]).
  - injection H as <- <-. apply Hw.
  - congruence.
  - destruct levels as [|[u idx] rest]; [done|]. destruct (_ || _); [done|]. destruct (sh_loc u); simpl in H; congruence.
Qed.
Lemma strong_cas w p c ord : strong w -> access w p = Some (c, ACas, ord) -> releases ord = true.
Proof.
  intros Hw H. destruct p; cbn [access] in H; try discriminate; try (injection H as <- <-; apply Hw); try (destruct (sh_loc child); simpl in H; congruence).
  destruct levels as [|[u idx] rest]; [done|]. destruct (_ || _); [done|]. destruct (sh_loc u); simpl in H; congruence.
Qed.

(** ** Steps that do not write *)
Lemma st_of_nx m tv pv op nx : nx_ok m tv pv nx -> st_ok m tv pv (nx_stat op nx).
Proof. by destruct nx. Qed.

Lemma see_ok (P : next -> Prop) tv pv m p spur a m' nx acts : ~ P (NFail FUB) ->
  (forall m' nx acts, op_step ∅ (hide tv pv m) p spur a = Some (m', nx, acts) -> P nx) ->
  see_step tv pv m p spur a = Some (m', nx, acts) -> op_step ∅ m p spur a = Some (m', nx, acts).
Proof.
  intros HP Hh H. unfold see_step in H. destruct (op_step ∅ (hide tv pv m) p spur a) as [[[m1 nx1] acts1]|] eqn:E; [|done].
  specialize (Hh _ _ _ eq_refl). destruct nx1 as [|?|f]; [done|done|]. by destruct f.
Qed.

Lemma local_inv s o x tv pv st : winv s -> w_ops s !! o = Some x -> view_ok (w_mem s) (w_hist s) tv pv -> st_ok (w_mem s) tv pv st ->
  winv (WState (w_mem s) (w_hist s) (<[o := WOp st tv pv]> (w_ops s))).
Proof.
  intros Hs Ho Hv Hst. split; simpl; [apply Hs..|]. intros o' y Hy. destruct (decide (o' = o)) as [->|Hne].
  - rewrite lookup_insert in Hy. injection Hy as <-. done.
  - rewrite lookup_insert_ne in Hy by done. by apply (wi_ops _ Hs o').
Qed.

Lemma self_grows s tv pv tv' pv' : (forall l, known tv pv l -> known tv' pv' l) -> grows (w_mem s) tv pv (w_mem s) tv' pv'.
Proof. by split. Qed.

Lemma hist_cons s c v : winv s -> cval (w_mem s) c = Some v -> exists y r, w_hist s c = y :: r.
Proof. intros Hs Hc. destruct (wi_last _ Hs _ _ Hc) as [W HW]. destruct (w_hist s c) as [|y r]; [done|]. by exists y, r. Qed.

Lemma load_step w s o op p tv pv c k ord n v W spur a m' nx acts : strong w -> winv s -> w_ops s !! o = Some (WOp (SRun op p) tv pv) ->
  access w p = Some (c, k, ord) -> (k = ALoad \/ k = AFetch) -> w_hist s c !! n = Some (v, W) ->
  view_ok (w_mem s) (w_hist s) (tv_read ord tv W) (pv_read ord pv c v W) /\ pc_ok (w_mem s) (tv_read ord tv W) (pv_read ord pv c v W) p /\
  held (w_mem s) (tv_read ord tv W) (pv_read ord pv c v W) v /\
  forall M, agree M (w_mem s) (tv_read ord tv W) (pv_read ord pv c v W) -> read_cell M c = Some v ->
    see_step (tv_read ord tv W) (pv_read ord pv c v W) M p spur a = Some (m', nx, acts) ->
    op_step ∅ M p spur a = Some (m', nx, acts) /\ nx_ok (w_mem s) (tv_read ord tv W) (pv_read ord pv c v W) nx.
Proof.
  intros Hw Hs Ho Hacc Hk Hn. destruct (wi_ops _ Hs _ _ Ho) as [Hv Hp]. simpl in Hv, Hp.
  pose proof (access_cell _ _ _ _ _ _ _ _ Hp Hacc) as Hc. destruct (base_known _ _ _ _ _ Hv Hc) as [Hb1 Hb2].
  destruct (cell_cval _ _ _ _ Hs Hc) as [u Hu]. destruct (hist_cons _ _ _ Hs Hu) as (y & r & Hr). destruct (wi_msg _ Hs _ _ _ _ Hn) as [Hty Hmsg].
  assert (loads ord) as Hl. { destruct Hk as [->| ->]; [by eapply strong_load|]. right. by eapply strong_fetch. }
  destruct (load_ok _ _ _ _ _ _ _ _ _ (y :: r) Hv Hl Hb2 Hn Hr ltac:(done) Hmsg) as (Hv1 & Hk1 & Hmono).
  set (tv1 := tv_read ord tv W) in *. set (pv1 := pv_read ord pv c v W) in *.
  assert (pc_ok (w_mem s) tv1 pv1 p) as Hp1 by (eapply pc_grow; [by apply self_grows|done]).
  assert (held (w_mem s) tv1 pv1 v) as Hheld by (by split).
  split; [done|]. split; [done|]. split; [done|]. intros M Ha Hrd Hsee.
  pose proof (access_cell _ _ _ _ _ _ _ _ Hp1 Hacc) as Hc1. destruct (base_known _ _ _ _ _ Hv1 Hc1) as [Hb1' _].
  assert (k <> ACas) as Hka by (destruct Hk; congruence).
  assert (op_step ∅ M p spur a = Some (m', nx, acts)) as Hreal.
  { eapply (see_ok (nx_ok (w_mem s) tv1 pv1)); [simpl; by intros H; apply H| |exact Hsee]. intros m2 nx2 acts2 H2.
    eapply next_load; [by eapply agree_hide|exact Hp1|exact Hacc|done| | |exact H2]; [by rewrite read_hide|done]. }
  split; [done|]. eapply next_load; [exact Ha|exact Hp1|exact Hacc|done|exact Hrd| |exact Hreal]. done.
Qed.

(** Nothing is learnt: a null test, or a compare-and-set that fails. *)
Lemma test_step w s o op p tv pv c k ord n v W spur a m' nx acts : winv s -> w_ops s !! o = Some (WOp (SRun op p) tv pv) ->
  access w p = Some (c, k, ord) -> (k = ATest \/ k = ACas /\ cas_wins (write_cell (w_mem s) c v) p spur = false) -> w_hist s c !! n = Some (v, W) ->
  see_step tv pv (write_cell (w_mem s) c v) p spur a = Some (m', nx, acts) -> nx_ok (w_mem s) tv pv nx.
Proof.
  intros Hs Ho Hacc Hk Hn Hsee. destruct (wi_ops _ Hs _ _ Ho) as [Hv Hp]. simpl in Hv, Hp.
  pose proof (access_cell _ _ _ _ _ _ _ _ Hp Hacc) as Hc. destruct (base_known _ _ _ _ _ Hv Hc) as [Hb1 Hb2]. destruct (cell_cval _ _ _ _ Hs Hc) as [u Hu].
  set (M := write_cell (w_mem s) c v) in *.
  assert (read_cell M c = Some v) as Hrd.
  { apply cval_read_cell; [by eapply cval_write_eq|]. intros l i ->. apply (no_freed M). apply Hs. }
  assert (agree M (w_mem s) tv pv) as Ha by (by apply agree_write).
  destruct Hk as [->|[-> Hlose]].
  - assert (forall M m2 nx2 acts2, agree M (w_mem s) tv pv -> read_cell M c = Some v -> op_step ∅ M p spur a = Some (m2, nx2, acts2) -> nx_ok (w_mem s) tv pv nx2) as HM.
    { intros M2 m2 nx2 acts2 H1 H2 H3. eapply next_load; [exact H1|exact Hp|exact Hacc|done|exact H2|done|exact H3]. }
    eapply HM; [exact Ha|exact Hrd|]. eapply (see_ok (nx_ok (w_mem s) tv pv)); [simpl; by intros H; apply H| |exact Hsee].
    intros m2 nx2 acts2 H2. eapply HM; [by eapply agree_hide| |exact H2]. by rewrite read_hide.
  - assert (forall M m2 nx2 acts2, cas_wins M p spur = false -> read_cell M c = Some v -> op_step ∅ M p spur a = Some (m2, nx2, acts2) -> nx_ok (w_mem s) tv pv nx2) as HM.
    { intros M2 m2 nx2 acts2 H1 H2 H3. eapply next_cas; [exact Hp|exact Hacc|exact H2| |exact H3]. by rewrite H1. }
    eapply HM; [exact Hlose|exact Hrd|]. eapply (see_ok (nx_ok (w_mem s) tv pv)); [simpl; by intros H; apply H| |exact Hsee].
    intros m2 nx2 acts2 H2. eapply HM; [|by rewrite read_hide|exact H2]. by erewrite wins_hide.
Qed.

Lemma none_step w s o op p tv pv spur a m' nx acts : winv s -> w_ops s !! o = Some (WOp (SRun op p) tv pv) -> access w p = None ->
  see_step tv pv (w_mem s) p spur a = Some (m', nx, acts) -> nx_ok (w_mem s) tv pv nx.
Proof.
  intros Hs Ho Hacc Hsee. destruct (wi_ops _ Hs _ _ Ho) as [Hv Hp]. simpl in Hv, Hp.
  pose proof (agree_self s tv pv Hs) as Ha. eapply next_none; [exact Ha|exact Hp|exact Hacc|].
  eapply (see_ok (nx_ok (w_mem s) tv pv)); [simpl; by intros H; apply H| |exact Hsee]. intros m2 nx2 acts2 H2. eapply next_none; [by eapply agree_hide|exact Hp|exact Hacc|exact H2].
Qed.

(** ** Writing *)
Record same_mem (m1 m2 : mem) : Prop := { sm_root : m_root m1 = m_root m2; sm_heap : m_heap m1 = m_heap m2; sm_freed : m_freed m1 = m_freed m2; sm_next : m_next m1 = m_next m2 }.
Lemma sm_hbody m1 m2 l : same_mem m1 m2 -> hbody m1 l = hbody m2 l.
Proof. intros H. unfold hbody. by rewrite (sm_heap _ _ H). Qed.
Lemma sm_cval m1 m2 c : same_mem m1 m2 -> cval m1 c = cval m2 c.
Proof. intros H. destruct c as [|l i]; simpl; [f_equal; apply H|]. by rewrite (sm_hbody _ _ l H). Qed.
Lemma sm_trans m1 m2 m3 : same_mem m1 m2 -> same_mem m2 m3 -> same_mem m1 m3.
Proof. intros [] []. split; congruence. Qed.

Lemma closed_ext h h' W : (forall b i, b ∈ W -> head (h' (CSlot b i)) = head (h (CSlot b i))) -> closed h W -> closed h' W.
Proof.
  intros He H b i v W0 r l Hb Hh Hl. specialize (He b i Hb). rewrite Hh in He. simpl in He. destruct (h (CSlot b i)) as [|y r'] eqn:E; [done|]. simpl in He. injection He as <-.
  by eapply H.
Qed.

Lemma view_ext m h m' h' tv pv : (forall l, is_Some (hbody m l) -> is_Some (hbody m' l)) -> (forall b i, is_Some (hbody m b) -> head (h' (CSlot b i)) = head (h (CSlot b i))) ->
  view_ok m h tv pv -> view_ok m' h' tv pv.
Proof.
  intros Hm Hh H. split.
  - eapply closed_ext; [|apply H]. intros b i Hb. apply Hh. by apply H.
  - intros l Hl. apply Hm. by apply H.
  - intros l D HD. destruct (vo_pv _ _ _ _ H _ _ HD) as (H1 & H2 & H3). split; [|split; [done|]].
    + eapply closed_ext; [|exact H1]. intros b i [Hb|Hb]%elem_of_union; apply Hh; [by apply H|by apply H3].
    + intros x Hx. apply Hm. by apply H3.
Qed.
Lemma msg_ext m h m' h' c x : head (h' c) = head (h c) -> (forall l, is_Some (hbody m l) -> is_Some (hbody m' l)) -> (forall b i, is_Some (hbody m b) -> head (h' (CSlot b i)) = head (h (CSlot b i))) ->
  msg_ok m h c x -> msg_ok m' h' c x.
Proof.
  intros Hhc Hm Hh (H1 & H2 & H3). split; [|split; [|intros l Hl; destruct (H3 l Hl) as [?|(b & i & v0 & W0 & r & -> & Hr & Hl0)]; [by left|right]]].
  - eapply closed_ext; [|exact H1]. intros b i Hb. apply Hh. by apply H2.
  - intros l Hl. apply Hm. by apply H2.
  - rewrite Hr in Hhc. destruct (h' (CSlot b i)) as [|[v1 W1] r1] eqn:E; [done|]. injection Hhc as -> ->. exists b, i, v0, W0, r1. done.
Qed.

Lemma write_grows m m' c v tv pv : same_mem m' (write_cell m c v) -> grows m tv pv m' tv pv.
Proof.
  intros Hm. split; [| |done].
  - intros l it Hb. rewrite (sm_hbody _ _ l Hm). by apply hbody_write_data.
  - intros l (sl & Hb & Hlen). unfold is_inner. rewrite (sm_hbody _ _ l Hm), hbody_write. destruct c as [|l' i]; [by exists sl|]. destruct (decide (l' = l)); [|by exists sl].
    rewrite Hb. eexists. split; [done|]. by rewrite insert_length.
Qed.

Lemma hist_write_eq h c x : hist_write h c x c = h c ++ [x].
Proof. destruct c; simpl; [done|]. by rewrite decide_True. Qed.
Lemma hist_write_ne h c x c' : c' <> c -> hist_write h c x c' = h c'.
Proof. intros Hne. destruct c, c'; simpl; try done. rewrite decide_False; [done|]. intros [-> ->]. done. Qed.

Lemma write_inv s o tv pv st c v m' h' : winv s -> view_ok (w_mem s) (w_hist s) tv pv -> is_Some (w_ops s !! o) -> cell_ok (w_mem s) tv pv c -> held (w_mem s) tv pv v ->
  same_mem m' (write_cell (w_mem s) c v) -> (forall c', h' c' = hist_write (w_hist s) c (v, tv ∪ dep pv (sh_loc v)) c') ->
  st_ok m' tv pv st -> winv (WState m' h' (<[o := WOp st tv pv]> (w_ops s))).
Proof.
  intros Hs Hv Ho Hc Hheld Hm Hh Hst. destruct (cell_cval _ _ _ _ Hs Hc) as [u Hu]. destruct (hist_cons _ _ _ Hs Hu) as (y & r & Hr).
  set (x := (v, tv ∪ dep pv (sh_loc v))) in *.
  assert (forall c', head (h' c') = head (w_hist s c')) as Hhead.
  { intros c'. rewrite Hh. destruct (decide (c' = c)) as [->|Hne]; [|by rewrite hist_write_ne]. rewrite hist_write_eq, Hr. done. }
  assert (forall l, is_Some (hbody (w_mem s) l) <-> is_Some (hbody m' l)) as Hdom.
  { intros l. rewrite (sm_hbody _ _ l Hm), hbody_write. destruct c as [|l' i]; [done|]. destruct (decide (l' = l)); [|done]. destruct (hbody (w_mem s) l) as [[]|]; split; intros []; try done; by eexists. }
  assert (forall tv' pv', grows (w_mem s) tv' pv' m' tv' pv') as HG by (intros; by eapply write_grows).
  assert (forall tv' pv', view_ok (w_mem s) (w_hist s) tv' pv' -> view_ok m' h' tv' pv') as Hvx.
  { intros tv' pv'. apply view_ext; [intros l; apply Hdom|]. intros b i _. apply Hhead. }
  split; simpl.
  - rewrite (sm_freed _ _ Hm). destruct c; apply Hs.
  - intros l Hl. rewrite (sm_next _ _ Hm). assert (m_next (write_cell (w_mem s) c v) = m_next (w_mem s)) as -> by (by destruct c). apply Hs. by apply Hdom.
  - intros l sl Hb. rewrite (sm_hbody _ _ l Hm), hbody_write in Hb. destruct c as [|l' i]; [by eapply wi_len|]. destruct (decide (l' = l)); [|by eapply wi_len].
    destruct (hbody (w_mem s) l) as [[sl'|]|] eqn:E; try done. injection Hb as <-. rewrite insert_length. by eapply wi_len.
  - intros c' v' Hcv. rewrite (sm_cval _ _ c' Hm) in Hcv. rewrite Hh. destruct (decide (c' = c)) as [->|Hne].
    + rewrite (cval_write_eq _ _ _ u) in Hcv by done. injection Hcv as <-. rewrite hist_write_eq, last_snoc. unfold x. by eexists.
    + rewrite cval_write_ne in Hcv by done. rewrite hist_write_ne by done. by apply Hs.
  - intros c' n v' W' Hn. rewrite Hh in Hn.
    assert (w_hist s c' !! n = Some (v', W') \/ c' = c /\ (v', W') = x) as [Hold|[-> Hx]].
    { destruct (decide (c' = c)) as [->|Hne]; [|left; by rewrite hist_write_ne in Hn]. rewrite hist_write_eq in Hn. apply lookup_app_Some in Hn as [Hn|[_ Hn]]; [by left|right]. split; [done|]. by apply list_lookup_singleton_Some in Hn as [_ Hn]. }
    + destruct (wi_msg _ Hs _ _ _ _ Hold) as [Ht Hmsg]. split; [eapply typed_grow; [apply (HG tv pv)|done]|]. eapply msg_ext; [apply Hhead|intros l; apply Hdom| |exact Hmsg]. intros b i _. apply Hhead.
    + injection Hx as -> ->. split; [eapply typed_grow; [apply (HG tv pv)|apply Hheld]|]. apply (msg_ext (w_mem s) (w_hist s)); [apply Hhead|intros l; apply Hdom|intros b i _; apply Hhead|].
      split; [|split]; simpl.
      * destruct (sh_loc v) as [l|]; [by eapply known_closed|]. simpl. apply closed_union; [apply Hv|apply closed_empty].
      * apply within_union; [apply Hv|by eapply dep_within].
      * intros l Hl. left. rewrite Hl. eapply known_sees; [exact Hv|]. by apply Hheld.
  - intros o' z Hz. destruct (decide (o' = o)) as [->|Hne].
    + rewrite lookup_insert in Hz. injection Hz as <-. simpl. split; [by apply Hvx|done].
    + rewrite lookup_insert_ne in Hz by done. destruct (wi_ops _ Hs _ _ Hz) as [H1 H2]. split; [by apply Hvx|]. eapply st_grow; [by apply HG|done].
Qed.

(** Allocating a node. *)
Definition body_ok m tv pv (b : body) : Prop := match b with BInner sl => length sl = LEVEL_CELLS /\ Forall (held m tv pv) sl | BData _ => True end.
Definition node_of (b : body) : list sh := match b with BInner sl => sl | BData _ => [] end.
Definition pv_new m pv (b : body) : gmap loc view := <[m_next m := {[m_next m]} ∪ ⋃ map (fun v => dep pv (sh_loc v)) (node_of b)]> pv.

Lemma elem_of_union_map pv l vs : l ∈ ⋃ map (fun v => dep pv (sh_loc v)) vs <-> exists v, v ∈ vs /\ l ∈ dep pv (sh_loc v).
Proof.
  induction vs as [|v vs IH]; simpl.
  - split; [intros H; by apply elem_of_empty in H|]. intros (v & Hv & _). by apply elem_of_nil in Hv.
  - rewrite elem_of_union, IH. split.
    + intros [H|(v' & H1 & H2)]; [exists v; split; [left|done]|exists v'; split; [by right|done]].
    + intros (v' & H1 & H2). apply elem_of_cons in H1 as [->|H1]; [by left|right; by exists v'].
Qed.

Lemma alloc_inv s o op tv pv a b h1 : winv s -> view_ok (w_mem s) (w_hist s) tv pv -> is_Some (w_ops s !! o) -> body_ok (w_mem s) tv pv b ->
  (forall c, h1 c = match c with CSlot l i => if decide (l = m_next (w_mem s)) then match node_of b !! i with Some v => [(v, ∅)] | None => [] end else w_hist s c | CRoot => w_hist s CRoot end) ->
  winv (WState (alloc (w_mem s) a b) h1 (<[o := WOp (SRet op (RBool true)) tv (pv_new (w_mem s) pv b)]> (w_ops s))) /\
  (forall l, known tv pv l -> known tv (pv_new (w_mem s) pv b) l) /\ known tv (pv_new (w_mem s) pv b) (m_next (w_mem s)).
Proof.
  intros Hs Hv Ho Hb Hh. set (l0 := m_next (w_mem s)) in *. set (pv2 := pv_new (w_mem s) pv b).
  assert (hbody (w_mem s) l0 = None) as Hfresh.
  { destruct (hbody (w_mem s) l0) eqn:E; [|done]. assert (l0 < l0)%positive; [|lia]. apply Hs. rewrite E. by eexists. }
  assert (forall l, is_Some (hbody (w_mem s) l) -> is_Some (hbody (alloc (w_mem s) a b) l)) as Hdom.
  { intros l Hl. rewrite hbody_alloc. destruct (decide _); [by eexists|done]. }
  assert (forall b' i, is_Some (hbody (w_mem s) b') -> head (h1 (CSlot b' i)) = head (w_hist s (CSlot b' i))) as Hhead.
  { intros b' i Hb'. rewrite Hh. rewrite decide_False; [done|]. intros ->. rewrite Hfresh in Hb'. by destruct Hb'. }
  assert (forall tv' pv', grows (w_mem s) tv' pv' (alloc (w_mem s) a b) tv' pv') as HG.
  { intros. split; [| |done].
    - intros l it Hl. rewrite hbody_alloc. rewrite decide_False; [done|]. intros ->. fold l0 in Hl. congruence.
    - intros l (sl & Hl & Hlen). unfold is_inner. rewrite hbody_alloc. rewrite decide_False; [by exists sl|]. intros ->. fold l0 in Hl. congruence. }
  assert (forall tv' pv', view_ok (w_mem s) (w_hist s) tv' pv' -> view_ok (alloc (w_mem s) a b) h1 tv' pv') as Hvx by (intros tv' pv'; by apply view_ext).
  pose proof (Hvx _ _ Hv) as Hv'.
  assert (forall v, v ∈ node_of b -> held (w_mem s) tv pv v) as Hel. { destruct b as [sl|it]; simpl in *; [|intros v Hv0; by apply elem_of_nil in Hv0]. destruct Hb as [_ Hb]. by rewrite Forall_forall in Hb. }
  set (D := {[l0]} ∪ ⋃ map (fun v => dep pv (sh_loc v)) (node_of b)) in *.
  assert (closed h1 (tv ∪ D)) as HD.
  { intros b' i v W0 r l Hb' Hh' Hl. destruct (decide (b' = l0)) as [->|Hne].
    - rewrite Hh, decide_True in Hh' by done. destruct (node_of b !! i) as [v'|] eqn:Ei; [|done]. injection Hh' as -> _ _.
      apply elem_of_list_lookup_2 in Ei. pose proof (Hel _ Ei) as [_ Hk]. specialize (Hk _ Hl). pose proof (known_sees _ _ _ _ _ Hv Hk) as Hsee. unfold sees in Hsee.
      apply elem_of_union in Hsee as [Hsee|Hsee]; apply elem_of_union; [by left|right]. apply elem_of_union. right. apply elem_of_union_map. exists v. split; [done|]. by rewrite Hl.
    - assert (b' ∈ tv \/ exists v, v ∈ node_of b /\ b' ∈ dep pv (sh_loc v)) as [Hin|(v0 & Hv0 & Hin)].
      { apply elem_of_union in Hb' as [?|Hb']; [by left|]. apply elem_of_union in Hb' as [Hb'|Hb']; [by apply elem_of_singleton in Hb'|]. right. by apply elem_of_union_map. }
      + apply elem_of_union. left. by eapply (vo_tv _ _ _ _ Hv').
      + assert (closed h1 (tv ∪ dep pv (sh_loc v0))) as Hcl. { destruct (sh_loc v0) as [l'|]; [by eapply known_closed|]. simpl in Hin. by apply elem_of_empty in Hin. }
        assert (l ∈ tv ∪ dep pv (sh_loc v0)) as Hlx by (eapply Hcl; [apply elem_of_union; right; exact Hin|exact Hh'|exact Hl]).
        apply elem_of_union in Hlx as [?|?]; apply elem_of_union; [by left|right]. apply elem_of_union. right. apply elem_of_union_map. by exists v0. }
  assert (view_ok (alloc (w_mem s) a b) h1 tv pv2) as Hv2.
  { split; [apply Hv'|apply Hv'|]. intros l D' HD'. unfold pv2, pv_new in HD'. fold l0 in HD'. destruct (decide (l = l0)) as [->|Hne]; [|rewrite lookup_insert_ne in HD' by done; by apply (vo_pv _ _ _ _ Hv')].
    rewrite lookup_insert in HD'. injection HD' as <-. fold D. split; [done|]. split; [unfold D; set_solver|]. intros x Hx. unfold D in Hx. apply elem_of_union in Hx as [Hx%elem_of_singleton|Hx].
    - subst x. rewrite hbody_alloc. rewrite decide_True by done. by eexists.
    - apply elem_of_union_map in Hx as (v0 & _ & Hx). by apply (dep_within _ _ _ _ _ Hv' _ Hx). }
  assert (forall l, known tv pv l -> known tv pv2 l) as Hmono.
  { intros l [Hl|Hl]; [by left|]. right. unfold pv2, pv_new. destruct (decide (l = m_next (w_mem s))) as [->|]; [rewrite lookup_insert; by eexists|by rewrite lookup_insert_ne]. }
  split; [|split; [done|]]; [|right; unfold pv2, pv_new; rewrite lookup_insert; by eexists].
  split; simpl.
  - apply Hs.
  - intros l Hl. rewrite hbody_alloc in Hl. destruct (decide (l = m_next (w_mem s))) as [->|]; [lia|]. pose proof (wi_next _ Hs l Hl). lia.
  - intros l sl Hl. rewrite hbody_alloc in Hl. destruct (decide _); [|by eapply wi_len]. injection Hl as ->. by destruct Hb.
  - intros c v Hcv. destruct c as [|l i].
    + simpl in Hcv. rewrite Hh. by apply Hs.
    + simpl in Hcv. rewrite hbody_alloc in Hcv. rewrite Hh. fold l0 in Hcv. destruct (decide (l = l0)) as [->|Hne].
      * destruct b as [sl|]; [|done]. simpl. rewrite Hcv. by eexists.
      * by apply (wi_last _ Hs (CSlot l i)).
  - intros c n v W Hn. rewrite Hh in Hn.
    assert ((w_hist s c !! n = Some (v, W) /\ h1 c = w_hist s c) \/ (h1 c = [(v, W)] /\ W = ∅ /\ v ∈ node_of b /\ exists i, c = CSlot l0 i)) as [[Hold Hsame]|(Hnew & -> & Hin & i & ->)].
    { destruct c as [|l i]; [left; split; [done|by rewrite Hh]|]. destruct (decide (l = l0)) as [->|Hne]; [|left; split; [done|by rewrite Hh, decide_False]].
      right. rewrite Hh, decide_True by done. destruct (node_of b !! i) as [v'|] eqn:Ei; [|done]. destruct n as [|n]; [|done].
      injection Hn as -> <-. split; [done|]. split; [done|]. split; [by eapply elem_of_list_lookup_2|by exists i]. }
    + destruct (wi_msg _ Hs _ _ _ _ Hold) as [Ht Hmsg]. split; [eapply typed_grow; [apply (HG tv pv)|done]|]. eapply msg_ext; [by rewrite Hsame|done|done|done].
    + split; [eapply typed_grow; [apply (HG tv pv)|by apply Hel]|]. split; [apply closed_empty|]. split; [intros x Hx; by apply elem_of_empty in Hx|]. simpl. intros l Hl. right. eexists _, _, _, _, _. split; [done|]. by split.
  - intros o' z Hz. destruct (decide (o' = o)) as [->|Hne].
    + rewrite lookup_insert in Hz. injection Hz as <-. simpl. split; [done|constructor].
    + rewrite lookup_insert_ne in Hz by done. destruct (wi_ops _ Hs _ _ Hz) as [H1 H2]. split; [by apply Hvx|]. eapply st_grow; [by apply HG|done].
Qed.
End wsys.
