(** * Walks through old values: lookups on weakly ordered memory are monotone.
    A timeline is a sequence of memories together with everything each cell was ever set to.  A walk goes down from the root along the
    hash of a key, reading in each cell some value it once had.  What a walk finds is what the map held for the key at some time; and
    of two walks, the one that nowhere reads an older value than the other finds no older version of the key. *)
From Verif Require Import Model Mem Inv Safe.

Section walk.
Context {C : Config}.
Implicit Types (c : cell) (v : sh) (t u n i : nat).

Record timeline (M : nat -> mem) (H : nat -> cell -> list sh) (N : nat) (pos : loc -> list nat) : Prop := {
  tl_minv : forall t, t <= N -> minv pos (M t);
  tl_ext : forall t u, t <= u -> u <= N -> ext pos (M t) pos (M u);
  tl_dead : forall t u l, t <= u -> u <= N -> dead (M t) l -> dead (M u) l;
  tl_pre : forall t u c, t <= u -> u <= N -> H t c `prefix_of` H u c;
  tl_last : forall t c, t <= N -> last (H t c) = cval (M t) c;
  tl_cond : forall c n n' v v', n <= n' -> H N c !! n = Some v -> sh_cond v = true -> H N c !! n' = Some v' -> v' = v;
  tl_some : forall c n v, H N c !! n = Some v -> exists t, t <= N /\ cell_live (M t) c /\ cval (M t) c = Some v /\ (length (H t c) = S n \/ sh_cond v = true);
}.

Context (M : nat -> mem) (H : nat -> cell -> list sh) (N : nat) (pos : loc -> list nat) (T : timeline M H N pos).

Definition lv t c : Prop := t <= N /\ is_Some (cval (M t) c) /\ cell_live (M t) c.
(** At time [t] the cell is in the trie and holds its [n]-th value. *)
Definition holds t c n v : Prop := t <= N /\ cell_live (M t) c /\ cval (M t) c = Some v /\ H N c !! n = Some v /\ (length (H t c) = S n \/ sh_cond v = true).

Lemma holds_lv t c n v : holds t c n v -> lv t c.
Proof. intros (H1 & H2 & H3 & _). split; [done|]. split; [by eexists|done]. Qed.
Lemma holds_ex c n v : H N c !! n = Some v -> exists t, holds t c n v.
Proof. intros Hn. destruct (tl_some _ _ _ _ T _ _ _ Hn) as (t & H1 & H2 & H3 & H4). by exists t. Qed.

Lemma lv_contig t u w c : lv t c -> lv w c -> t <= u -> u <= w -> lv u c.
Proof.
  intros (H1 & [v Hv] & _) (H4 & _ & H6) Ht Hw. split; [lia|]. split.
  - destruct (ext_cval _ _ _ _ _ _ (tl_ext _ _ _ _ T t u Ht ltac:(lia)) Hv) as [v' Hv']. by eexists.
  - destruct c as [|l i]; [done|]. simpl in *. intros Hd. apply H6. eapply tl_dead; [exact T|exact Hw|done|done].
Qed.
Lemma lv_uniq t c c' : lv t c -> lv t c' -> cpos pos c = cpos pos c' -> c = c'.
Proof. intros (H1 & [v Hv] & H3) (H4 & [v' Hv'] & H6) He. eapply live_cpos_inj; [by eapply tl_minv|done..]. Qed.

(** A cell of the trie that does not point to a branch: there is nothing below. *)
Lemma lv_child t c v x i : lv t c -> cval (M t) c = Some v -> sh_loc v = Some x -> sh_data v = false -> i < 16 ->
  lv t (CSlot x i) /\ cpos pos (CSlot x i) = cpos pos c ++ [i].
Proof.
  intros (H1 & _ & H3) Hv Hx Hd Hi. pose proof (tl_minv _ _ _ _ T _ H1) as Hm. pose proof (mi_ptr _ _ Hm _ _ Hv) as Hp. unfold ptr_ok in Hp. rewrite Hx, Hd in Hp.
  destruct Hp as (sl & Hb & Hpos). split; [|simpl; by rewrite Hpos]. split; [done|]. split.
  - destruct (slot_cval _ _ _ _ _ Hm Hb Hi) as (w & Hw & _). by eexists.
  - simpl. by eapply (mi_live _ _ Hm).
Qed.
Lemma lv_parent t l i : lv t (CSlot l i) -> exists d v, lv t d /\ cval (M t) d = Some v /\ sh_loc v = Some l /\ sh_data v = false /\ cpos pos d = pos l.
Proof.
  intros (H1 & [v Hv] & H3). pose proof (tl_minv _ _ _ _ T _ H1) as Hm. apply cval_slot in Hv as (sl & Hb & _).
  destruct (inner_parent _ _ _ _ Hm Hb H3) as (d & w & Hd & Hdl & Hw & Hwd & Hp). exists d, w. split; [|done]. split; [done|]. split; [by eexists|done].
Qed.
Lemma lv_path t c q : lv t c -> q `prefix_of` cpos pos c -> q <> cpos pos c ->
  exists d v x i, lv t d /\ cpos pos d = q /\ cval (M t) d = Some v /\ sh_loc v = Some x /\ sh_data v = false /\ lv t (CSlot x i) /\ q ++ [i] `prefix_of` cpos pos c.
Proof.
  remember (length (cpos pos c)) as n eqn:En. revert c En. induction n as [n IH] using lt_wf_ind. intros c -> Hl Hq Hne.
  destruct c as [|l i]; [simpl in *; apply prefix_nil_inv in Hq; done|]. destruct (lv_parent _ _ _ Hl) as (d & v & Hd & Hv & Hx & Hda & Hp).
  simpl in Hq, Hne. destruct (decide (q = pos l)) as [->|Hn].
  - exists d, v, l, i. repeat (split; [done|]). done.
  - assert (q `prefix_of` pos l) as Hq'.
    { destruct Hq as [z Hz]. destruct z as [|a z _] using rev_ind; [rewrite app_nil_r in Hz; congruence|]. rewrite app_assoc in Hz. apply app_inj_tail in Hz as [Hz _]. by exists z. }
    destruct (IH (length (cpos pos d))) with (c := d) as (d' & v' & x' & i' & H1 & H2 & H3 & H4 & H5 & H6 & H7); try done.
    + simpl. rewrite Hp, app_length. simpl. lia.
    + by rewrite Hp.
    + by rewrite Hp.
    + exists d', v', x', i'. repeat (split; [done|]). simpl. rewrite Hp in H7. by apply prefix_app_r.
Qed.
Definition leafy v : Prop := sh_loc v = None \/ sh_data v = true.
Lemma lv_below t c v c' : lv t c -> cval (M t) c = Some v -> leafy v -> lv t c' -> cpos pos c `prefix_of` cpos pos c' -> cpos pos c = cpos pos c'.
Proof.
  intros Hc Hv Hlf Hc' Hp. destruct (decide (cpos pos c = cpos pos c')) as [|Hne]; [done|]. exfalso.
  destruct (lv_path _ _ _ Hc' Hp Hne) as (d & w & x & i & Hd & He & Hw & Hx & Hda & _). assert (d = c) as -> by (by eapply lv_uniq). rewrite Hv in Hw. injection Hw as ->.
  destruct Hlf; congruence.
Qed.

(** ** Order of the values of a cell *)
Lemma len_mono t u c : t <= u -> u <= N -> length (H t c) <= length (H u c).
Proof. intros H1 H2. by apply prefix_length, (tl_pre _ _ _ _ T). Qed.
Lemma cond_stays t u c v v' : t <= u -> u <= N -> cval (M t) c = Some v -> sh_cond v = true -> cval (M u) c = Some v' -> v' = v.
Proof.
  intros H1 H2 Hv Hc Hv'. rewrite <-(tl_last _ _ _ _ T) in Hv, Hv' by lia. rewrite last_lookup in Hv, Hv'.
  assert (forall w z, w <= N -> forall n, H w c !! n = Some z -> H N c !! n = Some z) as Hpre.
  { intros w z Hw n Hn. eapply prefix_lookup; [exact Hn|]. by apply (tl_pre _ _ _ _ T). }
  eapply (tl_cond _ _ _ _ T c (pred (length (H t c))) (pred (length (H u c)))); [|by eapply Hpre; [|exact Hv]; lia|done|by eapply Hpre; [|exact Hv']; lia].
  pose proof (len_mono t u c H1 H2). lia.
Qed.
(** Different pointers: the later one was there later. *)
Lemma holds_order c n n' v v' t t' : n < n' -> holds t c n v -> holds t' c n' v' -> sh_loc v <> sh_loc v' -> t < t'.
Proof.
  intros Hn (H1 & H2 & H3 & H4 & H5) (H1' & H2' & H3' & H4' & H5') Hne. destruct (decide (t < t')) as [|Hlt]; [done|]. exfalso.
  assert (sh_cond v = false) as Hcv. { destruct (sh_cond v) eqn:E; [|done]. exfalso. apply Hne. f_equal. symmetry. eapply (tl_cond _ _ _ _ T c n n'); [lia|done..]. }
  destruct H5 as [H5|H5]; [|congruence]. destruct H5' as [H5'|H5'].
  - pose proof (len_mono t' t c ltac:(lia) H1). lia.
  - apply Hne. f_equal. eapply (cond_stays t' t); [lia|done..].
Qed.
Lemma holds_same c n n' v v' t u : n <= n' -> holds t c n v -> holds u c n' v' -> u < t -> holds t c n' v'.
Proof.
  intros Hn (H1 & H2 & H3 & H4 & H5) (H1' & H2' & H3' & H4' & H5') Hlt. destruct (sh_cond v') eqn:Ec'.
  - assert (v = v') as -> by (by eapply (cond_stays u t); [lia|..]). split; [done|]. split; [done|]. split; [done|]. split; [done|by right].
  - destruct H5' as [H5'|H5']; [|congruence]. destruct (sh_cond v) eqn:Ec.
    + assert (v' = v) as -> by (by eapply (tl_cond _ _ _ _ T c n n')). congruence.
    + destruct H5 as [H5|H5]; [|congruence]. pose proof (len_mono u t c ltac:(lia) H1). assert (n' = n) as -> by lia. assert (v' = v) as -> by congruence.
      split; [done|]. split; [done|]. split; [done|]. split; [done|by left].
Qed.

(** ** Walks *)
Definition walk (k : Key) (ws : list (cell * nat)) : Prop :=
  (exists n, ws !! 0 = Some (CRoot, n)) /\
  forall i c n c' n', ws !! i = Some (c, n) -> ws !! S i = Some (c', n') ->
    exists v x, H N c !! n = Some v /\ sh_loc v = Some x /\ sh_data v = false /\ c' = CSlot x (nib k i).
(** The same along any path, not only along the hash of a key. *)
Definition walkq (q : nat -> nat) (ws : list (cell * nat)) : Prop :=
  (forall i, q i < 16) /\ (exists n, ws !! 0 = Some (CRoot, n)) /\
  forall i c n c' n', ws !! i = Some (c, n) -> ws !! S i = Some (c', n') ->
    exists v x, H N c !! n = Some v /\ sh_loc v = Some x /\ sh_data v = false /\ c' = CSlot x (q i).
Lemma walk_q k ws : walk k ws <-> walkq (nib k) ws.
Proof. split; [intros [? ?]; split; [intros i; apply nib_lt|done]|by intros [_ ?]]. Qed.
Definition qpath (q : nat -> nat) (n : nat) : list nat := q <$> seq 0 n.
Lemma qpath_S q n : qpath q (S n) = qpath q n ++ [q n].
Proof. unfold qpath. rewrite seq_S, fmap_app. done. Qed.
Lemma qpath_len q n : length (qpath q n) = n.
Proof. unfold qpath. by rewrite fmap_length, seq_length. Qed.
Lemma qpath_prefix q n n' : n <= n' -> qpath q n `prefix_of` qpath q n'.
Proof. intros Hn. unfold qpath. replace n' with (n + (n' - n)) by lia. rewrite seq_app, fmap_app. by eexists. Qed.

Lemma walkq_level q ws i c n : walkq q ws -> ws !! i = Some (c, n) -> cpos pos c = qpath q i /\ (i = 0 \/ exists t, lv t c).
Proof.
  intros (Hq & [n0 H0] & Hw). revert c n. induction i as [|i IH]; intros c n Hi.
  - rewrite H0 in Hi. injection Hi as <- <-. split; [done|by left].
  - destruct (ws !! i) as [[c0 n1]|] eqn:E.
    2:{ exfalso. apply lookup_ge_None in E. apply lookup_lt_Some in Hi. lia. }
    destruct (Hw _ _ _ _ _ E Hi) as (v & x & Hv & Hx & Hd & ->). destruct (IH _ _ eq_refl) as (IH1 & _).
    destruct (holds_ex _ _ _ Hv) as [t Ht]. destruct (lv_child t c0 v x (q i)) as [Hl Hp]; [by eapply holds_lv|apply Ht|done|done|apply Hq|].
    rewrite Hp, IH1, qpath_S. split; [done|]. right; eauto.
Qed.
Lemma walk_level k ws i c n : walk k ws -> ws !! i = Some (c, n) -> length (cpos pos c) = i /\ cpos pos c `prefix_of` path k /\ (i = 0 \/ exists t, lv t c).
Proof.
  intros [[n0 H0] Hw]. revert c n. induction i as [|i IH]; intros c n Hi.
  - rewrite H0 in Hi. injection Hi as <- <-. split; [done|]. split; [apply prefix_nil|by left].
  - destruct (ws !! i) as [[c0 n1]|] eqn:E.
    2:{ exfalso. apply lookup_ge_None in E. apply lookup_lt_Some in Hi. lia. }
    destruct (Hw _ _ _ _ _ E Hi) as (v & x & Hv & Hx & Hd & ->). destruct (IH _ _ eq_refl) as (IH1 & IH2 & _).
    destruct (holds_ex _ _ _ Hv) as [t Ht]. destruct (lv_child t c0 v x (nib k i)) as [Hl Hp]; [by eapply holds_lv|apply Ht|done|done|apply nib_lt|].
    rewrite Hp, app_length, IH1. simpl. split; [lia|]. split; [|right; eauto].
    destruct Hl as (Ht1 & [z Hz] & _). pose proof (cpos_len _ _ _ _ (tl_minv _ _ _ _ T _ Ht1) Hz) as Hlen. rewrite Hp, app_length, IH1 in Hlen. simpl in Hlen.
    replace (nib k i) with (nib k (length (cpos pos c0))) by (by rewrite IH1). apply prefix_snoc_path; [done|rewrite IH1; lia].
Qed.

Lemma prefix_eq_len {A} (p q r : list A) : p `prefix_of` r -> q `prefix_of` r -> length p = length q -> p = q.
Proof. intros [a ->] [b Hb] Hl. apply app_inj_1 in Hb; [|done]. by destruct Hb. Qed.

(** Once the trie no longer has the [i]-th node of a walk and nothing has taken its place, it has none of the later ones. *)
Lemma walk_gone q ws i c n u d v : walkq q ws -> ws !! i = Some (c, n) -> lv u d -> cval (M u) d = Some v -> leafy v -> cpos pos d = cpos pos c ->
  forall j c' n', i < j -> ws !! j = Some (c', n') -> (forall t, lv t c -> t <= u \/ d = c) ->
  (forall c1 n1, ws !! S i = Some (c1, n1) -> exists t, t <= u /\ lv t c1) -> forall t, lv t c' -> t < u.
Proof.
  intros Hw Hi Hd Hv Hlf Hp j. induction j as [j IH] using lt_wf_ind. intros c' n' Hij Hj Hc H1 t Ht.
  destruct (walkq_level _ _ _ _ _ Hw Hi) as (Pc & _). destruct (walkq_level _ _ _ _ _ Hw Hj) as (Pj & _).
  assert (~ lv u c') as Hnu.
  { intros Hu. assert (cpos pos d = cpos pos c') as He.
    { eapply lv_below; [exact Hd|done|done|exact Hu|]. rewrite Hp, Pc, Pj. apply qpath_prefix. lia. }
    rewrite Hp, Pc, Pj in He. apply (f_equal length) in He. rewrite !qpath_len in He. lia. }
  assert (exists t0, t0 <= u /\ lv t0 c') as (t0 & Ht0 & Hl0).
  { destruct (decide (j = S i)) as [->|Hne]; [by eapply H1|]. destruct j as [|j]; [lia|].
    destruct (ws !! j) as [[c2 n2]|] eqn:E2; [|exfalso; apply lookup_ge_None in E2; apply lookup_lt_Some in Hj; lia].
    destruct Hw as (Hq & _ & Hw'). destruct (Hw' _ _ _ _ _ E2 Hj) as (w & x & Hx1 & Hx2 & Hx3 & ->). destruct (holds_ex _ _ _ Hx1) as [t2 Ht2].
    assert (t2 < u) as Hlt. { eapply (IH j); [lia|lia|exact E2|done|done|by eapply holds_lv]. }
    exists t2. split; [lia|]. eapply (lv_child t2 c2 w x); [by eapply holds_lv|apply Ht2|done|done|apply Hq]. }
  destruct (decide (t < u)) as [|Hge]; [done|]. exfalso. apply Hnu. eapply (lv_contig t0 u t); [done|done|done|lia].
Qed.

(** [c'] is in the trie later than [c]. *)
Definition later c c' : Prop := exists u, lv u c' /\ forall t, lv t c -> t < u.

(** The second walk nowhere reads an older value than the first: what it finds was there when, or after, what the first found was. *)
Theorem walkq_mono q ws ws' c n v c' n' v' t :
  walkq q (ws ++ [(c, n)]) -> leafy v \/ length ws' <= length ws -> holds t c n v ->
  walkq q (ws' ++ [(c', n')]) -> leafy v' \/ length ws <= length ws' -> H N c' !! n' = Some v' ->
  (forall x a b, (x, a) ∈ ws ++ [(c, n)] -> (x, b) ∈ ws' ++ [(c', n')] -> a <= b) ->
  exists t', t <= t' /\ holds t' c' n' v'.
Proof.
  intros Hw Hv Ht Hw' Hv' Hn' Hle. set (W := ws ++ [(c, n)]) in *. set (W' := ws' ++ [(c', n')]) in *. set (m := length ws).
  assert (W !! m = Some (c, n)) as HWm. { unfold W, m. by rewrite lookup_app_r, Nat.sub_diag by done. }
  assert (W' !! length ws' = Some (c', n')) as HWm'. { unfold W'. by rewrite lookup_app_r, Nat.sub_diag by done. }
  assert (forall i, i <= m -> exists x a, W !! i = Some (x, a)) as HW.
  { intros i Hi. destruct (lookup_lt_is_Some_2 W i) as [[x a] Hx]; [unfold W, m in *; rewrite app_length; simpl; lia|]. eauto. }
  (* the cells of the second walk, one after the other *)
  set (Q := fun i (x' : cell) =>
    (i <= m /\ exists x a, W !! i = Some (x, a) /\ (x = x' \/ later x x')) \/ (m < i /\ exists t', t <= t' /\ lv t' x')).
  assert (forall j, q j < 16) as Hq16 by apply Hw. destruct (walkq_level _ _ _ _ _ Hw HWm) as (Pm & _).
  assert (lv t c) as Hlt by (by eapply holds_lv).
  (* one step down *)
  assert (forall i x' b, W' !! i = Some (x', b) -> Q i x' -> forall z, H N x' !! b = Some z ->
    (leafy z \/ m <= i -> exists t', t <= t' /\ holds t' x' b z) /\
    (forall y, sh_loc z = Some y -> sh_data z = false -> Q (S i) (CSlot y (q i)))) as Hstep.
  { intros i x' b Hi HQ z Hz. destruct (holds_ex _ _ _ Hz) as [u Hu]. destruct (walkq_level _ _ _ _ _ Hw' Hi) as (Pi & _).
    pose proof (holds_lv _ _ _ _ Hu) as Hul. assert (cval (M u) x' = Some z) as Huv by apply Hu.
    assert (forall j w, t <= j -> holds j x' b w -> (leafy z \/ m <= i -> exists t', t <= t' /\ holds t' x' b z) /\
       (m <= i -> forall y, sh_loc z = Some y -> sh_data z = false -> Q (S i) (CSlot y (q i)))) as Hfin.
    { intros j w Hj Hh. assert (w = z) as -> by (destruct Hh as (_ & _ & _ & E & _); congruence). split; [by exists j|]. intros Hmi y Hy Hd. right. split; [lia|]. exists j. split; [done|].
      eapply (lv_child j x' z y); [by eapply holds_lv|apply Hh|done|done|apply Hq16]. }
    destruct HQ as [(Him & x & a & Hx & HQ)|(Hmi & t' & Htt & Hl')].
    2:{ (* below the end of the first walk *)
      destruct (decide (t <= u)) as [Htu|Htu]. { destruct (Hfin u z Htu Hu) as [F1 F2]. split; [done|]. apply F2. lia. }
      exfalso. assert (lv t x') as Hlx by (eapply (lv_contig u t t'); [done|done|lia|done]).
      destruct Hv as [Hv|Hv]; [|apply lookup_lt_Some in Hi; unfold W' in Hi; rewrite app_length in Hi; simpl in Hi; unfold m in Hmi; lia].
      assert (cpos pos c = cpos pos x') as He.
      { eapply lv_below; [exact Hlt|apply Ht|done|exact Hlx|]. rewrite Pm, Pi. apply qpath_prefix. lia. }
      rewrite Pm, Pi in He. apply (f_equal length) in He. rewrite !qpath_len in He. lia. }
    destruct (walkq_level _ _ _ _ _ Hw Hx) as (Px & _).
    assert (cpos pos x = cpos pos x') as Hpx by congruence.
    destruct (decide (i = m)) as [->|Hne].
    { (* the end of the first walk *)
      rewrite HWm in Hx. injection Hx as <- <-.
      assert (exists j, t <= j /\ holds j x' b z) as (j & Hj & Hh); [|destruct (Hfin j z Hj Hh) as [F1 F2]; split; [done|by apply F2]].
      destruct (decide (t <= u)) as [Htu|Htu]; [by exists u|]. destruct HQ as [<-|(u' & Hu' & Hbef)].
      - exists t. split; [done|]. eapply (holds_same c n b v z t u); [|done|done|lia]. apply (Hle c); [by eapply elem_of_list_lookup_2|by eapply elem_of_list_lookup_2].
      - exfalso. pose proof (Hbef _ Hlt). assert (lv t x') as Hlx by (eapply (lv_contig u t u'); [done|done|lia|lia]).
        pose proof (lv_uniq _ _ _ Hlt Hlx Hpx) as ->. specialize (Hbef _ Hu'). lia. }
    assert (i < m) as Hlt' by lia. destruct (HW (S i) ltac:(lia)) as (x1 & a1 & Hx1).
    pose proof Hw as (_ & Hw0 & Hw1). destruct (Hw1 _ _ _ _ _ Hx Hx1) as (w & y1 & Hy1 & Hy2 & Hy3 & ->). destruct (holds_ex _ _ _ Hy1) as [s Hs].
    assert (s <= u \/ sh_loc z = Some y1) as Hsu.
    { destruct HQ as [<-|(u' & Hu' & Hbef)].
      - destruct (decide (sh_loc z = Some y1)); [by right|left]. assert (s < u); [|lia]. eapply (holds_order x a b w z); [|done|done|congruence].
        assert (a <= b) by (apply (Hle x); by eapply elem_of_list_lookup_2). destruct (decide (a = b)) as [->|]; [congruence|lia].
      - left. destruct (decide (s <= u)); [done|]. exfalso. pose proof (Hbef s (holds_lv _ _ _ _ Hs)). assert (lv s x') as Hlx by (eapply (lv_contig u s u'); [done|done|lia|lia]).
        pose proof (lv_uniq _ _ _ (holds_lv _ _ _ _ Hs) Hlx Hpx) as ->. specialize (Hbef _ Hu'). lia. }
    destruct (lv_child s x w y1 (q i) (holds_lv _ _ _ _ Hs) ltac:(apply Hs) Hy2 Hy3 (Hq16 _)) as [Hls Hps].
    split.
    - intros [Hlf|Hmi]; [|lia]. destruct (decide (t <= u)) as [Htu|Htu]; [by exists u|]. exfalso.
      assert (s <= u) as Hsu' by (destruct Hsu as [|E]; [done|]; destruct Hlf as [E'|E']; [congruence|];
        exfalso; assert (s <= s) by lia; pose proof (mi_ptr _ _ (tl_minv _ _ _ _ T u ltac:(apply Hu)) _ _ Huv) as Hq; pose proof (mi_ptr _ _ (tl_minv _ _ _ _ T s ltac:(apply Hs)) x w ltac:(apply Hs)) as Hq';
        unfold ptr_ok in Hq, Hq'; rewrite E, E' in Hq; rewrite Hy2, Hy3 in Hq'; destruct Hq as (it & Hq & _); destruct Hq' as (sl & Hq' & _);
        assert (u <= N) by apply Hu; assert (s <= N) by apply Hs;
        destruct (decide (s <= u)) as [Hsu2|Hsu2];
        [destruct (ext_inner _ _ _ _ _ _ (tl_ext _ _ _ _ T s u Hsu2 ltac:(done)) Hq') as [? ?]; congruence
        |pose proof (ext_data _ _ _ _ _ _ (tl_ext _ _ _ _ T u s ltac:(lia) ltac:(done)) Hq); congruence]).
      assert (t < u); [|lia]. eapply (walk_gone q W i x a u x' z Hw Hx Hul Huv Hlf (eq_sym Hpx) m c n Hlt' HWm); [|intros c1 n1 Hc1; rewrite Hx1 in Hc1; injection Hc1 as <- <-; by exists s|done].
      intros t2 Ht2. destruct HQ as [->|(u' & Hu' & Hbef)]; [by right|]. left. destruct (decide (t2 <= u)); [done|]. exfalso.
      pose proof (Hbef _ Ht2). assert (lv t2 x') as Hlx by (eapply (lv_contig u t2 u'); [done|done|lia|lia]). pose proof (lv_uniq _ _ _ Ht2 Hlx Hpx) as ->. specialize (Hbef _ Hu'). lia.
    - intros y Hy Hd. left. split; [lia|]. exists (CSlot y1 (q i)), a1. split; [done|]. destruct (decide (y1 = y)) as [->|Hney]; [by left|]. right.
      destruct (lv_child u x' z y (q i) Hul Huv Hy Hd (Hq16 _)) as [Hlu Hpu]. exists u. split; [done|]. intros t2 Ht2.
      destruct Hsu as [Hsu|E]; [|congruence]. destruct (decide (t2 < u)) as [|Hge]; [done|]. exfalso.
      assert (lv u (CSlot y1 (q i))) as Hl3 by (eapply (lv_contig s u t2); [done|done|done|lia]). assert (CSlot y1 (q i) = CSlot y (q i)) as E; [|congruence].
      eapply lv_uniq; [done|done|]. rewrite Hps, Hpu. congruence. }
  assert (forall i x' b, W' !! i = Some (x', b) -> Q i x') as HQ.
  { intros i. induction i as [|i IH]; intros x' b Hi.
    - destruct Hw' as (_ & [b0 Hb0] & _). rewrite Hb0 in Hi. injection Hi as <- <-. left. split; [lia|]. destruct Hw as (_ & [a0 Ha0] & _). exists CRoot, a0. split; [done|by left].
    - destruct (lookup_lt_is_Some_2 W' i) as [[x b'] Hx]; [apply lookup_lt_Some in Hi; lia|]. destruct Hw' as (_ & _ & Hw''). destruct (Hw'' _ _ _ _ _ Hx Hi) as (z & y & Hz & Hy & Hd & ->).
      by apply (Hstep _ _ _ Hx (IH _ _ Hx) _ Hz). }
  by apply (Hstep _ _ _ HWm' (HQ _ _ _ HWm') _ Hn').
Qed.
Theorem walk_mono k ws ws' c n v c' n' v' t :
  walk k (ws ++ [(c, n)]) -> leafy v -> holds t c n v ->
  walk k (ws' ++ [(c', n')]) -> leafy v' -> H N c' !! n' = Some v' ->
  (forall x a b, (x, a) ∈ ws ++ [(c, n)] -> (x, b) ∈ ws' ++ [(c', n')] -> a <= b) ->
  exists t', t <= t' /\ holds t' c' n' v'.
Proof. intros Hw Hv Ht Hw' Hv' Hn' Hle. apply (walkq_mono (nib k) ws ws' c n v c' n' v' t); try done; try (by left); by apply walk_q. Qed.
End walk.
