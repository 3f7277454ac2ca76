(** * The tree is determined by the contents. *)
From Verif Require Import Model Mem Inv Safe SafeStep SafeOps SafeSys SafeProps Look LinSpec Sem SemOps Spec SysSem Lin LinProps LinMore Shape Seq Prune IterSpec SeqSpec SeqSys Debug.

Section shape.
Context {C : Config} {HC : ConfigOk C}.
Implicit Types (m : mem) (pos : loc -> list nat) (c : cell) (v w : sh) (o : opid) (k : Key) (op : oper) (s : state) (p : Pl).

Lemma live_clean m E c v : (exists pos, minv pos m) -> can m E none -> cval m c = Some v -> cell_live m c -> sh_cond v = false.
Proof.
  intros [pos Hm] Hcan Hc Hl. destruct c as [|l i].
  - simpl in Hc. injection Hc as <-. apply (mi_root _ _ Hm).
  - eapply (can_clean _ _ _ Hcan); eauto.
Qed.

Lemma at_linked m q v l : at_path m q v -> sh_loc v = Some l -> linked_at m (length q) l.
Proof.
  intros Hat. revert l. induction Hat as [|q v l0 a sl i w Hat IH Hv Hh Hi]; intros l Hl; [by constructor|].
  rewrite app_length, Nat.add_1_r. eapply linked_slot; [by apply IH|exact Hh|by eapply elem_of_list_lookup_2|done].
Qed.

Lemma digit_nib k d : digit k d = nib k d.
Proof.
  unfold digit, nib, bits. f_equal. change LEVEL_MASK with (N.ones 4). rewrite N.land_ones, N.shiftr_div_pow2. f_equal. f_equal.
  change 16%N with (2 ^ 4)%N. rewrite <-N.pow_mul_r. f_equal. lia.
Qed.

Lemma hash_prefix_iff k q : length q <= 16 -> hash_prefix k q <-> q `prefix_of` path k.
Proof.
  intros Hq. split.
  - intros H. exists (drop (length q) (path k)). rewrite <-(take_drop (length q) (path k)) at 1. f_equal.
    apply list_eq. intros d. destruct (decide (d < length q)) as [Hd|Hd].
    + rewrite lookup_take by done. destruct (lookup_lt_is_Some_2 q d Hd) as [i Hi]. rewrite Hi, path_lookup by lia.
      apply H in Hi. rewrite digit_nib in Hi. by rewrite Hi.
    + rewrite lookup_take_ge by lia. symmetry. apply lookup_ge_None. lia.
  - intros [x Hx] d i Hi. assert (d < length q) as Hd by (by eapply lookup_lt_Some). rewrite digit_nib.
    assert (path k !! d = Some i) as E by (rewrite Hx; by rewrite lookup_app_l). rewrite path_lookup in E by lia. congruence.
Qed.

Lemma live_stored pos m c v t it p : minv pos m -> cval m c = Some v -> cell_live m c -> sh_loc v = Some t -> hbody m t = Some (BData it) -> p ∈ it -> stored m p.
Proof.
  intros Hm Hc Hl Ht Hb Hp. apply hbody_heap in Hb as [a Ha]. exists t, a, it. split; [|done]. exists (length (cpos pos c)). eapply at_linked; [|done].
  by apply cell_at.
Qed.

Definition below pos m (q : list nat) p : Prop := stored m p /\ q `prefix_of` path (keyof p).

(* every node of a clean trie has elements below, an inner node has two different ones *)
Lemma below_two pos m l sl : minv pos m -> sem pos m -> canonical m -> hbody m l = Some (BInner sl) -> ~ dead m l ->
  exists p1 p2, below pos m (pos l) p1 /\ below pos m (pos l) p2 /\ keqb (keyof p1) (keyof p2) = false.
Proof.
  intros Hm Hse Hcan. remember (16 - length (pos l)) as n eqn:En. revert l sl En. induction n as [n IH] using lt_wf_ind. intros l sl -> Hb Hd.
  assert (length (pos l) < 16) as Hlen by (by apply (mi_slots _ _ Hm _ _ Hb)).
  assert (forall i v t, cval m (CSlot l i) = Some v -> sh_loc v = Some t -> fat m t ->
    exists p1 p2, below pos m (pos l ++ [i]) p1 /\ below pos m (pos l ++ [i]) p2 /\ keqb (keyof p1) (keyof p2) = false) as Hfat.
  { intros i v t Hc Ht Hf. pose proof (mi_ptr _ _ Hm _ _ Hc) as Hp. unfold ptr_ok in Hp. rewrite Ht in Hp. unfold fat in Hf. destruct (sh_data v) eqn:Ed.
    - destruct Hp as (it & Hbt & Hp). rewrite Hbt in Hf. pose proof (se_nodup _ _ Hse _ _ Hbt) as Hnd.
      destruct it as [|p1 [|p2 it]]; simpl in Hf; try lia. exists p1, p2.
      assert (forall p, p ∈ p1 :: p2 :: it -> below pos m (pos l ++ [i]) p) as Hbel.
      { intros p Hin. split; [by eapply (live_stored pos m (CSlot l i))|]. apply (se_path _ _ Hse (CSlot l i) v t _ p Hc Ed Ht Hbt Hin). }
      split; [apply Hbel; by left|]. split; [apply Hbel; right; by left|]. apply nodupk_cons in Hnd as [H _]. apply H. by left.
    - destruct Hp as (sl' & Hbt & Ept). assert (~ dead m t) as Hdt by (by eapply (mi_live _ _ Hm (CSlot l i))).
      destruct (IH (16 - length (pos t)) ltac:(rewrite Ept; simpl; rewrite app_length; simpl; lia) t sl' eq_refl Hbt Hdt) as (p1 & p2 & H1 & H2 & Hk).
      rewrite Ept in H1, H2. by exists p1, p2. }
  assert (forall i, nn m l i -> exists p, below pos m (pos l ++ [i]) p) as Hone.
  { intros i (v & Hc & [t Ht]). pose proof (mi_ptr _ _ Hm _ _ Hc) as Hp. unfold ptr_ok in Hp. rewrite Ht in Hp. destruct (sh_data v) eqn:Ed.
    - destruct Hp as (it & Hbt & Hp). pose proof (mi_data _ _ Hm _ _ Hbt) as Hne. destruct it as [|p it]; [done|]. exists p.
      split; [eapply (live_stored pos m (CSlot l i)); try done; by left|]. apply (se_path _ _ Hse (CSlot l i) v t _ p Hc Ed Ht Hbt). by left.
    - destruct Hp as (sl' & Hbt & Ept). destruct (Hfat i v t Hc Ht) as (p1 & _ & ? & _); [unfold fat; by rewrite Hbt|]. by exists p1. }
  assert (forall i p, below pos m (pos l ++ [i]) p -> below pos m (pos l) p) as Hweak.
  { intros i p [H1 H2]. split; [done|]. etrans; [|exact H2]. by eexists. }
  destruct (can_heavy _ _ _ Hcan l sl Hb Hd) as [(i & v & t & Hc & Ht & Hf)|(i & j & Hij & Hi & Hj)]; [by intros []| |].
  - destruct (Hfat i v t Hc Ht Hf) as (p1 & p2 & H1 & H2 & Hk). exists p1, p2. eauto.
  - destruct (Hone i Hi) as (p1 & H1), (Hone j Hj) as (p2 & H2). exists p1, p2. split; [eauto|]. split; [eauto|].
    destruct (keqb (keyof p1) (keyof p2)) eqn:E; [|done]. exfalso. apply Hij. destruct H1 as [_ H1], H2 as [_ H2].
    unfold path in H1, H2. rewrite (hash_compat _ _ E) in H1. destruct H1 as [x1 E1], H2 as [x2 E2]. rewrite E1, <-!app_assoc in E2. apply app_inv_head in E2. simpl in E2. congruence.
Qed.

Lemma below_one pos m c v t : minv pos m -> sem pos m -> canonical m -> cval m c = Some v -> cell_live m c -> sh_loc v = Some t ->
  exists p, below pos m (cpos pos c) p.
Proof.
  intros Hm Hse Hcan Hc Hl Ht. pose proof (mi_ptr _ _ Hm _ _ Hc) as Hp. unfold ptr_ok in Hp. rewrite Ht in Hp. destruct (sh_data v) eqn:Ed.
  - destruct Hp as (it & Hbt & Hp). pose proof (mi_data _ _ Hm _ _ Hbt) as Hne. destruct it as [|p it]; [done|]. exists p.
    split; [eapply live_stored; try done; by left|]. apply (se_path _ _ Hse c v t _ p Hc Ed Ht Hbt). by left.
  - destruct Hp as (sl' & Hbt & Ept). destruct (below_two pos m t sl' Hm Hse Hcan Hbt) as (p1 & _ & H1 & _); [by eapply mi_live|]. rewrite Ept in H1. by exists p1.
Qed.

(** The root is null exactly when the map is empty. *)
Lemma root_null pos m : minv pos m -> sem pos m -> canonical m -> is_null (m_root m) = true <-> forall k, absm m k = None.
Proof.
  intros Hm Hse Hcan. unfold is_null. destruct (sh_loc (m_root m)) as [t|] eqn:E.
  - split; [done|]. intros H. exfalso. destruct (below_one pos m CRoot (m_root m) t Hm Hse Hcan eq_refl I E) as (p & Hst & _).
    apply (stored_abs pos) in Hst; [|done..]. by rewrite H in Hst.
  - split; [|done]. intros _ k. unfold absm. by apply look_null.
Qed.

(** No condemned pointer. *)
Lemma at_clean pos m q v : minv pos m -> canonical m -> at_path m q v -> sh_cond v = false.
Proof.
  intros Hm Hcan Hat. destruct (at_cell _ _ _ _ Hm Hat) as (c & Hc & Hl & _). eapply live_clean; [by exists pos|exact Hcan|exact Hc|done].
Qed.

Lemma branch_two pos m q : minv pos m -> sem pos m -> canonical m -> branch_at m q ->
  length q < 16 /\ exists p1 p2, stored m p1 /\ stored m p2 /\ keqb (keyof p1) (keyof p2) = false /\ hash_prefix (keyof p1) q /\ hash_prefix (keyof p2) q.
Proof.
  intros Hm Hse Hcan (v & l & a & sl & Hat & Hv & Hh). assert (hbody m l = Some (BInner sl)) as Hb by (unfold hbody; by rewrite Hh).
  destruct (at_cell _ _ _ _ Hm Hat) as (c & Hc & Hl & Eq). assert (~ dead m l) as Hd by (by eapply mi_live).
  assert (pos l = q) as Ep.
  { pose proof (mi_ptr _ _ Hm _ _ Hc) as Hp. unfold ptr_ok in Hp. rewrite Hv, Hb in Hp. destruct (sh_data v); destruct Hp as (? & ? & ?); congruence. }
  assert (length q < 16) as Hlen by (rewrite <-Ep; by apply (mi_slots _ _ Hm _ _ Hb)). split; [done|].
  destruct (below_two pos m l sl Hm Hse Hcan Hb Hd) as (p1 & p2 & [H1 H1'] & [H2 H2'] & Hk). rewrite Ep in H1', H2'.
  exists p1, p2. rewrite !hash_prefix_iff by lia. done.
Qed.

Lemma hash_prefix_snoc k q i : hash_prefix k (q ++ [i]) -> hash_prefix k q /\ digit k (length q) = i.
Proof.
  intros H. split.
  - intros d j Hj. apply H. rewrite lookup_app_l; [done|]. by eapply lookup_lt_Some.
  - apply H. rewrite lookup_app_r, Nat.sub_diag; done.
Qed.

(* holds even if the trie is not clean *)
Lemma two_here pos m q c v p1 p2 : minv pos m -> sem pos m -> length q < 16 -> stored m p1 -> stored m p2 -> keqb (keyof p1) (keyof p2) = false ->
  cval m c = Some v -> cell_live m c -> cpos pos c = q -> hash_prefix (keyof p1) q -> hash_prefix (keyof p2) q -> branch_at m q.
Proof.
  intros Hm Hse Hlen Hs1 Hs2 Hk Hc Hl Eq H1%hash_prefix_iff H2%hash_prefix_iff; [|lia..]. pose proof (mi_ptr _ _ Hm _ _ Hc) as Hp. unfold ptr_ok in Hp.
  pose proof (lookc_abs pos m c (keyof p1) Hm ltac:(eauto) Hl ltac:(unfold onp; by rewrite Eq)) as E1.
  pose proof (lookc_abs pos m c (keyof p2) Hm ltac:(eauto) Hl ltac:(unfold onp; by rewrite Eq)) as E2.
  rewrite (stored_abs pos m p1 Hm Hse Hs1) in E1. rewrite (stored_abs pos m p2 Hm Hse Hs2) in E2.
  destruct (sh_loc v) as [t|] eqn:Ht; [|by rewrite (lookc_null pos m c v) in E1]. destruct (sh_data v) eqn:Ed.
  - destruct Hp as (it & Hbt & Hp). rewrite Eq in Hp. assert (length it = 1) as Hone by (destruct Hp; lia).
    rewrite (lookc_data pos m c v _ t it) in E1 by done. rewrite (lookc_data pos m c v _ t it) in E2 by done.
    destruct it as [|p [|? ?]]; try done. apply find_pl_Some in E1 as [E1 _]. apply find_pl_Some in E2 as [E2 _].
    apply elem_of_list_singleton in E1, E2. subst. by rewrite keqb_refl in Hk.
  - destruct Hp as (sl & Hbt & _). apply hbody_heap in Hbt as [a Ha]. exists v, t, a, sl. split; [rewrite <-Eq; by apply cell_at|]. done.
Qed.

Lemma two_branch pos m q p1 p2 : minv pos m -> sem pos m -> length q < 16 -> stored m p1 -> stored m p2 -> keqb (keyof p1) (keyof p2) = false ->
  hash_prefix (keyof p1) q -> hash_prefix (keyof p2) q -> branch_at m q.
Proof.
  intros Hm Hse Hlen Hs1 Hs2 Hk. revert Hlen. induction q as [|i q IH] using rev_ind; intros Hlen H1 H2.
  - by apply (two_here pos m [] CRoot (m_root m) p1 p2).
  - pose proof Hlen as Hlen'. rewrite app_length in Hlen. simpl in Hlen. pose proof H1 as [H1' D1]%hash_prefix_snoc. pose proof H2 as [H2' D2]%hash_prefix_snoc.
    destruct IH as (v & l & a & sl & Hat & Hv & Hh); [lia|done|done|].
    assert (hbody m l = Some (BInner sl)) as Hb by (unfold hbody; by rewrite Hh).
    assert (i < 16) as Hi by (rewrite <-D1, digit_nib; apply nib_lt).
    destruct (slot_cval _ _ _ _ i Hm Hb Hi) as (u & Hu & Hu').
    pose proof Hu as (sl0 & Hb0 & Hi0)%cval_slot. assert (sl0 = sl) as -> by congruence.
    pose proof (at_slot _ _ _ _ _ _ i u Hat Hv Hh Hi0) as Hat2. destruct (at_cell _ _ _ _ Hm Hat2) as (c & Hc & Hl & Eq).
    by apply (two_here pos m (q ++ [i]) c u p1 p2).
Qed.

(** Every element sits in a leaf on its path, just below the last branching node on that path. *)
Lemma leaf_iff pos m q p : minv pos m -> sem pos m ->
  leaf_at m q p <-> stored m p /\ length q <= 16 /\ hash_prefix (keyof p) q /\ ~ branch_at m q /\ (forall q' i q'', q = q' ++ i :: q'' -> branch_at m q').
Proof.
  intros Hm Hse. split.
  - intros (v & l & a & it & Hat & Hv & Hh & Hin). assert (hbody m l = Some (BData it)) as Hb by (unfold hbody; by rewrite Hh).
    destruct (at_cell _ _ _ _ Hm Hat) as (c & Hc & Hl & Eq).
    assert (length q <= 16) as Hlen by (rewrite <-Eq; by eapply cpos_len).
    split; [by eapply live_stored|]. split; [done|]. split.
    { apply hash_prefix_iff; [done|]. rewrite <-Eq. pose proof (mi_ptr _ _ Hm _ _ Hc) as Hp. unfold ptr_ok in Hp. rewrite Hv, Hb in Hp.
      destruct (sh_data v) eqn:Ed; [|destruct Hp as (? & ? & _); congruence]. by apply (se_path _ _ Hse c v l it). }
    split.
    { intros (v' & l' & a' & sl' & Hat' & Hv' & Hh'). assert (v' = v) as ->; [|congruence].
      destruct (at_cell _ _ _ _ Hm Hat') as (c' & Hc' & Hl' & Eq').
      clear -Hat Hat'. revert v v' Hat Hat'. induction q as [|i q IH] using rev_ind; intros v v' H1 H2.
      + inversion H1 as [|q0 ? ? ? ? ? ? ? ? ? ? E]; [|by destruct q0]. inversion H2 as [|q1 ? ? ? ? ? ? ? ? ? ? E']; [|by destruct q1]. congruence.
      + inversion H1 as [E|q0 ? ? ? ? ? ? A1 B1 C1 D1 E]; [by destruct q|]. inversion H2 as [E'|q1 ? ? ? ? ? ? A2 B2 C2 D2 E']; [by destruct q|].
        apply app_inj_tail in E as [-> ->]. apply app_inj_tail in E' as [-> ->]. rewrite (IH _ _ A1 A2) in *. congruence. }
    intros q' i q'' ->. clear -Hat. revert v Hat. induction q'' as [|j q'' IH] using rev_ind; intros v Hat.
    + inversion Hat as [E|q0 ? ? ? ? ? ? A1 B1 C1 D1 E]; [by destruct q'|]. apply app_inj_tail in E as [-> ->]. by eexists _, _, _, _.
    + rewrite app_comm_cons, app_assoc in Hat. inversion Hat as [E|q0 ? ? ? ? ? ? A1 B1 C1 D1 E]; [by destruct q'|]. apply app_inj_tail in E as [-> ->].
      by eapply IH.
  - intros (Hst & Hlen & Hpre & Hnb & Hup).
    assert (exists v, at_path m q v) as [v Hat].
    { destruct q as [|i q _] using rev_ind; [eexists; constructor|]. destruct (Hup q i [] eq_refl) as (v & l & a & sl & Hat & Hv & Hh).
      assert (hbody m l = Some (BInner sl)) as Hb by (unfold hbody; by rewrite Hh).
      assert (i < 16) as Hi by (apply hash_prefix_snoc in Hpre as [_ <-]; rewrite digit_nib; apply nib_lt).
      destruct (slot_cval _ _ _ _ i Hm Hb Hi) as (u & (sl0 & Hb0 & Hi0)%cval_slot & _). assert (sl0 = sl) as -> by congruence.
      exists u. by eapply at_slot. }
    destruct (at_cell _ _ _ _ Hm Hat) as (c & Hc & Hl & Eq). apply hash_prefix_iff in Hpre; [|done].
    pose proof (lookc_abs pos m c (keyof p) Hm ltac:(eauto) Hl ltac:(unfold onp; by rewrite Eq)) as E1.
    rewrite (stored_abs pos m p Hm Hse Hst) in E1. pose proof (mi_ptr _ _ Hm _ _ Hc) as Hp. unfold ptr_ok in Hp.
    destruct (sh_loc v) as [t|] eqn:Ht; [|by rewrite (lookc_null pos m c v) in E1]. destruct (sh_data v) eqn:Ed.
    + destruct Hp as (it & Hbt & Hp). rewrite (lookc_data pos m c v _ t it) in E1 by done. apply find_pl_Some in E1 as [E1 _].
      apply hbody_heap in Hbt as [a Ha]. by exists v, t, a, it.
    + exfalso. destruct Hp as (sl & Hbt & _). apply hbody_heap in Hbt as [a Ha]. apply Hnb. by exists v, t, a, sl.
Qed.

(** Same contents, same tree. *)
Lemma same_tree pos m pos' m' : minv pos m -> sem pos m -> canonical m -> minv pos' m' -> sem pos' m' -> canonical m' ->
  (forall p, stored m p <-> stored m' p) -> forall q, (branch_at m q <-> branch_at m' q) /\ forall p, leaf_at m q p <-> leaf_at m' q p.
Proof.
  intros Hm Hs Hc Hm' Hs' Hc' Hst. assert (forall q, branch_at m q <-> branch_at m' q) as Hb.
  { intros q. split; intros Hb.
    - destruct (branch_two _ _ _ Hm Hs Hc Hb) as (? & p1 & p2 & ? & ? & ? & ? & ?). apply (two_branch pos' m' q p1 p2); try done; by apply Hst.
    - destruct (branch_two _ _ _ Hm' Hs' Hc' Hb) as (? & p1 & p2 & ? & ? & ? & ? & ?). apply (two_branch pos m q p1 p2); try done; by apply Hst. }
  intros q. split; [done|]. intros p. rewrite (leaf_iff _ _ _ _ Hm Hs), (leaf_iff _ _ _ _ Hm' Hs'), Hst, Hb. setoid_rewrite Hb. done.
Qed.

(** The self-check passes. *)
Definition hval m v : nat * bool :=
  match sh_loc v with
  | None => (0, false)
  | Some t => match hbody m t with Some (BData it) => (length it, false) | _ => (0, true) end
  end.
Lemma hgo_ok m f ws : (forall w, w ∈ ws -> f w = Some (hval m w)) ->
  check_slots f ws = Some (sum_list_with (fun w => (hval m w).1) ws, existsb (fun w => (hval m w).2) ws).
Proof.
  induction ws as [|w ws IH]; intros H; [done|]. simpl. rewrite H by (by left). rewrite IH by (intros; apply H; by right). by destruct (hval m w).
Qed.

Lemma handle_ok fuel pos m c v : minv pos m -> canonical m -> cval m c = Some v -> cell_live m c -> 16 - length (cpos pos c) < fuel -> 
  handle_ptr fuel m v = Some (hval m v).
Proof.
  intros Hm Hcan. revert c v. induction fuel as [|fuel IH]; intros c v Hc Hl Hf; [lia|].
  assert (sh_cond v = false) as Hcond by (eapply live_clean; [by exists pos|exact Hcan|exact Hc|done]).
  cbn [handle_ptr]. rewrite Hcond. unfold hval. pose proof (mi_ptr _ _ Hm _ _ Hc) as Hp. unfold ptr_ok in Hp.
  destruct (sh_loc v) as [t|] eqn:Ht; [|done]. assert (~ dead m t) as Hd by (by eapply mi_live).
  assert (t ∉ (m_freed m).*1) as Hnf by (intros H; apply Hd; by right).
  destruct (sh_data v) eqn:Ed.
  - destruct Hp as (it & Hb & _). unfold load_data. rewrite Ed, Ht, (deref_hbody _ _ _ Hnf Hb), Hb. simpl.
    pose proof (mi_data _ _ Hm _ _ Hb). by destruct it.
  - destruct Hp as (sl & Hb & Ep). rewrite (deref_hbody _ _ _ Hnf Hb), Hb.
    pose proof (mi_slots _ _ Hm _ _ Hb) as [Hsl Hlen].
    rewrite (hgo_ok m).
    2:{ intros w [i Hi]%elem_of_list_lookup. apply (IH (CSlot t i)); [apply cval_slot; eauto|done|]. simpl. rewrite Ep, app_length. simpl. rewrite Ep in Hlen. lia. }
    assert ((1 <? sum_list_with (fun w => (hval m w).1) sl) || existsb (fun w => (hval m w).2) sl = true) as ->; [|done].
    assert (forall i u, cval m (CSlot t i) = Some u -> sl !! i = Some u) as Hsl2.
    { intros i u (sl0 & Hb0 & Hi)%cval_slot. congruence. }
    assert (forall i u, sl !! i = Some u -> (hval m u).2 = true -> existsb (fun w => (hval m w).2) sl = true) as Hex.
    { intros i u Hi Hu. apply existsb_exists. exists u. split; [|done]. apply elem_of_list_In. by eapply elem_of_list_lookup_2. }
    assert (forall i u, sl !! i = Some u -> (hval m u).1 <= sum_list_with (fun w => (hval m w).1) sl) as Hle.
    { clear. intros i u. revert i. induction sl as [|w sl IH]; intros i Hi; [done|]. simpl. destruct i; [injection Hi as ->; lia|]. apply IH in Hi. lia. }
    assert (forall i j u u', i < j -> sl !! i = Some u -> sl !! j = Some u' -> (hval m u).1 + (hval m u').1 <= sum_list_with (fun w => (hval m w).1) sl) as Hle2.
    { clear -Hle. revert Hle. induction sl as [|w sl IH]; intros Hle i j u u' Hij Hi Hj; [done|]. destruct j; [lia|]. destruct i; simpl in Hi, Hj.
      - injection Hi as ->. simpl. assert ((hval m u').1 <= sum_list_with (fun w => (hval m w).1) sl); [|lia].
        clear -Hj. revert j Hj. induction sl as [|w sl IH]; intros j Hj; [done|]. simpl. destruct j; [injection Hj as ->; lia|]. apply IH in Hj. lia.
      - simpl. enough ((hval m u).1 + (hval m u').1 <= sum_list_with (fun w => (hval m w).1) sl) by lia. apply (IH) with (i := i) (j := j); [|lia|done|done].
        clear. intros i u. revert i. induction sl as [|w sl IH]; intros i Hi; [done|]. simpl. destruct i; [injection Hi as ->; lia|]. apply IH in Hi. lia. }
    assert (forall i u, sl !! i = Some u -> is_Some (sh_loc u) -> (hval m u).2 = true \/ 1 <= (hval m u).1) as Hval.
    { intros i u Hi [x Hx]. unfold hval. rewrite Hx. destruct (hbody m x) as [[?|it]|] eqn:Hbx; [by left| |by left]. right. simpl.
      pose proof (mi_data _ _ Hm _ _ Hbx). destruct it; [done|simpl; lia]. }
    apply orb_true_iff. destruct (can_heavy _ _ _ Hcan t sl Hb Hd ltac:(by intros [])) as [(i & u & x & Hu & Hx & Hfat)|(i & j & Hij & (u & Hu & Hun) & (u' & Hu' & Hun'))].
    + apply Hsl2 in Hu. unfold fat in Hfat. pose proof (Hle i u Hu) as Hle'. pose proof (Hex i u Hu) as Hex'. unfold hval in Hle' at 1, Hex' at 1. rewrite Hx in Hle', Hex'.
      destruct (hbody m x) as [[?|it]|]; [right; by apply Hex'| |done]. left. simpl in Hle'. apply Nat.ltb_lt. lia.
    + apply Hsl2 in Hu, Hu'. destruct (Hval i u Hu Hun) as [H1|H1]; [right; exact (Hex i u Hu H1)|]. destruct (Hval j u' Hu' Hun') as [H2|H2]; [right; exact (Hex j u' Hu' H2)|].
      left. apply Nat.ltb_lt. destruct (decide (i < j)); [pose proof (Hle2 i j u u' ltac:(lia) Hu Hu')|pose proof (Hle2 j i u' u ltac:(lia) Hu' Hu)]; lia.
Qed.

Lemma assert_pruned_ok pos m : minv pos m -> canonical m -> assert_pruned m = true.
Proof.
  intros Hm Hcan. unfold assert_pruned. change (MAX_LEVELS + 2) with 18. rewrite (handle_ok 18 pos m CRoot); try done. simpl. lia.
Qed.
End shape.
