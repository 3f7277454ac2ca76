(** * Every step of every operation preserves the structural invariant and does not fail. *)
From Verif Require Import Model Mem Inv Safe.

Section safestep.
Context {C : Config} {Fl : Flavor}.
Implicit Types (m : mem) (pos : loc -> list nat) (c : cell) (v w : sh) (o : opid) (gs : gset opid).

Lemma cok_read pos m o c : minv pos m -> cok m o c -> exists v, read_cell m c = Some v /\ cval m c = Some v.
Proof.
  intros Hm [[v Hv] Hp]. exists v. split; [|done]. apply cval_read_cell; [done|].
  intros l i E. by destruct (Hp l i E) as (_ & ? & _).
Qed.

Lemma vok_load gs pos m o c v : minv pos m -> esafe gs m -> o ∈ gs -> cok m o c -> cval m c = Some v -> vok pos m o (cpos pos c) v.
Proof.
  intros Hm He Ho [_ Hp] Hv. split; [by apply (mi_ptr _ _ Hm)|]. intros t Ht. eapply He; eauto.
Qed.

Lemma vok_data pos m o p v : vok pos m o p v -> sh_data v = true ->
  exists t it, sh_loc v = Some t /\ hbody m t = Some (BData it) /\ deref m t = Some (BData it) /\
    load_data m v = inr it /\ placement it p.
Proof.
  intros [Hp Hpr] Hd. unfold ptr_ok in Hp. destruct (sh_loc v) as [t|] eqn:Et; [|congruence].
  rewrite Hd in Hp. destruct Hp as (it & Hb & Hl). exists t, it. destruct (Hpr t eq_refl) as (_ & Hf & _).
  pose proof (deref_hbody _ _ _ Hf Hb) as Hdr. unfold load_data. rewrite Hd, Et, Hdr. done.
Qed.

Lemma vok_inner pos m o p v t : vok pos m o p v -> sh_data v = false -> sh_loc v = Some t ->
  exists sl, hbody m t = Some (BInner sl) /\ pos t = p /\ prot m o t.
Proof.
  intros [Hp Hpr] Hd Ht. unfold ptr_ok in Hp. rewrite Ht, Hd in Hp. destruct Hp as (sl & ? & ?). exists sl. eauto.
Qed.

Lemma cok_slot pos m o t sl i : minv pos m -> prot m o t -> hbody m t = Some (BInner sl) -> i < 16 -> cok m o (CSlot t i).
Proof.
  intros Hm Hp Hb Hi. split; [destruct (slot_cval _ _ _ _ _ Hm Hb Hi) as (v & ? & _); eauto|].
  intros l j E. by injection E as <- <-.
Qed.

(** CAS compares addresses, yet it cannot be fooled: this is C15. *)
Lemma same_eq pos m c now node : minv pos m -> cval m c = Some now -> sh_cond node = false ->
  (forall t, sh_loc node = Some t -> is_Some (m_heap m !! t) /\ t ∉ (m_freed m).*1) ->
  sh_same m now node = true -> now = node.
Proof.
  intros Hm Hc Hn Hp Hs. unfold sh_same in Hs. apply andb_true_iff in Hs as [Hs Hd]. apply andb_true_iff in Hs as [Ha Hcd].
  apply eqb_prop in Hd. apply eqb_prop in Hcd. apply N.eqb_eq in Ha.
  assert (cell_live m c) as Hl by (eapply uncond_live; [done|done|congruence]).
  destruct now as [ln cn dn], node as [l' c' d']; simpl in *; subst. f_equal. unfold paddr in Ha; simpl in Ha.
  assert (forall t, ln = Some t -> is_Some (m_heap m !! t) /\ t ∉ (m_freed m).*1) as Hq.
  { intros t ->. split; [by eapply cval_target_heap|]. intros Hf. eapply (mi_live _ _ Hm); [done|done|done|]. by right. }
  destruct ln as [t|], l' as [t'|]; [| | |done].
  - destruct (Hq t eq_refl) as [[x Hx] Hxf], (Hp t' eq_refl) as [[y Hy] Hyf]. rewrite Hx, Hy in Ha. f_equal.
    by eapply mi_addr.
  - destruct (Hq t eq_refl) as [[x Hx] Hxf]. rewrite Hx in Ha. exfalso. by eapply mi_nz.
  - destruct (Hp t' eq_refl) as [[x Hx] Hxf]. rewrite Hx in Ha. exfalso. eapply mi_nz; [done|done|done|]. by rewrite <-Ha.
Qed.

Lemma same_eq_vok pos m o p c now node : minv pos m -> cval m c = Some now -> sh_cond node = false -> vok pos m o p node ->
  sh_same m now node = true -> now = node.
Proof.
  intros Hm Hc Hn [_ Hv] Hs. eapply same_eq; [done|done|done| |done]. intros t Ht. destruct (Hv t Ht) as (? & ? & _). done.
Qed.

(** ** The concrete swaps *)
Lemma no_slots_data m l it i u : hbody m l = Some (BData it) -> cval m (CSlot l i) = Some u -> False.
Proof. intros Hb (sl & ? & _)%cval_slot. congruence. Qed.

(* a data node in place of nothing (589) *)
Lemma swap_new_ok pos m cur v a p :
  minv pos m -> cval m cur = Some v -> sh_cond v = false -> sh_loc v = None -> addr_free m a = true ->
  swap_ok pos m (Some (a, BData [p])) cur v (Sh (Some (m_next m)) false true) None.
Proof.
  intros Hm Hc Hu Hn Ha. split; try done.
  - split; [done|]. split; [done|]. split; [done|]. by apply placement_one.
  - intros t. simpl. rewrite Hn. split; [by intros (? & ? & ? & ?)|done].
Qed.

(* a data node in place of another one (545-546, 732-735) *)
Lemma swap_rep_ok pos m cur nl it new a gs :
  minv pos m -> cval m cur = Some (Sh (Some nl) false true) -> hbody m nl = Some (BData it) -> addr_free m a = true ->
  new <> [] -> placement new (cpos pos cur) ->
  swap_ok pos m (Some (a, BData new)) cur (Sh (Some nl) false true) (Sh (Some (m_next m)) false true) (Some (nl, KData, gs)).
Proof.
  intros Hm Hc Hb Ha Hn Hl. split; try done.
  - split; [done|]. split; [eauto|]. intros i u Hu. by destruct (no_slots_data _ _ _ _ _ Hb Hu).
  - intros t. simpl. split; [by intros (? & ? & ? & ?)|]. intros (i & u & Hu & _). by destruct (no_slots_data _ _ _ _ _ Hb Hu).
Qed.

(* nothing in place of a data node (732-735) *)
Lemma swap_del_ok pos m cur nl it gs :
  minv pos m -> cval m cur = Some (Sh (Some nl) false true) -> hbody m nl = Some (BData it) ->
  swap_ok pos m None cur (Sh (Some nl) false true) sh_null (Some (nl, KData, gs)).
Proof.
  intros Hm Hc Hb. split; try done.
  - split; [done|]. split; [eauto|]. intros i u Hu. by destruct (no_slots_data _ _ _ _ _ Hb Hu).
  - intros t. simpl. split; [done|]. intros (i & u & Hu & _). by destruct (no_slots_data _ _ _ _ _ Hb Hu).
Qed.

(* one more level (605-611) *)
Lemma lookup_empty_slots i u : empty_slots !! i = Some u -> u = sh_null.
Proof. intros H. unfold empty_slots in H. by apply lookup_replicate in H as [-> _]. Qed.

Lemma swap_split_ok pos m cur nl d0 a i :
  minv pos m -> cval m cur = Some (Sh (Some nl) false true) -> hbody m nl = Some (BData [d0]) -> addr_free m a = true ->
  length (cpos pos cur) < 16 -> i < 16 ->
  swap_ok pos m (Some (a, BInner (<[i := Sh (Some nl) false true]> empty_slots))) cur (Sh (Some nl) false true)
    (Sh (Some (m_next m)) false false) None.
Proof.
  intros Hm Hc Hb Ha Hl Hi.
  assert (forall j u, <[i := Sh (Some nl) false true]> empty_slots !! j = Some u -> (j = i /\ u = Sh (Some nl) false true) \/ u = sh_null) as Hlk.
  { intros j u Hj. destruct (decide (i = j)) as [<-|Hne].
    - rewrite list_lookup_insert in Hj by (by unfold empty_slots; rewrite replicate_length). left. split; congruence.
    - rewrite list_lookup_insert_ne in Hj by done. right. by eapply lookup_empty_slots. }
  split; try done.
  - split; [done|]. split; [done|]. split; [by rewrite insert_length|]. split; [done|].
    intros j u Hj. destruct (Hlk j u Hj) as [[-> ->]| ->]; [|done]. unfold ptr_ok. simpl. exists [d0]. split; [done|by apply placement_one].
  - intros t. simpl. split.
    + intros (j & u & Hj & Ht). destruct (Hlk j u Hj) as [[-> ->]| ->]; done.
    + intros [= <-]. exists i, (Sh (Some nl) false true). split; [|done]. apply list_lookup_insert.
      by unfold empty_slots; rewrite replicate_length.
  - intros j j' u u' t Hj Hj' Ht Ht'. destruct (Hlk j u Hj) as [[-> ->]| ->]; [|done].
    destruct (Hlk j' u' Hj') as [[-> ->]| ->]; done.
Qed.

(* pruning: the slots of the child are [recond <$> new] *)
Section prune.
Context pos m o gs parent child l new (Hm : minv pos m) (Hlk : link_ok pos m o parent child)
  (Hc : cval m parent = Some child) (Hl : sh_loc child = Some l)
  (Hlen : length new = 16) (Hmk : marks_ok m child new).

Lemma prune_slots i u : cval m (CSlot l i) = Some u <-> exists g, new !! i = Some g /\ u = recond g.
Proof.
  split.
  - intros Hu. pose proof (cval_slot_idx _ _ _ _ _ Hm Hu) as Hi.
    destruct (lookup_lt_is_Some_2 new i) as [g Hg]; [lia|]. exists g. split; [done|].
    destruct (Hmk l i g Hl Hg). congruence.
  - intros (g & Hg & ->). by destruct (Hmk l i g Hl Hg).
Qed.

Lemma prune_old : sh_loc child = Some l /\ (exists b, hbody m l = Some b /\ KInner = kind_of b) /\
  (forall i u, cval m (CSlot l i) = Some u -> sh_cond u = true).
Proof.
  destruct Hlk as (_ & [Hp _] & _ & Hd & _). unfold ptr_ok in Hp. rewrite Hl, Hd in Hp. destruct Hp as (sl & Hb & _).
  split; [done|]. split; [by exists (BInner sl)|]. intros i u (g & _ & ->)%prune_slots. done.
Qed.

Lemma prune_pos : pos l = cpos pos parent.
Proof.
  destruct Hlk as (_ & [Hp _] & _ & Hd & _). unfold ptr_ok in Hp. rewrite Hl, Hd in Hp. by destruct Hp as (sl & Hb & ?).
Qed.

Lemma prune_len : length (cpos pos parent) < 16.
Proof. destruct Hlk as (_ & [Hp _] & _ & Hd & _). by eapply cpos_len_inner. Qed.

Lemma swap_copy_ok a : addr_free m a = true ->
  swap_ok pos m (Some (a, BInner new)) parent child (Sh (Some (m_next m)) false false) (Some (l, KInner, gs)).
Proof.
  intros Ha. pose proof Hlk as (_ & _ & Hu & _ & _). 
  assert (~ dead m l) as Hnd.
  { eapply mi_live; [exact Hm|exact Hc| |exact Hl]. eapply uncond_live; done. }
  split; try done.
  - split; [done|]. split; [done|]. split; [done|]. split; [apply prune_len|].
    intros i u Hi. rewrite <-prune_pos. assert (cval m (CSlot l i) = Some (recond u)) as Hx by (apply prune_slots; eauto).
    by apply (mi_ptr _ _ Hm) in Hx.
  - apply prune_old.
  - intros t. simpl. split.
    + intros (i & u & Hi & Ht). exists i, (recond u). split; [apply prune_slots; eauto|done].
    + intros (i & u & Hi & Ht). apply (prune_slots i u) in Hi as (g & Hg & ->). exists i, g. done.
  - simpl. intros i j u u' t Hi Hj Ht Ht'.
    assert (CSlot l i = CSlot l j) as E; [|by injection E].
    eapply (mi_uniq _ _ Hm _ (recond u) _ (recond u') t); try done; apply prune_slots; eauto.
Qed.

Lemma swap_null_ok : (forall i g, new !! i = Some g -> sh_loc g = None) ->
  swap_ok pos m None parent child sh_null (Some (l, KInner, gs)).
Proof.
  intros Hn. pose proof Hlk as (_ & _ & Hu & _ & _). split; try done.
  - apply prune_old.
  - intros t. simpl. split; [done|]. intros (i & u & Hi & Ht). apply (prune_slots i u) in Hi as (g & Hg & ->).
    simpl in Ht. by rewrite (Hn i g Hg) in Ht.
Qed.

Lemma swap_leaf_ok i leaf t it : new !! i = Some leaf -> sh_loc leaf = Some t -> sh_data leaf = true ->
  hbody m t = Some (BData it) -> length it = 1 ->
  (forall j g, new !! j = Some g -> j <> i -> sh_loc g = None) ->
  swap_ok pos m None parent child leaf (Some (l, KInner, gs)).
Proof.
  intros Hi Ht Hd Hb Hln Hn. pose proof Hlk as (_ & _ & Hu & _ & _). split; try done.
  - by destruct (Hmk l i leaf Hl Hi).
  - unfold ptr_ok. rewrite Ht, Hd. exists it. split; [done|by apply placement_one].
  - apply prune_old.
  - intros x. simpl. split.
    + intros Hx. exists i, (recond leaf). split; [apply prune_slots; eauto|done].
    + intros (j & u & Hj & Hx). apply (prune_slots j u) in Hj as (g & Hg & ->). simpl in Hx.
      destruct (decide (j = i)) as [->|Hne]; [by simplify_eq|]. by rewrite (Hn j g Hg Hne) in Hx.
Qed.
End prune.

(** ** What the summary of a pruned node means *)
Definition wt m (g : sh) : nat := if is_null g then 0 else if sh_data g then dlen m g else 1.

Lemma summ_snoc m new g : summ m (new ++ [g]) = summ1 m (summ m new) g.
Proof. unfold summ. by rewrite fold_left_app. Qed.

Lemma summ_cnt m new ac cnt last : summ m new = (ac, cnt, last) -> cnt = sum_list_with (wt m) new.
Proof.
  revert ac cnt last. induction new as [|g new IH] using rev_ind; intros ac cnt last.
  - by intros [= _ <- _].
  - rewrite summ_snoc. destruct (summ m new) as [[ac0 cnt0] last0] eqn:E. rewrite sum_list_with_app. simpl.
    rewrite <-(IH _ _ _ eq_refl). unfold summ1, wt. destruct (is_null g); [intros [= _ <- _]; lia|].
    destruct (sh_data g); intros [= _ <- _]; lia.
Qed.

Lemma summ_ac m new ac cnt last : summ m new = (ac, cnt, last) -> ac = true <-> forall g, g ∈ new -> is_null g = true \/ sh_data g = true.
Proof.
  revert ac cnt last. induction new as [|g new IH] using rev_ind; intros ac cnt last.
  - intros [= <- _ _]. split; [|done]. intros _ g Hg. by apply elem_of_nil in Hg.
  - rewrite summ_snoc. destruct (summ m new) as [[ac0 cnt0] last0] eqn:E. intros Hs.
    assert (ac = true <-> ac0 = true /\ (is_null g = true \/ sh_data g = true)) as ->.
    { unfold summ1 in Hs. destruct (is_null g), (sh_data g); injection Hs as <- _ _; intuition congruence. }
    rewrite (IH _ _ _ eq_refl). setoid_rewrite elem_of_app. setoid_rewrite elem_of_list_singleton. naive_solver.
Qed.

Lemma summ_last m new ac cnt last : summ m new = (ac, cnt, last) ->
  (forall g, last = Some g -> g ∈ new /\ is_null g = false /\ sh_data g = true) /\
  (last = None -> forall g, g ∈ new -> is_null g = true \/ sh_data g = false).
Proof.
  revert ac cnt last. induction new as [|g new IH] using rev_ind; intros ac cnt last.
  - intros [= _ _ <-]. split; [done|]. intros _ g Hg. by apply elem_of_nil in Hg.
  - rewrite summ_snoc. destruct (summ m new) as [[ac0 cnt0] last0] eqn:E. intros Hs.
    destruct (IH _ _ _ eq_refl) as [H1 H2].
    assert (forall x, x ∈ new ++ [g] <-> x ∈ new \/ x = g) as Hin.
    { intros x. by rewrite elem_of_app, elem_of_list_singleton. }
    unfold summ1 in Hs. destruct (is_null g) eqn:En; [|destruct (sh_data g) eqn:Ed]; injection Hs as <- <- <-.
    + split.
      * intros x Hx. destruct (H1 x Hx) as (? & ? & ?). rewrite Hin. auto.
      * intros Hn x [Hx| ->]%Hin; [by apply H2|by left].
    + split; [|done]. intros x [= <-]. rewrite Hin. auto.
    + split.
      * intros x Hx. destruct (H1 x Hx) as (? & ? & ?). rewrite Hin. auto.
      * intros Hn x [Hx| ->]%Hin; [by apply H2|by right].
Qed.

(** Every non-null slot weighs at least one. *)
Lemma wt_pos pos m ch new l g : minv pos m -> marks_ok m ch new -> sh_loc ch = Some l -> g ∈ new -> is_null g = false -> 1 <= wt m g.
Proof.
  intros Hm Hmk Hl Hg Hn. unfold wt. rewrite Hn. destruct (sh_data g) eqn:Ed; [|done].
  unfold is_null in Hn. destruct (sh_loc g) as [t|] eqn:Et; [|done].
  destruct (marks_data pos m ch new l Hm Hmk Hl g t Hg Et Ed) as [it Hit].
  unfold dlen. rewrite Et, Hit. pose proof (mi_data _ _ Hm _ _ Hit). destruct it; simpl; [done|lia].
Qed.

Lemma sum_zero {A} (f : A -> nat) l : sum_list_with f l = 0 -> forall x, x ∈ l -> f x = 0.
Proof.
  induction l as [|y l IH]; simpl; intros H x Hx; [by apply elem_of_nil in Hx|].
  apply elem_of_cons in Hx as [->|Hx]; [lia|]. apply IH; [lia|done].
Qed.

Lemma sum_one {A} (f : A -> nat) l i x : sum_list_with f l = 1 -> l !! i = Some x -> f x = 1 -> forall j y, l !! j = Some y -> j <> i -> f y = 0.
Proof.
  revert i. induction l as [|z l IH]; intros i H Hi Hx j y Hj Hne; [done|]. simpl in H.
  destruct i as [|i], j as [|j]; simpl in *; simplify_eq.
  - assert (sum_list_with f l = 0) as H0 by lia. eapply sum_zero; [exact H0|]. by eapply elem_of_list_lookup_2.
  - enough (1 <= sum_list_with f l) by lia. rewrite <-Hx. clear -Hi. revert i Hi.
    induction l as [|w l IH]; intros [|i] Hi; simpl in *; simplify_eq; [lia|]. specialize (IH _ Hi). lia.
  - assert (1 <= sum_list_with f l).
    { rewrite <-Hx. clear -Hi. revert i Hi. induction l as [|w l IH]; intros [|i] Hi; simpl in *; simplify_eq; [lia|]. specialize (IH _ Hi). lia. }
    eapply (IH i); [lia|exact Hi|exact Hx|exact Hj|lia].
Qed.

(** The three outcomes of [prune]. *)
Inductive outcome m (new : list sh) : (sh + list sh) -> prune_result -> Prop :=
| oc_null : (forall i g, new !! i = Some g -> sh_loc g = None) -> outcome m new (inl sh_null) PRNull
| oc_leaf i leaf t p : new !! i = Some leaf -> sh_loc leaf = Some t -> sh_data leaf = true ->
    hbody m t = Some (BData [p]) -> (forall j g, new !! j = Some g -> j <> i -> sh_loc g = None) ->
    outcome m new (inl leaf) PRSingleton
| oc_copy : 1 <= sum_list_with (wt m) new ->
    ((exists g, g ∈ new /\ is_null g = false /\ sh_data g = false) \/ 2 <= sum_list_with (wt m) new) ->
    outcome m new (inr new) PRCopy.

Lemma choose_outcome pos m ch new l ins pr : minv pos m -> marks_ok m ch new -> sh_loc ch = Some l ->
  (ins, pr) = choose (summ m new) new -> outcome m new ins pr.
Proof.
  intros Hm Hmk Hl Hch. destruct (summ m new) as [[ac cnt] last] eqn:Es.
  pose proof (summ_cnt _ _ _ _ _ Es) as Hcnt. pose proof (summ_ac _ _ _ _ _ Es) as Hac.
  destruct (summ_last _ _ _ _ _ Es) as [Hl1 Hl2].
  assert (cnt = 0 -> forall i g, new !! i = Some g -> sh_loc g = None) as H0.
  { intros -> i g Hg. symmetry in Hcnt. pose proof (elem_of_list_lookup_2 _ _ _ Hg) as Hin.
    pose proof (sum_zero _ _ Hcnt g Hin) as Hw. destruct (is_null g) eqn:En.
    - unfold is_null in En. by destruct (sh_loc g).
    - pose proof (wt_pos _ _ _ _ _ _ Hm Hmk Hl Hin En). lia. }
  assert ((ins, pr) = (inr new, PRCopy) -> 1 <= cnt -> ac = false \/ 2 <= cnt -> outcome m new ins pr) as Hcopy.
  { intros [= -> ->] H1 H2. constructor; [lia|]. destruct H2 as [H2|H2]; [left|right; lia].
    destruct (decide (Forall (fun g => is_null g = true \/ sh_data g = true) new)) as [HF|HF].
    - exfalso. rewrite Forall_forall in HF. apply Hac in HF. congruence.
    - apply not_Forall_Exists in HF; [|intros g; apply _]. apply Exists_exists in HF as (g & Hg & Hn). exists g. split; [done|].
      simpl in Hn. destruct (is_null g); [exfalso; apply Hn; by left|]. destruct (sh_data g); [exfalso; apply Hn; by right|]. done. }
  destruct cnt as [|[|cnt]].
  - destruct last as [leaf|].
    + exfalso. destruct (Hl1 leaf eq_refl) as (Hin & Hn & _). apply elem_of_list_lookup in Hin as [i Hi].
      unfold is_null in Hn. by rewrite (H0 eq_refl _ _ Hi) in Hn.
    + destruct ac; simpl in Hch; injection Hch as -> ->; constructor; by apply H0.
  - destruct ac.
    + destruct last as [leaf|].
      * simpl in Hch. injection Hch as -> ->. destruct (Hl1 leaf eq_refl) as (Hin & Hn & Hd).
        apply elem_of_list_lookup in Hin as [i Hi]. pose proof (elem_of_list_lookup_2 _ _ _ Hi) as Hin.
        unfold is_null in Hn. destruct (sh_loc leaf) as [t|] eqn:Et; [|done].
        destruct (marks_data pos m ch new l Hm Hmk Hl leaf t Hin Et Hd) as [it Hit].
        assert (wt m leaf = length it) as Hw by (unfold wt, is_null, dlen; by rewrite Et, Hd, Hit).
        assert (wt m leaf = 1) as Hw1.
        { assert (1 <= wt m leaf) by (eapply wt_pos; try done; unfold is_null; by rewrite Et).
          enough (wt m leaf <= 1) by lia. rewrite Hcnt. clear -Hi. revert i Hi.
          induction new as [|w new IH]; intros [|i] Hi; simpl in *; simplify_eq; [lia|]. specialize (IH _ Hi). lia. }
        destruct it as [|p [|? ?]]; simpl in Hw; try lia.
        eapply (oc_leaf m new i leaf t p); try done. intros j g Hj Hne.
        symmetry in Hcnt. pose proof (sum_one _ _ _ _ Hcnt Hi Hw1 j g Hj Hne) as Hz.
        destruct (is_null g) eqn:En; [unfold is_null in En; by destruct (sh_loc g)|].
        pose proof (wt_pos _ _ _ _ _ _ Hm Hmk Hl (elem_of_list_lookup_2 _ _ _ Hj) En). lia.
      * exfalso.
        assert (forall g, g ∈ new -> wt m g = 0) as Hz.
        { intros g Hg. unfold wt. destruct (is_null g) eqn:En; [done|].
          destruct (proj1 Hac eq_refl g Hg) as [?|Hd]; [congruence|]. destruct (Hl2 eq_refl g Hg); congruence. }
        assert (sum_list_with (wt m) new = 0); [|lia]. clear -Hz. induction new as [|w new IH]; simpl; [done|].
        rewrite (Hz w) by left. apply IH. intros g Hg. apply Hz. by right.
    + apply Hcopy; [|lia|by left]. destruct last; done.
  - apply Hcopy; [|lia|right; lia]. destruct ac, last; done.
Qed.
End safestep.
