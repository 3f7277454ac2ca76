(** * The shape of the trie when the modifying calls do not overlap.
    The invariant: no condemned pointer in the trie, and every inner node has at least two children, or a child that is an inner
    node or a collision node.  While a modifying call runs, one node may be exempt. *)
From Verif Require Import Model Mem Inv Safe SafeStep SafeOps SafeSys SafeProps Look LinSpec Sem SemOps SysSem Spec.

Section seqmem.
Context {C : Config}.
Implicit Types (m : mem) (pos : loc -> list nat) (c : cell) (v w : sh) (o : opid) (gs : gset opid) (k : Key) (op : oper) (E D : loc -> Prop).

Definition fat m (t : loc) : Prop := match hbody m t with Some (BInner _) => True | Some (BData it) => 2 <= length it | None => False end.
Definition nn m (l : loc) (i : nat) : Prop := exists v, cval m (CSlot l i) = Some v /\ is_Some (sh_loc v).
Definition heavy m (l : loc) : Prop :=
  (exists i v t, cval m (CSlot l i) = Some v /\ sh_loc v = Some t /\ fat m t) \/ (exists i j, i <> j /\ nn m l i /\ nn m l j).
Definition ownr c (l : loc) : Prop := exists i, c = CSlot l i.
Definition none : loc -> Prop := fun _ => False.

Record can m E D : Prop := Can {
  can_clean : forall l i v, cval m (CSlot l i) = Some v -> ~ dead m l -> ~ D l -> sh_cond v = false;
  can_heavy : forall l sl, hbody m l = Some (BInner sl) -> ~ dead m l -> ~ E l -> heavy m l;
}.
Definition canonical m : Prop := can m none none.


Lemma cval_heap m m' c : m_heap m' = m_heap m -> m_root m' = m_root m -> cval m' c = cval m c.
Proof. intros E1 E2. destruct c; simpl; [by rewrite E2|unfold hbody; by rewrite E1]. Qed.
Lemma hbody_heapeq m m' l : m_heap m' = m_heap m -> hbody m' l = hbody m l.
Proof. intros E1. unfold hbody. by rewrite E1. Qed.

Lemma fat_ext pos m pos' m' t : ext pos m pos' m' -> fat m t -> fat m' t.
Proof.
  intros He. unfold fat. destruct (hbody m t) as [[sl|it]|] eqn:Hb; [..|done].
  - intros _. destruct (ext_inner _ _ _ _ _ _ He Hb) as [sl' ->]. done.
  - by rewrite (ext_data _ _ _ _ _ _ He Hb).
Qed.

(* the memory differs in nothing that matters *)
Lemma heavy_eq m m' l : m_heap m' = m_heap m -> heavy m l -> heavy m' l.
Proof.
  intros E1. assert (forall l i, cval m' (CSlot l i) = cval m (CSlot l i)) as Hc by (intros; simpl; by rewrite (hbody_heapeq m m')).
  unfold heavy, nn, fat. setoid_rewrite Hc. intros [(i & v & t & ? & ? & ?)|H]; [left|right; done].
  exists i, v, t. by rewrite (hbody_heapeq m m').
Qed.
Lemma can_eq m m' E D : m_heap m' = m_heap m -> (forall l, dead m' l <-> dead m l) -> can m E D -> can m' E D.
Proof.
  intros E1 Hd [H1 H2]. split.
  - intros l i v Hc. rewrite Hd. apply (H1 l i v). simpl in *. by rewrite <-(hbody_heapeq m m').
  - intros l sl. rewrite (hbody_heapeq m m') by done. rewrite Hd. intros. eapply heavy_eq; [done|]. eauto.
Qed.

(** ** Swaps *)
Section swap.
Context {pos m na cur v w old} (Hm : minv pos m) (Hs : swap_ok pos m na cur v w old).
Notation m' := (swap m na cur w old).

Lemma swap_slot_other l i : ~ ownr cur l -> l <> m_next m -> cval m' (CSlot l i) = cval m (CSlot l i).
Proof.
  intros Ho Hn. rewrite (swap_cval Hm Hs). rewrite decide_False by (intros E; apply Ho; by exists i). by rewrite decide_False.
Qed.

Lemma heavy_swap_other l : ~ ownr cur l -> l <> m_next m -> heavy m l -> heavy m' l.
Proof.
  intros Ho Hn [(i & u & t & Hc & Ht & Hf)|(i & j & Hij & (u & Hu & Hu') & (u2 & Hu2 & Hu2'))].
  - left. exists i, u, t. rewrite swap_slot_other by done. split; [done|]. split; [done|]. eapply fat_ext; [apply (swap_ext Hm Hs)|done].
  - right. exists i, j. split; [done|]. split; [exists u|exists u2]; by rewrite swap_slot_other.
Qed.

Lemma swap_slot_ne l i j : cur = CSlot l i -> i <> j -> cval m' (CSlot l j) = cval m (CSlot l j).
Proof.
  intros Hc Hij. rewrite (swap_cval Hm Hs). rewrite decide_False by congruence. destruct (decide (l = m_next m)) as [->|]; [|done].
  exfalso. by eapply (swap_cur_ne Hm Hs).
Qed.
Lemma swap_slot_cur : cval m' cur = Some w.
Proof. rewrite (swap_cval Hm Hs). by rewrite decide_True. Qed.

(* the node the changed cell belongs to stays heavy if the cell gets at least as heavy *)
Lemma heavy_swap_owner l i : cur = CSlot l i -> (is_Some (sh_loc v) -> is_Some (sh_loc w)) ->
  (forall t, sh_loc v = Some t -> fat m t -> exists t', sh_loc w = Some t' /\ fat m' t') -> heavy m l -> heavy m' l.
Proof.
  intros Hcur H1 H2. pose proof (sw_cur _ _ _ _ _ _ _ Hs) as Hcv. pose proof swap_slot_cur as Hw.
  assert (forall j, nn m l j -> nn m' l j) as Hnn.
  { intros j (u & Hu & Hn). destruct (decide (i = j)) as [<-|Hij].
    - rewrite <-Hcur, Hcv in Hu. injection Hu as <-. exists w. rewrite <-Hcur. auto.
    - exists u. by rewrite (swap_slot_ne l i j). }
  intros [(j & u & t & Hc & Ht & Hf)|(j & j' & Hjj & Hj & Hj')].
  - left. destruct (decide (i = j)) as [<-|Hij].
    + rewrite <-Hcur, Hcv in Hc. injection Hc as <-. destruct (H2 t Ht Hf) as (t' & ? & ?). exists i, w, t'. by rewrite <-Hcur.
    + exists j, u, t. rewrite (swap_slot_ne l i j) by done. split; [done|]. split; [done|]. eapply fat_ext; [apply (swap_ext Hm Hs)|done].
  - right. exists j, j'. auto.
Qed.

Lemma can_swap E D E' D' :
  can m E D ->
  (forall i u, new_slots na !! i = Some u -> sh_cond u = false) ->
  (forall a sl, na = Some (a, BInner sl) -> E' (m_next m) \/ heavy m' (m_next m)) ->
  (forall l i, cur = CSlot l i -> E' l \/ heavy m' l) ->
  (forall l, ~ E' l -> E l -> dead m' l \/ ownr cur l) -> (forall l, ~ D' l -> D l -> dead m' l) ->
  can m' E' D'.
Proof.
  intros [H1 H2] Hcl Hnew Hown HE HD. split.
  - intros l i u Hu Hl HnD. destruct (swap_live_cases Hm Hs (CSlot l i) u Hu Hl) as [[_ ->]|[(j & Hj & Hju)|(Hne & Hu' & Hl' & _)]].
    + apply (sw_w _ _ _ _ _ _ _ Hs).
    + eauto.
    + eapply H1; eauto.
  - intros l sl Hb Hl HnE. destruct (decide (l = m_next m)) as [->|Hn].
    + rewrite (swap_hbody Hm Hs), decide_True in Hb by done. destruct na as [[a b]|] eqn:Ena; [|done]. simpl in Hb. injection Hb as ->.
      destruct (Hnew a sl eq_refl); done.
    + assert (ownr cur l \/ ~ ownr cur l) as [[i Hi]|Ho].
      { unfold ownr. destruct cur as [|x i]; [right; by intros [? ?]|]. destruct (decide (x = l)) as [->|]; [left; eauto|right; intros [? ?]; congruence]. }
      * destruct (Hown l i Hi); done.
      * apply heavy_swap_other; [done|done|].
        assert (exists sl0, hbody m l = Some (BInner sl0)) as [sl0 Hb0].
        { rewrite (swap_hbody Hm Hs), decide_False in Hb by done. destruct cur as [|x i]; [eauto|]. destruct (decide (x = l)); [|eauto].
          destruct (hbody m l) as [[]|]; naive_solver. }
        eapply H2; [exact Hb0| |].
        -- intros Hd. apply Hl. apply (swap_dead Hm Hs). by left.
        -- intros HEl. destruct (HE l HnE HEl); done.
Qed.
End swap.

(** A node with a fat child or two children. *)
Lemma sum_ge2 {A} (f : A -> nat) l : 2 <= sum_list_with f l -> (exists i x, l !! i = Some x /\ 2 <= f x) \/ 
  (exists i j x y, i <> j /\ l !! i = Some x /\ l !! j = Some y /\ 1 <= f x /\ 1 <= f y).
Proof.
  induction l as [|z l IH]; simpl; [lia|]. intros H.
  assert (forall l, 1 <= sum_list_with f l -> exists j y, l !! j = Some y /\ 1 <= f y) as H1.
  { clear. induction l as [|z l IH]; simpl; [lia|]. intros H. destruct (decide (1 <= f z)); [by exists 0, z|].
    destruct IH as (j & y & ? & ?); [lia|]. by exists (S j), y. }
  destruct (decide (2 <= f z)); [left; by exists 0, z|]. destruct (decide (1 <= f z)).
  - right. destruct (H1 l) as (j & y & ? & ?); [lia|]. exists 0, (S j), z, y. done.
  - destruct IH as [(i & x & ? & ?)|(i & j & x & y & ? & ? & ? & ? & ?)]; [lia|left; by exists (S i), x|].
    right. exists (S i), (S j), x, y. split; [congruence|]. done.
Qed.

Lemma nonnull_wt m g : 1 <= wt m g -> is_Some (sh_loc g).
Proof. unfold wt, is_null. destruct (sh_loc g); [eauto|lia]. Qed.

(** The node that prune puts into the place of the child is heavy. *)
Lemma copy_heavy pos m parent child l new a gs : 
  minv pos m -> sh_loc child = Some l -> marks_ok m child new -> outcome m new (inr new) PRCopy ->
  swap_ok pos m (Some (a, BInner new)) parent child (Sh (Some (m_next m)) false false) (Some (l, KInner, gs)) ->
  heavy (swap m (Some (a, BInner new)) parent (Sh (Some (m_next m)) false false) (Some (l, KInner, gs))) (m_next m).
Proof.
  intros Hm Hl Hmk Hoc Hs. 
  assert (forall i g, new !! i = Some g -> cval (swap m (Some (a, BInner new)) parent (Sh (Some (m_next m)) false false) (Some (l, KInner, gs))) (CSlot (m_next m) i) = Some g) as Hnew.
  { intros i g Hg. rewrite (swap_cval Hm Hs). rewrite decide_False by (intros E; by eapply (swap_cur_ne Hm Hs)). by rewrite decide_True. }
  assert (forall t, fat m t -> fat (swap m (Some (a, BInner new)) parent (Sh (Some (m_next m)) false false) (Some (l, KInner, gs))) t) as Hfat.
  { intros t. eapply fat_ext. apply (swap_ext Hm Hs). }
  remember (inr new : sh + list sh) as ins eqn:Ei. destruct Hoc as [| |_ Hc]; try done.
  destruct Hc as [(g & [i Hi]%elem_of_list_lookup & Hn & Hd)|Hsum].
  - left. unfold is_null in Hn. destruct (sh_loc g) as [t|] eqn:Et; [|done]. exists i, g, t. split; [by apply Hnew|]. split; [done|]. apply Hfat.
    destruct (Hmk l i g Hl Hi) as [_ Hcv]. apply (mi_ptr _ _ Hm) in Hcv. unfold ptr_ok in Hcv. simpl in Hcv. rewrite Et, Hd in Hcv.
    destruct Hcv as (sl & Hb & _). unfold fat. by rewrite Hb.
  - apply sum_ge2 in Hsum as [(i & g & Hi & Hw)|(i & j & g & g' & Hij & Hi & Hj & Hw & Hw')].
    + left. pose proof (nonnull_wt m g ltac:(lia)) as [t Et]. exists i, g, t. split; [by apply Hnew|]. split; [done|]. apply Hfat.
      unfold wt, is_null, dlen in Hw. rewrite Et in Hw. unfold fat. destruct (sh_data g); [|lia].
      destruct (hbody m t) as [[]|]; lia.
    + right. exists i, j. split; [done|]. split; [exists g|exists g']; (split; [by apply Hnew|by eapply nonnull_wt]).
Qed.

(** ** Levels *)
Definition lvalid m (levels : list (cell * sh)) : Prop := forall p ch, (p, ch) ∈ levels -> cval m p = Some ch.

Lemma lev_shorter pos m o levels cur p ch : lev_ok pos m o levels cur -> (p, ch) ∈ levels -> 
  length (cpos pos p) < length (cpos pos cur) /\ sh_data ch = false /\ sh_cond ch = false.
Proof.
  revert cur. induction levels as [|[q cq] levels IH]; intros cur; simpl; [intros _ H; by apply elem_of_nil in H|].
  intros (Hlk & (l & i & -> & El) & Hlev) Hin. pose proof Hlk as (_ & [Hp _] & Hc & Hd & _). unfold ptr_ok in Hp. rewrite El, Hd in Hp. destruct Hp as (sl & _ & Ep).
  assert (length (cpos pos q) < length (cpos pos (CSlot l i))) as Hlt by (simpl; rewrite Ep, app_length; simpl; lia).
  apply elem_of_cons in Hin as [[= -> ->]|Hin]; [done|]. destruct (IH q Hlev Hin) as (? & ? & ?). split; [lia|done].
Qed.

Lemma lvalid_swap pos m na cur v w old levels : minv pos m -> swap_ok pos m na cur v w old -> lvalid m levels ->
  (forall p ch, (p, ch) ∈ levels -> length (cpos pos p) < length (cpos pos cur)) -> lvalid (swap m na cur w old) levels.
Proof.
  intros Hm Hs Hv Hlt p ch Hin. pose proof (Hv p ch Hin) as Hc. rewrite (swap_cval Hm Hs).
  rewrite decide_False by (intros ->; specialize (Hlt _ _ Hin); lia). destruct p as [|l i]; [done|].
  destruct (decide (l = m_next m)) as [->|]; [|done]. simpl in Hc. by rewrite (next_fresh _ _ Hm) in Hc.
Qed.
End seqmem.
