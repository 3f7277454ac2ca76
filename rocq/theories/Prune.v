(** * The shape of the trie when no two removals overlap.
    Any number of inserts may run at the same time as each other and as the removal.  The invariant: an inner node of the trie is
    heavy (it has two children, or one that is an inner node or a collision node), or the removal that is running will still look at it, or
    an insert that is running is on its way to a place below it; and a pointer is condemned only in a node the removal is pruning. *)
From Verif Require Import Model Mem Inv Safe SafeStep SafeOps SafeSys SafeProps Look LinSpec Sem SemOps SysSem Spec SeqSpec Seq.

Section prune.
Context {C : Config}.
Implicit Types (m : mem) (pos : loc -> list nat) (c : cell) (v w : sh) (o : opid) (gs : gset opid) (k : Key) (op : oper) (ops : gmap opid ostat).

(** ** Paths and cells *)
Lemma at_cell pos m q v : minv pos m -> at_path m q v -> exists c, cval m c = Some v /\ cell_live m c /\ cpos pos c = q.
Proof.
  intros Hm. induction 1 as [|q v l a sl i w Hat (c & Hc & Hl & Eq) Hv Hh Hi]; [by exists CRoot|].
  assert (hbody m l = Some (BInner sl)) as Hb by (unfold hbody; by rewrite Hh).
  exists (CSlot l i). split; [apply cval_slot; eauto|]. split; [by eapply mi_live|]. simpl.
  pose proof (mi_ptr _ _ Hm _ _ Hc) as Hp. unfold ptr_ok in Hp. rewrite Hv, Hb in Hp. destruct (sh_data v).
  - destruct Hp as (? & ? & _). congruence.
  - destruct Hp as (? & _ & ->). by rewrite Eq.
Qed.

Lemma cell_at pos m c v : minv pos m -> cval m c = Some v -> cell_live m c -> at_path m (cpos pos c) v.
Proof.
  intros Hm. remember (length (cpos pos c)) as n eqn:En. revert c v En. induction n as [n IH] using lt_wf_ind. intros c v -> Hc Hl.
  destruct c as [|l i]; [simpl in Hc; injection Hc as <-; constructor|].
  pose proof Hc as (sl & Hb & Hi)%cval_slot. destruct (inner_parent _ _ _ _ Hm Hb Hl) as (c' & v' & Hc' & Hl' & Hv' & Hd' & Ep).
  apply hbody_heap in Hb as [a Ha]. simpl. eapply at_slot; [|exact Hv'|exact Ha|exact Hi]. rewrite <-Ep. eapply IH; [|done|done|done].
  simpl. rewrite Ep, app_length. simpl. lia.
Qed.

Lemma at_prefix m q i q' v : at_path m (q ++ i :: q') v -> exists w t sl, at_path m q w /\ sh_loc w = Some t /\ hbody m t = Some (BInner sl).
Proof.
  remember (q ++ i :: q') as x eqn:Ex. intros Hat. revert q i q' Ex. induction Hat as [|q0 v l a sl j w Hat IH Hv Hh Hj]; intros q i q' Ex; [by destruct q|].
  destruct q' as [|y q' _] using rev_ind.
  - apply app_inj_tail in Ex as [-> ->]. exists v, l, sl. split; [done|]. split; [done|]. apply hbody_heap. eauto.
  - rewrite app_comm_cons, app_assoc in Ex. apply app_inj_tail in Ex as [-> ->]. by eapply IH.
Qed.

Definition onpath m (l : loc) k : Prop := exists q v, at_path m q v /\ sh_loc v = Some l /\ q `prefix_of` path k.

Lemma onpath_pos pos m l sl k : minv pos m -> hbody m l = Some (BInner sl) -> ~ dead m l -> onpath m l k <-> pos l `prefix_of` path k.
Proof.
  intros Hm Hb Hd. split.
  - intros (q & v & Hat & Hv & Hq). destruct (at_cell _ _ _ _ Hm Hat) as (c & Hc & Hl & Eq). pose proof (mi_ptr _ _ Hm _ _ Hc) as Hp. unfold ptr_ok in Hp.
    rewrite Hv, Hb in Hp. destruct (sh_data v); destruct Hp as (? & ? & Ep); [congruence|]. by rewrite Ep, Eq.
  - intros Hp. destruct (inner_parent _ _ _ _ Hm Hb Hd) as (c & v & Hc & Hl & Hv & _ & Ep). exists (pos l), v. rewrite <-Ep. split; [by apply cell_at|]. by rewrite Ep.
Qed.

(** A cell on the way to [k] that does not lead to an inner node belongs to every inner node on the way to [k], or is deeper. *)
Lemma path_end pos m cur v k l sl : minv pos m -> cval m cur = Some v -> cell_live m cur -> (sh_data v = true \/ sh_loc v = None) -> onp pos cur k ->
  hbody m l = Some (BInner sl) -> ~ dead m l -> onpath m l k -> ownr cur l \/ heavy m l.
Proof.
  intros Hm Hc Hl Hv Hon Hb Hd Hop. apply (onpath_pos pos) with (sl := sl) in Hop; [|done..]. unfold onp in Hon.
  assert (forall t, sh_loc v = Some t -> forall s, hbody m t <> Some (BInner s)) as Hni.
  { intros t Ht s Hs. destruct Hv as [Hv|Hv]; [|congruence]. pose proof (mi_ptr _ _ Hm _ _ Hc) as Hp. unfold ptr_ok in Hp. rewrite Ht, Hv in Hp. destruct Hp as (? & ? & _). congruence. }
  assert (forall q w, at_path m q w -> q = cpos pos cur -> w = v) as Hsame.
  { intros q w Hat ->. destruct (at_cell _ _ _ _ Hm Hat) as (c' & Hc' & Hl' & Eq). assert (c' = cur) as -> by (eapply live_cpos_inj; eauto). congruence. }
  destruct (inner_parent _ _ _ _ Hm Hb Hd) as (c & u & Hcu & Hlu & Hu & _ & Ep). pose proof (cell_at _ _ _ _ Hm Hcu Hlu) as Hat. rewrite Ep in Hat.
  destruct (prefix_weak_total _ _ _ Hon Hop) as [[x Hx]|[x Hx]].
  - exfalso. destruct x as [|i x].
    + rewrite app_nil_r in Hx. pose proof (Hsame _ _ Hat Hx) as ->. by eapply Hni.
    + rewrite Hx in Hat. apply at_prefix in Hat as (w & t & s & Hw & Ht & Hs). pose proof (Hsame _ _ Hw eq_refl) as ->. by eapply Hni.
  - pose proof (cell_at _ _ _ _ Hm Hc Hl) as Hatc. destruct x as [|i x].
    { exfalso. rewrite app_nil_r in Hx. pose proof (Hsame _ _ Hat (eq_sym Hx)) as ->. by eapply Hni. }
    rewrite Hx in Hatc. assert (exists w, cval m (CSlot l i) = Some w) as [w Hw].
    { assert (i < 16) as Hi. 
      { assert (exists w0, at_path m (pos l ++ [i]) w0) as [w0 Hw0].
        { destruct x as [|j x]; [eauto|]. replace (pos l ++ i :: j :: x) with ((pos l ++ [i]) ++ j :: x) in Hatc by (by rewrite <-app_assoc).
          apply at_prefix in Hatc as (w0 & _ & _ & ? & _). eauto. }
        destruct (at_cell _ _ _ _ Hm Hw0) as (c1 & Hc1 & _ & E1). destruct c1 as [|l1 i1]; [simpl in E1; by destruct (pos l)|]. simpl in E1.
        apply app_inj_tail in E1 as [_ <-]. by eapply cval_slot_idx. }
      destruct (slot_cval _ _ _ _ _ Hm Hb Hi) as (w & ? & _). eauto. }
    destruct x as [|j x].
    + left. exists i. eapply live_cpos_inj; [done|exact Hc|exact Hw|done|done|done].
    + right. left. replace (pos l ++ i :: j :: x) with ((pos l ++ [i]) ++ j :: x) in Hatc by (by rewrite <-app_assoc).
      apply at_prefix in Hatc as (w0 & t & s & Hw0 & Ht & Hs). destruct (at_cell _ _ _ _ Hm Hw0) as (c1 & Hc1 & Hl1 & E1).
      assert (c1 = CSlot l i) as -> by (by eapply live_cpos_inj). exists i, w0, t. split; [done|]. split; [done|]. unfold fat. by rewrite Hs.
Qed.

(** ** The invariant *)
Definition ikey op : option Key := match op with OInsert p => Some (keyof p) | OGetOrInsert k _ => Some k | _ => None end.
(* a leaf with another key *)
Definition wit m (l : loc) k : Prop :=
  exists j v t d0, cval m (CSlot l j) = Some v /\ sh_loc v = Some t /\ hbody m t = Some (BData [d0]) /\ keqb (keyof d0) k = false.
(* the nodes a removal will still look at *)
Definition rex m (p : pc) (l : loc) : Prop :=
  match p with
  | RCount _ _ _ child _ _ => sh_loc child = Some l
  | PMark (KUp _ _) parent child _ _ _ _ _ | PCas (KUp _ _) parent child _ _ =>
      sh_loc child = Some l \/ (ownr parent l /\ exists x, sh_loc child = Some x /\ dead m x)
  | _ => False
  end.
(* the node a removal is pruning *)
Definition rdd (p : pc) (l : loc) : Prop :=
  match p with PMark (KUp _ _) _ child _ _ _ _ _ | PCas (KUp _ _) _ child _ _ => sh_loc child = Some l | _ => False end.

Definition ER m ops l : Prop := exists o op p, ops !! o = Some (SRun op p) /\ rex m p l.
Definition DD ops l : Prop := exists o op p, ops !! o = Some (SRun op p) /\ rdd p l.
Definition EX m ops l : Prop := exists o op p k, ops !! o = Some (SRun op p) /\ ikey op = Some k /\ onpath m l k /\ wit m l k.

Definition gfact m (D : loc -> Prop) op (p : pc) : Prop :=
  match p with
  | TCas _ _ cur _ node _ kind =>
      kind = TKSplit -> exists k t d0, ikey op = Some k /\ sh_loc node = Some t /\ hbody m t = Some (BData [d0]) /\ keqb (keyof d0) k = false
  | PMark kk parent child _ _ _ _ _ | PCas kk parent child _ _ =>
      match kk with
      | KTrav _ => forall l, sh_loc child = Some l -> ~ dead m l -> D l
      | KRem _ _ => False
      | KUp _ levels => lvalid m levels /\ (cval m parent = Some child \/ exists l, sh_loc child = Some l /\ dead m l)
      end
  | RLoad _ _ _ cur levels | RCas _ _ _ cur levels _ _ _ => cell_live m cur /\ lvalid m levels
  | RCount _ levels parent child i cnt => lvalid m ((parent, child) :: levels) /\
      exists l, sh_loc child = Some l /\ (1 <= cnt -> exists j, j < i /\ nn m l j) /\ (2 <= cnt -> heavy m l)
  | _ => True
  end.

Record gro m ops : Prop := Gro {
  g_clean : forall l i v, cval m (CSlot l i) = Some v -> sh_cond v = true -> ~ dead m l -> DD ops l;
  g_heavy : forall l sl, hbody m l = Some (BInner sl) -> ~ dead m l -> heavy m l \/ ER m ops l \/ EX m ops l;
  g_ops : forall o op p, ops !! o = Some (SRun op p) -> gfact m (DD ops) op p;
}.

Definition still (st : ostat) op : Prop := exists p, st = SRun op p.

(** ** Steps that change no pointers (but may condemn some) *)
Record silent pos m m' : Prop := Silent {
  sl_minv : minv pos m';
  sl_fwd : forall c v, cval m c = Some v -> exists v', cval m' c = Some v' /\ sh_loc v' = sh_loc v;
  sl_bwd : forall c v', cval m' c = Some v' -> exists v, cval m c = Some v /\ sh_loc v' = sh_loc v;
  sl_data : forall l it, hbody m' l = Some (BData it) <-> hbody m l = Some (BData it);
  sl_inner : forall l, (exists sl, hbody m' l = Some (BInner sl)) <-> exists sl, hbody m l = Some (BInner sl);
  sl_dead : forall l, dead m' l <-> dead m l;
}.

Lemma silent_eq pos m m' : minv pos m' -> m_heap m' = m_heap m -> m_root m' = m_root m -> (forall l, dead m' l <-> dead m l) -> silent pos m m'.
Proof.
  intros Hm E1 E2 Hd. assert (forall c, cval m' c = cval m c) as Hc by (intros; by apply cval_heap).
  assert (forall l, hbody m' l = hbody m l) as Hb by (intros; by apply hbody_heapeq).
  split; try done; intros; try rewrite Hb; try done.
  - exists v. by rewrite Hc.
  - exists v'. by rewrite <-Hc.
Qed.
Lemma silent_mark pos m l i v : minv pos m -> cval m (CSlot l i) = Some v -> silent pos m (write_cell m (CSlot l i) (recond v)).
Proof.
  intros Hm Hc. split.
  - by apply minv_mark.
  - intros c u Hu. rewrite cval_mark by done. destruct (decide (c = CSlot l i)) as [->|]; [|by exists u]. exists (recond v). split; [done|]. simpl. congruence.
  - intros c u Hu. destruct (cval_mark_inv _ _ _ _ _ _ Hc Hu) as (u0 & ? & ? & _). by exists u0.
  - intros x it. apply hbody_write_data.
  - intros x. apply hbody_write_inner.
  - done.
Qed.

Section sil.
Context {pos m m'} (Hm : minv pos m) (Hs : silent pos m m').
Lemma fat_sil t : fat m t -> fat m' t.
Proof.
  unfold fat. destruct (hbody m t) as [[sl|it]|] eqn:Hb; [..|done].
  - intros _. destruct (proj2 (sl_inner _ _ _ Hs t)) as [? ->]; [eauto|done].
  - by rewrite (proj2 (sl_data _ _ _ Hs t it) Hb).
Qed.
Lemma nn_sil l i : nn m l i -> nn m' l i.
Proof. intros (v & Hv & Hn). destruct (sl_fwd _ _ _ Hs _ _ Hv) as (v' & Hv' & E). exists v'. by rewrite E. Qed.
Lemma heavy_sil l : heavy m l -> heavy m' l.
Proof.
  intros [(i & v & t & Hv & Ht & Hf)|(i & j & Hij & H1 & H2)].
  - left. destruct (sl_fwd _ _ _ Hs _ _ Hv) as (v' & Hv' & E). exists i, v', t. rewrite E. split; [done|]. split; [done|]. by apply fat_sil.
  - right. exists i, j. split; [done|]. split; by apply nn_sil.
Qed.
Lemma wit_sil l k : wit m l k -> wit m' l k.
Proof.
  intros (j & v & t & d0 & Hv & Ht & Hb & Hk). destruct (sl_fwd _ _ _ Hs _ _ Hv) as (v' & Hv' & E). exists j, v', t, d0. rewrite E.
  split; [done|]. split; [done|]. split; [|done]. by apply (sl_data _ _ _ Hs).
Qed.
Lemma onpath_sil l sl k : hbody m l = Some (BInner sl) -> ~ dead m l -> onpath m l k -> onpath m' l k.
Proof.
  intros Hb Hd Hp. destruct (proj2 (sl_inner _ _ _ Hs l)) as [sl' Hb']; [eauto|]. eapply (onpath_pos pos); [apply Hs|exact Hb'|by rewrite (sl_dead _ _ _ Hs)|].
  by eapply (onpath_pos pos m).
Qed.
Lemma rex_sil p l : rex m p l -> rex m' p l.
Proof.
  destruct p as [| |kk ? ? ? ? ? ? ?|kk ? ? ? ?| | | | | | |]; simpl; try done; destruct kk; try done.
  all: intros [?|(? & x & ? & ?)]; [by left|right; split; [done|]; exists x; by rewrite (sl_dead _ _ _ Hs)].
Qed.

Lemma gro_silent ops o op p st : gro m ops -> ops !! o = Some (SRun op p) ->
  (forall l i v, cval m' (CSlot l i) = Some v -> sh_cond v = true -> ~ dead m l -> DD (<[o := st]> ops) l) ->
  (forall o' op' p', <[o := st]> ops !! o' = Some (SRun op' p') -> gfact m' (DD (<[o := st]> ops)) op' p') ->
  (forall l sl, rex m p l -> hbody m l = Some (BInner sl) -> ~ dead m l -> heavy m l \/ ER m' (<[o := st]> ops) l) ->
  (still st op \/ forall k l sl, ikey op = Some k -> hbody m l = Some (BInner sl) -> ~ dead m l -> onpath m l k -> wit m l k -> heavy m l) ->
  gro m' (<[o := st]> ops).
Proof.
  intros [H1 H2 H3] Ho Hcl Hop Hr Hst. split; [|intros l sl' Hb' Hd'|exact Hop].
  - intros l i v Hc Hv. rewrite (sl_dead _ _ _ Hs). eauto.
  - rewrite (sl_dead _ _ _ Hs) in Hd'. destruct (proj1 (sl_inner _ _ _ Hs l)) as [sl Hb]; [eauto|].
    destruct (H2 l sl Hb Hd') as [Hh|[(o1 & op1 & p1 & Ho1 & Hx)|(o1 & op1 & p1 & k & Ho1 & Hk & Hp & Hw)]].
    + left. by apply heavy_sil.
    + destruct (decide (o = o1)) as [<-|Hne].
      * rewrite Ho in Ho1. injection Ho1 as <- <-. destruct (Hr l sl Hx Hb Hd'); [left; by apply heavy_sil|by right; left].
      * right. left. exists o1, op1, p1. rewrite lookup_insert_ne by done. split; [done|]. by apply rex_sil.
    + destruct (decide (o = o1)) as [<-|Hne].
      * rewrite Ho in Ho1. injection Ho1 as <- <-. destruct Hst as [[p' ->]|Hst].
        -- right. right. exists o, op, p', k. rewrite lookup_insert. split; [done|]. split; [done|]. split; [by eapply onpath_sil|by apply wit_sil].
        -- left. apply heavy_sil. by eapply Hst.
      * right. right. exists o1, op1, p1, k. rewrite lookup_insert_ne by done. split; [done|]. split; [done|]. split; [by eapply onpath_sil|by apply wit_sil].
Qed.
End sil.

(** ** Steps that swap a pointer *)
Section swp.
Context {pos m na cur v w old} (Hm : minv pos m) (Hs : swap_ok pos m na cur v w old).
Notation m' := (swap m na cur w old).

Lemma wit_swap l k : ~ ownr cur l -> l <> m_next m -> wit m l k -> wit m' l k.
Proof.
  intros Ho Hn (j & u & t & d0 & Hc & Ht & Hb & Hk). exists j, u, t, d0. rewrite (swap_slot_other Hm Hs) by done. split; [done|]. split; [done|].
  split; [|done]. eapply ext_data; [apply (swap_ext Hm Hs)|done].
Qed.
Lemma onpath_swap l sl k : hbody m l = Some (BInner sl) -> ~ dead m' l -> onpath m l k -> onpath m' l k.
Proof.
  intros Hb Hd Hp. destruct (ext_inner _ _ _ _ _ _ (swap_ext Hm Hs) Hb) as [sl' Hb']. eapply (onpath_pos (swap_pos pos m na cur)); [apply (minv_swap Hm Hs)|done|done|].
  rewrite (ext_pos _ _ _ _ _ _ (swap_ext Hm Hs) Hb). eapply (onpath_pos pos m); [done|done| |done]. intros ?. apply Hd. apply (swap_dead Hm Hs). by left.
Qed.
Lemma rex_swap p l : rex m p l -> rex m' p l.
Proof.
  destruct p as [| |kk ? ? ? ? ? ? ?|kk ? ? ? ?| | | | | | |]; simpl; try done; destruct kk; try done.
  all: intros [?|(? & x & ? & ?)]; [by left|right; split; [done|]; exists x; split; [done|]; apply (swap_dead Hm Hs); by left].
Qed.

Lemma gro_swap ops o op p st : gro m ops -> ops !! o = Some (SRun op p) ->
  (forall i u, new_slots na !! i = Some u -> sh_cond u = false) ->
  (forall a sl, na = Some (a, BInner sl) -> let n := m_next m in heavy m' n \/ ER m' (<[o := st]> ops) n \/ EX m' (<[o := st]> ops) n) ->
  (forall l i, cur = CSlot l i -> ~ dead m' l -> heavy m' l \/ ER m' (<[o := st]> ops) l \/ EX m' (<[o := st]> ops) l) ->
  (forall o' op' p', <[o := st]> ops !! o' = Some (SRun op' p') -> gfact m' (DD (<[o := st]> ops)) op' p') ->
  (forall l, rdd p l -> ~ dead m' l -> DD (<[o := st]> ops) l) ->
  (forall l, rex m p l -> ~ dead m' l -> ~ ownr cur l -> ER m' (<[o := st]> ops) l) ->
  (still st op \/ forall k l sl, ikey op = Some k -> ~ ownr cur l -> hbody m l = Some (BInner sl) -> ~ dead m l -> onpath m l k -> wit m l k -> heavy m l) ->
  gro m' (<[o := st]> ops).
Proof.
  intros [H1 H2 H3] Ho Hcl Hnew Hown Hop Hdd Hr Hst.
  assert (forall l, ~ dead m' l -> ~ dead m l) as Hnd by (intros l Hl Hd; apply Hl; apply (swap_dead Hm Hs); by left).
  split; [|intros l sl' Hb' Hd'|exact Hop].
  - intros l i u Hu Hcd Hl. destruct (swap_live_cases Hm Hs (CSlot l i) u Hu Hl) as [[_ ->]|[(j & Hj & Hju)|(Hne & Hu' & Hl' & _)]].
    + by rewrite (sw_w _ _ _ _ _ _ _ Hs) in Hcd.
    + by rewrite (Hcl _ _ Hju) in Hcd.
    + destruct (H1 l i u Hu' Hcd (Hnd _ Hl)) as (o1 & op1 & p1 & Ho1 & Hx). destruct (decide (o = o1)) as [<-|Hno].
      * rewrite Ho in Ho1. injection Ho1 as <- <-. eauto.
      * exists o1, op1, p1. by rewrite lookup_insert_ne.
  - destruct (decide (l = m_next m)) as [->|Hn].
    { rewrite (swap_hbody Hm Hs), decide_True in Hb' by done. destruct na as [[a b]|] eqn:Ena; [|done]. simpl in Hb'. injection Hb' as ->. eauto. }
    assert (ownr cur l \/ ~ ownr cur l) as [[i Hi]|Hno].
    { unfold ownr. destruct cur as [|x i]; [right; by intros [? ?]|]. destruct (decide (x = l)) as [->|]; [left; eauto|right; intros [? ?]; congruence]. }
    { eauto. }
    assert (exists sl, hbody m l = Some (BInner sl)) as [sl Hb].
    { rewrite (swap_hbody Hm Hs), decide_False in Hb' by done. destruct cur as [|x i]; [eauto|]. destruct (decide (x = l)); [|eauto].
      destruct (hbody m l) as [[]|]; naive_solver. }
    destruct (H2 l sl Hb (Hnd _ Hd')) as [Hh|[(o1 & op1 & p1 & Ho1 & Hx)|(o1 & op1 & p1 & k & Ho1 & Hk & Hp & Hw)]].
    + left. by apply (heavy_swap_other Hm Hs).
    + right. left. destruct (decide (o = o1)) as [<-|Hne].
      * rewrite Ho in Ho1. injection Ho1 as <- <-. by apply Hr.
      * exists o1, op1, p1. rewrite lookup_insert_ne by done. split; [done|]. by apply rex_swap.
    + destruct (decide (o = o1)) as [<-|Hne].
      * rewrite Ho in Ho1. injection Ho1 as <- <-. destruct Hst as [[p' ->]|Hst].
        -- right. right. exists o, op, p', k. rewrite lookup_insert. split; [done|]. split; [done|]. split; [by eapply onpath_swap|by apply wit_swap].
        -- left. apply (heavy_swap_other Hm Hs); [done|done|]. eapply Hst; eauto.
      * right. right. exists o1, op1, p1, k. rewrite lookup_insert_ne by done. split; [done|]. split; [done|]. split; [by eapply onpath_swap|by apply wit_swap].
Qed.
End swp.

(** ** What the other running calls rely on *)
Lemma DD_insert ops o op p st l : ops !! o = Some (SRun op p) -> DD ops l -> rdd p l \/ DD (<[o := st]> ops) l.
Proof.
  intros Ho (o1 & op1 & p1 & Ho1 & Hx). destruct (decide (o = o1)) as [<-|Hne].
  - left. rewrite Ho in Ho1. by injection Ho1 as <- <-.
  - right. exists o1, op1, p1. by rewrite lookup_insert_ne.
Qed.

Lemma gfact_ins pos m pos' m' (D D' : loc -> Prop) op p : pc_sem pos m op p -> (forall k, op <> ORemove k) -> ext pos m pos' m' ->
  (forall l, dead m l -> dead m' l) -> (forall l, D l -> ~ dead m' l -> D' l) -> gfact m D op p -> gfact m' D' op p.
Proof.
  intros Hps Hno He Hd HD. destruct p as [| |kk ? ? ? ? ? ? ?|kk ? ? ? ?| | | | | | |]; simpl; try done.
  - intros H E. destruct (H E) as (k & t' & d0 & ? & ? & Hb & ?). exists k, t', d0. split; [done|]. split; [done|]. split; [by eapply ext_data|done].
  - simpl in Hps. destruct kk; simpl in Hps; [|by destruct Hps as [? _]; edestruct Hno|by destruct Hps as (? & ? & _); edestruct Hno].
    intros H l Hl Hnd. apply HD; [|done]. apply H; [done|]. intros ?. apply Hnd. by apply Hd.
  - simpl in Hps. destruct kk; simpl in Hps; [|by destruct Hps as [? _]; edestruct Hno|by destruct Hps as (? & ? & _); edestruct Hno].
    intros H l Hl Hnd. apply HD; [|done]. apply H; [done|]. intros ?. apply Hnd. by apply Hd.
  - simpl in Hps. destruct Hps as [? _]. by edestruct Hno.
  - simpl in Hps. destruct Hps as [? _]. by edestruct Hno.
  - simpl in Hps. destruct Hps as (? & ? & _). by edestruct Hno.
Qed.

Definition rlev (p : pc) : list (cell * sh) :=
  match p with
  | RLoad _ _ _ _ levels | RCas _ _ _ _ levels _ _ _ => levels
  | PMark (KUp _ levels) _ _ _ _ _ _ _ | PCas (KUp _ levels) _ _ _ _ => levels
  | RCount _ levels parent child _ _ => (parent, child) :: levels
  | _ => []
  end.
Definition rcur (p : pc) : option cell := match p with RLoad _ _ _ cur _ | RCas _ _ _ cur _ _ _ _ => Some cur | _ => None end.
Definition rpar (p : pc) : option (cell * sh) := match p with PMark (KUp _ _) parent child _ _ _ _ _ | PCas (KUp _ _) parent child _ _ => Some (parent, child) | _ => None end.

Lemma gfact_rem pos m m' (D D' : loc -> Prop) k p : pc_sem pos m (ORemove k) p ->
  (forall l, dead m l -> dead m' l) ->
  (forall q ch, (q, ch) ∈ rlev p -> cval m q = Some ch -> cval m' q = Some ch) ->
  (forall c, rcur p = Some c -> cell_live m c -> cell_live m' c) ->
  (forall q ch, rpar p = Some (q, ch) -> cval m q = Some ch -> cval m' q = Some ch \/ exists l, sh_loc ch = Some l /\ dead m' l) ->
  (forall l, rex m p l -> (forall j, nn m l j -> nn m' l j) /\ (heavy m l -> heavy m' l) \/ exists q ch, rpar p = Some (q, ch)) ->
  gfact m D (ORemove k) p -> gfact m' D' (ORemove k) p.
Proof.
  intros Hps Hd Hlv Hcur Hpar Hct. destruct p as [| |kk parent child ? ? ? ? ?|kk parent child ? ?| |? ? ? cur levels|? ? ? cur levels|? levels parent child i cnt| | |]; simpl in *; try done.
  - by destruct Hps as (? & [] & _).
  - destruct kk; try done; [by destruct Hps as (? & [])|]. intros [H1 H2]. split; [intros q ch Hin; apply Hlv; auto|].
    destruct H2 as [H2|(x & Hx & Hxd)]; [by apply Hpar|right; eauto].
  - destruct kk; try done; [by destruct Hps as (? & [])|]. intros [H1 H2]. split; [intros q ch Hin; apply Hlv; auto|].
    destruct H2 as [H2|(x & Hx & Hxd)]; [by apply Hpar|right; eauto].
  - intros [H1 H2]. split; [by apply Hcur|]. intros q ch Hin. apply Hlv; auto.
  - intros [H1 H2]. split; [by apply Hcur|]. intros q ch Hin. apply Hlv; auto.
  - intros [H1 (l & Hl & H2 & H3)]. split; [intros q ch Hin; apply Hlv; auto|]. exists l. split; [done|].
    destruct (Hct l Hl) as [[Hn Hh]|(? & ? & ?)]; [|done]. split; [|auto]. intros Hc. destruct (H2 Hc) as (j & ? & ?). exists j. auto.
Qed.
End prune.
