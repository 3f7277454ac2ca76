(** * One step of an operation: structural invariant preserved, no failure. *)
From Verif Require Import Model Mem Inv Safe SafeStep.

Section safeops.
Context {C : Config} {Fl : Flavor}.
Implicit Types (m : mem) (pos : loc -> list nat) (c : cell) (v w : sh) (o : opid) (gs : gset opid).

Definition nx_ok pos m o (nx : next) : Prop :=
  match nx with
  | NRun p => pc_ok pos m o p
  | NRet r => Forall (ref_ok m o) (res_refs r)
  | NFail f => if placed then False else f = FPanic PCollisionShallow
  end.

Lemma cok_root m o : cok m o CRoot.
Proof. split; [simpl; eauto|done]. Qed.

Lemma prune_start_ok pos m o k parent child : link_ok pos m o parent child -> kont_ok pos m o k parent ->
  prune_start m k parent child = ok m (NRun (PMark k parent child 0 true 0 None [])) /\
  pc_ok pos m o (PMark k parent child 0 true 0 None []).
Proof.
  intros Hl Hk. pose proof Hl as (_ & _ & Hc & Hd & [l El]). unfold prune_start, is_null. rewrite Hd, El.
  split; [done|]. simpl. split; [done|]. split; [done|]. split; [lia|]. split; [done|]. split; [|done].
  intros ? ? ? _ Hx. done.
Qed.

Lemma rem_up_ok pos m o del levels parent m' nx acts :
  ref_ok m o del -> lev_ok pos m o levels parent ->
  rem_up m del levels = Some (m', nx, acts) -> m' = m /\ acts = [] /\ nx_ok pos m o nx.
Proof.
  intros Hr Hl. destruct levels as [|[p ch] rest]; simpl.
  - intros [= <- <- <-]. split; [done|]. split; [done|]. by constructor.
  - destruct Hl as (Hlk & _ & Hrest). pose proof Hlk as (_ & _ & _ & _ & [l El]). unfold is_null. rewrite El.
    intros [= <- <- <-]. split; [done|]. split; [done|]. simpl. split; [done|]. split; [done|lia].
Qed.

Lemma prune_return_ok pos m o k parent pr m' nx acts :
  kont_ok pos m o k parent -> prune_return m k pr = Some (m', nx, acts) -> m' = m /\ acts = [] /\ nx_ok pos m o nx.
Proof.
  intros Hk. destruct k as [t|key h|del levels]; simpl.
  - intros [= <- <- <-]. split; [done|]. split; [done|]. simpl. split; [apply cok_root|]. done.
  - intros [= <- <- <-]. split; [done|]. split; [done|]. simpl. split; [apply cok_root|]. done.
  - destruct Hk as [Hr Hl]. intros H.
    assert (rem_up m del levels = Some (m', nx, acts) \/ ok m (NRet (ROpt (Some del))) = Some (m', nx, acts)) as [H'|H'].
    { destruct pr; auto. }
    + by eapply rem_up_ok.
    + injection H' as <- <- <-. split; [done|]. split; [done|]. by constructor.
Qed.

Lemma t_finish_ok pos m o t r acts m' nx acts' :
  (t_mode t = IfMissing -> r <> None) -> (forall e, r = Some e -> ref_ok m o (eon_inner e)) ->
  t_finish m t r acts = Some (m', nx, acts') -> m' = m /\ acts' = acts /\ nx_ok pos m o nx.
Proof.
  intros Hr He. unfold t_finish. destruct (t_mode t).
  - intros [= <- <- <-]. split; [done|]. split; [done|]. destruct r as [e|]; simpl; [|done]. constructor; [|done]. by apply He.
  - destruct r as [e|]; [|by destruct (Hr eq_refl)]. intros [= <- <- <-]. split; [done|]. split; [done|].
    constructor; [|done]. by apply He.
Qed.

Lemma find_ref_ok m o k l it r : hbody m l = Some (BData it) -> prot m o l -> find_ref k l it = Some r -> ref_ok m o r.
Proof.
  intros Hb Hp. unfold find_ref. destruct (find_idx k 0 it) as [[i p]|] eqn:E; [|done]. intros [= <-].
  apply find_idx_lookup in E as (d & -> & Hd & _). exists it. simpl. done.
Qed.

Lemma find_last_lookup k i it acc j p : find_last k i it acc = Some (j, p) ->
  acc = Some (j, p) \/ exists d, j = i + d /\ it !! d = Some p /\ keqb (keyof p) k = true.
Proof.
  revert i acc. induction it as [|q it IH]; intros i acc; simpl; [by left|].
  intros H. destruct (IH _ _ H) as [Ha|(d & -> & Hd & Hk)].
  - destruct (keqb (keyof q) k) eqn:E; [|by left]. simplify_eq. right. exists 0. repeat split; [lia|done].
  - right. exists (S d). repeat split; [lia|done|done].
Qed.

Lemma others_singleton k d0 it : length it = 1 -> it !! 0 = Some d0 -> keqb (keyof d0) k = true -> others k it = [].
Proof.
  intros Hl H0 Hk. destruct it as [|d [|? ?]]; simpl in *; try lia. simplify_eq.
  unfold others. rewrite filter_cons, decide_False by congruence. done.
Qed.

Lemma others_length k it : length (others k it) <= length it.
Proof.
  unfold others. induction it as [|p it IH]; [done|]. rewrite filter_cons. destruct (decide _); simpl; lia.
Qed.

(** The program point is about to look into a data node, that is, to run user code on its elements. *)
Definition at_data m (p : pc) : bool :=
  match p with
  | TLoad _ _ cur _ | RLoad _ _ _ cur _ =>
      match read_cell m cur with Some v => negb (is_null v) && sh_data v && negb (sh_cond v) | None => false end
  | GLoad _ _ cur => match read_cell m cur with Some v => negb (is_null v) && sh_data v | None => false end
  | _ => false
  end.

Lemma is_at_data m cur v : read_cell m cur = Some v -> is_null v = false -> sh_data v = true -> sh_cond v = false ->
  match read_cell m cur with Some v => negb (is_null v) && sh_data v && negb (sh_cond v) | None => false end = true.
Proof. intros -> -> -> ->. done. Qed.

Lemma tcas_split pos m o cur node new : tcas_ok pos m o cur node new TKSplit ->
  exists nl d0 i, node = Sh (Some nl) false true /\ hbody m nl = Some (BData [d0]) /\
    new = BInner (<[i := node]> empty_slots) /\ i < 16 /\ length (cpos pos cur) < 16.
Proof.
  unfold tcas_ok. destruct tame; [|done]. intros (nl & d0 & ? & ? & ? & ?).
  exists nl, d0, (bits (hashf (keyof d0)) (4 * length (cpos pos cur))). split; [done|]. split; [done|]. split; [done|]. split; [apply bits_lt|done].
Qed.

Lemma tcas_data pos m o cur node new result : tcas_ok pos m o cur node new (TKData result) ->
  exists nl it it', node = Sh (Some nl) false true /\ hbody m nl = Some (BData it) /\ new = BData it' /\ it' <> [] /\
    placement it' (cpos pos cur) /\ forall r, result = Some r -> rr_loc r = nl /\ it !! rr_idx r = Some (rr_val r).
Proof.
  unfold tcas_ok, placement. destruct tame.
  - intros (nl & it & p & key & ? & ? & ? & ? & ?). exists nl, it, (others key it ++ [p]). do 3 (split; [done|]).
    split; [by destruct (others key it)|]. split; [by destruct placed|]. subst result. intros r Hr. unfold find_ref in Hr.
    destruct (find_idx key 0 it) as [[i q]|] eqn:E; [|done]. injection Hr as <-. apply find_idx_lookup in E as (d & -> & Hd & _). done.
  - intros (nl & it & it' & ? & ? & ? & ? & ? & ?). exists nl, it, it'. done.
Qed.

Lemma rcas_placement k it new p : (if tame then new = others k it else new = [] \/ placement new p) -> new <> [] -> placement it p -> placement new p.
Proof.
  destruct tame; [|by intros [?|?]]. unfold placement. destruct placed; [|done]. intros -> Hne [Hl|?]; [|by right]. left.
  pose proof (others_length k it). destruct (others k it); [done|]. simpl in *. lia.
Qed.

Theorem op_step_gen gs pos m o p spur a m' nx acts :
  minv pos m -> o ∈ gs -> esafe gs m -> pc_ok pos m o p -> at_data m p = false ->
  op_step gs m p spur a = Some (m', nx, acts) ->
  exists pos', mtr gs pos m pos' m' /\ nx_ok pos' m' o nx.
Proof.
  intros Hm Ho He Hpc Hat Hst.
  assert (forall nx', nx_ok pos m o nx' -> ok m nx' = Some (m', nx, acts) -> exists pos', mtr gs pos m pos' m' /\ nx_ok pos' m' o nx) as Hid.
  { intros nx' Hn [= <- <- <-]. exists pos. split; [constructor|done]. }
  assert (forall c v, cok m o c -> cval m c = Some v -> vok pos m o (cpos pos c) v) as Hvok.
  { intros c v. by eapply vok_load. }
  destruct p as [t shift cur par|t shift cur par node new kind|k parent child i ac cnt last new|k parent child ins pr
    |k h cur|k h shift cur levels|k h shift cur levels node new del|del levels parent child i cnt| | |levels out].
  - (* TLoad *)
    destruct Hpc as (Hc & -> & Hpar). destruct (cok_read _ _ _ _ Hm Hc) as (node & Hrd & Hcv). cbn [op_step] in Hst. rewrite Hrd in Hst.
    pose proof (Hvok _ _ Hc Hcv) as Hv.
    destruct (sh_cond node) eqn:Ecd.
    { destruct par as [[parent child]|]; simpl in Hpar.
      - destruct Hpar as [Hlk _]. destruct (prune_start_ok pos m o (KTrav t) parent child Hlk) as [E Hp]; [done|].
        rewrite E in Hst. injection Hst as <- <- <-. exists pos. split; [constructor|done].
      - subst cur. simpl in Hcv. injection Hcv as <-. by rewrite (mi_root _ _ Hm) in Ecd. }
    destruct (is_null node) eqn:Enl.
    { destruct (ts_payload (t_st t)) as [[pl st'] call]. injection Hst as <- <- <-. exists pos. split; [constructor|].
      simpl. repeat split_and; try done; try apply Hc; try apply Hv. all: unfold is_null in Enl; first [by destruct (sh_loc node)|eauto]. }
    destruct (sh_data node) eqn:Ed.
    { by rewrite (is_at_data _ _ _ Hrd Enl Ed Ecd : at_data m (TLoad t _ cur par) = true) in Hat. }
    unfold is_null in Enl. destruct (sh_loc node) as [l|] eqn:El; [|done].
    destruct (vok_inner _ _ _ _ _ _ Hv Ed El) as (sl & Hb & Hpos & Hpr).
    pose proof (mi_slots _ _ Hm _ _ Hb) as [_ Hlt]. rewrite Hpos in Hlt.
    destruct (HASH_BITS <=? 4 * length (cpos pos cur)) eqn:Esh; [apply Nat.leb_le in Esh; unfold HASH_BITS in Esh; lia|].
    eapply Hid in Hst; [exact Hst|].
    assert (link_ok pos m o cur node) as Hlk.
    { split; [done|]. split; [done|]. split; [done|]. split; [done|]. rewrite El. eauto. }
    split; [by eapply cok_slot, bits_lt|]. split; [simpl; rewrite app_length, Hpos; unfold LEVEL_BITS; simpl; lia|].
    split; [done|]. eauto.
  - (* TCas *)
    destruct Hpc as (Hc & -> & Hpar & Hv & Hnc & Htc). destruct (cok_read _ _ _ _ Hm Hc) as (now & Hrd & Hcv).
    cbn [op_step] in Hst. rewrite Hrd in Hst. destruct (addr_free m a) eqn:Eaf; [|done]. cbn [negb] in Hst.
    destruct (sh_same m now node && negb spur) eqn:Esm.
    2:{ injection Hst as <- <- <-. exists pos. split; [apply mtr_tmp|]. by simpl. }
    apply andb_true_iff in Esm as [Esm _].
    pose proof (same_eq_vok _ _ _ _ _ _ _ Hm Hcv Hnc Hv Esm) as ->. clear Esm.
    assert (forall na w old, swap_ok pos m na cur node w old -> (forall l k g, old = Some (l, k, g) -> g = gs) ->
      minv (swap_pos pos m na cur) (swap m na cur w old) /\ ext pos m (swap_pos pos m na cur) (swap m na cur w old) /\
      forall l, prot m o l -> prot (swap m na cur w old) o l) as Hsw.
    { intros na w old Hs Hold. split; [by eapply minv_swap|]. split; [by eapply swap_ext|].
      intros l Hl. eapply mtr_prot; [exact Hm|eapply mtr_swap; eassumption|done|done]. }
    destruct kind as [| |result].
    + destruct Htc as (Hnl & pl & ->).
      pose proof (swap_new_ok pos m cur node a pl Hm Hcv Hnc Hnl Eaf) as Hs.
      destruct (Hsw _ _ _ Hs) as (Hm' & Hext & Hpr); [done|].
      change (write_cell (alloc m a (BData [pl])) cur (Sh (Some (m_next m)) false true)) with
        (swap m (Some (a, BData [pl])) cur (Sh (Some (m_next m)) false true) None) in Hst.
      apply (t_finish_ok (swap_pos pos m (Some (a, BData [pl])) cur) _ o) in Hst as (-> & -> & Hnx).
      * eexists. split; [by apply (mtr_swap gs pos m _ _ _ _ _ Hs)|done].
      * intros ->. done.
      * intros e Ee. destruct (t_mode t); [done|]. injection Ee as <-. exists [pl]. simpl.
        assert (hbody (swap m (Some (a, BData [pl])) cur (Sh (Some (m_next m)) false true) None) (m_next m) = Some (BData [pl])) as Hbn.
        { rewrite (swap_hbody Hm Hs), decide_True by done. done. }
        split; [exact Hbn|]. split; [done|]. apply not_dead_prot; [apply hbody_is_Some; eauto|].
        eapply (mi_live _ _ Hm' cur); [rewrite (swap_cval Hm Hs), decide_True by done; done| |done].
        eapply uncond_live; [exact Hm'|rewrite (swap_cval Hm Hs), decide_True by done; done|done].
    + apply tcas_split in Htc as (nl & d0 & i & -> & Hb & -> & Hi & Hlen).
      pose proof (swap_split_ok pos m cur nl d0 a i Hm Hcv Hb Eaf Hlen Hi) as Hs.
      destruct (Hsw _ _ _ Hs) as (Hm' & Hext & Hpr); [done|].
      injection Hst as <- <- <-. eexists. split; [by apply (mtr_swap gs pos m _ _ _ _ _ Hs)|].
      unfold nx_ok, pc_ok. rewrite (cok_cpos _ _ _ _ _ Hext _ Hc).
      split; [by eapply (cok_st pos m)|]. split; [done|]. by eapply (par_st pos m).
    + apply tcas_data in Htc as (nl & it & it' & -> & Hb & -> & Hne & Hlen & Hres). cbn [sh_loc sh_data negb] in Hst.
      pose proof (swap_rep_ok pos m cur nl it (it') a gs Hm Hcv Hb Eaf Hne Hlen) as Hs.
      destruct (Hsw _ _ _ Hs) as (Hm' & Hext & Hpr); [naive_solver|].
      change (retire (write_cell (alloc m a (BData (it'))) cur (Sh (Some (m_next m)) false true)) nl KData gs) with
        (swap m (Some (a, BData (it'))) cur (Sh (Some (m_next m)) false true) (Some (nl, KData, gs))) in Hst.
      assert (mtr gs pos m (swap_pos pos m (Some (a, BData (it'))) cur)
        (swap m (Some (a, BData (it'))) cur (Sh (Some (m_next m)) false true) (Some (nl, KData, gs)))) as Hmt.
      { apply (mtr_swap gs pos m _ _ _ _ _ Hs). naive_solver. }
      remember (swap m (Some (a, BData (it'))) cur (Sh (Some (m_next m)) false true) (Some (nl, KData, gs))) as m2 eqn:Em2.
      assert (forall r, result = Some r -> ref_ok m2 o r) as Hr.
      { intros r ->. subst m2. eapply (ref_st pos m); [exact Hext|exact Hpr|]. destruct (Hres r eq_refl) as [El Ei]. exists it.
        rewrite El. split; [done|]. split; [done|]. by apply Hv. }
      assert (forall e, t_finish m2 t e [] = Some (m', nx, acts) -> (t_mode t = IfMissing -> e <> None) ->
        (forall x, e = Some x -> ref_ok m2 o (eon_inner x)) -> exists pos', mtr gs pos m pos' m' /\ nx_ok pos' m' o nx) as Hfin.
      { intros e Hf H1 H2. apply (t_finish_ok (swap_pos pos m (Some (a, BData (it'))) cur) _ o) in Hf as (-> & -> & Hnx); [|done|done].
        eexists. split; [exact Hmt|done]. }
      assert (exists pl, it' !! (length it' - 1) = Some pl) as [pl Hlast].
      { apply lookup_lt_is_Some_2. destruct it'; [done|simpl; lia]. }
      destruct result as [r|].
      * eapply Hfin; [exact Hst|done|]. intros x [= <-]. by apply Hr.
      * destruct (t_mode t) eqn:Emode.
        -- eapply Hfin; [exact Hst|done|done].
        -- rewrite Hlast in Hst. eapply Hfin; [exact Hst|done|]. intros x [= <-]. simpl.
           exists (it'). simpl.
           assert (hbody m2 (m_next m) = Some (BData (it'))) as Hbn.
           { subst m2. rewrite (swap_hbody Hm Hs), decide_True by done. done. }
           split; [exact Hbn|]. split; [exact Hlast|]. apply not_dead_prot; [apply hbody_is_Some; eauto|]. subst m2.
           eapply (mi_live _ _ Hm' cur); [rewrite (swap_cval Hm Hs), decide_True by done; done| |done].
           eapply uncond_live; [exact Hm'|rewrite (swap_cval Hm Hs), decide_True by done; done|done].
  - (* PMark *)
    destruct Hpc as (Hlk & Hk & Hi & Hlen & Hmk & Hsum). pose proof Hlk as (_ & Hvc & Hcd & Hdt & [l El]).
    destruct (vok_inner _ _ _ _ _ _ Hvc Hdt El) as (sl & Hb & Hpos & Hpr).
    assert (cok m o (CSlot l i)) as Hck by (by eapply cok_slot).
    destruct (cok_read _ _ _ _ Hm Hck) as (v & Hrd & Hcv). cbn [op_step] in Hst. rewrite El, Hrd in Hst.
    pose proof (Hvok _ _ Hck Hcv) as Hv.
    destruct (minv_mark _ _ _ _ _ Hm Hcv) as [Hm1 Hext]. set (m1 := write_cell m (CSlot l i) (recond v)) in *.
    assert (mtr gs pos m pos m1) as Hmt by (by apply mtr_mark).
    assert (forall x, prot m o x -> prot m1 o x) as Hprot by (intros x; by eapply mtr_prot).
    assert (marks_ok m1 child (new ++ [uncond v])) as Hmk1.
    { intros l' j g El' Hg. assert (l' = l) as -> by congruence. apply lookup_app_Some in Hg as [Hg|[Hj Hg]].
      - eapply (marks_st pos m pos m1); done.
      - apply list_lookup_singleton_Some in Hg as [Hj0 <-]. assert (j = i) as -> by lia. split; [done|].
        unfold m1. rewrite (cval_write_eq m _ _ v) by done. done. }
    assert (vok pos m1 o (cpos pos (CSlot l i)) (uncond v)) as Hv1.
    { eapply (vok_st pos m pos m1); [done|done|]. exact Hv. }
    assert (summ m1 (new ++ [uncond v]) = summ1 m1 (ac, cnt, last) (uncond v)) as Hsum1.
    { rewrite summ_snoc. f_equal. rewrite (summ_st pos m pos m1 Hext child) by (done || eauto). done. }
    set (gc := uncond v) in *. 
    assert (exists x, (if is_null gc then inr (ac, cnt, last) else if sh_data gc then match load_data m1 gc with inl f => inl f | inr it => inr (ac, cnt + length it, Some gc) end else inr (false, S cnt, last) : failure + (bool * nat * option sh)) = inr x /\ summ m1 (new ++ [gc]) = x) as (x & Ex & Hx).
    { rewrite Hsum1. unfold summ1. destruct (is_null gc) eqn:En; [eauto|]. destruct (sh_data gc) eqn:Ed; [|eauto].
      destruct (vok_data _ _ _ _ _ Hv1 Ed) as (tl & it & Etl & Hbt & _ & -> & _). eexists; split; [done|].
      unfold dlen. by rewrite Etl, Hbt. }
    rewrite Ex in Hst. destruct x as [[ac' cnt'] last'].
    assert (link_ok pos m1 o parent child) as Hlk1 by (eapply (link_st pos m pos m1); done).
    assert (kont_ok pos m1 o k parent) as Hk1 by (eapply (kont_st pos m pos m1); done).
    assert (length (new ++ [gc]) = S i) as Hln1 by (rewrite app_length; simpl; lia).
    destruct (S i <? LEVEL_CELLS) eqn:Elt.
    + injection Hst as <- <- <-. exists pos. split; [done|]. simpl. apply Nat.ltb_lt in Elt. unfold LEVEL_CELLS in Elt.
      repeat split_and; done.
    + apply Nat.ltb_ge in Elt. unfold LEVEL_CELLS in Elt. unfold prune_decide in Hst. rewrite Hcd, Hdt in Hst. cbn [orb] in Hst.
      injection Hst as <- <- <-. exists pos. split; [done|]. simpl. split; [done|]. split; [done|].
      exists (new ++ [gc]). split; [lia|]. split; [done|]. rewrite Hx. unfold choose.
      destruct ac', cnt' as [|[|?]], last'; done.
  - (* PCas *)
    destruct Hpc as (Hlk & Hk & new & Hlen & Hmk & Hch). pose proof Hlk as (Hcp & Hvc & Hcd & Hdt & [l El]).
    destruct (cok_read _ _ _ _ Hm Hcp) as (now & Hrd & Hcv). cbn [op_step] in Hst. rewrite Hrd in Hst.
    pose proof (choose_outcome _ _ _ _ _ _ _ Hm Hmk El Hch) as Hoc.
    assert (forall m1 pr', mtr gs pos m pos m1 -> prune_return m1 k pr' = Some (m', nx, acts) -> exists pos', mtr gs pos m pos' m' /\ nx_ok pos' m' o nx) as Hret.
    { intros m1 pr' Hmt Hr. assert (kont_ok pos m1 o k parent) as Hk1.
      { eapply (kont_st pos m pos m1); [by eapply mtr_ext| |done]. intros x. by eapply mtr_prot. }
      apply (prune_return_ok pos _ o _ parent) in Hr as (-> & -> & Hnx); [|done]. eauto. }
    assert (forall na w, swap_ok pos m na parent child w (Some (l, KInner, gs)) -> forall pr', prune_return (swap m na parent w (Some (l, KInner, gs))) k pr' = Some (m', nx, acts) -> exists pos', mtr gs pos m pos' m' /\ nx_ok pos' m' o nx) as Hret2.
    { intros na w Hs pr' Hr. assert (mtr gs pos m (swap_pos pos m na parent) (swap m na parent w (Some (l, KInner, gs)))) as Hmt.
      { eapply mtr_swap; [exact Hs|]. naive_solver. }
      assert (kont_ok (swap_pos pos m na parent) (swap m na parent w (Some (l, KInner, gs))) o k parent) as Hk1.
      { eapply (kont_st pos m); [by eapply mtr_ext| |done]. intros x. by eapply mtr_prot. }
      apply (prune_return_ok (swap_pos pos m na parent) _ o _ parent) in Hr as (-> & -> & Hnx); [|done]. eauto. }
    destruct (sh_same m now child) eqn:Esm.
    + pose proof (same_eq_vok _ _ _ _ _ _ _ Hm Hcv Hcd Hvc Esm) as ->. rewrite El in Hst.
      destruct Hoc as [Hall|i leaf t p Hi Ht Hd Hb Hoth|_ _].
      * eapply (Hret2 None sh_null); [by eapply swap_null_ok|]. destruct (addr_free m a); exact Hst.
      * eapply (Hret2 None leaf); [by eapply swap_leaf_ok|]. destruct (addr_free m a); exact Hst.
      * destruct (addr_free m a) eqn:Eaf; [|done]. eapply (Hret2 (Some (a, BInner new))); [by eapply swap_copy_ok|]. exact Hst.
    + destruct Hoc as [Hall|i leaf t p Hi Ht Hd Hb Hoth|_ _].
      * eapply (Hret m); [constructor|]. destruct (addr_free m a); exact Hst.
      * eapply (Hret m); [constructor|]. destruct (addr_free m a); exact Hst.
      * destruct (addr_free m a) eqn:Eaf; [|done]. eapply Hret; [|exact Hst]. apply mtr_tmp.
  - (* GLoad *)
    destruct (cok_read _ _ _ _ Hm Hpc) as (node & Hrd & Hcv). cbn [op_step] in Hst. rewrite Hrd in Hst.
    pose proof (Hvok _ _ Hpc Hcv) as Hv. destruct (is_null node) eqn:Enl.
    { eapply Hid in Hst; [exact Hst|]. by constructor. }
    unfold is_null in Enl. destruct (sh_loc node) as [l|] eqn:El; [|done]. destruct (sh_data node) eqn:Ed.
    { simpl in Hat. rewrite Hrd in Hat. unfold is_null in Hat. by rewrite El, Ed in Hat. }
    destruct (vok_inner _ _ _ _ _ _ Hv Ed El) as (sl & Hb & Hpos & Hpr).
    eapply Hid in Hst; [exact Hst|]. by eapply cok_slot, bits_lt.
  - (* RLoad *)
    destruct Hpc as (Hc & -> & Hlev). destruct (cok_read _ _ _ _ Hm Hc) as (node & Hrd & Hcv). cbn [op_step] in Hst. rewrite Hrd in Hst.
    pose proof (Hvok _ _ Hc Hcv) as Hv. destruct (is_null node) eqn:Enl.
    { eapply Hid in Hst; [exact Hst|]. by constructor. }
    destruct (sh_cond node) eqn:Ecd.
    { destruct levels as [|[parent child] rest]; simpl in Hlev.
      - subst cur. simpl in Hcv. injection Hcv as <-. by rewrite (mi_root _ _ Hm) in Ecd.
      - destruct Hlev as [Hlk _]. destruct (prune_start_ok pos m o (KRem k h) parent child Hlk) as [E Hp]; [done|].
        rewrite E in Hst. injection Hst as <- <- <-. exists pos. split; [constructor|done]. }
    unfold is_null in Enl. destruct (sh_loc node) as [l|] eqn:El; [|done]. destruct (sh_data node) eqn:Ed.
    { simpl in Hat. rewrite Hrd in Hat. unfold is_null in Hat. by rewrite El, Ed, Ecd in Hat. }
    destruct (vok_inner _ _ _ _ _ _ Hv Ed El) as (sl & Hb & Hpos & Hpr).
    pose proof (mi_slots _ _ Hm _ _ Hb) as [_ Hlt]. rewrite Hpos in Hlt.
    assert (length levels = length (cpos pos cur)) as Hll.
    { clear -Hlev Hm. revert cur Hlev. induction levels as [|[p ch] rest IH]; intros cur; simpl; [by intros ->|].
      intros (Hlk & (l & i & -> & El) & Hrest). rewrite (IH _ Hrest). destruct Hlk as (_ & [Hp _] & _ & Hd & _).
      unfold ptr_ok in Hp. rewrite El, Hd in Hp. destruct Hp as (sl & _ & Hp). simpl. rewrite app_length, Hp. simpl. lia. }
    destruct (MAX_LEVELS <=? length levels) eqn:Emx; [apply Nat.leb_le in Emx; unfold MAX_LEVELS, HASH_BITS, LEVEL_BITS in Emx; simpl in Emx; lia|].
    destruct (HASH_BITS <=? 4 * length (cpos pos cur)) eqn:Esh; [apply Nat.leb_le in Esh; unfold HASH_BITS in Esh; lia|].
    eapply Hid in Hst; [exact Hst|]. split; [by eapply cok_slot, bits_lt|].
    split; [simpl; rewrite app_length, Hpos; unfold LEVEL_BITS; simpl; lia|].
    simpl. split; [|eauto]. split; [done|]. split; [done|]. split; [done|]. split; [done|]. rewrite El. eauto.
  - (* RCas *)
    destruct Hpc as (Hc & -> & Hlev & nl & it & -> & Hv & Hb & Hnew & Hdel & Hdl & _). destruct (cok_read _ _ _ _ Hm Hc) as (now & Hrd & Hcv).
    cbn [op_step] in Hst. rewrite Hrd in Hst.
    assert (vok pos m o (cpos pos cur) (Sh (Some nl) false true)) as Hv' by done.
    destruct (vok_data _ _ _ _ _ Hv' eq_refl) as (tl & it' & Etl & Hb' & _ & _ & Hlen). simpl in Etl. injection Etl as <-.
    assert (it' = it) as -> by congruence.
    assert (forall na w, swap_ok pos m na cur (Sh (Some nl) false true) w (Some (nl, KData, gs)) ->
      rem_up (swap m na cur w (Some (nl, KData, gs))) del levels = Some (m', nx, acts) -> exists pos', mtr gs pos m pos' m' /\ nx_ok pos' m' o nx) as Hfin.
    { intros na w Hs Hr. assert (mtr gs pos m (swap_pos pos m na cur) (swap m na cur w (Some (nl, KData, gs)))) as Hmt.
      { eapply mtr_swap; [exact Hs|]. naive_solver. }
      apply (rem_up_ok (swap_pos pos m na cur) _ o _ _ cur) in Hr as (-> & -> & Hnx); [eauto| |].
      - eapply (ref_st pos m); [by eapply mtr_ext| |done]. intros x. by eapply mtr_prot.
      - eapply (lev_st pos m); [by eapply mtr_ext| |done]. intros x. by eapply mtr_prot. }
    destruct (sh_same m now (Sh (Some nl) false true) && negb spur) eqn:Esm.
    + apply andb_true_iff in Esm as [Esm _]. pose proof (same_eq_vok pos m o _ cur now (Sh (Some nl) false true) Hm Hcv eq_refl Hv' Esm) as ->.
      cbn [sh_data sh_loc negb] in Hst. destruct new as [|q qs].
      * eapply (Hfin None); [by eapply swap_del_ok|]. destruct (addr_free m a); exact Hst.
      * destruct (addr_free m a) eqn:Eaf; [|done]. eapply (Hfin (Some (a, BData (q :: qs)))); [|exact Hst].
        eapply swap_rep_ok; try done. by eapply rcas_placement.
    + assert (pc_ok pos m o (RLoad k h (4 * length (cpos pos cur)) cur levels)) as Hpc' by (simpl; done).
      destruct new as [|q qs].
      * destruct (addr_free m a); injection Hst as <- <- <-; exists pos; (split; [constructor|done]).
      * destruct (addr_free m a); [|done]. injection Hst as <- <- <-. exists pos. split; [apply mtr_tmp|eapply (pc_st pos m); [apply (ext_refl pos m)|intros x Hx; exact Hx|exact Hm|exact Hpc']].
  - (* RCount *)
    destruct Hpc as (Hlk & Hk & Hi). pose proof Hlk as (Hcp & Hvc & Hcd & Hdt & [l El]).
    destruct (vok_inner _ _ _ _ _ _ Hvc Hdt El) as (sl & Hb & Hpos & Hpr).
    assert (cok m o (CSlot l i)) as Hck by (by eapply cok_slot).
    destruct (cok_read _ _ _ _ Hm Hck) as (v & Hrd & Hcv). cbn [op_step] in Hst. rewrite El, Hrd in Hst.
    destruct (S i <? LEVEL_CELLS) eqn:Elt.
    { eapply Hid in Hst; [exact Hst|]. apply Nat.ltb_lt in Elt. by simpl. }
    destruct (1 <? _).
    { eapply Hid in Hst; [exact Hst|]. constructor; [|done]. by destruct Hk. }
    destruct (prune_start_ok pos m o (KUp del levels) parent child Hlk Hk) as [E Hp].
    rewrite E in Hst. eapply Hid in Hst; [exact Hst|done].
  - (* ELoad *) eapply Hid in Hst; [exact Hst|]. by constructor.
  - (* INew *) eapply Hid in Hst; [exact Hst|]. simpl. split; [|done]. split; [|done]. exists []. split; [done|].
    apply (Hvok CRoot); [apply cok_root|done].
  - (* INext *)
    destruct Hpc as [Hstk Hout]. cbn [op_step] in Hst. destruct levels as [|[v idx] rest].
    { eapply Hid in Hst; [exact Hst|done]. }
    destruct Hstk as [(q & Hq & Hv) Hrest]. destruct (is_null v) eqn:Enl.
    { eapply Hid in Hst; [exact Hst|done]. }
    unfold is_null in Enl. destruct (sh_loc v) as [l|] eqn:El; [|done]. destruct (sh_data v) eqn:Ed.
    { destruct (vok_data _ _ _ _ _ Hv Ed) as (tl & it & Etl & Hb & Hdr & Hld & Hlen). rewrite Hld in Hst.
      assert (tl = l) as -> by congruence. destruct (it !! idx) as [p|] eqn:Ei.
      - injection Hst as <- <- <-. exists pos. split; [constructor|]. simpl. split; [eauto|].
        apply Forall_app. split; [done|]. constructor; [|done]. exists it. simpl. repeat split_and; [done|done|by apply Hv].
      - eapply Hid in Hst; [exact Hst|done]. }
    destruct (idx <? LEVEL_CELLS) eqn:Elt.
    2:{ eapply Hid in Hst; [exact Hst|done]. }
    apply Nat.ltb_lt in Elt. unfold LEVEL_CELLS in Elt.
    destruct (vok_inner _ _ _ _ _ _ Hv Ed El) as (sl & Hb & Hpos & Hpr).
    assert (cok m o (CSlot l idx)) as Hck by (by eapply cok_slot).
    destruct (cok_read _ _ _ _ Hm Hck) as (u & Hrd & Hcv). rewrite Hrd in Hst.
    pose proof (mi_slots _ _ Hm _ _ Hb) as [_ Hlt]. rewrite Hpos, Hq in Hlt.
    destruct (MAX_LEVELS + 1 <=? length ((v, idx) :: rest)) eqn:Emx.
    { apply Nat.leb_le in Emx. unfold MAX_LEVELS, HASH_BITS, LEVEL_BITS in Emx. simpl in Emx. lia. }
    eapply Hid in Hst; [exact Hst|]. simpl. split; [|done]. split; [|eauto].
    exists (cpos pos (CSlot l idx)). split; [simpl; rewrite app_length, Hpos, Hq; simpl; lia|]. by apply Hvok.
Qed.

End safeops.

Section tameops.
Context {C : Config}.
Implicit Types (m : mem) (pos : loc -> list nat) (c : cell) (v w : sh) (o : opid) (gs : gset opid).

Theorem op_step_ok gs pos m o p spur a m' nx acts :
  minv pos m -> o ∈ gs -> esafe gs m -> pc_ok pos m o p ->
  op_step gs m p spur a = Some (m', nx, acts) ->
  exists pos', mtr gs pos m pos' m' /\ nx_ok pos' m' o nx.
Proof.
  intros Hm Ho He Hpc Hst. destruct (at_data m p) eqn:Hat; [|by eapply op_step_gen].
  assert (forall nx', nx_ok pos m o nx' -> ok m nx' = Some (m', nx, acts) -> exists pos', mtr gs pos m pos' m' /\ nx_ok pos' m' o nx) as Hid.
  { intros nx' Hn [= <- <- <-]. exists pos. split; [constructor|done]. }
  assert (forall c v, cok m o c -> cval m c = Some v -> vok pos m o (cpos pos c) v) as Hvok.
  { intros c v. by eapply vok_load. }
  destruct p as [t shift cur par|t shift cur par node new kind|k parent child i ac cnt last new|k parent child ins pr
    |k h cur|k h shift cur levels|k h shift cur levels node new del|del levels parent child i cnt| | |levels out]; try done; simpl in Hat.
  - (* TLoad *)
    destruct Hpc as (Hc & -> & Hpar). destruct (cok_read _ _ _ _ Hm Hc) as (node & Hrd & Hcv). cbn [op_step] in Hst. rewrite Hrd in Hst, Hat.
    pose proof (Hvok _ _ Hc Hcv) as Hv. apply andb_true_iff in Hat as [Hat Ecd%negb_true_iff]. apply andb_true_iff in Hat as [Enl%negb_true_iff Ed].
    rewrite Ecd, Enl, Ed in Hst.
    { destruct (vok_data _ _ _ _ _ Hv Ed) as (tl & it & Etl & Hb & Hdr & Hld & Hlen). rewrite Hld in Hst.
      assert (node = Sh (Some tl) false true) as Enode by (destruct node; simpl in *; congruence).
      pose proof (mi_data _ _ Hm _ _ Hb) as Hne. destruct it as [|d0 it']; [done|]. set (it := d0 :: it') in *.
      destruct (negb (keqb (keyof d0) (ts_key (t_st t))) && (4 * length (cpos pos cur) <? HASH_BITS)) eqn:Ecase.
      - apply andb_true_iff in Ecase as [_ Hsh]. apply Nat.ltb_lt in Hsh. unfold HASH_BITS in Hsh.
        destruct Hlen as [Hlen|]; [|lia]. rewrite Hlen in Hst. cbn [negb Nat.eqb] in Hst. injection Hst as <- <- <-.
        exists pos. split; [constructor|]. simpl. repeat split_and; try done; try apply Hc; try apply Hv.
        exists tl, d0. repeat split_and; try done; [|lia]. destruct it'; [done|]. simpl in Hlen. lia.
      - rewrite Etl in Hst.
        assert (forall r m'' nx'' , find_ref (ts_key (t_st t)) tl it = r -> 
          (let '(pl, st', call) := ts_payload (t_st t) in
           Some (m, NRun (TCas (t_with t st') (4 * length (cpos pos cur)) cur par node (BData (others (ts_key (t_st t)) it ++ [pl])) (TKData r)),
             match call with Some k => [ACall k] | None => [] end)) = Some (m'', nx'', acts) -> exists pos', mtr gs pos m pos' m'' /\ nx_ok pos' m'' o nx'') as Hcas.
        { intros r m'' nx'' Er. destruct (ts_payload (t_st t)) as [[pl st'] call]. intros Heq. injection Heq as <- <- <-.
          exists pos. split; [constructor|]. simpl. repeat split_and; try done; try apply Hc; try apply Hv.
          exists tl, it, pl, (ts_key (t_st t)). repeat split_and; try done.
          apply andb_false_iff in Ecase as [Ek|Hsh].
          - apply negb_false_iff in Ek. destruct Hlen as [Hlen|Hlen]; [left|by right].
            rewrite (others_singleton _ d0) by done. done.
          - right. apply Nat.ltb_ge in Hsh. unfold HASH_BITS in Hsh. pose proof (cpos_len _ _ _ _ Hm Hcv). lia. }
        destruct (find_ref (ts_key (t_st t)) tl it) as [r|] eqn:Ef; [|eapply Hcas; [reflexivity|exact Hst]].
        destruct (t_mode t) eqn:Em; [eapply Hcas; [reflexivity|exact Hst]|].
        apply (t_finish_ok pos m o) in Hst as (-> & -> & Hnx); [exists pos; split; [constructor|done]|done|].
        intros e [= <-]. simpl. eapply find_ref_ok; [exact Hb| |exact Ef]. by apply Hv. }
  - (* GLoad *)
    destruct (cok_read _ _ _ _ Hm Hpc) as (node & Hrd & Hcv). cbn [op_step] in Hst. rewrite Hrd in Hst, Hat.
    pose proof (Hvok _ _ Hpc Hcv) as Hv. apply andb_true_iff in Hat as [Enl%negb_true_iff Ed]. rewrite Enl, Ed in Hst.
    unfold is_null in Enl. destruct (sh_loc node) as [l|] eqn:El; [|done].
    { destruct (vok_data _ _ _ _ _ Hv Ed) as (tl & it & Etl & Hb & Hdr & Hld & Hlen). rewrite Hld in Hst.
      eapply Hid in Hst; [exact Hst|]. simpl. destruct (find_ref k l it) as [r|] eqn:Ef; [|by constructor].
      constructor; [|done]. assert (tl = l) as -> by congruence. eapply find_ref_ok; [exact Hb| |exact Ef]. by apply Hv. }
  - (* RLoad *)
    destruct Hpc as (Hc & -> & Hlev). destruct (cok_read _ _ _ _ Hm Hc) as (node & Hrd & Hcv). cbn [op_step] in Hst. rewrite Hrd in Hst, Hat.
    pose proof (Hvok _ _ Hc Hcv) as Hv. apply andb_true_iff in Hat as [Hat Ecd%negb_true_iff]. apply andb_true_iff in Hat as [Enl%negb_true_iff Ed].
    rewrite Enl, Ecd, Ed in Hst. unfold is_null in Enl. destruct (sh_loc node) as [l|] eqn:El; [|done].
    { destruct (vok_data _ _ _ _ _ Hv Ed) as (tl & it & Etl & Hb & Hdr & Hld & Hlen). rewrite Hld in Hst.
      assert (node = Sh (Some l) false true) as Enode by (destruct node; simpl in *; congruence).
      assert (tl = l) as -> by congruence.
      destruct (find_last k 0 it None) as [[i p]|] eqn:Ef; (eapply Hid in Hst; [exact Hst|]); [|by constructor].
      simpl. split; [done|]. split; [done|]. split; [done|]. exists l, it.
      apply find_last_lookup in Ef as [?|(d & -> & Hd & Hk)]; [done|].
      repeat split_and; try done; try apply Hv. exists it. simpl. repeat split_and; [done|done|by apply Hv]. }
Qed.
End tameops.
