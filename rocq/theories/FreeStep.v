(** * Reclamation on weakly ordered memory, 2: the steps of the machine, with and without frees. *)
From Verif Require Import Model Mem Spec Weak WeakInv WeakStep WeakSys WeakRun WeakCoh WeakFree FreeSim.

Section step.
Context {C : Config} (w : orders).
Implicit Types (m : mem) (c : cell) (v : sh) (o : opid) (p : pc) (l : loc) (s : wstate) (tv : view) (pv : gmap loc view).

(** ** When a step is not possible *)
Definition nn (r : sres) : Prop := match r with None => False | Some _ => True end.
Lemma nn_rem_up m d lv : nn (rem_up m d lv).
Proof. unfold rem_up. by repeat case_match. Qed.
Lemma nn_prune_start m k pa ch : nn (prune_start m k pa ch).
Proof. unfold prune_start. by repeat case_match. Qed.
Lemma nn_prune_return m k pr : nn (prune_return m k pr).
Proof. unfold prune_return. destruct k; try done. destruct pr; try done; apply nn_rem_up. Qed.
Lemma nn_prune_decide m k pa ch ac cnt la new : nn (prune_decide m k pa ch ac cnt la new).
Proof. unfold prune_decide. by repeat case_match. Qed.
Lemma nn_t_finish m t r acts : nn (t_finish m t r acts).
Proof. unfold t_finish. by repeat case_match. Qed.
Ltac nn := first [exact I | apply nn_rem_up | apply nn_prune_start | apply nn_prune_return | apply nn_prune_decide | apply nn_t_finish].
Lemma op_step_none m p spur a : op_step ∅ m p spur a = None -> addr_free m a = false /\ exists c e v b, cas_of p = Some (c, e) /\ read_cell m c = Some v /\ new_body p = Some b.
Proof.
  assert (nn (op_step ∅ m p spur a) \/ addr_free m a = false /\ exists c e v b, cas_of p = Some (c, e) /\ read_cell m c = Some v /\ new_body p = Some b) as [H|H]; [|by intros E; rewrite E in H|done].
  destruct p; cbn [op_step].
  - left. repeat (first [nn | case_match]).
  - destruct (read_cell m cur) eqn:Er; [|by left]. destruct (addr_free m a); [|right; split; [done|]; repeat eexists; done]. left. cbn [negb]. repeat (first [nn | case_match]).
  - left. repeat (first [nn | case_match]).
  - destruct (read_cell m parent) eqn:Er; [|by left]. destruct ins as [u|sl].
    + left. repeat (first [nn | case_match]).
    + destruct (addr_free m a); [|right; split; [done|]; repeat eexists; done]. left. repeat (first [nn | case_match]).
  - left. repeat (first [nn | case_match]).
  - left. repeat (first [nn | case_match]).
  - destruct (read_cell m cur) eqn:Er; [|by left]. destruct new as [|x new].
    + left. repeat (first [nn | case_match]).
    + destruct (addr_free m a); [|right; split; [done|]; repeat eexists; done]. left. repeat (first [nn | case_match]).
  - left. repeat (first [nn | case_match]).
  - by left.
  - by left.
  - left. repeat (first [nn | case_match]).
Qed.
Lemma op_step_none_2 m p spur a c e v b : addr_free m a = false -> cas_of p = Some (c, e) -> read_cell m c = Some v -> new_body p = Some b -> op_step ∅ m p spur a = None.
Proof.
  intros Ha Hc Hr Hb. destruct p; try done; cbn [cas_of] in Hc; injection Hc as -> ->; cbn [op_step]; rewrite Hr, Ha; cbn [negb].
  - done.
  - by destruct ins.
  - by destruct new.
Qed.

(** ** Memory as a call sees it *)
Lemma hide_bm tv pv m : hide tv pv (bm m) = bm (hide tv pv m).
Proof.
  unfold hide, bm. simpl. f_equal. apply map_eq. intros l. rewrite !map_lookup_imap. destruct (m_heap m !! l) as [x|]; simpl; [|done].
  by destruct (decide (sees tv pv l)).
Qed.
Lemma hide_heap tv pv m l : m_heap (hide tv pv m) !! l = (fun x => if decide (sees tv pv l) then x else HObj (ho_addr x) (BInner [])) <$> m_heap m !! l.
Proof. simpl. rewrite map_lookup_imap. by destruct (m_heap m !! l). Qed.
Lemma hide_here tv pv m l : here (hide tv pv m) l <-> here m l.
Proof. unfold here. rewrite hide_heap, fmap_is_Some. done. Qed.
Lemma hide_aok tv pv m : aok m -> aok (hide tv pv m).
Proof.
  intros Ha l x Hx Hf. rewrite hide_heap in Hx. apply fmap_Some in Hx as (y & Hy & ->). destruct (Ha l y Hy Hf) as [H1 H2]. assert (ho_addr (if decide (sees tv pv l) then y else HObj (ho_addr y) (BInner [])) = ho_addr y) as -> by (by destruct (decide _)).
  split; [done|]. intros l' x' Hx' Hf'. rewrite hide_heap in Hx'. apply fmap_Some in Hx' as (y' & Hy' & ->). intros E. eapply H2; [exact Hy'|exact Hf'|]. by destruct (decide (sees tv pv l')).
Qed.
Lemma hide_read tv pv m c v : read_cell (hide tv pv m) c = Some v -> read_cell m c = Some v.
Proof.
  destruct c as [|l i]; [done|]. unfold read_cell, deref. change (freed (hide tv pv m) l) with (freed m l). destruct (freed m l); [done|]. rewrite hide_heap.
  destruct (m_heap m !! l) as [x|]; [|done]. simpl. by destruct (decide _).
Qed.
Lemma hide_obj tv pv m l x : m_heap (hide tv pv m) !! l = Some x -> exists y, m_heap m !! l = Some y /\ ho_addr x = ho_addr y.
Proof. rewrite hide_heap. intros Hx. apply fmap_Some in Hx as (y & Hy & ->). exists y. split; [done|]. by destruct (decide _). Qed.
Lemma hide_obj_2 tv pv m l y : m_heap m !! l = Some y -> exists x, m_heap (hide tv pv m) !! l = Some x /\ ho_addr x = ho_addr y.
Proof. intros Hy. rewrite hide_heap, Hy. simpl. eexists. split; [done|]. by destruct (decide _). Qed.
Lemma hide_addr tv pv m a : addr_free (hide tv pv m) a = addr_free m a.
Proof.
  apply eq_true_iff_eq. unfold addr_free. rewrite !andb_true_iff, !forallb_forall. split; intros [H1 H2]; (split; [done|]); intros [l x] Hin; apply elem_of_list_In, elem_of_map_to_list in Hin.
  - destruct (hide_obj_2 tv pv _ _ _ Hin) as (y & Hy & Ey). specialize (H2 (l, y)). simpl in *. change (freed (hide tv pv m) l) with (freed m l) in H2. rewrite Ey in H2. apply H2.
    by apply elem_of_list_In, elem_of_map_to_list.
  - destruct (hide_obj tv pv _ _ _ Hin) as (y & Hy & Ey). specialize (H2 (l, y)). simpl in *. change (freed (hide tv pv m) l) with (freed m l). rewrite Ey. apply H2.
    by apply elem_of_list_In, elem_of_map_to_list.
Qed.

Lemma see_step_bm tv pv m p spur a : aok m -> nok m -> phere m p -> rhere w m p -> see_step tv pv m p spur a <> None ->
  see_step tv pv (bm m) p spur (N.pos (m_next m)) = bmap (see_step tv pv m p spur a).
Proof.
  intros Ha Hn Hp Hr Hs. unfold see_step in *. rewrite hide_bm.
  assert (op_step ∅ (hide tv pv m) p spur a <> None) as Hh.
  { intros E. rewrite E in Hs. apply Hs. apply op_step_none in E as (E & c & e & v & b & H1 & H2 & H3). rewrite hide_addr in E. eapply op_step_none_2; try done. by eapply hide_read. }
  assert (op_step ∅ (bm (hide tv pv m)) p spur (N.pos (m_next m)) = bmap (op_step ∅ (hide tv pv m) p spur a)) as ->.
  { apply (op_step_bm w (hide tv pv m)); try done.
    - by apply hide_aok.
    - intros l. rewrite hide_heap, fmap_is_Some. apply Hn.
    - intros l b Hx. apply hide_here. by eapply Hp.
    - intros c kd ord v Hc Hv l E. apply hide_here. apply hide_read in Hv. by eapply Hr. }
  destruct (op_step ∅ (hide tv pv m) p spur a) as [[[m1 nx] acts]|] eqn:E; [|done]. simpl.
  destruct nx as [|?|[]]; try done; by apply (op_step_bm w).
Qed.

Lemma cas_wins_bm m p spur : aok m -> phere m p -> rhere w m p -> cas_wins (bm m) p spur = cas_wins m p spur.
Proof.
  intros Ha Hp Hr. unfold cas_wins. destruct (cas_of p) as [[c e]|] eqn:Ec; [|done].
  assert ((forall x, x ∈ cptr c -> x ∈ pptr p) /\ (forall x, x ∈ sptr e -> x ∈ pptr p) /\ exists kd ord, access w p = Some (c, kd, ord)) as (H1 & H2 & kd & ord & H3).
  { destruct p; simpl in Ec; try done; injection Ec as -> ->; simpl; (split; [intros x; rewrite !elem_of_app; tauto|]); (split; [intros x; rewrite !elem_of_app; tauto|]); eauto. }
  rewrite bm_read by (by eapply phere_cell). destruct (read_cell m c) as [now|] eqn:Er; [|done]. rewrite bm_same; [done|done|by eapply Hr|].
  apply vhere_ptr. intros l b Hx. eapply Hp. by apply H2.
Qed.

(** ** The steps of the machine *)
(** [b] is [s] without the frees. *)
Record wsim s (b : wstate) : Prop := { ws_mem : w_mem b = bm (w_mem s); ws_hist : forall c, w_hist b c = w_hist s c; ws_ops : w_ops b = w_ops s }.
Record csim (s b : cstate) : Prop := { cs_w : wsim (c_w s) (c_w b); cs_fl : forall o c, c_fl b o c = c_fl s o c }.

Lemma ptrs_bm m l : ptrs (bm m) l = ptrs m l.
Proof. unfold ptrs. rewrite bm_heap. by destruct (m_heap m !! l) as [[? ?]|]. Qed.
Lemma here_write m c v l : here (write_cell m c v) l <-> here m l.
Proof.
  unfold here. assert (freed (write_cell m c v) l = freed m l) as -> by (by destruct c). destruct c as [|l' i]; [done|]. simpl.
  destruct (decide (l' = l)) as [<-|]; [by rewrite lookup_alter, fmap_is_Some|by rewrite lookup_alter_ne].
Qed.
Lemma aok_write m c v : aok m -> aok (write_cell m c v).
Proof.
  intros Ha. destruct c as [|l0 i]; [done|]. assert (forall l x, m_heap (write_cell m (CSlot l0 i) v) !! l = Some x -> exists y, m_heap m !! l = Some y /\ ho_addr x = ho_addr y) as Hw.
  { intros l x Hx. simpl in Hx. destruct (decide (l0 = l)) as [<-|]; [|rewrite lookup_alter_ne in Hx by done; eauto]. rewrite lookup_alter in Hx. apply fmap_Some in Hx as (y & Hy & ->). exists y. split; [done|].
    unfold set_slot. by destruct (ho_body y). }
  intros l x Hx Hf. destruct (Hw _ _ Hx) as (y & Hy & ->). destruct (Ha l y Hy Hf) as [H1 H2]. split; [done|]. intros l' x' Hx' Hf' E. destruct (Hw _ _ Hx') as (y' & Hy' & Ey). eapply H2; [exact Hy'|exact Hf'|congruence].
Qed.
Lemma nok_write m c v : nok m -> nok (write_cell m c v).
Proof.
  intros Hn l Hl. assert (m_next (write_cell m c v) = m_next m) as -> by (by destruct c). apply Hn. destruct c as [|l' i]; [done|]. simpl in Hl. destruct (decide (l' = l)) as [<-|]; [by rewrite lookup_alter, fmap_is_Some in Hl|by rewrite lookup_alter_ne in Hl].
Qed.
Lemma aok_alloc m a b : aok m -> nok m -> addr_free m a = true -> aok (alloc m a b).
Proof.
  intros Ha Hn Hf. unfold addr_free in Hf. apply andb_true_iff in Hf as [Hz Hf]. rewrite forallb_forall in Hf. apply negb_true_iff, N.eqb_neq in Hz.
  assert (forall l x, m_heap m !! l = Some x -> freed m l = false -> ho_addr x <> a) as Hne.
  { intros l x Hx Hfr E. specialize (Hf (l, x) ltac:(by apply elem_of_list_In, elem_of_map_to_list)). simpl in Hf. rewrite Hfr in Hf. apply negb_true_iff, N.eqb_neq in Hf. done. }
  intros l x Hx Hfr. change (freed (alloc m a b) l) with (freed m l) in Hfr. simpl in Hx. apply lookup_insert_Some in Hx as [[<- <-]|[Hl Hx]].
  - simpl. split; [done|]. intros l' x' Hx' Hfr' E. change (freed (alloc m a b) l') with (freed m l') in Hfr'. apply lookup_insert_Some in Hx' as [[<- <-]|[Hl' Hx']]; [done|]. exfalso. by eapply Hne.
  - destruct (Ha l x Hx Hfr) as [H1 H2]. split; [done|]. intros l' x' Hx' Hfr' E. change (freed (alloc m a b) l') with (freed m l') in Hfr'. simpl in Hx'. apply lookup_insert_Some in Hx' as [[<- <-]|[Hl' Hx']].
    + exfalso. by eapply (Hne l x).
    + by eapply H2.
Qed.
Lemma aok_same m m' : same_mem m m' -> aok m' -> aok m.
Proof. intros Hs Ha l x. rewrite (sm_heap _ _ Hs). unfold freed. rewrite (sm_freed _ _ Hs). apply Ha. Qed.
Lemma read_write m c v v' : read_cell (write_cell m c v) c = Some v' -> v' = v.
Proof.
  destruct c as [|l i]; [by intros [= <-]|]. unfold read_cell, deref. change (freed (write_cell m (CSlot l i) v) l) with (freed m l). destruct (freed m l); [done|]. simpl. rewrite lookup_alter.
  destruct (m_heap m !! l) as [[a [sl|it]]|]; simpl; try done. intros Hi. apply list_lookup_insert_Some in Hi as [(_ & -> & _)|[]]; done.
Qed.

Lemma acc_ptr p c kd ord : access w p = Some (c, kd, ord) -> forall l b, (l, b) ∈ cptr c -> exists b', (l, b') ∈ pptr p.
Proof.
  intros Ha l b Hb. destruct p; cbn [access] in Ha.
  - injection Ha as <- _ _. exists b. cbn [pptr]. rewrite !elem_of_app. tauto.
  - injection Ha as <- _ _. exists b. cbn [pptr]. rewrite !elem_of_app. tauto.
  - destruct (sh_loc child) as [l'|] eqn:E; [|done]. simpl in Ha. injection Ha as <- _ _. apply elem_of_list_singleton in Hb as [= -> ->]. exists (sh_data child). cbn [pptr]. rewrite !elem_of_app. right. right. left. unfold sptr. rewrite E. by left.
  - injection Ha as <- _ _. exists b. cbn [pptr]. rewrite !elem_of_app. tauto.
  - injection Ha as <- _ _. exists b. done.
  - injection Ha as <- _ _. exists b. cbn [pptr]. rewrite !elem_of_app. tauto.
  - injection Ha as <- _ _. exists b. cbn [pptr]. rewrite !elem_of_app. tauto.
  - destruct (sh_loc child) as [l'|] eqn:E; [|done]. simpl in Ha. injection Ha as <- _ _. apply elem_of_list_singleton in Hb as [= -> ->]. exists (sh_data child). cbn [pptr]. rewrite !elem_of_app. right. right. right. unfold sptr. rewrite E. by left.
  - injection Ha as <- _ _. by apply elem_of_nil in Hb.
  - injection Ha as <- _ _. by apply elem_of_nil in Hb.
  - destruct levels as [|[v idx] rest]; [done|]. destruct (_ || _); [done|]. destruct (sh_loc v) as [l'|] eqn:E; [|done]. simpl in Ha. injection Ha as <- _ _. apply elem_of_list_singleton in Hb as [= -> ->].
    exists (sh_data v). cbn [pptr]. rewrite bind_cons, !elem_of_app. left. left. unfold sptr. simpl. rewrite E. by left.
Qed.

(** What a step of call [o] that reads the [n]-th value touches. *)
Definition touch_ok s n p : Prop := aok (w_mem s) /\ nok (w_mem s) /\ phere (w_mem s) p /\
  forall c kd ord v W, access w p = Some (c, kd, ord) -> w_hist s c !! n = Some (v, W) -> vhere (w_mem s) v /\ (S n = length (w_hist s c) -> read_cell (w_mem s) c = Some v).

Lemma hist_alloc_bm m m' h h' c : (forall c, h' c = h c) -> hist_alloc (bm m) (bm m') h' c = hist_alloc m m' h c.
Proof. intros Hh. destruct c as [|l i]; simpl; [done|]. change (Mem _ _ _ _ _ _) with (bm m'). rewrite ptrs_bm. by destruct (decide _). Qed.
Lemma hist_write_cong h h' c x c' : (forall c, h' c = h c) -> hist_write h' c x c' = hist_write h c x c'.
Proof. intros Hh. destruct c, c'; simpl; rewrite ?Hh; try done. Qed.
Lemma pv_alloc_bm m m' pv : pv_alloc (bm m) (bm m') pv = pv_alloc m m' pv.
Proof. unfold pv_alloc. rewrite ptrs_bm. done. Qed.

Lemma wstep_bm s b o n spur a s' ev op p tv pv : wsim s b -> w_ops s !! o = Some (WOp (SRun op p) tv pv) -> touch_ok s n p -> wstep w s (WStep o n spur a) = Some (s', ev) ->
  exists b', wstep w b (WStep o n spur (N.pos (m_next (w_mem s)))) = Some (b', ev) /\ wsim s' b' /\ aok (w_mem s') /\ m_freed (w_mem s') = m_freed (w_mem s).
Proof.
  intros [Sm Sh So] Ho (Ha & Hn & Hp & Hr) H. cbn [wstep] in *. rewrite So, Sm. rewrite Ho in *.
  assert (forall op' tv' pv' ev', wsim (WState (w_mem s) (w_hist s) (<[o:=WOp op' tv' pv']> (w_ops s))) (WState (bm (w_mem s)) (w_hist b) (<[o:=WOp op' tv' pv']> (w_ops s))) /\ ev' = ev' :> list event) as Hsame by (intros; split; [by constructor|done]).
  destruct (access w p) as [[[c k] ord]|] eqn:Hacc.
  - destruct (negb (base_seen tv pv c)). { injection H as <- <-. eexists. split; [done|]. split; [by apply (Hsame _ _ _ [])|done]. }
    rewrite Sh. destruct (w_hist s c) as [|h0 h1] eqn:Eh. { injection H as <- <-. eexists. split; [done|]. split; [by apply (Hsame _ _ _ [])|done]. }
    rewrite <-Eh in *. clear h0 h1 Eh. destruct (w_hist s c !! n) as [[v W]|] eqn:Hh; [|done].
    destruct (Hr _ _ _ _ _ eq_refl Hh) as [Hv Hnew]. clear Hr. set (seen := write_cell (w_mem s) c v) in *.
    assert (aok seen) as Has by (by apply aok_write). assert (nok seen) as Hns by (by apply nok_write).
    assert (phere seen p) as Hps. { intros l b' Hx. apply here_write. by eapply Hp. }
    assert (rhere w seen p) as Hrs. { intros c' kd' ord' v' Ha' Hr' l E. rewrite Hacc in Ha'. injection Ha' as <- <- <-. apply read_write in Hr' as ->. apply here_write. by apply Hv. }
    rewrite bm_write. fold seen. rewrite (cas_wins_bm seen) by done. assert (m_next (w_mem s) = m_next seen) as Enx by (by destruct c).
    assert (forall tv' pv', w_local s o op tv' pv' seen p spur a = Some (s', ev) -> exists b', w_local b o op tv' pv' (bm seen) p spur (N.pos (m_next (w_mem s))) = Some (b', ev) /\ wsim s' b' /\ aok (w_mem s') /\ m_freed (w_mem s') = m_freed (w_mem s)) as Hloc.
    { intros tv' pv' Hx. unfold w_local in *. rewrite Enx. rewrite (see_step_bm tv' pv' seen p spur a) by (try done; by intros E; rewrite E in Hx). destruct (see_step tv' pv' seen p spur a) as [[[m1 nx] acts]|]; [|done].
      simpl. injection Hx as <- <-. rewrite Sm, So. eexists. split; [done|]. split; [by apply (Hsame _ _ _ [])|done]. }
    assert (S n = length (w_hist s c) -> rhere w (w_mem s) p) as Hrm. { intros En c' kd' ord' v' Ha' Hr'. rewrite Hacc in Ha'. injection Ha' as <- <- <-. rewrite (Hnew En) in Hr'. by injection Hr' as <-. }
    assert (S n = length (w_hist s c) -> (k = AFetch \/ k = ACas /\ cas_wins (w_mem s) p spur = true) -> forall tv' pv', w_write s o op tv' pv' c ord p spur a = Some (s', ev) ->
      exists b', w_write b o op tv' pv' c ord p spur (N.pos (m_next (w_mem s))) = Some (b', ev) /\ wsim s' b' /\ aok (w_mem s') /\ m_freed (w_mem s') = m_freed (w_mem s)) as Hwr.
    { intros En Hk tv' pv' Hx. unfold w_write in *. rewrite Sm. rewrite (see_step_bm tv' pv' (w_mem s) p spur a) by (first [done | by apply Hrm | by intros E; rewrite E in Hx]).
      destruct (see_step tv' pv' (w_mem s) p spur a) as [[[m1 nx] acts]|] eqn:Es; [|done]. cbn [bmap]. injection Hx as <- <-. rewrite pv_alloc_bm.
      assert (m_freed m1 = m_freed (w_mem s) /\ aok m1) as [Hfr Hao].
      { unfold see_step in Es.
        assert (op_step ∅ (w_mem s) p spur a = Some (m1, nx, acts) -> m_freed m1 = m_freed (w_mem s) /\ aok m1) as Hgo.
        { intros E. destruct Hk as [->|[-> Hw]].
          - eapply fetch_mem in E as ->; [|done|by apply Hnew]. split; [by destruct c|by apply aok_write].
          - pose proof (cas_mem _ _ _ _ _ _ _ _ _ _ Hacc Hw E) as Hsm. split; [rewrite (sm_freed _ _ Hsm); destruct (new_body p); by destruct c|]. eapply aok_same; [exact Hsm|].
            destruct (new_body p) as [bo|] eqn:Eb; [|by apply aok_write]. apply aok_write, aok_alloc; [done|done|]. destruct (addr_free (w_mem s) a) eqn:Ef; [done|]. exfalso.
            unfold cas_wins in Hw. destruct (cas_of p) as [[c0 e]|] eqn:Ec; [|done]. destruct (read_cell (w_mem s) c0) as [v0|] eqn:Er0; [|done].
            by rewrite (op_step_none_2 _ _ spur _ _ _ _ _ Ef Ec Er0 Eb) in E. }
        destruct (op_step ∅ (hide tv' pv' (w_mem s)) p spur a) as [[[m2 nx2] acts2]|] eqn:E2; [|by apply Hgo].
        destruct nx2 as [|?|[]]; try (by apply Hgo). by injection Es as <- _ _. }
      assert (read_cell (bm m1) c = read_cell m1 c) as Erd.
      { apply bm_read. intros l i ->. unfold freed. rewrite Hfr. destruct (acc_ptr p _ _ _ Hacc l false) as [b' Hb']; [by left|]. by apply (Hp l b'). }
      rewrite Erd. eexists. split; [done|]. split; [|done]. constructor; cbn [w_mem w_hist w_ops]; [done| |by rewrite So]. intros c'. apply hist_write_cong. intros c2. by apply hist_alloc_bm. }
    destruct k.
    + by apply Hloc.
    + by apply Hloc.
    + destruct (bool_decide (S n = length (w_hist s c))) eqn:En; [|done]. apply bool_decide_eq_true in En. apply Hwr; auto.
    + destruct (bool_decide (S n = length (w_hist s c))) eqn:En; cbn [andb] in *.
      * apply bool_decide_eq_true in En. rewrite (cas_wins_bm (w_mem s)) by (first [done | by apply Hrm]). destruct (cas_wins (w_mem s) p spur) eqn:Ew; [apply Hwr; auto|].
        destruct (cas_wins seen p spur); [done|]. by apply Hloc.
      * destruct (cas_wins seen p spur); [done|]. by apply Hloc.
  - unfold w_local in *. assert (rhere w (w_mem s) p) as Hrm by (intros c' kd' ord' v' Ha'; congruence).
    rewrite (see_step_bm tv pv (w_mem s) p spur a) by (try done; by intros E; rewrite E in H). destruct (see_step tv pv (w_mem s) p spur a) as [[[m1 nx] acts]|]; [|done].
    simpl. injection H as <- <-. rewrite Sm, So. eexists. split; [done|]. split; [by apply (Hsame _ _ _ [])|done].
Qed.

(** ** What a step registers, and what it allocates *)
Definition cas_new m p : sh := match new_body p with Some b => Sh (Some (m_next m)) false (isdata b) | None => cas_val p end.
Lemma cas_garb m p c ord spur a m' nx acts : access w p = Some (c, ACas, ord) -> cas_wins m p spur = true -> op_step ∅ m p spur a = Some (m', nx, acts) -> (forall f, nx <> NFail f) ->
  m_garb m' = m_garb m \/ exists e l k, cas_of p = Some (c, e) /\ sh_loc e = Some l /\ m_garb m' = (l, k, ∅) :: m_garb m /\
    match p with PCas _ _ _ _ _ => True | _ => sh_loc (cas_new m p) = None \/ sh_data (cas_new m p) = true end.
Proof.
  intros Hacc Hw H Hnf. unfold cas_wins in Hw. destruct p; cbn [access] in Hacc; try done; cbn [cas_of] in Hw.
  - injection Hacc as -> <-. cbn [op_step] in H. destruct (read_cell m c) as [now|]; [|done]. destruct (addr_free m a); [|done]. cbn [negb] in H. rewrite Hw in H. cbn [new_body].
    set (m1 := write_cell _ _ _) in H. assert (m_garb m1 = m_garb m) as E1 by (by destruct c). destruct kind as [| |result].
    + left. destruct new as [|[|p0 it]]; try (injection H as <- _ _; done). by apply t_finish_mem in H as ->.
    + left. by injection H as <- _ _.
    + destruct (sh_loc node) as [old|] eqn:El; [|injection H as _ <- _; by destruct (Hnf FUB)]. destruct (negb _); [injection H as _ <- _; by edestruct Hnf|].
      destruct new as [|it]; [injection H as _ <- _; by edestruct Hnf|]. right. exists node, old, KData. split; [done|]. split; [done|]. split; [|by right]. rewrite <-E1.
      destruct result as [r|]; [|destruct (t_mode t)].
      * destruct (t_mode t); by apply t_finish_mem in H as ->.
      * by apply t_finish_mem in H as ->.
      * destruct (it !! _); [by apply t_finish_mem in H as ->|injection H as _ <- _; by edestruct Hnf].
  - injection Hacc as -> <-. cbn [op_step] in H. destruct (read_cell m c) as [now|]; [|done]. rewrite andb_true_r in Hw.
    destruct ins as [u|sl]; [|destruct (addr_free m a); [|done]]; rewrite Hw in H; (destruct (sh_loc child) as [old|] eqn:El; [|injection H as _ <- _; by edestruct Hnf]);
      apply prune_return_mem in H as ->; right; exists child, old, KInner; (split; [done|]); (split; [done|]); (split; [by destruct c|done]).
  - injection Hacc as -> <-. cbn [op_step] in H. destruct (read_cell m c) as [now|]; [|done].
    destruct new as [|x new]; [|destruct (addr_free m a); [|done]]; rewrite Hw in H; (destruct (negb _); [injection H as _ <- _; by edestruct Hnf|]);
      (destruct (sh_loc node) as [old|] eqn:El; [|injection H as _ <- _; by edestruct Hnf]); apply rem_up_mem in H as ->; right; exists node, old, KData; (split; [done|]); (split; [done|]); (split; [by destruct c|]).
    + by left.
    + by right.
Qed.

Lemma prune_start_mem m k pa ch m' nx acts : prune_start m k pa ch = Some (m', nx, acts) -> m' = m.
Proof. unfold prune_start. destruct (sh_data ch); [by intros [= <- _ _]|]. destruct (is_null ch); by intros [= <- _ _]. Qed.
Lemma op_step_next m p spur a m' nx acts : op_step ∅ m p spur a = Some (m', nx, acts) -> m_next m' <> m_next m -> cas_wins m p spur = true.
Proof.
  intros H Hne. assert (forall M, M = m' -> m_next M = m_next m -> cas_wins m p spur = true) as Hx by (intros M -> E; done).
  unfold cas_wins. destruct p; cbn [op_step] in H; cbn [cas_of].
  - exfalso. apply Hne. repeat (first [by injection H as <- _ _|by apply prune_start_mem in H as ->|by apply t_finish_mem in H as ->|case_match]).
  - destruct (read_cell m cur) as [now|]; [|by injection H as <- _ _]. destruct (negb (addr_free m a)); [done|]. destruct (_ && _) eqn:E; [done|]. by injection H as <- _ _.
  - exfalso. apply Hne. destruct (sh_loc child) as [l|]; [|by injection H as <- _ _]. destruct (read_cell m (CSlot l i)); [|by injection H as <- _ _].
    destruct (if is_null _ then _ else _) as [f|[[ac' cnt'] last']]; [by injection H as <- _ _|]. destruct (S i <? LEVEL_CELLS); [by injection H as <- _ _|]. by apply prune_decide_mem in H as ->.
  - destruct (read_cell m parent) as [now|]; [|by injection H as <- _ _]. rewrite andb_true_r. destruct (sh_same m now child); [done|]. exfalso. apply Hne.
    destruct ins as [u|sl]; [|destruct (addr_free m a); [|done]]; repeat (first [by injection H as <- _ _|by apply prune_return_mem in H as ->|case_match]).
  - exfalso. apply Hne. repeat (first [by injection H as <- _ _|case_match]).
  - exfalso. apply Hne. repeat (first [by injection H as <- _ _|by apply prune_start_mem in H as ->|case_match]).
  - destruct (read_cell m cur) as [now|]; [|by injection H as <- _ _]. destruct (_ && _) eqn:E; [by destruct new, (addr_free m a)|]. exfalso. apply Hne.
    destruct new as [|x new]; [|destruct (addr_free m a); [|done]]; by injection H as <- _ _.
  - exfalso. apply Hne. repeat (first [by injection H as <- _ _|by apply prune_start_mem in H as ->|case_match]).
  - by injection H as <- _ _.
  - by injection H as <- _ _.
  - exfalso. apply Hne. repeat (first [by injection H as <- _ _|case_match]).
Qed.
End step.
