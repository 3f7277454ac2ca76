(** * Every step of a modifying operation that does not return is paid for by the potential. *)
From Verif Require Import Model Mem Inv Safe SafeStep SafeOps SafeSys SafeProps Spec LiveStep Lock.

Section lockstep.
Context {C : Config} (cost : nat) (P : list nat -> bool) (HP : pclosed P).
Implicit Types (m : mem) (pos : loc -> list nat) (c : cell) (v w : sh) (o : opid) (gs : gset opid) (p : pc).
Notation G := (G cost P). Notation phi := (phi cost). Notation lam := (lam cost). Notation ucr := (ucr cost).
Notation cU := (cU cost). Notation cD := (cD cost). Notation cS := (cS cost). Notation cM := (cM cost).
Local Opaque Lock.cU Lock.cD Lock.cS Lock.cM.

(** The deepest cell an operation is working at. *)
Definition pcell p : cell :=
  match p with
  | TLoad _ _ cur _ | TCas _ _ cur _ _ _ _ | RLoad _ _ _ cur _ | RCas _ _ _ cur _ _ _ _ => cur
  | PMark _ parent _ _ _ _ _ _ | PCas _ parent _ _ _ | RCount _ _ parent _ _ _ => parent
  | _ => CRoot
  end.

Definition pays pos m p pos' m' p' (spur : bool) : Prop :=
  (pos' = pos /\ coreq m m' /\ phi m' p' + 1 <= phi m p) \/
  (G pos' m' + cost + phi m' p' + 1 <= G pos m + phi m p) \/
  (spur = true /\ pos' = pos /\ coreq m m' /\ phi m' p' <= phi m p + 200).

Lemma fresh_now m c v : cval m c = Some v -> fresh m c v = true.
Proof. intros H. unfold fresh. rewrite H. unfold sh_same. by rewrite N.eqb_refl, !eqb_reflx. Qed.

Definition kcr (k : pcont) : nat := match k with KTrav _ => 0 | KRem _ _ => 18 * cU | KUp _ lv => length lv * cU end.

Lemma t_finish_run m t r acts m' p' acts' : t_finish m t r acts = Some (m', NRun p', acts') -> False.
Proof. unfold t_finish, panics, ok. destruct (t_mode t); [done|]. by destruct r. Qed.
Lemma rem_up_run m del lv m' p' acts : rem_up m del lv = Some (m', NRun p', acts) -> m' = m /\ phi m p' <= length lv * cU + 17.
Proof.
  unfold rem_up, panics, ok. destruct lv as [|[pa ch] rest]; [done|]. destruct (is_null ch); [done|]. intros [= <- <- _]. split; [done|]. unfold Lock.phi. simpl. lia.
Qed.
Lemma prune_return_run m k pr m' p' acts : prune_return m k pr = Some (m', NRun p', acts) -> m' = m /\ phi m p' <= kcr k + 84.
Proof.
  destruct k as [t|key h|del lv]; simpl; unfold ok.
  - intros [= <- <- _]. split; [done|]. unfold Lock.phi. simpl. lia.
  - intros [= <- <- _]. split; [done|]. unfold Lock.phi. simpl. lia.
  - intros H. assert (rem_up m del lv = Some (m', NRun p', acts)) as H' by (by destruct pr). apply rem_up_run in H' as [-> ?]. split; [done|lia].
Qed.
Lemma prune_start_run m k parent child m' p' acts : prune_start m k parent child = Some (m', NRun p', acts) ->
  m' = m /\ phi m p' = 18 + stale m (Some (parent, child)) + undoomed cost m child + kcr k.
Proof.
  unfold prune_start, panics, ok. destruct (sh_data child); [done|]. destruct (is_null child); [done|]. intros [= <- <- _]. split; [done|].
  unfold Lock.phi. destruct k; simpl; lia.
Qed.

Lemma lev_len pos m o lv cur : lev_ok pos m o lv cur -> length lv = length (cpos pos cur).
Proof.
  revert cur. induction lv as [|[p ch] rest IH]; intros cur; simpl; [by intros ->|].
  intros (Hlk & (l & i & -> & El) & Hrest). rewrite (IH _ Hrest). destruct Hlk as (_ & [Hp _] & _ & Hd & _).
  unfold ptr_ok in Hp. rewrite El, Hd in Hp. destruct Hp as (sl & _ & Hp). simpl. rewrite app_length, Hp. simpl. lia.
Qed.

(** What the three outcomes of [prune] release. *)
Section prune.
Context pos m o parent child new l gs (Hm : minv pos m) (Hlk : link_ok pos m o parent child) (Hc : cval m parent = Some child)
  (Hlen : length new = 16) (Hmk : marks_ok m child new) (Hl : sh_loc child = Some l) (HPp : P (cpos pos parent) = true).

Lemma prune_node : exists sl, hbody m l = Some (BInner sl) /\ doom sl = 1 /\ sum_list_with dw sl = sum_list_with dw new /\ length (pos l) = length (cpos pos parent) /\ length (cpos pos parent) < 16.
Proof.
  pose proof Hlk as (_ & [Hp _] & _ & Hd & _). unfold ptr_ok in Hp. rewrite Hl, Hd in Hp. destruct Hp as (sl & Hb & Hpos).
  pose proof (mi_slots _ _ Hm _ _ Hb) as [Hl16 Hlt]. exists sl. split; [done|].
  assert (forall i g, new !! i = Some g -> sl !! i = Some (recond g)) as Hs.
  { intros i g Hg. destruct (Hmk l i g Hl Hg) as [_ Hcv]. apply cval_slot in Hcv as (sl' & Hb' & Hi). congruence. }
  split; [|split; [|split; [by rewrite Hpos|by rewrite <-Hpos]]].
  - unfold doom. destruct new as [|g new'] eqn:En; [done|]. rewrite (existsb_lookup sh_cond sl 0 (recond g)); [done|by apply Hs|done].
  - assert (sl = recond <$> new) as ->.
    { apply list_eq. intros i. rewrite list_lookup_fmap. destruct (new !! i) as [g|] eqn:Eg; simpl; [by apply Hs|].
      apply lookup_ge_None. apply lookup_ge_None in Eg. unfold LEVEL_CELLS in *. lia. }
    clear. induction new as [|g n IH]; [done|]. cbn [fmap list_fmap sum_list_with]. f_equal. exact IH.
Qed.

Lemma prune_pay na w : swap_ok pos m na parent child w (Some (l, KInner, gs)) ->
  (na = None /\ (w = sh_null \/ exists i, new !! i = Some w /\ sh_data w = true)) \/ (exists a, na = Some (a, BInner new) /\ sh_data w = false) ->
  G (swap_pos pos m na parent) (swap m na parent w (Some (l, KInner, gs))) + cost + 400 <= G pos m.
Proof.
  intros Hs Hw. pose proof (G_swap cost P pos m na parent child w (Some (l, KInner, gs)) HP HPp Hm Hs) as HG. pose proof (c_facts cost) as (F1 & F2 & F3 & F4).
  destruct prune_node as (sl & Hb & Hdm & Hdw & Hpl & Hlt). unfold oldw in HG. rewrite Hb in HG. unfold slotw in HG. rewrite Hdm, Hdw, Hpl in HG.
  assert (cellw cost pos parent child = 0) as E0. { unfold cellw, dw. pose proof Hlk as (_ & _ & _ & -> & _). simpl. lia. } rewrite E0 in HG.
  set (e := length (cpos pos parent)) in *. pose proof (Nat.le_0_l (cM * sum_list_with uc sl)) as P1.
  destruct Hw as [[-> [->|(i & Hi & Hd)]]|(a & -> & Hd)].
  - assert (cellw cost pos parent sh_null = 0) as E1 by (unfold cellw; simpl; lia). rewrite E1 in HG. unfold neww in HG.
    pose proof (Nat.le_0_l (cM * sum_list_with uc sl)). pose proof (Nat.le_0_l (cS * (sum_list_with dw new * (15 - e)))). lia.
  - unfold neww, cellw in HG. fold e in HG. assert (dw w = 1) as Edw by (unfold dw; by rewrite Hd). rewrite Edw in HG.
    assert (1 <= sum_list_with dw new) as H1.
    { clear -Hi Edw. revert i Hi. induction new as [|g n IH]; intros [|i] Hi; simpl in *; [done|done|injection Hi as ->; lia|specialize (IH _ Hi); lia]. }
    assert (1 * (16 - e) = 1 + (15 - e)) as E1 by lia. rewrite E1 in HG.
    assert (15 - e <= sum_list_with dw new * (15 - e)) as H2 by nia.
    assert (cS * (1 + (15 - e)) <= cS + cS * (sum_list_with dw new * (15 - e))) as H3.
    { rewrite Nat.mul_add_distr_l, Nat.mul_1_r. apply Nat.add_le_mono_l. by apply Nat.mul_le_mono_l. }
    lia.
  - assert (cellw cost pos parent w = 0) as E1 by (unfold cellw, dw; rewrite Hd; simpl; lia). rewrite E1 in HG. unfold neww in HG. fold e in HG. unfold slotw in HG.
    assert (doom new = 0) as Hn0.
    { unfold doom. destruct (existsb sh_cond new) eqn:Ee; [|done]. apply existsb_exists in Ee as (g & Hg%elem_of_list_In & Hcg). apply elem_of_list_lookup in Hg as [i Hi].
      destruct (Hmk l i g Hl Hi). congruence. }
    rewrite Hn0 in HG. assert (sum_list_with uc new <= 16) as Hu.
    { rewrite <-Hlen. apply sum_le_len. intros x. unfold uc. destruct (sh_cond x); lia. }
    assert (cM * sum_list_with uc new <= 16 * cM) as Hu2 by (rewrite (Nat.mul_comm 16); by apply Nat.mul_le_mono_l).
    lia.
Qed.
End prune.

Theorem op_step_pay gs pos m o p spur a m' p' acts :
  minv pos m -> o ∈ gs -> esafe gs m -> pc_ok pos m o p -> upd p = true -> P (cpos pos (pcell p)) = true ->
  op_step gs m p spur a = Some (m', NRun p', acts) ->
  exists pos', mtr gs pos m pos' m' /\ pays pos m p pos' m' p' spur.
Proof.
  intros Hm Ho He Hpc Hup HPp Hst. pose proof (c_facts cost) as (F1 & F2 & F3 & F4).
  assert (forall p'', phi m p'' + 1 <= phi m p -> ok m (NRun p'') = Some (m', NRun p', acts) -> exists pos', mtr gs pos m pos' m' /\ pays pos m p pos' m' p' spur) as Hid.
  { intros p'' Hn [= <- <- <-]. exists pos. split; [constructor|]. left. split; [done|]. split; [apply coreq_refl|done]. }
  assert (forall p'' acts'', phi m p'' + 1 <= phi m p -> Some (m, NRun p'', acts'') = Some (m', NRun p', acts) -> exists pos', mtr gs pos m pos' m' /\ pays pos m p pos' m' p' spur) as Hid2.
  { intros p'' acts'' Hn [= <- <- <-]. exists pos. split; [constructor|]. left. split; [done|]. split; [apply coreq_refl|done]. }
  assert (forall c v, cok m o c -> cval m c = Some v -> vok pos m o (cpos pos c) v) as Hvok.
  { intros c v. by eapply vok_load. }
  destruct p as [t shift cur par|t shift cur par node new kind|k parent child i ac cnt last new|k parent child ins pr
    |k h cur|k h shift cur levels|k h shift cur levels node new del|del levels parent child i cnt| | |levels out]; try done; cbn [pcell] in HPp.
  - (* TLoad *)
    destruct Hpc as (Hc & Hsh & Hpar). destruct (cok_read _ _ _ _ Hm Hc) as (node & Hrd & Hcv). cbn [op_step] in Hst. rewrite Hrd in Hst.
    pose proof (Hvok _ _ Hc Hcv) as Hv. pose proof (cpos_len _ _ _ _ Hm Hcv) as Hcl.
    destruct (sh_cond node) eqn:Ecd.
    { destruct par as [[parent child]|]; [|done]. destruct Hpar as [_ (l & i & -> & El)].
      apply prune_start_run in Hst as [-> Hphi]. exists pos. split; [constructor|]. left. split; [done|]. split; [apply coreq_refl|].
      rewrite Hphi, (undoomed_cond cost m child l i node El Hcv Ecd). unfold Lock.phi. cbn [Lock.lam Lock.ucr kcr]. lia. }
    assert (forall t' b kd, phi m (TCas t' shift cur par node b kd) + 1 <= phi m (TLoad t shift cur par)) as Htc.
    { intros t' b kd. unfold Lock.phi. cbn [Lock.lam Lock.ucr]. rewrite (fresh_now m cur node Hcv). lia. }
    destruct (is_null node) eqn:Enl.
    { destruct (ts_payload (t_st t)) as [[pl st'] call]. eapply Hid2; [|exact Hst]. apply Htc. }
    destruct (sh_data node) eqn:Ed.
    { destruct (vok_data _ _ _ _ _ Hv Ed) as (tl & it & Etl & Hb & Hdr & Hld & Hlen). rewrite Hld in Hst.
      destruct it as [|d0 it']; [done|].
      destruct (negb (keqb (keyof d0) (ts_key (t_st t))) && (shift <? HASH_BITS)) eqn:Ecase.
      - destruct (negb (length (d0 :: it') =? 1)); [done|]. eapply Hid; [|exact Hst]. apply Htc.
      - rewrite Etl in Hst. destruct (find_ref _ tl _) as [r|].
        + destruct (t_mode t); [|by apply t_finish_run in Hst].
          destruct (ts_payload (t_st t)) as [[pl st'] call]. eapply Hid2; [|exact Hst]. apply Htc.
        + destruct (ts_payload (t_st t)) as [[pl st'] call]. eapply Hid2; [|exact Hst]. apply Htc. }
    unfold is_null in Enl. destruct (sh_loc node) as [l|] eqn:El; [|done].
    destruct (HASH_BITS <=? shift) eqn:Esh; [done|]. apply Nat.leb_gt in Esh. unfold HASH_BITS in Esh.
    eapply Hid; [|exact Hst]. unfold Lock.phi, LEVEL_BITS. cbn [Lock.lam Lock.ucr stale]. rewrite (fresh_now m cur node Hcv). lia.
  - (* TCas *)
    destruct Hpc as (Hc & Hsh & Hpar & Hv & Hnc & Htc). destruct (cok_read _ _ _ _ Hm Hc) as (now & Hrd & Hcv).
    cbn [op_step] in Hst. rewrite Hrd in Hst. destruct (addr_free m a) eqn:Eaf; [|done]. cbn [negb] in Hst.
    destruct (sh_same m now node) eqn:Esm; [destruct spur|]; cbn [negb andb] in Hst.
    + injection Hst as <- <- <-. exists pos. split; [apply mtr_tmp|]. right. right. split; [done|]. split; [done|]. split; [apply coreq_tmp|].
      rewrite (coreq_phi _ _ _ _ (coreq_tmp m _ _)). unfold Lock.phi. cbn [Lock.lam Lock.ucr]. pose proof (stale_le m par).
      destruct (fresh m cur node); lia.
    + pose proof (same_eq_vok _ _ _ _ _ _ _ Hm Hcv Hnc Hv Esm) as ->.
      destruct kind as [| |result].
      * destruct new as [?|[|p0 ?]]; [done|done|]. by apply t_finish_run in Hst.
      * destruct Htc as (nl & d0 & -> & Hb & -> & Hlen).
        set (i0 := bits (hashf (keyof d0)) (4 * length (cpos pos cur))) in *.
        pose proof (swap_split_ok pos m cur nl d0 a i0 Hm Hcv Hb Eaf Hlen (bits_lt _ _)) as Hs.
        injection Hst as <- <- <-. eexists. split; [by apply (mtr_swap gs pos m _ _ _ _ _ Hs)|]. right. left.
        pose proof (G_swap cost P _ _ _ _ _ _ _ HP HPp Hm Hs) as HG. unfold cellw, oldw, neww, slotw in HG.
        assert (empty_slots !! i0 = Some sh_null) as Hi0 by (apply lookup_replicate; split; [done|apply bits_lt]).
        assert (doom (<[i0:=Sh (Some nl) false true]> empty_slots) = 0) as E1.
        { unfold doom. by rewrite (existsb_insert sh_cond _ i0 sh_null). }
        pose proof (sum_insert uc empty_slots i0 sh_null (Sh (Some nl) false true) Hi0) as E2.
        pose proof (sum_insert dw empty_slots i0 sh_null (Sh (Some nl) false true) Hi0) as E3.
        change (sum_list_with uc empty_slots) with 16 in E2. change (sum_list_with dw empty_slots) with 0 in E3.
        change (uc sh_null) with 1 in E2. change (uc (Sh (Some nl) false true)) with 1 in E2.
        change (dw sh_null) with 0 in E3. change (dw (Sh (Some nl) false true)) with 1 in E3.
        assert (sum_list_with uc (<[i0:=Sh (Some nl) false true]> empty_slots) = 16) as E2' by lia.
        assert (sum_list_with dw (<[i0:=Sh (Some nl) false true]> empty_slots) = 1) as E3' by lia.
        rewrite E1, E2', E3' in HG. unfold dw in HG. cbn [sh_data] in HG.
        assert (1 * (16 - length (cpos pos cur)) = 1 + 1 * (15 - length (cpos pos cur))) as E4 by lia. rewrite E4 in HG.
        rewrite (Nat.mul_add_distr_l cS 1) in HG.
        unfold Lock.phi. cbn [Lock.lam Lock.ucr]. rewrite (Nat.mul_comm cM 16) in HG.
        match goal with |- context [stale ?x par] => pose proof (stale_le x par) end.
        change (write_cell (alloc m a (BInner (<[i0:=Sh (Some nl) false true]> empty_slots))) cur (Sh (Some (m_next m)) false false)) with
          (swap m (Some (a, BInner (<[i0:=Sh (Some nl) false true]> empty_slots))) cur (Sh (Some (m_next m)) false false) None) in *.
        lia.
      * destruct (sh_loc node); [|done]. destruct (negb (sh_data node)); [done|]. destruct new as [?|it]; [done|].
        destruct result as [r|]; [by apply t_finish_run in Hst|]. destruct (t_mode t); [by apply t_finish_run in Hst|].
        destruct (it !! _); [by apply t_finish_run in Hst|done].
    + injection Hst as <- <- <-. exists pos. split; [apply mtr_tmp|]. left. split; [done|]. split; [apply coreq_tmp|].
      rewrite (coreq_phi _ _ _ _ (coreq_tmp m _ _)). unfold Lock.phi. cbn [Lock.lam Lock.ucr].
      assert (fresh m cur node = false) as -> by (unfold fresh; by rewrite Hcv). lia.
  - (* PMark *)
    destruct Hpc as (Hlk & Hk & Hi & Hlen & Hmk & Hsum). pose proof Hlk as (_ & Hvc & Hcd & Hdt & [l El]).
    destruct (vok_inner _ _ _ _ _ _ Hvc Hdt El) as (sl & Hb & Hpos & Hpr).
    assert (cok m o (CSlot l i)) as Hck by (by eapply cok_slot).
    destruct (cok_read _ _ _ _ Hm Hck) as (v & Hrd & Hcv). cbn [op_step] in Hst. rewrite El, Hrd in Hst.
    destruct (minv_mark _ _ _ _ _ Hm Hcv) as [Hm1 Hext]. set (m1 := write_cell m (CSlot l i) (recond v)) in *.
    assert (mtr gs pos m pos m1) as Hmt by (by apply mtr_mark).
    assert (m' = m1 /\ ucr p' = ucr (PMark k parent child i ac cnt last new) /\ undoomed cost m1 child = 0 /\ lam m1 p' <= (17 - i) + stale m1 (Some (parent, child))) as (-> & Hucr & Hun & Hlam).
    { assert (undoomed cost m1 child = 0) as Hun.
      { eapply (undoomed_cond cost m1 child l i (recond v)); [done| |done]. unfold m1. by rewrite (cval_write_eq m _ _ v). }
      match type of Hst with match ?r with _ => _ end = _ => destruct r as [f|[[ac' cnt'] last']] end; [done|].
      destruct (S i <? LEVEL_CELLS).
      - injection Hst as <- <- <-. split; [done|]. split; [done|]. split; [done|]. cbn [Lock.lam]. rewrite Hun. lia.
      - unfold prune_decide in Hst. destruct (sh_cond child || sh_data child); [done|]. injection Hst as <- <- <-. split; [done|].
        split; [done|]. split; [done|]. cbn [Lock.lam]. lia. }
    exists pos. split; [done|]. unfold pays, Lock.phi at 1 2 3 4. rewrite Hucr. cbn [Lock.lam].
    destruct (sh_cond v) eqn:Ecv.
    + assert (coreq m m1) as Hco.
      { split; [done|]. split; [|done]. unfold m1. simpl. apply hbody_heap in Hb as [al Hh]. apply map_eq. intros x.
        destruct (decide (x = l)) as [->|Hx]; [|by rewrite lookup_alter_ne]. rewrite lookup_alter, Hh. simpl. unfold set_slot. simpl. do 2 f_equal.
        rewrite list_insert_id; [done|]. apply cval_slot in Hcv as (sl' & Hb' & Hi'). unfold hbody in Hb'. rewrite Hh in Hb'. simpl in Hb'.
        replace (recond v) with v by (destruct v; simpl in *; by subst). congruence. }
      left. split; [done|]. split; [done|]. rewrite (coreq_stale _ _ _ Hco) in Hlam. lia.
    + right. left. destruct (G_mark cost P _ _ _ _ _ ltac:(rewrite Hpos; exact HPp) Hm Hcv Ecv) as (sl' & Hb' & HG). fold m1 in HG. assert (sl' = sl) as -> by congruence.
      assert (undoomed cost m child = cD * (1 - doom sl)) as Hud by (unfold undoomed; by rewrite El, Hb). rewrite Hud.
      assert (stale m1 (Some (parent, child)) = stale m (Some (parent, child))) as Hst2.
      { simpl. unfold fresh. assert (parent <> CSlot l i) as Hne.
        { intros ->. pose proof Hlk as (_ & _ & _ & _ & _). simpl in Hpos. apply (f_equal length) in Hpos. rewrite app_length in Hpos. simpl in Hpos. lia. }
        assert (cval m1 parent = cval m parent) as Hcp.
        { unfold m1. rewrite (cval_mark m l i v parent Hcv). by rewrite decide_False. }
        rewrite Hcp. destruct (cval m parent) as [now|]; [|done]. f_equal. unfold sh_same, paddr. unfold m1. simpl.
        assert (forall x : loc, (match alter (set_slot i (recond v)) l (m_heap m) !! x with Some ob => ho_addr ob | None => 0%N end) = match m_heap m !! x with Some ob => ho_addr ob | None => 0%N end) as Hal.
        { intros x. destruct (decide (x = l)) as [->|Hx]; [|by rewrite lookup_alter_ne]. rewrite lookup_alter. destruct (m_heap m !! l) as [ob|]; [|done]. simpl.
          unfold set_slot. by destruct (ho_body ob). }
        destruct (sh_loc now), (sh_loc child); rewrite ?Hal; done. }
      rewrite Hst2 in Hlam. lia.
  - (* PCas *)
    destruct Hpc as (Hlk & Hk & new & Hlen & Hmk & Hch). pose proof Hlk as (Hcp & Hvc & Hcd & Hdt & [l El]).
    destruct (cok_read _ _ _ _ Hm Hcp) as (now & Hrd & Hcv). cbn [op_step] in Hst. rewrite Hrd in Hst.
    pose proof (choose_outcome _ _ _ _ _ _ _ Hm Hmk El Hch) as Hoc.
    assert (ucr (PCas k parent child ins pr) = kcr k) as Hucr by (by destruct k).
    assert (forall na w pr', swap_ok pos m na parent child w (Some (l, KInner, gs)) ->
      G (swap_pos pos m na parent) (swap m na parent w (Some (l, KInner, gs))) + cost + 400 <= G pos m ->
      prune_return (swap m na parent w (Some (l, KInner, gs))) k pr' = Some (m', NRun p', acts) ->
      exists pos', mtr gs pos m pos' m' /\ pays pos m (PCas k parent child ins pr) pos' m' p' spur) as Hret2.
    { intros na w pr' Hs HG Hr. apply prune_return_run in Hr as [-> Hphi]. eexists. split; [eapply mtr_swap; [exact Hs|naive_solver]|].
      right. left. unfold Lock.phi at 2. rewrite Hucr. lia. }
    assert (sh_same m now child = false -> forall m1, coreq m m1 -> mtr gs pos m pos m1 -> prune_return m1 k PRCasFail = Some (m', NRun p', acts) ->
      exists pos', mtr gs pos m pos' m' /\ pays pos m (PCas k parent child ins pr) pos' m' p' spur) as Hret.
    { intros Esm m1 Hco Hmt Hr. apply prune_return_run in Hr as [-> Hphi]. exists pos. split; [done|]. left. split; [done|]. split; [done|].
      unfold Lock.phi at 2. rewrite Hucr. cbn [Lock.lam stale]. assert (fresh m parent child = false) as -> by (unfold fresh; by rewrite Hcv). lia. }
    destruct (sh_same m now child) eqn:Esm.
    + pose proof (same_eq_vok _ _ _ _ _ _ _ Hm Hcv Hcd Hvc Esm) as ->. rewrite El in Hst.
      destruct Hoc as [Hall|i leaf t p Hi Ht Hd Hb Hoth|_ _].
      * assert (swap_ok pos m None parent child sh_null (Some (l, KInner, gs))) as Hs by (by eapply swap_null_ok).
        eapply (Hret2 None sh_null); [exact Hs|eapply prune_pay; try done; left; split; [done|by left]|]. destruct (addr_free m a); exact Hst.
      * assert (swap_ok pos m None parent child leaf (Some (l, KInner, gs))) as Hs by (by eapply swap_leaf_ok).
        eapply (Hret2 None leaf); [exact Hs|eapply prune_pay; try done; left; split; [done|right; eauto]|]. destruct (addr_free m a); exact Hst.
      * destruct (addr_free m a) eqn:Eaf; [|done].
        assert (swap_ok pos m (Some (a, BInner new)) parent child (Sh (Some (m_next m)) false false) (Some (l, KInner, gs))) as Hs by (by eapply swap_copy_ok).
        eapply (Hret2 (Some (a, BInner new))); [exact Hs|eapply prune_pay; try done; right; eauto|]. exact Hst.
    + destruct Hoc as [Hall|i leaf t p Hi Ht Hd Hb Hoth|_ _].
      * eapply (Hret eq_refl m); [apply coreq_refl|constructor|]. destruct (addr_free m a); exact Hst.
      * eapply (Hret eq_refl m); [apply coreq_refl|constructor|]. destruct (addr_free m a); exact Hst.
      * destruct (addr_free m a) eqn:Eaf; [|done]. eapply (Hret eq_refl); [apply coreq_tmp|apply mtr_tmp|exact Hst].
  - (* RLoad *)
    destruct Hpc as (Hc & Hsh & Hlev). destruct (cok_read _ _ _ _ Hm Hc) as (node & Hrd & Hcv). cbn [op_step] in Hst. rewrite Hrd in Hst.
    destruct (is_null node) eqn:Enl; [done|].
    destruct (sh_cond node) eqn:Ecd.
    { destruct levels as [|[parent child] rest]; [done|]. destruct Hlev as (_ & (l & i & -> & El) & _).
      apply prune_start_run in Hst as [-> Hphi]. exists pos. split; [constructor|]. left. split; [done|]. split; [apply coreq_refl|].
      rewrite Hphi, (undoomed_cond cost m child l i node El Hcv Ecd). unfold Lock.phi. cbn [Lock.lam Lock.ucr kcr head]. lia. }
    unfold is_null in Enl. destruct (sh_loc node) as [l|] eqn:El; [|done]. destruct (sh_data node) eqn:Ed.
    { destruct (load_data m node) as [?|it]; [done|]. destruct (find_last k 0 it None) as [[i p]|]; [|done].
      eapply Hid; [|exact Hst]. unfold Lock.phi. cbn [Lock.lam Lock.ucr]. rewrite (fresh_now m cur node Hcv). lia. }
    destruct (MAX_LEVELS <=? length levels); [done|]. destruct (HASH_BITS <=? shift) eqn:Esh; [done|]. apply Nat.leb_gt in Esh. unfold HASH_BITS in Esh.
    eapply Hid; [|exact Hst]. unfold Lock.phi, LEVEL_BITS. cbn [Lock.lam Lock.ucr stale head]. rewrite (fresh_now m cur node Hcv). lia.
  - (* RCas *)
    destruct Hpc as (Hc & Hsh & Hlev & nl & it & -> & Hv & Hb & -> & Hdel & Hdl & Hdk). destruct (cok_read _ _ _ _ Hm Hc) as (now & Hrd & Hcv).
    cbn [op_step] in Hst. rewrite Hrd in Hst.
    assert (vok pos m o (cpos pos cur) (Sh (Some nl) false true)) as Hv' by done.
    destruct (vok_data _ _ _ _ _ Hv' eq_refl) as (tl & it' & Etl & Hb' & _ & _ & Hlen). simpl in Etl. injection Etl as <-.
    assert (it' = it) as -> by congruence. set (node := Sh (Some nl) false true) in *.
    pose proof (lev_len _ _ _ _ _ Hlev) as Hll. pose proof (cpos_len _ _ _ _ Hm Hcv) as Hcl.
    assert (forall na w, swap_ok pos m na cur node w (Some (nl, KData, gs)) -> (forall x b, na = Some (x, b) -> exists i', b = BData i') ->
      rem_up (swap m na cur w (Some (nl, KData, gs))) del levels = Some (m', NRun p', acts) -> exists pos', mtr gs pos m pos' m' /\ pays pos m (RCas k h shift cur levels node (others k it) del) pos' m' p' spur) as Hfin.
    { intros na w Hs Hna Hr. apply rem_up_run in Hr as [-> Hphi]. eexists. split; [eapply mtr_swap; [exact Hs|naive_solver]|]. right. left.
      pose proof (G_swap cost P _ _ _ _ _ _ _ HP HPp Hm Hs) as HG. unfold oldw in HG. rewrite Hb in HG.
      assert (neww cost pos na cur = 0) as En. { unfold neww. destruct na as [[x b]|]; [|done]. by destruct (Hna x b eq_refl) as [i' ->]. } rewrite En in HG.
      assert (cellw cost pos cur w <= cellw cost pos cur node) as Hcw.
      { unfold cellw. apply Nat.mul_le_mono_l, Nat.mul_le_mono_r. unfold dw, node. simpl. destruct (sh_data w); lia. }
      unfold Lock.phi at 2. cbn [Lock.ucr]. assert (length levels * cU <= 16 * cU) as H16 by (apply Nat.mul_le_mono_r; lia). lia. }
    destruct (sh_same m now node) eqn:Esm.
    + pose proof (same_eq_vok pos m o _ cur now node Hm Hcv eq_refl Hv' Esm) as ->. destruct spur; cbn [negb andb] in Hst.
      * assert (exists b, m' = b /\ coreq m b /\ mtr gs pos m pos b /\ p' = RLoad k h shift cur levels) as (b & -> & Hco & Hmt & ->).
        { destruct (others k it) as [|q qs].
          - destruct (addr_free m a); injection Hst as <- <- <-; exists m; (split; [done|]); (split; [apply coreq_refl|]); (split; [constructor|done]).
          - destruct (addr_free m a); [|done]. injection Hst as <- <- <-. eexists. split; [done|]. split; [apply coreq_tmp|]. split; [apply mtr_tmp|done]. }
        exists pos. split; [done|]. right. right. split; [done|]. split; [done|]. split; [done|]. rewrite (coreq_phi _ _ _ _ Hco).
        unfold Lock.phi. cbn [Lock.lam Lock.ucr]. pose proof (stale_le m (head levels)). destruct (fresh m cur node); lia.
      * cbn [sh_data sh_loc negb node] in Hst. destruct (others k it) as [|q qs] eqn:Eo.
        -- eapply (Hfin None); [by eapply swap_del_ok|done|]. destruct (addr_free m a); exact Hst.
        -- destruct (addr_free m a) eqn:Eaf; [|done]. eapply (Hfin (Some (a, BData (q :: qs)))); [|naive_solver|exact Hst].
           eapply swap_rep_ok; try done. destruct Hlen as [Hlen|]; [|by right]. left.
           pose proof (others_length k it) as Hol. rewrite Eo in Hol. simpl in *. lia.
    + cbn [andb] in Hst. assert (exists b, m' = b /\ coreq m b /\ mtr gs pos m pos b /\ p' = RLoad k h shift cur levels) as (b & -> & Hco & Hmt & ->).
      { destruct (others k it) as [|q qs].
        - destruct (addr_free m a); injection Hst as <- <- <-; exists m; (split; [done|]); (split; [apply coreq_refl|]); (split; [constructor|done]).
        - destruct (addr_free m a); [|done]. injection Hst as <- <- <-. eexists. split; [done|]. split; [apply coreq_tmp|]. split; [apply mtr_tmp|done]. }
      exists pos. split; [done|]. left. split; [done|]. split; [done|]. rewrite (coreq_phi _ _ _ _ Hco).
      unfold Lock.phi. cbn [Lock.lam Lock.ucr]. assert (fresh m cur node = false) as -> by (unfold fresh; by rewrite Hcv). lia.
  - (* RCount *)
    destruct Hpc as (Hlk & Hk & Hi). cbn [op_step] in Hst. destruct (sh_loc child) as [l|]; [|done]. destruct (read_cell m (CSlot l i)) as [v|]; [|done].
    destruct (S i <? LEVEL_CELLS) eqn:Elt.
    { eapply Hid; [|exact Hst]. unfold Lock.phi. cbn [Lock.lam Lock.ucr]. lia. }
    destruct (1 <? _); [done|]. apply prune_start_run in Hst as [-> Hphi]. exists pos. split; [constructor|]. left. split; [done|]. split; [apply coreq_refl|].
    rewrite Hphi. unfold Lock.phi. cbn [Lock.lam Lock.ucr kcr]. pose proof (stale_le m (Some (parent, child))). pose proof (undoomed_le cost m child).
    rewrite Nat.mul_succ_l. lia.
Qed.
End lockstep.
