(** * A potential function for the modifying operations.
    Every step of a modifying operation that does not return (and is not a spurious failure of a compare-and-set) decreases the potential of the whole system. *)
From Verif Require Import Model Mem Inv Safe SafeStep SafeOps SafeSys SafeProps Spec LiveStep.

(** ** Sums over finite maps *)
Section msum.
Context {A : Type}.
Implicit Types (f g : loc -> A -> nat) (h : gmap loc A).
Definition msum f h : nat := sum_list_with (fun x => f x.1 x.2) (map_to_list h).
Lemma sum_perm {B} (w : B -> nat) l1 l2 : l1 ≡ₚ l2 -> sum_list_with w l1 = sum_list_with w l2.
Proof. induction 1; simpl; lia. Qed.
Lemma msum_insert f h l x : h !! l = None -> msum f (<[l := x]> h) = f l x + msum f h.
Proof. intros H. unfold msum. rewrite (sum_perm _ _ _ (map_to_list_insert h l x H)). done. Qed.
Lemma msum_ind f g h : (forall l x, h !! l = Some x -> f l x = g l x) -> msum f h = msum g h.
Proof.
  intros H. unfold msum. assert (forall y, y ∈ map_to_list h -> f y.1 y.2 = g y.1 y.2) as Hin by (intros [l x] Hy; by apply H, elem_of_map_to_list).
  revert Hin. generalize (map_to_list h). intros l. induction l as [|y l IH]; intros Hin; simpl; [done|]. rewrite IH by (intros; apply Hin; by right). rewrite Hin by (by left). done.
Qed.
Lemma msum_le f g h : (forall l x, h !! l = Some x -> f l x <= g l x) -> msum f h <= msum g h.
Proof.
  intros H. unfold msum. assert (forall y, y ∈ map_to_list h -> f y.1 y.2 <= g y.1 y.2) as Hin by (intros [l x] Hy; by apply H, elem_of_map_to_list).
  revert Hin. generalize (map_to_list h). intros l. induction l as [|y l IH]; intros Hin; simpl; [done|]. specialize (IH ltac:(intros; apply Hin; by right)). specialize (Hin y ltac:(by left)). lia.
Qed.
Lemma msum_add f g h : msum (fun l x => f l x + g l x) h = msum f h + msum g h.
Proof. unfold msum. induction (map_to_list h) as [|y l IH]; simpl; [done|]. rewrite IH. lia. Qed.
Lemma msum_mul c f h : msum (fun l x => c * f l x) h = c * msum f h.
Proof. unfold msum. induction (map_to_list h) as [|y l IH]; simpl; [lia|]. rewrite IH. lia. Qed.
Lemma msum_delete f h l x : h !! l = Some x -> msum f h = f l x + msum f (delete l h).
Proof. intros H. rewrite <-(insert_delete h l x H) at 1. apply msum_insert. apply lookup_delete. Qed.
Lemma msum_update f h l x y : h !! l = Some x -> msum f (<[l := y]> h) + f l x = msum f h + f l y.
Proof.
  intros H. rewrite (msum_delete f h l x H). rewrite (msum_delete f (<[l := y]> h) l y) by apply lookup_insert. rewrite delete_insert_delete. lia.
Qed.
Lemma msum_change f g h l x : h !! l = Some x -> (forall l' x', h !! l' = Some x' -> l' <> l -> f l' x' = g l' x') -> msum f h + g l x = msum g h + f l x.
Proof.
  intros H Hne. rewrite (msum_delete f h l x H), (msum_delete g h l x H). rewrite (msum_ind f g (delete l h)); [lia|].
  intros l' x' [Hl' Hx']%lookup_delete_Some. by apply Hne.
Qed.
End msum.

Section lists.
Context {A : Type}.
Lemma sum_insert (w : A -> nat) l i x y : l !! i = Some x -> sum_list_with w (<[i := y]> l) + w x = sum_list_with w l + w y.
Proof.
  revert i. induction l as [|z l IH]; intros [|i] H; simpl in *; try done; [injection H as ->; lia|]. specialize (IH _ H). lia.
Qed.
Lemma existsb_insert (p : A -> bool) l i x y : l !! i = Some x -> p x = p y -> existsb p (<[i := y]> l) = existsb p l.
Proof. revert i. induction l as [|z l IH]; intros [|i] H E; simpl in *; try done; [injection H as ->; by rewrite E|]. by rewrite (IH _ H E). Qed.
Lemma existsb_lookup (p : A -> bool) l i x : l !! i = Some x -> p x = true -> existsb p l = true.
Proof. intros H E. apply existsb_exists. exists x. split; [|done]. apply elem_of_list_In. by eapply elem_of_list_lookup_2. Qed.
Lemma sum_le_len (w : A -> nat) l : (forall x, w x <= 1) -> sum_list_with w l <= length l.
Proof. intros H. induction l as [|z l IH]; simpl; [done|]. specialize (H z). lia. Qed.
Lemma sum_zero_all (w : A -> nat) l : (forall x, x ∈ l -> w x = 0) -> sum_list_with w l = 0.
Proof. induction l as [|z l IH]; intros H; simpl; [done|]. rewrite (H z) by (by left). apply IH. intros x Hx. apply H. by right. Qed.
End lists.

Section lock.
Context {C : Config}.
Implicit Types (m : mem) (pos : loc -> list nat) (c : cell) (v w : sh) (o : opid) (gs : gset opid) (p : pc).

(** [cost]: what one change of the trie may cost the other operations.  [P]: the positions that count. *)
Context (cost : nat) (P : list nat -> bool).
Definition pclosed : Prop := forall q i, P (q ++ [i]) = true -> P q = true.
Definition cM : nat := cost + 1.
Definition cS : nat := 16 * cM + cost + 400.
Definition cD : nat := 16 * cM + cS + cost + 400.
Definition cU : nat := cD + cost + 400.
Lemma c_facts : cost < cM /\ 16 * cM + cost + 400 <= cS /\ 16 * cM + cS + cost + 400 <= cD /\ cD + cost + 400 <= cU.
Proof. unfold cU, cD, cS, cM. lia. Qed.
Local Opaque cM cS cD cU.

(** ** The potential of the trie
    Condemned nodes that are still linked, pointers that are not condemned yet, and how far leaves can still move down. *)
Definition dw v : nat := if sh_data v then 1 else 0.
Definition uc v : nat := if sh_cond v then 0 else 1.
Definition doom (sl : list sh) : nat := if existsb sh_cond sl then 1 else 0.
Definition slotw (d : nat) (sl : list sh) : nat := cD * doom sl + cM * sum_list_with uc sl + cS * (sum_list_with dw sl * (15 - d)).
Definition nodew pos m (l : loc) (ob : hobj) : nat :=
  match ho_body ob with BInner sl => if decide (dead m l) then 0 else if P (pos l) then slotw (length (pos l)) sl else 0 | BData _ => 0 end.
Definition cellw pos c v : nat := cS * (dw v * (16 - length (cpos pos c))).
Definition G pos m : nat := cellw pos CRoot (m_root m) + msum (nodew pos m) (m_heap m).

Definition oldw pos m (old : option (loc * dkind * gset opid)) : nat :=
  match old with Some (l, _, _) => match hbody m l with Some (BInner sl) => slotw (length (pos l)) sl | _ => 0 end | None => 0 end.
Definition neww pos (na : option (N * body)) cur : nat :=
  match na with Some (_, BInner sl) => slotw (length (cpos pos cur)) sl | _ => 0 end.

Lemma G_swap pos m na cur v w old : pclosed -> P (cpos pos cur) = true -> minv pos m -> swap_ok pos m na cur v w old ->
  G (swap_pos pos m na cur) (swap m na cur w old) + cellw pos cur v + oldw pos m old = G pos m + cellw pos cur w + neww pos na cur.
Proof.
  intros HP HPc Hm Hs. pose proof (sw_cur _ _ _ _ _ _ _ Hs) as Hc. pose proof (sw_unc _ _ _ _ _ _ _ Hs) as Hu. pose proof (sw_w _ _ _ _ _ _ _ Hs) as Hw.
  set (pos' := swap_pos pos m na cur). set (m' := swap m na cur w old).
  assert (forall l, is_Some (m_heap m !! l) -> pos' l = pos l) as Hpos.
  { intros l Hl. unfold pos', swap_pos. destruct na; [|done]. rewrite decide_False; [done|]. intros ->. apply (mi_fresh _ _ Hm) in Hl. lia. }
  assert (forall l, dead m' l <-> dead m l \/ exists k g, old = Some (l, k, g)) as Hdead by (intros l; apply (swap_dead Hm Hs)).
  set (h1 := match na with Some (a, b) => <[m_next m := HObj a b]> (m_heap m) | None => m_heap m end).
  assert (m_heap m !! m_next m = None) as Hnext.
  { destruct (m_heap m !! m_next m) eqn:E; [|done]. pose proof (mi_fresh _ _ Hm (m_next m) ltac:(eauto)). lia. }
  (* the retired node *)
  assert (msum (nodew pos' m') (m_heap m) + oldw pos m old = msum (nodew pos m) (m_heap m)) as H1.
  { destruct old as [[[lo k] g]|] eqn:Eo; unfold oldw.
    - destruct (swap_old_hb Hm Hs lo k g eq_refl) as (b & Hb & Hnd). apply hbody_heap in Hb as [ao Hh].
      pose proof (msum_change (nodew pos' m') (nodew pos m) (m_heap m) lo _ Hh) as Hch.
      assert (nodew pos' m' lo (HObj ao b) = 0) as E0.
      { unfold nodew. simpl. destruct b; [|done]. rewrite decide_True; [done|]. apply Hdead. right. eauto. }
      assert (nodew pos m lo (HObj ao b) = match hbody m lo with Some (BInner sl) => slotw (length (pos lo)) sl | _ => 0 end) as E1.
      { unfold hbody. rewrite Hh. unfold nodew. simpl. destruct b as [slo|]; [|done]. rewrite decide_False by done.
        assert (pos lo = cpos pos cur) as ->; [|by rewrite HPc]. pose proof (sw_old _ _ _ _ _ _ _ Hs) as (Hlo & _ & _). simpl in Hlo.
        pose proof (mi_ptr _ _ Hm _ _ Hc) as Hptr. unfold ptr_ok in Hptr. rewrite Hlo in Hptr. unfold hbody in Hptr. rewrite Hh in Hptr. simpl in Hptr.
        destruct (sh_data v); [by destruct Hptr as (? & ? & _)|]. by destruct Hptr as (? & _ & ?). }
      rewrite E0, <-E1 in *. rewrite Hch; [lia|]. intros l' x' Hl' Hne. unfold nodew. rewrite (Hpos l') by eauto. destruct (ho_body x'); [|done].
      destruct (decide (dead m l')) as [Hd|Hd], (decide (dead m' l')) as [Hd'|Hd']; try done; exfalso.
      + apply Hd'. apply Hdead. by left.
      + apply Hdead in Hd' as [?|(? & ? & ?)]; [done|]. congruence.
    - rewrite Nat.add_0_r. apply msum_ind. intros l x Hl. unfold nodew. rewrite (Hpos l) by eauto. destruct (ho_body x); [|done].
      destruct (decide (dead m l)) as [Hd|Hd], (decide (dead m' l)) as [Hd'|Hd']; try done; exfalso.
      + apply Hd'. apply Hdead. by left.
      + apply Hdead in Hd' as [?|(? & ? & ?)]; done. }
  (* the new node *)
  assert (msum (nodew pos' m') h1 = msum (nodew pos' m') (m_heap m) + neww pos na cur) as H2.
  { unfold h1, neww. destruct na as [[a b]|] eqn:En; [|lia]. rewrite msum_insert by done. unfold nodew at 1. simpl. destruct b as [sl|it]; [|lia].
    rewrite decide_False.
    - unfold pos', swap_pos. rewrite decide_True by done. rewrite HPc. lia.
    - intros [Hd|(k & g & ->)]%Hdead; [by apply (next_not_dead _ _ Hm)|]. destruct (swap_old_hb Hm Hs _ k g eq_refl) as (b & Hb & _). by rewrite (next_fresh _ _ Hm) in Hb. }
  (* the cell *)
  assert (m_heap m' = match cur with CRoot => h1 | CSlot l i => alter (set_slot i w) l h1 end) as Hheap.
  { unfold m', swap, h1. destruct old as [[[? ?] ?]|], na as [[? ?]|], cur; done. }
  assert (m_root m' = match cur with CRoot => w | CSlot l i => m_root m end) as Hroot.
  { unfold m', swap. destruct old as [[[? ?] ?]|], na as [[? ?]|], cur; done. }
  unfold G. rewrite Hheap, Hroot. destruct cur as [|l i].
  - simpl in Hc. injection Hc as ->. assert (cellw pos' CRoot w = cellw pos CRoot w) as -> by done. lia.
  - apply cval_slot in Hc as (sl & Hb & Hi). apply hbody_heap in Hb as [al Hh].
    assert (l <> m_next m) as Hne by congruence.
    assert (h1 !! l = Some (HObj al (BInner sl))) as Hh1 by (unfold h1; destruct na as [[a b]|]; [by rewrite lookup_insert_ne|done]).
    assert (alter (set_slot i w) l h1 = <[l := HObj al (BInner (<[i := w]> sl))]> h1) as ->.
    { apply map_eq. intros x. destruct (decide (x = l)) as [->|Hx].
      - rewrite lookup_alter, Hh1, lookup_insert. done.
      - by rewrite lookup_alter_ne, lookup_insert_ne. }
    pose proof (msum_update (nodew pos' m') h1 l _ (HObj al (BInner (<[i := w]> sl))) Hh1) as Hup.
    assert (~ dead m' l) as Hnd.
    { intros [Hd|(k & g & Eo)]%Hdead; [by apply (swap_cur_live Hm Hs)|]. by apply (swap_old_ne Hm Hs _ k g i Eo). }
    assert (nodew pos' m' l (HObj al (BInner (<[i := w]> sl))) + cellw pos (CSlot l i) v = nodew pos' m' l (HObj al (BInner sl)) + cellw pos (CSlot l i) w) as Hw2.
    { unfold nodew. simpl. rewrite !decide_False by done. rewrite (Hpos l) by eauto. rewrite (HP _ _ HPc). unfold slotw, doom. rewrite (existsb_insert sh_cond sl i v w) by (done || congruence).
      pose proof (sum_insert uc sl i v w Hi) as U. assert (uc v = uc w) as Euc by (unfold uc; by rewrite Hu, Hw). rewrite Euc in U. assert (sum_list_with uc (<[i:=w]> sl) = sum_list_with uc sl) as -> by lia.
      pose proof (sum_insert dw sl i v w Hi) as D. unfold cellw. simpl. rewrite app_length. simpl.
      assert (16 - (length (pos l) + 1) = 15 - length (pos l)) as -> by lia. generalize (15 - length (pos l)). intros e.
      assert (sum_list_with dw (<[i:=w]> sl) * e + dw v * e = sum_list_with dw sl * e + dw w * e) as D2 by (rewrite <-!Nat.mul_add_distr_r; by rewrite D).
      assert (cS * (sum_list_with dw (<[i:=w]> sl) * e) + cS * (dw v * e) = cS * (sum_list_with dw sl * e) + cS * (dw w * e)) as D3 by (rewrite <-!Nat.mul_add_distr_l; by rewrite D2).
      lia. }
    assert (cellw pos' CRoot (m_root m) = cellw pos CRoot (m_root m)) as -> by done. lia.
Qed.

(** Condemning a pointer. *)
Lemma G_mark pos m l i v : P (pos l) = true -> minv pos m -> cval m (CSlot l i) = Some v -> sh_cond v = false ->
  exists sl, hbody m l = Some (BInner sl) /\ G pos (write_cell m (CSlot l i) (recond v)) + cM <= G pos m + cD * (1 - doom sl).
Proof.
  intros HPl Hm Hc Hu. pose proof (uncond_live _ _ _ _ Hm Hc Hu) as Hlive. apply cval_slot in Hc as (sl & Hb & Hi). exists sl. split; [done|].
  apply hbody_heap in Hb as [al Hh]. set (m' := write_cell m (CSlot l i) (recond v)).
  assert (m_heap m' = <[l := HObj al (BInner (<[i := recond v]> sl))]> (m_heap m)) as Hheap.
  { unfold m'. simpl. apply map_eq. intros x. destruct (decide (x = l)) as [->|Hx].
    - rewrite lookup_alter, Hh, lookup_insert. done.
    - by rewrite lookup_alter_ne, lookup_insert_ne. }
  unfold G. rewrite Hheap. change (m_root m') with (m_root m).
  rewrite (msum_ind (nodew pos m') (nodew pos m)) by done.
  pose proof (msum_update (nodew pos m) (m_heap m) l _ (HObj al (BInner (<[i := recond v]> sl))) Hh) as Hup.
  assert (~ dead m l) as Hnd by exact Hlive.
  assert (nodew pos m l (HObj al (BInner (<[i := recond v]> sl))) + cM <= nodew pos m l (HObj al (BInner sl)) + cD * (1 - doom sl)) as Hw; [|lia].
  unfold nodew. simpl. rewrite !decide_False by done. rewrite HPl. unfold slotw.
  pose proof (sum_insert uc sl i v (recond v) Hi) as U. pose proof (sum_insert dw sl i v (recond v) Hi) as D.
  assert (dw (recond v) = dw v) as Ed by done. rewrite Ed in D. assert (sum_list_with dw (<[i:=recond v]> sl) = sum_list_with dw sl) as -> by lia.
  assert (uc (recond v) = 0) as E1 by done. assert (uc v = 1) as E2 by (unfold uc; by rewrite Hu). rewrite E1, E2 in U.
  assert (sum_list_with uc sl = S (sum_list_with uc (<[i:=recond v]> sl))) as -> by lia.
  assert (doom (<[i:=recond v]> sl) = 1) as ->.
  { unfold doom. rewrite (existsb_lookup sh_cond _ i (recond v)); [done| |done]. apply list_lookup_insert. by eapply lookup_lt_Some. }
  unfold doom. destruct (existsb sh_cond sl); simpl; lia.
Qed.

(** Two memories that differ only in what has been freed. *)
Definition coreq m m' : Prop := m_root m' = m_root m /\ m_heap m' = m_heap m /\ forall l, dead m' l <-> dead m l.
Lemma coreq_refl m : coreq m m.
Proof. done. Qed.
Lemma coreq_tmp m b k : coreq m (drop_tmp m b k).
Proof. done. Qed.
Lemma coreq_cval m m' c : coreq m m' -> cval m' c = cval m c.
Proof. intros (H1 & H2 & _). destruct c; simpl; [by rewrite H1|]. unfold hbody. by rewrite H2. Qed.
Lemma coreq_G pos m m' : coreq m m' -> G pos m' = G pos m.
Proof.
  intros (H1 & H2 & H3). unfold G. rewrite H1, H2. f_equal. apply msum_ind. intros l x _. unfold nodew. destruct (ho_body x); [|done].
  destruct (decide (dead m' l)) as [Hd|Hd], (decide (dead m l)) as [Hd'|Hd']; try done; exfalso; naive_solver.
Qed.
Lemma coreq_same m m' v w : coreq m m' -> sh_same m' v w = sh_same m v w.
Proof. intros (_ & H & _). unfold sh_same, paddr. by rewrite H. Qed.

(** ** The potential of a running operation *)
Definition fresh m c v : bool := match cval m c with Some now => sh_same m now v | None => false end.
Definition stale m (par : option (cell * sh)) : nat := match par with Some (c, v) => if fresh m c v then 0 else 90 | None => 0 end.
Definition undoomed m v : nat :=
  match sh_loc v with Some l => match hbody m l with Some (BInner sl) => cD * (1 - doom sl) | _ => 0 end | None => 0 end.
Definition lam m p : nat :=
  match p with
  | TLoad t shift cur par => 20 + (64 - shift) + stale m par
  | TCas t shift cur par node new kind => if fresh m cur node then 1 else 21 + (64 - shift) + stale m par
  | PMark k parent child i ac cnt last new => (18 - i) + stale m (Some (parent, child)) + undoomed m child
  | PCas k parent child ins pr => 1 + stale m (Some (parent, child))
  | RLoad k h shift cur levels => 20 + (64 - shift) + stale m (head levels)
  | RCas k h shift cur levels node new del => if fresh m cur node then 1 else 21 + (64 - shift) + stale m (head levels)
  | RCount del levels parent child i cnt => 17 - i
  | _ => 0
  end.
Definition ucr p : nat :=
  match p with
  | RLoad _ _ _ _ _ | RCas _ _ _ _ _ _ _ _ | PMark (KRem _ _) _ _ _ _ _ _ _ | PCas (KRem _ _) _ _ _ _ => 18 * cU
  | PMark (KUp _ lv) _ _ _ _ _ _ _ | PCas (KUp _ lv) _ _ _ _ => length lv * cU
  | RCount _ lv _ _ _ _ => S (length lv) * cU
  | _ => 0
  end.
Definition phi m p : nat := lam m p + ucr p.

(** The program points of the modifying operations. *)
Definition upd p : bool := match p with GLoad _ _ _ | ELoad | INew | INext _ _ => false | _ => true end.

Lemma coreq_fresh m m' c v : coreq m m' -> fresh m' c v = fresh m c v.
Proof. intros H. unfold fresh. rewrite (coreq_cval _ _ _ H). destruct (cval m c); [|done]. by apply coreq_same. Qed.
Lemma coreq_stale m m' par : coreq m m' -> stale m' par = stale m par.
Proof. intros H. destruct par as [[c v]|]; [|done]. simpl. by rewrite (coreq_fresh _ _ _ _ H). Qed.
Lemma coreq_phi m m' p : coreq m m' -> phi m' p = phi m p.
Proof.
  intros H. unfold phi. f_equal. destruct p; simpl; rewrite ?(coreq_fresh _ _ _ _ H), ?(coreq_stale _ _ _ H); try done.
  f_equal. unfold undoomed, hbody. destruct H as (_ & -> & _). done.
Qed.
Lemma stale_le m par : stale m par <= 90.
Proof. destruct par as [[c v]|]; simpl; [destruct (fresh m c v)|]; lia. Qed.
Lemma undoomed_le m v : undoomed m v <= cD.
Proof. unfold undoomed. destruct (sh_loc v) as [l|]; [|lia]. destruct (hbody m l) as [[sl|]|]; [|lia|lia]. unfold doom. destruct (existsb _ _); lia. Qed.
Lemma undoomed_cond m v l i w : sh_loc v = Some l -> cval m (CSlot l i) = Some w -> sh_cond w = true -> undoomed m v = 0.
Proof.
  intros Hl (sl & Hb & Hi)%cval_slot Hw. unfold undoomed. rewrite Hl, Hb. unfold doom. rewrite (existsb_lookup sh_cond sl i w) by done. simpl. lia.
Qed.
Lemma undoomed_ext pos m pos' m' v sl : ext pos m pos' m' -> (forall l, sh_loc v = Some l -> hbody m l = Some (BInner sl)) -> undoomed m' v <= undoomed m v.
Proof.
  intros Hext Hb. destruct (sh_loc v) as [l|] eqn:El; [|unfold undoomed; rewrite El; lia]. specialize (Hb l eq_refl).
  destruct (existsb sh_cond sl) eqn:Ee.
  - apply existsb_exists in Ee as (w & Hw%elem_of_list_In & Hcd). apply elem_of_list_lookup in Hw as [i Hi].
    assert (cval m (CSlot l i) = Some w) as Hc by (apply cval_slot; eauto).
    rewrite (undoomed_cond m' v l i w El); [lia| |done]. by eapply ext_cond.
  - assert (undoomed m v = cD) as ->; [|apply undoomed_le]. unfold undoomed. rewrite El, Hb. unfold doom. rewrite Ee. simpl. lia.
Qed.

(** Whatever another operation does costs an operation at most 200. *)
Lemma phi_stable gs pos m pos' m' o p : minv pos m -> mtr gs pos m pos' m' -> pc_ok pos m o p -> phi m' p <= phi m p + 200.
Proof.
  intros Hm Ht Hpc. pose proof (mtr_ext _ _ _ _ _ Hm Ht) as Hext. unfold phi. cut (lam m' p <= lam m p + 200); [lia|].
  destruct p; simpl.
  - pose proof (stale_le m' par). lia.
  - pose proof (stale_le m' par). destruct (fresh m' cur node), (fresh m cur node); lia.
  - assert (undoomed m' child <= undoomed m child) as Hu.
    { destruct Hpc as ((_ & [Hp _] & _ & Hd & [l El]) & _). unfold ptr_ok in Hp. rewrite El, Hd in Hp. destruct Hp as (sl & Hb & _).
      eapply undoomed_ext; [exact Hext|]. intros l' El'. replace l' with l by congruence. exact Hb. }
    destruct (fresh m' parent child), (fresh m parent child); lia.
  - destruct (fresh m' parent child), (fresh m parent child); lia.
  - lia.
  - pose proof (stale_le m' (head levels)). simpl in *. lia.
  - pose proof (stale_le m' (head levels)). destruct (fresh m' cur node), (fresh m cur node); simpl in *; lia.
  - lia.
  - lia.
  - lia.
  - lia.
Qed.
End lock.
