(** * The structural invariant of the shared memory, and its preservation by every kind of update.
    Nothing here needs the contracts of Eq/Hash: memory safety does not depend on them. *)
From Verif Require Import Model Mem.

(** What the user code is known to do.  [tame]: [Eq], [Hash], [Clone], ... are functions (the machine of Model.v); otherwise
    their answers may be anything (Wild.v).  [placed]: data nodes with several elements occur only at the deepest level;
    this can fail only if comparing the same two things twice gives two answers. *)
Class Flavor := { tame : bool; placed : bool }.

Section inv.
Context {C : Config} {Fl : Flavor}.
Implicit Types (m : mem) (pos : loc -> list nat) (c : cell) (v w : sh).

(** The position of a cell: the hash nibbles that lead there.  [pos] gives the position of inner nodes. *)
Definition cpos pos c : list nat := match c with CRoot => [] | CSlot l i => pos l ++ [i] end.

(** May a data node with these elements be at this position? *)
Definition placement (it : list Pl) (p : list nat) : Prop := if placed then length it = 1 \/ length p = 16 else True.
Lemma placement_one it p : length it = 1 -> placement it p.
Proof. intros H. unfold placement. destruct placed; [by left|done]. Qed.

(** A well-formed pointer for a cell at position [p]. *)
Definition ptr_ok pos m (p : list nat) v : Prop :=
  match sh_loc v with
  | None => sh_data v = false
  | Some t =>
    if sh_data v then exists it, hbody m t = Some (BData it) /\ placement it p
    else exists sl, hbody m t = Some (BInner sl) /\ pos t = p
  end.

Definition kind_of (b : body) : dkind := match b with BInner _ => KInner | BData _ => KData end.

Record minv pos m : Prop := MInv {
  mi_fresh : forall l, is_Some (m_heap m !! l) -> (l < m_next m)%positive;
  mi_root : sh_cond (m_root m) = false;
  mi_slots : forall l sl, hbody m l = Some (BInner sl) -> length sl = 16 /\ length (pos l) < 16;
  mi_data : forall l it, hbody m l = Some (BData it) -> it <> [];
  mi_ptr : forall c v, cval m c = Some v -> ptr_ok pos m (cpos pos c) v;
  mi_deadcond : forall l i v, dead m l -> cval m (CSlot l i) = Some v -> sh_cond v = true;
  mi_link : forall l b, hbody m l = Some b -> ~ dead m l ->
            exists c v, cval m c = Some v /\ cell_live m c /\ sh_loc v = Some l;
  mi_live : forall c v l, cval m c = Some v -> cell_live m c -> sh_loc v = Some l -> ~ dead m l;
  mi_uniq : forall c v c' v' l, cval m c = Some v -> cval m c' = Some v' -> cell_live m c -> cell_live m c' ->
            sh_loc v = Some l -> sh_loc v' = Some l -> c = c';
  mi_nodup : NoDup (garb_locs m ++ (m_freed m).*1);
  mi_heap : forall l, dead m l -> is_Some (m_heap m !! l);
  mi_kind : forall l k g, (l, k, g) ∈ m_garb m -> exists b, hbody m l = Some b /\ k = kind_of b;
  mi_addr : forall l l' o o', m_heap m !! l = Some o -> m_heap m !! l' = Some o' ->
            l ∉ (m_freed m).*1 -> l' ∉ (m_freed m).*1 -> ho_addr o = ho_addr o' -> l = l';
  mi_nz : forall l o, m_heap m !! l = Some o -> l ∉ (m_freed m).*1 -> ho_addr o <> 0%N;
}.

Lemma minv0 pos : minv pos mem0.
Proof.
  assert (forall l, hbody mem0 l = None) as E by (intros l; unfold hbody; simpl; by rewrite lookup_empty).
  assert (forall c v, cval mem0 c = Some v -> v = sh_null) as E2.
  { intros [|l i] v; simpl; [by intros [= <-]|]. by rewrite E. }
  assert (forall l, ~ dead mem0 l) as E3.
  { intros l [H|H]; by apply elem_of_nil in H. }
  split.
  - intros l [x Hx]. simpl in Hx. by rewrite lookup_empty in Hx.
  - done.
  - intros l sl H. by rewrite E in H.
  - intros l sl H. by rewrite E in H.
  - intros c v H. rewrite (E2 c v H). done.
  - intros l i v Hd. by apply E3 in Hd.
  - intros l b H. by rewrite E in H.
  - intros c v l _ _ _. apply E3.
  - intros c v c' v' l H _ _ _ Hl. rewrite (E2 _ _ H) in Hl. done.
  - apply NoDup_nil_2.
  - intros l Hd. by apply E3 in Hd.
  - intros l k g H. by apply elem_of_nil in H.
  - intros l l' o o' H. simpl in H. by rewrite lookup_empty in H.
  - intros l o H. simpl in H. by rewrite lookup_empty in H.
Qed.

Lemma cell_live_dec m c : cell_live m c \/ exists l i, c = CSlot l i /\ dead m l.
Proof.
  destruct c as [|l i]; [by left|]. destruct (decide (dead m l)); [right; eauto|by left].
Qed.

Lemma uncond_live pos m c v : minv pos m -> cval m c = Some v -> sh_cond v = false -> cell_live m c.
Proof.
  intros Hm Hc Hv. destruct (cell_live_dec m c) as [|(l & i & -> & Hd)]; [done|].
  rewrite (mi_deadcond _ _ Hm _ _ _ Hd Hc) in Hv. done.
Qed.

Lemma hbody_heap m l b : hbody m l = Some b <-> exists a, m_heap m !! l = Some (HObj a b).
Proof.
  unfold hbody. destruct (m_heap m !! l) as [[a b']|]; simpl; split; [| |done|by intros [? ?]].
  - intros [= ->]. eauto.
  - intros [a' [= -> ->]]. done.
Qed.

Lemma hbody_is_Some m l : is_Some (hbody m l) <-> is_Some (m_heap m !! l).
Proof. unfold hbody. by rewrite fmap_is_Some. Qed.

Lemma next_fresh pos m : minv pos m -> hbody m (m_next m) = None.
Proof.
  intros Hm. destruct (hbody m (m_next m)) eqn:E; [|done]. exfalso.
  assert (m_next m < m_next m)%positive; [|lia]. apply (mi_fresh _ _ Hm). apply hbody_is_Some. eauto.
Qed.

Lemma next_not_dead pos m : minv pos m -> ~ dead m (m_next m).
Proof.
  intros Hm Hd. apply (mi_heap _ _ Hm) in Hd. apply (mi_fresh _ _ Hm) in Hd. lia.
Qed.

Lemma cval_slot m l i v : cval m (CSlot l i) = Some v <-> exists sl, hbody m l = Some (BInner sl) /\ sl !! i = Some v.
Proof.
  simpl. destruct (hbody m l) as [[sl|it]|] eqn:E; split; try done; try (intros (? & ? & ?); congruence).
  eauto.
Qed.

Lemma cval_slot_idx pos m l i v : minv pos m -> cval m (CSlot l i) = Some v -> i < 16.
Proof.
  intros Hm (sl & Hb & Hi)%cval_slot. apply lookup_lt_Some in Hi.
  by rewrite (proj1 (mi_slots _ _ Hm _ _ Hb)) in Hi.
Qed.

Lemma slot_cval pos m l sl i : minv pos m -> hbody m l = Some (BInner sl) -> i < 16 -> exists v, cval m (CSlot l i) = Some v /\ sl !! i = Some v.
Proof.
  intros Hm Hb Hi. destruct (mi_slots _ _ Hm _ _ Hb) as [Hl _].
  destruct (lookup_lt_is_Some_2 sl i) as [v Hv]; [lia|]. exists v. split; [|done]. apply cval_slot. eauto.
Qed.

Lemma cpos_len pos m c v : minv pos m -> cval m c = Some v -> length (cpos pos c) <= 16.
Proof.
  intros Hm. destruct c as [|l i]; simpl; [lia|]. fold (cval m (CSlot l i)). intros (sl & Hb & _)%cval_slot.
  destruct (mi_slots _ _ Hm _ _ Hb). rewrite app_length. simpl. lia.
Qed.

Lemma cpos_len_inner pos m p v t : minv pos m -> ptr_ok pos m p v -> sh_data v = false -> sh_loc v = Some t -> length p < 16.
Proof.
  intros Hm Hp Hd Ht. unfold ptr_ok in Hp. rewrite Ht, Hd in Hp. destruct Hp as (sl & Hb & <-).
  by apply (mi_slots _ _ Hm) in Hb as [_ ?].
Qed.

(** Live cells are determined by their positions. *)
Lemma inner_parent pos m l sl : minv pos m -> hbody m l = Some (BInner sl) -> ~ dead m l ->
  exists c v, cval m c = Some v /\ cell_live m c /\ sh_loc v = Some l /\ sh_data v = false /\ cpos pos c = pos l.
Proof.
  intros Hm Hb Hd. destruct (mi_link _ _ Hm _ _ Hb Hd) as (c & v & Hc & Hl & Hv).
  exists c, v. pose proof (mi_ptr _ _ Hm _ _ Hc) as Hp. unfold ptr_ok in Hp. rewrite Hv in Hp.
  destruct (sh_data v); [destruct Hp as (? & ? & _); congruence|]. destruct Hp as (? & ? & ?). auto.
Qed.

Lemma live_cpos_inj pos m c c' v v' : minv pos m -> cval m c = Some v -> cval m c' = Some v' ->
  cell_live m c -> cell_live m c' -> cpos pos c = cpos pos c' -> c = c'.
Proof.
  intros Hm. remember (length (cpos pos c)) as n eqn:En. revert c c' v v' En.
  induction n as [n IH] using lt_wf_ind. intros c c' v v' -> Hc Hc' Hl Hl' E.
  destruct c as [|l i], c' as [|l' i']; simpl in E; [done|by destruct (pos l')|by destruct (pos l)|].
  apply app_inj_tail in E as [E <-]. f_equal.
  apply cval_slot in Hc as (sl & Hb & Hi). apply cval_slot in Hc' as (sl' & Hb' & Hi').
  destruct (inner_parent _ _ _ _ Hm Hb Hl) as (d & u & Hd & Hdl & Hu & _ & Ed).
  destruct (inner_parent _ _ _ _ Hm Hb' Hl') as (d' & u' & Hd' & Hdl' & Hu' & _ & Ed').
  assert (d = d') as <-.
  { eapply (IH (length (cpos pos d))); [|done|exact Hd|exact Hd'|done|done|congruence].
    simpl. rewrite Ed, app_length. simpl. lia. }
  congruence.
Qed.

(** ** Growth of memory over time *)
Definition ext pos m pos' m' : Prop :=
  forall l b, hbody m l = Some b ->
    pos' l = pos l /\
    match b with
    | BData it => hbody m' l = Some (BData it)
    | BInner sl => exists sl', hbody m' l = Some (BInner sl') /\ length sl' = length sl /\
                   forall i v, sl !! i = Some v -> sh_cond v = true -> sl' !! i = Some v
    end.

Lemma ext_refl pos m : ext pos m pos m.
Proof. intros l [sl|it] H; split; eauto. Qed.

Lemma ext_trans pos m pos' m' pos'' m'' : ext pos m pos' m' -> ext pos' m' pos'' m'' -> ext pos m pos'' m''.
Proof.
  intros H1 H2 l [sl|it] Hb; destruct (H1 _ _ Hb) as [E1 H1'].
  - destruct H1' as (sl' & Hb' & L1 & F1). destruct (H2 _ _ Hb') as (E2 & sl'' & Hb'' & L2 & F2).
    split; [congruence|]. exists sl''. split; [done|]. split; [congruence|]. eauto.
  - destruct (H2 _ _ H1') as [E2 H2']. split; [congruence|done].
Qed.

Lemma ext_data pos m pos' m' l it : ext pos m pos' m' -> hbody m l = Some (BData it) -> hbody m' l = Some (BData it).
Proof. intros H Hb. by apply (H _ _ Hb). Qed.

Lemma ext_inner pos m pos' m' l sl : ext pos m pos' m' -> hbody m l = Some (BInner sl) -> exists sl', hbody m' l = Some (BInner sl').
Proof. intros H Hb. destruct (H _ _ Hb) as (_ & sl' & ? & _). eauto. Qed.

Lemma ext_pos pos m pos' m' l b : ext pos m pos' m' -> hbody m l = Some b -> pos' l = pos l.
Proof. intros H Hb. by apply (H _ _ Hb). Qed.

Lemma ext_cpos pos m pos' m' c v : ext pos m pos' m' -> cval m c = Some v -> cpos pos' c = cpos pos c.
Proof.
  intros H. destruct c as [|l i]; [done|]. intros (sl & Hb & _)%cval_slot. simpl. f_equal. by eapply ext_pos.
Qed.

Lemma ext_cond pos m pos' m' l i v : ext pos m pos' m' -> cval m (CSlot l i) = Some v -> sh_cond v = true -> cval m' (CSlot l i) = Some v.
Proof.
  intros H (sl & Hb & Hi)%cval_slot Hv. destruct (H _ _ Hb) as (_ & sl' & Hb' & _ & F). apply cval_slot. eauto.
Qed.

Lemma ext_cval pos m pos' m' c v : ext pos m pos' m' -> cval m c = Some v -> exists v', cval m' c = Some v'.
Proof.
  intros H. destruct c as [|l i]; [simpl; eauto|]. intros (sl & Hb & Hi)%cval_slot.
  destruct (H _ _ Hb) as (_ & sl' & Hb' & Hl & _). apply lookup_lt_Some in Hi. rewrite <-Hl in Hi.
  apply lookup_lt_is_Some_2 in Hi as [v' Hv']. exists v'. apply cval_slot. eauto.
Qed.

Lemma ptr_ok_ext pos m pos' m' p v : ext pos m pos' m' -> ptr_ok pos m p v -> ptr_ok pos' m' p v.
Proof.
  intros H. unfold ptr_ok. destruct (sh_loc v) as [t|]; [|done]. destruct (sh_data v).
  - intros (it & Hb & Hl). exists it. split; [by eapply ext_data|done].
  - intros (sl & Hb & Hp). destruct (ext_inner _ _ _ _ _ _ H Hb) as [sl' Hb']. exists sl'. split; [done|].
    rewrite <-Hp. by eapply ext_pos.
Qed.

Lemma ptr_ok_uncond pos m p v : ptr_ok pos m p (uncond v) <-> ptr_ok pos m p v.
Proof. done. Qed.
Lemma ptr_ok_recond pos m p v : ptr_ok pos m p (recond v) <-> ptr_ok pos m p v.
Proof. done. Qed.

(** ** Updates that do not touch the trie *)
Lemma minv_drop_tmp pos m b k : minv pos m -> minv pos (drop_tmp m b k).
Proof. intros []. split; assumption. Qed.

(** ** The collector frees a retired node *)
Lemma delete_garb n (g : list (loc * dkind * gset opid)) x : g !! n = Some x -> g ≡ₚ x :: delete n g.
Proof. intros H. by apply delete_Permutation. Qed.

Definition mem_free m n l k : mem :=
  Mem (m_root m) (m_heap m) (delete n (m_garb m)) ((l, k) :: m_freed m) (m_tmp m) (m_next m).

Lemma garb_free m n l k g : m_garb m !! n = Some (l, k, g) -> garb_locs m ≡ₚ l :: garb_locs (mem_free m n l k).
Proof.
  intros Hn. unfold garb_locs. simpl.
  pose proof (fmap_Permutation (fun g : loc * dkind * gset opid => g.1.1) _ _ (delete_Permutation (m_garb m) n (l, k, g) Hn)) as HP.
  exact HP.
Qed.

Lemma dead_free m n l k g x : m_garb m !! n = Some (l, k, g) -> dead (mem_free m n l k) x <-> dead m x.
Proof.
  intros Hn. unfold dead. rewrite (garb_free m n l k g Hn). simpl. rewrite !elem_of_cons. tauto.
Qed.

Lemma live_free m n l k g x : m_garb m !! n = Some (l, k, g) -> cell_live (mem_free m n l k) x <-> cell_live m x.
Proof. intros Hn. destruct x as [|y i]; simpl; [done|]. by rewrite dead_free. Qed.

Lemma minv_free pos m n l k g : minv pos m -> m_garb m !! n = Some (l, k, g) -> minv pos (mem_free m n l k).
Proof.
  intros Hm Hn. pose proof (fun x => dead_free m n l k g x Hn) as D. pose proof (fun x => live_free m n l k g x Hn) as L.
  assert (forall x, hbody (mem_free m n l k) x = hbody m x) as B by done.
  assert (forall x, cval (mem_free m n l k) x = cval m x) as V by (by intros []).
  destruct Hm. split.
  - assumption.
  - assumption.
  - assumption.
  - assumption.
  - intros c v Hc. rewrite V in Hc. by apply mi_ptr0.
  - intros x i v Hx. rewrite V. apply mi_deadcond0. by apply D.
  - intros x b Hb Hd. rewrite D in Hd. destruct (mi_link0 x b Hb Hd) as (c & v & ? & ? & ?). exists c, v.
    rewrite V, L. done.
  - intros c v x. rewrite V, L, D. apply mi_live0.
  - intros c v c' v' x. rewrite !V, !L. apply mi_uniq0.
  - rewrite (garb_free m n l k g Hn) in mi_nodup0. simpl. rewrite <-Permutation_middle. done.
  - intros x. rewrite D. apply mi_heap0.
  - intros x k' g' Hx. simpl in Hx. apply (mi_kind0 x k' g'). 
    apply elem_of_list_lookup in Hx as [j Hj].
    apply elem_of_list_lookup. destruct (decide (j < n)).
    + exists j. by rewrite lookup_delete_lt in Hj.
    + exists (S j). rewrite lookup_delete_ge in Hj by lia. done.
  - simpl. intros x x' o o' Ho Ho' Hf Hf'. apply mi_addr0; [done|done| |]; intros ?; [apply Hf|apply Hf']; by right.
  - simpl. intros x o Ho Hf. apply (mi_nz0 x); [done|]. intros ?; apply Hf; by right.
Qed.

(** ** Condemning a slot *)
Lemma cval_mark m l i v c : cval m (CSlot l i) = Some v ->
  cval (write_cell m (CSlot l i) (recond v)) c = if decide (c = CSlot l i) then Some (recond v) else cval m c.
Proof.
  intros Hc. destruct (decide (c = CSlot l i)) as [->|]; [by eapply cval_write_eq|by rewrite cval_write_ne].
Qed.

Lemma cval_mark_inv m l i v c u : cval m (CSlot l i) = Some v -> cval (write_cell m (CSlot l i) (recond v)) c = Some u ->
  exists u0, cval m c = Some u0 /\ sh_loc u = sh_loc u0 /\ sh_data u = sh_data u0 /\ (sh_cond u0 = true -> u = u0) /\
             (c <> CSlot l i -> u = u0).
Proof.
  intros Hc. rewrite cval_mark by done. destruct (decide (c = CSlot l i)) as [->|].
  - intros [= <-]. exists v. repeat split; [done| |done]. destruct v; simpl; intros ->; done.
  - intros H. exists u. done.
Qed.

Lemma minv_mark pos m l i v : minv pos m -> cval m (CSlot l i) = Some v ->
  minv pos (write_cell m (CSlot l i) (recond v)) /\ ext pos m pos (write_cell m (CSlot l i) (recond v)).
Proof.
  intros Hm Hc. set (m' := write_cell m (CSlot l i) (recond v)).
  assert (ext pos m pos m') as Hext.
  { intros x b Hb. split; [done|]. destruct b as [sl|it]; [|by apply hbody_write_data].
    unfold m'. rewrite hbody_write. destruct (decide (l = x)) as [<-|]; [|eauto]. rewrite Hb.
    eexists; split; [done|]. split; [apply insert_length|]. intros j u Hj Hu.
    destruct (decide (i = j)) as [<-|]; [|by rewrite list_lookup_insert_ne].
    rewrite list_lookup_insert by (by eapply lookup_lt_Some). f_equal.
    apply cval_slot in Hc as (sl' & ? & ?). assert (u = v) as -> by congruence. destruct v; simpl in *; by subst. }
  split; [|done].
  assert (forall x, dead m' x <-> dead m x) as D by done.
  assert (forall x, cell_live m' x <-> cell_live m x) as L by (by intros []).
  assert (forall x, is_Some (m_heap m' !! x) <-> is_Some (m_heap m !! x)) as HH.
  { intros x. simpl. destruct (decide (l = x)) as [<-|]; [|by rewrite lookup_alter_ne]. rewrite lookup_alter, fmap_is_Some. done. }
  pose proof (fun c u => cval_mark_inv m l i v c u Hc) as V. fold m' in V.
  assert (forall c u, cval m c = Some u -> exists u', cval m' c = Some u' /\ sh_loc u' = sh_loc u) as V2.
  { intros c u Hu. unfold m'. rewrite cval_mark by done. destruct (decide (c = CSlot l i)) as [->|]; [|eauto].
    simplify_eq. eexists; split; [done|done]. }
  assert (forall x o, m_heap m' !! x = Some o -> exists o', m_heap m !! x = Some o' /\ ho_addr o' = ho_addr o) as A.
  { intros x o. simpl. destruct (decide (l = x)) as [<-|]; [|rewrite lookup_alter_ne by done; eauto].
    rewrite lookup_alter. destruct (m_heap m !! l) as [o'|]; simpl; [|done]. intros [= <-]. exists o'. split; [done|].
    unfold set_slot. by destruct (ho_body o'). }
  destruct Hm. split.
  - intros x Hx. apply mi_fresh0. by apply HH.
  - assumption.
  - intros x sl Hb. destruct (proj1 (hbody_write_inner m (CSlot l i) (recond v) x)) as [sl0 Hb0]; [eauto|].
    destruct (mi_slots0 _ _ Hb0). split; [|done]. destruct (Hext _ _ Hb0) as (_ & sl' & ? & ? & _). congruence.
  - intros x it Hb. eapply mi_data0. by apply hbody_write_data in Hb.
  - intros c u Hu. destruct (V _ _ Hu) as (u0 & Hu0 & E1 & E2 & _). apply mi_ptr0 in Hu0.
    apply (ptr_ok_ext _ _ _ _ _ _ Hext) in Hu0. unfold ptr_ok in *. by rewrite E1, E2.
  - intros x j u Hx Hu. destruct (V _ _ Hu) as (u0 & Hu0 & _ & _ & E & _). apply D in Hx.
    pose proof (mi_deadcond0 _ _ _ Hx Hu0) as Hcd. by rewrite (E Hcd).
  - intros x b Hb Hx. rewrite D in Hx. assert (exists b0, hbody m x = Some b0) as [b0 Hb0].
    { apply hbody_is_Some, HH, hbody_is_Some. eauto. }
    destruct (mi_link0 _ _ Hb0 Hx) as (c & u & Hu & Hl & Ht). destruct (V2 _ _ Hu) as (u' & Hu' & E).
    exists c, u'. rewrite L. repeat split; [done|done|congruence].
  - intros c u x Hu Hl Ht. destruct (V _ _ Hu) as (u0 & Hu0 & E1 & _). rewrite D. apply (mi_live0 c u0); [done|by apply L|congruence].
  - intros c u c' u' x Hu Hu' Hl Hl' Ht Ht'. destruct (V _ _ Hu) as (u0 & Hu0 & E1 & _).
    destruct (V _ _ Hu') as (u0' & Hu0' & E1' & _). eapply (mi_uniq0 c u0 c' u0' x); first [done|by apply L|congruence].
  - assumption.
  - intros x Hx. apply HH. by apply mi_heap0.
  - intros x k g Hx. destruct (mi_kind0 _ _ _ Hx) as (b & Hb & ->). destruct (Hext _ _ Hb) as [_ Hb'].
    destruct b; [|eauto]. destruct Hb' as (sl' & ? & _). eexists. split; [done|done].
  - intros x x' o o' Ho Ho' Hf Hf' E. destruct (A _ _ Ho) as (? & ? & ?). destruct (A _ _ Ho') as (? & ? & ?).
    eapply mi_addr0; try done. congruence.
  - intros x o Ho Hf. destruct (A _ _ Ho) as (? & ? & <-). eapply mi_nz0; done.
Qed.

(** ** The generic update: (allocate), swing one pointer, (retire) *)
Definition swap m (na : option (N * body)) cur w (old : option (loc * dkind * gset opid)) : mem :=
  let m1 := match na with Some (a, b) => alloc m a b | None => m end in
  let m2 := write_cell m1 cur w in
  match old with Some (l, k, g) => retire m2 l k g | None => m2 end.

Definition swap_pos pos m (na : option (N * body)) cur : loc -> list nat :=
  match na with Some _ => fun l => if decide (l = m_next m) then cpos pos cur else pos l | None => pos end.

Definition new_slots (na : option (N * body)) : list sh :=
  match na with Some (_, BInner sl) => sl | _ => [] end.

(** The nodes hanging below the new pointer, resp. that hung below the old one. *)
Definition newt (na : option (N * body)) w (t : loc) : Prop :=
  match na with
  | Some (_, b) => exists i u, new_slots na !! i = Some u /\ sh_loc u = Some t
  | None => sh_loc w = Some t
  end.
Definition oldt m v (old : option (loc * dkind * gset opid)) (t : loc) : Prop :=
  match old with
  | None => sh_loc v = Some t
  | Some (o, _, _) => exists i u, cval m (CSlot o i) = Some u /\ sh_loc u = Some t
  end.

Record swap_ok pos m (na : option (N * body)) cur v w (old : option (loc * dkind * gset opid)) : Prop := SwapOk {
  sw_cur : cval m cur = Some v;
  sw_unc : sh_cond v = false;
  sw_w : sh_cond w = false;
  sw_new : match na with
           | None => ptr_ok pos m (cpos pos cur) w
           | Some (a, b) =>
             addr_free m a = true /\
             w = Sh (Some (m_next m)) false (match b with BData _ => true | BInner _ => false end) /\
             match b with
             | BData it => it <> [] /\ placement it (cpos pos cur)
             | BInner sl => length sl = 16 /\ length (cpos pos cur) < 16 /\
                 forall i u, sl !! i = Some u -> ptr_ok pos m (cpos pos cur ++ [i]) u
             end
           end;
  sw_old : match old with
           | None => True
           | Some (o, k, g) => sh_loc v = Some o /\ (exists b, hbody m o = Some b /\ k = kind_of b) /\
                               (forall i u, cval m (CSlot o i) = Some u -> sh_cond u = true)
           end;
  sw_t : forall t, newt na w t <-> oldt m v old t;
  sw_inj : forall i j u u' t, new_slots na !! i = Some u -> new_slots na !! j = Some u' ->
           sh_loc u = Some t -> sh_loc u' = Some t -> i = j;
}.


Lemma swap_next_ne {pos m na cur v w old} (Hm : minv pos m) (Hs : swap_ok pos m na cur v w old) l b : hbody m l = Some b -> l <> m_next m.
Proof. intros Hb ->. by rewrite (next_fresh _ _ Hm) in Hb. Qed.

Lemma swap_cur_ne {pos m na cur v w old} (Hm : minv pos m) (Hs : swap_ok pos m na cur v w old) i : cur <> CSlot (m_next m) i.
Proof. intros E. pose proof (sw_cur _ _ _ _ _ _ _ Hs) as Hc. rewrite E in Hc. simpl in Hc. by rewrite (next_fresh _ _ Hm) in Hc. Qed.

Lemma swap_hbody {pos m na cur v w old} (Hm : minv pos m) (Hs : swap_ok pos m na cur v w old) l : hbody (swap m na cur w old) l =
  if decide (l = m_next m) then snd <$> na
  else match cur with
       | CSlot x i => if decide (x = l) then match hbody m l with Some (BInner sl) => Some (BInner (<[i := w]> sl)) | b => b end else hbody m l
       | CRoot => hbody m l
       end.
Proof.
  assert (hbody (swap m na cur w old) l = hbody (write_cell (match na with Some (a, b) => alloc m a b | None => m end) cur w) l) as ->.
  { unfold swap. destruct old as [[[? ?] ?]|]; done. }
  rewrite hbody_write.
  destruct (decide (l = m_next m)) as [->|Hne].
  - assert (hbody (match na with Some (a, b) => alloc m a b | None => m end) (m_next m) = snd <$> na) as ->.
    { destruct na as [[a b]|]; simpl; [by rewrite hbody_alloc, decide_True|apply (next_fresh _ _ Hm)]. }
    destruct cur as [|x i] eqn:E; [done|]. rewrite decide_False; [done|]. intros ->.
    apply ((swap_cur_ne Hm Hs) i). done.
  - assert (hbody (match na with Some (a, b) => alloc m a b | None => m end) l = hbody m l) as ->.
    { destruct na as [[a b]|]; [by rewrite hbody_alloc, decide_False|done]. }
    done.
Qed.

Lemma swap_ext {pos m na cur v w old} (Hm : minv pos m) (Hs : swap_ok pos m na cur v w old) : ext pos m (swap_pos pos m na cur) (swap m na cur w old).
Proof.
  intros l b Hb. pose proof ((swap_next_ne Hm Hs) _ _ Hb) as Hne. split.
  { unfold swap_pos. destruct na; [|done]. by rewrite decide_False. }
  rewrite (swap_hbody Hm Hs), decide_False by done. destruct b as [sl|it].
  - destruct cur as [|x i] eqn:Ec; [eauto|]. destruct (decide (x = l)) as [->|]; [|eauto]. rewrite Hb.
    eexists; split; [done|]. split; [apply insert_length|]. intros j u Hj Hu.
    rewrite list_lookup_insert_ne; [done|]. intros <-. pose proof (sw_cur _ _ _ _ _ _ _ Hs) as Hc.
    apply cval_slot in Hc as (sl' & ? & ?). simplify_eq.
    pose proof (sw_unc _ _ _ _ _ _ _ Hs). congruence.
  - destruct cur as [|x i]; [done|]. destruct (decide (x = l)) as [->|]; [by rewrite Hb|done].
Qed.

Lemma swap_cval {pos m na cur v w old} (Hm : minv pos m) (Hs : swap_ok pos m na cur v w old) c : cval (swap m na cur w old) c =
  if decide (c = cur) then Some w
  else match c with
       | CRoot => cval m c
       | CSlot l i => if decide (l = m_next m) then new_slots na !! i else cval m c
       end.
Proof.
  pose proof (sw_cur _ _ _ _ _ _ _ Hs) as Hc.
  destruct c as [|l i].
  - destruct (decide (CRoot = cur)) as [<-|].
    + unfold swap. by destruct na as [[? ?]|], old as [[[? ?] ?]|].
    + unfold swap. destruct cur; [done|]. by destruct na as [[? ?]|], old as [[[? ?] ?]|].
  - unfold cval at 1. rewrite (swap_hbody Hm Hs). destruct (decide (CSlot l i = cur)) as [<-|Hne].
    + rewrite decide_False.
      2:{ intros ->. by apply ((swap_cur_ne Hm Hs) i). }
      rewrite decide_True by done. apply cval_slot in Hc as (sl & -> & Hi).
      apply list_lookup_insert. by eapply lookup_lt_Some.
    + destruct (decide (l = m_next m)).
      * destruct na as [[a [sl|it]]|]; simpl; done.
      * destruct cur as [|x j]; [done|]. destruct (decide (x = l)) as [->|]; [|done].
        simpl. destruct (hbody m l) as [[sl|it]|]; try done. apply list_lookup_insert_ne. congruence.
Qed.

Lemma swap_dead {pos m na cur v w old} (Hm : minv pos m) (Hs : swap_ok pos m na cur v w old) l : dead (swap m na cur w old) l <-> dead m l \/ (exists k g, old = Some (l, k, g)).
Proof.
  unfold swap, dead, garb_locs. 
  destruct old as [[[o k] g]|]; destruct na as [[? ?]|]; destruct cur; simpl; rewrite ?elem_of_cons; naive_solver.
Qed.

Lemma swap_cur_live {pos m na cur v w old} (Hm : minv pos m) (Hs : swap_ok pos m na cur v w old) : cell_live m cur.
Proof. eapply uncond_live; [exact Hm|by eapply sw_cur|by eapply sw_unc]. Qed.

Lemma swap_old_hb {pos m na cur v w old} (Hm : minv pos m) (Hs : swap_ok pos m na cur v w old) o k g : old = Some (o, k, g) -> exists b, hbody m o = Some b /\ ~ dead m o.
Proof.
  intros E. pose proof (sw_old _ _ _ _ _ _ _ Hs) as Ho. rewrite E in Ho. destruct Ho as (Hv & (b & Hb & _) & _).
  exists b. split; [done|]. eapply mi_live; [exact Hm|by eapply sw_cur|apply (swap_cur_live Hm Hs)|done].
Qed.

(* The cell that is changed is not inside the node that is retired: it points to it. *)
Lemma swap_old_ne {pos m na cur v w old} (Hm : minv pos m) (Hs : swap_ok pos m na cur v w old) o k g i : old = Some (o, k, g) -> cur <> CSlot o i.
Proof.
  intros E Ec. pose proof (sw_old _ _ _ _ _ _ _ Hs) as Ho. rewrite E in Ho. destruct Ho as (Hv & (b & Hb & _) & Hcd).
  pose proof (sw_cur _ _ _ _ _ _ _ Hs) as Hc. rewrite Ec in Hc. apply Hcd in Hc.
  pose proof (sw_unc _ _ _ _ _ _ _ Hs). congruence.
Qed.

(* A cell of (swap m na cur w old) that is live in (swap m na cur w old) and is neither cur nor in the new node: live in m, same value *)
Lemma swap_live_cases {pos m na cur v w old} (Hm : minv pos m) (Hs : swap_ok pos m na cur v w old) c u : cval (swap m na cur w old) c = Some u -> cell_live (swap m na cur w old) c ->
  (c = cur /\ u = w) \/ (exists i, c = CSlot (m_next m) i /\ new_slots na !! i = Some u) \/
  (c <> cur /\ cval m c = Some u /\ cell_live m c /\ forall o k g i, old = Some (o, k, g) -> c <> CSlot o i).
Proof.
  intros Hu Hl. rewrite (swap_cval Hm Hs) in Hu. destruct (decide (c = cur)); [left; naive_solver|]. right.
  destruct c as [|l i].
  - right. split; [done|]. naive_solver.
  - destruct (decide (l = m_next m)) as [->|]; [left; eauto|]. right.
    simpl in Hl. rewrite (swap_dead Hm Hs) in Hl. split; [done|]. split; [done|]. simpl. split; [tauto|].
    intros o k g i' E ?. simplify_eq. apply Hl. right. eauto.
Qed.

Lemma swap_newt_target {pos m na cur v w old} (Hm : minv pos m) (Hs : swap_ok pos m na cur v w old) t : newt na w t -> hbody m t <> None /\ ~ dead m t /\ (forall k g, old <> Some (t, k, g)).
Proof.
  intros Ht%(sw_t _ _ _ _ _ _ _ Hs). pose proof (sw_cur _ _ _ _ _ _ _ Hs) as Hc. unfold oldt in Ht.
  destruct old as [[[o k] g]|] eqn:E.
  - destruct Ht as (i & u & Hu & Ht). destruct ((swap_old_hb Hm Hs) o k g) as (b & Hb & Hd); [done|].
    assert (~ dead m t). { eapply (mi_live _ _ Hm (CSlot o i)); [done|by simpl|done]. }
    pose proof (mi_ptr _ _ Hm _ _ Hu) as Hp. unfold ptr_ok in Hp. rewrite Ht in Hp.
    split; [destruct (sh_data u); destruct Hp as (? & -> & _); done|]. split; [done|].
    intros k' g' ?. simplify_eq. destruct (sh_data u).
    + destruct Hp as (it & Hb' & _). apply cval_slot in Hu as (? & ? & _). congruence.
    + destruct Hp as (it & Hb' & Hpp). simpl in Hpp. apply (f_equal length) in Hpp. rewrite app_length in Hpp. simpl in Hpp. lia.
  - split; [|split; [|done]].
    + pose proof (mi_ptr _ _ Hm _ _ Hc) as Hp. unfold ptr_ok in Hp. rewrite Ht in Hp.
      destruct (sh_data v); destruct Hp as (? & -> & _); done.
    + eapply mi_live; [exact Hm|done|apply (swap_cur_live Hm Hs)|done].
Qed.

(* a target below the old pointer cannot be the target of another live cell *)
Lemma swap_oldt_uniq {pos m na cur v w old} (Hm : minv pos m) (Hs : swap_ok pos m na cur v w old) t c u : oldt m v old t -> cval m c = Some u -> cell_live m c -> sh_loc u = Some t ->
  c <> cur -> (forall o k g i, old = Some (o, k, g) -> c <> CSlot o i) -> False.
Proof.
  intros Ht Hu Hl Hut Hne Hno. pose proof (sw_cur _ _ _ _ _ _ _ Hs) as Hc. unfold oldt in Ht.
  destruct old as [[[o k] g]|] eqn:E.
  - destruct Ht as (i & u' & Hu' & Ht). apply (Hno o k g i); [done|].
    destruct ((swap_old_hb Hm Hs) o k g) as (b & Hb & Hd); [done|].
    eapply (mi_uniq _ _ Hm c u (CSlot o i) u' t); done.
  - apply Hne. eapply (mi_uniq _ _ Hm c u cur v t); try done. apply (swap_cur_live Hm Hs).
Qed.

Lemma swap_heap {pos m na cur v w old} (Hm : minv pos m) (Hs : swap_ok pos m na cur v w old) l o : m_heap (swap m na cur w old) !! l = Some o ->
  (l = m_next m /\ exists a b, na = Some (a, b) /\ o = HObj a b) \/
  (l <> m_next m /\ exists o', m_heap m !! l = Some o' /\ ho_addr o' = ho_addr o).
Proof.
  assert (m_heap (swap m na cur w old) = m_heap (write_cell (match na with Some (a, b) => alloc m a b | None => m end) cur w)) as ->.
  { unfold swap. destruct old as [[[? ?] ?]|]; done. }
  assert (m_heap m !! m_next m = None) as Hn.
  { pose proof (next_fresh _ _ Hm) as Hn. unfold hbody in Hn. by destruct (m_heap m !! m_next m). }
  assert (forall l o, m_heap (match na with Some (a, b) => alloc m a b | None => m end) !! l = Some o ->
    (l = m_next m /\ exists a b, na = Some (a, b) /\ o = HObj a b) \/
    (l <> m_next m /\ exists o', m_heap m !! l = Some o' /\ ho_addr o' = ho_addr o)) as Ha.
  { intros x y. destruct na as [[a b]|]; simpl.
    - destruct (decide (m_next m = x)) as [<-|]; [rewrite lookup_insert|rewrite lookup_insert_ne by done]; naive_solver.
    - intros Hx. right. split; [congruence|eauto]. }
  destruct cur as [|x i] eqn:Ec; [apply Ha|]. simpl.
  destruct (decide (x = l)) as [->|]; [|rewrite lookup_alter_ne by done; apply Ha].
  rewrite lookup_alter. intros (o0 & Ho0 & Eo)%fmap_Some.
  destruct (Ha _ _ Ho0) as [[-> _]|[Hne (o' & Ho' & Eo')]].
  - exfalso. by apply ((swap_cur_ne Hm Hs) i).
  - right. split; [done|]. exists o'. split; [done|]. rewrite Eo', Eo. unfold set_slot. by destruct (ho_body o0).
Qed.

Lemma swap_freed {pos m na cur v w old} (Hm : minv pos m) (Hs : swap_ok pos m na cur v w old) : m_freed (swap m na cur w old) = m_freed m.
Proof. unfold swap. by destruct old as [[[? ?] ?]|], na as [[? ?]|], cur. Qed.

Lemma swap_garb {pos m na cur v w old} (Hm : minv pos m) (Hs : swap_ok pos m na cur v w old) : m_garb (swap m na cur w old) = match old with Some x => x :: m_garb m | None => m_garb m end.
Proof. unfold swap. by destruct old as [[[? ?] ?]|], na as [[? ?]|], cur. Qed.

Lemma swap_next {pos m na cur v w old} (Hm : minv pos m) (Hs : swap_ok pos m na cur v w old) : m_next (swap m na cur w old) = match na with Some _ => Pos.succ (m_next m) | None => m_next m end.
Proof. unfold swap. by destruct old as [[[? ?] ?]|], na as [[? ?]|], cur. Qed.

Lemma swap_cpos {pos m na cur v w old} (Hm : minv pos m) (Hs : swap_ok pos m na cur v w old) : cpos (swap_pos pos m na cur) cur = cpos pos cur.
Proof. eapply ext_cpos; [apply (swap_ext Hm Hs)|by eapply sw_cur]. Qed.

Lemma swap_pos_next {pos m na cur v w old} (Hm : minv pos m) (Hs : swap_ok pos m na cur v w old) : na <> None -> (swap_pos pos m na cur) (m_next m) = cpos pos cur.
Proof. intros Hn. unfold swap_pos. destruct na; [|done]. by rewrite decide_True. Qed.

Lemma minv_swap {pos m na cur v w old} (Hm : minv pos m) (Hs : swap_ok pos m na cur v w old) : minv (swap_pos pos m na cur) (swap m na cur w old).
Proof.
  pose proof (sw_cur _ _ _ _ _ _ _ Hs) as Hc. pose proof (sw_unc _ _ _ _ _ _ _ Hs) as Hu.
  pose proof (sw_new _ _ _ _ _ _ _ Hs) as Hnew.
  pose proof (swap_ext Hm Hs) as Hext. pose proof (swap_cur_live Hm Hs) as Hcl.
  assert (cell_live (swap m na cur w old) cur) as Hcl'.
  { destruct cur as [|x i] eqn:Ec; [done|]. simpl. rewrite (swap_dead Hm Hs). intros [Hd|(k & g & E)]; [done|].
    eapply ((swap_old_ne Hm Hs) x k g i); eauto. }
  assert (ptr_ok (swap_pos pos m na cur) (swap m na cur w old) (cpos pos cur) w) as Hw.
  { destruct na as [[a b]|] eqn:En; [|by eapply ptr_ok_ext]. destruct Hnew as (_ & Ew & Hb).
    assert (hbody (swap m (Some (a, b)) cur w old) (m_next m) = Some b) as Hb'.
    { rewrite (swap_hbody Hm Hs), decide_True by done. done. }
    unfold ptr_ok. assert (sh_loc w = Some (m_next m)) as -> by (by rewrite Ew).
    assert (sh_data w = match b with BData _ => true | BInner _ => false end) as -> by (by rewrite Ew).
    destruct b as [sl|it].
    - exists sl. split; [done|]. apply (swap_pos_next Hm Hs). congruence.
    - exists it. naive_solver. }
  split.
  - (* fresh *) intros l [o Ho]. rewrite (swap_next Hm Hs). destruct ((swap_heap Hm Hs) _ _ Ho) as [[-> (a & b & -> & _)]|[_ (o' & Ho' & _)]].
    + lia.
    + assert (l < m_next m)%positive by (apply (mi_fresh _ _ Hm); eauto). destruct na; lia.
  - (* root *) change (m_root (swap m na cur w old)) with (default sh_null (cval (swap m na cur w old) CRoot)). rewrite (swap_cval Hm Hs).
    destruct (decide (CRoot = cur)); simpl; [by eapply sw_w|by apply (mi_root _ _ Hm)].
  - (* slots *) intros l sl Hb. destruct (decide (l = m_next m)) as [->|Hne].
    + rewrite (swap_hbody Hm Hs), decide_True in Hb by done. destruct na as [[a b]|] eqn:En; [|done]. simpl in Hb. simplify_eq.
      destruct Hnew as (_ & _ & ? & ? & _). split; [done|]. rewrite (swap_pos_next Hm Hs) by congruence. done.
    + assert (exists sl0, hbody m l = Some (BInner sl0)) as [sl0 Hb0].
      { rewrite (swap_hbody Hm Hs), decide_False in Hb by done. destruct cur as [|x i]; [eauto|]. destruct (decide (x = l)); [|eauto].
        destruct (hbody m l) as [[?|?]|]; naive_solver. }
      destruct (Hext _ _ Hb0) as (E & sl' & ? & ? & _). simplify_eq. rewrite E. destruct (mi_slots _ _ Hm _ _ Hb0). lia.
  - (* data *) intros l it Hb. rewrite (swap_hbody Hm Hs) in Hb. destruct (decide (l = m_next m)) as [->|Hne].
    + destruct na as [[a b]|] eqn:En; [|done]. simpl in Hb. simplify_eq. tauto.
    + eapply (mi_data _ _ Hm l). destruct cur as [|x i]; [eauto|]. destruct (decide (x = l)); [|eauto].
      destruct (hbody m l) as [[?|?]|]; naive_solver.
  - (* ptr *) intros c u Hcu. rewrite (swap_cval Hm Hs) in Hcu. destruct (decide (c = cur)) as [->|Hne].
    { simplify_eq. rewrite (swap_cpos Hm Hs). done. }
    destruct c as [|l i].
    { eapply ptr_ok_ext; [apply Hext|]. by apply (mi_ptr _ _ Hm CRoot). }
    destruct (decide (l = m_next m)) as [->|Hl].
    + destruct na as [[a [sl|it]]|] eqn:En; simpl in Hcu; [|done|done]. unfold cpos at 1. rewrite (swap_pos_next Hm Hs) by congruence.
      eapply ptr_ok_ext; [apply Hext|]. destruct Hnew as (_ & _ & _ & _ & H). by apply H.
    + erewrite (ext_cpos _ _ _ _ _ _ Hext) by done. eapply ptr_ok_ext; [apply Hext|]. by apply (mi_ptr _ _ Hm).
  - (* deadcond *) intros l i u Hd Hcu. rewrite (swap_cval Hm Hs) in Hcu. apply (swap_dead Hm Hs) in Hd.
    destruct (decide (CSlot l i = cur)) as [Ec|Hne].
    { exfalso. destruct Hd as [Hd|(k & g & E)]; [by rewrite <-Ec in Hcl|]. eapply ((swap_old_ne Hm Hs) l k g i); eauto. }
    destruct (decide (l = m_next m)) as [->|Hl].
    { exfalso. destruct Hd as [Hd|(k & g & E)]; [by apply (next_not_dead _ _ Hm)|].
      destruct ((swap_old_hb Hm Hs) _ _ _ E) as (b & Hb & _). by rewrite (next_fresh _ _ Hm) in Hb. }
    destruct Hd as [Hd|(k & g & E)]; [by eapply mi_deadcond|].
    pose proof (sw_old _ _ _ _ _ _ _ Hs) as Ho. rewrite E in Ho. destruct Ho as (_ & _ & Ho). by eapply Ho.
  - (* link *) intros l b Hb Hd. rewrite (swap_dead Hm Hs) in Hd. destruct (decide (l = m_next m)) as [->|Hl].
    { rewrite (swap_hbody Hm Hs), decide_True in Hb by done. destruct na as [[a b']|] eqn:En; [|done].
      exists cur, w. rewrite (swap_cval Hm Hs), decide_True by done. destruct Hnew as (_ & Ew & _). split; [done|]. split; [done|]. by rewrite Ew. }
    assert (exists b0, hbody m l = Some b0) as [b0 Hb0].
    { rewrite (swap_hbody Hm Hs), decide_False in Hb by done. destruct cur as [|x i]; [eauto|]. destruct (decide (x = l)); [|eauto].
      destruct (hbody m l) as [[?|?]|]; naive_solver. }
    destruct (mi_link _ _ Hm _ _ Hb0) as (c & u & Hcu & Hlc & Hul); [tauto|].
    destruct (decide (c = cur)) as [->|Hne].
    + (* was directly below cur *)
      assert (u = v) as -> by congruence. assert (oldt m v old l) as Ht.
      { unfold oldt. destruct old as [[[o k] g]|] eqn:E; [|done]. exfalso. apply Hd. right.
        pose proof (sw_old _ _ _ _ _ _ _ Hs) as (Ho & _). assert (o = l) as -> by congruence. eauto. }
      apply (sw_t _ _ _ _ _ _ _ Hs) in Ht. unfold newt in Ht. destruct na as [[a b']|] eqn:En.
      * destruct Ht as (i & u' & Hi & Hu'). exists (CSlot (m_next m) i), u'. rewrite (swap_cval Hm Hs), decide_False, decide_True.
        -- split; [done|]. split; [|done]. simpl. rewrite (swap_dead Hm Hs). intros [?|(k & g & E)]; [by eapply next_not_dead|].
           destruct ((swap_old_hb Hm Hs) _ _ _ E) as (? & Hb' & _). by rewrite (next_fresh _ _ Hm) in Hb'.
        -- done.
        -- intros Ex. by apply ((swap_cur_ne Hm Hs) i).
      * exists cur, w. rewrite (swap_cval Hm Hs), decide_True by done. done.
    + assert (forall o i, c = CSlot o i -> o <> m_next m) as Hcn.
      { intros o i -> ->. apply cval_slot in Hcu as (? & Hx & _). by rewrite (next_fresh _ _ Hm) in Hx. }
      assert (cval (swap m na cur w old) c = Some u) as Hcu'.
      { rewrite (swap_cval Hm Hs), decide_False by done. destruct c as [|x i]; [done|]. rewrite decide_False by eauto. done. }
      destruct (cell_live_dec (swap m na cur w old) c) as [Hlc'|(x & i & -> & Hx)]; [eauto|].
      apply (swap_dead Hm Hs) in Hx as [Hx|(k & g & E)]; [done|].
      (* below the retired node *)
      assert (oldt m v old l) as Ht by (unfold oldt; rewrite E; eauto).
      apply (sw_t _ _ _ _ _ _ _ Hs) in Ht. unfold newt in Ht. destruct na as [[a b']|] eqn:En.
      * destruct Ht as (i' & u' & Hi & Hu'). exists (CSlot (m_next m) i'), u'. rewrite (swap_cval Hm Hs), decide_False, decide_True.
        -- split; [done|]. split; [|done]. simpl. rewrite (swap_dead Hm Hs). intros [?|(k' & g' & E')]; [by eapply next_not_dead|].
           destruct ((swap_old_hb Hm Hs) _ _ _ E') as (? & Hb' & _). by rewrite (next_fresh _ _ Hm) in Hb'.
        -- done.
        -- intros Ex. by apply ((swap_cur_ne Hm Hs) i').
      * exists cur, w. rewrite (swap_cval Hm Hs), decide_True by done. done.
  - (* live *) intros c u l Hcu Hlc Hul. rewrite (swap_dead Hm Hs).
    assert (newt na w l -> ~ (dead m l \/ (exists k g, old = Some (l, k, g)))) as Hn.
    { intros Hn. destruct ((swap_newt_target Hm Hs) _ Hn) as (_ & ? & Ho). intros [?|(k & g & E)]; [done|]. by eapply Ho. }
    destruct ((swap_live_cases Hm Hs) _ _ Hcu Hlc) as [[-> ->]|[(i & -> & Hi)|(Hne & Hcu0 & Hlc0 & Hno)]].
    + destruct na as [[a b]|] eqn:En; [|by apply Hn]. destruct Hnew as (_ & Ew & _). rewrite Ew in Hul. simpl in Hul. simplify_eq.
      intros [?|(k & g & E)]; [by eapply next_not_dead|].
      destruct ((swap_old_hb Hm Hs) _ _ _ E) as (? & Hb' & _). by rewrite (next_fresh _ _ Hm) in Hb'.
    + apply Hn. unfold newt. destruct na as [[a b]|]; [|done]. eauto.
    + intros [?|(k & g & E)]; [by eapply (mi_live _ _ Hm)|].
      pose proof (sw_old _ _ _ _ _ _ _ Hs) as Ho. rewrite E in Ho. destruct Ho as (Hv & _ & _).
      apply Hne. by eapply (mi_uniq _ _ Hm c u cur v l).
  - (* uniq *) intros c u c' u' l Hcu Hcu' Hlc Hlc' Hul Hul'.
    destruct ((swap_live_cases Hm Hs) _ _ Hcu Hlc) as [[-> ->]|[(i & -> & Hi)|(Hne & Hcu0 & Hlc0 & Hno)]];
    destruct ((swap_live_cases Hm Hs) _ _ Hcu' Hlc') as [[-> ->]|[(i' & -> & Hi')|(Hne' & Hcu0' & Hlc0' & Hno')]]; [done|..].
    + exfalso. destruct na as [[a b]|] eqn:En; [|done]. destruct Hnew as (_ & Ew & _).
      assert (newt (Some (a, b)) w l) as Hn by (unfold newt; eauto). apply (swap_newt_target Hm Hs) in Hn as [Hn _].
      rewrite Ew in Hul. simpl in Hul. simplify_eq. by rewrite (next_fresh _ _ Hm) in Hn.
    + exfalso. destruct na as [[a b]|] eqn:En.
      * destruct Hnew as (_ & Ew & _). rewrite Ew in Hul. simpl in Hul. simplify_eq.
        pose proof (mi_ptr _ _ Hm _ _ Hcu0') as Hp. unfold ptr_ok in Hp. rewrite Hul' in Hp.
        rewrite (next_fresh _ _ Hm) in Hp. destruct (sh_data u'); by destruct Hp as (? & ? & _).
      * eapply (swap_oldt_uniq Hm Hs l c' u'); try done. by apply (sw_t _ _ _ _ _ _ _ Hs).
    + exfalso. destruct na as [[a b]|] eqn:En; [|done]. destruct Hnew as (_ & Ew & _).
      assert (newt (Some (a, b)) w l) as Hn by (unfold newt; eauto). apply (swap_newt_target Hm Hs) in Hn as [Hn _].
      rewrite Ew in Hul'. simpl in Hul'. simplify_eq. by rewrite (next_fresh _ _ Hm) in Hn.
    + f_equal. by eapply (sw_inj _ _ _ _ _ _ _ Hs i i' u u' l).
    + exfalso. eapply (swap_oldt_uniq Hm Hs l c' u'); try done. apply (sw_t _ _ _ _ _ _ _ Hs). unfold newt.
      destruct na as [[a b]|]; [|done]. eauto.
    + exfalso. destruct na as [[a b]|] eqn:En.
      * destruct Hnew as (_ & Ew & _). rewrite Ew in Hul'. simpl in Hul'. simplify_eq.
        pose proof (mi_ptr _ _ Hm _ _ Hcu0) as Hp. unfold ptr_ok in Hp. rewrite Hul in Hp.
        rewrite (next_fresh _ _ Hm) in Hp. destruct (sh_data u); by destruct Hp as (? & ? & _).
      * eapply (swap_oldt_uniq Hm Hs l c u); try done. by apply (sw_t _ _ _ _ _ _ _ Hs).
    + exfalso. eapply (swap_oldt_uniq Hm Hs l c u); try done. apply (sw_t _ _ _ _ _ _ _ Hs). unfold newt.
      destruct na as [[a b]|]; [|done]. eauto.
    + by eapply (mi_uniq _ _ Hm c u c' u' l).
  - (* nodup *) unfold garb_locs. rewrite (swap_garb Hm Hs), (swap_freed Hm Hs).
    pose proof (mi_nodup _ _ Hm) as Hnd. destruct old as [[[o k] g]|] eqn:E; [|done]. simpl.
    apply NoDup_cons. split; [|done]. destruct (swap_old_hb Hm Hs o k g) as (b & _ & Hd); [done|].
    rewrite elem_of_app. exact Hd.
  - (* heap *) intros l Hd. apply (swap_dead Hm Hs) in Hd.
    assert (is_Some (hbody m l)) as [b Hb].
    { destruct Hd as [Hd|(k & g & E)]; [by apply hbody_is_Some, (mi_heap _ _ Hm)|].
      destruct (swap_old_hb Hm Hs _ _ _ E) as (b & Hb & _). eauto. }
    apply hbody_is_Some. destruct (Hext _ _ Hb) as [_ Hb']. destruct b; [destruct Hb' as (? & ? & _)|]; eauto.
  - (* kind *) intros l k g Hg. rewrite (swap_garb Hm Hs) in Hg.
    assert (exists b, hbody m l = Some b /\ k = kind_of b) as (b & Hb & ->).
    { destruct old as [x|] eqn:E; [|by eapply mi_kind]. apply elem_of_cons in Hg as [<-|Hg]; [|by eapply mi_kind].
      by apply (sw_old _ _ _ _ _ _ _ Hs). }
    destruct (Hext _ _ Hb) as [_ Hb']. destruct b; [destruct Hb' as (? & ? & _)|]; eauto.
  - (* addr *) intros l l' o o' Ho Ho' Hf Hf' Ea. rewrite (swap_freed Hm Hs) in Hf, Hf'.
    assert (forall a b l o, na = Some (a, b) -> m_heap m !! l = Some o -> l ∉ (m_freed m).*1 -> ho_addr o <> a) as Hfree.
    { intros a b x y -> Hx Hxf. destruct Hnew as (Haf & _). unfold addr_free in Haf. apply andb_true_iff in Haf as [_ Haf].
      rewrite forallb_forall in Haf. specialize (Haf (x, y)). simpl in Haf.
      assert (freed m x || negb (N.eqb (ho_addr y) a) = true) as Hor.
      { apply Haf. by apply elem_of_list_In, elem_of_map_to_list. }
      unfold freed in Hor. rewrite bool_decide_eq_false_2 in Hor by done. simpl in Hor.
      intros E. apply N.eqb_eq in E. by rewrite E in Hor. }
    destruct (swap_heap Hm Hs _ _ Ho) as [[-> (a & b & En & ->)]|[Hne (o1 & Ho1 & E1)]];
    destruct (swap_heap Hm Hs _ _ Ho') as [[-> (a' & b' & En' & ->)]|[Hne' (o1' & Ho1' & E1')]].
    + done.
    + exfalso. simpl in Ea. eapply Hfree; [exact En|exact Ho1'|done|]. congruence.
    + exfalso. simpl in Ea. eapply Hfree; [exact En'|exact Ho1|done|]. congruence.
    + eapply (mi_addr _ _ Hm); try done. congruence.
  - (* nonzero *) intros l o Ho Hf. rewrite (swap_freed Hm Hs) in Hf.
    destruct (swap_heap Hm Hs _ _ Ho) as [[-> (a & b & -> & ->)]|[Hne (o1 & Ho1 & <-)]]; [|by eapply mi_nz].
    simpl. destruct Hnew as (Haf & _). unfold addr_free in Haf. apply andb_true_iff in Haf as [Haf _].
    intros ->. done.
Qed.
End inv.

#[global] Instance tame_flavor : Flavor | 100 := {| tame := true; placed := true |}.
