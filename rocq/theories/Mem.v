(** * Memory-level facts: cells, positions, the structural invariant of the trie, lookups. *)
From Verif Require Import Model.

Ltac inv H := inversion H; clear H; subst.

(** ** Paths *)
Lemma bits_lt h s : bits h s < 16.
Proof.
  unfold bits, LEVEL_MASK. change 15%N with (N.ones 4). rewrite N.land_ones.
  pose proof (N.mod_lt (N.shiftr h (N.of_nat s)) (2 ^ 4)%N ltac:(discriminate)) as H.
  change (2^4)%N with 16%N in *. lia.
Qed.

Lemma bits_shiftr h d : bits (N.shiftr h (N.of_nat (4 * d))) 0 = bits h (4 * d).
Proof. unfold bits. by rewrite N.shiftr_shiftr, N.add_0_r. Qed.

Definition hpath (h : N) : list nat := map (fun d => bits h (4 * d)) (seq 0 16).

Lemma hpath_length h : length (hpath h) = 16.
Proof. unfold hpath. by rewrite map_length, seq_length. Qed.

Lemma hpath_lookup h d : d < 16 -> hpath h !! d = Some (bits h (4 * d)).
Proof.
  intros Hd. unfold hpath. change (map ?f ?l) with (f <$> l). rewrite list_lookup_fmap.
  by rewrite lookup_seq_lt.
Qed.

Section mem.
Context {C : Config}.

Definition path (k : Key) : list nat := hpath (hashf k).
Definition nib (k : Key) (d : nat) : nat := bits (hashf k) (4 * d).

Lemma path_length k : length (path k) = 16.
Proof. apply hpath_length. Qed.
Lemma path_lookup k d : d < 16 -> path k !! d = Some (nib k d).
Proof. apply hpath_lookup. Qed.
Lemma nib_lt k d : nib k d < 16.
Proof. apply bits_lt. Qed.

Lemma prefix_snoc_path p k :
  p `prefix_of` path k -> length p < 16 -> (p ++ [nib k (length p)]) `prefix_of` path k.
Proof.
  intros [q Hq] Hl. destruct q as [|x q].
  { rewrite app_nil_r in Hq. pose proof (path_length k) as Hp. rewrite Hq in Hp. lia. }
  pose proof (path_lookup k (length p) Hl) as Hx. rewrite Hq in Hx.
  rewrite lookup_app_r in Hx by lia. rewrite Nat.sub_diag in Hx. simpl in Hx. simplify_eq.
  exists q. rewrite Hq. by rewrite <-app_assoc.
Qed.

Lemma prefix_path_len p k : p `prefix_of` path k -> length p <= 16.
Proof. intros H%prefix_length. by rewrite path_length in H. Qed.

Lemma prefix_snoc_nib p i k : (p ++ [i]) `prefix_of` path k -> i = nib k (length p) /\ p `prefix_of` path k.
Proof.
  intros Hp. pose proof (prefix_path_len _ _ Hp) as Hl. rewrite app_length in Hl. simpl in Hl.
  destruct Hp as [q Hq]. split.
  - pose proof (path_lookup k (length p) ltac:(lia)) as Hx. rewrite Hq in Hx.
    rewrite <-app_assoc in Hx. rewrite lookup_app_r in Hx by lia. rewrite Nat.sub_diag in Hx. simpl in Hx. by simplify_eq.
  - exists (i :: q). rewrite Hq. by rewrite <-app_assoc.
Qed.

Lemma prefix_two {A} (p q r : list A) : p `prefix_of` r -> q `prefix_of` r -> length p <= length q -> p = take (length p) q.
Proof.
  intros [x ->] [y Hy] Hl.
  assert (take (length p) (p ++ x) = take (length p) (q ++ y)) as E by by rewrite Hy.
  rewrite take_app in E. rewrite take_app_le in E by lia. done.
Qed.

(** ** Cells without regard to freeing *)
Definition hbody (m : mem) (l : loc) : option body := ho_body <$> m_heap m !! l.

Definition cval (m : mem) (c : cell) : option sh :=
  match c with
  | CRoot => Some (m_root m)
  | CSlot l i => match hbody m l with Some (BInner sl) => sl !! i | _ => None end
  end.

Definition garb_locs (m : mem) : list loc := (fun g => g.1.1) <$> m_garb m.
Definition dead (m : mem) (l : loc) : Prop := l ∈ garb_locs m \/ l ∈ (m_freed m).*1.
Definition cell_live (m : mem) (c : cell) : Prop := match c with CRoot => True | CSlot l _ => ~ dead m l end.

Global Instance cell_eq_dec : EqDecision cell.
Proof. solve_decision. Defined.
Global Instance sh_eq_dec : EqDecision sh.
Proof. solve_decision. Defined.
Global Instance dkind_eq_dec : EqDecision dkind.
Proof. solve_decision. Defined.
Global Instance dead_dec m l : Decision (dead m l).
Proof. unfold dead. apply _. Defined.

Lemma read_cell_cval m c v : read_cell m c = Some v -> cval m c = Some v.
Proof.
  destruct c as [|l i]; simpl; [done|]. unfold deref, hbody. destruct (freed m l); [done|].
  destruct (m_heap m !! l); simpl; done.
Qed.

Lemma read_cell_not_freed m c v l i : read_cell m c = Some v -> c = CSlot l i -> l ∉ (m_freed m).*1.
Proof.
  intros H ->. simpl in H. unfold deref, freed in H. case_bool_decide; done.
Qed.

Lemma cval_read_cell m c v :
  cval m c = Some v -> (forall l i, c = CSlot l i -> l ∉ (m_freed m).*1) -> read_cell m c = Some v.
Proof.
  destruct c as [|l i]; simpl; [done|]. unfold deref, hbody, freed. intros H Hf.
  rewrite bool_decide_eq_false_2 by eauto. done.
Qed.

Lemma deref_hbody m l b : l ∉ (m_freed m).*1 -> hbody m l = Some b -> deref m l = Some b.
Proof. intros Hf H. unfold deref, freed. by rewrite bool_decide_eq_false_2. Qed.

(** ** Writing a cell *)
Lemma hbody_write m c w l :
  hbody (write_cell m c w) l =
    match c with
    | CSlot l' i => if decide (l' = l) then
        match hbody m l with Some (BInner sl) => Some (BInner (<[i := w]> sl)) | b => b end
        else hbody m l
    | CRoot => hbody m l
    end.
Proof.
  destruct c as [|l' i]; [done|]. unfold hbody. simpl. destruct (decide (l' = l)) as [->|Hne].
  - rewrite lookup_alter. destruct (m_heap m !! l) as [[a b]|]; simpl; [|done]. unfold set_slot; simpl. by destruct b.
  - by rewrite lookup_alter_ne.
Qed.

Lemma cval_write_eq m c w v : cval m c = Some v -> cval (write_cell m c w) c = Some w.
Proof.
  destruct c as [|l i]; [done|]. intros H. unfold cval in *. rewrite hbody_write, decide_True by done.
  destruct (hbody m l) as [[sl|]|]; try done.
  apply list_lookup_insert. by apply lookup_lt_Some in H.
Qed.

Lemma cval_write_ne m c w c' : c <> c' -> cval (write_cell m c w) c' = cval m c'.
Proof.
  intros Hne. destruct c' as [|l' i'].
  - destruct c; [done|]. done.
  - unfold cval. rewrite hbody_write. destruct c as [|l i]; [done|].
    destruct (decide (l = l')) as [->|]; [|done].
    destruct (hbody m l') as [[sl|]|]; try done.
    apply list_lookup_insert_ne. congruence.
Qed.

Lemma hbody_write_data m c w l it : hbody (write_cell m c w) l = Some (BData it) <-> hbody m l = Some (BData it).
Proof.
  rewrite hbody_write. destruct c as [|l' i]; [done|]. destruct (decide (l' = l)); [|done].
  destruct (hbody m l) as [[]|]; naive_solver.
Qed.

Lemma hbody_write_inner m c w l :
  (exists sl, hbody (write_cell m c w) l = Some (BInner sl)) <-> (exists sl, hbody m l = Some (BInner sl)).
Proof.
  rewrite hbody_write. destruct c as [|l' i]; [done|]. destruct (decide (l' = l)); [|done].
  destruct (hbody m l) as [[]|]; naive_solver.
Qed.

Lemma hbody_alloc m a b l :
  hbody (alloc m a b) l = if decide (l = m_next m) then Some b else hbody m l.
Proof.
  unfold hbody; simpl. destruct (decide (l = m_next m)) as [->|]; [by rewrite lookup_insert|by rewrite lookup_insert_ne].
Qed.

(** ** Looking up in a data node *)
Definition find_pl (k : Key) (it : list Pl) : option Pl := snd <$> find_idx k 0 it.

Lemma find_idx_shift k i it : find_idx k i it = (fun r => (i + r.1, r.2)) <$> find_idx k 0 it.
Proof.
  revert i. induction it as [|p it IH]; intros i; simpl; [done|].
  destruct (keqb (keyof p) k); simpl; [f_equal; f_equal; lia|].
  rewrite (IH (S i)), (IH 1). destruct (find_idx k 0 it) as [[j q]|]; simpl; [|done]. f_equal. f_equal. lia.
Qed.

Lemma find_pl_cons k p it : find_pl k (p :: it) = if keqb (keyof p) k then Some p else find_pl k it.
Proof.
  unfold find_pl. simpl. destruct (keqb (keyof p) k); simpl; [done|].
  rewrite find_idx_shift. by destruct (find_idx k 0 it) as [[]|].
Qed.

Lemma find_pl_app k it it' :
  find_pl k (it ++ it') = match find_pl k it with Some p => Some p | None => find_pl k it' end.
Proof.
  induction it as [|p it IH]; simpl; [done|]. rewrite !find_pl_cons. destruct (keqb (keyof p) k); [done|]. apply IH.
Qed.

Lemma find_pl_Some k it p : find_pl k it = Some p -> p ∈ it /\ keqb (keyof p) k = true.
Proof.
  induction it as [|q it IH]; [done|]. rewrite find_pl_cons. destruct (keqb (keyof q) k) eqn:E.
  - intros [= ->]. split; [left|done].
  - intros H. destruct (IH H). split; [by right|done].
Qed.

Lemma find_pl_None k it : find_pl k it = None <-> forall p, p ∈ it -> keqb (keyof p) k = false.
Proof.
  induction it as [|q it IH].
  - split; [|done]. intros _ p Hp. by apply elem_of_nil in Hp.
  - rewrite find_pl_cons. destruct (keqb (keyof q) k) eqn:E.
    + split; [done|]. intros H. rewrite H in E; [done|left].
    + rewrite IH. split.
      * intros H p Hp. apply elem_of_cons in Hp as [->|Hp]; [done|by apply H].
      * intros H p Hp. apply H. by right.
Qed.

Lemma find_ref_spec k l it :
  rr_val <$> find_ref k l it = find_pl k it.
Proof. unfold find_ref, find_pl. by destruct (find_idx k 0 it) as [[]|]. Qed.

Lemma find_idx_lookup k i it j p : find_idx k i it = Some (j, p) -> exists d, j = i + d /\ it !! d = Some p /\ keqb (keyof p) k = true.
Proof.
  revert i. induction it as [|q it IH]; intros i; simpl; [done|].
  destruct (keqb (keyof q) k) eqn:E.
  - intros [= <- <-]. exists 0. repeat split; [lia|done].
  - intros H. destruct (IH _ H) as (d & -> & ? & ?). exists (S d). repeat split; [lia|done|done].
Qed.

Definition nodupk (it : list Pl) : Prop :=
  forall i j p q, it !! i = Some p -> it !! j = Some q -> keqb (keyof p) (keyof q) = true -> i = j.

Context {HC : ConfigOk C}.

Lemma keqb_cong a b c : keqb a b = true -> keqb c a = keqb c b.
Proof.
  intros H. destruct (keqb c a) eqn:E.
  - symmetry. eapply keqb_trans; eauto.
  - destruct (keqb c b) eqn:E2; [|done]. rewrite <-E. eapply keqb_trans; [exact E2|]. by rewrite keqb_sym.
Qed.

Lemma find_pl_cong a b it : keqb a b = true -> find_pl a it = find_pl b it.
Proof.
  intros H. induction it as [|p it IH]; [done|]. rewrite !find_pl_cons, IH.
  by rewrite (keqb_cong a b).
Qed.

Lemma others_cong a b it : keqb a b = true -> others a it = others b it.
Proof.
  intros H. unfold others. apply list_filter_iff. intros p. by rewrite (keqb_cong a b).
Qed.

Lemma path_cong a b : keqb a b = true -> path a = path b.
Proof. intros H. unfold path. by rewrite (hash_compat a b). Qed.
Lemma nib_cong a b d : keqb a b = true -> nib a d = nib b d.
Proof. intros H. unfold nib. by rewrite (hash_compat a b). Qed.

Lemma elem_of_others k it p : p ∈ others k it <-> keqb (keyof p) k = false /\ p ∈ it.
Proof. unfold others. by rewrite elem_of_list_filter. Qed.

Lemma others_cons k p it : others k (p :: it) = if keqb (keyof p) k then others k it else p :: others k it.
Proof.
  unfold others. rewrite filter_cons. destruct (keqb (keyof p) k) eqn:E.
  - rewrite decide_False; [done|congruence].
  - by rewrite decide_True.
Qed.

Lemma find_pl_others_same k k' it : keqb k' k = true -> find_pl k' (others k it) = None.
Proof.
  intros H. apply find_pl_None. intros p [Hp _]%elem_of_others. rewrite (keqb_cong k' k); done.
Qed.

Lemma find_pl_others k k' it : keqb k' k = false -> find_pl k' (others k it) = find_pl k' it.
Proof.
  intros H. induction it as [|p it IH]; [done|]. rewrite others_cons, find_pl_cons.
  destruct (keqb (keyof p) k) eqn:E.
  - destruct (keqb (keyof p) k') eqn:E'; [|done].
    exfalso. assert (keqb k' k = true); [|congruence].
    apply (keqb_trans k' (keyof p) k); [by rewrite keqb_sym|done].
  - rewrite find_pl_cons. by destruct (keqb (keyof p) k').
Qed.

Lemma nodupk_cons p it : nodupk (p :: it) <-> (forall q, q ∈ it -> keqb (keyof p) (keyof q) = false) /\ nodupk it.
Proof.
  split.
  - intros H. split.
    + intros q [j Hj]%elem_of_list_lookup. destruct (keqb (keyof p) (keyof q)) eqn:E; [|done].
      specialize (H 0 (S j) p q eq_refl Hj E). done.
    + intros i j q r Hi Hj E. specialize (H (S i) (S j) q r Hi Hj E). lia.
  - intros [H1 H2] i j q r Hi Hj E. destruct i as [|i], j as [|j]; simpl in *; simplify_eq; [done| | |].
    + rewrite (H1 r) in E; [done|]. by eapply elem_of_list_lookup_2.
    + rewrite keqb_sym, (H1 q) in E; [done|]. by eapply elem_of_list_lookup_2.
    + f_equal. eauto.
Qed.

Lemma nodupk_nil : nodupk [].
Proof. intros i j p q H. done. Qed.

Lemma nodupk_others k it : nodupk it -> nodupk (others k it).
Proof.
  induction it as [|p it IH]; [done|]. intros [H1 H2]%nodupk_cons. rewrite others_cons.
  destruct (keqb (keyof p) k); [by apply IH|]. apply nodupk_cons. split; [|by apply IH].
  intros q [_ Hq]%elem_of_others. by apply H1.
Qed.

Lemma nodupk_snoc it p : nodupk it -> (forall q, q ∈ it -> keqb (keyof q) (keyof p) = false) -> nodupk (it ++ [p]).
Proof.
  induction it as [|q it IH]; intros Hn Hp; simpl.
  - apply nodupk_cons. split; [|apply nodupk_nil]. intros q Hq%elem_of_nil. done.
  - apply nodupk_cons in Hn as [H1 H2]. apply nodupk_cons. split.
    + intros r [Hr|Hr]%elem_of_app; [by apply H1|]. apply elem_of_list_singleton in Hr as ->. apply Hp. left.
    + apply IH; [done|]. intros r Hr. apply Hp. by right.
Qed.

Lemma nodupk_find it i p k : nodupk it -> it !! i = Some p -> keqb (keyof p) k = true -> find_pl k it = Some p.
Proof.
  revert i. induction it as [|q it IH]; intros i Hn Hi E; [done|]. rewrite find_pl_cons.
  destruct i as [|i]; simpl in Hi; simplify_eq.
  - by rewrite E.
  - apply nodupk_cons in Hn as [H1 H2]. destruct (keqb (keyof q) k) eqn:E2; [|by eapply IH].
    exfalso. assert (keqb (keyof q) (keyof p) = true) as E3.
    { rewrite (keqb_cong _ k); [done|done]. }
    rewrite H1 in E3; [done|]. by eapply elem_of_list_lookup_2.
Qed.

Lemma find_last_spec k i it acc :
  nodupk it ->
  find_last k i it acc = match find_idx k i it with Some r => Some r | None => acc end.
Proof.
  revert i acc. induction it as [|p it IH]; intros i acc Hn; [done|].
  apply nodupk_cons in Hn as [H1 H2]. simpl. rewrite IH by done.
  destruct (keqb (keyof p) k) eqn:E; [|done].
  destruct (find_idx k (S i) it) as [[j q]|] eqn:F; [|done]. exfalso.
  apply find_idx_lookup in F as (d & _ & Hd & Eq). 
  assert (keqb (keyof p) (keyof q) = true) as E3 by (rewrite (keqb_cong _ k); done).
  rewrite H1 in E3; [done|]. by eapply elem_of_list_lookup_2.
Qed.

End mem.
