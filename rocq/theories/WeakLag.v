(** * How far a call lags behind: the number of changes of cells it may not have seen yet. *)
From Verif Require Import Model Mem Spec Weak WeakInv WeakStep WeakSys WeakRun LinSpec WeakCoh WeakFun WeakWrite.

(** ** Changes in a list *)
Section chg.
Context {A : Type} `{EqDecision A}.
Implicit Types (l : list A) (x y : A) (n : nat).
Fixpoint chg l : nat := match l with x :: ((y :: _) as r) => (if decide (x = y) then 0 else 1) + chg r | _ => 0 end.
Lemma chg_cons x y l : chg (x :: y :: l) = (if decide (x = y) then 0 else 1) + chg (y :: l).
Proof. done. Qed.
Lemma chg_tail x l : chg l <= chg (x :: l).
Proof. destruct l as [|y l]; [simpl; lia|]. rewrite chg_cons. lia. Qed.
Lemma chg_drop n l : chg (drop n l) <= chg l.
Proof. revert n. induction l as [|x l IH]; intros [|n]; cbn [drop]; [lia|lia|lia|]. etrans; [apply IH|apply (chg_tail x l)]. Qed.
Lemma chg_drop_le n n' l : n <= n' -> chg (drop n' l) <= chg (drop n l).
Proof. intros Hn. replace n' with (n + (n' - n)) by lia. rewrite <-drop_drop. apply chg_drop. Qed.
Lemma chg_snoc l x : chg (l ++ [x]) <= chg l + (if decide (last l = Some x) then 0 else 1).
Proof.
  induction l as [|y l IH]; [simpl; lia|]. destruct l as [|z l].
  - simpl. destruct (decide (y = x)), (decide (Some y = Some x)); naive_solver lia.
  - change ((y :: z :: l) ++ [x]) with (y :: z :: (l ++ [x])). rewrite !chg_cons. change (last (y :: z :: l)) with (last (z :: l)). change (z :: (l ++ [x])) with ((z :: l) ++ [x]). lia.
Qed.
Lemma chg_drop_snoc n l x : chg (drop n (l ++ [x])) <= chg (drop n l) + (if decide (last l = Some x) then 0 else 1).
Proof.
  destruct (decide (n < length l)) as [Hlt|Hge].
  - rewrite drop_app_le by lia. etrans; [apply chg_snoc|]. assert (last (drop n l) = last l) as ->; [|done].
    rewrite !last_lookup, lookup_drop, drop_length. f_equal. lia.
  - rewrite drop_app_ge by lia. destruct (n - length l); simpl; [lia|]. rewrite drop_nil. simpl. lia.
Qed.
Lemma chg_strict n n' l x y : n <= n' -> l !! n = Some x -> l !! n' = Some y -> x <> y -> chg (drop n' l) + 1 <= chg (drop n l).
Proof.
  revert n n'. induction l as [|z l IH]; intros n n' Hn Hx Hy Hne; [done|]. destruct n as [|n].
  - destruct n' as [|n']; [simpl in *; congruence|]. cbn [drop]. injection Hx as ->. clear IH Hn. cbn [lookup list_lookup] in Hy.
    revert n' x Hy Hne. induction l as [|z l IH]; intros n' x Hy Hne; [done|]. rewrite chg_cons. destruct n' as [|n'].
    + injection Hy as ->. rewrite decide_False by done. simpl. lia.
    + cbn [drop]. destruct (decide (x = z)) as [->|Hxz]; [specialize (IH n' z Hy Hne); lia|].
      pose proof (chg_drop n' l). pose proof (chg_tail z l). lia.
  - destruct n' as [|n']; [lia|]. cbn [drop]. eapply IH; [lia|done|done|done].
Qed.
End chg.

(** ** Sums over the cells of the first [k] nodes *)
Definition node_no (j : nat) : loc := Pos.of_succ_nat j.
Definition csum (f : cell -> nat) (k : nat) : nat := f CRoot + sum_list_with (fun j => sum_list_with (fun i => f (CSlot (node_no j) i)) (seq 0 16)) (seq 0 k).
Definition in_cells (k : nat) (c : cell) : Prop := match c with CRoot => True | CSlot l i => Pos.to_nat l <= k /\ i < 16 end.

Lemma slw_le {A} (f g : A -> nat) l : (forall x, x ∈ l -> f x <= g x) -> sum_list_with f l <= sum_list_with g l.
Proof. induction l as [|x l IH]; intros H; simpl; [done|]. specialize (IH ltac:(intros; apply H; by right)). specialize (H x ltac:(by left)). lia. Qed.
Lemma slw_one {A} `{EqDecision A} (f g : A -> nat) d l x : NoDup l -> (forall y, y ∈ l -> y <> x -> f y <= g y) -> f x <= g x + d -> sum_list_with f l <= sum_list_with g l + d.
Proof.
  induction l as [|y l IH]; intros Hnd H Hx; simpl; [lia|]. apply NoDup_cons in Hnd as [Hni Hnd]. destruct (decide (y = x)) as [->|Hne].
  - assert (sum_list_with f l <= sum_list_with g l); [|lia]. apply slw_le. intros z Hz. apply H; [by right|]. intros ->. done.
  - specialize (IH Hnd ltac:(intros z Hz; apply H; by right) Hx). specialize (H y ltac:(by left) Hne). lia.
Qed.
Lemma slw_strict {A} (f g : A -> nat) l x : (forall y, y ∈ l -> f y <= g y) -> x ∈ l -> f x + 1 <= g x -> sum_list_with f l + 1 <= sum_list_with g l.
Proof.
  induction l as [|y l IH]; intros H Hin Hx; [by apply elem_of_nil in Hin|]. simpl. apply elem_of_cons in Hin as [->|Hin].
  - assert (sum_list_with f l <= sum_list_with g l); [|lia]. apply slw_le. intros z Hz. apply H. by right.
  - specialize (IH ltac:(intros z Hz; apply H; by right) Hin Hx). specialize (H y ltac:(by left)). lia.
Qed.

Lemma csum_le f g k : (forall c, f c <= g c) -> csum f k <= csum g k.
Proof. intros H. unfold csum. pose proof (H CRoot). cut (sum_list_with (λ j, sum_list_with (λ i, f (CSlot (node_no j) i)) (seq 0 16)) (seq 0 k) <= sum_list_with (λ j, sum_list_with (λ i, g (CSlot (node_no j) i)) (seq 0 16)) (seq 0 k)); [lia|]. apply slw_le. intros j _. apply slw_le. intros i _. apply H. Qed.
Lemma csum_one f g k c d : (forall x, x <> c -> f x <= g x) -> f c <= g c + d -> csum f k <= csum g k + d.
Proof.
  intros H Hc. unfold csum. destruct c as [|l i0].
  - cut (sum_list_with (λ j, sum_list_with (λ i, f (CSlot (node_no j) i)) (seq 0 16)) (seq 0 k) <= sum_list_with (λ j, sum_list_with (λ i, g (CSlot (node_no j) i)) (seq 0 16)) (seq 0 k)); [lia|]. apply slw_le. intros j _. apply slw_le. intros i _. by apply H.
  - pose proof (H CRoot ltac:(done)). cut (sum_list_with (λ j, sum_list_with (λ i, f (CSlot (node_no j) i)) (seq 0 16)) (seq 0 k) <= sum_list_with (λ j, sum_list_with (λ i, g (CSlot (node_no j) i)) (seq 0 16)) (seq 0 k) + d); [lia|].
    apply (slw_one _ _ d _ (pred (Pos.to_nat l))); [apply NoDup_seq| |].
    + intros j _ Hne. apply slw_le. intros i _. apply H. intros [= E _]. apply Hne. rewrite <-E. unfold node_no. by rewrite SuccNat2Pos.pred_id || lia.
    + apply (slw_one _ _ d _ i0); [apply NoDup_seq| |].
      * intros i _ Hne. apply H. congruence.
      * assert (node_no (pred (Pos.to_nat l)) = l) as ->; [|done]. unfold node_no. lia.
Qed.
Lemma csum_strict f g k c : (forall x, f x <= g x) -> in_cells k c -> f c + 1 <= g c -> csum f k + 1 <= csum g k.
Proof.
  intros H Hin Hc. unfold csum. destruct c as [|l i0].
  - cut (sum_list_with (λ j, sum_list_with (λ i, f (CSlot (node_no j) i)) (seq 0 16)) (seq 0 k) <= sum_list_with (λ j, sum_list_with (λ i, g (CSlot (node_no j) i)) (seq 0 16)) (seq 0 k)); [lia|]. apply slw_le. intros j _. apply slw_le. intros i _. by apply H.
  - pose proof (H CRoot). destruct Hin as [Hl Hi]. rewrite <-Nat.add_assoc. apply Nat.add_le_mono; [done|].
    apply (slw_strict _ _ _ (pred (Pos.to_nat l))).
    + intros j _. apply slw_le. intros i _. apply H.
    + apply elem_of_seq. lia.
    + apply (slw_strict _ _ _ i0); [intros i _; apply H|apply elem_of_seq; lia|]. assert (node_no (pred (Pos.to_nat l)) = l) as ->; [|done]. unfold node_no. lia.
Qed.
Lemma csum_ext f k k' : k <= k' -> (forall l i, k < Pos.to_nat l -> f (CSlot l i) = 0) -> csum f k' = csum f k.
Proof.
  intros Hk H. unfold csum. f_equal. replace k' with (k + (k' - k)) by lia. rewrite seq_app, sum_list_with_app.
  cut (sum_list_with (λ j, sum_list_with (λ i, f (CSlot (node_no j) i)) (seq 0 16)) (seq (0 + k) (k' - k)) = 0); [lia|].
  assert (forall l, (forall j, j ∈ l -> k <= j) -> sum_list_with (λ j, sum_list_with (λ i, f (CSlot (node_no j) i)) (seq 0 16)) l = 0) as Hz.
  { intros l. induction l as [|j l IH]; intros Hj; [done|]. cbn [sum_list_with]. rewrite IH by (intros; apply Hj; by right).
    assert (k <= j) as Hkj by (apply Hj; by left). assert (forall i, f (CSlot (node_no j) i) = 0) as E by (intros i; apply H; unfold node_no; lia). rewrite Nat.add_0_r.
    generalize (seq 0 16). intros q. induction q as [|i q IHq]; [done|]. cbn [sum_list_with]. by rewrite E, IHq. }
  apply Hz. intros j Hj%elem_of_seq. lia.
Qed.
