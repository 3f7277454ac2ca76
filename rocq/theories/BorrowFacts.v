(** * Programs that pass the borrow checker do not use what is gone (Borrow.v). *)
From Verif Require Import Model Borrow.

Lemma keeps_all f i : i < length (sg_args (sig_of f)) -> keeps_borrow (sig_of f) i.
Proof.
  assert (forall a b c (l : list (lifetime * lifetime)), (a, b) ∈ l -> (b, c) ∈ l -> rtc (fun a b => (a, b) ∈ l) a c) as H2.
  { intros a b c l H1 H2. eapply rtc_l; [exact H1|]. by apply rtc_once. }
  intros Hi. unfold keeps_borrow. destruct f; cbn in *; (destruct i as [|[|i]]; [| |try lia]); try lia; eexists; (split; [reflexivity|]);
    try (by apply rtc_once; set_solver); try done.
  apply (H2 1 0 2); set_solver.
Qed.

Definition direct (p : list stmt) (r x : var) : Prop := exists f xs i, SCall r f xs ∈ p /\ xs !! i = Some x /\ keeps_borrow (sig_of f) i.
Lemma borrows_tc p r x : borrows p r x <-> tc (direct p) r x.
Proof.
  split.
  - induction 1 as [r f xs i x H1 H2 H3|r y x _ IH1 _ IH2]; [apply tc_once; by exists f, xs, i|by etrans].
  - induction 1 as [r x (f & xs & i & H1 & H2 & H3)|r y x (f & xs & i & H1 & H2 & H3) _ IH]; [by eapply borrows_arg|]. eapply borrows_trans; [|exact IH]. by eapply borrows_arg.
Qed.

Lemma borrows_split a st b y z : (forall r f xs, st <> SCall r f xs) -> borrows (a ++ st :: b) y z ->
  borrows a y z \/ exists w, in_use b w /\ (w = z \/ borrows a w z).
Proof.
  intros Hst H. apply borrows_tc in H. induction H as [y z (f & xs & i & H1 & H2 & H3)|y v z (f & xs & i & H1 & H2 & H3) _ IH].
  - apply elem_of_app in H1 as [H1|H1]; [left; by eapply borrows_arg|]. apply elem_of_cons in H1 as [H1|H1]; [by destruct (Hst y f xs)|].
    right. exists z. split; [|by left]. exists (SCall y f xs). split; [done|]. cbn. by eapply elem_of_list_lookup_2.
  - destruct IH as [IH|IH]; [|by right]. apply elem_of_app in H1 as [H1|H1]; [left; eapply borrows_trans; [by eapply borrows_arg|done]|].
    apply elem_of_cons in H1 as [H1|H1]; [by destruct (Hst y f xs)|].
    right. exists v. split; [|by right]. exists (SCall y f xs). split; [done|]. cbn. by eapply elem_of_list_lookup_2.
Qed.

Record benv_ok (p : list stmt) (e : env) : Prop := {
  be_need : forall y x, x ∈ e_need e y -> borrows p y x;
  be_dropped : forall x, x ∈ e_dropped e -> SDrop x ∈ p;
}.
Lemma borrows_mono p q y x : (forall st, st ∈ p -> st ∈ q) -> borrows p y x -> borrows q y x.
Proof. intros H. induction 1; [eapply borrows_arg; eauto|by eapply borrows_trans]. Qed.

Lemma usable_ok p p1 st p2 e y : accepted p -> p = p1 ++ st :: p2 -> benv_ok p1 e -> mentions st y -> usable e y = true.
Proof.
  intros Ha -> [Hn Hd] Hm. unfold usable. apply forallb_forall. intros x Hx. apply bool_decide_eq_true. intros Hdr. apply Hd in Hdr.
  apply elem_of_list_In, elem_of_cons in Hx. apply elem_of_list_split in Hdr as (a & b & ->).
  destruct (ac_drop _ Ha a x (b ++ st :: p2)) as [H1 H2]; [by rewrite <-app_assoc|].
  assert (in_use (b ++ st :: p2) y) as Hy. { exists st. split; [set_solver|done]. }
  destruct Hx as [->|Hx]; [done|]. apply Hn in Hx. apply borrows_split in Hx; [|done]. destruct Hx as [Hx|(w & (st' & Hw1 & Hw2) & Hw)]; [by eapply H2|].
  assert (in_use (b ++ st :: p2) w) as Hy'. { exists st'. split; [set_solver|done]. } destruct Hw as [->|Hw]; [done|]. by eapply H2.
Qed.

Lemma brun_ok p p1 p2 e : accepted p -> p = p1 ++ p2 -> benv_ok p1 e -> exists e', brun e p2 = Some e'.
Proof.
  intros Ha. revert p1 e. induction p2 as [|st p2 IH]; intros p1 e Hp Hb; [by eexists|]. cbn.
  assert (exists e', bstep e st = Some e' /\ benv_ok (p1 ++ [st]) e') as (e' & -> & Hb').
  { assert (forall y x, borrows p1 y x -> borrows (p1 ++ [st]) y x) as Hmono by (intros y x; apply borrows_mono; set_solver).
    assert (forall x, SDrop x ∈ p1 -> SDrop x ∈ p1 ++ [st]) as Hmono2 by set_solver. destruct Hb as [Hn Hd].
    destruct st as [x|r f xs|r|x]; cbn [bstep].
    - eexists. split; [done|]. split; cbn; [|by auto]. intros y z. destruct (decide (y = x)); [intros H; by apply elem_of_nil in H|auto].
    - assert (forallb (usable e) xs = true) as ->.
      { apply forallb_forall. intros y Hy. eapply (usable_ok p p1); [done|exact Hp|by split|]. by apply elem_of_list_In. }
      eexists. split; [done|]. split; cbn; [|by auto]. intros y z. destruct (decide (y = r)) as [->|]; [|by auto].
      assert (length xs = length (sg_args (sig_of f))) as Hl. { apply (ac_arity _ Ha r). rewrite Hp. set_solver. }
      assert (forall x, x ∈ xs -> borrows (p1 ++ [SCall r f xs]) r x) as Hxs.
      { intros x Hx. apply elem_of_list_lookup in Hx as [i Hx]. apply (borrows_arg _ r f xs i x); [set_solver|exact Hx|]. apply keeps_all. rewrite <-Hl. by apply lookup_lt_Some in Hx. }
      assert (forall z, z ∈ (xs ≫= e_need e) -> borrows (p1 ++ [SCall r f xs]) r z) as Hxs2.
      { intros z' Hz. apply elem_of_list_bind in Hz as (x & Hz & Hx). eapply borrows_trans; [by apply Hxs|auto]. }
      destruct f; cbn; try apply Hxs. intros Hz. apply elem_of_app in Hz as [Hz|Hz]; auto.
    - rewrite (usable_ok p p1 (SUse r) p2 e r); [|done|exact Hp|by split|done]. exists e. split; [done|]. split; auto.
    - rewrite (usable_ok p p1 (SDrop x) p2 e x); [|done|exact Hp|by split|done]. eexists. split; [done|]. split; cbn; [auto|].
      intros y Hy. apply elem_of_cons in Hy as [->|Hy]; [set_solver|auto]. }
  apply (IH (p1 ++ [st])); [by rewrite <-app_assoc|done].
Qed.
