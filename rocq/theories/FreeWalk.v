(** * Reclamation on weakly ordered memory, 3: a call that is synchronised with the registration of a node does not meet the node. *)
From Verif Require Import Model Mem Spec Inv Safe WeakWalk Weak WeakCoh LinSpec WeakTime Iter WeakIter WeakFree.

Section fwalk.
Context {C : Config} {HC : ConfigOk C}.
Implicit Types (c : cell) (v : sh) (l : loc) (M : nat -> mem) (H : nat -> cell -> list sh) (q : nat -> nat).

(** ** Walks along paths *)
Lemma walkq_pre H N H' N' q ws : (forall c, H N c `prefix_of` H' N' c) -> walkq H N q ws -> walkq H' N' q ws.
Proof.
  intros Hp (H1 & H2 & H3). split; [done|]. split; [done|]. intros i c n c' n' Hi Hi'. destruct (H3 _ _ _ _ _ Hi Hi') as (v & x & Hv & ? & ? & ?). exists v, x. split; [|done]. by eapply prefix_lookup.
Qed.
Lemma walkq_root H N q n : (forall i, q i < 16) -> walkq H N q [(CRoot, n)].
Proof. intros Hq. split; [done|]. split; [by exists n|]. intros i c n1 c' n' H1 H2. by destruct i. Qed.
Lemma walkq_end H N q ws c n n' : walkq H N q (ws ++ [(c, n)]) -> walkq H N q (ws ++ [(c, n')]).
Proof.
  intros (Hq & [n0 H0] & Hw). split; [done|]. split.
  - destruct ws as [|x ws]; simpl in *; [|by exists n0]. injection H0 as -> _. by exists n'.
  - intros i c1 n1 c2 n2 H1 H2. pose proof (lookup_lt_Some _ _ _ H2) as Hlt. rewrite app_length in Hlt. simpl in Hlt.
    rewrite lookup_app_l in H1 by lia. assert (exists n3, (ws ++ [(c, n)]) !! S i = Some (c2, n3)) as [n3 H3].
    { destruct (decide (S i < length ws)) as [Hl|Hl]; [rewrite lookup_app_l in H2 |- * by lia; by exists n2|]. assert (S i = length ws) as E by lia.
      rewrite E in *. rewrite lookup_app_r, Nat.sub_diag in H2 |- * by lia. simpl in *. injection H2 as -> ->. by exists n. }
    eapply Hw; [|exact H3]. rewrite lookup_app_l by lia. exact H1.
Qed.
Lemma walkq_cong H N q q' ws : (forall i, q' i < 16) -> (forall i, S i < length ws -> q' i = q i) -> walkq H N q ws -> walkq H N q' ws.
Proof.
  intros Hq' He (Hq & H0 & Hw). split; [done|]. split; [done|]. intros i c n c' n' H1 H2. destruct (Hw _ _ _ _ _ H1 H2) as (v & x & ? & ? & ? & ->). exists v, x. rewrite He; [done|]. by eapply lookup_lt_Some.
Qed.
Lemma walkq_snoc H N q ws c n v x j n' : walkq H N q (ws ++ [(c, n)]) -> H N c !! n = Some v -> sh_loc v = Some x -> sh_data v = false -> j < 16 ->
  exists q', walkq H N q' ((ws ++ [(c, n)]) ++ [(CSlot x j, n')]).
Proof.
  intros Hw0 Hv Hx Hd Hj. exists (fun i => if decide (i = length ws) then j else q i). pose proof Hw0 as (Hq & _).
  assert (walkq H N (fun i => if decide (i = length ws) then j else q i) (ws ++ [(c, n)])) as (Hq' & [n0 H0] & Hw).
  { eapply walkq_cong; [| |exact Hw0]; intros i; [by destruct (decide _)|]. rewrite app_length. simpl. intros Hi. rewrite decide_False by lia. done. }
  split; [done|]. split.
  - exists n0. rewrite lookup_app_l; [done|]. rewrite app_length. simpl. lia.
  - intros i c1 n1 c2 n2 H1 H2. pose proof (lookup_lt_Some _ _ _ H2) as Hlt. rewrite !app_length in Hlt. simpl in Hlt.
    rewrite lookup_app_l in H1 by (rewrite app_length; simpl; lia). destruct (decide (S i < length (ws ++ [(c, n)]))) as [Hl|Hl].
    + rewrite lookup_app_l in H2 by done. by eapply Hw.
    + rewrite app_length in Hl. simpl in Hl. assert (i = length ws) as -> by lia. rewrite lookup_app_r, Nat.sub_diag in H1 by lia. simpl in H1. injection H1 as <- <-.
      rewrite lookup_app_r in H2 by (rewrite app_length; simpl; lia). rewrite app_length in H2. simpl in H2. replace (S (length ws) - (length ws + 1)) with 0 in H2 by lia. simpl in H2. injection H2 as <- <-.
      exists v, x. by rewrite decide_True by done.
Qed.

Lemma qpath_eq q q' n : qpath q n = qpath q' n -> forall i, i < n -> q' i = q i.
Proof.
  intros E i Hi. assert (qpath q n !! i = Some (q i) /\ qpath q' n !! i = Some (q' i)) as [H1 H2]; [|congruence].
  unfold qpath. rewrite !list_lookup_fmap, lookup_seq_lt by done. done.
Qed.
Lemma qpath_path q k n : qpath q n `prefix_of` path k -> forall i, i < n -> nib k i = q i.
Proof.
  intros Hp i Hi. pose proof (prefix_path_len _ _ Hp) as Hl. rewrite qpath_len in Hl. assert (qpath q n !! i = Some (q i)) as H1. { unfold qpath. by rewrite list_lookup_fmap, lookup_seq_lt. }
  eapply prefix_lookup in H1; [|exact Hp]. rewrite path_lookup in H1 by lia. congruence.
Qed.

(** ** Registrations *)
(** When the registration was made, the node had been replaced in the trie; the call that registered it has seen this. *)
Definition reg_ok M H N (g : reg) : Prop := exists q ws c n v t n0 u0,
  walkq H N q (ws ++ [(c, n)]) /\ holds M H N t c n v /\ (sh_data u0 = true -> leafy v) /\ H N c !! n0 = Some u0 /\ sh_loc u0 = Some (g_loc g) /\
  (forall x a, (x, a) ∈ ws ++ [(c, n)] -> a <= g_fl g x) /\ dead (M t) (g_loc g).

Lemma reg_ok_mono M H N M' H' N' g : (forall t, t <= N -> M' t = M t) -> (forall t c n v, holds M H N t c n v -> holds M' H' N' t c n v) -> (forall c, H N c `prefix_of` H' N' c) ->
  reg_ok M H N g -> reg_ok M' H' N' g.
Proof.
  intros K1 K2 K3 (q & ws & c & n & v & t & n0 & u0 & H1 & H2 & H3 & H4 & H5 & H6 & H7). exists q, ws, c, n, v, t, n0, u0. split; [by eapply walkq_pre|]. split; [by apply K2|]. split; [done|].
  split; [by eapply prefix_lookup|]. split; [done|]. split; [done|]. rewrite K1; [done|]. apply H2.
Qed.

Lemma not_retired M H N pos g q ws c n v l : timeline M H N pos -> leaf_path H N pos (M N) -> reg_ok M H N g ->
  walkq H N q (ws ++ [(c, n)]) -> H N c !! n = Some v -> sh_loc v = Some l -> (forall x a, (x, a) ∈ ws ++ [(c, n)] -> g_fl g x <= a) -> g_loc g <> l.
Proof.
  intros T Hlp (q0 & ws0 & c0 & n0 & v0 & t & n1 & u0 & H1 & H2 & H3 & H4 & H5 & H6 & H7) Hw Hn Hl Hb <-.
  assert ((ws0 ++ [(c0, n0)]) !! length ws0 = Some (c0, n0)) as E0 by (by rewrite lookup_app_r, Nat.sub_diag by done).
  assert ((ws ++ [(c, n)]) !! length ws = Some (c, n)) as E1 by (by rewrite lookup_app_r, Nat.sub_diag by done).
  destruct (walkq_level _ _ _ _ T _ _ _ _ _ H1 E0) as [P0 _]. destruct (walkq_level _ _ _ _ T _ _ _ _ _ Hw E1) as [P1 _].
  destruct (hist_ptr _ _ _ _ _ _ _ T H4) as [Q0 _]. destruct (hist_ptr _ _ _ _ _ _ _ T Hn) as [Q1 _]. unfold ptr_ok in Q0, Q1. rewrite H5 in Q0. rewrite Hl in Q1.
  assert (forall x a b, (x, a) ∈ ws0 ++ [(c0, n0)] -> (x, b) ∈ ws ++ [(c, n)] -> a <= b) as Hle. { intros x a b Ha Hb'. etrans; [by apply H6|by apply Hb]. }
  assert (exists t', t <= t' /\ holds M H N t' c n v) as (t' & Ht & Hh).
  { destruct (sh_data v) eqn:Ed.
    - destruct Q1 as (it & Hit & _). destruct (sh_data u0) eqn:Eu; [|destruct Q0 as (? & ? & _); congruence]. pose proof (mi_data _ _ (tl_minv _ _ _ _ T N ltac:(lia)) _ _ Hit) as Hne.
      destruct it as [|p it]; [done|]. assert (forall c' n' v', H N c' !! n' = Some v' -> sh_data v' = true -> sh_loc v' = Some (g_loc g) -> cpos pos c' `prefix_of` path (keyof p)) as Hpp.
      { intros c' n' v' Hx1 Hx2 Hx3. eapply Hlp; [exact Hx1|done|done|exact Hit|by left]. }
      apply (walkq_mono _ _ _ _ T (nib (keyof p)) ws0 ws c0 n0 v0); try done.
      + eapply walkq_cong; [apply nib_lt| |exact H1]. rewrite app_length. simpl. intros i Hi. apply (qpath_path q0 _ (length ws0)); [|lia]. rewrite <-P0. by eapply Hpp.
      + left. by apply H3.
      + eapply walkq_cong; [apply nib_lt| |exact Hw]. rewrite app_length. simpl. intros i Hi. apply (qpath_path q _ (length ws)); [|lia]. rewrite <-P1. by eapply Hpp.
      + left. by right.
    - destruct Q1 as (sl & Hsl & Hp). destruct (sh_data u0) eqn:Eu; [destruct Q0 as (? & ? & _); congruence|]. destruct Q0 as (_ & _ & Hp0). rewrite Hp0, P0, P1 in Hp.
      assert (length ws0 = length ws) as El. { apply (f_equal length) in Hp. by rewrite !qpath_len in Hp. }
      apply (walkq_mono _ _ _ _ T q ws0 ws c0 n0 v0); try done; [|right; lia..].
      eapply walkq_cong; [apply Hw| |exact H1]. rewrite app_length. simpl. intros i Hi. apply (qpath_eq q0 q (length ws0)); [|lia]. rewrite Hp. by rewrite El. }
  destruct Hh as (Ht' & Hlv & Hcv & _). apply (mi_live _ _ (tl_minv _ _ _ _ T _ Ht') _ _ _ Hcv Hlv Hl). by eapply (tl_dead _ _ _ _ T t t').
Qed.
End fwalk.
