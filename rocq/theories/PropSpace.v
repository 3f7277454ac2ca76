(** * Property C55: the memory a map uses is proportional to what is in it. *)
From Verif Require Import Model Mem Inv Safe SafeSys Spec LinSpec IterSpec SeqSpec SpaceSpec Concrete SafeProps SysSem Lin LinProps PropSeq SeqHist Refuted.

Section space.
Context {C : Config} `{!ConfigOk C}.
Implicit Types (s : state) (m : mem).

(** Counting: if every one of [Q] has two of [P] to itself, [Q] has at most half as many. *)
Lemma count_two {A B} `{EqDecision A, EqDecision B} (f : A -> B) (Q : list B) : forall P : list A, NoDup Q ->
  (forall q, q ∈ Q -> exists p1 p2, p1 ∈ P /\ p2 ∈ P /\ p1 <> p2 /\ f p1 = q /\ f p2 = q) -> 2 * length Q <= length P.
Proof.
  induction Q as [|q Q IH]; intros P Hn Hq; [simpl; lia|]. apply NoDup_cons in Hn as [Hnq Hn].
  assert (2 * length Q <= length (filter (fun p => f p <> q) P)) as H1.
  { apply IH; [done|]. intros q' Hq'. destruct (Hq q') as (p1 & p2 & ? & ? & ? & E1 & E2); [by right|]. exists p1, p2.
    assert (q' <> q) by congruence. rewrite !elem_of_list_filter. naive_solver. }
  assert (2 + length (filter (fun p => f p <> q) P) <= length P) as H2; [|simpl in *; lia].
  destruct (Hq q) as (p1 & p2 & H1' & H2' & Hne & E1 & E2); [by left|].
  apply elem_of_list_split in H1' as (P1 & P2 & ->).
  assert (p2 ∈ P1 ++ P2) as H3 by (rewrite elem_of_app, elem_of_cons in H2'; rewrite elem_of_app; naive_solver).
  assert (filter (fun p => f p <> q) (P1 ++ p1 :: P2) = filter (fun p => f p <> q) (P1 ++ P2)) as ->.
  { rewrite !filter_app, filter_cons, decide_False by naive_solver. done. }
  assert (length (P1 ++ p1 :: P2) = S (length (P1 ++ P2))) as -> by (rewrite !app_length; simpl; lia).
  revert H3. generalize (P1 ++ P2). intros P H3. apply elem_of_list_split in H3 as (P3 & P4 & ->).
  rewrite filter_app, filter_cons, decide_False by naive_solver. rewrite !app_length. simpl.
  assert (forall l : list A, length (filter (fun p => f p <> q) l) <= length l) as Hfl.
  { intros l. induction l as [|x l IHl]; [done|]. rewrite filter_cons. destruct (decide _); simpl; lia. }
  pose proof (Hfl P3). pose proof (Hfl P4). lia.
Qed.

Lemma count_levels (Q : list (list nat)) n h : (forall d, d < h -> 2 * length (filter (fun q => length q = d) Q) <= n) -> Forall (fun q => length q < h) Q ->
  2 * length Q <= h * n.
Proof.
  revert Q. induction h as [|h IH]; intros Q Hd Hl.
  - destruct Q as [|q Q]; [simpl; lia|]. apply Forall_cons in Hl as [? _]. lia.
  - assert (2 * length (filter (fun q => length q <> h) Q) <= h * n) as H1.
    { apply IH.
      - intros d Hlt. etrans; [|apply (Hd d); lia]. assert (filter (fun q => length q = d) (filter (fun q => length q <> h) Q) = filter (fun q => length q = d) Q) as ->; [|done].
        clear -Hlt. induction Q as [|q Q IHQ]; [done|]. rewrite !filter_cons. destruct (decide (length q <> h)) as [Hn|Hn].
        + rewrite filter_cons. destruct (decide (length q = d)); [by rewrite IHQ|done].
        + rewrite (decide_False (P := length q = d)) by lia. done.
      - apply Forall_forall. intros q Hq. apply elem_of_list_filter in Hq as [Hq1 Hq2]. pose proof (proj1 (Forall_forall _ _) Hl q Hq2). simpl in *. lia. }
    pose proof (Hd h ltac:(lia)) as H2.
    assert (length Q = length (filter (fun q => length q = h) Q) + length (filter (fun q => length q <> h) Q)) as H3; [|simpl in *; lia].
    clear. induction Q as [|q Q IHQ]; [done|]. rewrite !filter_cons. destruct (decide (length q = h)).
    + rewrite decide_False by naive_solver. simpl. lia.
    + rewrite decide_True by done. simpl. lia.
Qed.

Lemma linked_path m l : linked m l -> exists q v, at_path m q v /\ sh_loc v = Some l.
Proof.
  intros [n Hl]. induction Hl as [l Hl|n l a sl w l' _ (q & v & Hp & Hv) Hh Hw Hl'].
  - exists [], (m_root m). split; [constructor|done].
  - apply elem_of_list_lookup in Hw as [i Hi]. exists (q ++ [i]), w. split; [|done]. by eapply at_slot.
Qed.

Lemma at_path_fun m q v v' : at_path m q v -> at_path m q v' -> v = v'.
Proof.
  intros H. revert v'. induction H as [|q v l a sl i w Hp IH Hl Hh Hi]; intros v' H'.
  - inversion H' as [|q' ? ? ? ? ? ? ? ? ? ? E]; [done|]. by destruct q'.
  - inversion H' as [E|q' v1 l1 a1 sl1 i1 w1 Hp1 Hl1 Hh1 Hi1 E]; [by destruct q|]. apply app_inj_tail in E as [-> ->].
    apply IH in Hp1. subst v1. rewrite Hl in Hl1. injection Hl1 as <-. rewrite Hh in Hh1. injection Hh1 as <- <-. congruence.
Qed.

(** The first [d] digits of the hash. *)
Definition digits k d : list nat := map (digit k) (seq 0 d).
Lemma digits_prefix k q : hash_prefix k q -> digits k (length q) = q.
Proof.
  intros H. apply list_eq. intros i. unfold digits. rewrite list_lookup_fmap. destruct (decide (i < length q)) as [Hi|Hi].
  - rewrite lookup_seq_lt by done. simpl. destruct (lookup_lt_is_Some_2 q i Hi) as [x Hx]. rewrite Hx. f_equal. by apply H.
  - rewrite lookup_seq_ge by lia. simpl. symmetry. apply lookup_ge_None. lia.
Qed.

(** [R x y] picks for every [x] of a list a [y]; distinct ones for distinct ones. *)
Lemma choose_list {A B} (R : A -> B -> Prop) (l : list A) : NoDup l -> (forall x, x ∈ l -> exists y, R x y) ->
  (forall x x' y, x ∈ l -> x' ∈ l -> R x y -> R x' y -> x = x') -> exists l', NoDup l' /\ length l' = length l /\ forall y, y ∈ l' -> exists x, x ∈ l /\ R x y.
Proof.
  induction l as [|x l IH]; intros Hn HR Hi; [exists []; split; [constructor|]; split; [done|]; intros y Hy; by apply elem_of_nil in Hy|].
  apply NoDup_cons in Hn as [Hx Hn]. destruct IH as (l' & Hn' & Hl' & H'); [done|intros z Hz; apply HR; by right|intros z z' y Hz Hz'; apply Hi; by right|].
  destruct (HR x) as [y Hy]; [by left|]. exists (y :: l'). split; [|split; [simpl; by rewrite Hl'|]].
  - apply NoDup_cons. split; [|done]. intros (z & Hz & Hzy)%H'. apply Hx. rewrite (Hi x z y); [done|by left|by right|done|done].
  - intros y' [->|Hy']%elem_of_cons; [exists x; split; [by left|done]|]. destruct (H' _ Hy') as (z & ? & ?). exists z. split; [by right|done].
Qed.


Theorem space_inner ls s ev (nodes : list loc) (elems : list Pl) : exec ls s ev -> wf_calls ls -> removals_alone ls -> no_writer s -> s_dropped s = false ->
  NoDup nodes -> (forall l, l ∈ nodes -> linked (s_mem s) l /\ inner_at (s_mem s) l) -> (forall p, stored (s_mem s) p -> exists p', p' ∈ elems /\ p' = p) ->
  length nodes <= 8 * length elems.
Proof.
  intros Hx Hw Ha Hnw Hd Hnd Hno Hel.
  destruct (C19_pruned ls s ev Hx Hw Ha Hnw Hd) as (_ & Hbr & _). set (m := s_mem s) in *.
  destruct (choose_list (fun l q => exists v, at_path m q v /\ sh_loc v = Some l) nodes Hnd) as (Q & HnQ & HlQ & HQ).
  { intros l [Hl _]%Hno. apply linked_path in Hl as (q & v & ? & ?). eauto. }
  { intros l l' q _ _ (v & Hv & El) (v' & Hv' & El'). rewrite (at_path_fun _ _ _ _ Hv Hv') in El. congruence. }
  assert (forall q, q ∈ Q -> branch_at m q) as Hb.
  { intros q (l & Hl & v & Hv & Ev)%HQ. destruct (Hno l Hl) as [_ (a & sl & Hh)]. by exists v, l, a, sl. }
  assert (2 * length Q <= 16 * length elems); [|lia].
  apply count_levels.
  - intros d Hlt. destruct (decide (length elems = 0)) as [E0|E0].
    { destruct (filter _ Q) as [|q Q'] eqn:EQ; [simpl; lia|]. assert (q ∈ filter (fun q => length q = d) Q) as Hq by (rewrite EQ; by left).
      apply elem_of_list_filter in Hq as [_ Hq]. apply Hb, Hbr in Hq as (_ & p1 & _ & Hp1 & _). apply Hel in Hp1 as (p' & Hp' & _).
      destruct elems; [by apply elem_of_nil in Hp'|done]. }
    (* the elements need not have decidable equality: count positions *)
    set (f := fun i : nat => match elems !! i with Some p => digits (keyof p) d | None => [] end).
    rewrite <-(seq_length (length elems) 0). apply (count_two f).
    + by apply NoDup_filter.
    + intros q [Hq1 Hq2]%elem_of_list_filter. apply Hb, Hbr in Hq2 as (_ & p1 & p2 & Hp1 & Hp2 & Hk & Hh1 & Hh2).
      apply Hel in Hp1 as (? & Hp1 & ->). apply Hel in Hp2 as (? & Hp2 & ->).
      apply elem_of_list_lookup in Hp1 as [i1 Hi1]. apply elem_of_list_lookup in Hp2 as [i2 Hi2]. exists i1, i2.
      rewrite !elem_of_seq. pose proof (lookup_lt_Some _ _ _ Hi1). pose proof (lookup_lt_Some _ _ _ Hi2).
      split; [lia|]. split; [lia|]. unfold f. rewrite Hi1, Hi2, <-Hq1, !digits_prefix by done. split; [|done].
      intros ->. assert (p1 = p2) as -> by congruence. pose proof (keqb_refl (keyof p2)). congruence.
  - apply Forall_forall. intros q Hq. apply Hb, Hbr in Hq as [? _]. done.
Qed.

Lemma prefix_le_eq (q1 q2 : list nat) k : hash_prefix k q1 -> hash_prefix k q2 -> length q1 <= length q2 -> exists q, q2 = q1 ++ q.
Proof.
  intros H1%digits_prefix H2%digits_prefix Hle. exists (map (digit k) (seq (length q1) (length q2 - length q1))).
  assert (q1 ++ map (digit k) (seq (length q1) (length q2 - length q1)) = digits k (length q1) ++ map (digit k) (seq (length q1) (length q2 - length q1))) as -> by (by rewrite H1).
  unfold digits. rewrite <-map_app, <-seq_app. replace (length q1 + (length q2 - length q1)) with (length q2) by lia. by rewrite <-H2 at 1.
Qed.

Theorem space_data ls s ev (nodes : list loc) (elems : list Pl) : exec ls s ev -> wf_calls ls -> s_dropped s = false ->
  NoDup nodes -> (forall l, l ∈ nodes -> linked (s_mem s) l /\ data_at (s_mem s) l) -> (forall p, stored (s_mem s) p -> p ∈ elems) ->
  length nodes <= length elems.
Proof.
  intros Hx Hw Hd Hnd Hno Hel. destruct (exec_full _ _ _ Hx Hw Hd) as [pos Hf].
  pose proof (li_mem _ _ (fu_live _ _ Hf)) as Hm. set (m := s_mem s) in *.
  assert (forall l, l ∈ nodes -> exists q v a p it, at_path m q v /\ sh_loc v = Some l /\ m_heap m !! l = Some (HObj a (BData (p :: it))) /\ stored m p /\ leaf_at m q p) as Hleaf.
  { intros l Hl. destruct (Hno l Hl) as [Hlk (a & it & Hh)]. destruct (linked_path _ _ Hlk) as (q & v & Hp & Hv).
    assert (it <> []) as Hne by (eapply (mi_data _ _ Hm l); unfold hbody; by rewrite Hh). destruct it as [|p it]; [done|].
    exists q, v, a, p, it. split; [done|]. split; [done|]. split; [done|]. split; [exists l, a, (p :: it)|exists v, l, a, (p :: it)];
      repeat split_and; try done; by left. }
  destruct (choose_list (fun l i => exists p q v, elems !! i = Some p /\ at_path m q v /\ sh_loc v = Some l /\ leaf_at m q p) nodes Hnd) as (I & HnI & HlI & HI).
  - intros l Hl. destruct (Hleaf l Hl) as (q & v & a & p & it & ? & ? & ? & Hst & ?). apply Hel, elem_of_list_lookup in Hst as [i Hi]. exists i, p, q, v. done.
  - intros l l' i _ _ (p & q & v & Hi & Hv & El & Hl) (p' & q' & v' & Hi' & Hv' & El' & Hl'). assert (p' = p) as -> by congruence.
    pose proof (proj1 (C19_leaves ls s ev Hx Hw Hd q p) Hl) as (_ & _ & Hh & Hnb & Hbr).
    pose proof (proj1 (C19_leaves ls s ev Hx Hw Hd q' p) Hl') as (_ & _ & Hh' & Hnb' & Hbr').
    assert (q = q') as ->.
    { destruct (decide (length q <= length q')).
      - destruct (prefix_le_eq q q' (keyof p)) as [[|i0 r] ->]; [done|done|done|by rewrite app_nil_r|]. exfalso. by eapply Hnb, Hbr'.
      - destruct (prefix_le_eq q' q (keyof p)) as [[|i0 r] ->]; [done|done|lia|by rewrite app_nil_r|]. exfalso. by eapply Hnb', Hbr. }
    rewrite (at_path_fun _ _ _ _ Hv Hv') in El. congruence.
  - rewrite <-HlI. rewrite <-(seq_length (length elems) 0). apply submseteq_length, NoDup_submseteq; [done|].
    intros i (l & _ & p & q & v & Hi & _)%HI. apply elem_of_seq. apply lookup_lt_Some in Hi. lia.
Qed.


Lemma in_use_linked s l : reachable s -> s_dropped s = false -> in_use (s_mem s) l -> linked (s_mem s) l.
Proof.
  intros [_ H]%reach_sinv Hd (Hh & Hg & Hf). rewrite Hd in H. destruct H as [pos H].
  apply hbody_is_Some in Hh as [b Hb]. eapply live_linked; [apply (li_mem _ _ H)|exact Hb|]. intros [?|?]; done.
Qed.
End space.

(** If no two removals overlapped and no modifying call is in progress, a map with [n] elements consists of at most [8 n]
    branching nodes and [n] data nodes; everything else that was ever allocated has been handed to the collector or freed. *)
Theorem C55_space `{C : Config} `{!ConfigOk C} : forall ls s ev (nodes : list loc) (elems : list Pl),
  exec ls s ev -> wf_calls ls -> removals_alone ls -> no_writer s -> s_dropped s = false ->
  (forall p, stored (s_mem s) p -> p ∈ elems) -> NoDup nodes -> (forall l, l ∈ nodes -> in_use (s_mem s) l) ->
  length nodes <= 9 * length elems /\
  ((forall l, l ∈ nodes -> inner_at (s_mem s) l) -> length nodes <= 8 * length elems) /\
  ((forall l, l ∈ nodes -> data_at (s_mem s) l) -> length nodes <= length elems).
Proof.
  intros ls s ev nodes elems Hx Hw Ha Hn Hd Hel Hnd Hno.
  assert (reachable s) as Hr by (by exists ls, ev).
  assert (forall l, l ∈ nodes -> linked (s_mem s) l) as Hlk by (intros l Hl; apply in_use_linked; [done|done|by apply Hno]).
  assert (forall N : list loc, NoDup N -> (forall l, l ∈ N -> l ∈ nodes) -> (forall l, l ∈ N -> inner_at (s_mem s) l) -> length N <= 8 * length elems) as H1.
  { intros N HN Hs Hi. apply (space_inner ls s ev N elems Hx Hw Ha Hn Hd HN); [intros l Hl; split; auto|]. intros p Hp. exists p. auto. }
  assert (forall N : list loc, NoDup N -> (forall l, l ∈ N -> l ∈ nodes) -> (forall l, l ∈ N -> data_at (s_mem s) l) -> length N <= length elems) as H2.
  { intros N HN Hs Hi. apply (space_data ls s ev N elems Hx Hw Hd HN); [intros l Hl; split; auto|done]. }
  split; [|split; intros H; [apply H1|apply H2]; auto].
  set (isd := fun l => match m_heap (s_mem s) !! l with Some (HObj _ (BData _)) => true | _ => false end).
  assert (length nodes = length (filter (fun l => isd l = true) nodes) + length (filter (fun l => isd l = false) nodes)) as ->.
  { clear. induction nodes as [|l N IH]; [done|]. rewrite !filter_cons. destruct (isd l); simpl; lia. }
  assert (length (filter (fun l => isd l = true) nodes) <= length elems) as H3.
  { apply H2; [by apply NoDup_filter|by intros l [_ ?]%elem_of_list_filter|]. intros l [Hl _]%elem_of_list_filter. unfold isd, data_at in *.
    destruct (m_heap (s_mem s) !! l) as [[a [|it]]|]; try done. eauto. }
  assert (length (filter (fun l => isd l = false) nodes) <= 8 * length elems) as H4; [|lia].
  apply H1; [by apply NoDup_filter|by intros l [_ ?]%elem_of_list_filter|]. intros l [Hl Hin]%elem_of_list_filter. unfold isd, inner_at in *.
  destruct (Hno l Hin) as [[[a b] Hh] _]. rewrite Hh in *. destruct b; [eauto|done].
Qed.
Print Assumptions C55_space.

(** ** The hypotheses can be met, and the bound is exact
    Keys 0 and 15 * 2^60 differ only in the last digit of their hash.  After five more calls that leave nothing behind, the map consists of 16 branching nodes
    and 2 data nodes. *)
Definition spops : list (@oper CN) := [ins 0 1; ins (15 * 2 ^ 60) 2; ins 7 3; ins 16 4; rem 7; rem 16; ins 0 5].
Definition used_nodes (s : @state CN) : list loc := filter (fun l => bool_decide (l ∉ ((fun g => g.1.1) <$> m_garb (s_mem s)) /\ l ∉ (m_freed (s_mem s)).*1) = true)
  (map_to_list (m_heap (s_mem s))).*1.
Lemma used_nodes_spec s : NoDup (used_nodes s) /\ forall l, l ∈ used_nodes s -> in_use (s_mem s) l.
Proof.
  split; [unfold used_nodes; apply NoDup_filter, NoDup_fst_map_to_list|].
  intros l [Hb Hl]%elem_of_list_filter. apply bool_decide_eq_true_1 in Hb as [Hg Hf].
  split; [|split; assumption]. apply elem_of_list_fmap in Hl as ([l' o] & -> & Hl). apply elem_of_map_to_list in Hl. by exists o.
Qed.
Definition spnodes : list loc := used_nodes (sfin spops).

(** All elements in nodes in use are among [elems]. *)
Definition stored_inb (s : @state CN) (elems : list (@Pl CN)) : bool :=
  forallb (fun lo => bool_decide (lo.1 ∈ (((fun g => g.1.1) <$> m_garb (s_mem s)) ++ (m_freed (s_mem s)).*1)) ||
    match ho_body lo.2 with BData it => forallb (fun p => bool_decide (p ∈ (elems : list (N * N)))) it | BInner _ => true end) (map_to_list (m_heap (s_mem s))).
Lemma stored_inb_spec s elems : reachable s -> s_dropped s = false -> stored_inb s elems = true -> forall p, stored (s_mem s) p -> p ∈ elems.
Proof.
  intros Hr Hd H p (l & a & it & Hl & Hh & Hp). destruct (linked_not_dead s l Hr Hd Hl) as (H1 & H2 & _). unfold stored_inb in H. rewrite forallb_forall in H.
  specialize (H (l, HObj a (BData it))). simpl in H. rewrite bool_decide_eq_false_2 in H by (intros [?|?]%elem_of_app; done).
  specialize (H (proj1 (elem_of_list_In _ _) (proj2 (elem_of_map_to_list _ _ _) Hh))). simpl in H. rewrite forallb_forall in H.
  specialize (H p (proj1 (elem_of_list_In _ _) Hp)). by apply bool_decide_eq_true_1 in H.
Qed.

Example C55_example : exists ls s ev (nodes : list loc) (elems : list Pl),
  exec ls s ev /\ wf_calls ls /\ removals_alone ls /\ no_writer s /\ s_dropped s = false /\ (forall p, stored (s_mem s) p -> p ∈ elems) /\
  NoDup nodes /\ (forall l, l ∈ nodes -> in_use (s_mem s) l) /\ length elems = 2 /\ length nodes = 18.
Proof.
  destruct (seq_check_spec spops ltac:(vm_compute; reflexivity)) as (H1 & H2 & H3 & H4 & H5).
  exists (sls spops), (sfin spops), (sevs spops), spnodes, [el 0 5; el (15 * 2 ^ 60) 2].
  split; [exact H1|]. split; [exact H2|]. split; [exact (sequential_alone _ H3)|].
  split; [intros o op Hp; destruct (H4 _ _ Hp)|]. split; [exact H5|].
  split; [apply stored_inb_spec; [exists (sls spops), (sevs spops); exact H1|exact H5|vm_compute; reflexivity]|].
  destruct (used_nodes_spec (sfin spops)) as [H6 H7]. split; [exact H6|]. split; [exact H7|].
  split; [reflexivity|vm_compute; reflexivity].
Qed.

(** ** Overlapping removals are excluded for a reason
    After the three overlapping removals of [C18_refuted] all calls have returned and the map is empty, and yet it still owns a branching node. *)
Theorem C55_needs_alone : exists ls s ev (nodes : list loc),
  @exec CN ls s ev /\ wf_calls ls /\ quiescent s /\ s_dropped s = false /\
  (forall p, ~ stored (s_mem s) p) /\ NoDup nodes /\ (forall l, l ∈ nodes -> in_use (s_mem s) l) /\ 0 < length nodes.
Proof.
  destruct (exec_of three_removals ltac:(vm_compute; reflexivity)) as [Hx Hw].
  exists (schedule three_removals), (fin three_removals), (evs three_removals), (used_nodes (fin three_removals)).
  split; [exact Hx|]. split; [exact Hw|].
  split; [apply quiesb_spec; vm_compute; reflexivity|]. split; [vm_compute; reflexivity|].
  split; [intros p Hp; apply (stored_inb_spec (fin three_removals) [] (ex_intro _ _ (ex_intro _ _ Hx)) ltac:(vm_compute; reflexivity) ltac:(vm_compute; reflexivity)) in Hp;
    by apply elem_of_nil in Hp|].
  destruct (used_nodes_spec (fin three_removals)) as [H6 H7]. split; [exact H6|]. split; [exact H7|].
  assert (0 <? length (used_nodes (fin three_removals)) = true) as H by (vm_compute; reflexivity). by apply Nat.ltb_lt in H.
Qed.
