(** * Properties C08-C15: panics, memory safety, reclamation.
    Statements only; the proofs are in SafeProps.v. *)
From Verif Require Import Model Spec Concrete SafeSys SafeProps.

(** ** C08: internal assertions never fire. *)
Theorem C08_no_panic `{C : Config} : forall s o op p, reachable s -> s_ops s !! o <> Some (SFail op (FPanic p)).
Proof. intros s o op p. exact (no_failure s o op (FPanic p)). Qed.
Print Assumptions C08_no_panic.

(** The machine never gets stuck either: an operation in progress can always take its next step. *)
Theorem C08_never_stuck `{C : Config} : forall s o op p spur, reachable s -> s_ops s !! o = Some (SRun op p) ->
  exists a s' e, step s (LStep o spur a) = Some (s', e).
Proof.
  intros s o op p spur _ Ho. destruct (running_steps s o op p spur Ho) as [a Ha]. exists a.
  destruct (step s (LStep o spur a)) as [[s' e]|]; [by exists s', e|done].
Qed.
Print Assumptions C08_never_stuck.

(** ** C09: no operation ever dereferences a freed node or a node of the wrong type; nothing is freed twice and the
    destructor meets no dangling pointer. *)
Theorem C09_no_use_after_free `{C : Config} : forall s, reachable s ->
  s_ub s = false /\ forall o op, s_ops s !! o <> Some (SFail op FUB).
Proof. intros s Hr. split; [exact (no_ub s Hr)|]. intros o op. exact (no_failure s o op FUB Hr). Qed.
Print Assumptions C09_no_use_after_free.

(** ** C10: whatever a call returned or an iterator yielded is valid, and shows the same payload, in every later state in
    which the guard of that call is still held. *)
Theorem C10_refs_stay_valid `{C : Config} : forall ls s ev o r x, exec ls s ev -> o ∈ guards s ->
  (ERet o r ∈ ev /\ x ∈ refs_of r) \/ EYield o x ∈ ev -> ref_valid (s_mem s) x.
Proof. exact refs_valid. Qed.
Print Assumptions C10_refs_stay_valid.

(** ** C11: a node is handed to the collector at most once and freed at most once (in total: it occurs at most once
    among the nodes awaiting destruction and those freed), and such a node is no longer reachable from the root;
    this being true in every reachable state, it never becomes reachable again. *)
Theorem C11_destroyed_at_most_once `{C : Config} : forall s, reachable s ->
  NoDup (((fun g => g.1.1) <$> m_garb (s_mem s)) ++ (m_freed (s_mem s)).*1).
Proof. exact destroyed_once. Qed.
Print Assumptions C11_destroyed_at_most_once.

Theorem C11_reachable_nodes_are_live `{C : Config} : forall s l, reachable s -> s_dropped s = false -> linked (s_mem s) l ->
  l ∉ ((fun g => g.1.1) <$> m_garb (s_mem s)) /\ l ∉ (m_freed (s_mem s)).*1 /\ is_Some (m_heap (s_mem s) !! l).
Proof. exact linked_not_dead. Qed.
Print Assumptions C11_reachable_nodes_are_live.

(** ** C12: once the map has been dropped and the collector has nothing left to do, every node that was ever linked has
    been freed, exactly once; and the collector can always get to that point. *)
Theorem C12_no_leak `{C : Config} : forall s, reachable s -> s_dropped s = true -> m_garb (s_mem s) = [] ->
  NoDup (m_freed (s_mem s)).*1 /\ forall l, is_Some (m_heap (s_mem s) !! l) <-> l ∈ (m_freed (s_mem s)).*1.
Proof. exact all_freed. Qed.
Print Assumptions C12_no_leak.

Theorem C12_collector_finishes `{C : Config} : forall s, reachable s -> s_dropped s = true ->
  exists ls s', run s ls = Some (s', []) /\ s_dropped s' = true /\ m_garb (s_mem s') = [].
Proof. exact collector_finishes. Qed.
Print Assumptions C12_collector_finishes.

(** ** C13 (refuted): a node that holds elements and is still in the map when the map is dropped is freed as if it were an
    inner node, so the destructors of its elements never run (and it is deallocated with the wrong layout).
    This is so for every stored element of every map. *)
Theorem C13_refuted `{C : Config} : forall s s' e p, reachable s -> step s LDrop = Some (s', e) -> stored (s_mem s) p ->
  exists l a it, m_heap (s_mem s') !! l = Some (HObj a (BData it)) /\ p ∈ it /\
    (l, KInner) ∈ m_freed (s_mem s') /\ (l, KData) ∉ m_freed (s_mem s').
Proof.
  intros s s' e p Hr Hst (l & a & it & Hl & Hh & Hp).
  destruct (step_heap_data s LDrop s' e l a it (reach_sinv _ Hr) Hst Hh) as [a' Hh'].
  pose proof (drop_frees_linked s s' e l Hr Hst Hl) as Hin.
  exists l, a', it. split; [exact Hh'|]. split; [exact Hp|]. split; [exact Hin|]. intros Hin'.
  assert (reachable s') as Hr'. { destruct Hr as (ls & ev & Hx). exists (ls ++ [LDrop]), (ev ++ e). exact (run_step _ _ _ _ _ _ _ Hx Hst). }
  pose proof (destroyed_once s' Hr') as Hn. apply NoDup_app in Hn as (_ & _ & Hn).
  apply elem_of_list_lookup in Hin as [i Hi]. apply elem_of_list_lookup in Hin' as [j Hj].
  assert (i = j) as ->.
  { eapply NoDup_lookup; [exact Hn| |]; rewrite list_lookup_fmap; [by rewrite Hi|by rewrite Hj]. }
  congruence.
Qed.
Print Assumptions C13_refuted.

(** A witness: one element is inserted, the map is dropped, the collector has nothing to do; the element's node has been
    freed as an inner node. *)
Theorem C13_refuted_witness : exists s, reachable s /\ s_dropped s = true /\ m_garb (s_mem s) = [] /\
  m_freed (s_mem s) = [(1%positive, KInner)] /\
  exists a, m_heap (s_mem s) !! 1%positive = Some (HObj a (BData [el 5 7])).
Proof.
  destruct (reach_check (seqcalls 1%positive [ins 5 7] ++ [Lab (LUnpin 1%positive); Lab LDrop])
    (fun s => s_dropped s && match m_garb (s_mem s) with [] => true | _ => false end &&
      match m_freed (s_mem s) with [(1%positive, KInner)] => true | _ => false end &&
      match m_heap (s_mem s) !! 1%positive with Some (HObj _ (BData [(5%N, 7%N)])) => true | _ => false end)) as (s & Hr & Hf).
  { vm_compute. reflexivity. }
  exists s. split; [exact Hr|]. apply andb_true_iff in Hf as [Hf H4]. apply andb_true_iff in Hf as [Hf H3].
  apply andb_true_iff in Hf as [H1 H2]. split; [done|]. split; [by destruct (m_garb (s_mem s))|].
  split; [by repeat case_match|]. repeat case_match; try done. simplify_eq. eauto.
Qed.
Print Assumptions C13_refuted_witness.

(** The same fault hits a replacement node that loses a race: it is dropped as an inner node although it holds elements. *)
Theorem C13_refuted_lost_race : exists s it, reachable s /\ s_dropped s = false /\ (BData it, KInner) ∈ m_tmp (s_mem s) /\ it <> [].
Proof.
  destruct (reach_check [Inv 1%positive (ins 5 7); Steps 1 1%positive; Inv 2%positive (ins 6 8); Finish 2%positive; Steps 1 1%positive]
    (fun s => negb (s_dropped s) && match m_tmp (s_mem s) with [(BData [(5%N, 7%N)], KInner)] => true | _ => false end)) as (s & Hr & Hf).
  { vm_compute. reflexivity. }
  apply andb_true_iff in Hf as [H1 H2]. exists s, [el 5 7]. split; [exact Hr|]. split; [by apply negb_true_iff|].
  split; [|done]. repeat case_match; try done. simplify_eq. apply elem_of_list_singleton. done.
Qed.
Print Assumptions C13_refuted_lost_race.

(** What does hold (partial): after the map has been dropped and the collector has run, the elements of every node that
    had been replaced or removed before the drop ([~ linked]) have been destroyed, exactly once; the elements lost are
    exactly those in the map at the time of the drop, and none is destroyed twice. *)
Theorem C13_displaced_destroyed_partial `{C : Config} : forall s s1 e1 ls s2 e2, reachable s -> step s LDrop = Some (s1, e1) ->
  run s1 ls = Some (s2, e2) -> m_garb (s_mem s2) = [] ->
  NoDup (m_freed (s_mem s2)).*1 /\
  forall l a it, m_heap (s_mem s2) !! l = Some (HObj a (BData it)) ->
    (~ linked (s_mem s) l <-> (l, KData) ∈ m_freed (s_mem s2)) /\ (linked (s_mem s) l <-> (l, KInner) ∈ m_freed (s_mem s2)).
Proof.
  intros s s1 e1 ls s2 e2 Hr Hst Hrun Hg.
  assert (reachable s2) as Hr2.
  { destruct Hr as (ls0 & ev & Hx). exists ((ls0 ++ [LDrop]) ++ ls), ((ev ++ e1) ++ e2). unfold exec. rewrite run_app.
    rewrite (run_step _ _ _ _ _ _ _ Hx Hst), Hrun. done. }
  split. { pose proof (destroyed_once s2 Hr2) as Hn. by apply NoDup_app in Hn as (_ & _ & Hn). }
  intros l a it Hh. destruct (drop_kinds s s1 e1 ls s2 e2 Hr Hst Hrun l a it Hh) as [H1 H2].
  assert (~ linked (s_mem s) l -> (l, KData) ∈ m_freed (s_mem s2)) as H2'.
  { intros Hl. destruct (H2 Hl) as [?|[g Hgg]]; [done|]. rewrite Hg in Hgg. by apply elem_of_nil in Hgg. }
  split; (split; [done|]).
  - intros Hd Hl. pose proof (freed_once_kind s2 l KData KInner Hr2 Hd (H1 Hl)). done.
  - intros Hi. destruct (linked_dec s l Hr) as [Hl|Hl]; [|done|].
    + destruct (s_dropped s) eqn:Ed; [|done]. cbn [step] in Hst. rewrite Ed, andb_false_r in Hst. done.
    + pose proof (freed_once_kind s2 l KData KInner Hr2 (H2' Hl) Hi). done.
Qed.
Print Assumptions C13_displaced_destroyed_partial.

(** ** C14: a node is handed to the collector as the type it was allocated as. *)
Theorem C14_deferred_kind `{C : Config} : forall s l k g, reachable s -> (l, k, g) ∈ m_garb (s_mem s) ->
  exists a b, m_heap (s_mem s) !! l = Some (HObj a b) /\ k = kind_of_body b.
Proof. exact deferred_kind. Qed.
Print Assumptions C14_deferred_kind.

(** ** C15: if the address and flags of the cell's current pointer are those the operation expects (so that its
    compare-and-set would succeed), then it is the very node the operation loaded. *)
Theorem C15_no_aba `{C : Config} : forall s o op p c expected now, reachable s -> s_ops s !! o = Some (SRun op p) ->
  cas_of p = Some (c, expected) -> read_cell (s_mem s) c = Some now -> sh_same (s_mem s) now expected = true -> now = expected.
Proof. exact cas_exact. Qed.
Print Assumptions C15_no_aba.

(** ** The hypotheses can be met *)

(* A state in which three operations are in progress at once, one of them in the middle of pruning, after nodes have been
   split, retired and freed (C08, C09, C11). *)
Definition busy : list cmd :=
  seqcalls 1%positive [ins 16 1; ins 32 2; ins 3 3] ++
  [Inv 4%positive (rem 3); Steps 5 4%positive; Inv 5%positive (ins 48 4); Steps 3 5%positive;
   Inv 6%positive ite; Steps 6 6%positive; Lab (LUnpin 1%positive); Lab (LUnpin 2%positive); Steps 30 4%positive].

Example busy_reachable : exists s, reachable s /\ s_dropped s = false /\
  running s 4%positive = true /\ running s 5%positive = true /\ running s 6%positive = true /\ m_garb (s_mem s) <> [] /\
  exists l, linked (s_mem s) l.
Proof.
  destruct (reach_check busy (fun s => negb (s_dropped s) && running s 4%positive && running s 5%positive && running s 6%positive &&
    (0 <? length (m_garb (s_mem s))) && match sh_loc (m_root (s_mem s)) with Some _ => true | None => false end)) as (s & Hr & Hf).
  { vm_compute. reflexivity. }
  exists s. split; [exact Hr|]. rewrite !andb_true_iff in Hf. destruct Hf as (((((H1 & H2) & H3) & H4) & H5) & H6).
  split; [by apply negb_true_iff|]. do 3 (split; [done|]). split; [intros E; by rewrite E in H5|].
  destruct (sh_loc (m_root (s_mem s))) as [l|] eqn:E; [|done]. exists l, 0. by constructor.
Qed.

(* C10: operation 2 got a reference; operation 3 removed that key and its guard was dropped; the guard of 2 is still held. *)
Example C10_example : exists ls s ev x, exec ls s ev /\ 2%positive ∈ guards s /\ ERet 2%positive (ROpt (Some x)) ∈ ev /\
  rr_val x = el 5 7 /\ ERet 3%positive (ROpt (Some x)) ∈ ev /\ m_root (s_mem s) = sh_null /\ 3%positive ∉ guards s.
Proof.
  destruct (exec_check (seqcalls 1%positive [ins 5 7; get 5; rem 5] ++ [Lab (LUnpin 3%positive)]) (fun s ev =>
     match ev with [_; _; _; ERet 2%positive (ROpt (Some x)); _; ERet 3%positive (ROpt (Some y))] =>
       match x, y with RRef 1%positive 0 (5%N, 7%N), RRef 1%positive 0 (5%N, 7%N) => true | _, _ => false end | _ => false end &&
     bool_decide (2%positive ∈ guards s) && bool_decide (3%positive ∉ guards s) &&
     match m_root (s_mem s) with Sh None false false => true | _ => false end)) as (ls & s & ev & Hx & Hf).
  { vm_compute. reflexivity. }
  rewrite !andb_true_iff in Hf. destruct Hf as (((H1 & H2) & H3) & H4). apply bool_decide_eq_true_1 in H2, H3.
  exists ls, s, ev, (RRef 1%positive 0 (el 5 7)). split; [exact Hx|]. split; [exact H2|].
  repeat (case_match; try done). simplify_eq. split; [repeat constructor|]. split; [done|]. split; [repeat constructor|]. done.
Qed.

(* C12, C14: inner and data nodes retired, some freed, the map dropped with elements in it. *)
Example C12_example : exists s, reachable s /\ s_dropped s = true /\ m_garb (s_mem s) = [] /\ 5 <= length (m_freed (s_mem s)).
Proof.
  destruct (reach_check (seqcalls 1%positive [ins 16 1; ins 32 2; ins 3 3; rem 3; ins 16 9] ++
     map (fun o => Lab (LUnpin o)) [1; 2; 3; 4; 5]%positive ++ [Lab (LFree 0); Lab (LFree 0); Lab LDrop; Lab (LFree 0)])
    (fun s => s_dropped s && (length (m_garb (s_mem s)) =? 0) && (5 <=? length (m_freed (s_mem s))))) as (s & Hr & Hf).
  { vm_compute. reflexivity. }
  exists s. rewrite !andb_true_iff in Hf. destruct Hf as ((H1 & H2) & H3). apply Nat.eqb_eq in H2. apply Nat.leb_le in H3.
  split; [done|]. split; [done|]. split; [by destruct (m_garb (s_mem s))|done].
Qed.

Example C14_example : exists s l1 g1 l2 g2, reachable s /\ (l1, KInner, g1) ∈ m_garb (s_mem s) /\ (l2, KData, g2) ∈ m_garb (s_mem s).
Proof.
  destruct (reach_check (seqcalls 1%positive [ins 16 1; ins 32 2; rem 16])
    (fun s => match m_garb (s_mem s) with [(_, KInner, _); (_, KData, _)] | [_; (_, KInner, _); (_, KData, _)] => true | _ => false end)) as (s & Hr & Hf).
  { vm_compute. reflexivity. }
  exists s. repeat (case_match; try done); do 4 eexists; (split; [done|]); split; repeat constructor.
Qed.

(* C15: operation 4 is about to do a compare-and-set which will succeed, in a heap in which an address has been reused. *)
Example C15_example : exists s op p c e l1 l2 a b1 b2, reachable s /\ s_ops s !! 4%positive = Some (SRun op p) /\ cas_of p = Some (c, e) /\
  read_cell (s_mem s) c = Some e /\ sh_same (s_mem s) e e = true /\
  m_heap (s_mem s) !! l1 = Some (HObj a b1) /\ m_heap (s_mem s) !! l2 = Some (HObj a b2) /\ l1 <> l2 /\ sh_loc e = Some l2.
Proof.
  destruct (reach_check (seqcalls 1%positive [ins 16 1; ins 16 2] ++ [Lab (LUnpin 1%positive); Lab (LUnpin 2%positive); Lab (LFree 0)] ++
     [Inv 3%positive (ins 16 3); Finish 3%positive; Inv 4%positive (rem 16); Steps 1 4%positive])
    (fun s => match s_ops s !! 4%positive with
       | Some (SRun _ (RCas _ _ _ CRoot _ (Sh (Some 3%positive) false true) _ _)) => true | _ => false end &&
       match m_root (s_mem s) with Sh (Some 3%positive) false true => true | _ => false end &&
       match m_heap (s_mem s) !! 1%positive, m_heap (s_mem s) !! 3%positive with Some (HObj a _), Some (HObj b _) => N.eqb a b | _, _ => false end))
    as (s & Hr & Hf).
  { vm_compute. reflexivity. }
  exists s. rewrite !andb_true_iff in Hf. destruct Hf as ((H1 & H2) & H3).
  destruct (s_ops s !! 4%positive) as [[op p| | |]|] eqn:E1; try done. repeat (case_match; try done). simplify_eq.
  apply N.eqb_eq in H3. subst. do 4 eexists. exists 1%positive, 3%positive. do 3 eexists. split; [exact Hr|]. split; [reflexivity|]. split; [reflexivity|]. simpl.
  split; [match goal with H : m_root _ = _ |- _ => rewrite H end; reflexivity|]. split; [unfold sh_same; rewrite N.eqb_refl; done|]. split; [eassumption|]. split; [eassumption|]. split; [done|reflexivity].
Qed.

(* C13: an element is displaced by a second insert; the map is dropped; the collector runs: the displaced element has been
   destroyed, the one in the map has not. *)
Example C13_example : exists s s1 e1 s2 e2 l1 a1 l2 a2, reachable s /\ step s LDrop = Some (s1, e1) /\ run s1 [LFree 0] = Some (s2, e2) /\
  m_garb (s_mem s2) = [] /\ m_heap (s_mem s2) !! l1 = Some (HObj a1 (BData [el 16 1])) /\ (l1, KData) ∈ m_freed (s_mem s2) /\
  m_heap (s_mem s2) !! l2 = Some (HObj a2 (BData [el 16 9])) /\ (l2, KInner) ∈ m_freed (s_mem s2).
Proof.
  destruct (reach_check (seqcalls 1%positive [ins 16 1; ins 16 9] ++ map (fun o => Lab (LUnpin o)) [1; 2]%positive)
    (fun s => match step s LDrop with Some (s1, _) => match run s1 [LFree 0] with Some (s2, _) =>
       match m_garb (s_mem s2), m_freed (s_mem s2), m_heap (s_mem s2) !! 1%positive, m_heap (s_mem s2) !! 2%positive with
       | [], [(1%positive, KData); (2%positive, KInner)], Some (HObj _ (BData [(16%N, 1%N)])), Some (HObj _ (BData [(16%N, 9%N)])) => true
       | _, _, _, _ => false end | None => false end | None => false end)) as (s & Hr & Hf).
  { vm_compute. reflexivity. }
  destruct (step s LDrop) as [[s1 e1]|] eqn:E1; [|done]. destruct (run s1 [LFree 0]) as [[s2 e2]|] eqn:E2; [|done].
  destruct (m_garb (s_mem s2)) eqn:E3; [|done].
  destruct (m_freed (s_mem s2)) as [|[x1 k1] [|[x2 k2] [|]]] eqn:E4; try (repeat case_match; done).
  destruct (m_heap (s_mem s2) !! 1%positive) as [[a1 b1]|] eqn:E5; [|repeat case_match; done].
  destruct (m_heap (s_mem s2) !! 2%positive) as [[a2 b2]|] eqn:E6; [|repeat case_match; done].
  exists s, s1, e1, s2, e2, 1%positive, a1, 2%positive, a2.
  repeat (case_match; try done). simplify_eq. rewrite E4. do 4 (split; [done|]). split; [exact E5|]. split; [left|]. split; [exact E6|]. right. left.
Qed.
