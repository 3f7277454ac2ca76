(** * C26, C27: obstruction freedom and lock freedom of the modifying calls. *)
From Verif Require Import Model Mem Inv Safe SafeStep SafeOps SafeSys SafeProps Spec LinProps Shape Sem ProgSpec Prog LiveStep Lock LockStep LockHash LockSys LockSolo Concrete.

(** ** C26: wherever all other calls have been stopped, an insert, get_or_insert_with or remove that runs alone returns.
    [C26_bound]: as long as only [o] takes steps, it takes at most 2^21 of them (a constant: neither the size of the map nor what the other
    calls were doing matters), plus 201 for every spurious failure of a weak compare-and-set; and if it is not in progress any more, it is
    because it has returned.
    [C26_finishes]: its steps are always possible, so that it does return. *)
Theorem C26_bound `{C : Config} : forall s o op ls s' ev, reachable s -> in_progress s o op -> is_reader op = false ->
  alone o ls -> run s ls = Some (s', ev) ->
  (N.of_nat (length ls) <= 2 ^ 21 + 201 * N.of_nat (spurious_steps ls))%N /\ (in_progress s' o op \/ exists r, ERet o r ∈ ev).
Proof. exact solo_bound. Qed.
Print Assumptions C26_bound.

Theorem C26_finishes `{C : Config} : forall s o op, reachable s -> in_progress s o op -> is_reader op = false ->
  exists ls s' ev r, alone o ls /\ spurious_steps ls = 0 /\ run s ls = Some (s', ev) /\ ERet o r ∈ ev.
Proof. exact solo_finishes. Qed.
Print Assumptions C26_finishes.

(** ** C27: from every reachable state there is a number [B] such that, whatever the schedule, either one of the modifying calls in progress has
    returned, or together they have taken at most [B] steps (201 more for every spurious failure of a compare-and-set).  Other calls (readers)
    may start, run and end meanwhile, nodes may be freed; no modifying call is started or abandoned.  (A call in progress that has not returned
    can always take a step: C24_can_step.) *)
Theorem C27_lock_free `{C : Config} : forall s, reachable s -> exists B, forall ls s' ev, run s ls = Some (s', ev) ->
  no_new ls -> (forall o, LAbort o ∉ ls) ->
  (exists o op r, in_progress s o op /\ is_reader op = false /\ ERet o r ∈ ev) \/ mod_steps s ls <= B + 201 * spurious_steps ls.
Proof.
  intros s Hs. destruct (lock_free s Hs) as (B & HB). exists B. intros ls s' ev Hrun Hn Ha.
  destruct (decide (B + 201 * spurious_steps ls < mod_steps s ls)); [left; by eapply HB|right; lia].
Qed.
Print Assumptions C27_lock_free.

(** In an infinite execution in which modifying calls start and end all the time, at most [N] being in progress at a time: if modifying calls
    keep taking steps and from some point on there are no spurious failures, modifying calls keep coming to their end. *)
Theorem C27_no_livelock `{C : Config} : forall sch st N n0, infinite_run sch st -> (forall n, n0 <= n -> spurious (sch n) = false) ->
  (forall n, mod_running (st n) <= N) -> infinitely_often (fun n => mod_step (st n) (sch n) = true) ->
  infinitely_often (fun n => exists e, step (st n) (sch n) = Some (st (S n), e) /\ mod_ends (st n) (sch n) e).
Proof. exact no_livelock. Qed.
Print Assumptions C27_no_livelock.

(** Without a bound on spurious failures or on the number of calls the statement is false of any such program: a call whose compare-and-set fails
    spuriously every time does not return. *)

(** ** Concrete cases *)

(** Keys 1, 17 and 33 share their first four bits.  Call 4 removes 1 and is stopped while it condemns the pointers of the branch; call 5, another
    remove, is stopped before its compare-and-set on a leaf of that branch.  Call 6 inserts 49 and has taken one step. *)
Definition stopped : list cmd := seqcalls 1%positive [ins 1 1; ins 17 2] ++ [Inv 4 (rem 1); Inv 5 (rem 17); Steps 3 5; Steps 25 4; Inv 6 (ins 49 3); Steps 1 6]%positive.
Definition is_marking (s : @state CN) (o : opid) : bool := match s_ops s !! o with Some (SRun _ (PMark _ _ _ i _ _ _ _)) => (0 <? i) && (i <? 15) | _ => false end.
Definition is_rcas (s : @state CN) (o : opid) : bool := match s_ops s !! o with Some (SRun _ (RCas _ _ _ _ _ _ _ _)) => true | _ => false end.
Definition is_tload (s : @state CN) (o : opid) : bool := match s_ops s !! o with Some (SRun op (TLoad _ _ _ _)) => negb (is_reader op) | _ => false end.

Example C26_example : exists s op, reachable s /\ in_progress s 6%positive op /\ is_reader op = false /\
  (exists op' q, s_ops s !! 4%positive = Some (SRun op' q)) /\ (exists op' q, s_ops s !! 5%positive = Some (SRun op' q)) /\
  exists ls s' ev r, alone 6%positive ls /\ spurious_steps ls = 0 /\ run s ls = Some (s', ev) /\ ERet 6%positive r ∈ ev.
Proof.
  destruct (reach_check stopped (fun s => is_marking s 4%positive && (is_rcas s 5%positive && is_tload s 6%positive)) ltac:(vm_compute; reflexivity)) as (s & Hr & Hf).
  apply andb_true_iff in Hf as [H4 Hf]. apply andb_true_iff in Hf as [H5 H6].
  assert (forall (x : option (@ostat CN)), match x with Some (SRun op (TLoad _ _ _ _)) => negb (is_reader op) | _ => false end = true -> exists op q, x = Some (SRun op q) /\ is_reader op = false) as X6.
  { intros [[op q| | |]|] H; try discriminate. exists op, q. split; [done|]. destruct q; try discriminate H. by apply negb_true_iff in H. }
  assert (forall (x : option (@ostat CN)), match x with Some (SRun _ (PMark _ _ _ i _ _ _ _)) => (0 <? i) && (i <? 15) | _ => false end = true -> exists op q, x = Some (SRun op q)) as X4.
  { intros [[op q| | |]|] H; try discriminate. by exists op, q. }
  assert (forall (x : option (@ostat CN)), match x with Some (SRun _ (RCas _ _ _ _ _ _ _ _)) => true | _ => false end = true -> exists op q, x = Some (SRun op q)) as X5.
  { intros [[op q| | |]|] H; try discriminate. by exists op, q. }
  destruct (X6 _ H6) as (op6 & q6 & E6 & Hrd). pose proof (X5 _ H5) as E5. pose proof (X4 _ H4) as E4.
  exists s, op6. split; [done|]. split; [by exists q6|]. split; [done|]. split; [done|]. split; [done|].
  apply (C26_finishes s _ op6); [done|by exists q6|done].
Qed.

(** An infinite execution: the elements of a sequence are inserted, one call after the other. *)
Section endless.
Context `{C : Config} (els : nat -> Pl).
Definition fresh_of (m : mem) : N := N.succ (foldr N.max 0%N ((fun lo => ho_addr lo.2) <$> map_to_list (m_heap m))).
Lemma fresh_of_free m : addr_free m (fresh_of m) = true.
Proof.
  unfold addr_free, fresh_of. apply andb_true_iff. split.
  - apply negb_true_iff, N.eqb_neq. lia.
  - apply forallb_forall. intros [l o] Hin%elem_of_list_In. apply orb_true_iff. right. apply negb_true_iff, N.eqb_neq.
    assert ((ho_addr o <= foldr N.max 0 ((λ lo, ho_addr lo.2) <$> map_to_list (m_heap m)))%N); [|lia].
    apply (elem_of_list_fmap_1 (fun lo => ho_addr lo.2)) in Hin. simpl in Hin. revert Hin.
    generalize ((λ lo : loc * hobj, ho_addr lo.2) <$> map_to_list (m_heap m)). intros xs.
    induction xs as [|x xs IH]; intros Hin; [by apply elem_of_nil in Hin|]. simpl. apply elem_of_cons in Hin as [->|?]; [lia|].
    specialize (IH ltac:(done)). lia.
Qed.
Definition nid (k : nat) : opid := Pos.of_succ_nat k.
Definition next_lab (x : state * nat) : label :=
  match s_ops x.1 !! nid x.2 with
  | Some (SRun _ _) => LStep (nid x.2) false (fresh_of (s_mem x.1))
  | _ => LInv (nid (S x.2)) (OInsert (els x.2))
  end.
Definition next_st (x : state * nat) : state * nat :=
  match step x.1 (next_lab x) with
  | Some (s', _) => (s', match s_ops x.1 !! nid x.2 with Some (SRun _ _) => x.2 | _ => S x.2 end)
  | None => x
  end.
Fixpoint iter_st (n : nat) : state * nat := match n with 0 => (init, 0) | S n => next_st (iter_st n) end.
Definition esch n := next_lab (iter_st n).
Definition est n := (iter_st n).1.

Record endless_ok (x : state * nat) : Prop := {
  eo_reach : reachable x.1;
  eo_drop : s_dropped x.1 = false;
  eo_new : forall k, x.2 < k -> s_ops x.1 !! nid k = None;
  eo_run : forall o op p, s_ops x.1 !! o = Some (SRun op p) -> o = nid x.2 /\ is_reader op = false;
}.
Lemma endless_step x : endless_ok x -> endless_ok (next_st x) /\ exists e, step x.1 (next_lab x) = Some ((next_st x).1, e).
Proof.
  intros [Hr Hd Hn Hrun]. destruct x as [s k]. simpl in *. unfold next_st, next_lab in *. cbn [fst snd] in *.
  assert ((exists op p, s_ops s !! nid k = Some (SRun op p)) \/ ((forall op p, s_ops s !! nid k <> Some (SRun op p)) /\
     match s_ops s !! nid k with Some (SRun _ _) => LStep (nid k) false (fresh_of (s_mem s)) | _ => LInv (nid (S k)) (OInsert (els k)) end = LInv (nid (S k)) (OInsert (els k)) /\
     match s_ops s !! nid k with Some (SRun _ _) => k | _ => S k end = S k)) as [(op & p & Ho)|(Hno & E1 & E2)].
  { destruct (s_ops s !! nid k) as [[]|]; [left; eauto|right; by split..]. }
  - rewrite Ho. cbn [step]. rewrite Ho.
    pose proof (op_step_total (guards s) (s_mem s) p false (fresh_of (s_mem s)) (fresh_of_free _)) as Htot.
    destruct (op_step _ _ _ _ _) as [[[m' nx] acts]|] eqn:Eop; [|done]. cbn [fst snd]. split; [|eauto].
    assert (reachable (State m' (<[nid k := match nx with NRun p' => SRun op p' | NRet r => SRet op r | NFail f => SFail op f end]> (s_ops s)) (s_dropped s) (s_ub s))) as Hr'.
    { eapply (step_reach s (LStep (nid k) false (fresh_of (s_mem s)))); [done|]. cbn [step]. rewrite Ho, Eop. reflexivity. }
    split; cbn [fst snd]; [done|done| |].
    + intros k' Hk'. simpl. rewrite lookup_insert_ne; [by apply Hn|]. unfold nid. lia.
    + intros o' op' p' Ho'. simpl in Ho'. destruct (decide (o' = nid k)) as [->|Hne]; [|rewrite lookup_insert_ne in Ho' by done; by eapply Hrun].
      split; [done|]. rewrite lookup_insert in Ho'. destruct nx; [|done|done]. injection Ho' as <- _. by eapply Hrun.
  - rewrite E1, E2. cbn [step]. rewrite (Hn (S k) ltac:(lia)), Hd. cbn [fst snd]. split; [|eauto].
    assert (reachable (set_op s (nid (S k)) (SRun (OInsert (els k)) (op_init (OInsert (els k)))))) as Hr'.
    { eapply (step_reach s (LInv (nid (S k)) (OInsert (els k)))); [done|]. cbn [step]. rewrite (Hn (S k) ltac:(lia)), Hd. reflexivity. }
    split; cbn [fst snd]; [done|done| |].
    + intros k' Hk'. simpl. rewrite lookup_insert_ne; [apply Hn; lia|]. unfold nid. lia.
    + intros o' op' p' Ho'. simpl in Ho'. destruct (decide (o' = nid (S k))) as [->|Hne].
      * rewrite lookup_insert in Ho'. by injection Ho' as <- _.
      * rewrite lookup_insert_ne in Ho' by done. destruct (Hrun _ _ _ Ho') as [-> _]. by destruct (Hno _ _ Ho').
Qed.
Lemma endless_all n : endless_ok (iter_st n).
Proof.
  induction n as [|n IH]; [|by apply endless_step]. split; simpl.
  - by exists [], [].
  - done.
  - intros. apply lookup_empty.
  - intros o op p H. by rewrite lookup_empty in H.
Qed.
Lemma endless_run : infinite_run esch est.
Proof. split; [done|]. intros n. apply (endless_step _ (endless_all n)). Qed.
Lemma endless_one n : mod_running (est n) <= 1.
Proof.
  pose proof (eo_run _ (endless_all n)) as H. unfold mod_running, est.
  assert (forall l : list (opid * ostat), NoDup (l.*1) -> (forall o st, (o, st) ∈ l -> modifying st = true -> o = nid (iter_st n).2) -> length (List.filter (fun x => modifying x.2) l) <= 1) as Hl.
  { induction l as [|[o st] l IH]; intros Hnd Hin; simpl; [lia|]. apply NoDup_cons in Hnd as [Hni Hnd]. destruct (modifying st) eqn:Em.
    - simpl. assert (List.filter (fun x => modifying x.2) l = []) as ->; [|done].
      destruct (List.filter (fun x => modifying x.2) l) as [|[o' st'] l'] eqn:Ef; [done|].
      assert ((o', st') ∈ l /\ modifying st' = true) as [Hin' Hm'].
      { assert (In (o', st') (List.filter (fun x => modifying x.2) l)) as Hx by (rewrite Ef; by left). apply filter_In in Hx as [Hx ?]. split; [by apply elem_of_list_In|done]. }
      exfalso. apply Hni. rewrite (Hin o st ltac:(left) Em). rewrite <-(Hin o' st' ltac:(by right) Hm'). apply elem_of_list_fmap. by exists (o', st').
    - apply IH; [done|]. intros o' st' Ho'. apply Hin. by right. }
  apply Hl; [apply NoDup_fst_map_to_list|]. intros o st Ho%elem_of_map_to_list Hm. destruct st as [op p| | |]; try done. by destruct (H _ _ _ Ho).
Qed.
Lemma endless_often : infinitely_often (fun n => mod_step (est n) (esch n) = true).
Proof.
  intros n.
  assert (forall n op p, s_ops (est n) !! nid (iter_st n).2 = Some (SRun op p) -> mod_step (est n) (esch n) = true) as Hs.
  { intros n' op p Ho. unfold esch, next_lab. unfold est in *. rewrite Ho. cbn [mod_step]. rewrite Ho. simpl. destruct (eo_run _ (endless_all n') _ _ _ Ho) as [_ ->]. done. }
  destruct (s_ops (est n) !! nid (iter_st n).2) as [st|] eqn:Eo.
  - destruct st as [op p| | |]; [exists n; split; [lia|by eapply Hs]|..]; exists (S n); (split; [lia|]); eapply Hs; unfold est in *; cbn [iter_st]; unfold next_st, next_lab; rewrite Eo; cbn [step];
      rewrite (eo_new _ (endless_all n) (S (iter_st n).2) ltac:(lia)), (eo_drop _ (endless_all n)); cbn [fst snd set_op s_ops]; apply lookup_insert.
  - exists (S n). split; [lia|]. eapply Hs. unfold est in *. cbn [iter_st]. unfold next_st, next_lab. rewrite Eo. cbn [step].
    rewrite (eo_new _ (endless_all n) (S (iter_st n).2) ltac:(lia)), (eo_drop _ (endless_all n)). cbn [fst snd set_op s_ops]. apply lookup_insert.
Qed.
Lemma endless_clean n : spurious (esch n) = false.
Proof. unfold esch, next_lab. destruct (s_ops _ !! _) as [[]|]; done. Qed.
End endless.

Example C27_example : exists sch st, @infinite_run CN sch st /\ (forall n, spurious (sch n) = false) /\ (forall n, mod_running (st n) <= 1) /\
  infinitely_often (fun n => mod_step (st n) (sch n) = true) /\
  infinitely_often (fun n => exists e, step (st n) (sch n) = Some (st (S n), e) /\ mod_ends (st n) (sch n) e).
Proof.
  set (els := fun n => el (N.of_nat n) 0). exists (esch els), (est els). split; [apply endless_run|]. split; [apply endless_clean|]. split; [apply endless_one|]. split; [apply endless_often|].
  apply (C27_no_livelock _ _ 1 0); [apply endless_run|intros; apply endless_clean|apply endless_one|apply endless_often].
Qed.
