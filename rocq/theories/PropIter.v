(** * Properties C21-C25 and the part of C34 about iterations.
    Statements, with concrete cases that meet their hypotheses. *)
From Verif Require Import Model Spec LinSpec Mem Concrete SysSem Lin LinProps LinMore Shape IterSpec IterSys ProgSpec Prog IterProg SafeProps.

#[local] Opaque schedule fin evs state_at run.

Section iterprops.
Context {C : Config} {HC : ConfigOk C}.
Implicit Types (s : state) (ls : list label) (ev : list event) (o : opid) (k : Key) (p : Pl).

Lemma find_listed (l : list Pl) k : listed l k (find_pl k l).
Proof.
  destruct (find_pl k l) as [p|] eqn:E; simpl; [by apply find_pl_Some|]. by apply find_pl_None.
Qed.

Lemma seen_during ls s ev o k x : exec ls s ev -> wf_calls ls -> seen ls o k x -> exists s1, during ls o OIter s1 /\ has s1 k x.
Proof.
  intros Hx Hw (j & Hj & Hr & Ha). apply running_prog in Hr as (s1 & Hs & Hp). exists s1. split; [by exists j|]. by eapply run_has_A.
Qed.

Lemma during_has_fun ls s ev o op s1 k x y : exec ls s ev -> wf_calls ls -> during ls o op s1 -> has s1 k x -> has s1 k y -> x = y.
Proof.
  intros Hx Hw (j & Hs & Hp) H1 H2. apply (run_has_A _ _ _ _ _ _ _ _ _ Hx Hw Hs Hp) in H1. apply (run_has_A _ _ _ _ _ _ _ _ _ Hx Hw Hs Hp) in H2. congruence.
Qed.

Lemma iter_facts ls s ev o : exec ls s ev -> wf_calls ls ->
  distinct_keys (rr_val <$> yields_of ev o) /\
  (forall r, EYield o r ∈ ev -> exists s1, during ls o OIter s1 /\ maps s1 (keyof (rr_val r)) (rr_val r)) /\
  (forall ys, ERet o (RIter ys) ∈ ev -> yields_of ev o = ys /\ forall k, exists s1 x, during ls o OIter s1 /\ has s1 k x /\ listed (rr_val <$> ys) k x).
Proof.
  intros Hx Hw. destruct (exec_itinv _ _ _ Hx Hw) as (pos & _ & _ & Hit). destruct (Hit o) as (H1 & H2 & H3 & _). split; [exact H1|]. split.
  - intros r Hr. apply elem_of_yields in Hr. destruct (seen_during _ _ _ _ _ _ Hx Hw (H2 _ Hr)) as (s1 & Hd & Hh). by exists s1.
  - intros ys Hys. destruct (H3 _ Hys) as [E Hs]. split; [done|]. intros k. destruct (seen_during _ _ _ _ _ _ Hx Hw (Hs k)) as (s1 & Hd & Hh).
    exists s1, (find_pl k (rr_val <$> ys)). split; [done|]. split; [done|]. apply find_listed.
Qed.
End iterprops.

(** ** C21: whatever goes on meanwhile, and wherever the iteration stands (even if it is abandoned or never finishes), no two of the elements
    it has yielded so far have equal keys. *)
Theorem C21_no_duplicates `{C : Config} `{!ConfigOk C} : forall ls s ev o, exec ls s ev -> wf_calls ls -> distinct_keys (rr_val <$> yields_of ev o).
Proof. intros ls s ev o Hx Hw. by apply (iter_facts ls s ev o Hx Hw). Qed.
Print Assumptions C21_no_duplicates.

(** ** C22: every yielded element was in the map at some instant between the creation of the iterator and its end... *)
Theorem C22_yielded_was_there `{C : Config} `{!ConfigOk C} : forall ls s ev o r, exec ls s ev -> wf_calls ls -> EYield o r ∈ ev ->
  exists s1, during ls o OIter s1 /\ maps s1 (keyof (rr_val r)) (rr_val r).
Proof. intros ls s ev o r Hx Hw. by apply (iter_facts ls s ev o Hx Hw). Qed.
Print Assumptions C22_yielded_was_there.

(** ... and for every key, what a complete iteration lists for it (an element or nothing) is what the key had at some instant during the iteration. *)
Theorem C22_every_key `{C : Config} `{!ConfigOk C} : forall ls s ev o ys, exec ls s ev -> wf_calls ls -> ERet o (RIter ys) ∈ ev ->
  yields_of ev o = ys /\ forall k, exists s1 x, during ls o OIter s1 /\ has s1 k x /\ listed (rr_val <$> ys) k x.
Proof. intros ls s ev o ys Hx Hw. by apply (iter_facts ls s ev o Hx Hw). Qed.
Print Assumptions C22_every_key.

(** In particular: an element that is there all the time is listed, a key that is absent all the time is not. *)
Theorem C22_present_listed `{C : Config} `{!ConfigOk C} : forall ls s ev o ys k p, exec ls s ev -> wf_calls ls -> ERet o (RIter ys) ∈ ev ->
  (forall s1, during ls o OIter s1 -> maps s1 k p) -> listed (rr_val <$> ys) k (Some p).
Proof.
  intros ls s ev o ys k p Hx Hw Hr Hall. destruct (C22_every_key _ _ _ _ _ Hx Hw Hr) as [_ H]. destruct (H k) as (s1 & x & Hd & Hh & Hl).
  assert (x = Some p) as -> by (eapply during_has_fun; [done|done|done|done|by apply Hall]). done.
Qed.
Print Assumptions C22_present_listed.

Theorem C22_absent_not_listed `{C : Config} `{!ConfigOk C} : forall ls s ev o ys k, exec ls s ev -> wf_calls ls -> ERet o (RIter ys) ∈ ev ->
  (forall s1, during ls o OIter s1 -> absent s1 k) -> listed (rr_val <$> ys) k None.
Proof.
  intros ls s ev o ys k Hx Hw Hr Hall. destruct (C22_every_key _ _ _ _ _ Hx Hw Hr) as [_ H]. destruct (H k) as (s1 & x & Hd & Hh & Hl).
  assert (x = None) as -> by (eapply during_has_fun; [done|done|done|done|by apply Hall]). done.
Qed.
Print Assumptions C22_absent_not_listed.

(** ** C23: if the contents do not change during an iteration, it lists exactly the contents.  (The trie may well be restructured meanwhile.) *)
Theorem C23_exact `{C : Config} `{!ConfigOk C} : forall ls s ev o ys, exec ls s ev -> wf_calls ls -> ERet o (RIter ys) ∈ ev ->
  (forall s1 s2, during ls o OIter s1 -> during ls o OIter s2 -> same_contents s1 s2) ->
  forall s1, during ls o OIter s1 -> lists_contents (rr_val <$> ys) s1.
Proof.
  intros ls s ev o ys Hx Hw Hr Hsame s1 Hd1. destruct (C22_every_key _ _ _ _ _ Hx Hw Hr) as [Ey H].
  assert (distinct_keys (rr_val <$> ys)) as Hdk by (rewrite <-Ey; by eapply C21_no_duplicates). split; [done|]. intros p. split.
  - intros Hp. destruct (H (keyof p)) as (s2 & x & Hd2 & Hh & Hl). apply (Hsame s1 s2 Hd1 Hd2) in Hh.
    assert (x = Some p) as ->; [|by destruct Hh]. destruct x as [q|]; simpl in Hl.
    + destruct Hl as [Hq Hk]. apply elem_of_list_lookup in Hp as [i Hi]. apply elem_of_list_lookup in Hq as [j Hj].
      assert (j = i) as -> by (by eapply Hdk). congruence.
    + apply Hl in Hp. by rewrite keqb_refl in Hp.
  - intros Hp. assert (maps s1 (keyof p) p) as Hm by (split; [done|apply keqb_refl]).
    destruct (H (keyof p)) as (s2 & x & Hd2 & Hh & Hl). apply (Hsame s1 s2 Hd1 Hd2) in Hh.
    assert (x = Some p) as -> by (eapply during_has_fun; [done|done|exact Hd1|done|done]). by destruct Hl.
Qed.
Print Assumptions C23_exact.

(** In particular: if only lookups, is_empty calls and iterations are in progress during an iteration, then it lists exactly the contents. *)
Lemma between `{C : Config} ls s ev o op j1 j j2 s1 sj s2 : exec ls s ev -> j1 <= j -> j <= j2 -> j2 <= length ls ->
  state_at ls j1 = Some s1 -> state_at ls j = Some sj -> state_at ls j2 = Some s2 -> in_progress s1 o op -> in_progress s2 o op -> in_progress sj o op.
Proof.
  intros Hx H1 H2 Hlen Hs1 Hsj Hs2 [p1 Hp1] [p2 Hp2].
  assert (forall i si, j1 <= i -> i <= length ls -> state_at ls i = Some si -> (exists p, s_ops si !! o = Some (SRun op p)) \/ (exists st, s_ops si !! o = Some st /\ forall op q, st <> SRun op q)) as Hfw.
  { intros i si Hi. revert si. induction Hi as [|i Hi IH]; intros si Hil Hsi; [rewrite Hs1 in Hsi; injection Hsi as <-; left; eauto|].
    destruct (state_at_some _ _ _ i Hx) as [si' Hsi']; [lia|]. destruct (lookup_lt_is_Some_2 ls i) as [lb Hlb]; [lia|].
    destruct (state_at_step _ _ _ _ _ _ _ Hx Hlb Hsi' Hsi) as [e He]. destruct (IH si') as [[p Hp]|(st & Hst & Hne)]; [lia|done| |].
    - by eapply op_kept.
    - right. by eapply op_over. }
  destruct (Hfw j sj) as [?|(st & Hst & Hne)]; [done|lia|done|done|]. exfalso.
  assert (forall i si, j <= i -> i <= length ls -> state_at ls i = Some si -> exists st, s_ops si !! o = Some st /\ forall op q, st <> SRun op q) as Hov.
  { intros i si Hi. revert si. induction Hi as [|i Hi IH]; intros si Hil Hsi; [rewrite Hsj in Hsi; injection Hsi as <-; eauto|].
    destruct (state_at_some _ _ _ i Hx) as [si' Hsi']; [lia|]. destruct (lookup_lt_is_Some_2 ls i) as [lb Hlb]; [lia|].
    destruct (state_at_step _ _ _ _ _ _ _ Hx Hlb Hsi' Hsi) as [e He]. destruct (IH si') as (st' & Hst' & Hne'); [lia|done|]. by eapply op_over. }
  destruct (Hov j2 s2) as (st' & Hst' & Hne'); [lia|lia|done|]. rewrite Hp2 in Hst'. injection Hst' as <-. by eapply Hne'.
Qed.

Lemma readers_same `{C : Config} `{!ConfigOk C} : forall ls s ev o, exec ls s ev -> wf_calls ls ->
  (forall s1 o' op, during ls o OIter s1 -> in_progress s1 o' op -> is_reader op = true) ->
  forall s1 s2, during ls o OIter s1 -> during ls o OIter s2 -> same_contents s1 s2.
Proof.
  intros ls s ev o Hx Hw Hrd.
  assert (forall j1 j2 s1 s2, j1 <= j2 -> j2 <= length ls -> state_at ls j1 = Some s1 -> state_at ls j2 = Some s2 -> in_progress s1 o OIter -> in_progress s2 o OIter -> same_contents s1 s2) as Hgo.
  { intros j1 j2 s1 s2 Hj Hl H1 H2 P1 P2 k x. symmetry. eapply (untouched ls s ev j1 j2); try done.
    - destruct P2 as [q Hq]. destruct (state_at_exec _ _ _ _ _ Hx H2) as [e2 Hx2]. eapply running_not_dropped; [by eapply exec_sinv|exact Hq].
    - intros j sj o' op Hjj Hsj Hpr. assert (is_reader op = true) as Hre.
      { eapply Hrd; [|exact Hpr]. exists j. split; [done|]. eapply (between ls s ev o OIter j1 j j2); try done; lia. }
      clear -Hre. destruct op; try discriminate Hre; intros Ht; destruct Ht. }
  intros s1 s2 (i1 & H1 & P1) (i2 & H2 & P2). destruct (state_at_le _ _ _ H1) as (j1 & L1 & S1). destruct (state_at_le _ _ _ H2) as (j2 & L2 & S2).
  destruct (decide (j1 <= j2)); [by eapply Hgo|]. assert (same_contents s2 s1) as Hs by (eapply (Hgo j2 j1); try done; lia).
  intros k x. symmetry. apply Hs.
Qed.
Theorem C23_readers_only `{C : Config} `{!ConfigOk C} : forall ls s ev o ys, exec ls s ev -> wf_calls ls -> ERet o (RIter ys) ∈ ev ->
  (forall s1 o' op, during ls o OIter s1 -> in_progress s1 o' op -> is_reader op = true) ->
  forall s1, during ls o OIter s1 -> lists_contents (rr_val <$> ys) s1.
Proof. intros ls s ev o ys Hx Hw Hr Hrd. eapply C23_exact; [done|done|done|]. by eapply readers_same. Qed.
Print Assumptions C23_readers_only.

(** C34 for iterations: a yielded element was put in by some call. *)
Theorem C34_iterated `{C : Config} `{!ConfigOk C} : forall ls s ev o r, exec ls s ev -> wf_calls ls -> EYield o r ∈ ev -> exists o', put_in ev o' (rr_val r).
Proof.
  intros ls s ev o r Hx Hw Hy. destruct (C22_yielded_was_there _ _ _ _ _ Hx Hw Hy) as (s1 & (j & Hs & Hp) & Hm).
  destruct (state_at_le _ _ _ Hs) as (j' & Hj' & Hs'). by eapply maps_source.
Qed.
Print Assumptions C34_iterated.

(** ** C24: a get takes at most 17 steps (one load of shared memory each) and has returned after the 17th; an is_empty takes one
    step and then has returned.  Nothing is assumed about what the other calls do.  (A call in progress can always take its next step: C24_can_step.) *)
Theorem C24_get_wait_free `{C : Config} : forall ls s ev o k, exec ls s ev -> EInv o (OGet k) ∈ ev ->
  steps_of ls o <= 17 /\ (in_progress s o (OGet k) -> steps_of ls o < 17).
Proof. intros ls s ev o k. apply get_count. Qed.
Print Assumptions C24_get_wait_free.

Theorem C24_is_empty_wait_free `{C : Config} : forall ls s ev o, exec ls s ev -> EInv o OIsEmpty ∈ ev ->
  steps_of ls o <= 1 /\ (in_progress s o OIsEmpty -> steps_of ls o = 0).
Proof. intros ls s ev o. apply isempty_count. Qed.
Print Assumptions C24_is_empty_wait_free.

Theorem C24_can_step `{C : Config} : forall s o op spur, reachable s -> in_progress s o op -> exists a, step s (LStep o spur a) <> None.
Proof. intros s o op spur _ [p Hp]. by eapply running_steps. Qed.
Print Assumptions C24_can_step.

(** ** C25: the steps of an iterator that are not yields number at most 2^66 (the size of a full trie), its stack fits into its array
    of MAX_LEVELS + 1 = 17 entries, and it does not go on forever, even in an infinite execution in which other calls insert all the time. *)
Theorem C25_bound `{C : Config} : forall ls s ev o, exec ls s ev -> EInv o OIter ∈ ev -> (N.of_nat (steps_of ls o) <= 2 ^ 66 + N.of_nat (length (yields_of ev o)))%N.
Proof.
  intros ls s ev o Hx Hi. pose proof (iter_count _ _ _ _ Hx Hi) as H. assert (wfull 16 + 2 <= 2 ^ 66)%N as H1 by (vm_compute; discriminate).
  revert H H1. generalize (wfull 16), (2 ^ 66)%N. intros a b. lia.
Qed.
Print Assumptions C25_bound.

Theorem C25_stack `{C : Config} : forall s o op lv out, reachable s -> s_ops s !! o = Some (SRun op (INext lv out)) -> length lv <= 17.
Proof. exact iter_stack. Qed.
Print Assumptions C25_stack.

Theorem C25_terminates `{C : Config} : forall sch st n0 o, infinite_run sch st -> in_progress (st n0) o OIter ->
  ~ infinitely_often (fun n => is_step_of o (sch n) = true).
Proof. exact iter_terminates. Qed.
Print Assumptions C25_terminates.

(** ** Concrete cases *)

(** An iteration over a trie with a collision node, a split branch and a leaf.  While it runs, key 2 is removed before it is reached,
    key 0 is inserted behind it and key 4 before it; key 17 is removed and put back with another value while its branch is being read. *)
Definition itrace : list cmd :=
  seqcalls 1%positive [ins 1 1; ins 17 2; ins 5 3; ins (5 + 2 ^ 64) 4; ins 2 5] ++
   [Inv 6 ite; Steps 7 6; Inv 7 (rem 2); Finish 7; Inv 8 (ins 0 8); Finish 8; Inv 9 (ins 4 9); Finish 9; Inv 10 (rem 17); Finish 10;
    Inv 11 (ins 17 11); Finish 11; Finish 6]%positive.
Definition is_iter (r : @res CN) (l : list (N * N)) : bool :=
  match r with RIter ys => if decide ((rr_val <$> ys : list (N * N)) = l) then true else false | _ => false end.

Example C21_C22_example : exec (schedule itrace) (fin itrace) (evs itrace) /\ wf_calls (schedule itrace) /\
  exists r, ERet 6%positive r ∈ evs itrace /\ is_iter r [(1, 1); (4, 9); (5, 3); (5 + 2 ^ 64, 4)]%N = true.
Proof.
  destruct (exec_of itrace) as [Hx Hw]; [vm_compute; reflexivity|]. split; [exact Hx|]. split; [exact Hw|].
  apply has_ret_spec. vm_compute. reflexivity.
Qed.

(** The iterator has taken 25 steps or so and yielded one element when the others begin (an unfinished iteration). *)
Definition ipart : list cmd := take 17 itrace.
Example C21_unfinished_example : exec (schedule ipart) (fin ipart) (evs ipart) /\ wf_calls (schedule ipart) /\ in_progress (fin ipart) 6%positive ite /\
  length (yields_of (evs ipart) 6%positive) = 1.
Proof.
  destruct (exec_of ipart) as [Hx Hw]; [vm_compute; reflexivity|]. split; [exact Hx|]. split; [exact Hw|]. split; [|vm_compute; reflexivity].
  assert (match s_ops (fin ipart) !! 6%positive with Some (SRun OIter _) => true | _ => false end = true) as H1 by (vm_compute; reflexivity).
  revert H1. unfold in_progress. generalize (fin ipart). clear. intros s. destruct (s_ops s !! 6%positive) as [[[] p| | |]|] eqn:Eo; try discriminate. intros _. exists p. exact Eo.
Qed.

(** C23: the trie has leftovers of an abandoned removal (call 6 unwound while it was marking); a get, an is_empty and a second iteration
    overlap the iteration. *)
Definition iquiet : list cmd :=
  seqcalls 1%positive [ins 1 1; ins 17 2; ins 5 3; ins 2 5] ++
   [Inv 6 (rem 17); Steps 25 6; Lab (LAbort 6); Inv 7 ite; Steps 4 7; Inv 8 (get 5); Steps 1 8; Inv 9 ite; Finish 7; Finish 8; Finish 9]%positive.
Definition during_check (ls : list (@label CN)) : bool :=
  forallb (fun j => match state_at ls j with
    | Some s => negb (match s_ops s !! (7%positive : opid) with Some (SRun _ _) => true | _ => false end) ||
                forallb (fun x => match x.2 with SRun op _ => is_reader op | _ => true end) (map_to_list (s_ops s))
    | None => true end) (seq 0 (S (length ls))).
Example C23_example : exec (schedule iquiet) (fin iquiet) (evs iquiet) /\ wf_calls (schedule iquiet) /\
  (exists r, ERet 7%positive r ∈ evs iquiet /\ is_iter r [(1, 1); (2, 5); (5, 3)]%N = true) /\
  (forall s1 o' op, during (schedule iquiet) 7%positive ite s1 -> in_progress s1 o' op -> is_reader op = true).
Proof.
  destruct (exec_of iquiet) as [Hx Hw]; [vm_compute; reflexivity|]. split; [exact Hx|]. split; [exact Hw|].
  split; [apply has_ret_spec; vm_compute; reflexivity|].
  assert (during_check (schedule iquiet) = true) as Hck by (vm_compute; reflexivity). unfold during_check in Hck.
  intros s1 o' op (j & Hj & q & Hq) [p Hp]. destruct (state_at_le _ _ _ Hj) as (j' & Hl & Hj').
  rewrite forallb_forall in Hck. specialize (Hck j' ltac:(apply in_seq; lia)). rewrite Hj' in Hck. cbv beta iota in Hck. rewrite Hq in Hck. cbv beta iota delta [negb orb] in Hck.
  rewrite forallb_forall in Hck. apply (Hck (o', SRun op p)). apply elem_of_list_In. by apply elem_of_map_to_list.
Qed.

(** C24: a get of a key with a full collision at the bottom of the trie takes 17 steps, also while the elements are being removed. *)
Definition deepget : list cmd :=
  seqcalls 1%positive [ins 5 3; ins (5 + 2 ^ 64) 4] ++ [Inv 3 (get 5); Steps 16 3; Inv 4 (rem 5); Finish 4; Steps 1 3]%positive.
Example C24_example : exec (schedule deepget) (fin deepget) (evs deepget) /\
  has_inv (evs deepget) 3%positive (fun op => match op with OGet _ => true | _ => false end) = true /\ steps_of (schedule deepget) 3%positive = 17 /\
  has_ret (evs deepget) 3%positive (fun r => match r with ROpt (Some _) => true | _ => false end) = false.
Proof. destruct (exec_of deepget) as [Hx Hw]; [vm_compute; reflexivity|]. split; [exact Hx|]. vm_compute. repeat split. Qed.

(** C25: an infinite execution in which an iteration is in progress and new calls arrive all the time. *)
Definition arrive (s : @state CN) : state := set_op s (fresh (dom (s_ops s))) (SRun (ins 7 7) (op_init (ins 7 7))).
Fixpoint arrivals (n : nat) (s : @state CN) : state := match n with 0 => s | S n => arrive (arrivals n s) end.
Lemma arrive_step s : s_dropped s = false -> step s (LInv (fresh (dom (s_ops s))) (ins 7 7)) = Some (arrive s, [EInv (fresh (dom (s_ops s))) (ins 7 7)]).
Proof.
  intros Hd. simpl. rewrite Hd. destruct (s_ops s !! fresh (dom (s_ops s))) as [x|] eqn:E; [|reflexivity].
  exfalso. apply (is_fresh (dom (s_ops s))). apply elem_of_dom. by exists x.
Qed.
Example C25_example : exists sch st n0, @infinite_run CN sch st /\ in_progress (st n0) 6%positive ite.
Proof.
  set (ls := schedule ipart). set (s0 := fin ipart).
  destruct (exec_of ipart) as [Hx Hw]; [vm_compute; reflexivity|]. fold ls s0 in Hx.
  set (st := fun n => if decide (n <= length ls) then default init (state_at ls n) else arrivals (n - length ls) s0).
  set (sch := fun n => match ls !! n with Some lb => lb | None => LInv (fresh (dom (s_ops (arrivals (n - length ls) s0)))) (ins 7 7) end).
  exists sch, st, (length ls).
  assert (state_at ls (length ls) = Some s0) as Hend by (by eapply state_at_end).
  assert (forall n, s_dropped (arrivals n s0) = false) as Hnd.
  { intros n. induction n as [|n IH]; [vm_compute; reflexivity|exact IH]. }
  split; [split|].
  - unfold st. rewrite decide_True by lia. Local Transparent state_at run. reflexivity. Local Opaque state_at run.
  - intros n. unfold st, sch. destruct (decide (S n <= length ls)) as [Hn|Hn].
    + rewrite decide_True by lia. destruct (lookup_lt_is_Some_2 ls n) as [lb Hlb]; [lia|]. rewrite Hlb.
      destruct (state_at_some _ _ _ n Hx) as [s1 H1]; [lia|]. destruct (state_at_some _ _ _ (S n) Hx) as [s2 H2]; [lia|].
      destruct (state_at_step _ _ _ _ _ _ _ Hx Hlb H1 H2) as [e He]. exists e. rewrite H1, H2. exact He.
    + rewrite lookup_ge_None_2 by lia. eexists. replace (S n - length ls) with (S (n - length ls)) by lia.
      assert ((if decide (n <= length ls) then default init (state_at ls n) else arrivals (n - length ls) s0) = arrivals (n - length ls) s0) as ->.
      { destruct (decide (n <= length ls)) as [Hle|]; [|reflexivity]. replace n with (length ls) by lia. rewrite Hend, Nat.sub_diag. reflexivity. }
      apply arrive_step. apply Hnd.
  - unfold st. rewrite decide_True by lia. rewrite Hend. exact (proj1 (proj2 (proj2 C21_unfinished_example))).
Qed.
