(** * C59: readers on weakly ordered memory.
    The machine is that of WeakFree.v: loads may return old values, nodes are freed and their addresses used again.  The vocabulary is in WeakProg.v. *)
From Verif Require Import Model Mem Spec ProgSpec IterProg Weak WeakInv WeakStep WeakSys WeakRun LinSpec Inv Safe SafeProps Concrete Iter IterSpec IterSys
  WeakCoh WeakBase WeakLin PropWeak WeakLockSys WeakFree FreeSim FreeStep FreeInv FreeRun PropFree WeakProg WeakLockRun WeakLockEnd PropWLock WeakCount.

Section theorems.
Context {C : Config} {HC : ConfigOk C}.
Implicit Types (ls : list flabel) (s : fstate) (ev : list event).

(** A get takes at most 17 steps (each is one load of shared memory), and fewer than 17 as long as it has not returned; whatever other calls and the collector do, and
    whatever old values its loads return. *)
Theorem C59_get_wait_free ls s ev o k : wf_fcalls ls -> fexec code_orders ls s ev -> EInv o (OGet k) ∈ ev -> f_steps_of ls o <= 17 /\ (f_running s o (OGet k) -> f_steps_of ls o < 17).
Proof. intros Hwf Hx Hin. destruct (reader_count code_orders ls s ev o (OGet k) code_strong Hwf Hx eq_refl Hin) as [H1 H2]. simpl in H1, H2. split; [lia|]. intros Hr. specialize (H2 Hr ltac:(done)). lia. Qed.
Theorem C59_is_empty_wait_free ls s ev o : wf_fcalls ls -> fexec code_orders ls s ev -> EInv o OIsEmpty ∈ ev -> f_steps_of ls o <= 1 /\ (f_running s o OIsEmpty -> f_steps_of ls o = 0).
Proof. intros Hwf Hx Hin. destruct (reader_count code_orders ls s ev o OIsEmpty code_strong Hwf Hx eq_refl Hin) as [H1 H2]. simpl in H1, H2. split; [lia|]. intros Hr. specialize (H2 Hr ltac:(done)). lia. Qed.
(** An iteration takes at most 2^66 steps more than it yields elements. *)
Theorem C59_iter_bound ls s ev o : wf_fcalls ls -> fexec code_orders ls s ev -> EInv o OIter ∈ ev -> (N.of_nat (f_steps_of ls o) <= 2 ^ 66 + N.of_nat (length (yields_of ev o)))%N.
Proof.
  intros Hwf Hx Hin. destruct (reader_count code_orders ls s ev o OIter code_strong Hwf Hx eq_refl Hin) as [H1 _]. cbn [rB yw] in H1. assert (wfull 16 + 2 <= 2 ^ 66)%N as H2 by (vm_compute; discriminate).
  revert H1 H2. generalize (wfull 16), (2 ^ 66)%N. intros x y. lia.
Qed.
(** In an infinite execution it does not take steps for ever, though others may insert for ever. *)
Theorem C59_iter_terminates sch st n0 o : f_infinite code_orders sch st -> (forall n o op ps ds, sch n = FInv o op ps ds -> op_wf op) -> f_running (st n0) o OIter ->
  ~ infinitely_often (fun n => f_is_step o (sch n) = true).
Proof. intros Hi Hwf. apply (iter_ends code_orders); [apply code_strong|done|done]. Qed.
(** A get, is_empty or iteration in progress can be run to its return by its own steps only, wherever the other calls have been stopped. *)
Theorem C59_finishes ls0 s ev0 o op : wf_fcalls ls0 -> fexec code_orders ls0 s ev0 -> f_running s o op -> is_reader op = true ->
  exists ls s' ev r, f_alone o ls /\ f_spurious_steps ls = 0 /\ frun code_orders s ls = Some (s', ev) /\ ERet o r ∈ ev.
Proof. intros Hwf Hx. apply (reader_finishes code_orders ls0 s ev0 o op code_strong Hwf Hx). Qed.
End theorems.
Print Assumptions C59_get_wait_free.
Print Assumptions C59_is_empty_wait_free.
Print Assumptions C59_iter_bound.
Print Assumptions C59_iter_terminates.
Print Assumptions C59_finishes.

(** ** Concrete cases *)

(** Two elements with the same hash are at the bottom of the trie.  Call 3 gets one of them: 17 steps.  Call 4, by a thread that has heard of nothing, gets the same key; its
    first load returns the initial null pointer: 1 step, nothing found.  Call 5, by a thread that has heard of the first insertion only, makes one step down on the new path and
    is then stopped.  Call 6 removes the other element.  Call 7 iterates and is stopped half way. *)
Definition deep_old : list fcmd :=
  [FI 1 (ins 5 3) [] []; FR 1; FI 2 (ins (5 + 2 ^ 64) 4) [1] []; FR 2; FI 3 (get 5) [2] []; FR 3; FI 4 (get 5) [] []; FO 4 0%nat; FI 5 (get 5) [1] []; FO 5 2%nat; FI 6 (rem (5 + 2 ^ 64)) [2] []; FR 6;
   FI 7 ite [1] []; FO 7 1%nat; FO 7 0%nat]%positive.
Definition runs (x : option (@wop CN)) (f : @oper CN -> bool) : bool := match x with Some (WOp (SRun op _) _ _) => f op | _ => false end.
Lemma runs_run (s : @fstate CN) o f : f_alive s o && runs (w_ops (c_w (f_c s)) !! o) f = true -> exists op, f_running s o op /\ f op = true.
Proof. intros [Ha H]%andb_true_iff. unfold f_running. destruct (w_ops (c_w (f_c s)) !! o) as [[[op p| | |] tv pv]|]; try discriminate H. exists op. split; [split; [exact Ha|by exists p, tv, pv]|exact H]. Qed.
Definition ret_is (ev : list (@event CN)) o (f : @res CN -> bool) : bool := existsb (fun e => match e with ERet o' r => bool_decide (o' = o) && f r | _ => false end) ev.
Definition inv_is (ev : list (@event CN)) o (f : @oper CN -> bool) : bool := existsb (fun e => match e with EInv o' r => bool_decide (o' = o) && f r | _ => false end) ev.
Definition isget (op : @oper CN) : bool := match op with OGet _ => true | _ => false end.
Definition isiter (op : @oper CN) : bool := match op with OIter => true | _ => false end.
Definition isnone (r : @res CN) : bool := match r with ROpt None => true | _ => false end.
Definition issome (r : @res CN) : bool := match r with ROpt (Some _) => true | _ => false end.
Example C59_example : exists (ls : list (@flabel CN)) s ev op5 op7, fexec code_orders ls s ev /\ wf_fcalls ls /\
  inv_is ev 3%positive isget = true /\ f_steps_of ls 3%positive = 17 /\ ret_is ev 3%positive issome = true /\
  inv_is ev 4%positive isget = true /\ f_steps_of ls 4%positive = 1 /\ ret_is ev 4%positive isnone = true /\
  f_running s 5%positive op5 /\ isget op5 = true /\ f_steps_of ls 5%positive = 1 /\ f_running s 7%positive op7 /\ isiter op7 = true.
Proof.
  destruct (fexec_check code_orders deep_old (fun (ls : list (@flabel CN)) (s : @fstate CN) (ev : list (@event CN)) =>
    (inv_is ev 3%positive isget && (f_steps_of ls 3%positive =? 17) && ret_is ev 3%positive issome) &&
    (inv_is ev 4%positive isget && (f_steps_of ls 4%positive =? 1) && ret_is ev 4%positive isnone) &&
    ((f_alive s 5%positive && runs (w_ops (c_w (f_c s)) !! 5%positive) isget) && (f_steps_of ls 5%positive =? 1)) &&
    (f_alive s 7%positive && runs (w_ops (c_w (f_c s)) !! 7%positive) isiter))) as (ls & s & ev & He & Hwf & Hf); [vm_compute; reflexivity|].
  apply andb_true_iff in Hf as [Hf H7]. apply andb_true_iff in Hf as [Hf H5]. apply andb_true_iff in Hf as [H3 H4]. apply andb_true_iff in H3 as [H3 H3r]. apply andb_true_iff in H3 as [H3i H3s].
  apply andb_true_iff in H4 as [H4 H4r]. apply andb_true_iff in H4 as [H4i H4s]. apply andb_true_iff in H5 as [H5 H5s].
  apply runs_run in H5 as (op5 & R5 & E5). apply runs_run in H7 as (op7 & R7 & E7). apply Nat.eqb_eq in H3s, H4s, H5s.
  exists ls, s, ev, op5, op7. exact (conj He (conj Hwf (conj H3i (conj H3s (conj H3r (conj H4i (conj H4s (conj H4r (conj R5 (conj E5 (conj H5s (conj R7 E7)))))))))))).
Qed.

(** An infinite execution: an iteration is in progress, and calls to insert arrive for ever. *)
Section arrivals.
Context `{C : Config} (el : Pl).
Notation w := code_orders.
Definition alab (n : nat) : flabel := FInv (fid n) (if n =? 0 then OIter else OInsert el) [] [].
Fixpoint ast (n : nat) : fstate := match n with 0 => finit | S n => match fstep w (ast n) (alab n) with Some (s', _) => s' | None => ast n end end.
Lemma ast_ok n : f_dropped (ast n) = false /\ f_gone (ast n) = ∅ /\ f_done (ast n) = [] /\ (forall k, n <= k -> w_ops (c_w (f_c (ast n))) !! fid k = None) /\ (1 <= n -> f_running (ast n) (fid 0) OIter) /\
  exists e, fstep w (ast n) (alab n) = Some (ast (S n), e).
Proof.
  assert (forall n, f_dropped (ast n) = false -> f_done (ast n) = [] -> (forall k, n <= k -> w_ops (c_w (f_c (ast n))) !! fid k = None) ->
    exists e c sy, fstep w (ast n) (alab n) = Some (ast (S n), e) /\ ast (S n) = FState c (f_regs (ast n)) sy (f_done (ast n)) (f_gone (ast n)) (f_dropped (ast n)) (f_ub (ast n)) /\
      exists tv pv, w_ops (c_w c) = <[fid n := WOp (SRun (if n =? 0 then OIter else OInsert el) (op_init (if n =? 0 then OIter else OInsert el))) tv pv]> (w_ops (c_w (f_c (ast n))))) as Hs.
  { intros m Hd Hdn Hn. cbn [ast]. unfold alab. cbn [fstep cstep wstep]. rewrite Hd, Hdn. cbn [forallb negb andb]. rewrite (Hn m) by lia. do 3 eexists. split; [done|]. split; [done|]. do 2 eexists. reflexivity. }
  induction n as [|n (Hd & Hg & Hdn & Hn & Hr & e & He)].
  - assert (forall k, 0 <= k -> w_ops (c_w (f_c (ast 0))) !! fid k = None) as Hn by (intros k _; apply lookup_empty).
    destruct (Hs 0 eq_refl eq_refl Hn) as (e & c & sy & He & _). split; [done|]. split; [done|]. split; [done|]. split; [exact Hn|]. split; [intros Hc; lia|]. by exists e.
  - destruct (Hs n Hd Hdn Hn) as (e' & c & sy & _ & E & tv & pv & Hops). 
    assert (f_dropped (ast (S n)) = false /\ f_gone (ast (S n)) = ∅ /\ f_done (ast (S n)) = []) as (Hd' & Hg' & Hdn') by (rewrite E; cbn [f_dropped f_gone f_done]; done).
    assert (forall k, S n <= k -> w_ops (c_w (f_c (ast (S n)))) !! fid k = None) as Hn'.
    { intros k Hk. rewrite E. cbn [f_c]. rewrite Hops, lookup_insert_ne; [apply Hn; lia|]. unfold fid. lia. }
    destruct (Hs (S n) Hd' Hdn' Hn') as (e2 & c2 & sy2 & He2 & _). split; [done|]. split; [done|]. split; [done|]. split; [done|]. split; [|by exists e2]. intros _.
    assert (exists p tv pv, w_ops (c_w (f_c (ast (S n)))) !! fid 0 = Some (WOp (SRun OIter p) tv pv)) as (p & tv' & pv' & Hp).
    { rewrite E. cbn [f_c]. rewrite Hops. destruct n as [|n]; [rewrite lookup_insert; eauto|]. rewrite lookup_insert_ne by (unfold fid; lia). destruct (Hr ltac:(lia)) as [_ (p & tv' & pv' & Hp)]. eauto. }
    split; [|eauto]. apply bool_decide_eq_true. split; [by eexists|]. rewrite Hg'. apply not_elem_of_empty.
Qed.
End arrivals.
Example C59_terminates_example : exists sch st, @f_infinite CN code_orders sch st /\ (forall n o op ps ds, sch n = FInv o op ps ds -> op_wf op) /\ f_running (st 1) (fid 0) OIter.
Proof.
  exists (@alab CN (5%N, 7%N)), (@ast CN (5%N, 7%N)). split; [split; [done|]; intros n; apply ast_ok|]. split; [|by apply ast_ok]. intros n o op ps ds [= _ <- _ _]. by destruct (n =? 0).
Qed.
