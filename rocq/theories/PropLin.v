(** * Properties C01, C03-C06, C16, C28, C29, C32, C34-C37.
    Statements, with concrete cases that meet their hypotheses; the proofs are in LinProps.v, LinMore.v and Shape.v. *)
From Verif Require Import Model Spec LinSpec Concrete SysSem Lin LinProps LinMore Shape.

#[local] Opaque schedule fin evs state_at run.

(** ** A concrete history used below: three calls overlap and two of them fight for key 32; a fourth call is abandoned
    midway.  (The numbers are the names of the calls.) *)
Definition race : list cmd :=
  [Inv 1 (ins 16 1); Finish 1; Inv 2 (ins 32 2); Steps 2 2; Inv 3 (rem 16); Steps 1 3; Inv 4 (goi 32 4); Finish 4; Finish 2; Finish 3;
   Inv 5 (ins 5 5); Steps 1 5; Lab (LAbort 5); Inv 6 (get 32); Finish 6; Inv 7 (goi 32 7); Finish 7; Inv 8 (rem 16); Finish 8]%positive.
Lemma race_ok : exec (schedule race) (fin race) (evs race) /\ wf_calls (schedule race).
Proof. apply exec_of. vm_compute. reflexivity. Qed.

(** ** C01: linearizability.  [linearizes] is Herlihy and Wing's definition, in LinSpec.v; the last part says that what is
    really in the map at the end is what the linearization leads to. *)
Theorem C01_linearizable `{C : Config} `{!ConfigOk C} : forall ls s ev, exec ls s ev -> wf_calls ls ->
  exists l a, linearizes l ev a /\ (s_dropped s = false -> forall k, has s k (a k)).
Proof. exact linearizable. Qed.
Print Assumptions C01_linearizable.

Example C01_example : exec (schedule race) (fin race) (evs race) /\ wf_calls (schedule race) /\ s_dropped (fin race) = false /\
  EInv 2%positive (ins 32 2) ∈ evs race /\ EInv 3%positive (rem 16) ∈ evs race /\ EInv 4%positive (goi 32 4) ∈ evs race /\
  (exists x, ERet 4%positive (REon (New x)) ∈ evs race /\ rr_val x = el 32 4) /\
  (exists x, ERet 2%positive (ROpt (Some x)) ∈ evs race /\ rr_val x = el 32 4) /\
  (exists x, ERet 3%positive (ROpt (Some x)) ∈ evs race /\ rr_val x = el 16 1).
Proof.
  destruct race_ok as [Hx Hw]. split; [exact Hx|]. split; [exact Hw|]. split; [vm_compute; reflexivity|].
  split; [apply (elem_of_nth 2); vm_compute; reflexivity|]. split; [apply (elem_of_nth 3); vm_compute; reflexivity|]. split; [apply (elem_of_nth 4); vm_compute; reflexivity|].
  split; [|split]; eexists; (split; [|shelve]).
  - apply (elem_of_nth 6). vm_compute. reflexivity.
  - apply (elem_of_nth 7). vm_compute. reflexivity.
  - apply (elem_of_nth 8). vm_compute. reflexivity.
  Unshelve. all: reflexivity.
Qed.

(** ** C03: there is one step of the insert at which it takes effect: what it returns is what its key had just before, just
    after the key has the new element, all other keys are as before; and its other steps change nothing. *)
Theorem C03_insert `{C : Config} `{!ConfigOk C} : forall ls s ev o p r, exec ls s ev -> wf_calls ls -> EInv o (OInsert p) ∈ ev -> ERet o r ∈ ev ->
  exists x j s1 s2, r = ROpt x /\ step_at ls j o s1 s2 /\ in_progress s1 o (OInsert p) /\
    has s1 (keyof p) (rr_val <$> x) /\ maps s2 (keyof p) p /\ same_elsewhere (keyof p) s1 s2 /\
    forall j' s1' s2', step_at ls j' o s1' s2' -> j' <> j -> same_contents s1' s2'.
Proof. exact insert_effect. Qed.
Print Assumptions C03_insert.

(* see C01_example: calls 1 and 2, the second displaces what call 4 inserted while it was running *)

(** ** C04: a successful remove has one step at which it takes effect: the key had the returned element just before and is
    absent just after, other keys are unchanged; an unsuccessful one changes nothing and the key was absent at some instant during
    the call. *)
Theorem C04_remove `{C : Config} `{!ConfigOk C} : forall ls s ev o k r, exec ls s ev -> wf_calls ls -> EInv o (ORemove k) ∈ ev -> ERet o r ∈ ev ->
  exists x, r = ROpt x /\
  match x with
  | Some y => exists j s1 s2, step_at ls j o s1 s2 /\ in_progress s1 o (ORemove k) /\
      maps s1 k (rr_val y) /\ absent s2 k /\ same_elsewhere k s1 s2 /\
      forall j' s1' s2', step_at ls j' o s1' s2' -> j' <> j -> same_contents s1' s2'
  | None => (exists j s1, state_at ls j = Some s1 /\ in_progress s1 o (ORemove k) /\ absent s1 k) /\
      forall j' s1' s2', step_at ls j' o s1' s2' -> same_contents s1' s2'
  end.
Proof. exact remove_effect. Qed.
Print Assumptions C04_remove.

(** Elements are not taken out more often than they are put in: every call that took an element out can be assigned a call that
    put that element in, different ones to different calls. *)
Theorem C04_taken_once `{C : Config} `{!ConfigOk C} : forall ls s ev, exec ls s ev -> wf_calls ls ->
  exists R : opid -> opid -> Prop,
    (forall o p, took_out ev o p -> exists o', R o o' /\ put_in ev o' p) /\
    (forall o1 o2 p1 p2 o', took_out ev o1 p1 -> took_out ev o2 p2 -> R o1 o' -> R o2 o' -> o1 = o2).
Proof. exact one_taker. Qed.
Print Assumptions C04_taken_once.

Example C04_example : exec (schedule race) (fin race) (evs race) /\ wf_calls (schedule race) /\
  took_out (evs race) 3%positive (el 16 1) /\ took_out (evs race) 2%positive (el 32 4) /\
  ERet 8%positive (ROpt None) ∈ evs race.
Proof.
  destruct race_ok as [Hx Hw]. split; [exact Hx|]. split; [exact Hw|]. split; [|split].
  - eexists. split; [apply (elem_of_nth 8); vm_compute; reflexivity|]. split; [reflexivity|]. left. eexists. apply (elem_of_nth 3). vm_compute. reflexivity.
  - eexists. split; [apply (elem_of_nth 7); vm_compute; reflexivity|]. split; [reflexivity|]. right. eexists. apply (elem_of_nth 2). vm_compute. reflexivity.
  - apply (elem_of_nth 15). vm_compute. reflexivity.
Qed.

(** ** C05: consider any moment at which key [k] is absent, and suppose that from then on the only calls in progress that could
    change that key are get_or_insert_with calls.  If any of these returned at all, then exactly one returned New, and all the
    others returned Existing with the winner's element. *)
Theorem C05_one_winner `{C : Config} `{!ConfigOk C} : forall ls s ev j0 s0 k, exec ls s ev -> wf_calls ls ->
  j0 <= length ls -> state_at ls j0 = Some s0 -> s_dropped s0 = false -> absent s0 k ->
  (forall j sj o op, j0 <= j -> state_at ls j = Some sj -> in_progress sj o op -> touches op k -> exists k' f, op = OGetOrInsert k' f) ->
  (exists o e, goi_call ev s0 k o e) ->
  exists ow xw, goi_call ev s0 k ow (New xw) /\
    forall o e, goi_call ev s0 k o e -> (o = ow /\ e = New xw) \/ (o <> ow /\ exists x, e = Existing x /\ rr_val x = rr_val xw).
Proof. exact one_winner. Qed.
Print Assumptions C05_one_winner.

(* Three calls race for key 5, next to key 21 in the same branch; the second to come wins. *)
Definition race5 : list cmd :=
  [Inv 1 (ins 21 1); Finish 1; Inv 2 (goi 5 2); Steps 7 2; Inv 3 (goi 5 3); Steps 3 3; Inv 4 (goi 5 4); Steps 1 4; Finish 3; Finish 2; Finish 4]%positive.
Definition k5 : @Key CN := 5%N.
Example C05_example : exists s0,
  exec (schedule race5) (fin race5) (evs race5) /\ wf_calls (schedule race5) /\ 3 <= length (schedule race5) /\
  state_at (schedule race5) 3 = Some s0 /\ s_dropped s0 = false /\ absent s0 k5 /\
  (forall j sj o op, 3 <= j -> state_at (schedule race5) j = Some sj -> in_progress sj o op -> touches op k5 -> exists k' f, op = OGetOrInsert k' f) /\
  (exists x, goi_call (evs race5) s0 k5 2%positive (Existing x)) /\ (exists x, goi_call (evs race5) s0 k5 3%positive (New x)) /\
  (exists x, goi_call (evs race5) s0 k5 4%positive (Existing x)).
Proof.
  destruct (exec_of race5) as [Hx Hw]; [vm_compute; reflexivity|].
  assert (exists s0, state_at (schedule race5) 3 = Some s0 /\ s_dropped s0 = false /\ Look.absm (C:=CN) (s_mem s0) k5 = None /\
     s_ops s0 !! 2%positive = None /\ s_ops s0 !! 3%positive = None /\ s_ops s0 !! 4%positive = None) as (s0 & Hs0 & Hd & Ha & H2 & H3 & H4).
  { eexists. split; [vm_compute; reflexivity|]. vm_compute. repeat split. }
  exists s0. split; [exact Hx|]. split; [exact Hw|]. split; [apply Nat.leb_le; vm_compute; reflexivity|]. split; [exact Hs0|]. split; [exact Hd|].
  split; [apply (has_A _ _ _ 3 s0 k5 None Hx Hw Hs0 Hd); unfold A_of; by rewrite Hs0|].
  split.
  { intros j sj o op Hj Hs Hpr Ht.
    assert (match op with OGetOrInsert _ _ => true | OInsert p => negb (N.eqb (fst p) 5) | _ => false end = true) as Hb.
    { refine (prog_check_spec _ 3 (fun _ op => match op with OGetOrInsert _ _ => true | OInsert p => negb (N.eqb (fst p) 5) | _ => false end) _ _ _ _ _ _ Hj Hs Hpr); [vm_compute; reflexivity|].
      apply Nat.leb_le; vm_compute; reflexivity. }
    clear -Hb Ht. destruct op as [p|k f| | | |]; try done; [|by exists k, f]. simpl in Ht. unfold k5 in Ht. by rewrite Ht in Hb. }
  assert (forall o, s_ops s0 !! o = None -> ~ finished s0 o) as Hnf.
  { clear. intros o E [(? & ? & E')|E']; rewrite E in E'; discriminate. }
  split; [|split].
  - eexists. split; [apply Hnf; assumption|]. split; [do 2 eexists; split; [apply (elem_of_nth 2); vm_compute; reflexivity|vm_compute; reflexivity]|].
    apply (elem_of_nth 8). vm_compute. reflexivity.
  - eexists. split; [apply Hnf; assumption|]. split; [do 2 eexists; split; [apply (elem_of_nth 4); vm_compute; reflexivity|vm_compute; reflexivity]|].
    apply (elem_of_nth 7). vm_compute. reflexivity.
  - eexists. split; [apply Hnf; assumption|]. split; [do 2 eexists; split; [apply (elem_of_nth 6); vm_compute; reflexivity|vm_compute; reflexivity]|].
    apply (elem_of_nth 9). vm_compute. reflexivity.
Qed.

(** ** C06: the closure runs at most once; New means that it ran once and made the returned element; Existing means that the
    element was in the map at some instant during the call. *)
Theorem C06_at_most_once `{C : Config} `{!ConfigOk C} : forall ls s ev o, exec ls s ev -> length (calls_of ev o) <= 1.
Proof. intros ls s ev o Hx. apply (si_calls _ _ (exec_sh _ _ _ Hx)). Qed.
Print Assumptions C06_at_most_once.

Theorem C06_new `{C : Config} `{!ConfigOk C} : forall ls s ev o k f x, exec ls s ev -> EInv o (OGetOrInsert k f) ∈ ev -> ERet o (REon (New x)) ∈ ev ->
  calls_of ev o = [k] /\ rr_val x = f k.
Proof.
  intros ls s ev o k f x Hx Hi Hr. destruct (si_ret _ _ (exec_sh _ _ _ Hx) _ _ _ Hi Hr) as [_ Hn]. by destruct (Hn x eq_refl) as (? & ? & [= <- <-] & ? & ?).
Qed.
Print Assumptions C06_new.

Theorem C06_existing `{C : Config} `{!ConfigOk C} : forall ls s ev o k f x, exec ls s ev -> wf_calls ls -> EInv o (OGetOrInsert k f) ∈ ev -> ERet o (REon (Existing x)) ∈ ev ->
  exists j s1, state_at ls j = Some s1 /\ in_progress s1 o (OGetOrInsert k f) /\ maps s1 k (rr_val x).
Proof. intros ls s ev o k f x Hx Hw Hi Hr. by destruct (goi_effect _ _ _ _ _ _ _ Hx Hw Hi Hr) as (? & [= <-] & H & _). Qed.
Print Assumptions C06_existing.

(** In [race5], call 2 has already run its closure when it loses the race: it returns Existing all the same. *)
Example C06_example : exec (schedule race5) (fin race5) (evs race5) /\ wf_calls (schedule race5) /\
  calls_of (evs race5) 2%positive = [k5] /\ has_ret (evs race5) 2%positive (fun r => match r with REon (Existing _) => true | _ => false end) = true /\
  calls_of (evs race5) 3%positive = [k5] /\ has_ret (evs race5) 3%positive (fun r => match r with REon (New _) => true | _ => false end) = true /\
  calls_of (evs race5) 4%positive = [] /\ has_ret (evs race5) 4%positive (fun r => match r with REon (Existing _) => true | _ => false end) = true.
Proof. destruct (exec_of race5) as [Hx Hw]; [vm_compute; reflexivity|]. split; [exact Hx|]. split; [exact Hw|]. vm_compute. repeat split. Qed.

(** ** C16: if is_empty says true, then there was no key at some instant during the call. *)
Theorem C16_is_empty_true `{C : Config} `{!ConfigOk C} : forall ls s ev o, exec ls s ev -> wf_calls ls -> EInv o OIsEmpty ∈ ev -> ERet o (RBool true) ∈ ev ->
  exists j s1, state_at ls j = Some s1 /\ in_progress s1 o OIsEmpty /\ forall k, absent s1 k.
Proof. intros ls s ev o Hx Hw Hi Hr. destruct (is_empty_effect _ _ _ _ _ Hx Hw Hi Hr) as (? & [= <-] & H). by apply H. Qed.
Print Assumptions C16_is_empty_true.

(* is_empty is called while two removals and an insertion are in progress *)
Definition emptying : list cmd :=
  [Inv 1 (ins 1 1); Finish 1; Inv 2 (ins 17 2); Finish 2; Inv 3 (rem 1); Steps 3 3; Inv 4 (rem 17); Finish 4; Inv 5 ise; Inv 6 (ins 3 3);
   Steps 1 6; Finish 3; Finish 5; Finish 6]%positive.
Example C16_example : exec (schedule emptying) (fin emptying) (evs emptying) /\ wf_calls (schedule emptying) /\
  has_inv (evs emptying) 5%positive (fun op => match op with OIsEmpty => true | _ => false end) = true /\
  has_ret (evs emptying) 5%positive (fun r => match r with RBool b => b | _ => false end) = true.
Proof. destruct (exec_of emptying) as [Hx Hw]; [vm_compute; reflexivity|]. split; [exact Hx|]. split; [exact Hw|]. vm_compute. repeat split. Qed.

(** ** C28: no step of get, is_empty or an iteration changes shared memory. *)
Theorem C28_readers_do_not_write `{C : Config} `{!ConfigOk C} : forall s o op spur a s' e, reachable s -> in_progress s o op -> is_reader op = true ->
  step s (LStep o spur a) = Some (s', e) -> s_mem s' = s_mem s.
Proof. exact reader_step. Qed.
Print Assumptions C28_readers_do_not_write.

(* an iteration under way over a map that has been changed since it started *)
Definition reading : list cmd :=
  [Inv 1 (ins 1 1); Finish 1; Inv 2 (ins 17 2); Finish 2; Inv 3 ite; Steps 4 3; Inv 4 (rem 17); Finish 4; Steps 1 3]%positive.
Example C28_example : exec (schedule reading) (fin reading) (evs reading) /\ in_progress (fin reading) 3%positive ite /\ is_reader ite = true /\
  exists s' e, step (fin reading) (LStep 3%positive false 1%N) = Some (s', e).
Proof.
  destruct (exec_of reading) as [Hx Hw]; [vm_compute; reflexivity|]. split; [exact Hx|].
  assert (match s_ops (fin reading) !! 3%positive with Some (SRun OIter _) => true | _ => false end = true) as H1 by (vm_compute; reflexivity).
  assert (match step (fin reading) (LStep 3%positive false 1%N) with Some _ => true | _ => false end = true) as H2 by (vm_compute; reflexivity).
  revert H1 H2. unfold in_progress. generalize (fin reading). clear. intros s. destruct (s_ops s !! 3%positive) as [[[] p| | |]|] eqn:Eo; try discriminate. intros _ H2.
  split; [exists p; exact Eo|]. split; [reflexivity|]. destruct (step s _) as [[s' e]|]; [by exists s', e|discriminate].
Qed.

(** ** C29: every call, whether it returned, is still running, was stopped forever or unwound, either changes nothing in any of its
    steps, or there is exactly one step at which the contents change, and there they change as the complete operation says,
    with the result the caller gets (if it gets one). *)
Theorem C29_all_or_nothing `{C : Config} `{!ConfigOk C} : forall ls s ev o, exec ls s ev -> wf_calls ls ->
  (forall j s1 s2, step_at ls j o s1 s2 -> same_contents s1 s2) \/
  exists j0 op x s1 s2 a a', step_at ls j0 o s1 s2 /\ in_progress s1 o op /\ EInv o op ∈ ev /\
    (forall k, has s1 k (a k)) /\ (forall k, has s2 k (a' k)) /\ spec_step a op x a' /\
    (forall r y, ERet o r ∈ ev -> val_of r = Some y -> y = x) /\
    forall j s1 s2, step_at ls j o s1 s2 -> j <> j0 -> same_contents s1 s2.
Proof. exact atomic_or_nothing. Qed.
Print Assumptions C29_all_or_nothing.

(* Call 3 (a remove) unwinds while it is pruning, after it has taken the element out; call 4 unwinds before it did
   anything; the map is still usable. *)
Definition unwound : list cmd :=
  [Inv 1 (ins 1 1); Finish 1; Inv 2 (ins 17 2); Finish 2; Inv 3 (rem 1); Steps 9 3; Lab (LAbort 3); Inv 4 (ins 33 4); Steps 2 4; Lab (LAbort 4);
   Inv 5 (get 1); Finish 5; Inv 6 (ins 33 6); Finish 6; Inv 7 (get 17); Finish 7]%positive.
Example C29_example : exec (schedule unwound) (fin unwound) (evs unwound) /\ wf_calls (schedule unwound) /\
  has_ret (evs unwound) 3%positive (fun _ => true) = false /\ has_ret (evs unwound) 4%positive (fun _ => true) = false /\
  has_ret (evs unwound) 5%positive (fun r => match r with ROpt None => true | _ => false end) = true /\
  has_ret (evs unwound) 6%positive (fun r => match r with ROpt None => true | _ => false end) = true /\
  has_ret (evs unwound) 7%positive (fun r => match opt_val r with Some (17, 2)%N => true | _ => false end) = true.
Proof. destruct (exec_of unwound) as [Hx Hw]; [vm_compute; reflexivity|]. split; [exact Hx|]. split; [exact Hw|]. vm_compute. repeat split. Qed.

(** ** C32: suppose that from some moment on (state [s0]) the only calls in progress that could change anything are inserts of the
    elements of [L], and that for every element of [L] such an insert returned.  Then every key of [L] has one of the
    elements of [L], and every other key has what it had. *)
Theorem C32_parallel_extend `{C : Config} `{!ConfigOk C} : forall ls s ev j0 s0 (L : list Pl), exec ls s ev -> wf_calls ls -> j0 <= length ls ->
  state_at ls j0 = Some s0 -> s_dropped s = false ->
  (forall j sj o op k, j0 <= j -> state_at ls j = Some sj -> in_progress sj o op -> touches op k -> exists p, p ∈ L /\ op = OInsert p) ->
  (forall p, p ∈ L -> exists o r, EInv o (OInsert p) ∈ ev /\ ERet o r ∈ ev /\ ~ finished s0 o) ->
  forall k, ((exists p, p ∈ L /\ keqb (keyof p) k = true) -> exists p, p ∈ L /\ maps s k p) /\
            ((forall p, p ∈ L -> keqb (keyof p) k = false) -> forall x, has s k x <-> has s0 k x).
Proof. exact parallel_inserts. Qed.
Print Assumptions C32_parallel_extend.

(* two threads insert three elements, two of them with the same key, into a map that has key 1 *)
Definition par_ext : list cmd :=
  [Inv 1 (ins 1 1); Finish 1; Inv 2 (ins 17 2); Steps 2 2; Inv 3 (ins 17 3); Steps 3 3; Finish 2; Inv 4 (ins 2 4); Steps 1 4; Finish 3; Finish 4]%positive.
Example C32_example : exec (schedule par_ext) (fin par_ext) (evs par_ext) /\ wf_calls (schedule par_ext) /\ s_dropped (fin par_ext) = false /\
  exists s0, state_at (schedule par_ext) 3 = Some s0 /\
  (forall j sj o op k, 3 <= j -> state_at (schedule par_ext) j = Some sj -> in_progress sj o op -> touches op k -> exists p, p ∈ [el 17 2; el 17 3; el 2 4] /\ op = OInsert p) /\
  (forall p, p ∈ [el 17 2; el 17 3; el 2 4] -> exists o r, EInv o (OInsert p) ∈ (evs par_ext) /\ ERet o r ∈ (evs par_ext) /\ ~ finished s0 o).
Proof.
  destruct (exec_of par_ext) as [Hx Hw]; [vm_compute; reflexivity|]. split; [exact Hx|]. split; [exact Hw|]. split; [vm_compute; reflexivity|].
  assert (exists s0, state_at (schedule par_ext) 3 = Some s0 /\ s_ops s0 !! 2%positive = None /\ s_ops s0 !! 3%positive = None /\ s_ops s0 !! 4%positive = None) as (s0 & Hs0 & H2 & H3 & H4).
  { eexists. split; [vm_compute; reflexivity|]. vm_compute. repeat split. }
  exists s0. split; [exact Hs0|]. split.
  { intros j sj o op k Hj Hs Hpr _.
    assert (match op with OInsert p => existsb (fun q => N.eqb (fst p) (fst q) && N.eqb (snd p) (snd q)) [el 17 2; el 17 3; el 2 4] | _ => false end = true) as Hb.
    { refine (prog_check_spec _ 3 (fun _ op => match op with OInsert p => existsb (fun q => N.eqb (fst p) (fst q) && N.eqb (snd p) (snd q)) [el 17 2; el 17 3; el 2 4] | _ => false end) _ _ _ _ _ _ Hj Hs Hpr); [vm_compute; reflexivity|].
      apply Nat.leb_le; vm_compute; reflexivity. }
    clear -Hb. destruct op as [p| | | | |]; try discriminate Hb. exists p. split; [|reflexivity]. apply existsb_exists in Hb as (q & Hq & Hb). apply andb_true_iff in Hb as [H1 H2].
    apply N.eqb_eq in H1, H2. apply elem_of_list_In. destruct p, q. simpl in H1, H2. subst. exact Hq. }
  assert (forall o, s_ops s0 !! o = None -> ~ finished s0 o) as Hnf.
  { clear. intros o E [(? & ? & E')|E']; rewrite E in E'; discriminate. }
  intros p Hp. rewrite !elem_of_cons in Hp. destruct Hp as [->|[->|[->|Hp]]]; [| | |apply elem_of_nil in Hp; destruct Hp].
  - exists 2%positive. eexists. split; [|split; [|apply Hnf; exact H2]]; [apply (elem_of_nth 2)|apply (elem_of_nth 4)]; vm_compute; reflexivity.
  - exists 3%positive. eexists. split; [|split; [|apply Hnf; exact H3]]; [apply (elem_of_nth 3)|apply (elem_of_nth 6)]; vm_compute; reflexivity.
  - exists 4%positive. eexists. split; [|split; [|apply Hnf; exact H4]]; [apply (elem_of_nth 5)|apply (elem_of_nth 7)]; vm_compute; reflexivity.
Qed.

(** ** C34: what insert, get, remove and get_or_insert_with return is an element that some call put in, and its key is the one asked for.
    (A payload of the model is whatever the user stores; for ConMap that is an Arc handle, so equality of payloads is
    identity of the handle's allocation.  For iterations see PropIter.v.) *)
Theorem C34_handles `{C : Config} `{!ConfigOk C} : forall ls s ev o op r x k, exec ls s ev -> wf_calls ls -> EInv o op ∈ ev -> ERet o r ∈ ev -> x ∈ refs_of r -> op_key op = Some k ->
  keqb (keyof (rr_val x)) k = true /\ exists o', put_in ev o' (rr_val x).
Proof. exact handle_origin. Qed.
Print Assumptions C34_handles.
(* see C01_example: call 4 returns the element its own closure made, call 2 the one call 4 put in, call 3 the one of call 1 *)

(** ** C35: a key that no call in progress from some moment on could change keeps its value. *)
Theorem C35_untouched `{C : Config} `{!ConfigOk C} : forall ls s ev j1 j2 s1 s2 k x, exec ls s ev -> wf_calls ls -> j1 <= j2 -> j2 <= length ls ->
  state_at ls j1 = Some s1 -> state_at ls j2 = Some s2 -> s_dropped s2 = false ->
  (forall j sj o op, j1 <= j < j2 -> state_at ls j = Some sj -> in_progress sj o op -> ~ touches op k) ->
  has s2 k x <-> has s1 k x.
Proof. exact untouched. Qed.
Print Assumptions C35_untouched.

(** ** C36: an element made by a closure and reported as New is found by its own key afterwards, as long as no other call touches
    that key.  Missing for the full claim: closures that make an element with a key different from the one asked for;
    for those the claim is false, see C36_refuted. *)
Theorem C36_new_is_found_partial `{C : Config} `{!ConfigOk C} : forall ls s ev o k f x, exec ls s ev -> wf_calls ls -> EInv o (OGetOrInsert k f) ∈ ev -> ERet o (REon (New x)) ∈ ev ->
  exists j s1 s2, step_at ls j o s1 s2 /\
    forall o' r, (forall i si o2 op2, S j <= i -> state_at ls i = Some si -> in_progress si o2 op2 -> ~ touches op2 (keyof (rr_val x))) ->
      s_ops s2 !! o' = None -> EInv o' (OGet (keyof (rr_val x))) ∈ ev -> ERet o' r ∈ ev -> exists y, r = ROpt (Some y) /\ rr_val y = rr_val x.
Proof. exact new_is_found. Qed.
Print Assumptions C36_new_is_found_partial.

(** A sequential history, after key 21 was inserted: the closure passed for key 5 makes an element with key 6, the call says New, nothing else touches the
    map, and looking the element up by its own key gives nothing. *)
Definition wrong_key : list cmd :=
  [Inv 2 (ins 21 2); Finish 2; Inv 1 (@OGetOrInsert CN 5%N (fun _ => el 6 1)); Finish 1; Inv 3 (get 6); Finish 3]%positive.
Theorem C36_refuted : exists ls s ev x,
  @exec CN ls s ev /\ EInv 1%positive (@OGetOrInsert CN 5%N (fun _ => el 6 1)) ∈ ev /\ ERet 1%positive (REon (New x)) ∈ ev /\ rr_val x = el 6 1 /\
  precedes ev 1%positive 3%positive /\ EInv 3%positive (@OGet CN (keyof (rr_val x))) ∈ ev /\ ERet 3%positive (ROpt None) ∈ ev.
Proof.
  exists (schedule wrong_key), (fin wrong_key), (evs wrong_key). eexists. split.
  { apply exec_of_any. vm_compute. reflexivity. }
  split; [apply (elem_of_nth 2); vm_compute; reflexivity|]. split; [apply (elem_of_nth 4); vm_compute; reflexivity|]. split; [reflexivity|].
  split.
  { exists (take 5 (evs wrong_key)), (drop 5 (evs wrong_key)). do 2 eexists. split; [symmetry; apply take_drop|].
    split; [apply (elem_of_nth 4); vm_compute; reflexivity|apply (elem_of_nth 0); vm_compute; reflexivity]. }
  split; [apply (elem_of_nth 5); vm_compute; reflexivity|apply (elem_of_nth 6); vm_compute; reflexivity].
Qed.
Print Assumptions C36_refuted.

(** ** C37: an inner node has at most 15 inner nodes above it, a leaf at most 16; a leaf with more than one element (or none) is
    below all 16; and the elements in one leaf have the same hash. *)
Theorem C37_depth `{C : Config} `{!ConfigOk C} : forall ls s ev n l a b, exec ls s ev -> wf_calls ls -> s_dropped s = false ->
  linked_at (s_mem s) n l -> m_heap (s_mem s) !! l = Some (HObj a b) ->
  match b with
  | BInner _ => n < 16
  | BData it => n <= 16 /\ (length it = 1 \/ n = 16) /\ forall p q, p ∈ it -> q ∈ it -> hashf (keyof p) = hashf (keyof q)
  end.
Proof.
  intros ls s ev n l a b Hx Hw Hd Hl Hh. assert (reachable s) as Hr by (by exists ls, ev). destruct b.
  - by eapply depth_inner.
  - destruct (depth_data _ _ _ _ _ Hr Hd Hl Hh). split; [done|]. split; [done|]. intros p q. by eapply depth_hash.
Qed.
Print Assumptions C37_depth.

(** Two keys with the same hash (5 and 5 + 2^64) end up in one leaf below 16 inner nodes. *)
Definition colliding : list cmd := seqcalls 1%positive [ins 5 1; ins (5 + 2 ^ 64) 2]%N.
Fixpoint down (n : nat) (m : @mem CN) (i : nat) : sh :=
  match n with
  | 0 => m_root m
  | S n => match sh_loc (down n m i) with Some l => match m_heap m !! l with Some (HObj _ (BInner sl)) => default sh_null (sl !! (if n =? 0 then i else 0)) | _ => sh_null end | None => sh_null end
  end.
Lemma down_linked n m i l : sh_loc (down n m i) = Some l -> linked_at m n l.
Proof.
  revert l. induction n as [|n IH]; intros l H; [by apply linked_root|]. cbn [down] in H. destruct (sh_loc (down n m i)) as [l'|] eqn:E; [|done].
  destruct (m_heap m !! l') as [[a [sl|it]]|] eqn:Eh; [|done|done]. destruct (sl !! (if n =? 0 then i else 0)) as [w|] eqn:Ew; [|done].
  eapply linked_slot; [by apply IH|exact Eh|by eapply elem_of_list_lookup_2|exact H].
Qed.
Example C37_example : exec (schedule colliding) (fin colliding) (evs colliding) /\ wf_calls (schedule colliding) /\ s_dropped (fin colliding) = false /\
  exists l a it, linked_at (s_mem (fin colliding)) 16 l /\ m_heap (s_mem (fin colliding)) !! l = Some (HObj a (BData it)) /\ length it = 2.
Proof.
  destruct (exec_of colliding) as [Hx Hw]; [vm_compute; reflexivity|]. split; [exact Hx|]. split; [exact Hw|]. split; [vm_compute; reflexivity|].
  do 3 eexists. split; [apply (down_linked 16 _ 5); vm_compute; reflexivity|]. split; [vm_compute; reflexivity|reflexivity].
Qed.
