(** * Property C54: no user code can make the map misuse memory.
    In the executions of Wild.v the user's [Eq], [Hash], [Borrow], [Clone] and closures may answer anything each time they
    are asked (and may panic).  Statements only; the proofs are in WildSafe.v. *)
From Verif Require Import Model Wild Spec Concrete SafeProps WildSafe.

(** Every execution of the machine of Model.v (user code that behaves) is one of these executions. *)
Theorem C54_covers `{C : Config} : forall ls s ev, exec ls s ev -> exists wls, length wls = length ls /\ wexec wls s ev.
Proof. exact wexec_covers. Qed.
Print Assumptions C54_covers.

(** Nothing that has been freed is dereferenced, no node is taken for a node of the other type, nothing is freed twice. *)
Theorem C54_no_memory_error `{C : Config} : forall s, wreachable s ->
  s_ub s = false /\ forall o op, s_ops s !! o <> Some (SFail op FUB).
Proof.
  intros s Hr. split; [exact (wno_ub s Hr)|]. intros o op Ho. pose proof (wonly_failure s o op FUB Hr Ho) as H. discriminate H.
Qed.
Print Assumptions C54_no_memory_error.

(** The only assertion of the crate that can fail is "Collision node not deep enough" (mod.rs:595) ... *)
Theorem C54_only_panic `{C : Config} : forall s o op p, wreachable s -> s_ops s !! o = Some (SFail op (FPanic p)) -> p = PCollisionShallow.
Proof. intros s o op p Hr Ho. pose proof (wonly_failure s o op (FPanic p) Hr Ho) as H. injection H as H. exact H. Qed.
Print Assumptions C54_only_panic.

(** ... and it fails only if one call of [insert] (or [get_or_insert_with]), comparing the same element with its key twice,
    gets two different answers.  Hashes, clones and closures cannot bring it about. *)
Theorem C54_no_panic `{C : Config} : forall ls s ev o op f, wexec ls s ev ->
  (forall o' spur a w, WStep o' spur a w ∈ ls -> w_coherent w) -> s_ops s !! o <> Some (SFail op f).
Proof.
  intros ls s ev o op f Hx Hco. apply (wno_failure ls s ev o op f Hx). apply Forall_forall. intros [] Hin; simpl; try exact I.
  exact (Hco _ _ _ _ Hin).
Qed.
Print Assumptions C54_no_panic.

(** An operation in progress can take its next step, whatever user code answers. *)
Theorem C54_never_stuck `{C : Config} : forall s o op p spur w, wreachable s -> s_ops s !! o = Some (SRun op p) ->
  exists a s' e, wstep s (WStep o spur a w) = Some (s', e).
Proof.
  intros s o op p spur w _ Ho. destruct (fresh_addr (s_mem s)) as [a Ha]. exists a. cbn [wstep]. rewrite Ho.
  pose proof (wop_step_total (guards s) (s_mem s) p spur a w Ha) as H. destruct (wop_step _ _ _ _ _ _) as [[[m nx] acts]|]; [|done].
  do 2 eexists. reflexivity.
Qed.
Print Assumptions C54_never_stuck.

(** References that calls returned and iterators yielded stay valid as long as the guard of the call is held. *)
Theorem C54_refs_stay_valid `{C : Config} : forall ls s ev o r x, wexec ls s ev -> o ∈ guards s ->
  (ERet o r ∈ ev /\ x ∈ refs_of r) \/ EYield o x ∈ ev -> ref_valid (s_mem s) x.
Proof. exact wrefs_valid. Qed.
Print Assumptions C54_refs_stay_valid.

(** Every node is handed to the collector and freed at most once, as what it was allocated as; nodes that can be reached
    from the root are neither freed nor handed to the collector. *)
Theorem C54_reclaimed_once `{C : Config} : forall s, wreachable s ->
  NoDup (((fun g => g.1.1) <$> m_garb (s_mem s)) ++ (m_freed (s_mem s)).*1) /\
  (forall l k g, (l, k, g) ∈ m_garb (s_mem s) -> exists a b, m_heap (s_mem s) !! l = Some (HObj a b) /\ k = kind_of_body b) /\
  (s_dropped s = false -> forall l, linked (s_mem s) l ->
     l ∉ ((fun g => g.1.1) <$> m_garb (s_mem s)) /\ l ∉ (m_freed (s_mem s)).*1 /\ is_Some (m_heap (s_mem s) !! l)).
Proof.
  intros s Hr. split; [exact (wdestroyed_once s Hr)|]. split; [intros l k g; exact (wdeferred_kind s l k g Hr)|].
  intros Hd l. exact (wlinked_not_dead s l Hr Hd).
Qed.
Print Assumptions C54_reclaimed_once.

(** When no guard is held the map can be dropped; the collector can then finish its work; and then every node has been
    freed, exactly once. *)
Theorem C54_no_leak `{C : Config} : forall s, wreachable s ->
  (s_dropped s = false -> guards s = ∅ -> exists s', wstep s WDrop = Some (s', []) /\ s_dropped s' = true) /\
  (s_dropped s = true -> exists ls s', wrun s ls = Some (s', []) /\ s_dropped s' = true /\ m_garb (s_mem s') = []) /\
  (s_dropped s = true -> m_garb (s_mem s) = [] ->
     NoDup (m_freed (s_mem s)).*1 /\ forall l, is_Some (m_heap (s_mem s) !! l) <-> l ∈ (m_freed (s_mem s)).*1).
Proof.
  intros s Hr. split; [exact (wdroppable s Hr)|]. split; [exact (wcollector_finishes s Hr)|exact (wall_freed s Hr)].
Qed.
Print Assumptions C54_no_leak.

(** ** The assertion does fail
    An element is inserted; a second [insert] finds it equal to its key at mod.rs:594 but different at 625, and so puts two
    elements into the root; a third finds the first of them different from its key.  The call panics; the map goes on
    working (a [get] finds an element), is dropped, and everything is freed. *)
Definition orc (differs : bool) (find : option nat) (keep : list (option (N * N))) : @oracle CN := @Oracle CN differs 0%N find keep None id.
Definition wpanic : list (@wlabel CN) :=
  [WInv 1 (ins 5 1) 5; WStep 1 false 1 (orc false None []); WStep 1 false 1 (orc false None []);
   WInv 2 (ins 5 2) 5; WStep 2 false 2 (orc false None [Some (el 5 1)]); WStep 2 false 2 (orc false None []);
   WInv 3 (ins 5 3) 5; WStep 3 false 3 (orc true None [])]%positive%N.
Definition wafter : list (@wlabel CN) :=
  [WUnwind 3%positive; WInv 4 (get 5) 5; WStep 4 false 3 (orc false (Some 1%nat) []);
   WUnpin 4; WUnpin 2; WUnpin 1; WDrop; WFree 0]%positive%N.
Definition wend (ls : list (@wlabel CN)) : @state CN := match wrun init ls with Some (s, _) => s | None => init end.
Definition wevs (ls : list (@wlabel CN)) : list (@event CN) := match wrun init ls with Some (_, ev) => ev | None => [] end.

Lemma wexec_of ls : match wrun init ls with Some _ => true | None => false end = true -> wexec ls (wend ls) (wevs ls).
Proof. unfold wexec, wend, wevs. destruct (wrun init ls) as [[s ev]|]; [done|discriminate]. Qed.

Theorem C54_panic_possible : exists ls s ev, wexec ls s ev /\ s_ops s !! 3%positive = Some (SFail (ins 5 3) (FPanic PCollisionShallow)) /\
  exists ls' s' ev', wrun s ls' = Some (s', ev') /\ ERet 4%positive (ROpt (Some (RRef 2%positive 1 (el 5 2)))) ∈ ev' /\
    s_dropped s' = true /\ m_garb (s_mem s') = [] /\ s_ub s' = false.
Proof.
  exists wpanic, (wend wpanic), (wevs wpanic). split; [apply wexec_of; vm_compute; reflexivity|].
  split; [vm_compute; reflexivity|].
  exists wafter, (wend (wpanic ++ wafter)), (match wrun (wend wpanic) wafter with Some (_, ev) => ev | None => [] end).
  split; [vm_compute; reflexivity|]. split; [vm_compute; right; left|].
  split; [vm_compute; reflexivity|]. split; [vm_compute; reflexivity|vm_compute; reflexivity].
Qed.
Print Assumptions C54_panic_possible.

(** ** The hypotheses can be met
    Coherent answers that are nevertheless wrong: an element is pushed down to where its hash is not, is cloned into something else, and
    two elements with one key are in the map.  (For [C54_no_panic], [C54_refs_stay_valid], [C54_reclaimed_once].) *)
Definition wodd : list (@wlabel CN) :=
  [WInv 1 (ins 5 1) 5; WStep 1 false 1 (orc false None []); WStep 1 false 1 (orc false None []);
   WInv 2 (ins 5 2) 5; WStep 2 false 2 (@Oracle CN true 9 None [] None id); WStep 2 false 2 (orc false None []);
   WStep 2 false 3 (orc true None []); WStep 2 false 3 (@Oracle CN true 0 None [] None (fun _ => el 77 77));
   WStep 2 true 3 (orc true None []); WStep 2 false 3 (orc true None []); WStep 2 false 3 (orc true None []);
   WInv 3 ite 0; WStep 3 false 4 (orc true None [])]%positive%N ++
  repeat (WStep 3%positive false 4%N (orc true None [])) 22.

Definition wlab_coherentb (lb : @wlabel CN) : bool :=
  match lb with WStep _ _ _ w => w_differs w || match w_keep w with Some _ :: _ => false | _ => true end | _ => true end.
Lemma wlab_coherentb_spec ls : forallb wlab_coherentb ls = true -> forall o' spur a w, WStep o' spur a w ∈ ls -> w_coherent w.
Proof.
  intros H o' spur a w Hin. rewrite forallb_forall in H. specialize (H _ (proj1 (elem_of_list_In _ _) Hin)). simpl in H.
  intros Hd q. rewrite Hd in H. simpl in H. destruct (w_keep w) as [|[?|] ?]; [discriminate|discriminate H|discriminate].
Qed.

Example C54_example : exists ls s ev, wexec ls s ev /\ (forall o' spur a w, WStep o' spur a w ∈ ls -> w_coherent w) /\
  3%positive ∈ guards s /\ s_dropped s = false /\
  EYield 3%positive (RRef 3%positive 0 (el 77 77)) ∈ ev /\ EYield 3%positive (RRef 1%positive 0 (el 5 1)) ∈ ev.
Proof.
  exists wodd, (wend wodd), (wevs wodd). split; [apply wexec_of; vm_compute; reflexivity|].
  split; [apply wlab_coherentb_spec; vm_compute; reflexivity|].
  split; [apply (bool_decide_eq_true_1 (3%positive ∈ guards (wend wodd))); vm_compute; reflexivity|].
  split; [vm_compute; reflexivity|]. split.
  - apply elem_of_list_In. vm_compute. tauto.
  - apply elem_of_list_In. vm_compute. tauto.
Qed.
