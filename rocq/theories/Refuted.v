(** * C18 and C20 do not hold: executions that violate them.
    Both concern the state in which all calls have returned and nobody is doing anything. *)
From Verif Require Import Model Spec LinSpec IterSpec SeqSpec Concrete Debug SafeProps.

#[local] Opaque schedule fin evs state_at run.

Definition quiesb (s : @state CN) : bool := forallb (fun x => match x.2 with SRun _ _ => false | _ => true end) (map_to_list (s_ops s)).
Lemma quiesb_spec s : quiesb s = true -> quiescent s.
Proof.
  intros H o op [q Hq]. unfold quiesb in H. rewrite forallb_forall in H. specialize (H (o, SRun op q)). simpl in H.
  assert (In (o, SRun op q) (map_to_list (s_ops s))) as Hin by (apply elem_of_list_In; by apply elem_of_map_to_list). by apply H in Hin.
Qed.

(** Every leaf that exists is waiting for destruction, so none is linked. *)
Definition all_leaves_dead (s : @state CN) : bool :=
  negb (s_dropped s) &&
  forallb (fun x => match ho_body x.2 with BData _ => bool_decide (x.1 ∈ (fun g => g.1.1) <$> m_garb (s_mem s)) | BInner _ => true end) (map_to_list (m_heap (s_mem s))).
Lemma all_leaves_dead_spec s : reachable s -> all_leaves_dead s = true -> forall k, absent s k.
Proof.
  intros Hr [Hd H]%andb_true_iff k p [(l & a & it & Hl & Hh & Hp) _]. apply negb_true_iff in Hd.
  destruct (linked_not_dead s l Hr Hd Hl) as [Hng _]. rewrite forallb_forall in H. specialize (H (l, HObj a (BData it))). simpl in H.
  apply Hng. eapply bool_decide_eq_true_1. apply H. apply elem_of_list_In. by apply elem_of_map_to_list.
Qed.

(** Call [o] returned within the first [n] events. *)
Definition ret_first (n : nat) (o : opid) (ev : list (@event CN)) : bool := has_ret (take n ev) o (fun _ => true).
Lemma ret_first_spec n o o' op ev : ret_first n o ev = true -> EInv o' op ∈ drop n ev -> precedes ev o o'.
Proof.
  intros (r & Hr & _)%has_ret_spec Hin. exists (take n ev), (drop n ev), r, op. by rewrite take_drop.
Qed.

Definition others_first (n : nat) (o0 : opid) (ev : list (@event CN)) : bool :=
  forallb (fun e => match e with EInv o _ => Pos.eqb o o0 || ret_first n o ev | _ => true end) ev.
Lemma others_first_spec n o0 ev : others_first n o0 ev = true -> forall o op, EInv o op ∈ ev -> o = o0 \/ ret_first n o ev = true.
Proof.
  unfold others_first. rewrite forallb_forall. intros H o op Hin. apply elem_of_list_In in Hin. specialize (H _ Hin). simpl in H.
  apply orb_true_iff in H as [H|H]; [left; by apply Pos.eqb_eq in H|by right].
Qed.

(** ** C18: three removals leave an empty map whose is_empty says false.
    The keys 0x11 and 0x21 share a branch; 0x2 is next to it.  Calls 4 (remove 0x11) and 6 (remove 0x21) stop just before their
    compare-and-set; call 5 (remove 0x2) takes its element out, finds a single pointer in the root branch and marks it, and stops before it
    replaces the branch by its copy; now 4 and 6 take their elements out and clean up as far as they can; then 5 goes on. *)
Definition three_removals : list cmd :=
  seqcalls 1%positive [ins 17 1; ins 33 2; ins 2 3] ++
  [Inv 4 (rem 17); Steps 3 4; Inv 6 (rem 33); Steps 3 6; Inv 5 (rem 2); Steps 35 5; Steps 1 4; Steps 1 6; Finish 4; Finish 6; Finish 5;
   Inv 7 ise; Finish 7]%positive.

Theorem C18_refuted : exists ls s ev, @exec CN ls s ev /\ wf_calls ls /\ quiescent s /\ (forall k, absent s k) /\
  (* is_empty was called when all other calls had returned *)
  (forall o op, EInv o op ∈ ev -> o <> 7%positive -> precedes ev o 7%positive) /\
  EInv 7%positive (@OIsEmpty CN) ∈ ev /\ ERet 7%positive (@RBool CN false) ∈ ev.
Proof.
  destruct (exec_of three_removals ltac:(vm_compute; reflexivity)) as [Hx Hw].
  exists (schedule three_removals), (fin three_removals), (evs three_removals).
  split; [exact Hx|]. split; [exact Hw|].
  split; [apply quiesb_spec; vm_compute; reflexivity|].
  split; [apply all_leaves_dead_spec; [by exists (schedule three_removals), (evs three_removals)|vm_compute; reflexivity]|].
  split.
  - intros o op Hin Ho. assert (others_first 12 7%positive (evs three_removals) = true) as H by (vm_compute; reflexivity).
    destruct (others_first_spec _ _ _ H o op Hin) as [?|Hr]; [contradiction|].
    apply (ret_first_spec 12 o 7%positive (@OIsEmpty CN) _ Hr). apply (elem_of_nth 0). vm_compute. reflexivity.
  - split; [apply (elem_of_nth 12)|apply (elem_of_nth 13)]; vm_compute; reflexivity.
Qed.

(** ** C20: two removals leave a branch that is condemned and has a single element below.
    The keys 0x11 and 0x21 share a branch; 0x2 is next to it.  Call 4 (remove 0x11) stops just before its compare-and-set; call 5
    (remove 0x2) takes its element out, marks the root branch, and stops before it replaces it; 4 takes its element out and
    cannot clean up, as the root branch is being replaced; 5 goes on. *)
Definition two_removals : list cmd :=
  seqcalls 1%positive [ins 17 1; ins 33 2; ins 2 3] ++
  [Inv 4 (rem 17); Steps 3 4; Inv 5 (rem 2); Steps 35 5; Steps 1 4; Finish 4; Finish 5]%positive.

(** debug.rs:21-25: "As we own the map, nobody else is allowed to modify it. Therefore it must be pruned." *)
Theorem C20_refuted : exists ls s ev, @exec CN ls s ev /\ wf_calls ls /\ quiescent s /\ s_dropped s = false /\
  assert_pruned (s_mem s) = false.
Proof.
  destruct (exec_of two_removals ltac:(vm_compute; reflexivity)) as [Hx Hw].
  exists (schedule two_removals), (fin two_removals), (evs two_removals).
  split; [exact Hx|]. split; [exact Hw|].
  split; [apply quiesb_spec; vm_compute; reflexivity|].
  split; vm_compute; reflexivity.
Qed.
