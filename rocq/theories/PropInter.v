(** * Property C69: interleavings are weakly ordered executions.
    Statements, with concrete cases; the proofs are in InterSim.v and InterExact.v. *)
From Verif Require Import Model Spec LinSpec Concrete Weak WeakCoh WeakFree InterSpec InterSim InterExact WeakProg PropWeak Lin LinProps PropLin PropFree PropCoh.

Section theorems.
Context {C : Config} {HC : ConfigOk C}.

(** C69.  What can happen when every access is atomic and all of them happen one after the other, can also happen on weakly ordered memory, with the orderings of the code:
    there is an execution in which the same calls make the same moves, everybody sees the same, the nodes are the same, at the same addresses, the same ones
    are freed, in the same order; in which every call is known to come after everything that returned before it, and every access sees the newest value. *)
Theorem C69_included ls s ev : wf_calls ls -> exec ls s ev ->
  exists lsf f, fexec code_orders lsf f ev /\ wf_fcalls lsf /\ Forall2 same_move ls lsf /\ real_time lsf /\ reads_newest lsf /\
    (m_root (f_mem f) = m_root (s_mem s) /\ m_heap (f_mem f) = m_heap (s_mem s) /\ m_freed (f_mem f) = m_freed (s_mem s)) /\
    (forall o, shown f o = s_ops s !! o) /\ f_dropped f = s_dropped s /\ f_ub f = s_ub s.
Proof.
  intros Hwf Hx. destruct (inter_sim code_strong ls s ev Hwf Hx) as (lsf & f & Hwff & Hxf & Hm & R & Hr & Hn). exists lsf, f. split; [done|]. split; [done|]. split; [done|]. split; [done|]. split; [done|].
  pose proof (rl_core _ _ R) as E. injection E as E1 E2 E3 _. split; [done|]. split; [intros o; symmetry; apply R|]. split; symmetry; apply R.
Qed.

(** So whatever is true of what is seen in all weakly ordered executions is true of what is seen in all interleavings ... *)
Theorem C69_transfer (P : list event -> Prop) : (forall lsf f ev, wf_fcalls lsf -> fexec code_orders lsf f ev -> P ev) -> forall ls s ev, wf_calls ls -> exec ls s ev -> P ev.
Proof. intros Hp ls s ev Hwf Hx. destruct (C69_included ls s ev Hwf Hx) as (lsf & f & Hxf & Hwff & _). by eapply Hp. Qed.

(** The old values are all that is new: an execution on weakly ordered memory whose accesses all see the newest values is an interleaving, whatever else the calls are known to come after ... *)
Theorem C69_newest lsf f ev : wf_fcalls lsf -> fexec code_orders lsf f ev -> reads_newest lsf ->
  exists ls s, exec ls s ev /\ wf_calls ls /\ Forall2 same_move ls lsf /\
    (m_root (f_mem f) = m_root (s_mem s) /\ m_heap (f_mem f) = m_heap (s_mem s) /\ m_freed (f_mem f) = m_freed (s_mem s)) /\
    (forall o, shown f o = s_ops s !! o) /\ f_dropped f = s_dropped s /\ f_ub f = s_ub s.
Proof.
  intros Hwf Hx Hn. destruct (exact_sim code_strong lsf f ev Hwf Hx Hn) as (ls & s & Hwfs & Hxs & Hm & R). exists ls, s. split; [done|]. split; [done|]. split; [done|].
  pose proof (r2_core _ _ R) as E. injection E as E1 E2 E3 _. split; [done|]. split; [intros o; symmetry; apply R|]. split; symmetry; apply R.
Qed.

(** ... so the two show the same. *)
Theorem C69_exact ev : (exists ls s, exec ls s ev /\ wf_calls ls) <-> exists lsf f, fexec code_orders lsf f ev /\ wf_fcalls lsf /\ reads_newest lsf.
Proof.
  split.
  - intros (ls & s & Hx & Hwf). destruct (C69_included ls s ev Hwf Hx) as (lsf & f & Hxf & Hwff & _ & _ & Hn & _). eauto.
  - intros (lsf & f & Hx & Hwf & Hn). destruct (C69_newest lsf f ev Hwf Hx Hn) as (ls & s & Hxs & Hwfs & _). eauto.
Qed.
End theorems.

(** But with old values there is more to see: a thread inserts key 1, and has returned; another one looks for key 1, and does not find it.  It reads an old value. *)
Definition late : list fcmd := [FI 1 (ins 1 7) [] []; FR 1; FI 2 (get 1) [] []; FO 2 0]%positive.
Definition late_ev (ev : list (@event CN)) : bool :=
  match ev with
  | [EInv o1 op1; ERet o2 (ROpt None); EInv o3 op3; ERet o4 (ROpt None)] =>
      bool_decide (o1 = 1 /\ o2 = 1 /\ o3 = 2 /\ o4 = 2)%positive &&
      match op1, op3 with OInsert p, OGet k => bool_decide (p = el 1 7 /\ k = 1%N) | _, _ => false end
  | _ => false
  end.
Lemma late_ev_spec ev : late_ev ev = true -> ev = [EInv 1 (ins 1 7); ERet 1 (ROpt None); EInv 2 (get 1); ERet 2 (ROpt None)]%positive.
Proof.
  intros H. destruct ev as [|[o1 op1| | |] [|[|o2 [[x|]| | |]| |] [|[o3 op3| | |] [|[|o4 [[y|]| | |]| |] [|]]]]]; try discriminate H. cbn [late_ev] in H.
  apply andb_true_iff in H as [H1 H2]. apply bool_decide_eq_true in H1 as (-> & -> & -> & ->). destruct op1 as [p| | | | |]; try discriminate H2. destruct op3 as [| |k| | |]; try discriminate H2.
  apply bool_decide_eq_true in H2 as [-> ->]. reflexivity.
Qed.

Lemma late_not_linearizable l a : ~ @linearizes CN l [EInv 1 (ins 1 7); ERet 1 (ROpt None); EInv 2 (get 1); ERet 2 (ROpt None)]%positive a.
Proof.
  intros [L1 L2 L3 L4 L5].
  destruct (L3 1%positive (ROpt None) (AOpt None)) as [op1 E1]; [right; left|reflexivity|]. destruct (L3 2%positive (ROpt None) (AOpt None)) as [op2 E2]; [right; right; right; left|reflexivity|].
  assert (forall o op, EInv o op ∈ [EInv 1 (ins 1 7); ERet 1 (ROpt None); EInv 2 (get 1); ERet 2 (ROpt None)]%positive -> (o = 1%positive /\ op = ins 1 7) \/ (o = 2%positive /\ op = get 1)) as Hinv.
  { intros o op Hin. repeat (apply elem_of_cons in Hin as [Hin|Hin]; [try discriminate Hin; injection Hin as -> ->; tauto|]). by apply elem_of_nil in Hin. }
  assert (op1 = ins 1 7) as ->. { destruct (Hinv _ _ (L2 _ E1)) as [[_ ?]|[? _]]; [done|discriminate]. }
  assert (op2 = get 1) as ->. { destruct (Hinv _ _ (L2 _ E2)) as [[? _]|[_ ?]]; [discriminate|done]. }
  assert (before l 1%positive 2%positive) as B.
  { apply L5; [apply elem_of_list_fmap; by eexists (Entry _ _ _)|apply elem_of_list_fmap; by eexists (Entry _ _ _)|].
    exists [EInv 1 (ins 1 7); ERet 1 (ROpt None)]%positive, [EInv 2 (get 1); ERet 2 (ROpt None)]%positive, (ROpt None), (get 1). split; [done|]. split; [right; left|left]. }
  destruct B as (l1 & l2 & e1 & e2 & -> & In1 & In2 & N1 & N2). apply elem_of_list_lookup in E1 as [i1 P1]. apply elem_of_list_lookup in E2 as [i2 P2]. apply elem_of_list_lookup in In1 as [j1 Q1]. apply elem_of_list_lookup in In2 as [j2 Q2].
  assert (i1 = j1) as ->. { eapply (once_pos (l1 ++ l2)); [exact L1|exact P1|apply lookup_app_l_Some; exact Q1|done]. }
  assert (i2 = length l1 + j2) as ->. { eapply (once_pos (l1 ++ l2)); [exact L1|exact P2| |symmetry; exact N2]. rewrite lookup_app_r by lia. by replace (length l1 + j2 - length l1) with j2 by lia. }
  pose proof (lookup_lt_Some _ _ _ Q1) as Hlt. destruct (spec_at _ _ _ _ _ L4 P1) as (b & b' & _ & Hs & Hr). destruct Hs as [_ Hput]. assert (b' 1%N <> None) as Hb' by (rewrite Hput; discriminate).
  assert (drop (S j1) (l1 ++ l2) !! (length l1 + j2 - S j1) = Some (Entry 2%positive (get 1) (AOpt None))) as Hj'. { rewrite lookup_drop. replace (S j1 + (length l1 + j2 - S j1)) with (length l1 + j2) by lia. exact P2. }
  destruct (spec_at _ _ _ _ _ Hr Hj') as (c & c' & Hr2 & Hs & _). destruct Hs as [Hs _]. symmetry in Hs. refine (@spec_stay CN b' _ c 1%N _ Hr2 Hb' Hs).
  intros e Hin k' E. apply elem_of_take in Hin as (j & Hj & _). rewrite lookup_drop in Hj. apply elem_of_list_lookup_2 in Hj. apply L2 in Hj. rewrite E in Hj. destruct (Hinv _ _ Hj) as [[_ ?]|[_ ?]]; discriminate.
Qed.

Theorem C69_more : exists (lsf : list (@flabel CN)) f ev, fexec code_orders lsf f ev /\ wf_fcalls lsf /\ forall ls s, wf_calls ls -> ~ exec ls s ev.
Proof.
  destruct (fexec_check code_orders late (fun _ _ ev => late_ev ev)) as (lsf & f & ev & Hx & Hwf & Hf); [vm_compute; reflexivity|]. apply late_ev_spec in Hf.
  exists lsf, f, ev. split; [exact Hx|]. split; [exact Hwf|]. intros ls s Hwl He. subst ev. destruct (C01_linearizable ls s _ He Hwl) as (l & a & Hl & _). by apply late_not_linearizable in Hl.
Qed.

(** An interleaving C69_included is about: call 2 holds an element that call 3 then removes, which prunes a node; call 2 ends, both nodes are freed, one address is used again, and call 5 is broken off. *)
Definition busy : list cmd :=
  [Inv 1 (ins 1 7); Finish 1; Inv 6 (ins 17 5); Finish 6; Inv 2 (get 1); Finish 2; Inv 3 (rem 1); Finish 3; Lab (LUnpin 1); Lab (LUnpin 2); Lab (LUnpin 3); Lab (LUnpin 6); Lab (LFree 0); Inv 4 (ins 5 5); Finish 4; Inv 5 (rem 5); Steps 1 5; Lab (LAbort 5)]%positive.
Example C69_example : exists ls (s : @state CN) ev, exec ls s ev /\ wf_calls ls /\ 1 <= length (m_freed (s_mem s)) /\ 1 <= length (m_garb (s_mem s)) /\ 10 <= length ev.
Proof.
  destruct (exec_check_wf busy (fun _ s ev => (1 <=? length (m_freed (s_mem s))) && (1 <=? length (m_garb (s_mem s))) && (10 <=? length ev))) as (ls & s & ev & Hx & Hwf & Hf); [vm_compute; reflexivity|].
  exists ls, s, ev. split; [exact Hx|]. split; [exact Hwf|]. apply andb_true_iff in Hf as [[H1 H2]%andb_true_iff H3]. split; [by apply Nat.leb_le|]. split; by apply Nat.leb_le.
Qed.

(** So there is such an execution on weakly ordered memory (and C69_newest is about it). *)
Example C69_newest_example : exists (lsf : list (@flabel CN)) f ev, fexec code_orders lsf f ev /\ wf_fcalls lsf /\ reads_newest lsf /\ 1 <= length (m_freed (f_mem f)) /\ 10 <= length ev.
Proof.
  destruct C69_example as (ls & s & ev & Hx & Hwf & Hf & _ & He). destruct (C69_included ls s ev Hwf Hx) as (lsf & f & Hxf & Hwff & _ & _ & Hn & (_ & _ & Em) & _).
  exists lsf, f, ev. split; [exact Hxf|]. split; [exact Hwff|]. split; [exact Hn|]. rewrite Em. split; [exact Hf|exact He].
Qed.

Print Assumptions C69_included.
Print Assumptions C69_transfer.
Print Assumptions C69_newest.
Print Assumptions C69_exact.
Print Assumptions C69_more.
