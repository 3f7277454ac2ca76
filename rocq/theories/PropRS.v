(** * C66: fetch_or (mod.rs:445) need not release. *)
From Verif Require Import Model Mem Spec LinSpec Concrete Weak WeakInv WeakStep WeakSys WeakRun WeakRS PropWeak.

Section theorems.
Context {C : Config}.

(** C66 (memory model: Weak.v with the release sequences of WeakRS.v).  Orderings suffice if the loads that follow pointers consume or acquire, the compare-and-sets release
    and fetch_or acquires: no call ever looks at something that need not be initialised; and what a call returns, or an iterator has yielded, is initialised for it. *)
Theorem C66_strong_orders (w : orders) (s : wstate) : strong_rs w -> rs_reachable w s ->
  ~ weak_ub s /\
  (forall o x op res r, w_ops s !! o = Some x -> w_st x = SRet op res -> r ∈ refs_of res -> weak_usable s x r) /\
  (forall o x op levels out r, w_ops s !! o = Some x -> w_st x = SRun op (INext levels out) -> r ∈ out -> weak_usable s x r).
Proof.
  intros Hw Hr. pose proof (rs_reach_inv _ _ Hw Hr) as Hs. split; [|split].
  - intros (o & x & op & Ho & Hx). destruct (wi_ops _ Hs _ _ Ho) as [_ H]. rewrite Hx in H. by apply H.
  - intros o x op res r Ho Hx Hin. destruct (wi_ops _ Hs _ _ Ho) as [Hv H]. rewrite Hx in H. simpl in H. rewrite Forall_forall in H. by apply ref_usable; [| |apply H].
  - intros o x op levels out r Ho Hx Hin. destruct (wi_ops _ Hs _ _ Ho) as [Hv H]. rewrite Hx in H. destruct H as [_ H]. rewrite Forall_forall in H. by apply ref_usable; [| |apply H].
Qed.

(** The code with Acquire instead of AcqRel in line 445. *)
Theorem C66_fetch_or_acquire (s : wstate) : rs_reachable (with_mark Acquire) s -> ~ weak_ub s.
Proof. intros Hr. eapply C66_strong_orders; [|exact Hr]. split; simpl; try done; try (by left); try (by right). Qed.
End theorems.

(** ** Executions *)
Section script.
Variable w : orders.
Definition rstepl (x : wstate * list wlabel) (lb : wlabel) : option (wstate * list wlabel) :=
  match rs_step (C := CN) w x.1 lb with Some (s', _) => Some (s', x.2 ++ [lb]) | None => None end.
Fixpoint rfinl (n : nat) (o : opid) (x : wstate * list wlabel) : option (wstate * list wlabel) :=
  match n with
  | 0 => None
  | S n => match w_ops x.1 !! o with
           | Some (WOp (SRun _ _) _ _) => match rstepl x (WStep o (wnewest w x.1 o) false (pick (w_mem x.1))) with Some y => rfinl n o y | None => None end
           | _ => Some x
           end
  end.
Definition rcmdl (x : wstate * list wlabel) (c : wcmd) : option (wstate * list wlabel) :=
  match c with
  | WI o op => rstepl x (WInv o op)
  | WR o => rfinl 5000 o x
  | WO o n => rstepl x (WStep o n false (pick (w_mem x.1)))
  end.
Fixpoint rcmdsl (x : wstate * list wlabel) (cs : list wcmd) : option (wstate * list wlabel) :=
  match cs with [] => Some x | c :: cs => match rcmdl x c with Some y => rcmdsl y cs | None => None end end.
Definition rschedule (cs : list wcmd) : list wlabel := match rcmdsl (winit, []) cs with Some (_, ls) => ls | None => [] end.
Lemma rs_check cs (f : wstate -> bool) :
  match rs_run w winit (rschedule cs) with Some (s, _) => f s | None => false end = true -> exists s, rs_reachable w s /\ f s = true.
Proof.
  intros H. generalize dependent (rschedule cs). intros ls H. destruct (rs_run w winit ls) as [[s ev]|] eqn:E; [|done]. exists s. split; [|done]. by exists ls, ev.
Qed.
Lemma rs_ub_check cs o : match rs_run w winit (rschedule cs) with Some (s, _) => ub_at o s | None => false end = true -> exists s : @wstate CN, rs_reachable w s /\ weak_ub s.
Proof.
  intros H. destruct (rs_check cs (ub_at o) H) as (s & Hr & Hf). exists s. split; [done|]. unfold ub_at in Hf. destruct (w_ops s !! o) as [[st tv pv]|] eqn:E; [|done].
  destruct st as [| |op f|]; try done. destruct f; [done|]. exists o. eexists _, op. split; [exact E|done].
Qed.
End script.

(* Call 3 (get 2) has loaded the root; call 4 (remove 1) condemns the slots of the inner node, by fetch_or; then call 3 loads the condemned slot, and finds the element. *)
Definition marked_get : list wcmd := [WI 1 (ins 1 7); WR 1; WI 2 (ins 2 8); WR 2; WI 3 (get 2); WO 3 2; WI 4 (rem 1); WR 4; WR 3]%positive.
Example C66_example : exists (s : @wstate CN) x r v W, rs_reachable (with_mark Acquire) s /\ w_ops s !! 3%positive = Some x /\ w_st x = SRet (get 2) (ROpt (Some r)) /\ rr_val r = el 2 8 /\
  w_hist s (CSlot 2%positive 2) !! 2 = Some (v, W) /\ sh_loc v = Some (rr_loc r) /\ sh_cond v = true /\ rr_loc r ∈ W.
Proof.
  destruct (rs_check (with_mark Acquire) marked_get
    (fun s => match w_ops s !! 3%positive, w_hist s (CSlot 2%positive 2) !! 2 with
       | Some (WOp (SRet (OGet 2%N) (ROpt (Some (RRef l i (2%N, 8%N))))) _ _), Some (Sh (Some l') true d, W) => bool_decide (l' = l) && bool_decide (l ∈ W) | _, _ => false end)) as (s & Hr & Hf).
  { vm_compute. reflexivity. }
  exists s. destruct (w_ops s !! 3%positive) as [[st tv pv]|] eqn:E; [|done]. destruct st as [|op res| |]; try done. destruct op; try done.
  destruct (w_hist s (CSlot 2%positive 2) !! 2) as [[v W]|] eqn:Eh; [|repeat case_match; done].
  repeat (case_match; try done). simplify_eq. apply andb_true_iff in Hf as [H1 H2]. apply bool_decide_eq_true in H1, H2. subst.
  do 4 eexists. split; [exact Hr|]. split; [reflexivity|]. split; [reflexivity|]. split; [done|]. split; [done|]. split; [done|]. by split.
Qed.

(** Without release sequences the same execution runs into an uninitialised node: AcqRel is needed only there. *)
Theorem C66_needs_release_sequences : exists s : @wstate CN, wreachable (with_mark Acquire) s /\ weak_ub s.
Proof. apply (ub_check _ marked_get 3%positive). vm_compute. reflexivity. Qed.

(** Nothing else can be weaker, release sequences or not: with any of these orderings relaxed, a call can run into an uninitialised node (fetch_or: without acquire). *)
Theorem C66_rest_needed :
  Forall (fun w => exists s : @wstate CN, rs_reachable w s /\ weak_ub s)
    [with_trav Relaxed; with_tcas Relaxed; with_mark Release; with_mark Relaxed; with_pcas Relaxed; with_get Relaxed; with_rem Relaxed; with_rcas Relaxed; with_iroot Relaxed; with_iter Relaxed].
Proof.
  repeat constructor.
  - apply (rs_ub_check _ [WI 1 (ins 5 7); WR 1; WI 2 (ins 5 8); WR 2]%positive 2%positive). vm_compute. reflexivity.
  - apply (rs_ub_check _ [WI 1 (ins 5 7); WR 1; WI 2 (get 5); WR 2]%positive 2%positive). vm_compute. reflexivity.
  - apply (rs_ub_check _ [WI 1 (ins 1 7); WR 1; WI 2 (ins 2 8); WR 2; WI 3 (rem 1); WR 3]%positive 3%positive). vm_compute. reflexivity.
  - apply (rs_ub_check _ [WI 1 (ins 1 7); WR 1; WI 2 (ins 2 8); WR 2; WI 3 (rem 1); WR 3]%positive 3%positive). vm_compute. reflexivity.
  - apply (rs_ub_check _ [WI 1 (ins 1 7); WR 1; WI 2 (ins 2 8); WR 2; WI 3 (rem 1); WR 3; WI 4 (get 2); WR 4]%positive 4%positive). vm_compute. reflexivity.
  - apply (rs_ub_check _ [WI 1 (ins 5 7); WR 1; WI 2 (get 5); WR 2]%positive 2%positive). vm_compute. reflexivity.
  - apply (rs_ub_check _ [WI 1 (ins 5 7); WR 1; WI 2 (rem 5); WR 2]%positive 2%positive). vm_compute. reflexivity.
  - apply (rs_ub_check _ [WI 1 (ins 5 7); WR 1; WI 2 (ins (5 + 2 ^ 64) 8); WR 2; WI 3 (rem 5); WR 3; WI 4 (get (5 + 2 ^ 64)); WR 4]%positive 4%positive). vm_compute. reflexivity.
  - apply (rs_ub_check _ [WI 1 (ins 5 7); WR 1; WI 2 ite; WR 2]%positive 2%positive). vm_compute. reflexivity.
  - apply (rs_ub_check _ [WI 1 (ins 1 7); WR 1; WI 2 (ins 2 8); WR 2; WI 3 ite; WR 3]%positive 3%positive). vm_compute. reflexivity.
Qed.

Print Assumptions C66_strong_orders.
Print Assumptions C66_fetch_or_acquire.
Print Assumptions C66_rest_needed.
