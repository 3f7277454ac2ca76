(** * C38: the memory orderings of the code suffice *)
From Verif Require Import Model Mem Spec LinSpec Concrete Weak WeakInv WeakStep WeakSys WeakRun.

Lemma code_strong : strong code_orders.
Proof. split; simpl; try done; try (by left); try (by right). Qed.

Section theorems.
Context {C : Config}.

(** A call has run into undefined behaviour: it has looked at a node whose initialisation does not happen before that. *)
Definition weak_ub (s : wstate) : Prop := exists o x op, w_ops s !! o = Some x /\ w_st x = SFail op FUB.

(** Call [o] may use [r]: the initialisation of the node happens before, and the node shows the payload. *)
Definition weak_usable (s : wstate) (x : wop) (r : rref) : Prop :=
  sees (w_tv x) (w_pv x) (rr_loc r) /\ exists a it, m_heap (w_mem s) !! rr_loc r = Some (HObj a (BData it)) /\ it !! rr_idx r = Some (rr_val r).

(** C38 (see Weak.v for the memory model; reclamation: C46-C49).  With the orderings of the code no call ever looks at
    something that need not be initialised, whatever old values the loads return ... *)
Theorem C38_no_uninitialised (s : wstate) : wreachable code_orders s -> ~ weak_ub s.
Proof.
  intros Hr (o & x & op & Ho & Hx). destruct (wi_ops _ (wreach_inv _ _ code_strong Hr) _ _ Ho) as [_ H]. rewrite Hx in H. by apply H.
Qed.

Lemma ref_usable s x r : winv s -> view_ok (w_mem s) (w_hist s) (w_tv x) (w_pv x) -> ref_ok (w_mem s) (w_tv x) (w_pv x) r -> weak_usable s x r.
Proof.
  intros Hs Hv (Hk & it & Hb & Hi). split; [by eapply known_sees|]. unfold hbody in Hb. destruct (m_heap (w_mem s) !! rr_loc r) as [[a b]|]; [|done]. simpl in Hb. injection Hb as ->. by exists a, it.
Qed.

(** ... and whoever obtains an element, as the result of a call ... *)
Theorem C38_result_initialised (s : wstate) o x op res r :
  wreachable code_orders s -> w_ops s !! o = Some x -> w_st x = SRet op res -> r ∈ refs_of res -> weak_usable s x r.
Proof.
  intros Hr Ho Hx Hin. pose proof (wreach_inv _ _ code_strong Hr) as Hs. destruct (wi_ops _ Hs _ _ Ho) as [Hv H]. rewrite Hx in H. simpl in H.
  rewrite Forall_forall in H. by apply ref_usable; [| |apply H].
Qed.

(** ... or from an iterator that is still running, sees it initialised. *)
Theorem C38_yield_initialised (s : wstate) o x op levels out r :
  wreachable code_orders s -> w_ops s !! o = Some x -> w_st x = SRun op (INext levels out) -> r ∈ out -> weak_usable s x r.
Proof.
  intros Hr Ho Hx Hin. pose proof (wreach_inv _ _ code_strong Hr) as Hs. destruct (wi_ops _ Hs _ _ Ho) as [Hv H]. rewrite Hx in H. destruct H as [_ H].
  rewrite Forall_forall in H. by apply ref_usable; [| |apply H].
Qed.

(** The same for any choice of orderings that is at least as strong: loads that follow pointers consume or acquire, compare-and-sets
    release, fetch_or acquires and releases; the two null tests (808, 840) can be anything. *)
Theorem C38_strong_orders (w : orders) (s : wstate) : strong w -> wreachable w s ->
  ~ weak_ub s /\ forall o x op res r, w_ops s !! o = Some x -> w_st x = SRet op res -> r ∈ refs_of res -> weak_usable s x r.
Proof.
  intros Hw Hr. pose proof (wreach_inv _ _ Hw Hr) as Hs. split.
  - intros (o & x & op & Ho & Hx). destruct (wi_ops _ Hs _ _ Ho) as [_ H]. rewrite Hx in H. by apply H.
  - intros o x op res r Ho Hx Hin. destruct (wi_ops _ Hs _ _ Ho) as [Hv H]. rewrite Hx in H. simpl in H. rewrite Forall_forall in H. by apply ref_usable; [| |apply H].
Qed.
End theorems.

(** ** Executions *)
Inductive wcmd :=
| WI (o : opid) (op : @oper CN)
| WR (o : opid)                     (* run to the end, reading the newest values *)
| WO (o : opid) (n : nat).          (* one step, reading the [n]-th value *)

Section script.
Variable w : orders.
Definition wnewest (s : @wstate CN) (o : opid) : nat :=
  match w_ops s !! o with
  | Some (WOp (SRun _ p) _ _) => match access w p with Some (c, _, _) => pred (length (w_hist s c)) | None => 0 end
  | _ => 0
  end.
Definition wstepl (x : wstate * list wlabel) (lb : wlabel) : option (wstate * list wlabel) :=
  match wstep w x.1 lb with Some (s', _) => Some (s', x.2 ++ [lb]) | None => None end.
Fixpoint wfinl (n : nat) (o : opid) (x : wstate * list wlabel) : option (wstate * list wlabel) :=
  match n with
  | 0 => None
  | S n => match w_ops x.1 !! o with
           | Some (WOp (SRun _ _) _ _) => match wstepl x (WStep o (wnewest x.1 o) false (pick (w_mem x.1))) with Some y => wfinl n o y | None => None end
           | _ => Some x
           end
  end.
Definition wcmdl (x : wstate * list wlabel) (c : wcmd) : option (wstate * list wlabel) :=
  match c with
  | WI o op => wstepl x (WInv o op)
  | WR o => wfinl 5000 o x
  | WO o n => wstepl x (WStep o n false (pick (w_mem x.1)))
  end.
Fixpoint wcmdsl (x : wstate * list wlabel) (cs : list wcmd) : option (wstate * list wlabel) :=
  match cs with [] => Some x | c :: cs => match wcmdl x c with Some y => wcmdsl y cs | None => None end end.
Definition wschedule (cs : list wcmd) : list wlabel := match wcmdsl (winit, []) cs with Some (_, ls) => ls | None => [] end.
Lemma wreach_check cs (f : wstate -> bool) :
  match wrun w winit (wschedule cs) with Some (s, _) => f s | None => false end = true -> exists s, wreachable w s /\ f s = true.
Proof.
  intros H. generalize dependent (wschedule cs). intros ls H. destruct (wrun w winit ls) as [[s ev]|] eqn:E; [|done]. exists s. split; [|done]. by exists ls, ev.
Qed.
Definition ub_at (o : opid) (s : @wstate CN) : bool := match w_ops s !! o with Some (WOp (SFail _ FUB) _ _) => true | _ => false end.
Lemma ub_check cs o : match wrun w winit (wschedule cs) with Some (s, _) => ub_at o s | None => false end = true -> exists s : @wstate CN, wreachable w s /\ weak_ub s.
Proof.
  intros H. destruct (wreach_check cs (ub_at o) H) as (s & Hr & Hf). exists s. split; [done|]. unfold ub_at in Hf. destruct (w_ops s !! o) as [[st tv pv]|] eqn:E; [|done].
  destruct st as [| |op f|]; try done. destruct f; [done|]. exists o. eexists _, op. split; [exact E|done].
Qed.
End script.

(* A weak execution: key 5 has been inserted by call 1, and call 2 returned; call 3 (which starts afterwards) still reads the old root and finds
   nothing; call 4 reads the newest root and gets the element. *)
Example C38_example : exists (s : @wstate CN) x3 x4 r, wreachable code_orders s /\
  w_ops s !! 3%positive = Some x3 /\ w_st x3 = SRet (get 5) (ROpt None) /\
  w_ops s !! 4%positive = Some x4 /\ w_st x4 = SRet (get 5) (ROpt (Some r)) /\ rr_val r = el 5 7.
Proof.
  destruct (wreach_check code_orders [WI 1 (ins 5 7); WR 1; WI 2 (ins 6 8); WR 2; WI 3 (get 5); WO 3 0; WI 4 (get 5); WR 4]%positive
    (fun s => match w_ops s !! 3%positive, w_ops s !! 4%positive with
       | Some (WOp (SRet (OGet 5%N) (ROpt None)) _ _), Some (WOp (SRet (OGet 5%N) (ROpt (Some (RRef _ _ (5%N, 7%N))))) _ _) => true | _, _ => false end)) as (s & Hr & Hf).
  { vm_compute. reflexivity. }
  exists s. destruct (w_ops s !! 3%positive) as [x3|] eqn:E3; [|done]. destruct (w_ops s !! 4%positive) as [x4|] eqn:E4; [|repeat case_match; done].
  exists x3, x4. destruct x3 as [st3 tv3 pv3], x4 as [st4 tv4 pv4]. destruct st3 as [|op3 r3| |]; try done. destruct st4 as [|op4 r4| |]; try (repeat case_match; done).
  repeat (case_match; try done). simplify_eq. eexists. split; [exact Hr|]. split; [done|]. split; [done|]. split; [done|]. split; [done|]. done.
Qed.

(** ** None of these orderings can be weakened.
    With any one of them relaxed (fetch_or: without acquire) a call can run into an uninitialised node. *)
Definition with_trav (o : ordering) := Orders o Release AcqRel Release Consume Consume Release Relaxed Relaxed Acquire Acquire.
Definition with_tcas (o : ordering) := Orders Consume o AcqRel Release Consume Consume Release Relaxed Relaxed Acquire Acquire.
Definition with_mark (o : ordering) := Orders Consume Release o Release Consume Consume Release Relaxed Relaxed Acquire Acquire.
Definition with_pcas (o : ordering) := Orders Consume Release AcqRel o Consume Consume Release Relaxed Relaxed Acquire Acquire.
Definition with_get (o : ordering) := Orders Consume Release AcqRel Release o Consume Release Relaxed Relaxed Acquire Acquire.
Definition with_rem (o : ordering) := Orders Consume Release AcqRel Release Consume o Release Relaxed Relaxed Acquire Acquire.
Definition with_rcas (o : ordering) := Orders Consume Release AcqRel Release Consume Consume o Relaxed Relaxed Acquire Acquire.
Definition with_iroot (o : ordering) := Orders Consume Release AcqRel Release Consume Consume Release Relaxed Relaxed o Acquire.
Definition with_iter (o : ordering) := Orders Consume Release AcqRel Release Consume Consume Release Relaxed Relaxed Acquire o.

Theorem C38_needed : 
  with_trav Consume = code_orders /\ with_tcas Release = code_orders /\ with_mark AcqRel = code_orders /\ with_pcas Release = code_orders /\ with_get Consume = code_orders /\
  with_rem Consume = code_orders /\ with_rcas Release = code_orders /\ with_iroot Acquire = code_orders /\ with_iter Acquire = code_orders /\
  Forall (fun w => exists s : @wstate CN, wreachable w s /\ weak_ub s)
    [with_trav Relaxed; with_tcas Relaxed; with_mark Release; with_pcas Relaxed; with_get Relaxed; with_rem Relaxed; with_rcas Relaxed; with_iroot Relaxed; with_iter Relaxed].
Proof.
  do 9 (split; [reflexivity|]). repeat constructor.
  - apply (ub_check _ [WI 1 (ins 5 7); WR 1; WI 2 (ins 5 8); WR 2]%positive 2%positive). vm_compute. reflexivity.
  - apply (ub_check _ [WI 1 (ins 5 7); WR 1; WI 2 (get 5); WR 2]%positive 2%positive). vm_compute. reflexivity.
  - apply (ub_check _ [WI 1 (ins 1 7); WR 1; WI 2 (ins 2 8); WR 2; WI 3 (rem 1); WR 3]%positive 3%positive). vm_compute. reflexivity.
  - apply (ub_check _ [WI 1 (ins 1 7); WR 1; WI 2 (ins 2 8); WR 2; WI 3 (rem 1); WR 3; WI 4 (get 2); WR 4]%positive 4%positive). vm_compute. reflexivity.
  - apply (ub_check _ [WI 1 (ins 5 7); WR 1; WI 2 (get 5); WR 2]%positive 2%positive). vm_compute. reflexivity.
  - apply (ub_check _ [WI 1 (ins 5 7); WR 1; WI 2 (rem 5); WR 2]%positive 2%positive). vm_compute. reflexivity.
  - apply (ub_check _ [WI 1 (ins 5 7); WR 1; WI 2 (ins (5 + 2 ^ 64) 8); WR 2; WI 3 (rem 5); WR 3; WI 4 (get (5 + 2 ^ 64)); WR 4]%positive 4%positive). vm_compute. reflexivity.
  - apply (ub_check _ [WI 1 (ins 5 7); WR 1; WI 2 ite; WR 2]%positive 2%positive). vm_compute. reflexivity.
  - apply (ub_check _ [WI 1 (ins 1 7); WR 1; WI 2 (ins 2 8); WR 2; WI 3 ite; WR 3]%positive 3%positive). vm_compute. reflexivity.
Qed.

Print Assumptions C38_no_uninitialised.
Print Assumptions C38_needed.
