(** * Property C70: a map that is handed from one call to the next behaves on weakly ordered memory like a plain map.
    Statements, with concrete cases; the proofs are in InterSeq.v. *)
From Verif Require Import Model Spec SeqSpec LinSpec Concrete Weak WeakCoh WeakFree InterSpec InterSim InterExact InterSeq WeakProg PropWeak PropFree PropSeq PropInter.

Section theorems.
Context {C : Config} {HC : ConfigOk C}.

(** C70.  On weakly ordered memory, with the orderings of the code: if every call is made after all the calls before it have returned, and is known to come after the last of them
    (the map, or a reference to it, is sent to the thread that makes the call, say), then no step reads an old value of a slot - whatever it is that the machine makes of the orderings,
    and also if calls are broken off by panics of user code ... *)
Theorem C70_no_old_values lsf f ev : wf_fcalls lsf -> fexec code_orders lsf f ev -> handed_over lsf -> reads_newest lsf.
Proof. intros Hwf Hx Hh. exact (proj2 (seqi_run code_strong lsf f ev Hwf Hx Hh)). Qed.

(** ... and, if none is, every call returns exactly what the same call returns on a plain map to which the calls before it have been applied; and these are the contents the map is left with. *)
Theorem C70_like_a_plain_map lsf f ev : wf_fcalls lsf -> fexec code_orders lsf f ev -> handed_over lsf -> (forall o, FAbort o ∉ lsf) ->
  exists a, exact_run aempty (history ev) a /\
    ((forall o op, ~ f_running f o op) -> calls ev = (history ev).*1 /\
      (f_dropped f = false -> exists s, m_root (s_mem s) = m_root (f_mem f) /\ m_heap (s_mem s) = m_heap (f_mem f) /\ forall k, has s k (a k))).
Proof.
  intros Hwf Hx Hh Hab. destruct (handed_sequential code_strong lsf f ev Hwf Hx Hh Hab) as (_ & ls & s & Hwfs & Hxs & Hsq & _ & R).
  destruct (C02_like_a_plain_map ls s ev Hxs Hwfs Hsq) as (a & Ha & Hq). exists a. split; [done|]. intros Hr. destruct Hq as [Hc Hk].
  - intros o op [q Ho]. apply (Hr o op). rewrite (r2_ops _ _ R) in Ho. unfold InterSpec.shown in Ho. destruct (w_ops (c_w (f_c f)) !! o) as [[st tv pv]|] eqn:Ew; [|done]. destruct (decide _) as [|Hg]; [done|]. injection Ho as ->.
    split; [|eauto]. unfold f_alive. rewrite Ew. apply bool_decide_eq_true. split; [by eexists|done].
  - split; [done|]. intros Hd. exists s. pose proof (r2_core _ _ R) as E. injection E as E1 E2 _ _. split; [done|]. split; [done|]. apply Hk. by rewrite (r2_drop _ _ R).
Qed.
End theorems.

(** A concrete case.  Call 1 inserts (1, 7), call 2 inserts (17, 5), call 3 finds the first, call 4 removes it, call 5 does not find it, call 6 iterates; each in a new thread that is only known to come after the call before. *)
Definition relay : list fcmd :=
  [FI 1 (ins 1 7) [] []; FR 1; FI 2 (ins 17 5) [1] []; FR 2; FI 3 (get 1) [2] []; FR 3; FI 4 (rem 1) [3] []; FR 4; FI 5 (get 1) [4] []; FR 5; FI 6 ite [5] []; FR 6]%positive.
Definition handed_overb (ls : list (@flabel CN)) : bool :=
  forallb (fun i => match ls !! i with
    | Some (FInv o op ps ds) => match frun code_orders finit (take i ls) with
        | Some (f, e) => forallb (fun o' => existsb (fun x => match x with ERet o2 _ => bool_decide (o2 = o') | _ => false end) e) (callers e) &&
                         match last (callers e) with Some q => existsb (fun x => bool_decide (x = q)) ps | None => true end
        | None => true end
    | _ => true end) (seq 0 (length ls)).
Lemma handed_overb_spec ls : handed_overb ls = true -> handed_over ls.
Proof.
  intros H l1 o op ps ds l2 f1 e1 -> Hx. unfold handed_overb in H. rewrite forallb_forall in H. specialize (H (length l1)). rewrite list_lookup_middle, take_app in H by done.
  unfold fexec in Hx. rewrite Hx in H. apply andb_true_iff in H as [H1 H2]; [split|].
  - intros o' Ho. rewrite forallb_forall in H1. apply elem_of_list_In in Ho. apply H1 in Ho. apply existsb_exists in Ho as (x & Hin & Hb). destruct x; try done. apply bool_decide_eq_true in Hb as ->. apply elem_of_list_In in Hin. eauto.
  - intros q Hq. rewrite Hq in H2. apply existsb_exists in H2 as (x & Hin & Hb). apply bool_decide_eq_true in Hb as ->. by apply elem_of_list_In.
  - apply in_seq. rewrite app_length. simpl. lia.
Qed.
Definition no_abortb (ls : list (@flabel CN)) : bool := forallb (fun lb => match lb with FAbort _ => false | _ => true end) ls.
Lemma no_abortb_spec ls : no_abortb ls = true -> forall o, FAbort o ∉ ls.
Proof. intros H o Hin. unfold no_abortb in H. rewrite forallb_forall in H. apply elem_of_list_In in Hin. by apply H in Hin. Qed.

Example C70_example : exists (lsf : list (@flabel CN)) f ev, fexec code_orders lsf f ev /\ wf_fcalls lsf /\ handed_over lsf /\ (forall o, FAbort o ∉ lsf) /\ length (callers ev) = 6 /\
  length (history ev) = 6 /\ f_dropped f = false.
Proof.
  destruct (fexec_check code_orders relay (fun ls f ev => handed_overb ls && no_abortb ls && bool_decide (length (callers ev) = 6) && bool_decide (length (history ev) = 6) && negb (f_dropped f))) as (lsf & f & ev & Hx & Hwf & Hf); [vm_compute; reflexivity|].
  exists lsf, f, ev. apply andb_true_iff in Hf as [[[[H1 H2]%andb_true_iff H3]%andb_true_iff H4]%andb_true_iff H5].
  split; [exact Hx|]. split; [exact Hwf|]. split; [exact (handed_overb_spec _ H1)|]. split; [exact (no_abortb_spec _ H2)|]. split; [exact (bool_decide_eq_true_1 _ H3)|]. split; [exact (bool_decide_eq_true_1 _ H4)|].
  apply negb_true_iff. exact H5.
Qed.

(** That every call is made after the calls before it have returned is not enough, if it is not known to the thread that makes it: call 1 inserts a key and returns, then call 2 looks it up, and does not find it. *)
Theorem C70_must_know : exists (lsf : list (@flabel CN)) f ev, fexec code_orders lsf f ev /\ wf_fcalls lsf /\ (forall o, FAbort o ∉ lsf) /\
  (exists o1 o2 op1 op2 r1 r2, ev = [EInv o1 op1; ERet o1 r1; EInv o2 op2; ERet o2 r2]) /\ forall a, ~ exact_run aempty (history ev) a.
Proof.
  destruct (fexec_check code_orders late (fun ls _ ev => no_abortb ls && late_ev ev)) as (lsf & f & ev & Hx & Hwf & Hf); [vm_compute; reflexivity|].
  apply andb_true_iff in Hf as [Hab Hf]. apply late_ev_spec in Hf. exists lsf, f, ev. split; [exact Hx|]. split; [exact Hwf|]. split; [exact (no_abortb_spec _ Hab)|]. split; [by do 6 eexists|].
  intros a. rewrite Hf. intros (b & [_ Hput] & (b' & [Hg _] & _)). specialize (Hput 1%N). simpl in Hg. rewrite Hput in Hg. discriminate Hg.
Qed.

Print Assumptions C70_must_know.
Print Assumptions C70_no_old_values.
Print Assumptions C70_like_a_plain_map.
