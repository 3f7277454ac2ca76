(** * C63: none of the orderings can be weaker, by the happens-before relation of C11. *)
From Verif Require Import Model Mem Spec LinSpec Weak WeakInv WeakStep WeakSys WeakRun WeakCoh WeakLin WeakFree PropWeak Concrete PropCoh PropFree Rc11 Rc11Sim Rc11Conv PropRc11 Plain PlainRel PlainInv PlainSim PropPlain.

(** ** How to see that something does not happen before *)
Section reach.
Context {C : Config} (w : orders) (L : list (option xstep)) (from : cev -> loc -> option nat) (WF : wf_log w L) (FO : from_ok w L from).
(** Every call is made by a thread of its own. *)
Definition own (o : opid) : nat := Pos.to_nat o.
(** The events of call [o] from position [m o] on. *)
Context (m : opid -> option (nat * nat)).
Definition after (o : opid) (t j : nat) : bool := match m o with Some (t1, j1) => (t1 <? t) || (t1 =? t) && (j1 <=? j) | None => false end.
Definition inM (e : cev) : Prop := exists o t j, place w L e o t j /\ after o t j = true.
Definition releaseb (x : xstep) : bool := match x_acc w x with Some (_, _, ord) => releases ord && x_writes w x | None => false end.
Definition syncb (x : xstep) : bool := match x_acc w x with Some (_, _, ord) => acquires ord || match ord with Consume => true | _ => false end | None => false end.
(** The heads of the release sequences with the write of step [t]. *)
Fixpoint heads (n t : nat) : list nat :=
  t :: match n with
       | 0 => []
       | S n => match L !! t with Some (Some x) => match x_rf x with At t0 => heads n t0 | Init _ => [] end | _ => [] end
       end.
(** No release/acquire or release/consume edge leads out of these events. *)
Definition closedb : bool :=
  forallb (fun ty => match ty.2 with
    | Some x => negb (syncb x) || after (x_call x) ty.1 1 || match x_rf x with
        | At t0 => forallb (fun h => match L !! h with Some (Some xh) => negb (after (x_call xh) h 1 && releaseb xh) | _ => true end) (heads (length L) t0)
        | Init _ => true
        end
    | None => true
    end) (imap pair L).
Context (HM : closedb = true).

Lemma own_inj o1 o2 : own o1 = own o2 -> o1 = o2.
Proof. unfold own. apply Pos2Nat.inj. Qed.
Lemma after_mono o t j t' j' : after o t j = true -> t < t' \/ t = t' /\ j < j' -> after o t' j' = true.
Proof.
  unfold after. destruct (m o) as [[t1 j1]|]; [|done]. rewrite !orb_true_iff, !andb_true_iff, !Nat.ltb_lt, !Nat.eqb_eq, !Nat.leb_le. lia.
Qed.
Lemma sb_closed e e' : inM e -> sb w L own e e' -> inM e'.
Proof.
  intros (o & t & j & P & A) (o1 & t1 & j1 & o2 & t2 & j2 & P1 & P2 & E & H). destruct (place_uniq _ _ WF _ _ _ _ _ _ _ P P1) as (-> & -> & ->). apply own_inj in E as ->. exists o2, t2, j2. split; [done|]. by eapply after_mono.
Qed.
Lemma rseq_heads h t n : rseq w L h t -> t <= n -> h ∈ heads n t.
Proof.
  intros R. revert n. induction R as [|t0 t x R IH S W E]; intros n Hn; [destruct n; by left|]. assert (is_Some (x_acc w x)) as [[[c k] ord] A]. { unfold x_writes in W. by destruct (x_acc w x). }
  destruct (wl_at _ _ WF _ _ _ _ _ _ S A E) as [Hlt _]. destruct n as [|n]; [lia|]. simpl. right. unfold step_at in S. rewrite S, E. apply IH. lia.
Qed.
Lemma edge_closed h xh t0 t x : step_at L h xh -> release_write w xh -> rseq w L h t0 -> rfe w L (EAcc t0) (EAcc t) -> step_at L t x -> syncb x = true -> inM (EAcc h) -> inM (EAcc t).
Proof.
  intros Sh (c0 & k0 & ord0 & A0 & Rl & W0) Rs R S Sy (o & t' & j & P & A). inversion R as [t1 t2 x' S' Ha Hr|]; subst. rewrite (step_inj _ _ _ _ S' S) in *. clear S' x'.
  assert (o = x_call xh /\ t' = h /\ j = 1) as (-> & -> & ->). { inversion P as [|t3 x3 S3 A3|]; subst. by rewrite (step_inj _ _ _ _ S3 Sh). }
  exists (x_call x), t, 1. split; [by apply place_acc|]. unfold closedb in HM. rewrite forallb_forall in HM. specialize (HM (t, Some x)). cbn [fst snd] in HM.
  assert (In (t, Some x) (imap pair L)) as Hin. { apply elem_of_list_In, elem_of_lookup_imap. exists t, (Some x). done. }
  specialize (HM Hin). rewrite Sy, Hr in HM. destruct (after (x_call x) t 1); [done|]. cbn [negb orb] in HM. rewrite forallb_forall in HM.
  assert (In h (heads (length L) t0)) as Hh. { apply elem_of_list_In. apply rseq_heads; [done|]. destruct Ha as [[[c k] ord] Ha]. destruct (wl_at _ _ WF _ _ _ _ _ _ S Ha Hr) as (_ & x0 & S0 & _). apply lookup_lt_Some in S0. lia. }
  specialize (HM h Hh). cbn beta in HM. unfold step_at in Sh. rewrite Sh, A in HM. unfold releaseb in HM. by rewrite A0, Rl, W0 in HM.
Qed.
Lemma sw_closed e e' : inM e -> sw w L e e' -> inM e'.
Proof. intros H D. destruct D as [h xh t0 t x Sh Rw Rs R S (c & k & ord & A & Ha & _)]. eapply edge_closed; [exact Sh|exact Rw|exact Rs|exact R|exact S| |exact H]. unfold syncb. by rewrite A, Ha. Qed.
Lemma dob_closed e e' : inM e -> dob w L own from e e' -> inM e'.
Proof.
  intros H D. induction D as [h xh t0 t x Sh Rw Rs R S (c & k & A & _) _|e e1 e2 D IH Hc].
  - eapply edge_closed; [exact Sh|exact Rw|exact Rs|exact R|exact S| |exact H]. unfold syncb. rewrite A. simpl. done.
  - eapply sb_closed; [by apply IH|]. by eapply cdep_sb.
Qed.
Lemma hb_closed e e' : inM e -> c11_hb w L own from e e' -> inM e'.
Proof.
  intros H [S|S]; [by eapply sb_closed|]. induction S as [e1 e2 S|e1 e2 S|e1 e2 e3 S S'|e1 e2 e3 S _ IH|e1 e2 e3 _ IH _ IH'].
  - by eapply sw_closed. - by eapply dob_closed. - eapply sb_closed; [by eapply sw_closed|exact S']. - apply IH. by eapply sb_closed. - auto.
Qed.
(** The initialisation of [l] by call [o0] does not happen before the use of [l] by a call none of whose events is reached. *)
Lemma not_hb t0 x0 t x l i : step_at L t0 x0 -> allocs x0 l -> after (x_call x0) t0 0 = true -> step_at L t x -> uses x l -> m (x_call x) = None -> ~ c11_hb w L own from (EInit l i) (EUse t l).
Proof.
  intros S0 A0 Hm S U Hn H. assert (inM (EInit l i)) as H0. { exists (x_call x0), t0, 0. split; [by apply place_init|done]. }
  destruct (hb_closed _ _ H0 H) as (o & t' & j & P & A). inversion P as [| |t3 x3 l3 S3 A3]; subst. rewrite (step_inj _ _ _ _ S3 S) in A. unfold after in A. by rewrite Hn in A.
Qed.
End reach.

(** ** Executions *)
Inductive pcmd :=
| PI (o : opid) (op : @oper CN)
| PR (o : opid)                      (* run to the end, reading the newest values *)
| PN (o : opid) (n : nat).           (* [n] steps *)

Section script.
Variable w : orders.
Definition pnewest (s : @pstate CN) (o : opid) : gev :=
  match pm_ops (p_m s) !! o with Some (SRun _ p) => match access w p with Some (c, _, _) => default (Init c) (last (p_who s c)) | None => Init CRoot end | _ => Init CRoot end.
Definition pstepl (x : @pstate CN * list (@glabel CN)) (lb : glabel) : option (@pstate CN * list (@glabel CN)) :=
  match pstep w x.1 lb with Some (s', _) => Some (s', x.2 ++ [lb]) | None => None end.
Fixpoint pfinl (n : nat) (o : opid) (x : @pstate CN * list (@glabel CN)) : option (@pstate CN * list (@glabel CN)) :=
  match n with
  | 0 => None
  | S n => match pm_ops (p_m x.1) !! o with
           | Some (SRun _ _) => match pstepl x (GStep o (pnewest x.1 o) false (pick (p_mem x.1))) with Some y => pfinl n o y | None => None end
           | _ => Some x
           end
  end.
Fixpoint psteps (n : nat) (o : opid) (x : @pstate CN * list (@glabel CN)) : option (@pstate CN * list (@glabel CN)) :=
  match n with 0 => Some x | S n => match pstepl x (GStep o (pnewest x.1 o) false (pick (p_mem x.1))) with Some y => psteps n o y | None => None end end.
Definition pcmdl (x : @pstate CN * list (@glabel CN)) (c : pcmd) : option (@pstate CN * list (@glabel CN)) := match c with PI o op => pstepl x (GInv o op [] []) | PR o => pfinl 200 o x | PN o n => psteps n o x end.
Fixpoint pcmdsl (x : @pstate CN * list (@glabel CN)) (cs : list pcmd) : option (@pstate CN * list (@glabel CN)) :=
  match cs with [] => Some x | c :: cs => match pcmdl x c with Some y => pcmdsl y cs | None => None end end.
Definition pschedule (cs : list pcmd) : list (@glabel CN) := match pcmdsl (pinit, []) cs with Some (_, ls) => ls | None => [] end.
(** The log of accesses, as PropRc11.v wants it, with the writes of each cell in a table. *)
Definition assoc (tbl : list (cell * list gev)) (c : cell) : list gev := match list_find (fun x : cell * list gev => x.1 = c) tbl with Some (_, x) => x.2 | None => [] end.
Definition as_g (p : @pstate CN) : @gstate CN :=
  let log := accs_of w (p_log p) in
  let cs := remove_dups (omap (fun x : option acc => a_cell <$> x) log) in
  let tbl := (fun c => (c, p_who p c)) <$> cs in
  GState (WState mem0 (fun _ => []) ∅) (assoc tbl) (p_regs p) (p_sync p) (p_done p) (p_gone p) (p_dropped p) (p_ub p) log.
(** [l]: the node; [o]: who uses it before it is initialised; [ms]: the calls that come after the initialisation. *)
Definition alloc_at (L : list (option (@xstep CN))) (l : loc) : option nat := find (fun t => stepb L t (fun x => if allocs_dec x l then true else false)) (length L).
Definition the_m (t0 : nat) (o0 : opid) (ms : list opid) (o : opid) : option (nat * nat) := if bool_decide (o = o0) then Some (t0, 0) else if bool_decide (o ∈ ms) then Some (0, 0) else None.
Definition raceb (L : list (option (@xstep CN))) (l : loc) (o : opid) (ms : list opid) : bool :=
  match alloc_at L l with
  | Some t0 => match L !! t0 with
      | Some (Some x0) => let m := the_m t0 (x_call x0) ms in
          closedb w L m && negb (bool_decide (o = x_call x0)) && negb (bool_decide (o ∈ ms)) && anyx L (fun x => bool_decide (x_call x = o) && looks x l)
      | _ => false
      end
  | None => false
  end.
Definition race_check (cs : list pcmd) (l : loc) (o : opid) (ms : list opid) : bool :=
  let ls := pschedule cs in match prun w pinit ls with Some (p, _) => raceb (p_log p) l o ms && gokb ls (as_g p) && forallb gwfb ls | None => false end.

(** There is an execution with a data race: something in a node is read although its initialisation does not happen before. *)
Definition racy : Prop := exists (ls : list (@glabel CN)) p ev thr, wf_gcalls ls /\ pallowed w ls p ev /\
  forall from, from_ok w (p_log p) from -> exists t x l, step_at (p_log p) t x /\ uses x l /\ forall i, ~ c11_hb w (p_log p) thr from (EInit l i) (EUse t l).

Lemma raceb_spec L l o ms from : wf_log w L -> from_ok w L from -> raceb L l o ms = true -> exists t x l, step_at L t x /\ uses x l /\ forall i, ~ c11_hb w L own from (EInit l i) (EUse t l).
Proof.
  intros WF FO H. unfold raceb in H. destruct (alloc_at L l) as [t0|] eqn:E0; [|done]. apply find_Some in E0 as [_ E0]. apply stepb_spec in E0 as (x0 & S0 & A0). destruct (allocs_dec x0 l) as [Al|]; [|done].
  pose proof S0 as S0'. unfold step_at in S0'. rewrite S0' in H. cbn zeta in H. apply andb_true_iff in H as [H H4]. apply andb_true_iff in H as [H H3]. apply andb_true_iff in H as [H1 H2].
  apply negb_true_iff, bool_decide_eq_false in H2, H3. apply anyx_spec in H4 as (t & x & S & H4). apply andb_true_iff in H4 as [H4 H5]. apply bool_decide_eq_true in H4.
  assert (uses x l) as U. { left. apply andb_true_iff in H5 as [Ha Hb]. exists (BInner []). intros E. rewrite E in Ha. by rewrite Ha in Hb. }
  exists t, x, l. split; [done|]. split; [done|]. intros i. eapply (not_hb w L from WF FO _ H1 t0 x0); try done.
  - unfold after, the_m. rewrite bool_decide_eq_true_2 by done. apply orb_true_iff. right. by rewrite Nat.eqb_refl.
  - unfold the_m. rewrite H4. rewrite !bool_decide_eq_false_2 by done. done.
Qed.
Lemma race_spec cs l o ms : race_check cs l o ms = true -> racy.
Proof.
  unfold race_check. generalize (pschedule cs). intros ls H. cbn zeta in H. destruct (prun w pinit ls) as [[p ev]|] eqn:E; [|done]. apply andb_true_iff in H as [H H3]. apply andb_true_iff in H as [H1 H2].
  exists ls, p, ev, own. split. { intros o' op ps ds Hin. rewrite forallb_forall in H3. apply elem_of_list_In in Hin. apply H3 in Hin. by destruct op. }
  split. { split; [exact E|]. eexists _, _. exact (ok_consistent _ _ _ _ _ (gokb_spec ls (as_g p) H2)). }
  intros from FO. eapply raceb_spec; [by eapply exec_wf|done|exact H1].
Qed.
End script.

(** ** None of these orderings can be weakened *)
(** With any one of the orderings relaxed (fetch_or: without acquire) there is an execution with a data race.  (Call 4 of the seventh one reads a node that a remove of one of two colliding keys has made.) *)
Theorem C63_orderings_needed :
  with_trav Consume = code_orders /\ with_tcas Release = code_orders /\ with_mark AcqRel = code_orders /\ with_pcas Release = code_orders /\ with_get Consume = code_orders /\
  with_rem Consume = code_orders /\ with_rcas Release = code_orders /\ with_iroot Acquire = code_orders /\ with_iter Acquire = code_orders /\
  Forall racy [with_trav Relaxed; with_tcas Relaxed; with_mark Release; with_pcas Relaxed; with_get Relaxed; with_rem Relaxed; with_rcas Relaxed; with_iroot Relaxed; with_iter Relaxed].
Proof.
  do 9 (split; [reflexivity|]).
  apply Forall_cons; split; [apply (race_spec _ [PI 1 (ins 5 7); PR 1; PI 2 (ins 5 8); PR 2]%positive 1%positive 2%positive []); vm_compute; reflexivity|].
  apply Forall_cons; split; [apply (race_spec _ [PI 1 (ins 5 7); PR 1; PI 2 (get 5); PR 2]%positive 1%positive 2%positive []); vm_compute; reflexivity|].
  apply Forall_cons; split; [apply (race_spec _ [PI 1 (ins 1 7); PR 1; PI 2 (ins 2 8); PR 2; PI 3 (rem 1); PR 3]%positive 3%positive 3%positive []); vm_compute; reflexivity|].
  apply Forall_cons; split; [apply (race_spec _ [PI 1 (ins 1 7); PR 1; PI 2 (ins 2 8); PR 2; PI 3 (rem 1); PR 3; PI 4 (get 2); PR 4]%positive 3%positive 4%positive [3%positive]); vm_compute; reflexivity|].
  apply Forall_cons; split; [apply (race_spec _ [PI 1 (ins 5 7); PR 1; PI 2 (get 5); PR 2]%positive 1%positive 2%positive []); vm_compute; reflexivity|].
  apply Forall_cons; split; [apply (race_spec _ [PI 1 (ins 5 7); PR 1; PI 2 (rem 5); PR 2]%positive 1%positive 2%positive []); vm_compute; reflexivity|].
  apply Forall_cons; split; [apply (race_spec _ [PI 1 (ins 5 7); PR 1; PI 2 (ins (5 + 2 ^ 64) 8); PR 2; PI 3 (rem 5); PN 3 18; PI 4 (get (5 + 2 ^ 64)); PR 4]%positive 19%positive 4%positive []); vm_compute; reflexivity|].
  apply Forall_cons; split; [apply (race_spec _ [PI 1 (ins 5 7); PR 1; PI 2 ite; PR 2]%positive 1%positive 2%positive []); vm_compute; reflexivity|].
  apply Forall_cons; split; [apply (race_spec _ [PI 1 (ins 1 7); PR 1; PI 2 (ins 2 8); PR 2; PI 3 ite; PR 3]%positive 3%positive 3%positive []); vm_compute; reflexivity|].
  by apply Forall_nil.
Qed.
Print Assumptions C63_orderings_needed.
