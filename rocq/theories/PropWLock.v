(** * C58: lock freedom and obstruction freedom on weakly ordered memory.
    The machine is that of WeakFree.v: loads may return old values, nodes are freed and their addresses used again.  The vocabulary is in WeakProg.v. *)
From Verif Require Import Model Mem Spec ProgSpec Weak WeakInv WeakStep WeakSys WeakRun LinSpec Inv Safe SafeProps Concrete Iter IterSpec IterSys
  WeakCoh WeakBase WeakLin PropWeak WeakLockSys WeakFree FreeSim FreeStep FreeInv FreeRun PropFree WeakProg WeakLockRun WeakLockEnd.

Section theorems.
Context {C : Config} {HC : ConfigOk C}.
Implicit Types (ls : list flabel) (s : fstate) (ev : list event).

(** From every state that can be reached there is a number [B] such that, however the program goes on and whatever old values the loads return, either one of the
    modifying calls in progress has returned, or together they have taken at most [B] steps (201 more for every spurious failure of a weak compare-and-set).
    Meanwhile other calls (readers) may start, run and end, and nodes may be freed; no modifying call is started or broken off. *)
Theorem C58_lock_free ls0 s ev0 : wf_fcalls ls0 -> fexec code_orders ls0 s ev0 -> exists B, forall ls s' ev, wf_fcalls ls -> frun code_orders s ls = Some (s', ev) -> f_no_new ls -> (forall o, FAbort o ∉ ls) ->
  (exists o op r, f_running s o op /\ is_reader op = false /\ ERet o r ∈ ev) \/ f_mod_steps code_orders s ls <= B + 201 * f_spurious_steps ls.
Proof.
  intros Hwf0 Hx. destruct (fexec_pinv _ _ _ _ code_strong Hwf0 Hx) as (M & H & N & pos & ll & b & P). exists (wPhi (f_mod_running s) (lives s) pos b). intros ls s' ev Hwf Hrun Hn Ha.
  destruct (fin_pay _ (f_mod_running s) ls code_strong _ _ _ _ _ _ _ _ _ _ P Hwf ltac:(lia) Hrun Hn) as [(o & op & H1 & H2 & [[r H3]|H3])|H1]; [left; eauto 10|by destruct (Ha o)|by right].
Qed.

(** A call in progress can always take a step, and a step does not end it other than by returning. *)
Theorem C58_can_step ls s ev o op : wf_fcalls ls -> fexec code_orders ls s ev -> f_running s o op -> exists n a s' e, fstep code_orders s (FStep o n false a) = Some (s', e).
Proof. intros Hwf Hx Hr. destruct (fexec_pinv _ _ _ _ code_strong Hwf Hx) as (M & H & N & pos & ll & b & P). destruct (can_step code_orders _ _ _ _ _ _ _ _ _ _ P Hr) as (s' & e & E). unfold newest_step in E. eauto. Qed.
Theorem C58_goes_on ls s ev o op n spur a s' e : wf_fcalls ls -> fexec code_orders ls s ev -> f_running s o op -> fstep code_orders s (FStep o n spur a) = Some (s', e) -> f_running s' o op \/ exists r, ERet o r ∈ e.
Proof. intros Hwf Hx Hr Hst. destruct (fexec_pinv _ _ _ _ code_strong Hwf Hx) as (M & H & N & pos & ll & b & P). eapply step_goes; [apply code_strong|exact P|exact Hr|exact Hst]. Qed.

(** When all other calls have been stopped, wherever they are, an insert, get_or_insert_with or remove that runs alone returns: it can only take a bounded number of steps ... *)
Theorem C58_alone_bound ls0 s ev0 o op : wf_fcalls ls0 -> fexec code_orders ls0 s ev0 -> f_running s o op -> is_reader op = false -> exists B, forall ls s' ev, f_alone o ls -> frun code_orders s ls = Some (s', ev) ->
  (exists r, ERet o r ∈ ev) \/ f_running s' o op /\ length ls <= B + 201 * f_spurious_steps ls.
Proof.
  intros Hwf0 Hx Hr Hrd. destruct (C58_lock_free _ _ _ Hwf0 Hx) as [B HB]. destruct (fexec_pinv _ _ _ _ code_strong Hwf0 Hx) as (M & H & N & pos & ll & b & P). exists B. intros ls s' ev Hal Hrun.
  assert (forall o1 op1 ps ds, FInv o1 op1 ps ds ∉ ls) as Hni by (intros o1 op1 ps ds Hin; destruct (Hal _ Hin) as (? & ? & ? & ?); done).
  destruct (HB ls s' ev) as [(o1 & op1 & r & H1 & H2 & H3)|H1]; [intros ? ? ? ? Hin; by destruct (Hni _ _ _ _ Hin)|done|intros ? ? ? ? Hin; by destruct (Hni _ _ _ _ Hin)|intros o1 Hin; destruct (Hal _ Hin) as (? & ? & ? & ?); done| |].
  - left. rewrite <-(alone_ret _ _ _ _ _ _ _ _ Hal Hrun H3). eauto.
  - destruct (alone_steps _ _ code_strong _ _ _ _ _ _ _ _ _ _ _ _ P Hr Hrd Hal Hrun) as [H2|[H2 H3]]; [by left|]. right. split; [done|]. by rewrite <-H3.
Qed.
(** ... and these steps are possible. *)
Theorem C58_finishes ls0 s ev0 o op : wf_fcalls ls0 -> fexec code_orders ls0 s ev0 -> f_running s o op -> is_reader op = false ->
  exists ls s' ev r, f_alone o ls /\ f_spurious_steps ls = 0 /\ frun code_orders s ls = Some (s', ev) /\ ERet o r ∈ ev.
Proof.
  intros Hwf0 Hx Hr Hrd. destruct (C58_alone_bound _ _ _ _ _ Hwf0 Hx Hr Hrd) as [B HB]. destruct (fexec_pinv _ _ _ _ code_strong Hwf0 Hx) as (M & H & N & pos & ll & b & P).
  destruct (alone_run code_orders _ _ _ _ _ _ _ _ _ _ code_strong P Hr Hrd (S B)) as (ls & s' & ev & Hal & Hsp & Hrun & [[r Hret]|Hlen]); [eauto 10|].
  destruct (HB _ _ _ Hal Hrun) as [[r Hret]|[_ Hl]]; [eauto 10|]. rewrite Hsp in Hl. lia.
Qed.

(** In an infinite execution in which modifying calls start and end all the time, at most [B] being in progress at a time: if modifying calls keep taking steps and from
    some point on there are no spurious failures, modifying calls keep coming to their end. *)
Theorem C58_no_livelock sch st B n0 : f_infinite code_orders sch st -> (forall n o op ps ds, sch n = FInv o op ps ds -> op_wf op) -> (forall n, n0 <= n -> f_spurious (sch n) = false) ->
  (forall n, f_mod_running (st n) <= B) -> infinitely_often (fun n => f_mod_step (st n) (sch n) = true) ->
  infinitely_often (fun n => exists e, fstep code_orders (st n) (sch n) = Some (st (S n), e) /\ f_mod_ends (st n) (sch n) e).
Proof.
  intros Hi Hwf Hsp HB Hio n. destruct (f_inf_pay _ sch st B n0 code_strong Hi Hwf Hsp HB Hio (B - f_mod_running (st (n0 + n))) (n0 + n) ltac:(lia) ltac:(lia)) as (n' & e & H1 & H2 & H3).
  exists n'. split; [lia|]. by exists e.
Qed.
End theorems.
Print Assumptions C58_lock_free.
Print Assumptions C58_can_step.
Print Assumptions C58_goes_on.
Print Assumptions C58_alone_bound.
Print Assumptions C58_finishes.
Print Assumptions C58_no_livelock.

(** ** Concrete cases *)

(** Call 1 has inserted (5, 7).  Call 2, by a thread that has not heard of that, inserts (5, 8): it has loaded the root, and got the old null pointer.
    Call 3 is in the middle of removing key 5. *)
Definition lagging : list fcmd := [FI 1 (ins 5 7) [] []; FR 1; FI 2 (ins 5 8) [] []; FO 2 0%nat; FI 3 (rem 5) [1] []; FO 3 1%nat]%positive.
Definition at_tcas (x : option (@wop CN)) : bool := match x with Some (WOp (SRun op (TLoad _ _ _ _)) _ _) => false | Some (WOp (SRun op _) _ _) => negb (is_reader op) | _ => false end.
Lemma at_tcas_run (s : @fstate CN) o : f_alive s o = true -> at_tcas (w_ops (c_w (f_c s)) !! o) = true -> exists op, f_running s o op /\ is_reader op = false.
Proof. intros Ha H. unfold f_running. destruct (w_ops (c_w (f_c s)) !! o) as [[[op p| | |] tv pv]|]; try discriminate H. exists op. split; [split; [exact Ha|by exists p, tv, pv]|]. destruct p; try discriminate H; by apply negb_true_iff in H. Qed.

Example C58_example : exists (ls : list (@flabel CN)) s ev op2 op3, fexec code_orders ls s ev /\ wf_fcalls ls /\ f_running s 2%positive op2 /\ is_reader op2 = false /\ f_running s 3%positive op3 /\ is_reader op3 = false /\
  f_mod_running s = 2 /\ length (w_hist (c_w (f_c s)) CRoot) = 2 /\ c_fl (f_c s) 2%positive CRoot = 0 /\ c_fl (f_c s) 3%positive CRoot = 1 /\
  exists ls' s' ev' r, f_alone 2%positive ls' /\ f_spurious_steps ls' = 0 /\ frun code_orders s ls' = Some (s', ev') /\ ERet 2%positive r ∈ ev'.
Proof.
  destruct (fexec_check code_orders lagging (fun (_ : list (@flabel CN)) (s : @fstate CN) (ev : list (@event CN)) =>
    f_alive s 2%positive && at_tcas (w_ops (c_w (f_c s)) !! 2%positive) && (f_alive s 3%positive && at_tcas (w_ops (c_w (f_c s)) !! 3%positive)) &&
    ((f_mod_running s =? 2) && (length (w_hist (c_w (f_c s)) CRoot) =? 2) && ((c_fl (f_c s) 2%positive CRoot =? 0) && (c_fl (f_c s) 3%positive CRoot =? 1))))) as (ls & s & ev & He & Hwf & Hf); [vm_compute; reflexivity|].
  apply andb_true_iff in Hf as [Hf H3]. apply andb_true_iff in Hf as [H1 H2]. apply andb_true_iff in H1 as [H1a H1b]. apply andb_true_iff in H2 as [H2a H2b].
  apply andb_true_iff in H3 as [H3 H4]. apply andb_true_iff in H3 as [H3a H3b]. apply andb_true_iff in H4 as [H4a H4b].
  destruct (at_tcas_run _ _ H1a H1b) as (op2 & R2 & E2). destruct (at_tcas_run _ _ H2a H2b) as (op3 & R3 & E3).
  exists ls, s, ev, op2, op3. refine (conj He (conj Hwf (conj R2 (conj E2 (conj R3 (conj E3 (conj _ (conj _ (conj _ (conj _ _)))))))))).
  - by apply Nat.eqb_eq.
  - by apply Nat.eqb_eq.
  - by apply Nat.eqb_eq.
  - by apply Nat.eqb_eq.
  - exact (C58_finishes _ _ _ _ _ Hwf He R2 E2).
Qed.

(** An infinite execution: the elements of a sequence are inserted, one call after the other. *)
Section endless.
Context `{C : Config} {HC : ConfigOk C} (els : nat -> Pl).
Notation w := code_orders.
Definition fid (k : nat) : opid := Pos.of_succ_nat k.
Definition fnext_lab (x : fstate * nat) : flabel :=
  match w_ops (c_w (f_c x.1)) !! fid x.2 with
  | Some (WOp (SRun _ _) _ _) => newest_step w x.1 (fid x.2)
  | _ => FInv (fid (S x.2)) (OInsert (els x.2)) [] []
  end.
Definition fnext_st (x : fstate * nat) : fstate * nat :=
  match fstep w x.1 (fnext_lab x) with
  | Some (s', _) => (s', match w_ops (c_w (f_c x.1)) !! fid x.2 with Some (WOp (SRun _ _) _ _) => x.2 | _ => S x.2 end)
  | None => x
  end.
Fixpoint fiter_st (n : nat) : fstate * nat := match n with 0 => (finit, 0) | S n => fnext_st (fiter_st n) end.
Definition fesch n := fnext_lab (fiter_st n).
Definition fest n := (fiter_st n).1.

Record fendless_ok (x : fstate * nat) : Prop := {
  fe_reach : exists ls ev, fexec w ls x.1 ev /\ wf_fcalls ls;
  fe_live : f_dropped x.1 = false /\ f_gone x.1 = ∅ /\ f_done x.1 = [];
  fe_new : forall k, x.2 < k -> w_ops (c_w (f_c x.1)) !! fid k = None;
  fe_run : forall o op p tv pv, w_ops (c_w (f_c x.1)) !! o = Some (WOp (SRun op p) tv pv) -> o = fid x.2 /\ is_reader op = false;
}.
Lemma freach_step s lb s' e : (exists ls ev, fexec w ls s ev /\ wf_fcalls ls) -> (forall o op ps ds, lb = FInv o op ps ds -> op_wf op) -> fstep w s lb = Some (s', e) -> exists ls ev, fexec w ls s' ev /\ wf_fcalls ls.
Proof.
  intros (ls & ev & Hx & Hwf) Hl Hst. exists (ls ++ [lb]), (ev ++ e). split.
  - unfold fexec. eapply frun_app; [exact Hx|]. cbn [frun]. rewrite Hst. by rewrite app_nil_r.
  - intros o op ps ds [Hin|Hin%elem_of_list_singleton]%elem_of_app; [by eapply Hwf|]. by eapply Hl.
Qed.
Lemma fendless_step x : fendless_ok x -> fendless_ok (fnext_st x) /\ exists e, fstep w x.1 (fnext_lab x) = Some ((fnext_st x).1, e).
Proof.
  intros [Hr (Hd & Hg & Hdn) Hn Hrun]. destruct x as [s k]. simpl in *. unfold fnext_st. cbn [fst snd] in *.
  assert ((exists op p tv pv, w_ops (c_w (f_c s)) !! fid k = Some (WOp (SRun op p) tv pv)) \/ ((forall op p tv pv, w_ops (c_w (f_c s)) !! fid k <> Some (WOp (SRun op p) tv pv)) /\
     fnext_lab (s, k) = FInv (fid (S k)) (OInsert (els k)) [] [] /\
     match w_ops (c_w (f_c s)) !! fid k with Some (WOp (SRun _ _) _ _) => k | _ => S k end = S k)) as [(op & p & tv & pv & Ho)|(Hno & E1 & E2)].
  { unfold fnext_lab. cbn [fst snd]. destruct (w_ops (c_w (f_c s)) !! fid k) as [[[] tv pv]|]; [left; eauto|right; by split..]. }
  - assert (fnext_lab (s, k) = newest_step w s (fid k)) as E1 by (unfold fnext_lab; cbn [fst snd]; by rewrite Ho). rewrite E1, Ho.
    assert (f_running s (fid k) op) as Hrn. { split; [|eauto]. apply bool_decide_eq_true. split; [by eexists|]. rewrite Hg. apply not_elem_of_empty. }
    pose proof Hr as (ls & ev & Hx & Hwf). destruct (fexec_pinv _ _ _ _ code_strong Hwf Hx) as (M & H & N & pos & ll & b & P).
    destruct (can_step code_orders _ _ _ _ _ _ _ _ _ _ P Hrn) as (s' & e & Es). rewrite Es. cbn [fst snd]. split; [|eauto].
    assert (exists ls ev, fexec w ls s' ev /\ wf_fcalls ls) as Hr' by (eapply freach_step; [exact Hr| |exact Es]; intros ? ? ? ?; unfold newest_step; discriminate).
    split; cbn [fst snd]; [done| | |].
    + unfold newest_step in Es. cbn [fstep] in Es. destruct (_ && _); [|done]. destruct (cstep w (f_c s) _) as [[c' e']|]; [|done]. by injection Es as <- _.
    + intros k' Hk'. unfold newest_step in Es.
      destruct P as [I L R]. destruct (finv_step _ _ _ _ _ _ _ _ _ _ _ _ _ _ _ code_strong I Es) as (M' & H' & N' & pos' & b' & a' & Hb & I').
      destruct (step_info w _ _ _ _ _ _ _ _ _ _ _ _ _ _ _ _ _ _ _ code_strong (fi_b _ _ _ _ _ _ _ _ I) (fi_b _ _ _ _ _ _ _ _ I') Hb) as (op0 & p0 & tv0 & pv0 & nx & tv' & pv' & acts & _ & Hops & _).
      rewrite (ws_ops _ _ (cs_w _ _ (fi_sim _ _ _ _ _ _ _ _ I'))), (ws_ops _ _ (cs_w _ _ (fi_sim _ _ _ _ _ _ _ _ I))) in Hops. rewrite Hops, lookup_insert_ne; [by apply Hn|]. unfold fid. lia.
    + intros o' op' p' tv' pv' Ho'. destruct (decide (f_gone s' = ∅)) as [Hg'|Hg'].
      * assert (f_running s' o' op') as Hrn'. { split; [|eauto]. apply bool_decide_eq_true. split; [by eexists|]. rewrite Hg'. apply not_elem_of_empty. }
        apply (f_running_back _ _ _ _ _ _ _ Es) in Hrn' as [_ (p2 & tv2 & pv2 & Ho2)]; [by eapply Hrun|]. intros ps ds. by unfold newest_step.
      * unfold newest_step in Es. cbn [fstep] in Es. destruct (_ && _); [|done]. destruct (cstep w (f_c s) _) as [[c' e']|]; [|done]. injection Es as <- _. by destruct Hg'.
  - rewrite E1, E2. cbn [fstep cstep wstep]. rewrite Hd, Hdn. cbn [forallb negb andb]. rewrite (Hn (S k) ltac:(lia)). cbn [fst snd]. split; [|eauto].
    match goal with |- fendless_ok (?st, _) => assert (fstep w s (FInv (fid (S k)) (OInsert (els k)) [] []) = Some (st, [EInv (fid (S k)) (OInsert (els k))])) as Est end.
    { cbn [fstep cstep wstep]. rewrite Hd, Hdn. cbn [forallb negb andb]. by rewrite (Hn (S k) ltac:(lia)). }
    match type of Est with _ = Some (?st, _) => assert (exists ls ev, fexec w ls st ev /\ wf_fcalls ls) as Hr' by (eapply freach_step; [exact Hr| |exact Est]; intros ? ? ? ? E; by injection E as _ <- _ _) end.
    split; cbn [fst snd]; [done| | |].
    + done.
    + intros k' Hk'. simpl. rewrite lookup_insert_ne; [apply Hn; lia|]. unfold fid. lia.
    + intros o' op' p' tv' pv' Ho'. simpl in Ho'. destruct (decide (o' = fid (S k))) as [->|Hne].
      * rewrite lookup_insert in Ho'. by injection Ho' as <- _.
      * rewrite lookup_insert_ne in Ho' by done. destruct (Hrun _ _ _ _ _ Ho') as [-> _]. by destruct (Hno _ _ _ _ Ho').
Qed.
Lemma fendless_all n : fendless_ok (fiter_st n).
Proof.
  induction n as [|n IH]; [|by apply fendless_step]. split; simpl.
  - exists [], []. split; [done|]. by intros ? ? ? ? ?%elem_of_nil.
  - done.
  - intros. apply lookup_empty.
  - intros o op p tv pv H. by rewrite lookup_empty in H.
Qed.
Lemma fendless_run : f_infinite w fesch fest.
Proof. split; [done|]. intros n. apply (fendless_step _ (fendless_all n)). Qed.
Lemma fendless_wf n o op ps ds : fesch n = FInv o op ps ds -> op_wf op.
Proof. unfold fesch, fnext_lab, newest_step. intros E. destruct (w_ops _ !! _) as [[[] ? ?]|]; try discriminate E; by injection E as _ <- _ _. Qed.
Lemma fendless_one n : f_mod_running (fest n) <= 1.
Proof.
  pose proof (fe_run _ (fendless_all n)) as H. unfold f_mod_running. fold (fest n) in H.
  assert (forall o, f_mod (fest n) o = true -> o = fid (fiter_st n).2) as Hm.
  { intros o Ho. unfold f_mod in Ho. apply andb_true_iff in Ho as [_ Ho]. destruct (w_ops (c_w (f_c (fest n))) !! o) as [[[op p| | |] tv pv]|] eqn:E; try done. by eapply H. }
  assert (forall l : list opid, NoDup l -> length (List.filter (f_mod (fest n)) l) <= 1) as Hl.
  { induction l as [|o l IH]; intros Hnd; simpl; [lia|]. apply NoDup_cons in Hnd as [Hni Hnd]. destruct (f_mod (fest n) o) eqn:Em; [|by apply IH].
    simpl. destruct (List.filter (f_mod (fest n)) l) as [|o' l'] eqn:Ef; [done|].
    assert (In o' (List.filter (f_mod (fest n)) l)) as Hx by (rewrite Ef; by left). apply filter_In in Hx as [Hx Hm']. exfalso. apply Hni. rewrite (Hm o Em), <-(Hm o' Hm'). by apply elem_of_list_In. }
  apply Hl, NoDup_fst_map_to_list.
Qed.
Lemma fendless_often : infinitely_often (fun n => f_mod_step (fest n) (fesch n) = true).
Proof.
  intros n.
  assert (forall n op p tv pv, w_ops (c_w (f_c (fest n))) !! fid (fiter_st n).2 = Some (WOp (SRun op p) tv pv) -> f_mod_step (fest n) (fesch n) = true) as Hs.
  { intros n' op p tv pv Ho. unfold fesch, fnext_lab. unfold fest in *. rewrite Ho. unfold newest_step. cbn [f_mod_step]. unfold f_mod, f_alive. rewrite Ho. simpl. destruct (fe_run _ (fendless_all n') _ _ _ _ _ Ho) as [_ ->].
    destruct (fe_live _ (fendless_all n')) as (_ & -> & _). rewrite bool_decide_eq_true_2; [done|]. split; [by eexists|apply not_elem_of_empty]. }
  assert ((exists op p tv pv, w_ops (c_w (f_c (fest n))) !! fid (fiter_st n).2 = Some (WOp (SRun op p) tv pv)) \/ fnext_lab (fiter_st n) = FInv (fid (S (fiter_st n).2)) (OInsert (els (fiter_st n).2)) [] [] /\
     match w_ops (c_w (f_c (fest n))) !! fid (fiter_st n).2 with Some (WOp (SRun _ _) _ _) => (fiter_st n).2 | _ => S (fiter_st n).2 end = S (fiter_st n).2) as [(op & p & tv & pv & Ho)|[E1 E2]].
  { unfold fnext_lab, fest. destruct (w_ops (c_w (f_c (fiter_st n).1)) !! fid (fiter_st n).2) as [[[] tv pv]|]; [left; eauto|by right..]. }
  - exists n. split; [lia|by eapply Hs].
  - exists (S n). split; [lia|]. destruct (fe_live _ (fendless_all n)) as (Hd & _ & Hdn). pose proof (fe_new _ (fendless_all n) (S (fiter_st n).2) ltac:(lia)) as Hnew.
    eapply Hs. unfold fest in *. cbn [fiter_st]. unfold fnext_st. rewrite E1, E2. cbn [fstep cstep wstep]. rewrite Hd, Hdn. cbn [forallb negb andb]. rewrite Hnew. cbn [fst snd f_c c_w w_ops]. apply lookup_insert.
Qed.
Lemma fendless_clean n : f_spurious (fesch n) = false.
Proof. unfold fesch, fnext_lab, newest_step. destruct (w_ops _ !! _) as [[[] ? ?]|]; done. Qed.
End endless.

Example C58_endless : exists sch st, @f_infinite CN code_orders sch st /\ (forall n o op ps ds, sch n = FInv o op ps ds -> op_wf op) /\ (forall n, f_spurious (sch n) = false) /\ (forall n, f_mod_running (st n) <= 1) /\
  infinitely_often (fun n => f_mod_step (st n) (sch n) = true) /\
  infinitely_often (fun n => exists e, fstep code_orders (st n) (sch n) = Some (st (S n), e) /\ f_mod_ends (st n) (sch n) e).
Proof.
  set (els := fun n => el (N.of_nat n) 0). exists (fesch els), (fest els). split; [apply fendless_run|]. split; [apply fendless_wf|]. split; [apply fendless_clean|]. split; [apply fendless_one|]. split; [apply fendless_often|].
  apply (C58_no_livelock _ _ 1 0); [apply fendless_run|apply fendless_wf|intros; apply fendless_clean|apply fendless_one|apply fendless_often].
Qed.
