(** * C62: the C11 axioms, without views. *)
From Verif Require Import Model Mem Spec LinSpec Weak WeakInv WeakStep WeakSys WeakRun WeakCoh WeakLin WeakFree PropWeak Concrete PropCoh PropFree Rc11 Rc11Sim Rc11Conv PropRc11 Plain PlainRel PlainInv PlainSim.

Section theorems.
Context {C : Config} {HC : ConfigOk C}.
Implicit Types (p : pstate) (q : gstate) (ev : list event).

(** ** No data races in the nodes *)
(** The initialisation of a node happens before every access to one of its slots, and before everything that is read in it, by the
    calls or, through the references they get, by the callers.
    (For all ways the calls may be distributed over threads, and wherever the calls may have their pointers from.) *)
Theorem C62_initialised_before_access ls p ev thr from t x l i : pallowed code_orders ls p ev -> from_ok code_orders (p_log p) from ->
  step_at (p_log p) t x -> in_slot code_orders x l i -> c11_hb code_orders (p_log p) thr from (EInit l i) (EAcc t).
Proof. intros [He _] Hf. eapply slot_hb; [apply code_strong|by eapply exec_wf|done]. Qed.
Theorem C62_initialised_before_use ls p ev thr from t x l i : pallowed code_orders ls p ev -> from_ok code_orders (p_log p) from ->
  step_at (p_log p) t x -> uses x l -> c11_hb code_orders (p_log p) thr from (EInit l i) (EUse t l).
Proof. intros [He _] Hf. eapply look_hb; [apply code_strong|by eapply exec_wf|done]. Qed.
(** A node is initialised only once (all other writes are atomic). *)
Theorem C62_initialised_once ls p ev t1 x1 t2 x2 l : pallowed code_orders ls p ev -> step_at (p_log p) t1 x1 -> step_at (p_log p) t2 x2 -> allocs x1 l -> allocs x2 l -> t1 = t2.
Proof. intros [He _]. apply (wl_uniq _ _ (exec_wf _ _ _ _ He)). Qed.

(** ** What happens before is earlier in the list of steps: the relation has no cycles. *)
Definition earlier (e1 e2 : nat * nat) : Prop := e1.1 < e2.1 \/ e1.1 = e2.1 /\ e1.2 < e2.2.
Section order.
Context (w : orders) (L : list (option xstep)) (thr : opid -> nat) (from : cev -> loc -> option nat) (WF : wf_log w L) (FO : from_ok w L from).
Lemma place_uniq e o t j o' t' j' : place w L e o t j -> place w L e o' t' j' -> o' = o /\ t' = t /\ j' = j.
Proof.
  unfold step_at. intros H H'. destruct H as [t x l i Hx Ha|t x Hx Ha|t x l Hx Ha]; inversion H' as [t2 x2 l2 i2 Hx2 Ha2|t2 x2 Hx2 Ha2|t2 x2 l2 Hx2 Ha2]; subst; unfold step_at in *.
  - pose proof (wl_uniq _ _ WF _ _ _ _ _ Hx Hx2 Ha Ha2) as <-. rewrite Hx in Hx2. injection Hx2 as <-. done.
  - rewrite Hx in Hx2. injection Hx2 as <-. done.
  - rewrite Hx in Hx2. injection Hx2 as <-. done.
Qed.
Definition Ord (e1 e2 : cev) : Prop := exists o1 t1 j1 o2 t2 j2, place w L e1 o1 t1 j1 /\ place w L e2 o2 t2 j2 /\ earlier (t1, j1) (t2, j2).
Lemma Ord_trans e1 e2 e3 : Ord e1 e2 -> Ord e2 e3 -> Ord e1 e3.
Proof.
  intros (o1 & t1 & j1 & o2 & t2 & j2 & P1 & P2 & E) (o2' & t2' & j2' & o3 & t3 & j3 & P2' & P3 & E'). destruct (place_uniq _ _ _ _ _ _ _ P2 P2') as (-> & -> & ->). exists o1, t1, j1, o3, t3, j3. split; [done|]. split; [done|].
  unfold earlier in *. simpl in *. lia.
Qed.
Lemma sb_Ord e1 e2 : sb w L thr e1 e2 -> Ord e1 e2.
Proof. intros (o1 & t1 & j1 & o2 & t2 & j2 & P1 & P2 & _ & E). by exists o1, t1, j1, o2, t2, j2. Qed.
Lemma rf_Ord t0 t : rfe w L (EAcc t0) (EAcc t) -> Ord (EAcc t0) (EAcc t).
Proof.
  intros H. inversion H as [t1 t2 x Hx Ha Hr|]; subst. destruct Ha as [[[c k] ord] Ha]. destruct (wl_at _ _ WF _ _ _ _ _ _ Hx Ha Hr) as (Hlt & x0 & Hx0 & Hw & _).
  exists (x_call x0), t0, 1, (x_call x), t, 1. split; [|split; [by apply place_acc|by left]]. apply place_acc; [done|]. unfold x_writes in Hw. by destruct (x_acc w x0).
Qed.
Lemma rseq_Ord h xh t0 e : step_at L h xh -> x_writes w xh = true -> rseq w L h t0 -> Ord (EAcc t0) e -> Ord (EAcc h) e.
Proof.
  intros Sh Wh R. revert e. induction R as [|t1 t2 x R IH S W E]; [done|]. intros e H. apply IH. eapply Ord_trans; [|exact H]. apply rf_Ord. econstructor; [exact S| |done]. unfold x_writes in W. by destruct (x_acc w x).
Qed.
Lemma from_Ord e o t j l t' : place w L e o t j -> from e l = Some t' -> Ord (EAcc t') e.
Proof.
  intros P F. pose proof (FO e l o t j P) as H. rewrite F in H. destruct H as [(x & Hx & Ho & c & k & ord & v & Ha & _) Ht]. exists (x_call x), t', 1, o, t, j. split; [by apply place_acc|]. split; [done|].
  unfold earlier. simpl. lia.
Qed.
Lemma cdep_Ord e1 e2 : cdep w L thr from e1 e2 -> Ord e1 e2.
Proof.
  intros [t t' x l i S (k & ord & A) F|t t' x l S A F|t t' x v l c ord S A _ _ F|t t' x b i v l S [A _] _ F|e e' _ H]; [..|by apply sb_Ord].
  - eapply from_Ord; [by apply place_acc|done].
  - eapply from_Ord; [by apply place_use|done].
  - eapply from_Ord; [by apply place_acc|done].
  - eapply from_Ord; [by apply place_init|done].
Qed.
Lemma sw_Ord e1 e2 : sw w L e1 e2 -> Ord e1 e2.
Proof. intros [h xh t0 t x Sh (_ & _ & _ & _ & _ & W) R H _ _]. eapply rseq_Ord; [done|done|exact R|by apply rf_Ord]. Qed.
Lemma dob_Ord e1 e2 : dob w L thr from e1 e2 -> Ord e1 e2.
Proof. induction 1 as [h xh t0 t x Sh (_ & _ & _ & _ & _ & W) R H _ _ _|e e1 e2 _ IH H]; [eapply rseq_Ord; [done|done|exact R|by apply rf_Ord]|]. eapply Ord_trans; [exact IH|by apply cdep_Ord]. Qed.
Lemma hb_Ord e1 e2 : c11_hb w L thr from e1 e2 -> Ord e1 e2.
Proof.
  intros [H|H]; [by apply sb_Ord|]. induction H as [e1 e2 H|e1 e2 H|e1 e2 e3 H H'|e1 e2 e3 H _ IH|e1 e2 e3 _ IH _ IH'].
  - by apply sw_Ord. - by apply dob_Ord. - eapply Ord_trans; [by apply sw_Ord|by apply sb_Ord]. - eapply Ord_trans; [by apply sb_Ord|done]. - by eapply Ord_trans.
Qed.
End order.
Theorem C62_hb_order w ls p ev thr from e1 e2 : pexec w ls p ev -> from_ok w (p_log p) from -> c11_hb w (p_log p) thr from e1 e2 ->
  exists o1 t1 j1 o2 t2 j2, place w (p_log p) e1 o1 t1 j1 /\ place w (p_log p) e2 o2 t2 j2 /\ earlier (t1, j1) (t2, j2).
Proof. intros He Hf. eapply hb_Ord; [by eapply exec_wf|done]. Qed.
Theorem C62_hb_irreflexive w ls p ev thr from e : pexec w ls p ev -> from_ok w (p_log p) from -> ~ c11_hb w (p_log p) thr from e e.
Proof.
  intros He Hf H. destruct (C62_hb_order _ _ _ _ _ _ _ _ He Hf H) as (o1 & t1 & j1 & o2 & t2 & j2 & P1 & P2 & E). destruct (place_uniq _ _ (exec_wf _ _ _ _ He) _ _ _ _ _ _ _ P1 P2) as (-> & -> & ->).
  unfold earlier in E. simpl in E. lia.
Qed.

(** ** The same executions as in C57 *)
Theorem C62_same_executions ls ev : wf_gcalls ls -> (exists p, pallowed code_orders ls p ev) <-> (exists q, allowed code_orders ls q ev).
Proof.
  intros Hwf. split; intros [s Hs].
  - destruct (plain_views _ _ _ Hwf Hs) as (q & Hq & _). by exists q.
  - destruct (views_plain _ _ _ Hwf Hs) as (p & Hp & _). by exists p.
Qed.
Theorem C62_no_failure ls p ev : wf_gcalls ls -> pallowed code_orders ls p ev ->
  (forall o op f, pm_ops (p_m p) !! o <> Some (SFail op f)) /\ p_ub p = false /\ NoDup (m_freed (p_mem p)).*1.
Proof.
  intros Hwf Hp. destruct (plain_views _ _ _ Hwf Hp) as (q & Hq & Hs). destruct (C57_no_use_after_free _ _ _ Hwf Hq) as (X1 & X2 & X3). split; [|split].
  - intros o op f. rewrite (ms_ops _ _ (ps_m _ _ _ Hs)), lookup_fmap. destruct (w_ops (g_w q) !! o) as [x|] eqn:E; [|done]. simpl. intros [= Hx]. by eapply X1.
  - by rewrite (ps_ub _ _ _ Hs).
  - unfold p_mem. by rewrite (ms_mem _ _ (ps_m _ _ _ Hs)).
Qed.
Theorem C62_key_order ls p ev k : wf_gcalls ls -> pallowed code_orders ls p ev -> exists l, key_order k l (gcalls ls) ev.
Proof. intros Hwf Hp. destruct (plain_views _ _ _ Hwf Hp) as (q & Hq & _). by eapply C57_key_order. Qed.
Theorem C62_result_stays_valid ls p ev o res r : wf_gcalls ls -> pallowed code_orders ls p ev -> p_alive p o = true -> ERet o res ∈ ev -> r ∈ refs_of res -> usable (p_mem p) r.
Proof.
  intros Hwf Hp Ha Hr Hin. destruct (plain_views _ _ _ Hwf Hp) as (q & Hq & Hs). unfold p_mem. rewrite (ms_mem _ _ (ps_m _ _ _ Hs)). rewrite (alive_sim _ _ _ _ Hs) in Ha. by eapply C57_result_stays_valid.
Qed.

(** ** Where the calls have their pointers from *)
(** There is always an answer. *)
Section from.
Context (w : orders) (L : list (option xstep)).
Definition allocs_dec x l : {allocs x l} + {~ allocs x l}.
Proof. unfold allocs. apply and_dec; [apply (decide (l = m_next (x_mem x)))|apply (decide (m_next (x_after x) <> m_next (x_mem x)))]. Defined.
Definition loads_ptrb (x : xstep) (l : loc) : bool :=
  match x_acc w x with
  | Some (c, k, _) => match k with ALoad | AFetch => match read_cell (x_mem x) c with Some v => bool_decide (sh_loc v = Some l) | None => false end | _ => false end
  | None => false
  end.
Lemma loads_ptrb_spec x l : loads_ptrb x l = true <-> loads_ptr w x l.
Proof.
  unfold loads_ptrb, loads_ptr. destruct (x_acc w x) as [[[c k] ord]|]; [|split; [done|by intros (? & ? & ? & ? & ? & _)]]. split.
  - intros H. assert (k = ALoad \/ k = AFetch) as Hk by (destruct k; auto; done). exists c, k, ord. destruct (read_cell (x_mem x) c) as [v|] eqn:E; [|by destruct k]. exists v. split; [done|]. split; [done|]. split; [done|].
    destruct Hk as [-> | ->]; by apply bool_decide_eq_true in H.
  - intros (c' & k' & ord' & v & [= <- <- <-] & Hk & -> & Hv). destruct Hk as [-> | ->]; by apply bool_decide_eq_true.
Qed.
Definition stepb (t : nat) (f : xstep -> bool) : bool := match L !! t with Some (Some x) => f x | _ => false end.
Lemma stepb_spec t f : stepb t f = true <-> exists x, step_at L t x /\ f x = true.
Proof. unfold stepb, step_at. destruct (L !! t) as [[x|]|]; split; try done; [intros; by exists x|intros (y & [= <-] & ?); done|by intros (? & ? & _)..]. Qed.
Definition loadedb (o : opid) (l : loc) (t : nat) : bool := stepb t (fun x => bool_decide (x_call x = o) && loads_ptrb x l).
Lemma loadedb_spec o l t : loadedb o l t = true <-> loaded w L o t l.
Proof.
  unfold loadedb, loaded. rewrite stepb_spec. split; intros (x & H1 & H2); exists x; (split; [done|]).
  - apply andb_true_iff in H2 as [Ha Hb]. apply bool_decide_eq_true in Ha. split; [done|]. by apply loads_ptrb_spec.
  - destruct H2 as [Ha Hb]. apply andb_true_iff. split; [by apply bool_decide_eq_true|by apply loads_ptrb_spec].
Qed.
Definition find (f : nat -> bool) (n : nat) : option nat := fst <$> list_find (fun t => f t = true) (seq 0 n).
Lemma find_Some f n t : find f n = Some t -> t < n /\ f t = true.
Proof. unfold find. destruct (list_find _ _) as [[i y]|] eqn:E; [|done]. intros [= <-]. apply list_find_Some in E as (H & Hy & _). apply lookup_seq in H as [-> ?]. done. Qed.
Lemma find_None f n : find f n = None -> forall t, t < n -> f t <> true.
Proof. unfold find. destruct (list_find _ _) as [[i y]|] eqn:E; [done|]. intros _ t Ht. apply list_find_None in E. rewrite Forall_forall in E. apply E, elem_of_seq. lia. Qed.
Definition where_is (e : cev) : option (nat * nat) :=
  match e with
  | EInit l _ => (fun t => (t, 0)) <$> find (fun t => stepb t (fun x => if allocs_dec x l then true else false)) (length L)
  | EAcc t => Some (t, 1)
  | EUse t _ => Some (t, 2)
  end.
Definition from0 (e : cev) (l : loc) : option nat :=
  match where_is e with
  | Some (t, j) => match L !! t with Some (Some x) => find (loadedb (x_call x) l) (if 1 <? j then S t else t) | _ => None end
  | None => None
  end.
Lemma from0_ok : (forall t1 x1 t2 x2 l, step_at L t1 x1 -> step_at L t2 x2 -> allocs x1 l -> allocs x2 l -> t1 = t2) -> from_ok w L from0.
Proof.
  intros Hu e l o t j Hp. assert (where_is e = Some (t, j) /\ exists x, step_at L t x /\ x_call x = o) as [Hw (x & Hx & Ho)].
  { destruct Hp as [t x l' i Hx Ha|t x Hx Ha|t x l' Hx Ha]; (split; [|by exists x]); try done. simpl. destruct (find _ (length L)) as [t'|] eqn:E.
    - apply find_Some in E as [_ E]. apply stepb_spec in E as (x' & Hx' & E). destruct (allocs_dec x' l') as [Ha'|]; [|done]. simpl. by rewrite (Hu _ _ _ _ _ Hx' Hx Ha' Ha).
    - exfalso. eapply (find_None _ _ E t); [by eapply lookup_lt_Some|]. apply stepb_spec. exists x. split; [done|]. by destruct (allocs_dec x l'). }
  unfold from0. rewrite Hw. unfold step_at in Hx. rewrite Hx, Ho. assert (forall t', t' < (if 1 <? j then S t else t) <-> t' < t \/ t' = t /\ 1 < j) as Ht.
  { intros t'. destruct (Nat.ltb_spec 1 j); lia. }
  destruct (find _ _) as [t'|] eqn:E.
  - apply find_Some in E as [Hl E]. apply loadedb_spec in E. split; [done|]. by apply Ht.
  - right. intros t' Hl Hd. apply Ht in Hl. eapply find_None; [exact E|exact Hl|]. by apply loadedb_spec.
Qed.
End from.
Theorem C62_from_exists w ls p ev : pexec w ls p ev -> exists from, from_ok w (p_log p) from.
Proof. intros He. exists (from0 w (p_log p)). apply from0_ok. apply (wl_uniq _ _ (exec_wf _ _ _ _ He)). Qed.
End theorems.

(** ** Executions *)
(* 1. C57_example: call 5 reads an old value, and does not find key 1, that another thread has inserted. *)
Example C62_example : exists (ls : list (@glabel CN)) p ev, wf_gcalls ls /\ pallowed code_orders ls p ev /\ EInv 1%positive (OInsert (1, 7)%N) ∈ ev /\ (exists x, ERet 5%positive (ROpt x) ∈ ev /\ rr_val <$> x = None) /\
  exists from, from_ok code_orders (p_log p) from.
Proof.
  destruct C57_example as (ls & q & ev & Hwf & Ha & H1 & H2). destruct (views_plain _ _ _ Hwf Ha) as (p & Hp & _). exists ls, p, ev. exact (conj Hwf (conj Hp (conj H1 (conj H2 (C62_from_exists _ _ _ _ (proj1 Hp)))))).
Qed.
(* 2. C57_reclaims.  There are accesses to slots of nodes that another call has initialised, a step that looks into such a node, and one that hands it out. *)
Definition is_fail (x : option (@next CN * list (@act CN))) : bool := match x with Some (NFail _, _) => true | _ => false end.
Definition inits (L : list (option (@xstep CN))) (o : opid) (l : loc) : bool := existsb (fun y => match y with Some x => if bool_decide (x_call x = o) then false else if allocs_dec x l then true else false | None => false end) L.
Definition slot_of (x : @xstep CN) : option (loc * nat) := match x_acc code_orders x with Some (CSlot l i, _, _) => Some (l, i) | _ => None end.
Definition hands (x : @xstep CN) (l : loc) : bool := match outcome (x_mem x) x with Some (_, acts) => existsb (fun a => match a with AYield r => bool_decide (rr_loc r = l) | _ => false end) acts | None => false end.
Definition looks (x : @xstep CN) (l : loc) : bool := is_fail (outcome (with_body (x_mem x) l (BInner [])) x) && negb (is_fail (outcome (x_mem x) x)).
Definition anyx (L : list (option (@xstep CN))) (f : @xstep CN -> bool) : bool := existsb (fun y => match y with Some x => f x | None => false end) L.
Definition locs : list loc := [1; 2; 3; 4; 5; 6; 7; 8]%positive.
Definition ex_check (L : list (option (@xstep CN))) : bool :=
  anyx L (fun x => match slot_of x with Some (l, i) => inits L (x_call x) l | None => false end) && anyx L (fun x => existsb (fun l => if looks x l then inits L (x_call x) l else false) locs) && anyx L (fun x => existsb (fun l => if hands x l then inits L (x_call x) l else false) locs).
Lemma inits_spec L o l : inits L o l = true -> exists t x, step_at L t x /\ x_call x <> o /\ allocs x l.
Proof.
  intros H. apply existsb_exists in H as ([x|] & Hin & H); [|done]. apply elem_of_list_In, elem_of_list_lookup in Hin as [t Ht]. destruct (bool_decide _) eqn:H1; [done|]. apply bool_decide_eq_false in H1.
  exists t, x. split; [done|]. split; [done|]. by destruct (allocs_dec x l).
Qed.
Lemma anyx_spec L f : anyx L f = true -> exists t x, step_at L t x /\ f x = true.
Proof. intros H. apply existsb_exists in H as ([x|] & Hin & H); [|done]. apply elem_of_list_In, elem_of_list_lookup in Hin as [t Ht]. by exists t, x. Qed.
Definition of_other (L : list (option (@xstep CN))) (o : opid) (l : loc) : Prop := exists t x, step_at L t x /\ x_call x <> o /\ allocs x l.
Lemma ex_check_spec L : ex_check L = true ->
  (exists t x l i, step_at L t x /\ in_slot code_orders x l i /\ of_other L (x_call x) l) /\ (exists t x l, step_at L t x /\ looks_into x l /\ of_other L (x_call x) l) /\ (exists t x l, step_at L t x /\ hands_out x l /\ of_other L (x_call x) l).
Proof.
  intros H. apply andb_true_iff in H as [H H3]. apply andb_true_iff in H as [H1 H2]. apply anyx_spec in H1 as (t1 & x1 & S1 & H1). apply anyx_spec in H2 as (t2 & x2 & S2 & H2). apply anyx_spec in H3 as (t3 & x3 & S3 & H3). split; [|split].
  - unfold slot_of in H1. destruct (x_acc code_orders x1) as [[[[|l i] k] ord]|] eqn:A; try done. exists t1, x1, l, i. split; [done|]. split; [by exists k, ord|by apply inits_spec].
  - apply existsb_exists in H2 as (l & _ & H2). destruct (looks x2 l) eqn:H2'; [|done]. exists t2, x2, l. split; [done|]. split; [|by apply inits_spec]. apply andb_true_iff in H2' as [Ha Hb]. exists (BInner []). intros E. rewrite E in Ha. by rewrite Ha in Hb.
  - apply existsb_exists in H3 as (l & _ & H3). destruct (hands x3 l) eqn:H3'; [|done]. exists t3, x3, l. split; [done|]. split; [|by apply inits_spec]. unfold hands in H3'. destruct (outcome (x_mem x3) x3) as [[nx acts]|] eqn:E; [|done].
    apply existsb_exists in H3' as ([k|r] & Hin & Hr); [done|]. apply bool_decide_eq_true in Hr. exists nx, acts, r. split; [done|]. split; [done|]. right. by apply elem_of_list_In.
Qed.
Definition ex_ls : list (@glabel CN) := gtr ginit (fschedule code_orders reuse_end).
Definition ex_f (p : @pstate CN) : bool := ex_check (p_log p) && (length (m_freed (p_mem p)) =? 4).
Definition prun_check (ls : list (@glabel CN)) (f : @pstate CN -> bool) : bool := match prun code_orders pinit ls with Some (p, _) => f p | None => false end.
Definition grun_check (ls : list (@glabel CN)) : bool := match grun code_orders ginit ls with Some (s, ev) => true && gokb ls s && forallb gwfb ls | None => false end.
Lemma ex_run : prun_check ex_ls ex_f = true.
Proof. vm_compute. reflexivity. Qed.
Lemma ex_grun : grun_check ex_ls = true.
Proof. vm_compute. reflexivity. Qed.
Lemma ex_lift (ls : list (@glabel CN)) (f : @pstate CN -> bool) : prun_check ls f = true -> grun_check ls = true -> exists p ev, wf_gcalls ls /\ pallowed code_orders ls p ev /\ f p = true.
Proof.
  intros H H'. destruct (gexec_check ls (fun _ _ => true) H') as (q & ev & Ha & Hwf & _). destruct (views_plain _ _ _ Hwf Ha) as (p & Hp & _). exists p, ev. split; [exact Hwf|]. split; [exact Hp|].
  pose proof (proj1 Hp) as He. unfold pexec in He. unfold prun_check in H. rewrite He in H. exact H.
Qed.
Lemma ex_f_spec p : ex_f p = true -> length (m_freed (p_mem p)) = 4 /\ 
  (exists t x l i, step_at (p_log p) t x /\ in_slot code_orders x l i /\ of_other (p_log p) (x_call x) l) /\ (exists t x l, step_at (p_log p) t x /\ looks_into x l /\ of_other (p_log p) (x_call x) l) /\
  (exists t x l, step_at (p_log p) t x /\ hands_out x l /\ of_other (p_log p) (x_call x) l).
Proof. intros H. apply andb_true_iff in H as [H1 H2]. apply Nat.eqb_eq in H2. exact (conj H2 (ex_check_spec _ H1)). Qed.
Example C62_races_example : exists (ls : list (@glabel CN)) p ev, (wf_gcalls ls /\ pallowed code_orders ls p ev) /\ length (m_freed (p_mem p)) = 4 /\
  (exists t x l i, step_at (p_log p) t x /\ in_slot code_orders x l i /\ of_other (p_log p) (x_call x) l) /\ (exists t x l, step_at (p_log p) t x /\ looks_into x l /\ of_other (p_log p) (x_call x) l) /\
  (exists t x l, step_at (p_log p) t x /\ hands_out x l /\ of_other (p_log p) (x_call x) l).
Proof.
  exact (match ex_lift ex_ls ex_f ex_run ex_grun with ex_intro _ p (ex_intro _ ev (conj Hwf (conj Hp Hf))) => ex_intro _ ex_ls (ex_intro _ p (ex_intro _ ev (conj (conj Hwf Hp) (ex_f_spec p Hf)))) end).
Qed.

Print Assumptions C62_initialised_before_access.
Print Assumptions C62_initialised_before_use.
Print Assumptions C62_initialised_once.
Print Assumptions C62_hb_order.
Print Assumptions C62_hb_irreflexive.
Print Assumptions C62_same_executions.
Print Assumptions C62_no_failure.
Print Assumptions C62_key_order.
Print Assumptions C62_result_stays_valid.
Print Assumptions C62_from_exists.
