(** * C57: the C11 axioms. *)
From Verif Require Import Model Mem Spec Iter IterSpec IterSys Weak WeakInv WeakStep WeakSys WeakRun LinSpec Inv WeakCoh WeakWalk WeakTime WeakBase WeakLin PropWeak Concrete PropCoh WeakFree FreeSim FreeStep FreeInv FreeRun PropFree Rc11 Rc11Sim Rc11Conv.

Section theorems.
Context {C : Config} {HC : ConfigOk C}.
Implicit Types (s : gstate) (ev : list event).

(** Every execution that the axioms allow is one of the machine of WeakFree.v, with the same calls, the same result and the same observations. *)
Theorem C57_covered ls s ev : wf_gcalls ls -> allowed code_orders ls s ev ->
  exists fls f, fexec code_orders fls f ev /\ wf_fcalls fls /\ c_w (f_c f) = g_w s /\ (forall o, f_alive f o = g_alive s o) /\ forall o op ps ds, FInv o op ps ds ∈ fls <-> GInv o op ps ds ∈ ls.
Proof.
  intros Hwf Ha. destruct (covered _ _ _ Hwf Ha) as (fls & f & H1 & H2 & H3 & H4 & _ & _ & _ & _ & H5). exists fls, f. split; [done|]. split; [done|]. split; [done|]. split; [|done].
  intros o. unfold f_alive, g_alive. by rewrite H3, H4.
Qed.

(** No call ever uses a node that has been freed or is not initialised, or fails in another way, and nothing is freed twice. *)
Theorem C57_no_use_after_free ls s ev : wf_gcalls ls -> allowed code_orders ls s ev ->
  (forall o x op f, w_ops (g_w s) !! o = Some x -> w_st x <> SFail op f) /\ g_ub s = false /\ NoDup (m_freed (g_mem s)).*1.
Proof.
  intros Hwf Ha. destruct (covered _ _ _ Hwf Ha) as (fls & f & H1 & H2 & H3 & H4 & _ & _ & Hu & _ & H5). destruct (C46_no_use_after_free _ _ _ H2 H1) as (X1 & X2 & X3).
  unfold f_mem in *. unfold g_mem. rewrite H3 in X1, X3. split; [done|]. split; [congruence|done].
Qed.

(** What a call has returned can be used as long as its guard is alive. *)
Theorem C57_result_stays_valid ls s ev o res r : wf_gcalls ls -> allowed code_orders ls s ev -> g_alive s o = true -> ERet o res ∈ ev -> r ∈ refs_of res -> usable (g_mem s) r.
Proof.
  intros Hwf Ha Hal Hr Hin. destruct (C57_covered _ _ _ Hwf Ha) as (fls & f & H1 & H2 & H3 & H4 & H5). unfold g_mem. rewrite <-H3. eapply (C47_result_stays_valid fls f ev o); [done|done|by rewrite H4|done|done].
Qed.
Theorem C57_yield_stays_valid ls s ev o r : wf_gcalls ls -> allowed code_orders ls s ev -> g_alive s o = true -> EInv o OIter ∈ ev -> EYield o r ∈ ev -> usable (g_mem s) r.
Proof.
  intros Hwf Ha Hal Hr Hin. destruct (C57_covered _ _ _ Hwf Ha) as (fls & f & H1 & H2 & H3 & H4 & H5). unfold g_mem. rewrite <-H3. eapply (C47_yield_stays_valid fls f ev o); [done|done|by rewrite H4|done|done].
Qed.

(** The calls on each key can be put in one order that explains all their results, and respects what happens before what. *)
Theorem C57_key_order ls s ev k : wf_gcalls ls -> allowed code_orders ls s ev -> exists l, key_order k l (gcalls ls) ev.
Proof.
  intros Hwf Ha. destruct (C57_covered _ _ _ Hwf Ha) as (fls & f & H1 & H2 & _ & _ & H5). destruct (C49_key_order _ _ _ k H2 H1) as [l [K1 K2 K3 K4 K5 K6 K7]]. exists l. split; try done.
  intros o1 o2 X1 X2 Hh. apply K7; [done|done|]. eapply hb_same; [|exact Hh]. intros o op ps. unfold gcalls, calls_of. rewrite !elem_of_list_omap. split.
  - intros (lb & Hin & E). destruct lb as [o' op' ps' ds| | | | |]; simplify_eq. exists (FInv o op ps ds). split; [by apply H5|done].
  - intros (lb & Hin & E). destruct lb as [o' op' ps' ds| | | | |]; simplify_eq. exists (GInv o op ps ds). split; [by apply H5|done].
Qed.
(** Whatever the callers see, they could have seen with the same calls on the machine of WeakCoh.v: so what is said in C41 to C45 holds here too. *)
Theorem C57_unobservable ls s ev : wf_gcalls ls -> allowed code_orders ls s ev ->
  exists (ls' : list clabel) (s' : cstate), cexec code_orders ls' s' ev /\ wf_ccalls ls' /\ forall o op ps, CInv o op ps ∈ ls' <-> exists ds, GInv o op ps ds ∈ ls.
Proof.
  intros Hwf Ha. destruct (C57_covered _ _ _ Hwf Ha) as (fls & f & H1 & H2 & _ & _ & H5). destruct (C49_unobservable _ _ _ H2 H1) as (ls' & s' & X1 & X2 & X3). exists ls', s'. split; [done|]. split; [done|].
  intros o op ps. rewrite X3. split; intros [ds Hd]; exists ds; by apply H5.
Qed.
(** Conversely, the axioms allow whatever that machine does.  So, for given calls, what the callers can see is exactly the same. *)
Theorem C57_exact (ev : list event) (Q : opid -> oper -> list opid -> Prop) :
  (exists ls s, wf_gcalls ls /\ allowed code_orders ls s ev /\ forall o op ps, (exists ds, GInv o op ps ds ∈ ls) <-> Q o op ps) <->
  (exists (ls : list clabel) (s : cstate), wf_ccalls ls /\ cexec code_orders ls s ev /\ forall o op ps, CInv o op ps ∈ ls <-> Q o op ps).
Proof.
  split.
  - intros (ls & s & Hwf & Ha & HQ). destruct (C57_unobservable _ _ _ Hwf Ha) as (ls' & s' & H1 & H2 & H3). exists ls', s'. split; [done|]. split; [done|]. intros o op ps. by rewrite H3.
  - intros (ls & s & Hwf & Ha & HQ). destruct (conv_allowed _ _ _ Hwf Ha) as (ls' & s' & H1 & H2 & _ & H3). exists ls', s'. split; [done|]. split; [done|]. intros o op ps. by rewrite H3.
Qed.
End theorems.

(** ** Graphs that satisfy the axioms *)
(* 1. Without reclamation: by [C57_exact].  Call 5 reads an old value, and does not find key 1, that another thread has inserted. *)
Example C57_example : exists (ls : list (@glabel CN)) s ev, wf_gcalls ls /\ allowed code_orders ls s ev /\ EInv 1%positive (OInsert (1, 7)%N) ∈ ev /\ (exists x, ERet 5%positive (ROpt x) ∈ ev /\ rr_val <$> x = None).
Proof.
  destruct C43_example as (ls & s & ev & old & r & Hwf & He & H1 & _ & _ & _ & _ & _ & H2). destruct (conv_allowed _ _ _ Hwf He) as (ls' & s' & H3 & H4 & _ & _). exists ls', s', ev. exact (conj H4 (conj H3 (conj H1 H2))).
Qed.

(* 2. With reclamation: an execution in which every access reads the newest value can be checked by computation. *)
Section check.
Context {C : Config}.
Definition accs (L : list (option acc)) : list (nat * acc) := omap (fun x => match x.2 with Some a => Some (x.1, a) | None => None end) (imap pair L).
Definition index (who : list gev) (e : gev) : nat := match list_find (fun x => x = e) who with Some (n, _) => n | None => 0 end.
Definition writesb (L : list (option acc)) (c : cell) (e : gev) : bool :=
  match e with Init c' => bool_decide (c' = c) | At t => match L !! t with Some (Some x) => bool_decide (a_cell x = c) && a_wr x | _ => false end end.
Definition gokb (ls : list (@glabel C)) (s : @gstate C) : bool :=
  let L := g_log s in let who := g_who s in let A := accs L in
  forallb (fun tx => let c := a_cell (tx.2) in bool_decide (NoDup (who c)) && bool_decide (head (who c) = Some (Init c)) && forallb (writesb L c) (who c)) A &&
  forallb (fun tx => let c := a_cell (tx.2) in let n := index (who c) (a_rf tx.2) in bool_decide (who c !! n = Some (a_rf tx.2)) && (negb (a_wr tx.2) || bool_decide (who c !! S n = Some (At tx.1)))) A &&
  forallb (fun tx => forallb (fun uy => negb (bool_decide (tx.1 < uy.1)) || negb (bool_decide (a_cell tx.2 = a_cell uy.2)) ||
    bool_decide (index (who (a_cell tx.2)) (latest tx.1 tx.2) <= index (who (a_cell uy.2)) (a_rf uy.2))) A) A &&
  forallb (fun tl => match tl.2 with GInv _ _ _ ds => forallb (fun d => match g_regs s !! d with Some r => bool_decide (r.2 < tl.1) | None => true end) ds | _ => true end) (imap pair ls).
Lemma elem_of_accs L t x : (t, x) ∈ accs L <-> access_at L t x.
Proof.
  unfold accs, access_at. rewrite elem_of_list_omap. split.
  - intros ([i o] & Hin & E). apply elem_of_lookup_imap in Hin as (j & y & [= -> ->] & Hj). simpl in E. destruct y; [|done]. by injection E as -> ->.
  - intros H. exists (t, Some x). split; [|done]. apply elem_of_lookup_imap. by exists t, (Some x).
Qed.
Lemma index_spec who i e : NoDup who -> who !! i = Some e -> index who e = i.
Proof.
  intros Hn Hi. unfold index. destruct (list_find (fun x => x = e) who) as [[j y]|] eqn:E.
  - apply list_find_Some in E as (H1 & -> & _). by eapply NoDup_lookup.
  - apply list_find_None in E. rewrite Forall_forall in E. exfalso. eapply E; [by eapply elem_of_list_lookup_2|done].
Qed.
Lemma gokb_spec ls s : gokb ls s = true -> gok ls (g_log s) (g_regs s) (fun c => if bool_decide (c ∈ (fun tx => a_cell (tx.2)) <$> accs (g_log s)) then g_who s c else []) lt.
Proof.
  unfold gokb. intros H. apply andb_true_iff in H as [H H4]. apply andb_true_iff in H as [H H3]. apply andb_true_iff in H as [H1 H2]. rewrite forallb_forall in H1, H2, H3, H4.
  assert (forall c, c ∈ (fun tx => a_cell (tx.2)) <$> accs (g_log s) -> NoDup (g_who s c) /\ head (g_who s c) = Some (Init c) /\ forallb (writesb (g_log s) c) (g_who s c) = true) as Hc.
  { intros c ((t & x) & -> & Hin)%elem_of_list_fmap. apply elem_of_list_In, H1 in Hin. cbn [fst snd] in *. apply andb_true_iff in Hin as [Hin ?]. apply andb_true_iff in Hin as [Ha Hb]. apply bool_decide_eq_true in Ha, Hb. done. }
  assert (forall t x, access_at (g_log s) t x -> a_cell x ∈ (fun tx => a_cell (tx.2)) <$> accs (g_log s)) as Hin. { intros t x Hx. apply elem_of_list_fmap. exists (t, x). split; [done|]. by apply elem_of_accs. }
  split.
  - intros c. destruct (bool_decide _) eqn:E; [|apply NoDup_nil_2]. apply bool_decide_eq_true in E. by apply Hc.
  - intros c e. destruct (bool_decide _) eqn:E; [|done]. apply bool_decide_eq_true in E. destruct (Hc _ E) as (_ & Hh & _). intros He. destruct (g_who s c); [done|]. simpl in *. congruence.
  - intros c i e. destruct (bool_decide _) eqn:E; [|done]. apply bool_decide_eq_true in E. destruct (Hc _ E) as (_ & _ & Hh). intros He. rewrite forallb_forall in Hh. apply elem_of_list_lookup_2, elem_of_list_In, Hh in He.
    destruct e as [c'|t]; simpl in He; [by apply bool_decide_eq_true in He|]. destruct (g_log s !! t) as [[x|]|] eqn:Et; try done. apply andb_true_iff in He as [Ea Eb]. apply bool_decide_eq_true in Ea. by exists x.
  - intros t x Hx. rewrite bool_decide_eq_true_2 by (by eapply Hin). apply elem_of_accs, elem_of_list_In, H2 in Hx. cbn [fst snd] in Hx. apply andb_true_iff in Hx as [Ha Hb]. apply bool_decide_eq_true in Ha.
    exists (index (g_who s (a_cell x)) (a_rf x)). split; [done|]. intros Ew. rewrite Ew in Hb. cbn [negb orb] in Hb. by apply bool_decide_eq_true in Hb.
  - intros t1 t2 [t3 t4 o E1 E2 E3|t3 t4 o op ps ds p E1 E2 E3 E4|t3 t4 o op ps ds d l k E1 E2 E3]; [done|done|]. assert ((t4, GInv o op ps ds) ∈ imap pair ls) as Hx by (apply elem_of_lookup_imap; by exists t4, (GInv o op ps ds)).
    apply elem_of_list_In, H4 in Hx. cbn [fst snd] in Hx. rewrite forallb_forall in Hx. apply elem_of_list_In, Hx in E2. rewrite E3 in E2. by apply bool_decide_eq_true in E2.
  - intros. lia.
  - intros t1 t2 x y i n Hlt Hx Hy Ec. rewrite !bool_decide_eq_true_2 by (by eapply Hin). intros Hi Hn. destruct (Hc _ (Hin _ _ Hx)) as [Hnd _]. destruct (Hc _ (Hin _ _ Hy)) as [Hnd' _].
    rewrite <-(index_spec _ _ _ Hnd Hi), <-(index_spec _ _ _ Hnd' Hn). apply elem_of_accs, elem_of_list_In in Hx, Hy. specialize (H3 _ Hx). cbn beta in H3. rewrite forallb_forall in H3. specialize (H3 _ Hy). cbn [fst snd] in H3.
    rewrite (bool_decide_eq_true_2 (t1 < t2)), (bool_decide_eq_true_2 (a_cell x = a_cell y)) in H3 by done. cbn [negb orb] in H3. by apply bool_decide_eq_true in H3.
Qed.
End check.

(* The steps of the machine of WeakFree.v, as a graph. *)
Definition gtr1 (s : @gstate CN) (lb : @flabel CN) : @glabel CN :=
  match lb with
  | FInv o op ps ds => GInv o op ps ds
  | FStep o n spur a => GStep o (match next_cell code_orders (g_w s) o with Some c => default (Init CRoot) (g_who s c !! n) | None => Init CRoot end) spur a
  | FUnpin o => GUnpin o | FAbort o => GAbort o | FFree i => GFree i | FDrop => GDrop
  end.
Fixpoint gtr (s : @gstate CN) (fls : list (@flabel CN)) : list (@glabel CN) :=
  match fls with [] => [] | lb :: fls => gtr1 s lb :: match gstep code_orders s (gtr1 s lb) with Some (s', _) => gtr s' fls | None => [] end end.
Definition gwfb (lb : @glabel CN) : bool := match lb with GInv _ (OGetOrInsert k f) _ _ => keqb (keyof (f k)) k | _ => true end.
Lemma gexec_check (ls : list (@glabel CN)) (f : @gstate CN -> list (@event CN) -> bool) :
  match grun code_orders ginit ls with Some (s, ev) => f s ev && gokb ls s && forallb gwfb ls | None => false end = true -> exists s ev, allowed code_orders ls s ev /\ wf_gcalls ls /\ f s ev = true.
Proof.
  intros H. destruct (grun code_orders ginit ls) as [[s ev]|] eqn:E; [|done]. apply andb_true_iff in H as [H H3]. apply andb_true_iff in H as [H1 H2]. exists s, ev.
  split; [split; [exact E|]; eexists _, _; apply ok_consistent, gokb_spec, H2|]. split; [|done]. intros o op ps ds Hin. rewrite forallb_forall in H3. apply elem_of_list_In in Hin. apply H3 in Hin. by destruct op.
Qed.

(* The execution of [C48_ex]: nodes are freed while an iterator is at work, an address is used again, and at the end the map is dropped and everything is freed. *)
Example C57_reclaims : exists (ls : list (@glabel CN)) s ev, allowed code_orders ls s ev /\ wf_gcalls ls /\ g_dropped s = true /\ length (m_freed (g_mem s)) = 4 /\ exists x, EYield 4%positive x ∈ ev /\ rr_val x = (5%N, 8%N).
Proof.
  destruct (gexec_check (gtr ginit (fschedule code_orders reuse_end)) (fun s ev => g_dropped s && (length (m_freed (g_mem s)) =? 4) &&
    existsb (fun e : @event CN => match e with EYield o x => bool_decide (o = 4%positive /\ rr_val x = (5%N, 8%N)) | _ => false end) ev)) as (s & ev & Ha & Hwf & Hf); [vm_compute; reflexivity|].
  eexists _, s, ev. split; [exact Ha|]. split; [exact Hwf|]. clear Ha Hwf. apply andb_true_iff in Hf as [Hf Hy]. apply andb_true_iff in Hf as [Hf1 Hf2]. apply Nat.eqb_eq in Hf2. split; [exact Hf1|]. split; [exact Hf2|].
  apply existsb_exists in Hy as (e & Hin & Hy). destruct e as [| | |o x]; try discriminate. apply bool_decide_eq_true in Hy as [-> Hx]. exists x. split; [by apply elem_of_list_In|done].
Qed.

Print Assumptions C57_covered.
Print Assumptions C57_no_use_after_free.
Print Assumptions C57_result_stays_valid.
Print Assumptions C57_yield_stays_valid.
Print Assumptions C57_key_order.
Print Assumptions C57_unobservable.
Print Assumptions C57_exact.
