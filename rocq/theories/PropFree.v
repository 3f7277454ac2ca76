(** * C46 to C49: weakly ordered memory in which nodes are really freed and addresses are used again *)
From Verif Require Import Model Mem Spec Iter IterSpec IterSys Concrete Weak WeakInv WeakStep WeakSys WeakRun LinSpec WeakCoh WeakBase WeakLin PropWeak WeakFree FreeSim FreeStep FreeInv FreeRun.

Section theorems.
Context {C : Config} {HC : ConfigOk C}.
Implicit Types (ls : list flabel) (s : fstate) (ev : list event).

(** C46.  No call ever follows a pointer to freed memory (or panics), and neither the collector nor the destructor frees anything twice or runs into a freed node:
    whatever old values are read, in whatever order destructions are run, and whatever addresses the allocator uses again. *)
Theorem C46_no_use_after_free ls s ev : wf_fcalls ls -> fexec code_orders ls s ev ->
  (forall o x op f, w_ops (c_w (f_c s)) !! o = Some x -> w_st x <> SFail op f) /\ f_ub s = false /\ NoDup (m_freed (f_mem s)).*1.
Proof.
  intros Hwf He. destruct (fexec_inv _ _ _ _ code_strong Hwf He) as (M & H & N & pos & ll & b & Hc & I & _). split; [|split; [apply I|apply I]].
  intros o x op f Hx E. rewrite <-(ws_ops _ _ (cs_w _ _ (fi_sim _ _ _ _ _ _ _ _ I))) in Hx. pose proof (b_ops _ _ _ _ _ _ _ (fi_b _ _ _ _ _ _ _ _ I) _ _ Hx) as Hb. by rewrite E in Hb.
Qed.

(** C47.  What a call returned, and what an iterator yielded, can be used as long as the guard is alive: it is not freed, and it is still the same element. *)
Definition usable (m : mem) (r : rref) : Prop :=
  rr_loc r ∉ (m_freed m).*1 /\ exists a it, m_heap m !! rr_loc r = Some (HObj a (BData it)) /\ it !! rr_idx r = Some (rr_val r).

Lemma usable_ref M H N pos ll b ev s o x y r : finv M H N pos ll b ev s -> w_ops (c_w (f_c s)) !! o = Some x -> o ∉ f_gone s -> y ∈ stptr (w_st x) -> y.1 = rr_loc r ->
  (exists it, hbody (w_mem (c_w b)) (rr_loc r) = Some (BData it) /\ it !! rr_idx r = Some (rr_val r)) -> usable (f_mem s) r.
Proof.
  intros I Hx Hg Hy E (it & Hb & Hi). destruct (fi_alive _ _ _ _ _ _ _ _ I _ _ Hx Hg) as (_ & _ & _ & Hp). destruct (pok_here _ _ _ _ _ _ _ _ I _ _ _ _ Hx Hg (Hp _ Hy)) as [Hf _]. rewrite E in Hf. split.
  - by apply bool_decide_eq_false in Hf.
  - unfold hbody in Hb. rewrite (ws_mem _ _ (cs_w _ _ (fi_sim _ _ _ _ _ _ _ _ I))), bm_heap in Hb. unfold f_mem. destruct (m_heap (w_mem (c_w (f_c s))) !! rr_loc r) as [[a bo]|]; [|done]. simpl in Hb. injection Hb as ->. by exists a, it.
Qed.

Theorem C47_result_stays_valid ls s ev o res r : wf_fcalls ls -> fexec code_orders ls s ev -> f_alive s o = true -> ERet o res ∈ ev -> r ∈ refs_of res -> usable (f_mem s) r.
Proof.
  intros Hwf He Ha Hr Hin. destruct (fexec_inv _ _ _ _ code_strong Hwf He) as (M & H & N & pos & ll & b & Hc & I & _). apply bool_decide_eq_true in Ha as [_ Hg]. pose proof (fi_b _ _ _ _ _ _ _ _ I) as B.
  destruct (b_evr _ _ _ _ _ _ _ B _ _ Hr) as (op & tv & pv & Ho). destruct (wi_ops _ (b_winv _ _ _ _ _ _ _ B) _ _ Ho) as [_ Hst]. simpl in Hst. rewrite Forall_forall in Hst. destruct (Hst _ Hin) as [_ Hd].
  rewrite (ws_ops _ _ (cs_w _ _ (fi_sim _ _ _ _ _ _ _ _ I))) in Ho. eapply (usable_ref _ _ _ _ _ _ _ _ _ _ (rr_loc r, true) r I Ho Hg); [|done|exact Hd].
  cbn [w_st stptr]. destruct res as [[x|]|e| |ys]; cbn [refs_of resptr optr] in *.
  - apply elem_of_list_singleton in Hin as ->. by left.
  - by apply elem_of_nil in Hin.
  - destruct e; apply elem_of_list_singleton in Hin as ->; by left.
  - by apply elem_of_nil in Hin.
  - apply elem_of_list_bind. exists r. split; [by left|done].
Qed.

Theorem C47_yield_stays_valid ls s ev o r : wf_fcalls ls -> fexec code_orders ls s ev -> f_alive s o = true -> EInv o OIter ∈ ev -> EYield o r ∈ ev -> usable (f_mem s) r.
Proof.
  intros Hwf He Ha Hi Hy. destruct (fexec_inv _ _ _ _ code_strong Hwf He) as (M & H & N & pos & ll & b & Hc & I & _). apply bool_decide_eq_true in Ha as [_ Hg]. pose proof (fi_b _ _ _ _ _ _ _ _ I) as B.
  destruct (b_evi _ _ _ _ _ _ _ B _ _ Hi) as (x & Hx & Hop). destruct (wi_ops _ (b_winv _ _ _ _ _ _ _ B) _ _ Hx) as [_ Hst]. pose proof (b_ops _ _ _ _ _ _ _ B _ _ Hx) as Hb. apply elem_of_yields in Hy.
  assert (exists it, hbody (w_mem (c_w b)) (rr_loc r) = Some (BData it) /\ it !! rr_idx r = Some (rr_val r)) as Hd.
  { destruct (w_st x) as [op p|op res|op f|]; simpl in Hop, Hb; try done; injection Hop as ->.
    - destruct Hb as (_ & _ & _ & _ & _ & Hb). specialize (Hb eq_refl). destruct p; try (rewrite Hb in Hy; by apply elem_of_nil in Hy). destruct Hb as [_ Hb]. rewrite Hb in Hy. destruct Hst as [_ Hst]. rewrite Forall_forall in Hst. by apply Hst.
    - destruct Hb as (_ & _ & Hb). destruct (Hb eq_refl) as (out & -> & E & _). rewrite E in Hy. simpl in Hst. rewrite Forall_forall in Hst. by apply Hst. }
  assert ((rr_loc r, true) ∈ stptr (w_st x)) as Hptr.
  { destruct (w_st x) as [op p|op res|op f|]; simpl in Hop, Hb; try done; injection Hop as ->.
    - destruct Hb as (_ & _ & _ & _ & _ & Hb). specialize (Hb eq_refl). destruct p; try (rewrite Hb in Hy; by apply elem_of_nil in Hy). destruct Hb as [_ Hb]. rewrite Hb in Hy. cbn [stptr pptr]. apply elem_of_app. right.
      apply elem_of_list_bind. exists r. split; [by left|done].
    - destruct Hb as (_ & _ & Hb). destruct (Hb eq_refl) as (out & -> & E & _). rewrite E in Hy. cbn [stptr resptr]. apply elem_of_list_bind. exists r. split; [by left|done]. }
  rewrite (ws_ops _ _ (cs_w _ _ (fi_sim _ _ _ _ _ _ _ _ I))) in Hx. by eapply (usable_ref _ _ _ _ _ _ _ _ _ _ (rr_loc r, true) r I Hx Hg).
Qed.

(** C48.  Nothing is leaked: once the map is dropped and the registered destructions have been run, everything that was ever allocated is freed, exactly once. *)
Theorem C48_no_leak ls s ev : wf_fcalls ls -> fexec code_orders ls s ev -> f_dropped s = true -> (forall i, i < length (f_regs s) -> i ∈ f_done s) ->
  NoDup (m_freed (f_mem s)).*1 /\ forall l, is_Some (m_heap (f_mem s) !! l) <-> l ∈ (m_freed (f_mem s)).*1.
Proof.
  intros Hwf He Hd Hall. destruct (fexec_inv _ _ _ _ code_strong Hwf He) as (M & H & N & pos & ll & b & Hc & I & _). split; [apply I|]. intros l. split.
  - intros Hl. destruct (fi_left _ _ _ _ _ _ _ _ I Hd _ Hl) as [Hf|Hf]; [by apply elem_of_freed|]. apply elem_of_list_fmap in Hf as (g & -> & Hg). apply elem_of_list_lookup in Hg as [i Hi].
    apply elem_of_freed. eapply (fi_run _ _ _ _ _ _ _ _ I i g); [|done]. apply Hall. by eapply lookup_lt_Some.
  - intros Hl. apply (fi_heapd _ _ _ _ _ _ _ _ I). by apply elem_of_freed.
Qed.

(** And the collector can get there: after the map is dropped nothing stops it. *)
Lemma all_alive_true s P : (forall o x, w_ops (c_w (f_c s)) !! o = Some x -> o ∈ f_gone s) -> all_alive s P = true.
Proof.
  intros Hx. unfold all_alive. apply forallb_forall. intros [o x] Hin. apply elem_of_list_In, elem_of_map_to_list in Hin. simpl. rewrite bool_decide_eq_true_2; [done|]. by eapply Hx.
Qed.
Lemma frun_app (w : orders) s l1 s1 e1 l2 s2 e2 : frun w s l1 = Some (s1, e1) -> frun w s1 l2 = Some (s2, e2) -> frun w s (l1 ++ l2) = Some (s2, e1 ++ e2).
Proof.
  revert s e1. induction l1 as [|lb l1 IH]; intros s e1 H1 H2; cbn [frun app] in *; [by injection H1 as <- <-|]. destruct (fstep w s lb) as [[s3 e3]|]; [|done]. destruct (frun w s3 l1) as [[s4 e4]|] eqn:E; [|done]. injection H1 as <- <-.
  rewrite (IH _ _ E H2). by rewrite app_assoc.
Qed.
Lemma collect_n (w : orders) n s : (forall o x, w_ops (c_w (f_c s)) !! o = Some x -> o ∈ f_gone s) -> n <= length (f_regs s) ->
  exists ls s', frun w s ls = Some (s', []) /\ wf_fcalls ls /\ w_ops (c_w (f_c s')) = w_ops (c_w (f_c s)) /\ f_gone s' = f_gone s /\ f_regs s' = f_regs s /\ f_dropped s' = f_dropped s /\ (forall i, i < n -> i ∈ f_done s').
Proof.
  intros Hg. induction n as [|n IH]; intros Hn. { exists [], s. split; [done|]. split; [by intros o op ps ds ?%elem_of_nil|]. repeat (split; [done|]). intros i Hi. lia. }
  destruct IH as (ls & s1 & Hr & Hwf & E1 & E2 & E3 & E4 & H1); [lia|]. destruct (decide (n ∈ f_done s1)) as [Hin|Hin].
  { exists ls, s1. repeat (split; [done|]). intros i Hi. destruct (decide (i = n)) as [->|]; [done|]. apply H1. lia. }
  destruct (lookup_lt_is_Some_2 (f_regs s1) n) as [g Eg]; [rewrite E3; lia|].
  eexists (ls ++ [FFree n]), _. split.
  { change (@nil (@event C)) with ([] ++ [] : list (@event C)). eapply frun_app; [exact Hr|]. cbn [frun fstep]. rewrite Eg, bool_decide_eq_true_2 by done. rewrite all_alive_true; [reflexivity|]. intros o x. rewrite E1, E2. apply Hg. }
  split; [intros o op ps ds [Hx|Hx%elem_of_list_singleton]%elem_of_app; [by eapply Hwf|done]|]. cbn [f_c set_mem c_w w_ops f_gone f_regs f_dropped f_done]. repeat (split; [done|]).
  intros i Hi. destruct (decide (i = n)) as [->|]; [by left|]. right. apply H1. lia.
Qed.
Theorem C48_collector_finishes ls s ev : wf_fcalls ls -> fexec code_orders ls s ev -> f_dropped s = true ->
  exists ls' s', fexec code_orders (ls ++ ls') s' ev /\ wf_fcalls (ls ++ ls') /\ f_dropped s' = true /\ (forall i, i < length (f_regs s') -> i ∈ f_done s').
Proof.
  intros Hwf He Hd. destruct (fexec_inv _ _ _ _ code_strong Hwf He) as (M & H & N & pos & ll & b & Hc & I & _).
  destruct (collect_n code_orders (length (f_regs s)) s) as (ls' & s' & Hr & Hwf' & _ & _ & E3 & E4 & Hall); [|done|].
  { intros o x Hx. destruct (decide (o ∈ f_gone s)) as [|Hn]; [done|]. destruct (fi_alive _ _ _ _ _ _ _ _ I _ _ Hx Hn) as [E _]. congruence. }
  exists ls', s'. split; [unfold fexec; rewrite <-(app_nil_r ev); by eapply frun_app|]. split; [intros o op ps ds [Hx|Hx]%elem_of_app; [by eapply Hwf|by eapply Hwf']|]. split; [congruence|]. by rewrite E3.
Qed.
(** When every guard has been dropped, the map can be dropped. *)
Theorem C48_drop_possible ls s ev : wf_fcalls ls -> fexec code_orders ls s ev -> f_dropped s = false -> (forall o, f_alive s o = false) ->
  exists s', fexec code_orders (ls ++ [FDrop]) s' ev /\ f_dropped s' = true.
Proof.
  intros Hwf He Hd Hg. assert (all_alive s (fun _ => false) = true) as Ha.
  { apply all_alive_true. intros o x Hx. specialize (Hg o). apply bool_decide_eq_false in Hg. destruct (decide (o ∈ f_gone s)) as [|Hn]; [done|]. exfalso. apply Hg. split; [by eexists|done]. }
  assert (exists s', frun code_orders s [FDrop] = Some (s', []) /\ f_dropped s' = true) as (s' & Hr & Hd').
  { cbn [frun fstep]. rewrite Hd, Ha. cbn [negb andb]. destruct (drop_rec (MAX_LEVELS + 2) (f_mem s) (m_root (f_mem s))); eexists; (split; [reflexivity|done]). }
  exists s'. split; [|done]. unfold fexec. rewrite <-(app_nil_r ev). by eapply frun_app.
Qed.

(** C49.  The callers cannot tell that memory is reclaimed: whatever they see, they could have seen with the same calls on a machine that never frees anything.
    So everything that is said in C41 to C45 holds here too. *)
Theorem C49_unobservable ls s ev : wf_fcalls ls -> fexec code_orders ls s ev ->
  exists (ls' : list clabel) (s' : cstate), cexec code_orders ls' s' ev /\ wf_ccalls ls' /\ forall o op ps, CInv o op ps ∈ ls' <-> exists ds, FInv o op ps ds ∈ ls.
Proof.
  intros Hwf He. destruct (fexec_inv _ _ _ _ code_strong Hwf He) as (M & H & N & pos & ll & b & Hc & I & Hs).
  assert (forall o op ps, CInv o op ps ∈ ll <-> exists ds, FInv o op ps ds ∈ ls) as Hx.
  { intros o op ps. rewrite (Hs o op ps). unfold calls_of. rewrite elem_of_list_omap. split.
    - intros (lb & Hin & E). destruct lb; simplify_eq. by eexists.
    - intros (ds & Hin). by exists (FInv o op ps ds). }
  exists ll, b. split; [done|]. split; [|done]. intros o op ps Hin. apply Hx in Hin as [ds Hin]. by eapply Hwf.
Qed.

Lemma hb_same (l1 l2 : list clabel) o1 o2 : same_inv l1 l2 -> hb l1 o1 o2 -> hb l2 o1 o2.
Proof. intros Hs. induction 1 as [o1 o2 op ps Hi Hp|o1 o2 o3 _ IH1 _ IH2]; [eapply hb_direct; [by apply Hs|done]|by eapply hb_trans]. Qed.
Theorem C49_key_order ls s ev k : wf_fcalls ls -> fexec code_orders ls s ev -> exists l, key_order k l (calls_of ls) ev.
Proof.
  intros Hwf He. destruct (fexec_inv _ _ _ _ code_strong Hwf He) as (M & H & N & pos & ll & b & Hc & I & Hs).
  assert (wf_ccalls ll) as Hwf'. { intros o op ps Hin. apply Hs in Hin. unfold calls_of in Hin. apply elem_of_list_omap in Hin as (lb & Hin & E). destruct lb; simplify_eq. by eapply Hwf. }
  destruct (key_order_exec _ _ _ _ k code_strong Hwf' Hc) as [l [K1 K2 K3 K4 K5 K6 K7]]. exists l. split; try done. intros o1 o2 H1 H2 Hh. apply K7; [done|done|]. eapply hb_same; [|exact Hh]. intros o op ps. by rewrite (Hs o op ps).
Qed.
End theorems.

(** ** Executions *)
Inductive fcmd :=
| FI (o : opid) (op : @oper CN) (ps : list opid) (ds : list nat)
| FR (o : opid)                      (* run to the end, reading the newest values *)
| FO (o : opid) (n : nat)            (* one step, reading the [n]-th value *)
| FA (o : opid) (a : N)              (* run to the end; every node it allocates is at address [a] *)
| FL (lb : @flabel CN).

Section script.
Variable w : orders.
Definition fstepl (x : fstate * list flabel) (lb : flabel) : option (fstate * list flabel) :=
  match fstep w x.1 lb with Some (s', _) => Some (s', x.2 ++ [lb]) | None => None end.
Fixpoint ffinl (n : nat) (o : opid) (ad : option N) (x : fstate * list flabel) : option (fstate * list flabel) :=
  match n with
  | 0 => None
  | S n => match w_ops (c_w (f_c x.1)) !! o with
           | Some (WOp (SRun _ _) _ _) => match fstepl x (FStep o (wnewest w (c_w (f_c x.1)) o) false (default (pick (f_mem x.1)) ad)) with Some y => ffinl n o ad y | None => None end
           | _ => Some x
           end
  end.
Definition fcmdl (x : fstate * list flabel) (c : fcmd) : option (fstate * list flabel) :=
  match c with
  | FI o op ps ds => fstepl x (FInv o op ps ds)
  | FR o => ffinl 5000 o None x
  | FA o a => ffinl 5000 o (Some a) x
  | FO o n => fstepl x (FStep o n false (pick (f_mem x.1)))
  | FL lb => fstepl x lb
  end.
Fixpoint fcmdsl (x : fstate * list flabel) (cs : list fcmd) : option (fstate * list flabel) :=
  match cs with [] => Some x | c :: cs => match fcmdl x c with Some y => fcmdsl y cs | None => None end end.
Definition fschedule (cs : list fcmd) : list flabel := match fcmdsl (finit, []) cs with Some (_, ls) => ls | None => [] end.
Definition lbf_wfb (lb : @flabel CN) : bool := match lb with FInv _ (OGetOrInsert k f) _ _ => keqb (keyof (f k)) k | _ => true end.
Lemma fexec_check cs (f : list flabel -> fstate -> list event -> bool) :
  match frun w finit (fschedule cs) with Some (s, ev) => f (fschedule cs) s ev && forallb lbf_wfb (fschedule cs) | None => false end = true ->
  exists ls s ev, fexec w ls s ev /\ wf_fcalls ls /\ f ls s ev = true.
Proof.
  intros H. generalize dependent (fschedule cs). intros ls H. destruct (frun w finit ls) as [[s ev]|] eqn:E; [|done]. apply andb_true_iff in H as [H1 H2].
  exists ls, s, ev. split; [exact E|]. split; [|done]. intros o op ps ds Hin. rewrite forallb_forall in H2. apply elem_of_list_In in Hin. apply H2 in Hin. by destruct op.
Qed.
End script.


(* Call 1 inserts (5, 7), call 3 finds it and keeps its guard; call 2 replaces it by (5, 8), and the old node is registered to be destroyed.
   An iterator (call 4) is created by a thread that is synchronised with that; then the guards of calls 2 and 3 are dropped and the node is freed.
   Call 5 inserts (6, 9); the new node gets the address of the freed one.  The iterator runs, and yields (5, 8). *)
Definition reuse : list fcmd :=
  [FI 1 (ins 5 7) [] []; FR 1; FL (FUnpin 1); FI 3 (get 5) [1] []; FR 3; FI 2 (ins 5 8) [1] []; FR 2; FI 4 ite [2] [0%nat]; FL (FUnpin 2); FL (FUnpin 3); FL (FFree 0%nat);
   FI 5 (ins 6 9) [2] [0%nat]; FR 5; FR 4]%positive.
(* Call 6 removes key 6 again.  All the guards are dropped, the map is dropped, and then the rest of the registered destructions are run. *)
Definition reuse_end : list fcmd := reuse ++ [FI 6 (rem 6) [4; 5] [0%nat]; FR 6; FL (FUnpin 4); FL (FUnpin 5); FL (FUnpin 6); FL FDrop; FL (FFree 2%nat); FL (FFree 1%nat)]%positive.
(* The beginning, up to the point where the old node is registered and call 3 still holds a reference to it. *)
Definition reuse_hold : list fcmd := take 8 reuse.

Example C46_ex : exists (ls : list (@flabel CN)) s ev, fexec code_orders ls s ev /\ wf_fcalls ls /\
  (exists l1 l2 h1 h2, l1 ∈ (m_freed (f_mem s)).*1 /\ l2 ∉ (m_freed (f_mem s)).*1 /\ m_heap (f_mem s) !! l1 = Some h1 /\ m_heap (f_mem s) !! l2 = Some h2 /\ ho_addr h1 = ho_addr h2) /\
  exists x, EYield 4%positive x ∈ ev /\ rr_val x = (5%N, 8%N).
Proof.
  destruct (fexec_check code_orders reuse (fun (_ : list (@flabel CN)) (s : @fstate CN) (ev : list (@event CN)) =>
    bool_decide (1%positive ∈ (m_freed (f_mem s)).*1) && bool_decide (3%positive ∉ (m_freed (f_mem s)).*1) &&
    match m_heap (f_mem s) !! 1%positive, m_heap (f_mem s) !! 3%positive with Some h1, Some h2 => bool_decide (ho_addr h1 = ho_addr h2) | _, _ => false end &&
    existsb (fun e : @event CN => match e with EYield o x => bool_decide (o = 4%positive /\ rr_val x = (5%N, 8%N)) | _ => false end) ev)) as (ls & s & ev & He & Hwf & Hf); [vm_compute; reflexivity|].
  exists ls, s, ev. split; [exact He|]. split; [exact Hwf|]. clear He Hwf. apply andb_true_iff in Hf as [Hf Hy]. apply andb_true_iff in Hf as [Hf Hh]. apply andb_true_iff in Hf as [Hf1 Hf2].
  apply bool_decide_eq_true in Hf1, Hf2. destruct (m_heap (f_mem s) !! 1%positive) as [h1|] eqn:E1; [|discriminate]. destruct (m_heap (f_mem s) !! 3%positive) as [h2|] eqn:E2; [|discriminate]. apply bool_decide_eq_true in Hh.
  split; [exists 1%positive, 3%positive, h1, h2; done|]. apply existsb_exists in Hy as (e & Hin & Hy). destruct e as [| | |o x]; try discriminate. apply bool_decide_eq_true in Hy as [-> Hx]. exists x. split; [by apply elem_of_list_In|done].
Qed.

Example C47_ex : exists (ls : list (@flabel CN)) s ev r, fexec code_orders ls s ev /\ wf_fcalls ls /\ f_alive s 3%positive = true /\ ERet 3%positive (ROpt (Some r)) ∈ ev /\ rr_loc r ∈ g_loc <$> f_regs s.
Proof.
  destruct (fexec_check code_orders reuse_hold (fun (_ : list (@flabel CN)) (s : @fstate CN) (ev : list (@event CN)) => f_alive s 3%positive &&
    existsb (fun e : @event CN => match e with ERet o (ROpt (Some x)) => bool_decide (o = 3%positive /\ rr_loc x ∈ g_loc <$> f_regs s) | _ => false end) ev)) as (ls & s & ev & He & Hwf & Hf); [vm_compute; reflexivity|].
  apply andb_true_iff in Hf as [Ha Hy]. apply existsb_exists in Hy as (e & Hin & Hy). destruct e as [|o [[x|]| | |]| |]; try discriminate. apply bool_decide_eq_true in Hy as [-> Hx].
  exists ls, s, ev, x. split; [exact He|]. split; [exact Hwf|]. clear He Hwf. split; [done|]. split; [by apply elem_of_list_In|done].
Qed.

Example C48_ex : exists (ls : list (@flabel CN)) s ev, fexec code_orders ls s ev /\ wf_fcalls ls /\ f_dropped s = true /\ (forall i, i < length (f_regs s) -> i ∈ f_done s) /\ length (f_regs s) = 3 /\ length (m_freed (f_mem s)) = 4.
Proof.
  destruct (fexec_check code_orders reuse_end (fun (_ : list (@flabel CN)) (s : @fstate CN) (ev : list (@event CN)) => f_dropped s && forallb (fun i => bool_decide (i ∈ f_done s)) (seq 0 (length (f_regs s))) && (length (f_regs s) =? 3) && (length (m_freed (f_mem s)) =? 4)))
    as (ls & s & ev & He & Hwf & Hf); [vm_compute; reflexivity|].
  exists ls, s, ev. split; [exact He|]. split; [exact Hwf|]. clear He Hwf. apply andb_true_iff in Hf as [Hf H4]. apply andb_true_iff in Hf as [Hf H3]. apply andb_true_iff in Hf as [H1 H2]. split; [done|]. split; [|by apply Nat.eqb_eq in H3, H4].
  intros i Hi. rewrite forallb_forall in H2. specialize (H2 i). rewrite bool_decide_eq_true in H2. apply H2, in_seq. lia.
Qed.

(* As long as the guard of call 3 is alive, the node it refers to cannot be freed. *)
Example C47_held : forall s, frun code_orders finit (fschedule code_orders reuse_hold ++ [FFree 0]) <> Some s.
Proof. intros s. assert (frun code_orders finit (fschedule code_orders reuse_hold ++ [FFree 0]) = None) as ->; [vm_compute; reflexivity|discriminate]. Qed.

Print Assumptions C46_no_use_after_free.
Print Assumptions C47_result_stays_valid.
Print Assumptions C47_yield_stays_valid.
Print Assumptions C48_no_leak.
Print Assumptions C48_collector_finishes.
Print Assumptions C48_drop_possible.
Print Assumptions C49_unobservable.
Print Assumptions C49_key_order.
