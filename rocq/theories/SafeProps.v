(** * Consequences of the structural invariant, for every execution. *)
From Verif Require Import Model Mem Inv Safe SafeStep SafeOps SafeSys Spec.

Section safeprops.
Context {C : Config}.
Implicit Types (m : mem) (pos : loc -> list nat) (c : cell) (v w : sh) (o : opid) (gs : gset opid) (s : state).

Lemma run_app s ls1 ls2 : run s (ls1 ++ ls2) =
  match run s ls1 with
  | Some (s1, e1) => match run s1 ls2 with Some (s2, e2) => Some (s2, e1 ++ e2) | None => None end
  | None => None
  end.
Proof.
  revert s. induction ls1 as [|lb ls1 IH]; intros s; simpl; [by destruct (run s ls2) as [[? ?]|]|].
  destruct (step s lb) as [[s1 e1]|]; [|done]. rewrite IH. destruct (run s1 ls1) as [[s2 e2]|]; [|done].
  destruct (run s2 ls2) as [[s3 e3]|]; [|done]. by rewrite app_assoc.
Qed.

Lemma run_snoc s ls lb s' ev : run s (ls ++ [lb]) = Some (s', ev) ->
  exists s1 e1 e2, run s ls = Some (s1, e1) /\ step s1 lb = Some (s', e2) /\ ev = e1 ++ e2.
Proof.
  rewrite run_app. destruct (run s ls) as [[s1 e1]|]; [|done]. simpl. destruct (step s1 lb) as [[s2 e2]|] eqn:E2; [|done].
  intros [= <- <-]. exists s1, e1, e2. rewrite app_nil_r. done.
Qed.

Lemma run_step s ls lb s1 e1 s2 e2 : run s ls = Some (s1, e1) -> step s1 lb = Some (s2, e2) -> run s (ls ++ [lb]) = Some (s2, e1 ++ e2).
Proof. intros H1 H2. rewrite run_app, H1. simpl. rewrite H2. by rewrite app_nil_r. Qed.

Lemma exec_ind (P : list label -> state -> list event -> Prop) :
  P [] init [] ->
  (forall ls s ev lb s' e, exec ls s ev -> P ls s ev -> step s lb = Some (s', e) -> P (ls ++ [lb]) s' (ev ++ e)) ->
  forall ls s ev, exec ls s ev -> P ls s ev.
Proof.
  intros H0 HS ls. induction ls as [|lb ls IH] using rev_ind; intros s ev Hx.
  - injection Hx as <- <-. done.
  - apply run_snoc in Hx as (s1 & e1 & e2 & H1 & H2 & ->). eapply HS; [exact H1|by apply IH|done].
Qed.

Lemma exec_sinv ls s ev : exec ls s ev -> sinv s.
Proof. intros H. eapply sinv_run; [apply sinv_init|exact H]. Qed.

Lemma reach_sinv s : reachable s -> sinv s.
Proof. intros (ls & ev & H). by eapply exec_sinv. Qed.

(** ** No panic, no undefined behaviour *)
Theorem no_failure s o op f : reachable s -> s_ops s !! o <> Some (SFail op f).
Proof.
  intros [_ H]%reach_sinv Ho. destruct (s_dropped s).
  - by apply (di_ops _ H o op f).
  - destruct H as [pos H]. by apply (li_ops _ _ H) in Ho.
Qed.

Theorem no_ub s : reachable s -> s_ub s = false.
Proof. by intros [H _]%reach_sinv. Qed.

(** A running operation can always take its next step, provided the allocator can deliver. *)
Lemma op_step_total gs m p spur a : addr_free m a = true -> op_step gs m p spur a <> None.
Proof.
  intros Ha. assert (forall m k parent child, prune_start m k parent child <> None) as Hps.
  { intros. unfold prune_start. by repeat case_match. }
  assert (forall m del lv, rem_up m del lv <> None) as Hru.
  { intros ? ? [|[? ?] ?]; simpl; [done|]. by destruct (is_null _). }
  assert (forall m k pr, prune_return m k pr <> None) as Hpr.
  { intros ? [| |] pr; simpl; [done|done|]. destruct pr; try done; apply Hru. }
  assert (forall m t r acts, t_finish m t r acts <> None) as Htf.
  { intros. unfold t_finish. destruct (t_mode t); [done|]. by destruct r. }
  destruct p; cbn [op_step]; rewrite ?Ha; cbn [negb];
    repeat (first [apply Hps|apply Hru|apply Hpr|apply Htf|done|progress unfold prune_decide|case_match]).
Qed.

Lemma fresh_addr m : exists a, addr_free m a = true.
Proof.
  exists (N.succ (foldr N.max 0%N ((fun lo => ho_addr lo.2) <$> map_to_list (m_heap m)))).
  unfold addr_free. apply andb_true_iff. split.
  - apply negb_true_iff, N.eqb_neq. lia.
  - apply forallb_forall. intros [l o] Hin%elem_of_list_In. apply orb_true_iff. right. apply negb_true_iff, N.eqb_neq.
    assert ((ho_addr o <= foldr N.max 0 ((λ lo, ho_addr lo.2) <$> map_to_list (m_heap m)))%N); [|lia].
    apply (elem_of_list_fmap_1 (fun lo => ho_addr lo.2)) in Hin. simpl in Hin. revert Hin.
    generalize ((λ lo : loc * hobj, ho_addr lo.2) <$> map_to_list (m_heap m)). intros xs.
    induction xs as [|x xs IH]; intros Hin; [by apply elem_of_nil in Hin|]. simpl. apply elem_of_cons in Hin as [->|?]; [lia|].
    specialize (IH ltac:(done)). lia.
Qed.

Theorem running_steps s o op p spur : s_ops s !! o = Some (SRun op p) -> exists a, step s (LStep o spur a) <> None.
Proof.
  intros Ho. destruct (fresh_addr (s_mem s)) as [a Ha]. exists a. simpl. rewrite Ho.
  pose proof (op_step_total (guards s) (s_mem s) p spur a Ha). destruct (op_step _ _ _ _ _) as [[[? ?] ?]|]; [done|done].
Qed.

(** ** References *)
Definition ev_status (st : option ostat) (e : event) : Prop :=
  match e with
  | EInv _ op => match st with Some (SRun op' _) | Some (SRet op' _) | Some (SFail op' _) => op' = op | Some SGone => True | None => False end
  | ERet _ r => match st with Some (SRet _ r') => r' = r | Some SGone => True | _ => False end
  | ECall _ _ => st <> None
  | EYield _ r => match st with
                  | Some (SRun _ (INext _ out)) => r ∈ out
                  | Some (SRet _ (RIter ys)) => r ∈ ys
                  | Some SGone | Some (SFail _ _) => True
                  | _ => False
                  end
  end.
Definition ev_op (e : event) : opid := match e with EInv o _ | ERet o _ | ECall o _ | EYield o _ => o end.

Lemma op_step_yield gs m p spur a m' nx acts : op_step gs m p spur a = Some (m', nx, acts) ->
  (forall r, AYield r ∈ acts -> exists lv out, nx = NRun (INext lv out) /\ r ∈ out) /\
  (forall lv out r, p = INext lv out -> r ∈ out ->
     match nx with NRun (INext _ out') => r ∈ out' | NRet (RIter ys) => r ∈ ys | NFail _ => True | _ => False end).
Proof.
  assert (forall m m' k parent child nx acts r, prune_start m k parent child = Some (m', nx, acts) -> AYield r ∈ acts -> False) as Hps.
  { intros until r. unfold prune_start, panics, ok. repeat case_match; intros [= <- <- <-] Hnil; by apply elem_of_nil in Hnil. }
  assert (forall m m' del lv nx acts r, rem_up m del lv = Some (m', nx, acts) -> AYield r ∈ acts -> False) as Hru.
  { intros ? ? ? [|[? ?] ?] ? ? ?; simpl; unfold panics, ok; [|destruct (is_null _)]; intros [= <- <- <-] Hnil; by apply elem_of_nil in Hnil. }
  assert (forall m m' k pr nx acts r, prune_return m k pr = Some (m', nx, acts) -> AYield r ∈ acts -> False) as Hpr.
  { intros ? ? [| |] pr ? ? ?; simpl; unfold ok; [intros [= <- <- <-] Hnil; by apply elem_of_nil in Hnil..|].
    destruct pr; try apply Hru; intros [= <- <- <-] Hnil; by apply elem_of_nil in Hnil. }
  assert (forall m m' t x nx acts r, t_finish m t x [] = Some (m', nx, acts) -> AYield r ∈ acts -> False) as Htf.
  { intros until r. unfold t_finish, panics, ok. destruct (t_mode t); [|destruct x]; intros [= <- <- <-] Hnil; by apply elem_of_nil in Hnil. }
  intros Hst. split.
  - intros r Hr. destruct p; cbn [op_step] in Hst; unfold prune_decide, panics, ok in Hst;
      repeat case_match; simplify_eq; try (exfalso; by eauto); try (exfalso; by apply elem_of_nil in Hr);
      try (exfalso; apply elem_of_list_singleton in Hr; done).
    apply elem_of_list_singleton in Hr. injection Hr as ->. do 2 eexists. split; [done|]. apply elem_of_app. right. by apply elem_of_list_singleton.
  - intros lv out r -> Hin. cbn [op_step] in Hst. unfold panics, ok in Hst.
    repeat case_match; simplify_eq; try done; apply elem_of_app; by left.
Qed.

Lemma exec_events ls s ev : exec ls s ev -> forall e, e ∈ ev -> ev_status (s_ops s !! ev_op e) e.
Proof.
  revert ls s ev. apply (exec_ind (fun ls s ev => forall e, e ∈ ev -> ev_status (s_ops s !! ev_op e) e)); [intros e H; by apply elem_of_nil in H|].
  intros ls s ev lb s' e Hx IH Hst x Hin.
  destruct lb as [o op|o spur a|o|o|n|]; cbn [step] in Hst.
  - destruct (s_ops s !! o) eqn:Eo, (s_dropped s); simplify_eq. simpl.
    apply elem_of_app in Hin as [Hin|Hin]; [|apply elem_of_list_singleton in Hin as ->].
    + specialize (IH x Hin). destruct (decide (o = ev_op x)) as [E|].
      * rewrite <-E, Eo in IH. destruct x; done.
      * by rewrite lookup_insert_ne.
    + simpl. by rewrite lookup_insert.
  - destruct (s_ops s !! o) as [[op p|op r|op f|]|] eqn:Eo; try done.
    destruct (op_step _ _ p spur a) as [[[m' nx] acts]|] eqn:Es; [|done]. simplify_eq. simpl.
    destruct (op_step_yield _ _ _ _ _ _ _ _ Es) as [Hy1 Hy2].
    apply elem_of_app in Hin as [Hin|Hin].
    + specialize (IH x Hin). destruct (decide (o = ev_op x)) as [E|]; [|by rewrite lookup_insert_ne].
      rewrite <-E in *. rewrite Eo in IH. rewrite lookup_insert. destruct x as [? ?|? ?|? ?|? r]; simpl in *; try done.
      * by destruct nx.
      * destruct p; try done. specialize (Hy2 _ _ _ eq_refl IH). destruct nx as [[]|[]|]; done.
    + apply elem_of_app in Hin as [Hin|Hin].
      * apply elem_of_list_In, in_map_iff in Hin as (y & <- & Hin%elem_of_list_In). destruct y as [?|r]; simpl; rewrite lookup_insert; [done|].
        destruct (Hy1 _ Hin) as (lv & out & -> & ?). done.
      * destruct nx; try by apply elem_of_nil in Hin. apply elem_of_list_singleton in Hin as ->. simpl. by rewrite lookup_insert.
  - destruct (s_ops s !! o) as [[op p|op r|op f|]|] eqn:Eo; simplify_eq. rewrite app_nil_r in Hin. specialize (IH x Hin). simpl.
    destruct (decide (o = ev_op x)) as [E|]; [|by rewrite lookup_insert_ne]. rewrite <-E, lookup_insert. by destruct x.
  - destruct (s_ops s !! o) as [[op p|op r|op f|]|] eqn:Eo; simplify_eq. rewrite app_nil_r in Hin. specialize (IH x Hin). simpl.
    destruct (decide (o = ev_op x)) as [E|]; [|by rewrite lookup_insert_ne]. rewrite <-E in *. rewrite Eo in IH. rewrite lookup_insert. by destruct x.
  - destruct (m_garb _ !! n) as [[[l k] gs]|]; [|done]. case_bool_decide; simplify_eq. rewrite app_nil_r in Hin. by apply IH.
  - case_bool_decide; cbn [andb] in Hst; [|done]. destruct (negb (s_dropped s)); [|done]. destruct (drop_rec _ _ _); simplify_eq; rewrite app_nil_r in Hin; by apply IH.
Qed.

Lemma live_of_guard s o : sinv s -> o ∈ guards s -> exists pos, live_inv pos s.
Proof.
  intros [_ H] Ho. destruct (s_dropped s); [|done]. rewrite (di_guards _ H) in Ho. by apply elem_of_empty in Ho.
Qed.

Lemma ref_ok_valid m o r : ref_ok m o r -> ref_valid m r.
Proof.
  intros (it & Hb & Hi & _ & Hf & _). exists it. split; [|done]. by apply deref_hbody.
Qed.

Lemma refs_of_eq r : refs_of r = res_refs r.
Proof. by destruct r as [[?|]|[?|?]| |]. Qed.

Theorem refs_valid ls s ev o r x : exec ls s ev -> o ∈ guards s ->
  (ERet o r ∈ ev /\ x ∈ refs_of r) \/ EYield o x ∈ ev -> ref_valid (s_mem s) x.
Proof.
  intros Hx Hg Hr. pose proof (exec_sinv _ _ _ Hx) as Hs. destruct (live_of_guard _ _ Hs Hg) as [pos Hl].
  pose proof Hg as (st & Hst & Hact)%elem_of_guards. pose proof (li_ops _ _ Hl _ _ Hst) as Hok.
  apply (ref_ok_valid _ o). destruct Hr as [[Hin Hx0]|Hin]; apply (exec_events _ _ _ Hx) in Hin; simpl in Hin; rewrite Hst in Hin.
  - destruct st; try done. subst. rewrite refs_of_eq in Hx0. simpl in Hok. by eapply Forall_forall in Hok.
  - destruct st as [op []|op []|op f|]; try done; simpl in Hok.
    + destruct Hok as [_ Hok]. by eapply Forall_forall in Hok.
    + by eapply Forall_forall in Hok.
Qed.

(** ** Destruction *)
Lemma linked_live pos m n l : minv pos m -> linked_at m n l -> exists c v, cval m c = Some v /\ cell_live m c /\ sh_loc v = Some l /\ length (cpos pos c) = n.
Proof.
  intros Hm. induction 1 as [l Hl|n l a sl w l' Hl IH Hh Hw Hl'].
  - exists CRoot, (m_root m). done.
  - destruct IH as (c & v & Hc & Hlv & Hv & Hn). assert (~ dead m l) as Hnd by (by eapply mi_live).
    assert (hbody m l = Some (BInner sl)) as Hb by (unfold hbody; by rewrite Hh).
    apply elem_of_list_lookup in Hw as [i Hi]. exists (CSlot l i), w. split; [apply cval_slot; eauto|]. split; [done|]. split; [done|].
    simpl. rewrite app_length. simpl.
    destruct (inner_parent _ _ _ _ Hm Hb Hnd) as (c' & v' & Hc' & Hl0 & Hv' & Hd' & Ep).
    pose proof (mi_ptr _ _ Hm _ _ Hc) as Hp. unfold ptr_ok in Hp. rewrite Hv, Hb in Hp. destruct (sh_data v).
    + destruct Hp as (? & ? & _). congruence.
    + destruct Hp as (? & _ & ->). lia.
Qed.

Theorem destroyed_once s : reachable s -> NoDup (((fun g => g.1.1) <$> m_garb (s_mem s)) ++ (m_freed (s_mem s)).*1).
Proof.
  intros [_ H]%reach_sinv. destruct (s_dropped s); [apply (di_nodup _ H)|]. destruct H as [pos H]. apply (mi_nodup _ _ (li_mem _ _ H)).
Qed.

Theorem linked_not_dead s l : reachable s -> s_dropped s = false -> linked (s_mem s) l ->
  l ∉ ((fun g => g.1.1) <$> m_garb (s_mem s)) /\ l ∉ (m_freed (s_mem s)).*1 /\ is_Some (m_heap (s_mem s) !! l).
Proof.
  intros [_ H]%reach_sinv Hd [n Hl]. rewrite Hd in H. destruct H as [pos H]. pose proof (li_mem _ _ H) as Hm.
  destruct (linked_live _ _ _ _ Hm Hl) as (c & v & Hc & Hlv & Hv & _). pose proof (mi_live _ _ Hm _ _ _ Hc Hlv Hv) as Hnd.
  split; [intros ?; apply Hnd; by left|]. split; [intros ?; apply Hnd; by right|]. by eapply cval_target_heap.
Qed.

Theorem all_freed s : reachable s -> s_dropped s = true -> m_garb (s_mem s) = [] ->
  NoDup (m_freed (s_mem s)).*1 /\ forall l, is_Some (m_heap (s_mem s) !! l) <-> l ∈ (m_freed (s_mem s)).*1.
Proof.
  intros Hr Hd Hg. pose proof (destroyed_once s Hr) as Hn. rewrite Hg in Hn. split; [exact Hn|].
  apply reach_sinv in Hr as [_ H]. rewrite Hd in H. intros l. rewrite (di_dead _ H). unfold dead, garb_locs. rewrite Hg. simpl.
  split; [intros [Hx|]; [by apply elem_of_nil in Hx|done]|by right].
Qed.

(* once the map is dropped, the collector can run everything *)
Theorem collector_finishes s : reachable s -> s_dropped s = true -> exists ls s', run s ls = Some (s', []) /\ s_dropped s' = true /\ m_garb (s_mem s') = [].
Proof.
  intros Hr. remember (length (m_garb (s_mem s))) as n eqn:En. revert s Hr En.
  induction n as [|n IH]; intros s Hr En Hd.
  - exists [], s. split; [done|]. split; [done|]. by destruct (m_garb (s_mem s)).
  - destruct (m_garb (s_mem s)) as [|[[l k] g] gs] eqn:Eg; [done|].
    pose proof (reach_sinv _ Hr) as [_ H]. rewrite Hd in H. pose proof (di_guards _ H) as Hgd.
    destruct (step s (LFree 0)) as [[s1 e1]|] eqn:Es.
    2:{ exfalso. simpl in Es. rewrite Eg in Es. simpl in Es. rewrite Hgd in Es. case_bool_decide as Hb; [done|]. apply Hb. set_solver. }
    assert (e1 = [] /\ s_dropped s1 = true /\ m_garb (s_mem s1) = gs) as (-> & Hd1 & Hg1).
    { simpl in Es. rewrite Eg in Es. simpl in Es. case_bool_decide; simplify_eq. done. }
    destruct (IH s1) as (ls & s' & Hrun & Hd' & Hg').
    + destruct Hr as (ls0 & ev0 & Hx). exists (ls0 ++ [LFree 0]), (ev0 ++ []). by eapply run_step.
    + rewrite Hg1. simpl in En. lia.
    + done.
    + exists (LFree 0 :: ls), s'. split; [|done]. cbn [run]. rewrite Es, Hrun. done.
Qed.

Theorem deferred_kind s l k g : reachable s -> (l, k, g) ∈ m_garb (s_mem s) ->
  exists a b, m_heap (s_mem s) !! l = Some (HObj a b) /\ k = kind_of_body b.
Proof.
  intros [_ H]%reach_sinv Hin.
  assert (exists b, hbody (s_mem s) l = Some b /\ k = kind_of b) as (b & Hb & ->).
  { destruct (s_dropped s); [by eapply di_kind|]. destruct H as [pos H]. by eapply (mi_kind _ _ (li_mem _ _ H)). }
  unfold hbody in Hb. destruct (m_heap (s_mem s) !! l) as [[a b']|] eqn:E; [|done]. simpl in Hb. injection Hb as ->. exists a, b. by destruct b.
Qed.

(** ** ABA *)
Theorem cas_exact s o op p c expected now : reachable s -> s_ops s !! o = Some (SRun op p) -> cas_of p = Some (c, expected) ->
  read_cell (s_mem s) c = Some now -> sh_same (s_mem s) now expected = true -> now = expected.
Proof.
  intros Hr Ho Hc Hrd Hs. pose proof (reach_sinv _ Hr) as Hi.
  destruct (live_of_guard s o Hi) as [pos Hl]; [apply elem_of_guards; eauto|].
  pose proof (li_mem _ _ Hl) as Hm. pose proof (li_ops _ _ Hl _ _ Ho) as Hpc. simpl in Hpc. apply read_cell_cval in Hrd.
  destruct p; simpl in Hc; try done; injection Hc as <- <-; unfold pc_ok in Hpc.
  - destruct Hpc as (_ & _ & _ & Hv & Hnc & _). by eapply same_eq_vok.
  - destruct Hpc as ((_ & Hv & Hcd & _) & _). by eapply same_eq_vok.
  - destruct Hpc as (_ & _ & _ & nl & it & -> & Hv & _). by eapply same_eq_vok.
Qed.

(** The destructor frees every node that is still linked, and frees it as an inner node. *)
Theorem drop_frees_linked s s' e l : reachable s -> step s LDrop = Some (s', e) -> linked (s_mem s) l ->
  (l, KInner) ∈ m_freed (s_mem s').
Proof.
  intros Hr Hst Hl. destruct (s_dropped s) eqn:Ed.
  { cbn [step] in Hst. rewrite Ed, andb_false_r in Hst. done. }
  destruct (linked_not_dead s l Hr Ed Hl) as (H1 & H2 & H3). pose proof (reach_sinv _ Hr) as [_ Hi]. rewrite Ed in Hi.
  destruct Hi as [pos Hi]. destruct (drop_root_ok pos _ (li_mem _ _ Hi)) as (fs & Hd & _ & Hin & Hk).
  cbn [step] in Hst. rewrite Hd in Hst. destruct (_ && _); [|done]. injection Hst as <- <-. simpl.
  apply elem_of_app. left. apply elem_of_reverse.
  assert (l ∈ fs.*1) as Hlf. { apply Hin. split; [done|]. intros [?|?]; [by apply H1|by apply H2]. }
  apply elem_of_list_fmap in Hlf as ([l' k] & -> & Hlk). simpl. by rewrite <-(Hk _ _ Hlk).
Qed.

Lemma step_heap_data s lb s' e l a it : sinv s -> step s lb = Some (s', e) -> m_heap (s_mem s) !! l = Some (HObj a (BData it)) ->
  exists a', m_heap (s_mem s') !! l = Some (HObj a' (BData it)).
Proof.
  intros Hs Hst Hl.
  assert (hbody (s_mem s) l = Some (BData it)) as Hb by (unfold hbody; by rewrite Hl).
  assert (hbody (s_mem s') l = Some (BData it)) as Hb'.
  { destruct lb as [o op|o spur ad|o|o|n|]; cbn [step] in Hst; try (repeat case_match; simplify_eq; exact Hb).
    destruct (s_ops s !! o) as [[op p|? ?|? ?|]|] eqn:Ho; try done.
    destruct (op_step (guards s) (s_mem s) p spur ad) as [[[m1 nx] acts]|] eqn:Hop; [|done]. injection Hst as <- <-. simpl.
    assert (o ∈ guards s) as Hg by (apply elem_of_guards; eauto).
    destruct (live_of_guard s o Hs Hg) as [pos Hi].
    destruct (op_step_ok _ _ _ _ _ _ _ _ _ _ (li_mem _ _ Hi) Hg (li_esafe _ _ Hi) (li_ops _ _ Hi _ _ Ho) Hop) as (pos' & Hmt & _).
    apply mtr_ext in Hmt; [|apply Hi]. by apply (ext_data _ _ _ _ _ _ Hmt). }
  unfold hbody in Hb'. destruct (m_heap (s_mem s') !! l) as [[a' b]|]; [|done]. injection Hb' as ->. eauto.
Qed.
(** Every node that has not been handed to the collector (or freed) is linked. *)
Lemma live_linked pos m l b : minv pos m -> hbody m l = Some b -> ~ dead m l -> linked m l.
Proof.
  intros Hm Hb Hnd. destruct (mi_link _ _ Hm _ _ Hb Hnd) as (c & v & Hc & Hl & Hv).
  remember (length (cpos pos c)) as n eqn:En. revert l b c v Hb Hnd Hc Hl Hv En.
  induction n as [n IH] using lt_wf_ind. intros l b c v Hb Hnd Hc Hl Hv ->.
  destruct c as [|x i]; [exists 0; constructor; simpl in Hc; congruence|].
  pose proof Hc as (sl & Hbx & Hi)%cval_slot.
  destruct (inner_parent _ _ _ _ Hm Hbx Hl) as (c' & v' & Hc' & Hl' & Hv' & _ & Ep).
  destruct (IH (length (cpos pos c'))) with (l := x) (b := BInner sl) (c := c') (v := v') as [k Hk]; try done.
  { simpl. rewrite Ep, app_length. simpl. lia. }
  exists (S k). unfold hbody in Hbx. destruct (m_heap m !! x) as [[a bx]|] eqn:Ex; [|done]. simpl in Hbx. injection Hbx as ->.
  eapply linked_slot; [exact Hk|exact Ex| |exact Hv]. by eapply elem_of_list_lookup_2.
Qed.

Lemma linked_dec s l : reachable s -> s_dropped s = false -> linked (s_mem s) l \/ ~ linked (s_mem s) l.
Proof.
  intros Hr Ed. pose proof (reach_sinv _ Hr) as [_ Hi]. rewrite Ed in Hi. destruct Hi as [pos Hi]. pose proof (li_mem _ _ Hi) as Hm.
  destruct (hbody (s_mem s) l) as [b|] eqn:Hb.
  - destruct (decide (dead (s_mem s) l)) as [Hd|Hd]; [|left; by eapply live_linked].
    right. intros Hl. destruct (linked_not_dead s l Hr Ed Hl) as (H1 & H2 & _). by destruct Hd.
  - right. intros Hl. destruct (linked_not_dead s l Hr Ed Hl) as (_ & _ & [o Ho]). unfold hbody in Hb. by rewrite Ho in Hb.
Qed.

(** How each node that holds elements is freed: those in the map when it is dropped as inner nodes, all the others (which
    have been replaced or removed before) as data. *)
Lemma freed_once_kind s l k k' : reachable s -> (l, k) ∈ m_freed (s_mem s) -> (l, k') ∈ m_freed (s_mem s) -> k = k'.
Proof.
  intros Hr Hin Hin'. pose proof (destroyed_once s Hr) as Hn. apply NoDup_app in Hn as (_ & _ & Hn).
  apply elem_of_list_lookup in Hin as [i Hi]. apply elem_of_list_lookup in Hin' as [j Hj].
  assert (i = j) as ->. { eapply NoDup_lookup; [exact Hn| |]; rewrite list_lookup_fmap; [by rewrite Hi|by rewrite Hj]. }
  congruence.
Qed.

Lemma drop_kinds s s1 e1 ls s2 e2 : reachable s -> step s LDrop = Some (s1, e1) -> run s1 ls = Some (s2, e2) ->
  forall l a it, m_heap (s_mem s2) !! l = Some (HObj a (BData it)) ->
  (linked (s_mem s) l -> (l, KInner) ∈ m_freed (s_mem s2)) /\
  (~ linked (s_mem s) l -> (l, KData) ∈ m_freed (s_mem s2) \/ exists g, (l, KData, g) ∈ m_garb (s_mem s2)).
Proof.
  intros Hr Hst. revert s2 e2. induction ls as [|lb ls IH] using rev_ind; intros s2 e2 Hrun l a it Hh.
  - injection Hrun as <- <-. split; [intros Hl; by eapply drop_frees_linked|]. intros Hnl.
    destruct (s_dropped s) eqn:Ed. { cbn [step] in Hst. rewrite Ed, andb_false_r in Hst. done. }
    pose proof (reach_sinv _ Hr) as [_ Hi]. rewrite Ed in Hi. destruct Hi as [pos Hi]. pose proof (li_mem _ _ Hi) as Hm.
    destruct (drop_root_ok pos _ Hm) as (fs & Hd & _ & Hin & Hk).
    cbn [step] in Hst. rewrite Hd in Hst. destruct (_ && _); [|done]. injection Hst as <- <-. simpl in *.
    assert (hbody (s_mem s) l = Some (BData it)) as Hb by (unfold hbody; by rewrite Hh).
    destruct (decide (dead (s_mem s) l)) as [Hdd|Hnd]; [|exfalso; apply Hnl; by eapply live_linked].
    apply dead_garb_or_freed in Hdd as [(k & g & Hg)|Hf].
    + right. exists g. destruct (mi_kind _ _ Hm _ _ _ Hg) as (b & Hb' & ->). rewrite Hb in Hb'. by injection Hb' as <-.
    + left. apply elem_of_list_fmap in Hf as ([l' k] & -> & Hf). destruct (li_fkind _ _ Hi _ _ Hf) as (b & Hb' & ->).
      simpl in Hb. rewrite Hb in Hb'. injection Hb' as <-. apply elem_of_app. by right.
  - apply run_snoc in Hrun as (s3 & e3 & e4 & Hrun & Hst2 & ->).
    assert (sinv s1) as Hi1 by (eapply sinv_step; [exact (reach_sinv _ Hr)|exact Hst]).
    assert (sinv s3) as Hi3 by (by eapply sinv_run).
    assert (s_dropped s1 = true) as Hd1. { cbn [step] in Hst. by repeat case_match; simplify_eq. }
    assert (s_dropped s3 = true) as Hd3.
    { clear -Hd1 Hrun. revert s1 s3 e3 Hd1 Hrun. induction ls as [|lb ls IH]; intros s1 s3 e3 Hd1; cbn [run]; [by intros [= <- _]|].
      destruct (step s1 lb) as [[s4 e4]|] eqn:E; [|done]. destruct (run s4 ls) as [[s5 e5]|] eqn:E5; [|done]. intros [= <- _].
      eapply IH; [|exact E5]. clear -E Hd1. destruct lb; cbn [step] in E; by repeat case_match; simplify_eq. }
    destruct Hi3 as [_ Hi3]. rewrite Hd3 in Hi3. pose proof (di_guards _ Hi3) as Hg3.
    assert (m_heap (s_mem s3) = m_heap (s_mem s2) /\ forall lk, (lk ∈ m_freed (s_mem s3) -> lk ∈ m_freed (s_mem s2)) /\
       forall g, (lk, g) ∈ m_garb (s_mem s3) -> lk ∈ m_freed (s_mem s2) \/ (lk, g) ∈ m_garb (s_mem s2)) as [Eh Hsub].
    { destruct lb as [o op|o spur ad|o|o|n|]; cbn [step] in Hst2.
      - repeat case_match; simplify_eq.
      - destruct (s_ops s3 !! o) as [[op p|? ?|? ?|]|] eqn:Ho; try done.
        assert (o ∈ guards s3) as Hg by (apply elem_of_guards; eauto). set_solver.
      - repeat case_match; simplify_eq; simpl; (split; [done|]); intros lk; (split; [done|]); intros g Hg; by right.
      - repeat case_match; simplify_eq; simpl; (split; [done|]); intros lk; (split; [done|]); intros g Hg; by right.
      - destruct (m_garb (s_mem s3) !! n) as [[[l' k'] g']|] eqn:En; [|done]. case_bool_decide; [|done]. injection Hst2 as <- <-. simpl.
        split; [done|]. intros lk. split; [intros Hx; by right|]. intros g Hx.
        pose proof (delete_Permutation (m_garb (s_mem s3)) n _ En) as HP. rewrite HP in Hx.
        apply elem_of_cons in Hx as [[= -> ->]|Hx]; [left; left|by right].
      - rewrite Hd3, andb_false_r in Hst2. done. }
    rewrite <-Eh in Hh. destruct (IH _ _ Hrun l a it Hh) as [H1 H2]. split.
    + intros Hl. by apply Hsub, H1.
    + intros Hl. destruct (H2 Hl) as [Hf|[g Hg]]; [left; by apply Hsub|].
      apply (proj2 (Hsub (l, KData))) in Hg as [?|?]; [by left|right; by exists g].
Qed.
End safeprops.
