(** * What may be sent to other threads or shared, and for how long references are good (C39); elements that must stay on their thread (C50); guards of other collectors (C51). *)
From Verif Require Import Model Spec Mem SafeSys Traits Threads Borrow BorrowFacts Collectors TraitFacts Concrete PropSafety.

(** ** C39: a map is Send, resp. Sync, only if its keys and values are.
    (For ConMap both need that the keys and values are both: it hands out Arcs to them.) *)
Theorem C39_ConMap : forall k v s,
  (implements Send (TConMap k v s) <-> (implements Send k /\ implements Sync k) /\ (implements Send v /\ implements Sync v) /\ implements Send s) /\
  (implements Sync (TConMap k v s) <-> (implements Send k /\ implements Sync k) /\ (implements Send v /\ implements Sync v) /\ implements Sync s).
Proof. intros k v s. rewrite !impl_con_map, !impl_element. tauto. Qed.
Print Assumptions C39_ConMap.
Theorem C39_CloneConMap : forall tr k v s, implements tr (TCloneConMap k v s) <-> implements tr k /\ implements tr v /\ implements tr s.
Proof. intros tr k v s. rewrite impl_clone_map, impl_clone_payload. tauto. Qed.
Print Assumptions C39_CloneConMap.
Theorem C39_ConSet : forall tr t s, implements tr (TConSet t s) <-> implements tr t /\ implements tr s.
Proof. intros tr t s. apply impl_con_set. Qed.
Print Assumptions C39_ConSet.
(** Iterators stay in the thread they were made in. *)
Theorem C39_iterators : forall tr k v s, ~ implements tr (TMapIter k v s) /\ ~ implements tr (TCloneIter k v s) /\ ~ implements tr (TSetIter k s).
Proof.
  intros tr k v s. repeat split; intros H;
    (rewrite implements_needs in H by reflexivity; rewrite forall_cons in H; destruct H as [H _]; by apply impl_raw_iter in H).
Qed.
Print Assumptions C39_iterators.

(** The examples of tests/compile_fail.rs:7-68: ConMap<usize, Rc<usize>> is neither Send nor Sync, ConMap<usize, Arc<usize>> is both. *)
Example C39_ex_rc : ~ implements Send (TConMap TUsize t_rc t_hasher) /\ ~ implements Sync (TConMap TUsize t_rc t_hasher).
Proof.
  assert (~ implements Send t_rc) as H by (unfold t_rc; rewrite impl_user; discriminate).
  destruct (C39_ConMap TUsize t_rc t_hasher) as [H1 H2]. rewrite H1, H2. tauto.
Qed.
Example C39_ex_arc tr : implements tr (TConMap TUsize (TArc TUsize) t_hasher).
Proof.
  assert (forall tr, implements tr TUsize) as H. { intros tr'. rewrite implements_needs by reflexivity. by rewrite forall_nil. }
  assert (forall tr, implements tr (TArc TUsize)) as H' by (intros tr'; rewrite impl_arc; auto).
  assert (forall tr, implements tr t_hasher) as H'' by (intros tr'; unfold t_hasher; rewrite impl_user; by destruct tr').
  destruct (C39_ConMap TUsize (TArc TUsize) t_hasher) as [H1 H2]. destruct tr; [apply H1|apply H2]; auto.
Qed.

(** A program that the borrow checker accepts never uses a reference, or an iterator, when the map, the guard or the iterator it was got from is gone. *)
Theorem C39_references : forall p, accepted p -> exists e, brun env0 p = Some e.
Proof. intros p Ha. apply (brun_ok p [] p); [done|done|]. split; cbn; intros; by (exfalso; eapply not_elem_of_nil). Qed.
Print Assumptions C39_references.

(** The programs of tests/compile_fail.rs.  1: the map, 2: the guard, 3: the iterator, 4: the element. *)
Definition outlives_map : list stmt := [SLet 1; SLet 2; SCall 4 FGet [1; 2]; SDrop 1; SUse 4]%positive.       (* 70-81: rejected *)
Definition within_map : list stmt := [SLet 1; SLet 2; SCall 4 FGet [1; 2]; SUse 4; SDrop 1]%positive.         (* 85-95: fine *)
Definition outlives_iter : list stmt := [SLet 1; SCall 3 FIterNew [1]; SCall 4 FNext [3]; SDrop 3; SUse 4]%positive.   (* 117-130: rejected *)
Definition iter_outlives : list stmt := [SLet 1; SCall 3 FIterNew [1]; SCall 4 FNext [3]; SDrop 1; SUse 4]%positive.   (* 100-113: rejected *)
Lemma used_last p st x : mentions st x -> in_use (p ++ [st]) x.
Proof. intros H. exists st. split; [set_solver|done]. Qed.
Example C39_ex_rejected : ~ accepted outlives_map /\ ~ accepted outlives_iter /\ ~ accepted iter_outlives /\
  brun env0 outlives_map = None /\ brun env0 outlives_iter = None /\ brun env0 iter_outlives = None.
Proof.
  assert (brun env0 outlives_map = None /\ brun env0 outlives_iter = None /\ brun env0 iter_outlives = None) as (H1 & H2 & H3) by (vm_compute; auto).
  repeat split; try assumption; intros Ha; destruct (C39_references _ Ha); congruence.
Qed.
Example C39_ex_accepted : accepted within_map.
Proof.
  split.
  - repeat constructor; set_solver.
  - intros r f xs H. unfold within_map in H. repeat (apply elem_of_cons in H as [H|H]; [by simplify_eq|]). by apply elem_of_nil in H.
  - intros p1 st p2 x H Hm. unfold within_map in H.
    destruct p1 as [|? [|? [|? [|? [|? p1]]]]]; cbn in H; simplify_eq; try (by destruct p1); cbn in Hm; try done; subst; cbn; set_solver.
  - intros p1 x p2 H. unfold within_map in H.
    destruct p1 as [|? [|? [|? [|? [|? p1]]]]]; cbn in H; simplify_eq; try (by destruct p1); by split; [|intros r _]; intros (st & Hin & _); apply elem_of_nil in Hin.
  - intros p1 r f x xs p2 H Hm. unfold within_map in H.
    destruct p1 as [|? [|? [|? [|? [|? p1]]]]]; cbn in H; simplify_eq; try (by destruct p1); by cbn in Hm.
Qed.

(** ** C50: elements stay on their thread.
    An element whose type is not Send is made, used and destroyed by one thread; one whose type is not Sync is not used by two threads at a time.
    [is_send], [is_sync]: whether the type of the map is Send, resp. Sync.

    This is FALSE of the code, for two reasons. *)

(** A map of elements that are neither Send nor Sync (ConMap<usize, Rc<usize>>; so the map is neither), which only one thread (1) ever uses.
    It replaces an element; the old one is destroyed by another thread (2), which only happens to use crossbeam-epoch for something else. *)
Definition replace_one : list cmd := seqcalls 1%positive [ins 5 7; ins 5 8] ++ [Lab (LUnpin 1%positive); Lab (LUnpin 2%positive); Lab (LFree 0)].
Definition with_threads (f : label -> thread) (cs : list cmd) : list tlabel := map (fun lb => TAct (f lb) lb) (schedule cs).
Definition free_elsewhere (lb : @label CN) : thread := match lb with LFree _ => 2 | _ => 1 end.
Lemma texec_check b1 b2 t0 ls (f : tstate -> bool) :
  match trun b1 b2 (tinit t0) ls with Some (s, _) => f s | None => false end = true -> exists s ev, texec (C:=CN) b1 b2 t0 ls s ev /\ f s = true.
Proof. unfold texec. destruct (trun b1 b2 (tinit t0) ls) as [[s ev]|]; [|done]. intros H. by exists s, ev. Qed.
Theorem C50_refuted_foreign_thread : exists ls s ev l,
  texec (C:=CN) false false 1 ls s ev /\                                   (* the map is neither Send nor Sync *)
  (forall t o op, TAct t (LInv o op) ∈ ls -> t = 1) /\                     (* all the calls are made by thread 1 *)
  (l, 1) ∈ th_made s /\ (l, 2) ∈ th_destroyed s.                           (* the elements of node l were made by thread 1, and destroyed by thread 2 *)
Proof.
  destruct (texec_check false false 1 (with_threads free_elsewhere replace_one) (fun s =>
    bool_decide ((1%positive, 1) ∈ th_made s) && bool_decide ((1%positive, 2) ∈ th_destroyed s))) as (s & ev & Hx & Hf).
  { vm_compute. reflexivity. }
  exists (with_threads free_elsewhere replace_one), s, ev, 1%positive. apply andb_true_iff in Hf as [H1%bool_decide_eq_true H2%bool_decide_eq_true].
  split; [exact Hx|]. split; [|split; assumption]. clear. intros t o op Hin. unfold with_threads in Hin. apply elem_of_list_fmap in Hin as (lb & [= -> <-] & _). reflexivity.
Qed.
Print Assumptions C50_refuted_foreign_thread.

(** A ConSet (or CloneConMap) of elements that are Sync but not Send is Sync, so that a thread can insert an element into a set that another one owns.  The owner (1) then
    removes it, and destroys what thread 2 has made. *)
Definition insert_elsewhere (lb : @label CN) : thread := match lb with LInv o _ | LStep o _ _ | LUnpin o => if Pos.eqb o 1 then 2 else 1 | _ => 1 end.
Definition remove_one : list cmd := seqcalls 1%positive [ins 5 7; rem 5] ++ [Lab (LUnpin 1%positive); Lab (LUnpin 2%positive); Lab (LFree 0)].
Theorem C50_refuted_sync : forall t h, implements Sync t -> ~ implements Send t -> implements Sync h ->
  implements Sync (TConSet t h) /\ ~ implements Send (TConSet t h) /\
  exists ls s ev l, texec (C:=CN) false true 1 ls s ev /\ (l, 2) ∈ th_made s /\ (l, 1) ∈ th_destroyed s.
Proof.
  intros t h H1 H2 H3. rewrite !C39_ConSet. split; [tauto|]. split; [tauto|].
  destruct (texec_check false true 1 (with_threads insert_elsewhere remove_one) (fun s =>
    bool_decide ((1%positive, 2) ∈ th_made s) && bool_decide ((1%positive, 1) ∈ th_destroyed s))) as (s & ev & Hx & Hf).
  { vm_compute. reflexivity. }
  exists (with_threads insert_elsewhere remove_one), s, ev, 1%positive. apply andb_true_iff in Hf as [Hf1%bool_decide_eq_true Hf2%bool_decide_eq_true]. split; [exact Hx|]. split; assumption.
Qed.
Print Assumptions C50_refuted_sync.
Example C50_refuted_sync_ex : implements Sync t_mutex_guard /\ ~ implements Send t_mutex_guard /\ implements Sync t_hasher.
Proof. unfold t_mutex_guard, t_hasher. rewrite !impl_user. done. Qed.

(** What holds.  ConMap: unless the elements are both Send and Sync, everything is done by the thread that made the map, except the destructions that other threads take over from
    crossbeam-epoch.  In particular if there are none of these, all the elements are destroyed where they were made.  [th_made] and [th_destroyed] have all the nodes with elements there ever were, resp. all
    those whose elements were destroyed. *)
Theorem C50_stays_on_thread_partial `{C : Config} : forall k v h is_send is_sync,
  (is_send = true <-> implements Send (TConMap k v h)) -> (is_sync = true <-> implements Sync (TConMap k v h)) ->
  ~ (implements Send (TElement k v) /\ implements Sync (TElement k v)) ->
  forall t0 ls s ev, texec is_send is_sync t0 ls s ev ->
    (forall o t, th_by s !! o = Some t -> t = t0) /\
    (forall l a it, m_heap (s_mem (th_s s)) !! l = Some (HObj a (BData it)) -> (l, t0) ∈ th_made s) /\
    (forall l t, (l, t) ∈ th_made s -> t = t0) /\
    (forall l, (l, KData) ∈ m_freed (s_mem (th_s s)) <-> exists t, (l, t) ∈ th_destroyed s) /\
    (forall l t, (l, t) ∈ th_destroyed s -> t = t0 \/ exists n, TAct t (LFree n) ∈ ls).
Proof.
  intros k v h b1 b2 Hb1 Hb2 Hn t0 ls s ev Hx. rewrite impl_con_map in Hb1, Hb2.
  assert (b1 = false) as -> by (destruct b1; [tauto|done]). assert (b2 = false) as -> by (destruct b2; [tauto|done]).
  destruct (tinv_run _ _ _ _ _ _ Hx) as [H1 H2 H3 H4 H5 H6 H7]. split; [by apply H3|]. split; [|split; [by apply H4|split; [done|by apply H5]]].
  intros l a it Hl. destruct (H6 l it) as (t & Ht); [unfold hbody; by rewrite Hl|]. by rewrite <-(H4 eq_refl eq_refl _ _ Ht).
Qed.
Print Assumptions C50_stays_on_thread_partial.

(** A map that is not Sync (all three containers, if the elements are not Sync): the calls that are running, and the references that are in use, are all of the thread that owns the map, at any time. *)
Theorem C50_not_shared_partial `{C : Config} : forall is_send t0 ls s ev, texec is_send false t0 ls s ev ->
  forall o, o ∈ guards (th_s s) -> th_by s !! o = Some (th_owner s).
Proof. intros b1 t0 ls s ev Hx. by apply (ti_excl _ _ _ _ _ (tinv_run _ _ _ _ _ _ Hx)). Qed.
Print Assumptions C50_not_shared_partial.
Corollary C50_not_shared_types : forall k v t h,
  (~ implements Sync k \/ ~ implements Sync v -> ~ implements Sync (TConMap k v h) /\ ~ implements Sync (TCloneConMap k v h)) /\
  (~ implements Sync t -> ~ implements Sync (TConSet t h)).
Proof.
  intros k v t h. destruct (C39_ConMap k v h) as [_ H1]. rewrite H1, C39_CloneConMap, C39_ConSet. tauto.
Qed.
Print Assumptions C50_not_shared_types.

(** The hypotheses are met by a map of Rc<usize> in which an element is replaced and destroyed by the thread that made it. *)
Example C50_ex : exists ls s ev, texec (C:=CN) false false 1 ls s ev /\
  ~ (implements Send (TElement TUsize t_rc) /\ implements Sync (TElement TUsize t_rc)) /\ (1%positive, 1) ∈ th_destroyed s /\ (2%positive, 1) ∈ th_made s.
Proof.
  destruct (texec_check false false 1 (with_threads (fun _ => 1) replace_one) (fun s =>
    bool_decide ((1%positive, 1) ∈ th_destroyed s) && bool_decide ((2%positive, 1) ∈ th_made s))) as (s & ev & Hx & Hf).
  { vm_compute. reflexivity. }
  exists (with_threads (fun _ => 1) replace_one), s, ev. apply andb_true_iff in Hf as [H1%bool_decide_eq_true H2%bool_decide_eq_true]. split; [exact Hx|]. split; [|split; assumption].
  clear. rewrite !impl_element. unfold t_rc. rewrite !impl_user. intros [[_ H] _]. discriminate.
Qed.
(** A map that is Send but not Sync is used by one thread, moved, and used by another. *)
Definition moved : list tlabel :=
  map (TAct 1) (schedule (seqcalls 1%positive [ins 5 7] ++ [Lab (LUnpin 1%positive)])) ++ [TMove 2; TAct 2 (LInv 2%positive (get 5))].
Example C50_ex_moved : exists ls s ev, texec (C:=CN) true false 1 ls s ev /\ th_owner s = 2 /\ 2%positive ∈ guards (th_s s) /\ th_by s !! 1%positive = Some 1 /\ th_by s !! 2%positive = Some 2.
Proof.
  destruct (texec_check true false 1 moved (fun s => bool_decide (th_owner s = 2) && bool_decide (2%positive ∈ guards (th_s s)) && bool_decide (th_by s !! 1%positive = Some 1) && bool_decide (th_by s !! 2%positive = Some 2))) as (s & ev & Hx & Hf).
  { vm_compute. reflexivity. }
  exists moved, s, ev. split; [exact Hx|]. clear Hx. apply andb_true_iff in Hf as [Hf H4%bool_decide_eq_true]. apply andb_true_iff in Hf as [Hf H3%bool_decide_eq_true].
  apply andb_true_iff in Hf as [H1%bool_decide_eq_true H2%bool_decide_eq_true]. repeat split; assumption.
Qed.

(** ** C51: any guard will do.  [Raw] is memory safe whatever guards its callers pass to it.
    This is FALSE if the guards are of different collectors: there is an execution in which a lookup follows a pointer to a node that was freed. *)
Fixpoint with_collectors (f : opid -> collector) (ls : list (@label CN)) : list klabel :=
  match ls with [] => [] | LInv o op :: ls => KInv o op (f o) :: with_collectors f ls | lb :: ls => KAct lb :: with_collectors f ls end.
(** Two elements below a branch; a lookup (3) has read the pointer to the branch.  The removal (4) of the other element replaces the branch. *)
Definition prune_under_get : list cmd := seqcalls 1%positive [ins 5 7; ins 6 8] ++ [Inv 3%positive (get 5); Steps 1 3%positive; Inv 4%positive (rem 6); Finish 4%positive].
(** The guards of 1, 2 and 3 are of collector 1, that of 4 is of collector 2, which knows nothing about call 3. *)
Definition two_collectors : list klabel :=
  with_collectors (fun o => if Pos.eqb o 4 then 2 else 1) (schedule prune_under_get) ++
  [KAct (LUnpin 4%positive); KAct (LFree 0); KAct (LFree 0); KAct (LStep 3%positive false 99%N)].
Lemma kexec_check ls (f : kstate -> bool) :
  match krun kinit ls with Some (s, _) => f s | None => false end = true -> exists s ev, kexec (C:=CN) ls s ev /\ f s = true.
Proof. unfold kexec. destruct (krun kinit ls) as [[s ev]|]; [|done]. intros H. by exists s, ev. Qed.
Theorem C51_refuted : exists ls s ev o op, kexec (C:=CN) ls s ev /\ s_ops (k_s s) !! o = Some (SFail op FUB).
Proof.
  destruct (kexec_check two_collectors (fun s => match s_ops (k_s s) !! 3%positive with Some (SFail _ FUB) => true | _ => false end)) as (s & ev & Hx & Hf).
  { vm_compute. reflexivity. }
  assert (exists op, s_ops (k_s s) !! 3%positive = Some (SFail op FUB)) as [op E].
  { clear Hx. destruct (s_ops (k_s s) !! 3%positive) as [[| |op [|]|]|] eqn:E; try discriminate Hf. by exists op. }
  exists two_collectors, s, ev, 3%positive, op. split; [exact Hx|exact E].
Qed.
Print Assumptions C51_refuted.

(** It holds if all the guards are of one collector: then everything that happens can happen in the model without collectors, so that all the theorems about it apply. *)
Theorem C51_one_collector_partial `{C : Config} : forall c0 ls s ev, kexec ls s ev -> (forall o op c, KInv o op c ∈ ls -> c = c0) ->
  exec (plain <$> ls) (k_s s) ev /\ s_ub (k_s s) = false /\ forall o op, s_ops (k_s s) !! o <> Some (SFail op FUB).
Proof.
  intros c0 ls s ev Hx Hc. assert (exec (plain <$> ls) (k_s s) ev) as He by exact (krun_run c0 _ _ _ _ (kinv_init c0) Hx Hc).
  split; [done|]. apply C09_no_use_after_free. by exists (plain <$> ls), ev.
Qed.
Print Assumptions C51_one_collector_partial.
(** The same calls with guards of one collector: the branch is not freed under the lookup, which finds its element. *)
Example C51_ex : (exists s ev, kexec (with_collectors (fun _ => 1) (schedule prune_under_get) ++ [KAct (LUnpin 4%positive); KAct (LStep 3%positive false 99%N)]) s ev /\
    length (k_garb s) = 2 /\ exists r, s_ops (k_s s) !! 3%positive = Some (SRet (get 5) (ROpt (Some r))) /\ rr_val r = el 5 7) /\
  krun kinit (with_collectors (fun _ => 1) (schedule prune_under_get) ++ [KAct (LUnpin 4%positive); KAct (LFree 0)]) = None.
Proof.
  split; [|vm_compute; reflexivity].
  destruct (kexec_check (with_collectors (fun _ => 1) (schedule prune_under_get) ++ [KAct (LUnpin 4%positive); KAct (LStep 3%positive false 99%N)])
    (fun s => (length (k_garb s) =? 2) && match s_ops (k_s s) !! 3%positive with Some (SRet (OGet 5%N) (ROpt (Some r))) => N.eqb (fst (rr_val r)) 5 && N.eqb (snd (rr_val r)) 7 | _ => false end)) as (s & ev & Hx & Hf).
  { vm_compute. reflexivity. }
  exists s, ev. split; [exact Hx|]. clear Hx. apply andb_true_iff in Hf as [H1%Nat.eqb_eq Hf]. split; [exact H1|].
  repeat case_match; try discriminate. subst. apply andb_true_iff in Hf as [E1%N.eqb_eq E2%N.eqb_eq]. eexists. split; [reflexivity|].
  destruct (rr_val _) as [x y]. cbn in E1, E2. by subst.
Qed.
