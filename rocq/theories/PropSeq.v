(** * Properties C02, C07, C17, C19, and what holds of C18 and C20.
    Statements, with concrete cases that meet their hypotheses. *)
From Verif Require Import Model Mem Inv Safe SafeSys SafeProps Look Sem Spec LinSpec IterSpec SeqSpec Concrete SysSem Lin LinProps LinMore Shape Seq Prune SeqSys SeqShape SeqHist Debug IterProg PropIter Refuted.

Section seqprops.
Context {C : Config} {HC : ConfigOk C}.
Implicit Types (s : state) (ls : list label) (ev : list event) (o : opid) (k : Key) (p : Pl).

Lemma quiet_same ls s ev o op : exec ls s ev -> wf_calls ls -> (forall s1, during ls o op s1 -> no_writer s1) ->
  forall s1 s2, during ls o op s1 -> during ls o op s2 -> same_contents s1 s2.
Proof.
  intros Hx Hw Hrd.
  assert (forall j1 j2 s1 s2, j1 <= j2 -> j2 <= length ls -> state_at ls j1 = Some s1 -> state_at ls j2 = Some s2 -> in_progress s1 o op -> in_progress s2 o op -> same_contents s1 s2) as Hgo.
  { intros j1 j2 s1 s2 Hj Hl H1 H2 P1 P2 k x. symmetry. eapply (untouched ls s ev j1 j2); try done.
    - destruct P2 as [q Hq]. destruct (state_at_exec _ _ _ _ _ Hx H2) as [e2 Hx2]. eapply running_not_dropped; [by eapply exec_sinv|exact Hq].
    - intros j sj o' op' Hjj Hsj Hpr. assert (is_reader op' = true) as Hre.
      { eapply (Hrd sj); [|exact Hpr]. exists j. split; [done|]. eapply (between ls s ev o op j1 j j2); try done; lia. }
      clear -Hre. destruct op'; try discriminate Hre; intros Ht; destruct Ht. }
  intros s1 s2 (i1 & H1 & P1) (i2 & H2 & P2). destruct (state_at_le _ _ _ H1) as (j1 & L1 & S1). destruct (state_at_le _ _ _ H2) as (j2 & L2 & S2).
  destruct (decide (j1 <= j2)); [by eapply Hgo|]. assert (same_contents s2 s1) as Hs by (eapply (Hgo j2 j1); try done; lia).
  intros k x. symmetry. apply Hs.
Qed.

Lemma is_empty_exact ls s ev o b : exec ls s ev -> wf_calls ls -> removals_alone ls -> ERet o (RBool b) ∈ ev ->
  (forall s1, during ls o OIsEmpty s1 -> no_writer s1) -> forall s1, during ls o OIsEmpty s1 -> b = true <-> forall k, absent s1 k.
Proof.
  intros Hx Hw Hwa Hr Hnw s1 Hd1.
  destruct (ret_step _ _ _ _ _ Hx Hr) as (n & spur & ad & sr & s2 & ev1 & e & op & Hl & Hx1 & Hst & Hre & [p Hp] & Hi).
  destruct (si_ret _ _ (exec_sh _ _ _ Hx) _ _ _ Hi Hr) as [Hsh _]. destruct op; try done.
  assert (state_at ls n = Some sr) as Hsr.
  { pose proof (state_at_end _ _ _ Hx1) as H. unfold state_at in *. rewrite take_length, take_take in H. pose proof (lookup_lt_Some _ _ _ Hl). by replace (_ `min` _) with n in H by lia. }
  assert (during ls o OIsEmpty sr) as Hdr by (exists n; split; [done|by exists p]).
  pose proof (quiet_same _ _ _ _ _ Hx Hw Hnw s1 sr Hd1 Hdr) as Hsame.
  assert (s_dropped sr = false) as Hnd by (eapply running_not_dropped; [by eapply exec_sinv|done]).
  assert (wf_calls (take n ls)) as Hw1 by (by apply wf_take).
  destruct (exec_full _ _ _ Hx1 Hw1 Hnd) as [pos Hf].
  assert (canonical (s_mem sr)) as Hcan by (eapply exec_canonical; [done|done|by eapply alone_take|done|by apply Hnw]).
  assert (RBool b = RBool (is_null (m_root (s_mem sr)))) as [= ->].
  { destruct (si_run _ _ (exec_sh _ _ _ Hx1) _ _ _ Hp) as [Hshp _]. cbn [step] in Hst. rewrite Hp in Hst. clear -Hshp Hst Hre.
    destruct p; simpl in Hshp; try done; try (by destruct Hshp); try (by destruct k as [?| |]; [|destruct Hshp..]).
    cbn [op_step] in Hst. unfold ok in Hst. injection Hst as <- <-. simpl in Hre. apply elem_of_list_singleton in Hre. by injection Hre as ->. }
  rewrite (root_null pos _ (li_mem _ _ (fu_live _ _ Hf)) (fu_sem _ _ Hf) Hcan).
  split.
  - intros H k. apply (Hsame k None). by apply (has_abs pos sr k None Hf).
  - intros H k. apply (has_abs pos sr k None Hf). apply (Hsame k None). exact (H k).
Qed.
End seqprops.

#[local] Opaque schedule fin evs state_at run.

(** ** C02: if the calls do not overlap, they return, one after the other, exactly what the same calls on a plain map return, and at the end (and so
    between any two calls) the map has what the plain map has. *)
Theorem C02_like_a_plain_map `{C : Config} `{!ConfigOk C} : forall ls s ev, exec ls s ev -> wf_calls ls -> sequential ls ->
  exists a, exact_run aempty (history ev) a /\
    (quiescent s -> calls ev = (history ev).*1 /\ (s_dropped s = false -> forall k, has s k (a k))).
Proof.
  intros ls s ev Hx Hw Hs. destruct (exact_from [] init [] ls s ev) as (a & Ha & Hq); [reflexivity| |exact Hx|done|by apply sequential_from_0|intros _; by apply sequential_alone|].
  - intros o op [p Hp]. simpl in Hp. by rewrite lookup_empty in Hp.
  - by exists a.
Qed.
Print Assumptions C02_like_a_plain_map.

(** The same for a map with any past, including overlapping and abandoned calls: from a moment [s0] on at which no call is in progress, calls that do not overlap
    return exactly what the same calls on a plain map with the contents of [s0] return.  Only is_empty is excluded (C18_refuted), unless no two removals
    overlapped in the past either. *)
Theorem C02_after_concurrency `{C : Config} `{!ConfigOk C} : forall ls0 s0 ev0 ls1 s ev1, exec ls0 s0 ev0 -> quiescent s0 -> s_dropped s0 = false ->
  run s0 ls1 = Some (s, ev1) -> wf_calls (ls0 ++ ls1) -> sequential_from (length ls0) (ls0 ++ ls1) -> (OIsEmpty ∈ calls ev1 -> removals_alone (ls0 ++ ls1)) ->
  exists a0 a, (forall k, has s0 k (a0 k)) /\ exact_run a0 (history ev1) a /\
    (quiescent s -> calls ev1 = (history ev1).*1 /\ (s_dropped s = false -> forall k, has s k (a k))).
Proof.
  intros ls0 s0 ev0 ls1 s ev1 Hx0 Hq0 Hd0 Hr Hw Hsq Hc. destruct (exact_from _ _ _ _ _ _ Hx0 Hq0 Hr Hw Hsq Hc) as (a & Ha & Hq).
  exists (A_of ls0 (length ls0)), a. split; [|done]. intros k. eapply has_A; [done| |by eapply state_at_end|done|done].
  intros o op Hin. apply (Hw o). apply elem_of_app. by left.
Qed.
Print Assumptions C02_after_concurrency.

(** Also for a call that runs in the middle of other activity, as long as no other modifying call is in progress while it runs. *)
Theorem C17_is_empty `{C : Config} `{!ConfigOk C} : forall ls s ev o b, exec ls s ev -> wf_calls ls -> sequential ls -> ERet o (RBool b) ∈ ev ->
  forall s1, during ls o OIsEmpty s1 -> b = true <-> forall k, absent s1 k.
Proof.
  intros ls s ev o b Hx Hw Hs Hr. eapply is_empty_exact; [done|done|by apply sequential_alone|done|].
  intros s1 (j & Hj & Hp) o' op' Hp'. pose proof (proj1 Hs _ _ _ _ _ _ Hj Hp Hp') as <-. destruct Hp as [p Hp], Hp' as [p' Hp']. rewrite Hp in Hp'. by injection Hp' as <- _.
Qed.
Print Assumptions C17_is_empty.

(** ** C18: the full claim (without [removals_alone]) is false, see C18_refuted.  It holds if no two removals overlapped (and no modifying call was broken off):
    inserts may have overlapped with each other and with removals; lookups, iterations and other is_empty calls may overlap with everything, and the is_empty
    call itself with everything but modifying calls. *)
Theorem C18_is_empty_partial `{C : Config} `{!ConfigOk C} : forall ls s ev o b, exec ls s ev -> wf_calls ls -> removals_alone ls -> ERet o (RBool b) ∈ ev ->
  (forall s1, during ls o OIsEmpty s1 -> no_writer s1) -> forall s1, during ls o OIsEmpty s1 -> b = true <-> forall k, absent s1 k.
Proof. intros ls s ev o b. apply is_empty_exact. Qed.
Print Assumptions C18_is_empty_partial.

(** ** C19: the trie is pruned whenever no modifying call is in progress, if no two removals overlapped (inserts may overlap with each other and with removals).
    No pointer is condemned; there is a branching node for the hash prefix [q] exactly if two elements share it (and [q] is shorter than
    the whole hash); the crate's own check passes. *)
Theorem C19_pruned `{C : Config} `{!ConfigOk C} : forall ls s ev, exec ls s ev -> wf_calls ls -> removals_alone ls -> no_writer s -> s_dropped s = false ->
  (forall q v, at_path (s_mem s) q v -> sh_cond v = false) /\
  (forall q, branch_at (s_mem s) q <-> length q < 16 /\ exists p1 p2, stored (s_mem s) p1 /\ stored (s_mem s) p2 /\ keqb (keyof p1) (keyof p2) = false /\
     hash_prefix (keyof p1) q /\ hash_prefix (keyof p2) q) /\
  assert_pruned (s_mem s) = true.
Proof.
  intros ls s ev Hx Hw Hwa Hn Hd. pose proof (exec_canonical _ _ _ Hx Hw Hwa Hd Hn) as Hcan. destruct (exec_full _ _ _ Hx Hw Hd) as [pos Hf].
  pose proof (li_mem _ _ (fu_live _ _ Hf)) as Hm. pose proof (fu_sem _ _ Hf) as Hse. split; [intros q v; by eapply at_clean|]. split; [|by eapply assert_pruned_ok].
  intros q. split; [by apply (branch_two pos)|]. intros (Hl & p1 & p2 & H1 & H2 & H3 & H4 & H5). by apply (two_branch pos _ q p1 p2).
Qed.
Print Assumptions C19_pruned.

(** Whatever happened before: two maps with the same contents (and the same hash function) are the same tree. *)
Theorem C19_shape `{C : Config} `{!ConfigOk C} : forall ls1 s1 ev1 ls2 s2 ev2,
  exec ls1 s1 ev1 -> wf_calls ls1 -> removals_alone ls1 -> no_writer s1 -> s_dropped s1 = false ->
  exec ls2 s2 ev2 -> wf_calls ls2 -> removals_alone ls2 -> no_writer s2 -> s_dropped s2 = false ->
  (forall p, stored (s_mem s1) p <-> stored (s_mem s2) p) ->
  forall q, (branch_at (s_mem s1) q <-> branch_at (s_mem s2) q) /\ forall p, leaf_at (s_mem s1) q p <-> leaf_at (s_mem s2) q p.
Proof.
  intros ls1 s1 ev1 ls2 s2 ev2 Hx1 Hw1 Ha1 Hn1 Hd1 Hx2 Hw2 Ha2 Hn2 Hd2 Hst.
  destruct (exec_full _ _ _ Hx1 Hw1 Hd1) as [pos1 Hf1]. destruct (exec_full _ _ _ Hx2 Hw2 Hd2) as [pos2 Hf2].
  apply (same_tree pos1 _ pos2); try done; try apply Hf1; try apply Hf2; by eapply exec_canonical.
Qed.
Print Assumptions C19_shape.

(** A leaf is where its hash leads to, as deep as there are branching nodes. *)
Theorem C19_leaves `{C : Config} `{!ConfigOk C} : forall ls s ev, exec ls s ev -> wf_calls ls -> s_dropped s = false ->
  forall q p, leaf_at (s_mem s) q p <->
    stored (s_mem s) p /\ length q <= 16 /\ hash_prefix (keyof p) q /\ ~ branch_at (s_mem s) q /\ (forall q' i q'', q = q' ++ i :: q'' -> branch_at (s_mem s) q').
Proof.
  intros ls s ev Hx Hw Hd q p. destruct (exec_full _ _ _ Hx Hw Hd) as [pos Hf]. apply (leaf_iff pos); apply Hf.
Qed.
Print Assumptions C19_leaves.

(** ** C20: the full claim (without [removals_alone]) is false: see C20_refuted for overlapping removals, and C20_refuted_panic for a call that is broken off. *)
Theorem C20_pruned_partial `{C : Config} `{!ConfigOk C} : forall ls s ev, exec ls s ev -> wf_calls ls -> removals_alone ls -> quiescent s -> s_dropped s = false ->
  assert_pruned (s_mem s) = true.
Proof. intros ls s ev Hx Hw Ha Hq Hd. apply (C19_pruned ls s ev Hx Hw Ha); [|done]. intros o op Hp. by apply Hq in Hp. Qed.
Print Assumptions C20_pruned_partial.

(** ** C07: two maps with different hash functions (and nothing else different), used sequentially with the same calls, give the same results. *)
Section rehash.
Context {C : Config} (h : Key -> N).
Notation C' := (rehash C h).
Lemma listed_perm (HC : ConfigOk C) (l1 l2 : list Pl) (a : amap) : distinct_keys l1 -> distinct_keys l2 ->
  (forall k, listed l1 k (a k)) -> (forall k, listed l2 k (a k)) -> Permutation l1 l2.
Proof.
  assert (forall l, distinct_keys l -> NoDup l) as Hnd.
  { intros l Hd. apply NoDup_alt. intros i j x Hi Hj. eapply Hd; [done|done|apply keqb_refl]. }
  assert (forall l (p : Pl), distinct_keys l -> (forall k, listed l k (a k)) -> p ∈ l <-> a (keyof p) = Some p) as Hin.
  { intros l p Hd Hl. specialize (Hl (keyof p)). split.
    - intros Hp. destruct (a (keyof p)) as [q|] eqn:E; simpl in Hl.
      + destruct Hl as [Hq Hk]. apply elem_of_list_lookup in Hp as [i Hi]. apply elem_of_list_lookup in Hq as [j Hj]. assert (j = i) as -> by (by eapply Hd). congruence.
      + apply Hl in Hp. by rewrite keqb_refl in Hp.
    - intros E. rewrite E in Hl. by destruct Hl. }
  intros D1 D2 H1 H2. apply NoDup_Permutation; [by apply Hnd..|]. intros p. by rewrite (Hin l1), (Hin l2).
Qed.

Lemma exact_rehash (HC : ConfigOk C) (a b : @amap C) (a' b' : @amap C') op r r' : (forall k, a k = a' k) ->
  @exact C a op r b -> @exact C' a' (op_re C h op) r' b' -> same_result C h r r' /\ forall k, b k = b' k.
Proof.
  intros Ha. unfold exact, same_result, op_re, put, del, same. destruct op as [p|k f|k|k| |], r as [x|[x|x]|x|x], r' as [y|[y|y]|y|y]; try done; simpl.
  - intros [E1 H1] [E2 H2]. split; [|intros k; by rewrite H1, H2, Ha]. rewrite E1. etransitivity; [apply Ha|symmetry; exact E2].
  - intros [E1 H1] [E2 H2]. split; [|intros k'; by rewrite H1, H2, Ha]. rewrite Ha in E1. pose proof (eq_trans (eq_sym E1) E2) as E. by injection E.
  - intros [E1 H1] (E2 & _). rewrite Ha in E1. pose proof (eq_trans (eq_sym E1) E2) as E. discriminate E.
  - intros (E1 & _) [E2 H2]. rewrite Ha in E1. pose proof (eq_trans (eq_sym E1) E2) as E. discriminate E.
  - intros (E1 & F1 & H1) (E2 & F2 & H2). split; [rewrite F1; symmetry; exact F2|]. intros k'. by rewrite H1, H2, Ha.
  - intros [E1 H1] [E2 H2]. split; [|intros k'; by rewrite H1, H2, Ha]. rewrite E1. etransitivity; [apply Ha|symmetry; exact E2].
  - intros [E1 H1] [E2 H2]. split; [|intros k'; by rewrite H1, H2, Ha]. rewrite E1. etransitivity; [apply Ha|symmetry; exact E2].
  - intros [E1 H1] [E2 H2]. split; [|intros k'; by rewrite H1, H2, Ha]. destruct x, y; try done; exfalso.
    + assert (false = true); [|done]. apply E2. intros k. rewrite <-Ha. by apply E1.
    + assert (false = true); [|done]. apply E1. intros k. rewrite Ha. by apply E2.
  - intros (D1 & E1 & H1) (D2 & E2 & H2). split; [|intros k'; by rewrite H1, H2, Ha].
    apply (listed_perm HC _ _ a); [exact D1|exact D2|exact E1|]. intros k. rewrite Ha. exact (E2 k).
Qed.

Lemma exact_run_rehash (HC : ConfigOk C) (a b : @amap C) (a' b' : @amap C') h1 h2 : (forall k, a k = a' k) ->
  @exact_run C a h1 b -> @exact_run C' a' h2 b' -> h2.*1 = op_re C h <$> h1.*1 -> Forall2 (same_result C h) (h1.*2) (h2.*2) /\ forall k, b k = b' k.
Proof.
  revert a a' h2. induction h1 as [|[op r] h1 IH]; intros a a' [|[op' r'] h2] Ha; try done.
  - simpl. intros H1 H2 _. split; [constructor|]. intros k. by rewrite (H1 k), (H2 k).
  - cbn [exact_run]. intros (c & E1 & R1) (c' & E2 & R2) [= -> Eq]. destruct (exact_rehash HC _ _ _ _ _ _ _ Ha E1 E2) as [Hr Hc].
    destruct (IH _ _ _ Hc R1 R2 Eq) as [Hf Hb]. split; [|done]. by constructor.
Qed.
End rehash.

Theorem C07_hash_does_not_matter : forall (C : Config) (h : Key -> N), ConfigOk C -> ConfigOk (rehash C h) ->
  forall ls s ev ls' s' ev', @exec C ls s ev -> @wf_calls C ls -> @sequential C ls -> @exec (rehash C h) ls' s' ev' -> @wf_calls (rehash C h) ls' -> @sequential (rehash C h) ls' ->
  (history ev').*1 = op_re C h <$> (history ev).*1 ->
  Forall2 (same_result C h) ((history ev).*2) ((history ev').*2).
Proof.
  intros C h HC HC' ls s ev ls' s' ev' Hx Hw Hs Hx' Hw' Hs' Eq.
  destruct (@C02_like_a_plain_map C HC _ _ _ Hx Hw Hs) as (a & Ha & _). destruct (@C02_like_a_plain_map (rehash C h) HC' _ _ _ Hx' Hw' Hs') as (a' & Ha' & _).
  by eapply (exact_run_rehash h HC aempty a (@aempty (rehash C h)) a').
Qed.
Print Assumptions C07_hash_does_not_matter.

(** Any number of different keys coexist, even if they have the same hash: after inserts of all elements of [L] (whose keys are pairwise different), all of them are in the map. *)
Theorem C07_all_coexist `{C : Config} `{!ConfigOk C} : forall ls s ev (L : list Pl), exec ls s ev -> wf_calls ls -> sequential ls -> quiescent s -> s_dropped s = false ->
  (history ev).*1 = OInsert <$> L -> distinct_keys L -> forall p, p ∈ L -> maps s (keyof p) p.
Proof.
  intros ls s ev L Hx Hw Hs Hq Hd Eq Hdk p Hp. destruct (C02_like_a_plain_map _ _ _ Hx Hw Hs) as (a & Hrun & Ha). pose proof (proj2 (Ha Hq) Hd (keyof p)) as Ha'. clear Ha. rename Ha' into Ha.
  assert (a (keyof p) = Some p) as E; [|by rewrite E in Ha].
  clear -C ConfigOk0 Hrun Eq Hdk Hp. revert L Eq Hdk Hp Hrun. generalize (history ev) as hs. clear ev. intros hs. generalize (@aempty C) as a0. revert hs.
  assert (forall hs (a0 : amap) L, hs.*1 = OInsert <$> L -> exact_run a0 hs a -> (forall q, q ∈ L -> keqb (keyof q) (keyof p) = false) -> a0 (keyof p) = Some p -> a (keyof p) = Some p) as Hkeep.
  { intros hs. induction hs as [|[op r] hs IH]; intros a0 [|q L] Heq Hrun Hne Hp0; try discriminate Heq; simpl in Hrun; [by rewrite (Hrun (keyof p))|]. injection Heq as -> Heq. destruct Hrun as (b & He & Hrun).
    eapply (IH b L); [done|done|intros q' Hq'; apply Hne; by right|]. unfold exact in He. destruct r; try done. destruct He as [_ Hb]. rewrite (Hb (keyof p)). rewrite (Hne q) by (by left). done. }
  intros hs. induction hs as [|[op r] hs IH]; intros a0 [|q L] Heq Hdk Hp Hrun; try discriminate Heq; [by apply elem_of_nil in Hp|]. injection Heq as -> Heq. cbn [exact_run] in Hrun. destruct Hrun as (b & He & Hrun).
  assert (distinct_keys L) as HdkL. { intros i j x y Hi Hj Hk. assert (S i = S j) as E by (by eapply (Hdk (S i) (S j) x y)). lia. }
  apply elem_of_cons in Hp as [<-|Hp]; [|by eapply (IH b L)].
  eapply (Hkeep hs b L); [done|done| |].
  - intros x Hx. apply elem_of_list_lookup in Hx as [i Hi]. destruct (keqb (keyof x) (keyof p)) eqn:E; [|done]. exfalso. assert (S i = 0); [|done].
    by eapply (Hdk (S i) 0 x p).
  - unfold exact in He. destruct r; try done. destruct He as [_ Hb]. by rewrite (Hb (keyof p)), keqb_refl.
Qed.
Print Assumptions C07_all_coexist.

(** ** Concrete cases *)

(** Sequential schedules, for any configuration: every call runs until it has returned. *)
Section seqsched.
Context {C : Config}.
Definition free_addr (m : mem) : N := match List.find (addr_free m) (map N.of_nat (seq 1 300)) with Some a => a | None => 1000%N end.
Fixpoint to_end (n : nat) (o : opid) (s : state) : option (state * list label) :=
  match n with
  | 0 => None
  | S n => match s_ops s !! o with
           | Some (SRun _ _) => let lb := LStep o false (free_addr (s_mem s)) in
              match step s lb with Some (s', _) => match to_end n o s' with Some (s2, ls) => Some (s2, lb :: ls) | None => None end | None => None end
           | _ => Some (s, [])
           end
  end.
Fixpoint seq_sched (o : opid) (ops : list oper) (s : state) : list label :=
  match ops with
  | [] => []
  | op :: ops => match step s (LInv o op) with
                 | Some (s1, _) => match to_end 2000 o s1 with Some (s2, ls) => LInv o op :: ls ++ seq_sched (Pos.succ o) ops s2 | None => [] end
                 | None => [] end
  end.
(** No two calls in progress at the same time, none aborted. *)
Fixpoint seqb_from (s : state) (ls : list label) : bool :=
  (length (List.filter (fun x => match x.2 with SRun _ _ => true | _ => false end) (map_to_list (s_ops s))) <=? 1) &&
  match ls with
  | [] => true
  | lb :: ls => match lb with LAbort _ => false | _ => true end && match step s lb with Some (s', _) => seqb_from s' ls | None => false end
  end.
Lemma one_running (l : list (opid * ostat)) o1 op1 p1 o2 op2 p2 : length (List.filter (fun x : opid * ostat => match x.2 with SRun _ _ => true | _ => false end) l) <= 1 ->
  (o1, SRun op1 p1) ∈ l -> (o2, SRun op2 p2) ∈ l -> o1 = o2.
Proof.
  intros Hl H1 H2.
  assert (In (o1, SRun op1 p1) (List.filter (fun x : opid * ostat => match x.2 with SRun _ _ => true | _ => false end) l)) as I1 by (apply filter_In; split; [by apply elem_of_list_In|done]).
  assert (In (o2, SRun op2 p2) (List.filter (fun x : opid * ostat => match x.2 with SRun _ _ => true | _ => false end) l)) as I2 by (apply filter_In; split; [by apply elem_of_list_In|done]).
  destruct (List.filter _ l) as [|x [|y l']]; simpl in *; [done| |lia]. destruct I1 as [->|[]], I2 as [[=]|[]]. done.
Qed.
End seqsched.
Section seqsched2.
Context {C : Config}.
Local Transparent state_at run.
Lemma seqb_spec_from ls : forall s : state, seqb_from s ls = true ->
  (forall n s1 e1 o1 op1 o2 op2, run s (take n ls) = Some (s1, e1) -> in_progress s1 o1 op1 -> in_progress s1 o2 op2 -> o1 = o2) /\ (forall o, LAbort o ∉ ls).
Proof.
  induction ls as [|lb ls IH]; intros s Hb; cbn [seqb_from] in Hb; apply andb_true_iff in Hb as [Hlen Hb]; apply Nat.leb_le in Hlen.
  - split; [|intros o H; by apply elem_of_nil in H]. intros n s1 e1 o1 op1 o2 op2 Hr [p1 H1] [p2 H2]. rewrite take_nil in Hr. injection Hr as <- <-.
    by eapply one_running; [exact Hlen|apply elem_of_map_to_list..].
  - apply andb_true_iff in Hb as [Hla Hb]. destruct (step s lb) as [[s' e]|] eqn:Es; [|done]. destruct (IH _ Hb) as [IH1 IH2]. split.
    + intros [|n] s1 e1 o1 op1 o2 op2 Hr H1 H2; cbn [take run] in Hr.
      * injection Hr as <- <-. destruct H1 as [p1 H1], H2 as [p2 H2]. by eapply one_running; [exact Hlen|apply elem_of_map_to_list..].
      * rewrite Es in Hr. destruct (run s' (take n ls)) as [[s2 e2]|] eqn:Er; [|done]. injection Hr as <- <-. by eapply IH1.
    + intros o [<-|H]%elem_of_cons; [done|by apply (IH2 o)].
Qed.
Lemma seqb_spec (ls : list label) : seqb_from init ls = true -> sequential ls.
Proof.
  intros H. destruct (seqb_spec_from _ _ H) as [H1 H2]. split; [|done]. intros n s o1 op1 o2 op2 Hs. unfold state_at in Hs.
  destruct (run init (take n ls)) as [[s1 e1]|] eqn:E; [|done]. injection Hs as <-. by eapply H1.
Qed.
Lemma seq_from_spec ls0 s0 ev0 (ls1 : list label) : exec ls0 s0 ev0 -> seqb_from s0 ls1 = true -> sequential_from (length ls0) (ls0 ++ ls1).
Proof.
  intros Hx H. destruct (seqb_spec_from _ _ H) as [H1 H2]. split.
  - intros n s o1 op1 o2 op2 Hn Hs. unfold state_at in Hs. rewrite take_app_ge in Hs by done. rewrite run_app, Hx in Hs.
    destruct (run s0 (take (n - length ls0) ls1)) as [[s1 e1]|] eqn:E; [|done]. injection Hs as <-. by eapply H1.
  - intros n o Hn Hl. rewrite lookup_app_r in Hl by done. apply (H2 o). by eapply elem_of_list_lookup_2.
Qed.
End seqsched2.

Section seqsched3.
Context {C : Config}.
Definition sls (ops : list oper) : list label := seq_sched 1%positive ops init.
Definition sfin (ops : list oper) : state := match run init (sls ops) with Some (s, _) => s | None => init end.
Definition sevs (ops : list oper) : list event := match run init (sls ops) with Some (_, ev) => ev | None => [] end.
Definition seq_wfb (lb : label) : bool := match lb with LInv _ (OGetOrInsert k f) => keqb (keyof (f k)) k | _ => true end.
Definition no_run (s : state) : bool := forallb (fun x => match x.2 with SRun _ _ => false | _ => true end) (map_to_list (s_ops s)) && negb (s_dropped s).
Definition seq_check (ls : list label) : bool := seqb_from init ls && forallb seq_wfb ls && match run init ls with Some (s, _) => no_run s | None => false end.
Lemma seq_check_spec ops : seq_check (sls ops) = true -> exec (sls ops) (sfin ops) (sevs ops) /\ wf_calls (sls ops) /\ sequential (sls ops) /\ quiescent (sfin ops) /\ s_dropped (sfin ops) = false.
Proof.
  unfold seq_check, exec, sfin, sevs. generalize (sls ops). intros ls [[H1 H2]%andb_true_iff H3]%andb_true_iff.
  destruct (run init ls) as [[s ev]|]; [|done]. apply andb_true_iff in H3 as [H3 H4]. split; [done|]. split; [|split; [by apply seqb_spec|split]].
  - intros o op Hin. rewrite forallb_forall in H2. apply elem_of_list_In in Hin. specialize (H2 _ Hin). by destruct op.
  - intros o op [q Hq]. rewrite forallb_forall in H3. specialize (H3 (o, SRun op q)). simpl in H3.
    assert (In (o, SRun op q) (map_to_list (s_ops s))) as Hin by (apply elem_of_list_In; by apply elem_of_map_to_list). by apply H3 in Hin.
  - by apply negb_true_iff in H4.
Qed.
End seqsched3.

Section walk.
Context {C : Config}.
Fixpoint walk (m : mem) (v : sh) (q : list nat) : option sh :=
  match q with
  | [] => Some v
  | i :: q => match sh_loc v with
              | Some l => match m_heap m !! l with Some (HObj _ (BInner sl)) => match sl !! i with Some w => walk m w q | None => None end | _ => None end
              | None => None end
  end.
Lemma walk_at m q : forall q0 v w, at_path m q0 v -> walk m v q = Some w -> at_path m (q0 ++ q) w.
Proof.
  induction q as [|i q IH]; intros q0 v w Hv H; simpl in H; [injection H as <-; by rewrite app_nil_r|].
  destruct (sh_loc v) as [l|] eqn:El; [|done]. destruct (m_heap m !! l) as [[a [sl|it]]|] eqn:Eh; [|done|done]. destruct (sl !! i) as [u|] eqn:Ei; [|done].
  change (i :: q) with ([i] ++ q). rewrite app_assoc. eapply IH; [|done]. by eapply at_slot.
Qed.
Definition branchb (m : mem) (q : list nat) : bool :=
  match walk m (m_root m) q with
  | Some v => match sh_loc v with Some l => match m_heap m !! l with Some (HObj _ (BInner _)) => true | _ => false end | None => false end
  | None => false
  end.
Lemma branchb_spec m q : branchb m q = true -> branch_at m q.
Proof.
  unfold branchb, branch_at. destruct (walk m (m_root m) q) as [v|] eqn:Ew; [|done]. apply (walk_at m q []) in Ew; [|apply at_root].
  destruct (sh_loc v) as [l|] eqn:El; [|done]. destruct (m_heap m !! l) as [[a [sl|it]]|] eqn:Eh; [|done|done]. intros _. by exists v, l, a, sl.
Qed.
End walk.

#[local] Opaque sls sfin sevs.

(** Two keys share a branch, a third is next to it; they are removed one after the other; is_empty and an iteration in between. *)
Definition sops : list (@oper CN) := [ins 17 1; ins 33 2; ise; goi 33 7; ins 2 3; rem 17; ite; get 33; rem 33; rem 33; rem 2; ise].
Definition show (r : @res CN) : option (list (N * N) + bool) :=
  match r with ROpt x => Some (inl (match x with Some y => [rr_val y] | None => [] end)) | REon (Existing x) => Some (inl [rr_val x]) | REon (New x) => None
  | RBool b => Some (inr b) | RIter ys => Some (inl (map rr_val ys)) end.
Example C02_C17_example : exec (sls sops) (sfin sops) (sevs sops) /\ wf_calls (sls sops) /\ sequential (sls sops) /\ quiescent (sfin sops) /\ s_dropped (sfin sops) = false /\
  (history (sevs sops)).*1 = sops /\
  map show (history (sevs sops)).*2 = map Some [inl []; inl []; inr false; inl [(33, 2)]; inl []; inl [(17, 1)]; inl [(33, 2); (2, 3)]; inl [(33, 2)]; inl [(33, 2)]; inl []; inl [(2, 3)]; inr true]%N.
Proof.
  destruct (seq_check_spec sops ltac:(vm_compute; reflexivity)) as (H1 & H2 & H3 & H4 & H5).
  split; [exact H1|]. split; [exact H2|]. split; [exact H3|]. split; [exact H4|]. split; [exact H5|]. split; vm_compute; reflexivity.
Qed.

(** After the overlapping removals of C20, which leave an unpruned tree, and a call that was abandoned: sequential calls. *)
Definition before : list cmd := two_removals ++ [Inv 6 (ins 9 9); Steps 2 6; Lab (LAbort 6)]%positive.
Definition aops : list (@oper CN) := [get 33; ins 33 7; ins 17 8; rem 2; rem 17].
Definition als : list (@label CN) := seq_sched 7%positive aops (fin before).
Definition afin : @state CN := match run (fin before) als with Some (s, _) => s | None => init end.
Definition aevs : list (@event CN) := match run (fin before) als with Some (_, ev) => ev | None => [] end.
Definition after_check (ls1 : list (@label CN)) : bool :=
  seqb_from (fin before) ls1 && forallb seq_wfb ls1 && match run (fin before) ls1 with Some (s, ev) => no_run s | None => false end && no_run (fin before).
#[local] Opaque als.
Example C02_after_example : exec (schedule before) (fin before) (evs before) /\ quiescent (fin before) /\ s_dropped (fin before) = false /\
  run (fin before) als = Some (afin, aevs) /\ wf_calls (schedule before ++ als) /\ sequential_from (length (schedule before)) (schedule before ++ als) /\
  OIsEmpty ∉ calls aevs /\ calls aevs = aops /\
  map show (history aevs).*2 = map Some [inl [(33, 2)]; inl [(33, 2)]; inl []; inl []; inl [(17, 8)]]%N.
Proof.
  destruct (exec_of before ltac:(vm_compute; reflexivity)) as [Hx Hw].
  assert (after_check als = true) as H by (vm_compute; reflexivity).
  assert (calls aevs = aops) as Hc by (vm_compute; reflexivity).
  assert (map show (history aevs).*2 = map Some [inl [(33, 2)]; inl [(33, 2)]; inl []; inl []; inl [(17, 8)]]%N) as Hh by (vm_compute; reflexivity).
  unfold after_check, afin, aevs in *. revert Hx Hw H Hc Hh. generalize (schedule before), (fin before), (evs before), als. intros ls0 s0 ev0 ls1 Hx Hw.
  intros [[[H1 H2]%andb_true_iff H3]%andb_true_iff H4]%andb_true_iff Hc Hh.
  assert (forall s : @state CN, no_run s = true -> quiescent s /\ s_dropped s = false) as Hnr.
  { intros s [H5 H6]%andb_true_iff. split; [by apply quiesb_spec|by apply negb_true_iff in H6]. }
  split; [exact Hx|]. split; [by apply Hnr|]. split; [by apply Hnr|]. destruct (run s0 ls1) as [[s ev]|]; [|discriminate H3]. split; [reflexivity|].
  split; [|split; [by eapply seq_from_spec|split; [|split; [exact Hc|exact Hh]]]].
  - intros o op [Hin|Hin]%elem_of_app; [by apply (Hw o)|]. rewrite forallb_forall in H2. apply elem_of_list_In in Hin. specialize (H2 _ Hin). by destruct op.
  - rewrite Hc. intros Hin. unfold aops in Hin. repeat (apply elem_of_cons in Hin as [Hin|Hin]; [discriminate Hin|]). by apply elem_of_nil in Hin.
Qed.

(** C07: the same calls to a map whose hash function is constant. *)
Definition flat : @Key CN -> N := fun _ => 5%N.
Lemma flat_ok : ConfigOk (rehash CN flat).
Proof. split; [exact (@keqb_refl CN CNok)|exact (@keqb_sym CN CNok)|exact (@keqb_trans CN CNok)|done|done]. Qed.
Definition fops : list (@oper CN) := [ins 17 1; ins 33 2; goi 33 7; ins 2 3; rem 17; ite].
Example C07_example : let C' := rehash CN flat in let gops := map (op_re CN flat) fops in
  (exec (sls fops) (sfin fops) (sevs fops) /\ wf_calls (sls fops) /\ sequential (sls fops)) /\
  (@exec C' (sls gops) (sfin gops) (sevs gops) /\ wf_calls (sls gops) /\ sequential (sls gops)) /\
  (history (sevs gops)).*1 = op_re CN flat <$> (history (sevs fops)).*1 /\
  (* the trees are different, and the iteration runs in another order *)
  branch_at (s_mem (sfin gops)) [5; 0] /\ (forall x, map show (history (sevs fops)).*2 !! 5 = Some x -> x = Some (inl [(33, 2); (2, 3)]%N)).
Proof.
  intros C' gops. split; [|split; [|split; [|split]]].
  - destruct (seq_check_spec fops ltac:(vm_compute; reflexivity)) as (H1 & H2 & H3 & _ & _). split; [exact H1|]. split; [exact H2|exact H3].
  - destruct (@seq_check_spec C' gops ltac:(vm_compute; reflexivity)) as (H1 & H2 & H3 & _ & _). split; [exact H1|]. split; [exact H2|exact H3].
  - vm_compute. reflexivity.
  - apply branchb_spec. vm_compute. reflexivity.
  - vm_compute. intros x [= <-]. reflexivity.
Qed.

Lemma stored_eq `{C : Config} `{!ConfigOk C} ls1 s1 ev1 ls2 s2 ev2 (a1 a2 : amap) : exec ls1 s1 ev1 -> wf_calls ls1 -> s_dropped s1 = false -> exec ls2 s2 ev2 -> wf_calls ls2 -> s_dropped s2 = false ->
  (forall k, has s1 k (a1 k)) -> (forall k, has s2 k (a2 k)) -> (forall k, a1 k = a2 k) -> forall p, stored (s_mem s1) p <-> stored (s_mem s2) p.
Proof.
  intros H1 H2 H5 G1 G2 G5 A1 A2 E p. destruct (exec_full _ _ _ H1 H2 H5) as [pos1 F1]. destruct (exec_full _ _ _ G1 G2 G5) as [pos2 F2]. split; intros Hp.
  - assert (has s1 (keyof p) (Some p)) as Hm by (split; [exact Hp|apply keqb_refl]). apply (has_abs pos1 _ _ _ F1) in Hm.
    pose proof (proj1 (has_abs pos1 _ _ _ F1) (A1 (keyof p))) as Ha. pose proof (A2 (keyof p)) as Hb. rewrite <-E, <-Ha, Hm in Hb. by destruct Hb.
  - assert (has s2 (keyof p) (Some p)) as Hm by (split; [exact Hp|apply keqb_refl]). apply (has_abs pos2 _ _ _ F2) in Hm.
    pose proof (proj1 (has_abs pos2 _ _ _ F2) (A2 (keyof p))) as Ha. pose proof (A1 (keyof p)) as Hb. rewrite E, <-Ha, Hm in Hb. by destruct Hb.
Qed.

(** C19: after sops without its last removals, the map has keys 33 and 2: one branching node; with key 17 there is a second one.  The history does not matter. *)
Definition pops1 : list (@oper CN) := [ins 17 1; ins 33 2; ins 2 3; rem 17].
Definition pops2 : list (@oper CN) := [ins 2 3; ins 33 2].
Example C19_example : sequential (sls pops1) /\ wf_calls (sls pops1) /\ quiescent (sfin pops1) /\ s_dropped (sfin pops1) = false /\ exec (sls pops1) (sfin pops1) (sevs pops1) /\
  sequential (sls pops2) /\ wf_calls (sls pops2) /\ quiescent (sfin pops2) /\ s_dropped (sfin pops2) = false /\ exec (sls pops2) (sfin pops2) (sevs pops2) /\
  branch_at (s_mem (sfin pops1)) [] /\ (forall p, stored (s_mem (sfin pops1)) p <-> stored (s_mem (sfin pops2)) p).
Proof.
  destruct (seq_check_spec pops1 ltac:(vm_compute; reflexivity)) as (H1 & H2 & H3 & H4 & H5).
  destruct (seq_check_spec pops2 ltac:(vm_compute; reflexivity)) as (G1 & G2 & G3 & G4 & G5).
  do 10 (split; [assumption|]). split.
  - apply branchb_spec. vm_compute. reflexivity.
  - (* by C02, both maps have what the plain map has *)
    destruct (C02_like_a_plain_map _ _ _ H1 H2 H3) as (a1 & R1 & A1). destruct (C02_like_a_plain_map _ _ _ G1 G2 G3) as (a2 & R2 & A2).
    destruct (A1 H4) as [_ A1']. specialize (A1' H5). destruct (A2 G4) as [_ A2']. specialize (A2' G5).
    assert (forall k, a1 k = a2 k) as E.
    { assert (exists h1, history (sevs pops1) = h1 /\ h1.*1 = pops1) as (h1 & E1 & F1) by (eexists; split; [reflexivity|vm_compute; reflexivity]).
      assert (exists h2, history (sevs pops2) = h2 /\ h2.*1 = pops2) as (h2 & E2 & F2) by (eexists; split; [reflexivity|vm_compute; reflexivity]).
      rewrite E1 in R1. rewrite E2 in R2. clear -R1 R2 F1 F2.
      do 5 (destruct h1 as [|[? ?] h1]; try discriminate F1). do 3 (destruct h2 as [|[? ?] h2]; try discriminate F2). injection F1 as -> -> -> ->. injection F2 as -> ->.
      cbn [exact_run] in R1, R2. destruct R1 as (b1 & S1 & b2 & S2 & b3 & S3 & b4 & S4 & S5). destruct R2 as (c1 & T1 & c2 & T2 & T3).
      unfold exact, ins, rem in *. do 2 match goal with H : match ?r with ROpt _ => _ | _ => _ end |- _ => destruct r; try contradiction end.
      repeat match goal with H : match ?r with ROpt _ => _ | _ => _ end |- _ => destruct r; try contradiction end.
      destruct S1 as [_ S1], S2 as [_ S2], S3 as [_ S3], S4 as [_ S4], T1 as [_ T1], T2 as [_ T2].
      intros k. rewrite (S5 k), (S4 k), (S3 k), (S2 k), (S1 k), (T3 k), (T2 k), (T1 k). unfold el, aempty. cbn [keyof keqb CN fst].
      destruct (N.eqb_spec 17 k) as [<-|]; [reflexivity|]. destruct (N.eqb_spec 2 k) as [<-|]; [reflexivity|]. destruct (N.eqb_spec 33 k) as [<-|]; reflexivity. }
    refine (stored_eq _ _ _ _ _ _ a1 a2 H1 H2 H5 G1 G2 G5 A1' A2' E).
Qed.

(** C18, C19, C20: inserts that overlap with each other and with a removal.  The keys 0x11 and 0x21 share a branch.  Call 3 (remove 0x11) takes its element out
    and is in the middle of pruning the branch; call 4 (insert 0x41) finds a condemned pointer there and prunes the branch, too; call 5 (insert 0x31) starts
    before both have returned, and overtakes them. *)
Section remsched.
Context {C : Config}.
Definition removing (s : state) : list opid := omap (fun x : opid * ostat => match x.2 with SRun (ORemove _) _ => Some x.1 | _ => None end) (map_to_list (s_ops s)).
Fixpoint remb_from (s : state) (ls : list label) : bool :=
  (length (removing s) <=? 1) &&
  match ls with
  | [] => true
  | lb :: ls => match lb with LAbort _ => false | _ => true end && match step s lb with Some (s', _) => remb_from s' ls | None => false end
  end.
Lemma removing_one s o1 k1 o2 k2 : length (removing s) <= 1 -> in_progress s o1 (ORemove k1) -> in_progress s o2 (ORemove k2) -> o1 = o2.
Proof.
  intros Hl [p1 H1] [p2 H2]. assert (forall o k p, s_ops s !! o = Some (SRun (ORemove k) p) -> o ∈ removing s) as Hin.
  { intros o k p H. apply elem_of_list_omap. exists (o, SRun (ORemove k) p). split; [by apply elem_of_map_to_list|done]. }
  apply Hin in H1. apply Hin in H2. destruct (removing s) as [|x [|y l]]; simpl in Hl; [by apply elem_of_nil in H1| |lia].
  apply elem_of_list_singleton in H1 as ->. by apply elem_of_list_singleton in H2 as ->.
Qed.
Local Transparent state_at run.
Lemma remb_spec_from ls : forall s : state, remb_from s ls = true ->
  (forall n s1 e1 o1 k1 o2 k2, run s (take n ls) = Some (s1, e1) -> in_progress s1 o1 (ORemove k1) -> in_progress s1 o2 (ORemove k2) -> o1 = o2) /\ (forall o, LAbort o ∉ ls).
Proof.
  induction ls as [|lb ls IH]; intros s Hb; cbn [remb_from] in Hb; apply andb_true_iff in Hb as [Hlen Hb]; apply Nat.leb_le in Hlen.
  - split; [|intros o H; by apply elem_of_nil in H]. intros n s1 e1 o1 k1 o2 k2 Hr H1 H2. rewrite take_nil in Hr. injection Hr as <- <-. by eapply removing_one.
  - apply andb_true_iff in Hb as [Hla Hb]. destruct (step s lb) as [[s' e]|] eqn:Es; [|done]. destruct (IH _ Hb) as [IH1 IH2]. split.
    + intros [|n] s1 e1 o1 k1 o2 k2 Hr H1 H2; cbn [take run] in Hr.
      * injection Hr as <- <-. by eapply removing_one.
      * rewrite Es in Hr. destruct (run s' (take n ls)) as [[s2 e2]|] eqn:Er; [|done]. injection Hr as <- <-. by eapply IH1.
    + intros o [<-|H]%elem_of_cons; [done|by apply (IH2 o)].
Qed.
Lemma remb_spec (ls : list label) : remb_from init ls = true -> removals_alone ls.
Proof.
  intros H. destruct (remb_spec_from _ _ H) as [H1 H2]. split.
  - intros n s o1 k1 o2 k2 Hs. unfold state_at in Hs. destruct (run init (take n ls)) as [[s1 e1]|] eqn:E; [|done]. injection Hs as <-. by eapply H1.
  - intros n s o op Hl. exfalso. apply (H2 o). by eapply elem_of_list_lookup_2.
Qed.
End remsched.

Definition overtaken : list cmd :=
  seqcalls 1%positive [ins 17 1; ins 33 2] ++
  [Inv 3 (rem 17); Steps 28 3; Inv 4 (ins 65 4); Steps 10 4; Inv 5 (ins 49 5); Steps 5 5; Steps 3 4]%positive.
Definition overtaken_end : list cmd := overtaken ++ [Finish 5; Finish 4; Finish 3; Inv 6 ise; Finish 6]%positive.
Example C18_C19_C20_example :
  (* in the middle: the three calls are in progress, and a pointer in the branch for 0x?1 is condemned *)
  (exec (schedule overtaken) (fin overtaken) (evs overtaken) /\ in_progress (fin overtaken) 3%positive (rem 17) /\ in_progress (fin overtaken) 4%positive (ins 65 4) /\
   in_progress (fin overtaken) 5%positive (ins 49 5) /\ exists v, at_path (s_mem (fin overtaken)) [1; 0] v /\ sh_cond v = true) /\
  (* at the end *)
  exec (schedule overtaken_end) (fin overtaken_end) (evs overtaken_end) /\ wf_calls (schedule overtaken_end) /\ removals_alone (schedule overtaken_end) /\
  quiescent (fin overtaken_end) /\ s_dropped (fin overtaken_end) = false /\ ERet 6%positive (@RBool CN false) ∈ evs overtaken_end /\
  branch_at (s_mem (fin overtaken_end)) [1].
Proof.
  split; [|].
  - destruct (exec_of overtaken ltac:(vm_compute; reflexivity)) as [Hx Hw]. split; [exact Hx|].
    assert (forall (s : @state CN) o op, match s_ops s !! o with Some (SRun op' _) => op' = op | _ => False end -> in_progress s o op) as Hp.
    { intros s o op. destruct (s_ops s !! o) as [[op' p| | |]|] eqn:E; try contradiction. intros ->. exists p. exact E. }
    split; [apply Hp; vm_compute; reflexivity|]. split; [apply Hp; vm_compute; reflexivity|]. split; [apply Hp; vm_compute; reflexivity|].
    assert (exists v, walk (s_mem (fin overtaken)) (m_root (s_mem (fin overtaken))) [1; 0] = Some v /\ sh_cond v = true) as (v & Hv & Hc).
    { eexists. split; vm_compute; reflexivity. }
    exists v. split; [|exact Hc]. apply (walk_at _ [1; 0] [] (m_root (s_mem (fin overtaken)))); [apply at_root|exact Hv].
  - destruct (exec_of overtaken_end ltac:(vm_compute; reflexivity)) as [Hx Hw]. split; [exact Hx|]. split; [exact Hw|].
    split; [apply remb_spec; vm_compute; reflexivity|]. split; [apply quiesb_spec; vm_compute; reflexivity|]. split; [vm_compute; reflexivity|].
    split.
    + assert (has_ret (evs overtaken_end) 6%positive (fun r => match r with RBool false => true | _ => false end) = true) as H by (vm_compute; reflexivity).
      destruct (has_ret_spec _ _ _ H) as (r & Hr & Ht). destruct r as [|[]|[]|]; try discriminate Ht; exact Hr.
    + apply branchb_spec. vm_compute. reflexivity.
Qed.

(** ** C20 in a single thread: a closure that panics.
    Call 1 inserts 0x11.  Call 2 is get_or_insert of 0x21: it splits the leaf twice (the hashes share their lowest digit), finds the null pointer its
    element is to go to and calls the closure (raw/mod.rs:582), which panics.  Calls do not overlap at all, but the branches of the split stay. *)
Definition panicking : list cmd := seqcalls 1%positive [ins 17 1] ++ [Inv 2 (goi 33 2); Steps 6 2]%positive.
Theorem C20_refuted_panic : exists ls s ev, @exec CN (ls ++ [LAbort 2%positive]) s ev /\ wf_calls (ls ++ [LAbort 2%positive]) /\ sequential ls /\ quiescent s /\ s_dropped s = false /\
  (* the next step of call 2 would have called the closure *)
  (exists s1 ev1 s2 ev2, exec ls s1 ev1 /\ step s1 (LStep 2%positive false 99%N) = Some (s2, ev2) /\ ECall 2%positive (33%N : @Key CN) ∈ ev2) /\
  assert_pruned (s_mem s) = false.
Proof.
  destruct (exec_of panicking ltac:(vm_compute; reflexivity)) as [Hx Hw].
  assert (seqb_from init (schedule panicking) = true) as Hs by (vm_compute; reflexivity).
  assert (match step (fin panicking) (LAbort 2%positive) with Some (s, _) => quiesb s && negb (s_dropped s) && negb (assert_pruned (s_mem s)) | None => false end = true) as He by (vm_compute; reflexivity).
  assert (match step (fin panicking) (LStep 2%positive false 99%N) with Some (_, [ECall o k]) => Pos.eqb o 2 && N.eqb k 33 | _ => false end = true) as Hc by (vm_compute; reflexivity).
  revert Hx Hw Hs He Hc. generalize (schedule panicking), (fin panicking), (evs panicking). intros ls s1 ev1 Hx Hw Hs He Hc.
  destruct (step s1 (LAbort 2%positive)) as [[s e]|] eqn:E1; [|discriminate He]. apply andb_true_iff in He as [[H1 H2]%andb_true_iff H3].
  exists ls, s, (ev1 ++ e). split; [by eapply exec_snoc|]. split; [|split; [by apply seqb_spec|split; [by apply quiesb_spec|split; [by apply negb_true_iff|split; [|by apply negb_true_iff]]]]].
  - intros o op [Hin|Hin]%elem_of_app; [by apply (Hw o)|]. apply elem_of_list_singleton in Hin. discriminate Hin.
  - destruct (step s1 (LStep 2%positive false 99%N)) as [[s2 ev2]|] eqn:E2; [|discriminate Hc]. exists s1, ev1, s2, ev2. split; [exact Hx|]. split; [exact E2|].
    destruct ev2 as [|[| |o k|] [|]]; try discriminate Hc. apply andb_true_iff in Hc as [Ho Hk]. apply Pos.eqb_eq in Ho. apply N.eqb_eq in Hk. subst o k. by left.
Qed.
Print Assumptions C20_refuted_panic.
