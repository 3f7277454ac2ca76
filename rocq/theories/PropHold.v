(** * C52: which elements a map keeps alive.
    The claim would be [forall s, reachable s -> settled s -> holds_exactly s].  It is refuted; see C52_refuted. *)
From Verif Require Import Model Mem Inv Safe SafeStep SafeOps SafeSys SafeProps Look LinSpec Sem SemOps SysSem Spec Lin LinProps LinMore Shape SeqSpec HoldSpec Concrete PropSeq.

Section hold.
Context {C : Config}.
Implicit Types (m : mem) (pos : loc -> list nat) (c : cell) (v w : sh) (o : opid) (gs : gset opid) (k : Key) (op : oper) (s : state)
  (ls : list label) (ev : list event).

(** ** Settled states: live = linked, dead = freed as data *)
Lemma settled_inv s : reachable s -> settled s -> exists pos, live_inv pos s.
Proof. intros Hr (_ & _ & Hd). apply reach_sinv in Hr as [_ H]. by rewrite Hd in H. Qed.

Lemma kept_linked s l a it : reachable s -> settled s -> m_heap (s_mem s) !! l = Some (HObj a (BData it)) ->
  (l, KData) ∉ m_freed (s_mem s) <-> linked (s_mem s) l.
Proof.
  intros Hr Hs Hh. destruct (settled_inv s Hr Hs) as [pos Hl]. pose proof (li_mem _ _ Hl) as Hm. destruct Hs as (_ & Hg & Hd).
  assert (hbody (s_mem s) l = Some (BData it)) as Hb by (unfold hbody; by rewrite Hh). split.
  - intros Hnf. eapply live_linked; [done|done|]. intros [(k & g & Hin)|Hf]%dead_garb_or_freed; [rewrite Hg in Hin; by apply elem_of_nil in Hin|].
    apply elem_of_list_fmap in Hf as ([l' k] & -> & Hf). destruct (li_fkind _ _ Hl _ _ Hf) as (b & Hb' & ->). simpl in *. rewrite Hb in Hb'. by injection Hb' as <-.
  - intros Hlk Hf. destruct (linked_not_dead s l Hr Hd Hlk) as (_ & Hn & _). apply Hn. apply elem_of_list_fmap. by exists (l, KData).
Qed.

(** The copies in nodes that have been part of the trie. *)
Lemma node_copies s p : reachable s -> settled s -> (exists l i, copy_at (s_mem s) (InNode l i) p) <-> stored (s_mem s) p.
Proof.
  intros Hr Hs. split.
  - intros (l & i & a & it & Hh & Hi & Hf). exists l, a, it. split; [by eapply kept_linked|]. split; [done|by eapply elem_of_list_lookup_2].
  - intros (l & a & it & Hl & Hh & [i Hi]%elem_of_list_lookup). exists l, i, a, it. split; [done|]. split; [done|]. by eapply kept_linked.
Qed.

(** ** Leaves on the same path are the same *)
Lemma leaf_only pos m c v c' : minv pos m -> cval m c = Some v -> cell_live m c -> sh_data v = true -> is_Some (cval m c') -> cell_live m c' ->
  cpos pos c `prefix_of` cpos pos c' -> c' = c.
Proof.
  intros Hm Hv Hl Hd. remember (length (cpos pos c')) as n eqn:En. revert c' En. induction n as [n IH] using lt_wf_ind. intros c' -> [v' Hv'] Hl' Hp.
  destruct (decide (cpos pos c = cpos pos c')) as [He|Hne]; [symmetry; by eapply live_cpos_inj|]. exfalso.
  destruct c' as [|l i]; [simpl in *; by apply prefix_nil_inv in Hp|]. pose proof Hv' as (sl & Hb & _)%cval_slot.
  destruct (inner_parent _ _ _ _ Hm Hb Hl') as (d & w & Hw & Hdl & Hx & Hwd & Hpp). simpl in Hp, Hne.
  assert (cpos pos c `prefix_of` pos l) as Hq.
  { destruct Hp as [z Hz]. destruct z as [|a z _] using rev_ind; [rewrite app_nil_r in Hz; congruence|]. rewrite app_assoc in Hz. apply app_inj_tail in Hz as [Hz _]. by exists z. }
  assert (d = c) as ->.
  { apply (IH (length (cpos pos d))); [|done|by eexists|done|]; simpl; rewrite Hpp, ?app_length; simpl; [lia|done]. }
  congruence.
Qed.

Lemma leaf_same pos m c v c' v' : minv pos m -> cval m c = Some v -> cell_live m c -> sh_data v = true ->
  cval m c' = Some v' -> cell_live m c' -> sh_data v' = true -> forall q, cpos pos c `prefix_of` q -> cpos pos c' `prefix_of` q -> c = c'.
Proof.
  intros Hm Hv Hl Hd Hv' Hl' Hd' q Hp Hp'. destruct (decide (length (cpos pos c) <= length (cpos pos c'))) as [Hle|Hle].
  - symmetry. eapply leaf_only; [exact Hm|exact Hv|done|done|by eexists|done|]. rewrite (prefix_two _ _ _ Hp Hp' Hle). eexists. symmetry. apply take_drop.
  - eapply leaf_only; [exact Hm|exact Hv'|done|done|by eexists|done|]. rewrite (prefix_two _ _ _ Hp' Hp) by lia. eexists. symmetry. apply take_drop.
Qed.

(** ** Failed compare-and-sets *)
Definition no_tmp m : Prop := forall b (kd : dkind), (b, kd) ∈ m_tmp m -> exists sl, b = BInner sl.
Definition casv m (p : pc) : Prop :=
  match p with TCas _ _ cur _ node _ _ | RCas _ _ _ cur _ node _ _ => cval m cur = Some node | _ => True end.

Lemma sh_same_refl m v : sh_same m v v = true.
Proof. unfold sh_same. by rewrite N.eqb_refl, !Bool.eqb_reflx. Qed.

Lemma no_tmp_eq m m' : m_tmp m' = m_tmp m -> no_tmp m -> no_tmp m'.
Proof. unfold no_tmp. by intros ->. Qed.
Lemma no_tmp_inner m sl kd : no_tmp m -> no_tmp (drop_tmp m (BInner sl) kd).
Proof. intros H b k [[= -> ->]|Hin]%elem_of_cons; [by exists sl|by eapply H]. Qed.
Lemma tmp_write m c v : m_tmp (write_cell m c v) = m_tmp m.
Proof. by destruct c. Qed.

Definition calm (x : sres) : Prop := forall m' nx acts, x = Some (m', nx, acts) -> no_tmp m' /\ forall p', nx = NRun p' -> casv m' p'.
Lemma calm_run m p acts : no_tmp m -> casv m p -> calm (Some (m, NRun p, acts)).
Proof. intros H1 H2 m' nx ac [= <- <- <-]. split; [done|]. by intros p' [= <-]. Qed.
Lemma calm_ret m r acts : no_tmp m -> calm (Some (m, NRet r, acts)).
Proof. intros H1 m' nx ac [= <- <- <-]. done. Qed.
Lemma calm_fail m f acts : no_tmp m -> calm (Some (m, NFail f, acts)).
Proof. intros H1 m' nx ac [= <- <- <-]. done. Qed.
Lemma calm_finish m t r acts : no_tmp m -> calm (t_finish m t r acts).
Proof. intros H. unfold t_finish. repeat case_match; by (apply calm_ret || apply calm_fail). Qed.
Lemma calm_start m kk parent child : no_tmp m -> calm (prune_start m kk parent child).
Proof. intros H. unfold prune_start. repeat case_match; by (apply calm_run || apply calm_fail). Qed.
Lemma calm_up m del lv : no_tmp m -> calm (rem_up m del lv).
Proof. intros H. unfold rem_up. repeat case_match; by (apply calm_run || apply calm_fail || apply calm_ret). Qed.
Lemma calm_return m kk pr : no_tmp m -> calm (prune_return m kk pr).
Proof. intros H. unfold prune_return. repeat case_match; by (apply calm_run || apply calm_up || apply calm_ret). Qed.
Lemma calm_decide m kk parent child ac cnt last new : no_tmp m -> calm (prune_decide m kk parent child ac cnt last new).
Proof. intros H. unfold prune_decide. repeat case_match; by (apply calm_run || apply calm_fail). Qed.
Lemma calm_none : calm None.
Proof. by intros ? ? ?. Qed.

Ltac tmpeq := first [done|by apply no_tmp_inner|by (eapply no_tmp_eq; [|eassumption]; simpl; rewrite ?tmp_write)].
Ltac calmt := repeat (first [apply calm_none|apply calm_finish; tmpeq|apply calm_start; tmpeq|apply calm_up; tmpeq|apply calm_return; tmpeq|apply calm_decide; tmpeq
  |apply calm_ret; tmpeq|apply calm_fail; tmpeq|apply calm_run; [tmpeq|done]|case_match]).

Lemma casv_step gs m p a : casv m p -> no_tmp m -> calm (op_step gs m p false a).
Proof.
  intros Hc Ht. destruct p; cbn [op_step]; unfold panics, ok.
  - destruct (read_cell m cur) as [node0|] eqn:Er; [|by apply calm_fail]. apply read_cell_cval in Er. calmt.
  - destruct (read_cell m cur) as [now|] eqn:Er; [|by apply calm_fail]. apply read_cell_cval in Er. simpl in Hc. rewrite Hc in Er. injection Er as <-.
    destruct (negb (addr_free m a)); [apply calm_none|]. rewrite sh_same_refl. cbn [andb negb]. calmt.
  - calmt.
  - calmt.
  - calmt.
  - destruct (read_cell m cur) as [node0|] eqn:Er; [|by apply calm_fail]. apply read_cell_cval in Er. calmt.
  - destruct (read_cell m cur) as [now|] eqn:Er; [|by apply calm_fail]. apply read_cell_cval in Er. simpl in Hc. rewrite Hc in Er. injection Er as <-.
    rewrite sh_same_refl. cbn [andb negb]. calmt.
  - calmt.
  - by apply calm_ret.
  - by apply calm_run.
  - calmt.
Qed.

Lemma one_writer_snoc ls lb s ev : exec ls s ev -> one_writer (ls ++ [lb]) -> one_writer ls.
Proof.
  intros Hx H1 n s1 o1 op1 o2 op2 Hs. destruct (state_at_le _ _ _ Hs) as (n' & Hn' & Hs'). apply (H1 n'). by rewrite state_at_snoc.
Qed.

Lemma exec_calm ls s ev : exec ls s ev -> one_writer ls -> no_spurious ls ->
  no_tmp (s_mem s) /\ forall o op p, s_ops s !! o = Some (SRun op p) -> casv (s_mem s) p.
Proof.
  revert ls s ev. apply (exec_ind (fun ls s ev => one_writer ls -> no_spurious ls ->
    no_tmp (s_mem s) /\ forall o op p, s_ops s !! o = Some (SRun op p) -> casv (s_mem s) p)).
  { intros _ _. split; [intros b k H; by apply elem_of_nil in H|]. intros o op p H. simpl in H. by rewrite lookup_empty in H. }
  intros ls s ev lb s' e Hx IH Hst Hw Hn. pose proof (one_writer_snoc _ _ _ _ Hx Hw) as Hw0.
  destruct IH as [IH1 IH2]; [done|intros o a H; apply (Hn o a), elem_of_app; by left|].
  pose proof (exec_sh _ _ _ Hx) as Hsh.
  destruct lb as [o op|o spur a|o|o|n|]; cbn [step] in Hst.
  - destruct (s_ops s !! o) as [?|] eqn:Eo; [done|]. destruct (s_dropped s); [done|]. injection Hst as <- <-. simpl. split; [done|].
    intros o' op' p'. destruct (decide (o = o')) as [<-|Hne]; [rewrite lookup_insert; intros [= <- <-]; by destruct op|]. rewrite lookup_insert_ne by done. apply IH2.
  - destruct (s_ops s !! o) as [[op p|?|?|]|] eqn:Eo; try done.
    destruct (op_step (guards s) (s_mem s) p spur a) as [[[m' nx] acts]|] eqn:Estep; [|done]. injection Hst as <- <-. simpl.
    destruct spur; [exfalso; apply (Hn o a), elem_of_app; right; by left|].
    destruct (casv_step (guards s) (s_mem s) p a (IH2 _ _ _ Eo) IH1 _ _ _ Estep) as [H1 H2]. split; [done|].
    intros o' op' p'. destruct (decide (o = o')) as [<-|Hne].
    + rewrite lookup_insert. destruct nx as [p1|r|f]; [|done|done]. intros [= <- <-]. by apply H2.
    + rewrite lookup_insert_ne by done. intros Hp'. destruct (is_reader op) eqn:Er.
      * assert (m' = s_mem s) as -> by (eapply op_step_reader; [by apply (si_run _ _ Hsh _ _ _ Eo)|done|done]). by eapply IH2.
      * destruct (is_reader op') eqn:Er'.
        -- destruct (si_run _ _ Hsh _ _ _ Hp') as [Hsp _]. destruct p'; try done; simpl in Hsp; destruct op'; try done; by destruct Hsp as [? ?].
        -- exfalso. apply Hne. apply (Hw0 (length ls) s o op o' op'); [by eapply state_at_end|by exists p|by exists p'|done|done].
  - destruct (s_ops s !! o) as [[|op r|?|]|] eqn:Eo; try done. injection Hst as <- <-. simpl. split; [done|].
    intros o' op' p'. destruct (decide (o = o')) as [<-|Hne]; [by rewrite lookup_insert|]. rewrite lookup_insert_ne by done. apply IH2.
  - destruct (s_ops s !! o) as [[op p| |?|]|] eqn:Eo; try done. injection Hst as <- <-. simpl. split; [done|].
    intros o' op' p'. destruct (decide (o = o')) as [<-|Hne]; [by rewrite lookup_insert|]. rewrite lookup_insert_ne by done. apply IH2.
  - destruct (m_garb (s_mem s) !! n) as [[[l k] g]|] eqn:En; [|done]. case_bool_decide as Hgi; [|done]. injection Hst as <- <-. simpl.
    split; [done|]. intros o op p Hp. specialize (IH2 _ _ _ Hp). destruct p; try done; simpl in *; by destruct cur.
  - destruct (bool_decide (guards s = ∅)) eqn:Eg; [|done]. apply bool_decide_eq_true in Eg.
    assert (forall o op p, s_ops s !! o <> Some (SRun op p)) as Hno.
    { intros o op p Hp. assert (o ∈ guards s) as Hg by (apply elem_of_guards; eauto). rewrite Eg in Hg. by apply elem_of_empty in Hg. }
    destruct (_ && _); [|done]. destruct (drop_rec _ _ _); injection Hst as <- <-; simpl; (split; [done|]); intros o op p Hp; by destruct (Hno o op p).
Qed.
End hold.

(** ** C52 *)

(** In nodes that have been part of the map, whatever the calls did: once everybody is done there is a copy of an element if and only if
    the element is in the map.  In particular an element that was removed or replaced has been let go.
    Missing: copies in nodes that lost a compare-and-set. *)
Theorem C52_published_partial `{C : Config} : forall s, reachable s -> settled s -> forall p,
  (exists l i, copy_at (s_mem s) (InNode l i) p) <-> stored (s_mem s) p.
Proof. intros s Hr Hs p. by apply node_copies. Qed.
Print Assumptions C52_published_partial.

(** And there is only one copy of it. *)
Theorem C52_single_copy_partial `{C : Config} `{!ConfigOk C} : forall ls s ev, exec ls s ev -> wf_calls ls -> settled s -> forall l i l' i' p p',
  copy_at (s_mem s) (InNode l i) p -> copy_at (s_mem s) (InNode l' i') p' -> keqb (keyof p) (keyof p') = true -> l = l' /\ i = i' /\ p = p'.
Proof.
  intros ls s ev Hx Hw Hs l i l' i' p p' (a & it & Hh & Hi & Hf) (a' & it' & Hh' & Hi' & Hf') Hk.
  assert (reachable s) as Hr by (by exists ls, ev). pose proof Hs as (_ & _ & Hd). destruct (exec_full _ _ _ Hx Hw Hd) as [pos [Hl Hse _]]. pose proof (li_mem _ _ Hl) as Hm.
  rewrite (kept_linked s l a it Hr Hs Hh) in Hf. rewrite (kept_linked s l' a' it' Hr Hs Hh') in Hf'.
  assert (forall l a it, m_heap (s_mem s) !! l = Some (HObj a (BData it)) -> linked (s_mem s) l -> hbody (s_mem s) l = Some (BData it) /\
    exists c v, cval (s_mem s) c = Some v /\ cell_live (s_mem s) c /\ sh_loc v = Some l /\ sh_data v = true) as Hleaf.
  { clear -Hm. intros l a it Hh [n Hln]. assert (hbody (s_mem s) l = Some (BData it)) as Hb by (unfold hbody; by rewrite Hh). split; [done|].
    destruct (linked_live _ _ _ _ Hm Hln) as (c & v & Hc & Hlv & Hv & _). exists c, v. repeat (split; [done|]).
    pose proof (mi_ptr _ _ Hm _ _ Hc) as Hp. unfold ptr_ok in Hp. rewrite Hv in Hp. destruct (sh_data v); [done|]. destruct Hp as (? & ? & _). congruence. }
  destruct (Hleaf _ _ _ Hh Hf) as (Hb & c & v & Hc & Hlv & Hv & Hdv). destruct (Hleaf _ _ _ Hh' Hf') as (Hb' & c' & v' & Hc' & Hlv' & Hv' & Hdv').
  assert (c = c') as <-.
  { apply (leaf_same pos (s_mem s) c v c' v' Hm Hc Hlv Hdv Hc' Hlv' Hdv' (path (keyof p))).
    - eapply (se_path _ _ Hse); [exact Hc|done|exact Hv|exact Hb|by eapply elem_of_list_lookup_2].
    - rewrite (path_cong _ _ Hk). eapply (se_path _ _ Hse); [exact Hc'|done|exact Hv'|exact Hb'|by eapply elem_of_list_lookup_2]. }
  rewrite Hc in Hc'. injection Hc' as <-. rewrite Hv in Hv'. injection Hv' as <-. rewrite Hb in Hb'. injection Hb' as <-.
  pose proof (se_nodup _ _ Hse _ _ Hb) as Hn. assert (i = i') as <- by (by eapply Hn). split; [done|]. split; [done|]. congruence.
Qed.
Print Assumptions C52_single_copy_partial.

(** If the modifying calls do not overlap and the weak compare-and-set does not fail spuriously, the claim holds. *)
Theorem C52_undisturbed_partial `{C : Config} `{!ConfigOk C} : forall ls s ev, exec ls s ev -> wf_calls ls -> one_writer ls -> no_spurious ls -> settled s ->
  holds_exactly s.
Proof.
  intros ls s ev Hx Hw H1 H2 Hs. destruct (exec_calm _ _ _ Hx H1 H2) as [Ht _]. assert (reachable s) as Hr by (by exists ls, ev).
  assert (forall n i p, ~ copy_at (s_mem s) (InTmp n i) p) as Hno.
  { intros n i p (it & kd & Hn & _). apply elem_of_list_lookup_2 in Hn. by destruct (Ht _ _ Hn). }
  split.
  - intros p. rewrite <-(node_copies s p Hr Hs). split; [|intros (l & i & H); by exists (InNode l i)].
    intros [[l i|n i] Hc]; [by exists l, i|by apply Hno in Hc].
  - intros [l i|n i] [l' i'|n' i'] p p' Hc Hc' Hk; try (by apply Hno in Hc); try (by apply Hno in Hc').
    destruct (C52_single_copy_partial ls s ev Hx Hw Hs l i l' i' p p' Hc Hc' Hk) as (-> & -> & _). done.
Qed.
Print Assumptions C52_undisturbed_partial.

(** Once no guard is alive, the collector can get to a settled state. *)
Theorem C52_collector_settles `{C : Config} : forall s, reachable s -> guards s = ∅ -> s_dropped s = false ->
  exists ls s', run s ls = Some (s', []) /\ settled s' /\ (forall p, stored (s_mem s') p <-> stored (s_mem s) p).
Proof.
  intros s. remember (length (m_garb (s_mem s))) as n eqn:En. revert s En. induction n as [|n IH]; intros s En Hr Hg Hd.
  - exists [], s. split; [done|]. split; [|done]. split; [done|]. split; [by destruct (m_garb (s_mem s))|done].
  - destruct (m_garb (s_mem s)) as [|[[l k] g] gb] eqn:Eg; [done|].
    assert (exists s1, step s (LFree 0) = Some (s1, []) /\ guards s1 = ∅ /\ s_dropped s1 = false /\ m_garb (s_mem s1) = gb /\ m_heap (s_mem s1) = m_heap (s_mem s) /\ m_root (s_mem s1) = m_root (s_mem s)) as (s1 & Hst & Hg1 & Hd1 & Egb & Eh & Er).
    { cbn [step]. rewrite Eg. simpl. rewrite Hg. rewrite bool_decide_true by set_solver. eexists. split; [reflexivity|]. simpl. done. }
    destruct (IH s1) as (ls & s' & Hrun & Hset & Hsto); [by rewrite Egb; injection En| |done|done|].
    { destruct Hr as (ls & ev & Hx). exists (ls ++ [LFree 0]), (ev ++ []). by eapply run_step. }
    exists (LFree 0 :: ls), s'. split; [cbn [run]; by rewrite Hst, Hrun|]. split; [done|]. intros p. rewrite Hsto.
    assert (forall i l, linked_at (s_mem s1) i l <-> linked_at (s_mem s) i l) as Hlk.
    { intros i x. split; induction 1 as [?|? ? ? ? ? ? ? ? Hhp]; [constructor; congruence|rewrite Eh in Hhp; by eapply linked_slot|constructor; congruence|rewrite <-Eh in Hhp; by eapply linked_slot]. }
    unfold stored, linked. setoid_rewrite Hlk. by rewrite Eh.
Qed.
Print Assumptions C52_collector_settles.

(** ** C52 (refuted): a single thread inserts one element (a weak compare-and-set fails spuriously once), removes it again, and the
    collector runs: the map is empty, nobody refers to the element, and yet a copy of it has not been destroyed (and never will be). *)
Definition one_spur : list (@cmd) := [Inv 1%positive (ins 5 7); Steps 1 1%positive; Spur 1%positive; Finish 1%positive; Lab (LUnpin 1%positive);
  Inv 2%positive (rem 5); Finish 2%positive; Lab (LUnpin 2%positive); Lab (LFree 0)].
(** The same with two threads and no spurious failure. *)
Definition one_race : list (@cmd) := [Inv 1%positive (ins 5 7); Steps 1 1%positive; Inv 2%positive (ins 6 8); Finish 2%positive; Finish 1%positive;
  Lab (LUnpin 1%positive); Lab (LUnpin 2%positive); Inv 3%positive (rem 5); Finish 3%positive; Inv 4%positive (rem 6); Finish 4%positive; Lab (LUnpin 3%positive); Lab (LUnpin 4%positive);
  Lab (LFree 0); Lab (LFree 0); Lab (LFree 0)].

Definition nospurb (ls : list (@label CN)) : bool := forallb (fun lb => match lb with LStep _ true _ => false | _ => true end) ls.
Lemma nospur_spec ls : nospurb ls = true -> no_spurious ls.
Proof. intros H o a Hin. unfold nospurb in H. rewrite forallb_forall in H. apply elem_of_list_In in Hin. by specialize (H _ Hin). Qed.

Definition leaks (s : @state CN) : bool :=
  match m_root (s_mem s), m_tmp (s_mem s), m_garb (s_mem s) with
  | Sh None _ _, [(BData [(5%N, 7%N)], KInner)], [] => bool_decide (guards s = ∅) && negb (s_dropped s)
  | _, _, _ => false
  end.
Lemma leaks_spec s : leaks s = true -> settled s /\ (forall p, ~ stored (s_mem s) p) /\ copy_at (s_mem s) (InTmp 0 0) (el 5 7).
Proof.
  unfold leaks. intros H. destruct (m_root (s_mem s)) as [[?|] ? ?] eqn:Er; [done|].
  assert (m_tmp (s_mem s) = [(BData [el 5 7], KInner)] /\ m_garb (s_mem s) = [] /\ guards s = ∅ /\ s_dropped s = false) as (Ht & Hg & Hgs & Hd).
  { repeat (case_match; try done). apply andb_true_iff in H as [Ha%bool_decide_eq_true Hb%negb_true_iff]. done. }
  split; [done|]. split.
  - intros p (l & a & it & [n Hl] & _). assert (forall n l, ~ linked_at (s_mem s) n l) as Hno.
    { induction 1 as [? Hx|]; [rewrite Er in Hx; done|done]. }
    by apply Hno in Hl.
  - exists [el 5 7], KInner. rewrite Ht. done.
Qed.

Theorem C52_refuted : exists ls (s : @state CN) ev p, exec ls s ev /\ wf_calls ls /\ sequential ls /\ settled s /\
  (forall q, ~ stored (s_mem s) q) /\ copy_at (s_mem s) (InTmp 0 0) p.
Proof.
  assert (exec (schedule one_spur) (fin one_spur) (evs one_spur) /\ wf_calls (schedule one_spur)) as [Hx Hw] by (apply exec_of; vm_compute; reflexivity).
  assert (sequential (schedule one_spur)) as Hs by (apply seqb_spec; vm_compute; reflexivity).
  assert (leaks (fin one_spur) = true) as Hl by (vm_compute; reflexivity).
  apply leaks_spec in Hl as (H1 & H2 & H3). exists (schedule one_spur), (fin one_spur), (evs one_spur), (el 5 7).
  exact (conj Hx (conj Hw (conj Hs (conj H1 (conj H2 H3))))).
Qed.
Print Assumptions C52_refuted.

Theorem C52_refuted_race : exists ls (s : @state CN) ev p, exec ls s ev /\ wf_calls ls /\ no_spurious ls /\ settled s /\
  (forall q, ~ stored (s_mem s) q) /\ copy_at (s_mem s) (InTmp 0 0) p.
Proof.
  assert (exec (schedule one_race) (fin one_race) (evs one_race) /\ wf_calls (schedule one_race)) as [Hx Hw] by (apply exec_of; vm_compute; reflexivity).
  assert (no_spurious (schedule one_race)) as Hs by (apply nospur_spec; vm_compute; reflexivity).
  assert (leaks (fin one_race) = true) as Hl by (vm_compute; reflexivity).
  apply leaks_spec in Hl as (H1 & H2 & H3). exists (schedule one_race), (fin one_race), (evs one_race), (el 5 7).
  exact (conj Hx (conj Hw (conj Hs (conj H1 (conj H2 H3))))).
Qed.
Print Assumptions C52_refuted_race.

(** The hypotheses of the partial theorems can be met: elements that come and go, with an iteration in between, and two that stay. *)
Definition tidy : list (@cmd) := seqcalls 1%positive [ins 16 1; ins 32 2; ins 3 3] ++ [Inv 4%positive ite; Steps 3 4%positive] ++
  seqcalls 5%positive [rem 3; ins 16 9; goi 7 7] ++ [Finish 4%positive] ++ map (fun o => Lab (LUnpin o)) [1; 2; 3; 4; 5; 6; 7]%positive ++ repeat (Lab (LFree 0)) 3.
Definition settledb (s : @state CN) : bool := bool_decide (guards s = ∅) && (length (m_garb (s_mem s)) =? 0) && negb (s_dropped s).
Lemma settledb_spec s : settledb s = true -> settled s.
Proof.
  intros [[H1%bool_decide_eq_true H2%Nat.eqb_eq]%andb_true_iff H3%negb_true_iff]%andb_true_iff. split; [done|]. split; [|done]. by destruct (m_garb (s_mem s)).
Qed.
Definition owb (ls : list (@label CN)) : bool :=
  forallb (fun j => match state_at ls j with
    | Some s => length (List.filter (fun x => match x.2 with SRun op _ => negb (is_reader op) | _ => false end) (map_to_list (s_ops s))) <=? 1
    | None => true end) (seq 0 (S (length ls))).
Lemma owb_spec ls : owb ls = true -> one_writer ls.
Proof.
  intros H n s o1 op1 o2 op2 Hs [p1 H1] [p2 H2] Hr1 Hr2. destruct (state_at_le _ _ _ Hs) as (n' & Hn' & Hs'). unfold owb in H. rewrite forallb_forall in H.
  specialize (H n' ltac:(apply in_seq; lia)). rewrite Hs' in H. apply Nat.leb_le in H.
  assert (forall o op p, s_ops s !! o = Some (SRun op p) -> is_reader op = false ->
    In (o, SRun op p) (List.filter (fun x : opid * ostat => match x.2 with SRun op _ => negb (is_reader op) | _ => false end) (map_to_list (s_ops s)))) as Hin.
  { intros o op p Ho Hr. apply filter_In. split; [by apply elem_of_list_In, elem_of_map_to_list|simpl; by rewrite Hr]. }
  pose proof (Hin _ _ _ H1 Hr1) as I1. pose proof (Hin _ _ _ H2 Hr2) as I2.
  destruct (List.filter _ _) as [|x [|y l']]; simpl in *; [done| |lia]. destruct I1 as [->|[]], I2 as [[=]|[]]. done.
Qed.

Example C52_example : exec (schedule tidy) (fin tidy) (evs tidy) /\ wf_calls (schedule tidy) /\ one_writer (schedule tidy) /\ no_spurious (schedule tidy) /\ settled (fin tidy) /\
  m_freed (s_mem (fin tidy)) = [(5, KData); (2, KInner); (1, KData)]%positive.
Proof.
  assert (exec (schedule tidy) (fin tidy) (evs tidy) /\ wf_calls (schedule tidy)) as [Hx Hw] by (apply exec_of; vm_compute; reflexivity).
  assert (one_writer (schedule tidy)) as H1 by (apply owb_spec; vm_compute; reflexivity).
  assert (no_spurious (schedule tidy)) as H2 by (apply nospur_spec; vm_compute; reflexivity).
  assert (settled (fin tidy)) as H3 by (apply settledb_spec; vm_compute; reflexivity).
  refine (conj Hx (conj Hw (conj H1 (conj H2 (conj H3 _))))). vm_compute. reflexivity.
Qed.
