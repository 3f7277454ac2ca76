(** * Property C56: reference counts. *)
From Verif Require Import Model Mem Inv Safe SafeStep SafeOps SafeSys SafeProps Spec LinSpec IterSpec SeqSpec HoldSpec Arcs ArcSpec ArcInv Concrete PropHold.

Section arcs.
Context {C : Config} (ident : Pl -> positive).
Implicit Types (s : astate) (m : mem).
Notation cn := (cn ident).

(** The map under a machine with counts is a map. *)
Lemma astep_base s lb s' ev : astep ident s lb = Some (s', ev) ->
  match base lb with Some l => step (a_map s) l = Some (a_map s', ev) | None => a_map s' = a_map s /\ ev = [] end.
Proof.
  intros H. destruct lb as [o op src|o spur a src|o|o unw|n| |p|n|n|o n]; cbn [astep base] in *.
  - destruct (step _ _) as [[s1 e1]|] eqn:E; [|done]. destruct op; try (by injection H as <- <-). destruct (give _ _ _ _ _) as [[? ?]|]; [|done]. by injection H as <- <-.
  - destruct (s_ops (a_map s) !! o) as [[op p| | |]|]; try done. destruct (op_step _ _ _ _ _) as [[[m' nx] acts]|]; [|done].
    destruct (step _ _) as [[s1 e1]|]; [|done]. destruct (match made p acts with Some q => _ | None => _ end) as [[? ?]|]; [|done].
    destruct (effects _ _ _) as [? ?]. by injection H as <- <-.
  - destruct (step _ _) as [[s1 e1]|] eqn:E; [|done]. by injection H as <- <-.
  - destruct (s_ops (a_map s) !! o) as [[op p| | |]|]; try done. destruct (step _ _) as [[s1 e1]|]; [|done]. destruct unw; [|by injection H as <- <-].
    destruct (effects _ _ _) as [? ?]. by injection H as <- <-.
  - destruct (step _ _) as [[s1 e1]|] eqn:E; [|done]. destruct (effects _ _ _) as [? ?]. by injection H as <- <-.
  - destruct (step _ _) as [[s1 e1]|] eqn:E; [|done]. destruct (effects _ _ _) as [? ?]. by injection H as <- <-.
  - destruct (a_cnt s !! ident p); [done|]. by injection H as <- <-.
  - destruct (a_hand s !! n); [|done]. by injection H as <- <-.
  - destruct (a_hand s !! n); [|done]. by injection H as <- <-.
  - destruct (handed (a_map s) o !! n) as [x|]; [|done]. destruct (deref _ _) as [[?|it]|]; [by injection H as <- <-| |by injection H as <- <-].
    destruct (it !! rr_idx x); by injection H as <- <-.
Qed.
Lemma arun_app s ls1 ls2 : arun ident s (ls1 ++ ls2) =
  match arun ident s ls1 with Some (s', ev) => match arun ident s' ls2 with Some (s'', ev') => Some (s'', ev ++ ev') | None => None end | None => None end.
Proof.
  revert s. induction ls1 as [|lb ls1 IH]; intros s; simpl; [by destruct (arun ident s ls2) as [[? ?]|]|]. destruct (astep ident s lb) as [[s1 e1]|]; [|done].
  rewrite IH. destruct (arun ident s1 ls1) as [[s2 e2]|]; [|done]. destruct (arun ident s2 ls2) as [[s3 e3]|]; [|done]. by rewrite app_assoc.
Qed.
Lemma aexec_snoc ls lb s ev : aexec ident (ls ++ [lb]) s ev -> exists s1 e1 e2, aexec ident ls s1 e1 /\ astep ident s1 lb = Some (s, e2) /\ ev = e1 ++ e2.
Proof.
  unfold aexec. rewrite arun_app. destruct (arun ident ainit ls) as [[s1 e1]|]; [|done]. simpl. destruct (astep ident s1 lb) as [[s2 e2]|] eqn:E; [|done].
  rewrite app_nil_r. intros [= <- <-]. eauto 10.
Qed.
Lemma aexec_base ls s ev : aexec ident ls s ev -> exec (omap base ls) (a_map s) ev.
Proof.
  revert s ev. induction ls as [|lb ls IH] using rev_ind; intros s ev Hx; [injection Hx as <- <-; done|].
  apply aexec_snoc in Hx as (s1 & e1 & e2 & Hx & Hst & ->). apply IH in Hx. apply astep_base in Hst. rewrite omap_app. simpl. destruct (base lb) as [l|].
  - by eapply run_step.
  - destruct Hst as [-> ->]. by rewrite !app_nil_r.
Qed.

Record ainv s : Prop := AInv' {
  ai_bad : a_bad s = false;
  ai_cnt : forall i, strong (a_cnt s) i = cn i (all_handles s);
}.
Lemma cn_handles i s : cn i (all_handles s) = cn i (a_hand s) + inmap ident i (s_mem (a_map s)) + cn i (all_of (calls_have (a_map s))) + cn i (a_lost s).
Proof. unfold all_handles, inmap. rewrite !cn_app. lia. Qed.

Lemma give_ok cnt hand p src cnt' hand' : give ident cnt hand p src = Some (cnt', hand') -> (forall i, cn i hand <= strong cnt i) ->
  forall i, strong cnt' i + cn i hand = strong cnt i + cn i hand' + cn i [p].
Proof.
  unfold give. intros H Hle i. destruct src as [n|].
  - destruct (hand !! n) as [q|] eqn:Eh; [|done]. destruct (decide (ident q = ident p)) as [E|]; [|done]. injection H as <- <-.
    rewrite (cn_delete ident i hand n q Eh), (cn_same ident i q p E). lia.
  - destruct (cnt !! ident p) eqn:Ec; [done|]. injection H as <- <-. rewrite strong_insert. destruct (decide (ident p = i)) as [<-|Hne].
    + rewrite cn_self. assert (strong cnt (ident p) = 0) as E0 by (unfold strong; by rewrite Ec). specialize (Hle (ident p)). lia.
    + rewrite cn_other by done. lia.
Qed.

Lemma have_insert (M : gmap opid ostat) o st i : cn i (all_of ((fun st => match st with SRun _ p => pc_state p ++ pc_node p | _ => [] end) <$> <[o := st]> M)) +
    cn i (match M !! o with Some (SRun _ p) => pc_have p | _ => [] end) =
  cn i (match st with SRun _ p => pc_have p | _ => [] end) + cn i (all_of ((fun st => match st with SRun _ p => pc_state p ++ pc_node p | _ => [] end) <$> M)).
Proof.
  rewrite fmap_insert. rewrite <-(all_insert ident i _ o (match st with SRun _ p => pc_have p | _ => [] end)). f_equal. rewrite lookup_fmap. by destruct (M !! o) as [[]|].
Qed.
Lemma op_init_have op i : cn i (pc_have (op_init op)) = match op with OInsert p => cn i [p] | _ => 0 end.
Proof. by destruct op. Qed.

Lemma drop_rec_inner fuel m : forall v fs, drop_rec fuel m v = Some fs -> Forall (fun x => x.2 = KInner) fs.
Proof.
  induction fuel as [|fuel IH]; intros v fs H; [done|]. cbn [drop_rec] in H. destruct (sh_loc v) as [l|]; [|by injection H as <-]. destruct (sh_data v).
  - destruct (deref m l) as [[?|?]|]; [done| |done]. injection H as <-. by repeat constructor.
  - destruct (deref m l) as [[sl|?]|]; [|done|done].
    assert (forall ws r, (fix go (ws : list sh) : option (list (loc * dkind)) := match ws with [] => Some [] | w :: ws => match drop_rec fuel m w, go ws with Some a, Some b => Some (a ++ b) | _, _ => None end end) ws = Some r ->
      Forall (fun x => x.2 = KInner) r) as Hgo.
    { induction ws as [|w ws IHw]; intros r Hr; [by injection Hr as <-|]. destruct (drop_rec fuel m w) as [a|] eqn:Ea; [|done].
      match type of Hr with context [?g ws] => destruct (g ws) as [b|] eqn:Eb end; [|done]. injection Hr as <-. apply Forall_app. split; [by eapply IH|by apply IHw]. }
    match type of H with context [?g sl] => destruct (g sl) as [r|] eqn:Er end; [|done]. injection H as <-. apply Forall_app. split; [by eapply Hgo|by repeat constructor].
Qed.

Lemma handed_valid (s0 : state) o x : reachable s0 -> x ∈ handed s0 o -> ref_valid (s_mem s0) x.
Proof.
  intros Hr Hx. pose proof (reach_sinv _ Hr) as Hs. unfold handed in Hx. destruct (s_ops s0 !! o) as [st|] eqn:Eo; [|by apply elem_of_nil in Hx].
  assert (o ∈ guards s0) as Hg. { apply elem_of_guards. exists st. split; [done|]. destruct st; try done. by apply elem_of_nil in Hx. }
  destruct (live_of_guard _ _ Hs Hg) as [pos Hl]. pose proof (li_ops _ _ Hl _ _ Eo) as Hok. apply (ref_ok_valid _ o).
  destruct st as [op p|op r|op f|]; simpl in Hok; try (by apply elem_of_nil in Hx).
  - destruct p; try (by apply elem_of_nil in Hx). destruct Hok as [_ Hok]. by eapply Forall_forall in Hok.
  - eapply Forall_forall in Hok; [exact Hok|]. destruct r as [[y|]|[y|y]|b|ys]; done.
Qed.

Lemma ainv_step s lb s' ev : reachable (a_map s) -> ainv s -> astep ident s lb = Some (s', ev) -> ainv s'.
Proof.
  intros Hr [Hb Hc] H. pose proof (reach_sinv _ Hr) as Hs. set (S0 := a_map s) in *.
  assert (forall i, strong (a_cnt s) i = cn i (a_hand s) + inmap ident i (s_mem S0) + cn i (all_of (calls_have S0)) + cn i (a_lost s)) as Hc' by (intros i; by rewrite Hc, cn_handles).
  destruct lb as [o op src|o spur a src|o|o unw|n| |p|n|n|o n]; cbn [astep] in H.
  - (* a call starts *)
    fold S0 in H. destruct (step S0 (LInv o op)) as [[s1 e1]|] eqn:E; [|done]. cbn [step] in E. destruct (s_ops S0 !! o) eqn:Eo; [done|]. destruct (s_dropped S0); [done|]. injection E as <- <-.
    assert (forall i, cn i (all_of (calls_have (set_op S0 o (SRun op (op_init op))))) = match op with OInsert p => cn i [p] | _ => 0 end + cn i (all_of (calls_have S0))) as Hcs.
    { intros i. pose proof (have_insert (s_ops S0) o (SRun op (op_init op)) i) as Hi. rewrite Eo, op_init_have, cn_nil in Hi. unfold calls_have. simpl. lia. }
    destruct op as [p|k f|k|k| |];
      [destruct (give _ _ _ _ _) as [[cnt' hand']|] eqn:Eg; [|done]|..]; injection H as <- <-; (split; [done|]); intros i; rewrite cn_handles; cbn [a_cnt a_hand a_map a_lost set_op s_mem];
      unfold set_op in Hcs; rewrite Hcs; try (rewrite Hc'; lia).
    pose proof (give_ok _ _ _ _ _ _ Eg) as Hg. specialize (Hg ltac:(intros j; rewrite Hc'; lia) i). rewrite Hc' in Hg. lia.
  - (* a call takes a step *)
    fold S0 in H. destruct (s_ops S0 !! o) as [[op p| | |]|] eqn:Eo; try done. destruct (op_step _ _ _ _ _) as [[[m' nx] acts]|] eqn:Eop; [|done].
    destruct (step S0 (LStep o spur a)) as [[s1 e1]|] eqn:Est; [|done].
    assert (reachable s1) as Hr1 by (destruct Hr as (ls0 & ev0 & Hx); eexists _, _; by eapply run_step).
    cbn [step] in Est. rewrite Eo, Eop in Est. injection Est as <- <-.
    assert (forall f, nx <> NFail f) as Hf. { intros f ->. eapply (no_failure _ o op f Hr1). simpl. by rewrite lookup_insert. }
    destruct (live_of_guard S0 o Hs) as [pos Hl]; [by apply elem_of_guards; rewrite Eo; eauto|]. pose proof (li_mem _ _ Hl) as Hm.
    assert (m_heap (s_mem S0) !! m_next (s_mem S0) = None) as Hn. { pose proof (next_fresh _ _ Hm) as E. unfold hbody in E. by destruct (m_heap (s_mem S0) !! m_next (s_mem S0)). }
    assert ((m_next (s_mem S0), KData) ∉ m_freed (s_mem S0)) as Hnf.
    { intros Hin. apply (next_not_dead _ _ Hm). right. apply elem_of_list_fmap. by exists (m_next (s_mem S0), KData). }
    destruct (op_okstep ident _ _ _ _ _ _ _ _ Hn Hnf Eop Hf) as [(A & L & Ee & HA & Hi)].
    destruct (match made p acts with Some q => _ | None => _ end) as [[cnt hand]|] eqn:Eg; [|done].
    assert (forall i, strong cnt i = cn i hand + inmap ident i (s_mem S0) + cn i (all_of (calls_have S0)) + cn i (a_lost s) + cn i (match made p acts with Some q => [q] | None => [] end)) as Hcnt.
    { intros i. destruct (made p acts) as [q|].
      - pose proof (give_ok _ _ _ _ _ _ Eg) as Hg. specialize (Hg ltac:(intros j; rewrite Hc'; lia) i). rewrite Hc' in Hg. lia.
      - injection Eg as <- <-. rewrite Hc', cn_nil. lia. }
    assert (forall i, cn i (pc_have p) <= cn i (all_of (calls_have S0))) as Hpc.
    { intros i. apply (all_ge ident i (calls_have S0) o). unfold calls_have. by rewrite lookup_fmap, Eo. }
    destruct (effects_ok ident A L cnt) as (cnt' & Eeff & Hcnt').
    { apply Forall_forall. intros e He. specialize (HA e He).
      assert (forall q, (exists l it, leaves (s_mem S0) !! l = Some it /\ q ∈ it) \/ q ∈ pc_have p \/ made p acts = Some q -> 0 < strong cnt (ident q)) as Hq.
      { intros q [(l & it & Hli & Hq)|[Hq|Hq]]; rewrite Hcnt.
        - pose proof (all_elem ident _ _ _ _ Hli Hq). unfold inmap. lia.
        - pose proof (Hpc (ident q)). pose proof (cn_elem ident _ _ Hq). lia.
        - rewrite Hq, cn_self. lia. }
      destruct e; simpl; [by apply Hq|by apply Hq|done]. }
    { intros i. rewrite Hcnt. specialize (Hi i). specialize (Hpc i). lia. }
    rewrite Hb, Ee, Eeff in H. injection H as <- <-. split; [done|]. intros i. rewrite cn_handles. cbn [a_cnt a_hand a_map a_lost s_mem].
    pose proof (have_insert (s_ops S0) o (match nx with NRun p' => SRun op p' | NRet r => SRet op r | NFail f => SFail op f end) i) as Hh. rewrite Eo in Hh.
    assert (match match nx with NRun p' => SRun op p' | NRet r => SRet op r | NFail f => SFail op f end with SRun _ p => pc_have p | _ => [] end = nx_have nx) as Enx by (by destruct nx).
    rewrite Enx in Hh. unfold calls_have in *. cbn [s_ops]. specialize (Hcnt' i). rewrite Hcnt in Hcnt'. specialize (Hi i). specialize (Hpc i). lia.
  - (* unpin *)
    fold S0 in H. cbn [step] in H. destruct (s_ops S0 !! o) as [[| | |]|] eqn:Eo; try done. injection H as <- <-. split; [done|]. intros i. rewrite cn_handles. cbn [a_cnt a_hand a_map a_lost set_op s_mem].
    pose proof (have_insert (s_ops S0) o SGone i) as Hh. rewrite Eo in Hh. unfold calls_have in *. cbn [s_ops set_op]. rewrite Hc'. rewrite !cn_nil in Hh. lia.
  - (* abort *)
    fold S0 in H. cbn [step] in H. destruct (s_ops S0 !! o) as [[op p| | |]|] eqn:Eo; try done.
    pose proof (fun i => have_insert (s_ops S0) o SGone i) as Hh. rewrite Eo in Hh. unfold calls_have in *. unfold pc_have in Hh. destruct unw.
    + destruct (effects_ok ident [] (pc_state p) (a_cnt s)) as (cnt' & Eeff & Hcnt'); [constructor| |].
      { intros i. rewrite Hc'. specialize (Hh i). rewrite cn_app, cn_nil in Hh. lia. }
      simpl in Eeff. rewrite Hb, Eeff in H. injection H as <- <-. split; [done|]. intros i. rewrite cn_handles. cbn [a_cnt a_hand a_map a_lost set_op s_mem s_ops].
      unfold calls_have. change (s_ops (set_op S0 o SGone)) with (<[o:=SGone]> (s_ops S0)). specialize (Hh i). specialize (Hcnt' i). rewrite Hc' in Hcnt'. cbv beta iota in Hh. rewrite cn_app, cn_nil in Hh. rewrite cn_app. change (nclone ident i []) with 0 in Hcnt'. unfold inmap in *. cbn [s_mem]. lia.
    + injection H as <- <-. split; [done|]. intros i. rewrite cn_handles. cbn [a_cnt a_hand a_map a_lost set_op s_mem s_ops].
      unfold calls_have. change (s_ops (set_op S0 o SGone)) with (<[o:=SGone]> (s_ops S0)). specialize (Hh i). cbv beta iota in Hh. rewrite cn_app, cn_nil in Hh. rewrite Hc', !cn_app. lia.
  - (* the collector *)
    fold S0 in H. destruct (step S0 (LFree n)) as [[s1 e1]|] eqn:Est; [|done]. cbn [step] in Est. destruct (m_garb (s_mem S0) !! n) as [[[l k] g]|] eqn:Eg; [|done].
    case_bool_decide as Hgs; [|done]. injection Est as <- <-.
    destruct (deferred_kind _ l k g Hr) as (a & b & Hh & Ek); [by eapply elem_of_list_lookup_2|].
    assert (l ∉ (m_freed (s_mem S0)).*1) as Hnf.
    { pose proof (destroyed_once _ Hr) as Hnd. apply NoDup_app in Hnd as (_ & Hnd & _). apply Hnd. apply elem_of_list_fmap. exists (l, k, g). split; [done|]. by eapply elem_of_list_lookup_2. }
    set (m1 := Mem _ _ _ _ _ _) in *.
    assert (free_eff (s_mem S0) m1 = map EfDrop (match b with BData it => it | BInner _ => [] end)) as Ee.
    { unfold free_eff, frees, m1. cbn [m_freed length]. replace (S (length (m_freed (s_mem S0))) - length (m_freed (s_mem S0))) with 1 by lia. simpl. rewrite Hh. simpl.
      rewrite app_nil_r. subst k. by destruct b. }
    assert (forall i, cn i (match b with BData it => it | BInner _ => [] end) + cn i (all_of (leaves m1)) = cn i (all_of (leaves (s_mem S0)))) as Hlv.
    { intros i. destruct b as [sl|it].
      - rewrite cn_nil. simpl. do 2 f_equal. apply map_eq. intros l'. rewrite !leaves_lookup. simpl. destruct (m_heap (s_mem S0) !! l') as [[a' [|it']]|] eqn:Eh'; try done.
        subst k. simpl. erewrite bool_decide_ext; [done|]. rewrite elem_of_cons. split; [intros [[=]|?]; done|by right].
      - assert (leaves (s_mem S0) !! l = Some it) as Hll. { rewrite leaves_lookup, Hh. rewrite bool_decide_eq_false_2; [done|]. intros Hin. apply Hnf. apply elem_of_list_fmap. by exists (l, KData). }
        rewrite (all_delete ident i _ _ _ Hll). do 3 f_equal. apply map_eq. intros l'. destruct (decide (l' = l)) as [->|Hne].
        + rewrite lookup_delete, leaves_lookup. simpl. rewrite Hh. subst k. simpl. rewrite bool_decide_eq_true_2; [done|by left].
        + rewrite lookup_delete_ne by done. rewrite !leaves_lookup. simpl. destruct (m_heap (s_mem S0) !! l') as [[a' [|it']]|]; try done.
          erewrite bool_decide_ext; [done|]. rewrite elem_of_cons. split; [intros [[=]|?]; done|by right]. }
    destruct (effects_ok ident [] (match b with BData it => it | BInner _ => [] end) (a_cnt s)) as (cnt' & Eeff & Hcnt'); [constructor| |].
    { intros i. rewrite Hc'. unfold inmap. specialize (Hlv i). lia. }
    simpl in Eeff. cbn [s_mem] in H. rewrite Ee, Hb, Eeff in H. injection H as <- <-. split; [done|]. intros i. rewrite cn_handles. cbn [a_cnt a_hand a_map a_lost s_mem].
    specialize (Hcnt' i). rewrite Hc' in Hcnt'. specialize (Hlv i). unfold inmap, calls_have in *. cbn [s_ops]. replace (tmp_copies m1) with (tmp_copies (s_mem S0)) by done.
    change (nclone ident i []) with 0 in Hcnt'. lia.
  - (* the destructor of the map *)
    fold S0 in H. destruct (step S0 LDrop) as [[s1 e1]|] eqn:Est; [|done].
    assert (s_ops s1 = s_ops S0 /\ free_eff (s_mem S0) (s_mem s1) = [] /\ leaves (s_mem s1) = leaves (s_mem S0) /\ tmp_copies (s_mem s1) = tmp_copies (s_mem S0)) as (E1 & E2 & E3 & E4).
    { cbn [step] in Est. destruct (_ && _); [|done]. destruct (drop_rec _ _ _) as [fs|] eqn:Ed; injection Est as <- <-; cbn [s_mem s_ops].
      - apply drop_rec_inner in Ed. rewrite Forall_forall in Ed. split; [done|]. split; [|split; [|done]].
        + unfold free_eff, frees. simpl. rewrite app_length, reverse_length. replace (length fs + _ - _) with (length (reverse fs)) by (rewrite reverse_length; lia). rewrite take_app.
          assert (forall x, x ∈ reverse fs -> x.2 = KInner) as Hin by (intros x Hx; apply Ed; by apply elem_of_reverse).
          revert Hin. generalize (reverse fs). intros L. induction L as [|[l k] L IH]; intros Hin; [done|]. simpl. rewrite IH by (intros x Hx; apply Hin; by right).
          specialize (Hin (l, k) ltac:(by left)). simpl in Hin. subst k. destruct (m_heap (s_mem S0) !! l) as [[a [|]]|]; done.
        + apply map_eq. intros l. rewrite !leaves_lookup. simpl. destruct (m_heap (s_mem S0) !! l) as [[a [|it]]|]; try done.
          erewrite bool_decide_ext; [done|]. rewrite elem_of_app, elem_of_reverse. split; [intros [Hin|?]; [|done]|by right]. apply Ed in Hin. done.
      - split; [done|]. split; [|done]. unfold free_eff, frees. by rewrite Nat.sub_diag. }
    rewrite E2 in H. simpl in H. injection H as <- <-. split; [done|]. intros i. rewrite cn_handles. cbn [a_cnt a_hand a_map a_lost s_mem]. rewrite Hc'. unfold inmap, calls_have. rewrite E1, E3, E4. lia.
  - (* a caller makes an element *)
    destruct (a_cnt s !! ident p) eqn:Ec; [done|]. injection H as <- <-. split; [done|]. intros i. rewrite cn_handles. cbn [a_cnt a_hand a_map a_lost]. fold S0.
    rewrite cn_cons, strong_insert. specialize (Hc' i). unfold inmap, calls_have in *. destruct (decide (ident p = i)) as [<-|]; [|rewrite cn_other by done; lia].
    rewrite cn_self. unfold strong in Hc'. rewrite Ec in Hc'. simpl in Hc'. lia.
  - (* a caller clones a handle *)
    destruct (a_hand s !! n) as [p|] eqn:Eh; [|done]. cbn [effect] in H. apply elem_of_list_lookup_2 in Eh. apply (cn_elem ident) in Eh.
    pose proof (Hc' (ident p)) as Hp. rewrite (proj2 (Nat.eqb_neq _ 0)) in H by lia. injection H as <- <-. split; [by rewrite Hb|]. intros i. rewrite cn_handles. cbn [a_cnt a_hand a_map a_lost]. fold S0.
    rewrite cn_cons, strong_insert. destruct (decide (ident p = i)) as [<-|]; [rewrite cn_self, Hc'; lia|rewrite cn_other, Hc' by done; lia].
  - (* a caller drops a handle *)
    destruct (a_hand s !! n) as [p|] eqn:Eh; [|done]. cbn [effect] in H. pose proof (fun i => cn_delete ident i _ _ _ Eh) as Hd.
    pose proof (Hc' (ident p)) as Hp. rewrite Hd, cn_self in Hp. rewrite (proj2 (Nat.eqb_neq _ 0)) in H by lia. injection H as <- <-. split; [by rewrite Hb|]. intros i. rewrite cn_handles. cbn [a_cnt a_hand a_map a_lost]. fold S0.
    specialize (Hc' i). specialize (Hd i). rewrite strong_insert. destruct (decide (ident p = i)) as [<-|]; [rewrite cn_self in Hd; lia|rewrite cn_other in Hd by done; lia].
  - (* a caller clones what a reference points to *)
    fold S0 in H. destruct (handed S0 o !! n) as [x|] eqn:Ex; [|done].
    destruct (handed_valid S0 o x Hr) as (it & Hd & Hx); [by eapply elem_of_list_lookup_2|]. rewrite Hd, Hx in H. cbn [effect] in H.
    pose proof (all_elem ident _ _ _ _ (leaves_deref _ _ _ Hd) (elem_of_list_lookup_2 _ _ _ Hx)) as Hpos.
    pose proof (Hc' (ident (rr_val x))) as Hp. unfold inmap in Hp. rewrite (proj2 (Nat.eqb_neq _ 0)) in H by lia. injection H as <- <-. split; [by rewrite Hb|]. intros i. rewrite cn_handles. cbn [a_cnt a_hand a_map a_lost]. fold S0.
    rewrite cn_cons, strong_insert. destruct (decide (ident (rr_val x) = i)) as [<-|]; [rewrite cn_self, Hc'; lia|rewrite cn_other, Hc' by done; lia].
Qed.

Lemma aexec_ainv ls s ev : aexec ident ls s ev -> ainv s.
Proof.
  revert s ev. induction ls as [|lb ls IH] using rev_ind; intros s ev Hx; [injection Hx as <- <-; by split|].
  apply aexec_snoc in Hx as (s1 & e1 & e2 & Hx & Hst & ->). eapply ainv_step; [|by eapply IH|exact Hst]. eexists _, _. by eapply aexec_base.
Qed.

Lemma areach_inv s : areachable ident s -> ainv s.
Proof. intros (ls & ev & Hx). by eapply aexec_ainv. Qed.
Lemma areach_base s : areachable ident s -> reachable (a_map s).
Proof. intros (ls & ev & Hx). eexists _, _. by eapply aexec_base. Qed.

(** ** Once everybody is done *)
Lemma all_of_elem `{Countable J} (M : gmap J (list Pl)) p : p ∈ all_of M <-> exists j L, M !! j = Some L /\ p ∈ L.
Proof.
  unfold all_of. rewrite elem_of_list_In, in_concat. split.
  - intros (L & HL & Hp). apply in_map_iff in HL as ([j L'] & <- & HL). apply elem_of_list_In, elem_of_map_to_list in HL. exists j, L'. split; [done|by apply elem_of_list_In].
  - intros (j & L & HL & Hp). exists L. split; [|by apply elem_of_list_In]. apply in_map_iff. exists (j, L). split; [done|]. by apply elem_of_list_In, elem_of_map_to_list.
Qed.
Lemma nodup_concat {J} (X : list (J * list Pl)) : NoDup X.*1 -> (forall j L, (j, L) ∈ X -> NoDup L) ->
  (forall j L j' L' p, (j, L) ∈ X -> (j', L') ∈ X -> p ∈ L -> p ∈ L' -> j = j') -> NoDup (concat (map snd X)).
Proof.
  induction X as [|[j L] X IH]; intros H1 H2 H3; simpl in *; [constructor|]. apply NoDup_cons in H1 as [Hj H1]. apply NoDup_app. split; [by apply (H2 j L); left|]. split.
  - intros p Hp. rewrite elem_of_list_In, in_concat. intros (L' & HL' & Hp'). apply in_map_iff in HL' as ([j' L''] & <- & HL'). apply elem_of_list_In in HL', Hp'. simpl in *.
    assert (j = j') as <- by (eapply (H3 j L j' L'' p); [by left|by right|done|done]). apply Hj. apply elem_of_list_fmap. by exists (j, L'').
  - apply IH; [done|intros j' L' H; apply (H2 j' L'); by right|]. intros j1 L1 j2 L2 p Ha Hb. apply H3; by right.
Qed.
Lemma nodup_all `{Countable J} (M : gmap J (list Pl)) : (forall j L, M !! j = Some L -> NoDup L) ->
  (forall j L j' L' p, M !! j = Some L -> M !! j' = Some L' -> p ∈ L -> p ∈ L' -> j = j') -> NoDup (all_of M).
Proof.
  intros H1 H2. apply nodup_concat; [apply NoDup_fst_map_to_list|intros j L Hj%elem_of_map_to_list; eauto|].
  intros j L j' L' p Hj%elem_of_map_to_list Hj'%elem_of_map_to_list. eauto.
Qed.
Lemma all_of_empty `{Countable J} (M : gmap J (list Pl)) : (forall j L, M !! j = Some L -> L = []) -> all_of M = [].
Proof.
  intros HM. destruct (all_of M) as [|p X] eqn:E; [done|]. assert (p ∈ all_of M) as Hp by (rewrite E; by left). apply all_of_elem in Hp as (j & L & Hj & Hp).
  rewrite (HM _ _ Hj) in Hp. by apply elem_of_nil in Hp.
Qed.
Lemma leaves_copy (s0 : state) l it i p : leaves (s_mem s0) !! l = Some it -> it !! i = Some p -> copy_at (s_mem s0) (InNode l i) p.
Proof.
  rewrite leaves_lookup. destruct (m_heap (s_mem s0) !! l) as [[a [|it']]|] eqn:Eh; try done. simpl. case_bool_decide as Hf; [done|]. intros [= ->] Hi. by exists a, it.
Qed.
Lemma copy_leaves (s0 : state) l i p : copy_at (s_mem s0) (InNode l i) p -> exists it, leaves (s_mem s0) !! l = Some it /\ it !! i = Some p.
Proof. intros (a & it & Hh & Hi & Hf). exists it. split; [|done]. rewrite leaves_lookup, Hh. simpl. by rewrite bool_decide_eq_false_2. Qed.
Lemma leaves_stored (s0 : state) p : reachable s0 -> settled s0 -> p ∈ all_of (leaves (s_mem s0)) <-> stored (s_mem s0) p.
Proof.
  intros Hr Hs. rewrite <-(node_copies s0 p Hr Hs), all_of_elem. split.
  - intros (l & it & Hl & [i Hi]%elem_of_list_lookup). exists l, i. by eapply leaves_copy.
  - intros (l & i & (it & Hl & Hi)%copy_leaves). exists l, it. split; [done|by eapply elem_of_list_lookup_2].
Qed.
Lemma no_calls (s0 : state) : guards s0 = ∅ -> all_of (calls_have s0) = [].
Proof.
  intros Hg. apply all_of_empty. intros o L. unfold calls_have. rewrite lookup_fmap. destruct (s_ops s0 !! o) as [st|] eqn:Eo; [|done]. intros [= <-].
  destruct st as [op p| | |]; try done. exfalso. assert (o ∈ guards s0) as H by (apply elem_of_guards; rewrite Eo; eauto). rewrite Hg in H. by apply elem_of_empty in H.
Qed.
Lemma stored_leaves (s0 : state) p : reachable s0 -> s_dropped s0 = false -> stored (s_mem s0) p -> p ∈ all_of (leaves (s_mem s0)).
Proof.
  intros Hr Hd (l & a & it & Hl & Hh & Hp). apply all_of_elem. exists l, it. split; [|done]. rewrite leaves_lookup, Hh. simpl. rewrite bool_decide_eq_false_2; [done|].
  destruct (linked_not_dead s0 l Hr Hd Hl) as (_ & Hn & _). intros Hf. apply Hn. apply elem_of_list_fmap. by exists (l, KData).
Qed.
Lemma lost_nil ls s ev : aexec ident ls s ev -> (forall o u, AAbort o u ∉ ls) -> a_lost s = [].
Proof.
  revert s ev. induction ls as [|lb ls IH] using rev_ind; intros s ev Hx Hn; [injection Hx as <- <-; done|].
  apply aexec_snoc in Hx as (s1 & e1 & e2 & Hx & Hst & ->). apply IH in Hx; [|intros o u H; apply (Hn o u), elem_of_app; by left]. rewrite <-Hx. clear IH Hx.
  destruct lb as [o op src|o spur a src|o|o unw|n| |p|n|n|o n]; cbn [astep] in Hst.
  - destruct (step _ _) as [[s2 e]|]; [|done]. destruct op; try (by injection Hst as <- <-). destruct (give _ _ _ _ _) as [[? ?]|]; [|done]. by injection Hst as <- <-.
  - destruct (s_ops _ !! o) as [[op p| | |]|]; try done. destruct (op_step _ _ _ _ _) as [[[m' nx] acts]|]; [|done]. destruct (step _ _) as [[s2 e]|]; [|done].
    destruct (match made p acts with Some q => _ | None => _ end) as [[? ?]|]; [|done]. destruct (effects _ _ _) as [? ?]. by injection Hst as <- <-.
  - destruct (step _ _) as [[s2 e]|]; [|done]. by injection Hst as <- <-.
  - exfalso. apply (Hn o unw), elem_of_app. right. by left.
  - destruct (step _ _) as [[s2 e]|]; [|done]. destruct (effects _ _ _) as [? ?]. by injection Hst as <- <-.
  - destruct (step _ _) as [[s2 e]|]; [|done]. destruct (effects _ _ _) as [? ?]. by injection Hst as <- <-.
  - destruct (a_cnt s1 !! _); [done|]. by injection Hst as <- <-.
  - destruct (a_hand s1 !! n); [|done]. by injection Hst as <- <-.
  - destruct (a_hand s1 !! n); [|done]. by injection Hst as <- <-.
  - destruct (handed _ o !! n) as [x|]; [|done]. destruct (deref _ _) as [[?|it]|]; [by injection Hst as <- <-| |by injection Hst as <- <-].
    destruct (it !! rr_idx x); by injection Hst as <- <-.
Qed.
Lemma tmp_nil m : no_tmp m -> tmp_copies m = [].
Proof.
  unfold no_tmp, tmp_copies. induction (m_tmp m) as [|[b k] X IH]; intros H; [done|]. simpl. rewrite IH by (intros b' k' Hin; apply (H b' k'); by right).
  destruct (H b k ltac:(by left)) as [sl ->]. done.
Qed.
End arcs.

(** ** C56 *)

(** Whatever the calls, the callers and the collector do, and in whatever order: nobody ever reads, clones or drops an element that has been destroyed. *)
Theorem C56_no_use_after_destruction `{C : Config} (ident : Pl -> positive) : forall s, areachable ident s -> a_bad s = false.
Proof. intros s H. by destruct (areach_inv ident s H). Qed.
Print Assumptions C56_no_use_after_destruction.

(** The strong count of every element is the number of handles of it that there are. *)
Theorem C56_count `{C : Config} (ident : Pl -> positive) : forall s, areachable ident s -> forall i, strong (a_cnt s) i = cn ident i (all_handles s).
Proof. intros s H. by destruct (areach_inv ident s H). Qed.
Print Assumptions C56_count.

(** Hence: an element that a caller has a handle of, an element in the map, and an element that a call has handed out a reference to (while the guard is alive) has not been
    destroyed. *)
Theorem C56_alive `{C : Config} (ident : Pl -> positive) : forall s, areachable ident s ->
  (forall p, p ∈ a_hand s -> 0 < strong (a_cnt s) (ident p)) /\
  (forall p, s_dropped (a_map s) = false -> stored (s_mem (a_map s)) p -> 0 < strong (a_cnt s) (ident p)) /\
  (forall o x, x ∈ handed (a_map s) o -> 0 < strong (a_cnt s) (ident (rr_val x))).
Proof.
  intros s H. pose proof (areach_base ident s H) as Hr. destruct (areach_inv ident s H) as [_ Hc].
  assert (forall p, p ∈ all_handles s -> 0 < strong (a_cnt s) (ident p)) as Hp by (intros p Hp; rewrite Hc; by apply cn_elem). unfold all_handles in Hp.
  split; [|split].
  - intros p Hi. apply Hp, elem_of_app. by left.
  - intros p Hd Hst. apply Hp, elem_of_app. right. apply elem_of_app. left. by apply stored_leaves.
  - intros o x Hx. destruct (handed_valid (a_map s) o x Hr Hx) as (it & Hdr & Hi). apply Hp, elem_of_app. right. apply elem_of_app. left. apply all_of_elem.
    exists (rr_loc x), it. split; [by apply leaves_deref|by eapply elem_of_list_lookup_2].
Qed.
Print Assumptions C56_alive.

(** Once everybody is done, the map accounts for one handle of each element in it; what else there is are handles that leaked: in leaves that lost a compare-and-set, and with calls that
    never ended. *)
Theorem C56_settled_count `{C : Config} `{!ConfigOk C} (ident : Pl -> positive) : forall ls s ev, aexec ident ls s ev -> wf_calls (omap base ls) -> settled (a_map s) ->
  exists elems, NoDup elems /\ (forall p, p ∈ elems <-> stored (s_mem (a_map s)) p) /\
    forall i, strong (a_cnt s) i = cn ident i (a_hand s) + cn ident i elems + cn ident i (tmp_copies (s_mem (a_map s)) ++ a_lost s).
Proof.
  intros ls s ev Hx Hw Hs. pose proof (aexec_base ident _ _ _ Hx) as Hb. assert (reachable (a_map s)) as Hr by (eexists _, _; exact Hb).
  destruct (aexec_ainv ident _ _ _ Hx) as [_ Hc]. exists (all_of (leaves (s_mem (a_map s)))).
  assert (forall l it i l' it' i' p, leaves (s_mem (a_map s)) !! l = Some it -> it !! i = Some p -> leaves (s_mem (a_map s)) !! l' = Some it' -> it' !! i' = Some p -> l = l' /\ i = i') as Hu.
  { intros l it i l' it' i' p H1 H2 H3 H4. destruct (C52_single_copy_partial _ _ _ Hb Hw Hs l i l' i' p p) as (-> & -> & _); [by eapply leaves_copy|by eapply leaves_copy|by apply keqb_refl|done]. }
  split; [apply nodup_all|split; [intros p; by apply leaves_stored|]].
  - intros l it Hl. apply NoDup_alt. intros i j p H1 H2. by destruct (Hu _ _ _ _ _ _ _ Hl H1 Hl H2).
  - intros l it l' it' p Hl Hl' [i Hi]%elem_of_list_lookup [j Hj]%elem_of_list_lookup. by destruct (Hu _ _ _ _ _ _ _ Hl Hi Hl' Hj).
  - intros i. rewrite Hc. unfold all_handles. destruct Hs as (Hg & _). rewrite (no_calls _ Hg), !cn_app, cn_nil. lia.
Qed.
Print Assumptions C56_settled_count.

(** Undisturbed: the strong count of an element is the number of handles the callers have, and one if the element is in the map. *)
Theorem C56_strong_count `{C : Config} `{!ConfigOk C} (ident : Pl -> positive) : forall ls s ev, aexec ident ls s ev -> wf_calls (omap base ls) ->
  one_writer (omap base ls) -> no_spurious (omap base ls) -> (forall o u, AAbort o u ∉ ls) -> settled (a_map s) ->
  exists elems, NoDup elems /\ (forall p, p ∈ elems <-> stored (s_mem (a_map s)) p) /\ forall i, strong (a_cnt s) i = cn ident i (a_hand s) + cn ident i elems.
Proof.
  intros ls s ev Hx Hw H1 H2 H3 Hs. destruct (C56_settled_count ident ls s ev Hx Hw Hs) as (elems & Hn & He & Hc). exists elems. split; [done|]. split; [done|].
  intros i. rewrite Hc. destruct (exec_calm _ _ _ (aexec_base ident _ _ _ Hx) H1 H2) as [Ht _]. rewrite (tmp_nil _ Ht), (lost_nil ident _ _ _ Hx H3), app_nil_r, cn_nil. lia.
Qed.
Print Assumptions C56_strong_count.

(** The destructor of the map destroys no element (the defect of C13, as seen in the counts). *)
Theorem C56_drop_leaks `{C : Config} (ident : Pl -> positive) : forall s s' ev, areachable ident s -> astep ident s ADrop = Some (s', ev) -> a_cnt s' = a_cnt s.
Proof.
  intros s s' ev Hs H. cbn [astep] in H. destruct (step (a_map s) LDrop) as [[s1 e1]|] eqn:Est; [|done].
  assert (free_eff (s_mem (a_map s)) (s_mem s1) = []) as E.
  { cbn [step] in Est. destruct (_ && _); [|done]. destruct (drop_rec _ _ _) as [fs|] eqn:Ed; injection Est as <- <-; cbn [s_mem].
    - apply drop_rec_inner in Ed. rewrite Forall_forall in Ed. unfold free_eff, frees. simpl. rewrite app_length, reverse_length.
      replace (length fs + _ - _) with (length (reverse fs)) by (rewrite reverse_length; lia). rewrite take_app.
      assert (forall x, x ∈ reverse fs -> x.2 = KInner) as Hin by (intros x Hx; apply Ed; by apply elem_of_reverse).
      revert Hin. generalize (reverse fs). intros L. induction L as [|[l k] L IH]; intros Hin; [done|]. simpl. rewrite IH by (intros x Hx; apply Hin; by right).
      specialize (Hin (l, k) ltac:(by left)). simpl in Hin. subst k. destruct (m_heap (s_mem (a_map s)) !! l) as [[a [|]]|]; done.
    - unfold free_eff, frees. by rewrite Nat.sub_diag. }
  rewrite E in H. simpl in H. by injection H as <- <-.
Qed.
Print Assumptions C56_drop_leaks.

(** ** The counts restrict nothing
    Every execution of the machine of Model.v is one of this machine: the callers can always provide the handles (they keep one of every element). *)
Section covers.
Context {C : Config} (ident : Pl -> positive).
Implicit Types (s : astate) (m : mem).

Definition keeps (cnt : gmap positive nat) (hand : list Pl) : Prop := forall i, is_Some (cnt !! i) -> exists q, q ∈ hand /\ ident q = i.
Lemma effects_mono x es : x.2 = true -> (effects ident x es).2 = true.
Proof. revert x. induction es as [|e es IH]; intros [cnt b] Hb; [done|]. simpl in Hb. subst b. apply IH. by destruct e. Qed.
Lemma effects_dom cnt es cnt' hand : effects ident (cnt, false) es = (cnt', false) -> keeps cnt hand -> keeps cnt' hand.
Proof.
  revert cnt. induction es as [|e es IH]; intros cnt H Hk; [by injection H as <-|]. unfold effects in H. cbn [foldl] in H. fold (effects ident) in H.
  destruct (effect ident (cnt, false) e) as [c1 b1] eqn:E1. destruct b1.
  { pose proof (effects_mono (c1, true) es eq_refl) as Hm. unfold effects in Hm. rewrite H in Hm. done. }
  apply (IH c1 H).
  assert (forall p n, (strong cnt (ident p) =? 0) = false -> keeps (<[ident p := n]> cnt) hand) as Hi.
  { intros p n Hp i [x Hx]. destruct (decide (ident p = i)) as [<-|Hne]; [|rewrite lookup_insert_ne in Hx by done; apply Hk; eauto].
    apply Hk. unfold strong in Hp. destruct (cnt !! ident p); [eauto|done]. }
  destruct e as [p|p|p]; simpl in E1; injection E1 as <- Eb; [done|by apply Hi|by apply Hi].
Qed.

Lemma provide s p : a_bad s = false -> keeps (a_cnt s) (a_hand s) -> (forall q, q ∈ a_hand s -> 0 < strong (a_cnt s) (ident q)) ->
  exists pre s1 hand, arun ident s pre = Some (s1, []) /\ omap base pre = [] /\ a_map s1 = a_map s /\ give ident (a_cnt s1) (a_hand s1) p (Some 0) = Some (a_cnt s1, hand) /\ keeps (a_cnt s1) hand.
Proof.
  intros Hb Hk Hpos. destruct (a_cnt s !! ident p) as [n|] eqn:Ec.
  - destruct (Hk (ident p)) as (q & Hq & Eq); [eauto|]. pose proof (Hpos q Hq) as Hp. apply elem_of_list_lookup in Hq as [j Hj].
    exists [ADup j]. eexists _, (a_hand s). cbn [arun astep]. rewrite Hj. cbn [effect]. rewrite (proj2 (Nat.eqb_neq _ 0)) by lia. split; [reflexivity|]. split; [done|]. split; [done|].
    cbn [a_cnt a_hand]. split; [unfold give; simpl; by rewrite decide_True|]. intros i [x Hx]. destruct (decide (ident q = i)) as [<-|Hne]; [|rewrite lookup_insert_ne in Hx by done; eauto].
    exists q. split; [by eapply elem_of_list_lookup_2|done].
  - exists [ANew p; ADup 0]. eexists _, (p :: a_hand s). cbn [arun astep]. rewrite Ec. cbn [a_hand lookup list_lookup a_cnt a_bad a_map a_lost effect].
    assert (strong (<[ident p := 1]> (a_cnt s)) (ident p) = 1) as E1 by (unfold strong; by rewrite lookup_insert). rewrite E1. split; [reflexivity|]. split; [done|]. split; [done|].
    cbn [a_cnt a_hand]. split; [unfold give; simpl; by rewrite decide_True|]. intros i [x Hx]. destruct (decide (ident p = i)) as [<-|Hne]; [exists p; split; [by left|done]|].
    rewrite !lookup_insert_ne in Hx by done. destruct (Hk i) as (q & Hq & Eq); [eauto|]. exists q. split; [by right|done].
Qed.

Lemma covers_step s lb (s' : state) ev : areachable ident s -> keeps (a_cnt s) (a_hand s) -> step (a_map s) lb = Some (s', ev) ->
  exists als s1, arun ident s als = Some (s1, ev) /\ omap base als = [lb] /\ a_map s1 = s' /\ keeps (a_cnt s1) (a_hand s1).
Proof.
  intros Hr Hk Hst. pose proof (C56_no_use_after_destruction ident s Hr) as Hb. destruct (C56_alive ident s Hr) as (Hpos & _ & _).
  assert (forall al s1, base al = Some lb -> astep ident s al = Some (s1, ev) -> keeps (a_cnt s1) (a_hand s1) ->
    exists als s1, arun ident s als = Some (s1, ev) /\ omap base als = [lb] /\ a_map s1 = s' /\ keeps (a_cnt s1) (a_hand s1)) as Hone.
  { intros al s1 Hal Has Hk1. exists [al], s1. cbn [arun]. rewrite Has, app_nil_r. split; [done|]. split; [simpl; by rewrite Hal|]. split; [|done].
    apply astep_base in Has. rewrite Hal, Hst in Has. by injection Has as <-. }
  assert (forall al s1, astep ident s al = Some (s1, ev) -> a_bad s1 = false) as Hgood.
  { intros al s1 Has. apply (C56_no_use_after_destruction ident). destruct Hr as (ls & ev0 & Hx). exists (ls ++ [al]), (ev0 ++ ev). unfold aexec in *. rewrite arun_app, Hx.
    cbn [arun]. by rewrite Has, app_nil_r. }
  assert (forall pre s1 al s2, arun ident s pre = Some (s1, []) -> omap base pre = [] -> base al = Some lb -> astep ident s1 al = Some (s2, ev) -> a_map s1 = a_map s -> 
    (a_bad s2 = false -> keeps (a_cnt s2) (a_hand s2)) ->
    exists als s1, arun ident s als = Some (s1, ev) /\ omap base als = [lb] /\ a_map s1 = s' /\ keeps (a_cnt s1) (a_hand s1)) as Htwo.
  { intros pre s1 al s2 Hpre Eb Hal Has Hm Hk2. exists (pre ++ [al]), s2. rewrite arun_app, Hpre. cbn [arun]. rewrite Has. simpl. rewrite app_nil_r. split; [done|].
    split; [rewrite omap_app, Eb; simpl; by rewrite Hal|]. split; [apply astep_base in Has; rewrite Hal, Hm, Hst in Has; by injection Has as <-|].
    apply Hk2. apply (C56_no_use_after_destruction ident). destruct Hr as (ls & ev0 & Hx). exists ((ls ++ pre) ++ [al]), ((ev0 ++ []) ++ ev). unfold aexec in *. rewrite !arun_app, Hx, Hpre.
    cbn [arun]. by rewrite Has, !app_nil_r. }
  destruct lb as [o op|o spur a|o|o|n|].
  - destruct op as [p|k f|k|k| |]; [|eapply (Hone (AInv o _ None)); [done|cbn [astep]; rewrite Hst; reflexivity|done]..].
    destruct (provide s p Hb Hk Hpos) as (pre & s1 & hand & Hpre & Eb & Hm & Hg & Hk1).
    eapply (Htwo pre s1 (AInv o (OInsert p) (Some 0))); [done|done|done|cbn [astep]; rewrite Hm, Hst, Hg; reflexivity|done|done].
  - pose proof Hst as Hst'. cbn [step] in Hst'. destruct (s_ops (a_map s) !! o) as [[op p| | |]|] eqn:Eo; try done. destruct (op_step _ _ _ _ _) as [[[m' nx] acts]|] eqn:Eop; [|done]. clear Hst'.
    destruct (made p acts) as [q|] eqn:Em.
    + destruct (provide s q Hb Hk Hpos) as (pre & s1 & hand & Hpre & Eb & Hm & Hg & Hk1).
      destruct (effects ident (a_cnt s1, a_bad s1) (eff_of (s_mem (a_map s)) p m' nx)) as [cnt' bad'] eqn:Ee.
      assert (a_bad s1 = false) as Hb1.
      { apply (C56_no_use_after_destruction ident). destruct Hr as (ls & ev0 & Hx). exists (ls ++ pre), (ev0 ++ []). unfold aexec in *. by rewrite arun_app, Hx, Hpre. }
      eapply (Htwo pre s1 (AStep o spur a (Some 0))); [done|done|done|cbn [astep]; rewrite Hm, Eo, Eop, Hst, Em, Hg, Ee; reflexivity|done|].
      cbn [a_bad a_cnt a_hand]. intros ->. rewrite Hb1 in Ee. by eapply effects_dom.
    + destruct (effects ident (a_cnt s, a_bad s) (eff_of (s_mem (a_map s)) p m' nx)) as [cnt' bad'] eqn:Ee.
      assert (astep ident s (AStep o spur a None) = Some (AState s' cnt' (a_hand s) (a_lost s) bad', ev)) as Has by (cbn [astep]; rewrite Eo, Eop, Hst, Em, Ee; reflexivity).
      pose proof (Hgood _ _ Has) as Hg. simpl in Hg. subst bad'. eapply Hone; [|exact Has|]; [done|]. rewrite Hb in Ee. by eapply effects_dom.
  - eapply (Hone (AUnpin o)); [done|cbn [astep]; rewrite Hst; reflexivity|done].
  - pose proof Hst as Hst'. cbn [step] in Hst'. destruct (s_ops (a_map s) !! o) as [[op p| | |]|] eqn:Eo; try done. clear Hst'.
    eapply (Hone (AAbort o false)); [done|cbn [astep]; rewrite Eo, Hst; reflexivity|done].
  - destruct (effects ident (a_cnt s, a_bad s) (free_eff (s_mem (a_map s)) (s_mem s'))) as [cnt' bad'] eqn:Ee.
    assert (astep ident s (AFree n) = Some (AState s' cnt' (a_hand s) (a_lost s) bad', ev)) as Has by (cbn [astep]; rewrite Hst, Ee; reflexivity).
    pose proof (Hgood _ _ Has) as Hg. simpl in Hg. subst bad'. eapply Hone; [|exact Has|]; [done|]. rewrite Hb in Ee. by eapply effects_dom.
  - destruct (effects ident (a_cnt s, a_bad s) (free_eff (s_mem (a_map s)) (s_mem s'))) as [cnt' bad'] eqn:Ee.
    assert (astep ident s ADrop = Some (AState s' cnt' (a_hand s) (a_lost s) bad', ev)) as Has by (cbn [astep]; rewrite Hst, Ee; reflexivity).
    pose proof (Hgood _ _ Has) as Hg. simpl in Hg. subst bad'. eapply Hone; [|exact Has|]; [done|]. rewrite Hb in Ee. by eapply effects_dom.
Qed.
End covers.
Theorem C56_covers `{C : Config} (ident : Pl -> positive) : forall ls s ev, exec ls s ev -> exists als s', aexec ident als s' ev /\ omap base als = ls /\ a_map s' = s.
Proof.
  intros ls s ev Hx. enough (exists als s', aexec ident als s' ev /\ omap base als = ls /\ a_map s' = s /\ keeps ident (a_cnt s') (a_hand s')) as (als & s' & H1 & H2 & H3 & _) by eauto.
  revert ls s ev Hx. apply (exec_ind (fun ls s ev => exists als s', aexec ident als s' ev /\ omap base als = ls /\ a_map s' = s /\ keeps ident (a_cnt s') (a_hand s'))).
  - exists [], ainit. split; [done|]. split; [done|]. split; [done|]. intros i [x Hx]. simpl in Hx. by rewrite lookup_empty in Hx.
  - intros ls s ev lb s' e Hx (als & s1 & Ha & Hb & <- & Hk) Hst. destruct (covers_step ident s1 lb s' e) as (al & s2 & H1 & H2 & H3 & H4); [by exists als, ev|done|done|].
    exists (als ++ al), s2. unfold aexec in *. rewrite arun_app, Ha, H1. split; [done|]. by rewrite omap_app, Hb, H2.
Qed.
Print Assumptions C56_covers.

(** ** The hypotheses can be met
    [ident]: the value is the number of the element.  The schedule of [C52_example], with callers: the element (16, 1) is made and cloned before it is given to the map; it is replaced,
    the returned reference is cloned under its guard; so is an element the iteration has handed out, and the one made by get_or_insert; the latter is dropped again. *)
Definition vident (p : @Pl CN) : positive := N.succ_pos (snd p).
Definition deco (lb : @label CN) : alabel :=
  match lb with LInv o op => AInv o op None | LStep o b a => AStep o b a None | LUnpin o => AUnpin o | LAbort o => AAbort o true | LFree n => AFree n | LDrop => ADrop end.
Definition arcs_ls : list (@alabel CN) :=
  let ls := schedule tidy in let n := length ls - 10 in
  [ANew (el 16 1); ADup 0; AInv 1%positive (ins 16 1) (Some 1)] ++ map deco (tail (take n ls)) ++ [ATake 6%positive 0; ATake 4%positive 0; ATake 7%positive 0] ++ map deco (drop n ls) ++ [ARelease 0].
Definition arcs_st : @astate CN := match arun vident ainit arcs_ls with Some (s, _) => s | None => ainit end.
Definition arcs_ev : list (@event CN) := match arun vident ainit arcs_ls with Some (_, ev) => ev | None => [] end.
Lemma aexec_of (ls : list (@alabel CN)) : (match arun vident ainit ls with Some _ => true | None => false end) = true ->
  aexec vident ls (match arun vident ainit ls with Some (s, _) => s | None => ainit end) (match arun vident ainit ls with Some (_, ev) => ev | None => [] end).
Proof. unfold aexec. generalize (arun vident ainit ls). by intros [[? ?]|]. Qed.
Definition noabortb (ls : list (@alabel CN)) : bool := forallb (fun lb => match lb with AAbort _ _ => false | _ => true end) ls.
Lemma noabort_spec ls : noabortb ls = true -> forall o u, AAbort o u ∉ ls.
Proof. intros H o u Hin. unfold noabortb in H. rewrite forallb_forall in H. apply elem_of_list_In in Hin. by specialize (H _ Hin). Qed.

Example C56_example : aexec vident arcs_ls arcs_st arcs_ev /\ wf_calls (omap base arcs_ls) /\ one_writer (omap base arcs_ls) /\ no_spurious (omap base arcs_ls) /\
  (forall o u, AAbort o u ∉ arcs_ls) /\ settled (a_map arcs_st) /\
  a_hand arcs_st = [el 16 9; el 16 1; el 16 1] /\
  strong (a_cnt arcs_st) (vident (el 16 1)) = 2 /\   (* replaced; two handles are with the callers *)
  strong (a_cnt arcs_st) (vident (el 16 9)) = 2 /\   (* in the map; one handle is with the callers *)
  strong (a_cnt arcs_st) (vident (el 32 2)) = 1 /\ strong (a_cnt arcs_st) (vident (el 7 7)) = 1 /\   (* in the map *)
  a_cnt arcs_st !! vident (el 3 3) = Some 0.         (* removed and destroyed *)
Proof.
  assert (aexec vident arcs_ls arcs_st arcs_ev) as H1 by (apply aexec_of; vm_compute; reflexivity).
  assert (wf_calls (omap base arcs_ls)) as H2 by (apply wf_check; vm_compute; reflexivity).
  assert (one_writer (omap base arcs_ls)) as H3 by (apply owb_spec; vm_compute; reflexivity).
  assert (no_spurious (omap base arcs_ls)) as H4 by (apply nospur_spec; vm_compute; reflexivity).
  assert (forall o u, AAbort o u ∉ arcs_ls) as H5 by (apply noabort_spec; vm_compute; reflexivity).
  assert (settled (a_map arcs_st)) as H6 by (apply settledb_spec; vm_compute; reflexivity).
  refine (conj H1 (conj H2 (conj H3 (conj H4 (conj H5 (conj H6 _)))))). vm_compute. repeat split.
Qed.

(** ** The exceptions are real
    After the schedule of [C52_refuted] (one spurious failure): nothing is in the map, nobody has a handle of the element, and it is never destroyed. *)
Definition aleak_ls : list (@alabel CN) := map deco (schedule one_spur).
Definition aleak_st : @astate CN := match arun vident ainit aleak_ls with Some (s, _) => s | None => ainit end.
Definition aleak_ev : list (@event CN) := match arun vident ainit aleak_ls with Some (_, ev) => ev | None => [] end.
Theorem C56_needs_undisturbed : exists ls (s : @astate CN) ev p, aexec vident ls s ev /\ wf_calls (omap base ls) /\ one_writer (omap base ls) /\ (forall o u, AAbort o u ∉ ls) /\
  settled (a_map s) /\ a_hand s = [] /\ (forall q, ~ stored (s_mem (a_map s)) q) /\ strong (a_cnt s) (vident p) = 1.
Proof.
  assert (aexec vident aleak_ls aleak_st aleak_ev) as H1 by (apply aexec_of; vm_compute; reflexivity).
  assert (wf_calls (omap base aleak_ls)) as H2 by (apply wf_check; vm_compute; reflexivity).
  assert (one_writer (omap base aleak_ls)) as H3 by (apply owb_spec; vm_compute; reflexivity).
  assert (forall o u, AAbort o u ∉ aleak_ls) as H5 by (apply noabort_spec; vm_compute; reflexivity).
  assert (leaks (a_map aleak_st) = true) as H6 by (vm_compute; reflexivity). apply leaks_spec in H6 as (H6 & H7 & _).
  exists aleak_ls, aleak_st, aleak_ev, (el 5 7).
  refine (conj H1 (conj H2 (conj H3 (conj H5 (conj H6 (conj _ (conj H7 _))))))); vm_compute; reflexivity.
Qed.
Print Assumptions C56_needs_undisturbed.
(** And a map that is dropped while it contains elements leaks them: everything is gone, the element has a strong count of 1. *)
Definition adrop_ls : list (@alabel CN) := map deco (schedule ([Inv 1%positive (ins 5 7); Finish 1%positive; Lab (LUnpin 1%positive); Lab LDrop])).
Definition adrop_st : @astate CN := match arun vident ainit adrop_ls with Some (s, _) => s | None => ainit end.
Definition adrop_ev : list (@event CN) := match arun vident ainit adrop_ls with Some (_, ev) => ev | None => [] end.
Example C56_drop_example : aexec vident adrop_ls adrop_st adrop_ev /\ s_dropped (a_map adrop_st) = true /\ a_hand adrop_st = [] /\ m_garb (s_mem (a_map adrop_st)) = [] /\
  strong (a_cnt adrop_st) (vident (el 5 7)) = 1.
Proof.
  assert (aexec vident adrop_ls adrop_st adrop_ev) as H1 by (apply aexec_of; vm_compute; reflexivity).
  refine (conj H1 _). vm_compute. repeat split.
Qed.
