(** * One step of the system, with the positions of nodes made explicit. *)
From Verif Require Import Model Mem Inv Safe SafeStep SafeOps SafeSys SafeProps Spec.

Section livestep.
Context {C : Config}.
Implicit Types (m : mem) (pos : loc -> list nat) (o : opid) (gs : gset opid) (op : oper) (s : state) (ls : list label) (ev : list event).

Inductive leffect pos s pos' s' : label -> list event -> Prop :=
| le_step o spur a op p m' nx acts :
    s_ops s !! o = Some (SRun op p) -> op_step (guards s) (s_mem s) p spur a = Some (m', nx, acts) ->
    mtr (guards s) pos (s_mem s) pos' m' -> pc_ok pos (s_mem s) o p -> nx_ok pos' m' o nx -> o ∈ guards s ->
    s' = State m' (<[o := match nx with NRun p' => SRun op p' | NRet r => SRet op r | NFail f => SFail op f end]> (s_ops s)) (s_dropped s) (s_ub s) ->
    leffect pos s pos' s' (LStep o spur a) (map (act_event o) acts ++ match nx with NRet r => [ERet o r] | _ => [] end)
| le_inv o op : s_ops s !! o = None -> pos' = pos -> s' = set_op s o (SRun op (op_init op)) ->
    leffect pos s pos' s' (LInv o op) [EInv o op]
| le_gone o lb : (exists op r, s_ops s !! o = Some (SRet op r)) \/ (exists op p, s_ops s !! o = Some (SRun op p)) -> lb = LUnpin o \/ lb = LAbort o -> pos' = pos -> s' = set_op s o SGone ->
    leffect pos s pos' s' lb []
| le_free n l k g : pos' = pos -> m_garb (s_mem s) !! n = Some (l, k, g) -> s_ops s' = s_ops s -> s_mem s' = mem_free (s_mem s) n l k ->
    leffect pos s pos' s' (LFree n) [].

Lemma live_init pos : live_inv pos init.
Proof.
  split; simpl.
  - apply minv0.
  - intros o c v B Ho. exfalso. apply elem_of_guards in Ho as (st & Hs & _). simpl in Hs. by rewrite lookup_empty in Hs.
  - intros l k g H. by apply elem_of_nil in H.
  - intros o st H. by rewrite lookup_empty in H.
  - intros l k H. by apply elem_of_nil in H.
Qed.

Lemma live_step pos s lb s' e : live_inv pos s -> s_dropped s = false -> sinv s -> step s lb = Some (s', e) -> lb <> LDrop ->
  exists pos', live_inv pos' s' /\ s_dropped s' = false /\ leffect pos s pos' s' lb e.
Proof.
  intros Hl Hd Hsi Hst Hnd. pose proof (sinv_step _ _ _ _ Hsi Hst) as [_ Hl'].
  pose proof (li_mem _ _ Hl) as Hm.
  destruct lb as [o op|o spur a|o|o|n|]; cbn [step] in Hst; [..|done].
  - destruct (s_ops s !! o) as [?|] eqn:Eo; [done|]. rewrite Hd in Hst. injection Hst as <- <-. exists pos.
    split; [|split; [done|by constructor]].
    cbn [s_dropped set_op] in Hl'. rewrite Hd in Hl'. destruct Hl as [_ He Hg Hok Hfk]. destruct Hl' as [pos2 [_ He2 Hg2 Hok2 Hfk2]]. split; try done.
    intros o' st. simpl. destruct (decide (o = o')) as [<-|]; [rewrite lookup_insert|rewrite lookup_insert_ne by done; apply Hok].
    intros [= <-]. destruct op; simpl; try done; repeat split_and; try done; apply cok_root.
  - destruct (s_ops s !! o) as [[op p|?|?|]|] eqn:Eo; try done.
    assert (o ∈ guards s) as Hog by (apply elem_of_guards; eauto).
    destruct (op_step (guards s) (s_mem s) p spur a) as [[[m' nx] acts]|] eqn:Estep; [|done]. injection Hst as <- <-.
    pose proof (li_ops _ _ Hl _ _ Eo) as Hpc. simpl in Hpc.
    destruct (op_step_ok _ _ _ _ _ _ _ _ _ _ Hm Hog (li_esafe _ _ Hl) Hpc Estep) as (pos' & Hmt & Hnx).
    pose proof (mtr_ext _ _ _ _ _ Hm Hmt) as Hext.
    exists pos'. split; [|split; [done|]].
    2:{ eapply le_step; try done. }
    destruct Hl as [_ He Hg Hok Hfk]. set (st := match nx with NRun p' => SRun op p' | NRet r => SRet op r | NFail f => SFail op f end).
    assert (active st = true) as Ha by (unfold st; by destruct nx).
    cbn [s_dropped] in Hl'. rewrite Hd in Hl'. destruct Hl' as [pos3 [_ He2 Hg2 Hok2 Hfk2]]. split; simpl.
    + by eapply mtr_minv.
    + exact He2.
    + exact Hg2.
    + intros o' st'. destruct (decide (o = o')) as [<-|Hne].
      * rewrite lookup_insert. intros [= <-]. unfold st. by destruct nx.
      * rewrite lookup_insert_ne by done. intros Ho'. pose proof (Hok _ _ Ho') as Hok'.
        destruct (active st') eqn:Ea; [|by destruct st'].
        eapply (st_st pos (s_mem s)); [done| |done|done]. intros l. eapply mtr_prot; [done|done|]. apply elem_of_guards. eauto.
    + exact Hfk2.
  - destruct (s_ops s !! o) as [[|op r|?|]|] eqn:Eo; try done. injection Hst as <- <-. exists pos. split; [|split; [done|eapply le_gone; eauto]].
    cbn [s_dropped set_op] in Hl'. rewrite Hd in Hl'. destruct Hl as [_ He Hg Hok Hfk]. destruct Hl' as [pos2 [_ He2 Hg2 Hok2 Hfk2]].
    split; try done.
    intros o' st. simpl. destruct (decide (o = o')) as [<-|]; [rewrite lookup_insert|rewrite lookup_insert_ne by done; apply Hok]. by intros [= <-].
  - destruct (s_ops s !! o) as [[op p| |?|]|] eqn:Eo; try done. injection Hst as <- <-. exists pos. split; [|split; [done|eapply le_gone; eauto]].
    cbn [s_dropped set_op] in Hl'. rewrite Hd in Hl'. destruct Hl as [_ He Hg Hok Hfk]. destruct Hl' as [pos2 [_ He2 Hg2 Hok2 Hfk2]].
    split; try done.
    intros o' st. simpl. destruct (decide (o = o')) as [<-|]; [rewrite lookup_insert|rewrite lookup_insert_ne by done; apply Hok]. by intros [= <-].
  - destruct (m_garb (s_mem s) !! n) as [[[l k] g]|] eqn:En; [|done]. case_bool_decide as Hgi; [|done].
    injection Hst as <- <-. exists pos. split; [|split; [done|by econstructor]].
    cbn [s_dropped] in Hl'. rewrite Hd in Hl'. destruct Hl' as [pos2 [_ He2 Hg2 Hok2 Hfk2]].
    assert (NoDup (garb_locs (s_mem s) ++ (m_freed (s_mem s)).*1)) as Hnd2 by (by apply (mi_nodup _ _ Hm)).
    destruct (esafe_free (guards s) (s_mem s) n l k g (li_esafe _ _ Hl) En Hgi Hnd2) as [Hp _].
    split; try done.
    + simpl. by eapply minv_free.
    + intros o st Ho. simpl in Ho. pose proof (li_ops _ _ Hl _ _ Ho) as Hok. destruct (active st) eqn:Ea; [|by destruct st].
      eapply (st_st pos (s_mem s)); [apply (ext_refl pos (s_mem s))| |done|done].
      intros x. apply Hp. apply elem_of_guards. eauto.
Qed.

(** Induction over executions with positions: [I] is an invariant as long as the map has not been dropped, [J] afterwards. *)
Lemma live_ind (I : (loc -> list nat) -> list label -> state -> list event -> Prop) (J : list label -> state -> list event -> Prop) :
  I (fun _ => []) [] init [] ->
  (forall pos pos' ls s ev lb s' e, exec ls s ev -> live_inv pos s -> live_inv pos' s' -> I pos ls s ev -> step s lb = Some (s', e) ->
     leffect pos s pos' s' lb e -> I pos' (ls ++ [lb]) s' (ev ++ e)) ->
  (forall pos ls s ev s' e, exec ls s ev -> live_inv pos s -> guards s = ∅ -> I pos ls s ev -> step s LDrop = Some (s', e) -> s_ops s' = s_ops s -> J (ls ++ [LDrop]) s' (ev ++ e)) ->
  (forall ls s ev n s' e, exec ls s ev -> J ls s ev -> step s (LFree n) = Some (s', e) -> s_ops s' = s_ops s -> J (ls ++ [LFree n]) s' (ev ++ e)) ->
  forall ls s ev, exec ls s ev -> if s_dropped s then J ls s ev else exists pos, live_inv pos s /\ I pos ls s ev.
Proof.
  intros H0 HI HJ HF. apply exec_ind; [exists (fun _ => []); split; [apply live_init|done]|].
  intros ls s ev lb s' e Hx IH Hst. pose proof (exec_sinv _ _ _ Hx) as Hsi. destruct (s_dropped s) eqn:Ed.
  - assert (guards s = ∅) as Hg. { destruct Hsi as [_ Hsi]. rewrite Ed in Hsi. apply Hsi. }
    assert (forall o st, s_ops s !! o = Some st -> active st = true -> False) as Hno.
    { intros o st H1 H2. assert (o ∈ guards s) as Hin by (apply elem_of_guards; eauto). rewrite Hg in Hin. by apply elem_of_empty in Hin. }
    destruct lb as [o op|o spur a|o|o|n|]; cbn [step] in Hst.
    + rewrite Ed in Hst. by destruct (s_ops s !! o).
    + destruct (s_ops s !! o) as [[]|] eqn:Eo; try done. exfalso. by eapply Hno.
    + destruct (s_ops s !! o) as [[]|] eqn:Eo; try done. exfalso. by eapply Hno.
    + destruct (s_ops s !! o) as [[]|] eqn:Eo; try done. exfalso. by eapply Hno.
    + assert (s_ops s' = s_ops s /\ s_dropped s' = true) as [E1 E2].
      { destruct (m_garb (s_mem s) !! n) as [[[l k] g]|]; [|done]. case_bool_decide; [|done]. by injection Hst as <- <-. }
      rewrite E2. eapply HF; try done.
    + rewrite Ed, andb_false_r in Hst. done.
  - destruct IH as (pos & Hl & Hi). assert (lb = LDrop \/ lb <> LDrop) as [->|Hne]; [destruct lb; (by left) || (by right)| |].
    + assert (guards s = ∅ /\ s_ops s' = s_ops s /\ s_dropped s' = true) as (E0 & E1 & E2).
      { cbn [step] in Hst. case_bool_decide; [|done]. rewrite Ed in Hst. cbn [negb andb] in Hst. destruct (drop_rec _ _ _); by injection Hst as <- <-. }
      rewrite E2. eapply HJ; try done.
    + destruct (live_step _ _ _ _ _ Hl Ed Hsi Hst Hne) as (pos' & Hl' & -> & Hle). exists pos'. split; [done|]. by eapply HI.
Qed.
End livestep.
