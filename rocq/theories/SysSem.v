(** * The semantic invariant of the whole system, and the relation between the model's memory and the contents of the map. *)
From Verif Require Import Model Mem Inv Safe SafeStep SafeOps SafeSys SafeProps Look LinSpec Sem SemOps Spec.

Section syssem.
Context {C : Config} {HC : ConfigOk C}.
Implicit Types (m : mem) (pos : loc -> list nat) (c : cell) (v w : sh) (o : opid) (gs : gset opid) (k : Key) (op : oper) (s : state).

(** ** Keys that are equal have the same value *)
Lemma look_cong n m v k k' : keqb k k' = true -> look n m v k = look n m v k'.
Proof.
  intros E. revert v. induction n as [|n IH]; intros v; cbn [look]; destruct (sh_loc v) as [t|]; try done; destruct (hbody m t) as [[sl|it]|]; try done.
  - destruct (sh_data v); [|done]. by apply find_pl_cong.
  - destruct (sh_data v); [done|]. rewrite (nib_cong k k' _ E). destruct (sl !! _); [apply IH|done].
  - destruct (sh_data v); [|done]. by apply find_pl_cong.
Qed.
Lemma absm_cong m k k' : keqb k k' = true -> absm m k = absm m k'.
Proof. apply look_cong. Qed.

(** ** The invariant *)
Record full pos s : Prop := Full {
  fu_live : live_inv pos s;
  fu_sem : sem pos (s_mem s);
  fu_ops : forall o op p, s_ops s !! o = Some (SRun op p) -> op_wf op /\ pc_sem pos (s_mem s) op p;
}.

Definition lb_wf (lb : label) : Prop := match lb with LInv _ op => op_wf op | _ => True end.

Lemma full_init pos : full pos init.
Proof.
  split.
  - split; simpl.
    + apply minv0.
    + intros o c v B Ho. exfalso. apply elem_of_guards in Ho as (st & Hs & _). simpl in Hs. by rewrite lookup_empty in Hs.
    + intros l k g H. by apply elem_of_nil in H.
    + intros o st H. by rewrite lookup_empty in H.
    + intros l k H. by apply elem_of_nil in H.
  - apply sem0.
  - intros o op p H. simpl in H. by rewrite lookup_empty in H.
Qed.

(** What a step does: an access by an operation, or something that touches neither nodes nor root. *)
Inductive effect pos s pos' s' : label -> list event -> Prop :=
| eff_step o spur a op p m' nx acts :
    s_ops s !! o = Some (SRun op p) -> op_step (guards s) (s_mem s) p spur a = Some (m', nx, acts) ->
    mtr (guards s) pos (s_mem s) pos' m' -> step_eff pos (s_mem s) pos' m' op p nx -> pc_ok pos (s_mem s) o p -> pc_sem pos (s_mem s) op p -> op_wf op ->
    s' = State m' (<[o := match nx with NRun p' => SRun op p' | NRet r => SRet op r | NFail f => SFail op f end]> (s_ops s)) (s_dropped s) (s_ub s) ->
    effect pos s pos' s' (LStep o spur a) (map (act_event o) acts ++ match nx with NRet r => [ERet o r] | _ => [] end)
| eff_inv o op : s_ops s !! o = None -> pos' = pos -> s' = set_op s o (SRun op (op_init op)) ->
    effect pos s pos' s' (LInv o op) [EInv o op]
| eff_gone o lb : (exists op r, s_ops s !! o = Some (SRet op r)) \/ (exists op p, s_ops s !! o = Some (SRun op p)) -> lb = LUnpin o \/ lb = LAbort o -> pos' = pos -> s' = set_op s o SGone ->
    effect pos s pos' s' lb []
| eff_free n : pos' = pos -> s_ops s' = s_ops s -> m_heap (s_mem s') = m_heap (s_mem s) -> m_root (s_mem s') = m_root (s_mem s) -> s_dropped s' = s_dropped s ->
    effect pos s pos' s' (LFree n) [].

Lemma full_step pos s lb s' e : full pos s -> s_dropped s = false -> sinv s -> lb_wf lb -> step s lb = Some (s', e) -> lb <> LDrop ->
  exists pos', full pos' s' /\ s_dropped s' = false /\ effect pos s pos' s' lb e.
Proof.
  intros [Hl Hse Hops] Hd Hsi Hwf Hst Hnd. pose proof (sinv_step _ _ _ _ Hsi Hst) as [_ Hl'].
  pose proof (li_mem _ _ Hl) as Hm.
  destruct lb as [o op|o spur a|o|o|n|]; cbn [step] in Hst; [..|done].
  - destruct (s_ops s !! o) as [?|] eqn:Eo; [done|]. rewrite Hd in Hst. injection Hst as <- <-. exists pos.
    split; [|split; [done|by constructor]].
    assert (exists pos, live_inv pos (set_op s o (SRun op (op_init op)))) as Hl''.
    { cbn [s_dropped set_op] in Hl'. by rewrite Hd in Hl'. }
    split; [|exact Hse|].
    + (* the positions can stay *)
      destruct Hl as [_ He Hg Hok Hfk]. destruct Hl'' as [pos2 [_ He2 Hg2 Hok2 Hfk2]]. split; try done.
      intros o' st. simpl. destruct (decide (o = o')) as [<-|]; [rewrite lookup_insert|rewrite lookup_insert_ne by done; apply Hok].
      intros [= <-]. destruct op; simpl; try done; repeat split_and; try done; apply cok_root.
    + intros o' op' p. simpl. destruct (decide (o = o')) as [<-|]; [rewrite lookup_insert|rewrite lookup_insert_ne by done; apply Hops].
      intros [= <- <-]. split; [exact Hwf|apply pc_sem_init].
  - destruct (s_ops s !! o) as [[op p|?|?|]|] eqn:Eo; try done.
    assert (o ∈ guards s) as Hog by (apply elem_of_guards; eauto).
    destruct (op_step (guards s) (s_mem s) p spur a) as [[[m' nx] acts]|] eqn:Estep; [|done]. injection Hst as <- <-.
    destruct (Hops _ _ _ Eo) as [Hw Hps]. pose proof (li_ops _ _ Hl _ _ Eo) as Hpc. simpl in Hpc.
    destruct (op_step_sem _ _ _ _ _ _ _ _ _ _ _ Hm Hog (li_esafe _ _ Hl) Hpc Hse Hw Hps Estep) as (pos' & Hmt & Hse' & Hnx & Heff).
    destruct (op_step_ok _ _ _ _ _ _ _ _ _ _ Hm Hog (li_esafe _ _ Hl) Hpc Estep) as (pos2 & Hmt2 & Hnx2).
    assert (pos2 = pos') as -> by (by eapply mtr_det).
    pose proof (mtr_ext _ _ _ _ _ Hm Hmt) as Hext.
    exists pos'. split; [|split; [done|]].
    2:{ eapply eff_step; try done. }
    split; [|exact Hse'|].
    + destruct Hl as [_ He Hg Hok Hfk]. set (st := match nx with NRun p' => SRun op p' | NRet r => SRet op r | NFail f => SFail op f end).
      assert (active st = true) as Ha by (unfold st; by destruct nx).
      cbn [s_dropped] in Hl'. rewrite Hd in Hl'. destruct Hl' as [pos3 [_ He2 Hg2 Hok2 Hfk2]]. split; simpl.
      * by eapply mtr_minv.
      * exact He2.
      * exact Hg2.
      * intros o' st'. destruct (decide (o = o')) as [<-|Hne].
        -- rewrite lookup_insert. intros [= <-]. unfold st. by destruct nx.
        -- rewrite lookup_insert_ne by done. intros Ho'. pose proof (Hok _ _ Ho') as Hok'.
           destruct (active st') eqn:Ea; [|by destruct st'].
           eapply (st_st pos (s_mem s)); [done| |done|done]. intros l. eapply mtr_prot; [done|done|]. apply elem_of_guards. eauto.
      * exact Hfk2.
    + intros o' op' p'. simpl. destruct (decide (o = o')) as [<-|Hne].
      * rewrite lookup_insert. destruct nx; try done. intros [= <- <-]. done.
      * rewrite lookup_insert_ne by done. intros Ho'. destruct (Hops _ _ _ Ho') as [Hw' Hs']. split; [done|].
        pose proof (li_ops _ _ Hl _ _ Ho') as Hpc'. by eapply pc_sem_st.
  - destruct (s_ops s !! o) as [[|op r|?|]|] eqn:Eo; try done. injection Hst as <- <-. exists pos. split; [|split; [done|eapply eff_gone; eauto]].
    cbn [s_dropped set_op] in Hl'. rewrite Hd in Hl'. destruct Hl as [_ He Hg Hok Hfk]. destruct Hl' as [pos2 [_ He2 Hg2 Hok2 Hfk2]].
    split; [split; try done|exact Hse|].
    + intros o' st. simpl. destruct (decide (o = o')) as [<-|]; [rewrite lookup_insert|rewrite lookup_insert_ne by done; apply Hok]. by intros [= <-].
    + intros o' op' p. simpl. destruct (decide (o = o')) as [<-|]; [by rewrite lookup_insert|rewrite lookup_insert_ne by done; apply Hops].
  - destruct (s_ops s !! o) as [[op p| |?|]|] eqn:Eo; try done. injection Hst as <- <-. exists pos. split; [|split; [done|eapply eff_gone; eauto]].
    cbn [s_dropped set_op] in Hl'. rewrite Hd in Hl'. destruct Hl as [_ He Hg Hok Hfk]. destruct Hl' as [pos2 [_ He2 Hg2 Hok2 Hfk2]].
    split; [split; try done|exact Hse|].
    + intros o' st. simpl. destruct (decide (o = o')) as [<-|]; [rewrite lookup_insert|rewrite lookup_insert_ne by done; apply Hok]. by intros [= <-].
    + intros o' op' p'. simpl. destruct (decide (o = o')) as [<-|]; [by rewrite lookup_insert|rewrite lookup_insert_ne by done; apply Hops].
  - destruct (m_garb (s_mem s) !! n) as [[[l k] g]|] eqn:En; [|done]. case_bool_decide as Hgi; [|done].
    injection Hst as <- <-. exists pos. split; [|split; [done|by constructor]].
    cbn [s_dropped] in Hl'. rewrite Hd in Hl'. destruct Hl' as [pos2 [_ He2 Hg2 Hok2 Hfk2]].
    assert (NoDup (garb_locs (s_mem s) ++ (m_freed (s_mem s)).*1)) as Hnd2 by (by apply (mi_nodup _ _ Hm)).
    destruct (esafe_free (guards s) (s_mem s) n l k g (li_esafe _ _ Hl) En Hgi Hnd2) as [Hp _].
    split; [split; try done| |].
    + simpl. by eapply minv_free.
    + intros o st Ho. simpl in Ho. pose proof (li_ops _ _ Hl _ _ Ho) as Hok. destruct (active st) eqn:Ea; [|by destruct st].
      eapply (st_st pos (s_mem s)); [apply (ext_refl pos (s_mem s))| |done|done].
      intros x. apply Hp. apply elem_of_guards. eauto.
    + simpl. eapply sem_heap; [| |exact Hse]; done.
    + intros o op p Ho. simpl in Ho. destruct (Hops _ _ _ Ho) as [Hw Hps]. split; [done|].
      pose proof (li_ops _ _ Hl _ _ Ho) as Hpc. simpl. eapply (pc_sem_st pos (s_mem s)); [apply (ext_refl pos (s_mem s))|exact Hpc|done].
Qed.

(** ** Looking up = being stored *)
Lemma look_linked m n v k p : look n m v k = Some p -> forall i t, sh_loc v = Some t -> linked_at m i t -> stored m p /\ keqb (keyof p) k = true.
Proof.
  revert v. induction n as [|n IH]; intros v Hlk i t Ht Hln; cbn [look] in Hlk; rewrite Ht in Hlk.
  - destruct (hbody m t) as [[sl|it]|] eqn:Hb; [by destruct (sh_data v)| |done]. destruct (sh_data v); [|done].
    apply find_pl_Some in Hlk as [Hin Hk]. split; [|done]. apply hbody_heap in Hb as [a Ha]. exists t, a, it. split; [by exists i|done].
  - destruct (hbody m t) as [[sl|it]|] eqn:Hb; [| |done].
    + destruct (sh_data v); [done|]. destruct (sl !! nib k (16 - S n)) as [u|] eqn:Hu; [|done].
      destruct (sh_loc u) as [t'|] eqn:Ht'; [|by rewrite look_null in Hlk]. apply (IH u Hlk (S i) t' Ht').
      apply hbody_heap in Hb as [a Ha]. eapply linked_slot; [exact Hln|exact Ha| |exact Ht']. by eapply elem_of_list_lookup_2.
    + destruct (sh_data v); [|done].
      apply find_pl_Some in Hlk as [Hin Hk]. split; [|done]. apply hbody_heap in Hb as [a Ha]. exists t, a, it. split; [by exists i|done].
Qed.

Lemma stored_abs pos m p : minv pos m -> sem pos m -> stored m p -> absm m (keyof p) = Some p.
Proof.
  intros Hm Hse (l & a & it & [n Hl] & Ha & Hin). assert (hbody m l = Some (BData it)) as Hb by (unfold hbody; by rewrite Ha).
  destruct (linked_live _ _ _ _ Hm Hl) as (c & v & Hc & Hlv & Hv & _).
  assert (sh_data v = true) as Hd.
  { pose proof (mi_ptr _ _ Hm _ _ Hc) as Hp. unfold ptr_ok in Hp. rewrite Hv in Hp. destruct (sh_data v); [done|]. destruct Hp as (? & ? & _). congruence. }
  pose proof (se_path _ _ Hse _ _ _ _ _ Hc Hd Hv Hb Hin) as Hon.
  rewrite <-(lookc_abs pos m c) by eauto. rewrite (lookc_data pos m c v _ l it) by done.
  apply elem_of_list_lookup in Hin as [i Hi]. eapply nodupk_find; [by eapply se_nodup|done|apply keqb_refl].
Qed.

Lemma has_abs pos s k r : full pos s -> has s k r <-> absm (s_mem s) k = r.
Proof.
  intros [Hl Hse _]. pose proof (li_mem _ _ Hl) as Hm.
  assert (forall p, maps s k p -> absm (s_mem s) k = Some p) as H1.
  { intros p [Hst Hk]. rewrite <-(absm_cong _ _ _ Hk). by eapply stored_abs. }
  assert (forall p, absm (s_mem s) k = Some p -> maps s k p) as H2.
  { intros p Hp. unfold absm in Hp. destruct (sh_loc (m_root (s_mem s))) as [t|] eqn:Ht; [|by rewrite look_null in Hp].
    eapply look_linked; [exact Hp|exact Ht|]. by constructor. }
  destruct r as [p|]; simpl.
  - split; auto.
  - split.
    + intros Ha. destruct (absm (s_mem s) k) as [p|] eqn:E; [|done]. exfalso. by apply (Ha p), H2.
    + intros E p Hp. apply H1 in Hp. congruence.
Qed.
End syssem.
