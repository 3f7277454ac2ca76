(** * A modifying operation that runs alone. *)
From Verif Require Import Model Mem Inv Safe SafeStep SafeOps SafeSys SafeProps Spec LinProps Shape Sem ProgSpec Prog LiveStep Lock LockStep LockHash LockSys.

(** ** Bounding a sum by the number of different tags *)
Section tags.
Context {A : Type}.
Implicit Types (f : loc -> A -> nat) (h : gmap loc A).
Lemma msum_pos f h : msum f h = 0 \/ exists l x, h !! l = Some x /\ 0 < f l x.
Proof.
  unfold msum. assert (forall l : list (loc * A), sum_list_with (fun x => f x.1 x.2) l = 0 \/ exists y, y ∈ l /\ 0 < f y.1 y.2) as H.
  { induction l as [|y l [IH|(z & Hz & Hf)]]; [by left| |right; exists z; split; [by right|done]].
    destruct (f y.1 y.2) eqn:E; [left; simpl; lia|right; exists y; split; [left|lia]]. }
  destruct (H (map_to_list h)) as [E|([l x] & Hy & Hf)]; [by left|right]. exists l, x. split; [by apply elem_of_map_to_list|done].
Qed.
Lemma msum_one f h K : (forall l x, h !! l = Some x -> f l x <= K) ->
  (forall l l' x x', h !! l = Some x -> h !! l' = Some x' -> 0 < f l x -> 0 < f l' x' -> l = l') -> msum f h <= K.
Proof.
  intros HK Hinj. destruct (msum_pos f h) as [->|(l & x & Hl & Hf)]; [lia|]. rewrite (msum_delete f h l x Hl).
  destruct (msum_pos f (delete l h)) as [->|(l' & x' & [Hne Hl']%lookup_delete_Some & Hf')]; [specialize (HK _ _ Hl); lia|].
  destruct Hne. by eapply Hinj.
Qed.
Lemma msum_tags f h (tag : loc -> nat) K n : (forall l x, h !! l = Some x -> f l x <= K) ->
  (forall l x, h !! l = Some x -> 0 < f l x -> tag l < n) ->
  (forall l l' x x', h !! l = Some x -> h !! l' = Some x' -> 0 < f l x -> 0 < f l' x' -> tag l = tag l' -> l = l') -> msum f h <= n * K.
Proof.
  intros HK Ht Hinj. revert f HK Ht Hinj. induction n as [|n IH]; intros f HK Ht Hinj.
  - destruct (msum_pos f h) as [->|(l & x & Hl & Hf)]; [lia|]. specialize (Ht _ _ Hl Hf). lia.
  - set (f1 := fun l x => if decide (tag l = n) then f l x else 0). set (f2 := fun l x => if decide (tag l = n) then 0 else f l x).
    assert (msum f h = msum (fun l x => f1 l x + f2 l x) h) as ->.
    { apply msum_ind. intros l x _. unfold f1, f2. destruct (decide _); lia. }
    rewrite msum_add. assert (msum f1 h <= K) as H1.
    { apply msum_one.
      - intros l x Hl. unfold f1. destruct (decide _); [by apply HK|lia].
      - intros l l' x x' Hl Hl'. unfold f1. destruct (decide _) as [E|]; [|lia]. destruct (decide _) as [E'|]; [|lia]. intros. eapply (Hinj l l'); try done. congruence. }
    assert (msum f2 h <= n * K) as H2; [|lia]. apply IH.
    + intros l x Hl. unfold f2. destruct (decide _); [lia|by apply HK].
    + intros l x Hl. unfold f2. destruct (decide _); [lia|]. intros Hf. specialize (Ht _ _ Hl Hf). lia.
    + intros l l' x x' Hl Hl'. unfold f2. destruct (decide _) as [E|]; [lia|]. destruct (decide _) as [E'|]; [lia|]. by apply Hinj.
Qed.
End tags.

Section locksolo.
Context {C : Config}.
Implicit Types (m : mem) (pos : loc -> list nat) (c : cell) (v w : sh) (o : opid) (gs : gset opid) (p : pc) (s : state) (ls : list label) (ev : list event) (tgt : list nat).

Lemma c_values : cM 0 = 1 /\ cS 0 = 416 /\ cD 0 = 832 /\ cU 0 = 1232.
Proof. done. Qed.
Local Opaque cM cS cD cU.

Definition onto tgt (q : list nat) : bool := bool_decide (q `prefix_of` tgt).
Lemma onto_closed tgt : pclosed (onto tgt).
Proof. intros q i H. apply bool_decide_eq_true in H. apply bool_decide_eq_true. etrans; [|exact H]. by eexists. Qed.

Lemma prefix_len_eq (q r t : list nat) : q `prefix_of` t -> r `prefix_of` t -> length q = length r -> q = r.
Proof. intros [a ->] [b E] Hl. by destruct (app_inj_1 q r a b Hl E). Qed.

(** The potential of the nodes on one path does not depend on the size of the map. *)
Lemma G_bound pos m tgt : minv pos m -> G 0 (onto tgt) pos m <= cS 0 * 16 + 16 * (cD 0 + cM 0 * 16 + cS 0 * (16 * 15)).
Proof.
  intros Hm. unfold G. apply Nat.add_le_mono.
  - unfold cellw. apply Nat.mul_le_mono_l. unfold dw. cbn [cpos length]. destruct (sh_data (m_root m)); lia.
  - apply (msum_tags _ _ (fun l => length (pos l))).
    + intros l [al b] Hl. unfold nodew. cbn [ho_body]. destruct b as [sl|]; [|lia]. destruct (decide _); [lia|]. destruct (onto _ _); [|lia].
      assert (hbody m l = Some (BInner sl)) as Hb by (apply hbody_heap; eauto). destruct (mi_slots _ _ Hm _ _ Hb) as [Hlen _]. unfold LEVEL_CELLS in Hlen.
      unfold slotw. apply Nat.add_le_mono; [apply Nat.add_le_mono|].
      * unfold doom. destruct (existsb _ _); lia.
      * apply Nat.mul_le_mono_l. rewrite <-Hlen. apply sum_le_len. intros x. unfold uc. destruct (sh_cond x); lia.
      * apply Nat.mul_le_mono_l. apply Nat.mul_le_mono; [|lia]. rewrite <-Hlen. apply sum_le_len. intros x. unfold dw. destruct (sh_data x); lia.
    + intros l [al b] Hl. unfold nodew. cbn [ho_body]. destruct b as [sl|]; [|lia]. intros _.
      assert (hbody m l = Some (BInner sl)) as Hb by (apply hbody_heap; eauto). by destruct (mi_slots _ _ Hm _ _ Hb).
    + intros l l' [al b] [al' b'] Hl Hl'. unfold nodew. cbn [ho_body]. destruct b as [sl|]; [|lia]. destruct b' as [sl'|]; [|lia].
      destruct (decide (dead m l)) as [|Hd]; [lia|]. destruct (decide (dead m l')) as [|Hd']; [lia|].
      destruct (onto tgt (pos l)) eqn:E1; [|lia]. destruct (onto tgt (pos l')) eqn:E2; [|lia]. intros _ _ Htag.
      apply bool_decide_eq_true in E1, E2. pose proof (prefix_len_eq _ _ _ E1 E2 Htag) as Epos.
      assert (hbody m l = Some (BInner sl)) as Hb by (apply hbody_heap; eauto). assert (hbody m l' = Some (BInner sl')) as Hb' by (apply hbody_heap; eauto).
      destruct (inner_parent _ _ _ _ Hm Hb Hd) as (c & v & Hc & Hcl & Hv & _ & Ec). destruct (inner_parent _ _ _ _ Hm Hb' Hd') as (c' & v' & Hc' & Hcl' & Hv' & _ & Ec').
      assert (c = c') as <- by (eapply live_cpos_inj; [exact Hm|exact Hc|exact Hc'|done|done|congruence]). congruence.
Qed.

Lemma phi_bound pos m o p : minv pos m -> pc_ok pos m o p -> phi 0 m p <= 200 + cD 0 + 18 * cU 0.
Proof.
  intros Hm Hpc. unfold phi.
  assert (lam 0 m p <= 200 + cD 0) as H1.
  { destruct p; simpl.
    - pose proof (stale_le m par). lia.
    - pose proof (stale_le m par). destruct (fresh _ _ _); lia.
    - pose proof (undoomed_le 0 m child). destruct (fresh _ _ _); lia.
    - destruct (fresh _ _ _); lia.
    - lia.
    - pose proof (stale_le m (head levels)). simpl in *. lia.
    - pose proof (stale_le m (head levels)). destruct (fresh _ _ _); simpl in *; lia.
    - lia.
    - lia.
    - lia.
    - lia. }
  assert (forall lv c, is_Some (cval m c) -> lev_ok pos m o lv c -> length lv <= 16) as Hlv.
  { intros lv c [v Hv] Hl. rewrite (lev_len _ _ _ _ _ Hl). by eapply cpos_len. }
  assert (ucr 0 p <= 18 * cU 0) as H2; [|lia].
  destruct p as [t shift cur par|t shift cur par node new kind|k parent child i ac cnt last new|k parent child ins pr
    |k h cur|k h shift cur levels|k h shift cur levels node new del|del levels parent child i cnt| | |levels out]; cbn [ucr]; try lia.
  - destruct k as [|?|del lv]; [lia|lia|]. destruct Hpc as ((Hc & _) & [_ Hl] & _). apply Nat.mul_le_mono_r. pose proof (Hlv _ _ (proj1 Hc) Hl). lia.
  - destruct k as [|?|del lv]; [lia|lia|]. destruct Hpc as ((Hc & _) & [_ Hl] & _). apply Nat.mul_le_mono_r. pose proof (Hlv _ _ (proj1 Hc) Hl). lia.
  - destruct Hpc as ((Hc & _) & [_ Hl] & _). apply Nat.mul_le_mono_r. pose proof (Hlv _ _ (proj1 Hc) Hl). lia.
Qed.

(** What holds of the operation while it runs alone. *)
Definition tracks pos tgt p : Prop := onto tgt (cpos pos (pcell p)) = true /\ forall h, phash p = Some h -> tgt = npath h.

Lemma solo_step pos s o op p tgt spur a s' e : linv pos s -> reachable s -> s_ops s !! o = Some (SRun op p) -> upd p = true -> tracks pos tgt p ->
  step s (LStep o spur a) = Some (s', e) ->
  (exists r, s_ops s' !! o = Some (SRet op r) /\ ERet o r ∈ e) \/
  exists pos' p', linv pos' s' /\ s_ops s' !! o = Some (SRun op p') /\ upd p' = true /\ tracks pos' tgt p' /\
    G 0 (onto tgt) pos' (s_mem s') + phi 0 (s_mem s') p' + 1 <= G 0 (onto tgt) pos (s_mem s) + phi 0 (s_mem s) p + 201 * (if spur then 1 else 0).
Proof.
  intros Hli Hr Ho Hu [Hon Hph] Hst. assert (s_dropped s = false) as Hd.
  { destruct Hr as (ls & ev & Hx). eapply running_not_dropped; [by eapply exec_sinv|exact Ho]. }
  pose proof (step_reach _ _ _ _ Hr Hst) as Hr'.
  destruct (linv_step _ _ _ _ _ Hli Hr Hd Hst ltac:(done)) as (pos' & Hli' & Hd' & Hle). pose proof Hli as [Hl Hh]. pose proof (li_mem _ _ Hl) as Hm.
  inversion Hle as [o1 sp1 a1 op1 p1 m' nx acts Ho1 Hop Hmt Hpc Hnx Hog Es'| |? ? ? [?|?]|]; [subst|done|done]. rewrite Ho1 in Ho. injection Ho as -> ->.
  destruct nx as [p'|r|f]; [|left; exists r; split; [apply lookup_insert|set_solver]|done]. right. exists pos', p'. split; [done|].
  split; [apply lookup_insert|]. pose proof (reach_upd _ _ _ _ Hr Ho1) as E1. pose proof (reach_upd _ o op p' Hr' ltac:(apply lookup_insert)) as E2.
  assert (upd p' = true) as Hu' by congruence. split; [done|].
  pose proof (op_step_moves _ _ _ _ _ _ _ _ _ _ Hm Hog (li_esafe _ _ Hl) Hpc Hu (Hh _ _ _ Ho1 Hu) Hop) as ([v Hv] & M2 & M3 & M4).
  pose proof (ext_cpos _ _ _ _ _ _ (mtr_ext _ _ _ _ _ Hm Hmt) Hv) as Ecp.
  split.
  { split; [|intros h Hx; by apply Hph, M3]. rewrite Ecp. destruct (phash p') as [h|] eqn:Ep.
    - apply bool_decide_eq_true. rewrite (Hph h (M3 _ eq_refl)). by apply M2.
    - apply bool_decide_eq_true in Hon. apply bool_decide_eq_true. etrans; [by apply M4|done]. }
  destruct (op_step_pay 0 (onto tgt) (onto_closed tgt) _ _ _ _ _ _ _ _ _ _ Hm Hog (li_esafe _ _ Hl) Hpc Hu Hon Hop) as (pos2 & Hmt2 & Hpay).
  assert (pos2 = pos') as -> by (by eapply mtr_det). simpl.
  destruct Hpay as [(-> & Hco & Hp)|[Hp|(-> & -> & Hco & Hp)]].
  - rewrite (coreq_G _ _ _ _ _ Hco). lia.
  - lia.
  - rewrite (coreq_G _ _ _ _ _ Hco). lia.
Qed.

Lemma solo_run o op tgt ls : forall pos s p s' ev, linv pos s -> reachable s -> s_ops s !! o = Some (SRun op p) -> upd p = true -> tracks pos tgt p ->
  alone o ls -> run s ls = Some (s', ev) ->
  length ls <= G 0 (onto tgt) pos (s_mem s) + phi 0 (s_mem s) p + 1 + 201 * spurious_steps ls /\ (in_progress s' o op \/ exists r, ERet o r ∈ ev).
Proof.
  induction ls as [|lb ls IH]; intros pos s p s' ev Hli Hr Ho Hu Htr Hal Hrun.
  { injection Hrun as <- <-. split; [simpl; lia|]. left. by exists p. }
  cbn [run] in Hrun. destruct (step s lb) as [[s1 e1]|] eqn:Es; [|done]. destruct (run s1 ls) as [[s2 e2]|] eqn:Er; [|done]. injection Hrun as <- <-.
  destruct (Hal lb ltac:(left)) as (spur & a & ->). assert (alone o ls) as Hal1 by (intros x Hx; apply Hal; by right).
  destruct (solo_step _ _ _ _ _ _ _ _ _ _ Hli Hr Ho Hu Htr Es) as [(r & Ho1 & Hret)|(pos1 & p1 & Hli1 & Ho1 & Hu1 & Htr1 & HP)].
  - destruct ls as [|lb2 ls].
    + split; [simpl; lia|]. right. exists r. apply elem_of_app. by left.
    + exfalso. destruct (Hal1 lb2 ltac:(left)) as (sp2 & a2 & ->). cbn [run step] in Er. by rewrite Ho1 in Er.
  - destruct (IH _ _ _ _ _ Hli1 (step_reach _ _ _ _ Hr Es) Ho1 Hu1 Htr1 Hal1 Er) as [H1 H2]. split.
    + unfold spurious_steps in *. cbn [List.filter spurious length]. destruct spur; cbn [length]; lia.
    + destruct H2 as [H2|[r H2]]; [by left|right; exists r; apply elem_of_app; by right].
Qed.

Lemma solo_init pos s o op p : linv pos s -> s_ops s !! o = Some (SRun op p) -> upd p = true -> exists tgt, tracks pos tgt p.
Proof.
  intros [Hl Hh] Ho Hu. destruct (phash p) as [h|] eqn:E.
  - exists (npath h). split; [apply bool_decide_eq_true; by apply (Hh _ _ _ Ho Hu)|]. intros h'. congruence.
  - exists (cpos pos (pcell p)). split; [by apply bool_decide_eq_true|]. congruence.
Qed.

Theorem solo_bound s o op ls s' ev : reachable s -> in_progress s o op -> is_reader op = false -> alone o ls -> run s ls = Some (s', ev) ->
  (N.of_nat (length ls) <= 2 ^ 21 + 201 * N.of_nat (spurious_steps ls))%N /\ (in_progress s' o op \/ exists r, ERet o r ∈ ev).
Proof.
  intros Hr [p Ho] Hop Hal Hrun. assert (s_dropped s = false) as Hd.
  { destruct Hr as (ls0 & ev0 & Hx). eapply running_not_dropped; [by eapply exec_sinv|exact Ho]. }
  destruct (reach_linv _ Hr Hd) as [pos Hli]. assert (upd p = true) as Hu by (rewrite (reach_upd _ _ _ _ Hr Ho); by rewrite Hop).
  destruct (solo_init _ _ _ _ _ Hli Ho Hu) as [tgt Htr]. destruct (solo_run o op tgt ls pos s p s' ev Hli Hr Ho Hu Htr Hal Hrun) as [H1 H2]. split; [|done].
  pose proof Hli as [Hl _]. pose proof (li_mem _ _ Hl) as Hm. pose proof (G_bound pos (s_mem s) tgt Hm) as HG. pose proof (phi_bound pos (s_mem s) o p Hm (li_ops _ _ Hl _ _ Ho)) as Hphi.
  destruct c_values as (E1 & E2 & E3 & E4).
  rewrite E1, E2, E3 in HG. rewrite E3, E4 in Hphi. change (2 ^ 21)%N with 2097152%N. lia.
Qed.

Theorem solo_finishes s o op : reachable s -> in_progress s o op -> is_reader op = false ->
  exists ls s' ev r, alone o ls /\ spurious_steps ls = 0 /\ run s ls = Some (s', ev) /\ ERet o r ∈ ev.
Proof.
  intros Hr [p Ho] Hop. assert (s_dropped s = false) as Hd.
  { destruct Hr as (ls0 & ev0 & Hx). eapply running_not_dropped; [by eapply exec_sinv|exact Ho]. }
  destruct (reach_linv _ Hr Hd) as [pos Hli]. assert (upd p = true) as Hu by (rewrite (reach_upd _ _ _ _ Hr Ho); by rewrite Hop).
  destruct (solo_init _ _ _ _ _ Hli Ho Hu) as [tgt Htr].
  assert (forall k, exists ls s' ev, alone o ls /\ spurious_steps ls = 0 /\ run s ls = Some (s', ev) /\ ((exists r, ERet o r ∈ ev) \/ length ls = k)) as Hk.
  { induction k as [|k (ls & s1 & ev & Hal & Hsp & Hrun & Hc)].
    - exists [], s, []. split; [intros lb Hlb; by apply elem_of_nil in Hlb|]. split; [done|]. split; [done|]. by right.
    - destruct Hc as [Hc|Hc]; [exists ls, s1, ev; eauto|].
      destruct (solo_run o op tgt ls pos s p s1 ev Hli Hr Ho Hu Htr Hal Hrun) as [_ [[q Hq]|Hret]]; [|exists ls, s1, ev; eauto].
      destruct (running_steps s1 o op q false Hq) as [a Ha]. destruct (step s1 (LStep o false a)) as [[s2 e2]|] eqn:Es; [|done].
      exists (ls ++ [LStep o false a]), s2, (ev ++ e2). split; [|split; [|split]].
      + intros lb [Hlb|Hlb%elem_of_list_singleton]%elem_of_app; [by apply Hal|subst; eauto].
      + unfold spurious_steps in *. rewrite List.filter_app, app_length, Hsp. done.
      + by eapply run_step.
      + right. rewrite app_length. simpl. lia. }
  destruct (Hk (G 0 (onto tgt) pos (s_mem s) + phi 0 (s_mem s) p + 2)) as (ls & s' & ev & Hal & Hsp & Hrun & [[r Hret]|Hlen]); [by exists ls, s', ev, r|].
  destruct (solo_run o op tgt ls pos s p s' ev Hli Hr Ho Hu Htr Hal Hrun) as [H1 _]. rewrite Hsp in H1. lia.
Qed.
End locksolo.
