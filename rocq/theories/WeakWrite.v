(** * The contents of the map on weakly ordered memory, 2: steps that write; what a step of the machine does. *)
From Verif Require Import Model Mem Spec Weak WeakInv WeakStep WeakSys WeakRun Inv Safe SafeStep SafeOps Look LinSpec Sem SemOps WeakFun.

Section write.
Context {C : Config} {HC : ConfigOk C}.
Implicit Types (m : mem) (pos : loc -> list nat) (c : cell) (v : sh) (o : opid) (k : Key) (op : oper) (s : wstate).

Definition stays (p p' : pc) : Prop := pat p' = None \/ pat p' = Some CRoot \/ pat p' = pat p.

(** The call writes a leaf. *)
Definition lwrite (p : pc) : Prop := match p with TCas _ _ _ _ _ (BData _) _ => True | RCas _ _ _ _ _ _ _ _ => True | _ => False end.

Lemma rem_up_struct m d levels m' nx acts : rem_up m d levels = Some (m', nx, acts) ->
  match nx with NRun p' => dn p' = Some d /\ pat p' = None | NRet r => r = ROpt (Some d) | NFail _ => True end.
Proof. unfold rem_up. destruct levels as [|[? ?] ?]; [by intros [= <- <- <-]|]. destruct (is_null _); by intros [= <- <- <-]. Qed.

Lemma write_struct w m p c kd ord spur a m' nx acts : access w p = Some (c, kd, ord) -> kd = AFetch \/ kd = ACas /\ cas_wins m p spur = true ->
  op_step ∅ m p spur a = Some (m', nx, acts) ->
  match nx with
  | NFail _ => True
  | NRun p' => dn p' = dn p /\ stays p p' \/ dn p = None /\ pat p = Some c /\ lwrite p /\ is_Some (dn p')
  | NRet r => (exists d, dn p = Some d) \/ dn p = None /\ pat p = Some c /\ lwrite p /\ forall k h sh cu lv nd nw d, p = RCas k h sh cu lv nd nw d -> r = ROpt (Some d)
  end.
Proof.
  intros Hacc Hk Hst. destruct p as [t shift cur par|t shift cur par node new kind|kk parent child i ac cnt last new|kk parent child ins pr
    |k h cur|k h shift cur levels|k h shift cur levels node new d|d levels parent child i cnt| | |levels out]; cbn [access] in Hacc.
  - injection Hacc as <- <- <-. destruct Hk as [|[? _]]; done.
  - injection Hacc as <- <- <-. destruct Hk as [|[_ Hwin]]; [done|]. unfold cas_wins in Hwin. cbn [cas_of] in Hwin. cbn [op_step] in Hst.
    destruct (read_cell m cur) as [now|]; [|done]. destruct (addr_free m a); [|done]. cbn [negb] in Hst. rewrite Hwin in Hst.
    assert (forall m1 r acts0, (exists it, new = BData it) -> t_finish m1 t r acts0 = Some (m', nx, acts) -> match nx with
      | NFail _ => True
      | NRun p' => dn p' = dn (TCas t shift cur par node new kind) /\ stays (TCas t shift cur par node new kind) p' \/ dn (TCas t shift cur par node new kind) = None /\ pat (TCas t shift cur par node new kind) = Some cur /\ lwrite (TCas t shift cur par node new kind) /\ is_Some (dn p')
      | NRet r => (exists d, dn (TCas t shift cur par node new kind) = Some d) \/ dn (TCas t shift cur par node new kind) = None /\ pat (TCas t shift cur par node new kind) = Some cur /\ lwrite (TCas t shift cur par node new kind) /\
          forall k h sh cu lv nd nw d, TCas t shift cur par node new kind = RCas k h sh cu lv nd nw d -> r = ROpt (Some d)
      end) as Hfin.
    { intros m1 r acts0 [it ->] Hf. unfold t_finish in Hf. destruct (t_mode t); [|destruct r]; injection Hf as <- <- <-; try done; right; done. }
    destruct kind as [| |result].
    + destruct new as [|[|p0 it]]; try (by injection Hst as <- <- <-). eapply Hfin; [eauto|exact Hst].
    + injection Hst as <- <- <-. left. split; [done|]. right. by right.
    + destruct (sh_loc node); [|by injection Hst as <- <- <-]. destruct (negb (sh_data node)); [by injection Hst as <- <- <-|]. destruct new as [|it]; [by injection Hst as <- <- <-|].
      destruct result as [r|]; [|destruct (t_mode t)].
      * destruct (t_mode t); (eapply Hfin; [eauto|exact Hst]).
      * eapply Hfin; [eauto|exact Hst].
      * destruct (it !! _); [eapply Hfin; [eauto|exact Hst]|by injection Hst as <- <- <-].
  - destruct (sh_loc child) as [l|] eqn:El; [|done]. simpl in Hacc. injection Hacc as <- <- <-. cbn [op_step] in Hst. rewrite El in Hst.
    destruct (read_cell m (CSlot l i)); [|by injection Hst as <- <- <-]. destruct (if is_null _ then _ else _) as [f|[[ac' cnt'] last']]; [by injection Hst as <- <- <-|].
    destruct (S i <? LEVEL_CELLS); [injection Hst as <- <- <-; left; by split; [|left]|]. unfold prune_decide in Hst. destruct (_ || _); injection Hst as <- <- <-; [done|]. left. by split; [|left].
  - injection Hacc as <- <- <-. destruct Hk as [|[_ Hwin]]; [done|]. unfold cas_wins in Hwin. cbn [cas_of] in Hwin. cbn [op_step] in Hst.
    destruct (read_cell m parent) as [now|]; [|done]. rewrite andb_true_r in Hwin. rewrite Hwin in Hst.
    assert (forall m1, prune_return m1 kk pr = Some (m', nx, acts) -> match nx with
      | NFail _ => True
      | NRun p' => dn p' = dn (PCas kk parent child ins pr) /\ stays (PCas kk parent child ins pr) p' \/ dn (PCas kk parent child ins pr) = None /\ pat (PCas kk parent child ins pr) = Some parent /\ lwrite (PCas kk parent child ins pr) /\ is_Some (dn p')
      | NRet r => (exists d, dn (PCas kk parent child ins pr) = Some d) \/ dn (PCas kk parent child ins pr) = None /\ pat (PCas kk parent child ins pr) = Some parent /\ lwrite (PCas kk parent child ins pr) /\
          forall k h sh cu lv nd nw d, PCas kk parent child ins pr = RCas k h sh cu lv nd nw d -> r = ROpt (Some d)
      end) as Hret.
    { intros m1 Hr. destruct kk as [t|k h|d levels]; cbn [prune_return] in Hr.
      - injection Hr as <- <- <-. left. split; [done|]. right. by left.
      - injection Hr as <- <- <-. left. split; [done|]. right. by left.
      - assert (rem_up m1 d levels = Some (m', nx, acts) \/ ok m1 (NRet (ROpt (Some d))) = Some (m', nx, acts)) as [H'|H'] by (destruct pr; auto).
        + apply rem_up_struct in H'. destruct nx; [|left; by exists d|done]. left. destruct H' as [H1 H2]. split; [done|by left].
        + injection H' as <- <- <-. left. by exists d. }
    destruct ins; [|destruct (addr_free m a); [|done]]; (destruct (sh_loc child); [|by injection Hst as <- <- <-]); (eapply Hret; exact Hst).
  - injection Hacc as <- <- <-. destruct Hk as [|[? _]]; done.
  - injection Hacc as <- <- <-. destruct Hk as [|[? _]]; done.
  - injection Hacc as <- <- <-. destruct Hk as [|[_ Hwin]]; [done|]. unfold cas_wins in Hwin. cbn [cas_of] in Hwin. cbn [op_step] in Hst.
    destruct (read_cell m cur) as [now|]; [|done]. rewrite Hwin in Hst.
    assert (exists m1, rem_up m1 d levels = Some (m', nx, acts) \/ exists f, nx = NFail f) as [m1 [Hr|[f ->]]]; [|..|done].
    { destruct new; [|destruct (addr_free m a); [|done]]; (destruct (negb (sh_data node)); [injection Hst as <- <- <-; eauto|]); (destruct (sh_loc node); [|injection Hst as <- <- <-; eauto]); eauto. }
    apply rem_up_struct in Hr. destruct nx; [| |done].
    + right. destruct Hr as [-> _]. split; [done|]. split; [done|]. split; [done|]. by eexists.
    + right. split; [done|]. split; [done|]. split; [done|]. intros ???????? E. injection E as _ _ _ _ _ _ _ <-. done.
  - exfalso. destruct (sh_loc child); simpl in Hacc; [|done]. injection Hacc as _ <- _. by destruct Hk as [|[? _]].
  - injection Hacc as <- <- <-. destruct Hk as [|[? _]]; done.
  - injection Hacc as <- <- <-. destruct Hk as [|[? _]]; done.
  - exfalso. destruct levels as [|[u idx] rest]; [done|]. destruct (_ || _); [done|]. destruct (sh_loc u); simpl in Hacc; [|done]. injection Hacc as _ <- _. by destruct Hk as [|[? _]].
Unshelve. all: exact m.
Qed.

(** What a write does to the contents, and the value written if it changes them. *)
Definition write_eff m m' op (p : pc) c (nx : next) : Prop :=
  match nx with
  | NFail _ => False
  | NRun p' =>
      dn p' = dn p /\ stays p p' /\ same (absm m) (absm m') \/
      dn p = None /\ pat p = Some c /\ (exists d, dn p' = Some d /\ spec_step (absm m) op (AOpt (Some (rr_val d))) (absm m')) /\ exists u, cval m' c = Some u /\ leafyv u /\ sh_cond u = false
  | NRet r =>
      (exists d, dn p = Some d /\ r = ROpt (Some d)) /\ same (absm m) (absm m') \/
      dn p = None /\ pat p = Some c /\ (exists x, val_of r = Some x /\ spec_step (absm m) op x (absm m')) /\ exists u, cval m' c = Some u /\ leafyv u /\ sh_cond u = false
  end.

Lemma absm_tag gs m k : absm (tagm gs m) k = absm m k.
Proof. by apply abs_heap. Qed.

Lemma spec_step_eqv a a' op r b b' : (forall k, a' k = a k) -> (forall k, b' k = b k) -> spec_step a op r b -> spec_step a' op r b'.
Proof.
  intros Ea Eb. unfold spec_step, put, del, same. destruct op, r as [x|[x|x]|x]; try done; repeat setoid_rewrite Ea; repeat setoid_rewrite Eb; done.
Qed.

Lemma write_ok w pos m o op p c kd ord spur a m' nx acts :
  minv pos m -> m_freed m = [] -> pc_ok pos (vw o m) o p -> sem pos m -> op_wf op -> pc_sem pos m op p ->
  access w p = Some (c, kd, ord) -> kd = AFetch \/ kd = ACas /\ cas_wins m p spur = true -> is_Some (cval m c) ->
  op_step ∅ m p spur a = Some (m', nx, acts) ->
  exists pos', mtr {[o]} pos (vw o m) pos' (vw o m') /\ sem pos' m' /\ nx_ok pos' (vw o m') o nx /\ nx_sem pos' m' op nx /\ write_eff m m' op p c nx.
Proof.
  intros Hm Hf Hpc Hse Hw Hps Hacc Hk Hc Hst.
  pose proof (op_step_tag {[o]} m p spur a) as Htag. rewrite Hst in Htag. simpl in Htag.
  pose proof (tag_minv_1 {[o]} pos m Hm) as Hm1. pose proof (vw_esafe o pos m Hm Hf) as He. assert (o ∈ ({[o]} : gset opid)) as Ho by set_solver.
  assert (sem pos (vw o m)) as Hse1 by (by eapply (sem_heap pos m)).
  destruct (op_step_ok _ _ _ _ _ _ _ _ _ _ Hm1 Ho He Hpc Htag) as (pos1 & Hmt1 & Hnx).
  destruct (op_step_sem _ _ _ _ op _ _ _ _ _ _ Hm1 Ho He Hpc Hse1 Hw Hps Htag) as (pos2 & Hmt2 & Hse2 & Hns & Heff).
  pose proof (mtr_det _ _ _ _ _ _ Hm1 Hmt1 Hmt2) as <-. exists pos1. split; [done|]. split; [by eapply (sem_heap pos1 (vw o m'))|]. split; [done|]. split; [exact Hns|].
  assert (forall A B : mem, same (absm (vw o A)) (absm (vw o B)) -> same (absm A) (absm B)) as Hsm.
  { intros A B H k. specialize (H k). by rewrite !absm_tag in H. }
  assert (forall x, spec_step (absm (vw o m)) op x (absm (vw o m')) -> spec_step (absm m) op x (absm m')) as Hsp.
  { intros x. by apply spec_step_eqv; intros k; rewrite absm_tag. }
  assert (lwrite p -> pat p = Some c -> exists u, cval m' c = Some u /\ leafyv u /\ sh_cond u = false) as Hleaf.
  { intros Hlw Hpt. assert (kd = ACas) as ->. { destruct p; try done; simpl in Hacc; by injection Hacc as _ <- _. } destruct Hk as [|[_ Hwin]]; [done|].
    pose proof (cas_mem _ _ _ _ _ _ _ _ _ _ Hacc Hwin Hst) as Hsmm. destruct Hc as [u0 Hu0]. destruct (new_body p) as [b|] eqn:Eb.
    - eexists. split; [rewrite (sm_cval _ _ c Hsmm); eapply cval_write_eq|].
      + destruct c as [|l i]; [done|]. cbn [cval]. rewrite hbody_alloc. rewrite decide_False; [exact Hu0|]. intros ->. simpl in Hu0. by rewrite (next_fresh _ _ Hm) in Hu0.
      + split; [|done]. right. destruct p; try done; simpl in Eb, Hlw |- *; [injection Eb as <-; by destruct new|]. destruct new; [done|]. by injection Eb as <-.
    - eexists. split; [rewrite (sm_cval _ _ c Hsmm); by eapply cval_write_eq|]. split; [left|]; by destruct p. }
  pose proof (write_struct _ _ _ _ _ _ _ _ _ _ _ Hacc Hk Hst) as Hstr. unfold step_eff in Heff. unfold write_eff. destruct nx as [p'|r|f]; [| |done].
  - destruct Hstr as [[Hd Hsty]|(Hd & Hpt & Hlw & [d Hd'])].
    + left. rewrite Hd in Heff. split; [done|]. split; [done|]. apply Hsm. destruct (dn p); [by destruct Heff|by destruct Heff].
    + right. split; [done|]. split; [done|]. rewrite Hd, Hd' in Heff. split; [|by apply Hleaf]. exists d. split; [done|]. by apply Hsp.
  - destruct Hstr as [[d Hd]|(Hd & Hpt & Hlw & Hrc)].
    + left. rewrite Hd in Heff. destruct Heff as [-> Hs]. split; [by exists d|]. by apply Hsm.
    + right. split; [done|]. split; [done|]. split; [|by apply Hleaf]. rewrite Hd in Heff.
      assert (exists x, val_of r = Some x /\ (spec_step (absm (vw o m)) op x (absm (vw o m')) \/
          vw o m' = vw o m /\ exists k c0, hind p = Some (k, c0) /\ (op = OGet k \/ op = ORemove k /\ lookc pos (vw o m) c0 k = None) /\ x = AOpt (lookc pos (vw o m) c0 k))) as (x & Hx & Hor).
      { destruct op; try done. exfalso. destruct p; try done; simpl in Hps; [by destruct Hps as (? & ? & _)|by destruct Hps as (? & _)]. }
      exists x. split; [done|]. apply Hsp. destruct Hor as [|(_ & k0 & c0 & Hh & Hop & Hxx)]; [done|]. exfalso.
      destruct p; try done. rewrite (Hrc _ _ _ _ _ _ _ _ eq_refl) in Hx. simpl in Hx. injection Hx as <-. simpl in Hps. destruct Hps as (-> & _). destruct Hop as [|[_ Hn]]; [done|]. by rewrite Hn in Hxx.
Qed.

(** ** What a step of the machine does *)
Inductive wst w s o n spur a s' (op : oper) (p : pc) (nx : next) (acts : list act) : Prop :=
| wst_none M' : access w p = None -> op_step ∅ (w_mem s) p spur a = Some (M', nx, acts) -> w_mem s' = w_mem s -> w_hist s' = w_hist s -> wst w s o n spur a s' op p nx acts
| wst_read c kd ord v W M' : access w p = Some (c, kd, ord) -> kd <> AFetch -> w_hist s c !! n = Some (v, W) ->
    (kd = ACas -> cas_wins (write_cell (w_mem s) c v) p spur = false) -> op_step ∅ (write_cell (w_mem s) c v) p spur a = Some (M', nx, acts) ->
    w_mem s' = w_mem s -> w_hist s' = w_hist s -> wst w s o n spur a s' op p nx acts
| wst_write c kd ord v W W' : access w p = Some (c, kd, ord) -> (kd = AFetch \/ kd = ACas /\ cas_wins (w_mem s) p spur = true) ->
    w_hist s c !! n = Some (v, W) -> S n = length (w_hist s c) ->
    op_step ∅ (w_mem s) p spur a = Some (w_mem s', nx, acts) ->
    w_hist s' = hist_write (hist_alloc (w_mem s) (w_mem s') (w_hist s)) c (default sh_null (read_cell (w_mem s') c), W') -> wst w s o n spur a s' op p nx acts.

Lemma see_real tv pv m p spur a m' nx acts : see_step tv pv m p spur a = Some (m', nx, acts) -> nx <> NFail FUB -> op_step ∅ m p spur a = Some (m', nx, acts).
Proof.
  unfold see_step. intros H Hn. destruct (op_step ∅ (hide tv pv m) p spur a) as [[[m1 nx1] acts1]|]; [|done]. destruct nx1 as [|?|[]]; try done. injection H as _ <- _. done.
Qed.

Lemma wstep_st w s o n spur a s' ev : strong w -> winv s -> wstep w s (WStep o n spur a) = Some (s', ev) ->
  exists op p tv pv nx tv' pv' acts, w_ops s !! o = Some (WOp (SRun op p) tv pv) /\ w_ops s' = <[o := WOp (nx_stat op nx) tv' pv']> (w_ops s) /\ ev = nx_events o nx acts /\
    wst w s o n spur a s' op p nx acts.
Proof.
  intros Hw Hs H. pose proof (wstep_inv _ _ _ _ _ Hw Hs H) as Hs'.
  assert (forall op nx tv' pv', w_ops s' = <[o := WOp (nx_stat op nx) tv' pv']> (w_ops s) -> nx <> NFail FUB) as Hnf.
  { intros op nx tv' pv' E ->. destruct (wi_ops _ Hs' o (WOp (SFail op FUB) tv' pv')) as [_ Hx]; [rewrite E; simpl; apply lookup_insert|]. by simpl in Hx. }
  cbn [wstep] in H. destruct (w_ops s !! o) as [[st tv pv]|] eqn:Ho; [|done]. destruct st as [op p| | |]; try done. destruct (wi_ops _ Hs _ _ Ho) as [Hv Hp]. simpl in Hv, Hp.
  destruct (access w p) as [[[c k] ord]|] eqn:Hacc.
  - pose proof (access_cell _ _ _ _ _ _ _ _ Hp Hacc) as Hc. destruct (base_known _ _ _ _ _ Hv Hc) as [Hb _]. rewrite Hb in H. cbn [negb] in H.
    destruct (cell_cval _ _ _ _ Hs Hc) as [v0 Hcv]. destruct (hist_cons _ _ _ Hs Hcv) as (y & r & Hr). rewrite Hr in H. rewrite <- Hr in H.
    destruct (w_hist s c !! n) as [[v W]|] eqn:Hn; [|done].
    assert (forall tv1 pv1, w_local s o op tv1 pv1 (write_cell (w_mem s) c v) p spur a = Some (s', ev) -> k <> AFetch -> (k = ACas -> cas_wins (write_cell (w_mem s) c v) p spur = false) ->
      exists op0 p0 tv0 pv0 nx tv' pv' acts, Some (WOp (SRun op p) tv pv) = Some (WOp (SRun op0 p0) tv0 pv0) /\ w_ops s' = <[o := WOp (nx_stat op0 nx) tv' pv']> (w_ops s) /\ ev = nx_events o nx acts /\
        wst w s o n spur a s' op0 p0 nx acts) as Hloc.
    { intros tv1 pv1 HH Hk1 Hk2. unfold w_local in HH. destruct (see_step _ _ _ _ _ _) as [[[m' nx] acts]|] eqn:Esee; [|done]. injection HH as <- <-.
      exists op, p, tv, pv, nx, tv1, pv1, acts. split; [done|]. split; [done|]. split; [done|].
      eapply wst_read; [exact Hacc|done|exact Hn|done| |done|done]. eapply see_real; [exact Esee|]. by eapply Hnf. }
    assert (forall tv1 pv1, w_write s o op tv1 pv1 c ord p spur a = Some (s', ev) -> (k = AFetch \/ k = ACas /\ cas_wins (w_mem s) p spur = true) -> S n = length (w_hist s c) ->
      exists op0 p0 tv0 pv0 nx tv' pv' acts, Some (WOp (SRun op p) tv pv) = Some (WOp (SRun op0 p0) tv0 pv0) /\ w_ops s' = <[o := WOp (nx_stat op0 nx) tv' pv']> (w_ops s) /\ ev = nx_events o nx acts /\
        wst w s o n spur a s' op0 p0 nx acts) as Hwr.
    { intros tv1 pv1 HH Hk1 Hk2. unfold w_write in HH. destruct (see_step _ _ _ _ _ _) as [[[m' nx] acts]|] eqn:Esee; [|done]. injection HH as <- <-.
      eexists op, p, tv, pv, nx, tv1, _, acts. split; [done|]. split; [done|]. split; [done|].
      eapply wst_write; [exact Hacc|done|exact Hn|done| |reflexivity]. eapply see_real; [exact Esee|]. by eapply Hnf. }
    destruct k.
    + eapply Hloc; [exact H|done|done].
    + eapply Hloc; [exact H|done|done].
    + destruct (bool_decide (S n = length (w_hist s c))) eqn:En; [|done]. apply bool_decide_eq_true in En. eapply Hwr; [exact H|by left|done].
    + destruct (_ && _) eqn:En.
      * apply andb_true_iff in En as [En Hwin]. apply bool_decide_eq_true in En. eapply Hwr; [exact H|by right|done].
      * destruct (cas_wins (write_cell (w_mem s) c v) p spur) eqn:Hlose; [done|]. eapply Hloc; [exact H|done|done].
  - unfold w_local in H. destruct (see_step _ _ _ _ _ _) as [[[m' nx] acts]|] eqn:Esee; [|done]. injection H as <- <-.
    exists op, p, tv, pv, nx, tv, pv, acts. split; [done|]. split; [done|]. split; [done|].
    eapply wst_none; [done| |done|done]. eapply see_real; [exact Esee|]. by eapply Hnf.
Qed.
End write.
