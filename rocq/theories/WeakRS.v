(** * Release sequences: does fetch_or (mod.rs:445) have to release?
    The machine of Weak.v, but a read-modify-write that does not release carries on the release sequence of the value it replaces (C11 5.1.2.4.11): its value has
    the view that the value it has read had.  (In C11 a releasing one does that too; leaving it out means fewer guarantees.)
    First the machine, then the invariant of WeakSys.v for it. *)
From Verif Require Import Model Mem Spec Weak WeakInv WeakStep WeakSys WeakRun.

Section machine.
Context {C : Config} (w : orders).

(** [w_write] of Weak.v; [W0] is the view of the value that is replaced. *)
Definition rs_write (s : wstate) (o : opid) (op : oper) (tv : view) (pv : gmap loc view) (c : cell) (ord : ordering) (W0 : view) (p : pc) (spur : bool) (a : N) :
    option (wstate * list event) :=
  match see_step tv pv (w_mem s) p spur a with
  | Some (m', nx, acts) =>
      let pv' := pv_alloc (w_mem s) m' pv in
      let v := default sh_null (read_cell m' c) in
      let W := if releases ord then tv ∪ dep pv' (sh_loc v) else W0 in
      Some (WState m' (hist_write (hist_alloc (w_mem s) m' (w_hist s)) c (v, W)) (<[o := WOp (nx_stat op nx) tv pv']> (w_ops s)), nx_events o nx acts)
  | None => None
  end.

(** [wstep] of Weak.v with [rs_write] for [w_write]. *)
Definition rs_step (s : wstate) (lb : wlabel) : option (wstate * list event) :=
  match lb with
  | WInv o op =>
      match w_ops s !! o with None => Some (WState (w_mem s) (w_hist s) (<[o := WOp (SRun op (op_init op)) ∅ ∅]> (w_ops s)), [EInv o op]) | Some _ => None end
  | WStep o n spur a =>
      match w_ops s !! o with
      | Some (WOp (SRun op p) tv pv) =>
          match access w p with
          | None => w_local s o op tv pv (w_mem s) p spur a
          | Some (c, k, ord) =>
              let fault := Some (WState (w_mem s) (w_hist s) (<[o := WOp (SFail op FUB) tv pv]> (w_ops s)), []) in
              if negb (base_seen tv pv c) then fault else
              match w_hist s c with
              | [] => fault
              | h =>
                  match h !! n with
                  | None => None
                  | Some (v, W) =>
                      let seen := write_cell (w_mem s) c v in
                      let newest := bool_decide (S n = length h) in
                      match k with
                      | ALoad => w_local s o op (tv_read ord tv W) (pv_read ord pv c v W) seen p spur a
                      | ATest => w_local s o op tv pv seen p spur a
                      | AFetch => if newest then rs_write s o op (tv_read ord tv W) (pv_read ord pv c v W) c ord W p spur a else None
                      | ACas => if newest && cas_wins (w_mem s) p spur then rs_write s o op (tv_read ord tv W) pv c ord W p spur a
                                else if cas_wins seen p spur then None else w_local s o op tv pv seen p spur a
                      end
                  end
              end
          end
      | _ => None
      end
  end.

Fixpoint rs_run (s : wstate) (ls : list wlabel) : option (wstate * list event) :=
  match ls with
  | [] => Some (s, [])
  | lb :: ls =>
    match rs_step s lb with
    | Some (s', ev) => match rs_run s' ls with Some (s'', ev') => Some (s'', ev ++ ev') | None => None end
    | None => None
    end
  end.
Definition rs_reachable (s : wstate) : Prop := exists ls ev, rs_run winit ls = Some (s, ev).
End machine.

(** Orderings that suffice here: as [strong] (WeakSys.v), but fetch_or only has to acquire. *)
Record strong_rs (w : orders) : Prop := {
  sr_trav : loads (o_trav w); sr_get : loads (o_get w); sr_rem : loads (o_rem w); sr_iroot : loads (o_iroot w); sr_iter : loads (o_iter w);
  sr_mark : acquires (o_mark w) = true;
  sr_tcas : releases (o_tcas w) = true; sr_rcas : releases (o_rcas w) = true; sr_pcas : releases (o_pcas w) = true }.

Section proof.
Context {C : Config}.
Implicit Types (m : mem) (s : wstate) (l : loc) (v : sh) (tv W D : view) (pv : gmap loc view) (h : cell -> list msg).

(** The same orderings, with a fetch_or that releases. *)
Definition marked (w : orders) : orders := Orders (o_trav w) (o_tcas w) AcqRel (o_pcas w) (o_get w) (o_rem w) (o_rcas w) (o_count w) (o_empty w) (o_iroot w) (o_iter w).
Lemma marked_strong w : strong_rs w -> strong (marked w).
Proof. intros H. split; simpl; try apply H. done. Qed.
Lemma marked_access w p c k ord : access w p = Some (c, k, ord) -> k <> AFetch -> access (marked w) p = Some (c, k, ord).
Proof. intros H Hk. destruct p; cbn [access marked o_trav o_tcas o_mark o_pcas o_get o_rem o_rcas o_count o_empty o_iroot o_iter] in *; try done. destruct (sh_loc child); [|done]. simpl in H. congruence. Qed.
Lemma marked_none w p : access w p = None -> access (marked w) p = None.
Proof. intros H. destruct p; cbn [access marked o_trav o_tcas o_mark o_pcas o_get o_rem o_rcas o_count o_empty o_iroot o_iter] in *; try done. by destruct (sh_loc child). Qed.
Lemma marked_fetch w p c ord : access w p = Some (c, AFetch, ord) -> ord = o_mark w /\ access (marked w) p = Some (c, AFetch, AcqRel).
Proof.
  intros H. destruct p; cbn [access marked o_trav o_tcas o_mark o_pcas o_get o_rem o_rcas o_count o_empty o_iroot o_iter] in *; try done.
  - destruct (sh_loc child); [|done]. simpl in *. by injection H as <- <-.
  - by destruct (sh_loc child).
  - destruct levels as [|[u idx] rest]; [done|]. destruct (_ || _); [done|]. by destruct (sh_loc u).
Qed.
Lemma tv_acq o1 o2 tv W : acquires o1 = true -> acquires o2 = true -> tv_read o1 tv W = tv_read o2 tv W.
Proof. intros H1 H2. unfold tv_read. by rewrite H1, H2. Qed.
Lemma pv_acq o1 o2 pv c v W : acquires o1 = true -> acquires o2 = true -> pv_read o1 pv c v W = pv_read o2 pv c v W.
Proof. intros H1 H2. by destruct o1, o2. Qed.

(** The cell gets a value that points to the same node as the newest one, with the same view. *)
Lemma copy_inv s o tv pv st c n v W v' m' h' : winv s -> view_ok (w_mem s) (w_hist s) tv pv -> is_Some (w_ops s !! o) -> cell_ok (w_mem s) tv pv c ->
  w_hist s c !! n = Some (v, W) -> sh_loc v' = sh_loc v -> sh_data v' = sh_data v ->
  same_mem m' (write_cell (w_mem s) c v') -> (forall c', h' c' = hist_write (w_hist s) c (v', W) c') ->
  st_ok m' tv pv st -> winv (WState m' h' (<[o := WOp st tv pv]> (w_ops s))).
Proof.
  intros Hs Hv Ho Hc Hnv Hloc Hdat Hm Hh Hst. destruct (cell_cval _ _ _ _ Hs Hc) as [u Hu]. destruct (hist_cons _ _ _ Hs Hu) as (y & r & Hr).
  assert (forall c', head (h' c') = head (w_hist s c')) as Hhead.
  { intros c'. rewrite Hh. destruct (decide (c' = c)) as [->|Hne]; [|by rewrite hist_write_ne]. rewrite hist_write_eq, Hr. done. }
  assert (forall l, is_Some (hbody (w_mem s) l) <-> is_Some (hbody m' l)) as Hdom.
  { intros l. rewrite (sm_hbody _ _ l Hm), hbody_write. destruct c as [|l' i]; [done|]. destruct (decide (l' = l)); [|done]. destruct (hbody (w_mem s) l) as [[]|]; split; intros []; try done; by eexists. }
  assert (forall tv' pv', grows (w_mem s) tv' pv' m' tv' pv') as HG by (intros; by eapply write_grows).
  assert (forall tv' pv', view_ok (w_mem s) (w_hist s) tv' pv' -> view_ok m' h' tv' pv') as Hvx.
  { intros tv' pv'. apply view_ext; [intros l; apply Hdom|]. intros b i _. apply Hhead. }
  split; simpl.
  - rewrite (sm_freed _ _ Hm). destruct c; apply Hs.
  - intros l Hl. rewrite (sm_next _ _ Hm). assert (m_next (write_cell (w_mem s) c v') = m_next (w_mem s)) as -> by (by destruct c). apply Hs. by apply Hdom.
  - intros l sl Hb. rewrite (sm_hbody _ _ l Hm), hbody_write in Hb. destruct c as [|l' i]; [by eapply wi_len|]. destruct (decide (l' = l)); [|by eapply wi_len].
    destruct (hbody (w_mem s) l) as [[sl'|]|] eqn:E; try done. injection Hb as <-. rewrite insert_length. by eapply wi_len.
  - intros c' v0 Hcv. rewrite (sm_cval _ _ c' Hm) in Hcv. rewrite Hh. destruct (decide (c' = c)) as [->|Hne].
    + rewrite (cval_write_eq _ _ _ u) in Hcv by done. injection Hcv as <-. rewrite hist_write_eq, last_snoc. by eexists.
    + rewrite cval_write_ne in Hcv by done. rewrite hist_write_ne by done. by apply Hs.
  - intros c' n' v0 W0 Hn. rewrite Hh in Hn.
    assert (w_hist s c' !! n' = Some (v0, W0) \/ c' = c /\ (v0, W0) = (v', W)) as [Hold|[-> Hx]].
    { destruct (decide (c' = c)) as [->|Hne]; [|left; by rewrite hist_write_ne in Hn]. rewrite hist_write_eq in Hn. apply lookup_app_Some in Hn as [Hn|[_ Hn]]; [by left|right]. split; [done|]. by apply list_lookup_singleton_Some in Hn as [_ Hn]. }
    + destruct (wi_msg _ Hs _ _ _ _ Hold) as [Ht Hmsg]. split; [eapply typed_grow; [apply (HG tv pv)|done]|]. eapply msg_ext; [apply Hhead|intros l; apply Hdom| |exact Hmsg]. intros b i _. apply Hhead.
    + injection Hx as -> ->. destruct (wi_msg _ Hs _ _ _ _ Hnv) as [Ht (M1 & M2 & M3)]. split.
      * eapply typed_grow; [apply (HG tv pv)|]. intros l Hl. rewrite Hloc in Hl. rewrite Hdat. by apply Ht.
      * apply (msg_ext (w_mem s) (w_hist s)); [apply Hhead|intros l; apply Hdom|intros b i _; apply Hhead|]. split; [done|]. split; [done|]. simpl. intros l Hl. rewrite Hloc in Hl. by apply M3.
  - intros o' z Hz. destruct (decide (o' = o)) as [->|Hne].
    + rewrite lookup_insert in Hz. injection Hz as <-. simpl. split; [by apply Hvx|done].
    + rewrite lookup_insert_ne in Hz by done. destruct (wi_ops _ Hs _ _ Hz) as [H1 H2]. split; [by apply Hvx|]. eapply st_grow; [by apply HG|done].
Qed.

Lemma fetch_carry w s o op p tv pv c ord n v W spur a m' nx acts : strong w -> winv s -> w_ops s !! o = Some (WOp (SRun op p) tv pv) ->
  access w p = Some (c, AFetch, ord) -> w_hist s c !! n = Some (v, W) -> S n = length (w_hist s c) ->
  see_step (tv_read ord tv W) (pv_read ord pv c v W) (w_mem s) p spur a = Some (m', nx, acts) ->
  let tv1 := tv_read ord tv W in let pv1 := pv_alloc (w_mem s) m' (pv_read ord pv c v W) in let u := default sh_null (read_cell m' c) in
  winv (WState m' (hist_write (hist_alloc (w_mem s) m' (w_hist s)) c (u, W)) (<[o := WOp (nx_stat op nx) tv1 pv1]> (w_ops s))).
Proof.
  intros Hw Hs Ho Hacc Hn Hlast Hsee tv1.
  destruct (load_step w s o op p tv pv c AFetch ord n v W spur a m' nx acts Hw Hs Ho Hacc (or_intror eq_refl) Hn) as (Hv & Hp & Hheld & Hstep).
  fold tv1 in Hv, Hp, Hheld, Hstep, Hsee. set (pv0 := pv_read ord pv c v W) in *.
  pose proof (access_cell _ _ _ _ _ _ _ _ Hp Hacc) as Hc. destruct (cell_cval _ _ _ _ Hs Hc) as [v0 Hcv].
  assert (v0 = v) as ->.
  { destruct (wi_last _ Hs _ _ Hcv) as [W0 HW0]. rewrite last_lookup in HW0. replace (pred (length (w_hist s c))) with n in HW0 by lia. pose proof (eq_trans (eq_sym HW0) Hn) as Hx. by injection Hx. }
  pose proof Hcv as Hrd. rewrite <- (read_is_cval _ _ Hs) in Hrd.
  destruct (Hstep _ (agree_self s _ _ Hs) Hrd Hsee) as [Hreal Hnx].
  pose proof (fetch_mem _ _ _ _ _ _ _ _ _ _ _ Hacc Hrd Hreal) as Hm.
  assert (same_mem m' (write_cell (w_mem s) c (recond v))) as Hsm by (rewrite Hm; apply sm_refl).
  assert (m_next m' = m_next (w_mem s)) as Hnext. { rewrite Hm. by destruct c. }
  assert (pv_alloc (w_mem s) m' pv0 = pv0) as ->. { unfold pv_alloc. by rewrite decide_True. }
  assert (read_cell m' c = Some (recond v)) as Hru.
  { apply cval_read_cell; [rewrite (sm_cval _ _ c Hsm); by eapply cval_write_eq|]. intros l i ->. apply no_freed. rewrite (sm_freed _ _ Hsm). simpl. apply Hs. }
  rewrite Hru. cbn [default].
  assert (grows (w_mem s) tv1 pv0 m' tv1 pv0) as HG by (by eapply write_grows).
  eapply (copy_inv s o tv1 pv0 (nx_stat op nx) c n v W (recond v)); [done|done|by eexists|done|done|done|done|done| |].
  + intros c'. assert (forall c', hist_alloc (w_mem s) m' (w_hist s) c' = w_hist s c') as Hha.
    { intros [|l i]; [done|]. simpl. rewrite decide_False; [done|]. by intros [_ ?]. }
    destruct (decide (c' = c)) as [->|Hne]; [by rewrite !hist_write_eq, Hha|by rewrite !hist_write_ne, Hha].
  + apply st_of_nx. destruct nx; simpl in *; [by eapply pc_grow|by eapply refs_grow|done].
Qed.

(** Apart from fetch_or, a step is one of the machine of Weak.v with a fetch_or that releases. *)
Lemma rs_step_inv w s lb s' ev : strong_rs w -> winv s -> rs_step w s lb = Some (s', ev) -> winv s'.
Proof.
  intros Hw Hs H. pose proof (marked_strong _ Hw) as Hw'. destruct lb as [o op|o n spur a]; [by eapply (wstep_inv (marked w) s (WInv o op))|].
  destruct (w_ops s !! o) as [[st tv pv]|] eqn:Ho; [|by cbn [rs_step] in H; rewrite Ho in H].
  destruct st as [op p| | |]; try (by cbn [rs_step] in H; rewrite Ho in H).
  destruct (access w p) as [[[c k] ord]|] eqn:Hacc.
  - assert (k = AFetch \/ k <> AFetch) as [->|Hk] by (destruct k; by (left + right)).
    + cbn [rs_step] in H. rewrite Ho, Hacc in H. destruct (marked_fetch _ _ _ _ Hacc) as [-> Hacc'].
      destruct (wi_ops _ Hs _ _ Ho) as [Hv Hp]. simpl in Hv, Hp. pose proof (access_cell _ _ _ _ _ _ _ _ Hp Hacc) as Hc. destruct (base_known _ _ _ _ _ Hv Hc) as [Hb _]. rewrite Hb in H. cbn [negb] in H.
      destruct (cell_cval _ _ _ _ Hs Hc) as [v0 Hcv]. destruct (hist_cons _ _ _ Hs Hcv) as (y & r & Hr). rewrite Hr in H. rewrite <- Hr in H.
      destruct (w_hist s c !! n) as [[v W]|] eqn:Hn; [|done].
      destruct (bool_decide (S n = length (w_hist s c))) eqn:En; [|done]. apply bool_decide_eq_true in En. pose proof (sr_mark _ Hw) as Ha.
      rewrite (tv_acq _ AcqRel) in H by done. rewrite (pv_acq _ AcqRel) in H by done.
      unfold rs_write in H. destruct (see_step _ _ _ _ _ _) as [[[m' nx] acts]|] eqn:Esee; [|done]. injection H as <- _.
      destruct (releases (o_mark w)); [by eapply (fetch_inv (marked w))|by eapply (fetch_carry (marked w))].
    + pose proof (marked_access _ _ _ _ _ Hacc Hk) as Hacc'. eapply (wstep_inv (marked w) s (WStep o n spur a)); [done|done|].
      cbn [rs_step wstep] in *. rewrite Ho, Hacc in H. rewrite Ho, Hacc'. destruct (negb (base_seen tv pv c)); [exact H|]. destruct (w_hist s c) as [|y r]; [exact H|].
      destruct ((y :: r) !! n) as [[v W]|]; [|done]. destruct k; [exact H|exact H|done|]. destruct (_ && _); [|exact H].
      unfold rs_write in H. unfold w_write. destruct (see_step _ _ _ _ _ _) as [[[m' nx] acts]|]; [|done]. rewrite (strong_cas _ _ _ _ Hw' Hacc') in *. exact H.
  - eapply (wstep_inv (marked w) s (WStep o n spur a)); [done|done|]. cbn [rs_step wstep] in *. rewrite Ho, Hacc in H. by rewrite Ho, (marked_none _ _ Hacc).
Qed.
Lemma rs_run_inv w s ls s' ev : strong_rs w -> winv s -> rs_run w s ls = Some (s', ev) -> winv s'.
Proof.
  intros Hw. revert s ev. induction ls as [|lb ls IH]; intros s ev Hs H; simpl in H; [by injection H as <- _|].
  destruct (rs_step w s lb) as [[s1 ev1]|] eqn:E; [|done]. destruct (rs_run w s1 ls) as [[s2 ev2]|] eqn:E2; [|done]. injection H as <- _.
  eapply IH; [|exact E2]. by eapply rs_step_inv.
Qed.
Lemma rs_reach_inv w s : strong_rs w -> rs_reachable w s -> winv s.
Proof. intros Hw (ls & ev & H). eapply rs_run_inv; [done|apply winit_inv|exact H]. Qed.
End proof.
