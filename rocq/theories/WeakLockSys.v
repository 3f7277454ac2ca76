(** * Progress on weakly ordered memory, 2: the calls together. *)
From Verif Require Import Model Mem Spec ProgSpec Weak WeakInv WeakStep WeakSys WeakRun LinSpec Inv Safe SafeStep SafeOps SafeSys SafeProps Look Sem SemOps LiveStep Lock LockStep Lin LinProps Iter IterSpec IterSys
  WeakCoh WeakFun WeakWrite WeakWalk WeakTime WeakIter WeakBase WeakLag WeakLock.

Section wlocksys.
Context {C : Config} {HC : ConfigOk C} (w : orders).
Implicit Types (m : mem) (pos : loc -> list nat) (c : cell) (v u : sh) (o : opid) (p : pc) (op : oper) (s : cstate) (ls : list clabel) (ev : list event)
  (M : nat -> mem) (H : nat -> cell -> list sh) (live : opid -> bool).
Local Opaque Lock.cU Lock.cD Lock.cS Lock.cM.
Notation allt := (fun _ : list nat => true).

(** ** The potential of the trie depends on the memory only. *)
Lemma pos_agree pos pos2 m : minv pos m -> minv pos2 m -> forall k l sl, length (pos l) < k -> hbody m l = Some (BInner sl) -> ~ dead m l -> pos2 l = pos l.
Proof.
  intros Hm Hm2 k. induction k as [|k IH]; intros l sl Hk Hb Hd; [lia|]. destruct (inner_parent _ _ _ _ Hm Hb Hd) as (c & v & Hc & Hl & Hv & Hdt & Hp).
  pose proof (mi_ptr _ _ Hm2 _ _ Hc) as Hp2. unfold ptr_ok in Hp2. rewrite Hv, Hdt in Hp2. destruct Hp2 as (_ & _ & ->). rewrite <-Hp.
  destruct c as [|l' i]; [done|]. simpl. f_equal. apply cval_slot in Hc as (sl' & Hb' & _). eapply IH; [|exact Hb'|exact Hl]. rewrite <-Hp in Hk. simpl in Hk. rewrite app_length in Hk. simpl in Hk. lia.
Qed.
Lemma G_pos cost pos pos2 m : minv pos m -> minv pos2 m -> G cost allt pos2 m = G cost allt pos m.
Proof.
  intros Hm Hm2. unfold G. f_equal. apply msum_ind. intros l [a b] Hl. unfold nodew. simpl. destruct b as [sl|]; [|done]. destruct (decide (dead m l)) as [|Hd]; [done|].
  rewrite (pos_agree pos pos2 m Hm Hm2 (S (length (pos l))) l sl); [done|lia| |done]. unfold hbody. by rewrite Hl.
Qed.

(** ** How far a call lags behind *)
Definition lagc s o c : nat := chg (drop (c_fl s o c) (vals (w_hist (c_w s)) c)).
Definition lag s o : nat := csum (lagc s o) (Pos.to_nat (m_next (w_mem (c_w s)))).

Lemma lag_same s s' o o' : w_mem (c_w s') = w_mem (c_w s) -> w_hist (c_w s') = w_hist (c_w s) -> (forall c, c_fl s' o c = c_fl s o c) -> lag s' o = lag s o.
Proof.
  intros E1 E2 E3. unfold lag. rewrite E1. apply Nat.le_antisymm; apply csum_le; intros c; unfold lagc; by rewrite E2, E3.
Qed.
Lemma lag_read s s' o : w_mem (c_w s') = w_mem (c_w s) -> w_hist (c_w s') = w_hist (c_w s) -> (forall c, c_fl s o c <= c_fl s' o c) -> lag s' o <= lag s o.
Proof. intros E1 E2 E3. unfold lag. rewrite E1. apply csum_le. intros c. unfold lagc. rewrite E2. by apply chg_drop_le. Qed.
Lemma lag_read_strict s s' o c x y : w_mem (c_w s') = w_mem (c_w s) -> w_hist (c_w s') = w_hist (c_w s) -> (forall c, c_fl s o c <= c_fl s' o c) ->
  in_cells (Pos.to_nat (m_next (w_mem (c_w s)))) c -> vals (w_hist (c_w s)) c !! c_fl s o c = Some x -> vals (w_hist (c_w s)) c !! c_fl s' o c = Some y -> x <> y -> lag s' o + 1 <= lag s o.
Proof.
  intros E1 E2 E3 Hin Hx Hy Hne. unfold lag. rewrite E1. apply (csum_strict _ _ _ c); [|done|].
  - intros d. unfold lagc. rewrite E2. by apply chg_drop_le.
  - unfold lagc. rewrite E2. by eapply chg_strict.
Qed.
Lemma chg_short (l : list sh) n : length l <= 1 -> chg (drop n l) = 0.
Proof. intros Hl. destruct l as [|x [|y l]]; [by rewrite drop_nil|destruct n; simpl; [done|by rewrite drop_nil]|simpl in Hl; lia]. Qed.
Lemma lag_write s s' o c v' : (m_next (w_mem (c_w s)) <= m_next (w_mem (c_w s')))%positive ->
  vals (w_hist (c_w s')) c = vals (w_hist (c_w s)) c ++ [v'] -> (forall x, x <> c -> vals (w_hist (c_w s')) x = vals (w_hist (c_w s)) x \/ vals (w_hist (c_w s)) x = [] /\ length (vals (w_hist (c_w s')) x) <= 1) ->
  (forall l i, (m_next (w_mem (c_w s)) < l)%positive -> vals (w_hist (c_w s')) (CSlot l i) = []) ->
  (forall x, c_fl s o x <= c_fl s' o x) -> lag s' o <= lag s o + if decide (last (vals (w_hist (c_w s)) c) = Some v') then 0 else 1.
Proof.
  intros Hn Hc Hx Hnew Hfl. unfold lag. rewrite (csum_ext _ (Pos.to_nat (m_next (w_mem (c_w s))))); [|lia|].
  - apply (csum_one _ _ _ c).
    + intros x Hne. unfold lagc. destruct (Hx x Hne) as [->|[_ Hl]]; [by apply chg_drop_le|]. rewrite chg_short by done. lia.
    + unfold lagc. rewrite Hc. etrans; [apply (chg_drop_le (c_fl s o c)); apply Hfl|]. apply chg_drop_snoc.
  - intros l i Hl. unfold lagc. rewrite Hnew by lia. by rewrite drop_nil.
Qed.
Lemma lag_write_own s s' o c v' : (m_next (w_mem (c_w s)) <= m_next (w_mem (c_w s')))%positive ->
  vals (w_hist (c_w s')) c = vals (w_hist (c_w s)) c ++ [v'] -> (forall x, x <> c -> vals (w_hist (c_w s')) x = vals (w_hist (c_w s)) x \/ vals (w_hist (c_w s)) x = [] /\ length (vals (w_hist (c_w s')) x) <= 1) ->
  (forall l i, (m_next (w_mem (c_w s)) < l)%positive -> vals (w_hist (c_w s')) (CSlot l i) = []) ->
  (forall x, c_fl s o x <= c_fl s' o x) -> c_fl s' o c = length (vals (w_hist (c_w s)) c) -> lag s' o <= lag s o.
Proof.
  intros Hn Hc Hx Hnew Hfl Hoc. unfold lag. rewrite (csum_ext _ (Pos.to_nat (m_next (w_mem (c_w s))))); [|lia|].
  - apply csum_le. intros x. destruct (decide (x = c)) as [->|Hne].
    + unfold lagc at 1. rewrite Hc, Hoc. rewrite drop_app_ge by lia. rewrite Nat.sub_diag. simpl. lia.
    + unfold lagc. destruct (Hx x Hne) as [->|[_ Hl]]; [by apply chg_drop_le|]. rewrite chg_short by done. lia.
  - intros l i Hl. unfold lagc. rewrite Hnew by lia. by rewrite drop_nil.
Qed.

(** ** What a call remembers is what it saw last; and it has seen nothing that is not there. *)
Record wlinv s : Prop := {
  wl_rem : forall o op p tv pv, w_ops (c_w s) !! o = Some (WOp (SRun op p) tv pv) -> forall c u, (c, u) ∈ rem p -> vals (w_hist (c_w s)) c !! c_fl s o c = Some u;
  wl_fl : forall o c, c_fl s o c = 0 \/ c_fl s o c < length (w_hist (c_w s) c);
}.
Lemma wlinv0 : wlinv cinit.
Proof. split; [|by left]. intros o op p tv pv Ho. simpl in Ho. by rewrite lookup_empty in Ho. Qed.

(** ** The potential *)
Section pot.
Context (n : nat).
Notation cost := (200 * (n + 1)).
Definition wstw s o (x : wop) : nat := match w_st x with SRun op p => if is_reader op then 0 else phi0 cost (w_mem (c_w s)) p + 200 * lag s o | _ => 0 end.
Definition wind live o (x : wop) : nat := if live o && modifying (w_st x) then 1 else 0.
Definition wPsi live s : nat := msum (fun o x => if live o then wstw s o x else 0) (w_ops (c_w s)).
Definition wCnt live s : nat := msum (wind live) (w_ops (c_w s)).
Definition wPhi live pos s : nat := G cost allt pos (w_mem (c_w s)) + wPsi live s.
End pot.

Lemma msum_ins {A} (f : loc -> A -> nat) (h : gmap loc A) l x : msum f (<[l := x]> h) = f l x + msum f (delete l h).
Proof. rewrite (msum_delete f (<[l := x]> h) l x) by apply lookup_insert. by rewrite delete_insert_delete. Qed.

Lemma cas_wins_tag gs m p spur : cas_wins (tagm gs m) p spur = cas_wins m p spur.
Proof. unfold cas_wins. destruct (cas_of p) as [[c e]|]; [|done]. by destruct c. Qed.
Lemma same_refl_sh m v : sh_same m v v = true.
Proof. unfold sh_same. by rewrite N.eqb_refl, !eqb_reflx. Qed.
Lemma lose_differs (M1 : mem) p c kd ord v spur : access w p = Some (c, kd, ord) -> kd = ACas -> cas_wins M1 p spur = false -> read_cell M1 c = Some v -> spur = true \/ exists e, cas_of p = Some (c, e) /\ e <> v.
Proof.
  intros Hacc -> Hl Hrd. destruct spur; [by left|right]. assert (exists e, cas_of p = Some (c, e)) as [e He].
  { destruct p; simpl in *; try done; try (injection Hacc as <- _; eauto; done); try (destruct (sh_loc _); simpl in Hacc; done). destruct levels as [|[? ?] ?]; [done|]. destruct (_ || _); [done|]. by destruct (sh_loc _). }
  exists e. split; [done|]. intros ->. unfold cas_wins in Hl. rewrite He, Hrd, same_refl_sh in Hl. by destruct p.
Qed.
Lemma upd_kind p c kd ord : access w p = Some (c, kd, ord) -> kd = AFetch \/ kd = ACas -> upd p = true.
Proof.
  destruct p; simpl; try done; [intros [= _ <- _]; naive_solver|intros [= _ <- _]; naive_solver|intros [= _ <- _]; naive_solver|].
  destruct levels as [|[? ?] ?]; [done|]. destruct (_ || _); [done|]. destruct (sh_loc _); [|done]. intros [= _ <- _]. naive_solver.
Qed.
Lemma upd_access pos m o p : pc_ok pos m o p -> upd p = true -> is_Some (access w p).
Proof.
  destruct p; simpl; try done.
  - intros ((_ & _ & _ & _ & [l ->]) & _) _. by eexists.
  - intros ((_ & _ & _ & _ & [l ->]) & _) _. by eexists.
Qed.

Lemma read_own m c v : is_Some (cval m c) -> m_freed m = [] -> read_cell (write_cell m c v) c = Some v.
Proof. intros [v0 Hv0] Hf. apply cval_read_cell; [by eapply cval_write_eq|]. intros l i ->. apply no_freed. exact Hf. Qed.

(** Everything there is to know about a step. *)
Inductive sinfo s s' o (nn : nat) (spur : bool) (a : N) p nx acts : Prop :=
| si_local (M2 : mem) : w_mem (c_w s') = w_mem (c_w s) -> w_hist (c_w s') = w_hist (c_w s) -> access w p = None -> op_step ∅ (w_mem (c_w s)) p spur a = Some (M2, nx, acts) -> (forall c, c_fl s' o c = c_fl s o c) -> sinfo s s' o nn spur a p nx acts
| si_read c kd ord v (M1 M2 : mem) : w_mem (c_w s') = w_mem (c_w s) -> w_hist (c_w s') = w_hist (c_w s) -> access w p = Some (c, kd, ord) -> kd <> AFetch -> (kd = ACas -> cas_wins M1 p spur = false) -> read_cell M1 c = Some v ->
   op_step ∅ M1 p spur a = Some (M2, nx, acts) -> vals (w_hist (c_w s)) c !! nn = Some v -> c_fl s' o c = nn -> (forall x, x <> c -> c_fl s' o x = c_fl s o x) ->
   (sh_cond v = true -> cval (w_mem (c_w s)) c = Some v) -> in_cells (Pos.to_nat (m_next (w_mem (c_w s)))) c -> sinfo s s' o nn spur a p nx acts
| si_write c kd ord v v' : access w p = Some (c, kd, ord) -> (kd = AFetch \/ kd = ACas /\ cas_wins (w_mem (c_w s)) p spur = true) -> cval (w_mem (c_w s)) c = Some v ->
   op_step ∅ (w_mem (c_w s)) p spur a = Some (w_mem (c_w s'), nx, acts) -> (forall x, x <> c -> c_fl s' o x = c_fl s o x) -> c_fl s' o c = length (vals (w_hist (c_w s)) c) ->
   last (vals (w_hist (c_w s)) c) = Some v -> cval (w_mem (c_w s')) c = Some v' -> vals (w_hist (c_w s')) c = vals (w_hist (c_w s)) c ++ [v'] ->
   (forall x, x <> c -> vals (w_hist (c_w s')) x = vals (w_hist (c_w s)) x \/ vals (w_hist (c_w s)) x = [] /\ length (vals (w_hist (c_w s')) x) <= 1) ->
   (m_next (w_mem (c_w s)) <= m_next (w_mem (c_w s')))%positive -> (forall l i, (m_next (w_mem (c_w s)) < l)%positive -> vals (w_hist (c_w s')) (CSlot l i) = []) -> sinfo s s' o nn spur a p nx acts.

Lemma minv_cells pos m c : minv pos m -> is_Some (cval m c) -> in_cells (Pos.to_nat (m_next m)) c.
Proof.
  intros Hm [v Hv]. destruct c as [|l i]; [done|]. split; [|by eapply cval_slot_idx]. apply cval_slot in Hv as (sl & Hb & _). assert (l < m_next m)%positive as Hl by (apply (mi_fresh _ _ Hm), hbody_is_Some; eauto). lia.
Qed.
Lemma write_next pos (m m' : mem) p c kd ord spur a nx acts v : access w p = Some (c, kd, ord) -> (kd = AFetch \/ kd = ACas /\ cas_wins m p spur = true) -> read_cell m c = Some v ->
  op_step ∅ m p spur a = Some (m', nx, acts) -> minv pos m -> (m_next m <= m_next m')%positive.
Proof.
  intros Hacc [->|[-> Hwin]] Hr Hst Hm.
  - rewrite (fetch_mem _ _ _ _ _ _ _ _ _ _ _ Hacc Hr Hst). by destruct c.
  - pose proof (cas_mem _ _ _ _ _ _ _ _ _ _ Hacc Hwin Hst) as Hsm. rewrite (sm_next _ _ Hsm). destruct (new_body p), c; simpl; lia.
Qed.

Lemma step_info M H N pos ls s ev o nn spur a s' ev1 M' H' N' pos' ls' ev' : strong w -> binv M H N pos ls s ev -> binv M' H' N' pos' ls' s' ev' ->
  cstep w s (CStep o nn spur a) = Some (s', ev1) ->
  exists op p tv pv nx tv' pv' acts, w_ops (c_w s) !! o = Some (WOp (SRun op p) tv pv) /\ w_ops (c_w s') = <[o := WOp (nx_stat op nx) tv' pv']> (w_ops (c_w s)) /\ ev1 = nx_events o nx acts /\
   (forall o' c, o' <> o -> c_fl s' o' c = c_fl s o' c) /\ (forall c, c_fl s o c <= c_fl s' o c) /\ sinfo s s' o nn spur a p nx acts.
Proof.
  intros Hw B B' Hst. cbn [cstep] in Hst. destruct (wstep w (c_w s) (WStep o nn spur a)) as [[s1 ev2]|] eqn:Ew; [|done].
  pose proof (b_winv _ _ _ _ _ _ _ B) as Hs. pose proof (wstep_inv _ _ _ _ _ Hw Hs Ew) as Hs1.
  destruct (wstep_st _ _ _ _ _ _ _ _ Hw Hs Ew) as (op & p & tv & pv & nx & tv' & pv' & acts & Ho & Hops & -> & Hwst).
  unfold next_cell in Hst. rewrite Ho in Hst. cbn [w_st] in Hst.
  pose proof (b_ops _ _ _ _ _ _ _ B _ _ Ho) as (Hwf & Hpc & Hps & Hei & Htr & Hist). cbn [w_st] in Hpc, Hps.
  pose proof (b_tl _ _ _ _ _ _ _ B) as T. pose proof (b_mem _ _ _ _ _ _ _ B) as HMN. pose proof (b_hist _ _ _ _ _ _ _ B) as HHN.
  pose proof (tl_minv _ _ _ _ T N ltac:(lia)) as Hm. rewrite HMN in Hm. pose proof (wi_freed _ Hs) as Hfr.
  pose proof (tl_minv _ _ _ _ (b_tl _ _ _ _ _ _ _ B') N' ltac:(lia)) as Hm'. rewrite (b_mem _ _ _ _ _ _ _ B') in Hm'.
  exists op, p, tv, pv, nx, tv', pv', acts. split; [done|].
  destruct Hwst as [M1 Hacc Hstep Hmem Hhist|c kd ord v W M1 Hacc Hkd Hn Hlose Hstep Hmem Hhist|c kd ord v W W' Hacc Hkd Hn Hlen Hstep Hhist].
  - rewrite Hacc in Hst. injection Hst as <- <-. do 4 (split; [done|]). by eapply si_local.
  - rewrite Hacc in Hst. simpl in Hst. destruct (nn <? c_fl s o c) eqn:Efl; [done|]. apply Nat.ltb_ge in Efl. rewrite Hhist, Nat.ltb_irrefl in Hst. injection Hst as <- <-.
    assert (H N c !! nn = Some v) as HHn. { rewrite HHN. by eapply vals_lookup. }
    destruct (hist_ptr _ _ _ _ _ _ _ T HHn) as (Hptr & Hroot & [v0 Hv0]). rewrite HMN in Hptr, Hv0.
    split; [done|]. split; [done|]. split; [intros o' x Hx; simpl; by rewrite decide_False|]. split.
    { intros y. simpl. rewrite decide_True by done. destruct (same_cell c y) eqn:E; [|done]. apply same_cell_spec in E as <-. done. }
    eapply (si_read _ _ _ _ _ _ _ _ _ c kd ord v (write_cell (w_mem (c_w s)) c v) M1); try done.
    + apply read_own; [eauto|done].
    + rewrite <-HHN. done.
    + simpl. rewrite decide_True by done. by rewrite (proj2 (same_cell_spec c c) eq_refl).
    + intros x Hx. simpl. rewrite decide_True by done. destruct (same_cell c x) eqn:E; [|done]. by apply same_cell_spec in E.
    + intros Hc. rewrite <-HMN, <-(tl_last _ _ _ _ T) by lia. rewrite last_lookup. pose proof (lookup_lt_Some _ _ _ HHn) as Hlt. destruct (lookup_lt_is_Some_2 (H N c) (pred (length (H N c))) ltac:(lia)) as [z Hz].
      rewrite Hz. f_equal. eapply (tl_cond _ _ _ _ T c nn); [|done|done|exact Hz]. lia.
    + eapply minv_cells; eauto.
  - assert (H N c !! nn = Some v) as HHn. { rewrite HHN. by eapply vals_lookup. }
    destruct (hist_ptr _ _ _ _ _ _ _ T HHn) as (_ & _ & [v0 Hv0]). rewrite HMN in Hv0.
    assert (forall x, last (H N x) = cval (w_mem (c_w s)) x) as Hla by (intros x; rewrite (tl_last _ _ _ _ T) by lia; by rewrite HMN).
    rewrite Hacc in Hst. simpl in Hst. destruct (nn <? c_fl s o c) eqn:Efl; [done|]. apply Nat.ltb_ge in Efl.
    assert (s' = CState s1 (c_fl s')) as Es' by (destruct (length (w_hist (c_w s) c) <? length (w_hist s1 c)); by injection Hst as <- <-). rewrite Es' in Hm'. cbn [c_w] in Hm'.
    destruct (write_grown w (c_w s) o nn spur a s1 op p nx c kd ord v W W' acts pos pos' (H N) Hs Hs1 Hm Hm' Hpc HHN) as [Hg Hgl]; try done.
    assert (length (w_hist (c_w s) c) <? length (w_hist s1 c) = true) as Elt by (apply Nat.ltb_lt; lia).
    rewrite Elt in Hst. clear Es'. injection Hst as <- <-. cbn [c_w] in *.
    split; [done|]. split; [done|]. split; [intros o' x Hx; simpl; by rewrite decide_False|]. split.
    { intros y. simpl. rewrite decide_True by done. destruct (same_cell c y) eqn:E; [|done]. apply same_cell_spec in E as <-. lia. }
    assert (read_cell (w_mem (c_w s)) c = Some v0) as Hrd by (by rewrite read_is_cval).
    assert (exists v', cval (w_mem s1) c = Some v' /\ vals (w_hist s1) c = vals (w_hist (c_w s)) c ++ [v']) as (v' & Hv' & Hvs).
    { destruct (Hg c) as [[E _]|(v' & E & Hv' & _)]; rewrite HHN in E; [|eauto]. apply (f_equal length) in E. unfold vals in E. rewrite !fmap_length in E. exfalso. assert (forall (a b : nat), a = S b -> a = b -> False) as Hx by lia. eapply Hx; [exact Hgl|exact E]. }
    assert (forall l i, (m_next (w_mem (c_w s)) <= l)%positive -> vals (w_hist (c_w s)) (CSlot l i) = []) as Hnew.
    { intros l i Hl. rewrite <-HHN. apply last_None. rewrite Hla. destruct (cval (w_mem (c_w s)) (CSlot l i)) as [u|] eqn:E; [|done]. apply cval_slot in E as (sl & Hb & _).
      assert (l < m_next (w_mem (c_w s)))%positive by (apply (mi_fresh _ _ Hm), hbody_is_Some; eauto). lia. }
    eapply (si_write _ _ _ _ _ _ _ _ _ c kd ord v0 v'); try done.
    + intros x Hx. simpl. rewrite decide_True by done. destruct (same_cell c x) eqn:E; [|done]. by apply same_cell_spec in E.
    + simpl. rewrite decide_True by done. rewrite (proj2 (same_cell_spec c c) eq_refl). unfold vals. by rewrite fmap_length.
    + rewrite <-HHN, Hla. done.
    + intros x Hx. cbn [c_w]. unfold vals. rewrite Hhist, hist_write_ne by done. destruct x as [|l i]; [by left|]. simpl. destruct (decide _) as [[-> _]|]; [|by left].
      right. split; [apply (Hnew (m_next (w_mem (c_w s))) i); lia|]. destruct (ptrs _ _ !! i); simpl; lia.
    + cbn [c_w]. eapply write_next; eauto.
    + intros l i Hl. cbn [c_w]. assert (CSlot l i <> c) as Hne. { intros E. rewrite <-E in Hv0. apply cval_slot in Hv0 as (sl & Hb & _). assert (l < m_next (w_mem (c_w s)))%positive by (apply (mi_fresh _ _ Hm), hbody_is_Some; eauto). lia. }
      unfold vals. rewrite Hhist, hist_write_ne by done. simpl. rewrite decide_False; [apply Hnew; lia|]. intros [-> _]. lia.
Qed.

(** ** The invariant is kept *)
Lemma max_list_in (l : list nat) : max_list l = 0 \/ max_list l ∈ l.
Proof. induction l as [|x l IH]; simpl; [by left|]. destruct (Nat.max_spec x (max_list l)) as [[_ E]|[_ E]]; rewrite E; [destruct IH; [by left|right; by right]|right; left]. Qed.
Lemma vals_length (h : cell -> list msg) c : length (vals h c) = length (h c).
Proof. unfold vals. apply fmap_length. Qed.
Lemma wlinv_inv s o op ps s' ev1 : wlinv s -> cstep w s (CInv o op ps) = Some (s', ev1) -> wlinv s'.
Proof.
  intros [H1 H2] Hst. cbn [cstep wstep] in Hst. destruct (forallb _ _); [|done]. destruct (w_ops (c_w s) !! o) eqn:Eo; [done|]. injection Hst as <- <-. split; cbn [c_w w_ops w_hist c_fl].
  - intros o' op' p tv pv Ho' c u Hin. destruct (decide (o' = o)) as [->|Hne].
    + rewrite lookup_insert in Ho'. injection Ho' as <- <- <- <-. rewrite rem_init in Hin. by apply elem_of_nil in Hin.
    + rewrite lookup_insert_ne in Ho' by done. by eapply H1.
  - intros o' c. destruct (decide (o' = o)) as [->|Hne]; [|apply H2]. destruct (max_list_in ((fun y => c_fl s y c) <$> ps)) as [E|(p & E & _)%elem_of_list_fmap]; [by left|]. rewrite E. apply H2.
Qed.
Lemma rem_local pos m o p spur a (M1 M2 : mem) p' acts : pc_ok pos m o p -> access w p = None -> op_step ∅ M1 p spur a = Some (M2, NRun p', acts) -> rem p' = [].
Proof.
  intros Hpc Hacc Hst. destruct (upd p) eqn:Eu; [destruct (upd_access _ _ _ _ Hpc Eu) as [? E]; congruence|]. destruct p; try done. cbn [op_step] in Hst. destruct levels as [|[y idx] rest]; [done|].
  repeat (match goal with H : context [match ?x with _ => _ end] |- _ => destruct x end; try done); by injection Hst as <- <- <-.
Qed.
Lemma hist_grows s s' o nn spur a p nx acts : sinfo s s' o nn spur a p nx acts -> forall x n u, vals (w_hist (c_w s)) x !! n = Some u -> vals (w_hist (c_w s')) x !! n = Some u.
Proof.
  intros [M2 E1 E2|c kd ord v M1 M2 E1 E2|c kd ord v v' Hacc Hk Hv Hst Hf1 Hf2 Hl Hv' Hvs Hoth Hn Hnew] x n u Hx; [by rewrite E2|by rewrite E2|].
  destruct (decide (x = c)) as [->|Hne]; [rewrite Hvs; by apply lookup_app_l_Some|]. destruct (Hoth x Hne) as [->|[E _]]; [done|]. by rewrite E in Hx.
Qed.
Lemma wlinv_step M H N pos ls s ev o nn spur a s' ev1 M' H' N' pos' ls' ev' : strong w -> binv M H N pos ls s ev -> binv M' H' N' pos' ls' s' ev' ->
  wlinv s -> cstep w s (CStep o nn spur a) = Some (s', ev1) -> wlinv s'.
Proof.
  intros Hw B B' L Hst. destruct (step_info _ _ _ _ _ _ _ _ _ _ _ _ _ _ _ _ _ _ _ Hw B B' Hst) as (op & p & tv & pv & nx & tv' & pv' & acts & Ho & Hops & _ & Hf1 & Hf2 & Hi).
  pose proof (hist_grows _ _ _ _ _ _ _ _ _ Hi) as Hg. pose proof (b_ops _ _ _ _ _ _ _ B _ _ Ho) as (_ & Hpc & _). cbn [w_st] in Hpc.
  assert (m_freed (w_mem (c_w s)) = []) as Hfr by (apply wi_freed, (b_winv _ _ _ _ _ _ _ B)).
  split.
  - intros o' op' q tv1 pv1 Hq c u Hin. rewrite Hops in Hq. destruct (decide (o' = o)) as [->|Hne].
    2:{ rewrite lookup_insert_ne in Hq by done. rewrite Hf1 by done. apply Hg. by eapply (wl_rem _ L). }
    rewrite lookup_insert in Hq. destruct nx as [p'|r|f]; [|done|done]. simpl in Hq. injection Hq as <- <- <- <-.
    destruct Hi as [M2 E1 E2 Hacc Hstep Hf|x kd ord v M1 M2 E1 E2 Hacc Hkd Hlose Hrd Hstep Hvn Hfc Hfx Hcd Hic|x kd ord v v' Hacc Hk Hv Hstep Hfx Hfc Hl Hv' Hvs Hoth Hn Hnew].
    + rewrite (rem_local _ _ _ _ _ _ _ _ _ _ Hpc Hacc Hstep) in Hin. by apply elem_of_nil in Hin.
    + rewrite E2. destruct (rem_step w _ _ _ _ _ _ _ _ _ _ _ _ _ _ _ Hpc Hacc Hrd Hstep c u Hin) as [[Hr Hne]|(-> & -> & _)]; [|by rewrite Hfc]. rewrite Hfx by done. by eapply (wl_rem _ L).
    + assert (read_cell (w_mem (c_w s)) x = Some v) as Hrd by (rewrite read_is_cval; [done|apply (b_winv _ _ _ _ _ _ _ B)]).
      destruct (rem_step w _ _ _ _ _ _ _ _ _ _ _ _ _ _ _ Hpc Hacc Hrd Hstep c u Hin) as [[Hr Hne]|(_ & _ & ->)]; [|by destruct Hk as [|[? _]]]. rewrite Hfx by done. apply Hg. by eapply (wl_rem _ L).
  - intros o' c. destruct (wl_fl _ L o' c) as [E|E].
    + destruct (decide (o' = o)) as [->|Hne]; [|left; by rewrite Hf1].
      destruct Hi as [M2 E1 E2 Hacc Hstep Hf|x kd ord v M1 M2 E1 E2 Hacc Hkd Hlose Hrd Hstep Hvn Hfc Hfx Hcd Hic|x kd ord v v' Hacc Hk Hv Hstep Hfx Hfc Hl Hv' Hvs Hoth Hn Hnew].
      * left. by rewrite Hf.
      * destruct (decide (c = x)) as [->|Hne]; [|left; by rewrite Hfx]. right. rewrite Hfc, E2, <-vals_length. by eapply lookup_lt_Some.
      * destruct (decide (c = x)) as [->|Hne]; [|left; by rewrite Hfx]. right. rewrite Hfc, <-vals_length, Hvs, app_length. simpl. lia.
    + assert (length (w_hist (c_w s) c) <= length (w_hist (c_w s') c)) as Hle.
      { rewrite <-!vals_length. destruct (decide (length (vals (w_hist (c_w s)) c) = 0)) as [E0|E0]; [lia|]. destruct (lookup_lt_is_Some_2 (vals (w_hist (c_w s)) c) (pred (length (vals (w_hist (c_w s)) c))) ltac:(lia)) as [z Hz].
        apply Hg, lookup_lt_Some in Hz. lia. }
      destruct (decide (o' = o)) as [->|Hne]; [|right; rewrite Hf1 by done; lia].
      destruct Hi as [M2 E1 E2 Hacc Hstep Hf|x kd ord v M1 M2 E1 E2 Hacc Hkd Hlose Hrd Hstep Hvn Hfc Hfx Hcd Hic|x kd ord v v' Hacc Hk Hv Hstep Hfx Hfc Hl Hv' Hvs Hoth Hn Hnew].
      * right. rewrite Hf. lia.
      * destruct (decide (c = x)) as [->|Hne]; [|right; rewrite Hfx by done; lia]. right. rewrite Hfc, E2, <-vals_length. by eapply lookup_lt_Some.
      * destruct (decide (c = x)) as [->|Hne]; [|right; rewrite Hfx by done; lia]. right. rewrite Hfc, <-vals_length, Hvs, app_length. simpl. lia.
Qed.

(** ** What a step pays *)
Local Ltac ol := unfold opid, loc in *; lia.
Lemma wCnt_step live s s' o x x' : w_ops (c_w s) !! o = Some x -> w_ops (c_w s') = <[o := x']> (w_ops (c_w s)) -> wCnt live s' + wind live o x = wCnt live s + wind live o x'.
Proof. intros Ho E. unfold wCnt. rewrite E. rewrite (msum_ins (wind live)), (msum_delete (wind live) (w_ops (c_w s)) o x Ho). ol. Qed.
Lemma wPsi_step n live s s' o x x' : w_ops (c_w s) !! o = Some x -> w_ops (c_w s') = <[o := x']> (w_ops (c_w s)) -> live o = true ->
  (forall o' y, o' <> o -> w_ops (c_w s) !! o' = Some y -> wstw n s' o' y <= wstw n s o' y) -> wPsi n live s' + wstw n s o x <= wPsi n live s + wstw n s' o x'.
Proof.
  intros Ho E Hl Hle. unfold wPsi. rewrite E. rewrite (msum_ins (fun o x => if live o then wstw n s' o x else 0)), (msum_delete (fun o x => if live o then wstw n s o x else 0) (w_ops (c_w s)) o x Ho). rewrite Hl.
  assert (msum (fun o x => if live o then wstw n s' o x else 0) (delete o (w_ops (c_w s))) <= msum (fun o x => if live o then wstw n s o x else 0) (delete o (w_ops (c_w s)))); [|ol].
  apply msum_le. intros o' y [Hne Ho']%lookup_delete_Some. destruct (live o'); [|lia]. apply Hle; [congruence|done].
Qed.
Lemma wPsi_big n live s s' o x x' : w_ops (c_w s) !! o = Some x -> w_ops (c_w s') = <[o := x']> (w_ops (c_w s)) -> live o = true -> modifying (w_st x) = true ->
  (forall o' y, o' <> o -> w_ops (c_w s) !! o' = Some y -> wstw n s' o' y <= wstw n s o' y + if modifying (w_st y) then 200 else 0) ->
  wPsi n live s' + wstw n s o x + 200 <= wPsi n live s + wstw n s' o x' + 200 * wCnt live s.
Proof.
  intros Ho E Hl Hmod Hle. unfold wPsi, wCnt. rewrite E. rewrite (msum_ins (fun o x => if live o then wstw n s' o x else 0)), (msum_delete (fun o x => if live o then wstw n s o x else 0) (w_ops (c_w s)) o x Ho).
  rewrite (msum_delete (wind live) (w_ops (c_w s)) o x Ho). rewrite Hl.
  assert (msum (fun o x => if live o then wstw n s' o x else 0) (delete o (w_ops (c_w s))) <= msum (fun o x => (if live o then wstw n s o x else 0) + 200 * wind live o x) (delete o (w_ops (c_w s)))) as Hs.
  { apply msum_le. intros o' y [Hne Ho']%lookup_delete_Some. unfold wind. destruct (live o'); [|lia]. specialize (Hle o' y ltac:(congruence) Ho'). cbn [andb]. destruct (modifying (w_st y)); lia. }
  rewrite (msum_add (fun o x => if live o then wstw n s o x else 0) (fun o x => 200 * wind live o x)), (msum_mul 200 (wind live)) in Hs. unfold wind at 1. rewrite Hl, Hmod. cbn [andb]. ol.
Qed.

Lemma wsys_step n live M H N pos ls s ev o nn spur a s' ev1 M' H' N' pos' ls' ev' : strong w -> binv M H N pos ls s ev -> binv M' H' N' pos' ls' s' ev' ->
  wlinv s -> cstep w s (CStep o nn spur a) = Some (s', ev1) -> live o = true -> wCnt live s <= n ->
  exists op p tv pv, w_ops (c_w s) !! o = Some (WOp (SRun op p) tv pv) /\
   ((is_reader op = false /\ exists r, ERet o r ∈ ev1) \/
    wCnt live s' = wCnt live s /\ wPhi n live pos' s' + (if is_reader op then 0 else 1) <= wPhi n live pos s + 201 * if spur then 1 else 0).
Proof.
  intros Hw B B' L Hst Hlive Hn. destruct (step_info _ _ _ _ _ _ _ _ _ _ _ _ _ _ _ _ _ _ _ Hw B B' Hst) as (op & p & tv & pv & nx & tv' & pv' & acts & Ho & Hops & -> & Hf1 & Hf2 & Hi).
  exists op, p, tv, pv. split; [done|]. pose proof (b_ops _ _ _ _ _ _ _ B _ _ Ho) as (_ & Hpc & Hps & _). cbn [w_st] in Hpc, Hps. pose proof (sem_upd _ _ _ _ Hps) as Hu.
  assert (forall f, nx <> NFail f) as Hnf. { intros f ->. pose proof (b_ops _ _ _ _ _ _ _ B' o (WOp (nx_stat op (NFail f)) tv' pv')) as Hb. rewrite Hops, lookup_insert in Hb. specialize (Hb eq_refl). exact Hb. }
  pose proof (tl_minv _ _ _ _ (b_tl _ _ _ _ _ _ _ B) N ltac:(lia)) as Hm. rewrite (b_mem _ _ _ _ _ _ _ B) in Hm.
  pose proof (tl_minv _ _ _ _ (b_tl _ _ _ _ _ _ _ B') N' ltac:(lia)) as Hm'. rewrite (b_mem _ _ _ _ _ _ _ B') in Hm'.
  assert (m_freed (w_mem (c_w s)) = []) as Hfr by (apply wi_freed, (b_winv _ _ _ _ _ _ _ B)).
  pose proof (wCnt_step live s s' o _ _ Ho Hops) as Hcnt. unfold wind in Hcnt. rewrite Hlive in Hcnt. cbn [andb w_st modifying] in Hcnt.
  (* the memory is not changed: neither are the others *)
  assert (w_mem (c_w s') = w_mem (c_w s) -> w_hist (c_w s') = w_hist (c_w s) -> wPhi n live pos' s' + wstw n s o (WOp (SRun op p) tv pv) <= wPhi n live pos s + wstw n s' o (WOp (nx_stat op nx) tv' pv')) as Hsame.
  { intros E1 E2. unfold wPhi. rewrite E1 in Hm'. rewrite E1, (G_pos _ _ _ _ Hm Hm'). pose proof (wPsi_step n live s s' o _ _ Ho Hops Hlive) as Hp. cut (wPsi n live s' + wstw n s o (WOp (SRun op p) tv pv) <= wPsi n live s + wstw n s' o (WOp (nx_stat op nx) tv' pv')); [lia|]. apply Hp.
    intros o' y Hne _. unfold wstw. destruct (w_st y) as [op' q| | |]; try lia. destruct (is_reader op'); [lia|]. rewrite E1. rewrite (lag_same s s' o' o E1 E2); [lia|]. intros c. by apply Hf1. }
  destruct (is_reader op) eqn:Er; cbn [negb] in Hu.
  - right. assert (w_mem (c_w s') = w_mem (c_w s) /\ w_hist (c_w s') = w_hist (c_w s)) as [E1 E2].
    { destruct Hi as [M2 E1 E2|c kd ord v M1 M2 E1 E2|c kd ord v v' Hacc Hk]; [done|done|]. rewrite (upd_kind _ _ _ _ Hacc) in Hu; [done|]. destruct Hk as [?|[? _]]; auto. }
    specialize (Hsame E1 E2). assert (modifying (nx_stat op nx) = false) as Em by (destruct nx; simpl; by rewrite ?Er).
    assert (wstw n s' o (WOp (nx_stat op nx) tv' pv') = 0) as E0 by (unfold wstw; destruct nx; simpl; by rewrite ?Er). rewrite E0 in Hsame. rewrite Em in Hcnt. cbn [negb] in Hcnt. split; lia.
  - destruct nx as [p'|r|f]; [|left; split; [done|]; exists r; by apply nx_events_ret|by destruct (Hnf f)]. right.
    cbn [nx_stat modifying] in Hcnt. rewrite Er in Hcnt. cbn [negb] in Hcnt. split; [lia|]. cbn [nx_stat] in Hsame, Hops. unfold wstw in Hsame. cbn [w_st] in Hsame. rewrite Er in Hsame.
    destruct (upd_access _ _ _ _ Hpc Hu) as [acc Hacc0].
    destruct Hi as [M2 E1 E2 Hacc Hstep Hf|c kd ord v M1 M2 E1 E2 Hacc Hkd Hlose Hrd Hstep Hvn Hfc Hfx Hcd Hic|c kd ord v v' Hacc Hk Hv Hstep Hfx Hfc Hl Hv' Hvs Hoth Hnx Hnew].
    + congruence.
    + specialize (Hsame E1 E2). rewrite E1 in Hsame. destruct (read_pay (200 * (n + 1)) w ∅ pos _ o (w_mem (c_w s)) M1 p c kd ord v spur a M2 p' acts Hpc Hacc Hkd Hu Hlose Hrd) as [P1 P2]; [|done|].
      { intros Hc l i child -> El. eapply undoomed_cond; [exact El|by apply Hcd|done]. }
      pose proof (lag_read s s' o E1 E2 Hf2) as Hlag. assert (kd = ACas \/ kd <> ACas) as [->|Hnc] by (destruct kd; auto); [|specialize (P2 Hnc); lia].
      destruct (lose_differs _ _ _ _ _ _ _ Hacc eq_refl (Hlose eq_refl) Hrd) as [->|(e & He & Hne)]; [lia|].
      pose proof (lag_read_strict s s' o c e v E1 E2 Hf2 Hic) as Hstr. rewrite Hfc in Hstr. specialize (Hstr ltac:(eapply (wl_rem _ L); [exact Ho|by apply cas_rem]) Hvn Hne). lia.
    + clear Hsame. set (gs := {[o]} : gset opid). assert (op_step gs (vw o (w_mem (c_w s))) p spur a = Some (vw o (w_mem (c_w s')), NRun p', acts)) as Htag by (rewrite op_step_tag, Hstep; done).
      destruct (write_pay (200 * (n + 1)) w gs pos (vw o (w_mem (c_w s))) o p c kd ord spur a (vw o (w_mem (c_w s'))) p' acts) as (pos2 & Hmt & Hpay); [by apply tag_minv_1|by apply elem_of_singleton|by eapply vw_esafe|done|done|done| |done|].
      { destruct Hk as [?|[? ?]]; [by left|right]. split; [done|]. by rewrite cas_wins_tag. }
      assert (forall m, coreq m (vw o m)) as Hcv. { intros m. split; [done|]. split; [done|]. intros l. apply tag_dead. }
      rewrite !(phi0_core (200 * (n + 1)) _ _ _ (Hcv _)) in Hpay. rewrite !(coreq_G (200 * (n + 1)) _ _ _ _ (Hcv _)) in Hpay.
      pose proof (tag_minv_2 _ _ _ (mtr_minv _ _ _ _ _ (tag_minv_1 {[o]} _ _ Hm) Hmt)) as Hm2. assert (ext pos (w_mem (c_w s)) pos2 (w_mem (c_w s'))) as Hext by exact (mtr_ext _ _ _ _ _ (tag_minv_1 {[o]} _ _ Hm) Hmt).
      rewrite (G_pos _ _ _ _ Hm' Hm2) in Hpay.
      assert (lag s' o <= lag s o) as Hown by (by eapply lag_write_own).
      assert (forall o' y, o' <> o -> w_ops (c_w s) !! o' = Some y -> wstw n s' o' y <= wstw n s o' y + if modifying (w_st y) then 200 * (if decide (last (vals (w_hist (c_w s)) c) = Some v') then 0 else 1) else 0) as Hothers.
      { intros o' y Hne Hy. pose proof (b_ops _ _ _ _ _ _ _ B _ _ Hy) as Hb. unfold wstw. destruct (w_st y) as [op' q| | |]; cbn [modifying]; try lia. destruct (is_reader op') eqn:Er'; cbn [negb]; [lia|]. destruct Hb as (_ & Hq & _).
        pose proof (phi0_ext (200 * (n + 1)) _ _ _ _ _ _ Hext Hq). assert (lag s' o' <= lag s o' + (if decide (last (vals (w_hist (c_w s)) c) = Some v') then 0 else 1)); [|lia].
        eapply lag_write; try done. intros x. by rewrite Hf1. }
      assert (pos2 = pos -> coreq (vw o (w_mem (c_w s))) (vw o (w_mem (c_w s'))) -> wPhi n live pos' s' + phi0 (200 * (n + 1)) (w_mem (c_w s)) p <= wPhi n live pos s + phi0 (200 * (n + 1)) (w_mem (c_w s')) p') as Hcore.
      { intros -> Hco. assert (cval (w_mem (c_w s')) c = cval (w_mem (c_w s)) c) as Ec by exact (coreq_cval _ _ c Hco). rewrite Hv', Hv in Ec. injection Ec as ->.
        assert (coreq (w_mem (c_w s)) (w_mem (c_w s'))) as Hco'. { destruct Hco as (? & ? & Hd). split; [done|]. split; [done|]. intros l. specialize (Hd l). by rewrite !tag_dead in Hd. }
        unfold wPhi.
        assert (G (200 * (n + 1)) allt pos' (w_mem (c_w s')) = G (200 * (n + 1)) allt pos (w_mem (c_w s))) as EG.
        { rewrite <-(coreq_G (200 * (n + 1)) allt pos _ _ Hco'). apply G_pos; done. }
        pose proof (wPsi_step n live s s' o _ _ Ho Hops Hlive) as Hp. specialize (Hp ltac:(intros o' y Hne Hy; specialize (Hothers o' y Hne Hy); rewrite decide_True in Hothers by done; destruct (modifying (w_st y)); lia)).
        unfold wstw in Hp. cbn [w_st] in Hp. rewrite Er in Hp. lia. }
      destruct Hpay as [(-> & Hco & Hp)|[Hp|(-> & -> & Hco & Hp)]].
      * specialize (Hcore eq_refl Hco). lia.
      * pose proof (wPsi_big n live s s' o _ _ Ho Hops Hlive) as Hb. cbn [w_st modifying] in Hb. rewrite Er in Hb. specialize (Hb eq_refl).
        specialize (Hb ltac:(intros o' y Hne Hy; specialize (Hothers o' y Hne Hy); destruct (modifying (w_st y)); destruct (decide (last (vals (w_hist (c_w s)) c) = Some v')); lia)).
        unfold wstw in Hb. cbn [w_st] in Hb. rewrite Er in Hb. unfold wPhi. lia.
      * specialize (Hcore eq_refl Hco). lia.
Qed.
End wlocksys.
