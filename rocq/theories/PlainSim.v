(** * The machine without views (Plain.v) and the one with views (Rc11.v). *)
From Verif Require Import Model Mem Spec LinSpec Weak WeakInv WeakStep WeakSys WeakRun WeakCoh WeakFree Rc11 Rc11Sim PropRc11 Plain.

Section sim.
Context {C : Config}.

Section any.
Context (w : orders).
Implicit Types (s : pmach) (g : wstate) (p : pstate) (q : gstate) (m : mem) (c : cell) (o : opid).

Record msim s g : Prop := { ms_mem : pm_mem s = w_mem g; ms_hist : forall c, pm_hist s c = fst <$> w_hist g c; ms_ops : pm_ops s = w_st <$> w_ops g }.
Definition failed g o : Prop := exists x op, w_ops g !! o = Some x /\ w_st x = SFail op FUB.

Lemma see_cases tv pv m pc spur a : see_step tv pv m pc spur a = op_step ∅ m pc spur a \/ see_step tv pv m pc spur a = ok m (NFail FUB).
Proof. unfold see_step. destruct (op_step ∅ (hide tv pv m) pc spur a) as [[[m' [| |[]]] acts]|]; auto. Qed.
Lemma ops_insert g o st tv pv : <[o := st]> (w_st <$> w_ops g) = w_st <$> <[o := WOp st tv pv]> (w_ops g).
Proof. by rewrite fmap_insert. Qed.

Lemma local_sim s g o op tv pv m pc spur a : msim s g -> is_Some (op_step ∅ m pc spur a) -> exists g' ev', w_local g o op tv pv m pc spur a = Some (g', ev') /\
  ((forall m' nx acts, op_step ∅ m pc spur a = Some (m', nx, acts) -> msim (PM (pm_mem s) (pm_hist s) (<[o := nx_stat op nx]> (pm_ops s))) g' /\ ev' = nx_events o nx acts) \/ failed g' o /\ w_mem g' = w_mem g).
Proof.
  intros H [[[m' nx] acts] Hs]. unfold w_local. destruct (see_cases tv pv m pc spur a) as [->| ->]; [rewrite Hs|]; eexists _, _; (split; [done|]).
  - left. intros m'' nx'' acts'' [= <- <- <-]. split; [|done]. split; [apply H|apply H|]. simpl. rewrite (ms_ops _ _ H). apply ops_insert.
  - right. split; [|done]. eexists _, op. simpl. split; [apply lookup_insert|done].
Qed.
Lemma local_none g o op tv pv m pc spur a : op_step ∅ m pc spur a = None -> forall g' ev', w_local g o op tv pv m pc spur a = Some (g', ev') -> failed g' o.
Proof.
  intros H g' ev'. unfold w_local. destruct (see_cases tv pv m pc spur a) as [->| ->]; [by rewrite H|]. intros [= <- _]. eexists _, op. simpl. split; [apply lookup_insert|done].
Qed.
Lemma hist_fmap m m' (h1 : cell -> list sh) (h2 : cell -> list msg) c (v : sh) (W : view) c' : (forall c, h1 c = fst <$> h2 c) ->
  p_write (p_alloc m m' h1) c v c' = fst <$> hist_write (hist_alloc m m' h2) c (v, W) c'.
Proof.
  intros H. assert (forall c, p_alloc m m' h1 c = fst <$> hist_alloc m m' h2 c) as Ha.
  { intros [|l i]; simpl; [apply H|]. destruct (decide _); [|apply H]. by destruct (ptrs m' l !! i). }
  unfold p_write. destruct (decide (c' = c)) as [->|Hne]; [rewrite hist_write_eq|rewrite hist_write_ne by done; apply Ha]. rewrite fmap_app. simpl. by rewrite Ha.
Qed.
Lemma write_sim s g o op tv pv m c ord pc spur a : msim s g -> is_Some (op_step ∅ m pc spur a) -> exists g' ev', w_write (with_mem g m) o op tv pv c ord pc spur a = Some (g', ev') /\
  ((forall m' nx acts, op_step ∅ m pc spur a = Some (m', nx, acts) ->
      msim (PM m' (p_write (p_alloc m m' (pm_hist s)) c (default sh_null (read_cell m' c))) (<[o := nx_stat op nx]> (pm_ops s))) g' /\ ev' = nx_events o nx acts) \/ failed g' o /\ m_garb (w_mem g') = m_garb m).
Proof.
  intros H [[[m' nx] acts] Hs]. unfold w_write. cbn [w_mem with_mem]. destruct (see_cases tv pv m pc spur a) as [->| ->]; [rewrite Hs|]; eexists _, _; (split; [done|]).
  - left. intros m'' nx'' acts'' [= <- <- <-]. split; [|done]. split; simpl; [done| |].
    + intros c'. apply hist_fmap. apply H.
    + rewrite (ms_ops _ _ H). apply ops_insert.
  - right. split; [|done]. eexists _, op. simpl. split; [apply lookup_insert|done].
Qed.
Lemma write_none g o op tv pv m c ord pc spur a : op_step ∅ m pc spur a = None -> forall g' ev', w_write (with_mem g m) o op tv pv c ord pc spur a = Some (g', ev') -> failed g' o.
Proof.
  intros H g' ev'. unfold w_write. cbn [w_mem with_mem]. destruct (see_cases tv pv m pc spur a) as [->| ->]; [by rewrite H|]. intros [= <- _]. eexists _, op. simpl. split; [apply lookup_insert|done].
Qed.

Definition acc_opt (y : option xstep) : option acc := match y with Some x => acc_of w x | None => None end.
Lemma write_garb m c v : m_garb (write_cell m c v) = m_garb m.
Proof. by destruct c. Qed.

Lemma call_sim s g who1 who2 o r spur a : msim s g -> (forall c, who1 c = who2 c) ->
  match pcall w s who1 o r spur a with
  | Some (s', ev, y) => exists g' ev' y', gcall w g who2 o r spur a = Some (g', ev', y') /\
      ((msim s' g' /\ ev' = ev /\ y' = acc_opt y) \/ failed g' o /\ (y' = None \/ y' = acc_opt y) /\ m_garb (w_mem g') = m_garb (w_mem g))
  | None => forall g' ev' y', gcall w g who2 o r spur a = Some (g', ev', y') -> failed g' o
  end.
Proof.
  intros H Hwho. unfold pcall, gcall. rewrite (ms_ops _ _ H), lookup_fmap. destruct (w_ops g !! o) as [[st tv pv]|] eqn:Ho; simpl; [|done]. destruct st as [op pc| | |]; try done. cbn zeta.
  assert (forall m pc c k ord, access w pc = Some (c, k, ord) -> acc_opt (Some (XStep o pc r m spur a)) = Some (Acc o c r (writes_cell m pc spur k))) as Hacc.
  { intros m pc0 c k ord A. simpl. unfold acc_of. simpl. by rewrite A. }
  destruct (access w pc) as [[[c k] ord]|] eqn:A.
  2:{ rewrite (ms_mem _ _ H). destruct (op_step ∅ (w_mem g) pc spur a) as [[[m' nx] acts]|] eqn:E.
      - destruct (local_sim s g o op tv pv (w_mem g) pc spur a H ltac:(by rewrite E)) as (g' & ev' & -> & Hc). exists g', ev', None. split; [done|]. destruct Hc as [Hc|[Hf Hm]].
        + left. destruct (Hc _ _ _ E) as [Hc1 ->]. rewrite (ms_mem _ _ H) in Hc1. rewrite (ms_ops _ _ H) in Hc1. split; [exact Hc1|]. split; [done|]. simpl. unfold acc_of. simpl. by rewrite A.
        + right. split; [done|]. split; [by left|]. by rewrite Hm.
      - intros g' ev' y'. destruct (w_local g o op tv pv (w_mem g) pc spur a) as [[g1 e1]|] eqn:E1; [|done]. intros [= <- _ _]. by eapply local_none. }
  rewrite (Hwho c). destruct (who2 c) as [|g0 gr] eqn:Ew.
  { eexists _, [], None. assert (failed (WState (w_mem g) (w_hist g) (<[o:=WOp (SFail op FUB) tv pv]> (w_ops g))) o) as Hf. { eexists _, op. simpl. split; [apply lookup_insert|done]. }
    destruct (negb (base_seen tv pv c)); (split; [done|]); left; (split; [|done]); (split; [apply H|apply H|]); simpl; apply ops_insert. }
  destruct (negb (base_seen tv pv c)).
  { assert (failed (WState (w_mem g) (w_hist g) (<[o:=WOp (SFail op FUB) tv pv]> (w_ops g))) o) as Hf. { eexists _, op. simpl. split; [apply lookup_insert|done]. }
    match goal with |- match ?z with _ => _ end => destruct z as [[[s' ev] y]|] end; [|by intros g' ev' y' [= <- _ _]]. eexists _, _, _. split; [done|]. right. split; [exact Hf|]. split; [by left|done]. }
  destruct (list_find (fun x : gev => x = r) (g0 :: gr)) as [[n g1]|] eqn:Ef; [|done]. assert (pm_hist s c !! n = fst <$> (w_hist g c !! n)) as Ep by (rewrite (ms_hist _ _ H); apply list_lookup_fmap).
  destruct (w_hist g c !! n) as [[v W]|] eqn:Eh; rewrite Ep; cbn [fmap option_fmap option_map fst]; [|done].
  rewrite (ms_mem _ _ H). set (sn := write_cell (w_mem g) c v).
  destruct (op_step ∅ sn pc spur a) as [[[m' nx] acts]|] eqn:E.
  - assert (is_Some (op_step ∅ sn pc spur a)) as Hs by (by rewrite E).
    assert (forall tv' pv', exists g' ev' y', (match w_local g o op tv' pv' sn pc spur a with Some (s', ev) => Some (s', ev, Some (Acc o c r false)) | None => None end) = Some (g', ev', y') /\
      ((msim (PM (w_mem g) (pm_hist s) (<[o := nx_stat op nx]> (w_st <$> w_ops g))) g' /\ ev' = nx_events o nx acts /\ y' = Some (Acc o c r false)) \/ failed g' o /\ y' = Some (Acc o c r false) /\ m_garb (w_mem g') = m_garb (w_mem g))) as Hl.
    { intros tv' pv'. destruct (local_sim s g o op tv' pv' sn pc spur a H Hs) as (g' & ev' & -> & Hc). eexists _, _, _. split; [done|]. destruct Hc as [Hc|[Hf Hm]].
      - left. destruct (Hc _ _ _ E) as [Hc1 ->]. rewrite (ms_mem _ _ H), (ms_ops _ _ H) in Hc1. done.
      - right. split; [done|]. split; [done|]. by rewrite Hm. }
    assert (forall tv' pv', exists g' ev' y', (match w_write (with_mem g sn) o op tv' pv' c ord pc spur a with Some (s', ev) => Some (s', ev, Some (Acc o c r true)) | None => None end) = Some (g', ev', y') /\
      ((msim (PM m' (p_write (p_alloc sn m' (pm_hist s)) c (default sh_null (read_cell m' c))) (<[o := nx_stat op nx]> (w_st <$> w_ops g))) g' /\ ev' = nx_events o nx acts /\ y' = Some (Acc o c r true)) \/
        failed g' o /\ y' = Some (Acc o c r true) /\ m_garb (w_mem g') = m_garb (w_mem g))) as Hw.
    { intros tv' pv'. destruct (write_sim s g o op tv' pv' sn c ord pc spur a H Hs) as (g' & ev' & -> & Hc). eexists _, _, _. split; [done|]. destruct Hc as [Hc|[Hf Hm]].
      - left. destruct (Hc _ _ _ E) as [Hc1 ->]. rewrite (ms_ops _ _ H) in Hc1. done.
      - right. split; [done|]. split; [done|]. rewrite Hm. apply write_garb. }
    rewrite (Hacc _ _ _ _ _ A). destruct k; cbn [writes_cell].
    + destruct (Hl (tv_read ord tv W) (pv_read ord pv c v W)) as (g' & ev' & y' & -> & Hc). eexists _, _, _. split; [done|]. destruct Hc as [Hc|(X1 & X2 & X3)]; [by left|right; auto].
    + destruct (Hl tv pv) as (g' & ev' & y' & -> & Hc). eexists _, _, _. split; [done|]. destruct Hc as [Hc|(X1 & X2 & X3)]; [by left|right; auto].
    + destruct (Hw (tv_read ord tv W) (pv_read ord pv c v W)) as (g' & ev' & y' & -> & Hc). eexists _, _, _. split; [done|]. destruct Hc as [Hc|(X1 & X2 & X3)]; [by left|right; auto].
    + destruct (cas_wins sn pc spur).
      * destruct (Hw (tv_read ord tv W) pv) as (g' & ev' & y' & -> & Hc). eexists _, _, _. split; [done|]. destruct Hc as [Hc|(X1 & X2 & X3)]; [by left|right; auto].
      * destruct (Hl tv pv) as (g' & ev' & y' & -> & Hc). eexists _, _, _. split; [done|]. destruct Hc as [Hc|(X1 & X2 & X3)]; [by left|right; auto].
  - intros g' ev' y' X.
    assert (forall tv' pv' z, (match w_local g o op tv' pv' sn pc spur a with Some (s', ev) => Some (s', ev, z : option acc) | None => None end) = Some (g', ev', y') -> failed g' o) as Hl.
    { intros tv' pv' z Y. destruct (w_local g o op tv' pv' sn pc spur a) as [[g2 e2]|] eqn:E2; [|done]. injection Y as <- _ _. by eapply local_none. }
    assert (forall tv' pv' z, (match w_write (with_mem g sn) o op tv' pv' c ord pc spur a with Some (s', ev) => Some (s', ev, z : option acc) | None => None end) = Some (g', ev', y') -> failed g' o) as Hw.
    { intros tv' pv' z Y. destruct (w_write (with_mem g sn) o op tv' pv' c ord pc spur a) as [[g2 e2]|] eqn:E2; [|done]. injection Y as <- _ _. by eapply write_none. }
    destruct k; [by eapply Hl|by eapply Hl|by eapply Hw|]. destruct (cas_wins sn pc spur); [by eapply Hw|by eapply Hl].
Qed.

(** ** The whole state *)
Record psim p q : Prop := {
  ps_m : msim (p_m p) (g_w q); ps_who : forall c, p_who p c = g_who q c; ps_regs : p_regs p = g_regs q; ps_sync : forall o, p_sync p o = g_sync q o; ps_done : p_done p = g_done q;
  ps_gone : p_gone p = g_gone q; ps_dropped : p_dropped p = g_dropped q; ps_ub : p_ub p = g_ub q; ps_log : accs_of w (p_log p) = g_log q }.

Lemma psim_init : psim pinit ginit.
Proof. split; try done. split; try done. - by intros [|]. - simpl. by rewrite fmap_empty. Qed.
Lemma alive_sim p q o : psim p q -> p_alive p o = g_alive q o.
Proof. intros H. unfold p_alive, g_alive. apply bool_decide_ext. rewrite (ps_gone _ _ H), (ms_ops _ _ (ps_m _ _ H)), lookup_fmap, fmap_is_Some. done. Qed.
Lemma returned_sim p q o : psim p q -> p_returned (p_m p) o = is_returned (g_w q) o.
Proof. intros H. unfold p_returned, is_returned. rewrite (ms_ops _ _ (ps_m _ _ H)), lookup_fmap. by destruct (w_ops (g_w q) !! o) as [[[] ? ?]|]. Qed.
Lemma all_alive_sim p q (P P' : opid -> bool) : psim p q -> (forall o, P o = P' o) -> p_all_alive p P = g_all_alive q P'.
Proof.
  intros H HP. unfold p_all_alive, g_all_alive. rewrite (ps_gone _ _ H). apply eq_true_iff_eq. rewrite !forallb_forall. split; intros X [o y] Hin; apply elem_of_list_In, elem_of_map_to_list in Hin; simpl.
  - specialize (X (o, w_st y)). simpl in X. rewrite <-HP. apply X. apply elem_of_list_In, elem_of_map_to_list. rewrite (ms_ops _ _ (ps_m _ _ H)), lookup_fmap, Hin. done.
  - rewrite (ms_ops _ _ (ps_m _ _ H)), lookup_fmap in Hin. destruct (w_ops (g_w q) !! o) as [z|] eqn:Ez; [|done]. specialize (X (o, z)). simpl in X. rewrite HP. apply X. by apply elem_of_list_In, elem_of_map_to_list.
Qed.
Lemma log_len p q : psim p q -> length (p_log p) = length (g_log q).
Proof. intros H. rewrite <-(ps_log _ _ H). unfold accs_of. by rewrite fmap_length. Qed.
Lemma accs_snoc L y : accs_of w (L ++ [y]) = accs_of w L ++ [acc_opt y].
Proof. unfold accs_of. by rewrite fmap_app. Qed.

Definition some_failed q : Prop := exists o, failed (g_w q) o.
(** [q'] has less than [p'] in its graph. *)
Definition part_of q' p' : Prop := (forall t x, g_log q' !! t = Some (Some x) -> accs_of w (p_log p') !! t = Some (Some x)) /\ g_regs q' `prefix_of` p_regs p'.

Lemma forallb_cong {A} (f h : A -> bool) (l : list A) : (forall x, f x = h x) -> forallb f l = forallb h l.
Proof. intros H. induction l; simpl; [done|]. by rewrite H, IHl. Qed.
Lemma msim_mem s g m : msim s g -> msim (PM m (pm_hist s) (pm_ops s)) (with_mem g m).
Proof. intros H. split; [done|apply H|apply H]. Qed.

Lemma step_sim p q lb : psim p q ->
  match pstep w p lb with
  | Some (p', ev) => exists q' ev', gstep w q lb = Some (q', ev') /\ ((psim p' q' /\ ev' = ev) \/ some_failed q' /\ part_of q' p')
  | None => forall q' ev', gstep w q lb = Some (q', ev') -> some_failed q'
  end.
Proof.
  intros H. pose proof (log_len _ _ H) as HT. pose proof (ms_mem _ _ (ps_m _ _ H)) as HM. assert (p_mem p = g_mem q) as HM' by done.
  assert (forall pm gw sy sy' dn go dr ub, msim pm gw -> (forall o, sy o = sy' o) -> psim (PState pm (p_who p) (g_regs q) sy dn go dr ub (p_log p ++ [None])) (GState gw (g_who q) (g_regs q) sy' dn go dr ub (g_log q ++ [None]))) as HQ.
  { intros. split; simpl; try done; try apply H. rewrite accs_snoc, (ps_log _ _ H). done. }
  destruct lb as [o op ps ds|o r spur a|o|o|i|]; cbn [pstep gstep].
  - rewrite (ps_dropped _ _ H), (ps_regs _ _ H), (ps_done _ _ H), (forallb_cong (p_returned (p_m p)) (is_returned (g_w q))) by (intros; by apply returned_sim).
    destruct (_ && _); [|done]. cbn [wstep]. rewrite (ms_ops _ _ (ps_m _ _ H)), lookup_fmap. destruct (w_ops (g_w q) !! o) as [y|] eqn:Eo; simpl; [done|]. eexists _, _. split; [done|]. left. split; [|done].
    rewrite (ps_gone _ _ H), (ps_ub _ _ H). apply HQ.
    + split; simpl; [by rewrite HM'|apply H|]. apply ops_insert.
    + intros o'. destruct (decide _); [done|]. apply H.
  - rewrite (alive_sim _ _ _ H). destruct (g_alive q o); [|done]. pose proof (call_sim (p_m p) (g_w q) (p_who p) (g_who q) o r spur a (ps_m _ _ H) (ps_who _ _ H)) as Hc.
    destruct (pcall w (p_m p) (p_who p) o r spur a) as [[[pm ev] y]|].
    + destruct Hc as (g' & ev' & y' & -> & Hc). eexists _, _. split; [done|]. destruct Hc as [(Hm & -> & ->)|(Hf & Hy & Hg)].
      * left. split; [|done]. split; simpl; try apply H.
        -- done.
        -- intros c. rewrite (ps_who _ _ H), HT. unfold p_grow, grow. rewrite (ms_hist _ _ Hm), fmap_length. done.
        -- rewrite (ps_regs _ _ H), HM', HT, (ms_mem _ _ Hm). done.
        -- rewrite accs_snoc, (ps_log _ _ H). done.
      * right. split; [by exists o|]. split; simpl.
        -- intros t x Hx. rewrite accs_snoc, (ps_log _ _ H). apply lookup_app_Some in Hx as [Hx|[Hl Hx]]; [by apply lookup_app_l_Some|]. apply list_lookup_singleton_Some in Hx as [E ->]. rewrite lookup_app_r by done.
           apply list_lookup_singleton_Some. split; [done|]. by destruct Hy.
        -- unfold g_mem. rewrite Hg, Nat.sub_diag. simpl. rewrite app_nil_r, (ps_regs _ _ H). by eexists.
    + intros q' ev'. destruct (gcall w (g_w q) (g_who q) o r spur a) as [[[g1 e1] y1]|] eqn:E; [|done]. intros [= <- _]. exists o. simpl. by eapply Hc.
  - rewrite (alive_sim _ _ _ H), (returned_sim _ _ _ H). destruct (_ && _); [|done]. eexists _, _. split; [done|]. left. split; [|done]. rewrite (ps_regs _ _ H), (ps_done _ _ H), (ps_gone _ _ H), (ps_dropped _ _ H), (ps_ub _ _ H). apply HQ; apply H.
  - rewrite (alive_sim _ _ _ H), (returned_sim _ _ _ H). destruct (_ && _); [|done]. eexists _, _. split; [done|]. left. split; [|done]. rewrite (ps_regs _ _ H), (ps_done _ _ H), (ps_gone _ _ H), (ps_dropped _ _ H), (ps_ub _ _ H). apply HQ; apply H.
  - rewrite (ps_regs _ _ H). destruct (g_regs q !! i) as [[[l k] t]|] eqn:Er; [|done]. rewrite (ps_done _ _ H), (all_alive_sim p q _ (fun o => bool_decide (i ∈ g_sync q o)) H) by (intros o; by rewrite (ps_sync _ _ H)).
    destruct (_ && _); [|done]. eexists _, _. split; [done|]. left. split; [|done]. rewrite HM', (ps_gone _ _ H), (ps_dropped _ _ H), (ps_ub _ _ H). apply HQ; [|apply H]. apply msim_mem, H.
  - rewrite (ps_dropped _ _ H), (all_alive_sim p q _ (fun _ => false) H) by done. destruct (_ && _); [|done]. rewrite HM'. destruct (drop_rec _ _ _) as [fs|].
    + eexists _, _. split; [done|]. left. split; [|done]. rewrite (ps_regs _ _ H), (ps_gone _ _ H), (ps_done _ _ H), (ps_ub _ _ H). apply HQ; [|apply H]. apply msim_mem, H.
    + eexists _, _. split; [done|]. left. split; [|done]. rewrite (ps_regs _ _ H), (ps_gone _ _ H), (ps_done _ _ H). apply HQ; apply H.
Qed.

Lemma prun_app (s : pstate) l1 (s1 : pstate) e1 l2 : prun w s l1 = Some (s1, e1) -> prun w s (l1 ++ l2) = match prun w s1 l2 with Some (s2, e2) => Some (s2, e1 ++ e2) | None => None end.
Proof.
  revert s e1. induction l1 as [|lb l1 IH]; intros s e1 H; simpl in *; [injection H as <- <-; by destruct (prun w s l2) as [[? ?]|]|]. destruct (pstep w s lb) as [[s' e]|]; [|done].
  destruct (prun w s' l1) as [[s'' e']|] eqn:E; [|done]. injection H as <- <-. rewrite (IH _ _ E). destruct (prun w s'' l2) as [[? ?]|]; [|done]. by rewrite app_assoc.
Qed.
Lemma prun_snoc (s : pstate) l1 lb (s2 : pstate) e : prun w s (l1 ++ [lb]) = Some (s2, e) -> exists (s1 : pstate) e1 e2, prun w s l1 = Some (s1, e1) /\ pstep w s1 lb = Some (s2, e2) /\ e = e1 ++ e2.
Proof.
  revert s e. induction l1 as [|x l1 IH]; intros s e H; simpl in *.
  - destruct (pstep w s lb) as [[s' e']|] eqn:E; [|done]. injection H as <- <-. exists s, [], e'. by rewrite app_nil_r.
  - destruct (pstep w s x) as [[s' e0]|]; [|done]. destruct (prun w s' (l1 ++ [lb])) as [[s'' e']|] eqn:E; [|done]. injection H as <- <-. destruct (IH _ _ E) as (s1 & e1 & e2 & -> & E2 & ->). exists s1, (e0 ++ e1), e2.
    by rewrite app_assoc.
Qed.
Lemma pstep_mono p lb p' ev : pstep w p lb = Some (p', ev) -> (exists y, p_log p' = p_log p ++ [y]) /\ p_regs p `prefix_of` p_regs p'.
Proof.
  intros H. destruct lb as [o op ps ds|o r spur a|o|o|i|]; cbn [pstep] in H.
  - destruct (_ && _); [|done]. destruct (pm_ops (p_m p) !! o); [done|]. injection H as <- _. simpl. eauto.
  - destruct (p_alive p o); [|done]. destruct (pcall _ _ _ _ _ _ _) as [[[? ?] ?]|]; [|done]. injection H as <- _. simpl. split; [eauto|]. by eexists.
  - destruct (_ && _); [|done]. injection H as <- _. simpl. eauto.
  - destruct (_ && _); [|done]. injection H as <- _. simpl. eauto.
  - destruct (p_regs p !! i) as [[[? ?] ?]|]; [|done]. destruct (_ && _); [|done]. injection H as <- _. simpl. eauto.
  - destruct (_ && _); [|done]. destruct (drop_rec _ _ _); injection H as <- _; simpl; eauto.
Qed.
End any.

Lemma plookup {A} (l k : list A) i x : l `prefix_of` k -> l !! i = Some x -> k !! i = Some x.
Proof. intros [m ->] H. by apply lookup_app_l_Some. Qed.

(** Part of a graph that satisfies the axioms satisfies them. *)
Lemma consistent_sub (ls ls' : list glabel) L L' regs regs' mo hb : consistent ls L regs mo hb -> ls' `prefix_of` ls -> (forall t x, L' !! t = Some (Some x) -> L !! t = Some (Some x)) -> regs' `prefix_of` regs ->
  exists mo', consistent ls' L' regs' mo' hb.
Proof.
  intros [X1 X2 X3 X4 X5 X6 X7 X8] Hls HL Hr. set (mo' := fun e1 e2 => mo e1 e2 /\ exists c, writes L' c e1 /\ writes L' c e2). exists mo'.
  assert (forall c e, writes L' c e -> writes L c e) as HW. { intros c [c'|t]; simpl; [done|]. intros (x & A & B). exists x. split; [by apply HL|done]. }
  assert (forall c c' e, writes L' c e -> writes L' c' e -> c = c') as Huniq.
  { intros c c' [c0|t]; simpl; [congruence|]. intros (x & A & B & _) (x' & A' & B' & _). unfold access_at in *. congruence. }
  assert (forall e1 e2, rf L' e1 e2 -> rf L e1 e2) as Hrf. { intros e1 e2 H. destruct H as [t x A]. constructor. by apply HL. }
  assert (forall e1 e2, fr L' mo' e1 e2 -> fr L mo e1 e2) as Hfr. { intros e1 e2 (e & A & [B _] & D). exists e. auto. }
  assert (forall e1 e2, eco L' mo' e1 e2 -> eco L mo e1 e2) as Heco. { intros e1 e2 H. induction H as [e1 e2 H|e1 e2 [H _]|e1 e2 H|]; [by apply eco_rf, Hrf|by apply eco_mo|by apply eco_fr, Hfr|by eapply eco_trans]. }
  assert (forall t lb, ls' !! t = Some lb -> ls !! t = Some lb) as Hlb by (intros ? ? X; exact (plookup _ _ _ _ Hls X)).
  assert (forall t o, of_call ls' t o -> of_call ls t o) as Hof. { intros t o (lb & A & B). exists lb. auto. }
  split.
  - intros e1 e2 [_ H]. exact H.
  - intros e1 e2 e3 [A (c & A1 & A2)] [B (c' & B1 & B2)]. rewrite (Huniq _ _ _ B1 A2) in B2. split; [by eapply X2|]. by exists c.
  - intros c e1 e2 A B Hne. destruct (X3 c e1 e2 (HW _ _ A) (HW _ _ B) Hne); [left|right]; (split; [done|]); by exists c.
  - intros t1 t2 H. apply X4. destruct H as [t1 t2 o A B D|t1 t2 o op ps ds p A B D E|t1 t2 o op ps ds d l k A B D].
    + eapply edge_po; eauto.
    + eapply edge_call; eauto.
    + eapply edge_reg; [eauto|eauto|]. exact (plookup _ _ _ _ Hr D).
  - exact X5.
  - intros e H. by eapply X6, Heco.
  - intros e1 e2 A B. by eapply X7, Heco.
  - intros e1 e2 A [B _]. by eapply X8; [apply Hfr|].
Qed.

Context {HC : ConfigOk C}.
Lemma wf_prefix (ls : list glabel) lb : wf_gcalls (ls ++ [lb]) -> wf_gcalls ls.
Proof. intros H o op ps ds Hin. eapply H. apply elem_of_app. left. exact Hin. Qed.

(** Whatever the machine without views does, the one with views does: no step looks at something that is not in its view. *)
Theorem plain_views ls p ev : wf_gcalls ls -> pallowed code_orders ls p ev -> exists q, allowed code_orders ls q ev /\ psim code_orders p q.
Proof.
  revert p ev. induction ls as [|lb ls IH] using rev_ind; intros p ev Hwf [He (mo & hb & Hc)].
  { injection He as <- <-. exists ginit. split; [|apply psim_init]. split; [done|]. exists mo, hb. exact Hc. }
  destruct (prun_snoc _ _ _ _ _ _ He) as (p1 & e1 & e2 & He1 & Hs & ->). pose proof (wf_prefix _ _ Hwf) as Hwf1. destruct (pstep_mono _ _ _ _ _ Hs) as [[y Hy] Hr].
  assert (ls `prefix_of` ls ++ [lb]) as Hpre by (by exists [lb]).
  destruct (IH p1 e1 Hwf1) as (q1 & [Hq1 _] & Hsim).
  { split; [exact He1|]. destruct (consistent_sub _ ls _ (accs_of code_orders (p_log p1)) _ (p_regs p1) _ _ Hc Hpre) as [mo' Hc']; [|exact Hr|by exists mo', hb].
    intros t x Hx. rewrite Hy, accs_snoc. by apply lookup_app_l_Some. }
  pose proof (step_sim code_orders p1 q1 lb Hsim) as Hst. rewrite Hs in Hst. destruct Hst as (q' & ev' & Hq' & Hst).
  assert (gexec code_orders (ls ++ [lb]) q' (e1 ++ ev')) as Hg. { unfold gexec. rewrite (grun_app _ _ _ _ _ Hq1). simpl. rewrite Hq'. by rewrite app_nil_r. }
  destruct Hst as [[Hsim' ->]|[(o & x & op & Ho & Hst) [HL HR]]].
  - exists q'. split; [|done]. split; [done|]. exists mo, hb. by rewrite <-(ps_log _ _ _ Hsim'), <-(ps_regs _ _ _ Hsim').
  - exfalso. destruct (consistent_sub _ (ls ++ [lb]) _ (g_log q') _ (g_regs q') _ _ Hc (reflexivity _) HL HR) as [mo' Hc'].
    destruct (C57_no_use_after_free (ls ++ [lb]) q' (e1 ++ ev') Hwf) as [Hnf _]; [split; [done|by exists mo', hb]|]. by eapply Hnf.
Qed.
Theorem views_plain ls q ev : wf_gcalls ls -> allowed code_orders ls q ev -> exists p, pallowed code_orders ls p ev /\ psim code_orders p q.
Proof.
  revert q ev. induction ls as [|lb ls IH] using rev_ind; intros q ev Hwf Ha; pose proof Ha as [He (mo & hb & Hc)].
  { injection He as <- <-. exists pinit. split; [|apply psim_init]. split; [done|]. exists mo, hb. exact Hc. }
  destruct (grun_split _ _ _ _ _ He) as (q1 & e1 & e2 & He1 & Hs & ->). simpl in Hs. destruct (gstep code_orders q1 lb) as [[q' ev']|] eqn:Hq'; [|done]. injection Hs as <- <-. rewrite app_nil_r in *.
  pose proof (wf_prefix _ _ Hwf) as Hwf1. destruct (gstep_mono _ _ _ _ Hq') as (Hl & Hr & _). assert (ls `prefix_of` ls ++ [lb]) as Hpre by (by exists [lb]).
  destruct (IH q1 e1 Hwf1) as (p1 & [Hp1 _] & Hsim).
  { split; [exact He1|]. destruct (consistent_sub _ ls _ (g_log q1) _ (g_regs q1) _ _ Hc Hpre) as [mo' Hc']; [|exact Hr|by exists mo', hb]. intros t x Hx. exact (plookup _ _ _ _ Hl Hx). }
  assert (~ some_failed q') as Hnf. { intros (o & x & op & Ho & Hst). destruct (C57_no_use_after_free _ _ _ Hwf Ha) as [Hn _]. by eapply Hn. }
  pose proof (step_sim code_orders p1 q1 lb Hsim) as Hst. destruct (pstep code_orders p1 lb) as [[p' ev'']|] eqn:Hp'; [|exfalso; by eapply Hnf, Hst].
  destruct Hst as (q'' & ev3 & E & Hst). rewrite Hq' in E. injection E as <- <-. destruct Hst as [[Hsim' ->]|[Hf _]]; [|done].
  exists p'. split; [|done]. split; [|exists mo, hb; by rewrite (ps_log _ _ _ Hsim'), (ps_regs _ _ _ Hsim')]. unfold pexec. rewrite (prun_app _ _ _ _ _ _ Hp1). simpl. rewrite Hp'. by rewrite app_nil_r.
Qed.
End sim.
