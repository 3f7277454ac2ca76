(** * The axioms imply what the machine of WeakFree.v assumes. *)
From Verif Require Import Model Mem Spec Iter IterSpec IterSys Weak WeakInv WeakStep WeakSys WeakRun LinSpec Inv WeakCoh WeakWalk WeakTime WeakBase WeakLin PropWeak WeakFree FreeSim FreeStep FreeInv FreeRun PropFree Rc11.

Section sim.
Context {C : Config} {HC : ConfigOk C}.
Notation w := code_orders.
Implicit Types (s : gstate) (f : fstate) (ev : list event) (c : cell) (m : mem).

(** ** The machine of WeakFree.v: the memory shows the newest values *)
Lemma write_same m c v : cval m c = Some v -> write_cell m c v = m.
Proof.
  destruct c as [|l i]; simpl.
  - intros [= <-]. by destruct m.
  - unfold cval. unfold hbody. destruct (m_heap m !! l) as [[a [sl|it]]|] eqn:E; simpl; try done. intros Hi. replace (alter (set_slot i v) l (m_heap m)) with (m_heap m); [by destruct m|].
    apply map_eq. intros l'. destruct (decide (l' = l)) as [->|Hne]; [|by rewrite lookup_alter_ne]. rewrite lookup_alter, E. simpl. unfold set_slot. simpl. by rewrite list_insert_id.
Qed.
Lemma f_newest fls f ev c v W : wf_fcalls fls -> fexec w fls f ev -> last (w_hist (c_w (f_c f)) c) = Some (v, W) -> write_cell (f_mem f) c v = f_mem f.
Proof.
  intros Hwf He Hl. destruct (fexec_inv _ _ _ _ code_strong Hwf He) as (M & H & N & pos & ll & b & Hc & I & _). pose proof (fi_b _ _ _ _ _ _ _ _ I) as B.
  apply write_same. rewrite <-bm_cval. unfold f_mem. rewrite <-(ws_mem _ _ (cs_w _ _ (fi_sim _ _ _ _ _ _ _ _ I))), <-(b_mem _ _ _ _ _ _ _ B), <-(tl_last _ _ _ _ (b_tl _ _ _ _ _ _ _ B)) by lia.
  rewrite (b_hist _ _ _ _ _ _ _ B). unfold vals. rewrite (ws_hist _ _ (cs_w _ _ (fi_sim _ _ _ _ _ _ _ _ I))), fmap_last. exact (f_equal (fmap fst) Hl).
Qed.
Lemma f_fresh fls f ev i : wf_fcalls fls -> fexec w fls f ev -> w_hist (c_w (f_c f)) (CSlot (m_next (f_mem f)) i) = [].
Proof.
  intros Hwf He. destruct (fexec_inv _ _ _ _ code_strong Hwf He) as (M & H & N & pos & ll & b & Hc & I & _). pose proof (fi_b _ _ _ _ _ _ _ _ I) as B.
  rewrite <-(ws_hist _ _ (cs_w _ _ (fi_sim _ _ _ _ _ _ _ _ I))). apply last_None.
  destruct (last (w_hist (c_w b) (CSlot (m_next (f_mem f)) i))) as [[v W]|] eqn:El; [exfalso|done].
  assert (cval (M N) (CSlot (m_next (f_mem f)) i) = Some v) as Hv. { rewrite <-(tl_last _ _ _ _ (b_tl _ _ _ _ _ _ _ B)) by lia. rewrite (b_hist _ _ _ _ _ _ _ B). unfold vals. rewrite fmap_last. exact (f_equal (fmap fst) El). }
  apply cval_slot in Hv as (sl & Hb & _). assert (m_next (M N) = m_next (f_mem f)) as En by (by rewrite (b_mem _ _ _ _ _ _ _ B), (ws_mem _ _ (cs_w _ _ (fi_sim _ _ _ _ _ _ _ _ I)))).
  pose proof (next_fresh _ _ (fi_minv _ _ _ _ _ _ _ _ I)) as Hn. congruence.
Qed.

Section graph.
Context (ls : list glabel) (L : list (option acc)) (R : list (loc * dkind * nat)) (mo hb : gev -> gev -> Prop) (K : consistent ls L R mo hb).

(** What an access makes known about the cell. *)
Definition latest (t : nat) (x : acc) : gev := if a_wr x then At t else a_rf x.
(** Step [t'] comes after an access that made value number [n] of [c] known. *)
Definition wit (who : cell -> list gev) (t' : nat) (c : cell) (n : nat) : Prop :=
  n = 0 \/ exists t x, who c !! n = Some (latest t x) /\ access_at L t x /\ a_cell x = c /\ (t = t' \/ hb (At t) (At t')).

(** Every value but the first was written by a read-modify-write that read the one before. *)
Record chain (T : nat) (who : cell -> list gev) : Prop := {
  ch_init : forall c e, who c !! 0 = Some e -> e = Init c;
  ch_rmw : forall c i e, who c !! S i = Some e -> exists t x, e = At t /\ access_at L t x /\ a_cell x = c /\ a_wr x = true /\ who c !! i = Some (a_rf x) /\ t < T;
}.

Lemma chain_writes T who c i e : chain T who -> who c !! i = Some e -> writes L c e.
Proof. intros Hc Hi. destruct i as [|i]; [by rewrite (ch_init _ _ Hc _ _ Hi)|]. destruct (ch_rmw _ _ Hc _ _ _ Hi) as (t & x & -> & H1 & H2 & H3 & _). by exists x. Qed.
Lemma rmw_mo c t x : access_at L t x -> a_cell x = c -> a_wr x = true -> writes L c (a_rf x) -> mo (a_rf x) (At t).
Proof.
  intros H1 H2 H3 Hw. assert (eco L mo (a_rf x) (At t)) as He by (apply eco_rf; by econstructor).
  assert (a_rf x <> At t) as Hne. { intros E. rewrite E in He. by eapply (ax_irr _ _ _ _ _ K). }
  destruct (ax_mo_total _ _ _ _ _ K c (a_rf x) (At t)) as [?|Hm]; [done|by exists x|done|done|]. exfalso. eapply (ax_irr _ _ _ _ _ K). eapply eco_trans; [exact He|by apply eco_mo].
Qed.
Lemma chain_mo T who c i j e1 e2 : chain T who -> i < j -> who c !! i = Some e1 -> who c !! j = Some e2 -> mo e1 e2.
Proof.
  intros Hc. revert e2. induction j as [|j IH]; intros e2 Hij H1 H2; [lia|]. destruct (ch_rmw _ _ Hc _ _ _ H2) as (t & x & -> & Ha & Hx & Hw & Hr & _).
  assert (mo (a_rf x) (At t)) as Hm by (eapply rmw_mo; [done|done|done|by eapply chain_writes]). destruct (decide (i = j)) as [->|Hne]; [rewrite H1 in Hr; by injection Hr as ->|].
  eapply (ax_mo_trans _ _ _ _ _ K); [|exact Hm]. apply IH; [lia|done|done].
Qed.
Lemma chain_old T who c i : chain T who -> who c !! i <> Some (At T).
Proof. intros Hc Hi. destruct i as [|i]; [by apply (ch_init _ _ Hc) in Hi|]. destruct (ch_rmw _ _ Hc _ _ _ Hi) as (t & x & [= ->] & _ & _ & _ & _ & ?). lia. Qed.

(** A read-modify-write reads the newest value. *)
Lemma rmw_newest T who c n x : chain T who -> access_at L T x -> a_cell x = c -> a_wr x = true -> who c !! n = Some (a_rf x) -> S n = length (who c).
Proof.
  intros Hc Ha Hx Hw Hn. pose proof (lookup_lt_Some _ _ _ Hn) as Hlt. destruct (decide (S n = length (who c))) as [|Hne]; [done|exfalso].
  destruct (lookup_lt_is_Some_2 (who c) (S n)) as [e He]; [lia|]. destruct (ch_rmw _ _ Hc _ _ _ He) as (t & y & -> & Hb & Hy & Hv & Hr & Ht).
  assert (a_rf y = a_rf x) as E by congruence. assert (At t <> At T) as Hd by (intros [=]; lia).
  assert (mo (a_rf x) (At T)) as M1 by (eapply rmw_mo; [done|done|done|by eapply chain_writes]).
  assert (mo (a_rf x) (At t)) as M2 by (rewrite <-E; eapply rmw_mo; [done|done|done|rewrite E; by eapply chain_writes]).
  destruct (ax_mo_total _ _ _ _ _ K c (At t) (At T)) as [H|H]; [by exists y|by exists x|done|..].
  - eapply (ax_atomicity _ _ _ _ _ K (At T) (At t)); [|exact H]. exists (a_rf x). split; [by econstructor|]. done.
  - eapply (ax_atomicity _ _ _ _ _ K (At t) (At T)); [|exact H]. exists (a_rf y). split; [by econstructor|]. by rewrite E.
Qed.
(** A load does not read anything older than what is known. *)
Lemma load_floor T who c n x t' k : chain T who -> access_at L T x -> a_cell x = c -> who c !! n = Some (a_rf x) -> wit who t' c k -> hb (At t') (At T) -> k <= n.
Proof.
  intros Hc Ha Hx Hn [->|(t & y & Hk & Hy & Hyc & Ht)] Hhb; [lia|]. destruct (decide (k <= n)) as [|Hlt]; [done|exfalso].
  assert (mo (a_rf x) (latest t y)) as Hm by (eapply chain_mo; [done| |exact Hn|exact Hk]; lia).
  assert (eco L mo (At T) (latest t y)) as He. { apply eco_fr. exists (a_rf x). split; [by econstructor|]. split; [done|]. intros E. rewrite <-E in Hk. by eapply chain_old. }
  assert (eco L mo (At T) (At t)) as He'. { unfold latest in He. destruct (a_wr y); [done|]. eapply eco_trans; [exact He|]. apply eco_rf. by econstructor. }
  eapply (ax_coherence _ _ _ _ _ K (At t) (At T)); [|exact He']. destruct Ht as [->|Ht]; [done|by eapply (ax_hb_trans _ _ _ _ _ K)].
Qed.

Definition reg_rel who (g : reg) (x : loc * dkind * nat) : Prop := x.1 = (g_loc g, g_kind g) /\ forall c, wit who x.2 c (g_fl g c).
Record simr (T : nat) s f : Prop := {
  sr_T : length (g_log s) = T;
  sr_w : c_w (f_c f) = g_w s;
  sr_sync : f_sync f = g_sync s;
  sr_done : f_done f = g_done s;
  sr_gone : f_gone f = g_gone s;
  sr_dropped : f_dropped f = g_dropped s;
  sr_ub : f_ub f = g_ub s;
  sr_regs : Forall2 (reg_rel (g_who s)) (f_regs f) (g_regs s);
  sr_len : forall c, length (g_who s c) = length (w_hist (g_w s) c);
  sr_chain : chain T (g_who s);
  sr_call : forall o, is_Some (w_ops (g_w s) !! o) -> (exists t', of_call ls t' o /\ t' < T /\ forall c, wit (g_who s) t' c (c_fl (f_c f) o c)) /\
    exists t0 op ps, ls !! t0 = Some (GInv o op ps (g_sync s o)) /\ t0 < T;
}.

Lemma wit_mono who who' t' t'' c n : (forall i e, who c !! i = Some e -> who' c !! i = Some e) -> t' = t'' \/ hb (At t') (At t'') -> wit who t' c n -> wit who' t'' c n.
Proof.
  intros Hw Ht [->|(t & x & H1 & H2 & H3 & H4)]; [by left|]. right. exists t, x. split; [by apply Hw|]. split; [done|]. split; [done|].
  destruct Ht as [<-|Ht]; [done|]. destruct H4 as [->|H4]; [by right|]. right. by eapply (ax_hb_trans _ _ _ _ _ K).
Qed.
Lemma hb_po t t' o : of_call ls t o -> of_call ls t' o -> t < t' -> hb (At t) (At t').
Proof. intros. apply (ax_hb _ _ _ _ _ K). by eapply edge_po. Qed.

Lemma max_list_in (X : list nat) : max_list X = 0 \/ max_list X ∈ X.
Proof. induction X as [|a X IH]; simpl; [by left|]. destruct (Nat.max_spec a (max_list X)) as [[_ ->]|[_ ->]]; [|right; by left]. destruct IH as [->|IH]; [by left|right; by right]. Qed.

Lemma sim_inv T s f o op ps ds s' ev : simr T s f -> ls !! T = Some (GInv o op ps ds) -> gstep w s (GInv o op ps ds) = Some (s', ev) ->
  exists f', fstep w f (FInv o op ps ds) = Some (f', ev) /\ simr (S T) s' f'.
Proof.
  intros S0 HT Hst. cbn [gstep] in Hst. destruct (_ && forallb (is_returned _) ps) eqn:Ec; [|done]. apply andb_true_iff in Ec as [Ec Hps].
  destruct (wstep w (g_w s) (WInv o op)) as [[w' e']|] eqn:Ew; [|done]. injection Hst as <- <-.
  pose proof (Forall2_length _ _ _ (sr_regs _ _ _ S0)) as Elen. cbn [fstep]. rewrite (sr_dropped _ _ _ S0), (sr_done _ _ _ S0), Elen, Ec. cbn [cstep]. rewrite (sr_w _ _ _ S0), Hps, Ew.
  eexists. split; [reflexivity|]. cbn [wstep] in Ew. destruct (w_ops (g_w s) !! o) eqn:Eo; [done|]. injection Ew as <- <-.
  split; cbn [g_log g_w g_who g_regs g_sync g_done g_gone g_dropped g_ub f_c f_regs f_sync f_done f_gone f_dropped f_ub c_w c_fl w_hist w_ops].
  - rewrite app_length, (sr_T _ _ _ S0). simpl. lia.
  - done.
  - by rewrite (sr_sync _ _ _ S0).
  - done.
  - apply S0.
  - done.
  - apply S0.
  - apply S0.
  - apply S0.
  - destruct (sr_chain _ _ _ S0) as [H1 H2]. split; [done|]. intros c i e He. destruct (H2 c i e He) as (t & x & E1 & E2 & E3 & E4 & E5 & E6). exists t, x. repeat (split; [done|]). lia.
  - intros o' Ho'. destruct (decide (o' = o)) as [->|Hne].
    + assert (of_call ls T o) as HTo by (eexists; split; [exact HT|done]). split; [|exists T, op, ps; split; [done|lia]]. exists T. split; [done|]. split; [lia|]. intros c.
      destruct (max_list_in ((fun p => c_fl (f_c f) p c) <$> ps)) as [->|Hin]; [by left|]. apply elem_of_list_fmap in Hin as (p & -> & Hp).
      rewrite forallb_forall in Hps. specialize (Hps p (proj1 (elem_of_list_In _ _) Hp)). destruct (sr_call _ _ _ S0 p) as [(t' & H1 & H2 & H3) _].
      { unfold is_returned in Hps. destruct (w_ops (g_w s) !! p); [eauto|done]. }
      eapply wit_mono; [|right|apply H3]; [done|]. apply (ax_hb _ _ _ _ _ K). by eapply (edge_call _ _ t' T o op ps ds p).
    + rewrite lookup_insert_ne in Ho' by done. destruct (sr_call _ _ _ S0 o' Ho') as [(t' & H1 & H2 & H3) (t0 & op0 & ps0 & H4 & H5)]. split.
      * exists t'. split; [done|]. split; [lia|done].
      * exists t0, op0, ps0. split; [done|lia].
Qed.

(** ** How the histories grow *)
Definition evolves T (x : option acc) (who : cell -> list gev) (h h' : cell -> list msg) : Prop := forall c,
  h' c = h c \/ (h c = [] /\ length (h' c) <= 1) \/
  (exists y z, x = Some y /\ h' c = h c ++ [z] /\ access_at L T y /\ a_cell y = c /\ a_wr y = true /\ exists n, S n = length (who c) /\ who c !! n = Some (a_rf y)).
Lemma grow_look T c h wh i e : wh !! i = Some e -> grow T c h wh !! i = Some e.
Proof. intros Hi. unfold grow. destruct (_ <=? _); [done|]. destruct wh as [|e0 wh]; [done|]. by apply lookup_app_l_Some. Qed.
Lemma evolve T x who h h' : chain T who -> (forall c, length (who c) = length (h c)) -> evolves T x who h h' ->
  chain (S T) (fun c => grow T c (h' c) (who c)) /\ forall c, length (grow T c (h' c) (who c)) = length (h' c).
Proof.
  intros Hc Hl Hv.
  assert (forall c, grow T c (h' c) (who c) = who c /\ length (h' c) = length (h c) \/ who c = [] /\ grow T c (h' c) (who c) = [Init c] /\ length (h' c) = 1 \/
    grow T c (h' c) (who c) = who c ++ [At T] /\ length (h' c) = S (length (h c)) /\ exists y, access_at L T y /\ a_cell y = c /\ a_wr y = true /\ exists n, S n = length (who c) /\ who c !! n = Some (a_rf y)) as Hg.
  { intros c. unfold grow. rewrite Hl. destruct (Hv c) as [->|[[E1 E2]|(y & z & _ & -> & H1 & H2 & H3 & n & H4 & H5)]].
    - left. by rewrite (proj2 (Nat.leb_le _ _)).
    - assert (who c = []) as E0 by (apply nil_length_inv; by rewrite Hl, E1). rewrite E0, E1. simpl. destruct (h' c) as [|a [|b r]]; simpl in *; [by left|right; left; done|lia].
    - right. right. rewrite app_length. simpl. replace (_ <=? _) with false by (symmetry; apply Nat.leb_gt; lia). destruct (who c) as [|e0 r] eqn:Ew; [simpl in H4; lia|]. rewrite <-Ew.
      split; [done|]. split; [lia|]. exists y. do 3 (split; [done|]). exists n. split; [by rewrite <-Hl, Ew|by rewrite Ew]. }
  split; [split|].
  - intros c e He. destruct (Hg c) as [[E _]|[(_ & E & _)|(E & _ & y & _ & _ & _ & n & Hn & Hn')]]; rewrite E in He.
    + by apply (ch_init _ _ Hc).
    + by injection He as <-.
    + apply lookup_app_Some in He as [He|[Hle _]]; [by apply (ch_init _ _ Hc)|lia].
  - intros c i e He.
    assert (forall e, who c !! S i = Some e -> exists t x, e = At t /\ access_at L t x /\ a_cell x = c /\ a_wr x = true /\ grow T c (h' c) (who c) !! i = Some (a_rf x) /\ t < S T) as Hold.
    { intros e' He'. destruct (ch_rmw _ _ Hc _ _ _ He') as (t & y & H1 & H2 & H3 & H4 & H5 & H6). exists t, y. do 4 (split; [done|]). split; [by apply grow_look|lia]. }
    destruct (Hg c) as [[E _]|[(_ & E & _)|(E & _ & y & H1 & H2 & H3 & n & Hn & Hn')]]; rewrite E in He.
    + by apply Hold.
    + done.
    + apply lookup_app_Some in He as [He|[Hle He]]; [by apply Hold|]. apply list_lookup_singleton_Some in He as [Hz <-]. exists T, y. do 4 (split; [done|]). split; [|lia].
      apply grow_look. by replace i with n by lia.
  - intros c. destruct (Hg c) as [[-> ->]|[(_ & -> & ->)|(-> & -> & _)]]; [by rewrite Hl|done|]. rewrite app_length, Hl. simpl. lia.
Qed.

Lemma local_hist (s0 : wstate) o op tv pv m p spur a (s1 : wstate) ev : w_local s0 o op tv pv m p spur a = Some (s1, ev) -> w_hist s1 = w_hist s0 /\ w_mem s1 = w_mem s0.
Proof. unfold w_local. destruct (see_step _ _ _ _ _ _) as [[[? ?] ?]|]; [|done]. by intros [= <- _]. Qed.
Lemma write_hist (s0 : wstate) o op tv pv c ord p spur a (s1 : wstate) ev : w_write s0 o op tv pv c ord p spur a = Some (s1, ev) -> (forall i, w_hist s0 (CSlot (m_next (w_mem s0)) i) = []) -> w_hist s0 c <> [] ->
  exists x, w_hist s1 c = w_hist s0 c ++ [x] /\ forall c', c' <> c -> w_hist s1 c' = w_hist s0 c' \/ (w_hist s0 c' = [] /\ length (w_hist s1 c') <= 1).
Proof.
  unfold w_write. destruct (see_step _ _ _ _ _ _) as [[[m' nx] acts]|]; [|done]. intros [= <- _] Hf Hc. cbn [w_hist].
  assert (hist_alloc (w_mem s0) m' (w_hist s0) c = w_hist s0 c) as E0. { destruct c as [|l i]; [done|]. simpl. destruct (decide _) as [[-> _]|]; [by rewrite Hf in Hc|done]. }
  match goal with |- context [hist_write _ _ ?y] => generalize y; intros z; exists z end. split.
  - destruct c as [|l i]; simpl; [done|]. rewrite decide_True by done. f_equal. exact E0.
  - intros c' Hne.
    assert (hist_alloc (w_mem s0) m' (w_hist s0) c' = w_hist s0 c' \/ (w_hist s0 c' = [] /\ length (hist_alloc (w_mem s0) m' (w_hist s0) c') <= 1)) as Hal.
    { destruct c' as [|l i]; [by left|]. simpl. destruct (decide _) as [[-> _]|]; [|by left]. right. split; [done|]. destruct (ptrs _ _ !! i); simpl; lia. }
    destruct c as [|l i], c' as [|l' i']; simpl; try done. rewrite decide_False; [done|]. intros [-> ->]. done.
Qed.

Lemma local_ops (s0 : wstate) o op tv pv m p spur a (s1 : wstate) ev : w_local s0 o op tv pv m p spur a = Some (s1, ev) -> is_Some (w_ops s1 !! o) /\ forall o', o' <> o -> w_ops s1 !! o' = w_ops s0 !! o'.
Proof. unfold w_local. destruct (see_step _ _ _ _ _ _) as [[[? ?] ?]|]; [|done]. intros [= <- _]. cbn [w_ops]. split; [rewrite lookup_insert; eauto|]. intros o' Hne. by rewrite lookup_insert_ne. Qed.
Lemma write_ops (s0 : wstate) o op tv pv c ord p spur a (s1 : wstate) ev : w_write s0 o op tv pv c ord p spur a = Some (s1, ev) -> is_Some (w_ops s1 !! o) /\ forall o', o' <> o -> w_ops s1 !! o' = w_ops s0 !! o'.
Proof. unfold w_write. destruct (see_step _ _ _ _ _ _) as [[[? ?] ?]|]; [|done]. intros [= <- _]. cbn [w_ops]. split; [rewrite lookup_insert; eauto|]. intros o' Hne. by rewrite lookup_insert_ne. Qed.
Lemma same_cell_true c c' : same_cell c c' = true <-> c = c'.
Proof. destruct c as [|l i], c' as [|l' i']; simpl; try done. rewrite bool_decide_eq_true. split; [by intros [-> ->]|by intros [= -> ->]]. Qed.

(** The machine of WeakFree.v meets no dangling pointer. *)
Lemma no_fault fls f ev o op p tv pv c k ord : wf_fcalls fls -> fexec w fls f ev -> f_alive f o = true -> w_ops (c_w (f_c f)) !! o = Some (WOp (SRun op p) tv pv) -> access w p = Some (c, k, ord) ->
  base_seen tv pv c = true /\ w_hist (c_w (f_c f)) c <> [].
Proof.
  intros Hwf He Hal Ho Ha. set (n := Nat.max (c_fl (f_c f) o c) (f_floor f (f_sync f o) c)).
  set (s1 := WState (w_mem (c_w (f_c f))) (w_hist (c_w (f_c f))) (<[o := WOp (SFail op FUB) tv pv]> (w_ops (c_w (f_c f))))).
  assert (wstep w (c_w (f_c f)) (WStep o n false 0%N) <> Some (s1, [])) as Hno.
  { intros Hw. assert (next_cell w (c_w (f_c f)) o = Some c) as Hnc by (unfold next_cell; by rewrite Ho, Ha).
    assert (exists f', fstep w f (FStep o n false 0%N) = Some (f', []) /\ c_w (f_c f') = s1) as (f' & Hf & Ef).
    { cbn [fstep]. rewrite Hal, Hnc. rewrite (proj2 (Nat.leb_le _ _)) by lia. cbn [andb cstep]. rewrite Hw, Hnc. rewrite (proj2 (Nat.ltb_ge _ _)) by lia. eexists. split; [reflexivity|done]. }
    assert (fexec w (fls ++ [FStep o n false 0%N]) f' (ev ++ [])) as He'. { eapply frun_app; [exact He|]. cbn [frun]. by rewrite Hf. }
    assert (wf_fcalls (fls ++ [FStep o n false 0%N])) as Hwf'. { intros o' op' ps ds [Hx|Hx]%elem_of_app; [by eapply Hwf|]. by apply elem_of_list_singleton in Hx. }
    destruct (C46_no_use_after_free _ _ _ Hwf' He') as [Hn _]. eapply (Hn o (WOp (SFail op FUB) tv pv) op FUB); [|done]. rewrite Ef. unfold s1. cbn [w_ops]. by rewrite lookup_insert. }
  cbn [wstep] in Hno. rewrite Ho, Ha in Hno. destruct (base_seen tv pv c); [|done]. split; [done|]. intros E. by rewrite E in Hno.
Qed.

(** ** A step *)
Lemma sim_step fls ev0 T s f o r spur a s' ev : wf_fcalls fls -> fexec w fls f ev0 -> simr T s f -> ls !! T = Some (GStep o r spur a) -> g_log s' `prefix_of` L -> g_regs s `prefix_of` R ->
  gstep w s (GStep o r spur a) = Some (s', ev) -> exists n f', fstep w f (FStep o n spur a) = Some (f', ev) /\ simr (S T) s' f'.
Proof.
  intros Hwf He S0 HT HL HR Hst. cbn [gstep] in Hst. destruct (g_alive s o) eqn:Eal; [|done].
  destruct (gcall w (g_w s) (g_who s) o r spur a) as [[[w' e'] l]|] eqn:Eg; [|done]. injection Hst as <- <-.
  assert (f_alive f o = true) as Eal'. { rewrite <-Eal. unfold f_alive, g_alive. by rewrite (sr_w _ _ _ S0), (sr_gone _ _ _ S0). }
  apply bool_decide_eq_true in Eal as [Hop _]. destruct (sr_call _ _ _ S0 o Hop) as [(t1 & Ht1 & Hlt1 & Hfl) (t0 & op0 & ps0 & Hinv & Hlt0)].
  assert (of_call ls T o) as HTo by (eexists; split; [exact HT|done]).
  assert (L !! T = Some l) as HLT. { cbn [g_log] in HL. destruct HL as [L' ->]. rewrite <-app_assoc. rewrite lookup_app_r by (rewrite (sr_T _ _ _ S0); lia). by rewrite (sr_T _ _ _ S0), Nat.sub_diag. }
  pose proof (sr_chain _ _ _ S0) as Hch. pose proof (sr_len _ _ _ S0) as Hlen.
  (* what remains to be shown *)
  assert (forall n w1 (fl' : opid -> cell -> nat), w' = w1 -> cstep w (f_c f) (CStep o n spur a) = Some (CState w1 fl', e') -> evolves T l (g_who s) (w_hist (g_w s)) (w_hist w') ->
    is_Some (w_ops w' !! o) -> (forall o', o' <> o -> w_ops w' !! o' = w_ops (g_w s) !! o') ->
    (match next_cell w (g_w s) o with Some c => f_floor f (f_sync f o) c <= n | None => True end) ->
    (forall o' c, o' <> o -> fl' o' c = c_fl (f_c f) o' c) -> (forall c, fl' o c = c_fl (f_c f) o c \/ wit (fun c => grow T c (w_hist w' c) (g_who s c)) T c (fl' o c)) ->
    exists n f', fstep w f (FStep o n spur a) = Some (f', e') /\
      simr (S T) (GState w' (fun c => grow (length (g_log s)) c (w_hist w' c) (g_who s c)) (g_regs s ++ ((fun g => (g.1.1, g.1.2, length (g_log s))) <$> take (length (m_garb (w_mem w')) - length (m_garb (g_mem s))) (m_garb (w_mem w'))))
        (g_sync s) (g_done s) (g_gone s) (g_dropped s) (g_ub s) (g_log s ++ [l])) f') as Hmain.
  { intros n w1 fl' <- Hcs Hev Hso Hoth Hfloor Hfo Hfw. destruct (evolve _ _ _ _ _ Hch Hlen Hev) as [Hch' Hlen']. exists n.
    eexists. split.
    - cbn [fstep]. rewrite Eal'. rewrite (sr_w _ _ _ S0). cbn [andb].
      replace (match next_cell w (g_w s) o with Some c => f_floor f (f_sync f o) c <=? n | None => true end) with true.
      2: { symmetry. destruct (next_cell w (g_w s) o); [|done]. by apply Nat.leb_le. }
      rewrite Hcs. reflexivity.
    - assert (forall c, wit (fun c => grow T c (w_hist w' c) (g_who s c)) T c (fl' o c)) as Hwo.
      { intros c. destruct (Hfw c) as [->|?]; [|done]. eapply wit_mono; [|right; exact (hb_po _ _ _ Ht1 HTo Hlt1)|apply Hfl]. intros i e. apply grow_look. }
      split; cbn [g_log g_w g_who g_regs g_sync g_done g_gone g_dropped g_ub f_c f_regs f_sync f_done f_gone f_dropped f_ub c_w c_fl].
      + rewrite app_length, (sr_T _ _ _ S0). simpl. lia.
      + done.
      + apply S0.
      + apply S0.
      + apply S0.
      + apply S0.
      + apply S0.
      + rewrite (sr_T _ _ _ S0). apply Forall2_app.
        * eapply Forall2_impl; [apply (sr_regs _ _ _ S0)|]. intros g x [H1 H2]. split; [done|]. intros c. eapply wit_mono; [|by left|apply H2]. intros i e. apply grow_look.
        * unfold new_regs, f_mem, g_mem. rewrite (sr_w _ _ _ S0). apply Forall2_fmap_2. apply Forall_Forall2_diag. apply Forall_forall. intros g _. by split.
      + by rewrite (sr_T _ _ _ S0).
      + by rewrite (sr_T _ _ _ S0).
      + rewrite (sr_T _ _ _ S0). intros o' Ho'. destruct (decide (o' = o)) as [->|Hne].
        * split; [exists T; split; [done|]; split; [lia|done]|]. exists t0, op0, ps0. split; [done|lia].
        * rewrite (Hoth o' Hne) in Ho'. destruct (sr_call _ _ _ S0 o' Ho') as [(t' & H1 & H2 & H3) (t2 & op2 & ps2 & H4 & H5)]. split; [|exists t2, op2, ps2; split; [done|lia]].
          exists t'. split; [done|]. split; [lia|]. intros c. rewrite (Hfo o' c Hne). eapply wit_mono; [|by left|apply H3]. intros i e. apply grow_look. }
  unfold gcall in Eg. destruct (w_ops (g_w s) !! o) as [[st tv pv]|] eqn:Eo; [|done]. destruct st as [op p| | | ]; try done.
  assert (next_cell w (g_w s) o = (fun x => x.1.1) <$> access w p) as Hnc by (unfold next_cell; by rewrite Eo).
  destruct (access w p) as [[[c k] ord]|] eqn:Ea.
  2: { destruct (w_local (g_w s) o op tv pv (w_mem (g_w s)) p spur a) as [[w1 e1]|] eqn:El; [|done]. injection Eg as <- <- <-. destruct (local_hist _ _ _ _ _ _ _ _ _ _ _ El) as [Eh _]. destruct (local_ops _ _ _ _ _ _ _ _ _ _ _ El) as [Hs1 Hs2].
    apply (Hmain 0 w1 (c_fl (f_c f)) eq_refl).
    - cbn [cstep wstep]. rewrite (sr_w _ _ _ S0), Eo, Ea, El, Hnc. reflexivity.
    - intros c. left. by rewrite Eh.
    - done.
    - done.
    - by rewrite Hnc.
    - done.
    - intros c. by left. }
  cbn [fmap option_fmap option_map fst] in Hnc. rewrite <-(sr_w _ _ _ S0) in Eo. destruct (no_fault _ _ _ _ _ _ _ _ _ _ _ Hwf He Eal' Eo Ea) as [Hb Hh]. rewrite (sr_w _ _ _ S0) in Eo, Hh. rewrite Hb in Eg. cbn [negb] in Eg.
  destruct (g_who s c) as [|e0 q] eqn:Ewho. { exfalso. apply Hh. apply nil_length_inv. by rewrite <-Hlen, Ewho. } rewrite <-Ewho in Eg.
  destruct (list_find _ (g_who s c)) as [[n e]|] eqn:Ef; [|done]. apply list_find_Some in Ef as (Hn & Er & _). subst e.
  destruct (w_hist (g_w s) c !! n) as [[v W]|] eqn:Ev; [|done].
  assert (forall b, l = Some (Acc o c r b) -> c_fl (f_c f) o c <= n /\ f_floor f (f_sync f o) c <= n) as Hflo.
  { intros b ->. split.
    - eapply (load_floor T (g_who s) c n (Acc o c r b) t1); [done|exact HLT|done|done|apply Hfl|]. exact (hb_po _ _ _ Ht1 HTo Hlt1).
    - apply f_floor_le. intros d g Hd Hg. rewrite (sr_sync _ _ _ S0) in Hd. destruct (Forall2_lookup_l _ _ _ _ _ (sr_regs _ _ _ S0) Hg) as ([[gl gk] t2] & Hg' & _ & Hwit).
      eapply (load_floor T (g_who s) c n (Acc o c r b) t2); [done|exact HLT|done|done|apply Hwit|]. eapply (ax_hb_trans _ _ _ _ _ K _ (At t0)).
      + apply (ax_hb _ _ _ _ _ K). eapply edge_reg; [exact Hinv|exact Hd|]. destruct HR as [R' ->]. by apply lookup_app_l_Some.
      + eapply hb_po; [|exact HTo|done]. eexists. split; [exact Hinv|done]. }
  set (n' := fun (b : bool) => if b then length (w_hist (g_w s) c) else n).
  assert (forall b tv' pv' m1 w1 e1, l = Some (Acc o c r b) -> (w', e') = (w1, e1) -> wstep w (g_w s) (WStep o n spur a) = Some (w1, e1) ->
    (if b then w_write (g_w s) o op tv' pv' c ord p spur a = Some (w1, e1) /\ S n = length (g_who s c) else w_local (g_w s) o op tv' pv' m1 p spur a = Some (w1, e1)) ->
    exists n f', fstep w f (FStep o n spur a) = Some (f', e') /\
      simr (S T) (GState w' (fun c => grow (length (g_log s)) c (w_hist w' c) (g_who s c)) (g_regs s ++ ((fun g => (g.1.1, g.1.2, length (g_log s))) <$> take (length (m_garb (w_mem w')) - length (m_garb (g_mem s))) (m_garb (w_mem w'))))
        (g_sync s) (g_done s) (g_gone s) (g_dropped s) (g_ub s) (g_log s ++ [l])) f') as Hacc.
  { intros b tv' pv' m1 w1 e1 El [= -> ->] Hws Hx. destruct (Hflo b El) as [F1 F2].
    assert (is_Some (w_ops w1 !! o) /\ (forall o', o' <> o -> w_ops w1 !! o' = w_ops (g_w s) !! o') /\ evolves T l (g_who s) (w_hist (g_w s)) (w_hist w1) /\
      (if length (w_hist (g_w s) c) <? length (w_hist w1 c) then length (w_hist (g_w s) c) else n) = n' b /\ wit (fun c => grow T c (w_hist w1 c) (g_who s c)) T c (n' b)) as (X1 & X2 & X3 & X4 & X5).
    { destruct b.
      - destruct Hx as [Hx HSn]. destruct (write_ops _ _ _ _ _ _ _ _ _ _ _ _ Hx) as [Y1 Y2]. split; [done|]. split; [done|].
        destruct (write_hist _ _ _ _ _ _ _ _ _ _ _ _ Hx) as (x & Z1 & Z2); [intros i; rewrite <-(sr_w _ _ _ S0); by eapply f_fresh|done|]. split; [|split].
        + intros c'. destruct (decide (c' = c)) as [->|Hne]; [|destruct (Z2 c' Hne) as [?|?]; [by left|right; by left]]. right. right. exists (Acc o c r true), x. split; [done|]. split; [done|].
          split; [by rewrite El in HLT|]. split; [done|]. split; [done|]. exists n. by split.
        + rewrite Z1, app_length. simpl. rewrite (proj2 (Nat.ltb_lt _ _)) by lia. done.
        + right. exists T, (Acc o c r true). split; [|split; [by rewrite El in HLT|split; [done|by left]]]. unfold latest, n'. cbn [a_wr]. unfold grow. rewrite Z1, app_length, Hlen. simpl.
          replace (_ <=? _) with false by (symmetry; apply Nat.leb_gt; lia). rewrite Ewho. rewrite <-Ewho, <-Hlen. by rewrite lookup_app_r, Nat.sub_diag by done.
      - destruct (local_ops _ _ _ _ _ _ _ _ _ _ _ Hx) as [Y1 Y2]. destruct (local_hist _ _ _ _ _ _ _ _ _ _ _ Hx) as [Eh _]. split; [done|]. split; [done|]. split; [|split].
        + intros c'. left. by rewrite Eh.
        + rewrite Eh, Nat.ltb_irrefl. done.
        + right. exists T, (Acc o c r false). split; [|split; [by rewrite El in HLT|split; [done|by left]]]. unfold latest, n'. cbn [a_wr a_rf]. by apply grow_look. }
    apply (Hmain n w1 (fun o' c' => if decide (o' = o) then if same_cell c c' then n' b else c_fl (f_c f) o' c' else c_fl (f_c f) o' c') eq_refl); [|done|done|done|by rewrite Hnc| |].
    - cbn [cstep]. rewrite (sr_w _ _ _ S0), Hws, Hnc. rewrite (proj2 (Nat.ltb_ge _ _)) by done. rewrite X4. reflexivity.
    - intros o' c' Hne. by rewrite decide_False.
    - intros c'. rewrite decide_True by done. destruct (same_cell c c') eqn:Es; [|by left]. apply same_cell_true in Es as <-. by right. }
  assert (forall b, l = Some (Acc o c r b) -> b = true -> write_cell (w_mem (g_w s)) c v = w_mem (g_w s) /\ S n = length (g_who s c)) as Hrmw.
  { intros b El ->. assert (S n = length (g_who s c)) as HSn. { eapply (rmw_newest T (g_who s) c n (Acc o c r true)); [done| |done|done|done]. by rewrite El in HLT. }
    split; [|done]. rewrite <-(sr_w _ _ _ S0). eapply (f_newest _ _ _ _ v W); [done|done|]. rewrite (sr_w _ _ _ S0). rewrite last_lookup, <-Hlen, <-HSn. exact Ev. }
  destruct (w_hist (g_w s) c) as [|h0 hr] eqn:Eh; [done|]. rewrite <-Eh in *.
  assert (forall X : option (wstate * list event), X = wstep w (g_w s) (WStep o n spur a) -> X = match k with
      | ALoad => w_local (g_w s) o op (tv_read ord tv W) (pv_read ord pv c v W) (write_cell (w_mem (g_w s)) c v) p spur a
      | ATest => w_local (g_w s) o op tv pv (write_cell (w_mem (g_w s)) c v) p spur a
      | AFetch => if bool_decide (S n = length (w_hist (g_w s) c)) then w_write (g_w s) o op (tv_read ord tv W) (pv_read ord pv c v W) c ord p spur a else None
      | ACas => if bool_decide (S n = length (w_hist (g_w s) c)) && cas_wins (w_mem (g_w s)) p spur then w_write (g_w s) o op (tv_read ord tv W) pv c ord p spur a
                else if cas_wins (write_cell (w_mem (g_w s)) c v) p spur then None else w_local (g_w s) o op tv pv (write_cell (w_mem (g_w s)) c v) p spur a
      end) as Hws.
  { intros X ->. cbn [wstep]. rewrite Eo, Ea, Hb, Eh. cbn [negb]. rewrite <-Eh, Ev. reflexivity. }
  specialize (Hws _ eq_refl).
  assert (write_cell (w_mem (g_w s)) c v = w_mem (g_w s) -> with_mem (g_w s) (write_cell (w_mem (g_w s)) c v) = g_w s) as Hwm. { intros ->. unfold with_mem. by destruct (g_w s). }
  destruct k.
  - destruct (w_local _ _ _ _ _ _ _ _ _) as [[w1 e1]|] eqn:El; [|done]. injection Eg as <- <- <-. by eapply (Hacc false).
  - destruct (w_local _ _ _ _ _ _ _ _ _) as [[w1 e1]|] eqn:El; [|done]. injection Eg as <- <- <-. by eapply (Hacc false).
  - assert (l = Some (Acc o c r true)) as El. { destruct (w_write _ _ _ _ _ _ _ _ _ _) as [[? ?]|]; [by injection Eg as <- <- <-|done]. }
    destruct (Hrmw _ El eq_refl) as [Em HSn]. rewrite (Hwm Em) in Eg. rewrite bool_decide_eq_true_2 in Hws by (by rewrite <-Hlen).
    destruct (w_write _ _ _ _ _ _ _ _ _ _) as [[w1 e1]|] eqn:Ew; [|done]. injection Eg as <- <- <-. by eapply (Hacc true _ _ (w_mem (g_w s))).
  - destruct (cas_wins (write_cell _ c v) p spur) eqn:Ec.
    + assert (l = Some (Acc o c r true)) as El. { destruct (w_write _ _ _ _ _ _ _ _ _ _) as [[? ?]|]; [by injection Eg as <- <- <-|done]. }
      destruct (Hrmw _ El eq_refl) as [Em HSn]. rewrite (Hwm Em) in Eg. rewrite Em in Ec. rewrite Ec, bool_decide_eq_true_2 in Hws by (by rewrite <-Hlen). cbn [andb] in Hws.
      destruct (w_write _ _ _ _ _ _ _ _ _ _) as [[w1 e1]|] eqn:Ew; [|done]. injection Eg as <- <- <-. by eapply (Hacc true _ _ (w_mem (g_w s))).
    + replace (bool_decide (S n = length (w_hist (g_w s) c)) && cas_wins (w_mem (g_w s)) p spur) with false in Hws.
      * destruct (w_local _ _ _ _ _ _ _ _ _) as [[w1 e1]|] eqn:El; [|done]. injection Eg as <- <- <-. by eapply (Hacc false).
      * symmetry. destruct (bool_decide _) eqn:Eb; [|done]. apply bool_decide_eq_true in Eb. cbn [andb]. rewrite <-Ec. f_equal. symmetry. rewrite <-(sr_w _ _ _ S0). eapply (f_newest _ _ _ _ v W); [done|done|].
        rewrite (sr_w _ _ _ S0), last_lookup, <-Eb. exact Ev.
Qed.

(** ** What is not a step of a call *)
Lemma all_alive_eq T s f P : simr T s f -> all_alive f P = g_all_alive s P.
Proof. intros S0. unfold all_alive, g_all_alive. by rewrite (sr_w _ _ _ S0), (sr_gone _ _ _ S0). Qed.
Lemma alive_eq T s f o : simr T s f -> f_alive f o = g_alive s o.
Proof. intros S0. unfold f_alive, g_alive. by rewrite (sr_w _ _ _ S0), (sr_gone _ _ _ S0). Qed.
Lemma sim_quiet T s f (m1 : mem) gone done dropped ub : simr T s f ->
  simr (S T) (GState (with_mem (g_w s) m1) (g_who s) (g_regs s) (g_sync s) done gone dropped ub (g_log s ++ [None]))
    (FState (set_mem (f_c f) m1) (f_regs f) (f_sync f) done gone dropped ub).
Proof.
  intros S0. split; cbn [g_log g_w g_who g_regs g_sync g_done g_gone g_dropped g_ub f_c f_regs f_sync f_done f_gone f_dropped f_ub c_w c_fl set_mem with_mem w_hist w_ops].
  - rewrite app_length, (sr_T _ _ _ S0). simpl. lia.
  - by rewrite (sr_w _ _ _ S0).
  - apply S0.
  - done.
  - done.
  - done.
  - done.
  - apply S0.
  - apply S0.
  - destruct (sr_chain _ _ _ S0) as [H1 H2]. split; [done|]. intros c i e He. destruct (H2 c i e He) as (t & x & E1 & E2 & E3 & E4 & E5 & E6). exists t, x. repeat (split; [done|]). lia.
  - intros o Ho. destruct (sr_call _ _ _ S0 o Ho) as [(t' & H1 & H2 & H3) (t0 & op0 & ps0 & H4 & H5)]. split; [exists t'; split; [done|]; split; [lia|done]|exists t0, op0, ps0; split; [done|lia]].
Qed.
Lemma sim_other T s f lb s' ev : simr T s f -> match lb with GInv _ _ _ _ | GStep _ _ _ _ => False | _ => True end -> gstep w s lb = Some (s', ev) ->
  exists flb f', fstep w f flb = Some (f', ev) /\ simr (S T) s' f' /\ match flb with FInv _ _ _ _ | FStep _ _ _ _ => False | _ => True end.
Proof.
  intros S0 Hlb Hst.
  assert (with_mem (g_w s) (g_mem s) = g_w s) as Eg by (unfold with_mem, g_mem; by destruct (g_w s)). assert (set_mem (f_c f) (g_mem s) = f_c f) as Ef. { unfold set_mem, g_mem. rewrite <-(sr_w _ _ _ S0). by destruct (f_c f) as [[? ? ?] ?]. }
  assert (f_mem f = g_mem s) as Em by (unfold f_mem, g_mem; by rewrite (sr_w _ _ _ S0)).
  destruct lb as [| |o|o|i|]; try done; cbn [gstep] in Hst.
  - exists (FUnpin o). cbn [fstep]. rewrite (alive_eq _ _ _ _ S0), (sr_w _ _ _ S0). destruct (_ && _); [|done]. injection Hst as <- <-. eexists. split; [reflexivity|]. split; [|done].
    rewrite (sr_done _ _ _ S0), (sr_gone _ _ _ S0), (sr_dropped _ _ _ S0), (sr_ub _ _ _ S0). rewrite <-Eg, <-Ef at 1. by apply sim_quiet.
  - exists (FAbort o). cbn [fstep]. rewrite (alive_eq _ _ _ _ S0), (sr_w _ _ _ S0). destruct (_ && _); [|done]. injection Hst as <- <-. eexists. split; [reflexivity|]. split; [|done].
    rewrite (sr_done _ _ _ S0), (sr_gone _ _ _ S0), (sr_dropped _ _ _ S0), (sr_ub _ _ _ S0). rewrite <-Eg, <-Ef at 1. by apply sim_quiet.
  - destruct (g_regs s !! i) as [[[gl gk] t]|] eqn:Ei; [|done]. destruct (Forall2_lookup_r _ _ _ _ _ (sr_regs _ _ _ S0) Ei) as (g & Hg & Eg' & _). injection Eg' as -> ->.
    exists (FFree i). cbn [fstep]. rewrite Hg. rewrite (all_alive_eq _ _ _ _ S0), (sr_sync _ _ _ S0), (sr_done _ _ _ S0). destruct (_ && _); [|done]. injection Hst as <- <-. eexists. split; [reflexivity|]. split; [|done].
    rewrite (sr_gone _ _ _ S0), (sr_dropped _ _ _ S0), (sr_ub _ _ _ S0), Em, <-(sr_sync _ _ _ S0). rewrite (sr_sync _ _ _ S0) at 1. by apply sim_quiet.
  - exists FDrop. cbn [fstep]. rewrite (all_alive_eq _ _ _ _ S0), (sr_dropped _ _ _ S0), Em. destruct (_ && _); [|done].
    destruct (drop_rec _ _ _) as [fs|]; injection Hst as <- <-; (eexists; split; [reflexivity|]; split; [|done]); rewrite (sr_done _ _ _ S0), (sr_gone _ _ _ S0).
    + rewrite (sr_ub _ _ _ S0). by apply sim_quiet.
    + rewrite <-Eg, <-Ef at 1. by apply sim_quiet.
Qed.
End graph.

(** ** Executions *)
Lemma grun_app s l1 s1 e1 l2 : grun w s l1 = Some (s1, e1) -> grun w s (l1 ++ l2) = match grun w s1 l2 with Some (s2, e2) => Some (s2, e1 ++ e2) | None => None end.
Proof.
  revert s e1. induction l1 as [|lb l1 IH]; intros s e1 H1; cbn [grun app] in *; [injection H1 as <- <-; by destruct (grun w s l2) as [[? ?]|]|]. destruct (gstep w s lb) as [[s3 e3]|]; [|done]. destruct (grun w s3 l1) as [[s4 e4]|] eqn:E; [|done]. injection H1 as <- <-.
  rewrite (IH _ _ E). destruct (grun w s4 l2) as [[? ?]|]; [|done]. by rewrite app_assoc.
Qed.
Lemma grun_split s l1 l2 s2 e : grun w s (l1 ++ l2) = Some (s2, e) -> exists s1 e1 e2, grun w s l1 = Some (s1, e1) /\ grun w s1 l2 = Some (s2, e2) /\ e = e1 ++ e2.
Proof.
  revert s e. induction l1 as [|lb l1 IH]; intros s e H1; cbn [grun app] in *; [by exists s, [], e|]. destruct (gstep w s lb) as [[s3 e3]|]; [|done]. destruct (grun w s3 (l1 ++ l2)) as [[s4 e4]|] eqn:E; [|done]. injection H1 as <- <-.
  destruct (IH _ _ E) as (s1 & e1 & e2 & -> & H2 & ->). exists s1, (e3 ++ e1), e2. by rewrite app_assoc.
Qed.
Lemma gstep_mono s lb s' ev : gstep w s lb = Some (s', ev) -> g_log s `prefix_of` g_log s' /\ g_regs s `prefix_of` g_regs s' /\ length (g_log s') = S (length (g_log s)).
Proof.
  destruct lb as [o op ps ds|o r spur a|o|o|i|]; cbn [gstep].
  - destruct (_ && _); [|done]. destruct (wstep _ _ _) as [[? ?]|]; [|done]. intros [= <- <-]. cbn [g_log g_regs]. rewrite app_length. simpl. split; [by apply prefix_app_r|]. split; [done|lia].
  - destruct (g_alive s o); [|done]. destruct (gcall _ _ _ _ _ _ _) as [[[? ?] ?]|]; [|done]. intros [= <- <-]. cbn [g_log g_regs]. rewrite app_length. simpl. split; [by apply prefix_app_r|]. split; [by apply prefix_app_r|lia].
  - destruct (_ && _); [|done]. intros [= <- <-]. cbn [g_log g_regs]. rewrite app_length. simpl. split; [by apply prefix_app_r|]. split; [done|lia].
  - destruct (_ && _); [|done]. intros [= <- <-]. cbn [g_log g_regs]. rewrite app_length. simpl. split; [by apply prefix_app_r|]. split; [done|lia].
  - destruct (g_regs s !! i) as [[[? ?] ?]|] eqn:Ei; [|done]. destruct (_ && _); [|done]. intros [= <- <-]. cbn [g_log g_regs]. rewrite app_length. simpl. split; [by apply prefix_app_r|]. split; [done|lia].
  - destruct (_ && _); [|done]. destruct (drop_rec _ _ _) as [fs|]; intros [= <- <-]; cbn [g_log g_regs]; rewrite app_length; simpl; (split; [by apply prefix_app_r|]; split; [done|lia]).
Qed.
Lemma grun_mono s ls s' ev : grun w s ls = Some (s', ev) -> g_log s `prefix_of` g_log s' /\ g_regs s `prefix_of` g_regs s'.
Proof.
  revert s ev. induction ls as [|lb ls IH]; intros s ev H1; cbn [grun] in *; [by injection H1 as <- <-|]. destruct (gstep w s lb) as [[s3 e3]|] eqn:Es; [|done]. destruct (grun w s3 ls) as [[s4 e4]|] eqn:E; [|done]. injection H1 as <- <-.
  destruct (gstep_mono _ _ _ _ Es) as (H1 & H2 & _). destruct (IH _ _ E) as [H3 H4]. split; by etrans.
Qed.

Lemma sim_run ls s ev mo hb : wf_gcalls ls -> gexec w ls s ev -> consistent ls (g_log s) (g_regs s) mo hb -> forall l1 l2 s1 e1 e2, ls = l1 ++ l2 -> grun w ginit l1 = Some (s1, e1) -> grun w s1 l2 = Some (s, e2) ->
  exists fls f, fexec w fls f e1 /\ wf_fcalls fls /\ simr ls (g_log s) hb (length l1) s1 f /\ forall o op ps ds, FInv o op ps ds ∈ fls <-> GInv o op ps ds ∈ l1.
Proof.
  intros Hwf He K l1. induction l1 as [|lb l1 IH] using rev_ind; intros l2 s1 e1 e2 El H1 H2.
  - cbn [grun] in H1. injection H1 as <- <-. exists [], finit. split; [done|]. split; [intros o op ps ds Hx; by apply elem_of_nil in Hx|]. split; [|intros o op ps ds; split; intros Hx; by apply elem_of_nil in Hx]. split; try done.
    + constructor.
    + intros [|l i]; done.
    + split; [intros [|l i] e; [by intros [= <-]|done]|]. intros [|l i] j e; simpl; [|done]. by destruct j.
    + intros o [x Hx]. simpl in Hx. by rewrite lookup_empty in Hx.
  - apply grun_split in H1 as (s0 & e0 & e3 & H0 & H1 & ->). cbn [grun] in H1. destruct (gstep w s0 lb) as [[s3 e4]|] eqn:Es; [|done]. injection H1 as <- <-.
    assert (grun w s0 (lb :: l2) = Some (s, e4 ++ e2)) as Hr by (cbn [grun]; by rewrite Es, H2).
    destruct (IH (lb :: l2) s0 e0 _ ltac:(by rewrite El, <-app_assoc) H0 Hr) as (fls & f & Hf & Hwf' & S0 & Hinv).
    assert (ls !! length l1 = Some lb) as HT. { rewrite El, <-app_assoc, lookup_app_r, Nat.sub_diag by done. done. }
    assert (exists flb f', fstep w f flb = Some (f', e4) /\ simr ls (g_log s) hb (S (length l1)) s3 f' /\ forall o op ps ds, flb = FInv o op ps ds <-> lb = GInv o op ps ds) as (flb & f' & Hfs & S1 & Hq).
    { destruct lb as [o op ps ds|o r spur a|o|o|i|].
      - destruct (sim_inv _ _ _ _ _ K _ _ _ _ _ _ _ _ _ S0 HT Es) as (f' & X1 & X2). exists (FInv o op ps ds), f'. split; [done|]. split; [done|]. intros. split; by intros [= -> -> -> ->].
      - destruct (sim_step _ _ _ _ _ K _ _ _ _ _ _ _ _ _ _ _ Hwf' Hf S0 HT ltac:(apply (grun_mono _ _ _ _ H2)) ltac:(apply (grun_mono _ _ _ _ Hr)) Es) as (n & f' & X1 & X2). exists (FStep o n spur a), f'. split; [done|]. split; [done|]. intros. split; by intros [=].
      - edestruct sim_other as (flb & f' & X1 & X2 & X3); [exact S0| |exact Es|]; [done|]. exists flb, f'. split; [done|]. split; [done|]. intros. split; [by intros ->|by intros [=]].
      - edestruct sim_other as (flb & f' & X1 & X2 & X3); [exact S0| |exact Es|]; [done|]. exists flb, f'. split; [done|]. split; [done|]. intros. split; [by intros ->|by intros [=]].
      - edestruct sim_other as (flb & f' & X1 & X2 & X3); [exact S0| |exact Es|]; [done|]. exists flb, f'. split; [done|]. split; [done|]. intros. split; [by intros ->|by intros [=]].
      - edestruct sim_other as (flb & f' & X1 & X2 & X3); [exact S0| |exact Es|]; [done|]. exists flb, f'. split; [done|]. split; [done|]. intros. split; [by intros ->|by intros [=]]. }
    exists (fls ++ [flb]), f'. assert (forall o op ps ds, FInv o op ps ds ∈ fls ++ [flb] <-> GInv o op ps ds ∈ l1 ++ [lb]) as Hall.
    { intros o op ps ds. rewrite !elem_of_app, !elem_of_list_singleton, Hinv. split; (intros [?|E]; [by left|right]); symmetry; symmetry in E; by apply Hq. }
    split; [|split; [|split]].
    + eapply frun_app; [exact Hf|]. cbn [frun]. rewrite Hfs. by rewrite app_nil_r.
    + intros o op ps ds Hx. apply Hall in Hx. eapply Hwf. rewrite El. apply elem_of_app. left. exact Hx.
    + rewrite app_length. simpl. by rewrite Nat.add_1_r.
    + exact Hall.
Qed.

(** Every execution that the axioms allow is one of the machine of WeakFree.v. *)
Lemma covered ls s ev : wf_gcalls ls -> allowed w ls s ev ->
  exists fls f, fexec w fls f ev /\ wf_fcalls fls /\ c_w (f_c f) = g_w s /\ f_gone f = g_gone s /\ f_done f = g_done s /\ f_dropped f = g_dropped s /\ f_ub f = g_ub s /\ length (f_regs f) = length (g_regs s) /\
    (forall o op ps ds, FInv o op ps ds ∈ fls <-> GInv o op ps ds ∈ ls).
Proof.
  intros Hwf [He (mo & hb & K)]. destruct (sim_run _ _ _ _ _ Hwf He K ls [] s ev [] ltac:(by rewrite app_nil_r) He eq_refl) as (fls & f & H1 & H2 & S0 & H3). exists fls, f.
  split; [done|]. split; [done|]. do 5 (split; [apply S0|]). split; [|done]. by eapply Forall2_length, S0.
Qed.
End sim.
