(** * Executions with closures that take their time are executions of Model.v, with hindsight. *)
From Verif Require Import Model Spec LinSpec Reenter.

Section sim.
Context {C : Config}.
Implicit Types (s : state) (m : mem) (o : opid) (p : Pl) (c : closures).

Definition hs_f (h : option Pl) (f : Key -> Pl) : Key -> Pl := match h with Some p => fun _ => p | None => f end.
Definition hs_ts (h : option Pl) (t : tstate) : tstate := match t with TSFuture k f => TSFuture k (hs_f h f) | TSCreated _ => t end.
Definition hs_t (h : option Pl) (t : tloc) : tloc := TLoc (hs_ts h (t_st t)) (t_mode t) (t_hash t).
Definition hs_k (h : option Pl) (k : pcont) : pcont := match k with KTrav t => KTrav (hs_t h t) | _ => k end.
Definition hs_pc (h : option Pl) (q : pc) : pc :=
  match q with
  | TLoad t shift cur par => TLoad (hs_t h t) shift cur par
  | TCas t shift cur par node new kind => TCas (hs_t h t) shift cur par node new kind
  | PMark k parent child i ac cnt last new => PMark (hs_k h k) parent child i ac cnt last new
  | PCas k parent child ins pr => PCas (hs_k h k) parent child ins pr
  | _ => q
  end.
Definition hs_pcb (h : option Pl) (b : bool) (q : pc) : pc := match b, h with true, Some p => fill p (hs_pc h q) | _, _ => hs_pc h q end.
Definition hs_nx (h : option Pl) (b : bool) (nx : next) : next := match nx with NRun q => NRun (hs_pcb h b q) | _ => nx end.
Definition has_call (acts : list act) : bool := match acts with ACall _ :: _ => true | _ => false end.

Lemma hs_key h t : ts_key (hs_ts h t) = ts_key t.
Proof. by destruct t. Qed.

Lemma fill_hs p q : fill p (hs_pc (Some p) q) = hs_pc (Some p) (fill p q).
Proof. destruct q as [| t ? ? ? ? [|] ?| | | | | | | | |]; done. Qed.

Definition hs_res (h : option Pl) (r : sres) : sres := match r with Some (m, nx, acts) => Some (m, hs_nx h (has_call acts) nx, acts) | None => None end.

Lemma hs_t_finish h m t r : t_finish m (hs_t h t) r [] = hs_res h (t_finish m t r []).
Proof. unfold t_finish. simpl. destruct (t_mode t); [done|]. by destruct r. Qed.
Lemma hs_prune_start h m k parent child : prune_start m (hs_k h k) parent child = hs_res h (prune_start m k parent child).
Proof. unfold prune_start. by destruct (sh_data child), (is_null child). Qed.
Lemma hs_prune_return h m k pr : prune_return m (hs_k h k) pr = hs_res h (prune_return m k pr).
Proof. destruct k as [t|k h'|del [|[? ?] ?]]; simpl; [done..| |]; destruct pr; simpl; try done; unfold rem_up; by destruct (is_null _). Qed.
Lemma hs_rem_up h m del levels : rem_up m del levels = hs_res h (rem_up m del levels).
Proof. destruct levels as [|[? ?] ?]; simpl; [done|]. by destruct (is_null _). Qed.
Lemma hs_prune_decide h m k parent child ac cnt last new : prune_decide m (hs_k h k) parent child ac cnt last new = hs_res h (prune_decide m k parent child ac cnt last new).
Proof. unfold prune_decide. by destruct (sh_cond child || sh_data child). Qed.

Ltac cm := repeat (first [done | apply hs_t_finish | apply (hs_prune_start _ _ (KTrav _)) | apply (hs_prune_start _ _ (KRem _ _)) | apply (hs_prune_start _ _ (KUp _ _)) | apply hs_prune_return | apply hs_rem_up | apply hs_prune_decide |
  match goal with |- context [match ?x with _ => _ end] => lazymatch x with context [match _ with _ => _ end] => fail | _ => destruct x eqn:? end end; simpl]).

Lemma op_step_hs h gs m q spur a : op_step gs m (hs_pc h q) spur a = hs_res h (op_step gs m q spur a).
Proof.
  destruct q as [t shift cur par|t shift cur par node new kind|k parent child i ac cnt last new|k parent child ins pr| | | | | | |].
  - unfold op_step, hs_pc. destruct (read_cell m cur) as [node|]; [|done]. destruct (sh_cond node).
    { destruct par as [[? ?]|]; [|done]. apply (hs_prune_start h m (KTrav t)). }
    destruct (is_null node).
    { destruct t as [[p|k f] md hh]; simpl; [done|]. destruct h; done. }
    destruct (sh_data node).
    { destruct (load_data m node) as [|[|d0 it]]; [done..|]. simpl t_st. rewrite hs_key.
      destruct (negb (keqb (keyof d0) (ts_key (t_st t))) && (shift <? HASH_BITS)). { by destruct (negb _). }
      simpl t_mode. destruct (match sh_loc node with Some l => find_ref (ts_key (t_st t)) l (d0 :: it) | None => None end) as [r|].
      - destruct (t_mode t) eqn:Em; [|apply hs_t_finish]. destruct t as [[p|k f] md hh]; simpl t_st; [done|]. destruct h as [v|]; [|done].
        cbn -[others]. by rewrite removelast_last.
      - destruct t as [[p|k f] md hh]; simpl t_st; [done|]. destruct h as [v|]; [|done]. cbn -[others]. by rewrite removelast_last. }
    destruct (sh_loc node); [|done]. by destruct (HASH_BITS <=? shift).
  - unfold op_step, hs_pc. simpl t_mode. cm.
  - unfold op_step, hs_pc. cm.
  - unfold op_step, hs_pc. cm.
  - unfold op_step, hs_pc. cm.
  - unfold op_step, hs_pc. cm.
  - unfold op_step, hs_pc. cm.
  - unfold op_step, hs_pc. cm.
  - unfold op_step, hs_pc. cm.
  - unfold op_step, hs_pc. cm.
  - unfold op_step, hs_pc. cm.
Qed.

(** ** Futures: a closure is called once *)
Definition fut_t (t : tloc) : bool := match t_st t with TSFuture _ _ => true | TSCreated _ => false end.
Definition fut_k (k : pcont) : bool := match k with KTrav t => fut_t t | _ => false end.
Definition fut (q : pc) : bool :=
  match q with TLoad t _ _ _ | TCas t _ _ _ _ _ _ => fut_t t | PMark k _ _ _ _ _ _ _ | PCas k _ _ _ _ => fut_k k | _ => false end.

Definition fut_ok (b : bool) (r : sres) : Prop :=
  match r with
  | Some (_, nx, acts) => (forall k, ACall k ∈ acts -> b = true /\ exists q', nx = NRun q' /\ fut q' = false) /\ (forall q', nx = NRun q' -> fut q' = true -> b = true) /\
      (acts = [] \/ (exists r, acts = [AYield r] /\ forall x, nx <> NRet x) \/ exists k, acts = [ACall k])
  | None => True
  end.
Arguments fut_ok : simpl never.
Lemma fut_ok_ok b m nx : (forall q', nx = NRun q' -> fut q' = true -> b = true) -> fut_ok b (ok m nx).
Proof. intros H. split; [by intros k ?%elem_of_nil|]. split; [done|by left]. Qed.
Lemma fut_t_finish b m t r : fut_ok b (t_finish m t r []).
Proof. unfold t_finish. destruct (t_mode t); [by apply (fut_ok_ok b)|]. destruct r; by apply (fut_ok_ok b). Qed.
Lemma fut_prune_start m k parent child : fut_ok (fut_k k) (prune_start m k parent child).
Proof. unfold prune_start. destruct (sh_data child), (is_null child); apply fut_ok_ok; try done. by intros q' [= <-]. Qed.
Lemma fut_rem_up b m del levels : fut_ok b (rem_up m del levels).
Proof. destruct levels as [|[? ?] ?]; simpl; [by apply (fut_ok_ok b)|]. destruct (is_null _); apply fut_ok_ok; [done|]. by intros q' [= <-]. Qed.
Lemma fut_prune_return m k pr : fut_ok (fut_k k) (prune_return m k pr).
Proof. destruct k as [t|k h'|del lv]; simpl; [apply fut_ok_ok; intros q' [= <-]; done..|]. destruct pr; try apply fut_rem_up. by apply (fut_ok_ok false). Qed.
Lemma fut_prune_decide m k parent child ac cnt last new : fut_ok (fut_k k) (prune_decide m k parent child ac cnt last new).
Proof. unfold prune_decide. destruct (sh_cond child || sh_data child); apply fut_ok_ok; [done|]. by intros q' [= <-]. Qed.

Ltac fm1 := lazymatch goal with
  | |- fut_ok _ (t_finish _ _ _ _) => apply fut_t_finish
  | |- fut_ok _ (rem_up _ _ _) => apply fut_rem_up
  | |- fut_ok _ (prune_start _ ?k _ _) => apply (fut_prune_start _ k)
  | |- fut_ok _ (prune_return _ ?k _) => apply (fut_prune_return _ k)
  | |- fut_ok _ (prune_decide _ ?k _ _ _ _ _ _) => apply (fut_prune_decide _ k)
  | |- fut_ok _ (ok _ (NRun _)) => apply fut_ok_ok; intros ? [= <-]; done
  | |- fut_ok _ (ok _ _) => apply fut_ok_ok; intros ? [=]
  | |- fut_ok _ (panics _ _) => apply fut_ok_ok; intros ? [=]
  | |- fut_ok _ None => exact I
  | |- fut_ok _ (let x := ?v in _) => cbv zeta
  | |- context [match ?x with _ => _ end] => lazymatch x with context [match _ with _ => _ end] => fail | _ => destruct x eqn:? end
  end.
Ltac fm2 := match goal with |- context [match ?x with _ => _ end] => lazymatch x with context [match _ with _ => _ end] => fail | _ => destruct x eqn:? end end.
Ltac fm := repeat first [progress fm1 | fm2].

Lemma op_step_fut gs m q spur a : fut_ok (fut q) (op_step gs m q spur a).
Proof.
  destruct q as [t shift cur par|t shift cur par node new kind|k parent child i ac cnt last new|k parent child ins pr| | | | | | |].
  - assert (forall new kind node, fut_ok (fut_t t) (let '(p, st', call) := ts_payload (t_st t) in
        Some (m, NRun (TCas (t_with t st') shift cur par node (new p) kind), match call with Some k => [ACall k] | None => [] end))) as Hp.
    { intros new kind node. destruct t as [[p|k f] md hh]; simpl; [split; [by intros k ?%elem_of_nil|split; [by intros q' [= <-]|by left]]|].
      split; [|split; [by intros q' [= <-]|right; right; eauto]]. intros k' [= ->]%elem_of_list_singleton. split; [done|]. eexists. split; [done|]. done. }
    unfold op_step, fut. destruct (read_cell m cur) as [node|]; [|by apply (fut_ok_ok (fut_t t))]. destruct (sh_cond node).
    { destruct par as [[? ?]|]; [|by apply (fut_ok_ok (fut_t t))]. apply (fut_prune_start m (KTrav t)). }
    destruct (is_null node). { apply (Hp (fun p => BData [p])). }
    destruct (sh_data node).
    { destruct (load_data m node) as [|[|d0 it]]; [by apply (fut_ok_ok (fut_t t))..|].
      destruct (negb (keqb (keyof d0) (ts_key (t_st t))) && (shift <? HASH_BITS)). { destruct (negb _); [by apply (fut_ok_ok (fut_t t))|]. apply fut_ok_ok. by intros q' [= <-]. }
      destruct (match sh_loc node with Some l => find_ref (ts_key (t_st t)) l (d0 :: it) | None => None end) as [r|].
      - destruct (t_mode t) eqn:Em; [|apply fut_t_finish]. apply (Hp (fun p => BData (others (ts_key (t_st t)) (d0 :: it) ++ [p]))).
      - apply (Hp (fun p => BData (others (ts_key (t_st t)) (d0 :: it) ++ [p]))). }
    destruct (sh_loc node); [|by apply (fut_ok_ok (fut_t t))]. destruct (HASH_BITS <=? shift); apply fut_ok_ok; [done|]. by intros q' [= <-].
  - unfold op_step, fut. fm.
  - unfold op_step, fut. fm.
  - unfold op_step, fut. fm.
  - unfold op_step, fut. fm.
  - unfold op_step, fut. fm.
  - unfold op_step, fut. fm.
  - unfold op_step, fut. fm.
  - unfold op_step, fut. fm.
  - unfold op_step, fut. fm.
  - unfold op_step, fut. fm.
    split; [by intros k [=]%elem_of_list_singleton|]. split; [by intros q' [= <-]|]. right; left. eauto.
Qed.

Local Arguments drop_rec : simpl never.
(** ** The whole system *)
(** [F]: what the closures will return. *)
Implicit Types F : closures.
Definition hs_of F o : option Pl := match F !! o with Some (Some p) => Some p | _ => None end.
Definition run_b c o : bool := match c !! o with Some None => true | _ => false end.
Definition hs_st F c o (st : ostat) : ostat :=
  match st with
  | SRun op q => SRun (known_op F o op) (hs_pcb (hs_of F o) (run_b c o) q)
  | SRet op r => SRet (known_op F o op) r
  | SFail op f => SFail (known_op F o op) f
  | SGone => SGone
  end.
Definition hs F c s : state := State (s_mem s) (map_imap (fun o st => Some (hs_st F c o st)) (s_ops s)) (s_dropped s) (s_ub s).
Definition hs_lb F (lb : label) : label := match lb with LInv o op => LInv o (known_op F o op) | _ => lb end.

Lemma hs_ops F c s o : s_ops (hs F c s) !! o = hs_st F c o <$> s_ops s !! o.
Proof. unfold hs. simpl. rewrite map_lookup_imap. by destruct (s_ops s !! o). Qed.
Lemma hs_guards F c s : guards (hs F c s) = guards s.
Proof.
  apply set_eq. intros o. unfold guards. rewrite !elem_of_dom. split; intros [st Hst]; apply map_filter_lookup_Some in Hst as [Hst Ha].
  - rewrite hs_ops in Hst. apply fmap_Some in Hst as (st' & Hs & ->). exists st'. apply map_filter_lookup_Some. split; [done|]. by destruct st'.
  - exists (hs_st F c o st). apply map_filter_lookup_Some. split; [by rewrite hs_ops, Hst|]. by destruct st.
Qed.
Lemma state_eq s1 s2 : s_mem s1 = s_mem s2 -> (forall o, s_ops s1 !! o = s_ops s2 !! o) -> s_dropped s1 = s_dropped s2 -> s_ub s1 = s_ub s2 -> s1 = s2.
Proof. destruct s1, s2; simpl. intros -> H -> ->. f_equal. by apply map_eq. Qed.
Lemma hs_insert F c c' s m o st : (forall o', o' <> o -> c' !! o' = c !! o') ->
  hs F c' (State m (<[o := st]> (s_ops s)) (s_dropped s) (s_ub s)) = State m (<[o := hs_st F c' o st]> (s_ops (hs F c s))) (s_dropped s) (s_ub s).
Proof.
  intros H. apply state_eq; [done| |done..]. intros o'. rewrite hs_ops. simpl. destruct (decide (o' = o)) as [->|Hne]; [by rewrite !lookup_insert|].
  rewrite !lookup_insert_ne by done. rewrite map_lookup_imap. destruct (s_ops s !! o') as [st'|]; [|done]. simpl. f_equal. unfold hs_st, run_b. by rewrite H.
Qed.

Lemma op_init_hs F o op : op_init (known_op F o op) = hs_pc (hs_of F o) (op_init op).
Proof. destruct op; try done. simpl. unfold hs_of. destruct (F !! o) as [[|]|]; done. Qed.

Lemma note_other o e c o' : (forall x, x ∈ e -> match x with ECall o1 _ => o1 = o | _ => True end) -> o' <> o -> note e c !! o' = c !! o'.
Proof.
  intros H Hne. induction e as [|x e IH]; [done|]. simpl. assert (note e c !! o' = c !! o') as E by (apply IH; intros y Hy; apply H; by right).
  specialize (H x ltac:(by left)). destruct x; try done. subst. by rewrite lookup_insert_ne.
Qed.
Lemma note_quiet e c : (forall o k, ECall o k ∉ e) -> note e c = c.
Proof. induction e as [|x e IH]; [done|]. intros H. simpl. rewrite IH; [|intros o k Hi; apply (H o k); by right]. destruct x; try done. exfalso. eapply H. by left. Qed.

(** Called closures are not called again. *)
Definition once (x : dstate) : Prop := forall o, x.2 !! o <> None -> exists st, s_ops x.1 !! o = Some st /\ match st with SRun _ q => fut q = false | _ => True end.

Lemma step_events o op q gs m spur a m' nx acts c : op_step gs m q spur a = Some (m', nx, acts) ->
  let e := map (act_event o) acts ++ match nx with NRet r => [ERet o r] | _ => [] end in
  (forall o', o' <> o -> note e c !! o' = c !! o') /\ note e c !! o = (if has_call acts then Some None else c !! o) /\ (has_call acts = true -> fut q = true /\ exists q', nx = NRun q' /\ fut q' = false) /\
  known_op c o op = known_op c o op.
Proof.
  intros H e. pose proof (op_step_fut gs m q spur a) as Hf. rewrite H in Hf. destruct Hf as (H1 & H2 & H3).
  split; [|split; [|split; [|done]]].
  - intros o' Hne. apply (note_other o); [|done]. intros x [Hx|Hx]%elem_of_app.
    + apply elem_of_list_In, in_map_iff in Hx as (y & <- & _). by destruct y.
    + destruct nx; [by apply elem_of_nil in Hx| |by apply elem_of_nil in Hx]. by apply elem_of_list_singleton in Hx as ->.
  - destruct H3 as [->|[(r & -> & Hr)|(k & ->)]]; subst e; simpl.
    + by destruct nx.
    + destruct nx as [| |]; [done|by destruct (Hr r0)|done].
    + by rewrite lookup_insert.
  - destruct acts as [|[k|] ?]; try done. intros _. destruct (H1 k) as [? ?]; [by left|]. done.
Qed.

Lemma dstep_hs F x lb x' e : once x -> dstep x lb = Some (x', e) -> (forall o p, lb = DReturn o p -> F !! o = Some (Some p)) ->
  match lb with
  | DSys lb => step (hs F x.2 x.1) (hs_lb F lb) = Some (hs F x'.2 x'.1, map (known F) e)
  | DReturn _ _ => hs F x'.2 x'.1 = hs F x.2 x.1 /\ e = []
  end.
Proof.
  destruct x as [s c]. intros Ho H HF. destruct lb as [lb|o p]; simpl in *.
  - destruct (waits c lb) eqn:Ew; [done|]. destruct (step s lb) as [[s1 e1]|] eqn:Hs; [|done]. injection H as <- <-. simpl.
    destruct lb as [o op|o spur a|o|o|n|]; simpl in Hs |- *.
    + rewrite map_lookup_imap. destruct (s_ops s !! o) eqn:Eo; [done|]. simpl. destruct (s_dropped s) eqn:Ed; [done|]. injection Hs as <- <-. simpl. f_equal. f_equal.
      unfold set_op. rewrite (hs_insert F c c); [|done]. simpl. f_equal. f_equal. f_equal.
      assert (c !! o = None) as Ec. { destruct (c !! o) eqn:Ec; [|done]. destruct (Ho o) as (st & Hst & _); [simpl; by rewrite Ec|]. simpl in Hst. congruence. }
      unfold run_b. rewrite Ec. simpl. apply op_init_hs.
    + rewrite map_lookup_imap. destruct (s_ops s !! o) as [[op q| | |]|] eqn:Eo; try done. simpl.
      assert (run_b c o = false) as -> by done. simpl. rewrite hs_guards, op_step_hs.
      destruct (op_step (guards s) (s_mem s) q spur a) as [[[m' nx] acts]|] eqn:Es; [|done]. injection Hs as <- <-. simpl.
      destruct (step_events o op q _ _ _ _ _ _ _ c Es) as (N1 & N2 & N3 & _). f_equal. f_equal.
      * rewrite (hs_insert F c _ s m' o); [|done]. unfold run_b. f_equal. f_equal. destruct nx as [q'|r|f]; simpl; [|done..]. f_equal. unfold hs_nx, run_b. rewrite N2.
        destruct (has_call acts) eqn:Ea; [done|]. destruct (c !! o) as [[?|]|] eqn:Ec; try done. simpl in Ew. by rewrite Ec in Ew.
      * rewrite map_app. f_equal; [|by destruct nx]. rewrite map_map. apply map_ext. by intros [].
    + rewrite map_lookup_imap. destruct (s_ops s !! o) as [[| | |]|] eqn:Eo; try done. injection Hs as <- <-. simpl. unfold set_op. by rewrite (hs_insert F c c).
    + rewrite map_lookup_imap. destruct (s_ops s !! o) as [[| | |]|] eqn:Eo; try done. injection Hs as <- <-. simpl. unfold set_op. by rewrite (hs_insert F c c).
    + rewrite hs_guards. destruct (m_garb (s_mem s) !! n) as [[[l k] gs]|]; [|done]. destruct (bool_decide _); [|done]. by injection Hs as <- <-.
    + rewrite hs_guards. destruct (bool_decide (guards s = ∅) && negb (s_dropped s)); [|done]. destruct (drop_rec _ _ _); by injection Hs as <- <-.
  - destruct (c !! o) as [[|]|] eqn:Ec; try done. destruct (s_ops s !! o) as [[op q| | |]|] eqn:Eo; try done. injection H as <- <-. split; [|done]. simpl.
    specialize (HF o p eq_refl). unfold set_op. rewrite (hs_insert F c); [|intros o' Hne; by rewrite lookup_insert_ne].
    apply state_eq; [done| |done..]. intros o'. simpl. destruct (decide (o' = o)) as [->|Hne]; [|by rewrite lookup_insert_ne].
    rewrite lookup_insert, map_lookup_imap, Eo. simpl. f_equal. f_equal. unfold run_b, hs_of. rewrite Ec, lookup_insert, HF. simpl. by rewrite fill_hs.
Qed.

Lemma fut_fill p q : fut q = false -> fut (fill p q) = false.
Proof. by destruct q as [| ? ? ? ? ? [] ?| | | | | | | | |]. Qed.

Lemma step_ops s lb s' e o st : step s lb = Some (s', e) -> s_ops s !! o = Some st -> exists st', s_ops s' !! o = Some st'.
Proof.
  intros Hs Hst. assert (forall s1 o1 st1, s_ops s1 = <[o1 := st1]> (s_ops s) -> exists st', s_ops s1 !! o = Some st') as Hi.
  { intros s1 o1 st1 ->. destruct (decide (o = o1)) as [->|]; [rewrite lookup_insert; eauto|rewrite lookup_insert_ne; eauto]. }
  destruct lb as [o1 op|o1 spur a|o1|o1|n|]; simpl in Hs.
  - destruct (s_ops s !! o1), (s_dropped s); try done. injection Hs as <- <-. by eapply Hi.
  - destruct (s_ops s !! o1) as [[op q| | |]|]; try done. destruct (op_step _ _ _ _ _) as [[[? ?] ?]|]; [|done]. injection Hs as <- <-. by eapply Hi.
  - destruct (s_ops s !! o1) as [[| | |]|]; try done. injection Hs as <- <-. by eapply Hi.
  - destruct (s_ops s !! o1) as [[| | |]|]; try done. injection Hs as <- <-. by eapply Hi.
  - destruct (m_garb (s_mem s) !! n) as [[[? ?] ?]|]; [|done]. destruct (bool_decide _); [|done]. injection Hs as <- <-. eauto.
  - destruct (_ && _); [|done]. destruct (drop_rec _ _ _); injection Hs as <- <-; eauto.
Qed.

Lemma dstep_once x lb x' e : once x -> dstep x lb = Some (x', e) ->
  once x' /\ (forall o p, x.2 !! o = Some (Some p) -> x'.2 !! o = Some (Some p)).
Proof.
  destruct x as [s c]. intros Ho H. destruct lb as [lb|o p]; simpl in *.
  - destruct (waits c lb) eqn:Ew; [done|]. destruct (step s lb) as [[s1 e1]|] eqn:Hs; [|done]. injection H as <- <-. simpl.
    destruct lb as [o op|o spur a|o|o|n|]; simpl in Hs.
    + destruct (s_ops s !! o) eqn:Eo; [done|]. destruct (s_dropped s) eqn:Ed; [done|]. injection Hs as <- <-. simpl. split; [|done].
      intros o' Hc. destruct (Ho o' Hc) as (st & Hst & ?). simpl in Hst |- *. rewrite lookup_insert_ne by congruence. eauto.
    + destruct (s_ops s !! o) as [[op q| | |]|] eqn:Eo; try done.
      destruct (op_step (guards s) (s_mem s) q spur a) as [[[m' nx] acts]|] eqn:Es; [|done]. injection Hs as <- <-.
      destruct (step_events o op q _ _ _ _ _ _ _ c Es) as (N1 & N2 & N3 & _). split.
      * intros o' Hc. simpl in Hc |- *. destruct (decide (o' = o)) as [->|Hne].
        -- rewrite lookup_insert. eexists. split; [done|]. rewrite N2 in Hc. destruct (has_call acts) eqn:Ea; [by destruct (N3 eq_refl) as (_ & q' & -> & ?)|].
           destruct (Ho o Hc) as (st & Hst & Hfut). simpl in Hst. rewrite Eo in Hst. injection Hst as <-.
           pose proof (op_step_fut (guards s) (s_mem s) q spur a) as Hf. rewrite Es in Hf. destruct Hf as (_ & H2 & _). destruct nx as [q'| |]; try done.
           destruct (fut q') eqn:Eq; [|done]. by rewrite (H2 q' eq_refl Eq) in Hfut.
        -- rewrite lookup_insert_ne by done. apply Ho. simpl. by rewrite N1 in Hc.
      * intros o' p Hp. destruct (decide (o' = o)) as [->|Hne]; [|by rewrite N1]. rewrite N2. destruct (has_call acts) eqn:Ea; [|done]. exfalso.
        destruct (N3 eq_refl) as (Hq & _). destruct (Ho o) as (st & Hst & Hfut); [simpl; congruence|]. simpl in Hst. rewrite Eo in Hst. injection Hst as <-. congruence.
    + destruct (s_ops s !! o) as [[| | |]|] eqn:Eo; try done. injection Hs as <- <-. simpl. split; [|done]. intros o' Hc. destruct (Ho o' Hc) as (st & Hst & ?). simpl in Hst |- *.
      destruct (decide (o' = o)) as [->|]; [exists SGone; by rewrite lookup_insert|exists st; by rewrite lookup_insert_ne].
    + destruct (s_ops s !! o) as [[| | |]|] eqn:Eo; try done. injection Hs as <- <-. simpl. split; [|done]. intros o' Hc. destruct (Ho o' Hc) as (st & Hst & ?). simpl in Hst |- *.
      destruct (decide (o' = o)) as [->|]; [exists SGone; by rewrite lookup_insert|exists st; by rewrite lookup_insert_ne].
    + destruct (m_garb (s_mem s) !! n) as [[[? ?] ?]|]; [|done]. destruct (bool_decide _); [|done]. by injection Hs as <- <-.
    + destruct (_ && _); [|done]. destruct (drop_rec _ _ _); by injection Hs as <- <-.
  - destruct (c !! o) as [[|]|] eqn:Ec; try done. destruct (s_ops s !! o) as [[op q| | |]|] eqn:Eo; try done. injection H as <- <-. split; simpl.
    + intros o' Hc. simpl in *. destruct (decide (o' = o)) as [->|Hne].
      * rewrite lookup_insert. eexists. split; [done|]. simpl. apply fut_fill. destruct (Ho o) as (st & Hst & Hf); [simpl; congruence|]. simpl in Hst. rewrite Eo in Hst. by injection Hst as <-.
      * rewrite lookup_insert_ne in Hc by done. rewrite lookup_insert_ne by done. by apply Ho.
    + intros o' p' Hp. destruct (decide (o' = o)) as [->|Hne]; [congruence|]. by rewrite lookup_insert_ne.
Qed.

Lemma drun_once ls : forall x x' e, once x -> drun x ls = Some (x', e) -> once x' /\ (forall o p, x.2 !! o = Some (Some p) -> x'.2 !! o = Some (Some p)).
Proof.
  induction ls as [|lb ls IH]; intros x x' e Ho H; simpl in H; [by injection H as <- <-|].
  destruct (dstep x lb) as [[x1 e1]|] eqn:Hs; [|done]. destruct (drun x1 ls) as [[x2 e2]|] eqn:Hr; [|done]. injection H as <- <-.
  destruct (dstep_once _ _ _ _ Ho Hs) as [Ho1 Hk]. destruct (IH _ _ _ Ho1 Hr) as [? Hk2]. split; [done|]. auto.
Qed.

Lemma drun_hs ls : forall x x' e F, once x -> drun x ls = Some (x', e) -> (forall o p, x'.2 !! o = Some (Some p) -> F !! o = Some (Some p)) ->
  run (hs F x.2 x.1) (map (hs_lb F) (sys ls)) = Some (hs F x'.2 x'.1, map (known F) e).
Proof.
  induction ls as [|lb ls IH]; intros x x' e F Ho H HF; simpl in H; [by injection H as <- <-|].
  destruct (dstep x lb) as [[x1 e1]|] eqn:Hs; [|done]. destruct (drun x1 ls) as [[x2 e2]|] eqn:Hr; [|done]. injection H as <- <-.
  destruct (dstep_once _ _ _ _ Ho Hs) as [Ho1 _]. pose proof (drun_once _ _ _ _ Ho1 Hr) as [_ Hk].
  pose proof (dstep_hs F _ _ _ _ Ho Hs) as Hsim. specialize (IH _ _ _ F Ho1 Hr HF).
  assert (forall o p, lb = DReturn o p -> F !! o = Some (Some p)) as HR.
  { intros o p ->. apply HF, Hk. simpl in Hs. destruct (x.2 !! o) as [[|]|], (s_ops x.1 !! o) as [[| | |]|]; try done. injection Hs as <- _. simpl. by rewrite lookup_insert. }
  specialize (Hsim HR). destruct lb as [lb|o p]; simpl in *.
  - rewrite Hsim, IH. f_equal. f_equal. by rewrite map_app.
  - destruct Hsim as [<- ->]. done.
Qed.

Lemma once_init : once (init, ∅).
Proof. intros o H. simpl in H. by rewrite lookup_empty in H. Qed.
Lemma hs_init F c : hs F c init = init.
Proof. by apply state_eq. Qed.

(** With hindsight, it is an execution of Model.v. *)
Theorem dexec_exec ls s c ev : dexec ls s c ev -> exec (map (hs_lb c) (sys ls)) (hs c c s) (map (known c) ev).
Proof. intros H. pose proof (drun_hs ls _ _ _ c once_init H (fun _ _ E => E)) as R. simpl in R. by rewrite hs_init in R. Qed.
End sim.
