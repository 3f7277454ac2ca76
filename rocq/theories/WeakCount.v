(** * Readers on weakly ordered memory: how many steps they take. *)
From Verif Require Import Model Mem Spec ProgSpec Prog Count IterProg Weak WeakInv WeakStep WeakSys WeakRun LinSpec Inv Safe SafeStep SafeOps SafeSys SafeProps Look Sem SemOps LiveStep Lock LockStep Lin LinProps Iter IterSpec IterSys
  WeakCoh WeakFun WeakWrite WeakWalk WeakTime WeakIter WeakBase WeakLin WeakLag WeakLock WeakLockSys WeakFree FreeSim FreeStep FreeInv FreeRun WeakProg WeakLockRun WeakLockEnd.

Section wcount.
Context {C : Config} {HC : ConfigOk C} (w : orders).
Implicit Types (o : opid) (op : oper) (s : fstate) (b : cstate) (p : pc) (ls : list flabel) (ll : list clabel) (ev e : list event) (M : nat -> mem) (H : nat -> cell -> list sh) (pos : loc -> list nat) (lv : list (sh * nat)).

(** What is left to do. *)
Definition rw pos p : N :=
  match p with GLoad _ _ cur => N.of_nat (17 - length (cpos pos cur)) | ELoad => 1 | INew => wfull 16 + 2 | INext lv _ => wstk lv + 1 | _ => 0 end.
Definition rB op : N := match op with OGet _ => 17 | OIsEmpty => 1 | OIter => wfull 16 + 2 | _ => 0 end.
Definition yw op (n : nat) : N := match op with OIter => N.of_nat n | _ => 0 end.
Local Opaque wfull.

Lemma rw_init pos op : is_reader op = true -> rw pos (op_init op) = rB op.
Proof. by destruct op. Qed.
Lemma rw_ext pos pos' (m m' : mem) o p : ext pos m pos' m' -> pc_ok pos (tagm {[o]} m) o p -> rw pos' p = rw pos p.
Proof. intros He Hpc. destruct p; try done. destruct Hpc as [[v Hv] _]. rewrite tag_cval in Hv. simpl. by rewrite (ext_cpos _ _ _ _ _ _ He Hv). Qed.

(** A step of an iterator. *)
Lemma w_inext M H N pos ll b ev o nn spur a b' lv out nx acts : strong w -> binv M H N pos ll b ev ->
  (exists tv pv, w_ops (c_w b) !! o = Some (WOp (SRun OIter (INext lv out)) tv pv)) -> (forall f, nx <> NFail f) -> sinfo w b b' o nn spur a (INext lv out) nx acts ->
  (exists lv' out', nx = NRun (INext lv' out') /\ (acts = [] /\ (wstk lv' + 1 <= wstk lv)%N \/ exists r, acts = [AYield r] /\ wstk lv' = wstk lv /\ top_left (w_mem (c_w b)) lv' < top_left (w_mem (c_w b)) lv)) \/
  (acts = [] /\ nx = NRet (RIter out)).
Proof.
  intros Hw B (tv & pv & Ho) Hnf Hi. pose proof (b_ops _ _ _ _ _ _ _ B _ _ Ho) as (_ & Hpc & _). cbn [w_st] in Hpc.
  pose proof (b_tl _ _ _ _ _ _ _ B) as T. pose proof (tl_minv _ _ _ _ T N ltac:(lia)) as Hm. rewrite (b_mem _ _ _ _ _ _ _ B) in Hm.
  destruct Hi as [M2 E1 E2 Hacc Hst Hfl|c kd ord v M1 M2 E1 E2 Hacc Hk1 Hk2 Hrd Hst Hv _ _ _ _|c kd ord v v' Hacc Hk _ _ _ _ _ _ _ _ _ _].
  - pose proof (op_step_tag {[o]} (w_mem (c_w b)) (INext lv out) spur a) as Et. rewrite Hst in Et. cbn [rmap] in Et.
    destruct (inext_measure _ _ _ _ _ _ _ _ _ _ _ (tag_minv_1 {[o]} _ _ Hm) Hpc Et) as (_ & [(lv' & out' & -> & Hc)|(-> & -> & ->)]); [|by right].
    left. exists lv', out'. split; [done|]. destruct Hc as [(_ & -> & Hc)|(r & _ & -> & Hc & Ht)]; [by left|right]. by exists r.
  - destruct lv as [|[v0 idx] rest]; [done|]. cbn [access] in Hacc. destruct (is_null v0 || sh_data v0 || (LEVEL_CELLS <=? idx)) eqn:Ec; [done|]. apply orb_false_iff in Ec as [Ec Elt]. apply orb_false_iff in Ec as [Enl Ed].
    destruct (sh_loc v0) as [l|] eqn:El; [|done]. injection Hacc as <- <- <-. destruct Hpc as [[(q & Hq & Hvk) _] _]. apply Nat.leb_gt in Elt. unfold LEVEL_CELLS in Elt.
    destruct (vok_inner _ _ _ _ _ _ Hvk Ed El) as (sl & Hb & Hpos & Hpr). pose proof (mi_slots _ _ (tag_minv_1 {[o]} _ _ Hm) _ _ Hb) as [_ Hlt]. rewrite Hpos, Hq in Hlt.
    cbn [op_step] in Hst. rewrite Enl, Ed, El in Hst. replace (idx <? LEVEL_CELLS) with true in Hst by (symmetry; apply Nat.ltb_lt; exact Elt). rewrite Hrd in Hst.
    destruct (MAX_LEVELS + 1 <=? length ((v0, idx) :: rest)) eqn:Emx. { injection Hst as _ <- _. by edestruct Hnf. }
    injection Hst as _ <- <-. left. do 2 eexists. split; [done|]. left. split; [done|]. cbn [wstk]. pose proof (went_full (16 - length ((v0, S idx) :: rest)) v) as Hu.
    replace (16 - length rest) with (S (16 - length ((v0, S idx) :: rest))) by (simpl; lia).
    remember (16 - length ((v0, S idx) :: rest)) as n eqn:En. unfold went at 2 3. rewrite Enl, Ed. simpl orb. cbv iota.
    replace (16 - idx) with (S (16 - S idx)) by lia. rewrite Nat2N.inj_succ, N.mul_succ_l. lia.
  - exfalso. destruct lv as [|[v0 idx] rest]; [done|]. simpl in Hacc. destruct (_ || _); [done|]. destruct (sh_loc v0); [|done]. injection Hacc as _ <- _. destruct Hk as [|[? _]]; done.
Qed.

Lemma reader_pc pos (m : mem) op p : is_reader op = true -> pc_sem pos m op p ->
  (exists k h cur, p = GLoad k h cur /\ op = OGet k) \/ (p = ELoad /\ op = OIsEmpty) \/ (p = INew /\ op = OIter) \/ (exists lv out, p = INext lv out /\ op = OIter).
Proof.
  intros Hrd Hps.
  destruct p as [t sh cur par|t sh cur par node new kind|kk pa ch i ac cnt la new|kk pa ch ins pr|k h cur|k h sh cur levels|k h sh cur levels node new del|del levels pa ch i cnt| | |lv out]; cbn [pc_sem] in Hps.
  - destruct Hps as (k & Ht & _). by destruct op.
  - destruct Hps as (k & Ht & _). by destruct op.
  - destruct kk; simpl in Hps; [destruct Hps as (k & Ht); by destruct op|destruct Hps as [-> _]; done|destruct Hps as (? & -> & _); done].
  - destruct kk; simpl in Hps; [destruct Hps as (k & Ht); by destruct op|destruct Hps as [-> _]; done|destruct Hps as (? & -> & _); done].
  - destruct Hps as [-> _]. left. eauto.
  - by destruct Hps as [-> _].
  - by destruct Hps as [-> _].
  - by destruct Hps as (? & -> & _).
  - right. by left.
  - right. right. by left.
  - right. right. right. eauto.
Qed.

Lemma w_reader M H N pos ll b ev o nn spur a b' ev1 M' H' N' pos' ll' ev' : strong w -> binv M H N pos ll b ev -> binv M' H' N' pos' ll' b' ev' -> ext pos (w_mem (c_w b)) pos' (w_mem (c_w b')) ->
  cstep w b (CStep o nn spur a) = Some (b', ev1) ->
  exists op p tv pv nx tv' pv' acts, w_ops (c_w b) !! o = Some (WOp (SRun op p) tv pv) /\ w_ops (c_w b') = <[o := WOp (nx_stat op nx) tv' pv']> (w_ops (c_w b)) /\ ev1 = nx_events o nx acts /\
   (is_reader op = true -> match nx with NRun p' => (1 + rw pos' p' <= rw pos p + yw op (ny acts))%N | NRet _ => (1 <= rw pos p)%N | NFail _ => False end).
Proof.
  intros Hw B B' Hext Hst. destruct (step_info w _ _ _ _ _ _ _ _ _ _ _ _ _ _ _ _ _ _ _ Hw B B' Hst) as (op & p & tv & pv & nx & tv' & pv' & acts & Ho & Hops & -> & _ & _ & Hi).
  exists op, p, tv, pv, nx, tv', pv', acts. split; [done|]. split; [done|]. split; [done|]. intros Hrd.
  assert (forall f, nx <> NFail f) as Hnf. { intros f ->. assert (w_ops (c_w b') !! o = Some (WOp (nx_stat op (NFail f)) tv' pv')) as E by (rewrite Hops; apply lookup_insert). by apply (b_ops _ _ _ _ _ _ _ B') in E. }
  pose proof (b_ops _ _ _ _ _ _ _ B _ _ Ho) as (Hwf & Hpc & Hps & _). cbn [w_st] in Hpc, Hps.
  pose proof (b_tl _ _ _ _ _ _ _ B) as T. pose proof (tl_minv _ _ _ _ T N ltac:(lia)) as Hm. rewrite (b_mem _ _ _ _ _ _ _ B) in Hm.
  pose proof (reader_pc _ _ _ _ Hrd Hps) as Hp.
  destruct Hp as [(k & h & cur & -> & ->)|[[-> ->]|[[-> ->]|(lv & out & -> & ->)]]].
  - destruct Hi as [M2 E1 E2 Hacc Hst' Hfl|c kd ord v M1 M2 E1 E2 Hacc Hk1 Hk2 Hrv Hst' Hv _ _ _ _|c kd ord v v' Hacc Hk _ _ _ _ _ _ _ _ _ _]; [done| |injection Hacc as _ <- _; destruct Hk as [|[? _]]; done].
    injection Hacc as <- <- <-. rewrite <-(b_hist _ _ _ _ _ _ _ B) in Hv. destruct (hist_ptr _ _ _ _ _ _ _ T Hv) as (Hp & _ & [v0 Hcv]). rewrite (b_mem _ _ _ _ _ _ _ B) in Hp, Hcv.
    pose proof (cpos_len _ _ _ _ Hm Hcv) as Hlen. cbn [op_step] in Hst'. rewrite Hrv in Hst'. cbn [rw yw].
    destruct (is_null v) eqn:Enl; [injection Hst' as _ <- <-; lia|]. destruct (sh_data v) eqn:Ed.
    { destruct (load_data M1 v); injection Hst' as _ <- <-; [by edestruct Hnf|lia]. }
    destruct (sh_loc v) as [l|] eqn:El; [|injection Hst' as _ <- _; by edestruct Hnf]. injection Hst' as _ <- <-.
    unfold ptr_ok in Hp. rewrite El, Ed in Hp. destruct Hp as (sl & Hb & Hpl). pose proof (mi_slots _ _ Hm _ _ Hb) as [_ Hlt]. rewrite Hpl in Hlt.
    assert (cpos pos' (CSlot l (bits h 0)) = pos l ++ [bits h 0]) as E. { simpl. f_equal. by eapply ext_pos. }
    cbn [rw]. rewrite E, app_length, Hpl. simpl. lia.
  - destruct Hi as [M2 E1 E2 Hacc Hst' Hfl|c kd ord v M1 M2 E1 E2 Hacc Hk1 Hk2 Hrv Hst' Hv _ _ _ _|c kd ord v v' Hacc Hk _ _ _ _ _ _ _ _ _ _]; [done| |injection Hacc as _ <- _; destruct Hk as [|[? _]]; done].
    cbn [op_step] in Hst'. injection Hst' as _ <- _. cbn [rw]. lia.
  - destruct Hi as [M2 E1 E2 Hacc Hst' Hfl|c kd ord v M1 M2 E1 E2 Hacc Hk1 Hk2 Hrv Hst' Hv _ _ _ _|c kd ord v v' Hacc Hk _ _ _ _ _ _ _ _ _ _]; [done| |injection Hacc as _ <- _; destruct Hk as [|[? _]]; done].
    cbn [op_step] in Hst'. injection Hst' as _ <- <-. cbn [rw wstk]. pose proof (went_full (16 - 0) (m_root M1)) as Hu. change (16 - length []) with (16 - 0). change (16 - 0) with 16 in *. lia.
  - destruct (w_inext _ _ _ _ _ _ _ _ _ _ _ _ _ _ _ _ Hw B ltac:(eauto) Hnf Hi) as [(lv' & out' & -> & [(-> & Hc)|(r & -> & Hc & _)])|(-> & ->)]; cbn [rw yw].
    + lia.
    + rewrite Hc. change (ny [AYield r]) with 1. lia.
    + lia.
Qed.

(** ** Along an execution *)
Definition cnt pos ls b ev o : Prop :=
  match w_ops (c_w b) !! o with
  | None => f_steps_of ls o = 0
  | Some x => match w_st x with
              | SRun op p => is_reader op = true -> (N.of_nat (f_steps_of ls o) + rw pos p <= rB op + yw op (length (yields_of ev o)))%N
              | SRet op _ => is_reader op = true -> (N.of_nat (f_steps_of ls o) <= rB op + yw op (length (yields_of ev o)))%N
              | _ => True
              end
  end.
Definition meas b o : N * nat :=
  match w_ops (c_w b) !! o with
  | Some x => match w_st x with SRun _ INew => ((wfull 16 + 2)%N, 0) | SRun _ (INext lv _) => ((wstk lv + 1)%N, top_left (w_mem (c_w b)) lv) | _ => (0%N, 0) end
  | None => (0%N, 0)
  end.

Lemma steps_snoc ls lb o : f_steps_of (ls ++ [lb]) o = f_steps_of ls o + if f_is_step o lb then 1 else 0.
Proof. unfold f_steps_of. rewrite List.filter_app, app_length. simpl. by destruct (f_is_step o lb). Qed.
Lemma yields_nx o nx acts : length (yields_of (nx_events o nx acts) o) = ny acts.
Proof. unfold nx_events. rewrite yields_len_app, ny_yields. destruct nx; simpl; lia. Qed.
Lemma yields_nx_other o o' nx acts : o' <> o -> length (yields_of (nx_events o nx acts) o') = 0.
Proof. intros Hne. unfold nx_events. rewrite yields_len_app, yields_other by done. destruct nx; simpl; lia. Qed.
Lemma yw_add op (x y : nat) : yw op (x + y) = (yw op x + yw op y)%N.
Proof. destruct op; simpl; lia. Qed.

Lemma top_left_ext pos pos' (m m' : mem) o lv out : ext pos m pos' m' -> pc_ok pos (tagm {[o]} m) o (INext lv out) -> top_left m' lv = top_left m lv.
Proof.
  intros He Hpc. apply top_left_same; [intros l it; by apply (ext_data pos m pos' m')|]. destruct lv as [|[v idx] rest]; [done|]. intros Hd. destruct Hpc as [[(q & _ & Hv) _] _].
  destruct (vok_data _ _ _ _ _ Hv Hd) as (t & it & -> & Hb & _). by exists it.
Qed.

Lemma c_step M H N pos ll b ev s lb s' e : strong w -> finv M H N pos ll b ev s -> (forall o op ps ds, lb = FInv o op ps ds -> op_wf op) -> fstep w s lb = Some (s', e) ->
  exists M' H' N' pos' ll' b', finv M' H' N' pos' ll' b' (ev ++ e) s' /\
    (forall o ls, cnt pos ls b ev o -> cnt pos' (ls ++ [lb]) b' (ev ++ e) o) /\
    (forall o, EInv o OIter ∈ ev -> (meas b' o = meas b o \/ lexNn (meas b' o) (meas b o)) /\ (f_is_step o lb = true -> lexNn (meas b' o) (meas b o))).
Proof.
  intros Hw I Hwf Hst.
  assert (forall s1, finv M H N pos ll b ev s1 -> e = [] -> (forall o, f_is_step o lb = false) -> exists M' H' N' pos' ll' b', finv M' H' N' pos' ll' b' (ev ++ e) s1 /\
    (forall o ls, cnt pos ls b ev o -> cnt pos' (ls ++ [lb]) b' (ev ++ e) o) /\
    (forall o, EInv o OIter ∈ ev -> (meas b' o = meas b o \/ lexNn (meas b' o) (meas b o)) /\ (f_is_step o lb = true -> lexNn (meas b' o) (meas b o)))) as Hq.
  { intros s1 I1 -> Hno. exists M, H, N, pos, ll, b. rewrite app_nil_r. split; [done|]. split.
    - intros o ls Hc. unfold cnt in *. by rewrite steps_snoc, Hno, Nat.add_0_r.
    - intros o _. split; [by left|]. by rewrite Hno. }
  destruct lb as [o op ps ds|o n spur a|o|o|i|].
  - destruct (finv_inv _ _ _ _ _ _ _ _ _ _ _ _ _ _ _ (Hwf _ _ _ _ eq_refl) Hw I Hst) as (b' & Hb & I'). exists M, H, N, pos, (ll ++ [CInv o op ps]), b'. split; [done|].
    cbn [cstep wstep] in Hb. destruct (forallb _ ps); [|done]. destruct (w_ops (c_w b) !! o) eqn:Eo; [done|]. injection Hb as <- <-. split.
    + intros o' ls Hc. unfold cnt in *. cbn [c_w w_ops]. rewrite steps_snoc. cbn [f_is_step]. rewrite Nat.add_0_r, yields_len_app. cbn [yields_of omap list_omap length]. rewrite Nat.add_0_r.
      destruct (decide (o' = o)) as [->|Hne]; [|by rewrite lookup_insert_ne]. rewrite lookup_insert. cbn [w_st]. intros Hrd. rewrite Eo in Hc. rewrite Hc, rw_init by done. lia.
    + intros o' Hin. split; [|done]. left. unfold meas. cbn [c_w w_ops w_mem]. destruct (decide (o' = o)) as [->|Hne]; [|by rewrite lookup_insert_ne].
      destruct (b_evi _ _ _ _ _ _ _ (fi_b _ _ _ _ _ _ _ _ I) _ _ Hin) as (x & Hx & _). discriminate (eq_trans (eq_sym Hx) Eo).
  - destruct (finv_step_ext _ _ _ _ _ _ _ _ _ _ _ _ _ _ _ Hw I Hst) as (M' & H' & N' & pos' & b' & a' & Hb & Hext & I'). exists M', H', N', pos', (ll ++ [CStep o n spur a']), b'. split; [done|].
    pose proof (fi_b _ _ _ _ _ _ _ _ I) as B. pose proof (fi_b _ _ _ _ _ _ _ _ I') as B'. split.
    + destruct (w_reader _ _ _ _ _ _ _ _ _ _ _ _ _ _ _ _ _ _ _ Hw B B' Hext Hb) as (op & p & tv & pv & nx & tv' & pv' & acts & Ho & Hops & -> & Hr).
      intros o' ls Hc. unfold cnt in *. rewrite steps_snoc, yields_len_app, Hops. cbn [f_is_step]. destruct (decide (o' = o)) as [->|Hne].
      * rewrite lookup_insert. rewrite Ho in Hc. cbn [w_st] in *. rewrite yields_nx, bool_decide_eq_true_2 by done. destruct nx as [p'|r|f]; cbn [nx_stat]; [..|done]; intros Hrd; specialize (Hc Hrd); specialize (Hr Hrd); rewrite yw_add; lia.
      * rewrite lookup_insert_ne by done. rewrite yields_nx_other by done. rewrite bool_decide_eq_false_2 by done. rewrite !Nat.add_0_r. destruct (w_ops (c_w b) !! o') as [x|] eqn:Ex; [|done].
        pose proof (b_ops _ _ _ _ _ _ _ B _ _ Ex) as Hbo. destruct (w_st x) as [op' p'| | |]; try done. destruct Hbo as (_ & Hpc & _). by rewrite (rw_ext pos pos' (w_mem (c_w b)) (w_mem (c_w b')) o' p' Hext Hpc).
    + destruct (step_info w _ _ _ _ _ _ _ _ _ _ _ _ _ _ _ _ _ _ _ Hw B B' Hb) as (op & p & tv & pv & nx & tv' & pv' & acts & Ho & Hops & -> & _ & _ & Hi).
      intros o' Hin. destruct (decide (o' = o)) as [->|Hne].
      * assert (lexNn (meas b' o) (meas b o)) as Hlex; [|split; [by right|done]]. destruct (b_evi _ _ _ _ _ _ _ B _ _ Hin) as (x & Hx & Hop). rewrite Ho in Hx. injection Hx as <-. injection Hop as ->.
        assert (forall f, nx <> NFail f) as Hnf. { intros f ->. assert (w_ops (c_w b') !! o = Some (WOp (nx_stat OIter (NFail f)) tv' pv')) as E by (rewrite Hops; apply lookup_insert). by apply (b_ops _ _ _ _ _ _ _ B') in E. }
        pose proof (b_ops _ _ _ _ _ _ _ B _ _ Ho) as (_ & Hpc & Hps & _). cbn [w_st] in Hpc, Hps. unfold meas. rewrite Ho, Hops, lookup_insert. cbn [w_st].
        assert (p = INew \/ exists lv out, p = INext lv out) as [->|(lv & out & ->)].
        { destruct (reader_pc _ _ OIter p eq_refl Hps) as [(? & ? & ? & _ & [=])|[[_ [=]]|[[-> _]|(lv & out & -> & _)]]]; [by left|right; eauto]. }
        -- destruct Hi as [M2 E1 E2 Hacc Hst' Hfl|c kd ord v M1 M2 E1 E2 Hacc Hk1 Hk2 Hrv Hst' Hv _ _ _ _|c kd ord v v' Hacc Hk _ _ _ _ _ _ _ _ _ _]; [done| |injection Hacc as _ <- _; destruct Hk as [|[? _]]; done].
           cbn [op_step] in Hst'. injection Hst' as _ <- <-. cbn [nx_stat wstk]. left. cbn [fst]. pose proof (went_full (16 - 0) (m_root M1)) as Hu. change (16 - length []) with (16 - 0). change (16 - 0) with 16 in *. lia.
        -- destruct (w_inext _ _ _ _ _ _ _ _ _ _ _ _ _ _ _ _ Hw B ltac:(eauto) Hnf Hi) as [(lv' & out' & -> & Hc)|(-> & ->)]; cbn [nx_stat].
           ++ assert (w_mem (c_w b') = w_mem (c_w b)) as ->.
              { destruct Hi as [M2 E1 _ _ _ _|c kd ord v M1 M2 E1 _ _ _ _ _ _ _ _ _ _ _|c kd ord v v' Hacc Hk _ _ _ _ _ _ _ _ _ _]; [done|done|]. exfalso.
                destruct lv as [|[v0 idx] rest]; [done|]. simpl in Hacc. destruct (_ || _); [done|]. destruct (sh_loc v0); [|done]. injection Hacc as _ <- _. destruct Hk as [|[? _]]; done. }
              destruct Hc as [(_ & Hc)|(r & _ & Hc & Ht)]; [left; cbn [fst]; lia|right; cbn [fst snd]; split; [lia|done]].
           ++ left. cbn [fst]. lia.
      * split; [|cbn [f_is_step]; by rewrite bool_decide_eq_false_2]. left. unfold meas. rewrite Hops, lookup_insert_ne by done. destruct (w_ops (c_w b) !! o') as [x|] eqn:Ex; [|done].
        pose proof (b_ops _ _ _ _ _ _ _ B _ _ Ex) as Hbo. destruct (w_st x) as [op' p'| | |]; try done. destruct Hbo as (_ & Hpc & _). destruct p'; try done. f_equal. by eapply top_left_ext.
  - cbn [fstep] in Hst. destruct (_ && _); [|done]. injection Hst as <- <-. apply Hq; [by apply finv_gone|done|done].
  - cbn [fstep] in Hst. destruct (_ && _); [|done]. injection Hst as <- <-. apply Hq; [by apply finv_gone|done|done].
  - destruct (finv_free _ _ _ _ _ _ _ _ _ _ _ _ I Hst) as [E I']. by apply Hq.
  - destruct (finv_drop _ _ _ _ _ _ _ _ _ _ _ I Hst) as [E I']. by apply Hq.
Qed.

Lemma c_run ls : strong w -> forall ls0 M H N pos ll b ev s s' ev', wf_fcalls ls -> finv M H N pos ll b ev s -> (forall o, cnt pos ls0 b ev o) -> frun w s ls = Some (s', ev') ->
  exists M' H' N' pos' ll' b', finv M' H' N' pos' ll' b' (ev ++ ev') s' /\ forall o, cnt pos' (ls0 ++ ls) b' (ev ++ ev') o.
Proof.
  intros Hw. induction ls as [|lb ls IH]; intros ls0 M H N pos ll b ev s s' ev' Hwf I Hc Hrun; cbn [frun] in Hrun.
  { injection Hrun as <- <-. rewrite !app_nil_r. eauto 10. }
  destruct (fstep w s lb) as [[s1 e1]|] eqn:Es; [|done]. destruct (frun w s1 ls) as [[s2 e2]|] eqn:Er; [|done]. injection Hrun as <- <-.
  destruct (c_step M H N pos ll b ev s lb s1 e1 Hw I) as (M1 & H1 & N1 & pos1 & ll1 & b1 & I1 & Hc1 & _); [intros o op ps ds ->; eapply Hwf; by left|done|].
  rewrite (app_assoc ev). replace (ls0 ++ lb :: ls) with ((ls0 ++ [lb]) ++ ls) by (by rewrite <-app_assoc). eapply (IH (ls0 ++ [lb])); [intros o op ps ds Hin; eapply Hwf; by right|exact I1| |exact Er]. intros o. apply Hc1, Hc.
Qed.
Lemma c_exec ls s ev : strong w -> wf_fcalls ls -> fexec w ls s ev -> exists M H N pos ll b, finv M H N pos ll b ev s /\ forall o, cnt pos ls b ev o.
Proof.
  intros Hw Hwf Hx. destruct finv0 as [pos I]. apply (c_run ls Hw [] _ _ _ _ _ _ _ _ _ _ Hwf I); [|exact Hx]. intros o. unfold cnt. simpl. by rewrite lookup_empty.
Qed.

Lemma reader_count ls s ev o op : strong w -> wf_fcalls ls -> fexec w ls s ev -> is_reader op = true -> EInv o op ∈ ev ->
  (N.of_nat (f_steps_of ls o) <= rB op + yw op (length (yields_of ev o)))%N /\
  (f_running s o op -> op <> OIter -> (N.of_nat (f_steps_of ls o) < rB op)%N).
Proof.
  intros Hw Hwf Hx Hrd Hin. destruct (c_exec _ _ _ Hw Hwf Hx) as (M & H & N & pos & ll & b & I & Hc). pose proof (fi_b _ _ _ _ _ _ _ _ I) as B. destruct (b_evi _ _ _ _ _ _ _ B _ _ Hin) as (x & Hxo & Hop).
  specialize (Hc o). unfold cnt in Hc. rewrite Hxo in Hc. pose proof (b_ops _ _ _ _ _ _ _ B _ _ Hxo) as Hbo. destruct (w_st x) as [op' p|op' r|op' f|] eqn:Est; try done; injection Hop as ->; specialize (Hc Hrd).
  - split; [lia|]. intros _ Hni. destruct Hbo as (_ & Hpc & Hps & _). assert (1 <= rw pos p)%N as H1.
    { destruct (reader_pc _ _ _ _ Hrd Hps) as [(k & h & cur & -> & _)|[[-> _]|[[_ ->]|(? & ? & _ & ->)]]]; [..|done|done].
      - destruct Hpc as [[v Hv] _]. rewrite tag_cval in Hv. pose proof (tl_minv _ _ _ _ (b_tl _ _ _ _ _ _ _ B) N ltac:(lia)) as Hm. rewrite (b_mem _ _ _ _ _ _ _ B) in Hm. pose proof (cpos_len _ _ _ _ Hm Hv). cbn [rw]. lia.
      - cbn [rw]. lia. }
    assert (yw op (length (yields_of ev o)) = 0%N) as E by (by destruct op). lia.
  - split; [done|]. intros [_ (p & tv & pv & Hp)] _. rewrite <-(ws_ops _ _ (cs_w _ _ (fi_sim _ _ _ _ _ _ _ _ I))), Hxo in Hp. injection Hp as ->. done.
Qed.

(** ** Iterators end *)
Lemma inf_finv sch st : strong w -> f_infinite w sch st -> (forall n o op ps ds, sch n = FInv o op ps ds -> op_wf op) -> forall n, exists M H N pos ll b ev, finv M H N pos ll b ev (st n).
Proof. intros Hw Hi Hwf n. destruct (f_inf_pinv _ _ _ Hw Hi Hwf n) as (M & H & N & pos & ll & b & ev & P). exists M, H, N, pos, ll, b, ev. apply P. Qed.

Lemma iter_ends sch st n0 o : strong w -> f_infinite w sch st -> (forall n o op ps ds, sch n = FInv o op ps ds -> op_wf op) -> f_running (st n0) o OIter ->
  ~ infinitely_often (fun n => f_is_step o (sch n) = true).
Proof.
  intros Hw Hinf Hwf [_ (p0 & tv0 & pv0 & Hp0)] Hio. destruct (inf_finv _ _ Hw Hinf Hwf n0) as (M & H & N & pos & ll & b & ev & I).
  assert (EInv o OIter ∈ ev) as Hin. { rewrite <-(ws_ops _ _ (cs_w _ _ (fi_sim _ _ _ _ _ _ _ _ I))) in Hp0. by destruct (b_ops _ _ _ _ _ _ _ (fi_b _ _ _ _ _ _ _ _ I) _ _ Hp0) as (_ & _ & _ & ? & _). }
  clear Hp0. remember (meas b o) as x eqn:Ex. revert n0 M H N pos ll b ev I Hin Ex. induction x as [x IH] using (well_founded_induction lexNn_wf). intros n0 M H N pos ll b ev I Hin ->.
  assert (forall k, exists M' H' N' pos' ll' b' ev', finv M' H' N' pos' ll' b' ev' (st (n0 + k)) /\ EInv o OIter ∈ ev' /\ (meas b' o = meas b o \/ lexNn (meas b' o) (meas b o))) as Hk.
  { induction k as [|k (M1 & H1 & N1 & pos1 & ll1 & b1 & ev1 & I1 & Hin1 & Hm1)]; [exists M, H, N, pos, ll, b, ev; rewrite Nat.add_0_r; split; [done|]; split; [done|by left]|].
    destruct (proj2 Hinf (n0 + k)) as [e He]. destruct (c_step M1 H1 N1 pos1 ll1 b1 ev1 _ _ _ e Hw I1 (Hwf (n0 + k)) He) as (M2 & H2 & N2 & pos2 & ll2 & b2 & I2 & _ & Hm2).
    exists M2, H2, N2, pos2, ll2, b2, (ev1 ++ e). rewrite Nat.add_succ_r. split; [done|]. split; [apply elem_of_app; by left|]. destruct (Hm2 o Hin1) as [[->|Hl] _]; [done|]. right. destruct Hm1 as [<-|Hm1]; [done|by eapply lexNn_trans]. }
  destruct (Hio n0) as (n' & Hn' & Hs). destruct (Hk (n' - n0)) as (M1 & H1 & N1 & pos1 & ll1 & b1 & ev1 & I1 & Hin1 & Hm1). replace (n0 + (n' - n0)) with n' in I1 by lia.
  destruct (proj2 Hinf n') as [e He]. destruct (c_step M1 H1 N1 pos1 ll1 b1 ev1 _ _ _ e Hw I1 (Hwf n') He) as (M2 & H2 & N2 & pos2 & ll2 & b2 & I2 & _ & Hm2). destruct (Hm2 o Hin1) as [_ Hl]. specialize (Hl Hs).
  eapply (IH (meas b2 o)); [|exact I2|apply elem_of_app; by left|reflexivity]. destruct Hm1 as [<-|Hm1]; [done|by eapply lexNn_trans].
Qed.
(** ** Readers come to their end *)
Lemma run_snoc ls s ev lb s' e : fexec w ls s ev -> fstep w s lb = Some (s', e) -> fexec w (ls ++ [lb]) s' (ev ++ e).
Proof.
  unfold fexec. generalize (@finit C). intros s0. revert s0 ev. induction ls as [|x ls IH]; intros s0 ev Hx Hst; cbn [frun app] in *; [injection Hx as <- <-; rewrite Hst; by rewrite app_nil_r|].
  destruct (fstep w s0 x) as [[s1 e1]|]; [|done]. destruct (frun w s1 ls) as [[s2 e2]|] eqn:Er; [|done]. injection Hx as <- <-. rewrite (IH _ _ Er Hst). by rewrite app_assoc.
Qed.
Lemma run_inv ls s ev o op : strong w -> wf_fcalls ls -> fexec w ls s ev -> f_running s o op -> EInv o op ∈ ev.
Proof.
  intros Hw Hwf Hx [_ (p & tv & pv & Hp)]. destruct (c_exec _ _ _ Hw Hwf Hx) as (M & H & N & pos & ll & b & I & _). rewrite <-(ws_ops _ _ (cs_w _ _ (fi_sim _ _ _ _ _ _ _ _ I))) in Hp.
  by destruct (b_ops _ _ _ _ _ _ _ (fi_b _ _ _ _ _ _ _ _ I) _ _ Hp) as (_ & _ & _ & ? & _).
Qed.
Definition finishes s o : Prop := exists ls s' ev r, f_alone o ls /\ f_spurious_steps ls = 0 /\ frun w s ls = Some (s', ev) /\ ERet o r ∈ ev.

Lemma finish_step ls s ev o op : strong w -> wf_fcalls ls -> fexec w ls s ev -> f_running s o op ->
  exists n a s' e, fstep w s (FStep o n false a) = Some (s', e) /\ wf_fcalls (ls ++ [FStep o n false a]) /\ fexec w (ls ++ [FStep o n false a]) s' (ev ++ e) /\ ((f_running s' o op -> finishes s' o) -> finishes s o).
Proof.
  intros Hw Hwf Hx Hr. destruct (fexec_pinv _ _ _ _ Hw Hwf Hx) as (M & H & N & pos & ll & b & P). destruct (can_step w _ _ _ _ _ _ _ _ _ _ P Hr) as (s' & e & Es). unfold newest_step in Es.
  set (n := match next_cell w (c_w (f_c s)) o with Some c => pred (length (w_hist (c_w (f_c s)) c)) | None => 0 end) in Es. set (a := new_addr (f_mem s)) in Es. exists n, a, s', e. split; [done|].
  split. { intros o1 op1 ps ds [Hin|Hin%elem_of_list_singleton]%elem_of_app; [by eapply Hwf|done]. } split; [by eapply run_snoc|]. intros Hf.
  destruct (step_goes _ _ _ _ _ _ _ _ _ _ _ _ _ _ _ _ Hw P Hr Es) as [Hr'|[r Hret]].
  - destruct (Hf Hr') as (ls2 & s2 & e2 & r & Hal & Hsp & Hrun & Hret). exists (FStep o n false a :: ls2), s2, (e ++ e2), r.
    split. { intros lb [->|Hlb]%elem_of_cons; [eauto|by apply Hal]. } split; [done|]. split; [cbn [frun]; by rewrite Es, Hrun|]. apply elem_of_app. by right.
  - exists [FStep o n false a], s', e, r. split. { intros lb Hlb%elem_of_list_singleton. subst lb. eauto. } split; [done|]. split; [cbn [frun]; by rewrite Es, app_nil_r|done].
Qed.

Lemma get_finishes ls s ev o op : strong w -> wf_fcalls ls -> fexec w ls s ev -> f_running s o op -> is_reader op = true -> op <> OIter -> finishes s o.
Proof.
  intros Hw Hwf Hx Hr Hrd Hni. remember (17 - f_steps_of ls o) as k eqn:Ek. revert ls s ev Hwf Hx Hr Ek. induction k as [k IH] using (well_founded_induction lt_wf). intros ls s ev Hwf Hx Hr ->.
  assert (f_steps_of ls o < 17) as Hlt.
  { destruct (reader_count _ _ _ _ _ Hw Hwf Hx Hrd (run_inv _ _ _ _ _ Hw Hwf Hx Hr)) as [_ Hc]. specialize (Hc Hr Hni). assert (rB op <= 17)%N by (destruct op; simpl; try lia; done). lia. }
  destruct (finish_step _ _ _ _ _ Hw Hwf Hx Hr) as (n & a & s' & e & Es & Hwf' & Hx' & Hf). apply Hf. intros Hr'. eapply IH; [|exact Hwf'|exact Hx'|exact Hr'|reflexivity].
  rewrite steps_snoc. cbn [f_is_step]. rewrite bool_decide_eq_true_2 by done. lia.
Qed.
Lemma iter_finishes ls s ev o : strong w -> wf_fcalls ls -> fexec w ls s ev -> f_running s o OIter -> finishes s o.
Proof.
  intros Hw Hwf Hx Hr. destruct (c_exec _ _ _ Hw Hwf Hx) as (M & H & N & pos & ll & b & I & _). remember (meas b o) as x eqn:Ex. revert ls M H N pos ll b ev s I Hwf Hx Hr Ex. induction x as [x IH] using (well_founded_induction lexNn_wf).
  intros ls M H N pos ll b ev s I Hwf Hx Hr ->. destruct (finish_step _ _ _ _ _ Hw Hwf Hx Hr) as (n & a & s' & e & Es & Hwf' & Hx' & Hf). apply Hf. intros Hr'.
  destruct (c_step M H N pos ll b ev s (FStep o n false a) s' e Hw I) as (M1 & H1 & N1 & pos1 & ll1 & b1 & I1 & _ & Hm); [done|done|].
  destruct (Hm o (run_inv _ _ _ _ _ Hw Hwf Hx Hr)) as [_ Hl]. eapply (IH (meas b1 o)); [|exact I1|exact Hwf'|exact Hx'|exact Hr'|reflexivity]. apply Hl. cbn [f_is_step]. by apply bool_decide_eq_true_2.
Qed.
Lemma reader_finishes ls s ev o op : strong w -> wf_fcalls ls -> fexec w ls s ev -> f_running s o op -> is_reader op = true -> finishes s o.
Proof. intros Hw Hwf Hx Hr Hrd. destruct op; try done; [by eapply get_finishes..|by eapply iter_finishes]. Qed.
End wcount.
