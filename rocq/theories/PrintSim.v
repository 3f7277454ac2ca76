(** * Printing the shape is simulated by iterating. *)
From Verif Require Import Model Mem SafeSys SafeProps Spec Lin LinProps LinSpec IterSpec ProgSpec Print PrintSpec.

Section printsim.
Context {C : Config}.
Implicit Types (s : state) (m : mem) (ls : list label) (o : opid) (pls : list plabel) (st : pstat) (out : list tok) (ys : list rref) (p : pc) (v w : sh).

(** The state in which call [o] is an iteration at [p]. *)
Definition shd s o p : state := State (s_mem s) (<[o := SRun OIter p]> (s_ops s)) (s_dropped s) (s_ub s).

Definition ipc st ys : pc := match st with PStart => INew | PLoop fr _ => INext fr ys | _ => INext [] ys end.

Lemma shd_guards s o p op0 p0 : s_ops s !! o = Some (SRun op0 p0) -> guards (shd s o p) = guards s.
Proof. intros H. unfold shd. by eapply guards_same. Qed.

Lemma shd_step s o p lb s' e : s_ops s !! o = Some (SRun OIter INew) -> of_printer o lb = false -> step s lb = Some (s', e) ->
  step (shd s o p) lb = Some (shd s' o p, e) /\ s_ops s' !! o = Some (SRun OIter INew).
Proof.
  intros Ho Hp Hst. destruct lb as [o' op|o' spur a|o'|o'|n|]; cbn [step of_printer] in *; unfold shd at 1; cbn [s_ops s_mem s_dropped s_ub] in *.
  - destruct (decide (o = o')) as [<-|Hne]; [by rewrite Ho in Hst|]. rewrite lookup_insert_ne by done.
    destruct (s_ops s !! o'); [done|]. destruct (s_dropped s) eqn:Ed; [done|]. injection Hst as <- <-. simpl. rewrite lookup_insert_ne by done. split; [|done].
    unfold shd, set_op. simpl. rewrite Ed. by rewrite insert_commute.
  - apply bool_decide_eq_false in Hp. rewrite lookup_insert_ne by congruence. destruct (s_ops s !! o') as [[op q| | |]|] eqn:Eo; try done.
    rewrite (shd_guards s o p _ _ Ho).
    destruct (op_step _ _ _ _ _) as [[[m' nx] acts]|]; [|done]. injection Hst as <- <-. simpl. rewrite lookup_insert_ne by congruence. split; [|done].
    unfold shd. simpl. by rewrite insert_commute by congruence.
  - apply bool_decide_eq_false in Hp. rewrite lookup_insert_ne by congruence. destruct (s_ops s !! o') as [[]|]; try done. injection Hst as <- <-. simpl.
    rewrite lookup_insert_ne by congruence. split; [|done]. unfold shd, set_op. simpl. by rewrite insert_commute by congruence.
  - apply bool_decide_eq_false in Hp. rewrite lookup_insert_ne by congruence. destruct (s_ops s !! o') as [[]|]; try done. injection Hst as <- <-. simpl.
    rewrite lookup_insert_ne by congruence. split; [|done]. unfold shd, set_op. simpl. by rewrite insert_commute by congruence.
  - rewrite (shd_guards s o p _ _ Ho). destruct (m_garb (s_mem s) !! n) as [[[l k] g]|]; [|done]. case_bool_decide; [|done].
    injection Hst as <- <-. done.
  - exfalso. assert (o ∈ guards s) as Hg by (apply elem_of_guards; eauto). rewrite bool_decide_false in Hst by set_solver. done.
Qed.

(** A number of steps of the iteration, with nothing in between. *)
Definition isteps o (n : nat) : list label := replicate n (LStep o false 1%N).

Lemma run_isteps_S s o n : run s (isteps o (S n)) = match step s (LStep o false 1%N) with Some (s1, e1) =>
  match run s1 (isteps o n) with Some (s2, e2) => Some (s2, e1 ++ e2) | None => None end | None => None end.
Proof. done. Qed.

Lemma shd_istep s o p p' acts : op_step (guards (shd s o p)) (s_mem s) p false 1 = Some (s_mem s, NRun p', acts) ->
  step (shd s o p) (LStep o false 1%N) = Some (shd s o p', map (act_event o) acts).
Proof.
  intros H. cbn [step]. assert (s_ops (shd s o p) !! o = Some (SRun OIter p)) as -> by (simpl; by rewrite lookup_insert). change (s_mem (shd s o p)) with (s_mem s). rewrite H. rewrite app_nil_r. unfold shd. simpl. by rewrite insert_insert.
Qed.

(** [its s o p n p' ys]: from [p], [n] steps lead to [p'], yield [ys], and touch nothing. *)
Definition its s o p n p' ys : Prop := run (shd s o p) (isteps o n) = Some (shd s o p', EYield o <$> ys).

Lemma its_refl s o p : its s o p 0 p [].
Proof. done. Qed.
Lemma its_step s o p p1 acts n p' ys y : op_step (guards (shd s o p)) (s_mem s) p false 1 = Some (s_mem s, NRun p1, acts) -> acts = AYield <$> y ->
  its s o p1 n p' ys -> its s o p (S n) p' (y ++ ys).
Proof.
  intros H -> Hr. unfold its. rewrite run_isteps_S, (shd_istep _ _ _ _ _ H). unfold its in Hr. rewrite Hr. f_equal. f_equal.
  rewrite fmap_app. f_equal. clear. induction y as [|r y IH]; [done|]. cbn. f_equal. exact IH.
Qed.
Lemma its_step0 s o p p1 n p' ys : op_step (guards (shd s o p)) (s_mem s) p false 1 = Some (s_mem s, NRun p1, []) ->
  its s o p1 n p' ys -> its s o p (S n) p' ys.
Proof. intros H Hr. exact (its_step s o p p1 [] n p' ys [] H eq_refl Hr). Qed.
Lemma its_trans s o p n p1 n1 p2 ys ys1 : its s o p n p1 ys -> its s o p1 n1 p2 ys1 -> its s o p (n + n1) p2 (ys ++ ys1).
Proof.
  intros H1 H2. unfold its, isteps in *. rewrite replicate_add, run_app, H1. rewrite H2. by rewrite fmap_app.
Qed.

(** Leaving loops. *)
Lemma its_leave s o fr : forall out ys, (forall v i, (v, i) ∈ fr -> sh_data v = false /\ is_null v = false) ->
  exists n, its s o (INext fr ys) n (ipc (leave fr out) ys) [].
Proof.
  induction fr as [|[v i] fr IH]; intros out ys Hfr; simpl.
  - exists 0. apply its_refl.
  - destruct (i <? LEVEL_CELLS) eqn:Ei; [exists 0; apply its_refl|].
    destruct (IH (out ++ [TClose]) ys) as [n Hn]; [intros v' i' H; apply (Hfr v' i'); by right|]. exists (S n).
    eapply its_step0; [|exact Hn]. destruct (Hfr v i) as [Hd Hnl]; [by left|]. cbn [op_step]. by rewrite Hd, Hnl, Ei.
Qed.

(** Yielding the elements of a data node. *)
Lemma its_data s o v l it rest : is_null v = false -> sh_data v = true -> sh_loc v = Some l -> load_data (s_mem s) v = inr it ->
  forall n i ys, n = length it - i -> its s o (INext ((v, i) :: rest) ys) (S n) (INext rest (ys ++ (zip_with (RRef l) (seq i n) (drop i it)))) (zip_with (RRef l) (seq i n) (drop i it)).
Proof.
  intros Hn Hd Hl Hld. induction n as [|n IH]; intros i ys Hi.
  - simpl. rewrite app_nil_r. eapply its_step0; [|apply its_refl]. cbn [op_step].
    rewrite Hn, Hd, Hld, Hl. by rewrite lookup_ge_None_2 by lia.
  - destruct (it !! i) as [x|] eqn:Ex; [|apply lookup_ge_None in Ex; lia].
    rewrite (drop_S _ _ _ Ex). simpl. change (RRef l i x :: zip_with (RRef l) (seq (S i) n) (drop (S i) it)) with ([RRef l i x] ++ zip_with (RRef l) (seq (S i) n) (drop (S i) it)).
    rewrite app_assoc. eapply its_step; [|reflexivity|apply IH; lia]. cbn [op_step]. by rewrite Hn, Hd, Hld, Hl, Ex.
Qed.

Lemma elements_app out out' : elements (out ++ out') = elements out ++ elements out'.
Proof. unfold elements. rewrite omap_app. generalize (omap (fun t => match t with TData it => Some it | _ => None end) out). intros l. induction l as [|x l IH]; [done|]. cbn. rewrite <-app_assoc. f_equal. exact IH. Qed.
Lemma leave_written fr out : elements (written (leave fr out)) = elements out /\ (forall f, leave fr out <> PFail f) /\ leave fr out <> PStart.
Proof.
  revert out. induction fr as [|[v i] fr IH]; intros out; simpl; [done|]. destruct (i <? LEVEL_CELLS); [done|].
  destruct (IH (out ++ [TClose])) as (H1 & H2 & H3). rewrite H1. split; [|done]. rewrite elements_app. by rewrite app_nil_r.
Qed.

Definition frames_of st : list (sh * nat) := match st with PLoop fr _ => fr | _ => [] end.
Definition wfp st : Prop := (forall v i, (v, i) ∈ frames_of st -> sh_data v = false /\ is_null v = false) /\
  match st with PLoop ((_, i) :: _) _ => i < LEVEL_CELLS | PLoop [] _ | PFail _ => False | _ => True end.

Lemma leave_wfp fr out : (forall v i, (v, i) ∈ fr -> sh_data v = false /\ is_null v = false) -> wfp (leave fr out).
Proof.
  revert out. induction fr as [|[v i] fr IH]; intros out H; simpl; [split; [intros ? ? Hx; by apply elem_of_nil in Hx|done]|].
  destruct (i <? LEVEL_CELLS) eqn:E; [split; [done|by apply Nat.ltb_lt]|]. apply IH. intros v' i' Hx. apply (H v' i'). by right.
Qed.

(** What [print_ptr] does, the iteration does, or it fails. *)
Lemma print_ptr_sim s o w fr out ys : (forall v i, (v, i) ∈ fr -> sh_data v = false /\ is_null v = false) ->
  (exists n y, its s o (INext ((w, 0) :: fr) ys) n (ipc (print_ptr (s_mem s) w fr out) (ys ++ y)) y /\
     elements (written (print_ptr (s_mem s) w fr out)) = elements out ++ (rr_val <$> y) /\ wfp (print_ptr (s_mem s) w fr out) /\ length y <= n) \/
  (exists f, op_step (guards (shd s o (INext ((w, 0) :: fr) ys))) (s_mem s) (INext ((w, 0) :: fr) ys) false 1 = Some (s_mem s, NFail f, [])).
Proof.
  intros Hfr. unfold print_ptr. destruct (is_null w) eqn:En; [|destruct (sh_data w) eqn:Ed].
  - left. set (out1 := out ++ _). destruct (its_leave s o fr out1 ys Hfr) as [n Hn]. exists (S n), []. rewrite app_nil_r. split.
    + eapply its_step0; [|exact Hn]. cbn [op_step]. by rewrite En.
    + split; [|split; [by apply leave_wfp|simpl; lia]]. destruct (leave_written fr out1) as [-> _]. subst out1. rewrite elements_app. done.
  - destruct (load_data (s_mem s) w) as [f|it] eqn:El; [right; exists f; cbn [op_step]; by rewrite En, Ed, El|left].
    assert (exists l, sh_loc w = Some l) as [l Hl]. { unfold is_null in En. destruct (sh_loc w); [eauto|done]. }
    set (out1 := (out ++ _) ++ _). set (y := zip_with (RRef l) (seq 0 (length it)) it).
    destruct (its_leave s o fr out1 (ys ++ y) Hfr) as [n Hn]. exists (S (length it) + n), y. split.
    + pose proof (its_data s o w l it fr En Ed Hl El (length it) 0 ys ltac:(lia)) as H1. rewrite drop_0 in H1.
      pose proof (its_trans _ _ _ _ _ _ _ _ _ H1 Hn) as H2. by rewrite app_nil_r in H2.
    + split; [|split; [by apply leave_wfp|subst y; rewrite zip_with_length, seq_length; lia]]. destruct (leave_written fr out1) as [-> _]. subst out1 y. rewrite !elements_app. rewrite <-app_assoc. f_equal. unfold elements at 1 2. simpl. rewrite app_nil_r.
      clear. generalize 0. induction it as [|x it IH]; intros n; [done|]. simpl. f_equal. apply IH.
  - left. exists 0, []. rewrite app_nil_r. split; [apply its_refl|]. split; [cbn [written]; rewrite !elements_app, <-app_assoc; done|]. split; [|simpl; lia]. split; [|unfold LEVEL_CELLS; simpl; lia].
    intros v i [[= -> ->]|Hx]%elem_of_cons; [done|by eapply Hfr].
Qed.

Lemma its_fail s o p n p' ys f : its s o p n p' ys -> reachable (shd s o p) ->
  op_step (guards (shd s o p')) (s_mem s) p' false 1 = Some (s_mem s, NFail f, []) -> False.
Proof.
  intros Hi (ls & ev & Hx) Hf. set (s' := State (s_mem s) (<[o := SFail OIter f]> (s_ops s)) (s_dropped s) (s_ub s)).
  apply (no_failure s' o OIter f).
  - exists ((ls ++ isteps o n) ++ [LStep o false 1%N]), ((ev ++ (EYield o <$> ys)) ++ []). unfold exec. rewrite run_app. unfold exec in Hx. rewrite run_app, Hx. unfold its in Hi. rewrite Hi.
    cbn [run step]. assert (s_ops (shd s o p') !! o = Some (SRun OIter p')) as -> by (simpl; by rewrite lookup_insert). change (s_mem (shd s o p')) with (s_mem s). rewrite Hf. simpl. subst s'. unfold shd. simpl. rewrite insert_insert. done.
  - subst s'. simpl. by rewrite lookup_insert.
Qed.

Lemma print_step_sim s o st ys : reachable (shd s o (ipc st ys)) -> wfp st -> st <> PStart \/ ys = [] -> (st = PStart \/ exists fr out, st = PLoop fr out) ->
  exists n y, its s o (ipc st ys) (S n) (ipc (print_step (s_mem s) st) (ys ++ y)) y /\
    elements (written (print_step (s_mem s) st)) = elements (written st) ++ (rr_val <$> y) /\ (wfp (print_step (s_mem s) st) /\ length y <= n) /\ print_step (s_mem s) st <> PStart.
Proof.
  intros Hr Hw Hy Hst.
  assert (forall w fr out, print_ptr (s_mem s) w fr out <> PStart) as Hns.
  { intros w fr out. unfold print_ptr. repeat case_match; try done; apply leave_written. }
  destruct Hst as [->|(fr & out & ->)].
  - destruct Hy as [?| ->]; [done|]. cbn [print_step ipc written]. 
    assert (op_step (guards (shd s o INew)) (s_mem s) INew false 1 = Some (s_mem s, NRun (INext [(m_root (s_mem s), 0)] []), [])) as H0 by done.
    destruct (print_ptr_sim s o (m_root (s_mem s)) [] [] []) as [(n & y & H1 & H2 & H3)|[f Hf]]; [intros ? ? Hx; by apply elem_of_nil in Hx| |].
    + exists n, y. split; [|done]. by eapply its_step0.
    + exfalso. eapply (its_fail s o INew 1); [|exact Hr|exact Hf]. eapply its_step0; [exact H0|apply its_refl].
  - destruct fr as [|[v i] rest]; [by destruct Hw as [_ ?]|]. destruct Hw as [Hfr Hi]. cbn [print_step ipc written].
    destruct (Hfr v i) as [Hd Hn]; [by left|]. assert (i <? LEVEL_CELLS = true) as Ei by (by apply Nat.ltb_lt).
    assert (forall f, op_step (guards (shd s o (INext ((v, i) :: rest) ys))) (s_mem s) (INext ((v, i) :: rest) ys) false 1 <> Some (s_mem s, NFail f, [])) as Hnf.
    { intros f Hf. eapply (its_fail s o _ 0 _ []); [apply its_refl|exact Hr|exact Hf]. }
    cbn [op_step] in Hnf. rewrite Hn, Hd, Ei in Hnf. destruct (sh_loc v) as [l|] eqn:Hl; [|by destruct (Hnf FUB)].
    destruct (read_cell (s_mem s) (CSlot l i)) as [w|] eqn:Er; [|by destruct (Hnf FUB)].
    destruct (MAX_LEVELS + 1 <=? length ((v, i) :: rest)) eqn:Em; [by destruct (Hnf (FPanic PLevelsFull))|].
    assert (op_step (guards (shd s o (INext ((v, i) :: rest) ys))) (s_mem s) (INext ((v, i) :: rest) ys) false 1 = Some (s_mem s, NRun (INext ((w, 0) :: (v, S i) :: rest) ys), [])) as H0.
    { cbn [op_step]. by rewrite Hn, Hd, Ei, Hl, Er, Em. }
    destruct (print_ptr_sim s o w ((v, S i) :: rest) (out ++ [TIdx i]) ys) as [(n & y & H1 & H2 & H3)|[f Hf]].
    { intros v' i' [[= -> ->]|Hx]%elem_of_cons; [done|]. apply (Hfr v' i'). by right. }
    + exists n, y. split; [|split; [|done]].
      * by eapply its_step0.
      * rewrite H2, elements_app. by rewrite app_nil_r.
    + exfalso. eapply (its_fail s o _ 1); [|exact Hr|exact Hf]. eapply its_step0; [exact H0|apply its_refl].
Qed.
End printsim.
