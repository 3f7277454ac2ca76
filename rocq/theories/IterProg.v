(** * Iterators terminate. *)
From Verif Require Import Model Mem Inv Safe SafeStep SafeOps SafeSys SafeProps Spec IterSpec ProgSpec Prog Shape LiveStep Count.

Section iterprog.
Context {C : Config}.
Implicit Types (m : mem) (pos : loc -> list nat) (v w : sh) (o : opid) (gs : gset opid) (s : state) (ls : list label) (ev : list event) (lv : list (sh * nat)).

(** The number of steps (other than yields) it can take to work off a pointer with [n] levels below it. *)
Fixpoint wfull (n : nat) : N := match n with 0 => 1 | S n => 17 + 16 * wfull n end.
Lemma wfull_S n : wfull (S n) = (17 + 16 * wfull n)%N.
Proof. reflexivity. Qed.
Local Arguments wfull : simpl never.
Lemma wfull_0 : wfull 0 = 1%N.
Proof. reflexivity. Qed.
Definition went (n : nat) v (idx : nat) : N :=
  if is_null v || sh_data v then 1 else match n with 0 => 1 | S n => (N.of_nat (16 - idx)) * (1 + wfull n) + 1 end.
Fixpoint wstk lv : N := match lv with [] => 0 | (v, idx) :: rest => went (16 - length rest) v idx + wstk rest end.

Lemma wfull_pos n : (1 <= wfull n)%N.
Proof. destruct n; rewrite ?wfull_S, ?wfull_0; lia. Qed.
Lemma went_pos n v idx : (1 <= went n v idx)%N.
Proof. unfold went. destruct (_ || _); [lia|]. destruct n as [|n]; [lia|]. generalize (N.of_nat (16 - idx) * (1 + wfull n))%N. lia. Qed.
Lemma went_full n v : (went n v 0 <= wfull n)%N.
Proof. unfold went. destruct (_ || _); [apply wfull_pos|]. destruct n as [|n]; rewrite ?wfull_S, ?wfull_0; [lia|]. change (N.of_nat (16 - 0)) with 16%N. lia. Qed.

Definition top_left m lv : nat :=
  match lv with
  | (v, idx) :: _ => if sh_data v then match sh_loc v with Some t => match hbody m t with Some (BData it) => length it - idx | _ => 0 end | None => 0 end else 0
  | [] => 0
  end.

(* one step: a yield, or the stack gets lighter *)
Lemma inext_measure gs pos m o lv out spur a m' nx acts : minv pos m -> pc_ok pos m o (INext lv out) ->
  op_step gs m (INext lv out) spur a = Some (m', nx, acts) ->
  m' = m /\ ((exists lv' out', nx = NRun (INext lv' out') /\
    ((out' = out /\ acts = [] /\ (wstk lv' + 1 <= wstk lv)%N) \/ (exists r, out' = out ++ [r] /\ acts = [AYield r] /\ wstk lv' = wstk lv /\ top_left m lv' < top_left m lv))) \/
  (lv = [] /\ acts = [] /\ nx = NRet (RIter out))).
Proof.
  intros Hm Hpc Hst. simpl in Hpc. destruct Hpc as [Hstk Hout]. cbn [op_step] in Hst. destruct lv as [|[v idx] rest].
  { injection Hst as <- <- <-. split; [done|]. by right. }
  destruct Hstk as [(q & Hq & Hv) Hrest].
  assert (m' = m /\ nx = NRun (INext rest out) /\ acts = [] -> m' = m /\ ((exists lv' out', nx = NRun (INext lv' out') /\
    ((out' = out /\ acts = [] /\ (wstk lv' + 1 <= wstk ((v, idx) :: rest))%N) \/
     (exists r, out' = out ++ [r] /\ acts = [AYield r] /\ wstk lv' = wstk ((v, idx) :: rest) /\ top_left m lv' < top_left m ((v, idx) :: rest)))) \/
      ((v, idx) :: rest = [] /\ acts = [] /\ nx = NRet (RIter out)))) as Hpop.
  { intros (-> & -> & ->). split; [done|]. left. exists rest, out. split; [done|]. left. split; [done|]. split; [done|]. cbn [wstk].
    pose proof (went_pos (16 - length rest) v idx). lia. }
  destruct (is_null v) eqn:Enl; [injection Hst as <- <- <-; by apply Hpop|].
  pose proof Enl as Enl0. unfold is_null in Enl. destruct (sh_loc v) as [l|] eqn:El; [|done]. destruct (sh_data v) eqn:Ed.
  { destruct (vok_data _ _ _ _ _ Hv Ed) as (tl & it & Etl & Hb & Hdr & Hld & Hlen). rewrite Hld in Hst. assert (tl = l) as -> by congruence.
    destruct (it !! idx) as [p|] eqn:Ei; [|injection Hst as <- <- <-; by apply Hpop].
    injection Hst as <- <- <-. split; [done|]. left. do 2 eexists. split; [done|]. right. exists (RRef l idx p). split; [done|]. split; [done|].
    apply lookup_lt_Some in Ei. split.
    - simpl. f_equal. unfold went. by rewrite Ed, orb_true_r.
    - simpl. rewrite Ed, El, Hb. lia. }
  destruct (idx <? LEVEL_CELLS) eqn:Elt; [|injection Hst as <- <- <-; by apply Hpop].
  apply Nat.ltb_lt in Elt. unfold LEVEL_CELLS in Elt. destruct (vok_inner _ _ _ _ _ _ Hv Ed El) as (sl & Hb & Hpos & Hpr).
  assert (cok m o (CSlot l idx)) as Hck by (by eapply cok_slot). destruct (cok_read _ _ _ _ Hm Hck) as (u & Hrd & Hcv). rewrite Hrd in Hst.
  pose proof (mi_slots _ _ Hm _ _ Hb) as [_ Hlt]. rewrite Hpos, Hq in Hlt.
  destruct (MAX_LEVELS + 1 <=? length ((v, idx) :: rest)) eqn:Emx.
  { exfalso. apply Nat.leb_le in Emx. unfold MAX_LEVELS, HASH_BITS, LEVEL_BITS in Emx. simpl in Emx. lia. }
  injection Hst as <- <- <-. split; [done|]. left. do 2 eexists. split; [done|]. left. split; [done|]. split; [done|].
  cbn [wstk]. pose proof (went_full (16 - length ((v, S idx) :: rest)) u) as Hu.
  replace (16 - length rest) with (S (16 - length ((v, S idx) :: rest))) by (simpl; lia).
  remember (16 - length ((v, S idx) :: rest)) as n eqn:En. unfold went at 2 3. rewrite Enl0, Ed. simpl orb. cbv iota.
  replace (16 - idx) with (S (16 - S idx)) by lia. rewrite Nat2N.inj_succ, N.mul_succ_l. lia.
Qed.

Lemma iter_alive s o op p : reachable s -> s_ops s !! o = Some (SRun op p) -> exists pos, minv pos (s_mem s) /\ pc_ok pos (s_mem s) o p /\ o ∈ guards s.
Proof.
  intros Hr Ho. apply reach_sinv in Hr as [_ Hl]. destruct (s_dropped s).
  - exfalso. pose proof (di_guards _ Hl) as H1. assert (o ∈ guards s) as Hin by (apply elem_of_guards; eauto). rewrite H1 in Hin. by apply elem_of_empty in Hin.
  - destruct Hl as [pos Hl]. exists pos. split; [apply Hl|]. split; [by apply (li_ops _ _ Hl) in Ho|apply elem_of_guards; eauto].
Qed.

(** ** Step counts *)
Definition Witer (pos : loc -> list nat) (m : mem) (p : pc) : N :=
  match p with INew => wfull 16 + 2 | INext lv out => wstk lv + 1 | _ => 0 end.

Lemma iter_count ls s ev o : exec ls s ev -> EInv o OIter ∈ ev -> (N.of_nat (steps_of ls o) <= wfull 16 + 2 + N.of_nat (length (yields_of ev o)))%N.
Proof.
  intros Hx Hi. destruct (count_steps true Witer (fun op => op = OIter) (wfull 16 + 2)%N) with (ls := ls) (s := s) (ev := ev) as [H _]; [..|done|by eapply H].
  - intros pos m op ->. simpl. lia.
  - intros gs pos m pos' m' o' op p spur a nx acts Hm Hog Hpc Hsh -> Hst Hmt Hnx. destruct p; simpl in Hsh; try done; try (by destruct Hsh); try (by destruct k).
    + destruct k; simpl in Hsh; [done|by destruct Hsh..].
    + destruct k; simpl in Hsh; [done|by destruct Hsh..].
    + cbn [op_step] in Hst. injection Hst as <- <- <-. cbn [Witer wstk]. pose proof (went_full (16 - 0) (m_root m)) as H1. change (16 - length []) with (16 - 0).
      change (16 - 0) with 16 in *. unfold yc, ny. simpl. lia.
    + destruct (inext_measure _ _ _ _ _ _ _ _ _ _ _ Hm Hpc Hst) as (-> & [(lv' & out' & -> & Hc)|(-> & -> & ->)]); [|simpl; lia].
      cbn [Witer]. destruct Hc as [(-> & -> & Hc)|(r & -> & -> & Hc & _)]; unfold yc, ny; simpl; lia.
  - intros pos m pos' m' o' op p Hm Hext Hpc Hsh ->. destruct p; simpl; lia.
Qed.

Lemma get_count ls s ev o k : exec ls s ev -> EInv o (OGet k) ∈ ev -> steps_of ls o <= 17 /\ (in_progress s o (OGet k) -> steps_of ls o < 17).
Proof.
  intros Hx Hi. destruct (count_steps false (fun pos m p => match p with GLoad _ _ cur => N.of_nat (17 - length (cpos pos cur)) | _ => 0%N end) (fun op => exists k, op = OGet k) 17%N)
    with (ls := ls) (s := s) (ev := ev) as [H H']; [..|done|].
  4:{ specialize (H o _ Hi (ex_intro _ k eq_refl)). simpl in H. split; [lia|]. intros [p Hp].
      destruct (s_dropped s) eqn:Ed; [exfalso; destruct (iter_alive s o _ _ (ex_intro _ ls (ex_intro _ ev Hx)) Hp) as (? & _ & _ & Hog);
        destruct (exec_sinv _ _ _ Hx) as [_ Hs]; rewrite Ed in Hs; rewrite (di_guards _ Hs) in Hog; by apply elem_of_empty in Hog|].
      destruct (H' eq_refl) as (pos & Hl & Hc). specialize (Hc o). unfold cnt_ok in Hc. rewrite Hp in Hc. specialize (Hc (ex_intro _ k eq_refl)). simpl in Hc.
      destruct (si_run _ _ (exec_sh _ _ _ Hx) _ _ _ Hp) as [Hsh _].
      destruct p as [| |kk| kk| | | | | | |]; simpl in Hsh; try done; try (by destruct Hsh); try (by destruct kk; [|destruct Hsh..]).
      pose proof (li_ops _ _ Hl _ _ Hp) as Hpc. simpl in Hpc. destruct Hpc as [[v Hv] _]. pose proof (cpos_len _ _ _ _ (li_mem _ _ Hl) Hv). lia. }
  - intros pos m op [k' ->]. simpl. lia.
  - intros gs pos m pos' m' o' op p spur a nx acts Hm Hog Hpc Hsh [k' ->] Hst Hmt Hnx. destruct p as [| |kk| kk| | | | | | |]; simpl in Hsh; try done; try (by destruct Hsh); try (by destruct kk; [|destruct Hsh..]).
    simpl in Hpc. destruct (cok_read _ _ _ _ Hm Hpc) as (v & Hrd & Hcv). cbn [op_step] in Hst. rewrite Hrd in Hst.
    pose proof (mi_ptr _ _ Hm _ _ Hcv) as Hp. pose proof (cpos_len _ _ _ _ Hm Hcv) as Hlen.
    destruct (is_null v) eqn:Enl; [injection Hst as <- <- <-; lia|]. destruct (sh_data v) eqn:Ed.
    { destruct (load_data m v); injection Hst as <- <- <-; [done|lia]. }
    destruct (sh_loc v) as [l|] eqn:El; [|by injection Hst as <- <- <-]. injection Hst as <- <- <-.
    unfold ptr_ok in Hp. rewrite El, Ed in Hp. destruct Hp as (sl & Hb & Hpl).
    pose proof (mi_slots _ _ Hm _ _ Hb) as [_ Hlt]. rewrite Hpl in Hlt.
    assert (cpos pos' (CSlot l (bits h 0)) = pos l ++ [bits h 0]) as ->.
    { simpl. f_equal. eapply ext_pos; [by eapply mtr_ext|exact Hb]. }
    rewrite app_length, Hpl. simpl. lia.
  - intros pos m pos' m' o' op p Hm Hext Hpc Hsh [k' ->]. destruct p; try lia. simpl in Hpc. destruct Hpc as [[v Hv] _]. rewrite (ext_cpos _ _ _ _ _ _ Hext Hv). lia.
Qed.

Lemma isempty_count ls s ev o : exec ls s ev -> EInv o OIsEmpty ∈ ev -> steps_of ls o <= 1 /\ (in_progress s o OIsEmpty -> steps_of ls o = 0).
Proof.
  intros Hx Hi. destruct (count_steps false (fun pos m p => match p with ELoad => 1%N | _ => 0%N end) (fun op => op = OIsEmpty) 1%N)
    with (ls := ls) (s := s) (ev := ev) as [H H']; [..|done|].
  4:{ specialize (H o _ Hi eq_refl). simpl in H. split; [lia|]. intros [p Hp].
      destruct (s_dropped s) eqn:Ed; [exfalso; destruct (iter_alive s o _ _ (ex_intro _ ls (ex_intro _ ev Hx)) Hp) as (? & _ & _ & Hog);
        destruct (exec_sinv _ _ _ Hx) as [_ Hs]; rewrite Ed in Hs; rewrite (di_guards _ Hs) in Hog; by apply elem_of_empty in Hog|].
      destruct (H' eq_refl) as (pos & Hl & Hc). specialize (Hc o). unfold cnt_ok in Hc. rewrite Hp in Hc. specialize (Hc eq_refl). simpl in Hc.
      destruct (si_run _ _ (exec_sh _ _ _ Hx) _ _ _ Hp) as [Hsh _].
      destruct p as [| |kk| kk| | | | | | |]; simpl in Hsh; try done; try (by destruct Hsh); try (by destruct kk; [|destruct Hsh..]). lia. }
  - intros pos m op ->. done.
  - intros gs pos m pos' m' o' op p spur a nx acts Hm Hog Hpc Hsh -> Hst Hmt Hnx. destruct p as [| |kk| kk| | | | | | |]; simpl in Hsh; try done; try (by destruct Hsh); try (by destruct kk; [|destruct Hsh..]).
    cbn [op_step] in Hst. injection Hst as <- <- <-. lia.
  - intros pos m pos' m' o' op p Hm Hext Hpc Hsh ->. destruct p; lia.
Qed.

(** ** The stack *)
Lemma iter_stack s o op lv out : reachable s -> s_ops s !! o = Some (SRun op (INext lv out)) -> length lv <= MAX_LEVELS + 1.
Proof.
  intros (ls & ev & Hx). revert ls s ev Hx o op lv out.
  apply (exec_ind (fun ls s ev => forall o op lv out, s_ops s !! o = Some (SRun op (INext lv out)) -> length lv <= MAX_LEVELS + 1)).
  { intros o op lv out H. simpl in H. by rewrite lookup_empty in H. }
  intros ls s ev lb s' e Hx IH Hst o op lv out Ho.
  destruct lb as [o' op'|o' spur a|o'|o'|n|]; cbn [step] in Hst.
  - destruct (s_ops s !! o') eqn:Eo, (s_dropped s); simplify_eq. simpl in Ho. destruct (decide (o' = o)) as [->|].
    + rewrite lookup_insert in Ho. by destruct op'.
    + rewrite lookup_insert_ne in Ho by done. by eapply IH.
  - destruct (s_ops s !! o') as [[op' p|?|?|]|] eqn:Eo; try done.
    destruct (op_step (guards s) (s_mem s) p spur a) as [[[m' nx] acts]|] eqn:Estep; [|done]. injection Hst as <- <-. simpl in Ho.
    destruct (decide (o' = o)) as [->|]; [|rewrite lookup_insert_ne in Ho by done; by eapply IH].
    rewrite lookup_insert in Ho. destruct nx as [p'|?|?]; try done. injection Ho as -> ->.
    destruct (si_run _ _ (exec_sh _ _ _ Hx) _ _ _ Eo) as [Hsh _].
    pose proof (op_step_shape _ _ _ _ _ _ Hsh _ _ _ Estep) as [Hsh' _]. simpl in Hsh'. subst op.
    assert (p = INew \/ exists lv out, p = INext lv out) as [->|(lv0 & out0 & ->)].
    { destruct p as [| |kk| kk| | | | | | |]; simpl in Hsh; try done; try (by destruct Hsh); try (by destruct kk; [|destruct Hsh..]); [by left|right; eauto]. }
    + cbn [op_step] in Estep. injection Estep as <- <- <- <-. simpl. lia.
    + pose proof (IH _ _ _ _ Eo) as Hl. cbn [op_step] in Estep. destruct lv0 as [|[v idx] rest]; [done|]. change (MAX_LEVELS + 1) with 17 in *. cbn [length] in Hl.
      destruct (is_null v); [injection Estep as <- <- <- <-; lia|]. destruct (sh_data v).
      * destruct (load_data _ _); [done|]. destruct (sh_loc v); [|done]. destruct (_ !! idx); injection Estep as <- <- <- <-; simpl; lia.
      * destruct (idx <? LEVEL_CELLS); [|injection Estep as <- <- <- <-; lia]. destruct (sh_loc v); [|done].
        destruct (read_cell _ _); [|discriminate]. destruct (17 <=? length ((v, idx) :: rest)) eqn:E; [done|]. injection Estep as <- <- <- <-.
        apply Nat.leb_gt in E. simpl in *. lia.
  - destruct (s_ops s !! o') as [[]|] eqn:Eo; try done. injection Hst as <- <-. simpl in Ho.
    destruct (decide (o' = o)) as [->|]; [by rewrite lookup_insert in Ho|rewrite lookup_insert_ne in Ho by done; by eapply IH].
  - destruct (s_ops s !! o') as [[]|] eqn:Eo; try done. injection Hst as <- <-. simpl in Ho.
    destruct (decide (o' = o)) as [->|]; [by rewrite lookup_insert in Ho|rewrite lookup_insert_ne in Ho by done; by eapply IH].
  - destruct (m_garb _ !! n) as [[[? ?] ?]|]; [|done]. case_bool_decide; [|done]. injection Hst as <- <-. by eapply IH.
  - destruct (_ && _); [|done]. destruct (drop_rec _ _ _); injection Hst as <- <-; by eapply IH.
Qed.

(** ** Termination *)
Definition imeas s o : N * nat :=
  match s_ops s !! o with
  | Some (SRun _ INew) => ((wfull 16 + 2)%N, 0)
  | Some (SRun _ (INext lv _)) => ((wstk lv + 1)%N, top_left (s_mem s) lv)
  | _ => (0%N, 0)
  end.

Lemma iter_alive_shape s o p : reachable s -> s_ops s !! o = Some (SRun OIter p) -> p = INew \/ exists lv out, p = INext lv out.
Proof.
  intros (ls & ev & Hx) Ho. destruct (si_run _ _ (exec_sh _ _ _ Hx) _ _ _ Ho) as [Hs _].
  destruct p as [| |kk| kk| | | | | | |]; simpl in Hs; try done; try (by destruct Hs); try (by destruct kk; [|destruct Hs..]); [by left|right; eauto].
Qed.

Lemma top_left_same m m' lv : (forall l it, hbody m l = Some (BData it) -> hbody m' l = Some (BData it)) ->
  match lv with (v, _) :: _ => sh_data v = true -> match sh_loc v with Some l => exists it, hbody m l = Some (BData it) | None => True end | [] => True end -> top_left m' lv = top_left m lv.
Proof.
  intros Hd Hlv. destruct lv as [|[v idx] rest]; [done|]. simpl. destruct (sh_data v); [|done]. destruct (sh_loc v) as [l|]; [|done].
  destruct (Hlv eq_refl) as [it Hb]. by rewrite (Hd _ _ Hb), Hb.
Qed.

(* an iterator in progress: own steps decrease the measure, nothing increases it *)
Lemma imeas_step s lb s' e o : reachable s -> step s lb = Some (s', e) -> (forall st, s_ops s !! o = Some st -> exists p, st = SRun OIter p \/ (forall op q, st <> SRun op q)) ->
  s_ops s !! o <> None ->
  (imeas s' o = imeas s o \/ lexNn (imeas s' o) (imeas s o)) /\ (is_step_of o lb = true -> lexNn (imeas s' o) (imeas s o)).
Proof.
  intros Hr Hst Hop Hex. destruct Hr as (ls & ev & Hx). assert (reachable s) as Hr by (by eexists _, _). pose proof (exec_sinv _ _ _ Hx) as Hsi.
  destruct (s_ops s !! o) as [st|] eqn:Eo; [|done]. destruct (Hop _ eq_refl) as (p & [->|Hne]).
  2:{ (* not running: stays so *)
    assert (forall st', s_ops s' !! o = Some st' -> forall op q, st' <> SRun op q) as Hno.
    { intros st' Ho' op q ->. destruct lb as [o' op'|o' spur a|o'|o'|n|]; cbn [step] in Hst.
      - destruct (s_ops s !! o') eqn:Eo2, (s_dropped s); simplify_eq. simpl in Ho'. destruct (decide (o' = o)) as [->|]; [congruence|].
        rewrite lookup_insert_ne in Ho' by done. rewrite Eo in Ho'. injection Ho' as ->. by eapply Hne.
      - destruct (s_ops s !! o') as [[op' p'|?|?|]|] eqn:Eo2; try done.
        destruct (op_step _ _ _ _ _) as [[[m' nx] acts]|]; [|done]. injection Hst as <- <-. simpl in Ho'. destruct (decide (o' = o)) as [->|].
        + rewrite Eo in Eo2. injection Eo2 as ->. by eapply Hne.
        + rewrite lookup_insert_ne in Ho' by done. rewrite Eo in Ho'. injection Ho' as ->. by eapply Hne.
      - destruct (s_ops s !! o') as [[]|] eqn:Eo2; try done. injection Hst as <- <-. simpl in Ho'.
        destruct (decide (o' = o)) as [->|]; [by rewrite lookup_insert in Ho'|]. rewrite lookup_insert_ne in Ho' by done. rewrite Eo in Ho'. injection Ho' as ->. by eapply Hne.
      - destruct (s_ops s !! o') as [[]|] eqn:Eo2; try done. injection Hst as <- <-. simpl in Ho'.
        destruct (decide (o' = o)) as [->|]; [by rewrite lookup_insert in Ho'|]. rewrite lookup_insert_ne in Ho' by done. rewrite Eo in Ho'. injection Ho' as ->. by eapply Hne.
      - destruct (m_garb _ !! n) as [[[? ?] ?]|]; [|done]. case_bool_decide; [|done]. injection Hst as <- <-. simpl in Ho'. rewrite Eo in Ho'. injection Ho' as ->. by eapply Hne.
      - destruct (_ && _); [|done]. destruct (drop_rec _ _ _); injection Hst as <- <-; simpl in Ho'; rewrite Eo in Ho'; injection Ho' as ->; by eapply Hne. }
    assert (imeas s o = (0%N, 0)) as E1. { unfold imeas. rewrite Eo. destruct st as [op q| | |]; try done. by destruct (Hne op q). }
    assert (imeas s' o = (0%N, 0)) as E2. { unfold imeas. destruct (s_ops s' !! o) as [[op q| | |]|] eqn:E; try done. by destruct (Hno _ eq_refl op q). }
    rewrite E1, E2. split; [by left|]. intros Hs. destruct lb as [|o' spur a| | | |]; try done. simpl in Hs. apply bool_decide_eq_true in Hs as ->.
    cbn [step] in Hst. rewrite Eo in Hst. destruct st as [op q| | |]; try done. by destruct (Hne op q). }
  assert (s_dropped s = false) as Ed.
  { destruct (s_dropped s) eqn:Ed; [|done]. exfalso. destruct Hsi as [_ Hd]. rewrite Ed in Hd.
    assert (o ∈ guards s) as Hin by (apply elem_of_guards; eauto). rewrite (di_guards _ Hd) in Hin. by apply elem_of_empty in Hin. }
  assert (o ∈ guards s) as Hog by (apply elem_of_guards; eauto).
  assert (lb <> LDrop) as Hnd.
  { intros ->. cbn [step] in Hst. case_bool_decide as Hg; [|done]. rewrite Hg in Hog. by apply elem_of_empty in Hog. }
  pose proof Hsi as [_ Hl]. rewrite Ed in Hl. destruct Hl as [pos Hl].
  destruct (live_step _ _ _ _ _ Hl Ed Hsi Hst Hnd) as (pos' & Hl' & _ & Hle). pose proof (li_mem _ _ Hl) as Hm.
  pose proof (li_ops _ _ Hl _ _ Eo) as Hpc0. simpl in Hpc0.
  assert (forall lv out, p = INext lv out -> match lv with (v, _) :: _ => sh_data v = true -> match sh_loc v with Some l => exists it, hbody (s_mem s) l = Some (BData it) | None => True end | [] => True end) as Hstk.
  { intros lv out ->. destruct lv as [|[v idx] rest]; [done|]. intros Hd. destruct Hpc0 as [[(q & _ & Hv) _] _]. destruct (vok_data _ _ _ _ _ Hv Hd) as (t & it & -> & Hb & _). eauto. }
  assert (forall m2 st, s_ops s' !! o = Some st -> st = SRun OIter p -> s_mem s' = m2 -> (forall l it, hbody (s_mem s) l = Some (BData it) -> hbody m2 l = Some (BData it)) -> imeas s' o = imeas s o) as Hsame.
  { intros m2 st Ho' -> Em Hd. unfold imeas. rewrite Ho', Eo. destruct p; try done. f_equal. rewrite Em. apply top_left_same; [done|]. by eapply Hstk. }
  destruct Hle as [o' spur a op p' m' nx acts Eo' Estep Hmt Hpc Hnx Hog' Es'|o' op Eo' -> Es'|o' lb Eo' Elb -> Es'|n l k g -> En E1 E2].
  - destruct (decide (o' = o)) as [->|Hne].
    + rewrite Eo in Eo'. injection Eo' as <- <-. assert (lexNn (imeas s' o) (imeas s o)) as Hlex; [|split; [by right|done]].
      destruct (iter_alive_shape _ _ _ Hr Eo) as [->|(lv & out & ->)].
      * cbn [op_step] in Estep. injection Estep as <- <- <-. unfold imeas. rewrite Eo, Es'. simpl. rewrite lookup_insert. left. cbn [fst wstk].
        pose proof (went_full (16 - 0) (m_root (s_mem s))) as H1. change (16 - length []) with (16 - 0). change (16 - 0) with 16 in *. lia.
      * destruct (inext_measure _ _ _ _ _ _ _ _ _ _ _ Hm Hpc Estep) as (-> & [(lv' & out' & -> & Hc)|(-> & -> & ->)]); unfold imeas; rewrite Eo, Es'; simpl; rewrite lookup_insert.
        -- destruct Hc as [(-> & -> & Hc)|(r & -> & -> & Hc & Ht)]; [left; simpl; lia|right; simpl; split; [lia|done]].
        -- left. simpl. lia.
    + split.
      * left. eapply (Hsame m'); [rewrite Es'; simpl; by rewrite lookup_insert_ne|done|by rewrite Es'|].
        intros l it Hb. eapply ext_data; [by eapply mtr_ext|done].
      * simpl. by rewrite bool_decide_eq_false_2.
  - assert (o' <> o) as Hne by congruence. split; [|done]. left. eapply (Hsame (s_mem s)); [rewrite Es'; simpl; by rewrite lookup_insert_ne|done|by rewrite Es'|done].
  - destruct (decide (o' = o)) as [->|Hne].
    + split; [|by destruct Elb as [-> | ->]]. right. unfold imeas. rewrite Eo, Es'. simpl. rewrite lookup_insert.
      destruct (iter_alive_shape _ _ _ Hr Eo) as [->|(lv & out & ->)]; left; simpl; lia.
    + split; [|by destruct Elb as [-> | ->]]. left. eapply (Hsame (s_mem s)); [rewrite Es'; simpl; by rewrite lookup_insert_ne|done|by rewrite Es'|done].
  - split; [|done]. left. eapply (Hsame (s_mem s')); [by rewrite E1|done|done|]. rewrite E2. done.
Qed.

Lemma op_kept s lb s' e o op p : step s lb = Some (s', e) -> s_ops s !! o = Some (SRun op p) ->
  (exists p', s_ops s' !! o = Some (SRun op p')) \/ (exists st, s_ops s' !! o = Some st /\ forall op q, st <> SRun op q).
Proof.
  intros Hst Eo. destruct lb as [o' op'|o' spur a|o'|o'|n|]; cbn [step] in Hst.
  - destruct (s_ops s !! o') eqn:Eo2, (s_dropped s); simplify_eq. simpl. left. exists p. rewrite lookup_insert_ne; [done|congruence].
  - destruct (s_ops s !! o') as [[op' p'|?|?|]|] eqn:Eo2; try done.
    destruct (op_step _ _ _ _ _) as [[[m' nx] acts]|]; [|done]. injection Hst as <- <-. simpl. destruct (decide (o' = o)) as [->|].
    + rewrite Eo in Eo2. injection Eo2 as -> ->. rewrite lookup_insert. destruct nx; [left; eauto|right; eexists; done..].
    + rewrite lookup_insert_ne by done. left. eauto.
  - destruct (s_ops s !! o') as [[]|] eqn:Eo2; try done. injection Hst as <- <-. simpl.
    destruct (decide (o' = o)) as [->|]; [rewrite lookup_insert; right; eexists; done|rewrite lookup_insert_ne by done; left; eauto].
  - destruct (s_ops s !! o') as [[]|] eqn:Eo2; try done. injection Hst as <- <-. simpl.
    destruct (decide (o' = o)) as [->|]; [rewrite lookup_insert; right; eexists; done|rewrite lookup_insert_ne by done; left; eauto].
  - destruct (m_garb _ !! n) as [[[? ?] ?]|]; [|done]. case_bool_decide; [|done]. injection Hst as <- <-. simpl. left. eauto.
  - destruct (_ && _); [|done]. destruct (drop_rec _ _ _); injection Hst as <- <-; simpl; left; eauto.
Qed.

Lemma op_over s lb s' e o st : step s lb = Some (s', e) -> s_ops s !! o = Some st -> (forall op q, st <> SRun op q) ->
  exists st', s_ops s' !! o = Some st' /\ forall op q, st' <> SRun op q.
Proof.
  intros Hst Eo Hne. destruct lb as [o' op'|o' spur a|o'|o'|n|]; cbn [step] in Hst.
  - destruct (s_ops s !! o') eqn:Eo2, (s_dropped s); simplify_eq. simpl. exists st. rewrite lookup_insert_ne; [done|congruence].
  - destruct (s_ops s !! o') as [[op' p'|?|?|]|] eqn:Eo2; try done.
    destruct (op_step _ _ _ _ _) as [[[m' nx] acts]|]; [|done]. injection Hst as <- <-. simpl. destruct (decide (o' = o)) as [->|].
    + rewrite Eo in Eo2. injection Eo2 as ->. by edestruct Hne.
    + rewrite lookup_insert_ne by done. eauto.
  - destruct (s_ops s !! o') as [[]|] eqn:Eo2; try done. injection Hst as <- <-. simpl.
    destruct (decide (o' = o)) as [->|]; [rewrite lookup_insert; eexists; done|rewrite lookup_insert_ne by done; eauto].
  - destruct (s_ops s !! o') as [[]|] eqn:Eo2; try done. injection Hst as <- <-. simpl.
    destruct (decide (o' = o)) as [->|]; [rewrite lookup_insert; eexists; done|rewrite lookup_insert_ne by done; eauto].
  - destruct (m_garb _ !! n) as [[[? ?] ?]|]; [|done]. case_bool_decide; [|done]. injection Hst as <- <-. eauto.
  - destruct (_ && _); [|done]. destruct (drop_rec _ _ _); injection Hst as <- <-; eauto.
Qed.

Theorem iter_terminates sch st n0 o : infinite_run sch st -> in_progress (st n0) o OIter -> ~ infinitely_often (fun n => is_step_of o (sch n) = true).
Proof.
  intros Hinf [q0 Hq0] Hio.
  assert (forall n, n0 <= n -> exists x, s_ops (st n) !! o = Some x /\ (exists p, x = SRun OIter p \/ (forall op q, x <> SRun op q))) as Hst.
  { intros n Hn. induction Hn as [|n Hn (x & Hx & p & [->|Hne])]; [eexists; split; [exact Hq0|]; exists q0; by left| |]; destruct (proj2 Hinf n) as [e He].
    - destruct (op_kept _ _ _ _ _ _ _ He Hx) as [[p' Hp']|(x & Hx' & Hx2)]; eexists; (split; [done|]); [exists p'; by left|exists p; by right].
    - destruct (op_over _ _ _ _ _ _ He Hx Hne) as (x' & Hx' & Hx2). eexists. split; [done|]. exists p. by right. }
  apply (no_descent lexNn (fun n => imeas (st (n + n0)) o) (fun n => is_step_of o (sch (n + n0)) = true)); [apply lexNn_wf|apply lexNn_trans| | |].
  - intros n. destruct (proj2 Hinf (n + n0)) as [e He]. eapply (imeas_step _ _ _ _ _ (infinite_reach _ _ _ Hinf) He).
    + intros x Hx. destruct (Hst (n + n0)) as (y & Hy & ?); [lia|]. by simplify_eq.
    + destruct (Hst (n + n0)) as (y & Hy & ?); [lia|]. by rewrite Hy.
  - intros n Hs. destruct (proj2 Hinf (n + n0)) as [e He]. eapply (imeas_step _ _ _ _ _ (infinite_reach _ _ _ Hinf) He); [..|exact Hs].
    + intros x Hx. destruct (Hst (n + n0)) as (y & Hy & ?); [lia|]. by simplify_eq.
    + destruct (Hst (n + n0)) as (y & Hy & ?); [lia|]. by rewrite Hy.
  - intros n. destruct (Hio (n + n0)) as (n' & Hn' & H). exists (n' - n0). split; [lia|]. replace (n' - n0 + n0) with n' by lia. done.
Qed.
End iterprog.
