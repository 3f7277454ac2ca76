(** * C53: PrintShape. *)
From Verif Require Import Model Mem Inv Safe SafeSys SafeProps Spec Lin LinProps LinMore LinSpec Shape Iter IterSpec IterSys ProgSpec Prog IterProg PropIter Print PrintSpec PrintSim Concrete.

Section printprops.
Context {C : Config}.
Implicit Types (s : state) (m : mem) (ls : list label) (ev : list event) (o : opid) (pls : list plabel) (st : pstat) (out : list tok) (ys : list rref) (p : pc) (v w : sh).

Lemma isteps_mem o n : forall s s1 e op p, s_ops s !! o = Some (SRun op p) -> (p = INew \/ exists lv ys, p = INext lv ys) -> run s (isteps o n) = Some (s1, e) -> s_mem s1 = s_mem s.
Proof.
  induction n as [|n IH]; intros s s1 e op p Ho Hp Hr; [by injection Hr as <- <-|]. rewrite run_isteps_S in Hr.
  destruct (step s (LStep o false 1%N)) as [[s2 e2]|] eqn:Es; [|done]. cbn [step] in Es. rewrite Ho in Es.
  destruct (op_step (guards s) (s_mem s) p false 1) as [[[m' nx] acts]|] eqn:E; [|done]. injection Es as <- <-.
  destruct (run _ (isteps o n)) as [[s3 e3]|] eqn:Er; [|done]. injection Hr as <- <-.
  assert (m' = s_mem s /\ forall q, nx = NRun q -> exists lv ys, q = INext lv ys) as [-> Hq].
  { destruct Hp as [->|(lv & ys & ->)]; cbn [op_step] in E; unfold panics, ok in E; repeat case_match; simplify_eq; (split; [done|]); intros q Hx; simplify_eq; eauto. }
  destruct nx as [q|r|f].
  - by rewrite (IH _ _ _ op q (lookup_insert _ _ _) (or_intror (Hq q eq_refl)) Er).
  - destruct n; [by injection Er as <- <-|]. rewrite run_isteps_S in Er. cbn [step] in Er. simpl in Er. by rewrite lookup_insert in Er.
  - destruct n; [by injection Er as <- <-|]. rewrite run_isteps_S in Er. cbn [step] in Er. simpl in Er. by rewrite lookup_insert in Er.
Qed.

Lemma take_isteps o n j : take j (isteps o n) = isteps o (min j n).
Proof. unfold isteps. apply take_replicate. Qed.

Lemma run_take s ls s1 e j : run s ls = Some (s1, e) -> exists s2 e2, run s (take j ls) = Some (s2, e2).
Proof.
  intros H. rewrite <-(take_drop j ls), run_app in H. destruct (run s (take j ls)) as [[s2 e2]|]; [by eexists _, _|done].
Qed.

Lemma yields_fmap o ys : yields_of (EYield o <$> ys) o = ys.
Proof. induction ys as [|y ys IH]; [done|]. cbn. rewrite decide_True by done. f_equal. exact IH. Qed.
Lemma steps_app ls ls' o : steps_of (ls ++ ls') o = steps_of ls o + steps_of ls' o.
Proof. unfold steps_of. by rewrite List.filter_app, app_length. Qed.
Lemma steps_isteps o n : steps_of (isteps o n) o = n.
Proof. induction n as [|n IH]; [done|]. unfold steps_of, isteps in *. simpl. rewrite bool_decide_true by done. simpl. by rewrite IH. Qed.

(** Other calls do not yield for [o]. *)
Lemma step_yields o s lb s' e : of_printer o lb = false -> step s lb = Some (s', e) -> yields_of e o = [].
Proof.
  intros Hp Hst. destruct lb as [o' op|o' spur a|o'|o'|n|]; cbn [step of_printer] in *.
  - repeat case_match; simplify_eq. done.
  - apply bool_decide_eq_false in Hp. repeat case_match; simplify_eq; rewrite yields_app, yields_acts_ne by congruence; done.
  - repeat case_match; simplify_eq; done.
  - repeat case_match; simplify_eq; done.
  - repeat case_match; simplify_eq; done.
  - repeat case_match; simplify_eq; done.
Qed.

(** The simulation. [ls'] is the schedule of the machine in which the printing is replaced by an iteration. *)
Lemma prun_sim o pls : forall s st ys s' st' e, reachable (shd s o (ipc st ys)) -> s_ops s !! o = Some (SRun OIter INew) -> wfp st -> (st <> PStart \/ ys = []) ->
  elements (written st) = rr_val <$> ys -> prun o (s, st) pls = Some (s', st', e) ->
  exists ls' y e', run (shd s o (ipc st ys)) ls' = Some (shd s' o (ipc st' (ys ++ y)), e') /\ wfp st' /\ (st' <> PStart \/ ys ++ y = []) /\ s_ops s' !! o = Some (SRun OIter INew) /\
    elements (written st') = rr_val <$> (ys ++ y) /\ yields_of e' o = y /\ loads pls + length y <= steps_of ls' o /\
    (forall o' op, LInv o' op ∈ ls' -> LInv o' op ∈ sys pls) /\
    (forall j sj ej, run (shd s o (ipc st ys)) (take j ls') = Some (sj, ej) -> exists n sn stn en, prun o (s, st) (take n pls) = Some (sn, stn, en) /\ s_mem sn = s_mem sj).
Proof.
  induction pls as [|pl pls IH]; intros s st ys s' st' e Hr Ho Hw Hy Hel Hrun.
  - injection Hrun as <- <- <-. exists [], [], []. rewrite app_nil_r. do 6 (split; [done|]). split; [simpl; lia|]. split; [intros o' op H; by apply elem_of_nil in H|].
    intros j sj ej Hj. rewrite take_nil in Hj. injection Hj as <- <-. exists 0, s, st, []. done.
  - cbn [prun] in Hrun. destruct (pstep o (s, st) pl) as [[[s1 st1] e1]|] eqn:Ep; [|done]. destruct (prun o (s1, st1) pls) as [[[s2 st2] e2]|] eqn:Er; [|done]. injection Hrun as <- <- <-.
    destruct pl as [lb|]; cbn [pstep fst snd] in Ep.
    + destruct (of_printer o lb) eqn:Eo; [done|]. destruct (step s lb) as [[s1' e1']|] eqn:Es; [|done]. injection Ep as <- <- <-.
      destruct (shd_step s o (ipc st ys) lb s1' e1' Ho Eo Es) as [Hst Ho1].
      assert (reachable (shd s1' o (ipc st ys))) as Hr1. { destruct Hr as (l0 & v0 & Hx). exists (l0 ++ [lb]), (v0 ++ e1'). by eapply run_step. }
      destruct (IH s1' st ys s2 st2 e2 Hr1 Ho1 Hw Hy Hel Er) as (ls' & y & e' & H1 & H2 & H3 & H4 & H5 & H6 & H7 & H8 & H9).
      exists (lb :: ls'), y, (e1' ++ e'). split; [cbn [run]; by rewrite Hst, H1|]. do 4 (split; [done|]).
      split; [rewrite yields_app, (step_yields o s lb s1' e1') by done; done|]. split.
      { change (loads (PSys lb :: pls)) with (loads pls). change (lb :: ls') with ([lb] ++ ls'). rewrite steps_app. lia. }
      split; [intros o' op [<-|Hin]%elem_of_cons; [by left|right; by apply H8]|].
      intros [|j] sj ej Hj; [injection Hj as <- <-; exists 0, s, st, []; done|]. cbn [take run] in Hj. rewrite Hst in Hj. destruct (run _ (take j ls')) as [[s3 e3]|] eqn:E3; [|done]. injection Hj as <- <-.
      destruct (H9 j s3 e3 E3) as (n & sn & stn & en & Hn & Hm). exists (S n), sn, stn, (e1' ++ en). split; [|done]. cbn [take prun pstep fst snd]. by rewrite Eo, Es, Hn.
    + assert (st = PStart \/ exists fr out, st = PLoop fr out) as Hst by (destruct st; try done; eauto).
      assert (s1 = s /\ st1 = print_step (s_mem s) st /\ e1 = []) as (-> & -> & ->) by (destruct st; try done; by injection Ep as <- <- <-).
      destruct (print_step_sim s o st ys Hr Hw Hy Hst) as (n & y & Hi & He & [Hw1 Hlen] & Hns).
      assert (reachable (shd s o (ipc (print_step (s_mem s) st) (ys ++ y)))) as Hr1.
      { destruct Hr as (l0 & v0 & Hx). exists (l0 ++ isteps o (S n)), (v0 ++ (EYield o <$> y)). unfold exec in *. rewrite run_app, Hx. unfold its in Hi. by rewrite Hi. }
      destruct (IH s _ (ys ++ y) s2 st2 e2 Hr1 Ho Hw1) as (ls' & y' & e' & H1 & H2 & H3 & H4 & H5 & H6 & H7 & H8 & H9); [by left|rewrite He, Hel; by rewrite fmap_app|exact Er|].
      rewrite <-!app_assoc in *. exists (isteps o (S n) ++ ls'), (y ++ y'), ((EYield o <$> y) ++ e'). split; [rewrite run_app; unfold its in Hi; by rewrite Hi, H1|]. do 4 (split; [done|]).
      split; [rewrite yields_app, yields_fmap; by rewrite H6|]. split.
      { change (loads (PPrint :: pls)) with (S (loads pls)). rewrite steps_app, steps_isteps, app_length. lia. }
      split. { intros o' op [Hin|Hin]%elem_of_app; [by apply elem_of_replicate in Hin as [? _]|by apply H8]. }
      intros j sj ej Hj. rewrite firstn_app in Hj. rewrite take_isteps in Hj. destruct (decide (j <= S n)) as [Hle|Hle].
      * assert (take (j - length (isteps o (S n))) ls' = []) as E0. { unfold isteps. rewrite replicate_length. by replace (j - S n) with 0 by lia. }
        rewrite E0, app_nil_r in Hj. exists 0, s, st, []. split; [done|]. symmetry. change (s_mem s) with (s_mem (shd s o (ipc st ys))).
        eapply isteps_mem; [simpl; apply lookup_insert| |exact Hj]. destruct Hst as [->|(fr & out & ->)]; simpl; eauto.
      * replace (min j (S n)) with (S n) in Hj by lia. rewrite run_app in Hj. unfold its in Hi. rewrite Hi in Hj. destruct (run _ (take _ ls')) as [[s3 e3]|] eqn:E3; [|done]. injection Hj as <- <-.
        destruct (H9 _ s3 e3 E3) as (n' & sn & stn & en & Hn & Hm). exists (S n'), sn, stn, en. split; [|done]. cbn [take prun].
        assert (pstep o (s, st) PPrint = Some (s, print_step (s_mem s) st, [])) as -> by (destruct Hst as [->|(fr & out & ->)]; done). by rewrite Hn.
Qed.
(** Before a call starts, it has yielded nothing. *)
Lemma none_yields o ls s ev : exec ls s ev -> s_ops s !! o = None -> yields_of ev o = [].
Proof.
  revert ls s ev. apply (exec_ind (fun ls s ev => s_ops s !! o = None -> yields_of ev o = [])); [done|].
  intros ls s ev lb s' e Hx IH Hst Hn. assert (of_printer o lb = false /\ s_ops s !! o = None) as [H1 H2].
  { destruct lb as [o' op|o' spur a|o'|o'|n|]; cbn [step of_printer] in *.
    - repeat case_match; simplify_eq. simpl in Hn. destruct (decide (o' = o)) as [->|Hne]; [by rewrite lookup_insert in Hn|]. by rewrite lookup_insert_ne in Hn.
    - repeat case_match; simplify_eq; simpl in Hn; (destruct (decide (o' = o)) as [->|Hne]; [by rewrite lookup_insert in Hn|]); rewrite lookup_insert_ne in Hn by done; (split; [by apply bool_decide_eq_false|done]).
    - repeat case_match; simplify_eq; simpl in Hn; (destruct (decide (o' = o)) as [->|Hne]; [by rewrite lookup_insert in Hn|]); rewrite lookup_insert_ne in Hn by done; (split; [by apply bool_decide_eq_false|done]).
    - repeat case_match; simplify_eq; simpl in Hn; (destruct (decide (o' = o)) as [->|Hne]; [by rewrite lookup_insert in Hn|]); rewrite lookup_insert_ne in Hn by done; (split; [by apply bool_decide_eq_false|done]).
    - repeat case_match; simplify_eq; done.
    - repeat case_match; simplify_eq; done. }
  rewrite yields_app, IH, (step_yields o s lb s' e) by done. done.
Qed.

Lemma inv_inv ls o s0 ev0 : exec (ls ++ [LInv o OIter]) s0 ev0 -> exists s ev, exec ls s ev /\ s_ops s !! o = None /\ step s (LInv o OIter) = Some (s0, [EInv o OIter]) /\ ev0 = ev ++ [EInv o OIter] /\
  s0 = shd s o INew /\ s_ops s0 !! o = Some (SRun OIter INew).
Proof.
  intros Hx. unfold exec in Hx. rewrite run_app in Hx. destruct (run init ls) as [[s ev]|] eqn:E; [|done]. cbn [run] in Hx.
  destruct (step s (LInv o OIter)) as [[s1 e1]|] eqn:Es; [|done]. injection Hx as <- <-. exists s, ev. pose proof Es as Es'. cbn [step] in Es.
  destruct (s_ops s !! o) eqn:Eo; [done|]. destruct (s_dropped s) eqn:Ed; [done|]. injection Es as <- <-. split; [done|]. split; [done|]. split; [done|]. split; [done|].
  split; [unfold shd, set_op; simpl; by rewrite Ed|]. simpl. by rewrite lookup_insert.
Qed.

(** A printing is an iteration in disguise. *)
Lemma printing_sim ls o pls s st : printing ls o pls s st -> exists ls' ys ev,
  exec (ls ++ LInv o OIter :: ls') (shd s o (ipc st ys)) ev /\ wfp st /\ s_ops s !! o = Some (SRun OIter INew) /\ elements (written st) = rr_val <$> ys /\ yields_of ev o = ys /\
  EInv o OIter ∈ ev /\ loads pls + length ys <= steps_of (ls ++ LInv o OIter :: ls') o /\
  (wf_calls ls -> wf_calls (sys pls) -> wf_calls (ls ++ LInv o OIter :: ls')) /\
  (forall s1, during (ls ++ LInv o OIter :: ls') o OIter s1 -> exists s2, while_printing ls o pls s2 /\ s_mem s2 = s_mem s1).
Proof.
  intros (s0 & ev0 & e & Hx & Hrun). destruct (inv_inv ls o s0 ev0 Hx) as (sa & eva & Hxa & Hna & Hsa & -> & E0 & Ho0).
  assert (shd s0 o INew = s0) as Es0. { subst s0. unfold shd. simpl. by rewrite insert_insert. }
  destruct (prun_sim o pls s0 PStart [] s st e) as (ls' & y & e' & H1 & H2 & H3 & H4 & H5 & H6 & H7 & H8 & H9); [..|exact Hrun|].
  { cbn [ipc]. rewrite Es0. by exists (ls ++ [LInv o OIter]), (eva ++ [EInv o OIter]). }
  { done. } { split; [|done]. intros v i Hv. by apply elem_of_nil in Hv. } { by right. } { done. }
  cbn [ipc] in H1, H9. rewrite Es0 in H1, H9. exists ls', y, ((eva ++ [EInv o OIter]) ++ e').
  assert (ls ++ LInv o OIter :: ls' = (ls ++ [LInv o OIter]) ++ ls') as El by (by rewrite <-app_assoc).
  split; [rewrite El; unfold exec; rewrite run_app; unfold exec in Hx; by rewrite Hx, H1|]. split; [done|]. split; [done|]. split; [done|].
  split. { rewrite !yields_app, (none_yields o _ _ _ Hxa Hna), H6. done. }
  split. { apply elem_of_app. left. apply elem_of_app. right. by apply elem_of_list_singleton. }
  split. { rewrite El, steps_app. lia. }
  split. { intros W1 W2 o' op Hin. rewrite El in Hin. apply elem_of_app in Hin as [Hin|Hin]; [|by eapply W2, H8]. apply elem_of_app in Hin as [Hin|Hin]; [by eapply W1|]. apply elem_of_list_singleton in Hin as [= -> ->]. done. }
  intros s1 (j & Hj & [q Hq]). unfold state_at in Hj. destruct (decide (j <= length ls)) as [Hle|Hgt].
  - exfalso. rewrite take_app_le in Hj by done.
    destruct (run init (take j ls)) as [[s1' e1]|] eqn:E1; [|done]. injection Hj as <-. rewrite <-(take_drop j ls) in Hxa. unfold exec in Hxa. rewrite run_app, E1 in Hxa.
    destruct (run s1' (drop j ls)) as [[s2 e2]|] eqn:E2; [|done]. injection Hxa as -> <-.
    assert (forall l2 (sx : state) ex (sz : state), s_ops sx !! o <> None -> run sx l2 = Some (sz, ex) -> s_ops sz !! o <> None) as Hk.
    { clear. induction l2 as [|lb l2 IH]; intros sx ex sz Hs Hr; [by injection Hr as <- <-|]. cbn [run] in Hr. destruct (step sx lb) as [[sy ey]|] eqn:Es; [|done].
      destruct (run sy l2) as [[sz' ez]|] eqn:Er; [|done]. injection Hr as <- <-. apply (IH sy ez sz'); [|done]. intros Hn. apply Hs.
      destruct lb as [o' op|o' spur a|o'|o'|n|]; cbn [step] in Es.
      1-4: repeat case_match; simplify_eq; simpl in Hn; (destruct (decide (o' = o)) as [->|Hne]; [by rewrite lookup_insert in Hn|]); by rewrite lookup_insert_ne in Hn.
      1-2: repeat case_match; simplify_eq; done. }
    eapply (Hk (drop j ls) s1'); [|exact E2|exact Hna]. by rewrite Hq.
  - rewrite El in Hj. rewrite firstn_app, take_ge in Hj by (rewrite app_length; simpl; lia). rewrite run_app in Hj. unfold exec in Hx. rewrite Hx in Hj.
    destruct (run s0 (take _ ls')) as [[s2 e2]|] eqn:E2; [|done]. injection Hj as <-. destruct (H9 _ _ _ E2) as (n & sn & stn & en & Hn & Hm).
    exists sn. split; [|done]. exists n, stn. exists s0, (eva ++ [EInv o OIter]), en. done.
Qed.

Lemma has_mem s s1 k x : s_mem s = s_mem s1 -> has s k x -> has s1 k x.
Proof. intros E. destruct x; unfold has, absent, maps; by rewrite E. Qed.

(** *** The form of the text *)
Inductive ctx : list (sh * nat) -> list tok -> Prop :=
| ctx_nil : ctx [] []
| ctx_cons v i fr out a c txt : ctx fr out -> shaped_upto i txt -> i < 16 -> ctx ((v, S i) :: fr) (out ++ [TPtr a c false; TOpen] ++ txt ++ [TIdx i]).

Definition formed st : Prop :=
  match st with
  | PStart | PFail _ => True
  | PLoop [] _ => False
  | PLoop ((v, i) :: rest) out => i < 16 /\ exists ou a c txt, out = ou ++ [TPtr a c false; TOpen] ++ txt /\ ctx rest ou /\ shaped_upto i txt
  | PDone out => shaped out
  end.

Lemma leave_formed fr ou : ctx fr ou -> forall t, shaped t -> formed (leave fr (ou ++ t)).
Proof.
  induction 1 as [|v i fr out a c txt Hc IH Hu Hi]; intros t Ht; [exact Ht|]. cbn [leave]. destruct (S i <? LEVEL_CELLS) eqn:E.
  - split; [by apply Nat.ltb_lt in E|]. exists out, a, c, (txt ++ TIdx i :: t). split; [by rewrite <-!app_assoc|]. split; [done|]. by constructor.
  - apply Nat.ltb_ge in E. change LEVEL_CELLS with 16 in E. assert (i = 15) as -> by lia.
    replace (((out ++ [TPtr a c false; TOpen] ++ txt ++ [TIdx 15]) ++ t) ++ [TClose]) with (out ++ ([TPtr a c false; TOpen] ++ (txt ++ TIdx 15 :: t) ++ [TClose])) by (by rewrite <-!app_assoc).
    apply IH. constructor. by constructor.
Qed.

Lemma print_ptr_formed m v fr ou : ctx fr ou -> formed (print_ptr m v fr ou).
Proof.
  intros Hc. unfold print_ptr. destruct (is_null v) eqn:En; [|destruct (sh_data v) eqn:Ed].
  - apply leave_formed; [done|]. unfold is_null in En. destruct (sh_loc v) eqn:El; [done|]. unfold paddr. rewrite El. constructor.
  - destruct (load_data m v) as [f|it]; [done|]. rewrite <-app_assoc. apply leave_formed; [done|]. constructor.
  - split; [lia|]. exists ou, (paddr m v), (sh_cond v), []. split; [by rewrite <-app_assoc, app_nil_r|]. split; [done|constructor].
Qed.

Lemma print_step_formed m st : formed st -> formed (print_step m st).
Proof.
  intros Hf. destruct st as [|[|[v i] rest] out|out|f]; try done; [apply print_ptr_formed; constructor|]. destruct Hf as (Hi & o' & a & c & txt & -> & Hc & Hu).
  cbn [print_step]. destruct (sh_loc v) as [l|]; [|done]. destruct (read_cell m (CSlot l i)) as [w|]; [|done].
  apply print_ptr_formed. rewrite <-!app_assoc. by constructor.
Qed.

Lemma prun_formed o pls : forall s st s' st' e, formed st -> prun o (s, st) pls = Some (s', st', e) -> formed st'.
Proof.
  induction pls as [|pl pls IH]; intros s st s' st' e Hf Hr; [by injection Hr as <- <- <-|]. cbn [prun] in Hr.
  destruct (pstep o (s, st) pl) as [[[s1 st1] e1]|] eqn:Ep; [|done]. destruct (prun o (s1, st1) pls) as [[[s2 st2] e2]|] eqn:Er; [|done]. injection Hr as <- <- <-.
  apply (IH _ _ _ _ _) in Er; [done|]. destruct pl as [lb|]; cbn [pstep fst snd] in Ep.
  - destruct (of_printer o lb); [done|]. destruct (step s lb) as [[]|]; [|done]. by injection Ep as <- <- <-.
  - assert (st1 = print_step (s_mem s) st) as -> by (destruct st; try done; by injection Ep as <- <- <-). by apply print_step_formed.
Qed.

(** *** While nothing changes *)
Fixpoint prints m (n : nat) st : pstat := match n with 0 => st | S n => prints m n (print_step m st) end.
Lemma prints_add m n n' st : prints m (n + n') st = prints m n' (prints m n st).
Proof. revert st. induction n as [|n IH]; intros st; [done|]. simpl. apply IH. Qed.
Lemma prints_done m n out : prints m n (PDone out) = PDone out.
Proof. induction n as [|n IH]; [done|]. simpl. done. Qed.

Lemma deref_heap m l b : deref m l = Some b -> exists a, m_heap m !! l = Some (HObj a b).
Proof. unfold deref. destruct (freed m l); [done|]. destruct (m_heap m !! l) as [[a b']|]; [|done]. simpl. intros [= ->]. eauto. Qed.

Lemma prints_ptr m : (forall l sl, hbody m l = Some (BInner sl) -> length sl = 16) -> forall fuel v fs, drop_rec fuel m v = Some fs ->
  exists txt, shows m v txt /\ forall fr out, exists n, prints m n (print_ptr m v fr out) = leave fr (out ++ txt).
Proof.
  intros H16. induction fuel as [|fuel IH]; intros v fs Hd; [done|]. rewrite drop_rec_S in Hd. unfold print_ptr, is_null, paddr. destruct (sh_loc v) as [l|] eqn:El.
  2:{ exists [TPtr 0 (sh_cond v) (sh_data v)]. split; [by constructor|]. intros fr out. exists 0. done. }
  destruct (sh_data v) eqn:Ed.
  - destruct (deref m l) as [[sl|it]|] eqn:Ef; try done. destruct (deref_heap _ _ _ Ef) as [a Ha]. exists [TPtr a (sh_cond v) true; TData it]. split; [by econstructor|].
    intros fr out. exists 0. unfold load_data. rewrite Ed, El, Ef, Ha. simpl. by rewrite <-app_assoc.
  - destruct (deref m l) as [[sl|it]|] eqn:Ef; try done. destruct (deref_heap _ _ _ Ef) as [a Ha]. destruct (go_drop fuel m sl) as [fs'|] eqn:Eg; [|done].
    assert (length sl = 16) as Hlen by (apply (H16 l); unfold hbody; by rewrite Ha).
    assert (forall ws i, ws = drop i sl -> i + length ws = 16 -> (exists gs, go_drop fuel m ws = Some gs) -> exists txt, shows_slots m i ws txt /\
      forall rest out, exists n, prints m n (if i <? 16 then PLoop ((v, i) :: rest) out else leave rest (out ++ [TClose])) = leave rest (out ++ txt ++ [TClose])) as Hsl.
    { induction ws as [|w ws IHw]; intros i Hws Hi [gs Hg].
      - exists []. split; [constructor|]. intros rest out. exists 0. simpl in Hi. replace i with 16 by lia. done.
      - simpl in Hg, Hi. destruct (drop_rec fuel m w) as [g1|] eqn:E1; [|done]. fold (go_drop fuel m) in Hg. destruct (go_drop fuel m ws) as [g2|] eqn:E2; [|done].
        destruct (IH _ _ E1) as (t & Ht & Hn). destruct (IHw (S i)) as (txt & Htx & Hn2); [|lia|eauto|].
        { change ws with (drop 1 (w :: ws)). rewrite Hws, drop_drop. f_equal. lia. }
        exists (TIdx i :: t ++ txt). split; [by constructor|]. intros rest out. assert (i <? 16 = true) as -> by (apply Nat.ltb_lt; lia).
        destruct (Hn ((v, S i) :: rest) (out ++ [TIdx i])) as [n1 Hn1]. destruct (Hn2 rest ((out ++ [TIdx i]) ++ t)) as [n2 Hn3].
        exists (S n1 + n2). rewrite prints_add. cbn [prints print_step]. rewrite El.
        assert (read_cell m (CSlot l i) = Some w) as ->.
        { unfold read_cell. rewrite Ef. rewrite <-(Nat.add_0_r i), <-lookup_drop, <-Hws. done. }
        rewrite Hn1. cbn [leave]. change LEVEL_CELLS with 16. rewrite Hn3. f_equal. rewrite <-!app_assoc. simpl. by rewrite <-!app_assoc. }
    destruct (Hsl sl 0) as (txt & Htx & Hn); [done|lia|eauto|]. exists ([TPtr a (sh_cond v) false; TOpen] ++ txt ++ [TClose]). split; [by econstructor|].
    intros fr out. destruct (Hn fr ((out ++ [TPtr a (sh_cond v) false]) ++ [TOpen])) as [n Hn1]. exists n. rewrite Ha. simpl in Hn1 |- *. rewrite Hn1. f_equal. by rewrite <-!app_assoc.
Qed.

Lemma prun_prints o m pls : forall s st s' st' e, (forall n sn stn en, prun o (s, st) (take n pls) = Some (sn, stn, en) -> s_mem sn = m) -> prun o (s, st) pls = Some (s', st', e) -> exists n, st' = prints m n st.
Proof.
  induction pls as [|pl pls IH]; intros s st s' st' e Hm Hr; [injection Hr as <- <- <-; by exists 0|]. cbn [prun] in Hr.
  destruct (pstep o (s, st) pl) as [[[s1 st1] e1]|] eqn:Ep; [|done]. destruct (prun o (s1, st1) pls) as [[[s2 st2] e2]|] eqn:Er; [|done]. injection Hr as <- <- <-.
  destruct (IH s1 st1 s2 st2 e2) as [n Hn]; [|done|].
  { intros n sn stn en Hn. apply (Hm (S n) sn stn (e1 ++ en)). cbn [take prun]. by rewrite Ep, Hn. }
  pose proof (Hm 0 s st [] eq_refl) as Hm0. destruct pl as [lb|]; cbn [pstep fst snd] in Ep.
  - destruct (of_printer o lb); [done|]. destruct (step s lb) as [[]|]; [|done]. injection Ep as <- <- <-. by exists n.
  - rewrite Hm0 in Ep. exists (S n). destruct st; try done; injection Ep as <- <- <-; exact Hn.
Qed.
End printprops.


(** ** C53: printing the shape of a map ([PrintShape], src/raw/debug.rs) while other threads use the map: no pointer is followed that does not point
    to what it is taken for, and no assertion fails... *)
Theorem C53_safe `{C : Config} : forall ls o pls s st, printing ls o pls s st -> (forall f, st <> PFail f) /\ s_ub s = false.
Proof.
  intros ls o pls s st Hp. destruct (printing_sim _ _ _ _ _ Hp) as (ls' & ys & ev & Hx & Hw & _). split.
  - intros f ->. by destruct Hw as [_ ?].
  - destruct (exec_sinv _ _ _ Hx) as [Hu _]. exact Hu.
Qed.
Print Assumptions C53_safe.

(** ... it ends after at most 2^66 loads, whatever the others do... *)
Theorem C53_finishes `{C : Config} : forall ls o pls s st, printing ls o pls s st -> (N.of_nat (loads pls) <= 2 ^ 66)%N.
Proof.
  intros ls o pls s st Hp. destruct (printing_sim _ _ _ _ _ Hp) as (ls' & ys & ev & Hx & _ & _ & _ & Hy & Hi & Hl & _).
  pose proof (C25_bound _ _ _ _ Hx Hi) as Hb. rewrite Hy in Hb. lia.
Qed.
Print Assumptions C53_finishes.

(** ... no two elements it has shown have equal keys... *)
Theorem C53_elements_once `{C : Config} `{!ConfigOk C} : forall ls o pls s st, wf_calls ls -> wf_calls (sys pls) -> printing ls o pls s st ->
  distinct_keys (elements (written st)).
Proof.
  intros ls o pls s st W1 W2 Hp. destruct (printing_sim _ _ _ _ _ Hp) as (ls' & ys & ev & Hx & _ & _ & Hel & Hy & _ & _ & Hwf & _).
  rewrite Hel, <-Hy. by eapply C21_no_duplicates; [exact Hx|apply Hwf].
Qed.
Print Assumptions C53_elements_once.

(** ... every element it shows was in the map at some instant while it was printing... *)
Theorem C53_was_there `{C : Config} `{!ConfigOk C} : forall ls o pls s st p, wf_calls ls -> wf_calls (sys pls) -> printing ls o pls s st ->
  p ∈ elements (written st) -> exists s1, while_printing ls o pls s1 /\ maps s1 (keyof p) p.
Proof.
  intros ls o pls s st p W1 W2 Hp Hin. destruct (printing_sim _ _ _ _ _ Hp) as (ls' & ys & ev & Hx & _ & _ & Hel & Hy & _ & _ & Hwf & Hd).
  rewrite Hel in Hin. apply elem_of_list_fmap in Hin as (r & -> & Hr). rewrite <-Hy in Hr. apply elem_of_yields in Hr.
  destruct (C22_yielded_was_there _ _ _ _ _ Hx (Hwf W1 W2) Hr) as (s1 & Hs1 & Hm). destruct (Hd s1 Hs1) as (s2 & H2 & E). exists s2. split; [done|].
  unfold maps in *. by rewrite E.
Qed.
Print Assumptions C53_was_there.

(** ... and, for every key, what the complete text shows for it is what the key had at some instant while it was printed. *)
Theorem C53_every_key `{C : Config} `{!ConfigOk C} : forall ls o pls s out, wf_calls ls -> wf_calls (sys pls) -> printing ls o pls s (PDone out) ->
  forall k, exists s1 x, while_printing ls o pls s1 /\ has s1 k x /\ listed (elements out) k x.
Proof.
  intros ls o pls s out W1 W2 Hp k. destruct (printing_sim _ _ _ _ _ Hp) as (ls' & ys & ev & Hx & _ & Ho & Hel & Hy & _ & _ & Hwf & Hd).
  specialize (Hwf W1 W2). destruct (exec_itinv _ _ _ Hx Hwf) as (pos & _ & _ & Hit). destruct (Hit o) as (_ & _ & _ & H4).
  unfold iter_st in H4. cbn [shd s_ops ipc] in H4. rewrite lookup_insert in H4. destruct H4 as (_ & _ & Hs). specialize (Hs k).
  destruct (seen_during _ _ _ _ _ _ Hx Hwf Hs) as (s1 & Hs1 & Hh). destruct (Hd s1 Hs1) as (s2 & H2 & E).
  exists s2, (find_pl k (elements out)). split; [done|]. split; [|apply find_listed]. eapply has_mem; [symmetry; exact E|].
  unfold reported in Hh. simpl in Hh. change (elements out = Iter.vals ys) in Hel. by rewrite Hel.
Qed.
Print Assumptions C53_every_key.

(** Whatever the others do, the complete text has the form of a trie: every node that is opened shows its sixteen slots in order, and is closed. *)
Theorem C53_form `{C : Config} : forall ls o pls s out, printing ls o pls s (PDone out) -> shaped out.
Proof. intros ls o pls s out (s0 & ev0 & ev & _ & Hr). change (formed (PDone out)). eapply prun_formed; [|exact Hr]. done. Qed.
Print Assumptions C53_form.

(** If the map does not change meanwhile, the text is the picture of the map: the pointers that are there, and under each what it points to. *)
Theorem C53_picture `{C : Config} : forall ls o pls s out, printing ls o pls s (PDone out) -> (forall s1, while_printing ls o pls s1 -> s_mem s1 = s_mem s) ->
  shows (s_mem s) (m_root (s_mem s)) out.
Proof.
  intros ls o pls s out Hp Hm. destruct (printing_sim _ _ _ _ _ Hp) as (ls' & ys & ev & Hx & _ & Ho & _). pose proof Hp as (s0 & ev0 & e & Hx0 & Hr).
  destruct (prun_prints o (s_mem s) pls s0 PStart s (PDone out) e) as [n Hn]; [|exact Hr|].
  { intros n sn stn en Hn. apply Hm. exists n, stn, s0, ev0, en. done. }
  pose proof (exec_sinv _ _ _ Hx) as Hsi.
  assert (o ∈ guards (shd s o (ipc (PDone out) ys))) as Hg. { apply elem_of_guards. exists (SRun OIter (INext [] ys)). split; [simpl; apply lookup_insert|done]. }
  destruct (live_of_guard _ _ Hsi Hg) as [pos Hl]. pose proof (li_mem _ _ Hl) as Hmi. change (s_mem (shd s o (ipc (PDone out) ys))) with (s_mem s) in Hmi.
  destruct (drop_root_ok pos _ Hmi) as (fs & Hd & _). destruct (prints_ptr (s_mem s)) with (fuel := MAX_LEVELS + 2) (v := m_root (s_mem s)) (fs := fs) as (txt & Ht & Hpr); [|done|].
  { intros l sl Hb. by apply (mi_slots _ _ Hmi l sl Hb). }
  destruct (Hpr [] []) as [n' Hn']. simpl in Hn'. assert (prints (s_mem s) (S n') PStart = PDone txt) as E1 by exact Hn'.
  assert (prints (s_mem s) (n + S n') PStart = PDone out) as E2 by (by rewrite prints_add, <-Hn, prints_done).
  assert (prints (s_mem s) (S n' + n) PStart = PDone txt) as E3 by (by rewrite prints_add, E1, prints_done).
  rewrite (Nat.add_comm n (S n')), E3 in E2. by injection E2 as <-.
Qed.
Print Assumptions C53_picture.

(** ** A concrete case: a trie with a collision node, a split branch and a leaf is printed.  When the printing is inside the branch of keys 1 and 17,
    another thread inserts key 4 and removes key 2 (which the printing has not reached), inserts key 0 (behind it), and removes key 17, which has been
    printed already, with the branch the printing is in. *)
Definition ppre : list cmd := seqcalls 1%positive [ins 1 1; ins 17 2; ins 5 3; ins (5 + 2 ^ 64) 4; ins 2 5].
Definition pmid : list cmd := [Inv 7 (ins 4 7); Finish 7; Inv 8 (rem 2); Finish 8; Inv 9 (ins 0 9); Finish 9; Inv 10 (rem 17); Finish 10]%positive.
Definition plsx : list (@label CN) := schedule ppre.
Definition others : list (@label CN) := drop (S (length plsx)) (schedule (ppre ++ Inv 6%positive ite :: pmid)).
Definition pplan (n : nat) : list (@plabel CN) := replicate 5 PPrint ++ (PSys <$> others) ++ replicate n PPrint.
Definition pres (n : nat) : option (@state CN * @pstat CN) :=
  match run init (plsx ++ [LInv 6%positive OIter]) with
  | Some (s0, _) => match prun 6%positive (s0, PStart) (pplan n) with Some (s, st, _) => Some (s, st) | None => None end
  | None => None
  end.

Lemma pres_printing n s st : pres n = Some (s, st) -> printing plsx 6%positive (pplan n) s st.
Proof.
  unfold pres, printing, exec. destruct (run init _) as [[s0 e0]|]; [|done]. destruct (prun _ _ _) as [[[s1 st1] e1]|] eqn:E; [|done]. intros [= <- <-]. by exists s0, e0, e1.
Qed.

#[local] Opaque plsx pplan others pres run prun schedule.

Definition shown (x : option (@state CN * @pstat CN)) : option (list (@Pl CN)) := match x with Some (_, PDone out) => Some (elements out) | _ => None end.
Definition is_shown (x : option (@state CN * @pstat CN)) (l : list (N * N)) : bool :=
  match shown x with Some l' => if decide ((l' : list (N * N)) = l) then true else false | None => false end.
Lemma is_shown_inv x l : is_shown x l = true -> exists s out, x = Some (s, PDone out) /\ elements out = l.
Proof.
  unfold is_shown, shown. destruct x as [[s [| |out|]]|]; try discriminate. intros H. exists s, out. split; [reflexivity|]. destruct (decide _) as [E|]; [exact E|discriminate].
Qed.
Lemma is_shown_spec n l : is_shown (pres n) l = true -> exists s out, printing plsx 6%positive (pplan n) s (PDone out) /\ elements out = l.
Proof. intros H. destruct (is_shown_inv _ _ H) as (s & out & E & El). exists s, out. exact (conj (pres_printing _ _ _ E) El). Qed.
Lemma wf_sys_check (pls : list (@plabel CN)) : forallb lb_wfb (sys pls) = true -> wf_calls (sys pls).
Proof. apply wf_check. Qed.

Example C53_example : wf_calls plsx /\ wf_calls (sys (pplan 268)) /\
  exists s out, printing plsx 6%positive (pplan 268) s (PDone out) /\ elements out = [(1, 1); (17, 2); (4, 7); (5, 3); (5 + 2 ^ 64, 4)]%N.
Proof.
  split; [apply wf_check; vm_compute; reflexivity|]. split; [apply wf_sys_check; vm_compute; reflexivity|]. apply is_shown_spec. vm_compute. reflexivity.
Qed.

(** Printing alone: the text is the picture. *)
Lemma prun_alone `{C : Config} o n : forall s st s' st' e, prun o (s, st) (replicate n PPrint) = Some (s', st', e) -> s' = s.
Proof.
  induction n as [|n IH]; intros s st s' st' e Hr; [by injection Hr as <- <- <-|]. cbn [replicate prun] in Hr. destruct (pstep o (s, st) PPrint) as [[[s1 st1] e1]|] eqn:Ep; [|done].
  destruct (prun o (s1, st1) _) as [[[s2 st2] e2]|] eqn:Er; [|done]. injection Hr as <- <- <-. apply IH in Er as ->. cbn [pstep fst snd] in Ep. destruct st; try done; by injection Ep as <- <- <-.
Qed.
Definition palone (n : nat) : option (@state CN * @pstat CN) :=
  match run init (plsx ++ [LInv 6%positive OIter]) with
  | Some (s0, _) => match prun 6%positive (s0, PStart) (replicate n PPrint) with Some (s, st, _) => Some (s, st) | None => None end
  | None => None
  end.
Lemma palone_printing n s st : palone n = Some (s, st) -> printing plsx 6%positive (replicate n PPrint) s st /\
  forall s1, while_printing plsx 6%positive (replicate n PPrint) s1 -> s_mem s1 = s_mem s.
Proof.
  unfold palone, printing, while_printing, printing, exec. destruct (run init _) as [[s0 e0]|]; [|done]. destruct (prun _ _ _) as [[[s1 st1] e1]|] eqn:E; [|done]. intros [= <- <-].
  split; [by exists s0, e0, e1|]. intros s2 (n2 & st2 & s3 & e3 & e4 & [= <- <-] & Hr). rewrite take_replicate in Hr. apply prun_alone in Hr as ->. by apply prun_alone in E as ->.
Qed.
Definition shown_len (x : option (@state CN * @pstat CN)) : nat := match x with Some (_, PDone out) => length out | _ => 0 end.
Lemma palone_spec n l k : is_shown (palone n) l = true -> shown_len (palone n) = k -> exists s out, printing plsx 6%positive (replicate n PPrint) s (PDone out) /\
  (forall s1, while_printing plsx 6%positive (replicate n PPrint) s1 -> s_mem s1 = s_mem s) /\ elements out = l /\ length out = k.
Proof.
  intros H Hk. destruct (is_shown_inv _ _ H) as (s & out & E & El). rewrite E in Hk. destruct (palone_printing _ _ _ E) as [H1 H2]. exists s, out. exact (conj H1 (conj H2 (conj El Hk))).
Qed.
Example C53_picture_example : exists s out, printing plsx 6%positive (replicate 273 PPrint) s (PDone out) /\
  (forall s1, while_printing plsx 6%positive (replicate 273 PPrint) s1 -> s_mem s1 = s_mem s) /\ elements out = [(1, 1); (17, 2); (2, 5); (5, 3); (5 + 2 ^ 64, 4)]%N /\ length out = 583.
Proof. apply palone_spec; vm_compute; reflexivity. Qed.
