(** * Counting the steps of a call with a potential function. *)
From Verif Require Import Model Mem Inv Safe SafeStep SafeOps SafeSys SafeProps Spec IterSpec ProgSpec Prog Shape LiveStep.

Section count.
Context {C : Config}.
Implicit Types (m : mem) (pos : loc -> list nat) (o : opid) (gs : gset opid) (op : oper) (s : state) (ls : list label) (ev : list event) (p : pc).

Definition ny (acts : list act) : nat := length (omap (fun a => match a with AYield r => Some r | ACall _ => None end) acts).
Lemma ny_yields acts o : length (yields_of (map (act_event o) acts) o) = ny acts.
Proof. unfold ny. induction acts as [|[k|r] acts IH]; simpl; [done|done|]. rewrite decide_True by done. simpl. by rewrite IH. Qed.
Lemma yields_app' ev e o : yields_of (ev ++ e) o = yields_of ev o ++ yields_of e o.
Proof. apply omap_app. Qed.
Lemma yields_len_app ev e o : length (yields_of (ev ++ e) o) = length (yields_of ev o) + length (yields_of e o).
Proof. unfold yields_of. by rewrite omap_app, app_length. Qed.
Lemma yields_other acts o o' : o' <> o -> yields_of (map (act_event o) acts) o' = [].
Proof. intros H. induction acts as [|[k|r] acts IH]; simpl; [done|done|]. by rewrite decide_False. Qed.

Context (uy : bool).
Definition yc (n : nat) : N := if uy then N.of_nat n else 0%N.
Lemma yc_add a b : yc (a + b) = (yc a + yc b)%N.
Proof. unfold yc. destruct uy; lia. Qed.

Context (W : (loc -> list nat) -> mem -> pc -> N) (P : oper -> Prop) (B : N).
Context (W_init : forall pos m op, P op -> (W pos m (op_init op) <= B)%N).
Context (W_step : forall gs pos m pos' m' o op p spur a nx acts, minv pos m -> o ∈ gs -> pc_ok pos m o p -> shape op p -> P op ->
  op_step gs m p spur a = Some (m', nx, acts) -> mtr gs pos m pos' m' -> nx_ok pos' m' o nx ->
  match nx with
  | NRun p' => (1 + W pos' m' p' <= W pos m p + yc (ny acts))%N
  | NRet r => (1 <= W pos m p + yc (ny acts))%N
  | NFail _ => True
  end).
Context (W_st : forall pos m pos' m' o op p, minv pos m -> ext pos m pos' m' -> pc_ok pos m o p -> shape op p -> P op -> (W pos' m' p <= W pos m p)%N).

Definition cnt_ok pos ls s ev o : Prop :=
  match s_ops s !! o with
  | None => steps_of ls o = 0 /\ yields_of ev o = []
  | Some (SRun op p) => P op -> (N.of_nat (steps_of ls o) + W pos (s_mem s) p <= B + yc (length (yields_of ev o)))%N
  | _ => forall op, EInv o op ∈ ev -> P op -> (N.of_nat (steps_of ls o) <= B + yc (length (yields_of ev o)))%N
  end.
Definition cnt_end ls ev o : Prop := forall op, EInv o op ∈ ev -> P op -> (N.of_nat (steps_of ls o) <= B + yc (length (yields_of ev o)))%N.

Lemma cnt_ok_end pos ls s ev o : exec ls s ev -> cnt_ok pos ls s ev o -> cnt_end ls ev o.
Proof.
  intros Hx Hc op Hi HP. unfold cnt_ok in Hc. pose proof (exec_events _ _ _ Hx _ Hi) as He. simpl in He.
  destruct (s_ops s !! o) as [[op' p|op' r|op' f|]|]; try (by eapply Hc); [subst op'; specialize (Hc HP); lia|done].
Qed.

Theorem count_steps ls s ev : exec ls s ev ->
  (forall o, cnt_end ls ev o) /\
  (s_dropped s = false -> exists pos, live_inv pos s /\ forall o, cnt_ok pos ls s ev o).
Proof.
  intros Hx. pose proof (live_ind (fun pos ls s ev => forall o, cnt_ok pos ls s ev o) (fun ls s ev => forall o, cnt_end ls ev o)) as Hind.
  assert (if s_dropped s then forall o, cnt_end ls ev o else exists pos, live_inv pos s /\ forall o, cnt_ok pos ls s ev o) as Hmain.
  2:{ destruct (s_dropped s); [done|]. destruct Hmain as (pos & Hl & Hc). split; [|by eauto]. intros o. by eapply cnt_ok_end. }
  revert ls s ev Hx. apply Hind; clear Hind.
  - intros o. unfold cnt_ok. simpl. by rewrite lookup_empty.
  - intros pos pos' ls s ev lb s' e Hx Hl Hl' IH Hst Hle.
    pose proof (li_mem _ _ Hl) as Hm.
    pose proof (exec_sh _ _ _ Hx) as Hsh.
    pose proof (exec_events _ _ _ Hx) as Hev.
    destruct Hle as [o spur a op p m' nx acts Eo Estep Hmt Hpc Hnx Hog Es'|o op Eo -> Es'|o lb Eo Elb -> Es'|n l k g -> En E1 E2].
    + pose proof (mtr_ext _ _ _ _ _ Hm Hmt) as Hext. intros o'. destruct (decide (o' = o)) as [->|Hne].
      * specialize (IH o). unfold cnt_ok in IH |- *. rewrite Eo in IH. rewrite Es'. simpl. rewrite lookup_insert.
        destruct (si_run _ _ Hsh _ _ _ Eo) as [Hs _].
        assert (steps_of (ls ++ [LStep o spur a]) o = S (steps_of ls o)) as Ec.
        { rewrite steps_of_snoc. simpl. rewrite bool_decide_eq_true_2 by done. lia. }
        assert (length (yields_of (ev ++ map (act_event o) acts ++ match nx with NRet r => [ERet o r] | _ => [] end) o) = length (yields_of ev o) + ny acts) as Ey.
        { rewrite !yields_len_app, ny_yields. destruct nx; simpl; lia. }
        rewrite Ec, Ey, yc_add. specialize (fun HP => W_step _ _ _ _ _ _ _ _ _ _ _ _ Hm Hog Hpc Hs HP Estep Hmt Hnx).
        assert (forall op', EInv o op' ∈ ev ++ map (act_event o) acts ++ match nx with NRet r => [ERet o r] | _ => [] end -> op' = op) as Hinv.
        { intros op' Hi. rewrite !elem_of_app in Hi. destruct Hi as [Hi|[Hi|Hi]].
          - apply Hev in Hi. simpl in Hi. by rewrite Eo in Hi.
          - apply elem_of_list_fmap in Hi as ([k|y] & ? & _); done.
          - destruct nx; try by apply elem_of_nil in Hi. by apply elem_of_list_singleton in Hi. }
        destruct nx as [p'|r|f].
        -- intros HP. specialize (W_step HP). specialize (IH HP). lia.
        -- intros op' Hi HP. apply Hinv in Hi as ->. specialize (W_step HP). specialize (IH HP). lia.
        -- done.
      * specialize (IH o'). unfold cnt_ok in *. rewrite Es'. simpl. rewrite lookup_insert_ne by done.
        rewrite steps_of_snoc. simpl. rewrite bool_decide_eq_false_2 by done. rewrite Nat.add_0_r.
        assert (yields_of (ev ++ map (act_event o) acts ++ match nx with NRet r => [ERet o r] | _ => [] end) o' = yields_of ev o') as Ey.
        { rewrite !yields_app', (yields_other acts o o') by done. rewrite <-(app_nil_r (yields_of ev o')) at 2. f_equal. destruct nx; done. }
        rewrite Ey. assert (forall op', EInv o' op' ∈ ev ++ map (act_event o) acts ++ match nx with NRet r => [ERet o r] | _ => [] end -> EInv o' op' ∈ ev) as Hinv.
        { intros op' Hi. rewrite !elem_of_app in Hi. destruct Hi as [Hi|[Hi|Hi]]; [done| |].
          - apply elem_of_list_fmap in Hi as ([k|y] & ? & _); done.
          - destruct nx; try by apply elem_of_nil in Hi. by apply elem_of_list_singleton in Hi. }
        destruct (s_ops s !! o') as [[op' p'|op' r|op' f|]|] eqn:Eo'; try (intros op2 Hi HP; apply (IH op2); auto); [|done].
        intros HP. specialize (IH HP). destruct (si_run _ _ Hsh _ _ _ Eo') as [Hs' _].
        pose proof (W_st _ _ _ _ o' op' p' Hm Hext (li_ops _ _ Hl _ _ Eo') Hs' HP). lia.
    + intros o'. unfold cnt_ok. rewrite Es'. simpl. rewrite steps_of_snoc. simpl. rewrite Nat.add_0_r.
      assert (yields_of (ev ++ [EInv o op]) o' = yields_of ev o') as Ey by (unfold yields_of; rewrite omap_app; simpl; apply app_nil_r).
      rewrite Ey. specialize (IH o'). unfold cnt_ok in IH. destruct (decide (o' = o)) as [->|Hne].
      * rewrite lookup_insert. rewrite Eo in IH. destruct IH as [-> ->]. intros HP. pose proof (W_init pos (s_mem s) op HP). change (yc (length [])) with (yc 0). unfold yc. destruct uy; simpl; lia.
      * rewrite lookup_insert_ne by done. assert (forall op', EInv o' op' ∈ ev ++ [EInv o op] -> EInv o' op' ∈ ev) as Hinv.
        { intros op' [Hi|Hi]%elem_of_app; [done|]. apply elem_of_list_singleton in Hi. congruence. }
        destruct (s_ops s !! o') as [[op' p'|op' r|op' f|]|] eqn:Eo'; try (intros op2 Hi HP; apply (IH op2); auto); done.
    + intros o'. assert (steps_of (ls ++ [lb]) o' = steps_of ls o') as Ec.
      { rewrite steps_of_snoc. destruct Elb as [-> | ->]; simpl; lia. }
      unfold cnt_ok. rewrite Es'. simpl. rewrite Ec, app_nil_r. destruct (decide (o' = o)) as [->|Hne].
      * rewrite lookup_insert. intros op Hi HP. by eapply (cnt_ok_end pos ls s ev o).
      * rewrite lookup_insert_ne by done. apply IH.
    + intros o'. unfold cnt_ok. rewrite E1, E2, app_nil_r. rewrite steps_of_snoc. simpl. rewrite Nat.add_0_r. specialize (IH o'). unfold cnt_ok in IH.
      destruct (s_ops s !! o') as [[op' p'|op' r|op' f|]|] eqn:Eo'; try done.
      intros HP. specialize (IH HP). destruct (si_run _ _ Hsh _ _ _ Eo') as [Hs' _].
      pose proof (W_st pos (s_mem s) pos (mem_free (s_mem s) n l k) o' op' p' Hm (ext_refl pos (s_mem s)) (li_ops _ _ Hl _ _ Eo') Hs' HP). lia.
  - intros pos ls s ev s' e Hx Hl Hg IH Hst Ho o. assert (e = []) as ->.
    { cbn [step] in Hst. destruct (_ && _); [|done]. destruct (drop_rec _ _ _); by injection Hst as <- <-. }
    rewrite app_nil_r. unfold cnt_end. rewrite steps_of_snoc. simpl. rewrite Nat.add_0_r. by eapply cnt_ok_end.
  - intros ls s ev n s' e Hx IH Hst Ho o. assert (e = []) as ->.
    { cbn [step] in Hst. destruct (m_garb _ !! n) as [[[? ?] ?]|]; [|done]. case_bool_decide; [|done]. by injection Hst as <- <-. }
    rewrite app_nil_r. unfold cnt_end. rewrite steps_of_snoc. simpl. rewrite Nat.add_0_r. apply IH.
Qed.
End count.
