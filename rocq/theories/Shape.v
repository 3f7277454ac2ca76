(** * Which program points belong to which operation; how often the closure is called; readers do not write.
    Nothing here depends on the contracts of Eq, Hash or closures. *)
From Verif Require Import Model Spec SafeProps.

Section shape.
Context {C : Config}.
Implicit Types (m : mem) (o : opid) (gs : gset opid) (k : Key) (op : oper) (s : state) (ls : list label) (ev : list event) (t : tloc).

Definition t_shape op t : Prop :=
  match op with
  | OInsert p => t_st t = TSCreated p /\ t_mode t = Overwrite
  | OGetOrInsert k f => (t_st t = TSFuture k f \/ t_st t = TSCreated (f k)) /\ t_mode t = IfMissing
  | _ => False
  end.
Definition k_shape op (kk : pcont) : Prop := match kk with KTrav t => t_shape op t | _ => exists k, op = ORemove k end.
Definition shape op (p : pc) : Prop :=
  match p with
  | TLoad t _ _ _ => t_shape op t
  | TCas t _ _ _ _ new kind => t_shape op t /\
      match kind with
      | TKSplit => True
      | TKNew => exists pl, t_st t = TSCreated pl /\ new = BData [pl]
      | TKData _ => exists its pl, t_st t = TSCreated pl /\ new = BData (its ++ [pl])
      end
  | PMark kk _ _ _ _ _ _ _ | PCas kk _ _ _ _ => k_shape op kk
  | GLoad _ _ _ => exists k, op = OGet k
  | RLoad _ _ _ _ _ | RCas _ _ _ _ _ _ _ _ | RCount _ _ _ _ _ _ => exists k, op = ORemove k
  | ELoad => op = OIsEmpty
  | INew | INext _ _ => op = OIter
  end.

(** Has the closure been called? *)
Definition ts_made (st : tstate) : bool := match st with TSCreated _ => true | TSFuture _ _ => false end.
Definition made (p : pc) : bool :=
  match p with
  | TLoad t _ _ _ | TCas t _ _ _ _ _ _ | PMark (KTrav t) _ _ _ _ _ _ _ | PCas (KTrav t) _ _ _ _ => ts_made (t_st t)
  | _ => true
  end.
Definition r_shape op (r : res) : Prop :=
  match op, r with
  | OInsert _, ROpt _ | OGetOrInsert _ _, REon _ | OGet _, ROpt _ | ORemove _, ROpt _ | OIsEmpty, RBool _ | OIter, RIter _ => True
  | _, _ => False
  end.


(** The calls a step makes: none, or the first one. *)
Definition acts_calls (acts : list act) : list Key := omap (fun a => match a with ACall k => Some k | AYield _ => None end) acts.

Definition good op (mp : bool) (x : sres) : Prop :=
  forall m' nx acts, x = Some (m', nx, acts) ->
  match nx with
  | NRun p' => shape op p' /\ (mp = true -> made p' = true) /\
     acts_calls acts = (if mp then [] else if made p' then match op with OGetOrInsert k _ => [k] | _ => [] end else [])
  | NRet r => r_shape op r /\ acts_calls acts = [] /\ (forall x, r = REon (New x) -> mp = true /\ exists k f, op = OGetOrInsert k f /\ rr_val x = f k)
  | NFail _ => acts_calls acts = []
  end.

Lemma good_fail op mp m f : good op mp (ok m (NFail f)).
Proof. by intros ??? [= <- <- <-]. Qed.
Lemma good_panics op mp m f : good op mp (panics m f).
Proof. by intros ??? [= <- <- <-]. Qed.
Lemma good_run op mp m p : shape op p -> made p = mp -> good op mp (ok m (NRun p)).
Proof. intros Hs <- ??? [= <- <- <-]. split; [done|]. split; [done|]. by destruct (made p). Qed.
Lemma good_ret op mp m r : r_shape op r -> (forall x, r <> REon (New x)) -> good op mp (ok m (NRet r)).
Proof. intros Hs Hn ??? [= <- <- <-]. split; [done|]. split; [done|]. intros x ->. exfalso. by eapply Hn. Qed.

Lemma good_prune_start op mp m kk parent child : k_shape op kk -> made (PMark kk parent child 0 true 0 None []) = mp -> good op mp (prune_start m kk parent child).
Proof. intros Hk Hm. unfold prune_start. case_match; [apply good_panics|]. case_match; [apply good_panics|]. by apply good_run. Qed.

Lemma good_rem_up op m d lv : (exists k, op = ORemove k) -> good op true (rem_up m d lv).
Proof.
  intros [k ->]. unfold rem_up. destruct lv as [|[? ?] ?]; [by apply good_ret|]. case_match; [apply good_panics|]. apply good_run; [by exists k|done].
Qed.

Lemma good_prune_return op mp m kk pr : k_shape op kk -> (match kk with KTrav t => ts_made (t_st t) | _ => true end) = mp -> good op mp (prune_return m kk pr).
Proof.
  intros Hk <-. unfold prune_return. destruct kk as [t|key h|d lv].
  - by apply good_run.
  - by apply good_run.
  - destruct Hk as [k ->]. destruct pr; try (apply good_rem_up; by exists k). by apply good_ret.
Qed.

Lemma good_finish_old op t mp m x : t_shape op t -> match x with Some (New _) => False | _ => True end -> good op mp (t_finish m t x []).
Proof.
  intros Ht Hx. unfold t_finish, t_shape in *. destruct op; try done; destruct Ht as [? ->].
  - by apply good_ret.
  - destruct x as [[|]|]; [|done|apply good_panics]. by apply good_ret.
Qed.

Lemma good_finish_new op t m x : t_shape op t -> t_st t = TSCreated (rr_val x) -> t_mode t = IfMissing -> good op true (t_finish m t (Some (New x)) []).
Proof.
  intros Ht Hx Hi. unfold t_finish, t_shape in *. destruct op; try done; destruct Ht as [Ht E]; [congruence|]. rewrite E.
  intros ??? [= <- <- <-]. split; [done|]. split; [done|]. intros y [= <-]. split; [done|]. do 2 eexists. split; [done|]. destruct Ht; congruence.
Qed.

Lemma t_shape_payload op t p st' call : t_shape op t -> ts_payload (t_st t) = (p, st', call) ->
  t_shape op (t_with t st') /\ st' = TSCreated p /\
  match call with Some k => exists f, op = OGetOrInsert k f /\ ts_made (t_st t) = false | None => ts_made (t_st t) = true end.
Proof.
  unfold t_shape, ts_payload. destruct op; try done; intros [Ht Hm].
  - rewrite Ht. intros [= <- <- <-]. simpl. done.
  - destruct Ht as [Ht|Ht]; rewrite Ht; intros [= <- <- <-]; simpl.
    + split; [by split; [right|]|]. split; [done|]. by eexists.
    + split; [by split; [right|]|]. done.
Qed.

Lemma op_step_shape gs m p spur a op : shape op p -> good op (made p) (op_step gs m p spur a).
Proof.
  intros Hs. destruct p as [t shift cur par|t shift cur par node new kind|kk parent child i ac cnt last new|kk parent child ins pr|k h cur|k h shift cur lv|k h shift cur lv node new del|del lv parent child i cnt| | |lv out];
    cbn [op_step].
  - destruct (read_cell m cur) as [node|]; [|apply good_fail]. case_match.
    { destruct par as [[? ?]|]; [|apply good_panics]. by apply good_prune_start. }
    case_match.
    { destruct (ts_payload (t_st t)) as [[p st'] call] eqn:Ep. destruct (t_shape_payload _ _ _ _ _ Hs Ep) as (Ht & -> & Hc).
      intros ??? [= <- <- <-]. split; [split; [done|by eexists]|]. split; [done|]. simpl.
      destruct call as [k|]; [destruct Hc as (f & -> & ->)|rewrite Hc]; done. }
    case_match.
    { destruct (load_data m node) as [f|[|d0 it]]; [apply good_fail|apply good_panics|]. case_match.
      - case_match; [apply good_panics|]. apply good_run; done.
      - cbv zeta. destruct (match sh_loc node with Some l => find_ref (ts_key (t_st t)) l (d0 :: it) | None => None end) as [r|];
          [destruct (t_mode t) eqn:Em|].
        + destruct (ts_payload (t_st t)) as [[p st'] call] eqn:Ep. destruct (t_shape_payload _ _ _ _ _ Hs Ep) as (Ht & -> & Hc).
          intros ??? [= <- <- <-]. split; [split; [done|by do 2 eexists]|]. split; [done|]. simpl.
          destruct call as [k|]; [destruct Hc as (f & -> & ->)|rewrite Hc]; done.
        + by apply good_finish_old.
        + destruct (ts_payload (t_st t)) as [[p st'] call] eqn:Ep. destruct (t_shape_payload _ _ _ _ _ Hs Ep) as (Ht & -> & Hc).
          intros ??? [= <- <- <-]. split; [split; [done|by do 2 eexists]|]. split; [done|]. simpl.
          destruct call as [k|]; [destruct Hc as (f & -> & ->)|rewrite Hc]; done. }
    destruct (sh_loc node); [|apply good_fail]. case_match; [apply good_panics|]. by apply good_run.
  - destruct Hs as [Hs Hk]. destruct (read_cell m cur) as [now|]; [|apply good_fail]. destruct (negb (addr_free m a)); [by intros ????|]. destruct (sh_same m now node && negb spur).
    + destruct kind as [| |result].
      * destruct Hk as (pl & Hst & ->). simpl. rewrite Hst. simpl. destruct (t_mode t) eqn:Em; [by apply good_finish_old|by apply good_finish_new].
      * by apply good_run.
      * destruct Hk as (its & pl & Hst & ->). simpl. rewrite Hst. simpl. destruct (sh_loc node); [|apply good_fail]. case_match; [apply good_panics|].
        destruct result as [r|].
        -- by apply good_finish_old.
        -- destruct (t_mode t) eqn:Em; [by apply good_finish_old|].
           rewrite app_length. simpl. replace (length its + 1 - 1) with (length its) by lia.
           rewrite list_lookup_middle by done. by apply good_finish_new.
    + by apply good_run.
  - destruct (sh_loc child) as [l|]; [|apply good_fail]. destruct (read_cell m (CSlot l i)) as [v|]; [|apply good_fail].
    match goal with |- good _ _ (match ?R with inl _ => _ | inr _ => _ end) => destruct R as [f|[[ac' cnt'] last']]; [apply good_fail|] end.
    case_match; [apply good_run; [done|by destruct kk]|]. unfold prune_decide. case_match; [apply good_panics|]. apply good_run; [done|by destruct kk].
  - destruct (read_cell m parent) as [now|]; [|apply good_fail].
    destruct ins as [v|sl]; [|case_match; [|by intros ????]]; case_match; try (destruct (sh_loc child); [|apply good_fail]); apply good_prune_return; try done; by destruct kk.
  - destruct Hs as [k0 ->]. destruct (read_cell m cur) as [node|]; [|apply good_fail]. case_match; [by apply good_ret|]. case_match.
    + destruct (load_data m node); [apply good_fail|by apply good_ret].
    + destruct (sh_loc node); [|apply good_fail]. apply good_run; [by eexists|done].
  - destruct Hs as [k0 ->]. destruct (read_cell m cur) as [node|]; [|apply good_fail]. case_match; [by apply good_ret|]. case_match.
    { destruct lv as [|[? ?] ?]; [apply good_panics|]. apply good_prune_start; [by eexists|done]. }
    case_match.
    { destruct (load_data m node); [apply good_fail|]. destruct (find_last _ _ _ _) as [[? ?]|]; [|by apply good_ret].
      destruct (sh_loc node); [|by apply good_ret]. apply good_run; [by eexists|done]. }
    destruct (sh_loc node); [|apply good_fail]. case_match; [apply good_panics|]. case_match; [apply good_panics|]. apply good_run; [by eexists|done].
  - destruct Hs as [k0 ->]. destruct (read_cell m cur) as [now|]; [|apply good_fail].
    destruct new as [|p0 new]; [|case_match; [|by intros ????]]; case_match; try (case_match; [apply good_panics|]; destruct (sh_loc node); [|apply good_fail]); try (apply good_rem_up; by eexists);
      (apply good_run; [by eexists|done]).
  - destruct Hs as [k0 ->]. destruct (sh_loc child) as [l|]; [|apply good_fail]. destruct (read_cell m (CSlot l i)) as [v|]; [|apply good_fail].
    case_match; [apply good_run; [by eexists|done]|]. case_match; [by apply good_ret|]. apply good_prune_start; [by eexists|done].
  - simpl in Hs. subst op. by apply good_ret.
  - simpl in Hs. subst op. by apply good_run.
  - simpl in Hs. subst op. destruct lv as [|[v idx] rest]; [by apply good_ret|]. case_match; [by apply good_run|]. case_match.
    { destruct (load_data m v) as [|it]; [apply good_fail|]. destruct (sh_loc v); [|apply good_fail]. destruct (it !! idx) as [p|]; [|by apply good_run].
      intros ??? [= <- <- <-]. done. }
    case_match; [|by apply good_run]. destruct (sh_loc v); [|apply good_fail]. destruct (read_cell _ _); [|apply good_fail].
    case_match; [apply good_panics|by apply good_run].
Qed.

Lemma shape_init op : shape op (op_init op).
Proof. destruct op; simpl; try done; try (by eexists). split; [by left|done]. Qed.

(** ** Readers do not write *)
Lemma op_step_reader gs m p spur a op m' nx acts : shape op p -> is_reader op = true -> op_step gs m p spur a = Some (m', nx, acts) -> m' = m.
Proof.
  intros Hs Hr Hst. destruct p as [t shift cur par|t shift cur par node new kind|kk parent child i ac cnt last new|kk parent child ins pr|k h cur|k h shift cur lv|k h shift cur lv node new del|del lv parent child i cnt| | |lv out]; simpl in Hs.
  - by destruct op.
  - destruct Hs; by destruct op.
  - destruct kk; [by destruct op|by destruct Hs as [? ->]..].
  - destruct kk; [by destruct op|by destruct Hs as [? ->]..].
  - cbn [op_step] in Hst. unfold ok, panics in Hst. repeat case_match; by simplify_eq.
  - by destruct Hs as [? ->].
  - by destruct Hs as [? ->].
  - by destruct Hs as [? ->].
  - cbn [op_step] in Hst. unfold ok, panics in Hst. by simplify_eq.
  - cbn [op_step] in Hst. unfold ok, panics in Hst. by simplify_eq.
  - cbn [op_step] in Hst. unfold ok, panics in Hst. destruct lv as [|[v idx] rest]; [congruence|]. destruct (is_null v); [congruence|].
    destruct (sh_data v).
    { destruct (load_data m v) as [|it]; [congruence|]. destruct (sh_loc v); [|congruence]. destruct (it !! idx); congruence. }
    destruct (idx <? LEVEL_CELLS); [|congruence]. destruct (sh_loc v); [|congruence]. destruct (read_cell _ _); [|congruence].
    destruct (MAX_LEVELS + 1 <=? length ((v, idx) :: rest)); unfold ok in Hst; congruence.
Qed.

(** ** The invariant *)
Lemma calls_of_app ev e o : calls_of (ev ++ e) o = calls_of ev o ++ calls_of e o.
Proof. unfold calls_of. by rewrite omap_app. Qed.
Lemma calls_of_acts acts o : calls_of (map (act_event o) acts) o = acts_calls acts.
Proof.
  unfold calls_of, acts_calls. induction acts as [|[k|r] acts IH]; [done|..]; simpl; [|done]. rewrite decide_True by done. by f_equal.
Qed.
Lemma calls_of_acts_ne acts o o' : o' <> o -> calls_of (map (act_event o) acts) o' = [].
Proof.
  intros Hne. unfold calls_of. induction acts as [|[k|r] acts IH]; [done|..]; simpl; [|done]. rewrite decide_False by congruence. done.
Qed.
Lemma calls_of_none ev o : (forall k, ECall o k ∉ ev) -> calls_of ev o = [].
Proof.
  intros H. induction ev as [|e ev IH]; [done|]. specialize (IH (fun k Hk => H k (elem_of_list_further _ _ _ Hk))).
  change (e :: ev) with ([e] ++ ev). rewrite calls_of_app, IH, app_nil_r.
  destruct e as [| |o' k|]; try done. unfold calls_of. simpl. case_decide as E; [|done]. subst. exfalso. apply (H k). apply elem_of_list_here.
Qed.

Definition new_ok ev o op (r : res) : Prop := forall x, r = REon (New x) -> exists k f, op = OGetOrInsert k f /\ calls_of ev o = [k] /\ rr_val x = f k.

Record sh_inv s ev : Prop := ShInv {
  si_run : forall o op p, s_ops s !! o = Some (SRun op p) -> shape op p /\
     calls_of ev o = (match op with OGetOrInsert k _ => if made p then [k] else [] | _ => [] end);
  si_calls : forall o, length (calls_of ev o) <= 1;
  si_ret : forall o op r, EInv o op ∈ ev -> ERet o r ∈ ev -> r_shape op r /\ new_ok ev o op r;
}.

Lemma exec_sh ls s ev : exec ls s ev -> sh_inv s ev.
Proof.
  revert ls s ev. apply (exec_ind (fun ls s ev => sh_inv s ev)).
  { split; [intros o op p H; simpl in H; by rewrite lookup_empty in H|simpl; lia|intros o op r H; by apply elem_of_nil in H]. }
  intros ls s ev lb s' e Hx [I1 I2 I3] Hst. pose proof (exec_events _ _ _ Hx) as Hev.
  assert (forall s', s_ops s' = s_ops s \/ (exists o, s_ops s' = <[o := SGone]> (s_ops s)) -> sh_inv s' (ev ++ [])) as Hq.
  { intros s2 Hs2. rewrite app_nil_r. split; [|done|done]. intros o op p Ho. destruct Hs2 as [E|[o' E]]; rewrite E in Ho; [by apply I1|].
    destruct (decide (o' = o)) as [->|]; [by rewrite lookup_insert in Ho|]. rewrite lookup_insert_ne in Ho by done. by apply I1. }
  destruct lb as [o op|o spur a|o|o|n|]; cbn [step] in Hst.
  - destruct (s_ops s !! o) eqn:Eo, (s_dropped s); simplify_eq.
    assert (forall o', calls_of (ev ++ [EInv o op]) o' = calls_of ev o') as Ec. { intros o'. rewrite calls_of_app. by rewrite app_nil_r. }
    split.
    + intros o' op' p'. simpl. rewrite Ec. destruct (decide (o = o')) as [<-|]; [rewrite lookup_insert|rewrite lookup_insert_ne by done; apply I1].
      intros [= <- <-]. split; [apply shape_init|]. assert (calls_of ev o = []) as ->.
      { apply calls_of_none. intros k Hk. apply Hev in Hk. simpl in Hk; by rewrite Eo in Hk. }
      by destruct op.
    + intros o'. by rewrite Ec.
    + intros o' op' r Hi Hr. unfold new_ok. rewrite Ec. apply elem_of_app in Hr as [Hr|Hr]; [|by apply elem_of_list_singleton in Hr].
      apply elem_of_app in Hi as [Hi|Hi]; [by apply I3|]. apply elem_of_list_singleton in Hi as [= -> ->]. apply Hev in Hr. simpl in Hr. by rewrite Eo in Hr.
  - destruct (s_ops s !! o) as [[op p|?|?|]|] eqn:Eo; try done.
    destruct (op_step (guards s) (s_mem s) p spur a) as [[[m' nx] acts]|] eqn:Estep; [|done]. injection Hst as <- <-.
    destruct (I1 _ _ _ Eo) as [Hsh Hca]. pose proof (op_step_shape _ _ _ _ _ _ Hsh _ _ _ Estep) as Hg.
    assert (forall o', calls_of (match nx with NRet r => [ERet o r] | _ => [] end) o' = []) as E0 by (by destruct nx).
    assert (forall o', o' <> o -> calls_of (ev ++ (map (act_event o) acts ++ match nx with NRet r => [ERet o r] | _ => [] end)) o' = calls_of ev o') as Ene.
    { intros o' Hne. by rewrite !calls_of_app, calls_of_acts_ne, E0, app_nil_r by done. }
    assert (calls_of (ev ++ (map (act_event o) acts ++ match nx with NRet r => [ERet o r] | _ => [] end)) o = calls_of ev o ++ acts_calls acts) as Eeq.
    { by rewrite !calls_of_app, calls_of_acts, E0, app_nil_r by done. }
    assert (forall op' , EInv o op' ∈ ev ++ (map (act_event o) acts ++ match nx with NRet r => [ERet o r] | _ => [] end) -> op' = op) as Hinv.
    { intros op' Hi. rewrite !elem_of_app in Hi. destruct Hi as [Hi|[Hi|Hi]].
      - apply Hev in Hi. simpl in Hi. by rewrite Eo in Hi.
      - apply elem_of_list_fmap in Hi as ([k|y] & ? & _); done.
      - destruct nx; try by apply elem_of_nil in Hi. by apply elem_of_list_singleton in Hi. }
    split.
    + intros o' op' p'. simpl. destruct (decide (o = o')) as [<-|Hne]; [rewrite lookup_insert|rewrite lookup_insert_ne, Ene by done; apply I1].
      destruct nx as [p2| |]; try done. intros [= <- <-]. destruct Hg as (Hs2 & Hm2 & Hac). split; [done|]. rewrite Eeq, Hca, Hac.
      destruct op; try (by destruct (made p), (made p2)). destruct (made p); [by rewrite Hm2 by done|]. by destruct (made p2).
    + intros o'. destruct (decide (o' = o)) as [->|Hne]; [|by rewrite Ene]. rewrite Eeq, Hca. destruct nx as [p2|r|f].
      * destruct Hg as (_ & _ & ->). destruct op, (made p), (made p2); simpl; lia.
      * destruct Hg as (_ & -> & _). destruct op, (made p); simpl; lia.
      * rewrite Hg. destruct op, (made p); simpl; lia.
    + intros o' op' r Hi Hr. assert (o' = o \/ EInv o' op' ∈ ev) as Hi'.
      { destruct (decide (o' = o)); [by left|]. right. rewrite !elem_of_app in Hi. destruct Hi as [Hi|[Hi|Hi]]; [done|..].
        - apply elem_of_list_fmap in Hi as ([k|y] & ? & _); done.
        - destruct nx; try by apply elem_of_nil in Hi. by apply elem_of_list_singleton in Hi. }
      rewrite !elem_of_app in Hr. destruct Hr as [Hr|[Hr|Hr]].
      * assert (o' <> o) as Hne. { intros ->. apply Hev in Hr. simpl in Hr. by rewrite Eo in Hr. }
        destruct Hi' as [?|Hi']; [done|]. unfold new_ok. rewrite Ene by done. by apply I3.
      * apply elem_of_list_fmap in Hr as ([k|y] & ? & _); done.
      * destruct nx as [|r2|]; try by apply elem_of_nil in Hr. apply elem_of_list_singleton in Hr as [= -> ->]. apply Hinv in Hi as ->.
        destruct Hg as (Hr & Hac & Hn). split; [done|]. intros x ->. destruct (Hn x eq_refl) as (Hm & k & f & -> & Ev). exists k, f. split; [done|]. split; [|done].
        rewrite Eeq, Hca, Hm, Hac. done.
  - destruct (s_ops s !! o) as [[]|] eqn:Eo; try done. injection Hst as <- <-. apply Hq. right. by exists o.
  - destruct (s_ops s !! o) as [[]|] eqn:Eo; try done. injection Hst as <- <-. apply Hq. right. by exists o.
  - destruct (m_garb _ !! n) as [[[? ?] ?]|]; [|done]. case_bool_decide; [|done]. injection Hst as <- <-. apply Hq. by left.
  - destruct (_ && _); [|done]. destruct (drop_rec _ _ _); injection Hst as <- <-; apply Hq; by left.
Qed.

End shape.
