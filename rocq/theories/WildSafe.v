(** * The structural invariant survives user code that may do anything. *)
From Verif Require Import Model Wild Mem Inv Safe SafeStep SafeOps SafeSys Spec SafeProps.

Section wildsafe.
(* [b]: all the oracles are coherent *)
Context {C : Config} (b : bool).
Local Instance wild_flavor : Flavor | 0 := {| tame := false; placed := b |}.
Implicit Types (m : mem) (pos : loc -> list nat) (c : cell) (v : sh) (o : opid) (gs : gset opid) (s : state) (w : oracle).

Lemma wfound_ok m o w l it r : hbody m l = Some (BData it) -> prot m o l -> wfound w l it = Some r ->
  ref_ok m o r /\ rr_loc r = l /\ it !! rr_idx r = Some (rr_val r).
Proof.
  intros Hb Hp. unfold wfound. destruct (w_find w) as [i|]; [|done]. destruct (it !! i) as [p|] eqn:Ei; [|done].
  intros [= <-]. split; [|done]. by exists it.
Qed.

Lemma wdeleted_in keep l i it acc r : wdeleted keep l i it acc = Some r ->
  acc = Some r \/ exists d, rr_loc r = l /\ rr_idx r = i + d /\ it !! d = Some (rr_val r).
Proof.
  revert keep i acc. induction it as [|q it IH]; intros keep i acc; simpl; [by left|].
  intros [Ha|(d & ? & Hi & Hd)]%IH.
  - destruct keep as [|[?|] ?]; [|by left|]; injection Ha as <-; right; exists 0; simpl; (split; [done|]); (split; [lia|done]).
  - right. exists (S d). split; [done|]. split; [rewrite Hi; lia|done].
Qed.

Theorem wop_step_ok gs pos m o p spur a w m' nx acts :
  (b = true -> w_coherent w) -> minv pos m -> o ∈ gs -> esafe gs m -> pc_ok pos m o p ->
  wop_step gs m p spur a w = Some (m', nx, acts) ->
  exists pos', mtr gs pos m pos' m' /\ nx_ok pos' m' o nx.
Proof.
  intros Hwc Hm Ho He Hpc Hst.
  assert (forall nx', nx_ok pos m o nx' -> ok m nx' = Some (m', nx, acts) -> exists pos', mtr gs pos m pos' m' /\ nx_ok pos' m' o nx) as Hid.
  { intros nx' Hn [= <- <- <-]. exists pos. split; [constructor|done]. }
  destruct p as [t shift cur par|t shift cur par node new kind|k parent child i ac cnt last new|k parent child ins pr
    |k h cur|k h shift cur levels|k h shift cur levels node new del|del levels parent child i cnt| | |levels out];
    try (cbn [wop_step] in Hst; eapply op_step_gen; [exact Hm|exact Ho|exact He|exact Hpc|reflexivity|exact Hst]).
  - (* TLoad *)
    destruct (at_data m (TLoad t shift cur par)) eqn:Hat.
    2:{ destruct (read_cell m cur) as [node|] eqn:Hrd; cbn [wop_step] in Hst; rewrite Hrd in Hst; [|by eapply op_step_gen].
        destruct (sh_cond node) eqn:Ecd; [by eapply op_step_gen|]. destruct (is_null node) eqn:Enl.
        - destruct Hpc as (Hc & -> & Hpar). destruct (cok_read _ _ _ _ Hm Hc) as (node' & Hrd' & Hcv). assert (node' = node) as -> by congruence.
          pose proof (vok_load _ _ _ _ _ _ Hm He Ho Hc Hcv) as Hv.
          destruct (wpayload w (t_st t)) as [[pl st'] call]. injection Hst as <- <- <-. exists pos. split; [constructor|].
          simpl. repeat split_and; try done; try apply Hc; try apply Hv. all: unfold is_null in Enl; first [by destruct (sh_loc node)|eauto].
        - simpl in Hat. rewrite Hrd, Enl, Ecd in Hat. destruct (sh_data node) eqn:Ed; [done|]. 
          eapply op_step_gen; [exact Hm|exact Ho|exact He|exact Hpc| |exact Hst]. simpl. by rewrite Hrd, Enl, Ecd, Ed. }
    simpl in Hat. destruct Hpc as (Hc & -> & Hpar). destruct (cok_read _ _ _ _ Hm Hc) as (node & Hrd & Hcv). cbn [wop_step] in Hst. rewrite Hrd in Hst, Hat.
    pose proof (vok_load _ _ _ _ _ _ Hm He Ho Hc Hcv) as Hv. apply andb_true_iff in Hat as [Hat Ecd%negb_true_iff]. apply andb_true_iff in Hat as [Enl%negb_true_iff Ed].
    rewrite Ecd, Enl, Ed in Hst.
    destruct (vok_data _ _ _ _ _ Hv Ed) as (tl & it & Etl & Hb & Hdr & Hld & Hlen). rewrite Hld in Hst.
    assert (node = Sh (Some tl) false true) as Enode by (destruct node; simpl in *; congruence).
    pose proof (mi_data _ _ Hm _ _ Hb) as Hne. destruct it as [|d0 it']; [done|]. set (it := d0 :: it') in *.
    destruct (w_differs w && (4 * length (cpos pos cur) <? HASH_BITS)) eqn:Ecase.
    + apply andb_true_iff in Ecase as [_ Hsh]. apply Nat.ltb_lt in Hsh. unfold HASH_BITS in Hsh.
      destruct (length it =? 1) eqn:El; cbn [negb] in Hst.
      2:{ apply Nat.eqb_neq in El. eapply Hid in Hst; [exact Hst|]. unfold placement in Hlen. cbn [placed wild_flavor nx_ok] in *. destruct b; [lia|done]. }
      apply Nat.eqb_eq in El. injection Hst as <- <- <-. exists pos. split; [constructor|]. simpl.
      repeat split_and; try done; try apply Hc; try apply Hv.
      exists tl, d0, (bits (w_hash w) (4 * length (cpos pos cur))). destruct it'; [|done]. repeat split_and; [done|done|done|apply bits_lt|lia].
    + rewrite Etl in Hst.
      assert (forall r, (forall x, r = Some x -> rr_loc x = tl /\ it !! rr_idx x = Some (rr_val x)) ->
        (let '(pl, st', call) := wpayload w (t_st t) in
         Some (m, NRun (TCas (t_with t st') (4 * length (cpos pos cur)) cur par node (BData (wkept w it ++ [pl])) (TKData r)),
           match call with Some k => [ACall k] | None => [] end)) = Some (m', nx, acts) -> exists pos', mtr gs pos m pos' m' /\ nx_ok pos' m' o nx) as Hcas.
      { intros r Hr. destruct (wpayload w (t_st t)) as [[pl st'] call]. intros Heq. injection Heq as <- <- <-.
        exists pos. split; [constructor|]. simpl. repeat split_and; try done; try apply Hc; try apply Hv.
        exists tl, it, (wkept w it ++ [pl]). repeat split_and; try done; [by destruct (wkept w it)|].
        apply andb_false_iff in Ecase as [Edf|Hsh].
        - unfold placement in *. cbn [placed wild_flavor] in *. destruct b; [|done]. destruct Hlen as [Hlen|]; [left|by right]. unfold wkept. rewrite Hlen.
          specialize (Hwc eq_refl Edf). destruct (w_keep w) as [|[q|] ?]; [done| |done]. by destruct (Hwc q).
        - unfold placement. cbn [placed wild_flavor]. destruct b; [|done]. right. apply Nat.ltb_ge in Hsh. unfold HASH_BITS in Hsh. pose proof (cpos_len _ _ _ _ Hm Hcv). lia. }
      destruct (wfound w tl it) as [r|] eqn:Ef.
      * destruct (wfound_ok m o w tl it r) as (Hro & Hrl & Hri); [done|by apply Hv|done|].
        destruct (t_mode t) eqn:Em; [eapply Hcas; [|exact Hst]; by intros x [= <-]|].
        apply (t_finish_ok pos m o) in Hst as (-> & -> & Hnx); [exists pos; split; [constructor|done]|done|]. by intros e [= <-].
      * eapply Hcas; [|exact Hst]. done.
  - (* GLoad *)
    destruct (at_data m (GLoad k h cur)) eqn:Hat.
    2:{ pose proof Hat as Hat0. simpl in Hat. destruct (read_cell m cur) as [node|] eqn:Hrd; cbn [wop_step] in Hst; rewrite Hrd in Hst; [|by eapply op_step_gen].
        destruct (is_null node) eqn:Enl; [by eapply op_step_gen|]. simpl in Hat. rewrite Hat in Hst. by eapply op_step_gen. }
    simpl in Hat, Hpc. destruct (cok_read _ _ _ _ Hm Hpc) as (node & Hrd & Hcv). cbn [wop_step] in Hst. rewrite Hrd in Hst, Hat.
    pose proof (vok_load _ _ _ _ _ _ Hm He Ho Hpc Hcv) as Hv. apply andb_true_iff in Hat as [Enl%negb_true_iff Ed]. rewrite Enl, Ed in Hst.
    destruct (vok_data _ _ _ _ _ Hv Ed) as (tl & it & Etl & Hb & Hdr & Hld & Hlen). rewrite Hld, Etl in Hst.
    eapply Hid in Hst; [exact Hst|]. simpl. destruct (wfound w tl it) as [r|] eqn:Ef; [|by constructor].
    constructor; [|done]. eapply wfound_ok; [exact Hb|by apply Hv|exact Ef].
  - (* RLoad *)
    destruct (at_data m (RLoad k h shift cur levels)) eqn:Hat.
    2:{ pose proof Hat as Hat0. simpl in Hat. destruct (read_cell m cur) as [node|] eqn:Hrd; cbn [wop_step] in Hst; rewrite Hrd in Hst; [|by eapply op_step_gen].
        destruct (is_null node) eqn:Enl; [by eapply op_step_gen|]. destruct (sh_cond node) eqn:Ecd; [by eapply op_step_gen|].
        simpl in Hat. rewrite andb_true_r in Hat. rewrite Hat in Hst. by eapply op_step_gen. }
    simpl in Hat. destruct Hpc as (Hc & -> & Hlev). destruct (cok_read _ _ _ _ Hm Hc) as (node & Hrd & Hcv). cbn [wop_step] in Hst. rewrite Hrd in Hst, Hat.
    pose proof (vok_load _ _ _ _ _ _ Hm He Ho Hc Hcv) as Hv. apply andb_true_iff in Hat as [Hat Ecd%negb_true_iff]. apply andb_true_iff in Hat as [Enl%negb_true_iff Ed].
    rewrite Enl, Ecd, Ed in Hst.
    destruct (vok_data _ _ _ _ _ Hv Ed) as (l & it & El & Hb & Hdr & Hld & Hlen). rewrite Hld, El in Hst.
    assert (node = Sh (Some l) false true) as Enode by (destruct node; simpl in *; congruence).
    destruct (wdeleted (w_keep w) l 0 it None) as [del|] eqn:Ef; (eapply Hid in Hst; [exact Hst|]); [|by constructor].
    apply wdeleted_in in Ef as [?|(d & Hrl & Hri & Hd)]; [done|]. simpl in Hri.
    simpl. split; [done|]. split; [done|]. split; [done|]. exists l, it.
    repeat split_and; try done; try apply Hv; [|exists it; rewrite Hrl, Hri; repeat split_and; [done|done|by apply Hv]].
    unfold placement in *. cbn [placed wild_flavor] in *. destruct b; [|by right]. destruct Hlen as [Hlen|]; [|right; by right].
    unfold wkept. rewrite Hlen. destruct (w_keep w) as [|[q|] ?]; [by left|right; by left|by left].
Qed.

Definition lab_coherent (lb : wlabel) : Prop := match lb with WStep _ _ _ w => w_coherent w | _ => True end.

Theorem wsinv_step s lb s' ev : (b = true -> lab_coherent lb) -> sinv s -> wstep s lb = Some (s', ev) -> sinv s'.
Proof.
  intros Hco Hinv Hst. destruct lb as [o op h|o spur a w|o|o|o|n|]; cbn [wstep] in Hst.
  - destruct (s_ops s !! o) as [?|] eqn:Eo; [done|]. destruct (s_dropped s) eqn:Ed; [done|]. injection Hst as <- <-.
    apply sinv_add; [done|done|done|]. intros pos. destruct op; simpl; try done; repeat split_and; try done; apply cok_root.
  - destruct (s_ops s !! o) as [[op p|?|?|]|] eqn:Eo; try done.
    destruct (wop_step (guards s) (s_mem s) p spur a w) as [[[m' nx] acts]|] eqn:Estep; [|done]. injection Hst as <- _.
    eapply sinv_op; [done|done|]. intros pos Hm Ho He Hpc. by eapply wop_step_ok.
  - destruct (s_ops s !! o) as [[|?|op []|]|] eqn:Eo; try done. injection Hst as <- <-. by eapply sinv_gone.
  - cbn [step] in Hst. destruct (s_ops s !! o) as [[|op r|?|]|] eqn:Eo; try done. injection Hst as <- <-. by eapply sinv_gone.
  - cbn [step] in Hst. destruct (s_ops s !! o) as [[op r| |?|]|] eqn:Eo; try done. injection Hst as <- <-. by eapply sinv_gone.
  - eapply sinv_free_drop; [left; eauto|done|exact Hst].
  - eapply sinv_free_drop; [by right|done|exact Hst].
Qed.

(** ** Executions *)
Lemma wrun_app s ls1 ls2 : wrun s (ls1 ++ ls2) =
  match wrun s ls1 with
  | Some (s1, e1) => match wrun s1 ls2 with Some (s2, e2) => Some (s2, e1 ++ e2) | None => None end
  | None => None
  end.
Proof.
  revert s. induction ls1 as [|lb ls1 IH]; intros s; simpl; [by destruct (wrun s ls2) as [[? ?]|]|].
  destruct (wstep s lb) as [[s1 e1]|]; [|done]. rewrite IH. destruct (wrun s1 ls1) as [[s2 e2]|]; [|done].
  destruct (wrun s2 ls2) as [[s3 e3]|]; [|done]. by rewrite app_assoc.
Qed.

Lemma wrun_step s ls lb s1 e1 s2 e2 : wrun s ls = Some (s1, e1) -> wstep s1 lb = Some (s2, e2) -> wrun s (ls ++ [lb]) = Some (s2, e1 ++ e2).
Proof. intros H1 H2. rewrite wrun_app, H1. cbn [wrun]. rewrite H2. by rewrite app_nil_r. Qed.

Lemma wexec_ind (P : list wlabel -> state -> list event -> Prop) :
  P [] init [] ->
  (forall ls s ev lb s' e, wexec ls s ev -> P ls s ev -> wstep s lb = Some (s', e) -> P (ls ++ [lb]) s' (ev ++ e)) ->
  forall ls s ev, wexec ls s ev -> P ls s ev.
Proof.
  intros H0 HS ls. induction ls as [|lb ls IH] using rev_ind; intros s ev Hx.
  - injection Hx as <- <-. done.
  - unfold wexec in Hx. rewrite wrun_app in Hx. destruct (wrun init ls) as [[s1 e1]|] eqn:E1; [|done]. cbn [wrun] in Hx.
    destruct (wstep s1 lb) as [[s2 e2]|] eqn:E2; [|done]. injection Hx as <- <-. rewrite app_nil_r. eapply HS; [exact E1|by apply IH|done].
Qed.

Lemma wexec_sinv ls s ev : (b = true -> Forall lab_coherent ls) -> wexec ls s ev -> sinv s.
Proof.
  intros Hco Hx. revert Hco. revert ls s ev Hx. apply (wexec_ind (fun ls s ev => (b = true -> Forall lab_coherent ls) -> sinv s)).
  - intros _. apply sinv_init.
  - intros ls s ev lb s' e _ IH Hst Hco. eapply wsinv_step; [|apply IH|exact Hst]; intros Hb; specialize (Hco Hb); apply Forall_app in Hco as [H1 H2]; [|done].
    by apply Forall_cons in H2 as [? _].
Qed.

Lemma wlive_of_guard s o : sinv s -> o ∈ guards s -> exists pos, live_inv pos s.
Proof.
  intros [_ H] Ho. destruct (s_dropped s); [|done]. rewrite (di_guards _ H) in Ho. by apply elem_of_empty in Ho.
Qed.

End wildsafe.

(** Coherent oracles: no failure at all. *)
Theorem wno_failure `{C : Config} ls s ev o op f : wexec ls s ev -> Forall lab_coherent ls -> s_ops s !! o <> Some (SFail op f).
Proof.
  intros Hx Hco Ho. destruct (wexec_sinv true ls s ev (fun _ => Hco) Hx) as [_ H]. destruct (s_dropped s).
  - by apply (di_ops _ H) in Ho.
  - destruct H as [pos H]. by apply (li_ops _ _ H) in Ho.
Qed.

Section wildprops.
Context {C : Config}.
Local Instance any_flavor : Flavor | 0 := wild_flavor false.
Implicit Types (m : mem) (pos : loc -> list nat) (c : cell) (v : sh) (o : opid) (gs : gset opid) (s : state) (w : oracle).

Lemma wexec_inv ls s ev : wexec ls s ev -> sinv s.
Proof. by apply (wexec_sinv false). Qed.
Lemma wreach_sinv s : wreachable s -> sinv s.
Proof. intros (ls & ev & H). by eapply wexec_inv. Qed.

Theorem wonly_failure s o op f : wreachable s -> s_ops s !! o = Some (SFail op f) -> f = FPanic PCollisionShallow.
Proof.
  intros [_ H]%wreach_sinv Ho. destruct (s_dropped s).
  - by apply (di_ops _ H) in Ho.
  - destruct H as [pos H]. by apply (li_ops _ _ H) in Ho.
Qed.

Theorem wno_ub s : wreachable s -> s_ub s = false.
Proof. by intros [H _]%wreach_sinv. Qed.

Lemma wop_step_total gs m p spur a w : addr_free m a = true -> wop_step gs m p spur a w <> None.
Proof.
  intros Ha. assert (forall m t r acts, t_finish m t r acts <> None) as Htf.
  { intros. unfold t_finish. destruct (t_mode t); [done|]. by destruct r. }
  destruct p; cbn [wop_step]; try by apply op_step_total.
  all: repeat (first [by apply op_step_total|apply Htf|done|case_match]).
Qed.

(** ** References *)
Lemma wop_step_yield gs m p spur a w m' nx acts : wop_step gs m p spur a w = Some (m', nx, acts) ->
  (forall r, AYield r ∈ acts -> exists lv out, nx = NRun (INext lv out) /\ r ∈ out) /\
  (forall lv out r, p = INext lv out -> r ∈ out ->
     match nx with NRun (INext _ out') => r ∈ out' | NRet (RIter ys) => r ∈ ys | NFail f => f <> FPanic PCollisionShallow | _ => False end).
Proof.
  intros Hst. assert (op_step gs m p spur a = Some (m', nx, acts) \/ (forall r, AYield r ∉ acts) /\ forall lv out, p <> INext lv out) as [H|[H1 H2]].
  { destruct p; cbn [wop_step] in Hst; try (by left); unfold t_finish, panics, ok in Hst; repeat case_match; simplify_eq; try (by left);
    right; (split; [|done]); intros r0 Hin; try (by apply elem_of_nil in Hin); by apply elem_of_list_singleton in Hin. }
  { split; [by eapply op_step_yield|]. intros lv out r -> Hin. pose proof (proj2 (op_step_yield _ _ _ _ _ _ _ _ H) lv out r eq_refl Hin) as Hy.
    destruct nx as [[]|[]|f]; try done. clear Hst. cbn [op_step] in H. unfold load_data, panics, ok in H. repeat case_match; simplify_eq; done. }
  { split; [intros r Hr; by apply H1 in Hr|]. intros lv out r Hp. by apply H2 in Hp. }
Qed.

(** As [ev_status] in SafeProps.v; also, a call that has yielded something does not panic. *)
Definition wev_status (st : option ostat) (e : event) : Prop :=
  match e with
  | EYield _ r => match st with
                  | Some (SRun _ (INext _ out)) => r ∈ out
                  | Some (SRet _ (RIter ys)) => r ∈ ys
                  | Some SGone => True
                  | _ => False
                  end
  | _ => ev_status st e
  end.

Lemma wexec_events ls s ev : wexec ls s ev -> forall e, e ∈ ev -> wev_status (s_ops s !! ev_op e) e.
Proof.
  revert ls s ev. apply (wexec_ind (fun ls s ev => forall e, e ∈ ev -> wev_status (s_ops s !! ev_op e) e)); [intros e H; by apply elem_of_nil in H|].
  intros ls s ev lb s' e Hx IH Hst x Hin.
  destruct lb as [o op h|o spur a w|o|o|o|n|]; cbn [wstep step] in Hst.
  - destruct (s_ops s !! o) eqn:Eo, (s_dropped s); simplify_eq. simpl.
    apply elem_of_app in Hin as [Hin|Hin]; [|apply elem_of_list_singleton in Hin as ->].
    + specialize (IH x Hin). destruct (decide (o = ev_op x)) as [E|].
      * rewrite <-E, Eo in IH. destruct x; done.
      * by rewrite lookup_insert_ne.
    + simpl. by rewrite lookup_insert.
  - destruct (s_ops s !! o) as [[op p|op r|op f|]|] eqn:Eo; try done.
    destruct (wop_step _ _ p spur a w) as [[[m' nx] acts]|] eqn:Es; [|done]. simplify_eq. simpl.
    destruct (wop_step_yield _ _ _ _ _ _ _ _ _ Es) as [Hy1 Hy2].
    apply elem_of_app in Hin as [Hin|Hin].
    + specialize (IH x Hin). destruct (decide (o = ev_op x)) as [E|]; [|by rewrite lookup_insert_ne].
      rewrite <-E in *. rewrite Eo in IH. rewrite lookup_insert. destruct x as [? ?|? ?|? ?|? r]; simpl in *; try done.
      * by destruct nx.
      * destruct p; try done. specialize (Hy2 _ _ _ eq_refl IH). destruct nx as [[]|[]|f]; try done.
        assert (o ∈ guards s) as Hog by (apply elem_of_guards; eauto). pose proof (wexec_inv _ _ _ Hx) as Hs.
        destruct (wlive_of_guard false _ _ Hs Hog) as [pos [Hm He _ Hops _]].
        destruct (wop_step_ok false _ _ _ _ _ _ _ _ _ _ _ ltac:(done) Hm Hog He (Hops _ _ Eo) Es) as (pos' & _ & Hnx). done.
    + apply elem_of_app in Hin as [Hin|Hin].
      * apply elem_of_list_In, in_map_iff in Hin as (y & <- & Hin%elem_of_list_In). destruct y as [?|r]; simpl; rewrite lookup_insert; [done|].
        destruct (Hy1 _ Hin) as (lv & out & -> & ?). done.
      * destruct nx; try by apply elem_of_nil in Hin. apply elem_of_list_singleton in Hin as ->. simpl. by rewrite lookup_insert.
  - destruct (s_ops s !! o) as [[op p|op r|op []|]|] eqn:Eo; simplify_eq. rewrite app_nil_r in Hin. specialize (IH x Hin). simpl.
    destruct (decide (o = ev_op x)) as [E|]; [|by rewrite lookup_insert_ne]. rewrite <-E, lookup_insert. by destruct x.
  - destruct (s_ops s !! o) as [[op p|op r|op f|]|] eqn:Eo; simplify_eq. rewrite app_nil_r in Hin. specialize (IH x Hin). simpl.
    destruct (decide (o = ev_op x)) as [E|]; [|by rewrite lookup_insert_ne]. rewrite <-E, lookup_insert. by destruct x.
  - destruct (s_ops s !! o) as [[op p|op r|op f|]|] eqn:Eo; simplify_eq. rewrite app_nil_r in Hin. specialize (IH x Hin). simpl.
    destruct (decide (o = ev_op x)) as [E|]; [|by rewrite lookup_insert_ne]. rewrite <-E in *. rewrite Eo in IH. rewrite lookup_insert. by destruct x.
  - destruct (m_garb _ !! n) as [[[l k] gs]|]; [|done]. case_bool_decide; simplify_eq. rewrite app_nil_r in Hin. by apply IH.
  - case_bool_decide; cbn [andb] in Hst; [|done]. destruct (negb (s_dropped s)); [|done]. destruct (drop_rec _ _ _); simplify_eq; rewrite app_nil_r in Hin; by apply IH.
Qed.

Theorem wrefs_valid ls s ev o r x : wexec ls s ev -> o ∈ guards s ->
  (ERet o r ∈ ev /\ x ∈ refs_of r) \/ EYield o x ∈ ev -> ref_valid (s_mem s) x.
Proof.
  intros Hx Hg Hr. pose proof (wexec_inv _ _ _ Hx) as Hs. destruct (wlive_of_guard false _ _ Hs Hg) as [pos Hl].
  pose proof Hg as (st & Hst & Hact)%elem_of_guards. pose proof (li_ops _ _ Hl _ _ Hst) as Hok.
  apply (ref_ok_valid _ o). destruct Hr as [[Hin Hx0]|Hin]; apply (wexec_events _ _ _ Hx) in Hin; simpl in Hin; rewrite Hst in Hin.
  - destruct st; try done. subst. rewrite refs_of_eq in Hx0. simpl in Hok. by eapply Forall_forall in Hok.
  - destruct st as [op []|op []|op f|]; try done; simpl in Hok.
    + destruct Hok as [_ Hok]. by eapply Forall_forall in Hok.
    + by eapply Forall_forall in Hok.
Qed.

(** ** Destruction *)
Theorem wdestroyed_once s : wreachable s -> NoDup (((fun g => g.1.1) <$> m_garb (s_mem s)) ++ (m_freed (s_mem s)).*1).
Proof.
  intros [_ H]%wreach_sinv. destruct (s_dropped s); [apply (di_nodup _ H)|]. destruct H as [pos H]. apply (mi_nodup _ _ (li_mem _ _ H)).
Qed.

Lemma wlinked_live pos m n l : minv pos m -> linked_at m n l -> exists c v, cval m c = Some v /\ cell_live m c /\ sh_loc v = Some l.
Proof.
  intros Hm. induction 1 as [l Hl|n l a sl w l' Hl IH Hh Hw Hl'].
  - exists CRoot, (m_root m). done.
  - destruct IH as (c & v & Hc & Hlv & Hv). assert (~ dead m l) as Hnd by (by eapply mi_live).
    assert (hbody m l = Some (BInner sl)) as Hb by (unfold hbody; by rewrite Hh).
    apply elem_of_list_lookup in Hw as [i Hi]. exists (CSlot l i), w. split; [apply cval_slot; eauto|]. done.
Qed.

Theorem wlinked_not_dead s l : wreachable s -> s_dropped s = false -> linked (s_mem s) l ->
  l ∉ ((fun g => g.1.1) <$> m_garb (s_mem s)) /\ l ∉ (m_freed (s_mem s)).*1 /\ is_Some (m_heap (s_mem s) !! l).
Proof.
  intros [_ H]%wreach_sinv Hd [n Hl]. rewrite Hd in H. destruct H as [pos H]. pose proof (li_mem _ _ H) as Hm.
  destruct (wlinked_live _ _ _ _ Hm Hl) as (c & v & Hc & Hlv & Hv). pose proof (mi_live _ _ Hm _ _ _ Hc Hlv Hv) as Hnd.
  split; [intros ?; apply Hnd; by left|]. split; [intros ?; apply Hnd; by right|]. by eapply cval_target_heap.
Qed.

Theorem wall_freed s : wreachable s -> s_dropped s = true -> m_garb (s_mem s) = [] ->
  NoDup (m_freed (s_mem s)).*1 /\ forall l, is_Some (m_heap (s_mem s) !! l) <-> l ∈ (m_freed (s_mem s)).*1.
Proof.
  intros Hr Hd Hg. pose proof (wdestroyed_once s Hr) as Hn. rewrite Hg in Hn. split; [exact Hn|].
  apply wreach_sinv in Hr as [_ H]. rewrite Hd in H. intros l. rewrite (di_dead _ H). unfold dead, garb_locs. rewrite Hg. simpl.
  split; [intros [Hx|]; [by apply elem_of_nil in Hx|done]|by right].
Qed.

Theorem wcollector_finishes s : wreachable s -> s_dropped s = true -> exists ls s', wrun s ls = Some (s', []) /\ s_dropped s' = true /\ m_garb (s_mem s') = [].
Proof.
  intros Hr. remember (length (m_garb (s_mem s))) as n eqn:En. revert s Hr En.
  induction n as [|n IH]; intros s Hr En Hd.
  - exists [], s. split; [done|]. split; [done|]. by destruct (m_garb (s_mem s)).
  - destruct (m_garb (s_mem s)) as [|[[l k] g] gs] eqn:Eg; [done|].
    pose proof (wreach_sinv _ Hr) as [_ H]. rewrite Hd in H. pose proof (di_guards _ H) as Hgd.
    destruct (wstep s (WFree 0)) as [[s1 e1]|] eqn:Es.
    2:{ exfalso. simpl in Es. rewrite Eg in Es. simpl in Es. rewrite Hgd in Es. case_bool_decide as Hb; [done|]. apply Hb. set_solver. }
    assert (e1 = [] /\ s_dropped s1 = true /\ m_garb (s_mem s1) = gs) as (-> & Hd1 & Hg1).
    { simpl in Es. rewrite Eg in Es. simpl in Es. case_bool_decide; simplify_eq. done. }
    destruct (IH s1) as (ls & s' & Hrun & Hd' & Hg').
    + destruct Hr as (ls0 & ev0 & Hx). exists (ls0 ++ [WFree 0]), (ev0 ++ []). by eapply wrun_step.
    + rewrite Hg1. simpl in En. lia.
    + done.
    + exists (WFree 0 :: ls), s'. split; [|done]. cbn [wrun]. rewrite Es, Hrun. done.
Qed.

Theorem wdeferred_kind s l k g : wreachable s -> (l, k, g) ∈ m_garb (s_mem s) ->
  exists a b, m_heap (s_mem s) !! l = Some (HObj a b) /\ k = kind_of_body b.
Proof.
  intros [_ H]%wreach_sinv Hin.
  assert (exists b, hbody (s_mem s) l = Some b /\ k = kind_of b) as (b & Hb & ->).
  { destruct (s_dropped s); [by eapply di_kind|]. destruct H as [pos H]. by eapply (mi_kind _ _ (li_mem _ _ H)). }
  unfold hbody in Hb. destruct (m_heap (s_mem s) !! l) as [[a b']|] eqn:E; [|done]. simpl in Hb. injection Hb as ->. exists a, b. by destruct b.
Qed.

(** The map can be dropped whenever no guard is held. *)
Theorem wdroppable s : wreachable s -> s_dropped s = false -> guards s = ∅ -> exists s', wstep s WDrop = Some (s', []) /\ s_dropped s' = true.
Proof.
  intros [_ H]%wreach_sinv Hd Hg. rewrite Hd in H. destruct H as [pos H]. destruct (drop_root_ok _ _ (li_mem _ _ H)) as (fs & Hdr & _).
  eexists. split; [|shelve]. cbn [wstep step]. rewrite (bool_decide_eq_true_2 _ Hg), Hd, Hdr. done. Unshelve. done.
Qed.

(** ** User code that behaves: Model.v *)
Definition tame_oracle (key : Key) (it : list Pl) : oracle :=
  Oracle (match it with [] => false | d0 :: _ => negb (keqb (keyof d0) key) end)
         (match it with [] => 0%N | d0 :: _ => hashf (keyof d0) end)
         (fst <$> find_idx key 0 it) (map (fun p => if keqb (keyof p) key then None else Some p) it) None id.

Lemma tame_payload key it (t : tstate) : wpayload (tame_oracle key it) t = ts_payload t.
Proof. by destruct t. Qed.

Lemma tame_kept key it : wkept (tame_oracle key it) it = others key it.
Proof.
  unfold wkept, tame_oracle, others. simpl. rewrite take_ge by (rewrite map_length; lia).
  induction it as [|p it IH]; [done|]. cbn [map]. rewrite filter_cons. destruct (keqb (keyof p) key) eqn:E.
  - rewrite decide_False by congruence. exact IH.
  - rewrite decide_True by done. rewrite <-IH. done.
Qed.

Lemma tame_found key it l : wfound (tame_oracle key it) l it = find_ref key l it.
Proof.
  unfold wfound, find_ref, tame_oracle. simpl. destruct (find_idx key 0 it) as [[i p]|] eqn:E; [|done].
  simpl. apply find_idx_lookup in E as (d & -> & Hd & _). simpl. by rewrite Hd.
Qed.

Lemma tame_deleted key it l : wdeleted (w_keep (tame_oracle key it)) l 0 it None =
  match find_last key 0 it None with Some (i, p) => Some (RRef l i p) | None => None end.
Proof.
  simpl. assert (forall i acc, wdeleted (map (fun p => if keqb (keyof p) key then None else Some p) it) l i it
      (match acc with Some (i, p) => Some (RRef l i p) | None => None end) =
    match find_last key i it acc with Some (i, p) => Some (RRef l i p) | None => None end) as H; [|apply (H 0 None)].
  induction it as [|p it IH]; intros i acc; simpl; [done|].
  rewrite <-IH. by destruct (keqb (keyof p) key).
Qed.

(** The elements an operation is about to look at. *)
Definition items_at m (p : pc) : list Pl :=
  match p with
  | TLoad _ _ cur _ | GLoad _ _ cur | RLoad _ _ _ cur _ =>
    match read_cell m cur with Some node => match load_data m node with inr it => it | _ => [] end | None => [] end
  | _ => []
  end.

Lemma tame_covers gs m p spur a : exists w, wop_step gs m p spur a w = op_step gs m p spur a.
Proof.
  destruct p as [t shift cur par|t shift cur par node new kind|k parent child i ac cnt last new|k parent child ins pr
    |k h cur|k h shift cur levels|k h shift cur levels node new del|del levels parent child i cnt| | |levels out];
    try (exists (Oracle false 0%N None [] None id); reflexivity).
  - exists (tame_oracle (ts_key (t_st t)) (items_at m (TLoad t shift cur par))). cbn [wop_step op_step items_at].
    destruct (read_cell m cur) as [node|]; [|done]. destruct (sh_cond node); [done|].
    destruct (is_null node); [by rewrite tame_payload|]. destruct (sh_data node); [|done].
    destruct (load_data m node) as [f|it]; [done|]. destruct it as [|d0 it']; [done|]. rewrite tame_payload, tame_kept.
    simpl. destruct (sh_loc node) as [l|]; [|done]. pose proof (tame_found (ts_key (t_st t)) (d0 :: it') l) as E. cbn [tame_oracle] in E.
    by rewrite E.
  - exists (tame_oracle k (items_at m (GLoad k h cur))). cbn [wop_step op_step items_at].
    destruct (read_cell m cur) as [node|]; [|done]. destruct (is_null node); [done|]. destruct (sh_data node); [|done].
    destruct (load_data m node) as [f|it]; [done|]. destruct (sh_loc node) as [l|]; [|done]. by rewrite tame_found.
  - exists (tame_oracle k (items_at m (RLoad k h shift cur levels))). cbn [wop_step op_step items_at].
    destruct (read_cell m cur) as [node|]; [|done]. destruct (is_null node); [done|]. destruct (sh_cond node); [done|]. destruct (sh_data node); [|done].
    destruct (load_data m node) as [f|it]; [done|]. rewrite tame_kept. destruct (sh_loc node) as [l|]; [|by destruct (find_last k 0 it None) as [[? ?]|]].
    rewrite tame_deleted. by destruct (find_last k 0 it None) as [[? ?]|].
Qed.

Lemma wstep_covers s lb s' ev : step s lb = Some (s', ev) -> exists wl, wstep s wl = Some (s', ev).
Proof.
  intros Hst. destruct lb as [o op|o spur a|o|o|n|].
  - exists (WInv o op (match op with OInsert p => hashf (keyof p) | OGetOrInsert k _ | OGet k | ORemove k => hashf k | _ => 0%N end)).
    cbn [wstep step] in *. rewrite <-Hst. destruct (s_ops s !! o); [done|]. destruct (s_dropped s); [done|]. by destruct op.
  - cbn [step] in Hst. destruct (s_ops s !! o) as [[op p|?|?|]|] eqn:Eo; try done.
    destruct (tame_covers (guards s) (s_mem s) p spur a) as [w Hw]. exists (WStep o spur a w). cbn [wstep]. by rewrite Eo, Hw.
  - by exists (WUnpin o).
  - by exists (WAbort o).
  - by exists (WFree n).
  - by exists WDrop.
Qed.

Theorem wexec_covers ls s ev : exec ls s ev -> exists wls, length wls = length ls /\ wexec wls s ev.
Proof.
  revert ls s ev. apply (exec_ind (fun ls s ev => exists wls, length wls = length ls /\ wexec wls s ev)); [by exists []|].
  intros ls s ev lb s' e Hx (wls & Hl & IH) Hst. apply wstep_covers in Hst as [wl Hwl]. exists (wls ++ [wl]).
  rewrite !app_length, Hl. split; [done|]. by eapply wrun_step.
Qed.
End wildprops.
