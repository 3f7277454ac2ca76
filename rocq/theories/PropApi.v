(** * Properties C30, C31, C33, C40, and C01 for the containers.
    Statements, with concrete cases that meet their hypotheses. *)
From Verif Require PropLin.
From Verif Require Import Model Mem Inv Safe SafeSys SafeProps Look Sem Spec LinSpec IterSpec SeqSpec Concrete SysSem Lin LinProps LinMore Shape SeqHist PropIter PropSeq Api ApiSpec.

Section apilemmas.
Context {C : Config} {HC : ConfigOk C}.

Lemma exec_inv_label ls s ev o op : exec ls s ev -> EInv o op ∈ ev -> LInv o op ∈ ls.
Proof.
  revert ls s ev. apply (exec_ind (fun ls s ev => EInv o op ∈ ev -> LInv o op ∈ ls)); [intros H; by apply elem_of_nil in H|].
  intros ls s ev lb s' e Hx IH Hst [H|H]%elem_of_app; apply elem_of_app; [left; by apply IH|right]. destruct lb as [o' op'|o' spur a|o'|o'|n|]; cbn [step] in Hst.
  - destruct (s_ops s !! o') as [?|], (s_dropped s); simplify_eq. apply elem_of_list_singleton in H as [= -> ->]. by left.
  - destruct (s_ops s !! o') as [[op' p|?|?|]|]; try done. destruct (op_step _ _ _ _ _) as [[[m' nx] acts]|]; [|done]. injection Hst as <- <-.
    apply elem_of_app in H as [H|H]; [by apply acts_no_inv in H|]. destruct nx; try by apply elem_of_nil in H. by apply elem_of_list_singleton in H.
  - destruct (s_ops s !! o') as [[]|]; try done. injection Hst as <- <-. by apply elem_of_nil in H.
  - destruct (s_ops s !! o') as [[]|]; try done. injection Hst as <- <-. by apply elem_of_nil in H.
  - destruct (m_garb _ !! n) as [[[? ?] ?]|]; [|done]. case_bool_decide; [|done]. injection Hst as <- <-. by apply elem_of_nil in H.
  - destruct (_ && _); [|done]. destruct (drop_rec _ _ _); injection Hst as <- <-; by apply elem_of_nil in H.
Qed.

Lemma api_lin {A R St : Type} (raw : A -> oper) (view : A -> res -> R) (atomic : A -> bool) (cl : opid -> A) (spec : St -> A -> R -> St -> Prop)
  (abs : amap -> St) (good : amap -> Prop) (aview : A -> aret -> R) ls s ev :
  (forall c r x, val_of r = Some x -> r_shape (raw c) r -> view c r = aview c x) ->
  (forall c, atomic c = true -> raw c <> OIter) ->
  (forall a c x a', good a -> op_wf (raw c) -> spec_step a (raw c) x a' -> good a' /\ spec (abs a) c (aview c x) (abs a')) ->
  good aempty ->
  exec ls s ev -> wf_calls ls -> client raw cl ls ->
  exists l a, api_linearizes raw view atomic cl spec l ev (abs aempty) (abs a) /\ good a /\ (s_dropped s = false -> forall k, has s k (a k)).
Proof.
  intros Hview Hat Hstep Hg0 Hx Hw Hcl. destruct (linearizable ls s ev Hx Hw) as (l & a & [L1 L2 L3 L4 L5] & Hfin).
  assert (forall o op, EInv o op ∈ ev -> op = raw (cl o)) as Hop by (intros o op Hi; eapply Hcl; by eapply exec_inv_label).
  set (f := fun e : entry => (e_id e, aview (cl (e_id e)) (e_ret e))).
  assert ((f <$> l).*1 = e_id <$> l) as Efst by (rewrite <-list_fmap_compose; done).
  assert (forall l a0, (forall e, e ∈ l -> EInv (e_id e) (e_op e) ∈ ev) -> good a0 -> spec_run a0 l a -> exists b, same b a /\ good b /\ api_run cl spec (abs a0) (f <$> l) (abs b)) as Hrun.
  { clear -Hstep Hop Hx Hw HC. intros l. induction l as [|e l IH]; intros a0 Hin Hg Hr; simpl in Hr; [exists a0; split; [done|]; split; [done|reflexivity]|].
    destruct Hr as (b & Hs & Hr). pose proof (Hin e ltac:(by left)) as Hi. pose proof (Hop _ _ Hi) as Eo. rewrite Eo in Hs.
    destruct (Hstep _ _ _ _ Hg ltac:(rewrite <-Eo; by eapply inv_wf) Hs) as [Hg' Hs']. destruct (IH b ltac:(intros e' He'; apply Hin; by right) Hg' Hr) as (c & Hc & Hgc & Hrc).
    exists c. split; [done|]. split; [done|]. simpl. by exists (abs b). }
  destruct (Hrun l aempty L2 Hg0 L4) as (b & Hb & Hgb & Hrb). exists (f <$> l), b. split; [|split; [done|]].
  - split.
    + by rewrite Efst.
    + intros o r (e & [= -> ->] & He)%elem_of_list_fmap. rewrite <-(Hop _ _ (L2 e He)). by apply L2.
    + intros o r Hr Ha. destruct (exec_called _ _ _ Hx) as [Hc _]. destruct (Hc _ _ Hr) as [op Hi]. pose proof (Hop _ _ Hi) as ->.
      destruct (ret_val _ _ _ _ _ _ Hx Hi Hr (Hat _ Ha)) as [x Hv]. destruct (L3 _ _ _ Hr Hv) as [op He]. apply elem_of_list_fmap.
      exists (Entry o op x). split; [|done]. unfold f. simpl. f_equal. apply Hview; [done|]. by destruct (si_ret _ _ (exec_sh _ _ _ Hx) _ _ _ Hi Hr).
    + done.
    + rewrite Efst. intros o1 o2 H1 H2 Hp. destruct (L5 _ _ H1 H2 Hp) as (l1 & l2 & e1 & e2 & -> & He1 & He2 & <- & <-).
      exists (f <$> l1), (f <$> l2). rewrite fmap_app. split; [done|]. split; apply elem_of_list_fmap; eexists; (split; [|by apply elem_of_list_fmap_1]); done.
  - intros Hd k. rewrite <-(Hb k). by apply Hfin.
Qed.
End apilemmas.

(** ** C01 for ConMap: whatever the interleaving, the calls of the methods of a ConMap behave as if they were executed one at a time on a plain
    map from keys to element handles (the very handles: [Arc]s that point to the same element). *)
Section conmap.
Context {K V : Type} (eqb : K -> K -> bool) (hash : K -> N).
Notation MC := (map_config K V eqb hash).
Definition map_aview (c : map_call K V) (x : @aret MC) : map_ret K V :=
  match x with AOpt x => MROpt x | AEon x => MREon x | ABool b => MRBool b end.
Theorem C01_ConMap : @ConfigOk MC -> forall ls s ev (cl : opid -> map_call K V), @exec MC ls s ev -> client (map_raw eqb hash) cl ls -> (forall o, map_proper eqb (cl o)) ->
  exists l a, api_linearizes (map_raw eqb hash) (fun _ => map_view) map_atomic cl (map_spec eqb) l ev (fun _ => None) a /\
    (s_dropped s = false -> forall k, @has MC s k (a k)).
Proof.
  intros HC ls s ev cl Hx Hcl Hpr.
  assert (@wf_calls MC ls) as Hw.
  { intros o op Hin. rewrite (Hcl _ _ Hin). specialize (Hpr o). destruct (cl o); simpl; try done; apply (@keqb_refl MC HC). }
  destruct (@api_lin MC HC _ _ _ (map_raw eqb hash) (fun _ => map_view) map_atomic cl (fun a c r a' => map_proper eqb c -> map_spec eqb a c r a') (fun a => a) (fun _ => True) map_aview ls s ev) as (l & a & Hl & _ & Hf); try done.
  - intros c [x|x|x|x] y [= <-] _; simpl; [by destruct x|done..].
  - intros [] Ha; done.
  - intros a c x a' _ Hwf Hs. split; [done|]. intros Hp. destruct c; cbn [map_raw map_with] in Hs; unfold spec_step in Hs; destruct x as [x|x|b]; try done; unfold map_spec, map_aview, p_get_or_insert.
    all: try exact Hs.
    all: destruct x as [x|x]; [exact Hs|]; destruct Hs as (H1 & H2 & H3); (split; [exact H1|]); (split; [exact H2|]); subst x; intros k'; rewrite (H3 k'); try done.
    simpl in Hp. simpl. destruct (eqb (el_key (arc_val (create k))) k') eqn:E1, (eqb k k') eqn:E2; try done; exfalso.
    + assert (eqb k k' = true) as E by (refine (@keqb_trans MC HC _ _ _ _ E1); exact (eq_trans (@keqb_sym MC HC _ _) Hp)). congruence.
    + assert (eqb (el_key (arc_val (create k))) k' = true) as E by exact (@keqb_trans MC HC _ _ _ Hp E2). congruence.
  - exists l, a. split; [|done]. destruct Hl as [H1 H2 H3 H4 H5]. split; try done.
    clear -H4 Hpr. change (@aempty MC) with (fun _ : K => @None (arc (element K V))) in H4. revert H4. generalize (fun _ : K => @None (arc (element K V))).
    induction l as [|[o r] l IH]; intros b H4; [exact H4|]. destruct H4 as (st & H & Hr). exists st. split; [by apply H|by apply IH].
Qed.
End conmap.
Print Assumptions C01_ConMap.

(** ... for CloneConMap: a plain map from keys to pairs. *)
Section clonemap.
Context {K V : Type} (eqb : K -> K -> bool) (hash : K -> N).
Notation KC := (clone_config K V eqb hash).
Definition clone_aview (c : clone_call K V) (x : @aret KC) : @clone_ret K V :=
  match x with AOpt x => KROpt x | AEon x => KREon x | ABool b => KRBool b end.
Theorem C01_CloneConMap : @ConfigOk KC -> forall ls s ev (cl : opid -> clone_call K V), @exec KC ls s ev -> client (clone_raw eqb hash) cl ls ->
  exists l a, api_linearizes (clone_raw eqb hash) (fun _ => clone_view eqb) clone_atomic cl (clone_spec eqb) l ev (fun _ => None) a /\
    (s_dropped s = false -> forall k, @has KC s k (a k)).
Proof.
  intros HC ls s ev cl Hx Hcl.
  assert (@wf_calls KC ls) as Hw.
  { intros o op Hin. rewrite (Hcl _ _ Hin). destruct (cl o); simpl; try done; apply (@keqb_refl KC HC). }
  destruct (@api_lin KC HC _ _ _ (clone_raw eqb hash) (fun _ => clone_view eqb) clone_atomic cl (clone_spec eqb) (fun a => a) (fun _ => True) clone_aview ls s ev) as (l & a & Hl & _ & Hf); try done.
  - intros c [x|x|x|x] y [= <-] _; simpl; [by destruct x|done..].
  - intros [] Ha; done.
  - intros a c x a' _ Hwf Hs. split; [done|]. destruct c; cbn [clone_raw clone_with] in Hs; unfold spec_step in Hs; destruct x as [x|x|b]; try done; unfold clone_spec, clone_aview, p_get_or_insert.
    all: try exact Hs.
    all: destruct x as [x|x]; [exact Hs|]; destruct Hs as (H1 & H2 & H3); (split; [exact H1|]); (split; [exact H2|]); subst x; exact H3.
  - exists l, a. split; [|done]. exact Hl.
Qed.
End clonemap.
Print Assumptions C01_CloneConMap.

(** ** C33: whatever the interleaving, the calls of the methods of a ConSet behave as if they were executed one at a time on a plain set. *)
Section conset.
Context {T : Type} (eqb : T -> T -> bool) (hash : T -> N).
Notation SC := (set_config T eqb hash).
Definition set_aview (c : set_call T) (x : @aret SC) : set_ret T :=
  match c, x with
  | SContains _, AOpt x => SRBool (match x with Some _ => true | None => false end)
  | (SInsert _ | SGet _ | SRemove _), AOpt x => SROpt x
  | SIsEmpty, ABool b => SRBool b
  | _, _ => SRBad
  end.
Definition set_abs (a : @amap SC) : T -> Prop := fun y => a y = Some y.
Definition set_good (a : @amap SC) : Prop := (forall k k' : T, eqb k k' = true -> a k = a k') /\ forall k p, a k = Some p -> eqb p k = true.
Lemma set_found : @ConfigOk SC -> forall a q, set_good a -> found eqb (set_abs a) q (a q).
Proof.
  intros HC a q [Hg Hg2]. unfold found, set_abs. destruct (a q) as [y|] eqn:E.
  - pose proof (Hg2 _ _ E) as Hy. split; [|done]. by rewrite (Hg _ _ Hy).
  - intros y Hy. destruct (eqb y q) eqn:Ey; [|done]. rewrite (Hg _ _ Ey), E in Hy. done.
Qed.
Lemma set_same a a' : @same SC a a' -> set_good a -> set_good a' /\ forall y, set_abs a' y <-> set_abs a y.
Proof.
  intros Hs [G1 G2]. split; [split|].
  - intros k k' H. rewrite (Hs k), (Hs k'). by apply G1.
  - intros k p. rewrite (Hs k). apply G2.
  - intros y. unfold set_abs. by rewrite (Hs y).
Qed.
Theorem C33_ConSet : @ConfigOk SC -> forall ls s ev (cl : opid -> set_call T), @exec SC ls s ev -> client (set_raw eqb hash) cl ls ->
  exists l S0 S, (forall y, ~ S0 y) /\ api_linearizes (set_raw eqb hash) set_view set_atomic cl (set_spec eqb) l ev S0 S /\
    (s_dropped s = false -> forall y, S y <-> @stored SC (s_mem s) y).
Proof.
  intros HC ls s ev cl Hx Hcl.
  assert (@wf_calls SC ls) as Hw by (intros o op Hin; rewrite (Hcl _ _ Hin); by destruct (cl o)).
  assert (forall x y, eqb x y = eqb y x) as Hsym by apply (@keqb_sym SC HC). assert (forall x, eqb x x = true) as Hrefl by apply (@keqb_refl SC HC).
  assert (forall x y z, eqb x y = true -> eqb y z = true -> eqb x z = true) as Htr by apply (@keqb_trans SC HC).
  assert (forall q k k', eqb k k' = true -> eqb q k = eqb q k') as Hcong.
  { intros q k k' H. destruct (eqb q k) eqn:E1, (eqb q k') eqn:E2; try done; exfalso.
    - rewrite (Htr _ _ _ E1 H) in E2. done.
    - rewrite Hsym in H. rewrite (Htr _ _ _ E2 H) in E1. done. }
  destruct (@api_lin SC HC _ _ _ (set_raw eqb hash) set_view set_atomic cl (set_spec eqb) set_abs set_good set_aview ls s ev) as (l & a & Hl & [Hg1 Hg2] & Hf); try done.
  - intros [] [x|x|x|x] y [= <-] Hsh; simpl in Hsh |- *; try done. by destruct x.
  - intros [] Ha; done.
  - intros a c x a' Hg _ Hs.
    assert (forall q x, x = a q -> found eqb (set_abs a) q x) as Hfd by (intros q x' ->; by apply set_found).
    destruct c; simpl in Hs; unfold spec_step in Hs; destruct x as [x|x|b]; try done; destruct Hs as [Hx' Hs].
    + split.
      * destruct Hg as [G1 G2]. split.
        -- intros k k' H. rewrite (Hs k), (Hs k'). simpl. rewrite (Hcong v _ _ H). destruct (eqb v k'); [done|]. by apply G1.
        -- intros k p. rewrite (Hs k). simpl. destruct (eqb v k) eqn:E; [by intros [= <-]|apply G2].
      * split; [by apply Hfd|]. intros y. unfold set_abs. rewrite (Hs y), (Hsym y v). simpl. destruct (eqb v y) eqn:E.
        -- split; [by intros [= <-]; left|]. intros [->|[_ ?]]; done.
        -- split; [by right|]. intros [->|[? _]]; [by rewrite Hrefl in E|done].
    + destruct (set_same _ _ Hs Hg) as [Hg' Habs]. split; [done|]. split; [by apply Hfd|done].
    + destruct (set_same _ _ Hs Hg) as [Hg' Habs]. split; [done|]. split; [|done].
      pose proof (Hfd q x Hx') as H. unfold found in H. destruct x as [y|].
      * split; [by exists y|done].
      * split; [done|]. intros (y & Hy & E). by rewrite H in E.
    + split.
      * destruct Hg as [G1 G2]. split.
        -- intros k k' H. rewrite (Hs k), (Hs k'). simpl. rewrite (Hcong q _ _ H). destruct (eqb q k'); [done|]. by apply G1.
        -- intros k p. rewrite (Hs k). simpl. destruct (eqb q k) eqn:E; [done|apply G2].
      * split; [by apply Hfd|]. intros y. unfold set_abs. rewrite (Hs y), (Hsym y q). simpl. by destruct (eqb q y); naive_solver.
    + destruct (set_same _ _ Hs Hg) as [Hg' Habs]. split; [done|]. split; [|done].
      intros Hb y. unfold set_abs. rewrite (Hx' Hb). done.
  - exists l, (set_abs aempty), (set_abs a). split; [done|]. split; [done|]. intros Hd y. specialize (Hf Hd y).
    destruct (exec_full _ _ _ Hx Hw Hd) as [pos Hfu]. apply (has_abs pos s y _ Hfu) in Hf. unfold set_abs. split.
    + intros Hy. rewrite Hy in Hf. apply (has_abs pos s y (Some y) Hfu) in Hf. apply Hf.
    + intros Hy. assert (has s y (Some y)) as Hh by (split; [exact Hy|apply Hrefl]). apply (has_abs pos s y _ Hfu) in Hh. rewrite <-Hf. exact Hh.
Qed.
End conset.
Print Assumptions C33_ConSet.

(** ** C30: extend *)
Section extend.
Context {C : Config} {HC : ConfigOk C}.
Lemma find_app {A} (f : A -> bool) l1 l2 : List.find f (l1 ++ l2) = match List.find f l1 with Some x => Some x | None => List.find f l2 end.
Proof. induction l1 as [|x l1 IH]; simpl; [done|]. by destruct (f x). Qed.
Lemma run_calls ls s0 s ev o op : run s0 ls = Some (s, ev) -> LInv o op ∈ ls -> op ∈ calls ev.
Proof.
  revert s0 s ev. induction ls as [|lb ls IH]; intros s0 s ev Hr Hin; [by apply elem_of_nil in Hin|]. cbn [run] in Hr.
  destruct (step s0 lb) as [[s1 e]|] eqn:Es; [|done]. destruct (run s1 ls) as [[s2 e2]|] eqn:Er; [|done]. injection Hr as <- <-. unfold calls. rewrite omap_app. apply elem_of_app.
  apply elem_of_cons in Hin as [<-|Hin]; [left|right; by eapply IH]. cbn [step] in Es. destruct (s_ops s0 !! o), (s_dropped s0); simplify_eq. by left.
Qed.
Lemma inserts_run (L : list Pl) : forall a0 h a, h.*1 = OInsert <$> L -> exact_run a0 h a -> forall k, a k = match last_with L k with Some p => Some p | None => a0 k end.
Proof.
  induction L as [|q L IH]; intros a0 [|[op r] h] a Heq Hr k; try discriminate Heq; [exact (Hr k)|]. injection Heq as -> Heq. destruct Hr as (b & He & Hr).
  rewrite (IH _ _ _ Heq Hr k). unfold last_with. cbn [rev]. rewrite find_app. destruct (List.find _ (rev L)); [done|]. simpl.
  unfold exact in He. destruct r; try done. destruct He as [_ Hb]. rewrite (Hb k). by destruct (keqb (keyof q) k).
Qed.
End extend.

(** Inserting a list of elements one after the other, nobody else calling anything meanwhile, into a map with any past: afterwards each key of the list has its last element in the list;
    the other keys have what they had. *)
Theorem C30_extend `{C : Config} `{!ConfigOk C} : forall ls0 s0 ev0 ls1 s ev1 (L : list Pl), exec ls0 s0 ev0 -> wf_calls ls0 -> quiescent s0 -> s_dropped s0 = false ->
  run s0 ls1 = Some (s, ev1) -> sequential_from (length ls0) (ls0 ++ ls1) -> calls ev1 = OInsert <$> L -> quiescent s -> s_dropped s = false ->
  forall k x, has s k x <-> match last_with L k with Some p => x = Some p | None => has s0 k x end.
Proof.
  intros ls0 s0 ev0 ls1 s ev1 L Hx0 Hw0 Hq0 Hd0 Hr Hsq Hc Hq Hd k x.
  assert (exec (ls0 ++ ls1) s (ev0 ++ ev1)) as Hx by (unfold exec; by rewrite run_app, Hx0, Hr).
  assert (wf_calls (ls0 ++ ls1)) as Hw.
  { intros o op [Hin|Hin]%elem_of_app; [by eapply Hw0|].
    assert (op ∈ calls ev1) as Hop; [|rewrite Hc in Hop; by apply elem_of_list_fmap in Hop as (? & -> & _)].
    by eapply run_calls. }
  destruct (C02_after_concurrency _ _ _ _ _ _ Hx0 Hq0 Hd0 Hr Hw Hsq) as (a0 & a & Ha0 & Hrun & Hend).
  { rewrite Hc. intros (? & ? & _)%elem_of_list_fmap. done. }
  destruct (Hend Hq) as [Hh Hha]. specialize (Hha Hd k). rewrite Hc in Hh. pose proof (inserts_run L _ _ _ (eq_sym Hh) Hrun k) as Ek.
  destruct (exec_full _ _ _ Hx Hw Hd) as [pos Hfu]. rewrite (has_abs pos s k x Hfu). apply (has_abs pos s k _ Hfu) in Hha. rewrite Hha, Ek.
  destruct (exec_full _ _ _ Hx0 Hw0 Hd0) as [pos0 Hfu0]. destruct (last_with L k) as [p|]; [split; congruence|].
  rewrite (has_abs pos0 s0 k x Hfu0). specialize (Ha0 k). apply (has_abs pos0 s0 k _ Hfu0) in Ha0. by rewrite Ha0.
Qed.
Print Assumptions C30_extend.

(** [from_iter]: the same for a new map. *)
Theorem C30_from_iter `{C : Config} `{!ConfigOk C} : forall ls s ev (L : list Pl), exec ls s ev -> sequential ls -> calls ev = OInsert <$> L -> quiescent s -> s_dropped s = false ->
  forall k, has s k (last_with L k).
Proof.
  intros ls s ev L Hx Hs Hc Hq Hd k. eapply (C30_extend [] init [] ls s ev L); try done.
  - intros o op H. by apply elem_of_nil in H.
  - intros o op [p Hp]. simpl in Hp. by rewrite lookup_empty in Hp.
  - by apply sequential_from_0.
  - destruct (last_with L k) eqn:El; [reflexivity|]. intros p [(l & a & it & Hl & Hh & _) _]. simpl in Hh. by rewrite lookup_empty in Hh.
Qed.
Print Assumptions C30_from_iter.

(** What the methods called extend do: for ConMap (element handles; pairs), CloneConMap and ConSet. *)
Corollary C30_ConMap {K V} (eqb : K -> K -> bool) (hash : K -> N) : let MC := map_config K V eqb hash in @ConfigOk MC ->
  forall ls0 s0 ev0 ls1 s ev1 (L : list (arc (element K V))), @exec MC ls0 s0 ev0 -> wf_calls ls0 -> quiescent s0 -> s_dropped s0 = false ->
  run s0 ls1 = Some (s, ev1) -> sequential_from (length ls0) (ls0 ++ ls1) -> calls ev1 = map (map_raw eqb hash) (map_extend L) -> quiescent s -> s_dropped s = false ->
  forall k x, @has MC s k x <-> match List.find (fun e => eqb (el_key (arc_val e)) k) (rev L) with Some e => x = Some e | None => @has MC s0 k x end.
Proof.
  intros MC HC ls0 s0 ev0 ls1 s ev1 L Hx0 Hw Hq Hd Hr Hs Hc. eapply (@C30_extend MC HC); try done. rewrite Hc. unfold map_extend. rewrite map_map. done.
Qed.
Corollary C30_ConMap_pairs {K V} (eqb : K -> K -> bool) (hash : K -> N) : let MC := map_config K V eqb hash in @ConfigOk MC ->
  forall ls0 s0 ev0 ls1 s ev1 (L : list (K * V * positive)), @exec MC ls0 s0 ev0 -> wf_calls ls0 -> quiescent s0 -> s_dropped s0 = false ->
  run s0 ls1 = Some (s, ev1) -> sequential_from (length ls0) (ls0 ++ ls1) -> calls ev1 = map (map_raw eqb hash) (map_extend_pairs L) -> quiescent s -> s_dropped s = false ->
  forall k x, @has MC s k x <-> match List.find (fun e => eqb (el_key (arc_val e)) k) (rev (map (fun '(k, v, id) => Arc id (Element k v)) L)) with Some e => x = Some e | None => @has MC s0 k x end.
Proof. intros MC HC ls0 s0 ev0 ls1 s ev1 L Hx0 Hw Hq Hd Hr Hs Hc. by eapply C30_ConMap. Qed.
Corollary C30_CloneConMap {K V} (eqb : K -> K -> bool) (hash : K -> N) : let KC := clone_config K V eqb hash in @ConfigOk KC ->
  forall ls0 s0 ev0 ls1 s ev1 (L : list (K * V)), @exec KC ls0 s0 ev0 -> wf_calls ls0 -> quiescent s0 -> s_dropped s0 = false ->
  run s0 ls1 = Some (s, ev1) -> sequential_from (length ls0) (ls0 ++ ls1) -> calls ev1 = map (clone_raw eqb hash) (clone_extend L) -> quiescent s -> s_dropped s = false ->
  forall k x, @has KC s k x <-> match List.find (fun e => eqb e.1 k) (rev L) with Some e => x = Some e | None => @has KC s0 k x end.
Proof.
  intros KC HC ls0 s0 ev0 ls1 s ev1 L Hx0 Hw Hq Hd Hr Hs Hc. eapply (@C30_extend KC HC); try done. rewrite Hc. unfold clone_extend. rewrite map_map. apply map_ext. by intros [].
Qed.
Corollary C30_ConSet {T} (eqb : T -> T -> bool) (hash : T -> N) : let SC := set_config T eqb hash in @ConfigOk SC ->
  forall ls0 s0 ev0 ls1 s ev1 (L : list T), @exec SC ls0 s0 ev0 -> wf_calls ls0 -> quiescent s0 -> s_dropped s0 = false ->
  run s0 ls1 = Some (s, ev1) -> sequential_from (length ls0) (ls0 ++ ls1) -> calls ev1 = map (set_raw eqb hash) (set_extend L) -> quiescent s -> s_dropped s = false ->
  forall k x, @has SC s k x <-> match List.find (fun e => eqb e k) (rev L) with Some e => x = Some e | None => @has SC s0 k x end.
Proof.
  intros SC HC ls0 s0 ev0 ls1 s ev1 L Hx0 Hw Hq Hd Hr Hs Hc. eapply (@C30_extend SC HC); try done. rewrite Hc. unfold set_extend. rewrite map_map. done.
Qed.

(** ** C31: clone.  [ys] is what an iteration of map A has yielded (A is described by [lsA sA evA]; there may be any other calls before, during and after the iteration); map B was made
    by inserting the elements of [ys] into a new map.  If the contents of A do not change during the iteration, B gets the contents of A. *)
Section clone.
Context {C : Config} {HC : ConfigOk C}.
Lemma listed_last (L : list Pl) k : distinct_keys L -> forall x, listed L k x -> last_with L k = x.
Proof.
  intros Hdk x Hl. unfold last_with. destruct (List.find _ (rev L)) as [p|] eqn:E.
  - apply find_some in E as [Hin Ep]. apply in_rev in Hin. apply elem_of_list_In in Hin. destruct x as [q|]; simpl in Hl.
    + destruct Hl as [Hq Hk]. apply elem_of_list_lookup in Hin as [i Hi]. apply elem_of_list_lookup in Hq as [j Hj]. f_equal.
      assert (i = j) as -> by (eapply Hdk; [done|done|]; eapply keqb_trans; [exact Ep|by rewrite keqb_sym]). congruence.
    + by rewrite (Hl _ Hin) in Ep.
  - destruct x as [q|]; simpl in Hl; [|done]. destruct Hl as [Hq Hk]. exfalso. apply elem_of_list_In in Hq. apply in_rev in Hq. pose proof (find_none _ _ E _ Hq) as H. simpl in H. congruence.
Qed.
End clone.
Section clone2.
Context {C : Config} {HC : ConfigOk C}.
Lemma clone_of lsA sA evA o ys lsB sB evB : exec lsA sA evA -> wf_calls lsA -> exec lsB sB evB -> sequential lsB -> calls evB = OInsert <$> (rr_val <$> ys) -> quiescent sB -> s_dropped sB = false ->
  forall s1, during lsA o OIter s1 -> lists_contents (rr_val <$> ys) s1 -> same_contents s1 sB.
Proof.
  intros HxA HwA HxB HsB Hc Hq Hd s1 Hs1 [Hdk Hlc] k x. pose proof (C30_from_iter _ _ _ _ HxB HsB Hc Hq Hd k) as HB.
  assert (has s1 k (last_with (rr_val <$> ys) k)) as HA.
  { unfold last_with. destruct (List.find _ (rev _)) as [p|] eqn:E.
    - apply find_some in E as [Hin Ep]. apply in_rev in Hin. apply elem_of_list_In in Hin. split; [by apply Hlc|done].
    - intros p [Hp Hk]. apply Hlc in Hp. apply elem_of_list_In in Hp. apply in_rev in Hp. pose proof (find_none _ _ E _ Hp) as H. simpl in H. congruence. }
  assert (wf_calls lsB) as HwB.
  { intros o' op Hin. assert (op ∈ calls evB) as Hop; [|rewrite Hc in Hop; by apply elem_of_list_fmap in Hop as (? & -> & _)].
    by eapply run_calls. }
  split; intros Hx.
  - assert (last_with (rr_val <$> ys) k = x) as <- by (eapply during_has_fun; [exact HxA|exact HwA|exact Hs1|exact HA|exact Hx]). exact HB.
  - destruct (exec_full _ _ _ HxB HwB Hd) as [pos Hfu]. apply (has_abs pos sB k _ Hfu) in HB. apply (has_abs pos sB k _ Hfu) in Hx. assert (last_with (rr_val <$> ys) k = x) as <- by congruence. exact HA.
Qed.
End clone2.
Theorem C31_clone `{C : Config} `{!ConfigOk C} : forall lsA sA evA o ys lsB sB evB,
  exec lsA sA evA -> wf_calls lsA -> ERet o (RIter ys) ∈ evA -> (forall s1 s2, during lsA o OIter s1 -> during lsA o OIter s2 -> same_contents s1 s2) ->
  exec lsB sB evB -> sequential lsB -> calls evB = OInsert <$> (rr_val <$> ys) -> quiescent sB -> s_dropped sB = false ->
  forall s1, during lsA o OIter s1 -> same_contents s1 sB.
Proof. intros lsA sA evA o ys lsB sB evB HxA HwA Hret Hsame HxB HsB Hc Hq Hd s1 Hs1. refine (clone_of _ _ _ _ _ _ _ _ HxA HwA HxB HsB Hc Hq Hd s1 Hs1 _). exact (C23_exact _ _ _ _ _ HxA HwA Hret Hsame s1 Hs1). Qed.
Print Assumptions C31_clone.
(** In particular if nobody calls a modifying method of A meanwhile. *)
Theorem C31_clone_readers_only `{C : Config} `{!ConfigOk C} : forall lsA sA evA o ys lsB sB evB,
  exec lsA sA evA -> wf_calls lsA -> ERet o (RIter ys) ∈ evA -> (forall s1 o' op, during lsA o OIter s1 -> in_progress s1 o' op -> is_reader op = true) ->
  exec lsB sB evB -> sequential lsB -> calls evB = OInsert <$> (rr_val <$> ys) -> quiescent sB -> s_dropped sB = false ->
  forall s1, during lsA o OIter s1 -> same_contents s1 sB.
Proof. intros lsA sA evA o ys lsB sB evB HxA HwA Hret Hrd HxB HsB Hc Hq Hd s1 Hs1. refine (clone_of _ _ _ _ _ _ _ _ HxA HwA HxB HsB Hc Hq Hd s1 Hs1 _). exact (C23_readers_only _ _ _ _ _ HxA HwA Hret Hrd s1 Hs1). Qed.
Print Assumptions C31_clone_readers_only.
(** Even if A is modified meanwhile: for every key, B has what A had at some instant during the iteration. *)
Theorem C31_clone_concurrent `{C : Config} `{!ConfigOk C} : forall lsA sA evA o ys lsB sB evB,
  exec lsA sA evA -> wf_calls lsA -> ERet o (RIter ys) ∈ evA ->
  exec lsB sB evB -> sequential lsB -> calls evB = OInsert <$> (rr_val <$> ys) -> quiescent sB -> s_dropped sB = false ->
  forall k, exists s1 x, during lsA o OIter s1 /\ has s1 k x /\ has sB k x.
Proof.
  intros lsA sA evA o ys lsB sB evB HxA HwA Hret HxB HsB Hc Hq Hd k.
  destruct (C22_every_key _ _ _ _ _ HxA HwA Hret) as [Ey H]. assert (distinct_keys (rr_val <$> ys)) as Hdk by (rewrite <-Ey; by eapply C21_no_duplicates).
  destruct (H k) as (s2 & y & Hd2 & Hh & Hl). exists s2, y. split; [done|]. split; [done|]. rewrite <-(listed_last _ _ Hdk _ Hl). by eapply C30_from_iter.
Qed.
Print Assumptions C31_clone_concurrent.

(** What [clone] of ConMap does: the new map has the very handles of the old one. *)
Corollary C31_ConMap {K V} (eqb : K -> K -> bool) (hash : K -> N) : let MC := map_config K V eqb hash in @ConfigOk MC ->
  forall lsA sA evA o ys lsB sB evB, @exec MC lsA sA evA -> wf_calls lsA -> ERet o (RIter ys) ∈ evA ->
  (forall s1 s2, during lsA o OIter s1 -> during lsA o OIter s2 -> same_contents s1 s2) ->
  @exec MC lsB sB evB -> sequential lsB -> calls evB = map (map_raw eqb hash) (map_clone (map (@rr_val MC) ys)) -> quiescent sB -> s_dropped sB = false ->
  forall s1, during lsA o OIter s1 -> forall k (x : option (arc (element K V))), @has MC s1 k x <-> @has MC sB k x.
Proof.
  intros MC HC lsA sA evA o ys lsB sB evB HxA HwA Hret Hsame HxB HsB Hc Hq Hd s1 Hs1.
  refine (@C31_clone MC HC lsA sA evA o ys lsB sB evB HxA HwA Hret Hsame HxB HsB _ Hq Hd s1 Hs1). rewrite Hc. unfold map_clone, map_extend. rewrite map_map. done.
Qed.
Corollary C31_CloneConMap {K V} (eqb : K -> K -> bool) (hash : K -> N) : let KC := clone_config K V eqb hash in @ConfigOk KC ->
  forall lsA sA evA o ys lsB sB evB, @exec KC lsA sA evA -> wf_calls lsA -> ERet o (RIter ys) ∈ evA ->
  (forall s1 s2, during lsA o OIter s1 -> during lsA o OIter s2 -> same_contents s1 s2) ->
  @exec KC lsB sB evB -> sequential lsB -> calls evB = map (clone_raw eqb hash) (clone_clone (map (@rr_val KC) ys)) -> quiescent sB -> s_dropped sB = false ->
  forall s1, during lsA o OIter s1 -> forall k (x : option (K * V)), @has KC s1 k x <-> @has KC sB k x.
Proof.
  intros KC HC lsA sA evA o ys lsB sB evB HxA HwA Hret Hsame HxB HsB Hc Hq Hd s1 Hs1.
  refine (@C31_clone KC HC lsA sA evA o ys lsB sB evB HxA HwA Hret Hsame HxB HsB _ Hq Hd s1 Hs1). rewrite Hc. unfold clone_clone, clone_extend. rewrite map_map.
  change (@OInsert KC <$> ((@rr_val KC) <$> ys)) with (map (@OInsert KC) (map (@rr_val KC) ys)). apply map_ext. by intros [].
Qed.
Print Assumptions C31_ConMap.
Print Assumptions C31_CloneConMap.

(** ** C32 for the containers: par_extend.  From state [s0] on the only calls in progress that could change anything are those of par_extend, and each of them returned. *)
Section par.
Context {C : Config} {HC : ConfigOk C} {A : Type} (raw : A -> oper) (cs : list A) (L : list Pl).
Definition par_calls (ls : list label) (ev : list event) (j0 : nat) (s0 : state) : Prop :=
  (forall j sj o op k, j0 <= j -> state_at ls j = Some sj -> in_progress sj o op -> touches op k -> exists c, c ∈ cs /\ op = raw c) /\
  (forall c, c ∈ cs -> exists o r, EInv o (raw c) ∈ ev /\ ERet o r ∈ ev /\ ~ finished s0 o).
Lemma par_extend : map raw cs = map OInsert L -> forall ls s ev j0 s0, exec ls s ev -> wf_calls ls -> j0 <= length ls -> state_at ls j0 = Some s0 -> s_dropped s = false -> par_calls ls ev j0 s0 ->
  forall k, ((exists p, p ∈ L /\ keqb (keyof p) k = true) -> exists p, p ∈ L /\ maps s k p) /\
            ((forall p, p ∈ L -> keqb (keyof p) k = false) -> forall x, has s k x <-> has s0 k x).
Proof.
  intros E ls s ev j0 s0 Hx Hw Hj Hs0 Hd [H1 H2]. apply (PropLin.C32_parallel_extend ls s ev j0 s0 L Hx Hw Hj Hs0 Hd).
  - intros j sj o op k Hj' Hsj Hp Ht. destruct (H1 j sj o op k Hj' Hsj Hp Ht) as (c & Hc & ->).
    assert (raw c ∈ map OInsert L) as Hin by (rewrite <-E; by apply (elem_of_list_fmap_1 raw)).
    apply elem_of_list_In, in_map_iff in Hin as (p & Hp' & Hin). exists p. split; [by apply elem_of_list_In|done].
  - intros p Hp. assert (OInsert p ∈ map raw cs) as Hin by (rewrite E; by apply (elem_of_list_fmap_1 OInsert)).
    apply elem_of_list_In, in_map_iff in Hin as (c & Hc & Hin). rewrite <-Hc. apply H2. by apply elem_of_list_In.
Qed.
End par.
Corollary C32_ConMap {K V} (eqb : K -> K -> bool) (hash : K -> N) : let MC := map_config K V eqb hash in @ConfigOk MC ->
  forall ls s ev j0 s0 (L : list (arc (element K V))), @exec MC ls s ev -> wf_calls ls -> j0 <= length ls -> state_at ls j0 = Some s0 -> s_dropped s = false ->
  par_calls (map_raw eqb hash) (map_par_extend L) ls ev j0 s0 ->
  forall k, ((exists e, e ∈ L /\ eqb (el_key (arc_val e)) k = true) -> exists e, e ∈ L /\ @maps MC s k e) /\
            ((forall e, e ∈ L -> eqb (el_key (arc_val e)) k = false) -> forall x, @has MC s k x <-> @has MC s0 k x).
Proof. intros MC HC ls s ev j0 s0 L. apply (@par_extend MC HC). unfold map_par_extend. rewrite map_map. done. Qed.
Corollary C32_ConMap_pairs {K V} (eqb : K -> K -> bool) (hash : K -> N) : let MC := map_config K V eqb hash in @ConfigOk MC ->
  forall ls s ev j0 s0 (L : list (K * V * positive)), @exec MC ls s ev -> wf_calls ls -> j0 <= length ls -> state_at ls j0 = Some s0 -> s_dropped s = false ->
  par_calls (map_raw eqb hash) (map_par_extend_pairs L) ls ev j0 s0 ->
  forall k, ((exists k' v id, (k', v, id) ∈ L /\ eqb k' k = true) -> exists k' v id, (k', v, id) ∈ L /\ @maps MC s k (Arc id (Element k' v))) /\
            ((forall k' v id, (k', v, id) ∈ L -> eqb k' k = false) -> forall x, @has MC s k x <-> @has MC s0 k x).
Proof.
  intros MC HC ls s ev j0 s0 L Hx Hw Hj Hs0 Hd Hp k. destruct (C32_ConMap eqb hash HC ls s ev j0 s0 _ Hx Hw Hj Hs0 Hd Hp k) as [H1 H2]. split.
  - intros (k' & v & id & Hin & He). destruct H1 as (e & Hin' & Hm).
    + exists (Arc id (Element k' v)). split; [|done]. apply elem_of_list_In, in_map_iff. exists (k', v, id). split; [done|by apply elem_of_list_In].
    + apply elem_of_list_In, in_map_iff in Hin' as ([[k2 v2] id2] & <- & Hin2). exists k2, v2, id2. split; [by apply elem_of_list_In|done].
  - intros Hn. apply H2. intros e He. apply elem_of_list_In, in_map_iff in He as ([[k2 v2] id2] & <- & Hin2). simpl. eapply Hn. by apply elem_of_list_In.
Qed.
Corollary C32_CloneConMap {K V} (eqb : K -> K -> bool) (hash : K -> N) : let KC := clone_config K V eqb hash in @ConfigOk KC ->
  forall ls s ev j0 s0 (L : list (K * V)), @exec KC ls s ev -> wf_calls ls -> j0 <= length ls -> state_at ls j0 = Some s0 -> s_dropped s = false ->
  par_calls (clone_raw eqb hash) (clone_par_extend L) ls ev j0 s0 ->
  forall k, ((exists e, e ∈ L /\ eqb e.1 k = true) -> exists e, e ∈ L /\ @maps KC s k e) /\
            ((forall e, e ∈ L -> eqb e.1 k = false) -> forall x, @has KC s k x <-> @has KC s0 k x).
Proof. intros KC HC ls s ev j0 s0 L. apply (@par_extend KC HC). unfold clone_par_extend. rewrite map_map. apply map_ext. by intros []. Qed.
Corollary C32_ConSet {T} (eqb : T -> T -> bool) (hash : T -> N) : let SC := set_config T eqb hash in @ConfigOk SC ->
  forall ls s ev j0 s0 (L : list T), @exec SC ls s ev -> wf_calls ls -> j0 <= length ls -> state_at ls j0 = Some s0 -> s_dropped s = false ->
  par_calls (set_raw eqb hash) (set_par_extend L) ls ev j0 s0 ->
  forall k, ((exists e, e ∈ L /\ eqb e k = true) -> exists e, e ∈ L /\ @maps SC s k e) /\
            ((forall e, e ∈ L -> eqb e k = false) -> forall x, @has SC s k x <-> @has SC s0 k x).
Proof. intros SC HC ls s ev j0 s0 L. apply (@par_extend SC HC). unfold set_par_extend. rewrite map_map. done. Qed.
Print Assumptions C32_ConMap.
Print Assumptions C32_ConMap_pairs.
Print Assumptions C32_CloneConMap.
Print Assumptions C32_ConSet.

(** ** C40: ExistingOrNew *)
Theorem C40_ExistingOrNew : forall (T U : Type) (x : T) (f : T -> U) (g : T -> T) (e : eon T),
  (eon_is_new (New x) = true /\ eon_is_new (Existing x) = false) /\
  (eon_inner (New x) = x /\ eon_inner (Existing x) = x) /\
  eon_deref e = eon_inner e /\
  (eon_inner (eon_map f e) = f (eon_inner e) /\ eon_is_new (eon_map f e) = eon_is_new e) /\
  (eon_inner (eon_deref_mut g e) = g (eon_inner e) /\ eon_is_new (eon_deref_mut g e) = eon_is_new e) /\
  e = (if eon_is_new e then New (eon_inner e) else Existing (eon_inner e)).
Proof. intros T U x f g []; done. Qed.
Print Assumptions C40_ExistingOrNew.

(** ** Concrete cases *)

(** All calls of a list at the same time, in lock step. *)
Section conc.
Context {C : Config}.
Definition invs (ops : list oper) : list label := imap (fun i op => LInv (Pos.of_succ_nat i) op) ops.
Definition rr1 (x : option (state * list label)) (o : opid) : option (state * list label) :=
  match x with
  | Some (s, ls) => match s_ops s !! o with
      | Some (SRun _ _) => let lb := LStep o false (free_addr (s_mem s)) in match step s lb with Some (s', _) => Some (s', lb :: ls) | None => None end
      | _ => Some (s, ls) end
  | None => None
  end.
Definition rounds (n : nat) (os : list opid) (s : state) : list label :=
  match Nat.iter n (fun x => fold_left rr1 os x) (Some (s, [])) with Some (_, ls) => rev ls | None => [] end.
Definition conc (n : nat) (ops : list oper) : list label :=
  invs ops ++ match run init (invs ops) with Some (s, _) => rounds n (imap (fun i _ => Pos.of_succ_nat i) ops) s | None => [] end.
Lemma conc_client {A : Type} (raw : A -> oper) (d : A) (cs : list A) n : client raw (fun o => nth (Nat.pred (Pos.to_nat o)) cs d) (conc n (map raw cs)).
Proof.
  intros o op [H|H]%elem_of_app.
  - unfold invs in H. apply elem_of_lookup_imap_1 in H as (i & y & [= -> ->] & Hy). rewrite SuccNat2Pos.id_succ. simpl. 
    change (map raw cs) with (raw <$> cs) in Hy. rewrite list_lookup_fmap in Hy. destruct (cs !! i) as [c|] eqn:E; [|done]. injection Hy as <-. f_equal. rewrite nth_lookup, E. done.
  - exfalso. destruct (run init (invs (map raw cs))) as [[s e]|]; [|by apply elem_of_nil in H]. unfold rounds in H.
    set (os := imap (fun i _ => Pos.of_succ_nat i) (map raw cs)) in H. clearbody os.
    assert (forall n x, Nat.iter n (fun x => fold_left rr1 os x) (Some (s, [])) = x -> match x with Some (_, ls) => forall o op, LInv o op ∉ ls | None => True end) as Hno.
    { clear. assert (forall os y, match y with Some (_, ls) => forall o op, LInv o op ∉ ls | None => True end -> match fold_left rr1 os y with Some (_, ls) => forall o op, LInv o op ∉ ls | None => True end) as Hf.
      { clear. induction os as [|o os IH]; intros y Hy; [exact Hy|]. cbn [fold_left]. apply IH. unfold rr1. destruct y as [[x1 l1]|]; [|done].
        destruct (s_ops x1 !! o) as [[op q| | |]|]; try exact Hy. destruct (step x1 _) as [[x2 e2]|]; [|done]. intros o' op' [?|H]%elem_of_cons; [done|by apply (Hy o' op')]. }
      intros n x <-. induction n as [|n IH]; [intros o op H; by apply elem_of_nil in H|]. cbn [Nat.iter]. by apply Hf. }
    specialize (Hno n _ eq_refl).
    destruct (Nat.iter n _ _) as [[x ls]|]; [|by apply elem_of_nil in H]. apply elem_of_list_In in H. apply in_rev in H. apply elem_of_list_In in H. by eapply (Hno o op).
Qed.
Definition cfin (n : nat) (ops : list oper) : state := match run init (conc n ops) with Some (s, _) => s | None => init end.
Definition cevs (n : nat) (ops : list oper) : list event := match run init (conc n ops) with Some (_, ev) => ev | None => [] end.
Definition conc_ok (ls : list label) : bool := match run init ls with Some (s, _) => no_run s | None => false end.
Lemma conc_spec n ops : conc_ok (conc n ops) = true -> exec (conc n ops) (cfin n ops) (cevs n ops) /\ quiescent (cfin n ops) /\ s_dropped (cfin n ops) = false.
Proof.
  unfold conc_ok, exec, cfin, cevs. generalize (conc n ops). intros ls H. destruct (run init ls) as [[s ev]|]; [|done]. split; [done|]. apply andb_true_iff in H as [H3 H4]. split.
  - intros o op [q Hq]. rewrite forallb_forall in H3. specialize (H3 (o, SRun op q)). simpl in H3.
    assert (In (o, SRun op q) (map_to_list (s_ops s))) as Hin by (apply elem_of_list_In; by apply elem_of_map_to_list). by apply H3 in Hin.
  - by apply negb_true_iff in H4.
Qed.
Definition rets (ev : list event) : list (opid * res) := omap (fun e => match e with ERet o r => Some (o, r) | _ => None end) ev.
End conc.
#[local] Opaque conc cfin cevs.

(** A ConMap from N to N; all hashes are 0, 1 or 2, so that there are collisions. *)
Definition mh (k : N) : N := N.modulo k 3.
Notation NM := (map_config N N N.eqb mh).
#[local] Instance NMok : @ConfigOk NM.
Proof.
  split; simpl.
  - apply N.eqb_refl.
  - apply N.eqb_sym.
  - intros a b c ->%N.eqb_eq ->%N.eqb_eq. apply N.eqb_refl.
  - by intros a b ->%N.eqb_eq.
  - intros a. unfold mh. eapply N.lt_trans; [by apply N.mod_lt|done].
Qed.
(** Ten calls at the same time. *)
Definition mcalls : list (map_call N N) :=
  [MInsert 1 10 100%positive; MGetOrInsert 4 40 101%positive; MGetOrInsertWith 1 (fun _ => 11) 102%positive; MInsertElement (Arc 103%positive (Element 5 50));
   MGetOrInsertWithElement 5 (fun k => Arc 104%positive (Element k 51)); MRemove 1; MGet 4; MIsEmpty; MIter; MGetOrInsertDefault 7 0 105%positive]%N.
Definition mshow (x : opid * @res NM) : opid * map_ret N N := (x.1, map_view x.2).
Example C01_ConMap_example : exec (conc 400 (map (map_raw N.eqb mh) mcalls)) (cfin 400 (map (map_raw N.eqb mh) mcalls)) (cevs 400 (map (map_raw N.eqb mh) mcalls)) /\
  client (map_raw N.eqb mh) (fun o => nth (Nat.pred (Pos.to_nat o)) mcalls MIsEmpty) (conc 400 (map (map_raw N.eqb mh) mcalls)) /\
  (forall o, map_proper N.eqb (nth (Nat.pred (Pos.to_nat o)) mcalls MIsEmpty)) /\
  map mshow (rets (cevs 400 (map (map_raw N.eqb mh) mcalls))) =
    [(6, MROpt None); (7, MROpt None); (8, MRBool true); (1, MROpt None); (3, MREon (Existing (Arc 100 (Element 1%N 10%N)))); (9, MRIter []); (4, MROpt None);
     (5, MREon (Existing (Arc 103 (Element 5%N 50%N)))); (2, MREon (New (Arc 101 (Element 4%N 40%N)))); (10, MREon (New (Arc 105 (Element 7%N 0%N))))]%positive.
Proof.
  split; [apply conc_spec; vm_compute; reflexivity|]. split; [apply conc_client|]. split; [|vm_compute; reflexivity].
  intros o. generalize (Nat.pred (Pos.to_nat o)). intros n. do 10 (destruct n as [|n]; [done|]). destruct n; done.
Qed.
(** A ConSet of pairs that are equal if their first components are: equal values can be told apart. *)
Definition peq (x y : N * N) : bool := N.eqb x.1 y.1.
Definition ph (x : N * N) : N := N.modulo x.1 3.
Notation PS := (set_config (N * N) peq ph).
#[local] Instance PSok : @ConfigOk PS.
Proof.
  split; simpl; unfold peq, ph.
  - intros a. apply N.eqb_refl.
  - intros a b. apply N.eqb_sym.
  - intros a b c ->%N.eqb_eq ->%N.eqb_eq. apply N.eqb_refl.
  - by intros a b ->%N.eqb_eq.
  - intros a. eapply N.lt_trans; [by apply N.mod_lt|done].
Qed.
Definition scalls : list (set_call (N * N)) := [SInsert (1, 1); SInsert (1, 2); SInsert (4, 1); SContains (4, 9); SRemove (1, 3); SGet (4, 2); SIsEmpty; SIter; SRemove (4, 0)]%N.
Definition sshow (x : opid * @res PS) : opid * set_ret (N * N) := (x.1, set_view (nth (Nat.pred (Pos.to_nat x.1)) scalls SIsEmpty) x.2).
Example C33_example : exec (conc 400 (map (set_raw peq ph) scalls)) (cfin 400 (map (set_raw peq ph) scalls)) (cevs 400 (map (set_raw peq ph) scalls)) /\
  client (set_raw peq ph) (fun o => nth (Nat.pred (Pos.to_nat o)) scalls SIsEmpty) (conc 400 (map (set_raw peq ph) scalls)) /\
  map sshow (rets (cevs 400 (map (set_raw peq ph) scalls))) =
    [(4, SRBool false); (5, SROpt None); (6, SROpt None); (7, SRBool true); (9, SROpt None); (1, SROpt None); (8, SRIter []); (2, SROpt (Some (1%N, 1%N))); (3, SROpt None)]%positive.
Proof. split; [apply conc_spec; vm_compute; reflexivity|]. split; [apply conc_client|]. vm_compute. reflexivity. Qed.

(** C30: extending the map that the overlapping removals of C20 (and an abandoned call) have left by a list with repeated keys. *)
Definition xops : list (@Pl CN) := [el 33 7; el 17 8; el 33 9; el 4 0; el 17 6].
Definition xls : list (@label CN) := seq_sched 7%positive (map (@OInsert CN) xops) (fin PropSeq.before).
Definition xfin : @state CN := match run (fin PropSeq.before) xls with Some (s, _) => s | None => init end.
Definition xevs : list (@event CN) := match run (fin PropSeq.before) xls with Some (_, ev) => ev | None => [] end.
#[local] Opaque xls.
Example C30_example : exec (schedule PropSeq.before) (fin PropSeq.before) (evs PropSeq.before) /\ wf_calls (schedule PropSeq.before) /\ quiescent (fin PropSeq.before) /\ s_dropped (fin PropSeq.before) = false /\
  run (fin PropSeq.before) xls = Some (xfin, xevs) /\ sequential_from (length (schedule PropSeq.before)) (schedule PropSeq.before ++ xls) /\ calls xevs = OInsert <$> xops /\ quiescent xfin /\ s_dropped xfin = false.
Proof.
  destruct (exec_of PropSeq.before ltac:(vm_compute; reflexivity)) as [Hx Hw].
  assert (after_check xls = true) as H by (vm_compute; reflexivity).
  assert (calls xevs = OInsert <$> xops) as Hc by (vm_compute; reflexivity).
  unfold after_check, xfin, xevs in *. revert Hx Hw H Hc. generalize (schedule PropSeq.before), (fin PropSeq.before), (evs PropSeq.before), xls. intros ls0 s0 ev0 ls1 Hx Hw.
  intros [[[H1 H2]%andb_true_iff H3]%andb_true_iff H4]%andb_true_iff Hc.
  assert (forall s : @state CN, no_run s = true -> quiescent s /\ s_dropped s = false) as Hnr.
  { intros s [H5 H6]%andb_true_iff. split; [by apply Refuted.quiesb_spec|by apply negb_true_iff in H6]. }
  split; [exact Hx|]. split; [exact Hw|]. split; [by apply Hnr|]. split; [by apply Hnr|]. destruct (run s0 ls1) as [[s ev]|]; [|discriminate H3]. split; [reflexivity|].
  split; [by eapply seq_from_spec|]. split; [exact Hc|]. by apply Hnr.
Qed.

(** C31: cloning the map of C23_example, which has leftovers of an abandoned removal, while a get and an iteration overlap the iteration of clone. *)
Definition yops : list (@oper CN) := [ins 1 1; ins 2 5; ins 5 3].
Example C31_example : exec (schedule iquiet) (fin iquiet) (evs iquiet) /\ wf_calls (schedule iquiet) /\
  (forall s1 o' op, during (schedule iquiet) 7%positive ite s1 -> in_progress s1 o' op -> is_reader op = true) /\
  exists ys, ERet 7%positive (RIter ys) ∈ evs iquiet /\
  exec (sls yops) (sfin yops) (sevs yops) /\ sequential (sls yops) /\ calls (sevs yops) = OInsert <$> (rr_val <$> ys) /\ quiescent (sfin yops) /\ s_dropped (sfin yops) = false.
Proof.
  destruct C23_example as (H1 & H2 & (r & Hr & Hi) & H3). split; [exact H1|]. split; [exact H2|]. split; [exact H3|].
  destruct (seq_check_spec yops ltac:(vm_compute; reflexivity)) as (S1 & S2 & S3 & S4 & S5). assert (calls (sevs yops) = yops) as Hc by (vm_compute; reflexivity). clear -Hr Hi S1 S3 S4 S5 Hc. revert Hr S1 S3 S4 S5 Hc.
  generalize (evs iquiet), (sls yops), (sfin yops), (sevs yops). intros ev ls s ev' Hr S1 S3 S4 S5 Hc. unfold is_iter in Hi. destruct r as [|x|b|ys]; try discriminate Hi. exists ys. split; [exact Hr|]. split; [exact S1|]. split; [exact S3|].
  split; [|split; [exact S4|exact S5]]. rewrite Hc. case_decide as E; [|discriminate Hi]. etransitivity; [|exact (f_equal (fmap OInsert) (eq_sym E))]. reflexivity.
Qed.

(** C31 for ConMap: an iteration of a map built by four calls, and the calls [clone] makes on the new map. *)
Definition cmA : list (map_call N N) := [MInsert 1 10 100%positive; MInsert 4 40 101%positive; MGetOrInsert 5 50 102%positive; MRemove 4; MIter]%N.
Definition cmB : list (map_call N N) := map_clone [Arc 100%positive (Element 1 10); Arc 102%positive (Element 5 50)]%N.
#[local] Opaque sls sfin sevs.
Example C31_ConMap_example : let lsA := sls (map (map_raw N.eqb mh) cmA) in let lsB := sls (map (map_raw N.eqb mh) cmB) in
  exists sA evA ys sB evB, @exec NM lsA sA evA /\ wf_calls lsA /\ ERet 5%positive (RIter ys) ∈ evA /\
  (forall s1 s2, during lsA 5%positive OIter s1 -> during lsA 5%positive OIter s2 -> same_contents s1 s2) /\
  @exec NM lsB sB evB /\ sequential lsB /\ calls evB = map (map_raw N.eqb mh) (map_clone (map (@rr_val NM) ys)) /\ quiescent sB /\ s_dropped sB = false.
Proof.
  intros lsA lsB.
  destruct (@seq_check_spec NM (map (map_raw N.eqb mh) cmA) ltac:(vm_compute; reflexivity)) as (A1 & A2 & A3 & A4 & A5).
  destruct (@seq_check_spec NM (map (map_raw N.eqb mh) cmB) ltac:(vm_compute; reflexivity)) as (B1 & B2 & B3 & B4 & B5).
  assert (match @sevs NM (map (map_raw N.eqb mh) cmA) !! 12 with Some (ERet o (RIter ys)) => Some (o, map (@rr_val NM) ys) | _ => None end =
    Some (5%positive, [Arc 100%positive (Element 1 10); Arc 102%positive (Element 5 50)]%N)) as Hb by (vm_compute; reflexivity).
  assert (calls (@sevs NM (map (map_raw N.eqb mh) cmB)) = map (map_raw N.eqb mh) cmB) as Hc by (vm_compute; reflexivity).
  assert (exists ys, ERet 5%positive (RIter ys) ∈ (@sevs NM (map (map_raw N.eqb mh) cmA)) /\ calls (@sevs NM (map (map_raw N.eqb mh) cmB)) = map (map_raw N.eqb mh) (map_clone (map (@rr_val NM) ys)))
    as (ys & H1 & H2).
  { clear -Hb Hc. revert Hb Hc. generalize (@sevs NM (map (map_raw N.eqb mh) cmA)), (@sevs NM (map (map_raw N.eqb mh) cmB)). intros evA evB Hb Hc.
    destruct (evA !! 12) as [[| o [ | | |ys]| |]|] eqn:E; try discriminate Hb. injection Hb as Ho Hy. subst o. exists ys. split; [exact (elem_of_nth _ _ _ E)|]. rewrite Hc. unfold cmB. exact (f_equal (fun l => map (map_raw N.eqb mh) (map_clone l)) (eq_sym Hy)). }
  exists (sfin (map (map_raw N.eqb mh) cmA)), (sevs (map (map_raw N.eqb mh) cmA)), ys, (sfin (map (map_raw N.eqb mh) cmB)), (sevs (map (map_raw N.eqb mh) cmB)).
  split; [exact A1|]. split; [exact A2|]. split; [exact H1|]. split; [|split; [exact B1|split; [exact B3|split; [exact H2|split; [exact B4|exact B5]]]]].
  eapply readers_same; [exact A1|exact A2|]. intros s1 o' op (j & Hj & Hp) Hp'. assert (o' = 5%positive) as -> by (eapply (proj1 A3); eauto).
  destruct Hp as [q Hq]. destruct Hp' as [q' Hq']. rewrite Hq in Hq'. injection Hq' as <- _. done.
Qed.

Lemma in_progress_inv `{C : Config} ls s ev j sj o op : exec ls s ev -> state_at ls j = Some sj -> in_progress sj o op -> LInv o op ∈ ls.
Proof.
  intros Hx Hj [q Hq]. destruct (state_at_exec _ _ _ _ _ Hx Hj) as [e Hxj].
  assert (forall ls s ev, exec ls s ev -> forall o op q, s_ops s !! o = Some (SRun op q) -> LInv o op ∈ ls) as H.
  { clear. apply (exec_ind (fun ls s ev => forall o op q, s_ops s !! o = Some (SRun op q) -> LInv o op ∈ ls)).
    - intros o op q H. simpl in H. by rewrite lookup_empty in H.
    - intros ls s ev lb s' e Hx IH Hst o op q Ho. apply elem_of_app.
      destruct lb as [o' op'|o' spur a|o'|o'|n|]; cbn [step] in Hst.
      + destruct (s_ops s !! o') eqn:E; [done|]. destruct (s_dropped s); [done|]. injection Hst as <- <-. simpl in Ho.
        destruct (decide (o' = o)) as [->|Hne]; [rewrite lookup_insert in Ho; simplify_eq; right; by left|rewrite lookup_insert_ne in Ho by done; left; by eapply IH].
      + destruct (s_ops s !! o') as [[op1 q1| | |]|] eqn:E; try done. destruct (op_step _ _ _ _ _) as [[[m nx] acts]|]; [|done]. injection Hst as <- <-. simpl in Ho. left.
        destruct (decide (o' = o)) as [->|Hne]; [rewrite lookup_insert in Ho; destruct nx; simplify_eq; by eapply IH|rewrite lookup_insert_ne in Ho by done; by eapply IH].
      + left. repeat case_match; simplify_eq. simpl in Ho. destruct (decide (o' = o)) as [->|Hne]; [by rewrite lookup_insert in Ho|rewrite lookup_insert_ne in Ho by done; by eapply IH].
      + left. repeat case_match; simplify_eq. simpl in Ho. destruct (decide (o' = o)) as [->|Hne]; [by rewrite lookup_insert in Ho|rewrite lookup_insert_ne in Ho by done; by eapply IH].
      + left. repeat case_match; simplify_eq. by eapply IH.
      + left. repeat case_match; simplify_eq; by eapply IH. }
  pose proof (H _ _ _ Hxj _ _ _ Hq) as Hin. apply elem_of_list_lookup in Hin as [i Hi]. apply elem_of_list_lookup. exists i.
  by apply lookup_take_Some in Hi as [? _].
Qed.

(** C32 for ConMap: the three inserts of par_extend, two with the same key, at the same time. *)
Definition pcL : list (arc (element N N)) := [Arc 100%positive (Element 1 10); Arc 101%positive (Element 4 40); Arc 102%positive (Element 1 50)]%N.
Example C32_ConMap_example : let cs := map (map_raw N.eqb mh) (map_par_extend pcL) in
  @exec NM (conc 400 cs) (cfin 400 cs) (cevs 400 cs) /\ wf_calls (conc 400 cs) /\ state_at (conc 400 cs) 0 = Some init /\ s_dropped (cfin 400 cs) = false /\
  par_calls (map_raw N.eqb mh) (map_par_extend pcL) (conc 400 cs) (cevs 400 cs) 0 init.
Proof.
  intros cs. destruct (@conc_spec NM 400 cs ltac:(vm_compute; reflexivity)) as (H1 & H2 & H3).
  pose proof (conc_client (map_raw N.eqb mh) MIsEmpty (map_par_extend pcL) 400 : client _ _ (conc 400 cs)) as Hcl.
  assert (forall n, nth n (map_par_extend pcL) MIsEmpty = MIsEmpty \/ nth n (map_par_extend pcL) MIsEmpty ∈ map_par_extend pcL) as Hnth.
  { clear. intros n. destruct n as [|n]; [right; left|]. destruct n as [|n]; [right; right; left|]. destruct n as [|n]; [right; right; right; left|]. left. destruct n; reflexivity. }
  revert H1 H2 H3 Hcl. generalize (conc 400 cs), (cfin 400 cs). intros ls s H1 H2 H3 Hcl.
  split; [exact H1|]. split; [|split; [reflexivity|split; [exact H3|split]]].
  - clear -Hcl Hnth. intros o op Hin. rewrite (Hcl _ _ Hin). destruct (Hnth (Nat.pred (Pos.to_nat o))) as [->|Hc]; [exact I|]. revert Hc. generalize (nth (Nat.pred (Pos.to_nat o)) (map_par_extend pcL) MIsEmpty). intros c Hc.
    unfold map_par_extend, pcL in Hc. cbn [map] in Hc. rewrite !elem_of_cons in Hc. destruct Hc as [->|[->|[->|Hc]]]; [exact I..|]. by apply elem_of_nil in Hc.
  - intros j sj o op k _ Hsj Hp Ht. pose proof (in_progress_inv _ _ _ j sj o op H1 Hsj Hp) as Hin. clear -Hin Hcl Hnth Ht. rewrite (Hcl _ _ Hin) in Ht |- *.
    destruct (Hnth (Nat.pred (Pos.to_nat o))) as [E|Hc]; [rewrite E in Ht; destruct Ht|]. exists (nth (Nat.pred (Pos.to_nat o)) (map_par_extend pcL) MIsEmpty). split; [exact Hc|reflexivity].
  - clear. assert (forall o, ~ finished (@init NM) o) as Hnf. { intros o [(? & ? & E)|E]; simpl in E; by rewrite lookup_empty in E. }
    assert (forall o n, match cevs 400 cs !! n with Some (ERet o' r) => Some o' | _ => None end = Some o -> exists r, ERet o r ∈ cevs 400 cs) as Hret.
    { clear. generalize (cevs 400 cs). intros ev o n H. destruct (ev !! n) as [[|o' r| |]|] eqn:E; try discriminate H. injection H as Ho. subst o'. exists r. exact (elem_of_nth _ _ _ E). }
    intros c Hc. unfold map_par_extend, pcL in Hc. cbn [map] in Hc. rewrite !elem_of_cons in Hc. destruct Hc as [->|[->|[->|Hc]]]; [| | |clear -Hc; by apply elem_of_nil in Hc].
    + destruct (Hret 1%positive 3) as [r Hr]; [vm_compute; reflexivity|]. exists 1%positive, r. split; [|split; [exact Hr|apply Hnf]]. apply (elem_of_nth 0). vm_compute. reflexivity.
    + destruct (Hret 2%positive 4) as [r Hr]; [vm_compute; reflexivity|]. exists 2%positive, r. split; [|split; [exact Hr|apply Hnf]]. apply (elem_of_nth 1). vm_compute. reflexivity.
    + destruct (Hret 3%positive 5) as [r Hr]; [vm_compute; reflexivity|]. exists 3%positive, r. split; [|split; [exact Hr|apply Hnf]]. apply (elem_of_nth 2). vm_compute. reflexivity.
Qed.
