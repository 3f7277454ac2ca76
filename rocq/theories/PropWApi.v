(** * C61: the containers, with the C11 axioms. *)
From Verif Require Import Model Mem Spec LinSpec LinProps Shape Iter IterSpec IterSys Api ApiSpec PropApi Weak WeakInv WeakStep WeakSys WeakRun Inv WeakCoh WeakWalk WeakTime WeakBase WeakLin PropWeak Concrete PropCoh WeakFree FreeSim FreeStep FreeInv FreeRun PropFree Rc11 Rc11Sim Rc11Conv PropRc11 WeakShape PropWRace WApiSpec.

Section apilemmas.
Context {C : Config} {HC : ConfigOk C}.

Lemma cstep_inv_ev w (s0 : cstate) (lb : clabel) (s1 : cstate) (ev1 : list event) o op : cstep w s0 lb = Some (s1, ev1) -> EInv o op ∈ ev1 -> exists ps, lb = CInv o op ps.
Proof.
  intros E1 Hin. destruct lb as [o' op' ps|o' n spur a]; cbn [cstep] in E1.
  - destruct (forallb _ _); [|done]. destruct (wstep w (c_w s0) (WInv o' op')) as [[s3 ev3]|] eqn:E3; [|done]. injection E1 as <- <-. cbn [wstep] in E3.
    destruct (w_ops (c_w s0) !! o'); [done|]. injection E3 as <- <-. apply elem_of_list_singleton in Hin. injection Hin as -> ->. by exists ps.
  - exfalso. destruct (wstep w (c_w s0) (WStep o' n spur a)) as [[s3 ev3]|] eqn:E3; [|done].
    assert (EInv o op ∈ ev3) as Hin3. { destruct (next_cell w (c_w s0) o'); [|by injection E1 as <- <-]. destruct (_ <? _); [done|]. by injection E1 as <- <-. }
    assert (forall s1 m0 op0 tv pv p, w_local s1 o' op0 tv pv m0 p spur a = Some (s3, ev3) -> False) as Hloc.
    { intros s1' m0 op0 tv pv p. unfold w_local. destruct (see_step tv pv m0 p spur a) as [[[m1 nx] acts]|]; [|done]. intros [= <- <-]. unfold nx_events in Hin3. apply elem_of_app in Hin3 as [Hx|Hx].
      - apply elem_of_list_fmap in Hx as (y & Hy & _). by destruct y.
      - destruct nx; try (by apply elem_of_nil in Hx). by apply elem_of_list_singleton in Hx. }
    assert (forall s1 op0 tv pv c od p, w_write s1 o' op0 tv pv c od p spur a = Some (s3, ev3) -> False) as Hwr.
    { intros s1' op0 tv pv c od p. unfold w_write. destruct (see_step tv pv (w_mem s1') p spur a) as [[[m1 nx] acts]|]; [|done]. intros [= <- <-]. unfold nx_events in Hin3. apply elem_of_app in Hin3 as [Hx|Hx].
      - apply elem_of_list_fmap in Hx as (y & Hy & _). by destruct y.
      - destruct nx; try (by apply elem_of_nil in Hx). by apply elem_of_list_singleton in Hx. }
    cbn [wstep] in E3. destruct (w_ops (c_w s0) !! o') as [[[op0 p|op0 r|op0 f|] tv pv]|]; try done. destruct (access w p) as [[[c kd] ord]|]; [|by eapply Hloc].
    destruct (negb (base_seen tv pv c)); [injection E3 as <- <-; by apply elem_of_nil in Hin3|]. destruct (w_hist (c_w s0) c) as [|h0 h]; [injection E3 as <- <-; by apply elem_of_nil in Hin3|].
    destruct ((h0 :: h) !! n) as [[v W]|]; [|done]. destruct kd; [by eapply Hloc|by eapply Hloc| |].
    + destruct (bool_decide _); [|done]. by eapply Hwr.
    + destruct (bool_decide _ && _); [by eapply Hwr|]. destruct (cas_wins _ _ _); [done|]. by eapply Hloc.
Qed.
Lemma inv_label w (ls : list clabel) (s : cstate) (ev : list event) o op : cexec w ls s ev -> EInv o op ∈ ev -> exists ps, CInv o op ps ∈ ls.
Proof.
  unfold cexec. generalize cinit. revert ev. induction ls as [|lb ls IH]; intros ev s0 Hr Hin; cbn [crun] in Hr; [injection Hr as <- <-; by apply elem_of_nil in Hin|].
  destruct (cstep w s0 lb) as [[s1 ev1]|] eqn:E1; [|done]. destruct (crun w s1 ls) as [[s2 ev2]|] eqn:E2; [|done]. injection Hr as <- <-. apply elem_of_app in Hin as [Hin|Hin]; [|destruct (IH _ _ E2 Hin) as [ps Hp]; exists ps; by right].
  destruct (cstep_inv_ev w s0 lb s1 ev1 o op E1 Hin) as [ps ->]. exists ps. by left.
Qed.
Lemma inv_glabel ls s ev o op : wf_gcalls ls -> allowed code_orders ls s ev -> EInv o op ∈ ev -> exists ps ds, GInv o op ps ds ∈ ls.
Proof.
  intros Hwf Ha Hi. destruct (C57_unobservable _ _ _ Hwf Ha) as (ls' & s' & He & _ & Hls). destruct (inv_label _ _ _ _ _ _ He Hi) as [ps Hp]. exists ps. by apply Hls.
Qed.

Section generic.
Context {A R St : Type} (raw : A -> oper) (view : A -> res -> R) (about : A -> Key -> Prop) (iterates : A -> Prop) (look : Key -> A) (answer : Key -> option Pl -> R)
  (spec : St -> A -> R -> St -> Prop) (cl : opid -> A) (abs : amap -> St) (sound : amap -> Prop) (aview : A -> aret -> R).
Lemma api_order ls s ev k :
  (forall c r x, val_of r = Some x -> r_shape (raw c) r -> view c r = aview c x) ->
  (forall c, about c k <-> concerns (raw c) k) -> (forall c, iterates c <-> raw c = OIter) -> raw (look k) = OGet k -> (forall x, answer k x = aview (look k) (AOpt x)) ->
  (forall a c x a', sound a -> op_wf (raw c) -> ((exists o, c = cl o) \/ c = look k) -> spec_step a (raw c) x a' -> sound a' /\ spec (abs a) c (aview c x) (abs a')) ->
  sound aempty ->
  wf_gcalls ls -> allowed code_orders ls s ev -> gclient raw cl ls ->
  exists l, api_key_order raw view about iterates look answer spec cl k l (abs aempty) (gcalls ls) ev.
Proof.
  intros Hview Hab Hit Hlk Han Hstep H0 Hwf Ha Hcl. destruct (C57_key_order _ _ _ k Hwf Ha) as [l [K1 K2 K3 K4 K5 [a K6] K7]]. pose proof (told_g _ _ _ Hwf Ha) as [T1 T2 T3 T4].
  assert (forall o op, EInv o op ∈ ev -> op = raw (cl o)) as Hop by (intros o op Hi; destruct (inv_glabel _ _ _ _ _ Hwf Ha Hi) as (ps & ds & Hg); by eapply Hcl).
  (* an iteration is listed as a lookup *)
  assert (exists g : entry -> A, forall e, e ∈ l -> e_op e = raw (g e) /\ EInv (e_id e) (raw (cl (e_id e))) ∈ ev /\ (g e = cl (e_id e) /\ concerns (raw (g e)) k \/ raw (cl (e_id e)) = OIter /\ g e = look k)) as [g Hg].
  { exists (fun e => match raw (cl (e_id e)) with OIter => look k | _ => cl (e_id e) end). intros e He. destruct (K2 _ He) as [[Hi Hc]|[Hi E]].
    - pose proof (Hop _ _ Hi) as Eo. rewrite Eo in Hi. split; [|split; [done|]]; destruct (raw (cl (e_id e))) eqn:Er; try (by rewrite Eo, ?Er); try (left; split; [done|]; rewrite Er; rewrite <-Eo; done).
      all: by rewrite Eo in Hc.
    - pose proof (Hop _ _ Hi) as Eo. rewrite <-Eo. split; [by rewrite E, Hlk|]. split; [done|]. by right. }
  set (f := fun e : entry => CCall (e_id e) (g e) (aview (g e) (e_ret e))).
  assert (forall l, cc_id <$> (f <$> l) = e_id <$> l) as Eid by (intros l'; rewrite <-list_fmap_compose; done).
  assert (forall o op x, Entry o op x ∈ l -> op = raw (cl o) -> op <> OIter -> CCall o (cl o) (aview (cl o) x) ∈ (f <$> l)) as Hin.
  { intros o op x He Eo Hni. destruct (Hg _ He) as (Eo' & _ & [[Eg _]|[Hi _]]); cbn [e_id e_op] in *; [|by rewrite Eo in Hni]. apply elem_of_list_fmap. exists (Entry o op x). split; [|done]. unfold f. cbn [e_id e_ret]. by rewrite Eg. }
  assert (forall o x, Entry o (OGet k) (AOpt x) ∈ l -> raw (cl o) = OIter -> CCall o (look k) (answer k x) ∈ (f <$> l)) as Hlook.
  { intros o x He Ei. destruct (Hg _ He) as (Eo' & _ & [[Eg Hc]|[_ Eg]]); cbn [e_id e_op] in *; [rewrite Eg, Ei in Hc; done|]. apply elem_of_list_fmap. exists (Entry o (OGet k) (AOpt x)). split; [|done]. unfold f. cbn [e_id e_ret].
    by rewrite Eg, Han. }
  exists (f <$> l). split.
  - by rewrite Eid.
  - intros e (e0 & -> & He)%elem_of_list_fmap. destruct (Hg _ He) as (Eo & Hi & Hd). unfold f. cbn [cc_id cc_call]. split; [done|]. destruct Hd as [[Eg Hc]|[Ei Eg]]; [left; split; [done|by apply Hab]|right; split; [by apply Hit|done]].
  - intros o r Hr Hc Hnf. destruct (T3 _ _ Hr) as (op & Hi & Hsh & _). pose proof (Hop _ _ Hi) as ->. apply Hab in Hc.
    assert (exists v, val_of r = Some v /\ v <> ABool false) as (v & Hv & Hnv).
    { destruct r as [x|x|b|ys]; [by eexists|by eexists| |]; [exists (ABool b); split; [done|]; intros [= ->]; done|]. by destruct (raw (cl o)). }
    rewrite (Hview _ _ _ Hv Hsh). eapply Hin; [by eapply K3|done|]. intros E. by rewrite E in Hc.
  - intros o r Hi Hy Hk. apply Hit in Hi. assert (EInv o OIter ∈ ev) as Hio. { destruct (T4 _ _ Hy) as [op Hio]. rewrite <-Hi, <-(Hop _ _ Hio). done. }
    apply Hlook; [|done]. by apply K4.
  - intros o r Hi Hr Hn. apply Hit in Hi. destruct (T3 _ _ Hr) as (op & Hio & Hsh & _). pose proof (Hop _ _ Hio) as ->. rewrite Hi in Hsh, Hio. destruct r as [| | |ys]; try done. apply Hlook; [|done]. by eapply K5.
  - assert (forall l a0, (forall e, e ∈ l -> e_op e = raw (g e) /\ op_wf (e_op e) /\ ((exists o, g e = cl o) \/ g e = look k)) -> sound a0 -> spec_run a0 l a -> exists b, capi_run spec (abs a0) (f <$> l) (abs b)) as Hrun.
    { clear -Hstep. intros l. induction l as [|e l IH]; intros a0 Hg H0 Hr; simpl in Hr; [by exists a0|]. destruct Hr as (b & Hs & Hr). destruct (Hg e) as (E1 & E2 & E3); [by left|]. rewrite E1 in Hs, E2.
      destruct (Hstep _ _ _ _ H0 E2 E3 Hs) as [Hb Hs']. destruct (IH b) as [c Hc]; [intros e' He'; apply Hg; by right|done|done|]. exists c. cbn [fmap list_fmap capi_run]. by exists (abs b). }
    destruct (Hrun l aempty) as [b Hb]; [|done|done|by exists (abs b)]. intros e He. destruct (Hg _ He) as (E1 & E2 & E3). split; [done|]. split; [rewrite E1; destruct E3 as [[Eg _]|[_ Eg]]; rewrite Eg|destruct E3 as [[Eg _]|[_ Eg]]; [left; by eexists|by right]].
    + by eapply T1.
    + by rewrite Hlk.
  - rewrite Eid. intros o1 o2 H1 H2 Hh. destruct (K7 _ _ H1 H2 Hh) as (l1 & l2 & e1 & e2 & -> & He1 & He2 & <- & <-). exists (f <$> l1), (f <$> l2). rewrite fmap_app. split; [done|]. rewrite !Eid. split; apply elem_of_list_fmap; by eexists.
Qed.
End generic.
End apilemmas.

(** ** ConMap *)
Section conmap.
Context {K V : Type} (eqb : K -> K -> bool) (hash : K -> N).
Notation MC := (map_config K V eqb hash).
Lemma map_step (HC : @ConfigOk MC) (a : @amap MC) (c : map_call K V) x (a' : @amap MC) : map_proper eqb c -> @spec_step MC a (map_raw eqb hash c) x a' -> map_spec eqb a c (map_aview eqb hash c x) a'.
Proof.
  intros Hp Hs. destruct c; cbn [map_raw map_with] in Hs; unfold spec_step in Hs; destruct x as [x|x|b]; try done; unfold map_spec, map_aview, p_get_or_insert.
  all: try exact Hs.
  all: destruct x as [x|x]; [exact Hs|]; destruct Hs as (H1 & H2 & H3); (split; [exact H1|]); (split; [exact H2|]); subst x; intros k'; rewrite (H3 k'); try done.
  simpl in Hp. simpl. destruct (eqb (el_key (arc_val (create k))) k') eqn:E1, (eqb k k') eqn:E2; try done; exfalso.
  - assert (eqb k k' = true) as E by (refine (@keqb_trans MC HC _ _ _ _ E1); exact (eq_trans (@keqb_sym MC HC _ _) Hp)). congruence.
  - assert (eqb (el_key (arc_val (create k))) k' = true) as E by exact (@keqb_trans MC HC _ _ _ Hp E2). congruence.
Qed.
(** With the C11 axioms and the orderings of the code: for every key, the calls of the methods of a ConMap about this key, and each iteration as one lookup of it, can be put into one order, the same
    for all threads, that respects happens-before and in which they behave as on a plain map from keys to element handles. *)
Theorem C61_ConMap : @ConfigOk MC -> forall ls s ev (cl : opid -> map_call K V) (k : K), @allowed MC code_orders ls s ev -> gclient (map_raw eqb hash) cl ls -> (forall o, map_proper eqb (cl o)) ->
  exists l, api_key_order (C:=MC) (map_raw eqb hash) (fun _ => map_view) (map_about eqb) map_iterates MGet (fun _ => MROpt) (map_spec eqb) cl k l (fun _ => None) (gcalls ls) ev.
Proof.
  intros HC ls s ev cl k Ha Hcl Hpr.
  assert (@wf_gcalls MC ls) as Hw.
  { intros o op ps ds Hin. rewrite (Hcl _ _ _ _ Hin). specialize (Hpr o). destruct (cl o); simpl; try done; apply (@keqb_refl MC HC). }
  eapply (@api_order MC HC _ _ _ (map_raw eqb hash) (fun _ => map_view) (map_about eqb) map_iterates MGet (fun _ => MROpt) (map_spec eqb) cl (fun a => a) (fun _ => True) (map_aview eqb hash) ls s ev k); try done.
  - intros c [x|x|x|x] y [= <-] _; simpl; [by destruct x|done..].
  - intros []; done.
  - intros []; done.
  - intros a c x a' _ _ Hc Hs. split; [done|]. apply (map_step HC); [|done]. destruct Hc as [[o ->]| ->]; [apply Hpr|done].
Qed.
End conmap.

(** ** CloneConMap *)
Section clonemap.
Context {K V : Type} (eqb : K -> K -> bool) (hash : K -> N).
Notation KC := (clone_config K V eqb hash).
(** ... for CloneConMap: a plain map from keys to pairs. *)
Theorem C61_CloneConMap : @ConfigOk KC -> forall ls s ev (cl : opid -> clone_call K V) (k : K), @allowed KC code_orders ls s ev -> gclient (clone_raw eqb hash) cl ls ->
  exists l, api_key_order (C:=KC) (clone_raw eqb hash) (fun _ => clone_view eqb) (clone_about eqb) clone_iterates KGet (fun _ => KROpt) (clone_spec eqb) cl k l (fun _ => None) (gcalls ls) ev.
Proof.
  intros HC ls s ev cl k Ha Hcl.
  assert (@wf_gcalls KC ls) as Hw.
  { intros o op ps ds Hin. rewrite (Hcl _ _ _ _ Hin). destruct (cl o); simpl; try done; apply (@keqb_refl KC HC). }
  eapply (@api_order KC HC _ _ _ (clone_raw eqb hash) (fun _ => clone_view eqb) (clone_about eqb) clone_iterates KGet (fun _ => KROpt) (clone_spec eqb) cl (fun a => a) (fun _ => True) (clone_aview eqb hash) ls s ev k); try done.
  - intros c [x|x|x|x] y [= <-] _; simpl; [by destruct x|done..].
  - intros []; done.
  - intros []; done.
  - intros a c x a' _ _ _ Hs. split; [done|]. destruct c; cbn [clone_raw clone_with] in Hs; unfold spec_step in Hs; destruct x as [x|x|b]; try done; unfold clone_spec, clone_aview, p_get_or_insert.
    all: try exact Hs.
    all: destruct x as [x|x]; [exact Hs|]; destruct Hs as (H1 & H2 & H3); (split; [exact H1|]); (split; [exact H2|]); subst x; exact H3.
Qed.
End clonemap.

(** ** ConSet *)
Section conset.
Context {T : Type} (eqb : T -> T -> bool) (hash : T -> N).
Notation SC := (set_config T eqb hash).
Lemma set_step (HC : @ConfigOk SC) (a : @amap SC) c x (a' : @amap SC) : set_good eqb hash a -> @spec_step SC a (set_raw eqb hash c) x a' ->
  set_good eqb hash a' /\ set_spec eqb (set_abs eqb hash a) c (set_aview eqb hash c x) (set_abs eqb hash a').
Proof.
  assert (forall x y, eqb x y = eqb y x) as Hsym by apply (@keqb_sym SC HC). assert (forall x, eqb x x = true) as Hrefl by apply (@keqb_refl SC HC).
  assert (forall x y z, eqb x y = true -> eqb y z = true -> eqb x z = true) as Htr by apply (@keqb_trans SC HC).
  assert (forall q k k', eqb k k' = true -> eqb q k = eqb q k') as Hcong.
  { intros q k k' H. destruct (eqb q k) eqn:E1, (eqb q k') eqn:E2; try done; exfalso.
    - rewrite (Htr _ _ _ E1 H) in E2. done.
    - rewrite Hsym in H. rewrite (Htr _ _ _ E2 H) in E1. done. }
  intros Hg Hs.
  assert (forall q x, x = a q -> ApiSpec.found eqb (set_abs eqb hash a) q x) as Hfd by (intros q x' ->; by apply set_found).
  destruct c; simpl in Hs; unfold spec_step in Hs; destruct x as [x|x|b]; try done; destruct Hs as [Hx' Hs].
  + split.
    * destruct Hg as [G1 G2]. split.
      -- intros k k' H. rewrite (Hs k), (Hs k'). simpl. rewrite (Hcong v _ _ H). destruct (eqb v k'); [done|]. by apply G1.
      -- intros k p. rewrite (Hs k). simpl. destruct (eqb v k) eqn:E; [by intros [= <-]|apply G2].
    * split; [by apply Hfd|]. intros y. unfold set_abs. rewrite (Hs y), (Hsym y v). simpl. destruct (eqb v y) eqn:E.
      -- split; [by intros [= <-]; left|]. intros [->|[_ ?]]; done.
      -- split; [by right|]. intros [->|[? _]]; [by rewrite Hrefl in E|done].
  + destruct (set_same _ _ _ _ Hs Hg) as [Hg' Habs]. split; [done|]. split; [by apply Hfd|done].
  + destruct (set_same _ _ _ _ Hs Hg) as [Hg' Habs]. split; [done|]. split; [|done].
    pose proof (Hfd q x Hx') as H. unfold ApiSpec.found in H. destruct x as [y|].
    * split; [by exists y|done].
    * split; [done|]. intros (y & Hy & E). by rewrite H in E.
  + split.
    * destruct Hg as [G1 G2]. split.
      -- intros k k' H. rewrite (Hs k), (Hs k'). simpl. rewrite (Hcong q _ _ H). destruct (eqb q k'); [done|]. by apply G1.
      -- intros k p. rewrite (Hs k). simpl. destruct (eqb q k) eqn:E; [done|apply G2].
    * split; [by apply Hfd|]. intros y. unfold set_abs. rewrite (Hs y), (Hsym y q). simpl. by destruct (eqb q y); naive_solver.
  + destruct (set_same _ _ _ _ Hs Hg) as [Hg' Habs]. split; [done|]. split; [|done].
    intros Hb y. unfold set_abs. rewrite (Hx' Hb). done.
Qed.
(** ... and for ConSet: a plain set. *)
Theorem C61_ConSet : @ConfigOk SC -> forall ls s ev (cl : opid -> set_call T) (k : T), @allowed SC code_orders ls s ev -> gclient (set_raw eqb hash) cl ls ->
  exists l S0, (forall y, ~ S0 y) /\ api_key_order (C:=SC) (set_raw eqb hash) set_view (set_about eqb) set_iterates SGet (fun _ => SROpt) (set_spec eqb) cl k l S0 (gcalls ls) ev.
Proof.
  intros HC ls s ev cl k Ha Hcl.
  assert (@wf_gcalls SC ls) as Hw by (intros o op ps ds Hin; rewrite (Hcl _ _ _ _ Hin); by destruct (cl o)).
  destruct (@api_order SC HC _ _ _ (set_raw eqb hash) set_view (set_about eqb) set_iterates SGet (fun _ => SROpt) (set_spec eqb) cl (set_abs eqb hash) (set_good eqb hash) (set_aview eqb hash) ls s ev k) as [l Hl]; try done.
  - intros [] [x|x|x|x] y [= <-] Hsh; simpl in Hsh |- *; try done. by destruct x.
  - intros []; done.
  - intros []; done.
  - intros a c x a' Hg _ _ Hs. by apply set_step.
  - exists l, (set_abs eqb hash aempty). split; [|done]. intros y. unfold set_abs. done.
Qed.
End conset.

(** ** extend, from_iter and clone *)
Section extend.
Context {C : Config} {HC : ConfigOk C}.

Lemma to_c ls s ev : wf_gcalls ls -> allowed code_orders ls s ev -> exists (ls' : list clabel) (s' : cstate), cexec code_orders ls' s' ev /\ wf_ccalls ls' /\ forall o1 o2, hb ls' o1 o2 <-> hb (gcalls ls) o1 o2.
Proof.
  intros Hwf Ha. destruct (C57_unobservable _ _ _ Hwf Ha) as (ls' & s' & He & Hw & Hls). exists ls', s'. split; [done|]. split; [done|].
  assert (same_inv ls' (gcalls ls)) as Hs.
  { intros o op ps. rewrite Hls. unfold gcalls. rewrite elem_of_list_omap. split.
    - intros [ds Hin]. by exists (GInv o op ps ds).
    - intros (lb & Hin & E). destruct lb as [o' op' ps' ds| | | | |]; try discriminate E. injection E as -> -> ->. by exists ds. }
  intros o1 o2. split; apply hb_same; [done|]. intros o op ps. by rewrite (Hs o op ps).
Qed.

Lemma last_index (L : list Pl) k p : last_with L k = Some p -> exists i, L !! i = Some p /\ keqb (keyof p) k = true /\ forall j q, i < j -> L !! j = Some q -> keqb (keyof q) k = false.
Proof.
  induction L as [|q L IH]; [done|]. unfold last_with in *. cbn [rev]. rewrite find_app. destruct (List.find _ (rev L)) as [p'|] eqn:E.
  - intros [= ->]. destruct (IH eq_refl) as (i & Hi & Hk & Hx). exists (S i). split; [done|]. split; [done|]. intros [|j] q' Hj Hq; [lia|]. eapply Hx; [|exact Hq]. lia.
  - simpl. destruct (keqb (keyof q) k) eqn:Eq; [|done]. intros [= <-]. exists 0. split; [done|]. split; [done|]. intros [|j] q' Hj Hq; [lia|]. simpl in Hq. apply elem_of_list_lookup_2, elem_of_list_In in Hq. rewrite in_rev in Hq. by apply (find_none _ _ E).
Qed.
Lemma last_none (L : list Pl) k p : last_with L k = None -> p ∈ L -> keqb (keyof p) k = false.
Proof. unfold last_with. intros E Hin. apply elem_of_list_In in Hin. rewrite in_rev in Hin. by apply (find_none _ _ E). Qed.

(** The call of the list that has inserted the last element with key [k]; the others happen before it or do not touch the key. *)
Lemma extends_last ls ev os L k p : extends ls ev os L -> last_with L k = Some p -> (forall o op op', EInv o op ∈ ev -> EInv o op' ∈ ev -> op = op') ->
  exists oi old, oi ∈ os /\ EInv oi (OInsert p) ∈ ev /\ ERet oi (ROpt old) ∈ ev /\ keqb (keyof p) k = true /\
    forall o op, o ∈ os -> EInv o op ∈ ev -> modifies op k -> o = oi \/ hb ls o oi.
Proof.
  intros [Hf Hh] Hl Hone. destruct (last_index _ _ _ Hl) as (i & Hi & Hk & Hx). destruct (Forall2_lookup_r _ _ _ _ _ Hf Hi) as (oi & Hoi & Hin & old & Hret). exists oi, old.
  split; [by eapply elem_of_list_lookup_2|]. split; [done|]. split; [done|]. split; [done|]. intros o op Ho Hio Hm. apply elem_of_list_lookup in Ho as [j Hj]. destruct (Forall2_lookup_l _ _ _ _ _ Hf Hj) as (q & Hq & Hiq & _).
  rewrite (Hone _ _ _ Hio Hiq) in Hm. simpl in Hm. destruct (lt_eq_lt_dec j i) as [[Hlt| ->]|Hlt]; [right; by eapply Hh|left; congruence|]. by rewrite (Hx _ _ Hlt Hq) in Hm.
Qed.

(** A thread inserts the elements of [L] one after the other.  Who looks for a key afterwards finds the last element of the list with this key, unless somebody else has changed the key meanwhile. *)
Theorem C61_extend ls s ev os (L : list Pl) k p og r : wf_gcalls ls -> allowed code_orders ls s ev -> extends (gcalls ls) ev os L -> last_with L k = Some p ->
  EInv og (OGet k) ∈ ev -> ERet og (ROpt r) ∈ ev -> (forall o, o ∈ os -> hb (gcalls ls) o og) ->
  (forall o op, EInv o op ∈ ev -> modifies op k -> o ∈ os \/ (forall o', o' ∈ os -> hb (gcalls ls) o o') \/ hb (gcalls ls) og o) ->
  rr_val <$> r = Some p.
Proof.
  intros Hwf Ha He Hl Hig Hrg Hag Hm. pose proof (told_g _ _ _ Hwf Ha) as Ht. destruct (extends_last _ _ _ _ _ _ He Hl (td_one _ _ Ht)) as (oi & old & Hos & Hi & Hr & Hk & Hx).
  destruct (to_c _ _ _ Hwf Ha) as (ls' & s' & Hc & Hwc & Hhb). eapply (C43_reads_what_was_written ls' s' ev k p oi og old r); try done; [apply Hhb; by apply Hag|].
  intros o op Hio Hmd. rewrite !Hhb. destruct (Hm _ _ Hio Hmd) as [Ho|[Ho|Ho]]; [destruct (Hx _ _ Ho Hio Hmd); tauto|right; left; by apply Ho|tauto].
Qed.

Lemma get_untouched ls s ev k og r : wf_gcalls ls -> allowed code_orders ls s ev -> EInv og (OGet k) ∈ ev -> ERet og (ROpt r) ∈ ev ->
  (forall o op, EInv o op ∈ ev -> modifies op k -> hb (gcalls ls) og o) -> r = None.
Proof.
  intros Hwf Ha Hi Hr Hm. destruct r as [x|]; [|done]. exfalso. destruct (C60_found_was_put ls s ev k og (OGet k) (ROpt (Some x)) x Hwf Ha Hi (keqb_refl _) Hr eq_refl) as (Hk & o' & _ & Hp & Hn). apply Hn.
  destruct Hp as [Hp|(k' & f & Hp & Ep & _)]; [eapply Hm; [exact Hp|exact Hk]|]. eapply Hm; [exact Hp|]. simpl. pose proof (td_wf _ _ (told_g _ _ _ Hwf Ha) _ _ Hp) as Hw. simpl in Hw. rewrite Ep in Hk.
  eapply keqb_trans; [|exact Hk]. by rewrite keqb_sym.
Qed.

(** In a new map, it finds exactly the last element of the list with this key, if there is one. *)
Theorem C61_from_iter ls s ev os (L : list Pl) k og r : wf_gcalls ls -> allowed code_orders ls s ev -> extends (gcalls ls) ev os L ->
  EInv og (OGet k) ∈ ev -> ERet og (ROpt r) ∈ ev -> (forall o, o ∈ os -> hb (gcalls ls) o og) ->
  (forall o op, EInv o op ∈ ev -> modifies op k -> o ∈ os \/ hb (gcalls ls) og o) ->
  rr_val <$> r = last_with L k.
Proof.
  intros Hwf Ha He Hig Hrg Hag Hm. destruct (last_with L k) as [p|] eqn:El.
  - eapply C61_extend; try done. intros o op Hi Hmd. destruct (Hm _ _ Hi Hmd); tauto.
  - rewrite (get_untouched ls s ev k og r Hwf Ha Hig Hrg); [done|]. intros o op Hi Hmd. destruct (Hm _ _ Hi Hmd) as [Ho|]; [|done]. exfalso. destruct He as [Hf _]. apply elem_of_list_lookup in Ho as [j Hj].
    destruct (Forall2_lookup_l _ _ _ _ _ Hf Hj) as (q & Hq & Hiq & _). rewrite (td_one _ _ (told_g _ _ _ Hwf Ha) _ _ _ Hi Hiq) in Hmd. simpl in Hmd. rewrite (last_none _ _ _ El) in Hmd; [done|by eapply elem_of_list_lookup_2].
Qed.

(** And an iteration afterwards yields exactly the last elements of each key. *)
Theorem C61_from_iter_iterate ls s ev os (L : list Pl) o ys : wf_gcalls ls -> allowed code_orders ls s ev -> extends (gcalls ls) ev os L ->
  EInv o OIter ∈ ev -> ERet o (RIter ys) ∈ ev -> (forall o', o' ∈ os -> hb (gcalls ls) o' o) ->
  (forall o' op k, EInv o' op ∈ ev -> modifies op k -> o' ∈ os \/ hb (gcalls ls) o o') ->
  distinct_keys (rr_val <$> yields_of ev o) /\ forall p, p ∈ rr_val <$> yields_of ev o <-> last_with L (keyof p) = Some p.
Proof.
  intros Hwf Ha He Hi Hr Hag Hm. pose proof (told_g _ _ _ Hwf Ha) as Ht. destruct (to_c _ _ _ Hwf Ha) as (ls' & s' & Hc & Hwc & Hhb).
  assert (forall p, p ∈ rr_val <$> yields_of ev o <-> exists r, EYield o r ∈ ev /\ rr_val r = p) as Hy.
  { intros p. unfold yields_of. rewrite elem_of_list_fmap. setoid_rewrite elem_of_list_omap. split.
    - intros (r & -> & e & Hin & E). exists r. destruct e as [| | |o' r']; try discriminate E. destruct (decide (o' = o)) as [->|]; [|discriminate E]. injection E as ->. done.
    - intros (r & Hin & <-). exists r. split; [done|]. exists (EYield o r). split; [done|]. simpl. by rewrite decide_True. }
  assert (forall k p, last_with L k = Some p -> exists r, EYield o r ∈ ev /\ rr_val r = p) as Hyl.
  { intros k p Hl. destruct (extends_last _ _ _ _ _ _ He Hl (td_one _ _ Ht)) as (oi & old & Hos & Hio & Hro & Hk & Hx).
    eapply (C45_yields_what_is_there ls' s' ev p oi o old ys); try done; [apply Hhb; by apply Hag|]. intros o' op Hio' Hmd. rewrite !Hhb. destruct (Hm _ _ _ Hio' Hmd) as [Ho|Ho]; [|tauto].
    destruct (Hx o' op Ho Hio'); [|tauto..]. destruct op; simpl in Hmd |- *; try done; by eapply keqb_trans. }
  assert (distinct_keys (rr_val <$> yields_of ev o)) as Hdk by (by eapply (C45_no_duplicates ls' s' ev)). split; [done|]. intros p. rewrite Hy. split; [|apply Hyl].
  intros (r & Hyr & <-). destruct (last_with L (keyof (rr_val r))) as [q|] eqn:El.
  - destruct (Hyl _ _ El) as (r' & Hy' & <-). f_equal. destruct (last_index _ _ _ El) as (_ & _ & Hk & _).
    assert (rr_val r ∈ rr_val <$> yields_of ev o) as H1 by (apply Hy; by exists r). assert (rr_val r' ∈ rr_val <$> yields_of ev o) as H2 by (apply Hy; by exists r').
    apply elem_of_list_lookup in H1 as [i1 H1], H2 as [i2 H2]. assert (i1 = i2) as -> by (eapply Hdk; [done|done|by rewrite keqb_sym]). congruence.
  - exfalso. destruct (C45_yields_only_what_was_put ls' s' ev o r Hwc Hc Hi Hyr) as (oi & op & Hio & Hp & Hnh). rewrite Hhb in Hnh.
    assert (modifies op (keyof (rr_val r))) as Hmd. { destruct op as [q|k f| | | |]; try done; simpl in Hp |- *; [subst q; apply keqb_refl|]. pose proof (td_wf _ _ Ht _ _ Hio) as Hw. simpl in Hw. rewrite <-Hp. by rewrite keqb_sym. }
    destruct (Hm _ _ _ Hio Hmd) as [Ho|Ho]; [|done]. destruct He as [Hf _]. apply elem_of_list_lookup in Ho as [j Hj]. destruct (Forall2_lookup_l _ _ _ _ _ Hf Hj) as (q & Hq & Hiq & _).
    rewrite (td_one _ _ Ht _ _ _ Hio Hiq) in Hmd. simpl in Hmd. rewrite (last_none _ _ _ El) in Hmd; [done|by eapply elem_of_list_lookup_2].
Qed.

(** Clone.  An iteration [o] of map A came to its end (A may be modified meanwhile); what it yielded is inserted into a new map B, one after the other; then [og] looks for [k] in B.  It finds what
    the iteration has found under [k] in A, seen as one lookup of [k] in the order of the calls on A. *)
Theorem C61_clone lsA sA evA o ys lsB sB evB os k og r : wf_gcalls lsA -> allowed code_orders lsA sA evA -> EInv o OIter ∈ evA -> ERet o (RIter ys) ∈ evA ->
  wf_gcalls lsB -> allowed code_orders lsB sB evB -> extends (gcalls lsB) evB os (rr_val <$> yields_of evA o) ->
  EInv og (OGet k) ∈ evB -> ERet og (ROpt r) ∈ evB -> (forall o', o' ∈ os -> hb (gcalls lsB) o' og) ->
  (forall o' op, EInv o' op ∈ evB -> modifies op k -> o' ∈ os \/ hb (gcalls lsB) og o') ->
  exists l, key_order k l (gcalls lsA) evA /\ Entry o (OGet k) (AOpt (rr_val <$> r)) ∈ l.
Proof.
  intros HwA HA Hi Hr HwB HB He Hig Hrg Hag Hm. rewrite (C61_from_iter lsB sB evB os _ k og r HwB HB He Hig Hrg Hag Hm). destruct (C57_key_order _ _ _ k HwA HA) as [l Hl]. exists l. split; [done|].
  destruct (last_with _ k) as [p|] eqn:El.
  - destruct (last_index _ _ _ El) as (i & Hp & Hk & _). apply elem_of_list_lookup_2, elem_of_list_fmap in Hp as (y & -> & Hy). apply (ko_yield _ _ _ _ Hl); [done| |done].
    unfold yields_of in Hy. apply elem_of_list_omap in Hy as (e & Hin & E). destruct e as [| | |o' r']; try discriminate E. destruct (decide (o' = o)) as [->|]; [|discriminate E]. by injection E as ->.
  - eapply (ko_end _ _ _ _ Hl); [done|done|]. intros y Hy. eapply last_none; [exact El|]. apply elem_of_list_fmap. exists y. split; [done|]. unfold yields_of. apply elem_of_list_omap. exists (EYield o y). split; [done|]. by rewrite decide_True.
Qed.
End extend.

(** ** Executions *)
(* Scripts for any configuration: call; run to the end, reading the newest values; one step, reading the [n]-th value. *)
Inductive xcmd {C : Config} := XI (o : opid) (op : oper) (ps : list opid) | XR (o : opid) | XO (o : opid) (n : nat).
Section script.
Context {C : Config}.
Definition xstepl (x : cstate * list clabel) (lb : clabel) : option (cstate * list clabel) := match cstep code_orders x.1 lb with Some (s', _) => Some (s', x.2 ++ [lb]) | None => None end.
Definition xnewest (s : wstate) (o : opid) : nat := match next_cell code_orders s o with Some c => pred (length (w_hist s c)) | None => 0 end.
Fixpoint xfinl (n : nat) (o : opid) (x : cstate * list clabel) : option (cstate * list clabel) :=
  match n with
  | 0 => None
  | S n => match w_ops (c_w x.1) !! o with
           | Some (WOp (SRun _ _) _ _) => match xstepl x (CStep o (xnewest (c_w x.1) o) false (N.of_nat (S (length x.2)))) with Some y => xfinl n o y | None => None end
           | _ => Some x
           end
  end.
Definition xcmdl (x : cstate * list clabel) (c : xcmd) : option (cstate * list clabel) :=
  match c with
  | XI o op ps => xstepl x (CInv o op ps)
  | XR o => xfinl 600 o x
  | XO o n => xstepl x (CStep o n false (N.of_nat (S (length x.2))))
  end.
Fixpoint xcmdsl (x : cstate * list clabel) (cs : list xcmd) : option (cstate * list clabel) := match cs with [] => Some x | c :: cs => match xcmdl x c with Some y => xcmdsl y cs | None => None end end.
Definition xschedule (cs : list xcmd) : list clabel := match xcmdsl (cinit, []) cs with Some (_, ls) => ls | None => [] end.
Definition xevents (cs : list xcmd) : list event := match crun code_orders cinit (xschedule cs) with Some (_, ev) => ev | None => [] end.
(* The calls of the schedule are those of the script. *)
Lemma xstepl_calls x lb y : xstepl x lb = Some y -> y.2 = x.2 ++ [lb].
Proof. unfold xstepl. destruct (cstep _ _ _) as [[]|]; [|done]. by intros [= <-]. Qed.
Lemma xcalls cs : forall x y o op ps, xcmdsl x cs = Some y -> CInv o op ps ∈ y.2 -> CInv o op ps ∈ x.2 \/ XI o op ps ∈ cs.
Proof.
  assert (forall n o' x y o op ps, xfinl n o' x = Some y -> CInv o op ps ∈ y.2 -> CInv o op ps ∈ x.2) as Hfin.
  { induction n as [|n IH]; intros o' x y o op ps Hr Hin; [done|]. cbn [xfinl] in Hr. destruct (w_ops (c_w x.1) !! o') as [[[| | |] ? ?]|]; try (by injection Hr as ->). destruct (xstepl x _) as [z|] eqn:E; [|done].
    pose proof (IH _ _ _ _ _ _ Hr Hin) as Hz. rewrite (xstepl_calls _ _ _ E) in Hz. apply elem_of_app in Hz as [|Hz]; [done|]. by apply elem_of_list_singleton in Hz. }
  induction cs as [|c cs IH]; intros x y o op ps Hr Hin; [injection Hr as ->; by left|]. cbn [xcmdsl] in Hr. destruct (xcmdl x c) as [z|] eqn:E; [|done]. destruct (IH _ _ _ _ _ Hr Hin) as [Hz|Hz]; [|right; by right].
  destruct c as [o' op' ps'|o'|o' n]; cbn [xcmdl] in E.
  - rewrite (xstepl_calls _ _ _ E) in Hz. apply elem_of_app in Hz as [|Hz]; [by left|]. apply elem_of_list_singleton in Hz. right. injection Hz as -> -> ->. by left.
  - left. by eapply Hfin.
  - rewrite (xstepl_calls _ _ _ E) in Hz. apply elem_of_app in Hz as [|Hz]; [by left|]. by apply elem_of_list_singleton in Hz.
Qed.
End script.
(* A ConMap: key 1 is inserted (call 1) and found by get_or_insert_with (call 2); 4 has the same hash (call 3).  An iteration in another thread (call 4) reads the initial root and yields nothing, a second
   one (call 5), later in the same thread, yields everything. *)
Definition wmcalls : list (map_call N N) := [MInsert 1 10 100%positive; MGetOrInsertWith 1 (fun _ => 11) 101%positive; MInsertElement (Arc 103%positive (Element 4 50)); MIter; MIter; MRemove 1]%N.
Definition wmcl (o : opid) : map_call N N := nth (Nat.pred (Pos.to_nat o)) wmcalls MIsEmpty.
Definition wmscript : list (@xcmd NM) := let I o ps := @XI NM o (map_raw N.eqb mh (wmcl o)) ps in
  [I 1 []; XR 1; I 2 [1]; XR 2; I 3 [2]; XR 3; I 4 []; XO 4 0; XR 4; I 5 [4; 3]; I 6 [3]; XR 5; XR 6]%positive.
Definition wmres (e : @event NM) : option (opid * map_ret N N) := match e with ERet o r => Some (o, map_view r) | EYield o r => Some (o, MROpt (Some (@rr_val NM r))) | _ => None end.
#[local] Instance NMok' : @ConfigOk NM.
Proof.
  split; simpl.
  - apply N.eqb_refl.
  - apply N.eqb_sym.
  - intros a b c ->%N.eqb_eq ->%N.eqb_eq. apply N.eqb_refl.
  - by intros a b ->%N.eqb_eq.
  - intros a. unfold mh. eapply N.lt_trans; [by apply N.mod_lt|done].
Qed.
Lemma xexec {C : Config} {HC : ConfigOk C} (cs : list xcmd) (f : list event -> bool) : (forall o op ps, XI o op ps ∈ cs -> op_wf op) -> 
  match crun code_orders cinit (xschedule cs) with Some (s, ev) => f ev | None => false end = true ->
  exists ls s ev, allowed code_orders ls s ev /\ wf_gcalls ls /\ f ev = true /\ forall o op ps, (exists ds, GInv o op ps ds ∈ ls) -> XI o op ps ∈ cs.
Proof.
  intros Hwf H. destruct (crun code_orders cinit (xschedule cs)) as [[s ev]|] eqn:E; [|done].
  assert (forall o op ps, CInv o op ps ∈ xschedule cs -> XI o op ps ∈ cs) as Hc.
  { intros o op ps Hin. unfold xschedule in Hin. destruct (xcmdsl (cinit, []) cs) as [[s1 l1]|] eqn:E1; [|by apply elem_of_nil in Hin]. destruct (xcalls cs (cinit, []) (s1, l1) o op ps E1 Hin) as [Hx|]; [by apply elem_of_nil in Hx|done]. }
  destruct (conv_allowed (xschedule cs) s ev) as (ls & s' & Ha & Hw & _ & Hls); [intros o op ps Hin; eapply Hwf; by apply Hc|exact E|]. exists ls, s', ev. split; [done|]. split; [done|]. split; [done|].
  intros o op ps Hin. apply Hc. by apply Hls.
Qed.
Definition mret_eqb (x y : map_ret N N) : bool :=
  let a (p q : arc (element N N)) := Pos.eqb (arc_id p) (arc_id q) && N.eqb (el_key (arc_val p)) (el_key (arc_val q)) && N.eqb (el_value (arc_val p)) (el_value (arc_val q)) in
  match x, y with
  | MROpt None, MROpt None => true
  | MROpt (Some p), MROpt (Some q) => a p q
  | MREon (Existing p), MREon (Existing q) => a p q
  | MREon (New p), MREon (New q) => a p q
  | MRBool b, MRBool c => eqb b c
  | MRIter l, MRIter l' => (length l =? length l') && forallb (fun pq => a pq.1 pq.2) (zip l l')
  | _, _ => false
  end.
Definition wmexp : list (opid * map_ret N N) := let a id k v := Arc id (Element k v) in
  [(1, MROpt None); (2, MREon (Existing (a 100 1%N 10%N))); (3, MROpt None); (4, MRIter []); (5, MROpt (Some (a 100 1%N 10%N))); (5, MROpt (Some (a 103 4%N 50%N)));
   (5, MRIter [a 100 1%N 10%N; a 103 4%N 50%N]); (6, MROpt (Some (a 100 1%N 10%N)))]%positive.
Example C61_ConMap_example : exists (ls : list (@glabel NM)) s ev, @allowed NM code_orders ls s ev /\ gclient (map_raw N.eqb mh) wmcl ls /\ (forall o, map_proper N.eqb (wmcl o)) /\
  (length (omap wmres ev) =? length wmexp) && forallb (fun xy => Pos.eqb xy.1.1 xy.2.1 && mret_eqb xy.1.2 xy.2.2) (zip (omap wmres ev) wmexp) = true.
Proof.
  assert (forall o op ps, XI o op ps ∈ wmscript -> op = map_raw N.eqb mh (wmcl o)) as Hcl.
  { intros o op ps Hin. unfold wmscript in Hin. repeat (apply elem_of_cons in Hin as [E|Hin]; [first [discriminate E|injection E as -> -> ->; reflexivity]|]). by apply elem_of_nil in Hin. }
  assert (forall o, map_proper N.eqb (wmcl o)) as Hpr. { intros o. unfold wmcl. generalize (Nat.pred (Pos.to_nat o)). intros n. do 6 (destruct n as [|n]; [done|]). destruct n; done. }
  destruct (xexec wmscript (fun ev => (length (omap wmres ev) =? length wmexp) && forallb (fun xy => Pos.eqb xy.1.1 xy.2.1 && mret_eqb xy.1.2 xy.2.2) (zip (omap wmres ev) wmexp))) as (ls & s & ev & Ha & _ & Hf & Hls).
  - intros o op ps Hin. rewrite (Hcl _ _ _ Hin). specialize (Hpr o). destruct (wmcl o); simpl; try done; apply N.eqb_refl.
  - vm_compute. reflexivity.
  - exists ls, s, ev. refine (conj Ha (conj _ (conj Hpr Hf))). intros o op ps ds Hin. eapply Hcl. apply Hls. by exists ds.
Qed.
(* Map A: elements (1,7), (2,8), (1,9) are inserted one after the other (calls 1, 2, 3), then an iteration (call 4) and a lookup (call 5).  Map B: what the iteration yielded is inserted, then a lookup (call 3). *)
Definition wextA : list (@xcmd CN) := [XI 1 (ins 1 7) []; XR 1; XI 2 (ins 2 8) [1]; XR 2; XI 3 (ins 1 9) [2]; XR 3; XI 4 ite [3]; XI 5 (get 1) [3]; XR 4; XR 5]%positive.
Definition wextB : list (@xcmd CN) := [XI 1 (ins 1 9) []; XR 1; XI 2 (ins 2 8) [1]; XR 2; XI 3 (get 1) [2]; XR 3]%positive.
Definition hbx (ls : list (@glabel CN)) (o1 o2 : opid) : bool := existsb (fun lb => match lb with GInv o _ ps _ => bool_decide (o = o2 /\ o1 ∈ ps) | _ => false end) ls.
Definition ret_iter (ev : list (@event CN)) (o : opid) : bool := existsb (fun e => match e with ERet o' (RIter _) => bool_decide (o' = o) | _ => false end) ev.
Definition inv_iter (ev : list (@event CN)) (o : opid) : bool := existsb (fun e => match e with EInv o' OIter => bool_decide (o' = o) | _ => false end) ev.
Definition only_ins (ev : list (@event CN)) (os : list opid) : bool :=
  forallb (fun e => match e with EInv o op => match op with OInsert _ => bool_decide (o ∈ os) | OGetOrInsert _ _ | ORemove _ => false | _ => true end | _ => true end) ev.
Lemma ret_iter_spec ev o : ret_iter ev o = true -> exists ys, ERet o (RIter ys : @res CN) ∈ ev.
Proof. intros H. apply existsb_exists in H as (e & Hin & He). destruct e as [|o' [| | |ys]| |]; try done. apply bool_decide_eq_true in He as ->. exists ys. by apply elem_of_list_In. Qed.
Lemma inv_iter_spec ev o : inv_iter ev o = true -> EInv o (OIter : @oper CN) ∈ ev.
Proof. intros H. apply existsb_exists in H as (e & Hin & He). destruct e as [o' [| | | | |]| | |]; try done. apply bool_decide_eq_true in He as ->. by apply elem_of_list_In. Qed.
Lemma only_ins_spec ev os o op k : only_ins ev os = true -> EInv o (op : @oper CN) ∈ ev -> modifies op k -> o ∈ os.
Proof.
  intros H Hin Hm. unfold only_ins in H. rewrite forallb_forall in H. apply elem_of_list_In, H in Hin. destruct op; try done; by apply bool_decide_eq_true in Hin.
Qed.
Lemma hb_called_g {C : Config} {HC : ConfigOk C} ls s ev o1 o2 op ps ds : wf_gcalls ls -> allowed code_orders ls s ev -> GInv o2 op ps ds ∈ ls -> o1 ∈ ps -> hb (gcalls ls) o1 o2.
Proof. intros _ _ Hin Hp. apply (hb_direct _ _ _ op ps); [|done]. unfold gcalls. apply elem_of_list_omap. by exists (GInv o2 op ps ds). Qed.
(* As [xexec], and every call that is in the history happens after the calls that the script names. *)
Lemma xexec_hb {C : Config} {HC : ConfigOk C} (cs : list xcmd) (f : list event -> bool) : (forall o op ps, XI o op ps ∈ cs -> op_wf op) -> NoDup (omap (fun c => match c with XI o _ _ => Some o | _ => None end) cs) ->
  match crun code_orders cinit (xschedule cs) with Some (s, ev) => f ev | None => false end = true ->
  exists ls s ev, allowed code_orders ls s ev /\ wf_gcalls ls /\ f ev = true /\ forall o op ps o1 op', XI o op ps ∈ cs -> EInv o op' ∈ ev -> o1 ∈ ps -> hb (gcalls ls) o1 o.
Proof.
  intros Hwf Hnd H. destruct (xexec cs f Hwf H) as (ls & s & ev & Ha & Hw & Hf & Hls). exists ls, s, ev. split; [done|]. split; [done|]. split; [done|]. intros o op ps o1 op' Hx Hi Hp.
  destruct (inv_glabel _ _ _ _ _ Hw Ha Hi) as (ps' & ds & Hg). assert (ps' = ps) as ->; [|by eapply hb_called_g].
  assert (XI o op' ps' ∈ cs) as Hx' by (apply Hls; by exists ds). clear -Hx Hx' Hnd. revert Hx Hx' Hnd. induction cs as [|c cs IH]; [intros Hx; by apply elem_of_nil in Hx|]. intros [E|Hx]%elem_of_cons [E'|Hx']%elem_of_cons Hnd.
  - congruence.
  - subst c. cbn [omap list_omap] in Hnd. apply NoDup_cons in Hnd as [Hn _]. exfalso. apply Hn. apply elem_of_list_omap. eexists. split; [exact Hx'|done].
  - subst c. cbn [omap list_omap] in Hnd. apply NoDup_cons in Hnd as [Hn _]. exfalso. apply Hn. apply elem_of_list_omap. eexists. split; [exact Hx|done].
  - apply IH; [done|done|]. cbn [omap list_omap] in Hnd. destruct c; try done. by apply NoDup_cons in Hnd as [_ Hnd].
Qed.
Lemma wext_wf (cs : list (@xcmd CN)) : forallb (fun c => match c with XI _ (OGetOrInsert _ _) _ => false | _ => true end) cs = true -> forall o op ps, XI o op ps ∈ cs -> op_wf op.
Proof. intros H o op ps Hin. rewrite forallb_forall in H. apply elem_of_list_In, H in Hin. by destruct op. Qed.

Example C61_extend_example : exists (lsA : list (@glabel CN)) sA evA ys rA lsB sB evB rB,
  wf_gcalls lsA /\ allowed code_orders lsA sA evA /\ wf_gcalls lsB /\ allowed code_orders lsB sB evB /\
  extends (gcalls lsA) evA [1; 2; 3]%positive [(1, 7); (2, 8); (1, 9)]%N /\
  EInv 4%positive OIter ∈ evA /\ ERet 4%positive (RIter ys) ∈ evA /\ hb (gcalls lsA) 3%positive 4%positive /\
  EInv 5%positive (OGet 1%N) ∈ evA /\ ERet 5%positive (ROpt rA) ∈ evA /\ hb (gcalls lsA) 3%positive 5%positive /\
  (forall o' op k, EInv o' op ∈ evA -> modifies op k -> o' ∈ [1; 2; 3]%positive) /\
  extends (gcalls lsB) evB [1; 2]%positive (rr_val <$> yields_of evA 4%positive) /\
  EInv 3%positive (OGet 1%N) ∈ evB /\ ERet 3%positive (ROpt rB) ∈ evB /\ hb (gcalls lsB) 2%positive 3%positive /\ rr_val <$> rB = Some (1, 9)%N /\
  (forall o' op, EInv o' op ∈ evB -> modifies op 1%N -> o' ∈ [1; 2]%positive).
Proof.
  destruct (xexec_hb wextA (fun ev => inv_ins ev 1 (1, 7)%N && (inv_ins ev 2 (2, 8)%N && (inv_ins ev 3 (1, 9)%N && (ret_at ev 1 None && (ret_at ev 2 None && (ret_at ev 3 (Some (1, 7)%N) &&
    (inv_iter ev 4 && (ret_iter ev 4 && (inv_get ev 5 1%N && (ret_at ev 5 (Some (1, 9)%N) && (only_ins ev [1; 2; 3] && bool_decide (rr_val <$> yields_of ev 4 = [(1, 9); (2, 8)]%N))))))))))))%positive)
    as (lsA & sA & evA & HA & HwA & HfA & HbA).
  { apply wext_wf. vm_compute. reflexivity. }
  { apply (bool_decide_eq_true_1 _). vm_compute. reflexivity. }
  { vm_compute. reflexivity. }
  destruct (xexec_hb wextB (fun ev => inv_ins ev 1 (1, 9)%N && (inv_ins ev 2 (2, 8)%N && (ret_at ev 1 None && (ret_at ev 2 None && (inv_get ev 3 1%N && (ret_at ev 3 (Some (1, 9)%N) && only_ins ev [1; 2]))))))%positive)
    as (lsB & sB & evB & HB & HwB & HfB & HbB).
  { apply wext_wf. vm_compute. reflexivity. }
  { apply (bool_decide_eq_true_1 _). vm_compute. reflexivity. }
  { vm_compute. reflexivity. }
  apply andb_true_iff in HfA as [I1%inv_ins_spec HfA]. apply andb_true_iff in HfA as [I2%inv_ins_spec HfA]. apply andb_true_iff in HfA as [I3%inv_ins_spec HfA].
  apply andb_true_iff in HfA as [(x1 & R1 & _)%ret_at_spec HfA]. apply andb_true_iff in HfA as [(x2 & R2 & _)%ret_at_spec HfA]. apply andb_true_iff in HfA as [(x3 & R3 & _)%ret_at_spec HfA].
  apply andb_true_iff in HfA as [I4%inv_iter_spec HfA]. apply andb_true_iff in HfA as [(ys & R4)%ret_iter_spec HfA]. apply andb_true_iff in HfA as [I5%inv_get_spec HfA]. apply andb_true_iff in HfA as [(rA & R5 & _)%ret_at_spec HfA].
  apply andb_true_iff in HfA as [OA Ey]. apply bool_decide_eq_true in Ey.
  apply andb_true_iff in HfB as [J1%inv_ins_spec HfB]. apply andb_true_iff in HfB as [J2%inv_ins_spec HfB]. apply andb_true_iff in HfB as [(y1 & S1 & _)%ret_at_spec HfB]. apply andb_true_iff in HfB as [(y2 & S2 & _)%ret_at_spec HfB].
  apply andb_true_iff in HfB as [J3%inv_get_spec HfB]. apply andb_true_iff in HfB as [(rB & S3 & V3)%ret_at_spec OB].
  assert (hb (gcalls lsA) 1%positive 2%positive) as A12. { eapply (HbA 2%positive (ins 2 8) [1%positive]); [unfold wextA; do 2 right; by left|exact I2|by left]. }
  assert (hb (gcalls lsA) 2%positive 3%positive) as A23. { eapply (HbA 3%positive (ins 1 9) [2%positive]); [unfold wextA; do 4 right; by left|exact I3|by left]. }
  assert (hb (gcalls lsA) 3%positive 4%positive) as A34. { eapply (HbA 4%positive ite [3%positive]); [unfold wextA; do 6 right; by left|exact I4|by left]. }
  assert (hb (gcalls lsA) 3%positive 5%positive) as A35. { eapply (HbA 5%positive (get 1) [3%positive]); [unfold wextA; do 7 right; by left|exact I5|by left]. }
  assert (hb (gcalls lsB) 1%positive 2%positive) as B12. { eapply (HbB 2%positive (ins 2 8) [1%positive]); [unfold wextB; do 2 right; by left|exact J2|by left]. }
  assert (hb (gcalls lsB) 2%positive 3%positive) as B23. { eapply (HbB 3%positive (get 1) [2%positive]); [unfold wextB; do 4 right; by left|exact J3|by left]. }
  exists lsA, sA, evA, ys, rA, lsB, sB, evB, rB. refine (conj HwA (conj HA (conj HwB (conj HB (conj _ (conj I4 (conj R4 (conj A34 (conj I5 (conj R5 (conj A35 (conj _ (conj _ (conj J3 (conj S3 (conj B23 (conj V3 _)))))))))))))))));
  clear HA HB HwA HwB HbA HbB.
  - split.
    + apply Forall2_cons; split; [split; [exact I1|by exists x1]|]. apply Forall2_cons; split; [split; [exact I2|by exists x2]|]. apply Forall2_cons; split; [split; [exact I3|by exists x3]|]. constructor.
    + intros i j o1 o2 H1 H2 Hij. destruct i as [|[|[|i]]]; try discriminate H1; destruct j as [|[|[|j]]]; try discriminate H2; try lia; injection H1 as <-; injection H2 as <-; [exact A12|by eapply hb_trans|exact A23].
  - intros o' op k Hi Hm. by eapply only_ins_spec.
  - rewrite Ey. split.
    + apply Forall2_cons; split; [split; [exact J1|by exists y1]|]. apply Forall2_cons; split; [split; [exact J2|by exists y2]|]. constructor.
    + intros i j o1 o2 H1 H2 Hij. destruct i as [|[|i]]; try discriminate H1; destruct j as [|[|j]]; try discriminate H2; try lia; injection H1 as <-; injection H2 as <-; exact B12.
  - intros o' op Hi Hm. by eapply only_ins_spec.
Qed.

Print Assumptions C61_ConMap.
Print Assumptions C61_CloneConMap.
Print Assumptions C61_ConSet.
Print Assumptions C61_extend.
Print Assumptions C61_from_iter.
Print Assumptions C61_from_iter_iterate.
Print Assumptions C61_clone.
