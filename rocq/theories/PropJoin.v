(** * Property C71: calls about one key that are made in turn, on weakly ordered memory, after anything else.
    Statements and proofs, with a concrete case. *)
From Verif Require Import Model Mem Spec LinSpec LinProps Shape Look Sem SemOps Iter IterSpec IterSys Weak WeakInv WeakStep WeakSys WeakRun Inv WeakCoh WeakWalk WeakTime WeakBase WeakLin PropWeak Concrete PropCoh WeakFree FreeSim FreeStep FreeInv FreeRun PropFree Rc11 Rc11Sim Rc11Conv PropRc11 WeakShape PropWRace WApiSpec PropWApi JoinSpec.

Section join.
Context {C : Config} {HC : ConfigOk C}.
Implicit Types (o : opid) (op : oper) (k : Key) (l : list entry) (e : entry) (ev : list event) (p : Pl) (cs : list (opid * oper * res)).

Lemma find_pl_find k (ys : list Pl) : find_pl k ys = List.find (fun p => keqb (keyof p) k) ys.
Proof. induction ys as [|p ys IH]; [done|]. rewrite find_pl_cons. simpl. by rewrite IH. Qed.

Section ent.
Context (ev : list event) (k : Key).
Definition ent (c : opid * oper * res) : entry :=
  match c.1.2 with
  | OIter => Entry c.1.1 (OGet k) (AOpt (find_pl k (rr_val <$> yields_of ev c.1.1)))
  | _ => Entry c.1.1 c.1.2 (default (ABool false) (val_of c.2))
  end.
Lemma ent_id c : e_id (ent c) = c.1.1.
Proof. unfold ent. by destruct (c.1.2). Qed.
(** is_empty has returned false: that is in no order. *)
Definition blank (c : opid * oper * res) : Prop := c.1.2 = OIsEmpty /\ c.2 = RBool false.
Lemma blank_dec c : blank c \/ ~ blank c.
Proof. unfold blank. destruct c as [[o op] r]. simpl. destruct op, r as [| |[]|]; try (right; intros [? ?]; done). by left. Qed.
Definition earlier l e1 e2 : Prop := forall n m, l !! n = Some e1 -> l !! m = Some e2 -> n < m.

Lemma turn_step (b b' : amap) c : acong b -> op_wf (e_op (ent c)) -> keyed c.1.2 k -> r_shape c.1.2 c.2 -> ~ blank c -> spec_step b (e_op (ent c)) (e_ret (ent c)) b' ->
  turn k (rr_val <$> yields_of ev c.1.1) (b k) c.1.2 c.2 (b' k).
Proof.
  destruct c as [[o op] r]. unfold ent, blank. cbn [fst snd]. intros Ha Hwf Hk Hsh Hb Hs. unfold spec_step, put, del, same in Hs. destruct op as [p|k0 f|k0|k0| |], r as [x|[x|x]|b0|ys]; try done; simpl in *.
  - destruct Hs as [-> Hs]. rewrite Hs, Hk. split; [by apply Ha|done].
  - destruct Hs as [H1 Hs]. rewrite Hs, <-H1. split; [|done]. symmetry. by apply Ha.
  - destruct Hs as (H1 & H2 & Hs). rewrite Hs, H2. assert (keqb (keyof (f k0)) k = true) as -> by (by eapply keqb_trans). rewrite <-H1. split; [symmetry; by apply Ha|done].
  - destruct Hs as [-> Hs]. rewrite Hs. split; [by apply Ha|done].
  - destruct Hs as [-> Hs]. rewrite Hs, Hk. split; [by apply Ha|done].
  - destruct Hs as [H1 Hs]. rewrite Hs. split; [|done]. intros ->. by apply H1.
  - destruct Hs as [H1 Hs]. rewrite Hs. split; [by rewrite <-find_pl_find|done].
Qed.
Lemma turn_blank x c : blank c -> turn k (rr_val <$> yields_of ev c.1.1) x c.1.2 c.2 x.
Proof. destruct c as [[o op] r]. intros [E1 E2]. simpl in *. subst. done. Qed.
Lemma turns_cons x c y cs z : turn k (rr_val <$> yields_of ev c.1.1) x c.1.2 c.2 y -> turns ev k y cs z -> turns ev k x (c :: cs) z.
Proof. destruct c as [[o op] r]. intros H1 H2. by exists y. Qed.

Lemma chain_run cs : forall l (b a : amap), NoDup (e_id <$> l) -> acong b -> spec_run b l a -> (forall e, e ∈ l -> op_wf (e_op e)) ->
  (forall c, c ∈ cs -> blank c \/ ent c ∈ l /\ keyed c.1.2 k /\ r_shape c.1.2 c.2) ->
  (forall i j c1 c2, cs !! i = Some c1 -> cs !! j = Some c2 -> i < j -> earlier l (ent c1) (ent c2)) ->
  (forall e, e ∈ l -> modifies (e_op e) k -> e ∈ ent <$> cs \/ forall c, c ∈ cs -> earlier l (ent c) e) ->
  exists y, turns ev k (b k) cs y.
Proof.
  induction cs as [|c cs IH]; intros l b a Hn Ha Hr Hwf Hin Ho Hm; [by exists (b k)|].
  destruct (blank_dec c) as [Hb|Hb].
  { destruct (IH l b a) as [y Hy]; try done.
    - intros c2 H2. apply Hin. by right.
    - intros i j c1 c2 H1 H2 Hlt. apply (Ho (S i) (S j)); [done|done|lia].
    - intros e He Hmd. destruct (Hm _ He Hmd) as [H1|H1]; [|right; intros c2 H2; apply H1; by right]. rewrite fmap_cons in H1. apply elem_of_cons in H1 as [->|H1]; [|by left].
      exfalso. destruct c as [[o op] r], Hb as [E1 E2]. simpl in *. by subst.
    - exists y. eapply turns_cons; [by apply turn_blank|exact Hy]. }
  destruct (Hin c) as [|(Hc & Hk & Hsh)]; [by left|done|]. apply elem_of_list_lookup in Hc as [i Hi].
  assert (forall c2, c2 ∈ cs -> earlier l (ent c) (ent c2)) as Hfirst. { intros c2 H2. apply elem_of_list_lookup in H2 as [j Hj]. apply (Ho 0 (S j) c c2); [done|done|lia]. }
  rewrite <-(take_drop_middle _ _ _ Hi) in Hr. apply spec_run_split in Hr as (b1 & Hr1 & Hr). cbn [spec_run] in Hr. destruct Hr as (b2 & Hs & Hr).
  assert (b1 k = b k) as Eb.
  { eapply spec_keep; [|exact Hr1]. intros e He. apply elem_of_list_lookup in He as [n He]. pose proof (lookup_lt_Some _ _ _ He) as Hlt. rewrite take_length in Hlt. rewrite lookup_take in He by lia.
    pose proof (elem_of_list_lookup_2 _ _ _ He) as Hel. split; [by apply Hwf|]. intros Hmd. destruct (Hm _ Hel Hmd) as [H1|H1].
    - rewrite fmap_cons in H1. apply elem_of_cons in H1 as [->|H1].
      + assert (n = i); [|lia]. by eapply once_pos.
      + apply elem_of_list_fmap in H1 as (c2 & -> & H2). pose proof (Hfirst _ H2 _ _ Hi He). lia.
    - pose proof (H1 c ltac:(left) _ _ Hi He). lia. }
  assert (op_wf (e_op (ent c))) as Hwc by (by apply Hwf, elem_of_list_lookup_2 with i).
  assert (acong b1) as Ha1 by (by eapply run_cong).
  assert (acong b2) as Ha2 by (by eapply step_cong).
  pose proof (turn_step b1 b2 c Ha1 Hwc Hk Hsh Hb Hs) as Ht. rewrite Eb in Ht.
  assert (forall n e, drop (S i) l !! n = Some e -> l !! (S i + n) = Some e) as Hd by (intros n e; by rewrite lookup_drop).
  assert (forall e1 e2, earlier l e1 e2 -> earlier (drop (S i) l) e1 e2) as Hel. { intros e1 e2 H n m H1 H2. pose proof (H _ _ (Hd _ _ H1) (Hd _ _ H2)). lia. }
  destruct (IH (drop (S i) l) b2 a) as [y Hy].
  - rewrite fmap_drop. rewrite <-(take_drop (S i) (e_id <$> l)) in Hn. by apply NoDup_app in Hn as (_ & _ & ?).
  - done.
  - done.
  - intros e He. apply Hwf. apply elem_of_list_lookup in He as [n He]. apply Hd in He. by eapply elem_of_list_lookup_2.
  - intros c2 H2. destruct (Hin c2) as [|(H3 & H4 & H5)]; [by right|by left|]. right. split; [|done]. apply elem_of_list_lookup in H3 as [n H3]. pose proof (Hfirst _ H2 _ _ Hi H3) as Hlt.
    apply elem_of_list_lookup. exists (n - S i). rewrite lookup_drop. rewrite <-H3. f_equal. lia.
  - intros i' j c1 c2 H1 H2 Hlt. apply Hel. apply (Ho (S i') (S j) c1 c2); [done|done|lia].
  - intros e He Hmd. apply elem_of_list_lookup in He as [n He]. apply Hd in He. pose proof (elem_of_list_lookup_2 _ _ _ He) as Hel2. destruct (Hm _ Hel2 Hmd) as [H1|H1].
    + rewrite fmap_cons in H1. apply elem_of_cons in H1 as [->|H1]; [|by left]. exfalso. assert (S i + n = i); [|lia]. by eapply once_pos.
    + right. intros c2 H2. apply Hel, H1. by right.
  - exists y. eapply turns_cons; [exact Ht|exact Hy].
Qed.

Lemma turns_blank x bs cs y : (forall c, c ∈ bs -> blank c) -> turns ev k x cs y -> turns ev k x (bs ++ cs) y.
Proof. intros Hb Hc. induction bs as [|c bs IH]; [done|]. simpl app. eapply turns_cons; [apply turn_blank, Hb; by left|]. apply IH. intros c' Hc'. apply Hb. by right. Qed.
Lemma first_entry cs : exists bs cs', cs = bs ++ cs' /\ (forall c, c ∈ bs -> blank c) /\ forall c, head cs' = Some c -> ~ blank c.
Proof.
  induction cs as [|c cs (bs & cs' & -> & H1 & H2)]; [exists [], []; split; [done|]; split; [intros c H; by apply elem_of_nil in H|done]|].
  destruct (blank_dec c) as [Hb|Hb].
  - exists (c :: bs), cs'. split; [done|]. split; [|done]. intros c' [->|]%elem_of_cons; [done|by apply H1].
  - exists [], (c :: bs ++ cs'). split; [done|]. split; [intros c' H; by apply elem_of_nil in H|]. by intros c' [= <-].
Qed.
End ent.

(** C71.  On weakly ordered memory, with the orderings of the code, in every execution the C11 axioms allow: let [cs] be calls of any kind, with one key [k], each of which is known to come after those before it
    (by the same thread, say, or by threads that are started and joined), and let every other call that modifies the key be known to come before all of them, or after all of them.
    What these other calls do among themselves does not matter: they may overlap, in any number of threads.  Then there is something the key stands for when the first of [cs] is made - nothing,
    or an element that a call before has put in - and from there on the calls return exactly what they return one after the other on a plain map. *)
Theorem C71_in_turn ls s ev k cs : wf_gcalls ls -> allowed code_orders ls s ev -> in_turn (gcalls ls) ev k cs ->
  (forall o op, EInv o op ∈ ev -> modifies op k -> (exists op' r, (o, op', r) ∈ cs) \/ (forall c, c ∈ cs -> hb (gcalls ls) o c.1.1) \/ (forall c, c ∈ cs -> hb (gcalls ls) c.1.1 o)) ->
  exists x y, turns ev k x cs y /\
    forall p, x = Some p -> keqb (keyof p) k = true /\ exists o, put_by ev o p /\ forall c, c ∈ cs -> hb (gcalls ls) o c.1.1 /\ o <> c.1.1 /\ ~ hb (gcalls ls) c.1.1 o.
Proof.
  intros Hwf Ha [Hcs Hhb0] Hm. destruct (first_entry cs) as (bs & [|c0 cs'] & E & Hbs & Hnb).
  { exists None, None. split; [|done]. rewrite E. by apply turns_blank. }
  pose proof (told_g _ _ _ Hwf Ha) as Ht. destruct (C57_key_order _ _ _ k Hwf Ha) as [l Hl]. pose proof Hl as [Kn Kc Kcp Ky Ke [a Kr] Ko].
  specialize (Hnb c0 eq_refl). set (cs1 := c0 :: cs') in *.
  assert (forall i j c1 c2, cs1 !! i = Some c1 -> cs1 !! j = Some c2 -> i < j -> hb (gcalls ls) c1.1.1 c2.1.1) as Hhb.
  { intros i j c1 c2 H1 H2 Hlt. apply (Hhb0 (length bs + i) (length bs + j)); [rewrite E, lookup_app_r by lia; by replace (length bs + i - length bs) with i by lia|rewrite E, lookup_app_r by lia; by replace (length bs + j - length bs) with j by lia|lia]. }
  assert (forall c, c ∈ cs1 -> c ∈ cs) as Hsub. { intros c Hc. rewrite E. apply elem_of_app. by right. }
  assert (forall c, c ∈ cs -> blank c \/ ent ev k c ∈ l /\ keyed c.1.2 k /\ r_shape c.1.2 c.2) as Hin.
  { intros c Hc. destruct (blank_dec c) as [|Hb]; [by left|right]. destruct c as [[o op] r]. destruct (Hcs _ _ _ Hc) as (H1 & H2 & H3). destruct (td_ret _ _ Ht _ _ H2) as (op' & H1' & Hsh & _). rewrite (td_one _ _ Ht _ _ _ H1' H1) in Hsh. split; [|done].
    assert (op = OIter \/ exists v, val_of r = Some v /\ v <> ABool false /\ concerns op k /\ ent ev k (o, op, r) = Entry o op v) as [->|(v & Hv & Hnv & Hco & ->)].
    { unfold blank in Hb. simpl in Hb. destruct op, r as [x|x|[]|]; try done; try (by left); right; try (eexists; split; [reflexivity|split; [done|split; [done|reflexivity]]]). by destruct Hb. }
    - unfold ent. cbn [fst snd]. destruct r as [| | |ys]; try done. destruct (find_pl k (rr_val <$> yields_of ev o)) as [q|] eqn:Ef.
      + apply find_pl_Some in Ef as [Hq Hkq]. apply elem_of_list_fmap in Hq as (y & -> & Hy). apply Ky; [exact H1| |exact Hkq].
        unfold yields_of in Hy. apply elem_of_list_omap in Hy as (e & He & E1). destruct e as [| | |o' r']; try discriminate E1. destruct (decide (o' = o)) as [->|]; [|discriminate E1]. injection E1 as ->. exact He.
      + eapply Ke; [exact H1|exact H2|]. intros y Hy. rewrite find_pl_None in Ef. apply Ef. apply elem_of_list_fmap. exists y. split; [done|]. unfold yields_of. apply elem_of_list_omap. exists (EYield o y). split; [done|]. by rewrite decide_True.
    - eapply Kcp; [exact H1|exact H2|exact Hco|exact Hv|exact Hnv]. }
  assert (forall c e, hb (gcalls ls) c.1.1 (e_id e) -> earlier l (ent ev k c) e) as Hafter.
  { intros c e Hh n m H1 H2. eapply (ko_pos k l (gcalls ls) ev Hl (ent ev k c) n c.1.1); [exact H1|apply ent_id|exact H2|exact Hh]. }
  assert (forall c e, hb (gcalls ls) (e_id e) c.1.1 -> earlier l e (ent ev k c)) as Hbefore.
  { intros c e Hh n m H1 H2. eapply (ko_pos k l (gcalls ls) ev Hl e n (e_id e)); [exact H1|done|exact H2|by rewrite ent_id]. }
  assert (forall c op, blank c -> c ∈ cs -> EInv c.1.1 op ∈ ev -> ~ modifies op k) as Hbm.
  { intros [[o op0] r] op [E1 E2] Hc Hi. simpl in *. subst. destruct (Hcs _ _ _ Hc) as (H1 & _). rewrite (td_one _ _ Ht _ _ _ Hi H1). by intros []. }
  assert (forall e, e ∈ l -> modifies (e_op e) k -> e ∈ ent ev k <$> cs1 \/ (forall c, c ∈ cs -> hb (gcalls ls) (e_id e) c.1.1) \/ (forall c, c ∈ cs -> hb (gcalls ls) c.1.1 (e_id e))) as Hmod.
  { intros e He Hmd. destruct (Kc _ He) as [[Hi _]|[_ E1]]; [|by rewrite E1 in Hmd]. destruct (Hm _ _ Hi Hmd) as [(op' & r & Hc)|H]; [|by right]. left.
    destruct (Hin _ Hc) as [Hb|(Hel & _)]; [exfalso; by eapply (Hbm _ _ Hb Hc)|].
    apply elem_of_list_fmap. exists (e_id e, op', r). split.
    - apply elem_of_list_lookup in He as [i Hi2], Hel as [j Hj]. assert (i = j) as <- by (eapply once_pos; [exact Kn|exact Hi2|exact Hj|by rewrite ent_id]). rewrite Hi2 in Hj. exact (inj Some _ _ Hj).
    - rewrite E in Hc. apply elem_of_app in Hc as [Hc|Hc]; [|done]. exfalso. pose proof (Hbs _ Hc) as Hb. refine (Hbm _ _ Hb _ Hi Hmd). rewrite E. apply elem_of_app. by left. }
  assert (c0 ∈ cs1) as Hc0 by left. destruct (Hin c0) as [|(He0 & Hk0 & _)]; [by apply Hsub|done|]. apply elem_of_list_lookup in He0 as [i0 Hi0].
  rewrite <-(take_drop i0 l) in Kr. apply spec_run_split in Kr as (b & Kr1 & Kr2).
  assert (forall n e, drop i0 l !! n = Some e -> l !! (i0 + n) = Some e) as Hd by (intros n e; by rewrite lookup_drop).
  assert (forall e1 e2, earlier l e1 e2 -> earlier (drop i0 l) e1 e2) as Hel. { intros e1 e2 H n m H1 H2. pose proof (H _ _ (Hd _ _ H1) (Hd _ _ H2)). lia. }
  assert (forall c n, c ∈ cs1 -> l !! n = Some (ent ev k c) -> i0 <= n) as Hge.
  { intros c n Hc Hn. apply elem_of_list_lookup in Hc as [[|j] Hj].
    - injection Hj as <-. assert (i0 = n) as ->; [|lia]. eapply once_pos; [exact Kn|exact Hi0|exact Hn|done].
    - pose proof (Hhb 0 (S j) c0 c eq_refl Hj ltac:(lia)) as Hh. rewrite <-(ent_id ev k c) in Hh. pose proof (Hafter c0 (ent ev k c) Hh _ _ Hi0 Hn). lia. }
  destruct (chain_run ev k cs1 (drop i0 l) b a) as [y Hy].
  - rewrite fmap_drop. rewrite <-(take_drop i0 (e_id <$> l)) in Kn. by apply NoDup_app in Kn as (_ & _ & ?).
  - eapply run_cong; [|exact Kr1]. apply cong0.
  - done.
  - intros e He. apply elem_of_list_lookup in He as [n He]. apply Hd, elem_of_list_lookup_2 in He. by eapply ko_called'.
  - intros c Hc. destruct (Hin c) as [|(H1 & H2)]; [by apply Hsub|by left|]. right. split; [|done]. apply elem_of_list_lookup in H1 as [n Hn]. pose proof (Hge _ _ Hc Hn).
    apply elem_of_list_lookup. exists (n - i0). rewrite lookup_drop. rewrite <-Hn. f_equal. lia.
  - intros i j c1 c2 H1 H2 Hlt. apply Hel. apply Hafter. rewrite ent_id. by apply (Hhb i j).
  - intros e He Hmd. apply elem_of_list_lookup in He as [n He]. apply Hd in He. pose proof (elem_of_list_lookup_2 _ _ _ He) as Hel2. destruct (Hmod _ Hel2 Hmd) as [H1|[H1|H1]]; [by left| |].
    + exfalso. pose proof (Hbefore c0 e (H1 _ (Hsub _ Hc0)) _ _ He Hi0). lia.
    + right. intros c Hc. apply Hel, Hafter. by apply H1, Hsub.
  - exists (b k), y. split; [rewrite E; by apply turns_blank|]. intros p Hp. destruct (list_source k _ _ _ Kr1 Hp) as (i & e & Hi & Hput & Hkp & _). split; [done|].
    pose proof (lookup_lt_Some _ _ _ Hi) as Hlt. rewrite take_length in Hlt. rewrite lookup_take in Hi by lia. pose proof (elem_of_list_lookup_2 _ _ _ Hi) as Hel2. exists (e_id e). split; [by eapply entry_put|].
    assert (modifies (e_op e) k) as Hmd. { destruct Hput as [E1|(k' & f & E1 & _ & Ef)]; rewrite E1; [exact Hkp|]. pose proof (ko_called' k l (gcalls ls) ev Hl Ht e Hel2) as Hw. rewrite E1 in Hw. simpl in Hw. rewrite Ef in Hkp. simpl. eapply keqb_trans; [|exact Hkp]. by rewrite keqb_sym. }
    assert (forall o, hb (gcalls ls) (e_id e) o -> hb (gcalls ls) o (e_id e) -> False) as Hac.
    { intros o H1 H2. pose proof (ko_pos k l (gcalls ls) ev Hl e i (e_id e) Hi eq_refl i e Hi (hb_trans _ _ _ _ H1 H2)). lia. }
    destruct (Hmod _ Hel2 Hmd) as [H1|[H1|H1]].
    + exfalso. apply elem_of_list_fmap in H1 as (c & Ec & Hc). rewrite Ec in Hi. pose proof (Hge _ _ Hc Hi). lia.
    + intros c Hc. split; [by apply H1|]. split; [|intros Hh; exact (Hac _ (H1 _ Hc) Hh)]. intros Eo. pose proof (H1 _ Hc) as Hh. rewrite <-Eo in Hh. exact (Hac _ Hh Hh).
    + exfalso. pose proof (Hafter c0 e (H1 _ (Hsub _ Hc0)) _ _ Hi0 Hi). lia.
Qed.

(** If nobody else modifies the key before, nothing is stored to begin with. *)
Theorem C71_new_key ls s ev k cs : wf_gcalls ls -> allowed code_orders ls s ev -> in_turn (gcalls ls) ev k cs ->
  (forall o op, EInv o op ∈ ev -> modifies op k -> (exists op' r, (o, op', r) ∈ cs) \/ (forall c, c ∈ cs -> hb (gcalls ls) c.1.1 o)) ->
  exists y, turns ev k None cs y.
Proof.
  intros Hwf Ha Hi Hm. destruct (C71_in_turn ls s ev k cs Hwf Ha Hi) as ([p|] & y & Hy & Hx); [intros o op Ho Hmd; destruct (Hm o op Ho Hmd); tauto| |by exists y].
  destruct cs as [|c0 cs]; [by exists None|]. exfalso. destruct (Hx p eq_refl) as (Hk & o & Hput & Hc). assert (c0 ∈ c0 :: cs) as Hc0 by left.
  assert (exists op, EInv o op ∈ ev /\ modifies op k) as (op & Ho & Hmd).
  { destruct Hput as [Ho|(k' & f & Ho & Ep & _)]; [by exists (OInsert p)|]. exists (OGetOrInsert k' f). split; [done|]. pose proof (td_wf _ _ (told_g _ _ _ Hwf Ha) _ _ Ho) as Hw. simpl in *. rewrite Ep in Hk. eapply keqb_trans; [|exact Hk]. by rewrite keqb_sym. }
  destruct (Hm o op Ho Hmd) as [(op' & r & Hin)|H].
  - destruct (Hc _ Hin) as (_ & Hne & _). by apply Hne.
  - destruct (Hc _ Hc0) as (_ & _ & Hn). apply Hn. by apply H.
Qed.
End join.

(** A concrete case.  Calls 1 and 2 insert key 1 at the same time; when both threads have been joined, call 3 removes the key, call 4 inserts it, call 5 looks it up, and call 6 iterates. *)
Definition joined : list (@xcmd CN) :=
  [XI 1 (ins 1 7) []; XO 1 0; XI 2 (ins 1 8) []; XR 2; XR 1; XI 3 (rem 1) [1; 2]; XR 3; XI 4 (ins 1 9) [3]; XR 4; XI 5 (get 1) [4]; XR 5; XI 6 ite [5]; XR 6]%positive.
Definition inv_rem (ev : list (@event CN)) (o : opid) (k : N) : bool := existsb (fun e => match e with EInv o' (ORemove k') => bool_decide (o' = o) && N.eqb k' k | _ => false end) ev.
Lemma inv_rem_spec ev o k : inv_rem ev o k = true -> EInv o (rem k : @oper CN) ∈ ev.
Proof. intros H. apply existsb_exists in H as (e & Hin & He). destruct e as [o' [| | |k'| |]| | |]; try done. apply andb_true_iff in He as [->%bool_decide_eq_true ->%N.eqb_eq]. by apply elem_of_list_In. Qed.
Definition only_mods (ev : list (@event CN)) (os : list opid) : bool :=
  forallb (fun e => match e with EInv o op => match op with OInsert _ | OGetOrInsert _ _ | ORemove _ => bool_decide (o ∈ os) | _ => true end | _ => true end) ev.
Lemma only_mods_spec ev os o op k : only_mods ev os = true -> EInv o (op : @oper CN) ∈ ev -> modifies op k -> o ∈ os.
Proof.
  intros H Hi Hm. unfold only_mods in H. rewrite forallb_forall in H. apply elem_of_list_In in Hi. specialize (H _ Hi). cbn in H. destruct op; try done; by apply bool_decide_eq_true in H.
Qed.
Example C71_example : exists (ls : list (@glabel CN)) s ev r3 r4 r5 ys, wf_gcalls ls /\ allowed code_orders ls s ev /\
  in_turn (gcalls ls) ev 1%N [(3, rem 1, ROpt r3); (4, ins 1 9, ROpt r4); (5, get 1, ROpt r5); (6, ite, RIter ys)]%positive /\
  (forall o op, EInv o op ∈ ev -> modifies op 1%N -> (exists op' r, (o, op', r) ∈ [(3, rem 1, ROpt r3); (4, ins 1 9, ROpt r4); (5, get 1, ROpt r5); (6, ite, RIter ys)]%positive) \/
     forall c, c ∈ [(3, rem 1, ROpt r3); (4, ins 1 9, ROpt r4); (5, get 1, ROpt r5); (6, ite, RIter ys)]%positive -> hb (gcalls ls) o c.1.1) /\
  rr_val <$> r3 = Some (1, 7)%N /\ rr_val <$> r5 = Some (1, 9)%N.
Proof.
  destruct (xexec_hb joined (fun ev => inv_rem ev 3 1%N && (inv_ins ev 4 (1, 9)%N && (inv_get ev 5 1%N && (inv_iter ev 6 && (ret_iter ev 6 && (ret_at ev 3 (Some (1, 7)%N) && (ret_at ev 4 None && (ret_at ev 5 (Some (1, 9)%N) && only_mods ev [1; 2; 3; 4]))))))))%positive)
    as (ls & s & ev & Ha & Hw & Hf & Hb).
  { apply wext_wf. vm_compute. reflexivity. }
  { apply (bool_decide_eq_true_1 _). vm_compute. reflexivity. }
  { vm_compute. reflexivity. }
  apply andb_true_iff in Hf as [I3%inv_rem_spec Hf]. apply andb_true_iff in Hf as [I4%inv_ins_spec Hf]. apply andb_true_iff in Hf as [I5%inv_get_spec Hf]. apply andb_true_iff in Hf as [I6%inv_iter_spec Hf]. apply andb_true_iff in Hf as [(ys & R6)%ret_iter_spec Hf].
  apply andb_true_iff in Hf as [(r3 & R3 & V3)%ret_at_spec Hf]. apply andb_true_iff in Hf as [(r4 & R4 & V4)%ret_at_spec Hf]. apply andb_true_iff in Hf as [(r5 & R5 & V5)%ret_at_spec Hf].
  assert (hb (gcalls ls) 3 4)%positive as H34. { eapply (Hb 4%positive (ins 1 9) [3]%positive); [|exact I4|left]. unfold joined. set_solver. }
  assert (hb (gcalls ls) 4 5)%positive as H45. { eapply (Hb 5%positive (get 1) [4]%positive); [|exact I5|left]. unfold joined. set_solver. }
  assert (hb (gcalls ls) 5 6)%positive as H56. { eapply (Hb 6%positive ite [5]%positive); [|exact I6|left]. unfold joined. set_solver. }
  assert (hb (gcalls ls) 1 3)%positive as H13. { eapply (Hb 3%positive (rem 1) [1; 2]%positive); [|exact I3|left]. unfold joined. set_solver. }
  assert (hb (gcalls ls) 2 3)%positive as H23. { eapply (Hb 3%positive (rem 1) [1; 2]%positive); [|exact I3|right; left]. unfold joined. set_solver. }
  exists ls, s, ev, r3, r4, r5, ys. split; [exact Hw|]. split; [exact Ha|]. split; [split|split].
  - intros o op r Hin. repeat (apply elem_of_cons in Hin as [E|Hin]; [injection E as -> -> ->; first [exact (conj I3 (conj R3 eq_refl))|exact (conj I4 (conj R4 eq_refl))|exact (conj I5 (conj R5 eq_refl))|exact (conj I6 (conj R6 Logic.I))]|]). by apply elem_of_nil in Hin.
  - intros i j c1 c2 H1 H2 Hlt. destruct i as [|[|[|[|i]]]], j as [|[|[|[|j]]]]; try lia; try discriminate H1; try discriminate H2; injection H1 as <-; injection H2 as <-; [exact H34|exact (hb_trans _ _ _ _ H34 H45)|exact (hb_trans _ _ _ _ H34 (hb_trans _ _ _ _ H45 H56))|exact H45|exact (hb_trans _ _ _ _ H45 H56)|exact H56].
  - intros o op Hi Hm. pose proof (only_mods_spec _ _ _ _ _ Hf Hi Hm) as Ho.
    assert (hb (gcalls ls) o 3%positive -> forall c : opid * (@oper CN) * (@res CN), c ∈ [(3, rem 1, ROpt r3); (4, ins 1 9, ROpt r4); (5, get 1, ROpt r5); (6, ite, RIter ys)]%positive -> hb (gcalls ls) o c.1.1) as Hall.
    { intros Ho3 c Hin. apply elem_of_cons in Hin as [->|Hin]; [exact Ho3|]. apply elem_of_cons in Hin as [->|Hin]; [exact (hb_trans _ _ _ _ Ho3 H34)|]. apply elem_of_cons in Hin as [->|Hin]; [exact (hb_trans _ _ _ _ Ho3 (hb_trans _ _ _ _ H34 H45))|]. apply elem_of_cons in Hin as [->|Hin]; [exact (hb_trans _ _ _ _ Ho3 (hb_trans _ _ _ _ H34 (hb_trans _ _ _ _ H45 H56)))|]. by apply elem_of_nil in Hin. }
    apply elem_of_cons in Ho as [->|Ho]; [right; exact (Hall H13)|]. apply elem_of_cons in Ho as [->|Ho]; [right; exact (Hall H23)|].
    apply elem_of_cons in Ho as [->|Ho]; [left; eexists _, _; left|]. apply elem_of_cons in Ho as [->|Ho]; [left; eexists _, _; right; left|]. by apply elem_of_nil in Ho.
  - split; [exact V3|exact V5].
Qed.

Print Assumptions C71_in_turn.
Print Assumptions C71_new_key.
