(** * C60: races between callers, with the C11 axioms. *)
From Verif Require Import Model Mem Spec LinSpec LinProps Shape Iter IterSpec IterSys Weak WeakInv WeakStep WeakSys WeakRun Inv WeakCoh WeakWalk WeakTime WeakBase WeakLin PropWeak Concrete PropCoh WeakFree FreeSim FreeStep FreeInv FreeRun PropFree Rc11 Rc11Sim Rc11Conv PropRc11 WeakShape.

(** Call [o] put the element [p] into the map: either with insert, or with get_or_insert_with, which then cannot return anything but New.  (A call that was broken off, or is still running,
    returns nothing.) *)
Definition put_by {C : Config} (ev : list event) (o : opid) (p : Pl) : Prop :=
  EInv o (OInsert p) ∈ ev \/
  exists k f, EInv o (OGetOrInsert k f) ∈ ev /\ p = f k /\ forall r, ERet o r ∈ ev -> exists x, r = REon (New x) /\ rr_val x = p.

(** The element that a call found: what get and remove return, what insert replaces, and what get_or_insert_with says already exists. *)
Definition found {C : Config} (r : res) : option rref :=
  match r with ROpt x => x | REon (Existing x) => Some x | _ => None end.

(** Call [o], about key [k], took the element [p] out of the map. *)
Definition took {C : Config} (ev : list event) (k : Key) (o : opid) (p : Pl) : Prop :=
  exists x, ERet o (ROpt (Some x)) ∈ ev /\ rr_val x = p /\
    ((exists k', EInv o (ORemove k') ∈ ev /\ keqb k' k = true) \/ (exists q, EInv o (OInsert q) ∈ ev /\ keqb (keyof q) k = true)).
Definition eon_val {A} (e : eon A) : A := match e with Existing x | New x => x end.

Section race.
Context {C : Config} {HC : ConfigOk C}.
Implicit Types (o : opid) (op : oper) (k : Key) (l : list entry) (e : entry) (ev : list event) (p : Pl).

Lemma list_source k l a p : spec_run aempty l a -> a k = Some p ->
  exists i e, l !! i = Some e /\ is_put e p /\ keqb (keyof p) k = true /\ forall i' e', i < i' -> l !! i' = Some e' -> ~ changes e' k.
Proof.
  revert a. induction l as [|e l IH] using rev_ind; intros a Hr Ha; [simpl in Hr; by rewrite Hr in Ha|].
  apply spec_run_split in Hr as (b & Hr & b' & Hs & Hb). rewrite Hb in Ha. destruct (spec_step_source _ _ _ _ _ Hs Ha) as [[Hp Hk]|[Hb' Hc]].
  - exists (length l), e. split; [by rewrite lookup_app_r, Nat.sub_diag by lia|]. split; [done|]. split; [done|]. intros i' e' Hi Hl. apply lookup_lt_Some in Hl. rewrite app_length in Hl. simpl in Hl. lia.
  - destruct (IH _ Hr Hb') as (i & e' & Hi & Hp & Hk & Hx). exists i, e'. split; [by apply lookup_app_l_Some|]. split; [done|]. split; [done|]. intros i' e2 Hlt H2.
    apply lookup_app_Some in H2 as [H2|[_ H2]]; [by eapply Hx|]. destruct (i' - length l); [|done]. by injection H2 as <-.
Qed.


Lemma keqb_same k1 k2 k : keqb k1 k2 = true -> keqb k k1 = keqb k k2.
Proof. intros E. destruct (keqb k k1) eqn:E1, (keqb k k2) eqn:E2; try done; exfalso; [rewrite (keqb_trans _ _ _ E1 E) in E2|rewrite keqb_sym in E; rewrite (keqb_trans _ _ _ E2 E) in E1]; done. Qed.
Definition acong (a : amap) : Prop := forall k k', keqb k k' = true -> a k = a k'.
Lemma step_cong a op r a' : acong a -> spec_step a op r a' -> acong a'.
Proof.
  intros Ha Hs k k' Hk. unfold spec_step, put, del, same in Hs.
  destruct op as [q|k0 f|k0|k0| |], r as [x|[x|x]|b0]; try done; try (destruct Hs as [_ Hs]; rewrite !Hs; by apply Ha).
  - destruct Hs as [_ Hs]. rewrite !Hs, (keqb_same _ _ _ Hk), (Ha _ _ Hk). done.
  - destruct Hs as (_ & _ & Hs). rewrite !Hs, (keqb_same _ _ _ Hk), (Ha _ _ Hk). done.
  - destruct Hs as [_ Hs]. rewrite !Hs, (keqb_same _ _ _ Hk), (Ha _ _ Hk). done.
Qed.
Lemma run_cong a l a' : acong a -> spec_run a l a' -> acong a'.
Proof.
  revert a. induction l as [|e l IH]; intros a Ha Hr; simpl in Hr; [intros k k' Hk; rewrite !Hr; by apply Ha|]. destruct Hr as (b & Hs & Hr). eapply IH; [|exact Hr]. by eapply step_cong.
Qed.
Lemma cong0 : acong aempty. Proof. done. Qed.

Lemma goi_keep a l a' k p : acong a -> (forall e, e ∈ l -> op_wf (e_op e) /\ (modifies (e_op e) k -> exists k' f, e_op e = OGetOrInsert k' f)) -> spec_run a l a' -> a k = Some p -> a' k = Some p.
Proof.
  revert a. induction l as [|e l IH]; intros a Hc Hl Hr Ha; simpl in Hr; [by rewrite Hr|]. destruct Hr as (b & Hs & Hr). apply (IH b); [by eapply step_cong|intros e' He'; apply Hl; by right|done|].
  destruct (Hl e) as [Hwf Hm]; [by left|]. destruct e as [o op r]. unfold spec_step, put, del, same in Hs. cbn [e_op e_ret] in *.
  destruct op as [q|k0 f|k0|k0| |], r as [x|[x|x]|b0]; try done; try (destruct Hs as [_ Hs]; by rewrite Hs).
  - destruct Hs as [_ Hs]. rewrite Hs. destruct (keqb (keyof q) k) eqn:E; [|done]. destruct (Hm E) as (? & ? & ?). done.
  - destruct Hs as (Hn & -> & Hs). rewrite Hs. destruct (keqb (keyof (f k0)) k) eqn:E; [|done]. exfalso. simpl in Hwf. assert (keqb k0 k = true) as E2. { eapply keqb_trans; [|exact E]. by rewrite keqb_sym. }
    rewrite (Hc _ _ E2) in Hn. congruence.
  - destruct Hs as [_ Hs]. rewrite Hs. destruct (keqb k0 k) eqn:E; [|done]. destruct (Hm E) as (? & ? & ?). done.
Qed.

(** What the execution says about calls and results. *)
Record told (ls : list clabel) ev : Prop := {
  td_wf : forall o op, EInv o op ∈ ev -> op_wf op;
  td_one : forall o op op', EInv o op ∈ ev -> EInv o op' ∈ ev -> op = op';
  td_ret : forall o r, ERet o r ∈ ev -> exists op, EInv o op ∈ ev /\ r_shape op r /\ new_ok ev o op r;
  td_yield : forall o r, EYield o r ∈ ev -> exists op, EInv o op ∈ ev;
}.
Lemma told_c ls s ev : wf_ccalls ls -> cexec code_orders ls s ev -> told ls ev.
Proof.
  intros Hwf He. split.
  - intros o op Hi. by eapply wf_called.
  - intros o op op'. by apply (WeakShape.inv_unique _ _ _ _ o op op' code_strong Hwf He).
  - intros o r. by apply (ret_inv _ _ _ _ o r code_strong Hwf He).
  - intros o r Hy. destruct (good_exec _ _ _ _ code_strong Hwf He) as (M & H & N & pos & B & _). destruct (b_evy _ _ _ _ _ _ _ B _ _ Hy) as [x Hx]. pose proof (b_ops _ _ _ _ _ _ _ B _ _ Hx) as Hb.
    destruct (w_st x) as [op p|op r0|op f|]; simpl in Hb; try done; exists op; tauto.
Qed.

Section order.
Context (k : Key) (l : list entry) (cls : list clabel) (ev : list event) (Hk : key_order k l cls ev) (Ht : told cls ev).

Lemma ko_pos e i o : l !! i = Some e -> e_id e = o -> forall j e', l !! j = Some e' -> hb cls o (e_id e') -> i < j.
Proof.
  intros Hi <- j e' Hj Hh. assert (LinSpec.before l (e_id e) (e_id e')) as Hb. { apply (ko_order _ _ _ _ Hk); [| |done]; apply elem_of_list_fmap; eexists; (split; [done|]); by eapply elem_of_list_lookup_2. }
  apply before_pos in Hb as (y & z & e1 & e2 & H1 & H2 & E1 & E2 & Hxy). pose proof (ko_once _ _ _ _ Hk) as Hn.
  assert (y = i) as -> by (eapply once_pos; done). assert (z = j) as -> by (eapply once_pos; done). done.
Qed.
Lemma ko_called' e : e ∈ l -> op_wf (e_op e).
Proof. intros Hin. destruct (ko_called _ _ _ _ Hk _ Hin) as [[Hi _]|[_ ->]]; [by eapply td_wf|done]. Qed.
Lemma entry_put e p : e ∈ l -> is_put e p -> put_by ev (e_id e) p.
Proof.
  intros Hin Hp. destruct (ko_called _ _ _ _ Hk _ Hin) as [[Hi Hc]|[_ E]].
  - destruct Hp as [E|(k' & f & E & Er & Ef)]; [left; by rewrite <-E|]. right. exists k', f. rewrite <-E. split; [done|]. split; [done|]. intros r Hr.
    destruct (td_ret _ _ Ht _ _ Hr) as (op & Hi' & Hsh & _). rewrite (td_one _ _ Ht _ _ _ Hi' Hi), E in Hsh. destruct r as [|x| |]; try done.
    assert (Entry (e_id e) (e_op e) (AEon (eon_map rr_val x)) ∈ l) as Hin'. { eapply (ko_complete _ _ _ _ Hk); [done|exact Hr|done|done|done]. }
    apply elem_of_list_lookup in Hin as [i Hi0], Hin' as [j Hj]. assert (i = j) as <- by (eapply once_pos; [apply (ko_once _ _ _ _ Hk)|exact Hi0|exact Hj|done]). rewrite Hi0 in Hj. injection Hj as Hj.
    rewrite Hj in Er. cbn [e_ret] in Er. destruct x as [x|x]; [done|]. injection Er as Er. by exists x.
  - exfalso. destruct Hp as [E'|(k' & f & E' & _)]; congruence.
Qed.
Lemma call_entry o op r v : EInv o op ∈ ev -> ERet o r ∈ ev -> concerns op k -> val_of r = Some v -> v <> ABool false -> exists i, l !! i = Some (Entry o op v).
Proof. intros. apply elem_of_list_lookup. by eapply (ko_complete _ _ _ _ Hk). Qed.

(** The state in which the [i]-th call finds the map. *)
Lemma entry_state i e : l !! i = Some e -> exists b b', spec_run aempty (take i l) b /\ spec_step b (e_op e) (e_ret e) b' /\ acong b.
Proof. intros Hi. destruct (ko_legal _ _ _ _ Hk) as [a Ha]. destruct (spec_at _ _ _ _ _ Ha Hi) as (b & b' & H1 & H2 & _). exists b, b'. split; [done|]. split; [done|]. eapply run_cong; [apply cong0|done]. Qed.

(** What a call found, somebody put there. *)
Lemma found_entry o op r x : EInv o op ∈ ev -> ERet o r ∈ ev -> concerns op k -> found r = Some x ->
  exists i j e e', l !! i = Some e /\ l !! j = Some e' /\ i < j /\ e_id e' = o /\ e_op e' = op /\ val_of r = Some (e_ret e') /\ is_put e (rr_val x) /\ keqb (keyof (rr_val x)) k = true /\
    forall i' e2, i < i' -> i' < j -> l !! i' = Some e2 -> ~ changes e2 k.
Proof.
  intros Hi Hr Hc Hf. destruct (td_ret _ _ Ht _ _ Hr) as (op' & Hi' & Hsh & _). rewrite (td_one _ _ Ht _ _ _ Hi' Hi) in Hsh.
  assert (exists v, val_of r = Some v /\ v <> ABool false) as (v & Hv & Hnv). { destruct r as [[y|]|[y|y]| |]; simpl in Hf; try done; eexists; (split; [reflexivity|done]). }
  destruct (call_entry _ _ _ _ Hi Hr Hc Hv Hnv) as [j Hj]. destruct (entry_state _ _ Hj) as (b & b' & Hb & Hs & Hg). cbn [e_op e_ret] in Hs.
  assert (b k = Some (rr_val x)) as Hbk.
  { destruct op as [q|k0 f|k0|k0| |], r as [[y|]|[y|y]|b0|ys]; try done; simpl in Hf; injection Hf as ->; injection Hv as <-; destruct Hs as [Hs _]; rewrite <-(Hg _ _ Hc); congruence. }
  destruct (list_source _ _ _ _ Hb Hbk) as (i & e & Hie & Hp & Hkk & Hx). apply lookup_take_Some in Hie as [Hie Hlt]. exists i, j, e, (Entry o op v). repeat (split; [done|]).
  intros i' e2 H1 H2 H3. eapply Hx; [exact H1|]. by rewrite lookup_take.
Qed.
Lemma found_put o op r x : EInv o op ∈ ev -> ERet o r ∈ ev -> concerns op k -> found r = Some x -> exists o', o' <> o /\ put_by ev o' (rr_val x) /\ ~ hb cls o o'.
Proof.
  intros Hi Hr Hc Hf. destruct (found_entry _ _ _ _ Hi Hr Hc Hf) as (i & j & e & e' & He & He' & Hlt & <- & _ & _ & Hp & _). exists (e_id e). split; [|split].
  - intros E. assert (i = j); [|lia]. eapply once_pos; [apply (ko_once _ _ _ _ Hk)|done|done|done].
  - apply entry_put; [by eapply elem_of_list_lookup_2|done].
  - intros Hh. assert (j < i) by (eapply ko_pos; [exact He'|reflexivity|exact He|done]). lia.
Qed.

(** Only one takes it out. *)
Lemma one_taker_key : exists R : opid -> opid -> Prop,
    (forall o p, took ev k o p -> exists o', R o o' /\ put_by ev o' p /\ o' <> o /\ ~ hb cls o o') /\
    (forall o1 o2 o', R o1 o' -> R o2 o' -> o1 = o2).
Proof.
  pose proof (ko_once _ _ _ _ Hk) as Hn.
  exists (fun o o' => exists i j e e', l !! i = Some e /\ l !! j = Some e' /\ i < j /\ e_id e' = o /\ e_id e = o' /\ changes e' k /\ forall i' e2, i < i' -> i' < j -> l !! i' = Some e2 -> ~ changes e2 k). split.
  - intros o p (x & Hr & Hv & Hop).
    assert (exists op, EInv o op ∈ ev /\ concerns op k /\ ((exists k', op = ORemove k' /\ keqb k' k = true) \/ exists q, op = OInsert q /\ keqb (keyof q) k = true)) as (op & Hi & Hc & Hop').
    { destruct Hop as [(k' & Hi & Hkk)|(q & Hi & Hkk)]; eexists; (split; [exact Hi|]); (split; [exact Hkk|]); [left; by exists k'|right; by exists q]. }
    destruct (found_entry _ _ _ x Hi Hr Hc eq_refl) as (i & j & e & e' & He & He' & Hlt & Hid & Eop & Er & Hp & Hkk & Hx). rewrite Hv in *. exists (e_id e). split; [|split; [|split]].
    + exists i, j, e, e'. repeat (split; [done|]). split; [|done]. simpl in Er. rewrite Hv in Er. injection Er as Er. destruct Hop' as [(k' & -> & Hq)|(q & -> & Hq)].
      * right. exists k', p. done.
      * left. exists q. split; [by left|done].
    + apply entry_put; [by eapply elem_of_list_lookup_2|done].
    + intros E. assert (i = j); [|lia]. eapply once_pos; [done|done|done|congruence].
    + intros Hh. assert (j < i); [|lia]. eapply ko_pos; [exact He'|exact Hid|exact He|done].
  - intros o1 o2 o' (i1 & j1 & e1 & f1 & He1 & Hf1 & Hlt1 & <- & E1 & Hc1 & Hx1) (i2 & j2 & e2 & f2 & He2 & Hf2 & Hlt2 & <- & E2 & Hc2 & Hx2).
    assert (i1 = i2) as <- by (eapply once_pos; [done|done|done|congruence]). destruct (lt_eq_lt_dec j1 j2) as [[Hlt| ->]|Hlt].
    + exfalso. by eapply (Hx2 j1).
    + congruence.
    + exfalso. by eapply (Hx1 j2).
Qed.

(** Only one wins. *)
Lemma goi_between o1 k1 f1 (e1 : eon Pl) o2 k2 f2 (e2 : eon Pl) i1 i2 : l !! i1 = Some (Entry o1 (OGetOrInsert k1 f1) (AEon e1)) -> l !! i2 = Some (Entry o2 (OGetOrInsert k2 f2) (AEon e2)) -> i1 < i2 ->
  keqb k1 k = true -> keqb k2 k = true ->
  (forall o op, EInv o op ∈ ev -> modifies op k -> (exists k' f, op = OGetOrInsert k' f) \/ hb cls o o1 \/ hb cls o2 o) ->
  e2 = Existing (match e1 with Existing p | New p => p end).
Proof.
  intros H1 H2 Hlt K1 K2 Hm. destruct (ko_legal _ _ _ _ Hk) as [a Ha]. destruct (spec_at _ _ _ _ _ Ha H1) as (b & b' & Hb & Hs & Hr). cbn [e_op e_ret] in Hs.
  assert (acong b) as Cb by (eapply run_cong; [apply cong0|exact Hb]). assert (acong b') as Cb' by (by eapply step_cong).
  assert (drop (S i1) l !! (i2 - S i1) = Some (Entry o2 (OGetOrInsert k2 f2) (AEon e2))) as H2'. { rewrite lookup_drop. rewrite <-H2. f_equal. lia. }
  destruct (spec_at _ _ _ _ _ Hr H2') as (c & c' & Hc & Hs2 & _). cbn [e_op e_ret] in Hs2. assert (acong c) as Cc by (eapply run_cong; [exact Cb'|exact Hc]).
  assert (op_wf (OGetOrInsert k1 f1)) as Hwf. { apply elem_of_list_lookup_2 in H1. by apply ko_called' in H1. }
  set (p := match e1 with Existing p | New p => p end). assert (b' k = Some p) as Hp.
  { destruct e1 as [q|q]; simpl in Hs; unfold p.
    - destruct Hs as [Hs Hsa]. rewrite Hsa, <-(Cb _ _ K1). done.
    - destruct Hs as (_ & -> & Hs). rewrite Hs. simpl in Hwf. by rewrite (keqb_trans _ _ _ Hwf K1). }
  assert (c k = Some p) as Hcp.
  { eapply goi_keep; [exact Cb'| |exact Hc|done]. intros e Hin. apply elem_of_take in Hin as (n & Hn & Hnl). rewrite lookup_drop in Hn. assert (e ∈ l) as Hel by (by eapply elem_of_list_lookup_2).
    split; [by apply ko_called'|]. intros Hmd. destruct (ko_called _ _ _ _ Hk _ Hel) as [[Hi _]|[_ E]]; [|by rewrite E in Hmd]. destruct (Hm _ _ Hi Hmd) as [Hg|[Hh|Hh]]; [done| |]; exfalso.
    - pose proof (ko_pos _ _ _ Hn eq_refl _ _ H1 Hh). lia.
    - pose proof (ko_pos _ _ _ H2 eq_refl _ _ Hn Hh). lia. }
  rewrite <-(Cc _ _ K2) in Hcp. destruct e2 as [q|q]; simpl in Hs2; destruct Hs2 as [Hs2 _]; congruence.
Qed.
Lemma one_winner_key o1 k1 f1 (e1 : eon rref) o2 k2 f2 (e2 : eon rref) : EInv o1 (OGetOrInsert k1 f1) ∈ ev -> EInv o2 (OGetOrInsert k2 f2) ∈ ev -> ERet o1 (REon e1) ∈ ev -> ERet o2 (REon e2) ∈ ev ->
  keqb k1 k = true -> keqb k2 k = true -> o1 <> o2 ->
  (forall o op, EInv o op ∈ ev -> modifies op k -> (exists k' f, op = OGetOrInsert k' f) \/ (hb cls o o1 /\ hb cls o o2) \/ (hb cls o1 o /\ hb cls o2 o)) ->
  (exists x, e1 = Existing x) \/ (exists x, e2 = Existing x).
Proof.
  intros I1 I2 R1 R2 K1 K2 Hne Hm. destruct (call_entry _ _ _ _ I1 R1 K1 eq_refl ltac:(done)) as [i1 H1]. destruct (call_entry _ _ _ _ I2 R2 K2 eq_refl ltac:(done)) as [i2 H2].
  destruct (lt_eq_lt_dec i1 i2) as [[Hlt| ->]|Hlt].
  - right. assert (eon_map rr_val e2 = Existing (match eon_map rr_val e1 with Existing p | New p => p end)) as E. { eapply goi_between; [exact H1|exact H2|done|done|done|]. intros o op Hi Hmd. destruct (Hm _ _ Hi Hmd) as [?|[[? _]|[_ ?]]]; eauto. }
    destruct e2; [eauto|done].
  - congruence.
  - left. assert (eon_map rr_val e1 = Existing (match eon_map rr_val e2 with Existing p | New p => p end)) as E. { eapply goi_between; [exact H2|exact H1|done|done|done|]. intros o op Hi Hmd. destruct (Hm _ _ Hi Hmd) as [?|[[_ ?]|[? _]]]; eauto. }
    destruct e1; [eauto|done].
Qed.
Lemma same_element_key o1 k1 f1 (e1 : eon rref) o2 k2 f2 (e2 : eon rref) : EInv o1 (OGetOrInsert k1 f1) ∈ ev -> EInv o2 (OGetOrInsert k2 f2) ∈ ev -> ERet o1 (REon e1) ∈ ev -> ERet o2 (REon e2) ∈ ev ->
  keqb k1 k = true -> keqb k2 k = true ->
  (forall o op, EInv o op ∈ ev -> modifies op k -> (exists k' f, op = OGetOrInsert k' f) \/ (hb cls o o1 /\ hb cls o o2) \/ (hb cls o1 o /\ hb cls o2 o)) ->
  rr_val (eon_val e1) = rr_val (eon_val e2).
Proof.
  intros I1 I2 R1 R2 K1 K2 Hm. destruct (call_entry _ _ _ _ I1 R1 K1 eq_refl ltac:(done)) as [i1 H1]. destruct (call_entry _ _ _ _ I2 R2 K2 eq_refl ltac:(done)) as [i2 H2].
  destruct (lt_eq_lt_dec i1 i2) as [[Hlt| ->]|Hlt].
  - assert (eon_map rr_val e2 = Existing (match eon_map rr_val e1 with Existing p | New p => p end)) as E. { eapply goi_between; [exact H1|exact H2|done|done|done|]. intros o op Hi Hmd. destruct (Hm _ _ Hi Hmd) as [?|[[? _]|[_ ?]]]; eauto. }
    destruct e1, e2; simpl in *; congruence.
  - rewrite H1 in H2. injection H2 as _ _ _ E. destruct e1, e2; simpl in *; congruence.
  - assert (eon_map rr_val e1 = Existing (match eon_map rr_val e2 with Existing p | New p => p end)) as E. { eapply goi_between; [exact H2|exact H1|done|done|done|]. intros o op Hi Hmd. destruct (Hm _ _ Hi Hmd) as [?|[[_ ?]|[? _]]]; eauto. }
    destruct e1, e2; simpl in *; congruence.
Qed.
End order.
End race.

Section theorems.
Context {C : Config} {HC : ConfigOk C}.
Implicit Types (s : gstate) (ev : list event).

Lemma told_g ls s ev : wf_gcalls ls -> allowed code_orders ls s ev -> told (gcalls ls) ev.
Proof. intros Hwf Ha. destruct (C57_unobservable _ _ _ Hwf Ha) as (ls' & s' & He & Hwf' & _). destruct (told_c _ _ _ Hwf' He) as [H1 H2 H3 H4]. by split. Qed.

(** No call runs its closure more than once, and only get_or_insert_with runs one, with the key it was given. *)
Theorem C60_closure_at_most_once ls s ev o : wf_gcalls ls -> allowed code_orders ls s ev -> length (Spec.calls_of ev o) <= 1.
Proof. intros Hwf Ha. destruct (C57_unobservable _ _ _ Hwf Ha) as (ls' & s' & He & Hwf' & _). apply (cs_calls _ _ (csh_exec _ _ _ _ code_strong Hwf' He)). Qed.
(** Who gets New has run the closure, once, and the new element is what the closure made. *)
Theorem C60_new ls s ev o x : wf_gcalls ls -> allowed code_orders ls s ev -> ERet o (REon (New x)) ∈ ev ->
  exists k f, EInv o (OGetOrInsert k f) ∈ ev /\ Spec.calls_of ev o = [k] /\ rr_val x = f k.
Proof.
  intros Hwf Ha Hr. destruct (td_ret _ _ (told_g _ _ _ Hwf Ha) _ _ Hr) as (op & Hi & _ & Hn). destruct (Hn x eq_refl) as (k & f & -> & H1 & H2). by exists k, f.
Qed.

(** What a call about key [k] finds has this key and was put into the map by another call, that does not happen after it. *)
Theorem C60_found_was_put ls s ev k o op r x : wf_gcalls ls -> allowed code_orders ls s ev ->
  EInv o op ∈ ev -> concerns op k -> ERet o r ∈ ev -> found r = Some x ->
  keqb (keyof (rr_val x)) k = true /\ exists o', o' <> o /\ put_by ev o' (rr_val x) /\ ~ hb (gcalls ls) o o'.
Proof.
  intros Hwf Ha Hi Hc Hr Hf. destruct (C57_key_order _ _ _ k Hwf Ha) as [l Hl]. pose proof (told_g _ _ _ Hwf Ha) as Ht. split; [|by eapply found_put].
  by destruct (found_entry _ _ _ _ Hl Ht _ _ _ _ Hi Hr Hc Hf) as (i & j & e & e' & _ & _ & _ & _ & _ & _ & _ & Hkk & _).
Qed.

(** The calls that took an element out of the map can be assigned calls that put it in, different ones to different calls: no two threads get hold of the same element. *)
Theorem C60_taken_once ls s ev k : wf_gcalls ls -> allowed code_orders ls s ev ->
  exists R : opid -> opid -> Prop,
    (forall o p, took ev k o p -> exists o', R o o' /\ put_by ev o' p /\ o' <> o /\ ~ hb (gcalls ls) o o') /\
    (forall o1 o2 o', R o1 o' -> R o2 o' -> o1 = o2).
Proof. intros Hwf Ha. destruct (C57_key_order _ _ _ k Hwf Ha) as [l Hl]. eapply one_taker_key; [exact Hl|by eapply told_g]. Qed.

(** Two calls of get_or_insert_with with the same key, where every other call that could change this key is a get_or_insert_with too, or happens before both or after both of them:
    at most one of the two gets New, and both get the same element. *)
Theorem C60_one_winner ls s ev k o1 k1 f1 e1 o2 k2 f2 e2 : wf_gcalls ls -> allowed code_orders ls s ev ->
  EInv o1 (OGetOrInsert k1 f1) ∈ ev -> EInv o2 (OGetOrInsert k2 f2) ∈ ev -> ERet o1 (REon e1) ∈ ev -> ERet o2 (REon e2) ∈ ev -> keqb k1 k = true -> keqb k2 k = true -> o1 <> o2 ->
  (forall o op, EInv o op ∈ ev -> modifies op k -> (exists k' f, op = OGetOrInsert k' f) \/ (hb (gcalls ls) o o1 /\ hb (gcalls ls) o o2) \/ (hb (gcalls ls) o1 o /\ hb (gcalls ls) o2 o)) ->
  ((exists x, e1 = Existing x) \/ (exists x, e2 = Existing x)) /\ rr_val (eon_val e1) = rr_val (eon_val e2).
Proof.
  intros Hwf Ha I1 I2 R1 R2 K1 K2 Hne Hm. destruct (C57_key_order _ _ _ k Hwf Ha) as [l Hl]. pose proof (told_g _ _ _ Hwf Ha) as Ht. split.
  - exact (one_winner_key _ _ _ _ Hl Ht _ _ _ _ _ _ _ _ I1 I2 R1 R2 K1 K2 Hne Hm).
  - exact (same_element_key _ _ _ _ Hl Ht _ _ _ _ _ _ _ _ I1 I2 R1 R2 K1 K2 Hm).
Qed.
End theorems.

(** ** An execution *)
Definition inv_goi (ev : list (@event CN)) (o : opid) (k : N) : bool := existsb (fun e => match e with EInv o' (OGetOrInsert k' _) => bool_decide (o' = o /\ k' = k) | _ => false end) ev.
Definition inv_rem (ev : list (@event CN)) (o : opid) (k : N) : bool := existsb (fun e => match e with EInv o' (ORemove k') => bool_decide (o' = o /\ k' = k) | _ => false end) ev.
Definition ret_goi (ev : list (@event CN)) (o : opid) (new : bool) (v : N * N) : bool :=
  existsb (fun e => match e with ERet o' (REon x) => bool_decide (o' = o /\ rr_val (eon_val x) = v) && eqb new (match x with New _ => true | _ => false end) | _ => false end) ev.
Lemma inv_goi_spec ev o k : inv_goi ev o k = true -> exists f, EInv o (OGetOrInsert k f : @oper CN) ∈ ev.
Proof. intros H. apply existsb_exists in H as (e & Hin & He). destruct e as [o' [|k' f| | | |]| | |]; try done. apply bool_decide_eq_true in He as [-> ->]. exists f. by apply elem_of_list_In. Qed.
Lemma inv_rem_spec ev o k : inv_rem ev o k = true -> EInv o (ORemove k : @oper CN) ∈ ev.
Proof. intros H. apply existsb_exists in H as (e & Hin & He). destruct e as [o' [| | |k'| |]| | |]; try done. apply bool_decide_eq_true in He as [-> ->]. by apply elem_of_list_In. Qed.
Lemma ret_goi_spec ev o new v : ret_goi ev o new v = true -> exists x : rref, ERet o (REon (if new then New x else Existing x)) ∈ ev /\ rr_val x = v.
Proof.
  intros H. apply existsb_exists in H as (e & Hin & He). destruct e as [|o' [|x| |]| |]; try done. apply andb_true_iff in He as [He Hb]. apply bool_decide_eq_true in He as [-> Hx]. apply elem_of_list_In in Hin.
  destruct x as [x|x], new; try done; by exists x.
Qed.
Definition wrace : list ccmd := [CI 1 (goi 1 7) []; CI 2 (goi 1 8) []; CO 1 0; CR 2; CR 1; CI 3 (rem 1) [1; 2]; CI 4 (ins 1 9) [1; 2]; CO 3 1; CR 4; CR 3; CI 5 (get 1) [4]; CR 5]%positive.
(* Calls 1 and 2 race for key 1: call 2 wins, and call 1 gets its element.  Then call 4 replaces it while call 3, that has looked before, removes the key: both take an element out, not the same. *)
Example C60_example : exists (ls : list (@glabel CN)) s ev f1 f2 x1 x2, wf_gcalls ls /\ allowed code_orders ls s ev /\
  EInv 1%positive (OGetOrInsert 1%N f1) ∈ ev /\ EInv 2%positive (OGetOrInsert 1%N f2) ∈ ev /\ ERet 1%positive (REon (Existing x1)) ∈ ev /\ ERet 2%positive (REon (New x2)) ∈ ev /\
  (forall o op, EInv o op ∈ ev -> modifies op 1%N -> (exists k' f, op = OGetOrInsert k' f) \/
     (hb (gcalls ls) o 1%positive /\ hb (gcalls ls) o 2%positive) \/ (hb (gcalls ls) 1%positive o /\ hb (gcalls ls) 2%positive o)) /\
  took ev 1%N 4%positive (1, 8)%N /\ took ev 1%N 3%positive (1, 9)%N.
Proof.
  destruct (cexec_check code_orders wrace (fun ls s ev =>
    inv_goi ev 1 1%N && (inv_goi ev 2 1%N && (ret_goi ev 1 false (1, 8)%N && (ret_goi ev 2 true (1, 8)%N && (inv_rem ev 3 1%N && (inv_ins ev 4 (1, 9)%N && (ret_at ev 4 (Some (1, 8)%N) && (ret_at ev 3 (Some (1, 9)%N) &&
    (hbd ls 1 3 && (hbd ls 2 3 && (hbd ls 1 4 && (hbd ls 2 4 &&
    forallb (fun e => match e with EInv o op => match op with OGetOrInsert _ _ | OGet _ => true | _ => bool_decide (o = 3%positive \/ o = 4%positive) end | _ => true end) ev))))))))))))%positive)
    as (ls & s & ev & He & Hwf & Hf).
  { vm_compute. reflexivity. }
  destruct (conv_allowed _ _ _ Hwf He) as (ls' & s' & Ha & Hwf' & _ & Hls). clear He Hwf.
  assert (forall o1 o2, hb ls o1 o2 -> hb (gcalls ls') o1 o2) as Hhb. { intros o1 o2. apply hb_same. intros o op ps. rewrite <-Hls. unfold gcalls. rewrite elem_of_list_omap. split.
    - intros [ds Hin]. by exists (GInv o op ps ds).
    - intros (lb & Hin & E). destruct lb as [o' op' ps' ds| | | | |]; try discriminate E. injection E as -> -> ->. by exists ds. }
  apply andb_true_iff in Hf as [[f1 I1]%inv_goi_spec Hf]. apply andb_true_iff in Hf as [[f2 I2]%inv_goi_spec Hf]. apply andb_true_iff in Hf as [(x1 & R1 & V1)%ret_goi_spec Hf].
  apply andb_true_iff in Hf as [(x2 & R2 & V2)%ret_goi_spec Hf]. apply andb_true_iff in Hf as [I3%inv_rem_spec Hf]. apply andb_true_iff in Hf as [I4%inv_ins_spec Hf].
  apply andb_true_iff in Hf as [(x4 & R4 & V4)%ret_at_spec Hf]. apply andb_true_iff in Hf as [(x3 & R3 & V3)%ret_at_spec Hf].
  apply andb_true_iff in Hf as [H13%hbd_spec Hf]. apply andb_true_iff in Hf as [H23%hbd_spec Hf]. apply andb_true_iff in Hf as [H14%hbd_spec Hf]. apply andb_true_iff in Hf as [H24%hbd_spec Hf].
  exists ls', s', ev, f1, f2, x1, x2. refine (conj Hwf' (conj Ha (conj I1 (conj I2 (conj R1 (conj R2 (conj _ (conj _ _)))))))).
  - intros o op Hin Hm. rewrite forallb_forall in Hf. apply elem_of_list_In, Hf in Hin. destruct op as [p|k f|k|k| |]; try (by destruct Hm); [|left; by exists k, f|]; right; right; apply bool_decide_eq_true in Hin as [-> | ->]; split; by apply Hhb.
  - destruct x4 as [x4|]; [|done]. injection V4 as V4. exists x4. split; [done|]. split; [done|]. right. exists (1, 9)%N. split; [exact I4|reflexivity].
  - destruct x3 as [x3|]; [|done]. injection V3 as V3. exists x3. split; [done|]. split; [done|]. left. exists 1%N. split; [exact I3|reflexivity].
Qed.

Print Assumptions C60_closure_at_most_once.
Print Assumptions C60_new.
Print Assumptions C60_found_was_put.
Print Assumptions C60_taken_once.
Print Assumptions C60_one_winner.
