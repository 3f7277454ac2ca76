(** * C41 to C45: what the callers see on weakly ordered memory *)
From Verif Require Import Model Mem Spec LinSpec Iter IterSpec Concrete Weak WeakInv WeakStep WeakSys WeakRun WeakCoh WeakBase WeakLin PropWeak.

Section theorems.
Context {C : Config} {HC : ConfigOk C}.

(** C41.  With the memory orderings of the code: whatever old values the loads return (as far as coherence allows), all the calls about one key can be put into one
    order, the same for all threads, that respects happens-before and in which they behave as on a plain map. *)
Theorem C41_key_order (ls : list clabel) (s : cstate) (ev : list event) (k : Key) :
  wf_ccalls ls -> cexec code_orders ls s ev -> exists l, key_order k l ls ev.
Proof. intros Hwf He. by eapply key_order_exec; [apply code_strong| |]. Qed.

(** The same for any orderings at least as strong. *)
Theorem C41_key_order_strong (w : orders) (ls : list clabel) (s : cstate) (ev : list event) (k : Key) :
  strong w -> wf_ccalls ls -> cexec w ls s ev -> exists l, key_order k l ls ev.
Proof. apply key_order_exec. Qed.

(** C42.  No call panics or runs into undefined behaviour, whatever old values it reads. *)
Theorem C42_no_failure (ls : list clabel) (s : cstate) (ev : list event) :
  wf_ccalls ls -> cexec code_orders ls s ev -> forall o x op f, w_ops (c_w s) !! o = Some x -> w_st x <> SFail op f.
Proof.
  intros Hwf He o x op f Hx E. destruct (good_exec _ _ _ _ code_strong Hwf He) as (M & H & N & pos & B & _).
  pose proof (b_ops _ _ _ _ _ _ _ B _ _ Hx) as Hb. by rewrite E in Hb.
Qed.

(** ** C43: a thread sees what it wrote *)
Definition modifies (op : oper) (k : Key) : Prop :=
  match op with
  | OInsert p => keqb (keyof p) k = true
  | OGetOrInsert k' _ | ORemove k' => keqb k' k = true
  | _ => False
  end.

Lemma spec_keep a l a' k : (forall e, e ∈ l -> op_wf (e_op e) /\ ~ modifies (e_op e) k) -> spec_run a l a' -> a' k = a k.
Proof.
  revert a. induction l as [|e l IH]; intros a Hl Hr; simpl in Hr; [by rewrite Hr|]. destruct Hr as (b & Hs & Hr).
  rewrite (IH b); [|intros e' He'; apply Hl; by right|done]. destruct (Hl e) as [Hwf Hm]; [by left|]. unfold spec_step, put, del, same in Hs.
  destruct e as [o op r]. cbn [e_op e_ret] in *. destruct op as [p|k0 f|k0|k0| |], r as [x|[x|x]|b0]; try done; simpl in Hm, Hwf; try (destruct Hs as [_ Hs]; by rewrite Hs).
  - destruct Hs as [_ Hs]. rewrite Hs. destruct (keqb (keyof p) k); [by destruct Hm|done].
  - destruct Hs as (_ & -> & Hs). rewrite Hs. destruct (keqb (keyof (f k0)) k) eqn:E; [|done]. destruct Hm. eapply keqb_trans; [|done]. by rewrite keqb_sym.
  - destruct Hs as [_ Hs]. rewrite Hs. destruct (keqb k0 k); [by destruct Hm|done].
Qed.
Lemma spec_run_split a l1 l2 a' : spec_run a (l1 ++ l2) a' -> exists b, spec_run a l1 b /\ spec_run b l2 a'.
Proof.
  revert a. induction l1 as [|e l1 IH]; intros a; simpl; [intros Hr; exists a; done|]. intros (b & Hs & Hr). destruct (IH _ Hr) as (c & H1 & H2). exists c. split; [|done]. by exists b.
Qed.
(** With every call only once in the list, "before" is a strict order. *)
Lemma before_pos l o1 o2 : before l o1 o2 -> exists i j e1 e2, l !! i = Some e1 /\ l !! j = Some e2 /\ e_id e1 = o1 /\ e_id e2 = o2 /\ i < j.
Proof.
  intros (l1 & l2 & e1 & e2 & -> & H1 & H2 & <- & <-). apply elem_of_list_lookup in H1 as [i Hi]. apply elem_of_list_lookup in H2 as [j Hj]. exists i, (length l1 + j), e1, e2.
  pose proof (lookup_lt_Some _ _ _ Hi). split; [by rewrite lookup_app_l|]. split; [by rewrite lookup_app_r, Nat.add_comm, Nat.add_sub by lia|]. split; [done|]. split; [done|]. lia.
Qed.
Lemma once_pos (l : list entry) i j e e' : NoDup (e_id <$> l) -> l !! i = Some e -> l !! j = Some e' -> e_id e = e_id e' -> i = j.
Proof. intros Hn Hi Hj E. eapply (NoDup_lookup _ _ _ (e_id e)); [exact Hn| |]; rewrite list_lookup_fmap; [by rewrite Hi|rewrite Hj; simpl; by rewrite E]. Qed.
Lemma hb_called ls s ev w : cexec w ls s ev -> forall o op ps, CInv o op ps ∈ ls -> EInv o op ∈ ev.
Proof.
  intros He o op ps Hin. unfold cexec in He. revert He Hin. generalize cinit. revert ev. induction ls as [|lb ls IH]; intros ev s0 Hr Hin; [by apply elem_of_nil in Hin|].
  cbn [crun] in Hr. destruct (cstep w s0 lb) as [[s1 ev1]|] eqn:E1; [|done]. destruct (crun w s1 ls) as [[s2 ev2]|] eqn:E2; [|done]. injection Hr as <- <-. apply elem_of_app.
  apply elem_of_cons in Hin as [<-|Hin]; [|right; by eapply IH]. left. cbn [cstep] in E1. destruct (forallb _ _); [|done]. destruct (wstep w (c_w s0) (WInv o op)) as [[s3 ev3]|] eqn:E3; [|done].
  injection E1 as <- <-. cbn [wstep] in E3. destruct (w_ops (c_w s0) !! o); [done|]. injection E3 as <- <-. by left.
Qed.
Lemma wf_called ls s ev w o op : wf_ccalls ls -> cexec w ls s ev -> EInv o op ∈ ev -> op_wf op.
Proof.
  intros Hwf He. unfold cexec in He. revert He Hwf. generalize cinit. revert ev. induction ls as [|lb ls IH]; intros ev s0 Hr Hwf Hin; cbn [crun] in Hr; [injection Hr as <- <-; by apply elem_of_nil in Hin|].
  destruct (cstep w s0 lb) as [[s1 ev1]|] eqn:E1; [|done]. destruct (crun w s1 ls) as [[s2 ev2]|] eqn:E2; [|done]. injection Hr as <- <-. apply elem_of_app in Hin as [Hin|Hin].
  - assert (exists ps, lb = CInv o op ps) as [ps ->]; [|eapply Hwf; by left]. destruct lb as [o' op' ps|o' n spur a]; cbn [cstep] in E1.
    + destruct (forallb _ _); [|done]. destruct (wstep w (c_w s0) (WInv o' op')) as [[s3 ev3]|] eqn:E3; [|done]. injection E1 as <- <-. cbn [wstep] in E3.
      destruct (w_ops (c_w s0) !! o'); [done|]. injection E3 as <- <-. apply elem_of_list_singleton in Hin. injection Hin as -> ->. by exists ps.
    + exfalso. destruct (wstep w (c_w s0) (WStep o' n spur a)) as [[s3 ev3]|] eqn:E3; [|done].
      assert (EInv o op ∈ ev3) as Hin3. { destruct (next_cell w (c_w s0) o'); [|by injection E1 as <- <-]. destruct (_ <? _); [done|]. by injection E1 as <- <-. }
      assert (forall s1 m0 op0 tv pv p, w_local s1 o' op0 tv pv m0 p spur a = Some (s3, ev3) -> False) as Hloc.
      { intros s1' m0 op0 tv pv p. unfold w_local. destruct (see_step tv pv m0 p spur a) as [[[m1 nx] acts]|]; [|done]. intros [= <- <-]. unfold nx_events in Hin3. apply elem_of_app in Hin3 as [Hx|Hx].
        - apply elem_of_list_fmap in Hx as (y & Hy & _). by destruct y.
        - destruct nx; try (by apply elem_of_nil in Hx). by apply elem_of_list_singleton in Hx. }
      assert (forall s1 op0 tv pv c od p, w_write s1 o' op0 tv pv c od p spur a = Some (s3, ev3) -> False) as Hwr.
      { intros s1' op0 tv pv c od p. unfold w_write. destruct (see_step tv pv (w_mem s1') p spur a) as [[[m1 nx] acts]|]; [|done]. intros [= <- <-]. unfold nx_events in Hin3. apply elem_of_app in Hin3 as [Hx|Hx].
        - apply elem_of_list_fmap in Hx as (y & Hy & _). by destruct y.
        - destruct nx; try (by apply elem_of_nil in Hx). by apply elem_of_list_singleton in Hx. }
      cbn [wstep] in E3. destruct (w_ops (c_w s0) !! o') as [[[op0 p|op0 r|op0 f|] tv pv]|]; try done. destruct (access w p) as [[[c kd] ord]|]; [|by eapply Hloc].
      destruct (negb (base_seen tv pv c)); [injection E3 as <- <-; by apply elem_of_nil in Hin3|]. destruct (w_hist (c_w s0) c) as [|h0 h]; [injection E3 as <- <-; by apply elem_of_nil in Hin3|].
      destruct ((h0 :: h) !! n) as [[v W]|]; [|done]. destruct kd; [by eapply Hloc|by eapply Hloc| |].
      * destruct (bool_decide _); [|done]. by eapply Hwr.
      * destruct (bool_decide _ && _); [by eapply Hwr|]. destruct (cas_wins _ _ _); [done|]. by eapply Hloc.
  - eapply IH; [exact E2| |done]. intros o0 op0 ps0 Hi. eapply Hwf. by right.
Qed.

(** After [oi], and before [og], nothing modified key [k]: so [og] finds what [oi] left. *)
Lemma lookup_after w (ls : list clabel) (s : cstate) (ev : list event) (k : Key) l oi opi vi og x : wf_ccalls ls -> cexec w ls s ev -> key_order k l ls ev ->
  Entry oi opi vi ∈ l -> Entry og (OGet k) (AOpt x) ∈ l -> hb ls oi og ->
  (forall o op, EInv o op ∈ ev -> modifies op k -> o = oi \/ hb ls o oi \/ hb ls og o) ->
  exists b b', spec_step b opi vi b' /\ x = b' k.
Proof.
  intros Hwf He [Hn Hc Hcp _ _ [a Hl] Ho] Li Lg Hh Hex.
  assert (forall o, o ∈ (e_id <$> l) -> hb ls o oi -> before l o oi) as Hb1. { intros o Hin. apply Ho; [done|]. apply elem_of_list_fmap. by exists (Entry oi opi vi). }
  assert (forall o, o ∈ (e_id <$> l) -> hb ls og o -> before l og o) as Hb2. { intros o Hin. apply Ho; [|done]. apply elem_of_list_fmap. by exists (Entry og (OGet k) (AOpt x)). }
  assert (before l oi og) as Hb. { apply Ho; [| |done]; apply elem_of_list_fmap; [by exists (Entry oi opi vi)|by exists (Entry og (OGet k) (AOpt x))]. }
  apply before_pos in Hb as (i & j & ei & eg & Hi & Hj & Eii & Ejj & Hij).
  apply elem_of_list_lookup in Li as [i' Hi']. assert (i' = i) as -> by (eapply once_pos; [done|exact Hi'|exact Hi|done]). rewrite Hi in Hi'. injection Hi' as ->.
  apply elem_of_list_lookup in Lg as [j' Hj']. assert (j' = j) as -> by (eapply once_pos; [done|exact Hj'|exact Hj|done]). rewrite Hj in Hj'. injection Hj' as ->.
  assert (forall n e, l !! n = Some e -> i < n -> n < j -> op_wf (e_op e) /\ ~ modifies (e_op e) k) as Hmid.
  { intros n e Hnn Hin Hnj. assert (e ∈ l) as Hel by (by eapply elem_of_list_lookup_2). destruct (Hc _ Hel) as [[Hev _]|[_ ->]]; [|by split; [|intros []]]. split; [by eapply wf_called|]. intros Hm.
    assert (e_id e ∈ (e_id <$> l)) as Hid by (apply elem_of_list_fmap; by exists e).
    destruct (Hex _ _ Hev Hm) as [E|[Hx|Hx]].
    - assert (n = i); [|lia]. eapply once_pos; [done|exact Hnn|exact Hi|exact E].
    - apply Hb1 in Hx; [|done]. apply before_pos in Hx as (y & z & e1 & e2 & H1 & H2 & E1 & E2 & Hxy). assert (y = n) as -> by (eapply once_pos; done). assert (z = i) as -> by (eapply once_pos; done). lia.
    - apply Hb2 in Hx; [|done]. apply before_pos in Hx as (y & z & e1 & e2 & H1 & H2 & E1 & E2 & Hxy). assert (y = j) as -> by (eapply once_pos; done). assert (z = n) as -> by (eapply once_pos; done). lia. }
  rewrite <-(take_drop_middle _ _ _ Hi) in Hl. apply spec_run_split in Hl as (b & _ & Hl). cbn [spec_run] in Hl. destruct Hl as (b1 & Hs & Hl). exists b, b1. split; [exact Hs|].
  assert (drop (S i) l !! (j - S i) = Some (Entry og (OGet k) (AOpt x))) as Hj'. { rewrite lookup_drop. rewrite <-Hj. f_equal. lia. }
  rewrite <-(take_drop_middle _ _ _ Hj') in Hl. apply spec_run_split in Hl as (b2 & Hl1 & Hl). cbn [spec_run] in Hl. destruct Hl as (b3 & Hs' & _). destruct Hs' as [Hr _].
  rewrite Hr. apply (spec_keep _ _ _ k) with (2 := Hl1).
  intros e He0. apply elem_of_list_lookup in He0 as [n Hn0]. pose proof (lookup_lt_Some _ _ _ Hn0) as Hlt. rewrite take_length in Hlt. rewrite lookup_take, lookup_drop in Hn0 by lia. eapply Hmid; [exact Hn0|lia|lia].
Qed.

(** [og] looks for key [k], which [oi] has inserted before; every other call that modifies [k] happens before [oi] or after [og]. *)
Theorem C43_reads_what_was_written (ls : list clabel) (s : cstate) (ev : list event) (k : Key) (p : Pl) (oi og : opid) old r :
  wf_ccalls ls -> cexec code_orders ls s ev -> keqb (keyof p) k = true ->
  EInv oi (OInsert p) ∈ ev -> ERet oi (ROpt old) ∈ ev -> EInv og (OGet k) ∈ ev -> ERet og (ROpt r) ∈ ev -> hb ls oi og ->
  (forall o op, EInv o op ∈ ev -> modifies op k -> o = oi \/ hb ls o oi \/ hb ls og o) ->
  rr_val <$> r = Some p.
Proof.
  intros Hwf He Hk Ei Ri Eg Rg Hh Hex. destruct (C41_key_order _ _ _ k Hwf He) as [l Hl].
  destruct (lookup_after _ ls s ev k l oi (OInsert p) (AOpt (rr_val <$> old)) og (rr_val <$> r) Hwf He Hl) as (b & b' & [_ Hs] & ->); try done.
  - by eapply (ko_complete _ _ _ _ Hl).
  - eapply (ko_complete _ _ _ _ Hl); [done|done|simpl; apply keqb_refl|done|done].
  - rewrite Hs. by rewrite Hk.
Qed.
(** And what was removed is not found. *)
Theorem C43_removed_is_gone (ls : list clabel) (s : cstate) (ev : list event) (k : Key) (oi og : opid) old r :
  wf_ccalls ls -> cexec code_orders ls s ev ->
  EInv oi (ORemove k) ∈ ev -> ERet oi (ROpt old) ∈ ev -> EInv og (OGet k) ∈ ev -> ERet og (ROpt r) ∈ ev -> hb ls oi og ->
  (forall o op, EInv o op ∈ ev -> modifies op k -> o = oi \/ hb ls o oi \/ hb ls og o) ->
  r = None.
Proof.
  intros Hwf He Ei Ri Eg Rg Hh Hex. destruct (C41_key_order _ _ _ k Hwf He) as [l Hl].
  destruct (lookup_after _ ls s ev k l oi (ORemove k) (AOpt (rr_val <$> old)) og (rr_val <$> r) Hwf He Hl) as (b & b' & [_ Hs] & Hx); try done.
  - eapply (ko_complete _ _ _ _ Hl); [done|done|simpl; apply keqb_refl|done|done].
  - eapply (ko_complete _ _ _ _ Hl); [done|done|simpl; apply keqb_refl|done|done].
  - rewrite Hs in Hx. unfold del in Hx. rewrite keqb_refl in Hx. by destruct r.
Qed.

(** ** C45: iterators *)
(** No two elements that an iterator yields have equal keys. *)
Theorem C45_no_duplicates (ls : list clabel) (s : cstate) (ev : list event) (o : opid) :
  wf_ccalls ls -> cexec code_orders ls s ev -> EInv o OIter ∈ ev -> distinct_keys (rr_val <$> yields_of ev o).
Proof. intros Hwf He Hi. by apply (yields_distinct _ ls s ev o code_strong Hwf He). Qed.

(** What was inserted before the iterator was created, and not modified by anything that does not happen before that insertion or after the iteration, is yielded. *)
Theorem C45_yields_what_is_there (ls : list clabel) (s : cstate) (ev : list event) (p : Pl) (oi o : opid) old ys :
  wf_ccalls ls -> cexec code_orders ls s ev ->
  EInv oi (OInsert p) ∈ ev -> ERet oi (ROpt old) ∈ ev -> EInv o OIter ∈ ev -> ERet o (RIter ys) ∈ ev -> hb ls oi o ->
  (forall o' op, EInv o' op ∈ ev -> modifies op (keyof p) -> o' = oi \/ hb ls o' oi \/ hb ls o o') ->
  exists r, EYield o r ∈ ev /\ rr_val r = p.
Proof.
  intros Hwf He Ei Ri Eg Rg Hh Hex. destruct (C41_key_order _ _ _ (keyof p) Hwf He) as [l Hl].
  assert (forall x, Entry o (OGet (keyof p)) (AOpt x) ∈ l -> x = Some p) as Hent.
  { intros x Hin. destruct (lookup_after _ ls s ev (keyof p) l oi (OInsert p) (AOpt (rr_val <$> old)) o x Hwf He Hl) as (b & b' & [_ Hs] & ->); try done.
    - eapply (ko_complete _ _ _ _ Hl); [done|done|simpl; apply keqb_refl|done|done].
    - rewrite Hs. by rewrite keqb_refl. }
  destruct (find_pl (keyof p) (rr_val <$> yields_of ev o)) as [q|] eqn:E.
  - apply find_pl_Some in E as [Hin Hk]. apply elem_of_list_fmap in Hin as (r & -> & Hin). exists r. assert (EYield o r ∈ ev) as Hy.
    { unfold yields_of in Hin. apply elem_of_list_omap in Hin as (e & Hin & He'). destruct e as [| | |o' r']; try done. destruct (decide (o' = o)) as [->|]; [|done]. by injection He' as ->. }
    split; [done|]. by injection (Hent _ (ko_yield _ _ _ _ Hl _ _ Eg Hy Hk)) as ->.
  - exfalso. enough (Entry o (OGet (keyof p)) (AOpt None) ∈ l) as Hin by (by apply Hent in Hin). eapply (ko_end _ _ _ _ Hl); [done|done|]. intros r Hr. rewrite find_pl_None in E. apply E.
    apply elem_of_list_fmap. exists r. split; [done|]. unfold yields_of. apply elem_of_list_omap. exists (EYield o r). split; [done|]. by rewrite decide_True.
Qed.

(** What was removed before, and not inserted again, is not yielded. *)
Theorem C45_removed_is_not_yielded (ls : list clabel) (s : cstate) (ev : list event) (k : Key) (oi o : opid) old r :
  wf_ccalls ls -> cexec code_orders ls s ev ->
  EInv oi (ORemove k) ∈ ev -> ERet oi (ROpt old) ∈ ev -> EInv o OIter ∈ ev -> hb ls oi o ->
  (forall o' op, EInv o' op ∈ ev -> modifies op k -> o' = oi \/ hb ls o' oi \/ hb ls o o') ->
  EYield o r ∈ ev -> keqb (keyof (rr_val r)) k = false.
Proof.
  intros Hwf He Ei Ri Eg Hh Hex Hy. destruct (keqb (keyof (rr_val r)) k) eqn:Hk; [|done]. exfalso. destruct (C41_key_order _ _ _ k Hwf He) as [l Hl].
  destruct (lookup_after _ ls s ev k l oi (ORemove k) (AOpt (rr_val <$> old)) o (Some (rr_val r)) Hwf He Hl) as (b & b' & [_ Hs] & Hx); try done.
  - eapply (ko_complete _ _ _ _ Hl); [done|done|simpl; apply keqb_refl|done|done].
  - by eapply (ko_yield _ _ _ _ Hl).
  - rewrite Hs in Hx. unfold del in Hx. by rewrite keqb_refl in Hx.
Qed.

(** Somebody put it there. *)
Definition puts (op : oper) (p : Pl) : Prop := match op with OInsert q => q = p | OGetOrInsert k f => f k = p | _ => False end.
Lemma spec_put a l a' k p : spec_run a l a' -> a' k = Some p -> a k = Some p \/ exists e, e ∈ l /\ puts (e_op e) p.
Proof.
  revert a. induction l as [|e l IH]; intros a Hr Hk; simpl in Hr; [left; by rewrite <-Hk, Hr|]. destruct Hr as (b & Hs & Hr). destruct (IH _ Hr Hk) as [Hb|(e' & Hin & He')]; [|right; exists e'; split; [by right|done]].
  assert (a k = Some p \/ puts (e_op e) p) as [|Hp]; [|by left|right; exists e; split; [by left|done]]. destruct e as [o op r]. unfold spec_step, put, del, same in Hs. cbn [e_op e_ret] in *.
  destruct op as [q|k0 f|k0|k0| |], r as [x|[x|x]|b0]; try done; try (destruct Hs as [_ Hs]; rewrite Hs in Hb; by left).
  - destruct Hs as [_ Hs]. rewrite Hs in Hb. destruct (keqb _ _); [right; by injection Hb|by left].
  - destruct Hs as (_ & -> & Hs). rewrite Hs in Hb. destruct (keqb _ _); [right; by injection Hb|by left].
  - destruct Hs as [_ Hs]. rewrite Hs in Hb. destruct (keqb _ _); [done|by left].
Qed.
Theorem C45_yields_only_what_was_put (ls : list clabel) (s : cstate) (ev : list event) (o : opid) r :
  wf_ccalls ls -> cexec code_orders ls s ev -> EInv o OIter ∈ ev -> EYield o r ∈ ev ->
  exists oi op, EInv oi op ∈ ev /\ puts op (rr_val r) /\ ~ hb ls o oi.
Proof.
  intros Hwf He Hi Hy. destruct (C41_key_order _ _ _ (keyof (rr_val r)) Hwf He) as [l [Hn Hc _ Hyl _ [a Hl] Ho]]. pose proof (Hyl _ _ Hi Hy (keqb_refl _)) as Hin.
  apply elem_of_list_lookup in Hin as [i Hi']. rewrite <-(take_drop_middle _ _ _ Hi') in Hl. apply spec_run_split in Hl as (b & Hl & Hr). cbn [spec_run] in Hr. destruct Hr as (b1 & [Hb _] & _). cbn [e_op e_ret] in Hb.
  destruct (spec_put _ _ _ _ _ Hl (eq_sym Hb)) as [|(e & Hin & Hp)]; [done|]. apply elem_of_take in Hin as (j & Hj & Hlt). exists (e_id e), (e_op e). assert (e ∈ l) as Hel by (by eapply elem_of_list_lookup_2).
  split; [destruct (Hc _ Hel) as [[Hev _]|[_ E]]; [exact Hev|by rewrite E in Hp]|]. split; [exact Hp|]. intros Hh. assert (before l o (e_id e)) as Hb'.
  { apply Ho; [| |done]; apply elem_of_list_fmap; [|by exists e]. apply elem_of_list_lookup_2 in Hi'. eexists. split; [|exact Hi']. done. }
  apply before_pos in Hb' as (y & z & e1 & e2 & H1 & H2 & E1 & E2 & Hxy). assert (y = i) as -> by (eapply once_pos; done). assert (z = j) as -> by (eapply once_pos; done). lia.
Qed.
End theorems.

(** ** Executions *)
Inductive ccmd :=
| CI (o : opid) (op : @oper CN) (ps : list opid)
| CR (o : opid)                     (* run to the end, reading the newest values *)
| CO (o : opid) (n : nat).          (* one step, reading the [n]-th value *)

Section script.
Variable w : orders.
Definition cstepl (x : cstate * list clabel) (lb : clabel) : option (cstate * list clabel) :=
  match cstep w x.1 lb with Some (s', _) => Some (s', x.2 ++ [lb]) | None => None end.
Fixpoint cfinl (n : nat) (o : opid) (x : cstate * list clabel) : option (cstate * list clabel) :=
  match n with
  | 0 => None
  | S n => match w_ops (c_w x.1) !! o with
           | Some (WOp (SRun _ _) _ _) => match cstepl x (CStep o (wnewest w (c_w x.1) o) false (pick (w_mem (c_w x.1)))) with Some y => cfinl n o y | None => None end
           | _ => Some x
           end
  end.
Definition ccmdl (x : cstate * list clabel) (c : ccmd) : option (cstate * list clabel) :=
  match c with
  | CI o op ps => cstepl x (CInv o op ps)
  | CR o => cfinl 5000 o x
  | CO o n => cstepl x (CStep o n false (pick (w_mem (c_w x.1))))
  end.
Fixpoint ccmdsl (x : cstate * list clabel) (cs : list ccmd) : option (cstate * list clabel) :=
  match cs with [] => Some x | c :: cs => match ccmdl x c with Some y => ccmdsl y cs | None => None end end.
Definition cschedule (cs : list ccmd) : list clabel := match ccmdsl (cinit, []) cs with Some (_, ls) => ls | None => [] end.
Definition lbc_wfb (lb : @clabel CN) : bool := match lb with CInv _ (OGetOrInsert k f) _ => keqb (keyof (f k)) k | _ => true end.
Lemma cexec_check cs (f : list clabel -> cstate -> list event -> bool) :
  match crun w cinit (cschedule cs) with Some (s, ev) => f (cschedule cs) s ev && forallb lbc_wfb (cschedule cs) | None => false end = true ->
  exists ls s ev, cexec w ls s ev /\ wf_ccalls ls /\ f ls s ev = true.
Proof.
  intros H. generalize dependent (cschedule cs). intros ls H. destruct (crun w cinit ls) as [[s ev]|] eqn:E; [|done]. apply andb_true_iff in H as [H1 H2].
  exists ls, s, ev. split; [exact E|]. split; [|done]. intros o op ps Hin. rewrite forallb_forall in H2. apply elem_of_list_In in Hin. apply H2 in Hin. by destruct op.
Qed.
End script.

(* A thread inserts keys 1, 2 and then 3 (calls 1, 2, 3).  Another thread looks for key 3 (call 4) and finds it, and then (call 5) for key 2, and does not find it:
   it reads an old value of the cell. *)
Definition stale : list ccmd := [CI 1 (ins 1 7) []; CR 1; CI 2 (ins 2 8) [1]; CR 2; CI 3 (ins 3 9) [2]; CR 3; CI 4 (get 3) []; CR 4; CI 5 (get 2) [4]; CO 5 2; CO 5 0]%positive.
Definition ret_at (ev : list (@event CN)) (o : opid) (v : option (N * N)) : bool :=
  existsb (fun e => match e with ERet o' (ROpt x) => bool_decide (o' = o /\ rr_val <$> x = v) | _ => false end) ev.
Definition inv_get (ev : list (@event CN)) (o : opid) (k : N) : bool := existsb (fun e => match e with EInv o' (OGet k') => bool_decide (o' = o /\ k' = k) | _ => false end) ev.
Definition inv_ins (ev : list (@event CN)) (o : opid) (p : N * N) : bool := existsb (fun e => match e with EInv o' (OInsert q) => bool_decide (o' = o /\ q = p) | _ => false end) ev.
Definition hbd (ls : list (@clabel CN)) (o1 o2 : opid) : bool := existsb (fun lb => match lb with CInv o _ ps => bool_decide (o = o2 /\ o1 ∈ ps) | _ => false end) ls.
Lemma ret_at_spec ev o v : ret_at ev o v = true -> exists x, ERet o (ROpt x) ∈ ev /\ rr_val <$> x = v.
Proof.
  intros H. apply existsb_exists in H as (e & Hin & He). destruct e as [|o' [x|x|b|]| |]; try done. apply bool_decide_eq_true in He as [-> Hx]. exists x. split; [|done]. by apply elem_of_list_In.
Qed.
Lemma inv_get_spec ev o k : inv_get ev o k = true -> EInv o (OGet k : @oper CN) ∈ ev.
Proof. intros H. apply existsb_exists in H as (e & Hin & He). destruct e as [o' [| |k'| | |]| | |]; try done. apply bool_decide_eq_true in He as [-> ->]. by apply elem_of_list_In. Qed.
Lemma inv_ins_spec ev o p : inv_ins ev o p = true -> EInv o (OInsert p : @oper CN) ∈ ev.
Proof. intros H. apply existsb_exists in H as (e & Hin & He). destruct e as [o' [q| | | | |]| | |]; try done. apply bool_decide_eq_true in He as [-> ->]. by apply elem_of_list_In. Qed.
Lemma hbd_spec ls o1 o2 : hbd ls o1 o2 = true -> hb ls o1 o2.
Proof. intros H. apply existsb_exists in H as (lb & Hin & Hb). destruct lb as [o op ps|]; [|done]. apply bool_decide_eq_true in Hb as [-> Hp]. eapply hb_direct; [|exact Hp]. by apply elem_of_list_In. Qed.

(** *** C44: the keys are independent of each other *)
(** All the calls together, in one order that respects happens-before. *)
Record all_order {C : Config} (l : list entry) (ls : list clabel) (ev : list event) : Prop := {
  ao_once : NoDup (e_id <$> l);
  ao_called : forall e, e ∈ l -> EInv (e_id e) (e_op e) ∈ ev;
  ao_complete : forall o op r v, EInv o op ∈ ev -> ERet o r ∈ ev -> val_of r = Some v -> Entry o op v ∈ l;
  ao_legal : exists a, spec_run aempty l a;
  ao_order : forall o1 o2, o1 ∈ (e_id <$> l) -> o2 ∈ (e_id <$> l) -> hb ls o1 o2 -> before l o1 o2;
}.

Lemma spec_stay {C : Config} a l a' k : (forall e, e ∈ l -> forall k', e_op e <> ORemove k') -> spec_run a l a' -> a k <> None -> a' k <> None.
Proof.
  revert a. induction l as [|e l IH]; intros a Hl Hr Ha; simpl in Hr; [by rewrite Hr|]. destruct Hr as (b & Hs & Hr). apply (IH b); [intros e' He'; apply Hl; by right|done|].
  specialize (Hl e). destruct e as [o op r]. unfold spec_step, put, del, same in Hs. cbn [e_op e_ret] in *.
  destruct op as [p|k0 f|k0|k0| |], r as [x|[x|x]|b0]; try done; try (destruct Hs as [_ Hs]; by rewrite Hs).
  - destruct Hs as [_ Hs]. rewrite Hs. by destruct (keqb _ _).
  - destruct Hs as (_ & _ & Hs). rewrite Hs. by destruct (keqb _ _).
  - exfalso. eapply Hl; [by left|done].
Qed.
Lemma spec_at {C : Config} a l a' i e : spec_run a l a' -> l !! i = Some e -> exists b b', spec_run a (take i l) b /\ spec_step b (e_op e) (e_ret e) b' /\ spec_run b' (drop (S i) l) a'.
Proof.
  intros Hr Hi. rewrite <-(take_drop_middle _ _ _ Hi) in Hr. apply spec_run_split in Hr as (b & H1 & H2). cbn [spec_run] in H2. destruct H2 as (b' & Hs & H2). by exists b, b'.
Qed.

(** In the execution [stale] there is no such order. *)
Theorem C44_keys_independent : exists (ls : list (@clabel CN)) (s : cstate) (ev : list event), cexec code_orders ls s ev /\ wf_ccalls ls /\ ~ exists l, all_order l ls ev.
Proof.
  destruct (cexec_check code_orders stale (fun ls s ev =>
    ret_at ev 2 None && (ret_at ev 3 None && (ret_at ev 4 (Some (3%N, 9%N)) && (ret_at ev 5 None && (inv_ins ev 2 (2%N, 8%N) && (inv_ins ev 3 (3%N, 9%N) && (inv_get ev 4 3%N && (inv_get ev 5 2%N &&
    (hbd ls 2 3 && (hbd ls 4 5 && forallb (fun e => match e with EInv o op => match op with OInsert p => bool_decide (@eq N (@keyof CN p) 3%N -> o = 3%positive) | OGet _ => true | _ => false end | _ => true end) ev))))))))))%positive)
    as (ls & s & ev & He & Hwf & Hf).
  { vm_compute. reflexivity. }
  exists ls, s, ev. split; [exact He|]. split; [exact Hwf|]. clear He Hwf. intros (l & [Hn Hc Hcp [a Hl] Ho]).
  apply andb_true_iff in Hf as [(x2 & R2 & V2)%ret_at_spec Hf]. apply andb_true_iff in Hf as [(x3 & R3 & V3)%ret_at_spec Hf]. apply andb_true_iff in Hf as [(x4 & R4 & V4)%ret_at_spec Hf].
  apply andb_true_iff in Hf as [(x5 & R5 & V5)%ret_at_spec Hf]. apply andb_true_iff in Hf as [I2%inv_ins_spec Hf]. apply andb_true_iff in Hf as [I3%inv_ins_spec Hf].
  apply andb_true_iff in Hf as [I4%inv_get_spec Hf]. apply andb_true_iff in Hf as [I5%inv_get_spec Hf]. apply andb_true_iff in Hf as [H23%hbd_spec Hf]. apply andb_true_iff in Hf as [H45%hbd_spec Hf].
  assert (forall o op, EInv o op ∈ ev -> (forall k, op <> ORemove k) /\ op_wf op /\ (modifies op 3%N -> o = 3%positive)) as Hall.
  { intros o op Hin. rewrite forallb_forall in Hf. apply elem_of_list_In, Hf in Hin. destruct op as [p|k f|k|k| |]; try discriminate Hin; (split; [intros k0; discriminate|]); (split; [exact I|]); [|intros []].
    intros Hm. apply bool_decide_eq_true in Hin. apply Hin. by apply N.eqb_eq in Hm. }
  clear Hf. pose proof (Hcp _ _ _ _ I2 R2 eq_refl) as L2. pose proof (Hcp _ _ _ _ I3 R3 eq_refl) as L3. pose proof (Hcp _ _ _ _ I4 R4 eq_refl) as L4. pose proof (Hcp _ _ _ _ I5 R5 eq_refl) as L5.
  assert (forall e, e ∈ l -> e_id e ∈ (e_id <$> l)) as Hid. { intros e Hin. apply elem_of_list_fmap. by exists e. }
  pose proof (Ho _ _ (Hid _ L2) (Hid _ L3) H23) as B23. pose proof (Ho _ _ (Hid _ L4) (Hid _ L5) H45) as B45. cbn [e_id] in B23, B45.
  apply before_pos in B23 as (i2 & i3 & e2 & e3 & P2 & P3 & N2 & N3 & Hlt23). apply before_pos in B45 as (i4 & i5 & e4 & e5 & P4 & P5 & N4 & N5 & Hlt45).
  assert (forall i e e', l !! i = Some e -> e' ∈ l -> e_id e = e_id e' -> l !! i = Some e') as Hsame.
  { intros i e e' Hi (j & Hj)%elem_of_list_lookup E. by rewrite (once_pos l i j e e' Hn Hi Hj E). }
  apply (Hsame _ _ _ P2) in L2; [|exact N2]. apply (Hsame _ _ _ P3) in L3; [|exact N3]. apply (Hsame _ _ _ P4) in L4; [|exact N4]. apply (Hsame _ _ _ P5) in L5; [|exact N5].
  assert (i3 < i4) as H34.
  { destruct (decide (i3 < i4)) as [|Hge]; [done|exfalso]. destruct (spec_at _ _ _ _ _ Hl L4) as (b & b' & Hr & Hs & _). destruct Hs as [Hs _]. cbn [e_op e_ret] in Hs. rewrite V4 in Hs.
    enough (b 3%N = @aempty CN 3%N) as Eb by (rewrite Eb in Hs; discriminate Hs). eapply spec_keep; [|exact Hr]. intros e Hin. apply elem_of_list_lookup in Hin as [j Hj]. pose proof (lookup_lt_Some _ _ _ Hj) as Hjl. rewrite take_length in Hjl.
    rewrite lookup_take in Hj by lia. assert (e ∈ l) as Hel by (eapply elem_of_list_lookup_2; exact Hj). destruct (Hall _ _ (Hc _ Hel)) as (_ & Hw & Hm). split; [exact Hw|]. intros Hmod. specialize (Hm Hmod).
    assert (j = i3) by (eapply (once_pos l); [exact Hn|exact Hj|exact L3|exact Hm]). lia. }
  destruct (spec_at _ _ _ _ _ Hl L2) as (b & b' & _ & Hs & Hr). destruct Hs as [_ Hput]. assert (b' 2%N <> None) as Hb' by (rewrite Hput; discriminate).
  assert (drop (S i2) l !! (i5 - S i2) = Some (Entry 5%positive (OGet 2%N) (AOpt (rr_val <$> x5)))) as Hj'. { rewrite lookup_drop. replace (S i2 + (i5 - S i2)) with i5 by lia. exact L5. }
  destruct (spec_at _ _ _ _ _ Hr Hj') as (c & c' & Hr2 & Hs & _). destruct Hs as [Hs _]. cbn [e_op e_ret] in Hs. rewrite V5 in Hs. symmetry in Hs. refine (@spec_stay CN b' _ c 2%N _ Hr2 Hb' Hs).
  intros e Hin k'. apply (Hall (e_id e)). apply Hc. apply elem_of_take in Hin as (j & Hj & _). rewrite lookup_drop in Hj. eapply elem_of_list_lookup_2. exact Hj.
Qed.

(* C41, C42 and C43 are about executions such as this one, where C43 applies to calls 1 and 6 (call 5 reads an old value): *)
Example C43_example : exists (ls : list (@clabel CN)) (s : cstate) (ev : list event) old r,
  wf_ccalls ls /\ cexec code_orders ls s ev /\ EInv 1%positive (OInsert (1, 7)%N) ∈ ev /\ ERet 1%positive (ROpt old) ∈ ev /\ EInv 6%positive (OGet 1%N) ∈ ev /\ ERet 6%positive (ROpt r) ∈ ev /\
  hb ls 1%positive 6%positive /\ (forall o op, EInv o op ∈ ev -> modifies op 1%N -> o = 1%positive \/ hb ls o 1%positive \/ hb ls 6%positive o) /\ (exists x, ERet 5%positive (ROpt x) ∈ ev /\ rr_val <$> x = None).
Proof.
  destruct (cexec_check code_orders (stale ++ [CI 6 (get 1) [3; 5]; CR 6; CI 7 (ins 1 10) [6]; CR 7]%positive) (fun ls s ev =>
    ret_at ev 1 None && (ret_at ev 6 (Some (1%N, 7%N)) && (ret_at ev 5 None && (inv_ins ev 1 (1%N, 7%N) && (inv_get ev 6 1%N && (hbd ls 1 2 && (hbd ls 2 3 && (hbd ls 3 6 && (hbd ls 6 7 && 
    forallb (fun e => match e with EInv o op => match op with OInsert p => bool_decide (@eq N (@keyof CN p) 1%N -> o = 1%positive \/ o = 7%positive) | OGet _ => true | _ => false end | _ => true end) ev)))))))))%positive)
    as (ls & s & ev & He & Hwf & Hf).
  { vm_compute. reflexivity. }
  apply andb_true_iff in Hf as [(x1 & R1 & V1)%ret_at_spec Hf]. apply andb_true_iff in Hf as [(x6 & R6 & V6)%ret_at_spec Hf]. apply andb_true_iff in Hf as [(x5 & R5 & V5)%ret_at_spec Hf].
  apply andb_true_iff in Hf as [I1%inv_ins_spec Hf]. apply andb_true_iff in Hf as [I6%inv_get_spec Hf]. apply andb_true_iff in Hf as [H12%hbd_spec Hf]. apply andb_true_iff in Hf as [H23%hbd_spec Hf].
  apply andb_true_iff in Hf as [H36%hbd_spec Hf]. apply andb_true_iff in Hf as [H67%hbd_spec Hf].
  exists ls, s, ev, x1, x6. split; [exact Hwf|]. split; [exact He|]. clear He Hwf. split; [exact I1|]. split; [exact R1|]. split; [exact I6|]. split; [exact R6|].
  split; [eapply hb_trans; [exact H12|]; eapply hb_trans; [exact H23|exact H36]|]. split; [|exists x5; split; [exact R5|exact V5]].
  intros o op Hin Hm. rewrite forallb_forall in Hf. apply elem_of_list_In, Hf in Hin. destruct op as [p|k f|k|k| |]; try discriminate Hin; [|destruct Hm]. apply bool_decide_eq_true in Hin.
  apply N.eqb_eq in Hm. destruct (Hin Hm) as [->| ->]; [left; reflexivity|right; right; exact H67].
Qed.

(* An iterator (call 5) that starts after keys 1, 2 and 4 were inserted (calls 1, 2, 3) and key 1 was removed (call 4); another thread has inserted key 3 (call 6), but nobody told the thread of the
   iterator, which reads an old value of that cell: it yields 2 and 4. *)
Definition walk_past : list ccmd := [CI 1 (ins 1 7) []; CR 1; CI 2 (ins 2 8) [1]; CR 2; CI 3 (ins 4 9) [2]; CR 3; CI 4 (rem 1) [3]; CR 4; CI 6 (ins 3 5) []; CR 6; CI 5 ite [4];
  CO 5 2; CO 5 0; CO 5 0; CO 5 1; CO 5 0; CO 5 1; CO 5 0; CO 5 0; CO 5 0; CR 5]%positive.
Definition ret_iter (ev : list (@event CN)) (o : opid) (l : list (N * N)) : bool := existsb (fun e => match e with ERet o' (RIter ys) => bool_decide (o' = o /\ rr_val <$> ys = l) | _ => false end) ev.
Definition yielded (ev : list (@event CN)) (o : opid) (p : N * N) : bool := existsb (fun e => match e with EYield o' r => bool_decide (o' = o /\ rr_val r = p) | _ => false end) ev.
Definition inv_rem (ev : list (@event CN)) (o : opid) (k : N) : bool := existsb (fun e => match e with EInv o' (ORemove k') => bool_decide (o' = o /\ k' = k) | _ => false end) ev.
Definition inv_ite (ev : list (@event CN)) (o : opid) : bool := existsb (fun e => match e with EInv o' OIter => bool_decide (o' = o) | _ => false end) ev.
Lemma ret_iter_spec ev o l : ret_iter ev o l = true -> exists ys, ERet o (RIter ys) ∈ ev /\ rr_val <$> ys = l.
Proof. intros H. apply existsb_exists in H as (e & Hin & He). destruct e as [|o' [x|x|b|ys]| |]; try done. apply bool_decide_eq_true in He as [-> Hx]. exists ys. split; [|done]. by apply elem_of_list_In. Qed.
Lemma yielded_spec ev o p : yielded ev o p = true -> exists r, EYield o r ∈ ev /\ rr_val r = p.
Proof. intros H. apply existsb_exists in H as (e & Hin & He). destruct e as [| | |o' r]; try done. apply bool_decide_eq_true in He as [-> Hx]. exists r. split; [|done]. by apply elem_of_list_In. Qed.
Lemma inv_rem_spec ev o k : inv_rem ev o k = true -> EInv o (ORemove k : @oper CN) ∈ ev.
Proof. intros H. apply existsb_exists in H as (e & Hin & He). destruct e as [o' [| | |k'| |]| | |]; try done. apply bool_decide_eq_true in He as [-> ->]. by apply elem_of_list_In. Qed.
Lemma inv_ite_spec ev o : inv_ite ev o = true -> EInv o (OIter : @oper CN) ∈ ev.
Proof. intros H. apply existsb_exists in H as (e & Hin & He). destruct e as [o' [| | | | |]| | |]; try done. apply bool_decide_eq_true in He as ->. by apply elem_of_list_In. Qed.

Example C45_example : exists (ls : list (@clabel CN)) (s : cstate) (ev : list event) old2 old4 ys,
  wf_ccalls ls /\ cexec code_orders ls s ev /\
  EInv 2%positive (OInsert (2, 8)%N) ∈ ev /\ ERet 2%positive (ROpt old2) ∈ ev /\ EInv 4%positive (ORemove 1%N) ∈ ev /\ ERet 4%positive (ROpt old4) ∈ ev /\
  EInv 5%positive OIter ∈ ev /\ ERet 5%positive (RIter ys) ∈ ev /\ hb ls 2%positive 5%positive /\ hb ls 4%positive 5%positive /\
  (forall o op, EInv o op ∈ ev -> modifies op (keyof ((2, 8)%N : @Pl CN)) -> o = 2%positive \/ hb ls o 2%positive \/ hb ls 5%positive o) /\
  (forall o op, EInv o op ∈ ev -> modifies op 1%N -> o = 4%positive \/ hb ls o 4%positive \/ hb ls 5%positive o) /\
  (exists r, EYield 5%positive r ∈ ev /\ rr_val r = (2, 8)%N) /\
  (* key 3 was inserted by a call that had returned, but is not yielded *)
  EInv 6%positive (OInsert (3, 5)%N) ∈ ev /\ (exists x, ERet 6%positive (ROpt x) ∈ ev) /\ rr_val <$> ys = [(2, 8); (4, 9)]%N.
Proof.
  destruct (cexec_check code_orders walk_past (fun ls s ev =>
    ret_at ev 2 None && (ret_at ev 4 (Some (1%N, 7%N)) && (ret_at ev 6 None && (ret_iter ev 5 [(2%N, 8%N); (4%N, 9%N)] && (yielded ev 5 (2%N, 8%N) && (inv_ins ev 2 (2%N, 8%N) && (inv_ins ev 6 (3%N, 5%N) && (inv_rem ev 4 1%N && (inv_ite ev 5 &&
    (hbd ls 1 2 && (hbd ls 2 3 && (hbd ls 3 4 && (hbd ls 4 5 &&
    forallb (fun e => match e with EInv o op => match op with OInsert p => bool_decide (@eq N (@keyof CN p) 1%N -> o = 1%positive) && bool_decide (@eq N (@keyof CN p) 2%N -> o = 2%positive)
      | ORemove k => bool_decide (o = 4%positive /\ k = 1%N) | OIter => true | _ => false end | _ => true end) ev)))))))))))))%positive)
    as (ls & s & ev & He & Hwf & Hf).
  { vm_compute. reflexivity. }
  apply andb_true_iff in Hf as [(x2 & R2 & V2)%ret_at_spec Hf]. apply andb_true_iff in Hf as [(x4 & R4 & V4)%ret_at_spec Hf]. apply andb_true_iff in Hf as [(x6 & R6 & V6)%ret_at_spec Hf].
  apply andb_true_iff in Hf as [(ys & R5 & V5)%ret_iter_spec Hf]. apply andb_true_iff in Hf as [Y5%yielded_spec Hf].
  apply andb_true_iff in Hf as [I2%inv_ins_spec Hf]. apply andb_true_iff in Hf as [I6%inv_ins_spec Hf]. apply andb_true_iff in Hf as [I4%inv_rem_spec Hf]. apply andb_true_iff in Hf as [I5%inv_ite_spec Hf].
  apply andb_true_iff in Hf as [H12%hbd_spec Hf]. apply andb_true_iff in Hf as [H23%hbd_spec Hf]. apply andb_true_iff in Hf as [H34%hbd_spec Hf]. apply andb_true_iff in Hf as [H45%hbd_spec Hf].
  exists ls, s, ev, x2, x4, ys. split; [exact Hwf|]. split; [exact He|]. clear He Hwf. split; [exact I2|]. split; [exact R2|]. split; [exact I4|]. split; [exact R4|]. split; [exact I5|]. split; [exact R5|].
  split; [eapply hb_trans; [exact H23|]; eapply hb_trans; [exact H34|exact H45]|]. split; [exact H45|]. split; [|split; [|split; [exact Y5|split; [exact I6|split; [by exists x6|exact V5]]]]].
  - intros o op Hin Hm. rewrite forallb_forall in Hf. apply elem_of_list_In, Hf in Hin. destruct op as [p|k f|k|k| |]; try discriminate Hin; [| |destruct Hm].
    + apply andb_true_iff in Hin as [_ Hin]. apply bool_decide_eq_true in Hin. apply N.eqb_eq in Hm. left. by apply Hin.
    + apply bool_decide_eq_true in Hin as [_ ->]. discriminate Hm.
  - intros o op Hin Hm. rewrite forallb_forall in Hf. apply elem_of_list_In, Hf in Hin. destruct op as [p|k f|k|k| |]; try discriminate Hin; [| |destruct Hm].
    + apply andb_true_iff in Hin as [Hin _]. apply bool_decide_eq_true in Hin. apply N.eqb_eq in Hm. right. left. rewrite (Hin Hm). eapply hb_trans; [exact H12|]. eapply hb_trans; [exact H23|exact H34].
    + apply bool_decide_eq_true in Hin as [-> _]. by left.
Qed.

Print Assumptions C41_key_order.
Print Assumptions C42_no_failure.
Print Assumptions C43_reads_what_was_written.
Print Assumptions C44_keys_independent.
Print Assumptions C43_removed_is_gone.
Print Assumptions C45_no_duplicates.
Print Assumptions C45_yields_what_is_there.
Print Assumptions C45_removed_is_not_yielded.
Print Assumptions C45_yields_only_what_was_put.
