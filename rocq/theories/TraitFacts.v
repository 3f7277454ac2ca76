(** * Facts about Send and Sync (Traits.v), and about threads (Threads.v). *)
From Verif Require Import Model Spec WeakRun FreeStep Mem Traits Threads.

Lemma implements_unfold tr t : implements tr t <-> exists l, needs tr t = Some l /\ forall tr' t', (tr', t') ∈ l -> implements tr' t'.
Proof.
  split.
  - intros (P & HP & Hc). destruct (Hc tr t HP) as (l & Hl & Hall). exists l. split; [done|]. intros tr' t' Hin. exists P. split; [by apply Hall|done].
  - intros (l & Hl & Hall). exists (fun tr' t' => (tr' = tr /\ t' = t) \/ implements tr' t'). split; [by left|].
    intros tr' t' [[-> ->]|(P & HP & Hc)].
    + exists l. split; [done|]. intros. right. by apply Hall.
    + destruct (Hc tr' t' HP) as (l' & Hl' & Hall'). exists l'. split; [done|]. intros tr2 t2 Hin. right. exists P. split; [by apply Hall'|done].
Qed.

Lemma implements_needs tr t l : needs tr t = Some l -> (implements tr t <-> forall tr' t', (tr', t') ∈ l -> implements tr' t').
Proof.
  intros Hl. rewrite implements_unfold. split; [|by eauto]. intros (l' & Hl' & H). by simplify_eq.
Qed.
Lemma implements_never tr t : needs tr t = None -> ~ implements tr t.
Proof. intros Hn H%implements_unfold. destruct H as (l & Hl & _). congruence. Qed.

Lemma forall_cons (P : trait -> ty -> Prop) tr0 t0 l :
  (forall tr t, (tr, t) ∈ (tr0, t0) :: l -> P tr t) <-> P tr0 t0 /\ forall tr t, (tr, t) ∈ l -> P tr t.
Proof. split; [intros H; split; intros; apply H; [left|by right]|intros [H1 H2] tr t Hin; apply elem_of_cons in Hin as [[= -> ->] | ]; auto]. Qed.
Lemma forall_nil (P : trait -> ty -> Prop) : (forall tr t, (tr, t) ∈ [] -> P tr t) <-> True.
Proof. split; [done|intros _ tr t Hin; by apply elem_of_nil in Hin]. Qed.

Lemma impl_user tr a b : implements tr (TUser a b) <-> (match tr with Send => a | Sync => b end) = true.
Proof.
  rewrite implements_unfold. cbn. split; [intros (l & Hl & _); by destruct (match tr with Send => a | Sync => b end)|].
  intros ->. exists []. split; [done|]. intros ? ? Hin. by apply elem_of_nil in Hin.
Qed.
Lemma impl_inner tr : implements tr TInner.
Proof.
  exists (fun _ t => t = TInner \/ t = TArray (TAtomic TInner) \/ t = TAtomic TInner). split; [by left|].
  intros tr' t [ -> | [ -> | -> ] ]; cbn; eexists; (split; [reflexivity|]); intros tr2 t2 Hin;
    repeat (apply elem_of_cons in Hin as [[= -> ->] |Hin]; [tauto|]); by apply elem_of_nil in Hin.
Qed.
Ltac unf := rewrite implements_needs by reflexivity; rewrite ?forall_cons, ?forall_nil.
Lemma impl_atomic_inner tr : implements tr (TAtomic TInner).
Proof. unf. auto using impl_inner. Qed.
Lemma impl_phantom tr t : implements tr (TPhantom t) <-> implements tr t. Proof. unf. tauto. Qed.
Lemma impl_raw tr p s : implements tr (TRaw p s) <-> implements tr p /\ implements tr s.
Proof. unf. rewrite impl_phantom. pose proof (impl_atomic_inner tr). tauto. Qed.
Lemma impl_element tr k v : implements tr (TElement k v) <-> implements tr k /\ implements tr v. Proof. unf. tauto. Qed.
Lemma impl_arc tr t : implements tr (TArc t) <-> implements Send t /\ implements Sync t. Proof. unf. tauto. Qed.
Lemma impl_map_payload tr k v : implements tr (TMapPayload k v) <-> implements Send (TElement k v) /\ implements Sync (TElement k v).
Proof. unf. rewrite impl_arc. tauto. Qed.
Lemma impl_con_map tr k v s : implements tr (TConMap k v s) <-> (implements Send (TElement k v) /\ implements Sync (TElement k v)) /\ implements tr s.
Proof. unf. rewrite impl_raw, impl_map_payload. tauto. Qed.
Lemma impl_clone_payload tr k v : implements tr (TClonePayload k v) <-> implements tr k /\ implements tr v.
Proof. unf. rewrite implements_needs by reflexivity. rewrite ?forall_cons, ?forall_nil. tauto. Qed.
Lemma impl_clone_map tr k v s : implements tr (TCloneConMap k v s) <-> implements tr (TClonePayload k v) /\ implements tr s.
Proof. unf. rewrite impl_raw. tauto. Qed.
Lemma impl_con_set tr t s : implements tr (TConSet t s) <-> implements tr t /\ implements tr s.
Proof. unf. rewrite impl_raw. tauto. Qed.
Lemma impl_raw_iter tr p s : ~ implements tr (TRawIter p s).
Proof. unf. intros [H _]. by apply implements_never in H. Qed.

(** ** Threads *)
Section threads.
Context {C : Config}.
Implicit Types s : tstate.

Lemma trun_app b1 b2 s ls1 ls2 s2 ev : trun b1 b2 s (ls1 ++ ls2) = Some (s2, ev) ->
  exists s1 ev1 ev2, trun b1 b2 s ls1 = Some (s1, ev1) /\ trun b1 b2 s1 ls2 = Some (s2, ev2) /\ ev = ev1 ++ ev2.
Proof.
  revert s ev. induction ls1 as [|lb ls1 IH]; intros s ev H; [eexists _, [], _; done|].
  cbn in H. destruct (tstep b1 b2 s lb) as [[s' e]|] eqn:E; [|done]. destruct (trun b1 b2 s' (ls1 ++ ls2)) as [[s'' e']|] eqn:E2; [|done].
  injection H as <- <-. destruct (IH _ _ E2) as (s1 & ev1 & ev2 & H1 & H2 & ->). exists s1, (e ++ ev1), ev2.
  cbn. rewrite E, H1. split; [done|]. split; [done|]. by rewrite <-app_assoc.
Qed.

(** The steps without the threads: an execution of Model.v. *)
Definition acts (ls : list tlabel) : list label := omap (fun lb => match lb with TAct _ lb => Some lb | TMove _ => None end) ls.
Lemma trun_run b1 b2 s ls s' ev : trun b1 b2 s ls = Some (s', ev) -> run (th_s s) (acts ls) = Some (th_s s', ev).
Proof.
  revert s ev. induction ls as [|lb ls IH]; intros s ev H; [by injection H as <- <-|].
  cbn in H. destruct (tstep b1 b2 s lb) as [[s1 e]|] eqn:E; [|done]. destruct (trun b1 b2 s1 ls) as [[s2 e']|] eqn:E2; [|done].
  injection H as <- <-. apply IH in E2. unfold acts. destruct lb as [t lb|t]; cbn [omap list_omap].
  - cbn. unfold tstep in E. destruct (may _ _ _ _); [|done]. destruct (step (th_s s) lb) as [[s3 e3]|] eqn:E3; [|done]. injection E as <- <-.
    cbn in E2. unfold acts in E2. by rewrite E2.
  - unfold tstep in E. destruct (_ && _); [|done]. injection E as <- <-. exact E2.
Qed.

(** What a step of a call does to the data nodes. *)
Definition grows (m m' : mem) : Prop :=
  (m_freed m' = m_freed m /\ exists g, m_garb m' = g ++ m_garb m) /\ forall l it, hbody m' l = Some (BData it) -> hbody m l = Some (BData it) \/ l = m_next m /\ m_next m' <> m_next m.
Lemma grows_refl m : grows m m. Proof. split; [split; [done|by exists []]|auto]. Qed.
Lemma grows_next m : m_next m <> Pos.succ (m_next m). Proof. lia. Qed.
Lemma grows_write m c v : grows m (write_cell m c v).
Proof. split; [split; [|exists []]; by destruct c as [|l i]; cbn; repeat case_match|]. intros l it H. left. by apply hbody_write_data in H. Qed.
Lemma grows_alloc m a b c v : grows m (write_cell (alloc m a b) c v).
Proof.
  assert (m_next (write_cell (alloc m a b) c v) = Pos.succ (m_next m)) as En by (destruct c as [|l i]; cbn; repeat case_match; done).
  split; [split; [|exists []]; by destruct c as [|l i]; cbn; repeat case_match|]. intros l it H. apply hbody_write_data in H. rewrite hbody_alloc in H.
  destruct (decide (l = m_next m)); [right|by left]. split; [done|]. rewrite En. lia.
Qed.
Lemma grows_same m m1 m2 : m_heap m2 = m_heap m1 -> m_freed m2 = m_freed m1 -> m_next m2 = m_next m1 -> (m_garb m2 = m_garb m1 \/ exists x, m_garb m2 = x :: m_garb m1) -> grows m m1 -> grows m m2.
Proof. unfold grows, hbody. intros -> -> -> Hg [[H1 [g H2]] H3]. split; [|done]. split; [done|]. destruct Hg as [->|[x ->]]; [by exists g|]. exists (x :: g). by rewrite H2. Qed.

Lemma op_step_grows gs m p spur a m' nx acts : op_step gs m p spur a = Some (m', nx, acts) -> grows m m'.
Proof.
  intros H. destruct p; cbn [op_step] in H.
  - repeat (first [injection H as <- _ _; apply grows_refl|apply prune_start_mem in H as ->; apply grows_refl|apply t_finish_mem in H as ->; apply grows_refl|case_match]).
  - destruct (read_cell m cur) as [now|]; [|injection H as <- _ _; apply grows_refl]. destruct (negb (addr_free m a)); [done|]. destruct (_ && _) eqn:E.
    + repeat (first [injection H as <- _ _|apply t_finish_mem in H as ->|case_match]); try apply grows_alloc; (eapply grows_same; [..|apply grows_alloc]; eauto; done).
    + injection H as <- _ _. eapply grows_same; [..|apply grows_refl]; eauto; done.
  - destruct (sh_loc child) as [l|]; [|injection H as <- _ _; apply grows_refl]. destruct (read_cell m (CSlot l i)); [|injection H as <- _ _; apply grows_refl].
    destruct (if is_null _ then _ else _) as [f|[[ac' cnt'] last']]; [injection H as <- _ _; apply (grows_write m (CSlot l i))|].
    destruct (S i <? LEVEL_CELLS); [injection H as <- _ _|apply prune_decide_mem in H as ->]; apply (grows_write m (CSlot l i)).
  - destruct (read_cell m parent) as [now|]; [|injection H as <- _ _; apply grows_refl]. destruct (sh_same m now child).
    + destruct ins as [u|sl]; [|destruct (addr_free m a); [|done]]; (destruct (sh_loc child); [apply prune_return_mem in H as ->|injection H as <- _ _]); try first [apply grows_write|apply grows_alloc];
        first [by (eapply grows_same; [..|apply grows_write]; eauto)|by (eapply grows_same; [..|apply grows_alloc]; eauto)].
    + destruct ins as [u|sl]; [|destruct (addr_free m a); [|done]]; apply prune_return_mem in H as ->; (eapply grows_same; [..|apply grows_refl]; eauto; done).
  - repeat (first [injection H as <- _ _; apply grows_refl|case_match]).
  - repeat (first [injection H as <- _ _; apply grows_refl|apply prune_start_mem in H as ->; apply grows_refl|case_match]).
  - destruct (read_cell m cur) as [now|]; [|injection H as <- _ _; apply grows_refl]. destruct new as [|x new]; [|destruct (addr_free m a); [|done]]; (repeat (first [injection H as <- _ _|apply rem_up_mem in H as ->|case_match])); try first [apply grows_write|apply grows_alloc|apply grows_refl];
        first [by (eapply grows_same; [..|apply grows_write]; eauto)|by (eapply grows_same; [..|apply grows_alloc]; eauto)|by (eapply grows_same; [..|apply grows_refl]; eauto)].
  - repeat (first [injection H as <- _ _; apply grows_refl|apply prune_start_mem in H as ->; apply grows_refl|case_match]).
  - injection H as <- _ _; apply grows_refl.
  - injection H as <- _ _; apply grows_refl.
  - repeat (first [injection H as <- _ _; apply grows_refl|case_match]).
Qed.
End threads.

Section inv.
Context {C : Config}.
Implicit Types s : tstate.

Lemma in_guards (s : state) o : o ∈ guards s <-> exists st, s_ops s !! o = Some st /\ active st = true.
Proof.
  unfold guards. rewrite elem_of_dom. split.
  - intros [st H]. apply map_filter_lookup_Some in H as [H1 H2]. by exists st.
  - intros (st & H1 & H2). exists st. by apply map_filter_lookup_Some.
Qed.

Lemma step_guards (s s' : state) lb ev o : step s lb = Some (s', ev) -> o ∈ guards s' -> o ∈ guards s \/ exists op, lb = LInv o op.
Proof.
  intros H. rewrite !in_guards. intros (st & Hs & Ha). destruct lb as [o' op|o' spur a|o'|o'|n|]; cbn [step] in H.
  - destruct (s_ops s !! o') eqn:E; [done|]. destruct (s_dropped s); [done|]. injection H as <- <-. cbn in Hs.
    destruct (decide (o' = o)) as [->|]; [right; by eexists|]. rewrite lookup_insert_ne in Hs by done. left. by exists st.
  - destruct (s_ops s !! o') as [[op p| | |]|] eqn:E; try done. destruct (op_step _ _ _ _ _) as [[[m nx] acts]|]; [|done]. injection H as <- <-. cbn in Hs.
    left. destruct (decide (o' = o)) as [->|]; [by exists (SRun op p)|]. rewrite lookup_insert_ne in Hs by done. by exists st.
  - destruct (s_ops s !! o') as [[| | |]|] eqn:E; try done. injection H as <- <-. cbn in Hs. left. destruct (decide (o' = o)) as [->|].
    + rewrite lookup_insert in Hs. by injection Hs as <-. + rewrite lookup_insert_ne in Hs by done. by exists st.
  - destruct (s_ops s !! o') as [[| | |]|] eqn:E; try done. injection H as <- <-. cbn in Hs. left. destruct (decide (o' = o)) as [->|].
    + rewrite lookup_insert in Hs. by injection Hs as <-. + rewrite lookup_insert_ne in Hs by done. by exists st.
  - destruct (m_garb (s_mem s) !! n) as [[[l k] gs]|]; [|done]. destruct (bool_decide _); [|done]. injection H as <- <-. left. by exists st.
  - destruct (_ && _); [|done]. destruct (drop_rec _ _ _); injection H as <- <-; left; by exists st.
Qed.

(** The memory after a step: what was freed, and the data nodes. *)
Lemma step_freed (s s' : state) lb ev : step s lb = Some (s', ev) ->
  (exists fs, m_freed (s_mem s') = fs ++ m_freed (s_mem s)) /\
  forall l it, hbody (s_mem s') l = Some (BData it) -> hbody (s_mem s) l = Some (BData it) \/ l = m_next (s_mem s) /\ m_next (s_mem s') <> m_next (s_mem s).
Proof.
  intros H. destruct lb as [o' op|o' spur a|o'|o'|n|]; cbn [step] in H.
  - destruct (s_ops s !! o') eqn:E; [done|]. destruct (s_dropped s); [done|]. injection H as <- <-. split; [by exists []|auto].
  - destruct (s_ops s !! o') as [[op p| | |]|] eqn:E; try done. destruct (op_step _ _ _ _ _) as [[[m nx] acts]|] eqn:E2; [|done]. injection H as <- <-. cbn.
    apply op_step_grows in E2 as [[E3 _] E4]. split; [exists []; done|done].
  - destruct (s_ops s !! o') as [[| | |]|] eqn:E; try done. injection H as <- <-. split; [by exists []|auto].
  - destruct (s_ops s !! o') as [[| | |]|] eqn:E; try done. injection H as <- <-. split; [by exists []|auto].
  - destruct (m_garb (s_mem s) !! n) as [[[l k] gs]|]; [|done]. destruct (bool_decide _); [|done]. injection H as <- <-. split; [by exists [(l, k)]|auto].
  - destruct (_ && _); [|done]. destruct (drop_rec _ _ _) as [fs|]; injection H as <- <-; (split; [|auto]); [by eexists|by exists []].
Qed.
Lemma new_destroyed_spec m m' fs : m_freed m' = fs ++ m_freed m -> forall l, l ∈ new_destroyed m m' <-> (l, KData) ∈ fs.
Proof.
  intros E l. unfold new_destroyed. rewrite E, app_length. replace (length fs + length (m_freed m) - length (m_freed m)) with (length fs) by lia.
  rewrite take_app. rewrite elem_of_list_omap. split; [intros ([l' []] & H & H2); cbn in H2; by simplify_eq|intros H; by exists (l, KData)].
Qed.

(** Who made the call that takes a step. *)
Definition by_call (lb : label) : bool := match lb with LStep _ _ _ => true | _ => false end.

Record tinv (b1 b2 : bool) (t0 : thread) (ls : list tlabel) s : Prop := {
  ti_excl : b2 = false -> forall o, o ∈ guards (th_s s) -> th_by s !! o = Some (th_owner s);
  ti_owner : b1 = false -> th_owner s = t0;
  ti_by : b1 = false -> b2 = false -> forall o t, th_by s !! o = Some t -> t = t0;
  ti_made : b1 = false -> b2 = false -> forall l t, (l, t) ∈ th_made s -> t = t0;
  ti_destr : b1 = false -> b2 = false -> forall l t, (l, t) ∈ th_destroyed s -> t = t0 \/ exists n, TAct t (LFree n) ∈ ls;
  ti_all_made : forall l it, hbody (s_mem (th_s s)) l = Some (BData it) -> exists t, (l, t) ∈ th_made s;
  ti_all_destr : forall l, (l, KData) ∈ m_freed (s_mem (th_s s)) <-> exists t, (l, t) ∈ th_destroyed s;
}.

Lemma may_owner s t lb : may false s t lb = true -> (forall o t, th_by s !! o = Some t -> t = th_owner s) -> t = th_owner s \/ exists n, lb = LFree n.
Proof.
  intros H Hby. destruct lb as [o' op|o' spur a|o'|o'|n|]; cbn in H; try (left; by apply Nat.eqb_eq in H); try (apply bool_decide_eq_true in H; left; by eapply Hby). right; by eexists.
Qed.

Lemma tinv_run b1 b2 t0 ls s ev : texec b1 b2 t0 ls s ev -> tinv b1 b2 t0 ls s.
Proof.
  revert s ev. induction ls as [|lb ls IH] using rev_ind; intros s ev Hx.
  { injection Hx as <- <-. split; cbn; try done; try (by intros; set_solver). }
  unfold texec in Hx. apply trun_app in Hx as (s1 & ev1 & ev2 & Hx & Hs & ->). specialize (IH _ _ Hx). clear Hx. cbn in Hs.
  destruct (tstep b1 b2 s1 lb) as [[s2 e]|] eqn:E; [|done]. injection Hs as <- <-. destruct IH as [H1 H2 H3 H4 H5 H6 H7].
  assert (forall t, (t = t0 \/ exists n, TAct t (LFree n) ∈ ls) -> t = t0 \/ exists n, TAct t (LFree n) ∈ ls ++ [lb]) as Hmono.
  { intros t [->|(n & H)]; [by left|right; exists n; by apply elem_of_app; left]. }
  destruct lb as [t lb|t]; cbn in E.
  2: { destruct b1; [|done]. cbn in E. destruct (bool_decide _) eqn:Eg; [|done]. apply bool_decide_eq_true in Eg. injection E as <- <-.
       split; cbn; try done. intros _ o Ho. rewrite Eg in Ho. by apply elem_of_empty in Ho. }
  destruct (may b2 s1 t lb) eqn:Em; [|done]. destruct (step (th_s s1) lb) as [[s' e']|] eqn:Est; [|done]. injection E as <- <-.
  destruct (step_freed _ _ _ _ Est) as [[fs Hfs] Hd].
  assert (b1 = false -> b2 = false -> t = t0 \/ exists n, lb = LFree n) as Ht.
  { intros -> ->. rewrite <-(H2 eq_refl). apply (may_owner _ _ _ Em). intros o t' Ho. rewrite (H2 eq_refl). by eapply H3. }
  split; cbn [th_s th_owner th_by th_made th_destroyed].
  - intros -> o Ho. destruct (step_guards _ _ _ _ _ Est Ho) as [Ho'|(op & ->)].
    + specialize (H1 eq_refl _ Ho'). destruct lb as [o' op| | | | |]; try done. destruct (decide (o' = o)) as [->|]; [|by rewrite lookup_insert_ne].
      exfalso. cbn in Est. apply in_guards in Ho' as (st & Hst & _). by rewrite Hst in Est.
    + cbn in Em. apply Nat.eqb_eq in Em as ->. by rewrite lookup_insert.
  - done.
  - intros -> -> o t' Ho. destruct lb as [o' op| | | | |]; try by eapply H3. destruct (decide (o' = o)) as [->|].
    + rewrite lookup_insert in Ho. injection Ho as <-. destruct (Ht eq_refl eq_refl) as [->|(n & ?)]; done.
    + rewrite lookup_insert_ne in Ho by done. by eapply H3.
  - intros -> -> l t' Hl. apply elem_of_app in Hl as [Hl|Hl]; [|by eapply H4]. apply elem_of_list_fmap in Hl as (l' & [= -> ->] & Hl).
    destruct (Ht eq_refl eq_refl) as [->|(n & ->)]; [done|]. exfalso. cbn in Est. destruct (m_garb _ !! n) as [[[l2 k2] gs2]|]; [|done]. destruct (bool_decide _); [|done]. injection Est as <- <-.
    unfold new_data in Hl. cbn in Hl. rewrite bool_decide_true in Hl by done. by apply elem_of_nil in Hl.
  - intros -> -> l t' Hl. apply elem_of_app in Hl as [Hl|Hl]; [|apply Hmono; eauto]. apply elem_of_list_fmap in Hl as (l' & [= -> ->] & Hl).
    destruct (Ht eq_refl eq_refl) as [->|(n & ->)]; [by left|]. right. exists n. apply elem_of_app. right. by apply elem_of_list_singleton.
  - intros l it Hl. destruct (Hd _ _ Hl) as [Hl2|[-> Hne]].
    + destruct (H6 _ _ Hl2) as (t' & Ht'). exists t'. apply elem_of_app. by right.
    + exists t. apply elem_of_app. left. apply elem_of_list_fmap. exists (m_next (s_mem (th_s s1))). split; [done|]. unfold new_data. rewrite bool_decide_false by congruence.
      unfold hbody in Hl. destruct (m_heap (s_mem s') !! m_next (s_mem (th_s s1))) as [[a b]|]; [|done]. cbn in Hl. injection Hl as ->. by apply elem_of_list_singleton.
  - intros l. rewrite Hfs, elem_of_app, H7, <-(new_destroyed_spec _ _ _ Hfs). split.
    + intros [Hl|(t' & Hl)]; [exists t|exists t']; apply elem_of_app; [left|by right]. apply elem_of_list_fmap. by exists l.
    + intros (t' & Hl). apply elem_of_app in Hl as [Hl|Hl]; [left|right; by exists t']. apply elem_of_list_fmap in Hl as (l' & [= -> ->] & Hl). done.
Qed.
End inv.

(** ** Collectors *)
From Verif Require Import Collectors.
Section collectors.
Context {C : Config}.
Implicit Types s : kstate.

Record kinv (c0 : collector) s : Prop := {
  ki_len : length (k_garb s) = length (m_garb (s_mem (k_s s)));
  ki_garb : forall c, c ∈ k_garb s -> c = c0;
  ki_col : forall o, is_Some (s_ops (k_s s) !! o) -> k_col s !! o = Some c0;
}.
Lemma step_garb (s s' : state) lb ev : step s lb = Some (s', ev) ->
  match lb with LFree n => m_garb (s_mem s') = delete n (m_garb (s_mem s)) | LStep _ _ _ => exists g, m_garb (s_mem s') = g ++ m_garb (s_mem s) | _ => m_garb (s_mem s') = m_garb (s_mem s) end /\
  forall o, is_Some (s_ops s' !! o) -> is_Some (s_ops s !! o) \/ exists op, lb = LInv o op.
Proof.
  intros H. destruct lb as [o' op|o' spur a|o'|o'|n|]; cbn [step] in H.
  - destruct (s_ops s !! o') eqn:E; [done|]. destruct (s_dropped s); [done|]. injection H as <- <-. split; [done|]. cbn. intros o.
    destruct (decide (o' = o)) as [->|]; [right; by eexists|]. rewrite lookup_insert_ne by done. by left.
  - destruct (s_ops s !! o') as [[op p| | |]|] eqn:E; try done. destruct (op_step _ _ _ _ _) as [[[m nx] acts]|] eqn:E2; [|done]. injection H as <- <-. cbn.
    split; [by apply op_step_grows in E2 as [[_ E3] _]|]. intros o Ho. left. destruct (decide (o' = o)) as [->|]; [by eexists|]. by rewrite lookup_insert_ne in Ho by done.
  - destruct (s_ops s !! o') as [[| | |]|] eqn:E; try done. injection H as <- <-. split; [done|]. cbn. intros o2 Ho. left. destruct (decide (o' = o2)) as [->|]; [by eexists|]. by rewrite lookup_insert_ne in Ho by done.
  - destruct (s_ops s !! o') as [[| | |]|] eqn:E; try done. injection H as <- <-. split; [done|]. cbn. intros o2 Ho. left. destruct (decide (o' = o2)) as [->|]; [by eexists|]. by rewrite lookup_insert_ne in Ho by done.
  - destruct (m_garb (s_mem s) !! n) as [[[l k] gs]|]; [|done]. destruct (bool_decide _); [|done]. injection H as <- <-. split; [done|by left].
  - destruct (_ && _); [|done]. destruct (drop_rec _ _ _) as [fs|]; injection H as <- <-; (split; [done|by left]).
Qed.

Lemma kinv_step c0 s lb s' ev : kinv c0 s -> kstep s lb = Some (s', ev) -> (forall o op c, lb = KInv o op c -> c = c0) ->
  step (k_s s) (plain lb) = Some (k_s s', ev) /\ kinv c0 s'.
Proof.
  intros [H1 H2 H3] H Hc. destruct lb as [o op c|lb]; cbn [kstep] in H.
  - destruct (step (k_s s) (LInv o op)) as [[s1 e]|] eqn:E; [|done]. injection H as <- <-. split; [done|]. apply step_garb in E as [E1 E2].
    rewrite (Hc _ _ _ eq_refl). split; cbn; [by rewrite E1|done|]. intros o' Ho. destruct (decide (o = o')) as [->|]; [by rewrite lookup_insert|]. rewrite lookup_insert_ne by done.
    apply H3. destruct (E2 _ Ho) as [|(op' & [= -> ->])]; done.
  - assert (forall (s1 : state) e, step (k_s s) lb = Some (s1, e) -> (forall o op, lb <> LInv o op) -> forall o, is_Some (s_ops s1 !! o) -> k_col s !! o = Some c0) as Hcol.
    { intros s1 e E Hn o Ho. apply step_garb in E as [_ E]. destruct (E _ Ho) as [|(op & ->)]; [by apply H3|by destruct (Hn o op)]. }
    destruct lb as [o' op|o' spur a|o'|o'|n|]; [done|..].
    + destruct (step (k_s s) (LStep o' spur a)) as [[s1 e]|] eqn:E; [|done]. destruct (k_col s !! o') as [c|] eqn:Eo; [|done]. injection H as <- <-. split; [done|].
      assert (c = c0) as ->. { assert (is_Some (s_ops (k_s s) !! o')) as Hs by (cbn [step] in E; destruct (s_ops (k_s s) !! o'); [by eexists|done]). apply H3 in Hs. congruence. }
      pose proof (Hcol _ _ eq_refl ltac:(done)) as Hcol'. apply step_garb in E as [[g E] _]. split; cbn; [|intros c Hin; apply elem_of_app in Hin as [Hin|Hin]; [by apply elem_of_replicate in Hin as [? _]|by apply H2]|done].
      rewrite app_length, replicate_length, E, app_length. rewrite H1. lia.
    + destruct (step (k_s s) (LUnpin o')) as [[s1 e]|] eqn:E; [|done]. injection H as <- <-. split; [done|]. pose proof (Hcol _ _ eq_refl ltac:(done)) as Hcol'.
      apply step_garb in E as [E _]. split; cbn; [by rewrite E|done|done].
    + destruct (step (k_s s) (LAbort o')) as [[s1 e]|] eqn:E; [|done]. injection H as <- <-. split; [done|]. pose proof (Hcol _ _ eq_refl ltac:(done)) as Hcol'.
      apply step_garb in E as [E _]. split; cbn; [by rewrite E|done|done].
    + destruct (m_garb (s_mem (k_s s)) !! n) as [[[l k] gs]|] eqn:E; [|done]. destruct (k_garb s !! n) as [c|] eqn:Ec; [|done]. destruct (bool_decide _) eqn:Eb; [|done]. apply bool_decide_eq_true in Eb.
      injection H as <- <-. cbn [plain step]. rewrite E. assert (c = c0) as -> by (apply H2; by eapply elem_of_list_lookup_2).
      rewrite bool_decide_true. 2: { apply set_eq. intros o. split; [|intros Ho; by apply elem_of_empty in Ho]. intros Ho. exfalso. apply (Eb _ Ho). apply H3. apply elem_of_intersection in Ho as [_ Ho].
        apply in_guards in Ho as (st & Hst & _). by eexists. }
      split; [done|]. split; cbn; [|intros c Hin; apply H2; by eapply elem_of_submseteq, submseteq_delete|done].
      apply lookup_lt_Some in E as Hlt. rewrite !length_delete by (by eexists). by rewrite H1.
    + destruct (step (k_s s) LDrop) as [[s1 e]|] eqn:E; [|done]. injection H as <- <-. split; [done|]. pose proof (Hcol _ _ eq_refl ltac:(done)) as Hcol'.
      apply step_garb in E as [E _]. split; cbn; [by rewrite E|done|done].
Qed.
Lemma krun_run c0 s ls s' ev : kinv c0 s -> krun s ls = Some (s', ev) -> (forall o op c, KInv o op c ∈ ls -> c = c0) -> run (k_s s) (plain <$> ls) = Some (k_s s', ev).
Proof.
  revert s ev. induction ls as [|lb ls IH]; intros s ev Hi H Hc; [by injection H as <- <-|]. cbn in H.
  destruct (kstep s lb) as [[s1 e]|] eqn:E; [|done]. destruct (krun s1 ls) as [[s2 e2]|] eqn:E2; [|done]. injection H as <- <-.
  destruct (kinv_step c0 _ _ _ _ Hi E) as [Hs Hi']; [intros o op c ->; eapply Hc; by left|]. rewrite fmap_cons. cbn [run]. rewrite Hs.
  rewrite (IH _ _ Hi' E2); [done|]. intros o op c Hin. eapply Hc. by right.
Qed.
Lemma kinv_init c0 : kinv c0 kinit.
Proof. split; cbn; [done|intros c H; by apply elem_of_nil in H|]. intros o [? H]. by rewrite lookup_empty in H. Qed.
End collectors.
