(** * The structural invariant of the whole system, for every execution. *)
From Verif Require Import Model Mem Inv Safe SafeStep SafeOps.

Section safesys.
Context {C : Config} {Fl : Flavor}.
Implicit Types (m : mem) (pos : loc -> list nat) (c : cell) (v w : sh) (o : opid) (gs : gset opid) (s : state).

Lemma elem_of_guards s o : o ∈ guards s <-> exists st, s_ops s !! o = Some st /\ active st = true.
Proof.
  unfold guards. rewrite elem_of_dom. unfold is_Some. setoid_rewrite map_filter_lookup_Some. simpl. naive_solver.
Qed.

Lemma guards_dom s : guards s ⊆ dom (s_ops s).
Proof. intros o. rewrite elem_of_guards, elem_of_dom. intros (st & Hs & _). eauto. Qed.

Record live_inv pos s : Prop := LiveInv {
  li_mem : minv pos (s_mem s);
  li_esafe : esafe (guards s) (s_mem s);
  li_garb : forall l k g, (l, k, g) ∈ m_garb (s_mem s) -> g ⊆ dom (s_ops s);
  li_ops : forall o st, s_ops s !! o = Some st -> st_ok pos (s_mem s) o st;
  li_fkind : forall l k, (l, k) ∈ m_freed (s_mem s) -> exists b, hbody (s_mem s) l = Some b /\ k = kind_of b;
}.

Record drop_inv s : Prop := DropInv {
  di_guards : guards s = ∅;
  di_ops : forall o op f, s_ops s !! o <> Some (SFail op f);
  di_nodup : NoDup (garb_locs (s_mem s) ++ (m_freed (s_mem s)).*1);
  di_dead : forall l, is_Some (m_heap (s_mem s) !! l) <-> dead (s_mem s) l;
  di_kind : forall l k g, (l, k, g) ∈ m_garb (s_mem s) -> exists b, hbody (s_mem s) l = Some b /\ k = kind_of b;
}.

Definition sinv s : Prop :=
  s_ub s = false /\ if s_dropped s then drop_inv s else exists pos, live_inv pos s.

Lemma sinv_init : sinv init.
Proof.
  split; [done|]. exists (fun _ => []). split; simpl.
  - apply minv0.
  - intros o c v B Ho. exfalso. apply elem_of_guards in Ho as (st & Hs & _). simpl in Hs. by rewrite lookup_empty in Hs.
  - intros l k g H. by apply elem_of_nil in H.
  - intros o st H. by rewrite lookup_empty in H.
  - intros l k H. by apply elem_of_nil in H.
Qed.

(** ** Changing the status of one operation *)
Lemma guards_insert_active s o st m b u : active st = true -> guards (State m (<[o := st]> (s_ops s)) b u) = {[o]} ∪ guards s.
Proof.
  intros Ha. apply set_eq. intros x. rewrite elem_of_union, elem_of_singleton, !elem_of_guards. simpl.
  destruct (decide (o = x)) as [<-|Hne].
  - rewrite lookup_insert. naive_solver.
  - rewrite lookup_insert_ne by done. naive_solver.
Qed.

Lemma guards_insert_gone s o m b u : guards (State m (<[o := SGone]> (s_ops s)) b u) = guards s ∖ {[o]}.
Proof.
  apply set_eq. intros x. rewrite elem_of_difference, elem_of_singleton, !elem_of_guards. simpl.
  destruct (decide (o = x)) as [<-|Hne].
  - rewrite lookup_insert. naive_solver.
  - rewrite lookup_insert_ne by done. naive_solver.
Qed.

Lemma guards_same s o st st0 m b u : s_ops s !! o = Some st0 -> active st0 = true -> active st = true ->
  guards (State m (<[o := st]> (s_ops s)) b u) = guards s.
Proof.
  intros Ho H0 Ha. rewrite guards_insert_active by done. apply set_eq. intros x. rewrite elem_of_union, elem_of_singleton.
  split; [|by right]. intros [->|?]; [|done]. apply elem_of_guards. eauto.
Qed.

Lemma dom_insert_mono s o st : dom (s_ops s) ⊆ dom (<[o := st]> (s_ops s)).
Proof. intros x. rewrite dom_insert. set_solver. Qed.

(** ** The destructor *)
Definition go_drop (fuel : nat) m : list sh -> option (list (loc * dkind)) :=
  fix go (ws : list sh) :=
    match ws with
    | [] => Some []
    | w :: ws => match drop_rec fuel m w, go ws with Some a, Some b => Some (a ++ b) | _, _ => None end
    end.

Lemma drop_rec_S fuel m v : drop_rec (S fuel) m v =
  match sh_loc v with
  | None => Some []
  | Some l =>
    if sh_data v then match deref m l with Some (BData _) => Some [(l, drop_data_kind)] | _ => None end
    else match deref m l with
         | Some (BInner sl) => match go_drop fuel m sl with Some fs => Some (fs ++ [(l, KInner)]) | None => None end
         | _ => None
         end
  end.
Proof. reflexivity. Qed.

Lemma prefix_snoc_ne {A} (p q : list A) (x y : A) : (p ++ [x]) `prefix_of` q -> (p ++ [y]) `prefix_of` q -> x = y.
Proof.
  intros [a ->] [b E]. rewrite <-!app_assoc in E. apply app_inv_head in E. simpl in E. congruence.
Qed.

Definition below pos m (p : list nat) (l : loc) : Prop :=
  exists c u, cval m c = Some u /\ cell_live m c /\ sh_loc u = Some l /\ p `prefix_of` cpos pos c.

Record drop_res pos m (p : list nat) v (fs : list (loc * dkind)) : Prop := DropRes {
  dr_nodup : NoDup fs.*1;
  dr_below : forall l, l ∈ fs.*1 -> below pos m p l;
  dr_self : forall l, sh_loc v = Some l -> l ∈ fs.*1;
  dr_closed : forall l i u t, l ∈ fs.*1 -> cval m (CSlot l i) = Some u -> sh_loc u = Some t -> t ∈ fs.*1;
  dr_kind : forall l k, (l, k) ∈ fs -> k = KInner;
}.

Lemma drop_rec_ok pos m : minv pos m -> forall fuel c v, cval m c = Some v -> cell_live m c -> 17 <= fuel + length (cpos pos c) -> 0 < fuel ->
  exists fs, drop_rec fuel m v = Some fs /\ drop_res pos m (cpos pos c) v fs.
Proof.
  intros Hm. induction fuel as [|fuel IH]; intros c v Hc Hl Hf Hpos; [lia|].
  rewrite drop_rec_S. destruct (sh_loc v) as [l|] eqn:El.
  2:{ exists []. split; [done|]. split; simpl.
    - apply NoDup_nil_2.
    - intros x Hx. by apply elem_of_nil in Hx.
    - intros x Hx. congruence.
    - intros x i u t Hx. by apply elem_of_nil in Hx.
    - intros x k Hx. by apply elem_of_nil in Hx. }
  assert (~ dead m l) as Hnd by (by eapply mi_live).
  assert (l ∉ (m_freed m).*1) as Hnf by (intros ?; apply Hnd; by right).
  pose proof (mi_ptr _ _ Hm _ _ Hc) as Hp. unfold ptr_ok in Hp. rewrite El in Hp. destruct (sh_data v) eqn:Ed.
  { destruct Hp as (it & Hb & _). rewrite (deref_hbody _ _ _ Hnf Hb). exists [(l, drop_data_kind)]. split; [done|]. split; simpl.
    - apply NoDup_singleton.
    - intros x ->%elem_of_list_singleton. exists c, v. done.
    - intros x Hx. assert (x = l) as -> by congruence. by apply elem_of_list_singleton.
    - intros x i u t ->%elem_of_list_singleton Hu. by destruct (no_slots_data _ _ _ _ _ Hb Hu).
    - intros x k E%elem_of_list_singleton. by injection E as -> ->. }
  destruct Hp as (sl & Hb & Hpl). rewrite (deref_hbody _ _ _ Hnf Hb).
  destruct (mi_slots _ _ Hm _ _ Hb) as [Hsl Hlen]. rewrite Hpl in Hlen.
  assert (exists fs, go_drop fuel m sl = Some fs /\ NoDup fs.*1 /\
    (forall x, x ∈ fs.*1 -> exists i, 0 <= i /\ below pos m (cpos pos c ++ [i]) x) /\
    (forall i u t, 0 <= i -> cval m (CSlot l i) = Some u -> sh_loc u = Some t -> t ∈ fs.*1) /\
    (forall x i u t, x ∈ fs.*1 -> cval m (CSlot x i) = Some u -> sh_loc u = Some t -> t ∈ fs.*1) /\
    (forall x k, (x, k) ∈ fs -> k = KInner)) as (fs & Hgo & Hnd' & Hbel & Hslots & Hclo & Hkind).
  { assert (forall n j, n + j = 16 -> exists fs, go_drop fuel m (drop j sl) = Some fs /\ NoDup fs.*1 /\
      (forall x, x ∈ fs.*1 -> exists i, j <= i /\ below pos m (cpos pos c ++ [i]) x) /\
      (forall i u t, j <= i -> cval m (CSlot l i) = Some u -> sh_loc u = Some t -> t ∈ fs.*1) /\
      (forall x i u t, x ∈ fs.*1 -> cval m (CSlot x i) = Some u -> sh_loc u = Some t -> t ∈ fs.*1) /\
      (forall x k, (x, k) ∈ fs -> k = KInner)) as Hgen.
    2:{ apply (Hgen 16 0). lia. }
    induction n as [|n IHn]; intros j Hj.
    - rewrite drop_ge by lia. exists []. split; [done|]. split; [apply NoDup_nil_2|]. split; [|split; [|split]].
      + intros x Hx. by apply elem_of_nil in Hx.
      + intros i u t Hi Hu. pose proof (cval_slot_idx _ _ _ _ _ Hm Hu). lia.
      + intros x i u t Hx. by apply elem_of_nil in Hx.
      + intros x k Hx. by apply elem_of_nil in Hx.
    - destruct (IHn (S j)) as (fs & Hgo & Hnd' & Hbel & Hslots & Hclo & Hkind); [lia|].
      destruct (slot_cval _ _ _ _ j Hm Hb) as (u & Hu & Hsu); [lia|].
      destruct (IH (CSlot l j) u Hu) as (fs1 & Hd1 & [N1 B1 S1 C1 K1]); [done| |lia|].
      { simpl. rewrite app_length, Hpl. simpl. lia. }
      simpl in B1. rewrite Hpl in B1.
      rewrite (drop_S _ _ _ Hsu). simpl. fold (go_drop fuel m). rewrite Hd1, Hgo. exists (fs1 ++ fs). split; [done|].
      rewrite fmap_app. split; [|split; [|split; [|split]]].
      + apply NoDup_app. split; [done|]. split; [|done]. intros x Hx1 Hx2.
        destruct (B1 x Hx1) as (c1 & u1 & ? & ? & ? & ?). destruct (Hbel x Hx2) as (i & Hi & c2 & u2 & ? & ? & ? & ?).
        assert (c1 = c2) as -> by (by eapply (mi_uniq _ _ Hm c1 u1 c2 u2 x)).
        assert (j = i); [|lia]. by eapply prefix_snoc_ne.
      + intros x [Hx|Hx]%elem_of_app; [exists j; split; [lia|by apply B1]|].
        destruct (Hbel x Hx) as (i & ? & ?). exists i. split; [lia|done].
      + intros i w t Hi Hw Ht. apply elem_of_app. destruct (decide (i = j)) as [->|].
        * left. change (cval m (CSlot l j) = Some w) in Hw. apply S1. congruence.
        * right. eapply (Hslots i); [lia|done|done].
      + intros x i w t [Hx|Hx]%elem_of_app Hw Ht; apply elem_of_app; [left|right]; eauto.
      + intros x k [Hx|Hx]%elem_of_app; eauto. }
  rewrite Hgo. exists (fs ++ [(l, KInner)]). split; [done|].
  assert (forall x, x ∈ (fs ++ [(l, KInner)]).*1 <-> x ∈ fs.*1 \/ x = l) as Hin.
  { intros x. rewrite fmap_app, elem_of_app. simpl. by rewrite elem_of_list_singleton. }
  split.
  - rewrite fmap_app. apply NoDup_app. split; [done|]. split; [|apply NoDup_singleton].
    intros x Hx ->%elem_of_list_singleton. destruct (Hbel l Hx) as (i & _ & c2 & u2 & ? & ? & ? & Hpre).
    assert (c = c2) as <- by (by eapply (mi_uniq _ _ Hm c v c2 u2 l)).
    apply prefix_length in Hpre. rewrite app_length in Hpre. simpl in Hpre. lia.
  - intros x [Hx| ->]%Hin; [|by exists c, v].
    destruct (Hbel x Hx) as (i & _ & c2 & u2 & ? & ? & ? & Hpre). exists c2, u2. split; [done|]. split; [done|]. split; [done|].
    etrans; [|exact Hpre]. by apply prefix_app_r.
  - intros x Hx. apply Hin. right. congruence.
  - intros x i u t [Hx| ->]%Hin Hu Ht; apply Hin; left; [by eapply Hclo|]. eapply (Hslots i); [lia|done|done].
  - intros x k [Hx|Hx]%elem_of_app; [by eapply Hkind|]. apply elem_of_list_singleton in Hx. by injection Hx as -> ->.
Qed.

(** Dropping frees exactly the nodes that have not been retired. *)
Lemma drop_root_ok pos m : minv pos m -> exists fs, drop_rec (MAX_LEVELS + 2) m (m_root m) = Some fs /\
  NoDup fs.*1 /\ (forall l, l ∈ fs.*1 <-> is_Some (m_heap m !! l) /\ ~ dead m l) /\ (forall l k, (l, k) ∈ fs -> k = KInner).
Proof.
  intros Hm. destruct (drop_rec_ok pos m Hm (MAX_LEVELS + 2) CRoot (m_root m)) as (fs & Hd & [N B S Cl K]); try done.
  { unfold MAX_LEVELS, HASH_BITS, LEVEL_BITS. simpl. lia. }
  { unfold MAX_LEVELS, HASH_BITS, LEVEL_BITS. simpl. lia. }
  exists fs. split; [done|]. split; [done|]. split; [|done]. intros l. split.
  - intros (c & u & Hc & Hl & Hu & _)%B. split; [by eapply cval_target_heap|by eapply mi_live].
  - intros [[b Hb]%hbody_is_Some Hnd]. destruct (mi_link _ _ Hm _ _ Hb Hnd) as (c & v & Hc & Hl & Hv).
    remember (length (cpos pos c)) as n eqn:En. revert l b c v Hb Hnd Hc Hl Hv En.
    induction n as [n IH] using lt_wf_ind. intros l b c v Hb Hnd Hc Hl Hv ->.
    destruct c as [|x i]; [simpl in Hc; apply S; congruence|].
    pose proof Hc as (sl & Hbx & _)%cval_slot.
    destruct (inner_parent _ _ _ _ Hm Hbx Hl) as (c' & v' & Hc' & Hl' & Hv' & _ & Ep).
    eapply (Cl x i v); [|done|done]. eapply (IH (length (cpos pos c'))); [|exact Hbx|done|exact Hc'|done|done|done].
    simpl. rewrite Ep, app_length. simpl. lia.
Qed.

(** ** The step theorem *)
Lemma esafe_free gs m n l k g : esafe gs m -> m_garb m !! n = Some (l, k, g) -> g ∩ gs = ∅ -> NoDup (garb_locs m ++ (m_freed m).*1) ->
  (forall o x, o ∈ gs -> prot m o x <-> prot (mem_free m n l k) o x) /\ esafe gs (mem_free m n l k).
Proof.
  intros He Hn Hg Hnd.
  assert (forall o x, o ∈ gs -> prot m o x <-> prot (mem_free m n l k) o x) as Hp.
  { intros o x Ho. unfold prot. simpl. split.
    - intros (Hh & Hf & Hgb). split; [done|]. split.
      + intros [->|?]%elem_of_cons; [|done]. assert (o ∈ g) as Hog by (apply (Hgb k); by eapply elem_of_list_lookup_2). set_solver.
      + intros k' g' Hin. apply (Hgb k' g'). apply elem_of_list_lookup in Hin as [j Hj]. apply elem_of_list_lookup.
        destruct (decide (j < n)); [exists j; by rewrite lookup_delete_lt in Hj|exists (S j); by rewrite lookup_delete_ge in Hj by lia].
    - intros (Hh & Hf & Hgb). split; [done|]. split; [intros ?; apply Hf; by right|].
      intros k' g' Hin. apply (Hgb k' g').
      pose proof (delete_Permutation (m_garb m) n (l, k, g) Hn) as HP. rewrite HP in Hin.
      apply elem_of_cons in Hin as [[= -> -> ->]|Hin]; [|done]. exfalso. apply Hf. left. }
  split; [done|]. intros o c v B Ho Hc HB HA. apply Hp; [done|]. eapply (He o c); [done| |exact HB|].
  - destruct c; exact Hc.
  - intros A i E. apply Hp; [done|]. by eapply HA.
Qed.

(** A call starts. *)
Lemma sinv_add s o op p : sinv s -> s_ops s !! o = None -> s_dropped s = false -> (forall pos, pc_ok pos (s_mem s) o p) ->
  sinv (set_op s o (SRun op p)).
Proof.
    intros [Hub Hinv] Eo Ed Hp. rewrite Ed in Hinv.
    split; [done|]. simpl. rewrite Ed. destruct Hinv as [pos [Hm He Hg Hops Hfk]]. exists pos.
    assert (forall o' l, o' = o -> prot (s_mem s) o' l -> ~ dead (s_mem s) l) as Hnew.
    { intros o' l -> (_ & Hf & Hgb) Hd. apply dead_garb_or_freed in Hd as [(k & g & Hin)|?]; [|done].
      pose proof (Hgb k g Hin) as Hin'. apply (Hg l k g Hin) in Hin'. apply elem_of_dom in Hin' as [? ?]. congruence. }
    split; simpl.
    + done.
    + unfold set_op. rewrite guards_insert_active by done. intros o' c v B [->%elem_of_singleton|Ho']%elem_of_union Hc HB HA.
      * destruct (cell_live_dec (s_mem s) c) as [Hl|(l & i & -> & Hd)]; [by eapply live_target_prot|].
        exfalso. eapply Hnew; [done|by eapply HA|done].
      * by eapply He.
    + intros l k g Hin. etrans; [by eapply Hg|]. apply dom_insert_mono.
    + intros o' st. destruct (decide (o = o')) as [<-|Hne]; [rewrite lookup_insert|rewrite lookup_insert_ne by done; apply Hops].
      intros [= <-]. apply Hp.
    + done.
Qed.

(** An operation performs a step. *)
Definition nstat (op : oper) (nx : next) : ostat :=
  match nx with NRun p' => SRun op p' | NRet r => SRet op r | NFail f => SFail op f end.

Lemma sinv_op s o op p m' nx : sinv s -> s_ops s !! o = Some (SRun op p) ->
  (forall pos, minv pos (s_mem s) -> o ∈ guards s -> esafe (guards s) (s_mem s) -> pc_ok pos (s_mem s) o p ->
     exists pos', mtr (guards s) pos (s_mem s) pos' m' /\ nx_ok pos' m' o nx) ->
  sinv (State m' (<[o := nstat op nx]> (s_ops s)) (s_dropped s) (s_ub s)).
Proof.
    intros [Hub Hinv] Eo Hstep.
    assert (o ∈ guards s) as Hog by (apply elem_of_guards; eauto).
    destruct (s_dropped s) eqn:Ed.
    { destruct Hinv. exfalso. set_solver. }
    destruct Hinv as [pos [Hm He Hg Hops Hfk]].
    destruct (Hstep pos Hm Hog He (Hops _ _ Eo)) as (pos' & Hmt & Hnx).
    pose proof (mtr_ext _ _ _ _ _ Hm Hmt) as Hext.
    split; [done|]. simpl. try rewrite Ed. exists pos'.
    set (st := match nx with NRun p' => SRun op p' | NRet r => SRet op r | NFail f => SFail op f end).
    assert (active st = true) as Ha by (unfold st; by destruct nx).
    split; simpl.
    + by eapply mtr_minv.
    + rewrite (guards_same _ _ _ _ _ _ _ Eo) by done. by eapply mtr_esafe.
    + intros l k g Hin. etrans; [|apply dom_insert_mono]. destruct Hmt as [| | |na cur v w old Hs Hold]; try by eapply Hg.
      rewrite (swap_garb Hm Hs) in Hin. destruct old as [[[x k'] g']|]; [|by eapply Hg].
      apply elem_of_cons in Hin as [[= -> -> ->]|Hin]; [|by eapply Hg]. rewrite (Hold x k' g') by done. apply guards_dom.
    + intros o' st'. destruct (decide (o = o')) as [<-|Hne].
      * rewrite lookup_insert. intros [= <-]. unfold st. by destruct nx.
      * rewrite lookup_insert_ne by done. intros Ho'. pose proof (Hops _ _ Ho') as Hok.
        destruct (active st') eqn:Ea.
        -- eapply (st_st pos (s_mem s)); [done| |done|done]. intros l. eapply mtr_prot; [done|done|]. apply elem_of_guards. eauto.
        -- by destruct st'.
    + intros l k Hin. assert (m_freed m' = m_freed (s_mem s)) as Ef.
      { destruct Hmt as [| | |na cur v w old Hs Hold]; try done. apply (swap_freed Hm Hs). }
      rewrite Ef in Hin. destruct (Hfk l k Hin) as (b & Hb & ->). destruct (Hext _ _ Hb) as [_ Hb'].
      destruct b; [destruct Hb' as (? & ? & _)|]; eauto.
Qed.

(** A guard is dropped. *)
Lemma sinv_gone s o st0 : sinv s -> s_ops s !! o = Some st0 -> active st0 = true -> sinv (set_op s o SGone).
Proof.
    intros [Hub Hinv] Eo Hact.
    split; [done|]. simpl.
    assert (o ∈ guards s) as Hog by (apply elem_of_guards; eauto).
    destruct (s_dropped s) eqn:Ed. { destruct Hinv. exfalso. set_solver. }
    destruct Hinv as [pos [Hm He Hg Hops Hfk]]. exists pos. split; simpl; try done.
    + unfold set_op. rewrite guards_insert_gone. intros o' c v B [Ho' _]%elem_of_difference. by apply He.
    + intros l k g Hin. etrans; [by eapply Hg|apply dom_insert_mono].
    + intros o' st. destruct (decide (o = o')) as [<-|Hne]; [rewrite lookup_insert|rewrite lookup_insert_ne by done; apply Hops].
      by intros [= <-].
Qed.

Lemma sinv_free_drop s lb s' ev : (exists n, lb = LFree n) \/ lb = LDrop -> sinv s -> step s lb = Some (s', ev) -> sinv s'.
Proof.
  intros Hlb [Hub Hinv] Hst. destruct Hlb as [[n ->]| ->]; cbn [step] in Hst.
  - (* LFree *)
    destruct (m_garb (s_mem s) !! n) as [[[l k] g]|] eqn:En; [|done]. case_bool_decide as Hgi; [|done].
    injection Hst as <- <-.
    assert (NoDup (garb_locs (s_mem s) ++ (m_freed (s_mem s)).*1)) as Hnd.
    { destruct (s_dropped s); [by destruct Hinv|]. destruct Hinv as [pos [Hm _ _ _ _]]. by apply (mi_nodup _ _ Hm). }
    assert (freed (s_mem s) l = false) as Hfr.
    { unfold freed. apply bool_decide_eq_false_2. intros Hf. apply NoDup_app in Hnd as (_ & Hnd & _). apply (Hnd l); [|done].
      unfold garb_locs. apply elem_of_list_fmap. exists (l, k, g). split; [done|]. by eapply elem_of_list_lookup_2. }
    split; [simpl; by rewrite Hub, Hfr|]. simpl. destruct (s_dropped s) eqn:Ed.
    + destruct Hinv as [Hgu Hno Hnd' Hdd Hkd]. split; simpl.
      * done.
      * done.
      * change (NoDup (garb_locs (mem_free (s_mem s) n l k) ++ (m_freed (mem_free (s_mem s) n l k)).*1)).
        rewrite (garb_free _ n l k g En) in Hnd'. simpl. rewrite <-Permutation_middle. done.
      * intros x. rewrite Hdd. symmetry. by apply (dead_free (s_mem s) n l k g).
      * intros x k' g' Hin. apply (Hkd x k' g'). apply elem_of_list_lookup in Hin as [j Hj]. apply elem_of_list_lookup.
        destruct (decide (j < n)); [exists j; by rewrite lookup_delete_lt in Hj|exists (S j); by rewrite lookup_delete_ge in Hj by lia].
    + destruct Hinv as [pos [Hm He Hg Hops Hfk]]. exists pos.
      destruct (esafe_free (guards s) (s_mem s) n l k g He En Hgi Hnd) as [Hp He'].
      split; simpl.
      * by eapply minv_free.
      * done.
      * intros x k' g' Hin. apply (Hg x k' g'). apply elem_of_list_lookup in Hin as [j Hj]. apply elem_of_list_lookup.
        destruct (decide (j < n)); [exists j; by rewrite lookup_delete_lt in Hj|exists (S j); by rewrite lookup_delete_ge in Hj by lia].
      * intros o st Ho. pose proof (Hops _ _ Ho) as Hok. destruct (active st) eqn:Ea; [|by destruct st].
        eapply (st_st pos (s_mem s)); [apply (ext_refl pos (s_mem s))| |done|done].
        intros x. apply Hp. apply elem_of_guards. eauto.
      * intros x k' [E|Hin]%elem_of_cons; [|by apply Hfk]. injection E as -> ->.
        eapply (mi_kind _ _ Hm l k g). by eapply elem_of_list_lookup_2.
  - (* LDrop *)
    case_bool_decide as Hgu; [|done]. destruct (s_dropped s) eqn:Ed; [done|]. cbn [negb andb] in Hst.
    destruct Hinv as [pos [Hm He Hg Hops Hfk]].
    destruct (drop_root_ok _ _ Hm) as (fs & Hdr & Hnd & Hall & Hk). rewrite Hdr in Hst. injection Hst as <- <-.
    assert (NoDup (fs.*1 ++ (m_freed (s_mem s)).*1)) as Hnd2.
    { apply NoDup_app. split; [done|]. split.
      - intros x [_ Hx]%Hall Hf. apply Hx. by right.
      - pose proof (mi_nodup _ _ Hm) as Hn. by apply NoDup_app in Hn as (_ & _ & ?). }
    split; [simpl; by rewrite Hub, bool_decide_eq_true_2|]. simpl.
    assert (forall x, x ∈ (reverse fs ++ m_freed (s_mem s)).*1 <-> x ∈ fs.*1 \/ x ∈ (m_freed (s_mem s)).*1) as Hin.
    { intros x. rewrite fmap_app, elem_of_app. rewrite (reverse_Permutation fs). done. }
    split; simpl.
    + done.
    + intros o op f Ho. assert (o ∈ guards s) by (apply elem_of_guards; eauto). set_solver.
    + rewrite fmap_app. rewrite (reverse_Permutation fs).
      pose proof (mi_nodup _ _ Hm) as Hn. apply NoDup_app in Hn as (Hn1 & Hn2 & Hn3). apply NoDup_app. split; [done|].
      split; [|done]. intros x Hx [Hy|Hy]%elem_of_app; [|by eapply Hn2]. apply Hall in Hy as [_ Hy]. apply Hy. by left.
    + intros l. unfold dead. simpl. rewrite Hin, Hall. split.
      * intros Hh. destruct (decide (dead (s_mem s) l)) as [[?|?]|]; tauto.
      * intros [?|[[? _]|?]]; [apply (mi_heap _ _ Hm); by left|done|apply (mi_heap _ _ Hm); by right].
    + intros l k g. apply (mi_kind _ _ Hm).
Qed.
End safesys.

Section tamesys.
Context {C : Config}.
Implicit Types (s : state).

Theorem sinv_step s lb s' ev : sinv s -> step s lb = Some (s', ev) -> sinv s'.
Proof.
  intros Hinv Hst. destruct lb as [o op|o spur a|o|o|n|]; cbn [step] in Hst.
  - destruct (s_ops s !! o) as [?|] eqn:Eo; [done|]. destruct (s_dropped s) eqn:Ed; [done|]. injection Hst as <- <-.
    apply sinv_add; [done|done|done|]. intros pos. destruct op; simpl; try done; repeat split_and; try done; apply cok_root.
  - destruct (s_ops s !! o) as [[op p|?|?|]|] eqn:Eo; try done.
    destruct (op_step (guards s) (s_mem s) p spur a) as [[[m' nx] acts]|] eqn:Estep; [|done]. injection Hst as <- _.
    eapply sinv_op; [done|done|]. intros pos Hm Ho He Hpc. by eapply op_step_ok.
  - destruct (s_ops s !! o) as [[|op r|?|]|] eqn:Eo; try done. injection Hst as <- <-. by eapply sinv_gone.
  - destruct (s_ops s !! o) as [[op r| |?|]|] eqn:Eo; try done. injection Hst as <- <-. by eapply sinv_gone.
  - eapply sinv_free_drop; [left; eauto|done|exact Hst].
  - eapply sinv_free_drop; [by right|done|exact Hst].
Qed.

Theorem sinv_run s ls s' ev : sinv s -> run s ls = Some (s', ev) -> sinv s'.
Proof.
  revert s ev. induction ls as [|lb ls IH]; intros s ev Hs; simpl.
  - by intros [= <- <-].
  - destruct (step s lb) as [[s1 e1]|] eqn:E1; [|done]. destruct (run s1 ls) as [[s2 e2]|] eqn:E2; [|done].
    intros [= <- <-]. eapply IH; [|exact E2]. by eapply sinv_step.
Qed.
End tamesys.
