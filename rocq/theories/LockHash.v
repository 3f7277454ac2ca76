(** * Modifying operations stay on the path given by their hash. *)
From Verif Require Import Model Mem Inv Safe SafeStep SafeOps SafeSys SafeProps Spec LiveStep Lock LockStep.

Section lockhash.
Context {C : Config}.
Implicit Types (m : mem) (pos : loc -> list nat) (c : cell) (v w : sh) (o : opid) (gs : gset opid) (p : pc).

(** The positions a search with hash [h] passes. *)
Definition npath (h : N) : list nat := (fun d => bits h (4 * d)) <$> seq 0 16.
Lemma npath_lookup h d : d < 16 -> npath h !! d = Some (bits h (4 * d)).
Proof. intros Hd. unfold npath. rewrite list_lookup_fmap, lookup_seq_lt by done. done. Qed.
Lemma prefix_snoc_npath q h : q `prefix_of` npath h -> length q < 16 -> (q ++ [bits h (4 * length q)]) `prefix_of` npath h.
Proof.
  intros [r Hr] Hl. destruct r as [|x r].
  { rewrite app_nil_r in Hr. apply (f_equal length) in Hr. change (length (npath h)) with 16 in Hr. lia. }
  pose proof (npath_lookup h (length q) Hl) as Hx. rewrite Hr in Hx.
  rewrite lookup_app_r in Hx by lia. rewrite Nat.sub_diag in Hx. cbn [lookup list_lookup] in Hx. injection Hx as Hx. exists r. rewrite Hr, Hx. by rewrite <-app_assoc.
Qed.

Definition phash p : option N :=
  match p with
  | TLoad t _ _ _ | TCas t _ _ _ _ _ _ | PMark (KTrav t) _ _ _ _ _ _ _ | PCas (KTrav t) _ _ _ _ => Some (t_hash t)
  | RLoad _ h _ _ _ | RCas _ h _ _ _ _ _ _ | PMark (KRem _ h) _ _ _ _ _ _ _ | PCas (KRem _ h) _ _ _ _ => Some h
  | _ => None
  end.
Definition hpc pos p : Prop := forall h, phash p = Some h -> cpos pos (pcell p) `prefix_of` npath h.

(** What a step may do to the cell and the hash. *)
Definition moves pos m p p' : Prop :=
  is_Some (cval m (pcell p')) /\ hpc pos p' /\ (forall h, phash p' = Some h -> phash p = Some h) /\
  (phash p' = None -> cpos pos (pcell p') `prefix_of` cpos pos (pcell p)).

Lemma link_prefix pos m o parent child l i : link_ok pos m o parent child -> sh_loc child = Some l -> cpos pos parent `prefix_of` cpos pos (CSlot l i).
Proof.
  intros (_ & [Hp _] & _ & Hd & _) El. unfold ptr_ok in Hp. rewrite El, Hd in Hp. destruct Hp as (sl & _ & Hp). simpl. rewrite Hp. by eexists.
Qed.

Lemma rem_up_moves pos m o p del lv cur m0 m' p' acts : lev_ok pos m o lv cur -> cpos pos cur `prefix_of` cpos pos (pcell p) ->
  rem_up m0 del lv = Some (m', NRun p', acts) -> moves pos m p p'.
Proof.
  intros Hlev Hpre. unfold rem_up, panics, ok. destruct lv as [|[pa ch] rest]; [done|]. destruct (is_null ch); [done|]. intros [= _ <- _].
  destruct Hlev as (Hlk & (l & i & -> & El) & _). split; [by apply Hlk|]. split; [done|]. split; [done|]. intros _. simpl.
  etrans; [|exact Hpre]. by eapply link_prefix.
Qed.

Lemma op_step_moves gs pos m o p spur a m' p' acts :
  minv pos m -> o ∈ gs -> esafe gs m -> pc_ok pos m o p -> upd p = true -> hpc pos p ->
  op_step gs m p spur a = Some (m', NRun p', acts) -> moves pos m p p'.
Proof.
  intros Hm Ho He Hpc Hup Hh Hst.
  assert (forall c v, cok m o c -> cval m c = Some v -> vok pos m o (cpos pos c) v) as Hvok by (intros c v; by eapply vok_load).
  assert (forall p'', is_Some (cval m (pcell p)) -> pcell p'' = pcell p -> phash p'' = phash p -> moves pos m p p'') as Hsame.
  { intros p'' Hs E1 E2. split; [by rewrite E1|]. split; [intros h; rewrite E1, E2; apply Hh|]. split; [by rewrite E2|]. intros _. by rewrite E1. }
  assert (forall p'', pcell p'' = CRoot -> phash p'' = phash p -> moves pos m p p'') as Hroot.
  { intros p'' E1 E2. split; [by rewrite E1; simpl; eauto|]. split; [intros h _; rewrite E1; apply prefix_nil|]. split; [by rewrite E2|]. intros _. rewrite E1. apply prefix_nil. }
  assert (forall parent child l i p'', link_ok pos m o parent child -> sh_loc child = Some l -> pcell p = CSlot l i -> pcell p'' = parent -> phash p'' = phash p -> moves pos m p p'') as Hparent.
  { intros parent child l i p'' Hlk El E1 E2 E3. pose proof (link_prefix _ _ _ _ _ _ i Hlk El) as Hpre. rewrite <-E1 in Hpre. split; [rewrite E2; by apply Hlk|]. rewrite <-E2 in Hpre.
    split; [intros h; rewrite E3; intros Hx; etrans; [exact Hpre|by apply Hh]|]. split; [by rewrite E3|done]. }
  destruct p as [t shift cur par|t shift cur par node new kind|k parent child i ac cnt last new|k parent child ins pr
    |k h cur|k h shift cur levels|k h shift cur levels node new del|del levels parent child i cnt| | |levels out]; try done; cbn [pcell phash] in *.
  - destruct Hpc as (Hc & Hsh & Hpar). destruct (cok_read _ _ _ _ Hm Hc) as (node & Hrd & Hcv). cbn [op_step] in Hst. rewrite Hrd in Hst.
    assert (is_Some (cval m cur)) as Hsome by eauto.
    destruct (sh_cond node).
    { destruct par as [[parent child]|]; [|done]. destruct Hpar as [Hlk (l & i & -> & El)]. unfold prune_start, panics, ok in Hst.
      destruct (sh_data child); [done|]. destruct (is_null child); [done|]. injection Hst as <- <- <-. by eapply Hparent. }
    destruct (is_null node) eqn:Enl.
    { destruct (ts_payload (t_st t)) as [[pl st'] call]. injection Hst as <- <- <-. by apply Hsame. }
    destruct (sh_data node) eqn:Ed.
    { destruct (load_data m node) as [?|[|d0 it']]; [done|done|].
      destruct (negb (keqb (keyof d0) (ts_key (t_st t))) && (shift <? HASH_BITS)).
      - destruct (negb (length (d0 :: it') =? 1)); [done|]. injection Hst as <- <- <-. by apply Hsame.
      - destruct (sh_loc node) as [tl|].
        + destruct (find_ref _ tl _) as [r|].
          * destruct (t_mode t); [|by apply t_finish_run in Hst]. destruct (ts_payload (t_st t)) as [[pl st'] call]. injection Hst as <- <- <-. by apply Hsame.
          * destruct (ts_payload (t_st t)) as [[pl st'] call]. injection Hst as <- <- <-. by apply Hsame.
        + destruct (ts_payload (t_st t)) as [[pl st'] call]. injection Hst as <- <- <-. by apply Hsame. }
    destruct (sh_loc node) as [l|] eqn:El; [|done].
    destruct (HASH_BITS <=? shift) eqn:Esh; [done|]. apply Nat.leb_gt in Esh. unfold HASH_BITS in Esh. injection Hst as <- <- <-.
    destruct (vok_inner _ _ _ _ _ _ (Hvok _ _ Hc Hcv) Ed El) as (sl & Hb & Hpos & Hpr).
    destruct (slot_cval _ _ _ _ (bits (t_hash t) shift) Hm Hb (bits_lt _ _)) as (u & Hu & _).
    split; [simpl; simpl in Hu; eauto|]. split; [|done]. intros h [= <-]. cbn [pcell cpos]. rewrite Hpos, Hsh. apply prefix_snoc_npath; [|lia]. by apply Hh.
  - destruct Hpc as (Hc & Hsh & Hpar & Hv & Hnc & Htc). destruct (cok_read _ _ _ _ Hm Hc) as (now & Hrd & Hcv). assert (is_Some (cval m cur)) as Hsome by eauto.
    cbn [op_step] in Hst. rewrite Hrd in Hst. destruct (addr_free m a) eqn:Eaf; [|done]. cbn [negb] in Hst.
    destruct (sh_same m now node && negb spur).
    + destruct kind as [| |result].
      * destruct new as [?|[|p0 ?]]; [done|done|]. by apply t_finish_run in Hst.
      * injection Hst as <- <- <-. by apply Hsame.
      * destruct (sh_loc node); [|done]. destruct (negb (sh_data node)); [done|]. destruct new as [?|it]; [done|].
        destruct result as [r|]; [by apply t_finish_run in Hst|]. destruct (t_mode t); [by apply t_finish_run in Hst|].
        destruct (it !! _); [by apply t_finish_run in Hst|done].
    + injection Hst as <- <- <-. by apply Hsame.
  - destruct Hpc as (Hlk & Hk & Hi & Hlen & Hmk & Hsum). pose proof Hlk as ([Hsome _] & _). cbn [op_step] in Hst.
    destruct (sh_loc child) as [l|]; [|done]. destruct (read_cell m (CSlot l i)) as [v|]; [|done].
    match type of Hst with match ?r with _ => _ end = _ => destruct r as [f|[[ac' cnt'] last']] end; [done|].
    destruct (S i <? LEVEL_CELLS).
    + injection Hst as <- <- <-. by apply Hsame.
    + unfold prune_decide in Hst. destruct (sh_cond child || sh_data child); [done|]. injection Hst as <- <- <-. by apply Hsame.
  - destruct Hpc as (Hlk & Hk & new & Hlen & Hmk & Hch). pose proof Hlk as ([Hsome _] & _). cbn [op_step] in Hst.
    assert (exists m0 pr', prune_return m0 k pr' = Some (m', NRun p', acts)) as (m0 & pr' & Hr).
    { destruct (read_cell m parent) as [now|]; [|done]. destruct ins as [?|?], (addr_free m a); try done; destruct (sh_same m now child); eauto; destruct (sh_loc child); eauto; done. }
    destruct k as [t|key h|del lv]; simpl in Hr.
    + injection Hr as <- <- <-. by apply Hroot.
    + injection Hr as <- <- <-. by apply Hroot.
    + assert (rem_up m0 del lv = Some (m', NRun p', acts)) as H' by (by destruct pr'). destruct Hk as [_ Hlev]. by eapply rem_up_moves.
  - destruct Hpc as (Hc & Hsh & Hlev). destruct (cok_read _ _ _ _ Hm Hc) as (node & Hrd & Hcv). cbn [op_step] in Hst. rewrite Hrd in Hst.
    assert (is_Some (cval m cur)) as Hsome by eauto.
    destruct (is_null node) eqn:Enl; [done|].
    destruct (sh_cond node) eqn:Ecd.
    { destruct levels as [|[parent child] rest]; [done|]. destruct Hlev as (Hlk & (l & i & -> & El) & _). unfold prune_start, panics, ok in Hst.
      destruct (sh_data child); [done|]. destruct (is_null child); [done|]. injection Hst as <- <- <-. by eapply Hparent. }
    destruct (sh_data node) eqn:Ed.
    { destruct (load_data m node) as [?|it]; [done|]. destruct (find_last k 0 it None) as [[i p]|]; [|done]. destruct (sh_loc node); [|done].
      injection Hst as <- <- <-. by apply Hsame. }
    destruct (sh_loc node) as [l|] eqn:El; [|done].
    destruct (MAX_LEVELS <=? length levels); [done|]. destruct (HASH_BITS <=? shift) eqn:Esh; [done|]. apply Nat.leb_gt in Esh. unfold HASH_BITS in Esh.
    injection Hst as <- <- <-. destruct (vok_inner _ _ _ _ _ _ (Hvok _ _ Hc Hcv) Ed El) as (sl & Hb & Hpos & Hpr).
    destruct (slot_cval _ _ _ _ (bits h shift) Hm Hb (bits_lt _ _)) as (u & Hu & _).
    split; [simpl; simpl in Hu; eauto|]. split; [|done]. intros h' [= <-]. cbn [pcell cpos]. rewrite Hpos, Hsh. apply prefix_snoc_npath; [|lia]. by apply Hh.
  - destruct Hpc as (Hc & Hsh & Hlev & _). destruct (cok_read _ _ _ _ Hm Hc) as (now & Hrd & Hcv). assert (is_Some (cval m cur)) as Hsome by eauto.
    cbn [op_step] in Hst. rewrite Hrd in Hst.
    assert ((exists m0, rem_up m0 del levels = Some (m', NRun p', acts)) \/ p' = RLoad k h shift cur levels) as [[m0 Hr]| ->].
    { destruct new, (addr_free m a); try done; destruct (sh_same m now node && negb spur); try (by injection Hst as <- <- <-; right); destruct (negb (sh_data node)); try done; destruct (sh_loc node); try done; eauto. }
    + by eapply rem_up_moves.
    + by apply Hsame.
  - destruct Hpc as (Hlk & Hk & Hi). pose proof Hlk as ([Hsome _] & _). cbn [op_step] in Hst. destruct (sh_loc child) as [l|]; [|done]. destruct (read_cell m (CSlot l i)) as [v|]; [|done].
    destruct (S i <? LEVEL_CELLS) eqn:Elt; [injection Hst as <- <- <-; by apply Hsame|].
    destruct (1 <? _); [done|]. unfold prune_start, panics, ok in Hst.
    destruct (sh_data child); [done|]. destruct (is_null child); [done|]. injection Hst as <- <- <-. by apply Hsame.
Qed.

Lemma op_step_noupd gs m p spur a m' p' acts : upd p = false -> op_step gs m p spur a = Some (m', NRun p', acts) -> upd p' = false /\ m' = m.
Proof.
  destruct p as [| | | |k h cur| | | | | |lv out]; try done; intros _ Hst; cbn [op_step] in Hst; unfold ok, panics in Hst.
  - destruct (read_cell m cur) as [node|]; [|done]. destruct (is_null node); [done|]. destruct (sh_data node); [by destruct (load_data m node)|].
    destruct (sh_loc node); [|done]. by injection Hst as <- <- <-.
  - by injection Hst as <- <- <-.
  - destruct lv as [|[v idx] rest]; [done|]. destruct (is_null v); [by injection Hst as <- <- <-|]. destruct (sh_data v).
    + destruct (load_data m v) as [?|it]; [done|]. destruct (sh_loc v); [|done]. destruct (it !! idx); by injection Hst as <- <- <-.
    + destruct (idx <? LEVEL_CELLS); [|by injection Hst as <- <- <-]. destruct (sh_loc v) as [l|]; [|done]. destruct (read_cell m (CSlot l idx)); [|done].
      destruct (MAX_LEVELS + 1 <=? length _); [done|]. by injection Hst as <- <- <-.
Qed.
Lemma op_step_noupd_mem gs m p spur a m' nx acts : upd p = false -> op_step gs m p spur a = Some (m', nx, acts) -> m' = m.
Proof.
  destruct p as [| | | |k h cur| | | | | |lv out]; try done; intros _ Hst; cbn [op_step] in Hst; unfold ok, panics in Hst.
  - destruct (read_cell m cur) as [node|]; [|by injection Hst as <- <- <-]. destruct (is_null node); [by injection Hst as <- <- <-|]. destruct (sh_data node); [destruct (load_data m node); by injection Hst as <- <- <-|].
    destruct (sh_loc node); by injection Hst as <- <- <-.
  - by injection Hst as <- <- <-.
  - by injection Hst as <- <- <-.
  - destruct lv as [|[v idx] rest]; [by injection Hst as <- <- <-|]. destruct (is_null v); [by injection Hst as <- <- <-|]. destruct (sh_data v).
    + destruct (load_data m v) as [?|it]; [by injection Hst as <- <- <-|]. destruct (sh_loc v); [|by injection Hst as <- <- <-]. destruct (it !! idx); by injection Hst as <- <- <-.
    + destruct (idx <? LEVEL_CELLS); [|by injection Hst as <- <- <-]. destruct (sh_loc v) as [l|]; [|by injection Hst as <- <- <-]. destruct (read_cell m (CSlot l idx)); [|by injection Hst as <- <- <-].
      destruct (MAX_LEVELS + 1 <=? length _); by injection Hst as <- <- <-.
Qed.

(** ** In every reachable state *)
Lemma pc_cell pos m o p : pc_ok pos m o p -> is_Some (cval m (pcell p)).
Proof.
  destruct p; simpl; try (by intros _; eauto).
  - by intros ([? _] & _).
  - by intros ([? _] & _).
  - by intros (([? _] & _) & _).
  - by intros (([? _] & _) & _).
  - by intros ([? _] & _).
  - by intros ([? _] & _).
  - by intros (([? _] & _) & _).
Qed.
Lemma hpc_ext pos m pos' m' p : ext pos m pos' m' -> is_Some (cval m (pcell p)) -> hpc pos p -> hpc pos' p.
Proof. intros Hext [v Hv] Hh h E. rewrite (ext_cpos _ _ _ _ _ _ Hext Hv). by apply Hh. Qed.

Definition hall pos s : Prop := forall o op p, s_ops s !! o = Some (SRun op p) -> upd p = true -> hpc pos p.
Lemma hall_step pos s pos' s' lb e : live_inv pos s -> hall pos s -> leffect pos s pos' s' lb e -> hall pos' s'.
Proof.
  intros Hl Hh Hle. pose proof (li_mem _ _ Hl) as Hm. destruct Hle as [o spur a op p m' nx acts Ho Hst Hmt Hpc Hnx Hog ->|o op Ho -> ->|o lb _ _ -> ->|n l k g -> Hg E1 E2].
  - pose proof (mtr_ext _ _ _ _ _ Hm Hmt) as Hext. intros o' op' p' Ho' Hu. simpl in Ho'. destruct (decide (o = o')) as [<-|Hne].
    + rewrite lookup_insert in Ho'. destruct nx as [p1| |]; [|done|done]. injection Ho' as <- <-.
      destruct (upd p) eqn:Eu; [|by rewrite (proj1 (op_step_noupd _ _ _ _ _ _ _ _ Eu Hst)) in Hu].
      destruct (op_step_moves _ _ _ _ _ _ _ _ _ _ Hm Hog (li_esafe _ _ Hl) Hpc Eu (Hh _ _ _ Ho Eu) Hst) as (H1 & H2 & _). by eapply hpc_ext.
    + rewrite lookup_insert_ne in Ho' by done. eapply hpc_ext; [exact Hext| |by eapply Hh]. eapply pc_cell. apply (li_ops _ _ Hl _ _ Ho').
  - intros o' op' p' Ho' Hu. simpl in Ho'. destruct (decide (o = o')) as [<-|Hne]; [|rewrite lookup_insert_ne in Ho' by done; by eapply Hh].
    rewrite lookup_insert in Ho'. injection Ho' as <- <-. intros h _. destruct op; apply prefix_nil.
  - intros o' op' p' Ho' Hu. simpl in Ho'. destruct (decide (o = o')) as [<-|Hne]; [by rewrite lookup_insert in Ho'|rewrite lookup_insert_ne in Ho' by done; by eapply Hh].
  - intros o' op' p'. rewrite E1. apply Hh.
Qed.

(** Invariants: positions, and operations on their paths. *)
Definition linv pos s : Prop := live_inv pos s /\ hall pos s.
Lemma linv_step pos s lb s' e : linv pos s -> reachable s -> s_dropped s = false -> step s lb = Some (s', e) -> lb <> LDrop ->
  exists pos', linv pos' s' /\ s_dropped s' = false /\ leffect pos s pos' s' lb e.
Proof.
  intros [Hl Hh] (ls & ev & Hx) Hd Hst Hne. destruct (live_step _ _ _ _ _ Hl Hd (exec_sinv _ _ _ Hx) Hst Hne) as (pos' & Hl' & Hd' & Hle).
  exists pos'. split; [split; [done|]|done]. by eapply (hall_step pos s).
Qed.
Lemma reach_linv s : reachable s -> s_dropped s = false -> exists pos, linv pos s.
Proof.
  intros (ls & ev & Hx) Hd.
  pose proof (live_ind (fun pos _ s _ => hall pos s) (fun _ _ _ => True)) as Hind.
  specialize (Hind ltac:(intros o op p H; simpl in H; by rewrite lookup_empty in H)).
  assert (if s_dropped s then True else exists pos, live_inv pos s /\ hall pos s) as H.
  { eapply Hind; [|done|done|exact Hx]. intros pos pos' ls1 s1 ev1 lb s2 e Hx1 Hl Hl' Hh Hst Hle. by eapply (hall_step pos s1). }
  rewrite Hd in H. exact H.
Qed.
End lockhash.
