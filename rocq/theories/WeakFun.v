(** * The contents of the map on weakly ordered memory, 1: steps that read old values. *)
From Verif Require Import Model Mem Spec Weak LinSpec WeakCoh Inv Safe SafeStep SafeOps Look Sem SemOps.

(** ** Who protects a retired node does not matter when nothing is freed *)
Section tag.
Context {C : Config}.
Implicit Types (m : mem) (gs : gset opid) (c : cell) (v : sh) (o : opid) (pos : loc -> list nat).

Definition tagm gs m : mem := Mem (m_root m) (m_heap m) ((fun g => (g.1, gs)) <$> m_garb m) (m_freed m) (m_tmp m) (m_next m).
Definition rmap gs (r : sres) : sres := match r with Some (m', nx, acts) => Some (tagm gs m', nx, acts) | None => None end.

Lemma tag_write gs m c v : write_cell (tagm gs m) c v = tagm gs (write_cell m c v).
Proof. by destruct c. Qed.
Lemma tag_rem_up gs m d levels : rem_up (tagm gs m) d levels = rmap gs (rem_up m d levels).
Proof. unfold rem_up. by repeat case_match. Qed.
Lemma tag_prune_start gs m k p ch : prune_start (tagm gs m) k p ch = rmap gs (prune_start m k p ch).
Proof. unfold prune_start. by repeat case_match. Qed.
Lemma tag_prune_return gs m k pr : prune_return (tagm gs m) k pr = rmap gs (prune_return m k pr).
Proof. unfold prune_return. repeat case_match; try done. all: apply tag_rem_up. Qed.
Lemma tag_prune_decide gs m k p ch ac cnt la new : prune_decide (tagm gs m) k p ch ac cnt la new = rmap gs (prune_decide m k p ch ac cnt la new).
Proof. unfold prune_decide. by repeat case_match. Qed.
Lemma tag_t_finish gs m t r acts : t_finish (tagm gs m) t r acts = rmap gs (t_finish m t r acts).
Proof. unfold t_finish. by repeat case_match. Qed.

Lemma op_step_tag gs m p spur a : op_step gs (tagm gs m) p spur a = rmap gs (op_step ∅ m p spur a).
Proof.
  assert (forall c, read_cell (tagm gs m) c = read_cell m c) as R by done.
  destruct p; cbn [op_step]; rewrite ?R.
  - destruct (read_cell m cur) as [node|]; [|done]. destruct (sh_cond node). { destruct par as [[? ?]|]; [apply tag_prune_start|done]. }
    destruct (is_null node). { by destruct (ts_payload (t_st t)) as [[? ?] ?]. } change (load_data (tagm gs m) node) with (load_data m node).
    repeat (case_match; try done). all: apply tag_t_finish.
  - destruct (read_cell m cur) as [now|]; [|done]. change (addr_free (tagm gs m) a) with (addr_free m a). destruct (addr_free m a); [|done].
    change (sh_same (tagm gs m) now node) with (sh_same m now node). cbn [negb]. destruct (sh_same m now node && negb spur); [|done].
    change (alloc (tagm gs m) a new) with (tagm gs (alloc m a new)). rewrite tag_write. destruct kind as [| |result].
    + repeat (case_match; try done). all: apply tag_t_finish.
    + done.
    + destruct (sh_loc node) as [old|]; [|done]. destruct (negb (sh_data node)); [done|].
      change (retire (tagm gs (write_cell (alloc m a new) cur (Sh (Some (m_next (tagm gs m))) false (match new with BInner _ => false | BData _ => true end)))) old KData gs)
        with (tagm gs (retire (write_cell (alloc m a new) cur (Sh (Some (m_next m)) false (match new with BInner _ => false | BData _ => true end))) old KData ∅)).
      destruct new as [|it]; [done|]. repeat (case_match; try done). all: apply tag_t_finish.
  - destruct (sh_loc child) as [l|]; [|done]. rewrite R. destruct (read_cell m (CSlot l i)) as [v|]; [|done]. rewrite tag_write.
    change (load_data (tagm gs (write_cell m (CSlot l i) (recond v))) (uncond v)) with (load_data (write_cell m (CSlot l i) (recond v)) (uncond v)).
    destruct (if is_null (uncond v) then _ else _) as [f|[[ac' cnt'] last']]; [done|]. destruct (S i <? LEVEL_CELLS); [done|]. apply tag_prune_decide.
  - destruct (read_cell m parent) as [now|]; [|done]. change (addr_free (tagm gs m) a) with (addr_free m a). change (sh_same (tagm gs m) now child) with (sh_same m now child).
    destruct ins as [v|sl].
    + destruct (sh_same m now child); [|apply tag_prune_return]. rewrite tag_write. destruct (sh_loc child) as [l|]; [|done].
      change (retire (tagm gs (write_cell m parent v)) l KInner gs) with (tagm gs (retire (write_cell m parent v) l KInner ∅)). apply tag_prune_return.
    + destruct (addr_free m a); [|done]. destruct (sh_same m now child); [|apply (tag_prune_return gs (drop_tmp m (BInner sl) KInner))].
      change (alloc (tagm gs m) a (BInner sl)) with (tagm gs (alloc m a (BInner sl))). rewrite tag_write. destruct (sh_loc child) as [l|]; [|done].
      change (retire (tagm gs (write_cell (alloc m a (BInner sl)) parent (Sh (Some (m_next (tagm gs m))) false false))) l KInner gs)
        with (tagm gs (retire (write_cell (alloc m a (BInner sl)) parent (Sh (Some (m_next m)) false false)) l KInner ∅)). apply tag_prune_return.
  - destruct (read_cell m cur) as [node|]; [|done]. change (load_data (tagm gs m) node) with (load_data m node). by repeat case_match.
  - destruct (read_cell m cur) as [node|]; [|done]. change (load_data (tagm gs m) node) with (load_data m node). destruct (is_null node); [done|].
    destruct (sh_cond node). { destruct levels as [|[? ?] ?]; [done|]. apply tag_prune_start. } by repeat case_match.
  - destruct (read_cell m cur) as [now|]; [|done]. change (addr_free (tagm gs m) a) with (addr_free m a). change (sh_same (tagm gs m) now node) with (sh_same m now node).
    destruct new as [|p new].
    + destruct (sh_same m now node && negb spur); [|done]. rewrite tag_write. destruct (negb (sh_data node)); [done|]. destruct (sh_loc node) as [old|]; [|done].
      change (retire (tagm gs (write_cell m cur sh_null)) old KData gs) with (tagm gs (retire (write_cell m cur sh_null) old KData ∅)). apply tag_rem_up.
    + destruct (addr_free m a); [|done]. destruct (sh_same m now node && negb spur); [|done].
      change (alloc (tagm gs m) a (BData (p :: new))) with (tagm gs (alloc m a (BData (p :: new)))). rewrite tag_write. destruct (negb (sh_data node)); [done|]. destruct (sh_loc node) as [old|]; [|done].
      change (retire (tagm gs (write_cell (alloc m a (BData (p :: new))) cur (Sh (Some (m_next (tagm gs m))) false true))) old KData gs)
        with (tagm gs (retire (write_cell (alloc m a (BData (p :: new))) cur (Sh (Some (m_next m)) false true)) old KData ∅)). apply tag_rem_up.
  - destruct (sh_loc child) as [l|]; [|done]. rewrite R. destruct (read_cell m (CSlot l i)) as [v|]; [|done]. destruct (S i <? LEVEL_CELLS); [done|]. destruct (1 <? _); [done|]. apply tag_prune_start.
  - done.
  - done.
  - destruct levels as [|[v idx] rest]; [done|]. change (load_data (tagm gs m) v) with (load_data m v). destruct (is_null v); [done|].
    destruct (sh_data v); [by repeat case_match|]. destruct (idx <? LEVEL_CELLS); [|done]. destruct (sh_loc v) as [l|]; [|done]. rewrite R. by repeat case_match.
Qed.

Lemma tag_garb_locs gs m : garb_locs (tagm gs m) = garb_locs m.
Proof. unfold garb_locs. simpl. rewrite <-list_fmap_compose. done. Qed.
Lemma tag_dead gs m l : dead (tagm gs m) l <-> dead m l.
Proof. unfold dead. by rewrite tag_garb_locs. Qed.
Lemma tag_live gs m c : cell_live (tagm gs m) c <-> cell_live m c.
Proof. destruct c as [|l i]; [done|]. simpl. by rewrite tag_dead. Qed.
Lemma tag_cval gs m c : cval (tagm gs m) c = cval m c.
Proof. by destruct c. Qed.

Lemma tag_minv_1 gs pos m : minv pos m -> minv pos (tagm gs m).
Proof.
  intros Hm. pose proof (tag_dead gs m) as D. pose proof (tag_live gs m) as L. pose proof (tag_cval gs m) as V. split.
  - exact (mi_fresh _ _ Hm).
  - exact (mi_root _ _ Hm).
  - exact (mi_slots _ _ Hm).
  - exact (mi_data _ _ Hm).
  - intros c v. rewrite V. apply (mi_ptr _ _ Hm).
  - intros l i v. rewrite V, D. apply (mi_deadcond _ _ Hm).
  - intros l b Hb. rewrite D. intros Hd. destruct ((mi_link _ _ Hm) l b Hb Hd) as (c & v & ? & ? & ?). exists c, v. by rewrite V, L.
  - intros c v l. rewrite V, L, D. apply (mi_live _ _ Hm).
  - intros c v c' v' l. rewrite !V, !L. apply (mi_uniq _ _ Hm).
  - rewrite tag_garb_locs. exact (mi_nodup _ _ Hm).
  - intros l. rewrite D. apply (mi_heap _ _ Hm).
  - intros l k g Hin. simpl in Hin. apply elem_of_list_fmap in Hin as ([[l' k'] g'] & E & Hin). simpl in E. injection E as -> -> ->. by eapply (mi_kind _ _ Hm).
  - exact (mi_addr _ _ Hm).
  - exact (mi_nz _ _ Hm).
Qed.
Lemma tag_minv_2 gs pos m : minv pos (tagm gs m) -> minv pos m.
Proof.
  intros Hm. pose proof (tag_dead gs m) as D. pose proof (tag_live gs m) as L. pose proof (tag_cval gs m) as V. split.
  - exact (mi_fresh _ _ Hm).
  - exact (mi_root _ _ Hm).
  - exact (mi_slots _ _ Hm).
  - exact (mi_data _ _ Hm).
  - intros c v. rewrite <-V. apply (mi_ptr _ _ Hm).
  - intros l i v. rewrite <-V, <-D. apply (mi_deadcond _ _ Hm).
  - intros l b Hb. rewrite <-D. intros Hd. destruct ((mi_link _ _ Hm) l b Hb Hd) as (c & v & ? & ? & ?). exists c, v. by rewrite <-V, <-L.
  - intros c v l. rewrite <-V, <-L, <-D. apply (mi_live _ _ Hm).
  - intros c v c' v' l. rewrite <-!V, <-!L. apply (mi_uniq _ _ Hm).
  - rewrite <-(tag_garb_locs gs). exact (mi_nodup _ _ Hm).
  - intros l. rewrite <-D. apply (mi_heap _ _ Hm).
  - intros l k g Hin. apply ((mi_kind _ _ Hm) l k gs). simpl. apply elem_of_list_fmap. exists (l, k, g). done.
  - exact (mi_addr _ _ Hm).
  - exact (mi_nz _ _ Hm).
Qed.

(** Memory as [o] sees it: everything that was retired was retired while [o] was pinned. *)
Notation vw o m := (tagm {[o]} m).
Lemma vw_prot o m l : m_freed m = [] -> is_Some (m_heap m !! l) -> prot (vw o m) o l.
Proof.
  intros Hf Hl. split; [done|]. split; [simpl; rewrite Hf; simpl; apply not_elem_of_nil|]. intros k g Hin. simpl in Hin. apply elem_of_list_fmap in Hin as ([[? ?] ?] & E & _).
  injection E as _ _ ->. by apply elem_of_singleton.
Qed.
Lemma vw_esafe o pos m : minv pos m -> m_freed m = [] -> esafe {[o]} (vw o m).
Proof.
  intros Hm Hf o' c v B Ho Hc Hv _. apply elem_of_singleton in Ho as ->. apply vw_prot; [done|]. rewrite tag_cval in Hc. by eapply cval_target_heap.
Qed.
End tag.
Notation vw o m := (tagm {[o]} m).

(** ** A step that does not write, in which the value read may be an old one *)
Section stale.
Context {C : Config} {HC : ConfigOk C}.
Implicit Types (m : mem) (pos : loc -> list nat) (c : cell) (v : sh) (o : opid) (k : Key) (op : oper).

(** The cell the search of a call has come to. *)
Definition pat (p : pc) : option cell :=
  match p with
  | TLoad _ _ cur _ | TCas _ _ cur _ _ _ _ | GLoad _ _ cur | RLoad _ _ _ cur _ | RCas _ _ _ cur _ _ _ _ => Some cur
  | ELoad => Some CRoot
  | _ => None
  end.
Definition leafyv v : Prop := sh_loc v = None \/ sh_data v = true.

Definition stale_eff pos m op (p : pc) c v (nx : next) : Prop :=
  match nx with
  | NFail _ => False
  | NRun p' => dn p' = dn p /\
      (pat p' = None \/ pat p' = Some CRoot \/ pat p' = pat p \/
       pat p = Some c /\ exists x, sh_loc v = Some x /\ sh_data v = false /\ forall k, concerns op k -> pat p' = Some (CSlot x (nib k (length (cpos pos c)))))
  | NRet r =>
    match dn p with
    | Some d => r = ROpt (Some d)
    | None =>
      match op with
      | OIter => exists ys, r = RIter ys
      | _ => exists x, val_of r = Some x /\
          (op = OIsEmpty /\ x = ABool false \/
           pat p = Some c /\ leafyv v /\
           forall (A A' : amap) k, concerns op k -> (forall k', keqb k k' = true -> A k' = look 0 m v k') -> (forall k', keqb k k' = false -> A k' = None) ->
             same A A' -> spec_step A op x A')
      end
    end
  end.


Lemma con_nib op k k' d : concerns op k -> op_key op = Some k' -> nib k d = nib k' d.
Proof. intros H E. unfold nib. destruct op; simpl in *; try done; injection E as <-; by rewrite (hash_compat _ _ H). Qed.
Lemma t_sem_con op t k k' : op_wf op -> t_sem op t k -> concerns op k' -> keqb k k' = true.
Proof. intros Hw. destruct op; simpl; try done; [by intros [-> _]|by intros [-> _]]. Qed.
Lemma t_sem_nib op t k k' d : op_wf op -> t_sem op t k -> concerns op k' -> nib k d = nib k' d.
Proof. intros Hw Ht Hc. unfold nib. by rewrite (hash_compat _ _ (t_sem_con _ _ _ _ Hw Ht Hc)). Qed.

Lemma stale_ok w pos m o op p M spur a M' nx acts c v :
  minv pos m -> pc_ok pos m o p -> sem pos m -> op_wf op -> pc_sem pos m op p ->
  (forall u it, load_data m u = inr it -> load_data M u = inr it) ->
  (forall c' kd ord, access w p = Some (c', kd, ord) -> c' = c /\ read_cell M c = Some v /\ vok pos m o (cpos pos c) v /\ (c = CRoot -> sh_cond v = false) /\
     kd <> AFetch /\ (kd = ACas -> cas_wins M p spur = false)) ->
  op_step ∅ M p spur a = Some (M', nx, acts) ->
  nx_ok pos m o nx /\ nx_sem pos m op nx /\ stale_eff pos m op p c v nx.
Proof.
  intros Hm Hpc Hse Hw Hps HL Hacc Hst.
  assert (forall u it, sh_data u = true -> load_data m u = inr it -> load_data M u = inr it) as HL' by auto.
  destruct p as [t shift cur par|t shift cur par node new kind|kk parent child i ac cnt last new|kk parent child ins pr
    |k h cur|k h shift cur levels|k h shift cur levels node new d|d levels parent child i cnt| | |levels out].
  - (* TLoad *)
    destruct (Hacc _ _ _ eq_refl) as (-> & Hrd & Hv & Hroot & _). clear Hacc.
    destruct Hpc as (Hc & -> & Hpar). destruct Hps as (k & Ht & Hon).
    cbn [op_step] in Hst. rewrite Hrd in Hst. rename v into node.
    destruct (t_sem_key _ _ _ Hw Ht) as [Hkey Hhash].
    assert (forall p' acts1, Some (M, NRun p', acts1) = Some (M', nx, acts) -> dn p' = None -> (pat p' = None \/ pat p' = Some c) -> pc_ok pos m o p' -> pc_sem pos m op p' ->
      nx_ok pos m o nx /\ nx_sem pos m op nx /\ stale_eff pos m op (TLoad t (4 * length (cpos pos c)) c par) c node nx) as Hrun.
    { intros p' acts1 Heq Hd Hh Ho Hn. injection Heq as <- <- <-. split; [done|]. split; [done|]. split; [done|]. destruct Hh as [Hh|Hh]; [by left|]. right. right. by left. }
    destruct (sh_cond node) eqn:Ecd.
    { destruct par as [[parent child]|]; simpl in Hpar.
      - destruct Hpar as [Hlk _]. destruct (prune_start_ok pos m o (KTrav t) parent child Hlk) as [_ Hp]; [done|].
        unfold prune_start in Hst. pose proof Hlk as (_ & _ & _ & Hda & [l El]). unfold is_null in Hst. rewrite Hda, El in Hst.
        eapply Hrun; [exact Hst|done|by left|done|]. simpl. eauto.
      - subst c. by specialize (Hroot eq_refl). }
    destruct (is_null node) eqn:Enl.
    { destruct (ts_payload (t_st t)) as [[pl st'] call] eqn:Ep. destruct (t_sem_payload _ _ _ _ _ _ Hw Ht Ep) as (Ht' & Hpl & _).
      eapply Hrun; [exact Hst|done|by right| |].
      - simpl. repeat split_and; try done; try apply Hc; try apply Hv. all: unfold is_null in Enl; first [by destruct (sh_loc node)|eauto].
      - exists k. split; [done|]. split; [done|]. eauto. }
    destruct (sh_data node) eqn:Ed.
    { destruct (vok_data _ _ _ _ _ Hv Ed) as (tl & it & Etl & Hb & Hdr & Hld & Hlen). rewrite (HL _ _ Hld) in Hst.
      assert (node = Sh (Some tl) false true) as Enode by (destruct node; simpl in *; congruence).
      pose proof (mi_data _ _ Hm _ _ Hb) as Hne. destruct it as [|d0 it']; [done|]. set (it := d0 :: it') in *.
      destruct (negb (keqb (keyof d0) (ts_key (t_st t))) && (4 * length (cpos pos c) <? HASH_BITS)) eqn:Ecase.
      - apply andb_true_iff in Ecase as [_ Hsh]. apply Nat.ltb_lt in Hsh. unfold HASH_BITS in Hsh.
        destruct Hlen as [Hlen|]; [|lia]. rewrite Hlen in Hst. cbn [negb Nat.eqb] in Hst.
        eapply Hrun; [exact Hst|done|by right| |].
        + simpl. repeat split_and; try done; try apply Hc; try apply Hv.
          exists tl, d0. repeat split_and; try done; [|lia]. destruct it'; [done|]. simpl in Hlen. lia.
        + exists k. done.
      - rewrite Etl in Hst. rewrite (find_ref_cong _ k _ _ Hkey) in Hst.
        assert (rr_val <$> find_ref k tl it = find_pl k it) as Hfr by apply find_ref_spec.
        assert (forall r, find_ref k tl it = r -> (t_mode t = IfMissing -> r = None) ->
          (let '(pl, st', call) := ts_payload (t_st t) in
           Some (M, NRun (TCas (t_with t st') (4 * length (cpos pos c)) c par node (BData (others (ts_key (t_st t)) it ++ [pl])) (TKData r)),
             match call with Some k => [ACall k] | None => [] end)) = Some (M', nx, acts) ->
          nx_ok pos m o nx /\ nx_sem pos m op nx /\ stale_eff pos m op (TLoad t (4 * length (cpos pos c)) c par) c node nx) as Hcas.
        { intros r Er Hr Heq. destruct (ts_payload (t_st t)) as [[pl st'] call] eqn:Ep. destruct (t_sem_payload _ _ _ _ _ _ Hw Ht Ep) as (Ht' & Hpl & _ & Emd).
          eapply Hrun; [exact Heq|done|by right| |].
          - simpl. repeat split_and; try done; try apply Hc; try apply Hv.
            exists tl, it, pl, (ts_key (t_st t)). repeat split_and; try done.
            + apply andb_false_iff in Ecase as [Ek|Hsh].
              * apply negb_false_iff in Ek. destruct Hlen as [Hlen|Hlen]; [left|by right].
                rewrite (others_singleton _ d0) by done. done.
              * right. apply Nat.ltb_ge in Hsh. unfold HASH_BITS in Hsh. destruct Hc as [[z Hz] _]. pose proof (cpos_len _ _ _ _ Hm Hz). lia.
            + rewrite (find_ref_cong _ k _ _ Hkey). done.
          - exists k. split; [done|]. split; [done|]. exists tl, it, pl.
            split; [done|]. split; [done|]. split; [by rewrite (others_cong _ k _ Hkey)|]. split; [done|]. rewrite <-Er. split; [done|]. rewrite Er, Emd. done. }
        destruct (find_ref k tl it) as [r|] eqn:Ef; [|eapply Hcas; [reflexivity|done|exact Hst]].
        destruct (t_mode t) eqn:Em; [eapply Hcas; [reflexivity|done|exact Hst]|].
        unfold t_finish in Hst. rewrite Em in Hst. injection Hst as <- <- <-. split; [|split; [done|]].
        + simpl. constructor; [|done]. eapply find_ref_ok; [exact Hb| |exact Ef]. by apply Hv.
        + cbn [stale_eff dn]. destruct op; simpl in Ht; try done; [by destruct Ht as [_ ->]|]. destruct Ht as [-> _].
          eexists. split; [done|]. right. split; [done|]. split; [by right|]. intros A A' k2 Hk2 HA _ HS. simpl in Hk2 |- *. split; [|done].
          rewrite HA by (by rewrite keqb_sym). rewrite (look_data _ _ _ _ tl it) by done. by rewrite <-Hfr. }
    unfold is_null in Enl. destruct (sh_loc node) as [l|] eqn:El; [|done].
    destruct (vok_inner _ _ _ _ _ _ Hv Ed El) as (sl & Hb & Hpos & Hpr).
    pose proof (mi_slots _ _ Hm _ _ Hb) as [_ Hlt]. rewrite Hpos in Hlt.
    destruct (HASH_BITS <=? 4 * length (cpos pos c)) eqn:Esh; [apply Nat.leb_le in Esh; unfold HASH_BITS in Esh; lia|].
    rewrite Hhash, nib_hash in Hst. injection Hst as <- <- <-.
    assert (link_ok pos m o c node) as Hlk.
    { split; [done|]. split; [done|]. split; [done|]. split; [done|]. rewrite El. eauto. }
    split; [|split].
    + split; [by eapply cok_slot, nib_lt|]. split; [simpl; rewrite app_length, Hpos; unfold LEVEL_BITS; simpl; lia|]. split; [done|]. eauto.
    + exists k. split; [done|]. unfold onp. simpl. rewrite Hpos. by apply prefix_snoc_path.
    + split; [done|]. right. right. right. split; [done|]. exists l. split; [done|]. split; [done|]. intros k' Hk'. simpl. by rewrite (t_sem_nib _ _ _ _ _ Hw Ht Hk').
  - (* TCas *)
    destruct (Hacc _ _ _ eq_refl) as (-> & Hrd & Hv & Hroot & _ & Hlose). specialize (Hlose eq_refl). clear Hacc.
    destruct Hpc as (Hc & -> & Hpar & _ & Hnc & Htc). destruct Hps as (k & Ht & Hon & Hkd).
    unfold cas_wins in Hlose. cbn [cas_of] in Hlose. rewrite Hrd in Hlose.
    cbn [op_step] in Hst. rewrite Hrd in Hst. destruct (addr_free M a) eqn:Eaf; [|done]. cbn [negb] in Hst. rewrite Hlose in Hst.
    injection Hst as <- <- <-. split; [done|]. split; [by exists k|]. split; [done|]. right. right. by left.
  - (* PMark *)
    destruct Hpc as ((_ & _ & _ & _ & [l El]) & _). destruct (Hacc (CSlot l i) AFetch (o_mark w)) as (_ & _ & _ & _ & Hno & _); [simpl; by rewrite El|]. done.
  - (* PCas *)
    destruct (Hacc _ _ _ eq_refl) as (-> & Hrd & Hv & Hroot & _ & Hlose). specialize (Hlose eq_refl). clear Hacc.
    unfold cas_wins in Hlose. cbn [cas_of] in Hlose. rewrite Hrd in Hlose. rewrite andb_true_r in Hlose.
    destruct Hpc as (Hlk & Hk & new & Hlen & Hmk & Hch). cbn [op_step] in Hst. rewrite Hrd, Hlose in Hst. simpl in Hps.
    assert (exists M1, prune_return M1 kk PRCasFail = Some (M', nx, acts)) as [M1 Hr].
    { destruct ins; [|destruct (addr_free M a); [|done]]; eauto. }
    destruct kk as [t|key h|d levels]; cbn [prune_return] in Hr.
    + injection Hr as <- <- <-. destruct Hps as [k Hk']. split; [|split].
      * simpl. split; [apply cok_root|]. done.
      * exists k. split; [done|apply prefix_nil].
      * split; [done|]. right. by left.
    + injection Hr as <- <- <-. destruct Hps as [-> ->]. split; [|split].
      * simpl. split; [apply cok_root|]. done.
      * split; [done|]. split; [done|apply prefix_nil].
      * split; [done|]. right. by left.
    + destruct Hps as (k & -> & Hdk). destruct Hk as [Href Hlv]. destruct levels as [|[p2 ch] rest]; simpl in Hr.
      * injection Hr as <- <- <-. split; [by constructor|]. split; [done|]. simpl. done.
      * destruct Hlv as (Hlk2 & Hq & Hrest). pose proof Hlk2 as (_ & _ & _ & _ & [l2 El2]). unfold is_null in Hr. rewrite El2 in Hr. injection Hr as <- <- <-.
        split; [|split].
        -- simpl. split; [done|]. split; [done|lia].
        -- exists k. done.
        -- split; [done|]. by left.
  - (* GLoad *)
    destruct (Hacc _ _ _ eq_refl) as (-> & Hrd & Hv & Hroot & _). clear Hacc. cbn [op_step] in Hst. rewrite Hrd in Hst. rename v into node.
    destruct Hps as (-> & Hon & ->). simpl in Hpc.
    assert (forall x, leafyv node -> (forall k', keqb k k' = true -> rr_val <$> x = look 0 m node k') -> Forall (ref_ok m o) (res_refs (ROpt x)) ->
      nx_ok pos m o (NRet (ROpt x)) /\ nx_sem pos m (OGet k) (NRet (ROpt x)) /\ stale_eff pos m (OGet k) (GLoad k (N.shiftr (hashf k) (N.of_nat (4 * length (cpos pos c)))) c) c node (NRet (ROpt x))) as Hret.
    { intros x Hlf Hx Hr. split; [done|]. split; [done|]. cbn [stale_eff dn]. eexists. split; [done|]. right. split; [done|]. split; [done|].
      intros A A' k2 Hk2 HA _ HS. simpl in Hk2 |- *. split; [|done]. rewrite HA by (by rewrite keqb_sym). apply Hx. apply keqb_refl. }
    destruct (is_null node) eqn:Enl.
    { injection Hst as <- <- <-. assert (sh_loc node = None) as El by (unfold is_null in Enl; by destruct (sh_loc node)). apply Hret; [by left| |constructor]. intros k' _. by rewrite look_null. }
    unfold is_null in Enl. destruct (sh_loc node) as [l|] eqn:El; [|done]. destruct (sh_data node) eqn:Ed.
    { destruct (vok_data _ _ _ _ _ Hv Ed) as (tl & it & Etl & Hb & Hdr & Hld & Hlen). rewrite (HL _ _ Hld) in Hst. injection Hst as <- <- <-.
      assert (tl = l) as -> by congruence. apply Hret; [by right| |].
      - intros k' Hk'. rewrite (look_data _ _ _ _ l it), find_ref_spec by done. by apply find_pl_cong.
      - destruct (find_ref k l it) as [r|] eqn:Ef; simpl; [|constructor]. constructor; [|done]. eapply find_ref_ok; [exact Hb| |exact Ef]. by apply Hv. }
    destruct (vok_inner _ _ _ _ _ _ Hv Ed El) as (sl & Hb & Hpos & Hpr).
    pose proof (mi_slots _ _ Hm _ _ Hb) as [_ Hlt]. rewrite Hpos in Hlt. clear Hret.
    assert (N.shiftr (N.shiftr (hashf k) (N.of_nat (4 * length (cpos pos c)))) (N.of_nat LEVEL_BITS) = N.shiftr (hashf k) (N.of_nat (4 * S (length (cpos pos c))))) as Esh.
    { rewrite N.shiftr_shiftr. f_equal. unfold LEVEL_BITS. lia. }
    rewrite bits_shiftr, nib_hash, Esh in Hst. remember (4 * S (length (cpos pos c))) as sft eqn:Esft. injection Hst as <- <- <-. split; [|split].
    + by eapply cok_slot, nib_lt.
    + split; [done|]. unfold onp. simpl. rewrite Hpos. split; [by apply prefix_snoc_path|]. rewrite app_length. simpl. rewrite Esft. do 2 f_equal. lia.
    + split; [done|]. right. right. right. split; [done|]. exists l. split; [done|]. split; [done|]. intros k' Hk'. simpl. by rewrite (con_nib (OGet k) k' k).
  - (* RLoad *)
    destruct (Hacc _ _ _ eq_refl) as (-> & Hrd & Hv & Hroot & _). clear Hacc. cbn [op_step] in Hst. rewrite Hrd in Hst. rename v into node.
    destruct Hpc as (Hc & -> & Hlev). destruct Hps as (-> & -> & Hon).
    assert (leafyv node -> (forall k', keqb k k' = true -> look 0 m node k' = None) ->
      nx_ok pos m o (NRet (ROpt None)) /\ nx_sem pos m (ORemove k) (NRet (ROpt None)) /\ stale_eff pos m (ORemove k) (RLoad k (hashf k) (4 * length (cpos pos c)) c levels) c node (NRet (ROpt None))) as Hret.
    { intros Hlf Hx. split; [by constructor|]. split; [done|]. cbn [stale_eff dn]. eexists. split; [done|]. right. split; [done|]. split; [done|].
      intros A A' k2 Hk2 HA Hno HS. simpl in Hk2 |- *. split; [rewrite HA by (by rewrite keqb_sym); by rewrite Hx by apply keqb_refl|]. intros k'. rewrite HS.
      destruct (keqb k k') eqn:E; [|done]. rewrite HA; [by apply Hx|]. eapply keqb_trans; [|exact E]. by rewrite keqb_sym. }
    destruct (is_null node) eqn:Enl.
    { injection Hst as <- <- <-. assert (sh_loc node = None) as El by (unfold is_null in Enl; by destruct (sh_loc node)). apply Hret; [by left|]. intros k' _. by rewrite look_null. }
    destruct (sh_cond node) eqn:Ecd.
    { clear Hret. destruct levels as [|[parent child] rest]; simpl in Hlev.
      - subst c. by specialize (Hroot eq_refl).
      - destruct Hlev as [Hlk _]. destruct (prune_start_ok pos m o (KRem k (hashf k)) parent child Hlk) as [_ Hp]; [done|].
        unfold prune_start in Hst. pose proof Hlk as (_ & _ & _ & Hda & [l El]). unfold is_null in Hst. rewrite Hda, El in Hst.
        injection Hst as <- <- <-. split; [done|]. split; [done|]. split; [done|]. by left. }
    unfold is_null in Enl. destruct (sh_loc node) as [l|] eqn:El; [|done]. destruct (sh_data node) eqn:Ed.
    { destruct (vok_data _ _ _ _ _ Hv Ed) as (tl & it & Etl & Hb & Hdr & Hld & Hlen). rewrite (HL _ _ Hld) in Hst.
      assert (node = Sh (Some l) false true) as Enode by (destruct node; simpl in *; congruence).
      assert (tl = l) as -> by congruence.
      destruct (find_last k 0 it None) as [[i p]|] eqn:Ef; injection Hst as <- <- <-.
      - split; [|split].
        + simpl. split; [done|]. split; [done|]. split; [done|]. exists l, it.
          apply find_last_lookup in Ef as [?|(d & -> & Hd & Hk)]; [done|].
          repeat split_and; try done; try apply Hv. exists it. simpl. repeat split_and; [done|done|by apply Hv].
        + split; [done|]. split; [done|]. split; [done|]. exists l, it. split; [done|]. split; [done|]. split; [done|]. simpl.
          eapply find_last_find; [|done]. by eapply se_nodup.
        + split; [done|]. right. right. by left.
      - apply Hret; [by right|]. intros k' Hk'. rewrite (look_data _ _ _ _ l it) by done. rewrite <-(find_pl_cong k k') by done. apply find_pl_None. by eapply find_last_none. }
    clear Hret. destruct (vok_inner _ _ _ _ _ _ Hv Ed El) as (sl & Hb & Hpos & Hpr).
    pose proof (mi_slots _ _ Hm _ _ Hb) as [_ Hlt]. rewrite Hpos in Hlt.
    assert (length levels = length (cpos pos c)) as Hll.
    { clear -Hlev Hm. revert c Hlev. induction levels as [|[p ch] rest IH]; intros cur; simpl; [by intros ->|].
      intros (Hlk & (l & i & -> & El) & Hrest). rewrite (IH _ Hrest). destruct Hlk as (_ & [Hp _] & _ & Hd & _).
      unfold ptr_ok in Hp. rewrite El, Hd in Hp. destruct Hp as (sl & _ & Hp). simpl. rewrite app_length, Hp. simpl. lia. }
    destruct (MAX_LEVELS <=? length levels) eqn:Emx; [apply Nat.leb_le in Emx; unfold MAX_LEVELS, HASH_BITS, LEVEL_BITS in Emx; simpl in Emx; lia|].
    destruct (HASH_BITS <=? 4 * length (cpos pos c)) eqn:Esh; [apply Nat.leb_le in Esh; unfold HASH_BITS in Esh; lia|].
    rewrite nib_hash in Hst. injection Hst as <- <- <-. split; [|split].
    + split; [by eapply cok_slot, nib_lt|]. split; [simpl; rewrite app_length, Hpos; unfold LEVEL_BITS; simpl; lia|].
      simpl. split; [|eauto]. split; [done|]. split; [done|]. split; [done|]. split; [done|]. rewrite El. eauto.
    + split; [done|]. split; [done|]. unfold onp. simpl. rewrite Hpos. by apply prefix_snoc_path.
    + split; [done|]. right. right. right. split; [done|]. exists l. split; [done|]. split; [done|]. intros k' Hk'. simpl. by rewrite (con_nib (ORemove k) k' k).
  - (* RCas *)
    destruct (Hacc _ _ _ eq_refl) as (-> & Hrd & _ & Hroot & _ & Hlose). specialize (Hlose eq_refl). clear Hacc.
    destruct Hpc as (Hc & -> & Hlev & _). destruct Hps as (-> & -> & Hon & _).
    unfold cas_wins in Hlose. cbn [cas_of] in Hlose. rewrite Hrd in Hlose.
    cbn [op_step] in Hst. rewrite Hrd, Hlose in Hst.
    assert (nx = NRun (RLoad k (hashf k) (4 * length (cpos pos c)) c levels)) as ->.
    { destruct new; [by injection Hst as <- <- <-|]. destruct (addr_free M a); [|done]. by injection Hst as <- <- <-. }
    split; [done|]. split; [done|]. split; [done|]. right. right. by left.
  - (* RCount *)
    destruct Hpc as (Hlk & Hk & Hi). pose proof Hlk as (Hcp & Hvc & Hcd & Hdt & [l El]).
    destruct (Hacc (CSlot l i) ATest (o_count w)) as (<- & Hrd & _); [simpl; by rewrite El|]. clear Hacc.
    cbn [op_step] in Hst. rewrite El, Hrd in Hst.
    destruct (S i <? LEVEL_CELLS) eqn:Elt.
    { injection Hst as <- <- <-. apply Nat.ltb_lt in Elt. split; [by simpl|]. split; [done|]. split; [done|]. by left. }
    destruct (1 <? _).
    { injection Hst as <- <- <-. split; [|split; [done|done]]. constructor; [|done]. by destruct Hk. }
    destruct (prune_start_ok pos m o (KUp d levels) parent child Hlk Hk) as [_ Hp].
    unfold prune_start, is_null in Hst. rewrite Hdt, El in Hst. injection Hst as <- <- <-. split; [done|]. split; [done|]. split; [done|]. by left.
  - (* ELoad *) destruct (Hacc _ _ _ eq_refl) as (<- & Hrd & Hv & Hroot & _). simpl in Hrd. injection Hrd as Hrd.
    injection Hst as <- <- <-. simpl in Hps. subst op. rewrite Hrd. split; [by constructor|]. split; [done|]. cbn [stale_eff dn]. eexists. split; [done|].
    destruct (is_null v) eqn:En; [right|left; done]. split; [done|]. assert (sh_loc v = None) as El by (unfold is_null in En; by destruct (sh_loc v)). split; [by left|].
    intros A A' k _ HA Hno HS. split; [|done]. intros _ k'. destruct (keqb k k') eqn:E; [|by apply Hno]. rewrite HA by done. by apply look_null.
  - (* INew *) destruct (Hacc _ _ _ eq_refl) as (<- & Hrd & Hv & Hroot & _). simpl in Hrd. injection Hrd as Hrd. injection Hst as <- <- <-. simpl in Hps. subst op. rewrite Hrd.
    split; [|split; [done|split; [done|by left]]]. simpl. split; [|done]. split; [|done]. exists []. split; [done|exact Hv].
  - (* INext *)
    simpl in Hps. subst op. destruct Hpc as [Hstk Hout]. cbn [op_step] in Hst. destruct levels as [|[u idx] rest].
    { injection Hst as <- <- <-. split; [done|]. split; [done|]. simpl. eauto. }
    destruct Hstk as [(q & Hq & Hv) Hrest]. destruct (is_null u) eqn:Enl.
    { injection Hst as <- <- <-. split; [done|]. split; [done|]. split; [done|by left]. }
    pose proof Enl as Enl'. unfold is_null in Enl. destruct (sh_loc u) as [l|] eqn:El; [|done]. destruct (sh_data u) eqn:Ed.
    { destruct (vok_data _ _ _ _ _ Hv Ed) as (tl & it & Etl & Hb & Hdr & Hld & Hlen). rewrite (HL _ _ Hld) in Hst.
      assert (tl = l) as -> by congruence. destruct (it !! idx) as [p|] eqn:Ei.
      - injection Hst as <- <- <-. split; [|split; [done|split; [done|by left]]]. simpl. split; [eauto|].
        apply Forall_app. split; [done|]. constructor; [|done]. exists it. simpl. repeat split_and; [done|done|by apply Hv].
      - injection Hst as <- <- <-. split; [done|]. split; [done|]. split; [done|by left]. }
    destruct (idx <? LEVEL_CELLS) eqn:Elt.
    2:{ injection Hst as <- <- <-. split; [done|]. split; [done|]. split; [done|by left]. }
    destruct (Hacc (CSlot l idx) ALoad (o_iter w)) as (<- & Hrd & Hvv & _). { cbn [access]. rewrite Enl', Ed, El. cbn [orb]. apply Nat.ltb_lt in Elt. by rewrite (proj2 (Nat.leb_gt _ _) Elt). }
    apply Nat.ltb_lt in Elt. unfold LEVEL_CELLS in Elt.
    destruct (vok_inner _ _ _ _ _ _ Hv Ed El) as (sl & Hb & Hpos & Hpr). rewrite Hrd in Hst.
    pose proof (mi_slots _ _ Hm _ _ Hb) as [_ Hlt]. rewrite Hpos, Hq in Hlt.
    destruct (MAX_LEVELS + 1 <=? length ((u, idx) :: rest)) eqn:Emx.
    { apply Nat.leb_le in Emx. unfold MAX_LEVELS, HASH_BITS, LEVEL_BITS in Emx. simpl in Emx. lia. }
    injection Hst as <- <- <-. split; [|split; [done|split; [done|by left]]]. simpl. split; [|done]. split; [|eauto].
    exists (cpos pos (CSlot l idx)). split; [simpl; rewrite app_length, Hpos, Hq; simpl; lia|]. exact Hvv.
Qed.
End stale.
