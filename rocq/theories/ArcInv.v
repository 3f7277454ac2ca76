(** * The strong count of an element is the number of handles there are. *)
From Verif Require Import Model Mem Inv Safe SafeStep SafeOps SafeSys SafeProps Spec Arcs ArcSpec.

Section arcinv.
Context {C : Config} (ident : Pl -> positive).
Implicit Types (m : mem) (s : state) (i : positive).
Notation cn := (cn ident).

Lemma cn_nil i : cn i [] = 0. Proof. done. Qed.
Lemma cn_app i L L' : cn i (L ++ L') = cn i L + cn i L'.
Proof. unfold ArcSpec.cn. by rewrite filter_app, app_length. Qed.
Lemma cn_cons i p L : cn i (p :: L) = cn i [p] + cn i L.
Proof. apply (cn_app i [p] L). Qed.
Lemma cn_perm i L L' : L ≡ₚ L' -> cn i L = cn i L'.
Proof. unfold ArcSpec.cn. by intros ->. Qed.
Lemma cn_self p : cn (ident p) [p] = 1.
Proof. unfold ArcSpec.cn. rewrite filter_cons, decide_True by done. done. Qed.
Lemma cn_other i p : ident p <> i -> cn i [p] = 0.
Proof. intros E. unfold ArcSpec.cn. by rewrite filter_cons, decide_False. Qed.
Lemma cn_same i p q : ident p = ident q -> cn i [p] = cn i [q].
Proof. intros E. unfold ArcSpec.cn. rewrite !filter_cons. rewrite E. by destruct (decide _). Qed.
Lemma cn_elem p L : p ∈ L -> 0 < cn (ident p) L.
Proof. intros (L1 & L2 & ->)%elem_of_list_split. rewrite cn_app, cn_cons, cn_self. lia. Qed.
Lemma cn_delete i L n p : L !! n = Some p -> cn i L = cn i [p] + cn i (delete n L).
Proof. intros H. rewrite <-cn_cons. apply cn_perm. by apply delete_Permutation. Qed.

Section fam.
Context `{Countable J}.
Implicit Types (M : gmap J (list Pl)).
Lemma concat_perm (X Y : list (J * list Pl)) : X ≡ₚ Y -> concat (map snd X) ≡ₚ concat (map snd Y).
Proof.
  induction 1 as [|x X Y HXY IH|x y X|X Y Z H1 IH1 H2 IH2]; simpl.
  - constructor.
  - by apply Permutation_app_head.
  - rewrite !app_assoc. apply Permutation_app_tail, Permutation_app_comm.
  - by rewrite IH1.
Qed.
Lemma all_insert_fresh i M o L : M !! o = None -> cn i (all_of (<[o := L]> M)) = cn i L + cn i (all_of M).
Proof.
  intros Hn. unfold all_of. rewrite <-cn_app. apply cn_perm.
  rewrite (concat_perm _ _ (map_to_list_insert _ _ _ Hn)). done.
Qed.
Lemma all_insert i M o L : cn i (all_of (<[o := L]> M)) + cn i (default [] (M !! o)) = cn i L + cn i (all_of M).
Proof.
  destruct (M !! o) as [L0|] eqn:E; simpl; [|rewrite all_insert_fresh by done; rewrite cn_nil; lia].
  rewrite <-(insert_delete M o L0 E) at 2. rewrite <-insert_delete_insert. rewrite !all_insert_fresh by apply lookup_delete. lia.
Qed.
Lemma all_delete i M o L : M !! o = Some L -> cn i (all_of M) = cn i L + cn i (all_of (delete o M)).
Proof. intros E. rewrite <-(insert_delete M o L E) at 1. by rewrite all_insert_fresh by apply lookup_delete. Qed.
Lemma all_elem M o L p : M !! o = Some L -> p ∈ L -> 0 < cn (ident p) (all_of M).
Proof. intros E Hp. rewrite (all_delete _ _ _ _ E). apply cn_elem in Hp. lia. Qed.
Lemma all_ge i M o L : M !! o = Some L -> cn i L <= cn i (all_of M).
Proof. intros E. rewrite (all_delete _ _ _ _ E). lia. Qed.
End fam.

(** ** Effects *)
Definition nclone i (es : list eff) : nat := cn i (omap (fun e => match e with EfClone p => Some p | _ => None end) es).
Lemma nclone_app i A B : nclone i (A ++ B) = nclone i A + nclone i B.
Proof. unfold nclone. by rewrite omap_app, cn_app. Qed.
Lemma nclone_clones i L : nclone i (map EfClone L) = cn i L.
Proof. unfold nclone. f_equal. induction L as [|p L IH]; [done|]. simpl. by f_equal. Qed.
Lemma nclone_looks i L : nclone i (map EfLook L) = 0.
Proof. unfold nclone. by replace (omap _ _) with (@nil Pl) by (induction L; done). Qed.
Lemma strong_insert cnt i j n : strong (<[i := n]> cnt) j = if decide (i = j) then n else strong cnt j.
Proof. unfold strong. destruct (decide (i = j)) as [->|]; [by rewrite lookup_insert|by rewrite lookup_insert_ne]. Qed.
Lemma effects_app x A B : effects ident x (A ++ B) = effects ident (effects ident x A) B.
Proof. apply foldl_app. Qed.

Definition uses cnt (e : eff) : Prop := match e with EfLook p | EfClone p => 0 < strong cnt (ident p) | EfDrop _ => False end.
Lemma effects_uses A : forall cnt, Forall (uses cnt) A ->
  (effects ident (cnt, false) A).2 = false /\ forall i, strong (effects ident (cnt, false) A).1 i = strong cnt i + nclone i A.
Proof.
  induction A as [|e A IH]; intros cnt HA; [split; [done|]; intros i; cbn; lia|]. apply Forall_cons in HA as [He HA].
  change (effects ident (cnt, false) (e :: A)) with (effects ident (effect ident (cnt, false) e) A). destruct e as [p|p|p]; simpl in He; [| |done].
  - cbn [effect]. rewrite (proj2 (Nat.eqb_neq _ 0)) by lia. destruct (IH cnt HA) as [H1 H2]. split; [done|]. intros i. by rewrite H2.
  - cbn [effect]. rewrite (proj2 (Nat.eqb_neq _ 0)) by lia. destruct (IH (<[ident p := S (strong cnt (ident p))]> cnt)) as [H1 H2].
    { eapply Forall_impl; [exact HA|]. intros [q|q|q]; unfold uses; [| |done]; rewrite strong_insert; destruct (decide _); lia. }
    split; [done|]. intros i. rewrite H2, strong_insert. change (nclone i (EfClone p :: A)) with (nclone i ([EfClone p] ++ A)). rewrite nclone_app. change (nclone i [EfClone p]) with (cn i [p]).
    destruct (decide (ident p = i)) as [<-|Hne]; [rewrite cn_self; lia|]. unfold ArcSpec.cn. by rewrite filter_cons, decide_False by done.
Qed.
Lemma effects_drops L : forall cnt, (forall i, cn i L <= strong cnt i) ->
  (effects ident (cnt, false) (map EfDrop L)).2 = false /\ forall i, strong (effects ident (cnt, false) (map EfDrop L)).1 i + cn i L = strong cnt i.
Proof.
  induction L as [|p L IH]; intros cnt HA; [split; [done|]; intros i; cbn; lia|].
  change (effects ident (cnt, false) (map EfDrop (p :: L))) with (effects ident (effect ident (cnt, false) (EfDrop p)) (map EfDrop L)). cbn [effect].
  pose proof (HA (ident p)) as Hp. rewrite cn_cons, cn_self in Hp. rewrite (proj2 (Nat.eqb_neq _ 0)) by lia. cbn [orb].
  destruct (IH (<[ident p := strong cnt (ident p) - 1]> cnt)) as [H1 H2].
  { intros i. rewrite strong_insert. destruct (decide (ident p = i)) as [<-|]; [lia|]. pose proof (HA i) as Hi. rewrite cn_cons in Hi. lia. }
  split; [done|]. intros i. rewrite cn_cons. specialize (H2 i). rewrite strong_insert in H2. destruct (decide (ident p = i)) as [<-|]; [rewrite cn_self; lia|].
  rewrite cn_other by done. lia.
Qed.
(** Uses first, then drops. *)
Lemma effects_ok A L cnt : Forall (uses cnt) A -> (forall i, cn i L <= strong cnt i + nclone i A) ->
  exists cnt', effects ident (cnt, false) (A ++ map EfDrop L) = (cnt', false) /\ forall i, strong cnt' i + cn i L = strong cnt i + nclone i A.
Proof.
  intros HA HL. destruct (effects_uses A cnt HA) as [H1 H2]. rewrite effects_app. destruct (effects ident (cnt, false) A) as [cnt1 b]. simpl in *. subst b.
  destruct (effects_drops L cnt1) as [H3 H4]; [intros i; by rewrite H2|]. destruct (effects ident (cnt1, false) (map EfDrop L)) as [cnt2 b]. simpl in *. subst b.
  exists cnt2. split; [done|]. intros i. by rewrite H4, H2.
Qed.

(** ** Leaves *)
Lemma leaves_lookup m l : leaves m !! l = match m_heap m !! l with
  | Some (HObj _ (BData it)) => if bool_decide ((l, KData) ∈ m_freed m) then None else Some it | _ => None end.
Proof. unfold leaves. rewrite map_lookup_imap. destruct (m_heap m !! l) as [[a [sl|it]]|]; done. Qed.
Lemma leaves_write m c v : leaves (write_cell m c v) = leaves m.
Proof.
  apply map_eq. intros l. rewrite !leaves_lookup. destruct c as [|l' j]; [done|]. simpl. destruct (decide (l = l')) as [->|].
  - rewrite lookup_alter. destruct (m_heap m !! l') as [[a [sl|it]]|]; done.
  - by rewrite lookup_alter_ne.
Qed.
Lemma leaves_alloc m a b : m_heap m !! m_next m = None -> (m_next m, KData) ∉ m_freed m ->
  forall i, cn i (all_of (leaves (alloc m a b))) = cn i (match b with BData it => it | BInner _ => [] end) + cn i (all_of (leaves m)).
Proof.
  intros Hn Hf i. assert (leaves m !! m_next m = None) as Hl by (by rewrite leaves_lookup, Hn). destruct b as [sl|it].
  - replace (leaves (alloc m a (BInner sl))) with (leaves m); [by rewrite cn_nil|]. apply map_eq. intros l. rewrite !leaves_lookup. simpl.
    destruct (decide (l = m_next m)) as [->|]; [by rewrite lookup_insert, Hn|by rewrite lookup_insert_ne].
  - replace (leaves (alloc m a (BData it))) with (<[m_next m := it]> (leaves m)); [by apply all_insert_fresh|]. apply map_eq. intros l.
    destruct (decide (l = m_next m)) as [->|]; [rewrite lookup_insert|rewrite lookup_insert_ne by done]; rewrite !leaves_lookup; simpl.
    + rewrite lookup_insert. by rewrite bool_decide_eq_false_2.
    + by rewrite lookup_insert_ne.
Qed.
Lemma leaves_deref m l it : deref m l = Some (BData it) -> leaves m !! l = Some it.
Proof.
  unfold deref, freed. case_bool_decide as Hf; [done|]. intros H. destruct (m_heap m !! l) as [[a b]|] eqn:Eh; [|done]. simpl in H. injection H as ->.
  rewrite leaves_lookup, Eh. rewrite bool_decide_eq_false_2; [done|]. intros Hin. apply Hf. apply elem_of_list_fmap. by exists (l, KData).
Qed.

(** ** One step of a call *)
Definition pc_have (p : pc) : list Pl := pc_state p ++ pc_node p.
Definition nx_have (nx : next) : list Pl := match nx with NRun p => pc_have p | _ => [] end.
Definition inmap i m : nat := cn i (all_of (leaves m)) + cn i (tmp_copies m).
(** What a step does to the counts: [A] uses and clones, then [L] is dropped. *)
Record okstep m (p : pc) m' (nx : next) (acts : list act) : Prop := OkStep {
  os_split : exists A L, eff_of m p m' nx = A ++ map EfDrop L /\
    (forall e, e ∈ A -> match e with EfLook q | EfClone q => (exists l it, leaves m !! l = Some it /\ q ∈ it) \/ q ∈ pc_have p \/ made p acts = Some q | EfDrop _ => False end) /\
    forall i, cn i (nx_have nx) + inmap i m' + cn i L = cn i (pc_have p) + inmap i m + nclone i A + cn i (match made p acts with Some q => [q] | None => [] end)
}.
Lemma tmp_same m m' : m_tmp m' = m_tmp m -> tmp_drop m m' = [].
Proof. unfold tmp_drop. intros ->. destruct (m_tmp m) as [|[b k] ?]; [done|]. by rewrite Nat.ltb_irrefl. Qed.
Lemma tmp_cons m m' b k : m_tmp m' = (b, k) :: m_tmp m -> tmp_drop m m' = node_drop b k.
Proof. unfold tmp_drop. intros ->. simpl. by rewrite (proj2 (Nat.ltb_lt _ _)) by lia. Qed.
Lemma node_drop_eq b k : node_drop b k = map EfDrop (match b, k with BData it, KData => it | _, _ => [] end).
Proof. by destruct b, k. Qed.
Lemma leaf_look_in m c e : e ∈ leaf_look m c -> exists q l it, e = EfLook q /\ leaves m !! l = Some it /\ q ∈ it.
Proof.
  unfold leaf_look. destruct (read_cell m c) as [v|]; [|by intros ?%elem_of_nil]. destruct (sh_data v) eqn:Ed; [|by intros ?%elem_of_nil].
  unfold load_data. rewrite Ed. simpl. destruct (sh_loc v) as [l|]; [|by intros ?%elem_of_nil]. destruct (deref m l) as [[sl|it]|] eqn:Eb; [by intros ?%elem_of_nil| |by intros ?%elem_of_nil].
  intros (q & -> & Hq)%elem_of_list_fmap. exists q, l, it. split; [done|]. split; [by apply leaves_deref|done].
Qed.
Lemma leaf_look_n i m c : nclone i (leaf_look m c) = 0.
Proof.
  unfold leaf_look. destruct (read_cell m c) as [v|]; [|done]. destruct (sh_data v); [|done]. destruct (load_data m v); [done|]. apply nclone_looks.
Qed.

Definition looks m (p : pc) : list eff := match p with TLoad _ _ c _ | GLoad _ _ c | RLoad _ _ _ c _ => leaf_look m c | _ => [] end.
Definition mid (p : pc) (nx : next) : list eff :=
  match p, nx with
  | TLoad t _ _ _, NRun (TCas _ _ _ _ _ (BData new) _) => map EfClone (removelast new) ++ payload_eff (t_st t)
  | TLoad t _ _ _, NRet _ => state_drop (t_st t)
  | TCas t _ _ _ _ _ _, NRet _ => state_drop (t_st t)
  | RLoad _ _ _ _ _, NRun (RCas _ _ _ _ _ _ new _) => map EfClone new
  | _, _ => []
  end.
Lemma eff_of_eq m p m' nx : eff_of m p m' nx = looks m p ++ mid p nx ++ tmp_drop m m'. Proof. done. Qed.
Lemma looks_in m p e : e ∈ looks m p -> exists q l it, e = EfLook q /\ leaves m !! l = Some it /\ q ∈ it.
Proof. destruct p; try (by intros ?%elem_of_nil); apply leaf_look_in. Qed.
Lemma looks_n i m p : nclone i (looks m p) = 0.
Proof. destruct p; try done; apply leaf_look_n. Qed.

Lemma okstep_intro m p m' nx acts B L : mid p nx ++ tmp_drop m m' = map EfClone B ++ map EfDrop L ->
  (forall q, q ∈ B -> (exists l it, leaves m !! l = Some it /\ q ∈ it) \/ q ∈ pc_have p \/ made p acts = Some q) ->
  (forall i, cn i (nx_have nx) + inmap i m' + cn i L = cn i (pc_have p) + inmap i m + cn i B + cn i (match made p acts with Some q => [q] | None => [] end)) ->
  okstep m p m' nx acts.
Proof.
  intros E HB Hi. split. exists (looks m p ++ map EfClone B), L. split; [rewrite eff_of_eq, E; by rewrite !app_assoc|]. split.
  - intros e [(q & l & it & -> & Hl & Hq)%looks_in|(q & -> & Hq)%elem_of_list_fmap]%elem_of_app; [left; eauto|by apply HB].
  - intros i. rewrite nclone_app, looks_n, nclone_clones, Hi. lia.
Qed.
Lemma okstep_quiet m p m' nx acts : mid p nx = [] -> m_tmp m' = m_tmp m -> made p acts = None -> nx_have nx = pc_have p -> leaves m' = leaves m ->
  okstep m p m' nx acts.
Proof.
  intros E1 E2 E3 E4 E5. apply (okstep_intro _ _ _ _ _ [] []); [by rewrite E1, (tmp_same _ _ E2)|by intros q ?%elem_of_nil|].
  intros i. unfold inmap. rewrite E3, E4, E5. unfold tmp_copies. rewrite E2, !cn_nil. lia.
Qed.
Definition stp (t : tstate) : list Pl := match t with TSCreated p => [p] | TSFuture _ _ => [] end.
Lemma state_drop_eq t : state_drop t = map EfDrop (stp t). Proof. by destruct t. Qed.

(** A leaf is built: the elements [B] are cloned out of leaf [l], and [payload()] comes last. *)
Lemma okstep_build m t shift cur par sh c' par' node B k (bd : list Pl) l : bd = B ++ [(ts_payload (t_st t)).1.1] ->
  (B = [] \/ exists it, leaves m !! l = Some it /\ forall q, q ∈ B -> q ∈ it) ->
  okstep m (TLoad t shift cur par) m (NRun (TCas (t_with t (ts_payload (t_st t)).1.2) sh c' par' node (BData bd) k))
    (match (ts_payload (t_st t)).2 with Some k => [ACall k] | None => [] end).
Proof.
  intros -> HB. apply (okstep_intro _ _ _ _ _ (B ++ [(ts_payload (t_st t)).1.1]) []).
  - simpl. rewrite (tmp_same m m) by done. rewrite removelast_last, map_app, !app_nil_r. done.
  - intros q [Hq|Hq]%elem_of_app.
    + left. destruct HB as [->|(it & Hl & Hit)]; [by apply elem_of_nil in Hq|]. eauto.
    + right. apply elem_of_list_singleton in Hq as ->. unfold pc_have, made. simpl. destruct (t_st t); simpl; [left; by left|by right].
  - intros i. unfold pc_have, nx_have, pc_have, made. simpl. destruct (t_st t) as [p|k0 f]; simpl; rewrite ?cn_nil, ?cn_app, ?app_nil_r, ?cn_nil; [|].
    + change (p :: B ++ [p]) with ([p] ++ B ++ [p]). rewrite !cn_app. lia.
    + change (f k0 :: B ++ [f k0]) with ([f k0] ++ B ++ [f k0]). rewrite !cn_app. lia.
Qed.

Lemma t_finish_ok m t r acts m' nx acts' : t_finish m t r acts = Some (m', nx, acts') -> (forall f, nx <> NFail f) -> m' = m /\ acts' = acts /\ exists x, nx = NRet x.
Proof. unfold t_finish, panics, ok. destruct (t_mode t); [|destruct r]; intros [= <- <- <-] Hf; [eauto|eauto|by destruct (Hf (FPanic PNotCreated))]. Qed.
Lemma prune_start_ok m k pa ch m' nx acts : prune_start m k pa ch = Some (m', nx, acts) -> (forall f, nx <> NFail f) -> m' = m /\ acts = [] /\ nx = NRun (PMark k pa ch 0 true 0 None []).
Proof. unfold prune_start, panics, ok. repeat case_match; intros [= <- <- <-] Hf; try done; by edestruct Hf. Qed.
Lemma rem_up_ok m del lv m' nx acts : rem_up m del lv = Some (m', nx, acts) -> (forall f, nx <> NFail f) -> m' = m /\ acts = [] /\ nx_have nx = [] /\ forall p0, (forall t a b c, p0 <> TLoad t a b c) -> (forall t a b c d e f, p0 <> TCas t a b c d e f) ->
  (forall a b c d e, p0 <> RLoad a b c d e) -> mid p0 nx = [].
Proof.
  unfold rem_up, panics, ok. intros H Hf. assert (forall p0 nx, (forall t a b c, p0 <> TLoad t a b c) -> (forall t a b c d e f, p0 <> TCas t a b c d e f) ->
  (forall a b c d e, p0 <> RLoad a b c d e) -> mid p0 nx = []) as Hm. { clear. intros p0 nx H1 H2 H3. destruct p0; try done; [by edestruct H1|by edestruct H2|by edestruct H3]. }
  repeat case_match; simplify_eq; try done; [split; [done|]; split; [done|]; split; [done|]; intros; by apply Hm|by edestruct Hf|split; [done|]; split; [done|]; split; [done|]; intros; by apply Hm].
Qed.

Lemma nofail {m1 m' : mem} {f nx} {acts acts' : list act} : Some (m1, NFail f, acts) = Some (m', nx, acts') -> (forall f, nx <> NFail f) -> False.
Proof. intros [= <- <- <-] Hf. by destruct (Hf f). Qed.
Lemma op_okstep gs m p spur a m' nx acts : m_heap m !! m_next m = None -> (m_next m, KData) ∉ m_freed m ->
  op_step gs m p spur a = Some (m', nx, acts) -> (forall f, nx <> NFail f) -> okstep m p m' nx acts.
Proof.
  intros Hn Hfr H Hf. destruct p as [t shift cur par|t shift cur par node new kind|k parent child j ac cnt last new|k parent child ins pr|k h cur|k h shift cur levels|k h shift cur levels node new del|del levels parent child j cnt| | |levels out]; cbn [op_step] in H; unfold ok, panics in H.
  - (* TLoad *)
    destruct (read_cell m cur) as [node|] eqn:Er; [|by destruct (nofail H Hf)].
    destruct (sh_cond node); [destruct par as [[pa ch]|]; [|by destruct (nofail H Hf)]; destruct (prune_start_ok _ _ _ _ _ _ _ H Hf) as (-> & -> & ->); by apply okstep_quiet|].
    destruct (is_null node).
    { destruct (ts_payload (t_st t)) as [[p st'] call] eqn:Ep. injection H as <- <- <-.
      pose proof (okstep_build m t shift cur par shift cur par node [] TKNew [p] 1%positive) as Hb. rewrite Ep in Hb. apply Hb; [done|by left]. }
    destruct (sh_data node) eqn:Ed.
    { destruct (load_data m node) as [f|it] eqn:El; [by destruct (nofail H Hf)|]. destruct it as [|d0 it]; [by destruct (nofail H Hf)|].
      destruct (negb _ && _). { destruct (negb _); [by destruct (nofail H Hf)|]. injection H as <- <- <-. by apply okstep_quiet. }
      unfold load_data in El. rewrite Ed in El. simpl in El. destruct (sh_loc node) as [l|]; [|done]. destruct (deref m l) as [[sl|it']|] eqn:Eb; [done| |done]. injection El as ->.
      apply leaves_deref in Eb.
      assert (forall r, (let '(p, st', call) := ts_payload (t_st t) in Some (m, NRun (TCas (t_with t st') shift cur par node (BData (others (ts_key (t_st t)) (d0 :: it) ++ [p])) (TKData r)),
        match call with Some k => [ACall k] | None => [] end)) = Some (m', nx, acts) -> okstep m (TLoad t shift cur par) m' nx acts) as Hb.
      { intros r E. destruct (ts_payload (t_st t)) as [[p st'] call] eqn:Ep. injection E as <- <- <-.
        pose proof (okstep_build m t shift cur par shift cur par node (others (ts_key (t_st t)) (d0 :: it)) (TKData r) _ l eq_refl) as Hb. rewrite Ep in Hb. apply Hb. right.
        exists (d0 :: it). split; [done|]. by intros q [_ ?]%elem_of_list_filter. }
      destruct (find_ref (ts_key (t_st t)) l (d0 :: it)) as [r|]; [|by eapply Hb]. destruct (t_mode t) eqn:Em; [by eapply Hb|].
      destruct (t_finish_ok _ _ _ _ _ _ _ H Hf) as (-> & -> & x & ->). apply (okstep_intro _ _ _ _ _ [] (stp (t_st t))).
      - simpl. rewrite (tmp_same m m), app_nil_r by done. by rewrite state_drop_eq.
      - by intros q ?%elem_of_nil.
      - intros i. unfold nx_have, pc_have, made, stp. simpl. rewrite !cn_nil, !app_nil_r. lia. }
    destruct (sh_loc node); [|by destruct (nofail H Hf)]. destruct (_ <=? _); [by destruct (nofail H Hf)|]. injection H as <- <- <-. by apply okstep_quiet.
  - (* TCas *)
    destruct (read_cell m cur) as [now|]; [|by destruct (nofail H Hf)]. destruct (negb (addr_free m a)); [done|].
    assert (forall c v a b i, cn i (all_of (leaves (write_cell (alloc m a b) c v))) = cn i (match b with BData it => it | BInner _ => [] end) + cn i (all_of (leaves m))) as Hal.
    { intros c v a' b i. rewrite leaves_write. by apply leaves_alloc. }
    assert (forall c v a b, m_tmp (write_cell (alloc m a b) c v) = m_tmp m) as Htm by (intros [|? ?] ? ? ?; done).
    assert (pc_have (TCas t shift cur par node new kind) = stp (t_st t) ++ match new with BData it => it | BInner _ => [] end) as Hpc by done.
    destruct (sh_same m now node && negb spur).
    + (* published *)
      assert (forall v m2 x, m_tmp m2 = m_tmp m -> leaves m2 = leaves (write_cell (alloc m a new) cur v) -> m' = m2 /\ acts = [] /\ nx = NRet x ->
        okstep m (TCas t shift cur par node new kind) m' nx acts) as Hret.
      { intros v m2 x E1 E2 (-> & -> & ->). apply (okstep_intro _ _ _ _ _ [] (stp (t_st t))).
        - simpl. rewrite (tmp_same m m2), app_nil_r by done. by rewrite state_drop_eq.
        - by intros q ?%elem_of_nil.
        - intros i. rewrite Hpc. unfold inmap, tmp_copies. rewrite E1, E2, Hal. simpl. rewrite cn_app, !cn_nil. lia. }
      destruct kind as [| |result].
      * destruct new as [sl|[|p0 it]]; [by destruct (nofail H Hf)|by destruct (nofail H Hf)|]. destruct (t_finish_ok _ _ _ _ _ _ _ H Hf) as (E1 & E2 & x & E3).
        eapply Hret; [| |by rewrite E1]; [apply Htm|done].
      * injection H as <- <- <-. destruct new as [sl|it].
        -- apply okstep_quiet; [done|apply Htm|done|done|]. rewrite leaves_write. (* no leaf added *)
           apply map_eq. intros l. rewrite !leaves_lookup. simpl. destruct (decide (l = m_next m)) as [->|]; [by rewrite lookup_insert, Hn|by rewrite lookup_insert_ne].
        -- (* the same, should a leaf be published *)
           apply (okstep_intro _ _ _ _ _ [] []); [simpl; by rewrite (tmp_same m) by apply Htm|by intros q ?%elem_of_nil|].
           intros i. rewrite Hpc. unfold inmap, tmp_copies, nx_have, pc_have. rewrite Htm, Hal. simpl. fold (stp (t_st t)). rewrite !cn_app, !cn_nil. lia.
      * destruct (sh_loc node) as [old|]; [|by destruct (nofail H Hf)]. destruct (negb (sh_data node)); [by destruct (nofail H Hf)|].
        destruct new as [sl|it]; [by destruct (nofail H Hf)|].
        assert (forall r, t_finish (retire (write_cell (alloc m a (BData it)) cur (Sh (Some (m_next m)) false true)) old KData gs) t r [] = Some (m', nx, acts) -> okstep m (TCas t shift cur par node (BData it) (TKData result)) m' nx acts) as Hfin.
        { intros r E. destruct (t_finish_ok _ _ _ _ _ _ _ E Hf) as (E1 & E2 & x & E3). eapply Hret; [| |by rewrite E1]; [apply Htm|done]. }
        destruct result as [r|]; [by eapply Hfin|]. destruct (t_mode t); [by eapply Hfin|]. destruct (it !! (length it - 1)); [by eapply Hfin|by destruct (nofail H Hf)].
    + (* thrown away *)
      injection H as <- <- <-. set (kd := match new with BData _ => drop_data_kind | BInner _ => KInner end).
      apply (okstep_intro _ _ _ _ _ [] (match new, kd with BData it, KData => it | _, _ => [] end)).
      * cbn [mid]. rewrite (tmp_cons m _ new kd) by done. by rewrite node_drop_eq.
      * by intros q ?%elem_of_nil.
      * intros i. rewrite Hpc. unfold inmap, tmp_copies. simpl. unfold pc_have. simpl. fold (stp (t_st t)). rewrite !cn_app, !cn_nil.
        replace (leaves (drop_tmp m new kd)) with (leaves m) by done. destruct new as [sl|it]; [simpl; rewrite !cn_nil; lia|]. destruct kd; simpl; rewrite ?cn_nil; lia.
  - (* PMark *)
    destruct (sh_loc child) as [l|]; [|by destruct (nofail H Hf)]. destruct (read_cell m (CSlot l j)) as [v|]; [|by destruct (nofail H Hf)].
    match type of H with match ?r with _ => _ end = _ => destruct r as [f|[[ac' cnt'] last']] end; [by destruct (nofail H Hf)|].
    destruct (S j <? LEVEL_CELLS).
    + injection H as <- <- <-. apply okstep_quiet; [done|done|done|done|apply (leaves_write m (CSlot l j))].
    + unfold prune_decide, ok, panics in H. destruct (sh_cond child || sh_data child); [by destruct (nofail H Hf)|]. injection H as <- <- <-.
      apply okstep_quiet; [done|done|done|done|apply (leaves_write m (CSlot l j))].
  - (* PCas *)
    destruct (read_cell m parent) as [now|]; [|by destruct (nofail H Hf)].
    assert (forall m2 k pr m' nx acts, prune_return m2 k pr = Some (m', nx, acts) -> (forall f, nx <> NFail f) -> m' = m2 /\ acts = [] /\ nx_have nx = pc_have (PCas k parent child ins pr)) as Hpr.
    { clear. intros m2 k pr m' nx acts H Hf. destruct k as [t|key h|del lv]; simpl in H; unfold ok in H; [by injection H as <- <- <-|by injection H as <- <- <-|].
      assert (rem_up m2 del lv = Some (m', nx, acts) -> m' = m2 /\ acts = [] /\ nx_have nx = []) as Hr by (intros E; by destruct (rem_up_ok _ _ _ _ _ _ E Hf) as (? & ? & ? & _)).
      destruct pr; auto. by injection H as <- <- <-. }
    assert (forall m2 pr', m_tmp m2 = m_tmp m -> leaves m2 = leaves m -> prune_return m2 k pr' = Some (m', nx, acts) -> okstep m (PCas k parent child ins pr) m' nx acts) as Hq.
    { intros m2 pr' E1 E2 E. destruct (Hpr _ _ _ _ _ _ E Hf) as (-> & -> & E3). by apply okstep_quiet. }
    assert (forall sl c v, leaves (write_cell (alloc m a (BInner sl)) c v) = leaves m) as Hin.
    { intros sl c v. rewrite leaves_write. apply map_eq. intros l. rewrite !leaves_lookup. simpl. destruct (decide (l = m_next m)) as [->|]; [by rewrite lookup_insert, Hn|by rewrite lookup_insert_ne]. }
    assert (forall sl, prune_return (drop_tmp m (BInner sl) KInner) k PRCasFail = Some (m', nx, acts) -> okstep m (PCas k parent child ins pr) m' nx acts) as Hdt.
    { intros sl E. destruct (Hpr _ _ _ _ _ _ E Hf) as (-> & -> & E3). apply (okstep_intro _ _ _ _ _ [] []); [simpl; by rewrite (tmp_cons m _ (BInner sl) KInner)|by intros q ?%elem_of_nil|].
      intros i. rewrite E3. unfold inmap, tmp_copies. simpl. rewrite !cn_nil. replace (leaves (drop_tmp m (BInner sl) KInner)) with (leaves m) by done. unfold pc_have. simpl. lia. }
    assert (forall c v, m_tmp (write_cell m c v) = m_tmp m) as Ht1 by (by intros [|? ?] ?).
    assert (forall c v sl, m_tmp (write_cell (alloc m a (BInner sl)) c v) = m_tmp m) as Ht2 by (by intros [|? ?] ? ?).
    destruct ins as [v|sl]; [|destruct (addr_free m a); [|done]]; destruct (sh_same m now child); try (destruct (sh_loc child); [|by destruct (nofail H Hf)]); try (by eapply Hdt).
    + eapply Hq; [| |exact H]; [apply Ht1|apply leaves_write].
    + by eapply Hq; [| |exact H].
    + eapply Hq; [| |exact H]; [apply Ht2|apply Hin].
  - (* GLoad *)
    destruct (read_cell m cur) as [node|]; [|by destruct (nofail H Hf)].
    destruct (is_null node); [injection H as <- <- <-; by apply okstep_quiet|]. destruct (sh_data node).
    + destruct (load_data m node); [by destruct (nofail H Hf)|]. injection H as <- <- <-. by apply okstep_quiet.
    + destruct (sh_loc node); [|by destruct (nofail H Hf)]. injection H as <- <- <-. by apply okstep_quiet.
  - (* RLoad *)
    destruct (read_cell m cur) as [node|]; [|by destruct (nofail H Hf)].
    destruct (is_null node); [injection H as <- <- <-; by apply okstep_quiet|].
    destruct (sh_cond node). { destruct levels as [|[pa ch] lv]; [by destruct (nofail H Hf)|]. destruct (prune_start_ok _ _ _ _ _ _ _ H Hf) as (-> & -> & ->). by apply okstep_quiet. }
    destruct (sh_data node) eqn:Ed.
    + destruct (load_data m node) as [f|it] eqn:El; [by destruct (nofail H Hf)|]. unfold load_data in El. rewrite Ed in El. simpl in El.
      destruct (sh_loc node) as [l|]; [|done]. destruct (deref m l) as [[sl|it']|] eqn:Eb; [done| |done]. injection El as ->. apply leaves_deref in Eb.
      destruct (find_last k 0 it None) as [[i p]|]; [|injection H as <- <- <-; by apply okstep_quiet]. injection H as <- <- <-.
      apply (okstep_intro _ _ _ _ _ (others k it) []).
      * simpl. by rewrite (tmp_same m m) by done.
      * intros q [_ Hq]%elem_of_list_filter. left. eauto.
      * intros i'. unfold nx_have, pc_have, made. simpl. rewrite !cn_nil. lia.
    + destruct (sh_loc node); [|by destruct (nofail H Hf)]. destruct (_ <=? _); [by destruct (nofail H Hf)|]. destruct (_ <=? _); [by destruct (nofail H Hf)|].
      injection H as <- <- <-. by apply okstep_quiet.
  - (* RCas *)
    destruct (read_cell m cur) as [now|]; [|by destruct (nofail H Hf)].
    assert (forall new0 v, m_tmp (write_cell (alloc m a (BData new0)) cur v) = m_tmp m) as Htm by (destruct cur; done).
    assert (forall m2 old, m_tmp m2 = m_tmp m -> (forall i, cn i (all_of (leaves m2)) = cn i new + cn i (all_of (leaves m))) ->
      rem_up (retire m2 old KData gs) del levels = Some (m', nx, acts) -> okstep m (RCas k h shift cur levels node new del) m' nx acts) as Hup.
    { intros m2 old E1 E2 E. destruct (rem_up_ok _ _ _ _ _ _ E Hf) as (-> & -> & E3 & _). apply (okstep_intro _ _ _ _ _ [] []); [simpl; by rewrite (tmp_same m) by done|by intros q ?%elem_of_nil|].
      intros i. rewrite E3. unfold inmap, tmp_copies, made. simpl. rewrite E1, !cn_nil. replace (leaves (retire m2 old KData gs)) with (leaves m2) by done. rewrite E2. unfold pc_have. simpl. lia. }
    assert (forall m2 nx', m_tmp m2 = m_tmp m \/ m_tmp m2 = (BData new, drop_data_kind) :: m_tmp m -> (m_tmp m2 = m_tmp m -> new = []) -> leaves m2 = leaves m -> Some (m2, NRun (RLoad k h shift cur levels), @nil act) = Some (m', nx, nx') ->
      okstep m (RCas k h shift cur levels node new del) m' nx []) as Hfail.
    { intros m2 nx' E1 E2 E3 [= <- <- <-]. destruct E1 as [E1|E1].
      - apply okstep_quiet; [done|done|done|unfold pc_have; simpl; by rewrite E2|done].
      - apply (okstep_intro _ _ _ _ _ [] (match drop_data_kind with KData => new | KInner => [] end)); [cbn [mid]; rewrite (tmp_cons m _ _ _ E1); by rewrite node_drop_eq|by intros q ?%elem_of_nil|].
        intros i. unfold inmap, tmp_copies, made, nx_have, pc_have. rewrite E3, E1. simpl. destruct drop_data_kind; simpl; rewrite ?cn_app, ?cn_nil; lia. }
    destruct new as [|p0 new].
    + destruct (sh_same m now node && negb spur).
      * destruct (negb (sh_data node)); [by destruct (nofail H Hf)|]. destruct (sh_loc node) as [old|]; [|by destruct (nofail H Hf)].
        eapply Hup; [| |exact H]; [by destruct cur|]. intros i. by rewrite leaves_write.
      * assert (acts = []) as -> by (by injection H). eapply Hfail; [| | |exact H]; [by left|done|done].
    + destruct (addr_free m a); [|done]. destruct (sh_same m now node && negb spur).
      * destruct (negb (sh_data node)); [by destruct (nofail H Hf)|]. destruct (sh_loc node) as [old|]; [|by destruct (nofail H Hf)].
        eapply Hup; [| |exact H]; [apply Htm|]. intros i. rewrite leaves_write. by rewrite leaves_alloc.
      * assert (acts = []) as -> by (by injection H). eapply Hfail; [| | |exact H]; [by right| |done]. simpl. intros E. exfalso. apply (f_equal length) in E. simpl in E. lia.
  - (* RCount *)
    destruct (sh_loc child) as [l|]; [|by destruct (nofail H Hf)]. destruct (read_cell m (CSlot l j)) as [v|]; [|by destruct (nofail H Hf)].
    destruct (S j <? LEVEL_CELLS); [injection H as <- <- <-; by apply okstep_quiet|]. destruct (1 <? _); [injection H as <- <- <-; by apply okstep_quiet|].
    destruct (prune_start_ok _ _ _ _ _ _ _ H Hf) as (-> & -> & ->). by apply okstep_quiet.
  - injection H as <- <- <-. by apply okstep_quiet.
  - injection H as <- <- <-. by apply okstep_quiet.
  - (* INext *)
    destruct levels as [|[v idx] rest]; [injection H as <- <- <-; by apply okstep_quiet|].
    destruct (is_null v); [injection H as <- <- <-; by apply okstep_quiet|]. destruct (sh_data v).
    + destruct (load_data m v) as [f|it]; [by destruct (nofail H Hf)|]. destruct (sh_loc v); [|by destruct (nofail H Hf)].
      destruct (it !! idx); injection H as <- <- <-; by apply okstep_quiet.
    + destruct (idx <? LEVEL_CELLS); [|injection H as <- <- <-; by apply okstep_quiet]. destruct (sh_loc v) as [l|]; [|by destruct (nofail H Hf)].
      destruct (read_cell m (CSlot l idx)); [|by destruct (nofail H Hf)]. destruct (_ <=? _); [by destruct (nofail H Hf)|]. injection H as <- <- <-. by apply okstep_quiet.
Qed.
End arcinv.
