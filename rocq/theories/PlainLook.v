(** * What the outcome of a step depends on: the nodes the call holds a pointer to, or has just loaded one to. *)
From Verif Require Import SafeProps Model Mem Spec LinSpec Weak WeakInv WeakStep WeakCoh WeakFree FreeSim Rc11 Plain.

Section look.
Context {C : Config} (w : orders).
Implicit Types (m : mem) (l : loc) (c : cell) (v : sh) (p : pc).

Definition oc (r : sres) : option (next * list act) := (fun r => (r.1.2, r.2)) <$> r.
Lemma oc_rem_up m m2 d lv : oc (rem_up m d lv) = oc (rem_up m2 d lv).
Proof. unfold rem_up. destruct lv as [|[pa ch] lv]; [done|]. by destruct (is_null ch). Qed.
Lemma oc_prune_start m m2 k pa ch : oc (prune_start m k pa ch) = oc (prune_start m2 k pa ch).
Proof. unfold prune_start. destruct (sh_data ch); [done|]. by destruct (is_null ch). Qed.
Lemma oc_prune_return m m2 k pr : oc (prune_return m k pr) = oc (prune_return m2 k pr).
Proof. unfold prune_return. destruct k; [done..|]. destruct pr; try done; apply oc_rem_up. Qed.
Lemma oc_prune_decide m m2 k pa ch ac cnt la new : oc (prune_decide m k pa ch ac cnt la new) = oc (prune_decide m2 k pa ch ac cnt la new).
Proof. unfold prune_decide. by destruct (_ || _). Qed.
Lemma oc_t_finish m m2 t r acts : oc (t_finish m t r acts) = oc (t_finish m2 t r acts).
Proof. unfold t_finish. destruct (t_mode t); [done|]. by destruct r. Qed.

Section one.
Context (m : mem) (l : loc) (b : body).
Notation m2 := (with_body m l b).
Lemma wb_look l' : l' <> l -> m_heap m2 !! l' = m_heap m !! l'.
Proof. intros H. simpl. by rewrite lookup_alter_ne. Qed.
Lemma wb_addr l' : ho_addr <$> m_heap m2 !! l' = ho_addr <$> m_heap m !! l'.
Proof. simpl. destruct (decide (l' = l)) as [->|H]; [|by rewrite lookup_alter_ne]. rewrite lookup_alter. by destruct (m_heap m !! l). Qed.
Lemma wb_deref l' : l' <> l -> deref m2 l' = deref m l'.
Proof. intros H. unfold deref. by rewrite wb_look. Qed.
Lemma wb_read c : l ∉ (cptr c).*1 -> read_cell m2 c = read_cell m c.
Proof. destruct c as [|l' i]; [done|]. simpl. intros H. rewrite wb_deref; [done|]. intros ->. apply H. by left. Qed.
Lemma wb_load v : l ∉ (sptr v).*1 -> load_data m2 v = load_data m v.
Proof. unfold load_data, sptr. destruct (negb _); [done|]. destruct (sh_loc v) as [l'|]; [|done]. simpl. intros H. rewrite wb_deref; [done|]. intros ->. apply H. by left. Qed.
Lemma wb_load_write c u v : l ∉ (sptr v).*1 -> load_data (write_cell m2 c u) v = load_data (write_cell m c u) v.
Proof.
  unfold load_data, sptr. destruct (negb _); [done|]. destruct (sh_loc v) as [l'|]; [|done]. simpl. intros H. assert (l' <> l) as Hne. { intros ->. apply H. by left. }
  assert (deref (write_cell m2 c u) l' = deref (write_cell m c u) l') as ->; [|done]. destruct c as [|lc i]; simpl; [by apply wb_deref|]. unfold deref, freed. simpl.
  destruct (decide (lc = l')) as [->|Hc]; [rewrite !lookup_alter, lookup_alter_ne by done; done|]. by rewrite !lookup_alter_ne by done.
Qed.
Lemma wb_same v u : sh_same m2 v u = sh_same m v u.
Proof.
  assert (forall x, paddr m2 x = paddr m x) as E; [|unfold sh_same; by rewrite !E]. intros x. unfold paddr. destruct (sh_loc x) as [l'|]; [|done]. pose proof (wb_addr l') as H.
  destruct (m_heap m2 !! l'), (m_heap m !! l'); simpl in H; congruence.
Qed.
Lemma wb_free a : addr_free m2 a = addr_free m a.
Proof.
  apply eq_true_iff_eq. unfold addr_free. rewrite !andb_true_iff, !forallb_forall. split; intros [H1 H2]; (split; [done|]); intros [l' x] Hin; apply elem_of_list_In, elem_of_map_to_list in Hin; pose proof (wb_addr l') as E; rewrite Hin in E.
  - destruct (m_heap m2 !! l') as [y|] eqn:Ey; [|done]. specialize (H2 (l', y)). injection E as E. rewrite <-E. apply H2. by apply elem_of_list_In, elem_of_map_to_list.
  - destruct (m_heap m !! l') as [y|] eqn:Ey; [|done]. specialize (H2 (l', y)). injection E as E. change (freed m2 l') with (freed m l'). rewrite E. apply H2. by apply elem_of_list_In, elem_of_map_to_list.
Qed.
End one.

Lemma op_dep m l b p spur a : l ∉ (pptr p).*1 -> (forall c k ord v, access w p = Some (c, k, ord) -> keeps k = true -> read_cell m c = Some v -> l ∉ (sptr v).*1) ->
  oc (op_step ∅ (with_body m l b) p spur a) = oc (op_step ∅ m p spur a).
Proof.
  intros Hp Hr. destruct p; cbn [op_step access] in *; cbn [pptr] in Hp; rewrite ?fmap_app, ?not_elem_of_app in Hp.
  - (* TLoad *) rewrite wb_read by tauto. destruct (read_cell m cur) as [v|] eqn:E; [|done]. specialize (Hr _ _ _ v eq_refl eq_refl E). destruct (sh_cond v). { destruct par as [[pa ch]|]; [apply oc_prune_start|done]. }
    destruct (is_null v); [by destruct (ts_payload (t_st t)) as [[? ?] ?]|]. destruct (sh_data v).
    + rewrite wb_load by done. destruct (load_data m v) as [f|[|d0 it]]; [done|done|]. destruct (_ && _); [by destruct (negb _)|]. destruct (match sh_loc v with Some _ => _ | None => _ end) as [r|].
      * destruct (t_mode t); [by destruct (ts_payload (t_st t)) as [[? ?] ?]|]. apply oc_t_finish.
      * by destruct (ts_payload (t_st t)) as [[? ?] ?].
    + destruct (sh_loc v); [|done]. by destruct (_ <=? _).
  - (* TCas *) rewrite wb_read by tauto. destruct (read_cell m cur) as [v|] eqn:E; [|done]. rewrite wb_free, wb_same. destruct (negb (addr_free m a)); [done|]. destruct (_ && _); [|done]. cbn [m_next with_body].
    destruct kind as [| |res].
    + destruct new as [|[|p0 it]]; [done..|]. apply oc_t_finish.
    + done.
    + destruct (sh_loc node); [|done]. destruct (negb _); [done|]. destruct new as [|it]; [done|]. destruct res as [r|]; [destruct (t_mode t); apply oc_t_finish|]. destruct (t_mode t); [apply oc_t_finish|].
      destruct (it !! _); [apply oc_t_finish|done].
  - (* PMark *) destruct (sh_loc child) as [lc|] eqn:Ec; [|done]. assert (l ∉ (cptr (CSlot lc i)).*1) as Hc. { unfold sptr in Hp. rewrite Ec in Hp. simpl in *. tauto. }
    rewrite wb_read by done. destruct (read_cell m (CSlot lc i)) as [v|] eqn:E; [|done]. specialize (Hr _ _ _ v eq_refl eq_refl E).
    rewrite wb_load_write by done. destruct (if is_null (uncond v) then _ else _) as [f|[[ac' cnt'] la']]; [done|]. destruct (_ <? _); [done|]. apply oc_prune_decide.
  - (* PCas *) rewrite wb_read by tauto. destruct (read_cell m parent) as [v|] eqn:E; [|done]. rewrite wb_free, wb_same. destruct ins as [u|sl].
    + destruct (sh_same m v child); [|apply oc_prune_return]. destruct (sh_loc child); [apply oc_prune_return|done].
    + destruct (addr_free m a); [|done]. destruct (sh_same m v child); [|apply oc_prune_return]. destruct (sh_loc child); [apply oc_prune_return|done].
  - (* GLoad *) rewrite wb_read by tauto. destruct (read_cell m cur) as [v|] eqn:E; [|done]. specialize (Hr _ _ _ v eq_refl eq_refl E). rewrite wb_load by done. destruct (is_null v); [done|]. destruct (sh_data v); [by destruct (load_data m v)|].
    by destruct (sh_loc v).
  - (* RLoad *) rewrite wb_read by tauto. destruct (read_cell m cur) as [v|] eqn:E; [|done]. specialize (Hr _ _ _ v eq_refl eq_refl E). rewrite wb_load by done. destruct (is_null v); [done|].
    destruct (sh_cond v). { destruct levels as [|[pa ch] lv]; [done|]. apply oc_prune_start. }
    destruct (sh_data v).
    + destruct (load_data m v); [done|]. destruct (find_last k 0 l0 None) as [[? ?]|]; [|done]. by destruct (sh_loc v).
    + destruct (sh_loc v); [|done]. destruct (_ <=? _); [done|]. by destruct (_ <=? _).
  - (* RCas *) rewrite wb_read by tauto. destruct (read_cell m cur) as [v|] eqn:E; [|done]. rewrite wb_free, wb_same. cbn [m_next with_body]. destruct new as [|pl new].
    + destruct (_ && _); [|done]. destruct (negb _); [done|]. destruct (sh_loc node); [apply oc_rem_up|done].
    + destruct (addr_free m a); [|done]. destruct (_ && _); [|done]. destruct (negb _); [done|]. destruct (sh_loc node); [apply oc_rem_up|done].
  - (* RCount *) destruct (sh_loc child) as [lc|] eqn:Ec; [|done]. assert (l ∉ (cptr (CSlot lc i)).*1) as Hc. { unfold sptr in Hp. rewrite Ec in Hp. simpl in *. tauto. }
    rewrite wb_read by done. destruct (read_cell m (CSlot lc i)) as [v|] eqn:E; [|done]. destruct (_ <? _); [done|]. destruct (_ <? _); [done|]. apply oc_prune_start.
  - done.
  - done.
  - (* INext *) destruct levels as [|[v idx] rest]; [done|]. rewrite bind_cons in Hp. rewrite !fmap_app, !not_elem_of_app in Hp. simpl in Hp. destruct (is_null v) eqn:En; [done|]. destruct (sh_data v) eqn:Ed.
    + rewrite wb_load by tauto. destruct (load_data m v); [done|]. destruct (sh_loc v); [|done]. by destruct (_ !! _).
    + destruct (idx <? LEVEL_CELLS); [|done]. destruct (sh_loc v) as [lc|] eqn:Ec; [|done]. assert (l ∉ (cptr (CSlot lc idx)).*1) as Hc. { unfold sptr in Hp. rewrite Ec in Hp. simpl in *. tauto. }
      rewrite wb_read by done. destruct (read_cell m (CSlot lc idx)); [|done]. by repeat case_match.
Qed.

(** So a step looks only into nodes the call holds a pointer to, or has just loaded one to. *)
Lemma look_dep x l : looks_into x l -> (exists b, (l, b) ∈ pptr (x_pc x)) \/ loads_ptr w x l.
Proof.
  intros (b & Hne). destruct (decide (l ∈ (pptr (x_pc x)).*1)) as [Hin|Hin].
  { left. apply elem_of_list_fmap in Hin as ([l' b'] & -> & Hin). by exists b'. }
  right. destruct (access w (x_pc x)) as [[[c k] ord]|] eqn:A.
  - destruct (read_cell (x_mem x) c) as [v|] eqn:E.
    + destruct (decide (l ∈ (sptr v).*1 /\ keeps k = true)) as [[Hv Hk]|Hn].
      * exists c, k, ord, v. split; [done|]. split; [destruct k; auto; done|]. split; [done|]. unfold sptr in Hv. destruct (sh_loc v); [|by apply elem_of_nil in Hv]. simpl in Hv. by apply elem_of_list_singleton in Hv as ->.
      * exfalso. apply Hne. apply op_dep; [done|]. intros c' k' ord' v' A' Hk' E'. rewrite A in A'. injection A' as <- <- <-. rewrite E in E'. injection E' as <-. intros Hv. by apply Hn.
    + exfalso. apply Hne. apply op_dep; [done|]. intros c' k' ord' v' A' Hk' E'. rewrite A in A'. injection A' as <- <- <-. congruence.
  - exfalso. apply Hne. apply op_dep; [done|]. intros c' k' ord' v' A' Hk' E'. congruence.
Qed.

(** What it hands out is among the pointers it leaves. *)
Lemma ref_ptr res r : r ∈ refs_of res -> (rr_loc r, true) ∈ resptr res.
Proof.
  destruct res as [[x|]|[x|x]|b|ys]; simpl; intros H; try (by apply elem_of_nil in H); try (apply elem_of_list_singleton in H as ->; by left).
  apply elem_of_list_bind. exists r. split; [by left|done].
Qed.
Lemma hand_ptr x l m' nx acts : hands_out x l -> op_step ∅ (x_mem x) (x_pc x) (x_spur x) (x_addr x) = Some (m', nx, acts) -> (l, true) ∈ nptr nx.
Proof.
  intros (nx' & acts' & r & Ho & <- & H) E. unfold outcome in Ho. rewrite E in Ho. injection Ho as <- <-. destruct H as [(res & -> & H)|H]; [by apply ref_ptr|].
  destruct (op_step_yield _ _ _ _ _ _ _ _ E) as [Hy _]. destruct (Hy r H) as (lv & out & -> & Hin). cbn [nptr pptr]. apply elem_of_app. right. apply elem_of_list_bind. exists r. split; [by left|done].
Qed.
End look.
