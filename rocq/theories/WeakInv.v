(** * The orderings suffice: invariant of the machine with weakly ordered memory. *)
From Verif Require Import Model Mem Spec Weak.

Section winv.
Context {C : Config}.
Implicit Types (m : mem) (s : wstate) (l : loc) (v : sh) (tv W D : view) (pv : gmap loc view) (h : cell -> list msg).

(** ** Views *)
Definition closed h W : Prop := forall b i v W0 r l, b ∈ W -> h (CSlot b i) = (v, W0) :: r -> sh_loc v = Some l -> l ∈ W.
Definition within m W : Prop := forall l, l ∈ W -> is_Some (hbody m l).
Record view_ok m h tv pv : Prop := {
  vo_tv : closed h tv;
  vo_in : within m tv;
  vo_pv : forall l D, pv !! l = Some D -> closed h (tv ∪ D) /\ l ∈ tv ∪ D /\ within m D;
}.
Definition known tv pv l : Prop := l ∈ tv \/ is_Some (pv !! l).

Lemma closed_union h W W' : closed h W -> closed h W' -> closed h (W ∪ W').
Proof. intros H1 H2 b i v W0 r l [Hb|Hb]%elem_of_union Hh Hl; apply elem_of_union; [left; by eapply H1|right; by eapply H2]. Qed.
Lemma closed_inter h W W' : closed h W -> closed h W' -> closed h (W ∩ W').
Proof. intros H1 H2 b i v W0 r l [Hb1 Hb2]%elem_of_intersection Hh Hl. apply elem_of_intersection. split; [by eapply H1|by eapply H2]. Qed.
Lemma closed_empty h : closed h ∅.
Proof. intros b i v W0 r l Hb. by apply elem_of_empty in Hb. Qed.
Lemma closed_eq h W W' : (forall x, x ∈ W <-> x ∈ W') -> closed h W -> closed h W'.
Proof. intros He H b i v W0 r l Hb Hh Hl. apply He. eapply H; [|done|done]. by apply He. Qed.
Lemma within_union m W W' : within m W -> within m W' -> within m (W ∪ W').
Proof. intros H1 H2 l [Hl|Hl]%elem_of_union; auto. Qed.

Lemma known_sees m h tv pv l : view_ok m h tv pv -> known tv pv l -> sees tv pv l.
Proof.
  intros H [Hl|[D HD]]; unfold sees, dep; apply elem_of_union; [by left|]. rewrite HD. simpl.
  destruct (vo_pv _ _ _ _ H _ _ HD) as (_ & Hl & _). by apply elem_of_union in Hl.
Qed.
Lemma known_closed m h tv pv l : view_ok m h tv pv -> closed h (tv ∪ dep pv (Some l)).
Proof.
  intros H. simpl. destruct (pv !! l) as [D|] eqn:E; simpl; [by apply (vo_pv _ _ _ _ H _ _ E)|].
  apply closed_union; [apply (vo_tv _ _ _ _ H)|apply closed_empty].
Qed.
Lemma dep_within m h tv pv x : view_ok m h tv pv -> within m (dep pv x).
Proof.
  intros H l Hl. destruct x as [l'|]; simpl in Hl; [|by apply elem_of_empty in Hl]. destruct (pv !! l') as [D|] eqn:E; simpl in Hl; [|by apply elem_of_empty in Hl].
  destruct (vo_pv _ _ _ _ H _ _ E) as (_ & _ & Hw). by apply Hw.
Qed.

(** The slot was initialised with a pointer to [l]. *)
Definition first_ptr h (c : cell) l : Prop := exists b i v0 W0 r, c = CSlot b i /\ h c = (v0, W0) :: r /\ sh_loc v0 = Some l.
Definition msg_ok m h (c : cell) (x : msg) : Prop :=
  closed h x.2 /\ within m x.2 /\ forall l, sh_loc x.1 = Some l -> l ∈ x.2 \/ first_ptr h c l.

(** Loading with consume or acquire gives a pointer that can be followed. *)
Lemma load_ok m h tv pv c n v W ord r : view_ok m h tv pv -> (ord = Consume \/ acquires ord = true) ->
  (match base c with Some l => known tv pv l | None => True end) -> h c !! n = Some (v, W) -> h c = r -> r <> [] -> msg_ok m h c (v, W) ->
  view_ok m h (tv_read ord tv W) (pv_read ord pv c v W) /\
  (forall l, sh_loc v = Some l -> known (tv_read ord tv W) (pv_read ord pv c v W) l) /\
  (forall l, known tv pv l -> known (tv_read ord tv W) (pv_read ord pv c v W) l).
Proof.
  intros Hv Hord Hb Hn Hr Hne (HWc & HWi & HWl). simpl in HWc, HWi, HWl.
  set (tv1 := tv_read ord tv W). set (Dn := dep pv (base c) ∪ match ord with Consume => W | _ => ∅ end).
  assert (forall x, x ∈ tv1 ∪ Dn <-> x ∈ (tv ∪ dep pv (base c)) ∪ W) as Heq.
  { intros x. unfold tv1, Dn, tv_read. destruct Hord as [->|Ha]; [simpl; set_solver|]. rewrite Ha. destruct ord; try done; set_solver. }
  assert (forall x, x ∈ tv -> x ∈ tv1) as Hsub. { intros x Hx. unfold tv1, tv_read. destruct (acquires ord); set_solver. }
  assert (closed h tv1) as Hc1. { unfold tv1, tv_read. destruct (acquires ord); [apply closed_union; [apply (vo_tv _ _ _ _ Hv)|done]|apply (vo_tv _ _ _ _ Hv)]. }
  assert (within m tv1) as Hi1. { unfold tv1, tv_read. destruct (acquires ord); [apply within_union; [apply (vo_in _ _ _ _ Hv)|done]|apply (vo_in _ _ _ _ Hv)]. }
  assert (closed h (tv ∪ dep pv (base c))) as Hcb.
  { destruct (base c) as [b|]; [by eapply known_closed|]. simpl. apply closed_union; [apply (vo_tv _ _ _ _ Hv)|apply closed_empty]. }
  assert (closed h (tv1 ∪ Dn)) as HcD. { eapply closed_eq; [intros x; symmetry; apply Heq|]. by apply closed_union. }
  assert (within m Dn) as HiD.
  { unfold Dn. apply within_union; [by eapply dep_within|]. destruct ord; try done; intros x Hx; by apply elem_of_empty in Hx. }
  assert (forall l, sh_loc v = Some l -> l ∈ tv1 ∪ Dn) as HlD.
  { intros l Hl. apply Heq. destruct (HWl _ Hl) as [Hw|(b & i & v0 & W0 & r0 & -> & Hr0 & Hl0)]; [set_solver|]. apply elem_of_union. left. simpl base in *.
    assert (b ∈ tv ∪ dep pv (Some b)) as Hbs by (by eapply known_sees). eapply Hcb; [exact Hbs|exact Hr0|exact Hl0]. }
  assert (forall l D, pv !! l = Some D -> closed h (tv1 ∪ D) /\ l ∈ tv1 ∪ D /\ within m D) as Hold.
  { intros l D HD. destruct (vo_pv _ _ _ _ Hv _ _ HD) as (H1 & H2 & H3). split; [|split; [|done]].
    - unfold tv1, tv_read. destruct (acquires ord); [|done]. apply (closed_eq _ ((tv ∪ D) ∪ W)); [set_solver|]. by apply closed_union.
    - apply elem_of_union in H2 as [H2|H2]; apply elem_of_union; [left; by apply Hsub|by right]. }
  unfold pv_read. fold Dn. split; [split; [done|done|]|split].
  - intros l D HD. unfold learn in HD. destruct (sh_loc v) as [l'|] eqn:El; [|by apply Hold]. destruct (decide (l' = l)) as [->|Hne']; [|rewrite lookup_insert_ne in HD by done; by apply Hold].
    rewrite lookup_insert in HD. injection HD as <-. destruct (pv !! l) as [D0|] eqn:E0; [|split; [done|split; [by apply HlD|done]]].
    destruct (Hold _ _ E0) as (H1 & H2 & H3). split; [|split].
    + apply (closed_eq _ ((tv1 ∪ D0) ∩ (tv1 ∪ Dn))); [set_solver|]. by apply closed_inter.
    + specialize (HlD _ eq_refl). set_solver.
    + intros x Hx. apply H3. set_solver.
  - intros l Hl. right. unfold learn. rewrite Hl. rewrite lookup_insert. by eexists.
  - intros l [Hl|[D HD]]; [left; by apply Hsub|]. right. unfold learn. destruct (sh_loc v) as [l'|]; [|by eexists]. destruct (decide (l' = l)) as [->|]; [rewrite lookup_insert; by eexists|].
    rewrite lookup_insert_ne by done. by eexists.
Qed.

(** ** What a call holds *)
Definition is_inner m l : Prop := exists sl, hbody m l = Some (BInner sl) /\ length sl = LEVEL_CELLS.
Definition is_dat m l : Prop := exists it, hbody m l = Some (BData it).
Definition typed m v : Prop := forall l, sh_loc v = Some l -> if sh_data v then is_dat m l else is_inner m l.
Definition held m tv pv v : Prop := typed m v /\ forall l, sh_loc v = Some l -> known tv pv l.
Definition cell_ok m tv pv (c : cell) : Prop := match c with CRoot => True | CSlot l i => known tv pv l /\ is_inner m l /\ i < LEVEL_CELLS end.
Definition child_ok m tv pv (x : cell * sh) : Prop := cell_ok m tv pv x.1 /\ exists l, sh_loc x.2 = Some l /\ sh_data x.2 = false /\ known tv pv l /\ is_inner m l.
Definition ref_ok m tv pv (r : rref) : Prop := known tv pv (rr_loc r) /\ exists it, hbody m (rr_loc r) = Some (BData it) /\ it !! rr_idx r = Some (rr_val r).
Definition cont_ok m tv pv (k : pcont) : Prop :=
  match k with KTrav _ | KRem _ _ => True | KUp del levels => ref_ok m tv pv del /\ Forall (child_ok m tv pv) levels end.
Definition dat m tv pv v : Prop := exists l, sh_loc v = Some l /\ sh_data v = true /\ known tv pv l /\ is_dat m l.

Definition pc_ok m tv pv (p : pc) : Prop :=
  match p with
  | TLoad _ _ cur par => cell_ok m tv pv cur /\ (forall x, par = Some x -> child_ok m tv pv x)
  | TCas _ _ cur par node new kind => cell_ok m tv pv cur /\ (forall x, par = Some x -> child_ok m tv pv x) /\
      match kind with
      | TKNew => exists p, new = BData [p]
      | TKSplit => dat m tv pv node /\ exists i, i < LEVEL_CELLS /\ new = BInner (<[i := node]> empty_slots)
      | TKData r => (exists l, sh_loc node = Some l) /\ (exists it, new = BData it) /\ (forall x, r = Some x -> ref_ok m tv pv x)
      end
  | PMark k parent child i _ _ last new => cont_ok m tv pv k /\ child_ok m tv pv (parent, child) /\ i < LEVEL_CELLS /\
      length new = i /\ Forall (held m tv pv) new /\ (forall v, last = Some v -> held m tv pv v)
  | PCas k parent child ins _ => cont_ok m tv pv k /\ child_ok m tv pv (parent, child) /\
      match ins with inl v => held m tv pv v | inr sl => length sl = LEVEL_CELLS /\ Forall (held m tv pv) sl end
  | GLoad _ _ cur => cell_ok m tv pv cur
  | RLoad _ _ _ cur levels => cell_ok m tv pv cur /\ Forall (child_ok m tv pv) levels
  | RCas _ _ _ cur levels node _ del => cell_ok m tv pv cur /\ Forall (child_ok m tv pv) levels /\ (exists l, sh_loc node = Some l) /\ ref_ok m tv pv del
  | RCount del levels parent child i _ => ref_ok m tv pv del /\ Forall (child_ok m tv pv) levels /\ child_ok m tv pv (parent, child) /\ i < LEVEL_CELLS
  | ELoad | INew => True
  | INext levels out => Forall (fun x => held m tv pv x.1) levels /\ Forall (ref_ok m tv pv) out
  end.

Definition nx_ok m tv pv (nx : next) : Prop :=
  match nx with NRun p => pc_ok m tv pv p | NRet r => Forall (ref_ok m tv pv) (refs_of r) | NFail f => f <> FUB end.
Definition st_ok m tv pv (st : ostat) : Prop :=
  match st with SRun _ p => pc_ok m tv pv p | SRet _ r => Forall (ref_ok m tv pv) (refs_of r) | SFail _ f => f <> FUB | SGone => True end.

(** Everything is preserved when nodes are added and more becomes known. *)
Record grows m tv pv m' tv' pv' : Prop := {
  gr_dat : forall l it, hbody m l = Some (BData it) -> hbody m' l = Some (BData it);
  gr_inner : forall l, is_inner m l -> is_inner m' l;
  gr_known : forall l, known tv pv l -> known tv' pv' l;
}.
Section grow.
Context m tv pv m' tv' pv' (G : grows m tv pv m' tv' pv').
Lemma typed_grow v : typed m v -> typed m' v.
Proof. intros H l Hl. specialize (H l Hl). destruct (sh_data v); [|by eapply gr_inner]. destruct H as [it H]. exists it. by eapply gr_dat. Qed.
Lemma held_grow v : held m tv pv v -> held m' tv' pv' v.
Proof. intros [H1 H2]. split; [by apply typed_grow|]. intros l Hl. eapply gr_known; [done|]. by apply H2. Qed.
Lemma cell_grow c : cell_ok m tv pv c -> cell_ok m' tv' pv' c.
Proof. destruct c as [|l i]; [done|]. intros (H1 & H2 & H3). split; [by eapply gr_known|]. split; [by eapply gr_inner|done]. Qed.
Lemma child_grow x : child_ok m tv pv x -> child_ok m' tv' pv' x.
Proof. intros (H1 & l & H2 & H3 & H4 & H5). split; [by apply cell_grow|]. exists l. split; [done|]. split; [done|]. split; [by eapply gr_known|by eapply gr_inner]. Qed.
Lemma ref_grow r : ref_ok m tv pv r -> ref_ok m' tv' pv' r.
Proof. intros (H1 & it & H2 & H3). split; [by eapply gr_known|]. exists it. split; [by eapply gr_dat|done]. Qed.
Lemma refs_grow rs : Forall (ref_ok m tv pv) rs -> Forall (ref_ok m' tv' pv') rs.
Proof. intros H. eapply Forall_impl; [exact H|]. intros x. apply ref_grow. Qed.
Lemma childs_grow xs : Forall (child_ok m tv pv) xs -> Forall (child_ok m' tv' pv') xs.
Proof. intros H. eapply Forall_impl; [exact H|]. intros x. apply child_grow. Qed.
Lemma helds_grow xs : Forall (held m tv pv) xs -> Forall (held m' tv' pv') xs.
Proof. intros H. eapply Forall_impl; [exact H|]. intros x. apply held_grow. Qed.
Lemma cont_grow k : cont_ok m tv pv k -> cont_ok m' tv' pv' k.
Proof. destruct k; try done. intros [H1 H2]. split; [by apply ref_grow|by apply childs_grow]. Qed.
Lemma dat_grow v : dat m tv pv v -> dat m' tv' pv' v.
Proof. intros (l & H1 & H2 & H3 & it & H4). exists l. split; [done|]. split; [done|]. split; [by eapply gr_known|]. exists it. by eapply gr_dat. Qed.
Lemma par_grow (par : option (cell * sh)) : (forall x, par = Some x -> child_ok m tv pv x) -> forall x, par = Some x -> child_ok m' tv' pv' x.
Proof. intros H x Hx. apply child_grow. by apply H. Qed.
Lemma pc_grow p : pc_ok m tv pv p -> pc_ok m' tv' pv' p.
Proof.
  destruct p; simpl.
  - intros (H1 & H2). split; [by apply cell_grow|by apply par_grow].
  - intros (H1 & H2 & H3). split; [by apply cell_grow|]. split; [by apply par_grow|]. destruct kind; [done| |].
    + destruct H3 as [H3 H4]. split; [by apply dat_grow|done].
    + destruct H3 as (H3 & H4 & H5). split; [done|]. split; [done|]. intros x Hx. apply ref_grow. by apply H5.
  - intros (H1 & H2 & H3 & H4 & H5 & H6). split; [by apply cont_grow|]. split; [by apply child_grow|]. split; [done|]. split; [done|]. split; [by apply helds_grow|].
    intros v Hv. apply held_grow. by apply H6.
  - intros (H1 & H2 & H3). split; [by apply cont_grow|]. split; [by apply child_grow|]. destruct ins; [by apply held_grow|]. destruct H3. split; [done|by apply helds_grow].
  - apply cell_grow.
  - intros (H1 & H2). split; [by apply cell_grow|by apply childs_grow].
  - intros (H1 & H2 & H3 & H4). split; [by apply cell_grow|]. split; [by apply childs_grow|]. split; [done|by apply ref_grow].
  - intros (H1 & H2 & H3 & H4). split; [by apply ref_grow|]. split; [by apply childs_grow|]. split; [by apply child_grow|done].
  - done.
  - done.
  - intros (H1 & H2). split; [|by apply refs_grow]. eapply Forall_impl; [exact H1|]. intros x. apply held_grow.
Qed.
Lemma st_grow st : st_ok m tv pv st -> st_ok m' tv' pv' st.
Proof. destruct st; simpl; [apply pc_grow|apply refs_grow|done|done]. Qed.
End grow.
End winv.
