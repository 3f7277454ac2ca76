(** * The structural invariant of running operations; memory safety and absence of panics.
    Nothing here needs the contracts of Eq/Hash. *)
From Verif Require Import Model Mem Inv.

Section safe.
Context {C : Config} {Fl : Flavor}.
Implicit Types (m : mem) (pos : loc -> list nat) (c : cell) (v w : sh) (o : opid) (gs : gset opid).

(** Operation [o] is protected from the destruction of node [l]. *)
Definition prot m o (l : loc) : Prop :=
  is_Some (m_heap m !! l) /\ l ∉ (m_freed m).*1 /\ forall k g, (l, k, g) ∈ m_garb m -> o ∈ g.

Lemma not_dead_prot m o l : is_Some (m_heap m !! l) -> ~ dead m l -> prot m o l.
Proof.
  intros Hh Hd. split; [done|]. split; [intros ?; apply Hd; by right|].
  intros k g Hg. exfalso. apply Hd. left. unfold garb_locs. apply elem_of_list_fmap. exists (l, k, g). done.
Qed.

Lemma dead_garb_or_freed m l : dead m l -> (exists k g, (l, k, g) ∈ m_garb m) \/ l ∈ (m_freed m).*1.
Proof.
  intros [H|H]; [|by right]. left. unfold garb_locs in H. apply elem_of_list_fmap in H as ([[x k] g] & -> & H). eauto.
Qed.

(** ** Classification of the memory updates *)
Inductive mtr gs pos m : (loc -> list nat) -> mem -> Prop :=
| mtr_id : mtr gs pos m pos m
| mtr_tmp b k : mtr gs pos m pos (drop_tmp m b k)
| mtr_mark l i v : cval m (CSlot l i) = Some v -> mtr gs pos m pos (write_cell m (CSlot l i) (recond v))
| mtr_swap na cur v w old : swap_ok pos m na cur v w old -> (forall l k g, old = Some (l, k, g) -> g = gs) ->
    mtr gs pos m (swap_pos pos m na cur) (swap m na cur w old).

Lemma mtr_minv gs pos m pos' m' : minv pos m -> mtr gs pos m pos' m' -> minv pos' m'.
Proof.
  intros Hm []; [done|by apply minv_drop_tmp|by apply minv_mark|by eapply minv_swap].
Qed.

Lemma mtr_ext gs pos m pos' m' : minv pos m -> mtr gs pos m pos' m' -> ext pos m pos' m'.
Proof.
  intros Hm []; [apply ext_refl|apply (ext_refl pos m)|by apply minv_mark|by eapply swap_ext].
Qed.

Lemma mtr_prot gs pos m pos' m' o l : minv pos m -> mtr gs pos m pos' m' -> o ∈ gs -> prot m o l -> prot m' o l.
Proof.
  intros Hm Ht Ho Hp. pose proof (mtr_ext _ _ _ _ _ Hm Ht) as Hext. split.
  { destruct Hp as [Hp _]. apply hbody_is_Some in Hp as [b Hb]. apply hbody_is_Some.
    destruct (Hext _ _ Hb) as [_ Hb']. destruct b; [destruct Hb' as (? & ? & _)|]; eauto. }
  destruct Hp as (_ & Hf & Hg). destruct Ht as [| | |na cur v w old Hs Hold].
  - done.
  - done.
  - done.
  - rewrite (swap_freed Hm Hs), (swap_garb Hm Hs). split; [done|]. intros k g Hin.
    destruct old as [[[x k'] g']|]; [|by eapply Hg]. apply elem_of_cons in Hin as [[= -> -> ->]|Hin]; [|by eapply Hg].
    by rewrite (Hold x k' g').
Qed.

(** Whoever is protected from the destruction of a node is protected from that of the nodes it points to. *)
Definition esafe gs m : Prop :=
  forall o c v B, o ∈ gs -> cval m c = Some v -> sh_loc v = Some B -> (forall A i, c = CSlot A i -> prot m o A) -> prot m o B.

Lemma cval_target_heap pos m c v t : minv pos m -> cval m c = Some v -> sh_loc v = Some t -> is_Some (m_heap m !! t).
Proof.
  intros Hm Hc Ht. pose proof (mi_ptr _ _ Hm _ _ Hc) as Hp. unfold ptr_ok in Hp. rewrite Ht in Hp.
  apply hbody_is_Some. destruct (sh_data v); destruct Hp as (? & ? & _); eauto.
Qed.

Lemma live_target_prot pos m c v t o : minv pos m -> cval m c = Some v -> cell_live m c -> sh_loc v = Some t -> prot m o t.
Proof.
  intros Hm Hc Hl Ht. apply not_dead_prot; [by eapply cval_target_heap|by eapply mi_live].
Qed.

Lemma mtr_esafe gs pos m pos' m' : minv pos m -> mtr gs pos m pos' m' -> esafe gs m -> esafe gs m'.
Proof.
  intros Hm Ht He. pose proof (mtr_minv _ _ _ _ _ Hm Ht) as Hm'.
  intros o c v B Ho Hc HB HA. destruct (cell_live_dec m' c) as [Hl|(l & i & -> & Hd)].
  { by eapply live_target_prot. }
  specialize (HA l i eq_refl).
  pose proof (mtr_prot _ _ _ _ _ o B Hm Ht Ho) as HpB.
  destruct Ht as [|b k|x j u Hu|na cur v0 w old Hs Hold].
  - eapply He; [done|exact Hc|done|]. intros ?? E; by injection E as <- <-.
  - apply HpB. eapply (He o (CSlot l i)); [done|exact Hc|done|]. intros ?? E; by injection E as <- <-.
  - apply HpB. destruct (cval_mark_inv _ _ _ _ _ _ Hu Hc) as (u0 & Hu0 & E & _).
    eapply He; [done|exact Hu0|congruence|intros ?? Eq; injection Eq as <- <-].
    destruct HA as (HA & ? & ?). split; [|done]. simpl in HA.
    destruct (decide (x = l)) as [<-|]; [rewrite lookup_alter, fmap_is_Some in HA|rewrite lookup_alter_ne in HA]; done.
  - apply HpB. pose proof (mi_deadcond _ _ Hm' _ _ _ Hd Hc) as Hvc.
    rewrite (swap_cval Hm Hs) in Hc.
    destruct (decide (CSlot l i = cur)) as [Ec|]; [injection Hc as <-; by rewrite (sw_w _ _ _ _ _ _ _ Hs) in Hvc|].
    destruct (decide (l = m_next m)) as [->|].
    { exfalso. apply (swap_dead Hm Hs) in Hd as [Hd|(k & g & E)]; [by apply (next_not_dead _ _ Hm)|].
      destruct (swap_old_hb Hm Hs _ _ _ E) as (? & Hb & _). by rewrite (next_fresh _ _ Hm) in Hb. }
    eapply He; [done|exact Hc|done|intros ?? Eq; injection Eq as <- <-].
    apply cval_slot in Hc as (sl & Hb & _).
    split; [apply hbody_is_Some; eauto|]. destruct HA as (_ & Hf & Hg).
    rewrite (swap_freed Hm Hs) in Hf. rewrite (swap_garb Hm Hs) in Hg. split; [done|].
    intros k g Hin. apply (Hg k). destruct old; [by right|done].
Qed.

(** ** Well-formedness of what an operation holds *)
Definition vok pos m o (p : list nat) v : Prop := ptr_ok pos m p v /\ forall t, sh_loc v = Some t -> prot m o t.
Definition cok m o c : Prop := is_Some (cval m c) /\ forall l i, c = CSlot l i -> prot m o l.

Definition link_ok pos m o (parent : cell) (child : sh) : Prop :=
  cok m o parent /\ vok pos m o (cpos pos parent) child /\
  sh_cond child = false /\ sh_data child = false /\ is_Some (sh_loc child).

Fixpoint lev_ok pos m o (levels : list (cell * sh)) (cur : cell) : Prop :=
  match levels with
  | [] => cur = CRoot
  | (p, ch) :: rest => link_ok pos m o p ch /\ (exists l i, cur = CSlot l i /\ sh_loc ch = Some l) /\ lev_ok pos m o rest p
  end.

Definition ref_ok m o (r : rref) : Prop :=
  exists it, hbody m (rr_loc r) = Some (BData it) /\ it !! rr_idx r = Some (rr_val r) /\ prot m o (rr_loc r).

Definition par_list (par : option (cell * sh)) (cur : cell) pos m o : Prop :=
  match par with
  | None => cur = CRoot
  | Some (p, ch) => link_ok pos m o p ch /\ exists l i, cur = CSlot l i /\ sh_loc ch = Some l
  end.

(** [child_cnt], [allow_contract], [last_leaf] as functions of the slots seen so far. *)
Definition dlen m v : nat :=
  match sh_loc v with
  | Some t => match hbody m t with Some (BData it) => length it | _ => 0 end
  | None => 0
  end.
Definition summ1 m (x : bool * nat * option sh) (g : sh) : bool * nat * option sh :=
  let '(ac, cnt, last) := x in
  if is_null g then (ac, cnt, last)
  else if sh_data g then (ac, cnt + dlen m g, Some g)
  else (false, S cnt, last).
Definition summ m (new : list sh) : bool * nat * option sh := fold_left (summ1 m) new (true, 0, None).

Definition choose (x : bool * nat * option sh) (new : list sh) : (sh + list sh) * prune_result :=
  match x with
  | (true, 1, Some leaf) => (inl leaf, PRSingleton)
  | (_, 0, None) => (inl sh_null, PRNull)
  | _ => (inr new, PRCopy)
  end.

(** [new] is what has been read from the (now condemned) slots of [child]. *)
Definition marks_ok m (child : sh) (new : list sh) : Prop :=
  forall l j g, sh_loc child = Some l -> new !! j = Some g -> sh_cond g = false /\ cval m (CSlot l j) = Some (recond g).

Definition kont_ok pos m o (k : pcont) (parent : cell) : Prop :=
  match k with
  | KTrav _ | KRem _ _ => True
  | KUp del levels => ref_ok m o del /\ lev_ok pos m o levels parent
  end.

Definition tcas_ok pos m o cur (node : sh) (new : body) (kind : tcas) : Prop :=
  match kind with
  | TKNew => sh_loc node = None /\ exists p, new = BData [p]
  | TKSplit => if tame then exists nl d0, node = Sh (Some nl) false true /\ hbody m nl = Some (BData [d0]) /\
                 new = BInner (<[bits (hashf (keyof d0)) (4 * length (cpos pos cur)) := node]> empty_slots) /\
                 length (cpos pos cur) < 16
               else exists nl d0 i, node = Sh (Some nl) false true /\ hbody m nl = Some (BData [d0]) /\
                 new = BInner (<[i := node]> empty_slots) /\ i < 16 /\ length (cpos pos cur) < 16
  | TKData result => if tame then exists nl it p key, node = Sh (Some nl) false true /\ hbody m nl = Some (BData it) /\
                 new = BData (others key it ++ [p]) /\
                 (length (others key it ++ [p]) = 1 \/ length (cpos pos cur) = 16) /\
                 result = find_ref key nl it
               else exists nl it it', node = Sh (Some nl) false true /\ hbody m nl = Some (BData it) /\
                 new = BData it' /\ it' <> [] /\ placement it' (cpos pos cur) /\ forall r, result = Some r -> rr_loc r = nl /\ it !! rr_idx r = Some (rr_val r)
  end.

Fixpoint istk_ok pos m o (levels : list (sh * nat)) : Prop :=
  match levels with
  | [] => True
  | (v, idx) :: rest => (exists q, length q = length rest /\ vok pos m o q v) /\ istk_ok pos m o rest
  end.

Definition pc_ok pos m o (p : pc) : Prop :=
  match p with
  | TLoad t shift cur par => cok m o cur /\ shift = 4 * length (cpos pos cur) /\ par_list par cur pos m o
  | TCas t shift cur par node new kind =>
      cok m o cur /\ shift = 4 * length (cpos pos cur) /\ par_list par cur pos m o /\
      vok pos m o (cpos pos cur) node /\ sh_cond node = false /\ tcas_ok pos m o cur node new kind
  | PMark k parent child i ac cnt last new =>
      link_ok pos m o parent child /\ kont_ok pos m o k parent /\ i < 16 /\ length new = i /\ marks_ok m child new /\
      summ m new = (ac, cnt, last)
  | PCas k parent child ins pr =>
      link_ok pos m o parent child /\ kont_ok pos m o k parent /\
      exists new, length new = 16 /\ marks_ok m child new /\ (ins, pr) = choose (summ m new) new
  | GLoad k h cur => cok m o cur
  | RLoad k h shift cur levels =>
      cok m o cur /\ shift = 4 * length (cpos pos cur) /\ lev_ok pos m o levels cur
  | RCas k h shift cur levels node new del =>
      cok m o cur /\ shift = 4 * length (cpos pos cur) /\ lev_ok pos m o levels cur /\
      exists nl it, node = Sh (Some nl) false true /\ vok pos m o (cpos pos cur) node /\
        hbody m nl = Some (BData it) /\ (if tame then new = others k it else new = [] \/ placement new (cpos pos cur)) /\ ref_ok m o del /\ rr_loc del = nl /\
        (if tame then keqb (keyof (rr_val del)) k = true else True)
  | RCount del levels parent child i cnt =>
      link_ok pos m o parent child /\ kont_ok pos m o (KUp del levels) parent /\ i < 16
  | ELoad => True
  | INew => True
  | INext levels out => istk_ok pos m o levels /\ Forall (ref_ok m o) out
  end.

Definition res_refs (r : res) : list rref :=
  match r with
  | ROpt (Some x) => [x]
  | ROpt None => []
  | REon e => [eon_inner e]
  | RBool _ => []
  | RIter ys => ys
  end.

Definition st_ok pos m o (st : ostat) : Prop :=
  match st with
  | SRun _ p => pc_ok pos m o p
  | SRet _ r => Forall (ref_ok m o) (res_refs r)
  | SFail _ f => if placed then False else f = FPanic PCollisionShallow
  | SGone => True
  end.

(** ** Stability *)
Section stable.
Context pos m pos' m' o (Hext : ext pos m pos' m') (Hprot : forall l, prot m o l -> prot m' o l).

Lemma vok_st p v : vok pos m o p v -> vok pos' m' o p v.
Proof. intros [H1 H2]. split; [by eapply ptr_ok_ext|eauto]. Qed.
Lemma cok_st c : cok m o c -> cok m' o c.
Proof. intros [[v Hv] H2]. split; [|eauto]. destruct (ext_cval _ _ _ _ _ _ Hext Hv); eauto. Qed.
Lemma cok_cpos c : cok m o c -> cpos pos' c = cpos pos c.
Proof. intros [[v Hv] _]. by eapply ext_cpos. Qed.
Lemma link_st p ch : link_ok pos m o p ch -> link_ok pos' m' o p ch.
Proof.
  intros (H1 & H2 & H3 & H4). split; [by apply cok_st|]. rewrite cok_cpos by done. split; [by apply vok_st|done].
Qed.
Lemma lev_st lv cur : lev_ok pos m o lv cur -> lev_ok pos' m' o lv cur.
Proof. revert cur. induction lv as [|[p ch] lv IH]; intros cur; simpl; [done|]. intros (? & ? & ?). split; [by apply link_st|eauto]. Qed.
Lemma ref_st r : ref_ok m o r -> ref_ok m' o r.
Proof. intros (it & Hb & Hi & Hp). exists it. split; [by eapply ext_data|eauto]. Qed.
Lemma par_st par cur : par_list par cur pos m o -> par_list par cur pos' m' o.
Proof. destruct par as [[p ch]|]; simpl; [|done]. intros [? ?]. split; [by apply link_st|done]. Qed.
Lemma kont_st k parent : kont_ok pos m o k parent -> kont_ok pos' m' o k parent.
Proof. destruct k; simpl; [done|done|]. intros [? ?]. split; [by apply ref_st|by apply lev_st]. Qed.
Lemma marks_st ch new : marks_ok m ch new -> marks_ok m' ch new.
Proof. intros H l j g Hl Hg. destruct (H l j g Hl Hg) as [H1 H2]. split; [done|]. by eapply ext_cond. Qed.
Lemma istk_st lv : istk_ok pos m o lv -> istk_ok pos' m' o lv.
Proof. induction lv as [|[v i] lv IH]; simpl; [done|]. intros [(q & ? & ?) ?]. split; [exists q; split; [done|by apply vok_st]|auto]. Qed.

Lemma summ_st_gen new x :
  (forall g t, g ∈ new -> sh_loc g = Some t -> sh_data g = true -> exists it, hbody m t = Some (BData it)) ->
  fold_left (summ1 m') new x = fold_left (summ1 m) new x.
Proof.
  revert x. induction new as [|g new IH]; intros x Hn; simpl; [done|].
  rewrite IH. 2:{ intros; eapply Hn; [by right|done|done]. }
  f_equal. destruct x as [[ac cnt] last]. unfold summ1, dlen, is_null.
  destruct (sh_loc g) as [t|] eqn:E; [|done]. destruct (sh_data g) eqn:E2; [|done].
  destruct (Hn g t) as [it Hit]; [left|done|done|]. by rewrite Hit, (ext_data _ _ _ _ _ _ Hext Hit).
Qed.

Lemma marks_data ch new l : minv pos m -> marks_ok m ch new -> sh_loc ch = Some l ->
  forall g t, g ∈ new -> sh_loc g = Some t -> sh_data g = true -> exists it, hbody m t = Some (BData it).
Proof.
  intros Hm Hmk Hl g t [j Hj]%elem_of_list_lookup Ht Hd. destruct (Hmk l j g Hl Hj) as [_ Hc].
  apply (mi_ptr _ _ Hm) in Hc. unfold ptr_ok, recond in Hc. simpl in Hc. rewrite Ht, Hd in Hc.
  destruct Hc as (it & ? & _). eauto.
Qed.

Lemma summ_st ch new : minv pos m -> is_Some (sh_loc ch) -> marks_ok m ch new -> summ m' new = summ m new.
Proof. intros Hm [l Hl] Hmk. apply summ_st_gen. by eapply marks_data. Qed.

Lemma tcas_st cur node new kind : cok m o cur -> tcas_ok pos m o cur node new kind -> tcas_ok pos' m' o cur node new kind.
Proof.
  intros Hc. unfold tcas_ok. rewrite (cok_cpos cur Hc). destruct kind; [done|destruct tame..].
  - intros (nl & d0 & ? & ? & ?). exists nl, d0. split; [done|]. split; [by eapply ext_data|done].
  - intros (nl & d0 & i & ? & ? & ?). exists nl, d0, i. split; [done|]. split; [by eapply ext_data|done].
  - intros (nl & it & p & key & ? & ? & ?). exists nl, it, p, key. split; [done|]. split; [by eapply ext_data|done].
  - intros (nl & it & it' & ? & ? & ?). exists nl, it, it'. split; [done|]. split; [by eapply ext_data|done].
Qed.

Lemma pc_st p : minv pos m -> pc_ok pos m o p -> pc_ok pos' m' o p.
Proof.
  intros Hm. destruct p; simpl.
  - intros (? & ? & ?). rewrite cok_cpos by done. eauto using cok_st, par_st.
  - intros (? & ? & ? & ? & ? & ?). rewrite cok_cpos by done. repeat split_and; eauto using cok_st, par_st, vok_st, tcas_st.
  - intros (H1 & ? & ? & ? & ? & ?). rewrite (summ_st child) by (done || apply H1).
    repeat split_and; eauto using link_st, kont_st, marks_st.
  - intros (H1 & ? & new & ? & ? & ?). split; [by apply link_st|]. split; [by apply kont_st|].
    exists new. rewrite (summ_st child) by (done || apply H1). eauto using marks_st.
  - apply cok_st.
  - intros (? & ? & ?). rewrite cok_cpos by done. eauto using cok_st, lev_st.
  - intros (? & ? & ? & nl & it & ? & ? & ? & ? & ? & ?). rewrite cok_cpos by done.
    split; [by apply cok_st|]. split; [done|]. split; [by apply lev_st|]. exists nl, it.
    split; [done|]. split; [by apply vok_st|]. split; [by eapply ext_data|]. split; [done|]. split; [by apply ref_st|done].
  - intros (? & [? ?] & ?). split; [by apply link_st|]. split; [|done]. split; [by apply ref_st|by apply lev_st].
  - done.
  - done.
  - intros [? HF]. split; [by apply istk_st|]. eapply Forall_impl; [exact HF|apply ref_st].
Qed.

Lemma st_st st : minv pos m -> st_ok pos m o st -> st_ok pos' m' o st.
Proof.
  destruct st; simpl; [| |done|done].
  - intros. by apply pc_st.
  - intros _ HF. eapply Forall_impl; [exact HF|apply ref_st].
Qed.
End stable.
End safe.
