(** * Reclamation on weakly ordered memory, 1: as long as no freed node is touched, freeing nodes and using their addresses again makes no difference. *)
From Verif Require Import Model Mem Spec Weak WeakCoh WeakFree.

Section sim.
Context {C : Config} (w : orders).
Implicit Types (m : mem) (c : cell) (v : sh) (o : opid) (p : pc) (l : loc) (s : wstate).

(** ** The pointers a call holds: the node, and whether it is held as a data node *)
Definition sptr v : list (loc * bool) := match sh_loc v with Some l => [(l, sh_data v)] | None => [] end.
Definition cptr c : list (loc * bool) := match c with CRoot => [] | CSlot l _ => [(l, false)] end.
Definition rptr (r : rref) : list (loc * bool) := [(rr_loc r, true)].
#[local] Arguments rptr : simpl never.
Definition lptr (lv : list (cell * sh)) : list (loc * bool) := x ← lv; cptr x.1 ++ sptr x.2.
Definition optr {A} (f : A -> list (loc * bool)) (x : option A) : list (loc * bool) := match x with Some a => f a | None => [] end.
Definition bptr (b : body) : list (loc * bool) := match b with BInner sl => sl ≫= sptr | BData _ => [] end.
Definition kptr (k : pcont) : list (loc * bool) := match k with KUp del lv => rptr del ++ lptr lv | _ => [] end.
Definition pptr p : list (loc * bool) :=
  match p with
  | TLoad _ _ cur par => cptr cur ++ optr (fun x => cptr x.1 ++ sptr x.2) par
  | TCas _ _ cur par node new kind => cptr cur ++ optr (fun x => cptr x.1 ++ sptr x.2) par ++ sptr node ++ bptr new ++ match kind with TKData r => optr rptr r | _ => [] end
  | PMark k parent child _ _ _ last new => kptr k ++ cptr parent ++ sptr child ++ optr sptr last ++ (new ≫= sptr)
  | PCas k parent child ins _ => kptr k ++ cptr parent ++ sptr child ++ match ins with inl v => sptr v | inr sl => sl ≫= sptr end
  | GLoad _ _ cur => cptr cur
  | RLoad _ _ _ cur lv => cptr cur ++ lptr lv
  | RCas _ _ _ cur lv node _ del => cptr cur ++ lptr lv ++ sptr node ++ rptr del
  | RCount del lv parent child _ _ => rptr del ++ lptr lv ++ cptr parent ++ sptr child
  | ELoad | INew => []
  | INext lv out => (lv ≫= fun x => sptr x.1) ++ (out ≫= rptr)
  end.
Definition resptr (r : res) : list (loc * bool) :=
  match r with ROpt x => optr rptr x | REon e => rptr (eon_inner e) | RBool _ => [] | RIter ys => ys ≫= rptr end.
Definition nptr (nx : next) : list (loc * bool) := match nx with NRun p => pptr p | NRet r => resptr r | NFail _ => [] end.

(** ** The memory without the frees: every node has an address of its own *)
Definition bm m : mem := Mem (m_root m) (map_imap (fun l x => Some (HObj (N.pos l) (ho_body x))) (m_heap m)) (m_garb m) [] (m_tmp m) (m_next m).
Definition bmap (r : sres) : sres := match r with Some (m', nx, acts) => Some (bm m', nx, acts) | None => None end.

(** Node [l] is there; the pointer does not dangle. *)
Definition here m l : Prop := freed m l = false /\ is_Some (m_heap m !! l).
Definition vhere m v : Prop := forall l, sh_loc v = Some l -> here m l.
(** The nodes that are not freed are at different addresses. *)
Definition aok m : Prop := forall l x, m_heap m !! l = Some x -> freed m l = false -> ho_addr x <> 0%N /\ forall l' x', m_heap m !! l' = Some x' -> freed m l' = false -> ho_addr x = ho_addr x' -> l = l'.
Definition nok m : Prop := forall l, is_Some (m_heap m !! l) -> (l < m_next m)%positive.

Lemma bm_heap m l : m_heap (bm m) !! l = (fun x => HObj (N.pos l) (ho_body x)) <$> m_heap m !! l.
Proof. simpl. rewrite map_lookup_imap. by destruct (m_heap m !! l). Qed.
Lemma bm_hbody m l : hbody (bm m) l = hbody m l.
Proof. unfold hbody. rewrite bm_heap. by destruct (m_heap m !! l). Qed.
Lemma bm_cval m c : cval (bm m) c = cval m c.
Proof. destruct c as [|l i]; [done|]. unfold cval. by rewrite bm_hbody. Qed.
Lemma bm_deref m l : freed m l = false -> deref (bm m) l = deref m l.
Proof. intros Hf. unfold deref. rewrite Hf. assert (freed (bm m) l = false) as -> by (apply bool_decide_eq_false; apply not_elem_of_nil). apply bm_hbody. Qed.
Lemma bm_read m c : (forall l i, c = CSlot l i -> freed m l = false) -> read_cell (bm m) c = read_cell m c.
Proof. intros Hc. destruct c as [|l i]; [done|]. unfold read_cell. by rewrite (bm_deref m l) by (by eapply Hc). Qed.
Lemma bm_load m v : vhere m v -> load_data (bm m) v = load_data m v.
Proof. intros Hv. unfold load_data. destruct (negb _); [done|]. destruct (sh_loc v) as [l|] eqn:E; [|done]. by rewrite bm_deref by (by apply (Hv l)). Qed.
Lemma bm_same m v u : aok m -> vhere m v -> vhere m u -> sh_same (bm m) v u = sh_same m v u.
Proof.
  intros Ha Hv Hu. unfold sh_same. f_equal. f_equal. unfold paddr.
  destruct (sh_loc v) as [l|] eqn:Ev, (sh_loc u) as [l'|] eqn:Eu; rewrite ?bm_heap; try done.
  - destruct (Hv l Ev) as [Hf [x Hx]], (Hu l' Eu) as [Hf' [x' Hx']]. rewrite Hx, Hx'. simpl. destruct (Ha l x Hx Hf) as [_ Hi].
    destruct (N.eqb_spec (ho_addr x) (ho_addr x')) as [E|E]; simpl.
    + assert (l = l') as <- by (by eapply Hi). apply Pos.eqb_refl.
    + apply Pos.eqb_neq. intros ->. congruence.
  - destruct (Hv l Ev) as [Hf [x Hx]]. rewrite Hx. simpl. destruct (Ha l x Hx Hf) as [Hnz _]. symmetry. by apply N.eqb_neq.
  - destruct (Hu l' Eu) as [Hf [x Hx]]. rewrite Hx. simpl. destruct (Ha l' x Hx Hf) as [Hnz _]. by destruct (ho_addr x).
Qed.
Lemma bm_free m : nok m -> addr_free (bm m) (N.pos (m_next m)) = true.
Proof.
  intros Hn. unfold addr_free. apply andb_true_iff. split; [done|]. apply forallb_forall. intros [l x] Hin. apply elem_of_list_In, elem_of_map_to_list in Hin.
  rewrite bm_heap in Hin. apply fmap_Some in Hin as (y & Hy & ->). apply orb_true_iff. right. simpl. apply negb_true_iff, Pos.eqb_neq. specialize (Hn l ltac:(eauto)). lia.
Qed.
Lemma bm_write m c v : write_cell (bm m) c v = bm (write_cell m c v).
Proof.
  destruct c as [|l i]; [done|]. unfold bm. simpl. f_equal. apply map_eq. intros l'. rewrite map_lookup_imap. destruct (decide (l = l')) as [<-|Hne].
  - rewrite !lookup_alter, map_lookup_imap. destruct (m_heap m !! l) as [[a [sl|it]]|]; done.
  - rewrite !lookup_alter_ne, map_lookup_imap by done. done.
Qed.
Lemma bm_alloc m a b : alloc (bm m) (N.pos (m_next m)) b = bm (alloc m a b).
Proof.
  unfold bm, alloc. simpl. f_equal. apply map_eq. intros l'. rewrite map_lookup_imap. destruct (decide (m_next m = l')) as [<-|Hne].
  - by rewrite !lookup_insert.
  - rewrite !lookup_insert_ne, map_lookup_imap by done. done.
Qed.
Lemma bm_rem_up m d levels : rem_up (bm m) d levels = bmap (rem_up m d levels).
Proof. unfold rem_up. by repeat case_match. Qed.
Lemma bm_prune_start m k pa ch : prune_start (bm m) k pa ch = bmap (prune_start m k pa ch).
Proof. unfold prune_start. by repeat case_match. Qed.
Lemma bm_prune_return m k pr : prune_return (bm m) k pr = bmap (prune_return m k pr).
Proof. unfold prune_return. repeat case_match; try done. all: apply bm_rem_up. Qed.
Lemma bm_prune_decide m k pa ch ac cnt la new : prune_decide (bm m) k pa ch ac cnt la new = bmap (prune_decide m k pa ch ac cnt la new).
Proof. unfold prune_decide. by repeat case_match. Qed.
Lemma bm_t_finish m t r acts : t_finish (bm m) t r acts = bmap (t_finish m t r acts).
Proof. unfold t_finish. by repeat case_match. Qed.

(** ** The step of an operation *)
Definition phere m p : Prop := forall l b, (l, b) ∈ pptr p -> here m l.
Definition rhere m p : Prop := forall c kd ord v, access w p = Some (c, kd, ord) -> read_cell m c = Some v -> vhere m v.

Lemma vhere_ptr m v : (forall l b, (l, b) ∈ sptr v -> here m l) -> vhere m v.
Proof. intros Hp l E. apply (Hp l (sh_data v)). unfold sptr. rewrite E. by left. Qed.
Lemma phere_cell m p c : phere m p -> (forall x, x ∈ cptr c -> x ∈ pptr p) -> forall l i, c = CSlot l i -> freed m l = false.
Proof. intros Hp Hc l i ->. apply (Hp l false). apply Hc. by left. Qed.

Ltac inp := simpl; rewrite ?elem_of_app; tauto.

Lemma op_step_bm m p spur a : aok m -> nok m -> phere m p -> rhere m p -> op_step ∅ m p spur a <> None ->
  op_step ∅ (bm m) p spur (N.pos (m_next m)) = bmap (op_step ∅ m p spur a).
Proof.
  intros Ha Hn Hp Hr Hnn. pose proof (bm_free m Hn) as Hfr.
  assert (forall c kd ord, access w p = Some (c, kd, ord) -> (forall x, x ∈ cptr c -> x ∈ pptr p) -> read_cell (bm m) c = read_cell m c) as R.
  { intros c kd ord _ Hc. apply bm_read. by eapply phere_cell. }
  destruct p; cbn [op_step] in *.
  - rewrite (R _ _ _ eq_refl) by (intros; inp). destruct (read_cell m cur) as [node|] eqn:Er; [|done]. pose proof (Hr _ _ _ _ eq_refl Er) as Hv.
    destruct (sh_cond node). { destruct par as [[? ?]|]; [apply bm_prune_start|done]. }
    destruct (is_null node). { by destruct (ts_payload (t_st t)) as [[? ?] ?]. } rewrite (bm_load m node Hv).
    repeat (case_match; try done). all: apply bm_t_finish.
  - rewrite (R _ _ _ eq_refl) by (intros; inp). destruct (read_cell m cur) as [now|] eqn:Er; [|done]. pose proof (Hr _ _ _ _ eq_refl Er) as Hv.
    destruct (addr_free m a); [|done]. rewrite Hfr. cbn [negb] in *.
    assert (vhere m node) as Hnode by (apply vhere_ptr; intros l b Hx; apply (Hp l b); inp).
    rewrite (bm_same m now node) by done. destruct (sh_same m now node && negb spur); [|done].
    rewrite (bm_alloc m a), bm_write. destruct kind as [| |result].
    + repeat (case_match; try done). all: apply bm_t_finish.
    + done.
    + destruct (sh_loc node) as [old|]; [|done]. destruct (negb (sh_data node)); [done|].
      change (retire (bm (write_cell (alloc m a new) cur (Sh (Some (m_next (bm m))) false (match new with BInner _ => false | BData _ => true end)))) old KData ∅)
        with (bm (retire (write_cell (alloc m a new) cur (Sh (Some (m_next m)) false (match new with BInner _ => false | BData _ => true end))) old KData ∅)).
      destruct new as [|it]; [done|]. repeat (case_match; try done). all: apply bm_t_finish.
  - destruct (sh_loc child) as [l|] eqn:El; [|done]. assert (forall x, x ∈ cptr (CSlot l i) -> here m l) as Hhl. { intros x _. apply (Hp l (sh_data child)). simpl. rewrite !elem_of_app. right. right. left. unfold sptr. rewrite El. by left. }
    rewrite bm_read. 2:{ intros l' i' [= <- <-]. apply (Hhl (l, false)). by left. } destruct (read_cell m (CSlot l i)) as [v|] eqn:Er; [|done].
    assert (vhere m v) as Hv. { apply (Hr (CSlot l i) AFetch (o_mark w) v); [simpl; by rewrite El|done]. }
    rewrite bm_write. rewrite (bm_load (write_cell m (CSlot l i) (recond v)) (uncond v)).
    2:{ intros x Hx. destruct (Hv x Hx) as [H1 H2]. split; [done|]. simpl. destruct (decide (l = x)) as [<-|]; [rewrite lookup_alter, fmap_is_Some|rewrite lookup_alter_ne]; done. }
    destruct (if is_null (uncond v) then _ else _) as [f|[[ac' cnt'] last']]; [done|]. destruct (S i <? LEVEL_CELLS); [done|]. apply bm_prune_decide.
  - rewrite (R _ _ _ eq_refl) by (intros; inp). destruct (read_cell m parent) as [now|] eqn:Er; [|done]. pose proof (Hr _ _ _ _ eq_refl Er) as Hv.
    assert (vhere m child) as Hch by (apply vhere_ptr; intros l b Hx; apply (Hp l b); inp).
    rewrite (bm_same m now child) by done. rewrite Hfr.
    destruct ins as [v|sl].
    + replace (match addr_free m a with true | _ => _ end) with (if sh_same m now child then match sh_loc child with Some l => prune_return (retire (write_cell m parent v) l KInner ∅) k pr | None => ok (write_cell m parent v) (NFail FUB) end else prune_return m k PRCasFail) by (by destruct (addr_free m a)).
      destruct (sh_same m now child); [|apply bm_prune_return]. rewrite bm_write. destruct (sh_loc child) as [l|]; [|done].
      change (retire (bm (write_cell m parent v)) l KInner ∅) with (bm (retire (write_cell m parent v) l KInner ∅)). apply bm_prune_return.
    + destruct (addr_free m a); [|done]. destruct (sh_same m now child); [|apply (bm_prune_return (drop_tmp m (BInner sl) KInner))].
      rewrite (bm_alloc m a), bm_write. destruct (sh_loc child) as [l|]; [|done].
      change (retire (bm (write_cell (alloc m a (BInner sl)) parent (Sh (Some (m_next (bm m))) false false))) l KInner ∅)
        with (bm (retire (write_cell (alloc m a (BInner sl)) parent (Sh (Some (m_next m)) false false)) l KInner ∅)). apply bm_prune_return.
  - rewrite (R _ _ _ eq_refl) by (intros; inp). destruct (read_cell m cur) as [node|] eqn:Er; [|done]. rewrite (bm_load m node) by (by eapply Hr). by repeat case_match.
  - rewrite (R _ _ _ eq_refl) by (intros; inp). destruct (read_cell m cur) as [node|] eqn:Er; [|done]. rewrite (bm_load m node) by (by eapply Hr). destruct (is_null node); [done|].
    destruct (sh_cond node). { destruct levels as [|[? ?] ?]; [done|]. apply bm_prune_start. } by repeat case_match.
  - rewrite (R _ _ _ eq_refl) by (intros; inp). destruct (read_cell m cur) as [now|] eqn:Er; [|done]. pose proof (Hr _ _ _ _ eq_refl Er) as Hv.
    assert (vhere m node) as Hnode by (apply vhere_ptr; intros l b Hx; apply (Hp l b); inp).
    rewrite (bm_same m now node) by done. rewrite Hfr.
    destruct new as [|p new].
    + replace (match addr_free m a with true | _ => _ end) with (if sh_same m now node && negb spur then if negb (sh_data node) then panics (write_cell m cur sh_null) PReplaceNotData else match sh_loc node with Some l => rem_up (retire (write_cell m cur sh_null) l KData ∅) del levels | None => ok (write_cell m cur sh_null) (NFail FUB) end else ok m (NRun (RLoad k h shift cur levels))) by (by destruct (addr_free m a)).
      destruct (sh_same m now node && negb spur); [|done]. rewrite bm_write. destruct (negb (sh_data node)); [done|]. destruct (sh_loc node) as [old|]; [|done].
      change (retire (bm (write_cell m cur sh_null)) old KData ∅) with (bm (retire (write_cell m cur sh_null) old KData ∅)). apply bm_rem_up.
    + destruct (addr_free m a); [|done]. destruct (sh_same m now node && negb spur); [|done].
      rewrite (bm_alloc m a), bm_write. destruct (negb (sh_data node)); [done|]. destruct (sh_loc node) as [old|]; [|done].
      change (retire (bm (write_cell (alloc m a (BData (p :: new))) cur (Sh (Some (m_next (bm m))) false true))) old KData ∅)
        with (bm (retire (write_cell (alloc m a (BData (p :: new))) cur (Sh (Some (m_next m)) false true)) old KData ∅)). apply bm_rem_up.
  - destruct (sh_loc child) as [l|] eqn:El; [|done]. assert (here m l) as Hhl. { apply (Hp l (sh_data child)). cbn [pptr]. rewrite !elem_of_app. right. right. right. unfold sptr. rewrite El. by left. }
    rewrite bm_read. 2:{ intros l' i' [= <- <-]. apply Hhl. } destruct (read_cell m (CSlot l i)) as [v|]; [|done]. destruct (S i <? LEVEL_CELLS); [done|]. destruct (1 <? _); [done|]. apply bm_prune_start.
  - done.
  - done.
  - destruct levels as [|[v idx] rest]; [done|]. assert (vhere m v) as Hv. { apply vhere_ptr. intros l b Hx. apply (Hp l b). cbn [pptr]. rewrite elem_of_app, elem_of_list_bind. left. exists (v, idx). split; [exact Hx|by left]. }
    rewrite (bm_load m v Hv). destruct (is_null v); [done|].
    destruct (sh_data v); [by repeat case_match|]. destruct (idx <? LEVEL_CELLS); [|done]. destruct (sh_loc v) as [l|] eqn:El; [|done].
    rewrite bm_read. 2:{ intros l' i' [= <- <-]. by apply Hv. } by repeat case_match.
Qed.

(** ** Where the pointers a call holds come from: it held them before, has just read them, or has just allocated the node *)
(** The accesses whose result the call keeps: those of 808 and 840 are only compared with null, and a compare-and-set that fails is tried again with a new load. *)
Definition keeps (k : akind) : bool := match k with ALoad | AFetch => true | ATest | ACas => false end.
Definition src m p m' (x : loc * bool) : Prop :=
  x ∈ pptr p \/ (exists c kd ord v, access w p = Some (c, kd, ord) /\ read_cell m c = Some v /\ x ∈ sptr v /\ keeps kd = true) \/ x = (m_next m, true) /\ m_next m' <> m_next m.

Lemma find_ref_ptr k l it r : find_ref k l it = Some r -> rptr r = [(l, true)].
Proof. unfold find_ref. destruct (find_idx k 0 it) as [[? ?]|]; [|done]. by intros [= <-]. Qed.
Lemma rem_up_ptr m d lv m' nx acts x : rem_up m d lv = Some (m', nx, acts) -> x ∈ nptr nx -> x ∈ rptr d ++ lptr lv.
Proof.
  unfold rem_up. destruct lv as [|[pa ch] lv]; [intros [= <- <- <-]; rewrite app_nil_r; done|]. destruct (is_null ch); intros [= <- <- <-]; [by intros ?%elem_of_nil|].
  cbn [nptr pptr lptr]. unfold lptr. rewrite bind_cons, !elem_of_app. simpl. rewrite ?elem_of_app. tauto.
Qed.
Lemma prune_start_ptr m k pa ch m' nx acts x : prune_start m k pa ch = Some (m', nx, acts) -> x ∈ nptr nx -> x ∈ kptr k ++ cptr pa ++ sptr ch.
Proof.
  unfold prune_start. destruct (sh_data ch); [intros [= <- <- <-]; by intros ?%elem_of_nil|]. destruct (is_null ch); intros [= <- <- <-]; [by intros ?%elem_of_nil|].
  cbn [nptr pptr optr]. simpl. rewrite !app_nil_r. done.
Qed.
Lemma prune_return_ptr m k pr m' nx acts x : prune_return m k pr = Some (m', nx, acts) -> x ∈ nptr nx -> x ∈ kptr k.
Proof.
  unfold prune_return. destruct k; [intros [= <- <- <-]; by intros ?%elem_of_nil..|]. destruct pr; try apply rem_up_ptr.
  intros [= <- <- <-]. cbn [nptr resptr kptr optr]. rewrite elem_of_app. tauto.
Qed.
Lemma prune_decide_ptr m k pa ch ac cnt la new m' nx acts x : prune_decide m k pa ch ac cnt la new = Some (m', nx, acts) -> x ∈ nptr nx ->
  x ∈ kptr k ++ cptr pa ++ sptr ch ++ optr sptr la ++ (new ≫= sptr).
Proof.
  unfold prune_decide. destruct (_ || _); intros [= <- <- <-]; [by intros ?%elem_of_nil|]. cbn [nptr pptr]. rewrite !elem_of_app.
  destruct ac, cnt as [|[|?]], la; simpl; rewrite ?elem_of_nil; tauto.
Qed.
Lemma t_finish_ptr m t r acts0 m' nx acts x : t_finish m t r acts0 = Some (m', nx, acts) -> x ∈ nptr nx -> x ∈ optr (fun e => rptr (eon_inner e)) r.
Proof.
  unfold t_finish. destruct (t_mode t); [intros [= <- <- <-]; by destruct r|]. destruct r; intros [= <- <- <-]; [done|by intros ?%elem_of_nil].
Qed.

Lemma op_step_src m p spur a m' nx acts x : op_step ∅ m p spur a = Some (m', nx, acts) -> x ∈ nptr nx -> src m p m' x.
Proof.
  intros H Hx. unfold src. destruct p; cbn [op_step] in H; set (RD := exists c kd ord v, _); set (NW := _ /\ _).
  - destruct (read_cell m cur) as [node|] eqn:Er; [|injection H as <- <- <-; by apply elem_of_nil in Hx].
    assert (x ∈ sptr node -> RD) as Hread.
    { intros Hy. exists cur, ALoad, (o_trav w), node. done. }
    destruct (sh_cond node).
    { destruct par as [[pa ch]|]; [|injection H as <- <- <-; by apply elem_of_nil in Hx]. eapply prune_start_ptr in H; [|exact Hx]. left. simpl in *. rewrite !elem_of_app in *. tauto. }
    destruct (is_null node).
    { destruct (ts_payload (t_st t)) as [[pl st'] call]. injection H as <- <- <-. cbn [nptr pptr bptr] in Hx. rewrite !elem_of_app, !elem_of_nil in Hx. cbn [pptr]. rewrite elem_of_app. tauto. }
    destruct (sh_data node) eqn:Ed.
    { destruct (load_data m node) as [f|[|d0 it]]; [injection H as <- <- <-; by apply elem_of_nil in Hx..|].
      destruct (_ && _).
      - destruct (negb _); [injection H as <- <- <-; by apply elem_of_nil in Hx|]. injection H as <- <- <-. cbn [nptr pptr] in Hx. rewrite !elem_of_app, elem_of_nil in Hx.
        assert (x ∈ bptr (BInner (<[bits (hashf (keyof d0)) shift:=node]> empty_slots)) -> x ∈ sptr node) as Hb.
        { cbn [bptr]. rewrite elem_of_list_bind. intros (y & Hy & Hin). apply elem_of_list_lookup in Hin as [j Hj]. apply list_lookup_insert_Some in Hj as [(_ & -> & _)|[_ Hj]]; [done|].
          apply lookup_replicate in Hj as [-> _]. by apply elem_of_nil in Hy. }
        cbn [pptr]. rewrite elem_of_app. tauto.
      - set (result := match sh_loc node with Some l => _ | None => _ end) in H.
        assert (forall r, result = Some r -> rptr r = sptr node) as Hres. { intros r. unfold result, sptr. rewrite Ed. destruct (sh_loc node) as [l|]; [|done]. apply find_ref_ptr. }
        assert (forall pl st' (call : option Key), Some (m, NRun (TCas (t_with t st') shift cur par node (BData (others (ts_key (t_st t)) (d0 :: it) ++ [pl])) (TKData result)), match call with Some k => [ACall k] | None => [] end) = Some (m', nx, acts) ->
          x ∈ pptr (TLoad t shift cur par) \/ RD) as Hgo.
        { intros pl st' call E. injection E as <- <- <-. cbn [nptr pptr bptr] in Hx. rewrite !elem_of_app, elem_of_nil in Hx. destruct result as [r|]; simpl optr in Hx; [rewrite (Hres r eq_refl) in Hx|rewrite elem_of_nil in Hx]; cbn [pptr]; rewrite elem_of_app; tauto. }
        destruct result as [r|]; [destruct (t_mode t)|].
        + destruct (ts_payload (t_st t)) as [[pl st'] call]. apply Hgo in H. tauto.
        + eapply t_finish_ptr in H; [|exact Hx]. simpl in H. change (x ∈ rptr r) in H. rewrite (Hres r eq_refl) in H. tauto.
        + destruct (ts_payload (t_st t)) as [[pl st'] call]. apply Hgo in H. tauto. }
    destruct (sh_loc node) as [l|] eqn:El; [|injection H as <- <- <-; by apply elem_of_nil in Hx]. destruct (_ <=? _); injection H as <- <- <-; [by apply elem_of_nil in Hx|].
    assert (sptr node = [(l, false)]) as Es by (unfold sptr; by rewrite El, Ed). rewrite Es in Hread. cbn [nptr pptr optr cptr fst snd] in Hx |- *. rewrite Es, !elem_of_app in Hx. rewrite elem_of_app. tauto.
  - destruct (read_cell m cur) as [now|] eqn:Er; [|injection H as <- <- <-; by apply elem_of_nil in Hx].
    destruct (negb (addr_free m a)); [done|]. destruct (_ && _).
    2:{ injection H as <- <- <-. cbn [nptr pptr] in *. rewrite !elem_of_app in *. tauto. }
    assert (m_next (write_cell (alloc m a new) cur (Sh (Some (m_next m)) false (match new with BInner _ => false | BData _ => true end))) <> m_next m) as Hne.
    { destruct cur; simpl; lia. }
    destruct kind as [| |result].
    + destruct new as [|[|p0 it]]; try (injection H as <- <- <-; by apply elem_of_nil in Hx). pose proof (t_finish_ptr _ _ _ _ _ _ _ _ H Hx) as Hy. destruct (t_mode t) eqn:Em; [by apply elem_of_nil in Hy|].
      simpl in Hy. apply elem_of_list_singleton in Hy as ->. right. right. split; [done|]. unfold t_finish in H. rewrite Em in H. by injection H as <- _ _.
    + injection H as <- <- <-. cbn [nptr pptr] in *. rewrite !elem_of_app in *. tauto.
    + destruct (sh_loc node) as [old|]; [|injection H as <- <- <-; by apply elem_of_nil in Hx]. destruct (negb _); [injection H as <- <- <-; by apply elem_of_nil in Hx|].
      destruct new as [|it]; [injection H as <- <- <-; by apply elem_of_nil in Hx|].
      assert (t_finish (retire (write_cell (alloc m a (BData it)) cur (Sh (Some (m_next m)) false true)) old KData ∅) t (Existing <$> result) [] = Some (m', nx, acts) ->
        x ∈ pptr (TCas t shift cur par node (BData it) (TKData result))) as Hold.
      { intros H'. eapply t_finish_ptr in H'; [|exact Hx]. cbn [pptr]. rewrite !elem_of_app. right. right. right. right. by destruct result. }
      destruct result as [r|]; [left; apply Hold; by destruct (t_mode t)|]. destruct (t_mode t) eqn:Em; [left; by apply Hold|].
      destruct (it !! _) as [pl|]; [|injection H as <- <- <-; by apply elem_of_nil in Hx]. pose proof (t_finish_ptr _ _ _ _ _ _ _ _ H Hx) as Hy.
      simpl in Hy. apply elem_of_list_singleton in Hy as ->. right. right. split; [done|]. unfold t_finish in H. rewrite Em in H. by injection H as <- _ _.
  - destruct (sh_loc child) as [l|] eqn:El; [|injection H as <- <- <-; by apply elem_of_nil in Hx]. destruct (read_cell m (CSlot l i)) as [v|] eqn:Er; [|injection H as <- <- <-; by apply elem_of_nil in Hx].
    destruct (if is_null (uncond v) then _ else _) as [f|[[ac' cnt'] last']] eqn:Ei; [injection H as <- <- <-; by apply elem_of_nil in Hx|].
    assert (x ∈ sptr v -> RD) as Hread.
    { intros Hy. exists (CSlot l i), AFetch, (o_mark w), v. cbn [access]. by rewrite El. }
    assert (x ∈ optr sptr last' -> x ∈ optr sptr last \/ x ∈ sptr v) as Hl.
    { destruct (is_null (uncond v)); [injection Ei as _ _ <-; by left|]. destruct (sh_data (uncond v)); [|injection Ei as _ _ <-; by left]. destruct (load_data _ _); [done|]. injection Ei as _ _ <-. by right. }
    assert (x ∈ (new ++ [uncond v]) ≫= sptr -> x ∈ new ≫= sptr \/ x ∈ sptr v) as Hnw.
    { rewrite bind_app, elem_of_app, bind_singleton. by intros [?|?]; [left|right]. }
    assert (x ∈ kptr k ++ cptr parent ++ sptr child ++ optr sptr last' ++ ((new ++ [uncond v]) ≫= sptr)) as Hall.
    { destruct (S i <? LEVEL_CELLS); [injection H as <- <- <-; exact Hx|]. by eapply prune_decide_ptr. }
    cbn [pptr] in *. rewrite !elem_of_app in *. tauto.
  - destruct (read_cell m parent) as [now|] eqn:Er; [|injection H as <- <- <-; by apply elem_of_nil in Hx].
    assert (forall m1 pr1, prune_return m1 k pr1 = Some (m', nx, acts) -> x ∈ pptr (PCas k parent child ins pr)) as Hret. { intros m1 pr1 Hr. eapply prune_return_ptr in Hr; [|exact Hx]. cbn [pptr]. rewrite elem_of_app. by left. }
    left. destruct ins as [v|sl]; [|destruct (addr_free m a); [|done]]; (destruct (sh_same m now child); [|by eapply Hret]); destruct (sh_loc child); try (by eapply Hret); injection H as <- <- <-; by apply elem_of_nil in Hx.
  - destruct (read_cell m cur) as [node|] eqn:Er; [|injection H as <- <- <-; by apply elem_of_nil in Hx]. destruct (is_null node); [injection H as <- <- <-; by apply elem_of_nil in Hx|].
    assert (x ∈ sptr node -> RD) as Hread.
    { intros Hy. exists cur, ALoad, (o_get w), node. done. }
    destruct (sh_data node) eqn:Ed.
    + destruct (load_data m node) as [f|it]; injection H as <- <- <-; [by apply elem_of_nil in Hx|]. right. left. apply Hread. unfold sptr. destruct (sh_loc node) as [l|]; [|by apply elem_of_nil in Hx]. rewrite Ed.
      cbn [nptr resptr] in Hx. destruct (find_ref k l it) as [r|] eqn:Ef; [|by apply elem_of_nil in Hx]. simpl optr in Hx. by rewrite (find_ref_ptr _ _ _ _ Ef) in Hx.
    + destruct (sh_loc node) as [l|] eqn:El; injection H as <- <- <-; [|by apply elem_of_nil in Hx]. right. left. apply Hread. unfold sptr. rewrite El, Ed. exact Hx.
  - destruct (read_cell m cur) as [node|] eqn:Er; [|injection H as <- <- <-; by apply elem_of_nil in Hx]. destruct (is_null node); [injection H as <- <- <-; by apply elem_of_nil in Hx|].
    assert (x ∈ sptr node -> RD) as Hread.
    { intros Hy. exists cur, ALoad, (o_rem w), node. done. }
    destruct (sh_cond node).
    { destruct levels as [|[pa ch] lv]; [injection H as <- <- <-; by apply elem_of_nil in Hx|]. eapply prune_start_ptr in H; [|exact Hx]. left. cbn [pptr]. unfold lptr. rewrite bind_cons. simpl in *. rewrite !elem_of_app in *. tauto. }
    destruct (sh_data node) eqn:Ed.
    + destruct (load_data m node) as [f|it]; [injection H as <- <- <-; by apply elem_of_nil in Hx|]. destruct (find_last k 0 it None) as [[i p]|]; [|injection H as <- <- <-; by apply elem_of_nil in Hx].
      destruct (sh_loc node) as [l|] eqn:El; injection H as <- <- <-; [|by apply elem_of_nil in Hx]. assert (sptr node = [(l, true)]) as Es by (unfold sptr; by rewrite El, Ed).
      cbn [nptr pptr] in Hx |- *. unfold rptr in Hx. cbn [rr_loc] in Hx. rewrite Es in Hx, Hread. rewrite !elem_of_app in *. tauto.
    + destruct (sh_loc node) as [l|] eqn:El; [|injection H as <- <- <-; by apply elem_of_nil in Hx]. destruct (_ <=? _); [injection H as <- <- <-; by apply elem_of_nil in Hx|].
      destruct (_ <=? _); injection H as <- <- <-; [by apply elem_of_nil in Hx|]. assert (sptr node = [(l, false)]) as Es by (unfold sptr; by rewrite El, Ed).
      cbn [nptr pptr] in Hx |- *. unfold lptr in Hx |- *. rewrite bind_cons in Hx. cbn [fst snd cptr] in Hx. rewrite Es in Hx, Hread. rewrite !elem_of_app in *. tauto.
  - destruct (read_cell m cur) as [now|] eqn:Er; [|injection H as <- <- <-; by apply elem_of_nil in Hx]. left. cbn [pptr]. rewrite !elem_of_app.
    assert (forall m1, rem_up m1 del levels = Some (m', nx, acts) -> x ∈ rptr del \/ x ∈ lptr levels) as Hret. { intros m1 Hr. eapply rem_up_ptr in Hr; [|exact Hx]. by apply elem_of_app. }
    destruct new as [|pl new]; [|destruct (addr_free m a); [|done]]; (destruct (_ && _); [|injection H as <- <- <-; cbn [nptr pptr] in Hx; rewrite elem_of_app in Hx; tauto]);
      (destruct (negb _); [injection H as <- <- <-; by apply elem_of_nil in Hx|]); (destruct (sh_loc node); [|injection H as <- <- <-; by apply elem_of_nil in Hx]); apply Hret in H; tauto.
  - destruct (sh_loc child) as [l|] eqn:El; [|injection H as <- <- <-; by apply elem_of_nil in Hx]. destruct (read_cell m (CSlot l i)) as [v|] eqn:Er; [|injection H as <- <- <-; by apply elem_of_nil in Hx]. left.
    destruct (S i <? _); [injection H as <- <- <-; exact Hx|]. cbn [pptr]. rewrite !elem_of_app. destruct (1 <? _); [injection H as <- <- <-; by left|].
    eapply prune_start_ptr in H; [|exact Hx]. cbn [kptr] in H. rewrite !elem_of_app in H. tauto.
  - injection H as <- <- <-. by apply elem_of_nil in Hx.
  - injection H as <- <- <-. right. left. exists CRoot, ALoad, (o_iroot w), (m_root m). cbn [nptr pptr] in Hx. simpl in Hx. rewrite !app_nil_r in Hx. done.
  - destruct levels as [|[v idx] rest]; [injection H as <- <- <-; left; exact Hx|].
    assert (x ∈ (rest ≫= fun x => sptr x.1) ++ (out ≫= rptr) -> x ∈ pptr (INext ((v, idx) :: rest) out)) as Hpop. { cbn [pptr]. rewrite bind_cons, !elem_of_app. tauto. }
    destruct (is_null v) eqn:Enl; [injection H as <- <- <-; left; by apply Hpop|]. destruct (sh_data v) eqn:Ed.
    + destruct (load_data m v) as [f|it]; [injection H as <- <- <-; by apply elem_of_nil in Hx|]. destruct (sh_loc v) as [l|] eqn:El; [|injection H as <- <- <-; by apply elem_of_nil in Hx].
      destruct (it !! idx) as [pl|]; injection H as <- <- <-; left; [|by apply Hpop]. cbn [nptr pptr] in Hx |- *. rewrite bind_cons in Hx |- *. rewrite bind_app, bind_singleton in Hx.
      unfold rptr at 2 in Hx. cbn [rr_loc fst] in *. assert (sptr v = [(l, true)]) as Es by (unfold sptr; by rewrite El, Ed). rewrite Es in Hx |- *. rewrite !elem_of_app in *. tauto.
    + destruct (idx <? _) eqn:Elt; [|injection H as <- <- <-; left; by apply Hpop]. destruct (sh_loc v) as [l|] eqn:El; [|injection H as <- <- <-; by apply elem_of_nil in Hx].
      destruct (read_cell m (CSlot l idx)) as [u|] eqn:Er; [|injection H as <- <- <-; by apply elem_of_nil in Hx]. destruct (_ <=? _); injection H as <- <- <-; [by apply elem_of_nil in Hx|].
      cbn [nptr pptr] in Hx |- *. rewrite !bind_cons, !elem_of_app in Hx. rewrite bind_cons, !elem_of_app. cbn [fst] in *.
      assert (x ∈ sptr u -> RD) as Hread; [|tauto].
      intros Hy. exists (CSlot l idx), ALoad, (o_iter w), u. cbn [access]. rewrite Enl, Ed. apply Nat.ltb_lt in Elt. assert (LEVEL_CELLS <=? idx = false) as -> by (by apply Nat.leb_gt). cbn [orb]. by rewrite El.
Qed.
End sim.
