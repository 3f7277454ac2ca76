(** * What the operations do to the contents of the map. *)
From Verif Require Import Model Mem Inv Safe SafeStep SafeOps Look LinSpec.

Section semops.
Context {C : Config} {HC : ConfigOk C}.
Implicit Types (m : mem) (pos : loc -> list nat) (c : cell) (v w : sh) (o : opid) (gs : gset opid) (k : Key) (op : oper).

(** ** Uniqueness of the ghost positions after a step *)
Lemma swap_next_eq m na cur w old : m_next (swap m na cur w old) = match na with Some _ => Pos.succ (m_next m) | None => m_next m end.
Proof. destruct na as [[a b]|], cur, old as [[[? ?] ?]|]; done. Qed.

Lemma mtr_det gs pos m p1 p2 m' : minv pos m -> mtr gs pos m p1 m' -> mtr gs pos m p2 m' -> p1 = p2.
Proof.
  intros Hm H1 H2.
  assert (forall p, mtr gs pos m p m' -> (p = pos /\ m_next m' = m_next m) \/
    exists a b cur, p = swap_pos pos m (Some (a, b)) cur /\ m_next m' = Pos.succ (m_next m) /\
      (exists d, cval m' cur = Some (Sh (Some (m_next m)) false d)) /\ (forall i, cur <> CSlot (m_next m) i) /\
      forall c u, cval m' c = Some u -> sh_loc u = Some (m_next m) -> c = cur) as Hc.
  { intros p [|b k|l i v Hv|na cur v w old Hs Hold].
    - by left.
    - by left.
    - by left.
    - destruct na as [[a b]|].
      + right. exists a, b, cur. split; [done|]. split; [by rewrite swap_next_eq|].
        pose proof (sw_new _ _ _ _ _ _ _ Hs) as (_ & Ew & Hb).
        split; [eexists; rewrite (swap_cval Hm Hs), decide_True by done; by rewrite Ew|].
        split; [intros i; apply (swap_cur_ne Hm Hs)|]. intros c u Hu Hl. rewrite (swap_cval Hm Hs) in Hu.
        destruct (decide (c = cur)); [done|]. exfalso.
        assert (forall q, ptr_ok pos m q u -> False) as Hbad.
        { intros q Hp. unfold ptr_ok in Hp. rewrite Hl, (next_fresh _ _ Hm) in Hp. destruct (sh_data u); by destruct Hp as (? & ? & _). }
        destruct c as [|l i].
        * by apply (Hbad _ (mi_ptr _ _ Hm _ _ Hu)).
        * destruct (decide (l = m_next m)) as [->|]; [|by apply (Hbad _ (mi_ptr _ _ Hm _ _ Hu))].
          destruct b as [sl|it]; simpl in Hu; [|done]. destruct Hb as (_ & _ & Hb). by apply (Hbad _ (Hb _ _ Hu)).
      + left. split; [done|]. by rewrite swap_next_eq. }
  destruct (Hc _ H1) as [[-> E1]|(a1 & b1 & c1 & -> & E1 & [d1 V1] & _ & U1)], (Hc _ H2) as [[-> E2]|(a2 & b2 & c2 & -> & E2 & [d2 V2] & _ & U2)].
  - done.
  - exfalso. rewrite E1 in E2. lia.
  - exfalso. rewrite E1 in E2. lia.
  - rewrite (U2 _ _ V1 eq_refl). done.
Qed.

(** ** Semantic invariant of a running operation *)
Definition t_sem op (t : tloc) k : Prop :=
  match op with
  | OInsert p => k = keyof p /\ t = TLoc (TSCreated p) Overwrite (hashf k)
  | OGetOrInsert k' f => k = k' /\ t_mode t = IfMissing /\ t_hash t = hashf k /\ (t_st t = TSFuture k f \/ t_st t = TSCreated (f k))
  | _ => False
  end.
Definition t_pay op (p : Pl) : Prop :=
  match op with OInsert q => p = q | OGetOrInsert k f => p = f k | _ => False end.

Definition kont_sem op (kk : pcont) : Prop :=
  match kk with
  | KTrav t => exists k, t_sem op t k
  | KRem k h => op = ORemove k /\ h = hashf k
  | KUp d _ => exists k, op = ORemove k /\ keqb (keyof (rr_val d)) k = true
  end.

Definition pc_sem pos m op (p : pc) : Prop :=
  match p with
  | TLoad t _ cur _ => exists k, t_sem op t k /\ onp pos cur k
  | TCas t _ cur _ node new kind => exists k, t_sem op t k /\ onp pos cur k /\
      match kind with
      | TKNew => exists p, new = BData [p] /\ t_pay op p
      | TKSplit => True
      | TKData result => exists nl it p, node = Sh (Some nl) false true /\ hbody m nl = Some (BData it) /\
          new = BData (others k it ++ [p]) /\ t_pay op p /\ rr_val <$> result = find_pl k it /\ (t_mode t = IfMissing -> result = None)
      end
  | PMark kk _ _ _ _ _ _ _ => kont_sem op kk
  | PCas kk _ _ _ _ => kont_sem op kk
  | GLoad k h cur => op = OGet k /\ onp pos cur k /\ h = N.shiftr (hashf k) (N.of_nat (4 * length (cpos pos cur)))
  | RLoad k h _ cur _ => op = ORemove k /\ h = hashf k /\ onp pos cur k
  | RCas k h _ cur _ node new d => op = ORemove k /\ h = hashf k /\ onp pos cur k /\
      exists nl it, node = Sh (Some nl) false true /\ hbody m nl = Some (BData it) /\ new = others k it /\ find_pl k it = Some (rr_val d)
  | RCount d _ _ _ _ _ => exists k, op = ORemove k /\ keqb (keyof (rr_val d)) k = true
  | ELoad => op = OIsEmpty
  | INew => op = OIter
  | INext _ _ => op = OIter
  end.

Definition nx_sem pos m op (nx : next) : Prop := match nx with NRun p => pc_sem pos m op p | _ => True end.

Lemma pc_sem_init pos m op : pc_sem pos m op (op_init op).
Proof.
  destruct op; simpl.
  - eexists. split; [done|apply prefix_nil].
  - eexists. split; [split; [done|]; auto|apply prefix_nil].
  - split; [done|]. split; [apply prefix_nil|]. symmetry. apply N.shiftr_0_r.
  - split; [done|]. split; [done|]. apply prefix_nil.
  - done.
  - done.
Qed.

Lemma pc_sem_st pos m pos' m' o op p : ext pos m pos' m' -> pc_ok pos m o p -> pc_sem pos m op p -> pc_sem pos' m' op p.
Proof.
  intros Hext Hok. assert (forall c k, cok m o c -> onp pos c k -> onp pos' c k) as Hon.
  { intros c k Hc. unfold onp. by rewrite (cok_cpos _ _ _ _ o Hext c Hc). }
  destruct p; unfold pc_ok in Hok; unfold pc_sem; try done.
  - destruct Hok as (Hc & _). intros (k & ? & ?). exists k. eauto.
  - destruct Hok as (Hc & _). intros (k & ? & ? & Hk). exists k. split; [done|]. split; [eauto|].
    destruct kind; [done|done|]. destruct Hk as (nl & it & p & ? & ? & ?). exists nl, it, p. split; [done|].
    split; [by eapply ext_data|done].
  - intros (? & ? & ->). split; [done|]. split; [eauto|]. by rewrite (cok_cpos _ _ _ _ o Hext _ Hok).
  - destruct Hok as (Hc & _). intros (? & ? & ?). eauto.
  - destruct Hok as (Hc & _). intros (? & ? & ? & nl & it & ? & ? & ?). split; [done|]. split; [done|]. split; [eauto|].
    exists nl, it. split; [done|]. split; [by eapply ext_data|done].
Qed.

Lemma t_sem_key op t k : op_wf op -> t_sem op t k -> keqb (ts_key (t_st t)) k = true /\ t_hash t = hashf k.
Proof.
  intros Hw. destruct op; simpl; try done.
  - intros [-> ->]. split; [apply keqb_refl|done].
  - intros (-> & _ & ? & [->| ->]); simpl; (split; [|done]); [apply keqb_refl|done].
Qed.

Lemma t_sem_payload op t k p st' call : op_wf op -> t_sem op t k -> ts_payload (t_st t) = (p, st', call) ->
  t_sem op (t_with t st') k /\ t_pay op p /\ keqb (keyof p) k = true /\ t_mode (t_with t st') = t_mode t.
Proof.
  intros Hw. destruct op; simpl; try done.
  - intros [-> ->] [= <- <- <-]. split; [done|]. split; [done|]. split; [apply keqb_refl|done].
  - intros (-> & Hm & Hh & [E|E]) Hp; rewrite E in Hp; simpl in Hp; injection Hp as <- <- <-; (split; [|done]); auto.
Qed.

Lemma look_heap n m m' v k : m_heap m' = m_heap m -> look n m' v k = look n m v k.
Proof.
  intros E. assert (forall l, hbody m' l = hbody m l) as Hb by (intros l; unfold hbody; by rewrite E).
  revert v. induction n as [|n IH]; intros v; cbn [look]; destruct (sh_loc v) as [t|]; try done; rewrite Hb; [done|].
  destruct (hbody m t) as [[sl|it]|]; try done. destruct (sh_data v); [done|]. destruct (sl !! _); [apply IH|done].
Qed.

Lemma abs_heap m m' k : m_heap m' = m_heap m -> m_root m' = m_root m -> absm m' k = absm m k.
Proof. intros E1 E2. unfold absm. rewrite E2. by apply look_heap. Qed.

Lemma sem_heap pos m m' : m_heap m' = m_heap m -> m_root m' = m_root m -> sem pos m -> sem pos m'.
Proof.
  intros E1 E2 [S1 S2]. assert (forall l, hbody m' l = hbody m l) as Hb by (intros l; unfold hbody; by rewrite E1).
  split.
  - intros c v t it p Hc. assert (cval m c = Some v) as Hc' by (rewrite <-Hc; destruct c; simpl; [by rewrite E2|by rewrite <-Hb]).
    rewrite Hb. by apply S1.
  - intros l it. rewrite Hb. apply S2.
Qed.

(** ** The effect of one step *)
Definition dn (p : pc) : option rref :=
  match p with
  | RCount d _ _ _ _ _ | PMark (KUp d _) _ _ _ _ _ _ _ | PCas (KUp d _) _ _ _ _ => Some d
  | _ => None
  end.
Definition hind (p : pc) : option (Key * cell) :=
  match p with
  | GLoad k _ cur | RLoad k _ _ cur _ | RCas k _ _ cur _ _ _ _ => Some (k, cur)
  | _ => None
  end.

Definition step_eff pos m pos' m' op (p : pc) (nx : next) : Prop :=
  match nx with
  | NFail _ => False
  | NRun p' =>
    match dn p, dn p' with
    | Some d, Some d' => d' = d /\ same (absm m) (absm m')
    | Some _, None => False
    | None, Some d => spec_step (absm m) op (AOpt (Some (rr_val d))) (absm m')
    | None, None => same (absm m) (absm m') /\
        forall k c, hind p' = Some (k, c) -> c = CRoot \/ exists c0, hind p = Some (k, c0) /\ lookc pos' m' c k = lookc pos m c0 k
    end
  | NRet r =>
    match dn p with
    | Some d => r = ROpt (Some d) /\ same (absm m) (absm m')
    | None =>
      match op with
      | OIter => (exists ys, r = RIter ys) /\ same (absm m) (absm m')
      | _ => exists x, val_of r = Some x /\
          (spec_step (absm m) op x (absm m') \/
           m' = m /\ exists k c, hind p = Some (k, c) /\ (op = OGet k \/ op = ORemove k /\ lookc pos m c k = None) /\ x = AOpt (lookc pos m c k))
      end
    end
  end.

Definition res_eff gs pos m op p m' nx : Prop :=
  exists pos', mtr gs pos m pos' m' /\ sem pos' m' /\ nx_sem pos' m' op nx /\ step_eff pos m pos' m' op p nx.

Lemma same_refl (a : amap) : same a a.
Proof. by intros k. Qed.

Lemma find_idx_cong a b i it : keqb a b = true -> find_idx a i it = find_idx b i it.
Proof. intros H. revert i. induction it as [|p it IH]; intros i; simpl; [done|]. rewrite (keqb_cong a b _ H). by rewrite IH. Qed.
Lemma find_ref_cong a b l it : keqb a b = true -> find_ref a l it = find_ref b l it.
Proof. intros H. unfold find_ref. by rewrite (find_idx_cong a b). Qed.

Lemma nib_hash k d : bits (hashf k) (4 * d) = nib k d.
Proof. done. Qed.

Lemma sw_rep pos m cur nl it k p a gs :
  minv pos m -> sem pos m -> hbody m nl = Some (BData it) -> onp pos cur k -> keqb (keyof p) k = true ->
  swap_ok pos m (Some (a, BData (others k it ++ [p]))) cur (Sh (Some nl) false true) (Sh (Some (m_next m)) false true) (Some (nl, KData, gs)) ->
  absm m k = find_pl k it /\
  put (absm m) p (absm (swap m (Some (a, BData (others k it ++ [p]))) cur (Sh (Some (m_next m)) false true) (Some (nl, KData, gs)))) /\
  sem (swap_pos pos m (Some (a, BData (others k it ++ [p]))) cur)
      (swap m (Some (a, BData (others k it ++ [p]))) cur (Sh (Some (m_next m)) false true) (Some (nl, KData, gs))).
Proof.
  intros Hm Hse Hb Hon Hk Hs. pose proof (sw_cur _ _ _ _ _ _ _ Hs) as Hc.
  assert (forall q, q ∈ others k it ++ [p] -> onp pos cur (keyof q)) as Hq.
  { intros q [Hq|Hq]%elem_of_app.
    - apply elem_of_others in Hq as [_ Hq]. by eapply (se_path _ _ Hse cur).
    - apply elem_of_list_singleton in Hq as ->. by apply (onp_cong pos cur (keyof p) k). }
  destruct (abs_rep pos m cur nl it _ a gs Hm Hse Hb Hs Hq) as [H1 H2]. split; [by apply H1|]. split.
  - intros k'. rewrite H2. destruct (decide (onp pos cur k')) as [Hk'|Hk'].
    + rewrite (H1 k' Hk'), find_pl_app, find_pl_cons. destruct (keqb (keyof p) k') eqn:E.
      * rewrite find_pl_others_same; [done|]. rewrite keqb_sym. rewrite <-(keqb_cong (keyof p) k' k E).
        by rewrite keqb_sym.
      * rewrite find_pl_others; [by destruct (find_pl k' it)|]. rewrite <-(keqb_cong _ _ k' Hk). by rewrite keqb_sym.
    + destruct (keqb (keyof p) k') eqn:E; [|done]. exfalso. apply Hk'. apply (onp_cong pos cur _ _ E).
      by apply (onp_cong pos cur _ _ Hk).
  - eapply sem_swap; [done|done|done|]. split; [|done]. apply nodupk_snoc; [apply nodupk_others; by eapply se_nodup|].
    intros q [E _]%elem_of_others. by rewrite (keqb_cong _ _ _ Hk).
Qed.

Lemma sw_new' pos m cur v a p :
  minv pos m -> sem pos m -> sh_loc v = None -> onp pos cur (keyof p) ->
  swap_ok pos m (Some (a, BData [p])) cur v (Sh (Some (m_next m)) false true) None ->
  absm m (keyof p) = None /\
  put (absm m) p (absm (swap m (Some (a, BData [p])) cur (Sh (Some (m_next m)) false true) None)) /\
  sem (swap_pos pos m (Some (a, BData [p])) cur) (swap m (Some (a, BData [p])) cur (Sh (Some (m_next m)) false true) None).
Proof.
  intros Hm Hse Hn Hon Hs. destruct (abs_new pos m cur v a p Hm Hs Hn Hon) as [H1 H2]. split; [done|]. split; [exact H2|].
  eapply sem_swap; [done|done|done|]. split.
  - apply (nodupk_snoc []); [apply nodupk_nil|]. intros q Hq. by apply elem_of_nil in Hq.
  - by intros q ->%elem_of_list_singleton.
Qed.

Lemma sw_split pos m cur nl d0 a :
  minv pos m -> sem pos m -> hbody m nl = Some (BData [d0]) ->
  swap_ok pos m (Some (a, BInner (<[nib (keyof d0) (length (cpos pos cur)) := Sh (Some nl) false true]> empty_slots))) cur (Sh (Some nl) false true)
    (Sh (Some (m_next m)) false false) None ->
  sem (swap_pos pos m (Some (a, BInner (<[nib (keyof d0) (length (cpos pos cur)) := Sh (Some nl) false true]> empty_slots))) cur)
    (swap m (Some (a, BInner (<[nib (keyof d0) (length (cpos pos cur)) := Sh (Some nl) false true]> empty_slots))) cur (Sh (Some (m_next m)) false false) None).
Proof.
  intros Hm Hse Hb Hs. eapply sem_swap; [done|done|done|]. intros i u t it p Hi Hd Ht Hbt Hp.
  pose proof (sw_new _ _ _ _ _ _ _ Hs) as (_ & _ & _ & Hlt & _). pose proof (sw_cur _ _ _ _ _ _ _ Hs) as Hc.
  destruct (decide (nib (keyof d0) (length (cpos pos cur)) = i)) as [<-|Hne].
  - rewrite list_lookup_insert in Hi by (unfold empty_slots; rewrite replicate_length; apply nib_lt).
    injection Hi as <-. simpl in Ht. injection Ht as <-. assert (it = [d0]) as -> by congruence.
    apply elem_of_list_singleton in Hp as ->. apply prefix_snoc_path; [|done].
    eapply (se_path _ _ Hse cur _ nl [d0]); [done|done|done|done|left].
  - rewrite list_lookup_insert_ne in Hi by done. by apply lookup_empty_slots in Hi as ->.
Qed.

Lemma sw_del pos m cur nl it k d gs :
  minv pos m -> sem pos m -> hbody m nl = Some (BData it) -> onp pos cur k -> find_pl k it = Some d -> others k it = [] ->
  swap_ok pos m None cur (Sh (Some nl) false true) sh_null (Some (nl, KData, gs)) ->
  Some d = absm m k /\ del (absm m) k (absm (swap m None cur sh_null (Some (nl, KData, gs)))) /\
  sem (swap_pos pos m None cur) (swap m None cur sh_null (Some (nl, KData, gs))).
Proof.
  intros Hm Hse Hb Hon Hf Ho Hs. destruct (abs_del pos m cur nl it gs Hm Hse Hb Hs) as [H1 H2].
  split; [by rewrite (H1 k Hon)|]. split.
  - intros k'. rewrite H2. destruct (decide (onp pos cur k')) as [Hk'|Hk'].
    + destruct (keqb k k') eqn:E; [done|]. rewrite (H1 k' Hk'). rewrite <-(find_pl_others k k' it) by (by rewrite keqb_sym). by rewrite Ho.
    + destruct (keqb k k') eqn:E; [|done]. exfalso. apply Hk'. by apply (onp_cong pos cur _ _ E).
  - eapply sem_swap; done.
Qed.

Lemma sw_del_rep pos m cur nl it k d a gs :
  minv pos m -> sem pos m -> hbody m nl = Some (BData it) -> onp pos cur k -> find_pl k it = Some d ->
  swap_ok pos m (Some (a, BData (others k it))) cur (Sh (Some nl) false true) (Sh (Some (m_next m)) false true) (Some (nl, KData, gs)) ->
  Some d = absm m k /\ del (absm m) k (absm (swap m (Some (a, BData (others k it))) cur (Sh (Some (m_next m)) false true) (Some (nl, KData, gs)))) /\
  sem (swap_pos pos m (Some (a, BData (others k it))) cur)
    (swap m (Some (a, BData (others k it))) cur (Sh (Some (m_next m)) false true) (Some (nl, KData, gs))).
Proof.
  intros Hm Hse Hb Hon Hf Hs. pose proof (sw_cur _ _ _ _ _ _ _ Hs) as Hc.
  assert (forall q, q ∈ others k it -> onp pos cur (keyof q)) as Hq.
  { intros q Hq. apply elem_of_others in Hq as [_ Hq]. by eapply (se_path _ _ Hse cur). }
  destruct (abs_rep pos m cur nl it _ a gs Hm Hse Hb Hs Hq) as [H1 H2].
  split; [by rewrite (H1 k Hon)|]. split.
  - intros k'. rewrite H2. destruct (decide (onp pos cur k')) as [Hk'|Hk'].
    + destruct (keqb k k') eqn:E.
      * apply find_pl_others_same. by rewrite keqb_sym.
      * rewrite (H1 k' Hk'). apply find_pl_others. by rewrite keqb_sym.
    + destruct (keqb k k') eqn:E; [|done]. exfalso. apply Hk'. by apply (onp_cong pos cur _ _ E).
  - eapply sem_swap; [done|done|done|]. split; [|done]. apply nodupk_others. by eapply se_nodup.
Qed.

(** A pointer loaded from a cell that is not condemned is part of the current map. *)
Lemma uncond_abs pos m c v k : minv pos m -> cval m c = Some v -> sh_cond v = false -> onp pos c k -> lookc pos m c k = absm m k.
Proof. intros Hm Hc Hu Hon. apply lookc_abs; [done|eauto| |done]. by eapply uncond_live. Qed.

Lemma lookc_null pos m c v k : cval m c = Some v -> sh_loc v = None -> lookc pos m c k = None.
Proof. intros Hc Hn. unfold lookc. rewrite Hc. by apply look_null. Qed.
Lemma lookc_data pos m c v k t it : cval m c = Some v -> sh_loc v = Some t -> sh_data v = true -> hbody m t = Some (BData it) ->
  lookc pos m c k = find_pl k it.
Proof. intros Hc Ht Hd Hb. unfold lookc. rewrite Hc. by apply (look_data _ _ _ _ t). Qed.
Lemma lookc_inner pos m c v k t : minv pos m -> cval m c = Some v -> onp pos c k -> sh_loc v = Some t -> sh_data v = false ->
  is_Some (cval m (CSlot t (nib k (length (cpos pos c))))) /\ onp pos (CSlot t (nib k (length (cpos pos c)))) k /\
  length (cpos pos (CSlot t (nib k (length (cpos pos c))))) = S (length (cpos pos c)) /\
  lookc pos m (CSlot t (nib k (length (cpos pos c)))) k = lookc pos m c k.
Proof.
  intros Hm Hc Hon Ht Hd. destruct (look_step pos m (cpos pos c) v k t Hm (mi_ptr _ _ Hm _ _ Hc) Hon Ht Hd) as (u & Hu & Ep & Hpre & E).
  split; [eauto|]. split; [unfold onp; by rewrite Ep|]. split; [rewrite Ep, app_length; simpl; lia|].
  unfold lookc. rewrite Hu, Hc, E, Ep. done.
Qed.

Lemma find_last_find k it i p : nodupk it -> find_last k 0 it None = Some (i, p) -> find_pl k it = Some p.
Proof.
  intros Hn Hf. apply find_last_lookup in Hf as [?|(d & -> & Hd & Hk)]; [done|]. by eapply nodupk_find.
Qed.
Lemma find_last_none k i it acc : find_last k i it acc = None -> acc = None /\ forall p, p ∈ it -> keqb (keyof p) k = false.
Proof.
  revert i acc. induction it as [|q it IH]; intros i acc; simpl.
  - intros ->. split; [done|]. intros p Hp. by apply elem_of_nil in Hp.
  - intros H. destruct (IH _ _ H) as [Ha Hi]. destruct (keqb (keyof q) k) eqn:E; [done|]. split; [done|].
    intros p [->|Hp]%elem_of_cons; [done|by apply Hi].
Qed.

End semops.
