(** * Looking a key up in the memory, and how updates affect it. *)
From Verif Require Import Model Mem Inv Safe SafeStep.

Section look.
Context {C : Config}.
Implicit Types (m : mem) (pos : loc -> list nat) (c : cell) (v w : sh) (k : Key).

(** The value a search for [k] that has come to pointer [v], with [n] levels left, will find if nothing changes. *)
Fixpoint look (n : nat) m v k : option Pl :=
  match sh_loc v with
  | None => None
  | Some t =>
    match hbody m t with
    | Some (BData it) => if sh_data v then find_pl k it else None
    | Some (BInner sl) =>
      if sh_data v then None else
      match n with
      | 0 => None
      | S n' => match sl !! nib k (16 - n) with Some u => look n' m u k | None => None end
      end
    | None => None
    end
  end.

(** The contents of the map. *)
Definition absm m k : option Pl := look 16 m (m_root m) k.

Lemma look_null n m v k : sh_loc v = None -> look n m v k = None.
Proof. intros H. destruct n; cbn [look]; by rewrite H. Qed.

Lemma look_data n m v k t it : sh_loc v = Some t -> sh_data v = true -> hbody m t = Some (BData it) -> look n m v k = find_pl k it.
Proof. intros H1 H2 H3. destruct n; cbn [look]; by rewrite H1, H3, H2. Qed.

Lemma look_inner n m v k t u : sh_loc v = Some t -> sh_data v = false -> cval m (CSlot t (nib k (16 - S n))) = Some u ->
  look (S n) m v k = look n m u k.
Proof. intros H1 H2 (sl & Hb & Hi)%cval_slot. cbn [look]. by rewrite H1, Hb, H2, Hi. Qed.

Lemma look_flags n m v v' k : sh_loc v = sh_loc v' -> sh_data v = sh_data v' -> look n m v k = look n m v' k.
Proof. intros H1 H2. destruct n; cbn [look]; by rewrite H1, H2. Qed.

Local Arguments look : simpl never.

(** What a search that stands at cell [c] will find. *)
Definition lookc pos m c k : option Pl :=
  match cval m c with Some v => look (16 - length (cpos pos c)) m v k | None => None end.

Definition onp pos c k : Prop := cpos pos c `prefix_of` path k.

Global Instance onp_dec pos c k : Decision (onp pos c k).
Proof. unfold onp. apply _. Defined.

(** One level of descent. *)
Lemma look_step pos m p v k t : minv pos m -> ptr_ok pos m p v -> p `prefix_of` path k -> sh_loc v = Some t -> sh_data v = false ->
  exists u, cval m (CSlot t (nib k (length p))) = Some u /\ cpos pos (CSlot t (nib k (length p))) = p ++ [nib k (length p)] /\
    (p ++ [nib k (length p)]) `prefix_of` path k /\
    look (16 - length p) m v k = look (16 - length (p ++ [nib k (length p)])) m u k.
Proof.
  intros Hm Hp Hpre Ht Hd. pose proof (cpos_len_inner _ _ _ _ _ Hm Hp Hd Ht) as Hlt.
  unfold ptr_ok in Hp. rewrite Ht, Hd in Hp. destruct Hp as (sl & Hb & Hpt).
  destruct (slot_cval _ _ _ _ (nib k (length p)) Hm Hb (nib_lt _ _)) as (u & Hu & _). exists u. split; [done|].
  split; [simpl; by rewrite Hpt|]. split; [by apply prefix_snoc_path|].
  rewrite app_length. simpl. replace (16 - length p) with (S (16 - (length p + 1))) by lia.
  apply (look_inner _ _ _ _ t); [done|done|]. by replace (16 - S (16 - (length p + 1))) with (length p) by lia.
Qed.

(** A live cell on the path of [k] leads to the value of [k] in the map. *)
Lemma look_abs pos m c v k : minv pos m -> cval m c = Some v -> cell_live m c -> onp pos c k ->
  look (16 - length (cpos pos c)) m v k = absm m k.
Proof.
  intros Hm. remember (length (cpos pos c)) as n eqn:En. revert c v En.
  induction n as [n IH] using lt_wf_ind. intros c v -> Hc Hl Hp.
  destruct c as [|x i]; [cbn [cval] in Hc; injection Hc as <-; reflexivity|].
  pose proof Hc as (sl & Hbx & _)%cval_slot.
  destruct (inner_parent _ _ _ _ Hm Hbx Hl) as (c' & v' & Hc' & Hl' & Hv' & Hd' & Ep).
  unfold onp in Hp. simpl in Hp. apply prefix_snoc_nib in Hp as [-> Hp].
  assert (onp pos c' k) as Hp' by (unfold onp; by rewrite Ep).
  pose proof (IH (length (cpos pos c')) ltac:(simpl; rewrite Ep, app_length; simpl; lia) c' v' eq_refl Hc' Hl' Hp') as IH'.
  destruct (look_step pos m (cpos pos c') v' k x Hm (mi_ptr _ _ Hm _ _ Hc') Hp' Hv' Hd') as (u & Hu & _ & _ & E).
  rewrite <-IH', E. rewrite Ep in Hu. rewrite Hc in Hu. injection Hu as <-. simpl. by rewrite Ep.
Qed.

Lemma lookc_abs pos m c k : minv pos m -> is_Some (cval m c) -> cell_live m c -> onp pos c k -> lookc pos m c k = absm m k.
Proof. intros Hm [v Hc] Hl Hp. unfold lookc. rewrite Hc. by eapply look_abs. Qed.

Lemma lookc_root pos m k : lookc pos m CRoot k = absm m k.
Proof. done. Qed.

(** ** Frame: an update that the search does not meet *)
Lemma look_frame pos m m' p v k :
  minv pos m ->
  (forall l it, hbody m l = Some (BData it) -> hbody m' l = Some (BData it)) ->
  (forall t j u, cval m (CSlot t j) = Some u -> length p < length (cpos pos (CSlot t j)) -> onp pos (CSlot t j) k ->
     exists u', cval m' (CSlot t j) = Some u' /\ sh_loc u' = sh_loc u /\ sh_data u' = sh_data u) ->
  ptr_ok pos m p v -> p `prefix_of` path k ->
  look (16 - length p) m' v k = look (16 - length p) m v k.
Proof.
  intros Hm Hdat. remember (16 - length p) as n eqn:En. revert p v En.
  induction n as [|n IH]; intros p v En Hfr Hp Hpre.
  - destruct (sh_loc v) as [t|] eqn:Et; [|by rewrite !look_null]. unfold ptr_ok in Hp. rewrite Et in Hp.
    destruct (sh_data v) eqn:Ed.
    + destruct Hp as (it & Hb & _). by rewrite !(look_data _ _ _ _ t it) by eauto.
    + destruct Hp as (sl & Hb & Hpt). pose proof (mi_slots _ _ Hm _ _ Hb) as [_ ?]. rewrite Hpt in *. lia.
  - destruct (sh_loc v) as [t|] eqn:Et; [|by rewrite !look_null]. destruct (sh_data v) eqn:Ed.
    + unfold ptr_ok in Hp. rewrite Et, Ed in Hp. destruct Hp as (it & Hb & _). by rewrite !(look_data _ _ _ _ t it) by eauto.
    + destruct (look_step pos m p v k t Hm Hp Hpre Et Ed) as (u & Hu & Ec & Hpre' & E).
      assert (length (p ++ [nib k (length p)]) = S (length p)) as Ln by (rewrite app_length; simpl; lia).
      destruct (Hfr _ _ _ Hu) as (u' & Hu' & E1 & E2); [rewrite Ec; lia|unfold onp; by rewrite Ec|].
      pose proof (mi_ptr _ _ Hm _ _ Hu) as Hpu. rewrite Ec in Hpu.
      rewrite En in *. rewrite E. replace (16 - length p) with (S n) by lia.
      rewrite (look_inner n m' v k t u'); [|done|done|by replace (16 - S n) with (length p) by lia].
      rewrite (look_flags n m' u' u k E1 E2). replace (16 - length (p ++ [nib k (length p)])) with n by lia.
      apply (IH (p ++ [nib k (length p)])); [lia| |exact Hpu|done]. intros ? ? ? H1 H2; apply Hfr; [done|lia].
Qed.

Lemma look_mark pos m l i v0 p v k : minv pos m -> cval m (CSlot l i) = Some v0 -> ptr_ok pos m p v -> p `prefix_of` path k ->
  look (16 - length p) (write_cell m (CSlot l i) (recond v0)) v k = look (16 - length p) m v k.
Proof.
  intros Hm Hc Hp Hpre. apply (look_frame pos); try done.
  - intros x it Hb. by apply hbody_write_data.
  - intros t j u Hu _ _. rewrite cval_mark by done. destruct (decide (CSlot t j = CSlot l i)) as [E|]; [|eauto].
    injection E as -> ->. simplify_eq. eexists; split; [done|done].
Qed.

Lemma abs_mark pos m l i v0 k : minv pos m -> cval m (CSlot l i) = Some v0 ->
  absm (write_cell m (CSlot l i) (recond v0)) k = absm m k.
Proof.
  intros Hm Hc. unfold absm. apply (look_mark pos m l i v0 [] (m_root m) k Hm Hc); [|apply prefix_nil].
  by apply (mi_ptr _ _ Hm CRoot).
Qed.

Section swap.
Context {pos m na cur v w old} (Hm : minv pos m) (Hs : swap_ok pos m na cur v w old).
Notation m' := (swap m na cur w old).
Notation pos' := (swap_pos pos m na cur).

Lemma swap_cval_other t j u : cval m (CSlot t j) = Some u -> CSlot t j <> cur -> cval m' (CSlot t j) = Some u.
Proof.
  intros Hu Hne. rewrite (swap_cval Hm Hs), decide_False by done. rewrite decide_False; [done|].
  intros ->. apply cval_slot in Hu as (? & Hb & _). by rewrite (next_fresh _ _ Hm) in Hb.
Qed.

Lemma swap_data l it : hbody m l = Some (BData it) -> hbody m' l = Some (BData it).
Proof. apply (ext_data pos m pos' m'). apply (swap_ext Hm Hs). Qed.

(* the search does not come to cur any more: *)
Lemma look_swap_frame p x k : ptr_ok pos m p x -> p `prefix_of` path k ->
  length (cpos pos cur) <= length p \/ ~ onp pos cur k ->
  look (16 - length p) m' x k = look (16 - length p) m x k.
Proof.
  intros Hp Hpre Hor. apply (look_frame pos); try done; [apply swap_data|].
  intros t j u Hu Hlt Hon. exists u. split; [|done]. apply swap_cval_other; [done|]. intros E. destruct Hor as [Hle|Hn].
  - rewrite <-E in Hle. lia.
  - apply Hn. by rewrite <-E.
Qed.

Lemma swap_cur_live' : cell_live m' cur /\ cval m' cur = Some w.
Proof.
  assert (cval m' cur = Some w) as Hc by (by rewrite (swap_cval Hm Hs), decide_True).
  split; [|done]. eapply uncond_live; [apply (minv_swap Hm Hs)|done|by eapply sw_w].
Qed.

Lemma abs_swap_on k : onp pos cur k -> absm m' k = look (16 - length (cpos pos cur)) m' w k /\ absm m k = look (16 - length (cpos pos cur)) m v k.
Proof.
  intros Hon. destruct swap_cur_live' as [Hl Hc]. split.
  - symmetry. rewrite <-(swap_cpos Hm Hs). apply look_abs; [apply (minv_swap Hm Hs)|done|done|].
    unfold onp. by rewrite (swap_cpos Hm Hs).
  - symmetry. eapply look_abs; [done|by eapply sw_cur|apply (swap_cur_live Hm Hs)|done].
Qed.

Lemma abs_swap_off k : ~ onp pos cur k -> absm m' k = absm m k.
Proof.
  intros Hon. unfold absm. assert (m_root m' = m_root m) as ->.
  { destruct cur as [|l i] eqn:Ec; [exfalso; apply Hon; apply prefix_nil|].
    unfold swap. by destruct na as [[? ?]|], old as [[[? ?] ?]|]. }
  apply (look_swap_frame [] (m_root m) k); [by apply (mi_ptr _ _ Hm CRoot)|apply prefix_nil|by right].
Qed.

(** Hindsight: a search under way either finds what it would have found before the update, or the value in the
    map right after the update. *)
Lemma look_swap_hind p x k : ptr_ok pos m p x -> p `prefix_of` path k ->
  look (16 - length p) m' x k = look (16 - length p) m x k \/ look (16 - length p) m' x k = absm m' k.
Proof.
  remember (16 - length p) as n eqn:En. revert p x En.
  induction n as [|n IH]; intros p x En Hp Hpre.
  - left. rewrite En. apply look_swap_frame; [done|done|]. left.
    pose proof (cpos_len _ _ _ _ Hm (sw_cur _ _ _ _ _ _ _ Hs)). lia.
  - destruct (sh_loc x) as [t|] eqn:Et; [|left; by rewrite !look_null]. destruct (sh_data x) eqn:Ed.
    + left. unfold ptr_ok in Hp. rewrite Et, Ed in Hp. destruct Hp as (it & Hb & _).
      by rewrite !(look_data _ _ _ _ t it) by eauto using swap_data.
    + destruct (look_step pos m p x k t Hm Hp Hpre Et Ed) as (u & Hu & Ec & Hpre' & E).
      assert (length (p ++ [nib k (length p)]) = S (length p)) as Ln by (rewrite app_length; simpl; lia).
      rewrite <-En in E. rewrite E.
      replace (16 - length (p ++ [nib k (length p)])) with n by lia.
      destruct (decide (CSlot t (nib k (length p)) = cur)) as [Ecur|Hne].
      * right. destruct swap_cur_live' as [Hl Hc]. rewrite (look_inner n _ x k t w); [|done|done|].
        2:{ replace (16 - S n) with (length p) by lia. by rewrite Ecur. }
        assert (onp pos cur k) as Hon by (rewrite <-Ecur; unfold onp; by rewrite Ec).
        rewrite (proj1 (abs_swap_on k Hon)). f_equal. rewrite <-Ecur, Ec. lia.
      * rewrite (look_inner n _ x k t u); [|done|done|].
        2:{ replace (16 - S n) with (length p) by lia. by apply swap_cval_other. }
        apply (IH (p ++ [nib k (length p)])); [lia| |done]. pose proof (mi_ptr _ _ Hm _ _ Hu) as Hpu. by rewrite Ec in Hpu.
Qed.

Lemma lookc_swap_hind c k : is_Some (cval m c) -> onp pos c k ->
  lookc pos' m' c k = lookc pos m c k \/ lookc pos' m' c k = absm m' k.
Proof.
  intros [x Hc] Hon. destruct (decide (c = cur)) as [->|Hne].
  - right. destruct swap_cur_live' as [Hl Hc']. apply lookc_abs; [apply (minv_swap Hm Hs)|eauto|done|].
    unfold onp. by rewrite (swap_cpos Hm Hs).
  - unfold lookc. rewrite (ext_cpos pos m pos' m' c x (swap_ext Hm Hs) Hc). rewrite Hc.
    assert (cval m' c = Some x) as ->.
    { destruct c as [|t j]; [|by apply swap_cval_other]. rewrite (swap_cval Hm Hs), decide_False by done. done. }
    apply look_swap_hind; [by apply (mi_ptr _ _ Hm)|done].
Qed.
End swap.

Lemma lookc_mtr_hind gs pos m pos' m' c k : minv pos m -> mtr gs pos m pos' m' -> is_Some (cval m c) -> onp pos c k ->
  lookc pos' m' c k = lookc pos m c k \/ lookc pos' m' c k = absm m' k.
Proof.
  intros Hm [|b kd|l i v Hc|na cur v w old Hs Hold] Hv Hon.
  - by left.
  - left. destruct Hv as [x Hx]. unfold lookc.
    assert (cval (drop_tmp m b kd) c = cval m c) as -> by (by destruct c). rewrite Hx.
    apply (look_frame pos m _ (cpos pos c) x k Hm); [done| |by apply (mi_ptr _ _ Hm)|done]. intros t j u Hu _ _. exists u. done.
  - left. destruct Hv as [x Hx]. unfold lookc. rewrite cval_mark by done.
    destruct (decide (c = CSlot l i)) as [->|].
    + rewrite Hc. rewrite (look_flags _ _ (recond v) v k) by done. apply (look_mark pos); [done|done|by apply (mi_ptr _ _ Hm)|done].
    + rewrite Hx. apply (look_mark pos); [done|done|by apply (mi_ptr _ _ Hm)|done].
  - by eapply lookc_swap_hind.
Qed.

(** ** Semantic well-formedness: elements are where their hash says, keys are not duplicated. *)
Record sem pos m : Prop := Sem {
  se_path : forall c v t it p, cval m c = Some v -> sh_data v = true -> sh_loc v = Some t -> hbody m t = Some (BData it) ->
            p ∈ it -> cpos pos c `prefix_of` path (keyof p);
  se_nodup : forall l it, hbody m l = Some (BData it) -> nodupk it;
}.

Lemma sem0 pos : sem pos mem0.
Proof.
  split.
  - intros c v t it p _ _ _ Hb. unfold hbody in Hb. simpl in Hb. by rewrite lookup_empty in Hb.
  - intros l it Hb. unfold hbody in Hb. simpl in Hb. by rewrite lookup_empty in Hb.
Qed.

Lemma sem_mark pos m l i v : sem pos m -> cval m (CSlot l i) = Some v -> sem pos (write_cell m (CSlot l i) (recond v)).
Proof.
  intros [S1 S2] Hc. split.
  - intros c u t it p Hu Hd Ht Hb. apply hbody_write_data in Hb.
    destruct (cval_mark_inv _ _ _ _ _ _ Hc Hu) as (u0 & Hu0 & E1 & E2 & _). apply (S1 c u0 t it); congruence.
  - intros x it Hb. apply hbody_write_data in Hb. eauto.
Qed.

Lemma sem_swap pos m na cur v w old : minv pos m -> sem pos m -> swap_ok pos m na cur v w old ->
  match na with
  | Some (_, BData it) => nodupk it /\ forall p, p ∈ it -> onp pos cur (keyof p)
  | Some (_, BInner sl) => forall i u t it p, sl !! i = Some u -> sh_data u = true -> sh_loc u = Some t -> hbody m t = Some (BData it) ->
       p ∈ it -> (cpos pos cur ++ [i]) `prefix_of` path (keyof p)
  | None => forall t it p, sh_data w = true -> sh_loc w = Some t -> hbody m t = Some (BData it) -> p ∈ it -> onp pos cur (keyof p)
  end ->
  sem (swap_pos pos m na cur) (swap m na cur w old).
Proof.
  intros Hm [S1 S2] Hs Hcond.
  assert (forall t it, hbody (swap m na cur w old) t = Some (BData it) -> (t = m_next m /\ exists a, na = Some (a, BData it)) \/ (t <> m_next m /\ hbody m t = Some (BData it))) as HB.
  { intros t it Hb. rewrite (swap_hbody Hm Hs) in Hb. destruct (decide (t = m_next m)) as [->|Hne].
    - left. split; [done|]. destruct na as [[a b]|]; simpl in Hb; [|done]. injection Hb as ->. eauto.
    - right. split; [done|]. destruct cur as [|x i]; [done|]. destruct (decide (x = t)); [|done].
      destruct (hbody m t) as [[?|?]|]; naive_solver. }
  pose proof (sw_new _ _ _ _ _ _ _ Hs) as Hnew.
  assert (forall c u, cval m c = Some u -> sh_loc u <> Some (m_next m)) as Hnn.
  { intros c u Hu E. pose proof (mi_ptr _ _ Hm _ _ Hu) as Hp. unfold ptr_ok in Hp. rewrite E, (next_fresh _ _ Hm) in Hp.
    destruct (sh_data u); by destruct Hp as (? & ? & _). }
  split.
  - intros c u t it p Hu Hd Ht Hb Hin. rewrite (swap_cval Hm Hs) in Hu.
    destruct (decide (c = cur)) as [->|Hne].
    { injection Hu as <-. rewrite (swap_cpos Hm Hs). destruct na as [[a b]|] eqn:En.
      - destruct Hnew as (_ & Ew & _). rewrite Ew in Hd, Ht. simpl in *. injection Ht as <-.
        destruct b as [sl|it']; [done|]. destruct (HB _ _ Hb) as [(_ & a' & E)|[? _]]; [|done]. injection E as <- ->. by apply Hcond.
      - destruct (HB _ _ Hb) as [(_ & a' & E)|[_ Hb']]; [done|]. by eapply Hcond. }
    destruct c as [|l i].
    + destruct (HB _ _ Hb) as [[-> _]|[_ Hb']]; [by eapply Hnn in Hu|]. apply (S1 CRoot u t it p); done.
    + destruct (decide (l = m_next m)) as [->|Hl].
      * destruct na as [[a b]|] eqn:En; [|done]. unfold cpos. rewrite (swap_pos_next Hm Hs) by done.
        destruct b as [sl|]; [|done]. simpl in Hu. destruct (HB _ _ Hb) as [(_ & a' & E)|[_ Hb']]; [done|].
        by eapply Hcond.
      * destruct (HB _ _ Hb) as [[-> _]|[_ Hb']]; [by eapply Hnn in Hu|].
        rewrite (ext_cpos pos m _ _ (CSlot l i) u (swap_ext Hm Hs) Hu). by eapply S1.
  - intros l it Hb. destruct (HB _ _ Hb) as [(_ & a' & ->)|[_ Hb']]; [by destruct Hcond|eauto].
Qed.

(** ** What the concrete swaps do to the contents *)
Context {HC : ConfigOk C}.

Lemma onp_cong pos c k k' : keqb k k' = true -> onp pos c k <-> onp pos c k'.
Proof. intros H. unfold onp. by rewrite (path_cong k k'). Qed.

Lemma find_pl_off pos m c v t it k : sem pos m -> cval m c = Some v -> sh_data v = true -> sh_loc v = Some t -> hbody m t = Some (BData it) ->
  ~ onp pos c k -> find_pl k it = None.
Proof.
  intros Hse Hc Hd Ht Hb Hn. apply find_pl_None. intros p Hp. destruct (keqb (keyof p) k) eqn:E; [|done].
  exfalso. apply Hn. apply (onp_cong pos c _ _ E). by eapply se_path.
Qed.

(* insertion of one element where there was nothing *)
Lemma abs_new pos m cur v a p :
  minv pos m -> swap_ok pos m (Some (a, BData [p])) cur v (Sh (Some (m_next m)) false true) None -> sh_loc v = None -> onp pos cur (keyof p) ->
  absm m (keyof p) = None /\
  forall k, absm (swap m (Some (a, BData [p])) cur (Sh (Some (m_next m)) false true) None) k = if keqb (keyof p) k then Some p else absm m k.
Proof.
  intros Hm Hs Hn Hon. split.
  { destruct (abs_swap_on Hm Hs (keyof p) Hon) as [_ ->]. by apply look_null. }
  intros k. destruct (decide (onp pos cur k)) as [Hk|Hk].
  - destruct (abs_swap_on Hm Hs k Hk) as [-> ->]. rewrite (look_null _ m v k Hn).
    rewrite (look_data _ _ _ _ (m_next m) [p]); [|done|done|].
    + rewrite find_pl_cons. by destruct (keqb (keyof p) k).
    + rewrite (swap_hbody Hm Hs), decide_True by done. done.
  - rewrite (abs_swap_off Hm Hs k Hk). destruct (keqb (keyof p) k) eqn:E; [|done].
    exfalso. apply Hk. by apply (onp_cong pos cur _ _ E).
Qed.

(* replacement of one data node by another *)
Lemma abs_rep pos m cur nl it new a gs :
  minv pos m -> sem pos m -> hbody m nl = Some (BData it) ->
  swap_ok pos m (Some (a, BData new)) cur (Sh (Some nl) false true) (Sh (Some (m_next m)) false true) (Some (nl, KData, gs)) ->
  (forall p, p ∈ new -> onp pos cur (keyof p)) ->
  (forall k, onp pos cur k -> absm m k = find_pl k it) /\
  forall k, absm (swap m (Some (a, BData new)) cur (Sh (Some (m_next m)) false true) (Some (nl, KData, gs))) k =
    if decide (onp pos cur k) then find_pl k new else absm m k.
Proof.
  intros Hm Hse Hb Hs Hon. split.
  { intros k Hk. destruct (abs_swap_on Hm Hs k Hk) as [_ ->]. by rewrite (look_data _ _ _ _ nl it). }
  intros k. destruct (decide (onp pos cur k)) as [Hk|Hk]; [|by apply (abs_swap_off Hm Hs)].
  destruct (abs_swap_on Hm Hs k Hk) as [-> _]. rewrite (look_data _ _ _ _ (m_next m) new); [done|done|done|].
  rewrite (swap_hbody Hm Hs), decide_True by done. done.
Qed.

Lemma abs_del pos m cur nl it gs :
  minv pos m -> sem pos m -> hbody m nl = Some (BData it) ->
  swap_ok pos m None cur (Sh (Some nl) false true) sh_null (Some (nl, KData, gs)) ->
  (forall k, onp pos cur k -> absm m k = find_pl k it) /\
  forall k, absm (swap m None cur sh_null (Some (nl, KData, gs))) k = if decide (onp pos cur k) then None else absm m k.
Proof.
  intros Hm Hse Hb Hs. split.
  { intros k Hk. destruct (abs_swap_on Hm Hs k Hk) as [_ ->]. by rewrite (look_data _ _ _ _ nl it). }
  intros k. destruct (decide (onp pos cur k)) as [Hk|Hk]; [|by apply (abs_swap_off Hm Hs)].
  destruct (abs_swap_on Hm Hs k Hk) as [-> _]. by apply look_null.
Qed.

Lemma abs_split pos m cur nl d0 a :
  minv pos m -> sem pos m -> hbody m nl = Some (BData [d0]) ->
  swap_ok pos m (Some (a, BInner (<[nib (keyof d0) (length (cpos pos cur)) := Sh (Some nl) false true]> empty_slots))) cur (Sh (Some nl) false true)
    (Sh (Some (m_next m)) false false) None ->
  forall k, absm (swap m (Some (a, BInner (<[nib (keyof d0) (length (cpos pos cur)) := Sh (Some nl) false true]> empty_slots))) cur
    (Sh (Some (m_next m)) false false) None) k = absm m k.
Proof.
  intros Hm Hse Hb Hs k. set (ob := nib (keyof d0) (length (cpos pos cur))) in *.
  destruct (decide (onp pos cur k)) as [Hk|Hk]; [|by apply (abs_swap_off Hm Hs)].
  destruct (abs_swap_on Hm Hs k Hk) as [-> ->]. rewrite (look_data _ m _ _ nl [d0]) by done.
  pose proof (sw_new _ _ _ _ _ _ _ Hs) as (_ & _ & Hl16 & Hlt & _).
  replace (16 - length (cpos pos cur)) with (S (15 - length (cpos pos cur))) by lia.
  set (nb := nib k (length (cpos pos cur))).
  assert (nb < 16) as Hnb by apply nib_lt.
  assert (ob < 16) as Hob by apply nib_lt.
  set (u := if decide (ob = nb) then Sh (Some nl) false true else sh_null).
  rewrite (look_inner _ _ _ _ (m_next m) u); [|done|done|].
  2:{ replace (16 - S (15 - length (cpos pos cur))) with (length (cpos pos cur)) by lia. fold nb.
      rewrite (swap_cval Hm Hs), decide_False by (intros E; by apply (swap_cur_ne Hm Hs nb)).
      rewrite decide_True by done. simpl. unfold u. destruct (decide (ob = nb)) as [<-|Hne].
      - apply list_lookup_insert. done.
      - rewrite list_lookup_insert_ne by done. unfold empty_slots. by apply lookup_replicate. }
  unfold u. destruct (decide (ob = nb)) as [E|Hne].
  - apply (look_data _ _ _ _ nl); [done|done|]. by apply (swap_data Hm Hs).
  - rewrite look_null by done. symmetry. apply find_pl_None. intros p ->%elem_of_list_singleton.
    destruct (keqb (keyof d0) k) eqn:Ek; [|done]. exfalso. apply Hne. unfold ob, nb. by apply nib_cong.
Qed.

(* pruning does not change the contents *)
Lemma abs_prune pos m o gs parent child l new na w ins pr :
  minv pos m -> sem pos m -> link_ok pos m o parent child -> cval m parent = Some child -> sh_loc child = Some l ->
  length new = 16 -> marks_ok m child new -> outcome m new ins pr ->
  swap_ok pos m na parent child w (Some (l, KInner, gs)) ->
  match ins with
  | inl x => na = None /\ w = x
  | inr sl => (exists a, na = Some (a, BInner sl)) /\ w = Sh (Some (m_next m)) false false
  end ->
  forall k, absm (swap m na parent w (Some (l, KInner, gs))) k = absm m k.
Proof.
  intros Hm Hse Hlk Hc Hl Hlen Hmk Hoc Hs Hins k.
  destruct (decide (onp pos parent k)) as [Hk|Hk]; [|by apply (abs_swap_off Hm Hs)].
  destruct (abs_swap_on Hm Hs k Hk) as [-> ->].
  pose proof Hlk as (_ & [Hp _] & Hu & Hd & _).
  pose proof (prune_slots _ _ _ _ _ Hm Hl Hlen Hmk) as Hsl.
  destruct (look_step pos m (cpos pos parent) child k l Hm Hp Hk Hl Hd) as (u & Hu' & Ec & Hpre & E). rewrite E.
  apply Hsl in Hu' as (g & Hg & ->).
  assert (length (cpos pos parent) < 16) as Hlt by (by eapply cpos_len_inner).
  assert (length (cpos pos parent ++ [nib k (length (cpos pos parent))]) = S (length (cpos pos parent))) as Ln by (rewrite app_length; simpl; lia).
  rewrite Ln. replace (16 - length (cpos pos parent)) with (S (16 - S (length (cpos pos parent)))) by lia.
  rewrite (look_flags _ m (recond g) g k) by done.
  destruct Hoc as [Hall|i leaf t p Hi Ht Hdl Hb Hoth|_ _].
  - destruct Hins as [-> ->]. rewrite !look_null; [done|by eapply Hall|done].
  - destruct Hins as [-> ->]. rewrite (look_data _ _ leaf k t [p]); [|done|done|by apply (swap_data Hm Hs)].
    destruct (decide (nib k (length (cpos pos parent)) = i)) as [<-|Hne].
    + simplify_eq. by rewrite (look_data _ m _ k t [p]).
    + rewrite (look_null _ m g k) by (eapply Hoth; [exact Hg|done]). apply find_pl_None. intros q ->%elem_of_list_singleton.
      destruct (keqb (keyof p) k) eqn:Ek; [|done]. exfalso. apply Hne.
      assert (cpos pos (CSlot l i) `prefix_of` path (keyof p)) as Hpp.
      { eapply (se_path _ _ Hse (CSlot l i) (recond leaf) t [p]); [apply Hsl; eauto|done|done|done|left]. }
      rewrite (path_cong _ k Ek) in Hpp. simpl in Hpp. apply prefix_snoc_nib in Hpp as [-> _].
      f_equal. unfold ptr_ok in Hp. rewrite Hl, Hd in Hp. by destruct Hp as (? & _ & ->).
  - destruct Hins as [[a ->] ->].
    assert (cval (swap m (Some (a, BInner new)) parent (Sh (Some (m_next m)) false false) (Some (l, KInner, gs)))
       (CSlot (m_next m) (nib k (length (cpos pos parent)))) = Some g) as Hcg.
    { rewrite (swap_cval Hm Hs), decide_False by (intros E'; by apply (swap_cur_ne Hm Hs (nib k (length (cpos pos parent))))).
      by rewrite decide_True. }
    rewrite (look_inner _ _ _ _ (m_next m) g); [|done|done|].
    2:{ by replace (16 - S (16 - S (length (cpos pos parent)))) with (length (cpos pos parent)) by lia. }
    rewrite <-Ln. apply (look_swap_frame Hm Hs); [|done|left; lia].
    assert (cval m (CSlot l (nib k (length (cpos pos parent)))) = Some (recond g)) as Hx by (apply Hsl; eauto).
    pose proof (mi_ptr _ _ Hm _ _ Hx) as Hpx. by rewrite Ec in Hpx.
Qed.

Lemma sem_prune pos m o gs parent child l new na w ins pr :
  minv pos m -> sem pos m -> link_ok pos m o parent child -> cval m parent = Some child -> sh_loc child = Some l ->
  length new = 16 -> marks_ok m child new -> outcome m new ins pr ->
  swap_ok pos m na parent child w (Some (l, KInner, gs)) ->
  match ins with
  | inl x => na = None /\ w = x
  | inr sl => (exists a, na = Some (a, BInner sl)) /\ w = Sh (Some (m_next m)) false false
  end ->
  sem (swap_pos pos m na parent) (swap m na parent w (Some (l, KInner, gs))).
Proof.
  intros Hm Hse Hlk Hc Hl Hlen Hmk Hoc Hs Hins.
  pose proof (prune_slots _ _ _ _ _ Hm Hl Hlen Hmk) as Hsl. pose proof (prune_pos _ _ _ _ _ _ Hlk Hl) as Hpos.
  eapply sem_swap; try done. destruct Hoc as [Hall|i leaf t p Hi Ht Hdl Hb Hoth|_ _].
  - destruct Hins as [-> ->]. done.
  - destruct Hins as [-> ->]. intros t' it q _ Ht' Hb' Hq. unfold onp. rewrite <-Hpos.
    apply (transitivity (y := pos l ++ [i])); [exists [i]; reflexivity|].
    apply (se_path _ _ Hse (CSlot l i) (recond leaf) t' it); [apply Hsl; eauto|done|done|done|done].
  - destruct Hins as [[a ->] ->]. intros i u t it p Hi Hd Ht Hb Hp. rewrite <-Hpos.
    apply (se_path _ _ Hse (CSlot l i) (recond u) t it); [apply Hsl; eauto|done|done|done|done].
Qed.
End look.
