(** * Timelines of executions on weakly ordered memory. *)
From Verif Require Import Model Mem Spec Weak WeakInv WeakStep WeakSys WeakRun LinSpec Inv Safe SafeStep SafeOps Look Sem SemOps WeakCoh WeakFun WeakWrite WeakWalk.

Section time.
Context {C : Config}.
Implicit Types (m : mem) (pos : loc -> list nat) (c : cell) (v : sh) (t u n N : nat) (M : nat -> mem) (H : nat -> cell -> list sh).

(** ** Positions of nodes that are not there do not matter *)
Lemma cpos_agree pos pos' m c : (forall l b, hbody m l = Some b -> pos' l = pos l) -> is_Some (cval m c) -> cpos pos' c = cpos pos c.
Proof. intros Hp [v Hv]. destruct c as [|l i]; [done|]. apply cval_slot in Hv as (sl & Hb & _). simpl. by rewrite (Hp _ _ Hb). Qed.
Lemma minv_pos pos pos' m : (forall l b, hbody m l = Some b -> pos' l = pos l) -> minv pos m -> minv pos' m.
Proof.
  intros Hp Hm. split; try apply Hm.
  - intros l sl Hb. rewrite (Hp _ _ Hb). by apply (mi_slots _ _ Hm).
  - intros c v Hv. rewrite (cpos_agree pos pos' m c Hp) by eauto. pose proof (mi_ptr _ _ Hm _ _ Hv) as Hq. unfold ptr_ok in *. destruct (sh_loc v) as [t|]; [|done].
    destruct (sh_data v); [done|]. destruct Hq as (sl & Hb & Hq). exists sl. split; [done|]. by rewrite (Hp _ _ Hb).
Qed.
Lemma ext_agree pos pos' m m' : (forall l b, hbody m' l = Some b -> pos' l = pos l) -> ext pos m pos m' -> ext pos' m pos' m'.
Proof. intros Hp He l b Hb. destruct (He _ _ Hb) as [_ H2]. by split. Qed.

(** ** One more instant *)
Definition ups {X} N (f : nat -> X) (x : X) t : X := if decide (t <= N) then f t else x.
Lemma ups_le {X} N (f : nat -> X) x t : t <= N -> ups N f x t = f t.
Proof. intros Ht. unfold ups. by rewrite decide_True. Qed.
Lemma ups_gt {X} N (f : nat -> X) x t : N < t -> ups N f x t = x.
Proof. intros Ht. unfold ups. rewrite decide_False by lia. done. Qed.

Definition grown (h h' : cell -> list sh) m m' : Prop := forall c, h' c = h c /\ cval m' c = cval m c \/
  exists v', h' c = h c ++ [v'] /\ cval m' c = Some v' /\ (cell_live m' c \/ cval m c = Some v' /\ sh_cond v' = true).

Lemma tl_step M H N pos m' h' pos' : timeline M H N pos -> minv pos' m' -> ext pos (M N) pos' m' -> (forall l, dead (M N) l -> dead m' l) ->
  grown (H N) h' (M N) m' -> timeline (ups N M m') (ups N H h') (S N) pos'.
Proof.
  intros T Hm' He Hd Hg. pose proof (tl_minv _ _ _ _ T N ltac:(lia)) as HmN.
  assert (forall t, t <= N -> forall l b, hbody (M t) l = Some b -> pos' l = pos l) as Hp.
  { intros t Ht l b Hb. pose proof (tl_ext _ _ _ _ T t N Ht ltac:(lia)) as He'. destruct b as [sl|it].
    - destruct (ext_inner _ _ _ _ _ _ He' Hb) as [sl' Hb']. by eapply ext_pos.
    - pose proof (ext_data _ _ _ _ _ _ He' Hb). by eapply ext_pos. }
  assert (forall c, H N c `prefix_of` h' c) as Hpre.
  { intros c. destruct (Hg c) as [[-> _]|(v' & -> & _)]; [done|]. by eexists. }
  assert (forall t, t <= N -> ext pos' (M t) pos' m') as Hem.
  { intros t Ht. eapply ext_trans; [|exact He]. pose proof (tl_ext _ _ _ _ T t N Ht ltac:(lia)) as He'. intros l b Hb. destruct (He' l b Hb) as [_ H2]. split; [|done]. symmetry. by eapply Hp. }
  split.
  - intros t Ht. destruct (decide (t <= N)); [rewrite ups_le by done|rewrite ups_gt by lia; done]. eapply minv_pos; [by apply Hp|by eapply tl_minv].
  - intros t u Htu Hu. destruct (decide (u <= N)); [rewrite !ups_le by lia; eapply ext_agree; [by apply Hp|by eapply tl_ext]|]. rewrite (ups_gt _ _ _ u) by lia.
    destruct (decide (t <= N)); [rewrite ups_le by done; by apply Hem|rewrite ups_gt by lia; apply ext_refl].
  - intros t u l Htu Hu. destruct (decide (u <= N)); [rewrite !ups_le by lia; by eapply tl_dead|]. rewrite (ups_gt _ _ _ u) by lia.
    destruct (decide (t <= N)); [rewrite ups_le by done|by rewrite ups_gt by lia]. intros Hl. apply Hd. eapply (tl_dead _ _ _ _ T t N); [done|lia|done].
  - intros t u c Htu Hu. destruct (decide (u <= N)); [rewrite !ups_le by lia; by eapply tl_pre|]. rewrite (ups_gt _ _ _ u) by lia.
    destruct (decide (t <= N)); [rewrite ups_le by done|by rewrite ups_gt by lia]. etrans; [eapply (tl_pre _ _ _ _ T t N); [done|lia]|apply Hpre].
  - intros t c Ht. destruct (decide (t <= N)); [rewrite !ups_le by done; by eapply tl_last|]. rewrite !ups_gt by lia. destruct (Hg c) as [[-> ->]|(v' & -> & -> & _)]; [by apply (tl_last _ _ _ _ T)|].
    by rewrite last_snoc.
  - intros c n n' v v' Hn. rewrite (ups_gt _ _ _ (S N)) by lia. intros Hv Hc Hv'. destruct (Hg c) as [[E _]|(x & E & Hx & _)]; rewrite E in Hv, Hv'; [by eapply (tl_cond _ _ _ _ T c n n')|].
    apply lookup_app_Some in Hv as [Hv|[Hlen Hv]].
    + apply lookup_app_Some in Hv' as [Hv'|[Hlen Hv']]; [by eapply (tl_cond _ _ _ _ T c n n')|]. apply list_lookup_singleton_Some in Hv' as [_ <-].
      assert (cval (M N) c = Some v) as Hcv.
      { rewrite <-(tl_last _ _ _ _ T) by lia. rewrite last_lookup. pose proof (lookup_lt_Some _ _ _ Hv) as Hlt. destruct (lookup_lt_is_Some_2 (H N c) (pred (length (H N c))) ltac:(lia)) as [z Hz].
        rewrite Hz. f_equal. eapply (tl_cond _ _ _ _ T c n); [|done|done|exact Hz]. lia. }
      destruct c as [|l i]; [simpl in Hcv; injection Hcv as <-; by rewrite (mi_root _ _ HmN) in Hc|]. rewrite (ext_cond _ _ _ _ _ _ _ He Hcv Hc) in Hx. by injection Hx as ->.
    + apply list_lookup_singleton_Some in Hv as [Hn0 <-]. apply lookup_app_Some in Hv' as [Hv'|[Hlen' Hv']]; [apply lookup_lt_Some in Hv'; lia|]. by apply list_lookup_singleton_Some in Hv' as [_ <-].
  - intros c n v. rewrite (ups_gt _ _ _ (S N)) by lia. intros Hv.
    assert (H N c !! n = Some v -> exists t, t <= S N /\ cell_live (ups N M m' t) c /\ cval (ups N M m' t) c = Some v /\ (length (ups N H h' t c) = S n \/ sh_cond v = true)) as Hold.
    { intros Hn. destruct (tl_some _ _ _ _ T _ _ _ Hn) as (t & H1 & H2 & H3 & H4). exists t. rewrite !ups_le by done. split; [lia|done]. }
    destruct (Hg c) as [[E _]|(x & E & Hx & Hor)]; rewrite E in Hv; [by apply Hold|]. apply lookup_app_Some in Hv as [Hv|[Hlen Hv]]; [by apply Hold|].
    apply list_lookup_singleton_Some in Hv as [Hn0 <-]. destruct Hor as [Hl|[Hc Hcd]].
    + exists (S N). rewrite !ups_gt by lia. split; [done|]. split; [done|]. split; [done|]. left. rewrite E, app_length. simpl. lia.
    + rewrite <-(tl_last _ _ _ _ T), last_lookup in Hc by lia. destruct (tl_some _ _ _ _ T _ _ _ Hc) as (t & H1 & H2 & H3 & H4). exists t. rewrite !ups_le by done. split; [lia|]. split; [done|]. split; [done|by right].
Qed.

Section up.
Context M H N pos m' h' pos' (T : timeline M H N pos) (T' : timeline (ups N M m') (ups N H h') (S N) pos').
Lemma hist_up c n v : H N c !! n = Some v -> ups N H h' (S N) c !! n = Some v.
Proof. intros Hn. eapply prefix_lookup; [exact Hn|]. pose proof (tl_pre _ _ _ _ T' N (S N) c ltac:(lia) ltac:(lia)) as Hp. by rewrite (ups_le N H h' N) in Hp by lia. Qed.
Lemma walk_up k ws : walk H N k ws -> walk (ups N H h') (S N) k ws.
Proof.
  intros [H0 Hw]. split; [done|]. intros i c n c' n' H1 H2. destruct (Hw _ _ _ _ _ H1 H2) as (v & x & Hv & Hx & Hd & ->). exists v, x. split; [|done]. by apply hist_up.
Qed.
Lemma holds_up t c n v : holds M H N t c n v -> holds (ups N M m') (ups N H h') (S N) t c n v.
Proof. intros (H1 & H2 & H3 & H4 & H5). unfold holds. rewrite !(ups_le _ _ _ t) by done. split; [lia|]. split; [done|]. split; [done|]. split; [by apply hist_up|done]. Qed.
End up.

(** ** Pointers read from old values *)
Lemma hist_ptr M H N pos c n v : timeline M H N pos -> H N c !! n = Some v -> ptr_ok pos (M N) (cpos pos c) v /\ (c = CRoot -> sh_cond v = false) /\ is_Some (cval (M N) c).
Proof.
  intros T Hn. destruct (tl_some _ _ _ _ T _ _ _ Hn) as (t & H1 & H2 & H3 & H4). pose proof (tl_minv _ _ _ _ T t H1) as Hm. pose proof (tl_ext _ _ _ _ T t N H1 ltac:(lia)) as He.
  split; [eapply ptr_ok_ext; [exact He|by apply (mi_ptr _ _ Hm)]|]. split.
  - intros ->. simpl in H3. injection H3 as <-. apply (mi_root _ _ Hm).
  - destruct (ext_cval _ _ _ _ _ _ He H3) as [v' Hv']. by eexists.
Qed.

(** What a walk that ends in a leaf finds is what the map held for the key then. *)
Lemma holds_abs {HC : ConfigOk C} M H N pos k ws c n v t : timeline M H N pos -> walk H N k (ws ++ [(c, n)]) -> holds M H N t c n v -> leafy v ->
  forall k', keqb k k' = true -> absm (M t) k' = look 0 (M N) v k'.
Proof.
  intros T Hw Hh Hlf k' Hk. destruct (walk_level _ _ _ _ T _ _ (length ws) c n Hw) as (_ & Hp & _); [by rewrite lookup_app_r, Nat.sub_diag by done|].
  destruct Hh as (H1 & H2 & H3 & _). pose proof (tl_minv _ _ _ _ T t H1) as Hm. rewrite <-(lookc_abs pos (M t) c k' Hm); [|by eexists|done|unfold onp; by rewrite <-(path_cong _ _ Hk)].
  unfold lookc. rewrite H3. destruct Hlf as [Hn|Hd]; [by rewrite !look_null|]. pose proof (mi_ptr _ _ Hm _ _ H3) as Hq. unfold ptr_ok in Hq. destruct (sh_loc v) as [l|] eqn:El; [|congruence].
  rewrite Hd in Hq. destruct Hq as (it & Hb & _). rewrite (look_data _ _ _ _ l it El Hd Hb). symmetry. apply (look_data _ _ _ _ l it El Hd).
  eapply ext_data; [eapply (tl_ext _ _ _ _ T t N); [done|lia]|done].
Qed.
End time.

(** ** What a write adds to the histories *)
Section wr.
Context {C : Config} {HC : ConfigOk C}.
Implicit Types (m : mem) (pos : loc -> list nat) (c : cell) (v : sh) (o : opid) (op : oper) (s : wstate).

Definition vals (h : cell -> list msg) : cell -> list sh := fun c => (h c).*1.

Lemma cas_val_uncond pos m o p : minv pos m -> pc_ok pos m o p -> sh_cond (cas_val p) = false.
Proof.
  intros Hm Hp. destruct p; try done. destruct ins as [u|sl]; [|done]. destruct Hp as (Hl & _ & new & _ & Hmk & Hch). destruct Hl as (_ & _ & _ & _ & [l El]).
  pose proof (choose_outcome _ _ _ _ _ _ _ Hm Hmk El Hch) as Ho. inversion Ho as [|i leaf t p0 Hi ? ? ? ?|]; subst; [done|]. simpl. by apply (Hmk l i u).
Qed.

Lemma mtr_dead gs pos m pos' m' l : minv pos m -> mtr gs pos m pos' m' -> dead m l -> dead m' l.
Proof. intros Hm Ht Hd. destruct Ht as [| | |na cur v w old Hs Hold]; [done|done|done|]. apply (swap_dead Hm Hs). by left. Qed.

Lemma write_grown w s o n spur a s' op p nx c kd ord v W W' acts pos pos' H : winv s -> winv s' -> minv pos (w_mem s) -> minv pos' (w_mem s') ->
  pc_ok pos (vw o (w_mem s)) o p -> (forall c, H c = vals (w_hist s) c) -> (forall c, last (H c) = cval (w_mem s) c) ->
  access w p = Some (c, kd, ord) -> (kd = AFetch \/ kd = ACas /\ cas_wins (w_mem s) p spur = true) ->
  w_hist s c !! n = Some (v, W) -> S n = length (w_hist s c) -> is_Some (cval (w_mem s) c) ->
  op_step ∅ (w_mem s) p spur a = Some (w_mem s', nx, acts) ->
  w_hist s' = hist_write (hist_alloc (w_mem s) (w_mem s') (w_hist s)) c (default sh_null (read_cell (w_mem s') c), W') ->
  grown H (vals (w_hist s')) (w_mem s) (w_mem s') /\ length (w_hist s' c) = S (length (w_hist s c)).
Proof.
  intros Hs Hs' Hm Hm' Hpc HH Hlast Hacc Hk Hn Hlen [v0 Hv0] Hst Hh'. set (m := w_mem s) in *. set (m' := w_mem s') in *.
  assert (forall l i, c = CSlot l i -> l <> m_next m) as Hcn. { intros l i -> ->. simpl in Hv0. by rewrite (next_fresh _ _ Hm) in Hv0. }
  assert (hist_alloc m m' (w_hist s) c = w_hist s c) as Hac. { destruct c as [|l i]; [done|]. simpl. rewrite decide_False; [done|]. intros [-> _]. by eapply Hcn. }
  assert (exists v', cval m' c = Some v' /\ (cell_live m' c \/ cval m c = Some v' /\ sh_cond v' = true) /\
     (forall x, x <> c -> hist_alloc m m' (w_hist s) x = w_hist s x /\ cval m' x = cval m x \/ exists v', vals (hist_alloc m m' (w_hist s)) x = vals (w_hist s) x ++ [v'] /\ cval m' x = Some v' /\ cell_live m' x)) as (v' & Hv' & Hlv & Hoth).
  { destruct Hk as [->|[-> Hwin]].
    - assert (read_cell m c = Some v0) as Hr by (unfold m; rewrite read_is_cval by done; exact Hv0).
      pose proof (fetch_mem _ _ _ _ _ _ _ _ _ _ _ Hacc Hr Hst) as E. exists (recond v0). rewrite E. split; [by eapply cval_write_eq|]. split.
      + destruct (cell_live_dec m c) as [Hl|(l & i & -> & Hd)]; [left; by destruct c|]. right. pose proof (mi_deadcond _ _ Hm _ _ _ Hd Hv0) as Hcd. split; [|done]. rewrite Hv0. f_equal. destruct v0; simpl in *. by subst.
      + intros x Hx. left. split; [|apply cval_write_ne; congruence]. destruct x as [|l i]; [done|]. simpl. rewrite decide_False; [done|]. intros [_ Hne]. apply Hne. by destruct c.
    - pose proof (cas_mem _ _ _ _ _ _ _ _ _ _ Hacc Hwin Hst) as Hsm. fold m' in Hsm. destruct (new_body p) as [b|] eqn:Eb.
      + assert (cval m' c = Some (Sh (Some (m_next m)) false (isdata b))) as Hcv.
        { rewrite (sm_cval _ _ _ Hsm). eapply cval_write_eq. destruct c as [|l i]; [done|]. cbn [cval]. rewrite hbody_alloc, decide_False; [exact Hv0|]. by eapply Hcn. }
        assert (cell_live m' c) as Hl by (by eapply uncond_live). eexists. split; [exact Hcv|]. split; [by left|]. intros x Hx.
        assert (m_next m' = Pos.succ (m_next m)) as Hnx. { rewrite (sm_next _ _ Hsm). by destruct c. }
        destruct x as [|l i].
        { left. split; [done|]. rewrite (sm_cval _ _ _ Hsm), cval_write_ne by congruence. done. }
        destruct (decide (l = m_next m)) as [->|Hne].
        * assert (cval m (CSlot (m_next m) i) = None) as Hnone. { simpl. by rewrite (next_fresh _ _ Hm). }
          assert (vals (w_hist s) (CSlot (m_next m) i) = []) as Hnil. { rewrite <-HH. specialize (Hlast (CSlot (m_next m) i)). rewrite Hnone in Hlast. by apply last_None in Hlast. }
          assert (hist_alloc m m' (w_hist s) (CSlot (m_next m) i) = match ptrs m' (m_next m) !! i with Some v => [(v, ∅)] | None => [] end) as Hha.
          { simpl. rewrite decide_True; [done|]. split; [done|]. rewrite Hnx. lia. }
          assert (ptrs m' (m_next m) !! i = cval m' (CSlot (m_next m) i)) as Hpt.
          { unfold ptrs. simpl. unfold hbody. destruct (m_heap m' !! m_next m) as [[ad [sl|it]]|]; done. }
          unfold vals. rewrite Hha, Hpt. destruct (cval m' (CSlot (m_next m) i)) as [z|] eqn:Ez.
          -- right. exists z. fold (vals (w_hist s) (CSlot (m_next m) i)). rewrite Hnil. split; [done|]. split; [done|]. by eapply (mi_live _ _ Hm' c).
          -- left. split; [|done]. symmetry. by eapply fmap_nil_inv.
        * left. split; [simpl; rewrite decide_False; [done|]; by intros [? _]|]. rewrite (sm_cval _ _ _ Hsm), cval_write_ne by congruence. simpl. by rewrite hbody_alloc, decide_False.
      + assert (cval m' c = Some (cas_val p)) as Hcv by (rewrite (sm_cval _ _ _ Hsm); by eapply cval_write_eq).
        exists (cas_val p). split; [done|]. split; [left; eapply uncond_live; [done|done|]; eapply (cas_val_uncond pos (vw o m)); [by apply tag_minv_1|done]|].
        intros x Hx. left. split; [|rewrite (sm_cval _ _ _ Hsm); apply cval_write_ne; congruence]. destruct x as [|l i]; [done|]. simpl. rewrite decide_False; [done|]. intros [_ Hne]. apply Hne. rewrite (sm_next _ _ Hsm). by destruct c. }
  split.
  - intros x. rewrite HH. unfold vals at 1 3. rewrite Hh'. destruct (decide (x = c)) as [->|Hne].
    + right. exists v'. rewrite hist_write_eq, Hac, fmap_app. unfold m'. rewrite read_is_cval by done. fold m'. rewrite Hv'. done.
    + rewrite hist_write_ne by done. destruct (Hoth x Hne) as [[-> ?]|(z & Hz & ? & ?)]; [by left|]. right. exists z. split; [exact Hz|]. split; [done|by left].
  - by rewrite Hh', hist_write_eq, Hac, app_length, Nat.add_comm.
Qed.
End wr.
