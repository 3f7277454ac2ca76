(** * Iterators on weakly ordered memory: for every key, an iterator does what a lookup would do. *)
From Verif Require Import Model Mem Spec Weak WeakInv WeakStep WeakSys WeakRun LinSpec Inv Safe SafeStep SafeOps Look Sem SemOps Iter WeakCoh WeakFun WeakWrite WeakWalk WeakTime.

Section witer.
Context {C : Config} {HC : ConfigOk C} (w : orders).
Implicit Types (m : mem) (pos : loc -> list nat) (c : cell) (v : sh) (o : opid) (k : Key) (lv : list (sh * nat)) (out : list rref)
  (M : nat -> mem) (H : nat -> cell -> list sh) (P : list (cell * nat) -> Prop).

(** ** Walks *)
Lemma walk_end H N k ws c n n' : walk H N k (ws ++ [(c, n)]) -> walk H N k (ws ++ [(c, n')]).
Proof.
  intros [[n0 H0] Hw]. split.
  - destruct ws as [|x ws]; simpl in *; [|by exists n0]. injection H0 as -> _. by exists n'.
  - intros i c1 n1 c2 n2 H1 H2. pose proof (lookup_lt_Some _ _ _ H2) as Hlt. rewrite app_length in Hlt. simpl in Hlt.
    rewrite lookup_app_l in H1 by lia. assert (exists n3, (ws ++ [(c, n)]) !! S i = Some (c2, n3)) as [n3 H3].
    { destruct (decide (S i < length ws)) as [Hl|Hl]; [rewrite lookup_app_l in H2 |- * by lia; by exists n2|]. assert (S i = length ws) as E by lia.
      rewrite E in *. rewrite lookup_app_r, Nat.sub_diag in H2 |- * by lia. simpl in *. injection H2 as -> ->. by exists n. }
    eapply Hw; [|exact H3]. rewrite lookup_app_l by lia. exact H1.
Qed.
Lemma walk_root H N k n : walk H N k [(CRoot, n)].
Proof. split; [by exists n|]. intros i c n1 c' n' H1 H2. by destruct i. Qed.
Lemma walk_snoc H N k ws c n v x n' : walk H N k (ws ++ [(c, n)]) -> H N c !! n = Some v -> sh_loc v = Some x -> sh_data v = false ->
  walk H N k ((ws ++ [(c, n)]) ++ [(CSlot x (nib k (length ws)), n')]).
Proof.
  intros [[n0 H0] Hw] Hv Hx Hd. split.
  - exists n0. rewrite lookup_app_l; [done|]. rewrite app_length. simpl. lia.
  - intros i c1 n1 c2 n2 H1 H2. pose proof (lookup_lt_Some _ _ _ H2) as Hlt. rewrite !app_length in Hlt. simpl in Hlt.
    rewrite lookup_app_l in H1 by (rewrite app_length; simpl; lia). destruct (decide (S i < length (ws ++ [(c, n)]))) as [Hl|Hl].
    + rewrite lookup_app_l in H2 by done. by eapply Hw.
    + rewrite app_length in Hl. simpl in Hl. assert (i = length ws) as -> by lia. rewrite lookup_app_r, Nat.sub_diag in H1 by lia. simpl in H1. injection H1 as <- <-.
      rewrite lookup_app_r in H2 by (rewrite app_length; simpl; lia). rewrite app_length in H2. simpl in H2. replace (S (length ws) - (length ws + 1)) with 0 in H2 by lia. simpl in H2. injection H2 as <- <-.
      exists v, x. done.
Qed.


(** ** The state of an iterator *)
(** The node in which the iterator is going to look for key [k], and its depth; [None]: it has been there. *)
Fixpoint iat lv k : option (loc * nat) :=
  match lv with
  | [] => None
  | (v, idx) :: rest =>
      if decide (spos rest `prefix_of` path k) then
        match sh_loc v with Some t => if sh_data v then None else if decide (idx <= nib k (length rest)) then Some (t, length rest) else None | None => None end
      else iat rest k
  end.
(** What is left of the leaf on top. *)
Definition ipend m lv : list Pl :=
  match lv with
  | (v, idx) :: _ => if sh_data v then match sh_loc v with Some t => match hbody m t with Some (BData it) => drop idx it | _ => [] end | None => [] end else []
  | [] => []
  end.
Definition istat m lv out k : option (option Pl) := if iat lv k then None else Some (find_pl k (Iter.vals out ++ ipend m lv)).

Record iok P H N pos m lv out : Prop := {
  io_stk : istk pos m lv;
  io_nodup : nodupk (Iter.vals out ++ ipend m lv);
  io_new : forall k t d, iat lv k = Some (t, d) -> find_pl k (Iter.vals out ++ ipend m lv) = None;
  io_track : forall k t d, iat lv k = Some (t, d) -> exists ws c n v, walk H N k (ws ++ [(c, n)]) /\ H N c !! n = Some v /\ sh_loc v = Some t /\ sh_data v = false /\ length ws = d /\ P (ws ++ [(c, n)]);
}.

(** Key [k] has just been looked up, with result [x]. *)
Definition decides P H N m k (x : option Pl) : Prop :=
  exists ws c n v, walk H N k (ws ++ [(c, n)]) /\ leafy v /\ H N c !! n = Some v /\ P (ws ++ [(c, n)]) /\ forall k', keqb k k' = true -> x = look 0 m v k'.

Lemma iat_spos lv k t d pos m : istk pos m lv -> iat lv k = Some (t, d) -> exists v idx rest pre, lv = pre ++ (v, idx) :: rest /\ sh_loc v = Some t /\ sh_data v = false /\ d = length rest /\ idx <= nib k d /\ spos rest `prefix_of` path k.
Proof.
  intros _. induction lv as [|[v idx] rest IH]; [done|]. cbn [iat]. destruct (decide _) as [Hp|Hp].
  - destruct (sh_loc v) as [t'|] eqn:E; [|done]. destruct (sh_data v) eqn:Ed; [done|]. destruct (decide _); [|done]. intros [= <- <-]. exists v, idx, rest, []. done.
  - intros (v1 & i1 & r1 & pre & -> & Hx)%IH. exists v1, i1, r1, ((v, idx) :: pre). done.
Qed.
Lemma iat_below pos m v idx rest k : istk pos m ((v, idx) :: rest) -> spos rest `prefix_of` path k -> iat rest k = None.
Proof.
  cbn [istk]. intros (_ & _ & Hb & _) Hp. destruct rest as [|[v' i'] rest]; [done|]. destruct Hb as (Hd & [t Ht] & Hi). cbn [spos iat] in *.
  apply prefix_snoc_nib in Hp as [E Hp]. rewrite decide_True by done. rewrite Ht, Hd. rewrite spos_length in E. rewrite decide_False by lia. done.
Qed.
Lemma ipend_below pos m v idx rest : istk pos m ((v, idx) :: rest) -> ipend m rest = [].
Proof. cbn [istk]. intros (_ & _ & Hb & _). destruct rest as [|[v' i'] rest]; [done|]. destruct Hb as (Hd & _). cbn [ipend]. by rewrite Hd. Qed.
(** The top has nothing left to say. *)
Lemma iok_pop P H N pos m v idx rest out : (forall k, spos rest `prefix_of` path k -> iat ((v, idx) :: rest) k = None) -> ipend m ((v, idx) :: rest) = [] ->
  iok P H N pos m ((v, idx) :: rest) out -> iok P H N pos m rest out /\ forall k, istat m rest out k = istat m ((v, idx) :: rest) out k.
Proof.
  intros Ht Hp [H1 H2 H3 H4]. pose proof (ipend_below _ _ _ _ _ H1) as Hb. assert (forall k, iat rest k = iat ((v, idx) :: rest) k) as Ha.
  { intros k. destruct (decide (spos rest `prefix_of` path k)) as [Hq|Hq]; [by rewrite (iat_below _ _ _ _ _ _ H1 Hq), Ht|]. cbn [iat]. by rewrite decide_False. }
  split.
  - split; [by destruct H1 as (_ & _ & _ & ?)|by rewrite Hb, <-Hp|intros k t d Hk; rewrite Hb, <-Hp; rewrite Ha in Hk; by eapply H3|intros k t d Hk; rewrite Ha in Hk; by eapply H4].
  - intros k. unfold istat. by rewrite Ha, Hb, Hp.
Qed.

Lemma nodupk_app (l l' : list Pl) : nodupk l -> nodupk l' -> (forall p, p ∈ l' -> find_pl (keyof p) l = None) -> nodupk (l ++ l').
Proof.
  intros Hl Hl' Hd. induction l as [|q l IH]; [done|]. simpl. apply nodupk_cons in Hl as [H1 H2]. apply nodupk_cons. split.
  - intros r [Hr|Hr]%elem_of_app; [by apply H1|]. specialize (Hd _ Hr). rewrite find_pl_cons in Hd. by destruct (keqb (keyof q) (keyof r)).
  - apply IH; [done|]. intros p Hp. specialize (Hd _ Hp). rewrite find_pl_cons in Hd. by destruct (keqb (keyof q) (keyof p)).
Qed.

Lemma nodupk_app_l (l l' : list Pl) : nodupk (l ++ l') -> nodupk l.
Proof.
  induction l as [|q l IH]; [intros _; apply nodupk_nil|]. simpl. rewrite !nodupk_cons. intros [H1 H2]. split; [|by apply IH]. intros r Hr. apply H1. apply elem_of_app. by left.
Qed.

Lemma find_pl_nodup (l : list Pl) p k : nodupk l -> p ∈ l -> keqb (keyof p) k = true -> find_pl k l = Some p.
Proof.
  induction l as [|q l IH]; [by intros _ ?%elem_of_nil|]. rewrite nodupk_cons, find_pl_cons. intros [H1 H2] [->|Hp]%elem_of_cons Hk; [by rewrite Hk|]. rewrite IH by done.
  destruct (keqb (keyof q) k) eqn:E; [|done]. specialize (H1 _ Hp). rewrite keqb_sym in Hk. rewrite (keqb_trans _ _ _ E Hk) in H1. done.
Qed.

(** What a new value on top says about the keys below it. *)
Lemma istat_leaf pos m v rest out k : istk pos m ((v, 0) :: rest) -> leafy v -> find_pl k (Iter.vals out) = None -> spos rest `prefix_of` path k ->
  istat m ((v, 0) :: rest) out k = Some (look 0 m v k).
Proof.
  intros Hs Hlf Hn Hp. unfold istat. cbn [iat ipend]. rewrite decide_True by done. destruct Hs as (Hptr & _). unfold ptr_ok in Hptr. destruct (sh_loc v) as [t|] eqn:Et.
  - destruct Hlf as [Hx|Hd]; [congruence|]. rewrite Hd in *. destruct Hptr as (it & Hb & _). rewrite Hb. rewrite find_pl_app, Hn. rewrite drop_0. f_equal. symmetry. by eapply look_data.
  - rewrite look_null by done. destruct (sh_data v); rewrite app_nil_r; by rewrite Hn.
Qed.

Definition leaf_path H N pos m : Prop := forall c n v t it p, H N c !! n = Some v -> sh_data v = true -> sh_loc v = Some t -> hbody m t = Some (BData it) -> p ∈ it -> cpos pos c `prefix_of` path (keyof p).

(** ** Steps *)
Lemma iok_mono P P' H N H' N' pos m lv out : (forall ws, P ws -> P' ws) -> (forall k ws, walk H N k ws -> walk H' N' k ws) -> (forall c, H N c `prefix_of` H' N' c) -> iok P H N pos m lv out -> iok P' H' N' pos m lv out.
Proof.
  intros HP HK HH [H1 H2 H3 H4]. split; try done. intros k t d Hk. destruct (H4 _ _ _ Hk) as (ws & c & n & v & A1 & A2 & A3 & A4 & A5 & A6). exists ws, c, n, v.
  split; [by apply HK|]. split; [by eapply prefix_lookup|]. repeat (split; [done|]). by apply HP.
Qed.

Lemma inew_weak P' M H N pos m spur a mo nx acts n v : timeline M H N pos -> M N = m -> sem pos m -> leaf_path H N pos m -> H N CRoot !! n = Some v ->
  P' [(CRoot, n)] -> op_step ∅ (write_cell m CRoot v) INew spur a = Some (mo, nx, acts) ->
  acts = [] /\ exists lv, nx = NRun (INext lv []) /\ iok P' H N pos m lv [] /\ forall k, istat m lv [] k = None \/ exists x, istat m lv [] k = Some x /\ decides P' H N m k x.
Proof.
  intros T Hm Hse Hlp Hn HP Hst. cbn [op_step write_cell m_root] in Hst. injection Hst as <- <- <-. split; [done|]. eexists. split; [done|].
  destruct (hist_ptr _ _ _ _ _ _ _ T Hn) as (Hptr & _ & _). rewrite Hm in Hptr. cbn [cpos] in Hptr.
  assert (istk pos m [(v, 0)]) as Hs. { cbn [istk spos]. split; [done|]. split; [|done]. intros. apply prefix_nil. }
  assert (forall k t d, iat [(v, 0)] k = Some (t, d) -> sh_loc v = Some t /\ sh_data v = false /\ d = 0) as Hat.
  { intros k t d. cbn [iat spos length]. rewrite decide_True by apply prefix_nil. destruct (sh_loc v) as [t'|]; [|done]. destruct (sh_data v); [done|]. destruct (decide _); [|done]. by intros [= <- <-]. }
  split.
  - split.
    + done.
    + unfold Iter.vals. simpl. unfold ptr_ok in Hptr. destruct (sh_data v) eqn:Ed; [|apply nodupk_nil]. destruct (sh_loc v) as [t|]; [|apply nodupk_nil]. destruct Hptr as (it & Hb & _). rewrite Hb, drop_0. by eapply se_nodup.
    + intros k t d Hk. destruct (Hat _ _ _ Hk) as (H1 & H2 & _). unfold Iter.vals. simpl. by rewrite H2.
    + intros k t d Hk. destruct (Hat _ _ _ Hk) as (H1 & H2 & ->). exists [], CRoot, n, v. split; [apply walk_root|]. done.
  - intros k. destruct (iat [(v, 0)] k) as [[t d]|] eqn:E; [left; unfold istat; by rewrite E|]. right. assert (leafy v) as Hlf.
    { unfold leafy. cbn [iat spos length] in E. rewrite decide_True in E by apply prefix_nil. destruct (sh_loc v); [|by left]. destruct (sh_data v); [by right|]. rewrite decide_True in E by lia. done. }
    eexists. split; [apply (istat_leaf pos); [done|done|done|apply prefix_nil]|]. exists [], CRoot, n, v. split; [apply walk_root|]. split; [done|]. split; [done|]. split; [done|].
    intros k' Hk. unfold ptr_ok in Hptr. destruct (sh_loc v) as [t|] eqn:Et; [|by rewrite !look_null]. destruct Hlf as [|Hd]; [congruence|]. rewrite Hd in Hptr. destruct Hptr as (it & Hb & _).
    rewrite !(look_data 0 m v _ t it) by done. by apply find_pl_cong.
Qed.

(** A step that reads no cell. *)
Lemma inext_local P H N pos m o lv out spur a mo nx acts : pc_ok pos (vw o m) o (INext lv out) -> iok P H N pos m lv out -> access w (INext lv out) = None ->
  m_freed m = [] -> op_step ∅ m (INext lv out) spur a = Some (mo, nx, acts) ->
  match nx with
  | NRun (INext lv' out') => iok P H N pos m lv' out' /\ (forall k, istat m lv' out' k = istat m lv out k) /\ (acts = [] /\ out' = out \/ exists r, acts = [AYield r] /\ out' = out ++ [r])
  | NRet (RIter ys) => ys = out /\ acts = [] /\ forall k, istat m lv out k = Some (find_pl k (Iter.vals out))
  | _ => False
  end.
Proof.
  intros Hpc Hi Hacc Hfr Hst. destruct Hpc as [Hstk _]. cbn [op_step] in Hst. destruct lv as [|[v idx] rest].
  { injection Hst as <- <- <-. split; [done|]. split; [done|]. intros k. unfold istat. cbn [iat ipend]. by rewrite app_nil_r. }
  pose proof (io_stk _ _ _ _ _ _ _ Hi) as Hs. pose proof Hs as (Hptr & Hleaf & Hbel & Hrest). cbn [access] in Hacc.
  destruct (is_null v) eqn:Enl.
  { injection Hst as <- <- <-. unfold is_null in Enl. destruct (sh_loc v) eqn:El; [done|]. destruct (iok_pop P H N pos m v idx rest out) as [H1 H2]; [| |done|split; [done|]; split; [done|by left]].
    - intros k Hk. cbn [iat]. rewrite decide_True by done. by rewrite El.
    - cbn [ipend]. rewrite El. by destruct (sh_data v). }
  unfold is_null in Enl. destruct (sh_loc v) as [l|] eqn:El; [|done]. destruct (sh_data v) eqn:Ed.
  { unfold ptr_ok in Hptr. rewrite El, Ed in Hptr. destruct Hptr as (it & Hb & _).
    assert (load_data m v = inr it) as Hld.
    { unfold load_data. rewrite Ed. cbn [negb]. rewrite El. unfold deref. assert (freed m l = false) as ->. { unfold freed. apply bool_decide_eq_false. rewrite Hfr. apply not_elem_of_nil. } change (ho_body <$> m_heap m !! l) with (hbody m l). by rewrite Hb. }
    rewrite Hld in Hst. destruct (it !! idx) as [p|] eqn:Ei.
    - injection Hst as <- <- <-. assert (Iter.vals (out ++ [RRef l idx p]) ++ ipend m ((v, S idx) :: rest) = Iter.vals out ++ ipend m ((v, idx) :: rest)) as E.
      { unfold Iter.vals. rewrite fmap_app. cbn [ipend]. rewrite Ed, El, Hb. rewrite (drop_S _ _ _ Ei). simpl. by rewrite <-app_assoc. }
      assert (forall k, iat ((v, S idx) :: rest) k = iat ((v, idx) :: rest) k) as Ea. { intros k. cbn [iat]. by rewrite El, Ed. }
      split; [|split; [|right; eauto]].
      + split; [exact Hs|rewrite E; apply Hi| |].
        * intros k t d. rewrite E, Ea. apply Hi.
        * intros k t d. rewrite Ea. apply Hi.
      + intros k. unfold istat. by rewrite Ea, E.
    - injection Hst as <- <- <-. apply lookup_ge_None in Ei. destruct (iok_pop P H N pos m v idx rest out) as [H1 H2]; [| |done|split; [done|]; split; [done|by left]].
      + intros k Hk. cbn [iat]. rewrite decide_True by done. by rewrite El, Ed.
      + cbn [ipend]. rewrite Ed, El, Hb. by apply drop_ge. }
  assert (LEVEL_CELLS <=? idx = true) as Ege. { destruct (LEVEL_CELLS <=? idx) eqn:E; [done|]. exfalso. revert Hacc. clear. discriminate. }
  assert (idx <? LEVEL_CELLS = false) as Elt. { apply Nat.ltb_ge. by apply Nat.leb_le in Ege. }
  rewrite Elt in Hst. injection Hst as <- <- <-. destruct (iok_pop P H N pos m v idx rest out) as [H1 H2]; [| |done|split; [done|]; split; [done|by left]].
  - intros k Hk. cbn [iat]. rewrite decide_True by done. rewrite El, Ed. apply Nat.leb_le in Ege. unfold LEVEL_CELLS in Ege. rewrite decide_False; [done|]. pose proof (nib_lt k (length rest)). lia.
  - cbn [ipend]. by rewrite Ed.
Qed.

(** A step that reads the [n]-th value of a cell. *)
Lemma inext_read P P' M H N pos m o lv out spur a mo nx acts c kd ord n u : timeline M H N pos -> M N = m -> sem pos m -> leaf_path H N pos m ->
  pc_ok pos (vw o m) o (INext lv out) -> iok P H N pos m lv out -> access w (INext lv out) = Some (c, kd, ord) -> H N c !! n = Some u -> m_freed m = [] ->
  (forall ws, P ws -> P' ws) -> (forall ws, P ws -> P' (ws ++ [(c, n)])) ->
  op_step ∅ (write_cell m c u) (INext lv out) spur a = Some (mo, nx, acts) ->
  acts = [] /\ exists lv', nx = NRun (INext lv' out) /\ iok P' H N pos m lv' out /\
    forall k, istat m lv' out k = istat m lv out k \/ istat m lv out k = None /\ exists x, istat m lv' out k = Some x /\ decides P' H N m k x.
Proof.
  intros T HMN Hse Hlp Hpc Hi Hacc Hu Hfr HP1 HP2 Hst. destruct Hpc as [Hstk _]. cbn [op_step] in Hst. destruct lv as [|[v idx] rest]; [done|]. cbn [access] in Hacc.
  destruct (is_null v) eqn:Enl; [done|]. destruct (sh_data v) eqn:Ed; [done|]. destruct (LEVEL_CELLS <=? idx) eqn:Ege; [done|]. cbn [orb] in Hacc.
  unfold is_null in Enl. destruct (sh_loc v) as [l|] eqn:El; [|done]. simpl in Hacc. injection Hacc as <- <- <-.
  apply Nat.leb_gt in Ege. rewrite (proj2 (Nat.ltb_lt _ _) Ege) in Hst. unfold LEVEL_CELLS in Ege.
  destruct (hist_ptr _ _ _ _ _ _ _ T Hu) as (Huptr & _ & [u0 Hu0]). rewrite HMN in Huptr, Hu0.
  assert (read_cell (write_cell m (CSlot l idx) u) (CSlot l idx) = Some u) as Hrd.
  { apply cval_read_cell; [by eapply cval_write_eq|]. intros l' i' [= <- <-]. by apply no_freed. }
  rewrite Hrd in Hst.
  pose proof (io_stk _ _ _ _ _ _ _ Hi) as Hs. pose proof Hs as (Hptr & Hleaf & Hbel & Hrest). unfold ptr_ok in Hptr. rewrite El, Ed in Hptr. destruct Hptr as (sl & Hb & Hpos).
  pose proof (tl_minv _ _ _ _ T N ltac:(lia)) as Hm. rewrite HMN in Hm. pose proof (mi_slots _ _ Hm _ _ Hb) as [_ Hlt]. rewrite Hpos, spos_length in Hlt.
  destruct (MAX_LEVELS + 1 <=? length ((v, idx) :: rest)) eqn:Emx.
  { exfalso. apply Nat.leb_le in Emx. unfold MAX_LEVELS, HASH_BITS, LEVEL_BITS in Emx. simpl in Emx. lia. }
  injection Hst as <- <- <-. split; [done|]. eexists. split; [done|].
  assert (cpos pos (CSlot l idx) = spos rest ++ [idx]) as Ecp by (simpl; by rewrite Hpos). rewrite Ecp in Huptr.
  set (lv' := (u, 0) :: (v, S idx) :: rest).
  assert (istk pos m lv') as Hs'.
  { unfold lv'. cbn [istk spos]. change (pred (S idx)) with idx. split; [done|]. split; [intros t it p Hd Ht Hbt Hp; rewrite <-Ecp; by eapply Hlp|].
    split; [split; [done|]; split; [by eexists|lia]|]. split; [unfold ptr_ok; rewrite El, Ed; by exists sl|]. split; [|split; [exact Hbel|exact Hrest]]. intros t it p Hd. congruence. }
  assert (ipend m ((v, idx) :: rest) = []) as Hpend. { cbn [ipend]. by rewrite Ed. }
  (* keys that are not below the cell *)
  assert (forall k, ~ spos rest ++ [idx] `prefix_of` path k -> iat lv' k = iat ((v, idx) :: rest) k) as Hother.
  { intros k Hk. unfold lv'. cbn [iat spos]. change (pred (S idx)) with idx. rewrite decide_False by done. destruct (decide _) as [Hp|Hp]; [|done]. rewrite El, Ed.
    assert (nib k (length rest) <> idx) as Hne. { intros E. apply Hk. rewrite <-E, <-(spos_length rest). apply prefix_snoc_path; [done|]. rewrite spos_length. lia. }
    destruct (decide (S idx <= _)); [by rewrite decide_True by lia|by rewrite decide_False by lia]. }
  assert (forall k, spos rest ++ [idx] `prefix_of` path k -> iat ((v, idx) :: rest) k = Some (l, length rest)) as Hthis.
  { intros k Hk. pose proof (prefix_snoc_nib _ _ _ Hk) as [E Hp]. rewrite spos_length in E. cbn [iat]. rewrite decide_True by done. rewrite El, Ed, decide_True by lia. done. }
  assert (forall p, p ∈ ipend m lv' -> spos rest ++ [idx] `prefix_of` path (keyof p)) as Hitems.
  { intros p Hp. unfold lv' in Hp. cbn [ipend] in Hp. destruct (sh_data u) eqn:Edu; [|by apply elem_of_nil in Hp]. destruct (sh_loc u) as [t|] eqn:Et; [|by apply elem_of_nil in Hp].
    destruct (hbody m t) as [[?|it]|] eqn:Eb; try (by apply elem_of_nil in Hp). rewrite drop_0 in Hp. rewrite <-Ecp. by eapply Hlp. }
  assert (forall k, ~ spos rest ++ [idx] `prefix_of` path k -> find_pl k (ipend m lv') = None) as Hpend'.
  { intros k Hk. apply find_pl_None. intros p Hp. destruct (keqb (keyof p) k) eqn:E; [|done]. exfalso. apply Hk. rewrite <-(path_cong _ _ E). by apply Hitems. }
  assert (forall k, spos rest ++ [idx] `prefix_of` path k -> exists ws c0 n0 v0, walk H N k (ws ++ [(c0, n0)]) /\ walk H N k ((ws ++ [(c0, n0)]) ++ [(CSlot l idx, n)]) /\ P' ((ws ++ [(c0, n0)]) ++ [(CSlot l idx, n)]) /\ length ws = length rest /\ v0 = v) as Hwalk.
  { intros k Hk. destruct (io_track _ _ _ _ _ _ _ Hi _ _ _ (Hthis k Hk)) as (ws & c0 & n0 & v0 & A1 & A2 & A3 & A4 & A5 & A6). exists ws, c0, n0, v. split; [done|]. split; [|split; [by apply HP2|done]].
    pose proof (prefix_snoc_nib _ _ _ Hk) as [E Hp]. rewrite spos_length in E. rewrite E, <-A5. by eapply walk_snoc. }
  split.
  - split.
    + exact Hs'.
    + apply nodupk_app.
      * pose proof (io_nodup _ _ _ _ _ _ _ Hi) as Hn. by rewrite Hpend, app_nil_r in Hn.
      * unfold lv'. cbn [ipend]. unfold ptr_ok in Huptr. destruct (sh_data u); [|apply nodupk_nil]. destruct (sh_loc u) as [t|]; [|apply nodupk_nil]. destruct Huptr as (it & Hbt & _). rewrite Hbt, drop_0. by eapply se_nodup.
      * intros p Hp. pose proof (io_new _ _ _ _ _ _ _ Hi _ _ _ (Hthis _ (Hitems _ Hp))) as Hn. by rewrite Hpend, app_nil_r in Hn.
    + intros k t d Hk. rewrite find_pl_app. destruct (decide (spos rest ++ [idx] `prefix_of` path k)) as [Hp|Hp].
      * pose proof (io_new _ _ _ _ _ _ _ Hi _ _ _ (Hthis _ Hp)) as Hn. rewrite Hpend, app_nil_r in Hn. rewrite Hn. unfold lv' in Hk |- *. cbn [iat spos ipend] in Hk |- *. change (pred (S idx)) with idx in Hk.
        rewrite decide_True in Hk by done. destruct (sh_loc u); [|done]. by destruct (sh_data u).
      * rewrite Hother in Hk by done. pose proof (io_new _ _ _ _ _ _ _ Hi _ _ _ Hk) as Hn. rewrite Hpend, app_nil_r in Hn. rewrite Hn. by apply Hpend'.
    + intros k t d Hk. destruct (decide (spos rest ++ [idx] `prefix_of` path k)) as [Hp|Hp].
      * destruct (Hwalk k Hp) as (ws & c0 & n0 & v0 & A1 & A2 & A3 & A4 & _). exists (ws ++ [(c0, n0)]), (CSlot l idx), n, u. unfold lv' in Hk. cbn [iat spos] in Hk. change (pred (S idx)) with idx in Hk. rewrite decide_True in Hk by done.
        destruct (sh_loc u) as [t'|]; [|done]. destruct (sh_data u); [done|]. destruct (decide _); [|done]. injection Hk as <- <-. split; [done|]. split; [done|]. split; [done|]. split; [done|]. split; [|done].
        rewrite app_length, A4. simpl. lia.
      * rewrite Hother in Hk by done. destruct (io_track _ _ _ _ _ _ _ Hi _ _ _ Hk) as (ws & c0 & n0 & v0 & A1 & A2 & A3 & A4 & A5 & A6). exists ws, c0, n0, v0. repeat (split; [done|]). by apply HP1.
  - intros k. destruct (decide (spos rest ++ [idx] `prefix_of` path k)) as [Hp|Hp].
    + destruct (iat lv' k) as [[t d]|] eqn:E; [left; unfold istat; by rewrite E, (Hthis k Hp)|]. right. split; [unfold istat; by rewrite (Hthis k Hp)|].
      assert (leafy u) as Hlf. { unfold leafy. unfold lv' in E. cbn [iat spos] in E. change (pred (S idx)) with idx in E. rewrite decide_True in E by done. destruct (sh_loc u); [|by left]. destruct (sh_data u); [by right|]. rewrite decide_True in E by lia. done. }
      pose proof (io_new _ _ _ _ _ _ _ Hi _ _ _ (Hthis _ Hp)) as Hn. rewrite Hpend, app_nil_r in Hn.
      eexists. split; [apply (istat_leaf pos); [exact Hs'|done|exact Hn|exact Hp]|]. destruct (Hwalk k Hp) as (ws & c0 & n0 & v0 & A1 & A2 & A3 & A4 & _). exists (ws ++ [(c0, n0)]), (CSlot l idx), n, u.
      split; [done|]. split; [done|]. split; [done|]. split; [done|].
      intros k' Hk. unfold ptr_ok in Huptr. destruct (sh_loc u) as [t|] eqn:Et; [|by rewrite !look_null]. destruct Hlf as [|Hd]; [congruence|]. rewrite Hd in Huptr. destruct Huptr as (it & Hbt & _).
      rewrite !(look_data 0 m u _ t it) by done. by apply find_pl_cong.
    + left. unfold istat. rewrite Hother by done. destruct (iat _ k); [done|]. f_equal. rewrite Hpend, app_nil_r, find_pl_app, Hpend' by done. by destruct (find_pl k (Iter.vals out)).
Qed.

(** ** Steps of others *)
Lemma ipend_ext pos m pos' m' lv : ext pos m pos' m' -> istk pos m lv -> ipend m' lv = ipend m lv.
Proof.
  intros He Hs. destruct lv as [|[v idx] rest]; [done|]. destruct Hs as (Hptr & _). cbn [ipend]. unfold ptr_ok in Hptr. destruct (sh_data v); [|done]. destruct (sh_loc v) as [t|]; [|done].
  destruct Hptr as (it & Hb & _). by rewrite Hb, (ext_data _ _ _ _ _ _ He Hb).
Qed.
Lemma iok_ext P H N pos m pos' m' lv out : ext pos m pos' m' -> iok P H N pos m lv out -> iok P H N pos' m' lv out.
Proof.
  intros He [H1 H2 H3 H4]. split; [by eapply istk_ext|by rewrite (ipend_ext _ _ _ _ _ He H1)|by rewrite (ipend_ext _ _ _ _ _ He H1)|done].
Qed.
Lemma istat_ext pos m pos' m' lv out k : ext pos m pos' m' -> istk pos m lv -> istat m' lv out k = istat m lv out k.
Proof. intros He Hs. unfold istat. by rewrite (ipend_ext _ _ _ _ _ He Hs). Qed.
End witer.
