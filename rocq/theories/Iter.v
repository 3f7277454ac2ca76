(** * Iterators: what an iterator in progress is going to report about each key. *)
From Verif Require Import Model Mem Inv Safe SafeStep SafeOps SafeSys SafeProps Look LinSpec Sem SemOps SysSem Spec.

Section iter.
Context {C : Config} {HC : ConfigOk C}.
Implicit Types (m : mem) (pos : loc -> list nat) (c : cell) (v w : sh) (o : opid) (gs : gset opid) (k : Key) (op : oper) (lv : list (sh * nat)) (out : list rref).

(** The position of the entry on top of [lv]. *)
Fixpoint spos lv : list nat := match lv with [] => [] | (_, idx) :: rest => spos rest ++ [pred idx] end.
Lemma spos_length lv : length (spos lv) = length lv.
Proof. induction lv as [|[v i] lv IH]; simpl; [done|]. rewrite app_length. simpl. lia. Qed.

Fixpoint istk pos m lv : Prop :=
  match lv with
  | [] => True
  | (v, idx) :: rest =>
      ptr_ok pos m (spos rest) v /\
      (forall t it p, sh_data v = true -> sh_loc v = Some t -> hbody m t = Some (BData it) -> p ∈ it -> spos rest `prefix_of` path (keyof p)) /\
      match rest with [] => True | (v', i') :: _ => sh_data v' = false /\ is_Some (sh_loc v') /\ 1 <= i' end /\
      istk pos m rest
  end.

(** What the entry [(v, idx)] at depth [d] is going to say about key [k], which lies below it; [None]: it has been said. *)
Definition epred pos m v (idx d : nat) k : option (option Pl) :=
  match sh_loc v with
  | None => Some None
  | Some t =>
    if sh_data v then
      match hbody m t with
      | Some (BData it) => match find_pl k (take idx it) with Some _ => None | None => Some (find_pl k (drop idx it)) end
      | _ => Some None
      end
    else if decide (nib k d < idx) then None else Some (lookc pos m (CSlot t (nib k d)) k)
  end.

Fixpoint ipred pos m lv k : option (option Pl) :=
  match lv with
  | [] => None
  | (v, idx) :: rest => if decide (spos rest `prefix_of` path k) then epred pos m v idx (length rest) k else ipred pos m rest k
  end.

Definition vals out : list Pl := rr_val <$> out.
Definition reported pos m lv out k : option Pl := match ipred pos m lv k with Some x => x | None => find_pl k (vals out) end.

Record iinv pos m lv out : Prop := IInv {
  ii_stk : istk pos m lv;
  ii_nodup : nodupk (vals out);
  ii_new : forall k x, ipred pos m lv k = Some x -> find_pl k (vals out) = None;
}.

(* below the top everything has been said *)
Lemma ipred_below pos m v idx rest k : istk pos m ((v, idx) :: rest) -> spos rest `prefix_of` path k -> ipred pos m rest k = None.
Proof.
  simpl. intros (_ & _ & Hb & _) Hp. destruct rest as [|[v' i'] rest]; [done|]. destruct Hb as (Hd & [t Ht] & Hi). simpl in *.
  apply prefix_snoc_nib in Hp as [E Hp]. rewrite decide_True by done. unfold epred. rewrite Ht, Hd. rewrite spos_length in E.
  rewrite decide_True by lia. done.
Qed.

(* popping an entry that has nothing left to say *)
Lemma iinv_pop pos m v idx rest out :
  (forall k, spos rest `prefix_of` path k -> epred pos m v idx (length rest) k = None \/ epred pos m v idx (length rest) k = Some None) ->
  iinv pos m ((v, idx) :: rest) out -> iinv pos m rest out /\ forall k, reported pos m rest out k = reported pos m ((v, idx) :: rest) out k.
Proof.
  intros He [Hs Hn Hw]. split.
  - split; [by destruct Hs as (_ & _ & _ & ?)|done|]. intros k x Hk. destruct (decide (spos rest `prefix_of` path k)) as [Hp|Hp].
    + by rewrite (ipred_below pos m v idx rest k Hs Hp) in Hk.
    + apply (Hw k x). simpl. by rewrite decide_False.
  - intros k. unfold reported. destruct (decide (spos rest `prefix_of` path k)) as [Hp|Hp].
    + rewrite (ipred_below pos m v idx rest k Hs Hp). simpl. rewrite decide_True by done.
      destruct (He k Hp) as [E|E]; rewrite E; [done|]. apply (Hw k None). simpl. by rewrite decide_True.
    + simpl. by rewrite decide_False.
Qed.

Lemma take_S_snoc {X} (l : list X) i x : l !! i = Some x -> take (S i) l = take i l ++ [x].
Proof. intros H. by apply take_S_r. Qed.

(** ** A step of the iterator itself *)
Lemma inext_step gs pos m o lv out spur a m' nx acts :
  minv pos m -> sem pos m -> pc_ok pos m o (INext lv out) -> iinv pos m lv out -> op_step gs m (INext lv out) spur a = Some (m', nx, acts) ->
  m' = m /\
  match nx with
  | NRun (INext lv' out') => iinv pos m lv' out' /\ (forall k, reported pos m lv' out' k = reported pos m lv out k) /\
      ((acts = [] /\ out' = out) \/ exists r, acts = [AYield r] /\ out' = out ++ [r] /\ reported pos m lv out (keyof (rr_val r)) = Some (rr_val r))
  | NRet (RIter ys) => ys = out /\ acts = [] /\ forall k, reported pos m lv out k = find_pl k (vals out)
  | _ => False
  end.
Proof.
  intros Hm Hse Hpc Hi Hst. simpl in Hpc. destruct Hpc as [Hstk Hout]. cbn [op_step] in Hst. destruct lv as [|[v idx] rest].
  { injection Hst as <- <- <-. split; [done|]. split; [done|]. split; [done|]. done. }
  pose proof (ii_stk _ _ _ _ Hi) as Hs. pose proof Hs as (Hptr & Hleaf & Hbel & Hrest).
  destruct (is_null v) eqn:Enl.
  { injection Hst as <- <- <-. split; [done|]. unfold is_null in Enl. destruct (sh_loc v) eqn:El; [done|].
    destruct (iinv_pop pos m v idx rest out) as [H1 H2]; [|done|].
    - intros k _. right. unfold epred. by rewrite El.
    - split; [done|]. split; [done|]. by left. }
  unfold is_null in Enl. destruct (sh_loc v) as [l|] eqn:El; [|done]. destruct (sh_data v) eqn:Ed.
  { unfold ptr_ok in Hptr. rewrite El, Ed in Hptr. destruct Hptr as (it & Hb & _). pose proof (se_nodup _ _ Hse _ _ Hb) as Hnd.
    destruct (load_data m v) as [f|it'] eqn:Hld.
    { exfalso. destruct Hstk as [(q & _ & Hv) _]. destruct (vok_data _ _ _ _ _ Hv Ed) as (tl & it2 & Etl & Hb2 & Hdr & Hld2 & _). congruence. }
    assert (it' = it) as ->.
    { destruct Hstk as [(q & _ & Hv) _]. destruct (vok_data _ _ _ _ _ Hv Ed) as (tl & it2 & Etl & Hb2 & Hdr & Hld2 & _). congruence. }
    destruct (it !! idx) as [p|] eqn:Ei.
    - injection Hst as <- <- <-. split; [done|].
      assert (p ∈ it) as Hin by (by eapply elem_of_list_lookup_2).
      pose proof (Hleaf l it p eq_refl eq_refl Hb Hin) as Hon.
      assert (forall k, keqb (keyof p) k = true -> find_pl k (take idx it) = None) as Hbefore.
      { intros k Hk. apply find_pl_None. intros q [j Hj]%elem_of_list_lookup. rewrite lookup_take_Some in Hj. destruct Hj as [Hj Hlt].
        destruct (keqb (keyof q) k) eqn:E; [|done]. exfalso. assert (j = idx); [|lia]. eapply Hnd; [done|done|].
        rewrite <-(keqb_cong k (keyof p)); [done|by rewrite keqb_sym]. }
      assert (forall k, find_pl k (drop idx it) = if keqb (keyof p) k then Some p else find_pl k (drop (S idx) it)) as Hdrop.
      { intros k. rewrite (drop_S _ _ _ Ei). apply find_pl_cons. }
      assert (forall k, find_pl k (take (S idx) it) = match find_pl k (take idx it) with Some q => Some q | None => if keqb (keyof p) k then Some p else None end) as Htake.
      { intros k. rewrite (take_S_r _ _ _ Ei), find_pl_app. destruct (find_pl k (take idx it)); [done|]. by rewrite find_pl_cons. }
      assert (ipred pos m ((v, idx) :: rest) (keyof p) = Some (Some p)) as Hself.
      { simpl. rewrite decide_True by done. unfold epred. rewrite El, Ed, Hb, Hbefore by apply keqb_refl. rewrite Hdrop, keqb_refl. done. }
      assert (vals (out ++ [RRef l idx p]) = vals out ++ [p]) as Hvals by (unfold vals; by rewrite fmap_app).
      assert (forall k, keqb (keyof p) k = false -> ipred pos m ((v, S idx) :: rest) k = ipred pos m ((v, idx) :: rest) k) as Hother.
      { intros k Hk. simpl. destruct (decide _); [|done]. unfold epred. rewrite El, Ed, Hb, Htake, Hdrop, Hk. by destruct (find_pl k (take idx it)). }
      assert (forall k, keqb (keyof p) k = true -> ipred pos m ((v, S idx) :: rest) k = None /\ ipred pos m ((v, idx) :: rest) k = Some (Some p)) as Hthis.
      { intros k Hk. simpl. rewrite !decide_True by (by rewrite <-(path_cong _ _ Hk)). unfold epred. rewrite El, Ed, Hb, Htake, Hdrop, Hk, Hbefore by done. done. }
      split; [split|split].
      + exact (ii_stk _ _ _ _ Hi).
      + rewrite Hvals. apply nodupk_snoc; [apply Hi|]. intros q Hq. apply (ii_new _ _ _ _ Hi) in Hself. rewrite find_pl_None in Hself. by apply Hself.
      + intros k x Hk. rewrite Hvals. rewrite find_pl_app. destruct (keqb (keyof p) k) eqn:Ek.
        * destruct (Hthis k Ek) as [E _]. congruence.
        * rewrite Hother in Hk by done. rewrite (ii_new _ _ _ _ Hi k x Hk). by rewrite find_pl_cons, Ek.
      + intros k. unfold reported. rewrite Hvals. rewrite find_pl_app, find_pl_cons. destruct (keqb (keyof p) k) eqn:Ek.
        * destruct (Hthis k Ek) as [-> E]. rewrite E. by rewrite (ii_new _ _ _ _ Hi k _ E).
        * rewrite Hother by done. destruct (ipred _ _ _ k); [done|]. by destruct (find_pl k (vals out)).
      + right. exists (RRef l idx p). split; [done|]. split; [done|]. cbn [rr_val]. unfold reported. by rewrite Hself.
    - injection Hst as <- <- <-. split; [done|]. apply lookup_ge_None in Ei.
      destruct (iinv_pop pos m v idx rest out) as [H1 H2]; [|done|split; [done|]; split; [done|by left]].
      intros k _. unfold epred. rewrite El, Ed, Hb. rewrite take_ge, drop_ge by done. destruct (find_pl k it); [by left|by right]. }
  destruct (idx <? LEVEL_CELLS) eqn:Elt.
  2:{ injection Hst as <- <- <-. split; [done|]. apply Nat.ltb_ge in Elt. unfold LEVEL_CELLS in Elt.
      destruct (iinv_pop pos m v idx rest out) as [H1 H2]; [|done|split; [done|]; split; [done|by left]].
      intros k _. left. unfold epred. rewrite El, Ed. rewrite decide_True; [done|]. pose proof (nib_lt k (length rest)). lia. }
  apply Nat.ltb_lt in Elt. unfold LEVEL_CELLS in Elt.
  destruct Hstk as [(q & Hq & Hv) _]. destruct (vok_inner _ _ _ _ _ _ Hv Ed El) as (sl & Hb & _ & Hpr).
  assert (cok m o (CSlot l idx)) as Hck by (by eapply cok_slot).
  destruct (cok_read _ _ _ _ Hm Hck) as (u & Hrd & Hcv). rewrite Hrd in Hst.
  pose proof Hptr as Hptr0. unfold ptr_ok in Hptr. rewrite El, Ed in Hptr. destruct Hptr as (sl' & _ & Hpos).
  pose proof (mi_slots _ _ Hm _ _ Hb) as [_ Hlt]. rewrite Hpos, spos_length in Hlt.
  destruct (MAX_LEVELS + 1 <=? length ((v, idx) :: rest)) eqn:Emx.
  { exfalso. apply Nat.leb_le in Emx. unfold MAX_LEVELS, HASH_BITS, LEVEL_BITS in Emx. simpl in Emx. lia. }
  injection Hst as <- <- <-. split; [done|].
  assert (cpos pos (CSlot l idx) = spos rest ++ [idx]) as Ecp by (simpl; by rewrite Hpos).
  assert (forall k, ipred pos m ((u, 0) :: (v, S idx) :: rest) k = ipred pos m ((v, idx) :: rest) k) as Hsame.
  { intros k. cbn [ipred spos]. change (pred (S idx)) with idx. destruct (decide (spos rest `prefix_of` path k)) as [Hp|Hp].
    - destruct (decide (spos rest ++ [idx] `prefix_of` path k)) as [Hp2|Hp2].
      + pose proof (prefix_snoc_nib _ _ _ Hp2) as [E _]. rewrite spos_length in E.
        unfold epred at 2. rewrite El, Ed. rewrite decide_False by lia. rewrite <-E.
        assert (onp pos (CSlot l idx) k) as Hon by (unfold onp; by rewrite Ecp).
        assert (length (cpos pos (CSlot l idx)) = length ((v, S idx) :: rest)) as Elen by (rewrite Ecp, app_length, spos_length; simpl; lia).
        unfold epred. destruct (sh_loc u) as [t|] eqn:Et.
        2:{ by rewrite (lookc_null pos m _ u). }
        destruct (sh_data u) eqn:Edu.
        * pose proof (mi_ptr _ _ Hm _ _ Hcv) as Hpu. unfold ptr_ok in Hpu. rewrite Et, Edu in Hpu. destruct Hpu as (it & Hbt & _). rewrite Hbt.
          simpl. by rewrite (lookc_data pos m _ u k t it).
        * rewrite decide_False by lia. f_equal. rewrite <-Elen. by apply (lookc_inner pos m (CSlot l idx) u k t).
      + assert (nib k (length rest) <> idx) as Hne.
        { intros E. apply Hp2. rewrite <-E, <-(spos_length rest). apply prefix_snoc_path; [done|]. rewrite spos_length. lia. }
        unfold epred. rewrite El, Ed. destruct (decide (nib k (length rest) < idx)); [by rewrite decide_True by lia|by rewrite decide_False by lia].
    - rewrite decide_False; [done|]. intros [_ ?]%prefix_snoc_nib. done. }
  split; [split|split].
  - cbn [istk spos]. change (pred (S idx)) with idx. rewrite <-Ecp. split; [by apply (mi_ptr _ _ Hm)|]. split.
    + intros t it p Hd Ht Hbt Hp. by eapply (se_path _ _ Hse).
    + split; [split; [done|]; split; [by eexists|lia]|]. split; [exact Hptr0|]. split; [|split; [exact Hbel|exact Hrest]]. intros t it p Hd. congruence.
  - apply Hi.
  - intros k x. rewrite Hsame. apply Hi.
  - intros k. unfold reported. by rewrite Hsame.
  - by left.
Qed.

Lemma inew_step gs pos m spur a m' nx acts : minv pos m -> sem pos m -> op_step gs m INew spur a = Some (m', nx, acts) ->
  m' = m /\ acts = [] /\ exists lv, nx = NRun (INext lv []) /\ iinv pos m lv [] /\ forall k, reported pos m lv [] k = absm m k.
Proof.
  intros Hm Hse [= <- <- <-]. split; [done|]. split; [done|]. eexists. split; [done|].
  pose proof (mi_ptr _ _ Hm CRoot (m_root m) eq_refl) as Hp. cbn [cpos] in Hp. split; [split|].
  - simpl. split; [done|]. split; [|done]. intros. apply prefix_nil.
  - apply nodupk_nil.
  - done.
  - intros k. unfold reported. cbn [ipred spos length]. rewrite decide_True by apply prefix_nil. unfold epred. pose proof (lookc_root pos m k) as Hr.
    destruct (sh_loc (m_root m)) as [t|] eqn:Et.
    + destruct (sh_data (m_root m)) eqn:Ed.
      * unfold ptr_ok in Hp. rewrite Et, Ed in Hp. destruct Hp as (it & Hb & _). rewrite Hb. simpl. rewrite <-Hr. symmetry. by eapply lookc_data.
      * rewrite decide_False by lia. rewrite <-Hr. apply (lookc_inner pos m CRoot (m_root m) k t); try done. apply prefix_nil.
    + rewrite <-Hr. symmetry. by eapply lookc_null.
Qed.

(** ** Steps of others *)
Section other.
Context pos m pos' m' (Hm : minv pos m) (He : ext pos m pos' m').

Lemma istk_ext lv : istk pos m lv -> istk pos' m' lv.
Proof.
  induction lv as [|[v i] rest IH]; [done|]. cbn [istk]. intros (H1 & H2 & H3 & H4). split; [by eapply ptr_ok_ext|]. split; [|split; [done|auto]].
  intros t it p Hd Ht Hb Hp. unfold ptr_ok in H1. rewrite Ht, Hd in H1. destruct H1 as (it' & Hb' & _).
  pose proof (ext_data _ _ _ _ _ _ He Hb') as E. assert (it' = it) as -> by congruence. eauto.
Qed.

Lemma ipred_ext lv k : istk pos m lv ->
  (forall c, is_Some (cval m c) -> onp pos c k -> lookc pos' m' c k = lookc pos m c k \/ lookc pos' m' c k = absm m' k) ->
  ipred pos' m' lv k = ipred pos m lv k \/ is_Some (ipred pos m lv k) /\ ipred pos' m' lv k = Some (absm m' k).
Proof.
  intros Hs Hl. induction lv as [|[v i] rest IH]; [by left|]. cbn [istk] in Hs. destruct Hs as (H1 & H2 & H3 & H4). cbn [ipred].
  destruct (decide _) as [Hp|Hp]; [|auto]. unfold epred. unfold ptr_ok in H1. destruct (sh_loc v) as [t|] eqn:Et; [|by left].
  destruct (sh_data v) eqn:Ed.
  - destruct H1 as (it & Hb & _). rewrite Hb, (ext_data _ _ _ _ _ _ He Hb). by left.
  - destruct H1 as (sl & Hb & Hpos). destruct (decide _); [by left|]. 
    destruct (slot_cval _ _ _ _ (nib k (length rest)) Hm Hb (nib_lt _ _)) as (u & Hu & _).
    destruct (Hl (CSlot t (nib k (length rest)))) as [E|E]; [by eexists| |by left; rewrite E|].
    + unfold onp. simpl. rewrite Hpos. rewrite <-(spos_length rest). apply prefix_snoc_path; [done|].
      pose proof (mi_slots _ _ Hm _ _ Hb) as [_ Hlt]. by rewrite Hpos in Hlt.
    + right. split; [by eexists|]. by rewrite E.
Qed.

Lemma iinv_ext lv out :
  (forall c k, is_Some (cval m c) -> onp pos c k -> lookc pos' m' c k = lookc pos m c k \/ lookc pos' m' c k = absm m' k) ->
  iinv pos m lv out -> iinv pos' m' lv out /\ forall k, reported pos' m' lv out k = reported pos m lv out k \/ reported pos' m' lv out k = absm m' k.
Proof.
  intros Hl [H1 H2 H3]. split.
  - split; [by apply istk_ext|done|]. intros k x Hk. destruct (ipred_ext lv k H1 (fun c => Hl c k)) as [E|[[y Hy] _]]; [|by eapply H3].
    rewrite E in Hk. by eapply H3.
  - intros k. unfold reported. destruct (ipred_ext lv k H1 (fun c => Hl c k)) as [->|[_ ->]]; [by left|by right].
Qed.
End other.
End iter.
