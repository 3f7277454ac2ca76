(** * Reclamation on weakly ordered memory, 4: the invariant. *)
From Verif Require Import Model Mem Spec Weak WeakInv WeakStep WeakSys WeakRun LinSpec Inv Safe SafeStep SafeOps SafeSys Look Sem SemOps Lin LinProps Iter IterSpec IterSys WeakCoh WeakFun WeakWrite WeakWalk WeakTime WeakIter WeakBase
  WeakFree FreeSim FreeStep FreeWalk.

Section finv.
Context {C : Config} {HC : ConfigOk C} (w : orders).
Implicit Types (m : mem) (pos : loc -> list nat) (c : cell) (v : sh) (o : opid) (op : oper) (l : loc) (b : cstate) (s : fstate) (ls : list clabel) (ev : list event)
  (M : nat -> mem) (H : nat -> cell -> list sh).

Definition stptr (st : ostat) : list (loc * bool) := match st with SRun _ p => pptr p | SRet _ r => resptr r | _ => [] end.

(** The registrations [ds] precede value [a] of cell [x]. *)
Definition newer (regs : list reg) (ds : list nat) (x : cell) (a : nat) : Prop := forall i g, i ∈ ds -> regs !! i = Some g -> g_fl g x <= a.
(** A walk to cell [c], through values that are at least as new. *)
Definition way H N (regs : list reg) ds (fl : cell -> nat) c : Prop := exists q ws, walkq H N q (ws ++ [(c, 0)]) /\ forall x a, (x, a) ∈ ws -> newer regs ds x a /\ a <= fl x.
(** A pointer held by a call that is synchronised with [ds]. *)
Definition pok H N m regs ds fl (x : loc * bool) : Prop :=
  is_Some (m_heap m !! x.1) /\ (forall i g, i ∈ ds -> regs !! i = Some g -> g_loc g <> x.1) /\ (x.2 = false -> forall j, j < 16 -> way H N regs ds fl (CSlot x.1 j)).

Record finv M H N pos ls b ev s : Prop := {
  fi_b : binv M H N pos ls b ev;
  fi_sim : csim (f_c s) b;
  fi_aok : aok (f_mem s);
  fi_garb : g_loc <$> f_regs s ≡ₚ garb_locs (f_mem s);
  fi_reg : forall i g, f_regs s !! i = Some g -> reg_ok M H N g;
  fi_free : forall i g, f_regs s !! i = Some g -> i ∉ f_done s -> freed (f_mem s) (g_loc g) = false;
  fi_done : f_dropped s = false -> forall l, l ∈ (m_freed (f_mem s)).*1 -> exists i g, i ∈ f_done s /\ f_regs s !! i = Some g /\ g_loc g = l;
  fi_run : forall i g, i ∈ f_done s -> f_regs s !! i = Some g -> freed (f_mem s) (g_loc g) = true;
  fi_left : f_dropped s = true -> forall l, is_Some (m_heap (f_mem s) !! l) -> freed (f_mem s) l = true \/ l ∈ g_loc <$> f_regs s;
  fi_heapd : forall l, freed (f_mem s) l = true -> is_Some (m_heap (f_mem s) !! l);
  fi_nodup : NoDup (m_freed (f_mem s)).*1;
  fi_ds : forall i, i ∈ f_done s -> i < length (f_regs s);
  fi_alive : forall o x, w_ops (c_w (f_c s)) !! o = Some x -> o ∉ f_gone s ->
    f_dropped s = false /\ (forall i, i ∈ f_done s -> i ∈ f_sync s o) /\ (forall i, i ∈ f_sync s o -> i < length (f_regs s)) /\
    forall y, y ∈ stptr (w_st x) -> pok H N (f_mem s) (f_regs s) (f_sync s o) (c_fl (f_c s) o) y;
  fi_ub : f_ub s = false;
}.

Lemma f_floor_le s ds c n : f_floor s ds c <= n <-> newer (f_regs s) ds c n.
Proof.
  unfold f_floor, newer. induction ds as [|i ds IH]; simpl.
  - split; [|lia]. intros _ i g Hi. by apply elem_of_nil in Hi.
  - rewrite Nat.max_lub_iff, IH. split.
    + intros [H1 H2] j g Hj Hg. apply elem_of_cons in Hj as [->|Hj]; [by rewrite Hg in H1|by eapply H2].
    + intros Hx. split; [destruct (f_regs s !! i) as [g|] eqn:E; [|lia]; eapply Hx; [by left|done]|]. intros j g Hj. apply Hx. by right.
Qed.

(** ** What a call touches *)
Lemma acc_inner pos m o p l i kd ord : access w p = Some (CSlot l i, kd, ord) -> pc_ok pos m o p -> (l, false) ∈ pptr p.
Proof.
  intros Ha Hp. destruct p; cbn [access] in Ha.
  - injection Ha as -> _ _. cbn [pptr]. rewrite elem_of_app. left. by left.
  - injection Ha as -> _ _. cbn [pptr]. rewrite elem_of_app. left. by left.
  - destruct (sh_loc child) as [l'|] eqn:E; [|done]. simpl in Ha. injection Ha as -> _ _ _. destruct Hp as ((_ & _ & _ & Hd & _) & _). cbn [pptr]. rewrite !elem_of_app. right. right. left. unfold sptr. rewrite E, Hd. by left.
  - injection Ha as -> _ _. cbn [pptr]. rewrite !elem_of_app. right. left. by left.
  - injection Ha as -> _ _. by left.
  - injection Ha as -> _ _. cbn [pptr]. rewrite elem_of_app. left. by left.
  - injection Ha as -> _ _. cbn [pptr]. rewrite elem_of_app. left. by left.
  - destruct (sh_loc child) as [l'|] eqn:E; [|done]. simpl in Ha. injection Ha as -> _ _ _. cbn [pptr]. rewrite !elem_of_app. right. right. right. unfold sptr. rewrite E.
    assert (sh_data child = false) as -> by (simpl in Hp; repeat match goal with Hx : _ /\ _ |- _ => destruct Hx end; match goal with Hx : link_ok _ _ _ _ child |- _ => apply Hx end). by left.
  - done.
  - done.
  - destruct levels as [|[v idx] rest]; [done|]. destruct (is_null v || sh_data v || _) eqn:E0; [done|]. apply orb_false_iff in E0 as [[_ E0]%orb_false_iff _].
    destruct (sh_loc v) as [l'|] eqn:E; [|done]. simpl in Ha. injection Ha as -> _ _ _. cbn [pptr]. rewrite bind_cons, !elem_of_app. left. left. unfold sptr. simpl. rewrite E, E0. by left.
Qed.

Section touch.
Context M H N pos ls b ev s (I : finv M H N pos ls b ev s).

Lemma fi_heap l : is_Some (m_heap (f_mem s) !! l) <-> is_Some (m_heap (M N) !! l).
Proof. rewrite (b_mem _ _ _ _ _ _ _ (fi_b _ _ _ _ _ _ _ _ I)), (ws_mem _ _ (cs_w _ _ (fi_sim _ _ _ _ _ _ _ _ I))), bm_heap, fmap_is_Some. done. Qed.
Lemma fi_minv : minv pos (M N).
Proof. apply (tl_minv _ _ _ _ (b_tl _ _ _ _ _ _ _ (fi_b _ _ _ _ _ _ _ _ I))). lia. Qed.
Lemma fi_nok : nok (f_mem s).
Proof.
  intros l Hl. apply fi_heap in Hl. apply (mi_fresh _ _ fi_minv) in Hl. rewrite (b_mem _ _ _ _ _ _ _ (fi_b _ _ _ _ _ _ _ _ I)), (ws_mem _ _ (cs_w _ _ (fi_sim _ _ _ _ _ _ _ _ I))) in Hl. done.
Qed.
Lemma fi_ops : w_ops (c_w b) = w_ops (c_w (f_c s)).
Proof. apply (ws_ops _ _ (cs_w _ _ (fi_sim _ _ _ _ _ _ _ _ I))). Qed.
Lemma pok_here o x y fl : w_ops (c_w (f_c s)) !! o = Some x -> o ∉ f_gone s -> pok H N (f_mem s) (f_regs s) (f_sync s o) fl y -> here (f_mem s) y.1.
Proof.
  intros Hx Hg (H1 & H2 & _). split; [|done]. unfold freed. apply bool_decide_eq_false. intros Hf. destruct (fi_alive _ _ _ _ _ _ _ _ I _ _ Hx Hg) as (Hd & Hs & _).
  destruct (fi_done _ _ _ _ _ _ _ _ I Hd _ Hf) as (i & g & Hi & Hg' & E). by eapply (H2 i g); [by apply Hs|..].
Qed.
Lemma read_pok o op p tv pv c kd ord n v W : w_ops (c_w (f_c s)) !! o = Some (WOp (SRun op p) tv pv) -> o ∉ f_gone s -> access w p = Some (c, kd, ord) ->
  w_hist (c_w (f_c s)) c !! n = Some (v, W) -> f_floor s (f_sync s o) c <= n ->
  way H N (f_regs s) (f_sync s o) (c_fl (f_c s) o) c /\ H N c !! n = Some v /\
  forall y fl', y ∈ sptr v -> (forall x, c_fl (f_c s) o x <= fl' x) -> n <= fl' c -> pok H N (f_mem s) (f_regs s) (f_sync s o) fl' y.
Proof.
  intros Ho Hg Hacc Hh Hfl. pose proof (fi_b _ _ _ _ _ _ _ _ I) as B. pose proof (b_tl _ _ _ _ _ _ _ B) as T. destruct (fi_alive _ _ _ _ _ _ _ _ I _ _ Ho Hg) as (Hd & Hs & Hi & Hp). cbn [w_st stptr] in Hp.
  assert (H N c !! n = Some v) as Hn. { rewrite (b_hist _ _ _ _ _ _ _ B). eapply vals_lookup. rewrite (ws_hist _ _ (cs_w _ _ (fi_sim _ _ _ _ _ _ _ _ I))). exact Hh. }
  pose proof Ho as Ho'. rewrite <-fi_ops in Ho'. pose proof (b_ops _ _ _ _ _ _ _ B _ _ Ho') as (_ & Hpc & _). cbn [w_st] in Hpc.
  destruct (hist_ptr _ _ _ _ _ _ _ T Hn) as (Hptr & _ & [v0 Hv0]).
  assert (way H N (f_regs s) (f_sync s o) (c_fl (f_c s) o) c) as Hway.
  { destruct c as [|l i].
    - exists (fun _ => 0), []. split; [apply walkq_root; intros; lia|]. by intros x a ?%elem_of_nil.
    - apply (Hp (l, false)); [by eapply acc_inner|done|]. by eapply cval_slot_idx; [apply fi_minv|]. }
  split; [done|]. split; [done|]. intros [l d] fl' Hy Hfl1 Hfl2. unfold sptr in Hy. destruct (sh_loc v) as [l'|] eqn:El; [|by apply elem_of_nil in Hy]. apply elem_of_list_singleton in Hy. injection Hy as -> ->.
  destruct Hway as (q & ws & Hwk & Hbd). apply f_floor_le in Hfl. unfold ptr_ok in Hptr. rewrite El in Hptr.
  split; [|split].
  - simpl. apply fi_heap. apply hbody_is_Some. destruct (sh_data v); destruct Hptr as (? & ? & _); eauto.
  - intros i g Hin Hgi. simpl. apply (not_retired _ _ _ _ g q ws c n v l' T); try done.
    + pose proof (b_leaf _ _ _ _ _ _ _ B) as Hlf. by rewrite <-(b_mem _ _ _ _ _ _ _ B) in Hlf.
    + by eapply (fi_reg _ _ _ _ _ _ _ _ I).
    + by eapply walkq_end.
    + intros x a Hx. apply elem_of_app in Hx as [Hx|Hx]; [by eapply (Hbd x a Hx)|]. apply elem_of_list_singleton in Hx. injection Hx as -> ->. by eapply Hfl.
  - intros Hda j Hj. simpl in Hda. destruct (walkq_snoc H N q ws c n v l' j 0 ltac:(by eapply walkq_end) Hn El Hda Hj) as [q' Hq']. exists q', (ws ++ [(c, n)]). split; [done|].
    intros x a Hx. apply elem_of_app in Hx as [Hx|Hx]; [destruct (Hbd _ _ Hx) as [? ?]; split; [done|]; etrans; [done|apply Hfl1]|]. apply elem_of_list_singleton in Hx. injection Hx as -> ->. done.
Qed.
Lemma touch o op p tv pv n : w_ops (c_w (f_c s)) !! o = Some (WOp (SRun op p) tv pv) -> o ∉ f_gone s ->
  (forall c kd ord, access w p = Some (c, kd, ord) -> f_floor s (f_sync s o) c <= n) -> touch_ok w (c_w (f_c s)) n p.
Proof.
  intros Ho Hg Hfl. pose proof (fi_b _ _ _ _ _ _ _ _ I) as B. pose proof (b_tl _ _ _ _ _ _ _ B) as T. destruct (fi_alive _ _ _ _ _ _ _ _ I _ _ Ho Hg) as (Hd & Hs & Hi & Hp). cbn [w_st stptr] in Hp.
  split; [apply I|]. split; [apply fi_nok|]. split.
  - intros l b' Hx. by eapply (pok_here o _ (l, b') _ Ho Hg), Hp.
  - intros c kd ord v W Hacc Hh. destruct (read_pok _ _ _ _ _ _ _ _ _ _ _ Ho Hg Hacc Hh (Hfl _ _ _ Hacc)) as (Hway & Hn & Hv). split.
    + intros l El. eapply (pok_here o _ (l, sh_data v) (fun x => c_fl (f_c s) o x `max` n) Ho Hg). apply Hv; [|intros; lia|lia]. unfold sptr. rewrite El. by left.
    + intros En. apply cval_read_cell.
      * rewrite <-(bm_cval (w_mem (c_w (f_c s)))), <-(ws_mem _ _ (cs_w _ _ (fi_sim _ _ _ _ _ _ _ _ I))), <-(b_mem _ _ _ _ _ _ _ B), <-(tl_last _ _ _ _ T) by lia. rewrite last_lookup.
        assert (length (H N c) = S n) as ->; [|exact Hn].
        rewrite (b_hist _ _ _ _ _ _ _ B). unfold vals. etrans; [apply fmap_length|]. etrans; [|symmetry; exact En]. f_equal. apply (ws_hist _ _ (cs_w _ _ (fi_sim _ _ _ _ _ _ _ _ I))).
      * intros l i ->. pose proof Ho as Ho'. rewrite <-fi_ops in Ho'. pose proof (b_ops _ _ _ _ _ _ _ B _ _ Ho') as (_ & Hpc & _). cbn [w_st] in Hpc.
        assert (here (f_mem s) l) as [Hf _] by (eapply (pok_here o _ (l, false) _ Ho Hg), Hp; by eapply acc_inner). unfold freed in Hf. by apply bool_decide_eq_false in Hf.
Qed.
End touch.
End finv.
