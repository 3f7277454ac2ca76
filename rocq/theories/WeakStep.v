(** * One step of an operation on weakly ordered memory. *)
From Verif Require Import Model Mem Spec Weak WeakInv.

Section wstep.
Context {C : Config}.
Implicit Types (m : mem) (l : loc) (v : sh) (tv W D : view) (pv : gmap loc view).

(** Memory [M] shows at least what is known. *)
Record agree (M m : mem) tv pv : Prop := {
  ag_freed : m_freed M = [];
  ag_dat : forall l it, known tv pv l -> hbody m l = Some (BData it) -> hbody M l = Some (BData it);
}.

Lemma bits_lt h sft : bits h sft < LEVEL_CELLS.
Proof.
  unfold bits, LEVEL_CELLS, LEVEL_MASK. change 15%N with (N.ones 4). rewrite N.land_ones.
  pose proof (N.mod_lt (N.shiftr h (N.of_nat sft)) (2 ^ 4)%N ltac:(done)). change (2 ^ 4)%N with 16%N in *. lia.
Qed.

Lemma no_freed m l : m_freed m = [] -> l ∉ (m_freed m).*1.
Proof. intros ->. simpl. by apply not_elem_of_nil. Qed.

Lemma load_dat M m tv pv v : agree M m tv pv -> dat m tv pv v ->
  exists l it, sh_loc v = Some l /\ hbody m l = Some (BData it) /\ load_data M v = inr it /\ known tv pv l.
Proof.
  intros Ha (l & Hl & Hd & Hk & it & Hb). exists l, it. split; [done|]. split; [done|]. split; [|done].
  unfold load_data. rewrite Hd, Hl. simpl. rewrite (deref_hbody M l (BData it)); [done|apply no_freed, Ha|by eapply ag_dat].
Qed.

Lemma held_dat m tv pv v : held m tv pv v -> is_null v = false -> sh_data v = true -> dat m tv pv v.
Proof.
  intros [Ht Hk] Hn Hd. unfold is_null in Hn. destruct (sh_loc v) as [l|] eqn:E; [|done]. exists l. specialize (Ht l E). rewrite Hd in Ht. eauto.
Qed.
Lemma held_inner m tv pv v : held m tv pv v -> is_null v = false -> sh_data v = false -> exists l, sh_loc v = Some l /\ known tv pv l /\ is_inner m l.
Proof.
  intros [Ht Hk] Hn Hd. unfold is_null in Hn. destruct (sh_loc v) as [l|] eqn:E; [|done]. exists l. specialize (Ht l E). rewrite Hd in Ht. eauto.
Qed.
Lemma held_uncond m tv pv v : held m tv pv v -> held m tv pv (uncond v).
Proof. done. Qed.

Lemma find_idx_at k j it i p : find_idx k j it = Some (i, p) -> j <= i /\ it !! (i - j) = Some p.
Proof.
  revert j. induction it as [|q it IH]; intros j H; simpl in H; [done|]. destruct (keqb (keyof q) k).
  - injection H as -> ->. split; [lia|]. by rewrite Nat.sub_diag.
  - destruct (IH _ H) as [H1 H2]. split; [lia|]. replace (i - j) with (S (i - S j)) by lia. done.
Qed.
Lemma find_last_at k j it acc i p : find_last k j it acc = Some (i, p) -> acc = Some (i, p) \/ j <= i /\ it !! (i - j) = Some p.
Proof.
  revert j acc. induction it as [|q it IH]; intros j acc H; simpl in H; [by left|]. destruct (IH _ _ H) as [H1|[H1 H2]].
  - destruct (keqb (keyof q) k); [|by left]. injection H1 as -> ->. right. split; [lia|]. by rewrite Nat.sub_diag.
  - right. split; [lia|]. replace (i - j) with (S (i - S j)) by lia. done.
Qed.
Lemma find_ref_ok m tv pv k l it r : known tv pv l -> hbody m l = Some (BData it) -> find_ref k l it = Some r -> ref_ok m tv pv r.
Proof.
  intros Hk Hb H. unfold find_ref in H. destruct (find_idx k 0 it) as [[i p]|] eqn:E; [|done]. injection H as <-. split; [done|]. exists it. split; [done|].
  apply find_idx_at in E as [_ E]. simpl. by rewrite Nat.sub_0_r in E.
Qed.

Lemma rem_up_ok m tv pv M del levels M' nx acts : ref_ok m tv pv del -> Forall (child_ok m tv pv) levels ->
  rem_up M del levels = Some (M', nx, acts) -> nx_ok m tv pv nx.
Proof.
  intros Hd Hl H. unfold rem_up in H. destruct levels as [|[parent child] rest].
  - injection H as <- <- <-. simpl. by apply Forall_singleton.
  - apply Forall_cons in Hl as [Hc Hl]. destruct (is_null child); injection H as <- <- <-; simpl; [done|]. split; [done|]. split; [done|]. split; [done|]. unfold LEVEL_CELLS. lia.
Qed.
Lemma prune_return_ok m tv pv M k pr M' nx acts : cont_ok m tv pv k -> prune_return M k pr = Some (M', nx, acts) -> nx_ok m tv pv nx.
Proof.
  intros Hk H. unfold prune_return in H. destruct k as [t|key h|del levels].
  - injection H as <- <- <-. simpl. done.
  - injection H as <- <- <-. simpl. done.
  - destruct Hk as [Hd Hl]. destruct pr; try (by eapply rem_up_ok). injection H as <- <- <-. simpl. by apply Forall_singleton.
Qed.
Lemma prune_start_ok m tv pv M k parent child M' nx acts : cont_ok m tv pv k -> child_ok m tv pv (parent, child) ->
  prune_start M k parent child = Some (M', nx, acts) -> nx_ok m tv pv nx.
Proof.
  intros Hk Hc H. unfold prune_start in H. destruct (sh_data child); [by injection H as <- <- <-|]. destruct (is_null child); [by injection H as <- <- <-|].
  injection H as <- <- <-. simpl. split; [done|]. split; [done|]. split; [unfold LEVEL_CELLS; lia|]. split; [done|]. split; [constructor|done].
Qed.
Lemma prune_decide_ok m tv pv M k parent child ac cnt last new M' nx acts : cont_ok m tv pv k -> child_ok m tv pv (parent, child) ->
  length new = LEVEL_CELLS -> Forall (held m tv pv) new -> (forall v, last = Some v -> held m tv pv v) ->
  prune_decide M k parent child ac cnt last new = Some (M', nx, acts) -> nx_ok m tv pv nx.
Proof.
  intros Hk Hc Hlen Hnew Hlast H. unfold prune_decide in H. destruct (_ || _); [by injection H as <- <- <-|]. injection H as <- <- <-. simpl. split; [done|]. split; [done|].
  assert (held m tv pv sh_null) as Hnull by (split; done).
  destruct ac, cnt as [|[|cnt]], last as [v|]; simpl; try (by split); try done; try (by apply Hlast).
Qed.
Lemma t_finish_ok m tv pv M t r M' nx acts acts' : (forall x, eon_inner <$> r = Some x -> ref_ok m tv pv x) -> t_finish M t r acts' = Some (M', nx, acts) -> nx_ok m tv pv nx.
Proof.
  intros Hr H. unfold t_finish in H. destruct (t_mode t).
  - injection H as <- <- <-. simpl. destruct r as [e|]; simpl; [|constructor]. apply Forall_singleton. by apply Hr.
  - destruct r as [e|]; [|by injection H as <- <- <-]. injection H as <- <- <-. destruct e; simpl; apply Forall_singleton; by apply Hr.
Qed.

Variable w : orders.

(** A step that loads [v]. *)
Lemma next_load M m tv pv p c k ord v spur a M' nx acts :
  agree M m tv pv -> pc_ok m tv pv p -> access w p = Some (c, k, ord) -> k <> ACas -> read_cell M c = Some v -> (k <> ATest -> held m tv pv v) ->
  op_step ∅ M p spur a = Some (M', nx, acts) -> nx_ok m tv pv nx.
Proof.
  intros Ha Hp Hacc Hk Hr Hv H. destruct p; cbn [access] in Hacc.
  - (* TLoad *) injection Hacc as -> <- <-. specialize (Hv ltac:(done)). destruct Hp as [Hc Hpar]. cbn [op_step] in H. rewrite Hr in H.
    destruct (sh_cond v). { destruct par as [[parent child]|]; [|by injection H as <- <- <-]. eapply prune_start_ok; [|by apply Hpar|exact H]. done. }
    destruct (is_null v) eqn:En.
    { destruct (ts_payload (t_st t)) as [[p st'] call]. injection H as <- <- <-. simpl. split; [done|]. split; [done|]. by exists p. }
    destruct (sh_data v) eqn:Ed.
    + pose proof (held_dat _ _ _ _ Hv En Ed) as Hd. destruct (load_dat _ _ _ _ _ Ha Hd) as (l & it & Hl & Hb & Eq & Hkn). rewrite Eq in H. destruct it as [|d0 it]; [by injection H as <- <- <-|].
      destruct (_ && _).
      * destruct (negb _); [by injection H as <- <- <-|]. injection H as <- <- <-. simpl. split; [done|]. split; [done|]. split; [done|].
        exists (bits (hashf (keyof d0)) shift). split; [apply bits_lt|done].
      * rewrite Hl in H. set (it' := d0 :: it) in *.
        assert (forall r, find_ref (ts_key (t_st t)) l it' = Some r -> ref_ok m tv pv r) as Href by (intros r; by apply find_ref_ok).
        destruct (find_ref (ts_key (t_st t)) l it') as [r|].
        -- destruct (t_mode t) eqn:Em.
           ++ destruct (ts_payload (t_st t)) as [[p st'] call]. injection H as <- <- <-. simpl. split; [done|]. split; [done|]. split; [by exists l|]. split; [by eexists|].
              intros x [= <-]. by apply Href.
           ++ eapply t_finish_ok; [|exact H]. simpl. intros x [= <-]. by apply Href.
        -- destruct (ts_payload (t_st t)) as [[p st'] call]. destruct (t_mode t); injection H as <- <- <-; simpl; (split; [done|]); (split; [done|]); (split; [by exists l|]); (split; [by eexists|]); done.
    + destruct (held_inner _ _ _ _ Hv En Ed) as (l & Hl & Hkn & Hin). rewrite Hl in H. destruct (HASH_BITS <=? shift); [by injection H as <- <- <-|]. injection H as <- <- <-. simpl.
      split; [split; [done|]; split; [done|]; apply bits_lt|]. intros x [= <-]. split; [done|]. exists l. done.
  - injection Hacc as _ <- _. done.
  - (* PMark *) destruct Hp as (Hk1 & (Hcp & l & Hl & Hd & Hkn & Hin) & Hi & Hlen & Hnew & Hlast). simpl in Hl, Hd. rewrite Hl in Hacc. simpl in Hacc. injection Hacc as <- <- <-. specialize (Hv ltac:(done)).
    cbn [op_step] in H. rewrite Hl, Hr in H. set (M1 := write_cell M (CSlot l i) (recond v)) in *. set (gc := uncond v) in *.
    assert (agree M1 m tv pv) as Ha1. { split; [apply Ha|]. intros l' it Hk' Hb. apply hbody_write_data. by eapply ag_dat. }
    pose proof (held_uncond _ _ _ _ Hv : held m tv pv gc) as Hgc.
    set (r := if is_null gc then _ else _) in H. assert (exists ac' cnt' last', r = inr (ac', cnt', last') /\ forall x, last' = Some x -> held m tv pv x) as (ac' & cnt' & last' & Er & Hl').
    { unfold r. destruct (is_null gc) eqn:En; [eauto|]. destruct (sh_data gc) eqn:Ed; [|eauto].
      destruct (load_dat _ _ _ _ _ Ha1 (held_dat _ _ _ _ Hgc En Ed)) as (l' & it & _ & _ & -> & _). eexists _, _, _. split; [done|]. by intros x [= <-]. }
    rewrite Er in H.
    assert (length (new ++ [gc]) = S i) as Hlen' by (rewrite app_length; simpl; lia).
    assert (Forall (held m tv pv) (new ++ [gc])) as Hnew'. { apply Forall_app. split; [done|]. by apply Forall_singleton. }
    assert (child_ok m tv pv (parent, child)) as Hch. { split; [done|]. by exists l. }
    destruct (S i <? LEVEL_CELLS) eqn:Ei.
    + apply Nat.ltb_lt in Ei. injection H as <- <- <-. simpl. split; [done|]. split; [done|]. split; [done|]. split; [done|]. done.
    + apply Nat.ltb_ge in Ei. eapply prune_decide_ok; [done|exact Hch| |exact Hnew'|exact Hl'|exact H]. lia.
  - injection Hacc as _ <- _. done.
  - (* GLoad *) injection Hacc as -> <- <-. specialize (Hv ltac:(done)). simpl in Hp. cbn [op_step] in H. rewrite Hr in H.
    destruct (is_null v) eqn:En; [injection H as <- <- <-; simpl; constructor|]. destruct (sh_data v) eqn:Ed.
    + destruct (load_dat _ _ _ _ _ Ha (held_dat _ _ _ _ Hv En Ed)) as (l & it & Hl & Hb & Eq & Hkn). rewrite Eq, Hl in H. injection H as <- <- <-. simpl.
      destruct (find_ref k0 l it) as [r|] eqn:Ef; [|constructor]. apply Forall_singleton. by eapply find_ref_ok.
    + destruct (held_inner _ _ _ _ Hv En Ed) as (l & Hl & Hkn & Hin). rewrite Hl in H. injection H as <- <- <-. simpl. split; [done|]. split; [done|]. apply bits_lt.
  - (* RLoad *) injection Hacc as -> <- <-. specialize (Hv ltac:(done)). destruct Hp as [Hc Hlev]. cbn [op_step] in H. rewrite Hr in H.
    destruct (is_null v) eqn:En; [injection H as <- <- <-; simpl; constructor|].
    destruct (sh_cond v). { destruct levels as [|[parent child] rest]; [by injection H as <- <- <-|]. apply Forall_cons in Hlev as [Hch _]. eapply prune_start_ok; [|exact Hch|exact H]. done. }
    destruct (sh_data v) eqn:Ed.
    + destruct (load_dat _ _ _ _ _ Ha (held_dat _ _ _ _ Hv En Ed)) as (l & it & Hl & Hb & Eq & Hkn). rewrite Eq, Hl in H.
      destruct (find_last k0 0 it None) as [[i p]|] eqn:Ef; [|injection H as <- <- <-; simpl; constructor]. injection H as <- <- <-. simpl. split; [done|]. split; [done|]. split; [by exists l|].
      split; [done|]. simpl. exists it. split; [done|]. apply find_last_at in Ef as [?|[_ Ef]]; [done|]. by rewrite Nat.sub_0_r in Ef.
    + destruct (held_inner _ _ _ _ Hv En Ed) as (l & Hl & Hkn & Hin). rewrite Hl in H. destruct (MAX_LEVELS <=? length levels); [by injection H as <- <- <-|].
      destruct (HASH_BITS <=? shift); [by injection H as <- <- <-|]. injection H as <- <- <-. simpl. split; [split; [done|]; split; [done|]; apply bits_lt|].
      constructor; [|done]. split; [done|]. exists l. done.
  - injection Hacc as _ <- _. done.
  - (* RCount *) destruct Hp as (Hd & Hlev & Hch & Hi). assert (exists l, sh_loc child = Some l) as [l Hl] by (destruct Hch as (_ & l & Hl & _); by exists l).
    rewrite Hl in Hacc. simpl in Hacc. injection Hacc as <- <- <-. cbn [op_step] in H. rewrite Hl, Hr in H. destruct (S i <? LEVEL_CELLS) eqn:Ei.
    + apply Nat.ltb_lt in Ei. injection H as <- <- <-. simpl. done.
    + destruct (1 <? _); [injection H as <- <- <-; simpl; by apply Forall_singleton|]. eapply prune_start_ok; [|exact Hch|exact H]. split; [exact Hd|exact Hlev].
  - (* ELoad *) injection H as <- <- <-. simpl. constructor.
  - (* INew *) injection Hacc as <- <- <-. specialize (Hv ltac:(done)). injection H as <- <- <-. simpl in Hr. injection Hr as Hr. simpl. split; [|constructor]. constructor; [|constructor]. simpl. by rewrite Hr.
  - (* INext *) destruct levels as [|[u idx] rest]; [done|]. cbn [access] in Hacc. destruct Hp as [Hlev Hout]. apply Forall_cons in Hlev as [Hu Hlev]. simpl in Hu.
    destruct (is_null u) eqn:En; [done|]. destruct (sh_data u) eqn:Ed; [done|]. cbn [orb] in Hacc. destruct (LEVEL_CELLS <=? idx) eqn:Ei; [done|]. apply Nat.leb_gt in Ei.
    destruct (held_inner _ _ _ _ Hu En Ed) as (l & Hl & Hkn & Hin). rewrite Hl in Hacc. simpl in Hacc. injection Hacc as <- <- <-. specialize (Hv ltac:(done)).
    cbn [op_step] in H. rewrite En, Ed, Hl, Hr in H. apply Nat.ltb_lt in Ei. rewrite Ei in H. destruct (MAX_LEVELS + 1 <=? _); [injection H as <- <- <-; discriminate|].
    injection H as <- <- <-. simpl. split; [|done]. constructor; [done|]. constructor; done.
Qed.

(** A step without an atomic access. *)
Lemma next_none M m tv pv p spur a M' nx acts :
  agree M m tv pv -> pc_ok m tv pv p -> access w p = None -> op_step ∅ M p spur a = Some (M', nx, acts) -> nx_ok m tv pv nx.
Proof.
  intros Ha Hp Hacc H. destruct p; cbn [access] in Hacc; try done.
  - destruct Hp as (_ & (_ & l & Hl & _) & _). simpl in Hl. by rewrite Hl in Hacc.
  - destruct Hp as (_ & _ & (_ & l & Hl & _) & _). simpl in Hl. by rewrite Hl in Hacc.
  - destruct Hp as [Hlev Hout]. cbn [op_step] in H. destruct levels as [|[u idx] rest]; [by injection H as <- <- <-|]. apply Forall_cons in Hlev as [Hu Hlev]. simpl in Hu.
    destruct (is_null u) eqn:En; [by injection H as <- <- <-|]. destruct (sh_data u) eqn:Ed.
    + destruct (load_dat _ _ _ _ _ Ha (held_dat _ _ _ _ Hu En Ed)) as (l & it & Hl & Hb & Eq & Hkn). rewrite Eq, Hl in H. destruct (it !! idx) as [p|] eqn:Ep; [|by injection H as <- <- <-].
      injection H as <- <- <-. simpl. split; [by constructor|]. apply Forall_app. split; [done|]. apply Forall_singleton. split; [done|]. by exists it.
    + destruct (held_inner _ _ _ _ Hu En Ed) as (l & Hl & _). rewrite Hl in Hacc. cbn [orb fmap option_fmap option_map] in Hacc. destruct (LEVEL_CELLS <=? idx) eqn:Ei; [|done]. apply Nat.leb_le in Ei.
      assert (idx <? LEVEL_CELLS = false) as E by (apply Nat.ltb_ge; lia). rewrite E in H. by injection H as <- <- <-.
Qed.

(** A compare-and-set. *)
Definition new_body (p : pc) : option body :=
  match p with
  | TCas _ _ _ _ _ new _ => Some new
  | PCas _ _ _ (inr sl) _ => Some (BInner sl)
  | RCas _ _ _ _ _ _ (x :: new) _ => Some (BData (x :: new))
  | _ => None
  end.
Lemma next_cas M m tv pv p c ord v spur a M' nx acts :
  pc_ok m tv pv p -> access w p = Some (c, ACas, ord) -> read_cell M c = Some v ->
  (cas_wins M p spur = true -> forall b, new_body p = Some b -> known tv pv (m_next M) /\ hbody m (m_next M) = Some b) ->
  op_step ∅ M p spur a = Some (M', nx, acts) -> nx_ok m tv pv nx.
Proof.
  intros Hp Hacc Hr Hnew H. destruct p; cbn [access] in Hacc; try done.
  - injection Hacc as -> <-. destruct Hp as (Hc & Hpar & Hkind). cbn [op_step] in H. rewrite Hr in H. unfold cas_wins in Hnew. cbn [cas_of] in Hnew. rewrite Hr in Hnew.
    destruct (addr_free M a); [|done]. cbn [negb] in H. destruct (sh_same M v node && negb spur) eqn:Ew.
    + destruct (Hnew eq_refl new eq_refl) as [Hkn Hb]. destruct kind as [| |result].
      * destruct Hkind as [p0 ->]. eapply t_finish_ok; [|exact H]. intros x Hx. destruct (t_mode t); [done|]. injection Hx as <-. split; [done|]. by exists [p0].
      * by injection H as <- <- <-.
      * destruct Hkind as ((old & Hold) & (it & ->) & Hres). rewrite Hold in H. destruct (negb (sh_data node)); [by injection H as <- <- <-|].
        destruct result as [r|]; [|destruct (t_mode t) eqn:Em].
        -- eapply t_finish_ok; [|destruct (t_mode t); exact H]. simpl. intros x [= <-]. by apply Hres.
        -- by eapply t_finish_ok; [|exact H].
        -- destruct (it !! (length it - 1)) as [pl|] eqn:El; [|by injection H as <- <- <-]. eapply t_finish_ok; [|exact H]. simpl. intros x [= <-]. split; [done|]. by exists it.
    + injection H as <- <- <-. simpl. done.
  - exfalso. destruct (sh_loc child); simpl in Hacc; congruence.
  - injection Hacc as -> <-. destruct Hp as (Hk & Hch & Hins). cbn [op_step] in H. rewrite Hr in H.
    assert (exists m1 m2, (if sh_same M v child then match sh_loc child with None => ok m1 (NFail FUB) | Some l => prune_return (retire m1 l KInner ∅) k pr end
              else prune_return m2 k PRCasFail) = Some (M', nx, acts)) as (m1 & m2 & H').
    { destruct ins as [u|sl]; [eexists _, _; exact H|]. destruct (addr_free M a); [|done]. eexists _, _; exact H. }
    destruct (sh_same M v child); [|by eapply prune_return_ok]. destruct Hch as (_ & l & Hl & _). simpl in Hl. rewrite Hl in H'. by eapply prune_return_ok.
  - injection Hacc as -> <-. destruct Hp as (Hc & Hlev & (old & Hold) & Hdel). cbn [op_step] in H. rewrite Hr in H. rewrite Hold in H.
    assert (exists m1 m2, (if sh_same M v node && negb spur then if negb (sh_data node) then panics m1 PReplaceNotData else rem_up (retire m1 old KData ∅) del levels
              else ok m2 (NRun (RLoad k h shift c levels))) = Some (M', nx, acts)) as (m1 & m2 & H').
    { destruct new as [|x new]; [eexists _, _; exact H|]. destruct (addr_free M a); [|done]. eexists _, _; exact H. }
    destruct (_ && _); [|by injection H' as <- <- <-]. destruct (negb _); [by injection H' as <- <- <-|]. by eapply rem_up_ok.
  - exfalso. destruct (sh_loc child); simpl in Hacc; congruence.
  - exfalso. destruct levels as [|[u idx] rest]; [done|]. destruct (_ || _); [done|]. destruct (sh_loc u); simpl in Hacc; congruence.
Qed.
End wstep.
