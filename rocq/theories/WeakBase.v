(** * Executions on coherent weakly ordered memory: the invariant, and what every step contributes to the history of a key. *)
From Verif Require Import Model Mem Spec Weak WeakInv WeakStep WeakSys WeakRun LinSpec Inv Safe SafeStep SafeOps Look Sem SemOps Lin LinProps Iter IterSpec IterSys WeakCoh WeakFun WeakWrite WeakWalk WeakTime WeakIter.

Section base.
Context {C : Config} {HC : ConfigOk C} (w : orders).
Implicit Types (m : mem) (pos : loc -> list nat) (c : cell) (v : sh) (o : opid) (k : Key) (op : oper) (s : cstate) (ls : list clabel) (ev : list event)
  (M : nat -> mem) (H : nat -> cell -> list sh).

(** ** Happens-before *)
Lemma hb_mono ls lb o1 o2 : hb ls o1 o2 -> hb (ls ++ [lb]) o1 o2.
Proof. induction 1 as [o1 o2 op ps H1 H2|]; [|by eapply hb_trans]. eapply hb_direct; [|done]. apply elem_of_app. by left. Qed.
Lemma hb_step ls o n spur a o1 o2 : hb (ls ++ [CStep o n spur a]) o1 o2 -> hb ls o1 o2.
Proof.
  induction 1 as [o1 o2 op ps H1 H2|]; [|by eapply hb_trans]. apply elem_of_app in H1 as [H1|H1]; [by eapply hb_direct|]. by apply elem_of_list_singleton in H1.
Qed.
Lemma hb_inv ls o op ps o1 o2 : o ∉ ps -> (forall o', ~ hb ls o o') -> hb (ls ++ [CInv o op ps]) o1 o2 ->
  hb ls o1 o2 \/ o2 = o /\ (o1 ∈ ps \/ exists p, p ∈ ps /\ hb ls o1 p).
Proof.
  intros Hps Ho. induction 1 as [o1 o2 op' ps' H1 H2|o1 o2 o3 _ IH1 _ IH2].
  - apply elem_of_app in H1 as [H1|H1]; [left; by eapply hb_direct|]. apply elem_of_list_singleton in H1. injection H1 as -> -> ->. right. split; [done|]. by left.
  - destruct IH2 as [IH2|[-> IH2]].
    + destruct IH1 as [IH1|[-> IH1]]; [left; by eapply hb_trans|]. by apply Ho in IH2.
    + destruct IH1 as [IH1|[-> IH1]]; [|destruct IH2 as [IH2|(p & _ & IH2)]; [done|by apply Ho in IH2]].
      right. split; [done|]. right. destruct IH2 as [IH2|(p & Hp & IH2)]; [by exists o2|]. exists p. split; [done|by eapply hb_trans].
Qed.

(** ** The map, restricted to one key *)
Definition restr k (a : amap) : amap := fun k' => if keqb k k' then a k' else None.
Lemma keqb_congl a b k : keqb a b = true -> keqb a k = keqb b k.
Proof. intros E. rewrite (keqb_sym a k), (keqb_sym b k). by apply keqb_cong. Qed.
Lemma concerns_dec op k : concerns op k \/ ~ concerns op k.
Proof. destruct op; simpl; try (by left); try (by right; intros []); destruct (keqb _ k); auto. Qed.
Lemma restr_same k a a' : same a a' -> same (restr k a) (restr k a').
Proof. intros Hs k'. unfold restr. by rewrite Hs. Qed.
Lemma restr_step k a op x a' : op_wf op -> concerns op k -> spec_step a op x a' -> spec_step (restr k a) op x (restr k a').
Proof.
  intros Hw Hc. unfold spec_step, put, del, same, restr. destruct op as [p|k0 f|k0|k0| |], x as [x|[x|x]|b]; try done; simpl in Hc, Hw.
  - intros [-> Hp]. rewrite keqb_sym, Hc. split; [done|]. intros k'. rewrite Hp, (keqb_congl _ _ k' Hc). by destruct (keqb k k').
  - intros [Ha Hp]. rewrite keqb_sym, Hc. split; [done|]. intros k'. by rewrite Hp.
  - intros (Ha & -> & Hp). rewrite keqb_sym, Hc. split; [done|]. split; [done|]. intros k'. rewrite Hp, (keqb_congl _ _ k' Hw), (keqb_congl _ _ k' Hc). by destruct (keqb k k').
  - intros [-> Hp]. rewrite keqb_sym, Hc. split; [done|]. intros k'. by rewrite Hp.
  - intros [-> Hp]. rewrite keqb_sym, Hc. split; [done|]. intros k'. rewrite Hp, (keqb_congl _ _ k' Hc). by destruct (keqb k k').
  - intros [Ha Hp]. split; [intros Hb k'; rewrite Ha by done; by destruct (keqb k k')|]. intros k'. by rewrite Hp.
Qed.
Lemma restr_other k a op x a' : op_wf op -> ~ concerns op k -> spec_step a op x a' -> same (restr k a) (restr k a').
Proof.
  intros Hw Hc. unfold spec_step, put, del, same, restr. destruct op as [p|k0 f|k0|k0| |], x as [x|[x|x]|b]; try done; simpl in Hc, Hw; try (intros [_ Hp] k'; by rewrite Hp).
  - intros [-> Hp] k'. rewrite Hp. destruct (keqb k k') eqn:E; [|done]. destruct (keqb (keyof p) k') eqn:E2; [|done]. exfalso. apply Hc. rewrite keqb_sym in E. by eapply keqb_trans.
  - intros (Ha & -> & Hp) k'. rewrite Hp. destruct (keqb k k') eqn:E; [|done]. rewrite (keqb_congl _ _ k' Hw). destruct (keqb k0 k') eqn:E2; [|done]. exfalso. apply Hc. rewrite keqb_sym in E. by eapply keqb_trans.
  - intros [-> Hp] k'. rewrite Hp. destruct (keqb k k') eqn:E; [|done]. destruct (keqb k0 k') eqn:E2; [|done]. exfalso. apply Hc. rewrite keqb_sym in E. by eapply keqb_trans.
Qed.

(** ** The invariant *)
Definition bounds fl ls o (ws : list (cell * nat)) : Prop := forall x a, (x, a) ∈ ws -> a <= fl o x /\ forall o', hb ls o' o -> fl o' x <= a.

(** Where the search of a call is: it came there by a walk through values that are at least as new as whatever happens before has seen. *)
Definition track H N fl ls o op (p : pc) : Prop :=
  dn p = None -> forall c, pat p = Some c -> exists ws, (forall k, concerns op k -> walk H N k (ws ++ [(c, 0)])) /\ bounds fl ls o ws.

(** An iterator. *)
Definition ist H N pos m fl ls ev o op (p : pc) : Prop :=
  op = OIter -> match p with INext lv out => iok (bounds fl ls o) H N pos m lv out /\ yields_of ev o = out | _ => yields_of ev o = [] end.
Definition irt ev o op (r : res) : Prop := op = OIter -> exists out, r = RIter out /\ yields_of ev o = out /\ nodupk (Iter.vals out).
(** What the iterator has found out about key [k]. *)
Definition ires k m (st : ostat) : option (option Pl) :=
  match st with
  | SRun _ (INext lv out) => istat m lv out k
  | SRet _ (RIter out) => Some (find_pl k (Iter.vals out))
  | _ => None
  end.

Definition bst H N pos m fl ls ev o (st : ostat) : Prop :=
  match st with
  | SRun op p => op_wf op /\ pc_ok pos (vw o m) o p /\ pc_sem pos m op p /\ EInv o op ∈ ev /\ track H N fl ls o op p /\ ist H N pos m fl ls ev o op p
  | SRet op r => EInv o op ∈ ev /\ ERet o r ∈ ev /\ irt ev o op r
  | _ => False
  end.

Definition st_op (st : ostat) : option oper := match st with SRun op _ | SRet op _ | SFail op _ => Some op | SGone => None end.

Record binv M H (N : nat) pos ls s ev : Prop := {
  b_tl : timeline M H N pos;
  b_mem : M N = w_mem (c_w s);
  b_hist : forall c, H N c = vals (w_hist (c_w s)) c;
  b_winv : winv (c_w s);
  b_sem : sem pos (w_mem (c_w s));
  b_leaf : leaf_path H N pos (w_mem (c_w s));
  b_evy : forall o r, EYield o r ∈ ev -> is_Some (w_ops (c_w s) !! o);
  b_ops : forall o x, w_ops (c_w s) !! o = Some x -> bst H N pos (w_mem (c_w s)) (c_fl s) ls ev o (w_st x);
  b_evi : forall o op, EInv o op ∈ ev -> exists x, w_ops (c_w s) !! o = Some x /\ st_op (w_st x) = Some op;
  b_evr : forall o r, ERet o r ∈ ev -> exists op tv pv, w_ops (c_w s) !! o = Some (WOp (SRet op r) tv pv);
  b_hb : forall o1 o2, hb ls o1 o2 -> is_returned (c_w s) o1 = true /\ is_Some (w_ops (c_w s) !! o2) /\ forall c, c_fl s o1 c <= c_fl s o2 c;
}.

Lemma vals0 c : vals (w_hist winit) c = match c with CRoot => [sh_null] | _ => [] end.
Proof. by destruct c. Qed.
Lemma binv0 : exists pos, binv (fun _ => mem0) (fun _ => vals (w_hist winit)) 0 pos [] cinit [].
Proof.
  exists (fun _ => []). split.
  - split.
    + intros t _. apply minv0.
    + intros t u _ _. apply ext_refl.
    + done.
    + done.
    + intros t c _. rewrite vals0. destruct c as [|l i]; [done|]. done.
    + intros c n n' v v' _. rewrite vals0. destruct c; [|done]. destruct n; [|done]. intros [= <-]. done.
    + intros c n v. rewrite vals0. destruct c as [|l i]; [|done]. destruct n; [|done]. intros [= <-]. exists 0. split; [done|]. split; [done|]. split; [done|by left].
  - done.
  - done.
  - apply winit_inv.
  - apply sem0.
  - intros c n v t it p _ _ _ Hb. unfold hbody in Hb. simpl in Hb. by rewrite lookup_empty in Hb.
  - intros o r Hin. by apply elem_of_nil in Hin.
  - intros o x Hx. simpl in Hx. by rewrite lookup_empty in Hx.
  - intros o op Hin. by apply elem_of_nil in Hin.
  - intros o r Hin. by apply elem_of_nil in Hin.
  - intros o1 o2 Hh. exfalso. induction Hh as [o1 o2 op ps H1 H2|]; [by apply elem_of_nil in H1|done].
Qed.

(** ** A call starts *)
Lemma binv_inv M H N pos ls s ev o op ps s' ev1 : op_wf op -> strong w -> binv M H N pos ls s ev -> cstep w s (CInv o op ps) = Some (s', ev1) ->
  w_ops (c_w s) !! o = None /\ w_ops (c_w s') = <[o := WOp (SRun op (op_init op)) ∅ ∅]> (w_ops (c_w s)) /\ ev1 = [EInv o op] /\
  (forall o' c, o' <> o -> c_fl s' o' c = c_fl s o' c) /\ binv M H N pos (ls ++ [CInv o op ps]) s' (ev ++ ev1) /\
  (forall o1 o2, hb (ls ++ [CInv o op ps]) o1 o2 -> hb ls o1 o2 \/ o2 = o).
Proof.
  intros Hwf Hw B Hst. cbn [cstep] in Hst. destruct (forallb (is_returned (c_w s)) ps) eqn:Eps; [|done]. destruct (wstep w (c_w s) (WInv o op)) as [[s1 ev2]|] eqn:Ew; [|done].
  pose proof (wstep_inv _ _ _ _ _ Hw (b_winv _ _ _ _ _ _ _ B) Ew) as Hs1. cbn [wstep] in Ew. destruct (w_ops (c_w s) !! o) eqn:Eo; [done|]. injection Ew as <- <-. injection Hst as <- <-.
  assert (forall p, p ∈ ps -> is_returned (c_w s) p = true) as Hps. { intros p Hp. rewrite forallb_forall in Eps. apply Eps. by apply elem_of_list_In. }
  assert (o ∉ ps) as Hops. { intros Hin%Hps. unfold is_returned in Hin. by rewrite Eo in Hin. }
  assert (forall o', ~ hb ls o o') as Hno. { intros o' Hh. destruct (b_hb _ _ _ _ _ _ _ B _ _ Hh) as [Hr _]. unfold is_returned in Hr. by rewrite Eo in Hr. }
  assert (forall o', ~ hb ls o' o) as Hno'. { intros o' Hh. destruct (b_hb _ _ _ _ _ _ _ B _ _ Hh) as (_ & [x Hx] & _). congruence. }
  assert (forall o', yields_of (ev ++ [EInv o op]) o' = yields_of ev o') as Ey. { intros o'. rewrite yields_app. apply app_nil_r. }
  split; [done|]. split; [done|]. split; [done|]. split; [intros o' c Hne; simpl; by rewrite decide_False|]. split.
  2:{ intros o1 o2 Hh. apply hb_inv in Hh; [|done|done]. destruct Hh as [|[? _]]; auto. }
  split.
  - apply B.
  - apply B.
  - apply B.
  - exact Hs1.
  - apply B.
  - apply B.
  - intros o' r Hin. cbn [c_w w_ops]. apply elem_of_app in Hin as [Hin|Hin]; [|by apply elem_of_list_singleton in Hin]. pose proof (b_evy _ _ _ _ _ _ _ B _ _ Hin) as [x Hx].
    destruct (decide (o' = o)) as [->|]; [rewrite lookup_insert|rewrite lookup_insert_ne by done]; eauto.
  - cbn [c_w w_ops w_mem]. intros o' x Hx. destruct (decide (o' = o)) as [->|Hne].
    + rewrite lookup_insert in Hx. injection Hx as <-. simpl. split; [done|]. split; [|split; [apply pc_sem_init|split; [apply elem_of_app; right; by apply elem_of_list_singleton|split]]].
      * destruct op; simpl; repeat split_and; try done; try apply cok_root.
      * intros _ c Hc. exists []. split; [|by intros x a ?%elem_of_nil]. intros k Hk. assert (c = CRoot) as ->; [|apply walk_root]. destruct op; simpl in Hc; congruence.
      * intros ->. simpl. rewrite Ey. destruct (yields_of ev o) as [|r l] eqn:E; [done|]. exfalso. destruct (b_evy _ _ _ _ _ _ _ B o r) as [x Hx]; [apply elem_of_yields; rewrite E; by left|]. congruence.
    + rewrite lookup_insert_ne in Hx by done. pose proof (b_ops _ _ _ _ _ _ _ B _ _ Hx) as Hb. destruct (w_st x) as [op' p'|op' r'|op' f|] eqn:Est; simpl in *; [|..|done|done].
      2:{ destruct Hb as (? & ? & Hb). split; [apply elem_of_app; by left|]. split; [apply elem_of_app; by left|]. unfold irt. by rewrite Ey. }
      destruct Hb as (H1 & H2 & H3 & H4 & H5 & H6). split; [done|]. split; [done|]. split; [done|]. split; [apply elem_of_app; by left|]. split.
      2:{ intros E. specialize (H6 E). rewrite Ey. destruct p'; try done. destruct H6 as [H6 ?]. split; [|done]. eapply iok_mono; [|by intros|done|exact H6]. intros ws Hbd y a Hya.
        destruct (Hbd _ _ Hya) as [Ha Hb]. simpl. rewrite decide_False by done. split; [done|]. intros o2 Hh. apply hb_inv in Hh; [|done|done].
        destruct Hh as [Hh|[-> _]]; [|done]. rewrite decide_False; [by apply Hb|]. intros ->. by eapply Hno. }
      intros Hd c Hc. destruct (H5 Hd c Hc) as (ws & Hws & Hbd).
      exists ws. split; [done|]. intros y a Hya. destruct (Hbd _ _ Hya) as [Ha Hb]. simpl. rewrite decide_False by done. split; [done|]. intros o2 Hh. apply hb_inv in Hh; [|done|done].
      destruct Hh as [Hh|[-> _]]; [|done]. rewrite decide_False; [by apply Hb|]. intros ->. by eapply Hno.
  - intros o' op' Hin. cbn [c_w w_ops]. apply elem_of_app in Hin as [Hin|Hin].
    + destruct (b_evi _ _ _ _ _ _ _ B _ _ Hin) as (x & Hx & Hop). exists x. rewrite lookup_insert_ne; [done|]. intros ->. congruence.
    + apply elem_of_list_singleton in Hin. injection Hin as -> ->. rewrite lookup_insert. by eexists.
  - intros o' r Hin. cbn [c_w w_ops]. apply elem_of_app in Hin as [Hin|Hin]; [|by apply elem_of_list_singleton in Hin]. destruct (b_evr _ _ _ _ _ _ _ B _ _ Hin) as (op' & tv & pv & Hx).
    exists op', tv, pv. rewrite lookup_insert_ne; [done|]. intros ->. congruence.
  - intros o1 o2 Hh. apply hb_inv in Hh; [|done|done]. unfold is_returned. cbn [c_w w_ops c_fl].
    assert (forall x, is_returned (c_w s) x = true -> x <> o) as Hne. { intros x Hx ->. unfold is_returned in Hx. by rewrite Eo in Hx. }
    destruct Hh as [Hh|[-> Hh]].
    + destruct (b_hb _ _ _ _ _ _ _ B _ _ Hh) as (H1 & H2 & H3). assert (o2 <> o) as Hn2 by (intros ->; by eapply Hno'). rewrite !lookup_insert_ne by (try done; by apply not_eq_sym, Hne).
      split; [exact H1|]. split; [done|]. intros c. rewrite !decide_False by (try done; by apply Hne). apply H3.
    + assert (is_returned (c_w s) o1 = true) as H1. { destruct Hh as [Hh|(p & _ & Hh)]; [by apply Hps|]. by apply (b_hb _ _ _ _ _ _ _ B _ _ Hh). }
      rewrite lookup_insert_ne by (by apply not_eq_sym, Hne). split; [exact H1|]. split; [rewrite lookup_insert; by eexists|]. intros c. rewrite decide_False by (by apply Hne). rewrite decide_True by done.
      assert (exists p, p ∈ ps /\ c_fl s o1 c <= c_fl s p c) as (p & Hp & Hle).
      { destruct Hh as [Hh|(p & Hp & Hh)]; [by exists o1|]. exists p. split; [done|]. apply (b_hb _ _ _ _ _ _ _ B _ _ Hh). }
      etrans; [exact Hle|]. apply max_list_elem_of_le. apply elem_of_list_fmap. by exists p.
Qed.

(** ** A call takes a step *)
Definition keeps M H N M' H' N' : Prop :=
  (forall t, t <= N -> M' t = M t) /\ (forall k ws, walk H N k ws -> walk H' N' k ws) /\ (forall t c n v, holds M H N t c n v -> holds M' H' N' t c n v) /\ (forall c, H N c `prefix_of` H' N' c).

(** The call has found its result [x]. *)
Definition settles (nx : next) (x : aret) : Prop :=
  match nx with NRun p' => exists d, dn p' = Some d /\ x = AOpt (Some (rr_val d)) | NRet r => val_of r = Some x | NFail _ => False end.

Inductive effect M H (N : nat) M' H' (N' : nat) fl' ls o op (p : pc) (nx : next) : Prop :=
| ef_quiet : (N' = N \/ N' = S N /\ same (absm (M N)) (absm (M' N'))) ->
    match nx with
    | NRun p' => dn p' = dn p
    | NRet r => (exists d, dn p = Some d /\ r = ROpt (Some d)) \/ dn p = None /\ (val_of r = None \/ val_of r = Some (ABool false))
    | NFail _ => False
    end -> effect M H N M' H' N' fl' ls o op p nx
| ef_read ws c n v r x : N' = N -> dn p = None -> nx = NRet r -> val_of r = Some x -> (forall k, concerns op k -> walk H' N' k (ws ++ [(c, n)])) -> leafy v -> H' N' c !! n = Some v ->
    bounds fl' ls o (ws ++ [(c, n)]) ->
    (forall k t, concerns op k -> holds M' H' N' t c n v -> spec_step (restr k (absm (M' t))) op x (restr k (absm (M' t)))) -> effect M H N M' H' N' fl' ls o op p nx
| ef_write ws c n v x : N' = S N -> dn p = None -> settles nx x -> spec_step (absm (M N)) op x (absm (M' N')) -> (forall k, concerns op k -> walk H' N' k (ws ++ [(c, n)])) -> leafy v ->
    holds M' H' N' N' c n v -> (forall y a, (y, a) ∈ ws ++ [(c, n)] -> a <= fl' o y) -> effect M H N M' H' N' fl' ls o op p nx.

Definition ieffect M H (N : nat) M' H' (N' : nat) fl' ls o op (p : pc) (nx : next) : Prop :=
  N' = N /\ M' = M /\ H' = H /\ forall k, ires k (M N) (nx_stat op nx) = ires k (M N) (SRun op p) \/
    ires k (M N) (SRun op p) = None /\ exists x, ires k (M N) (nx_stat op nx) = Some x /\ decides (bounds fl' ls o) H N (M N) k x.

Lemma pat_access p c : pat p = Some c -> exists kd ord, access w p = Some (c, kd, ord).
Proof. destruct p; simpl; try done; intros [= <-]; eauto. Qed.

(** What the steps of calls add to the events. *)
Lemma nx_events_ret o nx acts o' r : ERet o' r ∈ nx_events o nx acts <-> o' = o /\ nx = NRet r.
Proof.
  unfold nx_events. rewrite elem_of_app, elem_of_list_fmap. split.
  - intros [(y & E & _)|Hin]; [by destruct y|]. destruct nx; try (by apply elem_of_nil in Hin). apply elem_of_list_singleton in Hin. by injection Hin as -> ->.
  - intros [-> ->]. right. by apply elem_of_list_singleton.
Qed.
Lemma nx_events_inv o nx acts o' op : EInv o' op ∈ nx_events o nx acts -> False.
Proof.
  unfold nx_events. rewrite elem_of_app, elem_of_list_fmap. intros [(y & E & _)|Hin]; [by destruct y|]. destruct nx; try (by apply elem_of_nil in Hin). by apply elem_of_list_singleton in Hin.
Qed.

Lemma nx_events_yield o nx acts o' r : EYield o' r ∈ nx_events o nx acts -> o' = o.
Proof.
  unfold nx_events. rewrite elem_of_app, elem_of_list_fmap. intros [(y & E & _)|Hin]; [destruct y; simpl in E; congruence|]. destruct nx; try (by apply elem_of_nil in Hin). by apply elem_of_list_singleton in Hin.
Qed.
Lemma yields_nx_ne o nx acts o' : o' <> o -> yields_of (nx_events o nx acts) o' = [].
Proof. intros Hne. unfold nx_events. rewrite yields_app, yields_acts_ne by done. by destruct nx. Qed.
Lemma yields_nx o nx acts : yields_of (nx_events o nx acts) o = yields_of (map (act_event o) acts) o.
Proof. unfold nx_events. rewrite yields_app. rewrite <-(app_nil_r (yields_of (map _ _) _)) at 2. f_equal. by destruct nx. Qed.

Lemma same_cell_spec c c' : same_cell c c' = true <-> c = c'.
Proof.
  destruct c as [|l i], c' as [|l' i']; simpl; try done. rewrite bool_decide_eq_true. split; [by intros [-> ->]|by intros [= -> ->]].
Qed.

(** The parts of the invariant that do not depend on what the step did. *)
Lemma binv_rest M H N pos ls s ev o n spur a op p tv pv nx tv' pv' acts (s1 : wstate) fl' M' H' N' pos' : strong w -> binv M H N pos ls s ev ->
  wstep w (c_w s) (WStep o n spur a) = Some (s1, nx_events o nx acts) ->
  w_ops (c_w s) !! o = Some (WOp (SRun op p) tv pv) -> w_ops s1 = <[o := WOp (nx_stat op nx) tv' pv']> (w_ops (c_w s)) ->
  timeline M' H' N' pos' -> M' N' = w_mem s1 -> (forall c, H' N' c = vals (w_hist s1) c) -> sem pos' (w_mem s1) -> ext pos (w_mem (c_w s)) pos' (w_mem s1) ->
  keeps M H N M' H' N' -> (forall o' c, o' <> o -> fl' o' c = c_fl s o' c) -> (forall c, c_fl s o c <= fl' o c) ->
  nx_ok pos' (vw o (w_mem s1)) o nx -> nx_sem pos' (w_mem s1) op nx ->
  (forall p', nx = NRun p' -> track H' N' fl' ls o op p') -> leaf_path H' N' pos' (w_mem s1) ->
  (forall p', nx = NRun p' -> ist H' N' pos' (w_mem s1) fl' ls (ev ++ nx_events o nx acts) o op p') -> (forall r, nx = NRet r -> irt (ev ++ nx_events o nx acts) o op r) ->
  binv M' H' N' pos' (ls ++ [CStep o n spur a]) (CState s1 fl') (ev ++ nx_events o nx acts).
Proof.
  intros Hw B Hst Ho Hops T' HM' HH' Hse He (K1 & K2 & K3 & K4) Hfl1 Hfl2 Hnx Hns Htr Hlp Hist Hirt.
  pose proof (wstep_inv _ _ _ _ _ Hw (b_winv _ _ _ _ _ _ _ B) Hst) as Hs1.
  pose proof (tl_minv _ _ _ _ (b_tl _ _ _ _ _ _ _ B) N ltac:(lia)) as Hm. rewrite (b_mem _ _ _ _ _ _ _ B) in Hm.
  assert (forall o', hb ls o' o -> o' <> o) as Hne. { intros o' Hh ->. destruct (b_hb _ _ _ _ _ _ _ B _ _ Hh) as [Hr _]. unfold is_returned in Hr. by rewrite Ho in Hr. }
  assert (forall o1 o2, hb ls o1 o2 -> o1 <> o) as Hne1. { intros o1 o2 Hh ->. destruct (b_hb _ _ _ _ _ _ _ B _ _ Hh) as [Hr _]. unfold is_returned in Hr. by rewrite Ho in Hr. }
  split; try done.
  { intros o' r Hin. cbn [c_w]. rewrite Hops. destruct (decide (o' = o)) as [->|Hno]; [rewrite lookup_insert; eauto|rewrite lookup_insert_ne by done]. apply elem_of_app in Hin as [Hin|Hin]; [by eapply B|].
    by apply nx_events_yield in Hin. }
  - cbn [c_w c_fl]. intros o' x Hx. rewrite Hops in Hx. destruct (decide (o' = o)) as [->|Hno].
    + rewrite lookup_insert in Hx. injection Hx as <-. pose proof (b_ops _ _ _ _ _ _ _ B _ _ Ho) as (H1 & _ & _ & H4 & _ & _). destruct nx as [p'|r|f]; simpl; [| |done].
      * split; [done|]. split; [exact Hnx|]. split; [exact Hns|]. split; [apply elem_of_app; by left|]. split.
        2:{ intros E. specialize (Hist _ eq_refl E). destruct p'; try done. destruct Hist as [Hist ?]. split; [|done]. eapply iok_mono; [|by intros|done|exact Hist]. intros ws Hbd y b Hyb. destruct (Hbd _ _ Hyb) as [? Hbb]. split; [done|]. intros o' Hh%hb_step. by apply Hbb. }
        intros Hd c Hc. destruct (Htr _ eq_refl Hd c Hc) as (ws & Hws & Hbd). exists ws. split; [done|].
        intros y b Hyb. destruct (Hbd _ _ Hyb) as [? Hbb]. split; [done|]. intros o' Hh%hb_step. by apply Hbb.
      * split; [apply elem_of_app; by left|]. split; [|by apply Hirt]. apply elem_of_app. right. by apply nx_events_ret.
    + rewrite lookup_insert_ne in Hx by done. pose proof (b_ops _ _ _ _ _ _ _ B _ _ Hx) as Hb. destruct (w_st x) as [op' p'|op' r'|op' f|] eqn:Est; simpl in *; [|..|done|done].
      all: assert (yields_of (ev ++ nx_events o nx acts) o' = yields_of ev o') as Ey by (rewrite yields_app, yields_nx_ne by done; apply app_nil_r).
      2:{ destruct Hb as (? & ? & Hb). split; [apply elem_of_app; by left|]. split; [apply elem_of_app; by left|]. unfold irt. by rewrite Ey. }
      destruct Hb as (H1 & H2 & H3 & H4 & H5 & H6). split; [done|]. split; [|split; [|split; [apply elem_of_app; by left|split]]].
      * eapply pc_st; [| |by eapply tag_minv_1|exact H2]; [exact He|]. intros l Hl. apply vw_prot; [apply Hs1|]. destruct Hl as [Hl _]. apply hbody_is_Some in Hl as [b Hb]. apply hbody_is_Some.
        destruct (He _ _ Hb) as [_ Hb']. destruct b; [destruct Hb' as (? & ? & _)|]; eauto.
      * eapply (pc_sem_st pos (vw o' (w_mem (c_w s)))); [exact He|exact H2|exact H3].
      * intros Hd c Hc. destruct (H5 Hd c Hc) as (ws & Hws & Hbd). exists ws. split; [intros k Hk; by apply K2, Hws|]. intros y b Hyb. destruct (Hbd _ _ Hyb) as [? Hbb]. rewrite Hfl1 by done. split; [done|].
        intros o2 Hh%hb_step. rewrite Hfl1 by (by eapply Hne1). by apply Hbb.
      * intros E. specialize (H6 E). rewrite Ey. destruct p'; try done. destruct H6 as [H6 ?]. split; [|done]. eapply iok_ext; [exact He|]. eapply iok_mono; [|exact K2|exact K4|exact H6]. intros ws Hbd y b Hyb.
        destruct (Hbd _ _ Hyb) as [? Hbb]. rewrite Hfl1 by done. split; [done|]. intros o2 Hh%hb_step. rewrite Hfl1 by (by eapply Hne1). by apply Hbb.
  - intros o' op' Hin. cbn [c_w]. rewrite Hops. apply elem_of_app in Hin as [Hin|Hin]; [|by apply nx_events_inv in Hin].
    destruct (b_evi _ _ _ _ _ _ _ B _ _ Hin) as (x & Hx & Hop). destruct (decide (o' = o)) as [->|Hno]; [|rewrite lookup_insert_ne by done; by exists x]. rewrite lookup_insert. eexists. split; [done|].
    rewrite Ho in Hx. injection Hx as <-. simpl in Hop. injection Hop as ->. by destruct nx.
  - intros o' r Hin. cbn [c_w]. rewrite Hops. apply elem_of_app in Hin as [Hin|Hin].
    + destruct (b_evr _ _ _ _ _ _ _ B _ _ Hin) as (op' & tv1 & pv1 & Hx). exists op', tv1, pv1. rewrite lookup_insert_ne; [done|]. intros ->. congruence.
    + apply nx_events_ret in Hin as [-> ->]. rewrite lookup_insert. eauto.
  - intros o1 o2 Hh%hb_step. cbn [c_w c_fl]. destruct (b_hb _ _ _ _ _ _ _ B _ _ Hh) as (H1 & H2 & H3). pose proof (Hne1 _ _ Hh) as Hn1. unfold is_returned. rewrite Hops, lookup_insert_ne by done.
    split; [exact H1|]. split; [destruct (decide (o2 = o)) as [->|]; [rewrite lookup_insert; by eexists|by rewrite lookup_insert_ne]|]. intros c. rewrite (Hfl1 o1) by done.
    destruct (decide (o2 = o)) as [->|]; [|rewrite Hfl1 by done; apply H3]. etrans; [apply H3|apply Hfl2].
Qed.

Lemma vals_lookup (h : cell -> list msg) c n v W : h c !! n = Some (v, W) -> vals h c !! n = Some v.
Proof. intros E. unfold vals. etrans; [apply list_lookup_fmap|]. apply (f_equal (fmap fst)) in E. exact E. Qed.
Lemma keeps_refl M H N : keeps M H N M H N.
Proof. by split. Qed.

Lemma binv_step M H N pos ls s ev o n spur a s' ev1 : strong w -> binv M H N pos ls s ev -> cstep w s (CStep o n spur a) = Some (s', ev1) ->
  exists op p tv pv nx tv' pv' acts M' H' N' pos',
    w_ops (c_w s) !! o = Some (WOp (SRun op p) tv pv) /\ w_ops (c_w s') = <[o := WOp (nx_stat op nx) tv' pv']> (w_ops (c_w s)) /\ ev1 = nx_events o nx acts /\
    binv M' H' N' pos' (ls ++ [CStep o n spur a]) s' (ev ++ ev1) /\ keeps M H N M' H' N' /\
    (forall o' c, o' <> o -> c_fl s' o' c = c_fl s o' c) /\ (forall c, c_fl s o c <= c_fl s' o c) /\
    ext pos (w_mem (c_w s)) pos' (w_mem (c_w s')) /\
    (op <> OIter /\ effect M H N M' H' N' (c_fl s') ls o op p nx \/ op = OIter /\ ieffect M H N M' H' N' (c_fl s') ls o op p nx).
Proof.
  intros Hw B Hst. cbn [cstep] in Hst. destruct (wstep w (c_w s) (WStep o n spur a)) as [[s1 ev2]|] eqn:Ew; [|done].
  pose proof (b_winv _ _ _ _ _ _ _ B) as Hs. pose proof (wstep_inv _ _ _ _ _ Hw Hs Ew) as Hs1.
  destruct (wstep_st _ _ _ _ _ _ _ _ Hw Hs Ew) as (op & p & tv & pv & nx & tv' & pv' & acts & Ho & Hops & -> & Hwst).
  unfold next_cell in Hst. rewrite Ho in Hst. cbn [w_st] in Hst.
  pose proof (b_ops _ _ _ _ _ _ _ B _ _ Ho) as (Hwf & Hpc & Hps & Hei & Htr & Hist). cbn [w_st] in Hpc, Hps. pose proof (b_leaf _ _ _ _ _ _ _ B) as Hlp.
  assert (op = OIter \/ op <> OIter) as Hopi by (destruct op; auto).
  pose proof (b_tl _ _ _ _ _ _ _ B) as T. pose proof (b_mem _ _ _ _ _ _ _ B) as HMN. pose proof (b_hist _ _ _ _ _ _ _ B) as HHN. pose proof (b_sem _ _ _ _ _ _ _ B) as Hse.
  pose proof (tl_minv _ _ _ _ T N ltac:(lia)) as Hm. rewrite HMN in Hm. pose proof (wi_freed _ Hs) as Hfr. set (m := w_mem (c_w s)) in *.
  assert (minv pos (vw o m)) as Hmv by (by apply tag_minv_1). assert (sem pos (vw o m)) as Hsev by (by eapply (sem_heap pos m)).
  assert (forall x, hb ls x o -> x <> o) as Hne. { intros o' Hh ->. destruct (b_hb _ _ _ _ _ _ _ B _ _ Hh) as [Hr _]. unfold is_returned in Hr. by rewrite Ho in Hr. }
  (* the call goes on without having found its result *)
  assert (forall fl' p' H' N', (forall x c, x <> o -> fl' x c = c_fl s x c) -> (forall c, c_fl s o c <= fl' o c) -> (forall k ws, walk H N k ws -> walk H' N' k ws) ->
    dn p = dn p' -> stays p p' -> track H' N' fl' ls o op p') as Hstay.
  { intros fl' p' H' N' Hf1 Hf2 Hk Hd Hsty Hd' c Hc. destruct Hsty as [E|[E|E]]; [congruence|rewrite Hc in E; injection E as ->|].
    - exists []. split; [intros k _; apply walk_root|]. by intros x b ?%elem_of_nil.
    - rewrite Hc in E. destruct (Htr (eq_trans Hd Hd') c (eq_sym E)) as (ws & Hws & Hbd). exists ws. split; [intros k Hkc; by apply Hk, Hws|]. intros x b Hxb. destruct (Hbd _ _ Hxb) as [Hb1 Hb2].
      split; [by etrans; [|apply Hf2]|]. intros x' Hh. rewrite Hf1 by (by apply Hne). by apply Hb2. }
  destruct Hwst as [M1 Hacc Hstep Hmem Hhist|c kd ord v W M1 Hacc Hkd Hn Hlose Hstep Hmem Hhist|c kd ord v W W' Hacc Hkd Hn Hlen Hstep Hhist].
  - (* no access *)
    rewrite Hacc in Hst. injection Hst as <- <-.
    destruct (stale_ok w pos (vw o m) o op p m spur a M1 nx acts CRoot sh_null) as (Hnx & Hns & Heff); [done|done|done|done|exact Hps|done| |exact Hstep|].
    { intros c' kd ord Hx. congruence. }
    destruct Hopi as [->|Hni].
    { destruct (iter_pc _ _ _ _ Hps) as [?|[->|(lv & out & ->)]]; [done|done|]. destruct (Hist eq_refl) as [Hio Hyo].
      pose proof (inext_local w (bounds (c_fl s) ls o) H N pos m o lv out spur a M1 nx acts Hpc Hio Hacc Hfr Hstep) as Hloc.
      exists OIter, (INext lv out), tv, pv, nx, tv', pv', acts, M, H, N, pos. split; [done|]. split; [done|]. split; [done|].
      split; [|split; [apply keeps_refl|split; [done|split; [done|split; [cbn [c_w]; rewrite Hmem; apply ext_refl|right; split; [done|]]]]]].
      - eapply binv_rest; try done; try (by rewrite Hmem); try (by rewrite Hhist); try apply keeps_refl.
        + rewrite Hmem. apply ext_refl.
        + intros p' ->. destruct p'; try done.
        + intros p' -> _. destruct p' as [| | | | | | | | | |lv' out']; try done. destruct Hloc as (Hio' & _ & Hy). rewrite Hmem. split; [done|]. rewrite yields_app, yields_nx, Hyo.
          destruct Hy as [[-> ->]|(r & -> & ->)]; simpl; [apply app_nil_r|by rewrite decide_True].
        + intros r -> _. destruct r as [| | |ys]; try done. destruct Hloc as (-> & -> & _). exists out. split; [done|]. rewrite yields_app, yields_nx, Hyo. simpl. split; [apply app_nil_r|].
          pose proof (io_nodup _ _ _ _ _ _ _ Hio) as Hn. by apply nodupk_app_l in Hn.
      - split; [done|]. split; [done|]. split; [done|]. intros k. left. rewrite HMN. destruct nx as [p'|r|f]; simpl; [| |done].
        + destruct p' as [| | | | | | | | | |lv' out']; try done. apply Hloc.
        + destruct r as [| | |ys]; try done. destruct Hloc as (-> & _ & Hloc). by rewrite Hloc. }
    assert (pat p = None) as Hpat. { destruct (pat p) eqn:E; [|done]. destruct (pat_access _ _ E) as (? & ? & ?). congruence. }
    exists op, p, tv, pv, nx, tv', pv', acts, M, H, N, pos. split; [done|]. split; [done|]. split; [done|]. split; [|split; [apply keeps_refl|split; [done|split; [done|split; [cbn [c_w]; rewrite Hmem; apply ext_refl|left; split; [done|]]]]]].
    + eapply binv_rest; try done; try (by rewrite Hmem); try (by rewrite Hhist); try apply keeps_refl.
      * rewrite Hmem. apply ext_refl.
      * intros p' ->. destruct Heff as [Hd Hpp]. apply Hstay; try done. destruct Hpp as [?|[?|[?|[? _]]]]; [by left|right; by left|right; by right|congruence].
      * by intros p' _ ?.
      * by intros r _ ?.
    + apply ef_quiet; [by left|]. destruct nx as [p'|r|f]; [by destruct Heff| |done]. simpl in Heff. destruct (dn p) as [d|]; [left; by exists d|right]. split; [done|].
      destruct op; try (destruct Heff as (x & Hx & [[? ->]|(? & _)]); [by right|congruence]). destruct Heff as [ys ->]. by left.
  - (* a value is read *)
    rewrite Hacc in Hst. simpl in Hst. destruct (n <? c_fl s o c) eqn:Efl; [done|]. apply Nat.ltb_ge in Efl. rewrite Hhist, Nat.ltb_irrefl in Hst. injection Hst as <- <-. set (fl' := fun _ _ => _).
    assert (forall x y, x <> o -> fl' x y = c_fl s x y) as Hf1. { intros x y Hx. unfold fl'. by rewrite decide_False. }
    assert (fl' o c = n) as Hf0. { unfold fl'. rewrite decide_True by done. by rewrite (proj2 (same_cell_spec c c) eq_refl). }
    assert (forall y, c_fl s o y <= fl' o y) as Hf2. { intros y. unfold fl'. rewrite decide_True by done. destruct (same_cell c y) eqn:E; [|done]. apply same_cell_spec in E as <-. done. }
    assert (H N c !! n = Some v) as HHn. { rewrite HHN. by eapply vals_lookup. }
    destruct (hist_ptr _ _ _ _ _ _ _ T HHn) as (Hptr & Hroot & [v0 Hv0]). rewrite HMN in Hptr, Hv0.
    destruct (stale_ok w pos (vw o m) o op p (write_cell m c v) spur a M1 nx acts c v) as (Hnx & Hns & Heff); [done|done|done|done|exact Hps| | |exact Hstep|].
    { intros u it Hl. unfold load_data in *. destruct (negb (sh_data u)); [done|]. destruct (sh_loc u) as [l|]; [|done]. unfold deref in *.
      assert (forall m1, m_freed m1 = [] -> freed m1 l = false) as Hfree. { intros m1 E. unfold freed. apply bool_decide_eq_false. rewrite E. apply not_elem_of_nil. }
      rewrite Hfree in Hl by exact Hfr. rewrite Hfree by (destruct c; exact Hfr). change (ho_body <$> m_heap (vw o m) !! l) with (hbody m l) in Hl. change (ho_body <$> m_heap (write_cell m c v) !! l) with (hbody (write_cell m c v) l).
      destruct (hbody m l) as [[sl|it']|] eqn:Eb; try done. by rewrite (proj2 (hbody_write_data m c v l it') Eb). }
    { intros c' kd' ord' Hx. rewrite Hacc in Hx. injection Hx as <- <- <-. split; [done|]. split; [|split; [|split; [done|split; [done|done]]]].
      - apply cval_read_cell; [by eapply cval_write_eq|]. intros l i ->. apply no_freed. exact Hfr.
      - split; [exact Hptr|]. intros t Ht. apply vw_prot; [done|]. apply hbody_is_Some. unfold ptr_ok in Hptr. rewrite Ht in Hptr. destruct (sh_data v); [destruct Hptr as (? & ? & _)|destruct Hptr as (? & ? & _)]; eauto. }
    destruct Hopi as [->|Hni].
    { assert (forall ws, bounds (c_fl s) ls o ws -> bounds fl' ls o ws) as HP1.
      { intros ws Hbd y b Hyb. destruct (Hbd _ _ Hyb) as [Hb1 Hb2]. split; [by etrans; [|apply Hf2]|]. intros x' Hh. rewrite Hf1 by (by apply Hne). by apply Hb2. }
      assert (forall ws, bounds fl' ls o ws -> bounds fl' ls o (ws ++ [(c, n)])) as HP2.
      { intros ws Hbd y b Hyb. apply elem_of_app in Hyb as [Hyb|Hyb]; [by apply Hbd|].
        apply elem_of_list_singleton in Hyb. injection Hyb as -> ->. rewrite Hf0. split; [done|]. intros x' Hh. rewrite Hf1 by (by apply Hne). etrans; [|exact Efl]. apply (b_hb _ _ _ _ _ _ _ B _ _ Hh). }
      assert (exists lv' out', acts = [] /\ nx = NRun (INext lv' out') /\ iok (bounds fl' ls o) H N pos m lv' out' /\ yields_of ev o = out' /\
        forall k, istat m lv' out' k = ires k m (SRun OIter p) \/ ires k m (SRun OIter p) = None /\ exists x, istat m lv' out' k = Some x /\ decides (bounds fl' ls o) H N m k x) as (lv' & out' & -> & -> & Hio' & Hyo' & Hk').
      { destruct (iter_pc _ _ _ _ Hps) as [?|[->|(lv & out & ->)]]; [done| |].
        - simpl in Hacc. injection Hacc as <- <- <-. destruct (inew_weak (bounds fl' ls o) M H N pos m spur a M1 nx acts n v T HMN Hse Hlp HHn) as (-> & lv & -> & Hio & Hk); [apply (HP2 []); by intros y b ?%elem_of_nil|exact Hstep|].
          exists lv, []. split; [done|]. split; [done|]. split; [done|]. split; [by apply Hist|]. intros k. destruct (Hk k) as [E|E]; [left; exact E|right; split; [done|exact E]].
        - destruct (Hist eq_refl) as [Hio Hyo]. destruct (inext_read w (bounds (c_fl s) ls o) (bounds fl' ls o) M H N pos m o lv out spur a M1 nx acts c kd ord n v T HMN Hse Hlp Hpc Hio Hacc HHn Hfr HP1) as (-> & lv' & -> & Hio' & Hk).
          { intros ws Hbd. by apply HP2, HP1. } { exact Hstep. }
          exists lv', out. split; [done|]. split; [done|]. split; [done|]. split; [done|]. exact Hk. }
      exists OIter, p, tv, pv, (NRun (INext lv' out')), tv', pv', [], M, H, N, pos. split; [done|]. split; [done|]. split; [done|].
      split; [|split; [apply keeps_refl|split; [done|split; [done|split; [cbn [c_w]; rewrite Hmem; apply ext_refl|right; split; [done|]]]]]].
      - eapply binv_rest; try done; try (by rewrite Hmem); try (by rewrite Hhist); try apply keeps_refl.
        + rewrite Hmem. apply ext_refl.
        + intros p' [= <-]. done.
        + intros p' [= <-] _. rewrite Hmem. split; [done|]. rewrite yields_app, yields_nx, Hyo'. apply app_nil_r.
      - split; [done|]. split; [done|]. split; [done|]. rewrite HMN. exact Hk'. }
    (* the walk of the call, with the value just read *)
    assert (dn p = None -> pat p = Some c -> exists ws, (forall k, concerns op k -> walk H N k (ws ++ [(c, n)])) /\ bounds fl' ls o (ws ++ [(c, n)])) as Hwalk.
    { intros Hd Hp. destruct (Htr Hd c Hp) as (ws & Hws & Hbd). exists ws. split; [intros k Hk; eapply walk_end; by apply Hws|]. intros y b Hyb. apply elem_of_app in Hyb as [Hyb|Hyb].
      - destruct (Hbd _ _ Hyb) as [Hb1 Hb2]. split; [by etrans; [|apply Hf2]|]. intros x' Hh. rewrite Hf1 by (by apply Hne). by apply Hb2.
      - apply elem_of_list_singleton in Hyb. injection Hyb as -> ->. rewrite Hf0. split; [done|]. intros x' Hh. rewrite Hf1 by (by apply Hne). etrans; [|exact Efl]. apply (b_hb _ _ _ _ _ _ _ B _ _ Hh). }
    exists op, p, tv, pv, nx, tv', pv', acts, M, H, N, pos. split; [done|]. split; [done|]. split; [done|]. split; [|split; [apply keeps_refl|split; [done|split; [done|split; [cbn [c_w]; rewrite Hmem; apply ext_refl|left; split; [done|]]]]]].
    + eapply binv_rest; try done; try (by rewrite Hmem); try (by rewrite Hhist); try apply keeps_refl.
      * rewrite Hmem. apply ext_refl.
      * intros p' ->. destruct Heff as [Hd Hpp]. assert (stays p p' \/ ~ stays p p') as [Hsty|Hnst]; [|by apply Hstay|].
        { destruct Hpp as [?|[?|[?|_]]]; [left; by left|left; right; by left|left; right; by right|]. unfold stays. destruct (pat p') as [c'|] eqn:E; [|left; by left].
          destruct (decide (c' = CRoot)) as [->|Hnr]; [left; right; by left|]. destruct (decide (Some c' = pat p)); [left; right; by right|]. right. intros [?|[?|?]]; congruence. }
        destruct Hpp as [E|[E|[E|(Hp & x & Hx & Hda & Hnext)]]]; [exfalso; apply Hnst; by left|exfalso; apply Hnst; right; by left|exfalso; apply Hnst; right; by right|].
        intros Hd' c' Hc'. destruct (Hwalk ltac:(congruence) Hp) as (ws & Hws & Hbd). exists (ws ++ [(c, n)]). split; [|done]. intros k Hk. specialize (Hnext k Hk). rewrite Hc' in Hnext. injection Hnext as ->.
        destruct (walk_level _ _ _ _ T _ _ (length ws) c n (Hws k Hk)) as (Hlv & _); [by rewrite lookup_app_r, Nat.sub_diag by done|]. rewrite Hlv. by eapply walk_snoc; [apply Hws|..].
      * by intros p' _ ?.
      * by intros r _ ?.
    + destruct nx as [p'|r|f]; [apply ef_quiet; [by left|by destruct Heff]| |done]. simpl in Heff. destruct (dn p) as [d|] eqn:Ed; [apply ef_quiet; [by left|]; left; by exists d|].
      assert (op = OIter \/ exists x, val_of r = Some x /\ (op = OIsEmpty /\ x = ABool false \/ pat p = Some c /\ leafyv v /\
           forall (A A' : amap) k, concerns op k -> (forall k', keqb k k' = true -> A k' = look 0 (vw o m) v k') -> (forall k', keqb k k' = false -> A k' = None) -> same A A' -> spec_step A op x A')) as Hor.
      { destruct op; try (right; exact Heff). by left. }
      destruct Hor as [->|(x & Hx & [[-> ->]|(Hp & Hlf & Hspec)])].
      * destruct Heff as [ys ->]. apply ef_quiet; [by left|]. right. split; [done|by left].
      * apply ef_quiet; [by left|]. right. split; [done|by right].
      * destruct (Hwalk eq_refl Hp) as (ws & Hws & Hbd). eapply (ef_read _ _ _ _ _ _ _ _ _ _ _ _ ws c n v r x); try done. intros k t Hk Hh. apply (Hspec _ _ k Hk).
        -- intros k' Hkk. unfold restr. rewrite Hkk. rewrite (holds_abs _ _ _ _ _ _ _ _ _ _ T (Hws k Hk) Hh Hlf k' Hkk), HMN. symmetry. by apply look_heap.
        -- intros k' Hkk. unfold restr. by rewrite Hkk.
        -- by apply same_refl.
  - (* a write *)
    assert (is_Some (cval m c)) as Hcv. { assert (H N c !! n = Some v) as HHn. { rewrite HHN. by eapply vals_lookup. } destruct (hist_ptr _ _ _ _ _ _ _ T HHn) as (_ & _ & Hx). by rewrite HMN in Hx. }
    destruct (write_ok w pos m o op p c kd ord spur a (w_mem s1) nx acts Hm Hfr Hpc Hse Hwf Hps Hacc Hkd Hcv Hstep) as (pos' & Hmt & Hse' & Hnx & Hns & Heff).
    pose proof (tag_minv_2 _ _ _ (mtr_minv _ _ _ _ _ Hmv Hmt)) as Hm'. assert (ext pos m pos' (w_mem s1)) as He by exact (mtr_ext _ _ _ _ _ Hmv Hmt).
    assert (forall l, dead m l -> dead (w_mem s1) l) as Hdead. { intros l Hl. apply (tag_dead {[o]}). eapply mtr_dead; [exact Hmv|exact Hmt|]. by apply tag_dead. }
    destruct (write_grown w (c_w s) o n spur a s1 op p nx c kd ord v W W' acts pos pos' (H N) Hs Hs1 Hm Hm' Hpc HHN) as [Hg Hgl]; try done.
    { intros x. rewrite (tl_last _ _ _ _ T) by lia. by rewrite HMN. }
    rewrite Hacc in Hst. simpl in Hst. destruct (n <? c_fl s o c) eqn:Efl; [done|]. apply Nat.ltb_ge in Efl. assert (length (w_hist (c_w s) c) <? length (w_hist s1 c) = true) as Elt by (apply Nat.ltb_lt; lia).
    rewrite Elt in Hst. injection Hst as <- <-. set (fl' := fun _ _ => _).
    assert (forall x y, x <> o -> fl' x y = c_fl s x y) as Hf1. { intros x y Hx. unfold fl'. by rewrite decide_False. }
    assert (fl' o c = S n) as Hf0. { unfold fl'. rewrite decide_True by done. by rewrite (proj2 (same_cell_spec c c) eq_refl). }
    assert (forall y, c_fl s o y <= fl' o y) as Hf2. { intros y. unfold fl'. rewrite decide_True by done. destruct (same_cell c y) eqn:E; [|done]. apply same_cell_spec in E as <-. lia. }
    fold m in Hg. rewrite <-HMN in Hg, He, Hdead. assert (timeline (ups N M (w_mem s1)) (ups N H (vals (w_hist s1))) (S N) pos') as T' by (by apply (tl_step M H N pos)).
    assert (keeps M H N (ups N M (w_mem s1)) (ups N H (vals (w_hist s1))) (S N)) as HK.
    { split; [intros t Ht; by apply ups_le|]. split; [intros k ws; by eapply walk_up|]. split; [intros t y b u; by eapply holds_up|]. intros y. rewrite ups_gt by lia. destruct (Hg y) as [[-> _]|(v' & -> & _)]; [done|]. by eexists. }
    assert (op <> OIter) as Hni.
    { intros ->. destruct (iter_pc _ _ _ _ Hps) as [?|[->|(lv & out & ->)]]; [done|..]; cbn [access] in Hacc; [injection Hacc as <- <- <-; by destruct Hkd as [|[? _]]|].
      destruct lv as [|[u idx] lv]; [done|]. destruct (_ || _); [done|]. destruct (sh_loc u); simpl in Hacc; [|done]. injection Hacc as <- <- <-. by destruct Hkd as [|[? _]]. }
    assert (leaf_path (ups N H (vals (w_hist s1))) (S N) pos' (w_mem s1)) as Hlp'.
    { intros y b u t it q. rewrite ups_gt by lia. intros Hu Hd Ht Hb Hq.
      assert (H N y !! b = Some u \/ cval (w_mem s1) y = Some u) as [Hold|Hnew].
      { destruct (Hg y) as [[E _]|(v' & E & Hv' & _)]; rewrite E in Hu; [by left|]. apply lookup_app_Some in Hu as [?|[_ Hu]]; [by left|]. right. apply list_lookup_singleton_Some in Hu as [_ <-]. done. }
      - destruct (hist_ptr _ _ _ _ _ _ _ T Hold) as (Hp & _ & [u0 Hu0]). unfold ptr_ok in Hp. rewrite Ht, Hd in Hp. destruct Hp as (it0 & Hb0 & _). pose proof (ext_data _ _ _ _ _ _ He Hb0) as Hb1. rewrite Hb in Hb1. injection Hb1 as <-.
        rewrite (ext_cpos _ _ _ _ _ _ He Hu0). rewrite HMN in Hb0. by eapply Hlp.
      - by eapply (se_path _ _ Hse'). }
    exists op, p, tv, pv, nx, tv', pv', acts, (ups N M (w_mem s1)), (ups N H (vals (w_hist s1))), (S N), pos'.
    split; [done|]. split; [done|]. split; [done|]. split; [|split; [done|split; [done|split; [done|split; [cbn [c_w]; fold m; by rewrite <-HMN|left; split; [done|]]]]]].
    + eapply binv_rest; try done.
      * rewrite ups_gt by lia. done.
      * intros x. rewrite ups_gt by lia. done.
      * fold m. by rewrite <-HMN.
      * intros p' ->. destruct Heff as [(Hd & Hsty & _)|(Hd & _ & (d & Hd' & _) & _)]; [|intros Hx; congruence]. apply Hstay; try done. apply HK.
      * by intros p' _ ?.
      * by intros r _ ?.
    + assert (same (absm m) (absm (w_mem s1)) -> S N = N \/ S N = S N /\ same (absm (M N)) (absm (ups N M (w_mem s1) (S N)))) as Hsame.
      { intros Hsm. right. split; [done|]. rewrite ups_gt by lia. by rewrite HMN. }
      assert (dn p = None -> pat p = Some c -> (exists x, settles nx x /\ spec_step (absm m) op x (absm (w_mem s1))) -> (exists u, cval (w_mem s1) c = Some u /\ leafyv u /\ sh_cond u = false) ->
        effect M H N (ups N M (w_mem s1)) (ups N H (vals (w_hist s1))) (S N) fl' ls o op p nx) as Hmut.
      { intros Hd Hp (x & Hx & Hspec) (u & Hu & Hlf & Hcd). destruct (Htr Hd c Hp) as (ws & Hws & Hbd).
        assert (holds (ups N M (w_mem s1)) (ups N H (vals (w_hist s1))) (S N) (S N) c (S n) u) as Hh.
        { assert (length (vals (w_hist s1) c) = S (S n)) as Hl by (unfold vals; rewrite fmap_length; etrans; [exact Hgl|]; by rewrite <-Hlen). unfold holds. rewrite !ups_gt by lia. split; [done|]. split; [by eapply uncond_live|]. split; [done|]. split; [|by left].
          pose proof (tl_last _ _ _ _ T' (S N) c ltac:(lia)) as Hla. rewrite !ups_gt in Hla by lia. rewrite Hu, last_lookup, Hl in Hla. done. }
        eapply (ef_write _ _ _ _ _ _ _ _ _ _ _ _ ws c (S n) u x); try done.
        - rewrite ups_gt by lia. by rewrite HMN.
        - intros k Hk. eapply walk_end. by apply HK, Hws.
        - intros y b Hyb. apply elem_of_app in Hyb as [Hyb|Hyb].
          + destruct (Hbd _ _ Hyb) as [Hb1 _]. by etrans; [|apply Hf2].
          + apply elem_of_list_singleton in Hyb. injection Hyb as -> ->. by rewrite Hf0. }
      destruct nx as [p'|r|f]; [| |done].
      * destruct Heff as [(Hd & _ & Hsm)|(Hd & Hp & (d & Hd' & Hspec) & Hu)]; [by apply ef_quiet; [apply Hsame|]|]. apply Hmut; try done. eexists. split; [|exact Hspec]. simpl. eauto.
      * destruct Heff as [[(d & Hd & ->) Hsm]|(Hd & Hp & (x & Hx & Hspec) & Hu)]; [apply ef_quiet; [by apply Hsame|]; left; eauto|]. apply Hmut; try done. by exists x.
Qed.
End base.
