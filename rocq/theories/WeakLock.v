(** * Progress on weakly ordered memory, 1: what one step costs and pays. *)
From Verif Require Import Model Mem Spec Weak WeakInv WeakStep WeakSys WeakRun LinSpec Inv Safe SafeStep SafeOps SafeSys SafeProps Look Sem SemOps LiveStep Lock LockStep WeakCoh WeakFun WeakWrite WeakTime WeakLag.

Section wlock.
Context {C : Config} (cost : nat) (w : orders).
Implicit Types (m : mem) (pos : loc -> list nat) (c : cell) (v u : sh) (o : opid) (p : pc) (op : oper).
Notation cU := (cU cost). Notation cD := (cD cost). Notation ucr := (ucr cost). Notation phi := (phi cost). Notation undoomed := (undoomed cost).
Local Opaque Lock.cU Lock.cD Lock.cS Lock.cM.

Lemma sem_upd pos m op p : pc_sem pos m op p -> upd p = negb (is_reader op).
Proof.
  destruct p as [t shift cur par|t shift cur par node new kind|kk parent child i ac cnt last new|kk parent child ins pr|k h cur|k h shift cur lv|k h shift cur lv node new del|del lv parent child i cnt| | |lv out]; simpl.
  - intros (k & Ht & _). by destruct op.
  - intros (k & Ht & _). by destruct op.
  - destruct kk; simpl; [intros [k Ht]; by destruct op|naive_solver|naive_solver].
  - destruct kk; simpl; [intros [k Ht]; by destruct op|naive_solver|naive_solver].
  - by intros [-> _].
  - by intros [-> _].
  - by intros [-> _].
  - naive_solver.
  - by intros ->.
  - by intros ->.
  - by intros ->.
Qed.

(** ** The values a call remembers: it holds them against what the cells contain later on. *)
Definition krem (k : pcont) : list (cell * sh) := match k with KUp _ lv => lv | _ => [] end.
Definition rem p : list (cell * sh) :=
  match p with
  | TLoad _ _ _ par => option_list par
  | TCas _ _ cur par node _ _ => (cur, node) :: option_list par
  | PMark k parent child _ _ _ _ _ | PCas k parent child _ _ => (parent, child) :: krem k
  | RLoad _ _ _ _ lv => lv
  | RCas _ _ _ cur lv node _ _ => (cur, node) :: lv
  | RCount _ lv parent child _ _ => (parent, child) :: lv
  | _ => []
  end.
Lemma rem_init op : rem (op_init op) = [].
Proof. by destruct op. Qed.
Lemma cas_rem p c v : cas_of p = Some (c, v) -> (c, v) ∈ rem p.
Proof. destruct p; simpl; try done; intros [= <- <-]; by left. Qed.

Lemma link_deeper pos m o parent child l : link_ok pos m o parent child -> sh_loc child = Some l -> pos l = cpos pos parent.
Proof. intros (_ & [Hp _] & _ & Hd & _) Hl. unfold ptr_ok in Hp. rewrite Hl, Hd in Hp. by destruct Hp as (? & _ & ?). Qed.
Lemma lev_deeper pos m o lv cur x u : lev_ok pos m o lv cur -> (x, u) ∈ lv -> length (cpos pos x) < length (cpos pos cur).
Proof.
  revert cur. induction lv as [|[pa ch] lv IH]; intros cur; [by intros _ ?%elem_of_nil|]. simpl. intros (Hlk & (l & i & -> & El) & Hlev) Hin.
  pose proof (link_deeper _ _ _ _ _ _ Hlk El) as Hp. assert (length (cpos pos pa) < length (cpos pos (CSlot l i))) as Hlt by (simpl; rewrite app_length, Hp; simpl; lia).
  apply elem_of_cons in Hin as [[= -> ->]|Hin]; [done|]. specialize (IH _ Hlev Hin). lia.
Qed.
Lemma par_deeper pos m o par cur x u : par_list par cur pos m o -> (x, u) ∈ option_list par -> length (cpos pos x) < length (cpos pos cur).
Proof.
  destruct par as [[pa ch]|]; simpl; [|by intros _ ?%elem_of_nil]. intros (Hlk & l & i & -> & El) Hin%elem_of_list_singleton. injection Hin as -> ->.
  pose proof (link_deeper _ _ _ _ _ _ Hlk El) as Hp. simpl. rewrite app_length, Hp. simpl. lia.
Qed.

(** What a step keeps of it. *)
Lemma rem_step gs pos mm o M p c kd ord v spur a M' p' acts : pc_ok pos mm o p -> access w p = Some (c, kd, ord) -> read_cell M c = Some v ->
  op_step gs M p spur a = Some (M', NRun p', acts) -> forall x u, (x, u) ∈ rem p' -> ((x, u) ∈ rem p /\ x <> c) \/ x = c /\ u = v /\ kd = ALoad.
Proof.
  intros Hpc Hacc Hrd Hst x u Hin.
  assert (forall x c, length (cpos pos x) < length (cpos pos c) -> x <> c) as Hne by (intros ? ? ? ->; lia).
  assert (forall m1 del lv parent, lev_ok pos mm o lv parent -> rem_up m1 del lv = Some (M', NRun p', acts) -> (x, u) ∈ lv /\ x <> parent) as Hru.
  { intros m1 del lv parent Hlev Hr. unfold rem_up, panics, ok in Hr. destruct lv as [|[pa ch] lv]; [done|]. destruct (is_null ch); [done|]. injection Hr as <- <- <-. simpl in Hin. split; [done|]. apply Hne. by eapply lev_deeper. }
  assert (forall m1 k pr parent, kont_ok pos mm o k parent -> prune_return m1 k pr = Some (M', NRun p', acts) -> (x, u) ∈ krem k /\ x <> parent) as Hpr.
  { intros m1 k pr parent Hk Hr. destruct k as [t|key h|del lv]; simpl in Hr; unfold ok in Hr.
    - injection Hr as <- <- <-. by apply elem_of_nil in Hin.
    - injection Hr as <- <- <-. by apply elem_of_nil in Hin.
    - destruct Hk as [_ Hk]. eapply (Hru m1 del); [exact Hk|]. by destruct pr. }
  assert (forall m1 k parent child, prune_start m1 k parent child = Some (M', NRun p', acts) -> (x, u) ∈ (parent, child) :: krem k) as Hps.
  { intros m1 k parent child Hr. unfold prune_start, panics, ok in Hr. destruct (sh_data child); [done|]. destruct (is_null child); [done|]. injection Hr as <- <- <-. exact Hin. }
  assert (forall k parent child l i, link_ok pos mm o parent child -> kont_ok pos mm o k parent -> sh_loc child = Some l -> (x, u) ∈ (parent, child) :: krem k -> x <> CSlot l i) as Hdeep.
  { intros k parent child l i Hlk Hk El Hx. apply Hne. simpl. rewrite app_length, (link_deeper _ _ _ _ _ _ Hlk El). simpl.
    apply elem_of_cons in Hx as [[= -> ->]|Hx]; [lia|]. destruct k as [| |del lv]; [by apply elem_of_nil in Hx|by apply elem_of_nil in Hx|]. destruct Hk as [_ Hk]. pose proof (lev_deeper _ _ _ _ _ _ _ Hk Hx). lia. }
  destruct p as [t shift cur par|t shift cur par node new kind|k parent child i ac cnt last new|k parent child ins pr
    |k h cur|k h shift cur levels|k h shift cur levels node new del|del levels parent child i cnt| | |levels out]; cbn [access] in Hacc.
  - injection Hacc as <- <- <-. destruct Hpc as (Hc & Hsh & Hpar). cbn [op_step] in Hst. rewrite Hrd in Hst.
    assert (forall y, (x, u) ∈ (cur, v) :: option_list par -> y = tt -> ((x, u) ∈ option_list par /\ x <> cur) \/ x = cur /\ u = v /\ ALoad = ALoad) as Hfin.
    { intros _ Hx _. apply elem_of_cons in Hx as [[= -> ->]|Hx]; [by right|]. left. split; [done|]. apply Hne. by eapply par_deeper. }
    destruct (sh_cond v).
    { destruct par as [[parent child]|]; [|done]. apply Hps in Hst. apply (Hfin tt); [|done]. right. simpl in *. exact Hst. }
    destruct (is_null v).
    { destruct (ts_payload _) as [[q st'] call]. injection Hst as <- <- <-. simpl in Hin. by apply (Hfin tt). }
    destruct (sh_data v).
    { destruct (load_data M v) as [?|[|d0 it]]; [done|done|]. destruct (_ && _).
      - destruct (negb _); [done|]. injection Hst as <- <- <-. simpl in Hin. by apply (Hfin tt).
      - destruct (match sh_loc v with Some l => _ | None => _ end) as [r|]; [destruct (t_mode t)|].
        + destruct (ts_payload _) as [[q st'] call]. injection Hst as <- <- <-. simpl in Hin. by apply (Hfin tt).
        + by apply t_finish_run in Hst.
        + destruct (ts_payload _) as [[q st'] call]. injection Hst as <- <- <-. simpl in Hin. by apply (Hfin tt). }
    destruct (sh_loc v) as [l|]; [|done]. destruct (HASH_BITS <=? shift); [done|]. injection Hst as <- <- <-. simpl in Hin. apply elem_of_list_singleton in Hin. injection Hin as -> ->. by right.
  - injection Hacc as <- <- <-. destruct Hpc as (Hc & Hsh & Hpar & _). cbn [op_step] in Hst. rewrite Hrd in Hst. destruct (negb (addr_free M a)); [done|]. left.
    assert (p' = TLoad t shift cur par) as ->.
    { destruct (_ && _); [|by injection Hst as <- <- <-]. destruct kind as [| |result].
      - destruct new as [?|[|p0 ?]]; [done|done|]. by apply t_finish_run in Hst.
      - by injection Hst as <- <- <-.
      - destruct (sh_loc node); [|done]. destruct (negb (sh_data node)); [done|]. destruct new as [?|it]; [done|].
        destruct result as [r|]; [by apply t_finish_run in Hst|]. destruct (t_mode t); [by apply t_finish_run in Hst|]. destruct (it !! _); [by apply t_finish_run in Hst|done]. }
    simpl in Hin. split; [by right|]. apply Hne. by eapply par_deeper.
  - destruct (sh_loc child) as [l|] eqn:El; [|done]. injection Hacc as <- <- <-. destruct Hpc as (Hlk & Hk & _). cbn [op_step] in Hst. rewrite El, Hrd in Hst. left.
    assert ((x, u) ∈ (parent, child) :: krem k) as Hx; [|split; [exact Hx|by eapply Hdeep]].
    destruct (if is_null _ then _ else _) as [f|[[ac' cnt'] last']]; [done|]. destruct (S i <? LEVEL_CELLS); [injection Hst as <- <- <-; exact Hin|].
    unfold prune_decide in Hst. destruct (_ || _); [done|]. injection Hst as <- <- <-. exact Hin.
  - injection Hacc as <- <- <-. destruct Hpc as (Hlk & Hk & _). cbn [op_step] in Hst. rewrite Hrd in Hst. left.
    assert (exists m1 pr', prune_return m1 k pr' = Some (M', NRun p', acts)) as (m1 & pr' & Hr).
    { destruct ins as [leaf|sl]; [|destruct (addr_free M a); [|done]]; (destruct (sh_same M v child); [destruct (sh_loc child); [|done]|]); eauto. }
    destruct (Hpr _ _ _ _ Hk Hr) as [H1 H2]. split; [by right|done].
  - injection Hacc as <- <- <-. cbn [op_step] in Hst. rewrite Hrd in Hst. destruct (is_null v); [done|]. destruct (sh_data v); [by destruct (load_data M v)|]. destruct (sh_loc v); [|done]. injection Hst as <- <- <-. by apply elem_of_nil in Hin.
  - injection Hacc as <- <- <-. destruct Hpc as (Hc & Hsh & Hlev). cbn [op_step] in Hst. rewrite Hrd in Hst. destruct (is_null v); [done|].
    assert ((x, u) ∈ (cur, v) :: levels -> ((x, u) ∈ levels /\ x <> cur) \/ x = cur /\ u = v /\ ALoad = ALoad) as Hfin.
    { intros Hx. apply elem_of_cons in Hx as [[= -> ->]|Hx]; [by right|]. left. split; [done|]. apply Hne. by eapply lev_deeper. }
    destruct (sh_cond v).
    { destruct levels as [|[parent child] rest]; [done|]. apply Hps in Hst. apply Hfin. right. simpl in Hst. apply elem_of_list_singleton in Hst as ->. by left. }
    destruct (sh_data v).
    { destruct (load_data M v) as [?|it]; [done|]. destruct (find_last k 0 it None) as [[i q]|]; [|done]. destruct (sh_loc v); [|done]. injection Hst as <- <- <-. by apply Hfin. }
    destruct (sh_loc v) as [l|]; [|done]. destruct (MAX_LEVELS <=? length levels); [done|]. destruct (HASH_BITS <=? shift); [done|]. injection Hst as <- <- <-. by apply Hfin.
  - injection Hacc as <- <- <-. destruct Hpc as (Hc & Hsh & Hlev & _). cbn [op_step] in Hst. rewrite Hrd in Hst. left.
    assert ((exists m1, rem_up m1 del levels = Some (M', NRun p', acts)) \/ p' = RLoad k h shift cur levels) as [[m1 Hr]| ->].
    { destruct new; [|destruct (addr_free M a); [|done]]; (destruct (_ && _); [destruct (negb (sh_data node)); [done|]; destruct (sh_loc node); [|done]; left; eauto|injection Hst as <- <- <-; by right]). }
    + destruct (Hru _ _ _ _ Hlev Hr) as [H1 H2]. split; [by right|done].
    + simpl in Hin. split; [by right|]. apply Hne. by eapply lev_deeper.
  - destruct (sh_loc child) as [l|] eqn:El; [|done]. injection Hacc as <- <- <-. destruct Hpc as (Hlk & Hk & _). cbn [op_step] in Hst. rewrite El, Hrd in Hst. left.
    assert ((x, u) ∈ (parent, child) :: levels) as Hx; [|split; [exact Hx|by eapply (Hdeep (KUp del levels))]].
    destruct (S i <? LEVEL_CELLS); [injection Hst as <- <- <-; exact Hin|]. destruct (1 <? _); [done|]. apply Hps in Hst. exact Hst.
  - done.
  - injection Hacc as <- <- <-. cbn [op_step] in Hst. injection Hst as <- <- <-. by apply elem_of_nil in Hin.
  - destruct levels as [|[y idx] rest]; [done|]. cbn [op_step] in Hst. destruct (is_null y); [done|]. destruct (sh_data y); [done|]. cbn [orb] in Hacc. destruct (LEVEL_CELLS <=? idx) eqn:E; [done|].
    destruct (idx <? LEVEL_CELLS) eqn:E2; [|apply Nat.leb_gt in E; apply Nat.ltb_ge in E2; lia]. destruct (sh_loc y) as [l|]; [|done]. simpl in Hacc. injection Hacc as <- <- <-. rewrite Hrd in Hst.
    destruct (MAX_LEVELS + 1 <=? _); [done|]. injection Hst as <- <- <-. by apply elem_of_nil in Hin.
Qed.

(** ** The potential of a call, as far as it does not depend on what it may not have seen. *)
Definition lam0 m p : nat :=
  match p with
  | TLoad t shift cur par => 20 + (64 - shift)
  | TCas t shift cur par node new kind => 1
  | PMark k parent child i ac cnt last new => (18 - i) + undoomed m child
  | PCas k parent child ins pr => 1
  | RLoad k h shift cur levels => 20 + (64 - shift)
  | RCas k h shift cur levels node new del => 1
  | RCount del levels parent child i cnt => 17 - i
  | _ => 0
  end.
Definition phi0 m p : nat := lam0 m p + ucr p.
Lemma phi0_le m p : phi0 m p <= phi m p.
Proof. unfold phi0, Lock.phi. destruct p; simpl; try lia; destruct (fresh _ _ _); lia. Qed.
Lemma phi0_core m m' p : coreq m m' -> phi0 m' p = phi0 m p.
Proof. intros (_ & H & _). unfold phi0. f_equal. destruct p; simpl; try done. f_equal. unfold Lock.undoomed, hbody. by rewrite H. Qed.
Lemma phi0_ext pos m pos' m' o p : ext pos m pos' m' -> pc_ok pos (vw o m) o p -> phi0 m' p <= phi0 m p.
Proof.
  intros Hext Hpc. unfold phi0. destruct p; simpl; try lia. destruct Hpc as ((_ & [Hp _] & _ & Hd & [l El]) & _). unfold ptr_ok in Hp. rewrite El, Hd in Hp. destruct Hp as (sl & Hb & _).
  assert (undoomed m' child <= undoomed m child); [|lia]. eapply undoomed_ext; [exact Hext|]. intros l' El'. replace l' with l by congruence. exact Hb.
Qed.

(** Reading (an old value, maybe) and failing compare-and-sets. *)
Lemma read_pay gs pos mm o m M p c kd ord v spur a M' p' acts : pc_ok pos mm o p -> access w p = Some (c, kd, ord) -> kd <> AFetch -> upd p = true ->
  (kd = ACas -> cas_wins M p spur = false) -> read_cell M c = Some v -> (sh_cond v = true -> forall l i child, c = CSlot l i -> sh_loc child = Some l -> undoomed m child = 0) ->
  op_step gs M p spur a = Some (M', NRun p', acts) ->
  phi0 m p' <= phi0 m p + 199 /\ (kd <> ACas -> phi0 m p' + 1 <= phi0 m p).
Proof.
  intros Hpc Hacc Hkd Hup Hlose Hrd Hcond Hst. pose proof (c_facts cost) as (F1 & F2 & F3 & F4).
  assert (forall k parent child m1, prune_start m1 k parent child = Some (M', NRun p', acts) -> phi0 m p' = 18 + undoomed m child + kcr cost k) as Hps.
  { intros k parent child m1. unfold prune_start, panics, ok. destruct (sh_data child); [done|]. destruct (is_null child); [done|]. intros [= <- <- _]. unfold phi0. destruct k; simpl; lia. }
  assert (forall m1 del lv, rem_up m1 del lv = Some (M', NRun p', acts) -> phi0 m p' <= length lv * cU + 17) as Hru.
  { intros m1 del lv. unfold rem_up, panics, ok. destruct lv as [|[pa ch] rest]; [done|]. destruct (is_null ch); [done|]. intros [= <- <- _]. unfold phi0. simpl. lia. }
  assert (forall m1 k pr, prune_return m1 k pr = Some (M', NRun p', acts) -> phi0 m p' <= kcr cost k + 84) as Hpr.
  { intros m1 k pr. destruct k as [t|key h|del lv]; simpl; unfold ok.
    - intros [= <- <- _]. unfold phi0. simpl. lia.
    - intros [= <- <- _]. unfold phi0. simpl. lia.
    - intros H. assert (rem_up m1 del lv = Some (M', NRun p', acts)) as H' by (by destruct pr). apply Hru in H'. lia. }
  destruct p as [t shift cur par|t shift cur par node new kind|k parent child i ac cnt last new|k parent child ins pr
    |k h cur|k h shift cur levels|k h shift cur levels node new del|del levels parent child i cnt| | |levels out]; try done; cbn [access] in Hacc.
  - injection Hacc as <- <- <-. destruct Hpc as (Hc & Hsh & Hpar). cbn [op_step] in Hst. rewrite Hrd in Hst.
    assert (phi0 m p' + 1 <= phi0 m (TLoad t shift cur par)); [|split; [lia|done]].
    destruct (sh_cond v).
    { destruct par as [[parent child]|]; [|done]. destruct Hpar as (Hlk & l & i & -> & El). apply Hps in Hst. rewrite (Hcond eq_refl l i child eq_refl El) in Hst. rewrite Hst. unfold phi0. simpl. lia. }
    destruct (is_null v).
    { destruct (ts_payload _) as [[q st'] call]. injection Hst as <- <- <-. unfold phi0. simpl. lia. }
    destruct (sh_data v).
    { destruct (load_data M v) as [?|[|d0 it]]; [done|done|]. destruct (_ && _).
      - destruct (negb _); [done|]. injection Hst as <- <- <-. unfold phi0. simpl. lia.
      - destruct (match sh_loc v with Some l => _ | None => _ end) as [r|]; [destruct (t_mode t)|].
        + destruct (ts_payload _) as [[q st'] call]. injection Hst as <- <- <-. unfold phi0. simpl. lia.
        + by apply t_finish_run in Hst.
        + destruct (ts_payload _) as [[q st'] call]. injection Hst as <- <- <-. unfold phi0. simpl. lia. }
    destruct (sh_loc v) as [l|]; [|done]. destruct (HASH_BITS <=? shift) eqn:Esh; [done|]. apply Nat.leb_gt in Esh. unfold HASH_BITS in Esh. injection Hst as <- <- <-. unfold phi0, LEVEL_BITS. simpl lam0. simpl Lock.ucr. lia.
  - injection Hacc as <- <- <-. cbn [op_step] in Hst. rewrite Hrd in Hst. destruct (negb (addr_free M a)); [done|]. specialize (Hlose eq_refl). unfold cas_wins in Hlose. cbn [cas_of] in Hlose. rewrite Hrd in Hlose. rewrite Hlose in Hst.
    injection Hst as <- <- <-. split; [|done]. unfold phi0. simpl. lia.
  - destruct (sh_loc child) as [l|]; [|done]. injection Hacc as <- <- <-. done.
  - injection Hacc as <- <- <-. cbn [op_step] in Hst. rewrite Hrd in Hst. specialize (Hlose eq_refl). unfold cas_wins in Hlose. cbn [cas_of] in Hlose. rewrite Hrd, andb_true_r in Hlose. rewrite Hlose in Hst.
    split; [|done]. assert (exists m1, prune_return m1 k PRCasFail = Some (M', NRun p', acts)) as [m1 Hr] by (destruct ins; [|destruct (addr_free M a); [|done]]; eauto).
    apply Hpr in Hr. unfold phi0 at 2. assert (ucr (PCas k parent child ins pr) = kcr cost k) as -> by (by destruct k). simpl. lia.
  - injection Hacc as <- <- <-. destruct Hpc as (Hc & Hsh & Hlev). cbn [op_step] in Hst. rewrite Hrd in Hst. destruct (is_null v); [done|].
    assert (phi0 m p' + 1 <= phi0 m (RLoad k h shift cur levels)); [|split; [lia|done]].
    destruct (sh_cond v).
    { destruct levels as [|[parent child] rest]; [done|]. destruct Hlev as (_ & (l & i & -> & El) & _). apply Hps in Hst. rewrite (Hcond eq_refl l i child eq_refl El) in Hst. rewrite Hst. unfold phi0. simpl. lia. }
    destruct (sh_data v).
    { destruct (load_data M v) as [?|it]; [done|]. destruct (find_last k 0 it None) as [[i q]|]; [|done]. destruct (sh_loc v); [|done]. injection Hst as <- <- <-. unfold phi0. simpl lam0. simpl Lock.ucr. lia. }
    destruct (sh_loc v) as [l|]; [|done]. destruct (MAX_LEVELS <=? length levels); [done|]. destruct (HASH_BITS <=? shift) eqn:Esh; [done|]. apply Nat.leb_gt in Esh. unfold HASH_BITS in Esh. injection Hst as <- <- <-. unfold phi0, LEVEL_BITS. simpl lam0. simpl Lock.ucr. lia.
  - injection Hacc as <- <- <-. cbn [op_step] in Hst. rewrite Hrd in Hst. specialize (Hlose eq_refl). unfold cas_wins in Hlose. cbn [cas_of] in Hlose. rewrite Hrd in Hlose. rewrite Hlose in Hst.
    split; [|done]. assert (p' = RLoad k h shift cur levels) as -> by (destruct new; [|destruct (addr_free M a); [|done]]; by injection Hst as <- <- <-). unfold phi0. simpl lam0. simpl Lock.ucr. lia.
  - destruct (sh_loc child) as [l|] eqn:El; [|done]. injection Hacc as <- <- <-. cbn [op_step] in Hst. rewrite El, Hrd in Hst. destruct Hpc as (_ & _ & Hi).
    assert (phi0 m p' + 1 <= phi0 m (RCount del levels parent child i cnt)); [|split; [lia|done]].
    destruct (S i <? LEVEL_CELLS); [injection Hst as <- <- <-; unfold phi0; simpl lam0; simpl Lock.ucr; lia|]. destruct (1 <? _); [done|]. apply Hps in Hst. rewrite Hst. unfold phi0. cbn [lam0 Lock.ucr kcr].
    pose proof (undoomed_le cost m child). rewrite Nat.mul_succ_l. lia.
Qed.

(** Steps that write. *)
Lemma write_pay gs pos m o p c kd ord spur a m' p' acts : minv pos m -> o ∈ gs -> esafe gs m -> pc_ok pos m o p -> upd p = true ->
  access w p = Some (c, kd, ord) -> (kd = AFetch \/ kd = ACas /\ cas_wins m p spur = true) -> op_step gs m p spur a = Some (m', NRun p', acts) ->
  exists pos', mtr gs pos m pos' m' /\
   ((pos' = pos /\ coreq m m' /\ phi0 m' p' + 1 <= phi0 m p) \/
    (G cost (fun _ => true) pos' m' + cost + phi0 m' p' + 1 <= G cost (fun _ => true) pos m + phi0 m p + 90) \/
    (spur = true /\ pos' = pos /\ coreq m m' /\ phi0 m' p' <= phi0 m p + 200)).
Proof.
  intros Hm Ho He Hpc Hup Hacc Hk Hst. destruct (op_step_pay cost (fun _ => true) ltac:(done) _ _ _ _ _ _ _ _ _ _ Hm Ho He Hpc Hup eq_refl Hst) as (pos' & Hmt & Hpay). exists pos'. split; [done|].
  assert ((phi m p = phi0 m p \/ exists par, phi m p = phi0 m p + stale m (Some par) /\ phi m' p' = phi0 m' p' + stale m' (Some par))) as Hph.
  { destruct p as [t shift cur par|t shift cur par node new kind|k parent child i ac cnt last new|k parent child ins pr
      |k h cur|k h shift cur levels|k h shift cur levels node new del|del levels parent child i cnt| | |levels out]; try done; cbn [access] in Hacc.
    - injection Hacc as <- <- <-. by destruct Hk as [|[? _]].
    - injection Hacc as <- <- <-. destruct Hk as [|[_ Hwin]]; [done|]. left. unfold cas_wins in Hwin. cbn [cas_of] in Hwin. destruct (read_cell m cur) as [now|] eqn:E; [|done]. apply read_cell_cval in E. apply andb_true_iff in Hwin as [Hwin _].
      unfold Lock.phi, phi0. simpl. unfold fresh. by rewrite E, Hwin.
    - right. exists (parent, child). destruct (sh_loc child) as [l|] eqn:El; [|done]. cbn [op_step] in Hst. rewrite El in Hst. split; [unfold Lock.phi, phi0; simpl; lia|].
      destruct (read_cell m (CSlot l i)); [|done]. destruct (if is_null _ then _ else _) as [f|[[ac' cnt'] last']]; [done|]. destruct (S i <? LEVEL_CELLS); [injection Hst as <- <- <-; unfold Lock.phi, phi0; simpl; lia|].
      unfold prune_decide in Hst. destruct (_ || _); [done|]. injection Hst as <- <- <-. unfold Lock.phi, phi0. cbn [lam0 Lock.lam]. lia.
    - injection Hacc as <- <- <-. destruct Hk as [|[_ Hwin]]; [done|]. left. unfold cas_wins in Hwin. cbn [cas_of] in Hwin. destruct (read_cell m parent) as [now|] eqn:E; [|done]. apply read_cell_cval in E. apply andb_true_iff in Hwin as [Hwin _].
      unfold Lock.phi, phi0. simpl. unfold fresh. by rewrite E, Hwin.
    - injection Hacc as <- <- <-. by destruct Hk as [|[? _]].
    - injection Hacc as <- <- <-. destruct Hk as [|[_ Hwin]]; [done|]. left. unfold cas_wins in Hwin. cbn [cas_of] in Hwin. destruct (read_cell m cur) as [now|] eqn:E; [|done]. apply read_cell_cval in E. apply andb_true_iff in Hwin as [Hwin _].
      unfold Lock.phi, phi0. simpl Lock.lam. unfold fresh. by rewrite E, Hwin.
    - destruct (sh_loc child) as [l|]; [|done]. injection Hacc as <- <- <-. by destruct Hk as [|[? _]]. }
  pose proof (phi0_le m' p') as Hle. destruct Hph as [Hph|(par & Hp1 & Hp2)].
  - destruct Hpay as [(E & Hco & Hp)|[Hp|(E & E2 & Hco & Hp)]].
    + left. do 2 (split; [done|]). lia.
    + right. left. lia.
    + right. right. do 3 (split; [done|]). lia.
  - destruct Hpay as [(E & Hco & Hp)|[Hp|(E & E2 & Hco & Hp)]].
    + left. do 2 (split; [done|]). rewrite (coreq_stale _ _ _ Hco) in Hp2. lia.
    + right. left. pose proof (stale_le m (Some par)). lia.
    + right. right. do 3 (split; [done|]). rewrite (coreq_stale _ _ _ Hco) in Hp2. lia.
Qed.
End wlock.
