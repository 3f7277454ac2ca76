(** * Concrete executions
    A concrete instance (keys: N, payloads: pairs of N, hash: the key itself modulo 2^64) and a small script
    language to write schedules of the machine down.  Used only to show that hypotheses can be met and to exhibit
    counterexamples. *)
From Verif Require Import Model Spec LinSpec.

#[global] Instance CN : Config := {| Key := N; Pl := N * N; keyof := fst; keqb := N.eqb; hashf := fun k => N.modulo k (2 ^ 64) |}.
#[global] Instance CNok : ConfigOk CN.
Proof.
  split; simpl.
  - apply N.eqb_refl.
  - apply N.eqb_sym.
  - intros a b c ->%N.eqb_eq ->%N.eqb_eq. apply N.eqb_refl.
  - by intros a b ->%N.eqb_eq.
  - intros a. by apply N.mod_lt.
Qed.

Definition el (k v : N) : @Pl CN := (k, v).
Definition ins (k v : N) : @oper CN := OInsert (el k v).
Definition rem (k : N) : @oper CN := @ORemove CN k.
Definition get (k : N) : @oper CN := @OGet CN k.
Definition goi (k v : N) : @oper CN := @OGetOrInsert CN k (fun k => el k v).
Definition ise : @oper CN := OIsEmpty.
Definition ite : @oper CN := OIter.

(** The lowest address that is not in use. *)
Definition pick (m : mem) : N :=
  match List.find (addr_free m) (map N.of_nat (seq 1 300)) with Some a => a | None => 1000%N end.

Inductive cmd :=
| Inv (o : opid) (op : oper)
| Steps (n : nat) (o : opid)          (* [n] steps of [o] *)
| Finish (o : opid)                   (* [o] runs alone until it returns *)
| Spur (o : opid)                     (* one step of [o]; if it is a weak CAS, it fails spuriously *)
| Lab (lb : label).

Definition stepl (x : state * list label) (lb : label) : option (state * list label) :=
  match step x.1 lb with Some (s', _) => Some (s', x.2 ++ [lb]) | None => None end.
Fixpoint stepsl (n : nat) (o : opid) (x : state * list label) : option (state * list label) :=
  match n with 0 => Some x | S n => match stepl x (LStep o false (pick (s_mem x.1))) with Some y => stepsl n o y | None => None end end.
Fixpoint finishl (n : nat) (o : opid) (x : state * list label) : option (state * list label) :=
  match n with
  | 0 => None
  | S n => match s_ops x.1 !! o with
           | Some (SRun _ _) => match stepl x (LStep o false (pick (s_mem x.1))) with Some y => finishl n o y | None => None end
           | _ => Some x
           end
  end.
Definition cmdl (x : state * list label) (c : cmd) : option (state * list label) :=
  match c with
  | Inv o op => stepl x (LInv o op)
  | Steps n o => stepsl n o x
  | Finish o => finishl 5000 o x
  | Spur o => stepl x (LStep o true (pick (s_mem x.1)))
  | Lab lb => stepl x lb
  end.
Fixpoint cmdsl (x : state * list label) (cs : list cmd) : option (state * list label) :=
  match cs with [] => Some x | c :: cs => match cmdl x c with Some y => cmdsl y cs | None => None end end.

(** The schedule a script stands for. *)
Definition schedule (cs : list cmd) : list label := match cmdsl (init, []) cs with Some (_, ls) => ls | None => [] end.

(** Calls of operations 1, 2, ... that do not overlap. *)
Fixpoint seqcalls (o : opid) (ops : list oper) : list cmd :=
  match ops with [] => [] | op :: ops => Inv o op :: Finish o :: seqcalls (Pos.succ o) ops end.

Lemma exec_check cs (f : state -> list event -> bool) :
  match run init (schedule cs) with Some (s, ev) => f s ev | None => false end = true -> exists ls s ev, exec ls s ev /\ f s ev = true.
Proof.
  intros H. exists (schedule cs). unfold exec. generalize dependent (run init (schedule cs)). intros [[s ev]|] H; [|done].
  by exists s, ev.
Qed.

Lemma reach_check cs (f : state -> bool) :
  match run init (schedule cs) with Some (s, _) => f s | None => false end = true -> exists s, reachable s /\ f s = true.
Proof. intros H. destruct (exec_check cs (fun s _ => f s) H) as (ls & s & ev & Hx & Hf). exists s. split; [|done]. by exists ls, ev. Qed.

(** Boolean tests used by the examples. *)
Definition running (s : @state CN) (o : opid) : bool := match s_ops s !! o with Some (SRun _ _) => true | _ => false end.
Definition returned (s : @state CN) (o : opid) : bool := match s_ops s !! o with Some (SRet _ _) => true | _ => false end.
Definition opt_val (r : @res CN) : option (N * N) := match r with ROpt (Some x) => Some (rr_val x) | _ => None end.

(** ** Checking the hypotheses of the theorems on a schedule *)
Definition lb_wfb (lb : @label CN) : bool := match lb with LInv _ (OGetOrInsert k f) => N.eqb (fst (f k)) k | _ => true end.
Lemma wf_check ls : forallb lb_wfb ls = true -> wf_calls ls.
Proof.
  intros H o op Hin. rewrite forallb_forall in H. apply elem_of_list_In in Hin. specialize (H _ Hin). by destruct op.
Qed.

Lemma exec_check_wf cs (f : list label -> state -> list event -> bool) :
  match run init (schedule cs) with Some (s, ev) => f (schedule cs) s ev && forallb lb_wfb (schedule cs) | None => false end = true ->
  exists ls s ev, exec ls s ev /\ wf_calls ls /\ f ls s ev = true.
Proof.
  intros H. exists (schedule cs). unfold exec. generalize dependent (schedule cs). intros ls H. destruct (run init ls) as [[s ev]|]; [|done].
  apply andb_true_iff in H as [H1 H2]. exists s, ev. split; [done|]. split; [by apply wf_check|done].
Qed.

Definition has_inv (ev : list (@event CN)) (o : opid) (t : @oper CN -> bool) : bool :=
  existsb (fun e => match e with EInv o' op => Pos.eqb o' o && t op | _ => false end) ev.
Definition has_ret (ev : list (@event CN)) (o : opid) (t : @res CN -> bool) : bool :=
  existsb (fun e => match e with ERet o' r => Pos.eqb o' o && t r | _ => false end) ev.
Lemma has_inv_spec ev o t : has_inv ev o t = true -> exists op, EInv o op ∈ ev /\ t op = true.
Proof.
  unfold has_inv. rewrite existsb_exists. intros ([o' op| | |] & Hin & H); try done. apply andb_true_iff in H as [->%Pos.eqb_eq H].
  exists op. split; [by apply elem_of_list_In|done].
Qed.
Lemma has_ret_spec ev o t : has_ret ev o t = true -> exists r, ERet o r ∈ ev /\ t r = true.
Proof.
  unfold has_ret. rewrite existsb_exists. intros ([|o' r| |] & Hin & H); try done. apply andb_true_iff in H as [->%Pos.eqb_eq H].
  exists r. split; [by apply elem_of_list_In|done].
Qed.

(** Every operation in progress in the states number [j0] and later passes the test. *)
Definition prog_check (ls : list (@label CN)) (j0 : nat) (t : opid -> @oper CN -> bool) : bool :=
  forallb (fun j => match state_at ls j with
    | Some s => forallb (fun x => match x.2 with SRun op _ => t x.1 op | _ => true end) (map_to_list (s_ops s))
    | None => true end) (seq j0 (S (length ls) - j0)).
Lemma prog_check_spec ls j0 t : prog_check ls j0 t = true -> j0 <= length ls ->
  forall j sj o op, j0 <= j -> state_at ls j = Some sj -> in_progress sj o op -> t o op = true.
Proof.
  intros H Hl j sj o op Hj Hs [p Hp]. unfold prog_check in H. rewrite forallb_forall in H.
  assert (exists j', j0 <= j' <= length ls /\ state_at ls j' = Some sj) as (j' & Hj' & Hs').
  { destruct (decide (j <= length ls)); [by exists j|]. exists (length ls). split; [lia|]. unfold state_at in *. rewrite firstn_all. by rewrite take_ge in Hs by lia. }
  specialize (H j'). rewrite Hs' in H. rewrite forallb_forall in H. specialize (H ltac:(apply in_seq; lia) (o, SRun op p)). apply H.
  apply elem_of_list_In. by apply elem_of_map_to_list.
Qed.

(** The state a script leads to, and the events on the way. *)
Definition fin (cs : list cmd) : @state CN := match run init (schedule cs) with Some (s, _) => s | None => init end.
Definition evs (cs : list cmd) : list (@event CN) := match run init (schedule cs) with Some (_, ev) => ev | None => [] end.
Lemma exec_of_any cs : match run init (schedule cs) with Some _ => true | None => false end = true -> exec (schedule cs) (fin cs) (evs cs).
Proof. unfold exec, fin, evs. by destruct (run init (schedule cs)) as [[s ev]|]. Qed.
Lemma exec_of cs : match run init (schedule cs) with Some _ => true | None => false end && forallb lb_wfb (schedule cs) = true ->
  exec (schedule cs) (fin cs) (evs cs) /\ wf_calls (schedule cs).
Proof.
  intros [H1 H2]%andb_true_iff. split; [|by apply wf_check]. unfold exec, fin, evs. by destruct (run init (schedule cs)) as [[s ev]|].
Qed.
Lemma elem_of_nth {A} (n : nat) (l : list A) (x : A) : l !! n = Some x -> x ∈ l.
Proof. apply elem_of_list_lookup_2. Qed.
