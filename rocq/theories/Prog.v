(** * Infinite executions and decreasing measures. *)
From Verif Require Import Model Mem Inv Safe SafeStep SafeOps SafeSys SafeProps Spec ProgSpec.
From Coq Require Import Wellfounded.

(** A measure that never increases and decreases infinitely often does not exist. *)
Lemma no_descent {A} (R : A -> A -> Prop) (f : nat -> A) (P : nat -> Prop) :
  well_founded R -> (forall a b c, R a b -> R b c -> R a c) ->
  (forall n, f (S n) = f n \/ R (f (S n)) (f n)) -> (forall n, P n -> R (f (S n)) (f n)) -> ~ infinitely_often P.
Proof.
  intros Hwf Htr Hle Hlt Hinf.
  assert (forall n n', n <= n' -> f n' = f n \/ R (f n') (f n)) as Hmono.
  { intros n n' H. induction H as [|n' H IH]; [by left|]. destruct (Hle n') as [E|E]; [rewrite E; done|].
    right. destruct IH as [<-|IH]; [done|by eapply Htr]. }
  assert (forall a n, f n = a -> False) as Hno; [|by eapply (Hno _ 0)].
  intros a. induction (Hwf a) as [a _ IH]. intros n Hn. destruct (Hinf n) as (n' & Hn' & HP).
  apply (IH (f (S n'))) with (S n'); [|done]. specialize (Hlt n' HP). rewrite <-Hn. destruct (Hmono n n' Hn') as [<-|H]; [done|by eapply Htr].
Qed.

(** Lexicographic order on pairs. *)
Definition lexNn (x y : N * nat) : Prop := (x.1 < y.1)%N \/ x.1 = y.1 /\ x.2 < y.2.
Lemma lexNn_wf : well_founded lexNn.
Proof.
  assert (forall a b, Acc lexNn (a, b)) as H; [|by intros [a b]].
  intros a. induction a as [a IHa] using (well_founded_induction N.lt_wf_0). intros b. induction b as [b IHb] using lt_wf_ind.
  constructor. intros [a' b'] [H|[H1 H2]]; simpl in *; [by apply IHa|subst; by apply IHb].
Qed.
Lemma lexNn_trans a b c : lexNn a b -> lexNn b c -> lexNn a c.
Proof. unfold lexNn. intros [?|[? ?]] [?|[? ?]]; [left; lia|left; lia|left; lia|right; split; [congruence|lia]]. Qed.

Section prog.
Context {C : Config}.
Implicit Types (s : state) (ls : list label) (o : opid).

Lemma infinite_prefix sch st n : infinite_run sch st -> exists ev, exec (map sch (seq 0 n)) (st n) ev.
Proof.
  intros [H0 Hs]. induction n as [|n [ev IH]]; [exists []; unfold exec; simpl; by rewrite H0|].
  destruct (Hs n) as [e He]. exists (ev ++ e). rewrite seq_S, map_app. simpl. by eapply run_step.
Qed.
Lemma infinite_reach sch st n : infinite_run sch st -> reachable (st n).
Proof. intros H. destruct (infinite_prefix _ _ n H) as [ev Hx]. by eexists _, _. Qed.

Lemma steps_of_snoc ls lb o : steps_of (ls ++ [lb]) o = steps_of ls o + if is_step_of o lb then 1 else 0.
Proof. unfold steps_of. rewrite List.filter_app, app_length. simpl. by destruct (is_step_of o lb). Qed.
End prog.
