(** * Vocabulary for the progress properties.  Definitions only. *)
From Verif Require Import Model Spec.

Section progspec.
Context {C : Config}.
Implicit Types (s : state) (ls : list label) (o : opid).

(** The number of steps call [o] takes in a schedule. *)
Definition is_step_of o (lb : label) : bool := match lb with LStep o' _ _ => bool_decide (o' = o) | _ => false end.
Definition steps_of ls o : nat := length (List.filter (is_step_of o) ls).

(** An infinite execution from the empty map: transition number [n] is labelled [sch n] and goes from [st n] to [st (S n)]. *)
Definition infinite_run (sch : nat -> label) (st : nat -> state) : Prop :=
  st 0 = init /\ forall n, exists e, step (st n) (sch n) = Some (st (S n), e).

Definition infinitely_often (P : nat -> Prop) : Prop := forall n, exists n', n <= n' /\ P n'.

(** ** Modifying calls: insert, get_or_insert_with, remove *)
Definition modifying (st : ostat) : bool := match st with SRun op _ => negb (is_reader op) | _ => false end.
(** How many of them are in progress. *)
Definition mod_running s : nat := length (List.filter (fun x => modifying x.2) (map_to_list (s_ops s))).
(** The transition is a step of one of them. *)
Definition mod_step s (lb : label) : bool :=
  match lb with LStep o _ _ => match s_ops s !! o with Some st => modifying st | None => false end | _ => false end.
(** How many steps modifying calls take when the schedule [ls] is run from [s]. *)
Fixpoint mod_steps s ls : nat :=
  match ls with
  | [] => 0
  | lb :: ls => (if mod_step s lb then 1 else 0) + match step s lb with Some (s', _) => mod_steps s' ls | None => 0 end
  end.
(** Steps in which a weak compare-and-set fails although it could have succeeded. *)
Definition spurious (lb : label) : bool := match lb with LStep _ spur _ => spur | _ => false end.
Definition spurious_steps ls : nat := length (List.filter spurious ls).
(** No modifying call starts. *)
Definition no_new ls : Prop := forall o op, LInv o op ∈ ls -> is_reader op = true.
(** The transition ends a modifying call: the call returns, or it is abandoned because the code of the user panicked. *)
Definition mod_ends s (lb : label) (e : list event) : Prop :=
  exists o op, in_progress s o op /\ is_reader op = false /\ ((exists r, ERet o r ∈ e) \/ lb = LAbort o).
(** Only call [o] takes steps. *)
Definition alone (o : opid) ls : Prop := forall lb, lb ∈ ls -> exists spur a, lb = LStep o spur a.
End progspec.
