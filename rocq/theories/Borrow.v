(** * Lifetimes: how long references into a map can be kept.  Definitions only.

    The signatures of the public functions that hand out references (or iterators), with their lifetimes; a small language of programs that call them; the rule of rustc's borrow checker
    for such programs; and what has to be alive when a reference is used.
    Simplifications: variables are assigned once; no branches and loops (the borrow checker looks at the paths through the code); moving a variable is not distinguished from dropping it. *)
From Verif Require Import Model.

Definition var := positive.
Definition lifetime := nat.

(** The functions. *)
Inductive fn := FInsert | FGet | FGetOrInsertWith | FRemove | FIterNew | FNext.

(** A signature: the lifetimes of the references that are passed; that of the result; the [where] clauses ([(a, b)]: 'a: 'b, i.e. 'a outlives 'b).
    [sg_mut]: it takes [&mut self]. *)
Record sig := Sig { sg_args : list lifetime; sg_ret : lifetime; sg_where : list (lifetime * lifetime); sg_mut : bool }.
Definition sig_of (f : fn) : sig :=
  match f with                   (* 's = 0, 'p = 1, 'r = 2 *)
  | FInsert => Sig [0; 1] 2 [(0, 2); (1, 2)] false           (* raw/mod.rs:392-399 *)
  | FGet => Sig [0; 1] 2 [(0, 2); (1, 0)] false              (* raw/mod.rs:657-660 *)
  | FGetOrInsertWith => Sig [0; 1] 2 [(0, 2); (1, 2)] false  (* raw/mod.rs:687-695 *)
  | FRemove => Sig [0; 1] 2 [(0, 2); (1, 2)] false           (* raw/mod.rs:708-711 *)
  (* 'm = 0, 'a = 1 *)
  | FIterNew => Sig [0] 1 [(0, 1)] false                     (* raw/iterator.rs:66 *)
  (* the lifetime is elided: that of &mut self *)
  | FNext => Sig [0] 0 [] true                               (* raw/iterator.rs:83 *)
  end.

Inductive stmt :=
| SLet (x : var)                          (* let x = Raw::with_hasher(..), or crossbeam_epoch::pin() *)
| SCall (r : var) (f : fn) (xs : list var)  (* let r = f(&x1, &x2..) *)
| SUse (r : var)                          (* look at what r refers to *)
| SDrop (x : var).                        (* drop(x) *)
Definition defs (p : list stmt) : list var := omap (fun st => match st with SLet x => Some x | SCall r _ _ => Some r | _ => None end) p.
Definition mentions (st : stmt) (x : var) : Prop :=
  match st with SLet _ => False | SCall _ _ xs => x ∈ xs | SUse r => r = x | SDrop y => y = x end.

(** ** The borrow checker *)
(** The [i]-th argument stays borrowed as long as the result is in use: its lifetime must outlive that of the result. *)
Definition keeps_borrow (sg : sig) (i : nat) : Prop :=
  exists a, sg_args sg !! i = Some a /\ rtc (fun a b => (a, b) ∈ sg_where sg) a (sg_ret sg).
(** After [p], variable [r] holds a borrow of [x]. *)
Inductive borrows (p : list stmt) : var -> var -> Prop :=
| borrows_arg r f xs i x : SCall r f xs ∈ p -> xs !! i = Some x -> keeps_borrow (sig_of f) i -> borrows p r x
| borrows_trans r y x : borrows p r y -> borrows p y x -> borrows p r x.
Definition in_use (p : list stmt) (x : var) : Prop := exists st, st ∈ p /\ mentions st x.
Record accepted (p : list stmt) : Prop := {
  ac_once : NoDup (defs p);
  ac_arity : forall r f xs, SCall r f xs ∈ p -> length xs = length (sg_args (sig_of f));
  (* a variable is defined before it is mentioned *)
  ac_scope : forall p1 st p2 x, p = p1 ++ st :: p2 -> mentions st x -> x ∈ defs p1;
  (* what was dropped is not mentioned any more, and neither is what borrows from it *)
  ac_drop : forall p1 x p2, p = p1 ++ SDrop x :: p2 -> ~ in_use p2 x /\ forall r, borrows p1 r x -> ~ in_use p2 r;
  (* a mutable borrow ends what was borrowed before *)
  ac_mut : forall p1 r f x xs p2, p = p1 ++ SCall r f (x :: xs) :: p2 -> sg_mut (sig_of f) = true -> forall r', borrows p1 r' x -> ~ in_use p2 r';
}.

(** ** What has to be alive *)
(** [need r]: the variables that keep what [r] refers to from being freed.  (C10 and C47: the element a call returned is there as long as the guard is alive and the map is not dropped;
    an iterator has its own guard, and a map that must not be dropped.) *)
Record env := Env { e_dropped : list var; e_need : var -> list var }.
Definition needed (f : fn) (xs : list var) (need : var -> list var) : list var :=
  match f with
  | FInsert | FGet | FGetOrInsertWith | FRemove => xs      (* the map and the guard *)
  | FIterNew => xs                                         (* the map *)
  | FNext => xs ++ (xs ≫= need)                            (* the iterator, with its guard; and the map *)
  end.
(** Can [x] be used now?  It was not dropped, nor was anything that it needs. *)
Definition usable (e : env) (x : var) : bool := forallb (fun y => bool_decide (y ∉ e_dropped e)) (x :: e_need e x).
(** [None]: something was used that is not there any more. *)
Definition bstep (e : env) (st : stmt) : option env :=
  match st with
  | SLet x => Some (Env (e_dropped e) (fun y => if decide (y = x) then [] else e_need e y))
  | SCall r f xs => if forallb (usable e) xs then Some (Env (e_dropped e) (fun y => if decide (y = r) then needed f xs (e_need e) else e_need e y)) else None
  | SUse r => if usable e r then Some e else None
  | SDrop x => if usable e x then Some (Env (x :: e_dropped e) (e_need e)) else None
  end.
Fixpoint brun (e : env) (p : list stmt) : option env :=
  match p with [] => Some e | st :: p => match bstep e st with Some e' => brun e' p | None => None end end.
Definition env0 : env := Env [] (fun _ => []).
