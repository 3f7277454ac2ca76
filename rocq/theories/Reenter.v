(** * Closures that take their time: the closure of get_or_insert_with may call the map itself, and what it returns may depend on what it finds there.
    Definitions only.

    In Model.v the closure of a call is a function that is known when the call starts, and its result is there at once.  Here a closure that has been called (mod.rs:296,
    from 583 or 631) is running until it returns ([DReturn]); meanwhile its call takes no steps, and all other calls can: those of other threads and those that the closure itself
    makes.  What it returns is not known before. *)
From Verif Require Import Model Spec LinSpec.

(** What has become of the closures that have been called: [None]: it is running; [Some p]: it has returned [p]. *)
Notation closures := (gmap opid (option Pl)).

Section reenter.
Context {C : Config}.

Definition dstate : Type := state * closures.

(** [DSys]: a transition of Model.v.  Of the closure in an [OGetOrInsert] only the type matters here: its result is a placeholder, which is never used unless the closure does not return.
    [DReturn]: the closure of call [o] returns [p].  (A closure that panics: [LAbort].) *)
Inductive dlabel := DSys (lb : label) | DReturn (o : opid) (p : Pl).

(** The result is put where the placeholder is: mod.rs:297-300, and the (last element of the) new data node, 584-586, 631-632. *)
Definition fill (p : Pl) (q : pc) : pc :=
  match q with
  | TCas t shift cur par node (BData it) kind => TCas (t_with t (TSCreated p)) shift cur par node (BData (removelast it ++ [p])) kind
  | _ => q
  end.

(** The closures that are called. *)
Definition note (e : list event) (c : closures) : closures := foldr (fun x c => match x with ECall o _ => <[o := None]> c | _ => c end) c e.

Definition waits (c : closures) (lb : label) : bool := match lb with LStep o _ _ => match c !! o with Some None => true | _ => false end | _ => false end.

Definition dstep (x : dstate) (lb : dlabel) : option (dstate * list event) :=
  match lb with
  | DSys lb => if waits x.2 lb then None else match step x.1 lb with Some (s', e) => Some ((s', note e x.2), e) | None => None end
  | DReturn o p =>
    match x.2 !! o, s_ops x.1 !! o with
    | Some None, Some (SRun op q) => Some ((set_op x.1 o (SRun op (fill p q)), <[o := Some p]> x.2), [])
    | _, _ => None
    end
  end.

Fixpoint drun (x : dstate) (ls : list dlabel) : option (dstate * list event) :=
  match ls with
  | [] => Some (x, [])
  | lb :: ls =>
    match dstep x lb with
    | Some (x', ev) => match drun x' ls with Some (x'', ev') => Some (x'', ev ++ ev') | None => None end
    | None => None
    end
  end.

Definition dexec (ls : list dlabel) (s : state) (c : closures) (ev : list event) : Prop := drun (init, ∅) ls = Some ((s, c), ev).

(** The calls are well-formed: what a closure returns has the key it was called with (C36 is about closures that do otherwise). *)
Definition sys (ls : list dlabel) : list label := omap (fun x => match x with DSys lb => Some lb | DReturn _ _ => None end) ls.
Definition wf_dcalls (ls : list dlabel) : Prop :=
  wf_calls (sys ls) /\ forall o p k f, DReturn o p ∈ ls -> LInv o (OGetOrInsert k f) ∈ sys ls -> keqb (keyof p) k = true.

(** The calls with hindsight: as if it had been known from the beginning what the closures would return. *)
Definition known_op (c : closures) (o : opid) (op : oper) : oper :=
  match op with OGetOrInsert k f => OGetOrInsert k (match c !! o with Some (Some p) => fun _ => p | _ => f end) | _ => op end.
Definition known (c : closures) (e : event) : event := match e with EInv o op => EInv o (known_op c o op) | _ => e end.
End reenter.
