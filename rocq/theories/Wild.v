(** * The machine with user code that may do anything
    Model.v takes [Eq], [Hash], [Borrow], [Clone] of the elements and the closure of [get_or_insert_with] to be functions:
    asked twice, they answer the same.  Rust lets safe user code break that (a random [Eq], a [Hash] that depends on a
    [Cell], a [Clone] that makes something else).  Here every answer of user code is whatever an [oracle] says, anew each
    time it is asked; a panic of user code is an abort of the call, as in Model.v.
    Everything that does not ask user code is Model.v's [op_step] and [step] unchanged. *)
From Verif Require Import Model.

Section wild.
Context {C : Config}.
Implicit Types (m : mem) (s : state) (o : opid).

(** The answers of user code during one step of an operation. *)
Record oracle := Oracle {
  w_differs : bool;            (* mod.rs:594: does the first element differ from the key? *)
  w_hash : N;                  (* 603: the hash of the element that is already there *)
  w_find : option nat;         (* 616-619, 674-676: the first element that compared equal, if one did *)
  w_keep : list (option Pl);   (* 623-628, 766-777: for each element, None if it compared equal to the key, otherwise what
                                  its [clone] returned *)
  w_made : option Pl;          (* 297: what the closure returned (None: what the closure given in the call returns) *)
  w_clone : Pl -> Pl           (* 295, 298: what [payload.clone()] returned *)
}.

(** [insert] compares the first element of a node with its key at 594 and, if they are equal, again at 625 (and 618).
    The answers agree: *)
Definition w_coherent (w : oracle) : Prop := w_differs w = false -> forall q, w_keep w !! 0 <> Some (Some q).

(** [TraverseState::payload], 290-302. *)
Definition wpayload (w : oracle) (t : tstate) : Pl * tstate * option Key :=
  match t with
  | TSCreated p => (p, TSCreated (w_clone w p), None)
  | TSFuture k f => let p := match w_made w with Some p => p | None => f k end in (p, TSCreated (w_clone w p), Some k)
  end.

(** The elements that are kept, cloned (an element the oracle says nothing about compared equal). *)
Definition wkept (w : oracle) (it : list Pl) : list Pl := omap id (take (length it) (w_keep w)).
(** The reference [find] returned. *)
Definition wfound (w : oracle) (l : loc) (it : list Pl) : option rref :=
  match w_find w with
  | Some i => match it !! i with Some p => Some (RRef l i p) | None => None end
  | None => None
  end.
(** [deleted] in [remove], 764-777: the last element that compared equal. *)
Fixpoint wdeleted (keep : list (option Pl)) (l : loc) (i : nat) (it : list Pl) (acc : option rref) : option rref :=
  match it with
  | [] => acc
  | p :: it => wdeleted (tail keep) l (S i) it (match keep with Some _ :: _ => acc | _ => Some (RRef l i p) end)
  end.

(** One step of an operation.  Compare with [op_step] in Model.v, case by case. *)
Definition wop_step (gs : gset opid) m (p : pc) (spur : bool) (a : N) (w : oracle) : sres :=
  match p with
  | TLoad t shift cur par =>
    match read_cell m cur with
    | Some node =>
      if sh_cond node then op_step gs m p spur a
      else if is_null node then                                                   (* 580-589 *)
        let '(q, st', call) := wpayload w (t_st t) in
        Some (m, NRun (TCas (t_with t st') shift cur par node (BData [q]) TKNew),
              match call with Some k => [ACall k] | None => [] end)
      else if sh_data node then                                                   (* 591-643 *)
        match load_data m node with
        | inl f => ok m (NFail f)
        | inr [] => panics m PEmptyData
        | inr it =>
          if w_differs w && (shift <? HASH_BITS) then
            if negb (length it =? 1) then panics m PCollisionShallow
            else ok m (NRun (TCas t shift cur par node (BInner (<[bits (w_hash w) shift := node]> empty_slots)) TKSplit))
          else
            let result := match sh_loc node with Some l => wfound w l it | None => None end in
            match result, t_mode t with
            | Some r, IfMissing => t_finish m t (Some (Existing r)) []
            | _, _ =>
              let '(q, st', call) := wpayload w (t_st t) in
              Some (m, NRun (TCas (t_with t st') shift cur par node (BData (wkept w it ++ [q])) (TKData result)),
                    match call with Some k => [ACall k] | None => [] end)
            end
        end
      else op_step gs m p spur a
    | None => op_step gs m p spur a
    end
  | GLoad k h cur =>                                                              (* 672-676 *)
    match read_cell m cur with
    | Some node =>
      if is_null node then op_step gs m p spur a
      else if sh_data node then
        match load_data m node with
        | inl f => ok m (NFail f)
        | inr it => ok m (NRet (ROpt (match sh_loc node with Some l => wfound w l it | None => None end)))
        end
      else op_step gs m p spur a
    | None => op_step gs m p spur a
    end
  | RLoad k h shift cur levels =>                                                 (* 760-788 *)
    match read_cell m cur with
    | Some node =>
      if is_null node then op_step gs m p spur a
      else if sh_cond node then op_step gs m p spur a
      else if sh_data node then
        match load_data m node with
        | inl f => ok m (NFail f)
        | inr it =>
          match sh_loc node with
          | Some l =>
            match wdeleted (w_keep w) l 0 it None with
            | Some del => ok m (NRun (RCas k h shift cur levels node (wkept w it) del))
            | None => ok m (NRet (ROpt None))
            end
          | None => ok m (NRet (ROpt None))
          end
        end
      else op_step gs m p spur a
    | None => op_step gs m p spur a
    end
  | _ => op_step gs m p spur a
  end.

(** The start of a call; [h] is the hash of its key (401-406, 525-528, 664-665, 715-718). *)
Definition wop_init (op : oper) (h : N) : pc :=
  match op with
  | OInsert p => TLoad (TLoc (TSCreated p) Overwrite h) 0 CRoot None
  | OGetOrInsert k f => TLoad (TLoc (TSFuture k f) IfMissing h) 0 CRoot None
  | OGet k => GLoad k h CRoot
  | ORemove k => RLoad k h 0 CRoot []
  | OIsEmpty => ELoad
  | OIter => INew
  end.

Inductive wlabel :=
| WInv (o : opid) (op : oper) (h : N)
| WStep (o : opid) (spur : bool) (a : N) (w : oracle)
| WUnwind (o : opid)      (* a panic of the crate ends its call: the stack is unwound and the guard dropped *)
| WUnpin (o : opid)
| WAbort (o : opid)
| WFree (n : nat)
| WDrop.

Definition wstep s (lb : wlabel) : option (state * list event) :=
  match lb with
  | WInv o op h =>
    match s_ops s !! o, s_dropped s with
    | None, false => Some (set_op s o (SRun op (wop_init op h)), [EInv o op])
    | _, _ => None
    end
  | WStep o spur a w =>
    match s_ops s !! o with
    | Some (SRun op p) =>
      match wop_step (guards s) (s_mem s) p spur a w with
      | Some (m, nx, acts) =>
        let st := match nx with NRun p' => SRun op p' | NRet r => SRet op r | NFail f => SFail op f end in
        Some (State m (<[o := st]> (s_ops s)) (s_dropped s) (s_ub s),
              map (act_event o) acts ++ match nx with NRet r => [ERet o r] | _ => [] end)
      | None => None
      end
    | _ => None
    end
  | WUnwind o => match s_ops s !! o with Some (SFail _ (FPanic _)) => Some (set_op s o SGone, []) | _ => None end
  | WUnpin o => step s (LUnpin o)
  | WAbort o => step s (LAbort o)
  | WFree n => step s (LFree n)
  | WDrop => step s LDrop
  end.

Fixpoint wrun s (ls : list wlabel) : option (state * list event) :=
  match ls with
  | [] => Some (s, [])
  | lb :: ls =>
    match wstep s lb with
    | Some (s', ev) => match wrun s' ls with Some (s'', ev') => Some (s'', ev ++ ev') | None => None end
    | None => None
    end
  end.

(** The executions of maps whose user code may do anything. *)
Definition wexec (ls : list wlabel) s (ev : list event) : Prop := wrun init ls = Some (s, ev).
Definition wreachable s : Prop := exists ls ev, wexec ls s ev.
End wild.
