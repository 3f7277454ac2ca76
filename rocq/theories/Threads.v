(** * Threads: who runs what.  Definitions only.

    Model.v says what the calls do; here every step is done by a thread.  A map belongs to a thread; it can be moved to another one only if its type is Send, and only while it is not borrowed
    (no call on it is running, and no reference into it is in use); a thread that does not own it can call it only if its type is Sync.
    A call runs in the thread that made it, and its guard is dropped there (a Guard is not Send).
    The map is dropped in the thread that owns it.
    A deferred destruction is run by any thread: crossbeam-epoch puts what was deferred into a global queue, and any thread that pins an epoch may take
    it from there.  (The documentation of [Guard::defer_destroy] says "keep in mind that another thread may execute the destructor, so the object must be sendable to other threads".) *)
From Verif Require Import Model.

Section threads.
Context {C : Config}.

Definition thread := nat.
Inductive tlabel :=
| TAct (t : thread) (lb : label)    (* thread [t] does this *)
| TMove (t : thread).               (* the map is moved to thread [t] *)

(** [th_by o]: the thread that made call [o].  [th_made]: the data nodes that were made, and by which thread (it made or cloned their elements).
    [th_destroyed]: the data nodes whose elements were destroyed, and by which thread. *)
Record tstate := ThState { th_s : state; th_owner : thread; th_by : gmap opid thread; th_made : list (loc * thread); th_destroyed : list (loc * thread) }.
Definition tinit (t : thread) : tstate := ThState init t ∅ [] [].

(** The data node a step has allocated. *)
Definition new_data (m m' : mem) : list loc :=
  if bool_decide (m_next m = m_next m') then []
  else match m_heap m' !! m_next m with Some (HObj _ (BData _)) => [m_next m] | _ => [] end.
(** The data nodes whose elements a step has destroyed ([KInner]: only the memory is freed). *)
Definition new_destroyed (m m' : mem) : list loc :=
  omap (fun x : loc * dkind => match x.2 with KData => Some x.1 | KInner => None end) (take (length (m_freed m') - length (m_freed m)) (m_freed m')).

(** May thread [t] do this? *)
Definition may (is_sync : bool) (s : tstate) (t : thread) (lb : label) : bool :=
  match lb with
  | LInv _ _ => is_sync || (t =? th_owner s)
  | LStep o _ _ | LUnpin o | LAbort o => bool_decide (th_by s !! o = Some t)
  | LFree _ => true
  | LDrop => t =? th_owner s
  end.

Definition tstep (is_send is_sync : bool) (s : tstate) (lb : tlabel) : option (tstate * list event) :=
  match lb with
  | TMove t => if is_send && bool_decide (guards (th_s s) = ∅) then Some (ThState (th_s s) t (th_by s) (th_made s) (th_destroyed s), []) else None
  | TAct t lb =>
      if may is_sync s t lb then
        match step (th_s s) lb with
        | Some (s', ev) =>
            Some (ThState s' (th_owner s) (match lb with LInv o _ => <[o := t]> (th_by s) | _ => th_by s end)
                    (((fun l => (l, t)) <$> new_data (s_mem (th_s s)) (s_mem s')) ++ th_made s)
                    (((fun l => (l, t)) <$> new_destroyed (s_mem (th_s s)) (s_mem s')) ++ th_destroyed s), ev)
        | None => None
        end
      else None
  end.

Fixpoint trun (is_send is_sync : bool) (s : tstate) (ls : list tlabel) : option (tstate * list event) :=
  match ls with
  | [] => Some (s, [])
  | lb :: ls =>
    match tstep is_send is_sync s lb with
    | Some (s', ev) => match trun is_send is_sync s' ls with Some (s'', ev') => Some (s'', ev ++ ev') | None => None end
    | None => None
    end
  end.

(** The map is made by thread [t]; then [ls] happens. *)
Definition texec (is_send is_sync : bool) (t : thread) (ls : list tlabel) (s : tstate) (ev : list event) : Prop := trun is_send is_sync (tinit t) ls = Some (s, ev).
End threads.
