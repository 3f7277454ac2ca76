(** * Guards of different collectors.  Definitions only.

    The methods of [Raw] take a [&Guard] (mod.rs:392-399, 657, 687-692, 708).  crossbeam-epoch lets a program make collectors of its own ([Collector::new]), besides the default one that
    [crossbeam_epoch::pin] and all the containers use; a guard belongs to a collector; what is deferred through a guard is put into its collector, which waits for its own guards only.
    Model.v assumes that all the guards are of one collector.  Here a call says which collector its guard is of. *)
From Verif Require Import Model.

Section collectors.
Context {C : Config}.
Definition collector := nat.
Inductive klabel :=
| KInv (o : opid) (op : oper) (c : collector)   (* a call starts, under a new guard of collector [c] *)
| KAct (lb : label).                            (* anything else, as in Model.v (not LInv) *)

(** [k_col o]: the collector the guard of call [o] is of.  [k_garb]: for each deferred destruction, the collector that has it. *)
Record kstate := KState { k_s : state; k_col : gmap opid collector; k_garb : list collector }.
Definition kinit : kstate := KState init ∅ [].

Definition kstep (s : kstate) (lb : klabel) : option (kstate * list event) :=
  match lb with
  | KInv o op c =>
      match step (k_s s) (LInv o op) with Some (s', ev) => Some (KState s' (<[o := c]> (k_col s)) (k_garb s), ev) | None => None end
  | KAct (LInv _ _) => None
  | KAct (LStep o spur a) =>
      match step (k_s s) (LStep o spur a), k_col s !! o with
      | Some (s', ev), Some c => Some (KState s' (k_col s) (replicate (length (m_garb (s_mem s')) - length (m_garb (s_mem (k_s s)))) c ++ k_garb s), ev)
      | _, _ => None
      end
  | KAct (LFree n) =>
      (* as in Model.v, but only the guards of this collector count *)
      match m_garb (s_mem (k_s s)) !! n, k_garb s !! n with
      | Some (l, k, gs), Some c =>
        if bool_decide (forall o, o ∈ gs ∩ guards (k_s s) -> k_col s !! o <> Some c) then
          let m := s_mem (k_s s) in
          Some (KState (State (Mem (m_root m) (m_heap m) (delete n (m_garb m)) ((l, k) :: m_freed m) (m_tmp m) (m_next m))
                              (s_ops (k_s s)) (s_dropped (k_s s)) (s_ub (k_s s) || freed m l)) (k_col s) (delete n (k_garb s)), [])
        else None
      | _, _ => None
      end
  | KAct lb => match step (k_s s) lb with Some (s', ev) => Some (KState s' (k_col s) (k_garb s), ev) | None => None end
  end.

Fixpoint krun (s : kstate) (ls : list klabel) : option (kstate * list event) :=
  match ls with
  | [] => Some (s, [])
  | lb :: ls =>
    match kstep s lb with
    | Some (s', ev) => match krun s' ls with Some (s'', ev') => Some (s'', ev ++ ev') | None => None end
    | None => None
    end
  end.
Definition kexec (ls : list klabel) (s : kstate) (ev : list event) : Prop := krun kinit ls = Some (s, ev).
(** The steps, without the collectors. *)
Definition plain (lb : klabel) : label := match lb with KInv o op _ => LInv o op | KAct lb => lb end.
End collectors.
