(** * PrintShape (src/raw/debug.rs:65-115) on weakly ordered memory, next to other calls and the collector.  Definitions only.

    The machine is that of WeakFree.v; the printing is that of Print.v.  The printing thread holds a guard (94), which is represented by a call [o] of the machine that has started,
    but takes no steps of its own: in their place come the loads of the printing ([FPPrint]).  What [o] has seen (its views, Weak.v, and the newest values it knows of, WeakCoh.v)
    counts for these loads. *)
From Verif Require Import Model Spec LinSpec Weak WeakCoh WeakFree Print PrintSpec.

Section wprint.
Context {C : Config} (w : orders) (po : ordering).   (* [po]: the ordering of the load, debug.rs:69 *)

(** The cell that is loaded next. *)
Definition fp_cell (st : pstat) : option cell :=
  match st with
  | PStart => Some CRoot
  | PLoop ((v, i) :: _) _ => (fun l => CSlot l i) <$> sh_loc v
  | _ => None
  end.
Definition fp_going (st : pstat) : bool := match st with PStart | PLoop _ _ => true | _ => false end.

(** The load (69) gets the [n]-th value of the cell: not an older one than those known to the thread (WeakCoh.v, WeakFree.v).  Then everything up to the next load; what the thread does not
    see (Weak.v, [hide]), or what is freed, is undefined behaviour.  When the printing is over, [o] has returned. *)
Definition fprint (s : fstate) (o : opid) (st : pstat) (n : nat) : option (fstate * pstat) :=
  let x := c_w (f_c s) in
  match w_ops x !! o with
  | Some (WOp _ tv pv) =>
    if negb (f_alive s o && fp_going st) then None else
    match fp_cell st with
    | None => Some (s, PFail FUB)
    | Some c =>
      if negb (base_seen tv pv c) then Some (s, PFail FUB) else
      match w_hist x c with
      | [] => Some (s, PFail FUB)
      | h =>
        match h !! n with
        | None => None
        | Some (v, W) =>
          if (n <? f_floor s (f_sync s o) c) || (n <? c_fl (f_c s) o c) then None else
          let tv := tv_read po tv W in
          let pv := pv_read po pv c v W in
          let st' := print_step (hide tv pv (write_cell (w_mem x) c v)) st in
          let stat := match st' with PDone _ => SRet OIter (RIter []) | _ => SRun OIter INew end in
          Some (FState (CState (WState (w_mem x) (w_hist x) (<[o := WOp stat tv pv]> (w_ops x)))
                               (fun o' c' => if decide (o' = o) then if same_cell c c' then n else c_fl (f_c s) o' c' else c_fl (f_c s) o' c'))
                       (f_regs s) (f_sync s) (f_done s) (f_gone s) (f_dropped s) (f_ub s), st')
        end
      end
    end
  | None => None
  end.

Inductive fplabel := FPSys (lb : flabel) | FPPrint (n : nat).

(** The guard of the printing thread can be dropped: when the printing is over ([FUnpin]), or because the formatter reports an error or panics ([FAbort]). *)
Definition fpstep (o : opid) (x : fstate * pstat) (pl : fplabel) : option (fstate * pstat * list event) :=
  match pl with
  | FPSys lb => if match lb with FStep o' _ _ _ => bool_decide (o' = o) | _ => false end then None
                else match fstep w x.1 lb with Some (s', e) => Some (s', x.2, e) | None => None end
  | FPPrint n => match fprint x.1 o x.2 n with Some (s', st') => Some (s', st', []) | None => None end
  end.
Fixpoint fprun (o : opid) (x : fstate * pstat) (pls : list fplabel) : option (fstate * pstat * list event) :=
  match pls with
  | [] => Some (x.1, x.2, [])
  | pl :: pls => match fpstep o x pl with
                 | Some (s1, st1, e1) => match fprun o (s1, st1) pls with Some (s2, st2, e2) => Some (s2, st2, e1 ++ e2) | None => None end
                 | None => None
                 end
  end.

(** What the others do; the number of loads the printing has done. *)
Definition fsys (pls : list fplabel) : list flabel := omap (fun pl => match pl with FPSys lb => Some lb | FPPrint _ => None end) pls.
Definition floads (pls : list fplabel) : nat := length (List.filter (fun pl => match pl with FPPrint _ => true | _ => false end) pls).

(** After [ls] a thread starts to print; it knows that the calls [ps] have returned, and its guard is synchronised with the registrations [ds] (WeakFree.v).  [pls]: the schedule from then
    on; it leads to state [s] of the map, and the printing to [st]; [ev]: everything the callers of the map saw. *)
Definition fprinting (ls : list flabel) (o : opid) (ps : list opid) (ds : list nat) (pls : list fplabel) (s : fstate) (st : pstat) (ev : list event) : Prop :=
  exists s0 ev0 ev1, fexec w (ls ++ [FInv o OIter ps ds]) s0 ev0 /\ fprun o (s0, PStart) pls = Some (s, st, ev1) /\ ev = ev0 ++ ev1.
(** The calls and the printing, for [hb] (WeakCoh.v). *)
Definition fcalls (ls : list flabel) (o : opid) (ps : list opid) (ds : list nat) (pls : list fplabel) : list clabel := calls_of (ls ++ FInv o OIter ps ds :: fsys pls).
End wprint.
