(** * Printing on weakly ordered memory is simulated by iterating. *)
From Verif Require Import Model Mem Spec LinSpec Iter IterSpec Weak WeakInv WeakStep WeakSys WeakCoh PropWeak WeakFree FreeStep PropFree WeakProg Print PrintSpec PrintSim WPrint.

Section wprintsim.
Context {C : Config} {HC : ConfigOk C}.
Implicit Types (s : fstate) (m : mem) (o : opid) (st : pstat) (ys : list rref) (p : pc) (v u : sh) (tv : view) (pv : gmap loc view) (x : wop).

(** The state with another entry for call [o]. *)
Definition wshd (s : wstate) o x : wstate := WState (w_mem s) (w_hist s) (<[o := x]> (w_ops s)).
Definition cshd (s : cstate) o x : cstate := CState (wshd (c_w s) o x) (c_fl s).
Definition fshd s o x : fstate := FState (cshd (f_c s) o x) (f_regs s) (f_sync s) (f_done s) (f_gone s) (f_dropped s) (f_ub s).
Definition isret (r : ostat) : bool := match r with SRet _ _ => true | _ => false end.

Lemma wshd_step w (s : wstate) o x o' n spur a (s' : wstate) e : o' <> o -> wstep w s (WStep o' n spur a) = Some (s', e) ->
  wstep w (wshd s o x) (WStep o' n spur a) = Some (wshd s' o x, e) /\ w_ops s' !! o = w_ops s !! o.
Proof.
  intros Hne Hst. cbn [wstep] in *. cbn [wshd w_ops w_mem w_hist]. rewrite lookup_insert_ne by done. unfold w_local, w_write in *. cbn [wshd w_ops w_mem w_hist].
  repeat case_match; simplify_eq; (split; [unfold wshd; simpl; by rewrite insert_commute|simpl; by rewrite lookup_insert_ne]).
Qed.
Lemma wshd_inv w (s : wstate) o x y o' op (s' : wstate) e : w_ops s !! o = Some y -> wstep w s (WInv o' op) = Some (s', e) ->
  wstep w (wshd s o x) (WInv o' op) = Some (wshd s' o x, e) /\ w_ops s' !! o = w_ops s !! o.
Proof.
  intros Ho Hst. cbn [wstep] in *. destruct (decide (o = o')) as [<-|Hne]; [by rewrite Ho in Hst|]. cbn [wshd w_ops w_mem w_hist]. rewrite lookup_insert_ne by done.
  destruct (w_ops s !! o'); [done|]. injection Hst as <- <-. simpl. rewrite lookup_insert_ne by done. split; [|done]. unfold wshd. simpl. by rewrite insert_commute.
Qed.
Lemma isret_shd (s : wstate) o r tv pv r' tv' pv' o' : w_ops s !! o = Some (WOp r tv pv) -> isret r = isret r' -> is_returned (wshd s o (WOp r' tv' pv')) o' = is_returned s o'.
Proof.
  intros Ho E. unfold is_returned. simpl. destruct (decide (o = o')) as [<-|Hne]; [|by rewrite lookup_insert_ne]. rewrite lookup_insert, Ho. destruct r, r'; done.
Qed.
Lemma forallb_same {A} (f g : A -> bool) l : (forall a, f a = g a) -> forallb f l = forallb g l.
Proof. intros H. induction l as [|a l IH]; [done|]. simpl. by rewrite H, IH. Qed.
Lemma next_shd w (s : wstate) o x o' : o' <> o -> next_cell w (wshd s o x) o' = next_cell w s o'.
Proof. intros Hne. unfold next_cell. simpl. by rewrite lookup_insert_ne. Qed.

Lemma cshd_step w (s : cstate) o r tv pv r' lb (s' : cstate) e : w_ops (c_w s) !! o = Some (WOp r tv pv) -> isret r = isret r' -> match lb with CStep o' _ _ _ => o' <> o | _ => True end ->
  cstep w s lb = Some (s', e) -> cstep w (cshd s o (WOp r' tv pv)) lb = Some (cshd s' o (WOp r' tv pv), e) /\ w_ops (c_w s') !! o = Some (WOp r tv pv).
Proof.
  intros Ho Er Hlb Hst. destruct lb as [o' op ps|o' n spur a]; cbn [cstep] in *; cbn [cshd c_w c_fl].
  - rewrite (forallb_same _ (is_returned (c_w s))) by (intros a; by eapply isret_shd). destruct (forallb _ ps); [|done].
    destruct (wstep w (c_w s) (WInv o' op)) as [[s1 e1]|] eqn:E; [|done]. injection Hst as <- <-.
    destruct (wshd_inv w _ o (WOp r' tv pv) _ _ _ _ _ Ho E) as [-> H]. split; [done|]. by rewrite <-Ho.
  - rewrite next_shd by done. destruct (wstep w (c_w s) (WStep o' n spur a)) as [[s1 e1]|] eqn:E; [|done].
    destruct (wshd_step w _ o (WOp r' tv pv) _ _ _ _ _ _ Hlb E) as [-> H]. rewrite Ho in H. destruct (next_cell w (c_w s) o') as [c|].
    + destruct (n <? c_fl s o' c); [done|]. by injection Hst as <- <-.
    + by injection Hst as <- <-.
Qed.

Lemma alive_shd s o x y o' : w_ops (c_w (f_c s)) !! o = Some y -> f_alive (fshd s o x) o' = f_alive s o'.
Proof.
  intros Ho. unfold f_alive. simpl. apply bool_decide_ext. destruct (decide (o = o')) as [<-|Hne]; [|by rewrite lookup_insert_ne]. rewrite lookup_insert, Ho. split; (intros [_ ?]; split; [by eexists|done]).
Qed.
Lemma all_alive_shd s o x y P : w_ops (c_w (f_c s)) !! o = Some y -> all_alive (fshd s o x) P = all_alive s P.
Proof.
  intros Ho. unfold all_alive. simpl. apply eq_true_iff_eq. rewrite !forallb_forall. split; intros X [o' z] Hin; apply elem_of_list_In, elem_of_map_to_list in Hin; simpl.
  - destruct (decide (o = o')) as [<-|Hne].
    + apply (X (o, x)). apply elem_of_list_In, elem_of_map_to_list. by rewrite lookup_insert.
    + apply (X (o', z)). apply elem_of_list_In, elem_of_map_to_list. by rewrite lookup_insert_ne.
  - destruct (decide (o = o')) as [<-|Hne].
    + apply (X (o, y)). by apply elem_of_list_In, elem_of_map_to_list.
    + apply (X (o', z)). apply elem_of_list_In, elem_of_map_to_list. by rewrite lookup_insert_ne in Hin.
Qed.

Lemma fshd_step w s o r tv pv r' lb s' e : w_ops (c_w (f_c s)) !! o = Some (WOp r tv pv) -> isret r = isret r' -> match lb with FStep o' _ _ _ => o' <> o | _ => True end ->
  fstep w s lb = Some (s', e) -> fstep w (fshd s o (WOp r' tv pv)) lb = Some (fshd s' o (WOp r' tv pv), e) /\ w_ops (c_w (f_c s')) !! o = Some (WOp r tv pv).
Proof.
  intros Ho Er Hlb Hst. pose proof (fun o' => alive_shd s o (WOp r' tv pv) _ o' Ho) as Ha. pose proof (fun P => all_alive_shd s o (WOp r' tv pv) _ P Ho) as Hal.
  pose proof (fun o' => isret_shd (c_w (f_c s)) o r tv pv r' tv pv o' Ho Er) as Hi.
  destruct lb as [o' op ps ds|o' n spur a|o'|o'|i|]; cbn [fstep] in *.
  - cbn [fshd f_dropped f_regs f_done f_c f_sync f_gone f_ub]. destruct (negb _ && _ && _); [|done]. destruct (cstep w (f_c s) (CInv o' op ps)) as [[c e1]|] eqn:E; [|done]. injection Hst as <- <-.
    destruct (cshd_step w _ o r tv pv r' (CInv o' op ps) _ _ Ho Er I E) as [-> H]. done.
  - rewrite Ha. change (f_floor (fshd s o (WOp r' tv pv)) (f_sync (fshd s o (WOp r' tv pv)) o')) with (f_floor s (f_sync s o')).
    change (c_w (f_c (fshd s o (WOp r' tv pv)))) with (wshd (c_w (f_c s)) o (WOp r' tv pv)). rewrite next_shd by done.
    destruct (f_alive s o' && _); [|done]. cbn [fshd f_dropped f_regs f_done f_c f_sync f_gone f_ub]. destruct (cstep w (f_c s) (CStep o' n spur a)) as [[c e1]|] eqn:E; [|done]. injection Hst as <- <-.
    destruct (cshd_step w _ o r tv pv r' (CStep o' n spur a) _ _ Ho Er Hlb E) as [-> H]. done.
  - rewrite Ha. change (c_w (f_c (fshd s o (WOp r' tv pv)))) with (wshd (c_w (f_c s)) o (WOp r' tv pv)). rewrite Hi. destruct (f_alive s o' && _); [|done]. by injection Hst as <- <-.
  - rewrite Ha. change (c_w (f_c (fshd s o (WOp r' tv pv)))) with (wshd (c_w (f_c s)) o (WOp r' tv pv)). rewrite Hi. destruct (f_alive s o' && _); [|done]. by injection Hst as <- <-.
  - rewrite Hal. cbn [fshd f_dropped f_regs f_done f_c f_sync f_gone f_ub]. destruct (f_regs s !! i) as [g|]; [|done].
    destruct (bool_decide (i ∉ f_done s) && _); [|done]. by injection Hst as <- <-.
  - rewrite Hal. cbn [fshd f_dropped f_regs f_done f_c f_sync f_gone f_ub]. destruct (negb (f_dropped s) && _); [|done].
    change (f_mem (FState (cshd (f_c s) o (WOp r' tv pv)) (f_regs s) (f_sync s) (f_done s) (f_gone s) (f_dropped s) (f_ub s))) with (f_mem s).
    destruct (drop_rec _ _ _) as [fs|]; by injection Hst as <- <-.
Qed.

(** *** Steps of the iteration that touch no cell *)
Definition lsteps o (n : nat) : list flabel := replicate n (FStep o 0 false 1%N).
Definition at_ s o tv pv p : fstate := fshd s o (WOp (SRun OIter p) tv pv).
Definition here s o : Prop := f_alive s o = true /\ is_Some (w_ops (c_w (f_c s)) !! o).

Lemma frun_cons w s lb ls : frun w s (lb :: ls) = match fstep w s lb with Some (s1, e1) => match frun w s1 ls with Some (s2, e2) => Some (s2, e1 ++ e2) | None => None end | None => None end.
Proof. done. Qed.

Lemma local_fstep w s o tv pv p nx acts m' : here s o -> access w p = None -> see_step tv pv (f_mem s) p false 1 = Some (m', nx, acts) ->
  fstep w (at_ s o tv pv p) (FStep o 0 false 1%N) = Some (fshd s o (WOp (nx_stat OIter nx) tv pv), nx_events o nx acts).
Proof.
  intros [Ha [y Hy]] Hac Hs. unfold at_. cbn [fstep]. rewrite (alive_shd _ _ _ y) by done. rewrite Ha.
  change (c_w (f_c (fshd s o (WOp (SRun OIter p) tv pv)))) with (wshd (c_w (f_c s)) o (WOp (SRun OIter p) tv pv)).
  assert (next_cell w (wshd (c_w (f_c s)) o (WOp (SRun OIter p) tv pv)) o = None) as En. { unfold next_cell. simpl. rewrite lookup_insert. by rewrite Hac. }
  rewrite En. cbn [andb cstep fshd f_c cshd c_w]. rewrite En. cbn [wstep wshd w_ops]. rewrite lookup_insert, Hac. unfold w_local. cbn [w_mem w_hist w_ops].
  cbn [fshd f_c cshd c_w wshd w_mem w_hist w_ops c_fl]. change (w_mem (c_w (f_c s))) with (f_mem s). rewrite Hs. cbn [c_w w_mem f_regs f_mem fshd c_fl f_c cshd wshd]. unfold new_regs. rewrite Nat.sub_diag. cbn [take fmap list_fmap]. rewrite app_nil_r, insert_insert. done.
Qed.

Definition its s o tv pv p n p' ys : Prop := forall w, frun w (at_ s o tv pv p) (lsteps o n) = Some (at_ s o tv pv p', EYield o <$> ys).
Lemma its_refl s o tv pv p : its s o tv pv p 0 p [].
Proof. done. Qed.
Lemma its_step s o tv pv p p1 y n p' ys m' : here s o -> (forall w, access w p = None) -> see_step tv pv (f_mem s) p false 1 = Some (m', NRun p1, AYield <$> y) ->
  its s o tv pv p1 n p' ys -> its s o tv pv p (S n) p' (y ++ ys).
Proof.
  intros Hh Hac H Hr w. change (lsteps o (S n)) with (FStep o 0 false 1%N :: lsteps o n). rewrite frun_cons, (local_fstep w _ _ _ _ _ _ _ _ Hh (Hac w) H).
  cbn [nx_stat]. change (fshd s o (WOp (SRun OIter p1) tv pv)) with (at_ s o tv pv p1). rewrite (Hr w). f_equal. f_equal. unfold nx_events. rewrite app_nil_r, fmap_app. f_equal.
  clear. induction y as [|r y IH]; [done|]. cbn. f_equal. exact IH.
Qed.
Lemma its_trans s o tv pv p n p1 n1 p2 ys ys1 : its s o tv pv p n p1 ys -> its s o tv pv p1 n1 p2 ys1 -> its s o tv pv p (n + n1) p2 (ys ++ ys1).
Proof. intros H1 H2 w. unfold lsteps. rewrite replicate_add, fmap_app. eapply frun_app; [apply H1|apply H2]. Qed.

Lemma its_leave s o tv pv fr : here s o -> forall out ys, (forall v i, (v, i) ∈ fr -> sh_data v = false /\ is_null v = false) ->
  exists n, its s o tv pv (INext fr ys) n (ipc (leave fr out) ys) [].
Proof.
  intros Hh. induction fr as [|[v i] fr IH]; intros out ys Hfr; simpl.
  - exists 0. apply its_refl.
  - destruct (i <? LEVEL_CELLS) eqn:Ei; [exists 0; apply its_refl|].
    destruct (IH (out ++ [TClose]) ys) as [n Hn]; [intros v' i' H; apply (Hfr v' i'); by right|]. exists (S n).
    destruct (Hfr v i) as [Hd Hnl]; [by left|]. eapply (its_step _ _ _ _ _ _ []); [done| | |exact Hn].
    + intros w. cbn [access]. rewrite Hnl, Hd. apply Nat.ltb_ge in Ei. apply Nat.leb_le in Ei. by rewrite Ei.
    + unfold see_step. cbn [op_step]. rewrite Hd, Hnl, Ei. done.
Qed.

(** What is seen of data nodes. *)
Lemma load_hide tv pv m v it : load_data (hide tv pv m) v = inr it -> load_data m v = inr it.
Proof.
  unfold load_data. destruct (sh_data v); [|done]. simpl. destruct (sh_loc v) as [l|]; [|done]. unfold deref. change (freed (hide tv pv m) l) with (freed m l). destruct (freed m l); [done|].
  rewrite hide_heap. destruct (m_heap m !! l) as [[a b]|]; [|done]. cbn [fmap option_fmap option_map]. destruct (decide (sees tv pv l)); cbn [ho_body]; [by intros ->|done].
Qed.
Lemma load_write tv pv m c u v : load_data (hide tv pv (write_cell m c u)) v = load_data (hide tv pv m) v.
Proof.
  destruct c as [|l i]; [done|]. unfold load_data. destruct (sh_data v); [|done]. cbn [negb]. destruct (sh_loc v) as [l'|]; [|done]. unfold deref.
  unfold freed. cbn [hide write_cell m_freed]. destruct (bool_decide _); [done|].
  rewrite !hide_heap. cbn [write_cell m_heap]. destruct (decide (l = l')) as [<-|Hne]; [|by rewrite lookup_alter_ne].
  rewrite lookup_alter. destruct (m_heap m !! l) as [[a [sl|it]]|]; [| |done]; simpl; destruct (decide (sees tv pv l)); done.
Qed.

Lemma its_data s o tv pv v l it rest : here s o -> is_null v = false -> sh_data v = true -> sh_loc v = Some l -> load_data (hide tv pv (f_mem s)) v = inr it ->
  forall n i ys, n = length it - i -> its s o tv pv (INext ((v, i) :: rest) ys) (S n) (INext rest (ys ++ (zip_with (RRef l) (seq i n) (drop i it)))) (zip_with (RRef l) (seq i n) (drop i it)).
Proof.
  intros Hh Hn Hd Hl Hld. pose proof (load_hide _ _ _ _ _ Hld) as Hld'. assert (forall i ys w, access w (INext ((v, i) :: rest) ys) = None) as Hac by (intros i ys w; cbn [access]; by rewrite Hd, orb_true_r).
  induction n as [|n IH]; intros i ys Hi.
  - simpl. rewrite app_nil_r. eapply (its_step _ _ _ _ _ _ []); [done|apply Hac| |apply its_refl]. unfold see_step. cbn [op_step].
    rewrite Hn, Hd, Hld, Hld', Hl. by rewrite lookup_ge_None_2 by lia.
  - destruct (it !! i) as [x|] eqn:Ex; [|apply lookup_ge_None in Ex; lia].
    rewrite (drop_S _ _ _ Ex). simpl. change (RRef l i x :: zip_with (RRef l) (seq (S i) n) (drop (S i) it)) with ([RRef l i x] ++ zip_with (RRef l) (seq (S i) n) (drop (S i) it)).
    rewrite app_assoc. eapply its_step; [done|apply Hac| |apply IH; lia]. unfold see_step. cbn [op_step]. by rewrite Hn, Hd, Hld, Hld', Hl, Ex.
Qed.

(** What [print_ptr] does, the iteration does, or it fails. *)
Lemma print_ptr_sim s o tv pv c u v fr out ys : here s o -> (forall v i, (v, i) ∈ fr -> sh_data v = false /\ is_null v = false) ->
  let st' := print_ptr (hide tv pv (write_cell (f_mem s) c u)) v fr out in
  (exists n y, its s o tv pv (INext ((v, 0) :: fr) ys) n (ipc st' (ys ++ y)) y /\ elements (written st') = elements out ++ (rr_val <$> y) /\ wfp st' /\ length y <= n) \/
  ((forall w, access w (INext ((v, 0) :: fr) ys) = None) /\ exists m' f, see_step tv pv (f_mem s) (INext ((v, 0) :: fr) ys) false 1 = Some (m', NFail f, [])).
Proof.
  intros Hh Hfr. cbn zeta. unfold print_ptr. rewrite load_write. destruct (is_null v) eqn:En; [|destruct (sh_data v) eqn:Ed].
  - left. set (out1 := out ++ _). destruct (its_leave s o tv pv fr Hh out1 ys Hfr) as [n Hn]. exists (S n), []. rewrite app_nil_r. split.
    + eapply (its_step _ _ _ _ _ _ []); [done|intros w; cbn [access]; by rewrite En| |exact Hn]. unfold see_step. cbn [op_step]. by rewrite En.
    + split; [|split; [by apply leave_wfp|simpl; lia]]. destruct (leave_written fr out1) as [-> _]. subst out1. rewrite elements_app. done.
  - destruct (load_data (hide tv pv (f_mem s)) v) as [f|it] eqn:El.
    { right. split; [intros w; cbn [access]; by rewrite Ed, orb_true_r|]. unfold see_step. cbn [op_step]. rewrite En, Ed, El. unfold load_data in El. rewrite Ed in El. simpl in El. unfold is_null in En.
      destruct (sh_loc v); [|done]. assert (f = FUB) as -> by (destruct (deref _ _) as [[]|]; by simplify_eq). by eexists _, _. }
    left. assert (exists l, sh_loc v = Some l) as [l Hl]. { unfold is_null in En. destruct (sh_loc v); [eauto|done]. }
    set (out1 := (out ++ _) ++ _). set (y := zip_with (RRef l) (seq 0 (length it)) it).
    destruct (its_leave s o tv pv fr Hh out1 (ys ++ y) Hfr) as [n Hn]. exists (S (length it) + n), y. split.
    + pose proof (its_data s o tv pv v l it fr Hh En Ed Hl El (length it) 0 ys ltac:(lia)) as H1. rewrite drop_0 in H1.
      pose proof (its_trans _ _ _ _ _ _ _ _ _ _ _ H1 Hn) as H2. by rewrite app_nil_r in H2.
    + split; [|split; [by apply leave_wfp|subst y; rewrite zip_with_length, seq_length; lia]]. destruct (leave_written fr out1) as [-> _]. subst out1 y. rewrite !elements_app. rewrite <-app_assoc. f_equal. unfold elements at 1 2. simpl. rewrite app_nil_r.
      clear. generalize 0. induction it as [|x it IH]; intros n; [done|]. simpl. f_equal. apply IH.
  - left. exists 0, []. rewrite app_nil_r. split; [apply its_refl|]. split; [cbn [written]; rewrite !elements_app, <-app_assoc; done|]. split; [|simpl; lia]. split; [|unfold LEVEL_CELLS; simpl; lia].
    intros v' i [[= -> ->]|Hx]%elem_of_cons; [done|by eapply Hfr].
Qed.

(** *** The load *)
Definition upd s o (c : cell) (n : nat) : fstate :=
  FState (CState (c_w (f_c s)) (fun o' c' => if decide (o' = o) then if same_cell c c' then n else c_fl (f_c s) o' c' else c_fl (f_c s) o' c'))
         (f_regs s) (f_sync s) (f_done s) (f_gone s) (f_dropped s) (f_ub s).
Lemma fshd_fshd s o x y : fshd (fshd s o x) o y = fshd s o y.
Proof. unfold fshd, cshd, wshd. simpl. by rewrite insert_insert. Qed.

Lemma load_fstep s o tv pv p c n v W nx acts m' : here s o -> access code_orders p = Some (c, ALoad, Acquire) -> base_seen tv pv c = true -> w_hist (c_w (f_c s)) c !! n = Some (v, W) ->
  (n <? f_floor s (f_sync s o) c) || (n <? c_fl (f_c s) o c) = false ->
  see_step (tv_read Acquire tv W) (pv_read Acquire pv c v W) (write_cell (f_mem s) c v) p false 1 = Some (m', nx, acts) ->
  fstep code_orders (at_ s o tv pv p) (FStep o n false 1%N) = Some (fshd (upd s o c n) o (WOp (nx_stat OIter nx) (tv_read Acquire tv W) (pv_read Acquire pv c v W)), nx_events o nx acts).
Proof.
  intros [Ha [y Hy]] Hac Hb Hh Hn Hs. apply orb_false_iff in Hn as [Hn1 Hn2]. unfold at_. cbn [fstep]. rewrite (alive_shd _ _ _ y) by done. rewrite Ha.
  change (c_w (f_c (fshd s o (WOp (SRun OIter p) tv pv)))) with (wshd (c_w (f_c s)) o (WOp (SRun OIter p) tv pv)).
  assert (next_cell code_orders (wshd (c_w (f_c s)) o (WOp (SRun OIter p) tv pv)) o = Some c) as En. { unfold next_cell. simpl. rewrite lookup_insert. by rewrite Hac. }
  rewrite En. change (f_floor (fshd s o (WOp (SRun OIter p) tv pv)) (f_sync (fshd s o (WOp (SRun OIter p) tv pv)) o) c) with (f_floor s (f_sync s o) c).
  assert (f_floor s (f_sync s o) c <=? n = true) as -> by (apply Nat.leb_le; by apply Nat.ltb_ge in Hn1).
  cbn [andb cstep fshd f_c cshd c_w c_fl]. rewrite En, Hn2. cbn [wstep wshd w_ops w_hist]. rewrite lookup_insert, Hac, Hb. cbn [negb].
  destruct (w_hist (c_w (f_c s)) c) as [|x0 h] eqn:Eh; [done|]. rewrite Hh. unfold w_local. cbn [fshd f_c cshd c_w wshd w_mem w_hist w_ops c_fl]. change (w_mem (c_w (f_c s))) with (f_mem s). rewrite Hs.
  cbn [c_w w_mem f_regs f_mem fshd c_fl f_c cshd wshd w_hist w_ops]. rewrite Eh, Nat.ltb_irrefl. unfold new_regs. rewrite Nat.sub_diag. cbn [take fmap list_fmap]. rewrite app_nil_r, insert_insert. done.
Qed.

(** Status of the call that iterates, and of the one that stands for the printing. *)
Definition sst st ys : ostat := match st with PDone _ => SRet OIter (RIter ys) | _ => SRun OIter (ipc st ys) end.
Definition rst st : ostat := match st with PDone _ => SRet OIter (RIter []) | _ => SRun OIter INew end.
Definition ends o st ys : list event := match st with PDone _ => [ERet o (RIter ys)] | _ => [] end.

(** The end of the iteration, if the printing is over. *)
Lemma its_ends s o tv pv p n st ys y : here s o -> its s o tv pv p n (ipc st ys) y -> wfp st -> st <> PStart ->
  exists k, n <= k /\ frun code_orders (at_ s o tv pv p) (lsteps o k) = Some (fshd s o (WOp (sst st ys) tv pv), (EYield o <$> y) ++ ends o st ys).
Proof.
  intros Hh Hi [_ Hw] Hne. destruct st as [|fr out|out|f]; try done.
  - exists n. split; [lia|]. rewrite (Hi _). cbn [ends]. by rewrite app_nil_r.
  - exists (n + 1). split; [lia|]. unfold lsteps. rewrite replicate_add. eapply frun_app; [apply Hi|]. cbn [replicate ipc]. rewrite frun_cons.
    rewrite (local_fstep code_orders s o tv pv (INext [] ys) (NRet (RIter ys)) [] (f_mem s)) by done. done.
Qed.

Lemma fprint_sim ls ev s o st ys r tv pv n s' st' : fexec code_orders ls (at_ s o tv pv (ipc st ys)) ev -> wf_fcalls ls -> w_ops (c_w (f_c s)) !! o = Some (WOp r tv pv) ->
  wfp st -> (st <> PStart \/ ys = []) -> fprint Acquire s o st n = Some (s', st') ->
  exists k y tv' pv', frun code_orders (at_ s o tv pv (ipc st ys)) (FStep o n false 1%N :: lsteps o k) = Some (fshd s' o (WOp (sst st' (ys ++ y)) tv' pv'), (EYield o <$> y) ++ ends o st' (ys ++ y)) /\
    w_ops (c_w (f_c s')) !! o = Some (WOp (rst st') tv' pv') /\ elements (written st') = elements (written st) ++ (rr_val <$> y) /\ wfp st' /\ length y <= k /\ st' <> PStart.
Proof.
  intros Hx Hwf Ho Hw Hy Hp. unfold fprint in Hp. cbn zeta in Hp. rewrite Ho in Hp. destruct (f_alive s o) eqn:Ha; [|done]. assert (here s o) as Hh by (split; [done|by eexists]).
  destruct (fp_going st) eqn:Eg; [|done]. cbn [andb negb] in Hp.
  (* the cell *)
  assert (exists c, fp_cell st = Some c /\ access code_orders (ipc st ys) = Some (c, ALoad, Acquire)) as (c & Ec & Hac).
  { destruct st as [|[|[v i] rest] out|out|f]; try done; [by exists CRoot|by destruct Hw as [_ ?]|]. destruct Hw as [Hfr Hi]. destruct (Hfr v i) as [Hd Hn]; [by left|]. unfold is_null in Hn.
    cbn [fp_cell ipc access]. destruct (sh_loc v) as [l|] eqn:El; [|done]. exists (CSlot l i). split; [done|]. unfold is_null. rewrite El, Hd. apply Nat.leb_gt in Hi. rewrite Hi. done. }
  rewrite Ec in Hp.
  assert (forall f s1 e lbs, (forall o' op ps ds, FInv o' op ps ds ∉ lbs) -> frun code_orders (at_ s o tv pv (ipc st ys)) lbs = Some (s1, e) -> (exists tv' pv', w_ops (c_w (f_c s1)) !! o = Some (WOp (SFail OIter f) tv' pv')) -> False) as Hfail.
  { intros f s1 e lbs Hni Hr (tv' & pv' & Ho'). assert (fexec code_orders (ls ++ lbs) s1 (ev ++ e)) as Hx' by (eapply frun_app; [exact Hx|exact Hr]).
    destruct (C46_no_use_after_free (ls ++ lbs) s1 (ev ++ e)) as [H _]; [|exact Hx'|by eapply H]. intros o' op ps ds [Hin|Hin]%elem_of_app; [by eapply Hwf|by apply Hni in Hin]. }
  assert (base_seen tv pv c = false \/ w_hist (c_w (f_c s)) c = [] -> False) as Hnofault.
  { intros Hcase. assert (exists s1 e, frun code_orders (at_ s o tv pv (ipc st ys)) [FStep o (max (f_floor s (f_sync s o) c) (c_fl (f_c s) o c)) false 1%N] = Some (s1, e) /\
      exists tv' pv', w_ops (c_w (f_c s1)) !! o = Some (WOp (SFail OIter FUB) tv' pv')) as (s1 & e & Hr & Hs1); cycle 1.
    { eapply (Hfail FUB s1 e); [|exact Hr|exact Hs1]. intros o' op ps ds Hin. by apply elem_of_list_singleton in Hin. }
    rewrite frun_cons. unfold at_. cbn [fstep]. rewrite (alive_shd _ _ _ (WOp r tv pv)) by done. rewrite Ha.
    change (c_w (f_c (fshd s o (WOp (SRun OIter (ipc st ys)) tv pv)))) with (wshd (c_w (f_c s)) o (WOp (SRun OIter (ipc st ys)) tv pv)).
    assert (next_cell code_orders (wshd (c_w (f_c s)) o (WOp (SRun OIter (ipc st ys)) tv pv)) o = Some c) as En. { unfold next_cell. simpl. rewrite lookup_insert. by rewrite Hac. }
    rewrite En. change (f_floor (fshd s o (WOp (SRun OIter (ipc st ys)) tv pv)) (f_sync (fshd s o (WOp (SRun OIter (ipc st ys)) tv pv)) o) c) with (f_floor s (f_sync s o) c).
    rewrite (proj2 (Nat.leb_le _ _)) by lia.
    cbn [andb cstep fshd f_c cshd c_w c_fl]. rewrite En. rewrite (proj2 (Nat.ltb_ge _ _)) by lia. cbn [wstep wshd w_ops w_hist]. rewrite lookup_insert, Hac.
    assert ((if negb (base_seen tv pv c) then true else match w_hist (c_w (f_c s)) c with [] => true | _ => false end) = true) as Hb by (destruct Hcase as [-> | ->]; [done|by destruct (base_seen tv pv c)]).
    destruct (negb (base_seen tv pv c)); [|destruct (w_hist (c_w (f_c s)) c); [|done]]; (eexists _, _; split; [reflexivity|]; eexists _, _; cbn [f_c c_w w_ops]; apply lookup_insert). }
  destruct (base_seen tv pv c) eqn:Hb; cbn [negb] in Hp; [|by destruct Hnofault; left].
  destruct (w_hist (c_w (f_c s)) c) as [|x0 h] eqn:Eh; [by destruct Hnofault; right|]. clear Hnofault.
  destruct ((x0 :: h) !! n) as [[v W]|] eqn:En; [|done]. rewrite <-Eh in En. destruct (_ || _) eqn:Efl; [done|]. injection Hp as Es' Est'. rewrite Est' in Es'.
  set (tv1 := tv_read Acquire tv W) in *. set (pv1 := pv_read Acquire pv c v W) in *. change (w_mem (c_w (f_c s))) with (f_mem s) in *.
  assert (s' = fshd (upd s o c n) o (WOp (rst st') tv1 pv1)) as Es1 by (rewrite <-Es'; done). clear Es'.
  assert (here s' o) as Hh'. { rewrite Es1. split; [|by eexists; simpl; rewrite lookup_insert]. rewrite (alive_shd (upd s o c n) o _ (WOp r tv pv)) by done. exact Ha. }
  assert (w_ops (c_w (f_c s')) !! o = Some (WOp (rst st') tv1 pv1)) as Ho' by (rewrite Es1; simpl; by rewrite lookup_insert).
  assert (f_mem s' = f_mem s) as Em by (by rewrite Es1).
  assert (forall p, at_ s' o tv1 pv1 p = fshd (upd s o c n) o (WOp (SRun OIter p) tv1 pv1)) as Eat by (intros p; rewrite Es1; unfold at_; by rewrite fshd_fshd).
  (* the load, and what is loaded *)
  assert (exists u fr out, st' = print_ptr (hide tv1 pv1 (write_cell (f_mem s') c v)) u fr out /\ elements out = elements (written st) /\
    (forall v i, (v, i) ∈ fr -> sh_data v = false /\ is_null v = false) /\
    fstep code_orders (at_ s o tv pv (ipc st ys)) (FStep o n false 1%N) = Some (at_ s' o tv1 pv1 (INext ((u, 0) :: fr) ys), [])) as (u & fr & out & E1 & E2 & E3 & E4).
  { rewrite Em.
    assert (forall nx acts m', see_step tv1 pv1 (write_cell (f_mem s) c v) (ipc st ys) false 1 = Some (m', nx, acts) ->
      fstep code_orders (at_ s o tv pv (ipc st ys)) (FStep o n false 1%N) = Some (fshd (upd s o c n) o (WOp (nx_stat OIter nx) tv1 pv1), nx_events o nx acts)) as Hld.
    { intros nx acts m' Hs. by eapply load_fstep. }
    assert (forall f m', see_step tv1 pv1 (write_cell (f_mem s) c v) (ipc st ys) false 1 <> Some (m', NFail f, [])) as Hnf.
    { intros f m' Hs. apply Hld in Hs. eapply (Hfail f _ _ [FStep o n false 1%N]).
      - intros o' op ps ds Hin. by apply elem_of_list_singleton in Hin.
      - rewrite frun_cons, Hs. reflexivity.
      - eexists _, _. cbn [fshd f_c c_w cshd wshd w_ops]. apply lookup_insert. }
    destruct st as [|[|[v1 i] rest] out|out|f]; try done.
    - destruct Hy as [?| ->]; [done|]. cbn [fp_cell] in Ec. injection Ec as <-. exists v, [], []. split; [done|]. split; [done|]. split; [intros ? ? Hin; by apply elem_of_nil in Hin|].
      rewrite Eat. apply (Hld (NRun (INext [(v, 0)] [])) [] (write_cell (f_mem s) CRoot v)). done.
    - destruct Hw as [Hfr Hi]. destruct (Hfr v1 i) as [Hd Hn]; [by left|]. cbn [ipc fp_cell print_step written] in *. destruct (sh_loc v1) as [l|] eqn:El; [|done]. injection Ec as <-.
      assert (i <? LEVEL_CELLS = true) as Ei by (by apply Nat.ltb_lt). unfold see_step in Hnf, Hld. cbn [op_step] in Hnf, Hld. rewrite Hd, Hn, Ei, El in Hnf, Hld. unfold ok, panics, ok in Hnf, Hld.
      destruct (read_cell (hide tv1 pv1 (write_cell (f_mem s) (CSlot l i) v)) (CSlot l i)) as [u|] eqn:Er; [|exfalso; eapply Hnf; reflexivity].
      rewrite (hide_read _ _ _ _ _ Er) in Hnf, Hld. destruct (MAX_LEVELS + 1 <=? length ((v1, i) :: rest)) eqn:Ele; [exfalso; eapply Hnf; reflexivity|].
      exists u, ((v1, S i) :: rest), (out ++ [TIdx i]). split; [by rewrite Est'|]. split; [rewrite elements_app; by rewrite app_nil_r|].
      split; [intros v' i' [[= -> ->]|Hin]%elem_of_cons; [done|apply (Hfr v' i'); by right]|]. rewrite Eat. exact (Hld (NRun (INext ((u, 0) :: (v1, S i) :: rest) ys)) [] _ eq_refl). }
  destruct (print_ptr_sim s' o tv1 pv1 c v u fr out ys Hh' E3) as [(k & y & H1 & H2 & H3 & H4)|(Hac' & m' & f & Hf)]; cycle 1.
  { exfalso. eapply (Hfail f _ _ [FStep o n false 1%N; FStep o 0 false 1%N]).
    - intros o' op ps ds [Hin|Hin]%elem_of_cons; [done|by apply elem_of_list_singleton in Hin].
    - rewrite frun_cons, E4, frun_cons, (local_fstep code_orders _ _ _ _ _ _ _ _ Hh' (Hac' _) Hf). reflexivity.
    - eexists _, _. cbn [fshd f_c c_w cshd wshd w_ops]. apply lookup_insert. }
  rewrite <-E1 in H1, H2, H3.
  assert (st' <> PStart) as Hns. { rewrite E1. unfold print_ptr. repeat case_match; try done; apply leave_written. }
  destruct (its_ends s' o tv1 pv1 _ k st' (ys ++ y) y Hh' H1 H3 Hns) as (k' & Hk & Hr).
  exists k', y, tv1, pv1. split; [|split; [done|]; split; [by rewrite H2, E2|]; split; [done|]; split; [lia|done]].
  rewrite frun_cons, E4, Hr. done.
Qed.
End wprintsim.
