(** * C68: the text of PrintShape. *)
From Coq Require Import String Ascii HexString DecimalString DecimalPos DecimalN.
From Verif Require Import Model Mem Inv Safe SafeSys SafeProps Spec Lin LinProps LinMore LinSpec Shape Iter IterSpec IterSys ProgSpec Prog IterProg PropIter Print PrintSpec PrintSim PropPrint Concrete Fmt PropFmt PrintFmt PrintFmtSpec.
From Verif Require Weak WeakFree WPrint PropWPrint.
Local Open Scope string_scope.
Local Arguments String.append : simpl nomatch.

(** ** Drawings can be read *)
Lemma tree_ind' (P : tree -> Prop) : (forall c d, P (Null c d)) -> (forall a c els, P (Leaf a c els)) -> (forall a c subs, Forall P subs -> P (Node a c subs)) -> forall t, P t.
Proof.
  intros H1 H2 H3. fix IH 1. intros [c d|a c els|a c subs]; [apply H1|apply H2|]. apply H3. induction subs as [|t subs IHs]; constructor; [apply IH|exact IHs].
Qed.

(** What can follow the drawing of a subtree: the next slot or the end of the node; or nothing. *)
Definition rest_ok (r : string) : Prop := r = "" \/ exists x r', r = String " " (String x r') /\ x <> "|"%char.
(** What can follow a pointer. *)
Definition follow (r : string) : Prop := rest_ok r \/ exists r', r = String "[" r' \/ r = String "(" r'.

Definition hexb (c : ascii) : bool := match String.index 0 (String c "") "0123456789abcdefx" with Some _ => true | None => false end.
Fixpoint allb (p : ascii -> bool) (s : string) : bool := match s with "" => true | String c s => p c && allb p s end.
Lemma raw_hex p : forall rest, allb hexb rest = true -> allb hexb (Raw.of_pos p rest) = true.
Proof. revert p. fix IH 1. intros p rest Hr. do 4 try destruct p as [p|p|]; cbn [Raw.of_pos]; try apply IH; cbn [allb]; rewrite Hr; reflexivity. Qed.
Lemma of_N_hex a : allb hexb (HexString.of_N a) = true.
Proof. destruct a as [|p]; [reflexivity|]. simpl. by rewrite raw_hex. Qed.
Lemma span_inj p x a : forall b r1 r2, allb p a = true -> allb p b = true -> p x = false -> a ++ String x r1 = b ++ String x r2 -> a = b /\ r1 = r2.
Proof.
  induction a as [|c a IH]; intros [|d b] r1 r2 Ha Hb Hp E; cbn [String.append] in E.
  - by injection E as ->.
  - injection E as <- _. cbn in Hb. by rewrite Hp in Hb.
  - injection E as -> _. cbn in Ha. by rewrite Hp in Ha.
  - injection E as -> E. cbn in Ha, Hb. apply andb_prop in Ha as [_ Ha], Hb as [_ Hb]. destruct (IH b r1 r2 Ha Hb Hp E) as [-> ->]. done.
Qed.
Lemma follow_bar r : follow r -> forall r', r <> String " " (String "|" r').
Proof. intros [[->|(x & r1 & -> & Hx)]|(r1 & [->| ->])] r' E; try done. injection E as -> _. done. Qed.
Lemma flags_inj c d c' d' r r' : follow r -> follow r' -> flags c d ++ r = flags c' d' ++ r' -> c = c' /\ d = d' /\ r = r'.
Proof.
  intros Hr Hr' E. destruct c, d, c', d'; cbn in E; try done; try (injection E as E; subst; done).
  - injection E as E. symmetry in E. by apply (follow_bar _ Hr') in E.
  - injection E as E. by apply (follow_bar _ Hr) in E.
Qed.
Lemma ptr_inj a c d a' c' d' r r' : follow r -> follow r' -> HexString.of_N a ++ "/" ++ flags c d ++ r = HexString.of_N a' ++ "/" ++ flags c' d' ++ r' -> a = a' /\ c = c' /\ d = d' /\ r = r'.
Proof.
  intros Hr Hr' E. destruct (span_inj hexb "/"%char _ _ _ _ (of_N_hex a) (of_N_hex a') eq_refl E) as [Ea E'].
  apply (flags_inj _ _ _ _ _ _ Hr Hr') in E' as (-> & -> & ->). split; [|done]. by rewrite <- (HexString.to_N_of_N a), Ea, HexString.to_N_of_N.
Qed.

Lemma ends_sep s r : ends (", " ++ s ++ "]" ++ r).
Proof. exists ","%char. eexists. split; [reflexivity|by left]. Qed.
Lemma ends_close r : ends ("]" ++ r).
Proof. exists "]"%char, r. split; [done|by right]. Qed.
Lemma app_inv_s (a : string) : forall r1 r2, a ++ r1 = a ++ r2 -> r1 = r2.
Proof. induction a as [|c a IH]; intros r1 r2 E; [done|]. injection E as E. by apply IH. Qed.

(** The elements after the first. *)
Fixpoint tail_text (l : list string) : string := match l with [] => "" | x :: l => ", " ++ x ++ tail_text l end.
Lemma concat_tail x l : String.concat ", " (x :: l) = x ++ tail_text l.
Proof. revert x. induction l as [|y l IH]; intros x; [simpl; by rewrite app_nil_s|]. rewrite concat_cons, IH. reflexivity. Qed.
Lemma tail_ends l r : ends (tail_text l ++ "]" ++ r).
Proof. destruct l as [|x l]; [apply ends_close|]. cbn [tail_text]. rewrite app_assoc_s. exists ","%char. eexists. split; [reflexivity|by left]. Qed.
Lemma tail_inj P (HP : separable P) l : forall l' r r', Forall P l -> Forall P l' -> tail_text l ++ "]" ++ r = tail_text l' ++ "]" ++ r' -> l = l' /\ r = r'.
Proof.
  induction l as [|x l IH]; intros [|y l'] r r' Hl Hl' E; cbn [tail_text] in E.
  - cbn in E. by injection E as ->.
  - done.
  - done.
  - apply Forall_cons in Hl as [Hx Hl], Hl' as [Hy Hl']. rewrite !app_assoc_s in E. apply app_inv_s in E.
    assert (x = y) as <- by (eapply (proj1 HP); [exact Hx|exact Hy| | |exact E]; apply tail_ends). apply app_inv_s in E. destruct (IH l' r r' Hl Hl' E) as [-> ->]. done.
Qed.
Lemma list_inj P (HP : separable P) l l' r r' : Forall P l -> Forall P l' -> String.concat ", " l ++ "]" ++ r = String.concat ", " l' ++ "]" ++ r' -> l = l' /\ r = r'.
Proof.
  intros Hl Hl' E. destruct l as [|x l], l' as [|y l']; rewrite ?concat_tail in E.
  - cbn in E. by injection E as ->.
  - exfalso. apply Forall_cons in Hl' as [Hy _]. destruct (proj2 HP y Hy) as (c & y' & -> & Hc). cbn in E. by injection E as <- _.
  - exfalso. apply Forall_cons in Hl as [Hx _]. destruct (proj2 HP x Hx) as (c & x' & -> & Hc). cbn in E. by injection E as -> _.
  - rewrite !app_assoc_s in E. apply Forall_cons in Hl as [Hx Hl], Hl' as [Hy Hl'].
    assert (x = y) as <- by (eapply (proj1 HP); [exact Hx|exact Hy| | |exact E]; apply tail_ends). apply app_inv_s in E. destruct (tail_inj P HP _ _ _ _ Hl Hl' E) as [-> ->]. done.
Qed.

Definition label_ok (s : string) : Prop := exists x s', s = String " " (String x s') /\ x <> "|"%char.
Lemma labels_ok : Forall label_ok slot_labels.
Proof. unfold slot_labels. repeat constructor; (eexists _, _; split; [reflexivity|done]). Qed.
Fixpoint slots_text (labs : list string) (ts : list tree) : string := match labs, ts with lab :: labs, t :: ts => lab ++ draw t ++ slots_text labs ts | _, _ => "" end.
Lemma concat_cons0 e es : String.concat "" (e :: es) = e ++ String.concat "" es.
Proof. destruct es; [simpl; by rewrite app_nil_s|reflexivity]. Qed.
Lemma slots_concat labs : forall ts, String.concat "" (zip_with String.append labs (map draw ts)) = slots_text labs ts.
Proof.
  induction labs as [|lab labs IH]; intros [|t ts]; try done. cbn [map zip_with slots_text]. rewrite concat_cons0, IH. by rewrite app_assoc_s.
Qed.
Lemma slots_rest labs ts r : Forall label_ok labs -> rest_ok (slots_text labs ts ++ " )" ++ r).
Proof.
  intros Hl. destruct labs as [|lab labs]; [right; exists ")"%char, r; done|]. destruct ts as [|t ts]; [right; exists ")"%char, r; done|].
  apply Forall_cons in Hl as [(x & s & -> & Hx) _]. right. exists x. eexists. split; [cbn; reflexivity|done].
Qed.
Lemma draw_node a c ts r : draw (Node a c ts) ++ r = HexString.of_N a ++ "/" ++ flags c false ++ "(" ++ slots_text slot_labels ts ++ " )" ++ r.
Proof. cbn [draw]. rewrite slots_concat. by rewrite !app_assoc_s. Qed.
Lemma draw_leaf a c els r : draw (Leaf a c els) ++ r = HexString.of_N a ++ "/" ++ flags c true ++ "[" ++ String.concat ", " els ++ "]" ++ r.
Proof. cbn [draw]. by rewrite !app_assoc_s. Qed.
Lemma draw_null c d r : draw (Null c d) ++ r = HexString.of_N 0 ++ "/" ++ flags c d ++ r.
Proof. cbn [draw]. by rewrite !app_assoc_s. Qed.

Lemma follow_open r : follow ("(" ++ r). Proof. right. exists r. by right. Qed.
Lemma follow_list r : follow ("[" ++ r). Proof. right. exists r. by left. Qed.
Lemma follow_rest r : rest_ok r -> follow r. Proof. by left. Qed.
Lemma rest_not_open r r' : rest_ok r -> r <> "(" ++ r'. Proof. by intros [->|(x & s & -> & _)]. Qed.
Lemma rest_not_list r r' : rest_ok r -> r <> "[" ++ r'. Proof. by intros [->|(x & s & -> & _)]. Qed.
#[local] Hint Resolve follow_open follow_list follow_rest : core.

Lemma draw_inj P (HP : separable P) t : complete P t -> forall t' r r', complete P t' -> rest_ok r -> rest_ok r' -> draw t ++ r = draw t' ++ r' -> t = t' /\ r = r'.
Proof.
  induction t as [c d|a c els|a c subs IH] using tree_ind'; intros Ht t' r r' Ht' Hr Hr' E; inversion Ht as [| ? ? ? Hp | ? ? ? Hn Hs]; subst;
    destruct t' as [c' d'|a' c' els'|a' c' subs']; inversion Ht' as [| ? ? ? Hp' | ? ? ? Hn' Hs']; subst; rewrite ?draw_node, ?draw_leaf, ?draw_null in E; apply ptr_inj in E as (Ea & Ec & Ed & E); auto; try discriminate Ed;
    try (exfalso; by eapply rest_not_open, E); try (exfalso; by eapply rest_not_list, E); try (exfalso; by eapply rest_not_open, eq_sym, E); try (exfalso; by eapply rest_not_list, eq_sym, E).
  - by subst.
  - subst. injection E as E. apply (list_inj P HP) in E as [-> ->]; done.
  - subst. injection E as E. clear Ht Ht'.
    assert (forall labs ts ts', Forall label_ok labs -> length ts = length labs -> length ts' = length labs -> Forall (complete P) ts -> Forall (complete P) ts' ->
      Forall (fun t => complete P t -> forall t' r r', complete P t' -> rest_ok r -> rest_ok r' -> draw t ++ r = draw t' ++ r' -> t = t' /\ r = r') ts ->
      slots_text labs ts ++ " )" ++ r = slots_text labs ts' ++ " )" ++ r' -> ts = ts' /\ r = r') as Hsl.
    { clear. intros labs. induction labs as [|lab labs IHl]; intros [|t ts] [|t' ts'] Hlab Hl Hl' Hc Hc' HI E; try done.
      - cbn in E. by injection E as ->.
      - apply Forall_cons in Hlab as [_ Hlab], Hc as [Hc1 Hc], Hc' as [Hc1' Hc'], HI as [HI1 HI]. injection Hl as Hl. injection Hl' as Hl'.
        cbn [slots_text] in E. rewrite !app_assoc_s in E. apply app_inv_s in E. apply (HI1 Hc1 _ _ _ Hc1') in E as [<- E]; try by apply slots_rest.
        destruct (IHl ts ts' Hlab Hl Hl' Hc Hc' HI E) as [-> ->]. done. }
    destruct (Hsl slot_labels subs subs' labels_ok Hn Hn' Hs Hs' IH E) as [-> ->]. done.
Qed.

(** ** What is written is a drawing *)
Lemma flags_texts c d : flags_text c d = flags c d.
Proof. by destruct c, d. Qed.
Lemma list_texts {A} (show : A -> string) l : list_text show l = "[" ++ String.concat ", " (map show l) ++ "]".
Proof.
  unfold list_text.
  assert (foldl (fun b x => set_entry false b (show x)) (Builder "[" false) l = Builder ("[" ++ String.concat ", " (map show l)) (match l with [] => false | _ => true end)) as ->; [|reflexivity].
  induction l as [|x l IH] using rev_ind; [done|]. rewrite foldl_app, IH. cbn [foldl]. unfold set_entry. cbn [b_out b_has]. rewrite map_app. cbn [map]. destruct l as [|y l].
  - reflexivity.
  - rewrite concat_snoc by done. cbn [b_out]. by rewrite !app_assoc_s.
Qed.
Lemma idx_texts i : i < 16 -> slot_labels !! i = Some (" " ++ idx_text i ++ ":").
Proof. intros Hi. do 16 (destruct i as [|i]; [reflexivity|]). lia. Qed.

Scheme shaped_mut := Minimality for shaped Sort Prop with upto_mut := Minimality for shaped_upto Sort Prop.
Scheme shows_mut := Minimality for shows Sort Prop with shows_slots_mut := Minimality for shows_slots Sort Prop.
Section texts.
Context {C : Config} (show : Pl -> string).
Implicit Types (s : state) (m : mem) (ls : list label) (o : opid) (pls : list plabel) (st : pstat) (out : list tok) (v w : sh).

Lemma shape_app out out' : shape_text show (out ++ out')%list = shape_text show out ++ shape_text show out'.
Proof. induction out as [|t out IH]; [done|]. cbn [shape_text app]. by rewrite IH, app_assoc_s. Qed.
Lemma join_app {A} (l l' : list (list A)) : mjoin (l ++ l')%list = (mjoin l ++ mjoin l')%list.
Proof. induction l as [|x l IH]; [done|]. simpl. by rewrite IH, app_assoc. Qed.
Lemma take_S_label i : i < 16 -> take (S i) slot_labels = (take i slot_labels ++ [(" " ++ idx_text i ++ ":")%string])%list.
Proof. intros Hi. by rewrite (take_S_r _ _ _ (idx_texts i Hi)). Qed.
Lemma slots_snoc labs : forall ts lab t, length labs = length ts -> slots_text (labs ++ [lab])%list (ts ++ [t])%list = slots_text labs ts ++ lab ++ draw t.
Proof.
  induction labs as [|l0 labs IH]; intros [|t0 ts] lab t Hl; try done; [by cbn; rewrite app_nil_s|]. injection Hl as Hl. cbn [app slots_text]. rewrite IH by done. by rewrite !app_assoc_s.
Qed.

Definition drawn out t : Prop := shape_text show out = draw t /\ leaves t = map show (elements out) /\ complete (fun x => exists p, x = show p) t.
Lemma shaped_drawn out : shaped out -> exists t, drawn out t.
Proof.
  apply (shaped_mut C (fun out => exists t, drawn out t)
    (fun i txt => i <= 16 -> exists ts, length ts = i /\ shape_text show txt = slots_text (take i slot_labels) ts /\ mjoin (map leaves ts) = map show (elements txt) /\
      Forall (complete (fun x => exists p, x = show p)) ts)).
  - intros c d. exists (Null c d). split; [|split; [done|constructor]]. simpl. rewrite flags_texts. unfold addr_text. simpl. by rewrite app_nil_s.
  - intros a c it. exists (Leaf a c (map show it)). split; [|split].
    + cbn [shape_text tok_text draw]. rewrite list_texts, flags_texts, app_nil_s. unfold addr_text. by rewrite !app_assoc_s.
    + unfold elements. simpl. by rewrite app_nil_r.
    + constructor. apply Forall_forall. intros x Hx. apply elem_of_list_In, in_map_iff in Hx as (p & <- & _). by exists p.
  - intros a c txt _ IH. destruct (IH (le_n 16)) as (ts & Hl & Ht & He & Hc). exists (Node a c ts). split; [|split].
    + change ([TPtr a c false; TOpen] ++ txt ++ [TClose])%list with (TPtr a c false :: TOpen :: txt ++ [TClose])%list. cbn [shape_text tok_text]. rewrite shape_app, Ht. cbn [draw].
      rewrite slots_concat. cbn [shape_text tok_text]. rewrite flags_texts. unfold addr_text. rewrite firstn_all2 by done. by rewrite app_nil_s, !app_assoc_s.
    + cbn [leaves]. rewrite He. rewrite !elements_app. unfold elements at 2. simpl. by rewrite app_nil_r.
    + by constructor.
  - intros _. exists []. done.
  - intros i txt t _ IH _ (t' & Ht & He & Hc) Hi. destruct IH as (ts & Hl & Hts & Hes & Hcs); [lia|]. exists (ts ++ [t'])%list. split; [rewrite app_length; simpl; lia|]. split; [|split].
    + rewrite take_S_label by lia. rewrite slots_snoc; [|rewrite take_length_le; [done|simpl; lia]]. rewrite shape_app. cbn [shape_text tok_text]. rewrite Hts, Ht. by rewrite !app_assoc_s.
    + rewrite map_app, join_app, Hes, elements_app, map_app. f_equal. simpl. rewrite app_nil_r, He. done.
    + apply Forall_app. by repeat constructor.
Qed.

Lemma shows_pictures m : (forall l a sl, m_heap m !! l = Some (HObj a (BInner sl)) -> length sl = 16) -> forall v out, shows m v out -> exists t, pictures show m v t /\ shape_text show out = draw t.
Proof.
  intros H16 v out. apply (shows_mut C m (fun v out => exists t, pictures show m v t /\ shape_text show out = draw t)
    (fun i sl txt => i + length sl = 16 -> exists ts, Forall2 (pictures show m) sl ts /\ shape_text show txt = slots_text (drop i slot_labels) ts)); clear v out.
  - intros v Hv. eexists. split; [by constructor|]. simpl. rewrite flags_texts. unfold addr_text. simpl. by rewrite app_nil_s.
  - intros v l a it Hl Hd Hh. eexists. split; [by econstructor|]. cbn [shape_text tok_text draw]. rewrite list_texts, flags_texts, app_nil_s. unfold addr_text. by rewrite !app_assoc_s.
  - intros v l a sl txt Hl Hd Hh _ IH. destruct IH as (ts & Hts & Ht); [rewrite (H16 _ _ _ Hh); done|]. exists (Node a (sh_cond v) ts). split; [by econstructor|].
    change ([TPtr a (sh_cond v) false; TOpen] ++ txt ++ [TClose])%list with (TPtr a (sh_cond v) false :: TOpen :: txt ++ [TClose])%list. cbn [shape_text tok_text]. rewrite shape_app, Ht. cbn [draw].
    rewrite slots_concat. cbn [shape_text tok_text]. rewrite flags_texts. unfold addr_text. change (drop 0 slot_labels) with slot_labels. by rewrite app_nil_s, !app_assoc_s.
  - intros i Hi. exists []. split; [constructor|]. by destruct (drop i slot_labels).
  - intros i w ws t txt _ (t' & Hp & Ht) _ IH Hi. simpl in Hi. destruct IH as (ts & Hts & Htx); [lia|]. exists (t' :: ts). split; [by constructor|].
    cbn [shape_text tok_text]. rewrite shape_app, Ht, Htx. rewrite (drop_S _ _ _ (idx_texts i ltac:(lia))). cbn [slots_text]. by rewrite !app_assoc_s.
Qed.

Lemma pictures_complete m : (forall l a sl, m_heap m !! l = Some (HObj a (BInner sl)) -> length sl = 16) -> forall t v, pictures show m v t -> complete (fun x => exists p, x = show p) t.
Proof.
  intros H16 t. induction t as [c d|a c els|a c subs IH] using tree_ind'; intros v Hp; inversion Hp as [|? l ? it Hl Hd Hh|? l ? sl ? Hl Hd Hh Hf]; subst; constructor.
  - apply Forall_forall. intros x Hx. apply elem_of_list_In, in_map_iff in Hx as (p & <- & _). by exists p.
  - rewrite <- (Forall2_length _ _ _ Hf). exact (H16 _ _ _ Hh).
  - clear Hp Hh. induction Hf as [|w t ws ts Hw Hf IHf]; [constructor|]. apply Forall_cons in IH as [IH1 IH]. constructor; [by eapply IH1|by apply IHf].
Qed.

(** There is one picture of a trie. *)
Lemma pictures_fun m : forall t v t', pictures show m v t -> pictures show m v t' -> t = t'.
Proof.
  intros t. induction t as [c d|a c els|a c subs IH] using tree_ind'; intros v t' Hp Hp'; inversion Hp as [? Hl|? l ? it Hl Hd Hh|? l ? sl ? Hl Hd Hh Hf]; subst;
    inversion Hp' as [? Hl'|? l' ? it' Hl' Hd' Hh'|? l' ? sl' ? Hl' Hd' Hh' Hf']; subst; try congruence.
  - rewrite Hl in Hl'. injection Hl' as <-. rewrite Hh in Hh'. injection Hh' as <- <-. f_equal. clear -IH Hf Hf'. revert ts Hf'. induction Hf as [|w t ws ts' Hw Hf IHf]; intros ts2 Hf2; inversion Hf2; subst; [done|].
    apply Forall_cons in IH as [IH1 IH]. f_equal; [by eapply IH1|by apply IHf].
Qed.

(** *** The text only grows *)
Definition more out st : Prop := match st with PFail _ => True | _ => exists out', written st = (out ++ out')%list end.
Lemma leave_more fr : forall out, more out (leave fr out).
Proof.
  induction fr as [|[v i] fr IH]; intros out; cbn [leave]; [exists []; by rewrite app_nil_r|]. destruct (i <? LEVEL_CELLS)%nat; [exists []; by rewrite app_nil_r|].
  specialize (IH (out ++ [TClose])%list). unfold more in *. destruct (leave fr _); try done; destruct IH as [o' E]; rewrite E; rewrite <- app_assoc; by eexists.
Qed.
Lemma more_trans out out1 st : more (out ++ out1)%list st -> more out st.
Proof. unfold more. destruct st; try done; intros [o' E]; rewrite E; rewrite <- app_assoc; by eexists. Qed.
Lemma ptr_more m v fr out : more out (print_ptr m v fr out).
Proof.
  unfold print_ptr. destruct (is_null v); [eapply more_trans, leave_more|]. destruct (sh_data v).
  - destruct (load_data m v); [done|]. do 2 eapply more_trans. apply leave_more.
  - eexists. cbn [written]. rewrite <- app_assoc. reflexivity.
Qed.
Lemma step_more m st : more (written st) (print_step m st).
Proof.
  destruct st as [|[|[v i] fr] out|out|f]; try (exists []; by rewrite app_nil_r); [apply ptr_more| |done]. cbn [print_step written]. destruct (sh_loc v); [|done]. destruct (read_cell _ _); [|done]. eapply more_trans, ptr_more.
Qed.
Lemma prun_fail o pls : forall s f s' st' e, prun o (s, PFail f) pls = Some (s', st', e) -> st' = PFail f.
Proof.
  induction pls as [|pl pls IH]; intros s f s' st' e Hr; [by injection Hr as _ <- _|]. cbn [prun] in Hr. destruct (pstep o (s, PFail f) pl) as [[[s1 st1] e1]|] eqn:Ep; [|done].
  destruct (prun o (s1, st1) pls) as [[[s2 st2] e2]|] eqn:Er; [|done]. injection Hr as _ <- _. destruct pl as [lb|]; [|done]. cbn [pstep fst snd] in Ep.
  destruct (of_printer o lb); [done|]. destruct (step s lb) as [[]|]; [|done]. injection Ep as <- <- <-. by eapply IH.
Qed.
Lemma prun_more o pls : forall s st s' st' e, prun o (s, st) pls = Some (s', st', e) -> more (written st) st'.
Proof.
  induction pls as [|pl pls IH]; intros s st s' st' e Hr; [injection Hr as _ <- _; destruct st; try done; exists []; by rewrite app_nil_r|]. cbn [prun] in Hr.
  destruct (pstep o (s, st) pl) as [[[s1 st1] e1]|] eqn:Ep; [|done]. destruct (prun o (s1, st1) pls) as [[[s2 st2] e2]|] eqn:Er; [|done]. injection Hr as _ <- _.
  destruct pl as [lb|]; cbn [pstep fst snd] in Ep.
  - destruct (of_printer o lb); [done|]. destruct (step s lb) as [[]|]; [|done]. injection Ep as <- <- <-. by eapply IH.
  - assert (st1 = print_step (s_mem s) st) as -> by (destruct st; try done; by injection Ep as <- <- <-). pose proof (step_more (s_mem s) st) as Hm.
    destruct (print_step (s_mem s) st) as [|fr out|out|f] eqn:Es; [| | |apply prun_fail in Er as ->; done]; destruct Hm as [o1 E]; apply IH in Er; rewrite E in Er; by eapply more_trans.
Qed.
Lemma prun_app o pls pls' : forall x : state * pstat, prun o x (pls ++ pls')%list = match prun o x pls with
  | Some (s1, st1, e1) => match prun o (s1, st1) pls' with Some (s2, st2, e2) => Some (s2, st2, (e1 ++ e2)%list) | None => None end | None => None end.
Proof.
  induction pls as [|pl pls IH]; intros [s st]; cbn [app prun fst snd]; [by destruct (prun o (s, st) pls') as [[[]]|]|]. destruct (pstep o (s, st) pl) as [[[s1 st1] e1]|]; [|done]. rewrite IH.
  destruct (prun o (s1, st1) pls) as [[[s2 st2] e2]|]; [|done]. destruct (prun o (s2, st2) pls') as [[[s3 st3] e3]|]; [|done]. by rewrite app_assoc.
Qed.

Lemma in_join x (l : list Pl) : x ∈ l -> forall sep, exists pre post, String.concat sep (map show l) = pre ++ show x ++ post.
Proof.
  intros Hx sep. induction l as [|y l IH]; [by apply elem_of_nil in Hx|]. apply elem_of_cons in Hx as [->|Hx].
  - destruct l as [|z l]; [exists "", ""; simpl; by rewrite app_nil_s|]. exists "". eexists. cbn [map]. rewrite concat_cons. reflexivity.
  - destruct (IH Hx) as (pre & post & E). destruct l as [|z l]; [by apply elem_of_nil in Hx|]. cbn [map] in *. rewrite concat_cons, E. exists (show y ++ sep ++ pre), post. by rewrite !app_assoc_s.
Qed.
Lemma in_text p out : p ∈ elements out -> exists pre post, shape_text show out = pre ++ show p ++ post.
Proof.
  induction out as [|t out IH]; [intros H; by apply elem_of_nil in H|]. change (t :: out) with ([t] ++ out)%list. rewrite elements_app. intros [Hp|Hp]%elem_of_app.
  - destruct t as [| it | | |]; try (by apply elem_of_nil in Hp). unfold elements in Hp. simpl in Hp. rewrite app_nil_r in Hp. destruct (in_join p it Hp ", ") as (pre & post & E).
    cbn [app shape_text tok_text]. rewrite list_texts, E. exists ("[" ++ pre), (post ++ "]" ++ shape_text show out). by rewrite !app_assoc_s.
  - destruct (IH Hp) as (pre & post & E). cbn [app shape_text]. rewrite E. exists (tok_text show t ++ pre), post. by rewrite !app_assoc_s.
Qed.

Lemma printing_sixteen ls o pls s st : printing ls o pls s st -> forall l a sl, m_heap (s_mem s) !! l = Some (HObj a (BInner sl)) -> length sl = 16.
Proof.
  intros Hp l a sl Hh. destruct (printing_sim _ _ _ _ _ Hp) as (ls' & ys & ev & Hx & Hw & Ho & _).
  pose proof (exec_sinv _ _ _ Hx) as Hsi. destruct st as [|fr out|out|f]; [| | |by destruct Hw as [_ ?]].
  all: match type of Hx with exec _ (shd ?a ?b ?x) _ => assert (b ∈ guards (shd a b x)) as Hg by (apply elem_of_guards; exists (SRun OIter x); split; [simpl; apply lookup_insert|done]) end.
  all: destruct (live_of_guard _ _ Hsi Hg) as [pos Hl]; pose proof (li_mem _ _ Hl) as Hmi; simpl in Hmi; apply (mi_slots _ _ Hmi l sl); unfold hbody; rewrite Hh; done.
Qed.
End texts.

(** ** C68: the text of PrintShape, [show] being how the elements print themselves.
    Whatever other threads do meanwhile: the complete text is the drawing of a trie, and the elements in it are of different keys, each of them was in the map at some moment of the printing,
    and for each key it shows what the map had for it at some moment of the printing. *)
Theorem C68_text `{C : Config} `{!ConfigOk C} (show : Pl -> string) : forall ls o pls s out, wf_calls ls -> wf_calls (sys pls) -> printing ls o pls s (PDone out) ->
  exists (t : tree) (es : list Pl), shape_text show out = draw t /\ complete (fun x => exists p, x = show p) t /\ leaves t = map show es /\
    distinct_keys es /\ (forall p, p ∈ es -> exists s1, while_printing ls o pls s1 /\ maps s1 (keyof p) p) /\
    (forall k, exists s1 x, while_printing ls o pls s1 /\ has s1 k x /\ listed es k x).
Proof.
  intros ls o pls s out W1 W2 Hp. destruct (shaped_drawn show out (C53_form _ _ _ _ _ Hp)) as (t & Ht & Hl & Hc). exists t, (elements out). split; [done|]. split; [done|]. split; [done|].
  split; [exact (C53_elements_once _ _ _ _ _ W1 W2 Hp)|]. split; [intros p Hin; exact (C53_was_there _ _ _ _ _ p W1 W2 Hp Hin)|exact (C53_every_key _ _ _ _ _ W1 W2 Hp)].
Qed.
Print Assumptions C68_text.

(** An element that is in the map all the while is in the text. *)
Theorem C68_present `{C : Config} `{!ConfigOk C} (show : Pl -> string) : forall ls o pls s out p, wf_calls ls -> wf_calls (sys pls) -> printing ls o pls s (PDone out) ->
  (forall s1, while_printing ls o pls s1 -> maps s1 (keyof p) p) -> exists pre post, shape_text show out = pre ++ show p ++ post.
Proof.
  intros ls o pls s out p W1 W2 Hp Hall. apply in_text. destruct (printing_sim _ _ _ _ _ Hp) as (ls' & ys & ev & Hx & _ & Ho & Hel & Hy & _ & _ & Hwf & Hd).
  specialize (Hwf W1 W2). destruct (exec_itinv _ _ _ Hx Hwf) as (pos & _ & _ & Hit). destruct (Hit o) as (_ & _ & _ & H4).
  unfold iter_st in H4. cbn [shd s_ops ipc] in H4. rewrite lookup_insert in H4. destruct H4 as (_ & _ & Hs). specialize (Hs (keyof p)).
  destruct (seen_during _ _ _ _ _ _ Hx Hwf Hs) as (s1 & Hs1 & Hh). destruct (Hd s1 Hs1) as (s2 & H2 & E).
  unfold reported in Hh. simpl in Hh. change (elements out = Iter.vals ys) in Hel. rewrite Hel. pose proof (find_listed (Iter.vals ys) (keyof p)) as Hli.
  assert (has s1 (keyof p) (Some p)) as Hh' by (unfold has, maps; rewrite <- E; by apply Hall). rewrite (during_has_fun _ _ _ _ _ _ _ _ _ Hx Hwf Hs1 Hh Hh') in Hli. apply Hli.
Qed.
Print Assumptions C68_present.

(** If the map does not change meanwhile, the text is the drawing of the trie. *)
Theorem C68_picture `{C : Config} (show : Pl -> string) : forall ls o pls s out, printing ls o pls s (PDone out) -> (forall s1, while_printing ls o pls s1 -> s_mem s1 = s_mem s) ->
  exists t, pictures show (s_mem s) (m_root (s_mem s)) t /\ shape_text show out = draw t.
Proof. intros ls o pls s out Hp Hm. apply shows_pictures; [by eapply printing_sixteen|]. by apply (C53_picture _ _ _ _ _ Hp). Qed.
Print Assumptions C68_picture.

(** Drawings can be read: if the texts of the elements can be told from what follows them, different tries have different drawings. *)
Theorem C68_readable (P : string -> Prop) : separable P -> forall t t', complete P t -> complete P t' -> draw t = draw t' -> t = t'.
Proof. intros HP t t' Ht Ht' E. apply (draw_inj P HP t Ht t' "" ""); [done|by left|by left|by rewrite E]. Qed.
Print Assumptions C68_readable.

(** So two maps that print the same text, while nobody changes them, look the same: addresses, flags, and the texts of the elements in each data node. *)
Theorem C68_same_text `{C : Config} (show : Pl -> string) : separable (fun x => exists p, x = show p) ->
  forall ls o pls s out ls' o' pls' s' out', printing ls o pls s (PDone out) -> (forall s1, while_printing ls o pls s1 -> s_mem s1 = s_mem s) ->
    printing ls' o' pls' s' (PDone out') -> (forall s1, while_printing ls' o' pls' s1 -> s_mem s1 = s_mem s') -> shape_text show out = shape_text show out' ->
  forall t, pictures show (s_mem s) (m_root (s_mem s)) t <-> pictures show (s_mem s') (m_root (s_mem s')) t.
Proof.
  intros HP ls o pls s out ls' o' pls' s' out' Hp Hm Hp' Hm' E t. destruct (C68_picture show _ _ _ _ _ Hp Hm) as (t1 & H1 & E1). destruct (C68_picture show _ _ _ _ _ Hp' Hm') as (t2 & H2 & E2).
  assert (t1 = t2) as <-. { apply (C68_readable _ HP); [eapply pictures_complete; [|exact H1]; by eapply printing_sixteen|eapply pictures_complete; [|exact H2]; by eapply printing_sixteen|congruence]. }
  split; intros Ht; [by rewrite (pictures_fun show _ _ _ _ Ht H1)|by rewrite (pictures_fun show _ _ _ _ Ht H2)].
Qed.
Print Assumptions C68_same_text.

(** What has been written stays written, so what there is if the printing is given up midway (because the text cannot be written any further) is the beginning of what there would have been. *)
Theorem C68_grows `{C : Config} (show : Pl -> string) : forall ls o pls pls' s st s' st', printing ls o pls s st -> printing ls o (pls ++ pls') s' st' ->
  exists more, shape_text show (written st') = shape_text show (written st) ++ more.
Proof.
  intros ls o pls pls' s st s' st' Hp Hp'. destruct (C53_safe _ _ _ _ _ Hp') as [Hf _]. destruct Hp as (s0 & ev0 & ev & Hx & Hr), Hp' as (s0' & ev0' & ev' & Hx' & Hr').
  unfold exec in Hx, Hx'. rewrite Hx in Hx'. injection Hx' as <- <-. rewrite prun_app, Hr in Hr'. destruct (prun o (s, st) pls') as [[[s2 st2] e2]|] eqn:Er; [|done]. injection Hr' as -> -> _.
  apply prun_more in Er. unfold more in Er. destruct st' as [|fr out|out|f]; [| | |by destruct (Hf f)]; destruct Er as [o1 E]; rewrite E, shape_app; by eexists.
Qed.
Print Assumptions C68_grows.

(** On weakly ordered memory, too, the complete text is the drawing of a trie, with the elements C67 speaks of. *)
Theorem C68_weak `{C : Config} (show : Pl -> string) : forall ls o ps ds pls s out ev, WPrint.fprinting Weak.code_orders Weak.Acquire ls o ps ds pls s (PDone out) ev ->
  exists t, shape_text show out = draw t /\ complete (fun x => exists p, x = show p) t /\ leaves t = map show (elements out).
Proof. intros ls o ps ds pls s out ev Hp. destruct (shaped_drawn show out (PropWPrint.C67_form _ _ _ _ _ _ _ _ Hp)) as (t & H1 & H2 & H3). by exists t. Qed.
Print Assumptions C68_weak.

(** ** A concrete case.  The elements of the machine of Concrete.v are pairs of numbers; a pair prints itself as [(1, 7)], which can be told from what follows it. *)
Definition dec (n : N) : string := NilZero.string_of_uint (N.to_uint n).
Definition show_pair (p : N * N) : string := "(" ++ dec p.1 ++ ", " ++ dec p.2 ++ ")".

Definition decb (c : ascii) : bool := match String.index 0 (String c "") "0123456789" with Some _ => true | None => false end.
Lemma uint_digits u : allb decb (NilEmpty.string_of_uint u) = true.
Proof. by induction u. Qed.
Lemma dec_digits n : allb decb (dec n) = true.
Proof. unfold dec, NilZero.string_of_uint. destruct (N.to_uint n) eqn:E; [done|..]; rewrite <- E; apply uint_digits. Qed.
Lemma dec_inj n n' : dec n = dec n' -> n = n'.
Proof.
  unfold dec. intros E. rewrite <- (DecimalN.Unsigned.of_to n), <- (DecimalN.Unsigned.of_to n').
  assert (forall m, N.to_uint m <> Decimal.Nil) as Hn. { intros [|m]; [done|]. apply DecimalPos.Unsigned.to_uint_nonnil. }
  assert (Some (N.to_uint n) = Some (N.to_uint n')) as E'; [|by injection E' as ->]. rewrite <- (NilZero.usu _ (Hn n)), <- (NilZero.usu _ (Hn n')). by rewrite E.
Qed.
Lemma show_separable : separable (fun x => exists p, x = show_pair p).
Proof.
  split; [|intros x [p ->]; by eexists _, _]. intros x y r1 r2 [p ->] [q ->] _ _ E. unfold show_pair in E. rewrite !app_assoc_s in E. apply app_inv_s in E.
  destruct (span_inj decb ","%char _ _ _ _ (dec_digits p.1) (dec_digits q.1) eq_refl E) as [E1 E'].
  change ((" " ++ dec p.2 ++ ")" ++ r1) = (" " ++ dec q.2 ++ ")" ++ r2)) in E'. apply app_inv_s in E'.
  destruct (span_inj decb ")"%char _ _ _ _ (dec_digits p.2) (dec_digits q.2) eq_refl E') as [E2 _]. apply dec_inj in E1, E2. by rewrite (surjective_pairing p), E1, E2, <- surjective_pairing.
Qed.

Definition plsf : list (@label CN) := schedule (seqcalls 1%positive [ins 1 1; ins 2 12; ins 17 3]).
Definition pfres (n : nat) : option (@state CN * @pstat CN) :=
  match run init (plsf ++ [LInv 6%positive OIter])%list with
  | Some (s0, _) => match prun 6%positive (s0, PStart) (replicate n PPrint) with Some (s, st, _) => Some (s, st) | None => None end
  | None => None
  end.
Definition pftext (x : option (@state CN * @pstat CN)) : string := match x with Some (_, PDone out) => @shape_text CN show_pair out | _ => "?" end.
Lemma pfres_printing n s st : pfres n = Some (s, st) -> printing plsf 6%positive (replicate n PPrint) s st /\ forall s1, while_printing plsf 6%positive (replicate n PPrint) s1 -> s_mem s1 = s_mem s.
Proof.
  unfold pfres, printing, while_printing, printing, exec. destruct (run init _) as [[s0 e0]|]; [|done]. destruct (prun _ _ _) as [[[s1 st1] e1]|] eqn:E; [|done]. intros [= <- <-].
  split; [by exists s0, e0, e1|]. intros s2 (n2 & st2 & s3 & e3 & e4 & [= <- <-] & Hr). rewrite take_replicate in Hr. apply prun_alone in Hr as ->. by apply prun_alone in E as ->.
Qed.
#[local] Opaque plsf pfres run prun schedule.
Lemma pftext_inv x t : pftext x = t -> t <> "?" -> exists s out, x = Some (s, PDone out) /\ @shape_text CN show_pair out = t.
Proof. unfold pftext. destruct x as [[s [| |out|]]|]; intros <- H; try done. by exists s, out. Qed.

(** The map with keys 1, 2 and 17. *)
Definition example_text : string :=
  "0x2/(empty)( 0:0x0/(empty) 1:0x4/(empty)( 0:0x1/DATA[(1, 1)] 1:0x5/DATA[(17, 3)] 2:0x0/(empty) 3:0x0/(empty) 4:0x0/(empty) 5:0x0/(empty) 6:0x0/(empty) 7:0x0/(empty) 8:0x0/(empty) 9:0x0/(empty) A:0x0/(empty) B:0x0/(empty) C:0x0/(empty) D:0x0/(empty) E:0x0/(empty) F:0x0/(empty) ) 2:0x3/DATA[(2, 12)] 3:0x0/(empty) 4:0x0/(empty) 5:0x0/(empty) 6:0x0/(empty) 7:0x0/(empty) 8:0x0/(empty) 9:0x0/(empty) A:0x0/(empty) B:0x0/(empty) C:0x0/(empty) D:0x0/(empty) E:0x0/(empty) F:0x0/(empty) )".
Definition nulls (n : nat) : list tree := replicate n (Null false false).
Definition example_tree : tree :=
  Node 2 false ([Null false false; Node 4 false ([Leaf 1 false ["(1, 1)"]; Leaf 5 false ["(17, 3)"]] ++ nulls 14); Leaf 3 false ["(2, 12)"]] ++ nulls 13).
Example C68_example : wf_calls plsf /\ wf_calls (sys (replicate 33 (@PPrint CN))) /\
  (exists s out, printing plsf 6%positive (replicate 33 PPrint) s (PDone out) /\ (forall s1, while_printing plsf 6%positive (replicate 33 PPrint) s1 -> s_mem s1 = s_mem s) /\
    @shape_text CN show_pair out = example_text /\ @pictures CN show_pair (s_mem s) (m_root (s_mem s)) example_tree) /\
  separable (fun x => exists p, x = show_pair p) /\ complete (fun x => exists p, x = show_pair p) example_tree /\ draw example_tree = example_text.
Proof.
  assert (complete (fun x => exists p, x = show_pair p) example_tree) as Hc.
  { unfold example_tree. repeat (constructor; [done|] || constructor). - by exists (1, 1)%N. - by exists (17, 3)%N. - by exists (2, 12)%N. }
  assert (draw example_tree = example_text) as Hd by (vm_compute; reflexivity).
  split; [apply wf_check; vm_compute; reflexivity|]. split; [apply wf_sys_check; vm_compute; reflexivity|]. split; [|split; [exact show_separable|exact (conj Hc Hd)]].
  assert (pftext (pfres 33) = example_text) as Ht by (vm_compute; reflexivity). assert (example_text <> "?") as Hne by discriminate.
  destruct (pftext_inv _ _ Ht Hne) as (s & out & E & Et). destruct (pfres_printing _ _ _ E) as [Hp Hm]. exists s, out. split; [exact Hp|]. split; [exact Hm|]. split; [exact Et|].
  destruct (C68_picture (C:=CN) show_pair _ _ _ _ _ Hp Hm) as (t & Hpt & Etx). assert (t = example_tree) as <-; [|exact Hpt].
  apply (C68_readable _ show_separable); [|exact Hc|congruence]. eapply (pictures_complete (C:=CN)); [|exact Hpt]. exact (printing_sixteen _ _ _ _ _ Hp).
Qed.
(** C53_example is a printing with others at work, for C68_text; key 1 is there all the while.
    C68_readable needs that the texts of the elements can be told from what follows: two elements [a] and [b] look like one that prints itself as [a, b]. *)
Example C68_separable_needed : draw (Leaf 1 false ["a"; "b"]) = draw (Leaf 1 false ["a, b"]).
Proof. reflexivity. Qed.
