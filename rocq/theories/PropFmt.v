(** * C65: what the containers print when they are formatted with [{:?}] or [{:#?}]. *)
From Coq Require Import String Ascii.
From Verif Require Import Model Spec LinSpec IterSpec Concrete Lin LinProps Api PropIter Fmt.
Local Open Scope string_scope.
Local Arguments String.append : simpl nomatch.

(** ** The texts: [{a, b, c}]; with the alternate flag, one entry per line, indented. *)
Definition commas (es : list string) : string := "{" ++ String.concat ", " es ++ "}".
Fixpoint indented (s : string) : string :=
  match s with "" => "" | String c s => String c ((if Ascii.eqb c newline then "    " else "") ++ indented s) end.
Definition lines (es : list string) : string := "{" ++ nl ++ String.concat "" (map (fun e => "    " ++ indented e ++ "," ++ nl) es) ++ "}".
Definition text (alt : bool) (es : list string) : string := if alt then match es with [] => "{}" | _ => lines es end else commas es.

(** What [{:?}] of an element is: [key: value]. *)
Definition entry_text {K V} (dk : bool -> K -> string) (dv : bool -> V -> string) (alt : bool) (k : K) (v : V) : string := dk alt k ++ ": " ++ dv alt v.

(** ** The builders write these texts *)
Lemma app_assoc_s (a b c : string) : (a ++ b) ++ c = a ++ b ++ c.
Proof. induction a as [|x a IH]; [done|]. simpl. by rewrite IH. Qed.
Lemma app_nil_s (a : string) : a ++ "" = a.
Proof. induction a as [|x a IH]; [done|]. simpl. by rewrite IH. Qed.
Lemma concat_cons (sep e e' : string) es : String.concat sep (e :: e' :: es) = e ++ sep ++ String.concat sep (e' :: es).
Proof. done. Qed.
Lemma concat_app (es : list string) e : String.concat "" (es ++ [e])%list = String.concat "" es ++ e.
Proof.
  induction es as [|x [|y es] IH]; [done|done|]. change ((x :: y :: es) ++ [e])%list with (x :: y :: (es ++ [e]))%list.
  rewrite !concat_cons. change (y :: es ++ [e])%list with ((y :: es) ++ [e])%list. rewrite IH. by rewrite !app_assoc_s.
Qed.
Lemma concat_snoc sep (es : list string) e : es <> [] -> String.concat sep (es ++ [e])%list = String.concat sep es ++ sep ++ e.
Proof.
  induction es as [|x [|y es] IH]; [done|done|]. intros _. change ((x :: y :: es) ++ [e])%list with (x :: y :: (es ++ [e]))%list.
  rewrite !concat_cons. change (y :: es ++ [e])%list with ((y :: es) ++ [e])%list. rewrite IH by done. by rewrite !app_assoc_s.
Qed.

Lemma pad_app s1 : forall b s2, (pad b (s1 ++ s2)).1 = (pad b s1).1 ++ (pad (pad b s1).2 s2).1.
Proof. induction s1 as [|c s1 IH]; intros b s2; [done|]. simpl. rewrite IH. by rewrite app_assoc_s. Qed.
(** Followed by something that does not begin a line of its own. *)
Lemma pad_text s : forall b c t, Ascii.eqb c newline = false -> (pad b (s ++ String c t)).1 = (if b then "    " else "") ++ indented s ++ String c (pad false t).1.
Proof.
  induction s as [|x s IH]; intros b c t Hc; simpl; [by rewrite Hc|]. rewrite IH by done. rewrite app_assoc_s. simpl. done.
Qed.
Lemma pad_entry e : (let r := pad true e in r.1 ++ (pad r.2 ("," ++ nl)).1) = "    " ++ indented e ++ "," ++ nl.
Proof. cbv zeta. rewrite <- pad_app. exact (pad_text e true ","%char nl eq_refl). Qed.
Lemma map_set_entry alt b k v : map_entry alt b k v = set_entry alt b (k ++ ": " ++ v).
Proof.
  destruct alt; [|done]. unfold map_entry, set_entry. f_equal. f_equal. f_equal. cbv zeta. rewrite !pad_app. rewrite !app_assoc_s. do 4 f_equal.
  assert (forall s b' s2, (pad b' (s ++ s2)).2 = (pad (pad b' s).2 s2).2) as P2. { clear. intros s. induction s as [|c s IH]; intros b' s2; [done|]. simpl. apply IH. }
  by rewrite !P2.
Qed.

Lemma set_fold alt es : foldl (set_entry alt) debug_new es = Builder (match es with [] => "{" | _ => if alt then "{" ++ nl ++ String.concat "" (map (fun e => "    " ++ indented e ++ "," ++ nl) es) else "{" ++ String.concat ", " es end)
  (match es with [] => false | _ => true end).
Proof.
  induction es as [|e es IH] using rev_ind; [done|]. rewrite foldl_app, IH. clear IH. simpl foldl. destruct es as [|x es].
  - destruct alt; unfold set_entry; simpl b_out; simpl b_has; [|done]. rewrite pad_entry. done.
  - assert (((x :: es) ++ [e])%list <> []) as Hne by (by destruct es). destruct ((x :: es) ++ [e])%list as [|y l] eqn:E; [done|]. rewrite <- E. clear Hne.
    destruct alt; unfold set_entry; cbn [b_out b_has]; f_equal.
    + rewrite pad_entry. set (g := fun e0 : string => _). assert (map g ((x :: es) ++ [e])%list = (map g (x :: es) ++ [g e])%list) as -> by apply map_app.
      rewrite concat_app. reflexivity.
    + rewrite concat_snoc by done. reflexivity.
Qed.

Lemma set_text alt es : debug_finish (foldl (set_entry alt) debug_new es) = text alt es.
Proof.
  rewrite set_fold. unfold debug_finish, text, commas, lines. simpl b_out. destruct es as [|e es]; [by destruct alt|]. destruct alt; [|reflexivity]. reflexivity.
Qed.

Lemma foldl_map_entry {A} (f g : A -> string) alt (l : list A) : forall b, foldl (fun d n => map_entry alt d (f n) (g n)) b l = foldl (set_entry alt) b (map (fun n => f n ++ ": " ++ g n) l).
Proof. induction l as [|x l IH]; intros b; [done|]. simpl. rewrite IH. by rewrite map_set_entry. Qed.
Lemma foldl_set_entry {A} (f : A -> string) alt (l : list A) : forall b, foldl (fun d n => set_entry alt d (f n)) b l = foldl (set_entry alt) b (map f l).
Proof. induction l as [|x l IH]; intros b; [done|]. simpl. by rewrite IH. Qed.

Lemma conmap_text {K V} (dk : bool -> K -> string) (dv : bool -> V -> string) alt l :
  conmap_fmt dk dv alt l = text alt (map (fun n => entry_text dk dv alt (el_key (arc_val n)) (el_value (arc_val n))) l).
Proof. unfold conmap_fmt. rewrite (foldl_map_entry (fun n => dk alt (el_key (arc_val n))) (fun n => dv alt (el_value (arc_val n)))). apply set_text. Qed.
Lemma clonemap_text {K V} (dk : bool -> K -> string) (dv : bool -> V -> string) alt l :
  clonemap_fmt dk dv alt l = text alt (map (fun n => entry_text dk dv alt n.1 n.2) l).
Proof. unfold clonemap_fmt. rewrite (foldl_map_entry (fun n => dk alt n.1) (fun n => dv alt n.2)). apply set_text. Qed.
Lemma conset_text {T} (dt : bool -> T -> string) alt l : conset_fmt dt alt l = text alt (map (dt alt) l).
Proof. unfold conset_fmt. rewrite foldl_set_entry. apply set_text. Qed.

Lemma string_length_app a b : String.length (a ++ b) = String.length a + String.length b.
Proof. induction a as [|x a IH]; [done|]. simpl. by rewrite IH. Qed.
(** [{}] is printed only if there is no entry (or one whose own text is empty). *)
Lemma text_empty alt es : text alt es = "{}" -> es = [] \/ (alt = false /\ es = [""]).
Proof.
  intros H. destruct es as [|e es]; [by left|]. right. destruct alt.
  - exfalso. apply (f_equal String.length) in H. simpl in H. rewrite string_length_app in H. simpl in H. lia.
  - split; [done|]. unfold text, commas in H. destruct es as [|e' es].
    + simpl in H. destruct e as [|x e]; [done|]. apply (f_equal String.length) in H. simpl in H. rewrite string_length_app in H. simpl in H. lia.
    + rewrite concat_cons in H. apply (f_equal String.length) in H. rewrite !string_length_app in H. simpl in H. lia.
Qed.

(** ** The theorems
    [o] is the iteration that the formatting makes; [es] are the elements the text is made of. *)
Section facts.
Context {C : Config}.
(** The elements of a text: no key twice; each of them was in the map at some moment of the formatting; whatever was in the map all the time is among them; if the
    contents do not change meanwhile, they are exactly the contents. *)
Definition faithful (ls : list label) (o : opid) (es : list Pl) : Prop :=
  distinct_keys es /\
  (forall p, p ∈ es -> exists s1, during ls o OIter s1 /\ maps s1 (keyof p) p) /\
  (forall k p, (forall s1, during ls o OIter s1 -> maps s1 k p) -> p ∈ es) /\
  (forall k, (forall s1, during ls o OIter s1 -> absent s1 k) -> forall p, p ∈ es -> keqb (keyof p) k = false) /\
  ((forall s1 s2, during ls o OIter s1 -> during ls o OIter s2 -> same_contents s1 s2) -> forall s1, during ls o OIter s1 -> lists_contents es s1).

Lemma iteration_faithful `{!ConfigOk C} ls s ev o ys : exec ls s ev -> wf_calls ls -> ERet o (RIter ys) ∈ ev -> faithful ls o (map rr_val ys).
Proof.
  intros Hx Hw Hr. destruct (C22_every_key _ _ _ _ _ Hx Hw Hr) as [Ey _]. split; [|split; [|split; [|split]]].
  - rewrite <- Ey. exact (C21_no_duplicates _ _ _ o Hx Hw).
  - intros p Hp. apply elem_of_list_In, in_map_iff in Hp as (r & <- & Hin). apply elem_of_list_In in Hin. apply (C22_yielded_was_there _ _ _ _ r Hx Hw).
    rewrite <- Ey in Hin. unfold yields_of in Hin. apply elem_of_list_omap in Hin as (e & He & E). destruct e; try done. destruct (decide _) as [->|]; [|done]. by injection E as ->.
  - intros k p Hall. by destruct (C22_present_listed _ _ _ _ _ _ _ Hx Hw Hr Hall).
  - intros k Hall. exact (C22_absent_not_listed _ _ _ _ _ _ Hx Hw Hr Hall).
  - intros Hsame s1 Hd. exact (C23_exact _ _ _ _ _ Hx Hw Hr Hsame s1 Hd).
Qed.
End facts.

(** ConMap: the text is that of [key: value] of the elements of a faithful list. *)
Theorem C65_ConMap (K V : Type) (eqb : K -> K -> bool) (hash : K -> N) (dk : bool -> K -> string) (dv : bool -> V -> string) : @ConfigOk (map_config K V eqb hash) ->
  forall ls s ev o ys alt, @exec (map_config K V eqb hash) ls s ev -> wf_calls ls -> ERet o (RIter ys) ∈ ev ->
  exists es : list (arc (element K V)), conmap_fmt dk dv alt (map (@rr_val (map_config K V eqb hash)) ys) = text alt (map (fun e => dk alt (el_key (arc_val e)) ++ ": " ++ dv alt (el_value (arc_val e))) es) /\
    @faithful (map_config K V eqb hash) ls o es.
Proof. intros HC ls s ev o ys alt Hx Hw Hr. exists (map (@rr_val (map_config K V eqb hash)) ys). split; [apply conmap_text|]. by eapply iteration_faithful. Qed.
Print Assumptions C65_ConMap.

Theorem C65_CloneConMap (K V : Type) (eqb : K -> K -> bool) (hash : K -> N) (dk : bool -> K -> string) (dv : bool -> V -> string) : @ConfigOk (clone_config K V eqb hash) ->
  forall ls s ev o ys alt, @exec (clone_config K V eqb hash) ls s ev -> wf_calls ls -> ERet o (RIter ys) ∈ ev ->
  exists es : list (K * V), clonemap_fmt dk dv alt (map (@rr_val (clone_config K V eqb hash)) ys) = text alt (map (fun e => dk alt e.1 ++ ": " ++ dv alt e.2) es) /\
    @faithful (clone_config K V eqb hash) ls o es.
Proof. intros HC ls s ev o ys alt Hx Hw Hr. exists (map (@rr_val (clone_config K V eqb hash)) ys). split; [apply clonemap_text|]. by eapply iteration_faithful. Qed.
Print Assumptions C65_CloneConMap.

Theorem C65_ConSet (T : Type) (eqb : T -> T -> bool) (hash : T -> N) (dt : bool -> T -> string) : @ConfigOk (set_config T eqb hash) ->
  forall ls s ev o ys alt, @exec (set_config T eqb hash) ls s ev -> wf_calls ls -> ERet o (RIter ys) ∈ ev ->
  exists es : list T, conset_fmt dt alt (map (@rr_val (set_config T eqb hash)) ys) = text alt (map (dt alt) es) /\ @faithful (set_config T eqb hash) ls o es.
Proof. intros HC ls s ev o ys alt Hx Hw Hr. exists (map (@rr_val (set_config T eqb hash)) ys). split; [apply conset_text|]. by eapply iteration_faithful. Qed.
Print Assumptions C65_ConSet.

(** A container that is empty all the time is printed as [{}]; and if [{}] is printed, then every key was absent at some moment of the formatting (if it is a set whose elements do not
    print as nothing at all). *)
Section empty.
Context {C : Config} {HC : ConfigOk C}.
Lemma empty_text ls s ev o ys alt (f : Pl -> string) : exec ls s ev -> wf_calls ls -> ERet o (RIter ys) ∈ ev ->
  ((forall s1 k, during ls o OIter s1 -> absent s1 k) -> text alt (map f (map rr_val ys)) = "{}") /\
  ((forall x, f x <> "") -> text alt (map f (map rr_val ys)) = "{}" -> forall k, exists s1, during ls o OIter s1 /\ absent s1 k).
Proof.
  intros Hx Hw Hr. split.
  - intros Ha. destruct (map rr_val ys) as [|p l] eqn:E; [by destruct alt|]. exfalso.
    destruct (iteration_faithful _ _ _ _ _ Hx Hw Hr) as (_ & Hin & _). rewrite E in Hin. destruct (Hin p) as (s1 & Hd & Hm); [by left|]. exact (Ha s1 (keyof p) Hd p Hm).
  - intros Hne Ht k. assert (map rr_val ys = []) as Ey. { destruct (text_empty _ _ Ht) as [H|[_ H]]; destruct (map rr_val ys) as [|p l]; try done. simpl in H. injection H as H _. by apply Hne in H. }
    destruct (C22_every_key _ _ _ _ _ Hx Hw Hr) as [_ H]. destruct (H k) as (s1 & x & Hd & Hh & Hl). exists s1. split; [done|]. destruct x as [p|]; [|done]. exfalso.
    destruct Hl as [Hl _]. change (rr_val <$> ys) with (map rr_val ys) in Hl. rewrite Ey in Hl. by apply elem_of_nil in Hl.
Qed.
End empty.
Lemma entry_nonempty (a b : string) : a ++ ": " ++ b <> "".
Proof. by destruct a. Qed.

Theorem C65_empty_ConMap (K V : Type) (eqb : K -> K -> bool) (hash : K -> N) (dk : bool -> K -> string) (dv : bool -> V -> string) : @ConfigOk (map_config K V eqb hash) ->
  forall ls s ev o ys alt, @exec (map_config K V eqb hash) ls s ev -> wf_calls ls -> ERet o (RIter ys) ∈ ev ->
  ((forall s1 k, during ls o OIter s1 -> absent s1 k) -> conmap_fmt dk dv alt (map (@rr_val (map_config K V eqb hash)) ys) = "{}") /\
  (conmap_fmt dk dv alt (map (@rr_val (map_config K V eqb hash)) ys) = "{}" -> forall k : K, exists s1, during ls o OIter s1 /\ @absent (map_config K V eqb hash) s1 k).
Proof.
  intros HC ls s ev o ys alt Hx Hw Hr. rewrite conmap_text. destruct (empty_text (C:=map_config K V eqb hash) _ _ _ _ _ alt (fun n : arc (element K V) => entry_text dk dv alt (el_key (arc_val n)) (el_value (arc_val n))) Hx Hw Hr) as [H1 H2].
  split; [exact H1|]. apply H2. intros x. apply entry_nonempty.
Qed.
Print Assumptions C65_empty_ConMap.

Theorem C65_empty_CloneConMap (K V : Type) (eqb : K -> K -> bool) (hash : K -> N) (dk : bool -> K -> string) (dv : bool -> V -> string) : @ConfigOk (clone_config K V eqb hash) ->
  forall ls s ev o ys alt, @exec (clone_config K V eqb hash) ls s ev -> wf_calls ls -> ERet o (RIter ys) ∈ ev ->
  ((forall s1 k, during ls o OIter s1 -> absent s1 k) -> clonemap_fmt dk dv alt (map (@rr_val (clone_config K V eqb hash)) ys) = "{}") /\
  (clonemap_fmt dk dv alt (map (@rr_val (clone_config K V eqb hash)) ys) = "{}" -> forall k : K, exists s1, during ls o OIter s1 /\ @absent (clone_config K V eqb hash) s1 k).
Proof.
  intros HC ls s ev o ys alt Hx Hw Hr. rewrite clonemap_text. destruct (empty_text (C:=clone_config K V eqb hash) _ _ _ _ _ alt (fun n : K * V => entry_text dk dv alt n.1 n.2) Hx Hw Hr) as [H1 H2].
  split; [exact H1|]. apply H2. intros x. apply entry_nonempty.
Qed.
Print Assumptions C65_empty_CloneConMap.

Theorem C65_empty_ConSet (T : Type) (eqb : T -> T -> bool) (hash : T -> N) (dt : bool -> T -> string) : @ConfigOk (set_config T eqb hash) ->
  forall ls s ev o ys alt, @exec (set_config T eqb hash) ls s ev -> wf_calls ls -> ERet o (RIter ys) ∈ ev ->
  ((forall s1 k, during ls o OIter s1 -> absent s1 k) -> conset_fmt dt alt (map (@rr_val (set_config T eqb hash)) ys) = "{}") /\
  ((forall x, dt alt x <> "") -> conset_fmt dt alt (map (@rr_val (set_config T eqb hash)) ys) = "{}" -> forall k : T, exists s1, during ls o OIter s1 /\ @absent (set_config T eqb hash) s1 k).
Proof. intros HC ls s ev o ys alt Hx Hw Hr. rewrite conset_text. exact (empty_text (C:=set_config T eqb hash) _ _ _ _ _ alt (dt alt) Hx Hw Hr). Qed.
Print Assumptions C65_empty_ConSet.

(** ** Concrete cases: the map of C23_example, formatted (call 7) while others read it, and before that, call 5: the machine of Concrete.v is the CloneConMap of numbers. *)
Definition digit (n : N) : string := String (ascii_of_N (48 + n)) "".
Definition dnum (_ : bool) (n : N) : string := digit n.
Definition printed (alt : bool) (ev : list (@event CN)) (o : opid) : list string :=
  omap (fun e => match e with ERet o' (RIter ys) => if Pos.eqb o' o then Some (clonemap_fmt dnum dnum alt (map (@rr_val CN) ys)) else None | _ => None end) ev.
Example C65_example : CN = clone_config N N N.eqb (fun k => N.modulo k (2 ^ 64)) /\
  exec (schedule iquiet) (fin iquiet) (evs iquiet) /\ wf_calls (schedule iquiet) /\
  printed false (evs iquiet) 7%positive = ["{1: 1, 2: 5, 5: 3}"] /\
  printed true (evs iquiet) 7%positive = ["{" ++ nl ++ "    1: 1," ++ nl ++ "    2: 5," ++ nl ++ "    5: 3," ++ nl ++ "}"] /\
  (forall s1 o' op, during (schedule iquiet) 7%positive ite s1 -> in_progress s1 o' op -> is_reader op = true).
Proof.
  destruct C23_example as (Hx & Hw & _ & Hr). split; [reflexivity|]. split; [exact Hx|]. split; [exact Hw|].
  split; [vm_compute; reflexivity|]. split; [vm_compute; reflexivity|]. exact Hr.
Qed.

(** Nothing inserted: [{}].  A set of one text with a line break in it, printed with [{:#?}]. *)
Example C65_empty_example : text false [] = "{}" /\ text true [] = "{}" /\
  conset_fmt (fun _ (x : string) => x) true ["a" ++ nl ++ "b"] = "{" ++ nl ++ "    a" ++ nl ++ "    b," ++ nl ++ "}" /\
  conset_fmt (fun _ (x : string) => x) false ["hello"; "world"] = "{hello, world}".
Proof. repeat split. Qed.
