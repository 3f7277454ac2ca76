(** * Vocabulary for the text of PrintShape: drawings of tries.  Definitions only. *)
From Coq Require Import String Ascii HexString.
From Verif Require Import Model.
Local Open Scope string_scope.

(** A trie as one sees it in the text: null pointers, data nodes with the texts of their elements, inner nodes with what is in their slots; addresses, and the flags of the pointers. *)
Inductive tree :=
| Null (cond data : bool)
| Leaf (a : N) (cond : bool) (els : list string)
| Node (a : N) (cond : bool) (subs : list tree).

(** Its text. *)
Definition flags (cond data : bool) : string :=
  match ((if cond then ["CONDEMNED"] else []) ++ (if data then ["DATA"] else []))%list with [] => "(empty)" | names => String.concat " | " names end.
Definition slot_labels : list string := [" 0:"; " 1:"; " 2:"; " 3:"; " 4:"; " 5:"; " 6:"; " 7:"; " 8:"; " 9:"; " A:"; " B:"; " C:"; " D:"; " E:"; " F:"].
Fixpoint draw (t : tree) : string :=
  match t with
  | Null c d => "0x0/" ++ flags c d
  | Leaf a c els => HexString.of_N a ++ "/" ++ flags c true ++ "[" ++ String.concat ", " els ++ "]"
  | Node a c subs => HexString.of_N a ++ "/" ++ flags c false ++ "(" ++ String.concat "" (zip_with String.append slot_labels (map draw subs)) ++ " )"
  end.

(** The texts of the elements, from left to right. *)
Fixpoint leaves (t : tree) : list string :=
  match t with Null _ _ => [] | Leaf _ _ els => els | Node _ _ subs => mjoin (map leaves subs) end.
(** All inner nodes have sixteen slots, and all elements have texts out of [P]. *)
Inductive complete (P : string -> Prop) : tree -> Prop :=
| complete_null c d : complete P (Null c d)
| complete_leaf a c els : Forall P els -> complete P (Leaf a c els)
| complete_node a c subs : length subs = 16 -> Forall (complete P) subs -> complete P (Node a c subs).

(** The texts of elements, [P], can be told from what follows them in a list: a comma or the closing bracket; and none of them is empty or begins with a closing bracket. *)
Definition ends (r : string) : Prop := exists c r', r = String c r' /\ (c = ","%char \/ c = "]"%char).
Definition separable (P : string -> Prop) : Prop :=
  (forall x y r1 r2, P x -> P y -> ends r1 -> ends r2 -> x ++ r1 = y ++ r2 -> x = y) /\
  (forall x, P x -> exists c x', x = String c x' /\ c <> "]"%char).

Section pictures.
Context {C : Config} (show : Pl -> string).
(** [t] is the trie that is in memory [m] at pointer [v]. *)
Inductive pictures (m : mem) : sh -> tree -> Prop :=
| pictures_null v : sh_loc v = None -> pictures m v (Null (sh_cond v) (sh_data v))
| pictures_data v l a it : sh_loc v = Some l -> sh_data v = true -> m_heap m !! l = Some (HObj a (BData it)) -> pictures m v (Leaf a (sh_cond v) (map show it))
| pictures_inner v l a sl ts : sh_loc v = Some l -> sh_data v = false -> m_heap m !! l = Some (HObj a (BInner sl)) -> Forall2 (pictures m) sl ts -> pictures m v (Node a (sh_cond v) ts).
End pictures.
