(** * Model of the [Debug] implementations of the containers: what [{:?}] and [{:#?}] print.  Definitions only.

    They go through an iteration of the container and hand the elements to the builders of the standard library (core::fmt::builders), which are modelled here as what they write.
    Texts are strings of bytes.  [alt]: the alternate flag, [{:#?}].  Simplification: the place the text is written to does not fail. *)
From Coq Require Import String Ascii.
From Verif Require Import Model Api.
Local Open Scope string_scope.

Definition newline : ascii := "010"%char.
Definition nl : string := String newline "".

(** core::fmt::builders::PadAdapter: inserts four spaces at the start of each line.  [b]: at the start of a line.  What is written for [s], and where it ends. *)
Fixpoint pad (b : bool) (s : string) : string * bool :=
  match s with
  | "" => ("", b)
  | String c s => let r := pad (Ascii.eqb c newline) s in ((if b then "    " else "") ++ String c r.1, r.2)
  end.

(** A builder: what has been written, and whether there was an entry. *)
Record builder := Builder { b_out : string; b_has : bool }.

(** [Formatter::debug_set], [DebugSet::entry] (core::fmt::builders::DebugInner::entry_with), [DebugSet::finish]. *)
Definition debug_new : builder := Builder "{" false.
Definition set_entry (alt : bool) (b : builder) (e : string) : builder :=
  if alt then Builder (b_out b ++ (if b_has b then "" else nl) ++ (let r := pad true e in r.1 ++ (pad r.2 ("," ++ nl)).1)) true
  else Builder (b_out b ++ (if b_has b then ", " else "") ++ e) true.
Definition debug_finish (b : builder) : string := b_out b ++ "}".

(** [DebugMap::entry]: [key], then [value]; one PadAdapter for both. *)
Definition map_entry (alt : bool) (b : builder) (k v : string) : builder :=
  if alt then
    let rk := pad true k in let rc := pad rk.2 ": " in let rv := pad rc.2 v in
    Builder (b_out b ++ (if b_has b then "" else nl) ++ rk.1 ++ rc.1 ++ rv.1 ++ (pad rv.2 ("," ++ nl)).1) true
  else Builder (b_out b ++ (if b_has b then ", " else "") ++ k ++ ": " ++ v) true.

(** [Debug for ConMap], map.rs:327-344: [dk], [dv] are the [Debug] implementations of keys and values (with or without the alternate flag); [yielded]: what the iteration yields. *)
Definition conmap_fmt {K V} (dk : bool -> K -> string) (dv : bool -> V -> string) (alt : bool) (yielded : list (arc (element K V))) : string :=
  debug_finish (foldl (fun d n => map_entry alt d (dk alt (el_key (arc_val n))) (dv alt (el_value (arc_val n)))) debug_new yielded).
(** [Debug for CloneConMap], clonemap.rs:263-271. *)
Definition clonemap_fmt {K V} (dk : bool -> K -> string) (dv : bool -> V -> string) (alt : bool) (yielded : list (K * V)) : string :=
  debug_finish (foldl (fun d n => map_entry alt d (dk alt n.1) (dv alt n.2)) debug_new yielded).
(** [Debug for ConSet], set.rs:153-160. *)
Definition conset_fmt {T} (dt : bool -> T -> string) (alt : bool) (yielded : list T) : string :=
  debug_finish (foldl (fun d x => set_entry alt d (dt alt x)) debug_new yielded).
