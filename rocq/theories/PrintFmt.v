(** * Model of the text PrintShape writes (src/raw/debug.rs:65-96): the formatting of what Print.v says is written.  Definitions only.

    Each [write!] makes its own formatter options, so the flags PrintShape itself is formatted with play no role: [{:?}] is never the alternate form here.
    Simplification: the place the text is written to does not fail (if it does, [?] ends the printing, with a part of the text written: see C68_grows). *)
From Coq Require Import String Ascii HexString.
From Verif Require Import Model Print Fmt.
Local Open Scope string_scope.

(** [{:?}] of a raw pointer (71): core::fmt::Pointer without flags: [0x] and the address in lower-case hexadecimal digits, not padded.  This is [HexString.of_N] of the standard library. *)
Definition addr_text (a : N) : string := HexString.of_N a.

(** [{:?}] of NodeFlags (71; mod.rs:193-218), as bitflags 1.x derives it: the names of the flags that are set, in the order of their declaration, separated by [ | ]; [(empty)] if there are none. *)
Definition flags_text (cond data : bool) : string :=
  match cond, data with
  | false, false => "(empty)"
  | true, false => "CONDEMNED"
  | false, true => "DATA"
  | true, true => "CONDEMNED | DATA"
  end.

(** [{:X}] of a slot number (82), which is below 16. *)
Definition idx_text (i : nat) : string := match String.get i "0123456789ABCDEF" with Some c => String c "" | None => "" end.

(** [{:?}] of a SmallVec (77): [f.debug_list().entries(self.iter()).finish()], that is, the builder of Fmt.v between brackets. *)
Definition list_text {A} (show : A -> string) (l : list A) : string := b_out (foldl (fun b x => set_entry false b (show x)) (Builder "[" false) l) ++ "]".

Section fmt.
Context {C : Config} (show : Pl -> string).   (* [show]: the Debug implementation of the payload, [{:?}] *)

(** The [write!]s of debug.rs: 71, 77, 80, 82, 85. *)
Definition tok_text (t : tok) : string :=
  match t with
  | TPtr a c d => addr_text a ++ "/" ++ flags_text c d
  | TData it => list_text show it
  | TOpen => "("
  | TIdx i => " " ++ idx_text i ++ ":"
  | TClose => " )"
  end.
Fixpoint shape_text (out : list tok) : string := match out with [] => "" | t :: out => tok_text t ++ shape_text out end.
End fmt.
