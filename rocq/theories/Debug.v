(** * Model of the self-check of the trie (src/raw/debug.rs).  Definitions only. *)
From Verif Require Import Model.

Section debug.
Context {C : Config}.

(** The loop over the slots in [check_node], debug.rs:51-55; [f] is [handle_ptr]. *)
Fixpoint check_slots (f : sh -> option (nat * bool)) (ws : list sh) : option (nat * bool) :=
  match ws with
  | [] => Some (0, false)
  | w :: ws => match f w, check_slots f ws with
               | Some (n, b), Some (n', b') => Some (n + n', b || b')
               | _, _ => None
               end
  end.

(** [handle_ptr] and [check_node], debug.rs:27-63.  The two [&mut] parameters become the result: the number of elements and whether an
    inner node was seen; [None]: an assertion failed (or the fuel, greater than the greatest possible depth, ran out). *)
Fixpoint handle_ptr (fuel : nat) (m : mem) (v : sh) : option (nat * bool) :=
  match fuel with
  | 0 => None
  | S fuel =>
    if sh_cond v then None                                            (* 36 *)
    else match sh_loc v with
    | None => Some (0, false)                                         (* 38-39 *)
    | Some l =>
      if sh_data v then                                               (* 40-43 *)
        match load_data m v with inr (p :: it) => Some (length (p :: it), false) | _ => None end
      else match deref m l with                                       (* 44-48 *)
      | Some (BInner sl) =>
        match check_slots (handle_ptr fuel m) sl with                 (* 50-55: check_node *)
        | Some (n, b) => if (1 <? n) || b then Some (0, true) else None   (* 57-60 *)
        | None => None
        end
      | _ => None
      end
    end
  end.

(** [assert_pruned], debug.rs:26-66; [true]: it does not panic. *)
Definition assert_pruned (m : mem) : bool :=
  match handle_ptr (MAX_LEVELS + 2) m (m_root m) with Some _ => true | None => false end.
End debug.
