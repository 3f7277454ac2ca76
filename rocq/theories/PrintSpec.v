(** * Vocabulary for the properties of PrintShape.  Definitions only. *)
From Verif Require Import Model Spec Print.

Section printspec.
Context {C : Config}.
Implicit Types (s : state) (m : mem) (ls : list label) (o : opid) (pls : list plabel) (st : pstat) (out : list tok).

(** After the calls [ls] a thread starts to print (it pins the guard [o]); [pls] is the schedule from then on, which leads to state [s] of the map, and
    the printing to [st]. *)
Definition printing ls o pls s st : Prop :=
  exists s0 ev0 ev, exec (ls ++ [LInv o OIter]) s0 ev0 /\ prun o (s0, PStart) pls = Some (s, st, ev).

(** What has been written. *)
Definition written st : list tok := match st with PLoop _ out | PDone out => out | _ => [] end.
(** The elements that occur in it. *)
Definition elements out : list Pl := mjoin (omap (fun t => match t with TData it => Some it | _ => None end) out).
(** The number of loads the printing thread has done. *)
Definition loads pls : nat := length (List.filter (fun pl => match pl with PPrint => true | _ => false end) pls).
(** What the others do. *)
Definition sys pls : list label := omap (fun pl => match pl with PSys lb => Some lb | PPrint => None end) pls.
(** State [s] of the map occurs while the printing is going on. *)
Definition while_printing ls o pls s : Prop := exists n st, printing ls o (take n pls) s st.

(** The text for the subtree at pointer [v] in memory [m]. *)
Inductive shows m : sh -> list tok -> Prop :=
| shows_null v : sh_loc v = None -> shows m v [TPtr 0 (sh_cond v) (sh_data v)]
| shows_data v l a it : sh_loc v = Some l -> sh_data v = true -> m_heap m !! l = Some (HObj a (BData it)) ->
    shows m v [TPtr a (sh_cond v) true; TData it]
| shows_inner v l a sl txt : sh_loc v = Some l -> sh_data v = false -> m_heap m !! l = Some (HObj a (BInner sl)) ->
    shows_slots m 0 sl txt -> shows m v ([TPtr a (sh_cond v) false; TOpen] ++ txt ++ [TClose])
with shows_slots m : nat -> list sh -> list tok -> Prop :=
| slots_nil i : shows_slots m i [] []
| slots_cons i w ws t txt : shows m w t -> shows_slots m (S i) ws txt -> shows_slots m i (w :: ws) (TIdx i :: t ++ txt).

(** Texts that describe some trie: a null pointer, a data node, or an inner node with its sixteen slots in order. *)
Inductive shaped : list tok -> Prop :=
| shaped_null c d : shaped [TPtr 0 c d]
| shaped_data a c it : shaped [TPtr a c true; TData it]
| shaped_inner a c txt : shaped_upto 16 txt -> shaped ([TPtr a c false; TOpen] ++ txt ++ [TClose])
with shaped_upto : nat -> list tok -> Prop :=
| upto_0 : shaped_upto 0 []
| upto_S i txt t : shaped_upto i txt -> shaped t -> shaped_upto (S i) (txt ++ TIdx i :: t).
End printspec.
