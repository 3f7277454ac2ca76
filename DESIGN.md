# Formal model of vorner/contrie in Rocq (Coq 8.16.1)

Contents: [what is modelled](#what-is-modelled), [what is not](#what-is-not-modelled-or-simplified),
[how to read the development](#how-to-read-the-development), [properties](#properties-what-is-proved-and-how),
[findings](#findings-about-the-code), [trusted base](#trusted-base), [tests against wrong programs](#tests-against-wrong-programs).

## What is modelled

### The machine (`Model.v`): `src/raw/mod.rs`, `src/raw/iterator.rs`, `src/existing_or_new.rs`

One executable small-step machine models the code function by function, at the granularity of single atomic memory
accesses (`load`, `compare_and_set(_weak)`, `fetch_or`); the local code between two accesses is executed with the access
before it.  A machine state holds

* the root cell and a heap of nodes (inner nodes: 16 tagged pointers; data nodes: list of payloads), each with a
  *physical address* picked by an adversarial allocator that may reuse the address of a freed node at once
  (compare-and-sets compare addresses and tags, so ABA is possible in principle);
* the deferred destructions registered with the epoch collector (node, type it is destroyed as, guards alive at that
  time), the log of what has been freed as what, the log of nodes dropped without having been published;
* a pool of calls, each under its own guard, each at a program point of `traverse`, `prune`, `get`, `remove`, `is_empty`,
  `Iter::next`.

A transition is chosen by a label: a call starts (`LInv`), a call does its next atomic access (`LStep`; the label also says
whether a weak compare-and-set fails spuriously and which address the allocator returns), a guard is dropped (`LUnpin`),
a call unwinds at an arbitrary point (`LAbort`: a panic in `Eq`/`Hash`/`Clone`/closure code of the user, or an iterator
dropped early), the collector runs any one eligible destruction (`LFree`), the map is dropped (`LDrop`).
A call that is never scheduled again models a stopped thread.

Panics (`assert!`, `expect`, `unwrap`, index, `ArrayVec::push`, shift overflow) and undefined behaviour (dereferencing a
freed node or a node as the wrong type, freeing twice) are explicit outcomes of the machine, so "never happens" is a theorem.

| code | model |
|------|-------|
| mod.rs `load_data`, `owned_data`, `drop_data` (225-251) | `load_data`, tags in `TCas`/`RCas`, `drop_data_kind` |
| mod.rs `TraverseState`, `TraverseMode` (272-314) | `tstate`, `ts_key`, `ts_payload`, `tmode` |
| mod.rs `insert`, `get_or_insert_with`, `traverse` (391-409, 509-705) | `op_init`, `TLoad`, `TCas`, `t_finish` |
| mod.rs `prune` (411-507) | `prune_start`, `PMark`, `prune_decide`, `PCas`, `prune_return` |
| mod.rs `get` (656-682), `is_empty` (833-843) | `GLoad`, `ELoad` |
| mod.rs `remove` (707-829) | `RLoad`, `RCas`, `rem_up`, `RCount` |
| mod.rs `Drop for Raw` (851-881) | `drop_rec`, `LDrop` |
| iterator.rs `Iter::new`, `Iter::next` | `INew`, `INext` |
| debug.rs `assert_pruned` | `Debug.v`: `handle_ptr`, `assert_pruned` |
| debug.rs `PrintShape`, `print_shape`, `print_shape_ptr` (65-115) | `Print.v`: `print_ptr`, `print_step`, next to the machine; on weak memory: `WPrint.v`; its text: `PrintFmt.v` |
| map.rs, clonemap.rs, set.rs (every method, `extend`, `from_iter`, `clone`, iterators) | `Api.v`: `map_raw`, `clone_raw`, `set_raw`, `map_extend`, ... as calls to the machine |
| existing_or_new.rs | `eon`, `eon_inner`, `eon_map`, `eon_is_new` |
| the memory orderings of all accesses | `Weak.v`: the same `op_step` on weakly ordered memory |
| the type definitions of the crate (which fields they have) | `Traits.v`: `needs`, and the rule for auto traits |
| the lifetimes in the signatures of `Raw` and `raw::iterator::Iter` | `Borrow.v`: `sig_of`, and the rule of the borrow checker for straight-line programs |
| which thread does what; which collector a guard is of | `Threads.v`, `Collectors.v`: the machine of `Model.v`, with steps done by threads, resp. guards of several collectors |
| every place where user code (`Eq`, `Hash`, `Borrow`, `Clone`, closures) is asked something | `Wild.v`: `oracle`, `wop_step`: the machine of `Model.v` with arbitrary answers, anew each time |
| a closure of `get_or_insert_with` that runs for a while, calls the map and returns what it likes (mod.rs:296-301, from 583, 631) | `Reenter.v`: `dstep`: the machine of `Model.v`; a call whose closure runs takes no steps until `DReturn` |
| `Debug` for the containers (map.rs:327-344, clonemap.rs:263-271, set.rs:153-160) | `Fmt.v`: `conmap_fmt`, `clonemap_fmt`, `conset_fmt`, and the builders of core::fmt they use |
| `Arc<Element>` handles: clone and drop of payloads in `TraverseState` (mod.rs:290-302), `cloned()` and SmallVec in leaves (582, 624-632, 763-775), callers' `Arc::clone` under a guard | `Arcs.v`: the machine of `Model.v` with a strong count per element; every clone, drop and read of an element is an effect on the counts |

Every definition carries a comment with the file and the lines.

### The second machine (`Weak.v`): weakly ordered memory

The code of the operations is the very `op_step` of `Model.v`; cells keep every value ever written together with the view
the writer published; loads return any of them, however old; initialisation of a node is visible only through
release/acquire or release/consume edges, as the ordering arguments in the code say.  Looking into a node whose
initialisation is not visible is undefined behaviour.

`WeakCoh.v` adds coherence: a load does not return a value of a cell older than one read or written by the same call earlier, or by a call that
happens before it.  Which calls happen before a call is given when it starts (the earlier call of the same thread; calls whose return was communicated
outside the map).  That this covers C11 without load buffering is a theorem (C57, see `Rc11.v` below): after initialisation, cells are only written by read-modify-writes, so in an execution that has no cycle in
(program order and reads-from) the order of the writes is the modification order; the coherence axioms then are exactly the floors kept in `c_fl`, with happens-before restricted to the edges between calls.  Edges through the map itself
(acquire loads) would only exclude executions, so ignoring them makes the theorems stronger.

`WeakFree.v` adds reclamation to that: guards, registered destructions (the `defer_destroy` calls), the frees, the destructor of the map, calls broken off
anywhere, and an allocator that may use an address again as soon as it is free.  Following a pointer to a freed node is undefined behaviour, and pointers are compared by
address.  crossbeam-epoch is its contract: when a destruction runs, every guard that is alive was created by a thread that is synchronised with the
registration, i.e. the registration happens before the creation of the guard; so the call does not read values older than those the registering call had seen by then
(`f_floor`).  Which registrations a new guard is synchronised with is arbitrary, except that those already run are among them.

`Rc11.v` has neither floors nor newest values: an execution is a graph of events (in some order compatible with program order and reads-from; it exists by the axiom that forbids
load buffering); each access names the write it reads from, which may be any write to that cell, also for read-modify-writes; and `consistent` is
the list of axioms of RC11 (modification order total per cell; coherence: happens-before followed by the extended coherence order is irreflexive; atomicity).  Happens-before is any
transitive relation with program order, the edges the callers provide and those of crossbeam-epoch.  (The definition of RC11 has happens-before be the least such relation with the edges of release writes to acquire reads;
graphs that are consistent in that sense are in particular consistent in ours.)  Whether the initialisation of a node is visible is decided by the views of `Weak.v`, as above.

`Plain.v` has no views either.  Steps work on the nodes as they are, initialised or not; and the happens-before relation of the C11 standard is defined from the steps of an execution: sequenced-before, release sequences, synchronizes-with,
carries-a-dependency-to, dependency-ordered-before (with its restriction that sequenced-before does not extend it), inter-thread-happens-before.  That everything a step looks at, and everything the caller can read through
the references he gets, was initialised before in this sense is a theorem (C62), and so is that the executions are the same as with views (`C62_same_executions`).  So the views of `Weak.v` are not part of what has to be believed for C57-C61.
What a step looks into is not listed but defined: a node whose contents matter for what the call does next or returns.  Where a call has a pointer from is any load of that pointer by the same call before (`from_ok`).

## What is not modelled, or simplified

* The query type `Q` of `Key: Borrow<Q>` is identified with `Key` (`Borrow`'s contract).  `Eq` is any boolean equivalence
  relation, `Hash`/`BuildHasher` any function to 64 bits that respects it (class `ConfigOk`); payload and key types are arbitrary.
  What holds of user code without these contracts is C54 (`Wild.v`).
* `Payload::clone()` returns an equal payload (but for C54); `Arc` reference counts are not counted except in `Arcs.v` (C56); elsewhere an `Arc` is an identity and a value (`Api.v`).
* User code has no effects other than its result, or a panic (`LAbort`), or being slow (not scheduled).  That a closure may also call the map while its own call
  waits for it, and return what depends on what it found, is C64 (`Reenter.v`); everywhere else the closure is a function.
* crossbeam-epoch is its contract: a deferred destruction does not run while a guard that was alive when it was
  registered is alive; it runs at most once.  Every call has its own guard; a guard shared by several calls is a guard dropped later.
* The main machine interleaves accesses sequentially consistently.  C38, C41-C49, C57-C63, C66 and C67 are about weaker memory; these machines have
  no load buffering (as RC11; the models that have it, the promising semantics, ARMv8 and POWER, have it for relaxed writes only, and every write of the
  code to a shared cell is a release read-modify-write), and reclamation, destructor and broken-off calls only for C46-C49, C57-C63 and C67.
* rayon's parallel `extend`/`from_par_iter` (src/*.rs, feature `rayon`) is any interleaving of inserts (C32); its scheduler is not modelled.
* Not modelled: which hasher `new`, `default` and `with_hasher` choose (they make the empty map, `init`), `hash_builder()`; the traits derived for `Element` and `ExistingOrNew`; errors of the place a text is
  written to (`Fmt.v`, `PrintFmt.v`: the text that is written if there are none; an error ends it early: C68_grows).
* Of rustc, only the rule for auto traits and the rule for borrows in straight-line programs with variables assigned once (C39).
* C50: a deferred destruction is run by any thread (that is what crossbeam-epoch documents).  C51: other collectors than the default one, for callers of `Raw`; everywhere else all guards are of one collector.
* `drop_rec` and `handle_ptr` have fuel 18, more than the depth 17 that C37 shows to be the maximum; running out would be reported as failure.

## How to read the development

* `Model.v`, `Debug.v`, `Print.v`, `Api.v`, `Weak.v`, `Wild.v`, `Arcs.v`, `Reenter.v`, `Fmt.v`, `WPrint.v`, `PrintFmt.v`: the model.
* `Spec.v`, `LinSpec.v`, `IterSpec.v`, `SeqSpec.v`, `ProgSpec.v`, `ApiSpec.v`, `WeakCoh.v`, `WeakFree.v`, `Rc11.v`, `Plain.v`, `PrintFmtSpec.v`, `InterSpec.v`: the vocabulary of the statements.  They do not use the
  model's helper functions, only its state, labels and events.
* `PropSafety.v`, `PropLin.v`, `PropIter.v`, `PropSeq.v`, `PropLock.v`, `PropApi.v`, `PropWeak.v`, `PropCoh.v`, `PropFree.v`, `PropRc11.v`, `PropPlain.v`, `PropPlainNeed.v`, `PropReenter.v`, `PropFmt.v`, `PropWPrint.v`, `PropPrintFmt.v`, `PropInter.v`, `PropHand.v`, `PropJoin.v`, `Refuted.v`: the theorems `Cnn_...`, each
  followed by `Print Assumptions`, and examples that meet their hypotheses (`Concrete.v`: keys are numbers, the hash is the key modulo 2^64;
  schedules are found by running a script with `vm_compute` and then checked by the kernel).
* All other files are proofs.

Proof architecture:

1. `Mem.v`, `Inv.v`, `Safe*.v`: the structural invariant of every reachable state: `minv` (positions of inner nodes in the trie, every pointer is at
   the position its keys' hashes say, condemned cells never change, retired nodes are fully condemned, live nodes are linked exactly once), protection by
   guards (`esafe`), and a well-formedness predicate for every program point (`pc_ok`).  The class `Flavor` says how much user code is trusted: the
   same invariant serves `Model.v` and, weakened at the places where keys are compared, `Wild.v`.
2. `Sem.v`, `SemOps.v`, `SysSem.v`, `Look.v`: what each kind of transition does to the abstract contents.
3. `Lin*.v`: the hindsight argument ("the cell I hold leads to what the map held at some instant since I was called") and the
   construction of the Herlihy-Wing order.
4. `Iter*.v`: the invariant of the iterator's stack.  `Prog.v`, `Count.v`, `LiveStep.v`, `Lock*.v`: measures for termination and lock freedom.
5. `Seq*.v`, `Prune*.v`, `Shape.v`: shape of the trie: invariant "every branch that is not about to be cleaned up by the removal in progress has two elements below".
6. `Weak*.v`: invariant on views; for C41, the history of all values of all cells (`timeline`) and walks through it.
7. `Free*.v`: every execution with reclamation is simulated by one that never frees (`bm`: same memory, every node at its own address); the invariant says that a call never
   meets a node whose registration it is synchronised with (`not_retired`: its walk is through newer values than the walk to the place where the node was replaced).

## Properties: what is proved and how

The statements in English are in `properties.jsonl`, the theorem names in `MANIFEST.json`.

| id | status | how |
|----|--------|-----|
| C01 | proved | linearization of every execution; also per container (`C01_ConMap`, `C01_CloneConMap`; ConSet: C33) |
| C02 | proved | sequential histories are exactly those of a plain map, including is_empty and iteration; also for a sequential phase after a concurrent one |
| C03, C04, C05, C16, C35 | proved | the instant of effect, in terms of states before and after one transition of the call |
| C06 | proved | invariant on closure-call events |
| C07 | proved | two maps that differ only in the hash function (`rehash`), same calls, same results |
| C08, C09, C10, C11, C12, C14, C15 | proved | consequences of the structural invariant |
| C13 | **false**; partial | `C13_refuted`: no element in the map when it is dropped is ever destroyed; `C13_displaced_destroyed_partial`: those removed or replaced before are, exactly once |
| C17 | proved | sequential is_empty is exact |
| C18 | **false**; partial | `C18_refuted` (three overlapping removals); exact if no two removals overlapped and no modifying call was broken off |
| C19 | proved | more general than claimed: only removals must not overlap each other |
| C20 | **false**; partial | `C20_refuted` (two overlapping removals), `C20_refuted_panic` (one thread, a closure that panics after a split); true if no two removals overlapped and no modifying call was broken off |
| C21, C22, C23, C31 | proved | invariant of iteration; clone = iteration + extend |
| C24, C25, C26, C27 | proved | measures; explicit bounds for finite executions, and infinite executions |
| C28 | proved | no step of a reader changes the memory |
| C29 | proved | with `LAbort` at any point the linearization of the whole history either contains the call or not |
| C30, C32, C33, C34 | proved | corollaries for extend and the containers |
| C36 | **false** for closures that make an element with another key; partial | `C36_refuted`; `C36_new_is_found_partial` for the others |
| C37 | proved | structural invariant |
| C38 | proved | weak machine: no uninitialised node is looked at, whoever gets an element sees it; `C38_needed`: each ordering is necessary |
| C39 | proved | `TraitFacts.v`: Send/Sync by unfolding the (coinductive) rule; `BorrowFacts.v`: an accepted program never uses what is gone, because whatever is needed is borrowed |
| C40 | proved | by cases |
| C41 | proved | `Weak{Walk,Fun,Write,Time,Iter,Base,Lin}.v`: readers follow a chain of old values ("walk"); the walk of a later call through values at least as new ends at a value held at a later instant (`walk_mono`), so readers can be inserted into the order of the writes |
| C42 | proved | the structural invariant holds for every step that reads old values |
| C43 | proved | corollary of C41 |
| C44 | proved | a concrete execution, and no order explains it |
| C45 | proved | `WeakIter.v`: for every key the iterator's stack either still is on the walk to that key, or has decided its lookup (`istat`); C41's order contains these lookups |
| C46-C49 | proved | `Free*.v`: simulation by the machine without frees, and an invariant on the pointers held by calls whose guard is alive |
| C50 | **false**: another thread may run the destructor of a retired element, and ConSet/CloneConMap are Sync without Send elements; partial | `C50_refuted_foreign_thread`, `C50_refuted_sync`; `C50_stays_on_thread_partial`: everything else is done by the owner; `C50_not_shared_partial` |
| C51 | **false** for guards of different collectors; partial | `C51_refuted`; `C51_one_collector_partial`: with guards of one collector it is the machine of `Model.v` |
| C52 | **false**: nodes that lose a compare-and-set are thrown away without destroying the copies in them; partial | `C52_refuted`, `C52_refuted_race`; `C52_published_partial`, `C52_single_copy_partial`: all other copies; `C52_undisturbed_partial`: the claim, if updates do not overlap and no weak compare-and-set fails spuriously |
| C53 | proved | `PrintSim.v`: the printing is an iteration in disguise (simulation), so C21, C22, C25 carry over; the form of the text is an invariant of its own |
| C54 | proved | `WildSafe.v`: the structural invariant, without the clauses about keys and hashes, is kept whatever the comparisons, hashes and clones say |
| C55 | proved | `PropSpace.v`: under the hypotheses of C18's positive part every branching node has two elements below it; those on one level have disjoint sets of elements; there are 16 levels.  `C55_needs_alone`: with overlapping removals it is false |
| C56 | proved | `PropArcs.v`: invariant: the strong count of every element is the number of handles of it (with callers, in leaves, in calls in progress, leaked); every effect of every step keeps it, and never meets a count of 0.  `C56_needs_undisturbed`, `C56_drop_leaks`: the leaks are real.  `C56_covers`: every execution of the map is the base of one with counters |
| C57 | proved | `Rc11Sim.v`: the axioms imply that a read-modify-write reads the newest value and a load nothing older than the floor, so every consistent graph is an execution of `WeakFree.v` (simulation along the list of events); `Rc11Conv.v`: every execution of `WeakCoh.v` is a consistent graph.  `C57_exact`: callers can see exactly the same.  Examples: a graph with an outdated read; one in which nodes are freed, an address is used again and the map is dropped |
| C58 | proved | `WeakLag.v`, `WeakLock.v`, `WeakLockSys.v`: the potential of C27 (`Lock.v`) plus, for every call, 200 times the number of changes of cells it has not yet seen (`lag`).  What a call remembers of a cell is what it saw last, so a compare-and-set that fails for good either meets a newer value (the lag shrinks) or was spurious; `WeakLockRun.v` carries this over to the machine that frees nodes; `WeakLockEnd.v`: a step reading the newest value is always possible; infinite executions.  Examples: a call that has read the old null root while another one is in the middle of a remove; an endless sequence of inserts |
| C59 | proved | `WeakCount.v`: the measures of C24 and C25 (levels left above the bottom; cells left to visit, weighted by the size of a full subtree) do not depend on which value a load returns, as every value a cell ever had fits its place in the trie; the induction runs over the machine that frees nodes (`FreeRun.v`).  Examples: a get of 17 steps beside one that reads the initial root and ends after 1; an endless stream of arriving inserts beside an iteration |
| C60 | proved | `PropWRace.v`, from the order of the calls on each key (C57) and the shapes of calls (`WeakShape.v`: a call's result fits the call, its closure runs at most once).  The order is a plain list of calls on a plain map; who takes an element out is assigned the last call before it that changed the key.  Example: two racing get_or_insert_with, then a remove and an insert that each take out the element of the other |
| C61 | proved | `WApiSpec.v` (what an order of the calls on one key is, for each container), `PropWApi.v`: the order of C57 translated call by call into calls of the container's methods (as for C01 and C33); extend, from_iter and clone from C43, C45 and C60.  Examples: a ConMap with colliding keys and an iteration that reads the initial root; a list inserted into one map and its iteration into another |
| C62 | proved | `Plain.v` (machine without views, C11 happens-before), `PlainInv.v` (a call uses only pointers it has loaded or made), `PlainLook.v` (noninterference: the outcome of a step does not depend on other nodes), `PlainRel.v` (induction on the list of steps: the initialisation happens before each load of a pointer to the node, by a chain that dependencies extend), `PlainSim.v` (simulation with `Rc11.v` in both directions, using C57).  Happens-before is shown to have no cycles. Examples: a graph with an outdated read, and one with reclamation in which nodes of other calls are accessed, looked into and handed out. |
| C63 | proved | `PropPlainNeed.v`: for each ordering weakened, an execution (found by `vm_compute`, checked against the axioms), a use of a node in it, and a set of events that contains the initialisation, is closed under happens-before (all rules, release sequences included) and does not contain the use; so there is a race whichever loads the pointers come from.  The release part of fetch_or is C66. |
| C64 | proved | `Reenter.v` (closures that take their time; definitions only), `ReenterSim.v` (with hindsight, i.e. with the closure that was passed replaced by the constant function of what it returned, every such execution is an execution of `Model.v`, step by step; and back, for a call that runs alone), `PropReenter.v`: C01, C05/C06, C08-C10, C24, C26 carried over, and what is particular to such closures: New only if the key is still absent after the closure has returned.  Example: a closure that looks up and inserts its own key; a closure whose result depends on a lookup it made |
| C65 | proved | `Fmt.v` (the builders, character by character: separators, `PadAdapter`), `PropFmt.v`: what the builders write equals a text defined without them (`commas`, `lines`), and the list it is the text of is what C21-C23 say of iterations |
| C66 | proved | `WeakRS.v`: the machine of `Weak.v` where a read-modify-write that does not release passes on the view of the value it replaces; the invariant of C38 (a value's pointer is in the view of the value, or the slot was initialised with it) is kept by such a fetch_or, which changes only the tag; `PropRS.v`: the theorem, an execution that depends on it, and executions for what fails otherwise.  This is about views, i.e. dependencies that are not lost when another thread replaces a value by itself with a tag.  By the letter of C11 (`Plain.v`), where a dependency followed by program order is no happens-before, it is not decided |
| C67 | proved | `WPrint.v`: the printing of `Print.v` with loads that return old values, next to the machine of `WeakFree.v`; `WPrintSim.v`: it is simulated by an iteration, so C45, C46, C58, C59 carry over; that a relaxed load does not do: an execution |
| C68 | proved | `PrintFmt.v`: the `write!`s of PrintShape as strings (addresses by `HexString` of the standard library, flags as bitflags 1.x prints them, the list builder of `Fmt.v`); `PrintFmtSpec.v`: drawings of tries, defined without it; `PropPrintFmt.v`: what is written is a drawing (from C53, C67), and drawings can be read back (induction on the trie) |
| C69 | proved | `InterSpec.v`: same moves of `Model.v` and `WeakFree.v`; `InterSim.v`: every step of an interleaving is a step of the weak machine that reads the newest value (`step_newest`: it reads it, or faults, which C46 excludes), every deferred destruction has a number (`rel`); `InterExact.v`: the other direction, for executions that only see newest values (`rel2`); `C69_more`: a history of the weak machine that no interleaving has (by C01) |
| C70 | proved | `InterSpec.v`: `handed_over`; `InterSeq.v`: invariant `seqi` along executions of `WeakFree.v`: the last call that was made has seen the newest value of every cell (its floor in `WeakCoh.v` is there; a new call takes over the floors of the calls it is known to come after), and it is the only one that runs; so only newest values are read (`seqi_run`), the execution is an interleaving (C69, with the states on the way), it is `sequential`, and C02 applies. `C70_must_know`: without knowledge of the call before, the same calls can return something else |
| C71 | proved | `JoinSpec.v`: `turn` (one call on what is stored under one key), `turns`, `in_turn`; `PropJoin.v`: from the order of the calls about the key that C57 gives: the calls in turn are in it in their order, between them nothing else modifies the key (`chain_run`, by induction on the calls), what is stored before the first was put in by an entry before it (`list_source`) |

## Findings about the code

1. `drop_data` (mod.rs:244-251) drops `ptr.into_owned()` at type `Owned<Inner>`: a data node is deallocated with the layout of an inner node and
   the destructors of its elements do not run.  This hits every element in a map that is dropped and every replacement node that loses a race (C13).
2. Three overlapping removals can leave the empty map with a branching node of nothing in the root: `is_empty()` stays false for good (C18).
3. Two overlapping removals, or one panicking closure after a split, leave a branch with a single element: `assert_pruned` (debug.rs) panics although nobody
   modifies the map (C20).
4. `get_or_insert_with(_element)` stores the closure's element under the requested key's hash even if its own key differs; it can then not be found (C36).
5. The commit does not look as if it type-checked (`TraverseState` is declared with three and used with four parameters; the closure of
   `get_or_insert_with_element` gets a `K` where `&Q` is available).  The model follows what the code evidently means.
6. The two loads that only test for null (mod.rs:808, 840) may be relaxed, as they are; every other ordering is necessary (C38, C63), except that the fetch_or (445) can do without its release part, i.e. `Acquire` instead of `AcqRel` is enough, if one relies on release sequences (C66; by views, see there).
7. A map of elements that are not Send (ConMap<usize, Rc<usize>>, allowed and tested in clonemap.rs) hands replaced and removed elements to crossbeam-epoch, which may run their destructors on any thread, also if
   only one thread ever uses the map.  (`Guard::defer_destroy` demands Send elements.)  And ConSet and CloneConMap are Sync if their elements are, although
   sharing them also moves elements between threads (C50).
8. The methods of `Raw` accept guards of any collector; with guards of two collectors safe code can reach a use after free (C51).
9. Because of 1., even a single thread that inserts and removes leaks a clone of the element whenever a weak compare-and-set fails spuriously (C52): on ConMap the Arc never
   gets back to count one.
10. An `Eq` that answers differently when asked twice makes `insert` put two elements into a node above the deepest level (mod.rs:594 and 625 ask separately); a later
   `insert` then panics with "Collision node not deep enough" (mod.rs:595).  It is the only internal assertion that user code can trip, and memory stays safe (C54).

## Trusted base

* Coq's kernel (8.16.1, including `vm_compute`, which the concrete examples use).
* Axioms: none.  `Print Assumptions` answers "Closed under the global context" for every theorem listed in `MANIFEST.json`.
  (std++ and Iris load ssreflect, whose module `Coq.ssr.ssrunder` declares seven parameters — `Under_rel.Under_rel`, `Under_rel_from_rel`, `Under_relE`,
  `Over_rel`, `over_rel`, `over_rel_done`, `under_rel_done`; a listing of the whole environment shows them, no theorem depends on them.)
* The reading of the Rust code: that `Model.v`, `Debug.v`, `Api.v` and the list of orderings in `Weak.v` say what the cited lines do.
* The contracts listed under "not modelled": crossbeam-epoch, `Eq`/`Hash`/`Borrow`/`Clone` (except C54), sequential consistency (except C38, C41-C49, C57-C63).
* That the vocabulary files say what the English says.

No axiom, parameter, functor or module type of our own, no `Admitted`, no switched-off kernel check.

## Tests against wrong programs

`seeded/LOG.jsonl` has one line per edit of the model (in a copy).  The edits are of the kind realistic bugs are: a wrong boundary, a missed case,
a dropped update, a swapped argument, a wrong kind, a missing retirement.  In the copy every proof that breaks is replaced by an admission for the rest of the build, so that
`theorems failed` lists all the theorems that then depend on an admission, and the others still hold of the wrong program.  Each of these has been looked at:
its English claim is still true of that wrong program.
