{
 "claims": [
  {
   "property": "C01",
   "status": "proved",
   "theorems": [
    "C01_linearizable",
    "C01_ConMap",
    "C01_CloneConMap"
   ],
   "note": "Herlihy-Wing linearizability of every execution (any number of calls, any interleaving, spurious CAS failures, abandoned calls); is_empty()==false is left unconstrained as the property says"
  },
  {
   "property": "C02",
   "status": "proved",
   "theorems": [
    "C02_like_a_plain_map",
    "C02_after_concurrency"
   ],
   "note": "Calls that do not overlap (any interleaving with the collector): the whole history of returned calls is exactly that of a plain map (including is_empty and iteration), and the contents agree. Closures passed to get_or_insert must make an element with the requested key (wf_calls); C36_refuted shows why."
  },
  {
   "property": "C03",
   "status": "proved",
   "theorems": [
    "C03_insert"
   ],
   "note": ""
  },
  {
   "property": "C04",
   "status": "proved",
   "theorems": [
    "C04_remove",
    "C04_taken_once"
   ],
   "note": ""
  },
  {
   "property": "C05",
   "status": "proved",
   "theorems": [
    "C05_one_winner"
   ],
   "note": ""
  },
  {
   "property": "C06",
   "status": "proved",
   "theorems": [
    "C06_at_most_once",
    "C06_new",
    "C06_existing"
   ],
   "note": ""
  },
  {
   "property": "C07",
   "status": "proved",
   "theorems": [
    "C07_hash_does_not_matter",
    "C07_all_coexist"
   ],
   "note": "Two sequential executions, of maps that differ only in the hash function, with the same calls give the same results (iteration up to order). All keys coexist whatever the hash, e.g. a constant one."
  },
  {
   "property": "C08",
   "status": "proved",
   "theorems": [
    "C08_no_panic",
    "C08_never_stuck"
   ],
   "note": "every panic site of the crate is an explicit outcome of the machine"
  },
  {
   "property": "C09",
   "status": "proved",
   "theorems": [
    "C09_no_use_after_free"
   ],
   "note": ""
  },
  {
   "property": "C10",
   "status": "proved",
   "theorems": [
    "C10_refs_stay_valid"
   ],
   "note": ""
  },
  {
   "property": "C11",
   "status": "proved",
   "theorems": [
    "C11_destroyed_at_most_once",
    "C11_reachable_nodes_are_live"
   ],
   "note": ""
  },
  {
   "property": "C12",
   "status": "proved",
   "theorems": [
    "C12_no_leak",
    "C12_collector_finishes"
   ],
   "note": ""
  },
  {
   "property": "C13",
   "status": "partial",
   "theorems": [
    "C13_refuted",
    "C13_refuted_witness",
    "C13_refuted_lost_race",
    "C13_displaced_destroyed_partial"
   ],
   "note": "The claim is FALSE of the code and the negation is proved: drop_data frees data nodes as Owned<Inner>, so no element that is in the map when it is dropped has its destructor run. What holds (partial theorem): elements replaced or removed before the drop are destroyed, exactly once; none is destroyed twice."
  },
  {
   "property": "C14",
   "status": "proved",
   "theorems": [
    "C14_deferred_kind"
   ],
   "note": ""
  },
  {
   "property": "C15",
   "status": "proved",
   "theorems": [
    "C15_no_aba"
   ],
   "note": ""
  },
  {
   "property": "C16",
   "status": "proved",
   "theorems": [
    "C16_is_empty_true"
   ],
   "note": ""
  },
  {
   "property": "C17",
   "status": "proved",
   "theorems": [
    "C17_is_empty"
   ],
   "note": "b = true iff all keys are absent, in every state in which the call is in progress."
  },
  {
   "property": "C18",
   "status": "partial",
   "theorems": [
    "C18_is_empty_partial",
    "C18_refuted"
   ],
   "note": "REFUTED in general: C18_refuted exhibits three overlapping removals after which is_empty of the empty map is false for good. The partial theorem: exact if no two removals overlapped (inserts may have overlapped with each other and with removals, readers with everything) and no modifying call was broken off by a panic."
  },
  {
   "property": "C19",
   "status": "proved",
   "theorems": [
    "C19_pruned",
    "C19_shape",
    "C19_leaves"
   ],
   "note": "More general than claimed: only removals must not overlap with each other; inserts may overlap with each other and with a removal, readers with everything."
  },
  {
   "property": "C20",
   "status": "partial",
   "theorems": [
    "C20_pruned_partial",
    "C20_refuted",
    "C20_refuted_panic"
   ],
   "note": "REFUTED in general: C20_refuted exhibits two overlapping removals after which assert_pruned panics although all calls have returned; C20_refuted_panic a closure panic in a single thread. The partial theorem: it passes if no two removals overlapped (inserts may) and no modifying call was broken off."
  },
  {
   "property": "C21",
   "status": "proved",
   "theorems": [
    "C21_no_duplicates"
   ],
   "note": "every point of every iteration, finished, unfinished or abandoned; closures keep the key (wf_calls)"
  },
  {
   "property": "C22",
   "status": "proved",
   "theorems": [
    "C22_yielded_was_there",
    "C22_every_key",
    "C22_present_listed",
    "C22_absent_not_listed"
   ],
   "note": ""
  },
  {
   "property": "C23",
   "status": "proved",
   "theorems": [
    "C23_exact",
    "C23_readers_only"
   ],
   "note": ""
  },
  {
   "property": "C24",
   "status": "proved",
   "theorems": [
    "C24_get_wait_free",
    "C24_is_empty_wait_free",
    "C24_can_step"
   ],
   "note": "one step of the machine is one access of shared memory"
  },
  {
   "property": "C25",
   "status": "proved",
   "theorems": [
    "C25_bound",
    "C25_stack",
    "C25_terminates"
   ],
   "note": "the bound is 2^66 steps that are not yields; yields cannot be bounded uniformly (collision leaves are unbounded), hence C25_terminates for infinite executions"
  },
  {
   "property": "C26",
   "status": "proved",
   "theorems": [
    "C26_bound",
    "C26_finishes"
   ],
   "note": "bound 2^21 own steps (+201 per spurious CAS failure), whatever the stopped calls were doing"
  },
  {
   "property": "C27",
   "status": "proved",
   "theorems": [
    "C27_lock_free",
    "C27_no_livelock"
   ],
   "note": "finite form (bound from every state) and infinite form (calls keep ending), concurrency bounded"
  },
  {
   "property": "C28",
   "status": "proved",
   "theorems": [
    "C28_readers_do_not_write"
   ],
   "note": ""
  },
  {
   "property": "C29",
   "status": "proved",
   "theorems": [
    "C29_all_or_nothing"
   ],
   "note": ""
  },
  {
   "property": "C30",
   "status": "proved",
   "theorems": [
    "C30_extend",
    "C30_from_iter",
    "C30_ConMap",
    "C30_ConMap_pairs",
    "C30_CloneConMap",
    "C30_ConSet"
   ],
   "note": "extend after any past, from_iter from the empty map, for each container"
  },
  {
   "property": "C31",
   "status": "proved",
   "theorems": [
    "C31_clone",
    "C31_clone_readers_only",
    "C31_clone_concurrent",
    "C31_ConMap",
    "C31_CloneConMap"
   ],
   "note": "same contents if the source does not change meanwhile; per-key snapshot otherwise; for ConMap the very handles"
  },
  {
   "property": "C32",
   "status": "proved",
   "theorems": [
    "C32_parallel_extend",
    "C32_ConMap",
    "C32_ConMap_pairs",
    "C32_CloneConMap",
    "C32_ConSet"
   ],
   "note": "any interleaving of the inserts, with readers and with whatever was there before"
  },
  {
   "property": "C33",
   "status": "proved",
   "theorems": [
    "C33_ConSet"
   ],
   "note": "linearizable w.r.t. a plain set of values modulo equality"
  },
  {
   "property": "C34",
   "status": "proved",
   "theorems": [
    "C34_handles",
    "C34_iterated"
   ],
   "note": "iterators: see C22"
  },
  {
   "property": "C35",
   "status": "proved",
   "theorems": [
    "C35_untouched"
   ],
   "note": ""
  },
  {
   "property": "C36",
   "status": "partial",
   "theorems": [
    "C36_new_is_found_partial",
    "C36_refuted"
   ],
   "note": "true when the closure makes an element with the requested key; FALSE for other closures (allowed by get_or_insert_with_element), and that negation is proved"
  },
  {
   "property": "C37",
   "status": "proved",
   "theorems": [
    "C37_depth"
   ],
   "note": ""
  },
  {
   "property": "C38",
   "status": "proved",
   "theorems": [
    "C38_no_uninitialised",
    "C38_result_initialised",
    "C38_yield_initialised",
    "C38_strong_orders",
    "C38_needed"
   ],
   "note": "On a machine with weakly ordered memory (Weak.v): loads return any value ever written to the cell, and initialisation is visible only through release/acquire/consume edges. C38_needed: every one of the orderings is necessary. The memory model has no load buffering (as RC11); models that have it (promising semantics, ARMv8, POWER) have it for relaxed writes only, and every write of the code to a shared cell is a release read-modify-write. Reclamation, the destructor and broken-off calls: C46-C49."
  },
  {
   "property": "C39",
   "status": "proved",
   "theorems": [
    "C39_ConMap",
    "C39_CloneConMap",
    "C39_ConSet",
    "C39_iterators",
    "C39_references"
   ],
   "note": "Send/Sync: for all instantiations, from the type definitions and rustc's (coinductive) rule for auto traits. References: every straight-line program that the borrow checker accepts, given the signatures of the crate, never uses a reference or iterator after the map, guard or iterator it came from is gone. The two rules of rustc are part of the model (Traits.v, Borrow.v)."
  },
  {
   "property": "C40",
   "status": "proved",
   "theorems": [
    "C40_ExistingOrNew"
   ],
   "note": ""
  },
  {
   "property": "C41",
   "status": "proved",
   "theorems": [
    "C41_key_order",
    "C41_key_order_strong"
   ],
   "note": "On the coherent weak machine (WeakCoh.v): loads may return any value not older than what happens-before has seen. Specification: key_order. Iterators count as a lookup of every key."
  },
  {
   "property": "C42",
   "status": "proved",
   "theorems": [
    "C42_no_failure"
   ],
   "note": "On the coherent weak machine."
  },
  {
   "property": "C43",
   "status": "proved",
   "theorems": [
    "C43_reads_what_was_written",
    "C43_removed_is_gone"
   ],
   "note": "Example: C43_example."
  },
  {
   "property": "C44",
   "status": "proved",
   "theorems": [
    "C44_keys_independent"
   ],
   "note": "A concrete execution, and no order for it."
  },
  {
   "property": "C45",
   "status": "proved",
   "theorems": [
    "C45_no_duplicates",
    "C45_yields_what_is_there",
    "C45_removed_is_not_yielded",
    "C45_yields_only_what_was_put"
   ],
   "note": "Example: C45_example (an iterator that reads an old value and misses an element inserted by an unsynchronized thread)."
  },
  {
   "property": "C46",
   "status": "proved",
   "theorems": [
    "C46_no_use_after_free"
   ],
   "note": "Machine: WeakFree.v (the coherent weak machine plus registrations, frees, guards, the destructor). crossbeam-epoch is its contract: a guard alive when a destruction runs was created after (happens-before) the registration."
  },
  {
   "property": "C47",
   "status": "proved",
   "theorems": [
    "C47_result_stays_valid",
    "C47_yield_stays_valid"
   ],
   "note": "Specification: usable. C47_held: the machine does refuse the free while the guard is alive."
  },
  {
   "property": "C48",
   "status": "proved",
   "theorems": [
    "C48_no_leak",
    "C48_collector_finishes",
    "C48_drop_possible"
   ],
   "note": ""
  },
  {
   "property": "C49",
   "status": "proved",
   "theorems": [
    "C49_unobservable",
    "C49_key_order"
   ],
   "note": "key_order is the specification of C41."
  },
  {
   "property": "C50",
   "status": "partial",
   "theorems": [
    "C50_refuted_foreign_thread",
    "C50_refuted_sync",
    "C50_stays_on_thread_partial",
    "C50_not_shared_partial",
    "C50_not_shared_types"
   ],
   "note": "FALSE of the code, negation proved: deferred destructions of elements that are not Send may run on any thread; ConSet and CloneConMap are Sync without requiring Send. What holds: apart from deferred destructions run by other threads, a ConMap of elements that are not both Send and Sync stays on its thread; a map that is not Sync is used by one thread at a time."
  },
  {
   "property": "C51",
   "status": "partial",
   "theorems": [
    "C51_refuted",
    "C51_one_collector_partial"
   ],
   "note": "FALSE of the code, negation proved: with guards of two collectors a lookup can follow a pointer to a freed node. Holds if all guards are of one collector (the containers always use the default collector)."
  },
  {
   "property": "C52",
   "status": "partial",
   "theorems": [
    "C52_refuted",
    "C52_refuted_race",
    "C52_published_partial",
    "C52_single_copy_partial",
    "C52_undisturbed_partial",
    "C52_collector_settles"
   ],
   "note": "False as stated, because of drop_data (mod.rs:244-251): a node that loses a compare-and-set is freed without running the destructors of its elements. C52_refuted: one thread, one spurious failure of a weak compare-and-set; C52_refuted_race: two threads. Proved: all copies in nodes that were ever published are released (C52_published_partial, C52_single_copy_partial, any schedule), and the claim in full if modifying calls do not overlap and no compare-and-set fails spuriously (C52_undisturbed_partial)."
  },
  {
   "property": "C53",
   "status": "proved",
   "theorems": [
    "C53_safe",
    "C53_finishes",
    "C53_elements_once",
    "C53_was_there",
    "C53_every_key",
    "C53_form",
    "C53_picture"
   ],
   "note": "Sequentially consistent machine; the formatter's own errors and the text itself are not modelled."
  },
  {
   "property": "C54",
   "status": "proved",
   "theorems": [
    "C54_covers",
    "C54_no_memory_error",
    "C54_only_panic",
    "C54_no_panic",
    "C54_never_stuck",
    "C54_refs_stay_valid",
    "C54_reclaimed_once",
    "C54_no_leak",
    "C54_panic_possible"
   ],
   "note": "User code is an oracle that answers anew each time (Wild.v); the machine of Model.v is the special case of consistent answers (C54_covers). SC memory."
  },
  {
   "property": "C55",
   "status": "proved",
   "theorems": [
    "C55_space",
    "C55_needs_alone"
   ],
   "note": "C55_space: at most 9 nodes per element (8 branching, 1 data) in any state without a modifying call in progress, for histories in which no removal overlapped another modification (same hypothesis as C18_/C20_ partial theorems); C55_needs_alone shows the hypothesis is needed; C55_example is a state that attains the bound (18 nodes, 2 elements)."
  },
  {
   "property": "C56",
   "status": "proved",
   "theorems": [
    "C56_no_use_after_destruction",
    "C56_count",
    "C56_alive",
    "C56_settled_count",
    "C56_strong_count",
    "C56_drop_leaks",
    "C56_needs_undisturbed",
    "C56_covers"
   ],
   "note": "C56_settled_count accounts for every leak; C56_strong_count is the leak-free case; C56_drop_leaks: the destructor of the map lets go of no element. C56_covers: every execution of the map is the base of one with counters, so nothing is excluded."
  },
  {
   "property": "C57",
   "status": "proved",
   "theorems": [
    "C57_covered",
    "C57_no_use_after_free",
    "C57_result_stays_valid",
    "C57_yield_stays_valid",
    "C57_key_order",
    "C57_unobservable",
    "C57_exact"
   ],
   "note": "Rc11.v has the axioms; the theorems hold for any happens-before that contains program order, the callers' edges and crossbeam-epoch's, so also for RC11's own."
  },
  {
   "property": "C58",
   "status": "proved",
   "theorems": [
    "C58_lock_free",
    "C58_can_step",
    "C58_goes_on",
    "C58_alone_bound",
    "C58_finishes",
    "C58_no_livelock"
   ],
   "note": "On the machine of WeakFree.v (old values may be loaded, nodes are freed, addresses used again): finite schedules (a bound from every reachable state), calls that run alone, and infinite executions.  The bound depends on the state (how many values a call has still to catch up with), unlike the constant of C26."
  },
  {
   "property": "C59",
   "status": "proved",
   "theorems": [
    "C59_get_wait_free",
    "C59_is_empty_wait_free",
    "C59_iter_bound",
    "C59_iter_terminates",
    "C59_finishes"
   ],
   "note": "PropWCount.v.  That a step is always possible and that a call ends only by returning: C58_can_step, C58_goes_on."
  },
  {
   "property": "C60",
   "status": "proved",
   "theorems": [
    "C60_closure_at_most_once",
    "C60_new",
    "C60_found_was_put",
    "C60_taken_once",
    "C60_one_winner"
   ],
   "note": "on the executions that the C11 axioms allow (Rc11.v), per key; a call broken off by a panic, or still running, counts as having possibly put its element"
  },
  {
   "property": "C61",
   "status": "proved",
   "theorems": [
    "C61_ConMap",
    "C61_CloneConMap",
    "C61_ConSet",
    "C61_extend",
    "C61_from_iter",
    "C61_from_iter_iterate",
    "C61_clone"
   ],
   "note": "on the executions that the C11 axioms allow; per key (C44 shows that no order for all keys together exists)"
  },
  {
   "property": "C62",
   "status": "proved",
   "theorems": [
    "C62_initialised_before_access",
    "C62_initialised_before_use",
    "C62_initialised_once",
    "C62_hb_order",
    "C62_hb_irreflexive",
    "C62_same_executions",
    "C62_no_failure",
    "C62_key_order",
    "C62_result_stays_valid",
    "C62_from_exists"
   ],
   "note": "Plain.v: C11 happens-before without views; examples C62_example, C62_races_example."
  },
  {
   "property": "C63",
   "status": "proved",
   "theorems": [
    "C63_orderings_needed"
   ],
   "note": "Each execution is given as a script and checked by vm_compute; that nothing orders the use after the initialisation is proved for all from_ok choices."
  },
  {
   "property": "C64",
   "status": "proved",
   "theorems": [
    "C64_linearizable",
    "C64_safe",
    "C64_closure_once",
    "C64_new",
    "C64_nested_wins",
    "C64_no_deadlock",
    "C64_get_wait_free"
   ],
   "note": "Closures are calls to user code that last until DReturn; calls made from a closure are other calls of the pool. wf_dcalls: what a closure returns has the key it was called with (C36 is about others)."
  },
  {
   "property": "C65",
   "status": "proved",
   "theorems": [
    "C65_ConMap",
    "C65_CloneConMap",
    "C65_ConSet",
    "C65_empty_ConMap",
    "C65_empty_CloneConMap",
    "C65_empty_ConSet"
   ],
   "note": "The builders of core::fmt are modelled as what they write; the place written to does not fail."
  },
  {
   "property": "C66",
   "status": "proved",
   "theorems": [
    "C66_strong_orders",
    "C66_fetch_or_acquire",
    "C66_needs_release_sequences",
    "C66_rest_needed"
   ],
   "note": "views, as C38; the happens-before relation of the standard is C62/C63, for fetch_or as in the code"
  },
  {
   "property": "C67",
   "status": "proved",
   "theorems": [
    "C67_safe",
    "C67_finishes",
    "C67_goes_on",
    "C67_elements_once",
    "C67_only_what_was_put",
    "C67_what_is_there",
    "C67_removed_is_not_shown",
    "C67_form",
    "C67_needed"
   ],
   "note": "PrintShape on the weak memory of C46-C49"
  },
  {
   "property": "C68",
   "status": "proved",
   "theorems": [
    "C68_text",
    "C68_present",
    "C68_picture",
    "C68_readable",
    "C68_same_text",
    "C68_grows",
    "C68_weak"
   ],
   "note": "The strings PrintShape writes"
  },
  {
   "property": "C69",
   "status": "proved",
   "theorems": [
    "C69_included",
    "C69_transfer",
    "C69_newest",
    "C69_exact",
    "C69_more"
   ],
   "note": "Interleavings are the weakly ordered executions that read newest values only"
  },
  {
   "property": "C70",
   "status": "proved",
   "theorems": [
    "C70_no_old_values",
    "C70_like_a_plain_map",
    "C70_must_know"
   ],
   "note": "On the weakly ordered machine of WeakFree.v. handed_over: when a call is made, all those made before it have returned, and it is known to come after the last of them. C70_must_know: the second half of that is needed."
  },
  {
   "property": "C71",
   "status": "proved",
   "theorems": [
    "C71_in_turn",
    "C71_new_key"
   ],
   "note": "In every execution the C11 axioms allow; for all seven operations (an iteration as what it found under the key; is_empty, when it says true, as a lookup that found nothing)."
  }
 ]
}