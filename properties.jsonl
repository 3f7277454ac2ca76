{"id": "C01", "title": "Linearizability of the map operations", "statement": "Every concurrent history of insert, get, remove, get_or_insert(_with) and is_empty on one map is linearizable: there is one total order of the operations, consistent with real time (an operation that returned before another was called comes first), in which every operation returns exactly what a plain key/value map would have returned and changes it as a plain map would.  (is_empty()==true must mean empty at that point of the order; the converse is C18.)", "quantifier": "all histories: any number of threads and calls, every interleaving of the individual atomic loads, CASes and fetch_ors, every spurious failure of a weak CAS, every key type, payload type and hash function", "why_tests_cant": "The number of interleavings is unbounded and the interesting ones (an update racing with a prune of the node it sits in) are rare; a stress test samples a handful.", "anchors": ["src/raw/mod.rs: Raw::traverse, Raw::insert, Raw::get, Raw::get_or_insert_with, Raw::remove, Raw::prune", "src/map.rs: ConMap", "src/clonemap.rs: CloneConMap", "src/set.rs: ConSet"]}
{"id": "C02", "title": "Sequential use behaves like std HashMap", "statement": "If calls do not overlap, each call returns exactly what the same call on a plain key/value map returns, for the whole sequence of calls.", "quantifier": "all finite sequences of insert/get/remove/get_or_insert/is_empty calls, all key/payload types and all hash functions (including constant ones)", "why_tests_cant": "proptest (src/tests/acts_like_map.rs) samples sequences of bounded length with three hashers.", "anchors": ["src/raw/mod.rs: Raw::traverse, Raw::get, Raw::remove", "src/tests/acts_like_map.rs"]}
{"id": "C03", "title": "insert replaces exactly one key and returns what it displaced", "statement": "At the instant an insert takes effect, the value it returns is the value that key had just before, the key maps to the new element just after, and no other key's value changes.", "quantifier": "every insert in every concurrent execution", "why_tests_cant": "The displaced value may have been written by any other thread at any earlier time; collision nodes and split nodes carry other keys along.", "anchors": ["src/raw/mod.rs: Raw::insert, Raw::traverse", "src/map.rs: ConMap::insert, ConMap::insert_element"]}
{"id": "C04", "title": "remove removes exactly one key; a value is removed by at most one caller", "statement": "A successful remove returns the value the key had just before, leaves the key absent and every other key unchanged; an unsuccessful remove changes nothing and the key was absent at some instant during the call. Every single occurrence of an element in the map is taken out (returned by a remove or displaced by an insert) by at most one call.", "quantifier": "every remove in every concurrent execution", "why_tests_cant": "Two removers racing for one element need a specific interleaving between load and CAS.", "anchors": ["src/raw/mod.rs: Raw::remove"]}
{"id": "C05", "title": "get_or_insert races have one winner", "statement": "If threads call get_or_insert(_with) for one key that is initially absent and nobody inserts or removes that key in another way, then among all the calls that returned exactly one is New and all the others are Existing with the very element of the winner.", "quantifier": "every number of competing calls, every interleaving", "why_tests_cant": "Needs all interleavings of n racing calls; a test can only hope to hit the race.", "anchors": ["src/raw/mod.rs: Raw::get_or_insert_with, Raw::traverse, TraverseState", "src/map.rs: ConMap::get_or_insert_with", "src/clonemap.rs: CloneConMap::get_or_insert_with"]}
{"id": "C06", "title": "The get_or_insert_with closure runs at most once", "statement": "One get_or_insert_with call invokes its closure at most once, whatever retries happen; if it returns New then the closure ran exactly once and the returned element is what the closure produced; if it returns Existing the element returned is one that was in the map during the call.", "quantifier": "every call in every execution, every number of CAS failures, splits and restarts", "why_tests_cant": "Retry loops only iterate under contention or spurious CAS failure; the number of iterations is unbounded.", "anchors": ["src/raw/mod.rs: TraverseState::payload, TraverseState::data_owned, Raw::traverse"]}
{"id": "C07", "title": "Hash quality never changes results", "statement": "Two maps that differ only in their hash function return the same results to the same sequence of non-overlapping calls; in particular any number of distinct keys with identical hashes coexist.", "quantifier": "all pairs of hash functions, all call sequences", "why_tests_cant": "Quantifies over all hash functions; tests use three.", "anchors": ["src/raw/mod.rs: Raw::hash, Raw::traverse, LEVEL_BITS, MAX_LEVELS"]}
{"id": "C08", "title": "Internal assertions never fire", "statement": "No call ever panics in the crate's own assert!/expect/unwrap/index/ArrayVec::push/shift operations.", "quantifier": "every execution, every interleaving, every hash function, any depth of trie", "why_tests_cant": "The assertions guard states (condemned root, shallow collision node, null data pointer...) that only an exhaustive exploration of interleavings can exclude.", "anchors": ["src/raw/mod.rs: nf, load_data, drop_data, prune, traverse, remove", "src/raw/iterator.rs: Iter::next"]}
{"id": "C09", "title": "No use after free", "statement": "While a guard is held, no operation or iterator running under it ever dereferences a node that has been freed, or dereferences a node as the wrong type, even though other threads unlink and retire nodes at any moment.", "quantifier": "every execution, with deferred destruction running at any moment the epoch scheme allows it", "why_tests_cant": "Use after free shows up only if the collector runs in a specific window, and even then may not crash.", "anchors": ["src/raw/mod.rs: traverse/replace, remove/replace, prune, get", "src/raw/iterator.rs: Iter"]}
{"id": "C10", "title": "References returned under a guard stay valid", "statement": "A reference returned by Raw::insert/get/remove/get_or_insert_with stays valid and keeps showing the same payload until the guard it is tied to is dropped, no matter what other threads do to that key.", "quantifier": "all executions, all later operations of other threads, all points at which the collector may run", "why_tests_cant": "Depends on when garbage is collected relative to all later operations.", "anchors": ["src/raw/mod.rs: Raw::get, Raw::insert, Raw::remove, Raw::get_or_insert_with"]}
{"id": "C11", "title": "Nothing is destroyed twice and nothing reachable is destroyed", "statement": "Every node is handed to the collector at most once and freed at most once, and at the time it is handed over no later operation can reach it any more.", "quantifier": "all executions and interleavings, including the destructor of the map", "why_tests_cant": "A double retire needs two threads to win the same unlink; only visible as memory corruption.", "anchors": ["src/raw/mod.rs: replace closures, prune, Drop for Raw"]}
{"id": "C12", "title": "No node is leaked", "statement": "After the map has been dropped and the collector has run, every node that was ever linked into the map has been freed exactly once.", "quantifier": "all executions followed by drop", "why_tests_cant": "Leaks are invisible to functional tests; needs all histories.", "anchors": ["src/raw/mod.rs: Drop for Raw, prune, traverse, remove"]}
{"id": "C13", "title": "Dropping releases every stored element", "statement": "After the map has been dropped and the collector has run, the destructor of every stored payload copy has run exactly once (so that e.g. the Arc reference counts of the elements go back to what the user holds).", "quantifier": "all executions followed by drop", "why_tests_cant": "Not observable through the map API; needs reference counts for all histories.", "anchors": ["src/raw/mod.rs: drop_data, Drop for Raw, owned_data"]}
{"id": "C14", "title": "Deferred destruction uses the type a node was allocated with", "statement": "Whenever a node is handed to the epoch collector, it is handed over as the type (data or inner) it was allocated as.", "quantifier": "all executions", "why_tests_cant": "A wrong cast is undefined behaviour that may go unnoticed.", "anchors": ["src/raw/mod.rs: traverse/replace, remove/replace, prune"]}
{"id": "C15", "title": "Address reuse cannot confuse a compare-and-set (ABA)", "statement": "Even though the allocator may reuse the address of a freed node immediately, a CAS succeeds only if the cell still holds the very node that was loaded, never a different node that happens to live at the same address.", "quantifier": "all executions and all allocator choices", "why_tests_cant": "Needs an adversarial allocator plus a specific interleaving.", "anchors": ["src/raw/mod.rs: compare_and_set_weak in traverse/remove, compare_and_set in prune"]}
{"id": "C16", "title": "is_empty()==true is truthful", "statement": "If is_empty returns true, the map contained no key at all at some instant during the call.", "quantifier": "every execution and interleaving", "why_tests_cant": "Race between is_empty and writers.", "anchors": ["src/raw/mod.rs: Raw::is_empty"]}
{"id": "C17", "title": "is_empty is exact in sequential use", "statement": "If calls do not overlap, is_empty returns true if and only if every inserted key has been removed.", "quantifier": "all sequences of non-overlapping calls, all hash functions", "why_tests_cant": "Relies on pruning being complete for every shape of trie.", "anchors": ["src/raw/mod.rs: Raw::is_empty, Raw::remove, Raw::prune"]}
{"id": "C18", "title": "is_empty is exact once all threads are done", "statement": "After concurrent operations have all returned, is_empty returns true if and only if the map has no keys (assumed e.g. by the remove_par tests).", "quantifier": "all concurrent executions that end in a quiescent state", "why_tests_cant": "Only certain interleavings of three concurrent removals break it.", "anchors": ["src/raw/mod.rs: Raw::is_empty, Raw::prune", "src/map.rs: tests::remove_par"]}
{"id": "C19", "title": "Sequential use keeps the trie minimal", "statement": "If calls do not overlap, after every call the trie is pruned: no condemned pointer, an inner branching level exists for a hash prefix exactly when at least two stored elements share that prefix (and hash bits are left), so the shape depends only on the contents and not on the history; the crate's own assert_pruned check passes.", "quantifier": "all sequences of non-overlapping calls, all hash functions", "why_tests_cant": "Shape invariant over all histories.", "anchors": ["src/raw/mod.rs: Raw::remove, Raw::prune", "src/raw/debug.rs: assert_pruned", "src/lib.rs: The gist of the data structure"]}
{"id": "C20", "title": "The trie is pruned whenever nobody is modifying it", "statement": "Whenever the caller can get &mut access (all concurrent operations have returned), assert_pruned holds (claimed in src/raw/debug.rs).", "quantifier": "all concurrent executions that end in a quiescent state", "why_tests_cant": "Depends on rare interleavings of two concurrent removals.", "anchors": ["src/raw/debug.rs: assert_pruned", "src/raw/mod.rs: Raw::prune"]}
{"id": "C21", "title": "Iteration never yields a key twice", "statement": "A single iterator never yields two elements with equal keys, even if other threads (or the iterating thread) insert, replace, remove and restructure during the iteration.", "quantifier": "every iteration in every execution", "why_tests_cant": "A duplicate would need an element to be moved between levels behind and ahead of the cursor.", "anchors": ["src/raw/iterator.rs: Iter::new, Iter::next"]}
{"id": "C22", "title": "Iteration reports, for each key, a value it had during the iteration", "statement": "For every key, what a completed iteration reports about it (absent or a given element) is what the map held for that key at some instant between the creation of the iterator and its end. In particular a key that is present and untouched throughout is yielded, one that is absent throughout is not, and every yielded element was in the map at some instant since the iterator was created.", "quantifier": "every iteration, every interleaving, every key", "why_tests_cant": "Concurrent restructuring during an iteration is a race.", "anchors": ["src/raw/iterator.rs: Iter::new, Iter::next", "src/lib.rs: Downsides"]}
{"id": "C23", "title": "Iteration of an unchanging map is exact", "statement": "If no call changes the map's contents during an iteration, it yields exactly the contents: every stored element exactly once and nothing else.", "quantifier": "all maps reachable by any execution, all hash functions", "why_tests_cant": "All shapes of trie, including leftovers of earlier races.", "anchors": ["src/raw/iterator.rs: Iter::next"]}
{"id": "C24", "title": "Lookups are wait-free", "statement": "get performs at most 17 loads of shared memory and then returns, whatever other threads do; is_empty performs one.", "quantifier": "every execution, every behaviour of other threads", "why_tests_cant": "A bound under all interference cannot be tested.", "anchors": ["src/raw/mod.rs: Raw::get, Raw::is_empty", "src/lib.rs"]}
{"id": "C25", "title": "Iteration terminates", "statement": "An iterator finishes after a bounded number of its own steps, even if other threads keep inserting forever; its stack never exceeds MAX_LEVELS + 1 entries.", "quantifier": "every execution, every behaviour of other threads", "why_tests_cant": "Adversarial interference.", "anchors": ["src/raw/iterator.rs: Iter::next"]}
{"id": "C26", "title": "Obstruction freedom: an update that runs alone finishes", "statement": "From every reachable state, including ones where other threads were stopped in the middle of an operation, any pending insert, get_or_insert or remove that runs alone returns after a bounded number of its own steps.", "quantifier": "every reachable state, every pending operation", "why_tests_cant": "A stopped thread can be stopped at any instruction.", "anchors": ["src/raw/mod.rs: Raw::traverse, Raw::remove, Raw::prune"]}
{"id": "C27", "title": "Lock freedom", "statement": "As long as some operation keeps taking steps (and CASes do not fail spuriously), some operation returns after finitely many steps of the system: the system cannot livelock.", "quantifier": "every reachable state and every schedule", "why_tests_cant": "Livelock needs infinite adversarial schedules.", "anchors": ["src/raw/mod.rs: Raw::traverse, Raw::remove, Raw::prune", "src/lib.rs: lock-free"]}
{"id": "C28", "title": "Readers never write", "statement": "get, is_empty and iteration never modify shared memory: they leave the trie exactly as it is, at every step.", "quantifier": "every execution", "why_tests_cant": "Must hold for each step of each execution.", "anchors": ["src/raw/mod.rs: Raw::get, Raw::is_empty", "src/raw/iterator.rs: Iter"]}
{"id": "C29", "title": "A call that is abandoned midway is atomic", "statement": "If a call unwinds (a panicking key comparison, hash, clone or closure) or its thread stops at any point, the map remains usable and the call has either taken effect completely or not at all; all guarantees for the other calls continue to hold.", "quantifier": "every point at which any call may stop, in every execution", "why_tests_cant": "Every crash point in every interleaving.", "anchors": ["src/raw/mod.rs: Raw::traverse, Raw::remove, Raw::prune, TraverseState::payload"]}
{"id": "C30", "title": "extend and from_iter insert everything, last one wins", "statement": "Extending a map sequentially with a list of elements gives the map in which each key of the list maps to its last element in the list and every other key is unchanged; collecting a list does the same from the empty map.", "quantifier": "all lists, all initial maps, all hash functions", "why_tests_cant": "All input lists.", "anchors": ["src/map.rs: Extend, FromIterator", "src/clonemap.rs: Extend, FromIterator", "src/set.rs: Extend, FromIterator"]}
{"id": "C31", "title": "Clone has the same contents", "statement": "Cloning a map that nobody modifies meanwhile gives a map with exactly the same contents (the same element handles for ConMap).", "quantifier": "all maps, all hash functions", "why_tests_cant": "All contents and shapes.", "anchors": ["src/map.rs: Clone for ConMap", "src/clonemap.rs: Clone for CloneConMap"]}
{"id": "C32", "title": "Parallel extend", "statement": "Inserting a collection of elements from many threads in any interleaving gives a map that has exactly the keys of the collection (plus what was there), each mapped to one of the elements supplied for it.", "quantifier": "all collections, all distributions over threads, all interleavings", "why_tests_cant": "All interleavings.", "anchors": ["src/map.rs: ParallelExtend, Extend for &ConMap", "src/set.rs: ParallelExtend", "src/clonemap.rs: ParallelExtend"]}
{"id": "C33", "title": "ConSet behaves as a set", "statement": "insert returns the equal value that was there before (None if none), contains/get report membership, remove returns the stored value, all as a plain set would; contains(x) is true iff get(x) would return something.", "quantifier": "all call sequences and interleavings, all hash functions", "why_tests_cant": "All histories.", "anchors": ["src/set.rs: ConSet"]}
{"id": "C34", "title": "ConMap hands out the very element handles that were put in", "statement": "The handle returned by get/insert/remove/get_or_insert/iter is a handle (same allocation) that some call stored in this map, under a key equal to the requested one.", "quantifier": "all executions", "why_tests_cant": "All histories; elements are re-cloned into new data nodes on every collision update.", "anchors": ["src/map.rs: MapPayload, ConMap"]}
{"id": "C35", "title": "Untouched keys are stable", "statement": "A key that no call touches (with insert, get_or_insert or remove) keeps its value forever, whatever splitting, contracting, copying and collision handling other keys cause.", "quantifier": "every execution, every key", "why_tests_cant": "Restructuring by other keys' operations happens in all interleavings.", "anchors": ["src/raw/mod.rs: Raw::prune, Raw::traverse"]}
{"id": "C36", "title": "Elements inserted through a closure can be found by their own key", "statement": "An element that get_or_insert_with / get_or_insert_with_element reported as New and that nobody removed is found by get with the element's own key.", "quantifier": "every execution, every closure", "why_tests_cant": "Depends on the closure; tests only use well-behaved ones.", "anchors": ["src/raw/mod.rs: Raw::get_or_insert_with, TraverseState::payload", "src/map.rs: ConMap::get_or_insert_with_element"]}
{"id": "C37", "title": "Depth is bounded by the hash width", "statement": "The trie never has more than 16 inner levels, and a leaf holds more than one element only below all 16 levels, where all of its elements have identical 64-bit hashes.", "quantifier": "every reachable state", "why_tests_cant": "All hash functions and histories.", "anchors": ["src/raw/mod.rs: MAX_LEVELS, Raw::traverse, Raw::prune"]}
{"id": "C38", "title": "Sharing is safe under weak memory orderings", "statement": "The release/consume orderings used are sufficient on weakly ordered hardware: whoever obtains an element sees it completely initialised.", "quantifier": "all executions of the C11/LLVM memory model", "why_tests_cant": "Depends on hardware and compiler reorderings.", "anchors": ["src/raw/mod.rs: Inter-thread synchronization of data"]}
{"id": "C39", "title": "Thread-safety bounds", "statement": "A map is Send/Sync only if its keys and values are (e.g. ConMap<usize, Rc<usize>> cannot be sent), and references cannot outlive the map, guard or iterator.", "quantifier": "all instantiations of the type parameters", "why_tests_cant": "Compile-time property of the Rust type system.", "anchors": ["src/tests/compile_fail.rs", "src/raw/mod.rs: Raw"]}
{"id": "C40", "title": "ExistingOrNew is transparent", "statement": "into_inner, deref and map act on the contained value and preserve whether it is new; is_new is true exactly for New.", "quantifier": "all values and functions", "why_tests_cant": "All values.", "anchors": ["src/existing_or_new.rs"]}
{"id": "C41", "title": "One order per key on weakly ordered memory", "statement": "On hardware that reorders memory accesses as far as the orderings in the code allow: for every key, all the calls about that key can be put into one order, the same for all threads, that respects happens-before and in which they return what a plain map would return.", "quantifier": "all keys, all executions on weakly ordered coherent memory: any number of threads and calls, any interleaving, any choice of stale values the loads may return, any happens-before edges between calls", "why_tests_cant": "Tests run on one (usually strongly ordered) machine and see a few interleavings; stale reads are not observable on demand.", "anchors": ["src/raw/mod.rs: traverse, prune, get, remove, is_empty", "src/raw/mod.rs: Inter-thread synchronization of data", "src/lib.rs: 35-39"]}
{"id": "C42", "title": "No panic and no undefined behaviour on weakly ordered memory", "statement": "However old the values the loads return are, no call panics (assert, expect, unwrap, index out of range) or dereferences something it may not.", "quantifier": "all executions on weakly ordered coherent memory", "why_tests_cant": "The assertions in prune and traverse relate values read at different times; only particular stale reads could break them.", "anchors": ["src/raw/mod.rs: prune, traverse, remove"]}
{"id": "C43", "title": "A lookup that happens after an insert sees it, without any synchronization beyond happens-before", "statement": "If insert(k, v) happens before get(k) (same thread, or the threads synchronized outside the map) and every other call modifying k happens before the insert or after the get, then get returns v, on weakly ordered memory as well.", "quantifier": "all keys, values, executions on weakly ordered coherent memory", "why_tests_cant": "A stale read would only show on other hardware or schedules.", "anchors": ["src/raw/mod.rs: insert, get", "src/map.rs: insert, get"]}
{"id": "C44", "title": "Different keys are independent", "statement": "The documented limitation is real: there are executions allowed by the orderings of the code in which one thread inserts a and then b, and another finds b and afterwards does not find a, so that no single order of all calls respects happens-before (C41 cannot be strengthened to all keys together).", "quantifier": "an execution (existential), no order at all explains it", "why_tests_cant": "Strongly ordered hardware never shows it.", "anchors": ["src/lib.rs: 35-39"]}
{"id": "C45", "title": "Iterators on weakly ordered memory", "statement": "On weakly ordered memory an iterator yields no key twice; it yields every element whose insertion happens before the iterator (and that nothing else modifies, except before that insertion or after the iteration), does not yield an element whose removal happens before it (same condition), and yields only elements that some call put there which does not happen after the iteration. For every key it behaves like one lookup in the order of C41.", "quantifier": "all executions on weakly ordered coherent memory, all iterators, finished or not, all keys", "why_tests_cant": "Stale reads of any of the cells the iterator passes through.", "anchors": ["src/raw/iterator.rs: new, next", "src/raw/mod.rs"]}
{"id": "C46", "title": "No use after free on weakly ordered memory", "statement": "With the memory orderings of the code, on weakly ordered memory in which retired nodes are really freed and their addresses used again by the allocator: no call (get, insert, get_or_insert, remove, is_empty, iteration) follows a pointer to a freed node, compares with a dangling pointer or panics; the collector frees no node twice, and the destructor of the map frees no node that is freed already.", "quantifier": "all executions on weakly ordered coherent memory: all schedules, all stale values the loads may return, all orders in which crossbeam-epoch runs the deferred destructions, all reuses of addresses, calls broken off anywhere", "why_tests_cant": "The stale reads depend on the hardware and the moment of reclamation on the epoch; a stale pointer to a freed node shows up only if both coincide.", "anchors": ["src/raw/mod.rs: defer_destroy (502, 546, 735)", "src/raw/mod.rs: traverse, get, remove, prune, drop", "src/raw/iterator.rs: next"]}
{"id": "C47", "title": "References stay valid under their guard on weakly ordered memory", "statement": "On weakly ordered memory with reclamation, every reference returned by a call, and every element yielded by an iterator, designates an allocated node holding that very element as long as the guard of the call (the iterator) is alive, even if the element has been removed or replaced meanwhile.", "quantifier": "all executions on weakly ordered coherent memory with reclamation and address reuse, all calls and iterators whose guard is alive", "why_tests_cant": "Needs the combination of concurrent removal, reclamation and stale reads.", "anchors": ["src/raw/mod.rs: get, insert, get_or_insert_with, remove", "src/raw/iterator.rs: next", "src/clonemap.rs, src/map.rs, src/set.rs"]}
{"id": "C48", "title": "Nothing is leaked on weakly ordered memory", "statement": "On weakly ordered memory: once no guard is left the map can be dropped; then the collector can run everything that is registered; and then every node that was ever allocated has been freed, exactly once.", "quantifier": "all executions on weakly ordered coherent memory with reclamation, ended by dropping the map", "why_tests_cant": "A node could be lost only in some race between stale views.", "anchors": ["src/raw/mod.rs: drop, defer_destroy (502, 546, 735)"]}
{"id": "C49", "title": "Reclamation is unobservable", "statement": "What the callers see on weakly ordered memory with reclamation and address reuse, they could have seen with the same calls on a machine that never frees anything; so the calls about one key, iterations included, can be put into one order that respects happens-before and in which they behave as on a plain map.", "quantifier": "all executions on weakly ordered coherent memory with reclamation and address reuse, all keys", "why_tests_cant": "ABA: a compare-and-set could succeed because the address of a freed node was used again.", "anchors": ["src/raw/mod.rs: compare_and_set calls", "src/raw/iterator.rs: next"]}
{"id": "C50", "title": "Elements stay on their thread", "statement": "An element whose type is not Send is created, used and destroyed on one thread; elements of a type that is not Sync are never used by two threads at the same time. (ConMap<usize, Rc<usize>> can be used safely in one thread, whatever other threads do with other maps.)", "quantifier": "all element types, all schedules of all threads, all times at which the collector runs", "why_tests_cant": "Which thread runs a deferred destruction depends on the timing of the epoch collector.", "anchors": ["src/raw/mod.rs: Raw (PhantomData), traverse, prune, remove (defer_destroy)", "src/map.rs: MapPayload, ConMap", "src/clonemap.rs: CloneMapPayload, CloneConMap", "src/set.rs: ConSet"]}
{"id": "C51", "title": "Any guard will do", "statement": "Raw is memory safe whatever crossbeam-epoch guards its callers pass to it, in particular if guards of different collectors are mixed.", "quantifier": "all assignments of guards to calls, all schedules", "why_tests_cant": "A use after free needs a particular interleaving of a reader, a removal and the collector.", "anchors": ["src/raw/mod.rs: Raw::insert, Raw::get, Raw::get_or_insert_with, Raw::remove"]}
{"id": "C52", "title": "Removed and replaced elements are let go", "statement": "Once no guard is alive and the collector has done its work, the map keeps alive exactly the elements that are in it, one copy (clone, or count of the Arc) of each: the copies of every element that was removed or replaced have been destroyed.", "quantifier": "all schedules of all calls, all times at which the collector runs, all failures of weak compare-and-sets", "why_tests_cant": "Every update copies elements into new nodes, some of which lose a race and are thrown away; a copy that is forgotten shows only under a particular interleaving or a spurious failure of a weak compare-and-set.", "anchors": ["src/raw/mod.rs: traverse, remove, drop_data, owned_data", "src/map.rs: ConMap::remove, ConMap::insert", "src/clonemap.rs: CloneConMap::remove"]}
{"id": "C53", "title": "The shape can be printed while others use the map", "statement": "PrintShape may be displayed while other threads insert, remove and prune: it follows no dangling pointer, trips no assertion and ends after a bounded number of loads whatever the others do; the text always describes a trie (every inner node with its sixteen slots in order, closed again); no key occurs twice; every element shown was in the map while it was printed, and for every key what is shown is what the key had at some instant meanwhile; if the map does not change meanwhile, the text is exactly its picture.", "quantifier": "all histories before, all schedules of the other calls during the printing, all trees", "why_tests_cant": "The printing descends through nodes that other threads condemn, replace and retire while it is in them.", "anchors": ["src/raw/debug.rs: PrintShape, print_shape, print_shape_ptr"]}
{"id": "C54", "title": "No user code can make the map misuse memory", "statement": "Whatever the Eq, Hash, Borrow and Clone implementations of the elements and the closures passed in do (contradict themselves, answer at random, clone into something else, panic): no freed or mistyped memory is accessed, nothing is freed twice, references stay valid under their guard, nodes reachable from the root are alive, after dropping the map every node is freed exactly once, and calls can always proceed.  The only internal assertion that can fail is 'Collision node not deep enough', and only if one call that compares the same element with its key twice gets two answers; it can indeed fail then.", "quantifier": "all answers of user code at every single evaluation, all schedules, all crash points, all histories", "why_tests_cant": "The answers of broken user code are unconstrained at every evaluation; a test fixes one broken implementation and one schedule.", "anchors": ["src/raw/mod.rs: traverse, get, remove, prune, TraverseState::payload, drop_recursive", "src/raw/iterator.rs: Iter::next"]}
{"id": "C55", "title": "Memory is proportional to the contents", "statement": "Whenever no modifying call is in progress, the nodes a map owns (allocated, not freed, not handed to the collector) number at most 9 per element stored: at most 8 branching nodes and 1 data node per element, however many insertions and removals went before; an empty map owns none.  This needs that no removal overlapped another modification; with overlapping removals an empty map may keep a node.", "quantifier": "all histories in which removals do not overlap other modifications (insertions and reads may overlap anything else), all schedules, all crash points of readers", "why_tests_cant": "A node left behind needs a particular history and a particular pattern of hashes; the bound is about every history.", "anchors": ["src/raw/mod.rs: Raw::prune", "src/raw/mod.rs: Raw::remove", "src/raw/mod.rs: TraverseState, traverse (split of a leaf)"]}
{"id": "C56", "title": "Elements are never used after destruction, and their reference counts add up", "statement": "Payloads are reference counted (Arc).  Whatever calls, callers and the collector do: no element is read, cloned or dropped after its count has got to 0; the strong count of an element is exactly the number of handles of it; an element that a caller has a handle of, that is in the map, or that a call has returned a reference to (while its guard is alive) has not been destroyed.  Once all guards are gone and the collector is done, the count is the number of handles callers have, plus one if the element is in the map, plus what leaked; nothing leaks if modifications do not overlap, no compare-and-set fails spuriously and no call is cut short.  Dropping a non-empty map destroys no element.", "quantifier": "all schedules, all crash points, all histories, all ways callers make, clone, drop and give away handles; all payload types", "why_tests_cant": "A double drop or a missed clone shows only in particular interleavings of failing compare-and-sets, collection and callers; the count must be right in every state.", "anchors": ["src/raw/mod.rs: TraverseState::payload, traverse, remove, get", "src/map.rs: Payload for Arc<Element>, ConMap", "src/raw/mod.rs: Raw::drop"]}
{"id": "C57", "title": "Memory safety and per-key order under the C11 axioms", "statement": "In every execution that the C11 memory model allows (RC11: modification order, coherence, atomicity, no load buffering), with nodes freed by crossbeam-epoch, addresses used again and the map dropped: no call follows a pointer to a node that is freed or not yet initialised, fails, or frees anything twice; what a call returned or an iterator yielded stays the same element while the guard is alive; and for every key the calls on it can be put in one order that explains their results and agrees with happens-before.  What callers can observe is exactly what the simple machine of C41-C45 lets them observe.", "quantifier": "all event graphs with any reads-from, modification order and happens-before that satisfy the axioms; all call histories; all points at which calls are broken off, guards dropped and nodes freed", "why_tests_cant": "A processor shows a tiny part of the executions C11 allows, a compiler may use others, and they cannot be enumerated.", "anchors": ["src/raw/mod.rs: the Ordering arguments of load, compare_and_set_weak, fetch_or", "src/raw/mod.rs: Raw::traverse, Raw::prune, Raw::get, Raw::remove", "src/raw/iterator.rs: Iter::next"]}
{"id": "C58", "title": "Lock freedom on weakly ordered memory", "statement": "Even if loads may return old values (anything coherence and happens-before allow), nodes are freed and their addresses used again: from every reachable state the modifying calls in progress can together take only a bounded number of steps (201 more per spurious failure of a weak compare-and-set) until one of them returns, whatever readers and the collector do; a modifying call that runs alone returns, wherever the others were stopped and whatever old values it reads; in an infinite execution with boundedly many calls at a time, if modifying calls keep taking steps then modifying calls keep ending.  A call in progress can always take a step and never ends other than by returning.", "quantifier": "every reachable state and every schedule, finite or infinite; every choice of the values loads return; every order of reclamation", "why_tests_cant": "A retry loop that keeps reading an outdated pointer would spin only on weakly ordered hardware under adversarial schedules; progress is about infinite executions.", "anchors": ["src/raw/mod.rs: Raw::traverse, Raw::remove, Raw::prune", "src/lib.rs: lock-free"]}
{"id": "C59", "title": "Readers on weakly ordered memory", "statement": "Even if loads may return old values (anything coherence and happens-before allow), nodes are freed and their addresses used again: get performs at most 17 loads and then returns, is_empty performs one; an iteration takes at most 2^66 steps more than it yields elements, and does not take steps for ever even if others insert for ever; a reader in progress can be run to its return by its own steps alone, wherever the other calls were stopped.", "quantifier": "every execution, every choice of the values loads return, every behaviour of other threads and of the collector", "why_tests_cant": "A bound that must hold for all interference and all outdated values; the iterator part is about infinite executions.", "anchors": ["src/raw/mod.rs: Raw::get, Raw::is_empty", "src/raw/iterator.rs: Iter::next", "src/lib.rs"]}
{"id": "C60", "title": "Races between callers on weakly ordered memory", "statement": "Under the C11 memory model with the orderings of the code: a call of get_or_insert_with runs its closure at most once; who gets New has run it exactly once and the element is what it made; whatever get, remove, insert or get_or_insert_with find has the key asked for and was put in by another call that does not happen after them; the calls that take elements of a key out (remove, replacing insert) can be assigned different calls that put them in, so no two threads get hold of the same element; and of two calls of get_or_insert_with with the same key, if no insert or remove of the key runs between them, at most one gets New and both get the same element.", "quantifier": "every execution graph the C11 axioms allow: all threads, all calls, all choices of the values loads return, all interleavings of reclamation, every broken-off call", "why_tests_cant": "A double win or a doubly returned element would need a rare interleaving and an outdated read; the claim is over all of them.", "anchors": ["src/raw/mod.rs: Raw::get_or_insert_with, Raw::insert, Raw::remove, Raw::get", "src/map.rs, src/set.rs"]}
{"id": "C61", "title": "The containers on weakly ordered memory", "statement": "Under the C11 memory model with the orderings of the code: for every key, the calls of the methods of a ConMap, CloneConMap or ConSet about that key, and every iteration as one lookup of it, can be put into one order, the same for all threads, that respects happens-before and in which they return what a plain map (of handles, of pairs) or set returns.  After a thread has inserted a list of elements (extend, from_iter), whoever comes after finds under each key the last element of the list with it, unless others changed the key, and an iteration of the new map yields exactly these; a clone contains under each key what the iteration of the original found there, as one lookup.", "quantifier": "every execution graph the C11 axioms allow; all key and value types with a lawful Eq and Hash; all lists; all interference", "why_tests_cant": "Outdated reads and reorderings do not occur on the hardware tests run on; the order must exist for every execution.", "anchors": ["src/map.rs", "src/clone_map.rs", "src/set.rs: FromIterator, Extend, Clone", "src/raw/mod.rs"]}
{"id": "C62", "title": "No data races on node contents, by the happens-before relation of C11", "statement": "In every execution that the C11 axioms allow for the orderings of the code, where loads and read-modify-writes may read any write and steps see nodes whether they are initialised or not: the (non-atomic) initialisation of a node happens before every access to one of its slots and before everything that a call, or the caller through a reference it was given, reads in it, in the sense of the C11 standard (sequenced-before, release/acquire, release/consume with dependencies); every node is initialised once. Happens-before has no cycles. No call fails, nothing is freed twice, results stay usable, and the calls on each key have an order that explains them.", "quantifier": "every execution graph the C11 axioms allow, every distribution of the calls over threads, every choice of the loads the pointers come from", "why_tests_cant": "Data races depend on the memory model; x86 test machines do not show missing acquire or consume.", "anchors": ["src/raw/mod.rs: load_consume, compare_and_set_weak, fetch_or", "src/raw/iterator.rs: Iter::new, Iter::next"]}
{"id": "C63", "title": "Weaker orderings would be data races", "statement": "If any one of the orderings of the code that matter is weakened (a consume or acquire load or a release compare-and-set to relaxed, the fetch_or to release), there is an execution the C11 axioms allow in which a call reads the contents of a node although the initialisation of the node does not happen before, in the sense of the C11 standard.", "quantifier": "each of the nine orderings; in the execution, every choice of the loads the pointers come from", "why_tests_cant": "Tests cannot show a race that the hardware happens to hide; and that there is a race is a statement about all chains of happens-before edges.", "anchors": ["src/raw/mod.rs: load_consume, compare_and_set_weak, fetch_or", "src/raw/iterator.rs: Iter::new, Iter::next"]}
{"id": "C64", "title": "Closures of get_or_insert_with may use the map", "statement": "The closure given to get_or_insert_with may itself call the map (look up, insert, remove, also the very key it was called for, also a nested get_or_insert_with), take arbitrarily long, and return an element that depends on what it found: all calls, those of the closure included, still take effect atomically, each between its start and its end, as on a plain map (the outer call with the element its closure actually returned); the closure is called at most once; a call that returns New inserts, in one step after its closure has returned, exactly the element returned, into a map in which the key is absent at that moment; if from the closure's return on the key always has a value (for example because the closure inserted it), the call returns Existing and the closure's element is not stored; nothing panics, is freed twice or used after being freed, and references obtained stay usable; no other modifying call waits for a running closure: each can finish alone even if the closure never returns; lookups take at most 17 steps.", "quantifier": "every execution, every set of calls, every number and nesting of closures that run at the same time, every duration and every result of closures, every interleaving", "why_tests_cant": "A test runs a few closures that do a few things at a few moments; the claim is about whatever a closure does while other threads run.", "anchors": ["src/raw/mod.rs: TraverseState::payload, Raw::get_or_insert_with, Raw::traverse", "src/map.rs: ConMap::get_or_insert_with_element, ConMap::get_or_insert_with"]}
{"id": "C65", "title": "Debug output lists the contents", "statement": "Formatting a container with {:?} or {:#?} while others use it prints {..} with one entry per element of a list (comma-separated, or one indented line each with the alternate flag; key: value for maps) in which no key appears twice, every element was in the container at some moment of the formatting, every element that was there all the time appears, and no key that was absent all the time appears; if the contents do not change meanwhile, the entries are exactly the contents. An empty container prints {}; if a map prints {}, every key was absent at some moment of the formatting.", "quantifier": "every execution, every interleaving of the formatting with other calls, all keys, values and Debug implementations of theirs, both formats", "why_tests_cant": "The tests format a few sets nobody else uses; the claim is about every set of elements and whatever others do meanwhile.", "anchors": ["src/map.rs: Debug for ConMap", "src/clonemap.rs: Debug for CloneConMap", "src/set.rs: Debug for ConSet"]}
{"id": "C66", "title": "fetch_or need not release", "statement": "On the weakly ordered memory of C38 with release sequences added (a read-modify-write that does not release carries on the release sequence of the value it replaces) the orderings of the code suffice even if the fetch_or that condemns a slot is Acquire instead of AcqRel: no call ever looks at a node that need not be initialised, and every element returned or yielded is initialised for its receiver. Without release sequences that is false, and none of the other orderings (nor the acquire part of this one) can be relaxed even with them.", "quantifier": "every execution on weakly ordered memory, every set of calls, every old value loads may return; every choice of orderings at least as strong", "why_tests_cant": "Which stale values a load may return depends on the hardware and the compiler; a test sees a few of them on one machine.", "anchors": ["src/raw/mod.rs: Raw::prune (line 445, fetch_or), Raw::get, Raw::traverse, Raw::remove"]}
{"id": "C67", "title": "Printing the shape on weakly ordered memory", "statement": "Printing a map with PrintShape while other threads use it is sound on weakly ordered memory with reclamation: whatever old values its loads return, it never looks into a node that is freed or that need not be initialised for it; it ends after at most 2^66 loads and can always go on until then; no two elements in the text have equal keys; each was put into the map by a call that does not happen after the printing; an element whose insertion happens before the printing and that no unordered or later call touches is in the text, one removed likewise is not; and the complete text has the form of a trie. With a relaxed load instead of the acquire load there are executions in which the printing looks into an uninitialised node.", "quantifier": "every execution on weakly ordered memory with reclamation, every set of calls, every old value a load may return, every happens-before relation between calls and the printing", "why_tests_cant": "Which stale values a load may return depends on the hardware, the compiler and the schedule; the printing is only used in failing tests of one thread.", "anchors": ["src/raw/debug.rs: Raw::print_shape_ptr, Raw::print_shape, PrintShape"]}
{"id": "C68", "title": "The text of PrintShape can be read", "statement": "What PrintShape writes is the drawing of a trie: pointer and flags of each node, each data node with the Debug texts of its elements, each inner node with its sixteen slots labelled 0 to F. Whatever other threads do meanwhile, the elements in the complete text have different keys, each was in the map at some moment of the printing, for each key the text shows what the map had for it at some moment of the printing, and an element that is in the map all the while is in the text. If nobody changes the map, the text is the drawing of the trie that is there. If the Debug texts of elements can be told from what follows them, different tries have different drawings, so two maps printing the same text look the same. What has been written stays written: a printing that is given up midway leaves the beginning of its text. On weakly ordered memory the complete text is such a drawing, too.", "quantifier": "every schedule of the printing and of other calls, every Debug implementation of the elements, every trie, every pair of tries", "why_tests_cant": "The texts depend on the schedule, on addresses, and on the user's Debug implementation; that no two tries have the same text is a statement about all pairs.", "anchors": ["src/raw/debug.rs: Raw::print_shape_ptr, Raw::print_shape, PrintShape", "src/raw/mod.rs: NodeFlags"]}
{"id": "C69", "title": "Interleavings are exactly the weakly ordered executions without stale reads", "statement": "Whatever can happen when every atomic access is indivisible and all of them happen one after the other (calls, results, elements yielded, closures called, nodes made, at which addresses, which of them are freed and in which order, calls broken off, the map dropped) can also happen on weakly ordered memory with the orderings in the code, where loads may return old values, in an execution in which each call is known to come after everything that had returned when it was made and every access sees the newest value. Conversely, an execution on weakly ordered memory whose accesses all see the newest value is an interleaving, so reading old values is the only thing weakly ordered memory adds. So what holds for everything that is observed on weakly ordered memory holds for all interleavings. The converse is false if old values are read: on weakly ordered memory a thread that is not synchronised with it can miss an insert that has returned, and no interleaving shows that.", "quantifier": "every interleaving of any calls, guards dropped, destructions run and drop of the map; every key type, payload type and hash function", "why_tests_cant": "It compares two sets of executions, both infinite.", "anchors": ["src/raw/mod.rs: Raw::traverse, Raw::get, Raw::remove, Raw::prune, all atomic accesses and their orderings", "src/raw/iterator.rs: Iter::next"]}
{"id": "C70", "title": "A map handed from one call to the next is a plain map, also on weakly ordered memory", "statement": "On weakly ordered memory, with the orderings in the code: if every call is made after all calls before it have returned, and the thread that makes it knows that the last of them has (the map, or a reference to it, was sent to it), then no access reads an old value of a slot, every call returns exactly what it returns on a plain map to which the calls before it have been applied, and the map is left with these contents; the calls may be made by any threads, guards may be dropped and nodes freed in between. That the calls before have returned is not enough if the thread does not know: then a lookup can miss an insert.", "quantifier": "every sequence of calls, every schedule of guards dropped, destructions run and map dropped, every choice the memory model allows; every key type, payload type and hash function", "why_tests_cant": "The hardware tests run on may never show an old value, and the sequences of calls are infinitely many.", "anchors": ["src/raw/mod.rs: Raw::traverse, Raw::get, Raw::remove, Raw::prune and the orderings of all their atomic accesses", "src/raw/iterator.rs: Iter::next"]}
{"id": "C71", "title": "After the threads are joined, a key behaves sequentially", "statement": "On weakly ordered memory, with the orderings in the code: if some calls (insert, get, remove, get_or_insert_with with one key, iterations, is_empty) are each known to come after those before them, and every other call that modifies the key is known to come before all of them or after all of them, then there is one thing the key stands for when the first of them is made (nothing, or an element put in by a call known to come before), and from there on they return exactly what they return one after the other on a plain map (an iteration: it yields what is stored under the key, or nothing with that key; is_empty: it says true only if nothing is). What the other calls do among themselves does not matter: they may overlap in any number of threads. If nobody else modifies the key before, the key stands for nothing to begin with.", "quantifier": "every execution graph the C11 axioms allow: all keys, all sequences of such calls, all interference before, after, and on other keys during them", "why_tests_cant": "Whether a call can still see a state of the map from before the join depends on the memory model, over unboundedly many executions.", "anchors": ["src/raw/mod.rs: Raw::traverse, Raw::get, Raw::insert, Raw::remove, Raw::get_or_insert_with and the orderings of their atomic accesses"]}
