{"id": "C01", "title": "clone_left / clone_right denote the two halves", "statement": "For an RcSlice dereferencing to a slice of n items, clone_left dereferences to the first floor(n/2) items and clone_right to the remaining n - floor(n/2) items, in order, so the two concatenate to the original; the original handle still dereferences to the same items. This includes n = 0 and n = 1 and holds no matter what was cloned, split, dropped, downgraded, upgraded or converted before.", "quantifier": "every history of API calls, every live RcSlice, every length", "why_tests_cant": "tests sample a handful of lengths and one or two histories", "anchors": ["src/rc/rc_slice.rs:RcSlice::clone_left,RcSlice::clone_right,RcSliceData::clone_child,left_sub,right_sub"]}
{"id": "C02", "title": "split_off_left / split_off_right partition the slice", "statement": "split_off_left returns the left half and leaves the right half in place; split_off_right returns the right half and leaves the left half in place. Nothing outside the two halves changes: every other live handle dereferences to what it did before.", "quantifier": "every history of API calls, every live RcSlice / RcSliceMut, every length", "why_tests_cant": "the frame condition ranges over all other handles and all histories", "anchors": ["src/rc/rc_slice.rs:RcSlice::split_off_left,split_off_right", "src/rc/rc_slice_mut.rs:RcSliceMut::split_off_left,split_off_right", "src/internal/slice_model/slice_items.rs:SliceItems::split_off_left,split_off_right"]}
{"id": "C03", "title": "Zero copy: handles address the original buffer", "statement": "Cloning, halving, splitting, converting between RcSlice and RcSliceMut, and iterating never move items: the address of the i-th item of any handle equals the base address of the buffer it was created from plus its index in that buffer times size_of::<T>(), and stays so for the handle's life.", "quantifier": "every history, every live handle, every element size", "why_tests_cant": "addresses must agree for every derivation chain", "anchors": ["src/rc/rc_slice.rs:RcSliceData::right_sub", "src/internal/slice_model/slice_items.rs:SliceItems::mid,PtrOrIdxRange"]}
{"id": "C04", "title": "No use after drop or free", "statement": "No API call sequence reads, writes or drops an item that has already been dropped or moved out, or touches a buffer after it was deallocated: every dereference of every live handle yields initialized items of a live buffer.", "quantifier": "every well-typed single-threaded sequence of API calls on any number of slices", "why_tests_cant": "memory safety must hold for all histories; tests only see those that happen to crash", "anchors": ["src/rc/rc_slice.rs:Drop for RcSliceData,get_mut,into_mut", "src/rc/rc_slice_mut.rs", "src/internal/slice_model/slice_items.rs:Drop for SliceItems", "src/internal/slice_model/slice_alloc.rs:Drop for SliceAlloc"]}
{"id": "C05", "title": "An item is alive exactly as long as some strong handle covers it", "statement": "At every point of every history, an item of a buffer is still alive (neither dropped nor moved out) if and only if at least one live strong handle (RcSlice, RcSliceMut, or an iterator obtained from them) has it in its range. In particular dropping a parent keeps the items of live children alive and drops precisely the items not covered by any remaining handle; WeakSlices never keep items alive.", "quantifier": "every history, every item of every buffer", "why_tests_cant": "the set of covering handles and the shape of the sharing tree are unbounded", "anchors": ["src/rc/rc_slice.rs:Drop for RcSliceData,clone_child,forget_items", "src/internal/slice_model/slice_items.rs:Drop for SliceItems,SliceItemsIter,SliceItemsParts"]}
{"id": "C06", "title": "Each item is disposed of exactly once", "statement": "Every value put into a slice is either still in it, or was dropped by the library exactly once, or was handed back to the caller exactly once; never twice and never lost. When no handle remains, every value has been dropped or handed back.", "quantifier": "every history; every multiset of values", "why_tests_cant": "double drops and leaks depend on the order in which parents, children and iterators die", "anchors": ["src/rc/rc_slice.rs:Drop for RcSliceData,forget_items", "src/internal/slice_model/slice_items.rs:SliceItemsIter::next,next_back", "src/internal/slice_model/slice_items.rs:Drop for SliceItems"]}
{"id": "C07", "title": "get_mut is exclusive", "statement": "If RcSlice::get_mut returns Some, then no other live strong handle overlaps the slice, and no WeakSlice that could still be upgraded denotes the slice or any slice overlapping it.", "quantifier": "every history, every RcSlice", "why_tests_cant": "soundness requires that no history at all yields an alias", "anchors": ["src/rc/rc_slice.rs:RcSlice::get_mut,IntoMutGuard,GetMutGuard"]}
{"id": "C08", "title": "get_mut succeeds whenever it is safe", "statement": "RcSlice::get_mut returns Some exactly when no other strong handle exists for the same subslice, one of its ancestors or one of its descendants, and no WeakSlice exists for the same subslice or one of its descendants. WeakSlices of ancestors and of siblings, and any handle of a sibling, do not matter.", "quantifier": "every history, every RcSlice", "why_tests_cant": "an exact characterisation over all histories", "anchors": ["src/rc/rc_slice.rs:RcSlice::get_mut"]}
{"id": "C09", "title": "get_mut exclusivity is stable while the borrow lasts", "statement": "After get_mut on a handle returned Some, no sequence of API calls that does not use that handle (upgrading WeakSlices, cloning or splitting other handles, dropping, converting) can produce a strong handle overlapping it or change its items.", "quantifier": "every history before the call and every continuation not touching the borrowed handle", "why_tests_cant": "quantifies over all continuations", "anchors": ["src/rc/rc_slice.rs:RcSlice::get_mut,WeakSlice::upgrade"]}
{"id": "C10", "title": "into_mut succeeds exactly when unique", "statement": "RcSlice::into_mut returns Ok exactly when no other strong handle exists for the same subslice, an ancestor or a descendant; WeakSlices do not matter. On Err it returns the very same slice and nothing else changed.", "quantifier": "every history, every RcSlice", "why_tests_cant": "exact characterisation over all histories", "anchors": ["src/rc/rc_slice.rs:RcSlice::into_mut"]}
{"id": "C11", "title": "into_mut / into_immut neither drop nor change items", "statement": "A successful into_mut yields an RcSliceMut with exactly the same items at the same addresses, drops no item, and disturbs no other strong handle; into_immut likewise. into_immut followed by into_mut on an unshared slice round-trips.", "quantifier": "every history, every handle", "why_tests_cant": "children left behind in the sharing tree make the forget logic history dependent", "anchors": ["src/rc/rc_slice.rs:RcSliceData::into_mut,forget_items", "src/rc/rc_slice_mut.rs:RcSliceMut::into_immut"]}
{"id": "C12", "title": "RcSliceMut is unique", "statement": "At every point, the range of a live RcSliceMut (or RcSliceMutIter or RcSliceMutParts) is disjoint from the range of every other live strong handle.", "quantifier": "every history, every pair of handles", "why_tests_cant": "pairwise over all reachable handle sets", "anchors": ["src/rc/rc_slice_mut.rs:RcSliceMut", "src/rc/rc_slice.rs:RcSlice::into_mut"]}
{"id": "C13", "title": "WeakSlice::upgrade succeeds exactly when the subslice is alive", "statement": "upgrade returns Some exactly when some strong handle exists for the same subslice or for one of its ancestors (in the same sharing tree); a WeakSlice from WeakSlice::new never upgrades. Descendants do not suffice even if together they cover the subslice.", "quantifier": "every history, every WeakSlice", "why_tests_cant": "depends on the whole sharing tree", "anchors": ["src/rc/rc_slice.rs:WeakSlice::upgrade,GetMutGuard::ensure_into_mut_guard"]}
{"id": "C14", "title": "upgrade yields the downgraded slice", "statement": "When upgrade returns Some, the resulting RcSlice covers exactly the same items at the same addresses as the RcSlice the WeakSlice was created from, and it takes part in get_mut / into_mut checks like any other handle.", "quantifier": "every history, every WeakSlice", "why_tests_cant": "guards can have died and been rebuilt any number of times in between", "anchors": ["src/rc/rc_slice.rs:WeakSlice::upgrade,ensure_into_mut_guard,clone_left,clone_right"]}
{"id": "C15", "title": "into_mut invalidates WeakSlices for good", "statement": "After a successful into_mut, a WeakSlice for the converted subslice or any of its descendants never upgrades again, even after into_immut.", "quantifier": "every history and every continuation", "why_tests_cant": "quantifies over all continuations", "anchors": ["src/rc/rc_slice.rs:RcSliceData::into_mut,forget_items"]}
{"id": "C16", "title": "RcSliceMutIter yields every item once, in order, from either end", "statement": "For any interleaving of next and next_back, the items taken from the front are the first items in order, those taken from the back are the last items in reverse order, none twice, None exactly when all are taken and forever after; as_slice is always exactly the not-yet-taken items, and dropping the iterator drops exactly those.", "quantifier": "every length (including zero-sized item types), every interleaving", "why_tests_cant": "2^n interleavings of unbounded length", "anchors": ["src/internal/slice_model/slice_items.rs:SliceItemsIter,PtrOrIdx,PtrOrIdxRange", "src/rc/rc_slice_mut.rs:RcSliceMutIter"]}
{"id": "C17", "title": "RcSliceMutIter::split_off_from / split_off_to split anywhere", "statement": "split_off_from(at) keeps the first at items and returns the rest; split_off_to(at) returns the first at items and keeps the rest; both panic exactly when at > len and then change nothing.", "quantifier": "every iterator state, every at", "why_tests_cant": "unbounded positions and states", "anchors": ["src/internal/slice_model/slice_items.rs:SliceItemsIter::split_off_from,split_off_to", "src/rc/rc_slice_mut.rs:RcSliceMutIter::split_off_from,split_off_to"]}
{"id": "C18", "title": "Mutable parts: any interleaving yields the recursive-halving leaves", "statement": "split_into_parts(2^k) on an RcSliceMut yields exactly 2^k parts; the j-th from the front (whatever the interleaving of next and next_back) is the j-th leaf of splitting the slice in half k times; len() counts the parts left; after the last it is None forever.", "quantifier": "every slice length, every k, every interleaving", "why_tests_cant": "bit-mask index arithmetic over unbounded k and interleavings", "anchors": ["src/internal/slice_model/slice_items.rs:SliceItemsParts::next,next_back,len"]}
{"id": "C19", "title": "Mutable parts: as_slice is the concatenation of the parts still to come", "statement": "At every point RcSliceMutParts::as_slice is exactly the items of the parts not yet yielded; dropping the iterator early drops exactly those.", "quantifier": "every slice length, every k, every interleaving", "why_tests_cant": "start and end are recomputed from counters by bit masks", "anchors": ["src/internal/slice_model/slice_items.rs:SliceItemsParts::as_raw_slice_parts,Drop"]}
{"id": "C20", "title": "Shared parts: any interleaving yields the recursive-halving leaves", "statement": "split_into_parts(2^k) on an RcSlice yields exactly the same subslices, in the same order and from both ends, as recursive halving; next and next_back commute; len() is exact; None forever after the last.", "quantifier": "every slice length, every k, every interleaving", "why_tests_cant": "the loop-skipping condition is justified in the source only by hand-waving examples for 8 parts", "anchors": ["src/internal/bin_parts_iter.rs:BinaryPartsIter::next,next_back", "src/rc/rc_slice.rs:RcSliceParts"]}
{"id": "C21", "title": "Shared parts: as_slice is the concatenation of the parts still to come", "statement": "At every point RcSliceParts::as_slice is exactly the items of the parts not yet yielded, in order, for sized and zero-sized item types.", "quantifier": "every slice length, every k, every interleaving", "why_tests_cant": "pointer arithmetic across separately split slices", "anchors": ["src/internal/bin_parts_iter.rs:BinaryPartsIter::as_slice,SplitAsSlice"]}
{"id": "C22", "title": "Shared parts never reallocate their deque", "statement": "Iterating a freshly created parts iterator never holds more subslices than the capacity reserved at construction, at any moment, so the debug assertion in next / next_back never fires.", "quantifier": "every k, every interleaving, every capacity policy of VecDeque that honours with_capacity", "why_tests_cant": "claimed in a comment as 'it turns out'", "anchors": ["src/internal/bin_parts_iter.rs:BinaryPartsIter::new,next,next_back"]}
{"id": "C23", "title": "A cloned parts iterator iterates like the original", "statement": "Cloning a parts iterator and iterating the clone yields the same parts as the original, without panicking, in debug builds too.", "quantifier": "every k, every state at which it is cloned, every later interleaving", "why_tests_cant": "the test clones only at 2 parts", "anchors": ["src/internal/bin_parts_iter.rs:BinaryPartsIter(derive Clone),next,next_back", "src/rc/rc_slice.rs:Clone for RcSliceParts"]}
{"id": "C24", "title": "split_into_parts panics exactly on non-powers of two, leaking nothing", "statement": "split_into_parts(n) panics if n is 0 or not a power of two and succeeds otherwise; when it panics the consumed slice is released as if dropped.", "quantifier": "every n, every slice, every history", "why_tests_cant": "unbounded n", "anchors": ["src/internal/bin_parts_iter.rs:BinaryPartsIter::new", "src/internal/slice_model/slice_items.rs:SliceItemsParts::new"]}
{"id": "C25", "title": "Parts are roughly even", "statement": "Each of the 2^k parts of a slice of n items has floor(n/2^k) or ceil(n/2^k) items, and the sizes sum to n.", "quantifier": "every n and k", "why_tests_cant": "arithmetical statement over all n, k", "anchors": ["src/internal/slice_model/slice_items.rs:SliceItemsParts", "src/internal/bin_parts_iter.rs:BinaryPartsIter"]}
{"id": "C26", "title": "The buffer is freed exactly once, with its own layout, and not too early", "statement": "A buffer is deallocated at most once, with the pointer and capacity it was allocated with, and never while a strong handle has a non-empty range in it.", "quantifier": "every history, every buffer (non zero-sized items)", "why_tests_cant": "deallocation point depends on which of many handles dies last", "anchors": ["src/internal/slice_model/slice_alloc.rs:Drop for SliceAlloc", "src/internal/slice_model/mod.rs:split_alloc_from_items", "src/rc/rc_slice_mut.rs:alloc handling"]}
{"id": "C27", "title": "Nothing is leaked once all handles are gone (Rc)", "statement": "When every strong and weak handle has been dropped, every buffer has been freed and every internal bookkeeping object destroyed (no reference cycles, no unbalanced counts).", "quantifier": "every history that ends with no handles", "why_tests_cant": "reference cycles or unbalanced into_raw/from_raw show up only in some histories", "anchors": ["src/rc/rc_slice.rs:IntoMutGuard,GetMutGuard,RcSliceData::clone_child,take_child,forget_items"]}
{"id": "C28", "title": "Zero-sized items behave like others", "statement": "For zero-sized item types lengths, splitting, iteration and the multiset of dropped items are the same as for sized types, and every slice pointer is the buffer's base address or (as_slice of the iterators) the dangling address.", "quantifier": "every history with a zero-sized item type", "why_tests_cant": "separate code paths keyed on size_of", "anchors": ["src/internal/slice_model/slice_items.rs:PtrOrIdx,mid", "src/rc/rc_slice.rs:right_sub", "src/internal/bin_parts_iter.rs:as_slice"]}
{"id": "C29", "title": "RcSliceMut::clone is an independent deep copy", "statement": "Cloning an RcSliceMut creates a new buffer holding clones of the items; afterwards writing, dropping or converting one never affects the other.", "quantifier": "every history and continuation", "why_tests_cant": "independence over all continuations", "anchors": ["src/rc/rc_slice_mut.rs:Clone for RcSliceMut"]}
{"id": "C30", "title": "Writes are local", "statement": "Writing an item through a mutable handle (RcSliceMut, get_mut, mutable iterators) changes that item in that handle only: no other live handle observes any change, and later reads through the same handle (or handles derived from it) see the new value.", "quantifier": "every history, every write", "why_tests_cant": "frame condition over all handles", "anchors": ["src/rc/rc_slice_mut.rs:DerefMut", "src/rc/rc_slice.rs:get_mut", "src/internal/slice_model/slice_items.rs:as_mut_slice"]}
{"id": "C31", "title": "The whole single-threaded API refines a count-free specification", "statement": "Every sequence of RcSlice / WeakSlice / RcSliceMut / iterator calls returns exactly what a small specification returns in which handles are just nodes of a halving tree and sharing is decided by looking at the set of live handles, with no reference counts, guards or heap.", "quantifier": "every sequence of API calls, with every output compared", "why_tests_cant": "behavioural equivalence over all histories", "anchors": ["src/rc/rc_slice.rs", "src/rc/rc_slice_mut.rs", "src/internal/slice_model/slice_items.rs", "src/internal/bin_parts_iter.rs", "src/internal/slice_model/mod.rs"]}
{"id": "C32", "title": "Index arithmetic never over- or underflows", "statement": "For all slice lengths and part counts representable in usize, no addition, subtraction or shift in the iterators over- or underflows, and all loops terminate.", "quantifier": "all usize inputs, all iterator states", "why_tests_cant": "2^64 inputs", "anchors": ["src/internal/slice_model/slice_items.rs:SliceItemsParts,PtrOrIdxRange", "src/internal/bin_parts_iter.rs:greatest_power_of_2_factor,new,next"]}
{"id": "C33", "title": "ArcSlice behaves like RcSlice for sharing, halving and dropping (sequential)", "statement": "Used from one thread, ArcSlice has the same item-liveness, halving, weak-upgrade and into_mut behaviour as RcSlice: into_mut succeeds exactly when no other strong handle exists for the subslice, an ancestor or a descendant.", "quantifier": "every sequential history", "why_tests_cant": "guards are destroyed and recreated depending on history", "anchors": ["src/arc/arc_slice.rs:ArcSlice,DataGuard::guard,ArcSliceData"]}
{"id": "C34", "title": "ArcSlice::get_mut excludes other strong handles", "statement": "If ArcSlice::get_mut returns Some then no other strong handle overlaps the slice.", "quantifier": "every sequential history", "why_tests_cant": "all histories", "anchors": ["src/arc/arc_slice.rs:ArcSlice::get_mut"]}
{"id": "C35", "title": "ArcSlice::get_mut excludes upgradeable WeakSlices", "statement": "If ArcSlice::get_mut returns Some then no WeakSlice that could be upgraded while the borrow lasts overlaps the slice.", "quantifier": "every sequential history and continuation", "why_tests_cant": "needs a particular history of guards dying and being rebuilt", "anchors": ["src/arc/arc_slice.rs:ArcSlice::get_mut,downgrade,DataGuard::guard"]}
{"id": "C36", "title": "Racing clone_left / clone_right agree on one child", "statement": "When any number of threads call clone_left (or clone_right) on the same slice concurrently, all obtain handles to the same child, whichever thread wins the race, and losing the race neither drops nor leaks an item.", "quantifier": "every number of threads, every schedule", "why_tests_cant": "schedules cannot be enumerated by running", "anchors": ["src/arc/arc_slice.rs:ArcSliceData::clone_child"]}
{"id": "C37", "title": "Concurrent sharing never drops an item early or twice", "statement": "With any number of threads cloning, halving, downgrading, upgrading and dropping ArcSlices concurrently, no item is dropped while some thread's strong handle covers it and none is dropped twice; when all are gone, all are dropped.", "quantifier": "every number of threads, every schedule", "why_tests_cant": "all interleavings", "anchors": ["src/arc/arc_slice.rs:ArcSliceData,Drop for ArcSliceData,WeakSlice::upgrade"]}
{"id": "C38", "title": "ArcSlice::into_mut is exclusive under concurrency", "statement": "If into_mut returns Ok in one thread, no other thread holds or can obtain a strong handle overlapping the slice.", "quantifier": "every schedule, including concurrent upgrade of WeakSlices of descendants", "why_tests_cant": "requires one particular interleaving", "anchors": ["src/arc/arc_slice.rs:ArcSlice::into_mut,WeakSlice::upgrade,forget_items"]}
{"id": "C39", "title": "ArcSlice::get_mut is exclusive under concurrency", "statement": "If get_mut returns Some in one thread, no other thread holds an upgradeable WeakSlice of the same slice.", "quantifier": "every schedule of downgrade, drop and get_mut", "why_tests_cant": "requires one particular interleaving between the gate check and the downgrade", "anchors": ["src/arc/arc_slice.rs:ArcSlice::get_mut,downgrade", "src/internal/gate.rs"]}
{"id": "C40", "title": "Gate: at most one latch", "statement": "At any time at most one live Latch exists per Gate; try_close succeeds exactly when none is live; dropping the latch reopens the gate and wait_till_open returns only after observing it open.", "quantifier": "every number of threads, every schedule", "why_tests_cant": "all interleavings", "anchors": ["src/internal/gate.rs:Gate::try_close,wait_till_open,Drop for Latch"]}
{"id": "C41", "title": "Concurrent guard creation yields one live guard per subslice", "statement": "When any number of threads obtain the guard of the same subslice concurrently, at any time at most one guard per subslice is alive and installed, and every thread ends with the installed one.", "quantifier": "every number of threads, every schedule", "why_tests_cant": "compare-and-swap retry loops", "anchors": ["src/arc/arc_slice.rs:DataGuard::guard"]}
{"id": "C42", "title": "Nothing is leaked once all handles are gone (Arc)", "statement": "When every ArcSlice and WeakSlice has been dropped, every buffer has been freed and every internal bookkeeping allocation released.", "quantifier": "every sequential history that ends with no handles", "why_tests_cant": "leaks are invisible to functional tests", "anchors": ["src/arc/arc_slice.rs:ArcSliceData::with_data_and_parent,DataGuard::guard,Drop for ArcSliceData"]}
{"id": "C43", "title": "ArcSliceMut behaves like RcSliceMut", "statement": "ArcSliceMut, its iterator and its parts iterator behave exactly as their Rc counterparts.", "quantifier": "every history", "why_tests_cant": "as for the Rc counterparts", "anchors": ["src/arc/arc_slice_mut.rs"]}
{"id": "C44", "title": "Buffers are freed as soon as nothing covers them", "statement": "A buffer of items that are not zero-sized is freed exactly when no handle covers any of its items any more: empty halves, exhausted iterators and emptied parts iterators do not keep it alive. The one exception is the empty slice that split_off_right of a one-item RcSliceMut/ArcSliceMut leaves behind: it keeps the buffer until it is dropped.", "quantifier": "every history of calls, every buffer", "why_tests_cant": "whether an exhausted handle still pins the allocation is invisible to functional tests and depends on the order of splits and drops", "anchors": ["src/rc/rc_slice_mut.rs:RcSliceMutIter::next,split_off_from,split_off_to,RcSliceMutParts::next", "src/rc/rc_slice.rs:RcSliceData::from_boxed_slice,from_data_parts,clone_left,clone_right", "src/internal/slice_model/slice_alloc.rs"]}
{"id": "C45", "title": "No call hangs on its own, and nobody waits in a circle", "statement": "A thread that runs while all others stand still, wherever they are, reaches the end of its call or a gate that another thread has closed. A thread that waits at a gate waits for a thread that is inside get_mut or into_mut and not itself waiting, so there is no deadlock. On calm schedules (see C38) all calls in progress can be brought to their end without an error and without starting new ones.", "quantifier": "every reachable state of any number of threads, every thread", "why_tests_cant": "a test cannot stop the other threads between any two of their atomic steps, nor show that there is no state in which all threads wait", "anchors": ["src/internal/gate.rs:wait_till_open,try_close,Drop for Latch", "src/arc/arc_slice.rs:DataGuard::guard", "src/arc/arc_slice.rs:ArcSlice::get_mut,into_mut,clone_left,clone_right,downgrade"]}
{"id": "C46", "title": "A concurrent call that is not interfered with does what the sequential call does", "statement": "Stop all other threads wherever they are, even in the middle of a call, and let one thread run one call of ArcSlice, WeakSlice or ArcSliceMut. On calm schedules (see C38) it ends with the same result, and leaves the same slices, items, reference counts, guards and drops, as the call executed in one go; the other threads and the variables they borrow are untouched. The only way not to end is to wait for a latch that one of the stopped threads holds; get_mut and into_mut never wait for the latch they take themselves, they fail instead.", "quantifier": "every calm schedule, every number of threads, every call but split_off_left/right of an ArcSlice (a composition of calls)", "why_tests_cant": "the other threads can be stopped between any two of their atomic steps; a test only sees the few interleavings the scheduler happens to produce", "anchors": ["src/arc/arc_slice.rs:ArcSlice::clone,clone_left,clone_right,downgrade,get_mut,into_mut,drop", "src/arc/arc_slice.rs:WeakSlice::upgrade", "src/arc/arc_slice_mut.rs"]}
{"id": "C47", "title": "Exactly when into_mut, get_mut and upgrade succeed", "statement": "While no thread is inside a call, ArcSlice::into_mut succeeds if and only if nobody has another slice of the same data, of a part of it, or of a whole it is part of, and then yields exactly the slice's items, unmoved; get_mut succeeds if and only if in addition nobody has a WeakSlice of that same slice; otherwise both give the slice back. WeakSlice::upgrade succeeds if and only if somebody has a slice of its data or of a whole it is part of.", "quantifier": "every state reached by a calm schedule of any number of threads in which no call is in progress", "why_tests_cant": "which counts are one depends on the whole history of clones, splits, conversions and drops by all threads, including guards and children left behind by races", "anchors": ["src/arc/arc_slice.rs:ArcSlice::into_mut,get_mut", "src/arc/arc_slice.rs:WeakSlice::upgrade"]}
{"id": "C48", "title": "All calls end under every fair scheduler", "statement": "From any reachable state, if no new calls are made, the number of atomic steps the threads make other than spinning at a gate is bounded, however they take turns: the retry loop of DataGuard::guard, the compare-and-swap of clone_child and the recursive drops cannot keep each other going. Hence if each thread gets a turn again and again, all calls in progress return (or get_mut hands out its reference), unless a step runs into one of the errors of C38.", "quantifier": "every reachable state of any number of threads, every sequence of turns", "why_tests_cant": "livelock needs an adversarial infinite schedule; tests run finitely many steps of whatever schedule the machine produces", "anchors": ["src/arc/arc_slice.rs:DataGuard::guard (loop, compare_exchange)", "src/arc/arc_slice.rs:ArcSliceData::clone_child,forget_items,Drop for ArcSliceData", "src/internal/gate.rs:wait_till_open"]}
{"id": "C49", "title": "A panicking destructor of an item does not corrupt memory", "statement": "If destructors of some items panic (and the caller catches the panic), then after any calls no item is dropped twice, none that a variable still shows is gone, nothing is freed early or twice, and all memory is released in the end: the state is the one reached if nothing had panicked, except that some items may have been left behind undropped. Only a drop whose own items panic can panic; it disposes of the items no other variable covers, and those of a unique slice are all dropped. The process aborts only when one drop meets two panicking items, or a refused split_into_parts meets one. That no item is ever left behind is false.", "quantifier": "every set of panicking items, every sequence of calls of the rc API and of the arc API used by one thread", "why_tests_cant": "which items are destroyed by which call depends on the whole sharing history, and where a panic cuts the recursive drop short depends on the shape of the tree; the state after unwinding has to be right for every later call", "anchors": ["src/rc/rc_slice.rs:Drop for RcSliceData", "src/arc/arc_slice.rs:Drop for ArcSliceData", "src/internal/slice_model/slice_items.rs:Drop for SliceItems,SliceItemsIter,SliceItemsParts", "src/internal/bin_parts_iter.rs:BinaryPartsIter::new"]}
{"id": "C50", "title": "No data race on items", "statement": "Of two accesses to the same item by any threads, one of them storing, replacing or dropping it or freeing its buffer, the earlier happens before the later by the memory orderings of the code and of std::sync::Arc, program order and the way Rust passes values between threads. This holds for every use of the arc API in which no upgrade overlaps a conflicting into_mut (C38) and no item is written through what get_mut returned. It also holds with such writes if Arc::strong_count is Acquire, no upgrade overlaps get_mut, and get_mut succeeds only on slices that were never split and have no WeakSlice; in particular for every use of from_vec, clone, deref, get_mut, into_mut and drop. For get_mut on slices that were split, or have a WeakSlice, it is false; if Arc::strong_count is Relaxed, writes through get_mut race even with reads through a plain clone.", "quantifier": "every number of threads, every schedule of calls and atomic steps, both choices for the orderings that differ between versions of std::sync::Arc", "why_tests_cant": "a missing happens-before edge does not show on x86 or under a schedule that happens to synchronise otherwise; race detectors only judge the schedules they saw", "anchors": ["src/arc/arc_slice.rs:ArcSliceData::clone_child,take_child,Drop for ArcSliceData,forget_items", "src/arc/arc_slice.rs:DataGuard::guard", "src/arc/arc_slice.rs:ArcSlice::get_mut,into_mut", "src/internal/gate.rs"]}
{"id": "C51", "title": "Nodes, guards and boxes are published and destroyed in order", "statement": "Every access to an ArcSliceData, a DataGuard or a boxed Weak<DataGuard> happens after the one access that made it, although the pointer may have been read from an atomic field another thread stored it in; and whoever drops or moves out an ArcSliceData or drops a DataGuard does so after every other access to it, apart from looks at its counters through a Weak. Both by the memory orderings of the code and of std::sync::Arc, on every execution.", "quantifier": "every number of threads, every schedule of calls and atomic steps (including those of C38 up to the error), both choices for the orderings that differ between versions of std::sync::Arc", "why_tests_cant": "a pointer published without Release or read without Acquire works on x86 and under almost every schedule; race detectors only judge the schedules they saw", "anchors": ["src/arc/arc_slice.rs:ArcSliceData::clone_child,take_child,Drop for ArcSliceData,forget_items", "src/arc/arc_slice.rs:DataGuard::guard", "src/arc/arc_slice.rs:ArcSlice::get_mut,into_mut,downgrade", "src/arc/arc_slice.rs:WeakSlice::upgrade", "src/internal/gate.rs"]}
{"id": "C52", "title": "The trait impls keep their contracts", "statement": "Two slices compare equal exactly if their items do pairwise; their order is the lexicographic one and is total and consistent with equality if that of the items is; equal slices hash alike, like the plain slice they borrow as, and a slice used as a key keeps its hash whatever is done to other variables; a clone equals its original; size_hint and count of the iterators are exact; collecting an iterator gives its items in order; Debug shows all remaining items. None of these calls panics or changes anything, apart from count, which drops the iterator.", "quantifier": "every item type with any impls, both crates, every sequence of calls before and between", "why_tests_cant": "a law between three slices, or the stability of a key under every interleaved history of splits, writes and drops of other variables, is not covered by comparing a few literals", "anchors": ["src/internal/macros/borrow.rs", "src/internal/macros/cmp.rs", "src/internal/macros/hash.rs", "src/internal/macros/fmt.rs", "src/internal/macros/iter.rs"]}
{"id": "C53", "title": "Stale loads do no harm", "statement": "An atomic load may return an older value than the last stored one, unless the thread knows of a newer one. Whatever such values the loads of gates, child pointers, guard pointers and counters return: no item is dropped twice, early or never, no buffer freed twice, no freed object used; threads asking for the same half get the same node, the right one; a gate is closed by one thread at a time; each data has one guard; and nobody else has the items of an ArcSliceMut, or those handed out by get_mut, meanwhile.", "quantifier": "every number of threads, every schedule of calls, atomic steps and stale loads", "why_tests_cant": "x86 does not show these executions, and no run on a weaker machine can be made to; the number of schedules times choices of old values is unbounded", "anchors": ["src/internal/gate.rs", "src/arc/arc_slice.rs:ArcSliceData::clone_child", "src/arc/arc_slice.rs:DataGuard::guard", "src/arc/arc_slice.rs:ArcSlice::get_mut,into_mut,downgrade"]}
{"id": "C54", "title": "Where destructors of items run", "statement": "Only the calls drop and upgrade run destructors of items, never clone, clone_left/right, downgrade, get_mut, into_mut or into_immut, and without upgrade only drop does. A thread that runs a destructor has closed no gate, so a call made meanwhile by anyone else, or by the destructor itself, does not wait for it and comes to its end. The item whose destructor runs is covered by no slice that anyone has and by no data still alive, and was not dropped before.", "quantifier": "every item type, number of threads, schedule of calls and atomic steps (partly: those in which into_mut does not race with upgrade)", "why_tests_cant": "a destructor under a closed gate hangs or reenters only in particular interleavings of get_mut, into_mut, upgrade and drop; a test sees a few of them and cannot show that none of the others deadlocks", "anchors": ["src/arc/arc_slice.rs:ArcSliceData::drop", "src/arc/arc_slice.rs:DataGuard::guard", "src/arc/arc_slice.rs:ArcSlice::get_mut,into_mut,upgrade", "src/internal/gate.rs"]}
