# Formal model of rc_slice in Rocq (Coq 8.16.1)

## Approach

The code is read as text and modelled function by function as computable Gallina:

* `usize` is `N`; every subtraction/addition that could under/overflow in Rust is an explicit checked
  operation returning an error value; loops run on explicit fuel, and running out of fuel is an error value
  that the theorems exclude.
* A result type `res` distinguishes `Ok`, `Panic` (a Rust panic), `UB` (the model detected something that is
  undefined behaviour in Rust: reading/dropping an uninitialised item, touching a freed buffer, releasing a dead
  reference, freeing with the wrong layout) and `NoFuel`.
* `Rc`/`Arc` heaps are lists of counted boxes with *explicit strong counters* that the modelled code increments
  and decrements (so an unbalanced `into_raw`/`from_raw`/`forget` is expressible). A box whose count reaches 0 is
  destroyed (its slot becomes empty); identities are never reused; `Weak::upgrade` succeeds iff the slot is live.
* Pointers carry a byte address (with `size_of::<T>()` as a parameter, 0 allowed) and, as ghost state, the block and
  the logical index of the item they denote. Ghost data is used only to decide *which* item a memory access touches.

Layers:

1. pure iterators: `SliceItems`, `PtrOrIdx(Range)`, `SliceItemsIter`, `SliceItemsParts` and `BinaryPartsIter`;
2. the data layer: buffers, `SliceAlloc`, `RcSliceData` trees, item drops;
3. the guard layer of `crate::rc` (`IntoMutGuard`, `GetMutGuard`);
4. the whole single-threaded `crate::rc` API as a state machine over a table of user handles;
5. the same for `crate::arc` used sequentially (`DataGuard`, gates, weak boxes);
6. a small-step interleaving model of the concurrent parts of `crate::arc`.

The main theorem for `crate::rc` is a refinement: the concrete machine produces exactly the outputs of a
count-free, guard-free, heap-free specification (`Spec.v`) in which a shared handle is a node of a halving tree.
The individual properties are stated over all reachable concrete states.

## Plan per property

| id | what is modelled | how it is proved |
|----|------------------|------------------|
| C01 C02 C03 | layer 4, contents and addresses of every handle | invariant (range of node = halving of the root range along its path) + refinement |
| C04 | UB detection in layers 2-4 | no reachable step returns `UB`/`NoFuel` (invariant) |
| C05 | memory as a finite map of initialised items | invariant: domain of memory = union of handle ranges |
| C06 | event trace of drops, hand-outs, insertions | conservation of multisets by induction over ops |
| C07 C08 C10 | counters in layers 2/3 | counting invariants => exact characterisation by the set of live handles |
| C09 C15 | op sequences not touching a handle | induction over continuations |
| C11 C12 C14 C13 | layer 4 | refinement/invariant |
| C16 C17 C28 | layer 1 + layer 4 | refinement of an iterator to a deque of items |
| C18 C19 C25 | layer 1 bit-mask arithmetic | induction on k |
| C20 C21 C22 | layer 1 `BinaryPartsIter` | deque = canonical subtree decomposition, induction on k |
| C23 | layer 1 with `VecDeque` capacities and debug assertions | expected refuted in debug builds (clone loses capacity) |
| C24 C32 | layer 1, checked arithmetic | direct |
| C26 C27 | layer 2/3/4 | counting invariants |
| C29 C30 C31 | layer 4 | refinement |
| C33 C34 C35 C42 C43 | layer 5 | as for rc; C35 and C42 expected refuted by a concrete history |
| C36 C37 C38 C39 C40 C41 | layer 6 | invariants over all schedules; C38, C39 expected refuted by a concrete schedule |
| C44 | layers 4 and 5 with a counter-free tidiness invariant (`Tidy*.v`, `ArcTidy.v`) | invariant: every live buffer is reachable from a handle; refuted for the stronger "as soon as no item is left" reading |
| C46 C47 | layer 6 against layer 5 | simulation of one uninterrupted call (`ConcSolo`, `ConcCall`, `ConcAlone`), exact success conditions from counting invariants (`ConcExact`) |
| C45 C48 | layer 6 | waits-for graph is acyclic; lexicographic measure decreases with every step that is not a wait (`ConcWind`, `ConcLive`, `ConcFair`) |
| C49 | layers 4 and 5 with unwinding (`PanicModel`) | simulation: same state as without panics, up to items left behind (`TraceHom`, `PanicTheory`, `PanicRun`) |
| C50 | layer 6 with happens-before (`OrderModel`) | invariant: for each access to a live item, someone who keeps the item alive, or the counter it will be released through, knows of it (`OrderInv` ... `OrderTheory`); for `get_mut` in addition: whoever mentions the data is its one slice, and a thread holding the reference knows of every access to its items (`OrderHold`); refuted for `get_mut` on split or downgraded slices by concrete schedules |
| C51 | layer 6 with happens-before (`PubModel`) | invariant: whoever has a pointer, and whoever can read one from an atomic field, knows of the access that made the object; whoever keeps an object alive, or its counter, knows of each access to it (`PubInv`, `PubSteps`, `PubFlow`) |
| C52 | layers 4 and 5 with the trait impls (`TraitModel`) | laws of the functions of `core` on lists, and the refinements of C31 and C33: what a variable shows is what its specification says (`TraitTheory`, `TraitLaws`) |
| C53 | layer 6 with stale loads (`WeakModel`) | a stale load preserves the invariants of layer 6 (`WeakInv`): boxes are not freed and children stay, so old pointers are good, and nothing else depends on what was read, except in `into_mut` and `get_mut` (`WeakTheory`); refuted for these by concrete executions (`WeakDemo`); for `get_mut` without halves, and without `downgrade` or without `upgrade`: who has a reference to a guard knows of an increment since the count was last 1 before, or lent the slice to one who does (`WeakMut`) |
| C54 | layer 6 | invariant over the history: the stack of a thread is that of the call it is in; the stacks of all calls but `drop` and `upgrade` never come to drop an item, those of `drop` and `upgrade` have no latch (`ReentTheory`); then no call waits for a destructor, by C45; the item being dropped is owned by the stack alone, so no live data covers it (`ReentItem`). Refuted where `into_mut` races with `upgrade` (`ReentCheck`) |

## Files

| layer | model | specification | proofs | property theorems |
|-------|-------|---------------|--------|-------------------|
| base | `Base` | | `BaseLemmas` | |
| 1 iterators | `SliceItemsModel`, `BinPartsModel` | inside `Spec` | `SliceItemsProof`, `BinPartsProof` | `PropIter` |
| 2-4 rc | `DataModel`, `RcModel`, `Api` | `Spec`, `TidySpec` | `DataInv` ... `DebugTheory`, `Tidy`, `TidyTheory` | `PropSplit`, `PropMemory`, `PropMut`, `PropIter`, `PropWrite`, `PropRefine`, `PropTidy` |
| 5 arc, sequential | `ArcModel` | `ArcSpec` | `ArcInv` ... `ArcSame`, `ArcTidy` | `PropArc`, `PropTidy` |
| 4-5 with panicking destructors | `PanicModel` | `PanicObserve` | `TraceHom`, `PanicTheory`, `QuietTheory`, `PanicRun`, `ArcPanicRun` | `PropPanic` |
| 4-5 with trait impls | `TraitModel` | `TraitObserve` | `TraitTheory`, `TraitLaws` | `PropTrait` |
| 6 arc, concurrent | `ArcConc` | `ConcSpec`, `LiveSpec` | `ConcInv` ... `ConcFair` | `PropConc`, `PropAlone`, `PropLive` |
| 6 with memory orderings | `OrderModel` | inside `OrderModel` | `OrderInv`, `OrderSteps`, `OrderFlow`, `OrderCalls`, `OrderNew`, `OrderTheory` | `PropOrder` |
| 6 with memory orderings, objects of the crate | `PubModel` | inside `PubModel` | `PubCount`, `PubEvents`, `PubInv`, `PubSteps`, `PubFlow`, `PubTheory` | `PropPub` |
| 6 with stale loads | `WeakModel` | inside `WeakModel` | `WeakInv`, `WeakTheory`, `WeakMut` | `PropWeak` |
| 6, destructors | as for 6 | `ReentSpec` | `ReentTheory`, `ReentItem` | `PropReent` |

`Demo`, `ArcDemo`, `PanicDemo`, `ConcRaces`, `ConcCheck`, `AloneCheck`, `LiveCheck`, `OrderDemo`, `PubDemo`, `WeakDemo` and `ReentCheck` hold the concrete histories used by the
refuted theorems and by the examples that show the hypotheses of a theorem can be met.

## Trusted base

1. **Coq's kernel** (8.16.1), including its `vm_compute` reduction, which is used for the concrete histories.
2. **Axioms.** `Print Assumptions` stands below each theorem in the `Prop*.v` files and answers
   "Closed under the global context" for every one of them: no axiom is used, neither ours nor the library's.
   The libraries loaded are Coq's standard library (`NArith`, `Lia`) and std++ (`prelude`, `gmap`, `pretty`).
3. **The model**: that the Gallina definitions in the model files say what the Rust text says. Each definition cites
   the file and lines it renders. No tool checks this link. To make it reviewable the model keeps the structure of the
   code: the same functions in the same order, counters that are explicitly counted up and down, explicit
   addresses, checked arithmetic.
4. **The statements**: `Spec.v`, `ArcSpec.v`, `ConcSpec.v`, `LiveSpec.v`, `TidySpec.v` and the text of the theorems.

## What is modelled

* `src/internal/slice_model/slice_items.rs`: all of `SliceItems` (construction, `deref`, `split_off_left/right`,
  `split_into_parts`, drop), `SliceItemsIter` (`new`, `as_slice`, `next`, `next_back`, `split_off_from/to`, `len`, drop),
  `SliceItemsParts` (`new`, `as_slice`, `next`, `next_back`, `len`, drop) and `zst_utils` (`PtrOrIdx`,
  `PtrOrIdxRange`), with `size_of::<T>()` as a parameter.
* `src/internal/slice_model/slice_alloc.rs`: allocation, layout at release.
* `src/internal/bin_parts_iter.rs`: `BinaryPartsIter` with its `VecDeque`, the reserved capacity, the debug
  assertions and the derived `Clone`.
* `src/internal/gate.rs`: `Gate` and `Latch`.
* `src/rc/rc_slice.rs` and `src/arc/arc_slice.rs`: every function with a body of its own: the data tree, the guards,
  `RcSlice`/`ArcSlice`, `WeakSlice`, the parts iterators, all `Drop` impls.
* `src/rc/rc_slice_mut.rs`: `RcSliceMut`, its iterator, its parts, the conversions. `src/arc/arc_slice_mut.rs` is the
  same text with `Arc` for `Rc`, and shares the definitions.

The operations a history may contain are the constructors of `op` in `Api.v`; the calls a concurrent thread may make
are the constructors of `cop` in `ArcConc.v`.

## What is not modelled, and simplifications

* **Trait impls.** Those of `src/internal/macros/*` are modelled in `TraitModel.v` on top of `deref` and `len`; what `core` does
  with plain slices (`==`, `cmp`, `hash`, `{:?}`) and `debug_tuple`/`debug_struct` without `{:#?}` is written out there from the documentation of `core`. `PartialEq<B>` is
  only modelled for equal item types, `Pointer` is not modelled (`deref` shows the address), `FromIterator` and the `From` impls
  are `from_vec`. `Send`/`Sync` impls are type-level only and are not modelled.
* **Item code.** Destructors and `Clone` of items do not call back into the library, and `Clone` does not panic. For `crate::arc` a
  destructor that does call back is covered in so far as it acts like another thread (C54). Dropping an
  item is one step that records the value in the trace. Destructors that panic are modelled in `PanicModel.v` (C49) for
  layers 4 and 5: the rest of a slice, tuple, deque or struct is still dropped, the code after the call is skipped, a second
  panic aborts, the caller catches the panic. Which `RcBox` memory old versions of `Rc` leak in that case is not modelled.
* **`std`.** `Rc`, `Arc`, `Weak`, `Vec`, `Box`, `VecDeque`, `ptr::drop_in_place` and the allocator are taken to do what
  their documentation says. `Rc`/`Arc` strong counters are modelled; counters do not overflow; the memory
  of a dead counted box that only `Weak`s keep (the `RcBox`) is not modelled. Allocation does not fail.
* **Addresses** of different blocks do not overlap and identities are never reused; this forbids ABA on data, guards and
  boxes. `arc_slice.rs` never frees the boxes of its guard pointers while the data lives, so the model loses nothing there.
* **Memory model.** Layer 6 interleaves steps over a sequentially consistent memory. Each atomic access, each
  counter update and each drop of an item is one step. `OrderModel.v` adds the happens-before relation given by the orderings `Acquire`/`Release`/`AcqRel`/`SeqCst` of the
  code and by those of `std::sync::Arc` (assumed, its source is not part of the repository; what differs between versions is a parameter) to such an execution; C50
  shows that accesses to items are ordered by it, C51 (`PubModel.v`) that those to nodes, guards and boxes are ordered after the making of the object and before its
  destruction. In these the values read by atomic accesses are those of the schedule. `WeakModel.v` (C53) lets atomic loads return any older value that
  no store known to the thread has replaced, as C++11 does; `SeqCst` loads are treated like `Acquire` ones there, which allows more.
  Not covered are executions in which a load returns a value that is stored later in the schedule (which
  needs a cycle of reads and program order).
* **Layer 6 covers** `from_vec`, `clone`, `clone_left/right`, `downgrade`, `upgrade`, `into_mut`, `get_mut` (as a borrow
  with a beginning and an end), `into_immut`, `deref`, drops, and `split_off_left/right` and item replacement of an `ArcSliceMut`. `split_off_left/right` of an `ArcSlice` is, in the code, `clone_left`
  and `clone_right` and an assignment that drops the old handle; a thread makes those calls one after another. The
  parts and item iterators own what they iterate over and touch shared state only through these calls; they are not
  separate calls of layer 6.

## Findings

Eight properties one would expect are false of the code, each with a kernel-checked witness:

* C23, `C23_debug_refuted`: a cloned parts iterator panics in a debug build, since `VecDeque::clone` loses capacity.
* C35, `C35_same_refuted`, `C35_descendant_refuted`: sequentially, `ArcSlice::get_mut` can succeed while a `WeakSlice`
  that can still be upgraded exists.
* C38, `C38_refuted`, `C38_double_drop_refuted`: an `upgrade` racing `into_mut` yields overlapping slices and items dropped twice.
* C39, `C39_refuted`, `C39_weak_refuted`: a `downgrade` racing `get_mut` yields a shared view of items being mutated.
* C42, `C42_refuted`: the `Box<Weak<DataGuard>>` objects are never freed.

* C49, `C49_leak_refuted`: when the destructor of an item panics, items of the slice's other half may never be dropped
  (a leak, not a memory error: the other `C49` theorems show that nothing else goes wrong).
* C50, `C50_get_mut_refuted`, `C50_upgrade_refuted`, `C50_relaxed_refuted`: writing through the result of `ArcSlice::get_mut` can be a data race
  with a read of a part of the slice by another thread, since a failed `Weak::upgrade` of an old guard (arc_slice.rs:289) does
  not synchronise with the thread that gave the guard up; with a read through a later `WeakSlice::upgrade`, since nothing is
  released when the reference ends; and with any reader if `Arc::strong_count` is `Relaxed`.
* C53, `C53_into_mut_refuted`, `C53_get_mut_refuted`: without any `WeakSlice`, `into_mut` and `get_mut` hand out items that another slice has, if
  `Arc::strong_count(&data_guard)` (arc_slice.rs:372, 396) returns a value from before another thread cloned the slice. The gates do not
  prevent this: closing the gate and reading the count, and incrementing the count and reading the gate, is the store buffering pattern, and
  the increment in `Arc::clone` is `Relaxed`, that in `Weak::upgrade` `Acquire`, so not part of the order of `SeqCst` operations. On x86, where each
  increment is a fence, it cannot happen.
  `C53_get_mut_weak_refuted`: without halves too, if `Arc::weak_count` (arc_slice.rs:370) returns a value from before another thread downgraded
  a clone that it has dropped since; that thread may then upgrade while the reference lives.
* C54, `C54_upgrade_refuted`, `C54_latch_refuted`: `WeakSlice::upgrade` runs destructors, of the other half, if the last slice goes away while it
  has an `Arc` of the parent's data (arc_slice.rs:294-295); and `into_mut` that races with `upgrade` runs destructors while its gate is closed.

The `_partial` theorems say what holds instead, and under which restriction. C44 has `C44_strip_refuted`: a buffer
may outlive its last item while an empty strip of it is held.
