{
 "claims": [
  {
   "property": "C01",
   "status": "proved",
   "theorems": [
    "C01_clone_half"
   ],
   "note": ""
  },
  {
   "property": "C02",
   "status": "proved",
   "theorems": [
    "C02_split_off"
   ],
   "note": ""
  },
  {
   "property": "C03",
   "status": "proved",
   "theorems": [
    "C03_address",
    "C03_buffers_stay",
    "C03_items_stay",
    "C03_derived",
    "C03_frame"
   ],
   "note": "Five theorems: address formula; buffers never move; items never move between cells; results cover a contiguous piece of the same cells; unused handles keep address and items. For zero-sized items the address is the buffer's or, for as_slice of iterators, the dangling one."
  },
  {
   "property": "C04",
   "status": "proved",
   "theorems": [
    "C04_never_stuck",
    "C04_covered_live",
    "C04_deref_total"
   ],
   "note": "The model returns UB on any access to a dead item or freed buffer; never_stuck excludes it for every history."
  },
  {
   "property": "C05",
   "status": "proved",
   "theorems": [
    "C05_alive_iff_covered",
    "C05_drop_exact"
   ],
   "note": ""
  },
  {
   "property": "C06",
   "status": "proved",
   "theorems": [
    "C06_conserved",
    "C06_dropped_once",
    "C06_end"
   ],
   "note": ""
  },
  {
   "property": "C07",
   "status": "proved",
   "theorems": [
    "C07_get_mut_exclusive",
    "C07_overlap_blocks"
   ],
   "note": ""
  },
  {
   "property": "C08",
   "status": "proved",
   "theorems": [
    "C08_get_mut_iff"
   ],
   "note": ""
  },
  {
   "property": "C09",
   "status": "proved",
   "theorems": [
    "C09_get_mut_stable"
   ],
   "note": ""
  },
  {
   "property": "C10",
   "status": "proved",
   "theorems": [
    "C10_into_mut_iff"
   ],
   "note": ""
  },
  {
   "property": "C11",
   "status": "proved",
   "theorems": [
    "C11_convert_keeps",
    "C11_drops_nothing",
    "C11_into_immut_total",
    "C11_round_trip"
   ],
   "note": ""
  },
  {
   "property": "C12",
   "status": "proved",
   "theorems": [
    "C12_unique_disjoint"
   ],
   "note": ""
  },
  {
   "property": "C13",
   "status": "proved",
   "theorems": [
    "C13_upgrade_iff"
   ],
   "note": ""
  },
  {
   "property": "C14",
   "status": "proved",
   "theorems": [
    "C14_weak_round",
    "C07_overlap_blocks"
   ],
   "note": ""
  },
  {
   "property": "C15",
   "status": "proved",
   "theorems": [
    "C15_into_mut_kills"
   ],
   "note": ""
  },
  {
   "property": "C16",
   "status": "proved",
   "theorems": [
    "C16_iter_items",
    "C16_iter_cells",
    "C16_drop"
   ],
   "note": ""
  },
  {
   "property": "C17",
   "status": "proved",
   "theorems": [
    "C17_split_at"
   ],
   "note": ""
  },
  {
   "property": "C18",
   "status": "proved",
   "theorems": [
    "C18_C19_C20_C21_parts",
    "C18_C20_leaves"
   ],
   "note": ""
  },
  {
   "property": "C19",
   "status": "proved",
   "theorems": [
    "C18_C19_C20_C21_parts",
    "C16_drop"
   ],
   "note": ""
  },
  {
   "property": "C20",
   "status": "proved",
   "theorems": [
    "C18_C19_C20_C21_parts",
    "C18_C20_leaves"
   ],
   "note": ""
  },
  {
   "property": "C21",
   "status": "proved",
   "theorems": [
    "C18_C19_C20_C21_parts"
   ],
   "note": ""
  },
  {
   "property": "C22",
   "status": "proved",
   "theorems": [
    "C22_no_realloc"
   ],
   "note": "For histories in which no parts iterator is cloned; see C23 for clones."
  },
  {
   "property": "C23",
   "status": "partial",
   "theorems": [
    "C23_clone_release_partial",
    "C23_debug_refuted"
   ],
   "note": "Proved for release builds. False in debug builds: the derived Clone loses the deque's spare capacity, so the clone's next() trips debug_assert_eq (bin_parts_iter.rs:262); C23_debug_refuted is the witness."
  },
  {
   "property": "C24",
   "status": "proved",
   "theorems": [
    "C24_panics",
    "C24_succeeds"
   ],
   "note": ""
  },
  {
   "property": "C25",
   "status": "proved",
   "theorems": [
    "C25_even",
    "C25_sum"
   ],
   "note": ""
  },
  {
   "property": "C26",
   "status": "proved",
   "theorems": [
    "C26_freed_once",
    "C26_layout",
    "C26_not_early"
   ],
   "note": ""
  },
  {
   "property": "C27",
   "status": "proved",
   "theorems": [
    "C27_no_leak",
    "C27_weak_only"
   ],
   "note": "The RcBox memory that Weak references keep is not modelled separately; every Weak lives in a guard or handle and all of those are gone."
  },
  {
   "property": "C28",
   "status": "proved",
   "theorems": [
    "C28_sizes",
    "C28_zst_address"
   ],
   "note": ""
  },
  {
   "property": "C29",
   "status": "proved",
   "theorems": [
    "C29_deep_copy",
    "C29_independent"
   ],
   "note": ""
  },
  {
   "property": "C30",
   "status": "proved",
   "theorems": [
    "C30_write",
    "C30_write_total"
   ],
   "note": ""
  },
  {
   "property": "C31",
   "status": "proved",
   "theorems": [
    "C31_refines_spec"
   ],
   "note": ""
  },
  {
   "property": "C32",
   "status": "proved",
   "theorems": [
    "C32_panic_only",
    "C04_never_stuck",
    "C22_no_realloc"
   ],
   "note": "Arithmetic failure in the model is Panic; runs are always Ok and calls panic only for the documented reasons."
  },
  {
   "property": "C33",
   "status": "proved",
   "theorems": [
    "C33_refines_spec",
    "C33_C43_same_as_rc",
    "C33_C43_same_without_get_mut",
    "C33_alive_iff",
    "C33_conserved",
    "C33_dropped_once",
    "C33_into_mut_iff",
    "C33_into_mut_exclusive",
    "C33_upgrade_iff",
    "C33_drop_exact"
   ],
   "note": ""
  },
  {
   "property": "C34",
   "status": "proved",
   "theorems": [
    "C34_get_mut_strong"
   ],
   "note": ""
  },
  {
   "property": "C35",
   "status": "partial",
   "theorems": [
    "C35_descendant_refuted",
    "C35_same_refuted",
    "C35_get_mut_iff_partial",
    "C35_weak_partial",
    "C35_stable_partial",
    "C35_weak_blocks_partial"
   ],
   "note": "False: a WeakSlice of a descendant, or of the slice itself if its guard was recreated, does not stop get_mut; the refuted theorems are witnesses. The partial theorems say exactly when get_mut succeeds and exactly which WeakSlices can still be upgraded into the slice, and that it stays exclusive if there are none."
  },
  {
   "property": "C42",
   "status": "partial",
   "theorems": [
    "C42_refuted",
    "C42_leak_exact_partial",
    "C42_rest_partial",
    "C42_disposed_partial",
    "C42_freed_once_partial"
   ],
   "note": "False: the Box<Weak<DataGuard>> objects are never freed. The partial theorems say exactly what is leaked and that everything else is released."
  },
  {
   "property": "C43",
   "status": "proved",
   "theorems": [
    "C33_C43_same_as_rc",
    "C33_C43_same_without_get_mut",
    "C43_unique_same",
    "C43_unique_disjoint"
   ],
   "note": ""
  },
  {
   "property": "C38",
   "status": "partial",
   "theorems": [
    "C38_refuted",
    "C38_double_drop_refuted",
    "C38_safe_partial",
    "C38_exclusive_partial",
    "C38_not_early_partial",
    "C38_range_partial",
    "C38_dropped_iff_partial",
    "C38_all_gone_partial",
    "C38_no_upgrade_calm",
    "C38_no_into_mut_calm"
   ],
   "note": "False: an upgrade of a WeakSlice of a descendant between into_mut's uniqueness check and forget_items yields overlapping slices, and double drops. The partial theorems prove the claim, for every number of threads and every interleaving, of all schedules in which no upgrade of a part of a slice overlaps the second half of an into_mut on that slice (calm)."
  },
  {
   "property": "C39",
   "status": "partial",
   "theorems": [
    "C39_refuted",
    "C39_weak_refuted",
    "C39_exclusive_partial",
    "C39_kept_partial",
    "C39_shared_kept_partial",
    "C39_no_weak_partial"
   ],
   "note": "False: downgrade may pass the gate just before get_mut closes it and create the WeakSlice after get_mut has counted. The partial theorems prove exclusivity while the reference is held, and that nobody else changes or drops the items, for all schedules in which no upgrade of a part overlaps the end of get_mut, nor one of the slice or a part the time the reference is held (calm_get). C39_no_weak_partial: if also no downgrade that found the gate open is under way when get_mut counts (calm_down), nobody has a WeakSlice linked to the slice's guard while the reference is held; C39_weak_refuted shows that this hypothesis is needed."
  },
  {
   "property": "C40",
   "status": "proved",
   "theorems": [
    "C40_one_latch",
    "C40_closed_iff",
    "C40_try_close",
    "C40_drop_opens",
    "C40_wait"
   ],
   "note": "Under sequential consistency."
  },
  {
   "property": "C41",
   "status": "proved",
   "theorems": [
    "C41_one_guard",
    "C41_installed",
    "C41_agree",
    "C41_guard_needed",
    "C41_guards_gone"
   ],
   "note": "Under sequential consistency."
  },
  {
   "property": "C36",
   "status": "proved",
   "theorems": [
    "C36_same_child",
    "C36_right_half",
    "C36_linked",
    "C36_quiet",
    "C37_all_gone"
   ],
   "note": "That losing the race leaks nothing is part of C37_all_gone (all slice data deallocated once no strong handle is left, whatever races happened)."
  },
  {
   "property": "C37",
   "status": "proved",
   "theorems": [
    "C37_safe",
    "C37_not_early",
    "C37_range",
    "C37_range_kept",
    "C37_once",
    "C37_conserved",
    "C37_dropped_iff",
    "C37_all_gone",
    "C37_mut_exclusive"
   ],
   "note": "Schedules may contain every modelled call except into_mut (for which see C38: with it the property is false). Sequentially consistent memory."
  },
  {
   "property": "C44",
   "status": "proved",
   "theorems": [
    "C44_timely",
    "C44_timely_arc",
    "C44_no_right",
    "C44_strip_refuted"
   ],
   "note": "C44_strip_refuted is the witness that the exception in the statement is real (rc_slice_mut.rs:84-88 keeps self.alloc though self is empty)."
  },
  {
   "property": "C46",
   "status": "proved",
   "theorems": [
    "C46_uncontended",
    "C46_returns",
    "C46_err",
    "C46_rejected",
    "C46_waits",
    "C46_total",
    "C46_get_mut_none",
    "C46_get_mut_some",
    "C46_get_mut_total"
   ],
   "note": "The result is compared with the sequential model (ArcModel.astep) on the same state. Sequentially consistent memory; the hypothesis that the schedule stays calm while the call runs follows from C46_uncontended when the others are not in an upgrade or the second half of an into_mut."
  },
  {
   "property": "C47",
   "status": "proved",
   "theorems": [
    "C47_into_mut",
    "C47_get_mut",
    "C47_upgrade"
   ],
   "note": "Calm schedules only; each theorem gives both directions."
  },
  {
   "property": "C45",
   "status": "proved",
   "theorems": [
    "C45_solo",
    "C45_solo_calm",
    "C45_waits_for",
    "C45_winds_down"
   ],
   "note": "Sequentially consistent memory. C45_solo assumes that the run meets none of the errors of C38 (UB); C45_solo_calm gives sufficient conditions. C45_waits_for holds on every schedule."
  },
  {
   "property": "C48",
   "status": "proved",
   "theorems": [
    "C48_bounded",
    "C48_fair",
    "C48_fair_calm",
    "C48_fair_plain"
   ],
   "note": "Sequentially consistent memory. C48_bounded holds on every schedule; the others for fair schedulers, either assuming that no step runs into the errors of C38 (UB) or with conditions under which none does. Spinning at a gate is not counted as work; by C48_fair it does not go on for ever."
  },
  {
   "property": "C49",
   "status": "proved",
   "theorems": [
    "C49_no_ub",
    "C49_same",
    "C49_conserved",
    "C49_once",
    "C49_alive",
    "C49_no_memory_leak",
    "C49_drop",
    "C49_abort",
    "C49_split",
    "C49_unique",
    "C49_only_drops",
    "C49_no_bomb",
    "C49_no_abort",
    "C49_leak_refuted",
    "C49_arc_no_ub",
    "C49_arc_same",
    "C49_arc_conserved",
    "C49_arc_once",
    "C49_arc_alive",
    "C49_arc_no_memory_leak",
    "C49_arc_drop",
    "C49_arc_abort",
    "C49_arc_split",
    "C49_arc_unique",
    "C49_arc_only_drops",
    "C49_arc_no_bomb",
    "C49_arc_no_abort",
    "C49_arc_leak_refuted"
   ],
   "note": "C49_leak_refuted is the witness for the last sentence: a panic in the items of a child skips those of the parent released with it (rc_slice.rs:217, arc_slice.rs:252). Unwinding as documented for Rust's drop glue; the panic is caught by the caller. Not for the concurrent model."
  },
  {
   "property": "C50",
   "status": "partial",
   "theorems": [
    "C50_race_free_partial",
    "C50_get_mut_partial",
    "C50_clones",
    "C50_order",
    "C50_get_mut_refuted",
    "C50_upgrade_refuted",
    "C50_relaxed_refuted"
   ],
   "note": "Excluded are writes through get_mut on slices that were split or have a WeakSlice, for which the statement is false (C50_get_mut_refuted, C50_upgrade_refuted), and schedules with the overlap of upgrade and into_mut of C38. C50_clones has no such hypothesis. Atomic values are sequentially consistent; happens-before is computed from the orderings. Accesses to items and freeing of buffers are followed; those to nodes, guards and boxes are the subject of C51."
  },
  {
   "property": "C51",
   "status": "proved",
   "theorems": [
    "C51_published",
    "C51_made_once",
    "C51_destroyed",
    "C51_order"
   ],
   "note": "On every run that has not met an error (no hypothesis about upgrade and into_mut). Atomic values are sequentially consistent; happens-before is computed from the orderings. Objects no other thread can have a pointer to yet or any more, and SliceAllocs, are not followed (SliceAllocs: C50)."
  },
  {
   "property": "C52",
   "status": "proved",
   "theorems": [
    "C52_safe",
    "C52_eq",
    "C52_eq_laws",
    "C52_clone_eq",
    "C52_mut_clone_eq",
    "C52_partial_cmp",
    "C52_cmp",
    "C52_cmp_laws",
    "C52_hash",
    "C52_hash_eq",
    "C52_hash_inj",
    "C52_key_stable",
    "C52_debug",
    "C52_size_hint",
    "C52_from_iter",
    "C52_from_iter_fuel"
   ],
   "note": "Each theorem is about both crates. The functions of core on plain slices are modelled from their documentation; PartialEq between different item types, Pointer and the {:#?} form are not modelled."
  },
  {
   "property": "C53",
   "status": "partial",
   "theorems": [
    "C53_sc",
    "C53_load",
    "C53_once",
    "C53_conserved",
    "C53_same_child",
    "C53_right_half",
    "C53_gates",
    "C53_one_guard",
    "C53_guards_agree",
    "C53_guard_needed",
    "C53_safe_partial",
    "C53_not_early_partial",
    "C53_range_partial",
    "C53_dropped_iff_partial",
    "C53_all_gone_partial",
    "C53_mut_exclusive_partial",
    "C53_get_mut_exclusive_partial",
    "C53_get_mut_kept_partial",
    "C53_get_mut_current_partial",
    "C53_into_mut_refuted",
    "C53_get_mut_refuted",
    "C53_get_mut_weak_refuted"
   ],
   "note": "False for into_mut of slices that were halved and for get_mut: the refuted theorems are witnesses. The partial theorems cover all programs that do not call into_mut, and all that do not clone halves; those on get_mut cover all programs that clone no halves and do not downgrade or do not upgrade. Stale values are those allowed by happens-before and coherence; loads of values stored later in the schedule are not covered."
  },
  {
   "property": "C54",
   "status": "partial",
   "theorems": [
    "C54_only_partial",
    "C54_no_latch_partial",
    "C54_gone_partial",
    "C54_gone_plain",
    "C54_drop_only",
    "C54_reentrant_partial",
    "C54_reentrant_plain",
    "C54_upgrade_refuted",
    "C54_latch_refuted"
   ],
   "note": "False when into_mut races with upgrade: C54_latch_refuted. The partial theorems cover all executions in which no into_mut overlaps with an upgrade of the same tree (always calm, cf. C38). C54_upgrade_refuted shows that upgrade does run destructors, of items outside its slice. C54_drop_only covers all programs without upgrade, C54_gone_plain and C54_reentrant_plain all without upgrade or without into_mut. A destructor that calls the library is modelled as a call of another thread made meanwhile. For the single-threaded types, that only drop runs destructors is C49_only_drops and C49_arc_only_drops."
  }
 ]
}