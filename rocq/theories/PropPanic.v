(** C49: items whose destructor panics. *)
From Verif Require Import Base Api SliceItemsModel BinPartsModel DataModel RcModel Spec Observe Conserve Demo
  ArcModel ArcSpec ArcObserve PanicModel PanicObserve PanicRun ArcPanicRun PanicDemo.

(** Whatever panics, no call has undefined behaviour: the calls run to their end
    or the process is aborted. *)
Theorem C49_no_ub : forall (V : Type) (cf : cfg V) bomb ops, exists x, brun cf bomb (empty_world, []) ops = Ok x.
Proof. exact @bomb_no_ub. Qed.
Print Assumptions C49_no_ub.
(** Unless it is aborted, the process is in the state it would be in if no
    destructor had panicked, except that some items were left behind instead of
    dropped; those that were dropped, were in the same order. Calls return the
    same, except that some drops panic. *)
Theorem C49_same : forall (V : Type) (cf : cfg V) bomb ops wp lk outs',
  brun cf bomb (empty_world, []) ops = Ok (Some ((wp, lk), outs')) ->
  exists w outs, rrun cf empty_world ops = Ok (w, outs) /\ Forall2 out_panics outs outs' /\
    dw_mem (w_d wp) = dw_mem (w_d w) /\ dw_blocks (w_d wp) = dw_blocks (w_d w) /\
    dw_datas (w_d wp) = dw_datas (w_d w) /\ dw_allocs (w_d wp) = dw_allocs (w_d w) /\
    w_g wp = w_g w /\ w_h wp = w_h w /\ freed wp = freed w /\
    dropped wp `sublist_of` dropped w /\ dropped w ≡ₚ dropped wp ++ lk.*2 /\
    dropped_cells wp `sublist_of` dropped_cells w /\ dropped_cells w ≡ₚ dropped_cells wp ++ lk.*1.
Proof. exact @bomb_same. Qed.
Print Assumptions C49_same.
(** Items put in are in a buffer, or were dropped, left behind or given back. *)
Theorem C49_conserved : forall (V : Type) (cf : cfg V) bomb ops wp lk outs',
  brun cf bomb (empty_world, []) ops = Ok (Some ((wp, lk), outs')) ->
  put_run cf empty_world ops ≡ₚ contents wp ++ dropped wp ++ lk.*2 ++ got_run outs'.
Proof. exact @bomb_conserved. Qed.
Print Assumptions C49_conserved.
(** No item is dropped twice, also not one left behind, and no variable shows
    such items; no buffer is freed twice. *)
Theorem C49_once : forall (V : Type) (cf : cfg V) bomb ops wp lk,
  breach cf bomb ops wp lk -> NoDup (dropped_cells wp ++ lk.*1) /\ NoDup (freed wp) /\
    forall c, c ∈ dropped_cells wp \/ c ∈ lk.*1 -> item wp c = None /\ forall h, c ∉ h_cells cf wp h.
Proof. exact @bomb_once. Qed.
Print Assumptions C49_once.
(** Variables still cover live items, and exactly those, in buffers not freed. *)
Theorem C49_alive : forall (V : Type) (cf : cfg V) bomb ops wp lk c,
  breach cf bomb ops wp lk -> (is_Some (item wp c) <-> exists h, c ∈ h_cells cf wp h) /\
    (c_sz cf <> 0%N -> is_Some (item wp c) -> fst c ∉ freed wp).
Proof. exact @bomb_alive. Qed.
Print Assumptions C49_alive.
(** Items may be left behind, memory is not. *)
Theorem C49_no_memory_leak : forall (V : Type) (cf : cfg V) bomb ops wp lk,
  breach cf bomb ops wp lk -> (forall h, get_h wp h = None) ->
  Forall (fun x => x = None) (dw_datas (w_d wp)) /\ Forall (fun x => x = None) (dw_allocs (w_d wp)) /\
  Forall (fun x => x = None) (gw_imgs (w_g wp)) /\ Forall (fun x => x = None) (gw_gmgs (w_g wp)) /\
  (c_sz cf <> 0%N -> forall b blk, dw_blocks (w_d wp) !! b = Some blk -> b_len blk <> 0%N -> b ∈ freed wp).
Proof. exact @bomb_no_memory_leak. Qed.
Print Assumptions C49_no_memory_leak.
(** A drop disposes of the items no other variable covers. If one of them
    panics, so does the drop, and only then may others be left behind. *)
Theorem C49_drop : forall (V : Type) (cf : cfg V) bomb ops wp lk h wp' lk' r',
  breach cf bomb ops wp lk -> bstep cf bomb (wp, lk) (ODrop h) = Ok (Some ((wp', lk'), r')) ->
  exists nd l : leaked V, dropped_cells wp' = dropped_cells wp ++ nd.*1 /\ dropped wp' = dropped wp ++ nd.*2 /\ lk' = lk ++ l /\
    NoDup (nd ++ l).*1 /\ (forall c v, (c, v) ∈ nd ++ l <-> owns cf wp h c v) /\
    (r' = RPanic /\ length (bombs_of bomb nd.*2) = 1 \/
     r' <> RPanic /\ l = [] /\ forall c v, owns cf wp h c v -> bomb v = false).
Proof. exact @bomb_drop. Qed.
Print Assumptions C49_drop.
(** Only a drop of two panicking items aborts, or a call of split_into_parts that
    is refused when it destroys one. *)
Theorem C49_abort : forall (V : Type) (cf : cfg V) bomb ops wp lk o,
  breach cf bomb ops wp lk -> bstep cf bomb (wp, lk) o = Ok None ->
  match o with
  | ODrop h => exists c1 c2 v1 v2, c1 <> c2 /\ owns cf wp h c1 v1 /\ owns cf wp h c2 v2 /\ bomb v1 = true /\ bomb v2 = true
  | OSplitIntoParts h n => (forall k, n <> 2 ^ k)%N /\ exists c v, owns cf wp h c v /\ bomb v = true
  | _ => False
  end.
Proof. exact @bomb_abort. Qed.
Print Assumptions C49_abort.
Theorem C49_split : forall (V : Type) (cf : cfg V) bomb ops wp lk h n,
  breach cf bomb ops wp lk -> (exists x, get_h wp h = Some x /\ match x with HRc _ | HMut _ => True | _ => False end) ->
  (n < usize_lim)%N -> (forall k, n <> 2 ^ k)%N ->
  (bstep cf bomb (wp, lk) (OSplitIntoParts h n) = Ok None /\ exists c v, owns cf wp h c v /\ bomb v = true) \/
  (forall c v, owns cf wp h c v -> bomb v = false) /\ exists wp' (nd : leaked V), bstep cf bomb (wp, lk) (OSplitIntoParts h n) = Ok (Some ((wp', lk), RPanic)) /\
    dropped_cells wp' = dropped_cells wp ++ nd.*1 /\ dropped wp' = dropped wp ++ nd.*2 /\ NoDup nd.*1 /\ forall c v, (c, v) ∈ nd <-> owns cf wp h c v.
Proof. exact @bomb_split. Qed.
Print Assumptions C49_split.
(** Unique slices never leave anything behind: all their items are dropped, in
    order, also those after the one that panics. *)
Theorem C49_unique : forall (V : Type) (cf : cfg V) bomb ops wp lk h x,
  breach cf bomb ops wp lk -> get_h wp h = Some x -> match x with HMut _ | HIter _ | HMParts _ => True | _ => False end ->
  let n := length (bombs_of bomb (omap (item wp) (h_cells cf wp h))) in
  (bstep cf bomb (wp, lk) (ODrop h) = Ok None <-> (2 <= n)%nat) /\
  forall wp' lk' r, bstep cf bomb (wp, lk) (ODrop h) = Ok (Some ((wp', lk'), r)) ->
    lk' = lk /\ r = (if (n =? 1)%nat then RPanic else RUnit) /\
    dropped_cells wp' = dropped_cells wp ++ h_cells cf wp h /\ dropped wp' = dropped wp ++ omap (item wp) (h_cells cf wp h).
Proof. exact @bomb_unique. Qed.
Print Assumptions C49_unique.
(** All other calls destroy no item, so it does not matter which ones panic. *)
Theorem C49_only_drops : forall (V : Type) (cf : cfg V) bomb ops wp lk o,
  breach cf bomb ops wp lk -> (forall h, o <> ODrop h) -> good_split o ->
  exists wp' r, bstep cf bomb (wp, lk) o = Ok (Some ((wp', lk), r)) /\ rstep cf wp o = Ok (wp', r) /\
    dropped_cells wp' = dropped_cells wp /\ dropped wp' = dropped wp.
Proof. exact @bomb_only_drops. Qed.
Print Assumptions C49_only_drops.
(** Without panicking items, this is the model of the other properties. *)
Theorem C49_no_bomb : forall (V : Type) (cf : cfg V) bomb ops w outs,
  rrun cf empty_world ops = Ok (w, outs) -> Forall (fun v => bomb v = false) (put_run cf empty_world ops) ->
  brun cf bomb (empty_world, []) ops = Ok (Some ((w, []), outs)).
Proof. exact @bomb_no_bomb. Qed.
Print Assumptions C49_no_bomb.
(** One panicking item never aborts the process. *)
Theorem C49_no_abort : forall (V : Type) (cf : cfg V) bomb ops,
  (length (bombs_of bomb (put_run cf empty_world ops)) <= 1)%nat -> Forall good_split ops ->
  exists pw outs, brun cf bomb (empty_world, []) ops = Ok (Some (pw, outs)).
Proof. exact @bomb_no_abort. Qed.
Print Assumptions C49_no_abort.
(** That every item is dropped is false: a panic in a child's items skips those
    of the parent that is released with it. *)
Theorem C49_leak_refuted : exists (cf : cfg nat) bomb ops wp lk,
  breach cf bomb ops wp lk /\ (forall h, get_h wp h = None) /\ lk <> [].
Proof. exact leak_witness. Qed.
Print Assumptions C49_leak_refuted.
(** One item panics: the sibling half is left behind or not, depending on what is
    dropped first; both buffers are freed. *)
Example C49_example :
  let bomb v := (v =? 1)%nat in
  bafter cf8 bomb [OFromVec 1000 [1;2;3]; OCloneHalf false 0; ODrop 0; ODrop 1]
    (fun w lk r => dropped w = [2;3;1] /\ lk = [] /\ freed w = [0] /\ r = Some RPanic) /\
  bafter cf8 bomb [OFromVec 1000 [1;2;3]; OCloneHalf false 0; ODrop 1; ODrop 0]
    (fun w lk r => dropped w = [1] /\ lk = [((0, 1%N), 2); ((0, 2%N), 3)] /\ freed w = [0] /\ r = Some RPanic) /\
  bafter cf8 bomb [OFromVec 1000 [4;1;2]; OIntoMut 0; ODrop 1]
    (fun w lk r => dropped w = [4;1;2] /\ lk = [] /\ freed w = [0] /\ r = Some RPanic) /\
  bafter cf8 bomb [OFromVec 1000 [4;2]; OSplitIntoParts 0 3] (fun w lk r => dropped w = [4;2] /\ lk = [] /\ r = Some RPanic) /\
  brun cf8 bomb (empty_world, []) [OFromVec 1000 [4;1]; OSplitIntoParts 0 3] = Ok None /\
  brun cf8 bomb (empty_world, []) [OFromVec 1000 [1;1]; OIntoMut 0; ODrop 1] = Ok None.
Proof. demo. Qed.
(** Variable 0 owns the items of the other half. *)
Example C49_example_owns :
  bafter cf8 (fun v => (v =? 1)%nat) [OFromVec 1000 [1;2]; OCloneHalf false 0] (fun w lk r => owns cf8 w 0 (0, 1%N) 2).
Proof.
  vm_compute. split; [done|]. split; [right; left|]. intros [|[|h']] Hh; [done| |]; intros H; [|by apply elem_of_nil in H].
  apply elem_of_list_singleton in H. done.
Qed.
Example C49_example_good : let ops := [OFromVec 1000 [1;2;3;4]; OSplitIntoParts 0 2; OClone 1; ODrop 1; ODrop 2] in
  Forall good_split ops /\ put_run cf8 empty_world ops = [1;2;3;4].
Proof. split; [|done]. repeat constructor. by exists 1%N. Qed.

(** *** The same for [ArcSlice] used by one thread *)

(** Whatever panics, no call has undefined behaviour: the calls run to their end
    or the process is aborted. *)
Theorem C49_arc_no_ub : forall (V : Type) (cf : cfg V) bomb ops, exists x, bxrun cf bomb (empty_aworld, []) ops = Ok x.
Proof. exact @xbomb_no_ub. Qed.
Print Assumptions C49_arc_no_ub.
(** Unless it is aborted, the process is in the state it would be in if no
    destructor had panicked, except that some items were left behind instead of
    dropped; those that were dropped, were in the same order. Calls return the
    same, except that some drops panic. *)
Theorem C49_arc_same : forall (V : Type) (cf : cfg V) bomb ops wp lk outs',
  bxrun cf bomb (empty_aworld, []) ops = Ok (Some ((wp, lk), outs')) ->
  exists w outs, xrun cf empty_aworld ops = Ok (w, outs) /\ Forall2 out_panics outs outs' /\
    dw_mem (aw_d wp) = dw_mem (aw_d w) /\ dw_blocks (aw_d wp) = dw_blocks (aw_d w) /\
    dw_datas (aw_d wp) = dw_datas (aw_d w) /\ dw_allocs (aw_d wp) = dw_allocs (aw_d w) /\
    aw_g wp = aw_g w /\ aw_h wp = aw_h w /\ xfreed wp = xfreed w /\
    xdropped wp `sublist_of` xdropped w /\ xdropped w ≡ₚ xdropped wp ++ lk.*2 /\
    xdropped_cells wp `sublist_of` xdropped_cells w /\ xdropped_cells w ≡ₚ xdropped_cells wp ++ lk.*1.
Proof. exact @xbomb_same. Qed.
Print Assumptions C49_arc_same.
(** Items put in are in a buffer, or were dropped, left behind or given back. *)
Theorem C49_arc_conserved : forall (V : Type) (cf : cfg V) bomb ops wp lk outs',
  bxrun cf bomb (empty_aworld, []) ops = Ok (Some ((wp, lk), outs')) ->
  xput_run cf empty_aworld ops ≡ₚ xcontents wp ++ xdropped wp ++ lk.*2 ++ got_run outs'.
Proof. exact @xbomb_conserved. Qed.
Print Assumptions C49_arc_conserved.
(** No item is dropped twice, also not one left behind, and no variable shows
    such items; no buffer is freed twice. *)
Theorem C49_arc_once : forall (V : Type) (cf : cfg V) bomb ops wp lk,
  bxreach cf bomb ops wp lk -> NoDup (xdropped_cells wp ++ lk.*1) /\ NoDup (xfreed wp) /\
    forall c, c ∈ xdropped_cells wp \/ c ∈ lk.*1 -> xitem wp c = None /\ forall h, c ∉ x_cells cf wp h.
Proof. exact @xbomb_once. Qed.
Print Assumptions C49_arc_once.
(** Variables still cover live items, and exactly those, in buffers not freed. *)
Theorem C49_arc_alive : forall (V : Type) (cf : cfg V) bomb ops wp lk c,
  bxreach cf bomb ops wp lk -> (is_Some (xitem wp c) <-> exists h, c ∈ x_cells cf wp h) /\
    (c_sz cf <> 0%N -> is_Some (xitem wp c) -> fst c ∉ xfreed wp).
Proof. exact @xbomb_alive. Qed.
Print Assumptions C49_arc_alive.
(** Items may be left behind, memory is not: once only WeakSlices exist, no items,
    buffers, SliceData or guards remain (boxes of guards: C42). *)
Theorem C49_arc_no_memory_leak : forall (V : Type) (cf : cfg V) bomb ops wp lk,
  bxreach cf bomb ops wp lk -> (forall h x, xget wp h = Some x -> is_aweak wp h) ->
  Forall (fun x => x = None) (dw_datas (aw_d wp)) /\ Forall (fun x => x = None) (dw_allocs (aw_d wp)) /\
  Forall (fun x => x = None) (gd_guards (aw_g wp)) /\ dw_mem (aw_d wp) = ∅ /\
  (c_sz cf <> 0%N -> forall b blk, dw_blocks (aw_d wp) !! b = Some blk -> b_len blk <> 0%N -> b ∈ xfreed wp).
Proof. exact @xbomb_no_memory_leak. Qed.
Print Assumptions C49_arc_no_memory_leak.
(** A drop disposes of the items no other variable covers. If one of them
    panics, so does the drop, and only then may others be left behind. *)
Theorem C49_arc_drop : forall (V : Type) (cf : cfg V) bomb ops wp lk h wp' lk' r',
  bxreach cf bomb ops wp lk -> bxstep cf bomb (wp, lk) (ODrop h) = Ok (Some ((wp', lk'), r')) ->
  exists nd l : leaked V, xdropped_cells wp' = xdropped_cells wp ++ nd.*1 /\ xdropped wp' = xdropped wp ++ nd.*2 /\ lk' = lk ++ l /\
    NoDup (nd ++ l).*1 /\ (forall c v, (c, v) ∈ nd ++ l <-> xowns cf wp h c v) /\
    (r' = RPanic /\ length (bombs_of bomb nd.*2) = 1 \/
     r' <> RPanic /\ l = [] /\ forall c v, xowns cf wp h c v -> bomb v = false).
Proof. exact @xbomb_drop. Qed.
Print Assumptions C49_arc_drop.
(** Only a drop of two panicking items aborts, or a call of split_into_parts that
    is refused when it destroys one. *)
Theorem C49_arc_abort : forall (V : Type) (cf : cfg V) bomb ops wp lk o,
  bxreach cf bomb ops wp lk -> bxstep cf bomb (wp, lk) o = Ok None ->
  match o with
  | ODrop h => exists c1 c2 v1 v2, c1 <> c2 /\ xowns cf wp h c1 v1 /\ xowns cf wp h c2 v2 /\ bomb v1 = true /\ bomb v2 = true
  | OSplitIntoParts h n => (forall k, n <> 2 ^ k)%N /\ exists c v, xowns cf wp h c v /\ bomb v = true
  | _ => False
  end.
Proof. exact @xbomb_abort. Qed.
Print Assumptions C49_arc_abort.
Theorem C49_arc_split : forall (V : Type) (cf : cfg V) bomb ops wp lk h n,
  bxreach cf bomb ops wp lk -> (exists x, xget wp h = Some x /\ match x with XArc _ | XMut _ => True | _ => False end) ->
  (n < usize_lim)%N -> (forall k, n <> 2 ^ k)%N ->
  (bxstep cf bomb (wp, lk) (OSplitIntoParts h n) = Ok None /\ exists c v, xowns cf wp h c v /\ bomb v = true) \/
  (forall c v, xowns cf wp h c v -> bomb v = false) /\ exists wp' (nd : leaked V), bxstep cf bomb (wp, lk) (OSplitIntoParts h n) = Ok (Some ((wp', lk), RPanic)) /\
    xdropped_cells wp' = xdropped_cells wp ++ nd.*1 /\ xdropped wp' = xdropped wp ++ nd.*2 /\ NoDup nd.*1 /\ forall c v, (c, v) ∈ nd <-> xowns cf wp h c v.
Proof. exact @xbomb_split. Qed.
Print Assumptions C49_arc_split.
(** Unique slices never leave anything behind: all their items are dropped, in
    order, also those after the one that panics. *)
Theorem C49_arc_unique : forall (V : Type) (cf : cfg V) bomb ops wp lk h x,
  bxreach cf bomb ops wp lk -> xget wp h = Some x -> match x with XMut _ | XIter _ | XMParts _ => True | _ => False end ->
  let n := length (bombs_of bomb (omap (xitem wp) (x_cells cf wp h))) in
  (bxstep cf bomb (wp, lk) (ODrop h) = Ok None <-> (2 <= n)%nat) /\
  forall wp' lk' r, bxstep cf bomb (wp, lk) (ODrop h) = Ok (Some ((wp', lk'), r)) ->
    lk' = lk /\ r = (if (n =? 1)%nat then RPanic else RUnit) /\
    xdropped_cells wp' = xdropped_cells wp ++ x_cells cf wp h /\ xdropped wp' = xdropped wp ++ omap (xitem wp) (x_cells cf wp h).
Proof. exact @xbomb_unique. Qed.
Print Assumptions C49_arc_unique.
(** All other calls destroy no item, so it does not matter which ones panic. *)
Theorem C49_arc_only_drops : forall (V : Type) (cf : cfg V) bomb ops wp lk o,
  bxreach cf bomb ops wp lk -> (forall h, o <> ODrop h) -> good_split o ->
  exists wp' r, bxstep cf bomb (wp, lk) o = Ok (Some ((wp', lk), r)) /\ xstep cf wp o = Ok (wp', r) /\
    xdropped_cells wp' = xdropped_cells wp /\ xdropped wp' = xdropped wp.
Proof. exact @xbomb_only_drops. Qed.
Print Assumptions C49_arc_only_drops.
(** Without panicking items, this is the model of the other properties. *)
Theorem C49_arc_no_bomb : forall (V : Type) (cf : cfg V) bomb ops w outs,
  xrun cf empty_aworld ops = Ok (w, outs) -> Forall (fun v => bomb v = false) (xput_run cf empty_aworld ops) ->
  bxrun cf bomb (empty_aworld, []) ops = Ok (Some ((w, []), outs)).
Proof. exact @xbomb_no_bomb. Qed.
Print Assumptions C49_arc_no_bomb.
(** One panicking item never aborts the process. *)
Theorem C49_arc_no_abort : forall (V : Type) (cf : cfg V) bomb ops,
  (length (bombs_of bomb (xput_run cf empty_aworld ops)) <= 1)%nat -> Forall good_split ops ->
  exists pw outs, bxrun cf bomb (empty_aworld, []) ops = Ok (Some (pw, outs)).
Proof. exact @xbomb_no_abort. Qed.
Print Assumptions C49_arc_no_abort.
(** That every item is dropped is false: a panic in a child's items skips those
    of the parent that is released with it. *)
Theorem C49_arc_leak_refuted : exists (cf : cfg nat) bomb ops wp lk,
  bxreach cf bomb ops wp lk /\ (forall h, xget wp h = None) /\ lk <> [].
Proof. exact xleak_witness. Qed.
Print Assumptions C49_arc_leak_refuted.
(** One item panics: the sibling half is left behind or not, depending on what is
    dropped first; both buffers are freed. *)
Example C49_arc_example :
  let bomb v := (v =? 1)%nat in
  bxafter cf8 bomb [OFromVec 1000 [1;2;3]; OCloneHalf false 0; ODrop 0; ODrop 1]
    (fun w lk r => xdropped w = [2;3;1] /\ lk = [] /\ xfreed w = [0] /\ r = Some RPanic) /\
  bxafter cf8 bomb [OFromVec 1000 [1;2;3]; OCloneHalf false 0; ODrop 1; ODrop 0]
    (fun w lk r => xdropped w = [1] /\ lk = [((0, 1%N), 2); ((0, 2%N), 3)] /\ xfreed w = [0] /\ r = Some RPanic) /\
  bxafter cf8 bomb [OFromVec 1000 [4;1;2]; OIntoMut 0; ODrop 1]
    (fun w lk r => xdropped w = [4;1;2] /\ lk = [] /\ xfreed w = [0] /\ r = Some RPanic) /\
  bxafter cf8 bomb [OFromVec 1000 [4;2]; OSplitIntoParts 0 3] (fun w lk r => xdropped w = [4;2] /\ lk = [] /\ r = Some RPanic) /\
  bxrun cf8 bomb (empty_aworld, []) [OFromVec 1000 [4;1]; OSplitIntoParts 0 3] = Ok None /\
  bxrun cf8 bomb (empty_aworld, []) [OFromVec 1000 [1;1]; OIntoMut 0; ODrop 1] = Ok None.
Proof. demo. Qed.
(** Variable 0 owns the items of the other half. *)
Example C49_arc_example_owns :
  bxafter cf8 (fun v => (v =? 1)%nat) [OFromVec 1000 [1;2]; OCloneHalf false 0] (fun w lk r => xowns cf8 w 0 (0, 1%N) 2).
Proof.
  vm_compute. split; [done|]. split; [right; left|]. intros [|[|h']] Hh; [done| |]; intros H; [|by apply elem_of_nil in H].
  apply elem_of_list_singleton in H. done.
Qed.
Example C49_arc_example_good : let ops := [OFromVec 1000 [1;2;3;4]; OSplitIntoParts 0 2; OClone 1; ODrop 1; ODrop 2] in
  Forall good_split ops /\ xput_run cf8 empty_aworld ops = [1;2;3;4].
Proof. split; [|done]. repeat constructor. by exists 1%N. Qed.
