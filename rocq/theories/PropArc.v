(** C33-C35, C42, C43: ArcSlice, its WeakSlice and ArcSliceMut used by one thread. *)
From Verif Require Import Base Api SliceItemsModel BinPartsModel DataModel DataInv RelInv RcModel Spec Observe Conserve ConserveTheory Demo
  ArcModel ArcSpec ArcObserve ArcTheory ArcShare ArcConserve ArcLeak ArcSame ArcDemo QuietTheory.

(** C33. Every sequence of calls runs, and its results and items are those of the
    specification (ArcSpec.v), which differs from that of RcSlice in get_mut only. *)
Theorem C33_refines_spec : forall (V : Type) (cf : cfg V) ops,
  let '((a, _), outs) := arc_spec_run (c_sz cf) (c_clone cf) (empty_astate, []) ops in
  exists w, xrun cf empty_aworld ops = Ok (w, outs) /\ dw_mem (aw_d w) = as_mem a.
Proof. exact @arc_refines_spec'. Qed.
Print Assumptions C33_refines_spec.
(** Side by side with the single-threaded module: as long as nothing is written
    through get_mut, all calls return the same, except that get_mut may return a
    slice where RcSlice's returns None; items, buffers, the order in which items
    are dropped and buffers freed, and the slice of every variable are the same. *)
Theorem C33_C43_same_as_rc : forall (V : Type) (cf : cfg V) ops, Forall no_get_mut_write ops ->
  exists w y outs outs',
    rrun cf empty_world ops = Ok (w, outs) /\ xrun cf empty_aworld ops = Ok (y, outs') /\ Forall3 agree ops outs outs' /\
    dw_mem (w_d w) = dw_mem (aw_d y) /\ dw_blocks (w_d w) = dw_blocks (aw_d y) /\ dw_trace (w_d w) = dw_trace (aw_d y) /\
    length (w_h w) = length (aw_h y) /\ (forall h, h_slice cf w h = x_slice cf y h).
Proof. exact @arc_agrees. Qed.
Print Assumptions C33_C43_same_as_rc.
(** Without calls of get_mut there is no difference. *)
Theorem C33_C43_same_without_get_mut : forall (V : Type) (cf : cfg V) ops, Forall (fun o => ~ get_muts o) ops ->
  exists w y outs,
    rrun cf empty_world ops = Ok (w, outs) /\ xrun cf empty_aworld ops = Ok (y, outs) /\
    dw_mem (w_d w) = dw_mem (aw_d y) /\ dw_blocks (w_d w) = dw_blocks (aw_d y) /\ dw_trace (w_d w) = dw_trace (aw_d y) /\
    length (w_h w) = length (aw_h y) /\ (forall h, h_slice cf w h = x_slice cf y h).
Proof. exact @arc_same. Qed.
Print Assumptions C33_C43_same_without_get_mut.
Theorem C33_alive_iff : forall (V : Type) (cf : cfg V) ops w c,
  xreach cf ops w -> is_Some (xitem w c) <-> exists h, c ∈ x_cells cf w h.
Proof. exact @arc_alive_iff. Qed.
Print Assumptions C33_alive_iff.
Theorem C33_conserved : forall (V : Type) (cf : cfg V) ops w outs,
  xrun cf empty_aworld ops = Ok (w, outs) ->
  xput_run cf empty_aworld ops ≡ₚ xcontents w ++ xdropped w ++ got_run outs.
Proof. exact @arc_conserved_items. Qed.
Print Assumptions C33_conserved.
Theorem C33_dropped_once : forall (V : Type) (cf : cfg V) ops w,
  xreach cf ops w -> NoDup (xdropped_cells w) /\ (forall c, c ∈ xdropped_cells w -> xitem w c = None) /\
    (forall c, c ∈ xdropped_cells w -> exists blk, dw_blocks (aw_d w) !! fst c = Some blk /\ (snd c < b_len blk)%N).
Proof. exact @arc_dropped_once. Qed.
Print Assumptions C33_dropped_once.
(** Dropping a variable drops exactly the items no other variable covers. *)
Theorem C33_drop_exact : forall (V : Type) (cf : cfg V) ops w h w' r,
  xreach cf ops w -> xstep cf w (ODrop h) = Ok (w', r) ->
  exists nd : list ((nat * N) * V), xdropped_cells w' = xdropped_cells w ++ nd.*1 /\ xdropped w' = xdropped w ++ nd.*2 /\ NoDup nd.*1 /\
    forall c v, (c, v) ∈ nd <-> xitem w c = Some v /\ c ∈ x_cells cf w h /\ (forall h', h' <> h -> c ∉ x_cells cf w h').
Proof. exact @arc_drop_exact. Qed.
Print Assumptions C33_drop_exact.
Theorem C33_into_mut_iff : forall (V : Type) (cf : cfg V) ops w h lb,
  xreach cf ops w -> xnode cf ops h = Some (ARc lb) ->
  ((exists w' n, xstep cf w (OIntoMut h) = Ok (w', RHandle n)) <->
   (forall h' x' l', h' <> h -> xnode cf ops h' = Some x' -> l' ∈ strong_labels x' -> ~ anc lb l' /\ ~ anc l' lb)) /\
  ((exists w' n, xstep cf w (OIntoMut h) = Ok (w', RHandle n)) \/ exists w', xstep cf w (OIntoMut h) = Ok (w', RErr)).
Proof. exact @arc_into_mut_iff. Qed.
Print Assumptions C33_into_mut_iff.
Theorem C33_into_mut_exclusive : forall (V : Type) (cf : cfg V) ops w h w1 n,
  xreach cf ops w -> xstep cf w (OIntoMut h) = Ok (w1, RHandle n) ->
  (forall h' c, h' <> n -> c ∈ x_cells cf w1 h' -> c ∉ x_cells cf w1 n) /\
  (forall h' w2 m c, xstep cf w1 (OUpgrade h') = Ok (w2, RHandle m) -> c ∈ x_cells cf w2 m -> c ∉ x_cells cf w2 n).
Proof. exact @arc_into_mut_excl. Qed.
Print Assumptions C33_into_mut_exclusive.
Theorem C33_upgrade_iff : forall (V : Type) (cf : cfg V) ops w h ol,
  xreach cf ops w -> xnode cf ops h = Some (AWeak ol) ->
  ((exists w' n, xstep cf w (OUpgrade h) = Ok (w', RHandle n)) <->
   exists lb h' x' l', ol = Some lb /\ xnode cf ops h' = Some x' /\ l' ∈ strong_labels x' /\ anc l' lb) /\
  ((exists w' n, xstep cf w (OUpgrade h) = Ok (w', RHandle n)) \/ exists w', xstep cf w (OUpgrade h) = Ok (w', RNone)).
Proof. exact @arc_upgrade_iff. Qed.
Print Assumptions C33_upgrade_iff.

(** into_mut fails because of a clone of an ancestor, succeeds once it is gone,
    and the WeakSlice made in between can no longer be upgraded. *)
Example C33_example :
  let ops := [OFromVec 1000 [1;2;3;4;5]; OCloneHalf true 0; ODowngrade 1; OIntoMut 1] in
  Forall (fun o => ~ get_muts o) ops /\
  xafter cf8 ops (fun w r => r = Some RErr /\ xnode cf8 ops 1 = Some (ARc (Lbl 0 [true])) /\
    x_cells cf8 w 1 = [(0, 2%N); (0, 3%N); (0, 4%N)] /\ xnode cf8 ops 2 = Some (AWeak (Some (Lbl 0 [true])))) /\
  xafter cf8 (ops ++ [ODrop 0; OIntoMut 1]) (fun w r => r = Some (RHandle 3) /\ xdropped w = [1;2] /\ xitem w (0, 1%N) = None /\ xitem w (0, 2%N) = Some 3) /\
  xafter cf8 (ops ++ [ODrop 0; OIntoMut 1; OUpgrade 2]) (fun w r => r = Some RNone).
Proof. cbn zeta. split; [repeat constructor; by intros []|]. demo. Qed.
(** A run on which get_mut differs: RcSlice's returns None. *)
Example C33_example_differs :
  let ops := [OFromVec 1000 [1;2;3;4;5]; OCloneHalf true 0; ODowngrade 1; ODrop 1; OGetMut 0] in
  Forall no_get_mut_write ops /\ after cf8 ops (fun w r => r = Some RNone) /\
  xafter cf8 ops (fun w r => r = Some (RSlice (Some 1000%N) [1;2;3;4;5])).
Proof. cbn zeta. split; [repeat constructor|]. demo. Qed.

(** C34 *)
Theorem C34_get_mut_strong : forall (V : Type) (cf : cfg V) ops w h w' adr l,
  xreach cf ops w -> xstep cf w (OGetMut h) = Ok (w', RSlice adr l) ->
  forall h' c, h' <> h -> c ∈ x_cells cf w h' -> c ∉ x_cells cf w h.
Proof. exact @arc_get_mut_strong. Qed.
Print Assumptions C34_get_mut_strong.
Example C34_example :
  xafter cf8 [OFromVec 1000 [1;2;3;4;5]; OSplitOff true 0; OGetMut 1]
    (fun w r => r = Some (RSlice (Some 1016%N) [3;4;5]) /\ x_cells cf8 w 0 = [(0, 0%N); (0, 1%N)] /\ x_cells cf8 w 1 = [(0, 2%N); (0, 3%N); (0, 4%N)]) /\
  xafter cf8 [OFromVec 1000 [1;2;3;4;5]; OCloneHalf true 0; OGetMut 0] (fun w r => r = Some RNone) /\
  xafter cf8 [OFromVec 1000 [1;2;3;4;5]; OCloneHalf true 0; OGetMut 1] (fun w r => r = Some RNone).
Proof. demo. Qed.

(** C35 is false. A WeakSlice of a half does not stop get_mut on the whole,
    and upgrading it while the borrow lasts gives a second reference to the
    same items (here items 0 and 1 of buffer 0). *)
Theorem C35_descendant_refuted : exists (ops : list (op nat)) w w1 adr l w2,
  xreach cf8 ops w /\ xstep cf8 w (OGetMut 0) = Ok (w1, RSlice adr l) /\
  xstep cf8 w1 (OUpgrade 2) = Ok (w2, RHandle 3) /\
  x_cells cf8 w2 0 = [(0, 0%N); (0, 1%N); (0, 2%N); (0, 3%N)] /\ x_cells cf8 w2 3 = [(0, 0%N); (0, 1%N)].
Proof. exact c35_descendant. Qed.
Print Assumptions C35_descendant_refuted.
(** A WeakSlice of the slice itself does not either if all strong slices at or
    below it were gone in between, an ancestor being still there. *)
Theorem C35_same_refuted : exists (ops : list (op nat)) w w1 adr l w2,
  xreach cf8 ops w /\ xstep cf8 w (OGetMut 3) = Ok (w1, RSlice adr l) /\
  xstep cf8 w1 (OUpgrade 2) = Ok (w2, RHandle 4) /\
  x_cells cf8 w2 3 = [(0, 0%N); (0, 1%N)] /\ x_cells cf8 w2 4 = [(0, 0%N); (0, 1%N)].
Proof. exact c35_same. Qed.
Print Assumptions C35_same_refuted.
(** Exactly when get_mut succeeds. [snd (xhist cf ops)] are the linked weak
    slices (ArcSpec.v). *)
Theorem C35_get_mut_iff_partial : forall (V : Type) (cf : cfg V) ops w h lb,
  xreach cf ops w -> xnode cf ops h = Some (ARc lb) ->
  ((exists w' adr l, xstep cf w (OGetMut h) = Ok (w', RSlice adr l)) <->
   (forall h' x' l', h' <> h -> xnode cf ops h' = Some x' -> l' ∈ strong_labels x' -> ~ anc lb l' /\ ~ anc l' lb) /\
   (forall h', h' ∈ snd (xhist cf ops) -> xnode cf ops h' <> Some (AWeak (Some lb)))) /\
  ((exists w' adr l, xstep cf w (OGetMut h) = Ok (w', RSlice adr l)) \/ exists w', xstep cf w (OGetMut h) = Ok (w', RNone)).
Proof. exact @arc_get_mut_iff. Qed.
Print Assumptions C35_get_mut_iff_partial.
(** After get_mut succeeded, the WeakSlices that can be upgraded to something
    overlapping are exactly those at or below the slice. *)
Theorem C35_weak_partial : forall (V : Type) (cf : cfg V) ops w h lb w' adr l,
  xreach cf ops w -> xnode cf ops h = Some (ARc lb) -> xstep cf w (OGetMut h) = Ok (w', RSlice adr l) ->
  (forall h' w2 n c, xstep cf w (OUpgrade h') = Ok (w2, RHandle n) -> c ∈ x_cells cf w2 n -> c ∈ x_cells cf w h ->
     exists l', xnode cf ops h' = Some (AWeak (Some l')) /\ anc lb l' /\ (l' = lb -> h' ∉ snd (xhist cf ops))) /\
  (forall h' l', xnode cf ops h' = Some (AWeak (Some l')) -> anc lb l' ->
     exists w2 n, xstep cf w (OUpgrade h') = Ok (w2, RHandle n) /\ forall c, c ∈ x_cells cf w2 n -> c ∈ x_cells cf w h).
Proof. exact @arc_get_mut_weak. Qed.
Print Assumptions C35_weak_partial.
(** If there are none, the slice stays exclusive as long as it is not used. *)
Theorem C35_stable_partial : forall (V : Type) (cf : cfg V) ops w h lb w1 adr l ops2 w2 outs,
  xreach cf ops w -> xnode cf ops h = Some (ARc lb) ->
  (forall h' l', xnode cf ops h' = Some (AWeak (Some l')) -> ~ anc lb l') ->
  xstep cf w (OGetMut h) = Ok (w1, RSlice adr l) ->
  Forall (spares h) ops2 -> xrun cf w1 ops2 = Ok (w2, outs) ->
  (forall h' c, h' <> h -> c ∈ x_cells cf w2 h' -> c ∉ x_cells cf w2 h) /\
  exists w3 adr' l', xstep cf w2 (OGetMut h) = Ok (w3, RSlice adr' l').
Proof. exact @arc_get_mut_stable. Qed.
Print Assumptions C35_stable_partial.
(** A WeakSlice made from the very variable stops get_mut while both are kept. *)
Theorem C35_weak_blocks_partial : forall (V : Type) (cf : cfg V) ops w h w1 n ops2 w2 outs,
  xreach cf ops w -> xstep cf w (ODowngrade h) = Ok (w1, RHandle n) ->
  Forall (spares h) ops2 -> Forall (spares n) ops2 -> xrun cf w1 ops2 = Ok (w2, outs) ->
  exists w3, xstep cf w2 (OGetMut h) = Ok (w3, RNone).
Proof. exact @arc_weak_blocks. Qed.
Print Assumptions C35_weak_blocks_partial.
(** The hypotheses hold next to a WeakSlice of the parent, which can no longer be upgraded. *)
Example C35_example :
  let ops := [OFromVec 1000 [1;2;3;4;5]; ODowngrade 0; OSplitOff true 0] in
  let ops2 := [OUpgrade 1; ODowngrade 0; ODrop 0; OUpgrade 3] in
  Forall (spares 2) ops2 /\ xnode cf8 ops 2 = Some (ARc (Lbl 0 [true])) /\ xnode cf8 ops 1 = Some (AWeak (Some (Lbl 0 []))) /\
  xafter cf8 (ops ++ [OGetMut 2]) (fun w r => r = Some (RSlice (Some 1016%N) [3;4;5])) /\
  xafter cf8 (ops ++ [OGetMut 2] ++ ops2) (fun w r => r = Some RNone /\ x_cells cf8 w 2 = [(0, 2%N); (0, 3%N); (0, 4%N)]).
Proof. cbn zeta. split; [repeat (constructor; [discriminate|]); constructor|]. demo. Qed.
Example C35_example_blocks :
  let ops2 := [OCloneHalf true 1; ODrop 1; ODowngrade 3; ODrop 3; ODrop 4] in
  Forall (spares 0) ops2 /\ Forall (spares 2) ops2 /\
  xafter cf8 ([OFromVec 1000 [1;2;3;4;5]; OClone 0; ODowngrade 0] ++ ops2 ++ [OGetMut 0]) (fun w r => r = Some RNone).
Proof. cbn zeta. do 2 (split; [repeat (constructor; [discriminate|]); constructor|]). demo. Qed.

(** C42 is false: the small boxes that hold the current guard are never freed. *)
Theorem C42_refuted : exists (ops : list (op nat)) w,
  xreach cf8 ops w /\ no_handles w /\ boxes_made w <> boxes_freed w /\ (exists i c, gd_weak (aw_g w) !! i = Some c /\ c <> 0).
Proof. exact c42. Qed.
Print Assumptions C42_refuted.
(** The leak is exactly one box for each data node and each guard ever made, and the
    memory of every guard ever made. *)
Theorem C42_leak_exact_partial : forall (V : Type) (cf : cfg V) ops w, xreach cf ops w ->
  boxes_made w = length (dw_datas (aw_d w)) + length (gd_guards (aw_g w)) /\ boxes_freed w = 0 /\
  length (gd_weak (aw_g w)) = length (gd_guards (aw_g w)) /\
  (forall i c, gd_weak (aw_g w) !! i = Some c -> 1 <= c) /\
  ((forall h, ~ is_aweak w h) -> forall i c, gd_weak (aw_g w) !! i = Some c -> c = 1).
Proof. exact @arc_leak_exact. Qed.
Print Assumptions C42_leak_exact_partial.
(** Everything else is released: when only WeakSlices are left, all data nodes,
    allocation records and guards have been destroyed, no item is left, and all buffers are freed. *)
Theorem C42_rest_partial : forall (V : Type) (cf : cfg V) ops w,
  xreach cf ops w -> (forall h x, xget w h = Some x -> is_aweak w h) ->
  Forall (fun x => x = None) (dw_datas (aw_d w)) /\ Forall (fun x => x = None) (dw_allocs (aw_d w)) /\
  Forall (fun x => x = None) (gd_guards (aw_g w)) /\ dw_mem (aw_d w) = ∅ /\
  (c_sz cf <> 0%N -> forall b blk, dw_blocks (aw_d w) !! b = Some blk -> b_len blk <> 0%N -> b ∈ xfreed w).
Proof. exact @arc_no_leak. Qed.
Print Assumptions C42_rest_partial.
Theorem C42_disposed_partial : forall (V : Type) (cf : cfg V) ops w outs,
  xrun cf empty_aworld ops = Ok (w, outs) -> (forall h, xget w h = None) ->
  xput_run cf empty_aworld ops ≡ₚ xdropped w ++ got_run outs /\ dw_mem (aw_d w) = ∅.
Proof. exact @arc_end_disposed. Qed.
Print Assumptions C42_disposed_partial.
(** Buffers are freed once, with the address and length they were made with, and not while something covers them. *)
Theorem C42_freed_once_partial : forall (V : Type) (cf : cfg V) ops w, xreach cf ops w ->
  NoDup (xfreed w) /\
  (forall b addr cap, EFree b addr cap ∈ dw_trace (aw_d w) -> exists blk, dw_blocks (aw_d w) !! b = Some blk /\ b_base blk = addr /\ b_len blk = cap) /\
  (c_sz cf <> 0%N -> forall h c, c ∈ x_cells cf w h -> fst c ∉ xfreed w).
Proof. exact @arc_freed_ok. Qed.
Print Assumptions C42_freed_once_partial.
Example C42_example :
  xafter cf8 [OFromVec 1000 [1;2;3;4;5]; OCloneHalf true 0; ODowngrade 1; OIntoMut 1; ODrop 0; OIntoMut 1; OIntoIter 3; ONext true 4; ODrop 4; ODrop 2]
    (fun w r => (forall h, h < 6 -> xget w h = None) /\ xdropped w = [1;2;3;4] /\ xfreed w = [0] /\ boxes_made w = 4 /\ boxes_freed w = 0).
Proof. vm_compute. split; [|done]. intros h Hh. do 6 (destruct h; [done|]). lia. Qed.

(** C43. Besides C33_C43_same_as_rc: whatever else is going on, a call on an
    ArcSliceMut, its iterator or its parts iterator does the same as on the
    equal RcSliceMut, iterator or parts iterator over the same items, buffers
    and allocation records, except into_immut, which makes an ArcSlice instead of
    an RcSlice. *)
Theorem C43_unique_same : forall (V : Type) (cf : cfg V) w y h o,
  w_d w = aw_d y -> length (w_h w) = length (aw_h y) -> same_unique (get_h w h) (xget y h) ->
  target o = Some h -> o <> OIntoImmut h -> same_step_on h (rstep cf w o) (xstep cf y o).
Proof. exact @unique_same. Qed.
Print Assumptions C43_unique_same.
Theorem C43_unique_disjoint : forall (V : Type) (cf : cfg V) ops w h h' c,
  xreach cf ops w -> is_aunique w h -> h' <> h -> c ∈ x_cells cf w h -> c ∉ x_cells cf w h'.
Proof. exact @arc_unique_disjoint. Qed.
Print Assumptions C43_unique_disjoint.
Example C43_example :
  let ops := [OMutFromVec 1000 [1;2;3;4;5]; OSplitOff true 0; OReplace 1 1 9; OIntoIter 1; ONext true 2; OSplitIntoParts 0 2; ONext false 3; OIntoImmut 4; OClone 5] in
  xafter cf8 ops (fun w r => r = Some (RHandle 6) /\ x_cells cf8 w 2 = [(0, 2%N); (0, 3%N)] /\ xview cf8 w 2 = Some (Some 1016%N, [3;9]) /\ is_aunique w 2) /\
  match rrun cf8 empty_world ops, xrun cf8 empty_aworld ops with
  | Ok (w, _), Ok (y, _) => w_d w = aw_d y /\ length (w_h w) = length (aw_h y) /\ same_unique (get_h w 2) (xget y 2) /\ same_unique (get_h w 3) (xget y 3)
  | _, _ => False
  end.
Proof. demo. Qed.
