(** C03-C06, C26, C27: addresses, liveness, disposal, deallocation, leaks. *)
From Verif Require Import Base Api SliceItemsModel BinPartsModel DataModel RcModel Spec Observe RcTheory ShareTheory WriteTheory
  ConserveTheory LeakTheory Demo.

(** C03. A variable denotes a range of a buffer: its address is the buffer's
    base plus the index times the item size, and what it shows are that buffer's items. *)
Theorem C03_address : forall (V : Type) (cf : cfg V) ops w h p len,
  reach cf ops w -> h_slice cf w h = Some (p, len) -> len <> 0%N ->
  exists blk items, dw_blocks (w_d w) !! p_blk p = Some blk /\ (p_idx p + len <= b_len blk)%N /\
    (c_sz cf <> 0%N -> p_addr p = (b_base blk + p_idx p * c_sz cf)%N) /\
    (c_sz cf = 0%N -> p_addr p = b_base blk \/ p_addr p = dangling_addr) /\
    view cf w h = Some (if (c_sz cf =? 0)%N then None else Some (p_addr p), items) /\
    N.of_nat (length items) = len /\
    (forall i, (N.of_nat i < len)%N -> items !! i = item w (p_blk p, p_idx p + N.of_nat i)%N).
Proof. exact @slice_addr. Qed.
Print Assumptions C03_address.
(** Buffers keep their address. *)
Theorem C03_buffers_stay : forall (V : Type) (cf : cfg V) ops w o w' r b blk,
  reach cf ops w -> rstep cf w o = Ok (w', r) -> dw_blocks (w_d w) !! b = Some blk ->
  exists blk', dw_blocks (w_d w') !! b = Some blk' /\ b_base blk' = b_base blk.
Proof. exact @buffers_stay. Qed.
Print Assumptions C03_buffers_stay.
(** Items are never copied from one cell to another: an item found in a buffer
    that existed before the call was already in that cell, unless the call is a write. *)
Theorem C03_items_stay : forall (V : Type) (cf : cfg V) ops w o w' r c v,
  reach cf ops w -> rstep cf w o = Ok (w', r) -> item w' c = Some v ->
  item w c = Some v \/ dw_blocks (w_d w) !! fst c = None \/ writes o.
Proof. exact @items_stay. Qed.
Print Assumptions C03_items_stay.
(** What a call makes out of a variable (except [RcSliceMut::clone] and
    [upgrade], see C29 and C14) covers a contiguous piece of the same cells. *)
Theorem C03_derived : forall (V : Type) (cf : cfg V) ops w o h w' r,
  reach cf ops w -> target o = Some h -> ~ allocates o -> rstep cf w o = Ok (w', r) ->
  infix (h_cells cf w' h) (h_cells cf w h) /\
  forall n, r = RHandle n -> infix (h_cells cf w' n) (h_cells cf w h).
Proof. exact @derived_cells. Qed.
Print Assumptions C03_derived.
(** A variable that is not used keeps its address, items and cells. *)
Theorem C03_frame : forall (V : Type) (cf : cfg V) ops w ops2 w2 outs h,
  reach cf ops w -> rrun cf w ops2 = Ok (w2, outs) -> Forall (spares h) ops2 -> (h < length (w_h w))%nat ->
  view cf w2 h = view cf w h /\ h_cells cf w2 h = h_cells cf w h.
Proof. exact @run_frame_reach. Qed.
Print Assumptions C03_frame.

Example C03_example : after cf8 [OFromVec 1000 [1;2;3;4;5]; OSplitOff true 0; OCloneHalf true 1; ODrop 1; OIntoMut 2; OIntoIter 3; ONext false 4]
  (fun w r => h_slice cf8 w 4 = Some (Ptr 0 1032 4, 1%N) /\ r = Some (RVal 4) /\ view cf8 w 4 = Some (Some 1032%N, [5])).
Proof. demo. Qed.
(** The part that survives stays where it was. *)
Example C03_example_frame : after cf8 [OFromVec 1000 [1;2;3;4;5]; OCloneHalf true 0; ODrop 0] (fun w _ =>
  view cf8 w 1 = Some (Some 1016%N, [3;4;5]) /\ h_cells cf8 w 1 = [(0, 2%N); (0, 3%N); (0, 4%N)]).
Proof. demo. Qed.

(** C04. Every sequence of calls runs without touching dead items or freed
    buffers (the model is stuck, [UB], on any such access), without arithmetic
    overflow and without running out of fuel. *)
Theorem C04_never_stuck : forall (V : Type) (cf : cfg V) ops, exists w outs, rrun cf empty_world ops = Ok (w, outs).
Proof. exact @never_stuck. Qed.
Print Assumptions C04_never_stuck.
Theorem C04_covered_live : forall (V : Type) (cf : cfg V) ops w h c,
  reach cf ops w -> c ∈ h_cells cf w h ->
  exists v blk, item w c = Some v /\ dw_blocks (w_d w) !! fst c = Some blk /\ (snd c < b_len blk)%N /\
    (c_sz cf <> 0%N -> b_freed blk = false).
Proof. exact @covered_live. Qed.
Print Assumptions C04_covered_live.
Theorem C04_deref_total : forall (V : Type) (cf : cfg V) ops w h,
  reach cf ops w -> is_rc w h \/ is_parts w h \/ is_unique w h ->
  exists adr items, view cf w h = Some (adr, items) /\ (fun c => item w c) <$> h_cells cf w h = Some <$> items.
Proof. exact @deref_total. Qed.
Print Assumptions C04_deref_total.

Example C04_example : after cf8 [OFromVec 1000 [1;2;3;4;5]; OCloneHalf true 0; ODrop 0; OSplitIntoParts 1 2; ONext true 2]
  (fun w _ => is_parts w 2 /\ h_cells cf8 w 2 = [(0, 2%N)] /\ item w (0, 2%N) = Some 3 /\ item w (0, 1%N) = None).
Proof. demo. Qed.
(** The model does get stuck on an access to a dead item. *)
Example C04_example_stuck : after cf8 [OFromVec 1000 [1;2;3;4;5]; ODrop 0]
  (fun w _ => mem_read 8 (w_d w) 1 (Ptr 0 1000 0) = UB).
Proof. demo. Qed.

(** C05 *)
Theorem C05_alive_iff_covered : forall (V : Type) (cf : cfg V) ops w c,
  reach cf ops w -> is_Some (item w c) <-> exists h, c ∈ h_cells cf w h.
Proof. exact @alive_iff_covered. Qed.
Print Assumptions C05_alive_iff_covered.
(** Dropping a variable drops exactly the items no other variable covers. *)
Theorem C05_drop_exact : forall (V : Type) (cf : cfg V) ops w h w' r,
  reach cf ops w -> rstep cf w (ODrop h) = Ok (w', r) ->
  exists nd : list ((nat * N) * V), dropped_cells w' = dropped_cells w ++ nd.*1 /\ dropped w' = dropped w ++ nd.*2 /\ NoDup nd.*1 /\
    forall c v, (c, v) ∈ nd <-> item w c = Some v /\ c ∈ h_cells cf w h /\ (forall h', h' <> h -> c ∉ h_cells cf w h').
Proof. exact @drop_exact. Qed.
Print Assumptions C05_drop_exact.

Example C05_example : after cf8 [OFromVec 1000 [1;2;3;4;5]; OCloneHalf true 0; OCloneHalf false 1; ODowngrade 0; ODrop 1; ODrop 0]
  (fun w _ => dropped w = [4;5;1;2] /\ item w (0, 2%N) = Some 3 /\ h_cells cf8 w 2 = [(0, 2%N)] /\ h_cells cf8 w 3 = []).
Proof. demo. Qed.

(** C06 *)
Theorem C06_conserved : forall (V : Type) (cf : cfg V) ops w outs,
  rrun cf empty_world ops = Ok (w, outs) -> put_run cf empty_world ops ≡ₚ contents w ++ dropped w ++ got_run outs.
Proof. exact @conserved_items. Qed.
Print Assumptions C06_conserved.
Theorem C06_dropped_once : forall (V : Type) (cf : cfg V) ops w,
  reach cf ops w -> NoDup (dropped_cells w) /\ (forall c, c ∈ dropped_cells w -> item w c = None) /\
  (forall c, c ∈ dropped_cells w -> exists blk, dw_blocks (w_d w) !! fst c = Some blk /\ (snd c < b_len blk)%N).
Proof. exact @dropped_once. Qed.
Print Assumptions C06_dropped_once.
Theorem C06_end : forall (V : Type) (cf : cfg V) ops w outs,
  rrun cf empty_world ops = Ok (w, outs) -> (forall h, get_h w h = None) ->
  put_run cf empty_world ops ≡ₚ dropped w ++ got_run outs /\ dw_mem (w_d w) = ∅.
Proof. exact @end_disposed. Qed.
Print Assumptions C06_end.

Example C06_example : after cf8 [OFromVec 1000 [1;2;3;4;5]; OIntoMut 0; OReplace 1 0 9; OIntoIter 1; ONext true 2; OSplitAt false 2 2; ODrop 2; ODrop 3]
  (fun w _ => w_h w = [None; None; None; None] /\ dropped w = [9;2;3;4] /\
     put_run cf8 empty_world [OFromVec 1000 [1;2;3;4;5]; OIntoMut 0; OReplace 1 0 9; OIntoIter 1; ONext true 2; OSplitAt false 2 2; ODrop 2; ODrop 3] = [1;2;3;4;5;9]).
Proof. demo. Qed.

(** C26 *)
Theorem C26_freed_once : forall (V : Type) (cf : cfg V) ops w, reach cf ops w -> NoDup (freed w).
Proof. exact @freed_once. Qed.
Print Assumptions C26_freed_once.
Theorem C26_layout : forall (V : Type) (cf : cfg V) ops w b addr cap,
  reach cf ops w -> EFree b addr cap ∈ dw_trace (w_d w) ->
  exists blk, dw_blocks (w_d w) !! b = Some blk /\ b_base blk = addr /\ b_len blk = cap.
Proof. exact @freed_layout. Qed.
Print Assumptions C26_layout.
Theorem C26_not_early : forall (V : Type) (cf : cfg V) ops w h c,
  reach cf ops w -> c_sz cf <> 0%N -> c ∈ h_cells cf w h -> fst c ∉ freed w.
Proof. exact @not_freed_early. Qed.
Print Assumptions C26_not_early.

Example C26_example : after cf8 [OFromVec 1000 [1;2;3]; OMutFromVec 2000 [4;5;6]; OCloneHalf true 0; ODrop 0; OSplitOff true 1; ODrop 1; ODrop 3]
  (fun w _ => h_cells cf8 w 2 = [(0, 1%N); (0, 2%N)] /\ freed w = [1] /\ EFree 1 2000 3 ∈ dw_trace (w_d w)).
Proof. demo. apply elem_of_list_further. repeat first [apply elem_of_list_here | apply elem_of_list_further]. Qed.

(** C27. With no variable left, no cell of data, allocator, guards is left, and
    every buffer has been freed. *)
Theorem C27_no_leak : forall (V : Type) (cf : cfg V) ops w,
  reach cf ops w -> (forall h, get_h w h = None) ->
  Forall (fun x => x = None) (dw_datas (w_d w)) /\ Forall (fun x => x = None) (dw_allocs (w_d w)) /\
  Forall (fun x => x = None) (gw_imgs (w_g w)) /\ Forall (fun x => x = None) (gw_gmgs (w_g w)) /\
  (c_sz cf <> 0%N -> forall b blk, dw_blocks (w_d w) !! b = Some blk -> b_len blk <> 0%N -> b ∈ freed w).
Proof. exact @no_leak. Qed.
Print Assumptions C27_no_leak.
(** WeakSlices alone keep no data, items or buffers. *)
Theorem C27_weak_only : forall (V : Type) (cf : cfg V) ops w,
  reach cf ops w -> (forall h x, get_h w h = Some x -> is_weak w h) ->
  Forall (fun x => x = None) (dw_datas (w_d w)) /\ Forall (fun x => x = None) (dw_allocs (w_d w)) /\
  Forall (fun x => x = None) (gw_imgs (w_g w)) /\ dw_mem (w_d w) = ∅ /\
  (c_sz cf <> 0%N -> forall b blk, dw_blocks (w_d w) !! b = Some blk -> b_len blk <> 0%N -> b ∈ freed w).
Proof. exact @no_leak_strong. Qed.
Print Assumptions C27_weak_only.

Example C27_example : after cf8 [OFromVec 1000 [1;2;3;4;5]; OCloneHalf true 0; ODowngrade 1; OCloneHalf false 1; ODrop 0; ODrop 3; ODrop 1]
  (fun w _ => is_weak w 2 /\ get_h w 0 = None /\ get_h w 1 = None /\ get_h w 3 = None /\ freed w = [0] /\ length (dw_datas (w_d w)) = 3).
Proof. demo. Qed.
