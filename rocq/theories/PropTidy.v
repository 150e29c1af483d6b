(** C44: a buffer is freed as soon as nothing covers any of it. *)
From Verif Require Import Base Api SliceItemsModel BinPartsModel DataModel RcModel Spec Observe Demo ArcModel ArcObserve ArcDemo TidySpec TidyTheory ArcTidy.

(** C44. After any calls, none of which is [split_off_right] of a unique slice of one item, a
    buffer is freed if and only if no variable covers any of its items. *)
Theorem C44_timely : forall (V : Type) (cf : cfg V) ops w b blk,
  reach cf ops w -> no_strip cf ops -> c_sz cf <> 0%N -> dw_blocks (w_d w) !! b = Some blk -> b_len blk <> 0%N ->
  b ∈ freed w <-> forall h c, c ∈ h_cells cf w h -> fst c <> b.
Proof. exact @TidyTheory.freed_iff. Qed.
Print Assumptions C44_timely.
Theorem C44_timely_arc : forall (V : Type) (cf : cfg V) ops w b blk,
  xreach cf ops w -> x_no_strip cf ops -> c_sz cf <> 0%N -> dw_blocks (aw_d w) !! b = Some blk -> b_len blk <> 0%N ->
  b ∈ xfreed w <-> forall h c, c ∈ x_cells cf w h -> fst c <> b.
Proof. exact @ArcTidy.arc_freed_iff. Qed.
Print Assumptions C44_timely_arc.
(** Every history without [split_off_right] qualifies. *)
Theorem C44_no_right : forall (V : Type) (cf : cfg V) ops,
  Forall (fun o => forall h, o <> OSplitOff true h) ops -> no_strip cf ops /\ x_no_strip cf ops.
Proof. exact @no_right_no_strip. Qed.
Print Assumptions C44_no_right.

(** The exception is real: after [split_off_right] of a unique slice of one item, and the drop
    of what it returned, no variable covers anything, yet the buffer is not freed. *)
Theorem C44_strip_refuted : exists (ops : list (op nat)) w,
  reach cf8 ops w /\ (forall h, h_cells cf8 w h = []) /\ is_mut w 0 /\ dropped w = [7] /\ freed w = [].
Proof.
  exists [OMutFromVec 1000 [7]; OSplitOff true 0; ODrop 1].
  let r := eval vm_compute in (rrun cf8 empty_world [OMutFromVec 1000 [7]; OSplitOff true 0; ODrop 1]) in
  match r with Ok (?w, ?outs) => exists w; split; [exists outs; vm_compute; reflexivity|] end.
  split; [intros [|[|h]]; vm_compute; reflexivity|demo].
Qed.
Print Assumptions C44_strip_refuted.

(** An exhausted iterator, an iterator split at its end and an exhausted parts iterator have let
    go of the buffer, although the variables are still there. *)
Example C44_example : Forall (fun o => forall h, o <> OSplitOff true h) [OMutFromVec 1000 [1;2]; OIntoIter 0; ONext false 1; ONext true 1] /\
  after cf8 [OMutFromVec 1000 [1;2]; OIntoIter 0; ONext false 1; ONext true 1] (fun w r => is_iter w 1 /\ freed w = [0]) /\
  after cf8 [OMutFromVec 1000 [1;2]; OIntoIter 0; OSplitAt false 1 0%N; ODrop 2] (fun w r => is_iter w 1 /\ freed w = [0]) /\
  after cf8 [OMutFromVec 1000 [1;2]; OIntoIter 0; OSplitAt true 1 1%N; ODrop 2] (fun w r => is_iter w 1 /\ freed w = []) /\
  after cf8 [OMutFromVec 1000 [1]; OSplitIntoParts 0 2%N; ONext false 1; ONext false 1; ODrop 3] (fun w r => is_mparts w 1 /\ is_mut w 2 /\ freed w = [0]) /\
  after cf8 [OFromVec 1000 [1]; OCloneHalf false 0; ODrop 0] (fun w r => is_rc w 1 /\ freed w = [0]).
Proof. split; [repeat (apply Forall_cons; split; [done|]); by apply Forall_nil|]. do 4 (split; [demo|]). demo. Qed.
