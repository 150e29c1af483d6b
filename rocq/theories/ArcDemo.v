(** A form of statement for the examples beside the theorems about the thread-safe API. *)
From Verif Require Import Base Api SliceItemsModel BinPartsModel DataModel RcModel Spec Observe Demo ArcModel ArcSpec ArcObserve.

(** [P] holds of the state after the calls [ops] and of what the last call returned. *)
Definition xafter {V} (cf : cfg V) (ops : list (op V)) (P : aworld V -> option (out V) -> Prop) : Prop :=
  match xrun cf empty_aworld ops with Ok (w, outs) => P w (last outs) | _ => False end.
(** ... which is a reachable state. *)
Lemma xafter_reach {V} (cf : cfg V) ops P : xafter cf ops P -> exists w r, xreach cf ops w /\ P w r.
Proof. unfold xafter, xreach. destruct (xrun cf empty_aworld ops) as [[w outs]| | |] eqn:E; try done. intros H. exists w, (last outs). eauto. Qed.

(** Witnesses against C35 and C42. *)
Ltac witness ops :=
  exists ops; let r := eval vm_compute in (xrun cf8 empty_aworld ops) in
  match r with Ok (?w, ?outs) => exists w; let H := fresh in assert (xreach cf8 ops w) as H by (exists outs; vm_compute; reflexivity) end.

Lemma c35_descendant : exists (ops : list (op nat)) w w1 adr l w2,
  xreach cf8 ops w /\ xstep cf8 w (OGetMut 0) = Ok (w1, RSlice adr l) /\
  xstep cf8 w1 (OUpgrade 2) = Ok (w2, RHandle 3) /\
  x_cells cf8 w2 0 = [(0, 0%N); (0, 1%N); (0, 2%N); (0, 3%N)] /\ x_cells cf8 w2 3 = [(0, 0%N); (0, 1%N)].
Proof. witness [OFromVec 1000 [1;2;3;4]; OCloneHalf false 0; ODowngrade 1; ODrop 1]. do 4 eexists. split; [done|]. do 2 (split; [vm_compute; reflexivity|]). split; vm_compute; reflexivity. Qed.
Lemma c35_same : exists (ops : list (op nat)) w w1 adr l w2,
  xreach cf8 ops w /\ xstep cf8 w (OGetMut 3) = Ok (w1, RSlice adr l) /\
  xstep cf8 w1 (OUpgrade 2) = Ok (w2, RHandle 4) /\
  x_cells cf8 w2 3 = [(0, 0%N); (0, 1%N)] /\ x_cells cf8 w2 4 = [(0, 0%N); (0, 1%N)].
Proof. witness [OFromVec 1000 [1;2;3;4]; OCloneHalf false 0; ODowngrade 1; ODrop 1; OCloneHalf false 0; ODrop 0]. do 4 eexists. split; [done|]. do 2 (split; [vm_compute; reflexivity|]). split; vm_compute; reflexivity. Qed.
Lemma c42 : exists (ops : list (op nat)) w,
  xreach cf8 ops w /\ no_handles w /\ boxes_made w <> boxes_freed w /\ (exists i c, gd_weak (aw_g w) !! i = Some c /\ c <> 0).
Proof.
  witness [OFromVec 1000 [1;2;3;4]; ODrop 0]. split; [done|]. split; [|split; [vm_compute; done|]].
  - intros h. destruct h as [|h]; [done|]. by destruct h.
  - exists 0, 1. split; [reflexivity|done].
Qed.
