(** C01, C02: halving and splitting. *)
From Verif Require Import Base Api SliceItemsModel BinPartsModel DataModel RcModel Spec Observe RcTheory Demo.

(** C01. [half_view] is the first half rounded down, or the rest (Observe.v). *)
Theorem C01_clone_half : forall (V : Type) (cf : cfg V) ops w h side v,
  reach cf ops w -> is_rc w h -> view cf w h = Some v ->
  exists w', rstep cf w (OCloneHalf side h) = Ok (w', RHandle (length (w_h w))) /\
    is_rc w' (length (w_h w)) /\ view cf w' (length (w_h w)) = Some (half_view cf side v) /\
    forall h', (h' < length (w_h w))%nat -> view cf w' h' = view cf w h'.
Proof. exact @clone_half_views. Qed.
Print Assumptions C01_clone_half.

Example C01_example : after cf8 [OFromVec 1000 [1;2;3;4;5]; OCloneHalf true 0; ODowngrade 1; ODrop 0; OUpgrade 2; OCloneHalf false 3]
  (fun w r => r = Some (RHandle 4) /\ is_rc w 3 /\ view cf8 w 3 = Some (Some 1016%N, [3;4;5]) /\ view cf8 w 4 = Some (Some 1016%N, [3])).
Proof. demo. Qed.

(** C02 *)
Theorem C02_split_off : forall (V : Type) (cf : cfg V) ops w h side v,
  reach cf ops w -> is_rc w h \/ is_mut w h -> view cf w h = Some v ->
  exists w', rstep cf w (OSplitOff side h) = Ok (w', RHandle (length (w_h w))) /\
    view cf w' (length (w_h w)) = Some (half_view cf side v) /\
    view cf w' h = Some (half_view cf (negb side) v) /\
    (is_rc w h -> is_rc w' h /\ is_rc w' (length (w_h w))) /\ (is_mut w h -> is_mut w' h /\ is_mut w' (length (w_h w))) /\
    forall h', h' <> h -> (h' < length (w_h w))%nat -> view cf w' h' = view cf w h'.
Proof. exact @split_off_views. Qed.
Print Assumptions C02_split_off.

Example C02_example : after cf8 [OFromVec 1000 [1;2;3;4;5]; OClone 0; OSplitOff false 0; ODrop 1; OSplitOff true 0; OIntoMut 3; OMutFromVec 2000 [6;7;8]; OSplitOff true 5]
  (fun w r => view cf8 w 0 = Some (Some 1016%N, [3]) /\ view cf8 w 2 = Some (Some 1000%N, [1;2]) /\ view cf8 w 4 = Some (Some 1024%N, [4;5]) /\
     is_mut w 4 /\ view cf8 w 5 = Some (Some 2000%N, [6]) /\ view cf8 w 6 = Some (Some 2008%N, [7;8])).
Proof. demo. Qed.
