(** C07-C15: get_mut, into_mut, unique slices, weak slices. *)
From Verif Require Import Base Api SliceItemsModel BinPartsModel DataModel RcModel Spec Observe RcTheory ShareTheory LeakTheory Demo.

(** C07 *)
Theorem C07_get_mut_exclusive : forall (V : Type) (cf : cfg V) ops w h w' adr l,
  reach cf ops w -> rstep cf w (OGetMut h) = Ok (w', RSlice adr l) ->
  (forall h' c, h' <> h -> c ∈ h_cells cf w h' -> c ∉ h_cells cf w h) /\
  (forall h' w2 n c, rstep cf w (OUpgrade h') = Ok (w2, RHandle n) -> c ∈ h_cells cf w2 n -> c ∉ h_cells cf w h).
Proof. exact @get_mut_exclusive. Qed.
Print Assumptions C07_get_mut_exclusive.
(** Read the other way round: any overlap makes get_mut and into_mut fail. *)
Theorem C07_overlap_blocks : forall (V : Type) (cf : cfg V) ops w h h' c,
  reach cf ops w -> is_rc w h -> h' <> h -> c ∈ h_cells cf w h -> c ∈ h_cells cf w h' ->
  (exists w', rstep cf w (OGetMut h) = Ok (w', RNone)) /\ rstep cf w (OIntoMut h) = Ok (w, RErr).
Proof. exact @overlap_blocks. Qed.
Print Assumptions C07_overlap_blocks.

(** Succeeds next to a sibling and next to a WeakSlice of the parent, which can no longer be upgraded. *)
Example C07_example : after cf8 [OFromVec 1000 [1;2;3;4;5]; ODowngrade 0; OSplitOff true 0; OUpgrade 1; OGetMut 2]
  (fun w r => r = Some (RSlice (Some 1016%N) [3;4;5]) /\ h_cells cf8 w 0 = [(0, 0%N); (0, 1%N)] /\ is_weak w 1).
Proof. demo. Qed.
Example C07_example_overlap : after cf8 [OFromVec 1000 [1;2;3;4;5]; OCloneHalf true 0; OCloneHalf false 1]
  (fun w r => is_rc w 2 /\ (0, 2%N) ∈ h_cells cf8 w 2 /\ (0, 2%N) ∈ h_cells cf8 w 0).
Proof. vm_compute. split_and!; [by eexists|apply elem_of_list_here|apply elem_of_list_further, elem_of_list_further, elem_of_list_here]. Qed.

(** C08. [node] is the place of a variable in its sharing tree (Spec.v); [anc l1
    l2]: [l1] is [l2] or an ancestor of it. *)
Theorem C08_get_mut_iff : forall (V : Type) (cf : cfg V) ops w h lb,
  reach cf ops w -> node cf ops h = Some (ARc lb) ->
  ((exists w' adr l, rstep cf w (OGetMut h) = Ok (w', RSlice adr l)) <->
   (forall h' x' l', h' <> h -> node cf ops h' = Some x' ->
      (l' ∈ strong_labels x' -> ~ anc lb l' /\ ~ anc l' lb) /\ (l' ∈ weak_labels x' -> ~ anc lb l'))) /\
  ((exists w' adr l, rstep cf w (OGetMut h) = Ok (w', RSlice adr l)) \/ exists w', rstep cf w (OGetMut h) = Ok (w', RNone)).
Proof. exact @get_mut_iff. Qed.
Print Assumptions C08_get_mut_iff.

(** Fails because of a WeakSlice of a descendant; succeeds once it is gone. *)
Example C08_example : 
  let ops := [OFromVec 1000 [1;2;3;4;5]; OCloneHalf true 0; ODowngrade 1; ODrop 1; OGetMut 0] in
  after cf8 ops (fun w r => r = Some RNone /\ node cf8 ops 0 = Some (ARc (Lbl 0 [])) /\ node cf8 ops 2 = Some (AWeak (Some (Lbl 0 [true])))) /\
  after cf8 (ops ++ [ODrop 2; OGetMut 0]) (fun w r => r = Some (RSlice (Some 1000%N) [1;2;3;4;5])).
Proof. demo. Qed.

(** C09 *)
Theorem C09_get_mut_stable : forall (V : Type) (cf : cfg V) ops w h w1 adr l ops2 w2 outs,
  reach cf ops w -> rstep cf w (OGetMut h) = Ok (w1, RSlice adr l) ->
  Forall (spares h) ops2 -> rrun cf w1 ops2 = Ok (w2, outs) ->
  view cf w2 h = Some (adr, l) /\
  (forall h' c, h' <> h -> c ∈ h_cells cf w2 h' -> c ∉ h_cells cf w2 h) /\
  exists w3, rstep cf w2 (OGetMut h) = Ok (w3, RSlice adr l).
Proof. exact @get_mut_stable. Qed.
Print Assumptions C09_get_mut_stable.

Example C09_example :
  let ops2 := [OUpgrade 1; ODrop 0; OUpgrade 3; ODrop 1] in
  after cf8 ([OFromVec 1000 [1;2;3;4;5]; ODowngrade 0; OSplitOff true 0; ODowngrade 0; OGetMut 2] ++ ops2)
    (fun w r => Forall (spares 2) ops2 /\ view cf8 w 2 = Some (Some 1016%N, [3;4;5])).
Proof. vm_compute. split; [|reflexivity]. repeat (constructor; [discriminate|]). constructor. Qed.

(** C10 *)
Theorem C10_into_mut_iff : forall (V : Type) (cf : cfg V) ops w h lb,
  reach cf ops w -> node cf ops h = Some (ARc lb) ->
  ((exists w' n, rstep cf w (OIntoMut h) = Ok (w', RHandle n)) <->
   (forall h' x' l', h' <> h -> node cf ops h' = Some x' -> l' ∈ strong_labels x' -> ~ anc lb l' /\ ~ anc l' lb)) /\
  ((exists w' n, rstep cf w (OIntoMut h) = Ok (w', RHandle n)) \/ rstep cf w (OIntoMut h) = Ok (w, RErr)).
Proof. exact @into_mut_iff. Qed.
Print Assumptions C10_into_mut_iff.

Example C10_example : after cf8 [OFromVec 1000 [1;2;3;4;5]; OCloneHalf true 0; ODowngrade 1; OIntoMut 0; ODrop 1; OIntoMut 0; OUpgrade 2]
  (fun w r => r = Some RNone /\ get_h w 0 = None /\ is_mut w 3 /\ view cf8 w 3 = Some (Some 1000%N, [1;2;3;4;5])) /\
  after cf8 [OFromVec 1000 [1;2;3;4;5]; OCloneHalf true 0; ODowngrade 1; OIntoMut 0] (fun w r => r = Some RErr /\ is_rc w 0).
Proof. split; demo. Qed.

(** C11 *)
Theorem C11_convert_keeps : forall (V : Type) (cf : cfg V) ops w h o w' n,
  reach cf ops w -> o = OIntoMut h \/ o = OIntoImmut h \/ o = OIntoIter h -> rstep cf w o = Ok (w', RHandle n) ->
  n = length (w_h w) /\ view cf w' n = view cf w h /\ h_cells cf w' n = h_cells cf w h /\ get_h w' h = None /\
  (forall h', h' <> h -> (h' < length (w_h w))%nat -> view cf w' h' = view cf w h') /\
  (forall c, item w' c = item w c).
Proof. exact @convert_keeps. Qed.
Print Assumptions C11_convert_keeps.
Theorem C11_drops_nothing : forall (V : Type) (cf : cfg V) ops w h o w' n,
  reach cf ops w -> o = OIntoMut h \/ o = OIntoImmut h \/ o = OIntoIter h -> rstep cf w o = Ok (w', RHandle n) ->
  dropped_cells w' = dropped_cells w /\ dropped w' = dropped w.
Proof. exact @convert_drops_nothing. Qed.
Print Assumptions C11_drops_nothing.
Theorem C11_into_immut_total : forall (V : Type) (cf : cfg V) ops w h,
  reach cf ops w -> is_mut w h ->
  exists w', rstep cf w (OIntoImmut h) = Ok (w', RHandle (length (w_h w))) /\ is_rc w' (length (w_h w)).
Proof. exact @into_immut_total. Qed.
Print Assumptions C11_into_immut_total.
Theorem C11_round_trip : forall (V : Type) (cf : cfg V) ops w h w1,
  reach cf ops w -> rstep cf w (OIntoImmut h) = Ok (w1, RHandle (length (w_h w))) ->
  exists w2, rstep cf w1 (OIntoMut (length (w_h w))) = Ok (w2, RHandle (S (length (w_h w)))) /\
    view cf w2 (S (length (w_h w))) = view cf w h /\ is_mut w2 (S (length (w_h w))).
Proof. exact @round_trip. Qed.
Print Assumptions C11_round_trip.

(** Converting a half whose own halves existed once, back and forth. *)
Example C11_example : after cf8 [OFromVec 1000 [1;2;3;4;5]; OSplitOff true 0; OCloneHalf false 1; ODrop 2; OIntoMut 1; OIntoImmut 3; OIntoMut 4]
  (fun w r => r = Some (RHandle 5) /\ is_mut w 5 /\ view cf8 w 5 = Some (Some 1016%N, [3;4;5]) /\ dropped w = [] /\ view cf8 w 0 = Some (Some 1000%N, [1;2])).
Proof. demo. Qed.

(** C12 *)
Theorem C12_unique_disjoint : forall (V : Type) (cf : cfg V) ops w h h' c,
  reach cf ops w -> is_unique w h -> h' <> h -> c ∈ h_cells cf w h -> c ∉ h_cells cf w h'.
Proof. exact @unique_disjoint. Qed.
Print Assumptions C12_unique_disjoint.

Example C12_example : after cf8 [OFromVec 1000 [1;2;3;4;5]; OSplitOff true 0; OIntoMut 1; OSplitIntoParts 2 2; ONext true 3; OIntoIter 4]
  (fun w r => is_mparts w 3 /\ is_iter w 5 /\ h_cells cf8 w 3 = [(0, 2%N)] /\ h_cells cf8 w 5 = [(0, 3%N); (0, 4%N)]).
Proof. demo. Qed.

(** C13. A WeakSlice from [WeakSlice::new] has [ol = None]. *)
Theorem C13_upgrade_iff : forall (V : Type) (cf : cfg V) ops w h ol,
  reach cf ops w -> node cf ops h = Some (AWeak ol) ->
  ((exists w' n, rstep cf w (OUpgrade h) = Ok (w', RHandle n)) <->
   exists lb h' x' l', ol = Some lb /\ node cf ops h' = Some x' /\ l' ∈ strong_labels x' /\ anc l' lb) /\
  ((exists w' n, rstep cf w (OUpgrade h) = Ok (w', RHandle n)) \/ exists w', rstep cf w (OUpgrade h) = Ok (w', RNone)).
Proof. exact @upgrade_iff. Qed.
Print Assumptions C13_upgrade_iff.

(** Upgradeable through the parent; not through both halves together. *)
Example C13_example :
  after cf8 [OFromVec 1000 [1;2;3;4;5]; OCloneHalf true 0; ODowngrade 1; ODrop 1; OUpgrade 2] (fun w r => r = Some (RHandle 3) /\ view cf8 w 3 = Some (Some 1016%N, [3;4;5])) /\
  after cf8 [OFromVec 1000 [1;2;3;4;5]; ODowngrade 0; OSplitOff true 0; OUpgrade 1] (fun w r => r = Some RNone /\ is_rc w 0 /\ is_rc w 2).
Proof. split; demo. Qed.

(** C14 *)
Theorem C14_weak_round : forall (V : Type) (cf : cfg V) ops w h w1 n ops2 w2 outs w3 m,
  reach cf ops w -> rstep cf w (ODowngrade h) = Ok (w1, RHandle n) -> rrun cf w1 ops2 = Ok (w2, outs) ->
  rstep cf w2 (OUpgrade n) = Ok (w3, RHandle m) ->
  is_rc w3 m /\ view cf w3 m = view cf w h /\ h_cells cf w3 m = h_cells cf w h.
Proof. exact @weak_round. Qed.
Print Assumptions C14_weak_round.

(** The half is dropped, created again, and its first WeakSlice still denotes it;
    the upgraded slice blocks into_mut. *)
Example C14_example : after cf8 [OFromVec 1000 [1;2;3;4;5]; OCloneHalf true 0; ODowngrade 1; ODrop 1; OCloneHalf true 0; ODrop 0; OUpgrade 2; OIntoMut 3]
  (fun w r => r = Some RErr /\ is_rc w 4 /\ view cf8 w 4 = Some (Some 1016%N, [3;4;5])).
Proof. demo. Qed.

(** C15. [h'] is any WeakSlice, then or later, of the converted subslice or a descendant. *)
Theorem C15_into_mut_kills : forall (V : Type) (cf : cfg V) ops w h lb w1 n ops2 w2 outs h' l',
  reach cf ops w -> node cf ops h = Some (ARc lb) ->
  rstep cf w (OIntoMut h) = Ok (w1, RHandle n) -> rrun cf w1 ops2 = Ok (w2, outs) ->
  node cf (ops ++ OIntoMut h :: ops2) h' = Some (AWeak (Some l')) -> anc lb l' ->
  exists w3, rstep cf w2 (OUpgrade h') = Ok (w3, RNone).
Proof. exact @into_mut_kills_all. Qed.
Print Assumptions C15_into_mut_kills.

Example C15_example : 
  let ops := [OFromVec 1000 [1;2;3;4;5]; OCloneHalf true 0; ODowngrade 1; ODrop 1] in
  let ops2 := [OIntoImmut 3; OCloneHalf true 4; OClone 2] in
  after cf8 (ops ++ OIntoMut 0 :: ops2 ++ [OUpgrade 2]) (fun w r => r = Some RNone /\ node cf8 ops 0 = Some (ARc (Lbl 0 [])) /\
    node cf8 (ops ++ OIntoMut 0 :: ops2) 6 = Some (AWeak (Some (Lbl 0 [true]))) /\ view cf8 w 5 = Some (Some 1016%N, [3;4;5])).
Proof. demo. Qed.
