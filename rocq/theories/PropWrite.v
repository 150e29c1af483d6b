(** C28-C30, C32: zero-sized items, deep copies, writes, panics. *)
From Verif Require Import Base Api SliceItemsModel BinPartsModel DataModel RcModel Spec Observe RcTheory ShareTheory WriteTheory
  LeakTheory ZstTheory Demo.

(** C28. The same calls on items of any two sizes, zero included, return the same
    (addresses aside), cover the same cells and drop the same items. *)
Theorem C28_sizes : forall (V : Type) (cf0 cf1 : cfg V), c_clone cf0 = c_clone cf1 ->
  forall ops w0 w1 q0 q1, rrun cf0 empty_world ops = Ok (w0, q0) -> rrun cf1 empty_world ops = Ok (w1, q1) ->
  fmap (M:=list) strip q0 = fmap (M:=list) strip q1 /\ (forall h, h_cells cf0 w0 h = h_cells cf1 w1 h) /\
  (forall c, item w0 c = item w1 c) /\ dropped w0 ≡ₚ dropped w1.
Proof. exact @sizes_same. Qed.
Print Assumptions C28_sizes.
(** A slice of zero-sized items has the address of its buffer, or (as_slice of
    the iterators) the dangling address. *)
Theorem C28_zst_address : forall (V : Type) (cf : cfg V) ops w h p len,
  reach cf ops w -> h_slice cf w h = Some (p, len) -> len <> 0%N -> c_sz cf = 0%N ->
  exists blk, dw_blocks (w_d w) !! p_blk p = Some blk /\ (p_addr p = b_base blk \/ p_addr p = dangling_addr).
Proof. exact @zst_addr. Qed.
Print Assumptions C28_zst_address.

Example C28_example : after cf0 [OFromVec 8 [1;2;3;4;5]; OSplitOff true 0; OIntoMut 1; OIntoIter 2; ONext true 3; OLen 3; ODrop 3; OLen 3]
  (fun w r => dropped w = [3;4] /\ h_slice cf0 w 0 = Some (Ptr 0 8 0, 2%N)) /\
  after cf0 [OFromVec 8 [1;2;3;4;5]; OSplitOff true 0; OIntoMut 1; OIntoIter 2; ONext true 3; OLen 3] (fun w r => r = Some (RLen 2)).
Proof. split; demo. Qed.

(** C29 *)
Theorem C29_deep_copy : forall (V : Type) (cf : cfg V) ops w h base adr items,
  reach cf ops w -> is_mut w h -> view cf w h = Some (adr, items) ->
  exists w', rstep cf w (OMutClone h base) = Ok (w', RHandle (length (w_h w))) /\ is_mut w' (length (w_h w)) /\
    view cf w' (length (w_h w)) = Some (at_addr cf base (c_clone cf <$> items)) /\
    (forall h', (h' < length (w_h w))%nat -> view cf w' h' = view cf w h') /\
    (forall c, c ∈ h_cells cf w' (length (w_h w)) -> fst c = length (dw_blocks (w_d w))).
Proof. exact @mut_clone_view. Qed.
Print Assumptions C29_deep_copy.
Theorem C29_independent : forall (V : Type) (cf : cfg V) ops w h base w1 n ops2 w2 outs,
  reach cf ops w -> is_mut w h -> rstep cf w (OMutClone h base) = Ok (w1, RHandle n) -> rrun cf w1 ops2 = Ok (w2, outs) ->
  (Forall (spares n) ops2 -> view cf w2 n = view cf w1 n) /\ (Forall (spares h) ops2 -> view cf w2 h = view cf w h).
Proof. exact @mut_clone_independent. Qed.
Print Assumptions C29_independent.

Example C29_example : after cf8 [OMutFromVec 1000 [1;2;3]; OSplitOff true 0; OMutClone 1 2000; OReplace 1 0 7; ODrop 1]
  (fun w _ => is_mut w 2 /\ view cf8 w 2 = Some (Some 2000%N, [3;4]) /\ dropped w = [7;3]).
Proof. demo. Qed.

(** C30 *)
Theorem C30_write : forall (V : Type) (cf : cfg V) ops w o h i v w' old,
  reach cf ops w -> o = OReplace h i v \/ o = OGetMutReplace h i v -> rstep cf w o = Ok (w', RVal old) ->
  exists adr l, view cf w h = Some (adr, l) /\ l !! N.to_nat i = Some old /\
    view cf w' h = Some (adr, <[N.to_nat i := v]> l) /\ h_cells cf w' h = h_cells cf w h /\
    (forall h', h' <> h -> (h' < length (w_h w))%nat -> view cf w' h' = view cf w h') /\
    (forall c, item w' c <> item w c -> h_cells cf w h !! N.to_nat i = Some c).
Proof. exact @replace_view. Qed.
Print Assumptions C30_write.
Theorem C30_write_total : forall (V : Type) (cf : cfg V) ops w h i v adr l,
  reach cf ops w -> is_unique w h -> view cf w h = Some (adr, l) ->
  exists w', rstep cf w (OReplace h i v) = Ok (w', match l !! N.to_nat i with Some old => RVal old | None => RPanic end) /\
    (l !! N.to_nat i = None -> w' = w).
Proof. exact @replace_total. Qed.
Print Assumptions C30_write_total.

Example C30_example : after cf8 [OFromVec 1000 [1;2;3;4;5]; OSplitOff true 0; OGetMutReplace 1 1 9; OIntoMut 1; OSplitIntoParts 2 2; OReplace 3 2 8; ONext true 3]
  (fun w _ => view cf8 w 4 = Some (Some 1024%N, [9;8]) /\ view cf8 w 3 = Some (Some 1016%N, [3]) /\ view cf8 w 0 = Some (Some 1000%N, [1;2]) /\ dropped w = []).
Proof. demo. Qed.

(** C32. With C04_never_stuck (no arithmetic failure leaves a call, no loop runs
    out of fuel): a call panics only for the documented reasons, so in particular
    never because of arithmetic. *)
Theorem C32_panic_only : forall (V : Type) (cf : cfg V) ops w o w',
  reach cf ops w -> rstep cf w o = Ok (w', RPanic) ->
  match o with
  | OSplitIntoParts h n => (forall k, n <> 2 ^ k)%N
  | OReplace h i _ | OGetMutReplace h i _ => exists v, view cf w h = Some v /\ (N.of_nat (length (snd v)) <= i)%N
  | OSplitAt _ h i => exists v, view cf w h = Some v /\ (N.of_nat (length (snd v)) < i)%N
  | _ => False
  end.
Proof. exact @panic_only. Qed.
Print Assumptions C32_panic_only.

(** The largest part count that fits. *)
Example C32_example : after cf8 [OFromVec 1000 [1;2;3]; OSplitIntoParts 0 (2 ^ 63); ONext true 1; ONext false 1; OLen 1]
  (fun w r => r = Some (RLen (2 ^ 63 - 2)) /\ view cf8 w 1 = Some (Some 1000%N, [1;2])) /\
  after cf8 [OFromVec 1000 [1;2;3]; OSplitIntoParts 0 (2 ^ 63 + 1)] (fun w r => r = Some RPanic).
Proof. split; demo. Qed.
