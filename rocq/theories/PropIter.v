(** C16-C25: iterators. *)
From Verif Require Import Base Api SliceItemsModel BinPartsModel DataModel RcModel Spec Observe RcTheory IterTheory LeakTheory DebugTheory Demo.

(** C16. After any calls that use the iterator only to iterate, measure, read,
    it is a queue of the not yet taken single items ([items_over] in Observe.v:
    as_slice joins them, len counts them, next and next_back take from either end). *)
Theorem C16_iter_items : forall (V : Type) (cf : cfg V) ops w h v ops2 w2 outs,
  reach cf ops w -> is_iter w h -> view cf w h = Some v -> rrun cf w ops2 = Ok (w2, outs) -> Forall (only_iterates h) ops2 ->
  is_iter w2 h /\ items_over cf w2 h (deque_left (nexts h ops2) (items_view cf v)).
Proof. exact @iter_items. Qed.
Print Assumptions C16_iter_items.
(** The same with writes through [as_mut_slice] in between, by position. *)
Theorem C16_iter_cells : forall (V : Type) (cf : cfg V) ops w h ops2 w2 outs,
  reach cf ops w -> is_iter w h -> rrun cf w ops2 = Ok (w2, outs) -> Forall (iterates h) ops2 ->
  is_iter w2 h /\ h_cells cf w2 h = deque_left (nexts h ops2) (h_cells cf w h) /\
  forall b, exists w3, rstep cf w2 (ONext b h) =
    Ok (w3, match deque_take b (h_cells cf w2 h) with Some (c, _) => match item w2 c with Some v => RVal v | None => RNone end | None => RNone end).
Proof. exact @iter_cells. Qed.
Print Assumptions C16_iter_cells.
(** Dropping a uniquely owning variable drops what it still shows, in order. Also C19. *)
Theorem C16_drop : forall (V : Type) (cf : cfg V) ops w h w' r adr l,
  reach cf ops w -> is_unique w h -> view cf w h = Some (adr, l) -> rstep cf w (ODrop h) = Ok (w', r) ->
  dropped_cells w' = dropped_cells w ++ h_cells cf w h /\ dropped w' = dropped w ++ l.
Proof. exact @drop_order. Qed.
Print Assumptions C16_drop.

Example C16_example :
  let ops2 := [ONext false 1; ONext true 1; OReplace 1 0 9; ONext true 1; ODeref 1] in
  after cf8 ([OMutFromVec 1000 [1;2;3;4;5]; OIntoIter 0] ++ ops2) (fun w r => r = Some (RSlice (Some 1008%N) [9;3]) /\ is_iter w 1 /\ nexts 1 ops2 = [false; true; true]) /\
  after cf0 ([OMutFromVec 1000 [1;2;3;4;5]; OIntoIter 0] ++ ops2) (fun w r => r = Some (RSlice None [9;3]) /\ is_iter w 1) /\
  Forall (iterates 1) ops2.
Proof. split_and!; [demo..|]. repeat (constructor; [by intros _|]). constructor. Qed.
Example C16_example_drop : after cf8 [OMutFromVec 1000 [1;2;3;4;5]; OIntoIter 0; ONext false 1; ONext true 1; ODrop 1]
  (fun w _ => dropped w = [2;3;4] /\ freed w = [0]).
Proof. demo. Qed.

(** C17 *)
Theorem C17_split_at : forall (V : Type) (cf : cfg V) ops w h v to i,
  reach cf ops w -> is_iter w h -> view cf w h = Some v ->
  let len := length (snd v) in let n := length (w_h w) in
  ((len < i)%nat -> rstep cf w (OSplitAt to h (N.of_nat i)) = Ok (w, RPanic)) /\
  ((i <= len)%nat -> exists w', rstep cf w (OSplitAt to h (N.of_nat i)) = Ok (w', RHandle n) /\ is_iter w' h /\ is_iter w' n /\
    view cf w' (if to then n else h) = Some (sub_view cf v 0 i) /\
    view cf w' (if to then h else n) = Some (sub_view cf v i (len - i)) /\
    (forall h', h' <> h -> (h' < n)%nat -> view cf w' h' = view cf w h')).
Proof. exact @split_at_views. Qed.
Print Assumptions C17_split_at.

Example C17_example : after cf8 [OMutFromVec 1000 [1;2;3;4;5]; OIntoIter 0; ONext false 1; OSplitAt true 1 1; OSplitAt false 1 5]
  (fun w r => r = Some RPanic /\ is_iter w 1 /\ view cf8 w 2 = Some (Some 1008%N, [2]) /\ view cf8 w 1 = Some (Some 1016%N, [3;4;5])).
Proof. demo. Qed.

(** C18-C21. split_into_parts(2^k) gives a variable that, after any calls that use
    it only to iterate, measure, read (and, by position, write), is the queue of the
    not yet taken leaves of halving [k] times ([parts_over] in Observe.v: as_slice
    joins them, len counts them, next and next_back take from either end). *)
Theorem C18_C19_C20_C21_parts : forall (V : Type) (cf : cfg V) ops w h k v,
  reach cf ops w -> is_rc w h \/ is_mut w h -> view cf w h = Some v -> (2 ^ N.of_nat k < usize_lim)%N ->
  let n := length (w_h w) in
  exists w1, rstep cf w (OSplitIntoParts h (2 ^ N.of_nat k)) = Ok (w1, RHandle n) /\
    (is_rc w h -> is_parts w1 n) /\ (is_mut w h -> is_mparts w1 n) /\
    forall ops2 w2 outs, rrun cf w1 ops2 = Ok (w2, outs) ->
      (Forall (iterates n) ops2 -> parts_over_cells cf w2 n (deque_left (nexts n ops2) (list_leaves k (h_cells cf w h)))) /\
      (Forall (only_iterates n) ops2 ->
         (is_rc w h -> parts_over cf is_rc w2 n (deque_left (nexts n ops2) (view_leaves cf k v))) /\
         (is_mut w h -> parts_over cf is_mut w2 n (deque_left (nexts n ops2) (view_leaves cf k v)))).
Proof. exact @parts_run. Qed.
Print Assumptions C18_C19_C20_C21_parts.
(** There are [2^k] leaves and they make up the slice. *)
Theorem C18_C20_leaves : forall (V : Type) (cf : cfg V) k (v : option N * list V),
  length (view_leaves cf k v) = (2 ^ k)%nat /\ view_leaves cf k v ≫= snd = snd v.
Proof. intros. split; [apply leaves_count|apply leaves_items]. Qed.
Print Assumptions C18_C20_leaves.

Example C18_example :
  let ops2 := [ONext false 1; ONext true 1; ONext true 1; ODeref 1] in
  after cf8 ([OMutFromVec 1000 [1;2;3;4;5]; OSplitIntoParts 0 4] ++ ops2)
    (fun w r => r = Some (RSlice (Some 1008%N) [2]) /\ is_mparts w 1 /\ view cf8 w 3 = Some (Some 1024%N, [4;5]) /\ view cf8 w 4 = Some (Some 1016%N, [3])) /\
  after cf8 ([OFromVec 1000 [1;2;3;4;5]; OSplitIntoParts 0 4] ++ ops2)
    (fun w r => r = Some (RSlice (Some 1008%N) [2]) /\ is_parts w 1 /\ view cf8 w 3 = Some (Some 1024%N, [4;5]) /\ view cf8 w 4 = Some (Some 1016%N, [3])) /\
  nexts 1 ops2 = [false; true; true] /\ Forall (only_iterates 1) ops2.
Proof. split_and!; [demo..|done|]. repeat (constructor; [by split; [intros _|intros _ []]|]). constructor. Qed.

(** C22. While no parts iterator is cloned, debug builds behave like release
    builds (no debug assertion fires), and a parts iterator never outgrows nor
    reallocates its deque. *)
Theorem C22_no_realloc : forall (V : Type) (cf : cfg V), (forall n, (n <= c_capf cf n)%N) ->
  forall ops, no_parts_clone cf empty_world ops ->
  drun cf empty_world ops = rrun cf empty_world ops /\
  forall w, reach cf ops w -> forall h it, get_h w h = Some (HParts it) ->
    (N.of_nat (length (dq_items (bp_deque it))) <= dq_cap (bp_deque it))%N /\
    forall b w' r, rstep cf w (ONext b h) = Ok (w', r) ->
      exists it', get_h w' h = Some (HParts it') /\ dq_cap (bp_deque it') = dq_cap (bp_deque it).
Proof. exact @no_realloc. Qed.
Print Assumptions C22_no_realloc.

(** The deque holds three slices where four fit. *)
Example C22_example : after cf8 [OFromVec 1000 [1;2;3;4;5]; OSplitIntoParts 0 8; ONext false 1; OClone 2; ODrop 2]
  (fun w _ => exists it, get_h w 1 = Some (HParts it) /\ length (dq_items (bp_deque it)) = 3 /\ dq_cap (bp_deque it) = 4%N) /\
  no_parts_clone cf8 empty_world [OFromVec 1000 [1;2;3;4;5]; OSplitIntoParts 0 8; ONext false 1; OClone 2; ODrop 2].
Proof. split; [demo|]. vm_compute. split_and!; try done. intros [it E]. discriminate E. Qed.

(** C23 in release builds: the clone and the original are queues of the same parts. *)
Theorem C23_clone_release_partial : forall (V : Type) (cf : cfg V) ops w h,
  reach cf ops w -> is_parts w h ->
  let m := length (w_h w) in
  exists q w1, parts_over cf is_rc w h q /\ rstep cf w (OClone h) = Ok (w1, RHandle m) /\ is_parts w1 m /\
    forall ops2 w2 outs, rrun cf w1 ops2 = Ok (w2, outs) ->
      (Forall (only_iterates h) ops2 -> parts_over cf is_rc w2 h (deque_left (nexts h ops2) q)) /\
      (Forall (only_iterates m) ops2 -> parts_over cf is_rc w2 m (deque_left (nexts m ops2) q)).
Proof. exact @parts_clone. Qed.
Print Assumptions C23_clone_release_partial.
(** C23 as stated is false: in debug builds, iterating the clone of a parts
    iterator over four parts panics, since the clone's deque is smaller. *)
Theorem C23_debug_refuted : exists ops : list (op nat),
  drun cf8 empty_world ops = Panic /\ (exists w outs, rrun cf8 empty_world ops = Ok (w, outs)) /\
  ops = [OFromVec 1000 [1;2;3;4]; OSplitIntoParts 0 4; OClone 1; ONext false 2].
Proof. eexists. split_and!; [|eexists _, _|reflexivity]; vm_compute; reflexivity. Qed.
Print Assumptions C23_debug_refuted.

Example C23_example : after cf8 [OFromVec 1000 [1;2;3;4;5]; OSplitIntoParts 0 4; ONext false 1; OClone 1; ONext true 1; ONext true 3; ONext false 3]
  (fun w _ => is_parts w 3 /\ view cf8 w 3 = Some (Some 1016%N, [3]) /\ view cf8 w 1 = Some (Some 1008%N, [2;3])).
Proof. demo. Qed.

(** C24 *)
Theorem C24_panics : forall (V : Type) (cf : cfg V) ops w h n,
  reach cf ops w -> is_rc w h \/ is_mut w h -> (n < usize_lim)%N -> (forall k, n <> 2 ^ k)%N ->
  exists w', rstep cf w (OSplitIntoParts h n) = Ok (w', RPanic) /\ rstep cf w (ODrop h) = Ok (w', RUnit).
Proof. exact @split_panics. Qed.
Print Assumptions C24_panics.
Theorem C24_succeeds : forall (V : Type) (cf : cfg V) ops w h k,
  reach cf ops w -> is_rc w h \/ is_mut w h -> (2 ^ k < usize_lim)%N ->
  exists w', rstep cf w (OSplitIntoParts h (2 ^ k)%N) = Ok (w', RHandle (length (w_h w))).
Proof. exact @split_succeeds. Qed.
Print Assumptions C24_succeeds.

Example C24_example : after cf8 [OFromVec 1000 [1;2;3;4;5]; OCloneHalf true 0; OSplitIntoParts 0 12]
  (fun w r => r = Some RPanic /\ dropped w = [1;2] /\ is_rc w 1) /\
  after cf8 [OFromVec 1000 [1;2;3;4;5]; OSplitIntoParts 0 0] (fun w r => r = Some RPanic /\ dropped w = [1;2;3;4;5]).
Proof. split; demo. Qed.

(** C25 *)
Theorem C25_even : forall (V : Type) (cf : cfg V) k (v : option N * list V) u,
  u ∈ view_leaves cf k v ->
  (length (snd v) / 2 ^ k <= length (snd u) <= (length (snd v) + 2 ^ k - 1) / 2 ^ k)%nat.
Proof. exact @leaves_sizes. Qed.
Print Assumptions C25_even.
Theorem C25_sum : forall (V : Type) (cf : cfg V) k (v : option N * list V), view_leaves cf k v ≫= snd = snd v.
Proof. exact @leaves_items. Qed.
Print Assumptions C25_sum.

Example C25_example : (length ∘ snd) <$> view_leaves cf8 3 (Some 1000%N, seq 0 21) = [2;3;2;3;2;3;3;3].
Proof. vm_compute. reflexivity. Qed.
