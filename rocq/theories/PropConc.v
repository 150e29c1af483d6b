(** C36-C41: ArcSlice, its WeakSlice and ArcSliceMut used by any number of
    threads, under every schedule. *)
From Verif Require Import Base Api SliceItemsModel BinPartsModel DataModel RcModel Spec ArcModel ArcConc ConcSpec ConcTheory ConcShare ConcHold ConcItem ConcQuiet ConcRaces ConcCheck.

(** C36. All calls of clone_left (or clone_right) on slices of the same data,
    by whatever threads and at whatever times, give slices of the same data. *)
Theorem C36_same_child : forall (V : Type) (sz : N) n (es : list (sched (V:=V))) s t t' x side c c',
  creach sz n es s -> halved sz n es t x side c -> halved sz n es t' x side c' -> c = c'.
Proof. exact @halves_agree. Qed.
Print Assumptions C36_same_child.
(** It covers the half of the range; it is the one in the field of the parent. *)
Theorem C36_right_half : forall (V : Type) (sz : N) n (es : list (sched (V:=V))) s t x side c rx rc,
  creach sz n es s -> halved sz n es t x side c -> data_rng s x = Some rx -> data_rng s c = Some rc -> rc = half side rx.
Proof. exact @halves_geometry. Qed.
Print Assumptions C36_right_half.
Theorem C36_linked : forall (V : Type) (sz : N) n (es : list (sched (V:=V))) s t x side c,
  creach sz n es s -> halved sz n es t x side c ->
  forall nx, rc_get (dw_datas (cs_d s)) x = Some nx -> if (d_len nx <=? if side then 1 else 0)%N then c = x else d_child side nx = Some c.
Proof. exact @half_linked. Qed.
Print Assumptions C36_linked.
(** Neither winning nor losing the race drops or moves an item. *)
Theorem C36_quiet : forall (V : Type) (sz : N) (s : cstate V) t x side s',
  in_clone_child s t x side -> tstep sz s t = Ok s' ->
  dw_mem (cs_d s') = dw_mem (cs_d s) /\ cdropped s' = cdropped s /\ cs_h s' = cs_h s.
Proof. exact @clone_child_quiet. Qed.
Print Assumptions C36_quiet.
(** Both threads find no left child and make one; thread 1's compare-and-swap
    comes first. *)
Example C36_example :
  let es := alone 0 (CFromVec 1000 [1; 2; 3; 4; 5]) ++ alone 0 (CClone 0) ++
    [SStart 0 (CCloneHalf false 0)] ++ [SStart 1 (CCloneHalf false 1)] ++ steps 0 3 ++ steps 1 5 ++ steps 0 1 in
  cafter 8 2 es (fun s => exists k n, cs_t s !! 0 = Some [FChildLost 0 false 1 k n; KFromData; KEnd (Some 0)] /\ in_clone_child s 0 0 false) /\
  exists es', halved 8 2 (es ++ es') 0 0 false 1 /\ halved 8 2 (es ++ es') 1 0 false 1 /\
    cafter 8 2 (es ++ es') (fun s => data_rng s 0 = Some (Rng 0 0 5) /\ data_rng s 1 = Some (Rng 0 0 2)).
Proof. exact race36. Qed.

(** C37. Whatever the threads do other than calling into_mut (C38), nothing
    undefined happens: no count is decremented that is zero, no item read or
    dropped that is not there, no freed buffer touched. *)
Theorem C37_safe : forall (V : Type) (sz : N) n (es : list (sched (V:=V))), no_into_mut es -> exists s, creach sz n es s.
Proof. exact @share_safe. Qed.
Print Assumptions C37_safe.
(** The items that somebody's slice covers are there, not dropped, and (unless
    items take no space) their buffer is not freed. *)
Theorem C37_not_early : forall (V : Type) (sz : N) n (es : list (sched (V:=V))) s x c,
  no_into_mut es -> creach sz n es s -> has s x -> c ∈ xcells s x ->
  is_Some (citem s c) /\ c ∉ cdropped s /\ (sz <> 0%N -> fst c ∉ cfreed s).
Proof. exact @share_covered. Qed.
Print Assumptions C37_not_early.
(** A slice in use always has a range, and it is the same range throughout. *)
Theorem C37_range : forall (V : Type) (sz : N) n (es : list (sched (V:=V))) s r,
  no_into_mut es -> creach sz n es s -> has s (XArc r) -> exists rg, data_rng s (ar_data r) = Some rg.
Proof. exact @share_range. Qed.
Print Assumptions C37_range.
Theorem C37_range_kept : forall (V : Type) (sz : N) n (es es' : list (sched (V:=V))) s s' x rg rg',
  creach sz n es s -> creach sz n (es ++ es') s' -> data_rng s x = Some rg -> data_rng s' x = Some rg' -> rg' = rg.
Proof. exact @range_kept. Qed.
Print Assumptions C37_range_kept.
(** No cell's item is dropped twice and no buffer freed twice; every item that
    was put in a buffer is there or dropped, not both. *)
Theorem C37_once : forall (V : Type) (sz : N) n (es : list (sched (V:=V))) s,
  creach sz n es s -> NoDup (cdropped s) /\ NoDup (cfreed s) /\
  (forall c, c ∈ cdropped s -> citem s c = None) /\ (forall c, c ∈ buffer_cells s <-> is_Some (citem s c) \/ c ∈ cdropped s).
Proof. exact @share_once. Qed.
Print Assumptions C37_once.
(** The same for values: those handed to the library are, with multiplicity,
    those in memory, those it dropped and those it gave back. *)
Theorem C37_conserved : forall (V : Type) (sz : N) n (es : list (sched (V:=V))) s,
  creach sz n es s -> cput_run sz (init_cstate n) es ≡ₚ ccontents s ++ cdropped_items s ++ cgot s.
Proof. exact @share_conserved. Qed.
Print Assumptions C37_conserved.
(** When nobody is inside a call, the items dropped are those that no slice covers. *)
Theorem C37_dropped_iff : forall (V : Type) (sz : N) n (es : list (sched (V:=V))) s c,
  no_into_mut es -> creach sz n es s -> quiescent s -> c ∈ buffer_cells s ->
  c ∈ cdropped s <-> forall h, c ∉ ccells s h.
Proof. exact @share_quiescent. Qed.
Print Assumptions C37_dropped_iff.
(** When, besides, only WeakSlices are left: all items are dropped, all buffers
    freed, all slice data and allocation records deallocated. *)
Theorem C37_all_gone : forall (V : Type) (sz : N) n (es : list (sched (V:=V))) s,
  no_into_mut es -> creach sz n es s -> quiescent s ->
  (forall h x, cget s h = Some x -> exists (d g : option nat), x = XWeak d g) ->
  dw_mem (cs_d s) = ∅ /\ cdropped s ≡ₚ buffer_cells s /\
  Forall (fun x => x = None) (dw_datas (cs_d s)) /\ Forall (fun x => x = None) (dw_allocs (cs_d s)) /\
  (sz <> 0%N -> forall b blk, dw_blocks (cs_d s) !! b = Some blk -> b_len blk <> 0%N -> b ∈ cfreed s).
Proof. exact @share_gone. Qed.
Print Assumptions C37_all_gone.
(** What an ArcSliceMut covers, no other value covers. *)
Theorem C37_mut_exclusive : forall (V : Type) (sz : N) n (es : list (sched (V:=V))) s h m c,
  no_into_mut es -> creach sz n es s -> cget s h = Some (XMut m) -> c ∈ ccells s h ->
  (forall h', h' <> h -> c ∉ ccells s h') /\ (forall t st x, cs_t s !! t = Some st -> x ∈ st ≫= carried -> c ∉ xcells s x).
Proof. exact @share_mut. Qed.
Print Assumptions C37_mut_exclusive.
(** Thread 0 halves its slice while thread 1, having dropped the parent's last
    other handle, upgrades a WeakSlice; in the end only the right half is left. *)
Example C37_example :
  let es := alone 0 (CFromVec 1000 [1; 2; 3; 4; 5]) ++ alone 0 (CDowngrade 0) ++ alone 1 (CMutFromVec 2000 [6; 7]) ++
    [SStart 0 (CCloneHalf true 0); SStart 1 (CUpgrade 1)] ++ steps 0 3 ++ steps 1 5 ++ steps 0 2 in
  let es1 := es ++ steps 0 40 ++ steps 1 40 ++ [SStart 0 (CDrop 0); SStart 1 (CDrop 4)] ++ steps 0 3 ++ steps 1 4 ++ steps 0 40 ++ steps 1 40 in
  let es2 := es1 ++ alone 0 (CDrop 3) ++ alone 0 (CDrop 2) in
  no_into_mut es2 /\
  cafter 8 2 es1 (fun s => quiescent s /\ ccells s 2 = [(1, 0%N); (1, 1%N)] /\ ccells s 3 = [(0, 2%N); (0, 3%N); (0, 4%N)] /\
    cdropped s = [(0, 0%N); (0, 1%N)] /\ cfreed s = [] /\ cput_run 8 (init_cstate 2) es1 = [1; 2; 3; 4; 5; 6; 7] /\
    (exists m, cget s 2 = Some (XMut m)) /\ (exists r, cget s 3 = Some (XArc r))) /\
  cafter 8 2 es2 (fun s => quiescent s /\ (forall h x, cget s h = Some x -> exists (d g : option nat), x = XWeak d g) /\ cget s 1 = Some (XWeak (Some 0) (Some 0)) /\
    cdropped s = [(0, 0%N); (0, 1%N); (0, 2%N); (0, 3%N); (0, 4%N); (1, 0%N); (1, 1%N)] /\ cfreed s = [0; 1]).
Proof. exact share37. Qed.

(** C38 is false. The schedule is in ConcRaces.v: variable 3 is the ArcSliceMut
    that thread 0's into_mut returned, variable 4 the ArcSlice that thread 1's upgrade
    returned. *)
Theorem C38_refuted : exists (es : list (sched (V:=nat))) s,
  creach 8 2 es s /\ idle s 0 /\ idle s 1 /\
  (exists m, cget s 3 = Some (XMut m)) /\ (exists r, cget s 4 = Some (XArc r)) /\
  ccells s 3 = [(0, 0%N); (0, 1%N); (0, 2%N); (0, 3%N)] /\ ccells s 4 = [(0, 0%N); (0, 1%N)].
Proof. exact c38. Qed.
Print Assumptions C38_refuted.
(** Dropping the two, in either order, drops an item that is dropped already. *)
Theorem C38_double_drop_refuted : exists (es : list (sched (V:=nat))) s,
  creach 8 2 es s /\ crun 8 s (alone 0 (CDrop 3) ++ alone 1 (CDrop 4)) = UB /\ crun 8 s (alone 1 (CDrop 4) ++ alone 0 (CDrop 3)) = UB.
Proof. exact c38_double_drop. Qed.
Print Assumptions C38_double_drop_refuted.

(** What is left of C38: everything holds, with into_mut, of the schedules in
    which no upgrade of a part (half, quarter, ...) of a slice is under way
    while an into_mut on that slice takes the data and its halves apart. All
    races are allowed otherwise. Missing: schedules that are not calm, for which
    the claim is false. *)
Theorem C38_safe_partial : forall (V : Type) (sz : N) n (es : list (sched (V:=V))), always sz calm n es -> exists s, creach sz n es s.
Proof. exact @calm_safe. Qed.
Print Assumptions C38_safe_partial.
(** What an ArcSliceMut covers (one that into_mut returned, say), no other value covers. *)
Theorem C38_exclusive_partial : forall (V : Type) (sz : N) n (es : list (sched (V:=V))), always sz calm n es ->
  forall s h m c, creach sz n es s -> cget s h = Some (XMut m) -> c ∈ ccells s h ->
  (forall h', h' <> h -> c ∉ ccells s h') /\ (forall t st x, cs_t s !! t = Some st -> x ∈ st ≫= carried -> c ∉ xcells s x).
Proof. exact @calm_mut. Qed.
Print Assumptions C38_exclusive_partial.
(** And as for C37. *)
Theorem C38_not_early_partial : forall (V : Type) (sz : N) n (es : list (sched (V:=V))), always sz calm n es ->
  forall s x c, creach sz n es s -> has s x -> c ∈ xcells s x ->
  is_Some (citem s c) /\ c ∉ cdropped s /\ (sz <> 0%N -> fst c ∉ cfreed s).
Proof. exact @calm_covered. Qed.
Print Assumptions C38_not_early_partial.
Theorem C38_range_partial : forall (V : Type) (sz : N) n (es : list (sched (V:=V))), always sz calm n es ->
  forall s r, creach sz n es s -> has s (XArc r) -> exists rg, data_rng s (ar_data r) = Some rg.
Proof. exact @calm_range. Qed.
Print Assumptions C38_range_partial.
Theorem C38_dropped_iff_partial : forall (V : Type) (sz : N) n (es : list (sched (V:=V))), always sz calm n es ->
  forall s c, creach sz n es s -> quiescent s -> c ∈ buffer_cells s -> c ∈ cdropped s <-> forall h, c ∉ ccells s h.
Proof. exact @calm_quiescent. Qed.
Print Assumptions C38_dropped_iff_partial.
Theorem C38_all_gone_partial : forall (V : Type) (sz : N) n (es : list (sched (V:=V))), always sz calm n es ->
  forall s, creach sz n es s -> quiescent s ->
  (forall h x, cget s h = Some x -> exists (d g : option nat), x = XWeak d g) ->
  dw_mem (cs_d s) = ∅ /\ cdropped s ≡ₚ buffer_cells s /\
  Forall (fun x => x = None) (dw_datas (cs_d s)) /\ Forall (fun x => x = None) (dw_allocs (cs_d s)) /\
  (sz <> 0%N -> forall b blk, dw_blocks (cs_d s) !! b = Some blk -> b_len blk <> 0%N -> b ∈ cfreed s).
Proof. exact @calm_gone. Qed.
Print Assumptions C38_all_gone_partial.
(** Programs that call upgrade nowhere have calm schedules only; so have those that call into_mut nowhere. *)
Theorem C38_no_upgrade_calm : forall (V : Type) (sz : N) n (es : list (sched (V:=V))),
  no_upgrade es -> always sz calm n es /\ always sz calm_get n es.
Proof. exact @no_upgrade_calm. Qed.
Print Assumptions C38_no_upgrade_calm.
Theorem C38_no_into_mut_calm : forall (V : Type) (sz : N) n (es : list (sched (V:=V))), no_into_mut es -> always sz calm n es.
Proof. exact @no_into_mut_calm. Qed.
Print Assumptions C38_no_into_mut_calm.
(** Thread 0 converts the left half of a slice, which has a left quarter that
    somebody has a WeakSlice of, while thread 1 upgrades a WeakSlice of the right half. *)
Example C38_example :
  always 8 calm 2 calm38 /\
  cafter 8 2 calm38 (fun s => converting s 0 1 /\ upgrading s 1 2) /\
  always 8 calm 2 (calm38 ++ steps 0 40 ++ steps 1 40) /\
  cafter 8 2 (calm38 ++ steps 0 40 ++ steps 1 40) (fun s => quiescent s /\ (exists m, cget s 6 = Some (XMut m)) /\
    ccells s 6 = [(0, 0%N); (0, 1%N); (0, 2%N); (0, 3%N)] /\ ccells s 7 = [(0, 4%N); (0, 5%N); (0, 6%N); (0, 7%N)] /\ cget s 3 = Some (XWeak (Some 2) (Some 2)) /\
    cget s 5 = Some (XWeak (Some 3) (Some 3))).
Proof. exact calm38_ok. Qed.

(** C39 is false: thread 0 holds the reference get_mut gave it, thread 1 has a
    WeakSlice of the same slice, whose upgrade then succeeds. *)
Theorem C39_refuted : exists (es : list (sched (V:=nat))) s,
  creach 8 2 es s /\ holds_mut s 0 (ArcS 0 0) /\ idle s 1 /\ cget s 2 = Some (XWeak (Some 0) (Some 0)) /\
  data_cells s 0 = [(0, 0%N); (0, 1%N); (0, 2%N); (0, 3%N)] /\
  exists s', crun 8 s (alone 1 (CUpgrade 2)) = Ok s' /\ holds_mut s' 0 (ArcS 0 0) /\
    ccells s' 3 = [(0, 0%N); (0, 1%N); (0, 2%N); (0, 3%N)].
Proof. exact c39. Qed.
Print Assumptions C39_refuted.
(** What is left of C39: in schedules in which no upgrade of a part of a slice
    is under way at the end of a get_mut on that slice, nor one of the slice or
    a part of it while what get_mut returned is in use (and which are calm in
    the sense of C38), no other value covers an item of the slice meanwhile ... *)
Theorem C39_exclusive_partial : forall (V : Type) (sz : N) n (es : list (sched (V:=V))) s t x c,
  always sz calm n es -> always sz calm_get n es -> creach sz n es s -> holding s t x -> c ∈ data_cells s x ->
  (forall h, c ∉ ccells s h) /\ (forall t' st v, t' <> t -> cs_t s !! t' = Some st -> v ∈ st ≫= carried -> c ∉ xcells s v).
Proof. exact @hold_exclusive. Qed.
Print Assumptions C39_exclusive_partial.
(** ... nobody else changes or drops such an item ... *)
Theorem C39_kept_partial : forall (V : Type) (sz : N) n (es : list (sched (V:=V))) s e s' t x c,
  always sz calm n es -> always sz calm_get n es -> creach sz n es s -> holding s t x -> c ∈ data_cells s x ->
  actor e <> t -> cstep sz s e = Ok s' -> citem s' c = citem s c.
Proof. exact @hold_kept. Qed.
Print Assumptions C39_kept_partial.
(** ... and the items of an ArcSlice in a variable never change. *)
Theorem C39_shared_kept_partial : forall (V : Type) (sz : N) n (es : list (sched (V:=V))) s e s' h r c,
  always sz calm n es -> always sz calm_get n es -> creach sz n es s -> cget s h = Some (XArc r) -> c ∈ ccells s h ->
  cstep sz s e = Ok s' -> citem s' c = citem s c.
Proof. exact @shared_kept. Qed.
Print Assumptions C39_shared_kept_partial.
(** As in C38_example, with get_mut instead of into_mut. *)
Example C39_example :
  let es := calm39 ++ steps 0 40 in let es' := es ++ [SWrite 0 1%N 9] ++ steps 1 40 in
  always 8 calm 2 es' /\ always 8 calm_get 2 es' /\
  cafter 8 2 calm39 (fun s => checking s 0 1 /\ upgrading s 1 2) /\
  cafter 8 2 es (fun s => holding s 0 1 /\ upgrading s 1 2 /\ ccells s 2 = [(0, 4%N); (0, 5%N); (0, 6%N); (0, 7%N)]) /\
  cafter 8 2 es' (fun s => holds_mut s 0 (ArcS 1 1) /\ data_cells s 1 = [(0, 0%N); (0, 1%N); (0, 2%N); (0, 3%N)] /\
    citem s (0, 1%N) = Some 9 /\ cget s 5 = Some (XWeak (Some 3) (Some 3)) /\ ccells s 6 = [(0, 4%N); (0, 5%N); (0, 6%N); (0, 7%N)]).
Proof. exact calm39_ok. Qed.

(** If, besides, no downgrade that found the gate open is under way when
    get_mut counts the WeakSlices, then meanwhile nobody has a WeakSlice linked
    to the guard of the slice. (C35 has what WeakSlices linked to earlier guards
    of the same slice do.) *)
Theorem C39_no_weak_partial : forall (V : Type) (sz : N) n (es : list (sched (V:=V))) s t r k,
  always sz calm n es -> always sz calm_get n es -> always sz calm_down n es -> creach sz n es s ->
  cs_t s !! t = Some (FV (VHold r) :: k) \/ cs_t s !! t = Some (FHold r :: k) -> forall od, ~ has s (XWeak od (Some (ar_guard r))).
Proof. exact @no_weak. Qed.
Print Assumptions C39_no_weak_partial.
(** The last hypothesis is needed. *)
Theorem C39_weak_refuted : exists (es : list (sched (V:=nat))) s t r od,
  always 8 calm 2 es /\ always 8 calm_get 2 es /\ creach 8 2 es s /\ holds_mut s t r /\ has s (XWeak od (Some (ar_guard r))).
Proof. exact c39_weak. Qed.
Print Assumptions C39_weak_refuted.
(** Thread 1 makes a WeakSlice of the right half while thread 0 calls get_mut on the left half. *)
Example C39_weak_example :
  let es := down39 ++ steps 0 40 ++ steps 1 40 in
  always 8 calm 2 es /\ always 8 calm_get 2 es /\ always 8 calm_down 2 es /\
  cafter 8 2 down39 (fun s => counting s 0 (ArcS 1 1) /\ downgrading s 1 (ArcS 2 2)) /\
  cafter 8 2 es (fun s => holds_mut s 0 (ArcS 1 1) /\ cget s 3 = Some (XWeak (Some 2) (Some 2)) /\ cget s 6 = Some (XWeak (Some 2) (Some 2))).
Proof. exact down39_ok. Qed.

(** C40. At most one latch; the gate is closed exactly while there is one. *)
Theorem C40_one_latch : forall (V : Type) (sz : N) n (es : list (sched (V:=V))) s y down,
  creach sz n es s -> latches s y down <= 1.
Proof. exact @one_latch. Qed.
Print Assumptions C40_one_latch.
Theorem C40_closed_iff : forall (V : Type) (sz : N) n (es : list (sched (V:=V))) s y down,
  creach sz n es s -> latches s y down = 1 <-> gate_closed s y down.
Proof. exact @latch_closed. Qed.
Print Assumptions C40_closed_iff.
(** try_close returns a latch exactly when there is none. *)
Theorem C40_try_close : forall (V : Type) (sz : N) n (es : list (sched (V:=V))) s t f k y down,
  creach sz n es s -> cs_t s !! t = Some (f :: k) -> try_closes f = Some (y, down) ->
  exists s', tstep sz s t = Ok s' /\ latches s' y down = 1 /\
    if (latches s y down =? 0)%nat then exists f', cs_t s' !! t = Some (f' :: FOpen y down :: k)
    else exists r o, (o = RNone \/ o = RErr) /\ cs_t s' !! t = Some (FV (VFin (Some (XArc r)) (Some o)) :: k).
Proof. exact @try_close_iff. Qed.
Print Assumptions C40_try_close.
(** Dropping the latch opens the gate. *)
Theorem C40_drop_opens : forall (V : Type) (sz : N) n (es : list (sched (V:=V))) s t v k y down,
  creach sz n es s -> cs_t s !! t = Some (FV v :: FOpen y down :: k) ->
  latches s y down = 1 /\ exists s', tstep sz s t = Ok s' /\ latches s' y down = 0 /\ cs_t s' !! t = Some (FV v :: k).
Proof. exact @latch_drop_opens. Qed.
Print Assumptions C40_drop_opens.
(** wait_till_open goes on when there is no latch, and spins otherwise. *)
Theorem C40_wait : forall (V : Type) (sz : N) n (es : list (sched (V:=V))) s t y down k,
  creach sz n es s -> cs_t s !! t = Some (FWait y down :: k) ->
  exists s', tstep sz s t = Ok s' /\ if (latches s y down =? 0)%nat then cs_t s' !! t = Some k else s' = s.
Proof. exact @wait_iff. Qed.
Print Assumptions C40_wait.
(** Two threads convert clones of one slice, a third halves it. *)
Example C40_example :
  let es := alone 0 (CFromVec 1000 [1; 2; 3; 4; 5]) ++ alone 0 (CClone 0) ++ alone 0 (CClone 0) ++
    [SStart 0 (CIntoMut 0)] ++ steps 0 1 ++ [SStart 1 (CIntoMut 1); SStart 2 (CCloneHalf false 2)] in
  cafter 8 3 es (fun s => latches s 0 false = 1 /\ latches s 0 true = 0 /\
    cs_t s !! 1 = Some [FIm1 (ArcS 0 0); KEnd None] /\
    cs_t s !! 2 = Some [FWait 0 false; FChild 0 false; KFromData; KEnd (Some 2)]) /\
  cafter 8 3 (es ++ steps 1 1 ++ steps 2 1 ++ steps 0 1) (fun s => latches s 0 false = 1 /\
    cs_t s !! 1 = Some [FV (VFin (Some (XArc (ArcS 0 0))) (Some RErr)); KEnd None] /\
    cs_t s !! 2 = Some [FWait 0 false; FChild 0 false; KFromData; KEnd (Some 2)] /\
    cs_t s !! 0 = Some [FV (VFin (Some (XArc (ArcS 0 0))) (Some RErr)); FOpen 0 false; KEnd None]) /\
  cafter 8 3 (es ++ steps 1 1 ++ steps 2 1 ++ steps 0 2 ++ steps 2 1) (fun s => latches s 0 false = 0 /\
    cs_t s !! 2 = Some [FChild 0 false; KFromData; KEnd (Some 2)]).
Proof. vm_compute. repeat split. Qed.

(** C41. A live guard is the installed one of exactly one data; so there is at most one per data. *)
Theorem C41_one_guard : forall (V : Type) (sz : N) n (es : list (sched (V:=V))) s y,
  creach sz n es s -> galive s y -> exists x, installed s x = Some y /\ forall x', installed s x' = Some y -> x' = x.
Proof. exact @one_guard. Qed.
Print Assumptions C41_one_guard.
(** Whoever has obtained a guard of a data has the installed one, which is alive. *)
Theorem C41_installed : forall (V : Type) (sz : N) n (es : list (sched (V:=V))) s x y,
  creach sz n es s -> has_guard s x y -> installed s x = Some y.
Proof. exact @guard_installed. Qed.
Print Assumptions C41_installed.
Theorem C41_agree : forall (V : Type) (sz : N) n (es : list (sched (V:=V))) s x y y',
  creach sz n es s -> has_guard s x y -> has_guard s x y' -> y = y'.
Proof. exact @guards_agree. Qed.
Print Assumptions C41_agree.
(** Both threads upgrade a WeakSlice whose guard is gone, find no guard, and
    make one each; thread 1 installs its first, and thread 0 takes over that one. *)
Example C41_example :
  let es := alone 0 (CFromVec 1000 [1; 2; 3; 4; 5]) ++ alone 0 (CCloneHalf true 0) ++ alone 0 (CDowngrade 1) ++ alone 0 (CDrop 1) ++
    [SStart 0 (CUpgrade 2); SStart 1 (CUpgrade 2)] ++ steps 0 9 ++ steps 1 10 in
  cafter 8 2 es (fun s =>
    cs_t s !! 0 = Some [FGuardCas 1 3 (Some 0); KSlice 1; KEnd (Some 2)] /\
    cs_t s !! 1 = Some [FV (VGuard 2); KSlice 1; KEnd (Some 2)] /\
    installed s 0 = Some 0 /\ installed s 1 = Some 2 /\ rc_get (gd_guards (cs_g s)) 1 = None) /\
  cafter 8 2 (es ++ steps 0 40 ++ steps 1 40) (fun s =>
    cget s 3 = Some (XArc (ArcS 1 2)) /\ cget s 4 = Some (XArc (ArcS 1 2)) /\ installed s 1 = Some 2).
Proof. vm_compute. repeat split. Qed.
(** When nobody is inside a call, each guard that is alive is that of a slice
    somebody has, or of one of which somebody has a part ... *)
Theorem C41_guard_needed : forall (V : Type) (sz : N) n (es : list (sched (V:=V))) s x y,
  creach sz n es s -> quiescent s -> installed s x = Some y ->
  exists h r, cget s h = Some (XArc r) /\ (ar_data r = x \/ below (cs_g s) x (ar_data r)).
Proof. exact @guard_needed. Qed.
Print Assumptions C41_guard_needed.
(** ... so all are gone when all slices are. *)
Theorem C41_guards_gone : forall (V : Type) (sz : N) n (es : list (sched (V:=V))) s,
  creach sz n es s -> quiescent s -> (forall h r, cget s h <> Some (XArc r)) -> forall y, ~ galive s y.
Proof. exact @guards_gone. Qed.
Print Assumptions C41_guards_gone.
Example C41_gone_example :
  cafter 8 2 guards41 (fun s => quiescent s /\ installed s 0 = Some 0 /\ installed s 1 = Some 1 /\ cget s 2 = Some (XArc (ArcS 2 2)) /\
    below (cs_g s) 0 2 /\ below (cs_g s) 1 2) /\
  cafter 8 2 (guards41 ++ alone 1 (CDrop 2)) (fun s => quiescent s /\ cget s 3 = Some (XWeak (Some 1) (Some 1)) /\ (forall h r, cget s h <> Some (XArc r))).
Proof. exact guards41_ok. Qed.
