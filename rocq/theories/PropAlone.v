(** C46, C47: a call of ArcSlice, its WeakSlice or ArcSliceMut that one thread
    runs while the others, wherever they are, stand still. *)
From Verif Require Import Base Api SliceItemsModel BinPartsModel DataModel RcModel Spec ArcModel ArcConc ConcSpec ConcRaces ConcCheck ConcAlone ConcExact AloneCheck.

(** C46. The hypothesis that the schedule is calm also while the call runs
    holds if the others are not in the middle of an upgrade or into_mut. *)
Theorem C46_uncontended : forall (V : Type) (sz : N) n (es : list (sched (V:=V))) s t o,
  always sz calm n es -> creach sz n es s -> uncontended s t -> forall m, always sz calm n (es ++ solo t o m).
Proof. exact @uncontended_calm. Qed.
Print Assumptions C46_uncontended.
(** The call ends with the result the sequential model gives, in the state the
    sequential model gives; the other threads are where they were. *)
Theorem C46_returns : forall (V : Type) (sz : N) vclone capf growf dbg n (es : list (sched (V:=V))) s t o,
  (forall m, always sz calm n (es ++ solo t o m)) -> creach sz n es s -> idle s t -> may_take s o ->
  (forall h, o <> CGetMut h) -> (forall side h r, o = CMutSplit side h -> cget s h <> Some (XArc r)) ->
  forall w r, astep sz vclone capf growf dbg (world s) (same_op o) = Ok (w, r) -> r <> RInvalid -> r <> RPanic -> r <> RErr -> returned sz s t o w r.
Proof. exact @call_returns. Qed.
Print Assumptions C46_returns.
(** Where it gives the slice back (into_mut), that is in a new variable. *)
Theorem C46_err : forall (V : Type) (sz : N) vclone capf growf dbg n (es : list (sched (V:=V))) s t o,
  (forall m, always sz calm n (es ++ solo t o m)) -> creach sz n es s -> idle s t -> may_take s o ->
  (forall h, o <> CGetMut h) -> (forall side h r, o = CMutSplit side h -> cget s h <> Some (XArc r)) ->
  forall w, astep sz vclone capf growf dbg (world s) (same_op o) = Ok (w, RErr) -> exists h, takes o = Some h /\ returned sz s t o (moved h w) RErr.
Proof. exact @call_err. Qed.
Print Assumptions C46_err.
(** What Rust does not let through (a variable with no value of the right type)
    or panics right away changes nothing. *)
Theorem C46_rejected : forall (V : Type) (sz : N) vclone capf growf dbg n (es : list (sched (V:=V))) s t o,
  (forall m, always sz calm n (es ++ solo t o m)) -> creach sz n es s -> idle s t -> may_take s o ->
  (forall h, o <> CGetMut h) -> (forall side h r, o = CMutSplit side h -> cget s h <> Some (XArc r)) ->
  forall w r, astep sz vclone capf growf dbg (world s) (same_op o) = Ok (w, r) -> r = RInvalid \/ r = RPanic -> forall m, crun sz s (solo t o m) = Ok s.
Proof. exact @call_rejected. Qed.
Print Assumptions C46_rejected.
(** The only way not to end is to wait for a latch that another thread holds. *)
Theorem C46_waits : forall (V : Type) (sz : N) vclone capf growf dbg n (es : list (sched (V:=V))) s t o,
  (forall m, always sz calm n (es ++ solo t o m)) -> creach sz n es s -> idle s t -> may_take s o ->
  (forall h, o <> CGetMut h) -> (forall side h r, o = CMutSplit side h -> cget s h <> Some (XArc r)) ->
  astep sz vclone capf growf dbg (world s) (same_op o) = NoFuel -> spins sz s t o.
Proof. exact @call_waits. Qed.
Print Assumptions C46_waits.
(** The sequential model has no other outcome. *)
Theorem C46_total : forall (V : Type) (sz : N) vclone capf growf dbg n (es : list (sched (V:=V))) s t o,
  (forall m, always sz calm n (es ++ solo t o m)) -> creach sz n es s -> idle s t -> may_take s o ->
  (forall h, o <> CGetMut h) -> (forall side h r, o = CMutSplit side h -> cget s h <> Some (XArc r)) ->
  let a := astep sz vclone capf growf dbg (world s) (same_op o) in a <> UB /\ a <> Panic.
Proof. exact @call_total. Qed.
Print Assumptions C46_total.
(** get_mut: either it returns None and the slice ... *)
Theorem C46_get_mut_none : forall (V : Type) (sz : N) vclone capf growf dbg n (es : list (sched (V:=V))) s t h,
  (forall m, always sz calm n (es ++ solo t (CGetMut h) m)) -> creach sz n es s -> idle s t -> may_take s (CGetMut h) ->
  forall w, astep sz vclone capf growf dbg (world s) (OGetMut h) = Ok (w, RNone) -> returned sz s t (CGetMut h) (moved h w) RNone.
Proof. exact @get_none. Qed.
Print Assumptions C46_get_mut_none.
(** ... or the thread gets to hold the reference, and when it gives it up all is as it was. *)
Theorem C46_get_mut_some : forall (V : Type) (sz : N) vclone capf growf dbg n (es : list (sched (V:=V))) s t h,
  (forall m, always sz calm n (es ++ solo t (CGetMut h) m)) -> creach sz n es s -> idle s t -> may_take s (CGetMut h) ->
  forall w a vs, astep sz vclone capf growf dbg (world s) (OGetMut h) = Ok (w, RSlice a vs) ->
  exists r m s' s'', cget s h = Some (XArc r) /\ crun sz s (solo t (CGetMut h) m) = Ok s' /\
    holds_mut s' t r /\ cs_out s' = cs_out s /\ others_kept s s' t /\ world s' = AW (aw_d w) (aw_g w) (<[h := None]> (aw_h w)) /\
    cstep sz s' (SEnd t) = Ok s'' /\ result s t (moved h w) (RHandle (length (cs_h s))) s''.
Proof. exact @get_some. Qed.
Print Assumptions C46_get_mut_some.
(** It never waits. *)
Theorem C46_get_mut_total : forall (V : Type) (sz : N) vclone capf growf dbg n (es : list (sched (V:=V))) s t h,
  (forall m, always sz calm n (es ++ solo t (CGetMut h) m)) -> creach sz n es s -> idle s t -> may_take s (CGetMut h) ->
  exists w r, astep sz vclone capf growf dbg (world s) (OGetMut h) = Ok (w, r) /\ (r = RNone \/ (exists a vs, r = RSlice a vs) \/ r = RInvalid).
Proof. exact @get_total. Qed.
Print Assumptions C46_get_mut_total.
(** Thread 1 stands inside a clone_left of the right half. Thread 0 can call
    clone_left on the same slice, into_mut on the left half, or upgrade. *)
Example C46_example : always 8 calm 2 mid46 /\ exists s, creach 8 2 mid46 s /\ uncontended s 0 /\ idle s 0 /\
  Forall (fun o => may_take s o /\ exists w, seq46 s o = Ok (w, RHandle 6)) [CCloneHalf false 2; CIntoMut 1; CUpgrade 3] /\
  exists w, seq46 s (CCloneHalf false 2) = Ok (w, RHandle 6) /\ xget w 6 = Some (XArc (ArcS 4 4)).
Proof. exact (conj (proj1 mid46_ok) returns46). Qed.
Example C46_get_mut_example : exists s, creach 8 2 mid46 s /\ uncontended s 0 /\ idle s 0 /\ may_take s (CGetMut 1) /\
  exists w, seq46 s (CGetMut 1) = Ok (w, RSlice (Some 1000%N) [1; 2; 3; 4]).
Proof. exact borrow46. Qed.
(** Thread 1 stands inside an into_mut, holding the latch. Thread 0, with a
    clone, waits in clone_left, and is refused by into_mut and get_mut. *)
Example C46_waits_example : always 8 calm 2 mid46' /\ exists s, creach 8 2 mid46' s /\ uncontended s 0 /\ idle s 0 /\
  (may_take s (CCloneHalf false 6) /\ seq46 s (CCloneHalf false 6) = NoFuel) /\
  (may_take s (CIntoMut 6) /\ exists w, seq46 s (CIntoMut 6) = Ok (w, RErr)) /\
  (may_take s (CIntoMut 3) /\ exists w, seq46 s (CIntoMut 3) = Ok (w, RInvalid)) /\
  may_take s (CGetMut 6) /\ exists w, seq46 s (CGetMut 6) = Ok (w, RNone).
Proof. exact (conj (proj2 mid46_ok) waits46). Qed.

(** C47. While nobody is inside a call, into_mut succeeds if and only if nobody
    has another slice of the data, of a part of it, or of a whole it is part
    of. It then gives exactly the items of the slice, unchanged; otherwise the
    slice comes back. *)
Theorem C47_into_mut : forall (V : Type) (sz : N) n (es : list (sched (V:=V))) s t,
  always sz calm n es -> creach sz n es s -> quiescent s -> idle s t -> forall h r, cget s h = Some (XArc r) ->
  exists m s', crun sz s (solo t (CIntoMut h) m) = Ok s' /\ quiescent s' /\ cget s' h = None /\
    (forall h', h' <> h -> (h' < length (cs_h s))%nat -> cget s' h' = cget s h') /\ (forall c, citem s' c = citem s c) /\
    ((~ shared s h r /\ cs_out s' = cs_out s ++ [(t, RHandle (length (cs_h s)))] /\
        (exists q, cget s' (length (cs_h s)) = Some (XMut q)) /\ ccells s' (length (cs_h s)) = ccells s h) \/
     (shared s h r /\ cs_out s' = cs_out s ++ [(t, RErr)] /\ cget s' (length (cs_h s)) = Some (XArc r))).
Proof. exact @into_mut_when. Qed.
Print Assumptions C47_into_mut.
(** get_mut also needs that nobody has a WeakSlice linked to the slice's guard. *)
Theorem C47_get_mut : forall (V : Type) (sz : N) n (es : list (sched (V:=V))) s t,
  always sz calm n es -> creach sz n es s -> quiescent s -> idle s t -> forall h r, cget s h = Some (XArc r) ->
  exists m s', crun sz s (solo t (CGetMut h) m) = Ok s' /\
    (forall h', h' <> h -> (h' < length (cs_h s))%nat -> cget s' h' = cget s h') /\ cs_d s' = cs_d s /\ cget s' h = None /\
    ((~ shared s h r /\ ~ watched s r /\ holds_mut s' t r /\ cs_out s' = cs_out s) \/
     ((shared s h r \/ watched s r) /\ quiescent s' /\ cs_out s' = cs_out s ++ [(t, RNone)] /\ cget s' (length (cs_h s)) = Some (XArc r))).
Proof. exact @get_mut_when. Qed.
Print Assumptions C47_get_mut.
(** upgrade succeeds if and only if somebody has a slice of the WeakSlice's
    data or of a whole it is part of. *)
Theorem C47_upgrade : forall (V : Type) (sz : N) n (es : list (sched (V:=V))) s t,
  always sz calm n es -> creach sz n es s -> quiescent s -> idle s t -> forall h od w, cget s h = Some (XWeak od w) ->
  exists m s', crun sz s (solo t (CUpgrade h) m) = Ok s' /\ quiescent s' /\
    (forall h', (h' < length (cs_h s))%nat -> cget s' h' = cget s h') /\
    ((exists u r, od = Some u /\ kept s u /\ ar_data r = u /\ cs_out s' = cs_out s ++ [(t, RHandle (length (cs_h s)))] /\ cget s' (length (cs_h s)) = Some (XArc r)) \/
     ((forall u, od = Some u -> ~ kept s u) /\ cs_out s' = cs_out s ++ [(t, RNone)])).
Proof. exact @upgrade_when. Qed.
Print Assumptions C47_upgrade.
(** The left half is nobody else's: into_mut and get_mut succeed. get_mut on
    the right half fails for its WeakSlice. Nobody has a slice of the left
    quarter, but its WeakSlice can be upgraded while the left half is in use ... *)
Example C47_example : always 8 calm 2 halves38 /\ exists s, creach 8 2 halves38 s /\ quiescent s /\ idle s 1 /\ cget s 1 = Some (XArc (ArcS 1 1)) /\ ~ shared s 1 (ArcS 1 1) /\
  ccells s 1 = [(0, 0%N); (0, 1%N); (0, 2%N); (0, 3%N)] /\ data_cells s 3 = [(0, 0%N); (0, 1%N)] /\
  ~ watched s (ArcS 1 1) /\ cget s 2 = Some (XArc (ArcS 2 2)) /\ ~ shared s 2 (ArcS 2 2) /\ watched s (ArcS 2 2) /\
  cget s 5 = Some (XWeak (Some 3) (Some 3)) /\ kept s 3.
Proof. exact (conj (proj1 quiet47) into47). Qed.
(** ... and not once that is gone. *)
Example C47_gone_example : always 8 calm 2 gone47 /\ exists s, creach 8 2 gone47 s /\ quiescent s /\ idle s 0 /\ cget s 5 = Some (XWeak (Some 3) (Some 3)) /\ ~ kept s 3.
Proof. exact gone47_ok. Qed.
(** A slice, its left half, and its left quarter: neither can be converted. *)
Example C47_shared_example : always 8 calm 2 shared47 /\ exists s, creach 8 2 shared47 s /\ quiescent s /\ idle s 1 /\ cget s 1 = Some (XArc (ArcS 1 1)) /\ shared s 1 (ArcS 1 1) /\
  cget s 0 = Some (XArc (ArcS 0 0)) /\ shared s 0 (ArcS 0 0) /\ cget s 2 = Some (XArc (ArcS 2 2)) /\ shared s 2 (ArcS 2 2).
Proof. exact (conj (proj2 quiet47) shared47_ok). Qed.
