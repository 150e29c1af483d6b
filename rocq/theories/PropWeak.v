(** C53: loads that return old values. *)
From Verif Require Import Base Api SliceItemsModel BinPartsModel DataModel RcModel Spec ArcModel ArcConc ConcSpec ConcRaces OrderModel WeakModel WeakTheory WeakMut WeakDemo.
Local Open Scope nat_scope.

(** The machine of ArcConc.v is the case in which all loads see the present ... *)
Theorem C53_sc : forall (V : Type) (sz : N) (acq : bool) n (es : list (sched (V:=V))) s,
  creach sz n es s <-> exists o, wreach sz acq n (WNow <$> es) o /\ ws_s o = s.
Proof. exact @weak_now. Qed.
Print Assumptions C53_sc.
(** ... and a stale load does what that machine does with the value in memory. *)
Theorem C53_load : forall (V : Type) (sz : N) (d : dworld V) (g : gdworld) st l d' g' st',
  loads d st = Some l -> mstep sz d g st = Ok (d', g', st') ->
  d' = d /\ g' = g /\ forall v, peek d g l = Some v -> loaded st v = Some st'.
Proof. exact @loaded_now. Qed.
Print Assumptions C53_load.

(** Whatever is stale, no item is dropped twice, no buffer freed twice, and no
    item lost ... *)
Theorem C53_once : forall (V : Type) (sz : N) (acq : bool) n (es : list (wsched V)) o, wreach sz acq n es o ->
  NoDup (cdropped (ws_s o)) /\ NoDup (cfreed (ws_s o)) /\
  (forall c, c ∈ cdropped (ws_s o) -> citem (ws_s o) c = None) /\
  (forall c, c ∈ buffer_cells (ws_s o) <-> is_Some (citem (ws_s o) c) \/ c ∈ cdropped (ws_s o)).
Proof. exact @weak_once. Qed.
Print Assumptions C53_once.
Theorem C53_conserved : forall (V : Type) (sz : N) (acq : bool) n (es : list (wsched V)) o, wreach sz acq n es o ->
  wput_run sz acq (init_wstate n) es ≡ₚ ccontents (ws_s o) ++ cdropped_items (ws_s o) ++ cgot (ws_s o).
Proof. exact @weak_conserved. Qed.
Print Assumptions C53_conserved.
(** ... all threads that ask for a half of a slice get the same node, the right
    one (cf. C36) ... *)
Theorem C53_same_child : forall (V : Type) (sz : N) (acq : bool) n (es : list (wsched V)) o t t' x side c c', wreach sz acq n es o ->
  whalved sz acq n es t x side c -> whalved sz acq n es t' x side c' -> c = c'.
Proof. exact @weak_halves_agree. Qed.
Print Assumptions C53_same_child.
Theorem C53_right_half : forall (V : Type) (sz : N) (acq : bool) n (es : list (wsched V)) o t x side c rx rc, wreach sz acq n es o ->
  whalved sz acq n es t x side c -> data_rng (ws_s o) x = Some rx -> data_rng (ws_s o) c = Some rc -> rc = half side rx.
Proof. exact @weak_halves_geometry. Qed.
Print Assumptions C53_right_half.
Example C53_halves_example : whalved 8 true 2 lost53 0 0 false 1 /\ whalved 8 true 2 lost53 1 0 false 1.
Proof. exact lost53_halves. Qed.
(** ... gates are closed by one thread at a time (cf. C40), and there is one guard
    for each data (cf. C41). *)
Theorem C53_gates : forall (V : Type) (sz : N) (acq : bool) n (es : list (wsched V)) o y down, wreach sz acq n es o ->
  latches (ws_s o) y down <= 1 /\ (latches (ws_s o) y down = 1 <-> gate_closed (ws_s o) y down).
Proof. exact @weak_closed. Qed.
Print Assumptions C53_gates.
Theorem C53_one_guard : forall (V : Type) (sz : N) (acq : bool) n (es : list (wsched V)) o y, wreach sz acq n es o -> galive (ws_s o) y ->
  exists x, installed (ws_s o) x = Some y /\ forall x', installed (ws_s o) x' = Some y -> x' = x.
Proof. exact @weak_one_guard. Qed.
Print Assumptions C53_one_guard.
Theorem C53_guards_agree : forall (V : Type) (sz : N) (acq : bool) n (es : list (wsched V)) o x y y', wreach sz acq n es o ->
  has_guard (ws_s o) x y -> has_guard (ws_s o) x y' -> y = y'.
Proof. exact @weak_guards_agree. Qed.
Print Assumptions C53_guards_agree.
Theorem C53_guard_needed : forall (V : Type) (sz : N) (acq : bool) n (es : list (wsched V)) o x y, wreach sz acq n es o ->
  quiescent (ws_s o) -> installed (ws_s o) x = Some y ->
  exists h r, cget (ws_s o) h = Some (XArc r) /\ (ar_data r = x \/ below (cs_g (ws_s o)) x (ar_data r)).
Proof. exact @weak_guard_needed. Qed.
Print Assumptions C53_guard_needed.

(** A program that does not call into_mut, or does not clone halves, runs without
    undefined behaviour ... *)
Theorem C53_safe_partial : forall (V : Type) (sz : N) (acq : bool) n (es : list (wsched V)), no_into_mut (calls es) \/ no_halves (calls es) ->
  exists o, wreach sz acq n es o.
Proof. exact @weak_safe. Qed.
Print Assumptions C53_safe_partial.
(** ... no item is dropped that some value covers ... *)
Theorem C53_not_early_partial : forall (V : Type) (sz : N) (acq : bool) n (es : list (wsched V)) o x c, no_into_mut (calls es) \/ no_halves (calls es) ->
  wreach sz acq n es o -> has (ws_s o) x -> c ∈ xcells (ws_s o) x ->
  is_Some (citem (ws_s o) c) /\ c ∉ cdropped (ws_s o) /\ (sz <> 0%N -> fst c ∉ cfreed (ws_s o)).
Proof. exact @weak_covered. Qed.
Print Assumptions C53_not_early_partial.
Theorem C53_range_partial : forall (V : Type) (sz : N) (acq : bool) n (es : list (wsched V)) o r, no_into_mut (calls es) \/ no_halves (calls es) ->
  wreach sz acq n es o -> has (ws_s o) (XArc r) -> exists rg, data_rng (ws_s o) (ar_data r) = Some rg.
Proof. exact @weak_range. Qed.
Print Assumptions C53_range_partial.
(** ... when no call is under way, exactly the items that no value covers have been
    dropped ... *)
Theorem C53_dropped_iff_partial : forall (V : Type) (sz : N) (acq : bool) n (es : list (wsched V)) o c, no_into_mut (calls es) \/ no_halves (calls es) ->
  wreach sz acq n es o -> quiescent (ws_s o) -> c ∈ buffer_cells (ws_s o) ->
  c ∈ cdropped (ws_s o) <-> forall h, c ∉ ccells (ws_s o) h.
Proof. exact @weak_quiescent. Qed.
Print Assumptions C53_dropped_iff_partial.
Theorem C53_all_gone_partial : forall (V : Type) (sz : N) (acq : bool) n (es : list (wsched V)) o, no_into_mut (calls es) \/ no_halves (calls es) ->
  wreach sz acq n es o -> quiescent (ws_s o) -> (forall h x, cget (ws_s o) h = Some x -> exists (od og : option nat), x = XWeak od og) ->
  dw_mem (cs_d (ws_s o)) = ∅ /\ cdropped (ws_s o) ≡ₚ buffer_cells (ws_s o) /\
  Forall (fun x => x = None) (dw_datas (cs_d (ws_s o))) /\ Forall (fun x => x = None) (dw_allocs (cs_d (ws_s o))) /\
  (sz <> 0%N -> forall b blk, dw_blocks (cs_d (ws_s o)) !! b = Some blk -> b_len blk <> 0%N -> b ∈ cfreed (ws_s o)).
Proof. exact @weak_gone. Qed.
Print Assumptions C53_all_gone_partial.
(** ... and nobody else has the items of an ArcSliceMut. *)
Theorem C53_mut_exclusive_partial : forall (V : Type) (sz : N) (acq : bool) n (es : list (wsched V)) o h m c, no_into_mut (calls es) \/ no_halves (calls es) ->
  wreach sz acq n es o -> cget (ws_s o) h = Some (XMut m) -> c ∈ ccells (ws_s o) h ->
  (forall h', h' <> h -> c ∉ ccells (ws_s o) h') /\
  (forall t st x, cs_t (ws_s o) !! t = Some st -> x ∈ st ≫= carried -> c ∉ xcells (ws_s o) x).
Proof. exact @weak_mut. Qed.
Print Assumptions C53_mut_exclusive_partial.
(** Programs of both kinds that read old values; in the first, a thread makes a
    node and a guard in vain, in the second, into_mut fails although nobody else
    has the slice. *)
Example C53_example : no_into_mut (calls gone53) /\
  wafter 2 lost53 (fun o => quiescent (ws_s o) /\ cget (ws_s o) 1 = Some (XArc (ArcS 1 1)) /\ cget (ws_s o) 2 = Some (XArc (ArcS 1 1)) /\
    ccells (ws_s o) 2 = [(0, 0%N); (0, 1%N)] /\ length (gd_guards (cs_g (ws_s o))) = 2 /\ wput_run 8 true (init_wstate 2) lost53 = [1; 2; 3; 4]) /\
  wafter 2 gone53 (fun o => quiescent (ws_s o) /\ cdropped (ws_s o) = [(0, 2%N); (0, 3%N); (0, 0%N); (0, 1%N)] /\ cfreed (ws_s o) = [0]).
Proof. exact lost53_ok. Qed.
Example C53_clones_example : no_halves (calls clones53) /\
  wafter 2 fail53 (fun o => last (cs_out (ws_s o)) = Some (0, RErr) /\ quiescent (ws_s o) /\ cget (ws_s o) 2 = Some (XArc (ArcS 0 0))) /\
  wafter 2 clones53 (fun o => quiescent (ws_s o) /\ (exists m, cget (ws_s o) 3 = Some (XMut m)) /\ ccells (ws_s o) 3 = [(0, 0%N); (0, 1%N); (0, 2%N); (0, 3%N)]).
Proof. exact clones53_ok. Qed.

(** In programs that clone no halves, and do not downgrade or do not upgrade,
    nobody else has the items that get_mut returned ... *)
Theorem C53_get_mut_exclusive_partial : forall (V : Type) (sz : N) (acq : bool) n (es : list (wsched V)) o t x c,
  no_halves (calls es) -> no_downgrade (calls es) \/ no_upgrade (calls es) -> wreach sz acq n es o -> holding (ws_s o) t x -> c ∈ data_cells (ws_s o) x ->
  (forall h, c ∉ ccells (ws_s o) h) /\
  (forall t' st v, t' <> t -> cs_t (ws_s o) !! t' = Some st -> v ∈ st ≫= carried -> c ∉ xcells (ws_s o) v).
Proof. exact @weak_hold_exclusive. Qed.
Print Assumptions C53_get_mut_exclusive_partial.
(** ... nor does anybody else change them ... *)
Theorem C53_get_mut_kept_partial : forall (V : Type) (sz : N) (acq : bool) n (es : list (wsched V)) o t x c (e : wsched V) o',
  no_halves (calls es) -> no_downgrade (calls es) \/ no_upgrade (calls es) -> wreach sz acq n es o -> holding (ws_s o) t x -> c ∈ data_cells (ws_s o) x ->
  (forall e', e = WNow e' -> actor e' <> t) -> wstep sz acq o e = Ok o' -> citem (ws_s o') c = citem (ws_s o) c.
Proof. exact @weak_hold_kept. Qed.
Print Assumptions C53_get_mut_kept_partial.
(** ... because if get_mut reads the count of the guard as 1, it is 1. *)
Theorem C53_get_mut_current_partial : forall (V : Type) (sz : N) (acq : bool) n (es : list (wsched V)) o t j r k o',
  no_halves (calls es) -> no_downgrade (calls es) \/ no_upgrade (calls es) -> wreach sz acq n es o -> cs_t (ws_s o) !! t = Some (FGm4 r :: k) ->
  wstep sz acq o (WOld t j) = Ok o' -> cs_t (ws_s o') !! t = Some (FGm5 r :: k) ->
  rc_count (gd_guards (cs_g (ws_s o))) (ar_guard r) = 1.
Proof. exact @weak_get_mut_current. Qed.
Print Assumptions C53_get_mut_current_partial.
(** A program that reads the count as 2 when it is 1, so that get_mut fails, then as
    1, so that it succeeds. *)
Example C53_get_mut_example : no_halves (calls hold53) /\ no_downgrade (calls hold53) /\
  wafter 2 none53 (fun o => last (cs_out (ws_s o)) = Some (0, RNone) /\ quiescent (ws_s o) /\ cget (ws_s o) 2 = Some (XArc (ArcS 0 0))) /\
  wafter 2 hold53 (fun o => holds_mut (ws_s o) 0 (ArcS 0 0) /\ data_cells (ws_s o) 0 = [(0, 0%N); (0, 1%N); (0, 2%N); (0, 3%N)]).
Proof. exact hold53_ok. Qed.
(** One in which get_mut does not see a WeakSlice that another thread has made. *)
Example C53_get_mut_weak_example : no_halves (calls weak53) /\ no_upgrade (calls weak53) /\
  wafter 2 weak53 (fun o => holds_mut (ws_s o) 0 (ArcS 0 0) /\ data_cells (ws_s o) 0 = [(0, 0%N); (0, 1%N); (0, 2%N); (0, 3%N)] /\ cget (ws_s o) 2 = Some (XWeak (Some 0) (Some 0))).
Proof. exact weak53_ok. Qed.

(** Otherwise the claim is false, even if there are no WeakSlices: variable 4 is the
    ArcSliceMut that thread 0's into_mut returned, variable 3 an ArcSlice with one
    of its items. Dropping both drops that item twice. *)
Theorem C53_into_mut_refuted : exists es o, no_upgrade (calls es) /\ no_downgrade (calls es) /\ wreach (V:=nat) 8 true 2 es o /\ idle (ws_s o) 0 /\ idle (ws_s o) 1 /\
  (exists m, cget (ws_s o) 4 = Some (XMut m)) /\ (exists r, cget (ws_s o) 3 = Some (XArc r)) /\
  ccells (ws_s o) 4 = [(0, 0%N); (0, 1%N)] /\ ccells (ws_s o) 3 = [(0, 0%N)] /\ wrun 8 true o (WNow <$> (alone 0 (CDrop 4) ++ alone 1 (CDrop 3))) = UB.
Proof. exact into_mut_refuted. Qed.
Print Assumptions C53_into_mut_refuted.
(** In the same way, get_mut hands out items that another slice has. *)
Theorem C53_get_mut_refuted : exists es o, no_upgrade (calls es) /\ no_downgrade (calls es) /\ no_into_mut (calls es) /\ wreach (V:=nat) 8 true 2 es o /\
  holds_mut (ws_s o) 0 (ArcS 1 1) /\ idle (ws_s o) 1 /\ (exists r, cget (ws_s o) 3 = Some (XArc r)) /\
  data_cells (ws_s o) 1 = [(0, 0%N); (0, 1%N)] /\ ccells (ws_s o) 3 = [(0, 0%N)].
Proof. exact get_mut_refuted. Qed.
Print Assumptions C53_get_mut_refuted.
(** ... nor the whole of it, if it had a WeakSlice. *)
Theorem C53_get_mut_weak_refuted : exists es o, no_halves (calls es) /\ no_into_mut (calls es) /\ wreach (V:=nat) 8 true 2 es o /\
  holds_mut (ws_s o) 0 (ArcS 0 0) /\ idle (ws_s o) 1 /\ (exists r, cget (ws_s o) 3 = Some (XArc r)) /\
  data_cells (ws_s o) 0 = [(0, 0%N); (0, 1%N); (0, 2%N); (0, 3%N)] /\ ccells (ws_s o) 3 = [(0, 0%N); (0, 1%N); (0, 2%N); (0, 3%N)].
Proof. exact get_mut_weak_refuted. Qed.
Print Assumptions C53_get_mut_weak_refuted.
