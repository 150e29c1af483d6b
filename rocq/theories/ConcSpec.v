(** Vocabulary in which the properties of the thread-safe API used by many
    threads are stated. Definitions only. *)
From Verif Require Import Base Api SliceItemsModel BinPartsModel DataModel RcModel Spec ArcModel ArcConc.

Section conc_spec.
  Context {V : Type} (sz : N).
  Implicit Types (s : cstate V) (t : nat) (es : list (sched (V:=V))).

  (** [s] is a state of [n] threads after the schedule [es], starting from nothing. *)
  Definition creach (n : nat) es s : Prop := crun sz (init_cstate n) es = Ok s.

  (** The value in a variable. *)
  Definition cget s (h : nat) : option xhandle := fst <$> slot s h.
  (** The cells (buffer, index) a value gives access to; none for a [WeakSlice]. *)
  Definition slice_cells (p : ptr) (len : N) : list (nat * N) := rng_cells (Rng (p_blk p) (p_idx p) len).
  Definition data_rng s (d : nat) : option rng :=
    (fun n => Rng (p_blk (d_ptr n)) (p_idx (d_ptr n)) (d_len n)) <$> rc_get (dw_datas (cs_d s)) d.
  Definition data_cells s (d : nat) : list (nat * N) := match data_rng s d with Some r => rng_cells r | None => [] end.
  Definition xcells s (x : xhandle) : list (nat * N) :=
    match x with
    | XArc r => data_cells s (ar_data r)
    | XMut m => slice_cells (si_ptr (ms_items m)) (si_len (ms_items m))
    | _ => []
    end.
  (** ... of a variable. *)
  Definition ccells s (h : nat) : list (nat * N) := match cget s h with Some x => xcells s x | None => [] end.
  Definition citem s (c : nat * N) : option V := dw_mem (cs_d s) !! c.
  (** Cells whose items the library has dropped, oldest first; buffers it has freed. *)
  Definition cdropped s : list (nat * N) :=
    omap (fun e => match e with EDrop b i _ => Some (b, i) | EFree _ _ _ => None end) (dw_trace (cs_d s)).
  Definition cfreed s : list nat :=
    omap (fun e => match e with EDrop _ _ _ => None | EFree b _ _ => Some b end) (dw_trace (cs_d s)).
  (** Items handed to the library by the event [e] from [s] to [s']: those of a
      new buffer, or the one that replaced another. *)
  Definition cput s (e : sched (V:=V)) s' : list V :=
    match e with
    | SStart _ (CFromVec _ vals) | SStart _ (CMutFromVec _ vals) =>
        if bool_decide (length (dw_blocks (cs_d s')) = length (dw_blocks (cs_d s))) then [] else vals
    | SStart _ (CReplace _ _ v) | SWrite _ _ v =>
        if bool_decide (length (cs_out s') = length (cs_out s)) then [] else [v]
    | _ => []
    end.
  Fixpoint cput_run s es : list V :=
    match es with
    | [] => []
    | e :: es => match cstep sz s e with Ok s' => cput s e s' ++ cput_run s' es | _ => [] end
    end.
  (** Items the library gave back, items it dropped, items in memory. *)
  Definition cgot s : list V := omap (fun e => match e with (_, RVal v) => Some v | _ => None end) (cs_out s).
  Definition cdropped_items s : list V :=
    omap (fun e => match e with EDrop _ _ v => Some v | EFree _ _ _ => None end) (dw_trace (cs_d s)).
  Definition ccontents s : list V := (map_to_list (dw_mem (cs_d s))).*2.
  (** The cells of all buffers there ever were. *)
  Definition buffer_cells s : list (nat * N) :=
    imap (fun b blk => rng_cells (Rng b 0 (b_len blk))) (dw_blocks (cs_d s)) ≫= id.

  (** The thread is between two calls. *)
  Definition idle s t : Prop := cs_t s !! t = Some [].
  (** The thread holds the [&mut [T]] that [get_mut] on [r] gave it. *)
  Definition holds_mut s t (r : arcslice) : Prop := cs_t s !! t = Some [FHold r; KEnd None].
  (** The thread's call is about to return the value [x]. *)
  Definition returns s t (x : xhandle) : Prop := exists o h, cs_t s !! t = Some [FV (VFin (Some x) o); KEnd h].

  (** The slices a thread has inside a call: those [get_mut] and [into_mut] were
      called on, and the one about to be returned. *)
  Definition carried (f : frame V) : list xhandle :=
    match f with
    | FGm1 r | FGm2 r | FGm3 r | FGm4 r | FGm5 r | FIm1 r | FIm2 r | FIm3 r | FHold r | FV (VHold r) => [XArc r]
    | FV (VFin (Some x) _) => [x]
    | _ => []
    end.
  (** Somebody has the value [x]. *)
  Definition has s (x : xhandle) : Prop :=
    (exists h, cget s h = Some x) \/ (exists t st, cs_t s !! t = Some st /\ x ∈ st ≫= carried).
  (** Nobody is inside a call. *)
  Definition quiescent s : Prop := forall t st, cs_t s !! t = Some st -> st = [].
  (** No thread calls [into_mut]. *)
  Definition no_into_mut es : Prop := Forall (fun e => forall t h, e <> SStart t (CIntoMut h)) es.

  (** *** Guards *)
  Definition galive s (y : nat) : Prop := is_Some (rc_get (gd_guards (cs_g s)) y).
  (** The guard that the pointer of data [x] leads to, if it can be upgraded. *)
  Definition installed s (x : nat) : option nat :=
    match gd_metas (cs_g s) !! x with
    | Some m => match gd_boxes (cs_g s) !! am_box m with
                | Some (Some (Some y)) => if rc_get (gd_guards (cs_g s)) y then Some y else None
                | _ => None
                end
    | None => None
    end.
  (** [y] was obtained as the guard of [x]: a slice is made of both, or a thread
      has just got it from [DataGuard::guard] (for a slice, or as the parent of
      the guard of [x']). *)
  Definition has_guard s (x y : nat) : Prop :=
    (exists h, cget s h = Some (XArc (ArcS x y))) \/
    (exists t, returns s t (XArc (ArcS x y)) \/ holds_mut s t (ArcS x y)) \/
    (exists t k, cs_t s !! t = Some (FV (VGuard y) :: KSlice x :: k)) \/
    (exists t x' b k, cs_t s !! t = Some (FV (VGuard y) :: KGuardPar x' b x :: k)).

  (** *** Gates *)
  (** The number of latches on a gate of guard [y] ([down]: the gate for
      [downgrade], else the one for [clone_left]/[clone_right]) that threads hold. *)
  Definition is_latch (y : nat) (down : bool) (f : frame V) : bool :=
    match f with FOpen y' down' => (y' =? y) && eqb down' down | _ => false end.
  Definition latches s (y : nat) (down : bool) : nat :=
    length (filter (fun f => is_latch y down f = true) (mjoin (cs_t s))).
  (** A thread about to call [try_close], and the gate. *)
  Definition try_closes (f : frame V) : option (nat * bool) :=
    match f with
    | FGm1 r => Some (ar_guard r, true)
    | FGm3 r | FIm1 r => Some (ar_guard r, false)
    | _ => None
    end.
  Definition gate_closed s (y : nat) (down : bool) : Prop :=
    exists n, rc_get (gd_guards (cs_g s)) y = Some n /\ a_gate down n = true.

  (** *** Halves *)
  Definition starts t (e : sched (V:=V)) : Prop := exists o, e = SStart t o.
  (** In the course of [es], thread [t] called [clone_left]/[clone_right] on a
      slice of data [x] and got to the point of returning a slice of data [c]. *)
  Definition halved (n : nat) es t (x : nat) (side : bool) (c : nat) : Prop :=
    exists es1 h es2 es3 s1 s2 r y o,
      es = es1 ++ SStart t (CCloneHalf side h) :: es2 ++ es3 /\
      creach n es1 s1 /\ idle s1 t /\ cget s1 h = Some (XArc r) /\ ar_data r = x /\
      Forall (fun e => ~ starts t e) es2 /\
      creach n (es1 ++ SStart t (CCloneHalf side h) :: es2) s2 /\
      cs_t s2 !! t = Some [FV (VFin (Some (XArc (ArcS c y))) o); KEnd (Some h)].
  (** The thread is inside [clone_child]. *)
  Definition in_clone_child s t (x : nat) (side : bool) : Prop :=
    exists f k, cs_t s !! t = Some (f :: k) /\
      match f with
      | FChild x' side' | FChildInc x' side' _ | FChildAlloc x' side' | FChildCas x' side' _ _
      | FChildLost x' side' _ _ _ | FChildUndo x' side' _ _ _ | FChildUnwrap x' side' _ _ _ => x' = x /\ side' = side
      | FItems 0 _ _ => exists c k', k = FV (VData c) :: k'
      | _ => False
      end.

  (** ** Calm schedules *)

  (** The data of which data [x] is a half (field [parent], arc_slice.rs:39). *)
  Definition data_parent (g : gdworld) (x : nat) : option nat :=
    match gd_metas g !! x with Some m => am_parent m | None => None end.
  (** [y] is a half, or a half of a half, ... of [x]. *)
  Inductive below (g : gdworld) (x : nat) : nat -> Prop :=
  | below_half y : data_parent g y = Some x -> below g x y
  | below_more p y : data_parent g y = Some p -> below g x p -> below g x y.
  (** Thread [t] is in the [upgrade] of a [WeakSlice] of data [u]: it has a
      reference to [u] but has yet to get the guard. *)
  Definition upgrading s t (u : nat) : Prop :=
    exists (st : list (frame V)) (h : nat) w (f : frame V), cs_t s !! t = Some st /\ f ∈ st /\ match f with KFromData | KSlice _ => True | _ => False end /\
      last st = Some (KEnd (Some h)) /\ cget s h = Some (XWeak (Some u) w).
  (** Thread [t] is in an [into_mut] on a slice of data [x]: it has found the
      guard unique and has yet to take the data and the halves apart. *)
  Definition converting s t (x : nat) : Prop :=
    exists r, ar_data r = x /\ ((exists k, cs_t s !! t = Some (FIm3 r :: k)) \/
      exists n a k, cs_t s !! t = Some (FFg n a :: k) /\ KImG r ∈ k).
  (** Thread [t] is in a [get_mut] on a slice of data [x] and has found the
      guard unique; it has found the data unique too, or holds the [&mut [T]]. *)
  Definition checking s t (x : nat) : Prop := exists r k, ar_data r = x /\ cs_t s !! t = Some (FGm5 r :: k).
  Definition holding s t (x : nat) : Prop :=
    exists r k, ar_data r = x /\ (cs_t s !! t = Some (FV (VHold r) :: k) \/ cs_t s !! t = Some (FHold r :: k)).
  (** No [upgrade] of a part of a slice overlaps with the second half of an
      [into_mut] on that slice. *)
  Definition calm s : Prop :=
    forall t x t' u, converting s t x -> upgrading s t' u -> ~ below (cs_g s) x u.
  (** ... with the second half of a [get_mut] on that slice or with the use of
      what it returned. *)
  Definition calm_get s : Prop :=
    forall t x t' u, upgrading s t' u -> (checking s t x -> ~ below (cs_g s) x u) /\
      (holding s t x -> u <> x /\ ~ below (cs_g s) x u).
  (** Thread [t] is in a [get_mut] on [r], about to count the [WeakSlice]s; in a
      [downgrade] of [r], having found the gate open. *)
  Definition counting s t (r : arcslice) : Prop := exists k, cs_t s !! t = Some (FGm2 r :: k).
  Definition downgrading s t (r : arcslice) : Prop := exists k, cs_t s !! t = Some (FDown r :: k).
  (** No [downgrade] that found the gate open is still under way when [get_mut]
      counts the [WeakSlice]s. *)
  Definition calm_down s : Prop :=
    forall t r t' r', counting s t r -> downgrading s t' r' -> ar_guard r' <> ar_guard r.
  (** ... at any time of a schedule. *)
  Definition always (P : cstate V -> Prop) (n : nat) es : Prop :=
    forall es1 es2 s, es = es1 ++ es2 -> creach n es1 s -> P s.
  (** Who acts. *)
  Definition actor (e : sched (V:=V)) : nat := match e with SStart t _ | SStep t | SWrite t _ _ | SEnd t => t end.
  (** No thread calls [upgrade]. *)
  Definition no_upgrade es : Prop := Forall (fun e => forall t h, e <> SStart t (CUpgrade h)) es.

  (** ** Calls that no other thread interrupts *)

  (** What the model for one thread (ArcModel.v) calls the same call, and its
      view of the state. *)
  Definition same_op (o : cop V) : op V :=
    match o with
    | CFromVec base vals => OFromVec base vals
    | CMutFromVec base vals => OMutFromVec base vals
    | CClone h => OClone h
    | CCloneHalf side h => OCloneHalf side h
    | CGetMut h => OGetMut h
    | CIntoMut h => OIntoMut h
    | CIntoImmut h => OIntoImmut h
    | CDowngrade h => ODowngrade h
    | CUpgrade h => OUpgrade h
    | CDrop h => ODrop h
    | CDeref h => ODeref h
    | CMutSplit side h => OSplitOff side h
    | CReplace h i v => OReplace h i v
    end.
  Definition world s : aworld V := AW (cs_d s) (cs_g s) ((fun o : option (xhandle * nat) => fst <$> o) <$> cs_h s).
  (** The variable whose value a call moves or borrows mutably; Rust allows this
      if nobody else is borrowing it. *)
  Definition takes (o : cop V) : option nat :=
    match o with
    | CGetMut h | CIntoMut h | CIntoImmut h | CDrop h | CMutSplit _ h | CReplace h _ _ => Some h
    | _ => None
    end.
  Definition may_take s (o : cop V) : Prop := forall h x k, takes o = Some h -> slot s h = Some (x, k) -> k = 0.
  (** The value of variable [h] is moved to a fresh one. *)
  Definition moved (h : nat) (w : aworld V) : aworld V :=
    AW (aw_d w) (aw_g w) (<[h := None]> (aw_h w) ++ [mjoin (aw_h w !! h)]).
  (** No other thread is in the middle of an [upgrade] or in the second half of an [into_mut]. *)
  Definition uncontended s t : Prop := forall t' u, t' <> t -> ~ upgrading s t' u /\ ~ converting s t' u.
  (** The other threads, and what they borrow, are as before. *)
  Definition others_kept s s' t : Prop :=
    (forall t', t' <> t -> cs_t s' !! t' = cs_t s !! t') /\
    (forall h x k x' k', slot s h = Some (x, k) -> slot s' h = Some (x', k') -> k' = k).
  (** Thread [t] calls [o] and takes [m] steps, the others none. *)
  Definition solo t (o : cop V) (m : nat) : list (sched (V:=V)) := SStart t o :: replicate m (SStep t).
  (** In state [s'] the call that thread [t] started in [s] has returned [r] and left [w]. *)
  Definition result s t (w : aworld V) (r : out V) s' : Prop :=
    idle s' t /\ cs_out s' = cs_out s ++ [(t, r)] /\ others_kept s s' t /\ world s' = w.
  (** Run on its own, it gets there. *)
  Definition returned s t o (w : aworld V) (r : out V) : Prop := exists m s', crun sz s (solo t o m) = Ok s' /\ result s t w r s'.
  (** Run on its own, it waits for a gate for good. *)
  Definition spins s t (o : cop V) : Prop :=
    exists y down s1, gate_closed s y down /\ ~ idle s1 t /\ forall m, crun sz s (solo t o m) = Ok s1.
  (** Somebody else has a slice of the same data as the slice [r] in variable
      [h], of a part of it, or of a whole it is part of. *)
  Definition shared s (h : nat) (r : arcslice) : Prop :=
    exists h' r', h' <> h /\ cget s h' = Some (XArc r') /\
      (ar_data r' = ar_data r \/ below (cs_g s) (ar_data r) (ar_data r') \/ below (cs_g s) (ar_data r') (ar_data r)).
  (** Somebody has a [WeakSlice] linked to the guard of [r]. *)
  Definition watched s (r : arcslice) : Prop := exists h od, cget s h = Some (XWeak od (Some (ar_guard r))).
  (** Somebody has a slice of data [u] or of a whole it is part of. *)
  Definition kept s (u : nat) : Prop :=
    exists h r, cget s h = Some (XArc r) /\ (ar_data r = u \/ below (cs_g s) (ar_data r) u).
End conc_spec.
