(** Memory orderings. ArcConc.v lets threads take turns on one shared memory.
    Here the same execution is annotated with what happens before what: which
    accesses to items a thread is guaranteed, by the orderings written in the
    code and by those of [std::sync::Arc], to come after. Two accesses to the
    same item, one of them a write, neither of which happens before the other
    are a data race and undefined behaviour, whatever the hardware does.

    Simplifications: atomic operations themselves take effect in the order of
    the schedule (a load sees the latest store). Only accesses to items and the
    freeing of buffers are followed; those to nodes, guards and boxes are the
    subject of PubModel.v. *)
From Verif Require Import Base Api SliceItemsModel BinPartsModel DataModel RcModel Spec ArcModel ArcConc ConcSpec.
Local Open Scope nat_scope.

(** Accesses are numbered; a view is the set of those that happen before. *)
Notation view := (gset nat).

(** Atomic locations: the strong count of a data, the strong and the weak count
    of a guard, the count of a [SliceAlloc], the fields [left_child] and
    [right_child] (arc_slice.rs:36, 38) and [guard] (arc_slice.rs:43) of a data,
    the two gates of a guard (gate.rs:4-6). *)
Inductive loc :=
| LData (x : nat)
| LGuard (y : nat)
| LWeak (y : nat)
| LAlloc (a : nat)
| LChild (x : nat) (side : bool)
| LBox (x : nat)
| LGate (y : nat) (down : bool).
#[global] Instance loc_eq_dec : EqDecision loc.
Proof. solve_decision. Defined.

(** An access to the item in a cell (buffer, index): by which thread, whether
    it writes, and what happened before. Dropping an item, storing one and
    freeing the buffer are writes. *)
Record access := Access {
  ac_thread : nat;
  ac_cell : nat * N;
  ac_write : bool;
  ac_seen : view
}.

(** The state of ArcConc.v, with what happened before the next step of a thread,
    before the next use of a variable, and before whoever reads a location with
    [Acquire]; the accesses so far. Threads that share a reference to a variable
    need not know of each other, so there are two views for each: [os_var], known to
    all who use it, and [os_bor], what those who borrowed it knew when they were
    done. *)
Record ostate (V : Type) := OS {
  os_s : cstate V;
  os_thr : nat -> view;
  os_var : nat -> view;
  os_bor : nat -> view;
  os_loc : loc -> view;
  os_acc : list access
}.
Arguments OS {_} _ _ _ _ _ _.
Arguments os_s {_} _.
Arguments os_thr {_} _.
Arguments os_var {_} _.
Arguments os_bor {_} _.
Arguments os_loc {_} _.
Arguments os_acc {_} _.

Definition init_ostate {V} (n : nat) : ostate V :=
  OS (init_cstate n) (fun _ => ∅) (fun _ => ∅) (fun _ => ∅) (fun _ => ∅) [].

(** The views of several locations or variables together; adding a view to some
    of them. *)
Definition gather {A} (f : A -> view) (l : list A) : view := ⋃ (f <$> l).
Definition spread {A} `{EqDecision A} (l : list A) (v : view) (f : A -> view) (x : A) : view :=
  if decide (x ∈ l) then f x ∪ v else f x.

Section order.
  Context {V : Type} (sz : N) (acq : bool).
  Notation stack := (list (frame V)).
  Implicit Types (s : cstate V) (e : sched (V:=V)).

  (** Which locations a step of a thread reads with [Acquire] and which it writes
      with [Release]. [acq] tells whether [Arc::strong_count], [Arc::weak_count]
      and a successful [Weak::upgrade] are [Acquire]; they are [Relaxed] in some
      versions of the standard library. In all versions [Arc::clone] is
      [Relaxed], dropping an [Arc] is [Release] and, for the last one, [Acquire],
      a successful [Arc::try_unwrap] is [Acquire], and an [upgrade] that finds
      the count 0 is [Relaxed]. Every write to a count is a read-modify-write, so
      a count passes on all that was released to it. *)
  Definition gone {A} (h : heap A) (i : nat) : bool := rc_count h i =? 0.
  Definition unique {A} (h : heap A) (i : nat) : bool := rc_count h i =? 1.
  Definition when {A} (b : bool) (l : list A) : list A := if b then l else [].
  (** Dropping an [Option<Arc<SliceAlloc>>] *)
  Definition sync_alloc (d : dworld V) (a : option nat) : list loc * list loc :=
    match a with
    | Some a => (when (unique (dw_allocs d) a) [LAlloc a], [LAlloc a])
    | None => ([], [])
    end.
  (** Upgrading the guard in box [b] *)
  Definition sync_upgrade (g : gdworld) (b : nat) : list loc :=
    match gd_boxes g !! b with
    | Some (Some (Some y)) => when (acq && negb (gone (gd_guards g) y)) [LGuard y]
    | _ => []
    end.
  Definition sync (d : dworld V) (g : gdworld) (st : stack) : list loc * list loc :=
    match st with
    (* the last reference also swaps the children out, arc_slice.rs:186 *)
    | FRel x :: _ => (when (unique (dw_datas d) x) [LData x; LChild x false; LChild x true], [LData x])
    | FItems 0 _ a :: _ => sync_alloc d a
    | FRelG y :: _ => (when (unique (gd_guards g) y) [LGuard y], LGuard y :: when (unique (gd_guards g) y) [LWeak y])
    | FRelW (Some y) :: _ => ([], [LWeak y])
    (* gate.rs:16 *)
    | FWait y down :: _ => ([LGate y down], [])
    (* arc_slice.rs:133; too small a slice is not looked at but has no child either *)
    | FChild x side :: _ => ([LChild x side], [])
    (* arc_slice.rs:141 *)
    | FChildCas x side _ _ :: _ =>
        ([LChild x side],
         match rc_get (dw_datas d) x with Some n => match d_child side n with None => [LChild x side] | Some _ => [] end | None => [] end)
    (* arc_slice.rs:287 *)
    | FGuard x :: _ => ([LBox x], [])
    (* arc_slice.rs:289, 313 *)
    | FGuardUp _ b :: _ | FGuardLost _ b _ :: _ => (sync_upgrade g b, [])
    (* arc_slice.rs:294 *)
    | FGuardPar x _ :: _ =>
        (match gd_metas g !! x with
         | Some m => match am_parent m with Some p => when (acq && negb (gone (dw_datas d) p)) [LData p] | None => [] end
         | None => []
         end, [])
    (* arc_slice.rs:302 *)
    | FGuardCas x b _ :: _ =>
        ([LBox x], match gd_metas g !! x with Some m => when (am_box m =? b) [LBox x] | None => [] end)
    (* [Arc::downgrade], arc_slice.rs:409 *)
    | FDown r :: _ => ([LWeak (ar_guard r)], [])
    (* arc_slice.rs:476 *)
    | FUpgrade (Some x) :: _ => (when (acq && negb (gone (dw_datas d) x)) [LData x], [])
    (* gate.rs:20 *)
    | FGm1 r :: _ => ([LGate (ar_guard r) true], [LGate (ar_guard r) true])
    | FGm3 r :: _ | FIm1 r :: _ => ([LGate (ar_guard r) false], [LGate (ar_guard r) false])
    (* arc_slice.rs:370, 372, 396, 373 *)
    | FGm2 r :: _ => (when acq [LWeak (ar_guard r)], [])
    | FGm4 r :: _ | FIm2 r :: _ => (when acq [LGuard (ar_guard r)], [])
    | FGm5 r :: _ => (when acq [LData (ar_data r)], [])
    (* [Arc::try_unwrap], arc_slice.rs:397, 222, 224; then the children are swapped
       out, arc_slice.rs:186 *)
    | FIm3 r :: _ =>
        (when (unique (dw_datas d) (ar_data r)) [LData (ar_data r); LChild (ar_data r) false; LChild (ar_data r) true], [])
    | FFg n a :: k =>
        match node_kids n with
        | c :: _ => (when (unique (dw_datas d) c) [LData c; LChild c false; LChild c true], [])
        | [] => match k with KFg _ _ _ :: _ => sync_alloc d a | _ => ([], []) end
        end
    (* gate.rs:30 *)
    | FV _ :: FOpen y down :: _ => ([], [LGate y down])
    | _ => ([], [])
    end.

  (** The items accessed by an event from [s] to [s']. A new buffer is filled, a
      slice read, an item replaced, an item dropped, a buffer freed. *)
  Definition responded s s' : bool := negb (length (cs_out s') =? length (cs_out s)).
  Definition logged (d d' : dworld V) : list (nat * N) :=
    drop (length (dw_trace d)) (dw_trace d') ≫= fun x =>
      match x with EDrop b i _ => [(b, i)] | EFree b _ len => rng_cells (Rng b 0 len) end.
  Definition accesses s e s' : list ((nat * N) * bool) :=
    match e with
    | SStart t (CFromVec _ vals) | SStart t (CMutFromVec _ vals) =>
        when (negb (length (dw_blocks (cs_d s')) =? length (dw_blocks (cs_d s))))
          ((.,true) <$> rng_cells (Rng (length (dw_blocks (cs_d s))) 0 (N.of_nat (length vals))))
    | SStart t (CDeref h) => when (responded s s') ((.,false) <$> ccells s h)
    | SStart t (CReplace h i _) =>
        match slot s h with
        | Some (XMut m, _) => when (responded s s') [((p_blk (si_ptr (ms_items m)), p_idx (si_ptr (ms_items m)) + i)%N, true)]
        | _ => []
        end
    | SWrite t i _ =>
        match cs_t s !! t with
        | Some [FHold r; KEnd None] =>
            match rc_get (dw_datas (cs_d s)) (ar_data r) with
            | Some n => when (responded s s') [((p_blk (d_ptr n), p_idx (d_ptr n) + i)%N, true)]
            | None => []
            end
        | _ => []
        end
    | _ => (.,true) <$> logged (cs_d s) (cs_d s')
    end.

  (** The variable a call uses. Values get from one thread to another through
      variables only, and whoever uses a variable comes after all who used it
      before, unless both borrow it: this is what Rust asks of its user. *)
  Definition uses (o : cop V) : option nat :=
    match o with
    | CFromVec _ _ | CMutFromVec _ _ => None
    | CClone h | CCloneHalf _ h | CGetMut h | CIntoMut h | CIntoImmut h | CDowngrade h | CUpgrade h | CDrop h
    | CDeref h | CMutSplit _ h | CReplace h _ _ => Some h
    end.
  (** Thread [t] made a call (that Rust accepts). *)
  Definition began s t s' : bool :=
    match cs_t s !! t, cs_t s' !! t with
    | Some [], Some [] => responded s s'
    | Some [], Some _ => true
    | _, _ => false
    end.
  Definition vars_in s e s' : list nat :=
    match e with SStart t o => when (began s t s') (option_list (uses o)) | _ => [] end.
  (** A call that only borrows its argument. Other calls come after all that those
      who borrowed it before have done. *)
  Definition shares e : bool :=
    match e with SStart _ (CClone _ | CCloneHalf _ _ | CDowngrade _ | CUpgrade _ | CDeref _) => true | _ => false end.
  Definition bor_in s e s' : list nat := if shares e then [] else vars_in s e s'.
  (** The variable whose borrow ends, if one does; new variables and those that
      were used exclusively. *)
  Definition bor_out s e s' : list nat :=
    match e with
    | SStart t (CDeref h) => when (began s t s') [h]
    | SStep t => match cs_t s !! t with Some [FV (VFin _ _); KEnd (Some h)] => [h] | _ => [] end
    | _ => []
    end.
  Definition var_out s e s' : list nat :=
    seq (length (cs_h s)) (length (cs_h s') - length (cs_h s)) ++
    match e with SStart t (CReplace h _ _) | SStart t (CMutSplit _ h) => when (began s t s') [h] | _ => [] end.
  Definition syncs s e : list loc * list loc :=
    match e with
    | SStep t => match cs_t s !! t with Some st => sync (cs_d s) (cs_g s) st | None => ([], []) end
    | _ => ([], [])
    end.

  Definition annotate (o : ostate V) e s' : ostate V :=
    let s := os_s o in
    let t := actor e in
    let v := os_thr o t ∪ gather (os_var o) (vars_in s e s') ∪ gather (os_bor o) (bor_in s e s') ∪ gather (os_loc o) (syncs s e).1 in
    let l := accesses s e s' in
    let v' := v ∪ set_seq (length (os_acc o)) (length l) in
    OS s' (spread [t] v' (os_thr o)) (spread (var_out s e s') v' (os_var o)) (spread (bor_out s e s') v' (os_bor o))
       (spread (syncs s e).2 (os_thr o t) (os_loc o))
       (os_acc o ++ ((fun a => Access t a.1 a.2 v') <$> l)).
  Definition ostep (o : ostate V) e : res (ostate V) :=
    s' ← cstep sz (os_s o) e; Ok (annotate o e s').
  Fixpoint orun (o : ostate V) es : res (ostate V) :=
    match es with
    | [] => Ok o
    | e :: es => o ← ostep o e; orun o es
    end.
  Definition oreach (n : nat) es (o : ostate V) : Prop := orun (init_ostate n) es = Ok o.

  (** Access [j] comes later in the schedule than [i] and conflicts with it, but
      nothing makes [i] happen before [j]. *)
  Definition race (o : ostate V) (i j : nat) : Prop :=
    exists a b, os_acc o !! i = Some a /\ os_acc o !! j = Some b /\ i < j /\
      ac_cell a = ac_cell b /\ (ac_write a = true \/ ac_write b = true) /\ i ∉ ac_seen b.
  Definition race_free (o : ostate V) : Prop := forall i j, ~ race o i j.
  (** Access [i] happens before access [j], or is part of the same step. *)
  Definition before (o : ostate V) (i j : nat) : Prop := exists b, os_acc o !! j = Some b /\ i ∈ ac_seen b.
  (** No item is written through what [get_mut] returned. *)
  Definition no_mut_write es : Prop := Forall (fun e => forall t i v, e <> SWrite t i v) es.
  (** Whoever holds the [&mut [T]] that [get_mut] gave it: nobody ever called
      [clone_left] or [clone_right] on a slice of the same data; nobody has a
      [WeakSlice] of that data. *)
  Definition uncut s : Prop := forall t x, holding s t x -> forall c, data_parent (cs_g s) c <> Some x.
  Definition unwatched s : Prop := forall t x, holding s t x -> forall w, ~ has s (XWeak (Some x) w).
  (** Nobody calls [clone_left] or [clone_right]; nobody calls [downgrade]. *)
  Definition no_halves es : Prop := Forall (fun e => forall t side h, e <> SStart t (CCloneHalf side h)) es.
  Definition no_downgrade es : Prop := Forall (fun e => forall t h, e <> SStart t (CDowngrade h)) es.
End order.
