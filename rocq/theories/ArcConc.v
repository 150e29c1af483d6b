(** The thread-safe API used by any number of threads: [ArcSlice], [WeakSlice]
    (src/arc/arc_slice.rs), their conversion to and from [ArcSliceMut], and the
    gates of src/internal/gate.rs, as an interleaving semantics.

    Every operation on shared memory is one atomic step; between any two steps
    of a thread, other threads may take any number of steps. Memory is
    sequentially consistent: the orderings ([Acquire], [AcqRel], [SeqCst]) given
    to the atomics of the crate, and those inside std's [Arc], are not modelled.
    The operations of std's [Arc] and [Weak] ([clone], [drop], [upgrade],
    [try_unwrap], [strong_count], ...) are one step each.

    A box ([Arc::new], [Box::new]) that no other thread can reach yet is part of
    the state of the thread that made it; the compare-and-swap that publishes
    it moves it to the shared heaps. What a thread does to such a box, to a
    node whose last reference it has dropped, or to items it owns, is folded
    into the neighbouring atomic step where nobody else could observe the
    difference.

    The heaps, [Arc] operations and guards are those of Base.v, DataModel.v and
    ArcModel.v. *)
From Verif Require Import Base Api SliceItemsModel BinPartsModel DataModel RcModel ArcModel.

(** ** Calls *)

(** What a thread can call. A value lives in a variable; variables are shared
    by all threads, so values can be sent to and borrowed by any thread. A call
    that takes [&self] borrows its variable, and many threads may do so at
    once; a call that takes [self] or [&mut self] takes the value out of its
    variable, which Rust allows only if it is not borrowed. Where [&mut self] is
    handed back, it is stored in a fresh variable.

    [split_off_left]/[split_off_right] (arc_slice.rs:344-356) are two
    [CCloneHalf]s and a [CDrop], and what [ArcSliceParts] does is a sequence of
    these; they are not listed separately. Of [ArcSliceMut] only what creates,
    splits, writes, converts or drops it is listed. *)
Inductive cop (V : Type) :=
| CFromVec (base : N) (vals : list V)      (* ArcSlice::from_vec / from_boxed_slice *)
| CMutFromVec (base : N) (vals : list V)   (* ArcSliceMut::from_vec / from_boxed_slice *)
| CClone (h : nat)                         (* clone of ArcSlice, WeakSlice *)
| CCloneHalf (side : bool) (h : nat)       (* clone_left (false) / clone_right (true) *)
| CGetMut (h : nat)
| CIntoMut (h : nat)
| CIntoImmut (h : nat)
| CDowngrade (h : nat)
| CUpgrade (h : nat)
| CDrop (h : nat)
| CDeref (h : nat)                         (* of ArcSlice, ArcSliceMut *)
| CMutSplit (side : bool) (h : nat)        (* ArcSliceMut::split_off_left / split_off_right *)
| CReplace (h : nat) (i : N) (v : V).      (* mem::replace(&mut s[i], v) on an ArcSliceMut *)
Arguments CFromVec {_} _ _.
Arguments CMutFromVec {_} _ _.
Arguments CClone {_} _.
Arguments CCloneHalf {_} _ _.
Arguments CGetMut {_} _.
Arguments CIntoMut {_} _.
Arguments CIntoImmut {_} _.
Arguments CDowngrade {_} _.
Arguments CUpgrade {_} _.
Arguments CDrop {_} _.
Arguments CDeref {_} _.
Arguments CMutSplit {_} _ _.
Arguments CReplace {_} _ _ _.

(** ** Threads *)

(** A value on its way to the caller's frame. *)
Inductive val (V : Type) :=
| VData (d : nat)                          (* an [Arc<ArcSliceData>] *)
| VGuard (g : nat)                         (* an [Arc<DataGuard>] *)
| VHold (r : arcslice)                     (* [get_mut] is returning [Some] *)
| VFin (x : option xhandle) (o : option (out V)).
  (* the call is returning; [x] is to be stored in a variable *)
Arguments VData {_} _.
Arguments VGuard {_} _.
Arguments VHold {_} _.
Arguments VFin {_} _ _.

(** What remains of a call: a stack, executed from the top. A frame [F..] does
    something when it is on top; a frame [K..] or [FOpen] waits for the value
    of the frames above it. *)
Inductive frame (V : Type) :=
(* dropping *)
| FRel (d : nat)                           (* drop an [Arc<ArcSliceData>] *)
| FItems (k : nat) (p : ptr) (a : option nat)
  (* drop [k] items from [p] on, then an [Option<Arc<SliceAlloc>>] *)
| FRelG (g : nat)                          (* drop an [Arc<DataGuard>] *)
| FRelW (g : option nat)                   (* drop a [Weak<DataGuard>] *)
(* [ArcSliceData::clone_child] of field [side] of [d] *)
| FWait (g : nat) (down : bool)            (* spin until the gate is open *)
| FChild (d : nat) (side : bool)           (* clone [d] if it is too small to halve, else load the field *)
| FChildInc (d : nat) (side : bool) (c : nat)
  (* clone the child [c] that was loaded *)
| FChildAlloc (d : nat) (side : bool)      (* make a child *)
| FChildCas (d : nat) (side : bool) (k : nat) (n : dnode)
  (* compare-and-swap; the unpublished child [n] has strong count [k] *)
| FChildLost (d : nat) (side : bool) (c k : nat) (n : dnode)
  (* clone the child [c] that won *)
| FChildUndo (d : nat) (side : bool) (c k : nat) (n : dnode)
  (* drop [new_child_clone] *)
| FChildUnwrap (d : nat) (side : bool) (c k : nat) (n : dnode)
  (* unwrap and drop [new_child] *)
(* [DataGuard::guard] of [d]; [b] is [existing_guard_ptr] *)
| FGuard (d : nat)                         (* load the pointer *)
| FGuardUp (d b : nat)                     (* upgrade what it points to *)
| FGuardPar (d b : nat)                    (* upgrade [data.parent] *)
| KGuardPar (d b p : nat)                  (* waiting for the guard of the parent [p] *)
| FGuardCas (d b : nat) (pg : option nat)  (* make a guard with parent [pg]; compare-and-swap *)
| FGuardLost (d b : nat) (pg : option nat) (* upgrade the winner, drop own guard *)
(* other methods *)
| KFromData                                (* [ArcSlice::from_data]: waiting for the data *)
| KSlice (d : nat)                         (* [from_data]: waiting for the guard of [d] *)
| FCloneD (r : arcslice)                   (* [clone]: field [data] *)
| FCloneG (r : arcslice)                   (* [clone]: field [data_guard] *)
| FCloneW (d g : option nat)               (* [WeakSlice::clone] *)
| FDown (r : arcslice)                     (* [downgrade] behind the gate *)
| FUpgrade (d : option nat)                (* [WeakSlice::upgrade] *)
| FGm1 (r : arcslice) | FGm2 (r : arcslice) | FGm3 (r : arcslice) | FGm4 (r : arcslice) | FGm5 (r : arcslice)
  (* [get_mut]: its five checks *)
| FIm1 (r : arcslice) | FIm2 (r : arcslice) | FIm3 (r : arcslice)
  (* [into_mut]: its three checks *)
| FFg (n : dnode) (a : option nat)
  (* [forget_items] of an owned node: take the next child; [a] is the node's [alloc] *)
| KFg (side : bool) (n : dnode) (a : option nat)
  (* the same, waiting for the child in field [side] to be forgotten *)
| KImG (r : arcslice)                      (* [into_mut] of [r]: drop the guard *)
| FOpen (g : nat) (down : bool)            (* a [Latch], dropped when a value passes *)
| FHold (r : arcslice)                     (* the thread holds the [&mut [T]] of [get_mut] *)
| FV (v : val V)
| KEnd (h : option nat).                   (* the call returns; [h] is the variable it borrowed *)
Arguments FRel {_} _.
Arguments FItems {_} _ _ _.
Arguments FRelG {_} _.
Arguments FRelW {_} _.
Arguments FWait {_} _ _.
Arguments FChild {_} _ _.
Arguments FChildInc {_} _ _ _.
Arguments FChildAlloc {_} _ _.
Arguments FChildCas {_} _ _ _ _.
Arguments FChildLost {_} _ _ _ _ _.
Arguments FChildUndo {_} _ _ _ _ _.
Arguments FChildUnwrap {_} _ _ _ _ _.
Arguments FGuard {_} _.
Arguments FGuardUp {_} _ _.
Arguments FGuardPar {_} _ _.
Arguments KGuardPar {_} _ _ _.
Arguments FGuardCas {_} _ _ _.
Arguments FGuardLost {_} _ _ _.
Arguments KFromData {_}.
Arguments KSlice {_} _.
Arguments FCloneD {_} _.
Arguments FCloneG {_} _.
Arguments FCloneW {_} _ _.
Arguments FDown {_} _.
Arguments FUpgrade {_} _.
Arguments FGm1 {_} _.
Arguments FGm2 {_} _.
Arguments FGm3 {_} _.
Arguments FGm4 {_} _.
Arguments FGm5 {_} _.
Arguments FIm1 {_} _.
Arguments FIm2 {_} _.
Arguments FIm3 {_} _.
Arguments FFg {_} _ _.
Arguments KFg {_} _ _ _.
Arguments KImG {_} _.
Arguments FOpen {_} _ _.
Arguments FHold {_} _.
Arguments FV {_} _.
Arguments KEnd {_} _.

(** - [cs_h]: the variables; a full one has the number of calls borrowing it;
    - [cs_t]: the threads ([[]]: not in a call);
    - [cs_out]: what calls returned, with the thread, latest last;
    - [cs_log]: for each finished [clone_child] the data, the side and the
      child obtained. Not part of the program; for stating properties. *)
Record cstate (V : Type) := CS {
  cs_d : dworld V;
  cs_g : gdworld;
  cs_h : list (option (xhandle * nat));
  cs_t : list (list (frame V));
  cs_out : list (nat * out V);
  cs_log : list (nat * bool * nat)
}.
Arguments CS {_} _ _ _ _ _ _.
Arguments cs_d {_} _.
Arguments cs_g {_} _.
Arguments cs_h {_} _.
Arguments cs_t {_} _.
Arguments cs_out {_} _.
Arguments cs_log {_} _.

(** [n] threads, no values. *)
Definition init_cstate {V} (n : nat) : cstate V :=
  CS (DW [] [] [] ∅ []) (GD [] [] [] []) [] (replicate n []) [] [].

Section conc.
  Context {V : Type} (sz : N).
  Notation dworld := (dworld V).
  Notation stack := (list (frame V)).

  (** The children of a node, and the items that belong to no child, as in the
      [match] of arc_slice.rs:236-248. *)
  Definition node_kids (n : dnode) : list nat := option_list (d_left n) ++ option_list (d_right n).
  Definition node_own (n : dnode) : ptr * N :=
    match d_left n, d_right n with
    | None, None => (d_ptr n, d_len n)
    | Some _, None => right_sub sz n
    | None, Some _ => left_sub n
    | Some _, Some _ => (d_ptr n, 0%N)
    end.
  (** arc_slice.rs:194-205 *)
  Definition node_sub (side : bool) (n : dnode) : ptr * N := if side then right_sub sz n else left_sub n.

  (** Dropping an [Option<Arc<DataGuard>>] *)
  Definition rel_opt (o : option nat) : stack := FRelG <$> option_list o.

  (** One atomic step of a thread that is in a call. [UB] also stands for a
      stack that no call produces. *)
  Definition mstep (d : dworld) (g : gdworld) (st : stack) : res (dworld * gdworld * stack) :=
    match st with
    (* [Drop for Arc<ArcSliceData>], with [Drop for ArcSliceData]
       (arc_slice.rs:230-254) if it was the last one: left child, right child,
       items, alloc. Nobody else can reach a node whose count is 0. *)
    | FRel x :: k =>
        '(h, r) ← rc_dec (dw_datas d) x;
        let d := dw_set_datas d h in
        match r with
        | None => Ok (d, g, k)
        | Some n => let '(p, len) := node_own n in
                    Ok (d, g, (FRel <$> node_kids n) ++ FItems (N.to_nat len) p (d_alloc n) :: k)
        end
    (* [ptr::drop_in_place], one item at a time; the last reference to the
       [SliceAlloc] frees the buffer (slice_alloc.rs:28-30) *)
    | FItems (S n) p a :: k =>
        '(d, v) ← mem_take sz d p;
        Ok (dw_log d (EDrop (p_blk p) (p_idx p) v), g, FItems n (ptr_add sz p 1) a :: k)
    | FItems O p a :: k => d ← alloc_release sz d a; Ok (d, g, k)
    (* [Drop for Arc<DataGuard>]: the last one drops [_parent] *)
    | FRelG x :: k =>
        '(gs, r) ← rc_dec (gd_guards g) x;
        let g := gd_set_guards g gs in
        match r with
        | None => Ok (d, g, k)
        | Some n => Ok (d, g, rel_opt (a_parent n) ++ k)
        end
    | FRelW o :: k => g ← gd_weak_dec g o; Ok (d, g, k)
    (* gate.rs:15-17 *)
    | FWait x down :: k =>
        n ← rc_val (gd_guards g) x;
        if a_gate down n then Ok (d, g, st) else Ok (d, g, k)
    (* arc_slice.rs:110-130 [clone_left]/[clone_right], 133 the load *)
    | FChild x side :: k =>
        n ← rc_val (dw_datas d) x;
        if (d_len n <=? (if side then 1 else 0))%N then
          h ← rc_inc (dw_datas d) x; Ok (dw_set_datas d h, g, FV (VData x) :: k)
        else match d_child side n with
             | Some c => Ok (d, g, FChildInc x side c :: k)
             | None => Ok (d, g, FChildAlloc x side :: k)
             end
    (* arc_slice.rs:169-172 *)
    | FChildInc x side c :: k =>
        h ← rc_inc (dw_datas d) c; Ok (dw_set_datas d h, g, FV (VData c) :: k)
    (* arc_slice.rs:137-140 *)
    | FChildAlloc x side :: k =>
        n ← rc_val (dw_datas d) x;
        let '(p, len) := node_sub side n in
        let a := if (len =? 0)%N then None else d_alloc n in
        d ← alloc_clone d a;
        Ok (d, g, FChildCas x side 2 (DNode p len a None None) :: k)
    (* arc_slice.rs:141-144 *)
    | FChildCas x side k' n' :: k =>
        n ← rc_val (dw_datas d) x;
        match d_child side n with
        | None =>
            let c := length (dw_datas d) in
            h ← rc_set (dw_datas d ++ [Some (k', n')]) x (d_set_child side (Some c));
            Ok (dw_set_datas d h, gd_new_data g (Some x), FV (VData c) :: k)
        | Some c => Ok (d, g, FChildLost x side c k' n' :: k)
        end
    (* arc_slice.rs:148-150 *)
    | FChildLost x side c k' n' :: k =>
        h ← rc_inc (dw_datas d) c; Ok (dw_set_datas d h, g, FChildUndo x side c k' n' :: k)
    (* arc_slice.rs:157 *)
    | FChildUndo x side c k' n' :: k =>
        match k' with
        | S (S k'') => Ok (d, g, FChildUnwrap x side c (S k'') n' :: k)
        | _ => UB
        end
    (* arc_slice.rs:159-164: with [len] set to 0, dropping the child drops no item *)
    | FChildUnwrap x side c k' n' :: k =>
        if (k' =? 1)%nat then Ok (d, g, FItems 0 (d_ptr n') (d_alloc n') :: FV (VData c) :: k)
        else Panic
    (* arc_slice.rs:287 *)
    | FGuard x :: k =>
        _ ← rc_val (dw_datas d) x;
        match gd_metas g !! x with
        | None => UB
        | Some m => Ok (d, g, FGuardUp x (am_box m) :: k)
        end
    (* arc_slice.rs:289-290 *)
    | FGuardUp x b :: k =>
        match gd_boxes g !! b with
        | Some (Some wk) =>
            let '(gs, o) := rc_upgrade (gd_guards g) wk in
            match o with
            | Some y => Ok (d, gd_set_guards g gs, FV (VGuard y) :: k)
            | None => Ok (d, g, FGuardPar x b :: k)
            end
        | _ => UB
        end
    (* arc_slice.rs:294-295 *)
    | FGuardPar x b :: k =>
        match gd_metas g !! x with
        | None => UB
        | Some m =>
            let '(h, o) := rc_upgrade (dw_datas d) (am_parent m) in
            match o with
            | Some p => Ok (dw_set_datas d h, g, FGuard p :: KGuardPar x b p :: k)
            | None => Ok (d, g, FGuardCas x b None :: k)
            end
        end
    (* the closure's [parent_data] is dropped *)
    | FV (VGuard y) :: KGuardPar x b p :: k => Ok (d, g, FRel p :: FGuardCas x b (Some y) :: k)
    (* arc_slice.rs:296-306 *)
    | FGuardCas x b pg :: k =>
        _ ← rc_val (dw_datas d) x;
        match gd_metas g !! x with
        | None => UB
        | Some m =>
            if (am_box m =? b)%nat then
              '(g, y) ← gd_new_guard g x b pg; Ok (d, g, FV (VGuard y) :: k)
            else Ok (d, g, FGuardLost x (am_box m) pg :: k)
        end
    (* arc_slice.rs:307-315: the own box and guard, which nobody else has seen,
       are freed; what is left of them is the reference to the parent's guard,
       dropped after the winner is upgraded *)
    | FGuardLost x b pg :: k =>
        match gd_boxes g !! b with
        | Some (Some wk) =>
            let '(gs, o) := rc_upgrade (gd_guards g) wk in
            match o with
            | Some y => Ok (d, gd_set_guards g gs, rel_opt pg ++ FV (VGuard y) :: k)
            | None => Ok (d, g, rel_opt pg ++ FGuardPar x b :: k)
            end
        | _ => UB
        end
    (* arc_slice.rs:321-324 [from_data] *)
    | FV (VData x) :: KFromData :: k => Ok (d, g, FGuard x :: KSlice x :: k)
    | FV (VGuard y) :: KSlice x :: k => Ok (d, g, FV (VFin (Some (XArc (ArcS x y))) None) :: k)
    (* arc_slice.rs:425-432 [Clone for ArcSlice] *)
    | FCloneD r :: k =>
        h ← rc_inc (dw_datas d) (ar_data r); Ok (dw_set_datas d h, g, FCloneG r :: k)
    | FCloneG r :: k =>
        gs ← rc_inc (gd_guards g) (ar_guard r);
        Ok (d, gd_set_guards g gs, FV (VFin (Some (XArc r)) None) :: k)
    (* arc_slice.rs:480-484 [Clone for WeakSlice] *)
    | FCloneW x y :: k =>
        g ← gd_weak_inc g y; Ok (d, g, FV (VFin (Some (XWeak x y)) None) :: k)
    (* arc_slice.rs:409 *)
    | FDown r :: k =>
        _ ← rc_val (dw_datas d) (ar_data r);
        g ← gd_weak_inc g (Some (ar_guard r));
        Ok (d, g, FV (VFin (Some (XWeak (Some (ar_data r)) (Some (ar_guard r)))) None) :: k)
    (* arc_slice.rs:473-477 *)
    | FUpgrade o :: k =>
        let '(h, o) := rc_upgrade (dw_datas d) o in
        match o with
        | Some x => Ok (dw_set_datas d h, g, FV (VData x) :: KFromData :: k)
        | None => Ok (d, g, FV (VFin None (Some RNone)) :: k)
        end
    (* arc_slice.rs:369 [downgrade_gate().try_close()] *)
    | FGm1 r :: k =>
        '(g, ok) ← gate_try_close g (ar_guard r) true;
        if ok : bool then Ok (d, g, FGm2 r :: FOpen (ar_guard r) true :: k)
        else Ok (d, g, FV (VFin (Some (XArc r)) (Some RNone)) :: k)
    (* arc_slice.rs:370 *)
    | FGm2 r :: k =>
        if (gd_weak_count g (ar_guard r) =? 1)%nat then Ok (d, g, FGm3 r :: k)
        else Ok (d, g, FV (VFin (Some (XArc r)) (Some RNone)) :: k)
    (* arc_slice.rs:371 *)
    | FGm3 r :: k =>
        '(g, ok) ← gate_try_close g (ar_guard r) false;
        if ok : bool then Ok (d, g, FGm4 r :: FOpen (ar_guard r) false :: k)
        else Ok (d, g, FV (VFin (Some (XArc r)) (Some RNone)) :: k)
    (* arc_slice.rs:372 *)
    | FGm4 r :: k =>
        if (rc_count (gd_guards g) (ar_guard r) =? 1)%nat then Ok (d, g, FGm5 r :: k)
        else Ok (d, g, FV (VFin (Some (XArc r)) (Some RNone)) :: k)
    (* arc_slice.rs:373-378 *)
    | FGm5 r :: k =>
        if (rc_count (dw_datas d) (ar_data r) =? 1)%nat then Ok (d, g, FV (VHold r) :: k)
        else Ok (d, g, FV (VFin (Some (XArc r)) (Some RNone)) :: k)
    (* arc_slice.rs:394 *)
    | FIm1 r :: k =>
        '(g, ok) ← gate_try_close g (ar_guard r) false;
        if ok : bool then Ok (d, g, FIm2 r :: FOpen (ar_guard r) false :: k)
        else Ok (d, g, FV (VFin (Some (XArc r)) (Some RErr)) :: k)
    (* arc_slice.rs:396 *)
    | FIm2 r :: k =>
        if (rc_count (gd_guards g) (ar_guard r) =? 1)%nat then Ok (d, g, FIm3 r :: k)
        else Ok (d, g, FV (VFin (Some (XArc r)) (Some RErr)) :: k)
    (* arc_slice.rs:397, 210-218 *)
    | FIm3 r :: FOpen y down :: k =>
        '(h, o) ← rc_try_unwrap (dw_datas d) (ar_data r);
        let d := dw_set_datas d h in
        match o with
        | Some n => Ok (d, g, FFg n (d_alloc n) :: FOpen y down :: KImG r :: k)
        | None => Ok (d, g, FV (VFin (Some (XArc r)) (Some RErr)) :: FOpen y down :: k)
        end
    (* arc_slice.rs:220-227 [forget_items]; then the child is dropped, or the
       unique slice is ready *)
    | FFg n a :: k =>
        match node_kids n with
        | c :: _ =>
            let side := match d_left n with Some _ => false | None => true end in
            '(h, o) ← rc_try_unwrap (dw_datas d) c;
            let d := dw_set_datas d h in
            match o with
            | Some n' => Ok (d, g, FFg n' (d_alloc n') :: KFg side n a :: k)
            | None => Ok (d, g, FRel c :: FFg (d_set_child side None n) a :: k)
            end
        | [] =>
            match k with
            | KFg side n' a' :: k =>
                d ← alloc_release sz d a;
                Ok (d, g, FFg (d_set_child side None n') a' :: k)
            | _ => Ok (d, g, FV (VFin (Some (XMut (MutS (SliceItems (d_ptr n) (d_len n)) a))) None) :: k)
            end
        end
    (* gate.rs:28-32 *)
    | FV v :: FOpen y down :: k => g ← gate_open g y down; Ok (d, g, FV v :: k)
    (* arc_slice.rs:404: the closure with [data_guard] is dropped *)
    | FV v :: KImG r :: k => Ok (d, g, FRelG (ar_guard r) :: FV v :: k)
    | _ => UB
    end.

  (** What a step contributes to [cs_log]. *)
  Definition step_log (st st' : stack) : list (nat * bool * nat) :=
    match st, st' with
    | FChild x side :: _, FV (VData c) :: _
    | FChildInc x side _ :: _, FV (VData c) :: _
    | FChildCas x side _ _ :: _, FV (VData c) :: _
    | FChildUnwrap x side c _ _ :: _, _ => [(x, side, c)]
    | _, _ => []
    end.

  (** ** The machine *)

  Definition set_thread (s : cstate V) (t : nat) (st : stack) : cstate V :=
    CS (cs_d s) (cs_g s) (cs_h s) (<[t := st]> (cs_t s)) (cs_out s) (cs_log s).
  Definition set_slots (s : cstate V) (hs : list (option (xhandle * nat))) : cstate V :=
    CS (cs_d s) (cs_g s) hs (cs_t s) (cs_out s) (cs_log s).
  Definition set_world (s : cstate V) (d : dworld) (g : gdworld) : cstate V :=
    CS d g (cs_h s) (cs_t s) (cs_out s) (cs_log s).
  Definition put_out (s : cstate V) (t : nat) (o : out V) : cstate V :=
    CS (cs_d s) (cs_g s) (cs_h s) (cs_t s) (cs_out s ++ [(t, o)]) (cs_log s).

  (** A call returns: the borrow ends, the value goes to a fresh variable. *)
  Definition end_borrow (hs : list (option (xhandle * nat))) (h : option nat) : list (option (xhandle * nat)) :=
    match h with
    | Some h => match hs !! h with
                | Some (Some (x, k)) => <[h := Some (x, k - 1)]> hs
                | _ => hs
                end
    | None => hs
    end.
  Definition finish (s : cstate V) (t : nat) (h : option nat) (x : option xhandle) (o : option (out V)) : cstate V :=
    let hs := end_borrow (cs_h s) h in
    let s := set_slots s (hs ++ match x with Some x => [Some (x, 0)] | None => [] end) in
    put_out (set_thread s t []) t (default (RHandle (length hs)) o).

  (** A step of thread [t]. A thread that is not in a call or holds the slice
      of [get_mut] does nothing. *)
  Definition tstep (s : cstate V) (t : nat) : res (cstate V) :=
    match cs_t s !! t with
    | None | Some [] | Some [FHold _; KEnd None] => Ok s
    | Some [FV (VFin x o); KEnd h] => Ok (finish s t h x o)
    | Some [FV (VHold r); KEnd None] => Ok (set_thread s t [FHold r; KEnd None])
    | Some st =>
        '(d, g, st') ← mstep (cs_d s) (cs_g s) st;
        Ok (CS d g (cs_h s) (<[t := st']> (cs_t s)) (cs_out s) (cs_log s ++ step_log st st'))
    end.

  (** The value in variable [h] and the number of calls borrowing it. *)
  Definition slot (s : cstate V) (h : nat) : option (xhandle * nat) :=
    match cs_h s !! h with Some o => o | None => None end.
  Definition borrow (s : cstate V) (h : nat) (x : xhandle) (k : nat) : cstate V :=
    set_slots s (<[h := Some (x, S k)]> (cs_h s)).
  Definition take (s : cstate V) (h : nat) : cstate V := set_slots s (<[h := None]> (cs_h s)).

  (** A slice as seen by the caller: its address (of no significance if it takes
      up no memory) and its items. *)
  Definition seen (p : ptr) (len : N) (vs : list V) : out V :=
    RSlice (if ((len =? 0) || (sz =? 0))%N then None else Some (p_addr p)) vs.

  (** Thread [t], not being in a call, calls [o]. Calls that Rust would reject
      (wrong type, borrowed or empty variable, vector too long) do nothing. *)
  Definition cstart (s : cstate V) (t : nat) (o : cop V) : res (cstate V) :=
    match cs_t s !! t with
    | Some [] =>
        match o with
        (* arc_slice.rs:326-332, 81-108: nobody else knows the new data *)
        | CFromVec base vals =>
            if (N.of_nat (length vals) <? usize_lim)%N then
              let '(d, p, len) := new_block (cs_d s) base vals in
              let '(d, n) := data_from_boxed_slice d p len in
              Ok (set_thread (set_world s d (gd_new_data (cs_g s) None)) t [FGuard n; KSlice n; KEnd None])
            else Ok s
        (* arc_slice_mut.rs:44-51 *)
        | CMutFromVec base vals =>
            if (N.of_nat (length vals) <? usize_lim)%N then
              let '(d, p, len) := new_block (cs_d s) base vals in
              let '(d, it, al) := split_alloc_from_items sz d p len in
              Ok (finish (set_world s d (cs_g s)) t None (Some (XMut (MutS it al))) None)
            else Ok s
        | CClone h =>
            match slot s h with
            | Some (XArc r as x, k) => Ok (set_thread (borrow s h x k) t [FCloneD r; KEnd (Some h)])
            | Some (XWeak d g as x, k) => Ok (set_thread (borrow s h x k) t [FCloneW d g; KEnd (Some h)])
            | _ => Ok s
            end
        (* arc_slice.rs:334-342 *)
        | CCloneHalf side h =>
            match slot s h with
            | Some (XArc r as x, k) =>
                Ok (set_thread (borrow s h x k) t
                      [FWait (ar_guard r) false; FChild (ar_data r) side; KFromData; KEnd (Some h)])
            | _ => Ok s
            end
        | CGetMut h =>
            match slot s h with
            | Some (XArc r, 0) => Ok (set_thread (take s h) t [FGm1 r; KEnd None])
            | _ => Ok s
            end
        | CIntoMut h =>
            match slot s h with
            | Some (XArc r, 0) => Ok (set_thread (take s h) t [FIm1 r; KEnd None])
            | _ => Ok s
            end
        (* arc_slice_mut.rs:79-84 *)
        | CIntoImmut h =>
            match slot s h with
            | Some (XMut m, 0) =>
                let '(d, n) := data_new (cs_d s) (si_ptr (ms_items m)) (si_len (ms_items m)) (ms_alloc m) in
                Ok (set_thread (set_world (take s h) d (gd_new_data (cs_g s) None)) t
                      [FGuard n; KSlice n; KEnd None])
            | _ => Ok s
            end
        (* arc_slice.rs:407-410 *)
        | CDowngrade h =>
            match slot s h with
            | Some (XArc r as x, k) =>
                Ok (set_thread (borrow s h x k) t [FWait (ar_guard r) true; FDown r; KEnd (Some h)])
            | _ => Ok s
            end
        | CUpgrade h =>
            match slot s h with
            | Some (XWeak d g as x, k) => Ok (set_thread (borrow s h x k) t [FUpgrade d; KEnd (Some h)])
            | _ => Ok s
            end
        (* fields of [ArcSlice] are dropped in order: [data], [data_guard] *)
        | CDrop h =>
            match slot s h with
            | Some (XArc r, 0) =>
                Ok (set_thread (take s h) t
                      [FRel (ar_data r); FRelG (ar_guard r); FV (VFin None (Some RUnit)); KEnd None])
            | Some (XWeak d g, 0) =>
                Ok (set_thread (take s h) t [FRelW g; FV (VFin None (Some RUnit)); KEnd None])
            | Some (XMut m, 0) =>
                Ok (set_thread (take s h) t
                      [FItems (N.to_nat (si_len (ms_items m))) (si_ptr (ms_items m)) (ms_alloc m);
                       FV (VFin None (Some RUnit)); KEnd None])
            | _ => Ok s
            end
        (* arc_slice.rs:434-440, arc_slice_mut.rs [Deref]: read all items at once *)
        | CDeref h =>
            match slot s h with
            | Some (XArc r, _) =>
                n ← rc_val (dw_datas (cs_d s)) (ar_data r);
                vs ← mem_read sz (cs_d s) (N.to_nat (d_len n)) (d_ptr n);
                Ok (put_out s t (seen (d_ptr n) (d_len n) vs))
            | Some (XMut m, _) =>
                vs ← mem_read sz (cs_d s) (N.to_nat (si_len (ms_items m))) (si_ptr (ms_items m));
                Ok (put_out s t (seen (si_ptr (ms_items m)) (si_len (ms_items m)) vs))
            | _ => Ok s
            end
        (* arc_slice_mut.rs:61-71: the only atomic step is the clone of [alloc] *)
        | CMutSplit side h =>
            match slot s h with
            | Some (XMut m, 0) =>
                '(d, (m1, m2)) ← mut_split_off sz side (cs_d s) m;
                Ok (finish (set_world (set_slots s (<[h := Some (XMut m1, 0)]> (cs_h s))) d (cs_g s))
                           t None (Some (XMut m2)) None)
            | _ => Ok s
            end
        | CReplace h i v =>
            match slot s h with
            | Some (XMut m, 0) =>
                if (i <? si_len (ms_items m))%N then
                  '(d, old) ← mem_replace sz (cs_d s) (ptr_add sz (si_ptr (ms_items m)) i) v;
                  Ok (put_out (set_world s d (cs_g s)) t (RVal old))
                else Ok s
            | _ => Ok s
            end
        end
    | _ => Ok s
    end.

  (** Thread [t] uses the slice of [get_mut]: it replaces item [i]. *)
  Definition hold_write (s : cstate V) (t : nat) (i : N) (v : V) : res (cstate V) :=
    match cs_t s !! t with
    | Some [FHold r; KEnd None] =>
        n ← rc_val (dw_datas (cs_d s)) (ar_data r);
        if (i <? d_len n)%N then
          '(d, old) ← mem_replace sz (cs_d s) (ptr_add sz (d_ptr n) i) v;
          Ok (put_out (set_world s d (cs_g s)) t (RVal old))
        else Ok s
    | _ => Ok s
    end.
  (** ... and gives it up. *)
  Definition hold_end (s : cstate V) (t : nat) : res (cstate V) :=
    match cs_t s !! t with
    | Some [FHold r; KEnd None] => Ok (finish s t None (Some (XArc r)) None)
    | _ => Ok s
    end.

  (** A schedule says which thread does what next. *)
  Inductive sched :=
  | SStart (t : nat) (o : cop V)
  | SStep (t : nat)
  | SWrite (t : nat) (i : N) (v : V)
  | SEnd (t : nat).
  Definition cstep (s : cstate V) (e : sched) : res (cstate V) :=
    match e with
    | SStart t o => cstart s t o
    | SStep t => tstep s t
    | SWrite t i v => hold_write s t i v
    | SEnd t => hold_end s t
    end.
  Fixpoint crun (s : cstate V) (es : list sched) : res (cstate V) :=
    match es with
    | [] => Ok s
    | e :: es => s ← cstep s e; crun s es
    end.
End conc.
Arguments SStart {_} _ _.
Arguments SStep {_} _.
Arguments SWrite {_} _ _ _.
Arguments SEnd {_} _.
