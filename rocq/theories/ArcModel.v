(** The thread-safe API used by one thread at a time: [ArcSlice], [WeakSlice],
    [ArcSliceParts] (src/arc/arc_slice.rs), the gates of src/internal/gate.rs,
    and [ArcSliceMut], [ArcSliceMutIter], [ArcSliceMutParts]
    (src/arc/arc_slice_mut.rs) as a state machine over a table of the caller's
    handles.

    Every atomic operation takes effect at once and no other thread interferes,
    so a compare-and-swap always succeeds; interleavings are the subject of
    ArcConc.v. The data layer ([ArcSliceData] without its [parent] and [guard]
    fields) and the three [ArcSliceMut] types are line for line those of the
    single-threaded module, so DataModel.v and the [mut_*], [iter_*] and
    [mparts_*] functions of RcModel.v are reused; citations of
    arc_slice_mut.rs are given below where each is used. *)
From Verif Require Import Base Api SliceItemsModel BinPartsModel DataModel RcModel.

(** ** Guards *)

(** arc_slice.rs:50-58 [struct DataGuard]; a gate (gate.rs:4-6) is the boolean
    [closed]. *)
Record aguard := AGuard {
  a_parent : option nat;   (* _parent: Option<Arc<Self>> *)
  a_clone : bool;          (* clone_child_gate *)
  a_down : bool            (* downgrade_gate *)
}.
(** The two fields of arc_slice.rs:27-46 [struct ArcSliceData] that the
    single-threaded data lacks: [parent: Weak<Self>] and [guard: AtomicPtr],
    the number of the heap box it points to. *)
Record ameta := AMeta { am_parent : option nat; am_box : nat }.
(** - [gd_guards]: all [DataGuard]s;
    - [gd_weak]: for each of them the number of [Weak] references to it;
    - [gd_boxes]: the heap-allocated [Weak<DataGuard>]s that [ArcSliceData.guard]
      points to ([None]: freed);
    - [gd_metas]: extra fields of each data, in the order of [dw_datas]. *)
Record gdworld := GD {
  gd_guards : heap aguard;
  gd_weak : list nat;
  gd_boxes : list (option (option nat));
  gd_metas : list ameta
}.
Definition gd_set_guards (w : gdworld) (h : heap aguard) : gdworld :=
  GD h (gd_weak w) (gd_boxes w) (gd_metas w).

(** [Arc::weak_count] *)
Definition gd_weak_count (w : gdworld) (g : nat) : nat :=
  match gd_weak w !! g with Some n => n | None => 0 end.
(** [Weak::clone] (or [Arc::downgrade]) of a [Weak<DataGuard>] *)
Definition gd_weak_inc (w : gdworld) (o : option nat) : res gdworld :=
  match o with
  | None => Ok w
  | Some g => match gd_weak w !! g with
              | Some n => Ok (GD (gd_guards w) (<[g := S n]> (gd_weak w)) (gd_boxes w) (gd_metas w))
              | None => UB
              end
  end.
(** Dropping a [Weak<DataGuard>] *)
Definition gd_weak_dec (w : gdworld) (o : option nat) : res gdworld :=
  match o with
  | None => Ok w
  | Some g => match gd_weak w !! g with
              | Some (S n) => Ok (GD (gd_guards w) (<[g := n]> (gd_weak w)) (gd_boxes w) (gd_metas w))
              | _ => UB
              end
  end.

(** The extra fields of a new data: arc_slice.rs:95-108
    [with_data_and_parent], which boxes an empty [Weak]. *)
Definition gd_new_data (w : gdworld) (parent : option nat) : gdworld :=
  GD (gd_guards w) (gd_weak w) (gd_boxes w ++ [Some None])
     (gd_metas w ++ [AMeta parent (length (gd_boxes w))]).
(** [Arc::new(DataGuard ..)], a box with a [Weak] to it, and the
    compare-and-swap that stores the box in data [d], arc_slice.rs:297-308;
    [old] is the box that was loaded from there. It is not freed when it is
    replaced. The swap can only fail if another thread has stored something in
    between, so failure is [UB] here (shown not to occur). *)
Definition gd_new_guard (w : gdworld) (d old : nat) (parent : option nat) : res (gdworld * nat) :=
  let '(gs, g) := rc_new (gd_guards w) (AGuard parent false false) in
  match gd_metas w !! d with
  | None => UB
  | Some m =>
      if (am_box m =? old)%nat then
        Ok (GD gs (gd_weak w ++ [1]) (gd_boxes w ++ [Some (Some g)])
               (<[d := AMeta (am_parent m) (length (gd_boxes w))]> (gd_metas w)), g)
      else UB
  end.

(** Dropping an [Arc<DataGuard>]; parents are released recursively. *)
Fixpoint guard_release (fuel : nat) (w : gdworld) (g : nat) : res gdworld :=
  match fuel with
  | O => NoFuel
  | S fuel =>
      '(gs, r) ← rc_dec (gd_guards w) g;
      let w := gd_set_guards w gs in
      match r with
      | None => Ok w
      | Some n => match a_parent n with
                  | None => Ok w
                  | Some p => guard_release fuel w p
                  end
      end
  end.
Definition guard_drop (w : gdworld) (g : nat) : res gdworld :=
  guard_release (S (length (gd_guards w))) w g.

(** ** Gates *)

(** Which gate of a guard: [false] = [clone_child_gate], [true] = [downgrade_gate]. *)
Definition a_gate (down : bool) (n : aguard) : bool := if down then a_down n else a_clone n.
Definition a_set_gate (down b : bool) (n : aguard) : aguard :=
  if down then AGuard (a_parent n) (a_clone n) b else AGuard (a_parent n) b (a_down n).

(** gate.rs:15-17 [wait_till_open]: spins for ever if nobody opens the gate. *)
Definition gate_wait (w : gdworld) (g : nat) (down : bool) : res unit :=
  n ← rc_val (gd_guards w) g;
  if a_gate down n then NoFuel else Ok tt.
(** gate.rs:19-25 [try_close]: closes the gate; [false] models [None], the gate
    was closed already. *)
Definition gate_try_close (w : gdworld) (g : nat) (down : bool) : res (gdworld * bool) :=
  n ← rc_val (gd_guards w) g;
  gs ← rc_set (gd_guards w) g (a_set_gate down true);
  Ok (gd_set_guards w gs, negb (a_gate down n)).
(** gate.rs:28-32 [Drop for Latch] *)
Definition gate_open (w : gdworld) (g : nat) (down : bool) : res gdworld :=
  gs ← rc_set (gd_guards w) g (a_set_gate down false);
  Ok (gd_set_guards w gs).

(** ** Handles *)

(** arc_slice.rs:62-65 [struct ArcSlice] *)
Record arcslice := ArcS { ar_data : nat; ar_guard : nat }.

(** What a variable of the caller holds. The [ArcSliceMut] types have the
    fields of their single-threaded counterparts (arc_slice_mut.rs:21-41). *)
Inductive xhandle :=
| XArc (s : arcslice)
| XWeak (d g : option nat)              (* arc_slice.rs:69-73 [struct WeakSlice] *)
| XParts (it : bpi arcslice)            (* arc_slice.rs:76-78 [struct ArcSliceParts] *)
| XMut (m : mutslice)
| XIter (m : mutiter)
| XMParts (m : mutparts).

(** The whole state: data layer, guards, the caller's variables ([None]: moved
    out or dropped). *)
Record aworld (V : Type) := AW { aw_d : dworld V; aw_g : gdworld; aw_h : list (option xhandle) }.
Arguments AW {_} _ _ _.
Arguments aw_d {_} _.
Arguments aw_g {_} _.
Arguments aw_h {_} _.

Definition empty_aworld {V} : aworld V := AW (DW [] [] [] ∅ []) (GD [] [] [] []) [].

Section arc.
  Context {V : Type} (sz : N).
  (** [T::clone], used by [ArcSliceMut::clone] only. *)
  Context (vclone : V -> V).
  (** Capacity policy of [VecDeque] and whether debug assertions are compiled
      in (BinPartsModel.v). *)
  Context (capf growf : N -> N) (dbg : bool).
  Notation aworld := (aworld V).
  Notation dworld := (dworld V).
  (** Working state of a call: data layer and guards. *)
  Notation dg := (dworld * gdworld)%type.

  (** *** ArcSliceData *)

  (** arc_slice.rs:110-119 [ArcSliceData::clone_left], with 132-175
      [clone_child] when no other thread interferes. *)
  Definition adata_clone_left (s : dg) (self : nat) : res (dg * nat) :=
    n ← rc_val (dw_datas (fst s)) self;
    if (d_len n =? 0)%N then
      h ← rc_inc (dw_datas (fst s)) self; Ok ((dw_set_datas (fst s) h, snd s), self)
    else
      '(d, c) ← data_clone_left (fst s) self;
      Ok ((d, match d_left n with None => gd_new_data (snd s) (Some self) | Some _ => snd s end), c).
  (** arc_slice.rs:121-130 [ArcSliceData::clone_right] *)
  Definition adata_clone_right (s : dg) (self : nat) : res (dg * nat) :=
    n ← rc_val (dw_datas (fst s)) self;
    if (d_len n <=? 1)%N then
      h ← rc_inc (dw_datas (fst s)) self; Ok ((dw_set_datas (fst s) h, snd s), self)
    else
      '(d, c) ← data_clone_right sz (fst s) self;
      Ok ((d, match d_right n with None => gd_new_data (snd s) (Some self) | Some _ => snd s end), c).

  (** arc_slice.rs:285-318 [DataGuard::guard]. [parent_data] is a temporary
      [Arc] that is dropped when the closure returns. The loop body runs at
      most once, since its compare-and-swap succeeds. *)
  Fixpoint guard_of (fuel : nat) (s : dg) (d : nat) : res (dg * nat) :=
    match fuel with
    | O => NoFuel
    | S fuel =>
        _ ← rc_val (dw_datas (fst s)) d;
        match gd_metas (snd s) !! d with
        | None => UB
        | Some m =>
            match gd_boxes (snd s) !! am_box m with
            | Some (Some wk) =>
                let '(gs, o) := rc_upgrade (gd_guards (snd s)) wk in
                match o with
                | Some g => Ok ((fst s, gd_set_guards (snd s) gs), g)
                | None =>
                    '(s, parent) ←
                      (let '(h, o) := rc_upgrade (dw_datas (fst s)) (am_parent m) in
                       match o with
                       | None => Ok (s, None)
                       | Some p =>
                           '(s, pg) ← guard_of fuel (dw_set_datas (fst s) h, snd s) p;
                           d' ← data_drop sz (fst s) p;
                           Ok ((d', snd s), Some pg)
                       end);
                    '(w, g) ← gd_new_guard (snd s) d (am_box m) parent;
                    Ok ((fst s, w), g)
                end
            | _ => UB
            end
        end
    end.
  Definition guard_for (s : dg) (d : nat) : res (dg * nat) :=
    guard_of (S (length (dw_datas (fst s)))) s d.

  (** *** ArcSlice *)

  (** arc_slice.rs:321-324 [from_data] *)
  Definition arc_from_data (s : dg) (d : nat) : res (dg * arcslice) :=
    '(s, g) ← guard_for s d; Ok (s, ArcS d g).

  (** arc_slice.rs:326-332 [from_boxed_slice]/[from_vec], with 81-93. *)
  Definition arc_from_boxed_slice (s : dg) (base : N) (vals : list V) : res (dg * arcslice) :=
    let '(d, p, len) := new_block (fst s) base vals in
    let '(d, n) := data_from_boxed_slice d p len in
    arc_from_data (d, gd_new_data (snd s) None) n.

  (** arc_slice.rs:425-432 [Clone for ArcSlice] *)
  Definition arc_clone (s : dg) (r : arcslice) : res (dg * arcslice) :=
    h ← rc_inc (dw_datas (fst s)) (ar_data r);
    gs ← rc_inc (gd_guards (snd s)) (ar_guard r);
    Ok ((dw_set_datas (fst s) h, gd_set_guards (snd s) gs), r).

  (** Dropping an [ArcSlice]: field [data], then [data_guard]. *)
  Definition arc_drop (s : dg) (r : arcslice) : res dg :=
    d ← data_drop sz (fst s) (ar_data r);
    g ← guard_drop (snd s) (ar_guard r);
    Ok (d, g).

  (** arc_slice.rs:334-337 [clone_left] *)
  Definition arc_clone_left (s : dg) (r : arcslice) : res (dg * arcslice) :=
    _ ← gate_wait (snd s) (ar_guard r) false;
    '(s, c) ← adata_clone_left s (ar_data r);
    arc_from_data s c.
  (** arc_slice.rs:339-342 [clone_right] *)
  Definition arc_clone_right (s : dg) (r : arcslice) : res (dg * arcslice) :=
    _ ← gate_wait (snd s) (ar_guard r) false;
    '(s, c) ← adata_clone_right s (ar_data r);
    arc_from_data s c.

  (** arc_slice.rs:344-349 [split_off_left]: (what [this] becomes, returned);
      the assignment [*this = right] drops the old value. *)
  Definition arc_split_off_left (s : dg) (r : arcslice) : res (dg * (arcslice * arcslice)) :=
    '(s, l) ← arc_clone_left s r;
    '(s, rt) ← arc_clone_right s r;
    s ← arc_drop s r;
    Ok (s, (rt, l)).
  (** arc_slice.rs:351-356 [split_off_right]: (what [this] becomes, returned). *)
  Definition arc_split_off_right (s : dg) (r : arcslice) : res (dg * (arcslice * arcslice)) :=
    '(s, l) ← arc_clone_left s r;
    '(s, rt) ← arc_clone_right s r;
    s ← arc_drop s r;
    Ok (s, (l, rt)).

  (** arc_slice.rs:362-387 [get_mut]: the pointer and length of the slice, or
      [None]. Both latches are dropped before it returns. *)
  Definition arc_get_mut (s : dg) (r : arcslice) : res (dg * option (ptr * N)) :=
    '(w, ok) ← gate_try_close (snd s) (ar_guard r) true;
    if negb ok then Ok ((fst s, w), None) else
    '(w, o) ←
      (if (gd_weak_count w (ar_guard r) =? 1)%nat then
         '(w, ok) ← gate_try_close w (ar_guard r) false;
         if negb ok then Ok (w, None) else
         o ← (if (rc_count (gd_guards w) (ar_guard r) =? 1)%nat then
                n ← rc_val (dw_datas (fst s)) (ar_data r);
                if (rc_count (dw_datas (fst s)) (ar_data r) =? 1)%nat
                then Ok (Some (d_ptr n, d_len n)) else Ok None
              else Ok None);
         w ← gate_open w (ar_guard r) false;
         Ok (w, o)
       else Ok (w, None));
    w ← gate_open w (ar_guard r) true;
    Ok ((fst s, w), o).

  (** arc_slice.rs:389-405 [into_mut]: [inl] models [Ok], [inr] models [Err]. In
      the [Ok] case the guard captured by the [map_err] closure is dropped last. *)
  Definition arc_into_mut (s : dg) (r : arcslice) : res (dg * (mutslice + arcslice)) :=
    '(w, ok) ← gate_try_close (snd s) (ar_guard r) false;
    if negb ok then Ok ((fst s, w), inr r) else
    if (rc_count (gd_guards w) (ar_guard r) =? 1)%nat then
      '(h, o) ← rc_try_unwrap (dw_datas (fst s)) (ar_data r);
      match o with
      | Some n =>
          '(d, (it, al)) ← data_into_mut sz (dw_set_datas (fst s) h) n;
          w ← gate_open w (ar_guard r) false;
          w ← guard_drop w (ar_guard r);
          Ok ((d, w), inl (MutS it al))
      | None =>
          w ← gate_open w (ar_guard r) false;
          Ok ((dw_set_datas (fst s) h, w), inr r)
      end
    else
      w ← gate_open w (ar_guard r) false;
      Ok ((fst s, w), inr r).

  (** arc_slice.rs:407-410 [downgrade] *)
  Definition arc_downgrade (s : dg) (r : arcslice) : res (dg * (option nat * option nat)) :=
    _ ← gate_wait (snd s) (ar_guard r) true;
    _ ← rc_val (dw_datas (fst s)) (ar_data r);
    w ← gd_weak_inc (snd s) (Some (ar_guard r));
    Ok ((fst s, w), (Some (ar_data r), Some (ar_guard r))).

  (** arc_slice.rs:469-471 [WeakSlice::new] *)
  Definition aweak_new (s : dg) : dg * (option nat * option nat) := (s, (None, None)).
  (** arc_slice.rs:473-477 [WeakSlice::upgrade] *)
  Definition aweak_upgrade (s : dg) (d : option nat) : res (dg * option arcslice) :=
    let '(h, o) := rc_upgrade (dw_datas (fst s)) d in
    match o with
    | None => Ok (s, None)
    | Some d => '(s, r) ← arc_from_data (dw_set_datas (fst s) h, snd s) d; Ok (s, Some r)
    end.
  (** arc_slice.rs:480-484 [Clone for WeakSlice] *)
  Definition aweak_clone (s : dg) (g : option nat) : res dg :=
    w ← gd_weak_inc (snd s) g; Ok (fst s, w).
  (** Dropping a [WeakSlice] *)
  Definition aweak_drop (s : dg) (g : option nat) : res dg :=
    w ← gd_weak_dec (snd s) g; Ok (fst s, w).

  (** arc_slice.rs:434-440, 277-283 [Deref]: pointer and length. *)
  Definition arc_slice (s : dg) (r : arcslice) : res (ptr * N) :=
    n ← rc_val (dw_datas (fst s)) (ar_data r); Ok (d_ptr n, d_len n).

  (** *** ArcSliceParts: the generic iterator at [ArcSlice]. *)
  (** arc_slice.rs:517 [next], 524 [next_back], through 486-491. *)
  Definition arc_parts_next := @bpi_next arcslice dg arc_split_off_left growf dbg.
  Definition arc_parts_next_back := @bpi_next_back arcslice dg arc_split_off_right growf dbg.
  (** Dropping the deque: front to back. *)
  Fixpoint arc_drop_all (s : dg) (l : list arcslice) : res dg :=
    match l with [] => Ok s | r :: l => s ← arc_drop s r; arc_drop_all s l end.
  (** arc_slice.rs:503-505 [as_slice] *)
  Fixpoint arc_slices (s : dg) (l : list arcslice) : res (list (ptr * N)) :=
    match l with
    | [] => Ok []
    | r :: l => x ← arc_slice s r; xs ← arc_slices s l; Ok (x :: xs)
    end.
  Definition arc_parts_as_slice (s : dg) (it : bpi arcslice) : res (ptr * N) :=
    xs ← arc_slices s (dq_items (bp_deque it));
    bpi_as_slice sz id (BPI (bp_num_parts it) (bp_front it) (bp_back it)
                            (Deque xs (dq_cap (bp_deque it)))).

  (** *** ArcSliceMut

      [mut_drop], [mut_split_off] (arc_slice_mut.rs:61-71),
      [mut_split_into_parts] (73-77), [mut_into_iter] (132-141), [iter_next]
      (192-197, 204-209), [iter_split_off] (159-181), [iter_drop],
      [mparts_next] (231-242, 249-260) and [mparts_drop] are the functions of
      RcModel.v: they do not touch guards. *)

  (** arc_slice_mut.rs:44-51 [from_boxed_slice]/[from_vec] *)
  Definition arc_mut_from_boxed_slice (s : dg) (base : N) (vals : list V) : dg * mutslice :=
    let '(d, p, len) := new_block (fst s) base vals in
    let '(d, it, al) := split_alloc_from_items sz d p len in
    ((d, snd s), MutS it al).
  (** arc_slice_mut.rs:79-84 [into_immut] *)
  Definition arc_mut_into_immut (s : dg) (m : mutslice) : res (dg * arcslice) :=
    let '(d, n) := data_new (fst s) (si_ptr (ms_items m)) (si_len (ms_items m)) (ms_alloc m) in
    arc_from_data (d, gd_new_data (snd s) None) n.
  (** arc_slice_mut.rs:122-130 [Clone for ArcSliceMut] *)
  Definition arc_mut_clone (s : dg) (m : mutslice) (base : N) : res (dg * mutslice) :=
    vs ← mem_read sz (fst s) (N.to_nat (si_len (ms_items m))) (si_ptr (ms_items m));
    Ok (arc_mut_from_boxed_slice s base (vclone <$> vs)).

  (** ** The state machine *)

  (** Variable [h]. *)
  Definition xget (w : aworld) (h : nat) : option xhandle :=
    match aw_h w !! h with Some (Some x) => Some x | _ => None end.
  (** Store a new value in a fresh variable. *)
  Definition xret_new (s : dg) (hs : list (option xhandle)) (x : xhandle) : res (aworld * out V) :=
    Ok (AW (fst s) (snd s) (hs ++ [Some x]), RHandle (length hs)).
  Definition xret (s : dg) (hs : list (option xhandle)) (o : out V) : res (aworld * out V) :=
    Ok (AW (fst s) (snd s) hs, o).
  (** A slice as seen by the caller. *)
  Definition xret_slice (s : dg) (hs : list (option xhandle)) (p : ptr) (len : N) : res (aworld * out V) :=
    vs ← mem_read sz (fst s) (N.to_nat len) p;
    xret s hs (RSlice (if ((len =? 0) || (sz =? 0))%N then None else Some (p_addr p)) vs).
  (** [mem::replace(&mut slice[i], v)], which panics if out of bounds. *)
  Definition xret_replace (s : dg) (hs : list (option xhandle)) (p : ptr) (len i : N) (v : V)
    : res (aworld * out V) :=
    if (i <? len)%N then
      '(d, old) ← mem_replace sz (fst s) (ptr_add sz p i) v;
      xret (d, snd s) hs (RVal old)
    else xret s hs RPanic.

  (** Dropping any value. *)
  Definition xhandle_drop (s : dg) (x : xhandle) : res dg :=
    match x with
    | XArc r => arc_drop s r
    | XWeak _ g => aweak_drop s g
    | XParts it => arc_drop_all s (dq_items (bp_deque it))
    | XMut m => d ← mut_drop sz (fst s) m; Ok (d, snd s)
    | XIter m => d ← iter_drop sz (fst s) m; Ok (d, snd s)
    | XMParts m => d ← mparts_drop sz (fst s) m; Ok (d, snd s)
    end.

  (** One call. Calls on variables that do not hold a value of the right type
      (which Rust's type checker rejects), vectors longer than [usize::MAX] and
      part counts that do not fit [usize] are [RInvalid]. A panic that unwinds
      out of [split_into_parts] releases the slice it consumed. *)
  Definition astep (w : aworld) (o : op V) : res (aworld * out V) :=
    let s := (aw_d w, aw_g w) in
    let hs := aw_h w in
    match o with
    | OFromVec base vals =>
        if (N.of_nat (length vals) <? usize_lim)%N then
          '(s, r) ← arc_from_boxed_slice s base vals; xret_new s hs (XArc r)
        else xret s hs RInvalid
    | OMutFromVec base vals =>
        if (N.of_nat (length vals) <? usize_lim)%N then
          let '(s, m) := arc_mut_from_boxed_slice s base vals in xret_new s hs (XMut m)
        else xret s hs RInvalid
    | OWeakNew => let '(s, (d, g)) := aweak_new s in xret_new s hs (XWeak d g)
    | OClone h =>
        match xget w h with
        | Some (XArc r) => '(s, r') ← arc_clone s r; xret_new s hs (XArc r')
        | Some (XWeak d g) => s ← aweak_clone s g; xret_new s hs (XWeak d g)
        | Some (XParts it) => '(s, it') ← bpi_clone arc_clone capf s it; xret_new s hs (XParts it')
        | _ => xret s hs RInvalid
        end
    | OMutClone h base =>
        match xget w h with
        | Some (XMut m) => '(s, m') ← arc_mut_clone s m base; xret_new s hs (XMut m')
        | _ => xret s hs RInvalid
        end
    | OCloneHalf side h =>
        match xget w h with
        | Some (XArc r) => '(s, r') ← (if side then arc_clone_right s r else arc_clone_left s r);
                          xret_new s hs (XArc r')
        | _ => xret s hs RInvalid
        end
    | OSplitOff side h =>
        match xget w h with
        | Some (XArc r) => '(s, (r1, r2)) ← (if side then arc_split_off_right s r else arc_split_off_left s r);
                          xret_new s (<[h := Some (XArc r1)]> hs) (XArc r2)
        | Some (XMut m) => '(d, (m1, m2)) ← mut_split_off sz side (fst s) m;
                           xret_new (d, snd s) (<[h := Some (XMut m1)]> hs) (XMut m2)
        | _ => xret s hs RInvalid
        end
    | OSplitIntoParts h n =>
        if negb (n <? usize_lim)%N then xret s hs RInvalid else
        match xget w h with
        | Some (XArc r) =>
            match bpi_new capf growf r n with
            | Ok it => xret_new s (<[h := None]> hs) (XParts it)
            | Panic => s ← arc_drop s r; xret s (<[h := None]> hs) RPanic
            | UB => UB
            | NoFuel => NoFuel
            end
        | Some (XMut m) =>
            match mut_split_into_parts m n with
            | Ok it => xret_new s (<[h := None]> hs) (XMParts it)
            | Panic => d ← mut_drop sz (fst s) m; xret (d, snd s) (<[h := None]> hs) RPanic
            | UB => UB
            | NoFuel => NoFuel
            end
        | _ => xret s hs RInvalid
        end
    | OGetMut h =>
        match xget w h with
        | Some (XArc r) =>
            '(s, o) ← arc_get_mut s r;
            match o with
            | Some (p, len) => xret_slice s hs p len
            | None => xret s hs RNone
            end
        | _ => xret s hs RInvalid
        end
    | OGetMutReplace h i v =>
        match xget w h with
        | Some (XArc r) =>
            '(s, o) ← arc_get_mut s r;
            match o with
            | Some (p, len) => xret_replace s hs p len i v
            | None => xret s hs RNone
            end
        | _ => xret s hs RInvalid
        end
    | OIntoMut h =>
        match xget w h with
        | Some (XArc r) =>
            '(s, o) ← arc_into_mut s r;
            match o with
            | inl m => xret_new s (<[h := None]> hs) (XMut m)
            | inr r => xret s (<[h := Some (XArc r)]> hs) RErr
            end
        | _ => xret s hs RInvalid
        end
    | OIntoImmut h =>
        match xget w h with
        | Some (XMut m) => '(s, r) ← arc_mut_into_immut s m; xret_new s (<[h := None]> hs) (XArc r)
        | _ => xret s hs RInvalid
        end
    | ODowngrade h =>
        match xget w h with
        | Some (XArc r) => '(s, (d, g)) ← arc_downgrade s r; xret_new s hs (XWeak d g)
        | _ => xret s hs RInvalid
        end
    | OUpgrade h =>
        match xget w h with
        | Some (XWeak d g) =>
            '(s, o) ← aweak_upgrade s d;
            match o with
            | Some r => xret_new s hs (XArc r)
            | None => xret s hs RNone
            end
        | _ => xret s hs RInvalid
        end
    | ODrop h =>
        match xget w h with
        | Some x => s ← xhandle_drop s x; xret s (<[h := None]> hs) RUnit
        | None => xret s hs RInvalid
        end
    | ODeref h =>
        match xget w h with
        | Some (XArc r) => '(p, len) ← arc_slice s r; xret_slice s hs p len
        | Some (XParts it) => '(p, len) ← arc_parts_as_slice s it; xret_slice s hs p len
        | Some (XMut m) => xret_slice s hs (si_ptr (ms_items m)) (si_len (ms_items m))
        | Some (XIter m) => '(p, len) ← sit_as_slice sz (mi_iter m); xret_slice s hs p len
        | Some (XMParts m) => '(p, len) ← sip_as_slice sz (mp_iter m); xret_slice s hs p len
        | _ => xret s hs RInvalid
        end
    | OReplace h i v =>
        match xget w h with
        | Some (XMut m) => xret_replace s hs (si_ptr (ms_items m)) (si_len (ms_items m)) i v
        | Some (XIter m) => '(p, len) ← sit_as_slice sz (mi_iter m); xret_replace s hs p len i v
        | Some (XMParts m) => '(p, len) ← sip_as_slice sz (mp_iter m); xret_replace s hs p len i v
        | _ => xret s hs RInvalid
        end
    | OIntoIter h =>
        match xget w h with
        | Some (XMut m) => xret_new s (<[h := None]> hs) (XIter (mut_into_iter sz m))
        | _ => xret s hs RInvalid
        end
    | ONext back h =>
        match xget w h with
        | Some (XIter m) =>
            '(d, m', o) ← iter_next sz back (fst s) m;
            xret (d, snd s) (<[h := Some (XIter m')]> hs)
                (match o with Some v => RVal v | None => RNone end)
        | Some (XMParts m) =>
            '(d, m', o) ← mparts_next sz back (fst s) m;
            match o with
            | Some x => xret_new (d, snd s) (<[h := Some (XMParts m')]> hs) (XMut x)
            | None => xret (d, snd s) (<[h := Some (XMParts m')]> hs) RNone
            end
        | Some (XParts it) =>
            '(s, it', o) ← (if back then arc_parts_next_back s it else arc_parts_next s it);
            match o with
            | Some x => xret_new s (<[h := Some (XParts it')]> hs) (XArc x)
            | None => xret s (<[h := Some (XParts it')]> hs) RNone
            end
        | _ => xret s hs RInvalid
        end
    | OSplitAt to h i =>
        match xget w h with
        | Some (XIter m) =>
            match iter_split_off sz to (fst s) m i with
            | Ok (d, (m1, m2)) => xret_new (d, snd s) (<[h := Some (XIter m1)]> hs) (XIter m2)
            | Panic => xret s hs RPanic
            | UB => UB
            | NoFuel => NoFuel
            end
        | _ => xret s hs RInvalid
        end
    | OLen h =>
        match xget w h with
        | Some (XIter m) => l ← sit_len sz (mi_iter m); xret s hs (RLen l)
        | Some (XMParts m) => l ← sip_len (mp_iter m); xret s hs (RLen l)
        | Some (XParts it) => l ← bpi_len it; xret s hs (RLen l)
        | _ => xret s hs RInvalid
        end
    end.

  (** A history: run calls one after the other, collecting what they return. *)
  Fixpoint arun (w : aworld) (ops : list (op V)) : res (aworld * list (out V)) :=
    match ops with
    | [] => Ok (w, [])
    | o :: ops => '(w, r) ← astep w o; '(w, rs) ← arun w ops; Ok (w, r :: rs)
    end.
End arc.
