(** The data layer: buffers, [SliceAlloc], trees of [RcSliceData], and what
    happens to items in memory.

    Models src/internal/slice_model/slice_alloc.rs and the [RcSliceData] part of
    src/rc/rc_slice.rs (lines 23-37, 92-227). [ArcSliceData] of
    src/arc/arc_slice.rs (lines 27-46, 80-283) has the same fields and, used
    sequentially, the same code, except for [parent] and [guard], which
    ArcModel.v adds. *)
From Verif Require Import Base SliceItemsModel.

(** A buffer obtained from a [Box<[T]>]: base address, number of items, and
    whether it has been deallocated. *)
Record block := Block { b_base : N; b_len : N; b_freed : bool }.

(** slice_alloc.rs:6-9 [struct SliceAlloc] *)
Record salloc := SAlloc { sa_ptr : ptr; sa_len : N }.

(** rc_slice.rs:23-37 [struct RcSliceData]. [left_child]/[right_child] hold
    pointers obtained by [Rc::into_raw], i.e. owned strong references. *)
Record dnode := DNode {
  d_ptr : ptr;
  d_len : N;
  d_alloc : option nat;   (* Option<Rc<SliceAlloc<T>>> *)
  d_left : option nat;
  d_right : option nat
}.

(** Observable effects: an item's destructor ran; a buffer was deallocated. *)
Inductive event (V : Type) :=
| EDrop (b : nat) (i : N) (v : V)
| EFree (b : nat) (addr cap : N).
Arguments EDrop {_} _ _ _.
Arguments EFree {_} _ _ _.

(** [dw_mem] maps (buffer, index) to the item there; absent = not initialised
    (already dropped or moved out). *)
Record dworld (V : Type) := DW {
  dw_allocs : heap salloc;
  dw_datas : heap dnode;
  dw_blocks : list block;
  dw_mem : gmap (nat * N) V;
  dw_trace : list (event V)
}.
Arguments DW {_} _ _ _ _ _.
Arguments dw_allocs {_} _.
Arguments dw_datas {_} _.
Arguments dw_blocks {_} _.
Arguments dw_mem {_} _.
Arguments dw_trace {_} _.

Section data.
  Context {V : Type} (sz : N).
  Notation dworld := (dworld V).

  Definition dw_set_allocs (w : dworld) h := DW h (dw_datas w) (dw_blocks w) (dw_mem w) (dw_trace w).
  Definition dw_set_datas (w : dworld) h := DW (dw_allocs w) h (dw_blocks w) (dw_mem w) (dw_trace w).
  Definition dw_set_blocks (w : dworld) b := DW (dw_allocs w) (dw_datas w) b (dw_mem w) (dw_trace w).
  Definition dw_set_mem (w : dworld) m := DW (dw_allocs w) (dw_datas w) (dw_blocks w) m (dw_trace w).
  Definition dw_log (w : dworld) e := DW (dw_allocs w) (dw_datas w) (dw_blocks w) (dw_mem w) (dw_trace w ++ [e]).

  (** ** Memory accesses *)

  (** Accessing the item at [p]: UB unless the buffer exists, is not freed and
      the address is the address of item [p_idx p] (for sized items), and the
      item is initialised. *)
  Definition mem_at (w : dworld) (p : ptr) : res V :=
    match dw_blocks w !! p_blk p with
    | None => UB
    | Some blk =>
        if negb (sz =? 0)%N
           && (b_freed blk || negb (p_addr p =? b_base blk + p_idx p * sz)%N
               || negb (p_idx p <? b_len blk)%N)
        then UB
        else match dw_mem w !! (p_blk p, p_idx p) with
             | None => UB
             | Some v => Ok v
             end
    end.
  (** Moving the item at [p] out ([ptr::read]). *)
  Definition mem_take (w : dworld) (p : ptr) : res (dworld * V) :=
    v ← mem_at w p;
    Ok (dw_set_mem w (delete (p_blk p, p_idx p) (dw_mem w)), v).
  (** [mem::replace] of the item at [p]. *)
  Definition mem_replace (w : dworld) (p : ptr) (v : V) : res (dworld * V) :=
    old ← mem_at w p;
    Ok (dw_set_mem w (<[(p_blk p, p_idx p) := v]> (dw_mem w)), old).
  (** Reading a slice of [n] items starting at [p]. *)
  Fixpoint mem_read (w : dworld) (n : nat) (p : ptr) : res (list V) :=
    match n with
    | O => Ok []
    | S n => v ← mem_at w p; vs ← mem_read w n (ptr_add sz p 1); Ok (v :: vs)
    end.
  (** [ptr::drop_in_place] of a slice of [n] items starting at [p]: items are
      dropped in order. Panicking or re-entrant item destructors are not
      modelled. *)
  Fixpoint drop_in_place (w : dworld) (n : nat) (p : ptr) : res dworld :=
    match n with
    | O => Ok w
    | S n => '(w, v) ← mem_take w p;
             drop_in_place (dw_log w (EDrop (p_blk p) (p_idx p) v)) n (ptr_add sz p 1)
    end.

  (** A fresh buffer at address [base] holding [vals]: what a [Box<[T]>] given
      by the caller is. *)
  Fixpoint store_vals (m : gmap (nat * N) V) (b : nat) (i : N) (vals : list V) : gmap (nat * N) V :=
    match vals with
    | [] => m
    | v :: vals => store_vals (<[(b, i) := v]> m) b (i + 1)%N vals
    end.
  Definition new_block (w : dworld) (base : N) (vals : list V) : dworld * ptr * N :=
    let b := length (dw_blocks w) in
    (DW (dw_allocs w) (dw_datas w)
        (dw_blocks w ++ [Block base (N.of_nat (length vals)) false])
        (store_vals (dw_mem w) b 0 vals) (dw_trace w),
     Ptr b base 0, N.of_nat (length vals)).

  (** ** SliceAlloc *)

  (** slice_alloc.rs:28-30 [Drop for SliceAlloc]: [Vec::from_raw_parts(ptr, 0,
      len)] is dropped. Nothing is deallocated for zero-sized items or capacity
      0; otherwise it is UB to free twice or with another pointer or capacity. *)
  Definition salloc_drop (w : dworld) (a : salloc) : res dworld :=
    if ((sz =? 0) || (sa_len a =? 0))%N then Ok w
    else match dw_blocks w !! p_blk (sa_ptr a) with
         | None => UB
         | Some blk =>
             if b_freed blk || negb (p_addr (sa_ptr a) =? b_base blk)%N
                || negb (sa_len a =? b_len blk)%N
             then UB
             else Ok (dw_log (dw_set_blocks w (<[p_blk (sa_ptr a) := Block (b_base blk) (b_len blk) true]>
                                                 (dw_blocks w)))
                             (EFree (p_blk (sa_ptr a)) (p_addr (sa_ptr a)) (sa_len a)))
         end.
  (** Dropping an [Option<Rc<SliceAlloc<T>>>]. *)
  Definition alloc_release (w : dworld) (o : option nat) : res dworld :=
    match o with
    | None => Ok w
    | Some a => '(h, r) ← rc_dec (dw_allocs w) a;
                let w := dw_set_allocs w h in
                match r with None => Ok w | Some v => salloc_drop w v end
    end.
  (** Cloning an [Option<Rc<SliceAlloc<T>>>]. *)
  Definition alloc_clone (w : dworld) (o : option nat) : res dworld :=
    match o with
    | None => Ok w
    | Some a => h ← rc_inc (dw_allocs w) a; Ok (dw_set_allocs w h)
    end.
  (** [Rc::new(SliceAlloc::new(ptr, len))], slice_alloc.rs:20-22 *)
  Definition alloc_new (w : dworld) (p : ptr) (len : N) : dworld * nat :=
    let '(h, a) := rc_new (dw_allocs w) (SAlloc p len) in (dw_set_allocs w h, a).

  (** slice_model/mod.rs:28-39 [split_alloc_from_items] (followed by
      [.map(Rc::new)], rc_slice_mut.rs:47-50 / arc_slice_mut.rs:44-47) *)
  Definition split_alloc_from_items (w : dworld) (p : ptr) (len : N)
    : dworld * slice_items * option nat :=
    if ((len =? 0) || (sz =? 0))%N then (w, SliceItems p len, None)
    else let '(w, a) := alloc_new w p len in (w, SliceItems p len, Some a).

  (** ** RcSliceData *)

  (** rc_slice.rs:103-113 [from_data_parts], inside [Rc::new]. *)
  Definition data_new (w : dworld) (p : ptr) (len : N) (alloc : option nat) : dworld * nat :=
    let '(h, d) := rc_new (dw_datas w) (DNode p len alloc None None) in (dw_set_datas w h, d).

  (** rc_slice.rs:93-101 [from_boxed_slice], inside [Rc::new] (line 339);
      arc_slice.rs:81-89. Unlike [split_alloc_from_items] this allocates a
      [SliceAlloc] for zero-sized items too. *)
  Definition data_from_boxed_slice (w : dworld) (p : ptr) (len : N) : dworld * nat :=
    if (len =? 0)%N then data_new w p len None
    else let '(w, a) := alloc_new w p len in data_new w p len (Some a).

  (** rc_slice.rs:159-161 [left_sub]; arc_slice.rs:194-196 *)
  Definition left_sub (n : dnode) : ptr * N := (d_ptr n, shr1 (d_len n)).
  (** rc_slice.rs:163-170 [right_sub]; arc_slice.rs:198-205. [len - (len >> 1)]
      cannot underflow. *)
  Definition right_sub (n : dnode) : ptr * N :=
    (if (sz =? 0)%N then ptr_stay (d_ptr n) (shr1 (d_len n))
     else ptr_add sz (d_ptr n) (shr1 (d_len n)),
     (d_len n - shr1 (d_len n))%N).

  (** Side of a child: [false] = left, [true] = right. *)
  Definition d_child (side : bool) (n : dnode) : option nat :=
    if side then d_right n else d_left n.
  Definition d_set_child (side : bool) (c : option nat) (n : dnode) : dnode :=
    if side then DNode (d_ptr n) (d_len n) (d_alloc n) (d_left n) c
    else DNode (d_ptr n) (d_len n) (d_alloc n) c (d_right n).

  (** rc_slice.rs:129-145 [clone_child], with [child] the field given by
      [side]. New child: count 1 for the pointer stored in the parent plus 1
      for the returned clone. Existing child: [from_raw], [clone], [forget] is
      a net increment. arc_slice.rs:132-175 is the same when no other thread
      interferes. *)
  Definition data_clone_child (w : dworld) (self : nat) (side : bool) (p : ptr) (len : N)
    : res (dworld * nat) :=
    n ← rc_val (dw_datas w) self;
    match d_child side n with
    | None =>
        let alloc := if (len =? 0)%N then None else d_alloc n in
        w ← alloc_clone w alloc;
        let '(w, c) := data_new w p len alloc in
        h ← rc_inc (dw_datas w) c;
        h ← rc_set h self (d_set_child side (Some c));
        Ok (dw_set_datas w h, c)
    | Some c =>
        h ← rc_inc (dw_datas w) c;
        Ok (dw_set_datas w h, c)
    end.
  (** rc_slice.rs:115-120 [RcSliceData::clone_left] *)
  Definition data_clone_left (w : dworld) (self : nat) : res (dworld * nat) :=
    n ← rc_val (dw_datas w) self;
    let '(p, len) := left_sub n in data_clone_child w self false p len.
  (** rc_slice.rs:122-127 [RcSliceData::clone_right] *)
  Definition data_clone_right (w : dworld) (self : nat) : res (dworld * nat) :=
    n ← rc_val (dw_datas w) self;
    let '(p, len) := right_sub n in data_clone_child w self true p len.

  (** Dropping an [Rc<RcSliceData<T>>], including [Drop for RcSliceData]
      (rc_slice.rs:195-219; arc_slice.rs:230-254) when it is the last one. The
      children taken out are released first (temporaries of the [match]), then
      the items that belong to no child are dropped, then the [alloc] field. *)
  Fixpoint data_release (fuel : nat) (w : dworld) (d : nat) : res dworld :=
    match fuel with
    | O => NoFuel
    | S fuel =>
        '(h, r) ← rc_dec (dw_datas w) d;
        let w := dw_set_datas w h in
        match r with
        | None => Ok w
        | Some n =>
            w ← match d_left n with None => Ok w | Some c => data_release fuel w c end;
            w ← match d_right n with None => Ok w | Some c => data_release fuel w c end;
            w ← match d_left n, d_right n with
                | None, None => drop_in_place w (N.to_nat (d_len n)) (d_ptr n)
                | Some _, None => let '(p, len) := right_sub n in drop_in_place w (N.to_nat len) p
                | None, Some _ => let '(p, len) := left_sub n in drop_in_place w (N.to_nat len) p
                | Some _, Some _ => Ok w
                end;
            alloc_release w (d_alloc n)
        end
    end.
  (** [Drop] run on an owned [RcSliceData] value that has no children left and
      length 0 (after [forget_items]): drops an empty range, then [alloc]. *)
  Definition data_drop_forgotten (w : dworld) (n : dnode) : res dworld :=
    alloc_release w (d_alloc n).

  (** rc_slice.rs:185-192 [forget_items] on an owned value [n]; arc_slice.rs:220-227.
      A child that is not shared is unwrapped, told to forget its items, and
      dropped; a shared one is merely released. Returns the value with no
      children and length 0. *)
  Fixpoint data_forget_items (fuel : nat) (w : dworld) (n : dnode) : res (dworld * dnode) :=
    match fuel with
    | O => NoFuel
    | S fuel =>
        let forget_child (w : dworld) (o : option nat) : res dworld :=
          match o with
          | None => Ok w
          | Some c =>
              '(h, r) ← rc_try_unwrap (dw_datas w) c;
              let w := dw_set_datas w h in
              match r with
              | Some child =>
                  '(w, child) ← data_forget_items fuel w child;
                  data_drop_forgotten w child
              | None => data_release (S (length (dw_datas w))) w c
              end
          end in
        w ← forget_child w (d_left n);
        w ← forget_child w (d_right n);
        Ok (w, DNode (d_ptr n) 0 (d_alloc n) None None)
    end.

  (** rc_slice.rs:175-183 [RcSliceData::into_mut] on an owned value;
      arc_slice.rs:210-218. [alloc] is taken out first, so the final drop of
      [self] releases nothing. *)
  Definition data_into_mut (w : dworld) (n : dnode) : res (dworld * (slice_items * option nat)) :=
    let slice_mut := (SliceItems (d_ptr n) (d_len n), d_alloc n) in
    let self := DNode (d_ptr n) (d_len n) None (d_left n) (d_right n) in
    '(w, self) ← data_forget_items (S (length (dw_datas w))) w self;
    w ← data_drop_forgotten w self;
    Ok (w, slice_mut).

  (** Fuel for releasing a node: nodes are only linked to younger nodes. *)
  Definition data_drop (w : dworld) (d : nat) : res dworld :=
    data_release (S (length (dw_datas w))) w d.
End data.
