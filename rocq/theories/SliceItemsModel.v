(** Model of src/internal/slice_model/slice_items.rs (non-test part, lines
    1-487): [SliceItems], [SliceItemsIter], [SliceItemsParts], [PtrOrIdx],
    [PtrOrIdxRange]. Only the pointer/length bookkeeping lives here; the effect
    on memory (reading an item out, dropping items) is in DataModel.v and
    RcModel.v. [sz] is [mem::size_of::<T>()]. *)
From Verif Require Import Base.
Local Open Scope N_scope.

Section slice_items.
  Context (sz : N).

  (** slice_items.rs:13-17 [struct SliceItems] *)
  Record slice_items := SliceItems { si_ptr : ptr; si_len : N }.

  (** slice_items.rs:68-70 [left_len] *)
  Definition si_left_len (s : slice_items) : N := shr1 (si_len s).
  (** slice_items.rs:72-74 [right_len]. The subtraction cannot underflow since
      [len >> 1 <= len] (lemma [shr1_le]), so plain [N] subtraction is exact. *)
  Definition si_right_len (s : slice_items) : N := si_len s - shr1 (si_len s).
  (** slice_items.rs:76-82 [mid] *)
  Definition si_mid (s : slice_items) : ptr :=
    if sz =? 0 then ptr_stay (si_ptr s) (shr1 (si_len s))
    else ptr_add sz (si_ptr s) (shr1 (si_len s)).

  (** slice_items.rs:53-59 [split_off_left]: (what [self] becomes, returned). *)
  Definition si_split_off_left (s : slice_items) : slice_items * slice_items :=
    (SliceItems (si_mid s) (si_right_len s), SliceItems (si_ptr s) (si_left_len s)).
  (** slice_items.rs:61-66 [split_off_right]: (what [self] becomes, returned). *)
  Definition si_split_off_right (s : slice_items) : slice_items * slice_items :=
    (SliceItems (si_ptr s) (si_left_len s), SliceItems (si_mid s) (si_right_len s)).

  (** ** zst_utils *)

  (** slice_items.rs:380 [struct PtrOrIdx]: for zero-sized items the raw
      pointer's address is used as an index; represented by a [ptr] whose
      [p_addr] is that index. *)
  Definition ptr_or_idx := ptr.
  (** slice_items.rs:386-389 [struct PtrOrIdxRange] *)
  Record ptr_or_idx_range := PRange { r_start : ptr_or_idx; r_end : ptr_or_idx }.

  (** Address of [NonNull::dangling()]: the alignment of [T], taken to be 1; no
      model function inspects it. *)
  Definition dangling_addr : N := 1.

  (** slice_items.rs:393-399 [PtrOrIdx::as_ptr] *)
  Definition poi_as_ptr (p : ptr_or_idx) : ptr :=
    if sz =? 0 then Ptr (p_blk p) dangling_addr (p_idx p) else p.
  (** slice_items.rs:416-422 [PtrOrIdx::add] *)
  Definition poi_add (p : ptr_or_idx) (count : N) : res ptr_or_idx :=
    if sz =? 0 then a ← uadd (p_addr p) count; Ok (Ptr (p_blk p) a (p_idx p + count))
    else Ok (ptr_add sz p count).
  (** slice_items.rs:425-431 [PtrOrIdx::sub]. For sized items [ptr.sub(count)];
      going below address 0 would be UB. *)
  Definition poi_sub (p : ptr_or_idx) (count : N) : res ptr_or_idx :=
    if sz =? 0 then a ← usub (p_addr p) count; Ok (Ptr (p_blk p) a (p_idx p - count))
    else if count * sz <=? p_addr p
         then Ok (Ptr (p_blk p) (p_addr p - count * sz) (p_idx p - count))
         else UB.

  (** slice_items.rs:448-460 [with_ptr_and_len] *)
  Definition range_with_ptr_and_len (p : ptr) (len : N) : ptr_or_idx_range :=
    if sz =? 0 then PRange (Ptr (p_blk p) 0 (p_idx p)) (Ptr (p_blk p) len (p_idx p + len))
    else PRange p (ptr_add sz p len).
  (** slice_items.rs:463-469 [len] *)
  Definition range_len (r : ptr_or_idx_range) : res N :=
    if sz =? 0 then usub (p_addr (r_end r)) (p_addr (r_start r))
    else d ← usub (p_addr (r_end r)) (p_addr (r_start r)); Ok (d / sz).
  (** slice_items.rs:472-474 [as_slice], 477-479 [as_mut_slice]: (pointer, length). *)
  Definition range_as_slice (r : ptr_or_idx_range) : res (ptr * N) :=
    l ← range_len r; Ok (poi_as_ptr (r_start r), l).

  (** ** SliceItemsIter *)

  (** slice_items.rs:19-22: a [SliceItemsIter] is just its range. *)
  Definition slice_items_iter := ptr_or_idx_range.

  (** slice_items.rs:126-130 [SliceItemsIter::new] ([mem::forget] of the
      [SliceItems]: nothing is dropped) *)
  Definition sit_new (s : slice_items) : slice_items_iter :=
    range_with_ptr_and_len (si_ptr s) (si_len s).
  (** slice_items.rs:170 [len] *)
  Definition sit_len (it : slice_items_iter) : res N := range_len it.
  (** slice_items.rs:132-138 [as_slice]/[as_mut_slice] *)
  Definition sit_as_slice (it : slice_items_iter) : res (ptr * N) := range_as_slice it.

  (** slice_items.rs:140-149 [split_off_from]: (what [self] becomes, returned). *)
  Definition sit_split_off_from (it : slice_items_iter) (at_ : N)
    : res (slice_items_iter * slice_items_iter) :=
    l ← sit_len it;
    if at_ <=? l then
      split_pt ← poi_add (r_start it) at_;
      Ok (PRange (r_start it) split_pt, PRange split_pt (r_end it))
    else Panic.
  (** slice_items.rs:151-160 [split_off_to]: (what [self] becomes, returned). *)
  Definition sit_split_off_to (it : slice_items_iter) (at_ : N)
    : res (slice_items_iter * slice_items_iter) :=
    l ← sit_len it;
    if at_ <=? l then
      split_pt ← poi_add (r_start it) at_;
      Ok (PRange split_pt (r_end it), PRange (r_start it) split_pt)
    else Panic.

  (** slice_items.rs:176-186 [next]: (what [self] becomes, where to read the
      yielded item from). [PtrOrIdx::read], lines 407-413, makes up a
      zero-sized value instead of reading (here: reads through a dangling
      pointer); the ghost index still says which item it stands for. *)
  Definition sit_next (it : slice_items_iter) : res (slice_items_iter * option ptr) :=
    l ← sit_len it;
    if 0 <? l then
      s ← poi_add (r_start it) 1;
      Ok (PRange s (r_end it), Some (poi_as_ptr (r_start it)))
    else Ok (it, None).
  (** slice_items.rs:193-202 [next_back] *)
  Definition sit_next_back (it : slice_items_iter) : res (slice_items_iter * option ptr) :=
    l ← sit_len it;
    if 0 <? l then
      e ← poi_sub (r_end it) 1;
      Ok (PRange (r_start it) e, Some (poi_as_ptr e))
    else Ok (it, None).

  (** ** SliceItemsParts *)

  (** slice_items.rs:24-31 [struct SliceItemsParts] *)
  Record slice_items_parts := SIP {
    sip_ptr : ptr; sip_orig_len : N; sip_num_parts : N;
    sip_front : N;  (* num_yielded_front *)
    sip_back : N    (* num_yielded_back *)
  }.

  (** slice_items.rs:217-218: [let mut n = num_parts; while n & 1 == 0 { n >>= 1; }] *)
  Fixpoint strip_twos (fuel : nat) (n : N) : res N :=
    match fuel with
    | O => NoFuel
    | S fuel => if N.land n 1 =? 0 then strip_twos fuel (shr1 n) else Ok n
    end.

  (** slice_items.rs:215-231 [SliceItemsParts::new]. Fuel: the number of bits. *)
  Definition sip_new (s : slice_items) (num_parts : N) : res slice_items_parts :=
    if num_parts =? 0 then Panic else
    n ← strip_twos (N.size_nat num_parts) num_parts;
    if n =? 1 then Ok (SIP (si_ptr s) (si_len s) num_parts 0 0) else Panic.

  (** slice_items.rs:288-290 [len] *)
  Definition sip_len (it : slice_items_parts) : res N :=
    a ← usub (sip_num_parts it) (sip_front it); usub a (sip_back it).

  (** slice_items.rs:249-258: the loop of [as_raw_slice_parts] refining [start]. *)
  Fixpoint sip_refine_start (fuel : nat) (mask front : N) (start : ptr_or_idx) (len : N)
    : res ptr_or_idx :=
    if 0 <? mask then
      match fuel with
      | O => NoFuel
      | S fuel =>
          if N.land front mask =? 0
          then sip_refine_start fuel (shr1 mask) front start (shr1 len)
          else s ← poi_add start (shr1 len);
               sip_refine_start fuel (shr1 mask) front s (len - shr1 len)
      end
    else Ok start.
  (** slice_items.rs:262-271: the loop refining [end]. *)
  Fixpoint sip_refine_end (fuel : nat) (mask back : N) (end_ : ptr_or_idx) (len : N)
    : res ptr_or_idx :=
    if 0 <? mask then
      match fuel with
      | O => NoFuel
      | S fuel =>
          if N.land back mask =? 0
          then sip_refine_end fuel (shr1 mask) back end_ (len - shr1 len)
          else e ← poi_sub end_ (len - shr1 len);
               sip_refine_end fuel (shr1 mask) back e (shr1 len)
      end
    else Ok end_.

  (** slice_items.rs:243-278 [as_raw_slice_parts] (used by [as_slice],
      [as_mut_slice], lines 233-241). *)
  Definition sip_as_slice (it : slice_items_parts) : res (ptr * N) :=
    l ← sip_len it;
    if 0 <? l then
      let r := range_with_ptr_and_len (sip_ptr it) (sip_orig_len it) in
      let mask := shr1 (sip_num_parts it) in
      s ← sip_refine_start (N.size_nat mask) mask (sip_front it) (r_start r) (sip_orig_len it);
      e ← sip_refine_end (N.size_nat mask) mask (sip_back it) (r_end r) (sip_orig_len it);
      len ← range_len (PRange s e);
      Ok (poi_as_ptr s, len)
    else Ok (Ptr (p_blk (sip_ptr it)) dangling_addr (p_idx (sip_ptr it)), 0).

  (** slice_items.rs:303-315: the loop of [next]. *)
  Fixpoint sip_locate_front (fuel : nat) (mask front : N) (p : ptr) (len : N) : res (ptr * N) :=
    if 0 <? mask then
      match fuel with
      | O => NoFuel
      | S fuel =>
          if N.land front mask =? 0
          then sip_locate_front fuel (shr1 mask) front p (shr1 len)
          else sip_locate_front fuel (shr1 mask) front
                 (if sz =? 0 then ptr_stay p (shr1 len) else ptr_add sz p (shr1 len))
                 (len - shr1 len)
      end
    else Ok (p, len).
  (** slice_items.rs:335-348: the loop of [next_back]. *)
  Fixpoint sip_locate_back (fuel : nat) (mask back : N) (p : ptr) (len : N) : res (ptr * N) :=
    if 0 <? mask then
      match fuel with
      | O => NoFuel
      | S fuel =>
          if N.land back mask =? 0
          then sip_locate_back fuel (shr1 mask) back
                 (if sz =? 0 then ptr_stay p (shr1 len) else ptr_add sz p (shr1 len))
                 (len - shr1 len)
          else sip_locate_back fuel (shr1 mask) back p (shr1 len)
      end
    else Ok (p, len).

  (** slice_items.rs:296-320 [next] *)
  Definition sip_next (it : slice_items_parts) : res (slice_items_parts * option slice_items) :=
    l ← sip_len it;
    if 0 =? l then Ok (it, None) else
      let mask := shr1 (sip_num_parts it) in
      '(p, len) ← sip_locate_front (N.size_nat mask) mask (sip_front it) (sip_ptr it) (sip_orig_len it);
      f ← uadd (sip_front it) 1;
      Ok (SIP (sip_ptr it) (sip_orig_len it) (sip_num_parts it) f (sip_back it),
          Some (SliceItems p len)).
  (** slice_items.rs:327-353 [next_back] *)
  Definition sip_next_back (it : slice_items_parts) : res (slice_items_parts * option slice_items) :=
    l ← sip_len it;
    if 0 =? l then Ok (it, None) else
      let mask := shr1 (sip_num_parts it) in
      '(p, len) ← sip_locate_back (N.size_nat mask) mask (sip_back it) (sip_ptr it) (sip_orig_len it);
      b ← uadd (sip_back it) 1;
      Ok (SIP (sip_ptr it) (sip_orig_len it) (sip_num_parts it) (sip_front it) b,
          Some (SliceItems p len)).
End slice_items.
