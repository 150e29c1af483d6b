(** The single-threaded API: [RcSlice], [WeakSlice], [RcSliceParts]
    (src/rc/rc_slice.rs) and [RcSliceMut], [RcSliceMutIter], [RcSliceMutParts]
    (src/rc/rc_slice_mut.rs) as a state machine over a table of the caller's
    handles. *)
From Verif Require Import Base Api SliceItemsModel BinPartsModel DataModel.

(** ** Guards *)

(** rc_slice.rs:40-49 [struct IntoMutGuard]; weak references are identities. *)
Record img := Img {
  i_parent : option nat;   (* Option<Rc<Self>> *)
  i_left : option nat;     (* Weak<Self> *)
  i_right : option nat;    (* Weak<Self> *)
  i_gmg : nat              (* Rc<GetMutGuard> *)
}.
(** rc_slice.rs:51-67 [struct GetMutGuard], [GetMutGuardParentage],
    [GetMutGuardChildType] ([false] = Left, [true] = Right). *)
Record gmg := Gmg {
  g_parentage : option (nat * bool);   (* parent: Rc<GetMutGuard>, child_type *)
  g_left : option nat;                 (* Weak<Self> *)
  g_right : option nat;                (* Weak<Self> *)
  g_img : option nat                   (* Weak<IntoMutGuard> *)
}.
Record gworld := GW { gw_imgs : heap img; gw_gmgs : heap gmg }.

Definition i_child (side : bool) (n : img) : option nat := if side then i_right n else i_left n.
Definition i_set_child (side : bool) (c : option nat) (n : img) : img :=
  if side then Img (i_parent n) (i_left n) c (i_gmg n) else Img (i_parent n) c (i_right n) (i_gmg n).
Definition g_child (side : bool) (n : gmg) : option nat := if side then g_right n else g_left n.
Definition g_set_child (side : bool) (c : option nat) (n : gmg) : gmg :=
  if side then Gmg (g_parentage n) (g_left n) c (g_img n) else Gmg (g_parentage n) c (g_right n) (g_img n).
Definition g_set_img (c : option nat) (n : gmg) : gmg :=
  Gmg (g_parentage n) (g_left n) (g_right n) c.

(** rc_slice.rs:252-267 [IntoMutGuard::new] *)
Definition img_new (w : gworld) : res (gworld * nat) :=
  let '(gs, g) := rc_new (gw_gmgs w) (Gmg None None None None) in
  let '(is, i) := rc_new (gw_imgs w) (Img None None None g) in
  gs ← rc_set gs g (g_set_img (Some i));
  Ok (GW is gs, i).

(** rc_slice.rs:273-289, 329-330 [GetMutGuard::clone_left]/[clone_right] *)
Definition gmg_clone_child (w : gworld) (self : nat) (side : bool) : res (gworld * nat) :=
  n ← rc_val (gw_gmgs w) self;
  let '(gs, o) := rc_upgrade (gw_gmgs w) (g_child side n) in
  match o with
  | Some c => Ok (GW (gw_imgs w) gs, c)
  | None =>
      gs ← rc_inc gs self;  (* parent: self.clone() *)
      let '(gs, c) := rc_new gs (Gmg (Some (self, side)) None None None) in
      gs ← rc_set gs self (g_set_child side (Some c));
      Ok (GW (gw_imgs w) gs, c)
  end.

(** rc_slice.rs:229-249, 269-270 [IntoMutGuard::clone_left]/[clone_right] *)
Definition img_clone_child (w : gworld) (self : nat) (side : bool) : res (gworld * nat) :=
  n ← rc_val (gw_imgs w) self;
  let '(is, o) := rc_upgrade (gw_imgs w) (i_child side n) in
  match o with
  | Some c => Ok (GW is (gw_gmgs w), c)
  | None =>
      '(w, g) ← gmg_clone_child (GW is (gw_gmgs w)) (i_gmg n) side;
      is ← rc_inc (gw_imgs w) self;  (* _parent: Some(self.clone()) *)
      let '(is, c) := rc_new is (Img (Some self) None None g) in
      gs ← rc_set (gw_gmgs w) g (g_set_img (Some c));
      is ← rc_set is self (i_set_child side (Some c));
      Ok (GW is gs, c)
  end.

(** Dropping an [Rc<GetMutGuard>]; parents are released recursively. *)
Fixpoint gmg_release (fuel : nat) (w : gworld) (g : nat) : res gworld :=
  match fuel with
  | O => NoFuel
  | S fuel =>
      '(gs, r) ← rc_dec (gw_gmgs w) g;
      let w := GW (gw_imgs w) gs in
      match r with
      | None => Ok w
      | Some n => match g_parentage n with
                  | None => Ok w
                  | Some (p, _) => gmg_release fuel w p
                  end
      end
  end.
Definition gmg_drop (w : gworld) (g : nat) : res gworld :=
  gmg_release (S (length (gw_gmgs w))) w g.

(** Dropping an [Rc<IntoMutGuard>]: fields in order, [_parent] then [get_mut_guard]. *)
Fixpoint img_release (fuel : nat) (w : gworld) (i : nat) : res gworld :=
  match fuel with
  | O => NoFuel
  | S fuel =>
      '(is, r) ← rc_dec (gw_imgs w) i;
      let w := GW is (gw_gmgs w) in
      match r with
      | None => Ok w
      | Some n =>
          w ← match i_parent n with None => Ok w | Some p => img_release fuel w p end;
          gmg_drop w (i_gmg n)
      end
  end.
Definition img_drop (w : gworld) (i : nat) : res gworld :=
  img_release (S (length (gw_imgs w))) w i.

(** rc_slice.rs:301-327 [GetMutGuard::ensure_into_mut_guard]. The parent's
    [Rc<IntoMutGuard>] is a temporary that is dropped at the end. *)
Fixpoint gmg_ensure_img (fuel : nat) (w : gworld) (self : nat) : res (gworld * nat) :=
  match fuel with
  | O => NoFuel
  | S fuel =>
      n ← rc_val (gw_gmgs w) self;
      let '(is, o) := rc_upgrade (gw_imgs w) (g_img n) in
      match o with
      | Some i => Ok (GW is (gw_gmgs w), i)
      | None =>
          match g_parentage n with
          | Some (p, side) =>
              '(w, pi) ← gmg_ensure_img fuel w p;
              '(w, i) ← img_clone_child w pi side;
              w ← img_drop w pi;
              Ok (w, i)
          | None =>
              gs ← rc_inc (gw_gmgs w) self;  (* get_mut_guard: self.clone() *)
              let '(is, i) := rc_new (gw_imgs w) (Img None None None self) in
              gs ← rc_set gs self (g_set_img (Some i));
              Ok (GW is gs, i)
          end
      end
  end.
Definition gmg_ensure (w : gworld) (self : nat) : res (gworld * nat) :=
  gmg_ensure_img (S (length (gw_gmgs w))) w self.

(** ** Handles *)

(** A shared slice: rc_slice.rs:71-76 [struct RcSlice]. *)
Record rcslice := RcS { rs_data : nat; rs_img : nat }.
(** rc_slice_mut.rs:24-32 [struct RcSliceMut] *)
Record mutslice := MutS { ms_items : slice_items; ms_alloc : option nat }.
(** rc_slice_mut.rs:34-38 [struct RcSliceMutIter] *)
Record mutiter := MutI { mi_iter : slice_items_iter; mi_alloc : option nat }.
(** rc_slice_mut.rs:40-44 [struct RcSliceMutParts] *)
Record mutparts := MutP { mp_iter : slice_items_parts; mp_alloc : option nat }.

(** What a variable of the caller holds. *)
Inductive handle :=
| HRc (s : rcslice)
| HWeak (d : option nat) (g : nat)      (* rc_slice.rs:80-85 [struct WeakSlice] *)
| HParts (it : bpi rcslice)             (* rc_slice.rs:88-90 [struct RcSliceParts] *)
| HMut (m : mutslice)
| HIter (m : mutiter)
| HMParts (m : mutparts).

(** The whole state: data layer, guards, the caller's variables ([None]: moved
    out or dropped). *)
Record world (V : Type) := W { w_d : dworld V; w_g : gworld; w_h : list (option handle) }.
Arguments W {_} _ _ _.
Arguments w_d {_} _.
Arguments w_g {_} _.
Arguments w_h {_} _.

Definition empty_world {V} : world V := W (DW [] [] [] ∅ []) (GW [] []) [].

Section rc.
  Context {V : Type} (sz : N).
  (** [T::clone], used by [RcSliceMut::clone] only. *)
  Context (vclone : V -> V).
  (** Capacity policy of [VecDeque] and whether debug assertions are compiled
      in (BinPartsModel.v). *)
  Context (capf growf : N -> N) (dbg : bool).
  Notation world := (world V).
  Notation dworld := (dworld V).
  (** Working state of a call: data layer and guards. *)
  Notation dg := (dworld * gworld)%type.

  (** *** RcSlice *)

  (** rc_slice.rs:334-336 [from_unique_data] *)
  Definition rcs_from_unique_data (s : dg) (d : nat) : res (dg * rcslice) :=
    '(g, i) ← img_new (snd s); Ok ((fst s, g), RcS d i).

  (** rc_slice.rs:338-344 [from_boxed_slice]/[from_vec] *)
  Definition rcs_from_boxed_slice (s : dg) (base : N) (vals : list V) : res (dg * rcslice) :=
    let '(d, p, len) := new_block (fst s) base vals in
    let '(d, n) := data_from_boxed_slice d p len in
    rcs_from_unique_data (d, snd s) n.

  (** rc_slice.rs:430-437 [Clone for RcSlice] *)
  Definition rcs_clone (s : dg) (r : rcslice) : res (dg * rcslice) :=
    h ← rc_inc (dw_datas (fst s)) (rs_data r);
    is ← rc_inc (gw_imgs (snd s)) (rs_img r);
    Ok ((dw_set_datas (fst s) h, GW is (gw_gmgs (snd s))), r).

  (** Dropping an [RcSlice]: field [data], then [into_mut_guard]. *)
  Definition rcs_drop (s : dg) (r : rcslice) : res dg :=
    d ← data_drop sz (fst s) (rs_data r);
    g ← img_drop (snd s) (rs_img r);
    Ok (d, g).

  (** rc_slice.rs:346-354 [clone_left] *)
  Definition rcs_clone_left (s : dg) (r : rcslice) : res (dg * rcslice) :=
    n ← rc_val (dw_datas (fst s)) (rs_data r);
    if (d_len n =? 0)%N then rcs_clone s r else
    '(d, c) ← data_clone_left (fst s) (rs_data r);
    '(g, i) ← img_clone_child (snd s) (rs_img r) false;
    Ok ((d, g), RcS c i).
  (** rc_slice.rs:356-364 [clone_right] *)
  Definition rcs_clone_right (s : dg) (r : rcslice) : res (dg * rcslice) :=
    n ← rc_val (dw_datas (fst s)) (rs_data r);
    if (d_len n <=? 1)%N then rcs_clone s r else
    '(d, c) ← data_clone_right sz (fst s) (rs_data r);
    '(g, i) ← img_clone_child (snd s) (rs_img r) true;
    Ok ((d, g), RcS c i).

  (** rc_slice.rs:366-371 [split_off_left]: (what [this] becomes, returned);
      the assignment [*this = right] drops the old value. *)
  Definition rcs_split_off_left (s : dg) (r : rcslice) : res (dg * (rcslice * rcslice)) :=
    '(s, l) ← rcs_clone_left s r;
    '(s, rt) ← rcs_clone_right s r;
    s ← rcs_drop s r;
    Ok (s, (rt, l)).
  (** rc_slice.rs:373-378 [split_off_right]: (what [this] becomes, returned). *)
  Definition rcs_split_off_right (s : dg) (r : rcslice) : res (dg * (rcslice * rcslice)) :=
    '(s, l) ← rcs_clone_left s r;
    '(s, rt) ← rcs_clone_right s r;
    s ← rcs_drop s r;
    Ok (s, (l, rt)).

  (** rc_slice.rs:384-403 [get_mut]: the pointer and length of the slice, or [None]. *)
  Definition rcs_get_mut (s : dg) (r : rcslice) : res (option (ptr * N)) :=
    n ← rc_val (dw_datas (fst s)) (rs_data r);
    i ← rc_val (gw_imgs (snd s)) (rs_img r);
    if (rc_count (dw_datas (fst s)) (rs_data r) =? 1)%nat
       && (rc_count (gw_gmgs (snd s)) (i_gmg i) =? 1)%nat
    then Ok (Some (d_ptr n, d_len n))
    else Ok None.

  (** rc_slice.rs:405-419 [into_mut]: [inl] models [Ok], [inr] models [Err]. In
      the [Ok] case the guard captured by the [map_err] closure is dropped last. *)
  Definition rcs_into_mut (s : dg) (r : rcslice) : res (dg * (mutslice + rcslice)) :=
    if (rc_count (gw_imgs (snd s)) (rs_img r) =? 1)%nat then
      '(h, o) ← rc_try_unwrap (dw_datas (fst s)) (rs_data r);
      match o with
      | Some n =>
          '(d, (it, al)) ← data_into_mut sz (dw_set_datas (fst s) h) n;
          g ← img_drop (snd s) (rs_img r);
          Ok ((d, g), inl (MutS it al))
      | None => Ok ((dw_set_datas (fst s) h, snd s), inr r)
      end
    else Ok (s, inr r).

  (** rc_slice.rs:421-423 [downgrade] *)
  Definition rcs_downgrade (s : dg) (r : rcslice) : res (dg * (option nat * nat)) :=
    _ ← rc_val (dw_datas (fst s)) (rs_data r);
    i ← rc_val (gw_imgs (snd s)) (rs_img r);
    gs ← rc_inc (gw_gmgs (snd s)) (i_gmg i);
    Ok ((fst s, GW (gw_imgs (snd s)) gs), (Some (rs_data r), i_gmg i)).

  (** rc_slice.rs:474-476 [WeakSlice::new] *)
  Definition weak_new (s : dg) : dg * (option nat * nat) :=
    let '(gs, g) := rc_new (gw_gmgs (snd s)) (Gmg None None None None) in
    ((fst s, GW (gw_imgs (snd s)) gs), (None, g)).
  (** rc_slice.rs:478-502 [WeakSlice::upgrade] *)
  Definition weak_upgrade (s : dg) (d : option nat) (g : nat) : res (dg * option rcslice) :=
    let '(h, o) := rc_upgrade (dw_datas (fst s)) d in
    match o with
    | None => Ok (s, None)
    | Some d => '(gw, i) ← gmg_ensure (snd s) g;
                Ok ((dw_set_datas (fst s) h, gw), Some (RcS d i))
    end.
  (** rc_slice.rs:505-512 [Clone for WeakSlice] *)
  Definition weak_clone (s : dg) (g : nat) : res dg :=
    gs ← rc_inc (gw_gmgs (snd s)) g; Ok (fst s, GW (gw_imgs (snd s)) gs).
  (** Dropping a [WeakSlice] *)
  Definition weak_drop (s : dg) (g : nat) : res dg :=
    gw ← gmg_drop (snd s) g; Ok (fst s, gw).

  (** rc_slice.rs:439-445, 221-227 [Deref]: pointer and length. *)
  Definition rcs_slice (s : dg) (r : rcslice) : res (ptr * N) :=
    n ← rc_val (dw_datas (fst s)) (rs_data r); Ok (d_ptr n, d_len n).

  (** *** RcSliceParts: the generic iterator at [RcSlice]. *)
  (** rc_slice.rs:545 [next], 552 [next_back] *)
  Definition parts_next := @bpi_next rcslice dg rcs_split_off_left growf dbg.
  Definition parts_next_back := @bpi_next_back rcslice dg rcs_split_off_right growf dbg.
  (** Dropping the deque: front to back. *)
  Fixpoint rcs_drop_all (s : dg) (l : list rcslice) : res dg :=
    match l with [] => Ok s | r :: l => s ← rcs_drop s r; rcs_drop_all s l end.
  (** rc_slice.rs:531-533 [as_slice] *)
  Fixpoint rcs_slices (s : dg) (l : list rcslice) : res (list (ptr * N)) :=
    match l with
    | [] => Ok []
    | r :: l => x ← rcs_slice s r; xs ← rcs_slices s l; Ok (x :: xs)
    end.
  Definition parts_as_slice (s : dg) (it : bpi rcslice) : res (ptr * N) :=
    xs ← rcs_slices s (dq_items (bp_deque it));
    bpi_as_slice sz id (BPI (bp_num_parts it) (bp_front it) (bp_back it)
                            (Deque xs (dq_cap (bp_deque it)))).

  (** *** RcSliceMut *)

  (** rc_slice_mut.rs:47-54 [from_boxed_slice]/[from_vec] *)
  Definition mut_from_boxed_slice (s : dg) (base : N) (vals : list V) : dg * mutslice :=
    let '(d, p, len) := new_block (fst s) base vals in
    let '(d, it, al) := split_alloc_from_items sz d p len in
    ((d, snd s), MutS it al).
  (** Dropping an [RcSliceMut]: field [items] (slice_items.rs:89-97), then [alloc]. *)
  Definition items_alloc_drop (d : dworld) (p : ptr) (len : N) (al : option nat) : res dworld :=
    d ← drop_in_place sz d (N.to_nat len) p; alloc_release sz d al.
  Definition mut_drop (d : dworld) (m : mutslice) : res dworld :=
    items_alloc_drop d (si_ptr (ms_items m)) (si_len (ms_items m)) (ms_alloc m).
  (** rc_slice_mut.rs:78-82 [split_off_left], 84-88 [split_off_right]:
      (what [this] becomes, returned). *)
  Definition mut_split_off (side : bool) (d : dworld) (m : mutslice) : res (dworld * (mutslice * mutslice)) :=
    let '(self, new) := if side then si_split_off_right sz (ms_items m) else si_split_off_left sz (ms_items m) in
    let alloc := if (0 <? si_len new)%N then ms_alloc m else None in
    d ← alloc_clone d alloc;
    Ok (d, (MutS self (ms_alloc m), MutS new alloc)).
  (** rc_slice_mut.rs:96-101 [into_immut] *)
  Definition mut_into_immut (s : dg) (m : mutslice) : res (dg * rcslice) :=
    let '(d, n) := data_new (fst s) (si_ptr (ms_items m)) (si_len (ms_items m)) (ms_alloc m) in
    rcs_from_unique_data (d, snd s) n.
  (** rc_slice_mut.rs:138-146 [Clone for RcSliceMut]: collect clones of the
      items into a new vector ([from_iter_via_vec!], macros/iter.rs:1-9). *)
  Definition mut_clone (s : dg) (m : mutslice) (base : N) : res (dg * mutslice) :=
    vs ← mem_read sz (fst s) (N.to_nat (si_len (ms_items m))) (si_ptr (ms_items m));
    Ok (mut_from_boxed_slice s base (vclone <$> vs)).

  (** *** RcSliceMutIter *)

  (** rc_slice_mut.rs:153-156 [into_iter] *)
  Definition mut_into_iter (m : mutslice) : mutiter := MutI (sit_new sz (ms_items m)) (ms_alloc m).
  (** rc_slice_mut.rs:211-216 [next], 223-228 [next_back] *)
  Definition iter_next (back : bool) (d : dworld) (m : mutiter) : res (dworld * mutiter * option V) :=
    '(it, o) ← (if back then sit_next_back sz (mi_iter m) else sit_next sz (mi_iter m));
    '(d, item) ← match o with
                 | None => Ok (d, None)
                 | Some p => '(d, v) ← mem_take sz d p; Ok (d, Some v)
                 end;
    l ← sit_len sz it;
    if (l =? 0)%N then d ← alloc_release sz d (mi_alloc m); Ok (d, MutI it None, item)
    else Ok (d, MutI it (mi_alloc m), item).
  (** rc_slice_mut.rs:178-188 [split_off_from], 190-200 [split_off_to]:
      (what [self] becomes, returned). *)
  Definition iter_split_off (to : bool) (d : dworld) (m : mutiter) (at_ : N)
    : res (dworld * (mutiter * mutiter)) :=
    '(self, split) ← (if to then sit_split_off_to sz (mi_iter m) at_
                      else sit_split_off_from sz (mi_iter m) at_);
    l ← sit_len sz self;
    if (l =? 0)%N then Ok (d, (MutI self None, MutI split (mi_alloc m)))
    else
      l' ← sit_len sz split;
      if (0 <? l')%N then d ← alloc_clone d (mi_alloc m); Ok (d, (MutI self (mi_alloc m), MutI split (mi_alloc m)))
      else Ok (d, (MutI self (mi_alloc m), MutI split None)).
  (** Dropping an [RcSliceMutIter]: slice_items.rs:207-212, then [alloc]. *)
  Definition iter_drop (d : dworld) (m : mutiter) : res dworld :=
    '(p, len) ← sit_as_slice sz (mi_iter m);
    items_alloc_drop d p len (mi_alloc m).

  (** *** RcSliceMutParts *)

  (** rc_slice_mut.rs:90-94 [split_into_parts] *)
  Definition mut_split_into_parts (m : mutslice) (num_parts : N) : res mutparts :=
    it ← sip_new (ms_items m) num_parts; Ok (MutP it (ms_alloc m)).
  (** rc_slice_mut.rs:250-261 [next], 268-279 [next_back] *)
  Definition mparts_next (back : bool) (d : dworld) (m : mutparts) : res (dworld * mutparts * option mutslice) :=
    '(it, o) ← (if back then sip_next_back sz (mp_iter m) else sip_next sz (mp_iter m));
    match o with
    | None => Ok (d, MutP it (mp_alloc m), None)
    | Some items =>
        '(_, l) ← sip_as_slice sz it;
        if (l =? 0)%N then Ok (d, MutP it None, Some (MutS items (mp_alloc m)))
        else if (0 <? si_len items)%N
             then d ← alloc_clone d (mp_alloc m);
                  Ok (d, MutP it (mp_alloc m), Some (MutS items (mp_alloc m)))
             else Ok (d, MutP it (mp_alloc m), Some (MutS items None))
    end.
  (** Dropping an [RcSliceMutParts]: slice_items.rs:358-362, then [alloc]. *)
  Definition mparts_drop (d : dworld) (m : mutparts) : res dworld :=
    '(p, len) ← sip_as_slice sz (mp_iter m);
    items_alloc_drop d p len (mp_alloc m).

  (** ** The state machine *)

  (** Variable [h]. *)
  Definition get_h (w : world) (h : nat) : option handle :=
    match w_h w !! h with Some (Some x) => Some x | _ => None end.
  (** Store a new value in a fresh variable. *)
  Definition ret_new (s : dg) (hs : list (option handle)) (x : handle) : res (world * out V) :=
    Ok (W (fst s) (snd s) (hs ++ [Some x]), RHandle (length hs)).
  Definition ret (s : dg) (hs : list (option handle)) (o : out V) : res (world * out V) :=
    Ok (W (fst s) (snd s) hs, o).
  (** A slice as seen by the caller. *)
  Definition ret_slice (s : dg) (hs : list (option handle)) (p : ptr) (len : N) : res (world * out V) :=
    vs ← mem_read sz (fst s) (N.to_nat len) p;
    ret s hs (RSlice (if ((len =? 0) || (sz =? 0))%N then None else Some (p_addr p)) vs).
  (** [mem::replace(&mut slice[i], v)], which panics if out of bounds. *)
  Definition ret_replace (s : dg) (hs : list (option handle)) (p : ptr) (len i : N) (v : V)
    : res (world * out V) :=
    if (i <? len)%N then
      '(d, old) ← mem_replace sz (fst s) (ptr_add sz p i) v;
      ret (d, snd s) hs (RVal old)
    else ret s hs RPanic.

  (** Dropping any value. *)
  Definition handle_drop (s : dg) (x : handle) : res dg :=
    match x with
    | HRc r => rcs_drop s r
    | HWeak _ g => weak_drop s g
    | HParts it => rcs_drop_all s (dq_items (bp_deque it))
    | HMut m => d ← mut_drop (fst s) m; Ok (d, snd s)
    | HIter m => d ← iter_drop (fst s) m; Ok (d, snd s)
    | HMParts m => d ← mparts_drop (fst s) m; Ok (d, snd s)
    end.

  (** One call. Calls on variables that do not hold a value of the right type
      (which Rust's type checker rejects), vectors longer than [usize::MAX] and
      part counts that do not fit [usize] are [RInvalid]. A panic that unwinds
      out of [split_into_parts] releases the slice it consumed. *)
  Definition step (w : world) (o : op V) : res (world * out V) :=
    let s := (w_d w, w_g w) in
    let hs := w_h w in
    match o with
    | OFromVec base vals =>
        if (N.of_nat (length vals) <? usize_lim)%N then
          '(s, r) ← rcs_from_boxed_slice s base vals; ret_new s hs (HRc r)
        else ret s hs RInvalid
    | OMutFromVec base vals =>
        if (N.of_nat (length vals) <? usize_lim)%N then
          let '(s, m) := mut_from_boxed_slice s base vals in ret_new s hs (HMut m)
        else ret s hs RInvalid
    | OWeakNew => let '(s, (d, g)) := weak_new s in ret_new s hs (HWeak d g)
    | OClone h =>
        match get_h w h with
        | Some (HRc r) => '(s, r') ← rcs_clone s r; ret_new s hs (HRc r')
        | Some (HWeak d g) => s ← weak_clone s g; ret_new s hs (HWeak d g)
        | Some (HParts it) => '(s, it') ← bpi_clone rcs_clone capf s it; ret_new s hs (HParts it')
        | _ => ret s hs RInvalid
        end
    | OMutClone h base =>
        match get_h w h with
        | Some (HMut m) => '(s, m') ← mut_clone s m base; ret_new s hs (HMut m')
        | _ => ret s hs RInvalid
        end
    | OCloneHalf side h =>
        match get_h w h with
        | Some (HRc r) => '(s, r') ← (if side then rcs_clone_right s r else rcs_clone_left s r);
                          ret_new s hs (HRc r')
        | _ => ret s hs RInvalid
        end
    | OSplitOff side h =>
        match get_h w h with
        | Some (HRc r) => '(s, (r1, r2)) ← (if side then rcs_split_off_right s r else rcs_split_off_left s r);
                          ret_new s (<[h := Some (HRc r1)]> hs) (HRc r2)
        | Some (HMut m) => '(d, (m1, m2)) ← mut_split_off side (fst s) m;
                           ret_new (d, snd s) (<[h := Some (HMut m1)]> hs) (HMut m2)
        | _ => ret s hs RInvalid
        end
    | OSplitIntoParts h n =>
        if negb (n <? usize_lim)%N then ret s hs RInvalid else
        match get_h w h with
        | Some (HRc r) =>
            match bpi_new capf growf r n with
            | Ok it => ret_new s (<[h := None]> hs) (HParts it)
            | Panic => s ← rcs_drop s r; ret s (<[h := None]> hs) RPanic
            | UB => UB
            | NoFuel => NoFuel
            end
        | Some (HMut m) =>
            match mut_split_into_parts m n with
            | Ok it => ret_new s (<[h := None]> hs) (HMParts it)
            | Panic => d ← mut_drop (fst s) m; ret (d, snd s) (<[h := None]> hs) RPanic
            | UB => UB
            | NoFuel => NoFuel
            end
        | _ => ret s hs RInvalid
        end
    | OGetMut h =>
        match get_h w h with
        | Some (HRc r) =>
            o ← rcs_get_mut s r;
            match o with
            | Some (p, len) => ret_slice s hs p len
            | None => ret s hs RNone
            end
        | _ => ret s hs RInvalid
        end
    | OGetMutReplace h i v =>
        match get_h w h with
        | Some (HRc r) =>
            o ← rcs_get_mut s r;
            match o with
            | Some (p, len) => ret_replace s hs p len i v
            | None => ret s hs RNone
            end
        | _ => ret s hs RInvalid
        end
    | OIntoMut h =>
        match get_h w h with
        | Some (HRc r) =>
            '(s, o) ← rcs_into_mut s r;
            match o with
            | inl m => ret_new s (<[h := None]> hs) (HMut m)
            | inr r => ret s (<[h := Some (HRc r)]> hs) RErr
            end
        | _ => ret s hs RInvalid
        end
    | OIntoImmut h =>
        match get_h w h with
        | Some (HMut m) => '(s, r) ← mut_into_immut s m; ret_new s (<[h := None]> hs) (HRc r)
        | _ => ret s hs RInvalid
        end
    | ODowngrade h =>
        match get_h w h with
        | Some (HRc r) => '(s, (d, g)) ← rcs_downgrade s r; ret_new s hs (HWeak d g)
        | _ => ret s hs RInvalid
        end
    | OUpgrade h =>
        match get_h w h with
        | Some (HWeak d g) =>
            '(s, o) ← weak_upgrade s d g;
            match o with
            | Some r => ret_new s hs (HRc r)
            | None => ret s hs RNone
            end
        | _ => ret s hs RInvalid
        end
    | ODrop h =>
        match get_h w h with
        | Some x => s ← handle_drop s x; ret s (<[h := None]> hs) RUnit
        | None => ret s hs RInvalid
        end
    | ODeref h =>
        match get_h w h with
        | Some (HRc r) => '(p, len) ← rcs_slice s r; ret_slice s hs p len
        | Some (HParts it) => '(p, len) ← parts_as_slice s it; ret_slice s hs p len
        | Some (HMut m) => ret_slice s hs (si_ptr (ms_items m)) (si_len (ms_items m))
        | Some (HIter m) => '(p, len) ← sit_as_slice sz (mi_iter m); ret_slice s hs p len
        | Some (HMParts m) => '(p, len) ← sip_as_slice sz (mp_iter m); ret_slice s hs p len
        | _ => ret s hs RInvalid
        end
    | OReplace h i v =>
        match get_h w h with
        | Some (HMut m) => ret_replace s hs (si_ptr (ms_items m)) (si_len (ms_items m)) i v
        | Some (HIter m) => '(p, len) ← sit_as_slice sz (mi_iter m); ret_replace s hs p len i v
        | Some (HMParts m) => '(p, len) ← sip_as_slice sz (mp_iter m); ret_replace s hs p len i v
        | _ => ret s hs RInvalid
        end
    | OIntoIter h =>
        match get_h w h with
        | Some (HMut m) => ret_new s (<[h := None]> hs) (HIter (mut_into_iter m))
        | _ => ret s hs RInvalid
        end
    | ONext back h =>
        match get_h w h with
        | Some (HIter m) =>
            '(d, m', o) ← iter_next back (fst s) m;
            ret (d, snd s) (<[h := Some (HIter m')]> hs)
                (match o with Some v => RVal v | None => RNone end)
        | Some (HMParts m) =>
            '(d, m', o) ← mparts_next back (fst s) m;
            match o with
            | Some x => ret_new (d, snd s) (<[h := Some (HMParts m')]> hs) (HMut x)
            | None => ret (d, snd s) (<[h := Some (HMParts m')]> hs) RNone
            end
        | Some (HParts it) =>
            '(s, it', o) ← (if back then parts_next_back s it else parts_next s it);
            match o with
            | Some x => ret_new s (<[h := Some (HParts it')]> hs) (HRc x)
            | None => ret s (<[h := Some (HParts it')]> hs) RNone
            end
        | _ => ret s hs RInvalid
        end
    | OSplitAt to h i =>
        match get_h w h with
        | Some (HIter m) =>
            match iter_split_off to (fst s) m i with
            | Ok (d, (m1, m2)) => ret_new (d, snd s) (<[h := Some (HIter m1)]> hs) (HIter m2)
            | Panic => ret s hs RPanic
            | UB => UB
            | NoFuel => NoFuel
            end
        | _ => ret s hs RInvalid
        end
    | OLen h =>
        match get_h w h with
        | Some (HIter m) => l ← sit_len sz (mi_iter m); ret s hs (RLen l)
        | Some (HMParts m) => l ← sip_len (mp_iter m); ret s hs (RLen l)
        | Some (HParts it) => l ← bpi_len it; ret s hs (RLen l)
        | _ => ret s hs RInvalid
        end
    end.

  (** A history: run calls one after the other, collecting what they return. *)
  Fixpoint run (w : world) (ops : list (op V)) : res (world * list (out V)) :=
    match ops with
    | [] => Ok (w, [])
    | o :: ops => '(w, r) ← step w o; '(w, rs) ← run w ops; Ok (w, r :: rs)
    end.
End rc.
