(** The trait impls of src/internal/macros, which the slices and iterators of
    crate::rc and crate::arc share (rc_slice.rs:465-469, 546-547, 564,
    rc_slice_mut.rs:159-164, 218-219, 233, 263-264, 284 and the same lines of
    crate::arc), on top of the calls modelled in RcModel.v and ArcModel.v. *)
From stdpp Require Import pretty.
From Verif Require Import Base Api SliceItemsModel BinPartsModel DataModel RcModel ArcModel.
Local Open Scope nat_scope.

(** ** What [core] does with slices *)
Section core.
  Context {V H : Type}.
  (** [impl PartialEq for [T]]: different lengths, or the first pair that differs. *)
  Definition slice_eq (eq : V -> V -> bool) (l l' : list V) : bool :=
    (length l =? length l') && forallb (fun p => eq p.1 p.2) (zip l l').
  (** [impl PartialOrd for [T]]: the first pair of items that is not [Some(Equal)]
      decides, then the lengths. [impl Ord for [T]] is the same loop without [Some]. *)
  Fixpoint first_diff (cmp : V -> V -> option comparison) (z : list (V * V)) : option comparison :=
    match z with
    | [] => Some Eq
    | (x, y) :: z => match cmp x y with Some Eq => first_diff cmp z | r => r end
    end.
  Definition slice_partial_cmp (cmp : V -> V -> option comparison) (l l' : list V) : option comparison :=
    match first_diff cmp (zip l l') with
    | Some Eq => Some (length l ?= length l')
    | r => r
    end.
  Fixpoint first_diff_ord (cmp : V -> V -> comparison) (z : list (V * V)) : comparison :=
    match z with
    | [] => Eq
    | (x, y) :: z => match cmp x y with Eq => first_diff_ord cmp z | r => r end
    end.
  Definition slice_cmp (cmp : V -> V -> comparison) (l l' : list V) : comparison :=
    match first_diff_ord cmp (zip l l') with
    | Eq => length l ?= length l'
    | r => r
    end.
  (** [impl Hash for [T]]: writes the length, then each item. What is written to the
      [Hasher] is a list; [H] is what an item writes. *)
  Inductive hword := WLen (n : nat) | WItem (w : H).
  Definition slice_hash (hash : V -> list H) (l : list V) : list hword :=
    WLen (length l) :: (l ≫= fun v => WItem <$> hash v).
  (** [impl Debug for [T]], that is [debug_list], as with [{:?}] *)
  Fixpoint commas (l : list string) : string :=
    match l with
    | [] => ""
    | [x] => x
    | x :: l => x +:+ ", " +:+ commas l
    end.
  Definition slice_debug (dbg : V -> string) (l : list V) : string :=
    "[" +:+ commas (dbg <$> l) +:+ "]".
End core.
Arguments hword _ : clear implicits.

(** ** The impls *)
(** The five types with such impls, for both crates. *)
Inductive ty := TySlice | TyMut | TyIter | TyParts | TyMParts.
Inductive top :=
| TAsRef (h : nat)                      (* AsRef, Borrow, AsMut, BorrowMut *)
| TEq (h h' : nat) | TNe (h h' : nat)   (* PartialEq *)
| TPartialCmp (h h' : nat)              (* PartialOrd *)
| TCmp (h h' : nat)                     (* Ord *)
| THash (h : nat)                       (* Hash *)
| TDebug (h : nat)                      (* Debug *)
| TSizeHint (h : nat) | TCount (h : nat). (* Iterator *)
Inductive tout (V H : Type) :=
| TInvalid                              (* not a well-typed call *)
| TRef (l : list V)
| TBool (b : bool)
| TPartialOrdering (c : option comparison)
| TOrdering (c : comparison)
| TWrites (l : list (hword H))
| TText (t : string)
| THint (lo : N) (hi : option N)
| TNumber (n : N).
Arguments TInvalid {_ _}.
Arguments TRef {_ _} _.
Arguments TBool {_ _} _.
Arguments TPartialOrdering {_ _} _.
Arguments TOrdering {_ _} _.
Arguments TWrites {_ _} _.
Arguments TText {_ _} _.
Arguments THint {_ _} _ _.
Arguments TNumber {_ _} _.

(** The impls the item type has. Simplified: [PartialEq<B>] for [A] is modelled
    with one type of items. *)
Record itraits (V H : Type) := ITraits {
  it_eq : V -> V -> bool;
  it_partial_cmp : V -> V -> option comparison;
  it_cmp : V -> V -> comparison;
  it_hash : V -> list H;
  it_debug : V -> string
}.
Arguments it_eq {_ _} _ _ _.
Arguments it_partial_cmp {_ _} _ _ _.
Arguments it_cmp {_ _} _ _ _.
Arguments it_hash {_ _} _ _.
Arguments it_debug {_ _} _ _.

Section impls.
  Context {W V H : Type} (call : W -> op V -> res (W * out V)) (type_of : W -> nat -> option ty)
    (name : ty -> string) (it : itraits V H).
  (** [Deref::deref], or [as_slice] *)
  Definition deref (w : W) (h : nat) : res (W * option (list V)) :=
    '(w, r) ← call w (ODeref h);
    Ok (w, match r with RSlice _ l => Some l | _ => None end).
  (** [ExactSizeIterator::len] *)
  Definition exact_len (w : W) (h : nat) : res (W * option N) :=
    '(w, r) ← call w (OLen h);
    Ok (w, match r with RLen n => Some n | _ => None end).
  Definition one (w : W) (h : nat) (f : list V -> tout V H) : res (W * tout V H) :=
    '(w, o) ← deref w h;
    Ok (w, match o with Some l => f l | None => TInvalid end).
  Definition two (w : W) (h h' : nat) (f : list V -> list V -> tout V H) : res (W * tout V H) :=
    '(w, o) ← deref w h;
    '(w, o') ← deref w h';
    Ok (w, match o, o' with Some l, Some l' => f l l' | _, _ => TInvalid end).
  Definition is_slice (t : option ty) : bool := match t with Some TySlice | Some TyMut => true | _ => false end.
  (** Two [RcSlice]s or two [RcSliceMut]s. *)
  Definition comparable (w : W) (h h' : nat) : bool :=
    match type_of w h, type_of w h' with
    | Some TySlice, Some TySlice | Some TyMut, Some TyMut => true
    | _, _ => false
    end.
  Definition is_iterator (t : option ty) : bool :=
    match t with Some TyIter | Some TyParts | Some TyMParts => true | _ => false end.

  Definition tstep (w : W) (o : top) : res (W * tout V H) :=
    match o with
    (* borrow.rs:3-6, 8-11, 17-20, 22-25 *)
    | TAsRef h => if is_slice (type_of w h) then one w h TRef else Ok (w, TInvalid)
    (* cmp.rs:3-8 *)
    | TEq h h' => if comparable w h h' then two w h h' (fun l l' => TBool (slice_eq (it_eq it) l l')) else Ok (w, TInvalid)
    | TNe h h' => if comparable w h h' then two w h h' (fun l l' => TBool (negb (slice_eq (it_eq it) l l'))) else Ok (w, TInvalid)
    (* cmp.rs:12-16 *)
    | TPartialCmp h h' => if comparable w h h' then two w h h' (fun l l' => TPartialOrdering (slice_partial_cmp (it_partial_cmp it) l l')) else Ok (w, TInvalid)
    (* cmp.rs:18-22 *)
    | TCmp h h' => if comparable w h h' then two w h h' (fun l l' => TOrdering (slice_cmp (it_cmp it) l l')) else Ok (w, TInvalid)
    (* hash.rs:3-7 *)
    | THash h => if is_slice (type_of w h) then one w h (fun l => TWrites (slice_hash (it_hash it) l)) else Ok (w, TInvalid)
    | TDebug h =>
        match type_of w h with
        (* fmt.rs:3-7 *)
        | Some TySlice | Some TyMut => one w h (fun l => TText (slice_debug (it_debug it) l))
        (* fmt.rs:13-19 *)
        | Some TyIter => one w h (fun l => TText (name TyIter +:+ "(" +:+ slice_debug (it_debug it) l +:+ ")"))
        (* fmt.rs:25-32 *)
        | Some t =>
            '(w, o) ← exact_len w h;
            match o with
            | Some n => one w h (fun l => TText (name t +:+ " { remaining_parts: " +:+ pretty n +:+
                ", remaining_items: " +:+ slice_debug (it_debug it) l +:+ " }"))
            | None => Ok (w, TInvalid)
            end
        | None => Ok (w, TInvalid)
        end
    (* iter.rs:13-16 *)
    | TSizeHint h =>
        if is_iterator (type_of w h) then
          '(w, o) ← exact_len w h;
          '(w, o') ← exact_len w h;
          Ok (w, match o, o' with Some n, Some n' => THint n (Some n') | _, _ => TInvalid end)
        else Ok (w, TInvalid)
    (* iter.rs:21-24: takes the iterator, which is dropped at the end *)
    | TCount h =>
        if is_iterator (type_of w h) then
          '(w, o) ← exact_len w h;
          '(w, _) ← call w (ODrop h);
          Ok (w, match o with Some n => TNumber n | None => TInvalid end)
        else Ok (w, TInvalid)
    end.
  (** iter.rs:4-6 [FromIterator]: [next] is called until it returns [None], the
      items collected into a [Vec] whose buffer is at [base], and that is made
      into a slice. An iterator that never ends runs out of [fuel]. *)
  Fixpoint gather {I} (next : I -> option (V * I)) (fuel : nat) (i : I) : res (list V) :=
    match fuel with
    | 0 => NoFuel
    | S fuel => match next i with
                | None => Ok []
                | Some (v, i) => l ← gather next fuel i; Ok (v :: l)
                end
    end.
  Definition from_iter {I} (mutable : bool) (base : N) (next : I -> option (V * I)) (fuel : nat) (w : W) (i : I) : res (W * out V) :=
    l ← gather next fuel i; call w (if mutable then OMutFromVec base l else OFromVec base l).
End impls.

(** The types in the states of RcModel.v and ArcModel.v *)
Definition rc_type {V} (w : world V) (h : nat) : option ty :=
  match get_h w h with
  | Some (HRc _) => Some TySlice
  | Some (HMut _) => Some TyMut
  | Some (HIter _) => Some TyIter
  | Some (HParts _) => Some TyParts
  | Some (HMParts _) => Some TyMParts
  | Some (HWeak _ _) | None => None
  end.
Definition arc_type {V} (w : aworld V) (h : nat) : option ty :=
  match xget w h with
  | Some (XArc _) => Some TySlice
  | Some (XMut _) => Some TyMut
  | Some (XIter _) => Some TyIter
  | Some (XParts _) => Some TyParts
  | Some (XMParts _) => Some TyMParts
  | Some (XWeak _ _) | None => None
  end.
(** [stringify!($struct)] *)
Definition rc_name (t : ty) : string :=
  match t with
  | TySlice => "RcSlice" | TyMut => "RcSliceMut" | TyIter => "RcSliceMutIter" | TyParts => "RcSliceParts" | TyMParts => "RcSliceMutParts"
  end.
Definition arc_name (t : ty) : string :=
  match t with
  | TySlice => "ArcSlice" | TyMut => "ArcSliceMut" | TyIter => "ArcSliceMutIter" | TyParts => "ArcSliceParts" | TyMParts => "ArcSliceMutParts"
  end.
