(** The calls a user can make and what they return. Shared by the models of
    crate::rc (RcModel.v) and crate::arc (ArcModel.v) and by the specification
    (Spec.v). A user's variables are numbered; a call names the variables it
    uses, and a call that creates a value stores it in the next fresh
    variable. [V] is the item type. *)
From Verif Require Import Base.

Inductive op (V : Type) :=
| OFromVec (base : N) (vals : list V)     (* RcSlice::from_vec / from_boxed_slice / From / FromIterator *)
| OMutFromVec (base : N) (vals : list V)  (* RcSliceMut::from_vec / ... *)
| OWeakNew                                (* WeakSlice::new *)
| OClone (h : nat)                        (* clone of RcSlice, WeakSlice, RcSliceParts *)
| OMutClone (h : nat) (base : N)          (* RcSliceMut::clone into a buffer at [base] *)
| OCloneHalf (side : bool) (h : nat)      (* RcSlice::clone_left (false) / clone_right (true) *)
| OSplitOff (side : bool) (h : nat)       (* split_off_left / split_off_right of RcSlice, RcSliceMut *)
| OSplitIntoParts (h : nat) (n : N)       (* split_into_parts of RcSlice, RcSliceMut *)
| OGetMut (h : nat)                       (* RcSlice::get_mut, reading the slice *)
| OGetMutReplace (h : nat) (i : N) (v : V) (* RcSlice::get_mut, then mem::replace(&mut s[i], v) *)
| OIntoMut (h : nat)                      (* RcSlice::into_mut / TryFrom *)
| OIntoImmut (h : nat)                    (* RcSliceMut::into_immut / From *)
| ODowngrade (h : nat)                    (* RcSlice::downgrade *)
| OUpgrade (h : nat)                      (* WeakSlice::upgrade *)
| ODrop (h : nat)                         (* drop of anything *)
| ODeref (h : nat)                        (* Deref / as_slice of anything but a WeakSlice *)
| OReplace (h : nat) (i : N) (v : V)      (* mem::replace(&mut s[i], v) through DerefMut / as_mut_slice *)
| OIntoIter (h : nat)                     (* RcSliceMut::into_iter *)
| ONext (back : bool) (h : nat)           (* next (false) / next_back (true) of the three iterators *)
| OSplitAt (to : bool) (h : nat) (i : N)  (* RcSliceMutIter::split_off_from (false) / split_off_to (true) *)
| OLen (h : nat).                         (* ExactSizeIterator::len of the three iterators *)
Arguments OFromVec {_} _ _.
Arguments OMutFromVec {_} _ _.
Arguments OWeakNew {_}.
Arguments OClone {_} _.
Arguments OMutClone {_} _ _.
Arguments OCloneHalf {_} _ _.
Arguments OSplitOff {_} _ _.
Arguments OSplitIntoParts {_} _ _.
Arguments OGetMut {_} _.
Arguments OGetMutReplace {_} _ _ _.
Arguments OIntoMut {_} _.
Arguments OIntoImmut {_} _.
Arguments ODowngrade {_} _.
Arguments OUpgrade {_} _.
Arguments ODrop {_} _.
Arguments ODeref {_} _.
Arguments OReplace {_} _ _ _.
Arguments OIntoIter {_} _.
Arguments ONext {_} _ _.
Arguments OSplitAt {_} _ _ _.
Arguments OLen {_} _.

Inductive out (V : Type) :=
| RUnit
| RHandle (h : nat)           (* a new value, stored in variable [h] *)
| RNone                       (* [None] *)
| RErr                        (* [Err(slice)]: the slice stays in its variable *)
| RSlice (a : option N) (l : list V)
  (* a slice: its items and, unless it is empty or its items are zero-sized, its address *)
| RVal (v : V)                (* an item handed to the caller *)
| RLen (n : N)
| RPanic
| RInvalid.                   (* not a well-typed call; no effect *)
Arguments RUnit {_}.
Arguments RHandle {_} _.
Arguments RNone {_}.
Arguments RErr {_}.
Arguments RSlice {_} _ _.
Arguments RVal {_} _.
Arguments RLen {_} _.
Arguments RPanic {_}.
Arguments RInvalid {_}.
