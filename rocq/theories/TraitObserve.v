(** Words for the statements about the trait impls (C52): both crates behind one
    interface, and the orders on lists of items that the impls should compute. *)
From stdpp Require Import pretty.
From Verif Require Import Base Api SliceItemsModel BinPartsModel DataModel RcModel ArcModel Spec Observe ArcObserve TraitModel.
Local Open Scope nat_scope.

(** crate::rc and crate::arc *)
Inductive crate := CrRc | CrArc.
Definition lib_world (V : Type) (c : crate) : Type := match c with CrRc => world V | CrArc => aworld V end.
Definition lib_call {V} (cf : cfg V) (c : crate) : lib_world V c -> op V -> res (lib_world V c * out V) :=
  match c with CrRc => rstep cf | CrArc => xstep cf end.
Definition lib_run {V} (cf : cfg V) (c : crate) : lib_world V c -> list (op V) -> res (lib_world V c * list (out V)) :=
  match c with CrRc => rrun cf | CrArc => xrun cf end.
Definition lib_reach {V} (cf : cfg V) (c : crate) : list (op V) -> lib_world V c -> Prop :=
  match c with CrRc => reach cf | CrArc => xreach cf end.
Definition lib_type {V} (c : crate) : lib_world V c -> nat -> option ty :=
  match c with CrRc => rc_type | CrArc => arc_type end.
Definition lib_name (c : crate) : ty -> string := match c with CrRc => rc_name | CrArc => arc_name end.
(** The items a variable dereferences to. *)
Definition lib_items {V} (cf : cfg V) (c : crate) (w : lib_world V c) (h : nat) : option (list V) :=
  match lib_call cf c w (ODeref h) with Ok (_, RSlice _ l) => Some l | _ => None end.
(** A call of a trait method, and collecting an iterator into a slice. *)
Definition lib_tstep {V H} (cf : cfg V) (c : crate) (it : itraits V H) : lib_world V c -> top -> res (lib_world V c * tout V H) :=
  tstep (lib_call cf c) (lib_type c) (lib_name c) it.
Definition lib_from_iter {V I} (cf : cfg V) (c : crate) (mutable : bool) (base : N) (next : I -> option (V * I)) (fuel : nat) :
    lib_world V c -> I -> res (lib_world V c * out V) :=
  from_iter (lib_call cf c) mutable base next fuel.

(** The types the compiler checks. *)
Definition well_typed {V} (c : crate) (w : lib_world V c) (o : top) : Prop :=
  match o with
  | TAsRef h | THash h => lib_type c w h = Some TySlice \/ lib_type c w h = Some TyMut
  | TEq h h' | TNe h h' | TPartialCmp h h' | TCmp h h' =>
      exists t, (t = TySlice \/ t = TyMut) /\ lib_type c w h = Some t /\ lib_type c w h' = Some t
  | TDebug h => exists t, lib_type c w h = Some t
  | TSizeHint h | TCount h =>
      lib_type c w h = Some TyIter \/ lib_type c w h = Some TyParts \/ lib_type c w h = Some TyMParts
  end.
(** Lexicographic order: up to some index the items are pairwise equivalent, and
    there either [l] ends and [l'] does not, or the two items are related by [lt]. *)
Definition lex {V} (eqv lt : V -> V -> Prop) (shorter : bool) (l l' : list V) : Prop :=
  exists k, Forall2 eqv (take k l) (take k l') /\
    ((shorter = true /\ k = length l /\ k < length l') \/
     exists x y, l !! k = Some x /\ l' !! k = Some y /\ lt x y).
(** [next] called on [i] again and again gives [l] and then [None]. *)
Inductive yields {V I} (next : I -> option (V * I)) : I -> list V -> Prop :=
| yields_nil i : next i = None -> yields next i []
| yields_cons i v i' l : next i = Some (v, i') -> yields next i' l -> yields next i (v :: l).
(** A comparison that [Ord] allows. *)
Definition lawful_cmp {V} (cmp : V -> V -> comparison) : Prop :=
  (forall x y, cmp y x = CompOpp (cmp x y)) /\
  (forall x y z, cmp x y = Lt -> cmp y z = Lt -> cmp x z = Lt) /\
  (forall x y z, cmp x y = Eq -> cmp x z = cmp y z).
