(** C52: the trait impls shared by crate::rc and crate::arc. Each statement is
    about both crates. *)
From stdpp Require Import pretty.
From Verif Require Import Base Api SliceItemsModel BinPartsModel DataModel RcModel ArcModel Spec Observe ArcObserve Demo ArcDemo
  TraitModel TraitObserve TraitTheory TraitLaws.
Local Open Scope nat_scope.

(** Nothing panics, loops or reads what it must not, only [count] changes the
    state, and every call the compiler accepts gives a result. *)
Theorem C52_safe : forall (V H : Type) (cf : cfg V) c (it : itraits V H) ops w o,
  lib_reach cf c ops w ->
  exists w' r, lib_tstep cf c it w o = Ok (w', r) /\ (r = TInvalid <-> ~ well_typed c w o) /\
    ((forall h, o <> TCount h) -> w' = w).
Proof. exact @safe. Qed.
Print Assumptions C52_safe.

(** [==] compares the items pairwise, [!=] is its negation. *)
Theorem C52_eq : forall (V H : Type) (cf : cfg V) c (it : itraits V H) ops w h h',
  lib_reach cf c ops w -> well_typed c w (TEq h h') ->
  exists l l' b, lib_items cf c w h = Some l /\ lib_items cf c w h' = Some l' /\
    lib_tstep cf c it w (TEq h h') = Ok (w, TBool b) /\ lib_tstep cf c it w (TNe h h') = Ok (w, TBool (negb b)) /\
    (b = true <-> Forall2 (fun x y => it_eq it x y = true) l l').
Proof. exact @eq_spec. Qed.
Print Assumptions C52_eq.
(** [==] is reflexive, symmetric, transitive if that of the items is. *)
Theorem C52_eq_laws : forall (V H : Type) (cf : cfg V) c (it : itraits V H) ops w h1 h2 h3,
  lib_reach cf c ops w -> well_typed c w (TEq h1 h2) -> well_typed c w (TEq h2 h3) ->
  let t := lib_tstep cf c it w in
  ((forall x, it_eq it x x = true) -> t (TEq h1 h1) = Ok (w, TBool true)) /\
  ((forall x y, it_eq it x y = it_eq it y x) -> t (TEq h2 h1) = t (TEq h1 h2)) /\
  ((forall x y z, it_eq it x y = true -> it_eq it y z = true -> it_eq it x z = true) ->
    t (TEq h1 h2) = Ok (w, TBool true) -> t (TEq h2 h3) = Ok (w, TBool true) -> t (TEq h1 h3) = Ok (w, TBool true)).
Proof. exact @eq_laws. Qed.
Print Assumptions C52_eq_laws.
(** A clone equals what it was made from, if items equal themselves or their clones. *)
Theorem C52_clone_eq : forall (V H : Type) (cf : cfg V) c (it : itraits V H) ops w h w' n,
  lib_reach cf c ops w -> (forall x, it_eq it x x = true) ->
  lib_type c w h = Some TySlice -> lib_call cf c w (OClone h) = Ok (w', RHandle n) ->
  lib_tstep cf c it w' (TEq h n) = Ok (w', TBool true) /\ lib_tstep cf c it w' (THash n) = lib_tstep cf c it w' (THash h) /\
  lib_items cf c w' h = lib_items cf c w h.
Proof. exact @clone_eq. Qed.
Print Assumptions C52_clone_eq.
Theorem C52_mut_clone_eq : forall (V H : Type) (cf : cfg V) c (it : itraits V H) ops w h base w' n,
  lib_reach cf c ops w -> (forall x, it_eq it x (c_clone cf x) = true) ->
  lib_type c w h = Some TyMut -> lib_call cf c w (OMutClone h base) = Ok (w', RHandle n) ->
  lib_tstep cf c it w' (TEq h n) = Ok (w', TBool true) /\ lib_items cf c w' h = lib_items cf c w h.
Proof. exact @mut_clone_eq. Qed.
Print Assumptions C52_mut_clone_eq.

(** [partial_cmp] is the lexicographic order of the items. *)
Theorem C52_partial_cmp : forall (V H : Type) (cf : cfg V) c (it : itraits V H) ops w h h',
  lib_reach cf c ops w -> well_typed c w (TPartialCmp h h') ->
  let pc := it_partial_cmp it in
  exists l l' r, lib_items cf c w h = Some l /\ lib_items cf c w h' = Some l' /\
    lib_tstep cf c it w (TPartialCmp h h') = Ok (w, TPartialOrdering r) /\
    (r = Some Eq <-> Forall2 (fun x y => pc x y = Some Eq) l l') /\
    (r = Some Lt <-> lex (fun x y => pc x y = Some Eq) (fun x y => pc x y = Some Lt) true l l') /\
    (r = Some Gt <-> lex (fun y x => pc x y = Some Eq) (fun y x => pc x y = Some Gt) true l' l) /\
    (r = None <-> lex (fun x y => pc x y = Some Eq) (fun x y => pc x y = None) false l l').
Proof. exact @partial_cmp_spec. Qed.
Print Assumptions C52_partial_cmp.
(** So is [cmp], which agrees with [partial_cmp] and [==] if that of the items does. *)
Theorem C52_cmp : forall (V H : Type) (cf : cfg V) c (it : itraits V H) ops w h h',
  lib_reach cf c ops w -> well_typed c w (TCmp h h') ->
  let cmp := it_cmp it in
  exists l l' r, lib_items cf c w h = Some l /\ lib_items cf c w h' = Some l' /\
    lib_tstep cf c it w (TCmp h h') = Ok (w, TOrdering r) /\
    (r = Eq <-> Forall2 (fun x y => cmp x y = Eq) l l') /\
    (r = Lt <-> lex (fun x y => cmp x y = Eq) (fun x y => cmp x y = Lt) true l l') /\
    (r = Gt <-> lex (fun y x => cmp x y = Eq) (fun y x => cmp x y = Gt) true l' l) /\
    ((forall x y, it_partial_cmp it x y = Some (cmp x y)) -> lib_tstep cf c it w (TPartialCmp h h') = Ok (w, TPartialOrdering (Some r))) /\
    ((forall x y, it_eq it x y = true <-> cmp x y = Eq) -> lib_tstep cf c it w (TEq h h') = Ok (w, TBool true) <-> r = Eq).
Proof. exact @cmp_spec. Qed.
Print Assumptions C52_cmp.
(** [cmp] is a total order if that of the items is. *)
Theorem C52_cmp_laws : forall (V H : Type) (cf : cfg V) c (it : itraits V H) ops w h1 h2 h3,
  lib_reach cf c ops w -> well_typed c w (TCmp h1 h2) -> well_typed c w (TCmp h2 h3) -> lawful_cmp (it_cmp it) ->
  let t := lib_tstep cf c it w in
  (forall r, t (TCmp h1 h2) = Ok (w, TOrdering r) -> t (TCmp h2 h1) = Ok (w, TOrdering (CompOpp r))) /\
  (t (TCmp h1 h2) = Ok (w, TOrdering Lt) -> t (TCmp h2 h3) = Ok (w, TOrdering Lt) -> t (TCmp h1 h3) = Ok (w, TOrdering Lt)) /\
  (t (TCmp h1 h2) = Ok (w, TOrdering Eq) -> t (TCmp h1 h3) = t (TCmp h2 h3)).
Proof. exact @cmp_laws. Qed.
Print Assumptions C52_cmp_laws.

(** A slice borrows as its items and hashes like them: their number, then each. *)
Theorem C52_hash : forall (V H : Type) (cf : cfg V) c (it : itraits V H) ops w h,
  lib_reach cf c ops w -> well_typed c w (THash h) ->
  exists l, lib_items cf c w h = Some l /\ lib_tstep cf c it w (TAsRef h) = Ok (w, TRef l) /\
    lib_tstep cf c it w (THash h) = Ok (w, TWrites (WLen (length l) :: concat (map (fun v => map WItem (it_hash it v)) l))).
Proof. exact @hash_spec'. Qed.
Print Assumptions C52_hash.
(** Equal slices hash alike, if equal items do. *)
Theorem C52_hash_eq : forall (V H : Type) (cf : cfg V) c (it : itraits V H) ops w h h',
  lib_reach cf c ops w -> well_typed c w (TEq h h') ->
  (forall x y, it_eq it x y = true -> it_hash it x = it_hash it y) ->
  lib_tstep cf c it w (TEq h h') = Ok (w, TBool true) -> lib_tstep cf c it w (THash h) = lib_tstep cf c it w (THash h').
Proof. exact @hash_eq. Qed.
Print Assumptions C52_hash_eq.
(** What two slices write is only the same, or the start of the same, if their
    items are, when no item writes the start of what another one writes. *)
Theorem C52_hash_inj : forall (V H : Type) (cf : cfg V) c (it : itraits V H) ops w h h' ws ws' r r',
  lib_reach cf c ops w -> well_typed c w (THash h) -> well_typed c w (THash h') ->
  (forall x y (r r' : list H), it_hash it x ++ r = it_hash it y ++ r' -> x = y) ->
  lib_tstep cf c it w (THash h) = Ok (w, TWrites ws) -> lib_tstep cf c it w (THash h') = Ok (w, TWrites ws') -> ws ++ r = ws' ++ r' ->
  lib_items cf c w h = lib_items cf c w h' /\ r = r'.
Proof. exact @hash_inj. Qed.
Print Assumptions C52_hash_inj.
(** A slice in a map stays the same key: calls on other variables change neither
    its items nor its hash nor its text. *)
Theorem C52_key_stable : forall (V H : Type) (cf : cfg V) c (it : itraits V H) ops w ops2 w2 outs h,
  lib_reach cf c ops w -> well_typed c w (THash h) -> lib_run cf c w ops2 = Ok (w2, outs) -> Forall (spares h) ops2 ->
  exists l ws t, lib_items cf c w h = Some l /\ lib_items cf c w2 h = Some l /\
    lib_tstep cf c it w (THash h) = Ok (w, TWrites ws) /\ lib_tstep cf c it w2 (THash h) = Ok (w2, TWrites ws) /\
    lib_tstep cf c it w (TDebug h) = Ok (w, TText t) /\ lib_tstep cf c it w2 (TDebug h) = Ok (w2, TText t).
Proof. exact @key_stable. Qed.
Print Assumptions C52_key_stable.

(** The text shows all the items, and for parts how many parts are left. *)
Theorem C52_debug : forall (V H : Type) (cf : cfg V) c (it : itraits V H) ops w h t,
  lib_reach cf c ops w -> lib_type c w h = Some t ->
  exists l, lib_items cf c w h = Some l /\
    let body := "[" +:+ String.concat ", " (map (it_debug it) l) +:+ "]" in
    match t with
    | TySlice | TyMut => lib_tstep cf c it w (TDebug h) = Ok (w, TText body)
    | TyIter => lib_tstep cf c it w (TDebug h) = Ok (w, TText (lib_name c t +:+ "(" +:+ body +:+ ")"))
    | _ => exists n, lib_call cf c w (OLen h) = Ok (w, RLen n) /\
        lib_tstep cf c it w (TDebug h) = Ok (w, TText (lib_name c t +:+ " { remaining_parts: " +:+ pretty n +:+ ", remaining_items: " +:+ body +:+ " }"))
    end.
Proof. exact @debug_spec. Qed.
Print Assumptions C52_debug.

(** [size_hint] is exact: [n] more calls of next or next_back, and no more, give
    something, whatever else is done meanwhile; [count] returns [n] and drops the
    iterator. *)
Theorem C52_size_hint : forall (V H : Type) (cf : cfg V) c (it : itraits V H) ops w h,
  lib_reach cf c ops w -> well_typed c w (TSizeHint h) ->
  exists n, lib_tstep cf c it w (TSizeHint h) = Ok (w, THint n (Some n)) /\
    (exists w', lib_tstep cf c it w (TCount h) = Ok (w', TNumber n) /\ lib_call cf c w (ODrop h) = Ok (w', RUnit)) /\
    forall ops2 w2 outs, lib_run cf c w ops2 = Ok (w2, outs) -> Forall (iterates h) ops2 ->
      let left := (n - N.of_nat (length (nexts h ops2)))%N in
      lib_tstep cf c it w2 (TSizeHint h) = Ok (w2, THint left (Some left)) /\
      forall b, exists w3 r, lib_call cf c w2 (ONext b h) = Ok (w3, r) /\ (r = RNone <-> left = 0%N) /\
        (r = RNone \/ (exists n, r = RHandle n) \/ exists v, r = RVal v).
Proof. exact @size_hint_exact. Qed.
Print Assumptions C52_size_hint.

(** Collecting an iterator that ends gives a slice of exactly its items, and
    changes no other variable. *)
Theorem C52_from_iter : forall (V : Type) (cf : cfg V) c (I : Type) (next : I -> option (V * I)) ops w mutable base i l fuel,
  lib_reach cf c ops w -> yields next i l -> length l < fuel -> (N.of_nat (length l) < usize_lim)%N ->
  exists w' n, lib_from_iter cf c mutable base next fuel w i = Ok (w', RHandle n) /\ lib_items cf c w' n = Some l /\
    lib_type c w' n = Some (if mutable then TyMut else TySlice) /\ lib_type c w n = None /\
    forall h, lib_type c w h <> None -> lib_items cf c w' h = lib_items cf c w h.
Proof. exact @from_iter_ok. Qed.
Print Assumptions C52_from_iter.
(** The fuel of the model only runs out if the iterator gives at least as many items. *)
Theorem C52_from_iter_fuel : forall (V : Type) (cf : cfg V) c (I : Type) (next : I -> option (V * I)) w mutable base i fuel,
  lib_from_iter cf c mutable base next fuel w i = NoFuel -> (exists ops, lib_reach cf c ops w) ->
  forall l, yields next i l -> fuel <= length l.
Proof. exact @from_iter_fuel. Qed.
Print Assumptions C52_from_iter_fuel.

(** Two slices with a common prefix, a copy of one, unequal halves, an iterator
    and parts, in both crates. *)
Definition nat_traits : itraits nat nat :=
  ITraits _ _ Nat.eqb (fun x y => Some (Nat.compare x y)) Nat.compare (fun x => [x]) pretty.
(** Items of which some cannot be compared, like NaN. *)
Definition nan_traits : itraits nat nat :=
  ITraits _ _ (fun x y => Nat.eqb x y && negb (Nat.eqb x 0)) (fun x y => if Nat.eqb x 0 || Nat.eqb y 0 then None else Some (Nat.compare x y))
    Nat.compare (fun x => [x]) pretty.
(** Items that all equal one another, also their clones, which are not the same. *)
Definition clone_traits : itraits nat nat :=
  ITraits _ _ (fun _ _ => true) (fun x y => Some (Nat.compare x y)) Nat.compare (fun x => [x]) pretty.
Definition trait_ops : list (op nat) :=
  [OFromVec 1000 [5;1;7]; OFromVec 2000 [5;1;7;0]; OClone 0; OFromVec 3000 [5;2]; OMutFromVec 4000 [1;2;3;4]; OIntoIter 4; ONext true 5;
   OFromVec 5000 [1;2;3;4]; OSplitIntoParts 6 4; ONext false 7; OMutFromVec 6000 [3]; OMutClone 9 7000; OFromVec 8000 [5;0;7]].
Definition trait_results (c : crate) (w : lib_world nat c) : Prop :=
  let t o := match lib_tstep cf8 c nat_traits w o with Ok (_, r) => r | _ => TInvalid end in
  let p o := match lib_tstep cf8 c nan_traits w o with Ok (_, r) => r | _ => TInvalid end in
  t (TEq 0 2) = TBool true /\ t (TEq 0 1) = TBool false /\ t (TNe 0 3) = TBool true /\ t (TEq 0 9) = TInvalid /\
  t (TCmp 0 1) = TOrdering Lt /\ t (TCmp 3 1) = TOrdering Gt /\ t (TCmp 0 2) = TOrdering Eq /\ t (TEq 9 10) = TBool false /\
  lib_tstep cf8 c clone_traits w (TEq 9 10) = Ok (w, TBool true) /\ t (TEq 10 10) = TBool true /\
  p (TPartialCmp 0 11) = TPartialOrdering None /\ p (TPartialCmp 3 0) = TPartialOrdering (Some Gt) /\ p (TEq 11 11) = TBool false /\
  t (THash 0) = TWrites [WLen 3; WItem 5; WItem 1; WItem 7] /\ t (TAsRef 3) = TRef [5;2] /\ t (TDebug 0) = TText "[5, 1, 7]" /\
  t (TDebug 5) = TText (match c with CrRc => "RcSliceMutIter([1, 2, 3])" | CrArc => "ArcSliceMutIter([1, 2, 3])" end) /\
  t (TDebug 7) = TText (match c with CrRc => "RcSliceParts { remaining_parts: 3, remaining_items: [2, 3, 4] }"
                                   | CrArc => "ArcSliceParts { remaining_parts: 3, remaining_items: [2, 3, 4] }" end) /\
  t (TSizeHint 7) = THint 3 (Some 3%N) /\ t (TCount 5) = TNumber 3 /\
  match lib_run cf8 c w [ONext true 7; OClone 0; ONext false 7; OLen 7; OFromVec 9000 [1]; ONext true 7] with
  | Ok (w2, _) => match lib_call cf8 c w2 (ONext false 7) with Ok (_, r) => r = RNone | _ => False end
  | _ => False
  end /\
  match lib_from_iter cf8 c false 9000 (fun i => match i with 0 => None | S j => Some (i * i, j) end) 10 w 4 with
  | Ok (w2, RHandle n) => lib_items cf8 c w2 n = Some [16;9;4;1]
  | _ => False
  end.
Example C52_example : after cf8 trait_ops (fun w _ => trait_results CrRc w) /\ xafter cf8 trait_ops (fun w _ => trait_results CrArc w).
Proof. demo. Qed.
Example C52_example_hypotheses : lawful_cmp Nat.compare /\ (forall x y (r r' : list nat), it_hash nat_traits x ++ r = it_hash nat_traits y ++ r' -> x = y) /\
  (forall x y, it_eq nat_traits x y = true -> it_hash nat_traits x = it_hash nat_traits y) /\
  (forall x y, it_eq nat_traits x y = true <-> it_cmp nat_traits x y = Eq) /\
  (forall x y z, it_eq nat_traits x y = true -> it_eq nat_traits y z = true -> it_eq nat_traits x z = true) /\
  yields (fun i => match i with 0 => None | S j => Some (i * i, j) end) 4 [16;9;4;1].
Proof.
  split_and!.
  - split_and!; intros x y.
    + apply Nat.compare_antisym.
    + intros z. rewrite !Nat.compare_lt_iff. lia.
    + intros z Hxy. apply Nat.compare_eq in Hxy as ->. done.
  - by intros x y r r' [= ->].
  - intros x y ->%Nat.eqb_eq. done.
  - intros x y. cbn. by rewrite Nat.eqb_eq, Nat.compare_eq_iff.
  - intros x y z ->%Nat.eqb_eq. done.
  - repeat (econstructor; [reflexivity|]). constructor. done.
Qed.
