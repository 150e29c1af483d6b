(** Vocabulary in which the properties of the single-threaded API are stated:
    states reachable by calls, what a caller sees of a state, and which items a
    variable denotes. Definitions only. *)
From Verif Require Import Base Api SliceItemsModel BinPartsModel DataModel RcModel Spec.

(** What the library does not determine: the size of an item, [T::clone], and
    how [VecDeque] chooses capacities. *)
Record cfg (V : Type) := Cfg { c_sz : N; c_clone : V -> V; c_capf : N -> N; c_growf : N -> N }.
Arguments Cfg {_} _ _ _ _.
Arguments c_sz {_} _.
Arguments c_clone {_} _.
Arguments c_capf {_} _.
Arguments c_growf {_} _.

(** The variable a call works on. *)
Definition target {V} (o : op V) : option nat :=
  match o with
  | OFromVec _ _ | OMutFromVec _ _ | OWeakNew => None
  | OClone h | OMutClone h _ | OCloneHalf _ h | OSplitOff _ h | OSplitIntoParts h _ | OGetMut h
  | OGetMutReplace h _ _ | OIntoMut h | OIntoImmut h | ODowngrade h | OUpgrade h | ODrop h
  | ODeref h | OReplace h _ _ | OIntoIter h | ONext _ h | OSplitAt _ h _ | OLen h => Some h
  end.

(** Calls that write an item. *)
Definition writes {V} (o : op V) : Prop :=
  match o with OGetMutReplace _ _ _ | OReplace _ _ _ => True | _ => False end.

(** Items whose destructor the library has run, oldest first: cells, values. *)
Definition dropped_cells {V} (w : world V) : list (nat * N) :=
  omap (fun e => match e with EDrop b i _ => Some (b, i) | EFree _ _ _ => None end) (dw_trace (w_d w)).
Definition dropped {V} (w : world V) : list V :=
  omap (fun e => match e with EDrop _ _ v => Some v | EFree _ _ _ => None end) (dw_trace (w_d w)).
(** Buffers that have been deallocated. *)
Definition freed {V} (w : world V) : list nat :=
  omap (fun e => match e with EDrop _ _ _ => None | EFree b _ _ => Some b end) (dw_trace (w_d w)).
(** The item stored in a cell (buffer, index); [None] if it was dropped or moved out. *)
Definition item {V} (w : world V) (c : nat * N) : option V := dw_mem (w_d w) !! c.

Definition is_rc {V} (w : world V) (h : nat) : Prop := exists r, get_h w h = Some (HRc r).
Definition is_weak {V} (w : world V) (h : nat) : Prop := exists d g, get_h w h = Some (HWeak d g).
Definition is_parts {V} (w : world V) (h : nat) : Prop := exists it, get_h w h = Some (HParts it).
Definition is_mut {V} (w : world V) (h : nat) : Prop := exists m, get_h w h = Some (HMut m).
Definition is_iter {V} (w : world V) (h : nat) : Prop := exists m, get_h w h = Some (HIter m).
Definition is_mparts {V} (w : world V) (h : nat) : Prop := exists m, get_h w h = Some (HMParts m).
(** A handle that owns its items exclusively. *)
Definition is_unique {V} (w : world V) (h : nat) : Prop := is_mut w h \/ is_iter w h \/ is_mparts w h.

(** Taking from the front ([false]) or back ([true]) of a double-ended queue. *)
Definition deque_take {A} (back : bool) (q : list A) : option (A * list A) :=
  if back then x ← last q; Some (x, removelast q)
  else match q with [] => None | x :: q => Some (x, q) end.

Definition res_opt {A} (r : res A) : option A := match r with Ok a => Some a | _ => None end.

Section observe.
  Context {V : Type} (c : cfg V).

  Definition rstep : world V -> op V -> res (world V * out V) :=
    step (c_sz c) (c_clone c) (c_capf c) (c_growf c) false.
  Definition rrun : world V -> list (op V) -> res (world V * list (out V)) :=
    run (c_sz c) (c_clone c) (c_capf c) (c_growf c) false.
  (** [w] is the state after the calls [ops], starting from nothing. *)
  Definition reach (ops : list (op V)) (w : world V) : Prop :=
    exists outs, rrun empty_world ops = Ok (w, outs).
  (** The history's sharing trees: which node each variable is (Spec.v). *)
  Definition hist (ops : list (op V)) : astate V :=
    fst (spec_run (c_sz c) (c_clone c) empty_astate ops).
  Definition node (ops : list (op V)) (h : nat) : option ahandle := a_get (hist ops) h.

  (** The same with debug assertions compiled in. *)
  Definition dstep : world V -> op V -> res (world V * out V) :=
    step (c_sz c) (c_clone c) (c_capf c) (c_growf c) true.
  Definition drun : world V -> list (op V) -> res (world V * list (out V)) :=
    run (c_sz c) (c_clone c) (c_capf c) (c_growf c) true.
  (** No call in [ops] clones a parts iterator. *)
  Fixpoint no_parts_clone (w : world V) (ops : list (op V)) : Prop :=
    match ops with
    | [] => True
    | o :: ops => match o with OClone h => ~ is_parts w h | _ => True end /\
                  match rstep w o with Ok (w', _) => no_parts_clone w' ops | _ => True end
    end.

  (** Pointer and length of the slice a strong variable dereferences to. *)
  Definition h_slice (w : world V) (h : nat) : option (ptr * N) :=
    let s := (w_d w, w_g w) in
    match get_h w h with
    | Some (HRc r) => res_opt (rcs_slice s r)
    | Some (HParts it) => res_opt (parts_as_slice (c_sz c) s it)
    | Some (HMut m) => Some (si_ptr (ms_items m), si_len (ms_items m))
    | Some (HIter m) => res_opt (sit_as_slice (c_sz c) (mi_iter m))
    | Some (HMParts m) => res_opt (sip_as_slice (c_sz c) (mp_iter m))
    | Some (HWeak _ _) | None => None
    end.
  (** The cells a variable covers, in order. *)
  Definition h_cells (w : world V) (h : nat) : list (nat * N) :=
    match h_slice w h with
    | Some (p, len) => rng_cells (Rng (p_blk p) (p_idx p) len)
    | None => []
    end.
  (** What dereferencing a variable shows: address and items. *)
  Definition view (w : world V) (h : nat) : option (option N * list V) :=
    match rstep w (ODeref h) with
    | Ok (_, RSlice a l) => Some (a, l)
    | _ => None
    end.

  (** The slice of items [l] at address [a] as the caller sees it: empty slices
      and slices of zero-sized items have no particular address. *)
  Definition at_addr (a : N) (l : list V) : option N * list V :=
    (if ((N.of_nat (length l) =? 0) || (c_sz c =? 0))%N then None else Some a, l).
  (** The [n] items from index [i] on of a slice seen as [v]. *)
  Definition sub_view (v : option N * list V) (i n : nat) : option N * list V :=
    let l := take n (drop i (snd v)) in
    (match l with [] => None | _ :: _ => (fun a => a + N.of_nat i * c_sz c)%N <$> fst v end, l).
  (** The two halves of a slice: [false] the first half rounded down, [true] the rest. *)
  Definition half_view (side : bool) (v : option N * list V) : option N * list V :=
    let n := length (snd v) in
    if side then sub_view v (n / 2) (n - n / 2) else sub_view v 0 (n / 2).
  (** The [2^k] parts of halving [k] times, left to right. *)
  Fixpoint view_leaves (k : nat) (v : option N * list V) : list (option N * list V) :=
    match k with
    | O => [v]
    | S k => view_leaves k (half_view false v) ++ view_leaves k (half_view true v)
    end.
  (** The single items of a slice, each seen as a slice. *)
  Definition items_view (v : option N * list V) : list (option N * list V) :=
    (fun i => sub_view v i 1) <$> seq 0 (length (snd v)).
  (** Adjacent slices seen as one. *)
  Definition join_view (vs : list (option N * list V)) : option N * list V :=
    (head (omap fst vs), vs ≫= snd).

  (** Variable [h] is an iterator over the single items [q]: reading it shows
      them joined, [len] counts them, [next] and [next_back] take one from either
      end and hand it back by value. *)
  Definition items_over (w : world V) (h : nat) (q : list (option N * list V)) : Prop :=
    view w h = Some (join_view q) /\
    rstep w (OLen h) = Ok (w, RLen (N.of_nat (length q))) /\
    forall b, exists w', rstep w (ONext b h) =
      Ok (w', match deque_take b q with Some ((_, x :: _), _) => RVal x | _ => RNone end).
  (** Variable [h] is an iterator over the parts [q]: the same, but [next] and
      [next_back] return a new slice (of which [K] holds) in a new variable. *)
  Definition parts_over (K : world V -> nat -> Prop) (w : world V) (h : nat) (q : list (option N * list V)) : Prop :=
    view w h = Some (join_view q) /\
    rstep w (OLen h) = Ok (w, RLen (N.of_nat (length q))) /\
    forall b, exists w', let n := length (w_h w) in
      match deque_take b q with
      | Some (v, _) => rstep w (ONext b h) = Ok (w', RHandle n) /\ view w' n = Some v /\ K w' n
      | None => rstep w (ONext b h) = Ok (w', RNone)
      end.
  (** The same in terms of cells, which tells parts apart by position rather than by content. *)
  Definition parts_over_cells (w : world V) (h : nat) (q : list (list (nat * N))) : Prop :=
    h_cells w h = concat q /\
    forall b, exists w', let n := length (w_h w) in
      match deque_take b q with
      | Some (cs, _) => rstep w (ONext b h) = Ok (w', RHandle n) /\ h_cells w' n = cs
      | None => rstep w (ONext b h) = Ok (w', RNone)
      end.

  (** The items a call moves into buffers of the library, given the state before
      and what the call returned. *)
  Definition put (w : world V) (o : op V) (r : out V) : list V :=
    match o, r with
    | OFromVec _ vals, RHandle _ | OMutFromVec _ vals, RHandle _ => vals
    | OMutClone h _, RHandle _ => match view w h with Some (_, l) => c_clone c <$> l | None => [] end
    | OReplace _ _ v, RVal _ | OGetMutReplace _ _ v, RVal _ => [v]
    | _, _ => []
    end.
  (** The same for a sequence of calls. *)
  Fixpoint put_run (w : world V) (ops : list (op V)) : list V :=
    match ops with
    | [] => []
    | o :: ops => match rstep w o with
                  | Ok (w', r) => put w o r ++ put_run w' ops
                  | _ => []
                  end
    end.
End observe.
(** What a call returned, without addresses. *)
Definition strip {V} (r : out V) : out V := match r with RSlice _ l => RSlice None l | r => r end.
(** The items calls hand back to the caller, by value. *)
Definition got {V} (r : out V) : list V := match r with RVal v => [v] | _ => [] end.
Definition got_run {V} (rs : list (out V)) : list V := rs ≫= got.
(** The items that are in some buffer. *)
Definition contents {V} (w : world V) : list V := snd <$> map_to_list (dw_mem (w_d w)).
#[global] Arguments rstep : simpl never.
#[global] Arguments rrun : simpl never.

(** What is left after some takes; taking from an empty queue leaves it empty. *)
Fixpoint deque_left {A} (bs : list bool) (q : list A) : list A :=
  match bs with
  | [] => q
  | b :: bs => deque_left bs (match deque_take b q with Some (_, q) => q | None => q end)
  end.
(** The calls to next and next_back of variable [h]. *)
Definition nexts {V} (h : nat) (ops : list (op V)) : list bool :=
  omap (fun o => match o with ONext b h' => if decide (h = h') then Some b else None | _ => None end) ops.
(** Calls that use variable [h] only for next, next_back, len, reading, writing
    through [as_mut_slice], and cloning. *)
Definition iterates {V} (h : nat) (o : op V) : Prop :=
  target o = Some h -> match o with ONext _ _ | OLen _ | ODeref _ | OClone _ | OReplace _ _ _ => True | _ => False end.
(** The same without writing. *)
Definition only_iterates {V} (h : nat) (o : op V) : Prop :=
  iterates h o /\ (target o = Some h -> ~ writes o).
(** The [2^k] parts of halving a list [k] times. *)
Fixpoint list_leaves {A} (k : nat) (l : list A) : list (list A) :=
  match k with
  | O => [l]
  | S k => list_leaves k (take (length l / 2) l) ++ list_leaves k (drop (length l / 2) l)
  end.
(** Calls that do not use variable [h]. *)
Definition spares {V} (h : nat) (o : op V) : Prop := target o <> Some h.
(** [l] is a contiguous piece of [big]. *)
Definition infix {A} (l big : list A) : Prop := exists l1 l2, big = l1 ++ l ++ l2.
(** Calls whose result does not come from the variable's own cells: a deep copy,
    and upgrading (a WeakSlice covers no cells). *)
Definition allocates {V} (o : op V) : Prop := match o with OMutClone _ _ | OUpgrade _ => True | _ => False end.
