(** Model of src/internal/bin_parts_iter.rs (non-test part, lines 1-313):
    [BinaryPartsIter<S>]. Generic in [S] and in the two splitting operations,
    which may have effects on a state [W] (for [RcSlice] they create shared
    children). [dbg] says whether debug assertions are compiled in. *)
From Verif Require Import Base SliceItemsModel.
Local Open Scope N_scope.

(** A [VecDeque]: its elements, front first, and its capacity. *)
Record deque (S : Type) := Deque { dq_items : list S; dq_cap : N }.
Arguments Deque {_} _ _.
Arguments dq_items {_} _.
Arguments dq_cap {_} _.

(** bin_parts_iter.rs:20-26 [struct BinaryPartsIter] *)
Record bpi (S : Type) := BPI {
  bp_num_parts : N; bp_front : N; bp_back : N; bp_deque : deque S
}.
Arguments BPI {_} _ _ _ _.
Arguments bp_num_parts {_} _.
Arguments bp_front {_} _.
Arguments bp_back {_} _.
Arguments bp_deque {_} _.

(** bin_parts_iter.rs:301-311 [greatest_power_of_2_factor]: the loop from
    accumulator [p]. *)
Fixpoint gp2f_loop (fuel : nat) (p n : N) : res N :=
  match fuel with
  | O => NoFuel
  | S fuel => if N.land n 1 =? 0
              then p' ← uadd p p;  (* p <<= 1 *)
                   gp2f_loop fuel p' (shr1 n)
              else Ok p
  end.
Definition greatest_power_of_2_factor (n : N) : res N := gp2f_loop (N.size_nat n) 1 n.

(** bin_parts_iter.rs:101-106: the loop of [new] computing (n, log). *)
Fixpoint bpi_log_loop (fuel : nat) (n log : N) : res (N * N) :=
  match fuel with
  | O => NoFuel
  | S fuel => if N.land n 1 =? 0
              then log' ← uadd log 1; bpi_log_loop fuel (shr1 n) log'
              else Ok (n, log)
  end.

(** bin_parts_iter.rs:253 and 282: [while n > len { n >>= 1; }] *)
Fixpoint shrink_to (fuel : nat) (n len : N) : res N :=
  if len <? n then
    match fuel with
    | O => NoFuel
    | S fuel => shrink_to fuel (shr1 n) len
    end
  else Ok n.

Section bpi.
  Context {S W : Type}.
  (** [split_off_left w s] = (new state, (what [s] becomes, returned half)). *)
  Context (split_off_left split_off_right : W -> S -> res (W * (S * S))).
  (** Capacity policy of the allocator: [capf n] is what [with_capacity(n)]
      really reserves, [growf c] the capacity after growing a full deque. *)
  Context (capf growf : N -> N) (dbg : bool).

  Definition dq_push_front (q : deque S) (s : S) : deque S :=
    Deque (s :: dq_items q)
          (if N.of_nat (length (dq_items q)) <? dq_cap q then dq_cap q else growf (dq_cap q)).
  Definition dq_push_back (q : deque S) (s : S) : deque S :=
    Deque (dq_items q ++ [s])
          (if N.of_nat (length (dq_items q)) <? dq_cap q then dq_cap q else growf (dq_cap q)).
  Definition dq_pop_front (q : deque S) : deque S * option S :=
    match dq_items q with
    | [] => (q, None)
    | s :: l => (Deque l (dq_cap q), Some s)
    end.
  Definition dq_pop_back (q : deque S) : deque S * option S :=
    match last (dq_items q) with
    | None => (q, None)
    | Some s => (Deque (removelast (dq_items q)) (dq_cap q), Some s)
    end.

  (** bin_parts_iter.rs:99-122 [new] *)
  Definition bpi_new (slice : S) (num_parts : N) : res (bpi S) :=
    if num_parts =? 0 then Panic else
    '(n, log) ← bpi_log_loop (N.size_nat num_parts) num_parts 0;
    if negb (n =? 1) then Panic else
    cap ← (if log <=? 1 then Ok 1 else a ← uadd log log; usub a 2);
    Ok (BPI num_parts 0 0 (dq_push_front (Deque [] (capf cap)) slice)).

  (** bin_parts_iter.rs:152-154 [len] *)
  Definition bpi_len (it : bpi S) : res N :=
    a ← usub (bp_num_parts it) (bp_front it); usub a (bp_back it).

  (** bin_parts_iter.rs:255-261: the splitting loop of [next]. *)
  Fixpoint bpi_loop_front (fuel : nat) (n : N) (w : W) (q : deque S) (item : option S)
    : res (W * deque S * option S) :=
    match fuel with
    | O => NoFuel
    | Datatypes.S fuel =>
        if N.land n 1 =? 0 then
          let q := match item with Some it => dq_push_front q it | None => q end in
          match dq_items q with
          | [] => bpi_loop_front fuel (shr1 n) w q None
          | s :: rest =>
              '(w, (s', ret)) ← split_off_left w s;
              bpi_loop_front fuel (shr1 n) w (Deque (s' :: rest) (dq_cap q)) (Some ret)
          end
        else Ok (w, q, item)
    end.
  (** bin_parts_iter.rs:284-290: the splitting loop of [next_back]. *)
  Fixpoint bpi_loop_back (fuel : nat) (n : N) (w : W) (q : deque S) (item : option S)
    : res (W * deque S * option S) :=
    match fuel with
    | O => NoFuel
    | Datatypes.S fuel =>
        if N.land n 1 =? 0 then
          let q := match item with Some it => dq_push_back q it | None => q end in
          match last (dq_items q) with
          | None => bpi_loop_back fuel (shr1 n) w q None
          | Some s =>
              '(w, (s', ret)) ← split_off_right w s;
              bpi_loop_back fuel (shr1 n) w
                (Deque (removelast (dq_items q) ++ [s']) (dq_cap q)) (Some ret)
          end
        else Ok (w, q, item)
    end.

  (** bin_parts_iter.rs:245-266 [next] *)
  Definition bpi_next (w : W) (it : bpi S) : res (W * bpi S * option S) :=
    l ← bpi_len it;
    if 0 =? l then Ok (w, it, None) else
    if dbg && (N.of_nat (length (dq_items (bp_deque it))) =? 0) then Panic else
    let initial_cap := dq_cap (bp_deque it) in
    m ← usub (bp_num_parts it) (bp_front it);
    if dbg && (m =? 0) then Panic else
    n ← greatest_power_of_2_factor m;
    n ← shrink_to (N.size_nat n) n l;
    '(w, q, item) ← bpi_loop_front (Datatypes.S (N.size_nat n)) n w (bp_deque it) None;
    if dbg && negb (initial_cap =? dq_cap q) then Panic else
    f ← uadd (bp_front it) 1;
    match item with
    | Some s => Ok (w, BPI (bp_num_parts it) f (bp_back it) q, Some s)
    | None => let '(q, r) := dq_pop_front q in
              Ok (w, BPI (bp_num_parts it) f (bp_back it) q, r)
    end.

  (** bin_parts_iter.rs:273-295 [next_back] *)
  Definition bpi_next_back (w : W) (it : bpi S) : res (W * bpi S * option S) :=
    l ← bpi_len it;
    if 0 =? l then Ok (w, it, None) else
    if dbg && (N.of_nat (length (dq_items (bp_deque it))) =? 0) then Panic else
    let initial_cap := dq_cap (bp_deque it) in
    m ← usub (bp_num_parts it) (bp_back it);
    if dbg && (m =? 0) then Panic else
    n ← greatest_power_of_2_factor m;
    n ← shrink_to (N.size_nat n) n l;
    '(w, q, item) ← bpi_loop_back (Datatypes.S (N.size_nat n)) n w (bp_deque it) None;
    if dbg && negb (initial_cap =? dq_cap q) then Panic else
    b ← uadd (bp_back it) 1;
    match item with
    | Some s => Ok (w, BPI (bp_num_parts it) (bp_front it) b q, Some s)
    | None => let '(q, r) := dq_pop_back q in
              Ok (w, BPI (bp_num_parts it) (bp_front it) b q, r)
    end.
End bpi.

(** bin_parts_iter.rs:125-147 [as_slice], given for each element its
    [as_ptr()] and [len()]. [expect] on an empty deque is a panic. *)
Definition bpi_as_slice {S} (sz : N) (slice_of : S -> ptr * N) (it : bpi S) : res (ptr * N) :=
  l ← bpi_len it;
  if 0 =? l then Ok (Ptr 0 dangling_addr 0, 0)
  else if sz =? 0 then
    match dq_items (bp_deque it) with
    | [] => Ok (Ptr 0 dangling_addr 0, 0)
    | s :: _ =>
        Ok (Ptr (p_blk (fst (slice_of s))) dangling_addr (p_idx (fst (slice_of s))),
            foldr (fun s acc => snd (slice_of s) + acc) 0 (dq_items (bp_deque it)))
    end
  else
    match dq_items (bp_deque it), last (dq_items (bp_deque it)) with
    | s :: _, Some e =>
        let start := fst (slice_of s) in
        let end_ := ptr_add sz (fst (slice_of e)) (snd (slice_of e)) in
        d ← usub (p_addr end_) (p_addr start);
        Ok (start, d / sz)
    | _, _ => Panic
    end.

(** bin_parts_iter.rs:20 [#[derive(Clone)]]: every field is cloned; cloning a
    [VecDeque] collects clones of its elements into a new deque that reserves
    room for its current length only. [clone w s] clones one element. *)
Section bpi_clone.
  Context {S W : Type} (clone : W -> S -> res (W * S)) (capf : N -> N).
  Fixpoint clone_all (w : W) (l : list S) : res (W * list S) :=
    match l with
    | [] => Ok (w, [])
    | s :: l => '(w, s') ← clone w s; '(w, l') ← clone_all w l; Ok (w, s' :: l')
    end.
  Definition bpi_clone (w : W) (it : bpi S) : res (W * bpi S) :=
    '(w, l) ← clone_all w (dq_items (bp_deque it));
    Ok (w, BPI (bp_num_parts it) (bp_front it) (bp_back it)
             (Deque l (capf (N.of_nat (length l))))).
End bpi_clone.
