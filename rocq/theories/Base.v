(** Basic vocabulary of the model: results, machine integers, pointers and
    reference-counted heaps.

    Nothing here models a particular function of /repo except where a comment
    cites one; [rc_*] models the parts of std's [Rc] (and, sequentially, [Arc])
    that /repo uses. *)
From Coq Require Export NArith Lia.
From stdpp Require Export prelude gmap.

(** [usize]. Overflow and underflow are explicit, see [uadd] and [usub]. *)
Notation usize := N (only parsing).

(** Outcome of running a piece of Rust.
    - [Panic]: a Rust panic (failed assert, arithmetic overflow in a checked build);
    - [UB]: the model detected an operation that is undefined behaviour in Rust;
    - [NoFuel]: a loop or recursion of the model ran out of fuel (non-termination). *)
Inductive res (A : Type) : Type :=
| Ok (a : A)
| Panic
| UB
| NoFuel.
Arguments Ok {_} _.
Arguments Panic {_}.
Arguments UB {_}.
Arguments NoFuel {_}.

#[global] Instance res_ret : MRet res := fun A a => Ok a.
#[global] Instance res_bind : MBind res := fun A B f m =>
  match m with Ok a => f a | Panic => Panic | UB => UB | NoFuel => NoFuel end.

Definition is_ok {A} (r : res A) : Prop := match r with Ok _ => True | _ => False end.

(** 2^64: the modelled target is a 64-bit machine. *)
Definition usize_lim : N := (2 ^ 64)%N.

(** [a + b] on usize with the overflow check of a debug build. *)
Definition uadd (a b : N) : res N :=
  if (a + b <? usize_lim)%N then Ok (a + b)%N else Panic.
(** [a - b] on usize with the underflow check of a debug build. *)
Definition usub (a b : N) : res N :=
  if (b <=? a)%N then Ok (a - b)%N else Panic.
(** [n >> 1] on usize. *)
Definition shr1 (n : N) : N := N.shiftr n 1.

(** A raw pointer [*const T]. [p_addr] is the byte address the Rust code
    computes with. [p_blk]/[p_idx] are ghost: the buffer and the index of the
    item the pointer denotes. Ghost components only decide which item a memory
    access touches; no model function branches on them, and a memory access
    through a pointer whose address disagrees with its ghost index is [UB]
    (see [mem_at] in DataModel.v). *)
Record ptr := Ptr { p_blk : nat; p_addr : N; p_idx : N }.

(** [ptr.add(k)] for an item type of size [sz]. *)
Definition ptr_add (sz : N) (p : ptr) (k : N) : ptr :=
  Ptr (p_blk p) (p_addr p + k * sz)%N (p_idx p + k)%N.
(** The pointer is left alone (zero-sized items), only the ghost index moves. *)
Definition ptr_stay (p : ptr) (k : N) : ptr :=
  Ptr (p_blk p) (p_addr p) (p_idx p + k)%N.

(** ** Reference-counted boxes

    A heap is a list; the position is the identity of the box and is never
    reused. [Some (s, v)]: live, strong count [s], value [v]. [None]: the value
    has been destroyed (strong count 0). A [Weak] is the identity of a box (or
    nothing, [Weak::new()]); it can be upgraded iff the box is live. *)
Notation heap A := (list (option (nat * A))).

Section heap.
  Context {A : Type}.
  Implicit Types (h : heap A) (v : A).

  (** [Rc::new] *)
  Definition rc_new h v : heap A * nat := (h ++ [Some (1, v)], length h).
  (** [Rc::strong_count]; 0 for a destroyed box. *)
  Definition rc_count h (i : nat) : nat :=
    match h !! i with Some (Some (s, _)) => s | _ => 0 end.
  (** The value of a live box. *)
  Definition rc_get h (i : nat) : option A :=
    match h !! i with Some (Some (_, v)) => Some v | _ => None end.
  (** Dereferencing an [Rc]; dereferencing a destroyed box is UB. *)
  Definition rc_val h (i : nat) : res A :=
    match rc_get h i with Some v => Ok v | None => UB end.
  (** [Rc::clone] *)
  Definition rc_inc h (i : nat) : res (heap A) :=
    match h !! i with
    | Some (Some (s, v)) => Ok (<[i := Some (S s, v)]> h)
    | _ => UB
    end.
  (** Dropping an [Rc]: decrement; if the count reaches zero, the box is dead
      and the caller gets the value in order to run its destructor. *)
  Definition rc_dec h (i : nat) : res (heap A * option A) :=
    match h !! i with
    | Some (Some (S O, v)) => Ok (<[i := None]> h, Some v)
    | Some (Some (S (S s), v)) => Ok (<[i := Some (S s, v)]> h, None)
    | _ => UB
    end.
  (** [Rc::try_unwrap]: [Some v] models [Ok(v)], [None] models [Err(rc)] (the
      caller still owns the reference). *)
  Definition rc_try_unwrap h (i : nat) : res (heap A * option A) :=
    match h !! i with
    | Some (Some (1, v)) => Ok (<[i := None]> h, Some v)
    | Some (Some (S (S _), _)) => Ok (h, None)
    | _ => UB
    end.
  (** [Weak::upgrade] *)
  Definition rc_upgrade h (o : option nat) : heap A * option nat :=
    match o with
    | None => (h, None)
    | Some i => match h !! i with
                | Some (Some (s, v)) => (<[i := Some (S s, v)]> h, Some i)
                | _ => (h, None)
                end
    end.
  (** Writing through a [Cell]/[UnsafeCell] field of a live box. *)
  Definition rc_set h (i : nat) (f : A -> A) : res (heap A) :=
    match h !! i with
    | Some (Some (s, v)) => Ok (<[i := Some (s, f v)]> h)
    | _ => UB
    end.
End heap.
