(** Specification of the single-threaded API: no reference counts, no guards,
    no heap of nodes. A shared slice is a node of a halving tree, named by a
    label (which tree, which path of lefts and rights); whether a slice may be
    mutated, converted or upgraded is decided by looking at which labels the
    live handles have. *)
From Verif Require Import Base Api.

(** A contiguous range of a buffer: buffer, first index, length. *)
Record rng := Rng { rg_blk : nat; rg_lo : N; rg_len : N }.

(** The two halves of a range: [false] left, [true] right. *)
Definition half (side : bool) (r : rng) : rng :=
  if side then Rng (rg_blk r) (rg_lo r + rg_len r / 2) (rg_len r - rg_len r / 2)
  else Rng (rg_blk r) (rg_lo r) (rg_len r / 2).

(** The [2^k] leaves of halving [k] times, left to right. *)
Fixpoint rng_leaves (k : nat) (r : rng) : list rng :=
  match k with
  | O => [r]
  | S k => rng_leaves k (half false r) ++ rng_leaves k (half true r)
  end.

(** The cells (buffer, index) of a range, in order. *)
Definition rng_cells (r : rng) : list (nat * N) :=
  (fun i => (rg_blk r, (rg_lo r + N.of_nat i)%N)) <$> seq 0 (N.to_nat (rg_len r)).

(** A node of a halving tree: the tree and the path from its root. *)
Record label := Lbl { l_tree : nat; l_path : list bool }.
#[global] Instance label_eq_dec : EqDecision label.
Proof. solve_decision. Defined.

Definition lchild (l : label) (side : bool) : label := Lbl (l_tree l) (l_path l ++ [side]).
(** [l1] is [l2] or an ancestor of it. *)
Definition anc (l1 l2 : label) : Prop :=
  l_tree l1 = l_tree l2 ∧ l_path l1 `prefix_of` l_path l2.
#[global] Instance anc_dec l1 l2 : Decision (anc l1 l2).
Proof. unfold anc. apply _. Defined.

(** Trees are given by the ranges of their roots. *)
Notation trees := (list rng).
Definition path_rng (r : rng) (p : list bool) : rng := foldl (fun r s => half s r) r p.
Definition lrng (T : trees) (l : label) : rng :=
  path_rng (default (Rng 0 0 0) (T !! l_tree l)) (l_path l).
(** The label denoting a half. An empty slice is its own halves, and a slice of
    one item is its own right half. *)
Definition lhalf (T : trees) (l : label) (side : bool) : label :=
  if (rg_len (lrng T l) <=? (if side then 1 else 0))%N then l else lchild l side.

(** Handles. [APart]s: a list of subtrees still to be split, with their
    heights; splitting happens on demand at the end the caller takes from. *)
Inductive ahandle :=
| ARc (l : label)
| AWeak (l : option label)
| AParts (q : list (label * nat))
| AMut (r : rng)
| AIter (r : rng)
| AMParts (rs : list rng).

(** Take one leaf from the front / the back of a queue of subtrees. *)
Fixpoint pop_front (T : trees) (l : label) (j : nat) (q : list (label * nat)) : label * list (label * nat) :=
  match j with
  | O => (l, q)
  | S j => pop_front T (lhalf T l false) j ((lhalf T l true, j) :: q)
  end.
Fixpoint pop_back (T : trees) (l : label) (j : nat) (q : list (label * nat)) : label * list (label * nat) :=
  match j with
  | O => (l, q)
  | S j => pop_back T (lhalf T l true) j (q ++ [(lhalf T l false, j)])
  end.

(** Strong labels of a handle: the nodes it shares ownership of. *)
Definition strong_labels (h : ahandle) : list label :=
  match h with
  | ARc l => [l]
  | AParts q => fst <$> q
  | _ => []
  end.
Definition weak_labels (h : ahandle) : list label :=
  match h with AWeak (Some l) => [l] | _ => [] end.
(** The cells a handle owns or shares ownership of, in order. *)
Definition hcells (T : trees) (h : ahandle) : list (nat * N) :=
  match h with
  | ARc l => rng_cells (lrng T l)
  | AWeak _ => []
  | AParts q => q ≫= fun x => rng_cells (lrng T (fst x))
  | AMut r | AIter r => rng_cells r
  | AMParts rs => rs ≫= rng_cells
  end.

Record astate (V : Type) := AS {
  as_base : list N;                   (* addresses of the buffers *)
  as_trees : trees;
  as_mem : gmap (nat * N) V;          (* the items that are alive *)
  as_h : list (option ahandle)
}.
Arguments AS {_} _ _ _ _.
Arguments as_base {_} _.
Arguments as_trees {_} _.
Arguments as_mem {_} _.
Arguments as_h {_} _.

Definition empty_astate {V} : astate V := AS [] [] ∅ [].

Section spec.
  Context {V : Type} (sz : N) (vclone : V -> V).
  Notation astate := (astate V).

  Definition live_handles (hs : list (option ahandle)) : list ahandle := omap id hs.
  Definition all_strong (hs : list (option ahandle)) : list label := live_handles hs ≫= strong_labels.
  Definition all_weak (hs : list (option ahandle)) : list label := live_handles hs ≫= weak_labels.
  Definition all_cells (T : trees) (hs : list (option ahandle)) : list (nat * N) :=
    live_handles hs ≫= hcells T.

  (** [l] may be turned into a unique slice: among all strong labels, only
      [l]'s own one is [l], an ancestor or a descendant. *)
  Definition sole_owner (hs : list (option ahandle)) (l : label) : bool :=
    bool_decide (length (filter (fun l' => anc l l' ∨ anc l' l) (all_strong hs)) = 1).
  (** No weak handle at [l] or below. *)
  Definition no_weak_below (hs : list (option ahandle)) (l : label) : bool :=
    bool_decide (Forall (fun l' => ¬ anc l l') (all_weak hs)).
  (** Some strong handle at [l] or above. *)
  Definition alive (hs : list (option ahandle)) (l : label) : bool :=
    bool_decide (Exists (fun l' => anc l' l) (all_strong hs)).

  (** Items not covered by any handle are gone. *)
  Definition collect (T : trees) (hs : list (option ahandle)) (m : gmap (nat * N) V) : gmap (nat * N) V :=
    filter (fun x => fst x ∈ all_cells T hs) m.

  Definition cells_vals (m : gmap (nat * N) V) (cs : list (nat * N)) : list V :=
    omap (fun c => m !! c) cs.
  Definition cell_addr (bs : list N) (c : nat * N) : N :=
    (default 0 (bs !! fst c) + snd c * sz)%N.
  Definition a_slice (s : astate) (cs : list (nat * N)) : out V :=
    RSlice (if (sz =? 0)%N then None else cell_addr (as_base s) <$> head cs)
           (cells_vals (as_mem s) cs).

  Definition a_get (s : astate) (h : nat) : option ahandle :=
    match as_h s !! h with Some (Some x) => Some x | _ => None end.
  (** New handle table; items no longer covered disappear. *)
  Definition a_set (s : astate) (hs : list (option ahandle)) : astate :=
    AS (as_base s) (as_trees s) (collect (as_trees s) hs (as_mem s)) hs.
  Definition a_new (s : astate) (hs : list (option ahandle)) (x : ahandle) : astate * out V :=
    (a_set s (hs ++ [Some x]), RHandle (length hs)).
  (** Put [vals] into a new buffer at [base]. *)
  Definition a_alloc (s : astate) (base : N) (vals : list V) : astate * rng :=
    let r := Rng (length (as_base s)) 0 (N.of_nat (length vals)) in
    (AS (as_base s ++ [base]) (as_trees s)
        (list_to_map (zip (rng_cells r) vals) ∪ as_mem s) (as_h s), r).
  (** Start a new tree whose root is [r]. *)
  Definition a_root (s : astate) (r : rng) : astate * label :=
    (AS (as_base s) (as_trees s ++ [r]) (as_mem s) (as_h s), Lbl (length (as_trees s)) []).
  Definition a_replace (s : astate) (cs : list (nat * N)) (i : N) (v : V) : astate * out V :=
    match cs !! N.to_nat i with
    | None => (s, RPanic)
    | Some c => match as_mem s !! c with
                | None => (s, RInvalid)
                | Some old => (AS (as_base s) (as_trees s) (<[c := v]> (as_mem s)) (as_h s), RVal old)
                end
    end.

  (** [Some k] iff [n = 2^k]. *)
  Definition log2_exact (n : N) : option nat :=
    if (n =? 2 ^ N.log2 n)%N then Some (N.to_nat (N.log2 n)) else None.

  Definition spec_step (s : astate) (o : op V) : astate * out V :=
    let hs := as_h s in
    match o with
    | OFromVec base vals =>
        if (N.of_nat (length vals) <? usize_lim)%N then
          let '(s, r) := a_alloc s base vals in
          let '(s, l) := a_root s r in
          a_new s hs (ARc l)
        else (s, RInvalid)
    | OMutFromVec base vals =>
        if (N.of_nat (length vals) <? usize_lim)%N then
          let '(s, r) := a_alloc s base vals in a_new s hs (AMut r)
        else (s, RInvalid)
    | OWeakNew => a_new s hs (AWeak None)
    | OClone h =>
        match a_get s h with
        | Some (ARc l) => a_new s hs (ARc l)
        | Some (AWeak l) => a_new s hs (AWeak l)
        | Some (AParts q) => a_new s hs (AParts q)
        | _ => (s, RInvalid)
        end
    | OMutClone h base =>
        match a_get s h with
        | Some (AMut r) =>
            let '(s, r') := a_alloc s base (vclone <$> cells_vals (as_mem s) (rng_cells r)) in
            a_new s hs (AMut r')
        | _ => (s, RInvalid)
        end
    | OCloneHalf side h =>
        match a_get s h with
        | Some (ARc l) => a_new s hs (ARc (lhalf (as_trees s) l side))
        | _ => (s, RInvalid)
        end
    | OSplitOff side h =>
        match a_get s h with
        | Some (ARc l) => a_new s (<[h := Some (ARc (lhalf (as_trees s) l (negb side)))]> hs)
                                (ARc (lhalf (as_trees s) l side))
        | Some (AMut r) => a_new s (<[h := Some (AMut (half (negb side) r))]> hs) (AMut (half side r))
        | _ => (s, RInvalid)
        end
    | OSplitIntoParts h n =>
        if negb (n <? usize_lim)%N then (s, RInvalid) else
        match a_get s h with
        | Some (ARc l) =>
            match log2_exact n with
            | Some k => a_new s (<[h := None]> hs) (AParts [(l, k)])
            | None => (a_set s (<[h := None]> hs), RPanic)
            end
        | Some (AMut r) =>
            match log2_exact n with
            | Some k => a_new s (<[h := None]> hs) (AMParts (rng_leaves k r))
            | None => (a_set s (<[h := None]> hs), RPanic)
            end
        | _ => (s, RInvalid)
        end
    | OGetMut h =>
        match a_get s h with
        | Some (ARc l) =>
            if sole_owner hs l && no_weak_below hs l
            then (s, a_slice s (rng_cells (lrng (as_trees s) l)))
            else (s, RNone)
        | _ => (s, RInvalid)
        end
    | OGetMutReplace h i v =>
        match a_get s h with
        | Some (ARc l) =>
            if sole_owner hs l && no_weak_below hs l
            then a_replace s (rng_cells (lrng (as_trees s) l)) i v
            else (s, RNone)
        | _ => (s, RInvalid)
        end
    | OIntoMut h =>
        match a_get s h with
        | Some (ARc l) =>
            if sole_owner hs l then a_new s (<[h := None]> hs) (AMut (lrng (as_trees s) l))
            else (s, RErr)
        | _ => (s, RInvalid)
        end
    | OIntoImmut h =>
        match a_get s h with
        | Some (AMut r) =>
            let '(s, l) := a_root s r in a_new s (<[h := None]> hs) (ARc l)
        | _ => (s, RInvalid)
        end
    | ODowngrade h =>
        match a_get s h with
        | Some (ARc l) => a_new s hs (AWeak (Some l))
        | _ => (s, RInvalid)
        end
    | OUpgrade h =>
        match a_get s h with
        | Some (AWeak (Some l)) => if alive hs l then a_new s hs (ARc l) else (s, RNone)
        | Some (AWeak None) => (s, RNone)
        | _ => (s, RInvalid)
        end
    | ODrop h =>
        match a_get s h with
        | Some _ => (a_set s (<[h := None]> hs), RUnit)
        | None => (s, RInvalid)
        end
    | ODeref h =>
        match a_get s h with
        | Some (AWeak _) | None => (s, RInvalid)
        | Some x => (s, a_slice s (hcells (as_trees s) x))
        end
    | OReplace h i v =>
        match a_get s h with
        | Some (AMut r) | Some (AIter r) => a_replace s (rng_cells r) i v
        | Some (AMParts rs) => a_replace s (rs ≫= rng_cells) i v
        | _ => (s, RInvalid)
        end
    | OIntoIter h =>
        match a_get s h with
        | Some (AMut r) => a_new s (<[h := None]> hs) (AIter r)
        | _ => (s, RInvalid)
        end
    | ONext back h =>
        match a_get s h with
        | Some (AIter r) =>
            if (rg_len r =? 0)%N then (s, RNone) else
            let i := if back then (rg_lo r + rg_len r - 1)%N else rg_lo r in
            let r' := Rng (rg_blk r) (if back then rg_lo r else rg_lo r + 1)%N (rg_len r - 1) in
            match as_mem s !! (rg_blk r, i) with
            | Some v => (a_set s (<[h := Some (AIter r')]> hs), RVal v)
            | None => (s, RInvalid)
            end
        | Some (AMParts rs) =>
            match (if back then last rs else head rs) with
            | Some r => a_new s (<[h := Some (AMParts (if back then removelast rs else tail rs))]> hs) (AMut r)
            | None => (s, RNone)
            end
        | Some (AParts q) =>
            match (if back then last q else head q) with
            | Some (l, j) =>
                let '(l', q') := if back then pop_back (as_trees s) l j (removelast q)
                                 else pop_front (as_trees s) l j (tail q) in
                a_new s (<[h := Some (AParts q')]> hs) (ARc l')
            | None => (s, RNone)
            end
        | _ => (s, RInvalid)
        end
    | OSplitAt to h i =>
        match a_get s h with
        | Some (AIter r) =>
            if (rg_len r <? i)%N then (s, RPanic) else
            let r1 := Rng (rg_blk r) (rg_lo r) i in
            let r2 := Rng (rg_blk r) (rg_lo r + i) (rg_len r - i) in
            if to then a_new s (<[h := Some (AIter r2)]> hs) (AIter r1)
            else a_new s (<[h := Some (AIter r1)]> hs) (AIter r2)
        | _ => (s, RInvalid)
        end
    | OLen h =>
        match a_get s h with
        | Some (AIter r) => (s, RLen (rg_len r))
        | Some (AMParts rs) => (s, RLen (N.of_nat (length rs)))
        | Some (AParts q) => (s, RLen (foldr (fun x acc => 2 ^ N.of_nat (snd x) + acc)%N 0%N q))
        | _ => (s, RInvalid)
        end
    end.

  Fixpoint spec_run (s : astate) (ops : list (op V)) : astate * list (out V) :=
    match ops with
    | [] => (s, [])
    | o :: ops => let '(s, r) := spec_step s o in
                  let '(s, rs) := spec_run s ops in (s, r :: rs)
    end.
End spec.
