(** Specification of the thread-safe API used by one thread. It is the
    specification of Spec.v except for [get_mut]: instead of all weak slices at
    or below the slice, only those at the slice itself count, and of these only
    the linked ones. A weak slice is linked from the [downgrade] that made it
    until the first moment at which no strong slice is left at or below it.
    Clones of a linked weak slice are linked, clones of others are not; a weak
    slice that has lost its link never gets it back, even if it can still be
    upgraded because a strong slice exists above it. *)
From Verif Require Import Base Api Spec.

Section arc_spec.
  Context {V : Type} (sz : N) (vclone : V -> V).
  Notation astate := (astate V).

  Definition weak_at (s : astate) (k : nat) : option label :=
    match a_get s k with Some (AWeak (Some l)) => Some l | _ => None end.
  (** No variable in [K] holds a weak slice at [l]. *)
  Definition no_linked (s : astate) (K : list nat) (l : label) : bool :=
    bool_decide (Forall (fun k => weak_at s k <> Some l) K).
  (** [k] holds a weak slice with a strong slice at or below it. *)
  Definition still_linked (s : astate) (k : nat) : bool :=
    match weak_at s k with
    | Some l => bool_decide (Exists (fun l' => anc l l') (all_strong (as_h s)))
    | None => false
    end.
  Definition link_new (K : list nat) (o : op V) (r : out V) : list nat :=
    match o, r with
    | ODowngrade _, RHandle n => n :: K
    | OClone h, RHandle n => if bool_decide (h ∈ K) then n :: K else K
    | _, _ => K
    end.

  Definition arc_spec_base (s : astate) (K : list nat) (o : op V) : astate * out V :=
    match o with
    | OGetMut h =>
        match a_get s h with
        | Some (ARc l) =>
            if sole_owner (as_h s) l && no_linked s K l
            then (s, a_slice sz s (rng_cells (lrng (as_trees s) l)))
            else (s, RNone)
        | _ => (s, RInvalid)
        end
    | OGetMutReplace h i v =>
        match a_get s h with
        | Some (ARc l) =>
            if sole_owner (as_h s) l && no_linked s K l
            then a_replace s (rng_cells (lrng (as_trees s) l)) i v
            else (s, RNone)
        | _ => (s, RInvalid)
        end
    | _ => spec_step sz vclone s o
    end.
  (** The state is paired with the variables holding linked weak slices. *)
  Definition arc_spec_step (sk : astate * list nat) (o : op V) : (astate * list nat) * out V :=
    let '(s, r) := arc_spec_base (fst sk) (snd sk) o in
    ((s, filter (fun k => still_linked s k = true) (link_new (snd sk) o r)), r).
  Fixpoint arc_spec_run (sk : astate * list nat) (ops : list (op V)) : (astate * list nat) * list (out V) :=
    match ops with
    | [] => (sk, [])
    | o :: ops => let '(sk, r) := arc_spec_step sk o in
                  let '(sk, rs) := arc_spec_run sk ops in (sk, r :: rs)
    end.
End arc_spec.
