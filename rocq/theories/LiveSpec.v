(** Vocabulary in which it is stated that calls come to an end. Definitions only. *)
From Verif Require Import Base Api SliceItemsModel BinPartsModel DataModel RcModel Spec ArcModel ArcConc ConcSpec.

Section live_spec.
  Context {V : Type} (sz : N).
  Implicit Types (s : cstate V) (t : nat) (es : list (sched (V:=V))).

  (** Thread [t] spins at a closed gate of guard [y] (gate.rs:15-17; [down]: the
      gate for [downgrade], else the one for [clone_left]/[clone_right]). *)
  Definition waits s t (y : nat) (down : bool) : Prop :=
    (exists k, cs_t s !! t = Some (FWait y down :: k)) /\ gate_closed s y down.
  (** Thread [t] holds the latch of that gate: dropping it opens the gate. *)
  Definition has_latch s t (y : nat) (down : bool) : Prop :=
    exists st, cs_t s !! t = Some st /\ FOpen y down ∈ st.
  (** Thread [t] has nothing to do: it is between two calls, or holds the
      [&mut [T]] of [get_mut]. *)
  Definition free s t : Prop := idle s t \/ exists r, holds_mut s t r.
  (** Thread [t] is inside a call and does not spin. *)
  Definition busy s t : Prop := t < length (cs_t s) /\ ~ free s t /\ forall y down, ~ waits s t y down.
  (** The threads of the list [ts] step one after another; [k] of these steps
      were made by a thread that was busy. *)
  Inductive works : cstate V -> list nat -> nat -> cstate V -> Prop :=
  | works_nil s : works s [] 0 s
  | works_busy s t s1 ts k s' : busy s t -> tstep sz s t = Ok s1 -> works s1 ts k s' -> works s (t :: ts) (S k) s'
  | works_not s t s1 ts k s' : ~ busy s t -> tstep sz s t = Ok s1 -> works s1 ts k s' -> works s (t :: ts) k s'.
  (** No call is started: threads step, or end the use of the [&mut [T]] of [get_mut]. *)
  Definition goes_on (e : sched (V:=V)) : Prop := exists t, e = SStep t \/ e = SEnd t.
  (** The first [m] steps made if thread [f i] makes the [i]-th. *)
  Definition turns (f : nat -> nat) (m : nat) : list (sched (V:=V)) := (fun i => SStep (f i)) <$> seq 0 m.
  (** Each of the [n] threads gets a turn again and again. *)
  Definition fair (n : nat) (f : nat -> nat) : Prop := forall t i, t < n -> exists j, i <= j /\ f j = t.
End live_spec.
