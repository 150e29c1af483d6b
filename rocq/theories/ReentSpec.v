(** Where destructors of items run. *)
From Verif Require Import Base Api SliceItemsModel Spec DataModel RcModel ArcModel ArcConc ConcSpec.

Section spec.
  Context {V : Type} (sz : N).
  Implicit Types (s : cstate V) (t : nat) (es : list (sched (V:=V))).

  (** The next step of thread [t] is the destructor of an item (drop_in_place in
      arc_slice.rs:252 and slice_items.rs). *)
  Definition runs_destructor s t : Prop :=
    exists s' b i v, cstep sz s (SStep t) = Ok s' /\ dw_trace (cs_d s') = dw_trace (cs_d s) ++ [EDrop b i v].
  (** At the end of [es] thread [t], if it is in a call, is in the call [op]: it
      was idle when it called [op] and has not been idle at a later call. *)
  Definition in_call (n : nat) es t (op : cop V) : Prop :=
    exists es1 es2 s1, es = es1 ++ SStart t op :: es2 /\ creach sz n es1 s1 /\ idle s1 t /\
      forall a op' b s', es2 = a ++ SStart t op' :: b -> creach sz n (es1 ++ SStart t op :: a) s' -> ~ idle s' t.
End spec.
