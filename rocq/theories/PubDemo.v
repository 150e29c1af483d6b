(** Schedules for the examples beside C51. *)
From Verif Require Import Base Api SliceItemsModel BinPartsModel DataModel RcModel Spec ArcModel ArcConc ConcSpec ConcHold ConcRaces OrderModel PubModel.
Local Open Scope nat_scope.

(** Two threads have clones of a slice and ask for its left half at the same time.
    Thread 0 is the first to store the child (data 1) and its guard (guard 1), thread 1
    finds both. Thread 0 drops all it has, then thread 1 does. *)
Definition turns51 : list (sched (V:=nat)) :=
  alone 0 (CFromVec 1000 [1;2;3;4]) ++ alone 0 (CClone 0) ++
  [SStart 0 (CCloneHalf false 0); SStart 1 (CCloneHalf false 1)] ++ steps 0 2 ++ steps 1 3 ++ steps 0 40 ++ steps 1 40 ++
  alone 0 (CDrop 2) ++ alone 0 (CDrop 0) ++ alone 1 (CDeref 3) ++ alone 1 (CDrop 1) ++ alone 1 (CDrop 3).

(** [P] holds of the accesses made by the schedule [es]. *)
Definition pafter (acq : bool) (es : list (sched (V:=nat))) (P : list oaccess -> Prop) : Prop :=
  match prun 8 acq (init_pstate 2) es with Ok p => P (ps_acc p) | _ => False end.
Lemma pafter_reach acq es P : pafter acq es P -> exists p, preach 8 acq 2 es p /\ P (ps_acc p).
Proof. unfold pafter, preach. destruct (prun _ _ _ _) as [p| | |] eqn:E; try done. eauto. Qed.
(** Accesses [i] and [j] are by different threads and to the same object. *)
Definition cross (l : list oaccess) (i j : nat) (o : obj) (hi hj : how) : Prop :=
  match l !! i, l !! j with
  | Some x, Some y => oa_thread x <> oa_thread y /\ oa_obj x = o /\ oa_obj y = o /\ oa_how x = hi /\ oa_how y = hj
  | _, _ => False
  end.
Definition unordered (l : list oaccess) (i j : nat) : Prop :=
  match l !! i, l !! j with
  | Some x, Some y => bool_decide (i ∈ oa_seen y) = false /\ bool_decide (j ∈ oa_seen x) = false
  | _, _ => False
  end.
Definition shown51 (l : list oaccess) : Prop :=
  cross l 18 31 (BNode 1) Init Use /\ cross l 28 34 (BGuard 1) Init Use /\ cross l 29 33 (BBox 3) Init Use /\
  cross l 35 43 (BNode 1) Use End /\ cross l 36 44 (BGuard 1) Use End /\ unordered l 14 15.
Lemma turns51_meet acq : exists p, preach 8 acq 2 turns51 p /\ shown51 (ps_acc p).
Proof. apply (pafter_reach acq turns51 shown51). destruct acq; vm_compute; repeat split; discriminate. Qed.
(** Thread 1 looks at a data through a [Weak] after thread 0 has dropped it. *)
Definition weak51 : list (sched (V:=nat)) :=
  alone 0 (CFromVec 1000 [1;2;3;4]) ++ alone 0 (CDowngrade 0) ++ alone 0 (CDrop 0) ++ alone 1 (CUpgrade 1).
Lemma weak51_meet acq : exists p, preach 8 acq 2 weak51 p /\ cross (ps_acc p) 11 13 (BNode 0) End Peek.
Proof. apply (pafter_reach acq weak51 (fun l => cross l 11 13 (BNode 0) End Peek)). destruct acq; vm_compute; repeat split; discriminate. Qed.
