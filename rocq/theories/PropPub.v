(** C51: publication and destruction of the crate's objects. *)
From Verif Require Import Base Api SliceItemsModel BinPartsModel DataModel RcModel Spec ArcModel ArcConc ConcSpec OrderModel PubModel PubTheory PubDemo.
Local Open Scope nat_scope.

(** Whatever the threads do, and whichever version of [std::sync::Arc] they use:
    whoever accesses an [ArcSliceData], a [DataGuard] or a boxed [Weak] through a
    pointer does so after it was made, also if another thread made it. *)
Theorem C51_published : forall (V : Type) (sz : N) acq n (es : list (sched (V:=V))) p, preach sz acq n es p ->
  forall j b, ps_acc p !! j = Some b -> oa_how b <> Init ->
  exists i a, ps_acc p !! i = Some a /\ oa_obj a = oa_obj b /\ oa_how a = Init /\ i < j /\ pbefore p i j.
Proof. exact @published_before. Qed.
Print Assumptions C51_published.
(** ... and it was made once. *)
Theorem C51_made_once : forall (V : Type) (sz : N) acq n (es : list (sched (V:=V))) p, preach sz acq n es p ->
  forall i j a b, ps_acc p !! i = Some a -> ps_acc p !! j = Some b -> oa_obj a = oa_obj b ->
    oa_how a = Init -> oa_how b = Init -> i = j.
Proof. exact @made_once. Qed.
Print Assumptions C51_made_once.
(** Whoever drops or moves out an [ArcSliceData] or drops a [DataGuard] does so
    after all who used it; only the counts are looked at later, through [Weak]s. *)
Theorem C51_destroyed : forall (V : Type) (sz : N) acq n (es : list (sched (V:=V))) p, preach sz acq n es p ->
  forall i j a b, ps_acc p !! i = Some a -> ps_acc p !! j = Some b -> oa_obj a = oa_obj b ->
    oa_how b = End -> oa_how a <> Peek -> i <> j -> i < j /\ pbefore p i j.
Proof. exact @destroyed_after. Qed.
Print Assumptions C51_destroyed.
(** One thread makes a data, a guard and a box which another thread finds and uses,
    and destroys after the first one has used them. *)
Example C51_example : forall acq, exists p, preach 8 acq 2 turns51 p /\ shown51 (ps_acc p).
Proof. exact turns51_meet. Qed.
(** [Peek] cannot be left out. *)
Example C51_example_weak : forall acq, exists p, preach 8 acq 2 weak51 p /\ cross (ps_acc p) 11 13 (BNode 0) End Peek.
Proof. exact weak51_meet. Qed.

(** What happens before is an order, as in C50. *)
Theorem C51_order : forall (V : Type) (sz : N) acq n (es : list (sched (V:=V))) p, preach sz acq n es p ->
  (forall i j a b, ps_acc p !! i = Some a -> ps_acc p !! j = Some b -> oa_thread a = oa_thread b -> i < j -> pbefore p i j) /\
  (forall i j k, pbefore p i j -> pbefore p j k -> pbefore p i k) /\
  (forall i j, pbefore p i j -> i < j \/ exists a b, ps_acc p !! i = Some a /\ ps_acc p !! j = Some b /\ oa_thread a = oa_thread b).
Proof. exact @pub_order. Qed.
Print Assumptions C51_order.
