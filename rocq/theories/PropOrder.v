(** C50: data races. *)
From Verif Require Import Base Api SliceItemsModel BinPartsModel DataModel RcModel Spec ArcModel ArcConc ConcSpec ConcHold ConcRaces OrderModel OrderTheory OrderHold OrderDemo.
Local Open Scope nat_scope.

(** Whatever the threads do, short of writing through what [get_mut] returned:
    of two accesses to an item, one of them writing, dropping or freeing it, the
    earlier one happens before the later one. The orderings that differ between
    versions of [std::sync::Arc] do not matter. *)
Theorem C50_race_free_partial : forall (V : Type) (sz : N) acq n (es : list (sched (V:=V))) o,
  oreach sz acq n es o -> always sz calm n es -> no_mut_write es ->
  forall i j a b, os_acc o !! i = Some a -> os_acc o !! j = Some b -> i < j -> ac_cell a = ac_cell b ->
    ac_write a = true \/ ac_write b = true -> before o i j.
Proof. exact @race_free_before. Qed.
Print Assumptions C50_race_free_partial.
(** Two threads do share items and write to them. *)
Example C50_example : no_mut_write turns50 /\ always 8 calm 2 turns50 /\
  forall acq, exists o, oreach 8 acq 2 turns50 o /\ meet (os_acc o) 4 6 true.
Proof. split; [apply plain50|]. split; [apply no_upgrade_calm, plain50|]. exact turns50_meet. Qed.

(** What happens before is an order that extends the order of each thread and
    agrees with the schedule. *)
Theorem C50_order : forall (V : Type) (sz : N) acq n (es : list (sched (V:=V))) o, oreach sz acq n es o ->
  (forall i j a b, os_acc o !! i = Some a -> os_acc o !! j = Some b -> ac_thread a = ac_thread b -> i < j -> before o i j) /\
  (forall i j k, before o i j -> before o j k -> before o i k) /\
  (forall i j, before o i j -> i < j \/ exists a b, os_acc o !! i = Some a /\ os_acc o !! j = Some b /\ ac_thread a = ac_thread b).
Proof. exact @hb_order. Qed.
Print Assumptions C50_order.
(** ... but not the order of the schedule: see the next theorem. *)

(** Through what [get_mut] returned, too, as long as nobody has called
    [clone_left] or [clone_right] on the slice or has a [WeakSlice] of it by then,
    if [Arc::strong_count] is [Acquire]. What is missing: [get_mut] on a slice that
    has been split, or that has been downgraded. There it is false, as shown
    below. *)
Theorem C50_get_mut_partial : forall (V : Type) (sz : N) n (es : list (sched (V:=V))) o,
  oreach sz true n es o -> always sz calm n es -> always sz calm_get n es -> always sz uncut n es -> always sz unwatched n es ->
  forall i j a b, os_acc o !! i = Some a -> os_acc o !! j = Some b -> i < j -> ac_cell a = ac_cell b ->
    ac_write a = true \/ ac_write b = true -> before o i j.
Proof. exact @hold_before. Qed.
Print Assumptions C50_get_mut_partial.
(** While others use and split other parts of the same allocation. *)
Example C50_get_mut_example : always 8 calm 2 split50 /\ always 8 calm_get 2 split50 /\ always 8 uncut 2 split50 /\ always 8 unwatched 2 split50 /\
  exists o, oreach 8 true 2 split50 o /\ meet (os_acc o) 4 6 true.
Proof. destruct split50_ok as (H1 & H2 & H3 & H4). eauto 6 using split50_meet. Qed.

(** In particular when slices are only ever cloned, as one does with [Arc<[T]>]:
    no other hypothesis on what the threads do. *)
Theorem C50_clones : forall (V : Type) (sz : N) n (es : list (sched (V:=V))) o,
  no_halves es -> no_downgrade es -> oreach sz true n es o ->
  forall i j a b, os_acc o !! i = Some a -> os_acc o !! j = Some b -> i < j -> ac_cell a = ac_cell b ->
    ac_write a = true \/ ac_write b = true -> before o i j.
Proof. exact @clones_before. Qed.
Print Assumptions C50_clones.
Example C50_clones_example : no_halves relaxed50 /\ no_downgrade relaxed50 /\ exists o, oreach 8 true 2 relaxed50 o /\ meet (os_acc o) 4 8 true.
Proof. split; [apply clones50|]. split; [apply clones50|]. exact clones50_meet. Qed.

(** With [get_mut] there are races: it does not wait for the last use of parts of
    the slice whose guard has been given up by another thread. *)
Theorem C50_get_mut_refuted : exists es o i j, no_upgrade es /\ no_downgrade es /\ always 8 calm_get 2 es /\
  oreach (V:=nat) 8 true 2 es o /\ race o i j.
Proof. exists race50. destruct race50_meet as (o & H). exists o, 4, 7. split; [apply plain50|]. split; [apply clones50|]. split; [apply race50_ok|exact H]. Qed.
Print Assumptions C50_get_mut_refuted.
(** Nor does [upgrade] wait for a use of what [get_mut] returned, even after
    that use, and even if the slice was never split. *)
Theorem C50_upgrade_refuted : exists es o i j, always 8 calm 2 es /\ always 8 calm_get 2 es /\ always 8 uncut 2 es /\
  oreach (V:=nat) 8 true 2 es o /\ race o i j.
Proof. exists upgrade50. destruct upgrade50_meet as (o & H). exists o, 6, 7. destruct upgrade50_ok as (H1 & H2 & H3). eauto. Qed.
Print Assumptions C50_upgrade_refuted.
(** If [Arc::strong_count] is [Relaxed], even between clones. *)
Theorem C50_relaxed_refuted : exists es o i j, no_upgrade es /\ no_halves es /\ no_downgrade es /\ oreach (V:=nat) 8 false 2 es o /\ race o i j.
Proof. exists relaxed50. destruct relaxed50_meet as (o & H). exists o, 4, 8. split; [apply plain50|]. split; [apply clones50|]. split; [apply clones50|exact H]. Qed.
Print Assumptions C50_relaxed_refuted.
