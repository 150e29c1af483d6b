(** C45, C48: calls of ArcSlice, its WeakSlice and ArcSliceMut come to an end. *)
From Verif Require Import Base Api SliceItemsModel BinPartsModel DataModel RcModel Spec ArcModel ArcConc ConcSpec LiveSpec ConcFair ConcRaces ConcCheck AloneCheck LiveCheck.

(** C45. A thread that runs while the others, wherever they are, stand still
    gets to the end of its call, or to a gate that is closed; unless it runs
    into one of the errors that C38 is about. *)
Theorem C45_solo : forall (V : Type) (sz : N) n (es : list (sched (V:=V))) s t,
  creach sz n es s -> t < n -> (forall m, exists s', creach sz n (es ++ replicate m (SStep t)) s') ->
  exists m s', creach sz n (es ++ replicate m (SStep t)) s' /\
    (free s' t \/ exists y down, waits s' t y down) /\ forall t', t' <> t -> cs_t s' !! t' = cs_t s !! t'.
Proof. exact @solo_rest. Qed.
Print Assumptions C45_solo.
(** It does not if the schedule was calm so far and the others are not in the
    middle of an upgrade or into_mut. *)
Theorem C45_solo_calm : forall (V : Type) (sz : N) n (es : list (sched (V:=V))) s t,
  always sz calm n es -> creach sz n es s -> uncontended s t -> t < n ->
  exists m s', creach sz n (es ++ replicate m (SStep t)) s' /\
    (free s' t \/ exists y down, waits s' t y down) /\ forall t', t' <> t -> cs_t s' !! t' = cs_t s !! t'.
Proof. exact @solo_rest_calm. Qed.
Print Assumptions C45_solo_calm.
(** A thread that waits at a gate waits for a thread that is itself inside a
    call and not waiting. *)
Theorem C45_waits_for : forall (V : Type) (sz : N) n (es : list (sched (V:=V))) s t y down,
  creach sz n es s -> waits s t y down -> exists t', has_latch s t' y down /\ busy s t'.
Proof. exact @waits_for. Qed.
Print Assumptions C45_waits_for.
(** From any state on a calm schedule all calls can be brought to their end
    without an error, starting no new ones. *)
Theorem C45_winds_down : forall (V : Type) (sz : N) n (es : list (sched (V:=V))) s,
  always sz calm n es -> creach sz n es s ->
  exists es' s', Forall goes_on es' /\ always sz calm n (es ++ es') /\ creach sz n (es ++ es') s' /\ quiescent s'.
Proof. exact @winds_down. Qed.
Print Assumptions C45_winds_down.
Example C45_solo_applies : (exists s, creach 8 3 into45 s) /\ forall t m, exists s', creach 8 3 (into45 ++ replicate m (SStep t)) s'.
Proof. exact (conj (solo45 0 0) solo45). Qed.
Example C45_calm_applies : exists s, always 8 calm 3 get45 /\ creach 8 3 get45 s /\ uncontended s 1 /\ busy s 1.
Proof. exact uncontended45. Qed.
Example C45_waits_applies : exists s, creach 8 3 get45 s /\ waits s 0 1 false /\ has_latch s 1 1 false /\ busy s 1 /\ busy s 2.
Proof. exact wait45. Qed.

(** C48. However the threads take turns, the steps they make while they do not
    spin are boundedly many as long as no new calls are made. *)
Theorem C48_bounded : forall (V : Type) (sz : N) n (es : list (sched (V:=V))) s, creach sz n es s ->
  exists b, forall ts k s', works sz s ts k s' -> k <= b.
Proof. exact @work_bounded. Qed.
Print Assumptions C48_bounded.
(** So all calls end if each thread gets a turn again and again, unless a step
    runs into one of the errors that C38 is about; nobody spins for ever. *)
Theorem C48_fair : forall (V : Type) (sz : N) n (es : list (sched (V:=V))) s f,
  creach sz n es s -> fair n f -> (forall m, exists s', creach sz n (es ++ turns f m) s') ->
  exists m s', creach sz n (es ++ turns f m) s' /\ forall t, t < n -> free s' t.
Proof. exact @fair_rest. Qed.
Print Assumptions C48_fair.
(** None does if the schedule is calm. *)
Theorem C48_fair_calm : forall (V : Type) (sz : N) n (es : list (sched (V:=V))) f,
  (forall m, always sz calm n (es ++ turns f m)) -> fair n f ->
  exists m s', creach sz n (es ++ turns f m) s' /\ forall t, t < n -> free s' t.
Proof. exact @fair_calm. Qed.
Print Assumptions C48_fair_calm.
(** None does if nobody has called into_mut, or nobody upgrade. *)
Theorem C48_fair_plain : forall (V : Type) (sz : N) n (es : list (sched (V:=V))) f,
  no_into_mut es \/ no_upgrade es -> fair n f ->
  exists m s', creach sz n (es ++ turns f m) s' /\ forall t, t < n -> free s' t.
Proof. exact @fair_plain. Qed.
Print Assumptions C48_fair_plain.
Example C48_bounded_applies : exists s s', creach 8 3 get45 s /\ works 8 s [0; 0; 1; 1; 0; 2; 0] 5 s'.
Proof. exact works45. Qed.
Example C48_fair_applies : fair 3 (fun i => i mod 3) /\ forall f m, always 8 calm 3 (into45 ++ turns f m).
Proof. exact (conj fair45 turns45). Qed.
Example C48_plain_applies : no_upgrade get45 /\ no_upgrade into45 /\ no_into_mut get45.
Proof. exact no_upgrade45. Qed.
