(** C54: where destructors of items run. *)
From Verif Require Import Base Api SliceItemsModel BinPartsModel DataModel RcModel Spec ArcModel ArcConc ConcSpec ConcRaces LiveSpec ReentSpec ReentTheory ReentItem ReentCheck.
Local Open Scope nat_scope.

(** Unless [into_mut] races with [upgrade], only [drop] and [upgrade] run
    destructors ... *)
Theorem C54_only_partial : forall (V : Type) (sz : N) n (es : list (sched (V:=V))) s t,
  always sz calm n es -> creach sz n es s -> runs_destructor sz s t ->
  exists h, in_call sz n es t (CDrop h) \/ in_call sz n es t (CUpgrade h).
Proof. exact @reent_only. Qed.
Print Assumptions C54_only_partial.
(** ... and the thread that runs one has closed no gate. *)
Theorem C54_no_latch_partial : forall (V : Type) (sz : N) n (es : list (sched (V:=V))) s t y down,
  always sz calm n es -> creach sz n es s -> runs_destructor sz s t -> ~ has_latch s t y down.
Proof. exact @reent_no_latch. Qed.
Print Assumptions C54_no_latch_partial.
Example C54_only_applies : always 8 calm 2 drop54 /\ in_call 8 2 drop54 0 (CDrop 0) /\ exists s, creach 8 2 drop54 s /\ runs_destructor 8 s 0.
Proof. exact (conj (proj1 (proj2 drop54_ok)) (conj (proj1 (proj2 (proj2 drop54_ok))) (cafter_reach _ _ _ _ (proj2 (proj2 (proj2 drop54_ok)))))). Qed.

(** The item is there until its destructor has run, it was not dropped before,
    and nothing alive reaches it: no data that is not dropped covers it, and no
    slice that anyone has. So a destructor that calls this library cannot come
    across its own item. *)
Theorem C54_gone_partial : forall (V : Type) (sz : N) n (es : list (sched (V:=V))) s t s' b i v,
  always sz calm n es -> creach sz n es s ->
  cstep sz s (SStep t) = Ok s' -> dw_trace (cs_d s') = dw_trace (cs_d s) ++ [EDrop b i v] ->
  citem s (b, i) = Some v /\ (b, i) ∉ cdropped s /\ citem s' (b, i) = None /\
  (forall x, (b, i) ∉ data_cells s x) /\ (forall x, has s x -> (b, i) ∉ xcells s x).
Proof. exact @reent_gone. Qed.
Print Assumptions C54_gone_partial.
Theorem C54_gone_plain : forall (V : Type) (sz : N) n (es : list (sched (V:=V))) s t s' b i v,
  no_into_mut es \/ no_upgrade es -> creach sz n es s ->
  cstep sz s (SStep t) = Ok s' -> dw_trace (cs_d s') = dw_trace (cs_d s) ++ [EDrop b i v] ->
  citem s (b, i) = Some v /\ (b, i) ∉ cdropped s /\ citem s' (b, i) = None /\
  (forall x, (b, i) ∉ data_cells s x) /\ (forall x, has s x -> (b, i) ∉ xcells s x).
Proof. exact @reent_gone_plain. Qed.
Print Assumptions C54_gone_plain.
Example C54_gone_applies : always 8 calm 2 up54 /\ exists s, creach 8 2 up54 s /\
  exists s' b i v, cstep 8 s (SStep 1) = Ok s' /\ dw_trace (cs_d s') = dw_trace (cs_d s) ++ [EDrop b i v].
Proof. exact (conj (proj1 up54_ok) (cafter_reach _ _ _ _ (proj2 (proj2 (proj2 up54_ok))))). Qed.
Example C54_gone_plain_applies : no_upgrade drop54 /\ exists s, creach 8 2 drop54 s /\
  exists s' b i v, cstep 8 s (SStep 0) = Ok s' /\ dw_trace (cs_d s') = dw_trace (cs_d s) ++ [EDrop b i v].
Proof. exact (conj (proj1 drop54_ok) (cafter_reach _ _ _ _ (proj2 (proj2 (proj2 drop54_ok))))). Qed.

(** Without [upgrade], only [drop] runs destructors. *)
Theorem C54_drop_only : forall (V : Type) (sz : N) n (es : list (sched (V:=V))) s t,
  no_upgrade es -> creach sz n es s -> runs_destructor sz s t -> exists h, in_call sz n es t (CDrop h).
Proof. exact @reent_drop_only. Qed.
Print Assumptions C54_drop_only.
Example C54_drop_only_applies : no_upgrade drop54 /\ exists s, creach 8 2 drop54 s /\ runs_destructor 8 s 0.
Proof. exact (conj (proj1 drop54_ok) (cafter_reach _ _ _ _ (proj2 (proj2 (proj2 drop54_ok))))). Qed.
(** With [upgrade] it is not so: it may be the last to let go of the parent of
    its slice, and drop the other half. *)
Theorem C54_upgrade_refuted : exists n (es : list (sched (V:=nat))) s t,
  always 8 calm n es /\ creach 8 n es s /\ runs_destructor 8 s t /\ (exists h, in_call 8 n es t (CUpgrade h)) /\ forall h, ~ in_call 8 n es t (CDrop h).
Proof.
  destruct up54_ok as (H1 & H2 & H3 & H4). destruct (cafter_reach _ _ _ _ H4) as (s & Hr & Hd).
  exists 2, up54, s, 1. exact (conj H1 (conj Hr (conj Hd (conj (ex_intro _ 2 H2) H3)))).
Qed.
Print Assumptions C54_upgrade_refuted.
(** When [into_mut] races with [upgrade], [into_mut] may run destructors, with
    the gate of its guard closed: a destructor that clones a half of a slice with
    that guard would wait for the very thread it runs on. *)
Theorem C54_latch_refuted : exists n (es : list (sched (V:=nat))) s t y,
  creach 8 n es s /\ runs_destructor 8 s t /\ (exists h, in_call 8 n es t (CIntoMut h)) /\ has_latch s t y false /\ gate_closed s y false.
Proof.
  destruct im54_ok as (H1 & H2). destruct (cafter_reach _ _ _ _ H2) as (s & Hr & HL & Hg & Hd).
  exists 2, im54, s, 0, 0. exact (conj Hr (conj Hd (conj (ex_intro _ 0 H1) (conj HL Hg)))).
Qed.
Print Assumptions C54_latch_refuted.

(** While one thread stands in a destructor and the others are at rest, any
    call of another thread comes to its end: it does not wait for the
    destructor. So a destructor may itself call this library. *)
Theorem C54_reentrant_partial : forall (V : Type) (sz : N) n (es : list (sched (V:=V))) s t t',
  always sz calm n es -> creach sz n es s -> runs_destructor sz s t ->
  t' <> t -> t' < n -> (forall u, u < n -> u <> t -> u <> t' -> free s u) ->
  (forall m, exists s', creach sz n (es ++ replicate m (SStep t')) s') ->
  exists m s', creach sz n (es ++ replicate m (SStep t')) s' /\ free s' t' /\ cs_t s' !! t = cs_t s !! t.
Proof. exact @reent_progress. Qed.
Print Assumptions C54_reentrant_partial.
Theorem C54_reentrant_plain : forall (V : Type) (sz : N) n (es : list (sched (V:=V))) s t t',
  no_into_mut es \/ no_upgrade es -> creach sz n es s -> runs_destructor sz s t ->
  t' <> t -> t' < n -> (forall u, u < n -> u <> t -> u <> t' -> free s u) ->
  exists m s', creach sz n (es ++ replicate m (SStep t')) s' /\ free s' t' /\ cs_t s' !! t = cs_t s !! t.
Proof. exact @reent_progress_plain. Qed.
Print Assumptions C54_reentrant_plain.
Example C54_reentrant_applies : no_upgrade reent54 /\ exists s, creach 8 2 reent54 s /\ runs_destructor 8 s 0 /\ ~ free s 1.
Proof. exact (conj (proj1 reent54_ok) (cafter_reach _ _ _ _ (proj1 (proj2 reent54_ok)))). Qed.
