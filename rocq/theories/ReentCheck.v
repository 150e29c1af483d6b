(** Schedules for C54. *)
From Verif Require Import Base Api SliceItemsModel BinPartsModel DataModel RcModel Spec ArcModel ArcConc ConcSpec ConcTheory ConcRaces ConcCheck LiveSpec ReentSpec ReentTheory.
Local Open Scope nat_scope.

(** A slice of four items, its left half downgraded and dropped: variable 0 is
    the slice, variable 2 the [WeakSlice] of the half. *)
Definition halves54 : list (sched (V:=nat)) :=
  alone 0 (CFromVec 1000 [1; 2; 3; 4]) ++ alone 0 (CCloneHalf false 0) ++ alone 0 (CDowngrade 1) ++ alone 0 (CDrop 1).
(** Thread 1 upgrades, thread 0 drops the slice. *)
Definition up54a : list (sched (V:=nat)) := steps 1 5 ++ alone 0 (CDrop 0) ++ steps 1 7.
Definition up54 : list (sched (V:=nat)) := halves54 ++ SStart 1 (CUpgrade 2) :: up54a.
(** Thread 0 drops the slice. *)
Definition drop54 : list (sched (V:=nat)) := halves54 ++ SStart 0 (CDrop 0) :: steps 0 3.
(** Thread 0 converts the slice. Thread 1 upgrades between its checks, and drops
    what it got. *)
Definition im54a : list (sched (V:=nat)) :=
  steps 0 2 ++ [SStart 1 (CUpgrade 2)] ++ steps 1 1 ++ steps 0 2 ++ steps 1 40 ++ alone 1 (CDrop 3) ++ steps 0 1.
Definition im54 : list (sched (V:=nat)) := halves54 ++ SStart 0 (CIntoMut 0) :: im54a.

Lemma halves54_ok : cafter 8 2 halves54 (fun s => idle s 0 /\ idle s 1).
Proof. vm_compute. done. Qed.
Definition startsb (t : nat) (e : sched (V:=nat)) : bool := match e with SStart t' _ => t' =? t | _ => false end.
Lemma startsb_starts t es : forallb (fun e => negb (startsb t e)) es = true -> Forall (fun e => ~ starts t e) es.
Proof.
  intros H. apply Forall_forall. intros e He (op & ->). rewrite forallb_forall in H. apply elem_of_list_In in He. apply H in He. cbn in He. by rewrite Nat.eqb_refl in He.
Qed.
Lemma call54 t op es : t < 2 -> forallb (fun e => negb (startsb t e)) es = true -> in_call 8 2 (halves54 ++ SStart t op :: es) t op.
Proof.
  intros Ht H. destruct (cafter_reach _ _ _ _ halves54_ok) as (s & Hr & H0 & H1). eapply in_call_last; [exact Hr| |by apply startsb_starts].
  destruct t as [|[|t]]; [done|done|lia].
Qed.
Lemma up54_ok : always 8 calm 2 up54 /\ in_call 8 2 up54 1 (CUpgrade 2) /\ (forall h, ~ in_call 8 2 up54 1 (CDrop h)) /\ cafter 8 2 up54 (fun s => runs_destructor 8 s 1).
Proof.
  split; [apply (alwaysb_always 8 calmb); [apply calmb_calm|vm_compute; reflexivity]|].
  split; [apply call54; [lia|vm_compute; reflexivity]|]. split.
  - intros h (es1 & es2 & s1 & E & _). assert (forallb (fun e => match e with SStart 1 (CDrop _) => false | _ => true end) up54 = true) as H by (vm_compute; reflexivity).
    rewrite E, forallb_app in H. cbn in H. by rewrite andb_false_r in H.
  - vm_compute. do 4 eexists. split; reflexivity.
Qed.
Lemma drop54_ok : no_upgrade drop54 /\ always 8 calm 2 drop54 /\ in_call 8 2 drop54 0 (CDrop 0) /\ cafter 8 2 drop54 (fun s => runs_destructor 8 s 0).
Proof.
  split; [|split; [apply (alwaysb_always 8 calmb); [apply calmb_calm|vm_compute; reflexivity]|split; [apply call54; [lia|vm_compute; reflexivity]|]]].
  - assert (forallb (fun e => match e with SStart _ (CUpgrade _) => false | _ => true end) drop54 = true) as H by (vm_compute; reflexivity).
    apply Forall_forall. intros e He t h ->. rewrite forallb_forall in H. apply elem_of_list_In, H in He. done.
  - vm_compute. do 4 eexists. split; reflexivity.
Qed.
Lemma im54_ok : in_call 8 2 im54 0 (CIntoMut 0) /\ cafter 8 2 im54 (fun s => has_latch s 0 0 false /\ gate_closed s 0 false /\ runs_destructor 8 s 0).
Proof.
  split; [apply call54; [lia|vm_compute; reflexivity]|].
  vm_compute. split; [eexists; split; [reflexivity|]; right; right; left|]. split; [|do 4 eexists; split; reflexivity].
  first [done | eexists; done | repeat eexists].
Qed.
(** Thread 0 is about to run the first destructor of [drop54] when thread 1
    halves another slice. *)
Definition reent54 : list (sched (V:=nat)) :=
  alone 1 (CFromVec 2000 [7; 8]) ++ alone 0 (CFromVec 1000 [1; 2]) ++ [SStart 0 (CDrop 1)] ++ steps 0 2 ++ [SStart 1 (CCloneHalf true 0)].
Lemma reent54_ok : no_upgrade reent54 /\ cafter 8 2 reent54 (fun s => runs_destructor 8 s 0 /\ ~ free s 1) /\
  cafter 8 2 (reent54 ++ steps 1 20) (fun s => runs_destructor 8 s 0 /\ free s 1 /\ cget s 2 <> None).
Proof.
  split.
  - assert (forallb (fun e => match e with SStart _ (CUpgrade _) => false | _ => true end) reent54 = true) as H by (vm_compute; reflexivity).
    apply Forall_forall. intros e He t h ->. rewrite forallb_forall in H. apply elem_of_list_In, H in He. done.
  - split; vm_compute; (split; [do 4 eexists; split; reflexivity|]).
    + intros [H|[r H]]; discriminate H.
    + split; [left; reflexivity|discriminate].
Qed.
