(** Examples for the ends of calls. *)
From Verif Require Import Base Api SliceItemsModel BinPartsModel DataModel RcModel Spec ArcModel ArcConc ConcSpec LiveSpec ConcHold ConcRaces ConcCheck AloneCheck.
Local Open Scope nat_scope.

(** Thread 1 has stopped inside a [get_mut] (or [into_mut]) of the left half, of
    which variable 2 is a clone, holding the latches; thread 0 has called
    [clone_left] on variable 2; thread 2 has stopped inside a [clone_right] of
    the whole. *)
Definition held45 (o : cop nat) (m : nat) : list (sched (V:=nat)) :=
  alone 0 (CFromVec 1000 [1; 2; 3; 4; 5; 6; 7; 8]) ++ alone 0 (CCloneHalf false 0) ++ alone 0 (CClone 1) ++
  [SStart 1 o] ++ steps 1 m ++ [SStart 0 (CCloneHalf false 2)] ++ [SStart 2 (CCloneHalf true 0)] ++ steps 2 2.
Definition get45 : list (sched (V:=nat)) := held45 (CGetMut 1) 3.
Definition into45 : list (sched (V:=nat)) := held45 (CIntoMut 1) 1.
Ltac state45 es := let r := eval vm_compute in (crun 8 (init_cstate (V:=nat) 3) es) in match r with Ok ?s => exists s end.

Definition freeb (s : cstate nat) (t : nat) : bool :=
  match cs_t s !! t with Some [] | Some [FHold _; KEnd None] => true | _ => false end.
Definition waitb (s : cstate nat) (t : nat) : bool :=
  match cs_t s !! t with
  | Some (FWait y down :: _) => match rc_get (gd_guards (cs_g s)) y with Some n => a_gate down n | None => false end
  | _ => false
  end.
Lemma freeb_free s t : free s t -> freeb s t = true.
Proof. unfold free, idle, holds_mut, freeb. by intros [->|[r ->]]. Qed.
Lemma waitb_waits s t y down : waits s t y down -> waitb s t = true.
Proof. unfold waitb. intros [[k ->] (n & -> & Hn)]. done. Qed.
Definition busyb (s : cstate nat) (t : nat) : bool := (t <? length (cs_t s)) && negb (freeb s t) && negb (waitb s t).
Lemma busyb_busy s t : busyb s t = true -> busy s t.
Proof.
  unfold busyb. rewrite !andb_true_iff, !negb_true_iff. intros [[H1%Nat.ltb_lt H2] H3]. split; [done|]. split.
  - intros H%freeb_free. congruence.
  - intros y down H%waitb_waits. congruence.
Qed.
Lemma no_upgrade45 : no_upgrade get45 /\ no_upgrade into45 /\ no_into_mut get45.
Proof. split; [|split]; apply Forall_forall; intros e He t h ->; vm_compute in He; repeat (apply elem_of_cons in He as [He|He]; [discriminate He|]); by apply elem_of_nil in He. Qed.
Lemma wait45 : exists s, creach 8 3 get45 s /\ waits s 0 1 false /\ has_latch s 1 1 false /\ busy s 1 /\ busy s 2.
Proof.
  state45 get45. split; [vm_compute; reflexivity|]. split.
  { split; [eexists; vm_compute; reflexivity|]. eexists. split; vm_compute; reflexivity. }
  split. { eexists. split; [vm_compute; reflexivity|]. right. left. }
  split; apply busyb_busy; vm_compute; reflexivity.
Qed.
(** Whoever runs alone meets no error; neither does anybody in turns. *)
Lemma solo45 t m : exists s', creach 8 3 (into45 ++ replicate m (SStep t)) s'.
Proof.
  destruct (calm_inv 8 3 (into45 ++ replicate m (SStep t))) as (s & _ & _ & _ & Hr & _); [|eauto].
  apply no_upgrade_calm. apply Forall_app. split; [apply no_upgrade45|]. by apply Forall_replicate.
Qed.
Lemma turns45 f m : always 8 calm 3 (into45 ++ turns f m).
Proof. apply no_upgrade_calm. apply Forall_app. split; [apply no_upgrade45|]. apply Forall_fmap, Forall_true. done. Qed.
(** Round robin. *)
Lemma fair45 : fair 3 (fun i => i mod 3).
Proof.
  intros t i Ht. exists (t + i * 3). split; [lia|]. rewrite Nat.mod_add by lia. by apply Nat.mod_small.
Qed.
Lemma uncontended45 : exists s, always 8 calm 3 get45 /\ creach 8 3 get45 s /\ uncontended s 1 /\ busy s 1.
Proof.
  state45 get45. split; [apply no_upgrade_calm, no_upgrade45|]. split; [vm_compute; reflexivity|]. split; [apart46|].
  apply busyb_busy. vm_compute. reflexivity.
Qed.
(** Thread 0 spins, thread 1 drops one latch after the other, then thread 0 gets through. *)
Lemma works45 : exists s s', creach 8 3 get45 s /\ works 8 s [0; 0; 1; 1; 0; 2; 0] 5 s'.
Proof.
  state45 get45. eexists. split; [vm_compute; reflexivity|].
  Ltac notb := let H := fresh in intros (_ & _ & H); eapply H; split; [eexists; vm_compute; reflexivity|eexists; split; vm_compute; reflexivity].
  Ltac isb := apply busyb_busy; vm_compute; reflexivity.
  eapply works_not; [notb|vm_compute; reflexivity|].
  eapply works_not; [notb|vm_compute; reflexivity|].
  eapply works_busy; [isb|vm_compute; reflexivity|].
  eapply works_busy; [isb|vm_compute; reflexivity|].
  eapply works_busy; [isb|vm_compute; reflexivity|].
  eapply works_busy; [isb|vm_compute; reflexivity|].
  eapply works_busy; [isb|vm_compute; reflexivity|]. apply works_nil.
Qed.
