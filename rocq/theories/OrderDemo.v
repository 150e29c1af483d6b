(** Schedules for the examples beside C50, and witnesses. *)
From Verif Require Import Base Api SliceItemsModel BinPartsModel DataModel RcModel Spec ArcModel ArcConc ConcSpec ConcHold ConcRaces ConcCheck OrderModel OrderHold.
Local Open Scope nat_scope.

(** Thread 1 reads the left half of a slice and drops it while thread 0 drops the
    right half, then makes the whole mutable, replaces an item and drops it. *)
Definition turns50 : list (sched (V:=nat)) :=
  alone 0 (CFromVec 1000 [1;2;3;4]) ++ alone 0 (CCloneHalf false 0) ++ alone 0 (CCloneHalf true 0) ++
  [SStart 1 (CDeref 1); SStart 1 (CDrop 1); SStart 0 (CDrop 2); SStep 1; SStep 0] ++ steps 1 40 ++ steps 0 40 ++
  alone 0 (CIntoMut 0) ++ [SStart 0 (CReplace 3 0%N 9)] ++ alone 0 (CDrop 3).
(** Thread 1 reads a part of the left half of a slice and drops it. While it is
    doing so, thread 0 gets the left half from the slice again, drops the slice
    and calls [get_mut] on the half. *)
Definition race50 : list (sched (V:=nat)) :=
  alone 0 (CFromVec 1000 [1;2;3;4]) ++ alone 0 (CCloneHalf false 0) ++ alone 0 (CCloneHalf false 1) ++ alone 0 (CDrop 1) ++
  [SStart 1 (CDeref 2); SStart 1 (CDrop 2)] ++ steps 1 3 ++
  alone 0 (CCloneHalf false 0) ++ alone 0 (CDrop 0) ++ alone 0 (CGetMut 3) ++ [SWrite 0 0%N 9].
(** Thread 1 reads a clone and drops it, thread 0 calls [get_mut]. *)
Definition relaxed50 : list (sched (V:=nat)) :=
  alone 0 (CFromVec 1000 [1;2;3;4]) ++ alone 0 (CClone 0) ++ [SStart 1 (CDeref 1)] ++ alone 1 (CDrop 1) ++
  alone 0 (CGetMut 0) ++ [SWrite 0 0%N 9].

Lemma plain50 : no_upgrade turns50 /\ no_upgrade race50 /\ no_upgrade relaxed50 /\ no_mut_write turns50.
Proof. repeat split; repeat constructor; done. Qed.
(** [P] holds of the accesses made by the schedule [es]. *)
Definition oafter (acq : bool) (es : list (sched (V:=nat))) (P : list access -> Prop) : Prop :=
  match orun 8 acq (init_ostate 2) es with Ok o => P (os_acc o) | _ => False end.
Lemma oafter_reach acq es P : oafter acq es P -> exists o, oreach 8 acq 2 es o /\ P (os_acc o).
Proof. unfold oafter, oreach. destruct (orun _ _ _ _) as [o| | |] eqn:E; try done. eauto. Qed.
(** Accesses [i] and [j] are by different threads and to the same item, the later
    one writes; whether the earlier one happens before. *)
Definition meet (l : list access) (i j : nat) (b : bool) : Prop :=
  match l !! i, l !! j with
  | Some x, Some y => ac_thread x <> ac_thread y /\ ac_cell x = ac_cell y /\ ac_write x = false /\ ac_write y = true /\ bool_decide (i ∈ ac_seen y) = b
  | _, _ => False
  end.
Lemma meet_race (o : ostate nat) i j : i < j -> meet (os_acc o) i j false -> race o i j.
Proof.
  unfold meet, race. intros Hlt. destruct (os_acc o !! i) as [x|], (os_acc o !! j) as [y|]; try done. intros (_ & H1 & _ & H2 & H3).
  apply bool_decide_eq_false in H3. eauto 10.
Qed.
Lemma turns50_meet acq : exists o, oreach 8 acq 2 turns50 o /\ meet (os_acc o) 4 6 true.
Proof. apply (oafter_reach acq turns50 (fun l => meet l 4 6 true)). destruct acq; vm_compute; repeat split; discriminate. Qed.
Lemma race50_meet : exists o, oreach 8 true 2 race50 o /\ race o 4 7.
Proof.
  destruct (oafter_reach true race50 (fun l => meet l 4 7 false)) as (o & Hr & H); [vm_compute; repeat split; discriminate|].
  exists o. split; [done|]. by apply meet_race; [lia|].
Qed.
Lemma relaxed50_meet : exists o, oreach 8 false 2 relaxed50 o /\ race o 4 8.
Proof.
  destruct (oafter_reach false relaxed50 (fun l => meet l 4 8 false)) as (o & Hr & H); [vm_compute; repeat split; discriminate|].
  exists o. split; [done|]. by apply meet_race; [lia|].
Qed.

(** ** [get_mut] *)
Definition uncutb (s : cstate nat) : bool :=
  forallb (fun x => forallb (fun m => negb (bool_decide (am_parent m = Some x))) (gd_metas (cs_g s))) (cs_t s ≫= ConcCheck.holds).
Definition weaks (x : nat) (v : xhandle) : bool := match v with XWeak d _ => bool_decide (d = Some x) | _ => false end.
Definition unwatchedb (s : cstate nat) : bool :=
  forallb (fun x => forallb (fun o => match o with Some (v, _) => negb (weaks x v) | None => true end) (cs_h s) &&
    forallb (fun st : list (frame nat) => forallb (fun v => negb (weaks x v)) (st ≫= carried)) (cs_t s)) (cs_t s ≫= ConcCheck.holds).
Lemma holds_in (s : cstate nat) t x : holding s t x -> x ∈ cs_t s ≫= ConcCheck.holds.
Proof. intros (r & k & <- & [H|H]); (eapply bind_in; [exact H|left]). Qed.
Lemma uncutb_ok s : uncutb s = true -> uncut s.
Proof.
  intros H t x Hx%holds_in c Hc. pose proof (forallb_in _ _ _ H Hx) as H'. cbn in H'. unfold data_parent in Hc.
  destruct (gd_metas (cs_g s) !! c) as [m|] eqn:E; [|done]. apply elem_of_list_lookup_2 in E.
  pose proof (forallb_in _ _ _ H' E) as H2. cbn in H2. apply negb_true_iff, bool_decide_eq_false in H2. done.
Qed.
Lemma unwatchedb_ok s : unwatchedb s = true -> unwatched s.
Proof.
  intros H t x Hx%holds_in w Hw. pose proof (forallb_in _ _ _ H Hx) as H'. cbn in H'. apply andb_true_iff in H' as [H1 H2].
  assert (weaks x (XWeak (Some x) w) = true) as Hk by (cbn; by apply bool_decide_eq_true).
  destruct Hw as [[h Hh]|(t' & st & Ht & Hv)].
  - unfold cget, slot in Hh. destruct (cs_h s !! h) as [[[v k]|]|] eqn:E; try done. injection Hh as ->. apply elem_of_list_lookup_2 in E.
    pose proof (forallb_in _ _ _ H1 E) as H3. cbn -[weaks] in H3. by rewrite Hk in H3.
  - apply elem_of_list_lookup_2 in Ht. pose proof (forallb_in _ _ _ H2 Ht) as H3. cbn beta in H3. pose proof (forallb_in _ _ _ H3 Hv) as H4. cbn -[weaks] in H4. by rewrite Hk in H4.
Qed.
(** The halves of a slice are cloned and the slice dropped. Thread 1 uses a clone
    of the left half and drops it; thread 0 calls [get_mut] on the left half and
    writes while thread 1 splits the right half. Then thread 1 reads what was
    written. *)
Definition split50 : list (sched (V:=nat)) :=
  alone 0 (CFromVec 1000 [1;2;3;4]) ++ alone 0 (CCloneHalf false 0) ++ alone 0 (CCloneHalf true 0) ++ alone 0 (CDrop 0) ++ alone 0 (CClone 1) ++
  [SStart 1 (CDeref 3); SStart 1 (CDrop 3); SStart 0 (CGetMut 1)] ++ steps 1 40 ++ steps 0 40 ++
  [SStart 1 (CCloneHalf true 2)] ++ steps 1 3 ++ [SWrite 0 0%N 9] ++ steps 1 40 ++ [SEnd 0] ++ alone 1 (CDeref 5).
Lemma split50_ok : always 8 calm 2 split50 /\ always 8 calm_get 2 split50 /\ always 8 uncut 2 split50 /\ always 8 unwatched 2 split50.
Proof.
  split_and!.
  - apply (alwaysb_always 8 calmb); [apply calmb_calm|vm_compute; reflexivity].
  - apply (alwaysb_always 8 calm_getb); [apply calm_getb_calm|vm_compute; reflexivity].
  - apply (alwaysb_always 8 uncutb); [apply uncutb_ok|vm_compute; reflexivity].
  - apply (alwaysb_always 8 unwatchedb); [apply unwatchedb_ok|vm_compute; reflexivity].
Qed.
Lemma split50_meet : exists o, oreach 8 true 2 split50 o /\ meet (os_acc o) 4 6 true.
Proof. apply (oafter_reach true split50 (fun l => meet l 4 6 true)). vm_compute; repeat split; discriminate. Qed.
Lemma clones50 : no_halves relaxed50 /\ no_downgrade relaxed50 /\ no_downgrade race50.
Proof. repeat split; repeat constructor; done. Qed.
Lemma clones50_meet : exists o, oreach 8 true 2 relaxed50 o /\ meet (os_acc o) 4 8 true.
Proof. apply (oafter_reach true relaxed50 (fun l => meet l 4 8 true)). vm_compute; repeat split; discriminate. Qed.
Lemma race50_ok : always 8 calm_get 2 race50 /\ always 8 unwatched 2 race50.
Proof.
  split.
  - apply (alwaysb_always 8 calm_getb); [apply calm_getb_calm|vm_compute; reflexivity].
  - apply (alwaysb_always 8 unwatchedb); [apply unwatchedb_ok|vm_compute; reflexivity].
Qed.

(** A [WeakSlice] of the left half outlives the first clone of that half and its
    guard; [clone_left] makes the second; the slice is dropped, and thread 0 calls
    [get_mut] on the left half, the one slice there is, writes and stops using
    the reference. Then thread 1 upgrades and reads. *)
Definition upgrade50 : list (sched (V:=nat)) :=
  alone 0 (CFromVec 1000 [1;2;3;4]) ++ alone 0 (CCloneHalf false 0) ++ alone 0 (CDowngrade 1) ++ alone 0 (CDrop 1) ++
  alone 0 (CCloneHalf false 0) ++ alone 0 (CDrop 0) ++
  [SStart 0 (CGetMut 3)] ++ steps 0 40 ++ [SWrite 0 0%N 9; SEnd 0] ++ alone 1 (CUpgrade 2) ++ alone 1 (CDeref 5).
Lemma upgrade50_ok : always 8 calm 2 upgrade50 /\ always 8 calm_get 2 upgrade50 /\ always 8 uncut 2 upgrade50.
Proof.
  split_and!.
  - apply (alwaysb_always 8 calmb); [apply calmb_calm|vm_compute; reflexivity].
  - apply (alwaysb_always 8 calm_getb); [apply calm_getb_calm|vm_compute; reflexivity].
  - apply (alwaysb_always 8 uncutb); [apply uncutb_ok|vm_compute; reflexivity].
Qed.
Definition meet_wr (l : list access) (i j : nat) : Prop :=
  match l !! i, l !! j with
  | Some x, Some y => ac_cell x = ac_cell y /\ ac_write x = true /\ bool_decide (i ∈ ac_seen y) = false
  | _, _ => False
  end.
Lemma meet_wr_race (o : ostate nat) i j : i < j -> meet_wr (os_acc o) i j -> race o i j.
Proof.
  unfold meet_wr, race. intros Hlt. destruct (os_acc o !! i) as [x|], (os_acc o !! j) as [y|]; try done. intros (H1 & H2 & H3).
  apply bool_decide_eq_false in H3. eauto 10.
Qed.
Lemma upgrade50_meet : exists o, oreach 8 true 2 upgrade50 o /\ race o 6 7.
Proof.
  destruct (oafter_reach true upgrade50 (fun l => meet_wr l 6 7)) as (o & Hr & H); [vm_compute; repeat split|].
  exists o. split; [done|]. by apply meet_wr_race; [lia|].
Qed.
