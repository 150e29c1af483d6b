(** Schedules, and the races against which C38 and C39 fail. *)
From Verif Require Import Base Api SliceItemsModel BinPartsModel DataModel RcModel Spec ArcModel ArcConc ConcSpec.

(** Thread [t] takes [k] steps (none once its call has returned). *)
Definition steps {V} (t k : nat) : list (sched (V:=V)) := replicate k (SStep t).
(** ... runs the call [o] to its end, nobody else running (all calls below take less than 40 steps). *)
Definition alone {V} (t : nat) (o : cop V) : list (sched (V:=V)) := SStart t o :: steps t 40.
(** [P] holds after the schedule [es]. *)
Definition cafter {V} (sz : N) (n : nat) (es : list (sched (V:=V))) (P : cstate V -> Prop) : Prop :=
  match crun sz (init_cstate n) es with Ok s => P s | _ => False end.
Lemma cafter_reach {V} sz n (es : list (sched (V:=V))) P : cafter sz n es P -> exists s, creach sz n es s /\ P s.
Proof. unfold cafter, creach. destruct (crun _ _ _) as [s| | |] eqn:E; try done. eauto. Qed.

(** Thread 0 owns a slice of four items and a [WeakSlice] of its left half. It
    calls [into_mut] and has found the guard unique when thread 1 upgrades the
    [WeakSlice]; [forget_items] then finds a second reference to the left half,
    which it drops without looking at it. *)
Definition race38 : list (sched (V:=nat)) :=
  alone 0 (CFromVec 1000 [1; 2; 3; 4]) ++ alone 0 (CCloneHalf false 0) ++ alone 0 (CDowngrade 1) ++ alone 0 (CDrop 1) ++
  [SStart 0 (CIntoMut 0)] ++ steps 0 2 ++ [SStart 1 (CUpgrade 2)] ++ steps 1 1 ++ steps 0 40 ++ steps 1 40.
Lemma race38_overlap : cafter 8 2 race38 (fun s => idle s 0 /\ idle s 1 /\
  (exists m, cget s 3 = Some (XMut m)) /\ (exists r, cget s 4 = Some (XArc r)) /\
  last (firstn 5 (cs_out s)) = Some (0, RHandle 3) /\ last (cs_out s) = Some (1, RHandle 4) /\
  ccells s 3 = [(0, 0%N); (0, 1%N); (0, 2%N); (0, 3%N)] /\ ccells s 4 = [(0, 0%N); (0, 1%N)]).
Proof. vm_compute. repeat split; eauto. Qed.
(** Dropping both then drops items twice. *)
Lemma race38_double_drop : crun 8 (init_cstate 2) (race38 ++ alone 0 (CDrop 3) ++ alone 1 (CDrop 4)) = UB.
Proof. vm_compute. reflexivity. Qed.
Lemma race38_double_drop' : crun 8 (init_cstate 2) (race38 ++ alone 1 (CDrop 4) ++ alone 0 (CDrop 3)) = UB.
Proof. vm_compute. reflexivity. Qed.

(** Thread 0 has a slice, thread 1 a clone of it. Thread 1 starts [downgrade]
    and finds the gate open; thread 0 closes it in [get_mut] and finds no weak
    reference; thread 1 makes the [WeakSlice] and drops its slice; thread 0
    finds both counts to be 1 and gets its [&mut [T]]. *)
Definition race39 : list (sched (V:=nat)) :=
  alone 0 (CFromVec 1000 [1; 2; 3; 4]) ++ alone 0 (CClone 0) ++
  [SStart 1 (CDowngrade 1)] ++ steps 1 1 ++ [SStart 0 (CGetMut 0)] ++ steps 0 2 ++ steps 1 40 ++ alone 1 (CDrop 1) ++ steps 0 40.
Lemma race39_weak : cafter 8 2 race39 (fun s => holds_mut s 0 (ArcS 0 0) /\ idle s 1 /\ cget s 2 = Some (XWeak (Some 0) (Some 0)) /\
  data_cells s 0 = [(0, 0%N); (0, 1%N); (0, 2%N); (0, 3%N)]).
Proof. vm_compute. repeat split; eauto. Qed.
(** Thread 1 upgrades it while thread 0 still holds the reference. *)
Lemma race39_overlap : cafter 8 2 (race39 ++ alone 1 (CUpgrade 2)) (fun s => holds_mut s 0 (ArcS 0 0) /\ idle s 1 /\
  cget s 3 = Some (XArc (ArcS 0 0)) /\ last (cs_out s) = Some (1, RHandle 3) /\
  data_cells s 0 = [(0, 0%N); (0, 1%N); (0, 2%N); (0, 3%N)] /\ ccells s 3 = [(0, 0%N); (0, 1%N); (0, 2%N); (0, 3%N)]).
Proof. vm_compute. repeat split; eauto. Qed.
(** What thread 1 reads through its slice changes under its hands. *)
Lemma race39_write : cafter 8 2 (race39 ++ alone 1 (CUpgrade 2) ++ [SStart 1 (CDeref 3); SWrite 0 1%N 9; SStart 1 (CDeref 3)]) (fun s =>
  drop 5 (cs_out s) = [(1, RSlice (Some 1000%N) [1; 2; 3; 4]); (0, RVal 2); (1, RSlice (Some 1000%N) [1; 9; 3; 4])]).
Proof. vm_compute. reflexivity. Qed.

(** As used in PropConc.v. *)
Ltac creached es :=
  exists es; let r := eval vm_compute in (crun 8 (init_cstate 2) es) in
  match r with Ok ?s => exists s; assert (creach 8 2 es s) by (vm_compute; reflexivity) end.
Lemma c38 : exists (es : list (sched (V:=nat))) s,
  creach 8 2 es s /\ idle s 0 /\ idle s 1 /\
  (exists m, cget s 3 = Some (XMut m)) /\ (exists r, cget s 4 = Some (XArc r)) /\
  ccells s 3 = [(0, 0%N); (0, 1%N); (0, 2%N); (0, 3%N)] /\ ccells s 4 = [(0, 0%N); (0, 1%N)].
Proof. destruct (cafter_reach _ _ _ _ race38_overlap) as (s & H & ? & ? & ? & ? & _ & _ & ? & ?). eauto 20. Qed.
Lemma c38_double_drop : exists (es : list (sched (V:=nat))) s,
  creach 8 2 es s /\ crun 8 s (alone 0 (CDrop 3) ++ alone 1 (CDrop 4)) = UB /\ crun 8 s (alone 1 (CDrop 4) ++ alone 0 (CDrop 3)) = UB.
Proof. creached race38. split; [done|]. split; vm_compute; reflexivity. Qed.
Lemma c39 : exists (es : list (sched (V:=nat))) s,
  creach 8 2 es s /\ holds_mut s 0 (ArcS 0 0) /\ idle s 1 /\ cget s 2 = Some (XWeak (Some 0) (Some 0)) /\
  data_cells s 0 = [(0, 0%N); (0, 1%N); (0, 2%N); (0, 3%N)] /\
  exists s', crun 8 s (alone 1 (CUpgrade 2)) = Ok s' /\ holds_mut s' 0 (ArcS 0 0) /\
    ccells s' 3 = [(0, 0%N); (0, 1%N); (0, 2%N); (0, 3%N)].
Proof.
  creached race39. split_and!; [done|vm_compute; reflexivity..|]. eexists. split; [vm_compute; reflexivity|]. split; vm_compute; reflexivity.
Qed.

Definition race36_es : list (sched (V:=nat)) :=
  alone 0 (CFromVec 1000 [1; 2; 3; 4; 5]) ++ alone 0 (CClone 0) ++
    [SStart 0 (CCloneHalf false 0)] ++ [SStart 1 (CCloneHalf false 1)] ++ steps 0 3 ++ steps 1 5 ++ steps 0 1.
Ltac halved_by n a h b c :=
  exists a, h, b, c; let r := eval vm_compute in (crun 8 (init_cstate 2) a) in
  match r with Ok ?s1 => exists s1 end;
  let r := eval vm_compute in (crun 8 (init_cstate 2) (a ++ SStart n (CCloneHalf false h) :: b)) in
  match r with Ok ?s2 => exists s2 end; do 3 eexists; split; [vm_compute; reflexivity|]; split; [vm_compute; reflexivity|];
  split; [vm_compute; reflexivity|]; split; [vm_compute; reflexivity|]; split; [reflexivity|]; split;
  [cbn; repeat (constructor; [by intros [? [=]]|]); constructor|]; split; vm_compute; reflexivity.
Lemma race36 :
  cafter 8 2 race36_es (fun s => exists k n, cs_t s !! 0 = Some [FChildLost 0 false 1 k n; KFromData; KEnd (Some 0)] /\ in_clone_child s 0 0 false) /\
  exists es', halved 8 2 (race36_es ++ es') 0 0 false 1 /\ halved 8 2 (race36_es ++ es') 1 0 false 1 /\
    cafter 8 2 (race36_es ++ es') (fun s => data_rng s 0 = Some (Rng 0 0 5) /\ data_rng s 1 = Some (Rng 0 0 2)).
Proof.
  split; [vm_compute; repeat (split || eexists)|]. exists (steps 0 14 ++ steps 1 3). split; [|split].
  - halved_by 0 (alone 0 (CFromVec 1000 [1; 2; 3; 4; 5]) ++ alone 0 (CClone 0)) 0
      ([SStart 1 (CCloneHalf false 1)] ++ @steps nat 0 3 ++ steps 1 5 ++ steps 0 1 ++ steps 0 14) (@steps nat 1 3).
  - halved_by 1 (alone 0 (CFromVec 1000 [1; 2; 3; 4; 5]) ++ alone 0 (CClone 0) ++ [SStart 0 (CCloneHalf false 0)]) 1
      (@steps nat 0 3 ++ steps 1 5 ++ steps 0 1 ++ steps 0 14 ++ steps 1 3) (@nil (sched (V:=nat))).
  - vm_compute. split; reflexivity.
Qed.

(** C37: sharing without [into_mut]. *)
Lemma share37 :
  let es := alone 0 (CFromVec 1000 [1; 2; 3; 4; 5]) ++ alone 0 (CDowngrade 0) ++ alone 1 (CMutFromVec 2000 [6; 7]) ++
    [SStart 0 (CCloneHalf true 0); SStart 1 (CUpgrade 1)] ++ steps 0 3 ++ steps 1 5 ++ steps 0 2 in
  let es1 := es ++ steps 0 40 ++ steps 1 40 ++ [SStart 0 (CDrop 0); SStart 1 (CDrop 4)] ++ steps 0 3 ++ steps 1 4 ++ steps 0 40 ++ steps 1 40 in
  let es2 := es1 ++ alone 0 (CDrop 3) ++ alone 0 (CDrop 2) in
  no_into_mut es2 /\
  cafter 8 2 es1 (fun s => quiescent s /\ ccells s 2 = [(1, 0%N); (1, 1%N)] /\ ccells s 3 = [(0, 2%N); (0, 3%N); (0, 4%N)] /\
    cdropped s = [(0, 0%N); (0, 1%N)] /\ cfreed s = [] /\ cput_run 8 (init_cstate 2) es1 = [1; 2; 3; 4; 5; 6; 7] /\
    (exists m, cget s 2 = Some (XMut m)) /\ (exists r, cget s 3 = Some (XArc r))) /\
  cafter 8 2 es2 (fun s => quiescent s /\ (forall h x, cget s h = Some x -> exists (d g : option nat), x = XWeak d g) /\ cget s 1 = Some (XWeak (Some 0) (Some 0)) /\
    cdropped s = [(0, 0%N); (0, 1%N); (0, 2%N); (0, 3%N); (0, 4%N); (1, 0%N); (1, 1%N)] /\ cfreed s = [0; 1]).
Proof.
  intros es es1 es2. split; [|split].
  - unfold no_into_mut. repeat constructor; intros ??; discriminate.
  - vm_compute. split; [|repeat (split || eexists)]. intros [|[|?]] st; cbn; intros; by simplify_eq.
  - vm_compute. split; [intros [|[|?]] st; cbn; intros; by simplify_eq|split; [|repeat split]].
    intros [|[|[|[|[|?]]]]] x; cbn; intros; simplify_eq; eauto.
Qed.
