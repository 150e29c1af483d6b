(** Schedules for C53. *)
From Verif Require Import Base Api SliceItemsModel BinPartsModel DataModel RcModel Spec ArcModel ArcConc ConcSpec ConcRaces OrderModel WeakModel.
Local Open Scope nat_scope.

Definition now (es : list (sched (V:=nat))) : list (wsched nat) := WNow <$> es.
(** Thread 0 makes a slice (variable 0) and clones its left half (variable 1).
    Thread 1 clones the left half again (variable 2), clones the left half of that
    (variable 3), and drops all but the last. Thread 0 converts its slice; it
    reads the count of the guard as it was before thread 1 began. *)
Definition setup53 : list (sched (V:=nat)) := alone 0 (CFromVec 1000 [1;2;3;4]) ++ alone 0 (CCloneHalf false 0).
Definition others53 : list (sched (V:=nat)) :=
  alone 1 (CCloneHalf false 0) ++ alone 1 (CCloneHalf false 2) ++ alone 1 (CDrop 2) ++ alone 1 (CDrop 0).
Definition into_mut53 : list (wsched nat) :=
  now (setup53 ++ others53 ++ [SStart 0 (CIntoMut 1); SStep 0]) ++ [WOld 0 (length setup53)] ++ now (steps 0 40).
Definition get_mut53 : list (wsched nat) :=
  now (setup53 ++ others53 ++ [SStart 0 (CGetMut 1)] ++ steps 0 3) ++ [WOld 0 (length setup53)] ++ now (steps 0 40).
(** A program without [into_mut]. Thread 0 makes a slice (variable 0) and clones its
    left half (variable 1). Thread 1, sharing variable 0, clones the left half,
    too (variable 2); it reads the gate, the child and later the pointer to the guard as they
    were before, so that it makes a node and a guard in vain. *)
Definition lost53 : list (wsched nat) :=
  now setup53 ++ now [SStart 1 (CCloneHalf false 0)] ++ [WOld 1 41; WOld 1 41] ++ now (steps 1 7) ++ [WOld 1 48] ++ now (steps 1 40).
(** Then the slice is dropped, and the halves are, thread 1 reading nothing stale. *)
Definition gone53 : list (wsched nat) := lost53 ++ now (alone 0 (CDrop 0) ++ alone 0 (CDrop 1) ++ alone 1 (CDrop 2)).
(** A program without halves. Thread 0 makes a slice; thread 1 clones it and drops
    the clone. Thread 0 gives up converting the slice, as it reads the count of
    the guard as it was before the clone was dropped; then it succeeds. *)
Definition fail53 : list (wsched nat) :=
  now (alone 0 (CFromVec 1000 [1;2;3;4]) ++ alone 1 (CClone 0) ++ alone 1 (CDrop 1) ++ [SStart 0 (CIntoMut 0); SStep 0]) ++ [WOld 0 82] ++ now (steps 0 5).
Definition clones53 : list (wsched nat) := fail53 ++ now (alone 0 (CIntoMut 2)).

(** Another one. Thread 1 clones the slice and drops the clone. Thread 0 calls
    [get_mut]; it cannot read the count of the guard as it was before thread 1
    began, but as it was before the clone was dropped, and gives up. It calls
    [get_mut] again, which succeeds, reading the count as it was before the call. *)
Definition none53 : list (wsched nat) :=
  now (alone 0 (CFromVec 1000 [1;2;3;4]) ++ alone 1 (CClone 0) ++ alone 1 (CDrop 1) ++ [SStart 0 (CGetMut 0)] ++ steps 0 3) ++ [WOld 0 41; WOld 0 82] ++ now (steps 0 7).
Definition hold53 : list (wsched nat) := none53 ++ now ([SStart 0 (CGetMut 2)] ++ steps 0 3) ++ [WOld 0 123] ++ now (steps 0 40).
(** Thread 1 clones the slice of thread 0, downgrades the clone and drops it. Thread
    0 calls [get_mut], which reads the weak count from before the downgrade. *)
Definition weak53 : list (wsched nat) :=
  now (alone 0 (CFromVec 1000 [1;2;3;4]) ++ alone 1 (CClone 0) ++ alone 1 (CDowngrade 1) ++ alone 1 (CDrop 1) ++ [SStart 0 (CGetMut 0)] ++ steps 0 1) ++
  [WOld 0 82] ++ now (steps 0 10).
(** Then thread 1 upgrades. *)
Definition again53 : list (wsched nat) := weak53 ++ now (alone 1 (CUpgrade 2)).

Definition wafter (n : nat) (es : list (wsched nat)) (P : wstate nat -> Prop) : Prop :=
  match wrun 8 true (init_wstate n) es with Ok o => P o | _ => False end.
Lemma wafter_reach n es P : wafter n es P -> exists o, wreach 8 true n es o /\ P o.
Proof. unfold wafter, wreach. destruct (wrun _ _ _ _) as [o| | |]; try done. eauto. Qed.
Lemma no_into_mut_b (es : list (sched (V:=nat))) : forallb (fun e => match e with SStart _ (CIntoMut _) => false | _ => true end) es = true -> no_into_mut es.
Proof. intros H%Is_true_true%forallb_True. eapply Forall_impl; [exact H|]. by intros e He t h ->. Qed.
Lemma no_halves_b (es : list (sched (V:=nat))) : forallb (fun e => match e with SStart _ (CCloneHalf _ _) => false | _ => true end) es = true -> no_halves es.
Proof. intros H%Is_true_true%forallb_True. eapply Forall_impl; [exact H|]. by intros e He t side h ->. Qed.
Lemma no_upgrade_b (es : list (sched (V:=nat))) : forallb (fun e => match e with SStart _ (CUpgrade _) => false | _ => true end) es = true -> no_upgrade es.
Proof. intros H%Is_true_true%forallb_True. eapply Forall_impl; [exact H|]. by intros e He t h ->. Qed.
Lemma no_downgrade_b (es : list (sched (V:=nat))) : forallb (fun e => match e with SStart _ (CDowngrade _) => false | _ => true end) es = true -> no_downgrade es.
Proof. intros H%Is_true_true%forallb_True. eapply Forall_impl; [exact H|]. by intros e He t h ->. Qed.

Lemma into_mut53_ok : wafter 2 into_mut53 (fun o => idle (ws_s o) 0 /\ idle (ws_s o) 1 /\
  (exists m, cget (ws_s o) 4 = Some (XMut m)) /\ (exists r, cget (ws_s o) 3 = Some (XArc r)) /\
  ccells (ws_s o) 4 = [(0, 0%N); (0, 1%N)] /\ ccells (ws_s o) 3 = [(0, 0%N)]).
Proof. vm_compute. repeat split; eauto. Qed.
Lemma into_mut53_drops : wrun 8 true (init_wstate 2) (into_mut53 ++ now (alone 0 (CDrop 4) ++ alone 1 (CDrop 3))) = UB.
Proof. vm_compute. reflexivity. Qed.
Lemma get_mut53_ok : wafter 2 get_mut53 (fun o => holds_mut (ws_s o) 0 (ArcS 1 1) /\ idle (ws_s o) 1 /\ (exists r, cget (ws_s o) 3 = Some (XArc r)) /\
  data_cells (ws_s o) 1 = [(0, 0%N); (0, 1%N)] /\ ccells (ws_s o) 3 = [(0, 0%N)]).
Proof. vm_compute. repeat split; eauto. Qed.
Lemma calls53 : (no_upgrade (calls into_mut53) /\ no_downgrade (calls into_mut53)) /\ no_upgrade (calls get_mut53) /\ no_downgrade (calls get_mut53) /\ no_into_mut (calls get_mut53).
Proof. split_and!; first [apply no_upgrade_b|apply no_downgrade_b|apply no_into_mut_b]; vm_compute; reflexivity. Qed.
Lemma into_mut_refuted : exists es o, no_upgrade (calls es) /\ no_downgrade (calls es) /\ wreach (V:=nat) 8 true 2 es o /\ idle (ws_s o) 0 /\ idle (ws_s o) 1 /\
  (exists m, cget (ws_s o) 4 = Some (XMut m)) /\ (exists r, cget (ws_s o) 3 = Some (XArc r)) /\
  ccells (ws_s o) 4 = [(0, 0%N); (0, 1%N)] /\ ccells (ws_s o) 3 = [(0, 0%N)] /\ wrun 8 true o (now (alone 0 (CDrop 4) ++ alone 1 (CDrop 3))) = UB.
Proof.
  destruct (wafter_reach _ _ _ into_mut53_ok) as (o & H & H1 & H2 & H3 & H4 & H5 & H6). exists into_mut53, o.
  destruct calls53 as [[C1 C2] _]. do 9 (split; [assumption|]).
  pose proof into_mut53_drops as Hd. revert Hd H. unfold wreach. generalize into_mut53, (now (alone 0 (CDrop 4) ++ alone 1 (CDrop 3))), (init_wstate (V:=nat) 2).
  clear. intros es es' o0. revert o0. induction es as [|e es IH]; intros o0; cbn.
  - by intros H [= <-].
  - destruct (wstep 8 true o0 e) as [o1| | |]; cbn; try done. apply IH.
Qed.
Lemma get_mut_refuted : exists es o, no_upgrade (calls es) /\ no_downgrade (calls es) /\ no_into_mut (calls es) /\ wreach (V:=nat) 8 true 2 es o /\
  holds_mut (ws_s o) 0 (ArcS 1 1) /\ idle (ws_s o) 1 /\ (exists r, cget (ws_s o) 3 = Some (XArc r)) /\
  data_cells (ws_s o) 1 = [(0, 0%N); (0, 1%N)] /\ ccells (ws_s o) 3 = [(0, 0%N)].
Proof.
  destruct (wafter_reach _ _ _ get_mut53_ok) as (o & H & H1 & H2 & H3 & H4 & H5). exists get_mut53, o.
  destruct calls53 as [_ (C1 & C2 & C3)]. exact (conj C1 (conj C2 (conj C3 (conj H (conj H1 (conj H2 (conj H3 (conj H4 H5)))))))).
Qed.
Lemma lost53_ok : no_into_mut (calls gone53) /\
  wafter 2 lost53 (fun o => quiescent (ws_s o) /\ cget (ws_s o) 1 = Some (XArc (ArcS 1 1)) /\ cget (ws_s o) 2 = Some (XArc (ArcS 1 1)) /\
    ccells (ws_s o) 2 = [(0, 0%N); (0, 1%N)] /\ length (gd_guards (cs_g (ws_s o))) = 2 /\ wput_run 8 true (init_wstate 2) lost53 = [1; 2; 3; 4]) /\
  wafter 2 gone53 (fun o => quiescent (ws_s o) /\ cdropped (ws_s o) = [(0, 2%N); (0, 3%N); (0, 0%N); (0, 1%N)] /\ cfreed (ws_s o) = [0]).
Proof. split; [apply no_into_mut_b; vm_compute; reflexivity|]. split; vm_compute; repeat split; intros [|[|x]] st; by intros [= <-]. Qed.
Lemma clones53_ok : no_halves (calls clones53) /\
  wafter 2 fail53 (fun o => last (cs_out (ws_s o)) = Some (0, RErr) /\ quiescent (ws_s o) /\ cget (ws_s o) 2 = Some (XArc (ArcS 0 0))) /\
  wafter 2 clones53 (fun o => quiescent (ws_s o) /\ (exists m, cget (ws_s o) 3 = Some (XMut m)) /\ ccells (ws_s o) 3 = [(0, 0%N); (0, 1%N); (0, 2%N); (0, 3%N)]).
Proof. split; [apply no_halves_b; vm_compute; reflexivity|]. split; vm_compute; repeat split; try (intros [|[|x]] st; by intros [= <-]); eauto. Qed.
Lemma hold53_ok : no_halves (calls hold53) /\ no_downgrade (calls hold53) /\
  wafter 2 none53 (fun o => last (cs_out (ws_s o)) = Some (0, RNone) /\ quiescent (ws_s o) /\ cget (ws_s o) 2 = Some (XArc (ArcS 0 0))) /\
  wafter 2 hold53 (fun o => holds_mut (ws_s o) 0 (ArcS 0 0) /\ data_cells (ws_s o) 0 = [(0, 0%N); (0, 1%N); (0, 2%N); (0, 3%N)]).
Proof.
  split; [apply no_halves_b; vm_compute; reflexivity|]. split; [apply no_downgrade_b; vm_compute; reflexivity|].
  split; vm_compute; repeat split; try (intros [|[|x]] st; by intros [= <-]); eauto.
Qed.
Lemma weak53_ok : no_halves (calls weak53) /\ no_upgrade (calls weak53) /\
  wafter 2 weak53 (fun o => holds_mut (ws_s o) 0 (ArcS 0 0) /\ data_cells (ws_s o) 0 = [(0, 0%N); (0, 1%N); (0, 2%N); (0, 3%N)] /\ cget (ws_s o) 2 = Some (XWeak (Some 0) (Some 0))).
Proof.
  split; [apply no_halves_b; vm_compute; reflexivity|]. split; [apply no_upgrade_b; vm_compute; reflexivity|]. vm_compute. repeat split.
Qed.
Lemma get_mut_weak_refuted : exists es o, no_halves (calls es) /\ no_into_mut (calls es) /\ wreach (V:=nat) 8 true 2 es o /\
  holds_mut (ws_s o) 0 (ArcS 0 0) /\ idle (ws_s o) 1 /\ (exists r, cget (ws_s o) 3 = Some (XArc r)) /\
  data_cells (ws_s o) 0 = [(0, 0%N); (0, 1%N); (0, 2%N); (0, 3%N)] /\ ccells (ws_s o) 3 = [(0, 0%N); (0, 1%N); (0, 2%N); (0, 3%N)].
Proof.
  assert (wafter 2 again53 (fun o => holds_mut (ws_s o) 0 (ArcS 0 0) /\ idle (ws_s o) 1 /\ (exists r, cget (ws_s o) 3 = Some (XArc r)) /\
    data_cells (ws_s o) 0 = [(0, 0%N); (0, 1%N); (0, 2%N); (0, 3%N)] /\ ccells (ws_s o) 3 = [(0, 0%N); (0, 1%N); (0, 2%N); (0, 3%N)])) as (o & Hr & H)%wafter_reach.
  { vm_compute. repeat split. by eexists. }
  exists again53, o. split; [apply no_halves_b; vm_compute; reflexivity|]. split; [apply no_into_mut_b; vm_compute; reflexivity|]. exact (conj Hr H).
Qed.
Lemma whalved_by n es1 h es2 es3 t side r c y q :
  wafter n es1 (fun o => idle (ws_s o) t /\ cget (ws_s o) h = Some (XArc r)) -> Forall (fun e => forall op, e <> WNow (SStart t op)) es2 ->
  wafter n (es1 ++ WNow (SStart t (CCloneHalf side h)) :: es2) (fun o => cs_t (ws_s o) !! t = Some [FV (VFin (Some (XArc (ArcS c y))) q); KEnd (Some h)]) ->
  whalved 8 true n (es1 ++ WNow (SStart t (CCloneHalf side h)) :: es2 ++ es3) t (ar_data r) side c.
Proof.
  intros (o1 & H1 & H2 & H3)%wafter_reach Hf (o2 & H4 & H5)%wafter_reach. exists es1, h, es2, es3, o1, o2, r, y, q. split_and!; done.
Qed.
Lemma lost53_halves : whalved 8 true 2 lost53 0 0 false 1 /\ whalved 8 true 2 lost53 1 0 false 1.
Proof.
  split.
  - change lost53 with (now (alone 0 (CFromVec 1000 [1;2;3;4])) ++ WNow (SStart 0 (CCloneHalf false 0)) :: now (steps 0 14) ++ drop 56 lost53).
    apply (whalved_by 2 _ 0 _ _ 0 false (ArcS 0 0) 1 1 None); [vm_compute; done|cbn; repeat (apply Forall_cons; split; [done|]); by apply Forall_nil|vm_compute; reflexivity].
  - change lost53 with (now setup53 ++ WNow (SStart 1 (CCloneHalf false 0)) :: ([WOld 1 41; WOld 1 41] ++ now (steps 1 7) ++ [WOld 1 48] ++ now (steps 1 10)) ++ now (steps 1 (40 - 10))).
    apply (whalved_by 2 _ 0 _ _ 1 false (ArcS 0 0) 1 1 None); [vm_compute; done|cbn; repeat (apply Forall_cons; split; [done|]); by apply Forall_nil|vm_compute; reflexivity].
Qed.
