(** A form of statement for the examples beside C49, and a witness. *)
From Verif Require Import Base Api SliceItemsModel BinPartsModel DataModel RcModel Spec Observe Demo
  ArcModel ArcSpec ArcObserve PanicModel PanicObserve.

(** [P] holds of the state after the calls [ops], of the items left behind and of
    what the last call returned; the process was not aborted. *)
Definition bafter {V} (cf : cfg V) (bomb : V -> bool) (ops : list (op V)) (P : world V -> leaked V -> option (out V) -> Prop) : Prop :=
  match brun cf bomb (empty_world, []) ops with Ok (Some ((w, lk), outs)) => P w lk (last outs) | _ => False end.
Definition bxafter {V} (cf : cfg V) (bomb : V -> bool) (ops : list (op V)) (P : aworld V -> leaked V -> option (out V) -> Prop) : Prop :=
  match bxrun cf bomb (empty_aworld, []) ops with Ok (Some ((w, lk), outs)) => P w lk (last outs) | _ => False end.
(** ... which is a reachable state. *)
Lemma bafter_reach {V} (cf : cfg V) bomb ops P : bafter cf bomb ops P -> exists w lk r, breach cf bomb ops w lk /\ P w lk r.
Proof. unfold bafter, breach. destruct (brun _ _ _ _) as [[[[w lk] outs]|]| | |] eqn:E; try done. intros H. exists w, lk, (last outs). eauto. Qed.
Lemma bxafter_reach {V} (cf : cfg V) bomb ops P : bxafter cf bomb ops P -> exists w lk r, bxreach cf bomb ops w lk /\ P w lk r.
Proof. unfold bxafter, bxreach. destruct (bxrun _ _ _ _) as [[[[w lk] outs]|]| | |] eqn:E; try done. intros H. exists w, lk, (last outs). eauto. Qed.

Definition leak_calls : list (op nat) := [OFromVec 1000 [1;2]; OCloneHalf false 0; ODrop 1; ODrop 0].
Lemma leak_witness : exists (cf : cfg nat) bomb ops wp lk, breach cf bomb ops wp lk /\ (forall h, get_h wp h = None) /\ lk <> [].
Proof.
  exists cf8, (fun v => (v =? 1)%nat), leak_calls. let r := eval vm_compute in (brun cf8 (fun v => (v =? 1)%nat) (empty_world, []) leak_calls) in
  match r with Ok (Some ((?w, ?lk), ?outs)) => exists w, lk; split; [exists outs; vm_compute; reflexivity|] end.
  split; [|done]. intros [|[|h]]; done.
Qed.
Lemma xleak_witness : exists (cf : cfg nat) bomb ops wp lk, bxreach cf bomb ops wp lk /\ (forall h, xget wp h = None) /\ lk <> [].
Proof.
  exists cf8, (fun v => (v =? 1)%nat), leak_calls. let r := eval vm_compute in (bxrun cf8 (fun v => (v =? 1)%nat) (empty_aworld, []) leak_calls) in
  match r with Ok (Some ((?w, ?lk), ?outs)) => exists w, lk; split; [exists outs; vm_compute; reflexivity|] end.
  split; [|done]. intros [|[|h]]; done.
Qed.
