(** Configurations and a form of statement for the examples beside the theorems. *)
From Verif Require Import Base Api SliceItemsModel BinPartsModel DataModel RcModel Spec Observe.

(** Items of eight bytes, and of none; [VecDeque] as in current releases of std. *)
Definition cf8 : cfg nat := Cfg 8 S id (fun n => N.max 4 (2 * n)).
Definition cf0 : cfg nat := Cfg 0 S id (fun n => N.max 4 (2 * n)).

(** [P] holds of the state after the calls [ops] and of what the last call returned. *)
Definition after {V} (cf : cfg V) (ops : list (op V)) (P : world V -> option (out V) -> Prop) : Prop :=
  match rrun cf empty_world ops with Ok (w, outs) => P w (last outs) | _ => False end.
(** ... which is a reachable state. *)
Lemma after_reach {V} (cf : cfg V) ops P : after cf ops P -> exists w r, reach cf ops w /\ P w r.
Proof. unfold after, reach. destruct (rrun cf empty_world ops) as [[w outs]| | |] eqn:E; try done. intros H. exists w, (last outs). eauto. Qed.
Ltac demo := vm_compute; repeat match goal with |- _ /\ _ => split end; try reflexivity; try done; repeat eexists.
