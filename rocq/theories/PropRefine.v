(** C31: the single-threaded API refines the specification of Spec.v. *)
From Verif Require Import Base Api DataModel RcModel Spec RcTheory.

Theorem C31_refines_spec : forall (V : Type) (sz : N) (vclone : V -> V) (capf growf : N -> N) (ops : list (op V)),
  exists w, run sz vclone capf growf false empty_world ops = Ok (w, snd (spec_run sz vclone empty_astate ops)).
Proof. exact refines_spec. Qed.
Print Assumptions C31_refines_spec.

(** A run that shares, halves, drops, upgrades and converts. *)
Example C31_example :
  snd (spec_run 8 id empty_astate
    [OFromVec 1000 [1;2;3;4;5]; OCloneHalf true 0; ODowngrade 1; OIntoMut 1; ODrop 0; OIntoMut 1;
     OReplace 3 0 9; OUpgrade 2; OIntoImmut 3; ODeref 4; OSplitIntoParts 4 2; ONext true 5; ODeref 6])
  = [RHandle 0; RHandle 1; RHandle 2; RErr; RUnit; RHandle 3;
     RVal 3; RNone; RHandle 4; RSlice (Some 1016%N) [9;4;5]; RHandle 5; RHandle 6; RSlice (Some 1024%N) [4;5]].
Proof. vm_compute. reflexivity. Qed.
