(** Examples for calls that run on their own. *)
From Verif Require Import Base Api SliceItemsModel BinPartsModel DataModel RcModel Spec ArcModel ArcConc ConcSpec ConcRaces ConcCheck.

Lemma uncontended_nil {V : Type} (s : cstate V) t : cs_t s ≫= ups s = [] -> cs_t s ≫= convs = [] -> uncontended s t.
Proof.
  intros Hu Hc t' u _. split.
  - intros H%ups_upgrading. rewrite Hu in H. by apply elem_of_nil in H.
  - intros (r & <- & [[k Ht]|(n & a & k & Ht & Hk)]).
    + assert (ar_data r ∈ cs_t s ≫= convs) as H by (eapply bind_in; [exact Ht|left]). rewrite Hc in H. by apply elem_of_nil in H.
    + assert (ar_data r ∈ cs_t s ≫= convs) as H.
      { eapply bind_in; [exact Ht|]. cbn. apply elem_of_list_omap. exists (KImG r). done. }
      rewrite Hc in H. by apply elem_of_nil in H.
Qed.
Definition takeb {V : Type} (s : cstate V) (o : cop V) : bool :=
  match takes o with Some h => match slot s h with Some (_, S _) => false | _ => true end | None => true end.
Lemma takeb_take {V : Type} (s : cstate V) o : takeb s o = true -> may_take s o.
Proof. unfold takeb. intros H h x k Eh Es. rewrite Eh, Es in H. by destruct k. Qed.

(** Thread 1 has stopped inside a [clone_left] of the right half, having made
    the child but not linked it in. *)
Definition mid46 : list (sched (V:=nat)) := halves38 ++ [SStart 1 (CCloneHalf false 2)] ++ steps 1 3.
(** Thread 1 has stopped inside an [into_mut] of the left half, of which
    variable 7 is a clone, holding the clone latch. *)
Definition mid46' : list (sched (V:=nat)) := halves38 ++ alone 0 (CClone 1) ++ [SStart 1 (CIntoMut 1)] ++ steps 1 1.

(** The world as the sequential model sees it, and the sequential step. *)
Definition seq46 (s : cstate nat) (o : cop nat) : res (aworld nat * out nat) :=
  astep 8 (fun v => v) (fun x => x) (fun x => x) true (world s) (same_op o).
Lemma mid46_ok : always 8 calm 2 mid46 /\ always 8 calm 2 mid46'.
Proof. split; apply (alwaysb_always 8 calmb); [apply calmb_calm|vm_compute; reflexivity|apply calmb_calm|vm_compute; reflexivity]. Qed.
Ltac take46 := apply takeb_take; vm_compute; reflexivity.
Ltac apart46 := apply uncontended_nil; vm_compute; reflexivity.
Ltac state46 es := let r := eval vm_compute in (crun 8 (init_cstate (V:=nat) 2) es) in match r with Ok ?s => exists s end.
Lemma returns46 : exists s, creach 8 2 mid46 s /\ uncontended s 0 /\ idle s 0 /\
  Forall (fun o => may_take s o /\ exists w, seq46 s o = Ok (w, RHandle 6)) [CCloneHalf false 2; CIntoMut 1; CUpgrade 3] /\
  exists w, seq46 s (CCloneHalf false 2) = Ok (w, RHandle 6) /\ xget w 6 = Some (XArc (ArcS 4 4)).
Proof.
  state46 mid46. split; [by vm_compute|]. split; [apart46|]. split; [by vm_compute|]. split.
  - do 3 (apply List.Forall_cons; [split; [take46|eexists; vm_compute; reflexivity]|]). apply List.Forall_nil.
  - eexists. split; vm_compute; reflexivity.
Qed.
Lemma waits46 : exists s, creach 8 2 mid46' s /\ uncontended s 0 /\ idle s 0 /\
  (may_take s (CCloneHalf false 6) /\ seq46 s (CCloneHalf false 6) = NoFuel) /\
  (may_take s (CIntoMut 6) /\ exists w, seq46 s (CIntoMut 6) = Ok (w, RErr)) /\
  (may_take s (CIntoMut 3) /\ exists w, seq46 s (CIntoMut 3) = Ok (w, RInvalid)) /\
  may_take s (CGetMut 6) /\ exists w, seq46 s (CGetMut 6) = Ok (w, RNone).
Proof.
  state46 mid46'. split; [by vm_compute|]. split; [apart46|]. split; [by vm_compute|]. split; [split; [take46|by vm_compute]|].
  split; [|split]; (split; [take46|eexists; vm_compute; reflexivity]).
Qed.
Lemma borrow46 : exists s, creach 8 2 mid46 s /\ uncontended s 0 /\ idle s 0 /\ may_take s (CGetMut 1) /\
  exists w, seq46 s (CGetMut 1) = Ok (w, RSlice (Some 1000%N) [1; 2; 3; 4]).
Proof. state46 mid46. split; [by vm_compute|]. split; [apart46|]. split; [by vm_compute|]. split; [take46|eexists; vm_compute; reflexivity]. Qed.

(** Nobody is inside a call: the left half is nobody else's, and the left
    quarter, which nobody has a slice of, is part of it. *)
Definition shared47 : list (sched (V:=nat)) :=
  alone 0 (CFromVec 1000 [1; 2; 3; 4; 5; 6; 7; 8]) ++ alone 0 (CCloneHalf false 0) ++ alone 0 (CCloneHalf false 1) ++ alone 0 (CDowngrade 2).
Definition sharers (s : cstate nat) (h : nat) (r : arcslice) : bool :=
  existsb (fun h' => negb (h' =? h) && match cget s h' with
    | Some (XArc r') => (ar_data r' =? ar_data r) || negb (apart (cs_g s) (ar_data r) (ar_data r')) || negb (apart (cs_g s) (ar_data r') (ar_data r))
    | _ => false end) (seq 0 (length (cs_h s))).
Lemma sharers_shared s h r : sharers s h r = false -> ~ shared s h r.
Proof.
  intros H (h' & r' & Hne & Hh & Hb). apply not_true_iff_false in H. apply H, existsb_exists. exists h'.
  assert (h' < length (cs_h s)).
  { unfold cget, slot in Hh. destruct (cs_h s !! h') eqn:E; [|done]. by eapply lookup_lt_Some. }
  split; [apply in_seq; lia|]. apply andb_true_iff. split; [apply negb_true_iff, Nat.eqb_neq; done|]. rewrite Hh, !orb_true_iff.
  destruct Hb as [E|[Hb|Hb]]; [left; left; by apply Nat.eqb_eq| |]; [left; right|right]; apply negb_true_iff, not_true_iff_false; intros E%apart_below; done.
Qed.
Lemma quiet47 : always 8 calm 2 halves38 /\ always 8 calm 2 shared47.
Proof. split; apply (alwaysb_always 8 calmb); [apply calmb_calm|vm_compute; reflexivity|apply calmb_calm|vm_compute; reflexivity]. Qed.
Ltac quiet := intros [|[|?]] st; cbn; intros; by simplify_eq.
Lemma into47 : exists s, creach 8 2 halves38 s /\ quiescent s /\ idle s 1 /\ cget s 1 = Some (XArc (ArcS 1 1)) /\ ~ shared s 1 (ArcS 1 1) /\
  ccells s 1 = [(0, 0%N); (0, 1%N); (0, 2%N); (0, 3%N)] /\ data_cells s 3 = [(0, 0%N); (0, 1%N)] /\
  ~ watched s (ArcS 1 1) /\ cget s 2 = Some (XArc (ArcS 2 2)) /\ ~ shared s 2 (ArcS 2 2) /\ watched s (ArcS 2 2) /\
  cget s 5 = Some (XWeak (Some 3) (Some 3)) /\ kept s 3.
Proof.
  state46 halves38. split; [by vm_compute|]. split; [quiet|]. split; [by vm_compute|]. split; [by vm_compute|]. split; [apply sharers_shared; by vm_compute|].
  split; [by vm_compute|]. split; [by vm_compute|]. split.
  { intros (h & od & H). revert H. unfold cget, slot. do 6 (destruct h as [|h]; [cbn; done|]). cbn. done. }
  split; [by vm_compute|]. split; [apply sharers_shared; by vm_compute|]. split; [by exists 3, (Some 2)|]. split; [by vm_compute|].
  exists 1, (ArcS 1 1). split; [by vm_compute|]. right. apply below_half. by vm_compute.
Qed.
Lemma shared47_ok : exists s, creach 8 2 shared47 s /\ quiescent s /\ idle s 1 /\ cget s 1 = Some (XArc (ArcS 1 1)) /\ shared s 1 (ArcS 1 1) /\
  cget s 0 = Some (XArc (ArcS 0 0)) /\ shared s 0 (ArcS 0 0) /\ cget s 2 = Some (XArc (ArcS 2 2)) /\ shared s 2 (ArcS 2 2).
Proof.
  state46 shared47. split; [by vm_compute|]. split; [quiet|]. split; [by vm_compute|]. split; [by vm_compute|].
  split; [exists 0, (ArcS 0 0); split; [done|]; split; [done|]; right; right; apply below_half; by vm_compute|]. split; [by vm_compute|].
  split; [exists 1, (ArcS 1 1); split; [done|]; split; [done|]; right; left; apply below_half; by vm_compute|]. split; [by vm_compute|].
  exists 1, (ArcS 1 1). split; [done|]. split; [done|]. right; right. apply below_half. by vm_compute.
Qed.
Definition gone47 : list (sched (V:=nat)) := halves38 ++ alone 1 (CDrop 1).
Lemma gone47_ok : always 8 calm 2 gone47 /\ exists s, creach 8 2 gone47 s /\ quiescent s /\ idle s 0 /\ cget s 5 = Some (XWeak (Some 3) (Some 3)) /\ ~ kept s 3.
Proof.
  split; [apply (alwaysb_always 8 calmb); [apply calmb_calm|vm_compute; reflexivity]|].
  state46 gone47. split; [by vm_compute|]. split; [quiet|]. split; [by vm_compute|]. split; [by vm_compute|].
  intros (h & r & H & Hb). revert H. unfold cget, slot. destruct h as [|[|[|[|[|[|h]]]]]]; cbn; try done. intros [= <-].
  destruct Hb as [[=]|Hb]. revert Hb. apply apart_below. by vm_compute.
Qed.
