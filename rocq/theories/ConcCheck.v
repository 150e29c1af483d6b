(** Calm schedules are easily recognised; examples. *)
From Verif Require Import Base Api SliceItemsModel BinPartsModel DataModel RcModel Spec ArcModel ArcConc ConcSpec ConcRaces.

(** The data above [u], nearest first ([None]: out of fuel). *)
Fixpoint above (g : gdworld) (n u : nat) : option (list nat) :=
  match n with
  | O => None
  | S n => match data_parent g u with None => Some [] | Some p => cons p <$> above g n p end
  end.
Lemma above_below g n u l x : above g n u = Some l -> below g x u -> x ∈ l.
Proof.
  revert u l. induction n as [|n IH]; intros u l; [done|]. cbn. destruct (data_parent g u) as [p|] eqn:Hp.
  - destruct (above g n p) as [l'|] eqn:E; [|done]. intros [= <-] Hb. inversion Hb as [? Hq|q ? Hq Hb']; subst; rewrite Hp in Hq; injection Hq as ->.
    + left.
    + right. by eapply IH.
  - intros _ Hb. inversion Hb; congruence.
Qed.
Definition apart (g : gdworld) (x u : nat) : bool :=
  match above g (S u) u with Some l => bool_decide (x ∉ l) | None => false end.
Lemma apart_below g x u : apart g x u = true -> ~ below g x u.
Proof.
  unfold apart. destruct (above g (S u) u) as [l|] eqn:E; [|done]. intros H%bool_decide_eq_true Hb. by eapply H, above_below.
Qed.

Section check.
  Context {V : Type} (sz : N).
  Implicit Types (s : cstate V) (es : list (sched (V:=V))).
  Definition ups s (st : list (frame V)) : list nat :=
    if existsb (fun f => match f with KFromData | KSlice _ => true | _ => false end) st then
      match last st with
      | Some (KEnd (Some h)) => match cget s h with Some (XWeak (Some u) _) => [u] | _ => [] end
      | _ => []
      end
    else [].
  Definition convs (st : list (frame V)) : list nat :=
    match st with
    | FIm3 r :: _ => [ar_data r]
    | FFg _ _ :: k => omap (fun f => match f with KImG r => Some (ar_data r) | _ => None end) k
    | _ => []
    end.
  Definition checks (st : list (frame V)) : list nat := match st with FGm5 r :: _ => [ar_data r] | _ => [] end.
  Definition holds (st : list (frame V)) : list nat :=
    match st with FV (VHold r) :: _ | FHold r :: _ => [ar_data r] | _ => [] end.
  Definition calmb s : bool :=
    forallb (fun x => forallb (apart (cs_g s) x) (cs_t s ≫= ups s)) (cs_t s ≫= convs).
  Definition calm_getb s : bool :=
    forallb (fun u => forallb (fun x => apart (cs_g s) x u) (cs_t s ≫= checks) &&
      forallb (fun x => negb (u =? x)%nat && apart (cs_g s) x u) (cs_t s ≫= holds)) (cs_t s ≫= ups s).
  Lemma ups_upgrading s t u : upgrading s t u -> u ∈ cs_t s ≫= ups s.
  Proof.
    intros (st & h & w & f & Ht & Hf & Hu & Hl & Hg). apply elem_of_list_bind. exists st. split; [|by eapply elem_of_list_lookup_2].
    unfold ups. rewrite Hl, Hg.
    replace (existsb _ _) with true; [left|]. symmetry. apply existsb_exists. exists f. split; [by apply elem_of_list_In|]. by destruct f.
  Qed.
  Lemma bind_in (F : list (frame V) -> list nat) s t st x : cs_t s !! t = Some st -> x ∈ F st -> x ∈ cs_t s ≫= F.
  Proof. intros Ht Hx. apply elem_of_list_bind. exists st. split; [done|]. by eapply elem_of_list_lookup_2. Qed.
  Lemma forallb_in {A} (P : A -> bool) l x : forallb P l = true -> x ∈ l -> P x = true.
  Proof. intros H Hx. rewrite forallb_forall in H. apply H. by apply elem_of_list_In. Qed.
  Lemma calmb_calm s : calmb s = true -> calm s.
  Proof.
    intros H t x t' u Hc Hu. apply apart_below. assert (x ∈ cs_t s ≫= convs) as Hx.
    { destruct Hc as (r & <- & [[k Ht]|(n & a & k & Ht & Hk)]); eapply bind_in; try exact Ht; cbn; [left|].
      apply elem_of_list_omap. exists (KImG r). done. }
    pose proof (forallb_in _ _ _ H Hx) as H'. cbn in H'. apply (forallb_in _ _ _ H'). by eapply ups_upgrading.
  Qed.
  Lemma calm_getb_calm s : calm_getb s = true -> calm_get s.
  Proof.
    intros H t x t' u Hu. pose proof (forallb_in _ _ _ H (ups_upgrading _ _ _ Hu)) as H'. cbn in H'. apply andb_true_iff in H' as [H1 H2]. split.
    - intros (r & k & <- & Ht). apply apart_below. apply (forallb_in (fun x => apart (cs_g s) x u) _ _ H1). eapply bind_in; [exact Ht|left].
    - intros (r & k & <- & Ht). assert (ar_data r ∈ cs_t s ≫= holds) as Hx by (destruct Ht as [Ht|Ht]; (eapply bind_in; [exact Ht|left])).
      pose proof (forallb_in _ _ _ H2 Hx) as H3. cbn in H3. apply andb_true_iff in H3 as [H3 H4]. split; [|by apply apart_below].
      intros ->. by rewrite Nat.eqb_refl in H3.
  Qed.
  Definition counts (st : list (frame V)) : list nat := match st with FGm2 r :: _ => [ar_guard r] | _ => [] end.
  Definition downs (st : list (frame V)) : list nat := match st with FDown r :: _ => [ar_guard r] | _ => [] end.
  Definition calm_downb s : bool := forallb (fun y => negb (existsb (Nat.eqb y) (cs_t s ≫= downs))) (cs_t s ≫= counts).
  Lemma calm_downb_calm s : calm_downb s = true -> calm_down s.
  Proof.
    intros H t r t' r' [k Ht] [k' Ht'] E. assert (ar_guard r ∈ cs_t s ≫= counts) as Hx by (eapply bind_in; [exact Ht|left]).
    pose proof (forallb_in _ _ _ H Hx) as H'. cbn in H'. apply negb_true_iff in H'. apply not_true_iff_false in H'. apply H', existsb_exists.
    exists (ar_guard r'). split; [|rewrite E; apply Nat.eqb_refl]. apply elem_of_list_In. eapply bind_in; [exact Ht'|left].
  Qed.
  Fixpoint alwaysb (P : cstate V -> bool) s es : bool :=
    P s && match es with [] => true | e :: es => match cstep sz s e with Ok s' => alwaysb P s' es | _ => true end end.
  Lemma alwaysb_always (P : cstate V -> bool) (Q : cstate V -> Prop) n es : (forall s, P s = true -> Q s) ->
    alwaysb P (init_cstate n) es = true -> always sz Q n es.
  Proof.
    intros HP H es1 es2 s -> Hr. unfold creach in Hr. revert H Hr. generalize (init_cstate (V:=V) n) as s0. induction es1 as [|e es1 IH]; intros s0.
    - cbn. intros H [= <-]. apply HP. destruct es2; cbn in H; by apply andb_true_iff in H as [? _].
    - cbn. intros [_ H]%andb_true_iff Hr. destruct (cstep sz s0 e) as [s1| | |]; try done. by eapply IH.
  Qed.
End check.

(** A slice of eight items is cut in halves and dropped; there are a
    [WeakSlice] of the right half (variable 3) and, in the left half, a left
    quarter that nobody has. *)
Definition halves38 : list (sched (V:=nat)) :=
  alone 0 (CFromVec 1000 [1; 2; 3; 4; 5; 6; 7; 8]) ++ alone 0 (CCloneHalf false 0) ++ alone 0 (CCloneHalf true 0) ++ alone 1 (CDowngrade 2) ++
  alone 0 (CCloneHalf false 1) ++ alone 0 (CDowngrade 4) ++ alone 0 (CDrop 0) ++ alone 0 (CDrop 4).
(** Thread 0 converts the left half while thread 1 upgrades the [WeakSlice]. *)
Definition calm38 : list (sched (V:=nat)) :=
  halves38 ++ [SStart 0 (CIntoMut 1); SStart 1 (CUpgrade 3)] ++ steps 1 2 ++ steps 0 2 ++ steps 1 1 ++ steps 0 2 ++ steps 1 1 ++ steps 0 1.
Lemma calm38_ok :
  always 8 calm 2 calm38 /\
  cafter 8 2 calm38 (fun s => converting s 0 1 /\ upgrading s 1 2) /\
  always 8 calm 2 (calm38 ++ steps 0 40 ++ steps 1 40) /\
  cafter 8 2 (calm38 ++ steps 0 40 ++ steps 1 40) (fun s => quiescent s /\ (exists m, cget s 6 = Some (XMut m)) /\
    ccells s 6 = [(0, 0%N); (0, 1%N); (0, 2%N); (0, 3%N)] /\ ccells s 7 = [(0, 4%N); (0, 5%N); (0, 6%N); (0, 7%N)] /\ cget s 3 = Some (XWeak (Some 2) (Some 2)) /\
    cget s 5 = Some (XWeak (Some 3) (Some 3))).
Proof.
  split; [|split; [|split]].
  - apply (alwaysb_always 8 calmb); [apply calmb_calm|vm_compute; reflexivity].
  - vm_compute. split.
    + eexists (ArcS 1 1). split; [done|]. right. do 3 eexists. split; [done|]. right. left.
    + eexists _, 3, _, (KSlice 2). split; [done|]. split; [right; left|]. split; [done|]. split; done.
  - apply (alwaysb_always 8 calmb); [apply calmb_calm|vm_compute; reflexivity].
  - vm_compute. split; [intros [|[|?]] st; cbn; intros; by simplify_eq|]. repeat (split || eexists).
Qed.
(** Thread 0 has got its reference to the left half with [get_mut] while thread 1 upgrades the [WeakSlice]. *)
Definition calm39 : list (sched (V:=nat)) :=
  halves38 ++ [SStart 0 (CGetMut 1); SStart 1 (CUpgrade 3)] ++ steps 1 2 ++ steps 0 4 ++ steps 1 1.
Lemma calm39_ok :
  let es := calm39 ++ steps 0 40 in let es' := es ++ [SWrite 0 1%N 9] ++ steps 1 40 in
  always 8 calm 2 es' /\ always 8 calm_get 2 es' /\
  cafter 8 2 calm39 (fun s => checking s 0 1 /\ upgrading s 1 2) /\
  cafter 8 2 es (fun s => holding s 0 1 /\ upgrading s 1 2 /\ ccells s 2 = [(0, 4%N); (0, 5%N); (0, 6%N); (0, 7%N)]) /\
  cafter 8 2 es' (fun s => holds_mut s 0 (ArcS 1 1) /\ data_cells s 1 = [(0, 0%N); (0, 1%N); (0, 2%N); (0, 3%N)] /\
    citem s (0, 1%N) = Some 9 /\ cget s 5 = Some (XWeak (Some 3) (Some 3)) /\ ccells s 6 = [(0, 4%N); (0, 5%N); (0, 6%N); (0, 7%N)]).
Proof.
  intros es es'. split; [|split; [|split; [|split]]].
  - apply (alwaysb_always 8 calmb); [apply calmb_calm|vm_compute; reflexivity].
  - apply (alwaysb_always 8 calm_getb); [apply calm_getb_calm|vm_compute; reflexivity].
  - vm_compute. split.
    + eexists (ArcS 1 1), _. split; done.
    + eexists _, 3, _, (KSlice 2). split; [done|]. split; [right; left|]. split; [done|]. split; done.
  - vm_compute. split; [|split].
    + eexists (ArcS 1 1), _. split; [done|]. by right.
    + eexists _, 3, _, (KSlice 2). split; [done|]. split; [right; left|]. split; [done|]. split; done.
    + done.
  - vm_compute. repeat split.
Qed.
(** Thread 1 downgrades the right half while thread 0 calls [get_mut] on the left half. *)
Definition down39 : list (sched (V:=nat)) :=
  halves38 ++ [SStart 1 (CDowngrade 2)] ++ steps 1 1 ++ [SStart 0 (CGetMut 1)] ++ steps 0 1.
Lemma down39_ok :
  let es := down39 ++ steps 0 40 ++ steps 1 40 in
  always 8 calm 2 es /\ always 8 calm_get 2 es /\ always 8 calm_down 2 es /\
  cafter 8 2 down39 (fun s => counting s 0 (ArcS 1 1) /\ downgrading s 1 (ArcS 2 2)) /\
  cafter 8 2 es (fun s => holds_mut s 0 (ArcS 1 1) /\ cget s 3 = Some (XWeak (Some 2) (Some 2)) /\ cget s 6 = Some (XWeak (Some 2) (Some 2))).
Proof.
  intros es. split; [|split; [|split; [|split]]].
  - apply (alwaysb_always 8 calmb); [apply calmb_calm|vm_compute; reflexivity].
  - apply (alwaysb_always 8 calm_getb); [apply calm_getb_calm|vm_compute; reflexivity].
  - apply (alwaysb_always 8 calm_downb); [apply calm_downb_calm|vm_compute; reflexivity].
  - vm_compute. split; eexists; reflexivity.
  - vm_compute. repeat split.
Qed.
(** The race of C39 violates only the last of these. *)
Lemma race39_calm : always 8 calm 2 race39 /\ always 8 calm_get 2 race39.
Proof.
  split.
  - apply (alwaysb_always 8 calmb); [apply calmb_calm|vm_compute; reflexivity].
  - apply (alwaysb_always 8 calm_getb); [apply calm_getb_calm|vm_compute; reflexivity].
Qed.
Lemma c39_weak : exists (es : list (sched (V:=nat))) s t r od,
  always 8 calm 2 es /\ always 8 calm_get 2 es /\ creach 8 2 es s /\ holds_mut s t r /\ has s (XWeak od (Some (ar_guard r))).
Proof.
  destruct (cafter_reach _ _ _ _ race39_weak) as (s & H & H1 & _ & H2 & _). exists race39, s, 0, (ArcS 0 0), (Some 0).
  destruct race39_calm. split; [done|]. split; [done|]. split; [done|]. split; [done|]. left. exists 2. done.
Qed.
(** Thread 1 drops the last slice of the left half, then thread 0 the rest. *)
Definition guards41 : list (sched (V:=nat)) :=
  alone 0 (CFromVec 1000 [1; 2; 3; 4; 5]) ++ alone 0 (CCloneHalf false 0) ++ alone 0 (CCloneHalf true 1) ++ alone 0 (CDowngrade 1) ++ alone 0 (CDrop 1) ++ alone 0 (CDrop 0).
Lemma guards41_ok :
  cafter 8 2 guards41 (fun s => quiescent s /\ installed s 0 = Some 0 /\ installed s 1 = Some 1 /\ cget s 2 = Some (XArc (ArcS 2 2)) /\
    below (cs_g s) 0 2 /\ below (cs_g s) 1 2) /\
  cafter 8 2 (guards41 ++ alone 1 (CDrop 2)) (fun s => quiescent s /\ cget s 3 = Some (XWeak (Some 1) (Some 1)) /\ (forall h r, cget s h <> Some (XArc r))).
Proof.
  split.
  - vm_compute. split; [intros [|[|?]] st; cbn; intros; by simplify_eq|]. split; [done|]. split; [done|]. split; [done|]. split.
    + eapply (below_more _ _ 1); [done|]. by apply below_half.
    + by apply below_half.
  - vm_compute. split; [intros [|[|?]] st; cbn; intros; by simplify_eq|]. split; [done|].
    intros [|[|[|[|?]]]] r; done.
Qed.
