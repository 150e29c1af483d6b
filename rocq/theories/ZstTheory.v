(** Item sizes do not matter: the same calls on items of different sizes behave
    the same up to addresses. *)
From Verif Require Import Base Api BaseLemmas SliceItemsModel BinPartsModel DataModel RcModel Spec SliceItemsProof
  DataInv DataSteps GuardInv RelInv Refine Observe Facts SpecTheory Frame Views RcTheory ShareTheory Conserve ConserveTheory IterTheory.

Section zst.
  Context {V : Type} (cf0 cf1 : cfg V) (Hc : c_clone cf0 = c_clone cf1).
  Implicit Types (w : world V) (a : astate V) (o : op V) (h : nat) (ops : list (op V)).
  Lemma strip_slice a cs : strip (a_slice (c_sz cf0) a cs) = strip (a_slice (c_sz cf1) a cs).
  Proof. done. Qed.
  Lemma spec_sizes a o :
    fst (spec_step (c_sz cf0) (c_clone cf0) a o) = fst (spec_step (c_sz cf1) (c_clone cf1) a o) /\
    strip (snd (spec_step (c_sz cf0) (c_clone cf0) a o)) = strip (snd (spec_step (c_sz cf1) (c_clone cf1) a o)).
  Proof.
    rewrite Hc. destruct o; cbn [spec_step]; try done; repeat case_match; try done; simplify_eq; split; done.
  Qed.
  Lemma view_sizes w0 w1 a h : rel (c_sz cf0) w0 a -> rel (c_sz cf1) w1 a -> snd <$> view cf0 w0 h = snd <$> view cf1 w1 h.
  Proof.
    intros R0 R1. destruct (a_get a h) as [x|] eqn:Hx.
    - destruct (decide (a_weak x)) as [Hw|Hw]; [by rewrite (view_weak cf0 _ _ _ _ R0 Hx Hw), (view_weak cf1 _ _ _ _ R1 Hx Hw)|].
      destruct (handle_rng cf0 _ _ _ _ R0 Hx Hw) as (r0 & C0 & _ & ->). rewrite (view_rng cf1 _ _ _ _ _ R1 Hx Hw C0). done.
    - by rewrite (view_None cf0 _ _ _ R0 Hx), (view_None cf1 _ _ _ R1 Hx).
  Qed.
  Lemma put_sizes w0 w1 a o r0 r1 : rel (c_sz cf0) w0 a -> rel (c_sz cf1) w1 a -> strip r0 = strip r1 -> put cf0 w0 o r0 = put cf1 w1 o r1.
  Proof.
    intros R0 R1 Hs. destruct o, r0, r1; cbn in *; try done. pose proof (view_sizes _ _ _ h R0 R1) as Hv.
    destruct (view cf0 w0 h) as [[]|], (view cf1 w1 h) as [[]|]; cbn in Hv; try done. injection Hv as ->. by rewrite Hc.
  Qed.
  Lemma run_sizes ops : forall w0 w1 a w0' w1' q0 q1, rel (c_sz cf0) w0 a -> rel (c_sz cf1) w1 a ->
    rrun cf0 w0 ops = Ok (w0', q0) -> rrun cf1 w1 ops = Ok (w1', q1) ->
    fmap (M:=list) strip q0 = fmap (M:=list) strip q1 /\ put_run cf0 w0 ops = put_run cf1 w1 ops /\ (forall c, item w0' c = item w1' c) /\ (forall h, h_cells cf0 w0' h = h_cells cf1 w1' h).
  Proof.
    induction ops as [|o ops IH]; intros w0 w1 a w0' w1' q0 q1 R0 R1 E0 E1.
    - injection E0 as <- <-. injection E1 as <- <-. split_and!; try done.
      + intros c. unfold item. destruct R0 as (? & _ & _ & _ & <- & _), R1 as (? & _ & _ & _ & <- & _). done.
      + intros h. by rewrite (fact_h_cells _ _ _ R0 cf0 h eq_refl), (fact_h_cells _ _ _ R1 cf1 h eq_refl).
    - destruct (rrun_cons cf0 _ _ _ _ _ E0) as (v0 & r0 & rs0 & S0 & T0 & ->). destruct (rrun_cons cf1 _ _ _ _ _ E1) as (v1 & r1 & rs1 & S1 & T1 & ->).
      destruct (step_rel cf0 _ _ _ _ _ R0 S0) as [Er0 R0']. destruct (step_rel cf1 _ _ _ _ _ R1 S1) as [Er1 R1'].
      destruct (spec_sizes a o) as [Ea Es]. rewrite Ea in R0'. rewrite <- Er0, <- Er1 in Es.
      destruct (IH _ _ _ _ _ _ _ R0' R1' T0 T1) as (H1 & H2 & H3 & H4). split_and!; try done.
      + by rewrite !fmap_cons, H1, Es.
      + cbn. rewrite S0, S1, H2. by rewrite (put_sizes _ _ _ _ _ _ R0 R1 Es).
  Qed.
  Lemma rel_empty sz : rel (V:=V) sz empty_world empty_astate.
  Proof. 
    exact (reach_rel (Cfg (V:=V) sz id id id) [] empty_world (ex_intro _ [] eq_refl)).
  Qed.
  Lemma strip_got (rs rs' : list (out V)) : fmap (M:=list) strip rs = fmap (M:=list) strip rs' -> got_run rs = got_run rs'.
  Proof.
    revert rs'. induction rs as [|r rs IH]; intros [|r' rs']; try done. cbn. intros [= H1 H2]. unfold got_run in *. cbn. rewrite (IH _ H2). f_equal. destruct r, r'; cbn in H1; try done; by injection H1 as ->.
  Qed.
  Lemma sizes_same ops w0 w1 q0 q1 : rrun cf0 empty_world ops = Ok (w0, q0) -> rrun cf1 empty_world ops = Ok (w1, q1) ->
    fmap (M:=list) strip q0 = fmap (M:=list) strip q1 /\ (forall h, h_cells cf0 w0 h = h_cells cf1 w1 h) /\ (forall c, item w0 c = item w1 c) /\ dropped w0 ≡ₚ dropped w1.
  Proof.
    intros E0 E1. destruct (run_sizes _ _ _ _ _ _ _ _ (rel_empty _) (rel_empty _) E0 E1) as (H1 & H2 & H3 & H4). split_and!; try done.
    destruct (conserved cf0 _ _ _ E0) as (C0 & _). destruct (conserved cf1 _ _ _ E1) as (C1 & _).
    rewrite H2, C1 in C0. rewrite (strip_got _ _ H1) in C0.
    assert (contents w0 = contents w1) as Hc'. { unfold contents. do 2 f_equal. apply map_eq. exact H3. }
    rewrite Hc' in C0. apply Permutation_app_inv_l in C0. apply Permutation_app_inv_r in C0. done.
  Qed.
End zst.
