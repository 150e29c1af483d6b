(** Invariant of the guards of the thread-safe API used by one thread, and what
    their reference counts mean. *)
From Verif Require Import Base BaseLemmas DataModel RcModel Spec DataInv DataSteps GuardInv GuardSteps GuardFuns ArcModel.

Definition a_pars (n : aguard) : list nat := option_list (a_parent n).
(** The guards that boxes point to. *)
Definition box_refs (b : list (option (option nat))) : list nat := omap mjoin b.

(** [L]: labels of the datas, [LI]: of the guards. [RI], [RW]: strong and weak
    references held outside guards and boxes. *)
Record ainv (w : gdworld) (L LI : list label) (RI RW : list nat) : Prop := {
  ai_len : length LI = length (gd_guards w);
  ai_lenw : length (gd_weak w) = length (gd_guards w);
  ai_lenm : length (gd_metas w) = length L;
  ai_lab : forall i l, LI !! i = Some l -> l ∈ L;
  ai_par : forall i n l, rc_get (gd_guards w) i = Some n -> LI !! i = Some l ->
    match a_parent n with
    | None => l_path l = []
    | Some p => p < i /\ exists lp side, LI !! p = Some lp /\ l = lchild lp side
    end;
  ai_u : forall i n i' n' l, rc_get (gd_guards w) i = Some n -> rc_get (gd_guards w) i' = Some n' ->
    LI !! i = Some l -> LI !! i' = Some l -> i = i';
  ai_pos : forall i n, ~ live (gd_guards w) i 0 n;
  ai_open : forall i n, rc_get (gd_guards w) i = Some n -> a_clone n = false /\ a_down n = false;
  ai_cnt : forall i, rc_count (gd_guards w) i = cnt i RI + hsum (fun n => cnt i (a_pars n)) (gd_guards w);
  ai_rw : forall i, i ∈ RW -> i < length (gd_guards w);
  ai_wcnt : forall i c, gd_weak w !! i = Some c -> c = S (cnt i RW);
  ai_refs : box_refs (gd_boxes w) = seq 0 (length (gd_guards w));
  ai_nofree : forall b, gd_boxes w !! b <> Some None;
  ai_leak : length (gd_boxes w) = length (gd_metas w) + length (gd_guards w);
  ai_box : forall x l m, L !! x = Some l -> gd_metas w !! x = Some m ->
    exists o, gd_boxes w !! am_box m = Some (Some o) /\
      (forall i, o = Some i -> LI !! i = Some l) /\
      (forall i n, rc_get (gd_guards w) i = Some n -> LI !! i = Some l -> o = Some i);
  ai_meta : forall x l m, L !! x = Some l -> gd_metas w !! x = Some m ->
    match am_parent m with
    | None => l_path l = []
    | Some p => p < x /\ exists lp side, L !! p = Some lp /\ l = lchild lp side
    end
}.
Lemma ainv_perm w L LI RI RI' RW RW' : RI ≡ₚ RI' -> RW ≡ₚ RW' -> ainv w L LI RI RW -> ainv w L LI RI' RW'.
Proof.
  intros H1 H2 []. split; try done.
  - intros i. by rewrite <- (cnt_perm _ _ _ H1).
  - intros i. rewrite <- H2. apply ai_rw0.
  - intros i c. rewrite <- (cnt_perm _ _ _ H2). apply ai_wcnt0.
Qed.

Section facts.
  Context (w : gdworld) (L LI : list label) (RI RW : list nat).
  Context (I : ainv w L LI RI RW).
  Notation gv := (rc_get (gd_guards w)).

  Lemma ainv_ref i : i ∈ RI -> exists n l, gv i = Some n /\ LI !! i = Some l.
  Proof.
    intros H%cnt_pos. destruct (count_get (gd_guards w) i) as [n Hn].
    { rewrite (ai_cnt _ _ _ _ _ I). lia. }
    destruct (lookup_lt_is_Some_2 LI i) as [l Hl]; [|eauto].
    rewrite (ai_len _ _ _ _ _ I). by eapply rc_get_lt.
  Qed.
  Lemma ainv_glab i n : gv i = Some n -> exists l, LI !! i = Some l.
  Proof. intros H%rc_get_lt. apply lookup_lt_is_Some_2. by rewrite (ai_len _ _ _ _ _ I). Qed.
  Lemma ainv_par_live i n p : gv i = Some n -> a_parent n = Some p -> exists m, gv p = Some m.
  Proof.
    intros (s & Hv)%rc_get_Some Hp. apply count_get. rewrite (ai_cnt _ _ _ _ _ I).
    pose proof (hsum_ge (fun n => cnt p (a_pars n)) _ _ _ _ Hv) as H. cbn beta in H. unfold a_pars in H at 1.
    rewrite Hp in H. cbn in H. rewrite cnt_cons, decide_True in H by done. lia.
  Qed.
  (** Going up: the ancestors of a live guard are live. *)
  Lemma ainv_up j m l p : gv j = Some m -> LI !! j = Some (lapp l p) ->
    exists i n, gv i = Some n /\ LI !! i = Some l /\
      (p <> [] -> exists c s k side, live (gd_guards w) c s k /\ a_parent k = Some i /\ LI !! c = Some (lchild l side) /\
          (exists p', p = side :: p')).
  Proof.
    revert l. induction p as [|side p IH]; intros l Hj Hl.
    { rewrite lapp_nil in Hl. exists j, m. by split_and!. }
    rewrite lapp_cons in Hl. destruct (IH _ Hj Hl) as (c & k & Hc & Hlc & _).
    pose proof (ai_par _ _ _ _ _ I _ _ _ Hc Hlc) as Hp. destruct (a_parent k) as [q|] eqn:Eq.
    - destruct Hp as (_ & lp & side' & Hlp & E). apply lchild_inj in E as [<- <-].
      destruct (ainv_par_live _ _ _ Hc Eq) as [m' Hm']. exists q, m'. split_and!; try done.
      intros _. destruct (rc_get_Some _ _ _ Hc) as [s Hs]. eauto 10.
    - cbn in Hp. by apply app_nil in Hp as [_ [=]].
  Qed.
  (** Going down: below a live guard there is one held outside. *)
  Lemma ainv_down i n l : gv i = Some n -> LI !! i = Some l ->
    exists j lj, j ∈ RI /\ LI !! j = Some lj /\ anc l lj.
  Proof.
    remember (length (gd_guards w) - i) as k eqn:Ek. revert i n l Ek.
    induction (lt_wf k) as [k _ IH]; intros i n l Ek Hi Hl.
    pose proof (ai_cnt _ _ _ _ _ I i) as E.
    assert (rc_count (gd_guards w) i <> 0).
    { intros H0. apply rc_get_count in Hi. rewrite H0 in Hi. by eapply ai_pos. }
    destruct (decide (i ∈ RI)) as [Hin|Hin]; [exists i, l; split_and!; try done; apply anc_refl|].
    apply cnt_zero in Hin.
    destruct (hsum_pos (fun n => cnt i (a_pars n)) (gd_guards w)) as (c & s & m & Hc & Hm); [lia|].
    apply cnt_pos in Hm. unfold a_pars in Hm. destruct (a_parent m) as [p|] eqn:Hp; [|by apply elem_of_nil in Hm].
    apply elem_of_list_singleton in Hm as <-.
    pose proof (rc_get_live _ _ _ _ Hc) as Hc'. destruct (ainv_glab _ _ Hc') as [lc Hlc].
    pose proof (ai_par _ _ _ _ _ I _ _ _ Hc' Hlc) as Hq. rewrite Hp in Hq.
    destruct Hq as (Hlt & lp & side & Hlp & ->). rewrite Hl in Hlp. injection Hlp as <-.
    pose proof (live_lt _ _ _ _ Hc).
    destruct (IH (length (gd_guards w) - c) ltac:(lia) c m (lchild l side) eq_refl Hc' Hlc) as (j & lj & ? & ? & Ha).
    exists j, lj. split_and!; try done. eapply anc_trans; [apply anc_child|done].
  Qed.
  (** What it means that a guard is not shared. *)
  Lemma ainv_count_one i l : i ∈ RI -> LI !! i = Some l ->
    rc_count (gd_guards w) i = 1 <->
    cnt i RI = 1 /\ forall j lj, j ∈ RI -> LI !! j = Some lj -> anc l lj -> lj = l.
  Proof.
    intros Hi Hl. destruct (ainv_ref _ Hi) as (n & l' & Hn & Hl'). rewrite Hl in Hl'. injection Hl' as <-.
    pose proof (ai_cnt _ _ _ _ _ I i) as E. pose proof (proj2 (cnt_pos _ _) Hi) as Hpos. split.
    - intros H1. split; [lia|]. intros j lj Hj Hlj Ha. destruct (decide (lj = l)) as [|Hne]; [done|exfalso].
      destruct (proj1 (anc_lapp l lj) Ha) as [p ->].
      destruct (ainv_ref _ Hj) as (m & l' & Hm & Hl'). rewrite Hlj in Hl'. injection Hl' as <-.
      destruct (ainv_up _ _ _ _ Hm Hlj) as (i' & n' & Hi' & Hli' & Hc).
      assert (i' = i) as -> by (eapply (ai_u _ _ _ _ _ I); eauto).
      destruct Hc as (c & s & k & side & Hc & Hp & _); [intros ->; by rewrite lapp_nil in Hne|].
      pose proof (hsum_ge (fun n => cnt i (a_pars n)) _ _ _ _ Hc) as H. cbn beta in H. unfold a_pars in H at 1.
      rewrite Hp in H. cbn in H. rewrite cnt_cons, decide_True in H by done. lia.
    - intros [H1 H2]. destruct (decide (0 < hsum (fun n => cnt i (a_pars n)) (gd_guards w))) as [Hp|]; [exfalso|lia].
      apply hsum_pos in Hp as (c & s & m & Hc & Hm).
      apply cnt_pos in Hm. unfold a_pars in Hm. destruct (a_parent m) as [p|] eqn:Hp; [|by apply elem_of_nil in Hm].
      apply elem_of_list_singleton in Hm as <-.
      pose proof (rc_get_live _ _ _ _ Hc) as Hc'. destruct (ainv_glab _ _ Hc') as [lc Hlc].
      pose proof (ai_par _ _ _ _ _ I _ _ _ Hc' Hlc) as Hq. rewrite Hp in Hq.
      destruct Hq as (Hlt & lp & side & Hlp & ->). rewrite Hl in Hlp. injection Hlp as <-.
      destruct (ainv_down _ _ _ Hc' Hlc) as (j & lj & Hj & Hlj & Ha).
      assert (lj = l) as -> by (eapply H2; eauto; eapply anc_trans; [apply anc_child|done]).
      pose proof (anc_antisym _ _ Ha (anc_child _ _)) as E'. by eapply lchild_ne.
  Qed.
  (** What it means that a guard has one weak reference. *)
  Lemma ainv_weak_one i : i < length (gd_guards w) ->
    gd_weak_count w i = 1 <-> i ∉ RW.
  Proof.
    intros Hi. unfold gd_weak_count. rewrite <- (ai_lenw _ _ _ _ _ I) in Hi.
    destruct (lookup_lt_is_Some_2 _ _ Hi) as [c Hc]. rewrite Hc, (ai_wcnt _ _ _ _ _ I _ _ Hc), <- cnt_zero. lia.
  Qed.
End facts.

(** *** Steps *)

Lemma ainv_recount w L LI RI RI' RW i s n s' :
  ainv w L LI RI RW -> live (gd_guards w) i s n -> s' <> 0 ->
  (forall x, cnt x RI' + (if decide (x = i) then s else 0) = cnt x RI + (if decide (x = i) then s' else 0)) ->
  ainv (gd_set_guards w (<[i := Some (s', n)]> (gd_guards w))) L LI RI' RW.
Proof.
  intros [] Hv Hs HR. pose proof (live_lt _ _ _ _ Hv) as Hlt.
  assert (forall x m, rc_get (<[i := Some (s', n)]> (gd_guards w)) x = Some m -> rc_get (gd_guards w) x = Some m) as Hget.
  { intros x m. rewrite rc_get_insert by done. case_decide; [|done]. subst. cbn. intros [= <-]. by eapply rc_get_live. }
  split; cbn [gd_set_guards gd_guards gd_weak gd_boxes gd_metas]; rewrite ?insert_length; try done; eauto.
  - intros x m l Hx Hl. apply (ai_par0 x m l); eauto.
  - intros x m [(-> & [= -> ->] & _)|[_ H]]%live_insert; [done|]. by eapply ai_pos0.
  - intros x. specialize (ai_cnt0 x). specialize (HR x). rewrite rc_count_insert by done.
    rewrite (hsum_recount _ _ _ _ _ _ Hv). destruct (decide (x = i)) as [->|]; cbn; [|lia].
    rewrite (rc_count_live _ _ _ _ Hv) in ai_cnt0. lia.
  - intros x l m Hx Hm. destruct (ai_box0 x l m Hx Hm) as (o & ? & ? & ?). exists o. split_and!; eauto.
Qed.
Lemma ainv_inc w L LI RI RW i s n : ainv w L LI RI RW -> live (gd_guards w) i s n ->
  ainv (gd_set_guards w (<[i := Some (S s, n)]> (gd_guards w))) L LI (i :: RI) RW.
Proof. intros I Hv. eapply ainv_recount; [done..|]. intros x. rewrite cnt_step. case_decide; lia. Qed.
Lemma ainv_dec w L LI RI RW i s n : ainv w L LI (i :: RI) RW -> live (gd_guards w) i (S (S s)) n ->
  ainv (gd_set_guards w (<[i := Some (S s, n)]> (gd_guards w))) L LI RI RW.
Proof. intros I Hv. eapply ainv_recount; [done..|]. intros x. rewrite cnt_step. case_decide; lia. Qed.

Lemma ainv_kill w L LI RI RW i n : ainv w L LI (i :: RI) RW -> live (gd_guards w) i 1 n ->
  ainv (gd_set_guards w (<[i := None]> (gd_guards w))) L LI (a_pars n ++ RI) RW.
Proof.
  intros [] Hv. pose proof (live_lt _ _ _ _ Hv) as Hlt.
  assert (forall x m, rc_get (<[i := None]> (gd_guards w)) x = Some m -> rc_get (gd_guards w) x = Some m) as Hget.
  { intros x m. rewrite rc_get_insert by done. by case_decide. }
  split; cbn [gd_set_guards gd_guards gd_weak gd_boxes gd_metas]; rewrite ?insert_length; try done; eauto.
  - intros x m l Hx Hl. apply (ai_par0 x m l); eauto.
  - intros x m [(-> & [=] & _)|[_ H]]%live_insert. by eapply ai_pos0.
  - intros x. specialize (ai_cnt0 x). rewrite rc_count_insert by done. rewrite cnt_step in ai_cnt0.
    pose proof (hsum_kill (fun n => cnt x (a_pars n)) _ _ _ _ Hv) as E. cbn beta in E. rewrite cnt_app.
    destruct (decide (x = i)) as [->|]; cbn; [|lia].
    rewrite (rc_count_live _ _ _ _ Hv) in ai_cnt0. lia.
  - intros x l m Hx Hm. destruct (ai_box0 x l m Hx Hm) as (o & ? & ? & ?). exists o. split_and!; eauto.
Qed.

(** Guards live before are live after / the other way round. *)
Definition gkeep (w w' : gdworld) : Prop := forall i n, rc_get (gd_guards w) i = Some n -> exists n', rc_get (gd_guards w') i = Some n'.
Lemma gkeep_refl w : gkeep w w.
Proof. intros i n H. eauto. Qed.
Lemma gkeep_trans w1 w2 w3 : gkeep w1 w2 -> gkeep w2 w3 -> gkeep w1 w3.
Proof. intros H1 H2 i n (n' & H)%H1. by apply H2 in H. Qed.

(** Guards are created, none is released. *)
Definition ggrow (w w' : gdworld) : Prop := gkeep w w' /\ length (gd_guards w) <= length (gd_guards w') /\
  forall i n, i < length (gd_guards w) -> rc_get (gd_guards w') i = Some n -> exists m, rc_get (gd_guards w) i = Some m.
Lemma ggrow_refl w : ggrow w w.
Proof. split; [apply gkeep_refl|]. split; [done|]. eauto. Qed.
Lemma ggrow_trans w1 w2 w3 : ggrow w1 w2 -> ggrow w2 w3 -> ggrow w1 w3.
Proof.
  intros (K1 & L1 & D1) (K2 & L2 & D2). split; [by eapply gkeep_trans|]. split; [lia|].
  intros i n Hi Hn. destruct (D2 i n) as [m Hm]; [lia|done|]. by eapply D1.
Qed.

Lemma gkeep_recount w i s n s' n' : live (gd_guards w) i s n ->
  gkeep w (gd_set_guards w (<[i := Some (s', n')]> (gd_guards w))) /\
  gkeep (gd_set_guards w (<[i := Some (s', n')]> (gd_guards w))) w.
Proof.
  intros Hv. pose proof (live_lt _ _ _ _ Hv) as Hlt. split; intros x m; cbn.
  - rewrite rc_get_insert by done. case_decide; [subst; cbn; eauto|eauto].
  - rewrite rc_get_insert by done. case_decide; [subst|eauto]. intros _. exists n. by eapply rc_get_live.
Qed.
Lemma ggrow_recount w i s n s' n' : live (gd_guards w) i s n ->
  ggrow w (gd_set_guards w (<[i := Some (s', n')]> (gd_guards w))).
Proof.
  intros H. destruct (gkeep_recount w i s n s' n' H) as [K1 K2]. split; [done|]. cbn. rewrite insert_length. split; [done|].
  intros j m _ Hj. by apply K2 in Hj.
Qed.

Lemma guard_release_ok L LI RW : forall fuel w i RI, i < fuel ->
  ainv w L LI (i :: RI) RW ->
  exists gs, guard_release fuel w i = Ok (gd_set_guards w gs) /\ ainv (gd_set_guards w gs) L LI RI RW /\
    gkeep (gd_set_guards w gs) w.
Proof.
  induction fuel as [|fuel IH]; intros w i RI Hf I; [lia|].
  destruct (ainv_ref _ _ _ _ _ I i) as (n & l & Hn & Hl); [left|].
  destruct (rc_get_Some _ _ _ Hn) as [s Hv].
  assert (s <> 0) by (intros ->; by eapply ai_pos).
  cbn [guard_release]. unfold rc_dec. rewrite Hv. destruct s as [|[|s]]; [done| |].
  2:{ res_simpl. eexists. split; [done|]. split; [by eapply ainv_dec|]. by eapply gkeep_recount. }
  res_simpl. pose proof (ainv_kill _ _ _ _ _ _ _ I Hv) as I1. unfold a_pars in I1.
  assert (gkeep (gd_set_guards w (<[i := None]> (gd_guards w))) w) as K1.
  { intros x m. cbn. rewrite rc_get_insert by (by eapply live_lt). case_decide; [done|eauto]. }
  destruct (a_parent n) as [p|] eqn:Ep; cbn in I1; [|by eauto].
  pose proof (ai_par _ _ _ _ _ I _ _ _ Hn Hl) as Hp. rewrite Ep in Hp. destruct Hp as [? _].
  destruct (IH _ p RI ltac:(lia) I1) as (gs & E & I2 & K2). exists gs. split_and!; try done.
  by eapply gkeep_trans.
Qed.
Lemma guard_drop_ok L LI RW w i RI : ainv w L LI (i :: RI) RW ->
  exists gs, guard_drop w i = Ok (gd_set_guards w gs) /\ ainv (gd_set_guards w gs) L LI RI RW /\
    gkeep (gd_set_guards w gs) w.
Proof.
  intros I. apply guard_release_ok; [|done]. destruct (ainv_ref _ _ _ _ _ I i) as (n & l & Hn & _); [left|].
  apply rc_get_lt in Hn. lia.
Qed.

(** *** Gates *)
Lemma gate_wait_ok w L LI RI RW i down : ainv w L LI RI RW -> i ∈ RI -> gate_wait w i down = Ok tt.
Proof.
  intros I Hi. destruct (ainv_ref _ _ _ _ _ I i Hi) as (n & l & Hn & Hl).
  unfold gate_wait, rc_val. rewrite Hn. res_simpl.
  destruct (ai_open _ _ _ _ _ I _ _ Hn) as [E1 E2]. unfold a_gate. by destruct down; rewrite ?E1, ?E2.
Qed.

(** *** Weak references *)
Lemma ainv_winc w L LI RI RW i : ainv w L LI RI RW -> i < length (gd_guards w) ->
  exists w', gd_weak_inc w (Some i) = Ok w' /\ ainv w' L LI RI (i :: RW) /\ gd_guards w' = gd_guards w.
Proof.
  intros [] Hi. unfold gd_weak_inc. rewrite <- ai_lenw0 in Hi.
  destruct (lookup_lt_is_Some_2 _ _ Hi) as [c Hc]. rewrite Hc. eexists. split; [done|]. split; [|done].
  split; cbn [gd_set_guards gd_guards gd_weak gd_boxes gd_metas]; rewrite ?insert_length; try done.
  - intros x [->|H]%elem_of_cons; [by rewrite <- ai_lenw0|eauto].
  - intros x c' [(-> & <- & _)|[Hne Hx]]%list_lookup_insert_Some.
    + rewrite (ai_wcnt0 _ _ Hc), cnt_step, decide_True by done. lia.
    + rewrite (ai_wcnt0 _ _ Hx), cnt_step, decide_False by done. lia.
Qed.
Lemma ainv_wdec w L LI RI RW i : ainv w L LI RI (i :: RW) ->
  exists w', gd_weak_dec w (Some i) = Ok w' /\ ainv w' L LI RI RW /\ gd_guards w' = gd_guards w.
Proof.
  intros []. unfold gd_weak_dec. assert (i < length (gd_weak w)) as Hi.
  { rewrite ai_lenw0. apply ai_rw0. left. }
  destruct (lookup_lt_is_Some_2 _ _ Hi) as [c Hc]. rewrite Hc.
  pose proof (ai_wcnt0 _ _ Hc) as E. rewrite cnt_step, decide_True in E by done. subst c. eexists. split; [done|]. split; [|done].
  split; cbn [gd_set_guards gd_guards gd_weak gd_boxes gd_metas]; rewrite ?insert_length; try done.
  - intros x H. apply ai_rw0. by right.
  - intros x c' [(-> & <- & _)|[Hne Hx]]%list_lookup_insert_Some.
    + lia.
    + rewrite (ai_wcnt0 _ _ Hx), cnt_step, decide_False by done. lia.
Qed.

(** *** New datas and guards *)
Lemma box_refs_app b1 b2 : box_refs (b1 ++ b2) = box_refs b1 ++ box_refs b2.
Proof. apply omap_app. Qed.
Lemma ainv_new_data w L LI RI RW l (par : option (nat * bool)) : ainv w L LI RI RW -> l ∉ L ->
  match par with
  | None => l_path l = []
  | Some (p, side) => exists lp, L !! p = Some lp /\ l = lchild lp side
  end ->
  ainv (gd_new_data w (fst <$> par)) (L ++ [l]) LI RI RW.
Proof.
  intros [] Hl Hpar. split; cbn [gd_new_data gd_guards gd_weak gd_boxes gd_metas]; try done.
  - rewrite !app_length. cbn. lia.
  - intros i l' H. apply elem_of_app. left. eauto.
  - rewrite box_refs_app. cbn. by rewrite app_nil_r.
  - intros b [[-> [=]]|[_ H]]%lookup_snoc_inv. by eapply ai_nofree0.
  - rewrite !app_length. cbn. lia.
  - intros x lx m [[-> ->]|[Hne Hx]]%lookup_snoc_inv [[E ->]|[Hne' Hm]]%lookup_snoc_inv; try (exfalso; lia).
    + cbn. exists None. split_and!; [by rewrite list_lookup_middle|done|].
      intros i n _ Hi. by apply ai_lab0 in Hi.
    + destruct (ai_box0 x lx m Hx Hm) as (o & ? & ? & ?). exists o. split_and!; try done.
      by apply lookup_app_l_Some.
  - intros x lx m [[-> ->]|[Hne Hx]]%lookup_snoc_inv [[E ->]|[Hne' Hm]]%lookup_snoc_inv; try (exfalso; lia).
    + cbn. destruct par as [[p side]|]; cbn; [|done]. destruct Hpar as (lp & Hp & ->).
      split; [by eapply lookup_lt_Some|]. exists lp, side. split; [|done]. by apply lookup_app_l_Some.
    + pose proof (ai_meta0 x lx m Hx Hm) as H. destruct (am_parent m); [|done].
      destruct H as (? & lp & side & ? & ?). split; [done|]. exists lp, side. split; [|done]. by apply lookup_app_l_Some.
Qed.

Lemma ainv_new_guard w L LI RI RW x l m (par : option nat) : let i := length (gd_guards w) in
  ainv w L LI (option_list par ++ RI) RW -> L !! x = Some l -> gd_metas w !! x = Some m -> NoDup L ->
  match par with
  | None => l_path l = []
  | Some p => exists lp side, LI !! p = Some lp /\ l = lchild lp side
  end ->
  (forall j n, rc_get (gd_guards w) j = Some n -> LI !! j <> Some l) ->
  exists w', gd_new_guard w x (am_box m) par = Ok (w', i) /\
    gd_guards w' = gd_guards w ++ [Some (1, AGuard par false false)] /\
    gd_metas w' = <[x := AMeta (am_parent m) (length (gd_boxes w))]> (gd_metas w) /\
    ainv w' L (LI ++ [l]) (i :: RI) RW.
Proof.
  intros i I Hx Hm Hnd Hpar Hno. unfold gd_new_guard. cbn [rc_new]. rewrite Hm, Nat.eqb_refl.
  eexists. split; [done|]. split; [done|]. split; [done|].
  assert (RPAR : forall p, p ∈ option_list par -> p < i).
  { intros p Hp. destruct (ainv_ref _ _ _ _ _ I p) as (n & ? & Hn & _); [by apply elem_of_app; left|]. by eapply rc_get_lt. }
  destruct I. destruct (snoc_facts (gd_guards w) (AGuard par false false)) as [F1 F2].
  split; cbn [gd_guards gd_weak gd_boxes gd_metas]; rewrite ?app_length, ?insert_length; cbn [length]; try lia.
  - intros j lj [[-> ->]|[_ H]]%lookup_snoc_inv; [by eapply elem_of_list_lookup_2|eauto].
  - intros j n lj. rewrite F1. fold i. case_decide as Ej.
    + intros [= <-] Hj. subst j. assert (lj = l) as ->.
      { apply lookup_snoc_inv in Hj as [[_ ->]|[Hne _]]; [done|]. by rewrite ai_len0 in Hne. }
      cbn. destruct par as [p|]; [|done]. destruct Hpar as (lp & side & Hp & ->). split; [apply RPAR; left|].
      exists lp, side. split; [|done]. by apply lookup_app_l_Some.
    + intros Hn Hj. rewrite lookup_snoc_ne in Hj by (by rewrite ai_len0).
      pose proof (ai_par0 _ _ _ Hn Hj) as H. destruct (a_parent n); [|done].
      destruct H as (? & lp & side & ? & ?). split; [done|]. exists lp, side. split; [|done]. by apply lookup_app_l_Some.
  - intros j n j' n' lj. rewrite !F1. fold i. destruct (decide (j = i)) as [->|Hj], (decide (j' = i)) as [->|Hj']; try done.
    + intros _ Hn' H1 H2. rewrite lookup_snoc_ne in H2 by (by rewrite ai_len0).
      apply lookup_snoc_inv in H1 as [[_ ->]|[Hne _]]; [by destruct (Hno _ _ Hn' H2)|by rewrite ai_len0 in Hne].
    + intros Hn' _ H2 H1. rewrite lookup_snoc_ne in H2 by (by rewrite ai_len0).
      apply lookup_snoc_inv in H1 as [[_ ->]|[Hne _]]; [by destruct (Hno _ _ Hn' H2)|by rewrite ai_len0 in Hne].
    + intros Hn Hn'. rewrite !lookup_snoc_ne by (by rewrite ai_len0). eauto.
  - intros j n [[-> [= ->]]|[_ H]]%live_snoc. by eapply ai_pos0.
  - intros j n. rewrite F1. case_decide; [by intros [= <-]|eauto].
  - intros j. specialize (ai_cnt0 j). rewrite F2, hsum_snoc, cnt_step, cnt_app in *. fold i. cbn [a_pars a_parent].
    change (a_pars (AGuard par false false)) with (option_list par).
    case_decide as Ej; [|lia]. subst j.
    assert (rc_count (gd_guards w) i = 0) as E0.
    { unfold rc_count. by rewrite lookup_ge_None_2. }
    lia.
  - intros j Hj. apply ai_rw0 in Hj. lia.
  - intros j c [[-> ->]|[_ H]]%lookup_snoc_inv; [|eauto]. f_equal. symmetry. apply cnt_zero.
    intros Hj%ai_rw0. lia.
  - rewrite box_refs_app, ai_refs0. cbn. rewrite Nat.add_comm. cbn [plus]. by rewrite seq_S.
  - intros b [[-> [=]]|[_ H]]%lookup_snoc_inv. by eapply ai_nofree0.
  - intros y ly my Hy [(<- & <- & _)|[Hne Hmy]]%list_lookup_insert_Some.
    + rewrite Hx in Hy. injection Hy as <-. cbn. exists (Some i). split; [by rewrite list_lookup_middle|]. split.
      * intros j [= <-]. unfold i. by rewrite <- ai_len0, list_lookup_middle.
      * intros j n. rewrite F1. fold i. case_decide; [by subst|]. intros Hn Hj.
        rewrite lookup_snoc_ne in Hj by (by rewrite ai_len0). by destruct (Hno _ _ Hn Hj).
    + destruct (ai_box0 y ly my Hy Hmy) as (o & H1 & H2 & H3). exists o. split_and!.
      * by apply lookup_app_l_Some.
      * intros j ->. apply lookup_app_l_Some. eauto.
      * intros j n. rewrite F1. fold i. case_decide.
        -- intros _ Hj. subst j. apply lookup_snoc_inv in Hj as [[_ ->]|[Hne' _]]; [|by rewrite ai_len0 in Hne'].
           exfalso. apply Hne. by eapply NoDup_lookup.
        -- intros Hn Hj. rewrite lookup_snoc_ne in Hj by (by rewrite ai_len0). eauto.
  - intros y ly my Hy [(<- & <- & _)|[Hne Hmy]]%list_lookup_insert_Some; [|by apply (ai_meta0 y ly my)].
    cbn. by apply (ai_meta0 x ly m).
Qed.

(** *** [DataGuard::guard] *)
Section guard_of.
  Context {V : Type} (sz : N).
  Implicit Types d : dworld V.

  (** A temporary reference to a node that is referenced elsewhere. *)
  Lemma data_drop_temp d p s n : s <> 0 -> live (dw_datas d) p s n ->
    data_drop sz (dw_set_datas d (<[p := Some (S s, n)]> (dw_datas d))) p = Ok d.
  Proof.
    intros Hs Hv. unfold data_drop. cbn [data_release dw_set_datas dw_datas]. unfold rc_dec.
    rewrite list_lookup_insert by (by eapply live_lt). destruct s as [|s]; [done|]. res_simpl.
    unfold dw_set_datas. cbn [dw_datas dw_allocs dw_blocks dw_mem dw_trace].
    rewrite list_insert_insert, (list_insert_id (dw_datas d)) by exact Hv. by destruct d.
  Qed.

  (** Datas without a live guard hang below a live parent. *)
  Definition up_ok d (L LI : list label) (g : gdworld) : Prop :=
    forall y s n l, live (dw_datas d) y s n -> L !! y = Some l -> l_path l <> [] ->
      (forall j m, rc_get (gd_guards g) j = Some m -> LI !! j <> Some l) ->
      exists p sp np lp side, live (dw_datas d) p sp np /\ L !! p = Some lp /\ l = lchild lp side.

  Lemma guard_of_ok : forall fuel d x g T L LI R O RI RW s n l, x < fuel ->
    dinv sz d T L R O -> ainv g L LI RI RW -> up_ok d L LI g ->
    live (dw_datas d) x s n -> L !! x = Some l ->
    exists g' i XI, guard_of sz fuel (d, g) x = Ok ((d, g'), i) /\
      (LI ++ XI) !! i = Some l /\ ainv g' L (LI ++ XI) (i :: RI) RW /\ ggrow g g' /\
      (forall j m lj, rc_get (gd_guards g') j = Some m -> (LI ++ XI) !! j = Some lj ->
         (exists m', rc_get (gd_guards g) j = Some m') \/ anc lj l) /\
      (forall y ly, L !! y = Some ly -> ~ anc ly l -> gd_metas g' !! y = gd_metas g !! y).
  Proof.
    induction fuel as [|fuel IH]; intros d x g T L LI R O RI RW s n l Hf Id I Hup Hv Hl; [lia|].
    cbn [guard_of fst snd]. rewrite (rc_val_live _ _ _ _ Hv). res_simpl.
    destruct (lookup_lt_is_Some_2 (gd_metas g) x) as [m Hm].
    { rewrite (ai_lenm _ _ _ _ _ I). by eapply lookup_lt_Some. }
    rewrite Hm. destruct (ai_box _ _ _ _ _ I _ _ _ Hl Hm) as (o & Hb & Ho1 & Ho2). rewrite Hb.
    pose proof (di_nodup _ _ _ _ _ _ Id) as Hnd.
    destruct (rc_upgrade_cases (gd_guards g) o) as [(c & sc & k & -> & Hk & ->)|[Hdead ->]].
    { do 2 eexists. exists []. rewrite app_nil_r. split; [done|]. split; [by apply Ho1|].
      split; [by apply ainv_inc|]. split; [by eapply ggrow_recount|]. split; [|done].
      intros j k' lj Hj _. left. destruct (gkeep_recount g c sc k (S sc) k Hk) as [_ K]. exact (K _ _ Hj). }
    assert (Hno : forall j k, rc_get (gd_guards g) j = Some k -> LI !! j <> Some l).
    { intros j k Hj Hlj. pose proof (Ho2 _ _ Hj Hlj) as E. rewrite (Hdead _ E) in Hj. done. }
    assert (Hnew : forall g1 LI1 RI' par, ainv g1 L LI1 (option_list par ++ RI') RW ->
      gd_metas g1 !! x = Some m ->
      match par with None => l_path l = [] | Some p => exists lp side, LI1 !! p = Some lp /\ l = lchild lp side end ->
      (forall j k, rc_get (gd_guards g1) j = Some k -> LI1 !! j <> Some l) ->
      exists g' i, gd_new_guard g1 x (am_box m) par = Ok (g', i) /\ (LI1 ++ [l]) !! i = Some l /\
        ainv g' L (LI1 ++ [l]) (i :: RI') RW /\ ggrow g1 g' /\
        (forall j k, rc_get (gd_guards g') j = Some k -> rc_get (gd_guards g1) j = Some k \/ j = i) /\
        (forall y, y <> x -> gd_metas g' !! y = gd_metas g1 !! y)).
    { intros g1 LI1 RI' par I1 Hm1 Hpar Hno1.
      destruct (ainv_new_guard g1 L LI1 RI' RW x l m par I1 Hl Hm1 Hnd Hpar Hno1) as (g' & E & Eg & Em & I').
      exists g', (length (gd_guards g1)). split; [done|]. split; [by rewrite <- (ai_len _ _ _ _ _ I1), list_lookup_middle|].
      split; [done|]. split_and!.
      - split; [|split].
        + intros j k Hj. rewrite Eg, rc_get_snoc. case_decide; cbn; eauto.
        + rewrite Eg, app_length. lia.
        + intros j k Hj. rewrite Eg, rc_get_snoc. case_decide; [lia|eauto].
      - intros j k. rewrite Eg, rc_get_snoc. case_decide; [by right|by left].
      - intros y Hy. by rewrite Em, list_lookup_insert_ne. }
    pose proof (ai_meta _ _ _ _ _ I _ _ _ Hl Hm) as Hmp.
    destruct (decide (l_path l = [])) as [Hroot|Hnr].
    - destruct (am_parent m) as [p|] eqn:Ep.
      { destruct Hmp as (_ & lp & side & _ & ->). cbn in Hroot. by apply app_nil in Hroot as [_ [=]]. }
      cbn [rc_upgrade]. res_simpl. cbn [fst snd].
      destruct (Hnew g LI RI None) as (g' & i & E & Hi & I' & K & Hold & Hmet); try done.
      rewrite E. res_simpl. cbn [fst snd]. exists g', i, [l]. split; [done|]. split; [done|]. split; [done|]. split; [done|]. split.
      + intros j k lj Hj Hlj. destruct (Hold _ _ Hj) as [?| ->]; [eauto|]. rewrite Hi in Hlj. injection Hlj as <-. right. apply anc_refl.
      + intros y ly Hy Hna. apply Hmet. intros ->. rewrite Hl in Hy. injection Hy as <-. apply Hna, anc_refl.
    - destruct (Hup _ _ _ _ Hv Hl Hnr Hno) as (p & sp & np & lp & side & Hp & Hlp & El).
      destruct (am_parent m) as [p'|] eqn:Ep; [|done].
      destruct Hmp as (Hlt & lp' & side' & Hlp' & El'). rewrite El in El'. apply lchild_inj in El' as [<- <-].
      assert (p' = p) as -> by (by eapply NoDup_lookup).
      rewrite (rc_upgrade_live _ _ _ _ Hp). cbn [fst snd].
      set (d1 := dw_set_datas d (<[p := Some (S sp, np)]> (dw_datas d))).
      pose proof (dinv_inc _ _ _ _ _ _ _ _ _ Id Hp) as Id1.
      assert (live (dw_datas d1) p (S sp) np) as Hp1. { cbn. apply live_insert_eq. by eapply live_lt. }
      assert (Hup1 : up_ok d1 L LI g).
      { intros y s' n' l' Hy Hly Hnr' Hno'.
        assert (exists s0 n0, live (dw_datas d) y s0 n0) as (s0 & n0 & Hy0).
        { cbn in Hy. apply live_insert in Hy as [(<- & _)|[_ ?]]; eauto. }
        destruct (Hup _ _ _ _ Hy0 Hly Hnr' Hno') as (q & sq & nq & lq & sd & Hq & Hlq & Eq).
        destruct (decide (q = p)) as [->|Hne]; [by eauto 10|].
        exists q, sq, nq, lq, sd. split; [|done]. cbn. by apply live_insert_ne. }
      destruct (IH d1 p g T L LI (p :: R) O RI RW _ _ lp ltac:(lia) Id1 I Hup1 Hp1 Hlp) as (g1 & i1 & XI & E1 & Hi1 & I1 & K1 & Hold1 & Hmet1).
      rewrite E1. res_simpl. cbn [fst snd]. unfold d1. rewrite data_drop_temp; [|intros ->; by eapply (di_pos _ _ _ _ _ _ Id)|done]. res_simpl. cbn [fst snd].
      assert (~ anc l lp) as Hnal.
      { intros Ha. subst l. pose proof (anc_antisym _ _ Ha (anc_child _ _)) as E'. by eapply lchild_ne. }
      destruct (Hnew g1 (LI ++ XI) RI (Some i1)) as (g' & i & E & Hi & I' & K & Hold & Hmet).
      + done.
      + by rewrite (Hmet1 _ _ Hl Hnal).
      + eauto.
      + intros j k Hj Hlj. destruct (Hold1 _ _ _ Hj Hlj) as [(m' & Hj')|Ha]; [|done].
        eapply Hno; [done|]. rewrite lookup_app_l in Hlj; [done|]. rewrite (ai_len _ _ _ _ _ I). by eapply rc_get_lt.
      + rewrite E. res_simpl. exists g', i, (XI ++ [l]). rewrite app_assoc. split; [done|]. split; [done|]. split; [done|].
        split; [by eapply ggrow_trans|]. split.
        * intros j k lj Hj Hlj. destruct (Hold _ _ Hj) as [Hj'| ->].
          -- assert ((LI ++ XI) !! j = Some lj) as Hlj'.
             { rewrite lookup_app_l in Hlj; [done|]. rewrite (ai_len _ _ _ _ _ I1). by eapply rc_get_lt. }
             destruct (Hold1 _ _ _ Hj' Hlj') as [?|Ha]; [by left|right]. eapply anc_trans; [done|]. subst l. apply anc_child.
          -- rewrite Hi in Hlj. injection Hlj as <-. right. apply anc_refl.
        * intros y ly Hy Hna. rewrite Hmet, (Hmet1 _ _ Hy); [done| |].
          -- intros Ha. apply Hna. eapply anc_trans; [done|]. subst l. apply anc_child.
          -- intros ->. rewrite Hl in Hy. injection Hy as <-. apply Hna, anc_refl.
  Qed.

  Lemma guard_for_ok d x g T L LI R O RI RW s n l :
    dinv sz d T L R O -> ainv g L LI RI RW -> up_ok d L LI g ->
    live (dw_datas d) x s n -> L !! x = Some l ->
    exists g' i XI, guard_for sz (d, g) x = Ok ((d, g'), i) /\
      (LI ++ XI) !! i = Some l /\ ainv g' L (LI ++ XI) (i :: RI) RW /\ ggrow g g'.
  Proof.
    intros Id I Hup Hv Hl. unfold guard_for.
    destruct (guard_of_ok (S (length (dw_datas d))) d x g T L LI R O RI RW s n l) as (g' & i & XI & E & ? & ? & ? & _); try done.
    { apply live_lt in Hv. lia. }
    by exists g', i, XI.
  Qed.
End guard_of.
