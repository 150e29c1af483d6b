(** Every step keeps the invariant of OrderInv.v, so there is no data race. *)
From Verif Require Import Base BaseLemmas Api SliceItemsModel Spec DataModel RcModel DataInv DataSteps DataFuns GuardInv ArcModel ArcInv ArcConc ConcInv ConcGuard ConcWorld ConcChild ConcData ConcSafe ConcSpec ConcTree ConcShare ConcCalm ConcHold SliceItemsProof OrderModel OrderInv OrderSteps OrderFlow OrderCalls OrderNew.
Local Open Scope nat_scope.
#[local] Arguments slo {A} F hs : simpl never.
#[local] Arguments thr {V A} F ts : simpl never.

Section theory.
  Context {V : Type} (sz : N) (acq : bool).
  Notation stack := (list (frame V)).
  Implicit Types (s : cstate V) (o : ostate V) (e : sched (V:=V)).
  Notation datas s := (dw_datas (cs_d s)).
  Notation mem s := (dw_mem (cs_d s)).

  Ltac same Hs := injection Hs as <-; by eapply same_flow.
  Lemma tstep_flow o t s' T L T' L' : OI sz o -> DI sz (os_s o) T L -> DI sz s' T' L' -> cclean (os_s o) (SStep t) ->
    tstep sz (os_s o) t = Ok s' -> flow sz o (annotate acq o (SStep t) s') (anew acq o (SStep t) s').
  Proof.
    intros O I I' Hcl Hs. cbn in Hcl. destruct (cs_t (os_s o) !! t) as [st|] eqn:Ht.
    2:{ unfold tstep in Hs. rewrite Ht in Hs. same Hs. }
    destruct (tstep_cases sz _ _ _ Ht) as [[-> E]|[(r & -> & E)|[(x & r & h & -> & E)|[(r & -> & E)|E]]]]; rewrite E in Hs.
    - same Hs.
    - same Hs.
    - injection Hs as <-. eapply ends_flow; [exact O|exact I|exact I'|exact Ht|done| |destruct x; cbn; by rewrite ?app_nil_r..].
      cbn. by rewrite logged_refl.
    - injection Hs as <-. by eapply vhold_flow.
    - apply bind_inv in Hs as ([[d g] st'] & Hm & [= <-]). by eapply flow_mstep.
  Qed.
  Lemma hend_flow o t s' T L T' L' : OI sz o -> DI sz (os_s o) T L -> DI sz s' T' L' ->
    hold_end (os_s o) t = Ok s' -> flow sz o (annotate acq o (SEnd t) s') (anew acq o (SEnd t) s').
  Proof.
    intros O I I' Hs. unfold hold_end in Hs. destruct (cs_t (os_s o) !! t) as [st|] eqn:Ht; [|same Hs].
    assert ((exists r, st = [FHold r; KEnd None] /\ s' = finish (os_s o) t None (Some (XArc r)) None) \/ s' = os_s o) as [(r & -> & ->)| ->].
    { repeat (case_match; try (right; congruence)). simplify_eq. eauto. }
    - eapply ends_flow; [exact O|exact I|exact I'|exact Ht|done| |done..]. cbn. by rewrite logged_refl.
    - by eapply same_flow.
  Qed.

  Lemma start_now s t (op : cop V) s' h : cs_t s !! t = Some [] -> cs_t s' = cs_t s -> length (cs_out s') <> length (cs_out s) ->
    uses op = Some h -> responded s s' = true /\ began s t s' = true /\ h ∈ vars_in s (SStart t op) s'.
  Proof.
    intros Ht Et Ho Hu. assert (responded s s' = true) as Hr by (by apply negb_true_iff, Nat.eqb_neq).
    assert (began s t s' = true) as Hb by (unfold began; by rewrite Et, Ht). split_and!; [done..|]. cbn. rewrite Hb, Hu. left.
  Qed.
  Ltac begins := match goal with O : OI _ _, I : DI _ (os_s _) _ _, I' : DI _ ?s' _ _, Ht : cs_t _ !! _ = Some [], Hh : slot _ _ = Some _, Hs : Ok _ = Ok ?s' |- _ =>
      apply slot_Some in Hh; injection Hs as <-;
      eapply start_flow; [exact O|exact I|exact I'|exact Ht|exact Hh|done|done|done|done|done|cbn; by rewrite logged_refl|first [done|intros ? Hy; cbn in Hy; by apply elem_of_nil in Hy|intros ? ?; cbn in *; by rewrite ?app_nil_r in *]..|first [by left|right; by eexists]]
    end.
  Lemma cstart_flow o t op s' T L T' L' : OI sz o -> DI sz (os_s o) T L -> DI sz s' T' L' ->
    cstart sz (os_s o) t op = Ok s' -> flow sz o (annotate acq o (SStart t op) s') (anew acq o (SStart t op) s').
  Proof.
    intros O I I' Hs. unfold cstart in Hs. destruct (cs_t (os_s o) !! t) as [[|f k]|] eqn:Ht; [|same Hs..].
    destruct op as [base vals|base vals|h|side h|h|h|h|h|h|h|h|side h|h i v].
    - destruct (N.ltb _ _); [|same Hs]. destruct (new_block (cs_d (os_s o)) base vals) as [[d p] len] eqn:E1.
      destruct (data_from_boxed_slice d p len) as [d' n] eqn:E2. injection Hs as <-. by eapply from_vec_flow.
    - destruct (N.ltb _ _); [|same Hs]. destruct (new_block (cs_d (os_s o)) base vals) as [[d p] len] eqn:E1.
      destruct (split_alloc_from_items sz d p len) as [[d' it] al] eqn:E2. injection Hs as <-. by eapply mut_from_vec_flow.
    - destruct (slot (os_s o) h) as [[[r|wd wg| | | |] k]|] eqn:Hh; try same Hs; begins.
    - destruct (slot (os_s o) h) as [[[r|wd wg| | | |] k]|] eqn:Hh; try same Hs; begins.
    - destruct (slot (os_s o) h) as [[[r|wd wg| | | |] [|k]]|] eqn:Hh; try same Hs; begins.
    - destruct (slot (os_s o) h) as [[[r|wd wg| | | |] [|k]]|] eqn:Hh; try same Hs; begins.
    - destruct (slot (os_s o) h) as [[[| | |m| |] [|k]]|] eqn:Hh; try same Hs.
      destruct (data_new _ _ _ _) as [d n] eqn:E. injection Hs as <-. apply slot_Some in Hh. by eapply into_immut_flow.
    - destruct (slot (os_s o) h) as [[[r|wd wg| | | |] k]|] eqn:Hh; try same Hs; begins.
    - destruct (slot (os_s o) h) as [[[r|wd wg| | | |] k]|] eqn:Hh; try same Hs; begins.
    - destruct (slot (os_s o) h) as [[[r|wd wg| |m| |] [|k]]|] eqn:Hh; try same Hs; [begins|begins|].
      apply slot_Some in Hh; injection Hs as <-.
      eapply start_flow; [exact O|exact I|exact I'|exact Ht|exact Hh|done|done|done|done|done|cbn; by rewrite logged_refl|done| |done|by left].
      intros _ y Hy. cbn in *. rewrite N2Nat.id. done.
    - destruct (slot (os_s o) h) as [[[r| | |m| |] k]|] eqn:Hh; try same Hs.
      + apply bind_inv in Hs as (n & Hn & Hs). apply bind_inv in Hs as (vs & Hv & [= <-]).
        destruct (start_now (os_s o) t (CDeref h) (put_out (os_s o) t (seen sz (d_ptr n) (d_len n) vs)) h) as (H1 & H2 & H3); [done|done|cbn; rewrite app_length; cbn; lia|done|].
        eapply touch_flow; [exact O|exact I|exact I'|by apply slot_Some|done..| | |].
        * right. cbn. rewrite H2. left.
        * right. intros c wr Hc. cbn [accesses] in Hc. rewrite H1 in Hc. by apply elem_of_list_fmap in Hc as (c0 & [= _ ->] & _).
        * intros c wr Hc. cbn [accesses] in Hc. rewrite H1 in Hc. cbn in Hc. unfold ccells, cget in Hc. rewrite Hh in Hc. cbn in Hc.
          left. unfold data_cells, data_rng in Hc. destruct (rc_get (datas (os_s o)) (ar_data r)) as [n0|] eqn:Eg; cbn in Hc; [|by apply elem_of_nil in Hc].
          apply elem_of_list_fmap in Hc as (c0 & [= -> ->] & Hc). apply rc_get_Some in Eg as [j Eg].
          exists (ar_data r), j, n0. split_and!; [left|left|done|by apply in_rng_cell|done].
      + apply bind_inv in Hs as (vs & Hv & [= <-]).
        destruct (start_now (os_s o) t (CDeref h) (put_out (os_s o) t (seen sz (si_ptr (ms_items m)) (si_len (ms_items m)) vs)) h) as (H1 & H2 & H3); [done|done|cbn; rewrite app_length; cbn; lia|done|].
        eapply touch_flow; [exact O|exact I|exact I'|by apply slot_Some|done..| | |].
        * right. cbn. rewrite H2. left.
        * right. intros c wr Hc. cbn [accesses] in Hc. rewrite H1 in Hc. by apply elem_of_list_fmap in Hc as (c0 & [= _ ->] & _).
        * intros c wr Hc. cbn [accesses] in Hc. rewrite H1 in Hc. cbn in Hc. unfold ccells, cget in Hc. rewrite Hh in Hc. cbn in Hc.
          apply elem_of_list_fmap in Hc as (c0 & [= -> ->] & Hc). right. eexists. split; [left|]. by apply in_rng_cell.
    - destruct (slot (os_s o) h) as [[[r| | |m| |] [|k]]|] eqn:Hh; try same Hs.
      apply bind_inv in Hs as ([d [m1 m2]] & Hm & [= <-]). apply slot_Some in Hh. by eapply mut_split_flow.
    - destruct (slot (os_s o) h) as [[[r| | |m| |] [|k]]|] eqn:Hh; try same Hs.
      destruct (N.ltb_spec i (si_len (ms_items m))) as [Hi|]; [|same Hs].
      apply bind_inv in Hs as ([d old] & Hm & [= <-]). unfold mem_replace in Hm. apply bind_inv in Hm as (q & Hq & [= <- <-]).
      set (s' := put_out _ _ _) in *.
      destruct (start_now (os_s o) t (CReplace h i v) s' h) as (H1 & H2 & H3); [done|done|cbn; rewrite app_length; cbn; lia|done|].
      eapply touch_flow; [exact O|exact I|exact I'|by apply slot_Some|done|done|done| |done|done|done| | |].
      * intros c. cbn. set (c1 := (_, _)). destruct (decide (c = c1)) as [->|]; [|by rewrite lookup_insert_ne].
        rewrite lookup_insert. split; [|by eauto]. intros _. unfold mem_at in Hq. unfold c1. repeat (case_match; try done).
      * left. unfold var_out. apply elem_of_app. right. rewrite H2. left.
      * left. split; [done|]. unfold var_out. apply elem_of_app. right. rewrite H2. left.
      * intros c wr Hc. cbn [accesses] in Hc. rewrite Hh in Hc. rewrite H1 in Hc. cbn in Hc. apply elem_of_list_singleton in Hc. injection Hc as -> ->.
        right. eexists. split; [left|]. apply in_rng_cell, rng_cells_elem. cbn. split; [done|lia].
  Qed.

  (** ** Data races *)
  Lemma orun_app o es1 es2 : orun sz acq o (es1 ++ es2) = o1 ← orun sz acq o es1; orun sz acq o1 es2.
  Proof. revert o. induction es1 as [|e es1 IH]; intros o; [done|]. cbn. destruct (ostep sz acq o e); cbn; auto. Qed.
  Lemma orun_crun o es o' : orun sz acq o es = Ok o' -> crun sz (os_s o) es = Ok (os_s o').
  Proof.
    revert o. induction es as [|e es IH]; intros o; cbn; [by intros [= ->]|]. unfold ostep.
    intros (o1 & Ho & H)%bind_inv. apply bind_inv in Ho as (s1 & Hs & [= <-]). rewrite Hs. cbn. by apply IH in H.
  Qed.
  Theorem order_inv n es o : oreach sz acq n es o -> always sz calm n es -> no_mut_write es -> OI sz o.
  Proof.
    revert o. induction es as [|e es IH] using rev_ind; intros o Hr Hc Hw.
    - injection Hr as <-. apply OI_init.
    - unfold oreach in Hr. rewrite orun_app in Hr. apply bind_inv in Hr as (o1 & H1 & Hr). cbn in Hr.
      apply bind_inv in Hr as (o2 & H2 & [= <-]). unfold ostep in H2. apply bind_inv in H2 as (s' & Hs & [= <-]).
      apply Forall_app in Hw as [Hw He]. apply Forall_inv in He.
      assert (always sz calm n es) as Hc1 by by eapply always_app.
      pose proof (IH _ H1 Hc1 Hw) as O. destruct (calm_inv sz n es Hc1) as (s & D & T & L & Hreach & W & Him).
      assert (s = os_s o1) as ->. { apply orun_crun in H1. unfold creach in Hreach. cbn in H1. congruence. }
      pose proof (IM_clean sz _ D T L e W Him) as Hcl. destruct (WI_step sz _ D T L e W Hcl) as (s2 & X & T' & L' & Hs2 & W').
      rewrite Hs in Hs2. injection Hs2 as <-. pose proof (W_D _ _ _ _ _ W) as I. pose proof (W_D _ _ _ _ _ W') as I'.
      eapply (flow_inv sz o1 _ (anew acq o1 e s')); [exact O|exact I|exact I'|].
      destruct e as [t op|t|t i v|t].
      + by eapply cstart_flow.
      + by eapply tstep_flow.
      + by destruct (He t i v).
      + by eapply hend_flow.
  Qed.
  Theorem no_race n es o : oreach sz acq n es o -> always sz calm n es -> no_mut_write es -> race_free o.
  Proof. intros Hr Hc Hw. by eapply O_free, order_inv. Qed.

  (** ** What happens before is an order *)
  Definition closed (l : list access) (v : view) : Prop := forall i, i ∈ v -> exists a, l !! i = Some a /\ ac_seen a ⊆ v.
  Record HB o : Prop := {
    B_view : forall w, closed (os_acc o) (mview o w);
    B_bor : forall h, closed (os_acc o) (os_bor o h);
    B_loc : forall l, closed (os_acc o) (os_loc o l);
    B_acc : forall j b, os_acc o !! j = Some b -> closed (os_acc o) (ac_seen b) /\ j ∈ ac_seen b /\ j ∈ hview o (HT (ac_thread b));
    B_prog : forall i j a b, os_acc o !! i = Some a -> os_acc o !! j = Some b -> ac_thread a = ac_thread b -> i < j -> i ∈ ac_seen b;
    B_past : forall i j, before o i j -> i < j \/ exists a b, os_acc o !! i = Some a /\ os_acc o !! j = Some b /\ ac_thread a = ac_thread b
  }.
  Lemma closed_app l l' v : closed l v -> closed (l ++ l') v.
  Proof. intros H i Hi. destruct (H i Hi) as (a & Ha & Hs). exists a. split; [by apply lookup_app_l_Some|done]. Qed.
  Lemma closed_union l v v' : closed l v -> closed l v' -> closed l (v ∪ v').
  Proof. intros H H' i [Hi|Hi]%elem_of_union; [destruct (H i Hi) as (a & Ha & Hs)|destruct (H' i Hi) as (a & Ha & Hs)]; exists a; (split; [done|set_solver]). Qed.
  Lemma closed_gather {A} l (f : A -> view) (xs : list A) : (forall x, closed l (f x)) -> closed l (gather f xs).
  Proof.
    intros H i (x & Hx & Hi)%elem_of_gather. destruct (H x i Hi) as (a & Ha & Hs). exists a. split; [done|].
    intros j Hj. apply elem_of_gather. eauto.
  Qed.
  Lemma closed_spread {A} `{EqDecision A} l xs v (f : A -> view) x : closed l (f x) -> closed l v -> closed l (spread xs v f x).
  Proof. intros H H'. unfold spread. case_decide; [by apply closed_union|done]. Qed.
  Lemma HB_step o e s' : HB o -> HB (annotate acq o e s').
  Proof.
    intros [Bv Bb Bl Ba Bp Bt]. set (o' := annotate acq o e s'). set (v' := aview acq o e s').
    assert (forall i, i ∈ v' -> i < length (os_acc o) \/ exists k, i = length (os_acc o) + k /\ k < length (accesses (os_s o) e s')) as Hv'.
    { intros i Hi. unfold v', aview in Hi. rewrite !elem_of_union in Hi.
      assert (forall v, closed (os_acc o) v -> i ∈ v -> i < length (os_acc o)) as Hc.
      { intros v Hv Hin. destruct (Hv i Hin) as (a & Ha & _). by eapply lookup_lt_Some. }
      destruct Hi as [[[[Hi|Hi]|Hi]|Hi]|Hi].
      - left. eapply Hc; [apply (Bv (HT (actor e)))|done].
      - left. eapply Hc; [|exact Hi]. apply closed_gather. intros x. apply (Bv (HV x)).
      - left. eapply Hc; [|exact Hi]. apply closed_gather. apply Bb.
      - left. eapply Hc; [|exact Hi]. apply closed_gather. apply Bl.
      - right. apply elem_of_set_seq in Hi. exists (i - length (os_acc o)). lia. }
    assert (closed (os_acc o ++ anew acq o e s') v') as Cv.
    { assert (forall i, i ∈ v' -> i < length (os_acc o) -> exists a, os_acc o !! i = Some a /\ ac_seen a ⊆ v') as Hold.
      { intros i Hi Hl. unfold v', aview in Hi. rewrite !elem_of_union in Hi.
        assert (forall v, closed (os_acc o) v -> v ⊆ v' -> i ∈ v -> exists a, os_acc o !! i = Some a /\ ac_seen a ⊆ v') as Hc.
        { intros v Hv Hs Hin. destruct (Hv i Hin) as (a & Ha & Hsa). exists a. split; [done|by etrans]. }
        destruct Hi as [[[[Hi|Hi]|Hi]|Hi]|Hi].
        - eapply (Hc (os_thr o (actor e))); [apply (Bv (HT (actor e)))|unfold v', aview; intros z Hz; rewrite !elem_of_union; tauto|done].
        - eapply Hc; [|shelve|exact Hi]. apply closed_gather. intros x. apply (Bv (HV x)). Unshelve. unfold v', aview; intros z Hz; rewrite !elem_of_union; tauto.
        - eapply Hc; [|shelve|exact Hi]. apply closed_gather. apply Bb. Unshelve. unfold v', aview; intros z Hz; rewrite !elem_of_union; tauto.
        - eapply Hc; [|shelve|exact Hi]. apply closed_gather. apply Bl. Unshelve. unfold v', aview; intros z Hz; rewrite !elem_of_union; tauto.
        - apply elem_of_set_seq in Hi. lia. }
      intros i Hi. destruct (Hv' i Hi) as [Hl|(k & -> & Hk)].
      - destruct (Hold i Hi Hl) as (a & Ha & Hs). exists a. split; [by apply lookup_app_l_Some|done].
      - assert (exists a, anew acq o e s' !! k = Some a) as [a Ha]. { apply lookup_lt_is_Some. unfold anew. by rewrite fmap_length. }
        exists a. split; [rewrite lookup_app_r by lia; by replace (length (os_acc o) + k - length (os_acc o)) with k by lia|].
        apply an_new in Ha as (c & w & _ & -> & _). done. }
    assert (os_acc o' = os_acc o ++ anew acq o e s') as Eo by apply an_acc.
    assert (forall j b, os_acc o' !! j = Some b -> os_acc o !! j = Some b \/
      (length (os_acc o) <= j /\ j ∈ v' /\ ac_seen b = v' /\ ac_thread b = actor e /\ forall i, length (os_acc o) <= i < j -> i ∈ v')) as Hsp.
    { intros j b Hb. rewrite Eo in Hb. apply lookup_app_Some in Hb as [Hb|[Hl Hb]]; [by left|right].
      apply an_new in Hb as (c & w & _ & -> & H1 & H2). replace (length (os_acc o) + (j - length (os_acc o))) with j in H1 by lia.
      split_and!; [done..|]. intros i Hi. replace i with (length (os_acc o) + (i - length (os_acc o))) by lia. apply H2. lia. }
    assert (closed (os_acc o ++ anew acq o e s') (os_thr o (actor e))) as Ct by apply closed_app, (Bv (HT (actor e))).
    split.
    - intros w. rewrite Eo. destruct w; cbn; apply closed_spread; try exact Cv; apply closed_app; [apply (Bv (HT t))|apply (Bv (HV h))].
    - intros h. rewrite Eo. cbn. apply closed_spread; [by apply closed_app|exact Cv].
    - intros l. rewrite Eo. cbn. apply closed_spread; [by apply closed_app|done].
    - intros j b Hb. rewrite Eo. destruct (Hsp _ _ Hb) as [Ho|(_ & Hj & Es & Et & _)].
      + destruct (Ba _ _ Ho) as (H1 & H2 & H3). split_and!; [by apply closed_app|done|by apply an_hv].
      + rewrite Es, Et. split_and!; [done..|]. by apply (an_me acq o e s').
    - intros i j a b Hi Hj Et Hlt. destruct (Hsp _ _ Hj) as [Hj'|(Hl & _ & Es & Etb & Hm)].
      + destruct (Hsp _ _ Hi) as [Hi'|(Hl & _)]; [by eapply Bp|]. apply lookup_lt_Some in Hj'. lia.
      + rewrite Es. destruct (Hsp _ _ Hi) as [Hi'|(Hli & Hin & _)]; [|done].
        apply (an_thr acq o e s'). rewrite <- Etb, <- Et. by apply (Ba _ _ Hi').
    - intros i j (b & Hb & Hi). destruct (Hsp _ _ Hb) as [Hb'|(Hl & _ & Es & Et & _)].
      + destruct (Bt i j) as [|(a & b' & H1 & H2 & H3)]; [by exists b|by left|right].
        exists a, b'. rewrite Eo. split_and!; [by apply lookup_app_l_Some..|done].
      + rewrite Es in Hi. destruct (Hv' i Hi) as [|(k & -> & Hk)]; [left; lia|right].
        assert (exists a, anew acq o e s' !! k = Some a) as [a Ha]. { apply lookup_lt_is_Some. unfold anew. by rewrite fmap_length. }
        exists a, b. split_and!; [|done|].
        * rewrite Eo, lookup_app_r by lia. by replace (length (os_acc o) + k - length (os_acc o)) with k by lia.
        * apply an_new in Ha as (c & w & _ & -> & _). done.
  Qed.
  Lemma HB_reach n es o : oreach sz acq n es o -> HB o.
  Proof.
    unfold oreach. assert (HB (init_ostate n : ostate V)) as H0.
    { split.
      - intros [] i Hi; cbn in Hi; by apply elem_of_empty in Hi.
      - intros h i Hi. by apply elem_of_empty in Hi.
      - intros l i Hi. by apply elem_of_empty in Hi.
      - done.
      - done.
      - intros i j (b & Hb & _). done. }
    revert H0. generalize (init_ostate n : ostate V). induction es as [|e es IH]; intros o1 H; cbn; [by intros [= <-]|].
    unfold ostep. intros (o2 & Ho & Hr)%bind_inv. apply bind_inv in Ho as (s' & _ & [= <-]). eapply IH; [|done]. by apply HB_step.
  Qed.
  Theorem hb_order n es o : oreach sz acq n es o ->
    (forall i j a b, os_acc o !! i = Some a -> os_acc o !! j = Some b -> ac_thread a = ac_thread b -> i < j -> before o i j) /\
    (forall i j k, before o i j -> before o j k -> before o i k) /\
    (forall i j, before o i j -> i < j \/ exists a b, os_acc o !! i = Some a /\ os_acc o !! j = Some b /\ ac_thread a = ac_thread b).
  Proof.
    intros Hr. pose proof (HB_reach _ _ _ Hr) as H. split_and!.
    - intros i j a b Ha Hb Et Hlt. exists b. split; [done|]. by eapply (B_prog _ H).
    - intros i j k (b & Hb & Hi) (c & Hc & Hj). exists c. split; [done|].
      destruct (B_acc _ H _ _ Hc) as (Hcl & _). destruct (Hcl j Hj) as (b' & Hb' & Hs). rewrite Hb in Hb'. injection Hb' as <-. by apply Hs.
    - apply (B_past _ H).
  Qed.
  Theorem race_free_before n es o : oreach sz acq n es o -> always sz calm n es -> no_mut_write es ->
    forall i j a b, os_acc o !! i = Some a -> os_acc o !! j = Some b -> i < j -> ac_cell a = ac_cell b ->
      ac_write a = true \/ ac_write b = true -> before o i j.
  Proof.
    intros Hr Hc Hw i j a b Ha Hb Hlt Ec Hwr. exists b. split; [done|]. destruct (decide (i ∈ ac_seen b)) as [|Hn]; [done|].
    exfalso. apply (no_race _ _ _ Hr Hc Hw i j). exists a, b. done.
  Qed.
End theory.
