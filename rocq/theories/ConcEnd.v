(** Threads that run on their own come to rest; all threads together can
    finish their calls. *)
From Verif Require Import Base BaseLemmas Api SliceItemsModel Spec BinPartsModel DataModel RcModel DataInv DataSteps ArcModel ArcInv ArcConc ConcInv ConcGuard ConcWorld ConcChild ConcData ConcSafe ConcSpec ConcTheory ConcShare ConcTree ConcCov ConcCalm ConcHold ConcQuiet SoloFuel ConcSolo ConcCall ConcAlone.
Local Open Scope nat_scope.
#[local] Arguments slo {A} F hs : simpl never.
#[local] Arguments thr {V A} F ts : simpl never.

Section ends.
  Context {V : Type} (sz : N).
  Notation stack := (list (frame V)).
  Implicit Types (s : cstate V) (t : nat) (es : list (sched (V:=V))).

  (** Whatever number of steps thread [t] takes, the invariants hold. *)
  Definition fine s t : Prop := forall m, exists s', crun sz s (replicate m (SStep t)) = Ok s' /\ exists D T L, WI sz s' D T L.
  Definition resting s t : Prop :=
    cs_t s !! t = Some [] \/ (exists r, cs_t s !! t = Some [FHold r; KEnd None]) \/
    exists y down k, cs_t s !! t = Some (FWait y down :: k) /\ gate_closed s y down.
  Definition ends s t : Prop := exists m s', crun sz s (replicate m (SStep t)) = Ok s' /\ resting s' t.

  Lemma fine_safe s t : fine s t -> safe sz s t.
  Proof. intros H m. destruct (H m) as (s' & ? & _). eauto. Qed.
  Lemma fine_now s t : fine s t -> exists D T L, WI sz s D T L.
  Proof. intros H. by destruct (H 0) as (s' & [= <-] & ?). Qed.
  Lemma fine_run s t m s' : fine s t -> crun sz s (replicate m (SStep t)) = Ok s' -> fine s' t.
  Proof. intros H E m'. destruct (H (m + m')) as (s2 & H2 & Hw). rewrite replicate_add, crun_eq, E in H2. cbn in H2. eauto. Qed.
  Lemma ends_run s t m s' : crun sz s (replicate m (SStep t)) = Ok s' -> ends s' t -> ends s t.
  Proof. intros E (m' & s2 & H2 & Hr). exists (m + m'), s2. split; [|done]. by rewrite replicate_add, crun_eq, E. Qed.

  Section one.
    Context (t : nat).
    (** From any state with this stack, the thread comes to rest. *)
    Definition E (st : stack) : Prop := forall s, fine s t -> cs_t s !! t = Some st -> ends s t.
    Lemma ends_leads s (st : stack) r : fine s t -> cs_t s !! t = Some st -> leads sz (cs_d s, cs_g s, st) r ->
      (forall st' s', r = Ok (cs_d s', cs_g s', st') -> cs_t s' !! t = Some st' -> fine s' t -> ends s' t) -> ends s t.
    Proof.
      intros Hf Ht Hl HE. destruct (leads_run sz _ _ Hl s t st eq_refl Ht (fine_safe _ _ Hf)) as (d & g & st' & m & l & -> & Hr).
      eapply ends_run; [exact Hr|]. eapply HE; [done..| |by eapply fine_run]. cbn. apply list_lookup_insert. by eapply lookup_lt_Some.
    Qed.
    Lemma ends_step s (st : stack) : fine s t -> cs_t s !! t = Some st -> ~ returning st ->
      (forall st' s', mstep sz (cs_d s) (cs_g s) st = Ok (cs_d s', cs_g s', st') -> cs_t s' !! t = Some st' -> fine s' t -> ends s' t) -> ends s t.
    Proof.
      intros Hf Ht Hn HE. destruct (mstep sz (cs_d s) (cs_g s) st) as [[[d g] st']| | |] eqn:Em.
      - eapply ends_leads; [done..| |].
        + eapply leads_step; [exact Em|apply leads_refl].
        + intros ? s' [= -> -> ->]. by eapply HE.
      - eapply (ends_leads s st NoFuel); [done..|apply leads_stuck; [by rewrite Em|done]|done].
      - eapply (ends_leads s st NoFuel); [done..|apply leads_stuck; [by rewrite Em|done]|done].
      - eapply (ends_leads s st Panic); [done..|apply leads_stuck; [by rewrite Em|done]|done].
    Qed.
    Lemma E_nil : E [].
    Proof. intros s Hf Ht. exists 0, s. split; [done|by left]. Qed.
    Lemma E_hold r : E [FHold r; KEnd None].
    Proof. intros s Hf Ht. exists 0, s. split; [done|right; left; eauto]. Qed.
    Lemma E_tstep s s' : fine s t -> tstep sz s t = Ok s' -> (fine s' t -> ends s' t) -> ends s t.
    Proof.
      intros Hf Hs HE. assert (crun sz s (replicate 1 (SStep t)) = Ok s') as Hr by (cbn; by rewrite Hs).
      eapply ends_run; [exact Hr|]. apply HE. by eapply fine_run.
    Qed.
    Lemma E_fin x o h : E [FV (VFin x o); KEnd h].
    Proof.
      intros s Hf Ht. eapply E_tstep; [done|unfold tstep; by rewrite Ht|]. intros Hf'. apply E_nil; [done|].
      cbn. apply list_lookup_insert. by eapply lookup_lt_Some.
    Qed.
    Lemma E_vhold r : E [FV (VHold r); KEnd None].
    Proof.
      intros s Hf Ht. eapply E_tstep; [done|unfold tstep; by rewrite Ht|]. intros Hf'. apply (E_hold r); [done|].
      cbn. apply list_lookup_insert. by eapply lookup_lt_Some.
    Qed.

    Ltac nret := let H := fresh in intros [H|[(? & H)|[(? & ? & ? & H)|(? & H)]]]; discriminate H.
    Lemma fine_ages s : fine s t -> ages (cs_d s) (cs_g s).
    Proof. intros Hf. destruct (fine_now _ _ Hf) as (D & T & L & W). eapply ages_of; [apply W|apply W]. Qed.
    Lemma fine_runs s (st : stack) : fine s t -> cs_t s !! t = Some st -> exists D b, run (genv_of s D) b st.
    Proof. intros Hf Ht. destruct (fine_now _ _ Hf) as (D & T & L & W). destruct (G_run _ _ (W_G _ _ _ _ _ W) t st Ht) as [b ?]. eauto. Qed.

    (** *** Releasing *)
    Lemma E_rel x (k : stack) : E k -> E (FRel x :: k).
    Proof.
      intros HE s Hf Ht. pose proof (fine_ages s Hf) as Ha.
      eapply ends_leads; [done..|eapply leads_release, okfuel_ne, drop_fuel, Ha|].
      intros st' s' E' Ht' Hf'. destruct (data_release _ _ _ _); try done. injection E' as _ _ <-. by apply HE.
    Qed.
    Lemma E_items n p a (k : stack) : E k -> E (FItems n p a :: k).
    Proof.
      intros HE s Hf Ht. eapply ends_leads; [done..|eapply leads_items|].
      intros st' s' E' Ht' Hf'. destruct (d' ← _; _); try done. injection E' as _ _ <-. by apply HE.
    Qed.
    Lemma relg_metas fuel : forall g x g', guard_release fuel g x = Ok g' -> gd_metas g' = gd_metas g.
    Proof.
      induction fuel as [|fuel IH]; intros g x g' H; [done|]. cbn in H. apply bind_inv in H as ([gs r] & _ & H).
      destruct r as [n|]; [destruct (a_parent n)|]; [apply IH in H; by rewrite H|by injection H as <-..].
    Qed.
    (** Dropping a guard leaves the pointers of the data alone. *)
    Lemma ends_relg s x (k : stack) : fine s t -> cs_t s !! t = Some (FRelG x :: k) ->
      (forall s', gd_metas (cs_g s') = gd_metas (cs_g s) -> fine s' t -> cs_t s' !! t = Some k -> ends s' t) -> ends s t.
    Proof.
      intros Hf Ht HE. pose proof (fine_ages s Hf) as Ha.
      eapply ends_leads; [done..|eapply leads_relg, okfuel_ne, gdrop_fuel, Ha|].
      intros st' s' E' Ht' Hf'. destruct (guard_release _ _ _) as [g1| | |] eqn:Eg; try done. injection E' as E1 E2 <-.
      apply HE; [|done..]. rewrite <- E2. by eapply relg_metas.
    Qed.
    Lemma E_relg x (k : stack) : E k -> E (FRelG x :: k).
    Proof. intros HE s Hf Ht. eapply ends_relg; [done..|]. intros s' _. apply HE. Qed.
    Lemma ends_relopt s o (k : stack) : fine s t -> cs_t s !! t = Some (rel_opt o ++ k) ->
      (forall s', gd_metas (cs_g s') = gd_metas (cs_g s) -> fine s' t -> cs_t s' !! t = Some k -> ends s' t) -> ends s t.
    Proof. intros Hf Ht HE. destruct o as [x|]; cbn in Ht; [eapply (ends_relg s x k); done|by apply HE]. Qed.

    (** *** Getting the guard *)
    Lemma guard_lead d g x (k : stack) : ages d g ->
      leads sz (d, g, FGuard x :: k) ((fun '((d', g'), y) => (d', g', FV (VGuard y) :: k)) <$> guard_for sz (d, g) x).
    Proof.
      intros Ha. unfold guard_for. apply leads_guard; [apply Ha|].
      apply (okfuel_ne _ _ (guard_for_fuel sz d g x (ag_m _ _ Ha) (ag_d _ _ Ha))).
    Qed.
    Section getting.
      Context (x : nat) (k : stack) (Hk : forall y, E (FV (VGuard y) :: k)) (Hown : x ∈ stk fR k).
      Lemma own_live s f : fine s t -> cs_t s !! t = Some (f :: k) -> exists n, rc_val (dw_datas (cs_d s)) x = Ok n.
      Proof.
        intros Hf Ht. destruct (fine_now _ _ Hf) as (D & T & L & W). destruct (stk_live sz s T L t _ x (W_D _ _ _ _ _ W) Ht) as [n Hn].
        { rewrite stk_cons. apply elem_of_app. by right. }
        exists n. unfold rc_val. by rewrite Hn.
      Qed.
      Lemma E_guard : E (FGuard x :: k).
      Proof.
        intros s Hf Ht. pose proof (fine_ages s Hf) as Ha.
        eapply ends_leads; [done..|apply guard_lead, Ha|].
        intros st' s' E' Ht' Hf'. destruct (guard_for _ _ _) as [[[d1 g1] y]| | |]; try done. injection E' as _ _ <-. by eapply Hk.
      Qed.

      (** The pointer is as it was loaded, and its guard is dead: it is as if
          the thread had just started. *)
      Lemma ends_par_cur s b m : fine s t -> cs_t s !! t = Some (FGuardPar x b :: k) -> gd_metas (cs_g s) !! x = Some m -> am_box m = b -> ends s t.
      Proof.
        intros Hf Ht Hm Hb. pose proof (fine_ages s Hf) as Ha. destruct (own_live s _ Hf Ht) as [n Hn].
        destruct (fine_runs s _ Hf Ht) as (D & bo & Hr).
        assert (bdead (genv_of s D) b) as (o & Ho & Hdead).
        { inversion Hr as [| | | | | | | |? ? ? Hf0|? ? ? ? Hf0| ? ? ? Hf0| | | | |? ? Hf0|? ? Hf0| |? ? Hf0| |]; subst; try done; try (by destruct Hf0). }
        cbn in Ho, Hdead.
        assert (leads sz (cs_d s, cs_g s, FGuard x :: k) ((fun '((d', g'), y) => (d', g', FV (VGuard y) :: k)) <$> guard_for sz (cs_d s, cs_g s) x)) as Hl.
        { apply guard_lead, Ha. }
        assert (mstep sz (cs_d s) (cs_g s) (FGuard x :: k) = Ok (cs_d s, cs_g s, FGuardUp x b :: k)) as E1.
        { cbn. rewrite Hn. cbn. by rewrite Hm, Hb. }
        assert (mstep sz (cs_d s) (cs_g s) (FGuardUp x b :: k) = Ok (cs_d s, cs_g s, FGuardPar x b :: k)) as E2.
        { cbn. rewrite Ho. unfold rc_upgrade. destruct o as [i|]; [|done]. by rewrite (Hdead i eq_refl). }
        assert (forall c, (fun '((d', g'), y) => (d', g', FV (VGuard y) :: k)) <$> guard_for sz (cs_d s, cs_g s) x = Ok c -> exists y, snd c = FV (VGuard y) :: k) as Hc.
        { intros c. destruct (guard_for _ _ _) as [[[? ?] y]| | |]; try done. intros [= <-]. eauto. }
        revert Hl Hc. generalize ((fun '((d', g'), y) => (d', g', FV (VGuard y) :: k)) <$> guard_for sz (cs_d s, cs_g s) x). intros r Hl Hc.
        inversion Hl as [c|? ? ? ? ? E3 Hl1|? ? ? ? Hno]; subst; [by edestruct Hc| |by edestruct Hno].
        rewrite E1 in E3. injection E3 as <-. inversion Hl1 as [c|? ? ? ? ? E3 Hl2|? ? ? ? Hno]; subst; [by edestruct Hc| |by edestruct Hno].
        rewrite E2 in E3. injection E3 as <-. eapply ends_leads; [done..|exact Hl2|].
        intros st' s' -> Ht' Hf'. destruct (Hc _ eq_refl) as [y Ey]. cbn in Ey. subst st'. by eapply Hk.
      Qed.
      Lemma ends_lost_cur s b pg m : fine s t -> cs_t s !! t = Some (FGuardLost x b pg :: k) -> gd_metas (cs_g s) !! x = Some m -> am_box m = b -> ends s t.
      Proof.
        intros Hf Ht Hm Hb. eapply ends_step; [done..|nret|]. intros st' s' E' Ht' Hf'. cbn in E'.
        destruct (gd_boxes (cs_g s) !! b) as [[wk|]|]; try done. destruct (rc_upgrade (gd_guards (cs_g s)) wk) as [gs [y|]].
        - injection E' as _ _ <-. eapply ends_relopt; [done..|]. intros s2 _ Hf2 Ht2. by eapply Hk.
        - injection E' as _ Eg <-. eapply ends_relopt; [done..|]. intros s2 E2 Hf2 Ht2. eapply ends_par_cur; [done..| |exact Hb]. by rewrite E2, <- Eg.
      Qed.
      Lemma E_cas b pg : E (FGuardCas x b pg :: k).
      Proof.
        intros s Hf Ht. eapply ends_step; [done..|nret|]. intros st' s' E' Ht' Hf'. cbn in E'. apply bind_inv in E' as (n & _ & E').
        destruct (gd_metas (cs_g s) !! x) as [m|] eqn:Em; [|done]. destruct (am_box m =? b).
        - apply bind_inv in E' as ([g y] & _ & [= _ _ <-]). by eapply Hk.
        - injection E' as _ Eg <-. eapply ends_lost_cur; [done..| |done]. by rewrite <- Eg.
      Qed.
      Lemma E_par b : E (FGuardPar x b :: k).
      Proof.
        intros s Hf Ht. eapply ends_step; [done..|nret|]. intros st' s' E' Ht' Hf'. cbn in E'.
        destruct (gd_metas (cs_g s) !! x) as [m|] eqn:Em; [|done]. destruct (rc_upgrade (dw_datas (cs_d s)) (am_parent m)) as [h [p|]].
        - injection E' as _ _ <-. pose proof (fine_ages s' Hf') as Ha.
          eapply ends_leads; [done..|apply guard_lead, Ha|].
          intros st2 s2 E2 Ht2 Hf2. destruct (guard_for _ _ _) as [[[d1 g1] y]| | |]; try done. injection E2 as _ _ <-.
          eapply ends_step; [done..|nret|]. intros st3 s3 [= _ _ <-] Ht3 Hf3. eapply E_rel; [|done..]. apply E_cas.
        - injection E' as _ _ <-. by eapply E_cas.
      Qed.
      Lemma E_lost b pg : E (FGuardLost x b pg :: k).
      Proof.
        intros s Hf Ht. eapply ends_step; [done..|nret|]. intros st' s' E' Ht' Hf'. cbn in E'.
        destruct (gd_boxes (cs_g s) !! b) as [[wk|]|]; try done. destruct (rc_upgrade (gd_guards (cs_g s)) wk) as [gs [y|]].
        - injection E' as _ _ <-. eapply ends_relopt; [done..|]. intros s2 _ Hf2 Ht2. by eapply Hk.
        - injection E' as _ _ <-. eapply ends_relopt; [done..|]. intros s2 _ Hf2 Ht2. by eapply E_par.
      Qed.
      Lemma E_up b : E (FGuardUp x b :: k).
      Proof.
        intros s Hf Ht. eapply ends_step; [done..|nret|]. intros st' s' E' Ht' Hf'. cbn in E'.
        destruct (gd_boxes (cs_g s) !! b) as [[wk|]|]; try done. destruct (rc_upgrade (gd_guards (cs_g s)) wk) as [gs [y|]].
        - injection E' as _ _ <-. by eapply Hk.
        - injection E' as _ _ <-. by eapply E_par.
      Qed.
      Lemma E_gframe E0 f : gframe E0 f x -> E (f :: k).
      Proof.
        intros H. destruct f; try done; cbn in H; destruct_and?; subst; [apply E_guard|apply E_up|apply E_par|apply E_cas|apply E_lost].
      Qed.
    End getting.

    (** *** Values *)
    Lemma E_open v y down (k : stack) : E (FV v :: k) -> E (FV v :: FOpen y down :: k).
    Proof.
      intros HE s Hf Ht. eapply ends_step; [done..|nret|]. intros st' s' E' Ht' Hf'.
      assert (exists g, Ok (cs_d s, g, FV v :: k) = Ok (cs_d s', cs_g s', st')) as (g & [= _ _ <-]).
      { destruct v; cbn in E'; apply bind_inv in E' as (g0 & _ & E'); eauto. }
      by apply HE.
    Qed.
    Lemma acc_own E0 b x (k : stack) : acc E0 b (QG x) k -> x ∈ stk fR k.
    Proof. inversion 1; subst; left. Qed.
    (** A value that what is below on the stack may get. *)
    Definition suits (v : val V) (q : kind) : Prop :=
      match q with
      | QD => exists x, v = VData x
      | QG _ => exists y, v = VGuard y
      | QF => exists x o, v = VFin x o
      | QR r => (exists x o, v = VFin x o) \/ v = VHold r
      end.
    Lemma vok_suits E0 v q : vok E0 v q -> suits v q.
    Proof.
      destruct v as [x|y|r|x o]; cbn; [intros ->|intros (x & -> & _)|intros [-> _]|intros [[->|(r & _ & ->)] _]]; cbn; eauto.
    Qed.
    Lemma E_acc E0 b q (k : stack) : acc E0 b q k -> forall v, suits v q -> E (FV v :: k).
    Proof.
      induction 1 as [b h Hh|r|r down k Hk IH|r Hr|r Hr|b h Hh|b x h Hh|b x y p k Hk IH Hp Hy]; cbn; intros v Hv.
      - destruct Hv as (x & o & ->). apply E_fin.
      - destruct Hv as [(x & o & ->)| ->]; [apply E_fin|apply E_vhold].
      - apply E_open, IH, Hv.
      - apply E_open. destruct Hv as (x & o & ->). intros s Hf Ht. eapply ends_step; [done..|nret|]. intros st' s' [= _ _ <-] Ht' Hf'.
        eapply E_relg; [|done..]. apply E_fin.
      - destruct Hv as (x & o & ->). intros s Hf Ht. eapply ends_step; [done..|nret|]. intros st' s' [= _ _ <-] Ht' Hf'.
        eapply E_relg; [|done..]. apply E_fin.
      - destruct Hv as (x & ->). intros s Hf Ht. eapply ends_step; [done..|nret|]. intros st' s' [= _ _ <-] Ht' Hf'.
        eapply E_guard; [|done..]. intros y. clear s Hf Ht s' Ht' Hf'. intros s Hf Ht. eapply ends_step; [done..|nret|]. intros st' s' [= _ _ <-] Ht' Hf'.
        by eapply E_fin.
      - destruct Hv as (y & ->). intros s Hf Ht. eapply ends_step; [done..|nret|]. intros st' s' [= _ _ <-] Ht' Hf'. by eapply E_fin.
      - destruct Hv as (i & ->). intros s Hf Ht. eapply ends_step; [done..|nret|]. intros st' s' [= _ _ <-] Ht' Hf'.
        eapply E_rel; [|done..]. eapply E_cas; [|by eapply acc_own]. intros z. apply IH. by exists z.
    Qed.
    Lemma E_vdata x h : E [FV (VData x); KFromData; KEnd h].
    Proof.
      intros s Hf Ht. destruct (fine_runs s _ Hf Ht) as (D & bo & Hr). inversion Hr as [| | | | |? ? ? ? Hv Ha| | | ? ? ? Hf0|? ? ? ? Hf0| ? ? ? Hf0| | | | |? ? Hf0|? ? Hf0| |? ? Hf0| |]; subst; try done; try (by destruct Hf0).
      eapply E_acc; [done| |done..]. by eapply vok_suits.
    Qed.
    Lemma E_chframe f x h : chframe f x -> E [f; KFromData; KEnd h].
    Proof.
      assert (forall c, E [FV (VData c); KFromData; KEnd h]) as HV by (intros; apply E_vdata).
      assert (forall x side c, E [FChildInc x side c; KFromData; KEnd h]) as HI.
      { intros y side c s Hf Ht. eapply ends_step; [done..|nret|]. intros st' s' E' Ht' Hf'. cbn in E'. apply bind_inv in E' as (? & _ & [= _ _ <-]). by eapply HV. }
      assert (forall x side c j n, E [FChildUnwrap x side c j n; KFromData; KEnd h]) as HW.
      { intros y side c j n s Hf Ht. eapply ends_step; [done..|nret|]. intros st' s' E' Ht' Hf'. cbn in E'. destruct (j =? 1); [|done].
        injection E' as _ _ <-. eapply E_items; [|done..]. apply HV. }
      assert (forall x side c j n, E [FChildUndo x side c j n; KFromData; KEnd h]) as HU.
      { intros y side c j n s Hf Ht. eapply ends_step; [done..|nret|]. intros st' s' E' Ht' Hf'. cbn in E'. destruct j as [|[|j]]; try done.
        injection E' as _ _ <-. by eapply HW. }
      assert (forall x side c j n, E [FChildLost x side c j n; KFromData; KEnd h]) as HL.
      { intros y side c j n s Hf Ht. eapply ends_step; [done..|nret|]. intros st' s' E' Ht' Hf'. cbn in E'. apply bind_inv in E' as (? & _ & [= _ _ <-]). by eapply HU. }
      assert (forall x side j n, E [FChildCas x side j n; KFromData; KEnd h]) as HC.
      { intros y side j n s Hf Ht. eapply ends_step; [done..|nret|]. intros st' s' E' Ht' Hf'. cbn in E'. apply bind_inv in E' as (m & _ & E').
        destruct (d_child side m); [injection E' as _ _ <-; by eapply HL|]. apply bind_inv in E' as (? & _ & [= _ _ <-]). by eapply HV. }
      assert (forall x side, E [FChildAlloc x side; KFromData; KEnd h]) as HA.
      { intros y side s Hf Ht. eapply ends_step; [done..|nret|]. intros st' s' E' Ht' Hf'. cbn in E'. apply bind_inv in E' as (m & _ & E').
        destruct (node_sub sz side m). apply bind_inv in E' as (? & _ & [= _ _ <-]). by eapply HC. }
      assert (forall x side, E [FChild x side; KFromData; KEnd h]) as HF.
      { intros y side s Hf Ht. eapply ends_step; [done..|nret|]. intros st' s' E' Ht' Hf'. cbn in E'. apply bind_inv in E' as (m & _ & E').
        destruct (d_len m <=? _)%N; [apply bind_inv in E' as (? & _ & [= _ _ <-]); by eapply HV|].
        destruct (d_child side m); injection E' as _ _ <-; [by eapply HI|by eapply HA]. }
      destruct f; try done; eauto.
    Qed.

    (** *** Waiting and the other calls *)
    Lemma E_wait y down (k : stack) : E k -> E (FWait y down :: k).
    Proof.
      intros HE s Hf Ht. destruct (rc_get (gd_guards (cs_g s)) y) as [n|] eqn:Ey; [destruct (a_gate down n) eqn:Eg|].
      - exists 0, s. split; [done|]. right; right. exists y, down, k. split; [done|]. by exists n.
      - eapply ends_step; [done..|nret|]. intros st' s' E' Ht' Hf'. cbn in E'. unfold rc_val in E'. rewrite Ey in E'. cbn in E'. rewrite Eg in E'.
        injection E' as _ _ <-. by apply HE.
      - eapply ends_step; [done..|nret|]. intros st' s' E' Ht' Hf'. cbn in E'. unfold rc_val in E'. by rewrite Ey in E'.
    Qed.
    Lemma E_step st : ~ returning st -> (forall d g d' g' st', mstep sz d g st = Ok (d', g', st') -> E st') -> E st.
    Proof. intros Hn HE s Hf Ht. eapply ends_step; [done..|]. intros st' s' E' Ht' Hf'. by eapply HE. Qed.
    Lemma E_cloneg r h : E [FCloneG r; KEnd h].
    Proof. apply E_step; [nret|]. intros d g d' g' st' E'. cbn in E'. apply bind_inv in E' as (? & _ & [= _ _ <-]). apply E_fin. Qed.
    Lemma E_cloned r h : E [FCloneD r; KEnd h].
    Proof. apply E_step; [nret|]. intros d g d' g' st' E'. cbn in E'. apply bind_inv in E' as (? & _ & [= _ _ <-]). apply E_cloneg. Qed.
    Lemma E_clonew x y h : E [FCloneW x y; KEnd h].
    Proof. apply E_step; [nret|]. intros d g d' g' st' E'. cbn in E'. apply bind_inv in E' as (? & _ & [= _ _ <-]). apply E_fin. Qed.
    Lemma E_down r h : E [FDown r; KEnd h].
    Proof.
      apply E_step; [nret|]. intros d g d' g' st' E'. cbn in E'. apply bind_inv in E' as (? & _ & E'). apply bind_inv in E' as (? & _ & [= _ _ <-]). apply E_fin.
    Qed.
    Lemma E_upgrade x h : E [FUpgrade x; KEnd h].
    Proof.
      apply E_step; [nret|]. intros d g d' g' st' E'. cbn in E'. destruct (rc_upgrade (dw_datas d) x) as [h1 [y|]]; injection E' as _ _ <-; [apply E_vdata|apply E_fin].
    Qed.
    Lemma E_relw o : E [FRelW o; FV (VFin None (Some RUnit)); KEnd None].
    Proof. apply E_step; [nret|]. intros d g d' g' st' E'. cbn in E'. apply bind_inv in E' as (? & _ & [= _ _ <-]). apply E_fin. Qed.

    Lemma E_gm5 r y y' : E [FGm5 r; FOpen y false; FOpen y' true; KEnd None].
    Proof.
      apply E_step; [nret|]. intros d g d' g' st' E'. cbn in E'. destruct (_ =? 1); injection E' as _ _ <-; apply E_open, E_open; [apply E_vhold|apply E_fin].
    Qed.
    Lemma E_gm4 r y y' : E [FGm4 r; FOpen y false; FOpen y' true; KEnd None].
    Proof.
      apply E_step; [nret|]. intros d g d' g' st' E'. cbn in E'. destruct (_ =? 1); injection E' as _ _ <-; [apply E_gm5|apply E_open, E_open, E_fin].
    Qed.
    Lemma E_gm3 r y : E [FGm3 r; FOpen y true; KEnd None].
    Proof.
      apply E_step; [nret|]. intros d g d' g' st' E'. cbn in E'. apply bind_inv in E' as ([g1 [|]] & _ & [= _ _ <-]); [apply E_gm4|apply E_open, E_fin].
    Qed.
    Lemma E_gm2 r y : E [FGm2 r; FOpen y true; KEnd None].
    Proof.
      apply E_step; [nret|]. intros d g d' g' st' E'. cbn in E'. destruct (_ =? 1); injection E' as _ _ <-; [apply E_gm3|apply E_open, E_fin].
    Qed.
    Lemma E_gm1 r : E [FGm1 r; KEnd None].
    Proof.
      apply E_step; [nret|]. intros d g d' g' st' E'. cbn in E'. apply bind_inv in E' as ([g1 [|]] & _ & [= _ _ <-]); [apply E_gm2|apply E_fin].
    Qed.
    Lemma E_fgs r (k : stack) : fgs r k -> forall n a, E (FFg n a :: k).
    Proof.
      assert (forall k : stack, (forall n a, d_left n = None -> d_right n = None -> E (FFg n a :: k)) -> forall n a, E (FFg n a :: k)) as HB.
      { intros k' HE n a s Hf Ht. pose proof (fine_ages s Hf) as Ha.
        eapply (ends_leads s _ ((fun x => (fst x, cs_g s, FFg (bare n) a :: k')) <$> data_forget_items sz (S (length (dw_datas (cs_d s)))) (cs_d s) n)); [done..| |].
        - eapply leads_forget; [done..|]. eapply okfuel_ne, forget_fuel; [apply Ha|]. intros; lia.
        - intros st' s' E' Ht' Hf'. destruct (data_forget_items _ _ _ _); try done. injection E' as _ _ <-. exact (HE (bare n) a eq_refl eq_refl s' Hf' Ht'). }
      assert (forall k : stack, (forall n a d g d' g' st', d_left n = None -> d_right n = None -> mstep sz d g (FFg n a :: k) = Ok (d', g', st') -> E st') ->
        forall n a, d_left n = None -> d_right n = None -> E (FFg n a :: k)) as HC.
      { intros k' HE n a Hl Hr. apply E_step; [nret|]. intros d g d' g' st'. by apply HE. }
      induction 1 as [|side n' a' k Hk IH]; apply HB, HC; intros n a d g d' g' st' Hl Hr E'; cbn in E'; unfold node_kids in E'; rewrite Hl, Hr in E'; cbn in E'.
      - injection E' as _ _ <-. apply E_open. apply E_step; [nret|]. intros ? ? ? ? ? [= _ _ <-]. apply E_relg, E_fin.
      - apply bind_inv in E' as (? & _ & [= _ _ <-]). apply IH.
    Qed.
    Lemma E_im3 r y : E [FIm3 r; FOpen y false; KEnd None].
    Proof.
      intros s Hf Ht. destruct (fine_runs s _ Hf Ht) as (D & bo & Hr0).
      assert (y = ar_guard r) as ->.
      { inversion Hr0 as [| | | | |? ? ? ? Hv Ha| | | ? ? ? Hf0|? ? ? ? Hf0| ? ? ? Hf0| | | | |? ? Hf0|? ? Hf0| |? ? Hf0| |]; subst; try done; try (by destruct Hf0). destruct Hf0 as [|[= ->]]; done. }
      revert s Hf Ht Hr0. intros s Hf Ht _.
      eapply ends_step; [done..|nret|]. intros st' s' E' Ht' Hf'. cbn in E'. apply bind_inv in E' as ([h1 [n|]] & _ & [= _ _ <-]).
      - eapply E_fgs; [constructor|done..].
      - eapply E_open; [|done..]. apply E_fin.
    Qed.
    Lemma E_im2 r y : E [FIm2 r; FOpen y false; KEnd None].
    Proof.
      apply E_step; [nret|]. intros d g d' g' st' E'. cbn in E'. destruct (_ =? 1); injection E' as _ _ <-; [apply E_im3|apply E_open, E_fin].
    Qed.
    Lemma E_im1 r : E [FIm1 r; KEnd None].
    Proof.
      apply E_step; [nret|]. intros d g d' g' st' E'. cbn in E'. apply bind_inv in E' as ([g1 [|]] & _ & [= _ _ <-]); [apply E_im2|apply E_fin].
    Qed.

    (** *** All stacks *)
    Lemma E_run E0 b (st : stack) : run E0 b st -> E st.
    Proof.
      induction 1 as [|b x k _ IH|b n p a k _ IH|b i k _ IH _|o|b v q k Hv Ha|r side h Hh|r h Hh|f r h Hc Hh|b f x k Hg Ha|f r h [-> | ->] Hh|x y h Hh|r h Hh|x y h Hh|r Hr|f r [-> | ->] Hr|f r [-> | ->] Hr|r Hr|f r [-> | ->] Hr|n a r k Hr Hg|r Hr].
      - apply E_nil.
      - by apply E_rel.
      - by apply E_items.
      - by apply E_relg.
      - apply E_relw.
      - eapply E_acc; [done|]. by eapply vok_suits.
      - apply E_wait. eapply E_chframe. done.
      - apply E_wait, E_down.
      - by eapply E_chframe.
      - eapply E_gframe; [|by eapply acc_own|done]. intros y. eapply E_acc; [done|]. by exists y.
      - apply E_cloned.
      - apply E_cloneg.
      - apply E_clonew.
      - apply E_down.
      - apply E_upgrade.
      - apply E_gm1.
      - apply E_gm2.
      - apply E_gm3.
      - apply E_gm4.
      - apply E_gm5.
      - apply E_im1.
      - apply E_im2.
      - apply E_im3.
      - by eapply E_fgs.
      - apply E_hold.
    Qed.
  End one.
  Theorem fine_ends s t : fine s t -> t < length (cs_t s) -> ends s t.
  Proof.
    intros Hf Hlt. destruct (lookup_lt_is_Some_2 _ _ Hlt) as [st Ht]. destruct (fine_runs t s st Hf Ht) as (D & b & Hr). by eapply E_run.
  Qed.
End ends.
