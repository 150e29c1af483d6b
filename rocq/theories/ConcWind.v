(** All threads together can finish their calls on a calm schedule. *)
From Verif Require Import Base BaseLemmas Api SliceItemsModel Spec BinPartsModel DataModel RcModel DataInv DataSteps ArcModel ArcInv ArcConc ConcInv ConcGuard ConcWorld ConcChild ConcData ConcSafe ConcSpec ConcTheory ConcShare ConcTree ConcCov ConcCalm ConcHold ConcQuiet SoloFuel ConcSolo ConcCall ConcAlone ConcEnd.
Local Open Scope nat_scope.
#[local] Arguments slo {A} F hs : simpl never.
#[local] Arguments thr {V A} F ts : simpl never.

Section wind.
  Context {V : Type} (sz : N).
  Notation stack := (list (frame V)).
  Implicit Types (s : cstate V) (t : nat) (es : list (sched (V:=V))).

  (** *** Upgrading threads *)
  Lemma upgrading_bor s D t u : GI s D -> upgrading s t u ->
    exists st w, cs_t s !! t = Some st /\ Exists upk st /\ bor (cs_h s) st = Some (XWeak (Some u) w).
  Proof.
    intros G (st & h & w & f & Ht & Hf & Hu & Hl & Hh). destruct (G_run _ _ G t st Ht) as [b Hr].
    pose proof (run_bor _ _ _ Hr) as Eb. destruct (run_borrow _ _ _ Hr) as (h' & Ho & EB).
    assert (h ∈ stk fB st) as Hin. { apply stk_elem. exists (KEnd (Some h)). split; [rewrite last_lookup in Hl; by eapply elem_of_list_lookup_2|left]. }
    rewrite EB in Hin. destruct h' as [h'|]; [|by apply elem_of_nil in Hin]. apply elem_of_list_singleton in Hin as ->.
    destruct Ho as (x & k & Ho & Eb'). cbn in Ho, Eb. unfold cget, slot in Hh. rewrite Ho in Hh. cbn in Hh. injection Hh as ->.
    exists st, w. split_and!; [done|apply Exists_exists; eauto|by rewrite <- Eb, Eb'].
  Qed.
  (** A stack that is not about to upgrade will not upgrade. *)
  Definition nus s t : Prop := forall st, cs_t s !! t = Some st -> Forall nu st.
  Lemma other_stack s e s' t st : cstep sz s e = Ok s' -> t <> actor e -> cs_t s' !! t = Some st -> cs_t s !! t = Some st.
  Proof. intros Hs Hn Ht. by destruct (cstep_heads sz s e s' t st Hs Ht) as [?|[-> _]]. Qed.
  Definition goes (e : sched (V:=V)) : Prop := exists t, e = SStep t \/ e = SEnd t.
  (** What a step of its own does to a stack. *)
  Lemma own_step s D e s' st' : GI s D -> cstep sz s e = Ok s' -> goes e -> cs_t s' !! actor e = Some st' ->
    cs_t s !! actor e = Some st' \/ st' = [] \/ (exists r, st' = [FHold r; KEnd None]) \/
    exists st d g, e = SStep (actor e) /\ cs_t s !! actor e = Some st /\ cs_h s' = cs_h s /\ mstep sz (cs_d s) (cs_g s) st = Ok (d, g, st') /\ stk fB st' = stk fB st.
  Proof.
    intros G Hs [t [-> | ->]] Ht'; cbn [actor cstep] in *.
    - destruct (cs_t s !! t) as [st|] eqn:Ht; [|unfold tstep in Hs; rewrite Ht in Hs; injection Hs as <-; congruence].
      assert (t < length (cs_t s)) as Hlt by by eapply lookup_lt_Some.
      destruct (tstep_cases sz s t st Ht) as [(-> & Hc)|[(r & -> & Hc)|[(x & o & h & -> & Hc)|[(r & -> & Hc)|Hc]]]]; rewrite Hc in Hs; clear Hc.
      + injection Hs as <-. left. congruence.
      + injection Hs as <-. left. congruence.
      + injection Hs as <-. right; left. cbn in Ht'. rewrite list_lookup_insert in Ht' by done. congruence.
      + injection Hs as <-. right; right; left. exists r. cbn in Ht'. rewrite list_lookup_insert in Ht' by done. congruence.
      + apply bind_inv in Hs as ([[d g] st1] & Hm & [= <-]). cbn in Ht'. rewrite list_lookup_insert in Ht' by done. injection Ht' as ->.
        destruct (GI_mstep sz s D t st d g st' (cs_out s) (cs_log s ++ step_log st st') G Ht Hm) as (_ & _ & _ & EB).
        do 3 right. exists st, d, g. done.
    - unfold hold_end in Hs. destruct (cs_t s !! t) as [st|] eqn:Ht; [|injection Hs as <-; congruence].
      assert (t < length (cs_t s)) as Hlt by by eapply lookup_lt_Some.
      repeat (case_match; try (injection Hs as <-; left; congruence)). subst. injection Hs as <-. right; left.
      cbn in Ht'. rewrite list_lookup_insert in Ht' by done. congruence.
  Qed.
  Lemma other_bor s D e s' t st : GI s D -> cstep sz s e = Ok s' -> cs_t s !! t = Some st -> bor (cs_h s') st = bor (cs_h s) st.
  Proof. intros G Hs Ht. eapply bor_keep; [done..|]. intros h x k. by eapply slots_keep. Qed.
  Lemma up_back s D e s' D' t u : GI s D -> GI s' D' -> cstep sz s e = Ok s' -> goes e -> upgrading s' t u ->
    upgrading s t u \/ (t = actor e /\ ~ nus s t).
  Proof.
    intros G G' Hs He Hu. destruct (upgrading_bor _ _ _ _ G' Hu) as (st' & w & Ht' & Hk & Hb).
    assert (cs_t s !! t = Some st' -> upgrading s t u) as Hsame.
    { intros Ht. rewrite (other_bor s D e s' t st' G Hs Ht) in Hb. by eapply xmt_upgrading. }
    destruct (decide (t = actor e)) as [->|Hn]; [|left; by eapply Hsame, other_stack].
    destruct (own_step s D e s' st' G Hs He Ht') as [?|[->|[[r ->]|(st & d & g & _ & Ht & Eh & Hm & EB)]]].
    - left. by apply Hsame.
    - by apply Exists_nil in Hk.
    - cbn in Hb. done.
    - assert (bor (cs_h s) st = Some (XWeak (Some u) w)) as Hb' by (unfold bor in *; by rewrite <- EB, <- Eh).
      apply Exists_exists in Hk as (f & Hf & Hk). destruct (mstep_frames sz _ _ _ _ _ _ Hm f Hf) as [Hf'|(_ & Hn & _)].
      + left. eapply xmt_upgrading; [done..|]. apply Exists_exists. eauto.
      + destruct (Hn Hk) as [?|(o & k & ->)]; [left; by eapply xmt_upgrading|]. right. split; [done|]. intros HF. specialize (HF _ Ht). by apply Forall_inv in HF.
  Qed.
  Lemma nus_step s D e s' t : GI s D -> cstep sz s e = Ok s' -> goes e -> nus s t -> nus s' t.
  Proof.
    intros G Hs He Hn st' Ht'. destruct (decide (t = actor e)) as [->|Hne]; [|eapply Hn, other_stack; done].
    destruct (own_step s D e s' st' G Hs He Ht') as [?|[->|[[r ->]|(st & d & g & _ & Ht & Eh & Hm & EB)]]].
    - by apply Hn.
    - constructor.
    - repeat constructor.
    - eapply mstep_nu; [done|]. by apply Hn.
  Qed.
  Lemma below_back1 s D e s' x u : GI s D -> CI sz s -> cstep sz s e = Ok s' -> u < length (gd_metas (cs_g s)) -> below (cs_g s') x u -> below (cs_g s) x u.
  Proof.
    intros G C Hs Hu. apply below_mext_inv; [|intros ? ?; by apply (parent_lt _ _ _ _ G)|done].
    by eapply eff_mext, cstep_eff.
  Qed.
  Lemma upgrading_lt s D t u : GI s D -> upgrading s t u -> u < length (gd_metas (cs_g s)).
  Proof.
    intros G (st & h & w & f & Ht & Hf & Hu & Hl & Hh). unfold cget, slot in Hh. destruct (cs_h s !! h) as [[[x k]|]|] eqn:Eh; try done.
    injection Hh as ->. pose proof (G_slot _ _ G _ _ _ Eh) as Hx. cbn in Hx. destruct w as [y|]; [|done]. by eapply (gi_dom _ _ _ _ _ (G_inv _ _ G)).
  Qed.

  (** *** Keeping a schedule calm *)
  Lemma always_snoc n es e : always sz calm n es -> (forall s', creach sz n (es ++ [e]) s' -> calm s') -> always sz calm n (es ++ [e]).
  Proof.
    intros H1 H2 es1 es2 s1 E Hr1. destruct es2 as [|e2 es2 _] using rev_ind.
    - rewrite app_nil_r in E. subst es1. by apply H2.
    - rewrite app_assoc in E. apply app_inj_tail in E as [E _]. by eapply (H1 es1 es2).
  Qed.
  Lemma creach_snoc n es e s' : creach sz n (es ++ [e]) s' -> exists s, creach sz n es s /\ cstep sz s e = Ok s'.
  Proof.
    unfold creach. rewrite crun_eq. intros H. apply bind_inv in H as (s & ? & H). cbn in H. apply bind_inv in H as (s1 & ? & [= <-]). eauto.
  Qed.
  Lemma creach_fun n es s s' : creach sz n es s -> creach sz n es s' -> s = s'.
  Proof. unfold creach. congruence. Qed.
  Lemma creach_WI n es s : always sz calm n es -> creach sz n es s -> exists D T L, WI sz s D T L.
  Proof. intros H Hr. destruct (calm_inv sz n es H) as (s' & D & T & L & Hr' & W & _). rewrite (creach_fun _ _ _ _ Hr Hr'). eauto. Qed.
  Lemma keep_always (P : cstate V -> Prop) (F : sched (V:=V) -> Prop) n es s es' : always sz calm n es -> creach sz n es s -> P s ->
    (forall s e s' D D', GI s D -> CI sz s -> GI s' D' -> F e -> cstep sz s e = Ok s' -> calm s -> P s -> P s' /\ calm s') -> Forall F es' ->
    always sz calm n (es ++ es') /\ forall s', creach sz n (es ++ es') s' -> P s'.
  Proof.
    intros Hc Hr HP Hk. induction es' as [|e es' IH] using rev_ind; intros HF.
    - rewrite app_nil_r. split; [done|]. intros s' Hr'. by rewrite (creach_fun _ _ _ _ Hr' Hr).
    - apply Forall_app in HF as [HF He]. apply Forall_inv in He. destruct (IH HF) as [IH1 IH2]. rewrite app_assoc.
      assert (forall s', creach sz n ((es ++ es') ++ [e]) s' -> P s' /\ calm s') as Hs'.
      { intros s' Hr'. destruct (creach_snoc _ _ _ _ Hr') as (s1 & Hr1 & Hs). destruct (creach_WI _ _ _ IH1 Hr1) as (D & T & L & W).
        destruct (GI_reach _ _ _ _ Hr') as [D' G']. eapply (Hk s1 e s' D D'); try done; [apply W|apply W| |by apply IH2].
        by eapply always_last. }
      split; [|intros s' H'; by apply Hs']. apply always_snoc; [done|]. intros s' H'. by apply Hs'.
  Qed.
  Lemma threads_len s e s' : cstep sz s e = Ok s' -> length (cs_t s') = length (cs_t s).
  Proof.
    intros Hs. apply cstep_qstep in Hs as [Q|(t & st & d & g & st' & -> & Ht & Hm & ->)]; [|cbn; apply insert_length].
    destruct (q_t _ _ Q) as [[-> _]|(t & st & st' & _ & -> & _)]; [done|apply insert_length].
  Qed.
  Lemma reach_len n es s : creach sz n es s -> length (cs_t s) = n.
  Proof.
    revert s. induction es as [|e es IH] using rev_ind; intros s Hr.
    - injection Hr as <-. cbn. apply replicate_length.
    - destruct (creach_snoc _ _ _ _ Hr) as (s1 & Hr1 & Hs). rewrite (threads_len _ _ _ Hs). by apply IH.
  Qed.

  (** *** Running one thread *)
  Definition of_thread t (e : sched (V:=V)) : Prop := e = SStep t \/ e = SEnd t.
  Lemma of_goes t e : of_thread t e -> goes e /\ actor e = t.
  Proof. intros [-> | ->]; (split; [by exists t; eauto|done]). Qed.
  Definition waiting s t : Prop := exists y down k, cs_t s !! t = Some (FWait y down :: k) /\ gate_closed s y down.
  Definition same_but s s' t : Prop := forall t', t' <> t -> cs_t s' !! t' = cs_t s !! t'.
  Lemma same_reach n es s t es' s' : creach sz n es s -> creach sz n (es ++ es') s' -> Forall (of_thread t) es' -> same_but s s' t.
  Proof.
    intros Hr Hr' HF. unfold creach in *. rewrite crun_eq, Hr in Hr'. cbn in Hr'. clear Hr. revert s Hr' HF.
    induction es' as [|e es' IH]; intros s Hr' HF t' Hne; [by injection Hr' as <-|].
    apply Forall_cons in HF as [He HF]. cbn in Hr'. apply bind_inv in Hr' as (s1 & Hs & Hr').
    rewrite (IH s1 Hr' HF t' Hne). destruct (of_goes _ _ He) as [_ Ha].
    destruct (cs_t s1 !! t') as [st|] eqn:E.
    - symmetry. eapply other_stack; [done| |done]. by rewrite Ha.
    - symmetry. apply lookup_ge_None in E. apply lookup_ge_None. by rewrite <- (threads_len _ _ _ Hs).
  Qed.
  Lemma fine_always n es s t : (forall m, always sz calm n (es ++ replicate m (SStep t))) -> creach sz n es s -> fine sz s t.
  Proof.
    intros H Hr m. destruct (calm_inv sz n _ (H m)) as (s' & D & T & L & Hr' & W & _). unfold creach in *. rewrite crun_eq, Hr in Hr'. cbn in Hr'. eauto 10.
  Qed.
  Theorem run_thread n es s t : (forall es', Forall (of_thread t) es' -> always sz calm n (es ++ es')) -> creach sz n es s -> t < n ->
    exists es' s', Forall (of_thread t) es' /\ creach sz n (es ++ es') s' /\ same_but s s' t /\ (idle s' t \/ waiting s' t).
  Proof.
    intros Hc Hr Hlt. assert (forall m, Forall (of_thread t) (replicate m (SStep t))) as Hm by (intros m; apply Forall_replicate; by left).
    destruct (fine_ends sz s t) as (m & s1 & Hr1 & Hrest).
    { eapply fine_always; [|done]. intros m. by apply Hc. }
    { by rewrite (reach_len _ _ _ Hr). }
    assert (creach sz n (es ++ replicate m (SStep t)) s1) as Hr1' by (unfold creach in *; by rewrite crun_eq, Hr).
    destruct Hrest as [Hi|[[r Hh]|Hw]].
    - exists (replicate m (SStep t)), s1. split_and!; [done..|by eapply same_reach|by left].
    - set (es' := replicate m (SStep t) ++ [SEnd t] : list (sched (V:=V))). assert (Forall (of_thread t) es') as HF.
      { apply Forall_app. split; [done|]. constructor; [by right|constructor]. }
      assert (cstep sz s1 (SEnd t) = Ok (finish s1 t None (Some (XArc r)) None)) as Hs by (cbn; unfold hold_end; by rewrite Hh).
      exists es', (finish s1 t None (Some (XArc r)) None). assert (creach sz n (es ++ es') (finish s1 t None (Some (XArc r)) None)) as Hr2.
      { unfold es', creach in *. rewrite app_assoc, crun_eq, Hr1'. cbn [mbind res_bind crun]. by rewrite Hs. }
      split_and!; [done..|by eapply same_reach|]. left. unfold idle. cbn. apply list_lookup_insert. by eapply lookup_lt_Some.
    - exists (replicate m (SStep t)), s1. split_and!; [done..|by eapply same_reach|by right].
  Qed.
  Lemma pass (Q : nat -> cstate V -> Prop) n es s : always sz calm n es -> creach sz n es s -> Q 0 s ->
    (forall i es s, i < n -> always sz calm n es -> creach sz n es s -> Q i s ->
      exists es' s', Forall goes es' /\ always sz calm n (es ++ es') /\ creach sz n (es ++ es') s' /\ Q (S i) s') ->
    exists es' s', Forall goes es' /\ always sz calm n (es ++ es') /\ creach sz n (es ++ es') s' /\ Q n s'.
  Proof.
    intros Hc Hr H0 Hs. assert (forall i, i <= n -> exists es' s', Forall goes es' /\ always sz calm n (es ++ es') /\ creach sz n (es ++ es') s' /\ Q i s') as H.
    { induction i as [|i IH]; intros Hi.
      - exists [], s. rewrite app_nil_r. split_and!; [constructor|done..].
      - destruct IH as (es1 & s1 & H1 & H2 & H3 & H4); [lia|]. destruct (Hs i (es ++ es1) s1) as (es2 & s2 & H5 & H6 & H7 & H8); [lia|done..|].
        exists (es1 ++ es2), s2. rewrite app_assoc. split_and!; [by apply Forall_app|done..]. }
    by apply H.
  Qed.

  (** *** Shapes *)
  Lemma acc_nu E b q (k : stack) : acc E b q k -> Forall nu k.
  Proof. induction 1; repeat constructor; done. Qed.
  Lemma fgs_nu r (k : stack) : fgs r k -> Forall nu k.
  Proof. induction 1; repeat constructor; done. Qed.
  Definition dull (f : frame V) : Prop := ~ upk f /\ fL f = [] /\ match f with FIm3 _ | FFg _ _ => False | _ => True end.
  Lemma run_kinds E b (st : stack) : run E b st -> Forall nu st \/ Forall dull st.
  Proof.
    induction 1 as [|b x k _ IH|b n p a k _ IH|b i k _ IH _|o|b v q k Hv Ha|r side h Hh|r h Hh|f r h Hc Hh|b f x k Hg Ha|f r h [-> | ->] Hh|x y h Hh|r h Hh|x y h Hh|r Hr|f r [-> | ->] Hr|f r [-> | ->] Hr|r Hr|f r [-> | ->] Hr|n a r k Hr Hg|r Hr];
      try (left; repeat constructor; done).
    - destruct IH as [IH|IH]; [left|right]; constructor; done || split_and!; tauto.
    - destruct IH as [IH|IH]; [left|right]; constructor; done || split_and!; tauto.
    - destruct IH as [IH|IH]; [left|right]; constructor; done || split_and!; tauto.
    - left. constructor; [done|]. by eapply acc_nu.
    - left. constructor; [|repeat constructor]. by destruct f.
    - left. constructor; [by destruct f|]. by eapply acc_nu.
    - right. repeat constructor; by intros [].
    - left. constructor; [done|]. by eapply fgs_nu.
  Qed.
  Lemma run_wait E b y down (k : stack) : run E b (FWait y down :: k) -> (exists r, b = Some (XArc r)) /\ stk fL k = [].
  Proof.
    inversion 1 as [| | | | | | | |? ? ? Hf0|? ? ? ? Hf0| ? ? ? Hf0| | | | |? ? Hf0|? ? Hf0| |? ? Hf0| |]; subst; try done; try (by destruct Hf0); eauto.
  Qed.

  (** *** First, those who are upgrading finish *)
  Definition J s t : Prop := exists st, cs_t s !! t = Some st /\ Forall nu st /\
    (st = [] \/ (exists r, st = [FHold r; KEnd None]) \/ exists x y, bor (cs_h s) st = Some (XWeak x y)).
  Lemma J_nus s t : J s t -> nus s t.
  Proof. intros (st & Ht & Hn & _) st' Ht'. congruence. Qed.
  Lemma J_step s D e s' t : GI s D -> cstep sz s e = Ok s' -> of_thread t e -> J s t -> J s' t.
  Proof.
    intros G Hs He HJ. destruct (of_goes _ _ He) as [Hg Ha]. pose proof (nus_step _ _ _ _ _ G Hs Hg (J_nus _ _ HJ)) as Hn.
    destruct HJ as (st & Ht & _ & Hst). destruct (cs_t s' !! t) as [st'|] eqn:Ht'.
    2: { apply lookup_ge_None in Ht'. rewrite (threads_len _ _ _ Hs) in Ht'. apply lookup_lt_Some in Ht. lia. }
    exists st'. split; [done|]. split; [by apply Hn|]. rewrite <- Ha in Ht, Ht'.
    destruct (own_step s D e s' st' G Hs Hg Ht') as [Hsame|[->|[[r ->]|(st0 & d & g & _ & Ht0 & Eh & Hm & EB)]]].
    - rewrite (other_bor s D e s' _ st' G Hs Hsame). by assert (st' = st) as -> by congruence.
    - by left.
    - right; left. eauto.
    - assert (st0 = st) as -> by congruence. right; right. destruct Hst as [->|[[r ->]|(x & y & Hb)]].
      + done.
      + by cbn in Hm.
      + exists x, y. unfold bor in *. by rewrite EB, Eh.
  Qed.
  Lemma conv_bor s D t x : GI s D -> converting s t x -> forall st, cs_t s !! t = Some st -> bor (cs_h s) st = None /\ st <> [] /\ forall r, st <> [FHold r; KEnd None].
  Proof.
    intros G (r & _ & Hc) st Ht. destruct (G_run _ _ G t st Ht) as [b Hr]. pose proof (run_bor _ _ _ Hr) as Eb. cbn in Eb. rewrite <- Eb.
    destruct Hc as [[k Ht']|(n & a & k & Ht' & _)]; rewrite Ht in Ht'; injection Ht' as ->; (split; [|done]).
    - inversion Hr as [| | | | | | | |? ? ? Hf0|? ? ? ? Hf0| ? ? ? Hf0| | | | |? ? Hf0|? ? Hf0| |? ? Hf0| |]; subst; try done; try (by destruct Hf0).
    - inversion Hr as [| | | | | | | |? ? ? Hf0|? ? ? ? Hf0| ? ? ? Hf0| | | | |? ? Hf0|? ? Hf0| |? ? Hf0| |]; subst; try done; try (by destruct Hf0).
  Qed.
  Lemma J_conv s D t x : GI s D -> J s t -> ~ converting s t x.
  Proof.
    intros G (st & Ht & _ & Hst) Hc. destruct (conv_bor _ _ _ _ G Hc st Ht) as (H1 & H2 & H3).
    destruct Hst as [->|[[r ->]|(y & z & Hb)]]; [done|by apply (H3 r)|congruence].
  Qed.
  Lemma conv_other s e s' t x : cstep sz s e = Ok s' -> t <> actor e -> converting s' t x -> converting s t x.
  Proof.
    intros Hs Hn (r & Er & Hc). exists r. split; [done|]. destruct Hc as [[k Ht]|(n & a & k & Ht & Hk)]; apply (other_stack _ _ _ _ _ Hs Hn) in Ht; eauto 10.
  Qed.
  Lemma calm_J s D e s' D' t : GI s D -> CI sz s -> GI s' D' -> cstep sz s e = Ok s' -> of_thread t e -> calm s -> J s t -> J s' t /\ calm s'.
  Proof.
    intros G C G' Hs He Hc HJ. pose proof (J_step _ _ _ _ _ G Hs He HJ) as HJ'. split; [done|]. destruct (of_goes _ _ He) as [Hg Ha].
    intros t1 x t2 u H1 H2 Hb. destruct (decide (t1 = t)) as [->|Hne]; [by eapply J_conv|].
    destruct (up_back s D e s' D' t2 u G G' Hs Hg H2) as [Hu|[-> Hn]]; [|apply Hn; rewrite Ha; by apply J_nus].
    eapply (Hc t1 x t2 u); [|done|].
    - eapply conv_other; [done| |done]. by rewrite Ha.
    - eapply below_back1; [done..| |done]. by eapply upgrading_lt.
  Qed.
  Lemma upgrading_J s D t u : GI s D -> upgrading s t u -> J s t.
  Proof.
    intros G Hu. destruct (upgrading_bor _ _ _ _ G Hu) as (st & w & Ht & Hk & Hb). exists st. split; [done|]. split; [|eauto 10].
    destruct (G_run _ _ G t st Ht) as [b Hr]. destruct (run_kinds _ _ _ Hr) as [?|Hd]; [done|]. exfalso.
    apply Exists_exists in Hk as (f & Hf & Hk). rewrite Forall_forall in Hd. by apply (Hd f Hf).
  Qed.
  Lemma rest_upgrading s D t u : GI s D -> idle s t \/ waiting s t -> ~ upgrading s t u.
  Proof.
    intros G Hw Hu. destruct (upgrading_bor _ _ _ _ G Hu) as (st & w & Ht & Hk & Hb). destruct Hw as [Hi|(y & down & k & Ht' & _)].
    - unfold idle in Hi. assert (st = []) as -> by congruence. by apply Exists_nil in Hk.
    - assert (st = FWait y down :: k) as -> by congruence. destruct (G_run _ _ G t _ Ht) as [b Hr]. pose proof (run_bor _ _ _ Hr) as Eb. cbn in Eb.
      destruct (run_wait _ _ _ _ _ Hr) as [[r ->] _]. cbn in Hb. congruence.
  Qed.
  Lemma upgrading_dec s D t : GI s D -> (exists u, upgrading s t u) \/ forall u, ~ upgrading s t u.
  Proof.
    intros G. destruct (cs_t s !! t) as [st|] eqn:Ht.
    2: { right. intros u Hu. destruct (upgrading_bor _ _ _ _ G Hu) as (st & w & Ht' & _). congruence. }
    assert ((exists u w, bor (cs_h s) st = Some (XWeak (Some u) w)) \/ forall u w, bor (cs_h s) st <> Some (XWeak (Some u) w)) as [(u & w & Hb)|Hb].
    { destruct (bor (cs_h s) st) as [[|[u|]| | | |]|]; eauto; right; done. }
    2: { right. intros u Hu. destruct (upgrading_bor _ _ _ _ G Hu) as (st' & w & Ht' & _ & Hb'). assert (st' = st) as -> by congruence. by eapply Hb. }
    assert (Exists upk st \/ ~ Exists upk st) as [Hk|Hk].
    { clear. induction st as [|f st IH]; [right; by intros ?%Exists_nil|]. rewrite Exists_cons. destruct IH as [IH|IH]; [tauto|].
      destruct f; cbn; tauto. }
    - left. exists u. by eapply xmt_upgrading.
    - right. intros u' Hu. destruct (upgrading_bor _ _ _ _ G Hu) as (st' & w' & Ht' & Hk' & _). assert (st' = st) as -> by congruence. done.
  Qed.
  Definition calmly n es (Q : cstate V -> Prop) : Prop :=
    exists es' s', Forall goes es' /\ always sz calm n (es ++ es') /\ creach sz n (es ++ es') s' /\ Q s'.
  Lemma calmly_nil n es s (Q : cstate V -> Prop) : always sz calm n es -> creach sz n es s -> Q s -> calmly n es Q.
  Proof. intros H1 H2 H3. exists [], s. rewrite app_nil_r. split_and!; [constructor|done..]. Qed.
  Lemma of_goes_all t es : Forall (of_thread t) es -> Forall goes es.
  Proof. intros H. eapply Forall_impl; [exact H|]. intros e [? _]%of_goes. done. Qed.
  Lemma stage1 n es s : always sz calm n es -> creach sz n es s -> calmly n es (fun s => forall t u, ~ upgrading s t u).
  Proof.
    intros Hc Hr. destruct (pass (fun i s => forall t u, t < i -> ~ upgrading s t u) n es s) as (es' & s' & H1 & H2 & H3 & H4); [done..|intros; lia| |].
    - clear. intros i es s Hi Hc Hr HQ. destruct (GI_reach _ _ _ _ Hr) as [D G].
      destruct (upgrading_dec s D i G) as [[u Hu]|Hu].
      + assert (forall es', Forall (of_thread i) es' -> always sz calm n (es ++ es') /\ forall s', creach sz n (es ++ es') s' -> J s' i /\ (forall t u, t < i -> ~ upgrading s' t u)) as Hk.
        { intros es' HF. eapply (keep_always (fun s => J s i /\ (forall t u, t < i -> ~ upgrading s t u)) (of_thread i)); [done..|split; [by eapply upgrading_J|done]| |done].
          clear. intros s e s' D D' G C G' He Hs Hc [HJ Hn]. destruct (calm_J _ _ _ _ _ _ G C G' Hs He Hc HJ) as [HJ' Hc']. split; [|done]. split; [done|].
          intros t u Ht Hu. destruct (of_goes _ _ He) as [Hg Ha]. destruct (up_back _ _ _ _ _ _ _ G G' Hs Hg Hu) as [Hu'|[-> _]]; [by eapply Hn|lia]. }
        destruct (run_thread n es s i) as (es' & s' & H1 & H2 & H3 & H4); [intros es' HF; by apply Hk|done..|].
        exists es', s'. split_and!; [by eapply of_goes_all|by apply Hk|done|]. intros t v Ht. destruct (decide (t = i)) as [->|].
        * destruct (GI_reach _ _ _ _ H2) as [D' G']. by eapply rest_upgrading.
        * apply (proj2 (Hk es' H1) s' H2). lia.
      + eapply calmly_nil; [done..|]. intros t v Ht. destruct (decide (t = i)) as [->|]; [by apply Hu|apply HQ; lia].
    - exists es', s'. split_and!; [done..|]. intros t u Hu. apply (H4 t u); [|done]. destruct Hu as (st & _ & _ & _ & Ht & _).
      apply lookup_lt_Some in Ht. by rewrite (reach_len _ _ _ H3) in Ht.
  Qed.

  (** *** Then those who have a latch *)
  Definition NUp s : Prop := forall t u, ~ upgrading s t u.
  Lemma NUp_calm s : NUp s -> calm s.
  Proof. intros H t x t' u _ Hu. by apply H in Hu. Qed.
  Lemma NUp_step s D e s' D' t : GI s D -> GI s' D' -> cstep sz s e = Ok s' -> of_thread t e -> NUp s -> nus s t -> NUp s' /\ nus s' t.
  Proof.
    intros G G' Hs He Hu Hn. destruct (of_goes _ _ He) as [Hg Ha]. split; [|exact (nus_step _ _ _ _ _ G Hs Hg Hn)].
    intros t' u Hu'. destruct (up_back _ _ _ _ _ _ _ G G' Hs Hg Hu') as [H|[-> H]]; [by eapply Hu|]. rewrite Ha in H. done.
  Qed.
  Lemma nus_run n es s t es' : always sz calm n es -> creach sz n es s -> NUp s -> nus s t -> Forall (of_thread t) es' ->
    always sz calm n (es ++ es') /\ forall s', creach sz n (es ++ es') s' -> NUp s' /\ nus s' t.
  Proof.
    intros Hc Hr Hu Hn HF. eapply (keep_always (fun s => NUp s /\ nus s t) (of_thread t)); [done..| |done].
    intros s1 e s2 D D' G C G' He Hs _ [H1 H2]. destruct (NUp_step _ _ _ _ _ _ G G' Hs He H1 H2) as [H3 H4]. split; [done|by apply NUp_calm].
  Qed.
  Lemma nus_dec s t : nus s t \/ ~ nus s t.
  Proof.
    unfold nus. destruct (cs_t s !! t) as [st|] eqn:Ht; [|left; intros; congruence].
    assert (Forall nu st \/ ~ Forall nu st) as [H|H].
    { clear. induction st as [|f st [IH|IH]]; [left; constructor| |right; intros H; by apply Forall_cons in H as [_ ?]].
      assert (nu f \/ ~ nu f) as [?|Hn] by (destruct f; cbn; tauto); [left; by constructor|right; intros H; by apply Forall_inv in H]. }
    - left. intros st' [= <-]. done.
    - right. intros Hn. by apply H, Hn.
  Qed.
  Lemma rest_latches s D t st : GI s D -> idle s t \/ waiting s t -> cs_t s !! t = Some st -> stk fL st = [].
  Proof.
    intros G [Hi|(y & down & k & Ht' & _)] Ht.
    - unfold idle in Hi. by assert (st = []) as -> by congruence.
    - assert (st = FWait y down :: k) as -> by congruence. destruct (G_run _ _ G t _ Ht) as [b Hr]. by destruct (run_wait _ _ _ _ _ Hr).
  Qed.
  Definition unlatched s : Prop := forall t st, cs_t s !! t = Some st -> stk fL st = [].
  Lemma dull_latch (st : stack) : Forall dull st -> stk fL st = [].
  Proof. induction 1 as [|f st Hf _ IH]; [done|]. rewrite stk_cons, IH. destruct Hf as (_ & -> & _). done. Qed.
  Lemma not_nus s D t st : GI s D -> cs_t s !! t = Some st -> ~ nus s t -> Forall dull st.
  Proof.
    intros G Ht Hn. destruct (G_run _ _ G t st Ht) as [b Hr]. destruct (run_kinds _ _ _ Hr) as [H|?]; [|done]. exfalso. apply Hn. intros st'. congruence.
  Qed.
  Lemma stage2 n es s : always sz calm n es -> creach sz n es s -> NUp s -> calmly n es (fun s => NUp s /\ unlatched s).
  Proof.
    intros Hc Hr Hu. destruct (pass (fun i s => NUp s /\ forall t st, t < i -> nus s t -> cs_t s !! t = Some st -> stk fL st = []) n es s) as (es' & s' & H1 & H2 & H3 & H4 & H5); [done..|split; [done|intros; lia]| |].
    - clear. intros i es s Hi Hc Hr [Hu HQ]. destruct (nus_dec s i) as [Hn|Hn].
      + pose proof (fun es' => nus_run n es s i es' Hc Hr Hu Hn) as Hk.
        destruct (run_thread n es s i) as (es' & s' & H1 & H2 & H3 & H4); [intros es' HF; by apply Hk|done..|].
        exists es', s'. destruct (Hk es' H1) as [K1 K2]. destruct (K2 s' H2) as [K3 K4]. split_and!; [by eapply of_goes_all|done..|].
        intros t st Ht Hnt Hst. destruct (GI_reach _ _ _ _ H2) as [D' G']. destruct (decide (t = i)) as [->|Hne]; [by eapply rest_latches|].
        apply (HQ t st); [lia| |by rewrite <- H3]. intros st' Hst'. apply Hnt. by rewrite H3.
      + eapply calmly_nil; [done..|]. split; [done|]. intros t st Ht Hnt. destruct (decide (t = i)) as [->|]; [done|]. apply HQ; [lia|done].
    - exists es', s'. split_and!; [done..|]. intros t st Ht. destruct (nus_dec s' t) as [Hn|Hn].
      + apply (H5 t); [|done..]. apply lookup_lt_Some in Ht. by rewrite (reach_len _ _ _ H3) in Ht.
      + destruct (GI_reach _ _ _ _ H3) as [D' G']. by eapply dull_latch, not_nus.
  Qed.

  (** *** Then the others, except those about to upgrade *)
  Lemma open_gates s D t : GI s D -> unlatched s -> ~ waiting s t.
  Proof.
    intros G Hl (y & down & k & _ & n & Hy & Hg). pose proof (latch_gate _ _ G y down) as E. rewrite Hy, Hg, latches_lcnt in E.
    assert (thr fL (cs_t s) = []) as E0.
    { clear E. unfold unlatched in Hl. unfold thr. induction (cs_t s) as [|st ts IH]; [done|]. cbn. rewrite (Hl 0 st eq_refl), IH; [done|]. intros t' st' Ht'. by apply (Hl (S t')). }
    by rewrite E0 in E.
  Qed.
  Lemma same_unlatched s s' t : unlatched s -> same_but s s' t -> (forall st, cs_t s' !! t = Some st -> stk fL st = []) -> unlatched s'.
  Proof. intros Hl Hs Ht t' st Ht'. destruct (decide (t' = t)) as [->|Hne]; [by apply Ht|]. rewrite Hs in Ht' by done. by eapply Hl. Qed.
  Lemma stage3 n es s : always sz calm n es -> creach sz n es s -> NUp s -> unlatched s -> calmly n es (fun s => unlatched s /\ forall t, t < n -> idle s t \/ ~ nus s t).
  Proof.
    intros Hc Hr Hu Hl. destruct (pass (fun i s => NUp s /\ unlatched s /\ forall t, t < i -> idle s t \/ ~ nus s t) n es s) as (es' & s' & H1 & H2 & H3 & H4 & H5 & H6); [done..|split; [done|split; [done|intros; lia]]| |].
    - clear. intros i es s Hi Hc Hr (Hu & Hl & HQ). destruct (nus_dec s i) as [Hn|Hn].
      + pose proof (fun es' => nus_run n es s i es' Hc Hr Hu Hn) as Hk.
        destruct (run_thread n es s i) as (es' & s' & H1 & H2 & H3 & H4); [intros es' HF; by apply Hk|done..|].
        exists es', s'. destruct (Hk es' H1) as [K1 K2]. destruct (K2 s' H2) as [K3 K4]. destruct (GI_reach _ _ _ _ H2) as [D' G'].
        assert (unlatched s') as Hl' by (eapply same_unlatched; [done..|]; intros st; by eapply rest_latches).
        split_and!; [by eapply of_goes_all|done..|]. intros t Ht. destruct (decide (t = i)) as [->|Hne].
        * destruct H4 as [H4|H4]; [by left|by apply (open_gates _ _ _ G' Hl') in H4].
        * destruct (HQ t) as [Hi'|Hi']; [lia|left; unfold idle in *; by rewrite H3|right]. intros Hx. apply Hi'. intros st Hst. apply Hx. by rewrite H3.
      + eapply calmly_nil; [done..|]. split_and!; [done..|]. intros t Ht. destruct (decide (t = i)) as [->|]; [by right|]. apply HQ. lia.
    - exists es', s'. done.
  Qed.

  (** *** At last, those *)
  Lemma dull_uncontended s D t n : GI s D -> length (cs_t s) = n -> (forall t', t' < n -> idle s t' \/ ~ nus s t') -> uncontended s t.
  Proof.
    intros G Hn0 H t' u Hne. assert (forall st, cs_t s !! t' = Some st -> Forall dull st) as Hd.
    { intros st Hst. destruct (H t') as [Hi|Hn]; [rewrite <- Hn0; by eapply lookup_lt_Some| |by eapply not_nus]. unfold idle in Hi. by assert (st = []) as -> by congruence. }
    split.
    - intros (st & h & w & f & Ht & Hf & Hk & _). specialize (Hd _ Ht). rewrite Forall_forall in Hd. by apply (Hd f Hf).
    - intros (r & _ & [[k Ht]|(n1 & a & k & Ht & _)]); specialize (Hd _ Ht); apply Forall_inv in Hd; by destruct Hd as (_ & _ & ?).
  Qed.
  Lemma stage4 n es s : always sz calm n es -> creach sz n es s -> unlatched s -> (forall t, t < n -> idle s t \/ ~ nus s t) -> calmly n es quiescent.
  Proof.
    intros Hc Hr Hl Hd. destruct (pass (fun i s => unlatched s /\ (forall t, t < n -> idle s t \/ ~ nus s t) /\ forall t, t < i -> idle s t) n es s) as (es' & s' & H1 & H2 & H3 & H4 & H5 & H6); [done..|split; [done|split; [done|intros; lia]]| |].
    - clear. intros i es s Hi Hc Hr (Hl & Hd & HQ). destruct (GI_reach _ _ _ _ Hr) as [D G].
      assert (uncontended s i) as Hun by (eapply dull_uncontended; [done|by eapply reach_len|done]).
      assert (forall es', Forall (of_thread i) es' -> always sz calm n (es ++ es')) as Hk.
      { intros es' HF. eapply calm_after; [done..|]. eapply Forall_impl; [exact HF|]. intros e He. by destruct (of_goes _ _ He). }
      destruct (run_thread n es s i) as (es' & s' & H1 & H2 & H3 & H4); [done..|].
      exists es', s'. destruct (GI_reach _ _ _ _ H2) as [D' G'].
      assert (unlatched s') as Hl' by (eapply same_unlatched; [done..|]; intros st; by eapply rest_latches).
      assert (idle s' i) as Hi' by (destruct H4 as [H4|H4]; [done|by apply (open_gates _ _ _ G' Hl') in H4]).
      split_and!; [by eapply of_goes_all|by apply Hk|done..| |].
      + intros t Ht. destruct (decide (t = i)) as [->|Hne]; [by left|].
        destruct (Hd t Ht) as [Hi''|Hi'']; [left; unfold idle in *; by rewrite H3|right]. intros Hx. apply Hi''. intros st Hst. apply Hx. by rewrite H3.
      + intros t Ht. destruct (decide (t = i)) as [->|Hne]; [done|]. unfold idle. rewrite H3 by done. apply HQ. lia.
    - exists es', s'. split_and!; [done..|]. intros t st Ht. assert (t < n) as Hlt by (apply lookup_lt_Some in Ht; by rewrite (reach_len _ _ _ H3) in Ht).
      specialize (H6 t Hlt). unfold idle in H6. congruence.
  Qed.

  Theorem wind_down n es s : always sz calm n es -> creach sz n es s -> calmly n es quiescent.
  Proof.
    intros Hc Hr. destruct (stage1 n es s Hc Hr) as (e1 & s1 & F1 & C1 & R1 & Q1).
    destruct (stage2 n _ s1 C1 R1 Q1) as (e2 & s2 & F2 & C2 & R2 & Q2 & L2).
    destruct (stage3 n _ s2 C2 R2 Q2 L2) as (e3 & s3 & F3 & C3 & R3 & L3 & D3).
    destruct (stage4 n _ s3 C3 R3 L3 D3) as (e4 & s4 & F4 & C4 & R4 & Q4).
    exists (e1 ++ e2 ++ e3 ++ e4), s4. rewrite !app_assoc. split_and!; [|done..]. by rewrite !Forall_app.
  Qed.
End wind.
