(** A call that no other thread interrupts does what the model for one thread
    (ArcModel.v) says. *)
From Verif Require Import Base BaseLemmas Api SliceItemsModel Spec BinPartsModel DataModel RcModel DataInv DataSteps ArcModel ArcInv ArcConc ConcInv ConcGuard ConcWorld ConcChild ConcData ConcSafe ConcSpec ConcTheory ConcShare ConcTree ConcCov ConcCalm ConcHold ConcQuiet SoloFuel ConcSolo ConcCall.
Local Open Scope nat_scope.
#[local] Arguments slo {A} F hs : simpl never.
#[local] Arguments thr {V A} F ts : simpl never.

Section alone.
  Context {V : Type} (sz : N).
  Notation stack := (list (frame V)).
  Implicit Types (s : cstate V) (t : nat) (es : list (sched (V:=V))).

  (** ** Running one thread *)
  Definition safe s t : Prop := forall m, exists s', crun sz s (replicate m (SStep t)) = Ok s'.
  Lemma safe_step s t s' : safe s t -> tstep sz s t = Ok s' -> safe s' t.
  Proof. intros H E m. destruct (H (S m)) as [s2 H2]. cbn in H2. rewrite E in H2. eauto. Qed.
  Lemma safe_now s t : safe s t -> exists s', tstep sz s t = Ok s'.
  Proof. intros H. destruct (H 1) as [s2 H2]. cbn in H2. apply bind_inv in H2 as (s1 & ? & _). eauto. Qed.
  Lemma tstep_mstep s t (st : stack) d g st' : cs_t s !! t = Some st -> mstep sz (cs_d s) (cs_g s) st = Ok (d, g, st') ->
    tstep sz s t = Ok (CS d g (cs_h s) (<[t := st']> (cs_t s)) (cs_out s) (cs_log s ++ step_log st st')).
  Proof.
    intros Ht Hm. destruct (tstep_cases sz s t st Ht) as [(-> & _)|[(r & -> & _)|[(x & o & h & -> & _)|[(r & -> & _)|E]]]]; try done.
    by rewrite E, Hm.
  Qed.
  Lemma leads_run c r : leads sz c r -> forall s t st, c = (cs_d s, cs_g s, st) -> cs_t s !! t = Some st -> safe s t ->
    exists d g st' m l, r = Ok (d, g, st') /\
      crun sz s (replicate m (SStep t)) = Ok (CS d g (cs_h s) (<[t := st']> (cs_t s)) (cs_out s) (cs_log s ++ l)).
  Proof.
    induction 1 as [c|d g st [[d1 g1] st1] r E H IH|d g st r E Hn]; intros s t st0 Ec Ht Hs.
    - subst c. exists (cs_d s), (cs_g s), st0, 0, []. split; [done|]. cbn. rewrite list_insert_id, app_nil_r by done. by destruct s.
    - injection Ec as -> -> ->. pose proof (tstep_mstep s t st0 d1 g1 st1 Ht E) as Hm.
      destruct (IH _ t st1 (eq_refl (cs_d (CS d1 g1 (cs_h s) (<[t := st1]> (cs_t s)) (cs_out s) (cs_log s ++ step_log st0 st1)), cs_g (CS d1 g1 (cs_h s) (<[t := st1]> (cs_t s)) (cs_out s) (cs_log s ++ step_log st0 st1)), st1)))
        as (d2 & g2 & st2 & m & l & Er & Hr).
      { cbn. apply list_lookup_insert. by eapply lookup_lt_Some. }
      { by eapply safe_step. }
      exists d2, g2, st2, (S m), (step_log st0 st1 ++ l). split; [done|]. cbn [replicate crun cstep]. rewrite Hm. cbn [mbind res_bind].
      rewrite Hr. cbn. by rewrite list_insert_insert, app_assoc.
    - exfalso. injection Ec as -> -> ->. destruct (safe_now _ _ Hs) as [s' Hs'].
      destruct (tstep_cases sz s t st0 Ht) as [(-> & _)|[(x & -> & _)|[(x & o & h & -> & _)|[(x & -> & _)|E']]]].
      + apply Hn. by left.
      + apply Hn. right. left. eauto.
      + apply Hn. do 2 right. left. eauto.
      + apply Hn. do 3 right. eauto.
      + rewrite E' in Hs'. apply bind_inv in Hs' as (c & Hc & _). by apply E in Hc.
  Qed.
  Lemma crun_eq s es es' : crun sz s (es ++ es') = (s1 ← crun sz s es; crun sz s1 es').
  Proof. revert s. induction es as [|e es IH]; intros s; [done|]. cbn. destruct (cstep sz s e); cbn; [apply IH|done..]. Qed.
  Lemma run_more s m s1 t s2 : crun sz s (replicate m (SStep t)) = Ok s1 -> tstep sz s1 t = Ok s2 -> crun sz s (replicate (S m) (SStep t)) = Ok s2.
  Proof. intros H E. replace (S m) with (m + 1) by lia. rewrite replicate_add, crun_eq, H. cbn. by rewrite E. Qed.

  (** ** The end of a call *)
  Definition values (hs : list (option (xhandle * nat))) : list (option xhandle) := (fun o : option (xhandle * nat) => fst <$> o) <$> hs.
  Definition fresh_var (x : option xhandle) : list (option xhandle) := match x with Some x => [Some x] | None => [] end.
  Lemma fin_gen s s1 t (st : stack) d' g' x o h : idle s t -> cs_t s1 = <[t := st]> (cs_t s) -> cs_out s1 = cs_out s -> safe s1 t ->
    leads sz (cs_d s1, cs_g s1, st) (Ok (d', g', [FV (VFin x o); KEnd h])) ->
    length (cs_h s1) = length (cs_h s) ->
    (forall i y k y' k', cs_h s !! i = Some (Some (y, k)) -> end_borrow (cs_h s1) h !! i = Some (Some (y', k')) -> k' = k) ->
    exists m s', crun sz s1 (replicate m (SStep t)) = Ok s' /\
      result s t (AW d' g' (values (end_borrow (cs_h s1) h) ++ fresh_var x)) (default (RHandle (length (cs_h s))) o) s'.
  Proof.
    intros Hi Et Eo Hs Hl Elen Hk. assert (t < length (cs_t s)) as Hlt by by eapply lookup_lt_Some.
    assert (cs_t s1 !! t = Some st) as Ht1 by (rewrite Et; by apply list_lookup_insert).
    destruct (leads_run _ _ Hl s1 t st eq_refl Ht1 Hs) as (d & g & st' & m & l & [= <- <- <-] & Hr).
    assert (length (end_borrow (cs_h s1) h) = length (cs_h s)) as El.
    { rewrite <- Elen. unfold end_borrow. destruct h as [h|]; [|done]. destruct (cs_h s1 !! h) as [[[y k]|]|]; try done. by rewrite insert_length. }
    eexists (S m), _. split; [eapply run_more; [exact Hr|]|].
    { unfold tstep. cbn [cs_t]. rewrite list_lookup_insert by (rewrite Et, insert_length; done). reflexivity. }
    unfold finish, put_out, set_thread, set_slots. cbn [cs_d cs_g cs_h cs_t cs_out cs_log]. rewrite Et, !list_insert_insert. split_and!.
    - unfold idle. cbn. by apply list_lookup_insert.
    - cbn. by rewrite Eo, El.
    - split.
      + intros t' Hne. cbn. by rewrite list_lookup_insert_ne by done.
      + intros i y k y' k' H1 H2. apply slot_Some in H1, H2. cbn in H2. apply lookup_app_Some in H2 as [H2|[Hge H2]]; [by eapply Hk|].
        apply lookup_lt_Some in H1. lia.
    - unfold world, values. cbn. rewrite fmap_app. f_equal. f_equal. by destruct x.
  Qed.
  Lemma fin_borrow s t (st : stack) h x k d' g' y o : idle s t -> slot s h = Some (x, k) ->
    let s1 := set_thread (borrow s h x k) t st in safe s1 t ->
    leads sz (cs_d s, cs_g s, st) (Ok (d', g', [FV (VFin y o); KEnd (Some h)])) ->
    exists m s', crun sz s1 (replicate m (SStep t)) = Ok s' /\
      result s t (AW d' g' (aw_h (world s) ++ fresh_var y)) (default (RHandle (length (cs_h s))) o) s'.
  Proof.
    intros Hi Hh s1 Hs Hl. apply slot_Some in Hh. assert (h < length (cs_h s)) as Hlt by by eapply lookup_lt_Some.
    assert (end_borrow (cs_h s1) (Some h) = cs_h s) as E.
    { cbn. rewrite list_lookup_insert by done. cbn. rewrite list_insert_insert, ?Nat.sub_0_r. by apply list_insert_id. }
    destruct (fin_gen s s1 t st d' g' y o (Some h) Hi eq_refl eq_refl Hs Hl) as (m & s' & Hr & H).
    - cbn. by rewrite insert_length.
    - rewrite E. intros i y0 k0 y' k' H1 H2. congruence.
    - rewrite E in H. eauto.
  Qed.
  Lemma fin_take s t (st : stack) h x d g d' g' y o : idle s t -> slot s h = Some (x, 0) ->
    let s1 := set_thread (set_world (take s h) d g) t st in safe s1 t ->
    leads sz (d, g, st) (Ok (d', g', [FV (VFin y o); KEnd None])) ->
    exists m s', crun sz s1 (replicate m (SStep t)) = Ok s' /\
      result s t (AW d' g' (<[h := None]> (aw_h (world s)) ++ fresh_var y)) (default (RHandle (length (cs_h s))) o) s'.
  Proof.
    intros Hi Hh s1 Hs Hl. apply slot_Some in Hh. assert (h < length (cs_h s)) as Hlt by by eapply lookup_lt_Some.
    destruct (fin_gen s s1 t st d' g' y o None Hi eq_refl eq_refl Hs Hl) as (m & s' & Hr & H).
    - cbn. by rewrite insert_length.
    - cbn. intros i y0 k0 y' k' H1 H2. destruct (decide (i = h)) as [->|].
      + by rewrite list_lookup_insert in H2.
      + rewrite list_lookup_insert_ne in H2 by done. congruence.
    - exists m, s'. split; [done|]. cbn in H. unfold values in H. by rewrite list_fmap_insert in H.
  Qed.
  Lemma fin_new s t (st : stack) d g d' g' y o : idle s t ->
    let s1 := set_thread (set_world s d g) t st in safe s1 t ->
    leads sz (d, g, st) (Ok (d', g', [FV (VFin y o); KEnd None])) ->
    exists m s', crun sz s1 (replicate m (SStep t)) = Ok s' /\
      result s t (AW d' g' (aw_h (world s) ++ fresh_var y)) (default (RHandle (length (cs_h s))) o) s'.
  Proof.
    intros Hi s1 Hs Hl. apply (fin_gen s s1 t st d' g' y o None Hi eq_refl eq_refl Hs Hl); [done|].
    cbn. intros i y0 k0 y' k' H1 H2. congruence.
  Qed.
  Lemma world_get s h x : cget s h = Some x -> xget (world s) h = Some x.
  Proof.
    unfold cget, slot, xget, world. cbn. rewrite list_lookup_fmap. destruct (cs_h s !! h) as [[[y k]|]|]; cbn; congruence.
  Qed.

  (** ** The schedule stays calm *)
  Lemma ages_of s D T L : GI s D -> DI sz s T L -> ages (cs_d s) (cs_g s).
  Proof.
    intros G I. split.
    - intros x c n side y Hx Hy. destruct (lookup_lt_is_Some_2 L x) as [l Hl].
      { rewrite (di_len _ _ _ _ _ _ (D_inv _ _ _ _ I)). by eapply lookup_lt_Some. }
      by eapply (di_link _ _ _ _ _ _ (D_inv _ _ _ _ I)).
    - intros x m y. apply (gi_meta _ _ _ _ _ (G_inv _ _ G)).
    - intros x c n y Hx Hy. destruct (lookup_lt_is_Some_2 D x) as [z Hz].
      { rewrite (gi_len _ _ _ _ _ (G_inv _ _ G)). by eapply lookup_lt_Some. }
      eapply (gi_par _ _ _ _ _ (G_inv _ _ G)); [|done..]. unfold rc_get. by rewrite Hx.
    - apply (G_len _ _ G).
  Qed.
  Lemma slots_keep s e s' h x k : cstep sz s e = Ok s' -> cs_h s !! h = Some (Some (x, S k)) -> exists k', cs_h s' !! h = Some (Some (x, k')).
  Proof.
    intros Hs Hh. apply cstep_qstep in Hs as [Q|(t & st & d & g & st' & -> & Ht & Hm & ->)]; [by eapply (q_h _ _ Q)|eauto].
  Qed.
  Lemma apart_step s D e s' t : GI s D -> cstep sz s e = Ok s' -> actor e = t -> uncontended s t -> uncontended s' t.
  Proof.
    intros G Hs Ha H t' u Hne.
    assert (forall st, cs_t s' !! t' = Some st -> cs_t s !! t' = Some st) as Hst.
    { intros st Ht. destruct (cstep_heads sz s e s' t' st Hs Ht) as [?|[-> _]]; [done|]. by destruct Hne. }
    destruct (H t' u Hne) as [H1 H2]. split.
    - intros (st & h & w & f & Ht & Hf & Hu & Hl & Hh). apply Hst in Ht. apply H1. exists st, h, w, f. split_and!; try done.
      pose proof (rest_bor s D t' st G Ht h) as Hc. assert (0 < cnt h (stk fB st)) as Hp.
      { apply cnt_pos, stk_elem. exists (KEnd (Some h)). split; [rewrite last_lookup in Hl; by eapply elem_of_list_lookup_2|left]. }
      unfold kof in Hc. destruct (cs_h s !! h) as [[[x [|k]]|]|] eqn:Eh; try lia.
      destruct (slots_keep s e s' h x k Hs Eh) as [k' Hk']. unfold cget, slot in *. rewrite Eh. rewrite Hk' in Hh. done.
    - intros (r & Er & [[k Ht]|(n & a & k & Ht & Hk)]); apply Hst in Ht; apply H2; exists r; (split; [done|]); [left; eauto|right; eauto 10].
  Qed.
  Lemma not_both s D t x u : GI s D -> converting s t x -> ~ upgrading s t u.
  Proof.
    intros G (r & _ & Hc) (st & h & w & f & Ht & _ & _ & Hl & _). destruct (G_run _ _ G t st Ht) as [b Hr].
    destruct Hc as [[k Ht']|(n & a & k & Ht' & _)]; rewrite Ht in Ht'; injection Ht' as ->.
    - inversion Hr as [| | | | | | | |? ? ? Hf0|? ? ? ? Hf0| ? ? ? Hf0| | | | |? ? Hf0|? ? Hf0| |? ? Hf0| |]; subst; try done; try (by destruct Hf0).
    - inversion Hr as [| | | | | | | |? ? ? Hf0|? ? ? ? Hf0| ? ? ? Hf0| | | | |? ? Hf0|? ? Hf0| |? ? Hf0|? ? r' ? Ho Hg|]; subst; try done; try (by destruct Hf0).
      assert (last k = Some (KEnd None)) as Hk.
      { clear -Hg. induction Hg as [|? ? ? ? ? IH]; [done|]. by rewrite last_cons, IH. }
      by rewrite last_cons, Hk in Hl.
  Qed.
  Lemma apart_calm s D t : GI s D -> uncontended s t -> calm s.
  Proof.
    intros G H t1 x t2 u Hc Hu. exfalso. destruct (decide (t1 = t)) as [->|Hn]; [|by destruct (H t1 x Hn)].
    destruct (decide (t2 = t)) as [->|Hn]; [|by destruct (H t2 u Hn)]. by eapply not_both.
  Qed.
  Lemma calm_after n es s t es' : always sz calm n es -> creach sz n es s -> uncontended s t -> Forall (fun e => actor e = t) es' ->
    always sz calm n (es ++ es') /\ forall s', creach sz n (es ++ es') s' -> uncontended s' t.
  Proof.
    intros Hc Hr Ha. induction es' as [|e es' IH] using rev_ind; intros HF.
    - rewrite app_nil_r. split; [done|]. intros s' Hr'. unfold creach in *. rewrite Hr in Hr'. by injection Hr' as <-.
    - apply Forall_app in HF as [HF He]. apply Forall_inv in He. destruct (IH HF) as [IH1 IH2]. rewrite app_assoc.
      assert (forall s', creach sz n ((es ++ es') ++ [e]) s' -> uncontended s' t /\ calm s') as Hs'.
      { intros s' Hr'. pose proof Hr' as Hr2. unfold creach in Hr2. rewrite crun_eq in Hr2. apply bind_inv in Hr2 as (s1 & Hr1 & Hs). cbn in Hs.
        apply bind_inv in Hs as (s2 & Hs & [= <-]). destruct (GI_reach _ _ _ _ Hr1) as [D G]. destruct (GI_reach _ _ _ _ Hr') as [D' G'].
        assert (uncontended s2 t) by (eapply (apart_step s1); [done..|by apply IH2]). split; [done|]. by eapply apart_calm. }
      split; [|intros s' H'; by apply Hs'].
      intros es1 es2 s1 E Hr1. destruct es2 as [|e2 es2 _] using rev_ind.
      + rewrite app_nil_r in E. subst es1. by apply Hs'.
      + rewrite app_assoc in E. apply app_inj_tail in E as [E _]. eapply (IH1 es1 es2); done.
  Qed.
  Lemma solo_safe n es s t o s1 : always sz calm n es -> creach sz n es s -> uncontended s t -> cstart sz s t o = Ok s1 -> safe s1 t.
  Proof.
    intros Hc Hr Ha Hs m. destruct (calm_after n es s t (solo t o m) Hc Hr Ha) as [H _].
    { constructor; [done|]. apply Forall_replicate. done. }
    destruct (calm_inv sz n _ H) as (s2 & _ & _ & _ & Hr2 & _). unfold creach in Hr2, Hr. rewrite crun_eq, Hr in Hr2. cbn in Hr2.
    rewrite Hs in Hr2. cbn in Hr2. eauto.
  Qed.
  Lemma solo_start n es s t o : always sz calm n es -> creach sz n es s -> uncontended s t -> exists s1, cstart sz s t o = Ok s1.
  Proof.
    intros Hc Hr Ha. destruct (calm_after n es s t (solo t o 0) Hc Hr Ha) as [H _]; [constructor; [done|constructor]|].
    destruct (calm_inv sz n _ H) as (s2 & _ & _ & _ & Hr2 & _). unfold creach in Hr2, Hr. rewrite crun_eq, Hr in Hr2. cbn in Hr2.
    apply bind_inv in Hr2 as (s1 & ? & _). eauto.
  Qed.

  (** ** Calls *)
  Lemma world_slot s h x : xget (world s) h = Some x -> exists k, slot s h = Some (x, k).
  Proof.
    unfold slot, xget, world. cbn. rewrite list_lookup_fmap. destruct (cs_h s !! h) as [[[y k]|]|]; cbn; try done. intros [= ->]. eauto.
  Qed.
  Lemma world_none s h : xget (world s) h = None -> slot s h = None.
  Proof. unfold slot, xget, world. cbn. rewrite list_lookup_fmap. by destruct (cs_h s !! h) as [[[y k]|]|]. Qed.
  Lemma world_len s : length (aw_h (world s)) = length (cs_h s).
  Proof. apply fmap_length. Qed.
  Lemma world_moved s h x k : slot s h = Some (x, k) -> <[h := Some x]> (aw_h (world s)) = aw_h (world s).
  Proof.
    intros Hh. apply slot_Some in Hh. apply list_insert_id. unfold world. cbn. by rewrite list_lookup_fmap, Hh.
  Qed.
  Lemma leads_ok {A} s t (st : stack) (f : A -> dworld V * gdworld * stack) m : cs_t s !! t = Some st -> safe s t ->
    leads sz (cs_d s, cs_g s, st) (f <$> m) -> exists a, m = Ok a /\ leads sz (cs_d s, cs_g s, st) (Ok (f a)).
  Proof.
    intros Ht Hs Hl. destruct (leads_run _ _ Hl s t st eq_refl Ht Hs) as (d & g & st' & k & l & E & _).
    destruct m as [a| | |]; try done. exists a. split; [done|exact Hl].
  Qed.
  Lemma solo_run s t o s1 m s' : cstart sz s t o = Ok s1 -> crun sz s1 (replicate m (SStep t)) = Ok s' -> crun sz s (solo t o m) = Ok s'.
  Proof. intros E H. cbn. by rewrite E. Qed.

  Context (vclone : V -> V) (capf growf : N -> N) (dbg : bool).
  Notation astep := (astep sz vclone capf growf dbg).
  Definition outcome s t (o : cop V) (a : res (aworld V * out V)) : Prop :=
    match a with
    | Ok (w, RInvalid) | Ok (w, RPanic) => cstart sz s t o = Ok s
    | Ok (w, RErr) => exists h, takes o = Some h /\ returned sz s t o (moved h w) RErr
    | Ok (w, r) => returned sz s t o w r
    | NoFuel => spins sz s t o
    | UB | Panic => False
    end.

  Section one_call.
    Context n es s t (Hc : always sz calm n es) (Hr : creach sz n es s) (Hi : idle s t).
    Definition okc o : Prop := forall m, always sz calm n (es ++ solo t o m).
    Lemma one_safe o s1 : okc o -> cstart sz s t o = Ok s1 -> safe s1 t.
    Proof.
      intros Ha Hs m. destruct (calm_inv sz n _ (Ha m)) as (s2 & _ & _ & _ & Hr2 & _). unfold creach in Hr2, Hr. rewrite crun_eq, Hr in Hr2. cbn in Hr2.
      rewrite Hs in Hr2. cbn in Hr2. eauto.
    Qed.
    Lemma one_start o : okc o -> exists s1, cstart sz s t o = Ok s1.
    Proof.
      intros Ha. destruct (calm_inv sz n _ (Ha 0)) as (s2 & _ & _ & _ & Hr2 & _). unfold creach in Hr2, Hr. rewrite crun_eq, Hr in Hr2. cbn in Hr2.
      apply bind_inv in Hr2 as (s1 & ? & _). eauto.
    Qed.
    Lemma okc_deref h : okc (CDeref h).
    Proof.
      intros m. assert (forall s1, cstart sz s t (CDeref h) = Ok s1 -> calm s1 /\ idle s1 t) as Hs1.
      { intros s1 E. assert (calm s) as Hs by (apply (Hc es []); [by rewrite app_nil_r|done]).
        revert E. unfold cstart. rewrite (Hi : cs_t s !! t = Some []). destruct (slot s h) as [[[r|x y|q| | |] k]|]; intros E; try (injection E as <-; done).
        - apply bind_inv in E as (c & _ & E). apply bind_inv in E as (vs & _ & [= <-]). done.
        - apply bind_inv in E as (vs & _ & [= <-]). done. }
      assert (forall j s1, calm s1 -> idle s1 t -> crun sz s1 (replicate j (SStep t)) = Ok s1) as Hj.
      { intros j s1 _ H1. induction j as [|j IH]; [done|]. cbn. unfold tstep. by rewrite (H1 : cs_t s1 !! t = Some []). }
      intros es1 es2 s1 E Hr1. apply app_eq_inv in E as [(k & E & ->)|(k & -> & E)].
      - by apply (Hc es1 k).
      - unfold creach in Hr1, Hr. rewrite crun_eq, Hr in Hr1. cbn in Hr1. destruct k as [|e k]; [injection Hr1 as <-; apply (Hc es []); [by rewrite app_nil_r|done]|].
        unfold solo in E. cbn in E. injection E as <- E. cbn in Hr1. apply bind_inv in Hr1 as (s2 & E2 & Hr1). destruct (Hs1 s2 E2) as [H1 H2].
        assert (k = replicate (length k) (SStep t)) as Ek by (apply replicate_as_Forall in E as [_ E]; apply Forall_app in E as [E _]; symmetry; apply replicate_as_Forall; done).
        rewrite Ek, Hj in Hr1 by done. by injection Hr1 as <-.
    Qed.
    Lemma one_inv : exists D T L, WI sz s D T L.
    Proof. destruct (calm_inv sz n es Hc) as (s' & D & T & L & Hr' & W & _). unfold creach in *. rewrite Hr in Hr'. injection Hr' as <-. eauto. Qed.
    Lemma one_ages : ages (cs_d s) (cs_g s).
    Proof. destruct one_inv as (D & T & L & W). eapply (ages_of s D T L); apply W. Qed.
    Lemma one_xok h x k : slot s h = Some (x, k) -> exists D, xok D x.
    Proof. intros Hh. apply slot_Some in Hh. destruct one_inv as (D & T & L & W). exists D. by eapply (G_slot _ _ (W_G _ _ _ _ _ W)). Qed.
    Lemma one_lt : t < length (cs_t s).
    Proof. by eapply lookup_lt_Some. Qed.
    Lemma one_thread s0 st : cs_t s0 = cs_t s -> cs_t (set_thread s0 t st) !! t = Some st.
    Proof. intros E. unfold set_thread. cbn [cs_t]. rewrite E. apply list_lookup_insert, one_lt. Qed.

    Lemma one_borrow o h x k st y (q : option (out V)) d' g' : okc o -> slot s h = Some (x, k) -> cstart sz s t o = Ok (set_thread (borrow s h x k) t st) ->
      leads sz (cs_d s, cs_g s, st) (Ok (d', g', [FV (VFin y q); KEnd (Some h)])) ->
      returned sz s t o (AW d' g' (aw_h (world s) ++ fresh_var y)) (default (RHandle (length (aw_h (world s)))) q).
    Proof.
      intros Ho Hh E Hl. destruct (fin_borrow s t st h x k d' g' y q Hi Hh (one_safe o _ Ho E) Hl) as (m & s' & H1 & H2).
      exists m, s'. split; [by eapply solo_run|]. by rewrite world_len.
    Qed.
    Lemma one_take o h x st y (q : option (out V)) d g d' g' : okc o -> slot s h = Some (x, 0) -> cstart sz s t o = Ok (set_thread (set_world (take s h) d g) t st) ->
      leads sz (d, g, st) (Ok (d', g', [FV (VFin y q); KEnd None])) ->
      returned sz s t o (AW d' g' (<[h := None]> (aw_h (world s)) ++ fresh_var y)) (default (RHandle (length (aw_h (world s)))) q).
    Proof.
      intros Ho Hh E Hl. destruct (fin_take s t st h x d g d' g' y q Hi Hh (one_safe o _ Ho E) Hl) as (m & s' & H1 & H2).
      exists m, s'. split; [by eapply solo_run|]. by rewrite world_len.
    Qed.
    Lemma one_new o st y (q : option (out V)) d g d' g' : okc o -> cstart sz s t o = Ok (set_thread (set_world s d g) t st) ->
      leads sz (d, g, st) (Ok (d', g', [FV (VFin y q); KEnd None])) ->
      returned sz s t o (AW d' g' (aw_h (world s) ++ fresh_var y)) (default (RHandle (length (aw_h (world s)))) q).
    Proof.
      intros Ho E Hl. destruct (fin_new s t st d g d' g' y q Hi (one_safe o _ Ho E) Hl) as (m & s' & H1 & H2).
      exists m, s'. split; [by eapply solo_run|]. by rewrite world_len.
    Qed.
    Lemma take_world h : take s h = set_world (take s h) (cs_d s) (cs_g s).
    Proof. done. Qed.
    Lemma one_spin o h x k y down st : slot s h = Some (x, k) -> cstart sz s t o = Ok (set_thread (borrow s h x k) t (FWait y down :: st)) ->
      gate_wait (cs_g s) y down = NoFuel -> spins sz s t o.
    Proof.
      intros Hh E Hg. unfold gate_wait, rc_val in Hg. destruct (rc_get (gd_guards (cs_g s)) y) as [m|] eqn:Em; [|done]. cbn in Hg.
      destruct (a_gate down m) eqn:Eg; [|done]. set (s1 := set_thread (borrow s h x k) t (FWait y down :: st)) in *.
      assert (cs_t s1 !! t = Some (FWait y down :: st)) as Ht by by apply one_thread.
      exists y, down, s1. split_and!; [by exists m| |].
      - unfold idle. by rewrite Ht.
      - intros j. eapply solo_run; [exact E|]. assert (tstep sz s1 t = Ok s1) as Hs.
        { erewrite tstep_mstep; [|exact Ht|]. 2: { cbn [mstep]. unfold rc_val. cbn. rewrite Em. cbn [mbind res_bind]. rewrite Eg. reflexivity. }
          f_equal. rewrite (list_insert_id (cs_t s1)) by done. change (step_log (FWait y down :: st) (FWait y down :: st)) with (@nil (nat * bool * nat)). rewrite app_nil_r. by subst s1. }
        induction j as [|j IH]; [done|]. cbn. by rewrite Hs.
    Qed.

    Ltac go := unfold cstart; rewrite (Hi : cs_t s !! t = Some []).
    Lemma one_from_vec base vals : okc (CFromVec base vals) -> outcome s t (CFromVec base vals) (astep (world s) (OFromVec base vals)).
    Proof.
      intros Ho. cbn [astep]. destruct (N.of_nat (length vals) <? usize_lim)%N eqn:El.
      2: { cbn [outcome xret]. go. by rewrite El. }
      unfold arc_from_boxed_slice. cbn [aw_d aw_g world fst snd]. destruct (new_block (cs_d s) base vals) as [[d p] len] eqn:Eb.
      destruct (data_from_boxed_slice d p len) as [d1 x] eqn:Ed.
      assert (cstart sz s t (CFromVec base vals) = Ok (set_thread (set_world s d1 (gd_new_data (cs_g s) None)) t [FGuard x; KSlice x; KEnd None])) as Es.
      { go. by rewrite El, Eb, Ed. }
      pose proof (one_safe _ _ Ho Es) as Hs.
      assert (ages d1 (gd_new_data (cs_g s) None)) as Hag.
      { unfold new_block in Eb. injection Eb as <- <- <-. unfold data_from_boxed_slice, data_new in Ed.
        destruct (N.of_nat (length vals) =? 0)%N; cbn in Ed; injection Ed as <- <-;
          (eapply (ages_new (cs_d s)); [apply one_ages|reflexivity|done..]). }
      destruct (leads_ok _ t _ _ _ (one_thread (set_world s d1 (gd_new_data (cs_g s) None)) _ eq_refl) Hs (leads_from sz d1 _ x [KEnd None] Hag)) as ([[d' g'] r] & E & Hl).
      rewrite E. cbn. exact (one_new _ _ _ _ _ _ _ _ Ho Es Hl).
    Qed.
    Lemma one_now d g hs x : length hs = length (cs_h s) ->
      (forall i y k y' k', cs_h s !! i = Some (Some (y, k)) -> hs !! i = Some (Some (y', k')) -> k' = k) ->
      result s t (AW d g (values hs ++ [Some x])) (RHandle (length (cs_h s))) (finish (set_world (set_slots s hs) d g) t None (Some x) None).
    Proof.
      intros El Hk. unfold finish, put_out, set_thread, set_slots. cbn [set_world end_borrow cs_d cs_g cs_h cs_t cs_out cs_log default]. split_and!.
      - unfold idle. cbn. apply list_lookup_insert, one_lt.
      - cbn. by rewrite El.
      - split.
        + intros t' Hne. cbn. by rewrite list_lookup_insert_ne by done.
        + intros i y k y' k' H1 H2. apply slot_Some in H1, H2. cbn in H2. apply lookup_app_Some in H2 as [H2|[Hge H2]]; [by eapply Hk|].
          apply lookup_lt_Some in H1. lia.
      - unfold world, values. cbn. by rewrite fmap_app.
    Qed.
    Lemma one_mut_from_vec base vals : okc (CMutFromVec base vals) -> outcome s t (CMutFromVec base vals) (astep (world s) (OMutFromVec base vals)).
    Proof.
      intros Ho. cbn [astep]. destruct (N.of_nat (length vals) <? usize_lim)%N eqn:El.
      2: { cbn [outcome xret]. go. by rewrite El. }
      unfold arc_mut_from_boxed_slice. cbn [aw_d aw_g world fst snd]. destruct (new_block (cs_d s) base vals) as [[d p] len] eqn:Eb.
      destruct (split_alloc_from_items sz d p len) as [[d1 it] al] eqn:Ed. cbn [outcome xret_new].
      exists 0. eexists. split; [eapply solo_run; [go; rewrite El, Eb, Ed; reflexivity|reflexivity]|].
      rewrite world_len. apply (one_now d1 (cs_g s) (cs_h s)); [done|]. congruence.
    Qed.
    Lemma one_clone h : okc (CClone h) -> outcome s t (CClone h) (astep (world s) (OClone h)).
    Proof.
      intros Ho. cbn [astep]. destruct (xget (world s) h) as [x|] eqn:Ex.
      2: { apply world_none in Ex. cbn [outcome xret]. go. by rewrite Ex. }
      apply world_slot in Ex as [k Hh]. destruct (one_xok h x k Hh) as [D Hx]. destruct x as [r|x y|m| | |]; try done; cbn [aw_d aw_g world].
      - assert (cstart sz s t (CClone h) = Ok (set_thread (borrow s h (XArc r) k) t [FCloneD r; KEnd (Some h)])) as Es by (go; by rewrite Hh).
        pose proof (one_safe _ _ Ho Es) as Hs.
        destruct (leads_ok _ t _ _ _ (one_thread (borrow s h (XArc r) k) _ eq_refl) Hs (leads_clone sz (cs_d s) (cs_g s) r [KEnd (Some h)])) as ([[d' g'] r'] & E & Hl).
        rewrite E. exact (one_borrow _ _ _ _ _ _ _ _ _ Ho Hh Es Hl).
      - assert (cstart sz s t (CClone h) = Ok (set_thread (borrow s h (XWeak x y) k) t [FCloneW x y; KEnd (Some h)])) as Es by (go; by rewrite Hh).
        pose proof (one_safe _ _ Ho Es) as Hs.
        destruct (leads_ok _ t _ _ _ (one_thread (borrow s h (XWeak x y) k) _ eq_refl) Hs (leads_wclone sz (cs_d s) (cs_g s) x y [KEnd (Some h)])) as ([d' g'] & E & Hl).
        rewrite E. exact (one_borrow _ _ _ _ _ _ _ _ _ Ho Hh Es Hl).
      - cbn [outcome xret]. go. by rewrite Hh.
    Qed.
    Lemma one_half side h : okc (CCloneHalf side h) -> outcome s t (CCloneHalf side h) (astep (world s) (OCloneHalf side h)).
    Proof.
      intros Ho. cbn [astep]. destruct (xget (world s) h) as [x|] eqn:Ex.
      2: { apply world_none in Ex. cbn [outcome xret]. go. by rewrite Ex. }
      apply world_slot in Ex as [k Hh]. destruct (one_xok h x k Hh) as [D Hx].
      destruct x as [r|x y|m| | |]; try done; cbn [aw_d aw_g world]; [|cbn [outcome xret]; go; by rewrite Hh..].
      assert (cstart sz s t (CCloneHalf side h) = Ok (set_thread (borrow s h (XArc r) k) t [FWait (ar_guard r) false; FChild (ar_data r) side; KFromData; KEnd (Some h)])) as Es by (go; by rewrite Hh).
      pose proof (one_safe _ _ Ho Es) as Hs.
      change (if side then arc_clone_right sz (cs_d s, cs_g s) r else arc_clone_left sz (cs_d s, cs_g s) r) with (arc_clone_half sz side (cs_d s, cs_g s) r).
      assert (gate_wait (cs_g s) (ar_guard r) false = NoFuel \/ gate_wait (cs_g s) (ar_guard r) false <> NoFuel) as [Eg|Eg] by (destruct (gate_wait _ _ _); auto).
      { replace (arc_clone_half sz side (cs_d s, cs_g s) r) with (@NoFuel (dworld V * gdworld * arcslice)).
           2: { unfold arc_clone_half, arc_clone_left, arc_clone_right. cbn [fst snd]. rewrite Eg. by destruct side. }
           exact (one_spin _ _ _ _ _ _ _ Hh Es Eg). }
      destruct (leads_ok _ t _ _ _ (one_thread (borrow s h (XArc r) k) _ eq_refl) Hs (leads_half sz side (cs_d s) (cs_g s) r [KEnd (Some h)] one_ages Eg)) as ([[d' g'] r'] & E & Hl).
      rewrite E. exact (one_borrow _ _ _ _ _ _ _ _ _ Ho Hh Es Hl).
    Qed.
    Lemma one_downgrade h : okc (CDowngrade h) -> outcome s t (CDowngrade h) (astep (world s) (ODowngrade h)).
    Proof.
      intros Ho. cbn [astep]. destruct (xget (world s) h) as [x|] eqn:Ex.
      2: { apply world_none in Ex. cbn [outcome xret]. go. by rewrite Ex. }
      apply world_slot in Ex as [k Hh]. destruct (one_xok h x k Hh) as [D Hx].
      destruct x as [r|x y|m| | |]; try done; cbn [aw_d aw_g world]; [|cbn [outcome xret]; go; by rewrite Hh..].
      assert (cstart sz s t (CDowngrade h) = Ok (set_thread (borrow s h (XArc r) k) t [FWait (ar_guard r) true; FDown r; KEnd (Some h)])) as Es by (go; by rewrite Hh).
      pose proof (one_safe _ _ Ho Es) as Hs.
      assert (gate_wait (cs_g s) (ar_guard r) true = NoFuel \/ gate_wait (cs_g s) (ar_guard r) true <> NoFuel) as [Eg|Eg] by (destruct (gate_wait _ _ _); auto).
      { replace (arc_downgrade (cs_d s, cs_g s) r) with (@NoFuel (dworld V * gdworld * (option nat * option nat))).
           2: { unfold arc_downgrade. cbn [fst snd]. by rewrite Eg. }
           exact (one_spin _ _ _ _ _ _ _ Hh Es Eg). }
      destruct (leads_ok _ t _ _ _ (one_thread (borrow s h (XArc r) k) _ eq_refl) Hs (leads_down sz (cs_d s) (cs_g s) r [KEnd (Some h)] Eg)) as ([[d' g'] [x y]] & E & Hl).
      rewrite E. exact (one_borrow _ _ _ _ _ _ _ _ _ Ho Hh Es Hl).
    Qed.
    Lemma one_upgrade h : okc (CUpgrade h) -> outcome s t (CUpgrade h) (astep (world s) (OUpgrade h)).
    Proof.
      intros Ho. cbn [astep]. destruct (xget (world s) h) as [x|] eqn:Ex.
      2: { apply world_none in Ex. cbn [outcome xret]. go. by rewrite Ex. }
      apply world_slot in Ex as [k Hh]. destruct (one_xok h x k Hh) as [D Hx].
      destruct x as [r|x y|m| | |]; try done; cbn [aw_d aw_g world]; [cbn [outcome xret]; go; by rewrite Hh| |cbn [outcome xret]; go; by rewrite Hh].
      assert (cstart sz s t (CUpgrade h) = Ok (set_thread (borrow s h (XWeak x y) k) t [FUpgrade x; KEnd (Some h)])) as Es by (go; by rewrite Hh).
      pose proof (one_safe _ _ Ho Es) as Hs.
      destruct (leads_ok _ t _ _ _ (one_thread (borrow s h (XWeak x y) k) _ eq_refl) Hs (leads_upgrade sz (cs_d s) (cs_g s) x [KEnd (Some h)] one_ages)) as ([[d' g'] [r|]] & E & Hl).
      all: rewrite E; cbn [mbind res_bind].
      - exact (one_borrow _ _ _ _ _ _ _ _ _ Ho Hh Es Hl).
      - pose proof (one_borrow _ _ _ _ _ _ _ _ _ Ho Hh Es Hl) as H. cbn [fresh_var] in H. by rewrite app_nil_r in H.
    Qed.
    Lemma one_into h : okc (CIntoMut h) -> may_take s (CIntoMut h) -> outcome s t (CIntoMut h) (astep (world s) (OIntoMut h)).
    Proof.
      intros Ho. intros Hm. cbn [astep]. destruct (xget (world s) h) as [x|] eqn:Ex.
      2: { apply world_none in Ex. cbn [outcome xret]. go. by rewrite Ex. }
      apply world_slot in Ex as [k Hh]. destruct (one_xok h x k Hh) as [D Hx]. pose proof (Hm h x k eq_refl Hh) as ->.
      destruct x as [r|x y|m| | |]; try done; cbn [aw_d aw_g world]; [|cbn [outcome xret]; go; by rewrite Hh..].
      assert (cstart sz s t (CIntoMut h) = Ok (set_thread (set_world (take s h) (cs_d s) (cs_g s)) t [FIm1 r; KEnd None])) as Es by (go; by rewrite Hh).
      pose proof (one_safe _ _ Ho Es) as Hs.
      destruct (leads_ok _ t _ _ _ (one_thread (set_world (take s h) (cs_d s) (cs_g s)) _ eq_refl) Hs (leads_into sz (cs_d s) (cs_g s) r None one_ages)) as ([[d' g'] [m|r']] & E & Hl).
      all: rewrite E; cbn [mbind res_bind].
      - pose proof (one_take _ _ _ _ _ _ _ _ _ _ Ho Hh Es Hl) as H. unfold xret_new. rewrite insert_length. exact H.
      - pose proof (one_take _ _ _ _ _ _ _ _ _ _ Ho Hh Es Hl) as H. exists h. split; [done|]. unfold moved. cbn [aw_d aw_g aw_h fst snd].
        rewrite list_insert_insert, list_lookup_insert; [exact H|]. rewrite world_len. apply slot_Some in Hh. by eapply lookup_lt_Some.
    Qed.
    Lemma one_immut h : okc (CIntoImmut h) -> may_take s (CIntoImmut h) -> outcome s t (CIntoImmut h) (astep (world s) (OIntoImmut h)).
    Proof.
      intros Ho. intros Hm. cbn [astep]. destruct (xget (world s) h) as [x|] eqn:Ex.
      2: { apply world_none in Ex. cbn [outcome xret]. go. by rewrite Ex. }
      apply world_slot in Ex as [k Hh]. destruct (one_xok h x k Hh) as [D Hx]. pose proof (Hm h x k eq_refl Hh) as ->.
      destruct x as [r|x y|m| | |]; try done; cbn [aw_d aw_g world]; [cbn [outcome xret]; go; by rewrite Hh..|].
      unfold arc_mut_into_immut. cbn [fst snd]. destruct (data_new (cs_d s) (si_ptr (ms_items m)) (si_len (ms_items m)) (ms_alloc m)) as [d1 x] eqn:Ed.
      assert (cstart sz s t (CIntoImmut h) = Ok (set_thread (set_world (take s h) d1 (gd_new_data (cs_g s) None)) t [FGuard x; KSlice x; KEnd None])) as Es by (go; by rewrite Hh, Ed).
      pose proof (one_safe _ _ Ho Es) as Hs.
      assert (ages d1 (gd_new_data (cs_g s) None)) as Hag.
      { unfold data_new in Ed. cbn in Ed. injection Ed as <- <-. eapply (ages_new (cs_d s)); [apply one_ages|reflexivity|done..]. }
      destruct (leads_ok _ t _ _ _ (one_thread (set_world (take s h) d1 (gd_new_data (cs_g s) None)) _ eq_refl) Hs (leads_from sz d1 _ x [KEnd None] Hag)) as ([[d' g'] r] & E & Hl).
      rewrite E. pose proof (one_take _ _ _ _ _ _ _ _ _ _ Ho Hh Es Hl) as H. cbn [mbind res_bind]. unfold xret_new. rewrite insert_length. exact H.
    Qed.
    Lemma one_drop h : okc (CDrop h) -> may_take s (CDrop h) -> outcome s t (CDrop h) (astep (world s) (ODrop h)).
    Proof.
      intros Ho. intros Hm. cbn [astep]. destruct (xget (world s) h) as [x|] eqn:Ex.
      2: { apply world_none in Ex. cbn [outcome xret]. go. by rewrite Ex. }
      apply world_slot in Ex as [k Hh]. destruct (one_xok h x k Hh) as [D Hx]. pose proof (Hm h x k eq_refl Hh) as ->.
      assert (forall st d' g', cstart sz s t (CDrop h) = Ok (set_thread (set_world (take s h) (cs_d s) (cs_g s)) t st) ->
        leads sz (cs_d s, cs_g s, st) (Ok (d', g', [FV (VFin None (Some RUnit)); KEnd None])) ->
        outcome s t (CDrop h) (xret (d', g') (<[h := None]> (aw_h (world s))) RUnit)) as Hfin.
      { intros st d' g' Es Hl. pose proof (one_take _ _ _ _ _ _ _ _ _ _ Ho Hh Es Hl) as H. cbn [fresh_var] in H. rewrite app_nil_r in H. exact H. }
      destruct x as [r|x y|m| | |]; try done; cbn [aw_d aw_g world xhandle_drop fst snd].
      - assert (cstart sz s t (CDrop h) = Ok (set_thread (set_world (take s h) (cs_d s) (cs_g s)) t [FRel (ar_data r); FRelG (ar_guard r); FV (VFin None (Some RUnit)); KEnd None])) as Es by (go; by rewrite Hh).
        pose proof (one_safe _ _ Ho Es) as Hs.
        destruct (leads_ok _ t _ _ _ (one_thread (set_world (take s h) (cs_d s) (cs_g s)) _ eq_refl) Hs (leads_drop sz (cs_d s) (cs_g s) r _ one_ages)) as ([d' g'] & E & Hl).
        rewrite E. exact (Hfin _ _ _ Es Hl).
      - assert (cstart sz s t (CDrop h) = Ok (set_thread (set_world (take s h) (cs_d s) (cs_g s)) t [FRelW y; FV (VFin None (Some RUnit)); KEnd None])) as Es by (go; by rewrite Hh).
        pose proof (one_safe _ _ Ho Es) as Hs.
        destruct (leads_ok _ t _ _ _ (one_thread (set_world (take s h) (cs_d s) (cs_g s)) _ eq_refl) Hs (leads_wdrop sz (cs_d s) (cs_g s) y _)) as ([d' g'] & E & Hl).
        rewrite E. exact (Hfin _ _ _ Es Hl).
      - assert (cstart sz s t (CDrop h) = Ok (set_thread (set_world (take s h) (cs_d s) (cs_g s)) t [FItems (N.to_nat (si_len (ms_items m))) (si_ptr (ms_items m)) (ms_alloc m); FV (VFin None (Some RUnit)); KEnd None])) as Es by (go; by rewrite Hh).
        pose proof (one_safe _ _ Ho Es) as Hs.
        destruct (leads_ok _ t _ _ _ (one_thread (set_world (take s h) (cs_d s) (cs_g s)) _ eq_refl) Hs (leads_items sz _ (cs_d s) (cs_g s) _ _ _)) as (d' & E & Hl).
        unfold mut_drop, items_alloc_drop. rewrite E. exact (Hfin _ _ _ Es Hl).
    Qed.
    Lemma one_out r d g : result s t (AW d g (aw_h (world s))) r (put_out (set_world s d g) t r).
    Proof.
      split_and!; [exact Hi|done| |done]. split; [done|]. intros i y k y' k' H1 H2. unfold slot in *. cbn in H2. congruence.
    Qed.
    Lemma one_deref h : okc (CDeref h) -> outcome s t (CDeref h) (astep (world s) (ODeref h)).
    Proof.
      intros Ho. cbn [astep]. destruct (xget (world s) h) as [x|] eqn:Ex.
      2: { apply world_none in Ex. cbn [outcome xret]. go. by rewrite Ex. }
      apply world_slot in Ex as [k Hh]. destruct (one_xok h x k Hh) as [D Hx]. destruct (one_start _ (okc_deref h)) as [s1 Es].
      pose proof Es as Es'. revert Es'. go. rewrite Hh.
      destruct x as [r|x y|m| | |]; try done; cbn [aw_d aw_g world fst snd]; intros Es'.
      - apply bind_inv in Es' as (c & Ec & Es'). apply bind_inv in Es' as (vs & Ev & [= <-]).
        unfold arc_slice. cbn [fst snd]. rewrite Ec. cbn [mbind res_bind]. unfold xret_slice. cbn [fst snd]. rewrite Ev. cbn [mbind res_bind].
        exists 0. eexists. split; [by eapply solo_run|]. exact (one_out _ _ _).
      - cbn [outcome xret]. congruence.
      - apply bind_inv in Es' as (vs & Ev & [= <-]).
        unfold xret_slice. cbn [fst snd]. rewrite Ev. cbn [mbind res_bind]. exists 0. eexists. split; [by eapply solo_run|]. exact (one_out _ _ _).
    Qed.
    Lemma one_replace h i v : okc (CReplace h i v) -> may_take s (CReplace h i v) -> outcome s t (CReplace h i v) (astep (world s) (OReplace h i v)).
    Proof.
      intros Ho. intros Hm. cbn [astep]. destruct (xget (world s) h) as [x|] eqn:Ex.
      2: { apply world_none in Ex. cbn [outcome xret]. go. by rewrite Ex. }
      apply world_slot in Ex as [k Hh]. destruct (one_xok h x k Hh) as [D Hx]. pose proof (Hm h x k eq_refl Hh) as ->.
      destruct (one_start (CReplace h i v) Ho) as [s1 Es]. pose proof Es as Es'. revert Es'. unfold cstart at 1. rewrite (Hi : cs_t s !! t = Some []), Hh.
      destruct x as [r|x y|m| | |]; try done; cbn [aw_d aw_g world fst snd]; intros Es'; [cbn [outcome xret]; congruence..|].
      unfold xret_replace. cbn [fst snd]. destruct (i <? si_len (ms_items m))%N.
      - apply bind_inv in Es' as ([d old] & Ed & [= <-]). rewrite Ed. cbn [mbind res_bind]. exists 0. eexists. split; [by eapply solo_run|]. exact (one_out _ _ _).
      - cbn [outcome xret]. congruence.
    Qed.
    Lemma one_split side h : okc (CMutSplit side h) -> may_take s (CMutSplit side h) -> (forall r k, slot s h <> Some (XArc r, k)) ->
      outcome s t (CMutSplit side h) (astep (world s) (OSplitOff side h)).
    Proof.
      intros Ho. intros Hm Hna. cbn [astep]. destruct (xget (world s) h) as [x|] eqn:Ex.
      2: { apply world_none in Ex. cbn [outcome xret]. go. by rewrite Ex. }
      apply world_slot in Ex as [k Hh]. destruct (one_xok h x k Hh) as [D Hx]. pose proof (Hm h x k eq_refl Hh) as ->.
      destruct (one_start (CMutSplit side h) Ho) as [s1 Es]. pose proof Es as Es'. revert Es'. unfold cstart at 1. rewrite (Hi : cs_t s !! t = Some []), Hh.
      destruct x as [r|x y|m| | |]; try done; cbn [aw_d aw_g world fst snd]; intros Es'; [by destruct (Hna r 0)|cbn [outcome xret]; congruence|].
      apply bind_inv in Es' as ([d [m1 m2]] & Ed & [= <-]). rewrite Ed. cbn [mbind res_bind]. exists 0. eexists. split; [by eapply solo_run|].
      apply slot_Some in Hh. cbn [fst snd]. rewrite insert_length.
      pose proof (one_now d (cs_g s) (<[h := Some (XMut m1, 0)]> (cs_h s)) (XMut m2)) as H. rewrite insert_length in H.
      unfold values in H. rewrite list_fmap_insert in H. rewrite world_len. apply H; [done|].
      intros j y k y' k' H1 H2. destruct (decide (j = h)) as [->|].
      - rewrite list_lookup_insert in H2 by by eapply lookup_lt_Some. congruence.
      - rewrite list_lookup_insert_ne in H2 by done. congruence.
    Qed.

    (** A call that nobody interrupts does what the sequential model says. *)
    Lemma one_call o : okc o -> may_take s o -> (forall h, o <> CGetMut h) -> (forall side h r k, o = CMutSplit side h -> slot s h <> Some (XArc r, k)) ->
      outcome s t o (astep (world s) (same_op o)).
    Proof.
      intros Ho. intros Hm Hg Hna. destruct o; cbn [same_op].
      - by apply one_from_vec.
      - by apply one_mut_from_vec.
      - by apply one_clone.
      - by apply one_half.
      - by destruct (Hg h).
      - by apply one_into.
      - by apply one_immut.
      - by apply one_downgrade.
      - by apply one_upgrade.
      - by apply one_drop.
      - by apply one_deref.
      - apply one_split; [done..|]. intros r k. by eapply Hna.
      - by apply one_replace.
    Qed.

    (** A successful [get_mut] holds the slice until the client gives it up. *)
    Lemma arc_get_mut_inv d g r d' g' o : arc_get_mut (V:=V) (d, g) r = Ok ((d', g'), o) ->
      d' = d /\ forall p len, o = Some (p, len) -> exists c, rc_val (dw_datas d) (ar_data r) = Ok c /\ p = d_ptr c /\ len = d_len c.
    Proof.
      unfold arc_get_mut. cbn [fst snd]. intros H. apply bind_inv in H as ([w ok] & _ & H). destruct ok; cbn [negb] in H.
      2: { injection H as <- <- <-. done. }
      apply bind_inv in H as ([w1 o1] & H1 & H). apply bind_inv in H as (w2 & _ & [= <- <- <-]). split; [done|].
      destruct (gd_weak_count w (ar_guard r) =? 1)%nat; [|by injection H1 as <- <-].
      apply bind_inv in H1 as ([w3 ok] & _ & H1). destruct ok; cbn [negb] in H1; [|by injection H1 as <- <-].
      apply bind_inv in H1 as (o2 & H2 & H1). apply bind_inv in H1 as (w4 & _ & [= <- <-]).
      destruct (rc_count (gd_guards w3) (ar_guard r) =? 1)%nat; [|by injection H2 as <-].
      apply bind_inv in H2 as (c & Hc' & H2). destruct (rc_count (dw_datas d) (ar_data r) =? 1)%nat; injection H2 as <-; [|done].
      intros p len [= <- <-]. eauto.
    Qed.
    Definition mut_outcome h (a : res (aworld V * out V)) : Prop :=
      match a with
      | Ok (w, RInvalid) => cstart sz s t (CGetMut h) = Ok s
      | Ok (w, RNone) => returned sz s t (CGetMut h) (moved h w) RNone
      | Ok (w, RSlice a vs) =>
          exists r m s' s'', cget s h = Some (XArc r) /\ crun sz s (solo t (CGetMut h) m) = Ok s' /\
            holds_mut s' t r /\ cs_out s' = cs_out s /\ others_kept s s' t /\ world s' = AW (aw_d w) (aw_g w) (<[h := None]> (aw_h w)) /\
            cstep sz s' (SEnd t) = Ok s'' /\ result s t (moved h w) (RHandle (length (cs_h s))) s''
      | _ => False
      end.
    Lemma one_get h : okc (CGetMut h) -> may_take s (CGetMut h) -> mut_outcome h (astep (world s) (OGetMut h)).
    Proof.
      intros Ho. intros Hm. cbn [astep]. destruct (xget (world s) h) as [x|] eqn:Ex.
      2: { apply world_none in Ex. cbn [mut_outcome xret]. go. by rewrite Ex. }
      apply world_slot in Ex as [k Hh]. destruct (one_xok h x k Hh) as [D Hx]. pose proof (Hm h x k eq_refl Hh) as ->.
      destruct x as [r|x y|m| | |]; try done; cbn [aw_d aw_g world]; [|cbn [mut_outcome xret]; go; by rewrite Hh..].
      destruct (one_start _ (okc_deref h)) as [s0 Ed]. revert Ed. go. rewrite Hh. intros Ed.
      apply bind_inv in Ed as (c & Ec & Ed). apply bind_inv in Ed as (vs & Ev & _).
      assert (is_Some (rc_get (dw_datas (cs_d s)) (ar_data r))) as Hlive.
      { unfold rc_val in Ec. destruct (rc_get (dw_datas (cs_d s)) (ar_data r)); [eauto|done]. }
      assert (cstart sz s t (CGetMut h) = Ok (set_thread (set_world (take s h) (cs_d s) (cs_g s)) t [FGm1 r; KEnd None])) as Es by (go; by rewrite Hh).
      pose proof (one_safe _ _ Ho Es) as Hs. assert (h < length (cs_h s)) as Hlt by (apply slot_Some in Hh; by eapply lookup_lt_Some).
      assert (<[h := None]> (aw_h (world s)) ++ [Some (XArc r)] = <[h := None]> (aw_h (world s)) ++ [mjoin (aw_h (world s) !! h)]) as Emv.
      { apply slot_Some in Hh. unfold world. cbn. by rewrite list_lookup_fmap, Hh. }
      destruct (leads_ok _ t _ _ _ (one_thread (set_world (take s h) (cs_d s) (cs_g s)) _ eq_refl) Hs (leads_get sz (cs_d s) (cs_g s) r [KEnd None] Hlive)) as ([[d' g'] [[p len]|]] & E & Hl).
      all: destruct (arc_get_mut_inv _ _ _ _ _ _ E) as [-> Hp]; rewrite E; cbn [mbind res_bind].
      2: { pose proof (one_take _ _ _ _ _ _ _ _ _ _ Ho Hh Es Hl) as H. unfold xret. cbn [mut_outcome]. unfold moved. cbn [aw_d aw_g aw_h fst snd].
           rewrite <- Emv. exact H. }
      destruct (Hp p len eq_refl) as (c' & Ec' & -> & ->). rewrite Ec in Ec'. injection Ec' as <-.
      unfold xret_slice. cbn [fst snd]. rewrite Ev. cbn [mbind res_bind]. unfold xret. cbn [mut_outcome fst snd]. exists r. cbn in Hl.
      destruct (leads_run _ _ Hl (set_thread (set_world (take s h) (cs_d s) (cs_g s)) t [FGm1 r; KEnd None]) t _ eq_refl (one_thread (set_world (take s h) (cs_d s) (cs_g s)) _ eq_refl) Hs) as (d & g & st' & m & l & [= <- <- <-] & Hrun).
      assert (forall i y k y' k', cs_h s !! i = Some (Some (y, k)) -> <[h := None]> (cs_h s) !! i = Some (Some (y', k')) -> k' = k) as Hkk.
      { intros i y k y' k' H1 H2. destruct (decide (i = h)) as [->|]; [by rewrite list_lookup_insert in H2|].
        rewrite list_lookup_insert_ne in H2 by done. congruence. }
      eexists (S m), _, _. split; [unfold cget; by rewrite Hh|]. split.
      { eapply solo_run; [exact Es|]. eapply run_more; [exact Hrun|]. unfold tstep. cbn [cs_t].
        rewrite list_lookup_insert by (cbn; rewrite insert_length; apply one_lt). reflexivity. }
      assert (holds_mut (set_thread (CS (cs_d s) g' (cs_h (set_thread (set_world (take s h) (cs_d s) (cs_g s)) t [FGm1 r; KEnd None]))
        (<[t := [FV (VHold r); KEnd None]]> (cs_t (set_thread (set_world (take s h) (cs_d s) (cs_g s)) t [FGm1 r; KEnd None])))
        (cs_out (set_thread (set_world (take s h) (cs_d s) (cs_g s)) t [FGm1 r; KEnd None]))
        (cs_log (set_thread (set_world (take s h) (cs_d s) (cs_g s)) t [FGm1 r; KEnd None]) ++ l)) t [FHold r; KEnd None]) t r) as Hh'.
      { unfold holds_mut, set_thread. cbn [cs_t]. apply list_lookup_insert. rewrite !insert_length. apply one_lt. }
      split_and!; [exact Hh'|done| | | |].
      - split; [intros t' Hne; cbn; by rewrite !list_lookup_insert_ne by done|]. intros i y k y' k' H1 H2. apply slot_Some in H1, H2. cbn in H2. by eapply Hkk.
      - unfold world. cbn. by rewrite list_fmap_insert.
      - cbn [cstep]. unfold hold_end. rewrite (Hh' : _ !! t = _). reflexivity.
      - unfold finish, put_out, set_thread, take, set_slots. cbn [set_world end_borrow cs_d cs_g cs_h cs_t cs_out cs_log default]. rewrite !list_insert_insert, insert_length. split_and!.
        + unfold idle. cbn. apply list_lookup_insert, one_lt.
        + done.
        + split; [intros t' Hne; cbn; by rewrite !list_lookup_insert_ne by done|]. intros i y k y' k' H1 H2. apply slot_Some in H1, H2. cbn in H2.
          apply lookup_app_Some in H2 as [H2|[Hge H2]]; [by eapply Hkk|]. apply lookup_lt_Some in H1. rewrite insert_length in Hge. lia.
        + unfold world, moved. cbn [aw_d aw_g aw_h fst snd]. f_equal. cbn [cs_h]. rewrite fmap_app, list_fmap_insert. exact Emv.
    Qed.
  End one_call.

  (** ** As used in PropAlone.v *)
  Section used.
    Context n es s t o (Hm : forall m, always sz calm n (es ++ solo t o m)) (Hr : creach sz n es s) (Hi : idle s t) (Ht : may_take s o)
      (Hg : forall h, o <> CGetMut h) (Hs : forall side h r, o = CMutSplit side h -> cget s h <> Some (XArc r)).
    Lemma used_calm : always sz calm n es.
    Proof. intros es1 es2 s1 E. apply (Hm 0 es1 (es2 ++ solo t o 0)). by rewrite E, app_assoc. Qed.
    Lemma used_call : outcome s t o (astep (world s) (same_op o)).
    Proof.
      apply (one_call n es s t used_calm Hr Hi o Hm Ht Hg). intros side h r k E Hh. apply (Hs side h r E). unfold cget. by rewrite Hh.
    Qed.
    Lemma call_returns w r : astep (world s) (same_op o) = Ok (w, r) -> r <> RInvalid -> r <> RPanic -> r <> RErr -> returned sz s t o w r.
    Proof. intros E. pose proof used_call as H. rewrite E in H. by destruct r. Qed.
    Lemma call_err w : astep (world s) (same_op o) = Ok (w, RErr) -> exists h, takes o = Some h /\ returned sz s t o (moved h w) RErr.
    Proof. intros E. pose proof used_call as H. by rewrite E in H. Qed.
    Lemma call_rejected w r : astep (world s) (same_op o) = Ok (w, r) -> r = RInvalid \/ r = RPanic -> forall m, crun sz s (solo t o m) = Ok s.
    Proof.
      intros E Er m. pose proof used_call as H. rewrite E in H. assert (cstart sz s t o = Ok s) as H' by by destruct Er as [->| ->].
      eapply solo_run; [done|]. clear -Hi. induction m as [|m IH]; [done|]. cbn. unfold tstep. by rewrite (Hi : cs_t s !! t = Some []).
    Qed.
    Lemma call_waits : astep (world s) (same_op o) = NoFuel -> spins sz s t o.
    Proof. intros E. pose proof used_call as H. by rewrite E in H. Qed.
    Lemma call_total : astep (world s) (same_op o) <> UB /\ astep (world s) (same_op o) <> Panic.
    Proof. pose proof used_call as H. by destruct (astep (world s) (same_op o)). Qed.
  End used.
  Section used_get.
    Context n es s t h (Hm : forall m, always sz calm n (es ++ solo t (CGetMut h) m)) (Hr : creach sz n es s) (Hi : idle s t) (Ht : may_take s (CGetMut h)).
    Lemma get_call : mut_outcome s t h (astep (world s) (OGetMut h)).
    Proof. apply (one_get n es s t (used_calm n es t _ Hm) Hr Hi h Hm Ht). Qed.
    Lemma get_none w : astep (world s) (OGetMut h) = Ok (w, RNone) -> returned sz s t (CGetMut h) (moved h w) RNone.
    Proof. intros E. pose proof get_call as H. by rewrite E in H. Qed.
    Lemma get_some w a vs : astep (world s) (OGetMut h) = Ok (w, RSlice a vs) ->
      exists r m s' s'', cget s h = Some (XArc r) /\ crun sz s (solo t (CGetMut h) m) = Ok s' /\
        holds_mut s' t r /\ cs_out s' = cs_out s /\ others_kept s s' t /\ world s' = AW (aw_d w) (aw_g w) (<[h := None]> (aw_h w)) /\
        cstep sz s' (SEnd t) = Ok s'' /\ result s t (moved h w) (RHandle (length (cs_h s))) s''.
    Proof. intros E. pose proof get_call as H. by rewrite E in H. Qed.
    Lemma get_total : exists w r, astep (world s) (OGetMut h) = Ok (w, r) /\ (r = RNone \/ (exists a vs, r = RSlice a vs) \/ r = RInvalid).
    Proof. pose proof get_call as H. destruct (astep (world s) (OGetMut h)) as [[w r]| | |]; try done. destruct r; try done; eauto 10. Qed.
  End used_get.
  Lemma uncontended_calm n es s t o : always sz calm n es -> creach sz n es s -> uncontended s t -> forall m, always sz calm n (es ++ solo t o m).
  Proof.
    intros Hc Hr Ha m. apply (calm_after n es s t (solo t o m) Hc Hr Ha). constructor; [done|]. by apply Forall_replicate.
  Qed.
End alone.
