(** C36, C40, C41: what the invariants of guards and children say. *)
From Verif Require Import Base BaseLemmas Api SliceItemsModel Spec DataModel RcModel DataInv DataSteps GuardInv ArcModel ArcInv ArcConc ConcInv ConcGuard ConcWorld ConcChild ConcSpec.
Local Open Scope nat_scope.
#[local] Arguments slo {A} F hs : simpl never.
#[local] Arguments thr {V A} F ts : simpl never.

Section theory.
  Context {V : Type} (sz : N).
  Notation stack := (list (frame V)).
  Implicit Types (s : cstate V) (t : nat) (d : dworld V) (es : list (sched (V:=V))).

  Lemma cget_slot s h x : cget s h = Some x -> exists k, cs_h s !! h = Some (Some (x, k)).
  Proof.
    unfold cget, slot. destruct (cs_h s !! h) as [[[y k]|]|]; try done. intros [= ->]. eauto.
  Qed.

  (** ** Guards *)
  Section guards.
    Context s D (I : GI s D).
    Lemma installed_iff x y : installed s x = Some y <-> galive s y /\ D !! y = Some x.
    Proof.
      unfold installed, galive. split.
      - destruct (gd_metas (cs_g s) !! x) as [m|] eqn:Em; [|done].
        destruct (gi_box _ _ _ _ _ (G_inv _ _ I) _ _ Em) as (o & Eo & H1 & H2). rewrite Eo.
        destruct o as [i|]; [|done]. destruct (rc_get _ i) as [n|] eqn:En; [|done]. intros [= <-]. split; [by rewrite En; eauto|auto].
      - intros [[n Hn] Hx]. destruct (lookup_lt_is_Some_2 (gd_metas (cs_g s)) x) as [m Em].
        { by eapply (gi_dom _ _ _ _ _ (G_inv _ _ I)). }
        rewrite Em. destruct (gi_box _ _ _ _ _ (G_inv _ _ I) _ _ Em) as (o & Eo & H1 & H2). rewrite Eo.
        rewrite (H2 _ _ Hn Hx). by rewrite Hn.
    Qed.
    Lemma tot_guard y : y ∈ tot hG fG s -> galive s y.
    Proof.
      intros H. destruct (ginv_ref _ _ _ _ _ (G_inv _ _ I) _ H) as (k & n & x & Hn & _). exists n. by eapply rc_get_live.
    Qed.
    Lemma has_guard_D x y : has_guard s x y -> y ∈ tot hG fG s /\ D !! y = Some x.
    Proof.
      assert (forall t st, cs_t s !! t = Some st -> y ∈ stk fG st -> y ∈ tot hG fG s) as Hth.
      { intros t st Ht Hy. apply elem_of_app. right. apply thr_elem. eauto. }
      intros [(h & Hh)|[(t & Ht)|[(t & k & Ht)|(t & x' & b & k & Ht)]]].
      - apply cget_slot in Hh as [k Hh]. split; [|exact (G_slot _ _ I _ _ _ Hh)].
        apply elem_of_app. left. apply slo_elem. exists h, (XArc (ArcS x y)), k. split; [done|left].
      - destruct Ht as [(o & h & Ht)|Ht]; destruct (G_run _ _ I _ _ Ht) as [b Hb].
        + split; [eapply Hth; [done|left]|]. apply run_val_inv in Hb as (q & [_ Hx] & _). exact (Hx _ eq_refl).
        + split; [eapply Hth; [done|left]|]. inversion Hb; subst; try done;
            try match goal with H : _ \/ _ |- _ => by destruct H end.
      - destruct (G_run _ _ I _ _ Ht) as [b Hb]. split; [eapply Hth; [done|left]|].
        apply run_val_inv in Hb as (q & (x1 & -> & Hx) & Ha). by inversion Ha; subst.
      - destruct (G_run _ _ I _ _ Ht) as [b' Hb]. split; [eapply Hth; [done|left]|].
        apply run_val_inv in Hb as (q & (x1 & -> & Hx) & Ha). by inversion Ha; subst.
    Qed.
  End guards.
  Theorem one_guard n es s y : creach sz n es s -> galive s y ->
    exists x, installed s x = Some y /\ forall x', installed s x' = Some y -> x' = x.
  Proof.
    intros [D I]%GI_reach Hy. destruct (lookup_lt_is_Some_2 D y) as [x Hx].
    { rewrite (gi_len _ _ _ _ _ (G_inv _ _ I)). destruct Hy as [m Hm]. by eapply rc_get_lt. }
    exists x. split; [by apply (installed_iff _ _ I)|]. intros x' [_ H]%(installed_iff _ _ I). congruence.
  Qed.
  Theorem guard_installed n es s x y : creach sz n es s -> has_guard s x y -> installed s x = Some y.
  Proof.
    intros [D I]%GI_reach [H1 H2]%(has_guard_D _ _ I). apply (installed_iff _ _ I). split; [|done]. by eapply tot_guard.
  Qed.
  Theorem guards_agree n es s x y y' : creach sz n es s -> has_guard s x y -> has_guard s x y' -> y = y'.
  Proof. intros Hr H1%(guard_installed _ _ _ _ _ Hr) H2%(guard_installed _ _ _ _ _ Hr). congruence. Qed.

  (** ** Gates *)
  Lemma latches_lcnt s y down : latches s y down = lcnt2 (y, down) (thr fL (cs_t s)).
  Proof.
    unfold latches, lcnt2, thr. induction (cs_t s) as [|st ts IH]; [done|].
    change (mjoin (st :: ts)) with (st ++ mjoin ts). change ((st :: ts) ≫= stk fL) with (stk fL st ++ (ts ≫= stk fL)).
    rewrite !filter_app, !app_length, IH. f_equal. clear IH. induction st as [|f st IH]; [done|].
    rewrite stk_cons, filter_app, app_length, <- IH, filter_cons.
    assert (length (filter (fun z => z = (y, down)) (fL f)) = if is_latch y down f then 1 else 0) as ->.
    { destruct f; try done. cbn [fL is_latch]. rewrite filter_cons, filter_nil. case_decide as E.
      - injection E as -> ->. by rewrite Nat.eqb_refl, eqb_reflx.
      - destruct (Nat.eqb_spec g y) as [->|]; [|done]. destruct (eqb_spec down0 down) as [->|]; done. }
    case_decide as E; [by rewrite E|]. by destruct (is_latch y down f).
  Qed.
  Section gates.
    Context s D (I : GI s D).
    Lemma latch_gate y down : latches s y down =
      match rc_get (gd_guards (cs_g s)) y with Some n => if a_gate down n then 1 else 0 | None => 0 end.
    Proof. rewrite latches_lcnt. apply (gi_gate _ _ _ _ _ (G_inv _ _ I)). Qed.
  End gates.
  Theorem one_latch n es s y down : creach sz n es s -> latches s y down <= 1.
  Proof. intros [D I]%GI_reach. rewrite (latch_gate _ _ I). destruct (rc_get _ _) as [m|]; [destruct (a_gate _ _)|]; lia. Qed.
  Theorem latch_closed n es s y down : creach sz n es s -> latches s y down = 1 <-> gate_closed s y down.
  Proof.
    intros [D I]%GI_reach. rewrite (latch_gate _ _ I). unfold gate_closed. destruct (rc_get _ _) as [m|].
    - destruct (a_gate down m) eqn:E; split; try done; [eauto|intros (? & [= <-] & ?); congruence].
    - split; [done|]. by intros (? & ? & _).
  Qed.
  Lemma a_gate_set down down' b m : a_gate down (a_set_gate down' b m) = if eqb down down' then b else a_gate down m.
  Proof. by destruct down, down'. Qed.
  Lemma creach_snoc n es s e s' : creach sz n es s -> cstep sz s e = Ok s' -> creach sz n (es ++ [e]) s'.
  Proof.
    unfold creach. revert s. generalize (init_cstate (V:=V) n). induction es as [|e' es IH]; intros s0 s; cbn.
    - intros [= ->] ->. done.
    - intros (s1 & -> & H)%bind_inv Hs. cbn. by eapply IH.
  Qed.
  Lemma crun_app s es es' s' : crun sz s (es ++ es') = Ok s' <-> exists s1, crun sz s es = Ok s1 /\ crun sz s1 es' = Ok s'.
  Proof.
    revert s. induction es as [|e es IH]; intros s; cbn.
    - split; [eauto|]. by intros (? & [= ->] & ?).
    - destruct (cstep sz s e); cbn; [apply IH|split; [done|]; by intros (? & ? & _)..].
  Qed.
  (** A guard on which a thread is about to use a gate is alive. *)
  Lemma gate_frame_alive s D t f k y : GI s D -> cs_t s !! t = Some (f :: k) ->
    (exists down, try_closes f = Some (y, down) \/ f = FWait y down) \/ (exists v down k', f = FV v /\ k = FOpen y down :: k') -> galive s y.
  Proof.
    intros I Ht H. apply (tot_guard _ _ I). unfold tot. destruct (G_run _ _ I _ _ Ht) as [b Hb].
    destruct H as [(down & [H|H])|(v & down & k' & -> & ->)].
    - apply elem_of_app. right. apply thr_elem. exists t, (f :: k). split; [done|]. apply elem_of_app. left.
      destruct f; try done; injection H as <- _; left.
    - subst f. apply elem_of_app. left. apply slo_elem.
      assert (exists r h, y = ar_guard r /\ okend (genv_of s D) (Some (XArc r)) h) as (r & h & -> & Ho).
      { inversion Hb; subst; try match goal with H : _ \/ _ |- _ => by destruct H end; try done; eauto. }
      destruct h as [h|]; [|done]. destruct Ho as (x & j & Hh & [= <-]). exists h, (XArc r), j. split; [done|left].
    - apply elem_of_app. right. apply thr_elem. eexists t, _. split; [done|].
      eapply run_latch; [done|]. rewrite stk_cons. apply elem_of_app. right. left.
  Qed.
  Lemma tstep_mstep s t (st : stack) d g st' : cs_t s !! t = Some st -> mstep sz (cs_d s) (cs_g s) st = Ok (d, g, st') ->
    match st with FV _ :: KEnd _ :: _ => False | FHold _ :: _ => False | _ => True end ->
    tstep sz s t = Ok (CS d g (cs_h s) (<[t := st']> (cs_t s)) (cs_out s) (cs_log s ++ step_log st st')).
  Proof.
    intros Ht Hm Hn. destruct (tstep_cases sz s t st Ht) as [(-> & Hc)|[(r & -> & Hc)|[(x & o & h & -> & Hc)|[(r & -> & Hc)|Hc]]]]; try done.
    by rewrite Hc, Hm.
  Qed.
  Lemma thread_new s t (st st' : stack) d g o l : cs_t s !! t = Some st ->
    cs_t (CS d g (cs_h s) (<[t := st']> (cs_t s)) o l) !! t = Some st'.
  Proof. intros Ht. cbn. apply list_lookup_insert. by eapply lookup_lt_Some. Qed.
  Theorem try_close_iff n es s t f k y down : creach sz n es s ->
    cs_t s !! t = Some (f :: k) -> try_closes f = Some (y, down) ->
    exists s', tstep sz s t = Ok s' /\ latches s' y down = 1 /\
      if latches s y down =? 0 then exists f', cs_t s' !! t = Some (f' :: FOpen y down :: k)
      else exists r o, (o = RNone \/ o = RErr) /\ cs_t s' !! t = Some (FV (VFin (Some (XArc r)) (Some o)) :: k).
  Proof.
    intros Hr Ht Hf. pose proof Hr as [D I]%GI_reach.
    assert (exists d g st', mstep sz (cs_d s) (cs_g s) (f :: k) = Ok (d, g, st') /\
      (if latches s y down =? 0 then exists f', st' = f' :: FOpen y down :: k
       else exists r o, (o = RNone \/ o = RErr) /\ st' = FV (VFin (Some (XArc r)) (Some o)) :: k) /\
      (exists m, rc_get (gd_guards g) y = Some m /\ a_gate down m = true)) as (d & g & st' & Hm & Hst & Hg).
    { rewrite (latch_gate _ _ I). destruct (gate_frame_alive s D t f k y I Ht) as [m Hm]; [eauto|]. rewrite Hm.
      pose proof Hm as Hm'. apply rc_get_Some in Hm' as [j Hj].
      assert (gate_try_close (cs_g s) y down = Ok (gd_set_guards (cs_g s) (<[y := Some (j, a_set_gate down true m)]> (gd_guards (cs_g s))), negb (a_gate down m))) as Hc.
      { unfold gate_try_close. rewrite (rc_val_live _ _ _ _ Hj). cbn. unfold rc_set. unfold live in Hj. by rewrite Hj. }
      assert (rc_get (<[y := Some (j, a_set_gate down true m)]> (gd_guards (cs_g s))) y = Some (a_set_gate down true m)) as Hn.
      { eapply rc_get_live. unfold live. apply list_lookup_insert. by eapply rc_get_lt. }
      destruct f; try done; injection Hf as <- <-; cbn [mstep]; rewrite Hc; cbn [mbind res_bind]; destruct (a_gate _ m) eqn:E; cbn;
        (do 3 eexists; split; [reflexivity|]; split; [eauto 10|eexists; split; [exact Hn|reflexivity]]). }
    assert (tstep sz s t = Ok (CS d g (cs_h s) (<[t := st']> (cs_t s)) (cs_out s) (cs_log s ++ step_log (f :: k) st'))) as Hs.
    { eapply tstep_mstep; [done..|]. by destruct f. }
    eexists. split; [exact Hs|]. split.
    - eapply (latch_closed n (es ++ [SStep t])); [by eapply creach_snoc|]. exact Hg.
    - destruct (_ =? 0).
      + destruct Hst as (f' & ->). exists f'. by eapply thread_new.
      + destruct Hst as (r & o & Ho & ->). exists r, o. split; [done|]. by eapply thread_new.
  Qed.
  Theorem latch_drop_opens n es s t v k y down : creach sz n es s ->
    cs_t s !! t = Some (FV v :: FOpen y down :: k) ->
    latches s y down = 1 /\ exists s', tstep sz s t = Ok s' /\ latches s' y down = 0 /\ cs_t s' !! t = Some (FV v :: k).
  Proof.
    intros Hr Ht. pose proof Hr as [D I]%GI_reach.
    assert (exists m, rc_get (gd_guards (cs_g s)) y = Some m /\ a_gate down m = true) as (m & Hm & Eg).
    { destruct (ginv_latch _ _ _ _ _ (G_inv _ _ I) y down) as (j & m & Hj & Hg).
      - apply thr_elem. eexists t, _. split; [done|]. rewrite stk_cons. apply elem_of_app. right. left.
      - exists m. split; [by eapply rc_get_live|done]. }
    split; [by rewrite (latch_gate _ _ I), Hm, Eg|].
    pose proof Hm as [j Hj]%rc_get_Some.
    assert (mstep sz (cs_d s) (cs_g s) (FV v :: FOpen y down :: k) =
      Ok (cs_d s, gd_set_guards (cs_g s) (<[y := Some (j, a_set_gate down false m)]> (gd_guards (cs_g s))), FV v :: k)) as Hs.
    { unfold mstep. assert (gate_open (cs_g s) y down = Ok (gd_set_guards (cs_g s) (<[y := Some (j, a_set_gate down false m)]> (gd_guards (cs_g s))))) as Ho.
      { unfold gate_open, rc_set. unfold live in Hj. by rewrite Hj. }
      by destruct v; rewrite Ho. }
    pose proof (tstep_mstep _ _ _ _ _ _ Ht Hs Logic.I) as Hs'. eexists. split; [exact Hs'|]. split; [|by eapply thread_new].
    pose proof (creach_snoc _ _ _ (SStep t) _ Hr Hs') as [D' I']%GI_reach. rewrite (latch_gate _ _ I'). cbn.
    rewrite (rc_get_live _ _ j (a_set_gate down false m)); [by rewrite a_gate_set, eqb_reflx|].
    unfold live. apply list_lookup_insert. by eapply live_lt.
  Qed.
  Theorem wait_iff n es s t y down k : creach sz n es s -> cs_t s !! t = Some (FWait y down :: k) ->
    exists s', tstep sz s t = Ok s' /\ if latches s y down =? 0 then cs_t s' !! t = Some k else s' = s.
  Proof.
    intros Hr Ht. pose proof Hr as [D I]%GI_reach. destruct (gate_frame_alive s D t _ k y I Ht) as [m Hm]; [eauto|].
    rewrite (latch_gate _ _ I), Hm. pose proof Hm as [j Hj]%rc_get_Some. destruct (a_gate down m) eqn:E; cbn [Nat.eqb].
    - exists s. split; [|done]. erewrite tstep_mstep; [|done| |exact Logic.I].
      2:{ cbn [mstep]. rewrite (rc_val_live _ _ _ _ Hj). cbn [mbind res_bind]. rewrite E. reflexivity. }
      cbn. rewrite app_nil_r, list_insert_id by done. by destruct s.
    - eexists. split; [|by eapply thread_new]. eapply tstep_mstep; [done| |exact Logic.I].
      cbn [mstep]. rewrite (rc_val_live _ _ _ _ Hj). cbn [mbind res_bind]. rewrite E. reflexivity.
  Qed.

  (** ** Halves *)

  (** Where thread [t] is in a call of [clone_left]/[clone_right] on data [x]. *)
  Definition half_frame (f : frame V) x side : Prop :=
    match f with
    | FChild x' side' | FChildInc x' side' _ | FChildAlloc x' side' | FChildCas x' side' _ _
    | FChildLost x' side' _ _ _ | FChildUndo x' side' _ _ _ | FChildUnwrap x' side' _ _ _ => x' = x /\ side' = side
    | _ => False
    end.
  Inductive half_st (x : nat) (side : bool) (h : nat) (log : list (nat * bool * nat)) : stack -> Prop :=
  | HS_wait y : half_st x side h log [FWait y false; FChild x side; KFromData; KEnd (Some h)]
  | HS_child f : half_frame f x side -> half_st x side h log [f; KFromData; KEnd (Some h)]
  | HS_items p a c : (x, side, c) ∈ log -> half_st x side h log [FItems 0 p a; FV (VData c); KFromData; KEnd (Some h)]
  | HS_data c : (x, side, c) ∈ log -> half_st x side h log [FV (VData c); KFromData; KEnd (Some h)]
  | HS_guard pre c : (x, side, c) ∈ log -> half_st x side h log (pre ++ [KSlice c; KEnd (Some h)])
  | HS_fin c y : (x, side, c) ∈ log -> half_st x side h log [FV (VFin (Some (XArc (ArcS c y))) None); KEnd (Some h)]
  | HS_done : half_st x side h log [].
  Lemma half_st_log x side h log log' st : half_st x side h log st -> half_st x side h (log ++ log') st.
  Proof. destruct 1; try (by constructor); constructor; apply elem_of_app; by left. Qed.

  Local Ltac pre_ex := match goal with
    | |- exists pre', ?a :: ?b :: ?c :: ?d :: ?l ++ ?K = pre' ++ ?K => by exists (a :: b :: c :: d :: l)
    | |- exists pre', ?a :: ?b :: ?c :: ?l ++ ?K = pre' ++ ?K => by exists (a :: b :: c :: l)
    | |- exists pre', ?a :: ?b :: ?l ++ ?K = pre' ++ ?K => by exists (a :: b :: l)
    | |- exists pre', ?a :: ?l ++ ?K = pre' ++ ?K => by exists (a :: l)
    | |- exists pre', ?l ++ ?K = pre' ++ ?K => by exists l
    end.
  Lemma mstep_tail d g f (pre : stack) c h d' g' st' :
    mstep sz d g (f :: pre ++ [KSlice c; KEnd h]) = Ok (d', g', st') ->
    (exists pre', st' = pre' ++ [KSlice c; KEnd h]) \/
    exists y, f = FV (VGuard y) /\ pre = [] /\ st' = [FV (VFin (Some (XArc (ArcS c y))) None); KEnd h].
  Proof.
    intros Hs. set (K := [KSlice c; KEnd h]) in *. unfold mstep in Hs. destruct f; try done.
    - left. apply bind_inv in Hs as ([hh r] & Hd & Hs). destruct r as [n|].
      + destruct (node_own sz n) as [p len]. injection Hs as <- <- <-.
        exists ((FRel <$> node_kids n) ++ FItems (N.to_nat len) p (d_alloc n) :: pre). by rewrite <- app_assoc.
      + injection Hs as <- <- <-. pre_ex.
    - left. destruct k as [|j]; [apply bind_inv in Hs as (d1 & _ & [= <- <- <-])|apply bind_inv in Hs as ([d1 v] & _ & [= <- <- <-])]; pre_ex.
    - left. apply bind_inv in Hs as ([hh r] & Hd & Hs). destruct r as [n|]; injection Hs as <- <- <-; [|pre_ex].
      exists (rel_opt (a_parent n) ++ pre). by rewrite <- app_assoc.
    - left. apply bind_inv in Hs as (g1 & _ & [= <- <- <-]). pre_ex.
    - left. apply bind_inv in Hs as (n & _ & Hs). destruct (a_gate down n); injection Hs as <- <- <-; pre_ex.
    - left. apply bind_inv in Hs as (n & _ & Hs). destruct (_ <=? _)%N; [apply bind_inv in Hs as (hh & _ & [= <- <- <-]); pre_ex|].
      destruct (d_child side n); injection Hs as <- <- <-; pre_ex.
    - left. apply bind_inv in Hs as (hh & _ & [= <- <- <-]). pre_ex.
    - left. apply bind_inv in Hs as (n & _ & Hs). destruct (node_sub sz side n) as [p len].
      apply bind_inv in Hs as (d1 & _ & [= <- <- <-]). pre_ex.
    - left. apply bind_inv in Hs as (m & _ & Hs). destruct (d_child side m) as [c'|]; [injection Hs as <- <- <-; pre_ex|].
      apply bind_inv in Hs as (h1 & _ & [= <- <- <-]). pre_ex.
    - left. apply bind_inv in Hs as (hh & _ & [= <- <- <-]). pre_ex.
    - left. destruct k as [|[|j]]; try done. injection Hs as <- <- <-. pre_ex.
    - left. destruct (_ =? 1); [|done]. injection Hs as <- <- <-. pre_ex.
    - left. apply bind_inv in Hs as (n & _ & Hs). destruct (gd_metas g !! d0); [|done]. injection Hs as <- <- <-. pre_ex.
    - left. destruct (gd_boxes g !! b) as [[wk|]|]; try done. destruct (rc_upgrade _ _) as [gs [y|]]; injection Hs as <- <- <-; pre_ex.
    - left. destruct (gd_metas g !! d0); [|done]. destruct (rc_upgrade _ _) as [hh [p|]]; injection Hs as <- <- <-; pre_ex.
    - left. apply bind_inv in Hs as (n & _ & Hs). destruct (gd_metas g !! d0); [|done]. destruct (_ =? _).
      + apply bind_inv in Hs as ([g1 y] & _ & [= <- <- <-]). pre_ex.
      + injection Hs as <- <- <-. pre_ex.
    - left. destruct (gd_boxes g !! b) as [[wk|]|]; try done. destruct (rc_upgrade _ _) as [gs [y|]]; injection Hs as <- <- <-.
      + exists (rel_opt pg ++ FV (VGuard y) :: pre). by rewrite <- app_assoc.
      + exists (rel_opt pg ++ FGuardPar d0 b :: pre). by rewrite <- app_assoc.
    - left. apply bind_inv in Hs as (hh & _ & [= <- <- <-]). pre_ex.
    - left. apply bind_inv in Hs as (hh & _ & [= <- <- <-]). pre_ex.
    - left. apply bind_inv in Hs as (hh & _ & [= <- <- <-]). pre_ex.
    - left. apply bind_inv in Hs as (n & _ & Hs). apply bind_inv in Hs as (hh & _ & [= <- <- <-]). pre_ex.
    - left. destruct (rc_upgrade _ _) as [hh [p|]]; injection Hs as <- <- <-; pre_ex.
    - left. apply bind_inv in Hs as ([g1 ok] & _ & Hs). destruct ok; injection Hs as <- <- <-; pre_ex.
    - left. destruct (_ =? 1); injection Hs as <- <- <-; pre_ex.
    - left. apply bind_inv in Hs as ([g1 ok] & _ & Hs). destruct ok; injection Hs as <- <- <-; pre_ex.
    - left. destruct (_ =? 1); injection Hs as <- <- <-; pre_ex.
    - left. destruct (_ =? 1); injection Hs as <- <- <-; pre_ex.
    - left. apply bind_inv in Hs as ([g1 ok] & _ & Hs). destruct ok; injection Hs as <- <- <-; pre_ex.
    - left. destruct (_ =? 1); injection Hs as <- <- <-; pre_ex.
    - left. destruct pre as [|[] pre]; try done. cbn in Hs. apply bind_inv in Hs as ([hh o] & _ & Hs).
      destruct o; injection Hs as <- <- <-; pre_ex.
    - left. destruct (node_kids n) as [|c0 ks].
      + destruct pre as [|[] pre]; cbn [app] in Hs; try (injection Hs as <- <- <-;
          match goal with |- exists pre', FV ?v :: ?l ++ _ = _ => by exists (FV v :: l) | |- exists pre', FV ?v :: K = _ => by exists [FV v]
            | |- exists pre', FV ?v :: ?f' :: ?l ++ _ = _ => by exists (FV v :: f' :: l) end).
        apply bind_inv in Hs as (d1 & _ & [= <- <- <-]). pre_ex.
      + apply bind_inv in Hs as ([hh o] & _ & Hs). destruct o; injection Hs as <- <- <-; pre_ex.
    - destruct pre as [|f' pre].
      + cbn in Hs. destruct v; try done. right. injection Hs as <- <- <-. eauto.
      + left. cbn in Hs. destruct v; destruct f'; try done;
          (lazymatch type of Hs with Ok _ = _ => injection Hs as <- <- <- | _ => apply bind_inv in Hs as (? & _ & Hs); injection Hs as <- <- <- end); pre_ex.
  Qed.
  Lemma mstep_half d g st d' g' st' x side h log : half_st x side h log st -> mstep sz d g st = Ok (d', g', st') ->
    half_st x side h (log ++ step_log st st') st'.
  Proof.
    intros H Hs. assert (forall l c, (x, side, c) ∈ log -> (x, side, c) ∈ log ++ l) as Hm.
    { intros l c Hc. apply elem_of_app. by left. }
    assert (forall c, (x, side, c) ∈ log ++ [(x, side, c)]) as Hl.
    { intros c. apply elem_of_app. right. left. }
    destruct H as [y|f Hf|p a c Hc|c Hc|pre c Hc|c y Hc|].
    - cbn [mstep] in Hs. apply bind_inv in Hs as (n & _ & Hs). destruct (a_gate false n); injection Hs as <- <- <-; by constructor.
    - destruct f; try done; destruct Hf as [-> ->]; cbn [mstep] in Hs.
      + apply bind_inv in Hs as (n & _ & Hs). destruct (_ <=? _)%N; [apply bind_inv in Hs as (hh & _ & [= <- <- <-]); by apply HS_data, Hl|].
        destruct (d_child side n); injection Hs as <- <- <-; by constructor.
      + apply bind_inv in Hs as (hh & _ & [= <- <- <-]). by apply HS_data, Hl.
      + apply bind_inv in Hs as (n & _ & Hs). destruct (node_sub sz side n) as [p len].
        apply bind_inv in Hs as (d1 & _ & [= <- <- <-]). by constructor.
      + apply bind_inv in Hs as (m & _ & Hs). destruct (d_child side m) as [c'|]; [injection Hs as <- <- <-; by constructor|].
        apply bind_inv in Hs as (h1 & _ & [= <- <- <-]). by apply HS_data, Hl.
      + apply bind_inv in Hs as (hh & _ & [= <- <- <-]). by constructor.
      + destruct k as [|[|j]]; try done. injection Hs as <- <- <-. by constructor.
      + destruct (_ =? 1); [|done]. injection Hs as <- <- <-. by apply HS_items, Hl.
    - cbn [mstep] in Hs. apply bind_inv in Hs as (d1 & _ & [= <- <- <-]). apply HS_data. auto.
    - cbn in Hs. injection Hs as <- <- <-. apply (HS_guard _ _ _ _ [FGuard c]). auto.
    - destruct pre as [|f pre]; [done|]. cbn [app] in Hs |- *. destruct (mstep_tail _ _ _ _ _ _ _ _ _ Hs) as [(pre' & ->)|(y & -> & -> & ->)].
      + apply HS_guard. auto.
      + apply HS_fin. auto.
    - done.
    - done.
  Qed.
  (** What others do does not touch a thread's stack. *)
  Definition sched_thread (e : sched (V:=V)) : nat := match e with SStart t _ | SStep t | SWrite t _ _ | SEnd t => t end.
  Lemma cstart_thread s t o s' : cstart sz s t o = Ok s' -> cs_t s' = cs_t s \/ exists st', cs_t s' = <[t := st']> (cs_t s).
  Proof.
    intros Hs. unfold cstart in Hs. destruct (cs_t s !! t) as [[|f st]|]; [|injection Hs as <-; by left..].
    destruct o as [base vals|base vals|h|side h|h|h|h|h|h|h|h|side h|h i v].
    - destruct (_ <? _)%N; [|injection Hs as <-; by left]. destruct (new_block _ _ _) as [[d p] len].
      destruct (data_from_boxed_slice _ _ _) as [d2 n]. injection Hs as <-. right. by eexists.
    - destruct (_ <? _)%N; [|injection Hs as <-; by left]. destruct (new_block _ _ _) as [[d p] len].
      destruct (split_alloc_from_items _ _ _ _) as [[d2 it] al]. injection Hs as <-. right. by eexists.
    - destruct (slot s h) as [[[r|d g| | | |] k]|]; injection Hs as <-; try (by left); right; by eexists.
    - destruct (slot s h) as [[[r|d g| | | |] k]|]; injection Hs as <-; try (by left); right; by eexists.
    - destruct (slot s h) as [[[r|d g| | | |] [|k]]|]; injection Hs as <-; try (by left); right; by eexists.
    - destruct (slot s h) as [[[r|d g| | | |] [|k]]|]; injection Hs as <-; try (by left); right; by eexists.
    - destruct (slot s h) as [[[r|d g| |m| |] [|k]]|]; try (injection Hs as <-; by left).
      cbn in Hs. injection Hs as <-. right. by eexists.
    - destruct (slot s h) as [[[r|d g| | | |] k]|]; injection Hs as <-; try (by left); right; by eexists.
    - destruct (slot s h) as [[[r|d g| | | |] k]|]; injection Hs as <-; try (by left); right; by eexists.
    - destruct (slot s h) as [[[r|d g| |m| |] [|k]]|]; injection Hs as <-; try (by left); right; by eexists.
    - destruct (slot s h) as [[[r|d g| |m| |] k]|]; try (injection Hs as <-; by left).
      + apply bind_inv in Hs as (n & _ & Hs). apply bind_inv in Hs as (vs & _ & [= <-]). by left.
      + apply bind_inv in Hs as (vs & _ & [= <-]). by left.
    - destruct (slot s h) as [[[r|d g| |m| |] [|k]]|]; try (injection Hs as <-; by left).
      apply bind_inv in Hs as ([d [m1 m2]] & Hd & [= <-]). right. by eexists.
    - destruct (slot s h) as [[[r|d g| |m| |] [|k]]|]; try (injection Hs as <-; by left).
      destruct (_ <? _)%N; [|injection Hs as <-; by left]. apply bind_inv in Hs as ([d old] & Hd & [= <-]). by left.
  Qed.
  Lemma tstep_log s t s' : tstep sz s t = Ok s' -> exists st, cs_t s !! t = Some st /\
    (exists st', cs_t s' !! t = Some st' /\ cs_t s' = <[t := st']> (cs_t s) /\
      ((exists d g, mstep sz (cs_d s) (cs_g s) st = Ok (d, g, st') /\ s' = CS d g (cs_h s) (<[t := st']> (cs_t s)) (cs_out s) (cs_log s ++ step_log st st')) \/
       (st' = [] /\ exists x o h, st = [FV (VFin x o); KEnd h] /\ s' = finish s t h x o) \/
       (exists r, st = [FV (VHold r); KEnd None] /\ st' = [FHold r; KEnd None] /\ s' = set_thread s t st'))) \/
    s' = s.
  Proof.
    intros Hs. destruct (cs_t s !! t) as [st|] eqn:Ht.
    2:{ unfold tstep in Hs. rewrite Ht in Hs. injection Hs as <-. exists []. by right. }
    exists st. destruct (tstep_cases sz s t st Ht) as [(-> & Hc)|[(r & -> & Hc)|[(x & o & h & -> & Hc)|[(r & -> & Hc)|Hc]]]];
      rewrite Hc in Hs; clear Hc.
    - injection Hs as <-. by right.
    - injection Hs as <-. by right.
    - injection Hs as <-. left. split; [done|]. exists []. split_and!; [|done|right; left; eauto 10].
      cbn. apply list_lookup_insert. by eapply lookup_lt_Some.
    - injection Hs as <-. left. split; [done|]. eexists. split_and!; [|done|right; right; eauto 10].
      cbn. apply list_lookup_insert. by eapply lookup_lt_Some.
    - apply bind_inv in Hs as ([[d g] st'] & Hm & [= <-]). left. split; [done|]. exists st'. split_and!; [|done|left; eauto 10].
      cbn. apply list_lookup_insert. by eapply lookup_lt_Some.
  Qed.
  Lemma cstep_thread s e s' : cstep sz s e = Ok s' ->
    cs_t s' = cs_t s \/ exists st', cs_t s' = <[sched_thread e := st']> (cs_t s).
  Proof.
    intros Hs. destruct e as [t o|t|t i v|t]; cbn in Hs.
    - by eapply cstart_thread.
    - apply tstep_log in Hs as (st & [(_ & st' & _ & Et & _)|Es]); [right; eauto|left; by rewrite Es].
    - left. unfold hold_write in Hs. destruct (cs_t s !! t) as [[|[] [|[] [|]]]|]; try (by injection Hs as <-);
        try (by destruct h; injection Hs as <-).
      destruct h; [by injection Hs as <-|]. apply bind_inv in Hs as (n & _ & Hs). destruct (_ <? _)%N; [|by injection Hs as <-].
      by apply bind_inv in Hs as ([d old] & _ & [= <-]).
    - unfold hold_end in Hs. destruct (cs_t s !! t) as [[|[] [|[] [|]]]|]; try (injection Hs as <-; by left);
        try (destruct h; injection Hs as <-; by left).
      destruct h; injection Hs as <-; [by left|]. right. by eexists.
  Qed.
  Lemma cstep_other s e s' t : cstep sz s e = Ok s' -> sched_thread e <> t -> cs_t s' !! t = cs_t s !! t.
  Proof.
    intros [->|[st' ->]]%cstep_thread Hne; [done|]. by rewrite list_lookup_insert_ne.
  Qed.
  Lemma cstep_log s e s' : cstep sz s e = Ok s' -> exists l, cs_log s' = cs_log s ++ l.
  Proof.
    intros [(_ & -> & _)|(t & st & d & g & st' & -> & Ht & Hm & ->)]%cstep_quiet; [exists []; by rewrite app_nil_r|by eexists].
  Qed.
  Lemma crun_log s es s' : crun sz s es = Ok s' -> exists l, cs_log s' = cs_log s ++ l.
  Proof.
    revert s. induction es as [|e es IH]; intros s; cbn; [intros [= <-]; exists []; by rewrite app_nil_r|].
    intros (s1 & [l1 H1]%cstep_log & [l2 H2]%IH)%bind_inv. exists (l1 ++ l2). by rewrite H2, H1, app_assoc.
  Qed.
  Lemma half_run s es s' t x side h : crun sz s es = Ok s' -> Forall (fun e => ~ starts t e) es ->
    (exists st, cs_t s !! t = Some st /\ half_st x side h (cs_log s) st) ->
    exists st, cs_t s' !! t = Some st /\ half_st x side h (cs_log s') st.
  Proof.
    revert s. induction es as [|e es IH]; intros s; cbn; [by intros [= <-]|].
    intros (s1 & Hs & Hr)%bind_inv Hf (st & Ht & Hst). apply Forall_cons in Hf as [He Hf]. apply (IH s1); [done..|].
    destruct (decide (sched_thread e = t)) as [<-|Hne].
    2:{ exists st. rewrite (cstep_other _ _ _ _ Hs Hne). split; [done|].
        destruct (cstep_log _ _ _ Hs) as [l ->]. by apply half_st_log. }
    destruct e as [t o|t|t i v|t]; cbn in Hs, He, Ht |- *.
    - exfalso. apply He. by exists o.
    - apply tstep_log in Hs as (st0 & [(E0 & st' & Et & _ & Hc)|Es]).
      2:{ subst s1. eauto. }
      rewrite Ht in E0. injection E0 as <-. exists st'. split; [done|].
      destruct Hc as [(d & g & Hm & ->)|[(-> & _)|(r & -> & -> & ->)]].
      + cbn. by eapply mstep_half.
      + by constructor.
      + exfalso. inversion Hst as [| | |? ?|pre ? ? Hp|? ? ?|]; subst; try done. destruct pre as [|? [|? [|? ?]]]; by inversion Hp.
    - assert (s1 = s) as ->; [|eauto]. unfold hold_write in Hs. rewrite Ht in Hs. destruct st as [|[] [|[] [|]]]; try (by injection Hs as <-);
        try (by destruct h0; injection Hs as <-). exfalso. inversion Hst as [|? Hf0| |? ?|pre ? ? Hp|? ? ?|]; subst; try done. destruct pre as [|? [|? [|? ?]]]; by inversion Hp.
    - assert (s1 = s) as ->; [|eauto]. unfold hold_end in Hs. rewrite Ht in Hs. destruct st as [|[] [|[] [|]]]; try (by injection Hs as <-);
        try (by destruct h0; injection Hs as <-). exfalso. inversion Hst as [|? Hf0| |? ?|pre ? ? Hp|? ? ?|]; subst; try done. destruct pre as [|? [|? [|? ?]]]; by inversion Hp.
  Qed.
  Lemma halved_log n es s t x side c : creach sz n es s -> halved sz n es t x side c -> (x, side, c) ∈ cs_log s.
  Proof.
    intros Hr (es1 & h & es2 & es3 & s1 & s2 & r & y & o & -> & H1 & Hi & Hh & <- & Hf & H2 & Ht).
    assert (crun sz s2 es3 = Ok s) as H3.
    { unfold creach in Hr, H2. rewrite app_comm_cons, app_assoc in Hr. apply crun_app in Hr as (s2' & H2' & H3). congruence. }
    destruct (crun_log _ _ _ H3) as [l ->]. apply elem_of_app. left.
    unfold creach in H2. apply crun_app in H2 as (s1' & H1' & H2). assert (s1' = s1) as -> by (unfold creach in H1; congruence).
    cbn in H2. apply bind_inv in H2 as (s3 & Hs & H2).
    destruct (half_run _ _ _ t (ar_data r) side h H2 Hf) as (st & Ht' & Hst).
    - unfold cstart in Hs. unfold idle in Hi. rewrite Hi in Hs. unfold cget in Hh. destruct (slot s1 h) as [[x k]|]; [|done]. injection Hh as ->.
      injection Hs as <-. cbn. rewrite list_lookup_insert by by eapply lookup_lt_Some. eexists. split; [done|]. constructor.
    - rewrite Ht in Ht'. injection Ht' as <-. inversion Hst as [|? Hf0| |? ?|pre ? ? Hp|? ? ?|]; subst; try done.
      destruct pre as [|? [|? [|? ?]]]; by inversion Hp.
  Qed.
  Theorem halves_agree n es s t t' x side c c' : creach sz n es s ->
    halved sz n es t x side c -> halved sz n es t' x side c' -> c = c'.
  Proof.
    intros Hr H1%(halved_log _ _ _ _ _ _ _ Hr) H2%(halved_log _ _ _ _ _ _ _ Hr). pose proof (CI_reach _ _ _ _ Hr) as I.
    eapply (ci_agree _ _ I); apply elem_of_app; left; done.
  Qed.
  Lemma node_sub_half side n : Rng (p_blk (fst (node_sub sz side n))) (p_idx (fst (node_sub sz side n))) (snd (node_sub sz side n)) = half side (nrng n).
  Proof.
    destruct side; cbn; unfold shr1; cbn; [|by rewrite N.div2_div]. rewrite N.div2_div. by destruct (sz =? 0)%N.
  Qed.
  Lemma small_half side n : small side n = true -> half side (nrng n) = nrng n.
  Proof.
    unfold small. intros H%N.leb_le. destruct side; unfold half, nrng; cbn in *.
    - rewrite N.div_small by lia. by rewrite N.add_0_r, N.sub_0_r.
    - assert (d_len n = 0%N) as -> by lia. done.
  Qed.
  Theorem halves_geometry n es s t x side c rx rc : creach sz n es s -> halved sz n es t x side c ->
    data_rng s x = Some rx -> data_rng s c = Some rc -> rc = half side rx.
  Proof.
    intros Hr Hh Hx Hc. pose proof (CI_reach _ _ _ _ Hr) as I. pose proof (halved_log _ _ _ _ _ _ _ Hr Hh) as Hl.
    unfold data_rng in *. destruct (rc_get _ x) as [nx|] eqn:Ex; [|done]. destruct (rc_get _ c) as [nc|] eqn:Ec; [|done].
    injection Hx as <-. injection Hc as <-. pose proof (ci_ok _ _ I (x, side, c)) as Ho. cbn in Ho.
    specialize (Ho ltac:(apply elem_of_app; by left) _ Ex). destruct (small side nx) eqn:Es.
    - subst c. rewrite Ex in Ec. injection Ec as <-. symmetry. by apply small_half.
    - destruct (ci_kid _ _ I _ _ _ _ Ex Ho) as [_ Hk]. destruct (Hk _ Ec) as [Hg _].
      change (nrng nc = half side (nrng nx)). rewrite <- node_sub_half, <- Hg. done.
  Qed.
  (** Children are where the fields of the parent say. *)
  Theorem half_linked n es s t x side c : creach sz n es s -> halved sz n es t x side c ->
    forall nx, rc_get (dw_datas (cs_d s)) x = Some nx -> if (d_len nx <=? if side then 1 else 0)%N then c = x else d_child side nx = Some c.
  Proof.
    intros Hr Hh nx Hx. pose proof (CI_reach _ _ _ _ Hr) as I. pose proof (halved_log _ _ _ _ _ _ _ Hr Hh) as Hl.
    exact (ci_ok _ _ I (x, side, c) ltac:(apply elem_of_app; by left) _ Hx).
  Qed.
  Lemma alloc_release_mem d a d' : alloc_release sz d a = Ok d' -> dw_mem d' = dw_mem d /\
    omap (fun e => match e with EDrop b i _ => Some (b, i) | EFree _ _ _ => None end) (dw_trace d') =
    omap (fun e => match e with EDrop b i _ => Some (b, i) | EFree _ _ _ => None end) (dw_trace d).
  Proof.
    unfold alloc_release. destruct a as [a|]; [|by intros [= <-]].
    intros ([h r] & _ & H)%bind_inv. destruct r as [v|]; [|by injection H as <-]. unfold salloc_drop in H.
    destruct (_ || _)%N; [by injection H as <-|]. cbn in H. destruct (dw_blocks d !! _); [|done].
    destruct (_ || _); [done|]. injection H as <-. cbn. rewrite omap_app. cbn. by rewrite app_nil_r.
  Qed.
  Lemma alloc_clone_mem d a d' : alloc_clone d a = Ok d' -> dw_mem d' = dw_mem d /\ dw_trace d' = dw_trace d.
  Proof. unfold alloc_clone. destruct a as [a|]; [|by intros [= <-]]. by intros (h & _ & [= <-])%bind_inv. Qed.
  Theorem clone_child_quiet s t x side s' : in_clone_child s t x side -> tstep sz s t = Ok s' ->
    dw_mem (cs_d s') = dw_mem (cs_d s) /\ cdropped s' = cdropped s /\ cs_h s' = cs_h s.
  Proof.
    intros (f & k & Ht & Hf) Hs. apply tstep_log in Hs as (st & [(E0 & st' & _ & _ & Hc)|Es]); [|by subst].
    rewrite Ht in E0. injection E0 as <-. destruct Hc as [(d & g & Hm & ->)|[(_ & ? & ? & ? & [= -> ->] & _)|(r & [= -> ->] & _)]]; try done.
    unfold cdropped. cbn. destruct f; try done; cbn [mstep] in Hm.
    - destruct k0; [|done]. apply bind_inv in Hm as (d1 & Hd & [= <- <- <-]).
      destruct (alloc_release_mem _ _ _ Hd) as [H1 H2]. done.
    - apply bind_inv in Hm as (n & _ & Hs). destruct (_ <=? _)%N; [by apply bind_inv in Hs as (hh & _ & [= <- <- <-])|].
      destruct (d_child _ n); by injection Hs as <- <- <-.
    - by apply bind_inv in Hm as (hh & _ & [= <- <- <-]).
    - apply bind_inv in Hm as (n & _ & Hs). destruct (node_sub _ _ n) as [p len].
      apply bind_inv in Hs as (d1 & Hd & [= <- <- <-]). destruct (alloc_clone_mem _ _ _ Hd) as [-> ->]. done.
    - apply bind_inv in Hm as (m & _ & Hs). destruct (d_child _ m) as [c'|]; [by injection Hs as <- <- <-|].
      by apply bind_inv in Hs as (h1 & _ & [= <- <- <-]).
    - by apply bind_inv in Hm as (hh & _ & [= <- <- <-]).
    - destruct k0 as [|[|j]]; try done. by injection Hm as <- <- <-.
    - destruct (_ =? 1); [|done]. by injection Hm as <- <- <-.
  Qed.
End theory.
