(** Stale loads preserve the invariants of layer 6. *)
From Verif Require Import Base BaseLemmas Api SliceItemsModel Spec DataModel RcModel DataInv DataSteps GuardInv ArcModel ArcInv ArcConc ConcInv ConcGuard ConcWorld ConcChild ConcData ConcSafe ConcSpec ConcTheory ConcConserve ConcTree ConcConserve ConcShare OrderModel WeakModel.
Local Open Scope nat_scope.

Section stale.
  Context {V : Type} (sz : N).
  Notation stack := (list (frame V)).
  Implicit Types (s : cstate V) (t : nat) (d : dworld V) (g : gdworld).

  (** What a load may lead to; [B x b]: box [b] is or was that of data [x]. *)
  Inductive stale d (B : nat -> nat -> Prop) : stack -> stack -> Prop :=
  | S_stay y down k : stale d B (FWait y down :: k) (FWait y down :: k)
  | S_wait y down k : stale d B (FWait y down :: k) k
  | S_child x side n k : rc_get (dw_datas d) x = Some n -> small side n = false -> stale d B (FChild x side :: k) (FChildAlloc x side :: k)
  | S_inc x side n c k : rc_get (dw_datas d) x = Some n -> small side n = false -> d_child side n = Some c ->
      stale d B (FChild x side :: k) (FChildInc x side c :: k)
  | S_guard x b k : B x b -> stale d B (FGuard x :: k) (FGuardUp x b :: k)
  | S_gm2 r k : stale d B (FGm2 r :: k) (FGm3 r :: k)
  | S_gm4 r k : stale d B (FGm4 r :: k) (FGm5 r :: k)
  | S_gm5 r k : stale d B (FGm5 r :: k) (FV (VHold r) :: k)
  | S_none f r k : f = FGm2 r \/ f = FGm4 r \/ f = FGm5 r -> stale d B (f :: k) (FV (VFin (Some (XArc r)) (Some RNone)) :: k)
  | S_im2 r k : stale d B (FIm2 r :: k) (FIm3 r :: k)
  | S_err r k : stale d B (FIm2 r :: k) (FV (VFin (Some (XArc r)) (Some RErr)) :: k).

  Lemma stale_res d (B : nat -> nat -> Prop) (st st' : stack) : stale d B st st' ->
    stk fG st' = stk fG st /\ stk fW st' = stk fW st /\ stk fL st' = stk fL st /\ stk fB st' = stk fB st /\
    stk fR st' = stk fR st /\ stk fO st' = stk fO st.
  Proof. intros []; try done. naive_solver. Qed.

  Ltac inv_run Hr := inversion Hr; subst; repeat match goal with
    | H : _ \/ _ |- _ => destruct H; simplify_eq
    | H : chframe _ _ |- _ => cbn in H; try done; subst
    | H : gframe _ _ _ |- _ => cbn in H; try done; subst
    end.
  Lemma stale_run E d (B : nat -> nat -> Prop) b (st st' : stack) : (forall x y, B x y -> bok E x y) -> run E b st -> stale d B st st' -> run E b st'.
  Proof.
    intros HB Hr Hs. destruct Hs as [y down k|y down k|x side n k Hn Hsm|x side n c k Hn Hsm Hc|x bx k HBx|r k|r k|r k|f r k Hf|r k|r k]; try done.
    - inv_run Hr; [by constructor|by constructor].
    - inv_run Hr. by constructor.
    - inv_run Hr. by constructor.
    - inv_run Hr. eapply R_guard; [|done]. cbn. eauto.
    - inv_run Hr. constructor; [by right|done].
    - inv_run Hr. constructor; [by right|done].
    - inv_run Hr. econstructor; [|repeat constructor]. by cbn.
    - assert (forall q, q = QF \/ q = QR r -> rok (ge_D E) r -> vok E (VFin (V:=V) (Some (XArc r)) (Some RNone)) q) as Hv.
      { intros q Hq Hk. cbn. split; [naive_solver|]. by intros y [= <-]. }
      destruct Hf as [->|[->| ->]]; inv_run Hr; (econstructor; [apply Hv; [by right|done]|repeat constructor]).
    - inv_run Hr. constructor; [by right|done].
    - inv_run Hr. econstructor; [|apply A_open, A_endr]. cbn. split; [by right; eauto|]. by intros y [= <-].
  Qed.
  Lemma GI_stale s D t (st st' : stack) (B : nat -> nat -> Prop) : GI s D -> cs_t s !! t = Some st -> (forall x b, B x b -> bok (genv_of s D) x b) ->
    stale (cs_d s) B st st' -> GI (set_thread s t st') D.
  Proof.
    intros I Ht HB Hs. destruct (stale_res _ _ _ _ Hs) as (E1 & E2 & E3 & E4 & _).
    destruct (G_run _ _ I _ _ Ht) as [b Hr].
    eapply (rest_back s D t st I Ht (set_thread s t st') D st'); cbn.
    - done.
    - pose proof (rest_inv s D t st I Ht) as H. unfold rG, rW, rL in H. rewrite E1, E2, E3.
      eapply ginv_perm; [..|exact H]; solve_Permutation.
    - apply I.
    - apply gstab_refl.
    - exists b. by eapply stale_run.
    - eauto.
    - apply I.
    - intros h. rewrite E4. exact (rest_bor s D t st I Ht h).
  Qed.
  Lemma DI_stale s T L t (st st' : stack) (B : nat -> nat -> Prop) : DI sz s T L -> cs_t s !! t = Some st -> stale (cs_d s) B st st' -> DI sz (set_thread s t st') T L.
  Proof.
    intros I Ht Hs. destruct (stale_res _ _ _ _ Hs) as (_ & _ & _ & _ & E1 & E2).
    eapply (rest_dback sz s T L t st I Ht (set_thread s t st') T L st'); cbn.
    - done.
    - pose proof (rest_dinv sz s T L t st I Ht) as H. unfold rR, rO in H. rewrite E1, E2.
      eapply dinv_perm; [..|exact H]; solve_Permutation.
    - apply dext_refl.
    - done.
    - done.
    - pose proof (D_run _ _ _ _ I _ _ Ht) as Hd. destruct Hs; cbn in *; naive_solver.
    - apply I.
  Qed.
  Lemma thr_new {A} (F : frame V -> list A) s t (st st' : stack) x : cs_t s !! t = Some st ->
    x ∈ thr F (<[t := st']> (cs_t s)) -> x ∈ thr F (cs_t s) \/ x ∈ stk F st'.
  Proof.
    intros Ht (t' & st1 & Ht' & Hx)%thr_elem. destruct (decide (t' = t)) as [->|Hne].
    - rewrite list_lookup_insert in Ht' by (by eapply lookup_lt_Some). injection Ht' as <-. by right.
    - rewrite list_lookup_insert_ne in Ht' by done. left. apply thr_elem. eauto.
  Qed.
  Lemma thr_old {A} (F : frame V -> list A) s t (st : stack) x : cs_t s !! t = Some st -> x ∈ stk F st -> x ∈ thr F (cs_t s).
  Proof. intros Ht Hx. apply thr_elem. eauto. Qed.
  Lemma CI_stale s t (st st' : stack) (B : nat -> nat -> Prop) : CI sz s -> cs_t s !! t = Some st -> stale (cs_d s) B st st' -> CI sz (set_thread s t st').
  Proof.
    intros I Ht Hs.
    assert (forall x side c, (x, side, c) ∈ claims (set_thread s t st') -> (x, side, c) ∈ claims s \/
      exists n, rc_get (dw_datas (cs_d s)) x = Some n /\ small side n = false /\ d_child side n = Some c) as HC.
    { intros x side c. unfold claims. cbn. rewrite !elem_of_app. intros [Hx|Hx]; [by left; left|].
      destruct (thr_new fC s t _ _ _ Ht Hx) as [Hx0|Hx0]; clear Hx; rename Hx0 into Hx; [by left; right|].
      destruct Hs; cbn in Hx; try (left; right; by eapply (thr_old fC); [exact Ht|]).
      - apply elem_of_cons in Hx as [[= -> -> ->]|Hx]; [right; eauto|]. left. right. by eapply (thr_old fC); [exact Ht|].
      - left. right. eapply (thr_old fC); [exact Ht|]. naive_solver. }
    assert (forall cl, cl ∈ claims (set_thread s t st') -> holds (dw_datas (cs_d s)) cl) as HH.
    { intros [[x side] c] Hx. apply HC in Hx as [Hx|(n & Hn & Hsm & Hc)]; [by apply (ci_ok _ _ I)|]. intros n' Hn'. rewrite Hn in Hn'. injection Hn' as <-. by rewrite Hsm. }
    constructor; cbn.
    - intros x side c Hx. apply HC in Hx as [Hx|(n & Hn & _)]; [by eapply (ci_lt _ _ I)|by eapply rc_get_lt].
    - exact HH.
    - intros x side c c' Hx Hx'. pose proof (HC _ _ _ Hx) as [H1|(n & Hn & Hsm & Hc)]; pose proof (HC _ _ _ Hx') as [H2|(n' & Hn' & Hsm' & Hc')].
      + by eapply (ci_agree _ _ I).
      + pose proof (HH _ Hx _ Hn') as H. rewrite Hsm' in H. congruence.
      + pose proof (HH _ Hx' _ Hn) as H. rewrite Hsm in H. congruence.
      + congruence.
    - intros x side Hx. destruct (thr_new fP s t _ _ _ Ht Hx) as [Hx0|Hx0]; clear Hx; rename Hx0 into Hx; [by apply (ci_pend _ _ I)|].
      destruct Hs; cbn in Hx; try (apply (ci_pend _ _ I); by eapply (thr_old fP); [exact Ht|]).
      + apply elem_of_cons in Hx as [[= -> ->]|Hx]; [|apply (ci_pend _ _ I); by eapply (thr_old fP); [exact Ht|]].
        split; [by eapply rc_get_lt|]. intros n' Hn'. congruence.
      + apply (ci_pend _ _ I). eapply (thr_old fP); [exact Ht|]. naive_solver.
    - intros x side n' Hx. destruct (thr_new fN s t _ _ _ Ht Hx) as [Hx0|Hx0]; clear Hx; rename Hx0 into Hx; [by apply (ci_new _ _ I)|].
      destruct Hs; cbn in Hx; try (apply (ci_new _ _ I); by eapply (thr_old fN); [exact Ht|]).
      apply (ci_new _ _ I). eapply (thr_old fN); [exact Ht|]. naive_solver.
    - apply I.
  Qed.
  Lemma frames_stale (P : frame V -> Prop) s t (st st' : stack) (B : nat -> nat -> Prop) : Forall (Forall P) (cs_t s) -> cs_t s !! t = Some st ->
    (Forall P st -> stale (cs_d s) B st st' -> Forall P st') -> stale (cs_d s) B st st' -> Forall (Forall P) (cs_t (set_thread s t st')).
  Proof. intros HF Ht HP Hs. cbn. apply Forall_insert; [done|]. apply HP; [|done]. by eapply Forall_lookup_1 in HF. Qed.
  Lemma plain_stale d (B : nat -> nat -> Prop) (st st' : stack) : Forall plain st -> stale d B st st' -> Forall plain st'.
  Proof. intros HF Hs. destruct Hs; try done; apply Forall_cons in HF as [_ HF]; try (by constructor); done. Qed.
  Lemma noim_stale d (B : nat -> nat -> Prop) (st st' : stack) : Forall noim st -> stale d B st st' -> Forall noim st'.
  Proof. intros HF Hs. destruct Hs; try done; apply Forall_cons in HF as [? HF]; try (by constructor); done. Qed.
  Lemma KI_stale s t (st st' : stack) (B : nat -> nat -> Prop) : KI s -> cs_t s !! t = Some st -> stale (cs_d s) B st st' -> KI (set_thread s t st').
  Proof.
    intros K Ht Hs. constructor; try apply K. eapply frames_stale; [apply K|done|apply plain_stale|done].
  Qed.
End stale.

(** ** The past *)
Section past.
  Context {V : Type} (sz : N).
  Notation stack := (list (frame V)).
  Implicit Types (s : cstate V) (t : nat) (d : dworld V) (g : gdworld) (o : wstate V).

  (** What was in the memory is not too far from what is there now: boxes are
      not freed and their contents do not change; children stay. *)
  Record past s (D : list nat) d g : Prop := {
    past_box : forall x m, gd_metas g !! x = Some m -> bok (genv_of s D) x (am_box m);
    past_kid : forall x n side c, rc_get (dw_datas d) x = Some n -> d_child side n = Some c ->
      x < length (dw_datas (cs_d s)) /\ forall n', rc_get (dw_datas (cs_d s)) x = Some n' -> d_child side n' = Some c
  }.
  Lemma past_now s D : GI s D -> past s D (cs_d s) (cs_g s).
  Proof.
    intros I. split.
    - intros x m Hm. destruct (gi_box _ _ _ _ _ (G_inv _ _ I) _ _ Hm) as (b & Hb & HD & _). exists b. done.
    - intros x n side c Hn Hc. split; [by eapply rc_get_lt|]. intros n' Hn'. congruence.
  Qed.
  Lemma cstep_stab s D e s' : GI s D -> cstep sz s e = Ok s' ->
    exists X, GI s' (D ++ X) /\ forall b q, gd_boxes (cs_g s) !! b = Some q -> gd_boxes (cs_g s') !! b = Some q.
  Proof.
    intros I Hs. destruct (cstep_qstep _ _ _ _ Hs) as [Q|(t & st & d & g & st' & -> & Ht & Hm & ->)].
    - destruct (GI_cstep _ _ _ _ _ I Hs) as [X I']. exists X. split; [done|]. intros b q Hb.
      destruct (q_d _ _ Q) as [[_ E]|(k & n & _ & _ & _ & E)]; rewrite E; [done|]. cbn. by apply lookup_app_l_Some.
    - destruct (GI_mstep sz s D t st d g st' (cs_out s) (cs_log s ++ step_log st st') I Ht Hm) as (X & I' & Hg & _).
      exists X. split; [done|]. apply Hg.
  Qed.
  Lemma bok_grow s s' D X x b : (forall b q, gd_boxes (cs_g s) !! b = Some q -> gd_boxes (cs_g s') !! b = Some q) ->
    bok (genv_of s D) x b -> bok (genv_of s' (D ++ X)) x b.
  Proof.
    intros Hb (o & Ho & HD). exists o. split; [by apply Hb|]. intros i Hi. cbn. apply lookup_app_l_Some. by apply HD.
  Qed.
  Lemma kids_stay s e s' x side c : cstep sz s e = Ok s' -> x < length (dw_datas (cs_d s)) ->
    (forall n, rc_get (dw_datas (cs_d s)) x = Some n -> d_child side n = Some c) ->
    forall n, rc_get (dw_datas (cs_d s')) x = Some n -> d_child side n = Some c.
  Proof.
    intros Hs Hx Hk n Hn. apply cstep_quiet in Hs as [([E|(k & m & E & _)] & _)|(t & st & d & g & st' & -> & Ht & Hm & ->)].
    - rewrite E in Hn. eauto.
    - rewrite E in Hn. unfold rc_get in Hn. rewrite lookup_app_l in Hn by done. by apply Hk.
    - cbn in Hn. apply mstep_nodes in Hm as [[_ Hkeep]|(y & side' & k' & n' & k & j & m & -> & Hy & Hno & E & _)].
      + by apply Hk, Hkeep.
      + rewrite E in Hn. destruct (decide (x = y)) as [->|Hne].
        * pose proof (Hk _ (rc_get_live _ _ _ _ Hy)) as Hc. unfold rc_get in Hn. rewrite list_lookup_insert in Hn by (rewrite app_length; lia).
          injection Hn as <-. destruct side, side'; cbn in *; congruence.
        * unfold rc_get in Hn. rewrite list_lookup_insert_ne, lookup_app_l in Hn by done. by apply Hk.
  Qed.
  Lemma past_step s D X e s' d g : cstep sz s e = Ok s' ->
    (forall b q, gd_boxes (cs_g s) !! b = Some q -> gd_boxes (cs_g s') !! b = Some q) -> past s D d g -> past s' (D ++ X) d g.
  Proof.
    intros Hs Hb [H1 H2]. split.
    - intros x m Hm. eapply bok_grow; [exact Hb|by apply H1].
    - intros x n side c Hn Hc. destruct (H2 _ _ _ _ Hn Hc) as [Hx Hk]. split; [|by eapply kids_stay].
      pose proof (cstep_grow _ _ _ _ Hs). lia.
  Qed.

  Record WI o (D : list nat) : Prop := {
    W_g : GI (ws_s o) D;
    W_c : CI sz (ws_s o);
    W_k : KI (ws_s o);
    W_old : Forall (fun q => past (ws_s o) D q.1.1 q.1.2) (ws_old o)
  }.
  Lemma memory_past o D j : WI o D -> past (ws_s o) D (memory o j).1.1 (memory o j).1.2.
  Proof.
    intros I. unfold memory. destruct (ws_old o !! j) as [q|] eqn:E; cbn; [|by apply past_now, I].
    by eapply (Forall_lookup_1 _ _ _ _ (W_old _ _ I)) in E.
  Qed.
  Lemma loaded_stale o D st l j v st' : WI o D -> loads (cs_d (ws_s o)) st = Some l -> value o j l = Some v -> loaded st v = Some st' ->
    stale (cs_d (ws_s o)) (bok (genv_of (ws_s o) D)) st st'.
  Proof.
    intros I Hl Hv Hst. pose proof (memory_past o D j I) as [Pb Pk]. unfold value in Hv. destruct st as [|f k]; [done|].
    destruct f; try done; cbn in Hl.
    - injection Hl as <-. destruct v; [done| |done]. injection Hst as <-. destruct b; constructor.
    - destruct (rc_get (dw_datas (cs_d (ws_s o))) d) as [n|] eqn:En; [|done]. destruct (_ <=? _)%N eqn:Esm; [done|]. injection Hl as <-. cbn in Hv.
      destruct v as [| |[c|]]; try done; injection Hst as <-.
      + destruct (dw_datas (memory o j).1.1 !! d) as [[[k0 m]|]|] eqn:Em; try done. injection Hv as Hc.
        destruct (Pk d m side c) as [_ Hk]; [by rewrite (rc_get_live _ _ k0 m)|done|]. eapply S_inc; [done|done|by apply Hk].
      + by eapply S_child.
    - injection Hl as <-. cbn in Hv. apply fmap_Some in Hv as (m & Hm & ->). injection Hst as <-. constructor. by apply Pb.
    - injection Hl as <-. destruct v; try done. injection Hst as <-. destruct (_ =? 1); constructor. by left.
    - injection Hl as <-. destruct v; try done. injection Hst as <-. destruct (_ =? 1); constructor. by right; left.
    - injection Hl as <-. destruct v; try done. injection Hst as <-. destruct (_ =? 1); constructor. by right; right.
    - injection Hl as <-. destruct v; try done. injection Hst as <-. destruct (_ =? 1); constructor.
  Qed.

  (** What an event does to the machine. *)
  Inductive wcase o : wsched V -> wstate V -> Prop :=
  | W_now e s' o' : cstep sz (ws_s o) e = Ok s' -> ws_s o' = s' -> (exists q, ws_old o' = ws_old o ++ [(cs_d (ws_s o), cs_g (ws_s o), q)]) -> wcase o (WNow e) o'
  | W_nil t j : wcase o (WOld t j) o
  | W_stale t j l v st st' o' : (exists s', cstep sz (ws_s o) (SStep t) = Ok s') -> cs_t (ws_s o) !! t = Some st -> loads (cs_d (ws_s o)) st = Some l -> value o j l = Some v ->
      loaded st v = Some st' -> visible o (ws_thr o t) l j -> ws_s o' = set_thread (ws_s o) t st' ->
      (exists q, ws_old o' = ws_old o ++ [(cs_d (ws_s o), cs_g (ws_s o), q)]) -> wcase o (WOld t j) o'.
  Lemma wstep_cases acq o e o' : wstep sz acq o e = Ok o' -> wcase o e o'.
  Proof.
    destruct e as [e|t j]; unfold wstep; intros H.
    - apply bind_inv in H as (s' & Hs & [= <-]). econstructor; [done|done|]. cbn. eauto.
    - destruct (cs_t (ws_s o) !! t) as [st|] eqn:Ht; [|injection H as <-; constructor].
      unfold next_load in H. rewrite Ht in H. cbn in H. destruct (loads _ st) as [l|] eqn:El; [|injection H as <-; constructor].
      apply bind_inv in H as (s' & Hs & H). case_decide; [|injection H as <-; constructor]. destruct (value o j l) as [v|] eqn:Ev; [|injection H as <-; constructor].
      destruct (loaded st v) as [st'|] eqn:Es; [|injection H as <-; constructor].
      injection H as <-. econstructor; [by eexists|done..|]. cbn. eauto.
  Qed.
  Lemma WI_init n : WI (init_wstate n) [].
  Proof. split; [apply GI_init|apply CI_init|apply KI_init|constructor]. Qed.
  Lemma WI_step acq o D e o' : WI o D -> wstep sz acq o e = Ok o' -> exists X, WI o' (D ++ X).
  Proof.
    intros I Hs. apply wstep_cases in Hs. destruct Hs as [e s' o' Hs <- [q Eo]|t j|t j l v st st' o' _ Ht Hl Hv Hst _ Es [q Eo]].
    - destruct (cstep_stab _ _ _ _ (W_g _ _ I) Hs) as (X & I' & Hb). exists X. split; [done|..].
      + eapply CI_cstep; [apply I|done].
      + eapply KI_cstep; [apply I|done].
      + rewrite Eo. apply Forall_app. split.
        * eapply Forall_impl; [apply I|]. intros r Hr. by eapply past_step.
        * constructor; [|constructor]. eapply past_step; [exact Hs|exact Hb|apply past_now, I].
    - exists []. by rewrite app_nil_r.
    - exists []. rewrite app_nil_r. pose proof (loaded_stale _ _ _ _ _ _ _ I Hl Hv Hst) as Hstale.
      assert (forall d g, past (ws_s o) D d g -> past (set_thread (ws_s o) t st') D d g) as Hp. { intros d g [H1 H2]. by split. }
      split; rewrite ?Es.
      + eapply GI_stale; [apply I|done| |exact Hstale]. done.
      + eapply CI_stale; [apply I|done|exact Hstale].
      + eapply KI_stale; [apply I|done|exact Hstale].
      + rewrite Eo. apply Forall_app. split.
        * eapply Forall_impl; [apply I|]. intros r Hr. by apply Hp.
        * constructor; [|constructor]. apply Hp, past_now, I.
  Qed.
End past.
