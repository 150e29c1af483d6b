(** Programs that clone no halves, and do not downgrade or do not upgrade, with
    stale loads: if [get_mut] reads the count of the guard as 1, it is 1. *)
From Verif Require Import Base BaseLemmas Api SliceItemsModel Spec SliceItemsProof DataModel RcModel DataInv DataSteps GuardInv ArcModel ArcInv ArcConc ConcInv ConcGuard ConcWorld ConcChild ConcData ConcSafe ConcSpec ConcTheory ConcTree ConcConserve ConcShare ConcItem ConcCov OrderModel OrderInv OrderSteps PubModel PubCount PubEvents WeakModel WeakInv WeakTheory.
Local Open Scope nat_scope.
#[local] Arguments slo {A} F hs : simpl never.
#[local] Arguments thr {V A} F ts : simpl never.

Section clones.
  Context {V : Type} (sz : N) (acq : bool) (wk : bool).
  Notation stack := (list (frame V)).
  Implicit Types (s : cstate V) (e : sched (V:=V)) (st : stack) (o : wstate V) (w : holder) (g : gdworld).
  Notation grefs := (OrderInv.hold fG hG).

  (** ** What there is in such programs *)
  Definition nowk (x : xhandle) : Prop := match x with XWeak _ _ => wk = true | _ => True end.
  Definition cl (f : frame V) : Prop :=
    match f with
    | FRel _ | FItems _ _ _ | FRelG _ | FGuard _ | FGuardUp _ _ | FGuardPar _ _ | KSlice _ | FCloneD _ | FCloneG _
    | FGm1 _ | FGm2 _ | FGm3 _ | FGm4 _ | FGm5 _ | FIm1 _ | FIm2 _ | FIm3 _ | FOpen _ _ | KImG _ | FHold _ | KEnd _ => True
    | FRelW _ | FCloneW _ _ | FDown _ | FWait _ true => wk = true
    | FGuardCas _ _ pg | FGuardLost _ _ pg => pg = None
    | FFg n _ => nokid n
    | FV (VGuard _) | FV (VHold _) | FV (VFin None _) => True
    | FV (VFin (Some x) _) => nowk x
    | _ => False
    end.
  Definition nopar g : Prop := forall x m, gd_metas g !! x = Some m -> am_parent m = None.
  Record CL s : Prop := {
    cl_t : Forall (Forall cl) (cs_t s);
    cl_h : forall h x k, cs_h s !! h = Some (Some (x, k)) -> nowk x;
    cl_g : nopar (cs_g s);
    cl_d : heap_nk (dw_datas (cs_d s))
  }.
  Definition gval g (y : nat) : option lval := match gd_guards g !! y with Some (Some (k, _)) => Some (LCount k) | _ => None end.
  Lemma gval_peek (d : dworld V) g y : peek d g (LGuard y) = gval g y. Proof. done. Qed.
  Lemma rc_set_gval g i f gs y : rc_set (gd_guards g) i f = Ok gs -> gval (gd_set_guards g gs) y = gval g y /\ length gs = length (gd_guards g).
  Proof.
    unfold rc_set, gval. destruct (gd_guards g !! i) as [[[k n]|]|] eqn:E; try done. intros [= <-]. rewrite insert_length. split; [|done]. cbn.
    destruct (decide (y = i)) as [->|N]; [by rewrite list_lookup_insert, E by (by eapply lookup_lt_Some)|by rewrite list_lookup_insert_ne].
  Qed.
  Lemma gate_close g y down g' ok : gate_try_close g y down = Ok (g', ok) -> gd_metas g' = gd_metas g /\ (forall i, gval g' i = gval g i) /\ length (gd_guards g') = length (gd_guards g).
  Proof.
    unfold gate_try_close. intros H. apply bind_inv in H as (n & _ & H). apply bind_inv in H as (gs & Hs & [= <- <-]).
    split; [done|]. split; [intros i; by eapply rc_set_gval|]. by eapply (rc_set_gval _ _ _ _ 0).
  Qed.
  Lemma gate_reopen g y down g' : gate_open g y down = Ok g' -> gd_metas g' = gd_metas g /\ (forall i, gval g' i = gval g i) /\ length (gd_guards g') = length (gd_guards g).
  Proof.
    unfold gate_open. intros H. apply bind_inv in H as (gs & Hs & [= <-]).
    split; [done|]. split; [intros i; by eapply rc_set_gval|]. by eapply (rc_set_gval _ _ _ _ 0).
  Qed.
  Lemma cl_rel (l : list nat) (k : stack) : Forall cl k -> Forall cl ((FRel <$> l) ++ k).
  Proof. intros Hk. apply Forall_app. split; [|done]. by apply Forall_fmap, Forall_true. Qed.
  Lemma cl_relopt (l : option nat) (k : stack) : Forall cl k -> Forall cl (rel_opt l ++ k).
  Proof. intros Hk. apply Forall_app. split; [|done]. destruct l; by repeat constructor. Qed.
  Lemma weak_inc_same g (y : option nat) g' : gd_weak_inc g y = Ok g' -> gd_metas g' = gd_metas g /\ gd_guards g' = gd_guards g.
  Proof. unfold gd_weak_inc. intros H. repeat (case_match; try done); by injection H as <-. Qed.
  Lemma weak_dec_same g (y : option nat) g' : gd_weak_dec g y = Ok g' -> gd_metas g' = gd_metas g /\ gd_guards g' = gd_guards g.
  Proof. unfold gd_weak_dec. intros H. repeat (case_match; try done); by injection H as <-. Qed.
  Lemma mstep_cl (d : dworld V) g st d' g' st' : mstep sz d g st = Ok (d', g', st') -> Forall cl st -> heap_nk (dw_datas d) -> nopar g ->
    Forall cl st' /\ nopar g'.
  Proof.
    intros H HF Hh Hp. destruct st as [|f k]; [done|]. pose proof (Forall_inv HF) as Hf. pose proof (Forall_inv_tail HF) as Hk. clear HF.
    destruct f; try done; try match goal with H0 : cl (FWait _ ?dn) |- _ => destruct dn; [|done] end; cbn [mstep] in H.
    all: repeat (first
      [ match type of H with mbind _ _ = Ok _ => let x := fresh "x" in let Hx := fresh "Hx" in apply bind_inv in H as (x & Hx & H) end
      | match type of H with Ok _ = Ok _ => fail 1 | _ => idtac end; case_match; try done ]).
    all: subst; try (injection H as <- <- <-); try done.
    all: try (match goal with H : Forall _ (_ :: _) |- _ => apply Forall_cons in H as [? ?] end).
    all: try done.
    all: try match goal with E : gd_weak_inc _ _ = Ok _ |- _ => split; [by repeat constructor|intros x9 m9 Hm9; rewrite (proj1 (weak_inc_same _ _ _ E)) in Hm9; by eauto] end.
    all: try match goal with E : gd_weak_dec _ _ = Ok _ |- _ => split; [done|intros x9 m9 Hm9; rewrite (proj1 (weak_dec_same _ _ _ E)) in Hm9; by eauto] end.
    all: try (split; [repeat (first [apply cl_rel | apply cl_relopt | apply Forall_cons; split | done])|
      try done; try (intros x0 m0 Hm0; first [rewrite (proj1 (gate_close _ _ _ _ _ Hx)) in Hm0 | rewrite (proj1 (gate_reopen _ _ _ _ Hx)) in Hm0]; by eauto)]).
    - by rewrite (Hp _ _ H0) in H1.
    - unfold gd_new_guard in Hx0. cbn in Hx0. rewrite H0 in Hx0. case_match; [|done]. injection Hx0 as <- <-. intros y m Hm. cbn in Hm.
      apply list_lookup_insert_Some in Hm as [(-> & <- & _)|[_ Hm]]; [cbn|]; by eapply Hp.
    - cbn. apply Hh with (ar_data r). unfold rc_try_unwrap in Hx. unfold rc_get. destruct (dw_datas d !! ar_data r) as [[[c n]|]|]; try done.
      repeat (case_match; try done); by injection Hx as <- <-.
    - by cbn in Hf; unfold nokid in Hf; congruence.
    - by cbn in Hf; unfold nokid in Hf; congruence.
    - by cbn in Hf; unfold nokid in Hf; congruence.
    - match goal with E : gate_open _ _ _ = Ok _ |- _ => intros x1 m1 Hm1; rewrite (proj1 (gate_reopen _ _ _ _ E)) in Hm1; by eauto end.
  Qed.
  Definition clop (op : cop V) : Prop := (forall side h, op <> CCloneHalf side h) /\ if wk then forall h, op <> CUpgrade h else forall h, op <> CDowngrade h.
  Lemma clop_wk op : clop op -> (wk = true \/ forall h, op <> CDowngrade h) /\ (wk = true -> forall h, op <> CUpgrade h).
  Proof. intros [_ H]. revert H. case wk; auto. Qed.
  Lemma cstart_cl s t op s' : clop op -> CL s -> cstart sz s t op = Ok s' ->
    (cs_t s' = cs_t s \/ exists st', cs_t s' = <[t := st']> (cs_t s) /\ Forall cl st') /\
    (forall h x k, cs_h s' !! h = Some (Some (x, k)) -> nowk x) /\ nopar (cs_g s').
  Proof.
    intros [H1 H2] [Ht Hv Hg _] Hs. unfold cstart in Hs. destruct (cs_t s !! t) as [[|f st]|] eqn:Et; [|injection Hs as <-; by auto..].
    assert (forall h x k, slot s h = Some (x, k) -> nowk x) as Hsl.
    { intros h x k. unfold slot. destruct (cs_h s !! h) as [[p|]|] eqn:E; try done. intros [= ->]. by eapply Hv. }
    assert (forall h y j, nowk y -> forall h' x k, <[h := Some (y, j)]> (cs_h s) !! h' = Some (Some (x, k)) -> nowk x) as Hins.
    { intros h y j Hy h' x k Hx. apply list_lookup_insert_Some in Hx as [(-> & [= <- <-] & _)|[_ Hx]]; [done|by eapply Hv]. }
    assert (forall h h' x k, <[h := None]> (cs_h s) !! h' = Some (Some (x, k)) -> nowk x) as Hdel.
    { intros h h' x k Hx. apply list_lookup_insert_Some in Hx as [(_ & ? & _)|[_ Hx]]; [done|by eapply Hv]. }
    assert (nopar (gd_new_data (cs_g s) None)) as Hn.
    { intros x m Hm. cbn in Hm. apply lookup_app_Some in Hm as [Hm|[_ Hm]]; [by eapply Hg|]. destruct (x - _); [|done]. by injection Hm as <-. }
    assert (forall hs y h x k, (forall h x k, hs !! h = Some (Some (x, k)) -> nowk x) -> nowk y -> (hs ++ [Some (y, 0)]) !! h = Some (Some (x, k)) -> nowk x) as Happ.
    { intros hs y h x k Hhs Hy Hx. apply lookup_app_Some in Hx as [Hx|[_ Hx]]; [by eapply Hhs|]. destruct (h - _); [|done]. by injection Hx as <- <-. }
    destruct (clop_wk _ (conj H1 H2)) as [Hwk Hup]. clear H2.
    destruct op; try (by destruct (H1 side h)); try (destruct Hwk as [Hwk|Hwk]; [|by destruct (Hwk h)]); repeat (first
      [ match type of Hs with mbind _ _ = Ok _ => let x := fresh "x" in let Hx := fresh "Hx" in apply bind_inv in Hs as (x & Hx & Hs) end
      | match type of Hs with Ok _ = Ok _ => fail 1 | _ => idtac end; case_match; try done ]); subst; injection Hs as <-; try (by auto).
    all: try match goal with E : slot _ ?h = Some (XWeak _ _, _) |- _ => apply Hsl in E; cbn in E; try (by destruct (Hup E h)) end.
    all: (split; [first [by left|right; eexists; (split; [reflexivity|by repeat constructor])]|]); (split; [|first [exact Hn|exact Hg]]).
    all: try (by apply Hins); try (by apply Hdel); cbn; intros h0 x0 k0; try (by eapply Hv); try (by eapply Happ).
    apply Happ; [by apply Hins|done].
  Qed.
  Definition clev e : Prop := (forall t side h, e <> SStart t (CCloneHalf side h)) /\ if wk then forall t h, e <> SStart t (CUpgrade h) else forall t h, e <> SStart t (CDowngrade h).
  Lemma clev_op t op : clev (SStart t op) -> clop op.
  Proof.
    intros [H1 H2]. split; [intros side h ->; by eapply H1|]. revert H2. case wk; intros H2 h ->; by eapply H2.
  Qed.
  Lemma cl_nk f : cl f -> nk f. Proof. by destruct f. Qed.
  Lemma CL_NK s : CL s -> NK s.
  Proof. intros [Ht _ _ Hd]. split; [|done]. eapply Forall_impl; [exact Ht|]. intros st Hst. eapply Forall_impl; [exact Hst|]. apply cl_nk. Qed.
  Lemma CL_init n : CL (init_cstate n).
  Proof. split; [apply Forall_replicate; constructor|done|done|]. intros x m Hm. by apply rc_get_lt in Hm; cbn in Hm; lia. Qed.
  Lemma end_borrow_var hs h h' (y : xhandle) j : end_borrow hs h !! h' = Some (Some (y, j)) -> exists j', hs !! h' = Some (Some (y, j')).
  Proof.
    unfold end_borrow. destruct h as [h|]; [|eauto]. destruct (hs !! h) as [[[x k]|]|] eqn:E; [|eauto..]. intros Hy. destruct (decide (h' = h)) as [->|N].
    - rewrite list_lookup_insert in Hy by (by eapply lookup_lt_Some). injection Hy as <- <-. eauto.
    - rewrite list_lookup_insert_ne in Hy by done. eauto.
  Qed.
  Lemma finish_vars s t h x (q : option (out V)) : (forall h x k, cs_h s !! h = Some (Some (x, k)) -> nowk x) -> (forall y, x = Some y -> nowk y) ->
    forall h' y k, cs_h (finish s t h x q) !! h' = Some (Some (y, k)) -> nowk y.
  Proof.
    intros Hh Hx h' y k Hy. cbn in Hy. apply lookup_app_Some in Hy as [Hy|[_ Hy]]; [apply end_borrow_var in Hy as [j Hy]; by eapply Hh|].
    destruct x as [x|]; [|done]. destruct (h' - _); [|done]. injection Hy as <- <-. by apply Hx.
  Qed.
  Lemma CL_cstep s e s' : clev e -> CL s -> cstep sz s e = Ok s' -> CL s'.
  Proof.
    intros Hev I Hs. pose proof (proj1 Hev) as H1. assert (heap_nk (dw_datas (cs_d s'))) as Hd. { apply (NK_cstep sz s e s'); [done|done|by apply CL_NK]. }
    pose proof I as [Ht Hv Hg _]. destruct e as [t op|t|t i v|t]; cbn [cstep] in Hs.
    - destruct (cstart_cl s t op s') as ([E|(st' & E & Hst)] & Hh & Hn); [|done|done|by split; rewrite ?E|].
      { by eapply clev_op. }
      split; try done. rewrite E. by apply Forall_insert.
    - destruct (cs_t s !! t) as [st|] eqn:Et; [|unfold tstep in Hs; rewrite Et in Hs; by injection Hs as <-].
      pose proof (Forall_lookup_1 _ _ _ _ Ht Et) as Hst.
      destruct (tstep_cases sz s t st Et) as [(-> & Hc)|[(r & -> & Hc)|[(x & o & h & -> & Hc)|[(r & -> & Hc)|Hc]]]]; rewrite Hc in Hs; clear Hc.
      + by injection Hs as <-.
      + by injection Hs as <-.
      + injection Hs as <-. split; try done; [cbn; by apply Forall_insert|]. apply (finish_vars s); [done|]. intros y ->. by apply Forall_inv in Hst.
      + injection Hs as <-. split; try done. cbn. apply Forall_insert; [done|by repeat constructor].
      + apply bind_inv in Hs as ([[d g] st'] & Hm & [= <-]). destruct (mstep_cl _ _ _ _ _ _ Hm Hst (cl_d _ I) Hg). split; try done. cbn. by apply Forall_insert.
    - unfold hold_write in Hs. repeat (first
        [ match type of Hs with mbind _ _ = Ok _ => let x := fresh "x" in let Hx := fresh "Hx" in apply bind_inv in Hs as (x & Hx & Hs) end
        | match type of Hs with Ok _ = Ok _ => fail 1 | _ => idtac end; case_match; try done ]); injection Hs as <-; done.
    - unfold hold_end in Hs. repeat (case_match; try (injection Hs as <-; done)). injection Hs as <-. split; try done; [cbn; by apply Forall_insert|].
      apply (finish_vars s); [done|]. by intros y [= <-].
  Qed.
  Lemma cl_stale (d : dworld V) (B : nat -> nat -> Prop) st st' : Forall cl st -> stale d B st st' -> Forall cl st'.
  Proof. intros HF Hs. destruct Hs; try done; apply Forall_cons in HF as [? HF]; try (by constructor); done. Qed.

  (** ** Who gets a guard *)
  Definition fN (f : frame V) : list nat :=
    match f with FGuard x | FGuardUp x _ | FGuardPar x _ | FGuardCas x _ _ | FGuardLost x _ _ => [x] | _ => [] end.
  Inductive gmove g st g' st' : Prop :=
  | GM_still : (forall y, gval g' y = gval g y) -> length (gd_guards g') = length (gd_guards g) ->
      (forall y, y ∈ stk fG st' -> y ∈ stk fG st) -> stk fN st' = stk fN st -> gmove g st g' st'
  | GM_rel y k gs r : st = FRelG y :: k -> rc_dec (gd_guards g) y = Ok (gs, r) -> gd_guards g' = gs -> st' = k -> gmove g st g' st'
  | GM_clone r k gs : st = FCloneG r :: k -> rc_inc (gd_guards g) (ar_guard r) = Ok gs -> gd_guards g' = gs ->
      st' = FV (VFin (Some (XArc r)) None) :: k -> gmove g st g' st'
  | GM_new x b k m : st = FGuardCas x b None :: k -> gd_guards g' = gd_guards g ++ [Some (1, AGuard None false false)] ->
      st' = FV (VGuard (length (gd_guards g))) :: k -> gd_metas g' !! x = Some m ->
      gd_boxes g' !! am_box m = Some (Some (Some (length (gd_guards g)))) -> gmove g st g' st'
  | GM_up x b y k : st = FGuardUp x b :: k \/ st = FGuardLost x b None :: k -> gd_boxes g !! b = Some (Some (Some y)) -> gmove g st g' st'.
  Lemma mstep_gmove (d : dworld V) g st d' g' st' : mstep sz d g st = Ok (d', g', st') -> Forall cl st -> heap_nk (dw_datas d) -> nopar g ->
    (forall i n, rc_get (gd_guards g) i = Some n -> a_parent n = None) -> gmove g st g' st'.
  Proof.
    intros H HF Hh Hp Ho. destruct st as [|f k]; [done|]. pose proof (Forall_inv HF) as Hf. pose proof (Forall_inv_tail HF) as Hk. clear HF.
    destruct f; try done; try match goal with H0 : cl (FWait _ ?dn) |- _ => destruct dn; [|done] end; cbn [mstep] in H.
    all: repeat (first
      [ match type of H with mbind _ _ = Ok _ => let x := fresh "x" in let Hx := fresh "Hx" in apply bind_inv in H as (x & Hx & H) end
      | match type of H with Ok _ = Ok _ => fail 1 | _ => idtac end; case_match; try done ]).
    all: subst; try (injection H as <- <- <-); try done.
    all: try (match goal with H : Forall _ (_ :: _) |- _ => apply Forall_cons in H as [? ?] end); try done.
    all: try (apply GM_still; [done|done|intros y0; cbn; set_solver|done]).
    all: try match goal with E : gd_weak_inc _ _ = Ok _ |- _ => destruct (weak_inc_same _ _ _ E) as [_ Eg9]; apply GM_still; [intros y9; unfold gval; by rewrite Eg9|by rewrite Eg9|intros y9; rewrite ?stk_cons; cbn; set_solver|done] end.
    all: try match goal with E : gd_weak_dec _ _ = Ok _ |- _ => destruct (weak_dec_same _ _ _ E) as [_ Eg9]; apply GM_still; [intros y9; unfold gval; by rewrite Eg9|by rewrite Eg9|intros y9; rewrite ?stk_cons; cbn; set_solver|done] end.
    all: try match goal with E : gate_try_close _ _ _ = Ok _ |- _ => destruct (gate_close _ _ _ _ _ E) as (_ & ? & ?); apply GM_still; [done|done|intros y0; cbn; set_solver|done] end.
    all: try match goal with E : gate_open _ _ _ = Ok _ |- _ => destruct (gate_reopen _ _ _ _ E) as (_ & ? & ?); apply GM_still; [done|done|intros y0; cbn; set_solver|done] end.
    - apply GM_still; [done|done| |].
      + intros y. rewrite !stk_app, !stk_cons. intros [Hy|Hy]%elem_of_app; [|done]. apply elem_of_list_bind in Hy as (f & Hy & Hf'). apply elem_of_list_fmap in Hf' as (z & -> & _). by apply elem_of_nil in Hy.
      + rewrite stk_app, !stk_cons. assert (stk fN (FRel (V:=V) <$> node_kids d1) = []) as ->; [|done]. induction (node_kids d1) as [|z l' IH]; [done|]. by rewrite fmap_cons, stk_cons.
    - eapply GM_rel; [done|done|done|]. replace (a_parent a) with (@None nat); [done|]. symmetry. apply (Ho g0). unfold rc_dec in Hx. unfold rc_get.
      destruct (gd_guards g !! g0) as [[[[|[|c]] n]|]|]; try done. by injection Hx as <- <-.
    - by eapply GM_rel.
    - match goal with E : rc_upgrade _ ?q = (_, Some n) |- _ => assert (q = Some n) as -> end.
      { match goal with E : rc_upgrade _ ?q = (_, Some n) |- _ => unfold rc_upgrade in E; destruct q as [q|]; [|done]; repeat (case_match; try done); by injection E as _ -> end. }
      eapply GM_up; [by left|done].
    - by rewrite (Hp _ _ H0) in H1.
    - cbn in Hf. subst pg. pose proof Hx0 as Hx1. unfold gd_new_guard in Hx1. cbn in Hx1. rewrite H0 in Hx1. case_match; [|done]. injection Hx1 as <- <-.
      eapply GM_new; [done|done|done|cbn; rewrite list_lookup_insert by (by eapply lookup_lt_Some); done|]. cbn. rewrite lookup_app_r, Nat.sub_diag by done. done.
    - cbn in Hf. subst pg. match goal with E : rc_upgrade _ ?q = (_, Some n) |- _ => assert (q = Some n) as -> end.
      { match goal with E : rc_upgrade _ ?q = (_, Some n) |- _ => unfold rc_upgrade in E; destruct q as [q|]; [|done]; repeat (case_match; try done); by injection E as _ -> end. }
      eapply GM_up; [by right|done].
    - cbn in Hf. subst pg. apply GM_still; [done|done|done|done].
    - by eapply GM_clone.
  Qed.

  (** ** Who knows of it *)
  Definition fM5 (f : frame V) : list arcslice := match f with FGm5 r | FV (VHold r) | FHold r => [r] | _ => [] end.
  Definition kview o w : view := match w with HT t => ws_thr o t | HV h => ws_var o h ∪ ws_bor o h end.
  Definition knows o w (i : nat) : Prop :=
    i ∈ kview o w \/ exists t st h, w = HV h /\ cs_t (ws_s o) !! t = Some st /\ h ∈ stk fB st /\ i ∈ ws_thr o t.
  Definition known o y w : Prop := forall j, j <= length (ws_old o) -> value o j (LGuard y) = Some (LCount 1) ->
    (forall i, j <= i < length (ws_old o) -> value o i (LGuard y) = value o (S i) (LGuard y)) \/
    exists i, j <= i < length (ws_old o) /\ value o i (LGuard y) <> value o (S i) (LGuard y) /\ knows o w i.
  Record KK o (D : list nat) : Prop := {
    k_wi : WI sz o D;
    k_cl : CL (ws_s o);
    k_nd : NoDup (thr fN (cs_t (ws_s o)));
    k_new : forall x, x ∈ thr fN (cs_t (ws_s o)) -> x ∉ D /\ x < length (dw_datas (cs_d (ws_s o)));
    k_len : Forall (fun q => length (gd_guards q.1.2) <= length (gd_guards (cs_g (ws_s o)))) (ws_old o);
    k_one : forall y w, grefs (ws_s o) w y -> known o y w;
    k_mut : forall r, r ∈ thr fM5 (cs_t (ws_s o)) -> rc_count (gd_guards (cs_g (ws_s o))) (ar_guard r) = 1
  }.
  Lemma orphans s D : GI s D -> nopar (cs_g s) -> forall i n, rc_get (gd_guards (cs_g s)) i = Some n -> a_parent n = None.
  Proof.
    intros G Hp i n Hn. destruct (a_parent n) as [p|] eqn:E; [|done]. destruct (lookup_lt_is_Some_2 D i) as [x Hx].
    { rewrite (gi_len _ _ _ _ _ (G_inv _ _ G)). by eapply rc_get_lt. }
    destruct (gi_par _ _ _ _ _ (G_inv _ _ G) _ _ _ _ Hn E Hx) as (_ & m & y & Hm & Hy & _). by rewrite (Hp _ _ Hm) in Hy.
  Qed.
  Lemma gval_count g y k : gval g y = Some (LCount k) -> rc_count (gd_guards g) y = k.
  Proof. unfold gval, rc_count. destruct (gd_guards g !! y) as [[[c n]|]|]; try done. by intros [= ->]. Qed.
  Lemma sole s D w w' y : GI s D -> grefs s w y -> grefs s w' y -> rc_count (gd_guards (cs_g s)) y = 1 -> w = w'.
  Proof.
    intros G H1 H2 Hc. destruct (decide (w = w')) as [|Hne]; [done|]. destruct (hold_two _ _ _ _ _ _ _ H1 H2 Hne) as [l Hl].
    pose proof (gi_cnt _ _ _ _ _ (G_inv _ _ G) y) as E. rewrite (cnt_perm _ _ _ Hl), !cnt_cons, decide_True in E by done. lia.
  Qed.
  Lemma gref_live s D w y : GI s D -> grefs s w y -> 0 < rc_count (gd_guards (cs_g s)) y.
  Proof. intros G H. apply hold_tot in H. apply cnt_pos in H. pose proof (gi_cnt _ _ _ _ _ (G_inv _ _ G) y). lia. Qed.

  (** ** What calls start with *)
  Lemma cstart_new s t op s' st' : clop op -> CL s -> cstart sz s t op = Ok s' -> cs_t s !! t = Some [] -> cs_t s' !! t = Some st' ->
    stk fM5 st' = [] /\ (stk fN st' = [] \/ length (dw_datas (cs_d s)) < length (dw_datas (cs_d s'))).
  Proof.
    intros [H1 H2] [Ht Hv Hg _] Hs Et Et'. unfold cstart in Hs. rewrite Et in Hs.
    assert (t < length (cs_t s)) as Hlt by (by eapply lookup_lt_Some).
    assert (forall h x k, slot s h = Some (x, k) -> nowk x) as Hsl.
    { intros h x k. unfold slot. destruct (cs_h s !! h) as [[p|]|] eqn:E; try done. intros [= ->]. by eapply Hv. }
    destruct (clop_wk _ (conj H1 H2)) as [Hwk Hup]. clear H2.
    destruct op; try (by destruct (H1 side h)); try (destruct Hwk as [Hwk|Hwk]; [|by destruct (Hwk h)]); repeat (first
      [ match type of Hs with mbind _ _ = Ok _ => let x := fresh "x" in let Hx := fresh "Hx" in apply bind_inv in Hs as (x & Hx & Hs) end
      | match type of Hs with Ok _ = Ok _ => fail 1 | _ => idtac end; case_match; try done ]); subst; injection Hs as <-.
    all: try match goal with E : slot _ ?h = Some (XWeak _ _, _) |- _ => apply Hsl in E; cbn in E; try (by destruct (Hup E h)) end.
    all: cbn in Et'; rewrite ?list_lookup_insert in Et' by done; rewrite ?Et in Et'; injection Et' as <-; (split; [done|]); try (by left).
    all: right; cbn.
    - match goal with E : data_from_boxed_slice _ _ _ = _ |- _ => apply data_from_boxed_slice_datas in E as (q & ->) end.
      match goal with E : new_block _ _ _ = _ |- _ => rewrite (new_block_datas _ _ _ _ _ _ E) end. rewrite app_length. cbn. lia.
    - match goal with E : data_new _ _ _ _ = _ |- _ => apply data_new_datas in E as (q & ->) end. rewrite app_length. cbn. lia.
  Qed.
  Lemma began_new s e s' st' : clev e -> CL s -> cstep sz s e = Ok s' -> cs_t s !! actor e = Some [] -> cs_t s' !! actor e = Some st' ->
    stk fM5 st' = [] /\ (stk fN st' = [] \/ length (dw_datas (cs_d s)) < length (dw_datas (cs_d s'))).
  Proof.
    intros Hev C Hs Et Et'. destruct e as [t op|t|t i v|t]; cbn in *.
    - eapply cstart_new; try done. by eapply clev_op.
    - unfold tstep in Hs. rewrite Et in Hs. injection Hs as <-. rewrite Et in Et'. injection Et' as <-. by auto.
    - unfold hold_write in Hs. rewrite Et in Hs. injection Hs as <-. rewrite Et in Et'. injection Et' as <-. by auto.
    - unfold hold_end in Hs. rewrite Et in Hs. injection Hs as <-. rewrite Et in Et'. injection Et' as <-. by auto.
  Qed.
  Lemma mstep_five (d : dworld V) g st d' g' st' : mstep sz d g st = Ok (d', g', st') -> Forall cl st ->
    forall r, r ∈ stk fM5 st' -> r ∈ stk fM5 st \/ exists k, st = FGm4 r :: k /\ rc_count (gd_guards g) (ar_guard r) = 1 /\ g' = g.
  Proof.
    intros H HF. destruct st as [|f k]; [done|]. pose proof (Forall_inv HF) as Hf. pose proof (Forall_inv_tail HF) as Hk. clear HF.
    destruct f; try done; try match goal with H0 : cl (FWait _ ?dn) |- _ => destruct dn; [|done] end; cbn [mstep] in H.
    all: repeat (first
      [ match type of H with mbind _ _ = Ok _ => let x := fresh "x" in let Hx := fresh "Hx" in apply bind_inv in H as (x & Hx & H) end
      | match type of H with Ok _ = Ok _ => fail 1 | _ => idtac end; case_match; try done ]).
    all: subst; try (injection H as <- <- <-); try done.
    all: try (match goal with H : Forall _ (_ :: _) |- _ => apply Forall_cons in H as [? ?] end); try done.
    all: try (intros r0; cbn; set_solver).
    - intros r. rewrite stk_app, !stk_cons. intros [Hy|Hy]%elem_of_app; [|by left].
      apply elem_of_list_bind in Hy as (f & Hy & Hf'). apply elem_of_list_fmap in Hf' as (z & -> & _). by apply elem_of_nil in Hy.
    - intros r. rewrite stk_app, !stk_cons. intros [Hy|Hy]%elem_of_app; [|by left].
      destruct (a_parent a); cbn in Hy; by apply elem_of_nil in Hy.
    - intros r0. rewrite !stk_cons. cbn. intros [->|Hy]%elem_of_cons; [right|by left]. exists k.
      match goal with E : (_ =? 1) = true |- _ => apply Nat.eqb_eq in E end. done.
    - intros r1. rewrite !stk_cons. cbn. set_solver.
  Qed.
  Lemma stale_five (d : dworld V) (B : nat -> nat -> Prop) st st' : stale d B st st' -> forall r, r ∈ stk fM5 st' -> r ∈ stk fM5 st \/ exists k, st = FGm4 r :: k.
  Proof. intros [] r0; rewrite ?stk_cons; cbn; try set_solver. all: idtac. Qed.
  Lemma stale_new (d : dworld V) (B : nat -> nat -> Prop) st st' : Forall cl st -> stale d B st st' ->
    stk fN st' = stk fN st.
  Proof. intros HF Hs. destruct Hs; apply Forall_inv in HF; try done. match goal with E : _ \/ _ |- _ => by destruct E as [->|[->| ->]] end. Qed.

  (** ** Values in the past *)
  Lemma value_old o o' q j l : ws_old o' = ws_old o ++ [(cs_d (ws_s o), cs_g (ws_s o), q)] -> j <= length (ws_old o) -> value o' j l = value o j l.
  Proof.
    intros E Hj. unfold value, memory. rewrite E. destruct (decide (j = length (ws_old o))) as [->|Hne].
    - rewrite list_lookup_middle by done. by rewrite (lookup_ge_None_2 (ws_old o)) by lia.
    - rewrite lookup_app_l by lia. destruct (lookup_lt_is_Some_2 (ws_old o) j) as [z ->]; [lia|done].
  Qed.
  Lemma value_now o j y : length (ws_old o) <= j -> value o j (LGuard y) = gval (cs_g (ws_s o)) y.
  Proof. intros H. unfold value, memory. by rewrite lookup_ge_None_2. Qed.
  Lemma value_const o l j n : (forall i, j <= i < n -> value o i l = value o (S i) l) -> j <= n -> value o j l = value o n l.
  Proof.
    intros H Hn. remember (n - j) as k eqn:Ek. revert j H Hn Ek. induction k as [|k IH]; intros j H Hn Ek; [by replace n with j by lia|].
    rewrite H by lia. apply IH; [|lia|lia]. intros i Hi. apply H. lia.
  Qed.
  Lemma gval_rc g g' y : gval g' y = gval g y -> rc_count (gd_guards g') y = rc_count (gd_guards g) y.
  Proof. unfold gval, rc_count. destruct (gd_guards g' !! y) as [[[]|]|], (gd_guards g !! y) as [[[]|]|]; try done; by intros [= ->]. Qed.
  Lemma count_gval g y k : rc_count (gd_guards g) y = S k -> gval g y = Some (LCount (S k)).
  Proof. unfold gval, rc_count. destruct (gd_guards g !! y) as [[[]|]|]; try done. by intros ->. Qed.
  Lemma rc_dec_gval g g' y gs r : rc_dec (gd_guards g) y = Ok (gs, r) -> gd_guards g' = gs ->
    (forall i, i <> y -> gval g' i = gval g i) /\ length gs = length (gd_guards g) /\ (rc_count (gd_guards g) y = 1 -> rc_count gs y = 0).
  Proof.
    intros H E. unfold gval, rc_count. rewrite E. clear E. unfold rc_dec in H. destruct (gd_guards g !! y) as [[[[|[|c]] n]|]|] eqn:Ey; try done; injection H as <- <-.
    all: split; [intros i Hi; by rewrite list_lookup_insert_ne by done|]; split; [by rewrite insert_length|].
    - rewrite list_lookup_insert by (by eapply lookup_lt_Some). done.
    - done.
  Qed.
  Lemma rc_inc_gval g g' y gs : rc_inc (gd_guards g) y = Ok gs -> gd_guards g' = gs ->
    (forall i, i <> y -> gval g' i = gval g i) /\ length gs = length (gd_guards g) /\ gval g' y <> gval g y.
  Proof.
    intros H E. unfold gval. rewrite E. clear E. unfold rc_inc in H. destruct (gd_guards g !! y) as [[[c n]|]|] eqn:Ey; try done. injection H as <-.
    split; [intros i Hi; by rewrite list_lookup_insert_ne by done|]; split; [by rewrite insert_length|].
    rewrite list_lookup_insert by (by eapply lookup_lt_Some). intros [= E]. lia.
  Qed.

  (** ** One event *)
  Record nowrel o e o' : Prop := {
    nr_s : cstep sz (ws_s o) e = Ok (ws_s o');
    nr_old : exists q, ws_old o' = ws_old o ++ [(cs_d (ws_s o), cs_g (ws_s o), q)];
    nr_thr : forall t, ws_thr o t ⊆ ws_thr o' t;
    nr_var : forall h, ws_var o h ⊆ ws_var o' h;
    nr_bor : forall h, ws_bor o h ⊆ ws_bor o' h;
    nr_me : length (ws_old o) ∈ ws_thr o' (actor e);
    nr_in : forall h, h ∈ vars_in (ws_s o) e (ws_s o') -> ws_var o h ⊆ ws_thr o' (actor e);
    nr_bin : forall h, h ∈ vars_in (ws_s o) e (ws_s o') -> shares e = false -> ws_bor o h ⊆ ws_thr o' (actor e);
    nr_out : forall h, h ∈ var_out (ws_s o) e (ws_s o') -> ws_thr o (actor e) ⊆ ws_var o' h;
    nr_bout : forall h, h ∈ bor_out (ws_s o) e (ws_s o') -> ws_thr o (actor e) ⊆ ws_bor o' h
  }.
  Lemma in_gather {A} (f : A -> view) l (x : A) i : x ∈ l -> i ∈ f x -> i ∈ gather f l.
  Proof. intros H1 H2. unfold gather. apply elem_of_union_list. exists (f x). split; [|done]. by apply elem_of_list_fmap_1. Qed.
  Lemma wstep_nowrel o e o' : wstep sz acq o (WNow e) = Ok o' -> nowrel o e o'.
  Proof.
    intros H. cbn [wstep] in H. apply bind_inv in H as (s' & Hs & [= <-]). split; cbn [record ws_s ws_thr ws_var ws_bor ws_old].
    - done.
    - by eexists.
    - intros t. apply spread_mono.
    - intros h. apply spread_mono.
    - intros h. apply spread_mono.
    - eapply elem_of_weaken; [|by apply spread_in, elem_of_list_singleton]. rewrite !elem_of_union, elem_of_singleton. tauto.
    - intros h Hh i Hi. eapply elem_of_weaken; [|by apply spread_in, elem_of_list_singleton].
      rewrite !elem_of_union. left; right; left; left; left. by eapply in_gather.
    - intros h Hh Hsh i Hi. eapply elem_of_weaken; [|by apply spread_in, elem_of_list_singleton].
      rewrite !elem_of_union. left; right; left; left; right. eapply in_gather; [|done]. unfold bor_in. by rewrite Hsh.
    - intros h Hh i Hi. eapply elem_of_weaken; [|by apply spread_in]. rewrite !elem_of_union. tauto.
    - intros h Hh i Hi. eapply elem_of_weaken; [|by apply spread_in]. rewrite !elem_of_union. tauto.
  Qed.
  Section one.
    Context o o' (q : loc -> view) (Eo : ws_old o' = ws_old o ++ [(cs_d (ws_s o), cs_g (ws_s o), q)]).
    Notation n := (length (ws_old o)).
    Notation g := (cs_g (ws_s o)). Notation g' := (cs_g (ws_s o')).
    Lemma len_new : length (ws_old o') = S n.
    Proof. rewrite Eo, app_length. cbn. lia. Qed.
    Lemma val_eq i y : i < n -> value o i (LGuard y) = value o (S i) (LGuard y) -> value o' i (LGuard y) = value o' (S i) (LGuard y).
    Proof. intros Hi E. rewrite !(value_old _ _ _ _ _ Eo) by lia. done. Qed.
    Lemma val_ne i y : i < n -> value o i (LGuard y) <> value o (S i) (LGuard y) -> value o' i (LGuard y) <> value o' (S i) (LGuard y).
    Proof. intros Hi E. rewrite !(value_old _ _ _ _ _ Eo) by lia. done. Qed.
    Lemma val_last y : value o' n (LGuard y) = gval g y /\ value o' (S n) (LGuard y) = gval g' y.
    Proof. split; [rewrite (value_old _ _ _ _ _ Eo) by done; by apply value_now|]. apply value_now. by rewrite len_new. Qed.
    Lemma one_keep y w w' : gval g' y = gval g y -> known o y w -> (forall i, knows o w i -> knows o' w' i) -> known o' y w'.
    Proof.
      intros Eg Hk Hi j Hj Hv. rewrite len_new in *. destruct (decide (j = S n)) as [->|Hne]; [left; lia|].
      rewrite (value_old _ _ _ _ _ Eo) in Hv by lia. destruct (Hk j) as [Hc|(i & Hij & Hn & Hw)]; [lia|done| |].
      - left. intros i Hij. destruct (decide (i = n)) as [->|]; [|apply val_eq; [lia|apply Hc; lia]].
        destruct (val_last y) as [-> ->]. done.
      - right. exists i. split; [lia|]. split; [apply val_ne; [lia|done]|by apply Hi].
    Qed.
    Lemma one_event y w : gval g' y <> gval g y -> knows o' w n -> known o' y w.
    Proof.
      intros Eg Hk j Hj Hv. rewrite len_new in *. destruct (decide (j = S n)) as [->|Hne]; [left; lia|].
      right. exists n. split; [lia|]. split; [|done]. destruct (val_last y) as [-> ->]. by intros E.
    Qed.
    Lemma one_multi y w w' : gval g y <> Some (LCount 1) -> known o y w -> (forall i, knows o w i -> knows o' w' i) -> known o' y w'.
    Proof.
      intros Eg Hk Hi j Hj Hv. rewrite len_new in *. destruct (decide (j = S n)) as [->|Hne]; [left; lia|].
      rewrite (value_old _ _ _ _ _ Eo) in Hv by lia. destruct (Hk j) as [Hc|(i & Hij & Hn & Hw)]; [lia|done| |].
      - exfalso. apply Eg. rewrite <- (value_now o n) by done. rewrite <- Hv. symmetry. apply value_const; [done|lia].
      - right. exists i. split; [lia|]. split; [apply val_ne; [lia|done]|by apply Hi].
    Qed.
    Lemma one_fresh y w : (forall j, j <= n -> value o j (LGuard y) = None) -> known o' y w.
    Proof.
      intros H j Hj Hv. rewrite len_new in *. destruct (decide (j = S n)) as [->|Hne]; [left; lia|].
      rewrite (value_old _ _ _ _ _ Eo), H in Hv by lia. done.
    Qed.
  End one.
  Lemma knows_thr o e o' t i : nowrel o e o' -> knows o (HT t) i -> i ∈ ws_thr o t.
  Proof. intros _ [H|(t1 & st & h & E & _)]; done. Qed.
  Lemma knows_var o e o' h i : nowrel o e o' -> knows o (HV h) i ->
    (forall t st, cs_t (ws_s o) !! t = Some st -> h ∈ stk fB st ->
       (exists st', cs_t (ws_s o') !! t = Some st' /\ h ∈ stk fB st') \/ (t = actor e /\ h ∈ bor_out (ws_s o) e (ws_s o'))) ->
    knows o' (HV h) i.
  Proof.
    intros N [H|(t & st & h' & [= <-] & Ht & Hb & Hi)] Hp.
    - left. cbn in *. apply elem_of_union in H as [H|H]; apply elem_of_union; [left; by apply (nr_var _ _ _ N)|right; by apply (nr_bor _ _ _ N)].
    - destruct (Hp _ _ Ht Hb) as [(st' & Ht' & Hb')|[-> Ho]].
      + right. exists t, st', h. repeat split; try done. by apply (nr_thr _ _ _ N).
      + left. cbn. apply elem_of_union. right. by apply (nr_bout _ _ _ N h Ho).
  Qed.
  Lemma cstep_evt s e s' : cstep sz s e = Ok s' -> evt sz acq s e s'.
  Proof. destruct e; cbn; [apply evt_cstart|apply evt_tstep|apply evt_write|apply evt_end]. Qed.
  Definition stepped s e s' st st' : Prop :=
    cs_t s !! actor e = Some st /\ mstep sz (cs_d s) (cs_g s) st = Ok (cs_d s', cs_g s', st') /\
    cs_t s' = <[actor e := st']> (cs_t s) /\ cs_h s' = cs_h s /\ stk fB st' = stk fB st.
  (** References after an event, and who knew what they know. *)
  Lemma inherit o e o' D w' y : GI (ws_s o) D -> nowrel o e o' -> grefs (ws_s o') w' y ->
    (exists w, grefs (ws_s o) w y /\ forall i, knows o w i -> knows o' w' i) \/
    exists st st', w' = HT (actor e) /\ stepped (ws_s o) e (ws_s o') st st' /\ y ∈ stk fG st'.
  Proof.
    intros G N Hg. pose proof (nr_s _ _ _ N) as Hs. pose proof (cstep_evt _ _ _ Hs) as He.
    assert (forall t st, cs_t (ws_s o) !! t = Some st -> cs_t (ws_s o') !! t = Some st -> y ∈ stk fG st ->
      exists w, grefs (ws_s o) w y /\ forall i, knows o w i -> knows o' (HT t) i) as Hthr.
    { intros t st Ht _ Hy. exists (HT t). split; [by exists st|]. intros i Hi. left. apply (nr_thr _ _ _ N). by eapply knows_thr. }
    assert (forall h x k k', cs_h (ws_s o) !! h = Some (Some (x, k')) -> y ∈ hG x -> cs_h (ws_s o') !! h = Some (Some (x, k)) ->
      (forall t st, cs_t (ws_s o) !! t = Some st -> h ∈ stk fB st ->
       (exists st', cs_t (ws_s o') !! t = Some st' /\ h ∈ stk fB st') \/ (t = actor e /\ h ∈ bor_out (ws_s o) e (ws_s o'))) ->
      exists w, grefs (ws_s o) w y /\ forall i, knows o w i -> knows o' (HV h) i) as Hvar.
    { intros h x k k' Hh Hy _ Hp. exists (HV h). split; [by exists x, k'|]. intros i Hi. by eapply knows_var. }
    assert (forall h, cs_t (ws_s o') = cs_t (ws_s o) -> forall t st, cs_t (ws_s o) !! t = Some st -> h ∈ stk fB st ->
       (exists st', cs_t (ws_s o') !! t = Some st' /\ h ∈ stk fB st') \/ (t = actor e /\ h ∈ bor_out (ws_s o) e (ws_s o'))) as Hsame.
    { intros h E t st Ht Hb. left. rewrite E. by exists st. }
    assert (forall h st0 st1, cs_t (ws_s o) !! actor e = Some st0 -> cs_t (ws_s o') = <[actor e := st1]> (cs_t (ws_s o)) ->
       (h ∈ stk fB st0 -> h ∈ stk fB st1 \/ h ∈ bor_out (ws_s o) e (ws_s o')) -> forall t st, cs_t (ws_s o) !! t = Some st -> h ∈ stk fB st ->
       (exists st', cs_t (ws_s o') !! t = Some st' /\ h ∈ stk fB st') \/ (t = actor e /\ h ∈ bor_out (ws_s o) e (ws_s o'))) as Hone.
    { intros h st0 st1 H0 E Hc t st Ht Hb. rewrite E. destruct (decide (t = actor e)) as [->|Hne].
      - rewrite H0 in Ht. injection Ht as ->. destruct (Hc Hb) as [Hc'|Hc']; [left|by right].
        exists st1. rewrite list_lookup_insert by (by eapply lookup_lt_Some). done.
      - left. exists st. by rewrite list_lookup_insert_ne. }
    assert (forall t st1, cs_t (ws_s o') = <[actor e := st1]> (cs_t (ws_s o)) -> t <> actor e -> forall st, cs_t (ws_s o') !! t = Some st -> cs_t (ws_s o) !! t = Some st) as Hoth.
    { intros t st1 E Hne st Ht. by rewrite E, list_lookup_insert_ne in Ht. }
    assert (forall st0 st1, cs_t (ws_s o) !! actor e = Some st0 -> cs_t (ws_s o') = <[actor e := st1]> (cs_t (ws_s o)) -> forall st, cs_t (ws_s o') !! actor e = Some st -> st = st1) as Hme.
    { intros st0 st1 H0 E st Ht. rewrite E, list_lookup_insert in Ht by (by eapply lookup_lt_Some). by injection Ht. }
    destruct w' as [t|h].
    - destruct Hg as (st & Ht & Hy). destruct (decide (t = actor e)) as [->|Hne].
      2:{ left. eapply Hthr; [|done|done]. destruct He as [Et|? ? ? ? Et|? ? ? ? ? Et|? ? ? ? Et|? ? ? Et|? ? ? ? ? ? ? Et|? ? ? ? Et|? ? Et]; [by rewrite Et in Ht|by rewrite Et in Ht|by eapply Hoth..]. }
      destruct He as [Et|? ? ? ? Et|h x k st' H0 Et _ _ _ _ _ _ _ _ HG|h x st' H0 Et _ _ Hh _ _ _ Hin Hsh _ HG|? ? H0 Et|st0 d g st' H0 _ Hm Et Ed Eg Eh|? ? ? H0 Et|r H0 Et].
      + left. eapply Hthr; [|done|done]. by rewrite Et in Ht.
      + left. eapply Hthr; [|done|done]. by rewrite Et in Ht.
      + rewrite (Hme _ _ H0 Et _ Ht), HG in Hy. by apply elem_of_nil in Hy.
      + left. rewrite (Hme _ _ H0 Et _ Ht), HG in Hy. exists (HV h). split; [by exists x, 0|]. intros i [Hi|(t1 & st1 & h' & [= <-] & Ht1 & Hb & _)].
        * left. cbn in Hi |- *. apply elem_of_union in Hi as [Hi|Hi]; [by apply (nr_in _ _ _ N _ Hin)|by apply (nr_bin _ _ _ N _ Hin Hsh)].
        * exfalso. pose proof (G_bor _ _ G h) as E. unfold kof in E. rewrite Hh in E. assert (h ∈ thr fB (cs_t (ws_s o))) as Hb'.
          { apply elem_of_list_bind. exists st1. split; [done|by eapply elem_of_list_lookup_2]. }
          apply cnt_pos in Hb'. lia.
      + rewrite (Hme _ _ H0 Et _ Ht) in Hy. cbn in Hy. by apply elem_of_nil in Hy.
      + right. exists st0, st'. split; [done|]. rewrite (Hme _ _ H0 Et _ Ht) in Hy. split; [|done].
        destruct (GI_mstep sz _ _ _ _ _ _ _ (cs_out (ws_s o)) (cs_log (ws_s o)) G H0 Hm) as (X & _ & _ & EB). subst d g. done.
      + rewrite (Hme _ _ H0 Et _ Ht) in Hy. by apply elem_of_nil in Hy.
      + left. rewrite (Hme _ _ H0 Et _ Ht) in Hy. exists (HT (actor e)). split; [by eexists; split; [exact H0|]|].
        intros i Hi. left. apply (nr_thr _ _ _ N). by eapply knows_thr.
    - left. destruct Hg as (x & k & Hh & Hy). assert (shared x) as Hx by (destruct x; try done; by apply elem_of_nil in Hy).
      destruct He as [Et _ _ Ev|h1 r1 k1 n1 Et _ _ Ev|h1 x1 k1 st' H0 Et _ _ Hh1 Ev _ _ _ _ _ HB|h1 x1 st' H0 Et _ _ Hh1 Ev|n1 nd H0 Et _ _ _ _ Ev|st0 d g st' H0 _ Hm Et Ed Eg Eh|st0 h1 x1 H0 Et _ _ Ev _ HG HB _ _ _ Hbo Hvo|r H0 Et _ _ Ev].
      + eapply Hvar; [by apply Ev in Hh|done|done|by apply Hsame].
      + eapply Hvar; [by rewrite Ev in Hh|done|done|by apply Hsame].
      + assert (exists k', cs_h (ws_s o) !! h = Some (Some (x, k'))) as [k' Hh'].
        { rewrite Ev in Hh. apply list_lookup_insert_Some in Hh as [(<- & [= <- <-] & _)|[_ Hh]]; by eexists. }
        eapply Hvar; [done|done|done|]. eapply Hone; [done|done|]. by intros ?%elem_of_nil.
      + rewrite Ev in Hh. pose proof Hh as Hh'. apply list_lookup_insert_Some in Hh' as [(_ & ? & _)|[_ Hh']]; [done|].
        eapply Hvar; [done|done|by rewrite Ev|]. eapply Hone; [done|done|]. by intros ?%elem_of_nil.
      + eapply Hvar; [by apply Ev in Hh|done|done|]. eapply Hone; [done|done|]. by intros ?%elem_of_nil.
      + eapply Hvar; [by rewrite Eh in Hh|done|done|]. eapply Hone; [done|done|].
        destruct (GI_mstep sz _ _ _ _ _ _ _ (cs_out (ws_s o)) (cs_log (ws_s o)) G H0 Hm) as (X & _ & _ & EB). rewrite EB. by left.
      + rewrite Ev in Hh. pose proof Hh as Hh'. apply lookup_app_Some in Hh' as [Hh'|[Hl Hh']].
        * destruct (end_borrow_var _ _ _ _ _ Hh') as [k' Hk]. eapply Hvar; [done|done|by rewrite Ev|]. eapply Hone; [done|done|].
          rewrite HB. intros Hb. right. destruct h1 as [h1|]; [|by apply elem_of_nil in Hb]. apply elem_of_list_singleton in Hb as ->. by apply Hbo.
        * rewrite end_borrow_len in Hl, Hh'. destruct x1 as [x1|]; [|done].
          destruct (h - length (cs_h (ws_s o))) as [|?] eqn:El; [|done]. injection Hh' as -> <-.
          exists (HT (actor e)). split; [exists st0; split; [done|by rewrite HG]|]. intros i Hi. left. cbn. apply elem_of_union. left.
          replace h with (length (cs_h (ws_s o))) by lia. apply (nr_out _ _ _ N _ (Hvo _ eq_refl)). by eapply knows_thr.
      + eapply Hvar; [by rewrite Ev in Hh|done|done|]. eapply Hone; [done|done|]. cbn. by intros ?%elem_of_nil.
  Qed.
  (** ** References in a step *)
  Lemma clone_run E b r (k : stack) : run E b (FCloneG r :: k) -> exists h j, k = [KEnd (Some h)] /\ ge_h E !! h = Some (Some (XArc r, j)).
  Proof.
    intros H. inversion H; subst; try done; try (match goal with H : _ \/ _ |- _ => by destruct H end).
    - match goal with H : _ \/ _, H' : okend _ _ ?h |- _ => destruct H as [?|[= <-]]; [done|]; destruct h as [h|]; [|done]; destruct H' as (x & j & Hx & [= <-]); by exists h, j end.
  Qed.
  Lemma up_run E b x c (k : stack) pg : run E b (FGuardUp x c :: k) \/ run E b (FGuardLost x c pg :: k) -> bok E x c.
  Proof. intros [H|H]; inversion H; subst; try done; try (match goal with H : _ \/ _ |- _ => by destruct H end); match goal with H : gframe _ _ _ |- _ => destruct H as [-> ?] end; done. Qed.
  Lemma thr_five ts r : r ∈ thr fM5 ts -> ar_guard r ∈ thr (V:=V) fG ts.
  Proof.
    rewrite !thr_elem. intros (t & st & Ht & Hr). exists t, st. split; [done|]. apply elem_of_list_bind in Hr as (f & Hr & Hf).
    apply elem_of_list_bind. exists f. split; [|done]. destruct f; cbn in *; try (by apply elem_of_nil in Hr); try (by apply elem_of_list_singleton in Hr as ->; left).
    destruct v; cbn in *; try (by apply elem_of_nil in Hr). apply elem_of_list_singleton in Hr as ->. by left.
  Qed.
  Lemma five_ref s r : r ∈ thr fM5 (cs_t s) -> exists t, grefs s (HT t) (ar_guard r).
  Proof. intros (t & st & Ht & Hr)%thr_five%thr_elem. by exists t, st. Qed.
  Section step.
    Context o o' e (D X : list nat) (st st' : stack) (K : KK o D) (W' : WI sz o' (D ++ X)) (N : nowrel o e o').
    Context (S : stepped (ws_s o) e (ws_s o') st st').
    Notation s := (ws_s o). Notation s' := (ws_s o'). Notation g := (cs_g (ws_s o)). Notation g' := (cs_g (ws_s o')).
    Lemma st_gi : GI s D. Proof. apply (W_g _ _ _ (k_wi _ _ K)). Qed.
    Lemma st_gi' : GI s' (D ++ X). Proof. apply (W_g _ _ _ W'). Qed.
    Lemma st_cl : Forall cl st.
    Proof. destruct S as (Ht & _). by apply (Forall_lookup_1 _ _ _ _ (cl_t _ (k_cl _ _ K)) Ht). Qed.
    Lemma st_move : gmove g st g' st'.
    Proof.
      destruct S as (Ht & Hm & _). eapply mstep_gmove; [exact Hm|apply st_cl|apply (cl_d _ (k_cl _ _ K))|apply (cl_g _ (k_cl _ _ K))|].
      apply (orphans _ D); [apply st_gi|apply (cl_g _ (k_cl _ _ K))].
    Qed.
    Lemma st_refs w y : grefs s' w y -> grefs s w y \/ (w = HT (actor e) /\ y ∈ stk fG st').
    Proof.
      destruct S as (Ht & _ & Et & Eh & _). destruct w as [t|h]; cbn.
      - intros (st1 & Ht1 & Hy). rewrite Et in Ht1. apply list_lookup_insert_Some in Ht1 as [(<- & -> & _)|[_ Ht1]]; [by right|left; by exists st1].
      - rewrite Eh. by left.
    Qed.
    Lemma st_knows w i : knows o w i -> knows o' w i.
    Proof.
      destruct S as (Ht & _ & Et & Eh & EB). destruct w as [t|h].
      - intros H. left. apply (nr_thr _ _ _ N). by eapply knows_thr.
      - intros H. eapply knows_var; [done|done|]. intros t st1 Ht1 Hb. left. rewrite Et. destruct (decide (t = actor e)) as [->|Hne].
        + rewrite Ht in Ht1. injection Ht1 as <-. exists st'. rewrite list_lookup_insert by (by eapply lookup_lt_Some). by rewrite EB.
        + exists st1. by rewrite list_lookup_insert_ne.
    Qed.
    Lemma st_noup x b y k : st = FGuardUp x b :: k \/ st = FGuardLost x b None :: k -> gd_boxes g !! b = Some (Some (Some y)) -> False.
    Proof.
      intros Hst Hb. destruct S as (Ht & _). destruct (G_run _ _ st_gi _ _ Ht) as [bb Hr].
      assert (bok (genv_of s D) x b) as (oo & Ho & HD). { eapply up_run. destruct Hst as [->| ->]; [by left|by right]. }
      cbn in Ho. rewrite Hb in Ho. injection Ho as <-. specialize (HD y eq_refl). cbn in HD.
      destruct (k_new _ _ K x) as [Hx _]; [|apply Hx; by eapply elem_of_list_lookup_2].
      apply thr_elem. exists (actor e), st. split; [done|]. destruct Hst as [->| ->]; left.
    Qed.
    Lemma st_none j : j <= length (ws_old o) -> value o j (LGuard (length (gd_guards g))) = None.
    Proof.
      intros Hj. destruct (decide (j = length (ws_old o))) as [->|Hne].
      - rewrite value_now by done. unfold gval. by rewrite lookup_ge_None_2.
      - destruct (lookup_lt_is_Some_2 (ws_old o) j) as [z Hz]; [lia|]. pose proof (Forall_lookup_1 _ _ _ _ (k_len _ _ K) Hz) as Hl.
        unfold value, memory. rewrite Hz. cbn in *. by rewrite lookup_ge_None_2.
    Qed.
  End step.
  Lemma st_one o o' e (D X : list nat) (st st' : stack) w y : KK o D -> WI sz o' (D ++ X) -> nowrel o e o' -> stepped (ws_s o) e (ws_s o') st st' -> grefs (ws_s o') w y -> known o' y w.
  Proof.
    intros K W' N S. pose proof (st_gi _ _ K) as st_gi. pose proof (st_gi' _ _ _ W') as st_gi'. pose proof (st_cl _ _ _ _ _ _ K S) as st_cl. pose proof (st_move _ _ _ _ _ _ K S) as st_move.
    pose proof (st_refs _ _ _ _ _ S) as st_refs. pose proof (st_knows _ _ _ _ _ N S) as st_knows. pose proof (st_noup _ _ _ _ _ _ K S) as st_noup. pose proof (st_none _ _ K) as st_none.
    intros Hg. destruct (nr_old _ _ _ N) as [q Eo]. pose proof st_gi as G; pose proof st_gi' as G'.
    assert (grefs (ws_s o) w y -> gval (cs_g (ws_s o')) y = gval (cs_g (ws_s o)) y -> known o' y w) as Hkeep.
    { intros H E. eapply one_keep; [exact Eo|exact E|by apply (k_one _ _ K)|apply st_knows]. }
    assert (grefs (ws_s o) w y -> gval (cs_g (ws_s o)) y <> Some (LCount 1) -> known o' y w) as Hmulti.
    { intros H E. eapply one_multi; [exact Eo|exact E|by apply (k_one _ _ K)|apply st_knows]. }
    assert (forall y, y ∈ stk fG st -> grefs (ws_s o) (HT (actor e)) y) as Hme. { intros z Hz. destruct S as (Ht & _). by exists st. }
    destruct st_move as [Hv _ HG _|y0 k gs r -> Hd Eg ->|r k gs -> Hi Eg ->|x b k m -> Eg -> _ _|x b y0 k Hst Hb].
    - apply Hkeep; [|done]. destruct (st_refs _ _ Hg) as [H|[-> H]]; [done|]. by apply Hme, HG.
    - assert (grefs (ws_s o) w y) as Hg0. { destruct (st_refs _ _ Hg) as [H|[-> H]]; [done|]. apply Hme. rewrite stk_cons. apply elem_of_app. by right. }
      destruct (rc_dec_gval _ _ _ _ _ Hd Eg) as (He & _ & H1). destruct (decide (y = y0)) as [->|]; [|by apply Hkeep; auto].
      apply Hmulti; [done|]. intros E%gval_count. apply H1 in E. pose proof (gref_live _ _ _ _ G' Hg) as Hl. rewrite Eg, E in Hl. lia.
    - destruct S as (Ht & _ & Et & _). destruct (G_run _ _ G _ _ Ht) as [b Hr]. destruct (clone_run _ _ _ _ Hr) as (h & j & -> & Hh). cbn in Hh.
      destruct (rc_inc_gval _ _ _ _ Hi Eg) as (He & _ & H1). destruct (decide (y = ar_guard r)) as [->|Hne].
      + destruct (st_refs _ _ Hg) as [H|[-> H]].
        * destruct (decide (rc_count (gd_guards (cs_g (ws_s o))) (ar_guard r) = 1)) as [E|E].
          -- assert (w = HV h) as ->. { eapply sole; [exact G|exact H| |exact E]. exists (XArc r), j. split; [done|left]. }
             eapply one_event; [exact Eo|done|]. right. eexists (actor e), _, h. split; [done|]. rewrite Et.
             rewrite list_lookup_insert by (by eapply lookup_lt_Some). split; [done|]. split; [cbn; left|apply (nr_me _ _ _ N)].
          -- apply Hmulti; [done|]. intros E'%gval_count. done.
        * eapply one_event; [exact Eo|done|]. left. apply (nr_me _ _ _ N).
      + apply Hkeep; [|by auto]. destruct (st_refs _ _ Hg) as [H|[-> H]]; [done|]. cbn in H. apply elem_of_list_singleton in H. done.
    - destruct (decide (y = length (gd_guards (cs_g (ws_s o))))) as [->|Hne]; [eapply one_fresh; [exact Eo|apply st_none]|].
      apply Hkeep.
      + destruct (st_refs _ _ Hg) as [H|[-> H]]; [done|]. apply Hme. rewrite stk_cons in *. apply elem_of_app in H as [H|H]; [|by apply elem_of_app; right].
        cbn in H. by apply elem_of_list_singleton in H.
      + unfold gval. rewrite Eg. destruct (decide (y < length (gd_guards (cs_g (ws_s o))))); [by rewrite lookup_app_l|]. rewrite !lookup_ge_None_2; [done|lia|].
        rewrite app_length. cbn. lia.
    - by destruct (st_noup _ _ _ _ Hst Hb).
  Qed.
  Lemma st_len o o' e (D X : list nat) (st st' : stack) : KK o D -> WI sz o' (D ++ X) -> nowrel o e o' -> stepped (ws_s o) e (ws_s o') st st' -> length (gd_guards (cs_g (ws_s o))) <= length (gd_guards (cs_g (ws_s o'))).
  Proof.
    intros K W' N S. pose proof (st_gi _ _ K) as st_gi. pose proof (st_gi' _ _ _ W') as st_gi'. pose proof (st_cl _ _ _ _ _ _ K S) as st_cl. pose proof (st_move _ _ _ _ _ _ K S) as st_move.
    pose proof (st_refs _ _ _ _ _ S) as st_refs. pose proof (st_knows _ _ _ _ _ N S) as st_knows. pose proof (st_noup _ _ _ _ _ _ K S) as st_noup. pose proof (st_none _ _ K) as st_none.
    destruct st_move as [_ E _ _|y0 k gs r -> Hd Eg ->|r k gs -> Hi Eg ->|x b k m -> Eg -> _ _|x b y0 k Hst Hb].
    - by rewrite E.
    - destruct (rc_dec_gval _ _ _ _ _ Hd Eg) as (_ & H & _). by rewrite Eg, H.
    - destruct (rc_inc_gval _ _ _ _ Hi Eg) as (_ & H & _). by rewrite Eg, H.
    - rewrite Eg, app_length. lia.
    - by destruct (st_noup _ _ _ _ Hst Hb).
  Qed.
  Lemma st_mut o o' e (D X : list nat) (st st' : stack) r : KK o D -> WI sz o' (D ++ X) -> nowrel o e o' -> stepped (ws_s o) e (ws_s o') st st' -> r ∈ thr fM5 (cs_t (ws_s o')) -> rc_count (gd_guards (cs_g (ws_s o'))) (ar_guard r) = 1.
  Proof.
    intros K W' N S. pose proof (st_gi _ _ K) as st_gi. pose proof (st_gi' _ _ _ W') as st_gi'. pose proof (st_cl _ _ _ _ _ _ K S) as st_cl. pose proof (st_move _ _ _ _ _ _ K S) as st_move.
    pose proof (st_refs _ _ _ _ _ S) as st_refs. pose proof (st_knows _ _ _ _ _ N S) as st_knows. pose proof (st_noup _ _ _ _ _ _ K S) as st_noup. pose proof (st_none _ _ K) as st_none.
    intros Hr. pose proof st_gi as G; pose proof st_gi' as G'. destruct (five_ref _ _ Hr) as [t' Hg'].
    assert (r ∈ thr fM5 (cs_t (ws_s o)) \/ rc_count (gd_guards (cs_g (ws_s o))) (ar_guard r) = 1 /\ cs_g (ws_s o') = cs_g (ws_s o)) as [Hr0|[E ->]]; [|..|done].
    { destruct S as (Ht & Hm & Et & _). rewrite Et in Hr. rewrite (thr_upd _ _ _ _ _ Ht), elem_of_app in Hr. rewrite (thr_perm _ _ _ _ Ht), elem_of_app.
      destruct Hr as [Hr|Hr]; [|by auto]. destruct (mstep_five _ _ _ _ _ _ Hm st_cl r Hr) as [H|(k & _ & H)]; by auto. }
    pose proof (k_mut _ _ K _ Hr0) as E. destruct (five_ref _ _ Hr0) as [t Hg].
    destruct st_move as [Hv _ _ _|y0 k gs q -> Hd Eg ->|q k gs -> Hi Eg ->|x b k m -> Eg -> _ _|x b y0 k Hst Hb].
    - by rewrite (gval_rc _ _ _ (Hv _)).
    - destruct (rc_dec_gval _ _ _ _ _ Hd Eg) as (He & _ & H1). destruct (decide (ar_guard r = y0)) as [<-|Hne].
      + pose proof (gref_live _ _ _ _ G' Hg') as Hl. rewrite Eg, (H1 E) in Hl. lia.
      + by rewrite (gval_rc _ _ _ (He _ Hne)).
    - destruct (rc_inc_gval _ _ _ _ Hi Eg) as (He & _ & H1). destruct (decide (ar_guard r = ar_guard q)) as [Eq|Hne].
      + destruct S as (Ht & _). destruct (G_run _ _ G _ _ Ht) as [b Hr']. destruct (clone_run _ _ _ _ Hr') as (h & j & -> & Hh). cbn in Hh.
        assert (HT t = HV h); [|done]. eapply sole; [exact G|exact Hg| |exact E]. exists (XArc q), j. split; [done|]. rewrite Eq. left.
      + by rewrite (gval_rc _ _ _ (He _ Hne)).
    - rewrite (gval_rc (cs_g (ws_s o))); [done|]. unfold gval. rewrite Eg, lookup_app_l; [done|]. unfold rc_count in E. destruct (gd_guards (cs_g (ws_s o)) !! ar_guard r) as [z|] eqn:Ez; [|done].
      by eapply lookup_lt_Some.
    - by destruct (st_noup _ _ _ _ Hst Hb).
  Qed.
  Lemma st_same_len o o' e (D X : list nat) (st st' : stack) : KK o D -> WI sz o' (D ++ X) -> nowrel o e o' -> stepped (ws_s o) e (ws_s o') st st' -> length (gd_guards (cs_g (ws_s o'))) = length (gd_guards (cs_g (ws_s o))) -> X = [].
  Proof.
    intros K W' N S. pose proof (st_gi _ _ K) as st_gi. pose proof (st_gi' _ _ _ W') as st_gi'. pose proof (st_cl _ _ _ _ _ _ K S) as st_cl. pose proof (st_move _ _ _ _ _ _ K S) as st_move.
    pose proof (st_refs _ _ _ _ _ S) as st_refs. pose proof (st_knows _ _ _ _ _ N S) as st_knows. pose proof (st_noup _ _ _ _ _ _ K S) as st_noup. pose proof (st_none _ _ K) as st_none.
    intros E. pose proof (gi_len _ _ _ _ _ (G_inv _ _ st_gi)) as E1. pose proof (gi_len _ _ _ _ _ (G_inv _ _ st_gi')) as E2.
    rewrite app_length in E2. apply length_zero_iff_nil. lia.
  Qed.
  Lemma st_new o o' e (D X : list nat) (st st' : stack) : KK o D -> WI sz o' (D ++ X) -> nowrel o e o' -> stepped (ws_s o) e (ws_s o') st st' -> NoDup (thr fN (cs_t (ws_s o'))) /\ forall x, x ∈ thr fN (cs_t (ws_s o')) -> x ∉ D ++ X /\ x < length (dw_datas (cs_d (ws_s o'))).
  Proof.
    intros K W' N S. pose proof (st_gi _ _ K) as st_gi. pose proof (st_gi' _ _ _ W') as st_gi'. pose proof (st_cl _ _ _ _ _ _ K S) as st_cl. pose proof (st_move _ _ _ _ _ _ K S) as st_move.
    pose proof (st_refs _ _ _ _ _ S) as st_refs. pose proof (st_knows _ _ _ _ _ N S) as st_knows. pose proof (st_noup _ _ _ _ _ _ K S) as st_noup. pose proof (st_none _ _ K) as st_none.
    pose proof (st_same_len _ _ _ _ _ _ _ K W' N S) as st_same_len.
    pose proof (cstep_grow _ _ _ _ (nr_s _ _ _ N)) as Hgr. pose proof st_gi as G; pose proof st_gi' as G'.
    assert (stk fN st' = stk fN st -> X = [] -> NoDup (thr fN (cs_t (ws_s o'))) /\ forall x, x ∈ thr fN (cs_t (ws_s o')) -> x ∉ D ++ X /\ x < length (dw_datas (cs_d (ws_s o')))) as Hsame.
    { intros E ->. destruct S as (Ht & _ & Et & _). assert (thr fN (cs_t (ws_s o')) ≡ₚ thr fN (cs_t (ws_s o))) as P.
      { rewrite Et, (thr_upd _ _ _ _ _ Ht), (thr_perm _ (cs_t (ws_s o)) _ _ Ht). by rewrite E. }
      rewrite P, app_nil_r. split; [apply (k_nd _ _ K)|]. intros x Hx. rewrite P in Hx. destruct (k_new _ _ K x Hx). split; [done|lia]. }
    destruct st_move as [_ El _ E|y0 k gs r -> Hd Eg ->|r k gs -> Hi Eg ->|x b k m -> Eg -> Hm Hb|x b y0 k Hst Hb].
    - apply Hsame; [done|by apply st_same_len].
    - apply Hsame; [done|]. apply st_same_len. destruct (rc_dec_gval _ _ _ _ _ Hd Eg) as (_ & H & _). by rewrite Eg, H.
    - apply Hsame; [done|]. apply st_same_len. destruct (rc_inc_gval _ _ _ _ Hi Eg) as (_ & H & _). by rewrite Eg, H.
    - assert (X = [x]) as ->.
      { pose proof (gi_len _ _ _ _ _ (G_inv _ _ st_gi)) as E1. pose proof (gi_len _ _ _ _ _ (G_inv _ _ st_gi')) as E2.
        destruct (gi_box _ _ _ _ _ (G_inv _ _ G') _ _ Hm) as (oo & Ho & HD & _). rewrite Hb in Ho. injection Ho as <-. specialize (HD _ eq_refl).
        rewrite Eg, !app_length in E2. cbn in E2. destruct X as [|z [|]]; cbn in E2; try lia. rewrite lookup_app_r, E1, Nat.sub_diag in HD by lia. cbn in HD. by injection HD as ->. }
      destruct S as (Ht & _ & Et & _). pose proof (k_nd _ _ K) as Hn. rewrite (thr_perm _ _ _ _ Ht), stk_cons in Hn. cbn in Hn.
      apply NoDup_cons in Hn as [Hx Hn].
      assert (thr fN (cs_t (ws_s o')) ≡ₚ stk fN k ++ thr fN (delete (actor e) (cs_t (ws_s o)))) as P. { rewrite Et, (thr_upd _ _ _ _ _ Ht), stk_cons. done. }
      rewrite P. split; [done|]. intros z Hz. rewrite P in Hz. destruct (k_new _ _ K z) as [H1 H2].
      { rewrite (thr_perm _ _ _ _ Ht), stk_cons. cbn. by right. }
      split; [|lia]. rewrite not_elem_of_app. split; [done|]. intros ->%elem_of_list_singleton. done.
    - by destruct (st_noup _ _ _ _ Hst Hb).
  Qed.

  (** ** The invariant *)
  Lemma same_guards s s' D X : GI s D -> GI s' (D ++ X) -> gd_guards (cs_g s') = gd_guards (cs_g s) -> X = [].
  Proof.
    intros G G' E. pose proof (gi_len _ _ _ _ _ (G_inv _ _ G)) as E1. pose proof (gi_len _ _ _ _ _ (G_inv _ _ G')) as E2.
    rewrite app_length, E in E2. apply length_zero_iff_nil. lia.
  Qed.
  (** Events that are not steps of a call in progress leave the guards alone. *)
  Lemma calm_cases s D e s' : GI s D -> CL s -> clev e -> cstep sz s e = Ok s' ->
    (exists st st', stepped s e s' st st') \/
    (gd_guards (cs_g s') = gd_guards (cs_g s) /\ (forall r, r ∈ thr fM5 (cs_t s') -> r ∈ thr fM5 (cs_t s)) /\
     (thr fN (cs_t s') ⊆+ thr fN (cs_t s) \/ thr fN (cs_t s') ≡ₚ length (dw_datas (cs_d s)) :: thr fN (cs_t s) /\ length (dw_datas (cs_d s)) < length (dw_datas (cs_d s')))).
  Proof.
    intros G C Hc Hs. pose proof (cstep_evt _ _ _ Hs) as He.
    assert (forall st st', cs_t s !! actor e = Some st -> cs_t s' = <[actor e := st']> (cs_t s) ->
      (forall r, r ∈ stk fM5 st' -> r ∈ stk fM5 st) -> forall r, r ∈ thr fM5 (cs_t s') -> r ∈ thr fM5 (cs_t s)) as HM.
    { intros st st' Ht Et H r. rewrite Et, (thr_upd _ _ _ _ _ Ht), (thr_perm _ (cs_t s) _ _ Ht), !elem_of_app. intros [Hr|Hr]; auto. }
    assert (forall st st', cs_t s !! actor e = Some st -> cs_t s' = <[actor e := st']> (cs_t s) -> stk fN st' ⊆+ stk fN st -> thr fN (cs_t s') ⊆+ thr fN (cs_t s)) as HN.
    { intros st st' Ht Et H. rewrite Et, (thr_upd _ _ _ _ _ Ht), (thr_perm _ (cs_t s) _ _ Ht). by apply submseteq_skips_r. }
    assert (forall st', cs_t s !! actor e = Some [] -> cs_t s' = <[actor e := st']> (cs_t s) ->
      stk fM5 st' = [] /\ (stk fN st' = [] \/ length (dw_datas (cs_d s)) < length (dw_datas (cs_d s')))) as HB.
    { intros st' Ht Et. eapply began_new; [done..|]. rewrite Et. apply list_lookup_insert. by eapply lookup_lt_Some. }
    destruct He as [Et _ Eg|h r k n Et _ Eg|h x k st' H0 Et Ed Eg|h x st' H0 Et Ed Eg|n nd H0 Et En Ed _ Eg|st0 d g st' H0 _ Hm Et Ed Eg Eh|st h x H0 Et _ Eg|r H0 Et _ Eg].
    - right. rewrite Eg, Et. split; [done|]. split; [done|]. by left.
    - right. rewrite Eg, Et. split; [done|]. split; [done|]. by left.
    - right. destruct (HB _ H0 Et) as [HA [HC|HC]]; [|rewrite Ed in HC; lia]. split; [by rewrite Eg|]. split; [eapply HM; [done|done|]; rewrite HA; by intros r ?%elem_of_nil|].
      left. eapply HN; [done|done|]. by rewrite HC.
    - right. destruct (HB _ H0 Et) as [HA [HC|HC]]; [|rewrite Ed in HC; lia]. split; [by rewrite Eg|]. split; [eapply HM; [done|done|]; rewrite HA; by intros r ?%elem_of_nil|].
      left. eapply HN; [done|done|]. by rewrite HC.
    - right. split; [by rewrite Eg|]. split; [eapply HM; [done|done|]; by intros r ?%elem_of_nil|]. right. split; [|rewrite Ed, app_length; cbn; lia].
      rewrite Et, (thr_upd _ _ _ _ _ H0), (thr_perm _ (cs_t s) _ _ H0). cbn. by rewrite En.
    - left. exists st0, st'. destruct (GI_mstep sz _ _ _ _ _ _ _ (cs_out s) (cs_log s) G H0 Hm) as (X & _ & _ & EB). subst d g. done.
    - right. split; [by rewrite Eg|]. split; [eapply HM; [done|done|]; by intros r ?%elem_of_nil|]. left. eapply HN; [done|done|]. apply submseteq_nil_l.
    - right. split; [by rewrite Eg|]. split; [eapply HM; [done|done|]; by intros r'|]. left. by eapply HN.
  Qed.
  Lemma KK_now o D e o' : KK o D -> clev e -> wstep sz acq o (WNow e) = Ok o' -> exists D', KK o' D'.
  Proof.
    intros K Hc Hw. destruct (WI_step _ _ _ _ _ _ (k_wi _ _ K) Hw) as [X W']. exists (D ++ X). pose proof (wstep_nowrel _ _ _ Hw) as N.
    pose proof (nr_s _ _ _ N) as Hs. pose proof (W_g _ _ _ (k_wi _ _ K)) as G. pose proof (W_g _ _ _ W') as G'. destruct (nr_old _ _ _ N) as [q Eo].
    pose proof (CL_cstep _ _ _ Hc (k_cl _ _ K) Hs) as C'. destruct (calm_cases _ _ _ _ G (k_cl _ _ K) Hc Hs) as [(st & st' & S)|(Eg & HM & HN)].
    - destruct (st_new _ _ _ _ _ _ _ K W' N S) as [H1 H2]. pose proof (st_len _ _ _ _ _ _ _ K W' N S) as Hl. split; [done|done|done|done| | |].
      + rewrite Eo. apply Forall_app. split; [|by constructor]. eapply Forall_impl; [apply (k_len _ _ K)|]. cbn. intros z Hz. lia.
      + intros y w. by apply (st_one _ _ _ _ _ _ _ _ _ K W' N S).
      + intros r. by apply (st_mut _ _ _ _ _ _ _ _ K W' N S).
    - assert (X = []) as -> by exact (same_guards _ _ _ _ G G' Eg). rewrite app_nil_r in *. pose proof (cstep_grow _ _ _ _ Hs) as Hgr.
      assert (forall y, gval (cs_g (ws_s o')) y = gval (cs_g (ws_s o)) y) as Hv. { intros y. unfold gval. by rewrite Eg. }
      split; [done|done|..].
      + destruct HN as [HN|[HN _]]; [apply submseteq_Permutation in HN as [l HN]; pose proof (k_nd _ _ K) as Hd; rewrite HN in Hd; apply NoDup_app in Hd as [Hd _]; exact Hd|]. rewrite HN. apply NoDup_cons. split; [|apply (k_nd _ _ K)].
        intros Hx. destruct (k_new _ _ K _ Hx). lia.
      + intros x Hx. destruct HN as [HN|[HN Hl]].
        * destruct (k_new _ _ K x) as [H1 H2]; [by eapply elem_of_submseteq|]. split; [done|lia].
        * rewrite HN in Hx. apply elem_of_cons in Hx as [->|Hx]; [|destruct (k_new _ _ K x Hx); split; [done|lia]].
          split; [|done]. intros [i Hi]%elem_of_list_lookup. pose proof (gi_dom _ _ _ _ _ (G_inv _ _ G) _ _ Hi) as Hd. rewrite (G_len _ _ G) in Hd. lia.
      + rewrite Eo, Eg. apply Forall_app. split; [apply (k_len _ _ K)|by constructor].
      + intros y w Hg. destruct (inherit _ _ _ _ _ _ G N Hg) as [(w0 & Hw0 & Hi)|(st & st' & -> & S & Hy)].
        * eapply one_keep; [exact Eo|apply Hv|by apply (k_one _ _ K)|done].
        * rewrite <- (app_nil_r D) in W'. by apply (st_one _ _ _ _ _ _ _ _ _ K W' N S).
      + intros r Hr. rewrite Eg. by apply (k_mut _ _ K), HM.
  Qed.
  Lemma oldrel o t j o' : wstep sz acq o (WOld t j) = Ok o' -> o' = o \/ (forall t0, ws_thr o t0 ⊆ ws_thr o' t0) /\ ws_var o' = ws_var o /\ ws_bor o' = ws_bor o.
  Proof.
    unfold wstep. intros H. destruct (cs_t (ws_s o) !! t) as [st|] eqn:Ht; [|injection H as <-; by left].
    destruct (next_load o t) as [l|]; [|injection H as <-; by left].
    apply bind_inv in H as (s' & Hs & H). case_decide; [|injection H as <-; by left]. destruct (value o j l) as [v|] eqn:Ev; [|injection H as <-; by left].
    destruct (loaded st v) as [st'|] eqn:Es; [|injection H as <-; by left].
    injection H as <-. right. cbn. split; [intros t0; apply spread_mono|done].
  Qed.
  Lemma visible_count o D t j r : KK o D -> grefs (ws_s o) (HT t) (ar_guard r) -> visible o (ws_thr o t) (LGuard (ar_guard r)) j ->
    value o j (LGuard (ar_guard r)) = Some (LCount 1) -> rc_count (gd_guards (cs_g (ws_s o))) (ar_guard r) = 1.
  Proof.
    intros K Hg Hvis Hv. destruct (decide (j <= length (ws_old o))) as [Hj|Hj].
    2:{ rewrite value_now in Hv by lia. by apply gval_count. }
    destruct (k_one _ _ K _ _ Hg j Hj Hv) as [Hc|(i & Hij & Hn & [Hi|(? & ? & ? & ? & _)])]; [| |done].
    - apply gval_count. rewrite <- (value_now o (length (ws_old o))) by done. rewrite <- Hv. symmetry. by apply value_const.
    - exfalso. eapply Hvis; [|exact (proj1 Hij)|exact Hi]. unfold changes. apply elem_of_list_to_set, elem_of_list_filter. split; [done|]. apply elem_of_seq. lia.
  Qed.
  Lemma KK_old o D t j o' : KK o D -> wstep sz acq o (WOld t j) = Ok o' -> exists D', KK o' D'.
  Proof.
    intros K Hw. destruct (WI_step _ _ _ _ _ _ (k_wi _ _ K) Hw) as [X W']. pose proof (oldrel _ _ _ _ Hw) as Hr.
    apply wstep_cases in Hw. inversion Hw as [|? ?|? ? l v st st' ? _ Ht Hl Hv Hst Hvis Es [q Eo]]; subst; [by exists D|].
    destruct Hr as [->|(R1 & R2 & R3)]; [by exists D|].
    pose proof (W_g _ _ _ (k_wi _ _ K)) as G. pose proof (W_g _ _ _ W') as G'.
    assert (X = []) as ->. { eapply same_guards; [exact G|exact G'|]. by rewrite Es. } rewrite app_nil_r in *. exists D.
    pose proof (loaded_stale _ _ _ _ _ _ _ _ (k_wi _ _ K) Hl Hv Hst) as Hs. pose proof (Forall_lookup_1 _ _ _ _ (cl_t _ (k_cl _ _ K)) Ht) as Hcl.
    assert (cs_g (ws_s o') = cs_g (ws_s o)) as Eg by (by rewrite Es). assert (cs_t (ws_s o') = <[t := st']> (cs_t (ws_s o))) as Et by (by rewrite Es).
    assert (cs_h (ws_s o') = cs_h (ws_s o)) as Eh by (by rewrite Es). assert (cs_d (ws_s o') = cs_d (ws_s o)) as Ed by (by rewrite Es).
    destruct (stale_res _ _ _ _ Hs) as (EG & _ & _ & EB & _).
    assert (thr fN (cs_t (ws_s o')) ≡ₚ thr fN (cs_t (ws_s o))) as P.
    { rewrite Et, (thr_upd _ _ _ _ _ Ht), (thr_perm _ (cs_t (ws_s o)) _ _ Ht). by rewrite (stale_new _ _ _ _ Hcl Hs). }
    split; [done|..].
    - destruct (k_cl _ _ K) as [C1 C2 C3 C4]. split; [|by rewrite Eh|by rewrite Eg|by rewrite Ed]. rewrite Et. apply Forall_insert; [done|]. by eapply cl_stale.
    - rewrite P. apply (k_nd _ _ K).
    - intros x Hx. rewrite P in Hx. rewrite Ed. by apply (k_new _ _ K).
    - rewrite Eo, Eg. apply Forall_app. split; [apply (k_len _ _ K)|by constructor].
    - intros y w Hg. assert (grefs (ws_s o) w y) as Hg0.
      { destruct w as [t0|h]; cbn in *; [|by rewrite Eh in Hg]. destruct Hg as (st0 & Ht0 & Hy). rewrite Et in Ht0.
        apply list_lookup_insert_Some in Ht0 as [(<- & <- & _)|[_ Ht0]]; [|by exists st0]. exists st. by rewrite <- EG. }
      eapply one_keep; [exact Eo|by rewrite Eg|by apply (k_one _ _ K)|]. intros i [Hi|(t0 & st0 & h & -> & Ht0 & Hb & Hi)].
      + left. destruct w; cbn in *; [by apply R1|by rewrite R2, R3].
      + right. destruct (decide (t0 = t)) as [->|Hne].
        * rewrite Ht in Ht0. injection Ht0 as <-. exists t, st', h. split; [done|]. rewrite Et, list_lookup_insert by (by eapply lookup_lt_Some). rewrite EB. split; [done|]. split; [done|by apply R1].
        * exists t0, st0, h. split; [done|]. rewrite Et, list_lookup_insert_ne by done. split; [done|]. split; [done|by apply R1].
    - intros r Hr. rewrite Eg. rewrite Et, (thr_upd _ _ _ _ _ Ht), elem_of_app in Hr.
      assert (r ∈ thr fM5 (cs_t (ws_s o)) \/ exists k, st = FGm4 r :: k /\ st' = FGm5 r :: k) as [H|(k & -> & ->)].
      { rewrite (thr_perm _ (cs_t (ws_s o)) _ _ Ht), elem_of_app. destruct Hr as [Hr|Hr]; [|by auto]. destruct (stale_five _ _ _ _ Hs r Hr) as [H|[k ->]]; [by auto|].
        inversion Hs; subst; [by right; exists k|]. left; left. done. }
      { by apply (k_mut _ _ K). }
      cbn in Hl. injection Hl as <-. destruct v; try done. cbn in Hst. case_match eqn:Ec; [|done]. apply Nat.eqb_eq in Ec as ->.
      eapply visible_count; [done| |exact Hvis|done]. exists (FGm4 r :: k). split; [done|left].
  Qed.
  Lemma KK_init n : KK (init_wstate n) [].
  Proof.
    assert (forall A (F : frame V -> list A), thr F (replicate n []) = []) as E.
    { intros A F. unfold thr. induction n as [|k IH]; [done|]. cbn. by rewrite IH. }
    split; [apply WI_init|apply CL_init|..]; cbn.
    - rewrite E. constructor.
    - intros x. rewrite E. by intros ?%elem_of_nil.
    - constructor.
    - intros y [t|h] Hg; cbn in Hg; [|by destruct Hg as (? & ? & ? & _)]. destruct Hg as (st & Ht & Hy). apply lookup_replicate in Ht as [-> _]. by apply elem_of_nil in Hy.
    - intros r. rewrite E. by intros ?%elem_of_nil.
  Qed.
  Definition clones_only (es : list (sched (V:=V))) : Prop := Forall clev es.
  Lemma KK_reach n es o : clones_only (calls es) -> wreach sz acq n es o -> exists D, KK o D.
  Proof.
    intros Hc H. unfold wreach in H. assert (exists D, KK (init_wstate n) D) as HK by (exists []; apply KK_init).
    revert HK H. generalize (init_wstate (V:=V) n) as o0. revert Hc. induction es as [|e es IH]; intros Hc o0 [D K] H; [injection H as <-; by exists D|].
    cbn in H. apply bind_inv in H as (o1 & H1 & H). destruct e as [e|t j].
    - apply Forall_cons in Hc as [He Hc]. eapply IH; [done| |done]. by eapply KK_now.
    - eapply IH; [done| |done]. by eapply KK_old.
  Qed.

  (** ** Exclusion *)
  Lemma acc_carried E b q (k : stack) : acc E b q k -> k ≫= carried = [].
  Proof. induction 1; try done. Qed.
  Lemma run_carried E b st r : run E b st -> XArc r ∈ st ≫= carried -> rok (ge_D E) r.
  Proof.
    intros H. induction H; intros Hr; try (by apply elem_of_nil in Hr); try (by apply IHrun).
    - match goal with A : acc _ _ _ _ |- _ => apply acc_carried in A as Ek end. rewrite bind_cons, Ek, app_nil_r in Hr.
      destruct v as [| |r'|[x|] z]; try (by apply elem_of_nil in Hr); apply elem_of_list_singleton in Hr.
      + injection Hr as ->. by match goal with A : vok _ _ _ |- _ => destruct A end.
      + subst x. match goal with A : vok _ _ _ |- _ => destruct A as [_ A]; exact (A _ eq_refl) end.
    - match goal with A : chframe _ _ |- _ => destruct f; try done end; by apply elem_of_nil in Hr.
    - match goal with A : acc _ _ _ _ |- _ => apply acc_carried in A as Ek end. rewrite bind_cons, Ek, app_nil_r in Hr.
      match goal with A : gframe _ _ _ |- _ => destruct f; try done end; by apply elem_of_nil in Hr.
    - match goal with A : _ \/ _ |- _ => destruct A as [->| ->] end; by apply elem_of_nil in Hr.
    - cbn in Hr. apply elem_of_list_singleton in Hr. by injection Hr as ->.
    - match goal with A : _ \/ _ |- _ => destruct A as [->| ->] end; cbn in Hr; apply elem_of_list_singleton in Hr; by injection Hr as ->.
    - match goal with A : _ \/ _ |- _ => destruct A as [->| ->] end; cbn in Hr; apply elem_of_list_singleton in Hr; by injection Hr as ->.
    - cbn in Hr. apply elem_of_list_singleton in Hr. by injection Hr as ->.
    - match goal with A : _ \/ _ |- _ => destruct A as [->| ->] end; cbn in Hr; apply elem_of_list_singleton in Hr; by injection Hr as ->.
    - match goal with A : fgs _ _ |- _ => assert (k ≫= carried = []) as Ek by (clear Hr; by induction A) end.
      rewrite bind_cons, Ek in Hr. by apply elem_of_nil in Hr.
    - cbn in Hr. apply elem_of_list_singleton in Hr. by injection Hr as ->.
  Qed.
  Lemma carried_guard st r : XArc r ∈ st ≫= carried -> ar_guard r ∈ stk fG st.
  Proof.
    intros (f & Hx & Hf)%elem_of_list_bind. apply elem_of_list_bind. exists f. split; [|done].
    destruct f; try (by apply elem_of_nil in Hx); try (apply elem_of_list_singleton in Hx; injection Hx as ->; left).
    destruct v as [| |q|[y|]]; try (by apply elem_of_nil in Hx); apply elem_of_list_singleton in Hx; [injection Hx as ->|subst y]; left.
  Qed.
  Lemma nopar_MI s : CL s -> MI s.
  Proof.
    intros [_ _ Hp Hk]. split; intros p n c.
    - intros Hn Hc. rewrite (Hk _ _ Hn : kids n = []) in Hc. by apply elem_of_nil in Hc.
    - intros H. exfalso. unfold data_parent in H. destruct (gd_metas (cs_g s) !! c) as [m|] eqn:E; [|done]. cbn in H. by rewrite (Hp _ _ E) in H.
  Qed.
  Lemma nopar_ance s x y : CL s -> ance (cs_g s) x y -> x = y.
  Proof.
    intros [_ _ Hp _] [->|H]; [done|]. exfalso.
    assert (forall c p, data_parent (cs_g s) c = Some p -> False) as HF.
    { intros c p Hc. unfold data_parent in Hc. destruct (gd_metas (cs_g s) !! c) as [m|] eqn:E; [|done]. cbn in Hc. by rewrite (Hp _ _ E) in Hc. }
    inversion H; subst; by eapply HF.
  Qed.
  Lemma same_guard s D r r' w w' : GI s D -> rok D r -> rok D r' -> ar_data r = ar_data r' -> grefs s w (ar_guard r) -> grefs s w' (ar_guard r') -> ar_guard r = ar_guard r'.
  Proof.
    intros G H1 H2 E R1 R2. pose proof (gi_dom _ _ _ _ _ (G_inv _ _ G) _ _ H1) as Hl. destruct (lookup_lt_is_Some_2 _ _ Hl) as [m Hm].
    destruct (gi_box _ _ _ _ _ (G_inv _ _ G) _ _ Hm) as (oo & _ & _ & Hu).
    assert (forall w y, grefs s w y -> exists n, rc_get (gd_guards (cs_g s)) y = Some n) as Hlive.
    { intros w0 y Hy. pose proof (gref_live _ _ _ _ G Hy) as Hc. unfold rc_count in Hc. unfold rc_get. destruct (gd_guards (cs_g s) !! y) as [[[c n]|]|]; [by eexists|lia..]. }
    destruct (Hlive _ _ R1) as [n1 Hn1]. destruct (Hlive _ _ R2) as [n2 Hn2].
    pose proof (Hu _ _ Hn1 H1) as E1. unfold rok in H2. rewrite <- E in H2. pose proof (Hu _ _ Hn2 H2) as E2. rewrite E1 in E2. by injection E2.
  Qed.
  Definition quiet_weak (es : list (sched (V:=V))) : Prop := if wk then no_upgrade es else no_downgrade es.
  Section final.
    Context n es o (Hh : no_halves (calls es)) (Hd : quiet_weak (calls es)) (Hr : wreach sz acq n es o).
    Lemma fin_K : exists D, KK o D.
    Proof. eapply KK_reach; [|exact Hr]. apply Forall_and. split; [exact Hh|]. revert Hd. unfold quiet_weak. by case wk. Qed.
    Lemma fin_D : exists T L, DI sz (ws_s o) T L.
    Proof. destruct (tame_DI sz acq n es o (or_intror Hh) Hr) as [H _]. exact H. Qed.
    (** Whoever holds the items of [r] has the only reference to its guard. *)
    Lemma fin_hold t x : holding (ws_s o) t x -> exists r st, ar_data r = x /\ cs_t (ws_s o) !! t = Some st /\ XArc r ∈ st ≫= carried /\ r ∈ stk fM5 st.
    Proof. intros (r & k & E & [Ht|Ht]); eexists r, _; (split; [done|]); (split; [exact Ht|]); (split; left). Qed.
    Lemma fin_others t x c : holding (ws_s o) t x -> c ∈ data_cells (ws_s o) x ->
      forall v w, w <> HT t -> (forall y, y ∈ hG v -> grefs (ws_s o) w y) -> (forall r D, v = XArc r -> GI (ws_s o) D -> rok D r) -> (forall q, q ∈ hO v -> q ∈ tot hO fO (ws_s o)) ->
      c ∉ xcells (ws_s o) v.
    Proof.
      intros Ho Hc v w Hne HG Hok HO Hv. destruct fin_K as [D K]. destruct fin_D as (T & L & DD). pose proof (W_g _ _ _ (k_wi _ _ K)) as G.
      destruct (fin_hold _ _ Ho) as (r & st & <- & Ht & Hcar & H5). destruct (G_run _ _ G _ _ Ht) as [b Hrun]. pose proof (run_carried _ _ _ _ Hrun Hcar) as Hrok. cbn in Hrok.
      apply data_cells_live in Hc as (j & nd & Hn & Hc). pose proof (D_inv _ _ _ _ DD) as DV. destruct v as [r'| | |m| |]; try (by apply elem_of_nil in Hv).
      - cbn in Hv. apply data_cells_live in Hv as (i & m & Hm & Hc').
        assert (ar_data r = ar_data r') as E.
        { destruct (overlap sz _ _ _ _ _ _ _ _ _ _ _ _ DV (nopar_MI _ (k_cl _ _ K)) Hn Hc Hm Hc') as [H|H]; apply (nopar_ance _ _ _ (k_cl _ _ K)) in H; by rewrite H. }
        assert (grefs (ws_s o) (HT t) (ar_guard r)) as R1. { exists st. split; [done|]. by apply carried_guard. }
        assert (grefs (ws_s o) w (ar_guard r')) as R2. { apply HG. left. }
        pose proof (same_guard _ _ _ _ _ _ G Hrok (Hok _ _ eq_refl G) E R1 R2) as Eg. rewrite <- Eg in R2.
        apply Hne. symmetry. eapply sole; [exact G|exact R1|exact R2|]. apply (k_mut _ _ K). apply thr_elem. by exists t, st.
      - cbn in Hv. apply rng_cells_elem, in_rng_spec in Hv.
        destruct (dinv_live_label sz _ _ _ _ _ DV _ _ _ Hn) as [l Hl].
        destruct (proj1 (elem_of_Permutation _ _) (HO _ (elem_of_list_here _ _))) as [O' HP].
        destruct (dinv_exclusive sz _ _ _ _ _ DV c _ O' HP Hv) as [_ H2]. specialize (H2 (ar_data r) l).
        rewrite <- (proj1 (di_geo _ _ _ _ _ _ DV _ _ _ _ Hn Hl)), Hc in H2. discriminate H2; [|done].
        apply elem_of_app. right. apply thr_elem. exists t, st. split; [done|]. apply (proj1 (carried_ref _ _ Hcar)). left.
    Qed.
  End final.
  Theorem wk_hold_exclusive n es o t x c : no_halves (calls es) -> quiet_weak (calls es) -> wreach sz acq n es o ->
    holding (ws_s o) t x -> c ∈ data_cells (ws_s o) x ->
    (forall h, c ∉ ccells (ws_s o) h) /\
    (forall t' st v, t' <> t -> cs_t (ws_s o) !! t' = Some st -> v ∈ st ≫= carried -> c ∉ xcells (ws_s o) v).
  Proof.
    intros Hh Hd Hr Ho Hc. split.
    - intros h Hch. unfold ccells in Hch. destruct (cget (ws_s o) h) as [v|] eqn:Hv; [|by apply elem_of_nil in Hch].
      apply cget_slot in Hv as [k Hv]. revert Hch. eapply (fin_others n es o Hh Hd Hr t x c Ho Hc v (HV h)); [done|..].
      + intros y Hy. by exists v, k.
      + intros r D -> G. by apply (G_slot _ _ G _ _ _ Hv).
      + intros q Hq. apply elem_of_app. left. apply slo_elem. eauto.
    - intros t' st v Hne Ht Hv. destruct (carried_ref _ _ Hv) as [_ H2]. eapply (fin_others n es o Hh Hd Hr t x c Ho Hc v (HT t')).
      + congruence.
      + intros y Hy. exists st. split; [done|]. destruct v; try (by apply elem_of_nil in Hy). cbn in Hy. apply elem_of_list_singleton in Hy as ->. by apply carried_guard.
      + intros r D -> G. destruct (G_run _ _ G _ _ Ht) as [b Hrun]. exact (run_carried _ _ _ _ Hrun Hv).
      + intros q Hq. apply elem_of_app. right. apply thr_elem. eauto.
  Qed.
  (** In the meantime only [t] changes the items. *)
  Theorem wk_hold_kept n es o t x c (e : wsched V) o' : no_halves (calls es) -> quiet_weak (calls es) -> wreach sz acq n es o ->
    holding (ws_s o) t x -> c ∈ data_cells (ws_s o) x -> (forall e', e = WNow e' -> actor e' <> t) -> wstep sz acq o e = Ok o' ->
    citem (ws_s o') c = citem (ws_s o) c.
  Proof.
    intros Hh Hd Hr Ho Hc He Hs. pose proof (wk_hold_exclusive _ _ _ _ _ _ Hh Hd Hr Ho Hc) as [_ Hex].
    destruct (fin_K n es o Hh Hd Hr) as [D K]. destruct (fin_D n es o Hh Hr) as (T & L & DD).
    apply wstep_cases in Hs. inversion Hs as [e0 s' ? Hs0 Es _ E1 E2|? ?|? ? l v st st' ? _ Ht Hl Hv Hst Hvis Es _]; subst; [|done|by rewrite Es].
    specialize (He _ eq_refl). destruct (fin_hold o _ _ Ho) as (r & st & <- & Ht & Hcar & H5).
    apply data_cells_live in Hc as (j & nd & Hn & Hc).
    assert (ar_data r ∈ tot hR fR (ws_s o)) as Hx. { apply elem_of_app. right. apply thr_elem. exists t, st. split; [done|]. apply (proj1 (carried_ref _ _ Hcar)). left. }
    destruct (item_stable sz (ws_s o) T L e0 (ws_s o') (ar_data r) j nd c DD Hx Hn Hc) as [?|(t' & i & v & r' & m' & -> & Ht' & Hm' & Hc')]; try done.
    - apply (K_block _ (W_k _ _ _ (k_wi _ _ K))). by eapply ref_cells; [apply DD|..].
    - exfalso. cbn in He. eapply (Hex t' _ (XArc r')); [done|exact Ht'|left|]. cbn. unfold data_cells, data_rng. rewrite Hm'. cbn. by apply rng_cells_elem, in_rng_spec.
  Qed.
  (** If [get_mut] reads the count of the guard as 1, it is 1. *)
  Theorem wk_get_mut_current n es o t j r k o' : no_halves (calls es) -> quiet_weak (calls es) -> wreach sz acq n es o ->
    cs_t (ws_s o) !! t = Some (FGm4 r :: k) -> wstep sz acq o (WOld t j) = Ok o' -> cs_t (ws_s o') !! t = Some (FGm5 r :: k) ->
    rc_count (gd_guards (cs_g (ws_s o))) (ar_guard r) = 1.
  Proof.
    intros Hh Hd Hr Ht Hs Ht'. destruct (fin_K n es o Hh Hd Hr) as [D K]. destruct (KK_old _ _ _ _ _ K Hs) as [D' K'].
    pose proof (k_mut _ _ K' r) as H. apply wstep_cases in Hs. inversion Hs as [|? ?|? ? l v st st' ? _ _ _ _ _ _ Es _]; subst; [by rewrite Ht in Ht'|].
    rewrite Es in H at 2. apply H. apply thr_elem. eexists t, _. split; [exact Ht'|left].
  Qed.
End clones.

Section weak_slices.
  Context {V : Type} (sz : N) (acq : bool).
  Theorem weak_hold_exclusive n (es : list (wsched V)) o t x c : no_halves (calls es) -> no_downgrade (calls es) \/ no_upgrade (calls es) -> wreach sz acq n es o ->
    holding (ws_s o) t x -> c ∈ data_cells (ws_s o) x ->
    (forall h, c ∉ ccells (ws_s o) h) /\
    (forall t' st v, t' <> t -> cs_t (ws_s o) !! t' = Some st -> v ∈ st ≫= carried -> c ∉ xcells (ws_s o) v).
  Proof. intros Hh [Hd|Hd]; [exact (wk_hold_exclusive sz acq false _ _ _ _ _ _ Hh Hd)|exact (wk_hold_exclusive sz acq true _ _ _ _ _ _ Hh Hd)]. Qed.
  Theorem weak_hold_kept n es o t x c (e : wsched V) o' : no_halves (calls es) -> no_downgrade (calls es) \/ no_upgrade (calls es) -> wreach sz acq n es o ->
    holding (ws_s o) t x -> c ∈ data_cells (ws_s o) x -> (forall e', e = WNow e' -> actor e' <> t) -> wstep sz acq o e = Ok o' ->
    citem (ws_s o') c = citem (ws_s o) c.
  Proof. intros Hh [Hd|Hd]; [exact (wk_hold_kept sz acq false _ _ _ _ _ _ _ _ Hh Hd)|exact (wk_hold_kept sz acq true _ _ _ _ _ _ _ _ Hh Hd)]. Qed.
  Theorem weak_get_mut_current n (es : list (wsched V)) o t j r k o' : no_halves (calls es) -> no_downgrade (calls es) \/ no_upgrade (calls es) -> wreach sz acq n es o ->
    cs_t (ws_s o) !! t = Some (FGm4 r :: k) -> wstep sz acq o (WOld t j) = Ok o' -> cs_t (ws_s o') !! t = Some (FGm5 r :: k) ->
    rc_count (gd_guards (cs_g (ws_s o))) (ar_guard r) = 1.
  Proof. intros Hh [Hd|Hd]; [exact (wk_get_mut_current sz acq false _ _ _ _ _ _ _ _ Hh Hd)|exact (wk_get_mut_current sz acq true _ _ _ _ _ _ _ _ Hh Hd)]. Qed.
End weak_slices.
