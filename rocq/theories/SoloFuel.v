(** The recursions of the data layer and of the guards do not run out of fuel if
    data are linked to newer ones only and guards to older ones only. *)
From Verif Require Import Base BaseLemmas Api SliceItemsModel Spec BinPartsModel DataModel RcModel ArcModel.
Local Open Scope nat_scope.

(** [m] does not run out of fuel, and if it succeeds, [P] holds. *)
Definition okfuel {A} (m : res A) (P : A -> Prop) : Prop :=
  match m with Ok a => P a | NoFuel => False | _ => True end.
Lemma okfuel_bind {A B} (m : res A) (f : A -> res B) P Q :
  okfuel m P -> (forall a, P a -> okfuel (f a) Q) -> okfuel (m ≫= f) Q.
Proof. destruct m; cbn; auto. Qed.
Lemma okfuel_mono {A} (m : res A) (P Q : A -> Prop) : okfuel m P -> (forall a, P a -> Q a) -> okfuel m Q.
Proof. destruct m; cbn; auto. Qed.
Lemma okfuel_ne {A} (m : res A) P : okfuel m P -> m <> NoFuel.
Proof. by destruct m. Qed.
Lemma okfuel_ok {A} (m : res A) P a : okfuel m P -> m = Ok a -> P a.
Proof. by intros H ->. Qed.

Section fuel.
  Context {V : Type} (sz : N).
  Implicit Types (d : dworld V) (g : gdworld).

  (** The same boxes, some of them destroyed, with other counts. *)
  Definition sub {A} (h h' : heap A) : Prop :=
    length h' = length h /\ forall x c v, h' !! x = Some (Some (c, v)) -> exists c', h !! x = Some (Some (c', v)).
  Lemma sub_refl {A} (h : heap A) : sub h h.
  Proof. split; eauto. Qed.
  Lemma sub_trans {A} (h h1 h2 : heap A) : sub h h1 -> sub h1 h2 -> sub h h2.
  Proof. intros [E1 H1] [E2 H2]. split; [congruence|]. intros x c v H. destruct (H2 _ _ _ H) as [c' H']. eauto. Qed.
  Lemma sub_ins {A} (h : heap A) x o : (forall c v, o = Some (c, v) -> exists c', h !! x = Some (Some (c', v))) -> sub h (<[x := o]> h).
  Proof.
    intros Ho. split; [by rewrite insert_length|]. intros y c v. destruct (decide (y = x)) as [->|]; [|rewrite list_lookup_insert_ne by done; eauto].
    intros H. assert (x < length h). { apply lookup_lt_Some in H. by rewrite insert_length in H. }
    rewrite list_lookup_insert in H by done. injection H as ->. eauto.
  Qed.
  Lemma dec_fuel {A} (h : heap A) x : okfuel (rc_dec h x) (fun '(h', r) => sub h h' /\ forall v, r = Some v -> exists c, h !! x = Some (Some (c, v))).
  Proof.
    unfold rc_dec. destruct (h !! x) as [[[[|[|c]] v]|]|] eqn:E; try done; cbn.
    - split; [by apply sub_ins|]. intros v' [= <-]. eauto.
    - split; [|done]. apply sub_ins. intros c' v' [= <- <-]. eauto.
  Qed.
  Lemma unwrap_fuel {A} (h : heap A) x : okfuel (rc_try_unwrap h x) (fun '(h', r) => sub h h' /\ forall v, r = Some v -> exists c, h !! x = Some (Some (c, v))).
  Proof.
    unfold rc_try_unwrap. destruct (h !! x) as [[[[|[|c]] v]|]|] eqn:E; try done; cbn.
    - split; [by apply sub_ins|]. intros v' [= <-]. eauto.
    - split; [apply sub_refl|done].
  Qed.
  Lemma inc_fuel {A} (h : heap A) x : okfuel (rc_inc h x) (sub h).
  Proof. unfold rc_inc. destruct (h !! x) as [[[c v]|]|] eqn:E; try done; cbn. apply sub_ins. intros c' v' [= <- <-]. eauto. Qed.
  Lemma upgrade_sub {A} (h : heap A) o : sub h (fst (rc_upgrade h o)).
  Proof.
    unfold rc_upgrade. destruct o as [x|]; [|apply sub_refl]. destruct (h !! x) as [[[c v]|]|] eqn:E; cbn; try apply sub_refl.
    apply sub_ins. intros c' v' [= <- <-]. eauto.
  Qed.
  Lemma val_fuel {A} (h : heap A) x : okfuel (rc_val h x) (fun v => exists c, h !! x = Some (Some (c, v))).
  Proof. unfold rc_val, rc_get. destruct (h !! x) as [[[c v]|]|] eqn:E; cbn; try done. eauto. Qed.

  (** ** Data *)
  Definition aged (h : heap dnode) : Prop := forall x c n side y, h !! x = Some (Some (c, n)) -> d_child side n = Some y -> x < y.
  Lemma aged_sub h h' : sub h h' -> aged h -> aged h'.
  Proof. intros [_ H] HA x c n side y Hx Hy. destruct (H _ _ _ Hx) as [c' Hx']. eauto. Qed.
  Lemma take_fuel d p : okfuel (mem_take sz d p) (fun x => dw_datas (fst x) = dw_datas d).
  Proof.
    unfold mem_take, mem_at. destruct (_ !! _) as [b|]; [|done]. case_match; [done|]. by destruct (_ !! _).
  Qed.
  Lemma place_fuel n : forall d p, okfuel (drop_in_place sz d n p) (fun d' => dw_datas d' = dw_datas d).
  Proof.
    induction n as [|n IH]; intros d p; [done|]. cbn [drop_in_place]. eapply okfuel_bind; [apply take_fuel|].
    intros [d' v] E. eapply okfuel_mono; [apply IH|]. cbn in *. intros d2 ->. done.
  Qed.
  Lemma arel_fuel d a : okfuel (alloc_release sz d a) (fun d' => dw_datas d' = dw_datas d).
  Proof.
    unfold alloc_release. destruct a as [a|]; [|done]. eapply okfuel_bind; [apply dec_fuel|].
    intros [h [v|]] _; [|done]. unfold salloc_drop. case_match; [done|]. case_match; [|done]. by case_match.
  Qed.
  Lemma release_fuel fuel : forall d x, aged (dw_datas d) -> length (dw_datas d) <= x + fuel ->
    okfuel (data_release sz (S fuel) d x) (fun d' => sub (dw_datas d) (dw_datas d')).
  Proof.
    induction fuel as [|fuel IH]; intros d x HA Hl; cbn [data_release].
    - unfold rc_dec. by rewrite lookup_ge_None_2 by lia.
    - eapply okfuel_bind; [apply dec_fuel|]. intros [h r] [Hs Hr]. destruct r as [n|]; [|done].
      destruct (Hr n eq_refl) as [c Hx].
      assert (forall d1 side, sub (dw_datas d) (dw_datas d1) ->
        okfuel (match d_child side n with None => Ok d1 | Some c => data_release sz (S fuel) d1 c end) (fun d' => sub (dw_datas d) (dw_datas d'))) as Hc.
      { intros d1 side H1. destruct (d_child side n) as [y|] eqn:Ey; [|done]. pose proof (HA _ _ _ _ _ Hx Ey).
        eapply okfuel_mono; [apply IH; [by eapply aged_sub|destruct H1; lia]|]. intros d2 H2. by eapply sub_trans. }
      eapply okfuel_bind; [apply (Hc _ false); done|]. intros d1 H1. eapply okfuel_bind; [apply (Hc _ true); done|]. intros d2 H2.
      eapply okfuel_bind with (P := fun d3 => dw_datas d3 = dw_datas d2).
      { destruct (d_left n), (d_right n); [done|destruct (right_sub sz n)|destruct (left_sub n)|]; apply place_fuel. }
      intros d3 E3. eapply okfuel_mono; [apply arel_fuel|]. intros d4 ->. by rewrite E3.
  Qed.
  Lemma drop_fuel d x : aged (dw_datas d) -> okfuel (data_drop sz d x) (fun d' => sub (dw_datas d) (dw_datas d')).
  Proof. intros H. apply release_fuel; [done|lia]. Qed.
  Lemma forget_fuel fuel : forall d n, aged (dw_datas d) ->
    (forall side y, d_child side n = Some y -> length (dw_datas d) <= y + fuel) ->
    okfuel (data_forget_items sz (S fuel) d n) (fun x => sub (dw_datas d) (dw_datas (fst x)) /\ d_alloc (snd x) = d_alloc n).
  Proof.
    induction fuel as [|fuel IH]; intros d n HA Hl; cbn [data_forget_items].
    - assert (forall d1 side {B} (f : dworld V -> res B) P, sub (dw_datas d) (dw_datas d1) -> (d_child side n = None -> okfuel (f d1) P) ->
        okfuel ((match d_child side n with None => Ok d1 | Some c =>
          '(h, r) ← rc_try_unwrap (dw_datas d1) c;
          match r with
          | Some child => '(w, child) ← NoFuel; data_drop_forgotten sz w child
          | None => data_release sz (S (length (dw_datas (dw_set_datas d1 h)))) (dw_set_datas d1 h) c
          end end) ≫= f) P) as Hc.
      { intros d1 side B f P H1 Hf. destruct (d_child side n) as [y|] eqn:Ey; [|by apply Hf].
        pose proof (Hl _ _ Ey). unfold rc_try_unwrap. rewrite lookup_ge_None_2; [done|]. destruct H1. lia. }
      apply (Hc d false); [apply sub_refl|]. intros _. apply (Hc d true); [apply sub_refl|]. intros _. cbn. split; [apply sub_refl|done].
    - assert (forall d1 side, sub (dw_datas d) (dw_datas d1) ->
        okfuel (match d_child side n with None => Ok d1 | Some c =>
          '(h, r) ← rc_try_unwrap (dw_datas d1) c;
          match r with
          | Some child => '(w, child) ← data_forget_items sz (S fuel) (dw_set_datas d1 h) child; data_drop_forgotten sz w child
          | None => data_release sz (S (length (dw_datas (dw_set_datas d1 h)))) (dw_set_datas d1 h) c
          end end) (fun d' => sub (dw_datas d) (dw_datas d'))) as Hc.
      { intros d1 side H1. destruct (d_child side n) as [y|] eqn:Ey; [|done].
        eapply okfuel_bind; [apply unwrap_fuel|]. intros [h r] [Hs Hr].
        assert (sub (dw_datas d) h) as Hs' by by eapply sub_trans.
        destruct r as [n'|].
        - destruct (Hr _ eq_refl) as [c Hc]. eapply okfuel_bind.
          { apply IH; [by eapply aged_sub|]. intros side' y' Hy'. cbn. destruct Hs' as [-> _]. destruct H1 as [_ H1].
            destruct (H1 _ _ _ Hc) as [c' Hc']. pose proof (HA _ _ _ _ _ Hc' Hy'). pose proof (Hl _ _ Ey). lia. }
          intros [d2 n2] [H2 _]. cbn in H2. eapply okfuel_mono; [apply arel_fuel|]. intros d3 ->. by eapply sub_trans.
        - eapply okfuel_mono; [apply release_fuel; [by eapply aged_sub|lia]|]. intros d2 H2. by eapply sub_trans. }
      eapply okfuel_bind; [apply (Hc _ false), sub_refl|]. intros d1 H1. eapply okfuel_bind; [by apply (Hc _ true)|]. intros d2 H2. done.
  Qed.

  (** ** Guards *)
  Definition gaged (h : heap aguard) : Prop := forall x c n y, h !! x = Some (Some (c, n)) -> a_parent n = Some y -> y < x.
  Lemma gaged_sub h h' : sub h h' -> gaged h -> gaged h'.
  Proof. intros [_ H] HA x c n y Hx Hy. destruct (H _ _ _ Hx) as [c' Hx']. eauto. Qed.
  Lemma gaged_set h h' x (f : aguard -> aguard) : (forall n, a_parent (f n) = a_parent n) -> rc_set h x f = Ok h' -> gaged h -> gaged h'.
  Proof.
    intros Hf E HA. unfold rc_set in E. destruct (h !! x) as [[[c n]|]|] eqn:Ex; try done. injection E as <-.
    intros z c' n' y. destruct (decide (z = x)) as [->|]; [|rewrite list_lookup_insert_ne by done; apply HA].
    rewrite list_lookup_insert by by eapply lookup_lt_Some. intros [= <- <-]. rewrite Hf. by apply (HA _ _ _ _ Ex).
  Qed.
  Lemma relg_fuel fuel : forall g x, gaged (gd_guards g) -> x <= fuel -> okfuel (guard_release (S fuel) g x) (fun _ => True).
  Proof.
    induction fuel as [|fuel IH]; intros g x HA Hl; cbn [guard_release].
    - eapply okfuel_bind; [apply dec_fuel|]. intros [h r] [Hs Hr]. destruct r as [n|]; [|done]. destruct (Hr n eq_refl) as [c Hx].
      destruct (a_parent n) as [p|] eqn:Ep; [|done]. pose proof (HA _ _ _ _ Hx Ep). lia.
    - eapply okfuel_bind; [apply dec_fuel|]. intros [h r] [Hs Hr]. destruct r as [n|]; [|done]. destruct (Hr n eq_refl) as [c Hx].
      destruct (a_parent n) as [p|] eqn:Ep; [|done]. pose proof (HA _ _ _ _ Hx Ep). apply IH; [by eapply gaged_sub|lia].
  Qed.
  Lemma gdrop_fuel g x : gaged (gd_guards g) -> okfuel (guard_drop g x) (fun _ => True).
  Proof.
    intros HA. destruct (decide (x <= length (gd_guards g))); [by apply relg_fuel|]. unfold guard_drop. cbn [guard_release].
    unfold rc_dec. by rewrite lookup_ge_None_2 by lia.
  Qed.
  (** A data is newer than the one it is a half of. *)
  Definition meta_aged g : Prop := forall x m y, gd_metas g !! x = Some m -> am_parent m = Some y -> y < x.
  Lemma guard_fuel fuel : forall d g x, meta_aged g -> aged (dw_datas d) -> x <= fuel ->
    okfuel (guard_of sz (S fuel) (d, g) x) (fun r => sub (dw_datas d) (dw_datas (fst (fst r)))).
  Proof.
    induction fuel as [|fuel IH]; intros d g x HM HA Hl.
    all: cbn [guard_of fst snd]; eapply okfuel_bind; [apply val_fuel|]; intros _ _.
    all: destruct (gd_metas g !! x) as [m|] eqn:Em; [|done]; destruct (gd_boxes g !! am_box m) as [[wk|]|]; try done.
    all: destruct (rc_upgrade (gd_guards g) wk) as [gs [y|]]; [apply sub_refl|].
    all: eapply okfuel_bind with (P := fun r => sub (dw_datas d) (dw_datas (fst (fst r))));
      [|intros [[d1 g1] pg] Hs; unfold gd_new_guard; cbn [fst snd rc_new]; case_match; [|done]; by case_match].
    all: pose proof (upgrade_sub (dw_datas d) (am_parent m)) as Hu; destruct (rc_upgrade (dw_datas d) (am_parent m)) as [h o] eqn:Eo; cbn in Hu.
    all: destruct o as [p|]; [|apply sub_refl].
    all: assert (am_parent m = Some p) as Hp by
      (destruct (am_parent m) as [q|]; [|done]; unfold rc_upgrade in Eo; destruct (dw_datas d !! q) as [[[]|]|]; congruence).
    all: pose proof (HM _ _ _ Em Hp) as Hlt.
    1: lia.
    eapply okfuel_bind; [apply IH; [done|by eapply aged_sub|lia]|]. intros [[d1 g1] y] H1. cbn [fst snd] in *.
    eapply okfuel_bind; [apply drop_fuel; eapply aged_sub; [|exact HA]; by eapply sub_trans|]. intros d2 H2. cbn.
    eapply sub_trans; [|exact H2]. by eapply sub_trans.
  Qed.
  Lemma guard_for_fuel d g x : meta_aged g -> aged (dw_datas d) -> okfuel (guard_for sz (d, g) x) (fun r => sub (dw_datas d) (dw_datas (fst (fst r)))).
  Proof.
    intros HM HA. destruct (decide (x <= length (dw_datas d))); [by apply guard_fuel|]. unfold guard_for. cbn [guard_of fst snd].
    unfold rc_val, rc_get. by rewrite (lookup_ge_None_2 (dw_datas d) x) by lia.
  Qed.
End fuel.
