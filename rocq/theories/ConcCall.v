(** Whole calls, run without interruption. *)
From Verif Require Import Base BaseLemmas Api SliceItemsModel Spec BinPartsModel DataModel RcModel DataInv ArcModel ArcConc ConcData SoloFuel ConcSolo.
Local Open Scope nat_scope.

Section call.
  Context {V : Type} (sz : N).
  Notation stack := (list (frame V)).
  Implicit Types (d : dworld V) (g : gdworld) (k : stack).

  (** What the recursions need of a state. *)
  Record ages d g : Prop := {
    ag_d : aged (dw_datas d);
    ag_m : meta_aged g;
    ag_g : gaged (gd_guards g);
    ag_l : length (gd_metas g) = length (dw_datas d)
  }.
  Ltac nret := let H := fresh in intros [H|[(? & H)|[(? & ? & ? & H)|(? & H)]]]; discriminate H.

  (** The configuration in which a call returns. *)
  Definition fin1 k (x : dworld V * gdworld * arcslice) : dworld V * gdworld * stack :=
    let '(d', g', r) := x in (d', g', FV (VFin (Some (XArc r)) None) :: k).
  Lemma leads_from d g x k : ages d g -> leads sz (d, g, FGuard x :: KSlice x :: k) (fin1 k <$> arc_from_data sz (d, g) x).
  Proof.
    intros [HA HM _ _]. unfold arc_from_data. eapply leads_bind.
    - apply leads_guard; [done|]. eapply okfuel_ne, guard_for_fuel; done.
    - intros [[d' g'] y] _. eapply leads_step; [reflexivity|]. apply leads_refl.
  Qed.
  Lemma leads_fromd d g x k : ages d g -> leads sz (d, g, FV (VData x) :: KFromData :: k) (fin1 k <$> arc_from_data sz (d, g) x).
  Proof. intros HA. eapply leads_step; [reflexivity|]. by apply leads_from. Qed.

  (** A new data. *)
  Lemma ages_new d g d' p n : ages d g -> dw_datas d' = dw_datas d ++ [Some (p, n)] -> d_left n = None -> d_right n = None ->
    ages d' (gd_new_data g None).
  Proof.
    intros [HA HM HG Hl] E Hnl Hnr. split; cbn; [| |done|rewrite E, !app_length; cbn; lia].
    - intros x c m side y Hx Hy. rewrite E in Hx. apply lookup_app_Some in Hx as [Hx|[_ Hx]]; [by eapply HA|].
      destruct (x - length (dw_datas d)) as [|j]; [|by destruct j]. injection Hx as <- <-. destruct side; cbn in Hy; congruence.
    - intros x m y Hx Hy. apply lookup_app_Some in Hx as [Hx|[_ Hx]]; [by eapply HM|].
      destruct (x - length (gd_metas g)) as [|j]; [|by destruct j]. by injection Hx as <-.
  Qed.
  Lemma ages_half d g x j n side d' p m : ages d g -> dw_datas d !! x = Some (Some (j, n)) -> d_left m = None -> d_right m = None ->
    dw_datas d' = <[x := Some (j, d_set_child side (Some (length (dw_datas d))) n)]> (dw_datas d ++ [Some (p, m)]) ->
    ages d' (gd_new_data g (Some x)).
  Proof.
    intros [HA HM HG Hl] Hx Hml Hmr E. assert (x < length (dw_datas d)) as Hlt by by eapply lookup_lt_Some.
    split; cbn; [| |done|rewrite E, insert_length, !app_length; cbn; lia].
    - intros z c q sd y Hz Hy. rewrite E in Hz. destruct (decide (z = x)) as [->|].
      + rewrite list_lookup_insert in Hz by (rewrite app_length; cbn; lia). injection Hz as <- <-.
        assert (d_child sd n = Some y \/ y = length (dw_datas d)) as [H|H]; [|by eapply HA|lia].
        destruct side, sd; cbn in *; (by left) || (right; congruence).
      + rewrite list_lookup_insert_ne in Hz by done. apply lookup_app_Some in Hz as [Hz|[_ Hz]]; [by eapply HA|].
        destruct (z - length (dw_datas d)) as [|i]; [|by destruct i]. injection Hz as <- <-. destruct sd; cbn in Hy; congruence.
    - intros z q y Hz Hy. apply lookup_app_Some in Hz as [Hz|[Hge Hz]]; [by eapply HM|].
      destruct (z - length (gd_metas g)) as [|i] eqn:Ez; [|by destruct i]. injection Hz as <-. cbn in Hy. injection Hy as <-. lia.
  Qed.
  Lemma ages_sub d g d' : ages d g -> sub (dw_datas d) (dw_datas d') -> ages d' g.
  Proof. intros [HA HM HG Hl] Hs. split; [by eapply aged_sub|done..|]. destruct Hs. congruence. Qed.
  Lemma ages_clone d d1 a : alloc_clone d a = Ok d1 -> dw_datas d1 = dw_datas d.
  Proof. unfold alloc_clone. destruct a; [|by intros [= <-]]. destruct (rc_inc _ _); try done. by intros [= <-]. Qed.
  Lemma half_ages side d g x d' g' c : ages d g -> adata_clone_half sz side (d, g) x = Ok ((d', g'), c) -> ages d' g'.
  Proof.
    intros HA E. unfold adata_clone_half, adata_clone_left, adata_clone_right, data_clone_left, data_clone_right in E.
    assert (forall d1 c1 n, rc_inc (dw_datas d) c1 ≫= (fun h => Ok ((dw_set_datas d h, n), c1)) = Ok (d1, g', c) -> n = g -> ages d1 g') as Hi.
    { intros d1 c1 n E1 ->. pose proof (inc_fuel (dw_datas d) c1) as Hs. destruct (rc_inc (dw_datas d) c1) as [h| | |]; try done.
      injection E1 as <- <- _. by eapply ages_sub. }
    assert (forall n p len sd, rc_val (dw_datas d) x = Ok n ->
      ('(d1, c1) ← data_clone_child d x sd p len; Ok ((d1, match d_child sd n with None => gd_new_data g (Some x) | Some _ => g end), c1)) = Ok ((d', g'), c) ->
      ages d' g') as Hh.
    { intros n p len sd Ev E1. unfold data_clone_child in E1. rewrite Ev in E1. cbn [mbind res_bind] in E1.
      destruct (d_child sd n) as [c1|] eqn:Ec.
      - pose proof (inc_fuel (dw_datas d) c1) as Hs. destruct (rc_inc (dw_datas d) c1) as [h| | |]; try done.
        injection E1 as <- <- _. by eapply ages_sub.
      - destruct (alloc_clone d _) as [d1| | |] eqn:Ea; try done. cbn [mbind res_bind data_new rc_new] in E1.
        apply ages_clone in Ea. unfold rc_val, rc_get in Ev. destruct (dw_datas d !! x) as [[[j n']|]|] eqn:Ex; try done. injection Ev as ->.
        assert (x < length (dw_datas d)) as Hlt by by eapply lookup_lt_Some.
        cbn in E1. rewrite Ea in E1. unfold rc_inc in E1. rewrite lookup_app_r, Nat.sub_diag in E1 by lia. cbn in E1.
        unfold rc_set in E1. rewrite list_lookup_insert_ne in E1 by lia. rewrite lookup_app_l, Ex in E1 by done. cbn in E1.
        rewrite (insert_app_r_alt _ _ (length _)), Nat.sub_diag in E1 by lia. cbn in E1. injection E1 as <- <- _.
        eapply (ages_half d g); [done|exact Ex|..|reflexivity]; done. }
    destruct side; cbn [fst snd] in E; destruct (rc_val (dw_datas d) x) as [n| | |] eqn:Ev; try done; cbn [mbind res_bind] in E;
      (case_match; [by eapply Hi|]).
    - destruct (right_sub sz n) as [p len]. by eapply (Hh _ _ _ true).
    - destruct (left_sub n) as [p len]. by eapply (Hh _ _ _ false).
  Qed.
  Definition arc_clone_half (side : bool) (s : dworld V * gdworld) (r : arcslice) :=
    if side then arc_clone_right sz s r else arc_clone_left sz s r.
  Lemma leads_half side d g r k : ages d g -> gate_wait g (ar_guard r) false <> NoFuel ->
    leads sz (d, g, FWait (ar_guard r) false :: FChild (ar_data r) side :: KFromData :: k) (fin1 k <$> arc_clone_half side (d, g) r).
  Proof.
    intros HA Hw.
    assert (arc_clone_half side (d, g) r = (_ ← gate_wait g (ar_guard r) false; '(s, c) ← adata_clone_half sz side (d, g) (ar_data r); arc_from_data sz s c)) as ->.
    { by destruct side. }
    unfold gate_wait in *. destruct (rc_val (gd_guards g) (ar_guard r)) as [n| | |] eqn:Ev; cbn [mbind res_bind] in *.
    2-4: apply leads_stuck; [cbn; by rewrite Ev|nret].
    change (if a_clone n then NoFuel else Ok tt) with (if a_gate false n then @NoFuel unit else Ok tt) in *.
    destruct (a_gate false n) eqn:Eg; [done|]. cbn [mbind res_bind].
    eapply leads_step; [cbn [mstep]; rewrite Ev; cbn [mbind res_bind]; rewrite Eg; reflexivity|].
    eapply leads_bind; [apply leads_child|]. intros [[d' g'] c] E. apply leads_fromd. by eapply half_ages.
  Qed.
  Lemma leads_clone d g r k : leads sz (d, g, FCloneD r :: k) (fin1 k <$> arc_clone (d, g) r).
  Proof.
    unfold arc_clone. cbn [fst snd]. destruct (rc_inc (dw_datas d) (ar_data r)) as [h| | |] eqn:E; cbn [mbind res_bind].
    2-4: apply leads_stuck; [cbn; by rewrite E|nret].
    eapply leads_step; [cbn; rewrite E; reflexivity|].
    destruct (rc_inc (gd_guards g) (ar_guard r)) as [gs| | |] eqn:E2; cbn [mbind res_bind].
    2-4: apply leads_stuck; [cbn; by rewrite E2|nret].
    eapply leads_step; [cbn; rewrite E2; reflexivity|]. apply leads_refl.
  Qed.
  Lemma leads_wclone d g x y k : leads sz (d, g, FCloneW x y :: k)
    ((fun '(d', g') => (d', g', FV (VFin (Some (XWeak x y)) None) :: k)) <$> aweak_clone (d, g) y).
  Proof.
    unfold aweak_clone. cbn [fst snd]. destruct (gd_weak_inc g y) as [g'| | |] eqn:E; cbn [mbind res_bind].
    2-4: apply leads_stuck; [cbn; by rewrite E|nret].
    eapply leads_step; [cbn; rewrite E; reflexivity|]. apply leads_refl.
  Qed.
  Lemma leads_down d g r k : gate_wait g (ar_guard r) true <> NoFuel ->
    leads sz (d, g, FWait (ar_guard r) true :: FDown r :: k)
      ((fun '((d', g'), (x, y)) => (d', g', FV (VFin (Some (XWeak x y)) None) :: k)) <$> arc_downgrade (d, g) r).
  Proof.
    intros Hw. unfold arc_downgrade. cbn [fst snd].
    unfold gate_wait in *. destruct (rc_val (gd_guards g) (ar_guard r)) as [n| | |] eqn:Ev; cbn [mbind res_bind] in *.
    2-4: apply leads_stuck; [cbn; by rewrite Ev|nret].
    destruct (a_gate true n) eqn:Eg; [done|]. cbn [mbind res_bind].
    eapply leads_step; [cbn [mstep]; rewrite Ev; cbn [mbind res_bind]; rewrite Eg; reflexivity|].
    destruct (rc_val (dw_datas d) (ar_data r)) as [m| | |] eqn:Em; cbn [mbind res_bind].
    2-4: apply leads_stuck; [cbn; by rewrite Em|nret].
    destruct (gd_weak_inc g (Some (ar_guard r))) as [g'| | |] eqn:E; cbn [mbind res_bind].
    2-4: apply leads_stuck; [cbn -[gd_weak_inc]; rewrite Em; cbn [mbind res_bind]; by rewrite E|nret].
    eapply leads_step; [cbn -[gd_weak_inc]; rewrite Em; cbn [mbind res_bind]; rewrite E; reflexivity|]. apply leads_refl.
  Qed.
  Lemma leads_upgrade d g o k : ages d g ->
    leads sz (d, g, FUpgrade o :: k)
      ((fun '((d', g'), r) => (d', g', FV (match r with Some r => VFin (Some (XArc r)) None | None => VFin None (Some RNone) end) :: k))
         <$> aweak_upgrade sz (d, g) o).
  Proof.
    intros HA. unfold aweak_upgrade. cbn [fst snd]. pose proof (upgrade_sub (dw_datas d) o) as Hs.
    destruct (rc_upgrade (dw_datas d) o) as [h [x|]] eqn:E.
    - eapply leads_step; [cbn; rewrite E; reflexivity|]. eapply leads_bind.
      + apply leads_fromd. by eapply ages_sub.
      + intros [[d' g'] r] _. apply leads_refl.
    - eapply leads_step; [cbn; rewrite E; reflexivity|]. apply leads_refl.
  Qed.
  Lemma leads_drop d g r k : ages d g ->
    leads sz (d, g, FRel (ar_data r) :: FRelG (ar_guard r) :: k) ((fun '(d', g') => (d', g', k)) <$> arc_drop sz (d, g) r).
  Proof.
    intros [HA HM HG Hl]. unfold arc_drop. cbn [fst snd]. eapply leads_bind.
    { apply leads_release. eapply okfuel_ne, drop_fuel; done. }
    intros d' _. eapply leads_bind.
    { apply leads_relg. eapply okfuel_ne, gdrop_fuel; done. }
    intros g' _. apply leads_refl.
  Qed.
  Lemma leads_wdrop d g y k : leads sz (d, g, FRelW y :: k) ((fun '(d', g') => (d', g', k)) <$> aweak_drop (d, g) y).
  Proof.
    unfold aweak_drop. cbn [fst snd]. destruct (gd_weak_dec g y) as [g'| | |] eqn:E; cbn [mbind res_bind].
    2-4: apply leads_stuck; [cbn; by rewrite E|nret].
    eapply leads_step; [cbn; rewrite E; reflexivity|]. apply leads_refl.
  Qed.

  (** ** [get_mut] and [into_mut] *)
  Lemma leads_open d g v y down k : leads sz (d, g, FV v :: FOpen y down :: k) ((fun g' => (d, g', FV v :: k)) <$> gate_open g y down).
  Proof.
    assert (mstep sz d g (FV v :: FOpen y down :: k) = (g' ← gate_open g y down; Ok (d, g', FV v :: k))) as E by (by destruct v).
    destruct (gate_open g y down) as [g'| | |] eqn:Eo; cbn [mbind res_bind] in E.
    2-4: apply leads_stuck; [by rewrite E|nret].
    eapply leads_step; [exact E|]. apply leads_refl.
  Qed.
  Definition fin_get (r : arcslice) k (x : dworld V * gdworld * option (ptr * N)) : dworld V * gdworld * stack :=
    let '(d', g', o) := x in (d', g', FV (match o with Some _ => VHold r | None => VFin (Some (XArc r)) (Some RNone) end) :: k).
  Lemma leads_get d g r k : is_Some (rc_get (dw_datas d) (ar_data r)) ->
    leads sz (d, g, FGm1 r :: k) (fin_get r k <$> arc_get_mut (d, g) r).
  Proof.
    intros [n Hn]. unfold arc_get_mut. cbn [fst snd].
    destruct (gate_try_close g (ar_guard r) true) as [[g1 ok]| | |] eqn:E1; cbn [mbind res_bind].
    2-4: apply leads_stuck; [cbn -[gate_try_close]; by rewrite E1|nret].
    destruct ok; cbn [negb].
    2: { eapply leads_step; [cbn -[gate_try_close]; rewrite E1; reflexivity|]. apply leads_refl. }
    eapply leads_step; [cbn -[gate_try_close]; rewrite E1; cbn [mbind res_bind]; reflexivity|].
    eapply (leads_bind sz _ _ (fun '(w, o) => (d, w, FV (match o with Some _ => VHold r | None => VFin (Some (XArc r)) (Some RNone) end) :: FOpen (ar_guard r) true :: k))).
    2: { intros [w o] _. eapply leads_bind; [apply leads_open|]. intros g' _. apply leads_refl. }
    destruct (gd_weak_count g1 (ar_guard r) =? 1) eqn:Ew.
    2: { eapply leads_step; [cbn -[gd_weak_count]; rewrite Ew; reflexivity|]. apply leads_refl. }
    eapply leads_step; [cbn -[gd_weak_count]; rewrite Ew; reflexivity|].
    destruct (gate_try_close g1 (ar_guard r) false) as [[g2 ok]| | |] eqn:E2; cbn [mbind res_bind].
    2-4: apply leads_stuck; [cbn -[gate_try_close]; by rewrite E2|nret].
    destruct ok; cbn [negb].
    2: { eapply leads_step; [cbn -[gate_try_close]; rewrite E2; reflexivity|]. apply leads_refl. }
    eapply leads_step; [cbn -[gate_try_close]; rewrite E2; cbn [mbind res_bind]; reflexivity|].
    eapply (leads_bind sz _ _ (fun o => (d, g2, FV (match o with Some _ => VHold r | None => VFin (Some (XArc r)) (Some RNone) end) :: FOpen (ar_guard r) false :: FOpen (ar_guard r) true :: k))).
    2: { intros o _. eapply leads_bind; [apply leads_open|]. intros g' _. apply leads_refl. }
    destruct (rc_count (gd_guards g2) (ar_guard r) =? 1) eqn:Ec.
    2: { eapply leads_step; [cbn -[rc_count]; rewrite Ec; reflexivity|]. apply leads_refl. }
    eapply leads_step; [cbn -[rc_count]; rewrite Ec; reflexivity|].
    unfold rc_val. rewrite Hn. cbn [mbind res_bind].
    destruct (rc_count (dw_datas d) (ar_data r) =? 1) eqn:Ed;
      (eapply leads_step; [cbn -[rc_count]; rewrite Ed; reflexivity|]; apply leads_refl).
  Qed.
  Lemma close_gaged g x b g' ok : gate_try_close g x b = Ok (g', ok) -> gaged (gd_guards g) -> gaged (gd_guards g').
  Proof.
    unfold gate_try_close. destruct (rc_val _ _); try done. cbn [mbind res_bind]. destruct (rc_set _ _ _) as [gs| | |] eqn:E; try done.
    intros [= <- _] HA. cbn. eapply gaged_set; [|exact E|done]. by destruct b.
  Qed.
  Lemma open_gaged g x b g' : gate_open g x b = Ok g' -> gaged (gd_guards g) -> gaged (gd_guards g').
  Proof.
    unfold gate_open. destruct (rc_set _ _ _) as [gs| | |] eqn:E; try done. intros [= <-] HA. cbn.
    eapply gaged_set; [|exact E|done]. by destruct b.
  Qed.
  Definition fin_into k (x : dworld V * gdworld * (mutslice + arcslice)) : dworld V * gdworld * stack :=
    let '(d', g', o) := x in (d', g', FV (match o with inl m => VFin (Some (XMut m)) None | Datatypes.inr r => VFin (Some (XArc r)) (Some RErr) end) :: k).
  Lemma leads_into d g r h : ages d g ->
    leads sz (d, g, [FIm1 r; KEnd h]) (fin_into [KEnd h] <$> arc_into_mut sz (d, g) r).
  Proof.
    intros [HA HM HG Hl]. unfold arc_into_mut. cbn [fst snd].
    destruct (gate_try_close g (ar_guard r) false) as [[g1 ok]| | |] eqn:E1; cbn [mbind res_bind].
    2-4: apply leads_stuck; [cbn -[gate_try_close]; by rewrite E1|nret].
    destruct ok; cbn [negb].
    2: { eapply leads_step; [cbn -[gate_try_close]; rewrite E1; reflexivity|]. apply leads_refl. }
    eapply leads_step; [cbn -[gate_try_close]; rewrite E1; cbn [mbind res_bind]; reflexivity|].
    destruct (rc_count (gd_guards g1) (ar_guard r) =? 1) eqn:Ec.
    2: { eapply leads_step; [cbn -[rc_count]; rewrite Ec; reflexivity|]. eapply leads_bind; [apply leads_open|]. intros g' _. apply leads_refl. }
    eapply leads_step; [cbn -[rc_count]; rewrite Ec; reflexivity|].
    pose proof (unwrap_fuel (dw_datas d) (ar_data r)) as Hu.
    destruct (rc_try_unwrap (dw_datas d) (ar_data r)) as [[hp o]| | |] eqn:Eu; cbn [mbind res_bind].
    2-4: apply leads_stuck; [cbn; by rewrite Eu|nret].
    cbn in Hu. destruct Hu as [Hs Hu]. destruct o as [n|].
    2: { eapply leads_step; [cbn; rewrite Eu; reflexivity|]. eapply leads_bind; [apply leads_open|]. intros g' _. apply leads_refl. }
    eapply leads_step; [cbn; rewrite Eu; cbn; reflexivity|].
    set (d1 := dw_set_datas d hp). unfold data_into_mut. set (n0 := DNode (d_ptr n) (d_len n) None (d_left n) (d_right n)).
    assert (aged (dw_datas d1)) as HA1 by (by eapply aged_sub).
    assert (okfuel (data_forget_items sz (S (length (dw_datas d1))) d1 n0)
      (fun x => sub (dw_datas d1) (dw_datas (fst x)) /\ d_alloc (snd x) = None)) as Hf by (apply forget_fuel; [done|lia]).
    pose proof (leads_forget sz (S (length (dw_datas d1))) d1 g1 n n0 (d_alloc n) [FOpen (ar_guard r) false; KImG r; KEnd h] eq_refl eq_refl (okfuel_ne _ _ Hf)) as Hl1.
    destruct (data_forget_items sz (S (length (dw_datas d1))) d1 n0) as [[d2 n2]| | |]; cbn [mbind res_bind fmap res_fmap fst snd okfuel] in *;
      [|by eapply leads_err|by eapply leads_err|done].
    eapply leads_trans; [exact Hl1|]. destruct Hf as [_ Ea]. unfold data_drop_forgotten. rewrite Ea. cbn [alloc_release mbind res_bind].
    eapply leads_step; [reflexivity|].
    destruct (gate_open g1 (ar_guard r) false) as [g2| | |] eqn:Eo; cbn [mbind res_bind].
    2-4: apply leads_stuck; [cbn -[gate_open]; by rewrite Eo|nret].
    eapply leads_step; [cbn -[gate_open]; rewrite Eo; reflexivity|].
    eapply leads_step; [reflexivity|].
    assert (gaged (gd_guards g2)) as HG2 by (eapply open_gaged; [done|by eapply close_gaged]).
    eapply leads_bind; [apply leads_relg; eapply okfuel_ne, gdrop_fuel; done|]. intros g3 _. apply leads_refl.
  Qed.
End call.
