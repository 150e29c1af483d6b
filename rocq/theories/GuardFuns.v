(** The guard functions of RcModel.v: they succeed and preserve the invariant. *)
From Verif Require Import Base BaseLemmas DataModel RcModel Spec DataInv DataSteps GuardInv GuardSteps.

Lemma snoc_facts {A} (h : heap A) (new : A) :
  (forall x, rc_get (h ++ [Some (1, new)]) x = if decide (x = length h) then Some new else rc_get h x) /\
  (forall x, rc_count (h ++ [Some (1, new)]) x = if decide (x = length h) then 1 else rc_count h x).
Proof. split; intros x; [by rewrite rc_get_snoc|by rewrite rc_count_snoc]. Qed.
Lemma link_facts {A} (h : heap A) p s n (f : A -> A) (new : A) : live h p s n ->
  let h' := <[p := Some (s, f n)]> (h ++ [Some (1, new)]) in
  length h' = S (length h) /\
  (forall x, rc_get h' x = if decide (x = length h) then Some new else if decide (x = p) then f <$> rc_get h x else rc_get h x) /\
  (forall x, rc_count h' x = if decide (x = length h) then 1 else rc_count h x) /\
  (forall F : A -> nat, F (f n) = F n -> hsum F h' = hsum F h + F new).
Proof.
  intros Hp h'. pose proof (live_lt _ _ _ _ Hp) as Hlt.
  assert (p < length (h ++ [Some (1, new)])) by (rewrite app_length; cbn; lia).
  split_and!.
  - unfold h'. rewrite insert_length, app_length. cbn. lia.
  - intros x. unfold h'. rewrite rc_get_insert, rc_get_snoc by done. repeat case_decide; subst; try done; try lia.
    by rewrite (rc_get_live _ _ _ _ Hp).
  - intros x. unfold h'. rewrite rc_count_insert, rc_count_snoc by done. repeat case_decide; subst; try done; try lia.
    by rewrite (rc_count_live _ _ _ _ Hp).
  - intros F HF. unfold h'. rewrite (hsum_set F _ p s n) by (done || by apply live_app_l). by rewrite hsum_snoc.
Qed.

Lemma rc_upgrade_live {A} (h : heap A) i s v : live h i s v -> rc_upgrade h (Some i) = (<[i := Some (S s, v)]> h, Some i).
Proof. unfold live, rc_upgrade. by intros ->. Qed.
Lemma rc_upgrade_cases {A} (h : heap A) o :
  (exists i s v, o = Some i /\ live h i s v /\ rc_upgrade h o = (<[i := Some (S s, v)]> h, Some i)) \/
  ((forall i, o = Some i -> rc_get h i = None) /\ rc_upgrade h o = (h, None)).
Proof.
  destruct o as [i|]; cbn; [|by right].
  destruct (h !! i) as [[[s v]|]|] eqn:E; [left; eauto 10|right..]; (split; [|done]);
    intros j [= <-]; unfold rc_get; by rewrite E.
Qed.

Section funs.
  Context (nT : nat).
  Notation ginv w := (ginv w nT).

  (** [GetMutGuard::clone_left]/[clone_right] *)
  Lemma gmg_clone_child_ok w LI LG RI RG self n l side :
    ginv w LI LG RI RG -> rc_get (gw_gmgs w) self = Some n -> LG !! self = Some (Some l) ->
    exists gs c XG, gmg_clone_child w self side = Ok (GW (gw_imgs w) gs, c) /\
      (LG ++ XG) !! c = Some (Some (lchild l side)) /\
      ginv (GW (gw_imgs w) gs) LI (LG ++ XG) RI (c :: RG).
  Proof.
    intros I Hn Hl. unfold gmg_clone_child. destruct (rc_get_Some _ _ _ Hn) as [s Hv].
    rewrite (rc_val_live _ _ _ _ Hv). res_simpl.
    pose proof (gi_str _ _ _ _ _ _ I) as St.
    destruct (rc_upgrade_cases (gw_gmgs w) (g_child side n)) as [(c & sc & m & Hc & Hm & ->)|[Hdead ->]].
    - exists (<[c := Some (S sc, m)]> (gw_gmgs w)), c, []. rewrite app_nil_r. split_and!; try done.
      + by eapply (gs_gch _ _ _ _ _ St).
      + by apply ginv_ginc.
    - rewrite (rc_inc_live _ _ _ _ Hv). res_simpl. cbn [rc_new].
      pose proof (ginv_ginc _ _ _ _ _ _ _ _ _ I Hv) as I1.
      set (h1 := <[self := Some (S s, n)]> (gw_gmgs w)) in *.
      assert (live h1 self (S s) n) as Hv1. { apply live_insert_eq. by eapply live_lt. }
      assert (length h1 = length (gw_gmgs w)) as Hlen1 by apply insert_length.
      rewrite (rc_set_live _ self (S s) n) by (by apply live_app_l). res_simpl.
      do 2 eexists. exists [Some (lchild l side)]. split; [done|].
      split; [by rewrite Hlen1, <- (gi_leng _ _ _ _ _ _ I), list_lookup_middle|].
      destruct (link_facts h1 self (S s) n (g_set_child side (Some (length h1))) (Gmg (Some (self, side)) None None None) Hv1) as (F1 & F2 & F3 & F4).
      eapply (ginv_gnew (GW (gw_imgs w) h1) nT nT LI LG RI RG (Some (self, side)) (lchild l side)); try done.
      + cbn. by eapply (gs_lg _ _ _ _ _ St).
      + by exists l.
      + cbn. intros j m Hj Hlj.
        assert (exists m', rc_get (gw_gmgs w) j = Some m') as [m' Hj'].
        { unfold h1 in Hj. rewrite rc_get_insert in Hj by (by eapply live_lt). case_decide; [subst|]; eauto. }
        pose proof (gs_gch' _ _ _ _ _ St _ _ _ _ _ _ Hn Hl Hj' Hlj) as E. rewrite (Hdead _ E) in Hj'. done.
      + intros F HF. by apply F4.
  Qed.

  (** [IntoMutGuard::clone_left]/[clone_right] *)
  Lemma img_clone_child_ok w LI LG RI RG self n l side :
    ginv w LI LG RI RG -> rc_get (gw_imgs w) self = Some n -> LI !! self = Some l ->
    exists w' c XI XG, img_clone_child w self side = Ok (w', c) /\
      (LI ++ XI) !! c = Some (lchild l side) /\
      ginv w' (LI ++ XI) (LG ++ XG) (c :: RI) RG.
  Proof.
    intros I Hn Hl. unfold img_clone_child. destruct (rc_get_Some _ _ _ Hn) as [s Hv].
    rewrite (rc_val_live _ _ _ _ Hv). res_simpl.
    pose proof (gi_str _ _ _ _ _ _ I) as St.
    destruct (rc_upgrade_cases (gw_imgs w) (i_child side n)) as [(c & sc & m & Hc & Hm & ->)|[Hdead ->]].
    - do 2 eexists. exists [], []. rewrite !app_nil_r. split_and!; try done.
      + by eapply (gs_ich _ _ _ _ _ St).
      + by apply ginv_iinc.
    - pose proof (gs_igmg _ _ _ _ _ St _ _ _ Hn Hl) as Hlg.
      destruct (ginv_igmg_live _ _ _ _ _ _ I _ _ Hn) as [gn Hgn].
      destruct (gmg_clone_child_ok (GW (gw_imgs w) (gw_gmgs w)) LI LG RI RG (i_gmg n) gn l side) as (gs & g & XG & E & Hlgc & I1); try done.
      { by destruct w. }
      cbn [gw_imgs gw_gmgs] in *. rewrite E. res_simpl. cbn [gw_imgs gw_gmgs].
      rewrite (rc_inc_live _ _ _ _ Hv). res_simpl. cbn [rc_new].
      pose proof (ginv_iinc _ _ _ _ _ _ _ _ _ I1 Hv) as I2. cbn [gw_imgs gw_gmgs] in I2.
      set (h1 := <[self := Some (S s, n)]> (gw_imgs w)) in *.
      assert (live h1 self (S s) n) as Hv1. { apply live_insert_eq. by eapply live_lt. }
      assert (length h1 = length (gw_imgs w)) as Hlen1 by apply insert_length.
      destruct (ginv_gref _ _ _ _ _ _ I2 g) as (gm & _ & Hgm & _); [left|].
      destruct (rc_get_Some _ _ _ Hgm) as [sg Hgv]. cbn [gw_gmgs] in Hgv.
      rewrite (rc_set_live _ _ _ _ _ Hgv). res_simpl.
      rewrite (rc_set_live _ self (S s) n) by (by apply live_app_l). res_simpl.
      do 2 eexists. exists [lchild l side], XG. split; [done|].
      split; [by rewrite Hlen1, <- (gi_leni _ _ _ _ _ _ I), list_lookup_middle|].
      destruct (link_facts h1 self (S s) n (i_set_child side (Some (length h1))) (Img (Some self) None None g) Hv1) as (F1 & F2 & F3 & F4).
      eapply (ginv_inew (GW h1 gs) nT LI (LG ++ XG) RI RG (Some (self, side)) g sg gm (lchild l side)); try done.
      + by exists l.
      + cbn. intros j m Hj Hlj.
        assert (exists m', rc_get (gw_imgs w) j = Some m') as [m' Hj'].
        { unfold h1 in Hj. rewrite rc_get_insert in Hj by (by eapply live_lt). case_decide; [subst|]; eauto. }
        pose proof (gs_ich' _ _ _ _ _ St _ _ _ _ _ _ Hn Hl Hj' Hlj) as E'. rewrite (Hdead _ E') in Hj'. done.
      + intros F HF. by apply F4.
  Qed.

  (** Dropping guards *)
  Lemma gmg_release_ok LI LG RI : forall fuel w g RG, g < fuel ->
    ginv w LI LG RI (g :: RG) ->
    exists gs, gmg_release fuel w g = Ok (GW (gw_imgs w) gs) /\ ginv (GW (gw_imgs w) gs) LI LG RI RG.
  Proof.
    induction fuel as [|fuel IH]; intros w g RG Hf I; [lia|].
    destruct (ginv_gref _ _ _ _ _ _ I g) as (n & ol & Hn & Hl); [left|].
    destruct (rc_get_Some _ _ _ Hn) as [s Hv].
    assert (s <> 0) by (intros ->; by eapply gi_gpos).
    cbn [gmg_release]. unfold rc_dec. rewrite Hv. destruct s as [|[|s]]; [done| |].
    2:{ res_simpl. eexists. split; [done|]. by eapply ginv_gdec. }
    res_simpl. pose proof (ginv_gkill _ _ _ _ _ _ _ _ I Hv) as I1. unfold g_pars in I1.
    destruct (g_parentage n) as [[p side]|] eqn:Ep; cbn in I1; [|eauto].
    apply (IH (GW (gw_imgs w) _)); [|done].
    pose proof (gi_str _ _ _ _ _ _ I) as St. destruct ol as [l|].
    - pose proof (gs_gpar _ _ _ _ _ St _ _ _ Hn Hl) as Hp. rewrite Ep in Hp. destruct Hp as [? _]. lia.
    - by rewrite (gs_gnone _ _ _ _ _ St _ _ Hn Hl) in Ep.
  Qed.
  Lemma gmg_drop_ok w LI LG RI RG g : ginv w LI LG RI (g :: RG) ->
    exists gs, gmg_drop w g = Ok (GW (gw_imgs w) gs) /\ ginv (GW (gw_imgs w) gs) LI LG RI RG.
  Proof.
    intros I. apply gmg_release_ok; [|done].
    destruct (ginv_gref _ _ _ _ _ _ I g) as (n & ol & Hn & Hl); [left|]. apply rc_get_lt in Hn. lia.
  Qed.
  Lemma img_release_ok LI LG : forall fuel w i RI RG, i < fuel ->
    ginv w LI LG (i :: RI) RG ->
    exists w', img_release fuel w i = Ok w' /\ ginv w' LI LG RI RG.
  Proof.
    induction fuel as [|fuel IH]; intros w i RI RG Hf I; [lia|].
    destruct (ginv_iref _ _ _ _ _ _ I i) as (n & l & Hn & Hl); [left|].
    destruct (rc_get_Some _ _ _ Hn) as [s Hv].
    assert (s <> 0) by (intros ->; by eapply gi_ipos).
    cbn [img_release]. unfold rc_dec. rewrite Hv. destruct s as [|[|s]]; [done| |].
    2:{ res_simpl. eexists. split; [done|]. by eapply ginv_idec. }
    res_simpl. pose proof (ginv_ikill _ _ _ _ _ _ _ _ I Hv) as I1. unfold i_pars in I1.
    assert (exists w', match i_parent n with Some p => img_release fuel (GW (<[i:=None]> (gw_imgs w)) (gw_gmgs w)) p | None => Ok (GW (<[i:=None]> (gw_imgs w)) (gw_gmgs w)) end = Ok w' /\
      ginv w' LI LG RI (i_gmg n :: RG)) as (w1 & E1 & I2).
    { destruct (i_parent n) as [p|] eqn:Ep; cbn in I1; [|eauto]. apply IH; [|done].
      pose proof (gs_ipar _ _ _ _ _ (gi_str _ _ _ _ _ _ I) _ _ _ Hn Hl) as Hp. rewrite Ep in Hp. destruct Hp as [? _]. lia. }
    rewrite E1. res_simpl. destruct (gmg_drop_ok _ _ _ _ _ _ I2) as (gs & -> & I3). eauto.
  Qed.
  Lemma img_drop_ok w LI LG RI RG i : ginv w LI LG (i :: RI) RG ->
    exists w', img_drop w i = Ok w' /\ ginv w' LI LG RI RG.
  Proof.
    intros I. apply img_release_ok; [|done].
    destruct (ginv_iref _ _ _ _ _ _ I i) as (n & ol & Hn & Hl); [left|]. apply rc_get_lt in Hn. lia.
  Qed.

  (** [GetMutGuard::ensure_into_mut_guard] *)
  Lemma gmg_ensure_img_ok : forall fuel w LI LG RI RG self n l, self < fuel ->
    ginv w LI LG RI RG -> rc_get (gw_gmgs w) self = Some n -> LG !! self = Some (Some l) ->
    exists w' i XI XG, gmg_ensure_img fuel w self = Ok (w', i) /\
      (LI ++ XI) !! i = Some l /\ ginv w' (LI ++ XI) (LG ++ XG) (i :: RI) RG.
  Proof.
    induction fuel as [|fuel IH]; intros w LI LG RI RG self n l Hf I Hn Hl; [lia|].
    destruct (rc_get_Some _ _ _ Hn) as [s Hv]. cbn [gmg_ensure_img].
    rewrite (rc_val_live _ _ _ _ Hv). res_simpl.
    pose proof (gi_str _ _ _ _ _ _ I) as St.
    destruct (rc_upgrade_cases (gw_imgs w) (g_img n)) as [(c & sc & m & Hc & Hm & ->)|[Hdead ->]].
    - do 2 eexists. exists [], []. rewrite !app_nil_r. split_and!; try done.
      + by eapply (gs_gimg _ _ _ _ _ St).
      + by apply ginv_iinc.
    - pose proof (gs_gpar _ _ _ _ _ St _ _ _ Hn Hl) as Hp.
      destruct (g_parentage n) as [[p side]|] eqn:Ep.
      + destruct Hp as (Hlt & lp & Hlp & ->).
        destruct (ginv_gpar_live _ _ _ _ _ _ I _ _ _ _ Hn Ep) as [pn Hpn].
        destruct (IH w LI LG RI RG p pn lp ltac:(lia) I Hpn Hlp) as (w1 & pi & XI & XG & E1 & Hpi & I1).
        rewrite E1. res_simpl.
        destruct (ginv_iref _ _ _ _ _ _ I1 pi) as (m & lm & Hm & _); [left|].
        destruct (img_clone_child_ok _ _ _ _ _ _ _ _ side I1 Hm Hpi) as (w2 & i & XI2 & XG2 & E2 & Hi & I2).
        rewrite E2. res_simpl.
        apply (ginv_perm _ _ _ _ _ (pi :: i :: RI) _ RG (perm_swap _ _ _) (reflexivity _)) in I2.
        destruct (img_drop_ok _ _ _ _ _ _ I2) as (w3 & E3 & I3). rewrite E3. res_simpl.
        exists w3, i, (XI ++ XI2), (XG ++ XG2). rewrite !app_assoc. done.
      + rewrite (rc_inc_live _ _ _ _ Hv). res_simpl. cbn [rc_new].
        pose proof (ginv_ginc _ _ _ _ _ _ _ _ _ I Hv) as I1.
        set (h1 := <[self := Some (S s, n)]> (gw_gmgs w)) in *.
        assert (live h1 self (S s) n) as Hv1. { apply live_insert_eq. by eapply live_lt. }
        rewrite (rc_set_live _ _ _ _ _ Hv1). res_simpl.
        do 2 eexists. exists [l], []. rewrite app_nil_r. split; [done|].
        split; [by rewrite <- (gi_leni _ _ _ _ _ _ I), list_lookup_middle|].
        destruct (snoc_facts (gw_imgs w) (Img None None None self)) as [F1 F2].
        eapply (ginv_inew (GW (gw_imgs w) h1) nT LI LG RI RG None self (S s) n l); try done.
        * cbn. intros j m Hj Hlj.
          pose proof (gs_gimg' _ _ _ _ _ St _ _ _ _ _ Hn Hl Hj Hlj) as E'. rewrite (Hdead _ E') in Hj. done.
        * rewrite app_length. cbn. lia.
        * intros F _. by rewrite hsum_snoc.
  Qed.
  Lemma gmg_ensure_ok w LI LG RI RG self n l :
    ginv w LI LG RI RG -> rc_get (gw_gmgs w) self = Some n -> LG !! self = Some (Some l) ->
    exists w' i XI XG, gmg_ensure w self = Ok (w', i) /\
      (LI ++ XI) !! i = Some l /\ ginv w' (LI ++ XI) (LG ++ XG) (i :: RI) RG.
  Proof. intros I Hn. eapply gmg_ensure_img_ok; eauto. apply rc_get_lt in Hn. lia. Qed.
End funs.

(** [IntoMutGuard::new] *)
Lemma img_new_ok w nT LI LG RI RG : ginv w nT LI LG RI RG ->
  exists w', img_new w = Ok (w', length (gw_imgs w)) /\
    ginv w' (S nT) (LI ++ [Lbl nT []]) (LG ++ [Some (Lbl nT [])]) (length (gw_imgs w) :: RI) RG.
Proof.
  intros I. unfold img_new. cbn [rc_new].
  set (g := length (gw_gmgs w)). set (gn := Gmg None None None None).
  assert (live (gw_gmgs w ++ [Some (1, gn)]) g 1 gn) as Hg by (unfold live; by rewrite list_lookup_middle).
  rewrite (rc_set_live _ _ _ _ _ Hg). res_simpl. eexists. split; [done|].
  pose proof (gi_str _ _ _ _ _ _ I) as St.
  destruct (snoc_facts (gw_gmgs w) gn) as [F1 F2].
  assert (ginv (GW (gw_imgs w) (gw_gmgs w ++ [Some (1, gn)])) (S nT) LI (LG ++ [Some (Lbl nT [])]) RI (g :: RG)) as I1.
  { eapply (ginv_gnew w nT (S nT) LI LG RI RG None (Lbl nT [])); try done; cbn; try lia.
    - intros j m _ Hlj. apply (gs_lg _ _ _ _ _ St) in Hlj. cbn in Hlj. lia.
    - rewrite app_length. cbn. lia.
    - intros F _. by rewrite hsum_snoc. }
  destruct (snoc_facts (gw_imgs w) (Img None None None g)) as [F3 F4].
  eapply (ginv_inew (GW (gw_imgs w) (gw_gmgs w ++ [Some (1, gn)])) (S nT) LI _ RI RG None g 1 gn); try done.
  - unfold g. by rewrite <- (gi_leng _ _ _ _ _ _ I), list_lookup_middle.
  - cbn. intros j m _ Hlj. apply (gs_li _ _ _ _ _ St) in Hlj. cbn in Hlj. lia.
  - rewrite app_length. cbn. lia.
  - intros F _. by rewrite hsum_snoc.
Qed.
