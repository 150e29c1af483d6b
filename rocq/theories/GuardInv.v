(** Invariant of the guards of the single-threaded API, and what their
    reference counts mean. *)
From Verif Require Import Base BaseLemmas DataModel RcModel Spec DataInv DataSteps.

Section heap.
  Context {A : Type}.
  Implicit Types h : heap A.
  Lemma rc_get_insert h i o j : i < length h ->
    rc_get (<[i := o]> h) j = if decide (j = i) then snd <$> o else rc_get h j.
  Proof.
    intros Hi. unfold rc_get. case_decide as E.
    - subst. rewrite list_lookup_insert by done. by destruct o as [[? ?]|].
    - by rewrite list_lookup_insert_ne by congruence.
  Qed.
  Lemma rc_get_snoc h o j : rc_get (h ++ [o]) j = if decide (j = length h) then snd <$> o else rc_get h j.
  Proof.
    unfold rc_get. case_decide as E.
    - subst. rewrite list_lookup_middle by done. by destruct o as [[? ?]|].
    - destruct (decide (j < length h)); [by rewrite lookup_app_l|].
      rewrite !lookup_ge_None_2; [done|lia|rewrite app_length; cbn; lia].
  Qed.
  Lemma rc_get_lt h i v : rc_get h i = Some v -> i < length h.
  Proof. intros (s & H)%rc_get_Some. by eapply live_lt. Qed.
  Lemma rc_get_count h i v : rc_get h i = Some v -> live h i (rc_count h i) v.
  Proof. intros (s & H)%rc_get_Some. by rewrite (rc_count_live _ _ _ _ H). Qed.
  (** [hsum] only depends on values. *)
  Lemma hsum_recount f h i s v s' : live h i s v -> hsum f (<[i := Some (s', v)]> h) = hsum f h.
  Proof. intros H. pose proof (hsum_insert f _ _ _ (Some (s', v)) H). cbn in *. lia. Qed.
  Lemma hsum_set f h i s v s' v' : live h i s v -> f v' = f v -> hsum f (<[i := Some (s', v')]> h) = hsum f h.
  Proof. intros H E. pose proof (hsum_insert f _ _ _ (Some (s', v')) H). cbn in *. lia. Qed.
  Lemma hsum_kill f h i s v : live h i s v -> hsum f (<[i := None]> h) + f v = hsum f h.
  Proof. intros H. pose proof (hsum_insert f _ _ _ None H). cbn in *. lia. Qed.
  Lemma hsum_snoc f h s v : hsum f (h ++ [Some (s, v)]) = hsum f h + f v.
  Proof. rewrite hsum_app. cbn. lia. Qed.
End heap.

Definition i_pars (n : img) : list nat := option_list (i_parent n).
Definition g_pars (n : gmg) : list nat := option_list (fst <$> g_parentage n).

(** Structure: labels [LI] of [IntoMutGuard]s, [LG] of [GetMutGuard]s ([None]
    for those made by [WeakSlice::new]). [iv], [gv]: values of live boxes. *)
Record gstr (iv : nat -> option img) (gv : nat -> option gmg) (nT : nat)
    (LI : list label) (LG : list (option label)) : Prop := {
  gs_li : forall i l, LI !! i = Some l -> l_tree l < nT;
  gs_lg : forall g l, LG !! g = Some (Some l) -> l_tree l < nT;
  gs_igmg : forall i n l, iv i = Some n -> LI !! i = Some l -> LG !! i_gmg n = Some (Some l);
  gs_ipar : forall i n l, iv i = Some n -> LI !! i = Some l ->
    match i_parent n with
    | None => l_path l = []
    | Some p => p < i /\ exists lp side, LI !! p = Some lp /\ l = lchild lp side
    end;
  gs_ich : forall i n l side c, iv i = Some n -> LI !! i = Some l -> i_child side n = Some c ->
    LI !! c = Some (lchild l side);
  gs_ich' : forall i n l side c m, iv i = Some n -> LI !! i = Some l ->
    iv c = Some m -> LI !! c = Some (lchild l side) -> i_child side n = Some c;
  gs_iu : forall i n i' n' l, iv i = Some n -> iv i' = Some n' -> LI !! i = Some l -> LI !! i' = Some l -> i = i';
  gs_gpar : forall g n l, gv g = Some n -> LG !! g = Some (Some l) ->
    match g_parentage n with
    | None => l_path l = []
    | Some (p, side) => p < g /\ exists lp, LG !! p = Some (Some lp) /\ l = lchild lp side
    end;
  gs_gnone : forall g n, gv g = Some n -> LG !! g = Some None -> g_parentage n = None;
  gs_gch : forall g n l side c, gv g = Some n -> LG !! g = Some (Some l) -> g_child side n = Some c ->
    LG !! c = Some (Some (lchild l side));
  gs_gch' : forall g n l side c m, gv g = Some n -> LG !! g = Some (Some l) ->
    gv c = Some m -> LG !! c = Some (Some (lchild l side)) -> g_child side n = Some c;
  gs_gu : forall g n g' n' l, gv g = Some n -> gv g' = Some n' -> LG !! g = Some (Some l) -> LG !! g' = Some (Some l) -> g = g';
  gs_gimg : forall g n l i, gv g = Some n -> LG !! g = Some (Some l) -> g_img n = Some i -> LI !! i = Some l;
  gs_gimg' : forall g n l i m, gv g = Some n -> LG !! g = Some (Some l) ->
    iv i = Some m -> LI !! i = Some l -> g_img n = Some i
}.
Lemma gstr_mono (iv iv' : nat -> option img) (gv gv' : nat -> option gmg) nT LI LG :
  (forall i n, iv' i = Some n -> iv i = Some n) -> (forall g n, gv' g = Some n -> gv g = Some n) ->
  gstr iv gv nT LI LG -> gstr iv' gv' nT LI LG.
Proof.
  intros Hi Hg []. split; try by eauto.
  - intros i n l ? ?. apply (gs_ipar0 i n l); auto.
  - intros g n l ? ?. apply (gs_gpar0 g n l); auto.
Qed.

(** The invariant: [RI], [RG] are the references held outside guards. *)
Record ginv (w : gworld) (nT : nat) (LI : list label) (LG : list (option label)) (RI RG : list nat) : Prop := {
  gi_leni : length LI = length (gw_imgs w);
  gi_leng : length LG = length (gw_gmgs w);
  gi_str : gstr (rc_get (gw_imgs w)) (rc_get (gw_gmgs w)) nT LI LG;
  gi_ipos : forall i n, ~ live (gw_imgs w) i 0 n;
  gi_gpos : forall g n, ~ live (gw_gmgs w) g 0 n;
  gi_icnt : forall i, rc_count (gw_imgs w) i = cnt i RI + hsum (fun n => cnt i (i_pars n)) (gw_imgs w);
  gi_gcnt : forall g, rc_count (gw_gmgs w) g =
    cnt g RG + hsum (fun n => cnt g [i_gmg n]) (gw_imgs w) + hsum (fun n => cnt g (g_pars n)) (gw_gmgs w)
}.
Lemma ginv_perm w nT LI LG RI RI' RG RG' : RI ≡ₚ RI' -> RG ≡ₚ RG' -> ginv w nT LI LG RI RG -> ginv w nT LI LG RI' RG'.
Proof.
  intros H1 H2 []. split; try done.
  - intros i. by rewrite <- (cnt_perm _ _ _ H1).
  - intros g. by rewrite <- (cnt_perm _ _ _ H2).
Qed.

Section facts.
  Context (w : gworld) (nT : nat) (LI : list label) (LG : list (option label)) (RI RG : list nat).
  Context (I : ginv w nT LI LG RI RG).
  Notation iv := (rc_get (gw_imgs w)).
  Notation gv := (rc_get (gw_gmgs w)).
  Let St : gstr iv gv nT LI LG := gi_str _ _ _ _ _ _ I.

  Lemma count_get {A} (h : heap A) i : 0 < rc_count h i -> exists v, rc_get h i = Some v.
  Proof. unfold rc_count, rc_get. destruct (h !! i) as [[[s v]|]|]; [eauto|lia|lia]. Qed.
  Lemma ginv_iref i : i ∈ RI -> exists n l, iv i = Some n /\ LI !! i = Some l.
  Proof.
    intros H%cnt_pos. destruct (count_get (gw_imgs w) i) as [n Hn].
    { rewrite (gi_icnt _ _ _ _ _ _ I). lia. }
    destruct (lookup_lt_is_Some_2 LI i) as [l Hl]; [|eauto].
    rewrite (gi_leni _ _ _ _ _ _ I). by eapply rc_get_lt.
  Qed.
  Lemma ginv_gref g : g ∈ RG -> exists n ol, gv g = Some n /\ LG !! g = Some ol.
  Proof.
    intros H%cnt_pos. destruct (count_get (gw_gmgs w) g) as [n Hn].
    { rewrite (gi_gcnt _ _ _ _ _ _ I). lia. }
    destruct (lookup_lt_is_Some_2 LG g) as [l Hl]; [|eauto].
    rewrite (gi_leng _ _ _ _ _ _ I). by eapply rc_get_lt.
  Qed.
  Lemma ginv_ilab i n : iv i = Some n -> exists l, LI !! i = Some l.
  Proof. intros H%rc_get_lt. apply lookup_lt_is_Some_2. by rewrite (gi_leni _ _ _ _ _ _ I). Qed.
  Lemma ginv_glab g n : gv g = Some n -> exists ol, LG !! g = Some ol.
  Proof. intros H%rc_get_lt. apply lookup_lt_is_Some_2. by rewrite (gi_leng _ _ _ _ _ _ I). Qed.
  (** Referenced guards are live. *)
  Lemma ginv_ipar_live i n p : iv i = Some n -> i_parent n = Some p -> exists m, iv p = Some m.
  Proof.
    intros (s & Hv)%rc_get_Some Hp. apply count_get. rewrite (gi_icnt _ _ _ _ _ _ I).
    pose proof (hsum_ge (fun n => cnt p (i_pars n)) _ _ _ _ Hv) as H. cbn beta in H. unfold i_pars in H at 1.
    rewrite Hp in H. cbn in H. rewrite cnt_cons, decide_True in H by done. lia.
  Qed.
  Lemma ginv_igmg_live i n : iv i = Some n -> exists m, gv (i_gmg n) = Some m.
  Proof.
    intros (s & Hv)%rc_get_Some. apply count_get. rewrite (gi_gcnt _ _ _ _ _ _ I).
    pose proof (hsum_ge (fun m => cnt (i_gmg n) [i_gmg m]) _ _ _ _ Hv) as H. cbn beta in H.
    rewrite cnt_cons, decide_True in H by done. lia.
  Qed.
  Lemma ginv_gpar_live g n p side : gv g = Some n -> g_parentage n = Some (p, side) -> exists m, gv p = Some m.
  Proof.
    intros (s & Hv)%rc_get_Some Hp. apply count_get. rewrite (gi_gcnt _ _ _ _ _ _ I).
    pose proof (hsum_ge (fun n => cnt p (g_pars n)) _ _ _ _ Hv) as H. cbn beta in H. unfold g_pars in H at 1.
    rewrite Hp in H. cbn in H. rewrite cnt_cons, decide_True in H by done. lia.
  Qed.

  (** Going up: the ancestors of a live guard are live. *)
  Lemma ginv_iup j m l p : iv j = Some m -> LI !! j = Some (lapp l p) ->
    exists i n, iv i = Some n /\ LI !! i = Some l /\
      (p <> [] -> exists c s k side, live (gw_imgs w) c s k /\ i_parent k = Some i /\ LI !! c = Some (lchild l side) /\
          (exists p', p = side :: p')).
  Proof.
    revert l. induction p as [|side p IH]; intros l Hj Hl.
    { rewrite lapp_nil in Hl. exists j, m. by split_and!. }
    rewrite lapp_cons in Hl. destruct (IH _ Hj Hl) as (c & k & Hc & Hlc & _).
    pose proof (gs_ipar _ _ _ _ _ St _ _ _ Hc Hlc) as Hp. destruct (i_parent k) as [q|] eqn:Eq.
    - destruct Hp as (_ & lp & side' & Hlp & E). apply lchild_inj in E as [<- <-].
      destruct (ginv_ipar_live _ _ _ Hc Eq) as [m' Hm']. exists q, m'. split_and!; try done.
      intros _. destruct (rc_get_Some _ _ _ Hc) as [s Hs]. eauto 10.
    - cbn in Hp. by apply app_nil in Hp as [_ [=]].
  Qed.
  Lemma ginv_gup j m l p : gv j = Some m -> LG !! j = Some (Some (lapp l p)) ->
    exists g n, gv g = Some n /\ LG !! g = Some (Some l) /\
      (p <> [] -> exists c s k side, live (gw_gmgs w) c s k /\ g_parentage k = Some (g, side) /\
          LG !! c = Some (Some (lchild l side))).
  Proof.
    revert l. induction p as [|side p IH]; intros l Hj Hl.
    { rewrite lapp_nil in Hl. exists j, m. by split_and!. }
    rewrite lapp_cons in Hl. destruct (IH _ Hj Hl) as (c & k & Hc & Hlc & _).
    pose proof (gs_gpar _ _ _ _ _ St _ _ _ Hc Hlc) as Hp. destruct (g_parentage k) as [[q side']|] eqn:Eq.
    - destruct Hp as (_ & lp & Hlp & E). apply lchild_inj in E as [<- <-].
      destruct (ginv_gpar_live _ _ _ _ Hc Eq) as [m' Hm']. exists q, m'. split_and!; try done.
      intros _. destruct (rc_get_Some _ _ _ Hc) as [s Hs]. eauto 10.
    - cbn in Hp. by apply app_nil in Hp as [_ [=]].
  Qed.
  (** Going down: below a live [IntoMutGuard] there is one held outside. *)
  Lemma ginv_idown i n l : iv i = Some n -> LI !! i = Some l ->
    exists j lj, j ∈ RI /\ LI !! j = Some lj /\ anc l lj.
  Proof.
    remember (length (gw_imgs w) - i) as k eqn:Ek. revert i n l Ek.
    induction (lt_wf k) as [k _ IH]; intros i n l Ek Hi Hl.
    pose proof (gi_icnt _ _ _ _ _ _ I i) as E.
    assert (rc_count (gw_imgs w) i <> 0).
    { intros H0. apply rc_get_count in Hi. rewrite H0 in Hi. by eapply gi_ipos. }
    destruct (decide (i ∈ RI)) as [Hin|Hin]; [exists i, l; split_and!; try done; apply anc_refl|].
    apply cnt_zero in Hin.
    destruct (hsum_pos (fun n => cnt i (i_pars n)) (gw_imgs w)) as (c & s & m & Hc & Hm); [lia|].
    apply cnt_pos in Hm. unfold i_pars in Hm. destruct (i_parent m) as [p|] eqn:Hp; [|by apply elem_of_nil in Hm].
    apply elem_of_list_singleton in Hm as <-.
    pose proof (rc_get_live _ _ _ _ Hc) as Hc'. destruct (ginv_ilab _ _ Hc') as [lc Hlc].
    pose proof (gs_ipar _ _ _ _ _ St _ _ _ Hc' Hlc) as Hq. rewrite Hp in Hq.
    destruct Hq as (Hlt & lp & side & Hlp & ->). rewrite Hl in Hlp. injection Hlp as <-.
    pose proof (live_lt _ _ _ _ Hc).
    destruct (IH (length (gw_imgs w) - c) ltac:(lia) c m (lchild l side) eq_refl Hc' Hlc) as (j & lj & ? & ? & Ha).
    exists j, lj. split_and!; try done. eapply anc_trans; [apply anc_child|done].
  Qed.
  (** Below a live [GetMutGuard] there is one held outside or an [IntoMutGuard] held outside. *)
  Lemma ginv_gdown g n l : gv g = Some n -> LG !! g = Some (Some l) ->
    (exists j lj, j ∈ RG /\ LG !! j = Some (Some lj) /\ anc l lj) \/
    (exists j lj, j ∈ RI /\ LI !! j = Some lj /\ anc l lj).
  Proof.
    remember (length (gw_gmgs w) - g) as k eqn:Ek. revert g n l Ek.
    induction (lt_wf k) as [k _ IH]; intros g n l Ek Hi Hl.
    pose proof (gi_gcnt _ _ _ _ _ _ I g) as E.
    assert (rc_count (gw_gmgs w) g <> 0).
    { intros H0. apply rc_get_count in Hi. rewrite H0 in Hi. by eapply gi_gpos. }
    destruct (decide (g ∈ RG)) as [Hin|Hin]; [left; exists g, l; split_and!; try done; apply anc_refl|].
    apply cnt_zero in Hin.
    destruct (decide (0 < hsum (fun n => cnt g [i_gmg n]) (gw_imgs w))) as [Hp|Hp].
    - right. apply hsum_pos in Hp as (c & s & m & Hc & Hm).
      apply cnt_pos, elem_of_list_singleton in Hm as ->. pose proof (rc_get_live _ _ _ _ Hc) as Hc'.
      destruct (ginv_ilab _ _ Hc') as [lc Hlc]. rewrite (gs_igmg _ _ _ _ _ St _ _ _ Hc' Hlc) in Hl. injection Hl as ->.
      by eapply ginv_idown.
    - destruct (hsum_pos (fun n => cnt g (g_pars n)) (gw_gmgs w)) as (c & s & m & Hc & Hm); [lia|].
      apply cnt_pos in Hm. unfold g_pars in Hm. destruct (g_parentage m) as [[p side]|] eqn:Ep; [|by apply elem_of_nil in Hm].
      apply elem_of_list_singleton in Hm. cbn in Hm. subst p.
      pose proof (rc_get_live _ _ _ _ Hc) as Hc'. destruct (ginv_glab _ _ Hc') as [[lc|] Hlc].
      2:{ rewrite (gs_gnone _ _ _ _ _ St _ _ Hc' Hlc) in Ep. done. }
      pose proof (gs_gpar _ _ _ _ _ St _ _ _ Hc' Hlc) as Hq. rewrite Ep in Hq.
      destruct Hq as (Hlt & lp & Hlp & ->). rewrite Hl in Hlp. injection Hlp as <-.
      pose proof (live_lt _ _ _ _ Hc).
      destruct (IH (length (gw_gmgs w) - c) ltac:(lia) c m (lchild l side) eq_refl Hc' Hlc) as [(j & lj & ? & ? & Ha)|(j & lj & ? & ? & Ha)];
        [left|right]; exists j, lj; (split_and!; try done; eapply anc_trans; [apply anc_child|done]).
  Qed.

  Lemma anc_strict_child l l' : anc l l' -> l' <> l -> exists side, anc (lchild l side) l'.
  Proof. intros [->|H]%anc_inv ?; done. Qed.

  (** What it means that an [IntoMutGuard] is not shared. *)
  Lemma ginv_icount_one i l : i ∈ RI -> LI !! i = Some l ->
    rc_count (gw_imgs w) i = 1 <->
    cnt i RI = 1 /\ forall j lj, j ∈ RI -> LI !! j = Some lj -> anc l lj -> lj = l.
  Proof.
    intros Hi Hl. destruct (ginv_iref _ Hi) as (n & l' & Hn & Hl'). rewrite Hl in Hl'. injection Hl' as <-.
    pose proof (gi_icnt _ _ _ _ _ _ I i) as E. pose proof (proj2 (cnt_pos _ _) Hi) as Hpos. split.
    - intros H1. split; [lia|]. intros j lj Hj Hlj Ha. destruct (decide (lj = l)) as [|Hne]; [done|exfalso].
      destruct (proj1 (anc_lapp l lj) Ha) as [p ->].
      destruct (ginv_iref _ Hj) as (m & l' & Hm & Hl'). rewrite Hlj in Hl'. injection Hl' as <-.
      destruct (ginv_iup _ _ _ _ Hm Hlj) as (i' & n' & Hi' & Hli' & Hc).
      assert (i' = i) as -> by (eapply (gs_iu _ _ _ _ _ St); eauto).
      destruct Hc as (c & s & k & side & Hc & Hp & _); [intros ->; by rewrite lapp_nil in Hne|].
      pose proof (hsum_ge (fun n => cnt i (i_pars n)) _ _ _ _ Hc) as H. cbn beta in H. unfold i_pars in H at 1.
      rewrite Hp in H. cbn in H. rewrite cnt_cons, decide_True in H by done. lia.
    - intros [H1 H2]. destruct (decide (0 < hsum (fun n => cnt i (i_pars n)) (gw_imgs w))) as [Hp|]; [exfalso|lia].
      apply hsum_pos in Hp as (c & s & m & Hc & Hm).
      apply cnt_pos in Hm. unfold i_pars in Hm. destruct (i_parent m) as [p|] eqn:Hp; [|by apply elem_of_nil in Hm].
      apply elem_of_list_singleton in Hm as <-.
      pose proof (rc_get_live _ _ _ _ Hc) as Hc'. destruct (ginv_ilab _ _ Hc') as [lc Hlc].
      pose proof (gs_ipar _ _ _ _ _ St _ _ _ Hc' Hlc) as Hq. rewrite Hp in Hq.
      destruct Hq as (Hlt & lp & side & Hlp & ->). rewrite Hl in Hlp. injection Hlp as <-.
      destruct (ginv_idown _ _ _ Hc' Hlc) as (j & lj & Hj & Hlj & Ha).
      assert (lj = l) as -> by (eapply H2; eauto; eapply anc_trans; [apply anc_child|done]).
      pose proof (anc_antisym _ _ Ha (anc_child _ _)) as E'. by eapply lchild_ne.
  Qed.

  (** What it means that a slice's [GetMutGuard] is not shared. *)
  Lemma ginv_gcount_one i n l : i ∈ RI -> LI !! i = Some l -> iv i = Some n ->
    rc_count (gw_gmgs w) (i_gmg n) = 1 <->
    (forall g lg, g ∈ RG -> LG !! g = Some (Some lg) -> ~ anc l lg) /\
    (forall j lj, j ∈ RI -> LI !! j = Some lj -> anc l lj -> lj = l).
  Proof.
    intros Hi Hl Hn. pose proof (gs_igmg _ _ _ _ _ St _ _ _ Hn Hl) as Hlg.
    destruct (ginv_igmg_live _ _ Hn) as [gn Hgn].
    pose proof (gi_gcnt _ _ _ _ _ _ I (i_gmg n)) as E.
    assert (hsum (fun m => cnt (i_gmg n) [i_gmg m]) (gw_imgs w) = 1) as E1.
    { destruct (rc_get_Some _ _ _ Hn) as [s Hv]. rewrite (hsum_single _ _ _ _ _ Hv).
      - rewrite cnt_cons, cnt_nil, decide_True; done.
      - intros j s' v' Hj Hne. apply cnt_zero. intros Heq%elem_of_list_singleton. apply Hne.
        pose proof (rc_get_live _ _ _ _ Hj) as Hj'. destruct (ginv_ilab _ _ Hj') as [lj Hlj].
        pose proof (gs_igmg _ _ _ _ _ St _ _ _ Hj' Hlj) as Hlg'. rewrite <- Heq, Hlg in Hlg'. injection Hlg' as <-.
        eapply (gs_iu _ _ _ _ _ St); eauto. }
    assert (forall c s k side, live (gw_gmgs w) c s k -> g_parentage k = Some (i_gmg n, side) ->
      0 < hsum (fun n0 => cnt (i_gmg n) (g_pars n0)) (gw_gmgs w)) as Hch.
    { intros c s k side Hc Hp. pose proof (hsum_ge (fun n0 => cnt (i_gmg n) (g_pars n0)) _ _ _ _ Hc) as H. cbn beta in H. unfold g_pars in H at 1.
      rewrite Hp in H. cbn in H. rewrite cnt_cons, decide_True in H by done. lia. }
    split.
    - intros H1. split.
      + intros g lg Hg Hlg' Ha. destruct (proj1 (anc_lapp l lg) Ha) as [p ->].
        destruct (ginv_gref _ Hg) as (m & l' & Hm & _).
        destruct (ginv_gup _ _ _ _ Hm Hlg') as (i' & n' & Hi' & Hli' & Hc).
        assert (i' = i_gmg n) as -> by (eapply (gs_gu _ _ _ _ _ St); eauto).
        destruct (decide (p = [])) as [->|Hp].
        * rewrite lapp_nil in Hlg'. assert (g = i_gmg n) as -> by (eapply (gs_gu _ _ _ _ _ St); eauto).
          apply cnt_pos in Hg. lia.
        * destruct (Hc Hp) as (c & s & k & side & Hc' & Hp' & _). specialize (Hch _ _ _ _ Hc' Hp'). lia.
      + intros j lj Hj Hlj Ha. destruct (decide (lj = l)) as [|Hne]; [done|exfalso].
        destruct (proj1 (anc_lapp l lj) Ha) as [p ->].
        destruct (ginv_iref _ Hj) as (m & l' & Hm & _).
        pose proof (gs_igmg _ _ _ _ _ St _ _ _ Hm Hlj) as Hlgj. destruct (ginv_igmg_live _ _ Hm) as [gm Hgm].
        destruct (ginv_gup _ _ _ _ Hgm Hlgj) as (i' & n' & Hi' & Hli' & Hc).
        assert (i' = i_gmg n) as -> by (eapply (gs_gu _ _ _ _ _ St); eauto).
        destruct Hc as (c & s & k & side & Hc' & Hp' & _); [intros ->; by rewrite lapp_nil in Hne|].
        specialize (Hch _ _ _ _ Hc' Hp'). lia.
    - intros [H1 H2].
      assert (cnt (i_gmg n) RG = 0). { apply cnt_zero. intros Hin. eapply H1; eauto. apply anc_refl. }
      destruct (decide (0 < hsum (fun n0 => cnt (i_gmg n) (g_pars n0)) (gw_gmgs w))) as [Hp|]; [exfalso|lia].
      apply hsum_pos in Hp as (c & s & m & Hc & Hm).
      apply cnt_pos in Hm. unfold g_pars in Hm. destruct (g_parentage m) as [[p side]|] eqn:Ep; [|by apply elem_of_nil in Hm].
      apply elem_of_list_singleton in Hm. cbn in Hm. subst p.
      pose proof (rc_get_live _ _ _ _ Hc) as Hc'. destruct (ginv_glab _ _ Hc') as [[lc|] Hlc].
      2:{ rewrite (gs_gnone _ _ _ _ _ St _ _ Hc' Hlc) in Ep. done. }
      pose proof (gs_gpar _ _ _ _ _ St _ _ _ Hc' Hlc) as Hq. rewrite Ep in Hq.
      destruct Hq as (Hlt & lp & Hlp & ->). rewrite Hlg in Hlp. injection Hlp as <-.
      destruct (ginv_gdown _ _ _ Hc' Hlc) as [(j & lj & Hj & Hlj & Ha)|(j & lj & Hj & Hlj & Ha)].
      + eapply H1; eauto. eapply anc_trans; [apply anc_child|done].
      + assert (lj = l) as -> by (eapply H2; eauto; eapply anc_trans; [apply anc_child|done]).
        pose proof (anc_antisym _ _ Ha (anc_child _ _)) as E'. by eapply lchild_ne.
  Qed.
End facts.
