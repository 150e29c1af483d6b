(** The guard functions of RcModel.v preserve the invariant of GuardInv.v. *)
From Verif Require Import Base BaseLemmas DataModel RcModel Spec DataInv DataSteps GuardInv.

Lemma pos_iff {A} (h : heap A) : (forall i v, ~ live h i 0 v) <-> (forall i v, rc_get h i = Some v -> rc_count h i <> 0).
Proof.
  split.
  - intros H i v Hv E. apply rc_get_count in Hv. rewrite E in Hv. by eapply H.
  - intros H i v Hv. eapply H; [by eapply rc_get_live|]. by eapply rc_count_live.
Qed.

(** *** Counts *)
Lemma ginv_irecount w nT LI LG RI RI' RG i s n s' :
  ginv w nT LI LG RI RG -> live (gw_imgs w) i s n -> s' <> 0 ->
  (forall x, cnt x RI' + (if decide (x = i) then s else 0) = cnt x RI + (if decide (x = i) then s' else 0)) ->
  ginv (GW (<[i := Some (s', n)]> (gw_imgs w)) (gw_gmgs w)) nT LI LG RI' RG.
Proof.
  intros [] Hv Hs HR. pose proof (live_lt _ _ _ _ Hv) as Hlt. split; cbn [gw_imgs gw_gmgs]; try done.
  - by rewrite insert_length.
  - eapply gstr_mono; [|eauto|done]. intros x m. rewrite rc_get_insert by done. case_decide; [|done]. subst. cbn.
    intros [= <-]. by eapply rc_get_live.
  - intros x m [(-> & [= -> ->] & _)|[_ H]]%live_insert; [done|]. by eapply gi_ipos.
  - intros x. specialize (gi_icnt x). specialize (HR x). rewrite rc_count_insert by done.
    rewrite (hsum_recount _ _ _ _ _ _ Hv). destruct (decide (x = i)) as [->|]; cbn; [|lia].
    rewrite (rc_count_live _ _ _ _ Hv) in gi_icnt. lia.
  - intros g. rewrite gi_gcnt. by rewrite (hsum_recount _ _ _ _ _ _ Hv).
Qed.
Lemma ginv_grecount w nT LI LG RI RG RG' g s n s' :
  ginv w nT LI LG RI RG -> live (gw_gmgs w) g s n -> s' <> 0 ->
  (forall x, cnt x RG' + (if decide (x = g) then s else 0) = cnt x RG + (if decide (x = g) then s' else 0)) ->
  ginv (GW (gw_imgs w) (<[g := Some (s', n)]> (gw_gmgs w))) nT LI LG RI RG'.
Proof.
  intros [] Hv Hs HR. pose proof (live_lt _ _ _ _ Hv) as Hlt. split; cbn [gw_imgs gw_gmgs]; try done.
  - by rewrite insert_length.
  - eapply gstr_mono; [eauto| |done]. intros x m. rewrite rc_get_insert by done. case_decide; [|done]. subst. cbn.
    intros [= <-]. by eapply rc_get_live.
  - intros x m [(-> & [= -> ->] & _)|[_ H]]%live_insert; [done|]. by eapply gi_gpos.
  - intros x. specialize (gi_gcnt x). specialize (HR x). rewrite rc_count_insert by done.
    rewrite (hsum_recount _ _ _ _ _ _ Hv). destruct (decide (x = g)) as [->|]; cbn; [|lia].
    rewrite (rc_count_live _ _ _ _ Hv) in gi_gcnt. lia.
Qed.
Lemma cnt_step x i (l : list nat) : cnt x (i :: l) = (if decide (x = i) then 1 else 0) + cnt x l.
Proof. rewrite cnt_cons. by destruct (decide (i = x)), (decide (x = i)); subst. Qed.
Lemma ginv_iinc w nT LI LG RI RG i s n : ginv w nT LI LG RI RG -> live (gw_imgs w) i s n ->
  ginv (GW (<[i := Some (S s, n)]> (gw_imgs w)) (gw_gmgs w)) nT LI LG (i :: RI) RG.
Proof. intros I Hv. eapply ginv_irecount; [done..|]. intros x. rewrite cnt_step. case_decide; lia. Qed.
Lemma ginv_idec w nT LI LG RI RG i s n : ginv w nT LI LG (i :: RI) RG -> live (gw_imgs w) i (S (S s)) n ->
  ginv (GW (<[i := Some (S s, n)]> (gw_imgs w)) (gw_gmgs w)) nT LI LG RI RG.
Proof. intros I Hv. eapply ginv_irecount; [done..|]. intros x. rewrite cnt_step. case_decide; lia. Qed.
Lemma ginv_ginc w nT LI LG RI RG i s n : ginv w nT LI LG RI RG -> live (gw_gmgs w) i s n ->
  ginv (GW (gw_imgs w) (<[i := Some (S s, n)]> (gw_gmgs w))) nT LI LG RI (i :: RG).
Proof. intros I Hv. eapply ginv_grecount; [done..|]. intros x. rewrite cnt_step. case_decide; lia. Qed.
Lemma ginv_gdec w nT LI LG RI RG i s n : ginv w nT LI LG RI (i :: RG) -> live (gw_gmgs w) i (S (S s)) n ->
  ginv (GW (gw_imgs w) (<[i := Some (S s, n)]> (gw_gmgs w))) nT LI LG RI RG.
Proof. intros I Hv. eapply ginv_grecount; [done..|]. intros x. rewrite cnt_step. case_decide; lia. Qed.

(** *** Destruction *)
Lemma ginv_ikill w nT LI LG RI RG i n : ginv w nT LI LG (i :: RI) RG -> live (gw_imgs w) i 1 n ->
  ginv (GW (<[i := None]> (gw_imgs w)) (gw_gmgs w)) nT LI LG (i_pars n ++ RI) (i_gmg n :: RG).
Proof.
  intros [] Hv. pose proof (live_lt _ _ _ _ Hv) as Hlt. split; cbn [gw_imgs gw_gmgs]; try done.
  - by rewrite insert_length.
  - eapply gstr_mono; [|eauto|done]. intros x m. rewrite rc_get_insert by done. by case_decide.
  - intros x m [(-> & [=] & _)|[_ H]]%live_insert. by eapply gi_ipos.
  - intros x. specialize (gi_icnt x). rewrite rc_count_insert by done. rewrite cnt_step in gi_icnt.
    pose proof (hsum_kill (fun n => cnt x (i_pars n)) _ _ _ _ Hv) as E. cbn beta in E. rewrite cnt_app.
    destruct (decide (x = i)) as [->|]; cbn; [|lia].
    rewrite (rc_count_live _ _ _ _ Hv) in gi_icnt. lia.
  - intros g. specialize (gi_gcnt g). rewrite gi_gcnt.
    pose proof (hsum_kill (fun n => cnt g [i_gmg n]) _ _ _ _ Hv) as E. cbn beta in E.
    rewrite !cnt_step, cnt_nil in *. lia.
Qed.
Lemma ginv_gkill w nT LI LG RI RG i n : ginv w nT LI LG RI (i :: RG) -> live (gw_gmgs w) i 1 n ->
  ginv (GW (gw_imgs w) (<[i := None]> (gw_gmgs w))) nT LI LG RI (g_pars n ++ RG).
Proof.
  intros [] Hv. pose proof (live_lt _ _ _ _ Hv) as Hlt. split; cbn [gw_imgs gw_gmgs]; try done.
  - by rewrite insert_length.
  - eapply gstr_mono; [eauto| |done]. intros x m. rewrite rc_get_insert by done. by case_decide.
  - intros x m [(-> & [=] & _)|[_ H]]%live_insert. by eapply gi_gpos.
  - intros x. specialize (gi_gcnt x). rewrite rc_count_insert by done. rewrite cnt_step in gi_gcnt.
    pose proof (hsum_kill (fun n => cnt x (g_pars n)) _ _ _ _ Hv) as E. cbn beta in E. rewrite cnt_app.
    destruct (decide (x = i)) as [->|]; cbn; [|lia].
    rewrite (rc_count_live _ _ _ _ Hv) in gi_gcnt. lia.
Qed.

(** *** Creation *)
Lemma i_child_set side c n side' : i_child side' (i_set_child side c n) = if decide (side' = side) then c else i_child side' n.
Proof. by destruct side, side'. Qed.
Lemma g_child_set side c n side' : g_child side' (g_set_child side c n) = if decide (side' = side) then c else g_child side' n.
Proof. by destruct side, side'. Qed.
Lemma i_parent_set side c n : i_parent (i_set_child side c n) = i_parent n.
Proof. by destruct side. Qed.
Lemma i_gmg_set side c n : i_gmg (i_set_child side c n) = i_gmg n.
Proof. by destruct side. Qed.
Lemma g_parentage_set side c n : g_parentage (g_set_child side c n) = g_parentage n.
Proof. by destruct side. Qed.
Lemma g_img_set side c n : g_img (g_set_child side c n) = g_img n.
Proof. by destruct side. Qed.

Lemma lookup_snoc_inv {A} (l : list A) x i y : (l ++ [x]) !! i = Some y ->
  (i = length l /\ y = x) \/ (i <> length l /\ l !! i = Some y).
Proof.
  intros [H|[Hge H]]%lookup_app_Some.
  - right. split; [|done]. apply lookup_lt_Some in H. lia.
  - apply list_lookup_singleton_Some in H as [E <-]. left. split; [lia|done].
Qed.
Lemma lookup_snoc_ne {A} (l : list A) x i : i <> length l -> (l ++ [x]) !! i = l !! i.
Proof.
  intros H. destruct (decide (i < length l)); [by rewrite lookup_app_l|].
  rewrite !lookup_ge_None_2; [done|lia|rewrite app_length; cbn; lia].
Qed.

(** A new [IntoMutGuard] labelled [l], possibly with a parent, pointed to by
    the [GetMutGuard] [g] of that label. *)
Lemma ginv_inew w nT LI LG RI RG (par : option (nat * bool)) g s gn l imgs' :
  let i := length (gw_imgs w) in
  let new := Img (fst <$> par) None None g in
  ginv w nT LI LG (option_list (fst <$> par) ++ RI) (g :: RG) ->
  live (gw_gmgs w) g s gn -> LG !! g = Some (Some l) ->
  match par with
  | None => l_path l = []
  | Some (p, side) => exists lp, LI !! p = Some lp /\ l = lchild lp side
  end ->
  (forall j m, rc_get (gw_imgs w) j = Some m -> LI !! j <> Some l) ->
  length imgs' = S i ->
  (forall x, rc_get imgs' x = if decide (x = i) then Some new else
     match par with
     | Some (p, side) => if decide (x = p) then i_set_child side (Some i) <$> rc_get (gw_imgs w) x else rc_get (gw_imgs w) x
     | None => rc_get (gw_imgs w) x
     end) ->
  (forall x, rc_count imgs' x = if decide (x = i) then 1 else rc_count (gw_imgs w) x) ->
  (forall f, (forall side c n, f (i_set_child side c n) = f n) -> hsum f imgs' = hsum f (gw_imgs w) + f new) ->
  ginv (GW imgs' (<[g := Some (s, g_set_img (Some i) gn)]> (gw_gmgs w))) nT (LI ++ [l]) LG (i :: RI) RG.
Proof.
  intros i new I Hg Hlg Hpar Hno Hlen Hget Hcnt Hsum.
  pose proof (live_lt _ _ _ _ Hg) as Hglt.
  pose proof (gi_leni _ _ _ _ _ _ I) as HlenI.
  assert (Hpl : forall j m p, rc_get (gw_imgs w) j = Some m -> i_parent m = Some p -> exists m', rc_get (gw_imgs w) p = Some m').
  { intros. by eapply (ginv_ipar_live _ _ _ _ _ _ I). }
  (* parent is live *)
  assert (Hparlive : forall p side, par = Some (p, side) -> p <> i /\ exists pn, rc_get (gw_imgs w) p = Some pn).
  { intros p side ->. destruct (ginv_iref _ _ _ _ _ _ I p) as (pn & lp & Hp & _); [cbn; left|].
    split; [|eauto]. apply rc_get_lt in Hp. unfold i. lia. }
  (* old values *)
  assert (Hinv : forall x n, rc_get imgs' x = Some n -> (x = i /\ n = new) \/
     (x <> i /\ exists n0, rc_get (gw_imgs w) x = Some n0 /\ i_parent n = i_parent n0 /\ i_gmg n = i_gmg n0 /\
        forall side, i_child side n = i_child side n0 \/ (par = Some (x, side) /\ i_child side n = Some i))).
  { intros x n. rewrite Hget. case_decide as E; [intros [= <-]; by left|]. intros H. right. split; [done|].
    destruct par as [[p side]|]; [|exists n; eauto 10]. case_decide as E'; [|exists n; eauto 10]. subst p.
    apply fmap_Some in H as (n0 & Hn0 & ->). exists n0. rewrite i_parent_set, i_gmg_set. split_and!; try done.
    intros side'. rewrite i_child_set. case_decide; [subst; by right|by left]. }
  assert (Hset : forall x n side, par = Some (x, side) -> rc_get imgs' x = Some n -> i_child side n = Some i).
  { intros x n side Hp. destruct (Hparlive _ _ Hp) as [Hne _]. rewrite Hget, Hp. rewrite decide_False by done.
    rewrite decide_True by done. intros H. apply fmap_Some in H as (n0 & Hn0 & ->). by rewrite i_child_set, decide_True. }
  assert (Hgv : forall x n, rc_get (<[g := Some (s, g_set_img (Some i) gn)]> (gw_gmgs w)) x = Some n ->
     exists n0, rc_get (gw_gmgs w) x = Some n0 /\ g_parentage n = g_parentage n0 /\
       (forall side, g_child side n = g_child side n0) /\ ((x = g /\ g_img n = Some i) \/ (x <> g /\ g_img n = g_img n0))).
  { intros x n. rewrite rc_get_insert by done. case_decide as E; [|intros H; exists n; eauto 10]. subst x. cbn.
    intros [= <-]. exists gn. split_and!; try done; [by eapply rc_get_live|by left]. }
  destruct I as [_ HlenG St Hip Hgp Hic Hgc]. pose proof Hip as Hip'. rewrite pos_iff in Hip'. destruct St.
  split; cbn [gw_imgs gw_gmgs].
  - rewrite app_length. cbn. fold i in HlenI. lia.
  - by rewrite insert_length.
  - split.
    + intros x lx [(-> & ->)|[_ H]]%lookup_snoc_inv; eauto.
    + done.
    + intros x n lx [(-> & ->)|(Hne & n0 & Hn0 & _ & -> & _)]%Hinv [(Ex & ->)|(Hne' & Hlx)]%lookup_snoc_inv; try (rewrite HlenI in *; done); eauto.
    + intros x n lx [(-> & ->)|(Hne & n0 & Hn0 & -> & _ & _)]%Hinv [(Ex & ->)|(Hne' & Hlx)]%lookup_snoc_inv; try (rewrite HlenI in *; done).
      * cbn. destruct par as [[p side]|]; cbn; [|done]. destruct Hpar as (lp & Hlp & ->).
        destruct (Hparlive _ _ eq_refl) as [_ (pn & Hpn)]. split; [by eapply rc_get_lt|].
        exists lp, side. split; [|done]. by apply lookup_app_l_Some.
      * pose proof (gs_ipar _ _ _ Hn0 Hlx) as H. destruct (i_parent n0); [|done].
        destruct H as (? & lp & side & Hlp & ->). split; [done|]. exists lp, side. split; [|done]. by apply lookup_app_l_Some.
    + intros x n lx side c [(-> & ->)|(Hne & n0 & Hn0 & _ & _ & Hc)]%Hinv [(Ex & ->)|(Hne' & Hlx)]%lookup_snoc_inv Hch; try (rewrite HlenI in *; done).
      * by destruct side.
      * destruct (Hc side) as [E|[Hp E]]; rewrite E in Hch.
        -- apply lookup_app_l_Some. eauto.
        -- injection Hch as <-. rewrite Hp in Hpar. destruct Hpar as (lp & Hlp & ->). rewrite Hlx in Hlp. injection Hlp as <-.
           unfold i. by rewrite <- HlenI, list_lookup_middle.
    + intros x n lx side c m Hx Hlx Hc Hlc.
      pose proof Hx as Hx'.
      apply Hinv in Hx as [(-> & ->)|(Hne & n0 & Hn0 & _ & _ & Hch)];
        apply lookup_snoc_inv in Hlx as [(Ex & ->)|(Hne' & Hlx)]; try (rewrite HlenI in *; done);
        apply Hinv in Hc as [(-> & ->)|(Hcne & m0 & Hm0 & _ & _ & _)];
        apply lookup_snoc_inv in Hlc as [(Ec & Hlc)|(Hcne' & Hlc)]; try (rewrite HlenI in *; done).
      * exfalso. symmetry in Hlc. by eapply lchild_ne.
      * exfalso. pose proof (gs_ipar _ _ _ Hm0 Hlc) as H. destruct (i_parent m0) as [q|] eqn:Eq.
        -- destruct H as (_ & lp & side' & Hlp & E). apply lchild_inj in E as [<- <-].
           destruct (Hpl _ _ _ Hm0 Eq) as [m' Hm']. by eapply Hno.
        -- cbn in H. by apply app_nil in H as [_ [=]].
      * subst l. destruct par as [[p side']|].
        -- destruct Hpar as (lp & Hlp & E). apply lchild_inj in E as [<- <-].
           destruct (Hparlive _ _ eq_refl) as [_ [pn Hpn]].
           assert (x = p) as -> by (eapply gs_iu; eauto). by eapply Hset.
        -- cbn in Hpar. by apply app_nil in Hpar as [_ [=]].
      * pose proof (gs_ich' _ _ _ _ _ _ Hn0 Hlx Hm0 Hlc) as E. destruct (Hch side) as [E'|[Hp _]]; [by rewrite E'|].
        exfalso. rewrite Hp in Hpar. destruct Hpar as (lp & Hlp & ->). rewrite Hlx in Hlp. injection Hlp as <-. by eapply Hno.
    + intros x n y m lx Hx Hy Hlx Hly.
      apply Hinv in Hx as [(-> & ->)|(Hne & n0 & Hn0 & _ & _ & Hch)];
        apply lookup_snoc_inv in Hlx as [(Ex & ->)|(Hne' & Hlx)]; try (rewrite HlenI in *; done);
        apply Hinv in Hy as [(-> & ->)|(Hcne & m0 & Hm0 & _ & _ & _)];
        apply lookup_snoc_inv in Hly as [(Ec & Hly)|(Hcne' & Hly)]; try (rewrite HlenI in *; done).
      * exfalso. by eapply Hno.
      * exfalso. subst lx. by eapply Hno.
      * eauto.
    + intros x n lx (n0 & Hn0 & -> & _)%Hgv Hlx. eapply gs_gpar in Hn0; eauto.
    + intros x n (n0 & Hn0 & -> & _)%Hgv Hlx. eauto.
    + intros x n lx side c (n0 & Hn0 & _ & Hc & _)%Hgv Hlx. rewrite Hc. eauto.
    + intros x n lx side c m (n0 & Hn0 & _ & Hc & _)%Hgv Hlx (m0 & Hm0 & _)%Hgv. rewrite Hc. eauto.
    + intros x n y m lx (n0 & Hn0 & _ & Hc & _)%Hgv (m0 & Hm0 & _)%Hgv. eauto.
    + intros x n lx j (n0 & Hn0 & _ & _ & Hc)%Hgv Hlx Hj. destruct Hc as [[-> E]|[_ E]]; rewrite E in Hj.
      * injection Hj as <-. rewrite Hlg in Hlx. injection Hlx as <-. unfold i. by rewrite <- HlenI, list_lookup_middle.
      * apply lookup_app_l_Some. eauto.
    + intros x n lx j m (n0 & Hn0 & _ & _ & Hc)%Hgv Hlx Hj Hlj.
      apply Hinv in Hj as [(-> & ->)|(Hcne & m0 & Hm0 & _ & _ & _)];
        apply lookup_snoc_inv in Hlj as [(Ec & Hlj)|(Hcne' & Hlj)]; try (rewrite HlenI in *; done).
      * subst lx. assert (x = g) as -> by (eapply gs_gu; eauto using rc_get_live). destruct Hc as [[_ E]|[? _]]; done.
      * destruct Hc as [[-> E]|[_ E]]; rewrite E; [|eauto]. rewrite Hlg in Hlx. injection Hlx as <-. exfalso. by eapply Hno.
  - apply pos_iff. intros x n Hx. rewrite Hcnt. case_decide; [done|].
    apply Hinv in Hx as [(-> & _)|(_ & n0 & Hn0 & _)]; [done|]. eauto.
  - intros x n [(-> & [= E1 E2] & _)|[_ H]]%live_insert; [subst|]; by eapply Hgp.
  - intros x. rewrite Hcnt, cnt_step, Hsum by (intros; unfold i_pars; by rewrite i_parent_set).
    change (i_pars new) with (option_list (fst <$> par)). specialize (Hic x). rewrite cnt_app in Hic.
    case_decide as E; [|lia]. subst x.
    assert (rc_count (gw_imgs w) i = 0) as E0. { unfold rc_count. by rewrite lookup_ge_None_2. }
    lia.
  - intros x. specialize (Hgc x). rewrite rc_count_insert by done. rewrite cnt_step in Hgc.
    rewrite (hsum_set _ _ _ _ _ _ _ Hg) by done.
    rewrite Hsum by (intros; by rewrite i_gmg_set). cbn [i_gmg new]. rewrite cnt_step, cnt_nil.
    destruct (decide (x = g)) as [->|]; cbn; [|lia].
    rewrite (rc_count_live _ _ _ _ Hg) in Hgc. lia.
Qed.

(** A new [GetMutGuard] labelled [l], possibly with a parent. *)
Lemma ginv_gnew w nT nT' LI LG RI RG (par : option (nat * bool)) l gmgs' :
  let g := length (gw_gmgs w) in
  let new := Gmg par None None None in
  ginv w nT LI LG RI (option_list (fst <$> par) ++ RG) ->
  nT <= nT' -> l_tree l < nT' ->
  match par with
  | None => l_path l = []
  | Some (p, side) => exists lp, LG !! p = Some (Some lp) /\ l = lchild lp side
  end ->
  (forall j m, rc_get (gw_gmgs w) j = Some m -> LG !! j <> Some (Some l)) ->
  length gmgs' = S g ->
  (forall x, rc_get gmgs' x = if decide (x = g) then Some new else
     match par with
     | Some (p, side) => if decide (x = p) then g_set_child side (Some g) <$> rc_get (gw_gmgs w) x else rc_get (gw_gmgs w) x
     | None => rc_get (gw_gmgs w) x
     end) ->
  (forall x, rc_count gmgs' x = if decide (x = g) then 1 else rc_count (gw_gmgs w) x) ->
  (forall f, (forall side c n, f (g_set_child side c n) = f n) -> hsum f gmgs' = hsum f (gw_gmgs w) + f new) ->
  ginv (GW (gw_imgs w) gmgs') nT' LI (LG ++ [Some l]) RI (g :: RG).
Proof.
  intros i new I HnT HlT Hpar Hno Hlen Hget Hcnt Hsum.
  pose proof (gi_leng _ _ _ _ _ _ I) as HlenI.
  assert (Hpl : forall j m p side, rc_get (gw_gmgs w) j = Some m -> g_parentage m = Some (p, side) -> exists m', rc_get (gw_gmgs w) p = Some m').
  { intros. by eapply (ginv_gpar_live _ _ _ _ _ _ I). }
  assert (Hil : forall j m, rc_get (gw_imgs w) j = Some m -> exists m', rc_get (gw_gmgs w) (i_gmg m) = Some m').
  { intros. by eapply (ginv_igmg_live _ _ _ _ _ _ I). }
  assert (Hparlive : forall p side, par = Some (p, side) -> p <> i /\ exists pn, rc_get (gw_gmgs w) p = Some pn).
  { intros p side ->. destruct (ginv_gref _ _ _ _ _ _ I p) as (pn & lp & Hp & _); [cbn; left|].
    split; [|eauto]. apply rc_get_lt in Hp. unfold i. lia. }
  assert (Hinv : forall x n, rc_get gmgs' x = Some n -> (x = i /\ n = new) \/
     (x <> i /\ exists n0, rc_get (gw_gmgs w) x = Some n0 /\ g_parentage n = g_parentage n0 /\ g_img n = g_img n0 /\
        forall side, g_child side n = g_child side n0 \/ (par = Some (x, side) /\ g_child side n = Some i))).
  { intros x n. rewrite Hget. case_decide as E; [intros [= <-]; by left|]. intros H. right. split; [done|].
    destruct par as [[p side]|]; [|exists n; eauto 10]. case_decide as E'; [|exists n; eauto 10]. subst p.
    apply fmap_Some in H as (n0 & Hn0 & ->). exists n0. rewrite g_parentage_set, g_img_set. split_and!; try done.
    intros side'. rewrite g_child_set. case_decide; [subst; by right|by left]. }
  assert (Hset : forall x n side, par = Some (x, side) -> rc_get gmgs' x = Some n -> g_child side n = Some i).
  { intros x n side Hp. destruct (Hparlive _ _ Hp) as [Hne _]. rewrite Hget, Hp. rewrite decide_False by done.
    rewrite decide_True by done. intros H. apply fmap_Some in H as (n0 & Hn0 & ->). by rewrite g_child_set, decide_True. }
  destruct I as [HlenII _ St Hip Hgp Hic Hgc]. pose proof Hgp as Hgp'. rewrite pos_iff in Hgp'. destruct St.
  split; cbn [gw_imgs gw_gmgs]; try done.
  - rewrite app_length. cbn. fold i in HlenI. lia.
  - split; try done.
    + intros x lx H. apply gs_li in H. lia.
    + intros x lx [(-> & [= ->])|[_ H]]%lookup_snoc_inv; [done|]. apply gs_lg in H. lia.
    + intros x n lx Hx Hlx. apply lookup_app_l_Some. eauto.
    + intros x n lx [(-> & ->)|(Hne & n0 & Hn0 & -> & _ & _)]%Hinv [(Ex & [= ->])|(Hne' & Hlx)]%lookup_snoc_inv; try (rewrite HlenI in *; done).
      * cbn. destruct par as [[p side]|]; cbn; [|done]. destruct Hpar as (lp & Hlp & ->).
        destruct (Hparlive _ _ eq_refl) as [_ (pn & Hpn)]. split; [by eapply rc_get_lt|].
        exists lp. split; [|done]. by apply lookup_app_l_Some.
      * pose proof (gs_gpar _ _ _ Hn0 Hlx) as H. destruct (g_parentage n0) as [[q side]|]; [|done].
        destruct H as (? & lp & Hlp & ->). split; [done|]. exists lp. split; [|done]. by apply lookup_app_l_Some.
    + intros x n [(-> & ->)|(Hne & n0 & Hn0 & -> & _ & _)]%Hinv [(Ex & [=])|(Hne' & Hlx)]%lookup_snoc_inv; try (rewrite HlenI in *; done). eauto.
    + intros x n lx side c [(-> & ->)|(Hne & n0 & Hn0 & _ & _ & Hc)]%Hinv [(Ex & [= ->])|(Hne' & Hlx)]%lookup_snoc_inv Hch; try (rewrite HlenI in *; done).
      * by destruct side.
      * destruct (Hc side) as [E|[Hp E]]; rewrite E in Hch.
        -- apply lookup_app_l_Some. eauto.
        -- injection Hch as <-. rewrite Hp in Hpar. destruct Hpar as (lp & Hlp & ->). rewrite Hlx in Hlp. injection Hlp as <-.
           unfold i. by rewrite <- HlenI, list_lookup_middle.
    + intros x n lx side c m Hx Hlx Hc Hlc.
      pose proof Hx as Hx'.
      apply Hinv in Hx as [(-> & ->)|(Hne & n0 & Hn0 & _ & _ & Hch)];
        apply lookup_snoc_inv in Hlx as [(Ex & [= ->])|(Hne' & Hlx)]; try (rewrite HlenI in *; done);
        apply Hinv in Hc as [(-> & ->)|(Hcne & m0 & Hm0 & _ & _ & _)];
        apply lookup_snoc_inv in Hlc as [(Ec & [= Hlc])|(Hcne' & Hlc)]; try (rewrite HlenI in *; done).
      * exfalso. symmetry in Hlc. by eapply lchild_ne.
      * exfalso. pose proof (gs_gpar _ _ _ Hm0 Hlc) as H. destruct (g_parentage m0) as [[q side']|] eqn:Eq.
        -- destruct H as (_ & lp & Hlp & E). apply lchild_inj in E as [<- <-].
           destruct (Hpl _ _ _ _ Hm0 Eq) as [m' Hm']. by eapply Hno.
        -- cbn in H. by apply app_nil in H as [_ [=]].
      * subst l. destruct par as [[p side']|].
        -- destruct Hpar as (lp & Hlp & E). apply lchild_inj in E as [<- <-].
           destruct (Hparlive _ _ eq_refl) as [_ [pn Hpn]].
           assert (x = p) as -> by (eapply gs_gu; eauto). by eapply Hset.
        -- cbn in Hpar. by apply app_nil in Hpar as [_ [=]].
      * pose proof (gs_gch' _ _ _ _ _ _ Hn0 Hlx Hm0 Hlc) as E. destruct (Hch side) as [E'|[Hp _]]; [by rewrite E'|].
        exfalso. rewrite Hp in Hpar. destruct Hpar as (lp & Hlp & ->). rewrite Hlx in Hlp. injection Hlp as <-. by eapply Hno.
    + intros x n y m lx Hx Hy Hlx Hly.
      apply Hinv in Hx as [(-> & ->)|(Hne & n0 & Hn0 & _ & _ & Hch)];
        apply lookup_snoc_inv in Hlx as [(Ex & [= ->])|(Hne' & Hlx)]; try (rewrite HlenI in *; done);
        apply Hinv in Hy as [(-> & ->)|(Hcne & m0 & Hm0 & _ & _ & _)];
        apply lookup_snoc_inv in Hly as [(Ec & Hly)|(Hcne' & Hly)]; try (rewrite HlenI in *; done).
      * exfalso. by eapply Hno.
      * exfalso. injection Hly as ->. by eapply Hno.
      * eauto.
    + intros x n lx j [(-> & ->)|(Hne & n0 & Hn0 & _ & -> & _)]%Hinv [(Ex & [= ->])|(Hne' & Hlx)]%lookup_snoc_inv Hj; try (rewrite HlenI in *; done). eauto.
    + intros x n lx j m [(-> & ->)|(Hne & n0 & Hn0 & _ & -> & _)]%Hinv [(Ex & [= ->])|(Hne' & Hlx)]%lookup_snoc_inv Hj Hlj; try (rewrite HlenI in *; done); [|eauto].
      exfalso. destruct (Hil _ _ Hj) as [m' Hm']. eapply Hno; [exact Hm'|]. eauto.
  - apply pos_iff. intros x n Hx. rewrite Hcnt. case_decide; [done|].
    apply Hinv in Hx as [(-> & _)|(_ & n0 & Hn0 & _)]; [done|]. eauto.
  - intros x. rewrite Hcnt, cnt_step, Hsum by (intros; unfold g_pars; by rewrite g_parentage_set).
    change (g_pars new) with (option_list (fst <$> par)). specialize (Hgc x). rewrite cnt_app in Hgc.
    case_decide as E; [|lia]. subst x.
    assert (rc_count (gw_gmgs w) i = 0) as E0. { unfold rc_count. by rewrite lookup_ge_None_2. }
    lia.
Qed.

(** [WeakSlice::new]'s guard. *)
Lemma ginv_gnone w nT LI LG RI RG : ginv w nT LI LG RI RG ->
  ginv (GW (gw_imgs w) (gw_gmgs w ++ [Some (1, Gmg None None None None)])) nT LI (LG ++ [None]) RI (length (gw_gmgs w) :: RG).
Proof.
  intros I. pose proof (gi_leng _ _ _ _ _ _ I) as HlenI.
  assert (forall x n, rc_get (gw_gmgs w ++ [Some (1, Gmg None None None None)]) x = Some n -> forall ol, (LG ++ [None]) !! x = Some ol ->
    (ol = None /\ n = Gmg None None None None) \/ (rc_get (gw_gmgs w) x = Some n /\ LG !! x = Some ol)) as Hinv.
  { intros x n. rewrite rc_get_snoc. intros H ol [(E & ->)|[Hne Hl]]%lookup_snoc_inv.
    - rewrite decide_True in H by (by rewrite E). injection H as <-. by left.
    - rewrite decide_False in H by (by rewrite <- HlenI). by right. }
  destruct I as [HlenII _ [] Hip Hgp Hic Hgc]. split; cbn [gw_imgs gw_gmgs]; try done.
  - rewrite !app_length. cbn. lia.
  - split; try done.
    + intros x lx [(_ & [=])|[_ H]]%lookup_snoc_inv. eauto.
    + intros x n lx Hx Hlx. apply lookup_app_l_Some. eauto.
    + intros x n lx Hx Hlx. destruct (Hinv _ _ Hx _ Hlx) as [[[=] _]|[Hx' Hlx']].
      pose proof (gs_gpar _ _ _ Hx' Hlx') as H. destruct (g_parentage n) as [[q side]|]; [|done].
      destruct H as (? & lp & Hlp & ->). split; [done|]. exists lp. split; [|done]. by apply lookup_app_l_Some.
    + intros x n Hx Hlx. destruct (Hinv _ _ Hx _ Hlx) as [[_ ->]|[Hx' Hlx']]; [done|]. eauto.
    + intros x n lx side c Hx Hlx Hc. destruct (Hinv _ _ Hx _ Hlx) as [[[=] _]|[Hx' Hlx']]. apply lookup_app_l_Some. eauto.
    + intros x n lx side c m Hx Hlx Hc Hlc. destruct (Hinv _ _ Hx _ Hlx) as [[[=] _]|[Hx' Hlx']].
      destruct (Hinv _ _ Hc _ Hlc) as [[[=] _]|[Hc' Hlc']]. eauto.
    + intros x n y m lx Hx Hc Hlx Hlc. destruct (Hinv _ _ Hx _ Hlx) as [[[=] _]|[Hx' Hlx']].
      destruct (Hinv _ _ Hc _ Hlc) as [[[=] _]|[Hc' Hlc']]. eauto.
    + intros x n lx j Hx Hlx. destruct (Hinv _ _ Hx _ Hlx) as [[[=] _]|[Hx' Hlx']]. eauto.
    + intros x n lx j m Hx Hlx. destruct (Hinv _ _ Hx _ Hlx) as [[[=] _]|[Hx' Hlx']]. eauto.
  - intros x n [[_ [= <-]]|[_ H]]%live_snoc. by eapply Hgp.
  - intros x. rewrite rc_count_snoc, cnt_step, hsum_snoc. cbn [g_pars g_parentage option_list fmap]. cbn. rewrite cnt_nil.
    specialize (Hgc x). case_decide as E; [|lia]. subst x.
    assert (rc_count (gw_gmgs w) (length (gw_gmgs w)) = 0) as E0. { unfold rc_count. by rewrite lookup_ge_None_2. }
    lia.
Qed.
