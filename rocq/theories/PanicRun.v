(** The single-threaded API with panicking destructors, whole runs. *)
From Verif Require Import Base Api BaseLemmas SliceItemsModel BinPartsModel DataModel RcModel Spec
  DataInv Refine Observe Facts Views RcTheory ShareTheory Conserve ConserveTheory LeakTheory.
From Verif Require Import ArcModel ArcObserve ArcTheory ArcConserve ArcLeak PanicModel TraceHom PanicTheory PanicObserve QuietTheory.

Section lists.
  Context {V : Type}.
  Lemma drops_ev (lk : leaked V) : drops (ev <$> lk) = lk.
  Proof. induction lk as [|[[b i] v] lk IH]; [done|]. cbn [fmap list_fmap]. unfold ev at 1. cbn [fst snd]. by rewrite drops_cons, IH. Qed.
  Lemma frees_ev (lk : leaked V) : frees (ev <$> lk) = [].
  Proof. induction lk as [|[[b i] v] lk IH]; [done|]. exact IH. Qed.
  Lemma omap_sublist {A B} (f : A -> option B) l l' : l `sublist_of` l' -> omap f l `sublist_of` omap f l'.
  Proof.
    induction 1 as [|x l l' _ IH|x l l' _ IH]; [done| |]; cbn; destruct (f x); try done; [by apply sublist_skip|by apply sublist_cons].
  Qed.
  Lemma omap_perm {A B} (f : A -> option B) l l' : l ≡ₚ l' -> omap f l ≡ₚ omap f l'.
  Proof. by intros ->. Qed.
  Lemma sublist_perm_eq {A} (l l' : list A) : l `sublist_of` l' -> l' ≡ₚ l -> l = l'.
  Proof.
    intros H1 H2. apply Permutation_length in H2. revert H2. induction H1 as [|x l l' _ IH|x l l' H _]; [done| |]; cbn; intros H2.
    - f_equal. apply IH. lia.
    - apply sublist_length in H. lia.
  Qed.
  Lemma frees_eq (nd pnd : list (event V)) lk : pnd `sublist_of` nd -> nd ≡ₚ pnd ++ (ev <$> lk) -> frees pnd = frees nd.
  Proof.
    intros H1 H2. apply sublist_perm_eq; [by apply omap_sublist|]. etrans; [by apply omap_perm|]. change (frees (pnd ++ (ev <$> lk)) ≡ₚ frees pnd).
    by rewrite frees_app, frees_ev, app_nil_r.
  Qed.
  Lemma drops_split (nd pnd : list (event V)) lk : nd ≡ₚ pnd ++ (ev <$> lk) -> drops nd ≡ₚ drops pnd ++ lk.
  Proof. intros H. rewrite (drops_perm _ _ H), drops_app, drops_ev. done. Qed.
  Lemma bombs_vals bomb (nd : list (event V)) : bombs bomb nd = length (bombs_of bomb (drops nd).*2).
  Proof.
    unfold bombs, bombs_of. induction (drops nd) as [|x l IH]; [done|]. cbn [fmap list_fmap]. rewrite !filter_cons.
    destruct (decide (bomb (snd x) = true)); cbn [length]; by rewrite IH.
  Qed.
  Lemma any_spec bomb (nd : list (event V)) : any bomb nd = true <-> exists c v, (c, v) ∈ drops nd /\ bomb v = true.
  Proof.
    unfold any. rewrite negb_true_iff, Nat.eqb_neq. unfold bombs. split.
    - intros H. destruct (filter _ _) as [|[c v] l] eqn:E; [done|]. assert ((c, v) ∈ (c, v) :: l) as Hx by left. rewrite <- E in Hx. apply elem_of_list_filter in Hx as [Hb Hx]. by exists c, v.
    - intros (c & v & H & Hb) E. apply nil_length_inv in E. apply (filter_nil_not_elem_of _ _ (c, v)) in E; done.
  Qed.
  Lemma any_false bomb (nd : list (event V)) : any bomb nd = false <-> forall c v, (c, v) ∈ drops nd -> bomb v = false.
  Proof.
    split.
    - intros H c v Hc. destruct (bomb v) eqn:E; [|done]. rewrite <- H. symmetry. apply any_spec. eauto.
    - intros H. destruct (any bomb nd) eqn:E; [|done]. apply any_spec in E as (c & v & Hc & Hb). by rewrite (H _ _ Hc) in Hb.
  Qed.
  Lemma bombs_sub bomb (l l' : list V) k : l' ≡ₚ l ++ k -> (length (bombs_of bomb l) <= length (bombs_of bomb l'))%nat.
  Proof. unfold bombs_of. intros ->. rewrite filter_app, app_length. lia. Qed.
  Lemma filter_fst_NoDup {A} (P : A * V -> Prop) `{!forall x, Decision (P x)} (l : list (A * V)) : NoDup l.*1 -> NoDup (filter P l).*1.
  Proof.
    induction l as [|x l IH]; [done|]. cbn [fmap list_fmap]. intros [Hx Hn]%NoDup_cons. rewrite filter_cons. destruct (decide (P x)); [|by apply IH].
    cbn [fmap list_fmap]. apply NoDup_cons. split; [|by apply IH]. intros (y & Hy & Hin)%elem_of_list_fmap. apply Hx. apply elem_of_list_filter in Hin as [_ Hin].
    rewrite Hy. by apply elem_of_list_fmap_1.
  Qed.
  (** Two bombs among distinct cells. *)
  Lemma two_bombs bomb (nd : list (event V)) : NoDup (drops nd).*1 -> (2 <= bombs bomb nd)%nat ->
    exists c1 c2 v1 v2, c1 <> c2 /\ (c1, v1) ∈ drops nd /\ (c2, v2) ∈ drops nd /\ bomb v1 = true /\ bomb v2 = true.
  Proof.
    unfold bombs. generalize (drops nd). clear nd. intros l Hn Hb.
    assert (forall x, x ∈ filter (fun x : (nat * N) * V => bomb (snd x) = true) l -> x ∈ l /\ bomb (snd x) = true) as Hf. { intros x Hx. by apply elem_of_list_filter in Hx as [? ?]. }
    assert (NoDup (filter (fun x : (nat * N) * V => bomb (snd x) = true) l).*1) as Hn'. { by apply filter_fst_NoDup. }
    destruct (filter _ l) as [|[c1 v1] [|[c2 v2] k]]; cbn in Hb; try lia.
    exists c1, c2, v1, v2. destruct (Hf (c1, v1)) as [? ?]; [left|]. destruct (Hf (c2, v2)) as [? ?]; [right; left|]. split_and!; try done.
    intros ->. cbn in Hn'. apply NoDup_cons in Hn' as [Hn' _]. apply Hn'. left.
  Qed.
End lists.

Section run.
  Context {V : Type} (cf : cfg V) (bomb : V -> bool).
  Notation sz := (c_sz cf).
  Notation bstep := (bstep cf bomb).
  Notation brun := (brun cf bomb).
  Notation breach := (breach cf bomb).
  Implicit Types (w wp : world V) (o : op V) (h : nat) (ops : list (op V)) (lk : leaked V).

  Lemma cells_eq w : dropped_cells w = (drops (dw_trace (w_d w))).*1. Proof. apply drops_cells. Qed.
  Lemma vals_eq w : dropped w = (drops (dw_trace (w_d w))).*2. Proof. apply drops_vals. Qed.
  Lemma freed_eq w : freed w = frees (dw_trace (w_d w)). Proof. done. Qed.

  Lemma samew_item w wp c : samew w wp -> item wp c = item w c.
  Proof. intros (H & _). unfold item. by rewrite (same_mem _ _ H). Qed.
  Lemma samew_get w wp h : samew w wp -> get_h wp h = get_h w h.
  Proof. intros (_ & _ & H). unfold get_h. by rewrite H. Qed.
  Lemma cells_pre t w h : h_cells cf (preW t w) h = h_cells cf w h.
  Proof.
    unfold h_cells, h_slice, get_h. cbn [preW w_h w_d w_g]. destruct (w_h w !! h) as [[[]|]|]; try done.
    change (pre t (w_d w), w_g w) with (preS t (w_d w, w_g w)). by rewrite parts_as_slice_pre.
  Qed.
  Lemma samew_cells w wp h : samew w wp -> h_cells cf wp h = h_cells cf w h.
  Proof. intros H. destruct (samew_pre _ _ H) as (t & tp & w0 & -> & -> & _). by rewrite !cells_pre. Qed.
  Lemma samew_view w wp h : samew w wp -> view cf wp h = view cf w h.
  Proof.
    intros H. unfold view, rstep. destruct (samew_pre _ _ H) as (t & tp & w0 & -> & -> & _). rewrite !step_pre. destruct (step _ _ _ _ _ w0 _) as [[w1 r]| | |]; done.
  Qed.
  Lemma samew_owns w wp h c v : samew w wp -> owns cf wp h c v <-> owns cf w h c v.
  Proof. intros H. unfold owns. rewrite (samew_item _ _ c H), (samew_cells _ _ h H). by setoid_rewrite (fun h => samew_cells _ _ h H). Qed.

  (** The state reached when destructors panic, and the one reached when they do not. *)
  Definition sim w wp lk : Prop := samew w wp /\ dw_trace (w_d wp) `sublist_of` dw_trace (w_d w) /\
    dw_trace (w_d w) ≡ₚ dw_trace (w_d wp) ++ (ev <$> lk).

  Lemma bstep_ok w wp lk o w' r : samew w wp -> rstep cf w o = Ok (w', r) -> exists x, bstep (wp, lk) o = Ok x /\ spost bomb w w' r o (wp, lk) x.
  Proof. intros Hs E. by apply pstep_post. Qed.
  Lemma sim_step w wp lk w' r o wp' lk' r' : sim w wp lk -> spost bomb w w' r o (wp, lk) (Some ((wp', lk'), r')) -> sim w' wp' lk'.
  Proof.
    intros (Hs & Hb & Hp) (nd & T & Hs' & pnd & l & T' & L & B & P & _). cbn [fst snd] in *. split; [done|]. rewrite T, T', L. split; [by apply sublist_app|].
    rewrite Hp, P, fmap_app. solve_Permutation.
  Qed.
  (** A call that panics is one that drops, or returns the same. *)
  Lemma out_step w w' r o pw pw' r' : rstep cf w o = Ok (w', r) -> spost bomb w w' r o pw (Some (pw', r')) -> out_panics r r'.
  Proof.
    intros E (nd & T & _ & pnd & l & _ & _ & _ & _ & -> & _). destruct (is_drop o) eqn:Ho; [|by left]. destruct o; try done. cbn [andb].
    unfold rstep in E. cbn [step] in E. destruct (get_h w h) as [x|].
    - destruct (handle_drop sz _ x); try done. cbn in E. injection E as <- <-. destruct (any bomb nd); [by right|by left].
    - injection E as <- <-. assert (nd = []) as -> by (rewrite <- (app_nil_r (dw_trace _)) in T at 1; by apply app_inv_head in T as <-). by left.
  Qed.
  Lemma brun_ok ops : forall w wp lk w' outs, sim w wp lk -> rrun cf w ops = Ok (w', outs) -> exists x, brun (wp, lk) ops = Ok x /\
    match x with Some ((wp', lk'), outs') => sim w' wp' lk' /\ Forall2 out_panics outs outs' | None => True end.
  Proof.
    induction ops as [|o ops IH]; intros w wp lk w' outs Hs E.
    { injection E as <- <-. exists (Some ((wp, lk), [])). done. }
    apply rrun_cons in E as (w1 & r & rs & E1 & E2 & ->). destruct (bstep_ok w wp lk o w1 r (proj1 Hs) E1) as (x & Ex & Px).
    unfold PanicObserve.brun. cbn [prun]. unfold PanicObserve.bstep in Ex. rewrite Ex. cbn [mbind res_bind]. destruct x as [[[wp1 lk1] r1]|]; [|by exists None].
    destruct (IH w1 wp1 lk1 w' rs (sim_step _ _ _ _ _ _ _ _ _ Hs Px) E2) as (y & Ey & Py). unfold PanicObserve.brun in Ey. rewrite Ey. cbn [mbind res_bind].
    destruct y as [[[wp2 lk2] rs']|]; [|by exists None]. eexists. split; [done|]. destruct Py as [Hs2 HF]. split; [done|]. constructor; [|done]. by eapply out_step.
  Qed.
  Lemma sim_empty : sim empty_world empty_world []. Proof. done. Qed.
  (** C49_no_ub *)
  Lemma bomb_no_ub ops : exists x, brun (empty_world, []) ops = Ok x.
  Proof.
    destruct (never_stuck cf ops) as (w & outs & E). destruct (brun_ok _ _ _ _ _ _ sim_empty E) as (x & Ex & _). eauto.
  Qed.
  Lemma brun_sim ops wp lk outs' : brun (empty_world, []) ops = Ok (Some ((wp, lk), outs')) ->
    exists w outs, rrun cf empty_world ops = Ok (w, outs) /\ sim w wp lk /\ Forall2 out_panics outs outs'.
  Proof.
    intros E. destruct (never_stuck cf ops) as (w & outs & Ew). exists w, outs. split; [done|].
    destruct (brun_ok _ _ _ _ _ _ sim_empty Ew) as (x & Ex & Px). rewrite E in Ex. by injection Ex as <-.
  Qed.
  Lemma breach_sim ops wp lk : breach ops wp lk -> exists w, reach cf ops w /\ sim w wp lk.
  Proof. intros [outs E]. destruct (brun_sim _ _ _ _ E) as (w & outs0 & Ew & Hs & _). exists w. split; [by exists outs0|done]. Qed.
  Lemma sim_drops w wp lk : sim w wp lk -> drops (dw_trace (w_d w)) ≡ₚ drops (dw_trace (w_d wp)) ++ lk.
  Proof. intros (_ & _ & H). by apply drops_split. Qed.
  Lemma sim_freed w wp lk : sim w wp lk -> freed wp = freed w.
  Proof. intros (_ & H1 & H2). rewrite !freed_eq. by eapply frees_eq. Qed.
  Lemma got_panics outs outs' : Forall2 out_panics outs outs' -> got_run (V:=V) outs' = got_run outs.
  Proof.
    induction 1 as [|r r' rs rs' H _ IH]; [done|]. unfold got_run in *. cbn. rewrite IH. destruct H as [->|[-> ->]]; done.
  Qed.

  (** C49_same *)
  Lemma bomb_same ops wp lk outs' : brun (empty_world, []) ops = Ok (Some ((wp, lk), outs')) ->
    exists w outs, rrun cf empty_world ops = Ok (w, outs) /\ Forall2 out_panics outs outs' /\
      dw_mem (w_d wp) = dw_mem (w_d w) /\ dw_blocks (w_d wp) = dw_blocks (w_d w) /\
      dw_datas (w_d wp) = dw_datas (w_d w) /\ dw_allocs (w_d wp) = dw_allocs (w_d w) /\
      w_g wp = w_g w /\ w_h wp = w_h w /\ freed wp = freed w /\
      dropped wp `sublist_of` dropped w /\ dropped w ≡ₚ dropped wp ++ lk.*2 /\
      dropped_cells wp `sublist_of` dropped_cells w /\ dropped_cells w ≡ₚ dropped_cells wp ++ lk.*1.
  Proof.
    intros E. destruct (brun_sim _ _ _ _ E) as (w & outs & Ew & Hs & Ho). exists w, outs. pose proof (sim_drops _ _ _ Hs) as Hd.
    pose proof (sim_freed _ _ _ Hs) as Hf. destruct Hs as ((Hs & Hg & Hh) & Hb & Hp).
    rewrite !vals_eq, !cells_eq. split_and!; try done.
    - by apply same_mem. - by apply same_blocks. - by apply same_datas. - by apply same_allocs.
    - apply fmap_sublist, omap_sublist. done.
    - by rewrite Hd, fmap_app.
    - apply fmap_sublist, omap_sublist. done.
    - by rewrite Hd, fmap_app.
  Qed.
  (** C49_conserved *)
  Lemma bomb_conserved ops wp lk outs' : brun (empty_world, []) ops = Ok (Some ((wp, lk), outs')) ->
    put_run cf empty_world ops ≡ₚ contents wp ++ dropped wp ++ lk.*2 ++ got_run outs'.
  Proof.
    intros E. destruct (bomb_same _ _ _ _ E) as (w & outs & Ew & Ho & Hm & _ & _ & _ & _ & _ & _ & _ & Hd & _).
    rewrite (got_panics _ _ Ho), (conserved_items cf _ _ _ Ew), Hd. unfold contents. rewrite Hm. by rewrite <- !app_assoc.
  Qed.
  (** C49_once *)
  Lemma bomb_once ops wp lk : breach ops wp lk -> NoDup (dropped_cells wp ++ lk.*1) /\ NoDup (freed wp) /\
    forall c, c ∈ dropped_cells wp \/ c ∈ lk.*1 -> item wp c = None /\ forall h, c ∉ h_cells cf wp h.
  Proof.
    intros R. destruct (breach_sim _ _ _ R) as (w & Rw & Hs). pose proof (sim_drops _ _ _ Hs) as Hd. apply (fmap_Permutation fst) in Hd.
    rewrite fmap_app, <- !cells_eq in Hd. destruct (dropped_once _ _ _ Rw) as (H1 & H2 & _). split_and!.
    - by rewrite <- Hd.
    - rewrite (sim_freed _ _ _ Hs). by eapply freed_once.
    - intros c Hc. rewrite <- elem_of_app, <- Hd in Hc. pose proof (H2 _ Hc) as Hn. split; [by rewrite (samew_item _ _ _ (proj1 Hs))|].
      intros h. rewrite (samew_cells _ _ _ (proj1 Hs)). intros Hh. destruct (proj2 (alive_iff_covered cf _ _ c Rw)) as [v Hv]; [by exists h|]. congruence.
  Qed.
  (** C49_alive *)
  Lemma bomb_alive ops wp lk c : breach ops wp lk -> (is_Some (item wp c) <-> exists h, c ∈ h_cells cf wp h) /\
    (sz <> 0%N -> is_Some (item wp c) -> fst c ∉ freed wp).
  Proof.
    intros R. destruct (breach_sim _ _ _ R) as (w & Rw & Hs). rewrite (samew_item _ _ _ (proj1 Hs)), (sim_freed _ _ _ Hs).
    setoid_rewrite (fun h => samew_cells _ _ h (proj1 Hs)). split; [by eapply alive_iff_covered|]. intros Hz H.
    apply (alive_iff_covered cf _ _ c Rw) in H as [h Hh]. by eapply not_freed_early.
  Qed.
  (** C49_no_memory_leak *)
  Lemma bomb_no_memory_leak ops wp lk : breach ops wp lk -> (forall h, get_h wp h = None) ->
    Forall (fun x => x = None) (dw_datas (w_d wp)) /\ Forall (fun x => x = None) (dw_allocs (w_d wp)) /\
    Forall (fun x => x = None) (gw_imgs (w_g wp)) /\ Forall (fun x => x = None) (gw_gmgs (w_g wp)) /\
    (sz <> 0%N -> forall b blk, dw_blocks (w_d wp) !! b = Some blk -> b_len blk <> 0%N -> b ∈ freed wp).
  Proof.
    intros R Hh. destruct (breach_sim _ _ _ R) as (w & Rw & Hs). rewrite (sim_freed _ _ _ Hs). destruct Hs as [Hs _].
    assert (forall h, get_h w h = None) as Hh'. { intros h. by rewrite <- (samew_get _ _ h Hs). }
    destruct Hs as (Hs & Hg & _). rewrite (same_datas _ _ Hs), (same_allocs _ _ Hs), (same_blocks _ _ Hs), Hg. by eapply no_leak.
  Qed.

  (** *** Single calls *)
  Lemma split_panic_drop w h n w' : rstep cf w (OSplitIntoParts h n) = Ok (w', RPanic) -> rstep cf w (ODrop h) = Ok (w', RUnit).
  Proof.
    unfold rstep. cbn [step]. destruct (negb _); [done|]. destruct (get_h w h) as [[r|? ?|?|m|?|?]|]; try done; cbn [handle_drop].
    - destruct (bpi_new _ _ _ _); try done. destruct (rcs_drop sz _ r); try done. cbn. by intros [= <-].
    - destruct (mut_split_into_parts _ _); try done. cbn [fst]. destruct (mut_drop sz _ m); try done. cbn. by intros [= <-].
  Qed.
  Lemma split_panic_live w h n w' : rstep cf w (OSplitIntoParts h n) = Ok (w', RPanic) -> get_h w h <> None /\ (n < usize_lim)%N.
  Proof. unfold rstep. cbn [step]. destruct (N.ltb_spec n usize_lim); [|done]. cbn [negb]. by destruct (get_h w h) as [[]|]. Qed.
  (** What dropping a variable disposes of when nothing panics: the items nobody else covers. *)
  Lemma drop_nd ops w h w' r nd : reach cf ops w -> rstep cf w (ODrop h) = Ok (w', r) -> dw_trace (w_d w') = dw_trace (w_d w) ++ nd ->
    NoDup (drops nd).*1 /\ forall c v, (c, v) ∈ drops nd <-> owns cf w h c v.
  Proof.
    intros R E T. destruct (drop_exact cf _ _ _ _ _ R E) as (l & H1 & H2 & H3 & H4).
    assert (l = drops nd) as ->; [|done]. rewrite !cells_eq, T, drops_app, fmap_app in H1. rewrite !vals_eq, T, drops_app, fmap_app in H2.
    apply app_inv_head in H1, H2. clear -H1 H2. generalize dependent (drops nd). intros k. revert l. induction k as [|[c v] k IH]; intros [|[c1 v1] l]; cbn; try done.
    intros [= -> H1] [= -> H2]. f_equal. by apply IH.
  Qed.
  Lemma rstep_total ops w o : reach cf ops w -> exists w' r, rstep cf w o = Ok (w', r).
  Proof. intros R. destruct (rstep_spec cf _ _ o (reach_rel _ _ _ R)) as (w' & E & _). eauto. Qed.

  (** C49_step: one call is always defined *)
  Lemma bomb_step ops wp lk o : breach ops wp lk -> exists x, bstep (wp, lk) o = Ok x.
  Proof.
    intros R. destruct (breach_sim _ _ _ R) as (w & Rw & Hs). destruct (rstep_total _ _ o Rw) as (w' & r & E). destruct (bstep_ok _ _ lk _ _ _ (proj1 Hs) E) as (x & Ex & _). eauto.
  Qed.
  Lemma fst_NoDup_app (l k : leaked V) (nd : list ((nat * N) * V)) : nd ≡ₚ l ++ k -> NoDup nd.*1 -> NoDup (l ++ k).*1.
  Proof. intros H Hn. by rewrite <- H. Qed.
  (** C49_drop *)
  Lemma bomb_drop ops wp lk h wp' lk' r' : breach ops wp lk -> bstep (wp, lk) (ODrop h) = Ok (Some ((wp', lk'), r')) ->
    exists nd l : leaked V, dropped_cells wp' = dropped_cells wp ++ nd.*1 /\ dropped wp' = dropped wp ++ nd.*2 /\ lk' = lk ++ l /\
      NoDup (nd ++ l).*1 /\ (forall c v, (c, v) ∈ nd ++ l <-> owns cf wp h c v) /\
      (r' = RPanic /\ length (bombs_of bomb nd.*2) = 1 \/
       r' <> RPanic /\ l = [] /\ forall c v, owns cf wp h c v -> bomb v = false).
  Proof.
    intros R E. destruct (breach_sim _ _ _ R) as (w & Rw & Hs). destruct (rstep_total _ _ (ODrop h) Rw) as (w' & r & Ew).
    destruct (bstep_ok _ _ lk _ _ _ (proj1 Hs) Ew) as (x & Ex & Px). rewrite E in Ex. injection Ex as <-.
    destruct Px as (nd & T & _ & pnd & l & T' & L & B & P & Hr & Hl & Hb). cbn [fst snd is_drop andb] in *.
    destruct (drop_nd _ _ _ _ _ _ Rw Ew T) as [Hn Ho]. pose proof (drops_split _ _ _ P) as Hd. exists (drops pnd), l.
    rewrite !cells_eq, !vals_eq, T', drops_app, !fmap_app. split_and!; try done.
    - rewrite <- fmap_app, <- Hd. done.
    - intros c v. rewrite <- Hd, Ho. symmetry. apply samew_owns, Hs.
    - destruct (any bomb nd) eqn:Ea; [left|right].
      + split; [done|]. by rewrite <- bombs_vals, (Hb eq_refl).
      + split_and!.
        * subst r'. intros ->. unfold rstep in Ew. cbn [step] in Ew. destruct (get_h w h); [|done]. by destruct (handle_drop _ _ _).
        * apply Hl. by right.
        * intros c v Hc. apply (samew_owns _ _ _ _ _ (proj1 Hs)), Ho in Hc. by eapply any_false.
  Qed.
  (** C49_abort *)
  Lemma bomb_abort ops wp lk o : breach ops wp lk -> bstep (wp, lk) o = Ok None ->
    match o with
    | ODrop h => exists c1 c2 v1 v2, c1 <> c2 /\ owns cf wp h c1 v1 /\ owns cf wp h c2 v2 /\ bomb v1 = true /\ bomb v2 = true
    | OSplitIntoParts h n => (forall k, n <> 2 ^ k)%N /\ exists c v, owns cf wp h c v /\ bomb v = true
    | _ => False
    end.
  Proof.
    intros R E. destruct (breach_sim _ _ _ R) as (w & Rw & Hs). destruct (rstep_total _ _ o Rw) as (w' & r & Ew).
    destruct (bstep_ok _ _ lk _ _ _ (proj1 Hs) Ew) as (x & Ex & Px). rewrite E in Ex. injection Ex as <-.
    destruct Px as (nd & T & [(-> & (h & n & ->) & Hb)|[Ho Hb]]).
    - split; [exact (panic_only cf _ _ _ _ Rw Ew)|]. destruct (drop_nd _ _ _ _ _ _ Rw (split_panic_drop _ _ _ _ Ew) T) as [_ Ho].
      assert (any bomb nd = true) as (c & v & Hc & Hv)%any_spec. { unfold any. destruct (bombs bomb nd); [lia|done]. }
      exists c, v. split; [|done]. apply (samew_owns _ _ _ _ _ (proj1 Hs)). by apply Ho.
    - destruct o; try done. destruct (drop_nd _ _ _ _ _ _ Rw Ew T) as [Hn Hw]. destruct (two_bombs bomb nd Hn Hb) as (c1 & c2 & v1 & v2 & Hne & H1 & H2 & B1 & B2).
      exists c1, c2, v1, v2. split_and!; try done; apply (samew_owns _ _ _ _ _ (proj1 Hs)); by apply Hw.
  Qed.
  (** C49_split *)
  Lemma bomb_split ops wp lk h n : breach ops wp lk -> (exists x, get_h wp h = Some x /\ match x with HRc _ | HMut _ => True | _ => False end) ->
    (n < usize_lim)%N -> (forall k, n <> 2 ^ k)%N ->
    (bstep (wp, lk) (OSplitIntoParts h n) = Ok None /\ exists c v, owns cf wp h c v /\ bomb v = true) \/
    (forall c v, owns cf wp h c v -> bomb v = false) /\ exists wp' (nd : leaked V), bstep (wp, lk) (OSplitIntoParts h n) = Ok (Some ((wp', lk), RPanic)) /\
      dropped_cells wp' = dropped_cells wp ++ nd.*1 /\ dropped wp' = dropped wp ++ nd.*2 /\ NoDup nd.*1 /\ forall c v, (c, v) ∈ nd <-> owns cf wp h c v.
  Proof.
    intros R Hk Hn Hp. destruct (breach_sim _ _ _ R) as (w & Rw & Hs).
    assert (exists w', rstep cf w (OSplitIntoParts h n) = Ok (w', RPanic)) as [w' Ew].
    { destruct (split_panics cf _ w h n Rw) as (w' & Ew & _); try done; [|eauto]. destruct Hk as (x & Hx & Hk). rewrite (samew_get _ _ _ (proj1 Hs)) in Hx.
      destruct x; try done; [left|right]; unfold is_rc, is_mut; eauto. }
    destruct (pstep_split sz bomb (c_clone cf) (c_capf cf) (c_growf cf) false _ _ lk _ _ _ (proj1 Hs) Ew) as (z & nd & Ez & T & Hz).
    destruct (bstep_ok _ _ lk _ _ _ (proj1 Hs) Ew) as (x & Ex & nd' & T' & Px). rewrite T in T'. apply app_inv_head in T' as <-.
    unfold PanicObserve.bstep in Ex. rewrite Ez in Ex. injection Ex as <-.
    destruct (drop_nd _ _ _ _ _ _ Rw (split_panic_drop _ _ _ _ Ew) T) as [Hnd Ho].
    assert (forall c v, (c, v) ∈ drops nd <-> owns cf wp h c v) as Ho'. { intros c v. rewrite Ho. symmetry. apply samew_owns, Hs. }
    destruct z as [[[wp' lk'] r']|].
    - right. destruct Px as (Hs' & pnd & l & T' & L & B & P & Hr & Hl & _). cbn [is_drop andb fst snd] in *.
      rewrite (Hl (or_introl eq_refl)) in *. cbn in P, L. rewrite app_nil_r in P, L. subst lk' r'. apply sublist_perm_eq in B as ->; [|done]. split.
      + intros c v Hc. apply Ho' in Hc. eapply any_false; [|exact Hc]. unfold any. destruct (bombs bomb nd) eqn:Eb; [done|]. assert (1 <= S n0)%nat as H by lia. by apply Hz in H.
      + exists wp', (drops nd). split_and!; try done; [by rewrite !cells_eq, T', drops_app, fmap_app|by rewrite !vals_eq, T', drops_app, fmap_app].
    - left. split; [done|]. assert (any bomb nd = true) as (c & v & Hc & Hv)%any_spec. { unfold any. destruct (bombs bomb nd) eqn:Eb; [|done]. assert (1 <= 0) as H by (by apply Hz). lia. }
      exists c, v. split; [by apply Ho'|done].
  Qed.

  (** Order in which a unique slice drops its items. *)
  Lemma unique_order w h x w' r : get_h w h = Some x -> match x with HMut _ | HIter _ | HMParts _ => True | _ => False end -> rstep cf w (ODrop h) = Ok (w', r) ->
    exists nd, dw_trace (w_d w') = dw_trace (w_d w) ++ nd /\ (drops nd).*1 = h_cells cf w h /\ (drops nd).*2 = omap (item w) (h_cells cf w h).
  Proof.
    intros Hx Hu E.
    assert (exists p len al d', h_slice cf w h = Some (p, len) /\ items_alloc_drop sz (w_d w) p len al = Ok d' /\ w_d w' = d') as (p & len & al & d' & Hs & Ed & Hd).
    { unfold rstep in E. cbn [step] in E. unfold h_slice. rewrite Hx in *. destruct x as [| | |m|m|m]; try done; cbn [handle_drop fst] in E.
      - destruct (mut_drop _ _ _) as [d'| | |] eqn:Ed; cbn [mbind res_bind] in E; try done. injection E as <- <-. unfold mut_drop in Ed. eauto 10.
      - destruct (iter_drop _ _ _) as [d'| | |] eqn:Ed; cbn [mbind res_bind] in E; try done. injection E as <- <-. unfold iter_drop in Ed.
        destruct (sit_as_slice _ _) as [[p len]| | |]; try done. cbn [mbind res_bind res_opt] in *. eauto 10.
      - destruct (mparts_drop _ _ _) as [d'| | |] eqn:Ed; cbn [mbind res_bind] in E; try done. injection E as <- <-. unfold mparts_drop in Ed.
        destruct (sip_as_slice _ _) as [[p len]| | |]; try done. cbn [mbind res_bind res_opt] in *. eauto 10. }
    destruct (items_drop_order cf _ _ _ _ _ Ed) as (nd & T & C & F). exists nd. rewrite Hd. unfold h_cells. rewrite Hs. split_and!; try done. rewrite <- C.
    clear -F. induction F as [|[c v] nd' Hc _ IH]; [done|]. cbn in *. unfold item at 1. rewrite Hc. by f_equal.
  Qed.
  (** C49_unique *)
  Lemma bomb_unique ops wp lk h x : breach ops wp lk -> get_h wp h = Some x -> match x with HMut _ | HIter _ | HMParts _ => True | _ => False end ->
    let n := length (bombs_of bomb (omap (item wp) (h_cells cf wp h))) in
    (bstep (wp, lk) (ODrop h) = Ok None <-> (2 <= n)%nat) /\
    forall wp' lk' r, bstep (wp, lk) (ODrop h) = Ok (Some ((wp', lk'), r)) ->
      lk' = lk /\ r = (if (n =? 1)%nat then RPanic else RUnit) /\ dropped_cells wp' = dropped_cells wp ++ h_cells cf wp h /\ dropped wp' = dropped wp ++ omap (item wp) (h_cells cf wp h).
  Proof.
    intros R Hx Hu n. destruct (breach_sim _ _ _ R) as (w & Rw & Hs). destruct (rstep_total _ _ (ODrop h) Rw) as (w' & r0 & Ew).
    rewrite (samew_get _ _ _ (proj1 Hs)) in Hx. destruct (unique_order _ _ _ _ _ Hx Hu Ew) as (nd & T & C & I).
    rewrite <- (samew_cells _ _ h (proj1 Hs)) in C, I.
    assert ((drops nd).*2 = omap (item wp) (h_cells cf wp h)) as I'.
    { rewrite I. apply list_omap_ext. apply Forall2_same_length_lookup_2; [done|]. intros i c c' H1 H2. rewrite H1 in H2. injection H2 as <-. by rewrite (samew_item _ _ _ (proj1 Hs)). }
    assert (bombs bomb nd = n) as Hn by (by rewrite bombs_vals, I').
    destruct (pstep_unique sz bomb (c_clone cf) (c_capf cf) (c_growf cf) false _ _ lk _ _ _ _ (proj1 Hs) Hx Hu Ew) as (z & nd' & Ez & T' & Hz & Lz).
    rewrite T in T'. apply app_inv_head in T' as <-.
    destruct (bstep_ok _ _ lk _ _ _ (proj1 Hs) Ew) as (y & Ey & nd' & T' & Py). rewrite T in T'. apply app_inv_head in T' as <-.
    unfold PanicObserve.bstep in *. rewrite Ez in Ey. injection Ey as <-. rewrite Hn in Hz. split.
    { rewrite Ez, <- Hz. split; [by intros [= ->]|by intros ->]. }
    intros wp' lk' r E. rewrite Ez in E. injection E as ->. cbn in Lz. subst lk'. split; [done|].
    destruct Py as (Hs' & pnd & l & T' & L & B & P & Hr & Hl & Hb). cbn [is_drop andb fst snd] in *.
    assert (l = []) as -> by (apply app_inv_head with lk; by rewrite app_nil_r). cbn in P. rewrite app_nil_r in P. apply sublist_perm_eq in B as ->; [|done].
    rewrite !cells_eq, !vals_eq, T', drops_app, !fmap_app, C, I'. split_and!; try done.
    assert (r0 = RUnit) as ->. { unfold rstep in Ew. cbn [step] in Ew. rewrite Hx in Ew. destruct (handle_drop _ _ _); try done. cbn in Ew. by injection Ew. }
    rewrite Hr. unfold any. rewrite Hn. assert (~ 2 <= n)%nat by (intros H; by apply Hz in H). destruct n as [|[|n']]; try done. lia.
  Qed.

  (** C49_only_drops *)
  Lemma good_no_panic ops w o w' r : reach cf ops w -> rstep cf w o = Ok (w', r) -> good_split o -> (forall h, o <> ODrop h) -> ~ destroys o r.
  Proof.
    intros R E Hg Hd H. destruct o; try done; [|by eapply Hd]. destruct r; try done. destruct Hg as [k ->]. by apply (panic_only cf _ _ _ _ R E k).
  Qed.
  Lemma world_eq w a b : samew w a -> samew w b -> dw_trace (w_d a) = dw_trace (w_d b) -> a = b.
  Proof.
    intros (H1 & G1 & W1) (H2 & G2 & W2) T. destruct a as [da ga ha], b as [db gb hb]. cbn in *. subst. f_equal. rewrite (untraced_pre da), (untraced_pre db). unfold same in *. congruence.
  Qed.
  Lemma bomb_only_drops ops wp lk o : breach ops wp lk -> (forall h, o <> ODrop h) -> good_split o ->
    exists wp' r, bstep (wp, lk) o = Ok (Some ((wp', lk), r)) /\ rstep cf wp o = Ok (wp', r) /\
      dropped_cells wp' = dropped_cells wp /\ dropped wp' = dropped wp.
  Proof.
    intros R Hd Hg. destruct (breach_sim _ _ _ R) as (w & Rw & Hs). destruct (rstep_total _ _ o Rw) as (w' & r & Ew).
    pose proof (good_no_panic _ _ _ _ _ Rw Ew Hg Hd) as Hnd. pose proof (only_drops cf _ _ _ _ _ Rw Ew Hnd) as Hq.
    destruct (step_same sz (c_clone cf) (c_capf cf) (c_growf cf) false _ _ _ _ _ (proj1 Hs) Ew) as (wp2 & nd2 & E2 & S2 & T2 & Tp2).
    destruct (bstep_ok _ _ lk _ _ _ (proj1 Hs) Ew) as (y & Ey & nd & T & Py). rewrite T in T2. apply app_inv_head in T2 as <-.
    assert (is_drop o = false) as Ho. { by destruct o. }
    destruct y as [[[wp' lk'] r']|].
    - destruct Py as (Hs' & pnd & l & T' & L & B & P & Hr & Hl & _). rewrite Ho in *. cbn [andb fst snd] in *. specialize (Hl (or_introl eq_refl)) as ->.
      cbn in P, L. rewrite app_nil_r in P, L. subst lk' r'. apply sublist_perm_eq in B as ->; [|done]. exists wp', r. split; [done|].
      assert (wp' = wp2) as <- by (eapply world_eq; [done|done|congruence]). split; [done|]. unfold dtr in Hq. rewrite T, drops_app in Hq. rewrite <- (app_nil_r (drops (dw_trace (w_d w)))) in Hq at 2.
      apply app_inv_head in Hq. by rewrite !cells_eq, !vals_eq, T', drops_app, Hq, app_nil_r.
    - exfalso. destruct Py as [(-> & (h & n & ->) & _)|[H _]]; [|congruence]. by apply Hnd.
  Qed.

  (** *** Runs without an abort *)
  Lemma brun_snoc ops : forall pw o, brun pw (ops ++ [o]) = (x ← brun pw ops; match x with None => Ok None | Some (pw1, rs) =>
    y ← bstep pw1 o; match y with None => Ok None | Some (pw2, r) => Ok (Some (pw2, rs ++ [r])) end end).
  Proof.
    induction ops as [|o' ops IH]; intros pw o; unfold PanicObserve.brun, PanicObserve.bstep in *; cbn [app prun].
    - cbn [mbind res_bind]. destruct (pstep _ _ _ _ _ _ pw o) as [[[pw1 r]|]| | |]; done.
    - destruct (pstep _ _ _ _ _ _ pw o') as [[[pw1 r1]|]| | |]; try done. cbn [mbind res_bind]. rewrite IH. destruct (prun _ _ _ _ _ _ pw1 ops) as [[[pw2 rs]|]| | |]; try done. cbn [mbind res_bind].
      destruct (pstep _ _ _ _ _ _ pw2 o) as [[[pw3 r3]|]| | |]; done.
  Qed.
  Lemma put_snoc ops w outs o w' r : rrun cf empty_world ops = Ok (w, outs) -> rstep cf w o = Ok (w', r) ->
    put_run cf empty_world (ops ++ [o]) = put_run cf empty_world ops ++ put cf w o r /\ rrun cf empty_world (ops ++ [o]) = Ok (w', outs ++ [r]).
  Proof.
    intros E1 E2. split; [by eapply put_run_app|]. rewrite rrun_app, E1. cbn [mbind res_bind]. unfold rrun. cbn [run]. unfold rstep in E2. by rewrite E2.
  Qed.
  (** C49_no_abort *)
  Lemma bomb_no_abort ops : (length (bombs_of bomb (put_run cf empty_world ops)) <= 1)%nat -> Forall good_split ops ->
    exists pw outs, brun (empty_world, []) ops = Ok (Some (pw, outs)).
  Proof.
    induction ops as [|o ops IH] using rev_ind; intros Hb Hg; [by exists (empty_world, []), []|].
    destruct (never_stuck cf ops) as (w & outs & E1). assert (reach cf ops w) as Rw by (by exists outs). destruct (rstep_total _ _ o Rw) as (w' & r & E2).
    destruct (put_snoc _ _ _ _ _ _ E1 E2) as [Hp E3]. apply Forall_app in Hg as [Hg1 Hg2]. apply Forall_inv in Hg2.
    assert (length (bombs_of bomb (put_run cf empty_world ops)) <= 1)%nat as Hb'. { rewrite Hp in Hb. unfold bombs_of in *. rewrite filter_app, app_length in Hb. lia. }
    destruct (IH Hb' Hg1) as ([wp lk] & outs1 & E4). rewrite brun_snoc, E4. cbn [mbind res_bind].
    assert (breach ops wp lk) as R by (by exists outs1). destruct (bomb_step _ _ _ o R) as [[[pw r1]|] E5]; rewrite E5; cbn [mbind res_bind]; [eauto|]. exfalso.
    pose proof (bomb_abort _ _ _ _ R E5) as Ha. destruct o; try done.
    - destruct Ha as [Ha _]. destruct Hg2 as [k ->]. by destruct (Ha k).
    - destruct Ha as (c1 & c2 & v1 & v2 & Hne & (H1 & _) & (H2 & _) & B1 & B2). apply bomb_conserved in E4.
      apply (bombs_sub bomb) in E4. unfold bombs_of in E4, Hb'.
      assert (2 <= length (filter (fun v => bomb v = true) (contents wp)))%nat; [|lia]. unfold contents, item in *.
      rewrite <- (insert_delete _ _ _ H1). rewrite map_to_list_insert by apply lookup_delete.
      assert (delete c1 (dw_mem (w_d wp)) !! c2 = Some v2) as H2' by (by rewrite lookup_delete_ne).
      rewrite <- (insert_delete _ _ _ H2'), map_to_list_insert by apply lookup_delete. cbn [fmap list_fmap snd]. rewrite !filter_cons, !decide_True by done. cbn. lia.
  Qed.
  (** C49_no_bomb *)
  Lemma bomb_no_bomb ops w outs : rrun cf empty_world ops = Ok (w, outs) -> Forall (fun v => bomb v = false) (put_run cf empty_world ops) ->
    brun (empty_world, []) ops = Ok (Some ((w, []), outs)).
  Proof.
    revert w outs. induction ops as [|o ops IH] using rev_ind; intros w' outs' E Hb; [by injection E as <- <-|].
    destruct (never_stuck cf ops) as (w & outs & E1). assert (reach cf ops w) as Rw by (by exists outs). destruct (rstep_total _ _ o Rw) as (w2 & r & E2).
    destruct (put_snoc _ _ _ _ _ _ E1 E2) as [Hp E3]. rewrite E in E3. injection E3 as -> ->.
    assert (Forall (fun v => bomb v = false) (dropped w2)) as Hd. { rewrite (conserved_items cf _ _ _ E) in Hb. apply Forall_app in Hb as [_ Hb]. by apply Forall_app in Hb as [Hb _]. }
    rewrite Hp in Hb. apply Forall_app in Hb as [Hb _]. rewrite brun_snoc, (IH _ _ E1 Hb). cbn [mbind res_bind].
    destruct (bstep_ok w w [] o w2 r) as (x & Ex & nd & T & Px); [done|done|]. rewrite Ex. cbn [mbind res_bind].
    assert (any bomb nd = false) as Ha. { apply any_false. intros c v Hc. rewrite vals_eq, T, drops_app, fmap_app in Hd. apply Forall_app in Hd as [_ Hd].
      eapply Forall_forall in Hd; [exact Hd|]. apply elem_of_list_fmap. by exists (c, v). }
    assert (bombs bomb nd = 0) as Hb0. { unfold any in Ha. by destruct (bombs bomb nd). }
    destruct x as [[[wp' lk'] r']|].
    - destruct Px as (Hs' & pnd & l & T' & L & B & P & Hr & Hl & _). rewrite Ha, andb_false_r in *. cbn [fst snd] in *. rewrite (Hl (or_intror eq_refl)) in *. cbn in P, L. rewrite app_nil_r in P.
      subst lk' r'. apply sublist_perm_eq in B as ->; [|done]. assert (wp' = w2) as -> by (eapply world_eq; [done|done|congruence]). done.
    - rewrite Hb0 in Px. destruct Px as [(_ & _ & H)|[_ H]]; lia.
  Qed.
End run.
