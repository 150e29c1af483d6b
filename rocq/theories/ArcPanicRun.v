(** [ArcSlice] used by one thread, with panicking destructors, whole runs. *)
From Verif Require Import Base Api BaseLemmas SliceItemsModel BinPartsModel DataModel RcModel Spec
  DataInv Observe Conserve ConserveTheory LeakTheory.
From Verif Require Import ArcModel ArcSpec ArcRefine ArcFacts SliceItemsProof ArcObserve ArcTheory ArcConserve ArcLeak PanicModel TraceHom PanicTheory PanicObserve QuietTheory PanicRun.

Section arc_split.
  Context {V : Type} (cf : cfg V).
  Lemma arc_split_out ops (w : aworld V) h n w' r : xreach cf ops w -> xstep cf w (OSplitIntoParts h n) = Ok (w', r) ->
    r = snd (spec_step (c_sz cf) (c_clone cf) (fst (xhist cf ops)) (OSplitIntoParts h n)).
  Proof.
    intros R E. destruct (xstep_rel cf _ _ _ _ _ (xreach_rel _ _ _ R) E) as [-> _]. destruct (sstep_plain cf (xhist cf ops) (OSplitIntoParts h n)) as [_ H]; [by intros []|exact H].
  Qed.
  Lemma arc_panic_only ops (w : aworld V) h n w' : xreach cf ops w -> xstep cf w (OSplitIntoParts h n) = Ok (w', RPanic) -> (forall k, n <> 2 ^ k)%N.
  Proof.
    intros R E k ->. apply (arc_split_out _ _ _ _ _ _ R) in E. cbn [spec_step] in E. destruct (negb _); [done|].
    rewrite <- (N2Nat.id k), log2_exact_pow2 in E. by destruct (a_get _ h) as [[]|].
  Qed.
  Lemma arc_split_panics ops (w : aworld V) h n : xreach cf ops w -> (exists x, xget w h = Some x /\ match x with XArc _ | XMut _ => True | _ => False end) ->
    (n < usize_lim)%N -> (forall k, n <> 2 ^ k)%N -> exists w', xstep cf w (OSplitIntoParts h n) = Ok (w', RPanic).
  Proof.
    intros R (x & Hx & Hk) Hlt Hn. pose proof (xreach_rel _ _ _ R) as Rl. destruct (xstep_spec cf _ _ (OSplitIntoParts h n) Rl) as (w' & E & _). exists w'.
    rewrite E. rewrite (arc_split_out _ _ _ _ _ _ R E). do 2 f_equal.
    assert (log2_exact n = None) as Hlog. { destruct (log2_exact n) as [k|] eqn:Hl; [|done]. apply log2_exact_Some in Hl. by destruct (Hn (N.of_nat k)). }
    cbn [spec_step]. rewrite (proj2 (N.ltb_lt _ _) Hlt). cbn [negb]. rewrite Hlog. pose proof (xrel_kind _ _ _ (rel_pi _ _ _ Rl) h) as K. rewrite Hx in K.
    destruct x; try done; by destruct (a_get _ h) as [[]|].
  Qed.
End arc_split.

Section arc_run.
  Context {V : Type} (cf : cfg V) (bomb : V -> bool).
  Notation sz := (c_sz cf).
  Notation bxstep := (bxstep cf bomb).
  Notation bxrun := (bxrun cf bomb).
  Notation bxreach := (bxreach cf bomb).
  Implicit Types (w wp : aworld V) (o : op V) (h : nat) (ops : list (op V)) (lk : leaked V).

  Lemma xcells_eq w : xdropped_cells w = (drops (dw_trace (aw_d w))).*1. Proof. apply drops_cells. Qed.
  Lemma xvals_eq w : xdropped w = (drops (dw_trace (aw_d w))).*2. Proof. apply drops_vals. Qed.
  Lemma xfreed_eq w : xfreed w = frees (dw_trace (aw_d w)). Proof. done. Qed.

  Lemma xsamew_item w wp c : samex w wp -> xitem wp c = xitem w c.
  Proof. intros (H & _). unfold xitem. by rewrite (same_mem _ _ H). Qed.
  Lemma xsamew_get w wp h : samex w wp -> xget wp h = xget w h.
  Proof. intros (_ & _ & H). unfold xget. by rewrite H. Qed.
  Lemma xcells_pre t w h : x_cells cf (preX t w) h = x_cells cf w h.
  Proof.
    unfold x_cells, x_slice, xget. cbn [preX aw_h aw_d aw_g]. destruct (aw_h w !! h) as [[[]|]|]; try done.
    change (pre t (aw_d w), aw_g w) with (preA t (aw_d w, aw_g w)). by rewrite arc_parts_as_slice_pre.
  Qed.
  Lemma xsamew_cells w wp h : samex w wp -> x_cells cf wp h = x_cells cf w h.
  Proof. intros H. destruct (samex_pre _ _ H) as (t & tp & w0 & -> & -> & _). by rewrite !xcells_pre. Qed.
  Lemma xsamew_view w wp h : samex w wp -> xview cf wp h = xview cf w h.
  Proof.
    intros H. unfold xview, xstep. destruct (samex_pre _ _ H) as (t & tp & w0 & -> & -> & _). rewrite !astep_pre. destruct (astep _ _ _ _ _ w0 _) as [[w1 r]| | |]; done.
  Qed.
  Lemma xsamew_owns w wp h c v : samex w wp -> xowns cf wp h c v <-> xowns cf w h c v.
  Proof. intros H. unfold xowns. rewrite (xsamew_item _ _ c H), (xsamew_cells _ _ h H). by setoid_rewrite (fun h => xsamew_cells _ _ h H). Qed.

  (** The state reached when destructors panic, and the one reached when they do not. *)
  Definition xsim w wp lk : Prop := samex w wp /\ dw_trace (aw_d wp) `sublist_of` dw_trace (aw_d w) /\
    dw_trace (aw_d w) ≡ₚ dw_trace (aw_d wp) ++ (ev <$> lk).

  Lemma xbstep_ok w wp lk o w' r : samex w wp -> xstep cf w o = Ok (w', r) -> exists x, bxstep (wp, lk) o = Ok x /\ xspost bomb w w' r o (wp, lk) x.
  Proof. intros Hs E. by apply pxstep_post. Qed.
  Lemma xsim_step w wp lk w' r o wp' lk' r' : xsim w wp lk -> xspost bomb w w' r o (wp, lk) (Some ((wp', lk'), r')) -> xsim w' wp' lk'.
  Proof.
    intros (Hs & Hb & Hp) (nd & T & Hs' & pnd & l & T' & L & B & P & _). cbn [fst snd] in *. split; [done|]. rewrite T, T', L. split; [by apply sublist_app|].
    rewrite Hp, P, fmap_app. solve_Permutation.
  Qed.
  (** A call that panics is one that drops, or returns the same. *)
  Lemma xout_step w w' r o pw pw' r' : xstep cf w o = Ok (w', r) -> xspost bomb w w' r o pw (Some (pw', r')) -> out_panics r r'.
  Proof.
    intros E (nd & T & _ & pnd & l & _ & _ & _ & _ & -> & _). destruct (is_drop o) eqn:Ho; [|by left]. destruct o; try done. cbn [andb].
    unfold xstep in E. cbn [astep] in E. destruct (xget w h) as [x|].
    - destruct (xhandle_drop sz _ x); try done. cbn in E. injection E as <- <-. destruct (any bomb nd); [by right|by left].
    - injection E as <- <-. assert (nd = []) as -> by (rewrite <- (app_nil_r (dw_trace _)) in T at 1; by apply app_inv_head in T as <-). by left.
  Qed.
  Lemma xbrun_ok ops : forall w wp lk w' outs, xsim w wp lk -> xrun cf w ops = Ok (w', outs) -> exists x, bxrun (wp, lk) ops = Ok x /\
    match x with Some ((wp', lk'), outs') => xsim w' wp' lk' /\ Forall2 out_panics outs outs' | None => True end.
  Proof.
    induction ops as [|o ops IH]; intros w wp lk w' outs Hs E.
    { injection E as <- <-. exists (Some ((wp, lk), [])). done. }
    apply xrun_cons in E as (w1 & r & rs & E1 & E2 & ->). destruct (xbstep_ok w wp lk o w1 r (proj1 Hs) E1) as (x & Ex & Px).
    unfold PanicObserve.bxrun. cbn [pxrun]. unfold PanicObserve.bxstep in Ex. rewrite Ex. cbn [mbind res_bind]. destruct x as [[[wp1 lk1] r1]|]; [|by exists None].
    destruct (IH w1 wp1 lk1 w' rs (xsim_step _ _ _ _ _ _ _ _ _ Hs Px) E2) as (y & Ey & Py). unfold PanicObserve.bxrun in Ey. rewrite Ey. cbn [mbind res_bind].
    destruct y as [[[wp2 lk2] rs']|]; [|by exists None]. eexists. split; [done|]. destruct Py as [Hs2 HF]. split; [done|]. constructor; [|done]. by eapply xout_step.
  Qed.
  Lemma xsim_empty : xsim empty_aworld empty_aworld []. Proof. done. Qed.
  (** C49_no_ub *)
  Lemma xbomb_no_ub ops : exists x, bxrun (empty_aworld, []) ops = Ok x.
  Proof.
    destruct (arc_never_stuck cf ops) as (w & outs & E). destruct (xbrun_ok _ _ _ _ _ _ xsim_empty E) as (x & Ex & _). eauto.
  Qed.
  Lemma xbrun_sim ops wp lk outs' : bxrun (empty_aworld, []) ops = Ok (Some ((wp, lk), outs')) ->
    exists w outs, xrun cf empty_aworld ops = Ok (w, outs) /\ xsim w wp lk /\ Forall2 out_panics outs outs'.
  Proof.
    intros E. destruct (arc_never_stuck cf ops) as (w & outs & Ew). exists w, outs. split; [done|].
    destruct (xbrun_ok _ _ _ _ _ _ xsim_empty Ew) as (x & Ex & Px). rewrite E in Ex. by injection Ex as <-.
  Qed.
  Lemma xbreach_sim ops wp lk : bxreach ops wp lk -> exists w, xreach cf ops w /\ xsim w wp lk.
  Proof. intros [outs E]. destruct (xbrun_sim _ _ _ _ E) as (w & outs0 & Ew & Hs & _). exists w. split; [by exists outs0|done]. Qed.
  Lemma xsim_drops w wp lk : xsim w wp lk -> drops (dw_trace (aw_d w)) ≡ₚ drops (dw_trace (aw_d wp)) ++ lk.
  Proof. intros (_ & _ & H). by apply drops_split. Qed.
  Lemma xsim_freed w wp lk : xsim w wp lk -> xfreed wp = xfreed w.
  Proof. intros (_ & H1 & H2). rewrite !xfreed_eq. by eapply frees_eq. Qed.
  Lemma xgot_panics outs outs' : Forall2 out_panics outs outs' -> got_run (V:=V) outs' = got_run outs.
  Proof.
    induction 1 as [|r r' rs rs' H _ IH]; [done|]. unfold got_run in *. cbn. rewrite IH. destruct H as [->|[-> ->]]; done.
  Qed.

  (** C49_same *)
  Lemma xbomb_same ops wp lk outs' : bxrun (empty_aworld, []) ops = Ok (Some ((wp, lk), outs')) ->
    exists w outs, xrun cf empty_aworld ops = Ok (w, outs) /\ Forall2 out_panics outs outs' /\
      dw_mem (aw_d wp) = dw_mem (aw_d w) /\ dw_blocks (aw_d wp) = dw_blocks (aw_d w) /\
      dw_datas (aw_d wp) = dw_datas (aw_d w) /\ dw_allocs (aw_d wp) = dw_allocs (aw_d w) /\
      aw_g wp = aw_g w /\ aw_h wp = aw_h w /\ xfreed wp = xfreed w /\
      xdropped wp `sublist_of` xdropped w /\ xdropped w ≡ₚ xdropped wp ++ lk.*2 /\
      xdropped_cells wp `sublist_of` xdropped_cells w /\ xdropped_cells w ≡ₚ xdropped_cells wp ++ lk.*1.
  Proof.
    intros E. destruct (xbrun_sim _ _ _ _ E) as (w & outs & Ew & Hs & Ho). exists w, outs. pose proof (xsim_drops _ _ _ Hs) as Hd.
    pose proof (xsim_freed _ _ _ Hs) as Hf. destruct Hs as ((Hs & Hg & Hh) & Hb & Hp).
    rewrite !xvals_eq, !xcells_eq. split_and!; try done.
    - by apply same_mem. - by apply same_blocks. - by apply same_datas. - by apply same_allocs.
    - apply fmap_sublist, omap_sublist. done.
    - by rewrite Hd, fmap_app.
    - apply fmap_sublist, omap_sublist. done.
    - by rewrite Hd, fmap_app.
  Qed.
  (** C49_conserved *)
  Lemma xbomb_conserved ops wp lk outs' : bxrun (empty_aworld, []) ops = Ok (Some ((wp, lk), outs')) ->
    xput_run cf empty_aworld ops ≡ₚ xcontents wp ++ xdropped wp ++ lk.*2 ++ got_run outs'.
  Proof.
    intros E. destruct (xbomb_same _ _ _ _ E) as (w & outs & Ew & Ho & Hm & _ & _ & _ & _ & _ & _ & _ & Hd & _).
    rewrite (xgot_panics _ _ Ho), (arc_conserved_items cf _ _ _ Ew), Hd. unfold xcontents. rewrite Hm. by rewrite <- !app_assoc.
  Qed.
  (** C49_once *)
  Lemma xbomb_once ops wp lk : bxreach ops wp lk -> NoDup (xdropped_cells wp ++ lk.*1) /\ NoDup (xfreed wp) /\
    forall c, c ∈ xdropped_cells wp \/ c ∈ lk.*1 -> xitem wp c = None /\ forall h, c ∉ x_cells cf wp h.
  Proof.
    intros R. destruct (xbreach_sim _ _ _ R) as (w & Rw & Hs). pose proof (xsim_drops _ _ _ Hs) as Hd. apply (fmap_Permutation fst) in Hd.
    rewrite fmap_app, <- !xcells_eq in Hd. destruct (arc_dropped_once _ _ _ Rw) as (H1 & H2 & _). split_and!.
    - by rewrite <- Hd.
    - rewrite (xsim_freed _ _ _ Hs). by eapply arc_freed_once.
    - intros c Hc. rewrite <- elem_of_app, <- Hd in Hc. pose proof (H2 _ Hc) as Hn. split; [by rewrite (xsamew_item _ _ _ (proj1 Hs))|].
      intros h. rewrite (xsamew_cells _ _ _ (proj1 Hs)). intros Hh. destruct (proj2 (arc_alive_iff cf _ _ c Rw)) as [v Hv]; [by exists h|]. congruence.
  Qed.
  (** C49_alive *)
  Lemma xbomb_alive ops wp lk c : bxreach ops wp lk -> (is_Some (xitem wp c) <-> exists h, c ∈ x_cells cf wp h) /\
    (sz <> 0%N -> is_Some (xitem wp c) -> fst c ∉ xfreed wp).
  Proof.
    intros R. destruct (xbreach_sim _ _ _ R) as (w & Rw & Hs). rewrite (xsamew_item _ _ _ (proj1 Hs)), (xsim_freed _ _ _ Hs).
    setoid_rewrite (fun h => xsamew_cells _ _ h (proj1 Hs)). split; [by eapply arc_alive_iff|]. intros Hz H.
    apply (arc_alive_iff cf _ _ c Rw) in H as [h Hh]. by eapply arc_not_freed_early.
  Qed.
  (** C49_no_memory_leak *)
  Lemma xbomb_no_memory_leak ops wp lk : bxreach ops wp lk -> (forall h x, xget wp h = Some x -> is_aweak wp h) ->
    Forall (fun x => x = None) (dw_datas (aw_d wp)) /\ Forall (fun x => x = None) (dw_allocs (aw_d wp)) /\
    Forall (fun x => x = None) (gd_guards (aw_g wp)) /\ dw_mem (aw_d wp) = ∅ /\
    (sz <> 0%N -> forall b blk, dw_blocks (aw_d wp) !! b = Some blk -> b_len blk <> 0%N -> b ∈ xfreed wp).
  Proof.
    intros R Hh. destruct (xbreach_sim _ _ _ R) as (w & Rw & Hs). rewrite (xsim_freed _ _ _ Hs). destruct Hs as [Hs _].
    assert (forall h x, xget w h = Some x -> is_aweak w h) as Hh'. { unfold is_aweak in *. intros h. rewrite <- (xsamew_get _ _ h Hs). apply Hh. }
    destruct Hs as (Hs & Hg & _). rewrite (same_datas _ _ Hs), (same_allocs _ _ Hs), (same_blocks _ _ Hs), (same_mem _ _ Hs), Hg. by eapply arc_no_leak.
  Qed.

  (** *** Single calls *)
  Lemma xsplit_panic_drop w h n w' : xstep cf w (OSplitIntoParts h n) = Ok (w', RPanic) -> xstep cf w (ODrop h) = Ok (w', RUnit).
  Proof.
    unfold xstep. cbn [astep]. destruct (negb _); [done|]. destruct (xget w h) as [[r|? ?|?|m|?|?]|]; try done; cbn [xhandle_drop].
    - destruct (bpi_new _ _ _ _); try done. destruct (arc_drop sz _ r); try done. cbn. by intros [= <-].
    - destruct (mut_split_into_parts _ _); try done. cbn [fst]. destruct (mut_drop sz _ m); try done. cbn. by intros [= <-].
  Qed.
  Lemma xsplit_panic_live w h n w' : xstep cf w (OSplitIntoParts h n) = Ok (w', RPanic) -> xget w h <> None /\ (n < usize_lim)%N.
  Proof. unfold xstep. cbn [astep]. destruct (N.ltb_spec n usize_lim); [|done]. cbn [negb]. by destruct (xget w h) as [[]|]. Qed.
  (** What dropping a variable disposes of when nothing panics: the items nobody else covers. *)
  Lemma xdrop_nd ops w h w' r nd : xreach cf ops w -> xstep cf w (ODrop h) = Ok (w', r) -> dw_trace (aw_d w') = dw_trace (aw_d w) ++ nd ->
    NoDup (drops nd).*1 /\ forall c v, (c, v) ∈ drops nd <-> xowns cf w h c v.
  Proof.
    intros R E T. destruct (arc_drop_exact cf _ _ _ _ _ R E) as (l & H1 & H2 & H3 & H4).
    assert (l = drops nd) as ->; [|done]. rewrite !xcells_eq, T, drops_app, fmap_app in H1. rewrite !xvals_eq, T, drops_app, fmap_app in H2.
    apply app_inv_head in H1, H2. clear -H1 H2. generalize dependent (drops nd). intros k. revert l. induction k as [|[c v] k IH]; intros [|[c1 v1] l]; cbn; try done.
    intros [= -> H1] [= -> H2]. f_equal. by apply IH.
  Qed.
  Lemma xrstep_total ops w o : xreach cf ops w -> exists w' r, xstep cf w o = Ok (w', r).
  Proof. intros R. destruct (xstep_spec cf _ _ o (xreach_rel _ _ _ R)) as (w' & E & _). eauto. Qed.

  (** C49_step: one call is always defined *)
  Lemma xbomb_step ops wp lk o : bxreach ops wp lk -> exists x, bxstep (wp, lk) o = Ok x.
  Proof.
    intros R. destruct (xbreach_sim _ _ _ R) as (w & Rw & Hs). destruct (xrstep_total _ _ o Rw) as (w' & r & E). destruct (xbstep_ok _ _ lk _ _ _ (proj1 Hs) E) as (x & Ex & _). eauto.
  Qed.
  Lemma xfst_NoDup_app (l k : leaked V) (nd : list ((nat * N) * V)) : nd ≡ₚ l ++ k -> NoDup nd.*1 -> NoDup (l ++ k).*1.
  Proof. intros H Hn. by rewrite <- H. Qed.
  (** C49_drop *)
  Lemma xbomb_drop ops wp lk h wp' lk' r' : bxreach ops wp lk -> bxstep (wp, lk) (ODrop h) = Ok (Some ((wp', lk'), r')) ->
    exists nd l : leaked V, xdropped_cells wp' = xdropped_cells wp ++ nd.*1 /\ xdropped wp' = xdropped wp ++ nd.*2 /\ lk' = lk ++ l /\
      NoDup (nd ++ l).*1 /\ (forall c v, (c, v) ∈ nd ++ l <-> xowns cf wp h c v) /\
      (r' = RPanic /\ length (bombs_of bomb nd.*2) = 1 \/
       r' <> RPanic /\ l = [] /\ forall c v, xowns cf wp h c v -> bomb v = false).
  Proof.
    intros R E. destruct (xbreach_sim _ _ _ R) as (w & Rw & Hs). destruct (xrstep_total _ _ (ODrop h) Rw) as (w' & r & Ew).
    destruct (xbstep_ok _ _ lk _ _ _ (proj1 Hs) Ew) as (x & Ex & Px). rewrite E in Ex. injection Ex as <-.
    destruct Px as (nd & T & _ & pnd & l & T' & L & B & P & Hr & Hl & Hb). cbn [fst snd is_drop andb] in *.
    destruct (xdrop_nd _ _ _ _ _ _ Rw Ew T) as [Hn Ho]. pose proof (drops_split _ _ _ P) as Hd. exists (drops pnd), l.
    rewrite !xcells_eq, !xvals_eq, T', drops_app, !fmap_app. split_and!; try done.
    - rewrite <- fmap_app, <- Hd. done.
    - intros c v. rewrite <- Hd, Ho. symmetry. apply xsamew_owns, Hs.
    - destruct (any bomb nd) eqn:Ea; [left|right].
      + split; [done|]. by rewrite <- bombs_vals, (Hb eq_refl).
      + split_and!.
        * subst r'. intros ->. unfold xstep in Ew. cbn [astep] in Ew. destruct (xget w h); [|done]. by destruct (xhandle_drop _ _ _).
        * apply Hl. by right.
        * intros c v Hc. apply (xsamew_owns _ _ _ _ _ (proj1 Hs)), Ho in Hc. by eapply any_false.
  Qed.
  (** C49_abort *)
  Lemma xbomb_abort ops wp lk o : bxreach ops wp lk -> bxstep (wp, lk) o = Ok None ->
    match o with
    | ODrop h => exists c1 c2 v1 v2, c1 <> c2 /\ xowns cf wp h c1 v1 /\ xowns cf wp h c2 v2 /\ bomb v1 = true /\ bomb v2 = true
    | OSplitIntoParts h n => (forall k, n <> 2 ^ k)%N /\ exists c v, xowns cf wp h c v /\ bomb v = true
    | _ => False
    end.
  Proof.
    intros R E. destruct (xbreach_sim _ _ _ R) as (w & Rw & Hs). destruct (xrstep_total _ _ o Rw) as (w' & r & Ew).
    destruct (xbstep_ok _ _ lk _ _ _ (proj1 Hs) Ew) as (x & Ex & Px). rewrite E in Ex. injection Ex as <-.
    destruct Px as (nd & T & [(-> & (h & n & ->) & Hb)|[Ho Hb]]).
    - split; [exact (arc_panic_only cf _ _ _ _ _ Rw Ew)|]. destruct (xdrop_nd _ _ _ _ _ _ Rw (xsplit_panic_drop _ _ _ _ Ew) T) as [_ Ho].
      assert (any bomb nd = true) as (c & v & Hc & Hv)%any_spec. { unfold any. destruct (bombs bomb nd); [lia|done]. }
      exists c, v. split; [|done]. apply (xsamew_owns _ _ _ _ _ (proj1 Hs)). by apply Ho.
    - destruct o; try done. destruct (xdrop_nd _ _ _ _ _ _ Rw Ew T) as [Hn Hw]. destruct (two_bombs bomb nd Hn Hb) as (c1 & c2 & v1 & v2 & Hne & H1 & H2 & B1 & B2).
      exists c1, c2, v1, v2. split_and!; try done; apply (xsamew_owns _ _ _ _ _ (proj1 Hs)); by apply Hw.
  Qed.
  (** C49_split *)
  Lemma xbomb_split ops wp lk h n : bxreach ops wp lk -> (exists x, xget wp h = Some x /\ match x with XArc _ | XMut _ => True | _ => False end) ->
    (n < usize_lim)%N -> (forall k, n <> 2 ^ k)%N ->
    (bxstep (wp, lk) (OSplitIntoParts h n) = Ok None /\ exists c v, xowns cf wp h c v /\ bomb v = true) \/
    (forall c v, xowns cf wp h c v -> bomb v = false) /\ exists wp' (nd : leaked V), bxstep (wp, lk) (OSplitIntoParts h n) = Ok (Some ((wp', lk), RPanic)) /\
      xdropped_cells wp' = xdropped_cells wp ++ nd.*1 /\ xdropped wp' = xdropped wp ++ nd.*2 /\ NoDup nd.*1 /\ forall c v, (c, v) ∈ nd <-> xowns cf wp h c v.
  Proof.
    intros R Hk Hn Hp. destruct (xbreach_sim _ _ _ R) as (w & Rw & Hs).
    assert (exists w', xstep cf w (OSplitIntoParts h n) = Ok (w', RPanic)) as [w' Ew].
    { apply (arc_split_panics cf _ w h n Rw); try done. by setoid_rewrite <- (xsamew_get _ _ h (proj1 Hs)). }
    destruct (pxstep_split sz bomb (c_clone cf) (c_capf cf) (c_growf cf) false _ _ lk _ _ _ (proj1 Hs) Ew) as (z & nd & Ez & T & Hz).
    destruct (xbstep_ok _ _ lk _ _ _ (proj1 Hs) Ew) as (x & Ex & nd' & T' & Px). rewrite T in T'. apply app_inv_head in T' as <-.
    unfold PanicObserve.bxstep in Ex. rewrite Ez in Ex. injection Ex as <-.
    destruct (xdrop_nd _ _ _ _ _ _ Rw (xsplit_panic_drop _ _ _ _ Ew) T) as [Hnd Ho].
    assert (forall c v, (c, v) ∈ drops nd <-> xowns cf wp h c v) as Ho'. { intros c v. rewrite Ho. symmetry. apply xsamew_owns, Hs. }
    destruct z as [[[wp' lk'] r']|].
    - right. destruct Px as (Hs' & pnd & l & T' & L & B & P & Hr & Hl & _). cbn [is_drop andb fst snd] in *.
      rewrite (Hl (or_introl eq_refl)) in *. cbn in P, L. rewrite app_nil_r in P, L. subst lk' r'. apply sublist_perm_eq in B as ->; [|done]. split.
      + intros c v Hc. apply Ho' in Hc. eapply any_false; [|exact Hc]. unfold any. destruct (bombs bomb nd) eqn:Eb; [done|]. assert (1 <= S n0)%nat as H by lia. by apply Hz in H.
      + exists wp', (drops nd). split_and!; try done; [by rewrite !xcells_eq, T', drops_app, fmap_app|by rewrite !xvals_eq, T', drops_app, fmap_app].
    - left. split; [done|]. assert (any bomb nd = true) as (c & v & Hc & Hv)%any_spec. { unfold any. destruct (bombs bomb nd) eqn:Eb; [|done]. assert (1 <= 0) as H by (by apply Hz). lia. }
      exists c, v. split; [by apply Ho'|done].
  Qed.

  (** Order in which a unique slice drops its items. *)
  Lemma xunique_order w h x w' r : xget w h = Some x -> match x with XMut _ | XIter _ | XMParts _ => True | _ => False end -> xstep cf w (ODrop h) = Ok (w', r) ->
    exists nd, dw_trace (aw_d w') = dw_trace (aw_d w) ++ nd /\ (drops nd).*1 = x_cells cf w h /\ (drops nd).*2 = omap (xitem w) (x_cells cf w h).
  Proof.
    intros Hx Hu E.
    assert (exists p len al d', x_slice cf w h = Some (p, len) /\ items_alloc_drop sz (aw_d w) p len al = Ok d' /\ aw_d w' = d') as (p & len & al & d' & Hs & Ed & Hd).
    { unfold xstep in E. cbn [astep] in E. unfold x_slice. rewrite Hx in *. destruct x as [| | |m|m|m]; try done; cbn [xhandle_drop fst] in E.
      - destruct (mut_drop _ _ _) as [d'| | |] eqn:Ed; cbn [mbind res_bind] in E; try done. injection E as <- <-. unfold mut_drop in Ed. eauto 10.
      - destruct (iter_drop _ _ _) as [d'| | |] eqn:Ed; cbn [mbind res_bind] in E; try done. injection E as <- <-. unfold iter_drop in Ed.
        destruct (sit_as_slice _ _) as [[p len]| | |]; try done. cbn [mbind res_bind res_opt] in *. eauto 10.
      - destruct (mparts_drop _ _ _) as [d'| | |] eqn:Ed; cbn [mbind res_bind] in E; try done. injection E as <- <-. unfold mparts_drop in Ed.
        destruct (sip_as_slice _ _) as [[p len]| | |]; try done. cbn [mbind res_bind res_opt] in *. eauto 10. }
    destruct (items_drop_order cf _ _ _ _ _ Ed) as (nd & T & C & F). exists nd. rewrite Hd. unfold x_cells. rewrite Hs. split_and!; try done. rewrite <- C.
    clear -F. induction F as [|[c v] nd' Hc _ IH]; [done|]. cbn in *. unfold xitem at 1. rewrite Hc. by f_equal.
  Qed.
  (** C49_unique *)
  Lemma xbomb_unique ops wp lk h x : bxreach ops wp lk -> xget wp h = Some x -> match x with XMut _ | XIter _ | XMParts _ => True | _ => False end ->
    let n := length (bombs_of bomb (omap (xitem wp) (x_cells cf wp h))) in
    (bxstep (wp, lk) (ODrop h) = Ok None <-> (2 <= n)%nat) /\
    forall wp' lk' r, bxstep (wp, lk) (ODrop h) = Ok (Some ((wp', lk'), r)) ->
      lk' = lk /\ r = (if (n =? 1)%nat then RPanic else RUnit) /\ xdropped_cells wp' = xdropped_cells wp ++ x_cells cf wp h /\ xdropped wp' = xdropped wp ++ omap (xitem wp) (x_cells cf wp h).
  Proof.
    intros R Hx Hu n. destruct (xbreach_sim _ _ _ R) as (w & Rw & Hs). destruct (xrstep_total _ _ (ODrop h) Rw) as (w' & r0 & Ew).
    rewrite (xsamew_get _ _ _ (proj1 Hs)) in Hx. destruct (xunique_order _ _ _ _ _ Hx Hu Ew) as (nd & T & C & I).
    rewrite <- (xsamew_cells _ _ h (proj1 Hs)) in C, I.
    assert ((drops nd).*2 = omap (xitem wp) (x_cells cf wp h)) as I'.
    { rewrite I. apply list_omap_ext. apply Forall2_same_length_lookup_2; [done|]. intros i c c' H1 H2. rewrite H1 in H2. injection H2 as <-. by rewrite (xsamew_item _ _ _ (proj1 Hs)). }
    assert (bombs bomb nd = n) as Hn by (by rewrite bombs_vals, I').
    destruct (pxstep_unique sz bomb (c_clone cf) (c_capf cf) (c_growf cf) false _ _ lk _ _ _ _ (proj1 Hs) Hx Hu Ew) as (z & nd' & Ez & T' & Hz & Lz).
    rewrite T in T'. apply app_inv_head in T' as <-.
    destruct (xbstep_ok _ _ lk _ _ _ (proj1 Hs) Ew) as (y & Ey & nd' & T' & Py). rewrite T in T'. apply app_inv_head in T' as <-.
    unfold PanicObserve.bxstep in *. rewrite Ez in Ey. injection Ey as <-. rewrite Hn in Hz. split.
    { rewrite Ez, <- Hz. split; [by intros [= ->]|by intros ->]. }
    intros wp' lk' r E. rewrite Ez in E. injection E as ->. cbn in Lz. subst lk'. split; [done|].
    destruct Py as (Hs' & pnd & l & T' & L & B & P & Hr & Hl & Hb). cbn [is_drop andb fst snd] in *.
    assert (l = []) as -> by (apply app_inv_head with lk; by rewrite app_nil_r). cbn in P. rewrite app_nil_r in P. apply sublist_perm_eq in B as ->; [|done].
    rewrite !xcells_eq, !xvals_eq, T', drops_app, !fmap_app, C, I'. split_and!; try done.
    assert (r0 = RUnit) as ->. { unfold xstep in Ew. cbn [astep] in Ew. rewrite Hx in Ew. destruct (xhandle_drop _ _ _); try done. cbn in Ew. by injection Ew. }
    rewrite Hr. unfold any. rewrite Hn. assert (~ 2 <= n)%nat by (intros H; by apply Hz in H). destruct n as [|[|n']]; try done. lia.
  Qed.

  (** C49_only_drops *)
  Lemma xgood_no_panic ops w o w' r : xreach cf ops w -> xstep cf w o = Ok (w', r) -> good_split o -> (forall h, o <> ODrop h) -> ~ destroys o r.
  Proof.
    intros R E Hg Hd H. destruct o; try done; [|by eapply Hd]. destruct r; try done. destruct Hg as [k ->]. by apply (arc_panic_only cf _ _ _ _ _ R E k).
  Qed.
  Lemma xworld_eq w a b : samex w a -> samex w b -> dw_trace (aw_d a) = dw_trace (aw_d b) -> a = b.
  Proof.
    intros (H1 & G1 & W1) (H2 & G2 & W2) T. destruct a as [da ga ha], b as [db gb hb]. cbn in *. subst. f_equal. rewrite (untraced_pre da), (untraced_pre db). unfold same in *. congruence.
  Qed.
  Lemma xbomb_only_drops ops wp lk o : bxreach ops wp lk -> (forall h, o <> ODrop h) -> good_split o ->
    exists wp' r, bxstep (wp, lk) o = Ok (Some ((wp', lk), r)) /\ xstep cf wp o = Ok (wp', r) /\
      xdropped_cells wp' = xdropped_cells wp /\ xdropped wp' = xdropped wp.
  Proof.
    intros R Hd Hg. destruct (xbreach_sim _ _ _ R) as (w & Rw & Hs). destruct (xrstep_total _ _ o Rw) as (w' & r & Ew).
    pose proof (xgood_no_panic _ _ _ _ _ Rw Ew Hg Hd) as Hnd. pose proof (arc_only_drops cf _ _ _ _ _ Rw Ew Hnd) as Hq.
    destruct (astep_same sz (c_clone cf) (c_capf cf) (c_growf cf) false _ _ _ _ _ (proj1 Hs) Ew) as (wp2 & nd2 & E2 & S2 & T2 & Tp2).
    destruct (xbstep_ok _ _ lk _ _ _ (proj1 Hs) Ew) as (y & Ey & nd & T & Py). rewrite T in T2. apply app_inv_head in T2 as <-.
    assert (is_drop o = false) as Ho. { by destruct o. }
    destruct y as [[[wp' lk'] r']|].
    - destruct Py as (Hs' & pnd & l & T' & L & B & P & Hr & Hl & _). rewrite Ho in *. cbn [andb fst snd] in *. specialize (Hl (or_introl eq_refl)) as ->.
      cbn in P, L. rewrite app_nil_r in P, L. subst lk' r'. apply sublist_perm_eq in B as ->; [|done]. exists wp', r. split; [done|].
      assert (wp' = wp2) as <- by (eapply xworld_eq; [done|done|congruence]). split; [done|]. unfold dtr in Hq. rewrite T, drops_app in Hq. rewrite <- (app_nil_r (drops (dw_trace (aw_d w)))) in Hq at 2.
      apply app_inv_head in Hq. by rewrite !xcells_eq, !xvals_eq, T', drops_app, Hq, app_nil_r.
    - exfalso. destruct Py as [(-> & (h & n & ->) & _)|[H _]]; [|congruence]. by apply Hnd.
  Qed.

  (** *** Runs without an abort *)
  Lemma xbrun_snoc ops : forall pw o, bxrun pw (ops ++ [o]) = (x ← bxrun pw ops; match x with None => Ok None | Some (pw1, rs) =>
    y ← bxstep pw1 o; match y with None => Ok None | Some (pw2, r) => Ok (Some (pw2, rs ++ [r])) end end).
  Proof.
    induction ops as [|o' ops IH]; intros pw o; unfold PanicObserve.bxrun, PanicObserve.bxstep in *; cbn [app pxrun].
    - cbn [mbind res_bind]. destruct (pxstep _ _ _ _ _ _ pw o) as [[[pw1 r]|]| | |]; done.
    - destruct (pxstep _ _ _ _ _ _ pw o') as [[[pw1 r1]|]| | |]; try done. cbn [mbind res_bind]. rewrite IH. destruct (pxrun _ _ _ _ _ _ pw1 ops) as [[[pw2 rs]|]| | |]; try done. cbn [mbind res_bind].
      destruct (pxstep _ _ _ _ _ _ pw2 o) as [[[pw3 r3]|]| | |]; done.
  Qed.
  Lemma xput_snoc ops w outs o w' r : xrun cf empty_aworld ops = Ok (w, outs) -> xstep cf w o = Ok (w', r) ->
    xput_run cf empty_aworld (ops ++ [o]) = xput_run cf empty_aworld ops ++ xput cf w o r /\ xrun cf empty_aworld (ops ++ [o]) = Ok (w', outs ++ [r]).
  Proof.
    intros E1 E2. split; [by eapply arc_put_run_app|]. rewrite xrun_app, E1. cbn [mbind res_bind]. unfold xrun. cbn [arun]. unfold xstep in E2. by rewrite E2.
  Qed.
  (** C49_no_abort *)
  Lemma xbomb_no_abort ops : (length (bombs_of bomb (xput_run cf empty_aworld ops)) <= 1)%nat -> Forall good_split ops ->
    exists pw outs, bxrun (empty_aworld, []) ops = Ok (Some (pw, outs)).
  Proof.
    induction ops as [|o ops IH] using rev_ind; intros Hb Hg; [by exists (empty_aworld, []), []|].
    destruct (arc_never_stuck cf ops) as (w & outs & E1). assert (xreach cf ops w) as Rw by (by exists outs). destruct (xrstep_total _ _ o Rw) as (w' & r & E2).
    destruct (xput_snoc _ _ _ _ _ _ E1 E2) as [Hp E3]. apply Forall_app in Hg as [Hg1 Hg2]. apply Forall_inv in Hg2.
    assert (length (bombs_of bomb (xput_run cf empty_aworld ops)) <= 1)%nat as Hb'. { rewrite Hp in Hb. unfold bombs_of in *. rewrite filter_app, app_length in Hb. lia. }
    destruct (IH Hb' Hg1) as ([wp lk] & outs1 & E4). rewrite xbrun_snoc, E4. cbn [mbind res_bind].
    assert (bxreach ops wp lk) as R by (by exists outs1). destruct (xbomb_step _ _ _ o R) as [[[pw r1]|] E5]; rewrite E5; cbn [mbind res_bind]; [eauto|]. exfalso.
    pose proof (xbomb_abort _ _ _ _ R E5) as Ha. destruct o; try done.
    - destruct Ha as [Ha _]. destruct Hg2 as [k ->]. by destruct (Ha k).
    - destruct Ha as (c1 & c2 & v1 & v2 & Hne & (H1 & _) & (H2 & _) & B1 & B2). apply xbomb_conserved in E4.
      apply (bombs_sub bomb) in E4. unfold bombs_of in E4, Hb'.
      assert (2 <= length (filter (fun v => bomb v = true) (xcontents wp)))%nat; [|lia]. unfold xcontents, xitem in *.
      rewrite <- (insert_delete _ _ _ H1). rewrite map_to_list_insert by apply lookup_delete.
      assert (delete c1 (dw_mem (aw_d wp)) !! c2 = Some v2) as H2' by (by rewrite lookup_delete_ne).
      rewrite <- (insert_delete _ _ _ H2'), map_to_list_insert by apply lookup_delete. cbn [fmap list_fmap snd]. rewrite !filter_cons, !decide_True by done. cbn. lia.
  Qed.
  (** C49_no_bomb *)
  Lemma xbomb_no_bomb ops w outs : xrun cf empty_aworld ops = Ok (w, outs) -> Forall (fun v => bomb v = false) (xput_run cf empty_aworld ops) ->
    bxrun (empty_aworld, []) ops = Ok (Some ((w, []), outs)).
  Proof.
    revert w outs. induction ops as [|o ops IH] using rev_ind; intros w' outs' E Hb; [by injection E as <- <-|].
    destruct (arc_never_stuck cf ops) as (w & outs & E1). assert (xreach cf ops w) as Rw by (by exists outs). destruct (xrstep_total _ _ o Rw) as (w2 & r & E2).
    destruct (xput_snoc _ _ _ _ _ _ E1 E2) as [Hp E3]. rewrite E in E3. injection E3 as -> ->.
    assert (Forall (fun v => bomb v = false) (xdropped w2)) as Hd. { rewrite (arc_conserved_items cf _ _ _ E) in Hb. apply Forall_app in Hb as [_ Hb]. by apply Forall_app in Hb as [Hb _]. }
    rewrite Hp in Hb. apply Forall_app in Hb as [Hb _]. rewrite xbrun_snoc, (IH _ _ E1 Hb). cbn [mbind res_bind].
    destruct (xbstep_ok w w [] o w2 r) as (x & Ex & nd & T & Px); [done|done|]. rewrite Ex. cbn [mbind res_bind].
    assert (any bomb nd = false) as Ha. { apply any_false. intros c v Hc. rewrite xvals_eq, T, drops_app, fmap_app in Hd. apply Forall_app in Hd as [_ Hd].
      eapply Forall_forall in Hd; [exact Hd|]. apply elem_of_list_fmap. by exists (c, v). }
    assert (bombs bomb nd = 0) as Hb0. { unfold any in Ha. by destruct (bombs bomb nd). }
    destruct x as [[[wp' lk'] r']|].
    - destruct Px as (Hs' & pnd & l & T' & L & B & P & Hr & Hl & _). rewrite Ha, andb_false_r in *. cbn [fst snd] in *. rewrite (Hl (or_intror eq_refl)) in *. cbn in P, L. rewrite app_nil_r in P.
      subst lk' r'. apply sublist_perm_eq in B as ->; [|done]. assert (wp' = w2) as -> by (eapply xworld_eq; [done|done|congruence]). done.
    - rewrite Hb0 in Px. destruct Px as [(_ & _ & H)|[_ H]]; lia.
  Qed.
End arc_run.
