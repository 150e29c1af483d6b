(** The thread-safe API used by one thread behaves as the single-threaded one (C33, C43). *)
From Verif Require Import Base Api BaseLemmas SliceItemsModel BinPartsModel DataModel RcModel Spec DataInv DataSteps SpecTheory Frame RelInv Refine Observe RcTheory Views ShareTheory
  ArcModel ArcInv ArcRelInv ArcSpec ArcRefine ArcObserve ArcFacts ArcTheory ArcSim.

(** Calls other than writing through [get_mut]. *)
Definition no_get_mut_write {V} (o : op V) : Prop := match o with OGetMutReplace _ _ _ => False | _ => True end.
(** What the two modules return for one call: the same, except that where
    [RcSlice::get_mut] returns [None] [ArcSlice::get_mut] may return the slice. *)
Definition agree {V} (o : op V) (r r' : out V) : Prop :=
  r' = r \/ exists h a l, o = OGetMut h /\ r = RNone /\ r' = RSlice a l.

(** The same unique slice or iterator in both modules. *)
Definition same_unique (c : option handle) (c' : option xhandle) : Prop :=
  match c, c' with
  | Some (HMut m), Some (XMut m') => m = m'
  | Some (HIter m), Some (XIter m') => m = m'
  | Some (HMParts m), Some (XMParts m') => m = m'
  | _, _ => False
  end.
(** Both modules made the same step: same result, items, buffers and, in the
    variable used and the one made, the same unique slices or nothing. *)
Definition same_step_on {V} (h : nat) (x : res (world V * out V)) (y : res (aworld V * out V)) : Prop :=
  match x, y with
  | Ok (w', r), Ok (y', r') => r = r' /\ w_d w' = aw_d y' /\ length (w_h w') = length (aw_h y') /\
      (same_unique (get_h w' h) (xget y' h) \/ get_h w' h = None /\ xget y' h = None) /\
      (forall n, r = RHandle n -> same_unique (get_h w' n) (xget y' n))
  | Panic, Panic | UB, UB | NoFuel, NoFuel => True
  | _, _ => False
  end.

Section same.
  Context {V : Type} (cf : cfg V).
  Notation sstep := (spec_step (c_sz cf) (c_clone cf)).
  Notation srun := (spec_run (c_sz cf) (c_clone cf)).
  Notation astep' := (arc_spec_step (c_sz cf) (c_clone cf)).
  Implicit Types (w : world V) (y : aworld V) (a : astate V) (o : op V) (h : nat) (ops : list (op V)) (K : list nat).

  Ltac bd E := match type of E with (?m ≫= _) = Ok _ => let z := fresh "z" in let Ez := fresh "Ez" in
    destruct m as [z| | |] eqn:Ez; cbn [mbind res_bind] in E; try done end.

  Lemma no_weak_no_linked a K l : no_weak_below (as_h a) l = true -> no_linked a K l = true.
  Proof.
    rewrite no_weak_spec. intros H. unfold no_linked. apply bool_decide_eq_true, Forall_forall. intros k _ Hk. unfold weak_at in Hk.
    destruct (a_get a k) as [[|[l'|]| | | |]|] eqn:E; try done. injection Hk as ->. apply (H _ _ l E); [cbn; set_solver|apply anc_refl].
  Qed.

  Lemma spec_agree a K o : no_get_mut_write o -> fst (fst (astep' (a, K) o)) = fst (sstep a o) /\ agree o (snd (sstep a o)) (snd (astep' (a, K) o)).
  Proof.
    intros Ho. unfold arc_spec_step. cbn [fst snd].
    assert (forall p : astate V * out V, (let '(s, r) := p in (s, filter (fun k => still_linked s k = true) (link_new K o r), r)) =
      ((fst p, filter (fun k => still_linked (fst p) k = true) (link_new K o (snd p))), snd p)) as Hp by (by intros []).
    rewrite Hp. cbn [fst snd]. destruct o; cbn [arc_spec_base]; try (split; [done|by left]).
    cbn [spec_step]. destruct (a_get a h) as [[l| | | | |]|]; try (split; [done|by left]).
    destruct (sole_owner _ _); [|split; [done|by left]]. destruct (no_weak_below _ _) eqn:E1; cbn [andb].
    - rewrite (no_weak_no_linked _ _ _ E1). split; [done|by left].
    - destruct (no_linked _ _ _); split; try done; [|by left]. right. cbn [snd]. unfold a_slice. eauto 10.
  Qed.

  Lemma rel_pos w a : Refine.rel (c_sz cf) w a -> pos (w_d w).
  Proof. intros (P & _ & _ & C & _). destruct C as (L & LI & LG & I & _). intros i n. eapply (di_pos _ _ _ _ _ _ I). Qed.

  Lemma get_mut_keeps w h w' r : rstep cf w (OGetMut h) = Ok (w', r) -> w_d w' = w_d w /\ w_h w' = w_h w.
  Proof.
    unfold rstep. cbn [step]. destruct (get_h w h) as [[q| | | | |]|]; try (by intros [= <- <-]). intros E. bd E. destruct z as [[p l]|]; [|by injection E as <- <-].
    unfold ret_slice in E. bd E. by injection E as <- <-.
  Qed.
  Lemma xget_mut_keeps y h y' r : xstep cf y (OGetMut h) = Ok (y', r) -> aw_d y' = aw_d y /\ aw_h y' = aw_h y.
  Proof.
    unfold xstep. cbn [astep]. destruct (xget y h) as [[q| | | | |]|]; try (by intros [= <- <-]). intros E. bd E. destruct z as [x1 q1]. destruct (arc_get_mut_same _ _ _ _ Ez) as [H _]. cbn [fst] in H.
    destruct q1 as [[p l]|]; [|injection E as <- <-; done]. unfold xret_slice in E. bd E. by injection E as <- <-.
  Qed.

  Lemma same_step w y a K o : Refine.rel (c_sz cf) w a -> ArcRefine.rel (c_sz cf) y (a, K) -> sim w y -> no_get_mut_write o ->
    exists w' y' r r' a' K', rstep cf w o = Ok (w', r) /\ xstep cf y o = Ok (y', r') /\ agree o r r' /\
      Refine.rel (c_sz cf) w' a' /\ ArcRefine.rel (c_sz cf) y' (a', K') /\ sim w' y'.
  Proof.
    intros R RA S Ho. destruct (rstep_spec cf _ _ o R) as (w' & E1 & R1). destruct (xstep_spec cf _ _ o RA) as (y' & E2 & R2).
    destruct (spec_agree a K o Ho) as [Ha Hag]. destruct (astep' (a, K) o) as [[a2 K2] r2]. cbn [fst snd] in *. subst a2.
    exists w', y', (snd (sstep a o)), r2, (fst (sstep a o)), K2. do 5 (split; [eassumption|]).
    destruct Hag as [->|(h & ad & l & -> & H1 & ->)].
    - exact (step_sim cf _ _ _ _ _ _ S (rel_pos _ _ R) E1 E2).
    - apply get_mut_keeps in E1 as [H2 H3]. apply xget_mut_keeps in E2 as [H4 H5]. destruct S as [Hd Hh]. split; congruence.
  Qed.

  Lemma same_run ops : forall w y a K, Refine.rel (c_sz cf) w a -> ArcRefine.rel (c_sz cf) y (a, K) -> sim w y -> Forall no_get_mut_write ops ->
    exists w' y' rs rs', rrun cf w ops = Ok (w', rs) /\ xrun cf y ops = Ok (y', rs') /\
      Forall3 agree ops rs rs' /\ sim w' y'.
  Proof.
    induction ops as [|o ops IH]; intros w y a K R RA S Ho.
    - exists w, y, [], []. split_and!; try done. constructor.
    - inversion_clear Ho as [|? ? H1 H2]. destruct (same_step _ _ _ _ _ R RA S H1) as (w1 & y1 & r & r' & a' & K' & E1 & E2 & A & R1 & RA1 & S1).
      destruct (IH _ _ _ _ R1 RA1 S1 H2) as (w2 & y2 & rs & rs' & E3 & E4 & A2 & S2).
      exists w2, y2, (r :: rs), (r' :: rs'). split_and!; try done.
      + unfold rrun in *. cbn [run]. change (step _ _ _ _ _ w o) with (rstep cf w o). rewrite E1. res_simpl. rewrite E3. done.
      + unfold xrun in *. cbn [arun]. change (astep _ _ _ _ _ y o) with (xstep cf y o). rewrite E2. res_simpl. rewrite E4. done.
      + by constructor.
  Qed.

  Lemma sim_slice w y h : sim w y -> h_slice cf w h = x_slice cf y h.
  Proof.
    intros S. pose proof S as [Hd Hh]. unfold h_slice, x_slice. pose proof (get_sim w y h S) as G.
    destruct (get_h w h) as [[rr|dd gg|it|m|m|m]|], (xget y h) as [[rr'|dd' gg'|it'|m'|m'|m']|]; inversion G as [? ? G'|]; subst; try cbn [hsim] in G'; try done; subst; try done.
    - unfold rcs_slice, arc_slice. cbn [fst]. rewrite <- Hd. unfold rsim in G'. by rewrite <- G'.
    - unfold parts_as_slice, arc_parts_as_slice. destruct G' as (H1 & H2 & H3 & H4 & H5). by rewrite <- H1, <- H2, <- H3, <- H5, <- (slices_sim _ _ H4 (w_d w, w_g w) (aw_d y, aw_g y) Hd).
  Qed.

  Lemma sim_empty : sim (@empty_world V) empty_aworld.
  Proof. split; [done|constructor]. Qed.

  (** As long as nothing is written through [get_mut], the two modules return the
      same from every call, except that [ArcSlice::get_mut] may return a slice
      where [RcSlice::get_mut] returns none, and they do the same to all items
      and buffers. *)
  Lemma arc_agrees ops : Forall no_get_mut_write ops -> exists w y outs outs',
    rrun cf empty_world ops = Ok (w, outs) /\ xrun cf empty_aworld ops = Ok (y, outs') /\ Forall3 agree ops outs outs' /\
    dw_mem (w_d w) = dw_mem (aw_d y) /\ dw_blocks (w_d w) = dw_blocks (aw_d y) /\ dw_trace (w_d w) = dw_trace (aw_d y) /\
    length (w_h w) = length (aw_h y) /\ (forall h, h_slice cf w h = x_slice cf y h).
  Proof.
    intros Ho. destruct (same_run ops _ _ _ _ (Refine.rel_empty _) (ArcRefine.rel_empty _) sim_empty Ho) as (w & y & rs & rs' & E1 & E2 & A & S).
    exists w, y, rs, rs'. split; [done|]. split; [done|]. split; [done|]. pose proof S as [Hd Hh]. rewrite Hd. split_and!; try done.
    - by eapply Forall2_length.
    - intros h. by apply sim_slice.
  Qed.
  Lemma arc_same ops : Forall (fun o => ~ get_muts o) ops -> exists w y outs,
    rrun cf empty_world ops = Ok (w, outs) /\ xrun cf empty_aworld ops = Ok (y, outs) /\
    dw_mem (w_d w) = dw_mem (aw_d y) /\ dw_blocks (w_d w) = dw_blocks (aw_d y) /\ dw_trace (w_d w) = dw_trace (aw_d y) /\
    length (w_h w) = length (aw_h y) /\ (forall h, h_slice cf w h = x_slice cf y h).
  Proof.
    intros Ho. assert (Forall no_get_mut_write ops) as Ho2 by (eapply Forall_impl; [exact Ho|]; by intros []).
    destruct (arc_agrees ops Ho2) as (w & y & rs & rs' & E1 & E2 & A & H). exists w, y, rs. split; [done|]. split; [|done]. rewrite E2. do 2 f_equal.
    clear -A Ho. induction A as [|o r r' ops rs rs' H1 H2 IH]; [done|]. inversion_clear Ho as [|? ? H3 H4]. f_equal; [|by apply IH]. destruct H1 as [->|(? & ? & ? & -> & _)]; [done|]. by cbn in H3.
  Qed.

  (** *** Unique slices and their iterators *)
  Lemma su_new (hs : list (option handle)) (hs' : list (option xhandle)) h c c' d g d' g' : length hs = length hs' -> same_unique (Some c) (Some c') ->
    (same_unique (get_h (V:=V) (W d g hs) h) (xget (V:=V) (AW d' g' hs') h) \/ get_h (V:=V) (W d g hs) h = None /\ xget (V:=V) (AW d' g' hs') h = None) -> (h < length hs)%nat -> d = d' ->
    same_step_on h (ret_new (V:=V) (d, g) hs c) (xret_new (d', g') hs' c').
  Proof.
    intros Hl Hc Hh Hlt ->. unfold ret_new, xret_new, same_step_on. cbn [fst snd w_d aw_d w_h aw_h]. rewrite !app_length, Hl. split_and!; try done.
    - unfold get_h, xget in *. cbn [w_h aw_h] in *. rewrite !lookup_app_l; [done| |]; lia.
    - intros n [= <-]. unfold get_h, xget. cbn [w_h aw_h]. rewrite list_lookup_middle by done. rewrite list_lookup_middle by done. done.
  Qed.
  Lemma su_ret (hs : list (option handle)) (hs' : list (option xhandle)) h d g d' g' r : length hs = length hs' -> (forall n, r <> RHandle n) ->
    (same_unique (get_h (V:=V) (W d g hs) h) (xget (V:=V) (AW d' g' hs') h) \/ get_h (V:=V) (W d g hs) h = None /\ xget (V:=V) (AW d' g' hs') h = None) -> d = d' ->
    same_step_on h (ret (V:=V) (d, g) hs r) (xret (d', g') hs' r).
  Proof. intros Hl Hr Hh ->. unfold ret, xret, same_step_on. cbn [fst snd w_d aw_d w_h aw_h]. split_and!; try done. intros n ->. by destruct (Hr n). Qed.

  Lemma unique_same w y h o : w_d w = aw_d y -> length (w_h w) = length (aw_h y) -> same_unique (get_h w h) (xget y h) ->
    target o = Some h -> o <> OIntoImmut h -> same_step_on h (rstep cf w o) (xstep cf y o).
  Proof.
    intros Hd Hl Hs Ht Ho.
    assert (h < length (w_h w))%nat as Hlt.
    { unfold get_h in Hs. destruct (w_h w !! h) eqn:E; [by eapply lookup_lt_Some|done]. }
    assert (forall g g' d d', same_unique (get_h (V:=V) (W d g (w_h w)) h) (xget (V:=V) (AW d' g' (aw_h y)) h)) as Hk by done.
    assert (forall g g' d d' r, d = d' -> (forall n, r <> RHandle n) -> same_step_on h (ret (V:=V) (d, g) (w_h w) r) (xret (d', g') (aw_h y) r)) as Hret.
    { intros g g' d ? r <- Hr. apply su_ret; try done. by left. }
    assert (forall g g' d d' (c : option handle) (c' : option xhandle), same_unique c c' \/ c = None /\ c' = None ->
      (same_unique (get_h (V:=V) (W d g (<[h := c]> (w_h w))) h) (xget (V:=V) (AW d' g' (<[h := c']> (aw_h y))) h) \/
       get_h (V:=V) (W d g (<[h := c]> (w_h w))) h = None /\ xget (V:=V) (AW d' g' (<[h := c']> (aw_h y))) h = None)) as Hu.
    { intros g g' d d' c c' Hc. unfold get_h, xget. cbn [w_h aw_h]. rewrite !list_lookup_insert by congruence. by destruct c as [c|], c' as [c'|]. }
    assert (forall g g' d d' (c : option handle) (c' : option xhandle) r, d = d' -> same_unique c c' \/ c = None /\ c' = None -> (forall n, r <> RHandle n) ->
      same_step_on h (ret (V:=V) (d, g) (<[h := c]> (w_h w)) r) (xret (d', g') (<[h := c']> (aw_h y)) r)) as Hupd.
    { intros g g' d ? c c' r <- Hc Hr. apply su_ret; try done; [by rewrite !insert_length|]. by apply Hu. }
    assert (forall g g' d d' (c : option handle) (c' : option xhandle) x x', d = d' -> same_unique c c' \/ c = None /\ c' = None -> same_unique (Some x) (Some x') ->
      same_step_on h (ret_new (V:=V) (d, g) (<[h := c]> (w_h w)) x) (xret_new (d', g') (<[h := c']> (aw_h y)) x')) as Hnew.
    { intros g g' d ? c c' x x' <- Hc Hx. apply su_new; try done; [by rewrite !insert_length| |by rewrite insert_length]. by apply Hu. }
    assert (forall (d d' : dworld V) g g' p len, d = d' -> same_step_on h (ret_slice (c_sz cf) (d, g) (w_h w) p len) (xret_slice (c_sz cf) (d', g') (aw_h y) p len)) as Hsl.
    { intros d ? g g' p len <-. unfold ret_slice, xret_slice. cbn [fst]. destruct (mem_read _ _ _ _); cbn [mbind res_bind]; try done. by apply Hret. }
    assert (forall (d d' : dworld V) g g' p len i v, d = d' -> same_step_on h (ret_replace (c_sz cf) (d, g) (w_h w) p len i v) (xret_replace (c_sz cf) (d', g') (aw_h y) p len i v)) as Hre.
    { intros d ? g g' p len i v <-. unfold ret_replace, xret_replace. cbn [fst]. destruct (_ <? _)%N; [|by apply Hret]. destruct (mem_replace _ _ _ _) as [[]| | |]; cbn [mbind res_bind]; try done. by apply Hret. }
    unfold rstep, xstep.
    destruct o; cbn [target] in Ht; try done; injection Ht as ->; cbn [step astep];
      destruct (get_h w h) as [[rr|dd gg|it|m|m|m]|], (xget y h) as [[rr'|dd' gg'|it'|m'|m'|m']|]; cbn [same_unique] in Hs; try done; subst; rewrite Hd; try (by apply Hret).
    - unfold mut_clone, arc_mut_clone. cbn [fst]. destruct (mem_read _ _ _ _) as [vs| | |]; cbn [mbind res_bind]; try done. unfold mut_from_boxed_slice, arc_mut_from_boxed_slice. cbn [fst snd].
      destruct (new_block _ _ _) as [[d p] len]. destruct (split_alloc_from_items _ _ _ _) as [[d1 it] al]. apply su_new; try done. by left.
    - cbn [fst snd]. destruct (mut_split_off _ _ _ _) as [[d [m1 m2]]| | |]; cbn [mbind res_bind]; try done. apply Hnew; try done. by left.
    - destruct (negb _); [by apply Hret|]. destruct (mut_split_into_parts _ _); try done; [apply Hnew; try done; by right|].
      cbn [fst snd]. destruct (mut_drop _ _ _); cbn [mbind res_bind]; try done. apply Hupd; try done. by right.
    - destruct (negb _); by apply Hret.
    - destruct (negb _); by apply Hret.
    - cbn [handle_drop xhandle_drop fst snd]. destruct (mut_drop _ _ _); cbn [mbind res_bind]; try done. apply Hupd; try done. by right.
    - cbn [handle_drop xhandle_drop fst snd]. destruct (iter_drop _ _ _); cbn [mbind res_bind]; try done. apply Hupd; try done. by right.
    - cbn [handle_drop xhandle_drop fst snd]. destruct (mparts_drop _ _ _); cbn [mbind res_bind]; try done. apply Hupd; try done. by right.
    - by apply Hsl.
    - destruct (sit_as_slice _ _) as [[]| | |]; cbn [mbind res_bind]; try done. by apply Hsl.
    - destruct (sip_as_slice _ _) as [[]| | |]; cbn [mbind res_bind]; try done. by apply Hsl.
    - by apply Hre.
    - destruct (sit_as_slice _ _) as [[]| | |]; cbn [mbind res_bind]; try done. by apply Hre.
    - destruct (sip_as_slice _ _) as [[]| | |]; cbn [mbind res_bind]; try done. by apply Hre.
    - apply Hnew; try done. by right.
    - cbn [fst snd]. destruct (iter_next _ _ _ _) as [[[d m1] q]| | |]; cbn [mbind res_bind]; try done. apply Hupd; try done; [by left|]. by destruct q.
    - cbn [fst snd]. destruct (mparts_next _ _ _ _) as [[[d m1] [q|]]| | |]; cbn [mbind res_bind]; try done; [apply Hnew|apply Hupd]; try done; by left.
    - cbn [fst snd]. destruct (iter_split_off _ _ _ _ _) as [[d [m1 m2]]| | |]; try done; [apply Hnew; try done; by left|by apply Hret].
    - destruct (sit_len _ _); cbn [mbind res_bind]; try done. by apply Hret.
    - destruct (sip_len _); cbn [mbind res_bind]; try done. by apply Hret.
  Qed.
End same.

Lemma arc_refines_spec' (V : Type) (cf : cfg V) ops :
  let '((a, _), outs) := arc_spec_run (c_sz cf) (c_clone cf) (empty_astate, []) ops in
  exists w, xrun cf empty_aworld ops = Ok (w, outs) /\ dw_mem (aw_d w) = as_mem a.
Proof. pose proof (arc_refines_spec cf ops) as H. by destruct (arc_spec_run _ _ _ _) as [[a K] outs]. Qed.
