(** Consequences of the refinement, continued: creating slices, writing items,
    deep copies, and splitting into a number of parts that is not a power of
    two. *)
From Verif Require Import Base BaseLemmas Api SliceItemsModel BinPartsModel DataModel RcModel Spec SliceItemsProof
  Observe RelInv Refine Facts SpecTheory Frame Views RcTheory ShareTheory.

Section write.
  Context {V : Type} (cf : cfg V).
  Notation sz := (c_sz cf).
  Notation rel := (rel (c_sz cf)).
  Notation sstep := (spec_step (c_sz cf) (c_clone cf)).
  Notation srun := (spec_run (c_sz cf) (c_clone cf)).
  Implicit Types (w : world V) (a : astate V) (o : op V) (h : nat) (ops : list (op V)).

  (** *** Items of a new buffer *)
  Lemma fresh_vals (m : gmap (nat * N) V) (b : nat) (vals : list V) :
    cells_vals (list_to_map (zip (rng_cells (Rng b 0 (N.of_nat (length vals)))) vals) ∪ m)
      (rng_cells (Rng b 0 (N.of_nat (length vals)))) = vals.
  Proof.
    set (cs := rng_cells _). assert (length cs = length vals) as Hl. { unfold cs. rewrite rng_cells_length. cbn. lia. }
    assert (NoDup cs) as Hnd. { unfold cs, rng_cells. apply NoDup_fmap; [|apply NoDup_seq]. intros i j [= H]. lia. }
    revert Hl Hnd. generalize cs. clear cs. induction vals as [|v vals IH]; intros [|c cs] Hl Hnd; try done.
    apply NoDup_cons in Hnd as [Hni Hnd]. cbn. rewrite lookup_union, lookup_insert. cbn.
    assert (forall y : option V, union_with (fun x _ => Some x) (Some v) y = Some v) as Hu by (by intros []).
    rewrite Hu. f_equal. etrans; [|apply (IH cs); [cbn in Hl; lia|done]]. apply cells_vals_ext. intros c' Hc'.
    rewrite !lookup_union, lookup_insert_ne; [done|]. congruence.
  Qed.

  Lemma collect_vals (T : trees) (hs : list (option ahandle)) (m : gmap (nat * N) V) (cs : list (nat * N)) (x : ahandle) :
    x ∈ live_handles hs -> cs = hcells T x -> cells_vals (collect T hs m) cs = cells_vals m cs.
  Proof.
    intros Hx ->. apply cells_vals_ext. intros c Hc. unfold collect. destruct (m !! c) as [v|] eqn:E.
    - apply map_filter_lookup_Some. split; [done|]. unfold all_cells. cbn. apply elem_of_list_bind. eauto.
    - apply map_filter_lookup_None. by left.
  Qed.
  Lemma live_new (hs : list (option ahandle)) (x : ahandle) : x ∈ live_handles (hs ++ [Some x]).
  Proof. unfold live_handles. apply elem_of_list_omap. exists (Some x). split; [|done]. apply elem_of_app. right. left. Qed.
  (** The view of a handle to a whole new buffer. *)
  Lemma view_fresh w a base (vals : list V) hs x (T : trees) : rel w (AS (as_base a ++ [base]) T
      (collect T (hs ++ [Some x]) (list_to_map (zip (rng_cells (Rng (length (as_base a)) 0 (N.of_nat (length vals)))) vals) ∪ as_mem a)) (hs ++ [Some x])) ->
    ~ a_weak x -> hcells T x = rng_cells (Rng (length (as_base a)) 0 (N.of_nat (length vals))) ->
    view cf w (length hs) = Some (at_addr cf base vals) /\ h_cells cf w (length hs) = rng_cells (Rng (length (as_base a)) 0 (N.of_nat (length vals))).
  Proof.
    intros R Hw Hc. set (a' := AS _ _ _ _) in *. assert (a_get a' (length hs) = Some x) as Hx by (rewrite get_tget; apply get_new).
    split.
    - rewrite (view_rng cf _ _ _ _ _ R Hx Hw Hc). f_equal. unfold rview, at_addr. cbn [rg_len rg_blk rg_lo as_mem as_base a'].
      rewrite (collect_vals _ _ _ _ x) by (done || apply live_new). rewrite fresh_vals. rewrite orb_comm. destruct (_ || _); [done|].
      unfold cell_addr. cbn. rewrite lookup_app_r, Nat.sub_diag by lia. cbn. do 2 f_equal. lia.
    - rewrite (fact_h_cells _ _ _ R cf _ eq_refl), Hx. exact Hc.
  Qed.
  Lemma from_vec_view ops w o base (vals : list V) : reach cf ops w -> o = OFromVec base vals \/ o = OMutFromVec base vals ->
    (N.of_nat (length vals) < usize_lim)%N ->
    exists w', rstep cf w o = Ok (w', RHandle (length (w_h w))) /\ view cf w' (length (w_h w)) = Some (at_addr cf base vals) /\
      (o = OFromVec base vals -> is_rc w' (length (w_h w))) /\ (o = OMutFromVec base vals -> is_mut w' (length (w_h w))) /\
      (forall c, c ∈ h_cells cf w' (length (w_h w)) -> fst c = length (dw_blocks (w_d w))).
  Proof.
    intros R Ho Hlen. apply reach_rel in R. generalize dependent (hist cf ops). intros a R. clear ops.
    destruct (rstep_spec cf _ _ o R) as (w' & E & R'). rewrite E. exists w'. apply N.ltb_lt in Hlen. pose proof (rel_len cf _ _ R) as Hl.
    assert (forall c n, c ∈ rng_cells (Rng (length (as_base a)) 0 n) -> fst c = length (dw_blocks (w_d w))) as Hb.
    { intros c n Hc. unfold rng_cells in Hc. apply elem_of_list_fmap in Hc as (i & -> & _). cbn. by apply (rel_base_len _ _ _ R). }
    destruct Ho as [-> | ->].
    - assert (forall P : Prop, (OFromVec base vals = OMutFromVec base vals -> P)) as Hno by done.
      cbn [spec_step] in *. rewrite Hlen in *. cbn in R' |- *. rewrite <- Hl. destruct (view_fresh _ _ _ _ _ _ _ R') as [Hv Hc]; [cbn; tauto| |].
      { cbn. unfold lrng. cbn. by rewrite lookup_app_r, Nat.sub_diag by lia. }
      split_and!; try done.
      + intros _. apply (kind_rc cf _ _ _ R'). eexists. rewrite get_tget. apply get_new.
      + intros c. rewrite Hc. apply Hb.
    - assert (forall P : Prop, (OMutFromVec base vals = OFromVec base vals -> P)) as Hno by done.
      cbn [spec_step] in *. rewrite Hlen in *. cbn in R' |- *. rewrite <- Hl. destruct (view_fresh _ _ _ _ _ _ _ R') as [Hv Hc]; [cbn; tauto|done|].
      split_and!; try done.
      + intros _. apply (kind_mut cf _ _ _ R'). eexists. rewrite get_tget. apply get_new.
      + intros c. rewrite Hc. apply Hb.
  Qed.
  (** *** Deep copies *)
  Lemma mut_clone_view ops w h base adr items : reach cf ops w -> is_mut w h -> view cf w h = Some (adr, items) ->
    exists w', rstep cf w (OMutClone h base) = Ok (w', RHandle (length (w_h w))) /\ is_mut w' (length (w_h w)) /\
      view cf w' (length (w_h w)) = Some (at_addr cf base (c_clone cf <$> items)) /\
      (forall h', (h' < length (w_h w))%nat -> view cf w' h' = view cf w h') /\
      (forall c, c ∈ h_cells cf w' (length (w_h w)) -> fst c = length (dw_blocks (w_d w))).
  Proof.
    intros R Hm Hv. apply reach_rel in R. generalize dependent (hist cf ops). intros a R. clear ops.
    destruct (proj1 (kind_mut cf w a h R) Hm) as [r Hx].
    destruct (rstep_spec cf _ _ (OMutClone h base) R) as (w' & E & R'). rewrite E. exists w'. pose proof (rel_len cf _ _ R) as Hl.
    pose proof (view_rng cf _ _ _ _ r R Hx ltac:(cbn; tauto) eq_refl) as Hv2. rewrite Hv in Hv2. apply (inj Some) in Hv2. unfold rview in Hv2. injection Hv2 as -> ->.
    assert (forall h', (h' < length (w_h w))%nat -> view cf w' h' = view cf w h') as Hfr.
    { intros h' Hlt. destruct (decide (h' = h)) as [->|Hne].
      - eapply view_keep; [exact R|exact R'|right; cbn; tauto|exact Hx|]. cbn. rewrite Hx. cbn. rewrite get_tget. cbn.
        rewrite get_old by (eapply a_get_lt; exact Hx). exact Hx.
      - eapply view_frame; [exact R|exact R'|cbn; congruence|done]. }
    cbn in R' |- *. rewrite Hx in R' |- *. cbn in R' |- *. rewrite <- Hl in *.
    destruct (view_fresh _ _ _ _ _ _ _ R') as [Hv' Hc]; [cbn; tauto|done|]. split_and!; try done.
    - apply (kind_mut cf _ _ _ R'). eexists. rewrite get_tget. apply get_new.
    - intros c. rewrite Hc. intros Hc'. unfold rng_cells in Hc'. apply elem_of_list_fmap in Hc' as (i & -> & _). cbn. by apply (rel_base_len _ _ _ R).
  Qed.
  Lemma run_frame_reach ops w ops2 w2 outs h : reach cf ops w -> rrun cf w ops2 = Ok (w2, outs) -> Forall (spares h) ops2 ->
    (h < length (w_h w))%nat -> view cf w2 h = view cf w h /\ h_cells cf w2 h = h_cells cf w h.
  Proof. intros R E HP Hlt. apply reach_rel in R. destruct (run_frame cf _ _ _ _ _ _ R E HP Hlt) as (? & ? & _). done. Qed.
  Lemma rstep_len ops w o w' r : reach cf ops w -> rstep cf w o = Ok (w', r) -> (length (w_h w) <= length (w_h w'))%nat /\
    forall n, r = RHandle n -> n = length (w_h w) /\ length (w_h w') = S n.
  Proof.
    intros R E. apply reach_rel in R. destruct (step_rel cf _ _ _ _ _ R E) as [Hr R']. rewrite <- (rel_len cf _ _ R), <- (rel_len cf _ _ R').
    generalize (hist cf ops) Hr. clear. intros a Hr. split; [apply (sh_len _ _ _ (spec_shape sz (c_clone cf) a o))|].
    intros n ->. revert Hr. destruct o; cbn; repeat case_match; cbn; intros Hr; try done;
      repeat (match goal with H : a_new _ _ _ = _ |- _ => injection H as <- <- end); try injection Hr as ->; cbn;
      rewrite ?app_length, ?insert_length; cbn; try lia; unfold a_replace in Hr; repeat case_match; done.
  Qed.
  Lemma mut_clone_independent ops w h base w1 n ops2 w2 outs : reach cf ops w -> is_mut w h ->
    rstep cf w (OMutClone h base) = Ok (w1, RHandle n) -> rrun cf w1 ops2 = Ok (w2, outs) ->
    (Forall (spares n) ops2 -> view cf w2 n = view cf w1 n) /\ (Forall (spares h) ops2 -> view cf w2 h = view cf w h).
  Proof.
    intros R Hm E1 E2. pose proof (reach_step _ _ _ _ _ _ R E1) as R1. destruct (rstep_len _ _ _ _ _ R E1) as [Hl1 Hn].
    destruct (Hn _ eq_refl) as [-> Hl]. assert (h < length (w_h w))%nat as Hlt.
    { destruct Hm as [m Hm]. unfold get_h in Hm. destruct (w_h w !! h) eqn:El; [|done]. by eapply lookup_lt_Some. }
    assert (is_rc w h \/ is_parts w h \/ is_unique w h) as Hk by (right; right; by left).
    destruct (deref_total cf _ _ _ R Hk) as (adr & items & Hv & _).
    destruct (mut_clone_view _ _ _ base _ _ R Hm Hv) as (w1' & E1' & _ & _ & Hfr & _). rewrite E1 in E1'. injection E1' as <-.
    split; intros HP.
    - apply (run_frame_reach _ _ _ _ _ _ R1 E2 HP). lia.
    - rewrite <- (Hfr h) by done. apply (run_frame_reach _ _ _ _ _ _ R1 E2 HP). lia.
  Qed.

  (** *** Writes *)
  Lemma cells_vals_insert (m : gmap (nat * N) V) (cs : list (nat * N)) (i : nat) (c : nat * N) (v : V) :
    NoDup cs -> (forall c, c ∈ cs -> is_Some (m !! c)) -> cs !! i = Some c ->
    cells_vals (<[c := v]> m) cs = <[i := v]> (cells_vals m cs).
  Proof.
    revert i. induction cs as [|c' cs IH]; intros i Hnd Hcov Hi; [done|]. apply NoDup_cons in Hnd as [Hni Hnd].
    destruct (Hcov c') as [v' Hv']; [left|]. destruct i as [|i]; cbn in Hi.
    - injection Hi as ->. cbn. rewrite lookup_insert, Hv'. cbn. f_equal. apply cells_vals_ext. intros c2 Hc2. apply lookup_insert_ne. congruence.
    - assert (c' <> c) by (intros ->; apply Hni; by eapply elem_of_list_lookup_2). cbn. rewrite lookup_insert_ne by done. rewrite Hv'. cbn. f_equal. apply IH; [done| |done]. intros. apply Hcov. by right.
  Qed.
  Lemma rng_cells_NoDup r : NoDup (rng_cells r).
  Proof. unfold rng_cells. apply NoDup_fmap; [|apply NoDup_seq]. intros i j [= H]. lia. Qed.
  Lemma replace_view ops w o h i v w' old : reach cf ops w -> o = OReplace h i v \/ o = OGetMutReplace h i v ->
    rstep cf w o = Ok (w', RVal old) ->
    exists adr l, view cf w h = Some (adr, l) /\ l !! N.to_nat i = Some old /\
      view cf w' h = Some (adr, <[N.to_nat i := v]> l) /\ h_cells cf w' h = h_cells cf w h /\
      (forall h', h' <> h -> (h' < length (w_h w))%nat -> view cf w' h' = view cf w h') /\
      (forall c, item w' c <> item w c -> h_cells cf w h !! N.to_nat i = Some c).
  Proof.
    intros R Ho E. apply reach_rel in R. generalize dependent (hist cf ops). intros a R. clear ops.
    destruct (step_rel cf _ _ _ _ _ R E) as [Hr R'].
    assert (exists x, a_get a h = Some x /\ ~ a_weak x /\ sstep a o = a_replace a (hcells (as_trees a) x) i v) as (x & Hx & Hw & Hs).
    { destruct Ho as [-> | ->]; cbn in Hr |- *; destruct (a_get a h) as [x|] eqn:Hx; try done.
      - exists x. destruct x; cbn in *; try done; (split_and!; [done|tauto|done]).
      - destruct x; try done. destruct (_ && _); [|done]. eexists. split_and!; [done|cbn; tauto|done]. }
    assert (target o = Some h) as Ht by (by destruct Ho as [-> | ->]).
    destruct (handle_rng cf _ _ _ _ R Hx Hw) as (r & Hc & Hcov & Hv). rewrite Hs, Hc in Hr, R'. unfold a_replace in Hr, R'.
    destruct (rng_cells r !! N.to_nat i) as [c|] eqn:Ec; [|done].
    destruct (as_mem a !! c) as [old'|] eqn:Em; [|done]. cbn in Hr, R'. injection Hr as ->. unfold rview in Hv.
    eexists _, _. split_and!.
    - exact Hv.
    - by rewrite (cells_vals_lookup _ _ _ _ Hcov Ec).
    - set (a' := AS _ _ _ _) in R'. rewrite (view_rng cf _ a' h x r R' Hx Hw Hc). unfold rview. cbn [as_mem as_base a'].
      by rewrite (cells_vals_insert _ _ _ _ _ (rng_cells_NoDup r) Hcov Ec).
    - rewrite (fact_h_cells _ _ _ R cf _ eq_refl), (fact_h_cells _ _ _ R' cf _ eq_refl). done.
    - intros h' Hne Hlt. eapply (view_frame cf _ _ _ o); [exact R| |rewrite Ht; congruence|done].
      rewrite Hs. unfold a_replace. by rewrite Hc, Ec, Em.
    - intros c' Hne. rewrite (fact_h_cells _ _ _ R cf _ eq_refl), Hx, Hc, Ec. f_equal.
      assert (as_mem a = dw_mem (w_d w)) as Hm by (by destruct R as (P & _ & _ & _ & Hm & _)).
      destruct R' as (P & _ & _ & _ & Hm' & _). cbn in Hm'. unfold item in Hne. rewrite <- Hm, <- Hm' in Hne.
      destruct (decide (c = c')); [done|]. by rewrite lookup_insert_ne in Hne.
  Qed.
  (** An index out of bounds panics, and nothing is written. *)
  Lemma replace_total ops w h i v adr l : reach cf ops w -> is_unique w h -> view cf w h = Some (adr, l) ->
    exists w', rstep cf w (OReplace h i v) = Ok (w', match l !! N.to_nat i with Some old => RVal old | None => RPanic end) /\
      (l !! N.to_nat i = None -> w' = w).
  Proof.
    intros R Hu Hv. apply reach_rel in R. generalize dependent (hist cf ops). intros a R. clear ops.
    destruct (proj1 (kind_unique cf w a h R) Hu) as (x & Hx & Hux).
    assert (~ a_weak x) as Hw by (destruct x; cbn in *; tauto).
    destruct (handle_rng cf _ _ _ _ R Hx Hw) as (r & Hc & Hcov & Hv'). rewrite Hv' in Hv. injection Hv as <- <-.
    destruct (rstep_spec cf _ _ (OReplace h i v) R) as (w' & E & R').
    assert (sstep a (OReplace h i v) = a_replace a (rng_cells r) i v) as Hs.
    { cbn. rewrite Hx. destruct x; cbn in Hux, Hc; try done; by rewrite Hc. }
    rewrite Hs in E. unfold a_replace in E.
    destruct (rng_cells r !! N.to_nat i) as [c|] eqn:Ec.
    - rewrite (cells_vals_lookup _ _ _ _ Hcov Ec). destruct (Hcov c) as [old Hold]; [by eapply elem_of_list_lookup_2|]. rewrite Hold in E |- *.
      exists w'. split; [exact E|done].
    - assert (cells_vals (as_mem a) (rng_cells r) !! N.to_nat i = None) as Hn.
      { apply lookup_ge_None_2. rewrite cells_vals_length by done. by apply lookup_ge_None_1. }
      rewrite Hn. cbn in E. exists w'. split; [done|]. intros _. clear -E. unfold rstep in E. cbn [step] in E.
      assert (forall p len, ret_replace sz (w_d w, w_g w) (w_h w) p len i v = Ok (w', RPanic) -> w' = w) as Hrr.
      { intros p len. unfold ret_replace. destruct (_ <? _)%N.
        - destruct (mem_replace _ _ _ _) as [[d old]| | |]; done.
        - unfold ret. destruct w. cbn. congruence. }
      destruct (get_h w h) as [[| | |m|m|m]|]; try done.
      + eauto.
      + destruct (sit_as_slice _ _) as [[p len]| | |]; try done. cbn in E. eauto.
      + destruct (sip_as_slice _ _) as [[p len]| | |]; try done. cbn in E. eauto.
  Qed.
End write.
