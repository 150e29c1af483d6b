(** The single-threaded model (RcModel.v) behaves exactly like the
    specification (Spec.v), for every sequence of calls. *)
From Verif Require Import Base BaseLemmas Api SliceItemsModel BinPartsModel DataModel RcModel Spec
  BinPartsProof SliceItemsProof DataInv DataSteps DataFuns GuardInv GuardSteps GuardFuns RelInv RelOps RelMut RelParts.
Local Open Scope N_scope.

#[local] Arguments mem_replace : simpl never.

Notation hcs P := (fmap (M:=list) (fmap (M:=option) hp_c) P).
Notation has P := (fmap (M:=list) (fmap (M:=option) hp_a) P).

Lemma omap_id_insert (P : list (option hpair)) h p : P !! h = Some (Some p) ->
  omap id P ≡ₚ p :: omap id (<[h := None]> P) /\
  forall q, omap id (<[h := Some q]> P) ≡ₚ q :: omap id (<[h := None]> P).
Proof.
  intros Hp. assert (h < length P)%nat as Hlt by (by eapply lookup_lt_Some).
  assert (forall x, omap id (<[h := x]> P) = omap id (take h P) ++ option_list x ++ omap id (drop (S h) P)) as Hins.
  { intros x. rewrite insert_take_drop by done. rewrite omap_app. f_equal. by destruct x. }
  rewrite <- (list_insert_id P h (Some p) Hp) at 1. rewrite !Hins. cbn [option_list app]. split.
  - symmetry. apply Permutation_middle.
  - intros q. rewrite Hins. symmetry. apply Permutation_middle.
Qed.
Lemma live_has (P : list (option hpair)) : live_handles (has P) = hp_a <$> omap id P.
Proof.
  unfold live_handles. induction P as [|[p|] P IH]; [done| |]; cbn; [f_equal|]; exact IH.
Qed.
Lemma omap_id_snoc (P : list (option hpair)) p : omap id (P ++ [Some p]) ≡ₚ p :: omap id P.
Proof. rewrite omap_app. cbn. symmetry. apply Permutation_cons_append. Qed.

Section refine.
  Context {V : Type} (sz : N) (vclone : V -> V) (capf growf : N -> N).
  Notation dworld := (dworld V).
  Notation dg := (dworld * gworld)%type.
  Notation world := (world V).
  Notation astate := (astate V).
  Notation cinv := (@cinv V sz).

  (** The two states agree on the caller's variables, the items in memory and
      the addresses of the buffers, and the model's state is consistent. *)
  Definition rel (w : world) (a : astate) : Prop := exists P,
    w_h w = hcs P /\ as_h a = has P /\
    cinv (w_d w, w_g w) (as_trees a) (omap id P) /\
    as_mem a = dw_mem (w_d w) /\ as_base a = fst <$> bshape (w_d w).

  Definition okstep (r : res (world * out V)) (s : astate * out V) : Prop :=
    exists w', r = Ok (w', snd s) /\ rel w' (fst s).

  Lemma fin_set (s : dg) T X (P : list (option hpair)) bs m h0 (o : out V) :
    cinv s T X -> X ≡ₚ omap id P -> dw_mem (fst s) ⊆ m -> bs = fst <$> bshape (fst s) ->
    okstep (ret s (hcs P) o) (a_set (AS bs T m h0) (has P), o).
  Proof.
    intros C HP Hm Hb. eexists. split; [reflexivity|]. exists P. cbn.
    assert (cinv s T (omap id P)) as C' by (by eapply cinv_perm). destruct s as [d g].
    split_and!; try done. symmetry. eapply (collect_eq sz (d, g)); [done..|]. apply live_has.
  Qed.
  Lemma fin_new (s : dg) T X (P : list (option hpair)) p c a bs m h0 :
    cinv s T X -> X ≡ₚ p :: omap id P -> dw_mem (fst s) ⊆ m -> bs = fst <$> bshape (fst s) ->
    c = hp_c p -> a = hp_a p ->
    okstep (ret_new s (hcs P) c) (a_new (AS bs T m h0) (has P) a).
  Proof.
    intros C HP Hm Hb -> ->.
    pose proof (fin_set s T X (P ++ [Some p]) bs m h0 (RHandle (length P)) C) as H.
    rewrite !fmap_app in H. cbn [fmap list_fmap] in H.
    unfold ret_new, a_new. rewrite !fmap_length. apply H; [|done|done].
    rewrite omap_id_snoc. done.
  Qed.
  Lemma fin_same (s : dg) T X (P : list (option hpair)) a (o : out V) :
    cinv s T X -> X ≡ₚ omap id P -> as_trees a = T -> as_h a = has P -> as_mem a = dw_mem (fst s) -> as_base a = fst <$> bshape (fst s) ->
    okstep (ret s (hcs P) o) (a, o).
  Proof.
    intros C HP <- Hh Hm Hb. eexists. split; [reflexivity|]. exists P. cbn. destruct s as [d g].
    split_and!; try done. by eapply cinv_perm.
  Qed.

  (** *** Memory *)
  Lemma mem_at_init (w : dworld) T L R O c v p : dinv sz w T L R O -> dw_mem w !! c = Some v ->
    points sz (bbase (bshape w) (fst c)) (fst c) (snd c) p -> mem_at sz w p = Ok v.
  Proof.
    intros I Hv Hp.
    assert (exists r o, ent_ok sz w r o /\ in_rng c r = true) as (r & o & He & Hc).
    { pose proof (di_own _ _ _ _ _ _ I c) as Hown. unfold memcnt in Hown. rewrite Hv in Hown.
      destruct (decide (0 < ocnt c O)%nat) as [Ho|Ho].
      - apply ocnt_pos in Ho as ([r o] & Hin & Hc). exists r, o. split; [|done]. by apply (di_oalloc _ _ _ _ _ _ I (r, o)).
      - destruct (hsum_pos (fun n => inr c (own_rng n)) (dw_datas w)) as (d & s & n & Hd & Hc); [lia|].
        exists (nrng n), (d_alloc n). split; [by eapply di_nalloc|]. apply own_in_nrng.
        unfold inr in Hc. destruct (in_rng c (own_rng n)); [done|lia]. }
    pose proof Hp as (Hb & Hi & _). destruct c as [cb ci]. cbn in *.
    rewrite (mem_at_ok sz w T L R O r o p I He).
    - by rewrite Hb, Hi, Hv.
    - by rewrite Hb, Hi.
    - apply in_rng_spec in Hc as [Hr _]. cbn in Hr. by rewrite <- Hr, Hb, Hi.
  Qed.
  Lemma mem_read_init (w : dworld) T L R O : dinv sz w T L R O -> forall k b lo p,
    (forall i, lo <= i < lo + N.of_nat k -> is_Some (dw_mem w !! (b, i))) ->
    (k <> 0%nat -> points sz (bbase (bshape w) b) b lo p) ->
    mem_read sz w k p = Ok (cells_vals (dw_mem w) (rng_cells (Rng b lo (N.of_nat k)))).
  Proof.
    intros I. induction k as [|k IH]; intros b lo p Hm Hp; [done|].
    destruct (Hm lo) as [v Hv]; [lia|]. specialize (Hp ltac:(lia)). cbn [mem_read].
    rewrite (mem_at_init w T L R O (b, lo) v p I Hv Hp). res_simpl.
    rewrite (IH b (lo + 1)); [|intros i Hi; apply Hm; lia|intros _; by apply points_add]. res_simpl.
    replace (N.of_nat (S k)) with (1 + N.of_nat k) by lia. rewrite rng_cells_app.
    change (rng_cells (Rng b lo 1)) with [(b, lo + 0)]. rewrite N.add_0_r. cbn [app].
    unfold cells_vals. cbn [omap list_omap]. by rewrite Hv.
  Qed.

  (** What reading a covered range through a pointer to it shows. *)
  Lemma ret_slice_ok (s : dg) T (P : list (option hpair)) a r p :
    cinv s T (omap id P) -> as_trees a = T -> as_h a = has P -> as_mem a = dw_mem (fst s) -> as_base a = fst <$> bshape (fst s) ->
    (forall c, c ∈ rng_cells r -> is_Some (dw_mem (fst s) !! c)) ->
    (rg_len r <> 0 -> points sz (bbase (bshape (fst s)) (rg_blk r)) (rg_blk r) (rg_lo r) p) ->
    okstep (ret_slice sz s (hcs P) p (rg_len r)) (a, a_slice sz a (rng_cells r)).
  Proof.
    intros C HT Hh Hm Hb Hc Hp. pose proof C as (L & LI & LG & D & _). destruct r as [blk lo len]. cbn [rg_len rg_blk rg_lo] in *.
    unfold ret_slice. rewrite (mem_read_init (fst s) T L _ _ D (N.to_nat len) blk lo p); [|intros i Hi|intros; apply Hp; lia].
    2: { apply Hc. apply rng_cells_elem. cbn. lia. }
    res_simpl. rewrite N2Nat.id. unfold a_slice. rewrite Hm.
    assert ((if ((len =? 0) || (sz =? 0))%N then None else Some (p_addr p)) =
      (if (sz =? 0)%N then None else cell_addr sz (as_base a) <$> head (rng_cells (Rng blk lo len)))) as ->.
    { destruct (N.eqb_spec sz 0) as [|Hsz]; [by rewrite orb_true_r|]. rewrite orb_false_r.
      destruct (N.eqb_spec len 0) as [->|Hl]; [done|]. rewrite (points_addr _ _ _ _ _ (Hp Hl) Hsz).
      replace len with (1 + (len - 1)) by lia. rewrite rng_cells_app.
      change (rng_cells (Rng blk lo 1)) with [(blk, lo + 0)]. cbn. unfold cell_addr. cbn. rewrite Hb, N.add_0_r. f_equal. f_equal.
      unfold bbase. by rewrite list_lookup_fmap. }
    by eapply fin_same.
  Qed.
  Lemma ret_replace_ok (s : dg) T (P : list (option hpair)) a r p i v :
    cinv s T (omap id P) -> as_trees a = T -> as_h a = has P -> as_mem a = dw_mem (fst s) -> as_base a = fst <$> bshape (fst s) ->
    (forall c, c ∈ rng_cells r -> is_Some (dw_mem (fst s) !! c)) ->
    (rg_len r <> 0 -> points sz (bbase (bshape (fst s)) (rg_blk r)) (rg_blk r) (rg_lo r) p) ->
    okstep (ret_replace sz s (hcs P) p (rg_len r) i v) (a_replace a (rng_cells r) i v).
  Proof.
    intros C HT Hh Hm Hb Hc Hp. unfold ret_replace, a_replace. destruct (N.ltb_spec i (rg_len r)) as [Hi|Hi].
    - rewrite rng_cells_lookup by done. destruct (Hc (rg_blk r, rg_lo r + i)) as [old Hold].
      { apply rng_cells_elem. cbn. lia. }
      rewrite Hm, Hold. pose proof C as (L & LI & LG & D & G & F).
      assert (points sz (bbase (bshape (fst s)) (rg_blk r)) (rg_blk r) (rg_lo r + i) (ptr_add sz p i)) as Hpi.
      { apply points_add, Hp. lia. }
      unfold mem_replace. rewrite (mem_at_init _ _ _ _ _ (rg_blk r, rg_lo r + i) old _ D Hold Hpi). res_simpl.
      destruct Hpi as (-> & -> & _). eapply fin_same; cbn; [|done|done|done| |done].
      + exists L, LI, LG. split_and!; [|exact G|exact F]. by apply dinv_write.
      + done.
    - rewrite lookup_ge_None_2 by (rewrite rng_cells_length; lia). by eapply fin_same.
  Qed.

  Lemma cells_vals_le (m : gmap (nat * N) V) cs : (length (cells_vals m cs) <= length cs)%nat.
  Proof.
    unfold cells_vals. induction cs as [|c cs IH]; [done|]. cbn [omap list_omap length].
    change (list_omap _ _ _ _) with (omap (fun c => m !! c) cs). destruct (m !! c); cbn [length]; lia.
  Qed.

  (** *** What a live variable holds *)
  Lemma handle_cases (s : dg) T X p : cinv s T X -> p ∈ X ->
    match hp_c p with
    | HRc r => exists l, p = prc r l
    | HWeak d g => exists ol, p = pwk d g ol
    | HParts it => exists q, p = pps it q
    | HMut m => exists r, p = pmut m r
    | HIter m => exists r, p = pit m r
    | HMParts m => exists r k f b, p = pmp m r k f b /\ (rg_blk r < length (bshape (fst s)))%nat /\
        sip_rel sz (bbase (bshape (fst s)) (rg_blk r)) r k f b (mp_iter m)
    end.
  Proof.
    intros (L & LI & LG & D & G & F) Hin. rewrite Forall_forall in F. specialize (F _ Hin).
    destruct p as [c a o]. unfold hrel in F. cbn in F. cbn. destruct c, a; try done.
    - destruct F as [-> _]. eauto.
    - destruct F as [-> _]. eauto.
    - destruct F as [-> _]. eauto.
    - destruct F as [-> _]. eauto.
    - destruct F as [-> _]. eauto.
    - destruct F as (r & k & f & b & -> & Hb & Hs & ->). exists r, k, f, b. done.
  Qed.
  Lemma covered (s : dg) T X p c : cinv s T X -> p ∈ X -> c ∈ hcells T (hp_a p) -> is_Some (dw_mem (fst s) !! c).
  Proof.
    intros C Hp Hc. apply (cinv_covered sz s T X c C). apply elem_of_list_bind. eauto.
  Qed.
  Lemma mleft_cells k r f b : f + b <= 2 ^ N.of_nat k -> mleft k r f b ≫= rng_cells = rng_cells (seg_rng k r f b).
  Proof. intros H. unfold mleft. by apply seg_cells. Qed.

  Notation step := (step sz vclone capf growf false).
  Notation spec_step := (spec_step sz vclone).

  Ltac hsub := first [reflexivity | (by apply (proj1 (same_sub _ _ ltac:(eassumption)))) | by eapply proj1].
  Lemma bs_eq (s s' : dg) bs : bs = fst <$> bshape (fst s) -> bshape (fst s') = bshape (fst s) -> bs = fst <$> bshape (fst s').
  Proof. intros -> ->. done. Qed.
  Lemma mem_eq (s s' : dg) : same s s' -> dw_mem (fst s') ⊆ dw_mem (fst s).
  Proof. intros [-> _]. done. Qed.
  Lemma ins_new (P : list (option hpair)) h p q Y : P !! h = Some (Some p) ->
    Y = omap id (<[h := None]> P) -> q :: Y ≡ₚ omap id (<[h := Some q]> P).
  Proof. intros Hp ->. symmetry. by apply omap_id_insert with p. Qed.

  Lemma step_ok w a o : rel w a -> okstep (step w o) (spec_step a o).
  Proof.
    intros (P & Hw & Ha & C & Hm & Hb). destruct w as [d g hs]. destruct a as [bs T m ah]. cbn in Hw, Ha, C, Hm, Hb. subst hs ah m bs.
    set (A := AS (fst <$> bshape d) T (dw_mem d) (has P)).
    assert (forall o : out V, okstep (ret (d, g) (hcs P) o) (A, o)) as Hsame.
    { intros o'. by eapply fin_same. }
    assert (forall h, get_h (W d g (hcs P)) h = hp_c <$> mjoin (P !! h)) as Hget.
    { intros h. unfold get_h. cbn. rewrite list_lookup_fmap. by destruct (P !! h) as [[]|]. }
    assert (forall h, a_get A h = hp_a <$> mjoin (P !! h)) as Haget.
    { intros h. unfold a_get. cbn. rewrite list_lookup_fmap. by destruct (P !! h) as [[]|]. }
    assert (forall h p, mjoin (P !! h) = Some p -> P !! h = Some (Some p) /\ p ∈ omap id P /\
      exists Y, Y = omap id (<[h := None]> P) /\ omap id P ≡ₚ p :: Y /\ cinv (d, g) T (p :: Y)) as Hj.
    { intros h p Hp. assert (P !! h = Some (Some p)) as Hp' by (by destruct (P !! h) as [[]|]; cbn in Hp; congruence).
      split; [done|]. destruct (omap_id_insert P h p Hp') as [Hperm _]. split.
      - apply elem_of_list_omap. exists (Some p). split; [|done]. by eapply elem_of_list_lookup_2.
      - eexists. split; [done|]. split; [done|]. by eapply cinv_perm. }
    destruct o as [base vals|base vals| |h|h base|side h|side h|h n|h|h i v|h|h|h|h|h|h|h i v|h|back h|to h i|h];
      cbn [step RcModel.step spec_step Spec.spec_step w_d w_g w_h]; fold A; rewrite ?Hget, ?Haget; cbn [as_h as_trees A].
    - (* from_vec *)
      destruct (N.ltb_spec (N.of_nat (length vals)) usize_lim) as [Hlen|]; [|apply Hsame].
      destruct (rcs_from_boxed_slice_ok sz (d, g) T _ base vals C Hlen) as (s' & r & -> & C' & Hm' & Hb').
      res_simpl. cbn [a_alloc a_root as_base as_trees as_mem as_h A]. rewrite fmap_length.
      eapply fin_new; [exact C'|reflexivity| | |done|done].
      + rewrite Hm'. done.
      + by rewrite Hb', fmap_app.
    - (* from_vec *)
      destruct (N.ltb_spec (N.of_nat (length vals)) usize_lim) as [Hlen|]; [|apply Hsame].
      destruct (mut_from_boxed_slice_ok sz (d, g) T _ base vals C Hlen) as (s' & r & -> & C' & Hm' & Hb').
      cbn [a_alloc a_root as_base as_trees as_mem as_h A]. rewrite fmap_length.
      eapply fin_new; [exact C'|reflexivity| | |done|done].
      + rewrite Hm'. done.
      + by rewrite Hb', fmap_app.
    - (* WeakSlice::new *)
      destruct (weak_new_ok sz (d, g) T _ C) as (s' & g' & -> & C' & S').
      eapply fin_new; [exact C'|reflexivity|exact (mem_eq (d, g) _ S')|by rewrite (proj2 S')|done|done].
    - (* clone *)
      destruct (mjoin (P !! h)) as [p|] eqn:Hp; [|apply Hsame]. destruct (Hj _ _ Hp) as (Hp' & Hin & Y & HY & HPY & CY).
      pose proof (handle_cases _ _ _ _ C Hin) as Hc. cbn [fmap option_fmap option_map].
      destruct (hp_c p) as [r|d0 g0|it|m|m|m] eqn:Ec.
      + destruct Hc as [l ->]. destruct (rcs_clone_ok sz _ _ _ _ _ C Hin) as (s' & -> & C' & S'). res_simpl.
        eapply fin_new; [exact C'|reflexivity|exact (mem_eq (d, g) _ S')|by rewrite (proj2 S')|done|done].
      + destruct Hc as [ol ->]. destruct (weak_clone_ok sz _ _ _ _ _ _ C Hin) as (s' & -> & C' & S'). res_simpl.
        eapply fin_new; [exact C'|reflexivity|exact (mem_eq (d, g) _ S')|by rewrite (proj2 S')|done|done].
      + destruct Hc as [q ->]. destruct (parts_clone_ok sz capf _ _ _ _ _ _ C HPY) as (s' & it' & -> & C' & S'). res_simpl.
        eapply fin_new; [exact C'|reflexivity|exact (mem_eq (d, g) _ S')|by rewrite (proj2 S')|done|done].
      + destruct Hc as [r ->]. apply Hsame.
      + destruct Hc as [r ->]. apply Hsame.
      + destruct Hc as (? & ? & ? & ? & -> & _). apply Hsame.
    - (* RcSliceMut::clone *)
      destruct (mjoin (P !! h)) as [p|] eqn:Hp; [|apply Hsame]. destruct (Hj _ _ Hp) as (Hp' & Hin & Y & HY & HPY & CY).
      pose proof (handle_cases _ _ _ _ C Hin) as Hc. cbn [fmap option_fmap option_map].
      destruct (hp_c p) as [r|d0 g0|it|m|m|m] eqn:Ec;
        [destruct Hc as [? ->]; apply Hsame|destruct Hc as [? ->]; apply Hsame|destruct Hc as [? ->]; apply Hsame| |
         destruct Hc as [? ->]; apply Hsame|destruct Hc as (? & ? & ? & ? & -> & _); apply Hsame].
      destruct Hc as [r ->]. cbn [hp_a pmut].
      destruct (cinv_pmut sz _ _ _ _ _ CY) as [Hr [Hi1 Hi2]].
      pose proof CY as (L & LI & LG & D & _). unfold mut_clone. rewrite Hi2.
      rewrite (mem_read_init _ _ _ _ _ D _ (rg_blk r) (rg_lo r)).
      2: { intros i Hi. eapply (covered _ _ _ _ (rg_blk r, i) C Hin). apply rng_cells_elem. cbn. lia. }
      2: done.
      rewrite N2Nat.id. assert (Rng (rg_blk r) (rg_lo r) (rg_len r) = r) as -> by (by destruct r). res_simpl.
      set (vs := cells_vals (dw_mem (d, g).1) (rng_cells r)).
      assert (N.of_nat (length (vclone <$> vs)) < usize_lim) as Hlen.
      { destruct (rng_ok_lim _ _ Hr) as [Hlim _]. rewrite fmap_length. eapply N.le_lt_trans; [|exact Hlim].
        assert (length vs <= length (rng_cells r))%nat; [|rewrite rng_cells_length in *; lia].
        apply cells_vals_le. }
      destruct (mut_from_boxed_slice_ok sz (d, g) T _ base _ C Hlen) as (s' & r' & E & C' & Hm' & Hb').
      rewrite E. cbn [a_alloc a_root as_base as_trees as_mem as_h A]. fold vs. rewrite fmap_length.
      eapply fin_new; [exact C'|reflexivity| | |done|done].
      + rewrite Hm'. cbn [fst]. unfold stored, vs. rewrite !fmap_length. done.
      + by rewrite Hb', fmap_app.
    - (* clone_left, clone_right *)
      destruct (mjoin (P !! h)) as [p|] eqn:Hp; [|apply Hsame]. destruct (Hj _ _ Hp) as (Hp' & Hin & Y & HY & HPY & CY).
      pose proof (handle_cases _ _ _ _ C Hin) as Hc. cbn [fmap option_fmap option_map].
      destruct (hp_c p) as [r|d0 g0|it|m|m|m] eqn:Ec;
        [|destruct Hc as [? ->]; apply Hsame..|destruct Hc as (? & ? & ? & ? & -> & _); apply Hsame].
      destruct Hc as [l ->]. destruct (rcs_clone_half_ok sz _ _ _ _ _ side C Hin) as (s' & r' & -> & C' & S'). res_simpl.
      eapply fin_new; [exact C'|reflexivity|exact (mem_eq (d, g) _ S')|by rewrite (proj2 S')|done|done].
    - (* split_off_left, split_off_right *)
      destruct (mjoin (P !! h)) as [p|] eqn:Hp; [|apply Hsame]. destruct (Hj _ _ Hp) as (Hp' & Hin & Y & HY & HPY & CY).
      pose proof (handle_cases _ _ _ _ C Hin) as Hc. cbn [fmap option_fmap option_map].
      destruct (hp_c p) as [r|d0 g0|it|m|m|m] eqn:Ec;
        [|destruct Hc as [? ->]; apply Hsame|destruct Hc as [? ->]; apply Hsame| |
         destruct Hc as [? ->]; apply Hsame|destruct Hc as (? & ? & ? & ? & -> & _); apply Hsame].
      + destruct Hc as [l ->]. cbn [hp_a prc].
        destruct (rcs_split_off_ok sz _ _ _ _ _ side CY) as (s' & r1 & r2 & -> & C' & S'). res_simpl.
        set (q := prc r1 (lhalf T l (negb side))). fold q in C'.
        change (Some (HRc r1)) with (hp_c <$> Some q). change (Some (ARc (lhalf T l (negb side)))) with (hp_a <$> Some q).
        rewrite <- !list_fmap_insert.
        eapply fin_new; [exact C'|by constructor; eapply ins_new|exact (proj1 S')|by rewrite (proj2 S')|done|done].
      + destruct Hc as [r ->]. cbn [hp_a pmut].
        destruct (mut_split_off_ok sz _ _ _ _ _ side CY) as (s' & r1 & r2 & -> & C' & S'). res_simpl.
        set (q := pmut r1 (half (negb side) r)). fold q in C'.
        change (Some (HMut r1)) with (hp_c <$> Some q). change (Some (AMut (half (negb side) r))) with (hp_a <$> Some q).
        rewrite <- !list_fmap_insert.
        eapply fin_new; [exact C'|by constructor; eapply ins_new|exact (mem_eq (d, g) _ S')|by rewrite (proj2 S')|done|done].
    - (* split_into_parts *)
      destruct (N.ltb_spec n usize_lim) as [Hn|]; cbn [negb]; [|apply Hsame].
      destruct (mjoin (P !! h)) as [p|] eqn:Hp; [|apply Hsame]. destruct (Hj _ _ Hp) as (Hp' & Hin & Y & HY & HPY & CY).
      pose proof (handle_cases _ _ _ _ C Hin) as Hc. cbn [fmap option_fmap option_map].
      change (@None handle) with (hp_c <$> (@None hpair)). change (@None ahandle) with (hp_a <$> (@None hpair)).
      rewrite <- !list_fmap_insert.
      destruct (hp_c p) as [r|d0 g0|it|m|m|m] eqn:Ec;
        [|destruct Hc as [? ->]; apply Hsame|destruct Hc as [? ->]; apply Hsame| |
         destruct Hc as [? ->]; apply Hsame|destruct Hc as (? & ? & ? & ? & -> & _); apply Hsame].
      + destruct Hc as [l ->]. cbn [hp_a prc]. destruct (log2_exact n) as [k|] eqn:Ek.
        * apply log2_exact_Some in Ek as ->. destruct (parts_new_ok sz capf growf _ _ _ _ _ k CY Hn) as (it & -> & C').
          eapply fin_new; [exact C'|by rewrite HY|done|done|done|done].
        * rewrite parts_new_panic by done. destruct (rcs_drop_ok sz _ _ _ _ _ CY) as (s' & -> & C' & S'). res_simpl.
          eapply fin_set; [exact C'|by rewrite HY|exact (proj1 S')|by rewrite (proj2 S')].
      + destruct Hc as [r ->]. cbn [hp_a pmut]. destruct (log2_exact n) as [k|] eqn:Ek.
        * apply log2_exact_Some in Ek as ->. destruct (mut_split_into_parts_ok sz _ _ _ _ _ k CY Hn) as (it & -> & C').
          eapply fin_new; [exact C'|by rewrite HY|done|done|done|]. cbn. by rewrite mleft_00.
        * rewrite mut_split_into_parts_panic by done. destruct (mut_drop_ok sz _ _ _ _ _ CY) as (s' & E & C' & S').
          rewrite E. res_simpl. eapply fin_set; [exact C'|by rewrite HY|exact (proj1 S')|by rewrite (proj2 S')].
    - (* get_mut *)
      destruct (mjoin (P !! h)) as [p|] eqn:Hp; [|apply Hsame]. destruct (Hj _ _ Hp) as (Hp' & Hin & Y & HY & HPY & CY).
      pose proof (handle_cases _ _ _ _ C Hin) as Hc. cbn [fmap option_fmap option_map].
      destruct (hp_c p) as [r|d0 g0|it|m|m|m] eqn:Ec;
        [|destruct Hc as [? ->]; apply Hsame..|destruct Hc as (? & ? & ? & ? & -> & _); apply Hsame].
      destruct Hc as [l ->]. cbn [hp_a prc].
      destruct (rcs_get_mut_ok sz _ _ _ (has P) _ _ C Hin (live_has P)) as (p & Hpt & ->). res_simpl.
      destruct (sole_owner _ l && no_weak_below _ l); [|apply Hsame].
      eapply ret_slice_ok; try done. intros c Hc. by eapply (covered _ _ _ _ c C Hin).
    - (* get_mut, then replace *)
      destruct (mjoin (P !! h)) as [p|] eqn:Hp; [|apply Hsame]. destruct (Hj _ _ Hp) as (Hp' & Hin & Y & HY & HPY & CY).
      pose proof (handle_cases _ _ _ _ C Hin) as Hc. cbn [fmap option_fmap option_map].
      destruct (hp_c p) as [r|d0 g0|it|m|m|m] eqn:Ec;
        [|destruct Hc as [? ->]; apply Hsame..|destruct Hc as (? & ? & ? & ? & -> & _); apply Hsame].
      destruct Hc as [l ->]. cbn [hp_a prc].
      destruct (rcs_get_mut_ok sz _ _ _ (has P) _ _ C Hin (live_has P)) as (p & Hpt & ->). res_simpl.
      destruct (sole_owner _ l && no_weak_below _ l); [|apply Hsame].
      eapply ret_replace_ok; try done. intros c Hc. by eapply (covered _ _ _ _ c C Hin).
    - (* into_mut *)
      destruct (mjoin (P !! h)) as [p|] eqn:Hp; [|apply Hsame]. destruct (Hj _ _ Hp) as (Hp' & Hin & Y & HY & HPY & CY).
      pose proof (handle_cases _ _ _ _ C Hin) as Hc. cbn [fmap option_fmap option_map].
      destruct (hp_c p) as [r|d0 g0|it|m|m|m] eqn:Ec;
        [|destruct Hc as [? ->]; apply Hsame..|destruct Hc as (? & ? & ? & ? & -> & _); apply Hsame].
      destruct Hc as [l ->]. cbn [hp_a prc].
      pose proof (rcs_into_mut_ok sz _ _ _ _ (has P) _ _ C HPY (live_has P)) as H.
      destruct (sole_owner (has P) l).
      + destruct H as (s' & m & -> & C' & S'). res_simpl.
        change (@None handle) with (hp_c <$> (@None hpair)). change (@None ahandle) with (hp_a <$> (@None hpair)).
        rewrite <- !list_fmap_insert.
        eapply fin_new; [exact C'|by rewrite HY|exact (mem_eq (d, g) _ S')|by rewrite (proj2 S')|done|done].
      + rewrite H. res_simpl. change (Some (HRc r)) with (hp_c <$> Some (prc r l)).
        rewrite <- list_fmap_insert, list_insert_id by done. apply Hsame.
    - (* into_immut *)
      destruct (mjoin (P !! h)) as [p|] eqn:Hp; [|apply Hsame]. destruct (Hj _ _ Hp) as (Hp' & Hin & Y & HY & HPY & CY).
      pose proof (handle_cases _ _ _ _ C Hin) as Hc. cbn [fmap option_fmap option_map].
      change (@None handle) with (hp_c <$> (@None hpair)). change (@None ahandle) with (hp_a <$> (@None hpair)).
      rewrite <- !list_fmap_insert.
      destruct (hp_c p) as [r|d0 g0|it|m|m|m] eqn:Ec;
        [destruct Hc as [? ->]; apply Hsame|destruct Hc as [? ->]; apply Hsame|destruct Hc as [? ->]; apply Hsame| |
         destruct Hc as [? ->]; apply Hsame|destruct Hc as (? & ? & ? & ? & -> & _); apply Hsame].
      destruct Hc as [r ->]. cbn [hp_a pmut a_root as_base as_trees as_mem as_h A].
      destruct (mut_into_immut_ok sz _ _ _ _ _ CY) as (s' & r' & -> & C' & S'). res_simpl.
      eapply fin_new; [exact C'|by rewrite HY|exact (mem_eq (d, g) _ S')|by rewrite (proj2 S')|done|done].
    - (* downgrade *)
      destruct (mjoin (P !! h)) as [p|] eqn:Hp; [|apply Hsame]. destruct (Hj _ _ Hp) as (Hp' & Hin & Y & HY & HPY & CY).
      pose proof (handle_cases _ _ _ _ C Hin) as Hc. cbn [fmap option_fmap option_map].
      destruct (hp_c p) as [r|d0 g0|it|m|m|m] eqn:Ec;
        [|destruct Hc as [? ->]; apply Hsame..|destruct Hc as (? & ? & ? & ? & -> & _); apply Hsame].
      destruct Hc as [l ->]. cbn [hp_a prc].
      destruct (rcs_downgrade_ok sz _ _ _ _ _ C Hin) as (s' & d' & g' & -> & C' & S'). res_simpl.
      eapply fin_new; [exact C'|reflexivity|exact (mem_eq (d, g) _ S')|by rewrite (proj2 S')|done|done].
    - (* upgrade *)
      destruct (mjoin (P !! h)) as [p|] eqn:Hp; [|apply Hsame]. destruct (Hj _ _ Hp) as (Hp' & Hin & Y & HY & HPY & CY).
      pose proof (handle_cases _ _ _ _ C Hin) as Hc. cbn [fmap option_fmap option_map].
      destruct (hp_c p) as [r|d0 g0|it|m|m|m] eqn:Ec;
        [destruct Hc as [? ->]; apply Hsame| |destruct Hc as [? ->]; apply Hsame..|destruct Hc as (? & ? & ? & ? & -> & _); apply Hsame].
      destruct Hc as [ol ->]. cbn [hp_a pwk].
      destruct (weak_upgrade_ok sz _ _ _ (has P) _ _ _ C Hin (live_has P)) as [(Hal & s' & r & l & -> & -> & C' & S')|[Hal ->]]; res_simpl.
      + rewrite Hal. eapply fin_new; [exact C'|reflexivity|exact (mem_eq (d, g) _ S')|by rewrite (proj2 S')|done|done].
      + destruct ol as [l|]; [rewrite Hal|]; apply Hsame.
    - (* drop *)
      destruct (mjoin (P !! h)) as [p|] eqn:Hp; [|apply Hsame]. destruct (Hj _ _ Hp) as (Hp' & Hin & Y & HY & HPY & CY).
      pose proof (handle_cases _ _ _ _ C Hin) as Hc. cbn [fmap option_fmap option_map].
      change (@None handle) with (hp_c <$> (@None hpair)). change (@None ahandle) with (hp_a <$> (@None hpair)).
      rewrite <- !list_fmap_insert.
      enough (exists s', handle_drop sz (d, g) (hp_c p) = Ok s' /\ cinv s' T Y /\ sub (d, g) s') as (s' & -> & C' & S').
      { res_simpl. eapply fin_set; [exact C'|by rewrite HY|exact (proj1 S')|by rewrite (proj2 S')]. }
      destruct (hp_c p) as [r|d0 g0|it|m|m|m] eqn:Ec; cbn [handle_drop].
      + destruct Hc as [l ->]. by eapply rcs_drop_ok.
      + destruct Hc as [ol ->]. destruct (weak_drop_ok sz _ _ _ _ _ _ CY) as (s' & E & C' & S'). exists s'.
        split; [done|]. split; [done|by apply same_sub].
      + destruct Hc as [q ->]. destruct (cinv_unpack sz _ _ _ _ _ CY) as (k & x & f & b & ps & Hrel & -> & Hx & C1).
        rewrite (br_items _ _ _ _ _ _ _ _ Hrel). by apply parts_drop_ok.
      + destruct Hc as [r ->]. destruct (mut_drop_ok sz _ _ _ _ _ CY) as (d' & E & C' & S').
        rewrite E. res_simpl. by eexists.
      + destruct Hc as [r ->]. destruct (iter_drop_ok sz _ _ _ _ _ CY) as (d' & E & C' & S').
        rewrite E. res_simpl. by eexists.
      + destruct Hc as (r & k & f & b & -> & Hb & Hs). destruct (mparts_drop_ok sz _ _ _ _ _ _ _ _ CY Hs) as (d' & E & C' & S').
        rewrite E. res_simpl. by eexists.
    - (* deref, as_slice *)
      destruct (mjoin (P !! h)) as [p|] eqn:Hp; [|apply Hsame]. destruct (Hj _ _ Hp) as (Hp' & Hin & Y & HY & HPY & CY).
      pose proof (handle_cases _ _ _ _ C Hin) as Hc. cbn [fmap option_fmap option_map].
      destruct (hp_c p) as [r|d0 g0|it|m|m|m] eqn:Ec.
      + destruct Hc as [l ->]. destruct (rcs_slice_ok sz _ _ _ _ _ C Hin) as (p & -> & Hpt). res_simpl. cbn [hp_a prc hcells].
        eapply ret_slice_ok; try done. intros c Hc. by eapply (covered _ _ _ _ c C Hin).
      + destruct Hc as [ol ->]. apply Hsame.
      + destruct Hc as [q ->]. destruct (parts_as_slice_ok sz _ _ _ _ _ CY) as (k & x & f & b & p & -> & Hle & E & Hpt).
        rewrite E. res_simpl. cbn [hp_a pps hcells]. rewrite cover_cells by done.
        eapply ret_slice_ok; try done. intros c Hc. eapply (covered _ _ _ _ c C Hin). cbn. by rewrite cover_cells.
      + destruct Hc as [r ->]. cbn [hp_a pmut hcells]. destruct (cinv_pmut sz _ _ _ _ _ CY) as [Hr [Hi1 ->]].
        eapply ret_slice_ok; try done. intros c Hc. by eapply (covered _ _ _ _ c C Hin).
      + destruct Hc as [r ->]. cbn [hp_a pit hcells]. destruct (cinv_pit sz _ _ _ _ _ CY) as [Hr Hi].
        destruct (sit_as_slice_rel sz _ _ _ Hi) as (p & -> & Hpt). res_simpl.
        eapply ret_slice_ok; try done. intros c Hc. by eapply (covered _ _ _ _ c C Hin).
      + destruct Hc as (r & k & f & b & -> & Hb & Hs). cbn [hp_a pmp hcells].
        assert (f + b <= 2 ^ N.of_nat k) as Hle by (by destruct Hs as (_ & _ & _ & _ & _ & ? & _)).
        destruct (sip_as_slice_rel sz _ _ _ _ _ _ Hs) as (p & -> & Hpt). res_simpl. rewrite mleft_cells by done.
        eapply ret_slice_ok; try done.
        * intros c Hc. eapply (covered _ _ _ _ c C Hin). cbn. by rewrite mleft_cells.
        * intros Hne. apply Hpt. destruct (decide (f + b = 2 ^ N.of_nat k)) as [Heq|]; [|lia]. exfalso. apply Hne. cbn.
          replace (2 ^ N.of_nat k - b) with f by lia. lia.
    - (* replace *)
      destruct (mjoin (P !! h)) as [p|] eqn:Hp; [|apply Hsame]. destruct (Hj _ _ Hp) as (Hp' & Hin & Y & HY & HPY & CY).
      pose proof (handle_cases _ _ _ _ C Hin) as Hc. cbn [fmap option_fmap option_map].
      destruct (hp_c p) as [r|d0 g0|it|m|m|m] eqn:Ec;
        [destruct Hc as [? ->]; apply Hsame|destruct Hc as [? ->]; apply Hsame|destruct Hc as [? ->]; apply Hsame| | |].
      + destruct Hc as [r ->]. cbn [hp_a pmut]. destruct (cinv_pmut sz _ _ _ _ _ CY) as [Hr [Hi1 ->]].
        eapply ret_replace_ok; try done. intros c Hc. by eapply (covered _ _ _ _ c C Hin).
      + destruct Hc as [r ->]. cbn [hp_a pit]. destruct (cinv_pit sz _ _ _ _ _ CY) as [Hr Hi].
        destruct (sit_as_slice_rel sz _ _ _ Hi) as (p & -> & Hpt). res_simpl.
        eapply ret_replace_ok; try done. intros c Hc. by eapply (covered _ _ _ _ c C Hin).
      + destruct Hc as (r & k & f & b & -> & Hb & Hs). cbn [hp_a pmp].
        assert (f + b <= 2 ^ N.of_nat k) as Hle by (by destruct Hs as (_ & _ & _ & _ & _ & ? & _)).
        destruct (sip_as_slice_rel sz _ _ _ _ _ _ Hs) as (p & -> & Hpt). res_simpl. rewrite mleft_cells by done.
        eapply ret_replace_ok; try done.
        * intros c Hc. eapply (covered _ _ _ _ c C Hin). cbn. by rewrite mleft_cells.
        * intros Hne. apply Hpt. destruct (decide (f + b = 2 ^ N.of_nat k)) as [Heq|]; [|lia]. exfalso. apply Hne. cbn.
          replace (2 ^ N.of_nat k - b) with f by lia. lia.
    - (* into_iter *)
      destruct (mjoin (P !! h)) as [p|] eqn:Hp; [|apply Hsame]. destruct (Hj _ _ Hp) as (Hp' & Hin & Y & HY & HPY & CY).
      pose proof (handle_cases _ _ _ _ C Hin) as Hc. cbn [fmap option_fmap option_map].
      change (@None handle) with (hp_c <$> (@None hpair)). change (@None ahandle) with (hp_a <$> (@None hpair)).
      rewrite <- !list_fmap_insert.
      destruct (hp_c p) as [r|d0 g0|it|m|m|m] eqn:Ec;
        [destruct Hc as [? ->]; apply Hsame|destruct Hc as [? ->]; apply Hsame|destruct Hc as [? ->]; apply Hsame| |
         destruct Hc as [? ->]; apply Hsame|destruct Hc as (? & ? & ? & ? & -> & _); apply Hsame].
      destruct Hc as [r ->]. pose proof (mut_into_iter_ok sz _ _ _ _ _ CY) as C'.
      eapply fin_new; [exact C'|by rewrite HY|done|done|done|done].
    - (* next, next_back *)
      destruct (mjoin (P !! h)) as [p|] eqn:Hp; [|apply Hsame]. destruct (Hj _ _ Hp) as (Hp' & Hin & Y & HY & HPY & CY).
      pose proof (handle_cases _ _ _ _ C Hin) as Hc. cbn [fmap option_fmap option_map].
      assert (forall q, hp_a q = hp_a p -> has (<[h := Some q]> P) = has P) as Hahas.
      { intros q Hq. rewrite list_fmap_insert. cbn. rewrite Hq. apply list_insert_id. by rewrite list_lookup_fmap, Hp'. }
      destruct (hp_c p) as [r|d0 g0|it|m|m|m] eqn:Ec;
        [destruct Hc as [? ->]; apply Hsame|destruct Hc as [? ->]; apply Hsame| |destruct Hc as [? ->]; apply Hsame| |].
      + destruct Hc as [q ->]. cbn [hp_a pps]. pose proof (parts_next_ok sz growf _ _ _ _ _ back CY) as H.
        destruct (if back then last q else head q) as [[l j]|] eqn:Eq.
        * destruct H as (s' & it' & r & -> & H). res_simpl.
          destruct (if back then pop_back T l j (removelast q) else pop_front T l j (tail q)) as [l' q'] eqn:El.
          destruct H as [C' S']. set (q2 := pps it' q'). fold q2 in C'.
          change (Some (HParts it')) with (hp_c <$> Some q2). change (Some (AParts q')) with (hp_a <$> Some q2).
          rewrite <- !list_fmap_insert.
          eapply fin_new; [exact C'|by constructor; eapply ins_new|exact (proj1 S')|by rewrite (proj2 S')|done|done].
        * rewrite H. res_simpl. change (Some (HParts it)) with (hp_c <$> Some (pps it q)).
          rewrite <- list_fmap_insert, list_insert_id by done. apply Hsame.
      + destruct Hc as [r ->]. cbn [hp_a pit]. pose proof (iter_next_ok sz _ _ _ _ _ back CY) as H.
        destruct (rg_len r =? 0).
        * destruct H as (d' & m' & E & C' & S'). rewrite E. res_simpl. set (q2 := pit m' r). fold q2 in C'.
          change (Some (HIter m')) with (hp_c <$> Some q2). rewrite <- list_fmap_insert.
          eapply fin_same; [exact C'|by eapply ins_new|done|by rewrite Hahas|by rewrite (proj1 S')|by rewrite (proj2 S')].
        * destruct H as (d' & m' & v & Hv & E & C' & S'). rewrite E. res_simpl.
          change (rg_blk r, if back then rg_lo r + rg_len r - 1 else rg_lo r) with (it_cell back r).
          cbn [as_mem A]. cbn [fst] in Hv. rewrite Hv.
          set (q2 := pit m' (it_rest back r)). fold q2 in C'.
          change (Some (HIter m')) with (hp_c <$> Some q2). change (Some (AIter _)) with (hp_a <$> Some q2).
          rewrite <- !list_fmap_insert. eapply fin_set; [exact C'|by eapply ins_new|exact (proj1 S')|by rewrite (proj2 S')].
      + destruct Hc as (r & k & f & b & -> & Hb & Hs). cbn [hp_a pmp].
        assert (f + b <= 2 ^ N.of_nat k) as Hle by (by destruct Hs as (_ & _ & _ & _ & _ & ? & _)).
        destruct (decide (f + b = 2 ^ N.of_nat k)) as [Heq|Hne].
        * assert (mparts_next sz back (fst (d, g)) m = Ok (fst (d, g), m, None)) as -> by (by eapply mparts_next_done).
          res_simpl. rewrite mleft_nil by done. assert ((if back then last [] else head []) = @None rng) as -> by (by destruct back).
          change (Some (HMParts m)) with (hp_c <$> Some (pmp m r k f b)).
          rewrite <- list_fmap_insert, list_insert_id by done. apply Hsame.
        * destruct (mparts_next_ok sz _ _ _ _ _ _ _ _ back CY Hb Hs ltac:(lia)) as (d' & m' & x & E & C' & S').
          rewrite E. res_simpl. destruct (mleft_take back k r f b ltac:(lia)) as [-> ->].
          set (q2 := pmp m' r k (mp_f back f) (mp_b back b)). fold q2 in C'.
          change (Some (HMParts m')) with (hp_c <$> Some q2). change (Some (AMParts _)) with (hp_a <$> Some q2).
          rewrite <- !list_fmap_insert.
          eapply fin_new; [exact C'|by constructor; eapply ins_new|exact (mem_eq (d, g) _ S')|by rewrite (proj2 S')|done|done].
    - (* split_off_from, split_off_to *)
      destruct (mjoin (P !! h)) as [p|] eqn:Hp; [|apply Hsame]. destruct (Hj _ _ Hp) as (Hp' & Hin & Y & HY & HPY & CY).
      pose proof (handle_cases _ _ _ _ C Hin) as Hc. cbn [fmap option_fmap option_map].
      destruct (hp_c p) as [r|d0 g0|it|m|m|m] eqn:Ec;
        [destruct Hc as [? ->]; apply Hsame|destruct Hc as [? ->]; apply Hsame|destruct Hc as [? ->]; apply Hsame|
         destruct Hc as [? ->]; apply Hsame| |destruct Hc as (? & ? & ? & ? & -> & _); apply Hsame].
      destruct Hc as [r ->]. cbn [hp_a pit]. destruct (N.ltb_spec (rg_len r) i) as [Hi|Hi].
      + rewrite (iter_split_off_panic sz (d, g) T Y m r to i CY Hi). apply Hsame.
      + destruct (iter_split_off_ok sz (d, g) T Y m r to i CY Hi) as (d' & m1 & m2 & E & C' & S'). rewrite E.
        set (r1 := Rng (rg_blk r) (rg_lo r) i) in *. set (r2 := Rng (rg_blk r) (rg_lo r + i) (rg_len r - i)) in *.
        set (q2 := pit m1 (if to then r2 else r1)). fold q2 in C'.
        assert ((if to then a_new A (<[h := Some (AIter r2)]> (has P)) (AIter r1) else a_new A (<[h := Some (AIter r1)]> (has P)) (AIter r2)) =
          a_new A (<[h := hp_a <$> Some q2]> (has P)) (AIter (if to then r1 else r2))) as -> by (by destruct to).
        change (Some (HIter m1)) with (hp_c <$> Some q2). rewrite <- !list_fmap_insert.
        eapply fin_new; [exact C'|by constructor; eapply ins_new|exact (mem_eq (d, g) _ S')|by rewrite (proj2 S')|done|done].
    - (* len *)
      destruct (mjoin (P !! h)) as [p|] eqn:Hp; [|apply Hsame]. destruct (Hj _ _ Hp) as (Hp' & Hin & Y & HY & HPY & CY).
      pose proof (handle_cases _ _ _ _ C Hin) as Hc. cbn [fmap option_fmap option_map].
      destruct (hp_c p) as [r|d0 g0|it|m|m|m] eqn:Ec;
        [destruct Hc as [? ->]; apply Hsame|destruct Hc as [? ->]; apply Hsame| |destruct Hc as [? ->]; apply Hsame| |].
      + destruct Hc as [q ->]. rewrite (parts_len_ok sz _ _ _ _ _ CY). apply Hsame.
      + destruct Hc as [r ->]. destruct (cinv_pit sz _ _ _ _ _ CY) as [Hr Hi].
        rewrite (sit_len_rel sz _ _ _ Hi). apply Hsame.
      + destruct Hc as (r & k & f & b & -> & Hb & Hs).
        assert (f + b <= 2 ^ N.of_nat k) as Hle by (by destruct Hs as (_ & _ & _ & _ & _ & ? & _)).
        rewrite (sip_len_rel sz _ _ _ _ _ _ Hs). cbn [hp_a pmp]. rewrite mleft_length by done. apply Hsame.
  Qed.

  Lemma rel_empty : rel empty_world empty_astate.
  Proof.
    exists []. cbn. split_and!; try done. exists [], [], []. cbn. split_and!; [..|constructor].
    - split; try done; try (by intros ? ? ?); cbn.
      + constructor.
      + intros l Hl. by apply elem_of_nil in Hl.
      + intros l side Hl. by apply elem_of_nil in Hl.
      + intros x Hx. by apply elem_of_nil in Hx.
    - by split.
  Qed.

  Lemma run_ok ops : forall w a, rel w a ->
    exists w', run sz vclone capf growf false w ops = Ok (w', snd (spec_run sz vclone a ops)) /\ rel w' (fst (spec_run sz vclone a ops)).
  Proof.
    induction ops as [|o ops IH]; intros w a H; [by exists w|].
    destruct (step_ok w a o H) as (w1 & E1 & H1). cbn [run spec_run]. rewrite E1. res_simpl.
    destruct (Spec.spec_step sz vclone a o) as [a1 r1]. cbn in H1. destruct (IH w1 a1 H1) as (w2 & E2 & H2). rewrite E2. res_simpl.
    destruct (spec_run sz vclone a1 ops) as [a2 rs]. cbn. by exists w2.
  Qed.
End refine.
