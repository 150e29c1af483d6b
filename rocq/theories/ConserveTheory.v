(** Conservation along every run: C06 and C26. *)
From Verif Require Import Base BaseLemmas Api SliceItemsModel BinPartsModel DataModel RcModel Spec SliceItemsProof DataInv DataFuns Observe RelInv Refine Facts SpecTheory Frame Views RcTheory WriteTheory Conserve.

Section theory.
  Context {V : Type} (cf : cfg V).
  Notation sz := (c_sz cf).
  Notation rel := (rel (c_sz cf)).
  Notation sstep := (spec_step (c_sz cf) (c_clone cf)).
  Notation srun := (spec_run (c_sz cf) (c_clone cf)).
  Notation bal := (balg []).
  Implicit Types (w : world V) (a : astate V) (o : op V) (h : nat) (ops : list (op V)).

  (** The cells of all buffers there ever were. *)
  Fixpoint buf_cells (b : nat) (bs : list (N * N)) : list (nat * N) :=
    match bs with [] => [] | (_, len) :: bs => rng_cells (Rng b 0 len) ++ buf_cells (S b) bs end.

  (** One call: [fresh] are the cells of a new buffer, [taken] the cells items were moved out of. *)
  Definition cons_step w w' (pv gv : list V) : Prop := exists nb ins outs mid taken,
    balg nb (w_d w) (w_d w') ins outs /\ ins.*2 = pv /\ outs.*2 = gv /\
    ins.*1 = mid ++ buf_cells (length (dw_blocks (w_d w))) nb /\ outs.*1 = mid ++ taken.
  Lemma cons0 w w' : bal (w_d w) (w_d w') [] [] -> cons_step w w' [] [].
  Proof. intros H. by exists [], [], [], [], []. Qed.
  Lemma cons_fresh w w' base vals d p len : (forall c, is_Some (dw_mem (w_d w) !! c) -> (fst c < length (dw_blocks (w_d w)))%nat) ->
    new_block (w_d w) base vals = (d, p, len) -> bal d (w_d w') [] [] -> cons_step w w' vals [].
  Proof.
    intros Hc E H. pose proof (new_block_bal (w_d w) base vals Hc) as Hb. rewrite E in Hb.
    pose proof (bal_trans _ _ _ _ _ _ _ _ _ Hb H) as Ht. rewrite !app_nil_r in Ht.
    eexists _, _, _, [], []. split; [exact Ht|]. cbn. rewrite app_nil_r. split_and!; [|done| |done].
    - apply snd_zip. rewrite rng_cells_length. cbn. lia.
    - apply fst_zip. rewrite rng_cells_length. cbn. lia.
  Qed.
  Lemma ret_replace_cons w s hs p len i v w' r (put : out V -> list V) : (w_d w) = fst s ->
    ret_replace sz s hs p len i v = Ok (w', r) -> put RPanic = [] -> (forall old, put (RVal old) = [v]) -> cons_step w w' (put r) (got r).
  Proof.
    intros Hs. unfold ret_replace. destruct (i <? len)%N.
    - destruct (mem_replace sz _ _ _) as [[d old]| | |] eqn:E; cbn; try done. intros [= <- <-] _ ->. rewrite <- Hs in E. apply mem_replace_bal in E.
      cbn. by eexists [], _, _, [_], [].
    - intros [= <- <-] -> _. apply cons0. cbn. rewrite Hs. apply bal_refl.
  Qed.
  Lemma ret_slice_cons w s hs p len w' r : w_d w = fst s -> ret_slice sz s hs p len = Ok (w', r) ->
    w_d w' = w_d w /\ got r = [].
  Proof. intros Hs. unfold ret_slice. destruct (mem_read _ _ _ _); cbn; try done. by intros [= <- <-]. Qed.

  Ltac bd E := match type of E with (?m ≫= _) = Ok _ => let x := fresh "x" in let Ex := fresh "Ex" in
    destruct m as [x| | |] eqn:Ex; cbn [mbind res_bind] in E; try done end.

  Lemma from_boxed_same (d : dworld V) p len : bal d (fst (data_from_boxed_slice d p len)) [] [].
  Proof. unfold data_from_boxed_slice. destruct (_ =? _)%N; by apply bal_same. Qed.
  Lemma split_alloc_same (d : dworld V) p len : bal d (fst (fst (split_alloc_from_items sz d p len))) [] [].
  Proof. unfold split_alloc_from_items. destruct (_ || _)%N; by apply bal_same. Qed.
  Lemma mut_fresh w base vals s' m hs : (forall c, is_Some (dw_mem (w_d w) !! c) -> (fst c < length (dw_blocks (w_d w)))%nat) ->
    mut_from_boxed_slice sz (w_d w, w_g w) base vals = (s', m) -> cons_step w (W (fst s') (snd s') hs) vals [].
  Proof.
    intros Hc. unfold mut_from_boxed_slice. destruct (new_block _ _ _) as [[d p] len] eqn:En. cbn [fst snd] in En.
    pose proof (split_alloc_same d p len) as H. destruct (split_alloc_from_items sz d p len) as [[d1 it] al]. intros [= <- <-].
    by eapply cons_fresh.
  Qed.

  Lemma step_cons w a o w' r : rel w a -> rstep cf w o = Ok (w', r) -> cons_step w w' (put cf w o r) (got r).
  Proof.
    intros R E.
    assert (forall c, is_Some (dw_mem (w_d w) !! c) -> (fst c < length (dw_blocks (w_d w)))%nat) as Hc.
    { intros c Hs. destruct (fact_block _ _ _ R c Hs) as (blk & Hb & _). by eapply lookup_lt_Some. }
    unfold rstep in E. destruct o; cbn [step] in E; cbn [put].
    - destruct (_ <? _)%N; [|injection E as <- <-; apply cons0, bal_refl]. unfold rcs_from_boxed_slice in E.
      destruct (new_block _ _ _) as [[d p] len] eqn:En. cbn [fst snd] in En. pose proof (from_boxed_same d p len) as H.
      destruct (data_from_boxed_slice d p len) as [d1 n]. unfold rcs_from_unique_data in E. repeat bd E. destruct x as [s r'].
      destruct (img_new _) as [[g i]| | |]; cbn in Ex; try done. injection Ex as <- <-. injection E as <- <-. by eapply cons_fresh.
    - destruct (_ <? _)%N; [|injection E as <- <-; apply cons0, bal_refl].
      destruct (mut_from_boxed_slice _ _ _ _) as [s' m] eqn:Em. injection E as <- <-. by eapply mut_fresh.
    - injection E as <- <-. apply cons0, bal_refl.
    - destruct (get_h w _) as [[rr|dd g|it|m|m|m]|]; try (injection E as <- <-; apply cons0, bal_refl); bd E.
      + destruct x as [s r']. injection E as <- <-. apply cons0. by apply rcs_clone_bal in Ex.
      + injection E as <- <-. apply cons0. unfold weak_clone in Ex. bd Ex. injection Ex as <-. apply bal_refl.
      + destruct x as [s r']. injection E as <- <-. apply cons0. unfold bpi_clone in Ex. bd Ex. destruct x as [s1 l1]. injection Ex as <- <-. by apply clone_all_bal in Ex0.
    - destruct (get_h w h) as [[rr|dd g|it|m|m|m]|] eqn:Eg; try (injection E as <- <-; apply cons0, bal_refl); bd E.
      destruct x as [s m']. injection E as <- <-. unfold mut_clone in Ex. cbn [fst] in Ex. bd Ex.
      assert (exists adr, view cf w h = Some (adr, x)) as [adr ->].
      { unfold view, rstep. cbn [step]. rewrite Eg. unfold ret_slice. cbn [fst]. rewrite Ex0. cbn. eauto. }
      injection Ex as Ex. by eapply mut_fresh.
    - destruct (get_h w _) as [[rr|dd g|it|m|m|m]|]; try (injection E as <- <-; apply cons0, bal_refl); bd E.
      destruct x as [s r']. injection E as <- <-. apply cons0. destruct side; [by apply rcs_clone_right_bal in Ex|by apply rcs_clone_left_bal in Ex].
    - destruct (get_h w _) as [[rr|dd g|it|m|m|m]|]; try (injection E as <- <-; apply cons0, bal_refl); bd E.
      + destruct x as [s [r1 r2]]. injection E as <- <-. apply cons0. destruct side; [by apply rcs_split_right_bal in Ex|by apply rcs_split_left_bal in Ex].
      + destruct x as [s [r1 r2]]. injection E as <- <-. apply cons0. unfold mut_split_off in Ex. destruct (if side then _ else _) as [x1 x2]. bd Ex. injection Ex as <- <- <-. by apply alloc_clone_bal in Ex0.
    - destruct (negb _); [injection E as <- <-; apply cons0, bal_refl|].
      destruct (get_h w _) as [[rr|dd g|it|m|m|m]|]; try (injection E as <- <-; apply cons0, bal_refl).
      + destruct (bpi_new _ _ _ _); try done; [injection E as <- <-; apply cons0, bal_refl|]. bd E. injection E as <- <-. apply cons0. by apply rcs_drop_bal in Ex.
      + destruct (mut_split_into_parts _ _); try done; [injection E as <- <-; apply cons0, bal_refl|]. bd E. injection E as <- <-. apply cons0. by apply items_alloc_drop_bal in Ex.
    - destruct (get_h w _) as [[rr|dd g|it|m|m|m]|]; try (injection E as <- <-; apply cons0, bal_refl). bd E.
      destruct x as [[p len]|]; [|injection E as <- <-; apply cons0, bal_refl]. apply (ret_slice_cons w) in E as [E ->]; [|done]. apply cons0. rewrite E. apply bal_refl.
    - destruct (get_h w _) as [[rr|dd g|it|m|m|m]|]; try (injection E as <- <-; apply cons0, bal_refl). bd E.
      destruct x as [[p len]|]; [|injection E as <- <-; apply cons0, bal_refl].
      by apply (ret_replace_cons w _ _ _ _ _ _ _ _ (fun r => match r with RVal _ => [v] | _ => [] end)) in E.
    - destruct (get_h w _) as [[rr|dd g|it|m|m|m]|]; try (injection E as <- <-; apply cons0, bal_refl). bd E.
      destruct x as [s x]. assert (bal (w_d w) (fst s) [] []) as H; [|destruct x; injection E as <- <-; by apply cons0].
      unfold rcs_into_mut in Ex. destruct (_ =? _)%nat; [|injection Ex as <- <-; apply bal_refl]. bd Ex. destruct x0 as [hh [n|]].
      + bd Ex. destruct x0 as [d [it al]]. bd Ex. injection Ex as <- <-. apply data_into_mut_bal in Ex1. eapply bal_trans0; [|exact Ex1]. by apply bal_same.
      + injection Ex as <- <-. by apply bal_same.
    - destruct (get_h w _) as [[rr|dd g|it|m|m|m]|]; try (injection E as <- <-; apply cons0, bal_refl). bd E.
      destruct x as [s x]. injection E as <- <-. apply cons0. unfold mut_into_immut, rcs_from_unique_data in Ex. unfold data_new in Ex. cbn [rc_new fst snd] in Ex. bd Ex. destruct x0 as [g i].
      injection Ex as <- <-. by apply bal_same.
    - destruct (get_h w _) as [[rr|dd g|it|m|m|m]|]; try (injection E as <- <-; apply cons0, bal_refl). bd E.
      destruct x as [s [d g]]. injection E as <- <-. apply cons0. unfold rcs_downgrade in Ex. bd Ex. bd Ex. bd Ex. injection Ex as <- <- <-. apply bal_refl.
    - destruct (get_h w _) as [[rr|dd g|it|m|m|m]|]; try (injection E as <- <-; apply cons0, bal_refl). bd E.
      destruct x as [s x]. assert (bal (w_d w) (fst s) [] []) as H; [|destruct x; injection E as <- <-; by apply cons0].
      unfold weak_upgrade in Ex. destruct (rc_upgrade _ _) as [hh [d|]]; [|injection Ex as <- <-; apply bal_refl]. bd Ex. destruct x0 as [gw i]. injection Ex as <- <-. by apply bal_same.
    - destruct (get_h w _) as [x|]; [|injection E as <- <-; apply cons0, bal_refl]. bd E. injection E as <- <-. apply cons0. by apply handle_drop_bal in Ex.
    - destruct (get_h w _) as [[rr|dd g|it|m|m|m]|]; try (injection E as <- <-; apply cons0, bal_refl); try (bd E; destruct x as [p len]);
        (apply (ret_slice_cons w) in E as [E ->]; [|done]; apply cons0; rewrite E; apply bal_refl).
    - destruct (get_h w _) as [[rr|dd g|it|m|m|m]|]; try (injection E as <- <-; apply cons0, bal_refl); try (bd E; destruct x as [p len]);
        by apply (ret_replace_cons w _ _ _ _ _ _ _ _ (fun r => match r with RVal _ => [v] | _ => [] end)) in E.
    - destruct (get_h w _) as [[rr|dd g|it|m|m|m]|]; injection E as <- <-; apply cons0, bal_refl.
    - destruct (get_h w _) as [[rr|dd g|it|m|m|m]|]; try (injection E as <- <-; apply cons0, bal_refl); bd E.
      + destruct x as [[s it'] x]. assert (bal (w_d w) (fst s) [] []) as H; [by apply (parts_next_bal _ _ _ back) in Ex|]. destruct x; injection E as <- <-; by apply cons0.
      + destruct x as [[d m'] x]. injection E as <- <-. unfold iter_next in Ex. bd Ex. destruct x0 as [it o]. bd Ex. destruct x0 as [d1 item]. bd Ex.
        assert (bal d1 d [] [] /\ item = x) as [Hb ->].
        { destruct (_ =? _)%N; [bd Ex; injection Ex as <- <- <-; by apply alloc_release_bal in Ex3|injection Ex as <- <- <-; split; [apply bal_refl|done]]. }
        destruct o as [p|].
        * destruct (mem_take _ _ _) as [[d2 v]| | |] eqn:Et; cbn in Ex1; try done. injection Ex1 as <- <-. apply mem_take_bal in Et.
          pose proof (bal_trans _ _ _ _ _ _ _ _ _ Et Hb) as H. cbn in H |- *. by eexists [], [], _, [], [_].
        * injection Ex1 as <- <-. by apply cons0.
      + destruct x as [[d m'] x]. assert (bal (w_d w) d [] []) as H; [|destruct x; injection E as <- <-; by apply cons0].
        unfold mparts_next in Ex. bd Ex. destruct x0 as [it [items|]]; [|injection Ex as <- <- <-; apply bal_refl]. bd Ex. destruct x0 as [p l].
        destruct (_ =? _)%N; [injection Ex as <- <- <-; apply bal_refl|]. destruct (_ <? _)%N; [bd Ex; injection Ex as <- <- <-; by apply alloc_clone_bal in Ex2|injection Ex as <- <- <-; apply bal_refl].
    - destruct (get_h w _) as [[rr|dd g|it|m|m|m]|]; try (injection E as <- <-; apply cons0, bal_refl).
      destruct (iter_split_off _ _ _ _ _) as [[d [m1 m2]]| | |] eqn:Ex; try done; [|injection E as <- <-; apply cons0, bal_refl].
      injection E as <- <-. apply cons0. cbn. unfold iter_split_off in Ex. bd Ex. destruct x as [s1 s2]. bd Ex. destruct (_ =? _)%N; [injection Ex as <- <- <-; apply bal_refl|].
      bd Ex. destruct (_ <? _)%N; [bd Ex; injection Ex as <- <- <-; by apply alloc_clone_bal in Ex3|injection Ex as <- <- <-; apply bal_refl].
    - destruct (get_h w _) as [[rr|dd g|it|m|m|m]|]; try (injection E as <- <-; apply cons0, bal_refl); bd E; injection E as <- <-; apply cons0, bal_refl.
  Qed.

  Lemma drops_cells (nd : list (event V)) : omap (fun e => match e with EDrop b i _ => Some (b, i) | EFree _ _ _ => None end) nd = (drops nd).*1.
  Proof. induction nd as [|[b i v|b ad cp] nd IH]; [done| |done]. cbn. f_equal. exact IH. Qed.
  Lemma drops_vals (nd : list (event V)) : omap (fun e => match e with EDrop _ _ v => Some v | EFree _ _ _ => None end) nd = (drops nd).*2.
  Proof. induction nd as [|[b i v|b ad cp] nd IH]; [done| |done]. cbn. f_equal. exact IH. Qed.
  Lemma buf_cells_app bs bs' : forall b, buf_cells b (bs ++ bs') = buf_cells b bs ++ buf_cells (b + length bs) bs'.
  Proof.
    induction bs as [|[ad len] bs IH]; intros b; cbn; [by rewrite Nat.add_0_r|]. rewrite IH, <- app_assoc. do 3 f_equal. lia.
  Qed.
  Lemma buf_cells_elem bs : forall b c, c ∈ buf_cells b bs <-> exists i ad len, bs !! i = Some (ad, len) /\ fst c = (b + i)%nat /\ (snd c < len)%N.
  Proof.
    induction bs as [|[ad len] bs IH]; intros b c; cbn; [split; [by intros ?%elem_of_nil|by intros (i & ? & ? & ? & _)]|].
    rewrite elem_of_app, IH, rng_cells_elem. cbn. split.
    - intros [(H1 & H2 & H3)|(i & ad' & len' & H1 & H2 & H3)]; [exists 0%nat, ad, len; repeat split; lia|exists (S i), ad', len'; repeat split; [done|lia|done]].
    - intros ([|i] & ad' & len' & H1 & H2 & H3); cbn in H1; [left; injection H1 as <- <-; lia|right; exists i, ad', len'; repeat split; [done|lia|done]].
  Qed.
  Lemma buf_cells_NoDup bs : forall b, NoDup (buf_cells b bs).
  Proof.
    induction bs as [|[ad len] bs IH]; intros b; cbn; [apply NoDup_nil_2|]. apply NoDup_app. split_and!; [apply rng_cells_NoDup| |done].
    intros c [H1 _]%rng_cells_elem (i & ? & ? & _ & H2 & _)%buf_cells_elem. cbn in H1. lia.
  Qed.

  (** What one call does to items and buffers. *)
  Lemma step_conserve ops w o w' r : reach cf ops w -> rstep cf w o = Ok (w', r) ->
    exists nd nf taken, dropped w' = dropped w ++ nd.*2 /\ dropped_cells w' = dropped_cells w ++ nd.*1 /\ freed w' = freed w ++ nf /\
      contents w ++ put cf w o r ≡ₚ contents w' ++ nd.*2 ++ got r /\
      buf_cells 0 (bshape (w_d w)) `prefix_of` buf_cells 0 (bshape (w_d w')) /\
      (map_to_list (dw_mem (w_d w))).*1 ++ drop (length (buf_cells 0 (bshape (w_d w)))) (buf_cells 0 (bshape (w_d w'))) ≡ₚ
        (map_to_list (dw_mem (w_d w'))).*1 ++ nd.*1 ++ taken /\
      (forall b, is_freed (w_d w') b <-> is_freed (w_d w) b \/ b ∈ nf) /\ NoDup nf /\ (forall b, b ∈ nf -> ~ is_freed (w_d w) b) /\
      (length taken <= length (got r))%nat.
  Proof.
    intros Hr E. apply (step_cons _ _ _ _ _ (reach_rel _ _ _ Hr)) in E as (nb & ins & outs & mid & taken & (nd & T & M & B & F & D & N & L) & Ev & Eg & Ei & Eo).
    exists (drops nd), (frees nd), taken. unfold dropped, dropped_cells, freed, contents. rewrite T, !omap_snoc, <- drops_cells, <- drops_vals.
    assert (length (dw_blocks (w_d w)) = length (bshape (w_d w))) as Hl by (by unfold bshape; rewrite fmap_length).
    split_and!; try done.
    - rewrite drops_vals. rewrite <- Ev, <- Eg, <- !fmap_app, <- M. by rewrite fmap_app.
    - rewrite B, buf_cells_app. by apply prefix_app_r.
    - rewrite B, buf_cells_app, drop_app. cbn [Nat.add]. rewrite drops_cells. rewrite <- Hl.
      apply (Permutation_app_inv_l mid). assert ((map_to_list (dw_mem (w_d w))).*1 ++ ins.*1 ≡ₚ (map_to_list (dw_mem (w_d w'))).*1 ++ (drops nd).*1 ++ outs.*1) as H.
      { rewrite <- !fmap_app. by rewrite M. }
      rewrite Ei, Eo in H. transitivity ((map_to_list (dw_mem (w_d w))).*1 ++ mid ++ buf_cells (length (dw_blocks (w_d w))) nb); [solve_Permutation|].
      rewrite H. solve_Permutation.
    - rewrite <- Eg, fmap_length. apply (f_equal length) in Eo. rewrite fmap_length, app_length in Eo. lia.
  Qed.

  Lemma put_run_app w ops o w' outs r w'' : rrun cf w ops = Ok (w', outs) -> rstep cf w' o = Ok (w'', r) ->
    put_run cf w (ops ++ [o]) = put_run cf w ops ++ put cf w' o r.
  Proof.
    revert w outs. induction ops as [|o' ops IH]; intros w outs E1 E2.
    - injection E1 as <- <-. cbn. rewrite E2. by rewrite app_nil_r.
    - unfold rrun in E1. cbn in E1. fold (rstep cf w o') in E1. destruct (rstep cf w o') as [[w1 r1]| | |] eqn:E; cbn in E1; try done.
      fold (rrun cf w1 ops) in E1. destruct (rrun cf w1 ops) as [[w2 rs]| | |] eqn:E3; cbn in E1; try done. injection E1 as -> <-.
      cbn. rewrite E. by rewrite (IH _ _ E3 E2), app_assoc.
  Qed.

  (** C06: nothing is lost and nothing disposed of twice. *)
  Lemma conserved ops : forall w outs, rrun cf empty_world ops = Ok (w, outs) ->
    put_run cf empty_world ops ≡ₚ contents w ++ dropped w ++ got_run outs /\
    (exists taken, (map_to_list (dw_mem (w_d w))).*1 ++ dropped_cells w ++ taken ≡ₚ buf_cells 0 (bshape (w_d w)) /\
      (length taken <= length (got_run outs))%nat) /\
    (forall b, is_freed (w_d w) b <-> b ∈ freed w) /\ NoDup (freed w).
  Proof.
    induction ops as [|o ops IH] using rev_ind; intros w outs E.
    - injection E as <- <-. split_and!; [by apply Permutation_refl| |by (intros b; split; [intros (? & ? & _)|intros ?%elem_of_nil])|apply NoDup_nil_2].
      exists []. cbn. split; [done|lia].
    - rewrite rrun_app in E. destruct (rrun cf empty_world ops) as [[w1 rs]| | |] eqn:E1; cbn in E; try done.
      rewrite rrun_1 in E. destruct (rstep cf w1 o) as [[w2 r]| | |] eqn:E2; cbn in E; try done. injection E as <- <-.
      destruct (IH _ _ eq_refl) as (H1 & (tk & H2 & H2') & H3 & H4). rewrite (put_run_app _ _ _ _ _ _ _ E1 E2).
      assert (reach cf ops w1) as Hr by (by eexists).
      destruct (step_conserve _ _ _ _ _ Hr E2) as (nd & nf & taken & Dv & Dc & Df & C & P & Cc & F & N1 & N2 & Ht).
      split_and!.
      + rewrite H1, Dv. unfold got_run. rewrite bind_app. cbn. rewrite app_nil_r. transitivity ((contents w1 ++ put cf w1 o r) ++ dropped w1 ++ got_run rs); [solve_Permutation|].
        rewrite C. unfold got_run. solve_Permutation.
      + exists (tk ++ taken). split; [|unfold got_run in *; rewrite bind_app, !app_length; cbn; rewrite app_nil_r; lia].
        destruct P as [nc P]. rewrite P in *. rewrite drop_app in Cc. rewrite <- H2, Dc.
        transitivity (((map_to_list (dw_mem (w_d w1))).*1 ++ nc) ++ dropped_cells w1 ++ tk); [|solve_Permutation]. rewrite Cc. solve_Permutation.
      + intros b. rewrite F, H3, Df, elem_of_app. done.
      + rewrite Df. apply NoDup_app. split_and!; [done| |done]. intros b Hb Hb'. apply (N2 b Hb'). by apply H3.
  Qed.
  Lemma conserved_items ops w outs : rrun cf empty_world ops = Ok (w, outs) ->
    put_run cf empty_world ops ≡ₚ contents w ++ dropped w ++ got_run outs.
  Proof. intros E. by destruct (conserved _ _ _ E). Qed.
  Lemma freed_once ops w : reach cf ops w -> NoDup (freed w).
  Proof. intros [outs E]. by destruct (conserved _ _ _ E) as (_ & _ & _ & ?). Qed.
  Lemma dropped_once ops w : reach cf ops w -> NoDup (dropped_cells w) /\ (forall c, c ∈ dropped_cells w -> item w c = None) /\
    (forall c, c ∈ dropped_cells w -> exists blk, dw_blocks (w_d w) !! fst c = Some blk /\ (snd c < b_len blk)%N).
  Proof.
    intros [outs E]. destruct (conserved _ _ _ E) as (_ & (tk & H & _) & _).
    pose proof (buf_cells_NoDup (bshape (w_d w)) 0) as Hn. rewrite <- H in Hn. apply NoDup_app in Hn as (_ & Hx & Hn). apply NoDup_app in Hn as (Hn & _).
    split_and!; [done| |].
    - intros c Hc. unfold item. apply eq_None_not_Some. intros [v Hv]. apply (Hx c); [|apply elem_of_app; by left].
      apply elem_of_list_fmap. exists (c, v). split; [done|]. by apply elem_of_map_to_list.
    - intros c Hc. assert (c ∈ buf_cells 0 (bshape (w_d w))) as Hb; [rewrite <- H, !elem_of_app; tauto|].
      apply buf_cells_elem in Hb as (i & ad & len & H1 & H2 & H3). cbn in H2. subst i. unfold bshape in H1. rewrite list_lookup_fmap in H1.
      destruct (dw_blocks (w_d w) !! fst c) as [blk|]; [|done]. injection H1 as <- <-. eauto.
  Qed.
  (** C26 *)
  Lemma freed_layout ops w b addr cap : reach cf ops w -> EFree b addr cap ∈ dw_trace (w_d w) ->
    exists blk, dw_blocks (w_d w) !! b = Some blk /\ b_base blk = addr /\ b_len blk = cap.
  Proof.
    intros [outs E] H. assert (bshape (w_d w) !! b = Some (addr, cap)) as Hb.
    2: { unfold bshape in Hb. rewrite list_lookup_fmap in Hb. destruct (dw_blocks (w_d w) !! b) as [blk|]; [|done]. injection Hb as <- <-. eauto. }
    revert w outs E H. induction ops as [|o ops IH] using rev_ind; intros w outs E H.
    - injection E as <- <-. by apply elem_of_nil in H.
    - rewrite rrun_app in E. destruct (rrun cf empty_world ops) as [[w1 rs]| | |] eqn:E1; cbn in E; try done.
      rewrite rrun_1 in E. destruct (rstep cf w1 o) as [[w2 r]| | |] eqn:E2; cbn in E; try done. injection E as <- <-.
      apply (step_cons _ _ _ _ _ (reach_rel _ ops w1 ltac:(by eexists))) in E2 as (nb & ins & outs & mid & taken & (nd & T & M & B & F & D & N & L) & _).
      rewrite T in H. apply elem_of_app in H as [H|H]; [|by apply L]. rewrite B. apply lookup_app_l_Some. by eapply IH.
  Qed.
  Lemma not_freed_early ops w h c : reach cf ops w -> sz <> 0%N -> c ∈ h_cells cf w h -> fst c ∉ freed w.
  Proof.
    intros Hr Hs Hc. pose proof (reach_rel _ _ _ Hr) as R. destruct Hr as [outs E]. destruct (conserved _ _ _ E) as (_ & _ & Hf & _). intros Hin. apply Hf in Hin as (blk & Hb & Hfr).
    rewrite (fact_h_cells _ _ _ R cf h eq_refl) in Hc. destruct (a_get (hist cf ops) h) as [x|] eqn:Ex; [|by apply elem_of_nil in Hc].
    pose proof (fact_covered _ _ _ R _ _ _ Ex Hc) as Hs'. pose proof R as (P & _ & _ & _ & Hm & _). rewrite Hm in Hs'.
    destruct (fact_block _ _ _ (reach_rel _ _ _ (ex_intro _ outs E)) c Hs') as (blk' & Hb' & _ & _ & Hn). rewrite Hb in Hb'. injection Hb' as <-. rewrite Hn in Hfr; done.
  Qed.
  Lemma end_disposed ops w outs : rrun cf empty_world ops = Ok (w, outs) -> (forall h, get_h w h = None) ->
    put_run cf empty_world ops ≡ₚ dropped w ++ got_run outs /\ dw_mem (w_d w) = ∅.
  Proof.
    intros E Hh. destruct (conserved _ _ _ E) as (H & _). assert (reach cf ops w) as Hr by (by eexists). pose proof (reach_rel _ _ _ Hr) as R.
    assert (dw_mem (w_d w) = ∅) as Hm.
    { apply map_empty. intros c. apply eq_None_not_Some. intros Hs. pose proof R as (P & _ & _ & _ & Hm & _). rewrite <- Hm in Hs.
      apply (fact_alive _ _ _ R) in Hs as (h & x & Hx & _). pose proof (rel_kind _ _ _ R h) as Hk. by rewrite Hh, Hx in Hk. }
    unfold contents in H. rewrite Hm, map_to_list_empty in H. done.
  Qed.
End theory.
