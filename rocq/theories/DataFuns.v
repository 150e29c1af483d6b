(** The functions of DataModel.v preserve the invariant of DataInv.v, and never
    run into undefined behaviour or out of fuel. *)
From Verif Require Import Base BaseLemmas SliceItemsModel DataModel Spec SliceItemsProof DataInv DataSteps.
Local Open Scope N_scope.

Section funs.
  Context {V : Type} (sz : N).
  Notation dworld := (dworld V).
  Notation dinv := (@dinv V sz).
  Notation ent_ok := (@ent_ok V sz).

  Lemma left_sub_rel base n q len : points sz base (p_blk (d_ptr n)) (p_idx (d_ptr n)) (d_ptr n) ->
    left_sub n = (q, len) ->
    Rng (p_blk q) (p_idx q) len = half false (nrng n) /\ points sz base (p_blk q) (p_idx q) q /\ p_blk q = p_blk (d_ptr n).
  Proof. intros Hp [= <- <-]. rewrite shr1_div. done. Qed.
  Lemma right_sub_rel base n q len : points sz base (p_blk (d_ptr n)) (p_idx (d_ptr n)) (d_ptr n) ->
    right_sub sz n = (q, len) ->
    Rng (p_blk q) (p_idx q) len = half true (nrng n) /\ points sz base (p_blk q) (p_idx q) q /\ p_blk q = p_blk (d_ptr n).
  Proof.
    intros Hp [= <- <-]. rewrite shr1_div.
    pose proof (points_mid sz _ _ _ _ (d_len n / 2) Hp) as Hm. destruct (sz =? 0); cbn in *; done.
  Qed.

  (** [clone_left]/[clone_right] of a node. *)
  Lemma data_clone_half_ok w T L R O d s n l (side : bool) :
    dinv w T L R O -> live (dw_datas w) d s n -> L !! d = Some l ->
    exists (w' : dworld) (c : nat) (X : list label), (if side then data_clone_right sz w d else data_clone_left w d) = Ok (w', c) /\
      (L ++ X) !! c = Some (lchild l side) /\ dinv w' T (L ++ X) (c :: R) O /\
      dw_mem w' = dw_mem w /\ bshape w' = bshape w /\ dw_trace w' = dw_trace w /\
      X = (if d_child side n then [] else [lchild l side]).
  Proof.
    intros I Hv Hl.
    assert (forall q len, Rng (p_blk q) (p_idx q) len = half side (nrng n) ->
      points sz (bbase (bshape w) (p_blk q)) (p_blk q) (p_idx q) q ->
      exists (w' : dworld) (c : nat) (X : list label), data_clone_child w d side q len = Ok (w', c) /\
      (L ++ X) !! c = Some (lchild l side) /\ dinv w' T (L ++ X) (c :: R) O /\
      dw_mem w' = dw_mem w /\ bshape w' = bshape w /\ dw_trace w' = dw_trace w /\
      X = (if d_child side n then [] else [lchild l side])) as H.
    { intros q len Hq Hpt. unfold data_clone_child. rewrite (rc_val_live _ _ _ _ Hv). res_simpl.
      destruct (d_child side n) as [c|] eqn:Hc.
      - destruct (dinv_linked_live sz _ _ _ _ _ I _ _ _ _ _ Hv Hc) as (sc & m & Hm).
        rewrite (rc_inc_live _ _ _ _ Hm). res_simpl.
        destruct (di_link _ _ _ _ _ _ I _ _ _ _ _ _ Hv Hl Hc) as [_ Hlc].
        do 2 eexists. exists []. rewrite app_nil_r. split_and!; try done. by apply dinv_inc.
      - set (al := if len =? 0 then None else d_alloc n).
        pose proof (di_nalloc _ _ _ _ _ _ I _ _ _ Hv) as Hent.
        assert (rng_ok (bshape w) (Rng (p_blk (d_ptr n)) (p_idx (d_ptr n)) 0)) as Hro.
        { eapply rng_ok_sub; [apply Hent|]. cbn. lia. }
        destruct (alloc_clone_ok sz w T L R O al (p_blk (d_ptr n)) (p_idx (d_ptr n)) I Hro) as (h & -> & I1 & Hk).
        { intros a Ha. eapply dinv_alloc_live; [exact I|].
          assert (d_alloc n = Some a) as E by (unfold al in Ha; by destruct (len =? 0)).
          pose proof (hsum_ge (fun n => cnt a (option_list (d_alloc n))) _ _ _ _ Hv) as Hge. cbn beta in Hge.
          rewrite E in Hge. cbn in Hge. rewrite cnt_cons, decide_True in Hge by done. lia. }
        res_simpl. cbn [data_new rc_new dw_datas dw_set_allocs dw_set_datas].
        set (D := dw_datas w). set (m := DNode q len al None None).
        assert (live (D ++ [Some (1%nat, m)]) (length D) 1 m) as Hm.
        { unfold live. by rewrite list_lookup_middle. }
        rewrite (rc_inc_live _ _ _ _ Hm). res_simpl.
        assert (<[length D := Some (2%nat, m)]> (D ++ [Some (1%nat, m)]) = D ++ [Some (2%nat, m)]) as ->.
        { rewrite insert_app_r_alt, Nat.sub_diag by done. done. }
        rewrite (rc_set_live _ d s n) by (by apply live_app_l). res_simpl.
        do 2 eexists. exists [lchild l side]. split; [done|].
        split; [unfold D; by rewrite <- (di_len _ _ _ _ _ _ I), list_lookup_middle|]. split_and!; try done.
        pose proof (new_child_ok sz (dw_set_allocs w h) T L R O d s n l side q len al _ _ I1 Hv Hl Hc Hq Hpt) as H.
        apply H. apply Hk. apply ent_ok_half with (side := side) in Hent. rewrite <- Hq in *.
        unfold al. destruct (N.eqb_spec len 0) as [->|]; [|done]. split; [apply Hent|]. by cbn. }
    destruct (di_geo _ _ _ _ _ _ I _ _ _ _ Hv Hl) as [Hg Hpt].
    destruct side; unfold data_clone_right, data_clone_left; rewrite (rc_val_live _ _ _ _ Hv); res_simpl.
    - destruct (right_sub sz n) as [q len] eqn:E.
      destruct (right_sub_rel _ _ _ _ Hpt E) as (H1 & H2 & H3). apply H; [done|]. by rewrite H3 in H2 |- *.
    - destruct (left_sub n) as [q len] eqn:E.
      destruct (left_sub_rel _ _ _ _ Hpt E) as (H1 & H2 & H3). apply H; [done|]. by rewrite H3 in H2 |- *.
  Qed.

  (** *** Dropping *)
  Lemma data_release_ok T L : forall fuel w d R O, (length (dw_datas w) - d < fuel)%nat ->
    dinv w T L (d :: R) O ->
    exists w', data_release sz fuel w d = Ok w' /\ dinv w' T L R O /\ shr w w'.
  Proof.
    induction fuel as [|fuel IH]; intros w d R O Hf I; [lia|].
    destruct (dinv_ref_live sz _ _ _ _ _ I d) as (s & n & l & Hv & Hl); [left|].
    assert (s <> 0%nat) by (intros ->; by eapply di_pos).
    cbn [data_release]. unfold rc_dec. rewrite Hv.
    destruct s as [|[|s]]; [done| |].
    2:{ res_simpl. eexists. split; [done|]. split; [by eapply dinv_dec|]. split_and!; try done. cbn. by rewrite insert_length. }
    res_simpl.
    pose proof (dinv_unlink sz _ _ _ _ _ _ _ I Hv) as I1.
    destruct (di_geo _ _ _ _ _ _ I _ _ _ _ Hv Hl) as [Hg Hpt].
    pose proof (fun c => di_link _ _ _ _ _ _ I _ _ _ _ false c Hv Hl) as Hll.
    pose proof (fun c => di_link _ _ _ _ _ _ I _ _ _ _ true c Hv Hl) as Hlr.
    pose proof (live_lt _ _ _ _ Hv) as Hlt.
    set (w1 := dw_set_datas w (<[d := None]> (dw_datas w))) in *.
    assert (shr w w1) as S1. { split_and!; try done. cbn. by rewrite insert_length. }
    (* left child *)
    assert (exists w2, match d_left n with None => Ok w1 | Some c => data_release sz fuel w1 c end = Ok w2 /\
      dinv w2 T L (option_list (d_right n) ++ R) ((own_rng n, d_alloc n) :: O) /\ shr w1 w2) as (w2 & E2 & I2 & S2).
    { unfold kids in I1. destruct (d_left n) as [c|] eqn:Hc.
      - destruct (Hll c Hc) as [Hdc Hlc]. apply IH; [|done]. destruct S1 as (_ & _ & ->). lia.
      - exists w1. split_and!; try done. }
    rewrite E2. res_simpl.
    assert (exists w3, match d_right n with None => Ok w2 | Some c => data_release sz fuel w2 c end = Ok w3 /\
      dinv w3 T L R ((own_rng n, d_alloc n) :: O) /\ shr w2 w3) as (w3 & E3 & I3 & S3).
    { destruct (d_right n) as [c|] eqn:Hc.
      - destruct (Hlr c Hc) as [Hdc Hlc]. apply IH; [|done]. destruct S2 as (_ & _ & ->), S1 as (_ & _ & ->). lia.
      - exists w2. split_and!; try done. }
    rewrite E3. res_simpl.
    pose proof (shr_trans _ _ _ S1 (shr_trans _ _ _ S2 S3)) as S03.
    assert (exists w4 b lo, match d_left n, d_right n with
                | None, None => drop_in_place sz w3 (N.to_nat (d_len n)) (d_ptr n)
                | Some _, None => let '(p, len) := right_sub sz n in drop_in_place sz w3 (N.to_nat len) p
                | None, Some _ => let '(p, len) := left_sub n in drop_in_place sz w3 (N.to_nat len) p
                | Some _, Some _ => Ok w3
                end = Ok w4 /\ dinv w4 T L R ((Rng b lo 0, d_alloc n) :: O) /\ shr w3 w4) as (w4 & b & lo & E4 & I4 & S4).
    { assert (forall q len, own_rng n = Rng (p_blk q) (p_idx q) len ->
        points sz (bbase (bshape w) (p_blk q)) (p_blk q) (p_idx q) q ->
        exists w4 b lo, drop_in_place sz w3 (N.to_nat len) q = Ok w4 /\ dinv w4 T L R ((Rng b lo 0, d_alloc n) :: O) /\ shr w3 w4) as Hdr.
      { intros q len Ho Hq. rewrite Ho in I3. replace len with (N.of_nat (N.to_nat len)) in I3 by lia.
        destruct (drop_in_place_ok sz T L R O _ _ _ _ _ q I3) as (w4 & E4 & I4 & S4 & _).
        - destruct S03 as (_ & -> & _). done.
        - eauto 10. }
      unfold own_rng in *. destruct (d_left n) as [cl|], (d_right n) as [cr|].
      - exists w3. do 2 eexists. split_and!; try done.
      - destruct (right_sub sz n) as [q len] eqn:E.
        destruct (right_sub_rel _ _ _ _ Hpt E) as (H1 & H2 & H3). apply Hdr; [done|]. by rewrite H3 in H2 |- *.
      - destruct (left_sub n) as [q len] eqn:E.
        destruct (left_sub_rel _ _ _ _ Hpt E) as (H1 & H2 & H3). apply Hdr; [done|]. by rewrite H3 in H2 |- *.
      - by apply Hdr. }
    rewrite E4. res_simpl.
    destruct (alloc_release_ok sz _ _ _ _ _ _ _ _ I4) as (w5 & E5 & I5 & Hm & Hb & Hd).
    exists w5. split_and!; try done. eapply shr_trans; [exact S03|]. eapply shr_trans; [exact S4|].
    split_and!; [by rewrite Hm|done|by rewrite Hd].
  Qed.
  Lemma data_drop_ok w T L d R O : dinv w T L (d :: R) O ->
    exists w', data_drop sz w d = Ok w' /\ dinv w' T L R O /\ shr w w'.
  Proof. apply data_release_ok. lia. Qed.

  (** *** Converting to a unique slice *)
  (** Only counts of nodes and [SliceAlloc]s change. *)
  Definition quiet (w w' : dworld) : Prop :=
    dw_mem w' = dw_mem w /\ bshape w' = bshape w /\ length (dw_datas w') = length (dw_datas w) /\
    (forall x, dw_datas w !! x = Some None -> dw_datas w' !! x = Some None) /\
    (forall a s v, live (dw_allocs w') a s v -> exists s', live (dw_allocs w) a s' v).
  Lemma quiet_refl w : quiet w w.
  Proof. split_and!; eauto. Qed.
  Lemma quiet_trans w1 w2 w3 : quiet w1 w2 -> quiet w2 w3 -> quiet w1 w3.
  Proof.
    intros (? & ? & ? & ? & Ha) (? & ? & ? & ? & Hb). split_and!; [congruence..|eauto|].
    intros a s v (s' & H')%Hb. eauto.
  Qed.
  Lemma alloc_release_live (w w' : dworld) o : alloc_release sz w o = Ok w' ->
    forall a s v, live (dw_allocs w') a s v -> exists s', live (dw_allocs w) a s' v.
  Proof.
    destruct o as [x|]; cbn; [|intros [= <-]; eauto].
    unfold rc_dec. destruct (dw_allocs w !! x) as [[[[|[|s0]] v0]|]|] eqn:E; try done; res_simpl.
    - intros Hw. assert (dw_allocs w' = <[x := None]> (dw_allocs w)) as ->.
      { revert Hw. unfold salloc_drop. cbn. destruct (_ || _)%N; [by intros [= <-]|].
        destruct (dw_blocks w !! _); [|done]. destruct (_ || _); [done|]. by intros [= <-]. }
      intros a s v [(-> & [=] & _)|[? ?]]%live_insert. eauto.
    - intros [= <-] a s v. cbn. intros [(-> & [= <- <-] & _)|[? ?]]%live_insert; [|eauto]. exists (S (S s0)). done.
  Qed.
  (** A range stays allocated as long as its reference is held. *)
  Lemma ent_ok_keep w w' T L R O r r' o : dinv w' T L R O -> (r', o) ∈ O -> quiet w w' ->
    ent_ok w r o -> ent_ok w' r o.
  Proof.
    intros I Hin (_ & Hb & _ & _ & Ha) [H1 H2]. split; [by rewrite Hb|]. intros Hs Hn.
    destruct (H2 Hs Hn) as (a & s & v & -> & Hv & Hbl).
    destruct (dinv_alloc_live sz w' T L R O a I) as (s' & v' & Hv').
    { assert (0 < cnt a (alloc_refs O))%nat; [|lia]. apply cnt_pos. unfold alloc_refs. apply elem_of_list_bind.
      eexists. split; [|exact Hin]. cbn. set_solver. }
    destruct (Ha _ _ _ Hv') as [s'' Hv'']. destruct (live_fun _ _ _ _ _ _ Hv Hv'') as [_ ->]. eauto 10.
  Qed.

  Definition forget_child (fuel : nat) (w : dworld) (o : option nat) : res dworld :=
    match o with
    | None => Ok w
    | Some c =>
        '(h, r) ← rc_try_unwrap (dw_datas w) c;
        let w := dw_set_datas w h in
        match r with
        | Some child =>
            '(w, child) ← data_forget_items sz fuel w child;
            data_drop_forgotten sz w child
        | None => data_release sz (S (length (dw_datas w))) w c
        end
    end.
  Lemma forget_items_S fuel w n : data_forget_items sz (S fuel) w n =
    (w ← forget_child fuel w (d_left n);
     w ← forget_child fuel w (d_right n);
     Ok (w, DNode (d_ptr n) 0 (d_alloc n) None None)).
  Proof. reflexivity. Qed.

  (** [n] was unwrapped from box [d], labelled [l]. *)
  Definition unwrapped (w : dworld) (T : trees) (L : list label) (d : nat) (l : label) (n : dnode) : Prop :=
    L !! d = Some l /\ dw_datas w !! d = Some None /\ nrng n = lrng T l /\
    (forall side c, d_child side n = Some c -> (d < c)%nat /\ L !! c = Some (lchild l side)).
  Definition forget_spec (T : trees) (L : list label) (fuel : nat) : Prop := forall w n d l a R O,
    (length (dw_datas w) - d < fuel)%nat ->
    dinv w T L (kids n ++ R) ((own_rng n, a) :: O) ->
    unwrapped w T L d l n -> ent_ok w (nrng n) a ->
    (forall x lx side, x ∈ R -> L !! x = Some lx -> ~ anc (lchild l side) lx) ->
    exists w', data_forget_items sz fuel w n = Ok (w', DNode (d_ptr n) 0 (d_alloc n) None None) /\
      dinv w' T L R ((nrng n, a) :: O) /\ quiet w w'.

  Lemma forget_child_ok T L fuel w n d l a R O side c :
    forget_spec T L fuel -> (length (dw_datas w) - d < S fuel)%nat ->
    dinv w T L (c :: R) ((own_rng n, a) :: O) ->
    unwrapped w T L d l n -> ent_ok w (nrng n) a ->
    d_child side n = Some c ->
    (forall x lx, x ∈ R -> L !! x = Some lx -> ~ anc (lchild l side) lx) ->
    exists w', forget_child fuel w (Some c) = Ok w' /\
      dinv w' T L R ((own_rng (d_set_child side None n), a) :: O) /\ quiet w w'.
  Proof.
    intros IH Hf I (Hl & Hdead & Hg & Hlink) He Hc Hno. cbn [forget_child].
    destruct (Hlink _ _ Hc) as [Hdc Hlc].
    destruct (dinv_ref_live sz _ _ _ _ _ I c) as (s & m & lc & Hv & Hlc'); [left|].
    rewrite Hlc in Hlc'. injection Hlc' as <-.
    assert (s = 1%nat) as ->.
    { pose proof (di_cnt _ _ _ _ _ _ I c) as E. rewrite (rc_count_live _ _ _ _ Hv), cnt_cons, decide_True in E by done.
      assert (cnt c R = 0%nat) as E1. { apply cnt_zero. intros Hin. eapply Hno; [exact Hin|exact Hlc|apply anc_refl]. }
      destruct (decide (0 < hsum (fun n => cnt c (kids n)) (dw_datas w))%nat) as [Hh|]; [exfalso|lia].
      destruct (dinv_linked_parent sz _ _ _ _ _ I _ _ Hlc Hh) as (p & s' & n' & lp & side' & Hp & Hlp & Elp & _ & _).
      apply lchild_inj in Elp as [<- _]. assert (p = d) as -> by (eapply dinv_label_inj; eauto).
      unfold live in Hp. congruence. }
    unfold rc_try_unwrap. rewrite Hv. res_simpl.
    pose proof (dinv_unlink sz _ _ _ _ _ _ _ I Hv) as I1.
    destruct (di_geo _ _ _ _ _ _ I _ _ _ _ Hv Hlc) as [Hgm _].
    set (w1 := dw_set_datas w (<[c := None]> (dw_datas w))) in *.
    pose proof (live_lt _ _ _ _ Hv) as Hclt.
    assert (quiet w w1) as Q1.
    { split_and!; try done; cbn; [by rewrite insert_length| |eauto].
      intros x Hx. destruct (decide (c = x)) as [->|]; [by rewrite list_lookup_insert|by rewrite list_lookup_insert_ne]. }
    destruct (IH w1 m c (lchild l side) (d_alloc m) R ((own_rng n, a) :: O)) as (w2 & E2 & I2 & Q2).
    - cbn. rewrite insert_length. lia.
    - done.
    - split_and!; try done.
      + cbn. by rewrite list_lookup_insert.
      + intros side' c' Hc'. eapply (di_link _ _ _ _ _ _ I); eauto.
    - eapply (di_nalloc _ _ _ _ _ _ I); eauto.
    - intros x lx side' Hx Hlx Ha. eapply Hno; [done..|]. eapply anc_trans; [apply anc_child|done].
    - rewrite E2. res_simpl. unfold data_drop_forgotten. cbn [d_alloc].
      assert (quiet w w2) as Q02 by (by eapply quiet_trans).
      assert (ent_ok w2 (nrng n) a) as He2.
      { eapply ent_ok_keep; [exact I2| |exact Q02|exact He]. right. left. }
      assert (nrng m = half side (nrng n)) as Hm by (by rewrite Hgm, lrng_child, Hg).
      assert (dinv w2 T L R ((own_rng (d_set_child side None n), a) :: (Rng (rg_blk (nrng n)) (rg_lo (nrng n)) 0, d_alloc m) :: O)) as I3.
      { rewrite Hm in I2.
        apply (dinv_perm sz _ _ _ _ R _ ((own_rng n, a) :: (half side (nrng n), d_alloc m) :: O)) in I2; [|done|constructor].
        pose proof (div2_le (d_len n)) as Hd2.
        assert (rg_len (nrng n) / 2 + (rg_len (nrng n) - rg_len (nrng n) / 2) = rg_len (nrng n)) as Elen.
        { cbn. revert Hd2. generalize (d_len n / 2). lia. }
        destruct side; unfold own_rng, d_set_child, d_child in *; cbn [d_left d_right]; rewrite Hc in I2.
        - destruct (d_left n) as [cl|] eqn:Hcl.
          + (* left still there: empty + right half = right half *)
            change (nrng (DNode (d_ptr n) (d_len n) (d_alloc n) (Some cl) None)) with (nrng n).
            unfold half in *. 
            apply (dinv_re_empty sz _ _ _ _ _ _ _ (rg_blk (nrng n)) (rg_lo (nrng n) + rg_len (nrng n) / 2)) in I2;
              [|done|eapply rng_ok_sub; [apply He2|revert Hd2; cbn; generalize (d_len n / 2); lia]].
            pose proof (dinv_merge sz w2 T L R O (rg_blk (nrng n)) (rg_lo (nrng n) + rg_len (nrng n) / 2) 0 (rg_len (nrng n) - rg_len (nrng n) / 2) a (d_alloc m)) as Hmg.
            rewrite N.add_0_r, N.add_0_l in Hmg. specialize (Hmg I2).
            apply (dinv_perm sz _ _ _ R R _ _ (reflexivity _) (perm_swap _ _ _)) in Hmg; [|exact (ent_ok_half sz _ true _ _ He2)].
            apply (dinv_re_empty sz _ _ _ _ _ _ _ (rg_blk (nrng n)) (rg_lo (nrng n))) in Hmg; [|done|eapply rng_ok_sub; [apply He2|cbn; lia]].
            eapply dinv_perm; [..|exact Hmg]; [done|constructor].
          + change (nrng (DNode (d_ptr n) (d_len n) (d_alloc n) None None)) with (nrng n).
            unfold half in *. apply dinv_merge in I2; rewrite ?Elen in *; [|by destruct (nrng n)]. by destruct (nrng n).
        - destruct (d_right n) as [cr|] eqn:Hcr.
          + change (nrng (DNode (d_ptr n) (d_len n) (d_alloc n) None (Some cr))) with (nrng n).
            unfold half in *.
            pose proof (dinv_merge sz w2 T L R O (rg_blk (nrng n)) (rg_lo (nrng n)) 0 (rg_len (nrng n) / 2) a (d_alloc m)) as Hmg.
            rewrite N.add_0_r, N.add_0_l in Hmg. apply Hmg; [exact I2|]. exact (ent_ok_half sz _ false _ _ He2).
          + change (nrng (DNode (d_ptr n) (d_len n) (d_alloc n) None None)) with (nrng n).
            unfold half in *. apply dinv_merge' in I2; rewrite ?Elen in *; [|by destruct (nrng n)]. by destruct (nrng n). }
      apply (dinv_perm sz _ _ _ R R _ _ (reflexivity _) (perm_swap _ _ _)) in I3.
      destruct (alloc_release_ok sz _ _ _ _ _ _ _ _ I3) as (w4 & E4 & I4 & Hmm & Hbb & Hdd).
      exists w4. split_and!; try done. eapply quiet_trans; [exact Q02|]. split_and!; try done.
      + by rewrite Hdd.
      + by rewrite Hdd.
      + by eapply alloc_release_live.
  Qed.
  Lemma d_child_set side o n side' : d_child side' (d_set_child side o n) = if decide (side' = side) then o else d_child side' n.
  Proof. by destruct side, side'. Qed.
  Lemma unwrapped_set_none w T L d l n side : unwrapped w T L d l n -> unwrapped w T L d l (d_set_child side None n).
  Proof.
    intros (? & ? & ? & H). split_and!; try done.
    - rewrite <- H2. by destruct side.
    - intros side' c. rewrite d_child_set. case_decide; [done|]. apply H.
  Qed.
  Lemma unwrapped_quiet w w' T L d l n : quiet w w' -> unwrapped w T L d l n -> unwrapped w' T L d l n.
  Proof. intros (_ & _ & _ & Hq & _) (? & ? & ? & H). split_and!; eauto. Qed.

  Lemma forget_items_ok T L fuel : forget_spec T L fuel.
  Proof.
    induction fuel as [|fuel IH]; intros w n d l a R O Hf I Hu He Hno; [lia|].
    rewrite forget_items_S.
    assert (exists w1, forget_child fuel w (d_left n) = Ok w1 /\
      dinv w1 T L (option_list (d_right n) ++ R) ((own_rng (d_set_child false None n), a) :: O) /\ quiet w w1)
      as (w1 & E1 & I1 & Q1).
    { unfold kids in I. destruct (d_left n) as [c|] eqn:Hc.
      - eapply (forget_child_ok T L fuel w n d l a _ O false c); try done.
        intros x lx [Hx|Hx]%elem_of_app Hlx Ha; [|by eapply Hno].
        destruct (d_right n) as [cr|] eqn:Hcr; cbn in Hx; [|by apply elem_of_nil in Hx].
        apply elem_of_list_singleton in Hx as ->.
        destruct Hu as (_ & _ & _ & Hlink). destruct (Hlink true cr Hcr) as [_ Hlr]. rewrite Hlr in Hlx.
        injection Hlx as <-. by pose proof (anc_sibling _ _ _ _ Ha (anc_refl _)).
      - exists w. split_and!; try done; [|apply quiet_refl]. cbn.
        unfold own_rng in *. cbn. by rewrite Hc in I. }
    rewrite E1. res_simpl.
    assert (ent_ok w1 (nrng n) a) as He1. { eapply ent_ok_keep; [exact I1|left|done|done]. }
    pose proof (unwrapped_set_none _ _ _ _ _ _ false (unwrapped_quiet _ _ _ _ _ _ _ Q1 Hu)) as Hu1.
    assert (exists w2, forget_child fuel w1 (d_right n) = Ok w2 /\
      dinv w2 T L R ((nrng n, a) :: O) /\ quiet w1 w2) as (w2 & E2 & I2 & Q2).
    { destruct (d_right n) as [c|] eqn:Hc.
      - destruct (forget_child_ok T L fuel w1 (d_set_child false None n) d l a R O true c) as (w2 & E2 & I2 & Q2); try done.
        + destruct Q1 as (_ & _ & -> & _). done.
        + intros x lx Hx Hlx. by eapply Hno.
        + exists w2. split_and!; try done.
      - exists w1. split_and!; try done; [|apply quiet_refl].
        unfold own_rng in I1. cbn in I1. by rewrite Hc in I1. }
    rewrite E2. res_simpl. exists w2. split_and!; try done. by eapply quiet_trans.
  Qed.

  (** [RcSliceData::into_mut] of a node that was just unwrapped. *)
  Lemma data_into_mut_ok w T L R O d l n :
    dinv w T L (d :: R) O -> live (dw_datas w) d 1 n -> L !! d = Some l ->
    (forall x lx side, x ∈ R -> L !! x = Some lx -> ~ anc (lchild l side) lx) ->
    exists w', data_into_mut sz (dw_set_datas w (<[d := None]> (dw_datas w))) n =
        Ok (w', (SliceItems (d_ptr n) (d_len n), d_alloc n)) /\
      dinv w' T L R ((nrng n, d_alloc n) :: O) /\
      dw_mem w' = dw_mem w /\ bshape w' = bshape w.
  Proof.
    intros I Hv Hl Hno. unfold data_into_mut.
    pose proof (dinv_unlink sz _ _ _ _ _ _ _ I Hv) as I1.
    destruct (di_geo _ _ _ _ _ _ I _ _ _ _ Hv Hl) as [Hg _].
    pose proof (live_lt _ _ _ _ Hv) as Hlt.
    edestruct (forget_items_ok T L (S (length (dw_datas (dw_set_datas w (<[d:=None]> (dw_datas w)))))))
      with (w := dw_set_datas w (<[d:=None]> (dw_datas w))) (n := DNode (d_ptr n) (d_len n) None (d_left n) (d_right n))
           (a := d_alloc n) as (w' & E & I' & Q); [| |idtac| | |].
    - instantiate (1 := d). lia.
    - exact I1.
    - split_and!; [exact Hl| |done|].
      + cbn. by rewrite list_lookup_insert.
      + intros side c Hc. eapply (di_link _ _ _ _ _ _ I); eauto.
    - exact (di_nalloc _ _ _ _ _ _ I _ _ _ Hv).
    - done.
    - rewrite E. res_simpl. unfold data_drop_forgotten. cbn. exists w'. split_and!; try done; apply Q.
  Qed.

  (** *** Buffers given by the caller *)
  Definition stored (b : nat) (vals : list V) (m : gmap (nat * N) V) : gmap (nat * N) V :=
    list_to_map (zip (rng_cells (Rng b 0 (N.of_nat (length vals)))) vals) ∪ m.
  Lemma store_vals_lookup (m : gmap (nat * N) V) b i vals c : store_vals m b i vals !! c =
    if decide (fst c = b /\ i <= snd c < i + N.of_nat (length vals))
    then vals !! N.to_nat (snd c - i) else m !! c.
  Proof.
    revert m i. induction vals as [|v vals IH]; intros m i; cbn [store_vals length].
    - rewrite decide_False; [done|]. lia.
    - rewrite IH. destruct (decide (fst c = b /\ i + 1 <= snd c < i + 1 + N.of_nat (length vals))) as [[? ?]|Hn].
      + rewrite decide_True by lia. replace (N.to_nat (snd c - i)) with (S (N.to_nat (snd c - (i + 1)))) by lia. done.
      + destruct (decide (c = (b, i))) as [->|Hne].
        * rewrite lookup_insert. cbn. rewrite decide_True by lia. by rewrite N.sub_diag.
        * rewrite lookup_insert_ne by done. destruct (decide (_ /\ _ <= _ < _ + N.of_nat (S _))) as [[H1 H2]|]; [|done].
          exfalso. destruct c as [c1 c2]. cbn in *. apply Hne. f_equal; [done|]. destruct (decide (c2 = i)); [done|]. lia.
  Qed.
  Lemma stored_lookup b vals m c : stored b vals m !! c =
    if decide (fst c = b /\ snd c < N.of_nat (length vals)) then vals !! N.to_nat (snd c) else m !! c.
  Proof.
    unfold stored. set (r := Rng b 0 (N.of_nat (length vals))).
    assert (NoDup (zip (rng_cells r) vals).*1) as Hnd.
    { rewrite fst_zip; [apply rng_cells_NoDup|]. rewrite rng_cells_length. cbn. lia. }
    case_decide as Hd.
    - destruct (lookup_lt_is_Some_2 vals (N.to_nat (snd c))) as [v Hv]; [lia|]. rewrite Hv.
      apply lookup_union_Some_l. apply elem_of_list_to_map_1; [done|].
      apply elem_of_list_lookup. exists (N.to_nat (snd c)). apply lookup_zip_with_Some.
      exists c, v. split_and!; try done. rewrite rng_cells_lookup by (cbn; lia). cbn.
      destruct c as [c1 c2]. cbn in *. destruct Hd as [-> _]. done.
    - apply lookup_union_r. apply not_elem_of_list_to_map_1. rewrite fst_zip by (rewrite rng_cells_length; cbn; lia).
      intros Hin. apply rng_cells_elem in Hin as [H1 H2]. apply Hd. cbn in *. split; [done|lia].
  Qed.
  Lemma store_vals_stored m b vals : store_vals m b 0 vals = stored b vals m.
  Proof.
    apply map_eq. intros c. rewrite store_vals_lookup, stored_lookup.
    repeat case_decide; try (f_equal; lia); try done; exfalso; intuition lia.
  Qed.

  Lemma dinv_mem_blk w T L R O c v : dinv w T L R O -> dw_mem w !! c = Some v -> (fst c < length (dw_blocks w))%nat.
  Proof.
    intros I Hv. pose proof (di_own _ _ _ _ _ _ I c) as E. unfold memcnt in E. rewrite Hv in E.
    assert (exists r o, ent_ok w r o /\ in_rng c r = true) as (r & o & [Hr _] & Hc).
    { destruct (decide (0 < ocnt c O)%nat) as [(e & He & Hc)%ocnt_pos|Hn].
      - exists (fst e), (snd e). split; [|done]. by eapply di_oalloc.
      - destruct (hsum_pos (fun n => inr c (own_rng n)) (dw_datas w)) as (d & s & n & Hd & Hc); [lia|].
        exists (own_rng n), (d_alloc n). split; [by eapply ent_ok_own, di_nalloc|].
        unfold inr in Hc. destruct (in_rng c (own_rng n)); [done|lia]. }
    destruct (rng_ok_block _ _ Hr) as (blk & E' & _). apply in_rng_spec in Hc as [-> _]. by eapply lookup_lt_Some.
  Qed.
  (** A new buffer, with a [SliceAlloc] if [mk]. *)
  Lemma new_block_ok w T L R O base vals mk w1 p len :
    dinv w T L R O -> N.of_nat (length vals) < usize_lim ->
    new_block w base vals = (w1, p, len) ->
    (sz <> 0 -> len <> 0 -> mk = true) ->
    let b := length (dw_blocks w) in
    let w2 := if mk then fst (alloc_new w1 p len) else w1 in
    let o := if (mk : bool) then Some (length (dw_allocs w)) else None in
    len = N.of_nat (length vals) /\
    dinv w2 T L R ((Rng b 0 len, o) :: O) /\
    points sz (bbase (bshape w2) b) b 0 p /\
    dw_mem w2 = stored b vals (dw_mem w) /\ dw_trace w2 = dw_trace w /\
    bshape w2 = bshape w ++ [(base, len)] /\ dw_datas w2 = dw_datas w.
  Proof.
    intros I Hlim Hnb Hmk b w2 o. unfold new_block in Hnb. injection Hnb as <- <- <-. fold b in w2 |- *.
    set (len := N.of_nat (length vals)) in *.
    assert (Hsh : bshape w2 = bshape w ++ [(base, len)]).
    { unfold w2, bshape. destruct mk; cbn; by rewrite fmap_app. }
    assert (Hbl : dw_blocks w2 = dw_blocks w ++ [Block base len false]) by (unfold w2; by destruct mk).
    assert (Hmem : dw_mem w2 = stored b vals (dw_mem w)).
    { unfold w2. destruct mk; cbn; apply store_vals_stored. }
    assert (Hda : dw_datas w2 = dw_datas w) by (unfold w2; by destruct mk).
    assert (Hal : dw_allocs w2 = if mk then dw_allocs w ++ [Some (1%nat, SAlloc (Ptr b base 0) len)] else dw_allocs w).
    { unfold w2. by destruct mk. }
    assert (Hbb : bbase (bshape w2) b = base).
    { unfold bbase. rewrite Hsh. assert (b = length (bshape w)) as -> by (unfold bshape; by rewrite fmap_length).
      by rewrite list_lookup_middle. }
    split; [done|]. split; [|split_and!; try done].
    2:{ rewrite Hbb. split_and!; try done. cbn. lia. }
    2:{ unfold w2. by destruct mk. }
    assert (Hrok : forall r, rng_ok (bshape w) r -> rng_ok (bshape w2) r).
    { intros r (x & y & E & ?). exists x, y. split; [|done]. rewrite Hsh. by apply lookup_app_l_Some. }
    assert (Hlk : forall a s v, live (dw_allocs w) a s v -> live (dw_allocs w2) a s v).
    { intros a s v Hv. rewrite Hal. destruct mk; [by apply live_app_l|done]. }
    assert (Hback : forall a s v, live (dw_allocs w2) a s v ->
      (mk = true /\ a = length (dw_allocs w) /\ s = 1%nat /\ v = SAlloc (Ptr b base 0) len) \/
      ((a < length (dw_allocs w))%nat /\ live (dw_allocs w) a s v)).
    { intros a s v Hv. rewrite Hal in Hv. destruct mk.
      - apply live_snoc in Hv as [[-> [= <- <-]]|?]; [left|right]; done.
      - right. split; [by eapply live_lt|done]. }
    assert (Hent : forall r o', ent_ok w r o' -> ent_ok w2 r o').
    { intros r o' [H1 H2]. split; [by apply Hrok|]. intros Hs Hn. destruct (H2 Hs Hn) as (a & s & v & ? & ? & ?). eauto 10. }
    assert (Hblk : forall b' blk, dw_blocks w !! b' = Some blk -> b' <> b).
    { intros b' blk E ->. apply lookup_lt_Some in E. unfold b in E. lia. }
    assert (Hbase : forall b' blk, dw_blocks w !! b' = Some blk -> bbase (bshape w2) b' = bbase (bshape w) b').
    { intros b' blk E. unfold bbase. rewrite Hsh, lookup_app_l; [done|]. unfold bshape. rewrite fmap_length. by eapply lookup_lt_Some. }
    pose proof (fun c v => dinv_mem_blk _ _ _ _ _ c v I) as Hmb.
    destruct I. split; rewrite ?Hda; try done.
    - intros d s n l Hd Hl. destruct (di_geo _ _ _ _ Hd Hl) as [? Hp]. split; [done|].
      destruct (di_nalloc _ _ _ Hd) as [Hr _]. destruct (rng_ok_block _ _ Hr) as (blk & E & _). cbn in E.
      by rewrite (Hbase _ _ E).
    - intros c. specialize (di_own c). rewrite ocnt_cons. cbn [fst]. unfold memcnt in *. rewrite Hmem, stored_lookup.
      unfold inr at 2. destruct (in_rng c (Rng b 0 len)) eqn:Hin.
      + apply in_rng_spec in Hin as [H1 H2]. cbn in H1, H2. rewrite decide_True by (split; [done|fold len; lia]).
        assert (dw_mem w !! c = None) as E0.
        { destruct (dw_mem w !! c) eqn:E0; [|done]. apply Hmb in E0. unfold b in H1. lia. }
        rewrite E0 in di_own. destruct (lookup_lt_is_Some_2 vals (N.to_nat (snd c))) as [v ->]; [|lia].
        unfold len in H2. lia.
      + rewrite decide_False; [lia|]. intros [H1 H2]. apply not_true_iff_false in Hin. apply Hin, in_rng_spec.
        cbn. fold len in H2. split; [done|lia].
    - intros a. specialize (di_acnt a). rewrite alloc_refs_cons, cnt_app. cbn [snd]. rewrite Hal. unfold o.
      destruct mk; [|rewrite di_acnt; done]. rewrite rc_count_snoc. cbn. rewrite cnt_cons, cnt_nil.
      destruct (decide (a = length (dw_allocs w))) as [->|].
      + rewrite (decide_True (P := _ = _)) by done.
        assert (rc_count (dw_allocs w) (length (dw_allocs w)) = 0%nat) as E. { unfold rc_count. by rewrite lookup_ge_None_2. }
        rewrite E in di_acnt. lia.
      + rewrite (decide_False (P := length (dw_allocs w) = a)) by congruence. lia.
    - intros a v [(_ & _ & [=] & _)|[_ H]]%Hback. by eapply di_apos.
    - intros a s v [(_ & _ & _ & ->)|[_ H]]%Hback.
      + exists (Block base len false). rewrite Hbl. cbn. split_and!; try done. unfold b. by rewrite list_lookup_middle.
      + destruct (di_aok _ _ _ H) as (blk & E & ?). exists blk. split; [|done]. rewrite Hbl. by apply lookup_app_l_Some.
    - intros a1 s1 v1 a2 s2 v2 [(_ & -> & _ & ->)|[_ H1]]%Hback [(_ & -> & _ & ->)|[_ H2]]%Hback Heq; try done.
      + destruct (di_aok _ _ _ H2) as (blk & E & _). rewrite <- Heq in E. by apply Hblk in E.
      + destruct (di_aok _ _ _ H1) as (blk & E & _). rewrite Heq in E. by apply Hblk in E.
      + eauto.
    - intros d s n Hd. apply Hent. eauto.
    - intros x [->|Hx]%elem_of_cons; [|apply Hent; eauto]. cbn. split.
      + exists base, len. cbn. split_and!; try done. rewrite Hsh.
        assert (b = length (bshape w)) as -> by (unfold bshape; by rewrite fmap_length). by rewrite list_lookup_middle.
      + cbn. intros Hs Hn. specialize (Hmk Hs Hn). unfold o. rewrite Hmk.
        exists (length (dw_allocs w)), 1%nat, (SAlloc (Ptr b base 0) len). split_and!; try done.
        rewrite Hal, Hmk. unfold live. by rewrite list_lookup_middle.
    - intros Hs b' blk Hb1 Hb2 Hb3. rewrite Hbl in Hb1. apply lookup_app_Some in Hb1 as [Hb1|[Hge Hb1]].
      + destruct (di_freed Hs _ _ Hb1 Hb2 Hb3) as (a & s & v & ? & ?). eauto 10.
      + apply list_lookup_singleton_Some in Hb1 as [E <-]. cbn in Hb3. specialize (Hmk Hs Hb3).
        exists (length (dw_allocs w)), 1%nat, (SAlloc (Ptr b base 0) len). split.
        * rewrite Hal, Hmk. unfold live. by rewrite list_lookup_middle.
        * cbn. unfold b. lia.
  Qed.

  (** *** Reading and writing *)
  Lemma mem_read_ok w T L R O r o : dinv w T L R O -> ent_ok w r o ->
    (forall c, in_rng c r = true -> is_Some (dw_mem w !! c)) ->
    forall p, points sz (bbase (bshape w) (rg_blk r)) (rg_blk r) (rg_lo r) p ->
    mem_read sz w (N.to_nat (rg_len r)) p = Ok (cells_vals (dw_mem w) (rng_cells r)).
  Proof.
    intros I He Hm. destruct r as [b lo len]. cbn [rg_blk rg_lo rg_len] in *.
    remember (N.to_nat len) as k eqn:Ek. revert lo len Ek He Hm.
    induction k as [|k IH]; intros lo len Ek He Hm p Hp; cbn [mem_read].
    - assert (len = 0) as -> by lia. done.
    - pose proof Hp as (Hb & Hi & _).
      rewrite (mem_at_ok sz w T L R O (Rng b lo len) o p I He).
      + replace len with (1 + (len - 1)) by lia. rewrite rng_cells_app. rewrite Hb, Hi.
        change (rng_cells (Rng b lo 1)) with [(b, lo + 0)]. rewrite N.add_0_r. cbn [app].
        destruct (Hm (b, lo)) as [v Ev]; [apply in_rng_spec; cbn; split; [done|lia]|].
        unfold cells_vals. cbn [omap list_omap]. rewrite Ev. res_simpl.
        rewrite (IH (lo + 1) (len - 1)); [done|lia| | |].
        * eapply ent_ok_sub; [exact He|lia|lia].
        * intros c Hc. apply Hm. apply in_rng_spec in Hc as [? ?]. apply in_rng_spec. cbn in *. split; [done|lia].
        * by apply points_add.
      + apply in_rng_spec. cbn. rewrite Hb, Hi. split; [done|lia].
      + cbn. rewrite Hb, Hi. done.
  Qed.
  Lemma dinv_write w T L R O c v : dinv w T L R O -> is_Some (dw_mem w !! c) ->
    dinv (dw_set_mem w (<[c := v]> (dw_mem w))) T L R O.
  Proof.
    intros [] [v0 Hv0]. split; try done. intros c'. specialize (di_own c'). unfold memcnt in *. cbn.
    destruct (decide (c = c')) as [->|]; [rewrite lookup_insert; by rewrite Hv0 in di_own|by rewrite lookup_insert_ne].
  Qed.
End funs.
