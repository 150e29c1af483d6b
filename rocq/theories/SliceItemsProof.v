(** Proofs about SliceItemsModel.v: pointers and ranges, the mutable iterator
    and the mutable parts iterator. *)
From Verif Require Import Base BaseLemmas SliceItemsModel Spec.
Local Open Scope N_scope.

(** ** Geometry of halving *)

Lemma half_len_sum r : rg_len (half false r) + rg_len (half true r) = rg_len r.
Proof. cbn. pose proof (N.div_mod (rg_len r) 2). assert (rg_len r / 2 <= rg_len r) by (apply N.div_le_upper_bound; lia). lia. Qed.
Lemma div2_le n : n / 2 <= n.
Proof. apply N.div_le_upper_bound; lia. Qed.

(** Start of the [f]-th of the [2^k] leaves of a range of length [len]. *)
Fixpoint off (k : nat) (len f : N) : N :=
  match k with
  | O => if f =? 0 then 0 else len
  | S k => if f <? 2 ^ N.of_nat k then off k (len / 2) f
           else len / 2 + off k (len - len / 2) (f - 2 ^ N.of_nat k)
  end.

Lemma off_0 k len : off k len 0 = 0.
Proof.
  revert len. induction k as [|k IH]; intros len; [reflexivity|].
  cbn. pose proof (pow2_pos k). destruct (N.ltb_spec 0 (2 ^ N.of_nat k)); [apply IH|lia].
Qed.
Lemma off_end k len : off k len (2 ^ N.of_nat k) = len.
Proof.
  revert len. induction k as [|k IH]; intros len; [reflexivity|].
  cbn [off]. rewrite pow2_S. pose proof (pow2_pos k).
  destruct (N.ltb_spec (2 * 2 ^ N.of_nat k) (2 ^ N.of_nat k)); [lia|].
  replace (2 * 2 ^ N.of_nat k - 2 ^ N.of_nat k) with (2 ^ N.of_nat k) by lia.
  rewrite IH. pose proof (div2_le len). lia.
Qed.
Lemma off_le k len f : off k len f <= len.
Proof.
  revert len f. induction k as [|k IH]; intros len f; cbn.
  - destruct (f =? 0); lia.
  - pose proof (div2_le len). destruct (_ <? _).
    + specialize (IH (len / 2) f). lia.
    + specialize (IH (len - len / 2) (f - 2 ^ N.of_nat k)). lia.
Qed.
Lemma off_mono k len f g : f <= g -> off k len f <= off k len g.
Proof.
  revert len f g. induction k as [|k IH]; intros len f g H; cbn.
  - destruct (N.eqb_spec f 0), (N.eqb_spec g 0); lia.
  - destruct (N.ltb_spec f (2 ^ N.of_nat k)), (N.ltb_spec g (2 ^ N.of_nat k)).
    + by apply IH.
    + pose proof (off_le k (len / 2) f). lia.
    + lia.
    + specialize (IH (len - len / 2) (f - 2 ^ N.of_nat k) (g - 2 ^ N.of_nat k)). lia.
Qed.
(** At the middle the two halves' formulas agree. *)
Lemma off_mid k len f : f <= 2 ^ N.of_nat k -> off (S k) len f = off k (len / 2) f.
Proof.
  intros H. cbn [off]. destruct (N.ltb_spec f (2 ^ N.of_nat k)); [done|].
  assert (f = 2 ^ N.of_nat k) as -> by lia. by rewrite N.sub_diag, off_0, off_end, N.add_0_r.
Qed.

Definition leaf_rng (k : nat) (r : rng) (f : N) : rng :=
  Rng (rg_blk r) (rg_lo r + off k (rg_len r) f) (off k (rg_len r) (f + 1) - off k (rg_len r) f).

Lemma rng_leaves_length k r : N.of_nat (length (rng_leaves k r)) = 2 ^ N.of_nat k.
Proof.
  revert r. induction k as [|k IH]; intros r; [reflexivity|].
  cbn [rng_leaves]. rewrite app_length, Nat2N.inj_add, !IH, pow2_S. lia.
Qed.
Lemma rng_leaves_lookup k r f : f < 2 ^ N.of_nat k ->
  rng_leaves k r !! N.to_nat f = Some (leaf_rng k r f).
Proof.
  revert r f. induction k as [|k IH]; intros r f H.
  - change (2 ^ N.of_nat 0) with 1 in H. assert (f = 0) as -> by lia. cbn.
    unfold leaf_rng. cbn. rewrite N.add_0_r, N.sub_0_r. by destruct r.
  - rewrite pow2_S in H. cbn [rng_leaves].
    pose proof (rng_leaves_length k (half false r)) as L1.
    unfold leaf_rng. destruct (N.ltb_spec f (2 ^ N.of_nat k)) as [Hf|Hf].
    + rewrite lookup_app_l by lia. rewrite IH by done. unfold leaf_rng.
      rewrite !off_mid by lia. cbn. done.
    + rewrite lookup_app_r by lia.
      replace (N.to_nat f - length (rng_leaves k (half false r)))%nat with (N.to_nat (f - 2 ^ N.of_nat k)) by lia.
      rewrite IH by lia. unfold leaf_rng. cbn [half rg_blk rg_lo rg_len off].
      rewrite (proj2 (N.ltb_ge f _)) by done. rewrite (proj2 (N.ltb_ge (f + 1) _)) by lia.
      replace (f + 1 - 2 ^ N.of_nat k) with (f - 2 ^ N.of_nat k + 1) by lia.
      do 2 f_equal; lia.
Qed.

(** ** Pointers *)
Section ptrs.
  Context (sz : N).

  (** [p] points to item [i] of a buffer at address [base]. *)
  Definition points (base : N) (b : nat) (i : N) (p : ptr) : Prop :=
    p_blk p = b /\ p_idx p = i /\ (p_addr p = base + i * sz \/ sz = 0 /\ p_addr p = dangling_addr).
  Lemma points_addr base b i p : points base b i p -> sz <> 0 -> p_addr p = base + i * sz.
  Proof. by intros (_ & _ & [|[]]). Qed.

  Lemma points_add base b i p k : points base b i p -> points base b (i + k) (ptr_add sz p k).
  Proof. intros (? & ? & Ha). split_and!; cbn; [done|lia|]. destruct Ha as [->|[-> ->]]; [left; lia|right; lia]. Qed.
  Lemma points_mid base b i p k : points base b i p ->
    points base b (i + k) (if sz =? 0 then ptr_stay p k else ptr_add sz p k).
  Proof.
    intros Hp. destruct (N.eqb_spec sz 0); [|by apply points_add].
    destruct Hp as (? & ? & Ha). split_and!; cbn; [done|lia|]. destruct Ha as [->|[-> ->]]; [left; lia|by right].
  Qed.

  (** [p] is the range pointer for index [i] of a buffer at [base], the index
      counted from [lo] if items are zero-sized. *)
  Definition rpoints (base lo : N) (b : nat) (i : N) (p : ptr_or_idx) : Prop :=
    p_blk p = b /\ p_idx p = i /\ lo <= i /\
    p_addr p = (if sz =? 0 then i - lo else base + i * sz).

  (** A range denoting indices [lo+x .. lo+y) of a buffer, as built from a range
      starting at [lo]. *)
  Definition range_rel (base lo : N) (b : nat) (i j : N) (r : ptr_or_idx_range) : Prop :=
    rpoints base lo b i (r_start r) /\ rpoints base lo b j (r_end r) /\ i <= j /\ j - lo < usize_lim.

  Lemma rpoints_add base lo b i p k : rpoints base lo b i p -> i + k - lo < usize_lim ->
    exists p', poi_add sz p k = Ok p' /\ rpoints base lo b (i + k) p'.
  Proof.
    intros (? & ? & ? & Ha) Hl. unfold poi_add. destruct (N.eqb_spec sz 0) as [Hs|Hs].
    - rewrite Ha. rewrite uadd_ok by lia. res_simpl. eexists. split; [done|].
      split_and!; cbn; try done; try lia. destruct (N.eqb_spec sz 0); [|done]. lia.
    - eexists. split; [done|]. split_and!; cbn; try done; try lia.
      destruct (N.eqb_spec sz 0); [done|]. lia.
  Qed.
  Lemma rpoints_sub base lo b i p k : rpoints base lo b i p -> lo + k <= i ->
    exists p', poi_sub sz p k = Ok p' /\ rpoints base lo b (i - k) p'.
  Proof.
    intros (? & ? & ? & Ha) Hl. unfold poi_sub. destruct (N.eqb_spec sz 0) as [Hs|Hs].
    - rewrite Ha. rewrite usub_ok by lia. res_simpl. eexists. split; [done|].
      split_and!; cbn; try done; try lia. destruct (N.eqb_spec sz 0); [|done]. lia.
    - rewrite (proj2 (N.leb_le _ _)) by nia.
      eexists. split; [done|]. split_and!; cbn; try done; try lia.
      destruct (N.eqb_spec sz 0); [done|]. nia.
  Qed.
  Lemma range_len_rel base lo b i j r : range_rel base lo b i j r -> range_len sz r = Ok (j - i).
  Proof.
    intros ((? & ? & ? & Ha) & (? & ? & ? & Hb) & Hle & Hl). unfold range_len.
    destruct (N.eqb_spec sz 0) as [Hs|Hs].
    - rewrite usub_ok by lia. f_equal. lia.
    - rewrite usub_ok by nia. res_simpl. f_equal. rewrite Ha, Hb.
      replace (base + j * sz - (base + i * sz)) with ((j - i) * sz) by nia.
      by apply N.div_mul.
  Qed.
  Lemma rpoints_as_ptr base lo b i p : rpoints base lo b i p -> points base b i (poi_as_ptr sz p).
  Proof.
    intros (? & ? & ? & Ha). unfold poi_as_ptr. destruct (N.eqb_spec sz 0); split_and!; cbn; try done; [by right|by left].
  Qed.
  Lemma range_with_rel base b lo p len : points base b lo p -> len < usize_lim ->
    range_rel base lo b lo (lo + len) (range_with_ptr_and_len sz p len).
  Proof.
    intros Hp Hl. pose proof (points_addr _ _ _ _ Hp) as Ha. destruct Hp as (? & ? & _). unfold range_with_ptr_and_len.
    unfold range_rel, rpoints.
    destruct (N.eqb_spec sz 0) as [Hs|Hs]; cbn; split_and!; try done; try lia; try (rewrite Ha by done; lia).
  Qed.

  (** *** SliceItems *)
  Definition items_rel (base : N) (r : rng) (s : slice_items) : Prop :=
    points base (rg_blk r) (rg_lo r) (si_ptr s) /\ si_len s = rg_len r.
  Lemma si_split_off_left_rel base r s : items_rel base r s ->
    items_rel base (half true r) (fst (si_split_off_left sz s)) /\
    items_rel base (half false r) (snd (si_split_off_left sz s)).
  Proof.
    intros [Hp Hl]. unfold items_rel, si_split_off_left, si_mid, si_left_len, si_right_len. cbn.
    rewrite shr1_div, Hl. split_and!; try done. by apply points_mid.
  Qed.
  Lemma si_split_off_right_rel base r s : items_rel base r s ->
    items_rel base (half false r) (fst (si_split_off_right sz s)) /\
    items_rel base (half true r) (snd (si_split_off_right sz s)).
  Proof.
    intros [Hp Hl]. unfold items_rel, si_split_off_right, si_mid, si_left_len, si_right_len. cbn.
    rewrite shr1_div, Hl. split_and!; try done. by apply points_mid.
  Qed.

  (** *** SliceItemsIter *)
  Definition iter_rel (base : N) (r : rng) (it : slice_items_iter) : Prop :=
    exists lo, range_rel base lo (rg_blk r) (rg_lo r) (rg_lo r + rg_len r) it.
  Lemma sit_new_rel base r s : items_rel base r s -> rg_len r < usize_lim ->
    iter_rel base r (sit_new sz s).
  Proof.
    intros [Hp Hl] Hlim. exists (rg_lo r). unfold sit_new. rewrite Hl. by apply range_with_rel.
  Qed.
  Lemma sit_len_rel base r it : iter_rel base r it -> sit_len sz it = Ok (rg_len r).
  Proof. intros [lo H]. unfold sit_len. rewrite (range_len_rel _ _ _ _ _ _ H). f_equal. lia. Qed.
  Lemma sit_as_slice_rel base r it : iter_rel base r it ->
    exists p, sit_as_slice sz it = Ok (p, rg_len r) /\ points base (rg_blk r) (rg_lo r) p.
  Proof.
    intros [lo H]. unfold sit_as_slice, range_as_slice. rewrite (range_len_rel _ _ _ _ _ _ H).
    res_simpl. eexists. split; [f_equal; f_equal; lia|]. eapply rpoints_as_ptr, H.
  Qed.
  Lemma sit_next_none base r it : iter_rel base r it -> rg_len r = 0 ->
    sit_next sz it = Ok (it, None) /\ sit_next_back sz it = Ok (it, None).
  Proof.
    intros H H0. unfold sit_next, sit_next_back. rewrite (sit_len_rel _ _ _ H). res_simpl.
    by rewrite H0.
  Qed.
  Lemma sit_next_rel base r it : iter_rel base r it -> rg_len r <> 0 ->
    exists it' p, sit_next sz it = Ok (it', Some p) /\
      iter_rel base (Rng (rg_blk r) (rg_lo r + 1) (rg_len r - 1)) it' /\
      points base (rg_blk r) (rg_lo r) p.
  Proof.
    intros H H0. unfold sit_next. rewrite (sit_len_rel _ _ _ H). res_simpl.
    rewrite (proj2 (N.ltb_lt _ _)) by lia. destruct H as [lo (Hs & He & Hle & Hl)].
    destruct (rpoints_add _ _ _ _ _ 1 Hs) as (s' & -> & Hs'); [lia|]. res_simpl.
    do 2 eexists. split; [done|]. split.
    - exists lo. split_and!; cbn; try done; try lia.
      replace (rg_lo r + 1 + (rg_len r - 1)) with (rg_lo r + rg_len r) by lia. exact He.
    - by eapply rpoints_as_ptr.
  Qed.
  Lemma sit_next_back_rel base r it : iter_rel base r it -> rg_len r <> 0 ->
    exists it' p, sit_next_back sz it = Ok (it', Some p) /\
      iter_rel base (Rng (rg_blk r) (rg_lo r) (rg_len r - 1)) it' /\
      points base (rg_blk r) (rg_lo r + rg_len r - 1) p.
  Proof.
    intros H H0. unfold sit_next_back. rewrite (sit_len_rel _ _ _ H). res_simpl.
    rewrite (proj2 (N.ltb_lt _ _)) by lia. destruct H as [lo (Hs & He & Hle & Hl)].
    assert (lo <= rg_lo r) by apply Hs.
    destruct (rpoints_sub _ _ _ _ _ 1 He) as (s' & -> & Hs'); [lia|]. res_simpl.
    do 2 eexists. split; [done|]. split.
    - exists lo. split_and!; cbn; try done; try lia.
      replace (rg_lo r + (rg_len r - 1)) with (rg_lo r + rg_len r - 1) by lia. exact Hs'.
    - by eapply rpoints_as_ptr.
  Qed.
  Lemma sit_split_rel base r it i : iter_rel base r it -> i <= rg_len r ->
    exists p1 p2,
      sit_split_off_from sz it i = Ok (p1, p2) /\ sit_split_off_to sz it i = Ok (p2, p1) /\
      iter_rel base (Rng (rg_blk r) (rg_lo r) i) p1 /\
      iter_rel base (Rng (rg_blk r) (rg_lo r + i) (rg_len r - i)) p2.
  Proof.
    intros H Hi. unfold sit_split_off_from, sit_split_off_to. rewrite (sit_len_rel _ _ _ H). res_simpl.
    rewrite (proj2 (N.leb_le _ _)) by lia. destruct H as [lo (Hs & He & Hle & Hl)].
    assert (lo <= rg_lo r) by apply Hs.
    destruct (rpoints_add _ _ _ _ _ i Hs) as (s' & -> & Hs'); [lia|]. res_simpl.
    do 2 eexists. split_and!; try done.
    - exists lo. split_and!; cbn; try done; lia.
    - exists lo. split_and!; cbn; try done; try lia.
      replace (rg_lo r + i + (rg_len r - i)) with (rg_lo r + rg_len r) by lia. exact He.
  Qed.
  Lemma sit_split_panic base r it i : iter_rel base r it -> rg_len r < i ->
    sit_split_off_from sz it i = Panic /\ sit_split_off_to sz it i = Panic.
  Proof.
    intros H Hi. unfold sit_split_off_from, sit_split_off_to. rewrite (sit_len_rel _ _ _ H). res_simpl.
    by rewrite (proj2 (N.leb_gt _ _)) by lia.
  Qed.

  (** *** SliceItemsParts: the bit-mask loops *)
  Lemma land_mask f k : N.land f (2 ^ N.of_nat k) =? 0 = (f mod 2 ^ N.of_nat (S k) <? 2 ^ N.of_nat k).
  Proof.
    assert (f mod 2 ^ N.of_nat (S k) = f mod 2 ^ N.of_nat k + (if N.testbit f (N.of_nat k) then 2 ^ N.of_nat k else 0)) as E.
    { rewrite pow2_S, N.mul_comm, N.mod_mul_r by (pose proof (pow2_pos k); lia).
      f_equal. rewrite <- N.shiftr_div_pow2, <- N.bit0_mod, N.shiftr_spec', N.add_0_l.
      destruct (N.testbit f (N.of_nat k)); cbn; lia. }
    rewrite E. pose proof (N.mod_lt f (2 ^ N.of_nat k)) as Hm. pose proof (pow2_pos k).
    assert (N.land f (2 ^ N.of_nat k) = if N.testbit f (N.of_nat k) then 2 ^ N.of_nat k else 0) as ->.
    { apply N.bits_inj. intros i. rewrite N.land_spec, N.pow2_bits_eqb.
      destruct (N.eqb_spec (N.of_nat k) i) as [<-|Hn].
      - rewrite andb_true_r. destruct (N.testbit f (N.of_nat k)); [|by rewrite N.bits_0].
        by rewrite N.pow2_bits_true.
      - rewrite andb_false_r. destruct (N.testbit f (N.of_nat k)); [|by rewrite N.bits_0].
        symmetry. by apply N.pow2_bits_false. }
    clear E. revert Hm. generalize (f mod 2 ^ N.of_nat k) as m.
    destruct (N.testbit f (N.of_nat k)); intros m Hm.
    - rewrite (proj2 (N.eqb_neq _ _)) by lia. symmetry. apply N.ltb_ge. lia.
    - rewrite N.eqb_refl. symmetry. apply N.ltb_lt. lia.
  Qed.
  Lemma mod_pow2_S f k : f mod 2 ^ N.of_nat k =
    if f mod 2 ^ N.of_nat (S k) <? 2 ^ N.of_nat k then f mod 2 ^ N.of_nat (S k)
    else f mod 2 ^ N.of_nat (S k) - 2 ^ N.of_nat k.
  Proof.
    pose proof (pow2_pos k). rewrite pow2_S, N.mul_comm, N.mod_mul_r by lia.
    assert (f mod 2 ^ N.of_nat k < 2 ^ N.of_nat k) as Hm by (apply N.mod_lt; lia).
    pose proof (N.mod_lt (f / 2 ^ N.of_nat k) 2) as H2. revert Hm H2.
    generalize (f mod 2 ^ N.of_nat k) ((f / 2 ^ N.of_nat k) mod 2). intros m c Hm H2.
    assert (c = 0 \/ c = 1) as [->| ->] by lia.
    - rewrite N.mul_0_r, N.add_0_r. rewrite (proj2 (N.ltb_lt _ _)) by lia. done.
    - rewrite N.mul_1_r. rewrite (proj2 (N.ltb_ge _ _)) by lia. lia.
  Qed.
  (** The mask for a tree of height [k]: 2^(k-1), or 0. *)
  Definition mask_of (k : nat) : N := shr1 (2 ^ N.of_nat k).
  Lemma mask_of_0 : mask_of 0 = 0.
  Proof. reflexivity. Qed.
  Lemma mask_of_S k : mask_of (S k) = 2 ^ N.of_nat k.
  Proof. apply shr1_pow2. Qed.
  Lemma mask_size k : N.size_nat (mask_of k) = k.
  Proof. destruct k; [reflexivity|]. by rewrite mask_of_S, size_nat_pow2. Qed.

  Lemma locate_front_rel base b k : forall fuel f lo p len, (k <= fuel)%nat -> points base b lo p ->
    exists p', sip_locate_front sz fuel (mask_of k) f p len =
      Ok (p', off k len (f mod 2 ^ N.of_nat k + 1) - off k len (f mod 2 ^ N.of_nat k)) /\
      points base b (lo + off k len (f mod 2 ^ N.of_nat k)) p'.
  Proof.
    induction k as [|k IH]; intros fuel f lo p len Hf Hp.
    - rewrite mask_of_0. change (2 ^ N.of_nat 0) with 1. rewrite N.mod_1_r. cbn [off N.eqb N.add].
      exists p. rewrite N.add_0_r, N.sub_0_r. split; [|done]. destruct fuel; reflexivity.
    - destruct fuel as [|fuel]; [lia|]. rewrite mask_of_S. cbn [sip_locate_front].
      pose proof (pow2_pos k). rewrite (proj2 (N.ltb_lt 0 _)) by lia.
      rewrite land_mask. cbn [off].
      pose proof (mod_pow2_S f k) as Em.
      change (shr1 (2 ^ N.of_nat k)) with (mask_of k). rewrite !shr1_div.
      destruct (N.ltb_spec (f mod 2 ^ N.of_nat (S k)) (2 ^ N.of_nat k)) as [Hlt|Hge].
      + destruct (IH fuel f lo p (len / 2)) as (p' & E & Hp'); [lia|done|].
        exists p'. rewrite E, <- Em. split; [|done]. do 2 f_equal.
        fold (off (S k) len (f mod 2 ^ N.of_nat k + 1)). change (if f mod 2 ^ N.of_nat k + 1 <? 2 ^ N.of_nat k then off k (len / 2) (f mod 2 ^ N.of_nat k + 1) else len / 2 + off k (len - len / 2) (f mod 2 ^ N.of_nat k + 1 - 2 ^ N.of_nat k)) with (off (S k) len (f mod 2 ^ N.of_nat k + 1)).
        rewrite off_mid; [done|]. rewrite Em. lia.
      + destruct (IH fuel f (lo + len / 2) (if sz =? 0 then ptr_stay p (len / 2) else ptr_add sz p (len / 2)) (len - len / 2))
          as (p' & E & Hp'); [lia|by apply points_mid|].
        exists p'. rewrite E, Em. rewrite (proj2 (N.ltb_ge (_ + 1) _)) by lia. split.
        * do 2 f_equal.
          replace (f mod 2 ^ N.of_nat (S k) + 1 - 2 ^ N.of_nat k) with (f mod 2 ^ N.of_nat (S k) - 2 ^ N.of_nat k + 1) by lia. lia.
        * rewrite Em in Hp'. by rewrite N.add_assoc.
  Qed.

  Lemma mod_pow2_lt f k : f mod 2 ^ N.of_nat k < 2 ^ N.of_nat k.
  Proof. apply N.mod_lt. pose proof (pow2_pos k). lia. Qed.

  Lemma locate_back_rel base b k : forall fuel f lo p len, (k <= fuel)%nat -> points base b lo p ->
    exists p', sip_locate_back sz fuel (mask_of k) f p len =
      Ok (p', off k len (2 ^ N.of_nat k - f mod 2 ^ N.of_nat k)
              - off k len (2 ^ N.of_nat k - 1 - f mod 2 ^ N.of_nat k)) /\
      points base b (lo + off k len (2 ^ N.of_nat k - 1 - f mod 2 ^ N.of_nat k)) p'.
  Proof.
    induction k as [|k IH]; intros fuel f lo p len Hf Hp.
    - rewrite mask_of_0. change (2 ^ N.of_nat 0) with 1. rewrite N.mod_1_r. cbn.
      exists p. rewrite N.add_0_r, N.sub_0_r. split; [|done]. destruct fuel; reflexivity.
    - destruct fuel as [|fuel]; [lia|]. rewrite mask_of_S. cbn [sip_locate_back].
      pose proof (pow2_pos k). rewrite (proj2 (N.ltb_lt 0 _)) by lia.
      rewrite land_mask. pose proof (mod_pow2_S f k) as Em. pose proof (mod_pow2_lt f (S k)) as Hm.
      change (shr1 (2 ^ N.of_nat k)) with (mask_of k). rewrite !shr1_div.
      revert Em Hm. generalize (f mod 2 ^ N.of_nat (S k)) as m. intros m Em Hm.
      rewrite !(pow2_S k) in *.
      destruct (N.ltb_spec m (2 ^ N.of_nat k)) as [Hlt|Hge].
      + destruct (IH fuel f (lo + len / 2) (if sz =? 0 then ptr_stay p (len / 2) else ptr_add sz p (len / 2)) (len - len / 2))
          as (p' & E & Hp'); [lia|by apply points_mid|].
        exists p'. rewrite E. rewrite Em in *. cbn [off].
        rewrite (proj2 (N.ltb_ge (_ - m) _)) by lia. rewrite (proj2 (N.ltb_ge (_ - 1 - m) _)) by lia.
        replace (2 * 2 ^ N.of_nat k - m - 2 ^ N.of_nat k) with (2 ^ N.of_nat k - m) by lia.
        replace (2 * 2 ^ N.of_nat k - 1 - m - 2 ^ N.of_nat k) with (2 ^ N.of_nat k - 1 - m) by lia.
        split; [do 2 f_equal; lia|]. by rewrite N.add_assoc.
      + destruct (IH fuel f lo p (len / 2)) as (p' & E & Hp'); [lia|done|].
        exists p'. rewrite E. rewrite Em in *. rewrite !off_mid by lia.
        replace (2 * 2 ^ N.of_nat k - m) with (2 ^ N.of_nat k - (m - 2 ^ N.of_nat k)) by lia.
        replace (2 * 2 ^ N.of_nat k - 1 - m) with (2 ^ N.of_nat k - 1 - (m - 2 ^ N.of_nat k)) by lia.
        done.
  Qed.

  Lemma refine_start_rel base lo b k : forall fuel f i p len, (k <= fuel)%nat ->
    rpoints base lo b i p -> i + len - lo < usize_lim ->
    exists p', sip_refine_start sz fuel (mask_of k) f p len = Ok p' /\
      rpoints base lo b (i + off k len (f mod 2 ^ N.of_nat k)) p'.
  Proof.
    induction k as [|k IH]; intros fuel f i p len Hf Hp Hl.
    - rewrite mask_of_0. change (2 ^ N.of_nat 0) with 1. rewrite N.mod_1_r. cbn [off N.eqb].
      exists p. rewrite N.add_0_r. split; [|done]. destruct fuel; reflexivity.
    - destruct fuel as [|fuel]; [lia|]. rewrite mask_of_S. cbn [sip_refine_start].
      pose proof (pow2_pos k). rewrite (proj2 (N.ltb_lt 0 _)) by lia.
      rewrite land_mask. cbn [off].
      pose proof (mod_pow2_S f k) as Em.
      change (shr1 (2 ^ N.of_nat k)) with (mask_of k). rewrite !shr1_div. pose proof (div2_le len).
      destruct (N.ltb_spec (f mod 2 ^ N.of_nat (S k)) (2 ^ N.of_nat k)) as [Hlt|Hge].
      + rewrite <- Em. apply IH; [lia|done|lia].
      + destruct (rpoints_add _ _ _ _ _ (len / 2) Hp) as (s & -> & Hs); [lia|]. res_simpl.
        rewrite <- Em, N.add_assoc. apply IH; [lia|done|lia].
  Qed.

  Lemma refine_end_rel base lo b k : forall fuel f i p len, (k <= fuel)%nat ->
    rpoints base lo b (i + len) p -> lo <= i ->
    exists p', sip_refine_end sz fuel (mask_of k) f p len = Ok p' /\
      rpoints base lo b (i + off k len (2 ^ N.of_nat k - f mod 2 ^ N.of_nat k)) p'.
  Proof.
    induction k as [|k IH]; intros fuel f i p len Hf Hp Hl.
    - rewrite mask_of_0. change (2 ^ N.of_nat 0) with 1. rewrite N.mod_1_r. cbn.
      exists p. split; [|done]. destruct fuel; reflexivity.
    - destruct fuel as [|fuel]; [lia|]. rewrite mask_of_S. cbn [sip_refine_end].
      pose proof (pow2_pos k). rewrite (proj2 (N.ltb_lt 0 _)) by lia.
      rewrite land_mask. pose proof (mod_pow2_S f k) as Em. pose proof (mod_pow2_lt f (S k)) as Hm.
      change (shr1 (2 ^ N.of_nat k)) with (mask_of k). rewrite !shr1_div. pose proof (div2_le len).
      revert Em Hm. generalize (f mod 2 ^ N.of_nat (S k)) as m. intros m Em Hm.
      rewrite !(pow2_S k) in *.
      destruct (N.ltb_spec m (2 ^ N.of_nat k)) as [Hlt|Hge].
      + cbn [off]. rewrite (proj2 (N.ltb_ge (_ - m) _)) by lia.
        replace (2 * 2 ^ N.of_nat k - m - 2 ^ N.of_nat k) with (2 ^ N.of_nat k - m) by lia.
        rewrite N.add_assoc, <- Em. apply IH; [lia| |etrans; [exact Hl|apply N.le_add_r]].
        by replace (i + len / 2 + (len - len / 2)) with (i + len) by lia.
      + destruct (rpoints_sub _ _ _ _ _ (len - len / 2) Hp) as (s & -> & Hs); [pose proof (N.le_0_l (len / 2)); lia|]. res_simpl.
        rewrite off_mid by lia.
        replace (2 * 2 ^ N.of_nat k - m) with (2 ^ N.of_nat k - (m - 2 ^ N.of_nat k)) by lia.
        rewrite <- Em. apply IH; [lia| |lia].
        assert (i + len - (len - len / 2) = i + len / 2) as <-; [|done].
        clear -H0. revert H0. generalize (len / 2). lia.
  Qed.

  (** *** SliceItemsParts *)
  Definition sip_rel (base : N) (r : rng) (k : nat) (f b : N) (it : slice_items_parts) : Prop :=
    points base (rg_blk r) (rg_lo r) (sip_ptr it) /\ sip_orig_len it = rg_len r /\
    sip_num_parts it = 2 ^ N.of_nat k /\ sip_front it = f /\ sip_back it = b /\
    f + b <= 2 ^ N.of_nat k /\ 2 ^ N.of_nat k < usize_lim /\ rg_len r < usize_lim.
  (** The part of [r] not yet handed out. *)
  Definition seg_rng (k : nat) (r : rng) (f b : N) : rng :=
    Rng (rg_blk r) (rg_lo r + off k (rg_len r) f)
        (off k (rg_len r) (2 ^ N.of_nat k - b) - off k (rg_len r) f).

  Lemma strip_twos_ok j m fuel : (j < fuel)%nat ->
    strip_twos fuel (2 ^ N.of_nat j * (2 * m + 1)) = Ok (2 * m + 1).
  Proof.
    revert fuel. induction j as [|j IH]; intros [|fuel] H; [lia| |lia|]; cbn [strip_twos]; rewrite land1_odd.
    - change (2 ^ N.of_nat 0) with 1. rewrite N.mul_1_l.
      replace (N.even (2 * m + 1)) with false; [done|]. symmetry. by rewrite N.add_1_r, N.even_succ, N.odd_mul.
    - rewrite N.even_mul, even_pow2_S. cbn [orb].
      rewrite pow2_S, <- N.mul_assoc, shr1_div, N.mul_comm, N.div_mul by done. apply IH. lia.
  Qed.
  Lemma log2_exact_pow2 k : log2_exact (2 ^ N.of_nat k) = Some k.
  Proof. unfold log2_exact. rewrite N.log2_pow2 by lia. by rewrite N.eqb_refl, Nat2N.id. Qed.
  Lemma log2_exact_Some n k : log2_exact n = Some k -> n = 2 ^ N.of_nat k.
  Proof.
    unfold log2_exact. destruct (N.eqb_spec n (2 ^ N.log2 n)) as [E|]; [|done].
    intros [= <-]. by rewrite N2Nat.id.
  Qed.
  Lemma log2_exact_None n : log2_exact n = None ->
    n = 0 \/ exists j m, n = 2 ^ N.of_nat j * (2 * m + 1) /\ m <> 0.
  Proof.
    intros H. destruct (decide (n = 0)); [by left|]. right.
    destruct (pow2_odd_decomp n) as (j & m & ->); [lia|]. exists j, m. split; [done|].
    intros ->. rewrite N.mul_1_r, log2_exact_pow2 in H. done.
  Qed.
  Lemma sip_new_ok base r s k : items_rel base r s -> rg_len r < usize_lim -> 2 ^ N.of_nat k < usize_lim ->
    exists it, sip_new s (2 ^ N.of_nat k) = Ok it /\ sip_rel base r k 0 0 it.
  Proof.
    intros [Hp Hl] H1 H2. unfold sip_new. pose proof (pow2_pos k).
    rewrite (proj2 (N.eqb_neq _ _)) by lia.
    pose proof (strip_twos_ok k 0 (N.size_nat (2 ^ N.of_nat k))) as E.
    rewrite N.mul_1_r in E. rewrite E by (rewrite size_nat_pow2; lia). res_simpl. cbn.
    eexists. split; [done|]. split_and!; cbn; try done; lia.
  Qed.
  Lemma sip_new_panic s n : log2_exact n = None -> sip_new s n = Panic.
  Proof.
    intros [->|(j & m & -> & Hm)]%log2_exact_None; [done|]. unfold sip_new.
    assert (2 ^ N.of_nat j <= 2 ^ N.of_nat j * (2 * m + 1)) as Hle by nia. pose proof (pow2_pos j).
    rewrite (proj2 (N.eqb_neq _ _)) by lia.
    rewrite strip_twos_ok by (by apply size_nat_gt). res_simpl.
    by rewrite (proj2 (N.eqb_neq _ _)) by lia.
  Qed.

  Lemma sip_len_rel base r k f b it : sip_rel base r k f b it -> sip_len it = Ok (2 ^ N.of_nat k - f - b).
  Proof.
    intros (? & ? & Hn & Hf & Hb & Hle & ? & ?). unfold sip_len. rewrite Hn, Hf, Hb.
    rewrite usub_ok by lia. res_simpl. by rewrite usub_ok by lia.
  Qed.
  Lemma sip_as_slice_rel base r k f b it : sip_rel base r k f b it ->
    exists p, sip_as_slice sz it = Ok (p, rg_len (seg_rng k r f b)) /\
      (f + b < 2 ^ N.of_nat k -> points base (rg_blk r) (rg_lo (seg_rng k r f b)) p).
  Proof.
    intros H. unfold sip_as_slice. rewrite (sip_len_rel _ _ _ _ _ _ H). res_simpl.
    destruct H as (Hp & Ho & Hn & Hf & Hb & Hle & ? & ?). rewrite Hn, Hf, Hb, Ho.
    destruct (N.ltb_spec 0 (2 ^ N.of_nat k - f - b)) as [Hlt|Hge].
    - destruct (range_with_rel _ _ _ _ (rg_len r) Hp) as (Hs & He & _ & Hl); [done|].
      fold (mask_of k). rewrite mask_size.
      destruct (refine_start_rel _ _ _ k k f _ _ (rg_len r) (le_n k) Hs) as (s & -> & Hs'); [lia|]. res_simpl.
      destruct (refine_end_rel _ _ _ k k b _ _ (rg_len r) (le_n k) He) as (e & -> & He'); [lia|]. res_simpl.
      rewrite N.mod_small in Hs', He' by lia.
      pose proof (off_mono k (rg_len r) f (2 ^ N.of_nat k - b)).
      pose proof (off_le k (rg_len r) (2 ^ N.of_nat k - b)).
      rewrite (range_len_rel base (rg_lo r) (rg_blk r) (rg_lo r + off k (rg_len r) f) (rg_lo r + off k (rg_len r) (2 ^ N.of_nat k - b))).
      + res_simpl. eexists. split; [do 2 f_equal; cbn; lia|]. intros _. cbn. by eapply rpoints_as_ptr.
      + split_and!; cbn; try apply Hs'; try apply He'; lia.
    - eexists. split; [|lia]. cbn. do 2 f_equal. replace (2 ^ N.of_nat k - b) with f by lia. lia.
  Qed.
  Lemma sip_next_none base r k f b it : sip_rel base r k f b it -> f + b = 2 ^ N.of_nat k ->
    sip_next sz it = Ok (it, None) /\ sip_next_back sz it = Ok (it, None).
  Proof.
    intros H E. unfold sip_next, sip_next_back. rewrite (sip_len_rel _ _ _ _ _ _ H). res_simpl.
    by replace (2 ^ N.of_nat k - f - b) with 0 by lia.
  Qed.
  Lemma sip_next_rel base r k f b it : sip_rel base r k f b it -> f + b < 2 ^ N.of_nat k ->
    exists it' s, sip_next sz it = Ok (it', Some s) /\ sip_rel base r k (f + 1) b it' /\
      items_rel base (leaf_rng k r f) s.
  Proof.
    intros H E. unfold sip_next. rewrite (sip_len_rel _ _ _ _ _ _ H). res_simpl.
    rewrite (proj2 (N.eqb_neq 0 _)) by lia.
    destruct H as (Hp & Ho & Hn & Hf & Hb & Hle & ? & ?). rewrite Hn, Hf, Hb, Ho.
    fold (mask_of k). rewrite mask_size.
    destruct (locate_front_rel base _ k k f _ _ (rg_len r) (le_n k) Hp) as (p & -> & Hp'). res_simpl.
    rewrite N.mod_small in * by lia. rewrite uadd_ok by lia. res_simpl.
    do 2 eexists. split; [done|]. unfold sip_rel, items_rel. split_and!; cbn; try done; try lia.
  Qed.
  Lemma sip_next_back_rel base r k f b it : sip_rel base r k f b it -> f + b < 2 ^ N.of_nat k ->
    exists it' s, sip_next_back sz it = Ok (it', Some s) /\ sip_rel base r k f (b + 1) it' /\
      items_rel base (leaf_rng k r (2 ^ N.of_nat k - 1 - b)) s.
  Proof.
    intros H E. unfold sip_next_back. rewrite (sip_len_rel _ _ _ _ _ _ H). res_simpl.
    rewrite (proj2 (N.eqb_neq 0 _)) by lia.
    destruct H as (Hp & Ho & Hn & Hf & Hb & Hle & ? & ?). rewrite Hn, Hf, Hb, Ho.
    fold (mask_of k). rewrite mask_size.
    destruct (locate_back_rel base _ k k b _ _ (rg_len r) (le_n k) Hp) as (p & -> & Hp'). res_simpl.
    rewrite N.mod_small in * by lia. rewrite uadd_ok by lia. res_simpl.
    do 2 eexists. split; [done|]. unfold sip_rel, items_rel. split_and!; cbn; try done; try lia.
    by replace (2 ^ N.of_nat k - 1 - b + 1) with (2 ^ N.of_nat k - b) by lia.
  Qed.
End ptrs.

(** ** Cells *)
Lemma rng_cells_length r : length (rng_cells r) = N.to_nat (rg_len r).
Proof. unfold rng_cells. by rewrite fmap_length, seq_length. Qed.
Lemma rng_cells_lookup r i : i < rg_len r -> rng_cells r !! N.to_nat i = Some (rg_blk r, rg_lo r + i).
Proof.
  intros H. unfold rng_cells. rewrite list_lookup_fmap, lookup_seq_lt by lia. cbn. do 2 f_equal. lia.
Qed.
Lemma rng_cells_elem r c : c ∈ rng_cells r <-> fst c = rg_blk r /\ rg_lo r <= snd c < rg_lo r + rg_len r.
Proof.
  unfold rng_cells. rewrite elem_of_list_fmap. setoid_rewrite elem_of_seq. split.
  - intros (i & -> & Hi). cbn. split; [done|]. lia.
  - destruct c as [b i]. cbn. intros [-> Hi]. exists (N.to_nat (i - rg_lo r)). split; [f_equal|]; lia.
Qed.
Lemma rng_cells_nil b lo : rng_cells (Rng b lo 0) = [].
Proof. done. Qed.
Lemma rng_cells_app b lo n m :
  rng_cells (Rng b lo (n + m)) = rng_cells (Rng b lo n) ++ rng_cells (Rng b (lo + n) m).
Proof.
  unfold rng_cells. cbn. rewrite N2Nat.inj_add, seq_app, fmap_app. f_equal.
  replace (0 + N.to_nat n)%nat with (N.to_nat n + 0)%nat by lia.
  rewrite <- fmap_add_seq, <- list_fmap_compose. apply list_fmap_ext. intros i x _. cbn. f_equal. lia.
Qed.
Lemma rng_cells_NoDup r : NoDup (rng_cells r).
Proof. unfold rng_cells. apply NoDup_fmap_2; [|apply NoDup_seq]. intros i j [=]. lia. Qed.
Lemma half_cells r : rng_cells r = rng_cells (half false r) ++ rng_cells (half true r).
Proof.
  destruct r as [b lo len]. cbn. rewrite <- rng_cells_app. f_equal. f_equal.
  pose proof (div2_le len). lia.
Qed.
Lemma seg_cells k r f b : f + b <= 2 ^ N.of_nat k ->
  take (N.to_nat (2 ^ N.of_nat k - f - b)) (drop (N.to_nat f) (rng_leaves k r)) ≫= rng_cells
  = rng_cells (seg_rng k r f b).
Proof.
  intros H. remember (N.to_nat (2 ^ N.of_nat k - f - b)) as n eqn:En. revert f H En.
  induction n as [|n IH]; intros f H En.
  - unfold seg_rng. replace (2 ^ N.of_nat k - b) with f by lia. by rewrite N.sub_diag.
  - rewrite (drop_S _ (leaf_rng k r f)) by (apply rng_leaves_lookup; lia). cbn [take mbind list_bind].
    replace (S (N.to_nat f)) with (N.to_nat (f + 1)) by lia. rewrite IH by lia.
    unfold seg_rng, leaf_rng.
    pose proof (off_mono k (rg_len r) f (f + 1)). pose proof (off_mono k (rg_len r) (f + 1) (2 ^ N.of_nat k - b)).
    replace (off k (rg_len r) (2 ^ N.of_nat k - b) - off k (rg_len r) f) with
      ((off k (rg_len r) (f + 1) - off k (rg_len r) f) + (off k (rg_len r) (2 ^ N.of_nat k - b) - off k (rg_len r) (f + 1))) by lia.
    rewrite rng_cells_app. f_equal. f_equal. f_equal. lia.
Qed.

