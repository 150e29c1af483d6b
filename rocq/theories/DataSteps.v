(** Preservation of the data layer invariant (DataInv.v) by elementary steps and
    by the functions of DataModel.v. *)
From Verif Require Import Base BaseLemmas SliceItemsModel DataModel Spec SliceItemsProof DataInv.
Local Open Scope N_scope.

Section steps.
  Context {V : Type} (sz : N).
  Notation dworld := (dworld V).
  Notation dinv := (@dinv V sz).
  Notation ent_ok := (@ent_ok V sz).

  (** What never changes: shape of buffers, number of nodes; items only go. *)
  Definition shr (w w' : dworld) : Prop :=
    dw_mem w' ⊆ dw_mem w /\ bshape w' = bshape w /\ length (dw_datas w') = length (dw_datas w).
  Lemma shr_refl w : shr w w.
  Proof. done. Qed.
  Lemma shr_trans w1 w2 w3 : shr w1 w2 -> shr w2 w3 -> shr w1 w3.
  Proof. intros (? & ? & ?) (? & ? & ?). split_and!; [by etrans|congruence|congruence]. Qed.

  Lemma rng_ok_half B side r : rng_ok B r -> rng_ok B (half side r).
  Proof.
    intros (base & len & E & Hle & Hl). exists base, len. pose proof (div2_le (rg_len r)).
    destruct side; cbn; split_and!; try done; revert Hle H; generalize (rg_len r / 2); intros; lia.
  Qed.
  Lemma rng_ok_sub B b lo len lo' len' : rng_ok B (Rng b lo len) -> lo' + len' <= lo + len -> rng_ok B (Rng b lo' len').
  Proof. intros (base & l & E & Hle & Hl) H. exists base, l. cbn in *. split_and!; try done. lia. Qed.
  Lemma ent_ok_sub w b lo len lo' len' o : ent_ok w (Rng b lo len) o -> lo' + len' <= lo + len ->
    (len' <> 0 -> len <> 0) -> ent_ok w (Rng b lo' len') o.
  Proof.
    intros [H1 H2] Hle Hn. split; [by eapply rng_ok_sub|]. cbn in *. auto.
  Qed.
  Lemma ent_ok_half w side r o : ent_ok w r o -> ent_ok w (half side r) o.
  Proof.
    intros [H1 H2]. split; [by apply rng_ok_half|]. intros Hs Hn.
    destruct (H2 Hs) as (a & s & v & ? & ? & ?).
    { intros E. apply Hn. pose proof (half_len_sum r) as Es. destruct side; rewrite E in Es; lia. }
    exists a, s, v. split_and!; try done. by destruct side.
  Qed.
  Lemma ent_ok_empty w b lo len lo' o : ent_ok w (Rng b lo len) o -> lo' <= lo + len -> forall o', ent_ok w (Rng b lo' 0) o'.
  Proof. intros [H1 _] Hle o'. split; [eapply rng_ok_sub; [done|lia]|]. by cbn. Qed.
  Lemma ent_ok_own w n o : ent_ok w (nrng n) o -> ent_ok w (own_rng n) o.
  Proof.
    intros H. unfold own_rng. destruct (d_left n), (d_right n); try by apply ent_ok_half.
    - eapply ent_ok_empty; [done|]. cbn. lia.
    - done.
  Qed.
  (** [ent_ok] depends on [SliceAlloc]s and buffers only. *)
  Lemma ent_ok_datas w h r o : ent_ok (dw_set_datas w h) r o <-> ent_ok w r o.
  Proof. done. Qed.

  (** *** Counts *)
  Lemma dinv_recount w T L R R' O d s n s' :
    dinv w T L R O -> live (dw_datas w) d s n -> s' <> 0%nat ->
    (forall x, cnt x R' + (if decide (x = d) then s else 0) = cnt x R + (if decide (x = d) then s' else 0))%nat ->
    dinv (dw_set_datas w (<[d := Some (s', n)]> (dw_datas w))) T L R' O.
  Proof.
    intros I Hv Hs' HR.
    assert (forall d' s'' n', live (<[d := Some (s', n)]> (dw_datas w)) d' s'' n' -> exists s0, live (dw_datas w) d' s0 n') as Hback.
    { intros d' s'' n' [(-> & [= <- <-] & _)|[_ H]]%live_insert; eauto. }
    assert (forall f, hsum f (<[d := Some (s', n)]> (dw_datas w)) = hsum f (dw_datas w)) as Hsum.
    { intros f. pose proof (hsum_insert_live f _ _ _ _ (Some (s', n)) Hv). cbn in *. lia. }
    destruct I. split; cbn; try done.
    - by rewrite insert_length.
    - intros d' n' [(-> & [= -> <-] & _)|[_ H]]%live_insert; [done|]. by eapply di_pos.
    - intros x. rewrite rc_count_insert by (by eapply live_lt). rewrite Hsum. specialize (HR x). specialize (di_cnt x).
      case_decide; subst; cbn; [|lia]. rewrite (rc_count_live _ _ _ _ Hv) in di_cnt. lia.
    - intros d' s'' n' l (s0 & H)%Hback. eauto.
    - intros d' s'' n' l side c (s0 & H)%Hback. eauto.
    - intros d' s'' n' l side (s0 & H)%Hback. eauto.
    - intros c. rewrite Hsum. apply di_own.
    - intros a. rewrite Hsum. apply di_acnt.
    - intros d' s'' n' (s0 & H)%Hback. eapply di_nalloc; eauto.
  Qed.
  Lemma dinv_inc w T L R O d s n : dinv w T L R O -> live (dw_datas w) d s n ->
    dinv (dw_set_datas w (<[d := Some (S s, n)]> (dw_datas w))) T L (d :: R) O.
  Proof.
    intros I Hv. eapply dinv_recount; [done..|]. intros x. rewrite cnt_cons.
    destruct (decide (d = x)), (decide (x = d)); subst; try done; lia.
  Qed.
  Lemma dinv_dec w T L R O d s n : dinv w T L (d :: R) O -> live (dw_datas w) d (S (S s)) n ->
    dinv (dw_set_datas w (<[d := Some (S s, n)]> (dw_datas w))) T L R O.
  Proof.
    intros I Hv. eapply dinv_recount; [done..|]. intros x. rewrite cnt_cons.
    destruct (decide (d = x)), (decide (x = d)); subst; try done; lia.
  Qed.

  (** The last reference goes: what the node owned is now owned by the caller. *)
  Lemma dinv_unlink w T L R O d n : dinv w T L (d :: R) O -> live (dw_datas w) d 1 n ->
    dinv (dw_set_datas w (<[d := None]> (dw_datas w))) T L (kids n ++ R) ((own_rng n, d_alloc n) :: O).
  Proof.
    intros I Hv.
    assert (forall d' s'' n', live (<[d := None]> (dw_datas w)) d' s'' n' -> live (dw_datas w) d' s'' n') as Hback.
    { intros d' s'' n' [(-> & [=] & _)|[_ H]]%live_insert; eauto. }
    assert (forall f, hsum f (<[d := None]> (dw_datas w)) + f n = hsum f (dw_datas w))%nat as Hsum.
    { intros f. pose proof (hsum_insert_live f _ _ _ _ None Hv). cbn in *. lia. }
    pose proof (di_nalloc _ _ _ _ _ _ I _ _ _ Hv) as Hent.
    destruct I. split; cbn; try done.
    - by rewrite insert_length.
    - intros d' n' H%Hback. by eapply di_pos.
    - intros x. rewrite rc_count_insert by (by eapply live_lt). specialize (di_cnt x).
      specialize (Hsum (fun n => cnt x (kids n))). cbn in Hsum. rewrite cnt_app. rewrite cnt_cons in di_cnt.
      destruct (decide (d = x)), (decide (x = d)); subst; try done; cbn; [|lia].
      rewrite (rc_count_live _ _ _ _ Hv) in di_cnt. lia.
    - intros d' s'' n' l H%Hback. eauto.
    - intros d' s'' n' l side c H%Hback. eauto.
    - intros d' s'' n' l side H%Hback. eauto.
    - intros c. rewrite ocnt_cons. cbn. specialize (di_own c). specialize (Hsum (fun n => inr c (own_rng n))). cbn in Hsum.
      unfold memcnt in *. cbn. lia.
    - intros a. rewrite alloc_refs_cons, cnt_app. cbn. specialize (di_acnt a).
      specialize (Hsum (fun n => cnt a (option_list (d_alloc n)))). cbn in Hsum. lia.
    - intros d' s'' n' H%Hback. eapply di_nalloc; eauto.
    - intros x [->|Hx]%elem_of_cons; [|by apply di_oalloc]. cbn. by apply ent_ok_own.
  Qed.

  (** *** Owned ranges *)
  Lemma dinv_rearrange w T L R A B O :
    dinv w T L R (A ++ O) ->
    (forall c, ocnt c A = ocnt c B) -> (forall a, cnt a (alloc_refs A) = cnt a (alloc_refs B)) ->
    (forall x, x ∈ B -> ent_ok w (fst x) (snd x)) ->
    dinv w T L R (B ++ O).
  Proof.
    assert (forall c X, ocnt c (X ++ O) = ocnt c X + ocnt c O)%nat as Hoa.
    { intros c X. induction X as [|x X IH]; [done|]. cbn [app]. rewrite !ocnt_cons, IH. lia. }
    assert (forall X, alloc_refs (X ++ O) = alloc_refs X ++ alloc_refs O) as Haa.
    { intros X. unfold alloc_refs. apply bind_app. }
    intros [] Hc Ha HB. split; try done.
    - intros c. rewrite Hoa, <- Hc, <- Hoa. done.
    - intros a. rewrite Haa, cnt_app, <- Ha, <- cnt_app, <- Haa. done.
    - intros x [Hx|Hx]%elem_of_app; [by apply HB|]. apply di_oalloc. set_solver.
  Qed.
  Lemma dinv_ent w T L R e O : dinv w T L R (e :: O) -> ent_ok w (fst e) (snd e).
  Proof. intros I. eapply di_oalloc; [done|left]. Qed.
  (** Give up a range without alloc reference. *)
  Lemma dinv_drop_none w T L R b lo O : dinv w T L R ((Rng b lo 0, None) :: O) -> dinv w T L R O.
  Proof.
    intros I. apply (dinv_rearrange w T L R [(Rng b lo 0, None)] [] O I); cbn; try done.
    - intros c. rewrite ocnt_cons. cbn. by rewrite inr_empty.
    - intros x ?%elem_of_nil. done.
  Qed.
  Lemma dinv_add_none w T L R O b lo : rng_ok (bshape w) (Rng b lo 0) ->
    dinv w T L R O -> dinv w T L R ((Rng b lo 0, None) :: O).
  Proof.
    intros Hr I. apply (dinv_rearrange w T L R [] [(Rng b lo 0, None)] O I); cbn; try done.
    - intros c. rewrite ocnt_cons. cbn. by rewrite inr_empty.
    - intros x ->%elem_of_list_singleton. split; [done|]. by cbn.
  Qed.
  (** The same range, another name for an empty one. *)
  Lemma dinv_re_empty w T L R O r o b lo : rg_len r = 0 -> rng_ok (bshape w) (Rng b lo 0) ->
    dinv w T L R ((r, o) :: O) -> dinv w T L R ((Rng b lo 0, o) :: O).
  Proof.
    intros Hr Hk I. apply (dinv_rearrange w T L R [(r, o)] [(Rng b lo 0, o)] O I); try done.
    - intros c. rewrite !ocnt_cons. cbn. rewrite inr_empty. destruct r; cbn in *; subst. by rewrite inr_empty.
    - intros x ->%elem_of_list_singleton. split; [done|]. by cbn.
  Qed.
  (** Merging two adjacent ranges; the second reference stays with an empty range. *)
  Lemma dinv_merge w T L R O b lo x y o o' :
    dinv w T L R ((Rng b lo x, o) :: (Rng b (lo + x) y, o') :: O) ->
    ent_ok w (Rng b lo (x + y)) o ->
    dinv w T L R ((Rng b lo (x + y), o) :: (Rng b lo 0, o') :: O).
  Proof.
    intros I He. apply (dinv_rearrange w T L R [(Rng b lo x, o); (Rng b (lo + x) y, o')] [(Rng b lo (x + y), o); (Rng b lo 0, o')] O I); try done.
    - intros c. rewrite !ocnt_cons. cbn [fst]. rewrite inr_split, inr_empty. lia.
    - intros e [->|He'%elem_of_list_singleton]%elem_of_cons; [done|]. subst.
      eapply ent_ok_empty; [exact He|]. lia.
  Qed.
  (** Merging on the other side. *)
  Lemma dinv_merge' w T L R O b lo x y o o' :
    dinv w T L R ((Rng b (lo + x) y, o) :: (Rng b lo x, o') :: O) ->
    ent_ok w (Rng b lo (x + y)) o ->
    dinv w T L R ((Rng b lo (x + y), o) :: (Rng b lo 0, o') :: O).
  Proof.
    intros I He. apply (dinv_rearrange w T L R [(Rng b (lo + x) y, o); (Rng b lo x, o')] [(Rng b lo (x + y), o); (Rng b lo 0, o')] O I); try done.
    - intros c. rewrite !ocnt_cons. cbn [fst]. rewrite inr_split, inr_empty. lia.
    - intros e [->|He'%elem_of_list_singleton]%elem_of_cons; [done|]. subst.
      eapply ent_ok_empty; [exact He|]. lia.
  Qed.

  (** *** Items *)
  Lemma bshape_lookup (w : dworld) b blk : dw_blocks w !! b = Some blk -> bshape w !! b = Some (b_base blk, b_len blk).
  Proof. intros H. unfold bshape. by rewrite list_lookup_fmap, H. Qed.
  Lemma rng_ok_block (w : dworld) r : rng_ok (bshape w) r -> exists blk, dw_blocks w !! rg_blk r = Some blk /\
    rg_lo r + rg_len r <= b_len blk /\ b_len blk < usize_lim /\ bbase (bshape w) (rg_blk r) = b_base blk.
  Proof.
    intros (base & len & E & ? & ?). unfold bbase. rewrite E. cbn.
    unfold bshape in E. rewrite list_lookup_fmap in E.
    destruct (dw_blocks w !! rg_blk r) as [blk|]; [|done]. injection E as <- <-. eauto 10.
  Qed.
  Lemma mem_at_ok w T L R O r o p : dinv w T L R O -> ent_ok w r o ->
    in_rng (p_blk p, p_idx p) r = true ->
    points sz (bbase (bshape w) (rg_blk r)) (p_blk p) (p_idx p) p ->
    mem_at sz w p = match dw_mem w !! (p_blk p, p_idx p) with Some v => Ok v | None => UB end.
  Proof.
    intros I [Hr Ha] Hin Hp. pose proof (points_addr _ _ _ _ _ Hp) as Hp'. clear Hp. rename Hp' into Hp. apply in_rng_spec in Hin as [Hb Hi]. cbn in Hb, Hi.
    destruct (rng_ok_block _ _ Hr) as (blk & E & Hle & _ & Hbase). unfold mem_at. rewrite Hb, E.
    destruct (N.eqb_spec sz 0) as [Hs|Hs]; cbn [negb andb]; [done|].
    destruct (Ha Hs) as (a & s & v & _ & Hv & Hpb); [lia|].
    destruct (di_aok _ _ _ _ _ _ I _ _ _ Hv) as (blk' & E' & Hf & _ & _).
    rewrite Hpb, E in E'. injection E' as <-. rewrite Hf. cbn [orb].
    rewrite Hp, Hbase by done. rewrite N.eqb_refl. cbn [orb negb].
    rewrite (proj2 (N.ltb_lt _ _)) by lia. done.
  Qed.
  Lemma dinv_take w T L R O r r' o c : dinv w T L R ((r, o) :: O) ->
    (forall c', inr c' r = inr c' r' + (if decide (c' = c) then 1 else 0))%nat ->
    ent_ok w r' o ->
    is_Some (dw_mem w !! c) /\ dinv (dw_set_mem w (delete c (dw_mem w))) T L R ((r', o) :: O).
  Proof.
    intros I Hc He.
    assert (is_Some (dw_mem w !! c)) as Hm.
    { pose proof (di_own _ _ _ _ _ _ I c) as E. rewrite ocnt_cons in E. cbn in E. rewrite Hc in E.
      rewrite decide_True in E by done. unfold memcnt in E. destruct (dw_mem w !! c); [eauto|lia]. }
    split; [done|]. destruct I. split; cbn; try done.
    - intros c'. specialize (di_own c'). rewrite ocnt_cons in *. cbn in *. rewrite Hc in di_own.
      unfold memcnt in *. cbn. destruct (decide (c' = c)) as [->|Hn].
      + rewrite lookup_delete. destruct Hm as [v E]. rewrite E in di_own. lia.
      + rewrite lookup_delete_ne by done. lia.
    - intros x [->|Hx]%elem_of_cons; [done|]. apply di_oalloc. by right.
  Qed.
  Lemma inr_front c b lo len : len <> 0 ->
    (inr c (Rng b lo len) = inr c (Rng b (lo + 1)%N (len - 1)%N) + (if decide (c = (b, lo)) then 1 else 0))%nat.
  Proof.
    intros H. replace len with (1 + (len - 1)) at 1 by lia. rewrite inr_split, Nat.add_comm. f_equal.
    unfold inr. destruct (in_rng c (Rng b lo 1)) eqn:E.
    - apply in_rng_spec in E as [E1 E2]. cbn in *. destruct c as [c1 c2]. cbn in *. subst.
      rewrite decide_True; [done|]. f_equal. lia.
    - rewrite decide_False; [done|]. intros ->. apply not_true_iff_false in E. apply E, in_rng_spec. cbn. split; [done|lia].
  Qed.
  Lemma inr_back c b lo len : len <> 0 ->
    (inr c (Rng b lo len) = inr c (Rng b lo (len - 1)%N) + (if decide (c = (b, lo + len - 1)%N) then 1 else 0))%nat.
  Proof.
    intros H. replace len with ((len - 1) + 1) at 1 by lia. rewrite inr_split. f_equal.
    unfold inr. destruct (in_rng c (Rng b (lo + (len - 1)) 1)) eqn:E.
    - apply in_rng_spec in E as [E1 E2]. cbn in *. destruct c as [c1 c2]. cbn in *. subst.
      rewrite decide_True; [done|]. f_equal. lia.
    - rewrite decide_False; [done|]. intros ->. apply not_true_iff_false in E. apply E, in_rng_spec. cbn. split; [done|lia].
  Qed.
  Lemma dinv_log w T L R O e : dinv w T L R O -> dinv (dw_log w e) T L R O.
  Proof. intros []. split; done. Qed.

  (** [drop_in_place] of a whole owned range. *)
  Lemma drop_in_place_ok T L R O o b k : forall w lo p, dinv w T L R ((Rng b lo (N.of_nat k), o) :: O) ->
    points sz (bbase (bshape w) b) b lo p ->
    exists w', drop_in_place sz w k p = Ok w' /\ dinv w' T L R ((Rng b (lo + N.of_nat k) 0, o) :: O) /\
      shr w w' /\ dw_datas w' = dw_datas w.
  Proof.
    induction k as [|k IH]; intros w lo p I Hp.
    - exists w. split_and!; try done. rewrite N.add_0_r. done.
    - cbn [drop_in_place]. unfold mem_take.
      pose proof (dinv_ent _ _ _ _ _ _ I) as He. cbn [fst snd] in He.
      pose proof Hp as (Hb & Hi & _).
      rewrite (mem_at_ok w T L R _ (Rng b lo (N.of_nat (S k))) o p I He).
      + destruct (dinv_take w T L R O _ (Rng b (lo + 1) (N.of_nat k)) o (b, lo) I) as [[v Hv] I'].
        * intros c'. rewrite inr_front by lia. do 2 f_equal. f_equal. lia.
        * eapply ent_ok_sub; [exact He|lia|lia].
        * rewrite Hb, Hi, Hv. res_simpl.
          destruct (IH (dw_log (dw_set_mem w (delete (b, lo) (dw_mem w))) (EDrop b lo v)) (lo + 1) (ptr_add sz p 1))
            as (w' & E & I'' & Hs & Hd).
          -- apply dinv_log. done.
          -- by apply points_add.
          -- exists w'. rewrite E. split_and!; try done.
             ++ by replace (lo + N.of_nat (S k)) with (lo + 1 + N.of_nat k) by lia.
             ++ eapply shr_trans; [|exact Hs]. split_and!; try done. cbn. apply delete_subseteq.
      + apply in_rng_spec. cbn. rewrite Hb, Hi. split; [done|lia].
      + cbn. rewrite Hb, Hi. done.
  Qed.

  (** *** SliceAlloc *)
  Lemma ent_ok_allocs w h r o : ent_ok w r o ->
    (forall a s v, o = Some a -> live (dw_allocs w) a s v -> exists s', live h a s' v) ->
    ent_ok (dw_set_allocs w h) r o.
  Proof.
    intros [H1 H2] Hh. split; [done|]. intros Hs Hn.
    destruct (H2 Hs Hn) as (a & s & v & -> & Hv & Hb).
    destruct (Hh _ _ _ eq_refl Hv) as [s' Hv']. exists a, s', v. done.
  Qed.
  Lemma dinv_alloc_recount w T L R O O' a s v s' :
    dinv w T L R O -> live (dw_allocs w) a s v -> s' <> 0%nat ->
    (forall c, ocnt c O' = ocnt c O) ->
    (forall x, cnt x (alloc_refs O') + (if decide (x = a) then s else 0) = cnt x (alloc_refs O) + (if decide (x = a) then s' else 0))%nat ->
    (forall x, x ∈ O' -> ent_ok w (fst x) (snd x)) ->
    dinv (dw_set_allocs w (<[a := Some (s', v)]> (dw_allocs w))) T L R O'.
  Proof.
    intros I Hv Hs' Hc HR HE.
    assert (forall d' s'' n', live (<[a := Some (s', v)]> (dw_allocs w)) d' s'' n' -> exists s0, live (dw_allocs w) d' s0 n') as Hback.
    { intros d' s'' n' [(-> & [= <- <-] & _)|[_ H]]%live_insert; eauto. }
    assert (forall d' s'' n', live (dw_allocs w) d' s'' n' -> exists s0, live (<[a := Some (s', v)]> (dw_allocs w)) d' s0 n') as Hfwd.
    { intros d' s'' n' H. destruct (decide (d' = a)) as [->|].
      - destruct (live_fun _ _ _ _ _ _ Hv H) as [-> ->]. eexists. apply live_insert_eq. by eapply live_lt.
      - exists s''. by apply live_insert_ne. }
    destruct I. split; cbn; try done.
    - intros c. rewrite Hc. apply di_own.
    - intros x. rewrite rc_count_insert by (by eapply live_lt). specialize (HR x). specialize (di_acnt x).
      case_decide; subst; cbn; [|lia]. rewrite (rc_count_live _ _ _ _ Hv) in di_acnt. lia.
    - intros d' n' [(-> & [= -> <-] & _)|[_ H]]%live_insert; [done|]. by eapply di_apos.
    - intros a' s'' n' (s0 & H)%Hback. by eapply di_aok.
    - intros a1 s1 v1 a2 s2 v2 (? & H1)%Hback (? & H2)%Hback. eauto.
    - intros d s'' n Hn. eapply (ent_ok_allocs w _ _ _ (di_nalloc _ _ _ Hn)). eauto.
    - intros x Hx. eapply (ent_ok_allocs w _ _ _ (HE _ Hx)). eauto.
    - intros Hs b blk H1 H2 H3. destruct (di_freed Hs _ _ H1 H2 H3) as (x & sx & vx & Hx & ?).
      destruct (Hfwd _ _ _ Hx) as [s0 ?]. eauto 10.
  Qed.
  Lemma cnt_option_list a o : cnt a (option_list o) = if decide (o = Some a) then 1%nat else 0%nat.
  Proof.
    destruct o as [b|]; cbn.
    - rewrite cnt_cons, cnt_nil. repeat case_decide; simplify_eq; try done.
    - by rewrite decide_False.
  Qed.
  Lemma dinv_alloc_live w T L R O a : dinv w T L R O ->
    (0 < hsum (fun n => cnt a (option_list (d_alloc n))) (dw_datas w) + cnt a (alloc_refs O))%nat ->
    exists s v, live (dw_allocs w) a s v.
  Proof.
    intros I H. rewrite <- (di_acnt _ _ _ _ _ _ I) in H.
    destruct (rc_count_pos _ _ H) as (s & v & ? & _). eauto.
  Qed.
  (** Cloning an [Rc<SliceAlloc>] some node or range has. *)
  Lemma alloc_clone_ok w T L R O o b lo : dinv w T L R O ->
    rng_ok (bshape w) (Rng b lo 0) ->
    (forall a, o = Some a -> exists s v, live (dw_allocs w) a s v) ->
    exists h, alloc_clone w o = Ok (dw_set_allocs w h) /\
      dinv (dw_set_allocs w h) T L R ((Rng b lo 0, o) :: O) /\
      (forall r o', ent_ok w r o' -> ent_ok (dw_set_allocs w h) r o').
  Proof.
    intros I Hr Ho. destruct o as [a|]; cbn.
    - destruct (Ho a eq_refl) as (s & v & Hv). rewrite (rc_inc_live _ _ _ _ Hv). res_simpl.
      eexists. split; [done|]. split.
      + eapply dinv_alloc_recount; [done..| | |].
        * intros c. rewrite ocnt_cons. cbn. by rewrite inr_empty.
        * intros x. rewrite alloc_refs_cons, cnt_app, cnt_option_list. cbn.
          destruct (decide (Some a = Some x)), (decide (x = a)); simplify_eq; try done; lia.
        * intros x [->|Hx]%elem_of_cons; [|by eapply di_oalloc]. split; [done|]. by cbn.
      + intros r o' He. eapply ent_ok_allocs; [done|]. intros a' s' v' _ H.
        destruct (decide (a' = a)) as [->|].
        * destruct (live_fun _ _ _ _ _ _ Hv H) as [-> ->]. eexists. apply live_insert_eq. by eapply live_lt.
        * exists s'. by apply live_insert_ne.
    - exists (dw_allocs w). replace (dw_set_allocs w (dw_allocs w)) with w by (by destruct w).
      split_and!; try done. by apply dinv_add_none.
  Qed.

  Lemma bshape_free (w : dworld) b blk : dw_blocks w !! b = Some blk ->
    (fun b => (b_base b, b_len b)) <$> <[b := Block (b_base blk) (b_len blk) true]> (dw_blocks w) = bshape w.
  Proof.
    intros H. unfold bshape. rewrite list_fmap_insert. cbn. apply list_insert_id.
    by rewrite list_lookup_fmap, H.
  Qed.
  (** Dropping an [Option<Rc<SliceAlloc>>] that comes with an empty range. *)
  Lemma alloc_release_ok w T L R O o b lo : dinv w T L R ((Rng b lo 0, o) :: O) ->
    exists w', alloc_release sz w o = Ok w' /\ dinv w' T L R O /\
      dw_mem w' = dw_mem w /\ bshape w' = bshape w /\ dw_datas w' = dw_datas w.
  Proof.
    intros I. destruct o as [a|]; cbn [alloc_release].
    2:{ exists w. split_and!; try done. by eapply dinv_drop_none. }
    destruct (dinv_alloc_live _ _ _ _ _ a I) as (s & v & Hv).
    { rewrite alloc_refs_cons, cnt_app, cnt_option_list. cbn. rewrite decide_True by done. lia. }
    assert (s <> 0%nat) by (intros ->; by eapply di_apos).
    unfold rc_dec. rewrite Hv. destruct s as [|[|s]]; [done| |].
    2:{ res_simpl. eexists. split; [done|]. split_and!; try done.
        eapply dinv_alloc_recount; [done..| | |].
        - intros c. rewrite ocnt_cons. cbn. by rewrite inr_empty.
        - intros x. rewrite alloc_refs_cons, cnt_app, cnt_option_list. cbn.
          destruct (decide (Some a = Some x)), (decide (x = a)); simplify_eq; try done; lia.
        - intros x Hx. eapply di_oalloc; [done|]. by right. }
    res_simpl.
    (* the last one *)
    destruct (di_aok _ _ _ _ _ _ I _ _ _ Hv) as (blk & Hblk & Hfr & Haddr & Hlen).
    pose proof (di_acnt _ _ _ _ _ _ I a) as Ea. rewrite (rc_count_live _ _ _ _ Hv) in Ea.
    rewrite alloc_refs_cons, cnt_app, cnt_option_list in Ea. cbn in Ea. rewrite decide_True in Ea by done.
    set (bl' := if (sz =? 0) || (sa_len v =? 0) then dw_blocks w else <[p_blk (sa_ptr v) := Block (b_base blk) (b_len blk) true]> (dw_blocks w)).
    set (w1 := DW (<[a := None]> (dw_allocs w)) (dw_datas w) bl' (dw_mem w) (dw_trace w)).
    assert (bshape w1 = bshape w) as Hsh.
    { unfold bshape, w1, bl'. cbn. destruct ((sz =? 0) || (sa_len v =? 0)); [done|]. by apply bshape_free. }
    assert (forall d' s'' n', live (<[a := None]> (dw_allocs w)) d' s'' n' -> a <> d' /\ live (dw_allocs w) d' s'' n') as Hback.
    { intros d' s'' n' [(-> & [=] & _)|[? H']]%live_insert; eauto. }
    assert (forall r o, (forall a', o = Some a' -> a' <> a) -> ent_ok w r o -> ent_ok w1 r o) as Hent.
    { intros r o Hne [H1 H2]. split; [by rewrite Hsh|]. intros Hs Hn.
      destruct (H2 Hs Hn) as (a' & s' & v' & -> & Hv' & Hb). exists a', s', v'. split_and!; try done.
      cbn. apply live_insert_ne; [|done]. specialize (Hne a' eq_refl). done. }
    assert (dinv w1 T L R O) as I1.
    { pose proof (di_auniq _ _ _ _ _ _ I) as Huniq.
      assert (forall c, ocnt c ((Rng b lo 0, Some a) :: O) = ocnt c O) as Hocnt.
      { intros c. rewrite ocnt_cons. cbn. by rewrite inr_empty. }
      assert (forall x, cnt x (alloc_refs ((Rng b lo 0, Some a) :: O)) = (if decide (x = a) then 1 else 0) + cnt x (alloc_refs O))%nat as Hacnt.
      { intros x. rewrite alloc_refs_cons, cnt_app, cnt_option_list. cbn.
        destruct (decide (Some a = Some x)), (decide (x = a)); simplify_eq; done. }
      destruct I. split; try (by rewrite ?Hsh); cbn; try done.
      - intros c. rewrite <- (Hocnt c). apply di_own.
      - intros x. rewrite rc_count_insert by (by eapply live_lt). specialize (di_acnt x).
        rewrite Hacnt in di_acnt. case_decide; subst; cbn in *; [|lia]. lia.
      - intros x v' [_ H']%Hback. by eapply di_apos.
      - intros x s' v' [Hne H']%Hback. destruct (di_aok _ _ _ H') as (blk' & Hb1 & Hb2 & Hb3 & Hb4).
        exists blk'. split_and!; try done. unfold w1, bl'. cbn [dw_blocks].
        destruct ((sz =? 0) || (sa_len v =? 0)); [done|]. rewrite list_lookup_insert_ne; [done|].
        intros E. apply Hne. eapply Huniq; [exact Hv|exact H'|done].
      - intros x1 s1 v1 x2 s2 v2 [_ H1]%Hback [_ H2]%Hback. eauto.
      - intros d s n Hd. apply Hent; [|eauto]. intros a' Hda ->.
        pose proof (hsum_ge (fun n => cnt a (option_list (d_alloc n))) _ _ _ _ Hd) as Hge. cbn beta in Hge.
        rewrite cnt_option_list, decide_True in Hge by done. lia.
      - intros x Hx. apply Hent; [|apply di_oalloc; by right]. intros a' Hda ->.
        assert (0 < cnt a (alloc_refs O))%nat; [|lia]. apply cnt_pos. unfold alloc_refs.
        apply elem_of_list_bind. exists x. split; [rewrite Hda; set_solver|done].
      - intros Hs b' blk' Hb1 Hb2 Hb3. unfold bl' in Hb1.
        assert (dw_blocks w !! b' = Some blk' /\ (b' = p_blk (sa_ptr v) -> False)) as [Hb1' Hne].
        { rewrite (proj2 (N.eqb_neq _ _) Hs) in Hb1. cbn [orb] in Hb1. destruct (N.eqb_spec (sa_len v) 0) as [E|E].
          - split; [done|]. intros ->. rewrite Hblk in Hb1. injection Hb1 as <-. lia.
          - apply list_lookup_insert_Some in Hb1 as [(<- & <- & _)|[? ?]]; [done|]. split; [done|]. intros ->. done. }
        destruct (di_freed Hs b' blk' Hb1' Hb2 Hb3) as (x & sx & vx & Hx & Hxb). exists x, sx, vx. split; [|done].
        apply live_insert_ne; [|done]. intros <-. destruct (live_fun _ _ _ _ _ _ Hv Hx) as [_ <-]. auto. }
    unfold salloc_drop, w1, bl' in *. destruct ((sz =? 0) || (sa_len v =? 0)).
    - eexists. split; [done|]. split_and!; try done.
    - cbn. rewrite Hblk, Hfr, Haddr, Hlen, !N.eqb_refl. cbn.
      eexists. split; [done|]. split_and!; try done.
      apply (dinv_log _ _ _ _ _ (EFree (p_blk (sa_ptr v)) (b_base blk) (b_len blk))) in I1. exact I1.
  Qed.

  (** *** New nodes *)
  Lemma new_root_ok w T L R O r o p : dinv w T L R ((r, o) :: O) ->
    points sz (bbase (bshape w) (rg_blk r)) (rg_blk r) (rg_lo r) p ->
    exists h, data_new w p (rg_len r) o = (dw_set_datas w h, length (dw_datas w)) /\
      length h = S (length (dw_datas w)) /\
      dinv (dw_set_datas w h) (T ++ [r]) (L ++ [Lbl (length T) []]) (length (dw_datas w) :: R) O.
  Proof.
    intros I Hp. cbn. eexists. split; [done|]. split; [rewrite app_length; cbn; lia|].
    pose proof Hp as (Hpb & Hpi & _).
    set (n0 := DNode p (rg_len r) o None None).
    assert (nrng n0 = r) as Hn0. { unfold nrng, n0. cbn. rewrite Hpb, Hpi. by destruct r. }
    assert (own_rng n0 = r) as Ho0 by done.
    assert (forall d' s'' n', live (dw_datas w ++ [Some (1%nat, n0)]) d' s'' n' ->
      (d' = length (dw_datas w) /\ n' = n0 /\ s'' = 1%nat) \/ (d' < length (dw_datas w))%nat /\ live (dw_datas w) d' s'' n') as Hback.
    { intros d' s'' n' [[-> [= <- <-]]|?]%live_snoc; [left|right]; done. }
    pose proof (dinv_ent _ _ _ _ _ _ I) as He. cbn in He.
    pose proof (fun d s n l side => di_link _ _ _ _ _ _ I d s n l side) as Hlink.
    assert (Hfresh : forall l, l ∈ L -> l_tree l <> length T).
    { intros l Hl. pose proof (di_lab _ _ _ _ _ _ I l Hl). lia. }
    assert (HLl : forall d l, (d < length (dw_datas w))%nat -> (L ++ [Lbl (length T) []]) !! d = Some l -> L !! d = Some l).
    { intros d l Hd E. rewrite lookup_app_l in E; [done|]. by rewrite (di_len _ _ _ _ _ _ I). }
    destruct I. split; cbn; try done.
    - rewrite !app_length, di_len. done.
    - apply NoDup_app. split_and!; [done| |apply NoDup_singleton].
      intros l Hl ->%elem_of_list_singleton. by apply (Hfresh _ Hl).
    - intros l [Hl| ->%elem_of_list_singleton]%elem_of_app; rewrite app_length; cbn; [|lia].
      specialize (di_lab l Hl). lia.
    - intros l side [Hl|Hl%elem_of_list_singleton]%elem_of_app; apply elem_of_app.
      + left. eauto.
      + exfalso. unfold lchild in Hl. injection Hl as _ E. by destruct (l_path l).
    - intros d n' [(-> & -> & [=])|[_ H]]%Hback. by eapply di_pos.
    - intros x. rewrite rc_count_snoc, hsum_app. cbn. rewrite cnt_cons. specialize (di_cnt x).
      change (kids n0) with (@nil nat). rewrite cnt_nil.
      destruct (decide (x = length (dw_datas w))) as [->|Hx].
      2:{ rewrite (decide_False (P := length (dw_datas w) = x)) by congruence. lia. }
      rewrite (decide_True (P := length (dw_datas w) = length (dw_datas w))) by done.
      assert (rc_count (dw_datas w) (length (dw_datas w)) = 0%nat) as E.
      { unfold rc_count. by rewrite lookup_ge_None_2. }
      rewrite E in di_cnt. lia.
    - intros d s n l [(-> & -> & ->)|[Hlt H]]%Hback Hl.
      + rewrite list_lookup_middle in Hl by done. injection Hl as <-. rewrite Hn0, lrng_new. split; [done|].
        cbn. rewrite Hpb, Hpi. done.
      + apply HLl in Hl; [|done]. rewrite lrng_snoc; [eauto|]. by eapply di_lab, elem_of_list_lookup_2.
    - intros d s n l side c [(-> & -> & ->)|[Hlt H]]%Hback Hl Hc; [by destruct side|].
      apply HLl in Hl; [|done]. destruct (Hlink _ _ _ _ _ _ H Hl Hc). split; [done|]. by apply lookup_app_l_Some.
    - intros d s n l side [(-> & -> & ->)|[Hlt H]]%Hback Hl Hc [Hin|Hin%elem_of_list_singleton]%elem_of_app.
      + rewrite list_lookup_middle in Hl by done. injection Hl as <-. apply (Hfresh _ Hin). done.
      + rewrite list_lookup_middle in Hl by done. injection Hl as <-. done.
      + apply HLl in Hl; [|done]. by eapply di_nolink.
      + apply HLl in Hl; [|done]. apply elem_of_list_lookup_2 in Hl. apply (Hfresh _ Hl). unfold lchild in Hin. congruence.
    - intros c. rewrite hsum_app. cbn. rewrite Ho0. specialize (di_own c). rewrite ocnt_cons in di_own.
      unfold memcnt in *. cbn in *. lia.
    - intros a. rewrite hsum_app. cbn. specialize (di_acnt a). rewrite alloc_refs_cons, cnt_app in di_acnt. cbn in *. lia.
    - intros d s n [(-> & -> & ->)|[Hlt H]]%Hback; [by rewrite Hn0|]. by eapply di_nalloc.
    - intros x Hx. apply di_oalloc. by right.
  Qed.

  Lemma kids_set_child x side c n : d_child side n = None ->
    cnt x (kids (d_set_child side (Some c) n)) = (cnt x (kids n) + (if decide (c = x) then 1 else 0))%nat.
  Proof.
    intros H. unfold kids, d_set_child, d_child in *. rewrite !cnt_app, !cnt_option_list.
    destruct side; cbn; rewrite H; destruct (decide (c = x)); subst;
      rewrite ?(decide_True (P := Some x = Some x)) by done; rewrite ?(decide_False (P := None = Some x)) by done;
      repeat (rewrite (decide_False (P := Some c = Some x)) by congruence); lia.
  Qed.
  Lemma own_set_child x side c n : d_child side n = None ->
    inr x (own_rng n) = (inr x (own_rng (d_set_child side (Some c) n)) + inr x (half side (nrng n)))%nat.
  Proof.
    intros H. unfold own_rng, d_set_child, d_child in *.
    destruct side; cbn; rewrite H; [destruct (d_left n)|destruct (d_right n)]; cbn; rewrite ?inr_empty; try done.
    - by rewrite inr_half.
    - rewrite inr_half. cbn. lia.
  Qed.
  Lemma new_child_ok w T L R O p s n l side q len o b lo :
    dinv w T L R ((Rng b lo 0, o) :: O) ->
    live (dw_datas w) p s n -> L !! p = Some l -> d_child side n = None ->
    Rng (p_blk q) (p_idx q) len = half side (nrng n) ->
    points sz (bbase (bshape w) (p_blk q)) (p_blk q) (p_idx q) q ->
    ent_ok w (half side (nrng n)) o ->
    let c := length (dw_datas w) in
    let h := <[p := Some (s, d_set_child side (Some c) n)]> (dw_datas w ++ [Some (2%nat, DNode q len o None None)]) in
    dinv (dw_set_datas w h) T (L ++ [lchild l side]) (c :: R) O.
  Proof.
    intros I Hv Hl Hnc Hq Hpt He c h.
    set (n0 := DNode q len o None None) in *. set (n1 := d_set_child side (Some c) n) in *.
    pose proof (live_lt _ _ _ _ Hv) as Hplt. fold c in Hplt.
    assert (nrng n0 = half side (nrng n)) as Hn0 by done.
    assert (own_rng n0 = half side (nrng n)) as Ho0 by done.
    assert (nrng n1 = nrng n) as Hn1. { unfold n1, d_set_child. by destruct side. }
    assert (d_alloc n1 = d_alloc n) as Ha1. { unfold n1, d_set_child. by destruct side. }
    assert (d_ptr n1 = d_ptr n) as Hp1. { unfold n1, d_set_child. by destruct side. }
    assert (d_child side n1 = Some c) as Hc1. { unfold n1, d_set_child, d_child. by destruct side. }
    assert (d_child (negb side) n1 = d_child (negb side) n) as Hc2. { unfold n1, d_set_child, d_child. by destruct side. }
    assert (forall d' s'' n', live h d' s'' n' ->
      (d' = c /\ n' = n0 /\ s'' = 2%nat) \/ (d' = p /\ n' = n1 /\ s'' = s) \/ (d' <> p /\ (d' < c)%nat /\ live (dw_datas w) d' s'' n')) as Hback.
    { intros d' s'' n' [(<- & [= <- <-] & _)|[Hne H]]%live_insert; [right; left; done|].
      apply live_snoc in H as [[-> [= <- <-]]|[? ?]]; [left; done|right; right]. done. }
    assert (forall f, hsum f h + f n = hsum f (dw_datas w) + f n1 + f n0)%nat as Hsum.
    { intros f. unfold h. pose proof (live_app_l _ [Some (2%nat, n0)] _ _ _ Hv) as Hv'.
      pose proof (hsum_insert_live f _ _ _ _ (Some (s, n1)) Hv') as E. rewrite hsum_app in E. cbn in E. lia. }
    pose proof (fun d s n l side => di_link _ _ _ _ _ _ I d s n l side) as Hlink.
    assert (HLl : forall d l', (d < c)%nat -> (L ++ [lchild l side]) !! d = Some l' -> L !! d = Some l').
    { intros d l' Hd E. rewrite lookup_app_l in E; [done|]. by rewrite (di_len _ _ _ _ _ _ I). }
    assert (HLc : forall l', (L ++ [lchild l side]) !! c = Some l' -> l' = lchild l side).
    { intros l' E. unfold c in E. rewrite <- (di_len _ _ _ _ _ _ I), list_lookup_middle in E by done. by injection E as <-. }
    pose proof (di_nolink _ _ _ _ _ _ I _ _ _ _ _ Hv Hl Hnc) as Hnotin.
    assert (length h = S c) as Hlen. { unfold h, c. rewrite insert_length, app_length. cbn. lia. }
    destruct I. split; cbn; try done.
    - rewrite Hlen, app_length, di_len. cbn. fold c. lia.
    - apply NoDup_app. split_and!; [done| |apply NoDup_singleton].
      intros l' Hl' ->%elem_of_list_singleton. done.
    - intros l' [Hl'| ->%elem_of_list_singleton]%elem_of_app; [eauto|]. cbn. by eapply di_lab, elem_of_list_lookup_2.
    - intros l' side' [Hl'|Hl'%elem_of_list_singleton]%elem_of_app; apply elem_of_app; left; [eauto|].
      apply lchild_inj in Hl' as [-> _]. by eapply elem_of_list_lookup_2.
    - intros d n' [(-> & -> & [=])|[(-> & -> & <-)|(_ & _ & H)]]%Hback; by eapply di_pos.
    - intros x. specialize (di_cnt x). specialize (Hsum (fun n => cnt x (kids n))). cbn in Hsum.
      unfold n1 in Hsum. rewrite kids_set_child in Hsum by done. change (kids n0) with (@nil nat) in Hsum. rewrite cnt_nil in Hsum.
      unfold h. rewrite rc_count_insert by (rewrite app_length; cbn; fold c; lia). rewrite rc_count_snoc. fold c.
      fold n1. fold h. rewrite cnt_cons.
      assert (rc_count (dw_datas w) p = s) as Ep by (by eapply rc_count_live).
      assert (rc_count (dw_datas w) c = 0%nat) as Ec. { unfold rc_count. by rewrite lookup_ge_None_2. }
      destruct (decide (x = p)) as [->|].
      + rewrite (decide_False (P := c = p)) in * by lia. cbn. lia.
      + destruct (decide (x = c)) as [->|].
        * rewrite (decide_True (P := c = c)) in * by done. cbn. lia.
        * rewrite (decide_False (P := c = x)) in * by done. lia.
    - intros d s' n' l' [(-> & -> & ->)|[(-> & -> & ->)|(_ & Hlt & H)]]%Hback Hl'.
      + apply HLc in Hl' as ->. rewrite Hn0, lrng_child. destruct (di_geo _ _ _ _ Hv Hl) as [<- _]. split; [done|]. done.
      + apply HLl in Hl'; [|done]. rewrite Hn1, Hp1. eauto.
      + apply HLl in Hl'; [|done]. eauto.
    - intros d s' n' l' side' c' [(-> & -> & ->)|[(-> & -> & ->)|(_ & Hlt & H)]]%Hback Hl' Hc'.
      + by destruct side'.
      + apply HLl in Hl'; [|done]. rewrite Hl in Hl'. injection Hl' as <-.
        destruct (decide (side' = side)) as [->|Hns].
        * rewrite Hc1 in Hc'. injection Hc' as <-. split; [done|].
          unfold c. rewrite <- di_len. by rewrite list_lookup_middle.
        * assert (side' = negb side) as -> by (by destruct side, side'). rewrite Hc2 in Hc'.
          destruct (Hlink _ _ _ _ _ _ Hv Hl Hc'). split; [done|]. by apply lookup_app_l_Some.
      + apply HLl in Hl'; [|done]. destruct (Hlink _ _ _ _ _ _ H Hl' Hc'). split; [done|]. by apply lookup_app_l_Some.
    - intros d s' n' l' side' [(-> & -> & ->)|[(-> & -> & ->)|(Hdp & Hlt & H)]]%Hback Hl' Hc' [Hin|Hin%elem_of_list_singleton]%elem_of_app.
      + apply HLc in Hl' as ->. by eapply Hnotin, di_closed.
      + apply HLc in Hl' as ->. apply lchild_inj in Hin as [Hin _]. by eapply lchild_ne.
      + apply HLl in Hl'; [|done]. rewrite Hl in Hl'. injection Hl' as <-.
        destruct (decide (side' = side)) as [->|Hns]; [congruence|].
        assert (side' = negb side) as -> by (by destruct side, side'). rewrite Hc2 in Hc'. by eapply di_nolink.
      + apply HLl in Hl'; [|done]. rewrite Hl in Hl'. injection Hl' as <-.
        apply lchild_inj in Hin as [_ ->]. congruence.
      + apply HLl in Hl'; [|done]. by eapply di_nolink.
      + apply HLl in Hl'; [|done]. apply lchild_inj in Hin as [-> _]. apply Hdp. by eapply NoDup_lookup.
    - intros x. specialize (di_own x). rewrite ocnt_cons in di_own. cbn in di_own. rewrite inr_empty in di_own.
      specialize (Hsum (fun n => inr x (own_rng n))). cbn in Hsum. rewrite Ho0 in Hsum.
      rewrite (own_set_child x side c n) in Hsum by done. fold n1 in Hsum. unfold memcnt in *. cbn in *. lia.
    - intros a. specialize (di_acnt a). rewrite alloc_refs_cons, cnt_app in di_acnt. cbn in di_acnt.
      specialize (Hsum (fun n => cnt a (option_list (d_alloc n)))). cbn in Hsum. rewrite Ha1 in Hsum. lia.
    - intros d s' n' [(-> & -> & ->)|[(-> & -> & ->)|(_ & Hlt & H)]]%Hback.
      + rewrite Hn0. exact He.
      + rewrite Hn1, Ha1. by eapply di_nalloc.
      + by eapply di_nalloc.
    - intros x Hx. apply di_oalloc. by right.
  Qed.
End steps.
