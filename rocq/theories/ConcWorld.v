(** The guard invariant of the whole machine: it holds after every schedule,
    whatever the threads do. *)
From Verif Require Import Base BaseLemmas Api SliceItemsModel Spec DataModel RcModel DataInv DataSteps GuardInv ArcModel ArcInv ArcConc ConcInv ConcGuard.
Local Open Scope nat_scope.
#[local] Arguments slo {A} F hs : simpl never.
#[local] Arguments thr {V A} F ts : simpl never.

Section world.
  Context {V : Type} (sz : N).
  Notation stack := (list (frame V)).
  Implicit Types (s : cstate V) (t : nat).

  Definition genv_of s (D : list nat) : genv := GE (cs_g s) D (dw_datas (cs_d s)) (cs_h s).
  Definition kof s (h : nat) : nat := match cs_h s !! h with Some (Some (_, k)) => k | _ => 0 end.
  Record GI s (D : list nat) : Prop := {
    G_inv : ginv (cs_g s) D (tot hG fG s) (tot hW fW s) (thr fL (cs_t s));
    G_len : length (gd_metas (cs_g s)) = length (dw_datas (cs_d s));
    G_run : forall t st, cs_t s !! t = Some st -> exists b, run (genv_of s D) b st;
    G_slot : forall h x k, cs_h s !! h = Some (Some (x, k)) -> xok D x;
    G_bor : forall h, cnt h (thr fB (cs_t s)) = kof s h
  }.

  (** What is known about the rest of the world, as seen from thread [t]. *)
  Section rest.
    Context s D t (st : stack) (I : GI s D) (Ht : cs_t s !! t = Some st).
    Definition rG := slo hG (cs_h s) ++ thr fG (delete t (cs_t s)).
    Definition rW := slo hW (cs_h s) ++ thr fW (delete t (cs_t s)).
    Definition rL := thr fL (delete t (cs_t s)).
    Lemma rest_inv : ginv (cs_g s) D (stk fG st ++ rG) (stk fW st ++ rW) (stk fL st ++ rL).
    Proof.
      eapply ginv_perm; [..|exact (G_inv _ _ I)]; unfold tot, rG, rW, rL.
      - rewrite (thr_perm fG _ _ _ Ht). rewrite !app_assoc. f_equiv. apply Permutation_app_comm.
      - rewrite (thr_perm fW _ _ _ Ht). rewrite !app_assoc. f_equiv. apply Permutation_app_comm.
      - by apply thr_perm.
    Qed.
    Lemma rest_latch i down : (i, down) ∈ rL -> i ∈ rG.
    Proof.
      intros (t' & st' & Hne & Ht' & Hl)%thr_delete_elem. destruct (G_run _ _ I _ _ Ht') as [b Hb].
      apply elem_of_app. right. apply thr_delete_elem. exists t', st'. split_and!; [done..|]. by eapply run_latch.
    Qed.
    Lemma rest_borrow b x : run (genv_of s D) b st -> b = Some x ->
      xok D x /\ (forall i, i ∈ hG x -> i ∈ rG) /\ (forall i, i ∈ hW x -> i ∈ rW).
    Proof.
      intros Hr ->. destruct (run_borrow _ _ _ Hr) as ([h|] & Ho & _); [|done]. destruct Ho as (y & k & Hh & [= <-]).
      cbn in Hh. split_and!.
      - by eapply (G_slot _ _ I).
      - intros i Hi. apply elem_of_app. left. apply slo_elem. eauto.
      - intros i Hi. apply elem_of_app. left. apply slo_elem. eauto.
    Qed.
    Lemma rest_bor h : cnt h (stk fB st) + cnt h (thr fB (delete t (cs_t s))) = kof s h.
    Proof. rewrite <- (G_bor _ _ I h), (cnt_perm _ _ _ (thr_perm fB _ _ _ Ht)), cnt_app. done. Qed.
    (** Putting it back together. *)
    Lemma rest_back s' D' st' :
      cs_t s' = <[t := st']> (cs_t s) ->
      ginv (cs_g s') D' (slo hG (cs_h s') ++ stk fG st' ++ thr fG (delete t (cs_t s)))
                        (slo hW (cs_h s') ++ stk fW st' ++ thr fW (delete t (cs_t s)))
                        (stk fL st' ++ thr fL (delete t (cs_t s))) ->
      length (gd_metas (cs_g s')) = length (dw_datas (cs_d s')) ->
      gstab (genv_of s D) (genv_of s' D') ->
      (exists b, run (genv_of s' D') b st') ->
      (forall h x k, cs_h s !! h = Some (Some (x, S k)) -> exists k', cs_h s' !! h = Some (Some (x, k'))) ->
      (forall h x k, cs_h s' !! h = Some (Some (x, k)) -> xok D' x) ->
      (forall h, cnt h (stk fB st') + cnt h (thr fB (delete t (cs_t s))) = kof s' h) ->
      GI s' D'.
    Proof.
      intros E1 H1 H2 H3 [b H4] H5 H6 H7. split; [|done|..|done|].
      - eapply ginv_perm; [..|exact H1]; unfold tot; rewrite E1.
        + by rewrite (thr_upd fG _ _ _ _ Ht).
        + by rewrite (thr_upd fW _ _ _ _ Ht).
        + by rewrite (thr_upd fL _ _ _ _ Ht).
      - intros t' st1 Ht'. rewrite E1 in Ht'. destruct (decide (t = t')) as [<-|Hne].
        + rewrite list_lookup_insert in Ht' by by eapply lookup_lt_Some. injection Ht' as <-. by exists b.
        + rewrite list_lookup_insert_ne in Ht' by done. destruct (G_run _ _ I _ _ Ht') as [b' Hb'].
          exists b'. eapply run_stable; [done| |done]. intros h x k Hh Hk. cbn in Hk |- *.
          assert (0 < kof s h) as Hpos.
          { rewrite <- (G_bor _ _ I). apply cnt_pos, thr_elem. eauto. }
          unfold kof in Hpos. rewrite Hk in Hpos. destruct k as [|k]; [lia|]. by eapply H5.
      - intros h. rewrite E1, (cnt_perm _ _ _ (thr_upd fB _ _ _ _ Ht)), cnt_app. apply H7.
    Qed.
  End rest.

  Lemma GI_init n : GI (init_cstate n) [].
  Proof.
    assert (forall A (F : frame V -> list A), thr F (replicate n []) = []) as E.
    { intros A F. induction n; [done|]. cbn. done. }
    split.
    - unfold tot. cbn [init_cstate cs_t cs_h cs_g]. rewrite !E.
      split; cbn; intros; try done; try (by rewrite ?lookup_nil in *); by apply elem_of_nil in H.
    - done.
    - intros t st [-> _]%lookup_replicate. exists None. constructor.
    - done.
    - intros h. cbn [init_cstate cs_t]. by rewrite E.
  Qed.

  Lemma GI_mstep s D t st d g st' o l :
    GI s D -> cs_t s !! t = Some st -> mstep sz (cs_d s) (cs_g s) st = Ok (d, g, st') ->
    exists X, GI (CS d g (cs_h s) (<[t := st']> (cs_t s)) o l) (D ++ X) /\
      gstab (genv_of s D) (GE g (D ++ X) (dw_datas d) (cs_h s)) /\ stk fB st' = stk fB st.
  Proof.
    intros I Ht Hm. destruct (G_run _ _ I _ _ Ht) as [b Hb].
    destruct (mstep_guard sz _ _ _ _ _ _ _ _ _ _ _ _ Hm (rest_inv _ _ _ _ I Ht) (G_len _ _ I) Hb
      (fun x E => rest_borrow _ _ t _ I b x Hb E) (rest_latch _ _ t I)) as (X & HG & Hl & Hr & Hst & HB).
    exists X. split_and!; [|done..]. eapply (rest_back s D t st I Ht); try done.
    - eapply ginv_perm; [..|exact HG]; [..|done]; unfold rG, rW; cbn;
        rewrite !app_assoc; f_equiv; apply Permutation_app_comm.
    - by exists b.
    - cbn. eauto.
    - intros h x k Hh. refine (xok_stable _ _ Hst _ _). by eapply (G_slot _ _ I).
    - intros h. cbn. rewrite HB. by apply (rest_bor s D t).
  Qed.

  Lemma xok_gs E E' x : gstab E E' -> xok (ge_D E) x -> xok (ge_D E') x.
  Proof. intros. by eapply xok_stable. Qed.

  Lemma slo_one {A} (F : xhandle -> list A) x : slo F (match x with Some x => [Some (x, 0)] | None => [] end) =
    match x with Some x => F x | None => [] end.
  Proof. destruct x; [|done]. unfold slo. cbn. by rewrite app_nil_r. Qed.

  (** A call that ends. [x]: the value that the thread [t] hands over. *)
  Lemma GI_finish s D t st h x o :
    GI s D -> cs_t s !! t = Some st ->
    (forall y, x = Some y -> xok D y) ->
    match h with None => True | Some h => exists y k, cs_h s !! h = Some (Some (y, k)) end ->
    stk fB st = fB (V:=V) (KEnd h) -> stk fL st = [] ->
    stk fG st = match x with Some x => hG x | None => [] end -> stk fW st = match x with Some x => hW x | None => [] end ->
    GI (finish s t h x o) D.
  Proof.
    intros I Ht Hx Hh EB EL EG EW. pose proof (rest_inv _ _ _ _ I Ht) as HG. rewrite EG, EW, EL in HG.
    assert (forall A (F : xhandle -> list A), slo F (end_borrow (cs_h s) h) = slo F (cs_h s)) as ES.
    { intros A F. unfold end_borrow. destruct h as [h|]; [|done]. destruct Hh as (y & k & Hh). rewrite Hh. by eapply slo_borrow. }
    assert (length (end_borrow (cs_h s) h) = length (cs_h s)) as ELen.
    { unfold end_borrow. destruct h as [h|]; [|done]. destruct Hh as (y & k & Hh). rewrite Hh. apply insert_length. }
    eapply (rest_back s D t st I Ht); try done.
    - change (cs_h (finish s t h x o)) with (end_borrow (cs_h s) h ++ match x with Some x => [Some (x, 0)] | None => [] end).
      change (cs_g (finish s t h x o)) with (cs_g s). rewrite !slo_app, !slo_one, !ES. eapply ginv_perm; [..|exact HG]; unfold rG, rW; [..|done];
        rewrite <- !app_assoc; cbn; apply Permutation_app_swap_app.
    - apply I.
    - exists None. constructor.
    - intros h' y k Hy. unfold finish. cbn. rewrite lookup_app_l by (rewrite ELen; by eapply lookup_lt_Some).
      unfold end_borrow. destruct h as [h|]; [|eauto]. destruct Hh as (y' & k' & Hh). rewrite Hh.
      destruct (decide (h = h')) as [<-|]; [|rewrite list_lookup_insert_ne by done; eauto].
      rewrite list_lookup_insert by by eapply lookup_lt_Some. rewrite Hh in Hy. injection Hy as -> ->. eauto.
    - intros h' y k Hy. unfold finish in Hy. cbn in Hy. apply lookup_app_Some in Hy as [Hy|[_ Hy]].
      + unfold end_borrow in Hy. destruct h as [h|]; [|by eapply (G_slot _ _ I)]. destruct Hh as (y' & k' & Hh). rewrite Hh in Hy.
        apply list_lookup_insert_Some in Hy as [(-> & [= -> _] & _)|[_ Hy]]; by eapply (G_slot _ _ I).
      + destruct x as [x|]; [|done]. apply list_lookup_singleton_Some in Hy as [_ [= -> _]]. auto.
    - intros h'. pose proof (rest_bor s D t st I Ht h') as Hb. rewrite EB in Hb. unfold kof in Hb |- *. unfold finish. cbn [cs_h set_thread set_slots put_out].
      cbn [stk mbind list_bind cnt].
      destruct (decide (h' < length (cs_h s))) as [Hlt|Hge].
      + rewrite lookup_app_l by lia. destruct h as [h|]; cbn in Hb |- *.
        * destruct Hh as (y & k & Hh). rewrite Hh. destruct (decide (h = h')) as [<-|].
          -- rewrite list_lookup_insert by done. rewrite Hh in Hb. rewrite cnt_cons, decide_True in Hb by done. cbn in Hb |- *. lia.
          -- rewrite list_lookup_insert_ne by done. rewrite cnt_cons, decide_False in Hb by done. cbn in Hb |- *. lia.
        * cbn. lia.
      + rewrite lookup_ge_None_2 in Hb by lia. rewrite lookup_app_r by lia.
        assert (cnt h' (thr fB (delete t (cs_t s))) = 0) as -> by lia.
        destruct x as [x|]; [|done].
        destruct (decide (h' = length (end_borrow (cs_h s) h))) as [->|]; [by rewrite Nat.sub_diag|].
        by rewrite lookup_ge_None_2 by (cbn; lia).
  Qed.

  Lemma GI_borrow s D t h x k st' :
    GI s D -> cs_t s !! t = Some [] -> cs_h s !! h = Some (Some (x, k)) ->
    (forall E : genv, (exists k, ge_h E !! h = Some (Some (x, k))) -> run E (Some x) st') ->
    stk fB st' = [h] -> stk fL st' = [] -> stk fG st' = [] -> stk fW st' = [] ->
    GI (set_thread (borrow s h x k) t st') D.
  Proof.
    intros I Ht Hh Hr EB EL EG EW. pose proof (rest_inv _ _ _ _ I Ht) as HG.
    eapply (rest_back s D t [] I Ht); try done; cbn.
    - rewrite !(slo_borrow _ _ _ _ _ _ Hh), EG, EW, EL. exact HG.
    - apply I.
    - exists (Some x). apply Hr. cbn. rewrite list_lookup_insert by by eapply lookup_lt_Some. eauto.
    - intros h' y k' Hy. destruct (decide (h = h')) as [<-|].
      + rewrite list_lookup_insert by by eapply lookup_lt_Some. rewrite Hh in Hy. injection Hy as -> ->. eauto.
      + rewrite list_lookup_insert_ne by done. eauto.
    - intros h' y k' [(-> & [= -> _] & _)|[_ Hy]]%list_lookup_insert_Some; by eapply (G_slot _ _ I).
    - intros h'. rewrite EB. pose proof (rest_bor s D t [] I Ht h') as Hb. unfold kof in Hb |- *. cbn in Hb |- *.
      rewrite cnt_cons. destruct (decide (h = h')) as [<-|].
      + rewrite list_lookup_insert by by eapply lookup_lt_Some. rewrite Hh in Hb. cbn. lia.
      + rewrite list_lookup_insert_ne by done. cbn. lia.
  Qed.

  Lemma GI_take s D t h x d g st' :
    GI s D -> cs_t s !! t = Some [] -> cs_h s !! h = Some (Some (x, 0)) ->
    (forall RI RW LT, ginv (cs_g s) D RI RW LT -> ginv g D RI RW LT) ->
    length (gd_metas g) = length (dw_datas d) ->
    gstab (genv_of s D) (GE g D (dw_datas d) (cs_h s)) ->
    (forall E : genv, xok (ge_D E) x -> run E None st') ->
    stk fB st' = [] -> stk fL st' = [] -> stk fG st' = hG x -> stk fW st' = hW x ->
    GI (set_thread (set_world (take s h) d g) t st') D.
  Proof.
    intros I Ht Hh Hg Hl Hs Hr EB EL EG EW. pose proof (rest_inv _ _ _ _ I Ht) as HG.
    eapply (rest_back s D t [] I Ht); try done; cbn.
    - rewrite EL. apply Hg. eapply ginv_perm; [..|exact HG]; unfold rG, rW; cbn; [..|done].
      + rewrite (slo_upd _ _ _ _ _ Hh), (slo_perm _ _ _ _ Hh), EG. cbn. rewrite !app_assoc. f_equiv. apply Permutation_app_comm.
      + rewrite (slo_upd _ _ _ _ _ Hh), (slo_perm _ _ _ _ Hh), EW. cbn. rewrite !app_assoc. f_equiv. apply Permutation_app_comm.
    - destruct Hs. by split.
    - exists None. apply Hr. cbn. by eapply (G_slot _ _ I).
    - intros h' y k' Hy. destruct (decide (h = h')) as [<-|].
      + rewrite Hh in Hy. discriminate Hy.
      + rewrite list_lookup_insert_ne by done. eauto.
    - intros h' y k' [(-> & [=] & _)|[_ Hy]]%list_lookup_insert_Some; by eapply (G_slot _ _ I).
    - intros h'. rewrite EB. pose proof (rest_bor s D t [] I Ht h') as Hb. unfold kof in Hb |- *. cbn in Hb |- *.
      destruct (decide (h = h')) as [<-|].
      + rewrite list_lookup_insert by by eapply lookup_lt_Some. rewrite Hh in Hb. lia.
      + rewrite list_lookup_insert_ne by done. lia.
  Qed.
  Lemma GI_take' s D t h x st' :
    GI s D -> cs_t s !! t = Some [] -> cs_h s !! h = Some (Some (x, 0)) ->
    (forall E : genv, xok (ge_D E) x -> run E None st') ->
    stk fB st' = [] -> stk fL st' = [] -> stk fG st' = hG x -> stk fW st' = hW x ->
    GI (set_thread (take s h) t st') D.
  Proof.
    intros I Ht Hh Hr EB EL EG EW. apply (GI_take s D t h x (cs_d s) (cs_g s)); try done. apply I.
  Qed.
  (** The guards and the number of datas do not change. *)
  Lemma GI_data s D d o : GI s D -> dw_datas d = dw_datas (cs_d s) ->
    GI (CS d (cs_g s) (cs_h s) (cs_t s) o (cs_log s)) D.
  Proof.
    intros [] E. split; try done; cbn.
    - by rewrite E.
    - intros t st Ht. destruct (G_run0 _ _ Ht) as [b Hb]. exists b. unfold genv_of in *. cbn. by rewrite E.
  Qed.
  Lemma slot_Some s h x : slot s h = Some x -> cs_h s !! h = Some (Some x).
  Proof. unfold slot. destruct (cs_h s !! h) as [[|]|]; naive_solver. Qed.
  Lemma mem_replace_datas (d : dworld V) p v d' old : mem_replace sz d p v = Ok (d', old) -> dw_datas d' = dw_datas d.
  Proof. unfold mem_replace. by intros (x & _ & [= <- _])%bind_inv. Qed.
  Lemma mut_split_datas (side : bool) (d : dworld V) m d' ms : mut_split_off sz side d m = Ok (d', ms) -> dw_datas d' = dw_datas d.
  Proof.
    unfold mut_split_off. intros H. destruct side.
    - destruct (si_split_off_right _ _) as [a b]. apply bind_inv in H as (d1 & H1 & [= <- _]). by eapply alloc_clone_datas.
    - destruct (si_split_off_left _ _) as [a b]. apply bind_inv in H as (d1 & H1 & [= <- _]). by eapply alloc_clone_datas.
  Qed.

  (** [tstep] by the shape of the stack. *)
  Lemma tstep_cases s t (st : stack) : cs_t s !! t = Some st ->
    (st = [] /\ tstep sz s t = Ok s) \/ (exists r, st = [FHold r; KEnd None] /\ tstep sz s t = Ok s) \/
    (exists x o h, st = [FV (VFin x o); KEnd h] /\ tstep sz s t = Ok (finish s t h x o)) \/
    (exists r, st = [FV (VHold r); KEnd None] /\ tstep sz s t = Ok (set_thread s t [FHold r; KEnd None])) \/
    tstep sz s t = '(d, g, st') ← mstep sz (cs_d s) (cs_g s) st;
        Ok (CS d g (cs_h s) (<[t := st']> (cs_t s)) (cs_out s) (cs_log s ++ step_log st st')).
  Proof.
    intros Ht. unfold tstep. rewrite Ht. destruct st as [|f [|f' [|]]]; try (by left); try (by do 4 right).
    - destruct f; try (by do 4 right). destruct v; by do 4 right.
    - destruct f; try (by do 4 right).
      + destruct f'; try (by do 4 right). destruct h; [by do 4 right|]. right; left. eauto.
      + destruct v; try (by do 4 right); destruct f'; try (by do 4 right).
        * destruct h; [by do 4 right|]. do 3 right; left. eauto.
        * do 2 right. left. eauto.
    - destruct f; try (by do 4 right).
      + destruct f'; try (by do 4 right). destruct h; by do 4 right.
      + destruct v; try (by do 4 right); destruct f'; try (by do 4 right). destruct h; by do 4 right.
  Qed.
  Lemma run_val_inv E b v (k : stack) : run E b (FV v :: k) -> exists q, vok E v q /\ acc E b q k.
  Proof.
    inversion 1; subst; try done; eauto.
    all: try match goal with H : _ \/ _ |- _ => by destruct H end.
  Qed.
  Lemma GI_new s D t d n o : GI s D -> cs_t s !! t = Some [] -> dw_datas d = dw_datas (cs_d s) ++ [o] ->
    GI (set_thread (set_world s d (gd_new_data (cs_g s) None)) t [FGuard n; KSlice n; KEnd None]) D.
  Proof.
    intros I Ht Ed. pose proof (rest_inv _ _ _ _ I Ht) as HG.
    eapply (rest_back s D t [] I Ht); try done; cbn.
    - apply ginv_new_data; [exact HG|done].
    - rewrite Ed, !app_length, (G_len _ _ I). done.
    - unfold genv_of. cbn. rewrite Ed. apply gstab_new_data.
    - exists None. by eapply R_guard; [|constructor].
    - eauto.
    - apply (G_slot _ _ I).
    - intros h. by apply (rest_bor s D t []).
  Qed.
  Lemma data_from_boxed_slice_datas (d : dworld V) p len d' n : data_from_boxed_slice d p len = (d', n) ->
    exists o, dw_datas d' = dw_datas d ++ [o].
  Proof.
    unfold data_from_boxed_slice, data_new, alloc_new. destruct (_ =? 0)%N; cbn; intros [= <- <-]; eauto.
  Qed.
  Lemma data_new_datas (d : dworld V) p len a d' n : data_new d p len a = (d', n) -> exists o, dw_datas d' = dw_datas d ++ [o].
  Proof. unfold data_new. cbn. intros [= <- <-]. eauto. Qed.
  Lemma new_block_datas (d : dworld V) base vals d' p len : new_block d base vals = (d', p, len) -> dw_datas d' = dw_datas d.
  Proof. unfold new_block. by intros [= <- <- <-]. Qed.

  Lemma GI_tstep s D t s' : GI s D -> tstep sz s t = Ok s' -> exists X, GI s' (D ++ X).
  Proof.
    intros I Hs.
    assert (forall s', GI s' D -> exists X, GI s' (D ++ X)) as Hnil.
    { intros s1 H1. exists []. by rewrite app_nil_r. }
    destruct (cs_t s !! t) as [st|] eqn:Ht; [|unfold tstep in Hs; rewrite Ht in Hs; injection Hs as <-; auto].
    destruct (tstep_cases s t st Ht) as [(-> & Hc)|[(r & -> & Hc)|[(x & o & h & -> & Hc)|[(r & -> & Hc)|Hc]]]]; rewrite Hc in Hs; clear Hc.
    - injection Hs as <-. auto.
    - injection Hs as <-. auto.
    - injection Hs as <-. apply Hnil. destruct (G_run _ _ I _ _ Ht) as [b Hb].
      apply run_val_inv in Hb as (q & [Hq Hx] & Ha). assert (match h with None => True | Some h => exists y k, cs_h s !! h = Some (Some (y, k)) end) as Hh.
      { destruct h as [h|]; [|done]. inversion Ha as [? ? Ho| | | | | | |]; subst. destruct Ho as (y & k & Hk & _). eauto. }
      eapply GI_finish; try done.
      + cbn. by rewrite ?app_nil_r.
      + cbn. destruct x; by rewrite ?app_nil_r.
      + cbn. destruct x; by rewrite ?app_nil_r.
    - injection Hs as <-. apply Hnil. destruct (G_run _ _ I _ _ Ht) as [b Hb].
      apply run_val_inv in Hb as (q & [-> Hr] & Ha).
      pose proof (rest_inv _ _ _ _ I Ht) as HG. eapply (rest_back s D t _ I Ht); try done; cbn.
      + eapply ginv_perm; [..|exact HG]; unfold rG, rW; cbn; [|done..]. apply Permutation_middle.
      + apply I.
      + exists None. by constructor.
      + eauto.
      + apply (G_slot _ _ I).
      + intros h. exact (rest_bor s D t _ I Ht h).
    - assert (exists d g st', mstep sz (cs_d s) (cs_g s) st = Ok (d, g, st') /\
        s' = CS d g (cs_h s) (<[t := st']> (cs_t s)) (cs_out s) (cs_log s ++ step_log st st')) as (d & g & st' & Hm & ->).
      { apply bind_inv in Hs as ([[d g] st'] & Hm & [= <-]). eauto. }
      destruct (GI_mstep _ _ _ _ _ _ _ (cs_out s) (cs_log s ++ step_log st st') I Ht Hm) as (X & HX & _). by exists X.
  Qed.

  Lemma GI_cstart s D t o s' : GI s D -> cstart sz s t o = Ok s' -> GI s' D.
  Proof.
    intros I Hs. unfold cstart in Hs. destruct (cs_t s !! t) as [[|f st]|] eqn:Ht; [|by injection Hs as <-..].
    assert (forall E h (x : xhandle), (exists k, ge_h E !! h = Some (Some (x, k))) -> okend E (Some x) (Some h)) as Hend.
    { intros E h x [k Hk]. by exists x, k. }
    destruct o as [base vals|base vals|h|side h|h|h|h|h|h|h|h|side h|h i v].
    - destruct (_ <? _)%N; [|by injection Hs as <-]. destruct (new_block _ _ _) as [[d p] len] eqn:E1.
      destruct (data_from_boxed_slice _ _ _) as [d2 n] eqn:E2. injection Hs as <-.
      destruct (data_from_boxed_slice_datas _ _ _ _ _ E2) as [o E3]. rewrite (new_block_datas _ _ _ _ _ _ E1) in E3.
      by eapply GI_new.
    - destruct (_ <? _)%N; [|by injection Hs as <-]. destruct (new_block _ _ _) as [[d p] len] eqn:E1.
      destruct (split_alloc_from_items _ _ _ _) as [[d2 it] al] eqn:E2. injection Hs as <-.
      assert (dw_datas d2 = dw_datas (cs_d s)) as E3.
      { rewrite <- (new_block_datas _ _ _ _ _ _ E1). unfold split_alloc_from_items in E2.
        destruct (_ || _)%N; by injection E2 as <- _ _. }
      apply (GI_finish _ D t []); try done; [by apply (GI_data s D d2 (cs_out s))|by intros ? [= <-]].
    - destruct (slot s h) as [[[r|d g| | | |] k]|] eqn:Hh; apply slot_Some in Hh || (clear Hh); try by injection Hs as <-.
      + injection Hs as <-. apply GI_borrow; try done. intros E HE. apply R_clone; [by left|]. by apply Hend.
      + injection Hs as <-. apply GI_borrow; try done. intros E HE. apply R_clonew. by apply Hend.
    - destruct (slot s h) as [[[r|d g| | | |] k]|] eqn:Hh; apply slot_Some in Hh || (clear Hh); try by injection Hs as <-.
      injection Hs as <-. apply GI_borrow; try done. intros E HE. apply R_wait. by apply Hend.
    - destruct (slot s h) as [[[r|d g| | | |] [|k]]|] eqn:Hh; apply slot_Some in Hh || (clear Hh); try by injection Hs as <-.
      injection Hs as <-. eapply GI_take'; try done. intros E HE. by apply R_gm1.
    - destruct (slot s h) as [[[r|d g| | | |] [|k]]|] eqn:Hh; apply slot_Some in Hh || (clear Hh); try by injection Hs as <-.
      injection Hs as <-. eapply GI_take'; try done. intros E HE. by apply R_im1.
    - destruct (slot s h) as [[[r|d g| |m| |] [|k]]|] eqn:Hh; apply slot_Some in Hh || (clear Hh); try by injection Hs as <-.
      destruct (data_new _ _ _ _) as [d n] eqn:E2. injection Hs as <-. destruct (data_new_datas _ _ _ _ _ _ E2) as [o E3].
      eapply GI_take; try done.
      + intros. by apply ginv_new_data.
      + cbn. rewrite E3, !app_length, (G_len _ _ I). done.
      + unfold genv_of. rewrite E3. apply gstab_new_data.
      + intros E _. by eapply R_guard; [|constructor].
    - destruct (slot s h) as [[[r|d g| | | |] k]|] eqn:Hh; apply slot_Some in Hh || (clear Hh); try by injection Hs as <-.
      injection Hs as <-. apply GI_borrow; try done. intros E HE. apply R_waitd. by apply Hend.
    - destruct (slot s h) as [[[r|d g| | | |] k]|] eqn:Hh; apply slot_Some in Hh || (clear Hh); try by injection Hs as <-.
      injection Hs as <-. apply GI_borrow; try done. intros E HE. eapply R_upgrade. by apply Hend.
    - destruct (slot s h) as [[[r|d g| |m| |] [|k]]|] eqn:Hh; apply slot_Some in Hh || (clear Hh); try by injection Hs as <-.
      + injection Hs as <-. eapply GI_take'; try done. intros E HE. apply R_rel, R_relg; [|done].
        eapply R_val; [|by constructor]. by split; [left|].
      + injection Hs as <-. eapply GI_take'; try done; [|cbn; by rewrite app_nil_r]. intros E HE. apply R_relw.
      + injection Hs as <-. eapply GI_take'; try done. intros E HE. apply R_items.
        eapply R_val; [|by constructor]. by split; [left|].
    - destruct (slot s h) as [[[r|d g| |m| |] k]|] eqn:Hh; apply slot_Some in Hh || (clear Hh); try by injection Hs as <-.
      + apply bind_inv in Hs as (n & _ & Hs). apply bind_inv in Hs as (vs & _ & [= <-]). by apply GI_data.
      + apply bind_inv in Hs as (vs & _ & [= <-]). by apply GI_data.
    - destruct (slot s h) as [[[r|d g| |m| |] [|k]]|] eqn:Hh; apply slot_Some in Hh || (clear Hh); try by injection Hs as <-.
      apply bind_inv in Hs as ([d [m1 m2]] & Hd & [= <-]). apply mut_split_datas in Hd.
      apply (GI_finish _ D t []); try done; [|by intros ? [= <-]].
      pose proof (rest_inv _ _ _ _ I Ht) as HG. eapply (rest_back s D t [] I Ht); try done; cbn.
      + symmetry. by apply list_insert_id.
      + eapply ginv_perm; [..|exact HG]; unfold rG, rW; cbn; [..|done];
          by rewrite (slo_upd _ _ _ _ _ Hh), (slo_perm _ _ _ _ Hh).
      + rewrite Hd. apply I.
      + unfold genv_of. cbn. rewrite Hd. by split.
      + exists None. constructor.
      + intros h' y k' Hy. rewrite list_lookup_insert_ne; [eauto|]. intros <-. rewrite Hh in Hy. discriminate Hy.
      + intros h' y k' [(-> & [= <- _] & _)|[_ Hy]]%list_lookup_insert_Some; [done|]; by eapply (G_slot _ _ I).
      + intros h'. pose proof (rest_bor s D t [] I Ht h') as Hb. unfold kof in Hb |- *. cbn in Hb |- *.
        destruct (decide (h = h')) as [<-|].
        * rewrite list_lookup_insert by by eapply lookup_lt_Some. rewrite Hh in Hb. lia.
        * rewrite list_lookup_insert_ne by done. lia.
    - destruct (slot s h) as [[[r|d g| |m| |] [|k]]|] eqn:Hh; apply slot_Some in Hh || (clear Hh); try by injection Hs as <-.
      destruct (_ <? _)%N; [|by injection Hs as <-]. apply bind_inv in Hs as ([d old] & Hd & [= <-]).
      apply mem_replace_datas in Hd. by apply (GI_data s D d).
  Qed.

  Theorem GI_cstep s D e s' : GI s D -> cstep sz s e = Ok s' -> exists X, GI s' (D ++ X).
  Proof.
    intros I Hs. assert (forall s', GI s' D -> exists X, GI s' (D ++ X)) as Hnil.
    { intros s1 H1. exists []. by rewrite app_nil_r. }
    destruct e as [t o|t|t i v|t]; cbn in Hs.
    - apply Hnil. by eapply GI_cstart.
    - by eapply GI_tstep.
    - apply Hnil. unfold hold_write in Hs. destruct (cs_t s !! t) as [st|] eqn:Ht; [|by injection Hs as <-].
      repeat (case_match; try (by injection Hs as <-)). subst. apply bind_inv in Hs as (n & _ & Hs).
      destruct (_ <? _)%N; [|by injection Hs as <-]. apply bind_inv in Hs as ([d old] & Hd & [= <-]).
      apply mem_replace_datas in Hd. by apply (GI_data s D d).
    - apply Hnil. unfold hold_end in Hs. destruct (cs_t s !! t) as [st|] eqn:Ht; [|by injection Hs as <-].
      repeat (case_match; try (by injection Hs as <-)). subst. injection Hs as <-.
      eapply GI_finish; try done. destruct (G_run _ _ I _ _ Ht) as [b Hb]. intros y [= <-].
      inversion Hb; subst; try done; by match goal with H : _ \/ _ |- _ => destruct H end.
  Qed.
  Theorem GI_crun s D es s' : GI s D -> crun sz s es = Ok s' -> exists X, GI s' (D ++ X).
  Proof.
    revert s D. induction es as [|e es IH]; intros s D I Hs; cbn in Hs.
    - injection Hs as <-. exists []. by rewrite app_nil_r.
    - apply bind_inv in Hs as (s1 & H1 & Hs). destruct (GI_cstep _ _ _ _ I H1) as [X HX].
      destruct (IH _ _ HX Hs) as [Y HY]. exists (X ++ Y). by rewrite app_assoc.
  Qed.
  Corollary GI_reach n es s : crun sz (init_cstate n) es = Ok s -> exists D, GI s D.
  Proof. intros H. destruct (GI_crun _ _ _ _ (GI_init n) H) as [X HX]. eauto. Qed.
End world.
