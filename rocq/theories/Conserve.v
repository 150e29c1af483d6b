(** Conservation: what goes into memory is still there, was dropped, or was
    moved out; buffers are freed at most once. Proved for every function of the
    model from its code alone, without the invariants. *)
From Verif Require Import Base BaseLemmas Api SliceItemsModel BinPartsModel DataModel RcModel Spec SliceItemsProof DataInv DataFuns Observe.

Section events.
  Context {V : Type}.
  Notation ev := (event V).
  Definition drops (nd : list ev) : list ((nat * N) * V) :=
    omap (fun e => match e with EDrop b i v => Some ((b, i), v) | EFree _ _ _ => None end) nd.
  Definition frees (nd : list ev) : list nat :=
    omap (fun e => match e with EDrop _ _ _ => None | EFree b _ _ => Some b end) nd.
  Lemma drops_cons b i v nd : drops (EDrop b i v :: nd) = ((b, i), v) :: drops nd.
  Proof. done. Qed.
  Lemma omap_snoc {A B} (f : A -> option B) l l' : omap f (l ++ l') = omap f l ++ omap f l'.
  Proof. induction l as [|x l IH]; [done|]. cbn. destruct (f x); cbn; by rewrite IH. Qed.
  Lemma drops_app nd nd' : drops (nd ++ nd') = drops nd ++ drops nd'.
  Proof. apply omap_snoc. Qed.
  Lemma frees_app nd nd' : frees (nd ++ nd') = frees nd ++ frees nd'.
  Proof. apply omap_snoc. Qed.
End events.

Section bal.
  Context {V : Type} (sz : N).
  Notation dworld := (dworld V).
  Implicit Types (w : dworld).

  Definition is_freed w (b : nat) : Prop := exists blk, dw_blocks w !! b = Some blk /\ b_freed blk = true.
  (** [nb]: new buffers (address, length); [ins]: items put in; [outs]: items moved out. *)
  Definition balg (nb : list (N * N)) w w' (ins outs : list ((nat * N) * V)) : Prop := exists nd,
    dw_trace w' = dw_trace w ++ nd /\
    map_to_list (dw_mem w) ++ ins ≡ₚ map_to_list (dw_mem w') ++ drops nd ++ outs /\
    bshape w' = bshape w ++ nb /\
    (forall b, is_freed w' b <-> is_freed w b \/ b ∈ frees nd) /\
    NoDup (frees nd) /\ (forall b, b ∈ frees nd -> ~ is_freed w b) /\
    (forall b addr cap, EFree b addr cap ∈ nd -> bshape w' !! b = Some (addr, cap)).
  Notation bal := (balg []).

  Lemma bal_refl w : bal w w [] [].
  Proof. exists []. rewrite !app_nil_r. split_and!; try done; try apply NoDup_nil_2; intros; cbn; set_solver. Qed.
  Lemma bal_trans nb1 nb2 w1 w2 w3 i1 o1 i2 o2 : balg nb1 w1 w2 i1 o1 -> balg nb2 w2 w3 i2 o2 -> balg (nb1 ++ nb2) w1 w3 (i1 ++ i2) (o1 ++ o2).
  Proof.
    intros (n1 & T1 & M1 & B1 & F1 & D1 & N1 & L1) (n2 & T2 & M2 & B2 & F2 & D2 & N2 & L2). exists (n1 ++ n2). rewrite drops_app, frees_app. split_and!.
    - by rewrite T2, T1, app_assoc.
    - rewrite app_assoc, M1. trans ((map_to_list (dw_mem w2) ++ i2) ++ drops n1 ++ o1); [solve_Permutation|]. rewrite M2. solve_Permutation.
    - by rewrite B2, B1, app_assoc.
    - intros b. rewrite F2, F1, elem_of_app. tauto.
    - apply NoDup_app. split_and!; try done. intros b Hb Hb'. apply (N2 b Hb'). apply F1. by right.
    - intros b Hb Hf. apply elem_of_app in Hb as [Hb|Hb]; [by apply (N1 b)|]. apply (N2 b Hb). apply F1. by left.
    - intros b ad cp [H|H]%elem_of_app; [|by apply L2]. rewrite B2. apply lookup_app_l_Some. by apply L1.
  Qed.
  Lemma bal_trans0 w1 w2 w3 : bal w1 w2 [] [] -> bal w2 w3 [] [] -> bal w1 w3 [] [].
  Proof. apply (bal_trans [] [] _ _ _ [] [] [] []). Qed.
  (** Steps that touch neither items nor buffers. *)
  Lemma bal_same w w' : dw_trace w' = dw_trace w -> dw_mem w' = dw_mem w -> dw_blocks w' = dw_blocks w -> bal w w' [] [].
  Proof.
    intros HT HM HB. exists []. unfold is_freed, bshape. rewrite HT, HM, HB, !app_nil_r.
    split_and!; try done; try apply NoDup_nil_2; intros; cbn; set_solver.
  Qed.
  Lemma bal_mem w m ins outs : map_to_list (dw_mem w) ++ ins ≡ₚ map_to_list m ++ outs -> bal w (dw_set_mem w m) ins outs.
  Proof. intros H. exists []. cbn. rewrite !app_nil_r. split_and!; try done; try apply NoDup_nil_2; intros; cbn; set_solver. Qed.

  (** Split the first call of a sequence. *)
  Ltac bd := match goal with |- (?m ≫= _) = Ok _ -> _ => let x := fresh "x" in destruct m as [x| | |]; cbn [mbind res_bind]; try done end.

  Lemma mem_at_Some w p v : mem_at sz w p = Ok v -> dw_mem w !! (p_blk p, p_idx p) = Some v.
  Proof. unfold mem_at. destruct (_ !! p_blk p); [|done]. destruct (_ && _); [done|]. destruct (dw_mem w !! _); [|done]. congruence. Qed.
  Lemma mem_take_bal w p w' v : mem_take sz w p = Ok (w', v) -> bal w w' [] [((p_blk p, p_idx p), v)].
  Proof.
    unfold mem_take. destruct (mem_at sz w p) as [x| | |] eqn:E; cbn; try done. intros [= <- <-]. apply mem_at_Some in E. apply bal_mem.
    rewrite app_nil_r. rewrite <- (insert_id _ _ _ E) at 1. rewrite <- insert_delete_insert.
    rewrite map_to_list_insert by apply lookup_delete. solve_Permutation.
  Qed.
  Lemma mem_replace_bal w p v w' old : mem_replace sz w p v = Ok (w', old) ->
    bal w w' [((p_blk p, p_idx p), v)] [((p_blk p, p_idx p), old)].
  Proof.
    unfold mem_replace. destruct (mem_at sz w p) as [x| | |] eqn:E; cbn; try done. intros [= <- <-]. apply mem_at_Some in E. apply bal_mem.
    rewrite <- (insert_id _ _ _ E) at 1. rewrite <- (insert_delete_insert (dw_mem w) _ x), <- (insert_delete_insert (dw_mem w) _ v).
    rewrite !map_to_list_insert by apply lookup_delete. solve_Permutation.
  Qed.
  Lemma drop_in_place_bal n : forall w p w', drop_in_place sz w n p = Ok w' -> bal w w' [] [].
  Proof.
    induction n as [|n IH]; intros w p w' E; cbn in E; [injection E as <-; apply bal_refl|].
    destruct (mem_take sz w p) as [[w1 v]| | |] eqn:E1; cbn in E; try done. apply mem_take_bal in E1.
    apply IH in E. destruct E1 as (n1 & T1 & M1 & B1 & F1 & D1 & N1 & L1).
    rewrite app_nil_r in B1. assert (bal w (dw_log w1 (EDrop (p_blk p) (p_idx p) v)) [] []) as H.
    { exists (n1 ++ [EDrop (p_blk p) (p_idx p) v]). rewrite drops_app, frees_app. cbn. rewrite !app_nil_r. split_and!; try done.
      - by rewrite T1, app_assoc.
      - by rewrite app_nil_r in M1.
      - intros b ad cp [H|H%elem_of_list_singleton]%elem_of_app; [by apply L1|done]. }
    by eapply bal_trans0.
  Qed.
  (** The order in which items are dropped. *)
  Lemma drop_in_place_trace n : forall w p w', drop_in_place sz w n p = Ok w' -> exists nd, dw_trace w' = dw_trace w ++ nd /\
    (drops nd).*1 = rng_cells (Rng (p_blk p) (p_idx p) (N.of_nat n)) /\ frees nd = [] /\
    Forall (fun x => dw_mem w !! fst x = Some (snd x)) (drops nd).
  Proof.
    induction n as [|n IH]; intros w p w' E; cbn in E; [injection E as <-; exists []; rewrite app_nil_r; split_and!; cbn; try done; apply Forall_nil_2|].
    destruct (mem_take sz w p) as [[w1 v]| | |] eqn:E1; cbn in E; try done. apply IH in E as (nd & HT & HD & HF & HM).
    unfold mem_take in E1. destruct (mem_at sz w p) as [x| | |] eqn:Ea; cbn in E1; try done. injection E1 as <- <-. apply mem_at_Some in Ea.
    exists (EDrop (p_blk p) (p_idx p) x :: nd). split_and!.
    - rewrite HT. cbn. by rewrite <- app_assoc.
    - rewrite drops_cons, fmap_cons, HD. unfold rng_cells. cbn [p_blk p_idx ptr_add rg_blk rg_lo rg_len]. rewrite !Nat2N.id. cbn [seq fmap list_fmap].
      f_equal; [cbn [fst]; f_equal; lia|]. rewrite <- seq_shift, <- list_fmap_compose. apply list_fmap_ext. intros i j _. unfold compose. f_equal. lia.
    - exact HF.
    - rewrite drops_cons. constructor; [done|]. eapply Forall_impl; [exact HM|]. intros [c y]. cbn. rewrite lookup_delete_Some. tauto.
  Qed.
  Lemma salloc_drop_bal w a w' : salloc_drop sz w a = Ok w' -> bal w w' [] [].
  Proof.
    unfold salloc_drop. destruct (_ || _); [intros [= <-]; apply bal_refl|]. destruct (dw_blocks w !! _) as [blk|] eqn:Eb; [|done].
    destruct (b_freed blk) eqn:Ef; [done|]. cbn. destruct (N.eqb_spec (p_addr (sa_ptr a)) (b_base blk)) as [Ha|]; [|done].
    destruct (N.eqb_spec (sa_len a) (b_len blk)) as [Hl|]; [|done]. cbn. intros [= <-]. set (b := p_blk (sa_ptr a)) in *.
    assert (b < length (dw_blocks w))%nat as Hlt by (by eapply lookup_lt_Some).
    exists [EFree b (p_addr (sa_ptr a)) (sa_len a)]. cbn. split_and!; try done.
    - unfold bshape. cbn. rewrite list_fmap_insert, app_nil_r. cbn. rewrite list_insert_id; [done|]. by rewrite list_lookup_fmap, Eb.
    - intros b'. unfold is_freed. cbn. rewrite elem_of_list_singleton. destruct (decide (b' = b)) as [->|Hne].
      + rewrite list_lookup_insert by done. split; [by right|]. eauto.
      + rewrite list_lookup_insert_ne by congruence. split; [by left|]. by intros [?|?].
    - apply NoDup_singleton.
    - intros b' ->%elem_of_list_singleton (blk' & Eb' & Hf). congruence.
    - intros b' ad cp [= -> -> ->]%elem_of_list_singleton. unfold bshape. cbn. rewrite list_lookup_fmap, list_lookup_insert by done. cbn. by rewrite Ha, Hl.
  Qed.
  Lemma alloc_release_bal w o w' : alloc_release sz w o = Ok w' -> bal w w' [] [].
  Proof.
    destruct o as [a|]; cbn; [|intros [= <-]; apply bal_refl]. destruct (rc_dec _ _) as [[h [v|]]| | |]; cbn; try done.
    - intros E%salloc_drop_bal. eapply bal_trans0; [|exact E]. by apply bal_same.
    - intros [= <-]. by apply bal_same.
  Qed.
  Lemma alloc_clone_bal w o w' : alloc_clone w o = Ok w' -> bal w w' [] [].
  Proof.
    destruct o as [a|]; cbn; [|intros [= <-]; apply bal_refl]. destruct (rc_inc _ _) as [h| | |]; cbn; try done. intros [= <-]. by apply bal_same.
  Qed.
  Lemma data_new_bal w p len al : bal w (fst (data_new w p len al)) [] [].
  Proof. by apply bal_same. Qed.
  Lemma data_clone_child_bal w d side p len w' c : data_clone_child w d side p len = Ok (w', c) -> bal w w' [] [].
  Proof.
    unfold data_clone_child. destruct (rc_val _ _) as [n| | |]; cbn; try done. destruct (d_child side n) as [c'|].
    - destruct (rc_inc _ _); cbn; try done. intros [= <- <-]. by apply bal_same.
    - destruct (alloc_clone w _) as [w1| | |] eqn:E1; cbn; try done. apply alloc_clone_bal in E1.
      destruct (rc_inc _ _); cbn; try done. destruct (rc_set _ _ _); cbn; try done. intros [= <- <-].
      eapply bal_trans0; [exact E1|]. by apply bal_same.
  Qed.
  Lemma data_release_bal fuel : forall w d w', data_release sz fuel w d = Ok w' -> bal w w' [] [].
  Proof.
    induction fuel as [|fuel IH]; intros w d w' E; [done|]. cbn [data_release] in E.
    destruct (rc_dec _ _) as [[h [n|]]| | |]; cbn [mbind res_bind] in E; try done.
    2: { injection E as <-. by apply bal_same. }
    assert (forall w o w', match o with None => Ok w | Some c => data_release sz fuel w c end = Ok w' -> bal w w' [] []) as Hk.
    { intros w0 [c|] w0' H; [by eapply IH|injection H as <-; apply bal_refl]. }
    destruct (match d_left n with None => _ | Some _ => _ end) as [w1| | |] eqn:E1; cbn [mbind res_bind] in E; try done. apply Hk in E1.
    destruct (match d_right n with None => _ | Some _ => _ end) as [w2| | |] eqn:E2; cbn [mbind res_bind] in E; try done. apply Hk in E2.
    destruct (match d_left n with None => _ | Some _ => _ end) as [w3| | |] eqn:E3; cbn [mbind res_bind] in E; try done.
    assert (bal w2 w3 [] []) as H3.
    { destruct (d_left n), (d_right n); cbn in E3; try (by eapply drop_in_place_bal). injection E3 as <-. apply bal_refl. }
    apply alloc_release_bal in E. eapply bal_trans0; [by apply (bal_same w (dw_set_datas w h))|].
    eapply bal_trans0; [exact E1|]. eapply bal_trans0; [exact E2|]. by eapply bal_trans0.
  Qed.
  Lemma data_forget_bal fuel : forall w n w' n', data_forget_items sz fuel w n = Ok (w', n') -> bal w w' [] [].
  Proof.
    induction fuel as [|fuel IH]; intros w n w' n' E; [done|]. cbn [data_forget_items] in E.
    assert (forall w o w', match o with
      | None => Ok w
      | Some c => rc_try_unwrap (dw_datas w) c ≫= fun pat => match pat with
          | (h, Some child) => data_forget_items sz fuel (dw_set_datas w h) child ≫= fun '(w, child) => data_drop_forgotten sz w child
          | (h, None) => data_release sz (S (length (dw_datas (dw_set_datas w h)))) (dw_set_datas w h) c
          end
      end = Ok w' -> bal w w' [] []) as Hk.
    { intros w0 [c|] w0' H; [|injection H as <-; apply bal_refl].
      destruct (rc_try_unwrap _ _) as [[h [ch|]]| | |]; cbn [mbind res_bind] in H; try done.
      - destruct (data_forget_items _ _ _ _) as [[w1 ch']| | |] eqn:E1; cbn [mbind res_bind] in H; try done.
        apply IH in E1. apply alloc_release_bal in H. eapply bal_trans0; [by apply (bal_same w0 (dw_set_datas w0 h))|]. by eapply bal_trans0.
      - apply data_release_bal in H. eapply bal_trans0; [by apply (bal_same w0 (dw_set_datas w0 h))|]. done. }
    destruct (match d_left n with None => _ | Some _ => _ end) as [w1| | |] eqn:E1; cbn [mbind res_bind] in E; try done. apply Hk in E1.
    destruct (match d_right n with None => _ | Some _ => _ end) as [w2| | |] eqn:E2; cbn [mbind res_bind] in E; try done. apply Hk in E2.
    injection E as <- <-. by eapply bal_trans0.
  Qed.
  Lemma data_into_mut_bal w n w' r : data_into_mut sz w n = Ok (w', r) -> bal w w' [] [].
  Proof.
    unfold data_into_mut. destruct (data_forget_items _ _ _ _) as [[w1 n1]| | |] eqn:E1; cbn; try done. apply data_forget_bal in E1.
    destruct (data_drop_forgotten _ _ _) as [w2| | |] eqn:E2; cbn; try done. apply alloc_release_bal in E2. intros [= <- <-]. by eapply bal_trans0.
  Qed.

  (** *** RcSlice *)
  Notation dg := (dworld * gworld)%type.
  Implicit Types s : dg.
  Definition sbal s s' : Prop := bal (fst s) (fst s') [] [].
  Lemma sbal_refl s : sbal s s.
  Proof. apply bal_refl. Qed.
  Lemma sbal_trans s1 s2 s3 : sbal s1 s2 -> sbal s2 s3 -> sbal s1 s3.
  Proof. apply bal_trans0. Qed.
  Lemma rcs_clone_bal s r s' r' : rcs_clone s r = Ok (s', r') -> sbal s s'.
  Proof.
    unfold rcs_clone. bd. bd. intros [= <- <-]. by apply bal_same.
  Qed.
  Lemma rcs_drop_bal s r s' : rcs_drop sz s r = Ok s' -> sbal s s'.
  Proof.
    unfold rcs_drop. destruct (data_drop _ _ _) as [d| | |] eqn:E1; cbn; try done. bd. intros [= <-].
    by eapply data_release_bal.
  Qed.
  Lemma rcs_clone_left_bal s r s' r' : rcs_clone_left s r = Ok (s', r') -> sbal s s'.
  Proof.
    unfold rcs_clone_left, data_clone_left. destruct (rc_val _ _) as [n| | |]; cbn; try done. destruct (_ =? _)%N; [apply rcs_clone_bal|].
    destruct (data_clone_child _ _ _ _ _) as [[d c]| | |] eqn:E; cbn; try done. bd.
    destruct x. intros [= <- <-]. by eapply data_clone_child_bal.
  Qed.
  Lemma rcs_clone_right_bal s r s' r' : rcs_clone_right sz s r = Ok (s', r') -> sbal s s'.
  Proof.
    unfold rcs_clone_right, data_clone_right. destruct (rc_val _ _) as [n| | |]; cbn; try done. destruct (_ <=? _)%N; [apply rcs_clone_bal|].
    destruct (data_clone_child _ _ _ _ _) as [[d c]| | |] eqn:E; cbn; try done. bd.
    destruct x. intros [= <- <-]. by eapply data_clone_child_bal.
  Qed.
  Lemma rcs_split_left_bal s r s' x : rcs_split_off_left sz s r = Ok (s', x) -> sbal s s'.
  Proof.
    unfold rcs_split_off_left. destruct (rcs_clone_left s r) as [[s1 l]| | |] eqn:E1; cbn [mbind res_bind]; try done.
    destruct (rcs_clone_right sz s1 r) as [[s2 rt]| | |] eqn:E2; cbn [mbind res_bind]; try done.
    destruct (rcs_drop sz s2 r) as [s3| | |] eqn:E3; cbn [mbind res_bind]; try done. intros [= <- <-].
    eapply sbal_trans; [by eapply rcs_clone_left_bal|]. eapply sbal_trans; [by eapply rcs_clone_right_bal|]. by eapply rcs_drop_bal.
  Qed.
  Lemma rcs_split_right_bal s r s' x : rcs_split_off_right sz s r = Ok (s', x) -> sbal s s'.
  Proof.
    unfold rcs_split_off_right. destruct (rcs_clone_left s r) as [[s1 l]| | |] eqn:E1; cbn [mbind res_bind]; try done.
    destruct (rcs_clone_right sz s1 r) as [[s2 rt]| | |] eqn:E2; cbn [mbind res_bind]; try done.
    destruct (rcs_drop sz s2 r) as [s3| | |] eqn:E3; cbn [mbind res_bind]; try done. intros [= <- <-].
    eapply sbal_trans; [by eapply rcs_clone_left_bal|]. eapply sbal_trans; [by eapply rcs_clone_right_bal|]. by eapply rcs_drop_bal.
  Qed.
  Lemma rcs_drop_all_bal l : forall s s', rcs_drop_all sz s l = Ok s' -> sbal s s'.
  Proof.
    induction l as [|r l IH]; intros s s' E; cbn [rcs_drop_all] in E; [injection E as <-; apply sbal_refl|].
    destruct (rcs_drop sz s r) as [s1| | |] eqn:E1; cbn [mbind res_bind] in E; try done. eapply sbal_trans; [by eapply rcs_drop_bal|by eapply IH].
  Qed.
  Lemma clone_all_bal l : forall s s' l', clone_all rcs_clone s l = Ok (s', l') -> sbal s s'.
  Proof.
    induction l as [|r l IH]; intros s s' l' E; cbn [clone_all] in E; [injection E as <- <-; apply sbal_refl|].
    destruct (rcs_clone _ _) as [[s1 r']| | |] eqn:E1; cbn [mbind res_bind] in E; try done. destruct (clone_all _ _ _) as [[s2 l2]| | |] eqn:E2; cbn [mbind res_bind] in E; try done.
    injection E as <- <-. eapply sbal_trans; [by eapply rcs_clone_bal|by eapply IH].
  Qed.
  Section loops.
    Context (growf : N -> N) (dbg : bool).
    Lemma loop_front_bal fuel : forall n s q it s' q' it',
      bpi_loop_front (rcs_split_off_left sz) growf fuel n s q it = Ok (s', q', it') -> sbal s s'.
    Proof.
      induction fuel as [|fuel IH]; intros n s q it s' q' it' E; [done|]; cbn [bpi_loop_front bpi_loop_back] in E. destruct (_ =? _)%N; [|injection E as <- <- <-; apply sbal_refl].
      destruct (dq_items _) as [|x l]; [by eapply IH|]. destruct (rcs_split_off_left _ _ _) as [[s1 [x1 y1]]| | |] eqn:E1; cbn [mbind res_bind] in E; try done.
      eapply sbal_trans; [by eapply rcs_split_left_bal|by eapply IH].
    Qed.
    Lemma loop_back_bal fuel : forall n s q it s' q' it',
      bpi_loop_back (rcs_split_off_right sz) growf fuel n s q it = Ok (s', q', it') -> sbal s s'.
    Proof.
      induction fuel as [|fuel IH]; intros n s q it s' q' it' E; [done|]; cbn [bpi_loop_front bpi_loop_back] in E. destruct (_ =? _)%N; [|injection E as <- <- <-; apply sbal_refl].
      destruct (last (dq_items _)) as [x|]; [|by eapply IH]. destruct (rcs_split_off_right _ _ _) as [[s1 [x1 y1]]| | |] eqn:E1; cbn [mbind res_bind] in E; try done.
      eapply sbal_trans; [by eapply rcs_split_right_bal|by eapply IH].
    Qed.
    Lemma parts_next_bal (back : bool) s it s' it' o :
      (if back then parts_next_back sz growf dbg s it else parts_next sz growf dbg s it) = Ok (s', it', o) -> sbal s s'.
    Proof.
      destruct back; unfold parts_next, parts_next_back, bpi_next, bpi_next_back; intros E;
      destruct (bpi_len it) as [l| | |]; cbn [mbind res_bind] in E; try done;
      (destruct (0 =? l)%N; [injection E as <- <- <-; apply sbal_refl|]);
      (destruct (dbg && _); [done|]);
      (destruct (usub _ _) as [m| | |]; cbn [mbind res_bind] in E; try done);
      (destruct (dbg && _); [done|]);
      (destruct (greatest_power_of_2_factor m) as [n| | |]; cbn [mbind res_bind] in E; try done);
      (destruct (shrink_to _ _ _) as [n'| | |]; cbn [mbind res_bind] in E; try done).
      - destruct (bpi_loop_back _ _ _ _ _ _ _) as [[[s1 q1] i1]| | |] eqn:E1; cbn [mbind res_bind] in E; try done. apply loop_back_bal in E1.
        destruct (dbg && _); [done|]. destruct (uadd _ _) as [f| | |]; cbn [mbind res_bind] in E; try done. destruct i1; [|destruct (dq_pop_back q1)]; injection E as <- <- <-; done.
      - destruct (bpi_loop_front _ _ _ _ _ _ _) as [[[s1 q1] i1]| | |] eqn:E1; cbn [mbind res_bind] in E; try done. apply loop_front_bal in E1.
        destruct (dbg && _); [done|]. destruct (uadd _ _) as [f| | |]; cbn [mbind res_bind] in E; try done. destruct i1; [|destruct (dq_pop_front q1)]; injection E as <- <- <-; done.
    Qed.
  End loops.

  (** *** RcSliceMut and its iterators *)
  Lemma items_alloc_drop_bal d p len al d' : items_alloc_drop sz d p len al = Ok d' -> bal d d' [] [].
  Proof.
    unfold items_alloc_drop. destruct (drop_in_place _ _ _ _) as [d1| | |] eqn:E1; cbn [mbind res_bind]; try done. intros E2.
    eapply bal_trans0; [by eapply drop_in_place_bal|by eapply alloc_release_bal].
  Qed.
  Lemma handle_drop_bal s x s' : handle_drop sz s x = Ok s' -> sbal s s'.
  Proof.
    destruct x as [r|d g|it|m|m|m]; cbn [handle_drop].
    - apply rcs_drop_bal.
    - unfold weak_drop. bd. intros [= <-]. apply bal_refl.
    - apply rcs_drop_all_bal.
    - destruct (mut_drop _ _ _) as [d| | |] eqn:E; cbn [mbind res_bind]; try done. intros [= <-]. by eapply items_alloc_drop_bal.
    - destruct (iter_drop _ _ _) as [d| | |] eqn:E; cbn [mbind res_bind]; try done. intros [= <-]. unfold iter_drop in E.
      destruct (sit_as_slice _ _) as [[p l]| | |]; cbn [mbind res_bind] in E; try done. by eapply items_alloc_drop_bal.
    - destruct (mparts_drop _ _ _) as [d| | |] eqn:E; cbn [mbind res_bind]; try done. intros [= <-]. unfold mparts_drop in E.
      destruct (sip_as_slice _ _) as [[p l]| | |]; cbn [mbind res_bind] in E; try done. by eapply items_alloc_drop_bal.
  Qed.
  Lemma new_block_bal w base (vals : list V) (cov : forall c, is_Some (dw_mem w !! c) -> (fst c < length (dw_blocks w))%nat) :
    let '(w', p, len) := new_block w base vals in
    balg [(base, N.of_nat (length vals))] w w' (zip (rng_cells (Rng (length (dw_blocks w)) 0 (N.of_nat (length vals)))) vals) [].
  Proof.
    cbn. exists []. cbn. split_and!; try done.
    - by rewrite app_nil_r.
    - rewrite store_vals_stored. unfold stored. set (cs := rng_cells _).
      assert (NoDup (zip cs vals).*1) as Hnd.
      { rewrite fst_zip; [apply rng_cells_NoDup|]. unfold cs. rewrite rng_cells_length. cbn. lia. }
      assert (forall c, c ∈ (zip cs vals).*1 -> dw_mem w !! c = None) as Hfr.
      { intros c Hc. apply eq_None_not_Some. intros Hs%cov. rewrite fst_zip in Hc by (unfold cs; rewrite rng_cells_length; cbn; lia).
        unfold cs in Hc. apply rng_cells_elem in Hc as [Hc _]. cbn in Hc. lia. }
      rewrite app_nil_r. clear cov. induction (zip cs vals) as [|[c v] l IH]; [cbn; by rewrite (left_id_L ∅ _), app_nil_r|].
      cbn in Hnd. apply NoDup_cons in Hnd as [Hc Hnd]. cbn [list_to_map foldr]. cbn. rewrite <- insert_union_l, map_to_list_insert.
      + rewrite <- IH; [|done|intros c' Hc'; apply Hfr; cbn; by right]. solve_Permutation.
      + apply lookup_union_None. split; [by apply not_elem_of_list_to_map_1|]. apply Hfr. cbn. by left.
    - unfold bshape. cbn. by rewrite fmap_app.
    - intros b. unfold is_freed. cbn. rewrite elem_of_nil. split; [|intros [(blk & Hb & Hf)|[]]].
      + intros (blk & Hb & Hf). left. apply lookup_app_Some in Hb as [Hb|[_ Hb]]; [eauto|]. apply list_lookup_singleton_Some in Hb as [_ <-]. done.
      + exists blk. split; [|done]. by apply lookup_app_l_Some.
    - apply NoDup_nil_2.
    - intros b ?%elem_of_nil. done.
    - by intros b ad cp ?%elem_of_nil.
  Qed.
End bal.
