(** Conservation in the concurrent model, for every schedule: what goes into
    memory is still there, was dropped once, or was given back; buffers are
    freed at most once. Follows from the code alone, without the invariants. *)
From Verif Require Import Base BaseLemmas Api SliceItemsModel BinPartsModel Spec SliceItemsProof DataModel RcModel DataInv DataSteps DataFuns ArcModel ArcConc ConcInv ConcGuard ConcWorld ConcSpec Conserve ConserveTheory.
Local Open Scope nat_scope.

Section conserve.
  Context {V : Type} (sz : N).
  Notation stack := (list (frame V)).
  Notation bal := (balg []).
  Implicit Types (s : cstate V) (t : nat) (d : dworld V) (es : list (sched (V:=V))).

  Lemma mem_take_drop_bal d p d' v : mem_take sz d p = Ok (d', v) -> bal d (dw_log d' (EDrop (p_blk p) (p_idx p) v)) [] [].
  Proof.
    intros H%mem_take_bal. destruct H as (nd & H1 & H2 & H3 & H4 & H5 & H6 & H7). exists (nd ++ [EDrop (p_blk p) (p_idx p) v]).
    rewrite drops_app, frees_app. change (frees [EDrop (p_blk p) (p_idx p) v]) with (@nil nat). rewrite (app_nil_r (frees nd)). split_and!; try done.
    - cbn. by rewrite H1, app_assoc.
    - etrans; [exact H2|]. cbn. by rewrite !app_nil_r.
    - intros b ad cp [H|H]%elem_of_app; [by apply H7|]. apply elem_of_list_singleton in H. done.
  Qed.
  Lemma mstep_bal d g (st : stack) d' g' st' : mstep sz d g st = Ok (d', g', st') -> bal d d' [] [].
  Proof.
    intros H. destruct st as [|f k]; [done|].
    destruct f; cbn [mstep] in H.
    all: repeat (first
      [ match type of H with mbind _ _ = Ok _ => let x := fresh "x" in let Hx := fresh "Hx" in apply bind_inv in H as (x & Hx & H) end
      | match type of H with Ok _ = Ok _ => fail 1 | _ => idtac end; case_match; try done ]).
    all: try (injection H as <- <- <-); try done; try (by apply bal_same); try apply bal_refl.
    all: try (by eapply alloc_release_bal).
    all: try (by eapply alloc_clone_bal).
    all: try (by apply mem_take_drop_bal).
  Qed.

  (** No call returns an item. *)
  Definition plain (f : frame V) : Prop := match f with FV (VFin _ (Some o)) => match o with RVal _ => False | _ => True end | _ => True end.
  (** The frames of [into_mut]. *)
  Definition noim (f : frame V) : Prop := match f with FIm1 _ | FIm2 _ | FIm3 _ | KImG _ | FFg _ _ | KFg _ _ _ => False | _ => True end.
  Lemma Forall_rel (P : frame V -> Prop) l : (forall x, P (FRel x)) -> Forall P (FRel <$> l).
  Proof. intros H. apply Forall_forall. intros f (x & -> & _)%elem_of_list_fmap. done. Qed.
  Lemma Forall_relg (P : frame V -> Prop) o : (forall x, P (FRelG x)) -> Forall P (rel_opt o).
  Proof. intros H. destruct o; cbn; [by constructor|done]. Qed.
  Lemma mstep_plain d g (st : stack) d' g' st' : mstep sz d g st = Ok (d', g', st') -> Forall plain st -> Forall plain st'.
  Proof.
    intros H HF. destruct st as [|f k]; [done|]. pose proof (Forall_inv HF) as Hf. pose proof (Forall_inv_tail HF) as Hk. clear HF.
    destruct f; cbn [mstep] in H.
    all: repeat (first
      [ match type of H with mbind _ _ = Ok _ => let x := fresh "x" in let Hx := fresh "Hx" in apply bind_inv in H as (x & Hx & H) end
      | match type of H with Ok _ = Ok _ => fail 1 | _ => idtac end; case_match; try done ]).
    all: subst; try (injection H as <- <- <-); try done.
    all: repeat match goal with H : Forall _ (_ :: _) |- _ => apply Forall_cons in H as [? ?] end.
    all: repeat (first [apply Forall_app; split | apply Forall_rel; done | apply Forall_relg; done | apply Forall_cons; split | done]).
  Qed.
  Lemma mstep_noim d g (st : stack) d' g' st' : mstep sz d g st = Ok (d', g', st') -> Forall noim st -> Forall noim st'.
  Proof.
    intros H HF. destruct st as [|f k]; [done|]. pose proof (Forall_inv HF) as Hf. pose proof (Forall_inv_tail HF) as Hk. clear HF.
    destruct f; try done; cbn [mstep] in H.
    all: repeat (first
      [ match type of H with mbind _ _ = Ok _ => let x := fresh "x" in let Hx := fresh "Hx" in apply bind_inv in H as (x & Hx & H) end
      | match type of H with Ok _ = Ok _ => fail 1 | _ => idtac end; case_match; try done ]).
    all: subst; try (injection H as <- <- <-); try done.
    all: repeat match goal with H : Forall _ (_ :: _) |- _ => apply Forall_cons in H as [? ?] end.
    all: repeat (first [apply Forall_app; split | apply Forall_rel; done | apply Forall_relg; done | apply Forall_cons; split | done]).
  Qed.

  (** The frames of all threads. *)
  Section frames.
    Context (P : frame V -> Prop) (Ph : forall r, P (FHold r)) (Pk : forall h, P (KEnd h)).
    Context (Pm : forall d g (st : stack) d' g' st', mstep sz d g st = Ok (d', g', st') -> Forall P st -> Forall P st').
    Lemma tstep_frames s t s' : Forall (Forall P) (cs_t s) -> tstep sz s t = Ok s' -> Forall (Forall P) (cs_t s').
    Proof.
      intros HF Hs. destruct (cs_t s !! t) as [st|] eqn:Ht; [|unfold tstep in Hs; rewrite Ht in Hs; by injection Hs as <-].
      destruct (tstep_cases sz s t st Ht) as [(-> & Hc)|[(r & -> & Hc)|[(x & o & h & -> & Hc)|[(r & -> & Hc)|Hc]]]]; rewrite Hc in Hs; clear Hc.
      - by injection Hs as <-.
      - by injection Hs as <-.
      - injection Hs as <-. cbn. apply Forall_insert; [done|constructor].
      - injection Hs as <-. cbn. apply Forall_insert; [done|]. by repeat constructor.
      - apply bind_inv in Hs as ([[d g] st'] & Hm & [= <-]). cbn. apply Forall_insert; [done|]. eapply Pm; [exact Hm|].
        rewrite Forall_lookup in HF. by eapply HF.
    Qed.
    Lemma cstep_frames s e s' : Forall (Forall P) (cs_t s) -> cstep sz s e = Ok s' ->
      (forall t o s', e = SStart t o -> cstart sz s t o = Ok s' -> Forall (Forall P) (cs_t s')) -> Forall (Forall P) (cs_t s').
    Proof.
      intros HF Hs Hst. destruct e as [t o|t|t i v|t]; cbn [cstep] in Hs.
      - by eapply Hst.
      - by eapply tstep_frames.
      - unfold hold_write in Hs. destruct (cs_t s !! t) as [st|] eqn:Ht; [|by injection Hs as <-].
        repeat (case_match; try (by injection Hs as <-)). subst. apply bind_inv in Hs as (n & _ & Hs).
        destruct (_ <? _)%N; [|by injection Hs as <-]. apply bind_inv in Hs as ([d old] & Hd & [= <-]). done.
      - unfold hold_end in Hs. destruct (cs_t s !! t) as [st|] eqn:Ht; [|by injection Hs as <-].
        repeat (case_match; try (by injection Hs as <-)). subst. injection Hs as <-. cbn. apply Forall_insert; [done|constructor].
    Qed.
  End frames.
  Ltac cs Hs := repeat (first
      [ match type of Hs with mbind _ _ = Ok _ => let x := fresh "x" in let Hx := fresh "Hx" in apply bind_inv in Hs as (x & Hx & Hs) end
      | match type of Hs with Ok _ = Ok _ => fail 1 | _ => idtac end; case_match; try done ]); subst; injection Hs as <-.
  Lemma cstart_plain s t o s' : Forall (Forall plain) (cs_t s) -> cstart sz s t o = Ok s' -> Forall (Forall plain) (cs_t s').
  Proof.
    intros HF Hs. unfold cstart in Hs. destruct (cs_t s !! t) as [[|f st]|] eqn:Ht; [|by injection Hs as <-..].
    destruct o; cs Hs; cbn; try done; (apply Forall_insert; [done|by repeat constructor]).
  Qed.
  Definition no_im (e : sched (V:=V)) : Prop := match e with SStart _ (CIntoMut _) => False | _ => True end.
  Lemma cstart_noim s t o s' : no_im (SStart t o) -> Forall (Forall noim) (cs_t s) -> cstart sz s t o = Ok s' -> Forall (Forall noim) (cs_t s').
  Proof.
    intros Hn HF Hs. unfold cstart in Hs. destruct (cs_t s !! t) as [[|f st]|] eqn:Ht; [|by injection Hs as <-..].
    destruct o; try done; cs Hs; cbn; try done; (apply Forall_insert; [done|by repeat constructor]).
  Qed.
  Lemma cstep_plain s e s' : Forall (Forall plain) (cs_t s) -> cstep sz s e = Ok s' -> Forall (Forall plain) (cs_t s').
  Proof.
    intros HF Hs. eapply cstep_frames; try done; [apply mstep_plain|]. intros t o s1 _. by apply cstart_plain.
  Qed.
  Lemma cstep_noim s e s' : no_im e -> Forall (Forall noim) (cs_t s) -> cstep sz s e = Ok s' -> Forall (Forall noim) (cs_t s').
  Proof.
    intros Hn HF Hs. eapply cstep_frames; try done; [apply mstep_noim|]. intros t o s1 ->. by apply cstart_noim.
  Qed.

  (** One event. *)
  Definition ccons s e s' : Prop := exists nb ins outs,
    balg nb (cs_d s) (cs_d s') ins outs /\ ins.*2 = cput s e s' /\ cgot s' = cgot s ++ outs.*2 /\
    ins.*1 = outs.*1 ++ buf_cells (length (dw_blocks (cs_d s))) nb.
  Lemma ccons0 s e s' : bal (cs_d s) (cs_d s') [] [] -> cput s e s' = [] -> cgot s' = cgot s -> ccons s e s'.
  Proof. intros H1 H2 H3. exists [], [], []. rewrite H2, H3, app_nil_r. done. Qed.
  Lemma ccons_same s e s' : cs_d s' = cs_d s -> cput s e s' = [] -> cgot s' = cgot s -> ccons s e s'.
  Proof. intros E. apply ccons0. rewrite E. apply bal_refl. Qed.
  Lemma cput_out s e : cput s e s = [].
  Proof. unfold cput. destruct e as [? []| | |]; try done; by rewrite bool_decide_eq_true_2. Qed.
  Lemma ccons_refl s e : ccons s e s.
  Proof. apply ccons_same; [done|apply cput_out|done]. Qed.
  Lemma cgot_app s s' o : cs_out s' = cs_out s ++ o -> omap (fun e => match e with (_, RVal v) => Some (v : V) | _ => None end) o = [] -> cgot s' = cgot s.
  Proof. intros E Eo. unfold cgot. by rewrite E, omap_snoc, Eo, app_nil_r. Qed.
  Lemma ccons_new s e s' base vals d p len : (forall c, is_Some (dw_mem (cs_d s) !! c) -> fst c < length (dw_blocks (cs_d s))) ->
    new_block (cs_d s) base vals = (d, p, len) -> bal d (cs_d s') [] [] -> cput s e s' = vals -> cgot s' = cgot s -> ccons s e s'.
  Proof.
    intros Hc E H Hp Hg. pose proof (new_block_bal (cs_d s) base vals Hc) as Hb. rewrite E in Hb.
    pose proof (bal_trans _ _ _ _ _ _ _ _ _ Hb H) as Ht. rewrite !app_nil_r in Ht.
    eexists _, _, _. split; [exact Ht|]. cbn. rewrite Hp, Hg, !app_nil_r. split_and!; [|done|].
    - apply snd_zip. rewrite rng_cells_length. cbn. lia.
    - apply fst_zip. rewrite rng_cells_length. cbn. lia.
  Qed.
  Lemma ccons_replace s e s' p v old d t : mem_replace sz (cs_d s) p v = Ok (d, old) -> cs_d s' = d -> cs_out s' = cs_out s ++ [(t, RVal old)] ->
    cput s e s' = [v] -> ccons s e s'.
  Proof.
    intros H%mem_replace_bal <- Ho Hp. exists [], [((p_blk p, p_idx p), v)], [((p_blk p, p_idx p), old)]. split_and!; [done|done| |done].
    unfold cgot. by rewrite Ho, omap_snoc.
  Qed.
  Lemma blocks_len d d' nb ins outs : balg nb d d' ins outs -> length (dw_blocks d') = length (dw_blocks d) + length nb.
  Proof.
    intros (nd & _ & _ & HB & _). apply (f_equal length) in HB. unfold bshape in HB. by rewrite app_length, !fmap_length in HB.
  Qed.

  Lemma cstep_cons s e s' : (forall c, is_Some (dw_mem (cs_d s) !! c) -> fst c < length (dw_blocks (cs_d s))) ->
    Forall (Forall plain) (cs_t s) -> cstep sz s e = Ok s' -> ccons s e s'.
  Proof.
    intros Hc HF Hs. destruct e as [t o|t|t i v|t]; cbn [cstep] in Hs.
    - unfold cstart in Hs. destruct (cs_t s !! t) as [[|f st]|] eqn:Ht; [|injection Hs as <-; apply ccons_refl..].
      destruct o as [base vals|base vals|h|side h|h|h|h|h|h|h|h|side h|h i v].
      + destruct (_ <? _)%N; [|injection Hs as <-; apply ccons_refl]. destruct (new_block _ _ _) as [[d p] len] eqn:E1.
        pose proof (from_boxed_same d p len) as Hb. destruct (data_from_boxed_slice d p len) as [d2 n]. cbn in Hb. injection Hs as <-.
        eapply ccons_new; [done|exact E1|exact Hb| |done]. unfold cput. cbn. rewrite bool_decide_eq_false_2; [done|].
        rewrite (blocks_len _ _ _ _ _ Hb). injection E1 as <- _ _. cbn. rewrite app_length. cbn. lia.
      + destruct (_ <? _)%N; [|injection Hs as <-; apply ccons_refl]. destruct (new_block _ _ _) as [[d p] len] eqn:E1.
        assert (bal d (fst (fst (split_alloc_from_items sz d p len))) [] []) as Hb.
        { unfold split_alloc_from_items. destruct (_ || _)%N; by apply bal_same. }
        destruct (split_alloc_from_items sz d p len) as [[d2 it] al]. cbn in Hb. injection Hs as <-.
        eapply ccons_new; [done|exact E1|exact Hb| |]. 
        * unfold cput. cbn. rewrite bool_decide_eq_false_2; [done|].
          rewrite (blocks_len _ _ _ _ _ Hb). injection E1 as <- _ _. cbn. rewrite app_length. cbn. lia.
        * by eapply cgot_app.
      + cs Hs; try apply ccons_refl; by apply ccons_same.
      + cs Hs; try apply ccons_refl; by apply ccons_same.
      + cs Hs; try apply ccons_refl; by apply ccons_same.
      + cs Hs; try apply ccons_refl; by apply ccons_same.
      + cs Hs; try apply ccons_refl. apply ccons0; [|done..]. cbn. unfold data_new in *. cbn in *. simplify_eq. by apply bal_same.
      + cs Hs; try apply ccons_refl; by apply ccons_same.
      + cs Hs; try apply ccons_refl; by apply ccons_same.
      + cs Hs; try apply ccons_refl; by apply ccons_same.
      + cs Hs; try apply ccons_refl; (apply ccons_same; [done|done|by eapply cgot_app]).
      + cs Hs; try apply ccons_refl. apply ccons0; [|done|by eapply cgot_app]. cbn.
        match goal with H : _ = Ok (_, (_, _)) |- _ => unfold mut_split_off in H; destruct (if side then _ else _) as [x1 x2];
          apply bind_inv in H as (x & Hx' & H) end.
        simplify_eq. by apply alloc_clone_bal in Hx'.
      + cs Hs; try apply ccons_refl. eapply ccons_replace; [eassumption|done|done|]. unfold cput. cbn.
        rewrite bool_decide_eq_false_2; [done|]. rewrite app_length. cbn. lia.
    - destruct (cs_t s !! t) as [st|] eqn:Ht; [|unfold tstep in Hs; rewrite Ht in Hs; injection Hs as <-; apply ccons_refl].
      destruct (tstep_cases sz s t st Ht) as [(-> & Hc')|[(r & -> & Hc')|[(x & o & h & -> & Hc')|[(r & -> & Hc')|Hc']]]]; rewrite Hc' in Hs; clear Hc'.
      + injection Hs as <-. apply ccons_refl.
      + injection Hs as <-. apply ccons_refl.
      + injection Hs as <-. apply ccons_same; [done|done|]. eapply cgot_app; [done|]. cbn.
        rewrite Forall_lookup in HF. specialize (HF _ _ Ht). apply Forall_inv in HF. cbn in HF. destruct o as [[]|]; done.
      + injection Hs as <-. by apply ccons_same.
      + apply bind_inv in Hs as ([[d g] st'] & Hm & [= <-]). apply ccons0; [|done..]. by eapply mstep_bal.
    - unfold hold_write in Hs. destruct (cs_t s !! t) as [st|] eqn:Ht; [|injection Hs as <-; apply ccons_refl].
      repeat (case_match; try (injection Hs as <-; apply ccons_refl)). subst. apply bind_inv in Hs as (n & _ & Hs).
      destruct (_ <? _)%N; [|injection Hs as <-; apply ccons_refl]. apply bind_inv in Hs as ([d old] & Hd & [= <-]).
      eapply ccons_replace; [exact Hd|done|done|]. unfold cput. cbn. rewrite bool_decide_eq_false_2; [done|]. rewrite app_length. cbn. lia.
    - unfold hold_end in Hs. destruct (cs_t s !! t) as [st|] eqn:Ht; [|injection Hs as <-; apply ccons_refl].
      repeat (case_match; try (injection Hs as <-; apply ccons_refl)). subst. injection Hs as <-. apply ccons_same; [done|done|].
      by eapply cgot_app.
  Qed.

  (** A whole run. *)
  Record KI s : Prop := {
    K_plain : Forall (Forall plain) (cs_t s);
    K_cells : (map_to_list (dw_mem (cs_d s))).*1 ++ cdropped s ≡ₚ buf_cells 0 (bshape (cs_d s));
    K_freed : forall b, is_freed (cs_d s) b <-> b ∈ cfreed s;
    K_once : NoDup (cfreed s);
    K_layout : forall b addr cap, EFree b addr cap ∈ dw_trace (cs_d s) -> bshape (cs_d s) !! b = Some (addr, cap)
  }.
  Lemma K_block s : KI s -> forall c, is_Some (dw_mem (cs_d s) !! c) -> fst c < length (dw_blocks (cs_d s)).
  Proof.
    intros K c [v Hv]. assert (c ∈ buf_cells 0 (bshape (cs_d s))) as Hc.
    { rewrite <- (K_cells _ K). apply elem_of_app. left. apply elem_of_list_fmap. exists (c, v). split; [done|]. by apply elem_of_map_to_list. }
    apply buf_cells_elem in Hc as (i & ad & len & H1 & H2 & _). cbn in H2. subst i. apply lookup_lt_Some in H1.
    unfold bshape in H1. by rewrite fmap_length in H1.
  Qed.
  Lemma KI_init n : KI (init_cstate n).
  Proof.
    split; cbn.
    - apply Forall_replicate. constructor.
    - done.
    - intros b. split; [by intros (? & ? & _)|by intros ?%elem_of_nil].
    - apply NoDup_nil_2.
    - by intros b ad cp ?%elem_of_nil.
  Qed.
  Lemma KI_cstep s e s' : KI s -> cstep sz s e = Ok s' ->
    KI s' /\ ccontents s ++ cput s e s' ++ cdropped_items s ++ cgot s ≡ₚ ccontents s' ++ cdropped_items s' ++ cgot s'.
  Proof.
    intros K Hs. pose proof (cstep_plain _ _ _ (K_plain _ K) Hs) as Hp.
    destruct (cstep_cons _ _ _ (K_block _ K) (K_plain _ K) Hs) as (nb & ins & outs & (nd & T & M & B & F & ND & N & L) & Ei & Eg & Ec).
    assert (length (dw_blocks (cs_d s)) = length (bshape (cs_d s))) as Hl by (by unfold bshape; rewrite fmap_length).
    split.
    - split; [done|..].
      + unfold cdropped. rewrite T, omap_snoc, B, buf_cells_app, <- (K_cells _ K). cbn [Nat.add]. rewrite (drops_cells nd). fold (cdropped s).
        assert ((map_to_list (dw_mem (cs_d s))).*1 ++ ins.*1 ≡ₚ (map_to_list (dw_mem (cs_d s'))).*1 ++ (drops nd).*1 ++ outs.*1) as H.
        { rewrite <- !fmap_app. by rewrite M. }
        rewrite Ec, Hl in H. apply (Permutation_app_inv_l (outs.*1)).
        transitivity (((map_to_list (dw_mem (cs_d s'))).*1 ++ (drops nd).*1 ++ outs.*1) ++ cdropped s); [solve_Permutation|].
        rewrite <- H. solve_Permutation.
      + intros b. rewrite F, (K_freed _ K). unfold cfreed. rewrite T, omap_snoc, elem_of_app. done.
      + unfold cfreed. rewrite T, omap_snoc. apply NoDup_app. split_and!; [apply (K_once _ K)| |done].
        intros b Hb Hb'. apply (N b Hb'). by apply (K_freed _ K).
      + intros b ad cp. rewrite T, elem_of_app. intros [H|H]; [|by apply L]. rewrite B. apply lookup_app_l_Some. by eapply (K_layout _ K).
    - rewrite Eg. unfold cdropped_items. rewrite T, omap_snoc, (drops_vals nd). fold (cdropped_items s). rewrite <- Ei.
      assert (ccontents s ++ ins.*2 ≡ₚ ccontents s' ++ (drops nd).*2 ++ outs.*2) as H.
      { unfold ccontents. rewrite <- !fmap_app. by rewrite M. }
      transitivity ((ccontents s ++ ins.*2) ++ cdropped_items s ++ cgot s); [solve_Permutation|]. rewrite H. solve_Permutation.
  Qed.
  Lemma KI_crun es : forall s s', KI s -> crun sz s es = Ok s' ->
    KI s' /\ ccontents s ++ cput_run sz s es ++ cdropped_items s ++ cgot s ≡ₚ ccontents s' ++ cdropped_items s' ++ cgot s'.
  Proof.
    induction es as [|e es IH]; intros s s' K Hs; cbn in Hs; [by injection Hs as <-|].
    apply bind_inv in Hs as (s1 & H1 & Hs). destruct (KI_cstep _ _ _ K H1) as [K1 P1]. destruct (IH _ _ K1 Hs) as [K2 P2].
    split; [done|]. cbn. rewrite H1, <- P2.
    transitivity ((ccontents s ++ cput s e s1 ++ cdropped_items s ++ cgot s) ++ cput_run sz s1 es); [solve_Permutation|].
    rewrite P1. solve_Permutation.
  Qed.
  Lemma KI_reach n es s : creach sz n es s -> KI s /\ cput_run sz (init_cstate n) es ≡ₚ ccontents s ++ cdropped_items s ++ cgot s.
  Proof.
    intros H. destruct (KI_crun _ _ _ (KI_init n) H) as [K P]. split; [done|]. rewrite <- P. unfold ccontents. cbn. by rewrite !app_nil_r.
  Qed.
End conserve.
