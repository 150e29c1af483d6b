(** The data layer under concurrency: as long as [into_mut] finds no child of
    the node it dismantles in use, all threads together respect the ownership
    invariant of DataInv.v, and no step fails. *)
From Verif Require Import Base BaseLemmas Api SliceItemsModel Spec SliceItemsProof DataModel RcModel DataInv DataSteps DataFuns GuardInv GuardFuns ArcModel ArcInv ArcConc ConcInv ConcGuard ConcWorld ConcChild.
Local Open Scope nat_scope.
#[local] Arguments slo {A} F hs : simpl never.
#[local] Arguments thr {V A} F ts : simpl never.

Section data.
  Context {V : Type} (sz : N).
  Notation stack := (list (frame V)).
  Notation dworld := (dworld V).
  Notation dinv := (@dinv V sz).
  Notation ent_ok := (@ent_ok V sz).
  Implicit Types (d : dworld) (T : trees) (L : list label).

  (** ** Facts about frames *)

  (** [p] is the address of an item. *)
  Definition ptr_ok d (p : ptr) : Prop :=
    p_blk p < length (bshape d) /\ points sz (bbase (bshape d) (p_blk p)) (p_blk p) (p_idx p) p.
  Definition xfact d (x : xhandle) : Prop :=
    match x with XMut m => ptr_ok d (si_ptr (ms_items m)) | _ => True end.
  (** A node that was taken out of the heap still knows its place in the tree. *)
  Definition lab T L (n : dnode) : Prop :=
    exists l, l ∈ L /\ nrng n = lrng T l /\ forall side c, d_child side n = Some c -> L !! c = Some (lchild l side).
  Definition chain (n : dnode) (k : stack) : Prop :=
    match k with KFg side n0 _ :: _ => nrng n = half side (nrng n0) | _ => True end.
  Definition dfact d T L (f : frame V) (k : stack) : Prop :=
    match f with
    | FItems j p a => j <> 0 -> ptr_ok d p
    | FChildCas _ _ j _ | FChildLost _ _ _ j _ | FChildUndo _ _ _ j _ => j = 2
    | FChildUnwrap _ _ _ j _ => j = 1
    | FFg n a => lab T L n /\ ent_ok d (nrng n) a /\ ptr_ok d (d_ptr n) /\ chain n k
    | KFg side n a => d_child side n <> None /\ lab T L n /\ ent_ok d (nrng n) a /\ ptr_ok d (d_ptr n) /\ chain n k
    | FV (VFin (Some x) _) => xfact d x
    | _ => True
    end.
  Fixpoint dok d T L (st : stack) : Prop :=
    match st with [] => True | f :: k => dfact d T L f k /\ dok d T L k end.

  (** What a step of one thread leaves alone. *)
  Record dext d d' : Prop := {
    dx_shape : bshape d `prefix_of` bshape d';
    dx_alloc : forall a s v, live (dw_allocs d') a s v -> a < length (dw_allocs d) -> exists s', live (dw_allocs d) a s' v
  }.
  Lemma dext_same d d' : bshape d' = bshape d -> dw_allocs d' = dw_allocs d -> dext d d'.
  Proof. intros E1 E2. split; [by rewrite E1|]. rewrite E2. eauto. Qed.
  Lemma dext_refl d : dext d d.
  Proof. by apply dext_same. Qed.

  Section stable.
    Context d d' T T' L L' (R' : list nat) (O' : list (rng * option nat)).
    Context (X : dext d d') (HT : T `prefix_of` T') (HL : L `prefix_of` L').
    Context (HLT : forall l, l ∈ L -> l_tree l < length T) (I : dinv d' T' L' R' O').
    Lemma ptr_ok_stable p : ptr_ok d p -> ptr_ok d' p.
    Proof.
      intros [H1 H2]. destruct (dx_shape _ _ X) as [k E]. unfold ptr_ok. rewrite E, app_length. split; [lia|].
      unfold bbase in *. by rewrite lookup_app_l.
    Qed.
    Lemma xfact_stable x : xfact d x -> xfact d' x.
    Proof. destruct x; try done. apply ptr_ok_stable. Qed.
    Lemma lab_stable n : lab T L n -> lab T' L' n.
    Proof.
      intros (l & Hl & Hn & Hc). destruct HL as [kL EL], HT as [kT ET]. exists l. split_and!.
      - rewrite EL. apply elem_of_app. by left.
      - rewrite Hn. unfold lrng. rewrite ET. destruct (lookup_lt_is_Some_2 T (l_tree l)) as [r Hr]; [auto|].
        by rewrite (lookup_app_l_Some _ _ _ _ Hr), Hr.
      - intros side c Hs. rewrite EL. apply lookup_app_l_Some. auto.
    Qed.
    Lemma ent_stable r o : ent_ok d r o -> o ∈ snd <$> O' -> ent_ok d' r o.
    Proof.
      intros [(base & len & H0 & H1) H2] ([r' o'] & -> & Hin)%elem_of_list_fmap. cbn in *. split.
      - exists base, len. split; [|done]. destruct (dx_shape _ _ X) as [k E]. rewrite E. by apply lookup_app_l_Some.
      - intros Hs Hn. destruct (H2 Hs Hn) as (a & s & v & -> & Hv & Hbl).
        destruct (dinv_alloc_live sz d' T' L' R' O' a I) as (s' & v' & Hv').
        { assert (0 < cnt a (alloc_refs O')); [|lia]. apply cnt_pos. unfold alloc_refs. apply elem_of_list_bind.
          eexists. split; [|exact Hin]. cbn. by apply elem_of_list_singleton. }
        destruct (dx_alloc _ _ X _ _ _ Hv') as [s'' Hv'']; [by eapply live_lt|].
        destruct (live_fun _ _ _ _ _ _ Hv Hv'') as [_ ->]. eauto 10.
    Qed.
    Lemma dok_stable (st : stack) : (forall e, e ∈ stk fO st -> e ∈ O') -> dok d T L st -> dok d' T' L' st.
    Proof.
      induction st as [|f k IH]; [done|]. intros Hin [Hf Hk]. rewrite stk_cons in Hin. split.
      - destruct f; try done; cbn in Hf |- *.
        + intros Hj. apply ptr_ok_stable. auto.
        + destruct Hf as (H1 & H2 & H3 & H4). split_and!; [by apply lab_stable| |by apply ptr_ok_stable|done].
          eapply ent_stable; [done|]. apply elem_of_list_fmap. exists (own_rng n, a). split; [done|]. apply Hin. left.
        + destruct Hf as (H0 & H1 & H2 & H3 & H4). split_and!; [done|by apply lab_stable| |by apply ptr_ok_stable|done].
          eapply ent_stable; [done|]. apply elem_of_list_fmap. exists (own_rng n, a). split; [done|]. apply Hin. left.
        + destruct v as [| | |[x|]]; try done. by apply xfact_stable.
      - apply IH; [|done]. intros e He. apply Hin, elem_of_app. by right.
    Qed.
  End stable.

  (** The parts of a node. *)
  Lemma node_own_rel d n p len : ptr_ok d (d_ptr n) -> node_own sz n = (p, len) ->
    Rng (p_blk p) (p_idx p) len = own_rng n /\ ptr_ok d p.
  Proof.
    intros [Hb Hp] E. unfold node_own in E. unfold own_rng.
    destruct (d_left n) as [cl|], (d_right n) as [cr|].
    - injection E as <- <-. done.
    - destruct (right_sub_rel sz _ _ _ _ Hp E) as (H1 & H2 & H3). split; [done|]. unfold ptr_ok. by rewrite H3 in *.
    - destruct (left_sub_rel sz _ _ _ _ Hp E) as (H1 & H2 & H3). split; [done|]. unfold ptr_ok. by rewrite H3 in *.
    - injection E as <- <-. done.
  Qed.
  Lemma node_sub_rel d n side p len : ptr_ok d (d_ptr n) -> node_sub sz side n = (p, len) ->
    Rng (p_blk p) (p_idx p) len = half side (nrng n) /\ ptr_ok d p.
  Proof.
    intros [Hb Hp] E. destruct side; cbn in E.
    - destruct (right_sub_rel sz _ _ _ _ Hp E) as (H1 & H2 & H3). split; [done|]. unfold ptr_ok. by rewrite H3 in *.
    - destruct (left_sub_rel sz _ _ _ _ Hp E) as (H1 & H2 & H3). split; [done|]. unfold ptr_ok. by rewrite H3 in *.
  Qed.
  Lemma live_ptr_ok d T L R O x s n : dinv d T L R O -> live (dw_datas d) x s n -> ptr_ok d (d_ptr n).
  Proof.
    intros I Hx. destruct (dinv_live_label sz d T L R O I _ _ _ Hx) as [l Hl]. split.
    - destruct (di_nalloc _ _ _ _ _ _ I _ _ _ Hx) as [(base & len & H & _) _]. by eapply lookup_lt_Some.
    - by eapply (di_geo _ _ _ _ _ _ I).
  Qed.
  Lemma live_lab d T L R O x s n : dinv d T L R O -> live (dw_datas d) x s n -> lab T L n.
  Proof.
    intros I Hx. destruct (dinv_live_label sz d T L R O I _ _ _ Hx) as [l Hl]. exists l. split_and!.
    - by eapply elem_of_list_lookup_2.
    - by eapply (di_geo _ _ _ _ _ _ I).
    - intros side c Hc. by eapply (di_link _ _ _ _ _ _ I).
  Qed.
  Lemma acc_ref E b x (k : stack) : acc E b (QG x) k -> x ∈ stk fR k.
  Proof. inversion 1; subst; rewrite stk_cons; apply elem_of_app; left; cbn; set_solver. Qed.
  Lemma okend_slot E x h : okend E (Some x) h -> exists h' k, h = Some h' /\ ge_h E !! h' = Some (Some (x, k)).
  Proof. destruct h as [h|]; [|done]. intros (y & k & ? & [= <-]). eauto. Qed.

  Lemma vok_QD E (v : val V) : vok E v QD -> exists x, v = VData x.
  Proof. destruct v; cbn; [eauto|by intros (? & [=] & _)|by intros [[=] _]|by intros [[[=]|(? & _ & [=])] _]]. Qed.
  Lemma vok_QG E (v : val V) x : vok E v (QG x) -> exists y, v = VGuard y.
  Proof. destruct v; cbn; [by intros [=]|eauto|by intros [[=] _]|by intros [[[=]|(? & _ & [=])] _]]. Qed.
  Lemma vok_QF E (v : val V) : vok E v QF -> exists x o, v = VFin x o.
  Proof. destruct v; cbn; [by intros [=]|by intros (? & [=] & _)|by intros [[=] _]|eauto]. Qed.
  Lemma vok_QR E (v : val V) r : vok E v (QR r) -> v = VHold r \/ exists x o, v = VFin x o.
  Proof. destruct v; cbn; [by intros [=]|by intros (? & [=] & _)|intros [[= ->] _]; by left|right; eauto]. Qed.
  Lemma alloc_clone_live d o d' : alloc_clone d o = Ok d' ->
    forall a s v, live (dw_allocs d') a s v -> exists s', live (dw_allocs d) a s' v.
  Proof.
    destruct o as [x|]; cbn; [|intros [= <-]; eauto]. intros (h & (s0 & v0 & Hx & ->)%rc_inc_inv & [= <-])%bind_inv a s v. cbn.
    intros [(-> & [= <- <-] & _)|[? ?]]%live_insert; eauto.
  Qed.
  Lemma dw_set_datas_same d : dw_set_datas d (dw_datas d) = d.
  Proof. by destruct d. Qed.

  (** ** One step *)

  (** The child that [forget_items] is about to take is not shared. *)
  Definition clean d (st : stack) : Prop :=
    match st with
    | FFg n _ :: _ => match node_kids n with c :: _ => rc_count (dw_datas d) c = 1 | [] => True end
    | _ => True
    end.
  (** The thread waits for nothing but its caller. *)
  Definition returning (st : stack) : Prop :=
    st = [] \/ (exists r, st = [FHold r; KEnd None]) \/ (exists x o h, st = [FV (VFin x o); KEnd h]) \/
    (exists r, st = [FV (VHold r); KEnd None]).

  Section one.
    Context d (g : gdworld) (D : list nat) (hs : list (option (xhandle * nat))) (GR GW : list nat) (LT : list (nat * bool)).
    Context T L (RR : list nat) (OO : list (rng * option nat)) (b : option xhandle) (st : stack).
    Notation E := (GE g D (dw_datas d) hs).
    Definition dpost d' (st' : stack) : Prop := exists Y,
      dinv d' T (L ++ Y) (stk fR st' ++ RR) (stk fO st' ++ OO) /\ dok d' T (L ++ Y) st' /\ dext d d'.
    Context (I : dinv d T L (stk fR st ++ RR) (stk fO st ++ OO)).
    Context (HG : ginv g D (stk fG st ++ GR) (stk fW st ++ GW) (stk fL st ++ LT)).
    Context (Hm : length (gd_metas g) = length (dw_datas d)).
    Context (Hr : run E b st).
    Context (Hb : forall x, b = Some x -> xok D x /\ (forall i, i ∈ hR x -> i ∈ RR) /\
      (forall i, i ∈ hG x -> i ∈ GR) /\ (forall i, i ∈ hW x -> i ∈ GW)).
    Context (HC : forall cl, cl ∈ stk fC st -> holds (dw_datas d) cl).
    Context (HN : forall x side n', (x, side, n') ∈ stk fN st -> d_left n' = None /\ d_right n' = None /\
      forall n, rc_get (dw_datas d) x = Some n -> geo sz n' n side).
    Context (Hd : dok d T L st) (Hcl : clean d st).

    Lemma dpost_mk d' st' : dinv d' T L (stk fR st' ++ RR) (stk fO st' ++ OO) -> dext d d' ->
      (dinv d' T L (stk fR st' ++ RR) (stk fO st' ++ OO) -> dok d' T L st') -> dpost d' st'.
    Proof. intros H1 H2 H3. exists []. rewrite app_nil_r. auto. Qed.
    Lemma dpost_same st' : stk fR st' ≡ₚ stk fR st -> stk fO st' ≡ₚ stk fO st -> dok d T L st' -> dpost d st'.
    Proof.
      intros H1 H2 H3. apply dpost_mk; [|apply dext_refl|done]. eapply dinv_perm; [..|exact I]; by rewrite ?H1, ?H2.
    Qed.
    (** Only the counts of nodes change. *)
    Lemma dpost_datas h st' : dinv (dw_set_datas d h) T L (stk fR st' ++ RR) (stk fO st' ++ OO) ->
      dok d T L st' -> dpost (dw_set_datas d h) st'.
    Proof.
      intros H1 H2. apply dpost_mk; [done|by apply dext_same|]. intros H3.
      eapply (dok_stable d (dw_set_datas d h) T T L L); [by apply dext_same|done|done|apply (di_lab _ _ _ _ _ _ I)|exact H3| |exact H2].
      intros e He. apply elem_of_app. by left.
    Qed.
    Lemma ref_live x : x ∈ stk fR st ++ RR -> exists s n, live (dw_datas d) x (S s) n.
    Proof.
      intros Hx. destruct (dinv_ref_live sz d T L _ _ I x Hx) as (s & n & l & Hl & _). exists (pred s), n.
      destruct s; [by apply (di_pos _ _ _ _ _ _ I) in Hl|done].
    Qed.
    Lemma borrow_live r : b = Some (XArc r) -> exists s n, live (dw_datas d) (ar_data r) (S s) n.
    Proof. intros Eb. apply ref_live, elem_of_app. right. apply (Hb _ Eb). left. Qed.
    Lemma guard_live i : i ∈ stk fG st ++ GR -> exists s n, live (gd_guards g) i (S s) n.
    Proof. intros Hi. destruct (ginv_ref _ _ _ _ _ HG i Hi) as (s & n & x & H & _). eauto. Qed.
    Lemma try_close_ok i down : i ∈ stk fG st ++ GR -> exists g' ok, gate_try_close g i down = Ok (g', ok).
    Proof.
      intros Hi. destruct (guard_live i Hi) as (s & n & Hn). unfold gate_try_close.
      rewrite (rc_val_live _ _ _ _ Hn). res_simpl. rewrite (rc_set_live _ _ _ _ _ Hn). res_simpl. eauto.
    Qed.
    Lemma meta_ok x s n : live (dw_datas d) x s n -> exists m, gd_metas g !! x = Some m.
    Proof. intros Hx. apply lookup_lt_is_Some_2. rewrite Hm. by eapply live_lt. Qed.

    (** A claimed child is alive if the parent is. *)
    Lemma claim_live x side c s n : (x, side, c) ∈ stk fC st -> live (dw_datas d) x s n -> exists s' n', live (dw_datas d) c (S s') n'.
    Proof.
      intros Hc Hx. pose proof (HC _ Hc n (rc_get_live _ _ _ _ Hx)) as H. destruct (small side n).
      - subst c. destruct s; [by apply (di_pos _ _ _ _ _ _ I) in Hx|]. eauto.
      - destruct (dinv_linked_live sz d T L _ _ I _ _ _ _ _ Hx H) as (s' & n' & Hl).
        destruct s'; [by apply (di_pos _ _ _ _ _ _ I) in Hl|]. eauto.
    Qed.
    Lemma dok_tail d' Y R' O' (k : stack) : dinv d' T (L ++ Y) R' (O' ++ OO) -> dext d d' ->
      (forall e, e ∈ stk fO k -> e ∈ O') -> dok d T L k -> dok d' T (L ++ Y) k.
    Proof.
      intros I' X Hin Hk. eapply (dok_stable d d' T T L (L ++ Y)); [done|done|by eexists|apply (di_lab _ _ _ _ _ _ I)|exact I'| |exact Hk].
      intros e He. apply elem_of_app. left. auto.
    Qed.
    Lemma dok_tail0 d' R' O' (k : stack) : dinv d' T L R' (O' ++ OO) -> dext d d' ->
      (forall e, e ∈ stk fO k -> e ∈ O') -> dok d T L k -> dok d' T L k.
    Proof. pose proof (dok_tail d' [] R' O' k) as H. by rewrite app_nil_r in H. Qed.
  End one.

  Lemma mstep_data d g D hs GR GW LT T L RR OO b st :
    dinv d T L (stk fR st ++ RR) (stk fO st ++ OO) ->
    ginv g D (stk fG st ++ GR) (stk fW st ++ GW) (stk fL st ++ LT) ->
    length (gd_metas g) = length (dw_datas d) ->
    run (GE g D (dw_datas d) hs) b st ->
    (forall x, b = Some x -> xok D x /\ (forall i, i ∈ hR x -> i ∈ RR) /\
      (forall i, i ∈ hG x -> i ∈ GR) /\ (forall i, i ∈ hW x -> i ∈ GW)) ->
    (forall cl, cl ∈ stk fC st -> holds (dw_datas d) cl) ->
    (forall x side n', (x, side, n') ∈ stk fN st -> d_left n' = None /\ d_right n' = None /\
      forall n, rc_get (dw_datas d) x = Some n -> geo sz n' n side) ->
    dok d T L st -> clean d st -> ~ returning st ->
    exists d' g' st', mstep sz d g st = Ok (d', g', st') /\ dpost d T L RR OO d' st'.
  Proof.
    intros I HG Hm Hr Hb HC HN Hd Hcl Hnr.
    assert (forall x, x ∈ stk fR st ++ RR -> exists s n, live (dw_datas d) x (S s) n) as Hlive by (by eapply ref_live).
    assert (forall r, b = Some (XArc r) -> exists s n, live (dw_datas d) (ar_data r) (S s) n) as Hbl by (by eapply borrow_live).
    assert (forall i, i ∈ stk fG st ++ GR -> exists s n, live (gd_guards g) i (S s) n) as Hgl by (by eapply guard_live).
    assert (forall i down, i ∈ stk fG st ++ GR -> exists g' ok, gate_try_close g i down = Ok (g', ok)) as Htc by (by eapply try_close_ok).
    assert (forall x s n, live (dw_datas d) x s n -> exists m, gd_metas g !! x = Some m) as Hmeta by (by eapply meta_ok).
    assert (forall x side c s n, (x, side, c) ∈ stk fC st -> live (dw_datas d) x s n ->
      exists s' n', live (dw_datas d) c (S s') n') as Hclaim by (by eapply claim_live).
    assert (forall st', stk fR st' ≡ₚ stk fR st -> stk fO st' ≡ₚ stk fO st -> dok d T L st' -> dpost d T L RR OO d st') as Hsame by (by eapply dpost_same).
    assert (forall h st', dinv (dw_set_datas d h) T L (stk fR st' ++ RR) (stk fO st' ++ OO) ->
      dok d T L st' -> dpost d T L RR OO (dw_set_datas d h) st') as Hdatas by (by eapply dpost_datas).
    assert (forall i down, (i, down) ∈ stk fL st ++ LT -> exists g', gate_open g i down = Ok g') as Hlat.
    { intros i down (s & n & Hn & _)%(ginv_latch _ _ _ _ _ HG). unfold gate_open. rewrite (rc_set_live _ _ _ _ _ Hn). by eexists. }
    destruct Hr as
      [|b x k Hr|b n p a k Hr|b i k Hr Hk|o|b v q k Hv Ha|r side h Ho|r h Ho|f r h Hf Ho|b f x k Hf Ha|f r h Hf Ho
      |x y h Ho|r h Ho|x y h Ho|r Hrok|f r Hf Hrok|f r Hf Hrok|r Hrok|f r Hf Hrok|n a r k Hrok Hfg|r Hrok].
    - destruct Hnr. by left.
    - (* FRel *)
      destruct (Hlive x) as (s & n & Hx); [left|]. cbn [mstep]. unfold rc_dec. unfold live in Hx. rewrite Hx.
      destruct Hd as [_ Hdk]. destruct s as [|s]; res_simpl.
      + destruct (node_own sz n) as [p len] eqn:Eo. do 3 eexists. split; [done|].
        destruct (node_own_rel d n p len) as [Er Hp]; [by eapply live_ptr_ok|done|].
        apply Hdatas.
        * assert (stk fR ((FRel <$> node_kids n) ++ FItems (N.to_nat len) p (d_alloc n) :: k) = kids n ++ stk fR k) as ->.
          { rewrite stk_app, stk_cons. cbn [fR app]. f_equal. change (node_kids n) with (kids n).
            generalize (kids n). intros l. induction l as [|y l IH]; [done|]. rewrite fmap_cons, stk_cons, IH. done. }
          assert (stk fO ((FRel <$> node_kids n) ++ FItems (N.to_nat len) p (d_alloc n) :: k) = (own_rng n, d_alloc n) :: stk fO k) as ->.
          { rewrite stk_app, stk_nil by done. rewrite stk_cons. cbn [fO app]. by rewrite N2Nat.id, Er. }
          rewrite <- app_assoc. by apply (dinv_unlink sz d T L (stk fR k ++ RR)).
        * assert (dok d T L (FItems (N.to_nat len) p (d_alloc n) :: k)) as H0 by (split; [intros _; exact Hp|exact Hdk]).
          generalize (node_kids n). intros l. induction l as [|y l IH]; [done|]. by split.
      + do 3 eexists. split; [done|]. apply Hdatas; [|done]. by apply (dinv_dec sz d T L (stk fR k ++ RR)).
    - (* FItems *)
      destruct Hd as [Hp Hdk]. destruct n as [|n]; cbn [mstep].
      + destruct (alloc_release_ok sz _ _ _ _ _ _ _ _ I) as (d' & E1 & I' & E2 & E3 & E4). rewrite E1. res_simpl.
        do 3 eexists. split; [done|]. assert (dext d d') as X.
        { split; [by rewrite E3|]. intros a' s v Hv _. by eapply alloc_release_live. }
        apply dpost_mk; [done..|]. intros I''. eapply (dok_tail0 d); [exact I|exact I''|done|done|done].
      + destruct Hp as [Hpb Hp]; [done|]. unfold mem_take.
        pose proof (dinv_ent sz _ _ _ _ _ _ I) as He. cbn [fst snd] in He.
        rewrite (mem_at_ok sz d T L _ _ _ a p I He).
        * destruct (dinv_take sz d T L _ _ _ (Rng (p_blk p) (p_idx p + 1) (N.of_nat n)) a (p_blk p, p_idx p) I) as [[v Hv] I'].
          -- intros c'. rewrite inr_front by lia. do 2 f_equal. f_equal. lia.
          -- eapply ent_ok_sub; [exact He|lia|lia].
          -- rewrite Hv. res_simpl. do 3 eexists. split; [done|]. pose proof (points_add sz _ _ _ _ 1 Hp) as Hp'.
             destruct Hp' as (Hpb' & Hpi' & _).
             apply dpost_mk.
             ++ apply dinv_log. rewrite !stk_cons. cbn [fR fO app]. rewrite Hpb', Hpi'. exact I'.
             ++ by apply dext_same.
             ++ intros I''. split.
                ** intros _. split; [by rewrite Hpb'|]. rewrite Hpb', Hpi'. by apply points_add.
                ** eapply (dok_tail0 d); [exact I|exact I''|by apply dext_same| |done]. intros e He'. by right.
        * apply in_rng_spec. cbn. split; [done|lia].
        * done.
    - (* FRelG *)
      destruct (Hgl i) as (s & n & Hi); [left|]. cbn [mstep]. unfold rc_dec. unfold live in Hi. rewrite Hi.
      destruct Hd as [_ Hdk]. destruct s as [|s]; res_simpl.
      + do 3 eexists. split; [done|]. apply Hsame; rewrite ?stk_relopt; try (by destruct (a_parent n)).
      + do 3 eexists. split; [done|]. by apply Hsame.
    - (* FRelW *)
      cbn [mstep]. destruct o as [i|].
      + destruct (ginv_wdec _ _ _ _ _ i HG) as (g' & E1 & _). rewrite E1. res_simpl. do 3 eexists. split; [done|].
        by apply Hsame.
      + cbn. do 3 eexists. split; [done|]. by apply Hsame.
    - (* FV *)
      destruct Hd as [Hv1 Hdk].
      destruct Ha as [b h Ho|r|r down k Ha|r Hrok|r Hrok|b h Ho|b x h Ho|b x y p k Ha Hp Hbd].
      + destruct (vok_QF _ _ Hv) as (x & o & ->). destruct Hnr. do 2 right. left. eauto.
      + destruct (vok_QR _ _ _ Hv) as [->|(x & o & ->)].
        * destruct Hnr. do 3 right. eauto.
        * destruct Hnr. do 2 right. left. eauto.
      + destruct (Hlat (ar_guard r) down) as (g' & E1).
        { rewrite !stk_cons. apply elem_of_app. left. apply elem_of_app. right. left. }
        cbn [mstep]. destruct v; rewrite E1; res_simpl; do 3 eexists; (split; [done|]);
          (apply Hsame; [done..|]); by destruct Hdk.
      + destruct (Hlat (ar_guard r) false) as (g' & E1).
        { rewrite !stk_cons. apply elem_of_app. left. apply elem_of_app. right. left. }
        cbn [mstep]. destruct v; rewrite E1; res_simpl; do 3 eexists; (split; [done|]);
          (apply Hsame; [done..|]); by destruct Hdk.
      + cbn [mstep]. destruct v; do 3 eexists; (split; [done|]); (apply Hsame; [done..|]); by destruct Hdk.
      + destruct (vok_QD _ _ Hv) as (x & ->). cbn [mstep]. do 3 eexists. split; [done|]. by apply Hsame.
      + destruct (vok_QG _ _ _ Hv) as (y & ->). cbn [mstep]. do 3 eexists. split; [done|]. by apply Hsame.
      + destruct (vok_QG _ _ _ Hv) as (z & ->). cbn [mstep]. do 3 eexists. split; [done|]. apply Hsame; [done..|]. by destruct Hdk.
    - (* FWait *)
      destruct (Hgl (ar_guard r)) as (s & n & Hi). { apply elem_of_app. right. apply (Hb _ eq_refl). left. }
      cbn [mstep]. rewrite (rc_val_live _ _ _ _ Hi). res_simpl. destruct (a_gate _ n); do 3 eexists; (split; [done|]).
      + by apply Hsame.
      + by apply Hsame.
    - destruct (Hgl (ar_guard r)) as (s & n & Hi). { apply elem_of_app. right. apply (Hb _ eq_refl). left. }
      cbn [mstep]. rewrite (rc_val_live _ _ _ _ Hi). res_simpl. destruct (a_gate _ n); do 3 eexists; (split; [done|]).
      + by apply Hsame.
      + by apply Hsame.
    - (* the child *)
      destruct (Hbl r eq_refl) as (j & n & Hx). destruct f; try done; cbn in Hf; subst; cbn [mstep].
      + rewrite (rc_val_live _ _ _ _ Hx). res_simpl. destruct (_ <=? _)%N.
        * rewrite (rc_inc_live _ _ _ _ Hx). res_simpl. do 3 eexists. split; [done|].
          apply Hdatas; [|done]. exact (dinv_inc sz _ _ _ _ _ _ _ _ I Hx).
        * destruct (d_child side n); do 3 eexists; (split; [done|]); by apply Hsame.
      + destruct (Hclaim _ side c _ _ ltac:(left) Hx) as (s' & n' & Hc). rewrite (rc_inc_live _ _ _ _ Hc). res_simpl.
        do 3 eexists. split; [done|]. apply Hdatas; [|done]. exact (dinv_inc sz _ _ _ _ _ _ _ _ I Hc).
      + rewrite (rc_val_live _ _ _ _ Hx). res_simpl. destruct (node_sub sz side n) as [p len] eqn:Es.
        destruct (node_sub_rel d n side p len) as [Ers Hp]; [by eapply live_ptr_ok|done|].
        pose proof (di_nalloc _ _ _ _ _ _ I _ _ _ Hx) as Hent.
        pose proof (ent_ok_half sz _ side _ _ Hent) as Henth. rewrite <- Ers in Henth.
        destruct (alloc_clone_ok sz d T L _ _ (if (len =? 0)%N then None else d_alloc n) (p_blk p) (p_idx p) I) as (h' & E1 & I' & Hk).
        { eapply rng_ok_sub; [apply Henth|lia]. }
        { intros a Ea. destruct (len =? 0)%N; [done|]. eapply dinv_alloc_live; [exact I|].
          pose proof (hsum_ge (fun n => cnt a (option_list (d_alloc n))) _ _ _ _ Hx) as Hge. cbn beta in Hge.
          rewrite Ea in Hge. cbn in Hge. rewrite cnt_cons, decide_True in Hge by done. lia. }
        rewrite E1. res_simpl. do 3 eexists. split; [done|]. apply dpost_mk; [done| |done].
        split; [done|]. intros a s v Hv Ha. cbn in Hv. destruct (alloc_clone_live _ _ _ E1 _ _ _ Hv) as [s' Hs']. eauto.
      + rewrite (rc_val_live _ _ _ _ Hx). res_simpl. destruct Hd as [Hk2 Hdk]; cbn in Hk2; subst k. destruct (HN _ _ _ ltac:(left)) as (El & Er & Hgeo).
        destruct (Hgeo _ (rc_get_live _ _ _ _ Hx)) as [Eg Ea]. destruct (d_child side n) as [c|] eqn:Ec.
        * do 3 eexists. split; [done|]. by apply Hsame.
        * assert (rc_set (dw_datas d ++ [Some (2, n0)]) (ar_data r) (d_set_child side (Some (length (dw_datas d)))) =
            Ok (<[ar_data r := Some (S j, d_set_child side (Some (length (dw_datas d))) n)]> (dw_datas d ++ [Some (2, n0)]))) as Eset.
          { apply rc_set_live. by apply live_app_l. }
          rewrite Eset. res_simpl. do 3 eexists. split; [done|].
          destruct (dinv_live_label sz _ _ _ _ _ I _ _ _ Hx) as [l Hl].
          destruct (node_sub_rel d n side (d_ptr n0) (d_len n0)) as [Ers Hp]; [by eapply live_ptr_ok|done|].
          destruct n0 as [p len a cl cr]. cbn in El, Er, Ea, Ers, Hp. subst cl cr.
          pose proof (di_nalloc _ _ _ _ _ _ I _ _ _ Hx) as Hent.
          pose proof (ent_ok_half sz _ side _ _ Hent) as Henth.
          assert (ent_ok d (half side (nrng n)) a) as Hea.
          { split; [apply Henth|]. intros Hsz Hne. rewrite <- Ers in Hne. cbn in Hne.
            rewrite (proj2 (N.eqb_neq len 0) Hne) in Ea. subst a. apply Henth; [done|]. by rewrite <- Ers. }
          exists [lchild l side]. split_and!.
          -- exact (new_child_ok sz _ _ _ _ _ _ _ _ _ _ _ _ _ _ _ I Hx Hl Ec Ers (proj2 Hp) Hea).
          -- done.
          -- by apply dext_same.
      + destruct (Hclaim _ side c _ _ ltac:(left) Hx) as (s' & n' & Hc). rewrite (rc_inc_live _ _ _ _ Hc). res_simpl.
        do 3 eexists. split; [done|]. apply Hdatas; [|done]. exact (dinv_inc sz _ _ _ _ _ _ _ _ I Hc).
      + destruct Hd as [Hk2 Hdk]; cbn in Hk2; subst k. do 3 eexists. split; [done|]. by apply Hsame.
      + destruct Hd as [Hk2 Hdk]; cbn in Hk2; subst k. do 3 eexists. split; [done|]. by apply Hsame.
    - (* the guard *)
      assert (x ∈ stk fR (f :: k) ++ RR) as Hin.
      { rewrite stk_cons. apply elem_of_app. left. apply elem_of_app. right. by eapply acc_ref. }
      destruct (Hlive x Hin) as (j & n & Hx). destruct (Hmeta _ _ _ Hx) as [m Em]. destruct Hd as [_ Hdk].
      assert (forall b0, bok (GE g D (dw_datas d) hs) x b0 -> exists wk, gd_boxes g !! b0 = Some (Some wk)) as Hbok.
      { intros b0 (o & H & _). eauto. }
      destruct f; try done; cbn in Hf; cbn [mstep].
      + subst. rewrite (rc_val_live _ _ _ _ Hx), Em. res_simpl. do 3 eexists. split; [done|]. by apply Hsame.
      + destruct Hf as [-> (wk & Ewk)%Hbok]. rewrite Ewk. destruct (rc_upgrade _ _) as [gs [y|]]; do 3 eexists; (split; [done|]); by apply Hsame.
      + destruct Hf as [-> _]. rewrite Em. destruct (rc_upgrade _ _) as [h' [p|]] eqn:Eu.
        * do 3 eexists. split; [done|]. apply rc_upgrade_inv in Eu as [(i & s & v & Ep & Hi & -> & [= ->])|(? & ? & _)]; [|done].
          apply Hdatas; [|done]. exact (dinv_inc sz _ _ _ _ _ _ _ _ I Hi).
        * do 3 eexists. split; [done|]. by apply Hsame.
      + destruct Hf as (-> & _ & _). rewrite (rc_val_live _ _ _ _ Hx), Em. res_simpl. destruct (Nat.eqb_spec (am_box m) b0) as [<-|].
        * unfold gd_new_guard. cbn. rewrite Em, Nat.eqb_refl. cbn. do 3 eexists. split; [done|]. by apply Hsame.
        * do 3 eexists. split; [done|]. by apply Hsame.
      + destruct Hf as [-> (wk & Ewk)%Hbok]. rewrite Ewk. destruct (rc_upgrade _ _) as [gs [y|]]; do 3 eexists; (split; [done|]);
          apply Hsame; rewrite ?stk_relopt; destruct pg; done.
    - (* FClone *)
      destruct Hf as [-> | ->]; cbn [mstep].
      + destruct (Hbl r eq_refl) as (s & n & Hx). rewrite (rc_inc_live _ _ _ _ Hx). res_simpl. do 3 eexists. split; [done|].
        apply Hdatas; [|done]. exact (dinv_inc sz _ _ _ _ _ _ _ _ I Hx).
      + destruct (Hgl (ar_guard r)) as (s & n & Hi). { apply elem_of_app. right. apply (Hb _ eq_refl). left. }
        rewrite (rc_inc_live _ _ _ _ Hi). res_simpl. do 3 eexists. split; [done|]. by apply Hsame.
    - (* FCloneW *)
      cbn [mstep]. destruct y as [y|].
      + destruct (ginv_winc _ _ _ _ _ y HG) as (g' & E1 & _).
        { apply (gi_rw _ _ _ _ _ HG), elem_of_app. right. apply (Hb _ eq_refl). left. }
        rewrite E1. res_simpl. do 3 eexists. split; [done|]. by apply Hsame.
      + cbn. do 3 eexists. split; [done|]. by apply Hsame.
    - (* FDown *)
      destruct (Hbl r eq_refl) as (s & n & Hx). cbn [mstep]. rewrite (rc_val_live _ _ _ _ Hx). res_simpl.
      destruct (ginv_winc _ _ _ _ _ (ar_guard r) HG) as (g' & E1 & _).
      { destruct (Hgl (ar_guard r)) as (s' & n' & Hi); [|by eapply live_lt]. apply elem_of_app. right. apply (Hb _ eq_refl). left. }
      rewrite E1. res_simpl. do 3 eexists. split; [done|]. by apply Hsame.
    - (* FUpgrade *)
      cbn [mstep]. destruct (rc_upgrade (dw_datas d) x) as [h' [y'|]] eqn:Eu.
      + do 3 eexists. split; [done|]. apply rc_upgrade_inv in Eu as [(i & s & v & -> & Hi & -> & [= ->])|(? & ? & _)]; [|done].
        apply Hdatas; [|done]. exact (dinv_inc sz _ _ _ _ _ _ _ _ I Hi).
      + do 3 eexists. split; [done|]. by apply Hsame.
    - (* get_mut *)
      cbn [mstep]. destruct (Htc (ar_guard r) true) as (g' & ok & E1); [left|]. rewrite E1. res_simpl.
      destruct ok; do 3 eexists; (split; [done|]); by apply Hsame.
    - destruct Hf as [-> | ->]; cbn [mstep].
      + destruct (_ =? 1); do 3 eexists; (split; [done|]); by apply Hsame.
      + destruct (Htc (ar_guard r) false) as (g' & ok & E1); [left|]. rewrite E1. res_simpl.
        destruct ok; do 3 eexists; (split; [done|]); by apply Hsame.
    - destruct Hf as [-> | ->]; cbn [mstep].
      + destruct (_ =? 1); do 3 eexists; (split; [done|]); by apply Hsame.
      + destruct (_ =? 1); do 3 eexists; (split; [done|]); by apply Hsame.
    - (* into_mut *)
      cbn [mstep]. destruct (Htc (ar_guard r) false) as (g' & ok & E1); [left|]. rewrite E1. res_simpl.
      destruct ok; do 3 eexists; (split; [done|]); by apply Hsame.
    - destruct Hf as [-> | ->]; cbn [mstep].
      + destruct (_ =? 1); do 3 eexists; (split; [done|]); by apply Hsame.
      + destruct (Hlive (ar_data r)) as (s & n & Hx); [left|]. unfold rc_try_unwrap. unfold live in Hx. rewrite Hx.
        destruct s as [|s]; res_simpl.
        * do 3 eexists. split; [done|]. apply Hdatas.
          -- rewrite !stk_cons. cbn [fR fO app]. rewrite !app_nil_r. exact (dinv_unlink sz d T L RR _ _ _ I Hx).
          -- pose proof (live_lab _ _ _ _ _ _ _ _ I Hx). pose proof (di_nalloc _ _ _ _ _ _ I _ _ _ Hx).
             pose proof (live_ptr_ok _ _ _ _ _ _ _ _ I Hx). split; [|done]. by split; [|split; [|split]].
        * do 3 eexists. split; [done|]. rewrite (dw_set_datas_same d). by apply Hsame.
    - (* forget_items *)
      destruct Hd as ((Hlab & Hent & Hp & Hch) & Hdk). cbn [mstep]. cbn [clean] in Hcl. destruct (node_kids n) as [|c ks] eqn:Ek.
      + assert (kids n = []) as Ek' by done. assert (own_rng n = nrng n) as Eo.
        { unfold kids in Ek'. unfold own_rng. by destruct (d_left n), (d_right n). }
        destruct Hfg as [|side n' a' k Hfg].
        * do 3 eexists. split; [done|]. apply Hsame.
          -- rewrite !stk_cons. cbn [fR hR app]. by rewrite Ek'.
          -- rewrite !stk_cons. cbn [fO hO app ms_items ms_alloc si_ptr si_len]. by rewrite Eo.
          -- by split.
        * destruct Hdk as [(Hn0 & Hlab' & Hent' & Hp' & Hch') Hdk].
          assert (forall c, inr c (own_rng (d_set_child side None n')) = inr c (own_rng n') + inr c (nrng n)) as Einr.
          { intros c. destruct (d_child side n') as [c0|] eqn:Ec; [|done].
            rewrite (own_set_child c side c0) by by rewrite d_child_same. cbn in Hch. rewrite Hch. f_equal; f_equal.
            all: by destruct n', side; cbn in *; subst. }
          rewrite !stk_cons in I. cbn [fR fO app] in I. rewrite Ek', Eo in I. cbn [app] in I.
          assert (forall o, ent_ok d (Rng (rg_blk (nrng n)) (rg_lo (nrng n)) 0) o) as Hemp.
          { intros o. eapply (ent_ok_empty sz _ _ _ (d_len n)); [exact Hent|]. cbn. lia. }
          apply (dinv_rearrange sz d T L _ [(nrng n, a); (own_rng n', a')]
            [(Rng (rg_blk (nrng n)) (rg_lo (nrng n)) 0, a); (own_rng (d_set_child side None n'), a')]) in I.
          2: { intros c. rewrite !ocnt_cons. cbn [fst]. rewrite Einr, inr_empty. unfold ocnt. cbn. lia. }
          2: { intros x. by rewrite !alloc_refs_cons. }
          2: { intros x [->|[->|[]%elem_of_nil]%elem_of_cons]%elem_of_cons; [apply Hemp|]. cbn [fst snd].
               apply ent_ok_own. by destruct side. }
          destruct (alloc_release_ok sz _ _ _ _ _ _ _ _ I) as (d' & E1 & I' & E2 & E3 & E4). rewrite E1. res_simpl.
          do 3 eexists. split; [done|]. assert (dext d d') as X.
          { split; [by rewrite E3|]. intros a0 s v Hv _. by eapply alloc_release_live. }
          apply dpost_mk; [done..|]. intros I''. split.
          -- split; [|split; [|split]].
             ++ destruct Hlab' as (l & ? & ? & Hc). exists l. split_and!; [done|by destruct side|].
                intros side' c. rewrite d_child_set. case_decide; [done|]. auto.
             ++ assert (ent_ok d' (nrng n') a') as H0.
                { refine (ent_stable d d' _ _ _ _ X I'' _ _ Hent' _). apply elem_of_list_fmap.
                  exists (own_rng (d_set_child side None n'), a'). split; [done|]. left. }
                by destruct side.
             ++ assert (ptr_ok d' (d_ptr n')) as H0 by exact (ptr_ok_stable d d' X _ Hp'). by destruct side.
             ++ by destruct side.
          -- eapply (dok_stable d d'); [exact X|done|done|apply (di_lab _ _ _ _ _ _ I)|exact I''| |exact Hdk].
             intros e He. apply elem_of_app. left. by right.
      + set (side := match d_left n with Some _ => false | None => true end).
        assert (kids n = c :: ks) as Ek' by done.
        assert (d_child side n = Some c /\ kids n = c :: kids (d_set_child side None n)) as [Ec Ekk].
        { clear -Ek'. unfold side, kids in *. destruct (d_left n) as [cl|] eqn:El; cbn in Ek' |- *.
          - rewrite El. by injection Ek' as -> ->.
          - destruct (d_right n) as [cr|] eqn:Er; [|done]. rewrite El. by injection Ek' as -> <-. }
        destruct (Hlive c) as (s & n' & Hx). { rewrite stk_cons. cbn [fR]. rewrite Ek'. left. }
        rewrite (rc_count_live _ _ _ _ Hx) in Hcl. injection Hcl as ->.
        unfold rc_try_unwrap. unfold live in Hx. rewrite Hx. res_simpl. do 3 eexists. split; [done|].
        rewrite !stk_cons in I. cbn [fR fO app] in I. rewrite Ekk in I. cbn [app] in I.
        apply Hdatas.
        * rewrite !stk_cons. cbn [fR fO app]. rewrite <- !app_assoc. rewrite <- app_assoc in I. exact (dinv_unlink sz d T L _ _ _ _ I Hx).
        * pose proof (live_lab _ _ _ _ _ _ _ _ I Hx). pose proof (di_nalloc _ _ _ _ _ _ I _ _ _ Hx).
          pose proof (live_ptr_ok _ _ _ _ _ _ _ _ I Hx). split; [|split; [|done]].
          -- split; [done|split; [done|split; [done|]]]. cbn. destruct Hlab as (l & Hl & Hn & Hc).
             destruct (di_geo _ _ _ _ _ _ I _ _ _ _ Hx (Hc _ _ Ec)) as [-> _]. by rewrite Hn, lrng_child.
          -- split; [by rewrite Ec|by split].
    - destruct Hnr. right. left. eauto.
  Qed.
End data.
