(** C44 for the thread-safe API used by one thread. *)
From Verif Require Import Base BaseLemmas Api SliceItemsModel BinPartsModel DataModel RcModel Spec SliceItemsProof DataInv DataSteps DataFuns GuardInv ConcGuard ConcChild Observe
  Conserve ConserveTheory LeakTheory ArcModel ArcInv ArcRelInv ArcSpec ArcRefine ArcObserve ArcFacts ArcTheory ArcConserve ArcLeak TidySpec Tidy TidyTheory.
Local Open Scope nat_scope.

Section arcs.
  Context {V : Type} (sz : N).
  Notation dworld := (dworld V).
  Notation dg := (dworld * gdworld)%type.
  Implicit Types s : dg.
  Definition sle s s' : Prop := dle (fst s) (fst s').
  Lemma sle_refl s : sle s s.
  Proof. apply dle_refl. Qed.
  Lemma sle_trans s1 s2 s3 : sle s1 s2 -> sle s2 s3 -> sle s1 s3.
  Proof. apply dle_trans. Qed.
  Lemma arc_clone_sle s r s' r' : arc_clone s r = Ok (s', r') -> sle s s'.
  Proof. unfold arc_clone. intros (h & E & H)%bind_inv. apply bind_inv in H as (is & _ & [= <- <-]). apply dle_set. by eapply hkeep_inc. Qed.
  Lemma arc_drop_sle s r s' : arc_drop sz s r = Ok s' -> sle s s'.
  Proof. unfold arc_drop. intros (d & E & H)%bind_inv. apply bind_inv in H as (g & _ & [= <-]). by eapply data_release_dle. Qed.
  Lemma guard_of_sle fuel : forall s d s' g, guard_of sz fuel s d = Ok (s', g) -> sle s s'.
  Proof.
    induction fuel as [|fuel IH]; intros s d s' g E; [done|]. cbn [guard_of] in E. apply bind_inv in E as (n & _ & E).
    destruct (_ !! d) as [m|]; [|done]. destruct (_ !! am_box m) as [[wk|]|]; try done. destruct (rc_upgrade _ wk) as [gs [g0|]].
    { injection E as <- <-. apply dle_refl. }
    destruct (rc_upgrade (dw_datas (fst s)) _) as [hh [p|]] eqn:Eu.
    - apply bind_inv in E as ([s1 pg] & E1 & E). apply bind_inv in E1 as ([s2 pg'] & E1 & E2). apply IH in E1.
      apply bind_inv in E2 as (d1 & E2 & [= <- <-]). apply data_release_dle in E2. cbn [fst snd] in E.
      apply bind_inv in E as ([w1 g1] & _ & [= <- <-]). cbn in *.
      unfold sle in *. cbn [fst] in *. eapply dle_trans; [|exact E2]. eapply dle_trans; [|exact E1]. apply dle_set. by eapply hkeep_upgrade.
    - apply bind_inv in E as ([s1 pg] & [= <- <-] & E). apply bind_inv in E as ([w1 g1] & _ & [= <- <-]). apply dle_refl.
  Qed.
  Lemma arc_from_data_sle s d s' r : arc_from_data sz s d = Ok (s', r) -> sle s s'.
  Proof. unfold arc_from_data, guard_for. intros ([s1 g] & E & [= <- <-])%bind_inv. by eapply guard_of_sle. Qed.
  Lemma arc_from_boxed_sle s base vals s' r : arc_from_boxed_slice sz s base vals = Ok (s', r) -> sle s s'.
  Proof.
    unfold arc_from_boxed_slice. destruct (new_block _ _ _) as [[d p] len] eqn:En. destruct (data_from_boxed_slice d p len) as [d1 n] eqn:Ed.
    intros E%arc_from_data_sle. apply new_block_dle in En. apply data_from_boxed_dle in Ed. unfold sle in E. cbn in E.
    eapply dle_trans; [exact En|]. by eapply dle_trans.
  Qed.
  Lemma arc_mut_from_boxed_sle s base vals s' m : arc_mut_from_boxed_slice sz s base vals = (s', m) -> sle s s' /\ aok (si_len (ms_items m)) (ms_alloc m).
  Proof.
    unfold arc_mut_from_boxed_slice. destruct (new_block _ _ _) as [[d p] len] eqn:En. destruct (split_alloc_from_items sz d p len) as [[d1 it] al] eqn:Ea.
    intros [= <- <-]. apply new_block_dle in En. apply split_alloc_aok in Ea as [Ea Ha]. split; [by eapply dle_trans|done].
  Qed.
  Lemma adata_clone_left_sle s d s' c : adata_clone_left s d = Ok (s', c) -> sle s s'.
  Proof.
    unfold adata_clone_left, data_clone_left. intros (n & _ & E)%bind_inv. destruct (_ =? _)%N.
    - apply bind_inv in E as (h & E & [= <- <-]). apply dle_set. by eapply hkeep_inc.
    - apply bind_inv in E as ([d1 c1] & E & [= <- <-]). apply bind_inv in E as (n' & _ & E). destruct (left_sub n'). by eapply data_clone_child_dle.
  Qed.
  Lemma adata_clone_right_sle s d s' c : adata_clone_right sz s d = Ok (s', c) -> sle s s'.
  Proof.
    unfold adata_clone_right, data_clone_right. intros (n & _ & E)%bind_inv. destruct (_ <=? _)%N.
    - apply bind_inv in E as (h & E & [= <- <-]). apply dle_set. by eapply hkeep_inc.
    - apply bind_inv in E as ([d1 c1] & E & [= <- <-]). apply bind_inv in E as (n' & _ & E). destruct (right_sub sz n'). by eapply data_clone_child_dle.
  Qed.
  Lemma arc_clone_left_sle s r s' r' : arc_clone_left sz s r = Ok (s', r') -> sle s s'.
  Proof.
    unfold arc_clone_left. intros (x & _ & E)%bind_inv. apply bind_inv in E as ([s1 c] & E1 & E2).
    eapply sle_trans; [by eapply adata_clone_left_sle|by eapply arc_from_data_sle].
  Qed.
  Lemma arc_clone_right_sle s r s' r' : arc_clone_right sz s r = Ok (s', r') -> sle s s'.
  Proof.
    unfold arc_clone_right. intros (x & _ & E)%bind_inv. apply bind_inv in E as ([s1 c] & E1 & E2).
    eapply sle_trans; [by eapply adata_clone_right_sle|by eapply arc_from_data_sle].
  Qed.
  Lemma arc_split_left_sle s r s' x : arc_split_off_left sz s r = Ok (s', x) -> sle s s'.
  Proof.
    unfold arc_split_off_left. intros ([s1 l] & E1 & H)%bind_inv. apply bind_inv in H as ([s2 rt] & E2 & H). apply bind_inv in H as (s3 & E3 & [= <- <-]).
    eapply sle_trans; [by eapply arc_clone_left_sle|]. eapply sle_trans; [by eapply arc_clone_right_sle|]. by eapply arc_drop_sle.
  Qed.
  Lemma arc_split_right_sle s r s' x : arc_split_off_right sz s r = Ok (s', x) -> sle s s'.
  Proof.
    unfold arc_split_off_right. intros ([s1 l] & E1 & H)%bind_inv. apply bind_inv in H as ([s2 rt] & E2 & H). apply bind_inv in H as (s3 & E3 & [= <- <-]).
    eapply sle_trans; [by eapply arc_clone_left_sle|]. eapply sle_trans; [by eapply arc_clone_right_sle|]. by eapply arc_drop_sle.
  Qed.
  Lemma arc_drop_all_sle l : forall s s', arc_drop_all sz s l = Ok s' -> sle s s'.
  Proof.
    induction l as [|r l IH]; intros s s' E; cbn [arc_drop_all] in E; [injection E as <-; apply sle_refl|].
    apply bind_inv in E as (s1 & E1 & E). eapply sle_trans; [by eapply arc_drop_sle|by eapply IH].
  Qed.
  Lemma clone_all_sle l : forall s s' l', clone_all arc_clone s l = Ok (s', l') -> sle s s'.
  Proof.
    induction l as [|r l IH]; intros s s' l' E; cbn [clone_all] in E; [injection E as <- <-; apply sle_refl|].
    apply bind_inv in E as ([s1 r'] & E1 & E). apply bind_inv in E as ([s2 l2] & E2 & [= <- <-]).
    eapply sle_trans; [by eapply arc_clone_sle|by eapply IH].
  Qed.
  Lemma arc_into_mut_sle s r s' x : arc_into_mut sz s r = Ok (s', x) ->
    sle s s' /\ (tid (fst s) -> match x with inl m => aok (si_len (ms_items m)) (ms_alloc m) | Datatypes.inr _ => True end).
  Proof.
    unfold arc_into_mut. intros ([w1 ok] & _ & H)%bind_inv. destruct (negb ok); [injection H as <- <-; split; [apply dle_refl|done]|].
    destruct (_ =? _); [|apply bind_inv in H as (w2 & _ & [= <- <-]); split; [apply dle_refl|done]].
    apply bind_inv in H as ([h o] & E0 & H). pose proof (hkeep_unwrap _ _ _ _ E0) as Hk. destruct o as [n|].
    - apply bind_inv in H as ([d [it al]] & E1 & H). apply bind_inv in H as (g & _ & H). apply bind_inv in H as (g' & _ & [= <- <-]). apply data_into_mut_dle in E1 as (E1 & El & ->).
      split; [eapply dle_trans; [by apply dle_set|exact E1]|]. cbn [ms_items ms_alloc]. rewrite El. by eapply unwrap_aok.
    - apply bind_inv in H as (w2 & _ & [= <- <-]). split; [by apply dle_set|done].
  Qed.
  Lemma arc_mut_into_immut_sle s m s' r : arc_mut_into_immut sz s m = Ok (s', r) -> aok (si_len (ms_items m)) (ms_alloc m) -> sle s s'.
  Proof.
    unfold arc_mut_into_immut. destruct (data_new _ _ _ _) as [d n] eqn:E. intros E2%arc_from_data_sle Ha. eapply dle_trans; [by eapply data_new_dle|exact E2].
  Qed.
  Lemma aweak_upgrade_sle s d s' x : aweak_upgrade sz s d = Ok (s', x) -> sle s s'.
  Proof.
    unfold aweak_upgrade. destruct (rc_upgrade _ _) as [h [i|]] eqn:E; [|intros [= <- <-]; apply sle_refl].
    intros ([gw j] & E2 & [= <- <-])%bind_inv. apply arc_from_data_sle in E2. eapply dle_trans; [|exact E2]. apply dle_set. by eapply hkeep_upgrade.
  Qed.
  Section loops.
    Context (growf : N -> N) (dbg : bool).
    Lemma loop_front_sle fuel : forall n s q it s' q' it',
      bpi_loop_front (arc_split_off_left sz) growf fuel n s q it = Ok (s', q', it') -> sle s s'.
    Proof.
      induction fuel as [|fuel IH]; intros n s q it s' q' it' E; [done|]; cbn [bpi_loop_front bpi_loop_back] in E. destruct (_ =? _)%N; [|injection E as <- <- <-; apply sle_refl].
      destruct (dq_items _) as [|x l]; [by eapply IH|]. apply bind_inv in E as ([s1 [x1 y1]] & E1 & E).
      eapply sle_trans; [by eapply arc_split_left_sle|by eapply IH].
    Qed.
    Lemma loop_back_sle fuel : forall n s q it s' q' it',
      bpi_loop_back (arc_split_off_right sz) growf fuel n s q it = Ok (s', q', it') -> sle s s'.
    Proof.
      induction fuel as [|fuel IH]; intros n s q it s' q' it' E; [done|]; cbn [bpi_loop_front bpi_loop_back] in E. destruct (_ =? _)%N; [|injection E as <- <- <-; apply sle_refl].
      destruct (last (dq_items _)) as [x|]; [|by eapply IH]. apply bind_inv in E as ([s1 [x1 y1]] & E1 & E).
      eapply sle_trans; [by eapply arc_split_right_sle|by eapply IH].
    Qed.
    Lemma parts_next_sle (back : bool) s it s' it' o :
      (if back then arc_parts_next_back sz growf dbg s it else arc_parts_next sz growf dbg s it) = Ok (s', it', o) -> sle s s'.
    Proof.
      destruct back; unfold arc_parts_next, arc_parts_next_back, bpi_next, bpi_next_back; intros E;
      apply bind_inv in E as (l & _ & E);
      (destruct (0 =? l)%N; [injection E as <- <- <-; apply sle_refl|]);
      (destruct (dbg && _); [done|]);
      apply bind_inv in E as (m & _ & E);
      (destruct (dbg && _); [done|]);
      apply bind_inv in E as (n & _ & E);
      apply bind_inv in E as (n' & _ & E);
      apply bind_inv in E as ([[s1 q1] i1] & E1 & E);
      [apply loop_back_sle in E1|apply loop_front_sle in E1];
      (destruct (dbg && _); [done|]);
      apply bind_inv in E as (f & _ & E);
      (destruct i1; [|destruct (dq_pop_back q1), (dq_pop_front q1)]); injection E as <- <- <-; done.
    Qed.
  End loops.
  Lemma xhandle_drop_sle s x s' : xhandle_drop sz s x = Ok s' -> sle s s'.
  Proof.
    destruct x as [r|d g|it|m|m|m]; cbn [xhandle_drop].
    - apply arc_drop_sle.
    - unfold aweak_drop. intros (gw & _ & [= <-])%bind_inv. apply dle_refl.
    - apply arc_drop_all_sle.
    - intros (d & E & [= <-])%bind_inv. by eapply items_alloc_drop_dle.
    - intros (d & E & [= <-])%bind_inv. unfold iter_drop in E. apply bind_inv in E as ([p l] & _ & E). by eapply items_alloc_drop_dle.
    - intros (d & E & [= <-])%bind_inv. unfold mparts_drop in E. apply bind_inv in E as ([p l] & _ & E). by eapply items_alloc_drop_dle.
  Qed.
  Lemma xret_slice_dle s hs p len w' r : xret_slice sz s hs p len = Ok (w', r) -> aw_d w' = fst s /\ aw_h w' = hs.
  Proof. unfold xret_slice. intros (v & _ & [= <- <-])%bind_inv. done. Qed.
  Lemma xret_replace_dle s hs p len i v w' r : xret_replace sz s hs p len i v = Ok (w', r) -> dle (fst s) (aw_d w') /\ aw_h w' = hs.
  Proof.
    unfold xret_replace. destruct (_ <? _)%N; [|intros [= <- <-]; split; [apply dle_refl|done]].
    intros ([d old] & E & [= <- <-])%bind_inv. split; [|done]. by eapply mem_replace_dle.
  Qed.
End arcs.

Section theory.
  Context {V : Type} (cf : cfg V).
  Notation sz := (c_sz cf).
  Notation rel := (ArcRefine.rel (c_sz cf)).
  Implicit Types (w : aworld V) (o : op V) (h : nat) (ops : list (op V)).

  Definition htidy (x : xhandle) : Prop :=
    match x with
    | XMut m => aok (si_len (ms_items m)) (ms_alloc m)
    | XIter m => forall l, sit_len sz (mi_iter m) = Ok l -> aok l (mi_alloc m)
    | XMParts m => paok sz m
    | _ => True
    end.
  Definition tidyh (hs : list (option xhandle)) : Prop := forall h x, hs !! h = Some (Some x) -> htidy x.
  Definition tidy w : Prop := tid (aw_d w) /\ tidyh (aw_h w).
  Definition hgeo (x : xhandle) : Prop :=
    match x with
    | XMut m => exists base r, items_rel sz base r (ms_items m) /\ (rg_len r < usize_lim)%N
    | XIter m => exists base r, iter_rel sz base r (mi_iter m)
    | XMParts m => exists base r k f b, sip_rel sz base r k f b (mp_iter m)
    | _ => True
    end.
  Lemma rel_geo w sk h x : rel w sk -> xget w h = Some x -> hgeo x.
  Proof.
    intros Hr Hx. pose proof (xrel_kind _ _ _ (rel_pi _ _ _ Hr) h) as Hk. rewrite Hx in Hk. destruct (a_get (fst sk) h) as [y|] eqn:Hy; [|done].
    destruct (xone_pair _ _ _ (rel_pi _ _ _ Hr) _ _ Hy) as (LI & p & X & <- & Hc & (L & D & G & F)). rewrite Hx in Hc. injection Hc as ->.
    apply Forall_cons in F as [F _]. unfold xrel in F. cbn [fst snd] in *.
    assert (forall e, e ∈ xp_o p -> rng_ok (bshape (aw_d w)) (fst e)) as Ho.
    { intros e He. apply (di_oalloc _ _ _ _ _ _ D). unfold YO. rewrite bind_cons. apply elem_of_app. by left. }
    unfold hgeo. destruct (xp_c p), (xp_a p); try done.
    - destruct F as (E & _ & F). rewrite E in Ho. specialize (Ho _ (elem_of_list_here _ _)). cbn in Ho. destruct (RelMut.rng_ok_lim _ _ Ho) as [Hl _]. eauto.
    - destruct F as (E & _ & F). eauto.
    - destruct F as (r & k & f & b & _ & _ & F & _). eauto 10.
  Qed.

  Lemma tidyh_new hs x : tidyh hs -> htidy x -> tidyh (hs ++ [Some x]).
  Proof.
    intros H Hx h y Hy. apply lookup_app_Some in Hy as [Hy|[_ Hy]]; [by eapply H|]. by apply list_lookup_singleton_Some in Hy as [_ [= <-]].
  Qed.
  Lemma tidyh_set hs h x : tidyh hs -> htidy x -> tidyh (<[h := Some x]> hs).
  Proof.
    intros H Hx i y Hy. apply list_lookup_insert_Some in Hy as [(<- & [= <-] & _)|(_ & Hy)]; [done|by eapply H].
  Qed.
  Lemma tidyh_del hs h : tidyh hs -> tidyh (<[h := None]> hs).
  Proof. intros H i y Hy. apply list_lookup_insert_Some in Hy as [(<- & [=] & _)|(_ & Hy)]. by eapply H. Qed.
  Lemma tidyh_get w h x : tidyh (aw_h w) -> xget w h = Some x -> htidy x.
  Proof. intros H. unfold xget. destruct (aw_h w !! h) as [[y|]|] eqn:E; try done. intros [= ->]. by eapply H. Qed.

  Ltac same H Hh E := injection E as <- <-; split; [exact H|exact Hh].
  Lemma step_tidy w sk o w' r : rel w sk -> ~ xstrips cf w o -> xstep cf w o = Ok (w', r) -> tidy w -> tidy w'.
  Proof.
    intros R Hnw E [H Hh]. unfold xstep in E.
    assert (forall h x, xget w h = Some x -> htidy x) as Ht by (intros; by eapply tidyh_get).
    assert (forall h x, xget w h = Some x -> hgeo x) as Hge by (intros; by eapply rel_geo).
    destruct o; cbn [astep] in E.
    - destruct (_ <? _)%N; [|same H Hh E]. apply bind_inv in E as ([s r'] & E1 & [= <- <-]). apply arc_from_boxed_sle in E1.
      split; [by apply E1|by apply tidyh_new].
    - destruct (_ <? _)%N; [|same H Hh E]. destruct (arc_mut_from_boxed_slice _ _ _ _) as [s' m] eqn:Em. injection E as <- <-.
      apply arc_mut_from_boxed_sle in Em as [E1 Ha]. split; [by apply E1|by apply tidyh_new].
    - injection E as <- <-. split; [done|by apply tidyh_new].
    - destruct (xget w _) as [[rr|dd g|it|m|m|m]|]; try (same H Hh E).
      + apply bind_inv in E as ([s r'] & E1 & [= <- <-]). apply arc_clone_sle in E1. split; [by apply E1|by apply tidyh_new].
      + apply bind_inv in E as (s & E1 & [= <- <-]). unfold aweak_clone in E1. apply bind_inv in E1 as (gs & _ & [= <-]). split; [done|by apply tidyh_new].
      + apply bind_inv in E as ([s r'] & E1 & [= <- <-]). unfold bpi_clone in E1. apply bind_inv in E1 as ([s1 l1] & E1 & [= <- <-]).
        apply clone_all_sle in E1. split; [by apply E1|by apply tidyh_new].
    - destruct (xget w h) as [[rr|dd g|it|m|m|m]|] eqn:Eg; try (same H Hh E).
      apply bind_inv in E as ([s r'] & E1 & [= <- <-]). unfold arc_mut_clone in E1. apply bind_inv in E1 as (vs & _ & [= E1]).
      apply arc_mut_from_boxed_sle in E1 as [E1 Ha]. split; [by apply E1|by apply tidyh_new].
    - destruct (xget w _) as [[rr|dd g|it|m|m|m]|]; try (same H Hh E).
      apply bind_inv in E as ([s r'] & E1 & [= <- <-]). assert (sle (aw_d w, aw_g w) s) as Hs by (destruct side; [by eapply arc_clone_right_sle|by eapply arc_clone_left_sle]).
      split; [by apply Hs|by apply tidyh_new].
    - destruct (xget w _) as [[rr|dd g|it|m|m|m]|] eqn:Eg; try (same H Hh E).
      + apply bind_inv in E as ([s [r1 r2]] & E1 & [= <- <-]). assert (sle (aw_d w, aw_g w) s) as Hs by (destruct side; [by eapply arc_split_right_sle|by eapply arc_split_left_sle]).
        split; [by apply Hs|]. apply tidyh_new; [by apply tidyh_set|done].
      + apply bind_inv in E as ([d [m1 m2]] & E1 & [= <- <-]). apply mut_split_off_dle in E1 as (E1 & H1 & H2); [| |by apply (Ht _ _ Eg)].
        * split; [by apply E1|]. apply tidyh_new; [by apply tidyh_set|done].
        * intros [-> Hl]. apply Hnw. eexists _, _. split; [done|]. split; [exact Eg|]. unfold x_cells, x_slice. rewrite Eg, rng_cells_length. cbn. by rewrite Hl.
    - destruct (negb (n <? usize_lim)%N) eqn:En; [same H Hh E|].
      destruct (xget w _) as [[rr|dd g|it|m|m|m]|] eqn:Eg; try (same H Hh E).
      + destruct (bpi_new _ _ _ _) as [it| | |]; try done.
        * injection E as <- <-. split; [done|]. apply tidyh_new; [by apply tidyh_del|done].
        * apply bind_inv in E as (s & E1 & [= <- <-]). apply arc_drop_sle in E1. split; [by apply E1|by apply tidyh_del].
      + destruct (mut_split_into_parts _ _) as [it| | |] eqn:Ep; try done.
        * injection E as <- <-. split; [done|]. apply tidyh_new; [by apply tidyh_del|]. destruct (Hge _ _ Eg) as (base & rg & Hr & Hl).
          apply negb_false_iff, N.ltb_lt in En. exact (mut_split_into_parts_aok _ _ _ _ _ _ Hr Hl En Ep (Ht _ _ Eg)).
        * apply bind_inv in E as (d & E1 & [= <- <-]). apply items_alloc_drop_dle in E1. split; [by apply E1|by apply tidyh_del].
    - destruct (xget w _) as [[rr|dd g|it|m|m|m]|]; try (same H Hh E). apply bind_inv in E as ([s o] & Em & E).
      apply arc_get_mut_fst in Em. cbn in Em. destruct o as [[p len]|]; [|injection E as <- <-; split; [cbn; by rewrite <- Em|done]].
      apply xret_slice_dle in E as [E1 E2]. split; [by rewrite E1, <- Em|by rewrite E2].
    - destruct (xget w _) as [[rr|dd g|it|m|m|m]|]; try (same H Hh E). apply bind_inv in E as ([s o] & Em & E).
      apply arc_get_mut_fst in Em. cbn in Em. destruct o as [[p len]|]; [|injection E as <- <-; split; [cbn; by rewrite <- Em|done]].
      apply xret_replace_dle in E as [E1 E2]. rewrite <- Em in E1. split; [by apply E1|by rewrite E2].
    - destruct (xget w _) as [[rr|dd g|it|m|m|m]|]; try (same H Hh E). apply bind_inv in E as ([s x] & E1 & E).
      apply arc_into_mut_sle in E1 as [E1 E2]. specialize (E2 H). destruct x as [m|r0]; injection E as <- <-; (split; [by apply E1|]).
      + apply tidyh_new; [by apply tidyh_del|done].
      + by apply tidyh_set.
    - destruct (xget w _) as [[rr|dd g|it|m|m|m]|] eqn:Eg; try (same H Hh E). apply bind_inv in E as ([s x] & E1 & [= <- <-]).
      apply arc_mut_into_immut_sle in E1; [|by apply (Ht _ _ Eg)]. split; [by apply E1|]. apply tidyh_new; [by apply tidyh_del|done].
    - destruct (xget w _) as [[rr|dd g|it|m|m|m]|] eqn:Eg; try (same H Hh E). apply bind_inv in E as ([s [d g]] & E1 & [= <- <-]).
      unfold arc_downgrade in E1. apply bind_inv in E1 as (? & _ & E1). apply bind_inv in E1 as (? & _ & E1). apply bind_inv in E1 as (? & _ & [= <- <- <-]).
      split; [done|by apply tidyh_new].
    - destruct (xget w _) as [[rr|dd g|it|m|m|m]|] eqn:Eg; try (same H Hh E). apply bind_inv in E as ([s x] & E1 & E).
      apply aweak_upgrade_sle in E1. destruct x; injection E as <- <-; (split; [by apply E1|]); [by apply tidyh_new|done].
    - destruct (xget w _) as [x|]; [|same H Hh E]. apply bind_inv in E as (s & E1 & [= <- <-]). apply xhandle_drop_sle in E1. split; [by apply E1|by apply tidyh_del].
    - destruct (xget w _) as [[rr|dd g|it|m|m|m]|]; try (same H Hh E); try (apply bind_inv in E as ([p len] & _ & E));
        (apply xret_slice_dle in E as [E1 E2]; cbn in E1; split; [by rewrite E1|by rewrite E2]).
    - destruct (xget w _) as [[rr|dd g|it|m|m|m]|]; try (same H Hh E); try (apply bind_inv in E as ([p len] & _ & E));
        (apply xret_replace_dle in E as [E1 E2]; split; [by apply E1|by rewrite E2]).
    - destruct (xget w _) as [[rr|dd g|it|m|m|m]|] eqn:Eg; try (same H Hh E). injection E as <- <-. split; [done|]. apply tidyh_new; [by apply tidyh_del|].
      destruct (Hge _ _ Eg) as (base & rg & Hr & Hl). exact (mut_into_iter_aok _ _ _ _ Hr Hl (Ht _ _ Eg)).
    - destruct (xget w _) as [[rr|dd g|it|m|m|m]|] eqn:Eg; try (same H Hh E).
      + apply bind_inv in E as ([[s it'] x] & E1 & E). apply parts_next_sle in E1. destruct x; injection E as <- <-; (split; [by apply E1|]); [apply tidyh_new; [|done]|]; by apply tidyh_set.
      + apply bind_inv in E as ([[d m'] x] & E1 & [= <- <-]). apply iter_next_dle in E1 as [E1 E2]. split; [by apply E1|]. by apply tidyh_set.
      + apply bind_inv in E as ([[d m'] x] & E1 & E). destruct (Hge _ _ Eg) as (base & rg & k & f & b & Hr).
        apply (mparts_next_dle _ _ _ _ _ _ _ _ _ _ _ _ E1) in Hr as (E2 & E3 & E4); [|by apply (Ht _ _ Eg)].
        destruct x; injection E as <- <-; (split; [by apply E2|]); [apply tidyh_new; [|done]|]; by apply tidyh_set.
    - destruct (xget w _) as [[rr|dd g|it|m|m|m]|] eqn:Eg; try (same H Hh E).
      destruct (iter_split_off _ _ _ _ _) as [[d [m1 m2]]| | |] eqn:Ex; try done; [|same H Hh E]. injection E as <- <-.
      destruct (Hge _ _ Eg) as (base & rg & Hr). apply (iter_split_off_dle _ _ _ _ _ _ _ _ _ _ Ex) in Hr as (E1 & E2 & E3); [|by apply (Ht _ _ Eg)].
      split; [by apply E1|]. apply tidyh_new; [by apply tidyh_set|done].
    - destruct (xget w _) as [[rr|dd g|it|m|m|m]|] eqn:Eg; try (same H Hh E); apply bind_inv in E as (l & _ & E); same H Hh E.
  Qed.

  Lemma rel_tidyO w sk : rel w sk -> tidy w -> exists X L, dinv sz (aw_d w) (as_trees (fst sk)) L (ar_data <$> YS X) (YO X) /\
    forall e, e ∈ YO X -> aok (rg_len (fst e)) (snd e).
  Proof.
    intros Hr [_ Hh]. destruct (arc_rel_pairs cf _ _ Hr) as (X & LI & (L & D & G & F) & HX). exists X, L. split; [done|].
    intros e (p & He & Hp)%elem_of_list_bind. destruct (HX p Hp) as [h Hg]. pose proof (tidyh_get _ _ _ Hh Hg) as Ht.
    rewrite Forall_forall in F. specialize (F p Hp). unfold xrel in F. unfold htidy in Ht. destruct (xp_c p), (xp_a p); try done.
    - destruct F as [E _]. rewrite E in He. by apply elem_of_nil in He.
    - destruct F as [E _]. rewrite E in He. by apply elem_of_nil in He.
    - destruct F as [E _]. rewrite E in He. by apply elem_of_nil in He.
    - destruct F as (E & _ & [_ F]). rewrite E in He. apply elem_of_list_singleton in He as ->. cbn. by rewrite <- F.
    - destruct F as (E & _ & F). rewrite E in He. apply elem_of_list_singleton in He as ->. cbn. apply Ht. by eapply sit_len_rel.
    - destruct F as (r & k & f & b & E & _ & F & _). rewrite E in He. apply elem_of_list_singleton in He as ->. cbn [fst snd].
      destruct (sip_as_slice_rel sz _ _ _ _ _ _ F) as (q & Hq & _). by apply (Ht q).
  Qed.
  Lemma xreach_tidy ops : forall w, xreach cf ops w -> x_no_strip cf ops -> tidy w.
  Proof.
    induction ops as [|o ops IH] using rev_ind; intros w [outs E] Hn.
    - injection E as <- <-. split; [intros i n Hi|intros h x Hx]; done.
    - rewrite xrun_app in E. destruct (xrun cf empty_aworld ops) as [[w1 rs]| | |] eqn:E1; cbn in E; try done.
      rewrite xrun_1 in E. destruct (xstep cf w1 o) as [[w2 r]| | |] eqn:E2; cbn in E; try done. injection E as <- <-.
      assert (xreach cf ops w1) as R1 by (by eexists). eapply step_tidy; [by eapply xreach_rel| |exact E2|].
      + by eapply (Hn ops o []).
      + apply IH; [done|]. intros ops1 o' ops2 w' ->. apply (Hn ops1 o' (ops2 ++ [o])). by rewrite <- app_assoc.
  Qed.
  (** C44 *)
  Lemma arc_freed_iff ops w b blk : xreach cf ops w -> x_no_strip cf ops -> sz <> 0%N -> dw_blocks (aw_d w) !! b = Some blk -> b_len blk <> 0%N ->
    b ∈ xfreed w <-> forall h c, c ∈ x_cells cf w h -> fst c <> b.
  Proof.
    intros R Hn Hsz Hb Hl. split; [intros Hf h c Hc <-; by eapply arc_not_freed_early|]. intros Hno. destruct (b_freed blk) eqn:Ef.
    { destruct R as [outs E]. destruct (arc_conserved cf ops w outs E) as (_ & _ & Hf & _). apply Hf. exists blk. done. }
    exfalso. pose proof (xreach_tidy _ _ R Hn) as Ht. destruct (rel_tidyO _ _ (xreach_rel _ _ _ R) Ht) as (X & L & D & HO).
    destruct (tidy_covered _ _ _ _ _ _ _ _ D (proj1 Ht) HO Hsz Hb Ef Hl) as (c & Hc & Hs).
    apply (arc_alive_iff cf _ _ c R) in Hs as [h Hh]. by eapply Hno.
  Qed.
End theory.
