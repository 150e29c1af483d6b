(** C44: a buffer is freed as soon as no value covers any of it. *)
From Verif Require Import Base BaseLemmas Api SliceItemsModel BinPartsModel DataModel RcModel Spec SliceItemsProof DataInv DataSteps DataFuns GuardInv ConcGuard ConcChild
  RelInv RelMut RelParts Refine Observe Facts SpecTheory Frame Views RcTheory ShareTheory Conserve ConserveTheory IterTheory LeakTheory ArcModel TidySpec Tidy.
Local Open Scope nat_scope.

(** A buffer that is not freed is covered by a node held from outside or by an owned range. *)
Lemma tidy_covered {V} (sz : N) (d : dworld V) T L R O b blk : dinv sz d T L R O -> tid d -> (forall e, e ∈ O -> aok (rg_len (fst e)) (snd e)) ->
  sz <> 0%N -> dw_blocks d !! b = Some blk -> b_freed blk = false -> b_len blk <> 0%N -> exists c, fst c = b /\ is_Some (dw_mem d !! c).
Proof.
  intros D Ht HO Hsz Hb Hf Hl. destruct (di_freed _ _ _ _ _ _ D Hsz b blk Hb Hf Hl) as (a & s & v & Ha & Hv).
  pose proof (di_acnt _ _ _ _ _ _ D a) as E. rewrite (rc_count_live _ _ _ _ Ha) in E.
  assert (s <> 0) by (intros ->; by eapply (di_apos _ _ _ _ _ _ D)).
  assert (exists r o, ent_ok sz d r o /\ o = Some a /\ rg_len r <> 0%N /\ forall c, in_rng c r = true -> is_Some (dw_mem d !! c)) as (r & o & [Hr He] & -> & Hne & Hc).
  - destruct (decide (0 < cnt a (alloc_refs O))) as [Hp|Hp].
    + apply cnt_pos in Hp. unfold alloc_refs in Hp. apply elem_of_list_bind in Hp as (e & Hae & He). destruct (snd e) as [a'|] eqn:Es; [|by apply elem_of_nil in Hae].
      apply elem_of_list_singleton in Hae as ->. exists (fst e), (Some a'). split_and!; [rewrite <- Es; by apply (di_oalloc _ _ _ _ _ _ D)|done|..].
      * intros H0. apply (HO _ He) in H0. congruence.
      * intros c Hc. apply (dinv_covered _ _ _ _ _ _ D). right. eauto.
    + destruct (hsum_pos (fun n => cnt a (option_list (d_alloc n))) (dw_datas d)) as (j & s' & n & Hj & Hc); [lia|].
      apply cnt_pos in Hc. destruct (d_alloc n) as [a'|] eqn:Es; [|by apply elem_of_nil in Hc]. apply elem_of_list_singleton in Hc as ->.
      exists (nrng n), (Some a'). split_and!; [rewrite <- Es; by eapply (di_nalloc _ _ _ _ _ _ D)|done|..].
      * intros H0. apply rc_get_live in Hj. apply (Ht _ _ Hj) in H0. congruence.
      * intros c Hc. destruct (dinv_live_label _ _ _ _ _ _ D _ _ _ Hj) as [l Hlj].
        destruct (dinv_live_root _ _ _ _ _ _ D _ _ _ _ Hj Hlj) as (x & lx & Hx & Hlx & Hax).
        apply (dinv_covered _ _ _ _ _ _ D). left. exists x, lx. split_and!; try done. eapply in_rng_anc; [done|].
        destruct (di_geo _ _ _ _ _ _ D _ _ _ _ Hj Hlj) as [<- _]. done.
  - destruct (He Hsz Hne) as (a' & s' & v' & [= <-] & Ha' & Hv'). unfold live in Ha, Ha'. rewrite Ha in Ha'. injection Ha' as <- <-.
    exists (rg_blk r, rg_lo r). split; [cbn; congruence|]. apply Hc. unfold in_rng. cbn. rewrite Nat.eqb_refl. cbn.
    apply andb_true_intro. split; [by apply N.leb_le|]. apply N.ltb_lt. lia.
Qed.

Section rcs.
  Context {V : Type} (sz : N).
  Notation dworld := (dworld V).
  Notation dg := (dworld * gworld)%type.
  Implicit Types s : dg.
  Definition sle s s' : Prop := dle (fst s) (fst s').
  Lemma sle_refl s : sle s s.
  Proof. apply dle_refl. Qed.
  Lemma sle_trans s1 s2 s3 : sle s1 s2 -> sle s2 s3 -> sle s1 s3.
  Proof. apply dle_trans. Qed.
  Lemma rcs_from_boxed_sle s base vals s' r : rcs_from_boxed_slice s base vals = Ok (s', r) -> sle s s'.
  Proof.
    unfold rcs_from_boxed_slice. destruct (new_block _ _ _) as [[d p] len] eqn:En. destruct (data_from_boxed_slice d p len) as [d1 n] eqn:Ed.
    intros ([g i] & _ & [= <- <-])%bind_inv. apply new_block_dle in En. apply data_from_boxed_dle in Ed. by eapply dle_trans.
  Qed.
  Lemma mut_from_boxed_sle s base vals s' m : mut_from_boxed_slice sz s base vals = (s', m) -> sle s s' /\ aok (si_len (ms_items m)) (ms_alloc m).
  Proof.
    unfold mut_from_boxed_slice. destruct (new_block _ _ _) as [[d p] len] eqn:En. destruct (split_alloc_from_items sz d p len) as [[d1 it] al] eqn:Ea.
    intros [= <- <-]. apply new_block_dle in En. apply split_alloc_aok in Ea as [Ea Ha]. split; [by eapply dle_trans|done].
  Qed.
  Lemma rcs_clone_sle s r s' r' : rcs_clone s r = Ok (s', r') -> sle s s'.
  Proof. unfold rcs_clone. intros (h & E & H)%bind_inv. apply bind_inv in H as (is & _ & [= <- <-]). apply dle_set. by eapply hkeep_inc. Qed.
  Lemma rcs_drop_sle s r s' : rcs_drop sz s r = Ok s' -> sle s s'.
  Proof. unfold rcs_drop. intros (d & E & H)%bind_inv. apply bind_inv in H as (g & _ & [= <-]). by eapply data_release_dle. Qed.
  Lemma rcs_clone_left_sle s r s' r' : rcs_clone_left s r = Ok (s', r') -> sle s s'.
  Proof.
    unfold rcs_clone_left, data_clone_left. intros (n & E0 & H)%bind_inv. destruct (_ =? _)%N; [by eapply rcs_clone_sle|].
    apply bind_inv in H as ([d c] & E & H). apply bind_inv in E as (n' & _ & E). destruct (left_sub n').
    apply bind_inv in H as ([g i] & _ & [= <- <-]). by eapply data_clone_child_dle.
  Qed.
  Lemma rcs_clone_right_sle s r s' r' : rcs_clone_right sz s r = Ok (s', r') -> sle s s'.
  Proof.
    unfold rcs_clone_right, data_clone_right. intros (n & E0 & H)%bind_inv. destruct (_ <=? _)%N; [by eapply rcs_clone_sle|].
    apply bind_inv in H as ([d c] & E & H). apply bind_inv in E as (n' & _ & E). destruct (right_sub sz n').
    apply bind_inv in H as ([g i] & _ & [= <- <-]). by eapply data_clone_child_dle.
  Qed.
  Lemma rcs_split_left_sle s r s' x : rcs_split_off_left sz s r = Ok (s', x) -> sle s s'.
  Proof.
    unfold rcs_split_off_left. intros ([s1 l] & E1 & H)%bind_inv. apply bind_inv in H as ([s2 rt] & E2 & H). apply bind_inv in H as (s3 & E3 & [= <- <-]).
    eapply sle_trans; [by eapply rcs_clone_left_sle|]. eapply sle_trans; [by eapply rcs_clone_right_sle|]. by eapply rcs_drop_sle.
  Qed.
  Lemma rcs_split_right_sle s r s' x : rcs_split_off_right sz s r = Ok (s', x) -> sle s s'.
  Proof.
    unfold rcs_split_off_right. intros ([s1 l] & E1 & H)%bind_inv. apply bind_inv in H as ([s2 rt] & E2 & H). apply bind_inv in H as (s3 & E3 & [= <- <-]).
    eapply sle_trans; [by eapply rcs_clone_left_sle|]. eapply sle_trans; [by eapply rcs_clone_right_sle|]. by eapply rcs_drop_sle.
  Qed.
  Lemma rcs_drop_all_sle l : forall s s', rcs_drop_all sz s l = Ok s' -> sle s s'.
  Proof.
    induction l as [|r l IH]; intros s s' E; cbn [rcs_drop_all] in E; [injection E as <-; apply sle_refl|].
    apply bind_inv in E as (s1 & E1 & E). eapply sle_trans; [by eapply rcs_drop_sle|by eapply IH].
  Qed.
  Lemma clone_all_sle l : forall s s' l', clone_all rcs_clone s l = Ok (s', l') -> sle s s'.
  Proof.
    induction l as [|r l IH]; intros s s' l' E; cbn [clone_all] in E; [injection E as <- <-; apply sle_refl|].
    apply bind_inv in E as ([s1 r'] & E1 & E). apply bind_inv in E as ([s2 l2] & E2 & [= <- <-]).
    eapply sle_trans; [by eapply rcs_clone_sle|by eapply IH].
  Qed.
  Lemma rcs_into_mut_sle s r s' x : rcs_into_mut sz s r = Ok (s', x) ->
    sle s s' /\ (tid (fst s) -> match x with inl m => aok (si_len (ms_items m)) (ms_alloc m) | Datatypes.inr _ => True end).
  Proof.
    unfold rcs_into_mut. destruct (_ =? _); [|intros [= <- <-]; split; [apply sle_refl|done]].
    intros ([h o] & E0 & H)%bind_inv. pose proof (hkeep_unwrap _ _ _ _ E0) as Hk. destruct o as [n|]; [|injection H as <- <-; split; [by apply dle_set|done]].
    apply bind_inv in H as ([d [it al]] & E1 & H). apply bind_inv in H as (g & _ & [= <- <-]). apply data_into_mut_dle in E1 as (E1 & El & ->).
    split; [eapply dle_trans; [by apply dle_set|exact E1]|]. cbn [ms_items ms_alloc]. rewrite El. by eapply unwrap_aok.
  Qed.
  Lemma mut_into_immut_sle s m s' r : mut_into_immut s m = Ok (s', r) -> aok (si_len (ms_items m)) (ms_alloc m) -> sle s s'.
  Proof.
    unfold mut_into_immut. destruct (data_new _ _ _ _) as [d n] eqn:E. intros ([g i] & _ & [= <- <-])%bind_inv Ha. by eapply data_new_dle.
  Qed.
  Lemma weak_upgrade_sle s d g s' x : weak_upgrade s d g = Ok (s', x) -> sle s s'.
  Proof.
    unfold weak_upgrade. destruct (rc_upgrade _ _) as [h [i|]] eqn:E; [|intros [= <- <-]; apply sle_refl].
    intros ([gw j] & _ & [= <- <-])%bind_inv. apply dle_set. by eapply hkeep_upgrade.
  Qed.
  Section loops.
    Context (growf : N -> N) (dbg : bool).
    Lemma loop_front_sle fuel : forall n s q it s' q' it',
      bpi_loop_front (rcs_split_off_left sz) growf fuel n s q it = Ok (s', q', it') -> sle s s'.
    Proof.
      induction fuel as [|fuel IH]; intros n s q it s' q' it' E; [done|]; cbn [bpi_loop_front bpi_loop_back] in E. destruct (_ =? _)%N; [|injection E as <- <- <-; apply sle_refl].
      destruct (dq_items _) as [|x l]; [by eapply IH|]. apply bind_inv in E as ([s1 [x1 y1]] & E1 & E).
      eapply sle_trans; [by eapply rcs_split_left_sle|by eapply IH].
    Qed.
    Lemma loop_back_sle fuel : forall n s q it s' q' it',
      bpi_loop_back (rcs_split_off_right sz) growf fuel n s q it = Ok (s', q', it') -> sle s s'.
    Proof.
      induction fuel as [|fuel IH]; intros n s q it s' q' it' E; [done|]; cbn [bpi_loop_front bpi_loop_back] in E. destruct (_ =? _)%N; [|injection E as <- <- <-; apply sle_refl].
      destruct (last (dq_items _)) as [x|]; [|by eapply IH]. apply bind_inv in E as ([s1 [x1 y1]] & E1 & E).
      eapply sle_trans; [by eapply rcs_split_right_sle|by eapply IH].
    Qed.
    Lemma parts_next_sle (back : bool) s it s' it' o :
      (if back then parts_next_back sz growf dbg s it else parts_next sz growf dbg s it) = Ok (s', it', o) -> sle s s'.
    Proof.
      destruct back; unfold parts_next, parts_next_back, bpi_next, bpi_next_back; intros E;
      apply bind_inv in E as (l & _ & E);
      (destruct (0 =? l)%N; [injection E as <- <- <-; apply sle_refl|]);
      (destruct (dbg && _); [done|]);
      apply bind_inv in E as (m & _ & E);
      (destruct (dbg && _); [done|]);
      apply bind_inv in E as (n & _ & E);
      apply bind_inv in E as (n' & _ & E);
      apply bind_inv in E as ([[s1 q1] i1] & E1 & E);
      [apply loop_back_sle in E1|apply loop_front_sle in E1];
      (destruct (dbg && _); [done|]);
      apply bind_inv in E as (f & _ & E);
      (destruct i1; [|destruct (dq_pop_back q1), (dq_pop_front q1)]); injection E as <- <- <-; done.
    Qed.
  End loops.
  Lemma handle_drop_sle s x s' : handle_drop sz s x = Ok s' -> sle s s'.
  Proof.
    destruct x as [r|d g|it|m|m|m]; cbn [handle_drop].
    - apply rcs_drop_sle.
    - unfold weak_drop. intros (gw & _ & [= <-])%bind_inv. apply dle_refl.
    - apply rcs_drop_all_sle.
    - intros (d & E & [= <-])%bind_inv. by eapply items_alloc_drop_dle.
    - intros (d & E & [= <-])%bind_inv. unfold iter_drop in E. apply bind_inv in E as ([p l] & _ & E). by eapply items_alloc_drop_dle.
    - intros (d & E & [= <-])%bind_inv. unfold mparts_drop in E. apply bind_inv in E as ([p l] & _ & E). by eapply items_alloc_drop_dle.
  Qed.
  Lemma ret_slice_dle s hs p len w' r : ret_slice sz s hs p len = Ok (w', r) -> w_d w' = fst s /\ w_h w' = hs.
  Proof. unfold ret_slice. intros (v & _ & [= <- <-])%bind_inv. done. Qed.
  Lemma ret_replace_dle s hs p len i v w' r : ret_replace sz s hs p len i v = Ok (w', r) -> dle (fst s) (w_d w') /\ w_h w' = hs.
  Proof.
    unfold ret_replace. destruct (_ <? _)%N; [|intros [= <- <-]; split; [apply dle_refl|done]].
    intros ([d old] & E & [= <- <-])%bind_inv. split; [|done]. by eapply mem_replace_dle.
  Qed.
End rcs.

Section theory.
  Context {V : Type} (cf : cfg V).
  Notation sz := (c_sz cf).
  Notation rel := (rel (c_sz cf)).
  Implicit Types (w : world V) (a : astate V) (o : op V) (h : nat) (ops : list (op V)).

  Definition htidy (x : handle) : Prop :=
    match x with
    | HMut m => aok (si_len (ms_items m)) (ms_alloc m)
    | HIter m => forall l, sit_len sz (mi_iter m) = Ok l -> aok l (mi_alloc m)
    | HMParts m => paok sz m
    | _ => True
    end.
  Definition tidyh (hs : list (option handle)) : Prop := forall h x, hs !! h = Some (Some x) -> htidy x.
  Definition tidy w : Prop := tid (w_d w) /\ tidyh (w_h w).
  Definition hgeo (x : handle) : Prop :=
    match x with
    | HMut m => exists base r, items_rel sz base r (ms_items m) /\ (rg_len r < usize_lim)%N
    | HIter m => exists base r, iter_rel sz base r (mi_iter m)
    | HMParts m => exists base r k f b, sip_rel sz base r k f b (mp_iter m)
    | _ => True
    end.
  Lemma rel_geo w a h x : rel w a -> get_h w h = Some x -> hgeo x.
  Proof.
    intros Hr Hx. pose proof (rel_kind _ _ _ Hr h) as Hk. rewrite Hx in Hk. destruct (a_get a h) as [y|] eqn:Hy; [|done].
    destruct (one_pair _ _ _ Hr _ _ Hy) as (p & X & <- & Hc & (L & LI & LG & D & G & F)). rewrite Hx in Hc. injection Hc as ->.
    apply Forall_cons in F as [F _]. unfold hrel in F. cbn [fst snd] in *.
    assert (forall e, e ∈ hp_o p -> rng_ok (bshape (w_d w)) (fst e)) as Ho.
    { intros e He. apply (di_oalloc _ _ _ _ _ _ D). unfold XO. rewrite bind_cons. apply elem_of_app. by left. }
    unfold hgeo. destruct (hp_c p), (hp_a p); try done.
    - destruct F as (E & _ & F). rewrite E in Ho. specialize (Ho _ (elem_of_list_here _ _)). cbn in Ho. destruct (rng_ok_lim _ _ Ho) as [Hl _]. eauto.
    - destruct F as (E & _ & F). eauto.
    - destruct F as (r & k & f & b & _ & _ & F & _). eauto 10.
  Qed.

  Lemma tidyh_new hs x : tidyh hs -> htidy x -> tidyh (hs ++ [Some x]).
  Proof.
    intros H Hx h y Hy. apply lookup_app_Some in Hy as [Hy|[_ Hy]]; [by eapply H|]. by apply list_lookup_singleton_Some in Hy as [_ [= <-]].
  Qed.
  Lemma tidyh_set hs h x : tidyh hs -> htidy x -> tidyh (<[h := Some x]> hs).
  Proof.
    intros H Hx i y Hy. apply list_lookup_insert_Some in Hy as [(<- & [= <-] & _)|(_ & Hy)]; [done|by eapply H].
  Qed.
  Lemma tidyh_del hs h : tidyh hs -> tidyh (<[h := None]> hs).
  Proof. intros H i y Hy. apply list_lookup_insert_Some in Hy as [(<- & [=] & _)|(_ & Hy)]. by eapply H. Qed.
  Lemma tidyh_get w h x : tidyh (w_h w) -> get_h w h = Some x -> htidy x.
  Proof. intros H. unfold get_h. destruct (w_h w !! h) as [[y|]|] eqn:E; try done. intros [= ->]. by eapply H. Qed.

  Ltac same H Hh E := injection E as <- <-; split; [exact H|exact Hh].
  Lemma step_tidy w a o w' r : rel w a -> ~ strips cf w o -> rstep cf w o = Ok (w', r) -> tidy w -> tidy w'.
  Proof.
    intros R Hnw E [H Hh]. unfold rstep in E.
    assert (forall h x, get_h w h = Some x -> htidy x) as Ht by (intros; by eapply tidyh_get).
    assert (forall h x, get_h w h = Some x -> hgeo x) as Hge by (intros; by eapply rel_geo).
    destruct o; cbn [step] in E.
    - destruct (_ <? _)%N; [|same H Hh E]. apply bind_inv in E as ([s r'] & E1 & [= <- <-]). apply rcs_from_boxed_sle in E1.
      split; [by apply E1|by apply tidyh_new].
    - destruct (_ <? _)%N; [|same H Hh E]. destruct (mut_from_boxed_slice _ _ _ _) as [s' m] eqn:Em. injection E as <- <-.
      apply mut_from_boxed_sle in Em as [E1 Ha]. split; [by apply E1|by apply tidyh_new].
    - injection E as <- <-. split; [done|by apply tidyh_new].
    - destruct (get_h w _) as [[rr|dd g|it|m|m|m]|]; try (same H Hh E).
      + apply bind_inv in E as ([s r'] & E1 & [= <- <-]). apply rcs_clone_sle in E1. split; [by apply E1|by apply tidyh_new].
      + apply bind_inv in E as (s & E1 & [= <- <-]). unfold weak_clone in E1. apply bind_inv in E1 as (gs & _ & [= <-]). split; [done|by apply tidyh_new].
      + apply bind_inv in E as ([s r'] & E1 & [= <- <-]). unfold bpi_clone in E1. apply bind_inv in E1 as ([s1 l1] & E1 & [= <- <-]).
        apply clone_all_sle in E1. split; [by apply E1|by apply tidyh_new].
    - destruct (get_h w h) as [[rr|dd g|it|m|m|m]|] eqn:Eg; try (same H Hh E).
      apply bind_inv in E as ([s r'] & E1 & [= <- <-]). unfold mut_clone in E1. apply bind_inv in E1 as (vs & _ & [= E1]).
      apply mut_from_boxed_sle in E1 as [E1 Ha]. split; [by apply E1|by apply tidyh_new].
    - destruct (get_h w _) as [[rr|dd g|it|m|m|m]|]; try (same H Hh E).
      apply bind_inv in E as ([s r'] & E1 & [= <- <-]). assert (sle (w_d w, w_g w) s) as Hs by (destruct side; [by eapply rcs_clone_right_sle|by eapply rcs_clone_left_sle]).
      split; [by apply Hs|by apply tidyh_new].
    - destruct (get_h w _) as [[rr|dd g|it|m|m|m]|] eqn:Eg; try (same H Hh E).
      + apply bind_inv in E as ([s [r1 r2]] & E1 & [= <- <-]). assert (sle (w_d w, w_g w) s) as Hs by (destruct side; [by eapply rcs_split_right_sle|by eapply rcs_split_left_sle]).
        split; [by apply Hs|]. apply tidyh_new; [by apply tidyh_set|done].
      + apply bind_inv in E as ([d [m1 m2]] & E1 & [= <- <-]). apply mut_split_off_dle in E1 as (E1 & H1 & H2); [| |by apply (Ht _ _ Eg)].
        * split; [by apply E1|]. apply tidyh_new; [by apply tidyh_set|done].
        * intros [-> Hl]. apply Hnw. eexists. split; [done|]. split; [by exists m|]. unfold h_cells, h_slice. rewrite Eg, rng_cells_length. cbn. by rewrite Hl.
    - destruct (negb (n <? usize_lim)%N) eqn:En; [same H Hh E|].
      destruct (get_h w _) as [[rr|dd g|it|m|m|m]|] eqn:Eg; try (same H Hh E).
      + destruct (bpi_new _ _ _ _) as [it| | |]; try done.
        * injection E as <- <-. split; [done|]. apply tidyh_new; [by apply tidyh_del|done].
        * apply bind_inv in E as (s & E1 & [= <- <-]). apply rcs_drop_sle in E1. split; [by apply E1|by apply tidyh_del].
      + destruct (mut_split_into_parts _ _) as [it| | |] eqn:Ep; try done.
        * injection E as <- <-. split; [done|]. apply tidyh_new; [by apply tidyh_del|]. destruct (Hge _ _ Eg) as (base & rg & Hr & Hl).
          apply negb_false_iff, N.ltb_lt in En. exact (mut_split_into_parts_aok _ _ _ _ _ _ Hr Hl En Ep (Ht _ _ Eg)).
        * apply bind_inv in E as (d & E1 & [= <- <-]). apply items_alloc_drop_dle in E1. split; [by apply E1|by apply tidyh_del].
    - destruct (get_h w _) as [[rr|dd g|it|m|m|m]|]; try (same H Hh E). apply bind_inv in E as (o & _ & E).
      destruct o as [[p len]|]; [|same H Hh E]. apply ret_slice_dle in E as [E1 E2]. cbn in E1. split; [by rewrite E1|by rewrite E2].
    - destruct (get_h w _) as [[rr|dd g|it|m|m|m]|]; try (same H Hh E). apply bind_inv in E as (o & _ & E).
      destruct o as [[p len]|]; [|same H Hh E]. apply ret_replace_dle in E as [E1 E2]. split; [by apply E1|by rewrite E2].
    - destruct (get_h w _) as [[rr|dd g|it|m|m|m]|]; try (same H Hh E). apply bind_inv in E as ([s x] & E1 & E).
      apply rcs_into_mut_sle in E1 as [E1 E2]. specialize (E2 H). destruct x as [m|r0]; injection E as <- <-; (split; [by apply E1|]).
      + apply tidyh_new; [by apply tidyh_del|done].
      + by apply tidyh_set.
    - destruct (get_h w _) as [[rr|dd g|it|m|m|m]|] eqn:Eg; try (same H Hh E). apply bind_inv in E as ([s x] & E1 & [= <- <-]).
      apply mut_into_immut_sle in E1; [|by apply (Ht _ _ Eg)]. split; [by apply E1|]. apply tidyh_new; [by apply tidyh_del|done].
    - destruct (get_h w _) as [[rr|dd g|it|m|m|m]|] eqn:Eg; try (same H Hh E). apply bind_inv in E as ([s [d g]] & E1 & [= <- <-]).
      unfold rcs_downgrade in E1. apply bind_inv in E1 as (? & _ & E1). apply bind_inv in E1 as (? & _ & E1). apply bind_inv in E1 as (? & _ & [= <- <- <-]).
      split; [done|by apply tidyh_new].
    - destruct (get_h w _) as [[rr|dd g|it|m|m|m]|] eqn:Eg; try (same H Hh E). apply bind_inv in E as ([s x] & E1 & E).
      apply weak_upgrade_sle in E1. destruct x; injection E as <- <-; (split; [by apply E1|]); [by apply tidyh_new|done].
    - destruct (get_h w _) as [x|]; [|same H Hh E]. apply bind_inv in E as (s & E1 & [= <- <-]). apply handle_drop_sle in E1. split; [by apply E1|by apply tidyh_del].
    - destruct (get_h w _) as [[rr|dd g|it|m|m|m]|]; try (same H Hh E); try (apply bind_inv in E as ([p len] & _ & E));
        (apply ret_slice_dle in E as [E1 E2]; cbn in E1; split; [by rewrite E1|by rewrite E2]).
    - destruct (get_h w _) as [[rr|dd g|it|m|m|m]|]; try (same H Hh E); try (apply bind_inv in E as ([p len] & _ & E));
        (apply ret_replace_dle in E as [E1 E2]; split; [by apply E1|by rewrite E2]).
    - destruct (get_h w _) as [[rr|dd g|it|m|m|m]|] eqn:Eg; try (same H Hh E). injection E as <- <-. split; [done|]. apply tidyh_new; [by apply tidyh_del|].
      destruct (Hge _ _ Eg) as (base & rg & Hr & Hl). exact (mut_into_iter_aok _ _ _ _ Hr Hl (Ht _ _ Eg)).
    - destruct (get_h w _) as [[rr|dd g|it|m|m|m]|] eqn:Eg; try (same H Hh E).
      + apply bind_inv in E as ([[s it'] x] & E1 & E). apply parts_next_sle in E1. destruct x; injection E as <- <-; (split; [by apply E1|]); [apply tidyh_new; [|done]|]; by apply tidyh_set.
      + apply bind_inv in E as ([[d m'] x] & E1 & [= <- <-]). apply iter_next_dle in E1 as [E1 E2]. split; [by apply E1|]. by apply tidyh_set.
      + apply bind_inv in E as ([[d m'] x] & E1 & E). destruct (Hge _ _ Eg) as (base & rg & k & f & b & Hr).
        apply (mparts_next_dle _ _ _ _ _ _ _ _ _ _ _ _ E1) in Hr as (E2 & E3 & E4); [|by apply (Ht _ _ Eg)].
        destruct x; injection E as <- <-; (split; [by apply E2|]); [apply tidyh_new; [|done]|]; by apply tidyh_set.
    - destruct (get_h w _) as [[rr|dd g|it|m|m|m]|] eqn:Eg; try (same H Hh E).
      destruct (iter_split_off _ _ _ _ _) as [[d [m1 m2]]| | |] eqn:Ex; try done; [|same H Hh E]. injection E as <- <-.
      destruct (Hge _ _ Eg) as (base & rg & Hr). apply (iter_split_off_dle _ _ _ _ _ _ _ _ _ _ Ex) in Hr as (E1 & E2 & E3); [|by apply (Ht _ _ Eg)].
      split; [by apply E1|]. apply tidyh_new; [by apply tidyh_set|done].
    - destruct (get_h w _) as [[rr|dd g|it|m|m|m]|] eqn:Eg; try (same H Hh E); apply bind_inv in E as (l & _ & E); same H Hh E.
  Qed.

  Lemma rel_tidyO w a : rel w a -> tidy w -> exists X L LI LG, dinv sz (w_d w) (as_trees a) L (rs_data <$> XS X) (XO X) /\
    ginv (w_g w) (length (as_trees a)) LI LG (rs_img <$> XS X) (XW X) /\
    forall e, e ∈ XO X -> aok (rg_len (fst e)) (snd e).
  Proof.
    intros Hr [_ Hh]. destruct (rel_pairs cf _ _ Hr) as (X & (L & LI & LG & D & G & F) & HX). exists X, L, LI, LG. split_and!; [done..|].
    intros e (p & He & Hp)%elem_of_list_bind. destruct (HX p Hp) as [h Hg]. pose proof (tidyh_get _ _ _ Hh Hg) as Ht.
    rewrite Forall_forall in F. specialize (F p Hp). unfold hrel in F. unfold htidy in Ht. destruct (hp_c p), (hp_a p); try done.
    - destruct F as [E _]. rewrite E in He. by apply elem_of_nil in He.
    - destruct F as [E _]. rewrite E in He. by apply elem_of_nil in He.
    - destruct F as [E _]. rewrite E in He. by apply elem_of_nil in He.
    - destruct F as (E & _ & [_ F]). rewrite E in He. apply elem_of_list_singleton in He as ->. cbn. by rewrite <- F.
    - destruct F as (E & _ & F). rewrite E in He. apply elem_of_list_singleton in He as ->. cbn. apply Ht. by eapply sit_len_rel.
    - destruct F as (r & k & f & b & E & _ & F & _). rewrite E in He. apply elem_of_list_singleton in He as ->. cbn [fst snd].
      destruct (sip_as_slice_rel sz _ _ _ _ _ _ F) as (q & Hq & _). by apply (Ht q).
  Qed.
  Lemma reach_tidy ops : forall w, reach cf ops w -> no_strip cf ops -> tidy w.
  Proof.
    induction ops as [|o ops IH] using rev_ind; intros w [outs E] Hn.
    - injection E as <- <-. split; [intros i n Hi|intros h x Hx]; done.
    - rewrite rrun_app in E. destruct (rrun cf empty_world ops) as [[w1 rs]| | |] eqn:E1; cbn in E; try done.
      rewrite rrun_1 in E. destruct (rstep cf w1 o) as [[w2 r]| | |] eqn:E2; cbn in E; try done. injection E as <- <-.
      assert (reach cf ops w1) as R1 by (by eexists). eapply step_tidy; [by eapply reach_rel| |exact E2|].
      + by eapply (Hn ops o []).
      + apply IH; [done|]. intros ops1 o' ops2 w' ->. apply (Hn ops1 o' (ops2 ++ [o])). by rewrite <- app_assoc.
  Qed.
  (** C44 *)
  Lemma freed_iff ops w b blk : reach cf ops w -> no_strip cf ops -> sz <> 0%N -> dw_blocks (w_d w) !! b = Some blk -> b_len blk <> 0%N ->
    b ∈ freed w <-> forall h c, c ∈ h_cells cf w h -> fst c <> b.
  Proof.
    intros R Hn Hsz Hb Hl. split; [intros Hf h c Hc <-; by eapply not_freed_early|]. intros Hno. destruct (b_freed blk) eqn:Ef.
    { destruct R as [outs E]. destruct (conserved cf ops w outs E) as (_ & _ & Hf & _). apply Hf. exists blk. done. }
    exfalso. pose proof (reach_tidy _ _ R Hn) as Ht. destruct (rel_tidyO _ _ (reach_rel _ _ _ R) Ht) as (X & L & LI & LG & D & _ & HO).
    destruct (tidy_covered _ _ _ _ _ _ _ _ D (proj1 Ht) HO Hsz Hb Ef Hl) as (c & Hc & Hs).
    apply (alive_iff_covered cf _ _ c R) in Hs as [h Hh]. by eapply Hno.
  Qed.
End theory.

Lemma no_right_no_strip {V} (cf : cfg V) ops : Forall (fun o => forall h, o <> OSplitOff true h) ops -> no_strip cf ops /\ x_no_strip cf ops.
Proof.
  intros H. split; intros ops1 o ops2 w ->; apply Forall_app in H as [_ H]; apply Forall_cons in H as [H _]; intros R.
  - intros (h & -> & _). by apply (H h).
  - intros (h & m & -> & _). by apply (H h).
Qed.
