(** Conservation for the thread-safe API used by one thread: the counterpart of
    Conserve.v and ConserveTheory.v. *)
From Verif Require Import Base BaseLemmas Api SliceItemsModel BinPartsModel DataModel RcModel Spec SliceItemsProof DataInv DataFuns Observe
  Conserve ConserveTheory ArcModel ArcInv ArcRelInv ArcSpec ArcRefine ArcObserve ArcFacts ArcTheory.

Section bal.
  Context {V : Type} (sz : N).
  Notation dworld := (dworld V).
  Notation bal := (balg []).
  Ltac bd := match goal with |- (?m ≫= _) = Ok _ -> _ => let x := fresh "x" in destruct m as [x| | |]; cbn [mbind res_bind]; try done end.

  (** *** ArcSlice *)
  Notation dg := (dworld * gdworld)%type.
  Implicit Types s : dg.
  Definition sbal s s' : Prop := bal (fst s) (fst s') [] [].
  Lemma sbal_refl s : sbal s s.
  Proof. apply bal_refl. Qed.
  Lemma sbal_trans s1 s2 s3 : sbal s1 s2 -> sbal s2 s3 -> sbal s1 s3.
  Proof. apply bal_trans0. Qed.
  Lemma arc_clone_bal s r s' r' : arc_clone s r = Ok (s', r') -> sbal s s'.
  Proof.
    unfold arc_clone. bd. bd. intros [= <- <-]. by apply bal_same.
  Qed.
  Lemma arc_drop_bal s r s' : arc_drop sz s r = Ok s' -> sbal s s'.
  Proof.
    unfold arc_drop. destruct (data_drop _ _ _) as [d| | |] eqn:E1; cbn; try done. bd. intros [= <-].
    by eapply data_release_bal.
  Qed.
  Lemma guard_of_bal fuel : forall s d s' g, guard_of sz fuel s d = Ok (s', g) -> sbal s s'.
  Proof.
    induction fuel as [|fuel IH]; intros s d s' g E; [done|]. cbn [guard_of] in E. destruct (rc_val _ _) as [n| | |]; cbn [mbind res_bind] in E; try done.
    destruct (_ !! d) as [m|]; [|done]. destruct (_ !! am_box m) as [[wk|]|]; try done. destruct (rc_upgrade _ wk) as [gs [g0|]].
    { injection E as <- <-. apply bal_refl. }
    destruct (rc_upgrade (dw_datas (fst s)) _) as [hh [p|]].
    - destruct (guard_of _ _ _ _) as [[s1 pg]| | |] eqn:E1; cbn [mbind res_bind] in E; try done. apply IH in E1.
      destruct (data_drop _ _ _) as [d1| | |] eqn:E2; cbn [mbind res_bind] in E; try done. apply data_release_bal in E2. cbn [fst snd] in E.
      destruct (gd_new_guard _ _ _ _) as [[w1 g1]| | |]; cbn [mbind res_bind] in E; try done. injection E as <- <-.
      unfold sbal in *. cbn [fst] in *. eapply bal_trans0; [|exact E2]. eapply bal_trans0; [|exact E1]. by apply bal_same.
    - cbn [mbind res_bind fst snd] in E. destruct (gd_new_guard _ _ _ _) as [[w1 g1]| | |]; cbn [mbind res_bind] in E; try done. injection E as <- <-. apply bal_refl.
  Qed.
  Lemma arc_from_data_bal s d s' r : arc_from_data sz s d = Ok (s', r) -> sbal s s'.
  Proof.
    unfold arc_from_data, guard_for. destruct (guard_of _ _ _ _) as [[s1 g]| | |] eqn:E; cbn [mbind res_bind]; try done. intros [= <- <-]. by eapply guard_of_bal.
  Qed.
  Lemma adata_clone_left_bal s d s' c : adata_clone_left s d = Ok (s', c) -> sbal s s'.
  Proof.
    unfold adata_clone_left, data_clone_left. destruct (rc_val _ _) as [n| | |]; cbn [mbind res_bind]; try done. destruct (_ =? _)%N.
    - bd. intros [= <- <-]. by apply bal_same.
    - match goal with |- context [let '(_, _) := ?x in _] => destruct x as [pp ll] end.
      destruct (data_clone_child (fst s) _ _ _ _) as [[d1 c1]| | |] eqn:E; cbn [mbind res_bind]; try done. intros [= <- <-]. by eapply data_clone_child_bal.
  Qed.
  Lemma adata_clone_right_bal s d s' c : adata_clone_right sz s d = Ok (s', c) -> sbal s s'.
  Proof.
    unfold adata_clone_right, data_clone_right. destruct (rc_val _ _) as [n| | |]; cbn [mbind res_bind]; try done. destruct (_ <=? _)%N.
    - bd. intros [= <- <-]. by apply bal_same.
    - match goal with |- context [let '(_, _) := ?x in _] => destruct x as [pp ll] end.
      destruct (data_clone_child (fst s) _ _ _ _) as [[d1 c1]| | |] eqn:E; cbn [mbind res_bind]; try done. intros [= <- <-]. by eapply data_clone_child_bal.
  Qed.
  Lemma arc_clone_left_bal s r s' r' : arc_clone_left sz s r = Ok (s', r') -> sbal s s'.
  Proof.
    unfold arc_clone_left. bd. destruct (adata_clone_left _ _) as [[s1 c]| | |] eqn:E; cbn [mbind res_bind]; try done. intros E2.
    eapply sbal_trans; [by eapply adata_clone_left_bal|by eapply arc_from_data_bal].
  Qed.
  Lemma arc_clone_right_bal s r s' r' : arc_clone_right sz s r = Ok (s', r') -> sbal s s'.
  Proof.
    unfold arc_clone_right. bd. destruct (adata_clone_right _ _ _) as [[s1 c]| | |] eqn:E; cbn [mbind res_bind]; try done. intros E2.
    eapply sbal_trans; [by eapply adata_clone_right_bal|by eapply arc_from_data_bal].
  Qed.
  Lemma arc_split_left_bal s r s' x : arc_split_off_left sz s r = Ok (s', x) -> sbal s s'.
  Proof.
    unfold arc_split_off_left. destruct (arc_clone_left sz s r) as [[s1 l]| | |] eqn:E1; cbn [mbind res_bind]; try done.
    destruct (arc_clone_right sz s1 r) as [[s2 rt]| | |] eqn:E2; cbn [mbind res_bind]; try done.
    destruct (arc_drop sz s2 r) as [s3| | |] eqn:E3; cbn [mbind res_bind]; try done. intros [= <- <-].
    eapply sbal_trans; [by eapply arc_clone_left_bal|]. eapply sbal_trans; [by eapply arc_clone_right_bal|]. by eapply arc_drop_bal.
  Qed.
  Lemma arc_split_right_bal s r s' x : arc_split_off_right sz s r = Ok (s', x) -> sbal s s'.
  Proof.
    unfold arc_split_off_right. destruct (arc_clone_left sz s r) as [[s1 l]| | |] eqn:E1; cbn [mbind res_bind]; try done.
    destruct (arc_clone_right sz s1 r) as [[s2 rt]| | |] eqn:E2; cbn [mbind res_bind]; try done.
    destruct (arc_drop sz s2 r) as [s3| | |] eqn:E3; cbn [mbind res_bind]; try done. intros [= <- <-].
    eapply sbal_trans; [by eapply arc_clone_left_bal|]. eapply sbal_trans; [by eapply arc_clone_right_bal|]. by eapply arc_drop_bal.
  Qed.
  Lemma arc_get_mut_fst s r s' o : arc_get_mut s r = Ok (s', o) -> fst s = fst s'.
  Proof.
    unfold arc_get_mut. bd. destruct x as [w1 []]; cbn [negb]; [|by intros [= <- <-]].
    destruct (_ =? _)%nat; [|cbn [mbind res_bind]; bd; by intros [= <- <-]].
    destruct (gate_try_close w1 _ false) as [[w2 []]| | |]; cbn [mbind res_bind negb]; try done; [|bd; by intros [= <- <-]].
    match goal with |- context [if ?b then n ← _; _ else _] => destruct (if b then _ else _) as [y| | |] end; cbn [mbind res_bind]; try done.
    destruct (gate_open w2 _ _) as [w3| | |]; cbn [mbind res_bind]; try done. bd. by intros [= <- <-].
  Qed.
  Lemma arc_into_mut_bal s r s' x : arc_into_mut sz s r = Ok (s', x) -> sbal s s'.
  Proof.
    unfold arc_into_mut. destruct (gate_try_close _ _ _) as [[w1 ok]| | |]; cbn [mbind res_bind]; try done.
    destruct (negb ok); [intros [= <- <-]; apply bal_refl|]. destruct (_ =? _)%nat; [|bd; intros [= <- <-]; apply bal_refl].
    destruct (rc_try_unwrap _ _) as [[hh [n|]]| | |]; cbn [mbind res_bind]; try done.
    - destruct (data_into_mut _ _ _) as [[d [it al]]| | |] eqn:E; cbn [mbind res_bind]; try done. bd. bd. intros [= <- <-].
      apply data_into_mut_bal in E. eapply bal_trans0; [|exact E]. by apply bal_same.
    - bd. intros [= <- <-]. by apply bal_same.
  Qed.
  Lemma arc_drop_all_bal l : forall s s', arc_drop_all sz s l = Ok s' -> sbal s s'.
  Proof.
    induction l as [|r l IH]; intros s s' E; cbn [arc_drop_all] in E; [injection E as <-; apply sbal_refl|].
    destruct (arc_drop sz s r) as [s1| | |] eqn:E1; cbn [mbind res_bind] in E; try done. eapply sbal_trans; [by eapply arc_drop_bal|by eapply IH].
  Qed.
  Lemma clone_all_bal l : forall s s' l', clone_all arc_clone s l = Ok (s', l') -> sbal s s'.
  Proof.
    induction l as [|r l IH]; intros s s' l' E; cbn [clone_all] in E; [injection E as <- <-; apply sbal_refl|].
    destruct (arc_clone _ _) as [[s1 r']| | |] eqn:E1; cbn [mbind res_bind] in E; try done. destruct (clone_all _ _ _) as [[s2 l2]| | |] eqn:E2; cbn [mbind res_bind] in E; try done.
    injection E as <- <-. eapply sbal_trans; [by eapply arc_clone_bal|by eapply IH].
  Qed.
  Section loops.
    Context (growf : N -> N) (dbg : bool).
    Lemma loop_front_bal fuel : forall n s q it s' q' it',
      bpi_loop_front (arc_split_off_left sz) growf fuel n s q it = Ok (s', q', it') -> sbal s s'.
    Proof.
      induction fuel as [|fuel IH]; intros n s q it s' q' it' E; [done|]; cbn [bpi_loop_front bpi_loop_back] in E. destruct (_ =? _)%N; [|injection E as <- <- <-; apply sbal_refl].
      destruct (dq_items _) as [|x l]; [by eapply IH|]. destruct (arc_split_off_left _ _ _) as [[s1 [x1 y1]]| | |] eqn:E1; cbn [mbind res_bind] in E; try done.
      eapply sbal_trans; [by eapply arc_split_left_bal|by eapply IH].
    Qed.
    Lemma loop_back_bal fuel : forall n s q it s' q' it',
      bpi_loop_back (arc_split_off_right sz) growf fuel n s q it = Ok (s', q', it') -> sbal s s'.
    Proof.
      induction fuel as [|fuel IH]; intros n s q it s' q' it' E; [done|]; cbn [bpi_loop_front bpi_loop_back] in E. destruct (_ =? _)%N; [|injection E as <- <- <-; apply sbal_refl].
      destruct (last (dq_items _)) as [x|]; [|by eapply IH]. destruct (arc_split_off_right _ _ _) as [[s1 [x1 y1]]| | |] eqn:E1; cbn [mbind res_bind] in E; try done.
      eapply sbal_trans; [by eapply arc_split_right_bal|by eapply IH].
    Qed.
    Lemma arc_parts_next_bal (back : bool) s it s' it' o :
      (if back then arc_parts_next_back sz growf dbg s it else arc_parts_next sz growf dbg s it) = Ok (s', it', o) -> sbal s s'.
    Proof.
      destruct back; unfold arc_parts_next, arc_parts_next_back, bpi_next, bpi_next_back; intros E;
      destruct (bpi_len it) as [l| | |]; cbn [mbind res_bind] in E; try done;
      (destruct (0 =? l)%N; [injection E as <- <- <-; apply sbal_refl|]);
      (destruct (dbg && _); [done|]);
      (destruct (usub _ _) as [m| | |]; cbn [mbind res_bind] in E; try done);
      (destruct (dbg && _); [done|]);
      (destruct (greatest_power_of_2_factor m) as [n| | |]; cbn [mbind res_bind] in E; try done);
      (destruct (shrink_to _ _ _) as [n'| | |]; cbn [mbind res_bind] in E; try done).
      - destruct (bpi_loop_back _ _ _ _ _ _ _) as [[[s1 q1] i1]| | |] eqn:E1; cbn [mbind res_bind] in E; try done. apply loop_back_bal in E1.
        destruct (dbg && _); [done|]. destruct (uadd _ _) as [f| | |]; cbn [mbind res_bind] in E; try done. destruct i1; [|destruct (dq_pop_back q1)]; injection E as <- <- <-; done.
      - destruct (bpi_loop_front _ _ _ _ _ _ _) as [[[s1 q1] i1]| | |] eqn:E1; cbn [mbind res_bind] in E; try done. apply loop_front_bal in E1.
        destruct (dbg && _); [done|]. destruct (uadd _ _) as [f| | |]; cbn [mbind res_bind] in E; try done. destruct i1; [|destruct (dq_pop_front q1)]; injection E as <- <- <-; done.
    Qed.
  End loops.

  (** *** ArcSliceMut and its iterators *)
  Lemma handle_drop_bal s x s' : xhandle_drop sz s x = Ok s' -> sbal s s'.
  Proof.
    destruct x as [r|d g|it|m|m|m]; cbn [xhandle_drop].
    - apply arc_drop_bal.
    - unfold aweak_drop. bd. intros [= <-]. apply bal_refl.
    - apply arc_drop_all_bal.
    - destruct (mut_drop _ _ _) as [d| | |] eqn:E; cbn [mbind res_bind]; try done. intros [= <-]. by eapply items_alloc_drop_bal.
    - destruct (iter_drop _ _ _) as [d| | |] eqn:E; cbn [mbind res_bind]; try done. intros [= <-]. unfold iter_drop in E.
      destruct (sit_as_slice _ _) as [[p l]| | |]; cbn [mbind res_bind] in E; try done. by eapply items_alloc_drop_bal.
    - destruct (mparts_drop _ _ _) as [d| | |] eqn:E; cbn [mbind res_bind]; try done. intros [= <-]. unfold mparts_drop in E.
      destruct (sip_as_slice _ _) as [[p l]| | |]; cbn [mbind res_bind] in E; try done. by eapply items_alloc_drop_bal.
  Qed.
End bal.

Section theory.
  Context {V : Type} (cf : cfg V).
  Notation sz := (c_sz cf).
  Notation rel := (ArcRefine.rel (c_sz cf)).
  Notation bal := (balg []).
  Implicit Types (w : aworld V) (o : op V) (h : nat) (ops : list (op V)).

  (** One call: [fresh] are the cells of a new buffer, [taken] the cells items were moved out of. *)
  Definition arc_cons_step w w' (pv gv : list V) : Prop := exists nb ins outs mid taken,
    balg nb (aw_d w) (aw_d w') ins outs /\ ins.*2 = pv /\ outs.*2 = gv /\
    ins.*1 = mid ++ buf_cells (length (dw_blocks (aw_d w))) nb /\ outs.*1 = mid ++ taken.
  Lemma arc_cons0 w w' : bal (aw_d w) (aw_d w') [] [] -> arc_cons_step w w' [] [].
  Proof. intros H. by exists [], [], [], [], []. Qed.
  Lemma arc_cons_fresh w w' base vals d p len : (forall c, is_Some (dw_mem (aw_d w) !! c) -> (fst c < length (dw_blocks (aw_d w)))%nat) ->
    new_block (aw_d w) base vals = (d, p, len) -> bal d (aw_d w') [] [] -> arc_cons_step w w' vals [].
  Proof.
    intros Hc E H. pose proof (new_block_bal (aw_d w) base vals Hc) as Hb. rewrite E in Hb.
    pose proof (bal_trans _ _ _ _ _ _ _ _ _ Hb H) as Ht. rewrite !app_nil_r in Ht.
    eexists _, _, _, [], []. split; [exact Ht|]. cbn. rewrite app_nil_r. split_and!; [|done| |done].
    - apply snd_zip. rewrite rng_cells_length. cbn. lia.
    - apply fst_zip. rewrite rng_cells_length. cbn. lia.
  Qed.
  Lemma arc_ret_replace_cons w s hs p len i v w' r (xput : out V -> list V) : (aw_d w) = fst s ->
    xret_replace sz s hs p len i v = Ok (w', r) -> xput RPanic = [] -> (forall old, xput (RVal old) = [v]) -> arc_cons_step w w' (xput r) (got r).
  Proof.
    intros Hs. unfold xret_replace. destruct (i <? len)%N.
    - destruct (mem_replace sz _ _ _) as [[d old]| | |] eqn:E; cbn; try done. intros [= <- <-] _ ->. rewrite <- Hs in E. apply mem_replace_bal in E.
      cbn. by eexists [], _, _, [_], [].
    - intros [= <- <-] -> _. apply arc_cons0. cbn. rewrite Hs. apply bal_refl.
  Qed.
  Lemma arc_ret_slice_cons w s hs p len w' r : aw_d w = fst s -> xret_slice sz s hs p len = Ok (w', r) ->
    aw_d w' = aw_d w /\ got r = [].
  Proof. intros Hs. unfold xret_slice. destruct (mem_read _ _ _ _); cbn; try done. by intros [= <- <-]. Qed.

  Ltac bd E := match type of E with (?m ≫= _) = Ok _ => let x := fresh "x" in let Ex := fresh "Ex" in
    destruct m as [x| | |] eqn:Ex; cbn [mbind res_bind] in E; try done end.

  Lemma arc_mut_fresh w base vals s' m hs : (forall c, is_Some (dw_mem (aw_d w) !! c) -> (fst c < length (dw_blocks (aw_d w)))%nat) ->
    arc_mut_from_boxed_slice sz (aw_d w, aw_g w) base vals = (s', m) -> arc_cons_step w (AW (fst s') (snd s') hs) vals [].
  Proof.
    intros Hc. unfold arc_mut_from_boxed_slice. destruct (new_block _ _ _) as [[d p] len] eqn:En. cbn [fst snd] in En.
    pose proof (split_alloc_same cf d p len) as H. destruct (split_alloc_from_items sz d p len) as [[d1 it] al]. intros [= <- <-].
    by eapply arc_cons_fresh.
  Qed.

  Lemma arc_step_cons w a o w' r : rel w a -> xstep cf w o = Ok (w', r) -> arc_cons_step w w' (xput cf w o r) (got r).
  Proof.
    intros R E.
    assert (forall c, is_Some (dw_mem (aw_d w) !! c) -> (fst c < length (dw_blocks (aw_d w)))%nat) as Hc.
    { intros c Hs. destruct (xfact_block _ _ _ (rel_pi _ _ _ R) c Hs) as (blk & Hb & _). by eapply lookup_lt_Some. }
    unfold xstep in E. destruct o; cbn [astep] in E; cbn [xput].
    - destruct (_ <? _)%N; [|injection E as <- <-; apply arc_cons0, bal_refl]. unfold arc_from_boxed_slice in E.
      destruct (new_block _ _ _) as [[d p] len] eqn:En. cbn [fst snd] in En. pose proof (from_boxed_same d p len) as H.
      destruct (data_from_boxed_slice d p len) as [d1 n]. bd E. destruct x as [s r']. injection E as <- <-. apply arc_from_data_bal in Ex.
      eapply arc_cons_fresh; [done|done|]. by eapply bal_trans0.
    - destruct (_ <? _)%N; [|injection E as <- <-; apply arc_cons0, bal_refl].
      destruct (arc_mut_from_boxed_slice _ _ _ _) as [s' m] eqn:Em. injection E as <- <-. by eapply arc_mut_fresh.
    - injection E as <- <-. apply arc_cons0, bal_refl.
    - destruct (xget w _) as [[rr|dd g|it|m|m|m]|]; try (injection E as <- <-; apply arc_cons0, bal_refl); bd E.
      + destruct x as [s r']. injection E as <- <-. apply arc_cons0. by apply arc_clone_bal in Ex.
      + injection E as <- <-. apply arc_cons0. unfold aweak_clone in Ex. bd Ex. injection Ex as <-. apply bal_refl.
      + destruct x as [s r']. injection E as <- <-. apply arc_cons0. unfold bpi_clone in Ex. bd Ex. destruct x as [s1 l1]. injection Ex as <- <-. by apply clone_all_bal in Ex0.
    - destruct (xget w h) as [[rr|dd g|it|m|m|m]|] eqn:Eg; try (injection E as <- <-; apply arc_cons0, bal_refl); bd E.
      destruct x as [s m']. injection E as <- <-. unfold arc_mut_clone in Ex. cbn [fst] in Ex. bd Ex.
      assert (exists adr, xview cf w h = Some (adr, x)) as [adr ->].
      { unfold xview, xstep. cbn [astep]. rewrite Eg. unfold xret_slice. cbn [fst]. rewrite Ex0. cbn. eauto. }
      injection Ex as Ex. by eapply arc_mut_fresh.
    - destruct (xget w _) as [[rr|dd g|it|m|m|m]|]; try (injection E as <- <-; apply arc_cons0, bal_refl); bd E.
      destruct x as [s r']. injection E as <- <-. apply arc_cons0. destruct side; [by apply arc_clone_right_bal in Ex|by apply arc_clone_left_bal in Ex].
    - destruct (xget w _) as [[rr|dd g|it|m|m|m]|]; try (injection E as <- <-; apply arc_cons0, bal_refl); bd E.
      + destruct x as [s [r1 r2]]. injection E as <- <-. apply arc_cons0. destruct side; [by apply arc_split_right_bal in Ex|by apply arc_split_left_bal in Ex].
      + destruct x as [s [r1 r2]]. injection E as <- <-. apply arc_cons0. unfold mut_split_off in Ex. destruct (if side then _ else _) as [x1 x2]. bd Ex. injection Ex as <- <- <-. by apply alloc_clone_bal in Ex0.
    - destruct (negb _); [injection E as <- <-; apply arc_cons0, bal_refl|].
      destruct (xget w _) as [[rr|dd g|it|m|m|m]|]; try (injection E as <- <-; apply arc_cons0, bal_refl).
      + destruct (bpi_new _ _ _ _); try done; [injection E as <- <-; apply arc_cons0, bal_refl|]. bd E. injection E as <- <-. apply arc_cons0. by apply arc_drop_bal in Ex.
      + destruct (mut_split_into_parts _ _); try done; [injection E as <- <-; apply arc_cons0, bal_refl|]. bd E. injection E as <- <-. apply arc_cons0. by apply items_alloc_drop_bal in Ex.
    - destruct (xget w _) as [[rr|dd g|it|m|m|m]|]; try (injection E as <- <-; apply arc_cons0, bal_refl). bd E.
      destruct x as [s x]. apply arc_get_mut_fst in Ex. cbn [fst] in Ex.
      destruct x as [[p len]|]; [|injection E as <- <-; apply arc_cons0; cbn; rewrite Ex; apply bal_refl]. apply (arc_ret_slice_cons w) in E as [E ->]; [|done]. apply arc_cons0. rewrite E. apply bal_refl.
    - destruct (xget w _) as [[rr|dd g|it|m|m|m]|]; try (injection E as <- <-; apply arc_cons0, bal_refl). bd E.
      destruct x as [s x]. apply arc_get_mut_fst in Ex. cbn [fst] in Ex.
      destruct x as [[p len]|]; [|injection E as <- <-; apply arc_cons0; cbn; rewrite Ex; apply bal_refl].
      by apply (arc_ret_replace_cons w _ _ _ _ _ _ _ _ (fun r => match r with RVal _ => [v] | _ => [] end)) in E.
    - destruct (xget w _) as [[rr|dd g|it|m|m|m]|]; try (injection E as <- <-; apply arc_cons0, bal_refl). bd E.
      destruct x as [s x]. assert (bal (aw_d w) (fst s) [] []) as H; [|destruct x; injection E as <- <-; by apply arc_cons0].
      by apply arc_into_mut_bal in Ex.
    - destruct (xget w _) as [[rr|dd g|it|m|m|m]|]; try (injection E as <- <-; apply arc_cons0, bal_refl). bd E.
      destruct x as [s x]. injection E as <- <-. apply arc_cons0. unfold arc_mut_into_immut in Ex. unfold data_new in Ex. cbn [rc_new fst snd] in Ex. apply arc_from_data_bal in Ex.
      eapply bal_trans0; [|exact Ex]. by apply bal_same.
    - destruct (xget w _) as [[rr|dd g|it|m|m|m]|]; try (injection E as <- <-; apply arc_cons0, bal_refl). bd E.
      destruct x as [s [d g]]. injection E as <- <-. apply arc_cons0. unfold arc_downgrade in Ex. bd Ex. bd Ex. bd Ex. injection Ex as <- <- <-. apply bal_refl.
    - destruct (xget w _) as [[rr|dd g|it|m|m|m]|]; try (injection E as <- <-; apply arc_cons0, bal_refl). bd E.
      destruct x as [s x]. assert (bal (aw_d w) (fst s) [] []) as H; [|destruct x; injection E as <- <-; by apply arc_cons0].
      unfold aweak_upgrade in Ex. destruct (rc_upgrade _ _) as [hh [d|]]; [|injection Ex as <- <-; apply bal_refl]. bd Ex. destruct x0 as [gw i]. injection Ex as <- <-. apply arc_from_data_bal in Ex0. eapply bal_trans0; [|exact Ex0]. by apply bal_same.
    - destruct (xget w _) as [x|]; [|injection E as <- <-; apply arc_cons0, bal_refl]. bd E. injection E as <- <-. apply arc_cons0. by apply handle_drop_bal in Ex.
    - destruct (xget w _) as [[rr|dd g|it|m|m|m]|]; try (injection E as <- <-; apply arc_cons0, bal_refl); try (bd E; destruct x as [p len]);
        (apply (arc_ret_slice_cons w) in E as [E ->]; [|done]; apply arc_cons0; rewrite E; apply bal_refl).
    - destruct (xget w _) as [[rr|dd g|it|m|m|m]|]; try (injection E as <- <-; apply arc_cons0, bal_refl); try (bd E; destruct x as [p len]);
        by apply (arc_ret_replace_cons w _ _ _ _ _ _ _ _ (fun r => match r with RVal _ => [v] | _ => [] end)) in E.
    - destruct (xget w _) as [[rr|dd g|it|m|m|m]|]; injection E as <- <-; apply arc_cons0, bal_refl.
    - destruct (xget w _) as [[rr|dd g|it|m|m|m]|]; try (injection E as <- <-; apply arc_cons0, bal_refl); bd E.
      + destruct x as [[s it'] x]. assert (bal (aw_d w) (fst s) [] []) as H; [by apply (arc_parts_next_bal _ _ _ back) in Ex|]. destruct x; injection E as <- <-; by apply arc_cons0.
      + destruct x as [[d m'] x]. injection E as <- <-. unfold iter_next in Ex. bd Ex. destruct x0 as [it o]. bd Ex. destruct x0 as [d1 xitem]. bd Ex.
        assert (bal d1 d [] [] /\ xitem = x) as [Hb ->].
        { destruct (_ =? _)%N; [bd Ex; injection Ex as <- <- <-; by apply alloc_release_bal in Ex3|injection Ex as <- <- <-; split; [apply bal_refl|done]]. }
        destruct o as [p|].
        * destruct (mem_take _ _ _) as [[d2 v]| | |] eqn:Et; cbn in Ex1; try done. injection Ex1 as <- <-. apply mem_take_bal in Et.
          pose proof (bal_trans _ _ _ _ _ _ _ _ _ Et Hb) as H. cbn in H |- *. by eexists [], [], _, [], [_].
        * injection Ex1 as <- <-. by apply arc_cons0.
      + destruct x as [[d m'] x]. assert (bal (aw_d w) d [] []) as H; [|destruct x; injection E as <- <-; by apply arc_cons0].
        unfold mparts_next in Ex. bd Ex. destruct x0 as [it [items|]]; [|injection Ex as <- <- <-; apply bal_refl]. bd Ex. destruct x0 as [p l].
        destruct (_ =? _)%N; [injection Ex as <- <- <-; apply bal_refl|]. destruct (_ <? _)%N; [bd Ex; injection Ex as <- <- <-; by apply alloc_clone_bal in Ex2|injection Ex as <- <- <-; apply bal_refl].
    - destruct (xget w _) as [[rr|dd g|it|m|m|m]|]; try (injection E as <- <-; apply arc_cons0, bal_refl).
      destruct (iter_split_off _ _ _ _ _) as [[d [m1 m2]]| | |] eqn:Ex; try done; [|injection E as <- <-; apply arc_cons0, bal_refl].
      injection E as <- <-. apply arc_cons0. cbn. unfold iter_split_off in Ex. bd Ex. destruct x as [s1 s2]. bd Ex. destruct (_ =? _)%N; [injection Ex as <- <- <-; apply bal_refl|].
      bd Ex. destruct (_ <? _)%N; [bd Ex; injection Ex as <- <- <-; by apply alloc_clone_bal in Ex3|injection Ex as <- <- <-; apply bal_refl].
    - destruct (xget w _) as [[rr|dd g|it|m|m|m]|]; try (injection E as <- <-; apply arc_cons0, bal_refl); bd E; injection E as <- <-; apply arc_cons0, bal_refl.
  Qed.

  (** What one call does to items and buffers. *)
  Lemma arc_step_conserve ops w o w' r : xreach cf ops w -> xstep cf w o = Ok (w', r) ->
    exists nd nf taken, xdropped w' = xdropped w ++ nd.*2 /\ xdropped_cells w' = xdropped_cells w ++ nd.*1 /\ xfreed w' = xfreed w ++ nf /\
      xcontents w ++ xput cf w o r ≡ₚ xcontents w' ++ nd.*2 ++ got r /\
      buf_cells 0 (bshape (aw_d w)) `prefix_of` buf_cells 0 (bshape (aw_d w')) /\
      (map_to_list (dw_mem (aw_d w))).*1 ++ drop (length (buf_cells 0 (bshape (aw_d w)))) (buf_cells 0 (bshape (aw_d w'))) ≡ₚ
        (map_to_list (dw_mem (aw_d w'))).*1 ++ nd.*1 ++ taken /\
      (forall b, is_freed (aw_d w') b <-> is_freed (aw_d w) b \/ b ∈ nf) /\ NoDup nf /\ (forall b, b ∈ nf -> ~ is_freed (aw_d w) b) /\
      (length taken <= length (got r))%nat.
  Proof.
    intros Hr E. apply (arc_step_cons _ _ _ _ _ (xreach_rel _ _ _ Hr)) in E as (nb & ins & outs & mid & taken & (nd & T & M & B & F & D & N & L) & Ev & Eg & Ei & Eo).
    exists (drops nd), (frees nd), taken. unfold xdropped, xdropped_cells, xfreed, xcontents. rewrite T, !omap_snoc, <- drops_cells, <- drops_vals.
    assert (length (dw_blocks (aw_d w)) = length (bshape (aw_d w))) as Hl by (by unfold bshape; rewrite fmap_length).
    split_and!; try done.
    - rewrite drops_vals. rewrite <- Ev, <- Eg, <- !fmap_app, <- M. by rewrite fmap_app.
    - rewrite B, buf_cells_app. by apply prefix_app_r.
    - rewrite B, buf_cells_app, drop_app. cbn [Nat.add]. rewrite drops_cells. rewrite <- Hl.
      apply (Permutation_app_inv_l mid). assert ((map_to_list (dw_mem (aw_d w))).*1 ++ ins.*1 ≡ₚ (map_to_list (dw_mem (aw_d w'))).*1 ++ (drops nd).*1 ++ outs.*1) as H.
      { rewrite <- !fmap_app. by rewrite M. }
      rewrite Ei, Eo in H. transitivity ((map_to_list (dw_mem (aw_d w))).*1 ++ mid ++ buf_cells (length (dw_blocks (aw_d w))) nb); [solve_Permutation|].
      rewrite H. solve_Permutation.
    - rewrite <- Eg, fmap_length. apply (f_equal length) in Eo. rewrite fmap_length, app_length in Eo. lia.
  Qed.

  Lemma arc_put_run_app w ops o w' outs r w'' : xrun cf w ops = Ok (w', outs) -> xstep cf w' o = Ok (w'', r) ->
    xput_run cf w (ops ++ [o]) = xput_run cf w ops ++ xput cf w' o r.
  Proof.
    revert w outs. induction ops as [|o' ops IH]; intros w outs E1 E2.
    - injection E1 as <- <-. cbn. rewrite E2. by rewrite app_nil_r.
    - unfold xrun in E1. cbn in E1. fold (xstep cf w o') in E1. destruct (xstep cf w o') as [[w1 r1]| | |] eqn:E; cbn in E1; try done.
      fold (xrun cf w1 ops) in E1. destruct (xrun cf w1 ops) as [[w2 rs]| | |] eqn:E3; cbn in E1; try done. injection E1 as -> <-.
      cbn. rewrite E. by rewrite (IH _ _ E3 E2), app_assoc.
  Qed.

  (** C06: nothing is lost and nothing disposed of twice. *)
  Lemma arc_conserved ops : forall w outs, xrun cf empty_aworld ops = Ok (w, outs) ->
    xput_run cf empty_aworld ops ≡ₚ xcontents w ++ xdropped w ++ got_run outs /\
    (exists taken, (map_to_list (dw_mem (aw_d w))).*1 ++ xdropped_cells w ++ taken ≡ₚ buf_cells 0 (bshape (aw_d w)) /\
      (length taken <= length (got_run outs))%nat) /\
    (forall b, is_freed (aw_d w) b <-> b ∈ xfreed w) /\ NoDup (xfreed w).
  Proof.
    induction ops as [|o ops IH] using rev_ind; intros w outs E.
    - injection E as <- <-. split_and!; [by apply Permutation_refl| |by (intros b; split; [intros (? & ? & _)|intros ?%elem_of_nil])|apply NoDup_nil_2].
      exists []. cbn. split; [done|lia].
    - rewrite xrun_app in E. destruct (xrun cf empty_aworld ops) as [[w1 rs]| | |] eqn:E1; cbn in E; try done.
      rewrite xrun_1 in E. destruct (xstep cf w1 o) as [[w2 r]| | |] eqn:E2; cbn in E; try done. injection E as <- <-.
      destruct (IH _ _ eq_refl) as (H1 & (tk & H2 & H2') & H3 & H4). rewrite (arc_put_run_app _ _ _ _ _ _ _ E1 E2).
      assert (xreach cf ops w1) as Hr by (by eexists).
      destruct (arc_step_conserve _ _ _ _ _ Hr E2) as (nd & nf & taken & Dv & Dc & Df & C & P & Cc & F & N1 & N2 & Ht).
      split_and!.
      + rewrite H1, Dv. unfold got_run. rewrite bind_app. cbn. rewrite app_nil_r. transitivity ((xcontents w1 ++ xput cf w1 o r) ++ xdropped w1 ++ got_run rs); [solve_Permutation|].
        rewrite C. unfold got_run. solve_Permutation.
      + exists (tk ++ taken). split; [|unfold got_run in *; rewrite bind_app, !app_length; cbn; rewrite app_nil_r; lia].
        destruct P as [nc P]. rewrite P in *. rewrite drop_app in Cc. rewrite <- H2, Dc.
        transitivity (((map_to_list (dw_mem (aw_d w1))).*1 ++ nc) ++ xdropped_cells w1 ++ tk); [|solve_Permutation]. rewrite Cc. solve_Permutation.
      + intros b. rewrite F, H3, Df, elem_of_app. done.
      + rewrite Df. apply NoDup_app. split_and!; [done| |done]. intros b Hb Hb'. apply (N2 b Hb'). by apply H3.
  Qed.
  Lemma arc_conserved_items ops w outs : xrun cf empty_aworld ops = Ok (w, outs) ->
    xput_run cf empty_aworld ops ≡ₚ xcontents w ++ xdropped w ++ got_run outs.
  Proof. intros E. by destruct (arc_conserved _ _ _ E). Qed.
  Lemma arc_freed_once ops w : xreach cf ops w -> NoDup (xfreed w).
  Proof. intros [outs E]. by destruct (arc_conserved _ _ _ E) as (_ & _ & _ & ?). Qed.
  Lemma arc_dropped_once ops w : xreach cf ops w -> NoDup (xdropped_cells w) /\ (forall c, c ∈ xdropped_cells w -> xitem w c = None) /\
    (forall c, c ∈ xdropped_cells w -> exists blk, dw_blocks (aw_d w) !! fst c = Some blk /\ (snd c < b_len blk)%N).
  Proof.
    intros [outs E]. destruct (arc_conserved _ _ _ E) as (_ & (tk & H & _) & _).
    pose proof (buf_cells_NoDup (bshape (aw_d w)) 0) as Hn. rewrite <- H in Hn. apply NoDup_app in Hn as (_ & Hx & Hn). apply NoDup_app in Hn as (Hn & _).
    split_and!; [done| |].
    - intros c Hc. unfold xitem. apply eq_None_not_Some. intros [v Hv]. apply (Hx c); [|apply elem_of_app; by left].
      apply elem_of_list_fmap. exists (c, v). split; [done|]. by apply elem_of_map_to_list.
    - intros c Hc. assert (c ∈ buf_cells 0 (bshape (aw_d w))) as Hb; [rewrite <- H, !elem_of_app; tauto|].
      apply buf_cells_elem in Hb as (i & ad & len & H1 & H2 & H3). cbn in H2. subst i. unfold bshape in H1. rewrite list_lookup_fmap in H1.
      destruct (dw_blocks (aw_d w) !! fst c) as [blk|]; [|done]. injection H1 as <- <-. eauto.
  Qed.
  (** C26 *)
  Lemma arc_freed_layout ops w b addr cap : xreach cf ops w -> EFree b addr cap ∈ dw_trace (aw_d w) ->
    exists blk, dw_blocks (aw_d w) !! b = Some blk /\ b_base blk = addr /\ b_len blk = cap.
  Proof.
    intros [outs E] H. assert (bshape (aw_d w) !! b = Some (addr, cap)) as Hb.
    2: { unfold bshape in Hb. rewrite list_lookup_fmap in Hb. destruct (dw_blocks (aw_d w) !! b) as [blk|]; [|done]. injection Hb as <- <-. eauto. }
    revert w outs E H. induction ops as [|o ops IH] using rev_ind; intros w outs E H.
    - injection E as <- <-. by apply elem_of_nil in H.
    - rewrite xrun_app in E. destruct (xrun cf empty_aworld ops) as [[w1 rs]| | |] eqn:E1; cbn in E; try done.
      rewrite xrun_1 in E. destruct (xstep cf w1 o) as [[w2 r]| | |] eqn:E2; cbn in E; try done. injection E as <- <-.
      apply (arc_step_cons _ _ _ _ _ (xreach_rel _ ops w1 ltac:(by eexists))) in E2 as (nb & ins & outs & mid & taken & (nd & T & M & B & F & D & N & L) & _).
      rewrite T in H. apply elem_of_app in H as [H|H]; [|by apply L]. rewrite B. apply lookup_app_l_Some. by eapply IH.
  Qed.
  Lemma arc_not_freed_early ops w h c : xreach cf ops w -> sz <> 0%N -> c ∈ x_cells cf w h -> fst c ∉ xfreed w.
  Proof.
    intros Hr Hs Hc Hin. destruct (arc_covered cf ops w h c Hr Hc) as (v & blk & _ & Hb & _ & Hn). destruct Hr as [outs E].
    destruct (arc_conserved _ _ _ E) as (_ & _ & Hf & _). apply Hf in Hin as (blk' & Hb' & Hfr). rewrite Hb in Hb'. injection Hb' as <-. rewrite Hn in Hfr; done.
  Qed.
  Lemma arc_end_disposed ops w outs : xrun cf empty_aworld ops = Ok (w, outs) -> (forall h, xget w h = None) ->
    xput_run cf empty_aworld ops ≡ₚ xdropped w ++ got_run outs /\ dw_mem (aw_d w) = ∅.
  Proof.
    intros E Hh. destruct (arc_conserved _ _ _ E) as (H & _). assert (xreach cf ops w) as Hr by (by eexists). pose proof (xreach_rel _ _ _ Hr) as R.
    assert (dw_mem (aw_d w) = ∅) as Hm.
    { apply map_empty. intros c. apply eq_None_not_Some. intros Hs. rewrite <- (xrel_mem _ _ _ R) in Hs.
      apply (xfact_alive _ _ _ (rel_pi _ _ _ R)) in Hs as (h & x & Hx & _). pose proof (xrel_kind _ _ _ (rel_pi _ _ _ R) h) as Hk. by rewrite Hh, Hx in Hk. }
    unfold xcontents in H. rewrite Hm, map_to_list_empty in H. done.
  Qed.
End theory.
