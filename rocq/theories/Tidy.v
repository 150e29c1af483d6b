(** Empty slices do not hold on to the buffer: no slice data of length 0 has a
    [SliceAlloc]. Preserved by every function of the data layer, whatever the state. *)
From Verif Require Import Base BaseLemmas Api SliceItemsModel BinPartsModel DataModel RcModel ArcModel Spec SliceItemsProof DataInv DataFuns GuardInv ConcGuard ConcChild Observe.
Local Open Scope nat_scope.

Definition aok (len : N) (o : option nat) : Prop := len = 0%N -> o = None.

Section tidy.
  Context {V : Type} (sz : N).
  Notation dworld := (dworld V).
  Implicit Types (w : dworld).
  Definition tid w : Prop := forall i n, rc_get (dw_datas w) i = Some n -> aok (d_len n) (d_alloc n).
  Definition dle w w' : Prop := tid w -> tid w'.
  Lemma dle_refl w : dle w w.
  Proof. by intros H. Qed.
  Lemma dle_trans w1 w2 w3 : dle w1 w2 -> dle w2 w3 -> dle w1 w3.
  Proof. intros H1 H2 H. by apply H2, H1. Qed.
  Lemma dle_same w w' : dw_datas w' = dw_datas w -> dle w w'.
  Proof. intros E H i n. rewrite E. apply H. Qed.
  Lemma dle_keep w w' : hkeep (dw_datas w) (dw_datas w') -> dle w w'.
  Proof. intros [_ Hk] H i n Hn. by eapply H, Hk. Qed.
  Lemma dle_set w h : hkeep (dw_datas w) h -> dle w (dw_set_datas w h).
  Proof. intros H. by apply (dle_keep w (dw_set_datas w h)). Qed.

  Lemma mem_take_dle w p w' v : mem_take sz w p = Ok (w', v) -> dle w w'.
  Proof. unfold mem_take. intros (x & _ & [= <- <-])%bind_inv. by apply dle_same. Qed.
  Lemma mem_replace_dle w p v w' old : mem_replace sz w p v = Ok (w', old) -> dle w w'.
  Proof. unfold mem_replace. intros (x & _ & [= <- <-])%bind_inv. by apply dle_same. Qed.
  Lemma drop_in_place_dle n : forall w p w', drop_in_place sz w n p = Ok w' -> dle w w'.
  Proof.
    induction n as [|n IH]; intros w p w' E; cbn in E; [injection E as <-; apply dle_refl|].
    apply bind_inv in E as ([w1 v] & E1 & E). apply mem_take_dle in E1. apply IH in E. eapply dle_trans; [exact E1|]. eapply dle_trans; [|exact E]. by apply dle_same.
  Qed.
  Lemma alloc_release_dle w o w' : alloc_release sz w o = Ok w' -> dle w w'.
  Proof. intros H. apply dle_same. by eapply alloc_release_datas. Qed.
  Lemma alloc_clone_dle w o w' : alloc_clone w o = Ok w' -> dle w w'.
  Proof. destruct o as [a|]; cbn; [|intros [= <-]; apply dle_refl]. intros (h & _ & [= <-])%bind_inv. by apply dle_same. Qed.
  Lemma tid_app w n k : tid w -> aok (d_len n) (d_alloc n) -> forall i m, rc_get (dw_datas w ++ [Some (k, n)]) i = Some m -> aok (d_len m) (d_alloc m).
  Proof.
    intros H Hn i m. unfold rc_get. destruct (decide (i < length (dw_datas w))) as [Hi|Hi].
    - rewrite lookup_app_l by done. apply H.
    - rewrite lookup_app_r by lia. destruct (i - length (dw_datas w)) as [|j]; [|done]. cbn. intros [= <-]. done.
  Qed.
  Lemma data_new_dle w p len al w' d : data_new w p len al = (w', d) -> aok len al -> dle w w'.
  Proof. intros [= <- <-] Ha H i n. by apply (tid_app w (DNode p len al None None) 1). Qed.
  Lemma data_from_boxed_dle w p len w' d : data_from_boxed_slice w p len = (w', d) -> dle w w'.
  Proof.
    unfold data_from_boxed_slice. destruct (N.eqb_spec len 0) as [->|Hne].
    - intros H. by apply data_new_dle in H.
    - destruct (alloc_new w p len) as [w1 a] eqn:E. injection E as <- <-. intros H. apply data_new_dle in H; [|by intros ?]. by intros Hw; apply H.
  Qed.
  Lemma data_clone_child_dle w d side p len w' c : data_clone_child w d side p len = Ok (w', c) -> dle w w'.
  Proof.
    unfold data_clone_child. intros (n & _ & E)%bind_inv. destruct (d_child side n) as [c'|].
    - apply bind_inv in E as (h & E1 & [= <- <-]). apply dle_set. by eapply hkeep_inc.
    - apply bind_inv in E as (w1 & E1 & E). apply alloc_clone_dle in E1. eapply dle_trans; [exact E1|].
      destruct (data_new w1 p len _) as [w2 c2] eqn:E2. apply data_new_dle in E2; [|by intros ->].
      apply bind_inv in E as (h & E3 & E). apply bind_inv in E as (h' & E4 & [= <- <-]).
      eapply dle_trans; [exact E2|]. apply hkeep_inc in E3. apply rc_set_inv in E4 as (k & m & Hm & ->).
      intros H i n' Hn'. pose proof (dle_set _ _ E3 H) as H'. unfold tid in H'. cbn in H', Hn'.
      rewrite rc_get_insert in Hn' by by eapply live_lt. destruct (decide (i = d)) as [->|]; [|by eapply H'].
      injection Hn' as <-. apply rc_get_live in Hm. apply H' in Hm. by destruct side.
  Qed.
  Lemma data_release_dle fuel : forall w d w', data_release sz fuel w d = Ok w' -> dle w w'.
  Proof.
    induction fuel as [|fuel IH]; intros w d w' E; [done|]. cbn [data_release] in E.
    apply bind_inv in E as ([h r] & E0 & E). apply hkeep_dec in E0. eapply dle_trans; [by apply dle_set|].
    destruct r as [n|]; [|injection E as <-; apply dle_refl].
    assert (forall w o w', match o with None => Ok w | Some c => data_release sz fuel w c end = Ok w' -> dle w w') as Hk.
    { intros w0 [c|] w0' H; [by eapply IH|injection H as <-; apply dle_refl]. }
    apply bind_inv in E as (w1 & E1 & E). apply Hk in E1.
    apply bind_inv in E as (w2 & E2 & E). apply Hk in E2.
    apply bind_inv in E as (w3 & E3 & E).
    assert (dle w2 w3) as H3.
    { destruct (d_left n), (d_right n); cbn in E3; try (by eapply drop_in_place_dle). injection E3 as <-. apply dle_refl. }
    apply alloc_release_dle in E. eapply dle_trans; [exact E1|]. eapply dle_trans; [exact E2|]. by eapply dle_trans.
  Qed.
  Lemma data_forget_dle fuel : forall w n w' n', data_forget_items sz fuel w n = Ok (w', n') -> dle w w'.
  Proof.
    induction fuel as [|fuel IH]; intros w n w' n' E; [done|]. cbn [data_forget_items] in E.
    assert (forall w o w', match o with
      | None => Ok w
      | Some c => rc_try_unwrap (dw_datas w) c ≫= fun pat => match pat with
          | (h, Some child) => data_forget_items sz fuel (dw_set_datas w h) child ≫= fun '(w, child) => data_drop_forgotten sz w child
          | (h, None) => data_release sz (S (length (dw_datas (dw_set_datas w h)))) (dw_set_datas w h) c
          end
      end = Ok w' -> dle w w') as Hk.
    { intros w0 [c|] w0' H; [|injection H as <-; apply dle_refl].
      apply bind_inv in H as ([h r] & E0 & H). apply hkeep_unwrap in E0. eapply dle_trans; [by apply dle_set|]. destruct r as [ch|].
      - apply bind_inv in H as ([w1 ch'] & E1 & H). apply IH in E1. apply alloc_release_dle in H. by eapply dle_trans.
      - by apply data_release_dle in H. }
    apply bind_inv in E as (w1 & E1 & E). apply Hk in E1. apply bind_inv in E as (w2 & E2 & E). apply Hk in E2.
    injection E as <- <-. by eapply dle_trans.
  Qed.
  Lemma data_into_mut_dle w n w' it al : data_into_mut sz w n = Ok (w', (it, al)) -> dle w w' /\ si_len it = d_len n /\ al = d_alloc n.
  Proof.
    unfold data_into_mut. intros ([w1 n1] & E1 & E)%bind_inv. apply data_forget_dle in E1.
    apply bind_inv in E as (w2 & E2 & [= <- <- <-]). apply alloc_release_dle in E2. split; [|done]. by eapply dle_trans.
  Qed.
  Lemma unwrap_aok w d h n : rc_try_unwrap (dw_datas w) d = Ok (h, Some n) -> tid w -> aok (d_len n) (d_alloc n).
  Proof. intros [(s & v & Hv & _ & ?)|(v & Hv & _ & [= ->])]%rc_unwrap_inv Ht; [done|]. eapply Ht. by eapply rc_get_live. Qed.
  Lemma new_block_dle w base (vals : list V) w' p len : new_block w base vals = (w', p, len) -> dle w w'.
  Proof. intros [= <- <- <-]. by apply dle_same. Qed.

  (** *** Unique slices and their iterators *)
  Lemma split_alloc_aok w p len w' it al : split_alloc_from_items sz w p len = (w', it, al) -> dle w w' /\ aok (si_len it) al.
  Proof.
    unfold split_alloc_from_items. destruct (N.eqb_spec len 0) as [->|Hne]; cbn; [intros [= <- <- <-]; split; [apply dle_refl|done]|].
    destruct (N.eqb_spec sz 0); [intros [= <- <- <-]; split; [apply dle_refl|done]|]. intros [= <- <- <-]. split; [by apply dle_same|]. by intros ?.
  Qed.
  Lemma items_alloc_drop_dle d p len al d' : items_alloc_drop sz d p len al = Ok d' -> dle d d'.
  Proof.
    unfold items_alloc_drop. intros (d1 & E1 & E)%bind_inv. eapply dle_trans; [by eapply drop_in_place_dle|by eapply alloc_release_dle].
  Qed.
  Lemma mut_split_off_dle side d m d' m1 m2 : mut_split_off sz side d m = Ok (d', (m1, m2)) -> ~ (side = true /\ si_len (ms_items m) = 1%N) ->
    aok (si_len (ms_items m)) (ms_alloc m) -> dle d d' /\ aok (si_len (ms_items m1)) (ms_alloc m1) /\ aok (si_len (ms_items m2)) (ms_alloc m2).
  Proof.
    unfold mut_split_off. intros E Hs Ha.
    destruct (if side then si_split_off_right sz (ms_items m) else si_split_off_left sz (ms_items m)) as [self new] eqn:Es.
    apply bind_inv in E as (d1 & E1 & [= <- <- <-]). apply alloc_clone_dle in E1. split_and!; [done|..]; cbn.
    - intros H0. apply Ha. destruct (decide (si_len (ms_items m) = 0%N)) as [|Hne]; [done|exfalso].
      destruct side; injection Es as <- <-; cbn in H0; unfold si_left_len, si_right_len, shr1 in H0.
      + rewrite N.div2_div in H0. apply N.div_small_iff in H0; [|done]. apply Hs. split; [done|]. lia.
      + rewrite N.shiftr_div_pow2 in H0. change (2 ^ 1)%N with 2%N in H0. pose proof (N.div_lt (si_len (ms_items m)) 2). lia.
    - intros H0. rewrite H0. done.
  Qed.
  Lemma mut_into_iter_aok base r m : items_rel sz base r (ms_items m) -> (rg_len r < usize_lim)%N -> aok (si_len (ms_items m)) (ms_alloc m) ->
    forall l, sit_len sz (mi_iter (mut_into_iter sz m)) = Ok l -> aok l (mi_alloc (mut_into_iter sz m)).
  Proof.
    intros Hr Hl Ha l. cbn [mut_into_iter mi_iter mi_alloc]. intros E. pose proof (sit_new_rel _ _ _ _ Hr Hl) as Hr'. rewrite (sit_len_rel _ _ _ _ Hr') in E. injection E as <-.
    destruct Hr as [_ <-]. exact Ha.
  Qed.
  Lemma iter_next_dle back d m d' m' o : iter_next sz back d m = Ok (d', m', o) ->
    dle d d' /\ forall l, sit_len sz (mi_iter m') = Ok l -> aok l (mi_alloc m').
  Proof.
    unfold iter_next. intros ([it x] & _ & E)%bind_inv. apply bind_inv in E as ([d1 item] & E1 & E).
    assert (dle d d1) as Hd.
    { destruct x as [p|]; [|injection E1 as <- <-; apply dle_refl]. apply bind_inv in E1 as ([d2 v] & E1 & [= <- <-]). by eapply mem_take_dle. }
    apply bind_inv in E as (l & El & E). destruct (N.eqb_spec l 0) as [->|Hne].
    - apply bind_inv in E as (d2 & E2 & [= <- <- <-]). apply alloc_release_dle in E2. split; [by eapply dle_trans|]. by intros l _ _.
    - injection E as <- <- <-. split; [done|]. cbn. rewrite El. intros l' [= <-] H0. done.
  Qed.
  Lemma iter_split_off_dle to d m i d' m1 m2 base r : iter_split_off sz to d m i = Ok (d', (m1, m2)) ->
    iter_rel sz base r (mi_iter m) -> (forall l, sit_len sz (mi_iter m) = Ok l -> aok l (mi_alloc m)) ->
    dle d d' /\ (forall l, sit_len sz (mi_iter m1) = Ok l -> aok l (mi_alloc m1)) /\ (forall l, sit_len sz (mi_iter m2) = Ok l -> aok l (mi_alloc m2)).
  Proof.
    intros E Hr Ha. unfold iter_split_off in E. destruct (N.le_gt_cases i (rg_len r)) as [Hi|Hi].
    2: { destruct (sit_split_panic sz _ _ _ _ Hr Hi) as [H1 H2]. destruct to; [rewrite H2 in E|rewrite H1 in E]; done. }
    destruct (sit_split_rel sz _ _ _ _ Hr Hi) as (p1 & p2 & H1 & H2 & R1 & R2).
    assert (exists q1 q2 r1 r2, (if to then sit_split_off_to sz (mi_iter m) i else sit_split_off_from sz (mi_iter m) i) = Ok (q1, q2) /\
      iter_rel sz base r1 q1 /\ iter_rel sz base r2 q2 /\ (rg_len r1 + rg_len r2 = rg_len r)%N) as (q1 & q2 & r1 & r2 & Hq & Q1 & Q2 & Hsum).
    { destruct to; [exists p2, p1|exists p1, p2]; eexists _, _; (split_and!; [done..|]); cbn; lia. }
    rewrite Hq in E. cbn [mbind res_bind] in E. rewrite (sit_len_rel _ _ _ _ Q1), (sit_len_rel _ _ _ _ Q2) in E. cbn [mbind res_bind] in E.
    specialize (Ha _ (sit_len_rel _ _ _ _ Hr)).
    destruct (N.eqb_spec (rg_len r1) 0) as [H0|Hne].
    - injection E as <- <- <-. cbn. rewrite (sit_len_rel _ _ _ _ Q2). split_and!; [apply dle_refl|by intros|]. intros l [= <-] H. apply Ha. lia.
    - destruct (N.ltb_spec 0 (rg_len r2)) as [Hp|Hp].
      + apply bind_inv in E as (d1 & E1 & [= <- <- <-]). cbn. rewrite (sit_len_rel _ _ _ _ Q1), (sit_len_rel _ _ _ _ Q2).
        apply alloc_clone_dle in E1. split_and!; [done|..]; intros l [= <-] H; lia.
      + injection E as <- <- <-. cbn. rewrite (sit_len_rel _ _ _ _ Q1). split_and!; [apply dle_refl| |by intros]. intros l [= <-] H. done.
  Qed.
  Definition paok (m : mutparts) : Prop := forall p l, sip_as_slice sz (mp_iter m) = Ok (p, l) -> aok l (mp_alloc m).
  Lemma mut_split_into_parts_aok base r m n mp : items_rel sz base r (ms_items m) -> (rg_len r < usize_lim)%N -> (n < usize_lim)%N ->
    mut_split_into_parts m n = Ok mp -> aok (si_len (ms_items m)) (ms_alloc m) -> paok mp.
  Proof.
    intros Hr Hl Hn E Ha. unfold mut_split_into_parts in E. destruct (log2_exact n) as [k|] eqn:Ek.
    2: { rewrite (sip_new_panic _ _ Ek) in E. done. }
    apply log2_exact_Some in Ek as ->. destruct (sip_new_ok sz _ _ _ k Hr Hl Hn) as (it & Eit & Rit). rewrite Eit in E. injection E as <-.
    intros p l. cbn. destruct (sip_as_slice_rel sz _ _ _ _ _ _ Rit) as (p' & -> & _). intros [= <- <-].
    unfold seg_rng. cbn. rewrite N.sub_0_r, off_end, off_0, N.sub_0_r. destruct Hr as [_ <-]. exact Ha.
  Qed.
  Lemma mparts_next_dle back d m d' m' o base r k f b : mparts_next sz back d m = Ok (d', m', o) ->
    sip_rel sz base r k f b (mp_iter m) -> paok m ->
    dle d d' /\ paok m' /\ match o with Some x => aok (si_len (ms_items x)) (ms_alloc x) | None => True end.
  Proof.
    intros E Hr Ha. unfold mparts_next in E. pose proof Hr as (_ & _ & _ & _ & _ & Hle & _ & _).
    assert (f + b = 2 ^ N.of_nat k \/ f + b < 2 ^ N.of_nat k)%N as [Hd|Hlt] by lia.
    - destruct (sip_next_none sz _ _ _ _ _ _ Hr Hd) as [H1 H2].
      assert ((if back then sip_next_back sz (mp_iter m) else sip_next sz (mp_iter m)) = Ok (mp_iter m, None)) as Hx by (by destruct back).
      rewrite Hx in E. cbn in E. injection E as <- <- <-. split_and!; [apply dle_refl| |done]. by destruct m.
    - assert (exists it' s f' b' x, (if back then sip_next_back sz (mp_iter m) else sip_next sz (mp_iter m)) = Ok (it', Some s) /\
        sip_rel sz base r k f' b' it' /\ items_rel sz base x s /\ (rg_len x + rg_len (seg_rng k r f' b') = rg_len (seg_rng k r f b))%N)
        as (it' & s & f' & b' & x & Hx & Hr' & Hs & Hsum).
      { destruct back.
        - destruct (sip_next_back_rel sz _ _ _ _ _ _ Hr Hlt) as (it' & s & E1 & E2 & E3). do 5 eexists. split_and!; [done..|].
          cbn. pose proof (off_mono k (rg_len r) f (2 ^ N.of_nat k - 1 - b)). pose proof (off_mono k (rg_len r) (2 ^ N.of_nat k - 1 - b) (2 ^ N.of_nat k - 1 - b + 1)).
          replace (2 ^ N.of_nat k - (b + 1))%N with (2 ^ N.of_nat k - 1 - b)%N by lia. replace (2 ^ N.of_nat k - 1 - b + 1)%N with (2 ^ N.of_nat k - b)%N in * by lia. lia.
        - destruct (sip_next_rel sz _ _ _ _ _ _ Hr Hlt) as (it' & s & E1 & E2 & E3). do 5 eexists. split_and!; [done..|].
          cbn. pose proof (off_mono k (rg_len r) f (f + 1)). pose proof (off_mono k (rg_len r) (f + 1) (2 ^ N.of_nat k - b)). lia. }
      rewrite Hx in E. cbn [mbind res_bind] in E. destruct (sip_as_slice_rel sz _ _ _ _ _ _ Hr') as (p & Hp & _). rewrite Hp in E. cbn [mbind res_bind] in E.
      destruct (sip_as_slice_rel sz _ _ _ _ _ _ Hr) as (p0 & Hp0 & _). specialize (Ha _ _ Hp0). pose proof (proj2 Hs) as El.
      destruct (N.eqb_spec (rg_len (seg_rng k r f' b')) 0) as [H0|Hne].
      + injection E as <- <- <-. split_and!; [apply dle_refl|by intros ?? _ _|]. cbn. intros H. apply Ha. lia.
      + destruct (N.ltb_spec 0 (si_len s)) as [Hpos|Hpos].
        * apply bind_inv in E as (d1 & E1 & [= <- <- <-]). apply alloc_clone_dle in E1. split_and!; [done|..].
          -- intros p1 l1. cbn. rewrite Hp. intros [= <- <-] H. done.
          -- cbn. intros H. lia.
        * injection E as <- <- <-. split_and!; [apply dle_refl|..]; [|done]. intros p1 l1. cbn. rewrite Hp. intros [= <- <-] H. done.
  Qed.
End tidy.
