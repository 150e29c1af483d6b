(** Debug assertions never fire, as long as no parts iterator is cloned. *)
From Verif Require Import Base Api BaseLemmas SliceItemsModel BinPartsModel DataModel RcModel Spec SliceItemsProof BinPartsProof
  DataInv DataSteps DataFuns GuardInv GuardSteps GuardFuns RelInv RelOps RelMut RelParts Refine Observe Facts SpecTheory Frame Views RcTheory ShareTheory.

Section next.
  Context {S W : Type} (spl : W -> S -> res (W * (S * S))) (growf : N -> N).
  Lemma next_dbg w it x : bpi_next spl growf true w it = Ok x -> bpi_next spl growf false w it = Ok x.
  Proof.
    unfold bpi_next. destruct (bpi_len it) as [l| | |]; cbn [mbind res_bind]; try done. destruct (0 =? l)%N; [done|]. cbn [andb].
    destruct (_ =? 0)%N; [done|]. destruct (usub _ _) as [m| | |]; cbn [mbind res_bind]; try done. destruct (m =? 0)%N; [done|].
    destruct (greatest_power_of_2_factor _) as [n| | |]; cbn [mbind res_bind]; try done. destruct (shrink_to _ _ _) as [n'| | |]; cbn [mbind res_bind]; try done.
    destruct (bpi_loop_front _ _ _ _ _ _ _) as [[[w' q] i]| | |]; cbn [mbind res_bind]; try done. by destruct (negb _).
  Qed.
  Lemma next_back_dbg w it x : bpi_next_back spl growf true w it = Ok x -> bpi_next_back spl growf false w it = Ok x.
  Proof.
    unfold bpi_next_back. destruct (bpi_len it) as [l| | |]; cbn [mbind res_bind]; try done. destruct (0 =? l)%N; [done|]. cbn [andb].
    destruct (_ =? 0)%N; [done|]. destruct (usub _ _) as [m| | |]; cbn [mbind res_bind]; try done. destruct (m =? 0)%N; [done|].
    destruct (greatest_power_of_2_factor _) as [n| | |]; cbn [mbind res_bind]; try done. destruct (shrink_to _ _ _) as [n'| | |]; cbn [mbind res_bind]; try done.
    destruct (bpi_loop_back _ _ _ _ _ _ _) as [[[w' q] i]| | |]; cbn [mbind res_bind]; try done. by destruct (negb _).
  Qed.
End next.

Section debug.
  Context {V : Type} (cf : cfg V).
  Notation sz := (c_sz cf).
  Notation rel := (rel (c_sz cf)).
  Implicit Types (w : world V) (a : astate V) (o : op V) (h : nat) (ops : list (op V)).

  (** The capacity of a parts iterator over [2^k] parts suffices. *)
  Definition cap_ok (x : option handle) : Prop :=
    match x with
    | Some (HParts it) => forall k, bp_num_parts it = (2 ^ N.of_nat k)%N -> (needed_cap k <= dq_cap (bp_deque it))%N
    | _ => True
    end.
  Definition caps_ok w : Prop := Forall cap_ok (w_h w).

  Lemma parts_next_dbg (s : dworld V * gworld) T X it q (back : bool) k0 : cinv sz s T (pps it q :: X) -> bp_num_parts it = (2 ^ N.of_nat k0)%N ->
    (needed_cap k0 <= dq_cap (bp_deque it))%N ->
    exists s' it' (oo : option rcslice), (if back then parts_next_back sz (c_growf cf) true s it else parts_next sz (c_growf cf) true s it) = Ok (s', it', oo) /\
      (if back then parts_next_back sz (c_growf cf) false s it else parts_next sz (c_growf cf) false s it) = Ok (s', it', oo) /\
      bp_num_parts it' = bp_num_parts it /\ dq_cap (bp_deque it') = dq_cap (bp_deque it).
  Proof.
    intros C Hk0 Hcap. destruct (cinv_unpack _ _ _ _ _ _ C) as (k & x & f & b & ps & Hrel & -> & Hx & C1).
    assert (k0 = k) as ->.
    { pose proof (br_parts _ _ _ _ _ _ _ _ Hrel) as E. rewrite Hk0 in E. apply N.pow_inj_r in E; lia. }
    assert (pinv sz s T X s (ps ++ [])) as HI by (rewrite app_nil_r; split; [done|by apply same_sub]).
    pose proof (br_le _ _ _ _ _ _ _ _ Hrel) as Hle.
    assert (exists s' it' (oo : option rcslice), (if back then parts_next_back sz (c_growf cf) true s it else parts_next sz (c_growf cf) true s it) = Ok (s', it', oo) /\
      bp_num_parts it' = bp_num_parts it /\ dq_cap (bp_deque it') = dq_cap (bp_deque it)) as (s' & it' & oo & E & H1 & H2).
    { destruct (decide (f + b = 2 ^ N.of_nat k)%N) as [Heq|Hne].
      { exists s, it, None. split; [|done]. destruct back.
        - by eapply next_back_done.
        - by eapply next_done. }
      destruct back.
      - destruct (next_back_gen (lhf T) (lht T) (c_growf cf) true (pinv sz s T X) (pinv_perm sz s T X) (rcs_split_off_right sz) s it ps k x f b []) as (s' & it' & r & y & j & rest & ps' & Ec & Ec' & E & Hrel' & HI' & Hcap'); try done.
        { intros w s1 a rest HIw. destruct (pinv_split sz true _ _ _ _ _ _ _ HIw) as (s' & r1 & r2 & E & HI'). exists s', r1, r2. split; [done|]. exact HI'. }
        { lia. }
        exists s', it', (Some r). split; [exact E|]. split; [|by apply Hcap'].
        by rewrite (br_parts _ _ _ _ _ _ _ _ Hrel), (br_parts _ _ _ _ _ _ _ _ Hrel').
      - destruct (next_front_gen (c_growf cf) true (pinv sz s T X) (lhf T) (lht T) (rcs_split_off_left sz) s it ps k x f b []) as (s' & it' & r & y & j & rest & ps' & Ec & Ec' & E & Hrel' & HI' & Hcap'); try done.
        { intros w s1 a rest HIw. destruct (pinv_split sz false _ _ _ _ _ _ _ HIw) as (s' & r1 & r2 & E & HI'). exists s', r1, r2. split; [done|]. exact HI'. }
        { lia. }
        exists s', it', (Some r). split; [exact E|]. split; [|by apply Hcap'].
        by rewrite (br_parts _ _ _ _ _ _ _ _ Hrel), (br_parts _ _ _ _ _ _ _ _ Hrel'). }
    exists s', it', oo. split_and!; try done. destruct back; [by apply next_back_dbg|by apply next_dbg].
  Qed.

  Lemma get_h_in w h x : get_h w h = Some x -> Some x ∈ w_h w.
  Proof. unfold get_h. destruct (w_h w !! h) as [[y|]|] eqn:E; try done. intros [= ->]. by eapply elem_of_list_lookup_2. Qed.
  Lemma parts_pair w a h it : rel w a -> get_h w h = Some (HParts it) ->
    exists q X, cinv sz (w_d w, w_g w) (as_trees a) (pps it q :: X) /\ exists k, bp_num_parts it = (2 ^ N.of_nat k)%N /\ (length (dq_items (bp_deque it)) <= N.to_nat (needed_cap k))%nat.
  Proof.
    intros R Hg. destruct (proj1 (kind_parts cf w a h R) (ex_intro _ it Hg)) as [q Hx].
    destruct (one_pair _ _ _ R _ _ Hx) as (p & X & Ha & Hc & C). rewrite Hg in Hc. injection Hc as Hc.
    assert (hp_o p = []) as Ho.
    { destruct C as (L & LI & LG & _ & _ & F). apply Forall_cons in F as [F _]. unfold hrel in F. rewrite <- Hc, Ha in F. by destruct F. }
    destruct p as [pc pa po]. cbn in *. subst. exists q, X. split; [done|].
    destruct (cinv_unpack _ _ _ _ _ _ C) as (k & x & f & b & ps & Hrel & -> & _). exists k. split; [by apply (br_parts _ _ _ _ _ _ _ _ Hrel)|].
    rewrite (br_items _ _ _ _ _ _ _ _ Hrel), fmap_length. pose proof (br_cover _ _ _ _ _ _ _ _ Hrel) as E. apply (f_equal length) in E. rewrite !fmap_length in E. rewrite E.
    unfold needed_cap. rewrite Nat2N.id. apply cover_len.
  Qed.

  Local Ltac caps := repeat match goal with
    | |- Forall cap_ok (_ ++ _) => apply Forall_app; split
    | |- Forall cap_ok (<[_ := _]> _) => apply Forall_insert
    | |- Forall cap_ok [_] => apply Forall_singleton
    | |- cap_ok (Some (HParts _)) => assumption
    | |- cap_ok _ => exact I
    | H : Forall cap_ok _ |- Forall cap_ok _ => exact H
    end.
  Hypothesis Hcapf : forall n, (n <= c_capf cf n)%N.
  Lemma dstep_same w a o : rel w a -> caps_ok w -> match o with OClone h => ~ is_parts w h | _ => True end ->
    dstep cf w o = rstep cf w o /\ forall w' r, rstep cf w o = Ok (w', r) -> caps_ok w'.
  Proof.
    intros R Hc Ho. 
    assert (dstep cf w o = rstep cf w o) as Heq.
    { destruct o as [base vals|base vals| |h|h base|side h|side h|h n|h|h i v|h|h|h|h|h|h|h i v|h|b h|to h i|h]; try done.
      unfold dstep, rstep. cbn [step]. destruct (get_h w h) as [[]|] eqn:Hg; try done.
      destruct (parts_pair _ _ _ _ R Hg) as (q & X & C & k & Hk & _). pose proof (get_h_in _ _ _ Hg) as Hin.
      unfold caps_ok in Hc. rewrite Forall_forall in Hc. specialize (Hc _ Hin k Hk).
      destruct (parts_next_dbg _ _ _ _ _ b k C Hk Hc) as (s' & it' & oo & E1 & E2 & _). by rewrite E1, E2. }
    split; [done|]. clear Heq. intros w' r E. unfold caps_ok in *. unfold rstep in E.
    assert (forall hs h y, Forall cap_ok hs -> cap_ok y -> Forall cap_ok (<[h := y]> hs)) as Hins by (intros; by apply Forall_insert).
    assert (forall hs y, Forall cap_ok hs -> cap_ok y -> Forall cap_ok (hs ++ [y])) as Happ by (intros; apply Forall_app; split; [done|by constructor]).
    destruct o as [base vals|base vals| |h|h base|side h|side h|h n|h|h i v|h|h|h|h|h|h|h i v|h|b h|to h i|h]; cbn [step] in E; unfold ret_new, ret_slice, ret_replace, ret in E.
    all: try (repeat (first
      [ match type of E with (?m ≫= _) = Ok _ => destruct m as [?| | |] eqn:?; cbn [mbind res_bind] in E; try done end
      | match type of E with (match ?m with _ => _ end) = Ok _ => destruct m eqn:?; try done end
      | match type of E with (let '_ := ?m in _) = Ok _ => destruct m eqn:?; try done end ]);
      simplify_eq; cbn [w_h] in *; caps; fail).
    - (* OClone *) destruct (get_h w h) as [[]|] eqn:Hg; try done.
      + destruct (rcs_clone _ _) as [[? ?]| | |]; try done. injection E as <- <-. cbn. caps.
      + destruct (weak_clone _ _) as [?| | |]; try done. injection E as <- <-. cbn. caps.
      + exfalso. apply Ho. by eexists.
      + by injection E as <- <-.
      + by injection E as <- <-.
      + by injection E as <- <-.
      + by injection E as <- <-.
    - (* parts *) destruct (N.ltb_spec n usize_lim) as [Hn|]; cbn [negb] in E; [|by injection E as <- <-]. destruct (get_h w h) as [[]|] eqn:Hg.
      + destruct (bpi_new _ _ _ _) as [it| | |] eqn:En; try done.
        * injection E as <- <-. cbn. apply Happ; [by apply Hins|]. cbn. intros k Hk.
          assert (n = bp_num_parts it) as ->.
          { unfold bpi_new in En. destruct (n =? 0)%N; [done|]. destruct (bpi_log_loop _ _ _) as [[? ?]| | |]; try done. cbn [mbind res_bind] in En.
            destruct (negb _); [done|]. match type of En with (?m ≫= _) = _ => destruct m as [?| | |] end; try done. cbn [mbind res_bind] in En. by injection En as <-. }
          rewrite Hk in En, Hn. destruct (bpi_new_ok (A:=nat) id id (c_capf cf) (c_growf cf) s 0 k Hn) as (it' & E' & _ & Hc'). rewrite En in E'. injection E' as <-. by apply Hc'.
        * destruct (rcs_drop _ _ _) as [?| | |]; try done. injection E as <- <-. cbn. by apply Hins.
      + by injection E as <- <-.
      + by injection E as <- <-.
      + destruct (mut_split_into_parts _ _) as [it| | |] eqn:En; try done.
        * injection E as <- <-. cbn. apply Happ; [by apply Hins|]. done.
        * destruct (mut_drop _ _ _) as [?| | |]; try done. injection E as <- <-. cbn. by apply Hins.
      + by injection E as <- <-.
      + by injection E as <- <-.
      + by injection E as <- <-.
    - (* next *) destruct (get_h w h) as [[]|] eqn:Hg; try done.
      + by injection E as <- <-.
      + by injection E as <- <-.
      + destruct (parts_pair _ _ _ _ R Hg) as (q & X & C & k & Hk & _). pose proof (get_h_in _ _ _ Hg) as Hin.
        pose proof Hc as Hc'. rewrite Forall_forall in Hc'. specialize (Hc' _ Hin k Hk).
        destruct (parts_next_dbg _ _ _ _ _ b k C Hk Hc') as (s' & it' & oo & _ & E2 & Hn & Hcap). rewrite E2 in E. cbn [mbind res_bind] in E.
        assert (cap_ok (Some (HParts it'))) as Hok. { cbn. intros k' Hk'. rewrite Hcap. apply (Forall_forall cap_ok (w_h w)) with (x := Some (HParts it)) in Hc; [|done]. apply Hc. congruence. }
        destruct oo; injection E as <- <-; cbn; caps.
      + by injection E as <- <-.
      + destruct (iter_next _ _ _) as [[[? ?] ?]| | |]; try done. injection E as <- <-. cbn. caps.
      + destruct (mparts_next _ _ _) as [[[? ?] [?|]]| | |]; try done; injection E as <- <-; cbn; caps.
      + by injection E as <- <-.
  Qed.

  Lemma drun_same ops : forall w a, rel w a -> caps_ok w -> no_parts_clone cf w ops ->
    drun cf w ops = rrun cf w ops /\ forall w1 outs, rrun cf w ops = Ok (w1, outs) -> caps_ok w1.
  Proof.
    induction ops as [|o ops IH]; intros w a R Hc Ho; [by split; [|intros w1 outs [= <- _]]|]. destruct Ho as [Ho1 Ho2]. destruct (dstep_same w a o R Hc Ho1) as [E Hc'].
    destruct (rstep_spec cf w a o R) as (w1 & Er & R1). rewrite Er in Ho2. destruct (IH w1 _ R1 (Hc' _ _ Er) Ho2) as [Eq Hq].
    change (drun cf w (o :: ops)) with ('(w1, r) ← dstep cf w o; '(w2, rs) ← drun cf w1 ops; Ok (w2, r :: rs)).
    change (rrun cf w (o :: ops)) with ('(w1, r) ← rstep cf w o; '(w2, rs) ← rrun cf w1 ops; Ok (w2, r :: rs)).
    rewrite E, Er. cbn [mbind res_bind]. rewrite Eq. split; [done|]. intros w2 outs E2. destruct (rrun cf w1 ops) as [[w3 rs]| | |]; try done.
    cbn [mbind res_bind] in E2. injection E2 as <- _. by eapply Hq.
  Qed.
  Lemma caps_empty : caps_ok empty_world.
  Proof. constructor. Qed.

  (** C22 *)
  Lemma no_realloc ops : no_parts_clone cf empty_world ops ->
    drun cf empty_world ops = rrun cf empty_world ops /\
    forall w, reach cf ops w -> forall h it, get_h w h = Some (HParts it) ->
      (N.of_nat (length (dq_items (bp_deque it))) <= dq_cap (bp_deque it))%N /\
      forall b w' r, rstep cf w (ONext b h) = Ok (w', r) ->
        exists it', get_h w' h = Some (HParts it') /\ dq_cap (bp_deque it') = dq_cap (bp_deque it).
  Proof.
    intros Ho. destruct (drun_same ops _ _ (rel_empty _) caps_empty Ho) as [E Hc]. split; [done|]. intros w Hw h it Hg.
    pose proof Hw as [outs Hr]. pose proof (Hc _ _ Hr) as Hcw. pose proof (reach_rel _ _ _ Hw) as R.
    destruct (parts_pair _ _ _ _ R Hg) as (q & X & C & k & Hk & Hl). pose proof (get_h_in _ _ _ Hg) as Hin.
    unfold caps_ok in Hcw. rewrite Forall_forall in Hcw. pose proof (Hcw _ Hin k Hk) as Hcap. split; [lia|].
    intros b w' r Es. destruct (parts_next_dbg _ _ _ _ _ b k C Hk Hcap) as (s' & it' & oo & _ & E2 & Hn & Hcap').
    unfold rstep in Es. cbn [step] in Es. rewrite Hg, E2 in Es. cbn [mbind res_bind] in Es. exists it'. split; [|done].
    assert (h < length (w_h w))%nat as Hlt. { unfold get_h in Hg. destruct (w_h w !! h) eqn:El; [|done]. by eapply lookup_lt_Some. }
    unfold ret_new, ret in Es. destruct oo; injection Es as <- _; unfold get_h; cbn [w_h].
    - rewrite lookup_app_l by (by rewrite insert_length). by rewrite list_lookup_insert.
    - by rewrite list_lookup_insert.
  Qed.
End debug.
