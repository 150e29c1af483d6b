(** Proofs about [BinaryPartsIter] (BinPartsModel.v): its deque is always the
    canonical decomposition of the remaining leaves into maximal subtrees. *)
From Verif Require Import Base BaseLemmas SliceItemsModel BinPartsModel.
Local Open Scope N_scope.

(** ** Arithmetic loops *)
Lemma even_times_odd j m : N.even (2 ^ N.of_nat j * (2 * m + 1)) = match j with O => false | _ => true end.
Proof.
  destruct j.
  - change (2 ^ N.of_nat 0) with 1. rewrite N.mul_1_l.
    rewrite N.add_1_r, N.even_succ. rewrite <- N.negb_even, N.even_mul. reflexivity.
  - rewrite pow2_S, !N.even_mul. reflexivity.
Qed.
Lemma shr1_times_odd j m : shr1 (2 ^ N.of_nat (S j) * (2 * m + 1)) = 2 ^ N.of_nat j * (2 * m + 1).
Proof.
  rewrite shr1_div, pow2_S. rewrite <- N.mul_assoc, N.mul_comm. apply N.div_mul. lia.
Qed.

Lemma gp2f_loop_spec fuel : forall p j m, p * 2 ^ N.of_nat j < usize_lim -> (j < fuel)%nat ->
  gp2f_loop fuel p (2 ^ N.of_nat j * (2 * m + 1)) = Ok (p * 2 ^ N.of_nat j).
Proof.
  induction fuel as [|fuel IH]; intros p j m Hp Hf; [lia|].
  cbn [gp2f_loop]. rewrite land1_odd, even_times_odd. destruct j as [|j].
  - f_equal. change (2 ^ N.of_nat 0) with 1. lia.
  - rewrite pow2_S in Hp. pose proof (pow2_pos j).
    rewrite uadd_ok by nia. res_simpl. rewrite shr1_times_odd, IH by (try lia; nia).
    f_equal. rewrite pow2_S. lia.
Qed.
Lemma gp2f_spec j m : 2 ^ N.of_nat j * (2 * m + 1) < usize_lim ->
  greatest_power_of_2_factor (2 ^ N.of_nat j * (2 * m + 1)) = Ok (2 ^ N.of_nat j).
Proof.
  intros H. unfold greatest_power_of_2_factor. pose proof (pow2_pos j).
  rewrite gp2f_loop_spec; [f_equal; lia|nia|]. apply size_nat_gt. nia.
Qed.

Lemma log_loop_spec fuel : forall log j m, log + N.of_nat j < usize_lim -> (j < fuel)%nat ->
  bpi_log_loop fuel (2 ^ N.of_nat j * (2 * m + 1)) log = Ok (2 * m + 1, log + N.of_nat j).
Proof.
  induction fuel as [|fuel IH]; intros p j m Hp Hf; [lia|].
  cbn [bpi_log_loop]. rewrite land1_odd, even_times_odd. destruct j as [|j].
  - f_equal. change (2 ^ N.of_nat 0) with 1. f_equal; lia.
  - rewrite uadd_ok by lia. res_simpl. rewrite shr1_times_odd, IH by lia.
    do 2 f_equal. lia.
Qed.

Lemma shrink_to_spec fuel : forall j len, 0 < len -> (j <= fuel)%nat ->
  exists i, shrink_to fuel (2 ^ N.of_nat j) len = Ok (2 ^ N.of_nat i) /\ (i <= j)%nat /\
    2 ^ N.of_nat i <= len /\ (i = j \/ len < 2 ^ N.of_nat (S i)).
Proof.
  induction fuel as [|fuel IH]; intros j len Hl Hj.
  - assert (j = 0%nat) as -> by lia. cbn [shrink_to]. change (2 ^ N.of_nat 0) with 1.
    destruct (N.ltb_spec len 1); [lia|]. exists 0%nat. repeat split; auto; try lia.
  - cbn [shrink_to]. destruct (N.ltb_spec len (2 ^ N.of_nat j)) as [H|H].
    + destruct j as [|j]; [change (2 ^ N.of_nat 0) with 1 in H; lia|].
      rewrite shr1_pow2. destruct (IH j len) as (i & -> & ? & ? & ?); [lia..|].
      exists i. repeat split; try lia. right. destruct H2 as [->|]; done.
    + exists j. repeat split; auto.
Qed.

(** ** The canonical decomposition *)
Section cover.
  Context {A : Type} (lc rc : A -> A).

  (** The maximal subtrees of the tree [x] of height [k] none of whose leaves
      is among the first [f] or the last [b], left to right, with heights. *)
  Fixpoint cover (k : nat) (x : A) (f b : N) : list (A * nat) :=
    if (f =? 0) && (b =? 0) then [(x, k)] else
    match k with
    | O => []
    | S k' =>
        (if f <? 2 ^ N.of_nat k' then cover k' (lc x) f (b - 2 ^ N.of_nat k') else []) ++
        (if b <? 2 ^ N.of_nat k' then cover k' (rc x) (f - 2 ^ N.of_nat k') b else [])
    end.

  (** All leaves of [x] at depth [k]. *)
  Fixpoint leaves (k : nat) (x : A) : list A :=
    match k with O => [x] | S k => leaves k (lc x) ++ leaves k (rc x) end.
  Definition flat (q : list (A * nat)) : list A := q ≫= fun y => leaves (snd y) (fst y).
  Fixpoint leftmost (j : nat) (x : A) : A :=
    match j with O => x | S j => leftmost j (lc x) end.

  Lemma cover_00 k x : cover k x 0 0 = [(x, k)].
  Proof. destruct k; reflexivity. Qed.
  Lemma cover_nz k x f b : (f <> 0 \/ b <> 0) -> cover k x f b =
    match k with
    | O => []
    | S k' =>
        (if f <? 2 ^ N.of_nat k' then cover k' (lc x) f (b - 2 ^ N.of_nat k') else []) ++
        (if b <? 2 ^ N.of_nat k' then cover k' (rc x) (f - 2 ^ N.of_nat k') b else [])
    end.
  Proof.
    intros H. destruct k; cbn; destruct (N.eqb_spec f 0), (N.eqb_spec b 0); cbn; try reflexivity; lia.
  Qed.
  Lemma cover_10 j y : cover (S j) y 1 0 = cover j (lc y) 1 0 ++ [(rc y, j)].
  Proof.
    rewrite cover_nz by lia. pose proof (pow2_pos j).
    rewrite (proj2 (N.ltb_lt 0 _)) by lia.
    replace (1 - 2 ^ N.of_nat j) with 0 by lia. rewrite N.sub_0_l.
    rewrite (cover_00 _ (rc y)).
    destruct (N.ltb_spec 1 (2 ^ N.of_nat j)) as [?|H1]; [reflexivity|].
    destruct j; [reflexivity|]. rewrite pow2_S in H1. pose proof (pow2_pos j). lia.
  Qed.
  Lemma cover_full k x f b : f + b = 2 ^ N.of_nat k -> cover k x f b = [].
  Proof.
    revert x f b. induction k as [|k IH]; intros x f b H.
    - change (2 ^ N.of_nat 0) with 1 in H. rewrite cover_nz by lia. reflexivity.
    - rewrite pow2_S in H. pose proof (pow2_pos k). rewrite cover_nz by lia.
      destruct (N.ltb_spec f (2 ^ N.of_nat k)), (N.ltb_spec b (2 ^ N.of_nat k));
        rewrite ?IH by lia; try reflexivity; lia.
  Qed.

  Lemma cover_front k x f b : f + b < 2 ^ N.of_nat k ->
    exists y j rest, cover k x f b = (y, j) :: rest /\
      cover k x (f + 1) b = cover j y 1 0 ++ rest /\
      (j <= k)%nat /\
      (2 ^ N.of_nat j | 2 ^ N.of_nat k - f) /\
      2 ^ N.of_nat j <= 2 ^ N.of_nat k - f - b /\
      ~ ((2 ^ N.of_nat (S j) | 2 ^ N.of_nat k - f) /\ 2 ^ N.of_nat (S j) <= 2 ^ N.of_nat k - f - b).
  Proof.
    revert x f b. induction k as [|k IH]; intros x f b H.
    - change (2 ^ N.of_nat 0) with 1 in *. assert (f = 0) as -> by lia. assert (b = 0) as -> by lia.
      exists x, 0%nat, []. rewrite app_nil_r. split_and!; [done|done|done|by exists 1|done|].
      intros [_ H1]. change (2 ^ N.of_nat 1) with 2 in H1. lia.
    - destruct (decide (f = 0 /\ b = 0)) as [[-> ->]|Hnz].
      { exists x, (S k), []. rewrite cover_00, app_nil_r. split_and!; [done|done|done|exists 1; lia|lia|].
        intros [_ H1]. rewrite (pow2_S (S k)) in H1. lia. }
      rewrite pow2_S in H |- *. pose proof (pow2_pos k) as Hpos.
      rewrite (cover_nz (S k) x f b) by lia. rewrite (cover_nz (S k) x (f + 1) b) by lia.
      set (h := 2 ^ N.of_nat k) in *.
      destruct (N.ltb_spec f h) as [Hf|Hf].
      + destruct (IH (lc x) f (b - h)) as (y & j & rest & E1 & E2 & Hj & Hd & Hle & Hmax); [lia|].
        exists y, j, (rest ++ (if b <? h then cover k (rc x) (f - h) b else [])).
        rewrite E1. split; [reflexivity|]. split; [|split; [lia|split; [|split]]].
        * replace (f + 1 - h) with 0 by lia. replace (f - h) with 0 by lia.
          destruct (N.ltb_spec (f + 1) h) as [Hf1|Hf1].
          { rewrite E2, <- app_assoc. reflexivity. }
          { (* f + 1 = h : the left half is exhausted *)
            assert (b - h = 0 -> j = 0%nat /\ rest = []) as Hlast.
            { intros Hb. rewrite Hb in *.
              assert (h - f = 1) as Hone by lia. rewrite Hone in Hle.
              assert (j = 0%nat) as ->.
              { destruct j; [done|]. rewrite pow2_S in Hle. pose proof (pow2_pos j). lia. }
              split; [done|]. rewrite (cover_full k (lc x) (f + 1) 0) in E2 by lia.
              symmetry in E2. apply app_eq_nil in E2 as [_ ->]. done. }
            destruct (Hlast ltac:(lia)) as [-> ->]. reflexivity. }
        * destruct Hd as [c Hc]. destruct (pow2_divide j k Hj) as [c' Hc']. fold h in Hc'.
          exists (c + c'). rewrite N.mul_add_distr_r. lia.
        * lia.
        * intros [[c Hc] H2].
          destruct (Nat.eq_dec j k) as [->|Hjk].
          { rewrite pow2_S in H2. fold h in Hle, H2. lia. }
          assert (S j <= k)%nat as Hjk' by lia.
          destruct (pow2_divide (S j) k Hjk') as [c' Hc']. fold h in Hc'.
          apply Hmax. split.
          { exists (c - c'). rewrite N.mul_sub_distr_r. lia. }
          { destruct (N.le_gt_cases h b); [lia|].
            assert (2 ^ N.of_nat (S j) | h - f) as Hdd.
            { exists (c - c'). rewrite N.mul_sub_distr_r. lia. }
            apply N.divide_pos_le in Hdd; lia. }
      + rewrite (proj2 (N.ltb_ge (f + 1) h)) by lia.
        rewrite !(proj2 (N.ltb_lt b h)) by lia. cbn [app].
        destruct (IH (rc x) (f - h) b) as (y & j & rest & E1 & E2 & Hj & Hd & Hle & Hmax); [lia|].
        exists y, j, rest. rewrite E1. split; [reflexivity|].
        replace (f + 1 - h) with (f - h + 1) by lia. rewrite E2.
        replace (2 * h - f) with (h - (f - h)) by lia.
        split_and!; try done. lia.
  Qed.
End cover.

Lemma cover_rev {A} (lc rc : A -> A) k x f b :
  rev (cover lc rc k x f b) = cover rc lc k x b f.
Proof.
  revert x f b. induction k as [|k IH]; intros x f b.
  - cbn. rewrite andb_comm. destruct (_ && _); reflexivity.
  - cbn. rewrite (andb_comm (b =? 0)). destruct (_ && _); [reflexivity|].
    rewrite rev_app_distr. destruct (f <? _), (b <? _); cbn; rewrite ?IH; reflexivity.
Qed.
Lemma leaves_rev {A} (lc rc : A -> A) k x : rev (leaves lc rc k x) = leaves rc lc k x.
Proof.
  revert x. induction k as [|k IH]; intros x; [reflexivity|].
  cbn. by rewrite rev_app_distr, !IH.
Qed.

(** ** Sizes *)
Section cover_len.
  Context {A : Type}.

  Lemma cover_len_f (lc rc : A -> A) k x f : (length (cover lc rc k x f 0) <= Nat.max 1 k)%nat /\
    (f <> 0 -> (length (cover lc rc k x f 0) <= k)%nat).
  Proof.
    revert x f. induction k as [|k IH]; intros x f.
    - destruct (decide (f = 0)) as [->|]; [rewrite cover_00; cbn; lia|].
      rewrite cover_nz by lia. cbn. lia.
    - destruct (decide (f = 0)) as [->|]; [rewrite cover_00; cbn; lia|].
      rewrite cover_nz by lia. rewrite app_length, N.sub_0_l.
      rewrite (proj2 (N.ltb_lt 0 _)) by apply pow2_pos.
      destruct (N.ltb_spec f (2 ^ N.of_nat k)).
      + replace (f - 2 ^ N.of_nat k) with 0 by lia. rewrite cover_00.
        destruct (IH (lc x) f) as [_ ?]. cbn. lia.
      + destruct (IH (rc x) (f - 2 ^ N.of_nat k)) as [H1 H2].
        destruct (decide (f = 2 ^ N.of_nat k)) as [->|].
        * rewrite N.sub_diag, cover_00. cbn. lia.
        * specialize (H2 ltac:(lia)). cbn. lia.
  Qed.
  Lemma cover_len_b (lc rc : A -> A) k x b : (length (cover lc rc k x 0 b) <= Nat.max 1 k)%nat /\
    (b <> 0 -> (length (cover lc rc k x 0 b) <= k)%nat).
  Proof. rewrite <- rev_length, cover_rev. apply cover_len_f. Qed.
  Lemma cover_len (lc rc : A -> A) k x f b : (length (cover lc rc k x f b) <= Nat.max 1 (2 * k - 2))%nat.
  Proof.
    revert x f b. induction k as [|k IH]; intros x f b.
    - destruct (decide (f = 0 /\ b = 0)) as [[-> ->]|]; [rewrite cover_00; cbn; lia|].
      rewrite cover_nz by lia. cbn. lia.
    - destruct (decide (f = 0 /\ b = 0)) as [[-> ->]|]; [rewrite cover_00; cbn; lia|].
      rewrite cover_nz by lia. rewrite app_length.
      destruct (N.ltb_spec f (2 ^ N.of_nat k)) as [Hf|Hf], (N.ltb_spec b (2 ^ N.of_nat k)) as [Hb|Hb].
      + replace (b - 2 ^ N.of_nat k) with 0 by lia. replace (f - 2 ^ N.of_nat k) with 0 by lia.
        destruct (cover_len_b lc rc k (rc x) b) as [H1 H2].
        destruct (cover_len_f lc rc k (lc x) f) as [H3 H4].
        destruct (decide (f = 0)) as [->|]; destruct (decide (b = 0)) as [->|];
          rewrite ?cover_00 in *; cbn [length] in *; lia.
      + specialize (IH (lc x) f (b - 2 ^ N.of_nat k)). cbn [length]. lia.
      + specialize (IH (rc x) (f - 2 ^ N.of_nat k) b). cbn [length]. lia.
      + cbn. lia.
  Qed.
End cover_len.

(** ** The loops, with effects *)
Section loop.
  Context {S W A : Type} (lc rc : A -> A).
  Context (spl : W -> S -> res (W * (S * S))) (growf : N -> N).
  (** [I w ps]: in state [w], the slices held are those in [ps], and each is
      described by the [A] it is paired with. *)
  Context (I : W -> list (S * A) -> Prop).
  Hypothesis I_perm : forall w l l', l ≡ₚ l' -> I w l -> I w l'.
  Hypothesis I_split : forall w s a rest, I w ((s, a) :: rest) ->
    exists w' s' r, spl w s = Ok (w', (s', r)) /\ I w' ((r, lc a) :: (s', rc a) :: rest).

  Lemma loop_front_some j : forall fuel w ps F cap it y,
    (j < fuel)%nat -> I w ((it, y) :: ps ++ F) ->
    exists w' r ps' cap',
      bpi_loop_front spl growf fuel (2 ^ N.of_nat j) w (Deque (fst <$> ps) cap) (Some it)
        = Ok (w', Deque (fst <$> (ps' ++ ps)) cap', Some r) /\
      snd <$> ps' = fst <$> cover lc rc j y 1 0 /\
      I w' ((r, leftmost lc j y) :: (ps' ++ ps) ++ F) /\
      (N.of_nat (length ps + j) <= cap -> cap' = cap).
  Proof.
    induction j as [|j IH]; intros fuel w ps F cap it y Hf HI.
    - destruct fuel as [|fuel]; [lia|]. cbn [bpi_loop_front]. change (2 ^ N.of_nat 0) with 1. cbn.
      exists w, it, [], cap. cbn. auto.
    - destruct fuel as [|fuel]; [lia|]. cbn [bpi_loop_front].
      rewrite land1_odd, even_pow2_S. cbn [dq_push_front dq_items dq_cap].
      destruct (I_split _ _ _ _ HI) as (w' & s' & r & E & HI'). rewrite E. res_simpl.
      rewrite shr1_pow2.
      set (cap1 := if N.of_nat (length (fst <$> ps)) <? cap then cap else growf cap).
      assert (I w' ((r, lc y) :: ((s', rc y) :: ps) ++ F)) as HI'' by exact HI'.
      destruct (IH fuel w' ((s', rc y) :: ps) F cap1 r (lc y)) as (w2 & r2 & ps2 & cap2 & E2 & L2 & HI2 & C2);
        [lia|done|].
      change (s' :: (fst <$> ps)) with (fst <$> ((s', rc y) :: ps)).
      rewrite E2. exists w2, r2, (ps2 ++ [(s', rc y)]), cap2. split_and!.
      + by rewrite <- (app_assoc ps2).
      + rewrite cover_10, !fmap_app, L2. reflexivity.
      + by rewrite <- (app_assoc ps2).
      + intros Hc. assert (cap1 = cap) as Hc1.
        { unfold cap1. rewrite fmap_length. destruct (N.ltb_spec (N.of_nat (length ps)) cap); [done|lia]. }
        rewrite Hc1 in C2. apply C2. cbn [length]. lia.
  Qed.

  (** The loop entered with nothing in hand and a subtree of height [j] at the
      front of the deque. *)
  Lemma loop_front_none j fuel w s y ps F cap :
    (j < fuel)%nat -> I w ((s, y) :: ps ++ F) ->
    exists w' r ps' cap',
      (let '(w1, q1, o1) := (w', Deque (fst <$> (ps' ++ ps)) cap', r) in
       bpi_loop_front spl growf fuel (2 ^ N.of_nat j) w (Deque (fst <$> ((s, y) :: ps)) cap) None
        = if decide (j = 0%nat) then Ok (w, Deque (fst <$> ((s, y) :: ps)) cap, None) else Ok (w1, q1, Some o1)) /\
      snd <$> ps' = fst <$> cover lc rc j y 1 0 /\
      I w' ((r, leftmost lc j y) :: (ps' ++ ps) ++ F) /\
      (j = 0%nat -> w' = w /\ r = s /\ ps' = []) /\
      (N.of_nat (length ps + j) <= cap -> cap' = cap).
  Proof.
    intros Hf HI. destruct j as [|j].
    - exists w, s, [], cap. split_and!; try done.
      destruct fuel as [|fuel]; [lia|]. reflexivity.
    - destruct fuel as [|fuel]; [lia|]. cbn [bpi_loop_front].
      rewrite land1_odd, even_pow2_S. change (fst <$> ((s, y) :: ps)) with (s :: (fst <$> ps)).
      cbn [dq_items dq_cap].
      destruct (I_split _ _ _ _ HI) as (w' & s' & r & E & HI'). rewrite E. res_simpl.
      rewrite shr1_pow2.
      destruct (loop_front_some j fuel w' ((s', rc y) :: ps) F cap r (lc y)) as (w2 & r2 & ps2 & cap2 & E2 & L2 & HI2 & C2);
        [lia|done|].
      change (s' :: (fst <$> ps)) with (fst <$> ((s', rc y) :: ps)).
      rewrite E2. exists w2, r2, (ps2 ++ [(s', rc y)]), cap2. split_and!.
      + by rewrite <- (app_assoc ps2).
      + rewrite cover_10, !fmap_app, L2. reflexivity.
      + by rewrite <- (app_assoc ps2).
      + done.
      + intros Hc. apply C2. cbn [length]. lia.
  Qed.
End loop.

(** ** Mirror symmetry: [next_back] is [next] on the reversed deque with the
    roles of left and right exchanged. *)
Definition mirror_dq {S} (q : deque S) : deque S := Deque (rev (dq_items q)) (dq_cap q).
Definition mirror {S} (it : bpi S) : bpi S :=
  BPI (bp_num_parts it) (bp_back it) (bp_front it) (mirror_dq (bp_deque it)).

Lemma last_rev_cons {S} (x : S) l : last (rev (x :: l)) = Some x.
Proof. cbn. apply last_snoc. Qed.
Lemma removelast_rev_cons {S} (x : S) l : removelast (rev (x :: l)) = rev l.
Proof. cbn. apply removelast_last. Qed.

Section mirror.
  Context {S W : Type} (sp : W -> S -> res (W * (S * S))) (growf : N -> N).
  Lemma loop_back_mirror fuel : forall n w q item,
    bpi_loop_back sp growf fuel n w (mirror_dq q) item =
      match bpi_loop_front sp growf fuel n w q item with
      | Ok (w', q', o) => Ok (w', mirror_dq q', o)
      | Panic => Panic | UB => UB | NoFuel => NoFuel
      end.
  Proof.
    induction fuel as [|fuel IH]; intros n w [l cap] item; [reflexivity|].
    cbn [bpi_loop_back bpi_loop_front]. destruct (N.land n 1 =? 0); [|reflexivity].
    set (q1 := match item with Some it => dq_push_front growf (Deque l cap) it | None => Deque l cap end).
    assert (match item with Some it => dq_push_back growf (mirror_dq (Deque l cap)) it
            | None => mirror_dq (Deque l cap) end = mirror_dq q1) as ->.
    { unfold q1. destruct item; [|reflexivity]. unfold dq_push_back, mirror_dq. cbn.
      by rewrite rev_length. }
    clearbody q1. destruct q1 as [l1 cap1]. destruct l1 as [|s l1].
    - cbn [mirror_dq dq_items rev last]. rewrite <- IH. reflexivity.
    - change (dq_items (mirror_dq (Deque (s :: l1) cap1))) with (rev (s :: l1)).
      rewrite last_rev_cons, removelast_rev_cons. cbn [dq_items].
      destruct (sp w s) as [[w' [s' r]]| | |]; try reflexivity. res_simpl.
      rewrite <- IH. reflexivity.
  Qed.

  Lemma next_back_mirror dbg w it :
    bpi_next_back sp growf dbg w (mirror it) =
      match bpi_next sp growf dbg w it with
      | Ok (w', it', o) => Ok (w', mirror it', o)
      | Panic => Panic | UB => UB | NoFuel => NoFuel
      end.
  Proof.
    destruct it as [np f b [l cap]]. unfold bpi_next_back, bpi_next, mirror.
    cbn [bp_num_parts bp_front bp_back bp_deque dq_cap dq_items mirror_dq].
    assert (bpi_len (BPI np b f (mirror_dq (Deque l cap))) = bpi_len (BPI np f b (Deque l cap))) as E.
    { unfold bpi_len. cbn. unfold usub.
      destruct (N.leb_spec b np), (N.leb_spec f np); res_simpl; try reflexivity; unfold usub;
      destruct (N.leb_spec b (np - f)), (N.leb_spec f (np - b)); try reflexivity; try lia.
      f_equal. lia. }
    rewrite E. destruct (bpi_len (BPI np f b (Deque l cap))) as [len| | |]; try reflexivity.
    res_simpl. destruct (0 =? len); [reflexivity|].
    cbn [mirror_dq dq_items dq_cap]. rewrite rev_length. destruct (dbg && _); [reflexivity|].
    destruct (usub np f) as [m| | |]; try reflexivity. res_simpl.
    destruct (dbg && (m =? 0)); [reflexivity|].
    destruct (greatest_power_of_2_factor m) as [n| | |]; try reflexivity. res_simpl.
    destruct (shrink_to _ n len) as [n'| | |]; try reflexivity. res_simpl.
    rewrite loop_back_mirror.
    destruct (bpi_loop_front _ _ _ n' w _ None) as [[[w' q'] o]| | |]; try reflexivity.
    res_simpl. cbn [mirror_dq dq_cap].
    destruct (dbg && negb _); [reflexivity|].
    destruct (uadd f 1) as [f'| | |]; try reflexivity. res_simpl.
    destruct o as [s|]; [reflexivity|].
    destruct q' as [[|s l'] cap']; [reflexivity|].
    unfold dq_pop_back, dq_pop_front. cbn [mirror_dq dq_items].
    rewrite last_rev_cons, removelast_rev_cons. reflexivity.
  Qed.
End mirror.
Lemma mirror_mirror {S} (it : bpi S) : mirror (mirror it) = it.
Proof. destruct it as [np f b [l cap]]. unfold mirror, mirror_dq. cbn. by rewrite rev_involutive. Qed.

(** ** The iterator *)

(** Iterator [it] is over the tree [x] of height [k], [f] leaves have been taken
    from the front and [b] from the back, and the deque holds the slices [ps],
    paired with their descriptions. *)
Record bpi_rel {S A} (lc rc : A -> A) (it : bpi S) (ps : list (S * A)) (k : nat) (x : A) (f b : N) := {
  br_parts : bp_num_parts it = 2 ^ N.of_nat k;
  br_lim : 2 ^ N.of_nat k < usize_lim;
  br_front : bp_front it = f;
  br_back : bp_back it = b;
  br_le : f + b <= 2 ^ N.of_nat k;
  br_items : dq_items (bp_deque it) = fst <$> ps;
  br_cover : snd <$> ps = fst <$> cover lc rc k x f b
}.
(** Capacity needed for a tree of height [k]. *)
Definition needed_cap (k : nat) : N := N.of_nat (Nat.max 1 (2 * k - 2)).

Lemma bpi_rel_len {S A} lc rc (it : bpi S) (ps : list (S * A)) k x f b :
  bpi_rel lc rc it ps k x f b -> bpi_len it = Ok (2 ^ N.of_nat k - f - b).
Proof.
  intros []. unfold bpi_len. rewrite br_parts0, br_front0, br_back0.
  rewrite usub_ok by lia. res_simpl. rewrite usub_ok by lia. reflexivity.
Qed.

Lemma fmap_rev_eq {B C} (g : B -> C) l : g <$> rev l = rev (g <$> l).
Proof. induction l as [|x l IH]; [done|]. cbn [rev]. rewrite fmap_app, IH. reflexivity. Qed.
Lemma bpi_rel_mirror {S A} lc rc (it : bpi S) (ps : list (S * A)) k x f b :
  bpi_rel lc rc it ps k x f b -> bpi_rel rc lc (mirror it) (rev ps) k x b f.
Proof.
  intros []. constructor; try done; cbn.
  - lia.
  - rewrite br_items0. symmetry. apply fmap_rev_eq.
  - rewrite fmap_rev_eq, br_cover0, <- fmap_rev_eq. by rewrite cover_rev.
Qed.

Section next.
  Context {S W A : Type} (lc rc : A -> A).
  Context (growf : N -> N) (dbg : bool).
  Context (I : W -> list (S * A) -> Prop).
  Hypothesis I_perm : forall w l l', l ≡ₚ l' -> I w l -> I w l'.

  Lemma next_front_gen (lc' rc' : A -> A) spl w it ps k x f b F :
    (forall w s a rest, I w ((s, a) :: rest) ->
      exists w' s' r, spl w s = Ok (w', (s', r)) /\ I w' ((r, lc' a) :: (s', rc' a) :: rest)) ->
    bpi_rel lc' rc' it ps k x f b -> I w (ps ++ F) ->
    f + b < 2 ^ N.of_nat k ->
    (dbg = true -> needed_cap k <= dq_cap (bp_deque it)) ->
    exists w' it' r y j rest ps',
      cover lc' rc' k x f b = (y, j) :: rest /\
      cover lc' rc' k x (f + 1) b = cover lc' rc' j y 1 0 ++ rest /\
      bpi_next spl growf dbg w it = Ok (w', it', Some r) /\
      bpi_rel lc' rc' it' ps' k x (f + 1) b /\
      I w' ((r, leftmost lc' j y) :: ps' ++ F) /\
      (needed_cap k <= dq_cap (bp_deque it) -> dq_cap (bp_deque it') = dq_cap (bp_deque it)).
  Proof.
    intros Hsplit Hrel HI Hlt Hcap. pose proof (bpi_rel_len _ _ _ _ _ _ _ _ Hrel) as Hlen.
    destruct it as [np f0 b0 [items cap]].
    destruct Hrel as [Hp Hlim Hf Hb Hle Hit Hcov].
    cbn [bp_num_parts bp_front bp_back bp_deque dq_items dq_cap] in *. subst np f0 b0 items.
    destruct (cover_front lc' rc' k x f b Hlt) as (y & j & rest & E1 & E2 & Hj & Hd & Hjle & Hmax).
    destruct ps as [|[s a] ps]; [rewrite E1 in Hcov; done|].
    rewrite E1 in Hcov. cbn in Hcov. injection Hcov as -> Hcov.
    assert (length ps = length rest) as Hlps.
    { apply (f_equal length) in Hcov. by rewrite !fmap_length in Hcov. }
    unfold bpi_next. cbn [bp_num_parts bp_front bp_back bp_deque dq_items dq_cap].
    rewrite Hlen. res_simpl.
    destruct (N.eqb_spec 0 (2 ^ N.of_nat k - f - b)); [lia|].
    replace (N.of_nat (length (fst <$> ((s, y) :: ps))) =? 0) with false
      by (symmetry; apply N.eqb_neq; cbn; lia).
    rewrite andb_false_r. rewrite usub_ok by lia. res_simpl.
    replace (2 ^ N.of_nat k - f =? 0) with false by (symmetry; apply N.eqb_neq; lia).
    rewrite andb_false_r.
    destruct (pow2_odd_decomp (2 ^ N.of_nat k - f)) as (i & m & Hi); [lia|].
    rewrite Hi, gp2f_spec by lia. res_simpl.
    destruct (shrink_to_spec (N.size_nat (2 ^ N.of_nat i)) i (2 ^ N.of_nat k - f - b))
      as (i' & Ei' & Hi' & Hile & Hior); [lia|rewrite size_nat_pow2; lia|].
    rewrite Hi in Ei'. rewrite Ei'. res_simpl.
    assert (i' = j) as ->.
    { assert (j <= i')%nat.
      { destruct Hior as [->|Hior].
        - (* 2^j divides 2^i * odd *)
          destruct Hd as [c Hc]. rewrite Hi in Hc.
          destruct (Nat.le_gt_cases j i); [done|exfalso].
          assert (exists t, 2 ^ N.of_nat j = 2 ^ N.of_nat i * (2 * t)) as [t Ht].
          { exists (2 ^ N.of_nat (j - Datatypes.S i)). rewrite <- pow2_S, <- N.pow_add_r.
            f_equal. lia. }
          rewrite Ht in Hc. pose proof (pow2_pos i).
          assert (2 * m + 1 = c * (2 * t)) by nia. lia.
        - apply Nat.lt_succ_r. apply pow2_lt_inv. lia. }
      destruct (decide (i' = j)); [done|exfalso]. apply Hmax. split.
      - rewrite Hi. apply N.divide_mul_l. apply pow2_divide. lia.
      - etransitivity; [|exact Hile]. apply pow2_le_mono. lia. }
    destruct (loop_front_none lc' rc' spl growf I Hsplit j
                (Datatypes.S (N.size_nat (2 ^ N.of_nat j))) w s y ps F (cap))
      as (w' & r & ps' & cap' & El & Lp & HI' & H0 & Hc); [rewrite size_nat_pow2; lia|done|].
    cbv beta iota in El. rewrite El.
    assert (N.of_nat (length ps + j) <= needed_cap k) as Hneed.
    { unfold needed_cap.
      assert (length (cover lc' rc' k x (f + 1) b) <= Nat.max 1 (2 * k - 2))%nat as Hb1 by apply cover_len.
      assert (length (cover lc' rc' k x f b) <= Nat.max 1 (2 * k - 2))%nat as Hb2 by apply cover_len.
      rewrite E1 in Hb2. cbn [length] in Hb2. rewrite E2, app_length in Hb1.
      destruct j as [|j]; [lia|].
      assert (length (cover lc' rc' (Datatypes.S j) y 1 0) = Datatypes.S j) as Hlj.
      { clear. revert y. induction j as [|j IH]; intros y; [reflexivity|].
        rewrite cover_10, app_length, IH. cbn. lia. }
      lia. }
    exists w', (BPI (2 ^ N.of_nat k) (f + 1) b (Deque (fst <$> (ps' ++ ps)) (if decide (j = 0%nat) then cap else cap'))),
      r, y, j, rest, (ps' ++ ps).
    split; [done|]. split; [done|].
    assert (f + 1 < usize_lim) by lia.
    assert (bpi_rel lc' rc' (BPI (2 ^ N.of_nat k) (f + 1) b (Deque (fst <$> (ps' ++ ps)) (if decide (j = 0%nat) then cap else cap')))
              (ps' ++ ps) k x (f + 1) b) as Hrel'.
    { constructor; cbn; try done; try lia. rewrite E2, !fmap_app, Lp, Hcov. done. }
    destruct (decide (j = 0%nat)) as [->|Hj0].
    - destruct (H0 eq_refl) as (-> & -> & ->). res_simpl. cbn [dq_cap].
      rewrite N.eqb_refl. cbn [negb]. rewrite andb_false_r.
      rewrite uadd_ok by done. res_simpl. cbn. split_and!; try done.
    - res_simpl. cbn [dq_cap]. 
      assert (dbg && negb (cap =? cap') = false) as ->.
      { destruct dbg; [|done]. cbn. rewrite Hc, N.eqb_refl; [done|].
        specialize (Hcap eq_refl). lia. }
      rewrite uadd_ok by done. res_simpl. cbn. split_and!; try done.
      intros Hn. apply Hc. lia.
  Qed.

  Lemma next_done spl (w : W) it (ps : list (S * A)) k x f b :
    bpi_rel lc rc it ps k x f b -> f + b = 2 ^ N.of_nat k ->
    bpi_next spl growf dbg w it = Ok (w, it, None).
  Proof.
    intros Hrel He. unfold bpi_next. rewrite (bpi_rel_len _ _ _ _ _ _ _ _ Hrel). res_simpl.
    replace (2 ^ N.of_nat k - f - b) with 0 by lia. reflexivity.
  Qed.
  Lemma next_back_done spr (w : W) it (ps : list (S * A)) k x f b :
    bpi_rel lc rc it ps k x f b -> f + b = 2 ^ N.of_nat k ->
    bpi_next_back spr growf dbg w it = Ok (w, it, None).
  Proof.
    intros Hrel He. unfold bpi_next_back. rewrite (bpi_rel_len _ _ _ _ _ _ _ _ Hrel). res_simpl.
    replace (2 ^ N.of_nat k - f - b) with 0 by lia. reflexivity.
  Qed.

  Lemma next_back_gen spr w it ps k x f b F :
    (forall w s a rest, I w ((s, a) :: rest) ->
      exists w' s' r, spr w s = Ok (w', (s', r)) /\ I w' ((r, rc a) :: (s', lc a) :: rest)) ->
    bpi_rel lc rc it ps k x f b -> I w (ps ++ F) ->
    f + b < 2 ^ N.of_nat k ->
    (dbg = true -> needed_cap k <= dq_cap (bp_deque it)) ->
    exists w' it' r y j rest ps',
      cover lc rc k x f b = rest ++ [(y, j)] /\
      cover lc rc k x f (b + 1) = rest ++ cover lc rc j y 0 1 /\
      bpi_next_back spr growf dbg w it = Ok (w', it', Some r) /\
      bpi_rel lc rc it' ps' k x f (b + 1) /\
      I w' ((r, leftmost rc j y) :: ps' ++ F) /\
      (needed_cap k <= dq_cap (bp_deque it) -> dq_cap (bp_deque it') = dq_cap (bp_deque it)).
  Proof.
    intros Hsplit Hrel HI Hlt Hcap. apply bpi_rel_mirror in Hrel.
    destruct (next_front_gen rc lc spr w (mirror it) (rev ps) k x b f F)
      as (w' & it' & r & y & j & rest & ps' & E1 & E2 & En & Hrel' & HI' & Hc); try done.
    { eapply I_perm; [|exact HI]. apply Permutation_app_tail. apply Permutation_rev. }
    { lia. }
    exists w', (mirror it'), r, y, j, (rev rest), (rev ps'). split_and!.
    - apply (f_equal (@rev _)) in E1. rewrite cover_rev in E1. rewrite E1. reflexivity.
    - apply (f_equal (@rev _)) in E2. rewrite cover_rev, rev_app_distr, cover_rev in E2. done.
    - rewrite <- (mirror_mirror it). rewrite next_back_mirror, En. done.
    - by apply bpi_rel_mirror.
    - eapply I_perm; [|exact HI']. apply perm_skip, Permutation_app_tail. apply Permutation_rev.
    - exact Hc.
  Qed.
End next.

(** ** Construction *)
Lemma bpi_new_ok {S A} lc rc capf growf (s : S) (x : A) k :
  2 ^ N.of_nat k < usize_lim ->
  exists it, bpi_new capf growf s (2 ^ N.of_nat k) = Ok it /\
    bpi_rel lc rc it [(s, x)] k x 0 0 /\
    ((forall n, n <= capf n) -> needed_cap k <= dq_cap (bp_deque it)).
Proof.
  intros Hk. unfold bpi_new. pose proof (pow2_pos k).
  destruct (N.eqb_spec (2 ^ N.of_nat k) 0); [lia|].
  assert (N.of_nat k < usize_lim).
  { etransitivity; [|exact Hk]. apply N.pow_gt_lin_r. lia. }
  pose proof (log_loop_spec (N.size_nat (2 ^ N.of_nat k)) 0 k 0) as El.
  rewrite N.mul_0_r, N.add_0_l, N.mul_1_r, N.add_0_l in El.
  rewrite El; [|done|rewrite size_nat_pow2; lia]. res_simpl. cbn [negb N.eqb Pos.eqb].
  assert ((if N.of_nat k <=? 1 then Ok 1 else a ← uadd (N.of_nat k) (N.of_nat k); usub a 2) = Ok (needed_cap k)) as ->.
  { unfold needed_cap. destruct (N.leb_spec (N.of_nat k) 1).
    - f_equal. lia.
    - rewrite uadd_ok.
      + res_simpl. rewrite usub_ok by lia. f_equal. lia.
      + assert (k < 64)%nat.
        { apply pow2_lt_inv. exact Hk. }
        unfold usize_lim. change (2 ^ 64) with 18446744073709551616. lia. }
  res_simpl. eexists. split; [reflexivity|]. split.
  - constructor; cbn; try done; try lia. by rewrite cover_00.
  - intros Hcapf. unfold dq_push_front. cbn. specialize (Hcapf (needed_cap k)).
    assert (0 < needed_cap k) by (unfold needed_cap; lia).
    destruct (N.ltb_spec 0 (capf (needed_cap k))); lia.
Qed.

Lemma bpi_new_panic {S} capf growf (s : S) n :
  (forall k, n <> 2 ^ N.of_nat k) -> n < usize_lim -> bpi_new capf growf s n = Panic.
Proof.
  intros Hn Hlim. unfold bpi_new. destruct (N.eqb_spec n 0); [done|].
  destruct (pow2_odd_decomp n) as (j & m & ->); [lia|].
  pose proof (pow2_pos j).
  assert (j < 64)%nat.
  { apply pow2_lt_inv. change (N.of_nat 64) with 64. fold usize_lim. nia. }
  rewrite log_loop_spec; [|unfold usize_lim; change (2 ^ 64) with 18446744073709551616; lia|apply size_nat_gt; nia].
  res_simpl. destruct (N.eqb_spec (2 * m + 1) 1); [|done].
  exfalso. apply (Hn j). assert (m = 0) as -> by lia. lia.
Qed.

(** ** Leaves *)
Section leaves.
  Context {A : Type} (lc rc : A -> A).
  Lemma leaves_length k x : N.of_nat (length (leaves lc rc k x)) = 2 ^ N.of_nat k.
  Proof.
    revert x. induction k as [|k IH]; intros x; [reflexivity|].
    cbn [leaves]. rewrite app_length, Nat2N.inj_add, !IH, pow2_S. lia.
  Qed.
  Lemma flat_app q1 q2 : flat lc rc (q1 ++ q2) = flat lc rc q1 ++ flat lc rc q2.
  Proof. unfold flat. apply bind_app. Qed.
  (** The remaining leaves are those between the [f] first and the [b] last. *)
  Lemma flat_cover k x f b : f + b <= 2 ^ N.of_nat k ->
    flat lc rc (cover lc rc k x f b) =
      take (N.to_nat (2 ^ N.of_nat k - f - b)) (drop (N.to_nat f) (leaves lc rc k x)).
  Proof.
    revert x f b. induction k as [|k IH]; intros x f b H.
    - change (2 ^ N.of_nat 0) with 1 in *.
      destruct (decide (f = 0 /\ b = 0)) as [[-> ->]|]; [reflexivity|].
      rewrite cover_nz by lia. replace (1 - f - b) with 0 by lia. reflexivity.
    - destruct (decide (f = 0 /\ b = 0)) as [[-> ->]|].
      { rewrite cover_00. cbn [N.to_nat drop]. rewrite drop_0, take_ge.
        - unfold flat. cbn. by rewrite app_nil_r.
        - pose proof (leaves_length (S k) x). lia. }
      rewrite cover_nz by lia. rewrite flat_app. rewrite pow2_S in *.
      set (h := 2 ^ N.of_nat k) in *.
      pose proof (leaves_length k (lc x)) as L1. pose proof (leaves_length k (rc x)) as L2. fold h in L1, L2.
      cbn [leaves]. destruct (N.ltb_spec f h) as [Hf|Hf].
      + rewrite drop_app_le by lia.
        destruct (N.ltb_spec b h) as [Hb|Hb].
        * rewrite !IH by lia. replace (b - h) with 0 by lia. replace (f - h) with 0 by lia.
          rewrite take_app_ge by (rewrite drop_length; lia).
          rewrite take_ge by (rewrite drop_length; lia). f_equal.
          rewrite drop_length. change (N.to_nat 0) with 0%nat. rewrite drop_0. f_equal. lia.
        * rewrite IH by lia. rewrite take_app_le by (rewrite drop_length; lia).
          replace (h - f - (b - h)) with (2 * h - f - b) by lia. unfold flat at 1. cbn. by rewrite app_nil_r.
      + rewrite drop_app_ge by lia. unfold flat at 1. cbn [mbind list_bind app].
        destruct (N.ltb_spec b h) as [Hb|Hb].
        * rewrite IH by lia. f_equal; [lia|]. f_equal. lia.
        * replace (2 * h - f - b) with 0 by lia. reflexivity.
  Qed.
  Lemma leaves_nonempty j x : exists l, leaves lc rc j x = leftmost lc j x :: l.
  Proof.
    revert x. induction j as [|j IH]; intros x; [by exists []|].
    cbn. destruct (IH (lc x)) as [l ->]. eauto.
  Qed.
End leaves.
