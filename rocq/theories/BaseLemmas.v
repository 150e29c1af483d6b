(** Lemmas about Base.v: arithmetic, heaps, counting. *)
From Verif Require Import Base.

Global Arguments usize_lim : simpl never.

Ltac res_simpl := cbn [mbind mret res_bind res_ret] in *.

(** ** usize arithmetic *)
Lemma shr1_div n : shr1 n = (n / 2)%N.
Proof. unfold shr1. rewrite N.shiftr_div_pow2. reflexivity. Qed.
Lemma shr1_le n : (shr1 n <= n)%N.
Proof. rewrite shr1_div. apply N.div_le_upper_bound; lia. Qed.
Lemma shr1_pow2 k : shr1 (2 ^ N.of_nat (S k)) = (2 ^ N.of_nat k)%N.
Proof.
  rewrite shr1_div, Nat2N.inj_succ, N.pow_succ_r'. rewrite N.mul_comm.
  apply N.div_mul. lia.
Qed.
Lemma pow2_pos k : (0 < 2 ^ N.of_nat k)%N.
Proof. apply N.neq_0_lt_0, N.pow_nonzero. lia. Qed.
Lemma pow2_S k : (2 ^ N.of_nat (S k) = 2 * 2 ^ N.of_nat k)%N.
Proof. rewrite Nat2N.inj_succ, N.pow_succ_r'. reflexivity. Qed.
Lemma uadd_ok a b : (a + b < usize_lim)%N → uadd a b = Ok (a + b)%N.
Proof. unfold uadd. intros H. apply N.ltb_lt in H. rewrite H. reflexivity. Qed.
Lemma usub_ok a b : (b <= a)%N → usub a b = Ok (a - b)%N.
Proof. unfold usub. intros H. apply N.leb_le in H. rewrite H. reflexivity. Qed.
Lemma land1_odd n : (N.land n 1 =? 0)%N = N.even n.
Proof.
  change 1%N with (N.ones 1). rewrite N.land_ones. change (2 ^ 1)%N with 2%N.
  rewrite <- N.negb_odd. rewrite <- N.bit0_mod, N.bit0_odd. destruct (N.odd n); reflexivity.
Qed.
Lemma even_pow2_S k : N.even (2 ^ N.of_nat (S k)) = true.
Proof. rewrite pow2_S. rewrite N.even_mul. reflexivity. Qed.
Lemma size_nat_pow2 k : N.size_nat (2 ^ N.of_nat k) = S k.
Proof.
  induction k as [|k IH]; [reflexivity|]. rewrite pow2_S.
  pose proof (pow2_pos k). destruct (2 ^ N.of_nat k)%N; [lia|].
  change (S (N.size_nat (N.pos p)) = S (S k)). by rewrite IH.
Qed.
Lemma size_nat_gt n j : (2 ^ N.of_nat j <= n)%N → j < N.size_nat n.
Proof.
  revert n. induction j as [|j IH]; intros n Hn.
  - destruct n; [cbn in Hn; lia|]. cbn. destruct p; cbn; lia.
  - rewrite pow2_S in Hn. pose proof (pow2_pos j).
    destruct n as [|p]; [lia|].
    destruct p as [p|p|].
    + cbn. apply (Nat.succ_lt_mono j). apply (IH (N.pos p)). lia.
    + cbn. apply (Nat.succ_lt_mono j). apply (IH (N.pos p)). lia.
    + lia.
Qed.
(** Every positive number is a power of two times an odd number. *)
Lemma pow2_odd_decomp n : (0 < n)%N → ∃ j m, n = (2 ^ N.of_nat j * (2 * m + 1))%N.
Proof.
  intros Hn. induction (N.lt_wf_0 n) as [n _ IH].
  destruct (N.even n) eqn:E.
  - apply N.even_spec in E as [m ->]. destruct (IH m) as (j & m' & ->); [lia..|].
    exists (S j), m'. rewrite pow2_S. lia.
  - exists 0, (n / 2)%N. rewrite <- N.negb_odd in E. apply negb_false_iff, N.odd_spec in E as [m ->].
    change (2 ^ N.of_nat 0)%N with 1%N.
    rewrite (N.add_comm (2 * m)), N.mul_comm, N.div_add by lia. change (1 / 2)%N with 0%N. lia.
Qed.
Lemma pow2_le_mono j k : j ≤ k → (2 ^ N.of_nat j <= 2 ^ N.of_nat k)%N.
Proof. intros. apply N.pow_le_mono_r; lia. Qed.
Lemma pow2_lt_inv j k : (2 ^ N.of_nat j < 2 ^ N.of_nat k)%N → j < k.
Proof. intros H. apply N.pow_lt_mono_r_iff in H; lia. Qed.
Lemma pow2_le_inv j k : (2 ^ N.of_nat j <= 2 ^ N.of_nat k)%N → j ≤ k.
Proof. intros H. apply N.pow_le_mono_r_iff in H; lia. Qed.
Lemma pow2_divide j k : j ≤ k → (2 ^ N.of_nat j | 2 ^ N.of_nat k)%N.
Proof.
  intros H. exists (2 ^ N.of_nat (k - j))%N. rewrite <- N.pow_add_r. f_equal. lia.
Qed.

(** ** Heaps *)
Section heap.
  Context {A : Type}.
  Implicit Types (h : heap A).

  Definition live h i s v := h !! i = Some (Some (s, v)).

  Lemma rc_new_fst h v : fst (rc_new h v) = h ++ [Some (1, v)].
  Proof. reflexivity. Qed.
  Lemma rc_get_live h i s v : live h i s v → rc_get h i = Some v.
  Proof. unfold live, rc_get. by intros ->. Qed.
  Lemma rc_get_Some h i v : rc_get h i = Some v → ∃ s, live h i s v.
  Proof.
    unfold live, rc_get. destruct (h !! i) as [[[s v']|]|] eqn:E; try done.
    intros [= ->]. eauto.
  Qed.
  Lemma rc_val_live h i s v : live h i s v → rc_val h i = Ok v.
  Proof. intros H. unfold rc_val. by rewrite (rc_get_live _ _ _ _ H). Qed.
  Lemma rc_count_live h i s v : live h i s v → rc_count h i = s.
  Proof. unfold live, rc_count. by intros ->. Qed.
  Lemma rc_inc_live h i s v : live h i s v → rc_inc h i = Ok (<[i := Some (S s, v)]> h).
  Proof. unfold live, rc_inc. by intros ->. Qed.
  Lemma rc_set_live h i s v f : live h i s v → rc_set h i f = Ok (<[i := Some (s, f v)]> h).
  Proof. unfold live, rc_set. by intros ->. Qed.
  Lemma live_lt h i s v : live h i s v → i < length h.
  Proof. apply lookup_lt_Some. Qed.

  (** Sum of [f] over the live values. *)
  Definition ev (f : A → nat) (o : option (nat * A)) : nat :=
    match o with Some (_, v) => f v | None => 0 end.
  Fixpoint hsum (f : A → nat) h : nat :=
    match h with [] => 0 | o :: h => ev f o + hsum f h end.
  Lemma hsum_app f h1 h2 : hsum f (h1 ++ h2) = hsum f h1 + hsum f h2.
  Proof. induction h1; cbn; lia. Qed.
  Lemma hsum_insert f h i o o' :
    h !! i = Some o → hsum f (<[i := o']> h) + ev f o = hsum f h + ev f o'.
  Proof.
    revert i. induction h as [|x h IH]; intros [|i]; simpl; try done.
    - intros [= ->]. lia.
    - intros H. specialize (IH _ H). lia.
  Qed.
  Lemma hsum_ge f h i s v : live h i s v → f v ≤ hsum f h.
  Proof.
    unfold live. revert i. induction h as [|x h IH]; intros [|i]; simpl; try done.
    - intros [= ->]. cbn. lia.
    - intros H. specialize (IH _ H). lia.
  Qed.
  Lemma hsum_zero f h : (∀ i s v, live h i s v → f v = 0) → hsum f h = 0.
  Proof.
    intros H. induction h as [|x h IH]; [done|]. cbn.
    rewrite IH; [|intros i s v Hi; apply (H (S i) s v Hi)].
    destruct x as [[s v]|]; [|done]. cbn. rewrite (H 0 s v); done.
  Qed.
  Lemma hsum_pos f h : 0 < hsum f h → ∃ i s v, live h i s v ∧ 0 < f v.
  Proof.
    intros H. induction h as [|x h IH]; cbn in H; [lia|].
    destruct x as [[s v]|].
    - cbn in H. destruct (f v) eqn:E.
      + destruct IH as (i & s' & v' & Hl & Hp); [lia|]. by exists (S i), s', v'.
      + exists 0, s, v. split; [done|lia].
    - destruct IH as (i & s' & v' & Hl & Hp); [cbn in H; lia|]. by exists (S i), s', v'.
  Qed.
  Lemma hsum_ext f g h : (∀ i s v, live h i s v → f v = g v) → hsum f h = hsum g h.
  Proof.
    intros H. induction h as [|x h IH]; [done|]. cbn.
    rewrite IH; [|intros i s v Hi; apply (H (S i) s v Hi)].
    destruct x as [[s v]|]; [|done]. cbn. by rewrite (H 0 s v).
  Qed.
  Lemma hsum_le f g h : (∀ i s v, live h i s v → f v ≤ g v) → hsum f h ≤ hsum g h.
  Proof.
    intros H. induction h as [|x h IH]; [done|]. cbn.
    assert (hsum f h ≤ hsum g h) by (apply IH; intros i s v Hi; apply (H (S i) s v Hi)).
    destruct x as [[s v]|]; cbn; [|lia]. pose proof (H 0 s v eq_refl). lia.
  Qed.
  (** Two different live boxes each contribute. *)
  Lemma hsum_two f h i j s v s' v' :
    live h i s v → live h j s' v' → i ≠ j → f v + f v' ≤ hsum f h.
  Proof.
    unfold live. revert i j. induction h as [|x h IH]; intros [|i] [|j]; simpl; try done.
    - intros [= ->] H2 _. apply (hsum_ge f) in H2. cbn. lia.
    - intros H1 [= ->] _. apply (hsum_ge f) in H1. cbn. lia.
    - intros H1 H2 Hn. specialize (IH i j H1 H2 ltac:(lia)). lia.
  Qed.
  (** If only one box can contribute, the sum is its contribution. *)
  Lemma hsum_single f h i s v :
    live h i s v → (∀ j s' v', live h j s' v' → j ≠ i → f v' = 0) → hsum f h = f v.
  Proof.
    unfold live. revert i. induction h as [|x h IH]; intros [|i]; simpl; try done.
    - intros [= ->] H. rewrite hsum_zero; [cbn; lia|].
      intros j s' v' Hj. apply (H (S j) s' v'); [done|lia].
    - intros Hi H. rewrite (IH i Hi); [|intros j s' v' Hj Hn; apply (H (S j) s' v'); [done|lia]].
      destruct x as [[s' v']|]; [|done]. cbn. rewrite (H 0 s' v'); done.
  Qed.
End heap.
Arguments live {_} _ _ _ _.

(** ** Counting in lists *)
Definition cnt (x : nat) (l : list nat) : nat := length (filter (fun y => y = x) l).
Lemma cnt_nil x : cnt x [] = 0.
Proof. done. Qed.
Lemma cnt_cons x y l : cnt x (y :: l) = (if decide (y = x) then 1 else 0) + cnt x l.
Proof. unfold cnt. rewrite filter_cons. case_decide; done. Qed.
Lemma cnt_app x l1 l2 : cnt x (l1 ++ l2) = cnt x l1 + cnt x l2.
Proof. unfold cnt. by rewrite filter_app, app_length. Qed.
Lemma cnt_perm x l1 l2 : l1 ≡ₚ l2 → cnt x l1 = cnt x l2.
Proof. unfold cnt. by intros ->. Qed.
Lemma cnt_pos x l : 0 < cnt x l ↔ x ∈ l.
Proof.
  induction l as [|y l IH]; [rewrite cnt_nil; split; [lia|by intros ?%elem_of_nil]|].
  rewrite cnt_cons, elem_of_cons, <- IH. case_decide; subst; split; intros; try lia; auto.
Qed.
Lemma cnt_zero x l : cnt x l = 0 ↔ x ∉ l.
Proof. rewrite <- cnt_pos. lia. Qed.
Global Arguments cnt : simpl never.
