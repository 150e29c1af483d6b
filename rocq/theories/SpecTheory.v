(** How one call changes the state of the specification. *)
From Verif Require Import Base BaseLemmas Api Spec DataInv RelInv Facts.
Local Open Scope N_scope.

Lemma anc_lhalf T l side : anc l (lhalf T l side).
Proof. unfold lhalf. destruct (_ <=? _); [apply anc_refl|apply anc_child]. Qed.
Lemma pop_front_anc T j : forall l q l' q', pop_front T l j q = (l', q') ->
  anc l l' /\ forall y, y ∈ q'.*1 -> y ∈ q.*1 \/ anc l y.
Proof.
  induction j as [|j IH]; intros l q l' q'; cbn [pop_front].
  - intros [= <- <-]. split; [apply anc_refl|eauto].
  - intros H. destruct (IH _ _ _ _ H) as [H1 H2]. split.
    + eapply anc_trans; [apply anc_lhalf|exact H1].
    + intros y Hy. destruct (H2 y Hy) as [Hy'|Hy'].
      * cbn in Hy'. apply elem_of_cons in Hy' as [->|?]; [|by left]. right. apply anc_lhalf.
      * right. eapply anc_trans; [apply anc_lhalf|exact Hy'].
Qed.
Lemma pop_back_anc T j : forall l q l' q', pop_back T l j q = (l', q') ->
  anc l l' /\ forall y, y ∈ q'.*1 -> y ∈ q.*1 \/ anc l y.
Proof.
  induction j as [|j IH]; intros l q l' q'; cbn [pop_back].
  - intros [= <- <-]. split; [apply anc_refl|eauto].
  - intros H. destruct (IH _ _ _ _ H) as [H1 H2]. split.
    + eapply anc_trans; [apply anc_lhalf|exact H1].
    + intros y Hy. destruct (H2 y Hy) as [Hy'|Hy'].
      * rewrite fmap_app, elem_of_app in Hy'. destruct Hy' as [?|Hy']; [by left|]. apply elem_of_list_singleton in Hy' as ->.
        right. apply anc_lhalf.
      * right. eapply anc_trans; [apply anc_lhalf|exact Hy'].
Qed.
Lemma elem_of_removelast {A} (x : A) l : x ∈ removelast l -> x ∈ l.
Proof.
  induction l as [|y l IH]; [done|]. cbn. destruct l; [by intros ?%elem_of_nil|].
  intros [->|H]%elem_of_cons; [by left|right; auto].
Qed.
Lemma elem_of_tail {A} (x : A) l : x ∈ tail l -> x ∈ l.
Proof. destruct l; [done|]. by right. Qed.

Section spec.
  Context {V : Type} (sz : N) (vclone : V -> V).
  Notation astate := (astate V).
  Notation spec_step := (@spec_step V sz vclone).
  Implicit Types (a : astate) (o : op V) (l : label) (h : nat).

  Definition a_target (o : op V) : option nat := Observe.target o.

  (** Labels that a call may make strongly held. *)
  Definition from (a : astate) (o : op V) (l : label) : Prop :=
    (exists h0 x0 l0, a_target o = Some h0 /\ a_get a h0 = Some x0 /\ l0 ∈ strong_labels x0 /\ anc l0 l) \/
    (exists h0, a_target o = Some h0 /\ a_get a h0 = Some (AWeak (Some l)) /\ alive (as_h a) l = true) \/
    l_tree l = length (as_trees a).
  Definition wfrom (a : astate) (o : op V) (l : label) : Prop :=
    exists h0 x0, a_target o = Some h0 /\ a_get a h0 = Some x0 /\ (l ∈ weak_labels x0 \/ l ∈ strong_labels x0).
  (** What can be in variable [h'] after the call. *)
  Definition origin (a : astate) (o : op V) (h' : nat) (x' : ahandle) : Prop :=
    (a_target o <> Some h' /\ a_get a h' = Some x') \/
    ((forall l, l ∈ strong_labels x' -> from a o l) /\ (forall l, l ∈ weak_labels x' -> wfrom a o l)).
  Definition wrote (a : astate) (o : op V) (m' : gmap (nat * N) V) : Prop :=
    exists h x c v old, a_target o = Some h /\ a_get a h = Some x /\ c ∈ hcells (as_trees a) x /\ as_mem a !! c = Some old /\
      m' = <[c := v]> (as_mem a) /\ Observe.writes o /\
      (a_unique x \/ exists l, x = ARc l /\ sole_owner (as_h a) l = true /\ no_weak_below (as_h a) l = true).

  Definition fresh_in (a : astate) (m0 : gmap (nat * N) V) : Prop :=
    forall c v, m0 !! c = Some v -> fst c = length (as_base a).
  Record shape (a : astate) (o : op V) (a' : astate) : Prop := {
    sh_trees : exists T2, as_trees a' = as_trees a ++ T2 /\ (length T2 <= 1)%nat;
    sh_base : as_base a `prefix_of` as_base a';
    sh_len : (length (as_h a) <= length (as_h a'))%nat;
    sh_keep : forall h, a_target o <> Some h -> (h < length (as_h a))%nat -> as_h a' !! h = as_h a !! h;
    sh_origin : forall h' x', a_get a' h' = Some x' -> origin a o h' x';
    sh_mem : (as_mem a' = as_mem a /\ as_h a' = as_h a) \/ (wrote a o (as_mem a') /\ as_h a' = as_h a /\ as_trees a' = as_trees a) \/
      exists m0, fresh_in a m0 /\ as_mem a' = collect (as_trees a') (as_h a') (m0 ∪ as_mem a)
  }.

  Lemma a_get_insert (hs : list (option ahandle)) (h : nat) (y : option ahandle) (h' : nat) (x' : ahandle) (bs : list N) (T : trees) (m : gmap (nat * N) V) :
    a_get (AS bs T m (<[h := y]> hs)) h' = Some x' ->
    (h' <> h /\ a_get (AS bs T m hs) h' = Some x') \/ (h' = h /\ y = Some x').
  Proof.
    unfold a_get. cbn. destruct (decide (h = h')) as [->|Hne].
    - destruct (decide (h' < length hs)%nat).
      + rewrite list_lookup_insert by done. destruct y as [z|]; [|done]. intros [= ->]. eauto.
      + rewrite list_insert_ge by lia. rewrite lookup_ge_None_2 by lia. done.
    - rewrite list_lookup_insert_ne by done. eauto.
  Qed.
  Lemma a_get_snoc (hs : list (option ahandle)) (y : ahandle) (h' : nat) (x' : ahandle) (bs : list N) (T : trees) (m : gmap (nat * N) V) :
    a_get (AS bs T m (hs ++ [Some y])) h' = Some x' ->
    (h' < length hs /\ a_get (AS bs T m hs) h' = Some x')%nat \/ (h' = length hs /\ y = x').
  Proof.
    unfold a_get. cbn. destruct (decide (h' < length hs)%nat).
    - rewrite lookup_app_l by done. eauto.
    - rewrite lookup_app_r by lia. destruct (h' - length hs)%nat as [|j] eqn:E; cbn.
      + intros [= ->]. right. split; [lia|done].
      + done.
  Qed.
  Lemma a_get_lt a h x : a_get a h = Some x -> (h < length (as_h a))%nat.
  Proof. unfold a_get. destruct (as_h a !! h) eqn:E; [|done]. intros _. by eapply lookup_lt_Some. Qed.
  Lemma a_get_eta a h : a_get a h = a_get (AS (as_base a) (as_trees a) (as_mem a) (as_h a)) h.
  Proof. by destruct a. Qed.
  Lemma a_get_indep (bs : list N) (T : trees) (m : gmap (nat * N) V) (bs' : list N) (T' : trees) (m' : gmap (nat * N) V) (hs : list (option ahandle)) (h : nat) : a_get (AS bs T m hs) h = a_get (AS bs' T' m' hs) h.
  Proof. done. Qed.

  (** A call that only changes the handle of its target and/or adds a handle. *)
  Lemma shape_set a o (bs : list N) (T2 : trees) (m0 : gmap (nat * N) V) (hs : list (option ahandle)) :
    as_base a `prefix_of` bs -> (length T2 <= 1)%nat -> (length (as_h a) <= length hs)%nat ->
    (forall h, a_target o <> Some h -> (h < length (as_h a))%nat -> hs !! h = as_h a !! h) ->
    fresh_in a m0 ->
    (forall h' x', a_get (AS bs (as_trees a ++ T2) (∅ : gmap (nat * N) V) hs) h' = Some x' -> origin a o h' x') ->
    shape a o (AS bs (as_trees a ++ T2) (collect (as_trees a ++ T2) hs (m0 ∪ as_mem a)) hs).
  Proof.
    intros Hb H2 Hlen Hk Hm Ho. split; [cbn; eauto..| |cbn; eauto 10]. intros h' x' Hx. apply Ho. exact Hx.
  Qed.
  Lemma shape_same a o : shape a o a.
  Proof.
    split; try done.
    - exists []. rewrite app_nil_r. split; [done|cbn; lia].
    - intros h' x' Hx. destruct (decide (a_target o = Some h')) as [E|E]; [right|left; done]. split.
      + intros l Hl. left. exists h', x', l. split_and!; [done..|apply anc_refl].
      + intros l Hl. exists h', x'. eauto.
    - by left.
  Qed.

  (** Tables after a call that keeps its target, or replaces it, and adds at most one handle. *)
  Definition tab (hs : list (option ahandle)) (ho : option (nat * option ahandle)) (ny : option ahandle) : list (option ahandle) :=
    (match ho with Some (h, y) => <[h := y]> hs | None => hs end) ++ (match ny with Some y => [Some y] | None => [] end).
  Lemma shape_tab a o (bs : list N) (T2 : trees) (m0 : gmap (nat * N) V) (ho : option (nat * option ahandle)) (ny : option ahandle) :
    as_base a `prefix_of` bs -> (length T2 <= 1)%nat -> fresh_in a m0 ->
    match ho with Some (h, y) => a_target o = Some h /\ (h < length (as_h a))%nat /\
       match y with Some y => origin a o h y | None => True end | None => True end ->
    match ny with Some y => origin a o (length (as_h a)) y | None => True end ->
    shape a o (AS bs (as_trees a ++ T2) (collect (as_trees a ++ T2) (tab (as_h a) ho ny) (m0 ∪ as_mem a)) (tab (as_h a) ho ny)).
  Proof.
    intros Hb H2 Hm Hho Hny.
    assert (forall h' x', a_get (AS bs (as_trees a ++ T2) (∅ : gmap (nat * N) V) (match ho with Some (h, y) => <[h := y]> (as_h a) | None => as_h a end)) h' = Some x' ->
      origin a o h' x') as Ho.
    { intros h' x' Hx. destruct ho as [[h y]|].
      - destruct Hho as (Ht & Hlt & Hy). apply a_get_insert in Hx as [[Hne Hx]|[-> ->]]; [|done].
        left. split; [rewrite Ht; congruence|]. destruct a; exact Hx.
      - destruct (decide (a_target o = Some h')) as [E|E]; [right|left; split; [done|destruct a; exact Hx]].
        assert (a_get a h' = Some x') as Hx' by (destruct a; exact Hx). split.
        + intros l Hl. left. exists h', x', l. split_and!; [done..|apply anc_refl].
        + intros l Hl. exists h', x'. eauto. }
    assert (length (match ho with Some (h, y) => <[h := y]> (as_h a) | None => as_h a end) = length (as_h a)) as Hlen.
    { destruct ho as [[h y]|]; [by rewrite insert_length|done]. }
    apply shape_set; try done.
    - unfold tab. rewrite app_length, Hlen. lia.
    - intros h Ht Hlt. unfold tab. rewrite lookup_app_l by (by rewrite Hlen). destruct ho as [[h0 y]|]; [|done].
      destruct Hho as (Ht' & _). rewrite list_lookup_insert_ne; [done|congruence].
    - intros h' x' Hx. unfold tab in Hx. destruct ny as [y|]; [|rewrite app_nil_r in Hx; auto].
      apply a_get_snoc in Hx as [[_ Hx]|[-> ->]]; [auto|]. by rewrite Hlen.
  Qed.

  Lemma shape_a_set a o (ho : option (nat * option ahandle)) (ny : option ahandle) :
    match ho with Some (h, y) => a_target o = Some h /\ (h < length (as_h a))%nat /\
       match y with Some y => origin a o h y | None => True end | None => True end ->
    match ny with Some y => origin a o (length (as_h a)) y | None => True end ->
    shape a o (a_set a (tab (as_h a) ho ny)).
  Proof.
    intros Hh Hn. pose proof (shape_tab a o (as_base a) [] ∅ ho ny) as H. rewrite app_nil_r, (left_id_L ∅ (∪)) in H.
    apply H; try done; cbn; try lia. 
  Qed.
  Lemma fresh_alloc a (vals : list V) :
    fresh_in a (list_to_map (zip (rng_cells (Rng (length (as_base a)) 0 (N.of_nat (length vals)))) vals)).
  Proof.
    intros c v Hc. apply elem_of_list_to_map_2, elem_of_zip_l in Hc. unfold rng_cells in Hc.
    apply elem_of_list_fmap in Hc as (i & -> & _). done.
  Qed.

  Lemma origin_strong a o h' h0 x0 x' : a_target o = Some h0 -> a_get a h0 = Some x0 -> weak_labels x' = [] ->
    (forall l, l ∈ strong_labels x' -> exists l0, l0 ∈ strong_labels x0 /\ anc l0 l) -> origin a o h' x'.
  Proof.
    intros Ht Hx Hw Hs. right. rewrite Hw. split; [|by intros l ?%elem_of_nil].
    intros l Hl. destruct (Hs l Hl) as (l0 & ? & ?). left. eauto 10.
  Qed.
  Lemma origin_nil a o h' x' : weak_labels x' = [] -> strong_labels x' = [] -> origin a o h' x'.
  Proof. intros Hw Hs. right. rewrite Hw, Hs. split; by intros l ?%elem_of_nil. Qed.
  Lemma origin_root a o h' l : l_tree l = length (as_trees a) -> origin a o h' (ARc l).
  Proof.
    intros Hl. right. cbn. split; [|by intros l' ?%elem_of_nil]. intros l' ->%elem_of_list_singleton. right. by right.
  Qed.
  Lemma shape_replace a o h x (cs : list (nat * N)) (i : N) (v : V) : a_target o = Some h -> a_get a h = Some x ->
    (forall c, c ∈ cs -> c ∈ hcells (as_trees a) x) ->
    (a_unique x \/ exists l, x = ARc l /\ sole_owner (as_h a) l = true /\ no_weak_below (as_h a) l = true) ->
    Observe.writes o -> shape a o (fst (a_replace a cs i v)).
  Proof.
    intros Ht Hx Hc Hu Hwr. unfold a_replace. destruct (cs !! N.to_nat i) as [c|] eqn:E; [|apply shape_same].
    destruct (as_mem a !! c) as [old|] eqn:Em; [|apply shape_same]. destruct (shape_same a o) as [S1 S2 S3 S4 S5 S6].
    split; cbn; try done. right. left. split_and!; try done.
    exists h, x, c, v, old. split_and!; try done. apply Hc. by eapply elem_of_list_lookup_2.
  Qed.

  Lemma spec_shape a o : shape a o (fst (spec_step a o)).
  Proof.
    assert (forall h x, a_get a h = Some x -> (h < length (as_h a))%nat) as Hlt by apply a_get_lt.
    Local Ltac s_tab a o ho ny := apply (shape_a_set a o ho ny).
    destruct o as [base vals|base vals| |h|h base|side h|side h|h n|h|h i v|h|h|h|h|h|h|h i v|h|back h|to h i|h]; cbn [spec_step].
    - destruct (_ <? _); [|apply shape_same]. cbn.
      apply (shape_tab a (OFromVec base vals) _ [_] _ None (Some (ARc (Lbl (length (as_trees a)) [])))); try done.
      + by apply prefix_app_r.
      + apply fresh_alloc.
      + by apply origin_root.
    - destruct (_ <? _); [|apply shape_same]. cbn.
      pose proof (shape_tab a (OMutFromVec base vals) (as_base a ++ [base]) [] _ None (Some (AMut (Rng (length (as_base a)) 0 (N.of_nat (length vals)))))
        ltac:(by apply prefix_app_r) ltac:(cbn; lia) (fresh_alloc a vals) I) as H.
      rewrite app_nil_r in H. apply H. by apply origin_nil.
    - s_tab a (OWeakNew (V:=V)) (None : option (nat * option ahandle)) (Some (AWeak None)); [done|]. by apply origin_nil.
    - destruct (a_get a h) as [[l|l|q| | |]|] eqn:E; try apply shape_same.
      + s_tab a (OClone (V:=V) h) (None : option (nat * option ahandle)) (Some (ARc l)); [done|]. eapply origin_strong; try done.
        intros l' Hl'. exists l'. split; [done|apply anc_refl].
      + s_tab a (OClone (V:=V) h) (None : option (nat * option ahandle)) (Some (AWeak l)); [done|]. right. split; [by intros ? ?%elem_of_nil|].
        intros l' Hl'. exists h, (AWeak l). eauto.
      + s_tab a (OClone (V:=V) h) (None : option (nat * option ahandle)) (Some (AParts q)); [done|]. eapply origin_strong; try done.
        intros l' Hl'. exists l'. split; [done|apply anc_refl].
    - destruct (a_get a h) as [[| | |r| |]|] eqn:E; try apply shape_same. cbn.
      pose proof (shape_tab a (OMutClone (V:=V) h base) (as_base a ++ [base]) [] _ None
        (Some (AMut (Rng (length (as_base a)) 0 (N.of_nat (length (vclone <$> cells_vals (as_mem a) (rng_cells r)))))))
        ltac:(by apply prefix_app_r) ltac:(cbn; lia) (fresh_alloc a (vclone <$> cells_vals (as_mem a) (rng_cells r))) I) as H.
      rewrite app_nil_r in H. apply H. by apply origin_nil.
    - destruct (a_get a h) as [[l| | | | |]|] eqn:E; try apply shape_same.
      s_tab a (OCloneHalf (V:=V) side h) (None : option (nat * option ahandle)) (Some (ARc (lhalf (as_trees a) l side))); [done|].
      eapply origin_strong; try done. intros l' ->%elem_of_list_singleton. exists l. split; [left|apply anc_lhalf].
    - destruct (a_get a h) as [[l| | |r| |]|] eqn:E; try apply shape_same.
      + s_tab a (OSplitOff (V:=V) side h) (Some (h, Some (ARc (lhalf (as_trees a) l (negb side))))) (Some (ARc (lhalf (as_trees a) l side))).
        * split_and!; [done|eauto|]. eapply origin_strong; try done. intros l' ->%elem_of_list_singleton. exists l. split; [left|apply anc_lhalf].
        * eapply origin_strong; try done. intros l' ->%elem_of_list_singleton. exists l. split; [left|apply anc_lhalf].
      + s_tab a (OSplitOff (V:=V) side h) (Some (h, Some (AMut (half (negb side) r)))) (Some (AMut (half side r))).
        * split_and!; [done|eauto|]. by apply origin_nil.
        * by apply origin_nil.
    - destruct (negb _); [apply shape_same|].
      destruct (a_get a h) as [[l| | |r| |]|] eqn:E; try apply shape_same; destruct (log2_exact n) as [k|].
      + s_tab a (OSplitIntoParts (V:=V) h n) (Some (h, None : option ahandle)) (Some (AParts [(l, k)])); [split_and!; eauto|].
        eapply origin_strong; try done. intros l' ->%elem_of_list_singleton. exists l. split; [left|apply anc_refl].
      + pose proof (shape_a_set a (OSplitIntoParts (V:=V) h n) (Some (h, None)) None) as H. cbn in H. unfold tab in H.
        rewrite app_nil_r in H. apply H; [|done]. split_and!; eauto.
      + s_tab a (OSplitIntoParts (V:=V) h n) (Some (h, None : option ahandle)) (Some (AMParts (rng_leaves k r))); [split_and!; eauto|].
        by apply origin_nil.
      + pose proof (shape_a_set a (OSplitIntoParts (V:=V) h n) (Some (h, None)) None) as H. cbn in H. unfold tab in H.
        rewrite app_nil_r in H. apply H; [|done]. split_and!; eauto.
    - destruct (a_get a h) as [[l| | | | |]|] eqn:E; try apply shape_same. destruct (_ && _); apply shape_same.
    - destruct (a_get a h) as [[l| | | | |]|] eqn:E; try apply shape_same. destruct (_ && _) eqn:Eb; [|apply shape_same].
      apply andb_true_iff in Eb as [? ?]. eapply shape_replace; [done..|eauto|done].
    - destruct (a_get a h) as [[l| | | | |]|] eqn:E; try apply shape_same. destruct (sole_owner _ _); [|apply shape_same].
      s_tab a (OIntoMut (V:=V) h) (Some (h, None : option ahandle)) (Some (AMut (lrng (as_trees a) l))); [split_and!; eauto|]. by apply origin_nil.
    - destruct (a_get a h) as [[| | |r| |]|] eqn:E; try apply shape_same. cbn.
      pose proof (shape_tab a (OIntoImmut (V:=V) h) (as_base a) [r] ∅ (Some (h, None)) (Some (ARc (Lbl (length (as_trees a)) [])))) as H.
      rewrite (left_id_L ∅ (∪)) in H. apply H; try done; [split_and!; eauto|]. by apply origin_root.
    - destruct (a_get a h) as [[l| | | | |]|] eqn:E; try apply shape_same.
      s_tab a (ODowngrade (V:=V) h) (None : option (nat * option ahandle)) (Some (AWeak (Some l))); [done|]. right. split; [by intros ? ?%elem_of_nil|].
      intros l' ->%elem_of_list_singleton. exists h, (ARc l). split_and!; try done. right. left.
    - destruct (a_get a h) as [[|[l|]| | | |]|] eqn:E; try apply shape_same. destruct (alive _ _) eqn:Ea; [|apply shape_same].
      s_tab a (OUpgrade (V:=V) h) (None : option (nat * option ahandle)) (Some (ARc l)); [done|]. right. split; [|by intros ? ?%elem_of_nil].
      intros l' ->%elem_of_list_singleton. right. left. exists h. done.
    - destruct (a_get a h) as [x|] eqn:E; try apply shape_same.
      pose proof (shape_a_set a (ODrop (V:=V) h) (Some (h, None)) None) as H. cbn in H. unfold tab in H.
      rewrite app_nil_r in H. apply H; [|done]. split_and!; eauto.
    - destruct (a_get a h) as [[]|] eqn:E; apply shape_same.
    - destruct (a_get a h) as [[]|] eqn:E; try apply shape_same; (eapply shape_replace; [done..|by left|done]).
    - destruct (a_get a h) as [[| | |r| |]|] eqn:E; try apply shape_same.
      s_tab a (OIntoIter (V:=V) h) (Some (h, None : option ahandle)) (Some (AIter r)); [split_and!; eauto|]. by apply origin_nil.
    - destruct (a_get a h) as [[| |q| |r|rs]|] eqn:E; try apply shape_same.
      + destruct (if back then last q else head q) as [[l j]|] eqn:El; [|apply shape_same].
        destruct (if back then pop_back (as_trees a) l j (removelast q) else pop_front (as_trees a) l j (tail q)) as [l' q'] eqn:Ep.
        assert (l ∈ q.*1) as Hl.
        { apply elem_of_list_fmap. exists (l, j). split; [done|]. destruct back; [by apply last_Some_elem_of|by apply head_Some_elem_of]. }
        assert (anc l l' /\ forall y, y ∈ q'.*1 -> exists l0, l0 ∈ q.*1 /\ anc l0 y) as [Ha Hq].
        { destruct back; [apply pop_back_anc in Ep as [H1 H2]|apply pop_front_anc in Ep as [H1 H2]]; (split; [done|]);
            intros y Hy; destruct (H2 y Hy) as [Hy'|Hy'].
          - exists y. split; [|apply anc_refl]. apply elem_of_list_fmap in Hy' as (z & -> & Hz). apply elem_of_list_fmap.
            exists z. split; [done|by apply elem_of_removelast].
          - eauto.
          - exists y. split; [|apply anc_refl]. apply elem_of_list_fmap in Hy' as (z & -> & Hz). apply elem_of_list_fmap.
            exists z. split; [done|by apply elem_of_tail].
          - eauto. }
        s_tab a (ONext (V:=V) back h) (Some (h, Some (AParts q'))) (Some (ARc l')).
        * split_and!; eauto. eapply origin_strong; done.
        * eapply origin_strong; try done. intros y ->%elem_of_list_singleton. eauto.
      + destruct (_ =? _); [apply shape_same|]. destruct (as_mem a !! _); [|apply shape_same].
        match goal with |- context [a_set _ (<[_ := Some ?y]> _)] => pose proof (shape_a_set a (ONext (V:=V) back h) (Some (h, Some y)) None) as H end.
        cbn in H. unfold tab in H. rewrite app_nil_r in H. apply H; [|done]. split_and!; eauto. by apply origin_nil.
      + destruct (if back then last rs else head rs) as [r|] eqn:El; [|apply shape_same].
        s_tab a (ONext (V:=V) back h) (Some (h, Some (AMParts (if back then removelast rs else tail rs)))) (Some (AMut r)).
        * split_and!; eauto. by apply origin_nil.
        * by apply origin_nil.
    - destruct (a_get a h) as [[| | | |r|]|] eqn:E; try apply shape_same. destruct (_ <? _); [apply shape_same|]. destruct to.
      + s_tab a (OSplitAt (V:=V) true h i) (Some (h, Some (AIter (Rng (rg_blk r) (rg_lo r + i) (rg_len r - i))))) (Some (AIter (Rng (rg_blk r) (rg_lo r) i))).
        * split_and!; eauto. by apply origin_nil.
        * by apply origin_nil.
      + s_tab a (OSplitAt (V:=V) false h i) (Some (h, Some (AIter (Rng (rg_blk r) (rg_lo r) i)))) (Some (AIter (Rng (rg_blk r) (rg_lo r + i) (rg_len r - i)))).
        * split_and!; eauto. by apply origin_nil.
        * by apply origin_nil.
    - destruct (a_get a h) as [[]|] eqn:E; apply shape_same.
  Qed.
End spec.
