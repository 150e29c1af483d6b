(** What one atomic step of a thread does to the pointers it has. *)
From Verif Require Import Base BaseLemmas Api SliceItemsModel BinPartsModel DataModel RcModel Spec DataInv DataSteps GuardInv ArcModel ArcConc ConcInv ConcGuard ConcWorld ConcData ConcSafe ConcSpec OrderModel OrderInv OrderSteps PubModel PubCount PubEvents PubInv.
Local Open Scope nat_scope.
#[local] Arguments slo {A} F hs : simpl never.
#[local] Arguments thr {V A} F ts : simpl never.

Section steps.
  Context {V : Type} (sz : N) (acq : bool).
  Notation stack := (list (frame V)).
  Implicit Types (d : dworld V) (g : gdworld) (st : stack).
  Ltac step_inv H :=
    repeat (first
      [ match type of H with mbind _ _ = Ok _ => let x := fresh "x" in let Hx := fresh "Hx" in apply bind_inv in H as (x & Hx & H) end
      | match type of H with Ok _ = Ok _ => fail 1 | _ => idtac end; case_match; try done ]);
    subst; try (injection H as <- <- <-).
  Lemma kids_child n y : y ∈ kids n -> exists side, d_child side n = Some y.
  Proof.
    unfold kids. rewrite elem_of_app. destruct n as [p l a o1 o2]. intros [H|H]; cbn in H.
    - exists false. destruct o1; [|by apply elem_of_nil in H]. apply elem_of_list_singleton in H as ->. done.
    - exists true. destruct o2; [|by apply elem_of_nil in H]. apply elem_of_list_singleton in H as ->. done.
  Qed.
  Lemma uniq_live {A} (h : heap A) x n : live h x 1 n -> unique h x = true.
  Proof. intros H. unfold unique. by rewrite (rc_count_live _ _ _ _ H). Qed.
  Definition found d (ac : list loc) (y : nat) : Prop :=
    exists x0 side n, rc_get (dw_datas d) x0 = Some n /\ d_child side n = Some y /\ LChild x0 side ∈ ac.
  Lemma found_kid d ac x n y : live (dw_datas d) x 1 n -> y ∈ kids n -> LChild x false ∈ ac -> LChild x true ∈ ac -> found d ac y.
  Proof. intros Hl [side Hy]%kids_child H1 H2. exists x, side, n. split; [by eapply rc_get_live|]. split; [done|]. by destruct side. Qed.
  Lemma kids_sub side n y : y ∈ kids (d_set_child side None n) -> y ∈ kids n.
  Proof. unfold kids. destruct side, n as [p l a [x|] [z|]]; cbn; set_solver. Qed.
  Lemma mP d g st d' g' st' y : mstep sz d g st = Ok (d', g', st') -> y ∈ stk fP st' ->
    y ∈ stk fP st \/ found d (sync acq d g st).1 y \/ (exists x0 m, x0 ∈ stk fP st /\ gd_metas g !! x0 = Some m /\ am_parent m = Some y) \/
    (BNode y, Init) ∈ touch d g st.
  Proof.
    intros H Hy. destruct st as [|f k]; [done|]. destruct (ffg_dec f) as [(n & a & ->)|Hf].
    { rewrite stk_cons. cbn [fP].
      destruct (mstep_ffg sz _ _ _ _ _ _ _ _ H) as [(E & _ & [(side & n0 & a0 & k0 & -> & _ & ->)|(_ & _ & ->)])|(c & ks & side & E & _ & Es & h & o & Hu & -> & ->)].
      - left. rewrite stk_cons in *. cbn [fP] in *. set_solver.
      - left. set_solver.
      - pose proof (kids_tail _ _ _ E) as Ek. rewrite <- Es in Ek. rewrite E.
        apply rc_unwrap_inv in Hu as [(s & v & Hv & -> & ->)|(v & Hv & -> & ->)]; rewrite !stk_cons in Hy; cbn [fP] in Hy; rewrite Ek in Hy; [left; set_solver|].
        apply elem_of_app in Hy as [Hy|Hy]; [|left; set_solver]. right. left. cbn [sync]. change (node_kids n) with (kids n). rewrite E.
        rewrite (uniq_live _ _ _ Hv). eapply found_kid; [exact Hv|done|cbn; set_solver..]. }
    destruct f; try done; try (by destruct (Hf _ _ eq_refl)); cbn [mstep] in H.
    all: step_inv H.
    all: rewrite ?stk_cons, ?stk_app, ?(stk_relopt fP), ?(stk_rel fP) in * by done.
    all: cbn [fP hM option_list app] in *.
    all: try (left; set_solver).
    - apply elem_of_app in Hy as [Hy|Hy]; [|left; set_solver].
      apply rc_dec_inv in Hx as [(s & v & _ & _ & [=])|(v & Hv & -> & [= <-])]. right. left. cbn [sync]. rewrite (uniq_live _ _ _ Hv).
      eapply found_kid; [exact Hv|exact Hy|cbn; set_solver..].
    - apply rc_val_inv in Hx as [s Hs]. assert (y = n \/ y ∈ d0 :: stk fP k) as [->|?] by set_solver; [|by left].
      right. left. exists d0, side, x. split; [by eapply rc_get_live|]. split; [done|]. left.
    - apply rc_val_inv in Hx as [s Hs]. assert (y = n0 \/ y ∈ d0 :: stk fP k) as [->|?] by set_solver; [|by left].
      right. left. exists d0, side, x. split; [by eapply rc_get_live|]. split; [done|]. left.
    - apply rc_val_inv in Hx as [s Hs]. apply elem_of_cons in Hy as [->|Hy]; [|left; set_solver]. right. right. right. cbn [touch].
      rewrite (rc_get_live _ _ _ _ Hs).
      match goal with K : d_child _ _ = None |- _ => rewrite K end. set_solver.
    - match goal with K : rc_upgrade _ _ = _ |- _ => apply rc_upgrade_inv in K as [(i & s & v & Ep & _ & _ & [= ->])|(_ & [=] & _)] end.
      assert (y = i \/ y ∈ d0 :: stk fP k) as [->|?] by set_solver; [|by left]. right. right. left. exists d0, a. split; [left|done].
    - match goal with K : rc_upgrade _ _ = _ |- _ => apply rc_upgrade_inv in K as [(i & s & v & Ep & _ & _ & [= ->])|(_ & [=] & _)] end.
      left. subst. cbn. done.
    - match goal with K : rc_try_unwrap _ _ = _ |- _ => apply rc_unwrap_inv in K as [(s & v & _ & _ & [=])|(v & Hv & -> & [= <-])] end.
      apply elem_of_app in Hy as [Hy|Hy]; [|left; set_solver]. right. left. cbn [sync]. rewrite (uniq_live _ _ _ Hv).
      eapply found_kid; [exact Hv|exact Hy|cbn; set_solver..].
  Qed.
  Lemma stk_relg (F : frame V -> list nat) o : (forall y, F (FRelG y) = [y]) -> stk F (rel_opt o) = option_list o.
  Proof. intros H. destruct o; [|done]. cbn. by rewrite H. Qed.
  Lemma mQ d g st d' g' st' y : mstep sz d g st = Ok (d', g', st') -> y ∈ stk fQ st' ->
    y ∈ stk fQ st \/ (exists b, b ∈ stk fX st /\ gd_boxes g !! b = Some (Some (Some y))) \/
    (exists z n, z ∈ stk fQ st /\ rc_get (gd_guards g) z = Some n /\ a_parent n = Some y) \/ (BGuard y, Init) ∈ touch d g st.
  Proof.
    intros H Hy. destruct st as [|f k]; [done|]. destruct (ffg_dec f) as [(n & a & ->)|Hf].
    { left. rewrite stk_cons. cbn [fQ].
      destruct (mstep_ffg sz _ _ _ _ _ _ _ _ H) as [(E & _ & [(side & n0 & a0 & k0 & -> & _ & ->)|(_ & _ & ->)])|(c & ks & side & E & _ & Es & h & o & Hu & -> & ->)].
      - exact Hy.
      - exact Hy.
      - destruct o; exact Hy. }
    destruct f; try done; try (by destruct (Hf _ _ eq_refl)); cbn [mstep] in H.
    all: step_inv H.
    all: rewrite ?stk_cons, ?stk_app, ?(stk_relg fQ), ?(stk_rel0 fQ) in * by done.
    all: cbn [fQ hQ option_list app] in *.
    all: try (left; set_solver).
    - apply elem_of_app in Hy as [Hy|Hy]; [|left; set_solver].
      apply rc_dec_inv in Hx as [(s & v & _ & _ & [=])|(v & Hv & -> & [= <-])]. right. right. left. exists g0, a.
      split; [left|]. split; [by eapply rc_get_live|]. destruct (a_parent a); [|by apply elem_of_nil in Hy]. apply elem_of_list_singleton in Hy as ->. done.
    - apply elem_of_cons in Hy as [->|Hy]; [|left; set_solver]. right. left. exists b. split; [left|].
      match goal with K : rc_upgrade _ _ = _ |- _ => apply rc_upgrade_inv in K as [(i & s & v & -> & _ & _ & [= ->])|(_ & [=] & _)] end. done.
    - match goal with K : gd_new_guard _ _ _ _ = Ok _ |- _ => unfold gd_new_guard in K; cbn in K; repeat case_match; try done; injection K as <- <- end.
      apply elem_of_cons in Hy as [->|Hy]; [|left; set_solver]. right. right. right. cbn [touch].
      match goal with K : gd_metas g !! _ = Some _, K' : (am_box _ =? _) = true |- _ => rewrite K, K' end. cbn. set_solver.
    - apply elem_of_app in Hy as [Hy|[->|Hy]%elem_of_cons]; [left; set_solver| |left; set_solver]. right. left. exists b. split; [left|].
      match goal with K : rc_upgrade _ _ = _ |- _ => apply rc_upgrade_inv in K as [(i & s & v & -> & _ & _ & [= ->])|(_ & [=] & _)] end. done.
  Qed.
  Lemma mX d g st d' g' st' b : mstep sz d g st = Ok (d', g', st') -> b ∈ stk fX st' ->
    b ∈ stk fX st \/ exists x m, x ∈ stk fP st /\ gd_metas g !! x = Some m /\ am_box m = b /\ LBox x ∈ (sync acq d g st).1.
  Proof.
    intros H Hy. destruct st as [|f k]; [done|]. destruct (ffg_dec f) as [(n & a & ->)|Hf].
    { left. rewrite stk_cons. cbn [fX].
      destruct (mstep_ffg sz _ _ _ _ _ _ _ _ H) as [(E & _ & [(side & n0 & a0 & k0 & -> & _ & ->)|(_ & _ & ->)])|(c & ks & side & E & _ & Es & h & o & Hu & -> & ->)].
      - exact Hy.
      - exact Hy.
      - destruct o; exact Hy. }
    destruct f; try done; try (by destruct (Hf _ _ eq_refl)); cbn [mstep] in H.
    all: step_inv H.
    all: rewrite ?stk_cons, ?stk_app, ?(stk_relopt fX), ?(stk_rel0 fX) in * by done.
    all: cbn [fX option_list app] in *.
    all: try (left; set_solver).
    - apply elem_of_cons in Hy as [->|Hy]; [right|by left]. exists d0, a. cbn. set_solver.
    - apply elem_of_cons in Hy as [->|Hy]; [right|by left]. exists d0, a. cbn. set_solver.
  Qed.

  (** *** The world *)
  Definition hkeep {A} (R : A -> A -> Prop) (h h' : heap A) : Prop :=
    length h' = length h /\ forall x n', rc_get h' x = Some n' -> exists n, rc_get h x = Some n /\ R n n'.
  Definition same_par (n n' : aguard) : Prop := a_parent n' = a_parent n.
  Lemma hkeep_refl {A} (R : A -> A -> Prop) h : (forall n, R n n) -> hkeep R h h.
  Proof. intros H. split; [done|]. eauto. Qed.
  Lemma hkeep_set {A} (R : A -> A -> Prop) h i s v o : (forall n, R n n) -> live h i s v -> (forall q, o = Some q -> R v (snd q)) -> hkeep R h (<[i := o]> h).
  Proof.
    intros HR Hl Ho. split; [by rewrite insert_length|]. intros x n'. rewrite rc_get_insert by by eapply live_lt. case_decide as E; [|eauto].
    subst. destruct o as [[c n]|]; [|done]. cbn. intros [= <-]. exists v. split; [by eapply rc_get_live|]. exact (Ho _ eq_refl).
  Qed.
  Lemma hkeep_inc {A} (R : A -> A -> Prop) h i h' : (forall n, R n n) -> rc_inc h i = Ok h' -> hkeep R h h'.
  Proof. intros HR (s & v & Hv & ->)%rc_inc_inv. eapply hkeep_set; [done..|]. intros q [= <-]. done. Qed.
  Lemma hkeep_dec {A} (R : A -> A -> Prop) h i h' r : (forall n, R n n) -> rc_dec h i = Ok (h', r) -> hkeep R h h'.
  Proof. intros HR [(s & v & Hv & -> & _)|(v & Hv & -> & _)]%rc_dec_inv; (eapply hkeep_set; [done..|]); [intros q [= <-]; done|done]. Qed.
  Lemma hkeep_unwrap {A} (R : A -> A -> Prop) h i h' r : (forall n, R n n) -> rc_try_unwrap h i = Ok (h', r) -> hkeep R h h'.
  Proof. intros HR [(s & v & Hv & -> & _)|(v & Hv & -> & _)]%rc_unwrap_inv; [by apply hkeep_refl|]. by eapply hkeep_set. Qed.
  Lemma hkeep_upgrade {A} (R : A -> A -> Prop) h o h' r : (forall n, R n n) -> rc_upgrade h o = (h', r) -> hkeep R h h'.
  Proof. intros HR [(i & s & v & _ & Hv & -> & _)|(-> & _)]%rc_upgrade_inv; [|by apply hkeep_refl]. eapply hkeep_set; [done..|]. intros q [= <-]. done. Qed.
  Lemma hkeep_gate g y down b gs : rc_set (gd_guards g) y (a_set_gate down b) = Ok gs -> hkeep same_par (gd_guards g) gs.
  Proof. intros (s & v & Hv & ->)%rc_set_inv. eapply hkeep_set; [done..|]. intros q [= <-]. by destruct down. Qed.
  Inductive mw d g st d' g' : Prop :=
  | W_keep : gd_metas g' = gd_metas g -> gd_boxes g' = gd_boxes g -> hkeep same_par (gd_guards g) (gd_guards g') ->
      hkeep eq (dw_datas d) (dw_datas d') -> (forall o, (o, Init) ∉ touch d g st) -> mw d g st d' g'
  | W_child x side k n' k0 s v : st = FChildCas x side k n' :: k0 -> live (dw_datas d) x s v -> d_child side v = None ->
      dw_datas d' = <[x := Some (s, d_set_child side (Some (length (dw_datas d))) v)]> (dw_datas d ++ [Some (k, n')]) ->
      g' = gd_new_data g (Some x) -> mw d g st d' g'
  | W_guard x b pg k m : st = FGuardCas x b pg :: k -> gd_metas g !! x = Some m -> am_box m = b -> d' = d ->
      gd_guards g' = gd_guards g ++ [Some (1, AGuard pg false false)] -> gd_boxes g' = gd_boxes g ++ [Some (Some (length (gd_guards g)))] ->
      gd_metas g' = <[x := AMeta (am_parent m) (length (gd_boxes g))]> (gd_metas g) -> mw d g st d' g'.
  Lemma winc_same g o g' : gd_weak_inc g o = Ok g' -> gd_metas g' = gd_metas g /\ gd_boxes g' = gd_boxes g /\ gd_guards g' = gd_guards g.
  Proof. unfold gd_weak_inc. destruct o as [y|]; [|by intros [= <-]]. destruct (gd_weak g !! y); [|done]. by intros [= <-]. Qed.
  Lemma wdec_same g o g' : gd_weak_dec g o = Ok g' -> gd_metas g' = gd_metas g /\ gd_boxes g' = gd_boxes g /\ gd_guards g' = gd_guards g.
  Proof. unfold gd_weak_dec. destruct o as [y|]; [|by intros [= <-]]. destruct (gd_weak g !! y) as [[|]|]; try done. by intros [= <-]. Qed.
  Lemma look_init {A} (h : heap A) i : look h i <> Init. Proof. unfold look. by destruct (gone h i). Qed.
  Lemma let_go_init {A} (h : heap A) i : let_go h i <> Init. Proof. unfold let_go. by destruct (unique h i). Qed.
  Ltac no_init :=
    let o := fresh "o" in let Hin := fresh "Hin" in
    intros o Hin; cbn [touch] in Hin;
    repeat (first
      [ match type of Hin with _ ∈ [] => by apply elem_of_nil in Hin end
      | match type of Hin with _ ∈ _ :: _ => apply elem_of_cons in Hin as [Hin|Hin]; [injection Hin; intros; subst; first [discriminate|by eapply look_init|by eapply let_go_init]|] end
      | match type of Hin with _ ∈ (match ?x with _ => _ end) => destruct x eqn:? end
      | match type of Hin with _ ∈ when ?x _ => destruct x eqn:?; cbn [when] in Hin end ]).
  Lemma mstep_mw d g st d' g' st' : mstep sz d g st = Ok (d', g', st') -> mw d g st d' g'.
  Proof.
    intros H. destruct st as [|f k]; [done|]. destruct (ffg_dec f) as [(n & a & ->)|Hf].
    { destruct (mstep_ffg sz _ _ _ _ _ _ _ _ H) as [(E & -> & [(side & n0 & a0 & k0 & -> & Hd & ->)|(_ & -> & ->)])|(c & ks & side & E & -> & Es & h & o & Hu & -> & ->)].
      - apply W_keep; try done; [by apply hkeep_refl| |no_init]. rewrite (ConcGuard.alloc_release_datas _ _ _ _ Hd). by apply hkeep_refl.
      - apply W_keep; try done; [by apply hkeep_refl| |no_init]. by apply hkeep_refl.
      - apply W_keep; try done; [by apply hkeep_refl| |no_init]. by eapply hkeep_unwrap. }
    destruct f; try done; try (by destruct (Hf _ _ eq_refl)); cbn [mstep] in H.
    all: step_inv H.
    all: repeat match goal with
         | K : gd_weak_inc _ _ = Ok _ |- _ => apply winc_same in K as (Em & Eb & Eg)
         | K : gd_weak_dec _ _ = Ok _ |- _ => apply wdec_same in K as (Em & Eb & Eg)
         | K : gate_open _ _ _ = Ok _ |- _ => unfold gate_open in K; apply bind_inv in K as (? & K & [= <-])
         | K : gate_try_close _ _ _ = Ok _ |- _ => unfold gate_try_close in K; apply bind_inv in K as (? & _ & K); apply bind_inv in K as (? & K & [= <- <-])
         end.
    all: try (apply W_keep; cbn [dw_set_datas dw_datas gd_set_guards gd_metas gd_boxes gd_guards]; try done;
      [ first [by apply hkeep_refl|by eapply hkeep_inc|by eapply hkeep_dec|by eapply hkeep_upgrade|by eapply hkeep_gate|by rewrite Eg; apply hkeep_refl]
      | first [by apply hkeep_refl|by eapply hkeep_inc|by eapply hkeep_dec|by eapply hkeep_upgrade|by eapply hkeep_unwrap
              |match goal with
               | K : alloc_release _ _ _ = Ok _ |- _ => rewrite (ConcGuard.alloc_release_datas _ _ _ _ K)
               | K : alloc_clone _ _ = Ok _ |- _ => rewrite (ConcGuard.alloc_clone_datas _ _ _ K)
               | K : mem_take _ _ _ = Ok _ |- _ => cbn; rewrite (ConcGuard.mem_take_datas _ _ _ _ _ K)
               end; by apply hkeep_refl]
      | try by no_init]).
    6-11: match goal with K : gate_try_close _ _ _ = Ok _ |- _ => unfold gate_try_close in K; apply bind_inv in K as (? & _ & K); apply bind_inv in K as (? & K & [= <- _]) end.
    6-11: apply W_keep; [done..|by eapply hkeep_gate|by apply hkeep_refl|no_init].
    - apply rc_val_inv in Hx as [s Hs]. intros o Hin. cbn [touch] in Hin. rewrite (rc_get_live _ _ _ _ Hs) in Hin.
      match goal with K : d_child _ _ = Some _ |- _ => rewrite K in Hin end. by apply elem_of_list_singleton in Hin.
    - apply rc_val_inv in Hx as [s Hs]. match goal with K : rc_set _ _ _ = Ok _ |- _ => apply rc_set_inv in K as (s' & v & Hv & ->) end.
      assert (live (dw_datas d) d0 s' v) as Hl.
      { apply DataInv.live_snoc in Hv as [[-> _]|[_ Hv]]; [|done]. apply live_lt in Hs. lia. }
      destruct (live_fun _ _ _ _ _ _ Hs Hl) as [<- <-]. by eapply W_child.
    - match goal with K : gd_new_guard _ _ _ _ = Ok _ |- _ => unfold gd_new_guard in K; cbn in K; repeat case_match; try done; injection K as <- <- end.
      match goal with K : (am_box _ =? _) = true, K' : gd_metas g !! _ = Some _ |- _ => apply Nat.eqb_eq in K; by eapply (W_guard _ _ _ _ _ _ _ _ _ _ eq_refl K' K) end.
    - intros o Hin. cbn [touch] in Hin.
      match goal with K : gd_metas _ !! _ = Some _, K' : (_ =? _) = false |- _ => rewrite K, K' in Hin end. by apply elem_of_list_singleton in Hin.
    - intros o Hin. cbn [touch] in Hin. apply elem_of_app in Hin as [(? & [=] & _)%elem_of_list_fmap|(? & [=] & _)%elem_of_list_fmap].
  Qed.

  (** *** Accesses *)
  Lemma touch_ment d g st o h : (o, h) ∈ touch d g st -> h <> Init ->
    match o with
    | BNode x => x ∈ stk fP st \/ exists x0 m, x0 ∈ stk fP st /\ gd_metas g !! x0 = Some m /\ am_parent m = Some x
    | BGuard y => y ∈ stk fQ st \/ exists b, b ∈ stk fX st /\ gd_boxes g !! b = Some (Some (Some y))
    | BBox b => b ∈ stk fX st
    end.
  Proof.
    intros Hin Hh. destruct st as [|f k]; [by apply elem_of_nil in Hin|].
    destruct f; cbn [touch] in Hin; try (by apply elem_of_nil in Hin); rewrite ?stk_cons; cbn [fP fQ fX option_list app].
    all: repeat (first
      [ match type of Hin with _ ∈ [] => by apply elem_of_nil in Hin end
      | match type of Hin with _ ∈ _ ++ _ => apply elem_of_app in Hin as [Hin|Hin] end
      | match type of Hin with _ ∈ _ <$> _ => apply elem_of_list_fmap in Hin as (? & [= -> ->] & Hin) end
      | match type of Hin with _ ∈ _ :: _ => apply elem_of_cons in Hin as [[= -> ->]|Hin] end
      | match type of Hin with _ ∈ (match ?x with _ => _ end) => destruct x eqn:? end
      | match type of Hin with _ ∈ when ?x _ => destruct x eqn:?; cbn [when] in Hin end ]).
    all: rewrite ?stk_cons; cbn [fP fQ fX option_list app].
    all: try done.
    all: try (left; set_solver).
    all: try set_solver.
    - match goal with E : node_kids n = _ |- _ => left; change (kids n) with (node_kids n); rewrite E; left end.
  Qed.
  Lemma count_live {A} (h : heap A) x : rc_count h x <> 0 -> exists s n, live h x s n.
  Proof. unfold rc_count, live. destruct (h !! x) as [[[s n]|]|]; try done. eauto. Qed.
  Lemma count_one {A} (h : heap A) x : rc_count h x = 1 -> exists n, live h x 1 n.
  Proof. unfold rc_count, live. destruct (h !! x) as [[[s n]|]|]; try done. intros ->. eauto. Qed.
  Lemma look_use {A} (h : heap A) x : look h x = Use -> exists s n, live h x s n.
  Proof. unfold look, gone. destruct (Nat.eqb_spec (rc_count h x) 0); [done|]. intros _. by apply count_live. Qed.
  Lemma go_use {A} (h : heap A) x : let_go h x = Use -> forall n, ~ live h x 1 n.
  Proof. unfold let_go. intros H n Hl. by rewrite (uniq_live _ _ _ Hl) in H. Qed.
  Lemma go_end {A} (h : heap A) x : let_go h x = End -> unique h x = true /\ rc_count h x = 1.
  Proof. unfold let_go. destruct (unique h x) eqn:E; [|done]. split; [done|]. by apply Nat.eqb_eq. Qed.
  Lemma dec_end {A} (h : heap A) x h' r : rc_dec h x = Ok (h', r) -> rc_count h x = 1 -> rc_get h' x = None.
  Proof.
    intros [(s & v & Hv & -> & _)|(v & Hv & -> & _)]%rc_dec_inv E; [rewrite (rc_count_live _ _ _ _ Hv) in E; lia|]. by eapply get_kill.
  Qed.
  Lemma unwrap_end {A} (h : heap A) x h' r : rc_try_unwrap h x = Ok (h', r) -> rc_count h x = 1 -> rc_get h' x = None.
  Proof.
    intros [(s & v & Hv & -> & _)|(v & Hv & -> & _)]%rc_unwrap_inv E; [rewrite (rc_count_live _ _ _ _ Hv) in E; lia|]. by eapply get_kill.
  Qed.
  Lemma mstep_im3 d g r (k : stack) d' g' st' : mstep sz d g (FIm3 r :: k) = Ok (d', g', st') ->
    exists h o y down k0, k = FOpen y down :: k0 /\ rc_try_unwrap (dw_datas d) (ar_data r) = Ok (h, o) /\ d' = dw_set_datas d h /\ g' = g /\
      st' = match o with Some n => FFg n (d_alloc n) :: FOpen y down :: KImG r :: k0 | None => FV (VFin (Some (XArc r)) (Some RErr)) :: FOpen y down :: k0 end.
  Proof.
    cbn [mstep]. destruct k as [|[] k]; try done. intros H. apply bind_inv in H as ([h o] & Hu & H). exists h, o.
    destruct o; injection H as <- <- <-; eauto 10.
  Qed.
  Ltac one Hin := apply elem_of_list_singleton in Hin; injection Hin; intros; clear Hin.
  Lemma touch_end d g st d' g' st' o : mstep sz d g st = Ok (d', g', st') -> (o, End) ∈ touch d g st -> touch d g st = [(o, End)] /\
    match o with
    | BNode x => x ∈ stk fR st /\ rc_count (dw_datas d) x = 1 /\ LData x ∈ (sync acq d g st).1 /\ rc_get (dw_datas d') x = None
    | BGuard y => y ∈ stk fG st /\ rc_count (gd_guards g) y = 1 /\ LGuard y ∈ (sync acq d g st).1 /\ rc_get (gd_guards g') y = None
    | BBox _ => False
    end.
  Proof.
    intros H Hin. destruct st as [|f k]; [by apply elem_of_nil in Hin|].
    assert ((exists x, f = FRel x) \/ (exists y, f = FRelG y) \/ (exists r, f = FIm3 r) \/ (exists n a, f = FFg n a)) as Hf.
    { destruct f; cbn [touch] in Hin; eauto 10.
      all: exfalso; repeat (first
      [ match type of Hin with _ ∈ [] => by apply elem_of_nil in Hin end
      | match type of Hin with _ ∈ _ ++ _ => apply elem_of_app in Hin as [Hin|Hin] end
      | match type of Hin with _ ∈ _ <$> _ => apply elem_of_list_fmap in Hin as (? & [=] & Hin) end
      | match type of Hin with _ ∈ _ :: _ => apply elem_of_cons in Hin as [Hin|Hin]; [injection Hin; intros; unfold look in *; try (by destruct (gone _ _)); done|] end
      | match type of Hin with _ ∈ (match ?x with _ => _ end) => destruct x eqn:? end
      | match type of Hin with _ ∈ when ?x _ => destruct x eqn:?; cbn [when] in Hin end ]). }
    destruct Hf as [(x & ->)|[(y & ->)|[(r & ->)|(n & a & ->)]]].
    - cbn [touch] in *. one Hin. subst. destruct (go_end _ _ (eq_sym H0)) as [Eu Ec]. split; [by rewrite H0|]. cbn [sync]. rewrite Eu, stk_cons. cbn [fR].
      split; [left|]. split; [done|]. split; [left|]. cbn [mstep] in H. apply bind_inv in H as ([h o] & Hd & H). apply dec_end in Hd; [|done].
      destruct o; [destruct (node_own sz d0)|]; by injection H as <- _ _.
    - cbn [touch] in *. one Hin. subst. destruct (go_end _ _ (eq_sym H0)) as [Eu Ec]. split; [by rewrite H0|]. cbn [sync]. rewrite Eu, stk_cons. cbn [fG].
      split; [left|]. split; [done|]. split; [left|]. cbn [mstep] in H. apply bind_inv in H as ([h o] & Hd & H). apply dec_end in Hd; [|done].
      destruct o; by injection H as _ <- _.
    - cbn [touch] in *. one Hin. subst. destruct (go_end _ _ (eq_sym H0)) as [Eu Ec]. split; [by rewrite H0|]. cbn [sync]. rewrite Eu, stk_cons. cbn [fR].
      split; [left|]. split; [done|]. split; [left|]. apply mstep_im3 in H as (h & o & y & down & k0 & -> & Hu & -> & _). cbn. by eapply unwrap_end.
    - cbn [touch] in *. change (node_kids n) with (kids n) in *.
      destruct (mstep_ffg sz _ _ _ _ _ _ _ _ H) as [(E & _)|(c & ks & side & E & _ & Es & h & o' & Hu & -> & ->)]; rewrite E in Hin; [by apply elem_of_nil in Hin|].
      one Hin. subst. destruct (go_end _ _ (eq_sym H0)) as [Eu Ec]. rewrite E. split; [by rewrite H0|]. cbn [sync]. change (node_kids n) with (kids n).
      rewrite E, Eu, stk_cons. cbn [fR]. rewrite E. split; [left|]. split; [done|]. split; [left|]. cbn. by eapply unwrap_end.
  Qed.

  (** A reference that [b], the value the call borrows, has. *)
  Definition borr (b : option xhandle) (H : xhandle -> list nat) (x : nat) : Prop := exists y, b = Some y /\ x ∈ H y.
  Ltac run_inv R H := clear H; inversion R; subst; cbn [chframe gframe] in *; try done;
    repeat match goal with K : _ \/ _ |- _ => destruct K | K : _ /\ _ |- _ => destruct K end; try done; simplify_eq.
  Lemma touch_use E b d g st d' g' st' o : run E b st -> mstep sz d g st = Ok (d', g', st') -> (o, Use) ∈ touch d g st ->
    match o with
    | BNode x => (is_Some (rc_get (dw_datas d) x) \/ x ∈ stk fR st) /\ (x ∈ stk fR st' \/ LData x ∈ (sync acq d g st).2 \/ borr b hR x)
    | BGuard y => (is_Some (rc_get (gd_guards g) y) \/ y ∈ stk fG st \/ borr b hG y) /\ (y ∈ stk fG st' \/ LGuard y ∈ (sync acq d g st).2 \/ borr b hG y)
    | BBox _ => True
    end.
  Proof.
    intros R H Hin. assert (forall A (h : heap A) x s n, live h x s n -> is_Some (rc_get h x)) as Hsome.
    { intros A h x s n Hl. rewrite (rc_get_live _ _ _ _ Hl). eauto. }
    destruct st as [|f k]; [by apply elem_of_nil in Hin|]. destruct (ffg_dec f) as [(n & a & ->)|Hf].
    { cbn [touch] in Hin. change (node_kids n) with (kids n) in Hin.
      destruct (mstep_ffg sz _ _ _ _ _ _ _ _ H) as [(E0 & _)|(c & ks & side & E0 & _ & Es & h & o' & Hu & -> & ->)]; rewrite E0 in Hin; [by apply elem_of_nil in Hin|].
      one Hin. subst o. apply rc_unwrap_inv in Hu as [(s & v & Hv & -> & ->)|(v & Hv & -> & ->)].
      - split; [left; by eapply Hsome|]. left. rewrite stk_cons. left.
      - exfalso. by eapply (go_use _ _ (eq_sym H0)). }
    destruct f; cbn [touch] in Hin; try (by apply elem_of_nil in Hin); try (by destruct (Hf _ _ eq_refl)).
    - (* FRel *) one Hin. subst o. cbn [mstep] in H. apply bind_inv in H as ([h o] & Hd & H).
      apply rc_dec_inv in Hd as [(s & v & Hv & -> & ->)|(v & Hv & -> & ->)]; [|exfalso; by eapply (go_use _ _ (eq_sym H0))].
      split; [left; by eapply Hsome|]. right. left. left.
    - (* FRelG *) one Hin. subst o. cbn [mstep] in H. apply bind_inv in H as ([h o] & Hd & H).
      apply rc_dec_inv in Hd as [(s & v & Hv & -> & ->)|(v & Hv & -> & ->)]; [|exfalso; by eapply (go_use _ _ (eq_sym H0))].
      split; [left; by eapply Hsome|]. right. left. left.
    - (* FRelW *) destruct g0; [|by apply elem_of_nil in Hin]. by apply elem_of_list_singleton in Hin.
    - (* FWait *) one Hin. subst o. assert (borr b hG g0) as Hb.
      { run_inv R H; eexists; (split; [done|]); cbn; set_solver. }
      split; by right; right.
    - (* FChild *) one Hin. subst o. assert (borr b hR d0) as Hb.
      { run_inv R H; eexists; (split; [done|]); cbn; set_solver. }
      cbn [mstep] in H. apply bind_inv in H as (n & Hn & H). apply rc_val_inv in Hn as [s Hs]. split; [left; by eapply Hsome|by right; right].
    - (* FChildInc *) one Hin. subst o. cbn [mstep] in H. apply bind_inv in H as (h & Hd & [= <- <- <-]). apply rc_inc_inv in Hd as (s & v & Hv & ->).
      split; [left; by eapply Hsome|]. left. rewrite stk_cons. left.
    - (* FChildAlloc *) one Hin. subst o. assert (borr b hR d0) as Hb.
      { run_inv R H; eexists; (split; [done|]); cbn; set_solver. }
      cbn [mstep] in H. apply bind_inv in H as (n & Hn & H). apply rc_val_inv in Hn as [s Hs]. split; [left; by eapply Hsome|by right; right].
    - (* FChildCas *) assert (borr b hR d0) as Hb.
      { run_inv R H; eexists; (split; [done|]); cbn; set_solver. }
      cbn [mstep] in H. apply bind_inv in H as (n1 & Hn & H). apply rc_val_inv in Hn as [s Hs]. rewrite (rc_get_live _ _ _ _ Hs) in Hin.
      apply elem_of_cons in Hin as [[= ->]|Hin]; [split; [left; by eapply Hsome|by right; right]|]. exfalso.
      destruct (d_child side n1); [by apply elem_of_nil in Hin|]. set_solver.
    - (* FChildLost *) one Hin. subst o. cbn [mstep] in H. apply bind_inv in H as (h & Hd & [= <- <- <-]). apply rc_inc_inv in Hd as (s & v & Hv & ->).
      split; [left; by eapply Hsome|]. left. rewrite stk_cons. left.
    - (* FGuard *) one Hin. subst o. assert (d0 ∈ stk fR k) as Hb.
      { run_inv R H. by eapply acc_ref. }
      cbn [mstep] in H. apply bind_inv in H as (n & Hn & H). apply rc_val_inv in Hn as [s Hs]. split; [left; by eapply Hsome|left].
      destruct (gd_metas g !! d0); [|done]. injection H as <- <- <-. by rewrite stk_cons.
    - (* FGuardUp *) apply elem_of_cons in Hin as [[= ->]|Hin]; [done|]. cbn [mstep] in H.
      destruct (gd_boxes g !! b0) as [[[y|]|]|] eqn:Eb; try done; try (by apply elem_of_nil in Hin). one Hin. subst o. destruct (look_use _ _ (eq_sym H0)) as (s & n & Hl).
      split; [left; by eapply Hsome|]. left. destruct (rc_upgrade (gd_guards g) (Some y)) as [gs o] eqn:Eu.
      apply rc_upgrade_inv in Eu as [(i & s' & v & [= <-] & Hv & -> & ->)|(_ & _ & Hn)]; [|by specialize (Hn _ eq_refl); rewrite (rc_get_live _ _ _ _ Hl) in Hn].
      injection H as <- <- <-. rewrite stk_cons. left.
    - (* FGuardPar *) assert (d0 ∈ stk fR k) as Hb.
      { run_inv R H. by eapply acc_ref. }
      cbn [mstep] in H. destruct (gd_metas g !! d0) as [m|] eqn:Em; [|done]. destruct (rc_upgrade (dw_datas d) (am_parent m)) as [gs o0] eqn:Eu.
      apply elem_of_cons in Hin as [[= ->]|Hin].
      { split; [right; by rewrite stk_cons|]. left. destruct o0; injection H as <- <- <-; rewrite ?stk_cons; cbn [fR]; set_solver. }
      destruct (am_parent m) as [y|] eqn:Ep; [|by apply elem_of_nil in Hin]. one Hin. subst o. destruct (look_use _ _ (eq_sym H0)) as (s & n & Hl).
      split; [left; by eapply Hsome|]. left.
      apply rc_upgrade_inv in Eu as [(i & s' & v & [= <-] & Hv & -> & ->)|(_ & _ & Hn)]; [|by specialize (Hn _ eq_refl); rewrite (rc_get_live _ _ _ _ Hl) in Hn].
      injection H as <- <- <-. rewrite !stk_cons. cbn. left.
    - (* FGuardCas *) assert (d0 ∈ stk fR k) as Hb.
      { run_inv R H. by eapply acc_ref. }
      cbn [mstep] in H. apply bind_inv in H as (n & Hn & H). destruct (gd_metas g !! d0) as [m|] eqn:Em; [|done].
      apply elem_of_cons in Hin as [[= ->]|Hin].
      { split; [right; by rewrite stk_cons|]. left. destruct (_ =? _); [apply bind_inv in H as ([g1 y] & _ & H)|]; injection H as <- <- <-; by rewrite ?stk_cons. }
      exfalso. destruct (_ =? _); cbn in Hin; [|by apply elem_of_nil in Hin]. set_solver.
    - (* FGuardLost *) apply elem_of_cons in Hin as [[= ->]|Hin]; [done|]. cbn [mstep] in H.
      destruct (gd_boxes g !! b0) as [[[y|]|]|] eqn:Eb; try done; try (by apply elem_of_nil in Hin). one Hin. subst o. destruct (look_use _ _ (eq_sym H0)) as (s & n & Hl).
      split; [left; by eapply Hsome|]. left. destruct (rc_upgrade (gd_guards g) (Some y)) as [gs o] eqn:Eu.
      apply rc_upgrade_inv in Eu as [(i & s' & v & [= <-] & Hv & -> & ->)|(_ & _ & Hn)]; [|by specialize (Hn _ eq_refl); rewrite (rc_get_live _ _ _ _ Hl) in Hn].
      injection H as <- <- <-. rewrite stk_app, stk_cons. cbn. set_solver.
    - (* FCloneD *) one Hin. subst o. cbn [mstep] in H. apply bind_inv in H as (h & Hd & [= <- <- <-]). apply rc_inc_inv in Hd as (s & v & Hv & ->).
      split; [left; by eapply Hsome|]. left. rewrite stk_cons. left.
    - (* FCloneG *) one Hin. subst o. cbn [mstep] in H. apply bind_inv in H as (h & Hd & [= <- <- <-]). apply rc_inc_inv in Hd as (s & v & Hv & ->).
      split; [left; by eapply Hsome|]. left. rewrite stk_cons. left.
    - (* FCloneW *) apply elem_of_app in Hin as [(? & [=] & _)%elem_of_list_fmap|(? & [=] & _)%elem_of_list_fmap].
    - (* FDown *) assert (borr b hR (ar_data r) /\ borr b hG (ar_guard r)) as [Hb1 Hb2].
      { run_inv R H; split; eexists; (split; [done|]); cbn; set_solver. }
      cbn [mstep] in H. apply bind_inv in H as (n & Hn & H). apply rc_val_inv in Hn as [s Hs].
      apply elem_of_cons in Hin as [[= ->]|Hin]; [split; [left; by eapply Hsome|by right; right]|]. one Hin. subst o. split; by right; right.
    - (* FUpgrade *) destruct d0 as [x|]; [|by apply elem_of_nil in Hin]. one Hin. subst o. destruct (look_use _ _ (eq_sym H0)) as (s & n & Hl).
      split; [left; by eapply Hsome|]. left. cbn [mstep] in H. destruct (rc_upgrade (dw_datas d) (Some x)) as [gs o] eqn:Eu.
      apply rc_upgrade_inv in Eu as [(i & s' & v & [= <-] & Hv & -> & ->)|(_ & _ & Hn)]; [|by specialize (Hn _ eq_refl); rewrite (rc_get_live _ _ _ _ Hl) in Hn].
      injection H as <- <- <-. rewrite !stk_cons. left.
    - (* FGm1 *) one Hin. subst o. cbn [mstep] in H. apply bind_inv in H as ([g1 ok] & _ & H).
      split; [right; left; rewrite stk_cons; left|]. left. destruct ok; injection H as <- <- <-; rewrite !stk_cons; left.
    - (* FGm2 *) one Hin. subst o. cbn [mstep] in H.
      split; [right; left; rewrite stk_cons; left|]. left. destruct (_ =? _); injection H as <- <- <-; rewrite !stk_cons; left.
    - (* FGm3 *) one Hin. subst o. cbn [mstep] in H. apply bind_inv in H as ([g1 ok] & _ & H).
      split; [right; left; rewrite stk_cons; left|]. left. destruct ok; injection H as <- <- <-; rewrite !stk_cons; left.
    - (* FGm4 *) one Hin. subst o. cbn [mstep] in H.
      split; [right; left; rewrite stk_cons; left|]. left. destruct (_ =? _); injection H as <- <- <-; rewrite !stk_cons; left.
    - (* FGm5 *) one Hin. subst o. cbn [mstep] in H.
      split; [right; rewrite stk_cons; left|]. left. destruct (_ =? _); injection H as <- <- <-; rewrite !stk_cons; left.
    - (* FIm1 *) one Hin. subst o. cbn [mstep] in H. apply bind_inv in H as ([g1 ok] & _ & H).
      split; [right; left; rewrite stk_cons; left|]. left. destruct ok; injection H as <- <- <-; rewrite !stk_cons; left.
    - (* FIm2 *) one Hin. subst o. cbn [mstep] in H.
      split; [right; left; rewrite stk_cons; left|]. left. destruct (_ =? _); injection H as <- <- <-; rewrite !stk_cons; left.
    - (* FIm3 *) one Hin. subst o. split; [right; rewrite stk_cons; left|]. left. apply mstep_im3 in H as (h & o & y & down & k0 & -> & Hu & -> & _ & ->).
      apply rc_unwrap_inv in Hu as [(s & v0 & Hv & -> & ->)|(v0 & Hv & -> & ->)]; [|exfalso; by eapply (go_use _ _ (eq_sym H0))]. rewrite stk_cons. left.
    - (* FOpen *) destruct k as [|[] k]; try (by apply elem_of_nil in Hin). one Hin. subst o. destruct v; cbn [mstep] in H.
      all: apply bind_inv in H as (gg & Hg & [= <- <- <-]); unfold gate_open in Hg; apply bind_inv in Hg as (gs & Hg & [= <-]); apply rc_set_inv in Hg as (s & v' & Hv & ->).
      all: (split; [left; by eapply Hsome|]); left; rewrite stk_cons; apply elem_of_app.
      all: pose proof I as HI; run_inv R HI.
      all: match goal with K : acc _ _ _ _ |- _ => inversion K; subst end.
      all: cbn in *; try done.
      all: repeat match goal with K : exists _, _ |- _ => destruct K as [? K] | K : _ /\ _ |- _ => destruct K end; try done.
      all: try (left; congruence).
      all: try (right; rewrite ?stk_cons; cbn; left).
      all: repeat match goal with K : _ \/ _ |- _ => destruct K | K : exists _, _ |- _ => destruct K as [? K] | K : _ /\ _ |- _ => destruct K end; try done; subst; left; cbn; simplify_eq; set_solver.
  Qed.

  (** *** References to guards *)
  Lemma mgref d g st d' g' st' y : mstep sz d g st = Ok (d', g', st') -> y ∈ stk fG st -> is_Some (rc_get (gd_guards g') y) ->
    y ∈ stk fG st' \/ LGuard y ∈ (sync acq d g st).2 \/ exists z n, (BGuard z, Init) ∈ touch d g st /\ rc_get (gd_guards g') z = Some n /\ a_parent n = Some y.
  Proof.
    intros H Hy Hl. destruct st as [|f k]; [done|]. destruct (ffg_dec f) as [(n & a & ->)|Hf].
    { left. rewrite stk_cons in Hy. cbn [fG] in Hy.
      destruct (mstep_ffg sz _ _ _ _ _ _ _ _ H) as [(E & _ & [(side & n0 & a0 & k0 & -> & _ & ->)|(_ & _ & ->)])|(c & ks & side & E & _ & Es & h & o & Hu & -> & ->)].
      - exact Hy.
      - exact Hy.
      - destruct o; exact Hy. }
    destruct f; try done; try (by destruct (Hf _ _ eq_refl)); cbn [mstep] in H.
    all: step_inv H.
    all: rewrite ?stk_cons, ?stk_app, ?(stk_relg fG), ?(stk_rel0 fG) in * by done.
    all: cbn [fG hG option_list app] in *.
    all: try (left; set_solver).
    - apply elem_of_cons in Hy as [->|Hy]; [right; left; left|left; set_solver].
    - apply elem_of_cons in Hy as [->|Hy]; [right; left; left|left; set_solver].
    - match goal with K : gd_new_guard _ _ _ _ = Ok _ |- _ => unfold gd_new_guard in K; cbn in K; repeat case_match; try done; injection K as <- <- end.
      apply elem_of_app in Hy as [Hy|Hy]; [|left; set_solver]. right. right. exists (length (gd_guards g)), (AGuard pg false false). cbn [touch gd_guards].
      match goal with K : gd_metas g !! _ = Some _, K' : (am_box _ =? _) = true |- _ => rewrite K, K' end. cbn [when].
      split; [set_solver|]. split; [rewrite rc_get_snoc, decide_True by done; done|]. destruct pg; [|by apply elem_of_nil in Hy]. by apply elem_of_list_singleton in Hy as ->.
  Qed.
  Lemma mgkid d g st d' g' st' z n y : mstep sz d g st = Ok (d', g', st') -> rc_get (gd_guards g) z = Some n -> a_parent n = Some y ->
    (exists n', rc_get (gd_guards g') z = Some n' /\ a_parent n' = Some y) \/ (z ∈ stk fQ st /\ y ∈ stk fG st').
  Proof.
    intros H Hz Hp. destruct st as [|f k]; [done|]. destruct (ffg_dec f) as [(n0 & a & ->)|Hf].
    { left. exists n. assert (g' = g) as ->; [|done].
      destruct (mstep_ffg sz _ _ _ _ _ _ _ _ H) as [(E & -> & _)|(c & ks & side & E & -> & _)]; done. }
    assert (forall h' i s v s' v', live (gd_guards g) i s v -> h' = <[i := Some (s', v')]> (gd_guards g) -> a_parent v' = a_parent v ->
      exists n', rc_get h' z = Some n' /\ a_parent n' = Some y) as Hset.
    { intros h' i s v s' v' Hl -> E. rewrite rc_get_insert by by eapply live_lt. case_decide as Ez; [|eauto]. subst. cbn. exists v'. split; [done|].
      rewrite (rc_get_live _ _ _ _ Hl) in Hz. injection Hz as ->. congruence. }
    assert (forall gs y0 down b0, rc_set (gd_guards g) y0 (a_set_gate down b0) = Ok gs -> exists n', rc_get gs z = Some n' /\ a_parent n' = Some y) as Hgate.
    { intros gs y0 down b0 (s & v & Hv & ->)%rc_set_inv. eapply Hset; [exact Hv|done|]. by destruct down. }
    destruct f; try done; try (by destruct (Hf _ _ eq_refl)); cbn [mstep] in H.
    all: step_inv H.
    all: try (left; eauto; fail).
    all: repeat match goal with
         | K : gd_weak_inc _ _ = Ok _ |- _ => apply winc_same in K as (Em & Eb & Eg)
         | K : gd_weak_dec _ _ = Ok _ |- _ => apply wdec_same in K as (Em & Eb & Eg)
         | K : gate_open _ _ _ = Ok _ |- _ => unfold gate_open in K; apply bind_inv in K as (? & K & [= <-])
         | K : gate_try_close _ _ _ = Ok _ |- _ => unfold gate_try_close in K; apply bind_inv in K as (? & _ & K); apply bind_inv in K as (? & K & [= <- _])
         end.
    all: try (left; rewrite Eg; eauto; fail).
    all: try (left; cbn; by eapply Hgate).
    all: try (left; match goal with K : rc_upgrade _ _ = _ |- _ => apply rc_upgrade_inv in K as [(i & s & v & -> & Hv & -> & [= ->])|(_ & [=] & _)]; cbn; by eapply Hset end).
    all: try (left; match goal with K : rc_inc _ _ = _ |- _ => apply rc_inc_inv in K as (s & v & Hv & ->); cbn; by eapply Hset end).
    - apply rc_dec_inv in Hx as [(s & v & _ & _ & [=])|(v & Hv & -> & [= <-])]. cbn [gd_set_guards gd_guards].
      rewrite rc_get_insert by by eapply live_lt. case_decide as Ez; [|left; eauto]. subst. right. rewrite !stk_cons. cbn. split; [left|].
      rewrite (rc_get_live _ _ _ _ Hv) in Hz. injection Hz as <-. rewrite Hp. rewrite stk_app. cbn. left.
    - left. apply rc_dec_inv in Hx as [(s & v & Hv & -> & _)|(v & Hv & -> & [=])]. cbn. by eapply Hset.
    - match goal with K : gd_new_guard _ _ _ _ = Ok _ |- _ => unfold gd_new_guard in K; cbn in K; repeat case_match; try done; injection K as <- <- end.
      left. cbn. rewrite rc_get_snoc. rewrite decide_False; [eauto|]. intros ->. unfold rc_get in Hz. rewrite lookup_ge_None_2 in Hz by lia. done.
  Qed.
End steps.
