(** Guards under concurrency: the shapes of stacks that calls produce, and the
    preservation of the guard invariant by every step of every thread. Nothing
    here assumes anything about the data layer. *)
From Verif Require Import Base BaseLemmas Api SliceItemsModel Spec DataModel RcModel DataInv DataSteps GuardInv ArcModel ArcInv ArcConc ConcInv.
Local Open Scope nat_scope.

(** ** Shapes of stacks *)

(** Guards, the data of each, datas, variables. *)
Record genv := GE { ge_g : gdworld; ge_D : list nat; ge_d : heap dnode; ge_h : list (option (xhandle * nat)) }.

(** What a stack waits for: a data, a guard of a data, the result of the call,
    a result with the slice [r]. *)
Inductive kind := QD | QG (x : nat) | QF | QR (r : arcslice).

Definition mpar (g : gdworld) (x : nat) : option (option nat) := am_parent <$> gd_metas g !! x.
Definition rok (D : list nat) (r : arcslice) : Prop := D !! ar_guard r = Some (ar_data r).
Definition xok (D : list nat) (x : xhandle) : Prop :=
  match x with
  | XArc r => rok D r
  | XWeak (Some d) (Some g) => D !! g = Some d
  | XWeak None None => True
  | XMut _ => True
  | _ => False
  end.

Section shape.
  Context {V : Type} (E : genv).
  Notation stack := (list (frame V)).
  Notation D := (ge_D E).
  Notation g := (ge_g E).

  (** Box [b] was installed in [x]; the guard in box [b] is dead. *)
  Definition bok (x b : nat) : Prop :=
    exists o, gd_boxes g !! b = Some (Some o) /\ forall i, o = Some i -> D !! i = Some x.
  Definition bdead (b : nat) : Prop :=
    exists o, gd_boxes g !! b = Some (Some o) /\ forall i, o = Some i -> gd_guards g !! i = Some None.
  (** [pg] is what the parent of a new guard of [x] should be. *)
  Definition pgok (x : nat) (pg : option nat) : Prop :=
    match pg with
    | Some y => exists p, mpar g x = Some (Some p) /\ D !! y = Some p
    | None => mpar g x = Some None \/ exists p, mpar g x = Some (Some p) /\ ge_d E !! p = Some None
    end.
  Definition okend (b : option xhandle) (h : option nat) : Prop :=
    match h with
    | None => b = None
    | Some h => exists x k, ge_h E !! h = Some (Some (x, k)) /\ b = Some x
    end.
  Inductive acc : option xhandle -> kind -> stack -> Prop :=
  | A_end b h : okend b h -> acc b QF [KEnd h]
  | A_endr r : acc None (QR r) [KEnd None]
  | A_open r down k : acc None (QR r) k -> acc None (QR r) (FOpen (ar_guard r) down :: k)
  | A_openm r : rok D r -> acc None QF [FOpen (ar_guard r) false; KImG r; KEnd None]
  | A_img r : rok D r -> acc None QF [KImG r; KEnd None]
  | A_from b h : okend b h -> acc b QD [KFromData; KEnd h]
  | A_slice b x h : okend b h -> acc b (QG x) [KSlice x; KEnd h]
  | A_gpar b x y p k : acc b (QG x) k -> mpar g x = Some (Some p) -> bdead y ->
      acc b (QG p) (KGuardPar x y p :: k).
  Definition vok (v : val V) (q : kind) : Prop :=
    match v with
    | VData _ => q = QD
    | VGuard y => exists x, q = QG x /\ D !! y = Some x
    | VHold r => q = QR r /\ rok D r
    | VFin x o => (q = QF \/ exists r, x = Some (XArc r) /\ q = QR r) /\ forall y, x = Some y -> xok D y
    end.
  Definition chframe (f : frame V) (x : nat) : Prop :=
    match f with
    | FChild y _ | FChildInc y _ _ | FChildAlloc y _ | FChildCas y _ _ _ | FChildLost y _ _ _ _
    | FChildUndo y _ _ _ _ | FChildUnwrap y _ _ _ _ => y = x
    | _ => False
    end.
  Definition gframe (f : frame V) (x : nat) : Prop :=
    match f with
    | FGuard y => y = x
    | FGuardUp y b => y = x /\ bok x b
    | FGuardPar y b => y = x /\ bdead b
    | FGuardCas y b pg => y = x /\ bdead b /\ pgok x pg
    | FGuardLost y b pg => y = x /\ bok x b
    | _ => False
    end.
  Inductive fgs (r : arcslice) : stack -> Prop :=
  | FG_base : fgs r [FOpen (ar_guard r) false; KImG r; KEnd None]
  | FG_cons side n a k : fgs r k -> fgs r (KFg side n a :: k).
  Inductive run : option xhandle -> stack -> Prop :=
  | R_idle : run None []
  | R_rel b x k : run b k -> run b (FRel x :: k)
  | R_items b n p a k : run b k -> run b (FItems n p a :: k)
  | R_relg b i k : run b k -> stk fL k = [] -> run b (FRelG i :: k)
  | R_relw o : run None [FRelW o; FV (VFin None (Some RUnit)); KEnd None]
  | R_val b v q k : vok v q -> acc b q k -> run b (FV v :: k)
  | R_wait r side h : okend (Some (XArc r)) h ->
      run (Some (XArc r)) [FWait (ar_guard r) false; FChild (ar_data r) side; KFromData; KEnd h]
  | R_waitd r h : okend (Some (XArc r)) h ->
      run (Some (XArc r)) [FWait (ar_guard r) true; FDown r; KEnd h]
  | R_child f r h : chframe f (ar_data r) -> okend (Some (XArc r)) h ->
      run (Some (XArc r)) [f; KFromData; KEnd h]
  | R_guard b f x k : gframe f x -> acc b (QG x) k -> run b (f :: k)
  | R_clone f r h : f = FCloneD r \/ f = FCloneG r -> okend (Some (XArc r)) h -> run (Some (XArc r)) [f; KEnd h]
  | R_clonew x y h : okend (Some (XWeak x y)) h -> run (Some (XWeak x y)) [FCloneW x y; KEnd h]
  | R_down r h : okend (Some (XArc r)) h -> run (Some (XArc r)) [FDown r; KEnd h]
  | R_upgrade x y h : okend (Some (XWeak x y)) h -> run (Some (XWeak x y)) [FUpgrade x; KEnd h]
  | R_gm1 r : rok D r -> run None [FGm1 r; KEnd None]
  | R_gm2 f r : f = FGm2 r \/ f = FGm3 r -> rok D r -> run None [f; FOpen (ar_guard r) true; KEnd None]
  | R_gm4 f r : f = FGm4 r \/ f = FGm5 r -> rok D r ->
      run None [f; FOpen (ar_guard r) false; FOpen (ar_guard r) true; KEnd None]
  | R_im1 r : rok D r -> run None [FIm1 r; KEnd None]
  | R_im2 f r : f = FIm2 r \/ f = FIm3 r -> rok D r -> run None [f; FOpen (ar_guard r) false; KEnd None]
  | R_fg n a r k : rok D r -> fgs r k -> run None (FFg n a :: k)
  | R_hold r : rok D r -> run None [FHold r; KEnd None].

  Lemma acc_nolatch b q k : acc b q k -> (q = QD \/ exists x, q = QG x) -> stk fL k = [].
  Proof.
    induction 1; intros [?|[? ?]]; simplify_eq; try done. cbn. apply IHacc. eauto.
  Qed.
  Lemma acc_latch b q k i down : acc b q k -> (i, down) ∈ stk fL k ->
    i ∈ stk fG k \/ exists r, q = QR r /\ i = ar_guard r.
  Proof.
    induction 1; intros Hl; try by (cbn in Hl; apply elem_of_nil in Hl).
    - apply elem_of_cons in Hl as [[= -> ->]|Hl]; [right; eauto|]. by apply IHacc.
    - apply elem_of_list_singleton in Hl as [= -> ->]. left. left.
    - destruct (IHacc Hl) as [|(? & [=] & _)]. by left.
  Qed.
  (** The thread that has a latch also has a reference to the guard. *)
  Lemma run_latch b st i down : run b st -> (i, down) ∈ stk fL st -> i ∈ stk fG st.
  Proof.
    induction 1; intros Hl.
    1: by apply elem_of_nil in Hl.
    1,2: by apply IHrun.
    1: right; by apply IHrun.
    1: by apply elem_of_nil in Hl.
    1: { rewrite stk_cons in Hl. cbn in Hl.
         destruct (acc_latch _ _ _ _ _ H0 Hl) as [Hg|(r & -> & ->)].
         - rewrite stk_cons. apply elem_of_app. by right.
         - rewrite stk_cons. apply elem_of_app. left. destruct v as [| |r'|x o]; cbn in H.
           + done.
           + by destruct H as (? & ? & _).
           + destruct H as [[= ->] _]. left.
           + destruct H as [[?|(r' & -> & [= ->])] _]; [done|]. left. }
    1,2: by apply elem_of_nil in Hl.
    1: destruct f; try done; by apply elem_of_nil in Hl.
    1: { rewrite stk_cons in Hl. assert (fL f = []) as E0 by by destruct f. rewrite E0 in Hl.
         destruct (acc_latch _ _ _ _ _ H0 Hl) as [Hg|(r & [=] & _)].
         rewrite stk_cons. apply elem_of_app. by right. }
    1: destruct H as [-> | ->]; by apply elem_of_nil in Hl.
    1-4: by apply elem_of_nil in Hl.
    1: destruct H as [-> | ->]; apply elem_of_list_singleton in Hl as [= -> ->]; left.
    1: destruct H as [-> | ->]; cbn in Hl; apply elem_of_cons in Hl as [[= -> ->]|[= -> ->]%elem_of_list_singleton]; left.
    1: by apply elem_of_nil in Hl.
    1: destruct H as [-> | ->]; apply elem_of_list_singleton in Hl as [= -> ->]; left.
    - rewrite stk_cons in *. cbn in Hl |- *. clear H. induction H0; [|by apply IHfgs].
      cbn in Hl. apply elem_of_list_singleton in Hl as [= -> ->]. left.
    - by apply elem_of_nil in Hl.
  Qed.
  Lemma acc_end_borrow b q k : acc b q k -> exists h, okend b h /\ stk fB k = fB (V:=V) (KEnd h).
  Proof.
    induction 1; try (by exists None); try (exists h; split; [done|]; cbn; by rewrite ?app_nil_r).
    - destruct IHacc as (h & ? & ?). by exists h.
    - destruct IHacc as (h & ? & ?). by exists h.
  Qed.
  (** What the thread borrows. *)
  Lemma run_borrow b st : run b st -> exists h, okend b h /\ stk fB st = fB (V:=V) (KEnd h).
  Proof.
    induction 1; try (exists None; by split); try (exists h; split; [done|]; cbn; by rewrite ?app_nil_r);
      try (destruct IHrun as (h & ? & ?); by exists h).
    - destruct (acc_end_borrow _ _ _ H0) as (h & ? & E0). exists h. split; [done|].
      rewrite stk_cons, E0. by destruct v as [| | |[]].
    - exists h. split; [done|]. destruct f; try done; cbn; by rewrite ?app_nil_r.
    - destruct (acc_end_borrow _ _ _ H0) as (h & ? & E0). exists h. split; [done|].
      rewrite stk_cons, E0. by destruct f.
    - exists h. split; [done|]. destruct H as [-> | ->]; cbn; by rewrite ?app_nil_r.
    - exists None. split; [done|]. by destruct H as [-> | ->].
    - exists None. split; [done|]. by destruct H as [-> | ->].
    - exists None. split; [done|]. by destruct H as [-> | ->].
    - exists None. split; [done|]. rewrite stk_cons. cbn. clear H. by induction H0.
  Qed.
End shape.

(** What one thread does leaves the facts of the others' stacks alone. *)
Record gstab (E E' : genv) : Prop := {
  gs_D : forall i x, ge_D E !! i = Some x -> ge_D E' !! i = Some x;
  gs_par : forall x o, mpar (ge_g E) x = Some o -> mpar (ge_g E') x = Some o;
  gs_box : forall b o, gd_boxes (ge_g E) !! b = Some o -> gd_boxes (ge_g E') !! b = Some o;
  gs_dead : forall i, gd_guards (ge_g E) !! i = Some None -> gd_guards (ge_g E') !! i = Some None;
  gs_ddead : forall i, ge_d E !! i = Some None -> ge_d E' !! i = Some None
}.
Lemma gstab_refl E : gstab E E.
Proof. by split. Qed.

Section stable.
  Context {V : Type} (E E' : genv) (S : gstab E E').
  Notation stack := (list (frame V)).
  Definition skeep (B : list nat) : Prop := forall h x k, h ∈ B ->
    ge_h E !! h = Some (Some (x, k)) -> exists k', ge_h E' !! h = Some (Some (x, k')).
  Lemma rok_stable r : rok (ge_D E) r -> rok (ge_D E') r.
  Proof. apply (gs_D _ _ S). Qed.
  Lemma xok_stable x : xok (ge_D E) x -> xok (ge_D E') x.
  Proof. destruct x as [r|[x|] [y|]| | | |]; try done; [apply rok_stable|apply (gs_D _ _ S)]. Qed.
  Lemma bok_stable x b : bok E x b -> bok E' x b.
  Proof.
    intros (o & H & Ho). exists o. split; [by apply (gs_box _ _ S)|]. intros i Hi. apply (gs_D _ _ S). auto.
  Qed.
  Lemma bdead_stable b : bdead E b -> bdead E' b.
  Proof.
    intros (o & H & Ho). exists o. split; [by apply (gs_box _ _ S)|]. intros i Hi. apply (gs_dead _ _ S). auto.
  Qed.
  Lemma pgok_stable x pg : pgok E x pg -> pgok E' x pg.
  Proof.
    destruct pg as [y|]; cbn.
    - intros (p & H1 & H2). exists p. split; [by apply (gs_par _ _ S)|by apply (gs_D _ _ S)].
    - intros [H|(p & H1 & H2)]; [left; by apply (gs_par _ _ S)|right]. exists p.
      split; [by apply (gs_par _ _ S)|by apply (gs_ddead _ _ S)].
  Qed.
  Lemma okend_stable b h : skeep (fB (V:=V) (KEnd h)) -> okend E b h -> okend E' b h.
  Proof.
    destruct h as [h|]; [|done]. intros Hk (x & k & H & ->). destruct (Hk h x k) as [k' Hk']; [left|done|].
    by exists x, k'.
  Qed.
  Lemma skeep_incl (B B' : list nat) : (forall h, h ∈ B -> h ∈ B') -> skeep B' -> skeep B.
  Proof. intros H Hs h x k Hh. apply Hs. auto. Qed.
  Lemma acc_stable b q (k : stack) : skeep (stk fB k) -> acc E b q k -> acc E' b q k.
  Proof.
    intros Hk. induction 1; try (by constructor); try (constructor; by apply rok_stable);
      try (constructor; apply okend_stable; [|done]; eapply skeep_incl; [|done]; intros ?; cbn; by rewrite ?app_nil_r).
    - constructor. by apply IHacc.
    - constructor; [by apply IHacc|by apply (gs_par _ _ S)|by apply bdead_stable].
  Qed.
  Lemma vok_stable (v : val V) q : vok E v q -> vok E' v q.
  Proof.
    destruct v as [| |r|x o]; cbn; [done|..].
    - intros (x & ? & ?). exists x. split; [done|by apply (gs_D _ _ S)].
    - intros [? ?]. split; [done|by apply rok_stable].
    - intros [? H]. split; [done|]. intros y Hy. apply xok_stable. auto.
  Qed.
  Lemma gframe_stable (f : frame V) x : gframe E f x -> gframe E' f x.
  Proof.
    destruct f; try done; cbn.
    - intros [? ?]. split; [done|by apply bok_stable].
    - intros [? ?]. split; [done|by apply bdead_stable].
    - intros (? & ? & ?). split_and!; [done|by apply bdead_stable|by apply pgok_stable].
    - intros [? ?]. split; [done|by apply bok_stable].
  Qed.
  Lemma fB_gframe f x : gframe E f x -> fB (V:=V) f = [].
  Proof. by destruct f. Qed.
  Lemma run_stable b (st : stack) : skeep (stk fB st) -> run E b st -> run E' b st.
  Proof.
    intros Hk. induction 1; try (by constructor; auto using rok_stable);
      try (constructor; auto; try apply okend_stable; try done; eapply skeep_incl; [|exact Hk]; intros ?; cbn; by rewrite ?app_nil_r).
    - econstructor; [by eapply vok_stable|]. eapply acc_stable; [|done].
      eapply skeep_incl; [|exact Hk]. intros ?. rewrite stk_cons, elem_of_app. by right.
    - constructor; [done|]. apply okend_stable; [|done]. eapply skeep_incl; [|exact Hk]. intros ?.
      destruct f; try done; cbn; by rewrite ?app_nil_r.
    - econstructor; [by eapply gframe_stable|]. eapply acc_stable; [|done].
      eapply skeep_incl; [|exact Hk]. intros ?. rewrite stk_cons, elem_of_app. by right.
    - constructor; [done|]. apply okend_stable; [|done]. eapply skeep_incl; [|exact Hk]. intros ?.
      destruct H as [-> | ->]; cbn; by rewrite ?app_nil_r.
    - econstructor; [by apply rok_stable|done].
  Qed.
End stable.

(** ** Heaps *)

Section heap.
  Context {A : Type}.
  Implicit Types h : heap A.
  Definition hstab h h' : Prop := length h' = length h /\ forall i, h !! i = Some None -> h' !! i = Some None.
  Lemma hstab_refl h : hstab h h.
  Proof. by split. Qed.
  Lemma hstab_insert h i s v o : live h i s v -> hstab h (<[i := o]> h).
  Proof.
    intros Hv. split; [by rewrite insert_length|]. intros j Hj.
    destruct (decide (i = j)) as [->|]; [unfold live in Hv; congruence|]. by rewrite list_lookup_insert_ne.
  Qed.
  Lemma rc_val_inv h i v : rc_val h i = Ok v -> exists s, live h i s v.
  Proof. unfold rc_val. destruct (rc_get h i) eqn:E; [|done]. intros [= <-]. by apply rc_get_Some. Qed.
  Lemma rc_inc_inv h i h' : rc_inc h i = Ok h' -> exists s v, live h i s v /\ h' = <[i := Some (S s, v)]> h.
  Proof. unfold rc_inc, live. destruct (h !! i) as [[[s v]|]|]; try done. intros [= <-]. eauto. Qed.
  Lemma rc_dec_inv h i h' r : rc_dec h i = Ok (h', r) ->
    (exists s v, live h i (S (S s)) v /\ h' = <[i := Some (S s, v)]> h /\ r = None) \/
    (exists v, live h i 1 v /\ h' = <[i := None]> h /\ r = Some v).
  Proof.
    unfold rc_dec, live. destruct (h !! i) as [[[[|[|s]] v]|]|]; try done; intros [= <- <-]; eauto 10.
  Qed.
  Lemma rc_unwrap_inv h i h' r : rc_try_unwrap h i = Ok (h', r) ->
    (exists s v, live h i (S (S s)) v /\ h' = h /\ r = None) \/
    (exists v, live h i 1 v /\ h' = <[i := None]> h /\ r = Some v).
  Proof.
    unfold rc_try_unwrap, live. destruct (h !! i) as [[[[|[|s]] v]|]|]; try done; intros [= <- <-]; eauto 10.
  Qed.
  Lemma rc_upgrade_inv h o h' r : rc_upgrade h o = (h', r) ->
    (exists i s v, o = Some i /\ live h i s v /\ h' = <[i := Some (S s, v)]> h /\ r = Some i) \/
    (h' = h /\ r = None /\ forall i, o = Some i -> rc_get h i = None).
  Proof.
    unfold rc_upgrade, live, rc_get. destruct o as [i|].
    - destruct (h !! i) as [[[s v]|]|] eqn:E; intros [= <- <-]; [left; eauto 10|right..];
        (split_and!; [done..|]; intros j [= <-]; by rewrite E).
    - intros [= <- <-]. by right.
  Qed.
  Lemma rc_set_inv h i f h' : rc_set h i f = Ok h' -> exists s v, live h i s v /\ h' = <[i := Some (s, f v)]> h.
  Proof. unfold rc_set, live. destruct (h !! i) as [[[s v]|]|]; try done. intros [= <-]. eauto. Qed.
  Lemma rc_get_dead h i : i < length h -> rc_get h i = None -> h !! i = Some None.
  Proof.
    intros H. unfold rc_get. destruct (lookup_lt_is_Some_2 _ _ H) as [[[s v]|] E]; by rewrite E.
  Qed.
End heap.
Lemma bind_inv {A B} (m : res A) (f : A -> res B) y : (x ← m; f x) = Ok y -> exists x, m = Ok x /\ f x = Ok y.
Proof. destruct m; try done. eauto. Qed.

(** ** One step of a thread *)

Section step.
  Context {V : Type} (sz : N).
  Notation dworld := (dworld V).
  Notation stack := (list (frame V)).
  Implicit Types d : dworld.

  Lemma alloc_release_datas d a d' : alloc_release sz d a = Ok d' -> dw_datas d' = dw_datas d.
  Proof.
    unfold alloc_release. destruct a as [a|]; [|by intros [= <-]].
    intros ([h r] & _ & H)%bind_inv. destruct r as [v|]; [|by injection H as <-]. unfold salloc_drop in H.
    destruct (_ || _)%N; [by injection H as <-|]. cbn in H. destruct (dw_blocks d !! _); [|done].
    destruct (_ || _); [done|]. by injection H as <-.
  Qed.
  Lemma alloc_clone_datas d a d' : alloc_clone d a = Ok d' -> dw_datas d' = dw_datas d.
  Proof.
    unfold alloc_clone. destruct a as [a|]; [|by intros [= <-]]. intros (h & _ & [= <-])%bind_inv. done.
  Qed.
  Lemma mem_take_datas d p d' v : mem_take sz d p = Ok (d', v) -> dw_datas d' = dw_datas d.
  Proof. unfold mem_take. intros (x & _ & [= <- _])%bind_inv. done. Qed.

  Lemma gstab_data g D h h' hs hs' : (forall i, h !! i = Some None -> h' !! i = Some None) ->
    gstab (GE g D h hs) (GE g D h' hs').
  Proof. by split. Qed.
  Lemma gstab_guard g D h hs i s n o : live (gd_guards g) i s n ->
    gstab (GE g D h hs) (GE (gd_set_guards g (<[i := o]> (gd_guards g))) D h hs).
  Proof. intros H. split; try done. cbn. by apply (hstab_insert _ _ _ _ o H). Qed.
  Lemma gstab_weak g g' D h hs : gd_guards g' = gd_guards g -> gd_boxes g' = gd_boxes g -> gd_metas g' = gd_metas g ->
    gstab (GE g D h hs) (GE g' D h hs).
  Proof. intros E1 E2 E3. split; cbn; unfold mpar; by rewrite ?E1, ?E2, ?E3. Qed.
  Lemma gstab_new_data g D h hs par o :
    gstab (GE g D h hs) (GE (gd_new_data g par) D (h ++ [o]) hs).
  Proof.
    split; cbn; try done.
    - intros x y. unfold mpar. cbn. intros (m & Hm & ->)%fmap_Some. by rewrite lookup_app_l, Hm by by eapply lookup_lt_Some.
    - intros b y H. by rewrite lookup_app_l by by eapply lookup_lt_Some.
    - intros i H. by rewrite lookup_app_l by by eapply lookup_lt_Some.
  Qed.
  Lemma gstab_trans E1 E2 E3 : gstab E1 E2 -> gstab E2 E3 -> gstab E1 E3.
  Proof. intros [] []. split; eauto. Qed.

  Section one.
    Context (d : dworld) (g : gdworld) (D : list nat) (hs : list (option (xhandle * nat))).
    Context (GR GW : list nat) (LT : list (nat * bool)) (b : option xhandle).
    Notation E := (GE g D (dw_datas d) hs).
    (** What a step has to establish. *)
    Definition gpost (st : stack) (d' : dworld) (g' : gdworld) (st' : stack) : Prop := exists X,
      ginv g' (D ++ X) (stk fG st' ++ GR) (stk fW st' ++ GW) (stk fL st' ++ LT) /\
      length (gd_metas g') = length (dw_datas d') /\
      run (GE g' (D ++ X) (dw_datas d') hs) b st' /\
      gstab E (GE g' (D ++ X) (dw_datas d') hs) /\
      stk fB st' = stk fB st.
    Lemma gpost_mk st d' g' st' :
      ginv g' D (stk fG st' ++ GR) (stk fW st' ++ GW) (stk fL st' ++ LT) ->
      length (gd_metas g') = length (dw_datas d') ->
      gstab E (GE g' D (dw_datas d') hs) -> stk fB st' = stk fB st ->
      run (GE g' D (dw_datas d') hs) b st' ->
      gpost st d' g' st'.
    Proof. intros. exists []. by rewrite app_nil_r. Qed.
    Context (Hm : length (gd_metas g) = length (dw_datas d)).
    (** Only the data layer changes. *)
    Lemma gpost_data st d' st' :
      ginv g D (stk fG st' ++ GR) (stk fW st' ++ GW) (stk fL st' ++ LT) ->
      hstab (dw_datas d) (dw_datas d') -> stk fB st' = stk fB st ->
      (forall E', gstab E E' -> skeep E E' (stk fB st) -> run E' b st') ->
      gpost st d' g st'.
    Proof.
      intros HG [Hl Hd] HB Hr. apply gpost_mk; [done|by rewrite Hl|by apply gstab_data|done|].
      apply Hr; [by apply gstab_data|]. intros h x k _. cbn. eauto.
    Qed.
    Lemma gpost_guard st gs st' i s n o :
      live (gd_guards g) i s n -> gs = <[i := o]> (gd_guards g) ->
      ginv (gd_set_guards g gs) D (stk fG st' ++ GR) (stk fW st' ++ GW) (stk fL st' ++ LT) ->
      stk fB st' = stk fB st ->
      (forall E', gstab E E' -> skeep E E' (stk fB st) -> run E' b st') ->
      gpost st d (gd_set_guards g gs) st'.
    Proof.
      intros Hv -> HG HB Hr. apply gpost_mk; [done|done|by eapply gstab_guard|done|].
      apply Hr; [by eapply gstab_guard|]. intros h x k _. cbn. eauto.
    Qed.
    Lemma gpost_weak st g' st' :
      gd_guards g' = gd_guards g -> gd_boxes g' = gd_boxes g -> gd_metas g' = gd_metas g ->
      ginv g' D (stk fG st' ++ GR) (stk fW st' ++ GW) (stk fL st' ++ LT) ->
      stk fB st' = stk fB st ->
      (forall E', gstab E E' -> skeep E E' (stk fB st) -> run E' b st') ->
      gpost st d g' st'.
    Proof.
      intros E1 E2 E3 HG HB Hr. apply gpost_mk; [done|by rewrite E3|by apply gstab_weak|done|].
      apply Hr; [by apply gstab_weak|]. intros h x k _. cbn. eauto.
    Qed.
  End one.

  Lemma stk_nil {A} (F : frame V -> list A) (l : list nat) (c : nat -> frame V) : (forall x, F (c x) = []) -> stk F (c <$> l) = [].
  Proof. intros H. induction l as [|x l IH]; [done|]. rewrite fmap_cons, stk_cons, H, IH. done. Qed.
  Lemma run_kids E b l k : run E b k -> run E b ((FRel <$> l) ++ k : stack).
  Proof. intros H. induction l; [done|]. by constructor. Qed.
  Lemma stk_relopt {A} (F : frame V -> list A) pg (k : stack) : stk F (rel_opt pg ++ k) = match pg with Some y => F (FRelG y) | None => [] end ++ stk F k.
  Proof. by destruct pg. Qed.
  Lemma run_relopt E b pg k : run E b k -> stk fL k = [] -> run E b (rel_opt pg ++ k : stack).
  Proof. intros H1 H2. destruct pg; [|done]. by constructor. Qed.

  Lemma gate_try_close_inv g i down g' ok : gate_try_close g i down = Ok (g', ok) -> exists s n, live (gd_guards g) i s n /\
    ((a_gate down n = true /\ g' = g /\ ok = false) \/
     (a_gate down n = false /\ g' = gd_set_guards g (<[i := Some (s, a_set_gate down true n)]> (gd_guards g)) /\ ok = true)).
  Proof.
    unfold gate_try_close. intros (n & (s & Hn)%rc_val_inv & H)%bind_inv. exists s, n. split; [done|].
    apply bind_inv in H as (gs & (s' & n' & Hn' & ->)%rc_set_inv & [= <- <-]).
    destruct (live_fun _ _ _ _ _ _ Hn Hn') as [<- <-]. destruct (a_gate down n) eqn:En; [left|by right].
    split_and!; [done| |done]. assert (a_set_gate down true n = n) as ->.
    { destruct n, down; cbn in *; by subst. }
    rewrite list_insert_id by done. by destruct g.
  Qed.
  Lemma ginv_close g D RI RW LT i s n down : ginv g D RI RW LT -> live (gd_guards g) i s n -> a_gate down n = false ->
    ginv (gd_set_guards g (<[i := Some (s, a_set_gate down true n)]> (gd_guards g))) D RI RW ((i, down) :: LT).
  Proof.
    intros HG Hn Hd. eapply ginv_gate; [exact HG|done|]. intros [j dn]. rewrite Hd, lcnt2_cons.
    destruct (decide ((i, down) = (j, dn))) as [E0|E0].
    - rewrite !decide_True by done. lia.
    - rewrite !decide_False by done. lia.
  Qed.

  Lemma mstep_guard d g D hs GR GW LT b st d' g' st' :
    mstep sz d g st = Ok (d', g', st') ->
    ginv g D (stk fG st ++ GR) (stk fW st ++ GW) (stk fL st ++ LT) ->
    length (gd_metas g) = length (dw_datas d) ->
    run (GE g D (dw_datas d) hs) b st ->
    (forall x, b = Some x -> xok D x /\ (forall i, i ∈ hG x -> i ∈ GR) /\ (forall i, i ∈ hW x -> i ∈ GW)) ->
    (forall i down, (i, down) ∈ LT -> i ∈ GR) ->
    gpost d g D hs GR GW LT b st d' g' st'.
  Proof.
    intros Hs HG Hm Hr Hb HL. destruct Hr as
      [|b x k Hr|b n p a k Hr|b i k Hr Hk|o|b v q k Hv Ha|r side h Ho|r h Ho|f r h Hf Ho|b f x k Hf Ha|f r h Hf Ho
      |x y h Ho|r h Ho|x y h Ho|r Hok|f r Hf Hok|f r Hf Hok|r Hok|f r Hf Hok|n a r k Hok Hk|r Hok].
    - done.
    - (* FRel *)
      cbn in Hs. apply bind_inv in Hs as ([h r] & Hd & Hs).
      apply rc_dec_inv in Hd as [(s & v & Hv & -> & ->)|(v & Hv & -> & ->)].
      + injection Hs as <- <- <-. apply gpost_data; try done; [by eapply hstab_insert|].
        intros E' HE HB. by eapply run_stable.
      + cbn in Hs. destruct (node_own sz v) as [p len]. injection Hs as <- <- <-. apply gpost_data.
        * done.
        * rewrite !stk_app, !stk_cons, !stk_nil by done. done.
        * by eapply hstab_insert.
        * rewrite !stk_app, !stk_cons, !stk_nil by done. done.
        * intros E' HE HB. apply run_kids. constructor. by eapply run_stable.
    - (* FItems *)
      destruct n as [|n]; cbn in Hs.
      + apply bind_inv in Hs as (d1 & Hd & [= <- <- <-]). apply gpost_data; try done.
        * rewrite (alloc_release_datas _ _ _ Hd). apply hstab_refl.
        * intros E' HE HB. by eapply run_stable.
      + apply bind_inv in Hs as ([d1 v] & Hd & [= <- <- <-]). apply gpost_data; try done.
        * cbn. rewrite (mem_take_datas _ _ _ _ Hd). apply hstab_refl.
        * intros E' HE HB. constructor. by eapply run_stable.
    - (* FRelG *)
      cbn in Hs. apply bind_inv in Hs as ([gs r] & Hd & Hs). rewrite !stk_cons in HG. cbn [fG fW fL app] in HG.
      rewrite Hk in HG. cbn [app] in HG.
      apply rc_dec_inv in Hd as [(s & n & Hv & -> & ->)|(n & Hv & -> & ->)]; injection Hs as <- <- <-.
      + eapply gpost_guard; [done|done|done|..].
        * rewrite Hk. by eapply ginv_dec.
        * done.
        * intros E' HE HB. by eapply run_stable.
      + eapply gpost_guard; [done|done|done|..].
        * rewrite !stk_relopt. eapply ginv_perm; [..|eapply ginv_kill; [exact HG|exact Hv|]].
          -- unfold a_pars. destruct (a_parent n); cbn; by rewrite ?app_assoc.
          -- by destruct (a_parent n).
          -- rewrite Hk. by destruct (a_parent n).
          -- intros j down Hj%HL. apply elem_of_app. by right.
        * rewrite stk_relopt. by destruct (a_parent n).
        * intros E' HE HB. apply run_relopt; [|done]. by eapply run_stable.
    - (* FRelW *)
      cbn in Hs. apply bind_inv in Hs as (g1 & Hd & [= <- <- <-]). cbn in HG. destruct o as [i|].
      + destruct (ginv_wdec _ _ _ _ _ _ HG) as (g2 & E2 & HG2 & ? & ? & ?). rewrite E2 in Hd. injection Hd as ->.
        apply gpost_weak; try done. intros E' HE HB. eapply R_val; [|by constructor]. split; [by left|done].
      + injection Hd as <-. apply gpost_weak; try done.
        intros E' HE HB. eapply R_val; [|by constructor]. split; [by left|done].
    - (* FV *)
      destruct Ha as [b h Ho|r|r down k Ha|r Hok|r Hok|b h Ho|b x h Ho|b x y p k Ha Hp Hy].
      + by destruct v.
      + by destruct v.
      + (* FOpen, holding r *)
        assert (mstep sz d g (FV v :: FOpen (ar_guard r) down :: k) =
          (g ← gate_open g (ar_guard r) down; Ok (d, g, FV v :: k))) as E0 by by destruct v.
        rewrite E0 in Hs. clear E0. apply bind_inv in Hs as (g1 & Hg1 & [= <- <- <-]).
        unfold gate_open in Hg1. apply bind_inv in Hg1 as (gs & Hgs & [= <-]).
        apply rc_set_inv in Hgs as (s & n & Hn & ->).
        rewrite !stk_cons in HG. cbn [fG fW fL app] in HG.
        assert (fL (FV v) = []) as EL by done.
        eapply gpost_guard; [done|done|done|..].
        * rewrite !stk_cons. rewrite EL in *. cbn [app] in *. eapply ginv_gate; [exact HG|done|].
          intros [j dn]. cbn [lcnt2]. rewrite lcnt2_cons.
          assert (a_gate down n = true) as ->.
          { destruct (ginv_latch _ _ _ _ _ HG (ar_guard r) down) as (s' & n' & Hn' & Hc); [left|].
            by destruct (live_fun _ _ _ _ _ _ Hn Hn') as [_ ->]. }
          destruct (decide ((ar_guard r, down) = (j, dn))) as [E0|E0].
          -- rewrite !decide_True by done. lia.
          -- rewrite !decide_False by done. lia.
        * done.
        * intros E' HE HB. eapply R_val; [by eapply vok_stable|]. by eapply acc_stable.
      + (* FOpen in into_mut *)
        assert (mstep sz d g [FV v; FOpen (ar_guard r) false; KImG r; KEnd None] =
          (g ← gate_open g (ar_guard r) false; Ok (d, g, [FV v; KImG r; KEnd None]))) as E0 by by destruct v.
        rewrite E0 in Hs. clear E0. apply bind_inv in Hs as (g1 & Hg1 & [= <- <- <-]).
        unfold gate_open in Hg1. apply bind_inv in Hg1 as (gs & Hgs & [= <-]).
        apply rc_set_inv in Hgs as (s & n & Hn & ->).
        rewrite !stk_cons in HG. cbn [fG fW fL app] in HG.
        eapply gpost_guard; [done|done|done|..].
        * rewrite !stk_cons. cbn [fG fW fL app]. eapply ginv_gate; [exact HG|done|].
          intros [j dn]. rewrite lcnt2_cons.
          assert (a_gate false n = true) as ->.
          { destruct (ginv_latch _ _ _ _ _ HG (ar_guard r) false) as (s' & n' & Hn' & Hc); [left|].
            by destruct (live_fun _ _ _ _ _ _ Hn Hn') as [_ ->]. }
          change (stk fL ([] : stack) ++ LT) with LT.
          destruct (decide ((ar_guard r, false) = (j, dn))) as [E0|E0].
          -- rewrite !decide_True by done. lia.
          -- rewrite !decide_False by done. lia.
        * done.
        * intros E' HE HB. eapply R_val; [by eapply vok_stable|]. constructor. by eapply rok_stable.
      + (* KImG *)
        assert (mstep sz d g [FV v; KImG r; KEnd None] = Ok (d, g, [FRelG (ar_guard r); FV v; KEnd None])) as E0 by by destruct v.
        rewrite E0 in Hs. clear E0. injection Hs as <- <- <-.
        apply gpost_data; try done.
        * rewrite !stk_cons in HG |- *. eapply ginv_perm; [..|exact HG]; try done.
          rewrite <- !app_assoc. apply Permutation_app_swap_app.
        * intros E' HE HB. constructor; [|done]. eapply R_val; [by eapply vok_stable|]. by constructor.
      + destruct v as [x| | |x o]; [|by destruct Hv as (? & ? & _)|by destruct Hv as [? _]|by destruct Hv as [[?|(? & _ & ?)] _]].
        cbn in Hs. injection Hs as <- <- <-. apply gpost_data; try done.
        intros E' HE HB. eapply R_guard; [done|]. constructor. eapply okend_stable; [|done].
        cbn in HB. by rewrite app_nil_r in HB.
      + destruct v as [|y| |z o]; [done| |by destruct Hv as [? _]|by destruct Hv as [[?|(? & _ & ?)] _]].
        destruct Hv as (? & [= <-] & HDy). cbn in Hs. injection Hs as <- <- <-. apply gpost_data; try done.
        intros E' HE HB. eapply R_val.
        * split; [by left|]. intros ? [= <-]. by apply (gs_D _ _ HE).
        * constructor. eapply okend_stable; [|done]. cbn in HB. by rewrite app_nil_r in HB.
      + destruct v as [|z| |z o]; [done| |by destruct Hv as [? _]|by destruct Hv as [[?|(? & _ & ?)] _]].
        destruct Hv as (? & [= <-] & HDy). cbn in Hs. injection Hs as <- <- <-. apply gpost_data; try done.
        intros E' HE HB. constructor. eapply R_guard.
        * split_and!; [done|by eapply bdead_stable|]. exists p. split; [by apply (gs_par _ _ HE)|by apply (gs_D _ _ HE)].
        * by eapply acc_stable.
    - (* FWait *)
      cbn in Hs. apply bind_inv in Hs as (n & _ & Hs). destruct (a_clone n); injection Hs as <- <- <-.
      + apply gpost_data; try done. intros E' HE HB. constructor. eapply okend_stable; [|done].
        cbn in HB. by rewrite app_nil_r in HB.
      + apply gpost_data; try done. intros E' HE HB. constructor; [done|]. eapply okend_stable; [|done].
        cbn in HB. by rewrite app_nil_r in HB.
    - cbn in Hs. apply bind_inv in Hs as (n & _ & Hs). destruct (a_down n); injection Hs as <- <- <-.
      + apply gpost_data; try done. intros E' HE HB. constructor. eapply okend_stable; [|done].
        cbn in HB. by rewrite app_nil_r in HB.
      + apply gpost_data; try done. intros E' HE HB. apply R_down. eapply okend_stable; [|done].
        cbn in HB. by rewrite app_nil_r in HB.
    - (* FChild.. *)
      assert (forall E' : genv, gstab (GE g D (dw_datas d) hs) E' -> skeep (GE g D (dw_datas d) hs) E' (stk fB [f; KFromData; KEnd h]) ->
        okend E' (Some (XArc r)) h) as Hend.
      { intros E' HE HB. eapply okend_stable; [|done]. eapply skeep_incl; [|done]. intros j.
        destruct f; try done; cbn; by rewrite ?app_nil_r. }
      assert (forall c E', gstab (GE g D (dw_datas d) hs) E' -> skeep (GE g D (dw_datas d) hs) E' (stk fB [f; KFromData; KEnd h]) ->
        run E' (Some (XArc r)) ([FV (VData c); KFromData; KEnd h] : stack)) as Hval.
      { intros c E' HE HB. eapply R_val; [done|]. constructor. by apply Hend. }
      destruct f; cbn in Hf; try done; subst.
      + cbn in Hs. apply bind_inv in Hs as (n & Hn & Hs). destruct (d_len n <=? _)%N.
        * apply bind_inv in Hs as (h1 & Hi & [= <- <- <-]). apply rc_inc_inv in Hi as (s & v & Hv & ->).
          apply gpost_data; try done; [by eapply hstab_insert|]. apply Hval.
        * destruct (d_child side n) as [c|]; injection Hs as <- <- <-; apply gpost_data; try done;
            intros E' HE HB; (apply R_child; [done|by apply Hend]).
      + cbn in Hs. apply bind_inv in Hs as (h1 & Hi & [= <- <- <-]). apply rc_inc_inv in Hi as (s & v & Hv & ->).
        apply gpost_data; try done; [by eapply hstab_insert|]. apply Hval.
      + cbn in Hs. apply bind_inv in Hs as (n & Hn & Hs). destruct (node_sub sz side n) as [p len].
        apply bind_inv in Hs as (d1 & Hi & [= <- <- <-]).
        apply gpost_data; try done; [rewrite (alloc_clone_datas _ _ _ Hi); apply hstab_refl|].
        intros E' HE HB. (apply R_child; [done|by apply Hend]).
      + cbn in Hs. apply bind_inv in Hs as (m & Hn & Hs). destruct (d_child side m) as [c|] eqn:Ec.
        * injection Hs as <- <- <-. apply gpost_data; try done. intros E' HE HB; (apply R_child; [done|by apply Hend]).
        * apply bind_inv in Hs as (h1 & Hi & [= <- <- <-]). apply rc_set_inv in Hi as (s & v & Hv & ->).
          apply rc_val_inv in Hn as (s0 & Hn). pose proof (live_lt _ _ _ _ Hn) as Hlt.
          assert (gstab (GE g D (dw_datas d) hs) (GE (gd_new_data g (Some (ar_data r))) D
             (<[ar_data r := Some (s, d_set_child side (Some (length (dw_datas d))) v)]> (dw_datas d ++ [Some (k, n)])) hs)) as HE.
          { eapply gstab_trans; [apply gstab_new_data|]. apply gstab_data. by apply (hstab_insert _ _ _ _ _ Hv). }
          apply gpost_mk; try done.
          -- apply ginv_new_data; [done|]. intros y [= <-]. lia.
          -- cbn. rewrite insert_length, !app_length. cbn. lia.
          -- apply Hval; [done|]. intros ? ? ? _. cbn. eauto.
      + cbn in Hs. apply bind_inv in Hs as (h1 & Hi & [= <- <- <-]). apply rc_inc_inv in Hi as (s & v & Hv & ->).
        apply gpost_data; try done; [by eapply hstab_insert|]. intros E' HE HB. (apply R_child; [done|by apply Hend]).
      + cbn in Hs. destruct k as [|[|k]]; try done. injection Hs as <- <- <-.
        apply gpost_data; try done. intros E' HE HB. (apply R_child; [done|by apply Hend]).
      + cbn in Hs. destruct (k =? 1); [|done]. injection Hs as <- <- <-. apply gpost_data; try done.
        intros E' HE HB. constructor. by apply Hval.
    - (* FGuard.. *)
      assert (fB f = []) as HfB by by destruct f.
      assert (fL f = []) as HfL by by destruct f.
      assert (fW f = []) as HfW by by destruct f.
      rewrite !stk_cons in HG. rewrite HfL, HfW in HG. cbn [app] in HG.
      assert (stk fL k = []) as HkL by (eapply acc_nolatch; eauto). rewrite HkL in HG. cbn [app] in HG.
      assert (forall E', gstab (GE g D (dw_datas d) hs) E' -> skeep (GE g D (dw_datas d) hs) E' (stk fB (f :: k)) ->
        acc E' b (QG x) k) as Hacc.
      { intros E' HE HB. eapply acc_stable; [done| |done]. eapply skeep_incl; [|exact HB]. intros j.
        rewrite stk_cons, HfB. done. }
      destruct f as [  |  |  |  |  |  |  |  |  |  |  |  | x0 | x0 y | x0 y |  | x0 y pg | x0 y pg |  |  |  |  |  |  |  |  |  |  |  |  |  |  |  |  |  |  |  |  |  |  ]; try done.
      + cbn in Hf. subst x0. cbn in Hs. apply bind_inv in Hs as (n & _ & Hs).
        destruct (gd_metas g !! x) as [m|] eqn:Em; [|done]. injection Hs as <- <- <-. apply gpost_data; try done.
        * by rewrite !stk_cons, HkL.
        * intros E' HE HB. eapply R_guard; [|by apply Hacc]. split; [done|].
          destruct (gi_box _ _ _ _ _ HG _ _ Em) as (o & Ho & Hi & _). exists o.
          split; [by apply (gs_box _ _ HE)|]. intros i ?. apply (gs_D _ _ HE). auto.
      + destruct Hf as [-> (o & Ho & Hi)]. cbn in Ho, Hi, Hs. rewrite Ho in Hs.
        destruct (rc_upgrade (gd_guards g) o) as [gs r] eqn:Eu.
        apply rc_upgrade_inv in Eu as [(i & s & n & -> & Hn & -> & ->)|(-> & -> & Hnone)]; injection Hs as <- <- <-.
        * eapply gpost_guard; [done|done|done|..].
          -- rewrite !stk_cons, HkL. cbn [fG fW fL app]. by apply ginv_inc.
          -- done.
          -- intros E' HE HB. eapply R_val; [|by apply Hacc]. exists x. split; [done|]. apply (gs_D _ _ HE). auto.
        * apply gpost_data; try done; [by rewrite !stk_cons, HkL|].
          intros E' HE HB. eapply R_guard; [|by apply Hacc]. split; [done|]. exists o.
          split; [by apply (gs_box _ _ HE)|]. intros i ->. apply (gs_dead _ _ HE). cbn.
          apply rc_get_dead; [|auto]. rewrite <- (gi_len _ _ _ _ _ HG). eapply lookup_lt_Some. auto.
      + destruct Hf as [-> Hy]. cbn in Hs. destruct (gd_metas g !! x) as [m|] eqn:Em; [|done].
        destruct (rc_upgrade (dw_datas d) (am_parent m)) as [h1 r] eqn:Eu.
        apply rc_upgrade_inv in Eu as [(p & s & n & Hp & Hn & -> & ->)|(-> & -> & Hnone)]; injection Hs as <- <- <-.
        * apply gpost_data; try done.
          -- by rewrite !stk_cons, HkL.
          -- by eapply hstab_insert.
          -- intros E' HE HB. eapply R_guard; [done|]. constructor; [by apply Hacc| |by eapply bdead_stable].
             apply (gs_par _ _ HE). unfold mpar. cbn. by rewrite Em, <- Hp.
        * apply gpost_data; try done; [by rewrite !stk_cons, HkL|].
          intros E' HE HB. eapply R_guard; [|by apply Hacc]. split_and!; [done|by eapply bdead_stable|].
          eapply pgok_stable; [done|]. cbn. unfold mpar. rewrite Em. cbn. destruct (am_parent m) as [p|] eqn:Ep; [right|by left].
          exists p. split; [done|]. apply rc_get_dead; [|auto]. pose proof (gi_meta _ _ _ _ _ HG _ _ _ Em Ep).
          pose proof (lookup_lt_Some _ _ _ Em). lia.
      + destruct Hf as (-> & (o & Ho & Hi) & Hpg). cbn [mstep] in Hs. cbn in Ho, Hi. apply bind_inv in Hs as (n & _ & Hs).
        destruct (gd_metas g !! x) as [m|] eqn:Em; [|done]. destruct (am_box m =? y) eqn:Eb.
        * apply Nat.eqb_eq in Eb. subst y. apply bind_inv in Hs as ([g1 i] & Hg1 & [= <- <- <-]).
          cbn [fG] in HG. rewrite <- app_assoc in HG.
          destruct (ginv_new_guard _ _ _ _ _ _ _ _ HG Em) as (w & Ew & E1 & E2 & E3 & HG').
          { intros p ->. destruct Hpg as (q & Hq & HDq). cbn in Hq, HDq. unfold mpar in Hq. rewrite Em in Hq.
            injection Hq as Hq. eauto. }
          { intros j k0 Hj HDj. destruct (gi_box _ _ _ _ _ HG _ _ Em) as (o' & Ho' & _ & H2).
            rewrite Ho in Ho'. injection Ho' as <-. pose proof (H2 _ _ Hj HDj) as ->. specialize (Hi _ eq_refl).
            unfold rc_get in Hj. by rewrite Hi in Hj. }
          rewrite Ew in Hg1. injection Hg1 as <- <-.
          assert (gstab (GE g D (dw_datas d) hs) (GE w (D ++ [x]) (dw_datas d) hs)) as HE.
          { split; cbn.
            - intros i z Hz. by rewrite lookup_app_l by by eapply lookup_lt_Some.
            - intros z q. unfold mpar. rewrite E3. destruct (decide (x = z)) as [<-|].
              + rewrite list_lookup_insert, Em by by eapply lookup_lt_Some. done.
              + by rewrite list_lookup_insert_ne.
            - intros z q. rewrite E2. intros Hz. by rewrite lookup_app_l by by eapply lookup_lt_Some.
            - intros z. rewrite E1. intros Hz. by rewrite lookup_app_l by by eapply lookup_lt_Some.
            - done. }
          exists [x]. split_and!.
          -- rewrite !stk_cons, HkL. done.
          -- rewrite E3, insert_length. done.
          -- eapply R_val; [|apply Hacc; [done|]].
             ++ exists x. split; [done|]. cbn. rewrite lookup_app_r; rewrite (gi_len _ _ _ _ _ HG); [|lia].
                by rewrite Nat.sub_diag.
             ++ intros ? ? ? _. cbn. eauto.
          -- done.
          -- done.
        * injection Hs as <- <- <-. apply gpost_data; try done.
          -- by rewrite !stk_cons, HkL.
          -- intros E' HE HB. eapply R_guard; [|by apply Hacc]. split_and!; [done|].
             eapply bok_stable; [done|]. destruct (gi_box _ _ _ _ _ HG _ _ Em) as (o' & Ho' & H1 & _). by exists o'.
      + destruct Hf as (-> & (o & Ho & Hi)). cbn in Ho, Hi, Hs. rewrite Ho in Hs.
        destruct (rc_upgrade (gd_guards g) o) as [gs r] eqn:Eu.
        apply rc_upgrade_inv in Eu as [(i & s & n & -> & Hn & -> & ->)|(-> & -> & Hnone)]; injection Hs as <- <- <-.
        * eapply gpost_guard; [done|done|done|..].
          -- rewrite !stk_relopt, !stk_cons, HkL. cbn [fG fW fL app] in HG |- *.
             eapply ginv_perm; [..|by apply ginv_inc]; destruct pg; cbn; try done. apply perm_swap.
          -- rewrite stk_relopt. by destruct pg.
          -- intros E' HE HB. apply run_relopt; [|done]. eapply R_val; [|by apply Hacc].
             exists x. split; [done|]. apply (gs_D _ _ HE). auto.
        * apply gpost_data; try done.
          -- rewrite !stk_relopt, !stk_cons, HkL. cbn [fG fW fL app] in HG |- *. by destruct pg.
          -- rewrite stk_relopt. by destruct pg.
          -- intros E' HE HB. apply run_relopt; [|done]. eapply R_guard; [|by apply Hacc]. split; [done|]. exists o.
             split; [by apply (gs_box _ _ HE)|]. intros i ->. apply (gs_dead _ _ HE). cbn.
             apply rc_get_dead; [|auto]. rewrite <- (gi_len _ _ _ _ _ HG). eapply lookup_lt_Some. auto.
    - (* clone *)
      destruct (Hb _ eq_refl) as (Hx & HbG & HbW).
      destruct Hf as [-> | ->]; cbn in Hs; apply bind_inv in Hs as (h1 & Hi & [= <- <- <-]);
        apply rc_inc_inv in Hi as (s & v & Hv & ->).
      + apply gpost_data; try done; [by eapply hstab_insert|]. intros E' HE HB. constructor; [by right|].
        eapply okend_stable; [|done]. cbn in HB. by rewrite app_nil_r in HB.
      + eapply gpost_guard; [done|done|done|..].
        * cbn in HG |- *. by apply ginv_inc.
        * done.
        * intros E' HE HB. eapply R_val.
          -- split; [by left|]. intros ? [= <-]. by apply (gs_D _ _ HE).
          -- constructor. eapply okend_stable; [|done]. cbn in HB. by rewrite app_nil_r in HB.
    - (* weak clone *)
      destruct (Hb _ eq_refl) as (Hx & HbG & HbW). cbn in Hs. apply bind_inv in Hs as (g1 & Hi & [= <- <- <-]).
      assert (forall E', gstab (GE g D (dw_datas d) hs) E' -> skeep (GE g D (dw_datas d) hs) E' (stk fB [FCloneW (V:=V) x y; KEnd h]) ->
        run E' (Some (XWeak x y)) [FV (VFin (Some (XWeak x y)) None) : frame V; KEnd h]) as Hrun.
      { intros E' HE HB. eapply R_val.
        - split; [by left|]. intros ? [= <-]. by eapply (xok_stable (GE g D (dw_datas d) hs)).
        - constructor. eapply okend_stable; [|done]. cbn in HB. by rewrite app_nil_r in HB. }
      cbn in HG. destruct y as [y|].
      + destruct (ginv_winc _ _ _ _ _ y HG) as (g2 & E2 & HG2 & ? & ? & ?).
        { apply (gi_rw _ _ _ _ _ HG), HbW. left. }
        rewrite E2 in Hi. injection Hi as ->. apply gpost_weak; try done.
      + injection Hi as <-. apply gpost_weak; try done.
    - (* downgrade *)
      destruct (Hb _ eq_refl) as (Hx & HbG & HbW). cbn in Hs. apply bind_inv in Hs as (n & _ & Hs).
      apply bind_inv in Hs as (g1 & Hi & [= <- <- <-]). cbn in HG.
      destruct (ginv_winc _ _ _ _ _ (ar_guard r) HG) as (g2 & E2 & HG2 & ? & ? & ?).
      { rewrite <- (gi_len _ _ _ _ _ HG). by eapply lookup_lt_Some. }
      assert (g1 = g2) as -> by (cbn in E2; congruence). apply gpost_weak; try done.
      intros E' HE HB. eapply R_val.
      + split; [by left|]. intros ? [= <-]. by apply (gs_D _ _ HE).
      + constructor. eapply okend_stable; [|done]. cbn in HB. by rewrite app_nil_r in HB.
    - (* upgrade *)
      cbn in Hs. destruct (rc_upgrade (dw_datas d) x) as [h1 o] eqn:Eu.
      apply rc_upgrade_inv in Eu as [(i & s & n & -> & Hn & -> & ->)|(-> & -> & Hnone)]; injection Hs as <- <- <-.
      + apply gpost_data; try done; [by eapply hstab_insert|]. intros E' HE HB. eapply R_val; [done|]. constructor.
        eapply okend_stable; [|done]. cbn in HB. by rewrite app_nil_r in HB.
      + apply gpost_data; try done. intros E' HE HB. eapply R_val; [split; [by left|done]|]. constructor.
        eapply okend_stable; [|done]. cbn in HB. by rewrite app_nil_r in HB.
    - (* get_mut *)
      cbn [mstep] in Hs. apply bind_inv in Hs as ([g1 ok] & Hc & Hs).
      apply gate_try_close_inv in Hc as (s & n & Hn & [(E1 & -> & ->)|(E1 & -> & ->)]); injection Hs as <- <- <-.
      + apply gpost_data; try done. intros E' HE HB. eapply R_val; [|by constructor]. split; [by left|].
        intros ? [= <-]. by eapply rok_stable.
      + eapply gpost_guard; [done|done|done|..].
        * exact (ginv_close _ _ _ _ _ _ _ _ true HG Hn E1).
        * done.
        * intros E' HE HB. apply R_gm2; [by left|]. by eapply rok_stable.
    - destruct Hf as [-> | ->]; cbn [mstep] in Hs.
      + destruct (_ =? 1)%nat; injection Hs as <- <- <-; apply gpost_data; try done; intros E' HE HB.
        * apply R_gm2; [by right|]. by eapply rok_stable.
        * eapply R_val; [|constructor; apply (A_endr _ r)]. split; [right; eauto|]. intros ? [= <-]. by eapply rok_stable.
      + apply bind_inv in Hs as ([g1 ok] & Hc & Hs).
        apply gate_try_close_inv in Hc as (s & n & Hn & [(E1 & -> & ->)|(E1 & -> & ->)]); injection Hs as <- <- <-.
        * apply gpost_data; try done. intros E' HE HB. eapply R_val; [|constructor; apply (A_endr _ r)].
          split; [right; eauto|]. intros ? [= <-]. by eapply rok_stable.
        * eapply gpost_guard; [done|done|done|..].
          -- exact (ginv_close _ _ _ _ _ _ _ _ false HG Hn E1).
          -- done.
          -- intros E' HE HB. apply R_gm4; [by left|]. by eapply rok_stable.
    - assert (forall E', gstab (GE g D (dw_datas d) hs) E' -> run E' None [FV (VFin (Some (XArc r)) (Some RNone)) : frame V;
        FOpen (ar_guard r) false; FOpen (ar_guard r) true; KEnd None]) as Hfail.
      { intros E' HE. eapply R_val; [|constructor; constructor; apply (A_endr _ r)].
        split; [right; eauto|]. intros ? [= <-]. by eapply rok_stable. }
      destruct Hf as [-> | ->]; cbn [mstep] in Hs;
        (destruct (_ =? 1)%nat; injection Hs as <- <- <-; apply gpost_data; try done; intros E' HE HB; [|by apply Hfail]).
      + apply R_gm4; [by right|]. by eapply rok_stable.
      + eapply R_val; [|constructor; constructor; apply (A_endr _ r)]. split; [done|]. by eapply rok_stable.
    - (* into_mut *)
      cbn [mstep] in Hs. apply bind_inv in Hs as ([g1 ok] & Hc & Hs).
      apply gate_try_close_inv in Hc as (s & n & Hn & [(E1 & -> & ->)|(E1 & -> & ->)]); injection Hs as <- <- <-.
      + apply gpost_data; try done. intros E' HE HB. eapply R_val; [|by constructor]. split; [by left|].
        intros ? [= <-]. by eapply rok_stable.
      + eapply gpost_guard; [done|done|done|..].
        * exact (ginv_close _ _ _ _ _ _ _ _ false HG Hn E1).
        * done.
        * intros E' HE HB. apply R_im2; [by left|]. by eapply rok_stable.
    - assert (forall E', gstab (GE g D (dw_datas d) hs) E' -> run E' None [FV (VFin (Some (XArc r)) (Some RErr)) : frame V;
        FOpen (ar_guard r) false; KEnd None]) as Hfail.
      { intros E' HE. eapply R_val; [|constructor; apply (A_endr _ r)].
        split; [right; eauto|]. intros ? [= <-]. by eapply rok_stable. }
      destruct Hf as [-> | ->]; cbn [mstep] in Hs.
      + destruct (_ =? 1)%nat; injection Hs as <- <- <-; apply gpost_data; try done; intros E' HE HB; [|by apply Hfail].
        apply R_im2; [by right|]. by eapply rok_stable.
      + apply bind_inv in Hs as ([h o] & Hu & Hs).
        apply rc_unwrap_inv in Hu as [(s & n & Hn & -> & ->)|(n & Hn & -> & ->)]; injection Hs as <- <- <-.
        * apply gpost_data; try done. intros E' HE HB. by apply Hfail.
        * apply gpost_data; try done; [by eapply hstab_insert|]. intros E' HE HB.
          eapply R_fg; [|constructor]. by eapply rok_stable.
    - (* forget_items *)
      cbn [mstep] in Hs. destruct (node_kids n) as [|c ks].
      + destruct Hk as [|side n' a' k Hk].
        * injection Hs as <- <- <-. apply gpost_data; try done. intros E' HE HB.
          eapply R_val; [|constructor; by eapply rok_stable]. split; [by left|]. by intros ? [= <-].
        * apply bind_inv in Hs as (d1 & Hd & [= <- <- <-]). apply gpost_data; try done.
          -- rewrite (alloc_release_datas _ _ _ Hd). apply hstab_refl.
          -- intros E' HE HB. eapply R_fg; [by eapply rok_stable|done].
      + apply bind_inv in Hs as ([h o] & Hu & Hs).
        apply rc_unwrap_inv in Hu as [(s & n' & Hn & -> & ->)|(n' & Hn & -> & ->)]; injection Hs as <- <- <-.
        * apply gpost_data; try done. intros E' HE HB. apply R_rel. eapply R_fg; [by eapply rok_stable|done].
        * apply gpost_data; try done; [by eapply hstab_insert|]. intros E' HE HB.
          eapply R_fg; [by eapply rok_stable|by constructor].
    - done.
    Unshelve. all: exact V.
  Qed.
End step.
