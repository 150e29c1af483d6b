(** A thread that runs while the others wait does, step by step, what the
    functions of ArcModel.v do in one go. *)
From Verif Require Import Base BaseLemmas Api SliceItemsModel Spec BinPartsModel DataModel RcModel DataInv ArcModel ArcConc ConcData SoloFuel.
Local Open Scope nat_scope.

#[global] Instance res_fmap : FMap res := fun A B f m =>
  match m with Ok a => Ok (f a) | Panic => Panic | UB => UB | NoFuel => NoFuel end.

Section solo.
  Context {V : Type} (sz : N).
  Notation stack := (list (frame V)).
  Notation cfg := (dworld V * gdworld * stack)%type.
  Implicit Types (d : dworld V) (g : gdworld) (k st : stack).

  (** [leads c r]: running from [c] gets to the configuration in [r], or gets
      stuck; if [r] is an error, it gets stuck. *)
  Inductive leads : cfg -> res cfg -> Prop :=
  | leads_refl c : leads c (Ok c)
  | leads_step d g st c r : mstep sz d g st = Ok c -> leads c r -> leads (d, g, st) r
  | leads_stuck d g st r : (forall c, mstep sz d g st <> Ok c) -> ~ returning st -> leads (d, g, st) r.

  Lemma leads_err c r r' : leads c r -> (forall a, r <> Ok a) -> leads c r'.
  Proof.
    intros H Hr. induction H as [c|d g st c r E H IH|d g st r E Hn].
    - by destruct (Hr c).
    - eapply leads_step; [done|]. by apply IH.
    - by apply leads_stuck.
  Qed.
  Lemma leads_trans c c' r : leads c (Ok c') -> leads c' r -> leads c r.
  Proof.
    intros H Hc. remember (Ok c') as r' eqn:Er. revert Hc. induction H as [c|d g st c r' E H IH|d g st r' E Hn]; intros Hc.
    - by injection Er as ->.
    - eapply leads_step; [done|]. by apply IH.
    - by apply leads_stuck.
  Qed.
  Lemma leads_bind {A B} c (m : res A) (f : A -> cfg) (q : A -> res B) (h : B -> cfg) :
    leads c (f <$> m) -> (forall a, m = Ok a -> leads (f a) (h <$> q a)) -> leads c (h <$> (m ≫= q)).
  Proof.
    intros H Hq. destruct m as [a| | |]; cbn in *.
    - eapply leads_trans; [done|]. by apply Hq.
    - by eapply leads_err.
    - by eapply leads_err.
    - by eapply leads_err.
  Qed.
  (** The first step does what the program does first. *)
  Lemma leads_prim {A B} d g st (m : res A) (f : A -> res cfg) (q : A -> res B) (h : B -> cfg) :
    mstep sz d g st = m ≫= f -> ~ returning st ->
    (forall a, m = Ok a -> exists c, f a = Ok c /\ leads c (h <$> q a)) ->
    leads (d, g, st) (h <$> (m ≫= q)).
  Proof.
    intros E Hn H. destruct m as [a| | |]; cbn in *; try by (apply leads_stuck; [|done]; intros c; rewrite E).
    destruct (H a eq_refl) as (c & Hc & Hl). eapply leads_step; [by rewrite E|done].
  Qed.
  Ltac nret := let H := fresh in intros [H|[(? & H)|[(? & ? & ? & H)|(? & H)]]]; discriminate H.

  (** ** Dropping *)
  Lemma leads_items n : forall d g p a k,
    leads (d, g, FItems n p a :: k) ((fun d' => (d', g, k)) <$> (d' ← drop_in_place sz d n p; alloc_release sz d' a)).
  Proof.
    induction n as [|n IH]; intros d g p a k; cbn [drop_in_place].
    - change (Ok d ≫= ?f) with (f d). destruct (alloc_release sz d a) as [d'| | |] eqn:E.
      1: { eapply leads_step; [cbn; by rewrite E|apply leads_refl]. }
      all: apply leads_stuck; [cbn; by rewrite E|nret].
    - destruct (mem_take sz d p) as [[d' v]| | |] eqn:E; [|apply leads_stuck; [cbn; by rewrite E|nret]..].
      eapply leads_step; [cbn; by rewrite E|]. cbn. apply IH.
  Qed.
  Lemma leads_release fuel : forall d g x k, data_release sz fuel d x <> NoFuel ->
    leads (d, g, FRel x :: k) ((fun d' => (d', g, k)) <$> data_release sz fuel d x).
  Proof.
    induction fuel as [|fuel IH]; intros d g x k HF; [done|]. cbn [data_release] in *.
    destruct (rc_dec (dw_datas d) x) as [[h r]| | |] eqn:E; cbn [mbind res_bind] in HF |- *;
      [|apply leads_stuck; [cbn; by rewrite E|nret]..].
    destruct r as [n|]; [|eapply leads_step; [cbn; by rewrite E|apply leads_refl]].
    destruct (node_own sz n) as [p len] eqn:Eo.
    eapply leads_step; [cbn -[node_own]; rewrite E; cbn -[node_own]; rewrite Eo; reflexivity|].
    assert (exists q, q = (FItems (N.to_nat len) p (d_alloc n) :: k : stack)) as [q Hq] by eauto. rewrite <- Hq.
    set (d1 := dw_set_datas d h) in *.
    assert (forall d2 (o : option nat) q', (match o with None => Ok d2 | Some c => data_release sz fuel d2 c end) <> NoFuel ->
      leads (d2, g, (FRel <$> option_list o) ++ q') ((fun d' => (d', g, q')) <$> (match o with None => Ok d2 | Some c => data_release sz fuel d2 c end))) as Hk.
    { intros d2 [c|] q' Hc; [|apply leads_refl]. by apply IH. }
    unfold node_kids. rewrite fmap_app, <- app_assoc.
    eapply leads_bind; [apply Hk; intros E'; rewrite E' in HF; done|]. intros d2 E2. rewrite E2 in HF. cbn in HF.
    eapply leads_bind; [apply Hk; intros E'; rewrite E' in HF; done|]. intros d3 E3. rewrite E3 in HF. cbn in HF.
    subst q. replace (match d_left n with | Some _ => match d_right n with Some _ => Ok d3 | None => let '(p, len) := right_sub sz n in drop_in_place sz d3 (N.to_nat len) p end
                 | None => match d_right n with Some _ => let '(p, len) := left_sub n in drop_in_place sz d3 (N.to_nat len) p | None => drop_in_place sz d3 (N.to_nat (d_len n)) (d_ptr n) end end)
      with (drop_in_place sz d3 (N.to_nat len) p); [apply leads_items|].
    clear -Eo. unfold node_own in Eo. destruct (d_left n), (d_right n).
    - by injection Eo as <- <-.
    - by rewrite Eo.
    - by rewrite Eo.
    - by injection Eo as <- <-.
  Qed.
  Lemma leads_relg fuel : forall d g x k, guard_release fuel g x <> NoFuel ->
    leads (d, g, FRelG x :: k) ((fun g' => (d, g', k)) <$> guard_release fuel g x).
  Proof.
    induction fuel as [|fuel IH]; intros d g x k HF; [done|]. cbn [guard_release] in *.
    destruct (rc_dec (gd_guards g) x) as [[h r]| | |] eqn:E; cbn in HF |- *;
      [|apply leads_stuck; [cbn; by rewrite E|nret]..].
    destruct r as [n|]; [|eapply leads_step; [cbn; by rewrite E|apply leads_refl]].
    eapply leads_step; [cbn; rewrite E; cbn; reflexivity|].
    destruct (a_parent n) as [p|]; cbn; [by apply IH|apply leads_refl].
  Qed.
  (** ** Guards *)
  Lemma guard_of_metas fuel : forall d g x d' g' y, meta_aged g -> guard_of sz fuel (d, g) x = Ok ((d', g'), y) ->
    forall z, x < z -> gd_metas g' !! z = gd_metas g !! z.
  Proof.
    induction fuel as [|fuel IH]; intros d g x d' g' y HA E z Hz; [done|]. cbn [guard_of fst snd] in E.
    destruct (rc_val (dw_datas d) x) as [n| | |]; try done. cbn [mbind res_bind] in E.
    destruct (gd_metas g !! x) as [m|] eqn:Em; [|done].
    destruct (gd_boxes g !! am_box m) as [[wk|]|]; try done.
    destruct (rc_upgrade (gd_guards g) wk) as [gs [y'|]].
    { by injection E as <- <- <-. }
    destruct (rc_upgrade (dw_datas d) (am_parent m)) as [h o] eqn:Eu.
    assert (forall d1 g1 pg, gd_metas g1 !! z = gd_metas g !! z ->
      ('(w, g2) ← gd_new_guard g1 x (am_box m) pg; Ok (d1, w, g2)) = Ok (d', g', y) -> gd_metas g' !! z = gd_metas g !! z) as Hlast.
    { intros d1 g1 pg H1 E1. unfold gd_new_guard in E1. destruct (rc_new _ _) as [gs' y'].
      destruct (gd_metas g1 !! x) as [m1|]; [|done]. destruct (_ =? _)%nat; [|done]. injection E1 as <- <- <-. cbn.
      rewrite list_lookup_insert_ne by lia. done. }
    destruct o as [p|]; [|by apply Hlast in E].
    assert (am_parent m = Some p) as Hp.
    { destruct (am_parent m) as [q|]; [|done]. unfold rc_upgrade in Eu. destruct (dw_datas d !! q) as [[[]|]|]; congruence. }
    pose proof (HA _ _ _ Em Hp) as Hlt.
    destruct (guard_of sz fuel (dw_set_datas d h, g) p) as [[[d1 g1] pg]| | |] eqn:E1; try done.
    cbn [mbind res_bind fst snd] in E. destruct (data_drop sz d1 p) as [d2| | |]; try done. cbn [mbind res_bind fst snd] in E.
    eapply Hlast; [|exact E]. eapply IH; [done|exact E1|lia].
  Qed.
  Lemma leads_guard fuel : forall d g x k, meta_aged g -> guard_of sz fuel (d, g) x <> NoFuel ->
    leads (d, g, FGuard x :: k) ((fun '((d', g'), y) => (d', g', FV (VGuard y) :: k)) <$> guard_of sz fuel (d, g) x).
  Proof.
    induction fuel as [|fuel IH]; intros d g x k HA HF; [done|]. cbn [guard_of fst snd] in *.
    destruct (rc_val (dw_datas d) x) as [n| | |] eqn:Ev; [|apply leads_stuck; [cbn; by rewrite Ev|nret]..].
    cbn [mbind res_bind] in *.
    destruct (gd_metas g !! x) as [m|] eqn:Em; [|apply leads_stuck; [cbn; by rewrite Ev, Em|nret]].
    eapply leads_step; [cbn; rewrite Ev; cbn; rewrite Em; reflexivity|].
    destruct (gd_boxes g !! am_box m) as [[wk|]|] eqn:Eb; [|apply leads_stuck; [cbn; by rewrite Eb|nret]..].
    destruct (rc_upgrade (gd_guards g) wk) as [gs [y|]] eqn:Eu.
    { eapply leads_step; [cbn; rewrite Eb, Eu; reflexivity|]. apply leads_refl. }
    eapply leads_step; [cbn; rewrite Eb, Eu; reflexivity|].
    destruct (rc_upgrade (dw_datas d) (am_parent m)) as [h o] eqn:Eq.
    assert (forall d1 g1 pg, gd_metas g1 !! x = Some m ->
      leads (d1, g1, FGuardCas x (am_box m) pg :: k) ((fun '((d', g'), y) => (d', g', FV (VGuard y) :: k)) <$>
        ('(w, g2) ← gd_new_guard g1 x (am_box m) pg; Ok (d1, w, g2)))) as Hlast.
    { intros d1 g1 pg H1. destruct (rc_val (dw_datas d1) x) as [n1| | |] eqn:Ev1; [|apply leads_stuck; [cbn; by rewrite Ev1|nret]..].
      destruct (gd_new_guard g1 x (am_box m) pg) as [[w y]| | |] eqn:En.
      1: { eapply leads_step; [|apply leads_refl]. cbn -[gd_new_guard]. rewrite Ev1. cbn -[gd_new_guard]. by rewrite H1, Nat.eqb_refl, En. }
      all: apply leads_stuck; [cbn -[gd_new_guard]; rewrite Ev1; cbn -[gd_new_guard]; by rewrite H1, Nat.eqb_refl, En|nret]. }
    destruct o as [p|].
    2:{ eapply leads_step; [cbn; rewrite Em, Eq; reflexivity|]. by apply Hlast. }
    assert (am_parent m = Some p) as Hp.
    { destruct (am_parent m) as [q|]; [|done]. unfold rc_upgrade in Eq. destruct (dw_datas d !! q) as [[[]|]|]; congruence. }
    eapply leads_step; [cbn; rewrite Em, Eq; reflexivity|].
    assert (guard_of sz fuel (dw_set_datas d h, g) p <> NoFuel) as HF1 by (intros E'; by rewrite E' in HF).
    pose proof (IH _ _ _ (KGuardPar x (am_box m) p :: k) HA HF1) as Hl.
    destruct (guard_of sz fuel (dw_set_datas d h, g) p) as [[[d1 g1] pg]| | |] eqn:E1; cbn [mbind res_bind fst snd] in *;
      [|by eapply leads_err..].
    cbn [fmap res_fmap] in Hl. eapply leads_trans; [exact Hl|]. eapply leads_step; [reflexivity|].
    assert (data_drop sz d1 p <> NoFuel) as HF2 by (intros E'; by rewrite E' in HF).
    pose proof (leads_release _ d1 g1 p (FGuardCas x (am_box m) (Some pg) :: k) HF2) as Hl2.
    fold (data_drop sz d1 p) in Hl2. destruct (data_drop sz d1 p) as [d2| | |]; cbn [mbind res_bind fst snd] in *; [|by eapply leads_err..].
    eapply leads_trans; [exact Hl2|]. apply Hlast. rewrite <- Em. eapply guard_of_metas; [done|exact E1|]. by eapply HA.
  Qed.

  (** ** Halves *)
  Definition adata_clone_half (side : bool) (s : dworld V * gdworld) (x : nat) :=
    if side then adata_clone_right sz s x else adata_clone_left s x.
  Lemma d_set_child_get (side : bool) c n : d_child side (d_set_child side c n) = c.
  Proof. by destruct side. Qed.
  Lemma leads_child side d g x k :
    leads (d, g, FChild x side :: k) ((fun '((d', g'), c) => (d', g', FV (VData c) :: k)) <$> adata_clone_half side (d, g) x).
  Proof.
    destruct (rc_val (dw_datas d) x) as [n| | |] eqn:Ev.
    2-4: (apply leads_stuck; [cbn; by rewrite Ev|nret]).
    assert (adata_clone_half side (d, g) x =
      if (d_len n <=? (if side then 1 else 0))%N then h ← rc_inc (dw_datas d) x; Ok ((dw_set_datas d h, g), x)
      else let '(p, len) := node_sub sz side n in '(d', c) ← data_clone_child d x side p len;
           Ok ((d', match d_child side n with None => gd_new_data g (Some x) | Some _ => g end), c)) as ->.
    { unfold adata_clone_half, adata_clone_left, adata_clone_right, data_clone_left, data_clone_right.
      destruct side; cbn [fst snd]; rewrite !Ev; cbn [mbind res_bind].
      - case_match; [done|]. cbn [node_sub]. by destruct (right_sub sz n).
      - assert ((d_len n =? 0)%N = (d_len n <=? 0)%N) as ->; [|done].
        destruct (N.eqb_spec (d_len n) 0), (N.leb_spec (d_len n) 0); lia. }
    destruct (d_len n <=? (if side then 1 else 0))%N eqn:El.
    { destruct (rc_inc (dw_datas d) x) as [h| | |] eqn:Ei.
      1: { eapply leads_step; [|apply leads_refl]. cbn. rewrite Ev. cbn. by rewrite El, Ei. }
      all: (apply leads_stuck; [cbn; rewrite Ev; cbn; by rewrite El, Ei|nret]). }
    destruct (node_sub sz side n) as [p len] eqn:Es. unfold data_clone_child. rewrite Ev. cbn [mbind res_bind].
    destruct (d_child side n) as [c|] eqn:Ec.
    { eapply leads_step; [cbn; rewrite Ev; cbn; rewrite El, Ec; reflexivity|].
      destruct (rc_inc (dw_datas d) c) as [h| | |] eqn:Ei.
      1: { eapply leads_step; [|apply leads_refl]. cbn. by rewrite Ei. }
      all: (apply leads_stuck; [cbn; by rewrite Ei|nret]). }
    eapply leads_step; [cbn; rewrite Ev; cbn; rewrite El, Ec; reflexivity|].
    set (a := if (len =? 0)%N then None else d_alloc n).
    destruct (alloc_clone d a) as [d1| | |] eqn:Ea.
    2-4: (apply leads_stuck; [cbn -[node_sub]; rewrite Ev; cbn -[node_sub]; rewrite Es; fold a; by rewrite Ea|nret]).
    eapply leads_step; [cbn -[node_sub]; rewrite Ev; cbn -[node_sub]; rewrite Es; fold a; rewrite Ea; reflexivity|].
    assert (dw_datas d1 = dw_datas d) as Hd.
    { unfold alloc_clone in Ea. destruct a; [|by injection Ea as <-]. destruct (rc_inc _ _); try done. by injection Ea as <-. }
    unfold rc_val, rc_get in Ev. destruct (dw_datas d !! x) as [[[cx n']|]|] eqn:Ex; try done. injection Ev as ->.
    assert (x < length (dw_datas d)) as Hlt by by eapply lookup_lt_Some.
    eapply leads_step.
    { cbn. unfold rc_val, rc_get. rewrite Hd, Ex. cbn. rewrite Ec. unfold rc_set. rewrite lookup_app_l, Ex by done. reflexivity. }
    cbn [mbind res_bind data_new rc_new]. cbn. rewrite Hd. unfold rc_inc. rewrite lookup_app_r, Nat.sub_diag by lia. cbn.
    unfold rc_set. rewrite list_lookup_insert_ne by lia. rewrite lookup_app_l, Ex by done. cbn. 
    rewrite (insert_app_r_alt _ _ (length _)), Nat.sub_diag by lia. cbn. apply leads_refl.
  Qed.
  (** ** [forget_items] *)
  Definition forget_child fuel d (o : option nat) : res (dworld V) :=
    match o with
    | None => Ok d
    | Some c =>
        '(h, r) ← rc_try_unwrap (dw_datas d) c;
        let d := dw_set_datas d h in
        match r with
        | Some child => '(d, child) ← data_forget_items sz fuel d child; data_drop_forgotten sz d child
        | None => data_release sz (S (length (dw_datas d))) d c
        end
    end.
  Lemma forget_items_eq fuel d n : data_forget_items sz (S fuel) d n =
    (d ← forget_child fuel d (d_left n); d ← forget_child fuel d (d_right n); Ok (d, DNode (d_ptr n) 0 (d_alloc n) None None)).
  Proof. done. Qed.
  Definition bare (n : dnode) : dnode := DNode (d_ptr n) (d_len n) (d_alloc n) None None.
  Lemma leads_forget fuel : forall d g n n0 a k, d_left n0 = d_left n -> d_right n0 = d_right n ->
    data_forget_items sz fuel d n0 <> NoFuel ->
    leads (d, g, FFg n a :: k) ((fun x => (fst x, g, FFg (bare n) a :: k)) <$> data_forget_items sz fuel d n0).
  Proof.
    induction fuel as [|fuel IH]; intros d g n n0 a k El Er HF; [done|]. rewrite forget_items_eq, El, Er in *.
    assert (forall d m side q, (side = true -> d_left m = None) -> forget_child fuel d (d_child side m) <> NoFuel ->
      leads (d, g, FFg m a :: q) ((fun d' => (d', g, FFg (d_set_child side None m) a :: q)) <$> forget_child fuel d (d_child side m))) as Hc.
    { clear d n n0 k El Er HF. intros d m side k Hs HF. destruct (d_child side m) as [c|] eqn:Ec.
      2:{ assert (d_set_child side None m = m) as -> by (destruct m, side; cbn in *; by rewrite Ec). apply leads_refl. }
      assert (exists l, node_kids m = c :: l /\ (match d_left m with Some _ => false | None => true end) = side) as (l & Hl & Hside).
      { unfold node_kids. destruct side; cbn in Ec; rewrite Ec; [rewrite Hs by done|]; cbn; eauto. }
      cbn [forget_child] in *. destruct (rc_try_unwrap (dw_datas d) c) as [[h r]| | |] eqn:Eu; cbn [mbind res_bind] in *;
        [|apply leads_stuck; [cbn -[node_kids]; rewrite Hl; cbn -[node_kids]; by rewrite Eu|nret]..].
      destruct r as [ch|].
      - eapply leads_step; [cbn -[node_kids]; rewrite Hl; cbn -[node_kids]; rewrite Eu, Hside; reflexivity|].
        assert (data_forget_items sz fuel (dw_set_datas d h) ch <> NoFuel) as HF1 by (intros E'; by rewrite E' in HF).
        pose proof (IH (dw_set_datas d h) g ch ch (d_alloc ch) (KFg side m a :: k) eq_refl eq_refl HF1) as Hl1.
        destruct (data_forget_items sz fuel (dw_set_datas d h) ch) as [[d1 ch1]| | |] eqn:E1; cbn [mbind res_bind fmap res_fmap] in *;
          [|by eapply leads_err..].
        eapply leads_trans; [exact Hl1|].
        assert (d_alloc ch1 = d_alloc ch) as Ha.
        { destruct fuel as [|fuel']; [done|]. rewrite forget_items_eq in E1.
          destruct (forget_child fuel' _ (d_left ch)) as [d2| | |]; try done. cbn [mbind res_bind] in E1.
          destruct (forget_child fuel' _ (d_right ch)) as [d3| | |]; try done. by injection E1 as <- <-. }
        unfold data_drop_forgotten in *. rewrite Ha in *.
        destruct (alloc_release sz d1 (d_alloc ch)) as [d2| | |] eqn:E2.
        1: { eapply leads_step; [cbn; by rewrite E2|apply leads_refl]. }
        all: (apply leads_stuck; [cbn; by rewrite E2|nret]).
      - eapply leads_step; [cbn -[node_kids]; rewrite Hl; cbn -[node_kids]; rewrite Eu, Hside; reflexivity|].
        by apply leads_release. }
    eapply leads_bind; [apply (Hc d n false); [done|]|].
    { intros E'. cbn in E'. by rewrite E' in HF. }
    intros d1 E1. change (d_child false n) with (d_left n) in E1. rewrite E1 in HF. cbn [mbind res_bind] in HF.
    eapply leads_bind; [apply (Hc d1 (d_set_child false None n) true); [done|]|].
    { intros E'. cbn in E'. by rewrite E' in HF. }
    intros d2 E2. apply leads_refl.
  Qed.
End solo.
