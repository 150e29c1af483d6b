(** The strong count of a data is at least the number of references to it, in
    every run: unlike ConcSafe.v, this does not depend on the items. *)
From Verif Require Import Base BaseLemmas Api SliceItemsModel DataModel RcModel DataInv DataSteps GuardInv ArcModel ArcConc ConcInv ConcGuard ConcWorld ConcData ConcSafe OrderModel OrderInv OrderSteps.
Local Open Scope nat_scope.
#[local] Arguments slo {A} F hs : simpl never.
#[local] Arguments thr {V A} F ts : simpl never.

Definition links (x : nat) : heap dnode -> nat := hsum (fun n => cnt x (kids n)).
(** The references [R], and those of the nodes to their children. *)
Definition ncnt (h : heap dnode) (R : list nat) : Prop := forall x, cnt x R + links x h <= rc_count h x.
Section heap.
  Implicit Types (h : heap dnode) (R : list nat).
  Lemma ncnt_perm h R R' : R ≡ₚ R' -> ncnt h R -> ncnt h R'.
  Proof. intros E H x. rewrite <- (cnt_perm _ _ _ E). apply H. Qed.
  Lemma ncnt_inc h i h' R : rc_inc h i = Ok h' -> ncnt h R -> ncnt h' (i :: R).
  Proof.
    intros (s & v & Hv & ->)%rc_inc_inv N x. specialize (N x). unfold links in *. rewrite (hsum_recount _ _ _ _ _ _ Hv), cnt_cons.
    rewrite rc_count_insert by by eapply live_lt. destruct (decide (i = x)) as [->|]; case_decide; try congruence; cbn; [|lia].
    rewrite (rc_count_live _ _ _ _ Hv) in N. lia.
  Qed.
  Lemma ncnt_kill h i n R : live h i 1 n -> ncnt h (i :: R) -> ncnt (<[i := None]> h) (kids n ++ R).
  Proof.
    intros Hv N x. specialize (N x). unfold links in *. pose proof (hsum_kill (fun n => cnt x (kids n)) _ _ _ _ Hv) as E. cbv beta in E.
    rewrite cnt_cons in N. rewrite cnt_app. rewrite rc_count_insert by by eapply live_lt.
    destruct (decide (i = x)) as [->|]; case_decide; try congruence; cbn; [|lia].
    rewrite (rc_count_live _ _ _ _ Hv) in N. lia.
  Qed.
  Lemma ncnt_dec h i h' r R : rc_dec h i = Ok (h', r) -> ncnt h (i :: R) -> ncnt h' (match r with Some n => kids n | None => [] end ++ R).
  Proof.
    intros [(s & v & Hv & -> & ->)|(v & Hv & -> & ->)]%rc_dec_inv N; [|by apply ncnt_kill].
    intros x. specialize (N x). unfold links in *. rewrite (hsum_recount _ _ _ _ _ _ Hv). rewrite cnt_cons in N. cbn [app].
    rewrite rc_count_insert by by eapply live_lt. destruct (decide (i = x)) as [->|]; case_decide; try congruence; cbn; [|lia].
    rewrite (rc_count_live _ _ _ _ Hv) in N. lia.
  Qed.
  Lemma ncnt_unwrap h i h' r R : rc_try_unwrap h i = Ok (h', r) -> ncnt h (i :: R) -> ncnt h' (match r with Some n => kids n | None => [i] end ++ R).
  Proof. intros [(s & v & Hv & -> & ->)|(v & Hv & -> & ->)]%rc_unwrap_inv N; [done|by apply ncnt_kill]. Qed.
  Lemma ncnt_upgrade h o h' r R : rc_upgrade h o = (h', r) -> ncnt h R -> ncnt h' (option_list r ++ R).
  Proof.
    intros [(i & s & v & _ & Hv & -> & ->)|(-> & -> & _)]%rc_upgrade_inv N; [|done]. eapply ncnt_inc; [|done]. by apply rc_inc_live.
  Qed.
  Lemma ncnt_new h k n R : kids n = [] -> 0 < k -> ncnt h R -> ncnt (h ++ [Some (k, n)]) (length h :: R).
  Proof.
    intros E Hk N x. specialize (N x). unfold links in *. rewrite hsum_snoc, cnt_cons, E, cnt_nil, rc_count_snoc.
    destruct (decide (length h = x)) as [<-|]; case_decide; try congruence; cbn; [|lia].
    assert (rc_count h (length h) = 0) as E0 by (unfold rc_count; by rewrite lookup_ge_None_2). lia.
  Qed.
  Lemma ncnt_publish h x side k n h' R : kids n = [] -> 2 <= k -> (forall m, rc_get h x = Some m -> d_child side m = None) ->
    rc_set (h ++ [Some (k, n)]) x (d_set_child side (Some (length h))) = Ok h' -> ncnt h R -> ncnt h' (length h :: R).
  Proof.
    intros E Hk Hm (s & v & Hv & ->)%rc_set_inv N y. pose proof (ncnt_new h k n R E ltac:(lia) N y) as N'. rewrite cnt_cons in *.
    assert (d_child side v = None) as Hc.
    { apply DataInv.live_snoc in Hv as [[-> [= <- <-]]|[_ Hv]]; [|apply Hm; by eapply rc_get_live].
      unfold kids in E. destruct side, n as [p l a [?|] [?|]]; try done. }
    unfold links in *. pose proof (hsum_insert_live (fun n => cnt y (kids n)) _ _ _ _ (Some (s, d_set_child side (Some (length h)) v)) Hv) as E'.
    cbn [ev snd] in E'. rewrite rc_count_insert by by eapply live_lt.
    assert (cnt y (kids (d_set_child side (Some (length h)) v)) = (if decide (length h = y) then 1 else 0) + cnt y (kids v)) as Ek.
    { unfold kids. destruct side, v as [p l a [?|] [?|]]; cbn in *; try done; rewrite ?cnt_cons, ?cnt_nil; lia. }
    destruct (decide (y = x)) as [->|].
    - cbn [cval]. rewrite (rc_count_live _ _ _ _ Hv) in N'. destruct (decide (length h = x)) as [<-|]; [|lia].
      apply DataInv.live_snoc in Hv as [[_ [= <- <-]]|[Hl _]]; [|lia]. specialize (N (length h)). unfold links in N.
      rewrite hsum_snoc, E in *. cbn in *. rewrite !cnt_nil in *.
      assert (rc_count h (length h) = 0) as E0 by (unfold rc_count; by rewrite lookup_ge_None_2). lia.
    - destruct (decide (length h = y)) as [<-|]; [|lia]. specialize (N (length h)). unfold links in N.
      assert (rc_count h (length h) = 0) as E0 by (unfold rc_count; by rewrite lookup_ge_None_2).
      rewrite hsum_snoc in E'. rewrite E in E'. rewrite cnt_nil in E'.
      rewrite rc_count_snoc, decide_True by done. cbn [cval]. lia.
  Qed.
End heap.

Section steps.
  Context {V : Type} (sz : N).
  Notation stack := (list (frame V)).
  Implicit Types (d : dworld V) (g : gdworld) (st : stack) (s : cstate V).
  Definition casok (f : frame V) : Prop :=
    match f with
    | FChildCas _ _ k n | FChildLost _ _ _ k n | FChildUndo _ _ _ k n => k = 2 /\ kids n = []
    | _ => True
    end.
  Ltac step_inv H :=
    repeat (first
      [ match type of H with mbind _ _ = Ok _ => let x := fresh "x" in let Hx := fresh "Hx" in apply bind_inv in H as (x & Hx & H) end
      | match type of H with Ok _ = Ok _ => fail 1 | _ => idtac end; case_match; try done ]);
    subst; try (injection H as <- <- <-).
  Lemma casok_rel (l : list nat) (k : stack) : Forall casok k -> Forall casok ((FRel <$> l) ++ k).
  Proof. intros H. induction l; cbn; [done|by constructor]. Qed.
  Lemma casok_relopt o (k : stack) : Forall casok k -> Forall casok (rel_opt o ++ k).
  Proof. intros H. destruct o; cbn; [by constructor|done]. Qed.
  Lemma mstep_casok d g st d' g' st' : mstep sz d g st = Ok (d', g', st') -> Forall casok st -> Forall casok st'.
  Proof.
    intros H C. destruct st as [|f k]; [done|]. apply Forall_cons in C as [Cf C]. destruct (ffg_dec f) as [(n & a & ->)|Hf].
    { destruct (mstep_ffg sz _ _ _ _ _ _ _ _ H) as [(E & _ & [(side & n0 & a0 & k0 & -> & _ & ->)|(_ & _ & ->)])|(c & ks & side & E & _ & Es & h & o & Hu & -> & ->)].
      - apply Forall_cons in C as [_ C]. by constructor.
      - by constructor.
      - destruct o; repeat constructor; done. }
    destruct f; try done; try (by destruct (Hf _ _ eq_refl)); cbn [mstep] in H.
    all: step_inv H.
    all: repeat match goal with C : Forall casok (_ :: _) |- _ => apply Forall_cons in C as [? C] end.
    all: try apply casok_rel; try apply casok_relopt; repeat (apply Forall_cons; split); try done.
  Qed.
  Lemma mstep_ncnt d g st d' g' st' R : mstep sz d g st = Ok (d', g', st') -> Forall casok st ->
    ncnt (dw_datas d) (stk fR st ++ R) -> ncnt (dw_datas d') (stk fR st' ++ R).
  Proof.
    intros H C N. destruct st as [|f k]; [done|]. apply Forall_cons in C as [Cf C]. destruct (ffg_dec f) as [(n & a & ->)|Hf].
    { destruct (mstep_ffg sz _ _ _ _ _ _ _ _ H) as [(E & _ & [(side & n0 & a0 & k0 & -> & Hd & ->)|(_ & -> & ->)])|(c & ks & side & E & _ & Es & h & o & Hu & -> & ->)].
      - rewrite (ConcGuard.alloc_release_datas _ _ _ _ Hd). rewrite !stk_cons in *. cbn [fR] in *. by rewrite E in N.
      - rewrite !stk_cons in *. cbn [fR hR] in *. by rewrite E in N.
      - pose proof (kids_tail _ _ _ E) as Ek. rewrite <- Es in Ek. rewrite stk_cons in N. cbn [fR] in N. rewrite E in N. cbn [app] in N.
        pose proof (ncnt_unwrap _ _ _ _ _ Hu N) as N'. destruct o; cbn [dw_set_datas dw_datas]; rewrite !stk_cons; cbn [fR]; rewrite Ek.
        + by rewrite <- !app_assoc in *.
        + done. }
    destruct f; try done; try (by destruct (Hf _ _ eq_refl)); cbn [mstep] in H.
    all: step_inv H.
    all: rewrite ?stk_cons, ?stk_app, ?(stk_relopt fR), ?(stk_rel fR) in * by done.
    all: cbn [fR hR option_list app dw_set_datas dw_datas] in *.
    all: repeat match goal with Hd : alloc_release _ _ _ = Ok _ |- _ => rewrite (ConcGuard.alloc_release_datas _ _ _ _ Hd)
           | Hd : alloc_clone _ _ = Ok _ |- _ => rewrite (ConcGuard.alloc_clone_datas _ _ _ Hd) end.
    all: try done.
    all: try (eapply ncnt_inc; eassumption).
    all: try match goal with Hd : rc_upgrade _ _ = (_, _) |- _ => pose proof (ncnt_upgrade _ _ _ _ _ Hd N); done end.
    all: try match goal with Hd : rc_upgrade _ _ = (_, _) |- _ => pose proof (ncnt_upgrade _ _ _ _ _ Hd N) as N'; cbn in N'; eapply ncnt_perm; [|exact N'] end.
    - rewrite stk_cons, <- app_assoc. cbn [fR app]. change (node_kids d1) with (kids d1). exact (ncnt_dec _ _ _ _ _ Hx N).
    - exact (ncnt_dec _ _ _ _ _ Hx N).
    - match goal with Hd : mem_take _ _ _ = Ok _ |- _ => cbn; rewrite (ConcGuard.mem_take_datas _ _ _ _ _ Hd) end. done.
    - destruct Cf as [-> Ek]. eapply ncnt_publish; [exact Ek|done| |eassumption|done].
      intros m Hm. match goal with Hd : rc_val _ _ = Ok _ |- _ => apply rc_val_inv in Hd as [? Hd]; rewrite (rc_get_live _ _ _ _ Hd) in Hm end.
      by injection Hm as <-.
    - rewrite <- app_assoc. match goal with Hd : rc_try_unwrap _ _ = Ok _ |- _ => exact (ncnt_unwrap _ _ _ _ _ Hd N) end.
    - match goal with Hd : rc_try_unwrap _ _ = Ok _ |- _ => exact (ncnt_unwrap _ _ _ _ _ Hd N) end.
  Qed.
End steps.
