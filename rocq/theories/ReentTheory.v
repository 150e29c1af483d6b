(** Which calls run destructors of items, and with which gates closed. *)
From Verif Require Import Base BaseLemmas Api SliceItemsModel Spec DataModel RcModel DataInv DataSteps GuardInv GuardFuns ArcModel ArcInv ArcConc ConcInv ConcGuard ConcWorld ConcChild ConcData ConcSafe ConcSpec ConcTheory ConcConserve ConcShare ConcTree ConcCov ConcCalm ConcHold LiveSpec ConcWind ConcFair ReentSpec.
Local Open Scope nat_scope.
#[local] Arguments slo {A} F hs : simpl never.
#[local] Arguments thr {V A} F ts : simpl never.

Section reent.
  Context {V : Type} (sz : N).
  Notation stack := (list (frame V)).
  Implicit Types (s : cstate V) (t : nat) (es : list (sched (V:=V))) (st : stack) (g : gdworld).

  Ltac steps H := repeat (first
    [ match type of H with mbind _ _ = Ok _ => let x := fresh "x" in let Hx := fresh "Hx" in apply bind_inv in H as (x & Hx & H) end
    | match type of H with Ok _ = Ok _ => fail 1 | _ => idtac end; case_match; try done ]).

  (** ** Calls that close no gate *)
  Definition nol (f : frame V) : Prop :=
    match f with
    | FOpen _ _ | FGm1 _ | FGm2 _ | FGm3 _ | FGm4 _ | FGm5 _ | FIm1 _ | FIm2 _ | FIm3 _ | FFg _ _ | KFg _ _ _ | KImG _ => False
    | _ => True
    end.
  Lemma nol_rel (l : list nat) : Forall nol (FRel <$> l : stack). Proof. by apply Forall_fmap, Forall_forall. Qed.
  Lemma nol_relg (o : option nat) : Forall nol (rel_opt o : stack). Proof. by apply Forall_fmap, Forall_forall. Qed.
  Lemma mstep_nol (d : dworld V) g st d' g' st' : mstep sz d g st = Ok (d', g', st') -> Forall nol st -> Forall nol st'.
  Proof.
    intros H HF. destruct st as [|f k]; [done|]. pose proof (Forall_inv HF) as Hf. pose proof (Forall_inv_tail HF) as Hk. clear HF.
    destruct f; try done; cbn [mstep] in H. all: steps H. all: subst; try (injection H as <- <- <-); try done.
    all: repeat match goal with H : Forall _ (_ :: _) |- _ => apply Forall_cons in H as [? ?] end.
    all: repeat (first [apply Forall_app; split | apply nol_rel | apply nol_relg | apply Forall_cons; split | done]).
  Qed.

  (** ** Calls that drop nothing *)
  Definition qf g (f : frame V) : Prop :=
    match f with
    | FRel _ | FItems _ _ _ | FUpgrade _ | KGuardPar _ _ _ | KFromData | FV (VData _) | FChild _ _ | FChildInc _ _ _ | FChildAlloc _ _
    | FChildCas _ _ _ _ | FChildLost _ _ _ _ _ | FChildUndo _ _ _ _ _ | FChildUnwrap _ _ _ _ _ => False
    | FGuard x | FGuardUp x _ | FGuardPar x _ | FGuardCas x _ _ | FGuardLost x _ _ => mpar g x = Some None
    | _ => True
    end.
  Lemma qf_relg g (o : option nat) : Forall (qf g) (rel_opt o : stack). Proof. by apply Forall_fmap, Forall_forall. Qed.
  Lemma qf_mono g g' st : (forall x o, mpar g x = Some o -> mpar g' x = Some o) -> Forall (qf g) st -> Forall (qf g') st.
  Proof. intros Hm H. eapply Forall_impl; [exact H|]. intros f. destruct f; cbn; auto. Qed.
  Lemma mstep_qf (d : dworld V) g st d' g' st' : mstep sz d g st = Ok (d', g', st') -> clean d st -> Forall (qf g) st -> Forall (qf g) st'.
  Proof.
    intros H Hc HF. destruct st as [|f k]; [done|]. pose proof (Forall_inv HF) as Hf. pose proof (Forall_inv_tail HF) as Hk. clear HF.
    destruct f; try done; cbn [mstep] in H.
    all: try (unfold clean in Hc; destruct (node_kids n) as [|c l] eqn:Ek; [|unfold rc_try_unwrap in H; unfold rc_count in Hc;
      destruct (dw_datas d !! c) as [[[j m]|]|] eqn:Ec; try done; subst j; cbn in H]).
    all: try match type of H with context [gd_metas ?g !! ?x] => cbn in Hf; unfold mpar in Hf; destruct (gd_metas g !! x) as [m|] eqn:Em; [cbn in Hf; injection Hf as Hf; rewrite ?Hf in H|done] end.
    all: steps H. all: subst; try (injection H as <- <- <-); try done.
    all: repeat match goal with H : Forall _ (_ :: _) |- _ => apply Forall_cons in H as [? ?] end.
    all: repeat (first [apply Forall_app; split | apply qf_relg | apply Forall_cons; split | done | (cbn; unfold mpar; by rewrite Em; cbn; rewrite Hf)]).
  Qed.

  (** ** [clone_left] and [clone_right] of [r]: the data they borrow is the only one they release *)
  Section half.
    Context (r : arcslice) (h : option nat).
    Notation x0 := (ar_data r).
    Definition par g (c : nat) : Prop := mpar g c = Some (Some x0).
    Definition bgood g (b : nat) : Prop := gd_boxes g !! b = Some (Some (Some (ar_guard r))).
    Definition cok g (c : nat) : Prop := c = x0 \/ par g c.
    Definition chq g (f : frame V) : Prop :=
      match f with
      | FChild x _ | FChildAlloc x _ | FChildCas x _ _ _ => x = x0
      | FChildInc x _ c | FChildLost x _ c _ _ | FChildUndo x _ c _ _ | FChildUnwrap x _ c _ _ => x = x0 /\ par g c
      | _ => False
      end.
    Definition gq g (f : frame V) (c : nat) : Prop :=
      match f with
      | FGuard x => x = c /\ cok g c
      | FGuardUp x b => x = c /\ (par g c \/ bgood g b)
      | FGuardPar x _ | FGuardCas x _ _ | FGuardLost x _ _ => x = c /\ par g c
      | FV (VGuard _) => True
      | _ => False
      end.
    Definition uq g (f : frame V) : Prop :=
      match f with
      | FGuard x => x = x0
      | FGuardUp x b => x = x0 /\ bgood g b
      | FV (VGuard _) => True
      | _ => False
      end.
    Inductive half g : stack -> Prop :=
    | H_wait side : half g [FWait (ar_guard r) false; FChild x0 side; KFromData; KEnd h]
    | H_ch f : chq g f -> half g [f; KFromData; KEnd h]
    | H_undo p a c : cok g c -> half g [FItems 0 p a; FV (VData c); KFromData; KEnd h]
    | H_data c : cok g c -> half g [FV (VData c); KFromData; KEnd h]
    | H_guard f c : gq g f c -> half g [f; KSlice c; KEnd h]
    | H_up f c b : par g c -> uq g f -> half g [f; KGuardPar c b x0; KSlice c; KEnd h]
    | H_rel c b y : par g c -> half g [FRel x0; FGuardCas c b (Some y); KSlice c; KEnd h]
    | H_relg y f c : gq g f c -> half g [FRelG y; f; KSlice c; KEnd h]
    | H_fin x o : half g [FV (VFin x o); KEnd h].
    Section mono.
      Context g g' (M1 : forall x o, mpar g x = Some o -> mpar g' x = Some o) (M2 : forall b o, gd_boxes g !! b = Some o -> gd_boxes g' !! b = Some o).
      Lemma cok_mono c : cok g c -> cok g' c. Proof. intros [?|?]; [by left|right; by apply M1]. Qed.
      Lemma chq_mono f : chq g f -> chq g' f. Proof. destruct f; cbn; try done; intros [? ?]; (split; [done|by apply M1]). Qed.
      Lemma gq_mono f c : gq g f c -> gq g' f c.
      Proof.
        destruct f; cbn; try done; intros [? H]; (split; [done|]); try (by apply M1); [by apply cok_mono|].
        destruct H; [left; by apply M1|right; by apply M2].
      Qed.
      Lemma uq_mono f : uq g f -> uq g' f. Proof. destruct f; cbn; try done. intros [? ?]. split; [done|by apply M2]. Qed.
      Lemma half_mono st : half g st -> half g' st.
      Proof.
        destruct 1; [apply H_wait|apply H_ch; by apply chq_mono|apply H_undo; by apply cok_mono|apply H_data; by apply cok_mono|apply H_guard; by apply gq_mono
          |apply H_up; [by apply M1|by apply uq_mono]|apply H_rel; by apply M1|apply H_relg; by apply gq_mono|apply H_fin].
      Qed.
    End mono.
    Lemma half_relg g (o : option nat) f c : gq g f c -> half g (rel_opt o ++ [f; KSlice c; KEnd h]).
    Proof. intros H. destruct o as [y|]; cbn; [by apply H_relg|by apply H_guard]. Qed.

    Context s (D : list nat) T L t st (G : GI s D) (I : DI sz s T L) (M : MI s) (Ht : cs_t s !! t = Some st).
    Context (Hb : bor (cs_h s) st = Some (XArc r)).
    Lemma half_slot : exists h' k, cs_h s !! h' = Some (Some (XArc r, k)).
    Proof.
      unfold bor in Hb. destruct (stk fB st) as [|h' l]; [done|]. destruct (cs_h s !! h') as [[[x k]|]|] eqn:E; try done. injection Hb as ->. eauto.
    Qed.
    Lemma half_rok : rok D r.
    Proof. destruct half_slot as (h' & k & E). exact (G_slot _ _ G _ _ _ E). Qed.
    Lemma half_live : exists j n, live (gd_guards (cs_g s)) (ar_guard r) j n.
    Proof.
      destruct half_slot as (h' & k & E). assert (ar_guard r ∈ tot hG fG s) as Hin.
      { unfold tot. apply elem_of_app. left. unfold slo. apply elem_of_list_bind. eexists. split; [|by eapply elem_of_list_lookup_2]. cbn. left. }
      apply cnt_pos in Hin. pose proof (gi_cnt _ _ _ _ _ (G_inv _ _ G) (ar_guard r)) as Hc.
      unfold rc_count in Hc. destruct (gd_guards (cs_g s) !! ar_guard r) as [[[j n]|]|] eqn:Eg; [|lia..]. exists j, n. exact Eg.
    Qed.
    Lemma half_box m : gd_metas (cs_g s) !! x0 = Some m -> bgood (cs_g s) (am_box m).
    Proof.
      intros Hm. destruct (gi_box _ _ _ _ _ (G_inv _ _ G) _ _ Hm) as (o & Ho & _ & Hu). destruct half_live as (j & n & Hl).
      unfold bgood. rewrite Ho. f_equal. f_equal. eapply Hu; [|apply half_rok]. unfold rc_get. unfold live in Hl. by rewrite Hl.
    Qed.
    Lemma half_up b gs o wk : bgood (cs_g s) b -> gd_boxes (cs_g s) !! b = Some (Some wk) -> rc_upgrade (gd_guards (cs_g s)) wk = (gs, o) -> exists y, o = Some y.
    Proof.
      intros Hg Hw Hu. unfold bgood in Hg. rewrite Hg in Hw. injection Hw as <-. destruct half_live as (j & n & Hl). rewrite (rc_upgrade_live _ _ _ _ Hl) in Hu. injection Hu as _ <-. eauto.
    Qed.
    Lemma half_kid n side c : rc_get (dw_datas (cs_d s)) x0 = Some n -> d_child side n = Some c -> par (cs_g s) c.
    Proof. intros Hn Hc. apply data_parent_mpar. eapply (m_kid _ M); [exact Hn|]. apply in_kids. eauto. Qed.
    Lemma half_rel k gs o : st = FRel x0 :: k -> rc_dec (dw_datas (cs_d s)) x0 = Ok (gs, o) -> o = None.
    Proof.
      intros Est Hd. destruct half_slot as (h' & j & E). pose proof (di_cnt _ _ _ _ _ _ (rest_dinv sz s T L t _ I Ht) x0) as Hc. rewrite Est in Hc.
      assert (x0 ∈ rR s t) as Hin. { unfold rR. apply elem_of_app. left. unfold slo. apply elem_of_list_bind. eexists. split; [|by eapply elem_of_list_lookup_2]. cbn. left. }
      rewrite stk_cons, !cnt_app in Hc. cbn [fR] in Hc. rewrite cnt_cons, decide_True in Hc by done. apply cnt_pos in Hin.
      unfold rc_count in Hc. unfold rc_dec in Hd. destruct (dw_datas (cs_d s) !! x0) as [[[[|[|i]] n]|]|]; try done; try lia. by injection Hd as <- <-.
    Qed.

    Lemma half_get n : rc_val (dw_datas (cs_d s)) x0 = Ok n -> rc_get (dw_datas (cs_d s)) x0 = Some n.
    Proof. intros (j & Hl)%rc_val_inv. unfold rc_get. unfold live in Hl. by rewrite Hl. Qed.
    Lemma mstep_half d g' st' : mstep sz (cs_d s) (cs_g s) st = Ok (d, g', st') ->
      (forall x o, mpar (cs_g s) x = Some o -> mpar g' x = Some o) -> (forall b o, gd_boxes (cs_g s) !! b = Some o -> gd_boxes g' !! b = Some o) ->
      half (cs_g s) st -> half g' st'.
    Proof.
      intros Hs M1 M2 Hh. pose proof (fun c => cok_mono _ _ M1 c) as Mc. pose proof (gq_mono _ _ M1 M2) as Mg.
      inversion Hh as [side E|f Hf E|p a c Hc E|c Hc E|f c Hf E|f c b Hp Hf E|c b y Hp E|y f c Hf E|x o E].
      all: rewrite <- E in Hs.
      - cbn [mstep] in Hs. apply bind_inv in Hs as (n & Hn & Hs). destruct (a_gate false n); injection Hs as <- <- <-; [apply H_wait|by apply H_ch].
      - destruct f; try done; cbn in Hf.
        + subst. cbn [mstep] in Hs. apply bind_inv in Hs as (n & Hn & Hs). destruct (_ <=? _)%N.
          * apply bind_inv in Hs as (gs & Hg & [= <- <- <-]). apply H_data. by left.
          * destruct (d_child side n) as [c|] eqn:Ec; injection Hs as <- <- <-; apply H_ch; [|done]. cbn. split; [done|]. eapply half_kid; [by apply half_get|exact Ec].
        + destruct Hf as [-> Hp]. cbn [mstep] in Hs. apply bind_inv in Hs as (gs & Hg & [= <- <- <-]). apply H_data. by right.
        + subst. cbn [mstep] in Hs. apply bind_inv in Hs as (n & Hn & Hs). destruct (node_sub sz side n) as [p len]. apply bind_inv in Hs as (d1 & Hd & [= <- <- <-]). by apply H_ch.
        + subst. cbn [mstep] in Hs. apply bind_inv in Hs as (m & Hm & Hs). destruct (d_child side m) as [c|] eqn:Ec.
          * injection Hs as <- <- <-. apply H_ch. cbn. split; [done|]. eapply half_kid; [by apply half_get|exact Ec].
          * apply bind_inv in Hs as (gs & Hg & [= <- <- <-]). apply H_data. right. unfold par, mpar. cbn [gd_new_data gd_metas].
            rewrite <- (G_len _ _ G), lookup_app_r, Nat.sub_diag by lia. done.
        + destruct Hf as [-> Hp]. cbn [mstep] in Hs. apply bind_inv in Hs as (gs & Hg & [= <- <- <-]). by apply H_ch.
        + destruct Hf as [-> Hp]. cbn [mstep] in Hs. destruct k as [|[|k]]; try done. injection Hs as <- <- <-. by apply H_ch.
        + destruct Hf as [-> Hp]. cbn [mstep] in Hs. destruct (_ =? _); [|done]. injection Hs as <- <- <-. apply H_undo. by right.
      - cbn in Hs. apply bind_inv in Hs as (d1 & Hd & [= <- <- <-]). by apply H_data, Mc.
      - cbn in Hs. injection Hs as <- <- <-. apply H_guard. cbn. split; [done|]. by apply Mc.
      - destruct f; try done; cbn in Hf.
        + destruct Hf as [-> Hc]. cbn [mstep] in Hs. apply bind_inv in Hs as (n & Hn & Hs). destruct (gd_metas (cs_g s) !! c) as [m|] eqn:Em; [|done].
          injection Hs as <- <- <-. apply H_guard. cbn. split; [done|]. destruct Hc as [->|Hc]; [right; by apply half_box|by left].
        + destruct Hf as [-> Hc]. cbn [mstep] in Hs. destruct (gd_boxes (cs_g s) !! b) as [[wk|]|] eqn:Eb; try done.
          destruct (rc_upgrade (gd_guards (cs_g s)) wk) as [gs o] eqn:Eu. destruct o as [y|]; injection Hs as <- <- <-; apply H_guard; [done|]. cbn. split; [done|].
          destruct Hc as [Hc|Hc]; [done|]. destruct (half_up _ _ _ _ Hc Eb Eu) as [? [=]].
        + destruct Hf as [-> Hc]. cbn [mstep] in Hs. pose proof Hc as Hc'. unfold par, mpar in Hc'. destruct (gd_metas (cs_g s) !! c) as [m|] eqn:Em; [|done].
          cbn in Hc'. injection Hc' as Hc'. rewrite Hc' in Hs. destruct (rc_upgrade (dw_datas (cs_d s)) (Some x0)) as [hd o] eqn:Eu.
          destruct (rc_upgrade_cases (dw_datas (cs_d s)) (Some x0)) as [(i & j & n & [= <-] & Hl & Eu')|[_ Eu']]; rewrite Eu in Eu'; injection Eu' as -> ->; injection Hs as <- <- <-.
          * apply H_up; done.
          * apply H_guard. done.
        + destruct Hf as [-> Hc]. cbn [mstep] in Hs. apply bind_inv in Hs as (n & Hn & Hs). destruct (gd_metas (cs_g s) !! c) as [m|] eqn:Em; [|done].
          destruct (_ =? _).
          * apply bind_inv in Hs as ([g1 y] & Hg & [= <- <- <-]). by apply H_guard.
          * injection Hs as <- <- <-. apply H_guard. done.
        + destruct Hf as [-> Hc]. cbn [mstep] in Hs. destruct (gd_boxes (cs_g s) !! b) as [[wk|]|] eqn:Eb; try done.
          destruct (rc_upgrade (gd_guards (cs_g s)) wk) as [gs o] eqn:Eu. destruct o as [y|]; injection Hs as <- <- <-; by apply half_relg.
        + destruct v; try done. cbn in Hs. injection Hs as <- <- <-. apply H_fin.
      - destruct f; try done; cbn in Hf.
        + rewrite Hf in Hs. cbn [mstep] in Hs. apply bind_inv in Hs as (n & Hn & Hs). destruct (gd_metas (cs_g s) !! ar_data r) as [m|] eqn:Em; [|done].
          injection Hs as <- <- <-. apply H_up; [done|]. cbn. split; [done|]. by apply half_box.
        + destruct Hf as [-> Hc]. cbn [mstep] in Hs. destruct (gd_boxes (cs_g s) !! b0) as [[wk|]|] eqn:Eb; try done.
          destruct (rc_upgrade (gd_guards (cs_g s)) wk) as [gs o] eqn:Eu. destruct (half_up _ _ _ _ Hc Eb Eu) as [y ->]. injection Hs as <- <- <-. by apply H_up.
        + destruct v; try done. cbn in Hs. injection Hs as <- <- <-. by apply H_rel.
      - cbn [mstep] in Hs. apply bind_inv in Hs as ([hd o] & Hd & Hs). rewrite (half_rel _ _ _ (eq_sym E) Hd) in Hs. injection Hs as <- <- <-. by apply H_guard.
      - cbn [mstep] in Hs. apply bind_inv in Hs as ([gs o] & Hd & Hs). destruct o as [n|]; injection Hs as <- <- <-; [apply half_relg; by apply Mg|apply H_guard; by apply Mg].
      - done.
    Qed.
    Lemma half_quiet g n p a k : half g st -> st <> FItems (S n) p a :: k.
    Proof. intros Hh E. clear -Hh E. rewrite E in Hh. inversion Hh as [|f Hf| | |f c Hf|f c b Hp Hf| | |]; subst; done. Qed.
  End half.

  (** ** Every call *)
  Definition shape s (op : cop V) st : Prop :=
    match op with
    | CDrop _ | CUpgrade _ => Forall nol st
    | CCloneHalf _ _ => exists r h, bor (cs_h s) st = Some (XArc r) /\ half r h (cs_g s) st
    | _ => Forall (qf (cs_g s)) st
    end.
  Definition gmono g g' : Prop := (forall x o, mpar g x = Some o -> mpar g' x = Some o) /\ (forall b o, gd_boxes g !! b = Some o -> gd_boxes g' !! b = Some o).
  Lemma gmono_new g o : gmono g (gd_new_data g o).
  Proof.
    split.
    - intros x p. unfold mpar. cbn [gd_new_data gd_metas]. destruct (gd_metas g !! x) as [m|] eqn:E; [|done]. by rewrite (lookup_app_l_Some _ _ _ _ E).
    - intros b p E. cbn. by apply lookup_app_l_Some.
  Qed.
  Lemma cstep_gmono s D e s' : GI s D -> cstep sz s e = Ok s' -> gmono (cs_g s) (cs_g s').
  Proof.
    intros G Hs. apply cstep_qstep in Hs as [Q|(t & st & d & g & st' & -> & Ht & Hs & ->)].
    - destruct (q_d _ _ Q) as [[_ ->]|(k & n & _ & _ & _ & ->)]; [done|apply gmono_new].
    - destruct (GI_mstep sz s D t st d g st' [] [] G Ht Hs) as (X & _ & [_ H1 H2 _ _] & _). by split.
  Qed.
  Lemma shape_mono s s' op st : gmono (cs_g s) (cs_g s') -> bor (cs_h s') st = bor (cs_h s) st -> shape s op st -> shape s' op st.
  Proof.
    intros [H1 H2] Hb. destruct op; cbn; try done; try by apply qf_mono. rewrite Hb. intros (r & h' & ? & ?). exists r, h'. split; [done|]. by eapply half_mono.
  Qed.
  Lemma new_orphan g x : x = length (gd_metas g) -> mpar (gd_new_data g None) x = Some None.
  Proof. intros ->. unfold mpar. cbn. by rewrite lookup_app_r, Nat.sub_diag by lia. Qed.
  Lemma cstart_shape s D t op s' st' : GI s D -> cs_t s !! t = Some [] -> cstart sz s t op = Ok s' -> cs_t s' !! t = Some st' -> st' <> [] -> shape s' op st'.
  Proof.
    intros G Ht Hs Ht' Hne. pose proof (lookup_lt_Some _ _ _ Ht) as Hlt. pose proof (G_len _ _ G) as Hl. unfold cstart in Hs. rewrite Ht in Hs.
    destruct op; steps Hs; subst; injection Hs as <-; try (cbn in Ht'; rewrite Ht in Ht'; by injection Ht' as <-).
    all: cbn in Ht'; rewrite list_lookup_insert in Ht' by done; injection Ht' as <-; try done; cbn [shape].
    all: try (by repeat constructor).
    - repeat constructor; cbn. apply new_orphan. rewrite Hl.
      match goal with H1 : new_block _ _ _ = _, H2 : data_from_boxed_slice _ _ _ = _ |- _ => unfold new_block in H1; injection H1 as <- <- <-; unfold data_from_boxed_slice, data_new in H2 end.
      match goal with H2 : _ = (_, ?n) |- ?n = _ => apply (f_equal snd) in H2; cbn in H2; destruct (_ =? 0)%N in H2; cbn in H2; by rewrite <- H2 end.
    - match goal with H : slot s ?h = Some (XArc ?r, _) |- _ => exists r, (Some h); apply slot_Some in H; rename H into Hh end. split; [|apply H_wait].
      unfold bor. cbn. rewrite list_lookup_insert by by eapply lookup_lt_Some. done.
    - repeat constructor; cbn. apply new_orphan. rewrite Hl.
      match goal with H2 : data_new _ _ _ _ = _ |- _ => unfold data_new in H2; by injection H2 as _ <- end.
  Qed.

  Lemma in_call_snoc n es s t op e : in_call sz n es t op -> creach sz n es s -> (starts t e -> ~ idle s t) -> in_call sz n (es ++ [e]) t op.
  Proof.
    intros (es1 & es2 & s1 & -> & H1 & H2 & H3) Hr He. exists es1, (es2 ++ [e]), s1. split; [by rewrite <- app_assoc|]. split; [done|]. split; [done|].
    intros a op' b s' E Hs'. destruct b as [|e' b _] using rev_ind.
    - apply app_inj_tail in E as [-> ->]. unfold creach in Hr, Hs'. rewrite Hr in Hs'. injection Hs' as <-. apply He. by exists op'.
    - change (SStart t op' :: b ++ [e']) with ((SStart t op' :: b) ++ [e']) in E. rewrite app_assoc in E. apply app_inj_tail in E as [-> _]. by eapply H3.
  Qed.
  Lemma in_call_new n es s t op : creach sz n es s -> idle s t -> in_call sz n (es ++ [SStart t op]) t op.
  Proof. intros Hr Hi. exists es, [], s. split_and!; try done. intros a op' b s' E. by destruct a. Qed.

  Definition HI n es s : Prop := forall t st, cs_t s !! t = Some st -> st <> [] -> exists op, in_call sz n es t op /\ shape s op st.
  Lemma HI_step n es s D T L e s' : creach sz n es s -> WI sz s D T L -> cclean s e -> cstep sz s e = Ok s' -> HI n es s -> HI n (es ++ [e]) s'.
  Proof.
    intros Hr W Hcl Hs H t st' Ht' Hne. pose proof (W_G _ _ _ _ _ W) as G. pose proof (cstep_gmono _ _ _ _ G Hs) as Hg.
    assert (forall st, cs_t s !! t = Some st -> st <> [] -> (forall op, shape s op st -> shape s' op st') -> exists op, in_call sz n (es ++ [e]) t op /\ shape s' op st') as Hgo.
    { intros st Ht Hn Hop. destruct (H t st Ht Hn) as (op & Hc & Hsh). exists op. split; [|by apply Hop]. eapply in_call_snoc; [done..|].
      intros _ Hi. unfold idle in Hi. rewrite Ht in Hi. by injection Hi as ->. }
    assert (forall st, cs_t s !! t = Some st -> bor (cs_h s') st = bor (cs_h s) st) as Hbor.
    { intros st Ht. pose proof Hs as Hs1. apply cstep_qstep in Hs1 as [Q|(t1 & st1 & d & g & st2 & -> & Ht1 & Hm & ->)]; [|done].
      eapply bor_keep; [done..|]. apply (q_h _ _ Q). }
    assert (cs_t s !! t = Some st' -> exists op, in_call sz n (es ++ [e]) t op /\ shape s' op st') as Hsame.
    { intros Ht. eapply Hgo; [done..|]. intros op. apply shape_mono; [done|]. by apply Hbor. }
    destruct e as [t1 op|t1|t1 i v|t1]; cbn [cstep] in Hs.
    - destruct (cstart_thread sz s t1 op s' Hs) as [E|[st1 E]]; [apply Hsame; by rewrite <- E|].
      destruct (decide (t1 = t)) as [->|]; [|rewrite E, list_lookup_insert_ne in Ht' by done; by apply Hsame].
      destruct (cs_t s !! t) as [[|f k]|] eqn:Ht.
      + exists op. split; [by eapply in_call_new|]. by eapply cstart_shape.
      + unfold cstart in Hs. rewrite Ht in Hs. injection Hs as <-. apply Hsame. by rewrite <- Ht.
      + unfold cstart in Hs. rewrite Ht in Hs. injection Hs as <-. rewrite Ht in Ht'. done.
    - destruct (cs_t s !! t1) as [st|] eqn:Ht; [|unfold tstep in Hs; rewrite Ht in Hs; injection Hs as <-; by apply Hsame].
      destruct (tstep_cases sz s t1 st Ht) as [(-> & Hc)|[(r & -> & Hc)|[(x & o & h & -> & Hc)|[(r & -> & Hc)|Hc]]]]; rewrite Hc in Hs; clear Hc.
      + injection Hs as <-. by apply Hsame.
      + injection Hs as <-. by apply Hsame.
      + injection Hs as <-. cbn in Ht'. destruct (decide (t1 = t)) as [->|]; [|rewrite list_lookup_insert_ne in Ht' by done; by apply Hsame].
        rewrite list_lookup_insert in Ht' by by eapply lookup_lt_Some. by injection Ht' as <-.
      + injection Hs as <-. cbn in Ht'. destruct (decide (t1 = t)) as [->|]; [|rewrite list_lookup_insert_ne in Ht' by done; by apply Hsame].
        rewrite list_lookup_insert in Ht' by by eapply lookup_lt_Some. injection Ht' as <-. eapply Hgo; [done..|].
        intros op. destruct op; cbn; try (by repeat constructor). intros (r' & h' & Hb & _). done.
      + apply bind_inv in Hs as ([[d g] st1] & Hm & [= <-]). cbn [cs_t] in Ht'. destruct (decide (t1 = t)) as [->|]; [|rewrite list_lookup_insert_ne in Ht' by done; by apply Hsame].
        rewrite list_lookup_insert in Ht' by by eapply lookup_lt_Some. injection Ht' as <-.
        assert (st <> []) as Hst by by intros ->. eapply Hgo; [done..|]. cbn [cs_g] in Hg. cbn in Hcl. rewrite Ht in Hcl.
        destruct (GI_mstep sz s D t st d g st1 [] [] G Ht Hm) as (_ & _ & _ & EB). destruct Hg as [M1 M2].
        intros op. destruct op; cbn [shape cs_g cs_h]; try (intros Hq; eapply qf_mono; [exact M1|]; by eapply mstep_qf); try (by eapply mstep_nol).
        intros (r & h' & Hb & Hh). exists r, h'. split; [unfold bor; by rewrite EB|].
        eapply (mstep_half r h' s D T L t st); try done; apply W.
    - apply Hsame. unfold hold_write in Hs. destruct (cs_t s !! t1) as [st|] eqn:Ht; [|by injection Hs as <-].
      repeat (case_match; try (by injection Hs as <-)). subst. apply bind_inv in Hs as (m & _ & Hs).
      destruct (_ <? _)%N; [|by injection Hs as <-]. apply bind_inv in Hs as ([d old] & Hd & [= <-]). done.
    - unfold hold_end in Hs. destruct (cs_t s !! t1) as [st|] eqn:Ht; [|injection Hs as <-; by apply Hsame].
      repeat (case_match; try (by injection Hs as <-; apply Hsame)). subst. injection Hs as <-. cbn in Ht'.
      destruct (decide (t1 = t)) as [->|]; [|rewrite list_lookup_insert_ne in Ht' by done; by apply Hsame].
      rewrite list_lookup_insert in Ht' by by eapply lookup_lt_Some. by injection Ht' as <-.
  Qed.
  Lemma HI_reach n es s : always sz calm n es -> creach sz n es s -> HI n es s.
  Proof.
    revert s. induction es as [|e es IH] using rev_ind; intros s Hc Hr.
    - injection Hr as <-. intros t st Ht Hne. cbn in Ht. by apply lookup_replicate in Ht as [-> _].
    - pose proof (always_app sz _ _ _ _ Hc) as Hc1. destruct (calm_inv sz n es Hc1) as (s1 & D & T & L & Hr1 & W & Him).
      pose proof Hr as Hr2. apply crun_app in Hr2 as (s2 & Hr2 & Hs). cbn in Hs. apply bind_inv in Hs as (s3 & Hs & [= <-]).
      unfold creach in Hr1. rewrite Hr1 in Hr2. injection Hr2 as <-. eapply HI_step; [done..|by eapply IM_clean|done|]. by apply IH.
  Qed.

  (** ** Steps that are destructors *)
  Definition drops (d : dworld V) := omap (fun e => match e with EDrop b i _ => Some (b, i) | EFree _ _ _ => None end) (dw_trace d).
  Lemma mstep_drops d g st d' g' st' : mstep sz d g st = Ok (d', g', st') -> (exists n p a k, st = FItems (S n) p a :: k) \/ drops d' = drops d.
  Proof.
    intros Hs. destruct st as [|f k]; [done|].
    destruct f; cbn [mstep] in Hs; steps Hs; subst; try discriminate Hs; try (by injection Hs as <- <- <-; right).
    all: injection Hs as <- <- <-.
    all: first [ left; by repeat eexists
      | right; unfold drops; match goal with H : alloc_release _ _ _ = Ok _ |- _ => by apply alloc_release_mem in H as [_ ->] | H : alloc_clone _ _ = Ok _ |- _ => by apply alloc_clone_mem in H as [_ ->] end ].
  Qed.
  Lemma runs_items s t : runs_destructor sz s t -> exists n p a k, cs_t s !! t = Some (FItems (S n) p a :: k).
  Proof.
    intros (s' & b & i & v & Hs & Htr). cbn in Hs.
    assert (drops (cs_d s') <> drops (cs_d s)) as Hne.
    { unfold drops. rewrite Htr, omap_app. cbn. intros E. apply (f_equal length) in E. rewrite app_length in E. cbn in E. lia. }
    destruct (cs_t s !! t) as [st|] eqn:Ht; [|unfold tstep in Hs; rewrite Ht in Hs; by injection Hs as <-].
    destruct (tstep_cases sz s t st Ht) as [(-> & Hc)|[(r & -> & Hc)|[(x & o & h & -> & Hc)|[(r & -> & Hc)|Hc]]]]; rewrite Hc in Hs; clear Hc.
    1-4: exfalso; injection Hs as <-; by apply Hne.
    apply bind_inv in Hs as ([[d g] st1] & Hm & [= <-]). apply mstep_drops in Hm as [(m & p & a & k & ->)|E]; [by eauto|done].
  Qed.

  Theorem reent_only n es s t : always sz calm n es -> creach sz n es s -> runs_destructor sz s t ->
    exists h, in_call sz n es t (CDrop h) \/ in_call sz n es t (CUpgrade h).
  Proof.
    intros Hc Hr Hd. apply runs_items in Hd as (m & p & a & k & Ht). destruct (HI_reach _ _ _ Hc Hr _ _ Ht ltac:(done)) as (op & Hop & Hsh).
    destruct op; cbn [shape] in Hsh; try (by apply Forall_inv in Hsh); eauto.
    destruct Hsh as (r & h' & _ & Hh). exfalso; eapply half_quiet; [exact Hh|reflexivity].
  Qed.
  Theorem reent_no_latch n es s t y down : always sz calm n es -> creach sz n es s -> runs_destructor sz s t -> ~ has_latch s t y down.
  Proof.
    intros Hc Hr Hd. apply runs_items in Hd as (m & p & a & k & Ht). destruct (HI_reach _ _ _ Hc Hr _ _ Ht ltac:(done)) as (op & Hop & Hsh).
    intros HL.
    assert (Forall nol (FItems (S m) p a :: k)) as HF.
    { destruct op; cbn [shape] in Hsh; try (by apply Forall_inv in Hsh); try done.
      destruct Hsh as (r & h' & _ & Hh). exfalso; eapply half_quiet; [exact Hh|reflexivity]. }
    destruct HL as (st & Ht' & Hin). rewrite Ht in Ht'. injection Ht' as <-. rewrite Forall_forall in HF. by apply (HF _ Hin).
  Qed.
  Theorem reent_drop_only n es s t : no_upgrade es -> creach sz n es s -> runs_destructor sz s t -> exists h, in_call sz n es t (CDrop h).
  Proof.
    intros Hn Hr Hd. destruct (no_upgrade_calm sz n es Hn) as [Hc _]. destruct (reent_only _ _ _ _ Hc Hr Hd) as (h & [H|H]); [by exists h|].
    destruct H as (es1 & es2 & s1 & -> & _). unfold no_upgrade in Hn. apply Forall_app in Hn as [_ Hn]. apply Forall_inv in Hn. by destruct (Hn t h).
  Qed.
  Lemma in_call_last n es1 es2 s1 t op : creach sz n es1 s1 -> idle s1 t -> Forall (fun e => ~ starts t e) es2 -> in_call sz n (es1 ++ SStart t op :: es2) t op.
  Proof.
    intros H1 H2 H3. exists es1, es2, s1. split_and!; try done. intros a op' b s' ->. apply Forall_app in H3 as [_ H3]. apply Forall_inv in H3. destruct H3. by exists op'.
  Qed.

  (** ** Calls made while another thread is in a destructor *)
  Lemma free_same s s' t : cs_t s' !! t = cs_t s !! t -> free s t -> free s' t.
  Proof. unfold free, idle, holds_mut. by intros ->. Qed.
  Theorem reent_progress n es s t t' : always sz calm n es -> creach sz n es s -> runs_destructor sz s t ->
    t' <> t -> t' < n -> (forall u, u < n -> u <> t -> u <> t' -> free s u) ->
    (forall m, exists s', creach sz n (es ++ replicate m (SStep t')) s') ->
    exists m s', creach sz n (es ++ replicate m (SStep t')) s' /\ free s' t' /\ cs_t s' !! t = cs_t s !! t.
  Proof.
    intros Hc Hr Hd Hne Hlt Hfree Hok. destruct (solo_rest sz n es s t' Hr Hlt Hok) as (m & s' & Hr' & Hend & Hsame).
    exists m, s'. split; [done|]. split; [|by apply Hsame]. destruct Hend as [|(y & down & Hw)]; [done|]. exfalso.
    destruct (waits_for sz n _ s' t' y down Hr' Hw) as (u & HL & Hb & Hnf & Hnw).
    destruct (decide (u = t')) as [->|Hu]; [by apply (Hnw y down)|]. destruct (decide (u = t)) as [->|Hu'].
    - apply (reent_no_latch n es s t y down Hc Hr Hd). destruct HL as (st & E & Hin). exists st. rewrite <- Hsame by done. done.
    - apply Hnf. eapply free_same; [by apply Hsame|]. apply Hfree; [|done..].
      by rewrite <- (reach_len sz _ _ _ Hr').
  Qed.
  Theorem reent_progress_plain n es s t t' : no_into_mut es \/ no_upgrade es -> creach sz n es s -> runs_destructor sz s t ->
    t' <> t -> t' < n -> (forall u, u < n -> u <> t -> u <> t' -> free s u) ->
    exists m s', creach sz n (es ++ replicate m (SStep t')) s' /\ free s' t' /\ cs_t s' !! t = cs_t s !! t.
  Proof.
    intros Hn Hr Hd Hne Hlt Hfree.
    assert (always sz calm n es) as Hc by (destruct Hn; [by apply no_into_mut_calm|by apply no_upgrade_calm]).
    apply reent_progress; try done. intros m. destruct Hn as [Hn|Hn].
    - apply share_safe. apply Forall_app; split; [done|]. by apply Forall_replicate.
    - destruct (calm_inv sz n (es ++ replicate m (SStep t'))) as (s2 & _ & _ & _ & Hr2 & _); [|eauto].
      apply no_upgrade_calm. apply Forall_app; split; [done|]. by apply Forall_replicate.
  Qed.
End reent.
