(** No function of the model looks at the trace: what a call does to two states
    that differ in their traces only is the same, up to the traces. *)
From Verif Require Import Base Api SliceItemsModel BinPartsModel DataModel RcModel ArcModel.

Definition rmap {A B} (g : A -> B) (m : res A) : res B := x ← m; Ok (g x).
Lemma rbind_rmap {A B C} (g : A -> B) (m : res A) (f : B -> res C) : (x ← rmap g m; f x) = (x ← m; f (g x)).
Proof. by destruct m. Qed.
Lemma rmap_bind {A B C} (g : B -> C) (m : res A) (f : A -> res B) : rmap g (x ← m; f x) = (x ← m; rmap g (f x)).
Proof. by destruct m. Qed.
Lemma rbind_ext {A B} (m : res A) (f g : A -> res B) : (forall x, f x = g x) -> (x ← m; f x) = (x ← m; g x).
Proof. intros H. destruct m; cbn; auto. Qed.

Section data.
  Context {V : Type} (sz : N) (t : list (event V)).
  Notation dworld := (dworld V).
  Implicit Types w : dworld.

  Definition pre w : dworld := DW (dw_allocs w) (dw_datas w) (dw_blocks w) (dw_mem w) (t ++ dw_trace w).
  Definition pre1 {A} (x : dworld * A) : dworld * A := (pre (fst x), snd x).

  Lemma pre_set_allocs w h : dw_set_allocs (pre w) h = pre (dw_set_allocs w h). Proof. done. Qed.
  Lemma pre_set_datas w h : dw_set_datas (pre w) h = pre (dw_set_datas w h). Proof. done. Qed.
  Lemma pre_set_blocks w h : dw_set_blocks (pre w) h = pre (dw_set_blocks w h). Proof. done. Qed.
  Lemma pre_set_mem w h : dw_set_mem (pre w) h = pre (dw_set_mem w h). Proof. done. Qed.
  Lemma pre_log w e : dw_log (pre w) e = pre (dw_log w e). Proof. unfold dw_log, pre. cbn. by rewrite app_assoc. Qed.

  Lemma mem_at_pre w p : mem_at sz (pre w) p = mem_at sz w p. Proof. done. Qed.
  Lemma mem_take_pre w p : mem_take sz (pre w) p = rmap pre1 (mem_take sz w p).
  Proof. unfold mem_take. rewrite mem_at_pre. by destruct (mem_at sz w p). Qed.
  Lemma mem_replace_pre w p v : mem_replace sz (pre w) p v = rmap pre1 (mem_replace sz w p v).
  Proof. unfold mem_replace. rewrite mem_at_pre. by destruct (mem_at sz w p). Qed.
  Lemma mem_read_pre n : forall w p, mem_read sz (pre w) n p = mem_read sz w n p.
  Proof. induction n as [|n IH]; intros w p; [done|]. cbn [mem_read]. rewrite mem_at_pre. apply rbind_ext. intros v. by rewrite IH. Qed.
  Lemma drop_in_place_pre n : forall w p, drop_in_place sz (pre w) n p = rmap pre (drop_in_place sz w n p).
  Proof.
    induction n as [|n IH]; intros w p; [done|]. cbn [drop_in_place]. rewrite mem_take_pre, rbind_rmap, rmap_bind. apply rbind_ext.
    intros [w1 v]. cbn [pre1 fst snd]. rewrite pre_log. apply IH.
  Qed.
  Lemma new_block_pre w base vals : new_block (pre w) base vals = (let '(w, p, l) := new_block w base vals in (pre w, p, l)).
  Proof. done. Qed.
  Lemma salloc_drop_pre w a : salloc_drop sz (pre w) a = rmap pre (salloc_drop sz w a).
  Proof.
    unfold salloc_drop. destruct (_ || _); [done|]. change (dw_blocks (pre w)) with (dw_blocks w).
    destruct (dw_blocks w !! _) as [b|]; [|done]. destruct (_ || _ || _); [done|]. cbn [rmap]. unfold rmap. cbn [mbind res_bind].
    by rewrite pre_set_blocks, pre_log.
  Qed.
  Lemma alloc_release_pre w o : alloc_release sz (pre w) o = rmap pre (alloc_release sz w o).
  Proof.
    destruct o as [a|]; [|done]. cbn [alloc_release]. rewrite rmap_bind. apply rbind_ext. intros [h [v|]]; rewrite pre_set_allocs; [|done].
    apply salloc_drop_pre.
  Qed.
  Lemma alloc_clone_pre w o : alloc_clone (pre w) o = rmap pre (alloc_clone w o).
  Proof. destruct o as [a|]; [|done]. cbn [alloc_clone]. rewrite rmap_bind. by apply rbind_ext. Qed.
  Lemma alloc_new_pre w p l : alloc_new (pre w) p l = pre1 (alloc_new w p l). Proof. done. Qed.
  Lemma split_alloc_pre w p l : split_alloc_from_items sz (pre w) p l = (let '(w, it, al) := split_alloc_from_items sz w p l in (pre w, it, al)).
  Proof. unfold split_alloc_from_items. by destruct (_ || _). Qed.
  Lemma data_new_pre w p l al : data_new (pre w) p l al = pre1 (data_new w p l al). Proof. done. Qed.
  Lemma data_from_boxed_pre w p l : data_from_boxed_slice (pre w) p l = pre1 (data_from_boxed_slice w p l).
  Proof. unfold data_from_boxed_slice. by destruct (_ =? _)%N. Qed.
  Lemma data_clone_child_pre w d side p l : data_clone_child (pre w) d side p l = rmap pre1 (data_clone_child w d side p l).
  Proof.
    unfold data_clone_child. change (dw_datas (pre w)) with (dw_datas w). rewrite rmap_bind. apply rbind_ext. intros n.
    destruct (d_child side n) as [c|].
    - rewrite rmap_bind. by apply rbind_ext.
    - rewrite alloc_clone_pre, rbind_rmap, rmap_bind. apply rbind_ext. intros w1. rewrite data_new_pre. unfold pre1.
      destruct (data_new w1 _ _ _) as [w2 c]. cbn [fst snd]. change (dw_datas (pre w2)) with (dw_datas w2).
      rewrite rmap_bind. apply rbind_ext. intros h. rewrite rmap_bind. by apply rbind_ext.
  Qed.
  Lemma data_clone_left_pre w d : data_clone_left (pre w) d = rmap pre1 (data_clone_left w d).
  Proof. unfold data_clone_left. change (dw_datas (pre w)) with (dw_datas w). rewrite rmap_bind. apply rbind_ext. intros n. destruct (left_sub n). apply data_clone_child_pre. Qed.
  Lemma data_clone_right_pre w d : data_clone_right sz (pre w) d = rmap pre1 (data_clone_right sz w d).
  Proof. unfold data_clone_right. change (dw_datas (pre w)) with (dw_datas w). rewrite rmap_bind. apply rbind_ext. intros n. destruct (right_sub sz n). apply data_clone_child_pre. Qed.
  Lemma data_release_pre fuel : forall w d, data_release sz fuel (pre w) d = rmap pre (data_release sz fuel w d).
  Proof.
    induction fuel as [|fuel IH]; intros w d; [done|]. cbn [data_release]. change (dw_datas (pre w)) with (dw_datas w).
    rewrite rmap_bind. apply rbind_ext. intros [h [n|]]; rewrite pre_set_datas; [|done].
    assert (forall w o, match o with None => Ok (pre w) | Some c => data_release sz fuel (pre w) c end =
      rmap pre match o with None => Ok w | Some c => data_release sz fuel w c end) as HC by (intros ? [c|]; [apply IH|done]).
    rewrite HC, rbind_rmap, rmap_bind. apply rbind_ext. intros w1. rewrite HC, rbind_rmap, rmap_bind. apply rbind_ext. intros w2.
    assert (match d_left n, d_right n with
            | None, None => drop_in_place sz (pre w2) (N.to_nat (d_len n)) (d_ptr n)
            | Some _, None => let '(p, len) := right_sub sz n in drop_in_place sz (pre w2) (N.to_nat len) p
            | None, Some _ => let '(p, len) := left_sub n in drop_in_place sz (pre w2) (N.to_nat len) p
            | Some _, Some _ => Ok (pre w2) end =
      rmap pre match d_left n, d_right n with
            | None, None => drop_in_place sz w2 (N.to_nat (d_len n)) (d_ptr n)
            | Some _, None => let '(p, len) := right_sub sz n in drop_in_place sz w2 (N.to_nat len) p
            | None, Some _ => let '(p, len) := left_sub n in drop_in_place sz w2 (N.to_nat len) p
            | Some _, Some _ => Ok w2 end) as ->.
    { destruct (d_left n), (d_right n); [done|destruct (right_sub sz n)|destruct (left_sub n)|]; try apply drop_in_place_pre. }
    rewrite rbind_rmap, rmap_bind. apply rbind_ext. intros w3. apply alloc_release_pre.
  Qed.
  Lemma data_drop_pre w d : data_drop sz (pre w) d = rmap pre (data_drop sz w d).
  Proof. apply data_release_pre. Qed.
  Lemma data_forget_pre fuel : forall w n, data_forget_items sz fuel (pre w) n = rmap pre1 (data_forget_items sz fuel w n).
  Proof.
    induction fuel as [|fuel IH]; intros w n; [done|]. cbn [data_forget_items].
    set (fc := fun (w : dworld) (o : option nat) => match o with
      | None => Ok w
      | Some c => '(h, r) ← rc_try_unwrap (dw_datas w) c;
                  let w := dw_set_datas w h in
                  match r with
                  | Some child => '(w, child) ← data_forget_items sz fuel w child; data_drop_forgotten sz w child
                  | None => data_release sz (S (length (dw_datas w))) w c
                  end
      end).
    transitivity (w ← fc (pre w) (d_left n); w ← fc w (d_right n); Ok (w, DNode (d_ptr n) 0 (d_alloc n) None None)); [reflexivity|].
    transitivity (rmap pre1 (w ← fc w (d_left n); w ← fc w (d_right n); Ok (w, DNode (d_ptr n) 0 (d_alloc n) None None))); [|reflexivity].
    assert (forall w o, fc (pre w) o = rmap pre (fc w o)) as HC.
    { intros w1 [c|]; [|done]. unfold fc. change (dw_datas (pre w1)) with (dw_datas w1). rewrite rmap_bind. apply rbind_ext. intros [h [ch|]]; rewrite pre_set_datas.
      - rewrite IH, rbind_rmap, rmap_bind. apply rbind_ext. intros [w2 ch']. apply alloc_release_pre.
      - apply data_release_pre. }
    rewrite HC, rbind_rmap, rmap_bind. apply rbind_ext. intros w1. rewrite HC, rbind_rmap, rmap_bind. by apply rbind_ext.
  Qed.
  Lemma data_into_mut_pre w n : data_into_mut sz (pre w) n = rmap pre1 (data_into_mut sz w n).
  Proof.
    unfold data_into_mut. change (dw_datas (pre w)) with (dw_datas w). rewrite data_forget_pre, rbind_rmap, rmap_bind. apply rbind_ext. intros [w1 s].
    cbn [pre1 fst snd]. unfold data_drop_forgotten. rewrite alloc_release_pre, rbind_rmap, rmap_bind. by apply rbind_ext.
  Qed.

  Lemma items_alloc_drop_pre w p l al : items_alloc_drop sz (pre w) p l al = rmap pre (items_alloc_drop sz w p l al).
  Proof. unfold items_alloc_drop. rewrite drop_in_place_pre, rbind_rmap, rmap_bind. apply rbind_ext. intros. apply alloc_release_pre. Qed.
  Lemma mut_drop_pre w m : mut_drop sz (pre w) m = rmap pre (mut_drop sz w m).
  Proof. apply items_alloc_drop_pre. Qed.
  Lemma iter_drop_pre w m : iter_drop sz (pre w) m = rmap pre (iter_drop sz w m).
  Proof. unfold iter_drop. rewrite rmap_bind. apply rbind_ext. intros [p l]. apply items_alloc_drop_pre. Qed.
  Lemma mparts_drop_pre w m : mparts_drop sz (pre w) m = rmap pre (mparts_drop sz w m).
  Proof. unfold mparts_drop. rewrite rmap_bind. apply rbind_ext. intros [p l]. apply items_alloc_drop_pre. Qed.
  Lemma mut_split_off_pre side w m : mut_split_off sz side (pre w) m = rmap pre1 (mut_split_off sz side w m).
  Proof. unfold mut_split_off. destruct (if side then _ else _). rewrite alloc_clone_pre, rbind_rmap, rmap_bind. by apply rbind_ext. Qed.
  Definition pre2 {A B} (x : dworld * A * B) : dworld * A * B := (pre (fst (fst x)), snd (fst x), snd x).
  Lemma iter_next_pre back w m : iter_next sz back (pre w) m = rmap pre2 (iter_next sz back w m).
  Proof.
    unfold iter_next. rewrite rmap_bind. apply rbind_ext. intros [it o].
    assert (match o with None => Ok (pre w, None) | Some p => '(d, v) ← mem_take sz (pre w) p; Ok (d, Some v) end =
      rmap pre1 match o with None => Ok (w, None) | Some p => '(d, v) ← mem_take sz w p; Ok (d, Some v) end) as ->.
    { destruct o; [|done]. rewrite mem_take_pre, rbind_rmap, rmap_bind. apply rbind_ext. by intros []. }
    rewrite rbind_rmap, rmap_bind. apply rbind_ext. intros [d item]. cbn [pre1 fst snd]. rewrite rmap_bind. apply rbind_ext. intros l.
    destruct (_ =? _)%N; [|done]. rewrite alloc_release_pre, rbind_rmap, rmap_bind. by apply rbind_ext.
  Qed.
  Lemma iter_split_off_pre to w m i : iter_split_off sz to (pre w) m i = rmap pre1 (iter_split_off sz to w m i).
  Proof.
    unfold iter_split_off. rewrite rmap_bind. apply rbind_ext. intros [a b]. rewrite rmap_bind. apply rbind_ext. intros l.
    destruct (_ =? _)%N; [done|]. rewrite rmap_bind. apply rbind_ext. intros l'. destruct (_ <? _)%N; [|done].
    rewrite alloc_clone_pre, rbind_rmap, rmap_bind. by apply rbind_ext.
  Qed.
  Lemma mparts_next_pre back w m : mparts_next sz back (pre w) m = rmap pre2 (mparts_next sz back w m).
  Proof.
    unfold mparts_next. rewrite rmap_bind. apply rbind_ext. intros [it [items|]]; [|done]. rewrite rmap_bind. apply rbind_ext. intros [p l].
    destruct (_ =? _)%N; [done|]. destruct (_ <? _)%N; [|done]. rewrite alloc_clone_pre, rbind_rmap, rmap_bind. by apply rbind_ext.
  Qed.
End data.

(** The generic parts iterator, for any map of states that its operations commute with. *)
Section bpi.
  Context {S W : Type} (f : W -> W) (sl sr : W -> S -> res (W * (S * S))).
  Context (capf growf : N -> N) (dbg : bool).
  Definition on1 {A} (x : W * A) : W * A := (f (fst x), snd x).
  Definition on2 {A B} (x : W * A * B) : W * A * B := (f (fst (fst x)), snd (fst x), snd x).
  Context (Hl : forall w s, sl (f w) s = rmap on1 (sl w s)) (Hr : forall w s, sr (f w) s = rmap on1 (sr w s)).
  Lemma loop_front_on fuel : forall n w q it, bpi_loop_front sl growf fuel n (f w) q it = rmap on2 (bpi_loop_front sl growf fuel n w q it).
  Proof.
    induction fuel as [|fuel IH]; intros n w q it; [done|]. cbn [bpi_loop_front]. destruct (_ =? _)%N; [|done].
    destruct (dq_items _) as [|s rest]; [apply IH|]. rewrite Hl, rbind_rmap, rmap_bind. apply rbind_ext. intros [w1 [s1 r1]]. apply IH.
  Qed.
  Lemma loop_back_on fuel : forall n w q it, bpi_loop_back sr growf fuel n (f w) q it = rmap on2 (bpi_loop_back sr growf fuel n w q it).
  Proof.
    induction fuel as [|fuel IH]; intros n w q it; [done|]. cbn [bpi_loop_back]. destruct (_ =? _)%N; [|done].
    destruct (last _) as [s|]; [|apply IH]. rewrite Hr, rbind_rmap, rmap_bind. apply rbind_ext. intros [w1 [s1 r1]]. apply IH.
  Qed.
  Lemma bpi_next_on w it : bpi_next sl growf dbg (f w) it = rmap on2 (bpi_next sl growf dbg w it).
  Proof.
    unfold bpi_next. rewrite rmap_bind. apply rbind_ext. intros l. destruct (_ =? _)%N; [done|]. destruct (dbg && _); [done|].
    rewrite rmap_bind. apply rbind_ext. intros m. destruct (dbg && _); [done|]. rewrite rmap_bind. apply rbind_ext. intros n.
    rewrite rmap_bind. apply rbind_ext. intros n'. rewrite loop_front_on, rbind_rmap, rmap_bind. apply rbind_ext. intros [[w1 q] o]. cbn [on2 fst snd].
    destruct (dbg && _); [done|]. rewrite rmap_bind. apply rbind_ext. intros k. destruct o; [done|]. by destruct (dq_pop_front q).
  Qed.
  Lemma bpi_next_back_on w it : bpi_next_back sr growf dbg (f w) it = rmap on2 (bpi_next_back sr growf dbg w it).
  Proof.
    unfold bpi_next_back. rewrite rmap_bind. apply rbind_ext. intros l. destruct (_ =? _)%N; [done|]. destruct (dbg && _); [done|].
    rewrite rmap_bind. apply rbind_ext. intros m. destruct (dbg && _); [done|]. rewrite rmap_bind. apply rbind_ext. intros n.
    rewrite rmap_bind. apply rbind_ext. intros n'. rewrite loop_back_on, rbind_rmap, rmap_bind. apply rbind_ext. intros [[w1 q] o]. cbn [on2 fst snd].
    destruct (dbg && _); [done|]. rewrite rmap_bind. apply rbind_ext. intros k. destruct o; [done|]. by destruct (dq_pop_back q).
  Qed.
  Context (cl : W -> S -> res (W * S)) (Hc : forall w s, cl (f w) s = rmap on1 (cl w s)).
  Lemma clone_all_on l : forall w, clone_all cl (f w) l = rmap on1 (clone_all cl w l).
  Proof.
    induction l as [|s l IH]; intros w; [done|]. cbn [clone_all]. rewrite Hc, rbind_rmap, rmap_bind. apply rbind_ext. intros [w1 s1]. cbn [on1 fst snd].
    rewrite IH, rbind_rmap, rmap_bind. apply rbind_ext. by intros [].
  Qed.
  Lemma bpi_clone_on w it : bpi_clone cl capf (f w) it = rmap on1 (bpi_clone cl capf w it).
  Proof. unfold bpi_clone. rewrite clone_all_on, rbind_rmap, rmap_bind. apply rbind_ext. by intros []. Qed.
End bpi.

Section rc.
  Context {V : Type} (sz : N) (vclone : V -> V) (capf growf : N -> N) (dbg : bool) (t : list (event V)).
  Notation dg := (dworld V * gworld)%type.
  Implicit Types s : dg.
  Definition preS s : dg := (pre t (fst s), snd s).
  Notation on1 := (on1 preS).
  Notation on2 := (on2 preS).

  Lemma rcs_from_unique_pre s d : rcs_from_unique_data (preS s) d = rmap on1 (rcs_from_unique_data s d).
  Proof. unfold rcs_from_unique_data. rewrite rmap_bind. apply rbind_ext. by intros []. Qed.
  Lemma rcs_from_boxed_pre s base vals : rcs_from_boxed_slice (preS s) base vals = rmap on1 (rcs_from_boxed_slice s base vals).
  Proof.
    unfold rcs_from_boxed_slice, preS. cbn [fst snd]. rewrite new_block_pre. destruct (new_block (fst s) base vals) as [[d p] l]. rewrite data_from_boxed_pre.
    unfold pre1. destruct (data_from_boxed_slice d p l) as [d' n]. apply (rcs_from_unique_pre (d', snd s)).
  Qed.
  Lemma rcs_clone_pre s r : rcs_clone (preS s) r = rmap on1 (rcs_clone s r).
  Proof. unfold rcs_clone. cbn [preS fst snd]. change (dw_datas (pre t (fst s))) with (dw_datas (fst s)). rewrite rmap_bind. apply rbind_ext. intros h. rewrite rmap_bind. by apply rbind_ext. Qed.
  Lemma rcs_drop_pre s r : rcs_drop sz (preS s) r = rmap preS (rcs_drop sz s r).
  Proof. unfold rcs_drop. cbn [preS fst snd]. rewrite data_drop_pre, rbind_rmap, rmap_bind. apply rbind_ext. intros d. rewrite rmap_bind. by apply rbind_ext. Qed.
  Lemma rcs_clone_left_pre s r : rcs_clone_left (preS s) r = rmap on1 (rcs_clone_left s r).
  Proof.
    unfold rcs_clone_left. cbn [preS fst snd]. change (dw_datas (pre t (fst s))) with (dw_datas (fst s)). rewrite rmap_bind. apply rbind_ext. intros n.
    destruct (_ =? _)%N; [apply rcs_clone_pre|]. rewrite data_clone_left_pre, rbind_rmap, rmap_bind. apply rbind_ext. intros [d c]. cbn [pre1 fst snd].
    rewrite rmap_bind. apply rbind_ext. by intros [].
  Qed.
  Lemma rcs_clone_right_pre s r : rcs_clone_right sz (preS s) r = rmap on1 (rcs_clone_right sz s r).
  Proof.
    unfold rcs_clone_right. cbn [preS fst snd]. change (dw_datas (pre t (fst s))) with (dw_datas (fst s)). rewrite rmap_bind. apply rbind_ext. intros n.
    destruct (_ <=? _)%N; [apply rcs_clone_pre|]. rewrite data_clone_right_pre, rbind_rmap, rmap_bind. apply rbind_ext. intros [d c]. cbn [pre1 fst snd].
    rewrite rmap_bind. apply rbind_ext. by intros [].
  Qed.
  Lemma rcs_split_left_pre s r : rcs_split_off_left sz (preS s) r = rmap on1 (rcs_split_off_left sz s r).
  Proof.
    unfold rcs_split_off_left. rewrite rcs_clone_left_pre, rbind_rmap, rmap_bind. apply rbind_ext. intros [s1 l]. cbn [TraceHom.on1 fst snd].
    rewrite rcs_clone_right_pre, rbind_rmap, rmap_bind. apply rbind_ext. intros [s2 rt]. cbn [TraceHom.on1 fst snd]. rewrite rcs_drop_pre, rbind_rmap, rmap_bind. by apply rbind_ext.
  Qed.
  Lemma rcs_split_right_pre s r : rcs_split_off_right sz (preS s) r = rmap on1 (rcs_split_off_right sz s r).
  Proof.
    unfold rcs_split_off_right. rewrite rcs_clone_left_pre, rbind_rmap, rmap_bind. apply rbind_ext. intros [s1 l]. cbn [TraceHom.on1 fst snd].
    rewrite rcs_clone_right_pre, rbind_rmap, rmap_bind. apply rbind_ext. intros [s2 rt]. cbn [TraceHom.on1 fst snd]. rewrite rcs_drop_pre, rbind_rmap, rmap_bind. by apply rbind_ext.
  Qed.
  Lemma rcs_get_mut_pre s r : rcs_get_mut (preS s) r = rcs_get_mut s r. Proof. done. Qed.
  Lemma rcs_into_mut_pre s r : rcs_into_mut sz (preS s) r = rmap on1 (rcs_into_mut sz s r).
  Proof.
    unfold rcs_into_mut. cbn [preS fst snd]. change (dw_datas (pre t (fst s))) with (dw_datas (fst s)). destruct (_ =? _)%nat; [|done].
    rewrite rmap_bind. apply rbind_ext. intros [h [n|]]; rewrite pre_set_datas; [|done].
    rewrite data_into_mut_pre, rbind_rmap, rmap_bind. apply rbind_ext. intros [d [it al]]. cbn [pre1 fst snd]. rewrite rmap_bind. by apply rbind_ext.
  Qed.
  Lemma rcs_downgrade_pre s r : rcs_downgrade (preS s) r = rmap on1 (rcs_downgrade s r).
  Proof.
    unfold rcs_downgrade. cbn [preS fst snd]. change (dw_datas (pre t (fst s))) with (dw_datas (fst s)). rewrite rmap_bind. apply rbind_ext. intros _.
    rewrite rmap_bind. apply rbind_ext. intros i. rewrite rmap_bind. by apply rbind_ext.
  Qed.
  Lemma weak_new_pre s : weak_new (preS s) = on1 (weak_new s). Proof. done. Qed.
  Lemma weak_upgrade_pre s d g : weak_upgrade (preS s) d g = rmap on1 (weak_upgrade s d g).
  Proof.
    unfold weak_upgrade. cbn [preS fst snd]. change (dw_datas (pre t (fst s))) with (dw_datas (fst s)). destruct (rc_upgrade _ _) as [h [x|]]; [|done].
    rewrite rmap_bind. apply rbind_ext. by intros [].
  Qed.
  Lemma weak_clone_pre s g : weak_clone (preS s) g = rmap preS (weak_clone s g).
  Proof. unfold weak_clone. cbn [preS fst snd]. rewrite rmap_bind. by apply rbind_ext. Qed.
  Lemma weak_drop_pre s g : weak_drop (preS s) g = rmap preS (weak_drop s g).
  Proof. unfold weak_drop. cbn [preS fst snd]. rewrite rmap_bind. by apply rbind_ext. Qed.
  Lemma parts_next_pre s it : parts_next sz growf dbg (preS s) it = rmap on2 (parts_next sz growf dbg s it).
  Proof. apply bpi_next_on. apply rcs_split_left_pre. Qed.
  Lemma parts_next_back_pre s it : parts_next_back sz growf dbg (preS s) it = rmap on2 (parts_next_back sz growf dbg s it).
  Proof. apply bpi_next_back_on. apply rcs_split_right_pre. Qed.
  Lemma rcs_drop_all_pre l : forall s, rcs_drop_all sz (preS s) l = rmap preS (rcs_drop_all sz s l).
  Proof. induction l as [|r l IH]; intros s; [done|]. cbn [rcs_drop_all]. rewrite rcs_drop_pre, rbind_rmap, rmap_bind. apply rbind_ext. apply IH. Qed.
  Lemma rcs_slice_pre s r : rcs_slice (preS s) r = rcs_slice s r. Proof. done. Qed.
  Lemma rcs_slices_pre l s : rcs_slices (preS s) l = rcs_slices s l.
  Proof. induction l as [|r l IH]; [done|]. cbn [rcs_slices]. by rewrite IH. Qed.
  Lemma parts_as_slice_pre s it : parts_as_slice sz (preS s) it = parts_as_slice sz s it.
  Proof. unfold parts_as_slice. by rewrite rcs_slices_pre. Qed.
  Lemma mut_from_boxed_pre s base vals : mut_from_boxed_slice sz (preS s) base vals = on1 (mut_from_boxed_slice sz s base vals).
  Proof.
    unfold mut_from_boxed_slice, preS. cbn [fst snd]. rewrite new_block_pre. destruct (new_block (fst s) base vals) as [[d p] l]. rewrite split_alloc_pre.
    by destruct (split_alloc_from_items sz d p l) as [[d' it] al].
  Qed.
  Lemma mut_into_immut_pre s m : mut_into_immut (preS s) m = rmap on1 (mut_into_immut s m).
  Proof. unfold mut_into_immut. apply (rcs_from_unique_pre (fst (data_new (fst s) (si_ptr (ms_items m)) (si_len (ms_items m)) (ms_alloc m)), snd s)). Qed.
  Lemma mut_clone_pre s m base : mut_clone sz vclone (preS s) m base = rmap on1 (mut_clone sz vclone s m base).
  Proof. unfold mut_clone. cbn [preS fst]. rewrite mem_read_pre, rmap_bind. apply rbind_ext. intros vs. change (pre t (fst s), snd s) with (preS s). by rewrite mut_from_boxed_pre. Qed.
  Lemma handle_drop_pre s x : handle_drop sz (preS s) x = rmap preS (handle_drop sz s x).
  Proof.
    destruct x; cbn [handle_drop].
    - apply rcs_drop_pre.
    - apply weak_drop_pre.
    - apply rcs_drop_all_pre.
    - cbn [preS fst snd]. rewrite mut_drop_pre, rbind_rmap, rmap_bind. by apply rbind_ext.
    - cbn [preS fst snd]. rewrite iter_drop_pre, rbind_rmap, rmap_bind. by apply rbind_ext.
    - cbn [preS fst snd]. rewrite mparts_drop_pre, rbind_rmap, rmap_bind. by apply rbind_ext.
  Qed.

  Definition preW (w : world V) : world V := W (pre t (w_d w)) (w_g w) (w_h w).
  Definition preO (x : world V * out V) : world V * out V := (preW (fst x), snd x).
  Lemma ret_pre s hs o : ret (preS s) hs o = rmap preO (ret s hs o). Proof. done. Qed.
  Lemma ret_new_pre s hs x : ret_new (V:=V) (preS s) hs x = rmap preO (ret_new s hs x). Proof. done. Qed.
  Lemma ret_slice_pre s hs p l : ret_slice sz (preS s) hs p l = rmap preO (ret_slice sz s hs p l).
  Proof. unfold ret_slice. cbn [preS fst]. rewrite mem_read_pre, rmap_bind. by apply rbind_ext. Qed.
  Lemma ret_replace_pre s hs p l i v : ret_replace sz (preS s) hs p l i v = rmap preO (ret_replace sz s hs p l i v).
  Proof. unfold ret_replace. cbn [preS fst snd]. destruct (_ <? _)%N; [|done]. rewrite mem_replace_pre, rbind_rmap, rmap_bind. apply rbind_ext. by intros []. Qed.

  Lemma step_pre w o : step sz vclone capf growf dbg (preW w) o = rmap preO (step sz vclone capf growf dbg w o).
  Proof.
    unfold step. change (w_d (preW w), w_g (preW w)) with (preS (w_d w, w_g w)). change (w_h (preW w)) with (w_h w).
    set (s := (w_d w, w_g w)). destruct o; try change (get_h (preW w) h) with (get_h w h).
    - destruct (_ <? _)%N; [|done]. rewrite rcs_from_boxed_pre, rbind_rmap, rmap_bind. apply rbind_ext. by intros [].
    - destruct (_ <? _)%N; [|done]. rewrite mut_from_boxed_pre. by destruct (mut_from_boxed_slice sz s base vals).
    - rewrite weak_new_pre. by destruct (weak_new s) as [? []].
    - destruct (get_h w h) as [[r|d g|it|m|m|m]|]; try done.
      + rewrite rcs_clone_pre, rbind_rmap, rmap_bind. apply rbind_ext. by intros [].
      + rewrite weak_clone_pre, rbind_rmap, rmap_bind. by apply rbind_ext.
      + rewrite (bpi_clone_on preS) by apply rcs_clone_pre. rewrite rbind_rmap, rmap_bind. apply rbind_ext. by intros [].
    - destruct (get_h w h) as [[r|d g|it|m|m|m]|]; try done. rewrite mut_clone_pre, rbind_rmap, rmap_bind. apply rbind_ext. by intros [].
    - destruct (get_h w h) as [[r|d g|it|m|m|m]|]; try done. destruct side.
      + rewrite rcs_clone_right_pre, rbind_rmap, rmap_bind. apply rbind_ext. by intros [].
      + rewrite rcs_clone_left_pre, rbind_rmap, rmap_bind. apply rbind_ext. by intros [].
    - destruct (get_h w h) as [[r|d g|it|m|m|m]|]; try done.
      + destruct side.
        * rewrite rcs_split_right_pre, rbind_rmap, rmap_bind. apply rbind_ext. by intros [? []].
        * rewrite rcs_split_left_pre, rbind_rmap, rmap_bind. apply rbind_ext. by intros [? []].
      + cbn [preS fst snd]. rewrite mut_split_off_pre, rbind_rmap, rmap_bind. apply rbind_ext. by intros [? []].
    - destruct (negb _); [done|]. destruct (get_h w h) as [[r|d g|it|m|m|m]|]; try done.
      + destruct (bpi_new capf growf r n); try done. rewrite rcs_drop_pre, rbind_rmap, rmap_bind. by apply rbind_ext.
      + destruct (mut_split_into_parts m n); try done. cbn [preS fst snd]. rewrite mut_drop_pre, rbind_rmap, rmap_bind. by apply rbind_ext.
    - destruct (get_h w h) as [[r|d g|it|m|m|m]|]; try done. rewrite rcs_get_mut_pre, rmap_bind. apply rbind_ext. intros [[p l]|]; [|done]. apply ret_slice_pre.
    - destruct (get_h w h) as [[r|d g|it|m|m|m]|]; try done. rewrite rcs_get_mut_pre, rmap_bind. apply rbind_ext. intros [[p l]|]; [|done]. apply ret_replace_pre.
    - destruct (get_h w h) as [[r|d g|it|m|m|m]|]; try done. rewrite rcs_into_mut_pre, rbind_rmap, rmap_bind. apply rbind_ext. by intros [s1 [m|r1]].
    - destruct (get_h w h) as [[r|d g|it|m|m|m]|]; try done. rewrite mut_into_immut_pre, rbind_rmap, rmap_bind. apply rbind_ext. by intros [].
    - destruct (get_h w h) as [[r|d g|it|m|m|m]|]; try done. rewrite rcs_downgrade_pre, rbind_rmap, rmap_bind. apply rbind_ext. by intros [? []].
    - destruct (get_h w h) as [[r|d g|it|m|m|m]|]; try done. rewrite weak_upgrade_pre, rbind_rmap, rmap_bind. apply rbind_ext. by intros [s1 [r1|]].
    - destruct (get_h w h) as [x|]; [|done]. rewrite handle_drop_pre, rbind_rmap, rmap_bind. by apply rbind_ext.
    - destruct (get_h w h) as [[r|d g|it|m|m|m]|]; try done.
      + rewrite rcs_slice_pre, rmap_bind. apply rbind_ext. intros [p l]. apply ret_slice_pre.
      + rewrite parts_as_slice_pre, rmap_bind. apply rbind_ext. intros [p l]. apply ret_slice_pre.
      + apply ret_slice_pre.
      + rewrite rmap_bind. apply rbind_ext. intros [p l]. apply ret_slice_pre.
      + rewrite rmap_bind. apply rbind_ext. intros [p l]. apply ret_slice_pre.
    - destruct (get_h w h) as [[r|d g|it|m|m|m]|]; try done.
      + apply ret_replace_pre.
      + rewrite rmap_bind. apply rbind_ext. intros [p l]. apply ret_replace_pre.
      + rewrite rmap_bind. apply rbind_ext. intros [p l]. apply ret_replace_pre.
    - by destruct (get_h w h) as [[r|d g|it|m|m|m]|].
    - destruct (get_h w h) as [[r|d g|it|m|m|m]|]; try done.
      + assert ((if back then parts_next_back sz growf dbg (preS s) it else parts_next sz growf dbg (preS s) it) =
          rmap on2 (if back then parts_next_back sz growf dbg s it else parts_next sz growf dbg s it)) as ->
          by (destruct back; [apply parts_next_back_pre|apply parts_next_pre]).
        rewrite rbind_rmap, rmap_bind. apply rbind_ext. by intros [[s1 it1] [x|]].
      + cbn [preS fst snd]. rewrite iter_next_pre, rbind_rmap, rmap_bind. apply rbind_ext. by intros [[d1 m1] [x|]].
      + cbn [preS fst snd]. rewrite mparts_next_pre, rbind_rmap, rmap_bind. apply rbind_ext. by intros [[d1 m1] [x|]].
    - destruct (get_h w h) as [[r|d g|it|m|m|m]|]; try done. cbn [preS fst snd]. rewrite iter_split_off_pre.
      by destruct (iter_split_off sz to (fst s) m i) as [[d [m1 m2]]| | |].
    - destruct (get_h w h) as [[r|d g|it|m|m|m]|]; try done; (rewrite rmap_bind; by apply rbind_ext).
  Qed.
End rc.

Section arc.
  Context {V : Type} (sz : N) (vclone : V -> V) (capf growf : N -> N) (dbg : bool) (t : list (event V)).
  Notation dg := (dworld V * gdworld)%type.
  Implicit Types s : dg.
  Definition preA s : dg := (pre t (fst s), snd s).
  Notation on1 := (on1 preA).
  Notation on2 := (on2 preA).

  Lemma adata_clone_left_pre s d : adata_clone_left (preA s) d = rmap on1 (adata_clone_left s d).
  Proof.
    unfold adata_clone_left. cbn [preA fst snd]. change (dw_datas (pre t (fst s))) with (dw_datas (fst s)). rewrite rmap_bind. apply rbind_ext. intros n.
    destruct (_ =? _)%N; [rewrite rmap_bind; by apply rbind_ext|]. rewrite data_clone_left_pre, rbind_rmap, rmap_bind. apply rbind_ext. by intros [].
  Qed.
  Lemma adata_clone_right_pre s d : adata_clone_right sz (preA s) d = rmap on1 (adata_clone_right sz s d).
  Proof.
    unfold adata_clone_right. cbn [preA fst snd]. change (dw_datas (pre t (fst s))) with (dw_datas (fst s)). rewrite rmap_bind. apply rbind_ext. intros n.
    destruct (_ <=? _)%N; [rewrite rmap_bind; by apply rbind_ext|]. rewrite data_clone_right_pre, rbind_rmap, rmap_bind. apply rbind_ext. by intros [].
  Qed.
  Lemma guard_of_pre fuel : forall s d, guard_of sz fuel (preA s) d = rmap on1 (guard_of sz fuel s d).
  Proof.
    induction fuel as [|fuel IH]; intros s d; [done|]. cbn [guard_of]. cbn [preA fst snd]. change (dw_datas (pre t (fst s))) with (dw_datas (fst s)).
    rewrite rmap_bind. apply rbind_ext. intros _. destruct (gd_metas (snd s) !! d) as [m|]; [|done].
    destruct (gd_boxes (snd s) !! am_box m) as [[wk|]|]; [|done|done]. destruct (rc_upgrade (gd_guards (snd s)) wk) as [gs [g|]]; [done|].
    destruct (rc_upgrade (dw_datas (fst s)) (am_parent m)) as [h [p|]].
    - rewrite rmap_bind. rewrite pre_set_datas. change (pre t (dw_set_datas (fst s) h), snd s) with (preA (dw_set_datas (fst s) h, snd s)).
      rewrite IH. destruct (guard_of sz fuel (dw_set_datas (fst s) h, snd s) p) as [[s1 pg]| | |]; cbn [rmap mbind res_bind TraceHom.on1 fst snd]; try done.
      unfold rmap. cbn [mbind res_bind TraceHom.on1 fst snd preA]. rewrite data_drop_pre. unfold rmap. destruct (data_drop sz (fst s1) p) as [d'| | |]; cbn [mbind res_bind]; try done.
      cbn [snd]. destruct (gd_new_guard _ _ _ _) as [[? ?]| | |]; done.
    - cbn [mbind res_bind snd fst]. rewrite rmap_bind. apply rbind_ext. by intros [].
  Qed.
  Lemma arc_from_data_pre s d : arc_from_data sz (preA s) d = rmap on1 (arc_from_data sz s d).
  Proof. unfold arc_from_data, guard_for. change (length (dw_datas (fst (preA s)))) with (length (dw_datas (fst s))). rewrite guard_of_pre, rbind_rmap, rmap_bind. apply rbind_ext. by intros []. Qed.
  Lemma arc_from_boxed_pre s base vals : arc_from_boxed_slice sz (preA s) base vals = rmap on1 (arc_from_boxed_slice sz s base vals).
  Proof.
    unfold arc_from_boxed_slice, preA. cbn [fst snd]. rewrite new_block_pre. destruct (new_block (fst s) base vals) as [[d p] l]. rewrite data_from_boxed_pre.
    unfold pre1. destruct (data_from_boxed_slice d p l) as [d' n]. apply (arc_from_data_pre (d', gd_new_data (snd s) None)).
  Qed.
  Lemma arc_clone_pre s r : arc_clone (preA s) r = rmap on1 (arc_clone s r).
  Proof. unfold arc_clone. cbn [preA fst snd]. change (dw_datas (pre t (fst s))) with (dw_datas (fst s)). rewrite rmap_bind. apply rbind_ext. intros h. rewrite rmap_bind. by apply rbind_ext. Qed.
  Lemma arc_drop_pre s r : arc_drop sz (preA s) r = rmap preA (arc_drop sz s r).
  Proof. unfold arc_drop. cbn [preA fst snd]. rewrite data_drop_pre, rbind_rmap, rmap_bind. apply rbind_ext. intros d. rewrite rmap_bind. by apply rbind_ext. Qed.
  Lemma arc_clone_left_pre s r : arc_clone_left sz (preA s) r = rmap on1 (arc_clone_left sz s r).
  Proof.
    unfold arc_clone_left. change (snd (preA s)) with (snd s). rewrite rmap_bind. apply rbind_ext. intros _. rewrite adata_clone_left_pre, rbind_rmap, rmap_bind.
    apply rbind_ext. intros [s1 c]. apply arc_from_data_pre.
  Qed.
  Lemma arc_clone_right_pre s r : arc_clone_right sz (preA s) r = rmap on1 (arc_clone_right sz s r).
  Proof.
    unfold arc_clone_right. change (snd (preA s)) with (snd s). rewrite rmap_bind. apply rbind_ext. intros _. rewrite adata_clone_right_pre, rbind_rmap, rmap_bind.
    apply rbind_ext. intros [s1 c]. apply arc_from_data_pre.
  Qed.
  Lemma arc_split_left_pre s r : arc_split_off_left sz (preA s) r = rmap on1 (arc_split_off_left sz s r).
  Proof.
    unfold arc_split_off_left. rewrite arc_clone_left_pre, rbind_rmap, rmap_bind. apply rbind_ext. intros [s1 l]. cbn [TraceHom.on1 fst snd].
    rewrite arc_clone_right_pre, rbind_rmap, rmap_bind. apply rbind_ext. intros [s2 rt]. cbn [TraceHom.on1 fst snd]. rewrite arc_drop_pre, rbind_rmap, rmap_bind. by apply rbind_ext.
  Qed.
  Lemma arc_split_right_pre s r : arc_split_off_right sz (preA s) r = rmap on1 (arc_split_off_right sz s r).
  Proof.
    unfold arc_split_off_right. rewrite arc_clone_left_pre, rbind_rmap, rmap_bind. apply rbind_ext. intros [s1 l]. cbn [TraceHom.on1 fst snd].
    rewrite arc_clone_right_pre, rbind_rmap, rmap_bind. apply rbind_ext. intros [s2 rt]. cbn [TraceHom.on1 fst snd]. rewrite arc_drop_pre, rbind_rmap, rmap_bind. by apply rbind_ext.
  Qed.
  Lemma arc_get_mut_pre s r : arc_get_mut (preA s) r = rmap on1 (arc_get_mut s r).
  Proof.
    unfold arc_get_mut. cbn [preA fst snd]. change (dw_datas (pre t (fst s))) with (dw_datas (fst s)). rewrite rmap_bind. apply rbind_ext. intros [w ok]. destruct (negb ok); [done|].
    rewrite rmap_bind. apply rbind_ext. intros [w1 o]. rewrite rmap_bind. by apply rbind_ext.
  Qed.
  Lemma arc_into_mut_pre s r : arc_into_mut sz (preA s) r = rmap on1 (arc_into_mut sz s r).
  Proof.
    unfold arc_into_mut. cbn [preA fst snd]. change (dw_datas (pre t (fst s))) with (dw_datas (fst s)). rewrite rmap_bind. apply rbind_ext. intros [w ok]. destruct (negb ok); [done|].
    destruct (_ =? _)%nat; [|rewrite rmap_bind; by apply rbind_ext].
    rewrite rmap_bind. apply rbind_ext. intros [h [n|]]; rewrite pre_set_datas; [|rewrite rmap_bind; by apply rbind_ext].
    rewrite data_into_mut_pre, rbind_rmap, rmap_bind. apply rbind_ext. intros [d [it al]]. cbn [pre1 fst snd]. rewrite rmap_bind. apply rbind_ext. intros w1. rewrite rmap_bind. by apply rbind_ext.
  Qed.
  Lemma arc_downgrade_pre s r : arc_downgrade (preA s) r = rmap on1 (arc_downgrade s r).
  Proof.
    unfold arc_downgrade. cbn [preA fst snd]. change (dw_datas (pre t (fst s))) with (dw_datas (fst s)). rewrite rmap_bind. apply rbind_ext. intros _.
    rewrite rmap_bind. apply rbind_ext. intros i. rewrite rmap_bind. by apply rbind_ext.
  Qed.
  Lemma aweak_upgrade_pre s d : aweak_upgrade sz (preA s) d = rmap on1 (aweak_upgrade sz s d).
  Proof.
    unfold aweak_upgrade. cbn [preA fst snd]. change (dw_datas (pre t (fst s))) with (dw_datas (fst s)). destruct (rc_upgrade _ _) as [h [x|]]; [|done].
    rewrite pre_set_datas. change (pre t (dw_set_datas (fst s) h), snd s) with (preA (dw_set_datas (fst s) h, snd s)). rewrite arc_from_data_pre, rbind_rmap, rmap_bind. apply rbind_ext. by intros [].
  Qed.
  Lemma aweak_clone_pre s g : aweak_clone (preA s) g = rmap preA (aweak_clone s g).
  Proof. unfold aweak_clone. cbn [preA fst snd]. rewrite rmap_bind. by apply rbind_ext. Qed.
  Lemma aweak_drop_pre s g : aweak_drop (preA s) g = rmap preA (aweak_drop s g).
  Proof. unfold aweak_drop. cbn [preA fst snd]. rewrite rmap_bind. by apply rbind_ext. Qed.
  Lemma arc_drop_all_pre l : forall s, arc_drop_all sz (preA s) l = rmap preA (arc_drop_all sz s l).
  Proof. induction l as [|r l IH]; intros s; [done|]. cbn [arc_drop_all]. rewrite arc_drop_pre, rbind_rmap, rmap_bind. apply rbind_ext. apply IH. Qed.
  Lemma arc_slices_pre l s : arc_slices (preA s) l = arc_slices s l.
  Proof. induction l as [|r l IH]; [done|]. cbn [arc_slices]. by rewrite IH. Qed.
  Lemma arc_parts_as_slice_pre s it : arc_parts_as_slice sz (preA s) it = arc_parts_as_slice sz s it.
  Proof. unfold arc_parts_as_slice. by rewrite arc_slices_pre. Qed.
  Lemma arc_mut_from_boxed_pre s base vals : arc_mut_from_boxed_slice sz (preA s) base vals = on1 (arc_mut_from_boxed_slice sz s base vals).
  Proof.
    unfold arc_mut_from_boxed_slice, preA. cbn [fst snd]. rewrite new_block_pre. destruct (new_block (fst s) base vals) as [[d p] l]. rewrite split_alloc_pre.
    by destruct (split_alloc_from_items sz d p l) as [[d' it] al].
  Qed.
  Lemma arc_mut_into_immut_pre s m : arc_mut_into_immut sz (preA s) m = rmap on1 (arc_mut_into_immut sz s m).
  Proof. unfold arc_mut_into_immut. apply (arc_from_data_pre (fst (data_new (fst s) (si_ptr (ms_items m)) (si_len (ms_items m)) (ms_alloc m)), gd_new_data (snd s) None)). Qed.
  Lemma arc_mut_clone_pre s m base : arc_mut_clone sz vclone (preA s) m base = rmap on1 (arc_mut_clone sz vclone s m base).
  Proof. unfold arc_mut_clone. cbn [preA fst]. rewrite mem_read_pre, rmap_bind. apply rbind_ext. intros vs. change (pre t (fst s), snd s) with (preA s). by rewrite arc_mut_from_boxed_pre. Qed.
  Lemma xhandle_drop_pre s x : xhandle_drop sz (preA s) x = rmap preA (xhandle_drop sz s x).
  Proof.
    destruct x; cbn [xhandle_drop].
    - apply arc_drop_pre.
    - apply aweak_drop_pre.
    - apply arc_drop_all_pre.
    - cbn [preA fst snd]. rewrite mut_drop_pre, rbind_rmap, rmap_bind. by apply rbind_ext.
    - cbn [preA fst snd]. rewrite iter_drop_pre, rbind_rmap, rmap_bind. by apply rbind_ext.
    - cbn [preA fst snd]. rewrite mparts_drop_pre, rbind_rmap, rmap_bind. by apply rbind_ext.
  Qed.

  Definition preX (w : aworld V) : aworld V := AW (pre t (aw_d w)) (aw_g w) (aw_h w).
  Definition preXO (x : aworld V * out V) : aworld V * out V := (preX (fst x), snd x).
  Lemma xret_slice_pre s hs p l : xret_slice sz (preA s) hs p l = rmap preXO (xret_slice sz s hs p l).
  Proof. unfold xret_slice. cbn [preA fst]. rewrite mem_read_pre, rmap_bind. by apply rbind_ext. Qed.
  Lemma xret_replace_pre s hs p l i v : xret_replace sz (preA s) hs p l i v = rmap preXO (xret_replace sz s hs p l i v).
  Proof. unfold xret_replace. cbn [preA fst snd]. destruct (_ <? _)%N; [|done]. rewrite mem_replace_pre, rbind_rmap, rmap_bind. apply rbind_ext. by intros []. Qed.

  Lemma astep_pre w o : astep sz vclone capf growf dbg (preX w) o = rmap preXO (astep sz vclone capf growf dbg w o).
  Proof.
    unfold astep. change (aw_d (preX w), aw_g (preX w)) with (preA (aw_d w, aw_g w)). change (aw_h (preX w)) with (aw_h w).
    set (s := (aw_d w, aw_g w)). destruct o; try change (xget (preX w) h) with (xget w h).
    - destruct (_ <? _)%N; [|done]. rewrite arc_from_boxed_pre, rbind_rmap, rmap_bind. apply rbind_ext. by intros [].
    - destruct (_ <? _)%N; [|done]. rewrite arc_mut_from_boxed_pre. by destruct (arc_mut_from_boxed_slice sz s base vals).
    - done.
    - destruct (xget w h) as [[r|d g|it|m|m|m]|]; try done.
      + rewrite arc_clone_pre, rbind_rmap, rmap_bind. apply rbind_ext. by intros [].
      + rewrite aweak_clone_pre, rbind_rmap, rmap_bind. by apply rbind_ext.
      + rewrite (bpi_clone_on preA) by apply arc_clone_pre. rewrite rbind_rmap, rmap_bind. apply rbind_ext. by intros [].
    - destruct (xget w h) as [[r|d g|it|m|m|m]|]; try done. rewrite arc_mut_clone_pre, rbind_rmap, rmap_bind. apply rbind_ext. by intros [].
    - destruct (xget w h) as [[r|d g|it|m|m|m]|]; try done. destruct side.
      + rewrite arc_clone_right_pre, rbind_rmap, rmap_bind. apply rbind_ext. by intros [].
      + rewrite arc_clone_left_pre, rbind_rmap, rmap_bind. apply rbind_ext. by intros [].
    - destruct (xget w h) as [[r|d g|it|m|m|m]|]; try done.
      + destruct side.
        * rewrite arc_split_right_pre, rbind_rmap, rmap_bind. apply rbind_ext. by intros [? []].
        * rewrite arc_split_left_pre, rbind_rmap, rmap_bind. apply rbind_ext. by intros [? []].
      + cbn [preA fst snd]. rewrite mut_split_off_pre, rbind_rmap, rmap_bind. apply rbind_ext. by intros [? []].
    - destruct (negb _); [done|]. destruct (xget w h) as [[r|d g|it|m|m|m]|]; try done.
      + destruct (bpi_new capf growf r n); try done. rewrite arc_drop_pre, rbind_rmap, rmap_bind. by apply rbind_ext.
      + destruct (mut_split_into_parts m n); try done. cbn [preA fst snd]. rewrite mut_drop_pre, rbind_rmap, rmap_bind. by apply rbind_ext.
    - destruct (xget w h) as [[r|d g|it|m|m|m]|]; try done. rewrite arc_get_mut_pre, rbind_rmap, rmap_bind. apply rbind_ext. intros [s1 [[p l]|]]; [|done]. apply xret_slice_pre.
    - destruct (xget w h) as [[r|d g|it|m|m|m]|]; try done. rewrite arc_get_mut_pre, rbind_rmap, rmap_bind. apply rbind_ext. intros [s1 [[p l]|]]; [|done]. apply xret_replace_pre.
    - destruct (xget w h) as [[r|d g|it|m|m|m]|]; try done. rewrite arc_into_mut_pre, rbind_rmap, rmap_bind. apply rbind_ext. by intros [s1 [m|r1]].
    - destruct (xget w h) as [[r|d g|it|m|m|m]|]; try done. rewrite arc_mut_into_immut_pre, rbind_rmap, rmap_bind. apply rbind_ext. by intros [].
    - destruct (xget w h) as [[r|d g|it|m|m|m]|]; try done. rewrite arc_downgrade_pre, rbind_rmap, rmap_bind. apply rbind_ext. by intros [? []].
    - destruct (xget w h) as [[r|d g|it|m|m|m]|]; try done. rewrite aweak_upgrade_pre, rbind_rmap, rmap_bind. apply rbind_ext. by intros [s1 [r1|]].
    - destruct (xget w h) as [x|]; [|done]. rewrite xhandle_drop_pre, rbind_rmap, rmap_bind. by apply rbind_ext.
    - destruct (xget w h) as [[r|d g|it|m|m|m]|]; try done.
      + change (arc_slice (preA s) r) with (arc_slice s r). rewrite rmap_bind. apply rbind_ext. intros [p l]. apply xret_slice_pre.
      + rewrite arc_parts_as_slice_pre, rmap_bind. apply rbind_ext. intros [p l]. apply xret_slice_pre.
      + apply xret_slice_pre.
      + rewrite rmap_bind. apply rbind_ext. intros [p l]. apply xret_slice_pre.
      + rewrite rmap_bind. apply rbind_ext. intros [p l]. apply xret_slice_pre.
    - destruct (xget w h) as [[r|d g|it|m|m|m]|]; try done.
      + apply xret_replace_pre.
      + rewrite rmap_bind. apply rbind_ext. intros [p l]. apply xret_replace_pre.
      + rewrite rmap_bind. apply rbind_ext. intros [p l]. apply xret_replace_pre.
    - by destruct (xget w h) as [[r|d g|it|m|m|m]|].
    - destruct (xget w h) as [[r|d g|it|m|m|m]|]; try done.
      + assert ((if back then arc_parts_next_back sz growf dbg (preA s) it else arc_parts_next sz growf dbg (preA s) it) =
          rmap on2 (if back then arc_parts_next_back sz growf dbg s it else arc_parts_next sz growf dbg s it)) as ->
          by (destruct back; [apply bpi_next_back_on, arc_split_right_pre|apply bpi_next_on, arc_split_left_pre]).
        rewrite rbind_rmap, rmap_bind. apply rbind_ext. by intros [[s1 it1] [x|]].
      + cbn [preA fst snd]. rewrite iter_next_pre, rbind_rmap, rmap_bind. apply rbind_ext. by intros [[d1 m1] [x|]].
      + cbn [preA fst snd]. rewrite mparts_next_pre, rbind_rmap, rmap_bind. apply rbind_ext. by intros [[d1 m1] [x|]].
    - destruct (xget w h) as [[r|d g|it|m|m|m]|]; try done. cbn [preA fst snd]. rewrite iter_split_off_pre.
      by destruct (iter_split_off sz to (fst s) m i) as [[d [m1 m2]]| | |].
    - destruct (xget w h) as [[r|d g|it|m|m|m]|]; try done; (rewrite rmap_bind; by apply rbind_ext).
  Qed.
End arc.
