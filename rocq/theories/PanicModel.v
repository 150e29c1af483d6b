(** Items whose destructor panics.

    The other model files take it that destructors of items return. Here [bomb]
    says which items have a destructor that panics, and the functions that run
    destructors of items are modelled again with unwinding:
    - while a panic unwinds, Rust still drops what is in scope: the other items of a
      slice being dropped, the other elements of a tuple or deque, the remaining
      fields of a struct whose [Drop::drop] panicked;
    - code after the call that panicked is skipped;
    - a second panic while the first one unwinds aborts the process.
    A panic that leaves the library is caught by the caller, who goes on using the
    other variables; the variable being dropped is gone.

    Other calls run no destructors of items (theorem [C49_only_drops]) and are the
    functions of RcModel.v and ArcModel.v. [T::clone] is still assumed to return. *)
From Verif Require Import Base Api SliceItemsModel BinPartsModel DataModel RcModel ArcModel.

(** How a piece of code that may unwind ends: [Go x u]: in state [x], unwinding iff
    [u]; or the process has been aborted. *)
Inductive unw (A : Type) :=
| Go (a : A) (u : bool)
| Abort.
Arguments Go {_} _ _.
Arguments Abort {_}.

(** The next thing that is dropped, whether or not a panic is unwinding. *)
Definition ubind {A B} (m : res (unw A)) (f : A -> bool -> res (unw B)) : res (unw B) :=
  x ← m; match x with Go a u => f a u | Abort => Ok Abort end.
(** Dropping something that holds no items. *)
Definition plain {A} (u : bool) (m : res A) : res (unw A) := a ← m; Ok (Go a u).

(** Items left behind without running their destructor: where, and what. In Rust
    they just stay in their buffer, which may be deallocated. Here they are moved
    out of [dw_mem], so that a later access to one is [UB]. *)
Notation leaked V := (list ((nat * N) * V)).

Section data.
  Context {V : Type} (sz : N) (bomb : V -> bool).
  Notation dworld := (dworld V).
  Notation pd := (dworld * leaked V)%type.

  (** [ptr::drop_in_place] of a slice: when the destructor of an item panics the
      remaining ones are dropped all the same. *)
  Fixpoint pdrop_in_place (u : bool) (w : dworld) (n : nat) (p : ptr) : res (unw dworld) :=
    match n with
    | O => Ok (Go w u)
    | S n => '(w, v) ← mem_take sz w p;
             let w := dw_log w (EDrop (p_blk p) (p_idx p) v) in
             if bomb v && u then Ok Abort
             else pdrop_in_place (bomb v || u) w n (ptr_add sz p 1)
    end.
  (** The items are left where they are. *)
  Fixpoint leave (s : pd) (n : nat) (p : ptr) : pd :=
    match n with
    | O => s
    | S n =>
        let c := (p_blk p, p_idx p) in
        leave (match dw_mem (fst s) !! c with
               | Some v => (dw_set_mem (fst s) (delete c (dw_mem (fst s))), snd s ++ [(c, v)])
               | None => s
               end) n (ptr_add sz p 1)
    end.

  (** rc_slice.rs:201-213, arc_slice.rs:236-248: the items that belong to no child. *)
  Definition own_sub (n : dnode) : ptr * N :=
    match d_left n, d_right n with
    | None, None => (d_ptr n, d_len n)
    | Some _, None => right_sub sz n
    | None, Some _ => left_sub n
    | Some _, Some _ => (d_ptr n, 0%N)
    end.

  (** Dropping an [Rc<RcSliceData<T>>] / [Arc<ArcSliceData<T>>] (rc_slice.rs:195-219;
      arc_slice.rs:230-254). The tuple [(left, right)] drops both its elements even if
      the first one panics. If one of them panicked, [drop] does not get to
      [drop_in_place] (line 217 / 252), and its items are left behind. The [alloc] field
      is dropped in any case. *)
  Fixpoint pdata_release (u : bool) (fuel : nat) (s : pd) (d : nat) : res (unw pd) :=
    match fuel with
    | O => NoFuel
    | S fuel =>
        '(h, r) ← rc_dec (dw_datas (fst s)) d;
        let s := (dw_set_datas (fst s) h, snd s) in
        match r with
        | None => Ok (Go s u)
        | Some n =>
            ubind (match d_left n with None => Ok (Go s u) | Some c => pdata_release u fuel s c end) (fun s ul =>
            ubind (match d_right n with None => Ok (Go s ul) | Some c => pdata_release ul fuel s c end) (fun s ur =>
            let '(p, len) := own_sub n in
            ubind (if ur && negb u then Ok (Go (leave s (N.to_nat len) p) ur)
                   else ubind (pdrop_in_place ur (fst s) (N.to_nat len) p) (fun w u' => Ok (Go (w, snd s) u')))
            (fun s u' => plain u' (w ← alloc_release sz (fst s) (d_alloc n); Ok (w, snd s)))))
        end
    end.
  Definition pdata_drop (u : bool) (s : pd) (d : nat) : res (unw pd) :=
    pdata_release u (S (length (dw_datas (fst s)))) s d.

  (** Dropping a unique slice, an iterator over it or its parts: slice_items.rs:89-97,
      207-212, 358-362, then the [alloc] field in any case. *)
  Definition pitems_alloc_drop (u : bool) (s : pd) (p : ptr) (len : N) (al : option nat) : res (unw pd) :=
    ubind (pdrop_in_place u (fst s) (N.to_nat len) p) (fun w u => plain u (w ← alloc_release sz w al; Ok (w, snd s))).
  Definition pmut_drop (u : bool) (s : pd) (m : mutslice) : res (unw pd) :=
    pitems_alloc_drop u s (si_ptr (ms_items m)) (si_len (ms_items m)) (ms_alloc m).
  Definition piter_drop (u : bool) (s : pd) (m : mutiter) : res (unw pd) :=
    '(p, len) ← sit_as_slice sz (mi_iter m);
    pitems_alloc_drop u s p len (mi_alloc m).
  Definition pmparts_drop (u : bool) (s : pd) (m : mutparts) : res (unw pd) :=
    '(p, len) ← sip_as_slice sz (mp_iter m);
    pitems_alloc_drop u s p len (mp_alloc m).
End data.

Section rc.
  Context {V : Type} (sz : N) (bomb : V -> bool).
  Context (vclone : V -> V) (capf growf : N -> N) (dbg : bool).
  Notation pd := (dworld V * leaked V)%type.
  Notation pdg := (pd * gworld)%type.

  (** Dropping an [RcSlice]: field [data], then [into_mut_guard] in any case. *)
  Definition prcs_drop (u : bool) (s : pdg) (r : rcslice) : res (unw pdg) :=
    ubind (pdata_drop sz bomb u (fst s) (rs_data r)) (fun d u => plain u (g ← img_drop (snd s) (rs_img r); Ok (d, g))).
  (** Dropping the deque of an [RcSliceParts]: front to back; [VecDeque] drops the
      remaining elements when one panics. *)
  Fixpoint prcs_drop_all (u : bool) (s : pdg) (l : list rcslice) : res (unw pdg) :=
    match l with
    | [] => Ok (Go s u)
    | r :: l => ubind (prcs_drop u s r) (fun s u => prcs_drop_all u s l)
    end.
  (** Dropping any value. *)
  Definition phandle_drop (u : bool) (s : pdg) (x : handle) : res (unw pdg) :=
    match x with
    | HRc r => prcs_drop u s r
    | HWeak _ g => plain u (gw ← gmg_drop (snd s) g; Ok (fst s, gw))
    | HParts it => prcs_drop_all u s (dq_items (bp_deque it))
    | HMut m => ubind (pmut_drop sz bomb u (fst s) m) (fun d u => Ok (Go (d, snd s) u))
    | HIter m => ubind (piter_drop sz bomb u (fst s) m) (fun d u => Ok (Go (d, snd s) u))
    | HMParts m => ubind (pmparts_drop sz bomb u (fst s) m) (fun d u => Ok (Go (d, snd s) u))
    end.

  (** The caller's state, plus what has been left behind. *)
  Definition pworld : Type := world V * leaked V.
  Definition pfinish (hs : list (option handle)) (x : unw pdg) : res (option (pworld * out V)) :=
    match x with
    | Go s u => Ok (Some ((W (fst (fst s)) (snd s) hs, snd (fst s)), if u then RPanic else RUnit))
    | Abort => Ok None
    end.
  (** One call. [None]: the process has been aborted. [split_into_parts] with a part
      count that is no power of two (bin_parts_iter.rs:100-103, slice_items.rs:216-219) drops the
      slice it has consumed while already unwinding. *)
  Definition pstep (pw : pworld) (o : op V) : res (option (pworld * out V)) :=
    let w := fst pw in
    let s := ((w_d w, snd pw), w_g w) in
    let other := ('(w, r) ← step sz vclone capf growf dbg w o; Ok (Some ((w, snd pw), r))) in
    match o with
    | ODrop h =>
        match get_h w h with
        | Some x => x ← phandle_drop false s x; pfinish (<[h := None]> (w_h w)) x
        | None => other
        end
    | OSplitIntoParts h n =>
        if negb (n <? usize_lim)%N then other else
        match get_h w h with
        | Some (HRc r) =>
            match bpi_new capf growf r n with
            | Panic => x ← phandle_drop true s (HRc r); pfinish (<[h := None]> (w_h w)) x
            | _ => other
            end
        | Some (HMut m) =>
            match mut_split_into_parts m n with
            | Panic => x ← phandle_drop true s (HMut m); pfinish (<[h := None]> (w_h w)) x
            | _ => other
            end
        | _ => other
        end
    | _ => other
    end.
  Fixpoint prun (pw : pworld) (ops : list (op V)) : res (option (pworld * list (out V))) :=
    match ops with
    | [] => Ok (Some (pw, []))
    | o :: ops =>
        x ← pstep pw o;
        match x with
        | None => Ok None
        | Some (pw, r) =>
            y ← prun pw ops;
            match y with
            | None => Ok None
            | Some (pw, rs) => Ok (Some (pw, r :: rs))
            end
        end
    end.
End rc.

(** The same for [ArcSlice] used by one thread. *)
Section arc.
  Context {V : Type} (sz : N) (bomb : V -> bool).
  Context (vclone : V -> V) (capf growf : N -> N) (dbg : bool).
  Notation pd := (dworld V * leaked V)%type.
  Notation pdg := (pd * gdworld)%type.

  (** Dropping an [ArcSlice]: field [data], then [data_guard] in any case. *)
  Definition parc_drop (u : bool) (s : pdg) (r : arcslice) : res (unw pdg) :=
    ubind (pdata_drop sz bomb u (fst s) (ar_data r)) (fun d u => plain u (g ← guard_drop (snd s) (ar_guard r); Ok (d, g))).
  (** Dropping the deque of an [ArcSliceParts]. *)
  Fixpoint parc_drop_all (u : bool) (s : pdg) (l : list arcslice) : res (unw pdg) :=
    match l with
    | [] => Ok (Go s u)
    | r :: l => ubind (parc_drop u s r) (fun s u => parc_drop_all u s l)
    end.
  (** Dropping any value. *)
  Definition pxhandle_drop (u : bool) (s : pdg) (x : xhandle) : res (unw pdg) :=
    match x with
    | XArc r => parc_drop u s r
    | XWeak _ g => plain u (gw ← gd_weak_dec (snd s) g; Ok (fst s, gw))
    | XParts it => parc_drop_all u s (dq_items (bp_deque it))
    | XMut m => ubind (pmut_drop sz bomb u (fst s) m) (fun d u => Ok (Go (d, snd s) u))
    | XIter m => ubind (piter_drop sz bomb u (fst s) m) (fun d u => Ok (Go (d, snd s) u))
    | XMParts m => ubind (pmparts_drop sz bomb u (fst s) m) (fun d u => Ok (Go (d, snd s) u))
    end.

  Definition pxworld : Type := aworld V * leaked V.
  Definition pxfinish (hs : list (option xhandle)) (x : unw pdg) : res (option (pxworld * out V)) :=
    match x with
    | Go s u => Ok (Some ((AW (fst (fst s)) (snd s) hs, snd (fst s)), if u then RPanic else RUnit))
    | Abort => Ok None
    end.
  (** One call, as [pstep]. *)
  Definition pxstep (pw : pxworld) (o : op V) : res (option (pxworld * out V)) :=
    let w := fst pw in
    let s := ((aw_d w, snd pw), aw_g w) in
    let other := ('(w, r) ← astep sz vclone capf growf dbg w o; Ok (Some ((w, snd pw), r))) in
    match o with
    | ODrop h =>
        match xget w h with
        | Some x => x ← pxhandle_drop false s x; pxfinish (<[h := None]> (aw_h w)) x
        | None => other
        end
    | OSplitIntoParts h n =>
        if negb (n <? usize_lim)%N then other else
        match xget w h with
        | Some (XArc r) =>
            match bpi_new capf growf r n with
            | Panic => x ← pxhandle_drop true s (XArc r); pxfinish (<[h := None]> (aw_h w)) x
            | _ => other
            end
        | Some (XMut m) =>
            match mut_split_into_parts m n with
            | Panic => x ← pxhandle_drop true s (XMut m); pxfinish (<[h := None]> (aw_h w)) x
            | _ => other
            end
        | _ => other
        end
    | _ => other
    end.
  Fixpoint pxrun (pw : pxworld) (ops : list (op V)) : res (option (pxworld * list (out V))) :=
    match ops with
    | [] => Ok (Some (pw, []))
    | o :: ops =>
        x ← pxstep pw o;
        match x with
        | None => Ok None
        | Some (pw, r) =>
            y ← pxrun pw ops;
            match y with
            | None => Ok None
            | Some (pw, rs) => Ok (Some (pw, r :: rs))
            end
        end
    end.
End arc.
