(** Vocabulary in which the properties of the thread-safe API used by one
    thread are stated, as Observe.v for the single-threaded one. Definitions
    only. *)
From Verif Require Import Base Api SliceItemsModel BinPartsModel DataModel RcModel Spec Observe ArcModel ArcSpec.

(** What each variable holds. *)
Definition is_arc {V} (w : aworld V) (h : nat) : Prop := exists r, xget w h = Some (XArc r).
Definition is_aweak {V} (w : aworld V) (h : nat) : Prop := exists d g, xget w h = Some (XWeak d g).
Definition is_aunique {V} (w : aworld V) (h : nat) : Prop :=
  match xget w h with Some (XMut _) | Some (XIter _) | Some (XMParts _) => True | _ => False end.
(** No variable holds anything. *)
Definition no_handles {V} (w : aworld V) : Prop := forall h, xget w h = None.

(** Items whose destructor the library has run, oldest first: cells, values. *)
Definition xdropped_cells {V} (w : aworld V) : list (nat * N) :=
  omap (fun e => match e with EDrop b i _ => Some (b, i) | EFree _ _ _ => None end) (dw_trace (aw_d w)).
Definition xdropped {V} (w : aworld V) : list V :=
  omap (fun e => match e with EDrop _ _ v => Some v | EFree _ _ _ => None end) (dw_trace (aw_d w)).
(** Buffers that have been deallocated. *)
Definition xfreed {V} (w : aworld V) : list nat :=
  omap (fun e => match e with EDrop _ _ _ => None | EFree b _ _ => Some b end) (dw_trace (aw_d w)).
(** The item stored in a cell (buffer, index); [None] if it was dropped or moved out. *)
Definition xitem {V} (w : aworld V) (c : nat * N) : option V := dw_mem (aw_d w) !! c.
(** The items that are in some buffer. *)
Definition xcontents {V} (w : aworld V) : list V := snd <$> map_to_list (dw_mem (aw_d w)).

(** Calls to [get_mut]. *)
Definition get_muts {V} (o : op V) : Prop :=
  match o with OGetMut _ | OGetMutReplace _ _ _ => True | _ => False end.

(** Heap boxes holding a [Weak<DataGuard>] that have been allocated, and those
    of them that have been released. *)
Definition boxes_made {V} (w : aworld V) : nat := length (gd_boxes (aw_g w)).
Definition boxes_freed {V} (w : aworld V) : nat :=
  length (filter (fun o : option (option nat) => o = None) (gd_boxes (aw_g w))).

Section arc_observe.
  Context {V : Type} (c : cfg V).

  Definition xstep : aworld V -> op V -> res (aworld V * out V) :=
    astep (c_sz c) (c_clone c) (c_capf c) (c_growf c) false.
  Definition xrun : aworld V -> list (op V) -> res (aworld V * list (out V)) :=
    arun (c_sz c) (c_clone c) (c_capf c) (c_growf c) false.
  (** [w] is the state after the calls [ops], starting from nothing. *)
  Definition xreach (ops : list (op V)) (w : aworld V) : Prop :=
    exists outs, xrun empty_aworld ops = Ok (w, outs).
  (** The history's sharing trees, and which weak slices are linked (ArcSpec.v). *)
  Definition xhist (ops : list (op V)) : astate V * list nat :=
    fst (arc_spec_run (c_sz c) (c_clone c) (empty_astate, []) ops).
  Definition xnode (ops : list (op V)) (h : nat) : option ahandle := a_get (fst (xhist ops)) h.

  (** Pointer and length of the slice a strong variable dereferences to. *)
  Definition x_slice (w : aworld V) (h : nat) : option (ptr * N) :=
    let s := (aw_d w, aw_g w) in
    match xget w h with
    | Some (XArc r) => res_opt (arc_slice s r)
    | Some (XParts it) => res_opt (arc_parts_as_slice (c_sz c) s it)
    | Some (XMut m) => Some (si_ptr (ms_items m), si_len (ms_items m))
    | Some (XIter m) => res_opt (sit_as_slice (c_sz c) (mi_iter m))
    | Some (XMParts m) => res_opt (sip_as_slice (c_sz c) (mp_iter m))
    | Some (XWeak _ _) | None => None
    end.
  (** The cells a variable covers, in order. *)
  Definition x_cells (w : aworld V) (h : nat) : list (nat * N) :=
    match x_slice w h with
    | Some (p, len) => rng_cells (Rng (p_blk p) (p_idx p) len)
    | None => []
    end.
  (** What dereferencing a variable shows: address and items. *)
  Definition xview (w : aworld V) (h : nat) : option (option N * list V) :=
    match xstep w (ODeref h) with
    | Ok (_, RSlice a l) => Some (a, l)
    | _ => None
    end.

  (** The items a call moves into buffers of the library, given the state before
      and what the call returned. *)
  Definition xput (w : aworld V) (o : op V) (r : out V) : list V :=
    match o, r with
    | OFromVec _ vals, RHandle _ | OMutFromVec _ vals, RHandle _ => vals
    | OMutClone h _, RHandle _ => match xview w h with Some (_, l) => c_clone c <$> l | None => [] end
    | OReplace _ _ v, RVal _ | OGetMutReplace _ _ v, RVal _ => [v]
    | _, _ => []
    end.
  (** The same for a sequence of calls. *)
  Fixpoint xput_run (w : aworld V) (ops : list (op V)) : list V :=
    match ops with
    | [] => []
    | o :: ops => match xstep w o with
                  | Ok (w', r) => xput w o r ++ xput_run w' ops
                  | _ => []
                  end
    end.
End arc_observe.
#[global] Arguments xstep : simpl never.
#[global] Arguments xrun : simpl never.
