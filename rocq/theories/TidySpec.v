(** Vocabulary of C44. *)
From Verif Require Import Base Api SliceItemsModel BinPartsModel DataModel RcModel ArcModel Observe ArcObserve.

(** [split_off_right] of a unique slice of one item: the new slice gets the item, [self] stays
    behind empty (rc_slice_mut.rs:84-88, arc_slice_mut.rs likewise). *)
Definition strips {V} (cf : cfg V) (w : world V) (o : op V) : Prop :=
  exists h, o = OSplitOff true h /\ is_mut w h /\ length (h_cells cf w h) = 1%nat.
(** No call of the history does that. *)
Definition no_strip {V} (cf : cfg V) (ops : list (op V)) : Prop :=
  forall ops1 o ops2 w, ops = ops1 ++ o :: ops2 -> reach cf ops1 w -> ~ strips cf w o.

Definition xstrips {V} (cf : cfg V) (w : aworld V) (o : op V) : Prop :=
  exists h m, o = OSplitOff true h /\ xget w h = Some (XMut m) /\ length (x_cells cf w h) = 1%nat.
Definition x_no_strip {V} (cf : cfg V) (ops : list (op V)) : Prop :=
  forall ops1 o ops2 w, ops = ops1 ++ o :: ops2 -> xreach cf ops1 w -> ~ xstrips cf w o.
