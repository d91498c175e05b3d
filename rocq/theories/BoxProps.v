(** BoxProps.v: property theorems about box_utilities (C01-C06). *)
From Verif Require Import Base BoxModel BoxProofs.

Definition ex_box : box := Box (T 1 2 3) (T 4 2 7).

(** C01 *)
Theorem C01_volume_counts_cells : forall b cs,
  NonEmptyBox b -> NoDup cs -> (forall c, In c cs <-> cell_in_box c b = true) ->
  volume_of_box b = Z.of_nat (List.length cs).
Proof. exact volume_counts_cells. Qed.
Print Assumptions C01_volume_counts_cells.

Theorem C01_cells_enumerable : forall b,
  exists cs, NoDup cs /\ (forall c, In c cs <-> cell_in_box c b = true).
Proof. exact some_enumeration. Qed.
Print Assumptions C01_cells_enumerable.

Theorem C01_volume_is_extent_product : forall b,
  volume_of_box b = tk (extent_of_box b) * tj (extent_of_box b) * ti (extent_of_box b).
Proof. exact volume_is_extent_product. Qed.
Print Assumptions C01_volume_is_extent_product.

Theorem C01_central_cell_inside : forall b, NonEmptyBox b -> cell_in_box (central_cell b) b = true.
Proof. exact central_cell_inside. Qed.
Print Assumptions C01_central_cell_inside.

Theorem C01_cell_in_box_meaning : forall c b, cell_in_box c b = true <-> InBox c b.
Proof. exact cell_in_box_spec. Qed.
Print Assumptions C01_cell_in_box_meaning.

Theorem C01_valid_box_meaning : forall b h,
  valid_box b h = true <->
  NonEmptyBox b /\ (forall d, 0 <= get (lo b) d) /\ (forall d, get (hi b) d < get h d).
Proof. exact valid_box_spec. Qed.
Print Assumptions C01_valid_box_meaning.

Example C01_example : NonEmptyBox ex_box /\ volume_of_box ex_box = 20 /\ valid_box ex_box (T 5 3 8) = true.
Proof. split; [intros [ | | ]; cbn; lia | split; reflexivity]. Qed.

(** C02 *)
Theorem C02_local_then_parent : forall b p base l,
  local_box_cell_from_parent_cell b p base = Some l ->
  InBox p b /\ parent_cell_from_local_box_cell b l base = p /\
  (forall d, base <= get l d < base + get (extent_of_box b) d).
Proof. exact local_parent. Qed.
Print Assumptions C02_local_then_parent.

Theorem C02_none_iff_outside : forall b p base,
  local_box_cell_from_parent_cell b p base = None <-> ~ InBox p b.
Proof. exact local_none. Qed.
Print Assumptions C02_none_iff_outside.

Theorem C02_parent_then_local : forall b l base,
  (forall d, base <= get l d < base + get (extent_of_box b) d) ->
  InBox (parent_cell_from_local_box_cell b l base) b /\
  local_box_cell_from_parent_cell b (parent_cell_from_local_box_cell b l base) base = Some l.
Proof. exact parent_local. Qed.
Print Assumptions C02_parent_then_local.

Example C02_example :
  local_box_cell_from_parent_cell ex_box (T 2 2 5) 1 = Some (T 2 1 3) /\
  local_box_cell_from_parent_cell ex_box (T 2 3 5) 1 = None /\
  (forall d, 1 <= get (T 2 1 3) d < 1 + get (extent_of_box ex_box) d).
Proof. split; [reflexivity|split; [reflexivity|intros [ | | ]; cbn; lia]]. Qed.

(** C03 *)
Theorem C03_overlap_iff_common_cell : forall a b, NonEmptyBox a -> NonEmptyBox b ->
  (boxes_overlap a b = true <-> exists c, InBox c a /\ InBox c b).
Proof. exact overlap_iff_common. Qed.
Print Assumptions C03_overlap_iff_common_cell.

Theorem C03_overlap_symmetric : forall a b, boxes_overlap a b = boxes_overlap b a.
Proof. exact overlap_sym. Qed.
Print Assumptions C03_overlap_symmetric.

Example C03_example : boxes_overlap ex_box (Box (T 0 2 7) (T 1 9 9)) = true
  /\ boxes_overlap ex_box (Box (T 0 2 8) (T 1 9 9)) = false
  /\ NonEmptyBox (Box (T 0 2 7) (T 1 9 9)).
Proof. split; [reflexivity|split; [reflexivity|intros [ | | ]; cbn; lia]]. Qed.

(** C04 *)
Theorem C04_union_contains_both : forall a b u, union a b = Some u ->
  (forall x, a = Some x -> SubBox x u) /\ (forall x, b = Some x -> SubBox x u).
Proof. exact union_upper. Qed.
Print Assumptions C04_union_contains_both.

Theorem C04_union_is_least : forall a b u w,
  union a b = Some u ->
  (forall x, a = Some x -> NonEmptyBox x) -> (forall x, b = Some x -> NonEmptyBox x) ->
  (forall x, a = Some x -> SubBox x w) -> (forall x, b = Some x -> SubBox x w) ->
  SubBox u w.
Proof. exact union_least. Qed.
Print Assumptions C04_union_is_least.

Theorem C04_union_none : forall a b, union a b = None <-> a = None /\ b = None.
Proof. exact union_none. Qed.
Print Assumptions C04_union_none.

Theorem C04_union_commutative : forall a b, union a b = union b a.
Proof. exact union_comm. Qed.
Print Assumptions C04_union_commutative.

Theorem C04_union_associative : forall a b c, union a (union b c) = union (union a b) c.
Proof. exact union_assoc. Qed.
Print Assumptions C04_union_associative.

Theorem C04_union_idempotent : forall a, union a a = a.
Proof. exact union_idem. Qed.
Print Assumptions C04_union_idempotent.

Example C04_example :
  union (Some ex_box) (Some (Box (T 0 5 5) (T 2 6 9))) = Some (Box (T 0 2 3) (T 4 6 9)).
Proof. reflexivity. Qed.

(** C05 *)
Theorem C05_trim_to_mask : forall b m,
  (forall d, get (mext m) d = get (extent_of_box b) d) ->
  (exists c, MaskedCell b m c) ->
  exists b' m', trim_box_to_mask b m = Ok (b', m') /\
    SubBox b' b /\
    (forall d, get (mext m') d = get (extent_of_box b') d) /\
    (forall c, MaskedCell b' m' c <-> MaskedCell b m c) /\
    (forall d, (exists c, MaskedCell b' m' c /\ get c d = get (lo b') d) /\
               (exists c, MaskedCell b' m' c /\ get c d = get (hi b') d)).
Proof. exact trim_to_mask_correct. Qed.
Print Assumptions C05_trim_to_mask.

Theorem C05_empty_mask_rejected : forall b m,
  (forall d, get (mext m) d = get (extent_of_box b) d) ->
  ~ (exists c, MaskedCell b m c) -> trim_box_to_mask b m = Err AssertionError.
Proof. exact trim_to_mask_empty. Qed.
Print Assumptions C05_empty_mask_rejected.

Definition ex_mask : mask :=
  Mask (extent_of_box ex_box) (fun c => (tk c =? 1) && (ti c =? 2) || (tk c =? 2) && (ti c =? 3)).
Example C05_example :
  (forall d, get (mext ex_mask) d = get (extent_of_box ex_box) d) /\
  MaskedCell ex_box ex_mask (T 2 2 5) /\
  match trim_box_to_mask ex_box ex_mask with
  | Ok (b', m') => b' = Box (T 2 2 5) (T 3 2 6) /\ mext m' = T 2 1 2
  | Err _ => False
  end.
Proof.
  split; [intros d; reflexivity|]. split.
  - split; [intros [ | | ]; cbn; lia | reflexivity].
  - vm_compute. split; reflexivity.
Qed.

(** C06: the documented claim ("if [trim_box] is removed from [new_box] a valid
    box remains, with no overlap with [established_box]") holds exactly when the
    slab chosen reaches one and only one face of the new box. *)
Theorem C06_chosen_slab_is_cheapest : forall e n, NonEmptyBox n -> boxes_overlap e n = true ->
  exists d, overlapping_boxes e n = Ok (true, slab e n d) /\
    forall d', volume_of_box (slab e n d) <= volume_of_box (slab e n d').
Proof. exact overlapping_choice. Qed.
Print Assumptions C06_chosen_slab_is_cheapest.

Theorem C06_no_overlap_zeroes_trim_box : forall e n t, overlapping_boxes e n = Ok (false, t) ->
  boxes_overlap e n = false /\ t = Box (T 0 0 0) (T 0 0 0).
Proof. exact overlapping_false. Qed.
Print Assumptions C06_no_overlap_zeroes_trim_box.

Theorem C06_trimming_removes_overlap_partial : forall e n d m,
  NonEmptyBox n -> NonEmptyBox e -> boxes_overlap e n = true ->
  (forall d, get (mext m) d = get (extent_of_box n) d) ->
  (TouchesOneFace e n d ->
     exists n' m', trim_box_by_box n (slab e n d) m = Ok (n', m') /\ TrimmedCorrectly e n (slab e n d) n' m m') /\
  (~ TouchesOneFace e n d -> trim_box_by_box n (slab e n d) m = Err AssertionError).
Proof. exact trim_slab. Qed.
Print Assumptions C06_trimming_removes_overlap_partial.

(** Finding: with the established box strictly inside the new box along the
    cheapest axis the returned trim box does not lie at a face, and the trimming
    function raises. *)
Theorem C06_trim_box_leaves_valid_box_refuted :
  exists e n t m, NonEmptyBox e /\ NonEmptyBox n /\
    (forall d, get (mext m) d = get (extent_of_box n) d) /\
    overlapping_boxes e n = Ok (true, t) /\ t <> n /\
    trim_box_by_box n t m = Err AssertionError.
Proof.
  exists (Box (T 2 0 0) (T 2 4 4)), (Box (T 0 0 0) (T 4 4 4)), (Box (T 2 0 0) (T 2 4 4)),
    (Mask (T 5 5 5) (fun _ => true)).
  split; [intros [ | | ]; cbn; lia|]. split; [intros [ | | ]; cbn; lia|].
  split; [intros [ | | ]; reflexivity|]. split; [reflexivity|]. split; [discriminate|reflexivity].
Qed.
Print Assumptions C06_trim_box_leaves_valid_box_refuted.

Example C06_example :
  let e := Box (T 0 0 0) (T 1 4 4) in let n := Box (T 1 1 1) (T 3 2 2) in
  NonEmptyBox e /\ NonEmptyBox n /\ boxes_overlap e n = true /\ TouchesOneFace e n K /\
  overlapping_boxes e n = Ok (true, slab e n K).
Proof.
  cbn zeta. split; [intros [ | | ]; cbn; lia|]. split; [intros [ | | ]; cbn; lia|].
  split; [reflexivity|]. split; [left; cbn; lia|reflexivity].
Qed.
