(** ZoneLayerModel.v: the zone of each layer, stored as a property of layers.  Models
    resqpy/derived_model/_add_zone_by_layer_property.py. *)
From Verif Require Import Base QBase PySort IntersectModel PillarModel PointsModel ExtractModel ZoneModel.
Open Scope Z_scope.

(** What the caller gives: a vector of zones (as a list of integers), or a zone for each cell of the grid. *)
Inductive zone_source := ByVector (v : list Z) | ByCell (za : zarray).
(* _add_zone_by_layer_property.py:80-82: the assertion and the assignment to a slice, for each range *)
Fixpoint put_ranges (nk : Z) (rs : list (Z * Z * Z)) (f : Z -> Z) : res (Z -> Z) :=
  match rs with
  | [] => Ok f
  | (a, b, z) :: rs' =>
      do _ <- assert_ ((0 <=? a) && (a <=? b) && (b <? nk));
      put_ranges nk rs' (fun k => if (a <=? k) && (k <? b + 1) then z else f k)
  end.
(* _add_zone_by_layer_property.py:65-86: zone_by_layer.  The property is found (l. 72): the array is that of the
   uuid given (got without a mask, so that cells are all active: the model allows for either).  The storing of the vector is add_one_grid_property_array. *)
Definition zone_by_layer (src : zone_source) (nk null : Z) (dom : bool) : res (list Z) :=
  match src with
  | ByVector v => do _ <- assert_ (Z.of_nat (List.length v) =? nk); Ok v
  | ByCell za =>
      do r <- zone_layer_ranges za nk 0 None dom;
      do _ <- assert_ (match fst r with [] => false | _ => true end);
      do f <- put_ranges nk (fst r) (fun _ => null);
      Ok (map f (zrange nk))
  end.
