(** ZoneModel.v: the layer ranges of zones, and grids of one layer per zone.  Models
    resqpy/derived_model/_zone_layer_ranges_from_array.py and _zonal_grid.py. *)
From Verif Require Import Base QBase PySort IntersectModel PillarModel PointsModel ExtractModel.
Open Scope Z_scope.

(** A zone array: the cells of each layer, None where masked.  Layer numbers given by the caller have been
    checked against the extent of the grid (_zonal_grid.py:61), so no index is out of range. *)
Definition zarray := Z -> list (option Z).
Definition actives (l : list (option Z)) : list Z := flat_map (fun c => match c with Some v => [v] | None => [] end) l.
(* np.unique: sorted, without repeats.  The masked element it may also give for a masked array leads to no range. *)
Definition unique (l : list Z) : list Z := isort Z.leb (nodup Z.eq_dec l).
(* single_zone_mask[k0] is masked where zone_array is; np.any is false or masked if no active cell is of the zone *)
Definition any_zone (z : Z) (l : list (option Z)) : bool := existsb (fun c => match c with Some v => v =? z | None => false end) l.
(* np.all passes over masked cells, and is masked, so false, if there are no others *)
Definition all_zone (z : Z) (l : list (option Z)) : bool :=
  match actives l with [] => false | vs => forallb (Z.eqb z) vs end.
(* _zone_layer_ranges_from_array.py:43-61 *)
Definition one_zone (za : zarray) (lo hi z : Z) : res (option (Z * Z * Z)) :=
  match find (fun k => any_zone z (za k)) (zrange2 lo (hi + 1)) with
  | None => Ok None
  | Some a =>
      match find (fun k => any_zone z (za k)) (rev (zrange2 lo (hi + 1))) with
      | None => Err TypeError
      | Some b =>
          do _ <- assert_ (forallb (fun k => all_zone z (za k)) (zrange2 a (b + 1)));
          Ok (Some (a, b, z))
      end
  end.
(* _zone_layer_ranges_from_array.py:41-61 *)
Fixpoint each_zone (za : zarray) (lo hi : Z) (zs : list Z) : res (list (Z * Z * Z)) :=
  match zs with
  | [] => Ok []
  | z :: zs' =>
      do r <- one_zone za lo hi z;
      do rs <- each_zone za lo hi zs';
      Ok (match r with Some x => x :: rs | None => rs end)
  end.
Definition range_le (p q : Z * Z * Z) : bool :=
  match p, q with (a, b, z), (a', b', z') =>
    (a <? a') || ((a =? a') && ((b <? b') || ((b =? b') && (z <=? z')))) end.
(* _zone_layer_ranges_from_array.py:64-70: an element of a tuple cannot be assigned *)
Fixpoint close_gaps (rs : list (Z * Z * Z)) : res unit :=
  match rs with
  | (_, b, _) :: (((a', _, _) :: _) as rs') =>
      do _ <- assert_ (b <? a');
      do _ <- (if b + 1 <? a' then Err TypeError else Ok tt);
      close_gaps rs'
  | _ => Ok tt
  end.
(* _zone_layer_ranges_from_array.py:74-88, for arrays with no mask *)
Definition dominant_of (l : list (option Z)) : Z :=
  match unique (actives l) with
  | [] => 0
  | u :: us => fst (fold_left (fun dc v => let n := Z.of_nat (count_occ Z.eq_dec (actives l) v) in if snd dc <? n then (v, n) else dc)
                              us (u, Z.of_nat (count_occ Z.eq_dec (actives l) u)))
  end.
Definition dominant_zone (za : zarray) : zarray := fun k =>
  if (List.length (unique (actives (za k))) <=? 1)%nat then za k
  else map (fun _ => Some (dominant_of (za k))) (za k).
(* _zone_layer_ranges_from_array.py:34-71: the ranges, and the array as it is left *)
Definition zone_layer_ranges (za0 : zarray) (nk lo : Z) (hi : option Z) (dom : bool) : res (list (Z * Z * Z) * zarray) :=
  let hi := match hi with Some h => h | None => nk - 1 end in
  let za := if dom then dominant_zone za0 else za0 in
  do _ <- assert_ (existsb (fun k => match actives (za k) with [] => false | _ => true end) (zrange nk));
  do rs <- each_zone za lo hi (unique (flat_map (fun k => actives (za k)) (zrange nk)));
  do _ <- assert_ (match rs with [] => false | _ => true end);
  let rs := isort range_le rs in
  do _ <- close_gaps rs;
  Ok (rs, za).

(** ** The grid *)
(* _zonal_grid.py:335-345 *)
Definition check_k (nk : Z) (k0_min k0_max : option Z) : res (Z * Z) :=
  do a <- match k0_min with None => Ok 0 | Some a => do _ <- assert_ ((0 <=? a) && (a <? nk)); Ok a end;
  do b <- match k0_max with None => Ok (nk - 1) | Some b => do _ <- assert_ ((0 <=? b) && (b <? nk) && (a <=? b)); Ok b end;
  Ok (a, b).
Inductive selection := NoZones | FromArray (za : zarray) (dom : bool) | FromList (rs : list (Z * Z * Z)).
Definition range_of (rs : list (Z * Z * Z)) (z : Z) : Z * Z := fst (nth (Z.to_nat z) rs (0, 0, 0)).
(* _zonal_grid.py:245-265: both modes *)
Definition zonal_inactive (m : option mask) (laissez_faire : bool) (rs : list (Z * Z * Z)) : option mask :=
  match m with
  | None => None
  | Some m => Some (fun z j i => let '(a, b) := range_of rs z in
      if laissez_faire then forallb (fun k => m k j i) (zrange2 a (b + 1)) else existsb (fun k => m k j i) (zrange2 a (b + 1)))
  end.
(* _zonal_grid.py:272-283 *)
Definition zonal_cdef (d : option mask) (rs : list (Z * Z * Z)) : option mask :=
  match d with
  | None => None
  | Some d => Some (fun z j i => let '(a, b) := range_of rs z in d a j i && d b j i)
  end.
(* _zonal_grid.py:299-307 *)
Definition zonal_points (g : geo) (single : bool) (rs : list (Z * Z * Z)) : Z -> Z -> vec := fun r p =>
  if r =? 0 then g_pts g (fst (range_of rs 0)) p
  else let '(a, b) := range_of rs (r - 1) in g_pts g (if single then b + 1 else b) p.
(* _zonal_grid.py:59-115, 202-213, 268-332, for a source that is not regular in single layer mode.  None where
   some cell of the new grid is not defined by the flags: the columns are then scanned, which is not modelled. *)
Definition zonal_grid (src : egrid) (sel : selection) (k0_min k0_max : option Z) (laissez_faire : bool) : res (option egrid) :=
  let g := e_geo src in
  let single := match sel with NoZones => true | FromList [_] => true | _ => false end in
  do ab <- check_k (g_nk g) k0_min k0_max;
  do rs <- (if single then Ok [(fst ab, snd ab, 0)] else
            match sel with
            | FromArray za dom => do r <- zone_layer_ranges za (g_nk g) (fst ab) (Some (snd ab)) dom; Ok (fst r)
            | FromList rs => Ok rs
            | NoZones => Ok []
            end);
  let n := Z.of_nat (List.length rs) in
  do _ <- assert_ (0 <? n);
  let cdef := zonal_cdef (g_cdef g) rs in
  let defined := match cdef with None => true
    | Some d => forallb (fun z => forallb (fun j => forallb (fun i => d z j i) (zrange (ni g))) (zrange (nj g))) (zrange n) end in
  if defined then Ok (Some (EGrid (Geo (gg g) n None (zonal_points g single rs) (g_pdef g) cdef) (zonal_inactive (e_inactive src) laissez_faire rs)))
  else Ok None.
