(** DrapeModel.v: a grid draped to a surface, and local depth adjustment.  Models parts of
    resqpy/derived_model/_drape_to_surface.py and _local_depth_adjustment.py. *)
From Coq Require Import Reals.
From Verif Require Import Base QBase IntersectModel PillarModel PointsModel.
Open Scope Z_scope.

(** ** Draping *)
(* _drape_to_surface.py:206-220: the primary of an extra line is looked up in the split pillar indices *)
Definition shift_by_translation_vectors (g : geo) (translate : Z -> vec) : Z -> Z -> vec :=
  let jip1 := (nj g + 1) * (ni g + 1) in
  if g_has_split (gg g) then
    fun r p => if p <? jip1 then vadd (g_pts g r p) (translate p)
               else vadd (g_pts g r p) (translate (nth (Z.to_nat (p - jip1)) (g_spi (gg g)) 0))
  else fun r p => vadd (g_pts g r p) (translate p).
(* _drape_to_surface.py:95-175 with the surface in the crs of the grid.  picks gives, for each pillar number, the last
   intersection of the line through the ends of the healed pillar with the surface, or None (see C84 for intersections).
   The check of edge directions at the end is left out. *)
Definition drape_to_surface (g : geo) (picks : Z -> option vec) (ref_k0 : Z) (base : bool) : res geo :=
  do _ <- assert_ ((0 <=? ref_k0) && (ref_k0 <? g_nk g));
  do _ <- assert_ (match g_pdef g with None => true | _ => false end);
  do _ <- assert_ (match g_cdef g with None => true | _ => false end);
  do u <- unsplit_points_ref g;
  let ref := if base then ref_k0 + 1 else ref_k0 in
  do _ <- assert_ (forallb (fun p => match picks p with Some _ => true | None => false end) (zrange ((nj g + 1) * (ni g + 1))));
  let translate p := match picks p with
                     | Some x => vsub x (u ref (p / (ni g + 1)) (p mod (ni g + 1)))
                     | None => V 0 0 0
                     end in
  Ok (Geo (gg g) (g_nk g) (g_gap_after g) (shift_by_translation_vectors g translate) (g_pdef g) (g_cdef g)).

(** ** Local depth adjustment, over the reals for its square root *)
Open Scope R_scope.
Record rpt := P { px : R; py : R; pz : R }.
Inductive shape := Linear | Quadratic | Other.
Definition rmin (a b : R) : R := if Rle_dec a b then a else b.
(* _local_depth_adjustment.py:194-207 *)
Definition decayed_shift (centre_shift distance radius : R) (s : shape) : res R :=
  if Req_EM_T radius 0 then Err ZeroDivisionError
  else
    let norm_dist := rmin (distance / radius) 1 in
    match s with
    | Linear => Ok ((1 - norm_dist) * centre_shift)
    | Quadratic => if Rle_dec (1 / 2) norm_dist then let x := 1 - norm_dist in Ok (2 * x * x * centre_shift)
                   else Ok (centre_shift * (1 - 2 * norm_dist * norm_dist))
    | Other => Err ValueError
    end.
(* _local_depth_adjustment.py:123-144: the loop over the lines; a line is the list of its points from the top down.  The
   number of lines adjusted is returned too. *)
Fixpoint adjust_lines (ref : nat) (cx cy radius centre_shift : R) (s : shape) (lines : list (list rpt)) : res (list (list rpt) * nat) :=
  match lines with
  | [] => Ok ([], 0%nat)
  | line :: rest =>
      match nth_error line ref with
      | None => Err IndexError
      | Some p =>
          let dx := cx - px p in let dy := cy - py p in
          let distance_sqr := dx * dx + dy * dy in
          if Rlt_dec (radius * radius) distance_sqr then
            do r <- adjust_lines ref cx cy radius centre_shift s rest; Ok (line :: fst r, snd r)
          else
            do shift <- decayed_shift centre_shift (sqrt distance_sqr) radius s;
            do r <- adjust_lines ref cx cy radius centre_shift s rest;
            Ok (map (fun q => P (px q) (py q) (pz q + shift)) line :: fst r, S (snd r))
      end
  end.
(* _local_depth_adjustment.py:84-151: None where the function returns nothing.  The crs has a rotation, offsets and a direction
   of z; undefined points are left out. *)
Definition local_depth_adjustment (lines : list (list rpt)) (cx cy radius centre_shift : R) (use_local : bool)
    (rotation x_offset y_offset : R) (z_inc_down : bool) (s : shape) (ref : nat) : res (option (list (list rpt))) :=
  if negb use_local && (if Rlt_dec (1 / 1000) rotation then true else false) then Ok None
  else
    let '(cx, cy) := if use_local then (cx, cy) else (cx - x_offset, cy - y_offset) in
    let centre_shift := if z_inc_down then centre_shift else - centre_shift in
    do r <- adjust_lines ref cx cy radius centre_shift s lines;
    match snd r with O => Ok None | _ => Ok (Some (fst r)) end.
