(** PointsModel.v: the corner points, centres, horizons and cross sections of a corner point
    grid.  Models resqpy/grid/_points_functions.py, with the pillars of PillarModel.v. *)
From Verif Require Import Base QBase IntersectModel PillarModel.
Open Scope Z_scope.

(** What these functions read from a grid.  [g_pts r p] is the point in row r of the points data
    on pillar p; without split pillars the array has shape (rows, nj + 1, ni + 1, 3) and element
    [r, pj, pi] is [g_pts r (pj * (ni + 1) + pi)] (C order).  [g_gap_after] is k_gap_after_array,
    None without k gaps; [g_pdef] is array_pillar_geometry_is_defined, None when all pillars are
    defined; [g_cdef] likewise for cells.  Reading from hdf5, masking of nan and the caches of
    derived arrays are left out; indices beyond the arrays are not checked. *)
Record geo := Geo {
  gg : sgrid; g_nk : Z; g_gap_after : option (list bool);
  g_pts : Z -> Z -> vec; g_pdef : option (Z -> Z -> bool); g_cdef : option (Z -> Z -> Z -> bool) }.
Definition nj (g : geo) := g_nj (gg g).
Definition ni (g : geo) := g_ni (gg g).
Definition pts4 (g : geo) (r pj pi : Z) : vec := g_pts g r (pj * (ni g + 1) + pi).

(* grid/_grid.py:329-338, extract_k_gaps in grid/_extract_functions.py:404-426 *)
Fixpoint raw_loop (n : nat) (k gap_count : Z) (gaps : list bool) : list Z :=
  match n with
  | O => []
  | S n' => (k + gap_count) ::
      (let gap := match n', gaps with S _, true :: _ => true | _, _ => false end in
       raw_loop n' (k + 1) (if gap then gap_count + 1 else gap_count) (tl gaps))
  end.
Definition k_raw_index_array (g : geo) : list Z :=
  match g_gap_after g with
  | Some gaps => raw_loop (Z.to_nat (g_nk g)) 0 0 gaps
  | None => zrange (g_nk g)
  end.
Definition raw (g : geo) (k : Z) : Z := nth (Z.to_nat k) (k_raw_index_array g) 0.
Definition has_gaps (g : geo) : bool := match g_gap_after g with Some _ => true | None => false end.
(* grid/_grid.py:62-69 *)
Definition nk_plus_k_gaps (g : geo) : Z :=
  match g_gap_after g with Some gaps => g_nk g + Z.of_nat (List.length (filter (fun b => b) gaps)) | None => g_nk g end.

(* _points_functions.py:136-167, points being in memory; index of two numbers *)
Definition point_raw2 (g : geo) (r p : Z) : option vec :=
  match g_pdef g with
  | Some d => let j := p / ni g in let i := p mod ni g in
      if (j <? nj g) && negb (d j i) then None else Some (g_pts g r p)
  | None => Some (g_pts g r p)
  end.
(* the same, index of three numbers *)
Definition point_raw3 (g : geo) (r j i : Z) : option vec :=
  match g_pdef g with
  | Some d => if (j <? nj g) && negb (d j i) then None else Some (pts4 g r j i)
  | None => Some (pts4 g r j i)
  end.
(* _points_functions.py:272-311 *)
Definition point (g : geo) (k j i kp jp ip : Z) : res (option vec) :=
  if match g_cdef g with Some d => negb (d k j i) | None => false end then Ok None else
  let r := raw g k in
  if g_has_split (gg g) then
    do cpm <- create_column_pillar_mapping (gg g);
    Ok (point_raw2 g (r + kp) (cpm j i jp ip))
  else Ok (point_raw3 g (r + kp) (j + jp) (i + ip)).

(** one statement for each corner, in the order of the source *)
Definition eight {A} (v000 v100 v010 v110 v001 v101 v011 v111 : A) (kp jp ip : Z) : A :=
  if ip =? 0 then (if jp =? 0 then (if kp =? 0 then v000 else v100) else (if kp =? 0 then v010 else v110))
  else (if jp =? 0 then (if kp =? 0 then v001 else v101) else (if kp =? 0 then v011 else v111)).
Definition four {A} (v00 v10 v01 v11 : A) (jp ip : Z) : A :=
  if ip =? 0 then (if jp =? 0 then v00 else v10) else (if jp =? 0 then v01 else v11).

(* _points_functions.py:822-886: element [k, j, i, kp, jp, ip]; points[:-1] at k is row k, points[1:] row k + 1 *)
Definition all_corner_points (g : geo) : res (Z -> Z -> Z -> Z -> Z -> Z -> vec) :=
  if g_has_split (gg g) then
    do cpm <- create_column_pillar_mapping (gg g);
    if has_gaps g then
      Ok (fun k j i => eight
        (g_pts g (raw g k) (cpm j i 0 0)) (g_pts g (raw g k + 1) (cpm j i 0 0))
        (g_pts g (raw g k) (cpm j i 1 0)) (g_pts g (raw g k + 1) (cpm j i 1 0))
        (g_pts g (raw g k) (cpm j i 0 1)) (g_pts g (raw g k + 1) (cpm j i 0 1))
        (g_pts g (raw g k) (cpm j i 1 1)) (g_pts g (raw g k + 1) (cpm j i 1 1)))
    else
      Ok (fun k j i => eight
        (g_pts g k (cpm j i 0 0)) (g_pts g (k + 1) (cpm j i 0 0))
        (g_pts g k (cpm j i 1 0)) (g_pts g (k + 1) (cpm j i 1 0))
        (g_pts g k (cpm j i 0 1)) (g_pts g (k + 1) (cpm j i 0 1))
        (g_pts g k (cpm j i 1 1)) (g_pts g (k + 1) (cpm j i 1 1)))
  else if has_gaps g then
      Ok (fun k j i => eight
        (pts4 g (raw g k) j i) (pts4 g (raw g k + 1) j i)
        (pts4 g (raw g k) (j + 1) i) (pts4 g (raw g k + 1) (j + 1) i)
        (pts4 g (raw g k) j (i + 1)) (pts4 g (raw g k + 1) j (i + 1))
        (pts4 g (raw g k) (j + 1) (i + 1)) (pts4 g (raw g k + 1) (j + 1) (i + 1)))
    else
      Ok (fun k j i => eight
        (pts4 g k j i) (pts4 g (k + 1) j i)
        (pts4 g k (j + 1) i) (pts4 g (k + 1) (j + 1) i)
        (pts4 g k j (i + 1)) (pts4 g (k + 1) j (i + 1))
        (pts4 g k (j + 1) (i + 1)) (pts4 g (k + 1) (j + 1) (i + 1))).
(* _points_functions.py:792-810, 889-895: one cell, nothing cached; None where a point is missing (nan) *)
Definition one_cell_cp (g : geo) (k j i : Z) : res (Z -> Z -> Z -> option vec) :=
  do f000 <- point g k j i 0 0 0; do f001 <- point g k j i 0 0 1;
  do f010 <- point g k j i 0 1 0; do f011 <- point g k j i 0 1 1;
  do f100 <- point g k j i 1 0 0; do f101 <- point g k j i 1 0 1;
  do f110 <- point g k j i 1 1 0; do f111 <- point g k j i 1 1 1;
  Ok (eight f000 f100 f010 f110 f001 f101 f011 f111).
Definition corner_points (g : geo) (k j i : Z) : res (option (Z -> Z -> Z -> option vec)) :=
  if match g_cdef g with Some d => negb (d k j i) | None => false end then Ok None
  else do cp <- one_cell_cp g k j i; Ok (Some cp).

(* _points_functions.py:707-768 *)
Definition z_cellular (g : geo) : res (Z -> Z -> Z -> Z -> Z -> Z -> Q) :=
  if g_has_split (gg g) then
    do cpm <- create_column_pillar_mapping (gg g);
    if has_gaps g then
      Ok (fun k j i => eight
        (vz (g_pts g (raw g k) (cpm j i 0 0))) (vz (g_pts g (raw g k + 1) (cpm j i 0 0)))
        (vz (g_pts g (raw g k) (cpm j i 1 0))) (vz (g_pts g (raw g k + 1) (cpm j i 1 0)))
        (vz (g_pts g (raw g k) (cpm j i 0 1))) (vz (g_pts g (raw g k + 1) (cpm j i 0 1)))
        (vz (g_pts g (raw g k) (cpm j i 1 1))) (vz (g_pts g (raw g k + 1) (cpm j i 1 1))))
    else
      Ok (fun k j i => eight
        (vz (g_pts g k (cpm j i 0 0))) (vz (g_pts g (k + 1) (cpm j i 0 0)))
        (vz (g_pts g k (cpm j i 1 0))) (vz (g_pts g (k + 1) (cpm j i 1 0)))
        (vz (g_pts g k (cpm j i 0 1))) (vz (g_pts g (k + 1) (cpm j i 0 1)))
        (vz (g_pts g k (cpm j i 1 1))) (vz (g_pts g (k + 1) (cpm j i 1 1))))
  else if has_gaps g then
      Ok (fun k j i => eight
        (vz (pts4 g (raw g k) j i)) (vz (pts4 g (raw g k + 1) j i))
        (vz (pts4 g (raw g k) (j + 1) i)) (vz (pts4 g (raw g k + 1) (j + 1) i))
        (vz (pts4 g (raw g k) j (i + 1))) (vz (pts4 g (raw g k + 1) j (i + 1)))
        (vz (pts4 g (raw g k) (j + 1) (i + 1))) (vz (pts4 g (raw g k + 1) (j + 1) (i + 1))))
    else
      Ok (fun k j i => eight
        (vz (pts4 g k j i)) (vz (pts4 g (k + 1) j i))
        (vz (pts4 g k (j + 1) i)) (vz (pts4 g (k + 1) (j + 1) i))
        (vz (pts4 g k j (i + 1))) (vz (pts4 g (k + 1) j (i + 1)))
        (vz (pts4 g k (j + 1) (i + 1))) (vz (pts4 g (k + 1) (j + 1) (i + 1)))).
(** np.transpose(z, axes = (0, 3, 1, 4, 2, 5)): element [a0, a1, a2, a3, a4, a5] of the result is
    element [a0, a2, a4, a1, a3, a5] of z.  _points_functions.py:770-772 *)
Inductive z_order := Cellular | Linear.
Definition z_corner_point_depths (g : geo) (o : z_order) : res (Z -> Z -> Z -> Z -> Z -> Z -> Q) :=
  do z <- z_cellular g;
  match o with Cellular => Ok z | Linear => Ok (fun a0 a1 a2 a3 a4 a5 => z a0 a2 a4 a1 a3 a5) end.

Definition vsum8 (a b c d e f h i : vec) : vec :=
  vscale (1 # 8) (vadd (vadd (vadd (vadd (vadd (vadd (vadd a b) c) d) e) f) h) i).
(* _points_functions.py:936-985, no corner points cached *)
Definition all_centre_points (g : geo) : res (Z -> Z -> Z -> vec) :=
  if g_has_split (gg g) then
    do cpm <- create_column_pillar_mapping (gg g);
    if has_gaps g then
      Ok (fun k j i => vsum8
        (g_pts g (raw g k) (cpm j i 0 0)) (g_pts g (raw g k + 1) (cpm j i 0 0))
        (g_pts g (raw g k) (cpm j i 1 0)) (g_pts g (raw g k + 1) (cpm j i 1 0))
        (g_pts g (raw g k) (cpm j i 0 1)) (g_pts g (raw g k + 1) (cpm j i 0 1))
        (g_pts g (raw g k) (cpm j i 1 1)) (g_pts g (raw g k + 1) (cpm j i 1 1)))
    else
      Ok (fun k j i => vsum8
        (g_pts g k (cpm j i 0 0)) (g_pts g (k + 1) (cpm j i 0 0))
        (g_pts g k (cpm j i 1 0)) (g_pts g (k + 1) (cpm j i 1 0))
        (g_pts g k (cpm j i 0 1)) (g_pts g (k + 1) (cpm j i 0 1))
        (g_pts g k (cpm j i 1 1)) (g_pts g (k + 1) (cpm j i 1 1)))
  else if has_gaps g then
      Ok (fun k j i => vsum8
        (pts4 g (raw g k) j i) (pts4 g (raw g k) j (i + 1))
        (pts4 g (raw g k) (j + 1) i) (pts4 g (raw g k) (j + 1) (i + 1))
        (pts4 g (raw g k + 1) j i) (pts4 g (raw g k + 1) j (i + 1))
        (pts4 g (raw g k + 1) (j + 1) i) (pts4 g (raw g k + 1) (j + 1) (i + 1)))
    else
      Ok (fun k j i => vsum8
        (pts4 g k j i) (pts4 g k j (i + 1))
        (pts4 g k (j + 1) i) (pts4 g k (j + 1) (i + 1))
        (pts4 g (k + 1) j i) (pts4 g (k + 1) j (i + 1))
        (pts4 g (k + 1) (j + 1) i) (pts4 g (k + 1) (j + 1) (i + 1))).
(* _points_functions.py:986-992: the mean of the eight corners, or of none; nan if a corner is missing *)
Definition centre_point (g : geo) (k j i : Z) : res (option (option vec)) :=
  do o <- corner_points g k j i;
  match o with
  | None => Ok None
  | Some cp => match cp 0 0 0, cp 0 0 1, cp 0 1 0, cp 0 1 1, cp 1 0 0, cp 1 0 1, cp 1 1 0, cp 1 1 1 with
      | Some a, Some b, Some c, Some d, Some e, Some f, Some h, Some l => Ok (Some (Some (vsum8 a b c d e f h l)))
      | _, _, _, _, _, _, _, _ => Ok (Some None)
      end
  end.

(** ** Horizons *)
(* _points_functions.py:450-452, 486-488 *)
Definition horizon_row (g : geo) (ref_k0 kp : Z) : Z := (if has_gaps g then raw g ref_k0 else ref_k0) + kp.
(* _points_functions.py:465-508: element [j, i, jp, ip] *)
Definition split_horizon_points (g : geo) (ref_k0 kp : Z) : res (Z -> Z -> Z -> Z -> vec) :=
  let r := horizon_row g ref_k0 kp in
  if g_has_split (gg g) then
    do cpm <- create_column_pillar_mapping (gg g);
    Ok (fun j i => four (g_pts g r (cpm j i 0 0)) (g_pts g r (cpm j i 1 0)) (g_pts g r (cpm j i 0 1)) (g_pts g r (cpm j i 1 1)))
  else Ok (fun j i => four (pts4 g r j i) (pts4 g r (j + 1) i) (pts4 g r j (i + 1)) (pts4 g r (j + 1) (i + 1))).
(* _points_functions.py:1251-1296: element [h, j, i, jp, ip] *)
Definition split_horizons_points (g : geo) (min_k0 max_k0 : option Z) : res (Z -> Z -> Z -> Z -> Z -> vec) :=
  do lo <- match min_k0 with None => Ok 0 | Some m => do _ <- assert_ ((0 <=? m) && (m <=? nk_plus_k_gaps g)); Ok m end;
  do hi <- match max_k0 with None => Ok (nk_plus_k_gaps g) | Some m => do _ <- assert_ ((lo <=? m) && (m <=? nk_plus_k_gaps g)); Ok m end;
  if g_has_split (gg g) then
    do cpm <- create_column_pillar_mapping (gg g);
    Ok (fun h j i => let r := lo + h in
      four (g_pts g r (cpm j i 0 0)) (g_pts g r (cpm j i 1 0)) (g_pts g r (cpm j i 0 1)) (g_pts g r (cpm j i 1 1)))
  else Ok (fun h j i => let r := lo + h in
      four (pts4 g r j i) (pts4 g r (j + 1) i) (pts4 g r j (i + 1)) (pts4 g r (j + 1) (i + 1))).
Definition vmean2 (a b : vec) : vec := vscale (1 # 2) (vadd a b).
Definition vmean4 (a b c d : vec) : vec := vscale (1 # 4) (vadd (vadd (vadd a b) c) d).
(* _points_functions.py:357-417: element [r, pj, pi]; the last of the assignments to an element is tried first *)
Definition unsplit_points_ref (g : geo) : res (Z -> Z -> Z -> vec) :=
  if negb (g_has_split (gg g)) then Ok (pts4 g) else
  do cpm <- create_column_pillar_mapping (gg g);
  Ok (fun r pj pi =>
    let p n := g_pts g r n in
    if (pj =? nj g) && (pi =? ni g) then p (cpm (nj g - 1) (ni g - 1) 1 1)
    else if (pj =? nj g) && (pi =? 0) then p (cpm (nj g - 1) 0 1 0)
    else if (pj =? 0) && (pi =? ni g) then p (cpm 0 (ni g - 1) 0 1)
    else if (pj =? 0) && (pi =? 0) then p (cpm 0 0 0 0)
    else if pj =? nj g then vmean2 (p (cpm (nj g - 1) (pi - 1) 1 1)) (p (cpm (nj g - 1) pi 1 0))
    else if pj =? 0 then vmean2 (p (cpm 0 (pi - 1) 0 1)) (p (cpm 0 pi 0 0))
    else if pi =? ni g then vmean2 (p (cpm (pj - 1) (ni g - 1) 1 1)) (p (cpm pj (ni g - 1) 0 1))
    else if pi =? 0 then vmean2 (p (cpm (pj - 1) 0 1 0)) (p (cpm pj 0 0 0))
    else vmean4 (p (cpm (pj - 1) (pi - 1) 1 1)) (p (cpm (pj - 1) pi 1 0)) (p (cpm pj (pi - 1) 0 1)) (p (cpm pj pi 0 0))).
(* _points_functions.py:420-462: element [pj, pi] *)
Definition horizon_points (g : geo) (ref_k0 : Z) (heal : bool) (kp : Z) : res (Z -> Z -> vec) :=
  let r := horizon_row g ref_k0 kp in
  if g_has_split (gg g) then
    if heal then do u <- unsplit_points_ref g; Ok (u r)
    else Ok (fun pj pi => g_pts g r (pj * (ni g + 1) + pi))
  else Ok (pts4 g r).
(* _points_functions.py:692-704 *)
Definition coordinate_line_end_points (g : geo) (pj pi e : Z) : vec :=
  if e =? 0 then g_pts g 0 (pj * (ni g + 1) + pi) else g_pts g (nk_plus_k_gaps g) (pj * (ni g + 1) + pi).

(** ** Cross sections *)
Inductive xaxis := AxisI | AxisJ.
(** column c, side p of the slice *)
Definition sliced (cpm : cpm_t) (a : xaxis) (ref ij_p c p : Z) : Z :=
  match a with AxisI => cpm c ref p ij_p | AxisJ => cpm ref c ij_p p end.
(** With split pillars element [r, c, p] is one point; without them numpy takes the pillar numbers
    for j indices, and each element is a whole row of points. *)
Inductive xsec := Pts (f : Z -> Z -> Z -> vec) | Rows (f : Z -> Z -> Z -> list vec).
(* _points_functions.py:511-541 *)
Definition split_x_section_points (g : geo) (a : xaxis) (ref : Z) (plus_face : bool) : res xsec :=
  do _ <- assert_ (negb (has_gaps g));
  do cpm <- create_column_pillar_mapping (gg g);
  let ij_p := if plus_face then 1 else 0 in
  if g_has_split (gg g) then Ok (Pts (fun r c p => g_pts g r (sliced cpm a ref ij_p c p)))
  else
    let n := match a with AxisI => nj g | AxisJ => ni g end in
    if forallb (fun c => (sliced cpm a ref ij_p c 0 <? nj g + 1) && (sliced cpm a ref ij_p c 1 <? nj g + 1)) (zrange n)
    then Ok (Rows (fun r c p => map (fun pi => pts4 g r (sliced cpm a ref ij_p c p) pi) (zrange (ni g + 1))))
    else Err IndexError.
(* _points_functions.py:544-586: element [k, c, kp, p].  Without split pillars the array of
   (nk_plus_k_gaps + 1) * pillars points does not reshape to nk_plus_k_gaps rows. *)
Definition split_gap_x_section_points (g : geo) (a : xaxis) (ref : Z) (plus_face : bool) : res (Z -> Z -> Z -> Z -> vec) :=
  if negb (g_has_split (gg g)) then Err ValueError else
  do cpm <- create_column_pillar_mapping (gg g);
  let ij_p := if plus_face then 1 else 0 in
  if has_gaps g then
    Ok (fun k c kp p => if kp =? 0 then g_pts g (raw g k) (sliced cpm a ref ij_p c p) else g_pts g (raw g k + 1) (sliced cpm a ref ij_p c p))
  else
    do x <- split_x_section_points g a ref plus_face;
    match x with
    | Pts f => Ok (fun k c kp p => if kp =? 0 then f k c p else f (k + 1) c p)
    | Rows _ => Err ValueError
    end.
(* _points_functions.py:589-621: element [r, c] *)
Definition unsplit_x_section_points (g : geo) (a : xaxis) (ref : Z) (plus_face : bool) : res (Z -> Z -> vec) :=
  do _ <- assert_ (negb (g_has_split (gg g)));
  do _ <- assert_ (negb (has_gaps g));
  let s := if plus_face then ref + 1 else ref in
  Ok (fun r c => match a with AxisI => pts4 g r c s | AxisJ => pts4 g r s c end).
(* _points_functions.py:624-689, not rotated *)
Definition x_section_corner_points (g : geo) (a : xaxis) (ref : Z) (plus_face : bool) : res (Z -> Z -> Z -> Z -> vec) :=
  if has_gaps g then split_gap_x_section_points g a ref plus_face
  else if g_has_split (gg g) then
    do x <- split_x_section_points g a ref plus_face;
    match x with
    | Pts f => Ok (fun k c kp p => if kp =? 0 then f k c p else f (k + 1) c p)
    | Rows _ => Err ValueError
    end
  else
    do f <- unsplit_x_section_points g a ref plus_face;
    Ok (fun k c kp p => four (f k c) (f (k + 1) c) (f k (c + 1)) (f (k + 1) (c + 1)) kp p).

(** ** Interpolation within a cell *)
Definition clamp (q : Q) : Q := Qmaxb (Qminb q 1) 0.
(* _points_functions.py:1057-1084, given the corner points *)
Definition interpolated_point (cp : Z -> Z -> Z -> vec) (f : trip Q) : vec :=
  let fp := map3 clamp f in
  let fm := map3 (fun q => 1 - q)%Q fp in
  let mix a b x y := vadd (vscale x a) (vscale y b) in
  let c00 := mix (cp 0 0 0) (cp 1 0 0) (tk fm) (tk fp) in
  let c01 := mix (cp 0 0 1) (cp 1 0 1) (tk fm) (tk fp) in
  let c10 := mix (cp 0 1 0) (cp 1 1 0) (tk fm) (tk fp) in
  let c11 := mix (cp 0 1 1) (cp 1 1 1) (tk fm) (tk fp) in
  let c0 := mix c00 c10 (tj fm) (tj fp) in
  let c1 := mix c01 c11 (tj fm) (tj fp) in
  mix c0 c1 (ti fm) (ti fp).
(* _points_functions.py:1087-1134: the element for fractions (fk, fj, fi) *)
Definition lattice_point (cp : Z -> Z -> Z -> vec) (fk fj fi : Q) : vec :=
  let mix a b x y := vadd (vscale x a) (vscale y b) in
  let c00 := mix (cp 0 0 0) (cp 0 0 1) (1 - fi)%Q fi in
  let c01 := mix (cp 0 1 0) (cp 0 1 1) (1 - fi)%Q fi in
  let c10 := mix (cp 1 0 0) (cp 1 0 1) (1 - fi)%Q fi in
  let c11 := mix (cp 1 1 0) (cp 1 1 1) (1 - fi)%Q fi in
  let c0 := mix c00 c01 (1 - fj)%Q fj in
  let c1 := mix c10 c11 (1 - fj)%Q fj in
  mix c0 c1 (1 - fk)%Q fk.
Definition interpolated_points (cp : Z -> Z -> Z -> vec) (fks fjs fis : list Q) : list (list (list vec)) :=
  map (fun fk => map (fun fj => map (fun fi => lattice_point cp fk fj fi) fis) fjs) fks.
