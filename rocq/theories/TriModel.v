(** TriModel.v: triangles and points in the plane (resqpy/olio/vector_utilities.py).
    Coordinates are exact rationals instead of floats; nan is [None]. *)
From Verif Require Import QBase.

Definition pt2 := (Q * Q)%type.
Definition pt3 := (Q * Q * Q)%type.
Definition tri2 := (pt2 * pt2 * pt2)%type.
Definition tri3 := (pt3 * pt3 * pt3)%type.

(** numpy indexing of the first axis: negative indices count back from the end *)
Definition py_get {A} (l : list A) (i : Z) : res A :=
  let j := (if (i <? 0) then i + Z.of_nat (List.length l) else i)%Z in
  if (j <? 0)%Z then Err IndexError
  else match nth_error l (Z.to_nat j) with Some a => Ok a | None => Err IndexError end.

Fixpoint mapM {A B} (f : A -> res B) (l : list A) : res (list B) :=
  match l with
  | [] => Ok []
  | a :: l => do b <- f a; do bs <- mapM f l; Ok (b :: bs)
  end.

(* element of a point selected by an axis number *)
Definition coord (p : pt3) (a : Z) : Q :=
  let '(x, y, z) := p in if (a =? 0)%Z then x else if (a =? 1)%Z then y else z.

(* vector_utilities.py:1564-1568 _projected_xyz_axes *)
Definition projected_xyz_axes (projection : string) : res (Z * Z) :=
  if String.eqb projection "xy" then Ok (0, 1)%Z
  else if String.eqb projection "xz" then Ok (0, 2)%Z
  else if String.eqb projection "yz" then Ok (1, 2)%Z
  else Err AssertionError.

(* vector_utilities.py:516-520 determinant *)
Definition determinant (a b c : pt3) : Q :=
  coord a 0 * coord b 1 * coord c 2 + coord a 1 * coord b 2 * coord c 0 + coord a 2 * coord b 0 * coord c 1
  - coord a 2 * coord b 1 * coord c 0 - coord a 1 * coord b 0 * coord c 2 - coord a 0 * coord b 2 * coord c 1.

(* vector_utilities.py:529-536 clockwise *)
Definition clockwise (a b c : pt2) : Q :=
  (fst c - fst a) * (snd b - snd a) - (snd c - snd a) * (fst b - fst a).

(* vector_utilities.py:563-570 in_triangle *)
Definition in_triangle (a b c d : pt2) : bool :=
  (clockwise a b d <b 0) && (clockwise b c d <b 0) && (clockwise c a d <b 0).
(* vector_utilities.py:573-580 in_triangle_edged *)
Definition in_triangle_edged (a b c d : pt2) : bool :=
  (clockwise a b d <=b 0) && (clockwise b c d <=b 0) && (clockwise c a d <=b 0).

(* vector_utilities.py:1366-1378 in_circumcircle *)
Definition in_circumcircle (a b c d : pt2) : bool :=
  let row p := (fst p - fst d, snd p - snd d,
                (fst p - fst d) * (fst p - fst d) + (snd p - snd d) * (snd p - snd d)) in
  0 <b determinant (row a) (row b) (row c).

(* vector_utilities.py:557-560 one element of clockwise_triangles; points are rows of
   three coordinates (the code also accepts rows of two with projection 'xy') *)
Definition clockwise_triangle (a0 a1 : Z) (p : list pt3) (t : Z * Z * Z) : res Q :=
  let '(t0, t1, t2) := t in
  do p0 <- py_get p t0;
  do p1 <- py_get p t1;
  do p2 <- py_get p t2;
  Ok ((coord p2 a0 - coord p0 a0) * (coord p1 a1 - coord p0 a1) -
      (coord p2 a1 - coord p0 a1) * (coord p1 a0 - coord p0 a0)).
Definition clockwise_triangles (p : list pt3) (t : list (Z * Z * Z)) (projection : string) : res (list Q) :=
  do (a0, a1) <- projected_xyz_axes projection;
  mapM (clockwise_triangle a0 a1 p) t.

(* vector_utilities.py:604-623 points_in_triangles.  The three little triangles of a
   triangle t, of orientation cw, and a point: lines 612-619.  The dtype and rank
   assertion of line 604 is left out. *)
Definition little_triangles (cw : Q) (t : Z * Z * Z) (d : Z) : list (Z * Z * Z) :=
  let '(t0, t1, t2) := t in
  let pos := 0 <b cw in
  [ (if pos then t1 else t0, if pos then t0 else t1, d);
    (if pos then t2 else t1, if pos then t1 else t2, d);
    (if pos then t0 else t2, if pos then t2 else t0, d) ].
Definition points_in_triangles (p : list pt3) (t : list (Z * Z * Z)) (da : list pt3) (projection : string) (edged : bool)
  : res (list (list bool)) :=
  do cwt <- clockwise_triangles p t projection;
  let d_base := Z.of_nat (List.length p) in
  let pp := p ++ da in
  mapM (fun ct =>
          mapM (fun d =>
                  do cwtd <- clockwise_triangles pp (little_triangles (fst ct) (snd ct) (d + d_base)%Z) projection;
                  Ok (forallb (fun q => if edged then q <=b 0 else q <b 0) cwtd))
               (zrange (Z.of_nat (List.length da))))
       (combine cwt t).

(* vector_utilities.py:626-657 point_in_polygon.  One pass of the loop for the edge
   from p1 to p2: the new values of inside and xints *)
Definition pip_step (x y : Q) (p1 p2 : pt2) (st : bool * Q) : bool * Q :=
  let '(inside, xints) := st in
  let '(p1x, p1y) := p1 in
  let '(p2x, p2y) := p2 in
  if Qminb p1y p2y <b y then
    if y <=b Qmaxb p1y p2y then
      if x <=b Qmaxb p1x p2x then
        let xints' := if Qeq_bool p1y p2y then xints else (y - p1y) * (p2x - p1x) / (p2y - p1y) + p1x in
        if Qeq_bool p1x p2x || (x <=b xints') then (negb inside, xints') else (inside, xints')
      else st
    else st
  else st.
Fixpoint pip_loop (x y : Q) (p1 : pt2) (vs : list pt2) (st : bool * Q) : bool :=
  match vs with
  | [] => fst st
  | p2 :: vs => pip_loop x y p2 vs (pip_step x y p1 p2 st)
  end.
(* the loop visits polygon[0], ..., polygon[n - 1], polygon[0]; an empty polygon is an error *)
Definition point_in_polygon (x y : Q) (polygon : list pt2) : res bool :=
  match polygon with
  | [] => Err IndexError
  | v :: _ => Ok (pip_loop x y v (polygon ++ [v]) (false, 0))
  end.

(* vector_utilities.py:661-728 point_in_triangle; the three edge blocks (692-727) differ
   only in that the first sets inside to True, which is [not inside] there *)
Definition pit_edge (x y : Q) (a b : pt2) (inside : bool) : bool :=
  if Qminb (snd a) (snd b) <b y then
    if y <=b Qmaxb (snd a) (snd b) then
      if x <=b Qmaxb (fst a) (fst b) then
        if Qeq_bool (fst a) (fst b) then negb inside
        else if Qeq_bool (snd a) (snd b) then negb inside
        else if x <=b (y - snd a) * (fst b - fst a) / (snd b - snd a) + fst a then negb inside
        else inside
      else inside
    else inside
  else inside.
Definition point_in_triangle (x y : Q) (t : tri2) : bool :=
  let '(p0, p1, p2) := t in
  if x <b Qminb (Qminb (fst p0) (fst p1)) (fst p2) then false
  else if Qmaxb (Qmaxb (fst p0) (fst p1)) (fst p2) <b x then false
  else if y <b Qminb (Qminb (snd p0) (snd p1)) (snd p2) then false
  else if Qmaxb (Qmaxb (snd p0) (snd p1)) (snd p2) <b y then false
  else pit_edge x y p2 p0 (pit_edge x y p1 p2 (pit_edge x y p0 p1 false)).

Definition row := (Z * Z * Z)%type.
Definition row_kept (r : row) : bool := negb (fst (fst r) =? -1)%Z.
Fixpoint indexed {A} (i : Z) (l : list A) : list (Z * A) :=
  match l with [] => [] | a :: l => (i, a) :: indexed (i + 1)%Z l end.

(* vector_utilities.py:732-766 points_in_polygon, without the output arrays p, j, i; the
   parallel loop writes each row of polygon_points once *)
Definition points_in_polygon (points : list pt2) (polygon : list pt2) (points_xlen polygon_num : Z) : res (list row) :=
  do rows <- mapM (fun kp => do p <- point_in_polygon (fst (snd kp)) (snd (snd kp)) polygon;
                             Ok (if p then (polygon_num, fst kp / points_xlen, fst kp mod points_xlen) else (-1, -1, -1))%Z)
                  (indexed 0 points);
  Ok (filter row_kept rows).
(* vector_utilities.py:769-792 points_in_triangle *)
Definition points_in_triangle (points : list pt2) (t : tri2) (points_xlen triangle_num : Z) : list row :=
  filter row_kept
    (map (fun kp => if point_in_triangle (fst (snd kp)) (snd (snd kp)) t
                    then (triangle_num, fst kp / points_xlen, fst kp mod points_xlen)%Z else (-1, -1, -1)%Z)
         (indexed 0 points)).
(* vector_utilities.py:828-845 points_in_polygons *)
Definition points_in_polygons (points : list pt2) (polygons : list (list pt2)) (points_xlen : Z) : res (list row) :=
  do rs <- mapM (fun kp => points_in_polygon points (snd kp) points_xlen (fst kp)) (indexed 0 polygons);
  Ok (List.concat rs).
(* vector_utilities.py:849-867 points_in_triangles_njit *)
Definition points_in_triangles_njit (points : list pt2) (triangles : list tri2) (points_xlen : Z) : list row :=
  List.concat (map (fun kt => points_in_triangle points (snd kt) points_xlen (fst kt)) (indexed 0 triangles)).

(* vector_utilities.py:796-824 mesh_points_in_triangle *)
Definition mesh_points_in_triangle (t : tri2) (points_xlen points_ylen triangle_num : Z) : list row :=
  flat_map (fun yi =>
    flat_map (fun xi => if point_in_triangle (inject_Z xi) (inject_Z yi) t then [(triangle_num, yi, xi)] else [])
             (zrange points_xlen))
    (zrange points_ylen).

Definition map_tri {A B} (f : A -> B) (t : A * A * A) : B * B * B := let '(a, b, c) := t in (f a, f b, f c).
Definition min3 (a b c : Q) : Q := Qminb (Qminb a b) c.
Definition max3 (a b c : Q) : Q := Qmaxb (Qmaxb a b) c.
(* vector_utilities.py:939-955 triangle_box *)
Definition triangle_box (t : tri2) : Q * Q * Q * Q :=
  let '(a, b, c) := t in
  (min3 (fst a) (fst b) (fst c), max3 (fst a) (fst b) (fst c), min3 (snd a) (snd b) (snd c), max3 (snd a) (snd b) (snd c)).

(* the triangle in units of the mesh spacing, with the first point at the origin:
   vector_utilities.py:914 and 1117-1119, 1167-1169.  The code holds dx and dy as
   float32 at line 910. *)
Definition normalise (dx dy : Q) (t : tri2) : tri2 := map_tri (fun p => (fst p / dx - (1 # 2), snd p / dy - (1 # 2))) t.

(* vector_utilities.py:894-935 points_in_triangles_aligned *)
Definition aligned_one (nx ny : Z) (dx dy : Q) (triangle_num : Z) (t : tri2) : list row :=
  let tp := normalise dx dy t in
  let '(mnx, mxx, mny, mxy) := triangle_box tp in
  let min_tpx := Z.max (Qceiling mnx) 0 in
  let max_tpx := Z.min (Qfloor mxx) (nx - 1) in
  if (max_tpx <? min_tpx)%Z then []
  else
    let min_tpy := Z.max (Qceiling mny) 0 in
    let max_tpy := Z.min (Qfloor mxy) (ny - 1) in
    if (max_tpy <? min_tpy)%Z then []
    else
      let tp' := map_tri (fun p => (fst p - inject_Z min_tpx, snd p - inject_Z min_tpy)) tp in
      map (fun r => let '(t, y, x) := r in (t, y + min_tpy, x + min_tpx)%Z)
          (mesh_points_in_triangle tp' (max_tpx - min_tpx + 1) (max_tpy - min_tpy + 1) triangle_num).
Definition points_in_triangles_aligned (nx ny : Z) (dx dy : Q) (triangles : list tri2) : list row :=
  List.concat (map (fun kt => aligned_one nx ny dx dy (fst kt) (snd kt)) (indexed 0 triangles)).

(* vector_utilities.py:985-1013 vertical_intercept_nan *)
Definition vertical_intercept_nan (x x0 x1 y0 y1 : Q) : option Q :=
  let '(x0, x1, y0, y1) := if x1 <b x0 then (x1, x0, y1, y0) else (x0, x1, y0, y1) in
  if (x0 <=b x) && (x <=b x1) then
    if Qeq_bool x0 x1 then Some y0
    else let m := (y1 - y0) / (x1 - x0) in
         let c := y1 - m * x1 in
         Some (m * x + c)
  else None.
(* vector_utilities.py:1017-1054 vertical_intercept_nan_yz *)
Definition vertical_intercept_nan_yz (x x0 x1 y0 y1 z0 z1 : Q) : option (Q * Q) :=
  let '(x0, x1, y0, y1, z0, z1) := if x1 <b x0 then (x1, x0, y1, y0, z1, z0) else (x0, x1, y0, y1, z0, z1) in
  if (x0 <=b x) && (x <=b x1) then
    if Qeq_bool x0 x1 then Some (y0, z0)
    else let xr := x1 - x0 in
         let m := (y1 - y0) / xr in
         let c := y1 - m * x1 in
         let m' := (z1 - z0) / xr in
         let c' := z1 - m' * x1 in
         Some (m * x + c, m' * x + c')
  else None.

(* np.nanmin, np.nanmax of a list: nan if every element is nan *)
Definition nan2 (f : Q -> Q -> Q) (a b : option Q) : option Q :=
  match a, b with Some a, Some b => Some (f a b) | Some a, None => Some a | None, b => b end.
Definition nanmin (l : list (option Q)) : option Q := fold_left (nan2 Qminb) l None.
Definition nanmax (l : list (option Q)) : option Q := fold_left (nan2 Qmaxb) l None.

(* vector_utilities.py:1122-1134 and 1236-1250: the rows for one normalised triangle.
   math.ceil of a nan raises ValueError. *)
Definition triangle_column (ny triangle_num : Z) (t : tri2) (xi : Z) : res (list row) :=
  let '(a, b, c) := t in
  let x := inject_Z xi in
  let ey := [ vertical_intercept_nan x (fst b) (fst c) (snd b) (snd c);
              vertical_intercept_nan x (fst a) (fst b) (snd a) (snd b);
              vertical_intercept_nan x (fst a) (fst c) (snd a) (snd c) ] in
  match nanmin ey, nanmax ey with
  | Some floor_y, Some ceil_y =>
      Ok (map (fun y => (triangle_num, y, xi)) (zrange2 (Z.max (Qceiling floor_y) 0) (Z.min (Qfloor ceil_y + 1) ny)))
  | _, _ => Err ValueError
  end.
Definition triangle_rows (nx ny triangle_num : Z) (t : tri2) : res (list row) :=
  let '(min_x, max_x, min_y, max_y) := triangle_box t in
  do cols <- mapM (triangle_column ny triangle_num t) (zrange2 (Z.max (Qceiling min_x) 0) (Z.min (Qfloor max_x + 1) nx));
  Ok (List.concat cols).
(* vector_utilities.py:1233-1256 _points_in_triangles_aligned_optimised_batch *)
Definition optimised_batch (nx ny base : Z) (triangles : list tri2) : res (list row) :=
  do rs <- mapM (fun kt => triangle_rows nx ny (fst kt + base)%Z (snd kt)) (indexed 0 triangles);
  Ok (List.concat rs).
(* vector_utilities.py:1100-1141 points_in_triangles_aligned_optimised_serial *)
Definition points_in_triangles_aligned_optimised_serial (nx ny : Z) (dx dy : Q) (triangles : list tri2) : res (list row) :=
  do rs <- mapM (fun kt => triangle_rows nx ny (fst kt) (snd kt)) (indexed 0 (map (normalise dx dy) triangles));
  Ok (List.concat rs).

(** a[i:j] for 0 <= i, j *)
Definition slice {A} (i j : Z) (l : list A) : list A := firstn (Z.to_nat (j - i)) (skipn (Z.to_nat i) l).

(* vector_utilities.py:1163-1180 and 1213-1229: the batches; f gives the result of one
   batch.  The parallel loop writes each element of the list tp once. *)
Definition in_batches {A B} (n_batches : Z) (f : Z -> list A -> res (list B)) (l : list A) : res (list B) :=
  let n := Z.of_nat (List.length l) in
  if (n =? 0)%Z then Ok []
  else
    let nb := Z.min n n_batches in
    if (nb =? 0)%Z then Err ZeroDivisionError
    else
      let batch_size := ((n - 1) / nb + 1)%Z in
      do rs <- mapM (fun batch => f (batch * batch_size)%Z (slice (batch * batch_size) ((batch + 1) * batch_size) l)) (zrange nb);
      Ok (List.concat rs).
(* vector_utilities.py:1143-1180 points_in_triangles_aligned_optimised *)
Definition points_in_triangles_aligned_optimised (nx ny : Z) (dx dy : Q) (triangles : list tri2) (n_batches : Z) : res (list row) :=
  in_batches n_batches (optimised_batch nx ny) (map (normalise dx dy) triangles).

(* vector_utilities.py:1278-1317: the lowest and highest intercepts with their z values *)
Definition unified_ends (e0 e1 e2 : option (Q * Q)) : option ((Q * Q) * (Q * Q)) :=
  let s0 := match e0 with Some e => Some (e, e) | None => None end in
  let s1 := match e1 with
            | None => s0
            | Some e => match s0 with
                        | None => Some (e, e)
                        | Some (lo, hi) => if fst e <b fst lo then Some (e, hi) else Some (lo, e)
                        end
            end in
  match e2 with
  | None => s1
  | Some e => match s1 with
              | None => Some (e, e)
              | Some (lo, hi) => if fst e <b fst lo then Some (e, hi)
                                 else if fst hi <b fst e then Some (lo, e) else Some (lo, hi)
              end
  end.
(* vector_utilities.py:1269-1329 for one triangle and column *)
Definition unified_column (ny ax ay az triangle_num : Z) (t : tri3) (xi : Z) : res (list (row * Q)) :=
  let '(a, b, c) := t in
  let x := inject_Z xi in
  let icept p q := vertical_intercept_nan_yz x (coord p ax) (coord q ax) (coord p ay) (coord q ay) (coord p az) (coord q az) in
  match unified_ends (icept b c) (icept a b) (icept a c) with
  | Some ((floor_y, floor_z), (ceil_y, ceil_z)) =>
      let y_range := ceil_y - floor_y in
      let z_range := ceil_z - floor_z in
      Ok (map (fun y => let yf := inject_Z y - floor_y in
                        let yf := if 0 <b y_range then yf / y_range else yf in
                        ((triangle_num, y, xi), floor_z + yf * z_range))
              (zrange2 (Z.max (Qceiling floor_y) 0) (Z.min (Qfloor ceil_y + 1) ny)))
  | None => Err ValueError
  end.
Definition unified_rows (nx ny ax ay az triangle_num : Z) (t : tri3) : res (list (row * Q)) :=
  let '(a, b, c) := t in
  let min_x := min3 (coord a ax) (coord b ax) (coord c ax) in
  let max_x := max3 (coord a ax) (coord b ax) (coord c ax) in
  do cols <- mapM (unified_column ny ax ay az triangle_num t) (zrange2 (Z.max (Qceiling min_x) 0) (Z.min (Qfloor max_x + 1) nx));
  Ok (List.concat cols).
(* vector_utilities.py:1260-1339 _points_in_triangles_aligned_unified_batch; the code
   returns the rows and the z values as two arrays of equal length *)
Definition unified_batch (nx ny ax ay az base : Z) (tp : list tri3) : res (list (row * Q)) :=
  do rs <- mapM (fun kt => unified_rows nx ny ax ay az (fst kt + base)%Z (snd kt)) (indexed 0 tp);
  Ok (List.concat rs).
(* vector_utilities.py:1183-1229 points_in_triangles_aligned_unified *)
Definition points_in_triangles_aligned_unified (nx ny ax ay az : Z) (triangles : list tri3) (n_batches : Z) : res (list (row * Q)) :=
  in_batches n_batches (unified_batch nx ny ax ay az) triangles.
