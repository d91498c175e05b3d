(** CrsModel.v: coordinate reference systems (resqpy/crs.py), with real numbers for floats.
    sin, cos and PI are those of the standard library's Reals. *)
From Coq Require Import Reals Qreals.
From Verif Require Import QBase StrModel WamData WamModel.
Open Scope R_scope.

(* crs.py:46-47 valid_axis_orders; any other string fails the assertion in the constructor *)
Inductive axis_order := EN | NE | WS | SW | NW | WN.
Definition axis_order_eqb (a b : axis_order) : bool :=
  match a, b with EN, EN | NE, NE | WS, WS | SW, SW | NW, NW | WN, WN => true | _, _ => false end.
Definition mat2 := (R * R * (R * R))%type.   (* rows *)
(* crs.py:25-32 axis_reordering *)
Definition axis_reordering (o : axis_order) : mat2 :=
  match o with
  | EN => ((1, 0), (0, 1))
  | NE => ((0, 1), (1, 0))
  | WS => ((-1, 0), (0, -1))
  | SW => ((0, -1), (-1, 0))
  | NW => ((0, 1), (-1, 0))
  | WN => ((-1, 0), (0, 1))
  end.
Definition transpose2 (m : mat2) : mat2 := let '((a, b), (c, d)) := m in ((a, c), (b, d)).
Definition matmul2 (m n : mat2) : mat2 :=
  let '((a, b), (c, d)) := m in let '((e, f), (g, h)) := n in
  ((a * e + b * g, a * f + b * h), (c * e + d * g, c * f + d * h)).
Definition row_times (v : R * R) (m : mat2) : R * R :=
  let '((a, b), (c, d)) := m in (fst v * a + snd v * c, fst v * b + snd v * d).
(* crs.py:522-525 switch_axes *)
Definition switch_axes (from_order to_order : axis_order) (x y : R) : R * R :=
  row_times (x, y) (matmul2 (transpose2 (axis_reordering to_order)) (axis_reordering from_order)).

Definition point := (R * R * R)%type.
Definition mat3 := (point * point * point)%type.  (* rows *)
(* vector_utilities.py:314-331 rotation_matrix_3d_axial(2, angle) *)
Definition rotation_matrix_z (angle : R) : mat3 :=
  let radians := angle * PI / 180 in
  ((cos radians, - sin radians, 0), (sin radians, cos radians, 0), (0, 0, 1)).
Definition dot3 (a b : point) : R := let '(x, y, z) := a in let '(u, v, w) := b in x * u + y * v + z * w.
(* vector_utilities.py:380-382 rotate_vector *)
Definition rotate_vector (m : mat3) (v : point) : point :=
  let '(r0, r1, r2) := m in (dot3 r0 v, dot3 r1 v, dot3 r2 v).

(* weights_and_measures.py:115-165 convert, as WamModel.convert but on a real number *)
Definition rdiv (a b : R) : res R := if Req_EM_T b 0 then Err ZeroDivisionError else Ok (a / b).
Definition convertR (x : R) (unit_from unit_to : str) (quantity : option str) (inplace : bool) : res R :=
  do uom1 <- rq_uom unit_from quantity;
  do uom2 <- rq_uom unit_to quantity;
  if str_eqb uom1 uom2 then Ok x
  else
    do f1 <- get_conversion_factors uom1;
    do f2 <- get_conversion_factors uom2;
    let '(base1, dim1, (a1, b1, c1, d1)) := f1 in
    let '(base2, dim2, (a2, b2, c2, d2)) := f2 in
    if negb (str_eqb base1 base2) && negb (str_eqb dim1 dim2) then Err IncompatibleUnitsError
    else if negb inplace then
      do y <- rdiv (Q2R a1 + Q2R b1 * x) (Q2R c1 + Q2R d1 * x);
      rdiv (Q2R a2 - Q2R c2 * y) (Q2R d2 * y - Q2R b2)
    else if existsb (fun f => negb (Qeq_bool f 0%Q)) [a1; a2; d1; d2] then Err NotImplementedError
    else
      do factor <- rdiv (Q2R b1 * Q2R c2) (Q2R c1 * Q2R b2);
      Ok (x * factor).
(* weights_and_measures.py:248-263 convert_lengths, 235-245 convert_times *)
Definition convert_lengthsR (a : R) (from_units to_units : str) : res R := convertR a from_units to_units (Some (L "length")) true.
Definition convert_timesR (a : R) (from_units to_units : str) : res R := convertR a from_units to_units (Some (L "time")) true.

(* python's math.isclose with the default rel_tol of 1e-9 *)
Definition isclose (a b abs_tol : R) : bool :=
  if Rle_dec (Rabs (a - b)) (Rmax (/ 10 ^ 9 * Rmax (Rabs a) (Rabs b)) abs_tol) then true else false.

(* crs.py:48-136 the attributes; uuid and extra metadata as strings *)
Record crs := {
  uuid : str; x_offset : R; y_offset : R; z_offset : R; rotation : R; rotation_units : str;
  xy_units : str; z_units : str; z_inc_down : bool; order : axis_order; time_units : option str;
  epsg_code : option str; extra_metadata : list (str * str) }.

Definition ofs (o : option str) : bool := match o with Some (_ :: _) => true | _ => false end.  (* truth of a string or None *)
(* crs.py:118-128: the assertions of the constructor *)
Definition check_crs (c : crs) : res unit :=
  do lu <- valid_uoms (Some (L "length"));
  do _ <- assert_ (mem (xy_units c) lu);
  do _ <- assert_ (str_eqb (z_units c) (xy_units c) || mem (z_units c) lu);
  do au <- valid_uoms (Some (L "plane angle"));
  do _ <- assert_ (mem (rotation_units c) au);
  match time_units c with
  | Some ((_ :: _) as t) => do tu <- valid_uoms (Some (L "time")); assert_ (mem t tu)
  | _ => Ok tt
  end.
(* crs.py:40-44 resqml_type: true for LocalTime3dCrs *)
Definition is_time (c : crs) : bool := ofs (time_units c).

(* crs.py:161-181 set_rotation_matrices; the rotation in degrees.  An error value stands for
   the exception, which cannot occur after check_crs. *)
Definition rotation_deg (c : crs) : res R := convertR (rotation c) (rotation_units c) (L "dega") (Some (L "plane angle")) false.
Definition is_rotated (deg : R) : bool := negb (isclose deg 0 (/ 10 ^ 8)) && negb (isclose deg 360 (/ 10 ^ 8)).
(* crs.py:183-186 *)
Definition is_right_handed_xy (c : crs) : bool := match order c with NE | SW | WN => true | _ => false end.
(* crs.py:188-191 *)
Definition is_right_handed_xyz (c : crs) : bool := Bool.eqb (is_right_handed_xy c) (z_inc_down c).
(* crs.py:167-174: None when not rotated, else the matrix and the reverse matrix *)
Definition rotation_matrices (c : crs) : res (option (mat3 * mat3)) :=
  do deg <- rotation_deg c;
  if is_rotated deg then
    let m := rotation_matrix_z deg in
    let r := rotation_matrix_z (- deg) in
    Ok (Some (if is_right_handed_xy c then (r, m) else (m, r)))
  else Ok None.
(* crs.py:178-181 *)
Definition null_transform (c : crs) : res bool :=
  do m <- rotation_matrices c;
  Ok (isclose (x_offset c) 0 (/ 10 ^ 8) && isclose (y_offset c) 0 (/ 10 ^ 8) && isclose (z_offset c) 0 (/ 10 ^ 8) &&
      match m with Some _ => false | None => true end).

Definition neq0 (x : R) : bool := if Req_EM_T x 0 then false else true.
(* crs.py:193-214 global_to_local *)
Definition global_to_local (c : crs) (p : point) (global_z_inc_down : bool) (global_axis_order : axis_order) : res point :=
  let '(x, y, z) := p in
  let '(x, y) := if negb (axis_order_eqb (order c) global_axis_order) then switch_axes global_axis_order (order c) x y else (x, y) in
  let x := if neq0 (x_offset c) then x - x_offset c else x in
  let y := if neq0 (y_offset c) then y - y_offset c else y in
  let z := if negb (Bool.eqb global_z_inc_down (z_inc_down c)) then - z else z in
  let z := if neq0 (z_offset c) then z - z_offset c else z in
  do m <- rotation_matrices c;
  Ok (match m with Some (rot, _) => rotate_vector rot (x, y, z) | None => (x, y, z) end).
(* crs.py:240-263 local_to_global *)
Definition local_to_global (c : crs) (p : point) (global_z_inc_down : bool) (global_axis_order : axis_order) : res point :=
  do m <- rotation_matrices c;
  let '(x, y, z) := match m with Some (_, rev) => rotate_vector rev p | None => p end in
  let x := if neq0 (x_offset c) then x + x_offset c else x in
  let y := if neq0 (y_offset c) then y + y_offset c else y in
  let z := if neq0 (z_offset c) then z + z_offset c else z in
  let z := if negb (Bool.eqb global_z_inc_down (z_inc_down c)) then - z else z in
  let '(x, y) := if negb (axis_order_eqb (order c) global_axis_order) then switch_axes (order c) global_axis_order x y else (x, y) in
  Ok (x, y, z).

(** Arrays of points, flattened to a list; each step acts on the whole array. *)
Definition on_x (f : R -> R) (l : list point) : list point := map (fun p => let '(x, y, z) := p in (f x, y, z)) l.
Definition on_y (f : R -> R) (l : list point) : list point := map (fun p => let '(x, y, z) := p in (x, f y, z)) l.
Definition on_z (f : R -> R) (l : list point) : list point := map (fun p => let '(x, y, z) := p in (x, y, f z)) l.
(* crs.py:528-533 switch_axes_array *)
Definition switch_axes_array (from_order to_order : axis_order) (l : list point) : list point :=
  let matrix := matmul2 (transpose2 (axis_reordering to_order)) (axis_reordering from_order) in
  map (fun p => let '(x, y, z) := p in let '(x, y) := row_times (x, y) matrix in (x, y, z)) l.
(* vector_utilities.py:385-387 rotate_array *)
Definition rotate_array (m : mat3) (l : list point) : list point := map (rotate_vector m) l.
(* crs.py:216-238 global_to_local_array *)
Definition global_to_local_array (c : crs) (l : list point) (global_z_inc_down : bool) (global_axis_order : axis_order) : res (list point) :=
  let l := if negb (axis_order_eqb (order c) global_axis_order) then switch_axes_array global_axis_order (order c) l else l in
  let l := if neq0 (x_offset c) then on_x (fun x => x - x_offset c) l else l in
  let l := if neq0 (y_offset c) then on_y (fun y => y - y_offset c) l else l in
  let l := if negb (Bool.eqb global_z_inc_down (z_inc_down c)) then on_z Ropp l else l in
  let l := if neq0 (z_offset c) then on_z (fun z => z - z_offset c) l else l in
  do m <- rotation_matrices c;
  Ok (match m with Some (rot, _) => rotate_array rot l | None => l end).
(* crs.py:265-287 local_to_global_array *)
Definition local_to_global_array (c : crs) (l : list point) (global_z_inc_down : bool) (global_axis_order : axis_order) : res (list point) :=
  do m <- rotation_matrices c;
  let l := match m with Some (_, rev) => rotate_array rev l | None => l end in
  let l := if neq0 (x_offset c) then on_x (fun x => x + x_offset c) l else l in
  let l := if neq0 (y_offset c) then on_y (fun y => y + y_offset c) l else l in
  let l := if neq0 (z_offset c) then on_z (fun z => z + z_offset c) l else l in
  let l := if negb (Bool.eqb global_z_inc_down (z_inc_down c)) then on_z Ropp l else l in
  Ok (if negb (axis_order_eqb (order c) global_axis_order) then switch_axes_array (order c) global_axis_order l else l).

Definition opt_str_eqb (a b : option str) : bool :=
  match a, b with Some x, Some y => str_eqb x y | None, None => true | _, _ => false end.
(* crs.py:289-291 has_same_epsg_code *)
Definition has_same_epsg_code (a b : crs) : bool :=
  negb (ofs (epsg_code a)) || negb (ofs (epsg_code b)) || opt_str_eqb (epsg_code a) (epsg_code b).
(* crs.py:542-554 _matching_extra_metadata; every crs has the attribute *)
Definition matching_extra_metadata (a b : crs) : bool :=
  if negb (Nat.eqb (List.length (extra_metadata a)) (List.length (extra_metadata b))) then false
  else forallb (fun i => existsb (fun j => str_eqb (fst i) (fst j) && str_eqb (snd i) (snd j)) (extra_metadata b)) (extra_metadata a).
(* crs.py:293-327 is_equivalent; the same object has the same uuid.  Simplification: uuids
   are compared as strings. *)
Definition is_equivalent (a b : crs) : res bool :=
  if str_eqb (uuid a) (uuid b) then Ok true
  else if negb (Bool.eqb (is_time a) (is_time b)) then Ok false
  else if negb (str_eqb (xy_units a) (xy_units b)) || negb (str_eqb (z_units a) (z_units b)) then Ok false
  else if negb (Bool.eqb (z_inc_down a) (z_inc_down b)) then Ok false
  else if negb (opt_str_eqb (time_units a) (time_units b)) then Ok false
  else if negb (axis_order_eqb (order a) (order b)) then Ok false
  else if negb (has_same_epsg_code a b) then Ok false
  else if negb (matching_extra_metadata a b) then Ok false
  else
    do na <- null_transform a;
    do nb <- null_transform b;
    if na && nb then Ok true
    else Ok (isclose (x_offset a) (x_offset b) (/ 10 ^ 4) && isclose (y_offset a) (y_offset b) (/ 10 ^ 4) &&
             isclose (z_offset a) (z_offset b) (/ 10 ^ 4) && isclose (rotation a) (rotation b) (/ 10 ^ 4)).

Definition the (o : option str) : str := match o with Some s => s | None => [] end.
(* crs.py:329-352 convert_to; [same] is whether both are the same object *)
Definition convert_to (a b : crs) (same : bool) (p : point) : res point :=
  if same then Ok p
  else
    do _ <- assert_ (Bool.eqb (is_time a) (is_time b));
    do g <- local_to_global a p true EN;
    let '(x, y, z) := g in
    do x' <- convert_lengthsR x (xy_units a) (xy_units b);
    do y' <- convert_lengthsR y (xy_units a) (xy_units b);
    do z' <- (if is_time a then convert_timesR z (the (time_units a)) (the (time_units b))
              else convert_lengthsR z (z_units a) (z_units b));
    global_to_local b (x', y', z') true EN.
(* crs.py:379-402 convert_from: from other_crs b to this crs a *)
Definition convert_from (a b : crs) (same : bool) (p : point) : res point :=
  if same then Ok p
  else
    do _ <- assert_ (Bool.eqb (is_time a) (is_time b));
    do g <- local_to_global b p true EN;
    let '(x, y, z) := g in
    do x' <- convert_lengthsR x (xy_units b) (xy_units a);
    do y' <- convert_lengthsR y (xy_units b) (xy_units a);
    do z' <- (if is_time a then convert_timesR z (the (time_units b)) (the (time_units a))
              else convert_lengthsR z (z_units b) (z_units a));
    global_to_local a (x', y', z') true EN.

(** in place conversion of columns of an array *)
Fixpoint mapM {A B} (f : A -> res B) (l : list A) : res (list B) :=
  match l with [] => Ok [] | a :: t => do b <- f a; do u <- mapM f t; Ok (b :: u) end.
Definition conv_xy (f : R -> res R) (p : point) : res point := let '(x, y, z) := p in do x' <- f x; do y' <- f y; Ok (x', y', z).
Definition conv_z (f : R -> res R) (p : point) : res point := let '(x, y, z) := p in do z' <- f z; Ok (x, y, z').
Definition conv_xyz (f : R -> res R) (p : point) : res point := let '(x, y, z) := p in do x' <- f x; do y' <- f y; do z' <- f z; Ok (x', y', z').
(* crs.py:354-377 convert_array_to *)
Definition convert_array_to (a b : crs) (l : list point) : res (list point) :=
  do e <- is_equivalent a b;
  if e then Ok l
  else
    do _ <- assert_ (Bool.eqb (is_time a) (is_time b));
    do g <- local_to_global_array a l true EN;
    do h <- (if negb (is_time a) then
               if str_eqb (xy_units a) (z_units a) && str_eqb (xy_units b) (z_units b)
               then mapM (conv_xyz (fun v => convert_lengthsR v (xy_units a) (xy_units b))) g
               else do g1 <- mapM (conv_xy (fun v => convert_lengthsR v (xy_units a) (xy_units b))) g;
                    mapM (conv_z (fun v => convert_lengthsR v (z_units a) (z_units b))) g1
             else do g1 <- mapM (conv_xy (fun v => convert_lengthsR v (xy_units a) (xy_units b))) g;
                  mapM (conv_z (fun v => convert_timesR v (the (time_units a)) (the (time_units b)))) g1);
    global_to_local_array b h true EN.
(* crs.py:404-427 convert_array_from *)
Definition convert_array_from (a b : crs) (l : list point) : res (list point) :=
  do e <- is_equivalent a b;
  if e then Ok l
  else
    do _ <- assert_ (Bool.eqb (is_time a) (is_time b));
    do g <- local_to_global_array b l true EN;
    do h <- (if negb (is_time a) then
               if str_eqb (xy_units a) (z_units a) && str_eqb (xy_units b) (z_units b)
               then mapM (conv_xyz (fun v => convert_lengthsR v (xy_units b) (xy_units a))) g
               else do g1 <- mapM (conv_xy (fun v => convert_lengthsR v (xy_units b) (xy_units a))) g;
                    mapM (conv_z (fun v => convert_lengthsR v (z_units b) (z_units a))) g1
             else do g1 <- mapM (conv_xy (fun v => convert_lengthsR v (xy_units b) (xy_units a))) g;
                  mapM (conv_z (fun v => convert_timesR v (the (time_units b)) (the (time_units a)))) g1);
    global_to_local_array a h true EN.

(** Writing and reading back (crs.py:429-519 create_xml, 138-159 _load_from_xml): numbers are
    written with a fixed number of decimals.  round_to n is the nearest multiple of 10^-n (the
    tie rule is not modelled: halves go up; no theorem depends on it).  Everything else is
    written as it is: the text of units and of booleans is not modelled here. *)
Definition round_to (n : nat) (x : R) : R := IZR (Int_part (x * 10 ^ n + / 2)) / 10 ^ n.
Definition stored (c : crs) : crs :=
  {| uuid := uuid c; x_offset := round_to 3 (x_offset c); y_offset := round_to 3 (y_offset c); z_offset := round_to 4 (z_offset c);
     rotation := round_to 6 (rotation c); rotation_units := rotation_units c; xy_units := xy_units c; z_units := z_units c;
     z_inc_down := z_inc_down c; order := order c; time_units := time_units c; epsg_code := epsg_code c; extra_metadata := extra_metadata c |}.
