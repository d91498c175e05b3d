(** PolylineModel.v: polylines and sets of polylines.  Models parts of resqpy/lines/_polyline_set.py,
    resqpy/lines/_polyline.py and resqpy/olio/simple_lines.py.  Numbers are exact rationals; text files are modelled as
    the rows of numbers in them. *)
From Coq Require Import Qabs.
From Verif Require Import Base QBase IntersectModel.
Open Scope Z_scope.

(** A polyline: what identifies it (its uuid), whether it is closed, its points.  The crs is taken to be shared. *)
Record polyline := Poly { pl_id : Z; pl_closed : bool; pl_coords : list vec }.
Definition zlen {A} (l : list A) : Z := Z.of_nat (List.length l).

(** ** Sets *)
(* _polyline_set.py:504-535: coordinates, closed_array and count_perpol; polylines are equal if their uuids are
   (olio/base.py:186-193) *)
Definition combine_polylines (polylines : list polyline) : res (list vec * list bool * list Z) :=
  let first := match polylines with p :: _ => pl_id p | [] => 0 end in
  let '(coordinates, closed_array, count_perpol) :=
    fold_left (fun '(co, cl, ct) p =>
      (if pl_id p =? first then Some (pl_coords p) else match co with Some c => Some (c ++ pl_coords p) | None => None end,
       cl ++ [pl_closed p], ct ++ [zlen (pl_coords p)])) polylines (None, [], []) in
  do _ <- assert_ (zlen closed_array =? zlen count_perpol);
  match coordinates with
  | None => Err TypeError
  | Some c => do _ <- assert_ (fold_left Z.add count_perpol 0 =? zlen c); Ok (c, closed_array, count_perpol)
  end.
(* _polyline_set.py:537-563: boolnotconstant, boolvalue, indices *)
Definition indices_of (b : bool) (l : list bool) : list Z :=
  map fst (filter (fun x => Bool.eqb (snd x) b) (combine (zrange (zlen l)) l)).
Definition bool_array_format (closed_array : list bool) : bool * bool * list Z :=
  if forallb id closed_array then (false, true, [])
  else if negb (existsb id closed_array) then (false, false, [])
  else if zlen (filter id closed_array) >? zlen closed_array / 2 then (true, true, indices_of false closed_array)
  else (true, false, indices_of true closed_array).
(* the closed polylines as stored: _polyline_set.py:288-332, 403-404 *)
Inductive closed_node := ConstantArray (value : bool) (count : Z) | FromIndexArray (index_is_true : bool) (count : Z) (indices : list Z).
Definition store_closed (closed_array : list bool) : closed_node :=
  let '(boolnotconstant, boolvalue, indices) := bool_array_format closed_array in
  if boolnotconstant then FromIndexArray (negb boolvalue) (zlen closed_array) indices else ConstantArray boolvalue (zlen closed_array).
(* _polyline_set.py:407-434 *)
Definition get_bool_array (n : closed_node) : list bool :=
  match n with
  | ConstantArray value count => map (fun _ => value) (zrange count)
  | FromIndexArray istrue count indices => map (fun i => if existsb (Z.eqb i) indices then istrue else negb istrue) (zrange count)
  end.
(* np.isclose, of points *)
Definition qclose (a b : Q) : bool := (Qabs (a - b) <=b (1 # 100000000) + (1 # 100000) * Qabs b)%Q.
Definition np_isclose (a b : vec) : bool := qclose (vx a) (vx b) && qclose (vy a) (vy b) && qclose (vz a) (vz b).
(* _polyline_set.py:478-502 and _polyline.py:95: the closed flag and points of each polyline made *)
Fixpoint convert_to_polylines (closed_array : option (list bool)) (count_perpol : list Z) (coordinates : list vec) : res (list (bool * list vec)) :=
  match count_perpol with
  | [] => Ok []
  | c :: rest =>
      let subset := firstn (Z.to_nat (match rest with [] => c + 1 | _ => c end)) coordinates in
      match subset with
      | [] => Err IndexError
      | first :: _ =>
          let duplicated_end_points := np_isclose first (last subset first) && (zlen subset >? 2) in
          do isclosed <- match closed_array with None => Ok duplicated_end_points | Some [] => Err IndexError | Some (b :: _) => Ok b end;
          let subset := if isclosed && duplicated_end_points then removelast subset else subset in
          do _ <- assert_ (zlen subset >? 1);
          do others <- convert_to_polylines (option_map (@List.tl bool) closed_array) rest (skipn (Z.to_nat c) coordinates);
          Ok ((isclosed, subset) :: others)
      end
  end.

(** ** Files *)
(* _polyline_set.py:606-610: the rows of a Charisma file, as points and sticks *)
Definition convert_to_charisma (polys : list (list vec)) : list (vec * Z) :=
  flat_map (fun '(i, poly) => map (fun p => (p, i + 1)) poly) (combine (zrange (zlen polys)) polys).
(* np.delete(a, -2, 0) *)
Definition delete_last_but_one (l : list vec) : list vec :=
  match rev l with x :: _ :: r => rev r ++ [x] | _ => l end.
(* _polyline_set.py:191-222 *)
Definition charisma_step (n : Z) (st : list vec * list Z * Z * Z * Z) (row : vec * Z) : list vec * list Z * Z * Z * Z :=
  let '(coordinates, count_perpol, stick, count, i) := st in
  let '(p, name) := row in
  if i =? 0 then ([p], count_perpol, name, 1, i + 1)
  else
    let coordinates := coordinates ++ [p] in
    let count := count + 1 in
    if negb (stick =? name) || (i =? n - 1) then
      if (count <=? 2) && negb (stick =? name) then (delete_last_but_one coordinates, count_perpol, name, 1, i + 1)
      else (coordinates, count_perpol ++ [count - 1], name, 1, i + 1)
    else (coordinates, count_perpol, stick, count, i + 1).
Definition set_from_charisma (rows : list (vec * Z)) : res (list (bool * list vec)) :=
  let '(coordinates, count_perpol, _, _, _) := fold_left (charisma_step (zlen rows)) rows ([], [], 0, 0, 0) in
  convert_to_polylines (Some (map (fun _ => false) count_perpol)) count_perpol coordinates.

(* _polyline_set.py:588-595: the rows of an IRAP file; the polylines of the set are taken to be distinct *)
Definition end_of_line : vec := V 999 999 999.
Definition convert_to_irap (polys : list (list vec)) : list vec := flat_map (fun p => p ++ [end_of_line]) polys.
(* simple_lines.py:28-61; None for the assertion that the last line is terminated, which is caught *)
Fixpoint read_rows (rows : list vec) (point_list : list vec) : option (list (list vec)) :=
  match rows with
  | [] => match point_list with [] => Some [] | _ => None end
  | p :: rest =>
      if np_isclose p end_of_line then
        match point_list with [] => read_rows rest [] | _ => match read_rows rest [] with Some l => Some (point_list :: l) | None => None end end
      else read_rows rest (point_list ++ [p])
  end.
Definition read_lines (rows : list vec) : list (list vec) := match read_rows rows [] with Some l => l | None => [] end.
(* vector_utilities.py:1407-1415 *)
Definition vu_isclose (a b : vec) : bool :=
  (Qabs (vx a - vx b) <=b 1 # 1000000)%Q && (Qabs (vy a - vy b) <=b 1 # 1000000)%Q && (Qabs (vz a - vz b) <=b 1 # 1000000)%Q.
(* _polyline_set.py:168-189: numpy will not join None to an array of points *)
Definition irap_step (st : res (option (list vec) * list Z * list bool * Z)) (poly : list vec) : res (option (list vec) * list Z * list bool * Z) :=
  do s <- st;
  let '(co, ct, cl, i) := s in
  if zlen poly >? 1 then
    match poly with
    | [] => Err IndexError
    | first :: _ =>
        do c <- (if i =? 0 then Ok poly else match co with Some c => Ok (c ++ poly) | None => Err ValueError end);
        Ok (Some c, ct ++ [zlen poly], cl ++ [vu_isclose first (last poly first)], i + 1)
    end
  else Ok (co, ct, cl, i + 1).
Definition set_from_irap (rows : list vec) : res (list (bool * list vec)) :=
  do s <- fold_left irap_step (read_lines rows) (Ok (None, [], [], 0));
  let '(co, ct, cl, _) := s in
  convert_to_polylines (Some cl) ct (match co with Some c => c | None => [] end).

(** ** Lines *)
Definition manhattan (a b : vec) : Q := (Qabs (vx a - vx b) + Qabs (vy a - vy b) + Qabs (vz a - vz b))%Q.
(* simple_lines.py:64-87 *)
Definition polygon_line (line : list vec) (tolerance : Q) : list vec :=
  match line with
  | first :: _ :: _ => if (tolerance <b manhattan first (last line first))%Q then line else removelast line
  | _ => line
  end.
(* simple_lines.py:90-125.  [whittled] is kept in reverse. *)
Definition whittle (tolerance : Q) (whittled : list vec) (p : vec) : list vec :=
  match whittled with w :: _ => if (tolerance <b manhattan p w)%Q then p :: whittled else whittled | [] => [p] end.
Definition duplicate_vertices_removed (line : list vec) (tolerance : Q) : list vec :=
  match line with
  | first :: second :: third :: rest =>
      let whittled := fold_left (whittle tolerance) (second :: third :: rest) [first] in
      if zlen whittled =? zlen line then line
      else rev (last line first :: List.tl whittled)
  | _ => line
  end.
(* _polyline.py:179-227: the points *)
Definition from_trimmed_polyline (coords : list vec) (start_seg end_seg : Z) (start_xyz end_xyz : option vec) : res (list vec) :=
  do _ <- assert_ ((0 <=? start_seg) && (start_seg <=? end_seg));
  do _ <- assert_ (end_seg <? zlen coords - 1);
  let c := firstn (Z.to_nat (end_seg + 2 - start_seg)) (skipn (Z.to_nat start_seg) coords) in
  let c := match start_xyz, c with Some p, _ :: r => p :: r | _, _ => c end in
  Ok (match end_xyz with Some p => removelast c ++ [p] | None => c end).
(* vector_utilities.py:529-536 *)
Definition clockwise (a b c : vec) : Q := ((vx c - vx a) * (vy b - vy a) - (vy c - vy a) * (vx b - vx a))%Q.
(* _polyline.py:301-330, for a closed polyline without metadata.  Negative indices wrap. *)
Definition node (coords : list vec) (z : Z) : vec := nth (Z.to_nat (if z <? 0 then z + zlen coords else z)) coords (V 0 0 0).
Fixpoint convex_loop (turns : list Q) (cw_bool : option bool) : bool :=
  match turns with
  | [] => match cw_bool with None => false | Some _ => true end
  | cw :: rest =>
      if Qeq_bool cw 0 then convex_loop rest cw_bool
      else match cw_bool with
           | None => convex_loop rest (Some (0 <b cw)%Q)
           | Some b => if Bool.eqb b (0 <b cw)%Q then convex_loop rest cw_bool else false
           end
  end.
Definition is_convex (coords : list vec) : bool :=
  if zlen coords <? 3 then false
  else convex_loop (map (fun n => clockwise (node coords (n - 2)) (node coords (n - 1)) (node coords n)) (zrange (zlen coords))) None.
