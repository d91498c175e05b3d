(** IntersectModel.v: lines, triangles and their intersections (olio/intersection.py,
    olio/vector_utilities.py:1401-1404).  Coordinates are rationals; nan is None. *)
From Verif Require Import Base QBase.
Open Scope Q_scope.

Record vec := V { vx : Q; vy : Q; vz : Q }.
Record triangle := Tri { t0 : vec; t1 : vec; t2 : vec }.
Definition vadd (a b : vec) : vec := V (vx a + vx b) (vy a + vy b) (vz a + vz b).
Definition vsub (a b : vec) : vec := V (vx a - vx b) (vy a - vy b) (vz a - vz b).
Definition vscale (k : Q) (a : vec) : vec := V (k * vx a) (k * vy a) (k * vz a).
Definition vneg (a : vec) : vec := V (- vx a) (- vy a) (- vz a).
(** np.dot, np.cross *)
Definition dot (a b : vec) : Q := vx a * vx b + vy a * vy b + vz a * vz b.
Definition cross (a b : vec) : vec :=
  V (vy a * vz b - vz a * vy b) (vz a * vx b - vx a * vz b) (vx a * vy b - vy a * vx b).

(* intersection.py:14-35 *)
Definition line_plane_intersect (p v : vec) (tr : triangle) : option vec :=
  let p01 := vsub (t1 tr) (t0 tr) in
  let p02 := vsub (t2 tr) (t0 tr) in
  let norm := cross p01 p02 in
  let denom := dot (vneg v) norm in
  if Qeq_bool denom 0 then None
  else let t := dot norm (vsub p (t0 tr)) / denom in Some (vadd p (vscale t v)).

(* intersection.py:38-76 and, line for line the same, 79-125 (numba) *)
Definition line_triangle_intersect (p v : vec) (tr : triangle) (segment : bool) (l_tol t_tol : Q) : option vec :=
  let p01 := vsub (t1 tr) (t0 tr) in
  let p02 := vsub (t2 tr) (t0 tr) in
  let norm := cross p01 p02 in
  let rv := vneg v in
  let denom := dot rv norm in
  if Qeq_bool denom 0 then None else
  let d := vsub p (t0 tr) in
  let t := dot norm d / denom in
  if segment && ((t <b 0 - l_tol) || (1 + l_tol <b t)) then None else
  let u := dot (cross p02 rv) d / denom in
  if (u <b 0 - t_tol) || (1 + t_tol <b u) then None else
  let w := dot (cross rv p01) d / denom in
  if (w <b 0 - t_tol) || (1 + t_tol <b u + w) then None else
  Some (vadd p (vscale t v)).

(** comparisons with nan are False *)
Definition below (a : option Q) (k : Q) : bool := match a with Some x => x <b k | None => false end.
Definition above (a : option Q) (k : Q) : bool := match a with Some x => k <b x | None => false end.
Definition oplus (a b : option Q) : option Q := match a, b with Some x, Some y => Some (x + y) | _, _ => None end.
(** one element of the arrays ts, us, vs; nan where the division is masked *)
Definition masked_divide (nz : bool) (a b : Q) : option Q := if nz then Some (a / b) else None.
(* intersection.py:128-172, the row of one triangle *)
Definition triangles_row (p v : vec) (tr : triangle) (segment : bool) : option vec :=
  let p01 := vsub (t1 tr) (t0 tr) in
  let p02 := vsub (t2 tr) (t0 tr) in
  let norm := cross p01 p02 in
  let rv := vneg v in
  let denom := dot norm rv in
  let d := vsub p (t0 tr) in
  let nz := negb (Qeq_bool denom 0) in
  let t := masked_divide nz (dot norm d) denom in
  let t := if segment && (below t 0 || above t 1) then None else t in
  let u := masked_divide nz (dot (cross p02 rv) d) denom in
  let w := masked_divide nz (dot (cross rv p01) d) denom in
  let t := if (below u 0 || above u 1) || (below w 0 || above (oplus u w) 1) then None else t in
  option_map (fun t => vadd (vscale t v) p) t.
Definition line_triangles_intersects (p v : vec) (trs : list triangle) (segment : bool) : list (option vec) :=
  map (fun tr => triangles_row p v tr segment) trs.
(* intersection.py:175-178 *)
Fixpoint indices_from {A} (l : list (option A)) (i : Z) : list Z :=
  match l with [] => [] | Some _ :: l' => i :: indices_from l' (i + 1) | None :: l' => indices_from l' (i + 1) end.
Definition intersects_indices (l : list (option vec)) : list Z := indices_from l 0.

(** line_vs: a vector for each line, or one for all *)
Inductive directions := Each (l : list vec) | Common (v : vec).
(* intersection.py:181-235; element (c, n).  The reshape and the products need as many vectors
   as points (one vector in a list for several points is broadcast in some places only). *)
Definition set_element (p v : vec) (tr : triangle) (segment : bool) : option vec :=
  let p01 := vsub (t1 tr) (t0 tr) in
  let p02 := vsub (t2 tr) (t0 tr) in
  let norm := cross p01 p02 in
  let rv := vneg v in
  let denom := dot rv norm in
  let nz := negb (Qeq_bool denom 0) in
  let d := vsub p (t0 tr) in
  let t := masked_divide nz (dot norm d) denom in
  let t := if segment && (below t 0 || above t 1) then None else t in
  let u := masked_divide nz (dot (cross p02 rv) d) denom in
  let w := masked_divide nz (dot (cross rv p01) d) denom in
  let t := if (below u 0 || above u 1) || (below w 0 || above (oplus u w) 1) then None else t in
  option_map (fun t => vadd (vscale t v) p) t.
Definition line_set_triangles_intersects (ps : list vec) (vs : directions) (trs : list triangle) (segment : bool)
  : res (list (list (option vec))) :=
  let vl := match vs with Each l => l | Common v => map (fun _ => v) ps end in
  if Nat.eqb (List.length vl) (List.length ps)
  then Ok (map (fun pv => map (fun tr => set_element (fst pv) (snd pv) tr segment) trs) (combine ps vl))
  else Err ValueError.
(* intersection.py:238-254 *)
Definition poly_line_triangles_intersects (ps : list vec) (trs : list triangle) : res (list (list (option vec))) :=
  line_set_triangles_intersects (removelast ps) (Each (map (fun pq => vsub (snd pq) (fst pq)) (combine (removelast ps) (tl ps)))) trs true.
(* intersection.py:257-273: np.where goes through the array in row order *)
Fixpoint hits_from (l : list (option vec)) (li ti : Z) : list (Z * Z * vec) :=
  match l with
  | [] => []
  | Some x :: l' => (li, ti, x) :: hits_from l' li (ti + 1)
  | None :: l' => hits_from l' li (ti + 1)
  end.
Fixpoint all_hits (a : list (list (option vec))) (li : Z) : list (Z * Z * vec) :=
  match a with [] => [] | r :: a' => hits_from r li 0 ++ all_hits a' (li + 1) end.
Definition distilled_intersects (a : list (list (option vec))) : list (Z * Z * vec) := all_hits a 0.
(* intersection.py:276-306: of several assignments to one element the last stands *)
Definition last_intersects (a : list (list (option vec))) : list (option vec) :=
  map (fun r => fold_left (fun m x => match x with Some _ => x | None => m end) r None) a.
(* intersection.py:309-329 *)
Definition triangles_for_line (a : list (list (option vec))) (li : nat) : list (Z * vec) :=
  map (fun h => (snd (fst h), snd h)) (hits_from (nth li a []) (Z.of_nat li) 0).
(* intersection.py:332-352 *)
Fixpoint column_hits (a : list (list (option vec))) (tn : nat) (li : Z) : list (Z * vec) :=
  match a with
  | [] => []
  | r :: a' => match nth tn r None with Some x => (li, x) :: column_hits a' tn (li + 1) | None => column_hits a' tn (li + 1) end
  end.
Definition lines_for_triangle (a : list (list (option vec))) (tn : nat) : list (Z * vec) := column_hits a tn 0.
(* intersection.py:355-378; [l]: the points from number c on *)
Fixpoint first_from (l : list vec) (c : Z) (trs : list triangle) : option (Z * option vec) :=
  match l with
  | a :: ((b :: _) as l') =>
      let points := line_triangles_intersects a (vsub b a) trs true in
      if forallb (fun x => match x with None => true | Some _ => false end) points then first_from l' (c + 1) trs
      else Some (c, hd None (last_intersects [points]))
  | _ => None
  end.
Definition poly_line_triangles_first_intersect (ps : list vec) (trs : list triangle) (start : nat) : option (Z * option vec) :=
  first_from (skipn start ps) (Z.of_nat start) trs.

(** ** In the plane *)
Record pt := P2 { px : Q; py : Q }.
(* intersection.py:381-420 *)
Definition line_line_intersect (a b c d : pt) (segment half : bool) : option pt :=
  let divisor := (px a - px b) * (py c - py d) - (py a - py b) * (px c - px d) in
  if Qeq_bool divisor 0 then None
  else if segment then
    let t := ((px a - px c) * (py c - py d) - (py a - py c) * (px c - px d)) / divisor in
    if (t <b 0) || (negb half && (1 <b t)) then None else
    let u := (- ((px a - px b) * (py a - py c) - (py a - py b) * (px a - px c))) / divisor in
    if negb ((0 <=b u) && (u <=b 1)) then None
    else Some (P2 (px a + t * (px b - px a)) (py a + t * (py b - py a)))
  else
    let k := px a * py b - py a * px b in
    let m := px c * py d - py c * px d in
    Some (P2 ((k * (px c - px d) - (px a - px b) * m) / divisor) ((k * (py c - py d) - (py a - py b) * m) / divisor)).
(* intersection.py:423-432 *)
Definition point_projected_to_line_2d (p l1 l2 : pt) : option pt :=
  let n := P2 (- (py l2 - py l1)) (px l2 - px l1) in
  let pn := P2 (px p + px n) (py p + py n) in
  line_line_intersect l1 l2 p pn false false.
(* vector_utilities.py:1401-1404 *)
Definition is_obtuse_2d (p p1 p2 : pt) : bool :=
  (px p1 - px p) * (px p2 - px p) + (py p1 - py p) * (py p2 - py p) <b 0.
(* intersection.py:435-443 *)
Definition point_snapped_to_line_segment_2d (p l1 l2 : pt) : option pt :=
  if is_obtuse_2d l1 p l2 then Some l1
  else if is_obtuse_2d l2 p l1 then Some l2
  else point_projected_to_line_2d p l1 l2.
