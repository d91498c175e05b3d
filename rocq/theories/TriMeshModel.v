(** TriMeshModel.v: meshes of equilateral triangles.  Models resqpy/surface/_tri_mesh.py. *)
From Coq Require Import Qround Qabs.
From Verif Require Import Base QBase IntersectModel.
Open Scope Z_scope.

(** A tri mesh freshly made from arguments.  [tm_h] stands for root_3_by_2, of which only the sign matters here. *)
Record trimesh := TriMesh {
  tm_nj : Z; tm_ni : Z;
  tm_t : Q;                     (* t_side *)
  tm_h : Q;
  tm_origin : option vec;
  tm_z : Z -> Z -> Q }.         (* z_values *)
Definition odd (j : Z) : bool := negb (j mod 2 =? 0).
(* _tri_mesh.py:74-90: full_array_ref *)
Definition xyz (m : trimesh) (j i : Z) : vec :=
  let p := V ((inject_Z i + (if odd j then 1 # 2 else 0)) * tm_t m) (tm_h m * inject_Z j * tm_t m) (tm_z m j i) in
  match tm_origin m with Some o => vadd p o | None => p end.

(** ** From places to triangles *)
(* _tri_mesh.py:173-207 *)
Definition tji_tc_for_xy (m : trimesh) (x y : Q) : option ((Z * Z) * (Q * Q * Q)) :=
  let x := match tm_origin m with Some o => (x - vx o)%Q | None => x end in
  let y := match tm_origin m with Some o => (y - vy o)%Q | None => y end in
  let jp := (y / (tm_t m * tm_h m))%Q in
  let j := Qfloor jp in
  if negb ((0 <=? j) && (j <? tm_nj m - 1)) then None else
  let fy := if odd j then (inject_Z (j + 1) - jp)%Q else (jp - inject_Z j)%Q in
  let ip := (x / tm_t m - (1 # 2) * fy)%Q in
  let i := Qfloor ip in
  if negb ((0 <=? i) && (i <? tm_ni m - 1)) then None else
  let fx := (ip - inject_Z i)%Q in
  let i := i * 2 in
  if (1 - fy <b fx)%Q then
    let i := i + 1 in let fx := (fx - (1 - fy))%Q in let fy := (1 - fy)%Q in
    Some ((j, i), (1 - (fx + fy), fx, fy)%Q)
  else Some ((j, i), (1 - (fx + fy), fx, fy)%Q).
(* _tri_mesh.py:209-248, of one element; None is nan *)
Definition tji_tc_for_xy_elem (m : trimesh) (xo yo : option Q) : (Z * Z) * (option Q * option Q * option Q) :=
  let mask := match xo, yo with Some _, Some _ => false | _, _ => true end in
  let sub o c := match tm_origin m with Some v => match o with Some a => Some (a - c v)%Q | None => None end | None => o end in
  let x := if mask then 0%Q else match sub xo vx with Some a => a | None => 0%Q end in
  let y := if mask then 0%Q else match sub yo vy with Some a => a | None => 0%Q end in
  let jp := (y / (tm_t m * tm_h m))%Q in
  let j := Qfloor jp in
  let mask := mask || ((j <? 0) || (j >=? tm_nj m - 1)) in
  let fy := if odd j then (inject_Z (j + 1) - jp)%Q else (jp - inject_Z j)%Q in
  let ip := (x / tm_t m - (1 # 2) * fy)%Q in
  let i := Qfloor ip in
  let mask := mask || ((i <? 0) || (i >=? tm_ni m - 1)) in
  let fx := (ip - inject_Z i)%Q in
  let i := i * 2 in
  let am := (1 - fy <b fx)%Q in
  let i := if am then i + 1 else i in
  let fx := if am then (fx - (1 - fy))%Q else fx in
  let fy := if am then (1 - fy)%Q else fy in
  if mask then ((-1, -1), (None, None, None)) else ((j, i), (Some (1 - (fx + fy))%Q, Some fx, Some fy)).

(** ** From triangles to nodes *)
Definition nodes3 := ((Z * Z) * (Z * Z) * (Z * Z))%type.
(* _tri_mesh.py:303-322 *)
Definition tri_nodes_for_tji (m : trimesh) (j i : Z) : res nodes3 :=
  let j_odd := j mod 2 in let i2 := i / 2 in let i_odd := i mod 2 in
  do _ <- assert_ ((0 <=? j) && (j <? tm_nj m - 1) && (0 <=? i) && (i <? 2 * (tm_ni m - 1)));
  let '(base_j, tip_j) := if negb (i_odd =? 0) then (j + 1 - j_odd, j + j_odd) else (j + j_odd, j + 1 - j_odd) in
  Ok ((base_j, i2), (base_j, i2 + 1), (tip_j, i2 + i_odd)).
(* _tri_mesh.py:324-342, of one element *)
Definition tri_nodes_for_tji_elem (m : trimesh) (j i : Z) : nodes3 :=
  let j_odd := j mod 2 in let i2 := i / 2 in let i_odd := i mod 2 in
  let mask := ((j <? 0) || (j >=? tm_nj m - 1)) || ((i <? 0) || (i >=? 2 * (tm_ni m - 1))) in
  let base_j := if negb (i_odd =? 0) then j + 1 - j_odd else j + j_odd in
  let tip_j := if negb (i_odd =? 0) then j + j_odd else j + 1 - j_odd in
  if mask then ((-1, -1), (-1, -1), (-1, -1)) else ((base_j, i2), (base_j, i2 + 1), (tip_j, i2 + i_odd)).
(* _tri_mesh.py:344-361: the statements in order, at one element *)
Definition all_tri_nodes (j i : Z) : nodes3 :=
  let bump d1 d2 v := let v := if odd j && negb (odd i) then v + d1 else v in if negb (odd j) && odd i then v + d2 else v in
  let c0j := bump 1 1 j in
  let c1j := c0j in
  let c2j := bump (-2) (-2) (c0j + 1) in
  let c0i := i / 2 in
  let c1i := c0i + 1 in
  let c2i := if odd i then c0i + 1 else c0i in
  ((c0j, c0i), (c1j, c1i), (c2j, c2i)).
(* _tri_mesh.py:363-367 *)
Definition triangles (m : trimesh) : list (Z * Z * Z) :=
  let c (n : Z * Z) := fst n * tm_ni m + snd n in
  flat_map (fun j => map (fun i => let '(a, b, d) := all_tri_nodes j i in (c a, c b, c d)) (zrange (2 * (tm_ni m - 1)))) (zrange (tm_nj m - 1)).
Definition points (m : trimesh) : list vec := flat_map (fun j => map (xyz m j) (zrange (tm_ni m))) (zrange (tm_nj m)).
(* _tri_mesh.py:369-378 *)
Definition tji_for_triangle_index (m : trimesh) (t : Z) : res (Z * Z) :=
  do _ <- assert_ ((0 <=? t) && (t <? (tm_nj m - 1) * (tm_ni m - 1) * 2));
  Ok (t / (2 * (tm_ni m - 1)), t mod (2 * (tm_ni m - 1))).
Definition triangle_index_for_tji (m : trimesh) (j i : Z) : res Z :=
  do _ <- assert_ ((0 <=? j) && (j <? tm_nj m - 1) && (0 <=? i) && (i <? 2 * (tm_ni m - 1)));
  Ok (2 * (tm_ni m - 1) * j + i).
(* _tri_mesh.py:250-265, 282-291 *)
Definition interpolated_z (m : trimesh) (x y : Q) : res (option Q) :=
  match tji_tc_for_xy m x y with
  | None => Ok None
  | Some ((j, i), (f0, f1, f2)) =>
      do n <- tri_nodes_for_tji m j i;
      let '(a, b, c) := n in
      let z n := vz (xyz m (fst n) (snd n)) in
      Ok (Some (f0 * z a + f1 * z b + f2 * z c)%Q)
  end.

(** ** Crossings of edges *)
(* the rows a slice start:stop:2 takes *)
Definition every2 (start stop : Z) : list Z := filter (fun j => (j - start) mod 2 =? 0) (zrange2 start stop).
(* _tri_mesh.py:436-465, 533-563: the pairs of nodes tested, in order *)
Definition edges (m : trimesh) : list ((Z * Z) * (Z * Z)) :=
  let nj := tm_nj m in let ni := tm_ni m in
  flat_map (fun j => map (fun i => ((j, i), (j, i + 1))) (zrange (ni - 1))) (zrange nj) ++
  flat_map (fun j => map (fun i => ((j, i), (j + 1, i))) (zrange ni)) (zrange (nj - 1)) ++
  flat_map (fun j => map (fun i => ((j, i + 1), (j + 1, i))) (zrange (ni - 1))) (every2 0 (nj - 1)) ++
  flat_map (fun j => map (fun i => ((j, i), (j + 1, i + 1))) (zrange (ni - 1))) (every2 1 (nj - 1)).
Definition at2 {A} (f : Z -> Z -> A) (n : Z * Z) : A := f (fst n) (snd n).
Definition crossing (v : Z -> Z -> Q) (e : (Z * Z) * (Z * Z)) : bool := (at2 v (fst e) * at2 v (snd e) <b 0)%Q.
Definition crossing_point (m : trimesh) (v : Z -> Z -> Q) (e : (Z * Z) * (Z * Z)) : vec :=
  let a := Qabs (at2 v (fst e)) in let b := Qabs (at2 v (snd e)) in
  vscale (1 / (a + b))%Q (vadd (vscale b (at2 (xyz m) (fst e))) (vscale a (at2 (xyz m) (snd e)))).
Definition edge_zero_crossings (m : trimesh) (z_values : option (Z -> Z -> Q)) : list vec :=
  let v := match z_values with Some v => v | None => fun j i => vz (xyz m j i) end in
  map (crossing_point m v) (filter (crossing v) (edges m)).
(* _tri_mesh.py:481-483, 531-567: axis 2 *)
Definition axial_edge_crossings_z (m : trimesh) (value : Q) : list vec :=
  let v j i := (vz (xyz m j i) - value)%Q in
  map (crossing_point m v) (filter (crossing v) (edges m)).
(* _tri_mesh.py:513-529, 567: axis 1; pp is not set if yr is zero *)
Definition axial_edge_crossings_y (m : trimesh) (value : Q) : res (list vec) :=
  let u := (tm_t m * tm_h m)%Q in
  let j := Qfloor (value / u) in
  let yr := (value - inject_Z j * u)%Q in
  if (0 <=? j) && (inject_Z j + yr <=b inject_Z (tm_nj m - 1) * tm_t m * tm_h m)%Q then
    if Qeq_bool yr 0 then Err NameError
    else if j + 1 >=? tm_nj m then Err IndexError
    else
      let yrp := (yr / u)%Q in
      let mix a b := vadd (vscale (1 - yrp)%Q (at2 (xyz m) a)) (vscale yrp (at2 (xyz m) b)) in
      Ok (map (fun i => mix (j, i) (j + 1, i)) (zrange (tm_ni m)) ++
          map (fun i => if odd j then mix (j, i + 1) (j + 1, i) else mix (j, i) (j + 1, i + 1)) (zrange (tm_ni m - 1)))
  else Ok [].
