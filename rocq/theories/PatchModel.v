(** PatchModel.v: patches of triangles made from meshes and cells, trimmed patches and combined surfaces.  Models
    resqpy/surface/_triangulated_patch.py, the joining of patches in resqpy/surface/_surface.py and
    resqpy/surface/_combined_surface.py. *)
From Verif Require Import Base QBase IntersectModel.
Open Scope Z_scope.

Definition tri := (Z * Z * Z)%type.
(** The attributes of a patch set by the functions below; [None] for an attribute left as None. *)
Record patch := Patch {
  p_tris : list tri;            (* triangles *)
  p_points : list vec;
  p_nodes : Z;                  (* node_count *)
  p_count : Z;                  (* triangle_count *)
  p_quad : option bool;         (* quad_triangles *)
  p_ni : option Z }.
(* 0.25 * the sum of four points *)
Definition mean4 (a b c d : vec) : vec := vscale (1 # 4) (vadd (vadd (vadd a b) c) d).
(* an array of triangles of shape (nj, ni, -1, 3), or of points of shape (nj, ni, -1, 3), flattened *)
Definition flat2 {A} (nj ni : Z) (f : Z -> Z -> list A) : list A := flat_map (fun j => flat_map (f j) (zrange ni)) (zrange nj).

(* _triangulated_patch.py:283-324.  The mesh has nj by ni nodes; t_type is not modelled. *)
Definition set_from_irregular_mesh (nj ni : Z) (mesh : Z -> Z -> vec) (quad : bool) : res patch :=
  do _ <- assert_ ((nj >? 1) && (ni >? 1));
  let nodes := flat2 nj ni (fun j i => [mesh j i]) in
  if quad then
    let centres := flat2 (nj - 1) (ni - 1) (fun j i => [mean4 (mesh j i) (mesh j (i + 1)) (mesh (j + 1) i) (mesh (j + 1) (i + 1))]) in
    let mesh_size := nj * ni in
    let nic := ni - 1 in
    let c j i := mesh_size + j * nic + i in
    Ok (Patch (flat2 (nj - 1) nic (fun j i =>
                 [(c j i, j * ni + i, j * ni + i + 1);
                  (c j i, j * ni + i + 1, (j + 1) * ni + i + 1);
                  (c j i, (j + 1) * ni + i + 1, (j + 1) * ni + i);
                  (c j i, (j + 1) * ni + i, j * ni + i)]))
              (nodes ++ centres) (nj * ni + (nj - 1) * (ni - 1)) (4 * (nj - 1) * (ni - 1)) (Some true) (Some (ni - 1)))
  else
    Ok (Patch (flat2 (nj - 1) (ni - 1) (fun j i =>
                 [(j * ni + i, j * ni + i + 1, (j + 1) * ni + i); ((j + 1) * ni + i + 1, j * ni + i + 1, (j + 1) * ni + i)]))
              nodes (nj * ni) (2 * (nj - 1) * (ni - 1)) (Some false) (Some (ni - 1))).

(* _triangulated_patch.py:393-435.  The mesh has nj by ni quadrilaterals, each with its own corners. *)
Definition set_from_torn_mesh (nj ni : Z) (mesh : Z -> Z -> Z -> Z -> vec) (quad : bool) : res patch :=
  do _ <- assert_ ((nj >? 0) && (ni >? 0));
  let nodes := flat2 nj ni (fun j i => [mesh j i 0 0; mesh j i 0 1; mesh j i 1 0; mesh j i 1 1]) in
  let b j i := 4 * (j * ni + i) in
  if quad then
    let centres := flat2 nj ni (fun j i => [mean4 (mesh j i 0 0) (mesh j i 0 1) (mesh j i 1 0) (mesh j i 1 1)]) in
    let mesh_size := nj * ni * 4 in
    let c j i := mesh_size + j * ni + i in
    Ok (Patch (flat2 nj ni (fun j i => [(c j i, b j i, b j i + 1); (c j i, b j i + 1, b j i + 3); (c j i, b j i + 3, b j i + 2); (c j i, b j i + 2, b j i)]))
              (nodes ++ centres) (5 * nj * ni) (4 * nj * ni) (Some true) (Some ni))
  else
    Ok (Patch (flat2 nj ni (fun j i => [(b j i, b j i + 1, b j i + 2); (b j i + 3, b j i + 1, b j i + 2)]))
              nodes (4 * nj * ni) (2 * nj * ni) (Some false) (Some ni)).

(* _triangulated_patch.py:437-468, of one index *)
Definition column_from_triangle_index (p : patch) (t : Z) : option (Z * Z) :=
  match p_quad p, p_ni p with
  | Some quad, Some ni =>
      if t >=? p_count p then None else
      let face := if quad then t / 4 else t / 2 in Some (face / ni, face mod ni)
  | _, _ => None
  end.

(* _triangulated_patch.py:375-391.  None is a point with nan for z. *)
Definition defined (nj ni : Z) (mesh : Z -> Z -> option vec) : list (Z * Z * vec) :=
  flat2 nj ni (fun j i => match mesh j i with Some v => [(j, i, v)] | None => [] end).
Definition sparse_indices (l : list (Z * Z * vec)) : Z -> Z -> Z :=
  fst (fold_left (fun '(ix, n) '(j, i, _) => ((fun j' i' => if (j' =? j) && (i' =? i) then n else ix j' i'), n + 1)) l (fun _ _ => -1, 0)).
(* _triangulated_patch.py:326-373; RuntimeError stands for the exception of line 370 *)
Definition sparse_block (mesh : Z -> Z -> option vec) (ix : Z -> Z -> Z) (j i : Z) : res (list tri) :=
  let nan o := match o : option vec with None => 1 | Some _ => 0 end in
  let nan_nodes := nan (mesh j i) + nan (mesh j (i + 1)) + nan (mesh (j + 1) i) + nan (mesh (j + 1) (i + 1)) in
  if nan_nodes >? 1 then Ok []
  else if nan_nodes =? 0 then Ok [(ix j i, ix j (i + 1), ix (j + 1) i); (ix (j + 1) (i + 1), ix j (i + 1), ix (j + 1) i)]
  else if ix j i <? 0 then Ok [(ix j (i + 1), ix (j + 1) i, ix (j + 1) (i + 1))]
  else if ix j (i + 1) <? 0 then Ok [(ix j i, ix (j + 1) i, ix (j + 1) (i + 1))]
  else if ix (j + 1) i <? 0 then Ok [(ix j (i + 1), ix j i, ix (j + 1) (i + 1))]
  else if ix (j + 1) (i + 1) <? 0 then Ok [(ix j (i + 1), ix (j + 1) i, ix j i)]
  else Err RuntimeError.
Fixpoint concat_res {A} (l : list (res (list A))) : res (list A) :=
  match l with [] => Ok [] | r :: rest => do x <- r; do y <- concat_res rest; Ok (x ++ y) end.
Definition set_from_sparse_mesh (nj ni : Z) (mesh : Z -> Z -> option vec) : res patch :=
  do _ <- assert_ ((nj >? 1) && (ni >? 1));
  let d := defined nj ni mesh in
  let ix := sparse_indices d in
  do triangles <- concat_res (flat2 (nj - 1) (ni - 1) (fun j i => [sparse_block mesh ix j i]));
  Ok (Patch triangles (map snd d) (Z.of_nat (List.length d)) (Z.of_nat (List.length triangles)) (Some false) None).

(** ** Trimming *)
Definition in_box (b : vec * vec) (p : vec) : bool :=
  (vx (fst b) <=b vx p)%Q && (vy (fst b) <=b vy p)%Q && (vz (fst b) <=b vz p)%Q &&
  (vx p <=b vx (snd b))%Q && (vy p <=b vy (snd b))%Q && (vz p <=b vz (snd b))%Q.
Definition znth {A} (l : list A) (z : Z) : option A := if z <? 0 then None else nth_error l (Z.to_nat z).
(* the position of a value in a list without repetitions: p_map *)
Fixpoint position (l : list Z) (k n : Z) : Z := match l with [] => -1 | x :: r => if x =? k then n else position r k (n + 1) end.
Definition t_any (f : Z -> bool) (t : tri) : bool := let '(a, b, c) := t in f a || f b || f c.
Definition t_all (f : Z -> bool) (t : tri) : bool := let '(a, b, c) := t in f a && f b && f c.
Definition t_map (f : Z -> Z) (t : tri) : tri := let '(a, b, c) := t in (f a, f b, f c).
(* _triangulated_patch.py:116-173.  The polygon test is any predicate.  np.unique gives the point indices used, in
   order: node indices of the larger patch are taken to be in range, else IndexError (numpy would wrap negative ones) *)
Definition set_to_trimmed_patch (large : patch) (xyz_box : option (vec * vec)) (xy_polygon : option (vec -> bool)) (internal : bool) : res patch :=
  do _ <- assert_ (match xyz_box, xy_polygon with None, None => false | _, _ => true end);
  let large_p := p_points large in let large_t := p_tris large in
  let n := Z.of_nat (List.length large_p) in
  do _ <- (if forallb (t_all (fun a => (0 <=? a) && (a <? n))) large_t then Ok tt else Err IndexError);
  let inside p := match xyz_box with Some b => in_box b p | None => true end && match xy_polygon with Some f => f p | None => true end in
  let points_in k := match znth large_p k with Some p => inside p | None => false end in
  let t_trim := filter (if internal then t_all points_in else t_any points_in) large_t in
  let p_keep := filter (fun k => existsb (t_any (Z.eqb k)) t_trim) (zrange n) in
  let points_trimmed := flat_map (fun k => match znth large_p k with Some p => [p] | None => [] end) p_keep in
  let triangles_trimmed := map (t_map (fun k => position p_keep k 0)) t_trim in
  do _ <- assert_ (forallb (t_all (fun a => a >=? 0)) triangles_trimmed);
  do _ <- assert_ (forallb (t_all (fun a => a <? Z.of_nat (List.length points_trimmed))) triangles_trimmed);
  Ok (Patch triangles_trimmed points_trimmed (Z.of_nat (List.length points_trimmed)) (Z.of_nat (List.length triangles_trimmed)) None None).

(** ** Combining *)
(* _surface.py:303-312 and _combined_surface.py:66-76: the arrays of each patch or surface in turn *)
Definition combined (l : list (list tri * list vec)) : option (list tri * list vec) :=
  fst (fold_left (fun '(acc, off) '(t, p) =>
        (match acc with
         | Some (ts, ps) => if off =? 0 then Some (t, p) else Some (ts ++ map (t_map (fun k => k + off)) t, ps ++ p)
         | None => Some (t, p)
         end, off + Z.of_nat (List.length p))) l (None, 0)).
(* _combined_surface.py:51-61 *)
Fixpoint surface_index_for_triangle_index (counts : list Z) (s_i tri_index : Z) : option (Z * Z) :=
  match counts with
  | [] => None
  | n :: rest => if tri_index <? n then Some (s_i, tri_index) else surface_index_for_triangle_index rest (s_i + 1) (tri_index - n)
  end.

(** ** The faces of a cell *)
(* ip1 and ip2 *)
Definition steps (axis : Z) : Z * Z := if axis =? 0 then (2, 1) else if axis =? 1 then (4, 1) else (4, 2).
(* _triangulated_patch.py:470-539 *)
Definition set_to_cell_faces_from_corner_points (cp : Z -> Z -> Z -> vec) (quad : bool) : patch :=
  let corners := flat_map (fun k => flat_map (fun j => map (cp k j) [0; 1]) [0; 1]) [0; 1] in
  let face f := let '(axis, ip) := f : Z * Z in
    let '(ip1, ip2) := steps axis in
    let ips := -2 * ip + 1 in let base_p := 7 * ip in
    if quad then
      let c := 8 + 2 * axis + ip in
      [(c, base_p, base_p + ips * ip2); (c, base_p + ips * ip2, base_p + ips * (ip1 + ip2));
       (c, base_p + ips * (ip1 + ip2), base_p + ips * ip1); (c, base_p + ips * ip1, base_p)]
    else [(base_p, base_p + ips * (ip1 + ip2), base_p + ips * ip2); (base_p, base_p + ips * (ip1 + ip2), base_p + ips * ip1)] in
  let faces := flat_map face [(0, 0); (0, 1); (1, 0); (1, 1); (2, 0); (2, 1)] in
  if quad then
    let sum4 f := mean4 (f 0 0) (f 0 1) (f 1 0) (f 1 1) in
    Patch faces (corners ++ [sum4 (cp 0); sum4 (cp 1); sum4 (fun k => cp k 0); sum4 (fun k => cp k 1); sum4 (fun k j => cp k j 0); sum4 (fun k j => cp k j 1)])
          14 24 (Some true) None
  else Patch faces corners 8 12 (Some false) None.
(* _triangulated_patch.py:541-553 *)
Definition face_from_triangle_index (p : patch) (t : Z) : res (Z * Z) :=
  match p_quad p with
  | Some true =>
      do _ <- assert_ ((p_nodes p =? 30) && (p_count p =? 24));
      do _ <- assert_ ((0 <=? t) && (t <? 24));
      Ok (t / 4 / 2, (t / 4) mod 2)
  | _ =>
      do _ <- assert_ ((p_nodes p =? 24) && (p_count p =? 12));
      do _ <- assert_ ((0 <=? t) && (t <? 12));
      Ok (t / 2 / 2, (t / 2) mod 2)
  end.
(* _surface.py:862-880; quad is that of the first patch *)
Definition cell_axis_and_polarity_from_triangle_index (quad : bool) (t : Z) : Z * Z * Z :=
  let face_index := t / (if quad then 4 else 2) in
  (face_index / 6, face_index mod 6 / 2, (face_index mod 6) mod 2).
