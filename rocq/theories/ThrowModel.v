(** ThrowModel.v: grids derived from others by interpolation, by healing faults and by scaling their throws.  Models parts
    of resqpy/derived_model/_interpolated_grid.py, _unsplit_grid.py and _fault_throw_scaling.py, on the geometry of
    PointsModel.v.  Properties, titles and the writing of the new grid are left out. *)
From Verif Require Import Base QBase IntersectModel PillarModel PointsModel.
Open Scope Z_scope.

Fixpoint same_list (a b : list Z) : bool :=
  match a, b with [], [] => true | x :: a, y :: b => (x =? y) && same_list a b | _, _ => false end.
(* _interpolated_grid.py:119-136; nothing is compared of grids that are both unfaulted *)
Definition work_from_pillars (ga gb : geo) : bool :=
  let a := gg ga in let b := gg gb in
  if negb (g_has_split a) && negb (g_has_split b) then true
  else g_has_split a && g_has_split b && (nk_plus_k_gaps ga =? nk_plus_k_gaps gb)
       && same_list (g_spi a) (g_spi b) && same_list (g_cols a) (g_cols b) && same_list (g_cl a) (g_cl b).
(* _interpolated_grid.py:61-112, 139-173: None where the work is done from corner points, which is not modelled.  Handedness,
   k direction, pillar shape and crs are taken to agree.  Arrays with different numbers of rows cannot be added.  The new grid
   is made without k gaps. *)
Definition interpolated_grid (ga gb : geo) (b_weight : Q) : res (option geo) :=
  do _ <- assert_ ((0 <=b b_weight)%Q && (b_weight <=b 1)%Q);
  do _ <- assert_ ((g_nk ga =? g_nk gb) && (nj ga =? nj gb) && (ni ga =? ni gb));
  let a_weight := (1 - b_weight)%Q in
  do _ <- assert_ (match g_cdef ga, g_cdef gb with None, None => true | _, _ => false end);
  if negb (work_from_pillars ga gb) then Ok None
  else if negb (nk_plus_k_gaps ga =? nk_plus_k_gaps gb) then Err ValueError
  else Ok (Some (Geo (gg ga) (g_nk ga) None
              (fun r p => vadd (vscale a_weight (g_pts ga r p)) (vscale b_weight (g_pts gb r p))) None None)).

(* _unsplit_grid.py:50-77: the points are those of the healed grid, and the arrays of split pillars are dropped *)
Definition unsplit_grid (g : geo) : res geo :=
  do _ <- assert_ (g_has_split (gg g));
  do u <- unsplit_points_ref g;
  do _ <- assert_ (nk_plus_k_gaps g =? g_nk g);
  Ok (Geo (SGrid (nj g) (ni g) false [] [] []) (g_nk g) (g_gap_after g)
        (fun r p => u r (p / (ni g + 1)) (p mod (ni g + 1))) (g_pdef g) (g_cdef g)).

(** ** Scaling of throws *)
Definition primaries (g : geo) : Z := (nj g + 1) * (ni g + 1).
Definition in_spi (g : geo) (p : Z) : bool := existsb (Z.eqb p) (g_spi (gg g)).
(** a point of an array of shape (rows, primaries, 3) made from one of shape (rows, nj + 1, ni + 1, 3) *)
Definition flat_pillars (g : geo) (u : Z -> Z -> Z -> vec) (r p : Z) : vec := u r (p / (ni g + 1)) (p mod (ni g + 1)).
(* _fault_throw_scaling.py:249-266, without nan.  The reshape of line 252 fails or mixes up rows if there are k gaps: not
   modelled. *)
Definition offsets_by_factor (g : geo) (scaling_factor : Q) (ref_k0 : Z) : res (Z -> vec) :=
  do u <- unsplit_points_ref g;
  if has_gaps g then Err NotImplementedError
  else
    let unsplit := flat_pillars g u ref_k0 in
    let semi_throw p :=
      if p <? primaries g then (if in_spi g p then vsub (g_pts g ref_k0 p) (unsplit p) else V 0 0 0)
      else vsub (g_pts g ref_k0 p) (unsplit (nth (Z.to_nat (p - primaries g)) (g_spi (gg g)) 0)) in
    Ok (fun p => vscale (scaling_factor - 1)%Q (semi_throw p)).
(* _fault_throw_scaling.py:281-306: the pairs of pillars across the faces of a fault, in order *)
Definition pairs_of_kelp (m : cpm_t) (kelp_j kelp_i : list (Z * Z)) : list (Z * Z) :=
  flat_map (fun '(j, i) => map (fun ip => (m j i 1 ip, m (j + 1) i 0 ip)) [0; 1]) kelp_j
  ++ flat_map (fun '(j, i) => map (fun jp => (m j i jp 1, m j (i + 1) jp 0)) [0; 1]) kelp_i.
Definition set_offset (mid : vec) (f : Q) (pts : Z -> vec) (st : (Z -> vec) * list Z) (p : Z) : (Z -> vec) * list Z :=
  let '(offsets, p_list) := st in
  if existsb (Z.eqb p) p_list then st
  else (fun q => if q =? p then vscale (f - 1)%Q (vsub (pts p) mid) else offsets q, p :: p_list).
Definition scale_pair (f : Q) (pts : Z -> vec) (st : (Z -> vec) * list Z) (ab : Z * Z) : (Z -> vec) * list Z :=
  let '(a, b) := ab in
  let mid := vscale (1 # 2) (vadd (pts a) (pts b)) in
  set_offset mid f pts (set_offset mid f pts st a) b.
(** a fault of a connection set: its factor in the dictionary, if it is there, and its faces *)
Record fault := Fault { f_scaling : option Q; f_kelp_j : list (Z * Z); f_kelp_i : list (Z * Z) }.
(* _fault_throw_scaling.py:269-306, without nan *)
Definition offsets_by_dict (g : geo) (m : cpm_t) (faults : list fault) (ref_k0 : Z) (offsets : Z -> vec) : Z -> vec :=
  fold_left (fun offsets f =>
    match f_scaling f with
    | None => offsets
    | Some s => if Qeq_bool s 1 then offsets
                else fst (fold_left (scale_pair s (g_pts g ref_k0)) (pairs_of_kelp m (f_kelp_j f) (f_kelp_i f)) (offsets, []))
    end) faults offsets.
(* _fault_throw_scaling.py:76-119 with cell_range 0.  ref_k0 is the reference row of points.  Adding to a selection of
   elements, as numpy does it, adds once to each. *)
Definition fault_throw_scaling (g : geo) (scaling_factor : option Q) (faults : option (list fault)) (ref_k0 : Z) : res geo :=
  do _ <- assert_ (g_has_split (gg g));
  do _ <- assert_ (match scaling_factor, faults with None, None => false | _, _ => true end);
  do _ <- assert_ ((0 <=? ref_k0) && (ref_k0 <=? g_nk g));
  do _ <- assert_ (match g_pdef g with None => true | _ => false end);
  do offsets <- match scaling_factor with Some s => offsets_by_factor g s ref_k0 | None => Ok (fun _ => V 0 0 0) end;
  do offsets <- match faults with
                | Some l => do m <- create_column_pillar_mapping (gg g); Ok (offsets_by_dict g m l ref_k0 offsets)
                | None => Ok offsets
                end;
  let pts r p := if (in_spi g p && (p <? primaries g)) || (primaries g <=? p) then vadd (g_pts g r p) (offsets p) else g_pts g r p in
  Ok (Geo (gg g) (g_nk g) (g_gap_after g) pts (g_pdef g) (g_cdef g)).
