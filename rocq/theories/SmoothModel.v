(** SmoothModel.v: the smoothing of scaled throws over neighbouring pillars.  Models _neighbourly_adjustment of
    resqpy/derived_model/_fault_throw_scaling.py. *)
From Verif Require Import Base QBase IntersectModel PillarModel PointsModel ThrowModel.
Open Scope Z_scope.

(* _fault_throw_scaling.py:310 *)
Definition offset_decay (cell_range : Z) : Q := ((inject_Z (2 ^ cell_range) - 1) / (inject_Z (2 ^ (cell_range + 1)) - 1))%Q.
(* _fault_throw_scaling.py:321-348: the lines that contribute, in order *)
Definition contributions (g : geo) (m : cpm_t) (adjusted : Z -> Z -> bool) (j i : Z) : list Z :=
  (if (0 <? i) && adjusted j (i - 1) then
     (if 0 <? j then [m (j - 1) (i - 1) 1 0] else []) ++ (if j <? nj g then [m j (i - 1) 0 0] else []) else []) ++
  (if (0 <? j) && adjusted (j - 1) i then
     (if 0 <? i then [m (j - 1) (i - 1) 0 1] else []) ++ (if i <? ni g then [m (j - 1) i 0 0] else []) else []) ++
  (if (i <? ni g) && adjusted j (i + 1) then
     (if 0 <? j then [m (j - 1) i 1 1] else []) ++ (if j <? nj g then [m j i 0 1] else []) else []) ++
  (if (j <? nj g) && adjusted (j + 1) i then
     (if 0 <? i then [m j (i - 1) 1 1] else []) ++ (if i <? ni g then [m j i 1 0] else []) else []).
Definition qsum (l : list Q) : Q := fold_right Qplus 0%Q l.
(* _fault_throw_scaling.py:314-357 for one pillar.  A pillar is moved at most once in a pass, so that its points here are those
   before the pass; division by the height of a pillar without height gives nan or infinity: not modelled. *)
Definition adjust_pillar (g : geo) (m : cpm_t) (decay : Q) (adjusted : Z -> Z -> bool) (st : (Z -> vec) * list (Z * Z)) (ji : Z * Z)
    : (Z -> vec) * list (Z * Z) :=
  let '(offsets, newly) := st in
  let '(j, i) := ji in
  if adjusted j i then st
  else
    let p := j * (ni g + 1) + i in
    if in_spi g p then st
    else match contributions g m adjusted j i with
         | [] => st
         | l =>
             let top := g_pts g 0 p in let bot := g_pts g (g_nk g) p in
             let z := (decay * qsum (map (fun n => vz (offsets n)) l) / inject_Z (Z.of_nat (List.length l)))%Q in
             let v := V (z * ((vx bot - vx top) / (vz bot - vz top))) (z * ((vy bot - vy top) / (vz bot - vz top))) z in
             (fun n => if n =? p then v else offsets n, (j, i) :: newly)
         end.
(* _fault_throw_scaling.py:311-358: a pass over the pillars; the points of newly adjusted pillars are moved by their offsets *)
Definition neighbourly_adjustment (g : geo) (m : cpm_t) (cell_range : Z) (adjusted : Z -> Z -> bool) (offsets : Z -> vec) : (Z -> vec) * list (Z * Z) :=
  fold_left (adjust_pillar g m (offset_decay cell_range) adjusted) (list_prod (zrange (nj g + 1)) (zrange (ni g + 1))) (offsets, []).
