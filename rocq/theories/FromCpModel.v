(** FromCpModel.v: making a grid from an array of corner points.  Models resqpy/rq_import/_grid_from_cp.py
    for arrays without nan and with geometry treated as defined everywhere (treat_as_nan None). *)
From Coq Require Import Qabs.
From Verif Require Import Base QBase IntersectModel PillarModel PointsModel.
Open Scope Z_scope.

(** the corner point array, of shape (nk, nj, ni, 2, 2, 2, 3), indexed k, j, i, kp, jp, ip *)
Definition cps := Z -> Z -> Z -> Z -> Z -> Z -> vec.
(* np.max(np.abs(...)) *)
Definition qmax (l : list Q) : Q := fold_right Qmaxb 0%Q l.
Definition comps (v : vec) : list Q := [Qabs (vx v); Qabs (vy v); Qabs (vz v)].
Definition corners4 (nj ni : Z) : list (Z * Z * (Z * Z)) :=
  flat_map (fun j => flat_map (fun i => map (fun q => (j, i, q)) [(0, 0); (0, 1); (1, 0); (1, 1)]) (zrange ni)) (zrange nj).

(** ** Voids between layers *)
(* _grid_from_cp.py:203 *)
Definition void (cp : cps) (k j i jp ip : Z) : vec := vsub (cp (k + 1) j i 0 jp ip) (cp k j i 1 jp ip).
(* _grid_from_cp.py:204, 219 *)
Definition layer_gap (cp : cps) (nj ni k : Z) : Q :=
  qmax (flat_map (fun c => let '(j, i, (jp, ip)) := c in comps (void cp k j i jp ip)) (corners4 nj ni)).
(* _grid_from_cp.py:195-238: k_gap_after_layer, and whether the void below layer k is closed.  Subtracting half of
   a void of zero is left in. *)
Definition check_for_kgaps (cp : cps) (nk nj ni : Z) (max_z_void : Q) : option (list bool) * (Z -> bool) :=
  if nk >? 1 then
    let max_gap := qmax (map (layer_gap cp nj ni) (zrange (nk - 1))) in
    if (max_z_void <b max_gap)%Q then
      (Some (map (fun k => (max_z_void <b layer_gap cp nj ni k)%Q) (zrange (nk - 1))),
       fun k => if (max_z_void <b layer_gap cp nj ni k)%Q then false else (0 <b layer_gap cp nj ni k)%Q)
    else if (0 <b max_gap)%Q then (None, fun _ => true)
    else (None, fun _ => false)
  else (None, fun _ => false).
(* _grid_from_cp.py:226-229, 235-238 *)
Definition close_gaps (cp : cps) (nk : Z) (closed : Z -> bool) : cps := fun k j i kp jp ip =>
  if kp =? 0 then
    if (0 <? k) && closed (k - 1) then vsub (cp k j i kp jp ip) (vscale (1 # 2) (void cp (k - 1) j i jp ip)) else cp k j i kp jp ip
  else
    if (k <? nk - 1) && closed k then vadd (cp k j i kp jp ip) (vscale (1 # 2) (void cp k j i jp ip)) else cp k j i kp jp ip.
(* _grid_from_cp.py:216-230, 551-552 *)
Fixpoint raw_index_loop (gaps : list bool) (k k_gaps : Z) : list Z :=
  match gaps with
  | [] => []
  | b :: gaps' => let k_gaps' := if b then k_gaps + 1 else k_gaps in (k + k_gaps') :: raw_index_loop gaps' (k + 1) k_gaps'
  end.
Definition raw_index (nk : Z) (gap_after : option (list bool)) : list Z :=
  match gap_after with None => zrange nk | Some l => 0 :: raw_index_loop l 0 0 end.
(* _grid_from_cp.py:240-270: the layer and side each row of points is taken from *)
Definition rows (nk : Z) (gap_after : option (list bool)) : list (Z * Z) :=
  (0, 0) ::
  match gap_after with
  | None => map (fun k => (k + 1, 0)) (zrange (nk - 1))
  | Some l => flat_map (fun k => if nth (Z.to_nat k) l false then [(k, 1); (k + 1, 0)] else [(k + 1, 0)]) (zrange (nk - 1))
  end ++ [(nk - 1, 1)].

(** ** Pillars *)
(* _grid_from_cp.py:272-293, of one pillar; the pillars do not affect one another *)
Definition primary (active : Z -> Z -> bool) (nj ni j i : Z) : Z * Z :=
  let jp := if j =? nj then 1 else 0 in let ip := if i =? ni then 1 else 0 in
  if active (j - jp) (i - ip) then (jp, ip)
  else if (0 <? i) && (ip =? 0) && active (j - jp) (i - 1) then (jp, 1)
  else if (0 <? j) && (jp =? 0) && active (j - 1) (i - ip) then (1, ip)
  else if (0 <? i) && (0 <? j) && (jp =? 0) && (ip =? 0) && active (j - 1) (i - 1) then (1, 1)
  else (jp, ip).
Section Pillars.
Context (red : Z -> Z -> Z -> Z -> Z -> vec) (nrows nj ni : Z) (active : Z -> Z -> bool) (tol : Q).
(* _grid_from_cp.py:323-325, 332-335: the corners (jp, ip) and (jp', ip') of columns around pillar (j, i) *)
Definition discrepancy (j i : Z) (q q' : Z * Z) : Q :=
  qmax (flat_map (fun r => comps (vsub (red r (j - fst q) (i - snd q) (fst q) (snd q)) (red r (j - fst q') (i - snd q') (fst q') (snd q')))) (zrange nrows)).
(* _grid_from_cp.py:328-338 *)
Fixpoint first_near (j i : Z) (q : Z * Z) (l : list (Z * Z)) (e : Z) : Z :=
  match l with
  | [] => -1
  | q' :: l' => if (discrepancy j i q q' <=b tol)%Q then e else first_near j i q l' (e + 1)
  end.
Definition upd_use (u : Z * Z -> Z) (q : Z * Z) (e : Z) : Z * Z -> Z :=
  fun q' => if (fst q' =? fst q) && (snd q' =? snd q) then e else u q'.
(* _grid_from_cp.py:317-346, 353-359: one column around pillar (j, i); the extras of the pillar, and which of them
   each column uses.  extras_count and extras_list_index are the length and place of the pillar's part of
   extras_list. *)
Definition append_single (j i : Z) (s : list (Z * Z) * (Z * Z -> Z)) (q : Z * Z) : list (Z * Z) * (Z * Z -> Z) :=
  let '(exs, use) := s in
  let col_j := j - fst q in let col_i := i - snd q in
  let prim := primary active nj ni j i in
  if (col_j <? 0) || (nj <=? col_j) then s
  else if (col_i <? 0) || (ni <=? col_i) then s
  else if (fst q =? fst prim) && (snd q =? snd prim) then s
  else if (discrepancy j i q prim <=b tol)%Q then s
  else
    let e := first_near j i q exs 0 in
    if 0 <=? e then (exs, upd_use use q e)
    else (exs ++ [q], upd_use use q (Z.of_nat (List.length exs))).
Definition pillar_extras (split : bool) (j i : Z) : list (Z * Z) * (Z * Z -> Z) :=
  if split then fold_left (append_single j i) [(0, 0); (0, 1); (1, 0); (1, 1)] ([], fun _ => -1) else ([], fun _ => -1).
(* _grid_from_cp.py:438-448 *)
Definition users (split : bool) (j i e : Z) : list Z :=
  flat_map (fun q : Z * Z =>
    let cj := j - fst q in let ci := i - snd q in
    if (cj <? 0) || (nj <=? cj) || (ci <? 0) || (ni <=? ci) then []
    else if snd (pillar_extras split j i) q =? e then [cj * ni + ci] else []) [(0, 0); (0, 1); (1, 0); (1, 1)].
(* the loops over pillars (_grid_from_cp.py:309-310, 386-387, 397-399, 460-462) and over the extras of each *)
Definition all_pillars : list (Z * Z) := flat_map (fun j => map (fun i => (j, i)) (zrange (ni + 1))) (zrange (nj + 1)).
Definition tags_of (split : bool) (ps : list (Z * Z)) : list (Z * Z * Z) :=
  flat_map (fun p => map (fun e => (fst p, snd p, e)) (zrange (Z.of_nat (List.length (fst (pillar_extras split (fst p) (snd p))))))) ps.
End Pillars.
Fixpoint cumulative (acc : Z) (l : list (list Z)) : list Z :=
  match l with [] => [] | c :: l' => let acc' := acc + Z.of_nat (List.length c) in acc' :: cumulative acc' l' end.

(** ** The grid *)
Record from_cp := FromCp {
  f_geo : geo;
  f_raw : list Z;         (* grid.k_raw_index_array *)
  f_pfc : cpm_t }.        (* grid.pillars_for_column *)
(* _grid_from_cp.py:525-591 in all; points 361-408, split arrays 453-473, mapping 475-488.  The assertions comparing
   the lengths of lists built together (382, 465-471) are left out, as is handedness.  [active] is
   active_mask_2D. *)
Definition grid_from_cp (cp : cps) (nk nj ni : Z) (active : Z -> Z -> bool) (max_z_void tol : Q) (split_pillars : bool) : res from_cp :=
  let '(gap_after, closed) := check_for_kgaps cp nk nj ni max_z_void in
  let cp' := close_gaps cp nk closed in
  let rs := rows nk gap_after in
  let red r j i jp ip := let '(k, kp) := nth (Z.to_nat r) rs (0, 0) in cp' k j i kp jp ip in
  let nrows := Z.of_nat (List.length rs) in
  let pe := pillar_extras red nrows nj ni active tol split_pillars in
  let tags ps := tags_of red nrows nj ni active tol split_pillars ps in
  let all := tags (all_pillars nj ni) in
  let split := split_pillars && negb (Z.of_nat (List.length all) =? 0) in
  let us := map (fun t => let '(j, i, e) := t in users red nrows nj ni active tol split_pillars j i e) all in
  do _ <- (if split then assert_ (forallb (fun u => 0 <? Z.of_nat (List.length u)) us) else Ok tt);
  let pts r n :=
    if n <? (nj + 1) * (ni + 1) then
      let j := n / (ni + 1) in let i := n mod (ni + 1) in
      let q := primary active nj ni j i in red r (j - fst q) (i - snd q) (fst q) (snd q)
    else
      let '(j, i, e) := nth (Z.to_nat (n - (nj + 1) * (ni + 1))) all (0, 0, 0) in
      let q := nth (Z.to_nat e) (fst (pe j i)) (0, 0) in
      red r (j - fst q) (i - snd q) (fst q) (snd q) in
  let sg := if split then SGrid nj ni true (map (fun t => let '(j, i, _) := t in j * (ni + 1) + i) all) (List.concat us) (cumulative 0 us)
            else SGrid nj ni false [] [] [] in
  let pfc j i jp ip :=
    let u := snd (pe (j + jp) (i + ip)) (jp, ip) in
    if negb split || (u <? 0) then (j + jp) * (ni + 1) + i + ip
    else (nj + 1) * (ni + 1) + (Z.of_nat (List.length (tags (firstn (Z.to_nat ((j + jp) * (ni + 1) + (i + ip))) (all_pillars nj ni)))) + u) in
  Ok (FromCp (Geo sg nk gap_after pts None None) (raw_index nk gap_after) pfc).
