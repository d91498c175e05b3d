(** RefineModel.v: the geometry of refined and coarsened grids.  Models
    resqpy/derived_model/_refined_grid.py and _coarsened_grid.py, with the mappings of FineCoarseModel.v and
    the grids of PointsModel.v. *)
From Verif Require Import Base QBase BoxModel FineCoarseModel IntersectModel PillarModel PointsModel.
Open Scope Z_scope.

(** ** Refinement of an unfaulted grid *)
(* _refined_grid.py:230-316: the loop over the coarse cells of one axis.  For each line (row, in K) of the refined
   grid the coarse cell and the fraction across it; the numbers of the fine layers followed by a gap; the raw
   indices of the fine layers; and the counts of fine cells and of gaps.  In J and I there are no gaps. *)
Fixpoint axis_loop (a : axdata) (gap : Z -> bool) (cs : list Z) (f0 gaps : Z) : res (list (Z * Q) * list Z * list Z * (Z * Z)) :=
  match cs with
  | [] => Ok ([], [], [], (f0, gaps))
  | c :: cs' =>
      do r <- ratio a c;
      do fs <- interpolation a c;
      do rest <- axis_loop a gap cs' (f0 + r) (if gap c then gaps + 1 else gaps);
      let '(ls, ids, raws, e) := rest in
      Ok (map (fun f => (c, f)) fs ++ (if gap c then [(c, 1%Q)] else []) ++ ls,
          (if gap c then [f0 + r - 1] else []) ++ ids,
          map (fun l => f0 + l + gaps) (zrange r) ++ raws, e)
  end.
(* the line at an entry: of the last cell, its end; otherwise between the start and end of its cell.
   _refined_grid.py:258-263, 272-276, 287-290, 306-309 *)
Definition between (n : Z) (top base : Z -> vec) (e : Z * Q) : vec :=
  if fst e =? n then base (n - 1) else vadd (vscale (snd e) (base (fst e))) (vscale (1 - snd e)%Q (top (fst e))).
(* _refined_grid.py:196-329, without storage and crs; the new grid and its k_raw_index_array *)
Definition refined_unfaulted (g : geo) (s : fc) : res (geo * list Z) :=
  let ak := tk (ax s) in let aj := tj (ax s) in let ai := ti (ax s) in
  let gap c := match g_gap_after g with Some l => (c <? coarse ak - 1) && nth (Z.to_nat c) l false | None => false end in
  do ki <- axis_loop ak gap (zrange (coarse ak)) 0 0;
  do ji <- axis_loop aj (fun _ => false) (zrange (coarse aj)) 0 0;
  do ii <- axis_loop ai (fun _ => false) (zrange (coarse ai)) 0 0;
  let '(kls, ids, raws, (fk, gaps)) := ki in
  let '(jls, _, _, (fj, _)) := ji in
  let '(ils, _, _, (fi, _)) := ii in
  do _ <- assert_ (fi + 1 =? fine ai + 1);
  do _ <- assert_ (fj + 1 =? fine aj + 1);
  do _ <- assert_ (fk + 1 =? fine ak + 1);
  do _ <- assert_ (fine ak + gaps =? fine ak + (nk_plus_k_gaps g - g_nk g));
  let kes := kls ++ [(coarse ak, 0%Q)] in
  let jes := jls ++ [(coarse aj, 0%Q)] in
  let ies := ils ++ [(coarse ai, 0%Q)] in
  let row c := if has_gaps g then raw g c else c in
  let k_plane e pj pi := between (coarse ak) (fun c => pts4 g (row c) pj pi) (fun c => pts4 g (row c + 1) pj pi) e in
  let j_line e e' pi := between (coarse aj) (fun c => k_plane e c pi) (fun c => k_plane e (c + 1) pi) e' in
  let pt r fj fi :=
    let ke := nth (Z.to_nat r) kes (0, 0%Q) in let je := nth (Z.to_nat fj) jes (0, 0%Q) in let ie := nth (Z.to_nat fi) ies (0, 0%Q) in
    between (coarse ai) (fun c => j_line ke je c) (fun c => j_line ke je (c + 1)) ie in
  let ni' := fine ai in
  Ok (Geo (SGrid (fine aj) ni' false [] [] []) (fine ak)
        (if has_gaps g then Some (map (fun i => existsb (Z.eqb i) ids) (zrange (fine ak - 1))) else None)
        (fun r p => pt r (p / (ni' + 1)) (p mod (ni' + 1))) None (Some (fun _ _ _ => true)),
      if has_gaps g then raws else []).

(** ** Refinement of a faulted grid *)
(* the coarse cell writing last to fine cell f of an axis, with its start and fractions.  _refined_grid.py:153-172 *)
Fixpoint writer (a : axdata) (cs : list Z) (f : Z) : res (option (Z * Z * list Q)) :=
  match cs with
  | [] => Ok None
  | c :: cs' =>
      do b <- fine_base_for_coarse_axial a c;
      do r <- ratio a c;
      do fs <- interpolation a c;
      do later <- writer a cs' f;
      match later with
      | Some w => Ok (Some w)
      | None => if (b <=? f) && (f <? b + r) then Ok (Some (c, b, fs ++ [1%Q])) else Ok None
      end
  end.
(* _refined_grid.py:149-188: fine_cp[fk, fj, fi, kp, jp, ip], None where nothing was written.  [cp] is the array of
   corner points of the source; shared_fine_points[l + kp] is the slice [:-1] or [1:]. *)
Definition refined_faulted_cp (g : geo) (s : fc) (fk fj fi kp jp ip : Z) : res (option vec) :=
  do cp <- all_corner_points g;
  do wk <- writer (tk (ax s)) (zrange (g_nk g)) fk;
  do wj <- writer (tj (ax s)) (zrange (nj g)) fj;
  do wi <- writer (ti (ax s)) (zrange (ni g)) fi;
  match wk, wj, wi with
  | Some (ck, bk, ks), Some (cj, bj, js), Some (ci, bi, is) =>
      let shared := interpolated_points (cp ck cj ci) ks js is in
      match nth_error shared (Z.to_nat (fk - bk + kp)) with
      | Some plane => match nth_error plane (Z.to_nat (fj - bj + jp)) with
          | Some row => Ok (nth_error row (Z.to_nat (fi - bi + ip)))
          | None => Ok None end
      | None => Ok None end
  | _, _, _ => Ok None
  end.

(** ** Coarsening *)
Fixpoint running (acc : Z) (rs : list Z) : list Z := match rs with [] => [acc] | r :: rs' => acc :: running (acc + r) rs' end.
(* _coarsened_grid.py:116-124, 130-134: the rows of points of the source taken, [n] being its number of layers *)
Definition coarse_rows (ak : axdata) (n : Z) : res (list Z) :=
  match cratio ak with
  | Some r => if r =? 0 then Err TypeError else
      (* source_points[0:nk + 1:r] *)
      let l := map (fun k => k * r) (zrange ((n + r) / r)) in
      if (Z.of_nat (List.length l) =? coarse ak + 1) then Ok l else Err ValueError
  | None => match vratio ak with
      | None => Err TypeError
      | Some v => let l := running 0 v in do _ <- assert_ (last l 0 =? n); Ok l
      end
  end.
(* _coarsened_grid.py:74, 85-88, 113-136.  fine_coarse.assert_valid and the infilling of missing geometry are not
   modelled; the points are those of a source defined everywhere. *)
Definition coarsened (g : geo) (s : fc) : res geo :=
  let ak := tk (ax s) in let aj := tj (ax s) in let ai := ti (ax s) in
  do _ <- assert_ (negb (g_has_split (gg g)));
  do _ <- assert_ (negb (has_gaps g));
  do _ <- assert_ ((fine ak =? g_nk g) && (fine aj =? nj g) && (fine ai =? ni g));
  do rows <- coarse_rows ak (g_nk g);
  let pillars := map (fun p => fine_for_coarse_natural_pillar_index s p) (zrange ((coarse aj + 1) * (coarse ai + 1))) in
  do _ <- (if forallb is_ok pillars then Ok tt else Err TypeError);
  Ok (Geo (SGrid (coarse aj) (coarse ai) false [] [] []) (coarse ak) None
        (fun r p => match fine_for_coarse_natural_pillar_index s p with
                    | Ok q => g_pts g (nth (Z.to_nat r) rows 0) q | Err _ => V 0 0 0 end) None (Some (fun _ _ _ => true))).
