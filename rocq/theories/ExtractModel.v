(** ExtractModel.v: the extraction of a box of cells as a grid.  Models
    resqpy/derived_model/_extract_box.py, on the grids of PointsModel.v. *)
From Verif Require Import Base QBase BoxModel IntersectModel PillarModel PointsModel.
Open Scope Z_scope.

Definition mask := Z -> Z -> Z -> bool.
(** what extraction reads of a grid and gives it back: its geometry and its mask of inactive cells *)
Record egrid := EGrid { e_geo : geo; e_inactive : option mask }.

(* _extract_box.py:170-171: element [k, j, i] of the copied slice of a 3-D array *)
Definition array_box3 {A} (a : Z -> Z -> Z -> A) (b : box) : Z -> Z -> Z -> A :=
  fun k j i => a (tk (lo b) + k) (tj (lo b) + j) (ti (lo b) + i).
(* _extract_box.py:174-181 is not called.  184-191 *)
Definition local_pillar_index (ni : Z) (b : box) (p : Z) : option Z :=
  let p_j := p / (ni + 1) - tj (lo b) in
  let p_i := p mod (ni + 1) - ti (lo b) in
  if (p_j <? 0) || (p_i <? 0) || (tj (hi b) - tj (lo b) + 1 <? p_j) || (ti (hi b) - ti (lo b) + 1 <? p_i) then None
  else Some (p_j * (ti (hi b) - ti (lo b) + 2) + p_i).
(* _extract_box.py:194-206 *)
Definition cols_for_pillar (nj ni p : Z) : list Z :=
  let p_j := p / (ni + 1) in let p_i := p mod (ni + 1) in
  [ if (0 <? p_j) && (0 <? p_i) then (p_j - 1) * ni + p_i - 1 else -1;
    if (0 <? p_j) && (p_i <? ni) then (p_j - 1) * ni + p_i else -1;
    if (p_j <? nj) && (0 <? p_i) then p_j * ni + p_i - 1 else -1;
    if (p_j <? nj) && (p_i <? ni) then p_j * ni + p_i else -1 ].

(* _extract_box.py:209-221.  The raw indices are those of [raw_loop]; k_offset is what that loop adds up. *)
Definition inherit_k_gaps (gaps : option (list bool)) (b : box) : res (option (list bool)) :=
  match gaps with
  | Some l =>
      if tk (lo b) <? tk (hi b) then
        let s := firstn (Z.to_nat (tk (hi b) - tk (lo b))) (skipn (Z.to_nat (tk (lo b))) l) in
        let k_gaps := List.length (filter (fun x => x) s) in
        if (0 <? k_gaps)%nat then
          let nk := tk (hi b) - tk (lo b) + 1 in
          let k_offset := List.length (filter (fun x => x) (firstn (Z.to_nat (nk - 1)) s)) in
          do _ <- assert_ (k_offset =? k_gaps)%nat; Ok (Some s)
        else Ok None
      else Ok None
  | None => Ok None
  end.
(* _extract_box.py:224-238 *)
Definition extract_inactive (src given : option mask) (b : box) : option mask :=
  match src, given with
  | None, None => None
  | None, Some m => Some m
  | Some s, None => Some (array_box3 s b)
  | Some s, Some m => Some (fun k j i => array_box3 s b k j i || m k j i)
  end.

(** The copied points are recorded as the pillars of the source they are copied from: [base lp] for the
    primary pillar lp of the new grid, and for each extra pillar the primary pillar it doubles, its
    columns and its source.  _extract_box.py:281-283 fills the cumulative lengths, and [of_extras] below
    is the same arrays. *)
Record splits := Splits { base : Z -> Z; extra : list (Z * list Z * Z) }.
(* np.unique of the four, -1 taken off: the values are -1, p and n, with -1 < p < n *)
Definition unique_pis (source_pis : list Z) (p n : Z) : list Z :=
  filter (fun x => existsb (Z.eqb x) source_pis) [p; n].
(* _extract_box.py:285-330: the body of the loop over extra pillars *)
Definition one_split (nj ni nj' ni' : Z) (b : box) (index : Z) (x : Z * list Z) (s : splits) : splits :=
  let source_pi := fst x in
  match local_pillar_index ni b source_pi with
  | None => s
  | Some local_pi =>
      let n := (nj + 1) * (ni + 1) + index in
      let cols := cols_for_pillar nj ni source_pi in
      let local_cols := cols_for_pillar nj' ni' local_pi in
      let source_pis := map (fun cl => if snd cl <? 0 then -1 else if existsb (Z.eqb (fst cl)) (snd x) then n else source_pi)
                            (combine cols local_cols) in
      match unique_pis source_pis source_pi n with
      | [] => s
      | u :: us =>
          Splits (fun lp => if lp =? local_pi then u else base s lp)
            (extra s ++ map (fun v => (local_pi,
               map snd (filter (fun pc => (fst pc =? v) && (0 <=? snd pc)) (combine source_pis local_cols)), v)) us)
      end
  end.
Fixpoint all_splits (nj ni nj' ni' : Z) (b : box) (index : Z) (xs : list (Z * list Z)) (s : splits) : splits :=
  match xs with
  | [] => s
  | x :: xs' => all_splits nj ni nj' ni' b (index + 1) xs' (one_split nj ni nj' ni' b index x s)
  end.
(** the jagged array of columns as a list of lists *)
Fixpoint jagged (start : Z) (spi cl : list Z) (cols : list Z) : list (Z * list Z) :=
  match spi, cl with
  | p :: spi', f :: cl' =>
      (p, firstn (Z.to_nat (f - start)) cols) :: jagged f spi' cl' (skipn (Z.to_nat (f - start)) cols)
  | _, _ => []
  end.
Fixpoint cumulative (acc : Z) (xs : list (list Z)) : list Z :=
  match xs with [] => [] | c :: xs' => (acc + Z.of_nat (List.length c)) :: cumulative (acc + Z.of_nat (List.length c)) xs' end.

(* _extract_box.py:78, 98-136, 265-341, without the writing of files, properties and parent window.
   cache_all_geometry_arrays leaves flags for pillars only if some pillar is undefined; slicing that
   2-D array with three slices is an IndexError. *)
Definition extract_box (src : egrid) (b : box) (box_inactive : option mask) : res egrid :=
  let g := e_geo src in
  do _ <- assert_ (valid_box b (T (g_nk g) (nj g) (ni g)));
  let nk' := tk (hi b) - tk (lo b) + 1 in
  let nj' := tj (hi b) - tj (lo b) + 1 in
  let ni' := ti (hi b) - ti (lo b) + 1 in
  do gaps <- inherit_k_gaps (g_gap_after g) b;
  let inactive := extract_inactive (e_inactive src) box_inactive b in
  let cdef := match g_cdef g with Some d => Some (array_box3 d b) | None => None end in
  do _ <- match g_pdef g with Some _ => Err IndexError | None => Ok tt end;
  let r0 := if has_gaps g then raw g (tk (lo b)) else tk (lo b) in
  let natural lp := (tj (lo b) + lp / (ni' + 1)) * (ni g + 1) + (ti (lo b) + lp mod (ni' + 1)) in
  if negb (g_has_split (gg g)) then
    Ok (EGrid (Geo (SGrid nj' ni' false [] [] []) nk' gaps (fun r lp => g_pts g (r0 + r) (natural lp)) None cdef) inactive)
  else
    let s := all_splits (nj g) (ni g) nj' ni' b 0 (jagged 0 (g_spi (gg g)) (g_cl (gg g)) (g_cols (gg g))) (Splits natural []) in
    let count := (nj' + 1) * (ni' + 1) in
    let pts r lp := g_pts g (r0 + r) (if lp <? count then base s lp else nth (Z.to_nat (lp - count)) (map snd (extra s)) 0) in
    match extra s with
    | [] => Ok (EGrid (Geo (SGrid nj' ni' false [] [] []) nk' gaps pts None cdef) inactive)
    | ex => Ok (EGrid (Geo (SGrid nj' ni' true (map (fun e => fst (fst e)) ex) (List.concat (map (fun e => snd (fst e)) ex))
                         (cumulative 0 (map (fun e => snd (fst e)) ex))) nk' gaps pts None cdef) inactive)
    end.
