(** PillarModel.v: which pillar each column of cells uses where a grid is faulted, which
    column faces are split, and how far each column is from a split face.
    Models resqpy/grid/_pillars.py (create_column_pillar_mapping, pillar_foursome),
    resqpy/grid/_face_functions.py (is_split_column_face, split_column_faces) and
    resqpy/olio/grid_functions.py (columns_to_nearest_split_face). *)
From Verif Require Import Base.

(** The attributes of a grid read by these functions: extent, the flag and the three cached
    arrays of split pillars (grid/_grid.py:395-400).  The caching of results on the grid
    (_pillars.py:33-34, _face_functions.py:53-55) is left out: each function here computes
    what it would return on a grid with nothing cached. *)
Record sgrid := SGrid {
  g_nj : Z; g_ni : Z;
  g_has_split : bool;          (* has_split_coordinate_lines *)
  g_spi : list Z;              (* split_pillar_indices_cached *)
  g_cols : list Z;             (* cols_for_split_pillars *)
  g_cl : list Z }.             (* cols_for_split_pillars_cl *)

(** numpy indexing of an axis of size n: negative indices count from the end *)
Definition np_index (n i : Z) : res Z :=
  if (0 <=? i) && (i <? n) then Ok i
  else if (- n <=? i) && (i <? 0) then Ok (i + n) else Err IndexError.
Definition zget {A} (l : list A) (i : Z) : res A :=
  do k <- np_index (Z.of_nat (List.length l)) i;
  match nth_error l (Z.to_nat k) with Some x => Ok x | None => Err IndexError end.

Fixpoint fold_res {A B} (f : B -> A -> res A) (l : list B) (a : A) : res A :=
  match l with [] => Ok a | b :: l' => do a' <- f b a; fold_res f l' a' end.

(** arrays of shape (nj, ni, 2, 2) as functions of j, i, jp, ip *)
Definition cpm_t := Z -> Z -> Z -> Z -> Z.
Definition upd4 (m : cpm_t) (j i jp ip v : Z) : cpm_t :=
  fun j' i' jp' ip' => if (j' =? j) && (i' =? i) && (jp' =? jp) && (ip' =? ip) then v else m j' i' jp' ip'.

(** _pillars.py:38-45: the four [arange] rows, element i of each *)
Definition natural_map (ni : Z) : cpm_t := fun j i jp ip =>
  let n1 := ni + 1 in
  if jp =? 0 then (if ip =? 0 then j * n1 + i else j * n1 + 1 + i)
  else (if ip =? 0 then (j + 1) * n1 + i else (j + 1) * n1 + 1 + i).

(** _pillars.py:57-63: one entry of cols_for_split_pillars *)
Definition claim_col (g : sgrid) (pj pi extra_pillar_index cpscl_index : Z) (m : cpm_t) : res cpm_t :=
  do col <- zget (g_cols g) cpscl_index;
  let j := col / g_ni g in let i := col mod g_ni g in
  let jp := pj - j in let ip := pi - i in
  do _ <- assert_ (((jp =? 0) || (jp =? 1)) && ((ip =? 0) || (ip =? 1)));
  do j' <- np_index (g_nj g) j;
  do i' <- np_index (g_ni g) i;
  Ok (upd4 m j' i' jp ip extra_pillar_index).

(** _pillars.py:50-63: one extra pillar *)
Definition one_extra (g : sgrid) (e : Z) (m : cpm_t) : res cpm_t :=
  do primary <- zget (g_spi g) e;
  let pj := primary / (g_ni g + 1) in let pi := primary mod (g_ni g + 1) in
  do start <- (if e =? 0 then Ok 0 else zget (g_cl g) (e - 1));
  do stop <- zget (g_cl g) e;
  fold_res (claim_col g pj pi ((g_nj g + 1) * (g_ni g + 1) + e)) (zrange2 start stop) m.

(** _pillars.py:12-65 *)
Definition create_column_pillar_mapping (g : sgrid) : res cpm_t :=
  let m := natural_map (g_ni g) in
  if g_has_split g then fold_res (one_extra g) (zrange (Z.of_nat (List.length (g_spi g)))) m
  else Ok m.

(** 2 by 2 arrays *)
Definition quad := Z -> Z -> Z.
Definition upd2 (m : quad) (a b v : Z) : quad := fun a' b' => if (a' =? a) && (b' =? b) then v else m a' b'.

(** [np.where(a == v)[0]] *)
Fixpoint where_eq (v : Z) (l : list Z) (k : Z) : list Z :=
  match l with [] => [] | x :: l' => if x =? v then k :: where_eq v l' (k + 1) else where_eq v l' (k + 1) end.

(** _pillars.py:104-109 *)
Definition four_col (g : sgrid) (j0 i0 cpscl_index csp_index : Z) (f : quad) : res quad :=
  do col <- zget (g_cols g) csp_index;
  let a := col / g_ni g - (j0 - 1) in let b := col mod g_ni g - (i0 - 1) in
  do _ <- assert_ (((a =? 0) || (a =? 1)) && ((b =? 0) || (b =? 1)));
  Ok (upd2 f a b ((g_nj g + 1) * (g_ni g + 1) + cpscl_index)).
Definition four_extra (g : sgrid) (j0 i0 : Z) (e : Z) (f : quad) : res quad :=
  do start <- (if e =? 0 then Ok 0 else zget (g_cl g) (e - 1));
  do stop <- zget (g_cl g) e;
  fold_res (four_col g j0 i0 e) (zrange2 start stop) f.

(** _pillars.py:68-111: None is returned as [None] *)
Definition pillar_foursome (g : sgrid) (j0 i0 : Z) (none_if_unsplit : bool) : res (option quad) :=
  let primary := (g_ni g + 1) * j0 + i0 in
  let foursome : quad := fun _ _ => primary in
  let unsplit := if none_if_unsplit then None else Some foursome in
  if negb (g_has_split g) then Ok unsplit
  else
    let extras := where_eq primary (g_spi g) 0 in
    match extras with
    | [] => Ok unsplit
    | _ =>
      do last <- zget (g_cl g) (-1);
      do _ <- assert_ (Z.of_nat (List.length (g_cols g)) =? last);
      do f <- fold_res (four_extra g j0 i0) extras foursome;
      Ok (Some f)
    end.

(** _face_functions.py:13-44; j0, i0 are the indices of a column of the grid and polarity is
    0 or 1, so the array accesses are in range *)
Definition is_split_column_face (g : sgrid) (j0 i0 axis_ polarity : Z) : res bool :=
  if negb (g_has_split g) then Ok false
  else
    do _ <- assert_ ((axis_ =? 1) || (axis_ =? 2));
    let out := if axis_ =? 1 then (if negb (polarity =? 0) then j0 =? g_nj g - 1 else j0 =? 0)
               else (if negb (polarity =? 0) then i0 =? g_ni g - 1 else i0 =? 0) in
    if out then Ok false
    else
      let jp := if axis_ =? 1 then (if negb (polarity =? 0) then j0 + 1 else j0 - 1) else j0 in
      let ip := if axis_ =? 1 then i0 else (if negb (polarity =? 0) then i0 + 1 else i0 - 1) in
      do cpm <- create_column_pillar_mapping g;
      if axis_ =? 1 then
        Ok (negb (cpm j0 i0 polarity 0 =? cpm jp ip (1 - polarity) 0)
            || negb (cpm j0 i0 polarity 1 =? cpm jp ip (1 - polarity) 1))
      else
        Ok (negb (cpm j0 i0 0 polarity =? cpm jp ip 0 (1 - polarity))
            || negb (cpm j0 i0 1 polarity =? cpm jp ip 1 (1 - polarity))).

(** 2D boolean arrays *)
Definition grid2 (A : Type) := Z -> Z -> A.
Definition set2 {A} (m : grid2 A) (j i : Z) (v : A) : grid2 A := fun j' i' => if (j' =? j) && (i' =? i) then v else m j' i'.

(** [if cond and grid.is_split_column_face(...): array[j, i] = True] *)
Definition mark (g : sgrid) (cond : bool) (j0 i0 axis_ : Z) (j i : Z) (m : grid2 bool) : res (grid2 bool) :=
  if cond then (do s <- is_split_column_face g j0 i0 axis_ 0; Ok (if s then set2 m j i true else m)) else Ok m.

(** _face_functions.py:67-78: one split pillar *)
Definition mark_pillar (g : sgrid) (spi : Z) (st : grid2 bool * grid2 bool) : res (grid2 bool * grid2 bool) :=
  let '(mj, mi) := st in
  let j_p := spi / (g_ni g + 1) in let i_p := spi mod (g_ni g + 1) in
  do mj <- (if (0 <? j_p) && (j_p <? g_nj g) then
              do mj <- mark g (0 <? i_p) j_p (i_p - 1) 1 (j_p - 1) (i_p - 1) mj;
              mark g (i_p <? g_ni g - 1) j_p i_p 1 (j_p - 1) i_p mj
            else Ok mj);
  do mi <- (if (0 <? i_p) && (i_p <? g_ni g) then
              do mi <- mark g (0 <? j_p) (j_p - 1) i_p 2 (j_p - 1) (i_p - 1) mi;
              mark g (j_p <? g_nj g - 1) j_p i_p 2 j_p (i_p - 1) mi
            else Ok mi);
  Ok (mj, mi).

(** _face_functions.py:47-80: the pair of arrays, or None, None for an unfaulted grid.  An
    array of an axis with one column only is None in the code and is never written to; here
    it is an array without any index in range. *)
Definition split_column_faces (g : sgrid) : res (option (grid2 bool * grid2 bool)) :=
  if negb (g_has_split g) then Ok None
  else
    do _ <- create_column_pillar_mapping g;
    do st <- fold_res (mark_pillar g) (g_spi g) ((fun _ _ => false), (fun _ _ => false));
    Ok (Some st).

(** grid_functions.py:532-536: columns abutting a marked face *)
Definition abutting (nj ni : Z) (mj mi : grid2 bool) : grid2 bool := fun j i =>
  (if j <? nj - 1 then mj j i else false)
  || (if 0 <? j then mj (j - 1) i else false)
  || (if i <? ni - 1 then mi j i else false)
  || (if 0 <? i then mi j (i - 1) else false).

(** grid_functions.py:537-538: framed array, indices 0 .. nj+1 and 0 .. ni+1 *)
Definition framed0 (nj ni : Z) (ab : grid2 bool) : grid2 Z := fun j i =>
  if (1 <=? j) && (j <=? nj) && (1 <=? i) && (i <=? ni) then (if ab (j - 1) (i - 1) then 0 else nj + ni)
  else nj + ni.
(** grid_functions.py:541-545: the updated interior; indices here are those of [framed] *)
Definition updated (f : grid2 Z) : grid2 Z := fun j i =>
  Z.min (Z.min (Z.min (Z.min (f j i) (f (j - 1) i + 1)) (f (j + 1) i + 1)) (f j (i - 1) + 1)) (f j (i + 1) + 1).
Definition all2 (nj ni : Z) (p : Z -> Z -> bool) : bool :=
  forallb (fun j => forallb (fun i => p j i) (zrange2 1 (ni + 1))) (zrange2 1 (nj + 1)).
(** grid_functions.py:546-548 *)
Definition write_interior (nj ni : Z) (f u : grid2 Z) : grid2 Z := fun j i =>
  if (1 <=? j) && (j <=? nj) && (1 <=? i) && (i <=? ni) then u j i else f j i.
Fixpoint spread (fuel : nat) (nj ni : Z) (f : grid2 Z) : res (grid2 Z) :=
  match fuel with
  | O => Err DivergesError
  | S n => let u := updated f in
           if all2 nj ni (fun j i => u j i =? f j i) then Ok f
           else spread n nj ni (write_interior nj ni f u)
  end.
(** grid_functions.py:522-550; the result is indexed by column *)
Definition columns_to_nearest_split_face (fuel : nat) (g : sgrid) : res (option (grid2 Z)) :=
  if negb (g_has_split g) then Ok None
  else
    do r <- split_column_faces g;
    match r with
    | None => Ok None
    | Some (mj, mi) =>
      let nj := g_nj g in let ni := g_ni g in
      do f <- spread fuel nj ni (framed0 nj ni (abutting nj ni mj mi));
      Ok (Some (fun j i => f (j + 1) (i + 1)))
    end.
