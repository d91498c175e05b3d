(** WellModel.v: measured depths of trajectories, blocked wells and wellbore frames
    (well/_trajectory.py, well/_blocked_well.py, well/_wellbore_frame.py,
    well/blocked_well_frame.py).  Measured depths are rationals and never nan; where the code
    divides by the length of an interval of length zero (nan, with a warning) the model has 0. *)
From Verif Require Import Base QBase TriModel.
Open Scope Z_scope.

(** None: not a number *)
Notation value := (option Q).
Definition at_ (l : list Q) (i : Z) : Q := nth (Z.to_nat i) l 0%Q.
(** the loop of interval_for_md from the interval i on *)
Fixpoint interval_from (l : list Q) (i : Z) (md : Q) : Z * Q :=
  match l with
  | a :: ((b :: _) as l') => if md <=b b then (i, (md - a) / (b - a))%Q else interval_from l' (i + 1) md
  | _ => (-1, 1%Q)
  end.
(* _wellbore_frame.py:163-182; the frame's node_mds *)
Definition interval_for_md (l : list Q) (md : Q) : res (Z * Q) :=
  match l with
  | [] => Err IndexError
  | a :: _ => Ok (if md <b a then (-1, 0%Q) else interval_from l 0 md)
  end.

(** A blocked well: node_mds, grid_indices (one for each interval, negative if unblocked) and cell_count *)
Record bwell := BW { node_mds : list Q; grid_indices : list Z; cell_count : Z }.
Definition node_count (w : bwell) : Z := Z.of_nat (List.length (node_mds w)).
(** the interval numbers of the blocked intervals *)
Fixpoint blocked_from (g : list Z) (i : Z) : list Z :=
  match g with [] => [] | x :: g' => if x <? 0 then blocked_from g' (i + 1) else i :: blocked_from g' (i + 1) end.
(* _blocked_well.py:436-446; grid_indices is read for as many intervals as there are *)
Definition cell_interval_map (w : bwell) : res (list Z) :=
  do _ <- (if Z.of_nat (List.length (grid_indices w)) <? node_count w - 1 then Err IndexError else Ok tt);
  let m := blocked_from (firstn (Z.to_nat (node_count w - 1)) (grid_indices w)) 0 in
  if cell_count w <? Z.of_nat (List.length m) then Err IndexError else
  do _ <- assert_ (Z.of_nat (List.length m) =? cell_count w); Ok m.
(* _blocked_well.py:412-420 *)
Definition interval_for_cell (w : bwell) (ci : Z) : res Z :=
  do _ <- assert_ ((0 <=? ci) && (ci <? cell_count w));
  if node_count w =? cell_count w + 1 then Ok ci
  else do m <- cell_interval_map w; Ok (nth (Z.to_nat ci) m 0).
(* _blocked_well.py:422-434 *)
Definition entry_and_exit_mds (w : bwell) (ci : Z) : res (Q * Q) :=
  do i <- interval_for_cell w ci;
  if i + 1 <? node_count w then Ok (at_ (node_mds w) i, at_ (node_mds w) (i + 1)) else Err IndexError.
(* _blocked_well.py:355-370 *)
Fixpoint index_map (g : list Z) (j : Z) : list Z :=
  match g with [] => [] | x :: g' => if x =? -1 then -1 :: index_map g' j else j :: index_map g' (j + 1) end.
Definition map_cell_and_grid_indices (w : bwell) : list Z := index_map (grid_indices w) 0.
(* _blocked_well.py:372-384 *)
Definition compressed_grid_indices (w : bwell) : res (list Z) :=
  let l := filter (fun x => 0 <=? x) (grid_indices w) in
  do _ <- assert_ (Z.of_nat (List.length l) =? cell_count w); Ok l.
(* _blocked_well.py:1748-1756, the loop *)
Fixpoint wb_cell_from (l : list Q) (g : list Z) (ci : Z) (md : Q) : res (Z * Q) :=
  match l with
  | a :: ((b :: _) as l') =>
      if md <=b b then
        match g with
        | [] => Err IndexError
        | x :: _ => Ok (if x <? 0 then -1 else ci, ((md - a) / (b - a))%Q)
        end
      else match g with
           | [] => Err IndexError
           | x :: g' => wb_cell_from l' g' (if 0 <=? x then ci + 1 else ci) md
           end
  | _ => Ok (-1, 1%Q)
  end.
(* _blocked_well.py:1743-1756 *)
Definition wb_cell_for_md (w : bwell) (md : Q) : res (Z * Q) :=
  match node_mds w with
  | [] => Err IndexError
  | a :: _ => if md <b a then Ok (-1, 0%Q) else wb_cell_from (node_mds w) (grid_indices w) 0 md
  end.

(** ** Frame intervals contributing to cells *)
Definition within01 (q : Q) : bool := (0 <=b q) && (q <=b 1).
(* blocked_well_frame.py:32-68, for one cell from entry a to exit b; [f]: node_mds of the frame.
   An entry: frame interval, fraction of it in the cell, fraction of the cell in it *)
Definition contributions_one (f : list Q) (a b : Q) : res (list (Z * Q * Q)) :=
  let dmd := (b - a)%Q in
  do (ei, ef) <- interval_for_md f a;
  do (xi, xf) <- interval_for_md f b;
  if ((xi =? -1) && (xf <b (1 # 2))) || ((ei =? -1) && ((1 # 2) <b ef)) then Ok [] else
  do (ei, ef) <- (if ei =? -1 then do _ <- assert_ (ef <b (1 # 2)); Ok (0, 0%Q) else Ok (ei, ef));
  do (xi, xf) <- (if xi =? -1 then do _ <- assert_ ((1 # 2) <b xf); Ok (Z.of_nat (List.length f) - 2, 1%Q) else Ok (xi, xf));
  do _ <- assert_ (ei <=? xi);
  if xi =? ei then
    do _ <- assert_ (ef <=b xf);
    if Qeq_bool xf ef then Ok [] else
    let fr := ((Qminb b (at_ f (xi + 1)) - Qmaxb a (at_ f ei)) / dmd)%Q in
    do _ <- assert_ ((0 <=b fr) && (fr <=b 1 + (1 # 1000000)))%Q;
    Ok [(ei, (xf - ef)%Q, fr)]
  else
    let fr := ((at_ f (ei + 1) - Qmaxb a (at_ f ei)) / dmd)%Q in
    do _ <- assert_ (within01 fr);
    let middle := map (fun i => (i, 1, (at_ f (i + 1) - at_ f i) / dmd)%Q) (zrange2 (ei + 1) xi) in
    let fr' := ((Qminb b (at_ f (xi + 1)) - at_ f xi) / dmd)%Q in
    do _ <- assert_ (within01 fr');
    Ok ((ei, (1 - ef)%Q, fr) :: middle ++ [(xi, xf, fr')]).
(** the entry and exit depths of the blocked cells, in order *)
Fixpoint cells_from (l : list Q) (g : list Z) : list (Q * Q) :=
  match l, g with
  | a :: ((b :: _) as l'), x :: g' => if x <? 0 then cells_from l' g' else (a, b) :: cells_from l' g'
  | _, _ => []
  end.
Definition cells (w : bwell) : list (Q * Q) := cells_from (node_mds w) (grid_indices w).
(* blocked_well_frame.py:14-70 *)
Definition contributions_list (w : bwell) (f : list Q) : res (list (list (Z * Q * Q))) :=
  do _ <- (if Z.of_nat (List.length (grid_indices w)) <? node_count w - 1 then Err IndexError else Ok tt);
  mapM (fun c => contributions_one f (fst c) (snd c)) (cells w).

(** ** Properties of cells from those of frame intervals *)
Notation contribs := (list (Z * Q * Q)).
Definition flag (l : list bool) (i : Z) : bool := nth (Z.to_nat i) l false.
Definition val (l : list value) (i : Z) : value := nth (Z.to_nat i) l None.
(* blocked_well_frame.py:204-206, and 295-297 for 'well connection open' *)
Definition cell_active (act : list bool) (c : contribs) : bool := existsb (fun e => flag act (fst (fst e))) c.
(* 202-214: perforated fraction, and the active interval with most of the cell (-1: none) *)
Definition cell_perforated (act : list bool) (c : contribs) : Q :=
  let s := fold_left (fun s e => if flag act (fst (fst e)) then (s + snd e)%Q else s) c 0%Q in
  if 1 <b s then 1%Q else s.
Definition cell_dominant (act : list bool) (c : contribs) : Z :=
  match snd (fold_left (fun m e => if flag act (fst (fst e)) && (fst m <b snd e) then (snd e, Some (fst (fst e))) else m) c (0%Q, None)) with
  | None => -1
  | Some i => i
  end.
(* 215 *)
Definition cell_length (act : list bool) (c : contribs) (a b : Q) : Q := (cell_perforated act c * (b - a))%Q.
(* 323-329 *)
Definition cell_kh (kh : list value) (c : contribs) : Q :=
  fold_left (fun s e => match val kh (fst (fst e)) with Some v => (s + v * snd (fst e))%Q | None => s end) c 0%Q.
(* 354-366 *)
Definition cell_skin (skin : list value) (c : contribs) : value :=
  let '(v, s) := fold_left (fun st e => match val skin (fst (fst e)) with
                                        | None => st
                                        | Some x => (Some (match fst st with Some y => y | None => 0 end + x * snd e)%Q, (snd st + snd e)%Q)
                                        end) c (None, 0%Q) in
  if 0 <b s then option_map (fun x => x / s)%Q v else v.
(* 262-273: slice from the first contributing interval to the last *)
Definition cell_radius (rad : list value) (c : contribs) : value :=
  match c with
  | [] => None
  | e :: _ =>
      let l := last c e in
      let vals := map (val rad) (zrange2 (fst (fst e)) (Z.min (fst (fst l) + 1) (Z.of_nat (List.length rad)))) in
      fold_left (fun m v => match m, v with None, v => v | m, None => m | Some x, Some y => Some (Qmaxb x y) end) vals None
  end.

(** ** Trajectories *)
(** measured_depths, control_points, start_md, finish_md and the location of the datum *)
Definition point := trip Q.
Record traj := Traj { mds : list Q; points : list point; start_md : Q; finish_md : Q; datum : point }.
Definition pt (l : list point) (i : Z) : point := nth (Z.to_nat i) l (T 0 0 0)%Q.
(* _trajectory.py:656-657 *)
Definition interpolate (p1 p2 : point) (f : Q) : point := zip3 (fun x y => f * y + (1 - f) * x)%Q p1 p2.
(* _trajectory.py:659-669; the recursion ends as i2 - i1 falls *)
Fixpoint search (fuel : nat) (t : traj) (md : Q) (i1 i2 : Z) : res point :=
  if i2 - i1 <=? 1 then
    if Qeq_bool md (at_ (mds t) i1) then Ok (pt (points t) i1)
    else if i1 + 1 <? Z.of_nat (List.length (points t))
         then Ok (interpolate (pt (points t) i1) (pt (points t) (i1 + 1)) ((md - at_ (mds t) i1) / (at_ (mds t) (i1 + 1) - at_ (mds t) i1)))
         else Err IndexError
  else match fuel with
       | O => Err DivergesError
       | S k => let im := i1 + (i2 - i1) / 2 in
                if md <=b at_ (mds t) im then search k t md i1 im else search k t md im i2
       end.
(* _trajectory.py:639-677; knot_count is the number of control points *)
Definition xyz_for_md (t : traj) (md : Q) : res (option point) :=
  match mds t with
  | [] => if (md <b 0) || (finish_md t <b md) then Ok None else Err IndexError
  | m :: _ =>
      if (md <b 0) || (finish_md t <b md) || (last (mds t) m <b md) then Ok None
      else if md <=b start_md t then
        if Qeq_bool (start_md t) 0 then Ok (Some (datum t))
        else match points t with
             | [] => Err IndexError
             | p :: _ => Ok (Some (interpolate (datum t) p (md / start_md t)))
             end
      else do p <- search (List.length (points t)) t md 0 (Z.of_nat (List.length (points t)) - 1); Ok (Some p)
  end.
