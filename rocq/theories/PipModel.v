(** PipModel.v: point in polygon tests (resqpy/olio/point_inclusion.py) and pixel maps
    (resqpy/grid/_pixel_maps.py).  Coordinates are exact rationals instead of floats. *)
From Verif Require Import QBase.

Definition pt := (Q * Q)%type.

(* point_inclusion.py:36-38, 65-67: for edge in range(len(poly)): v1 = poly[edge - 1];
   v2 = poly[edge]; for edge 0, v1 is the last point *)
Definition edges {A} (poly : list A) : list (A * A) :=
  match poly with
  | [] => []
  | v :: _ => combine (last poly v :: poly) poly
  end.

(* v1[0] + (v2[0] - v1[0]) * (p[1] - v1[1]) / (v2[1] - v1[1]) *)
Definition x_at (y : Q) (v1 v2 : pt) : Q := fst v1 + (fst v2 - fst v1) * (y - snd v1) / (snd v2 - snd v1).

(* point_inclusion.py:39-43 *)
Definition cn_edge (p : pt) (e : pt * pt) : bool :=
  let '(v1, v2) := e in
  if ((fst p <b fst v1) || (fst p <b fst v2)) &&
     (((snd v1 <=b snd p) && (snd p <b snd v2)) || ((snd p <b snd v1) && (snd v2 <=b snd p)))
  then if (fst p <b fst v1) && (fst p <b fst v2) then true else fst p <b x_at (snd p) v1 v2
  else false.
(* point_inclusion.py:34-45 *)
Definition crossings (p : pt) (poly : list pt) : Z :=
  fold_left (fun c e => if cn_edge p e then c + 1 else c)%Z (edges poly) 0%Z.
Definition pip_cn (p : pt) (poly : list pt) : bool := Z.odd (crossings p poly).

(* point_inclusion.py:68-80: the change in [winding] for one edge *)
Definition wn_edge (p : pt) (e : pt * pt) : Z :=
  let '(v1, v2) := e in
  if (fst v1 <=b fst p) && (fst v2 <=b fst p) then 0%Z
  else if (snd v1 <=b snd p) && (snd p <b snd v2) then
    (if (fst p <b fst v1) && (fst p <b fst v2) then 1
     else if fst p <b x_at (snd p) v1 v2 then 1 else 0)%Z
  else if (snd p <b snd v1) && (snd v2 <=b snd p) then
    (if (fst p <b fst v1) && (fst p <b fst v2) then -1
     else if fst p <b x_at (snd p) v1 v2 then -1 else 0)%Z
  else 0%Z.
(* point_inclusion.py:62-82 *)
Definition winding (p : pt) (poly : list pt) : Z := fold_left (fun w e => w + wn_edge p e)%Z (edges poly) 0%Z.
Definition pip_wn (p : pt) (poly : list pt) : bool := negb (winding p poly =? 0)%Z.

(* point_inclusion.py:103-132: for every edge one is added where the condition holds;
   [dz] stands for the comparison with the infinity or nan that numpy yields for a
   division by zero.  The points are given as the list of rows of the flattened array. *)
Definition array_edge (dz : pt -> pt * pt -> bool) (p : pt) (e : pt * pt) : bool :=
  let '(v1, v2) := e in
  (((fst p <b fst v1) || (fst p <b fst v2)) &&
   (((snd v1 <=b snd p) && (snd p <b snd v2)) || ((snd p <b snd v1) && (snd v2 <=b snd p)))) &&
  (((fst p <b fst v1) && (fst p <b fst v2)) ||
   (if Qeq_bool (snd v2) (snd v1) then dz p e else fst p <b x_at (snd p) v1 v2)).
Definition pip_array_cn (dz : pt -> pt * pt -> bool) (ps : list pt) (poly : list pt) : list bool :=
  let counts := fold_left (fun cs e => map (fun pc => snd pc + (if array_edge dz (fst pc) e then 1 else 0))%Z (combine ps cs))
                          (edges poly) (map (fun _ => 0%Z) ps) in
  map Z.odd counts.

(** Python's treatment of a slice bound for an axis of extent n *)
Definition slice_bound (n a : Z) : Z := if (a <? 0)%Z then Z.max 0 (a + n) else Z.min a n.

(* point_inclusion.py:159-169: the x values where the first two crossing edges meet the row *)
Fixpoint row_hits (y : Q) (es : list (pt * pt)) (ic : nat) (acc : list Q) : list Q :=
  match es with
  | [] => acc
  | (v1, v2) :: es' =>
      if ((y <b snd v1) && (y <b snd v2)) || ((snd v1 <=b y) && (snd v2 <=b y)) then row_hits y es' ic acc
      else
        let acc := acc ++ [x_at y v1 v2] in
        let ic := S ic in
        if Nat.eqb ic 2 then acc else row_hits y es' ic acc
  end.
(* point_inclusion.py:153-182: one row of the result, as a function of the column *)
Definition scan_row (ox : Q) (ncol : Z) (dx : Q) (y : Q) (poly : list pt) (col : Z) : bool :=
  match row_hits y (edges poly) 0 [] with
  | [x0; x1] =>
      let '(sx, ex) := if x1 <b x0 then (x1, x0) else (x0, x1) in
      let scol := Qceiling ((sx - ox) / dx) in
      let ecol := Qtrunc ((ex - ox) / dx) in
      (slice_bound ncol scol <=? col)%Z && (col <? slice_bound ncol (ecol + 1))%Z
  | _ => false
  end.
Definition scan (origin : pt) (ncol nrow : Z) (dx dy : Q) (poly : list pt) : list (list bool) :=
  map (fun row => map (scan_row (fst origin) ncol dx (snd origin + dy * inject_Z row) poly) (zrange ncol)) (zrange nrow).

(** * Pixel maps *)
(* _pixel_maps.py:77-80: the corners of one cell, [hp jp ip], in polygon order *)
Definition cell_poly (hp : bool -> bool -> pt) : list pt :=
  [hp false false; hp false true; hp true true; hp true false].
Definition qmin_of (l : list Q) : Q := match l with [] => 0 | x :: r => fold_left Qminb r x end.
Definition qmax_of (l : list Q) : Q := match l with [] => 0 | x :: r => fold_left Qmaxb r x end.

(** A pixel map: row, column -> (j, i), None for the null value -1. *)
Definition pmap := Z -> Z -> option (Z * Z).
(* _pixel_maps.py:88-110: one cell is painted on to the map; cells with nan corners are
   None *)
Definition paint_cell (origin : pt) (width height : Z) (dx dy : Q) (m : pmap) (cell : (Z * Z) * option (bool -> bool -> pt)) : pmap :=
  match snd cell with
  | None => m
  | Some hp =>
      let poly := cell_poly hp in
      let half_dx := (1 # 2) * dx in let half_dy := (1 # 2) * dy in
      let bx0 := qmin_of (map fst poly) - half_dx in let by0 := qmin_of (map snd poly) - half_dy in
      let bx1 := qmax_of (map fst poly) + half_dx in let by1 := qmax_of (map snd poly) + half_dy in
      let px := Qtrunc ((bx0 - fst origin) / dx) in let py := Qtrunc ((by0 - snd origin) / dy) in
      if (px <? 0)%Z || (py <? 0)%Z then m
      else
        let ex := Qceiling ((bx1 - bx0) / dx) in let ey := Qceiling ((by1 - by0) / dy) in
        if (width <? px + ex)%Z || (height <? py + ey)%Z then m
        else
          let pox := fst origin + dx * inject_Z px + half_dx in
          let poy := snd origin + dy * inject_Z py + half_dy in
          fun row col =>
            if (py <=? row)%Z && (row <? py + ey)%Z && (px <=? col)%Z && (col <? px + ex)%Z
               && scan_row pox ex dx (poy + dy * inject_Z (row - py)) poly (col - px)
            then Some (fst cell) else m row col
  end.
(* _pixel_maps.py:50-111: the cells in order of j then i *)
Definition pixel_map_for_split_horizon_points (cells : list ((Z * Z) * option (bool -> bool -> pt))) (origin : pt)
  (width height : Z) (dx dy : Q) : pmap :=
  fold_left (paint_cell origin width height dx dy) cells (fun _ _ => None).
