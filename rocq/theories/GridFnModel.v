(** GridFnModel.v: reordering of corner points, translation of corner points and infilling of
    inactive cells.  Models resqpy/olio/grid_functions.py. *)
From Verif Require Import QBase.
Open Scope Z_scope.

(** ** resequence_nexus_corp *)

(** A seven dimensional corner point array of extent nk by nj by ni: the 24 numbers of each
    cell (2 x 2 x 2 x 3, row major) as a function of the flat index. *)
Definition cell (A : Type) := Z -> A.
Definition corp (A : Type) := Z -> Z -> Z -> cell A.
(** corner_points[k, j, i, kp, jp, ip, xyz] is number [corner kp jp ip * 3 + xyz] of the cell *)
Definition corner (kp jp ip : Z) : Z := (kp * 2 + jp) * 2 + ip.
Definition cp_get {A} (c : cell A) (kp jp ip x : Z) : A := c (corner kp jp ip * 3 + x).
Definition cp_set3 {A} (c : cell A) (kp jp ip : Z) (v : Z -> A) : cell A := fun n =>
  if n / 3 =? corner kp jp ip then v (n mod 3) else c n.
(** the order of the triple loop over kp, jp, ip, with the counter c *)
Definition corner_loop : list (Z * Z * Z * Z) :=
  [(0,0,0,0); (0,0,1,1); (0,1,0,2); (0,1,1,3); (1,0,0,4); (1,0,1,5); (1,1,0,6); (1,1,1,7)].
(** grid_functions.py:217-224, undo: the columns of a (3, 8) array are filled, and the array
    is then read as (2, 2, 2, 3) *)
Definition cell_undo {A} (zero : A) (c : cell A) : cell A :=
  let xyz := fold_left (fun (m : Z -> Z -> A) t => let '(kp, jp, ip, n) := t in
                 fun x col => if col =? n then cp_get c kp jp ip x else m x col) corner_loop (fun _ _ => zero) in
  fun n => xyz (n / 8) (n mod 8).
(** grid_functions.py:226-232: the cell is read as (3, 8) and the columns are written to the
    corners *)
Definition cell_do {A} (c : cell A) : cell A :=
  let xyz := fun x col => c (x * 8 + col) in
  fold_left (fun (d : cell A) t => let '(kp, jp, ip, n) := t in cp_set3 d kp jp ip (fun x => xyz x n)) corner_loop c.
(** grid_functions.py:234-236: corners (jp, ip) = (1, 0) and (1, 1) are exchanged *)
Definition cell_swap {A} (c : cell A) : cell A :=
  let jp_slice := fun kp x => cp_get c kp 1 0 x in
  let c1 := cp_set3 (cp_set3 c 0 1 0 (fun x => cp_get c 0 1 1 x)) 1 1 0 (fun x => cp_get c 1 1 1 x) in
  cp_set3 (cp_set3 c1 0 1 1 (jp_slice 0)) 1 1 1 (jp_slice 1).
(** grid_functions.py:203-236; the loop over cells works on each cell in turn, in place *)
Definition resequence_nexus_corp {A} (zero : A) (nk nj ni : Z) (eight_mode undo : bool) (cp : corp A) : corp A :=
  fun k j i =>
    if (0 <=? k) && (k <? nk) && (0 <=? j) && (j <? nj) && (0 <=? i) && (i <? ni) then
      if eight_mode then (if undo then cell_undo zero (cp k j i) else cell_do (cp k j i)) else cell_swap (cp k j i)
    else cp k j i.

(** ** infill_block_geometry *)

(** One column of cells: the values of one array along k.  Columns are treated independently. *)
Definition col := Z -> Q.
Definition put (c : col) (k : Z) (v : Q) : col := fun k' => if k' =? k then v else c k'.
Record column := Col { c_depth : col; c_thick : col; c_x : col; c_y : col }.
Record options := Opt { o_dzt : Q; o_xyt : Q; o_overlap : Q; o_snap : bool; o_nudge : bool; o_sign : Q }.
Definition half : Q := 1 # 2.
Definition tiny (tol v : Q) : bool := Qle_bool (Qabs v) tol.

(** grid_functions.py:160-170 __clean_up_tiny_values: the index reached and the column.  The
    loop runs from k to at most nk; n = nk - k rounds are enough. *)
Fixpoint clean_up (n : nat) (o : options) (k : Z) (c : column) : Z * column :=
  match n with
  | O => (k, c)
  | S n' =>
    if tiny (o_dzt o) (c_depth c k) then
      let x := if tiny (o_xyt o) (c_x c k) then put (c_x c) k 0%Q else c_x c in
      let y := if tiny (o_xyt o) (c_y c k) then put (c_y c) k 0%Q else c_y c in
      clean_up n' o (k + 1) (Col (put (c_depth c) k 0%Q) (put (c_thick c) k 0%Q) x y)
    else (k, c)
  end.
(** grid_functions.py:73-74: skip active layers *)
Fixpoint skip_active (n : nat) (o : options) (k : Z) (c : column) : Z :=
  match n with O => k | S n' => if negb (tiny (o_dzt o) (c_depth c k)) then skip_active n' o (k + 1) c else k end.
(** grid_functions.py:175-195 __snap_to_top_and_base; it does nothing unless called with
    k_base_greater_or_equal_to_extent *)
Definition snap (o : options) (k_top : Z) (at_base : bool) (c : column) : column :=
  if at_base then
    let k_top := k_top - 1 in
    if o_snap o then
      let d := (c_depth c k_top - o_sign o * c_thick c k_top / 2)%Q in
      let x := c_x c k_top in let y := c_y c k_top in
      Col (fun k => if (0 <=? k) && (k <? k_top) then d else c_depth c k) (c_thick c)
          (fun k => if (0 <=? k) && (k <? k_top) then x else c_x c k)
          (fun k => if (0 <=? k) && (k <? k_top) then y else c_y c k)
    else c
  else c.
(** grid_functions.py:124-128: the cells of a void *)
Fixpoint fill (n : nat) (m : Z) (k_top : Z) (sign top thick top_x dx top_y dy : Q) (c : column) : column :=
  match n with
  | O => c
  | S n' =>
    let c := fill n' m k_top sign top thick top_x dx top_y dy c in
    let v := (half + inject_Z (Z.of_nat n'))%Q in let k := k_top + Z.of_nat n' in
    Col (put (c_depth c) k (top + v * thick * sign)%Q) (put (c_thick c) k thick)
        (put (c_x c) k (top_x + v * dx / inject_Z m)%Q) (put (c_y c) k (top_y + v * dy / inject_Z m)%Q)
  end.
(** grid_functions.py:72-129: the loop of one column.  The nudge call (110-119) leaves out the
    required argument depth, so reaching it raises TypeError.  k_base is found from k_top + 1;
    reading depth[k_top - 1] with k_top = 0 cannot happen as the first cell reached is active. *)
Fixpoint infill_loop (fuel : nat) (nk : Z) (o : options) (k_top : Z) (c : column) : column * res unit :=
  match fuel with
  | O => (c, Err DivergesError)
  | S fuel' =>
    let k_top := skip_active (Z.to_nat (nk - k_top)) o k_top c in
    let '(k_base, c) := clean_up (Z.to_nat (nk - (k_top + 1))) o (k_top + 1) c in
    if nk <=? k_base then (snap o k_top true c, Ok tt)
    else
      let m := k_base - k_top in let prev := k_top - 1 in
      let top := (c_depth c prev + (c_thick c prev / 2) * o_sign o)%Q in
      let bottom := (c_depth c k_base - (c_thick c k_base / 2) * o_sign o)%Q in
      let interval := (o_sign o * (bottom - top))%Q in
      let dx := (c_x c k_base - c_x c prev)%Q in
      let dy := (c_y c k_base - c_y c prev)%Q in
      let thick := (interval / inject_Z m)%Q in
      if Qltb interval 0%Q then
        (if Qltb (- interval)%Q (o_overlap o) then (c, Err TypeError) else (c, Ok tt))
      else if negb (Qle_bool 0%Q thick) then (c, Err AssertionError)
      else infill_loop fuel' nk o k_base (fill (Z.to_nat m) m k_top (o_sign o) top thick (c_x c prev) dx (c_y c prev) dy c)
  end.
(** grid_functions.py:48-71 for one column *)
Definition infill_column (nk : Z) (o : options) (c : column) : column * res unit :=
  let '(k_top, c) := clean_up (Z.to_nat nk) o 0 c in
  if nk <=? k_top then (c, Ok tt)
  else infill_loop (S (Z.to_nat nk)) nk o k_top (snap o k_top false c).
(** grid_functions.py:143-150 __get_k_dir_sign *)
Definition k_dir_sign (down up : bool) : res Q := if down then Ok 1%Q else if up then Ok (-1)%Q else Err AssertionError.

(** ** translate_corp, grid_functions.py:404-430, for one coordinate (x or y) of all the points.
    preserve_digits is a natural number here; the code also accepts negative and fractional
    powers. *)
Fixpoint qmin_list (d : Q) (l : list Q) : Q := match l with [] => d | x :: r => Qminb x (qmin_list d r) end.
Definition shift_amount (points : list Q) (shift min_xy : option Q) (preserve_digits : option nat) : res Q :=
  do sub <- (match shift with
             | Some s => Ok (- s)%Q
             | None => match points with
                       | [] => Err ValueError  (* np.min of an empty array *)
                       | p :: r => Ok (qmin_list p r - match min_xy with Some m => m | None => 0 end)%Q
                       end
             end);
  Ok (match preserve_digits with
      | None => sub
      | Some d => let divisor := inject_Z (10 ^ Z.of_nat d) in (divisor * inject_Z (Qfloor (sub / divisor)))%Q
      end).
Definition translate_axis (points : list Q) (shift min_xy : option Q) (preserve_digits : option nat) : res (list Q) :=
  do sub <- shift_amount points shift min_xy preserve_digits;
  Ok (map (fun p => (p - sub)%Q) points).
