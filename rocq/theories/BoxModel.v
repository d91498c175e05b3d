(** BoxModel.v: model of /repo/resqpy/olio/box_utilities.py (whole module).
    A box [[min_k,min_j,min_i],[max_k,max_j,max_i]] is a pair of integer
    triples.  The shape/dtype assertions of the Python functions are typed
    away.  numpy int64 is modelled by unbounded Z. *)
From Verif Require Import Base.

Definition cell := trip Z.
Record box := Box { lo : cell; hi : cell }.

(* box_utilities.py:17-29 *)
Definition extent_of_box (b : box) : cell := zip3 (fun h l => h - l + 1) (hi b) (lo b).

(* box_utilities.py:32-43 *)
Definition volume_of_box (b : box) : Z :=
  (tk (hi b) - tk (lo b) + 1) * (tj (hi b) - tj (lo b) + 1) * (ti (hi b) - ti (lo b) + 1).

(* box_utilities.py:46-48; numpy // is floor division, as is Z.div *)
Definition central_cell (b : box) : cell :=
  zip3 (fun l h => l + (h - l) / 2) (lo b) (hi b).

(* box_utilities.py:116-131 *)
Definition cell_in_box (c : cell) (b : box) : bool :=
  ((tk (lo b) <=? tk c) && (tk c <=? tk (hi b))) &&
  ((tj (lo b) <=? tj c) && (tj c <=? tj (hi b))) &&
  ((ti (lo b) <=? ti c) && (ti c <=? ti (hi b))).

(* box_utilities.py:134-155; ndim, shape, dtype and len checks typed away *)
Definition valid_box (b : box) (host : cell) : bool :=
  forall3 (fun d =>
    negb ((get (lo b) d <? 0) || (get (lo b) d >? get (hi b) d) || (get (hi b) d >=? get host d))).

(* box_utilities.py:158-173 *)
Definition single_cell_box (c : cell) : box := Box c c.

(* box_utilities.py:176-190 *)
Definition full_extent_box0 (e : cell) : box := Box (T 0 0 0) (map3 (fun n => n - 1) e).

(* box_utilities.py:193-206 *)
Definition union (b1 b2 : option box) : option box :=
  match b1, b2 with
  | None, None => None
  | None, Some b => Some b
  | Some b, None => Some b
  | Some a, Some b => Some (Box (zip3 Z.min (lo a) (lo b)) (zip3 Z.max (hi a) (hi b)))
  end.

(* box_utilities.py:209-229 *)
Definition parent_cell_from_local_box_cell (b : box) (c : cell) (base : Z) : cell :=
  zip3 (fun l x => l + x - base) (lo b) c.

(* box_utilities.py:232-255 *)
Definition local_box_cell_from_parent_cell (b : box) (p : cell) (base : Z) : option cell :=
  if forall3 (fun d => get (lo b) d <=? get p d) && forall3 (fun d => get p d <=? get (hi b) d)
  then Some (zip3 (fun x l => x - l + base) p (lo b))
  else None.

(* box_utilities.py:258-274 *)
Definition boxes_overlap (a b : box) : bool :=
  negb ((tk (hi a) <? tk (lo b)) || (tk (lo a) >? tk (hi b)) ||
        (tj (hi a) <? tj (lo b)) || (tj (lo a) >? tj (hi b)) ||
        (ti (hi a) <? ti (lo b)) || (ti (lo a) >? ti (hi b))).

(* box_utilities.py:310-315: cells in one slice of the box *)
Definition slice_area (b : box) (d : axis) : Z :=
  match d with
  | K => (tj (hi b) - tj (lo b) + 1) * (ti (hi b) - ti (lo b) + 1)
  | J => (tk (hi b) - tk (lo b) + 1) * (ti (hi b) - ti (lo b) + 1)
  | I => (tk (hi b) - tk (lo b) + 1) * (tj (hi b) - tj (lo b) + 1)
  end.

(* box_utilities.py:321-327: one iteration of the loop over directions;
   state is (min_trim_cost, trim_direction) *)
Definition trim_step (e n : box) (st : Z * option axis) (d : axis) : Z * option axis :=
  let olo := Z.max (get (lo e) d) (get (lo n) d) in
  let ohi := Z.min (get (hi e) d) (get (hi n) d) in
  let cost := (ohi - olo + 1) * slice_area n d in
  if cost <? fst st then (cost, Some d) else st.

(* box_utilities.py:277-338; the in-place argument trim_box becomes the second
   component of the result; [Err AssertionError] models the assertion of line 329 *)
Definition overlapping_boxes (e n : box) : res (bool * box) :=
  if negb (boxes_overlap e n) then Ok (false, Box (T 0 0 0) (T 0 0 0))
  else
    match snd (fold_left (trim_step e n) all_axes (volume_of_box n + 1, None)) with
    | None => Err AssertionError
    | Some d =>
        Ok (true, Box (set (lo n) d (Z.max (get (lo e) d) (get (lo n) d)))
                      (set (hi n) d (Z.min (get (hi e) d) (get (hi n) d))))
    end.

(** A 3D boolean array: extent and value at local index (kji). *)
Record mask := Mask { mext : cell; mval : cell -> bool }.

(* numpy slicing m[l0:h0+1, l1:h1+1, l2:h2+1].copy() for 0 <= l <= h+1 <= extent *)
Definition slice_mask (m : mask) (l h : cell) : mask :=
  Mask (zip3 (fun h l => h - l + 1) h l) (fun c => mval m (zip3 Z.add l c)).

(* box_utilities.py:341-398; returns the modified box and the new mask *)
Definition trim_box_by_box (b t : box) (m : mask) : res (box * mask) :=
  let llo := T 0 0 0 in
  let lhi := map3 (fun n => n - 1) (extent_of_box b) in
  let finish (b' : box) (llo lhi : cell) :=
    do _ <- assert_ (forall3 (fun d => get (lo b') d <=? get (hi b') d));
    Ok (b', slice_mask m llo lhi) in
  if forall3 (fun d => get (lo t) d =? get (lo b) d) then
    if negb (tk (hi t) =? tk (hi b)) then
      do _ <- assert_ ((tj (hi t) =? tj (hi b)) && (ti (hi t) =? ti (hi b)));
      finish (Box (set (lo b) K (tk (hi t) + 1)) (hi b))
             (set llo K (tk (hi t) - tk (lo b) + 1)) lhi
    else if negb (tj (hi t) =? tj (hi b)) then
      do _ <- assert_ (ti (hi t) =? ti (hi b));
      finish (Box (set (lo b) J (tj (hi t) + 1)) (hi b))
             (set llo J (tj (hi t) - tj (lo b) + 1)) lhi
    else
      do _ <- assert_ (negb (ti (hi t) =? ti (hi b)));
      finish (Box (set (lo b) I (ti (hi t) + 1)) (hi b))
             (set llo I (ti (hi t) - ti (lo b) + 1)) lhi
  else if forall3 (fun d => get (hi t) d =? get (hi b) d) then
    if negb (tk (lo t) =? tk (lo b)) then
      do _ <- assert_ ((tj (lo t) =? tj (lo b)) && (ti (lo t) =? ti (lo b)));
      finish (Box (lo b) (set (hi b) K (tk (lo t) - 1)))
             llo (set lhi K (tk lhi - (tk (hi b) - tk (lo t) + 1)))
    else if negb (tj (lo t) =? tj (lo b)) then
      do _ <- assert_ (ti (lo t) =? ti (lo b));
      finish (Box (lo b) (set (hi b) J (tj (lo t) - 1)))
             llo (set lhi J (tj lhi - (tj (hi b) - tj (lo t) + 1)))
    else
      do _ <- assert_ (negb (ti (lo t) =? ti (lo b)));
      finish (Box (lo b) (set (hi b) I (ti (lo t) - 1)))
             llo (set lhi I (ti lhi - (ti (hi b) - ti (lo t) + 1)))
  else Err AssertionError.

(* np.any(mask[k,:,:]) and its J and I analogues, box_utilities.py:417,422,427 *)
Definition any_in_layer (m : mask) (d : axis) (x : Z) : bool :=
  match d with
  | K => existsb (fun j => existsb (fun i => mval m (T x j i)) (zrange (ti (mext m)))) (zrange (tj (mext m)))
  | J => existsb (fun k => existsb (fun i => mval m (T k x i)) (zrange (ti (mext m)))) (zrange (tk (mext m)))
  | I => existsb (fun k => existsb (fun j => mval m (T k j x)) (zrange (tj (mext m)))) (zrange (tk (mext m)))
  end.

(* np.any(mask), box_utilities.py:411 *)
Definition any_mask (m : mask) : bool :=
  existsb (fun k => any_in_layer m K k) (zrange (tk (mext m))).

(* box_utilities.py:416-420 (and 421-430): one scan; state is (local min, local max) *)
Definition scan_step (m : mask) (d : axis) (st : Z * Z) (x : Z) : Z * Z :=
  if any_in_layer m d x
  then (if fst st =? get (mext m) d then x else fst st, x)
  else st.
Definition scan_axis (m : mask) (d : axis) : Z * Z :=
  fold_left (scan_step m d) (zrange (get (mext m) d)) (get (mext m) d, -1).

(* box_utilities.py:401-438 *)
Definition trim_box_to_mask (b : box) (m : mask) : res (box * mask) :=
  do _ <- assert_ (forall3 (fun d => get (mext m) d =? get (extent_of_box b) d));
  do _ <- assert_ (any_mask m);
  let e := extent_of_box b in
  let llo := T (fst (scan_axis m K)) (fst (scan_axis m J)) (fst (scan_axis m I)) in
  let lhi := T (snd (scan_axis m K)) (snd (scan_axis m J)) (snd (scan_axis m I)) in
  do _ <- assert_ (forall3 (fun d => (0 <=? get llo d) && (0 <=? get lhi d)));
  do _ <- assert_ (forall3 (fun d => get llo d <=? get lhi d));
  do _ <- assert_ (forall3 (fun d => get lhi d <? get e d));
  let b' := Box (zip3 Z.add (lo b) llo)
                (zip3 Z.sub (hi b) (zip3 (fun n h => n - h - 1) e lhi)) in
  do _ <- assert_ (forall3 (fun d => get (lo b') d <=? get (hi b') d));
  Ok (b', slice_mask m llo lhi).
