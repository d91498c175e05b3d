(** BisectModel.v: bisectors of a grid by a set of faces, and shadows of faces
    (resqpy/grid_surface/_find_faces.py).  A bool array that is built up is held as the
    list of the indices of its True elements; a bool array that is only read is a
    function of the index. *)
From Verif Require Import QBase.
Open Scope Z_scope.

Definition cell := trip Z.
Definition cell_eqb (c d : cell) : bool := (tk c =? tk d) && (tj c =? tj d) && (ti c =? ti d).
Definition mem (c : cell) (l : list cell) : bool := existsb (cell_eqb c) l.
(** the indices of an array of the given shape in natural order *)
Definition indices (n : trip Z) : list cell :=
  flat_map (fun k => flat_map (fun j => map (fun i => T k j i) (zrange (ti n))) (zrange (tj n))) (zrange (tk n)).
Definition size (n : trip Z) : Z := tk n * tj n * ti n.

(* _find_faces.py:1906-1911: the condition for spreading to one element *)
Definition spreads (n : trip Z) (open_k open_j open_i : cell -> bool) (bisect : list cell) (c : cell) : bool :=
  let '(T k j i) := c in
  (negb (k =? 0) && mem (T (k - 1) j i) bisect && open_k (T (k - 1) j i)) ||
  (negb (j =? 0) && mem (T k (j - 1) i) bisect && open_j (T k (j - 1) i)) ||
  (negb (i =? 0) && mem (T k j (i - 1)) bisect && open_i (T k j (i - 1))) ||
  ((k <? tk n - 1) && mem (T (k + 1) j i) bisect && open_k (T k j i)) ||
  ((j <? tj n - 1) && mem (T k (j + 1) i) bisect && open_j (T k j i)) ||
  ((i <? ti n - 1) && mem (T k j (i + 1)) bisect && open_i (T k j i)).
(* _find_faces.py:1904-1914: the state is the array and [going] *)
Definition fill_element n open_k open_j open_i (st : list cell * bool) (c : cell) : list cell * bool :=
  if mem c (fst st) then st
  else if spreads n open_k open_j open_i (fst st) c then (c :: fst st, true)
  else st.
Definition fill_sweep n open_k open_j open_i (bisect : list cell) : list cell * bool :=
  fold_left (fill_element n open_k open_j open_i) (indices n) (bisect, false).
(* _find_faces.py:1892-1914 _fill_bisector; the while loop is given fuel *)
Fixpoint fill_bisector (fuel : nat) n open_k open_j open_i (bisect : list cell) : res (list cell) :=
  match fuel with
  | O => Err DivergesError
  | S fuel => let '(b, going) := fill_sweep n open_k open_j open_i bisect in
              if going then fill_bisector fuel n open_k open_j open_i b else Ok b
  end.

(** ** bounding boxes in python protocol *)
Definition box := (trip Z * trip Z)%type.
Definition amin (l : list Z) : Z := match l with [] => 0 | x :: r => fold_left Z.min r x end.
Definition amax (l : list Z) : Z := match l with [] => 0 | x :: r => fold_left Z.max r x end.
Definition axis_eqb (a b : axis) : bool := match a, b with K, K | J, J | I, I => true | _, _ => false end.

Definition faces := option (cell -> bool).
(* shape of the array of internal faces of an axis *)
Definition face_shape (n : trip Z) (a : axis) : trip Z := set n a (get n a - 1).
(* _find_faces.py:1772-1775 _where_true for the faces of axis a *)
Definition where_true (n : trip Z) (a : axis) (f : cell -> bool) : list cell := filter f (indices (face_shape n a)).
(* _find_faces.py:1676-1702: bounds of one set of faces with other side or buffer *)
Definition widen_min (n : trip Z) (f_i a : axis) (m : Z) : Z := if axis_eqb f_i a then m else if 0 <? m then m - 1 else m.
Definition widen_max (n : trip Z) (f_i a : axis) (m : Z) : Z :=
  if axis_eqb f_i a then m + 1 else if m <? get n a - 1 then m + 1 else m.
Definition face_bounds (n : trip Z) (f_i : axis) (w : list cell) : option box :=
  match w with
  | [] => None
  | c :: _ =>
    let mn := T (tk c) (amin (map tj w)) (amin (map ti w)) in
    let mx := T (tk (last w c)) (amax (map tj w)) (amax (map ti w)) in
    Some (T (widen_min n f_i K (tk mn)) (widen_min n f_i J (tj mn)) (widen_min n f_i I (ti mn)),
          T (widen_max n f_i K (tk mx)) (widen_max n f_i J (tj mx)) (widen_max n f_i I (ti mx)))
  end.
(* _find_faces.py:1704-1723 *)
Definition merge_bounds (b : option box) (c : option box) : option box :=
  match b, c with
  | None, _ => c
  | _, None => b
  | Some (b0, b1), Some (c0, c1) => Some (zip3 (fun m b => if m <? b then m else b) c0 b0, zip3 (fun m b => if b <? m then m else b) c1 b1)
  end.
(* _find_faces.py:1630-1725 get_boundary *)
Definition get_boundary (k_faces j_faces i_faces : faces) (n : trip Z) : box :=
  let one a (f : faces) := match f with None => None | Some f => face_bounds n a (where_true n a f) end in
  match merge_bounds (merge_bounds (one K k_faces) (one J j_faces)) (one I i_faces) with
  | Some (b0, b1) => (b0, map3 (fun v => v + 1) b1)
  | None => (T 0 0 0, T 1 1 1)
  end.

Definition face_list := option (list cell).
(* _find_faces.py:1991-1996: np.min and np.max of an array without rows raise ValueError *)
Definition index_bounds (f : face_list) : res (option box) :=
  match f with
  | None => Ok None
  | Some [] => Err ValueError
  | Some l => Ok (Some (T (amin (map tk l)) (amin (map tj l)) (amin (map ti l)), T (amax (map tk l)) (amax (map tj l)) (amax (map ti l))))
  end.
Definition update_bounds (b : box) (c : option box) : box :=
  match c with None => b | Some (c0, c1) => (zip3 Z.min (fst b) c0, zip3 Z.max (snd b) c1) end.
Definition all3 (f : Z -> Z -> bool) (s t : trip Z) : bool := f (tk s) (tk t) && f (tj s) (tj t) && f (ti s) (ti t).
(* _find_faces.py:1987-2030 get_boundary_from_indices *)
Definition get_boundary_from_indices (k_faces j_faces i_faces : face_list) (n : trip Z) : res box :=
  do kb <- index_bounds k_faces;
  do jb <- index_bounds j_faces;
  do ib <- index_bounds i_faces;
  let b := match kb with None => (n, T (-1) (-1) (-1)) | Some b => b end in
  let b := update_bounds b jb in
  let b := update_bounds b ib in
  do _ <- assert_ (all3 Z.leb (fst b) (snd b));
  let b0 := map3 (fun v => Z.max (v - 1) 0) (fst b) in
  let b1 := zip3 Z.min (map3 (fun v => v + 2) (snd b)) n in
  do _ <- assert_ (all3 Z.leb (T 0 0 0) b0);
  do _ <- assert_ (all3 Z.ltb b0 b1);
  do _ <- assert_ (all3 Z.leb b1 n);
  Ok (b0, b1).
(* _find_faces.py:1975-1985 _set_face_array: the True elements of a face array for the box *)
Definition box_faces (b : box) (f : face_list) : list cell :=
  match f with None => [] | Some l => map (fun c => zip3 Z.sub c (fst b)) l end.

(** ** the whole grid *)
(* array[box] = box_array on a False array, then _find_faces.py:1940-1953
   _set_bisector_outside_box; the slabs are assigned one after the other *)
Definition in_box (b : box) (c : cell) : bool := all3 Z.leb (fst b) c && all3 Z.ltb c (snd b).
Definition any_last (b : box) (box_array : list cell) (a : axis) : bool :=
  existsb (fun c => get c a =? get (snd b) a - get (fst b) a - 1) box_array.
Definition set_outside (n : trip Z) (b : box) (box_array : list cell) (a : axis) (arr : cell -> bool) : cell -> bool :=
  let arr1 c := if (get (snd b) a <? get n a) && any_last b box_array a && (get (snd b) a <=? get c a) then true else arr c in
  fun c => if negb (get (fst b) a =? 0) && (get c a <? get (fst b) a) then true else arr1 c.
Definition whole_array (n : trip Z) (b : box) (box_array : list cell) : cell -> bool :=
  let inside c := in_box b c && mem (zip3 Z.sub c (fst b)) box_array in
  set_outside n b box_array I (set_outside n b box_array J (set_outside n b box_array K inside)).

(* _find_faces.py:1917-1937 _shallow_or_curtain: the array afterwards and is_curtain; the
   means are exact here *)
Definition mean_k (l : list cell) : Q := (inject_Z (fold_right Z.add 0%Z (map (fun c => tk c + 1)%Z l)) / inject_Z (Z.of_nat (List.length l)))%Q.
Definition shallow_or_curtain (n : trip Z) (a : cell -> bool) (raw : bool) : (cell -> bool) * bool :=
  let mean := mean_k (filter a (indices n)) in
  let opposite := mean_k (filter (fun c => negb (a c)) (indices n)) in
  (if Qltb opposite mean && negb raw then fun c => negb (a c) else a,
   Qle_bool (mean - opposite) (1 # 1000) && Qle_bool (opposite - mean) (1 # 1000)).
(* _find_faces.py:1363-1404 and 1438-1478 *)
Definition bisect_box (n : trip Z) (b : box) (open_k open_j open_i : cell -> bool) (raw : bool) : res ((cell -> bool) * bool) :=
  let shape := zip3 Z.sub (snd b) (fst b) in
  do box_array <- fill_bisector (S (Z.to_nat (size shape))) shape open_k open_j open_i [T 0 0 0];
  let array := whole_array n b box_array in
  let true_count := Z.of_nat (List.length (filter array (indices n))) in
  do _ <- assert_ ((0 <? true_count) && (true_count <? size n));
  Ok (shallow_or_curtain n array raw).
(* _find_faces.py:1333-1404 bisector_from_faces; the face arrays have the shapes of the docstring *)
Definition bisector_from_faces (n : trip Z) (k_faces j_faces i_faces : faces) (raw : bool) : res ((cell -> bool) * bool) :=
  let b := get_boundary k_faces j_faces i_faces n in
  let open (f : faces) c := match f with None => true | Some f => negb (f (zip3 Z.add c (fst b))) end in
  bisect_box n b (open k_faces) (open j_faces) (open i_faces) raw.
(* _find_faces.py:1407-1478 bisector_from_face_indices *)
Definition bisector_from_face_indices (n : trip Z) (k_faces j_faces i_faces : face_list) (raw : bool) : res ((cell -> bool) * bool) :=
  do b <- get_boundary_from_indices k_faces j_faces i_faces n;
  let open (f : face_list) c := negb (mem c (box_faces b f)) in
  bisect_box n b (open k_faces) (open j_faces) (open i_faces) raw.

(** ** one layer *)
Definition col := (Z * Z)%type.
Definition col_eqb (c d : col) : bool := (fst c =? fst d) && (snd c =? snd d).
Definition mem2 (c : col) (l : list col) : bool := existsb (col_eqb c) l.
Definition indices2 (n : col) : list col := flat_map (fun j => map (fun i => (j, i)) (zrange (snd n))) (zrange (fst n)).
(* _find_faces.py:1543-1550: the cells changing in one pass *)
Definition column_change (n : col) (open_j open_i : col -> bool) (a : list col) : list col :=
  filter (fun c => let '(j, i) := c in
            negb (mem2 c a) &&
            (((1 <=? j) && mem2 (j - 1, i) a && open_j (j - 1, i)) ||
             ((j <? fst n - 1) && mem2 (j + 1, i) a && open_j (j, i)) ||
             ((1 <=? i) && mem2 (j, i - 1) a && open_i (j, i - 1)) ||
             ((i <? snd n - 1) && mem2 (j, i + 1) a && open_i (j, i))))
         (indices2 n).
Fixpoint column_loop (limit : nat) n open_j open_i (a : list col) : list col :=
  match limit with
  | O => a
  | S limit => match column_change n open_j open_i a with
               | [] => a
               | c => column_loop limit n open_j open_i (c ++ a)
               end
  end.
(* _find_faces.py:1508-1555 column_bisector_from_faces; a face array is its shape and elements *)
Definition column_bisector_from_faces (n : col) (j_faces i_faces : col * (col -> bool)) : res (list col) :=
  do _ <- assert_ (col_eqb (fst j_faces) (fst n - 1, snd n));
  do _ <- assert_ (col_eqb (fst i_faces) (fst n, snd n - 1));
  Ok (column_loop (Z.to_nat (fst n * snd n)) n (fun c => negb (snd j_faces c)) (fun c => negb (snd i_faces c)) [(0, 0)]).
(* _find_faces.py:1481-1505 column_bisector_from_face_indices *)
Definition column_bisector_from_face_indices (n : col) (j_faces i_faces : list col) : res (list col) :=
  column_bisector_from_faces n ((fst n - 1, snd n), fun c => mem2 c j_faces) ((fst n, snd n - 1), fun c => mem2 c i_faces).

(** ** shadows *)
(** the array is held as the list of its columns, each the list of its values from the top *)
(* _find_faces.py:1611-1612: from the faces of a column *)
Fixpoint shadow_start (above : bool) (f : list bool) : list Z :=
  match f with
  | [] => [if above then 2 else 0]
  | b :: f => ((if b then 1 else 0) + (if above then 2 else 0)) :: shadow_start b f
  end.
(* _find_faces.py:1614-1617: one pass over a column *)
Fixpoint pass_up (s : list Z) : list Z :=
  match s with
  | a :: ((b :: _) as r) => (if (a =? 0) && (b =? 1) then 1 else a) :: pass_up r
  | _ => s
  end.
(* _find_faces.py:1619-1622 *)
Fixpoint pass_down_aux (prev : Z) (s : list Z) : list Z :=
  match s with
  | [] => []
  | a :: r => (if (a =? 0) && (prev =? 2) then 2 else a) :: pass_down_aux a r
  end.
Definition pass_down (s : list Z) : list Z := match s with [] => [] | a :: r => a :: pass_down_aux a r end.
(* _find_faces.py:1624-1628; [hit] tells that this element is the lower one of a pair *)
Fixpoint pass_between_aux (hit : bool) (s : list Z) : list Z :=
  match s with
  | [] => []
  | [a] => [if hit then 3 else a]
  | a :: ((b :: _) as r) => let c := (2 <=? a) && (b =? 1) in (if hit || c then 3 else a) :: pass_between_aux c r
  end.
Definition pass_between (s : list Z) : list Z := pass_between_aux false s.
Definition zlist_eqb (s t : list Z) : bool := (List.length s =? List.length t)%nat && forallb (fun p => fst p =? snd p) (combine s t).
(* the loops stop at the first pass without a change anywhere *)
Fixpoint shadow_loop (limit : nat) (pass : list Z -> list Z) (cols : list (list Z)) : list (list Z) :=
  match limit with
  | O => cols
  | S limit => if forallb (fun s => zlist_eqb (pass s) s) cols then cols else shadow_loop limit pass (map pass cols)
  end.
(* _find_faces.py:1594-1628 shadow_from_faces; k_faces is held by column like the result *)
Definition shadow_from_faces (nk : Z) (k_faces : list (list bool)) : list (list Z) :=
  let limit := Z.to_nat (nk - 1) in
  shadow_loop limit pass_between (shadow_loop limit pass_down (shadow_loop limit pass_up (map (shadow_start false) k_faces))).
(* _find_faces.py:1558-1591 shadow_from_face_indices, for indices within the array of faces;
   an index given twice counts once, as assignment through an index array does *)
Definition shadow_from_face_indices (n : trip Z) (kji0 : list cell) : list (list Z) :=
  shadow_from_faces (tk n) (map (fun c => map (fun k => mem (T k (fst c) (snd c)) kji0) (zrange (tk n - 1))) (indices2 (tj n, ti n))).
