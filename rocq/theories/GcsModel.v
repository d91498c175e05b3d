(** GcsModel.v: grid connection sets of a single ijk grid
    (resqpy/fault/_grid_connection_set.py and resqpy/fault/_gcs_functions.py).
    A connection is one row of cell_index_pairs and of face_index_pairs.  Masks over cells or
    faces are functions of the index; the fixed width of the integer arrays is not modelled. *)
From Verif Require Import QBase StrModel BisectModel.
Open Scope Z_scope.

(* grid/_grid.py:276-279 natural_cell_index, 281-291 natural_cell_indices *)
Definition natural (n : trip Z) (c : cell) : Z := (tk c * tj n + tj c) * ti n + ti c.
(* grid/_grid.py:293-298 denaturalized_cell_index, 300-312 denaturalized_cell_indices *)
Definition denatural (n : trip Z) (c0 : Z) : cell :=
  let '(k0, ji0) := (c0 / (tj n * ti n), c0 mod (tj n * ti n)) in
  T k0 (ji0 / ti n) (ji0 mod ti n).

(* _grid_connection_set.py:145 face_index_map[axis, polarity]; polarity is 0 or 1 *)
Definition face_index_map (a : axis) (p : bool) : Z :=
  match a, p with K, false => 0 | K, true => 1 | J, false => 2 | J, true => 4 | I, false => 5 | I, true => 3 end.
(* _grid_connection_set.py:148 face_index_inverse_map; numpy counts negative indices from the end *)
Definition inverse_rows : list (axis * bool) := [(K, false); (K, true); (J, false); (I, true); (J, true); (I, false)].
Definition face_index_inverse_map (f : Z) : res (axis * bool) :=
  let f := if f <? 0 then f + 6 else f in
  if f <? 0 then Err IndexError else
  match nth_error inverse_rows (Z.to_nat f) with Some r => Ok r | None => Err IndexError end.

(** one row of cell_index_pairs and face_index_pairs *)
Record link := Lk { ca : Z; cb : Z; fa : Z; fb : Z }.
(** a feature: uuid of the interpretation and its title *)
Definition feature := (Z * str)%type.
(** links is None where the arrays have not been set *)
Record gcs := Gcs { links : list link; feature_indices : option (list Z); feature_list : option (list feature) }.

(* _grid_connection_set.py:630, 643, 656: distance in natural order to the next cell along an axis *)
Definition stride (n : trip Z) (a : axis) : Z := match a with K => tj n * ti n | J => ti n | I => 1 end.
(* _grid_connection_set.py:634-643 (K), 644-655 (J), 656-667 (I): the loop of one axis *)
Definition mask_link (n : trip Z) (a : axis) (side : cell -> bool) (c : cell) : link :=
  let cell := natural n c in
  if side c then Lk (cell + stride n a) cell (face_index_map a false) (face_index_map a true)
  else Lk cell (cell + stride n a) (face_index_map a true) (face_index_map a false).
Definition mask_links (n : trip Z) (a : axis) (f : faces) (side : faces) : list link :=
  match f with
  | None => []
  | Some f => map (mask_link n a (match side with None => fun _ => false | Some s => s end)) (where_true n a f)
  end.
(* _grid_connection_set.py:615-676 set_pairs_from_face_masks; fs is the feature found or made by
   _sort_out_organizing_objects *)
Definition set_pairs_from_face_masks (n : trip Z) (k_faces j_faces i_faces k_sides j_sides i_sides : faces) (fs : list feature) : gcs :=
  let l := mask_links n K k_faces k_sides ++ mask_links n J j_faces j_sides ++ mask_links n I i_faces i_sides in
  Gcs l (Some (map (fun _ => 0) l)) (Some fs).

(** ** sets made from lists of faces *)
(* _grid_connection_set.py:2301-2326 _sort_and_remove_duplicates; argsort is taken to be stable.
   The second component is the list of property arrays after the call. *)
Fixpoint insert_by {A} (key : A -> Z) (x : A) (l : list A) : list A :=
  match l with
  | [] => [x]
  | y :: r => if key x <=? key y then x :: l else y :: insert_by key x r
  end.
Definition sort_by {A} (key : A -> Z) (l : list A) : list A := fold_right (insert_by key) [] l.
Fixpoint new_flags (prev : option Z) (l : list Z) : list bool :=
  match l with
  | [] => []
  | x :: r => (match prev with None => true | Some p => negb (x =? p) end) :: new_flags (Some x) r
  end.
Definition keep_flagged {A} (m : list bool) (l : list A) : list A := map snd (filter fst (combine m l)).
Definition argsort (a : list Z) : list Z := map snd (sort_by fst (combine a (zrange (Z.of_nat (List.length a))))).
Definition take_at {A} (l : list A) (is : list Z) : res (list A) :=
  fold_right (fun i r => do r <- r; match (if i <? 0 then None else nth_error l (Z.to_nat i)) with
                                     | Some x => Ok (x :: r) | None => Err IndexError end) (Ok []) is.
Fixpoint map_res {A B} (f : A -> res B) (l : list A) : res (list B) :=
  match l with [] => Ok [] | x :: r => do y <- f x; do ys <- map_res f r; Ok (y :: ys) end.
Definition sort_and_remove_duplicates (a : list Z) (props : list (list Q)) : res (list Z * list (list Q)) :=
  if (List.length a <=? 1)%nat then Ok (a, props)
  else
    let si := argsort a in
    do b <- (match props with [] => Ok (sort_by (fun x => x) a) | _ => take_at a si end);
    let m := new_flags None b in
    if forallb (fun x => x) m then Ok (b, props)
    else
      do ps <- map_res (fun p => do q <- take_at p si; Ok (keep_flagged m q)) props;
      Ok (keep_flagged m b, ps).
(* _grid_connection_set.py:270-300: one axis *)
Definition index_links (n : trip Z) (a : axis) (l : list cell) (remove_duplicates : bool) (props : list (list Q))
  : res (list link * list (list Q)) :=
  match l with
  | [] => Ok ([], props)
  | _ =>
    let ci := map (natural n) l in
    do (ci, props) <- (if remove_duplicates then sort_and_remove_duplicates ci props else Ok (ci, props));
    Ok (map (fun c => Lk c (c + stride n a) (face_index_map a true) (face_index_map a false)) ci, props)
  end.
(* _grid_connection_set.py:204-304 from_faces_indices; the new set is for the default grid of the
   model whichever grid is passed (line 266), which is taken to be the same grid here *)
Definition from_faces_indices (n : trip Z) (kl jl il : list cell) (remove_duplicates : bool)
    (kp jp ip : list (list Q)) (fs : list feature) : res (gcs * (list (list Q) * list (list Q) * list (list Q))) :=
  do (ks, kp) <- index_links n K kl remove_duplicates kp;
  do (js, jp) <- index_links n J jl remove_duplicates jp;
  do (is, ip) <- index_links n I il remove_duplicates ip;
  let l := ks ++ js ++ is in
  Ok (Gcs l (Some (map (fun _ => 0) l)) (Some fs), (kp, jp, ip)).

(* _gcs_functions.py:127-189 cell_set_skin_connection_set: the masks of the three axes *)
Definition skin_faces (n : trip Z) (inside : cell -> bool) (a : axis) : faces :=
  Some (fun c => (1 <? get n a) && negb (Bool.eqb (inside (set c a (get c a + 1))) (inside c))).
Definition cell_set_skin (n : trip Z) (inside : cell -> bool) (fs : list feature) : gcs :=
  set_pairs_from_face_masks n (skin_faces n inside K) (skin_faces n inside J) (skin_faces n inside I) None None None fs.

(** ** reading a set *)
(* _grid_connection_set.py:1115-1122 indices_for_feature_index *)
Fixpoint positions_of (f : Z) (i : Z) (l : list Z) : list Z :=
  match l with [] => [] | x :: r => if x =? f then i :: positions_of f (i + 1) r else positions_of f (i + 1) r end.
Definition indices_for_feature_index (g : gcs) (f : Z) : option (list Z) :=
  match feature_indices g with None => None | Some fi => Some (positions_of f 0 fi) end.
(* _grid_connection_set.py:1124-1145 raw_list_of_cell_face_pairs_for_feature_index, single grid *)
Definition raw_list_for_feature (g : gcs) (f : Z) : res (option (list link)) :=
  match indices_for_feature_index g f with
  | None => Ok None
  | Some m => do l <- take_at (links g) m; Ok (Some l)
  end.
Definition side := (cell * (axis * bool))%type.
Definition decode_link (n : trip Z) (l : link) : res (side * side) :=
  do f <- face_index_inverse_map (fa l);
  do g <- face_index_inverse_map (fb l);
  Ok ((denatural n (ca l), f), (denatural n (cb l), g)).
(* _grid_connection_set.py:1176-1212 list_of_cell_face_pairs_for_feature_index: None for all features;
   the two arrays returned are zipped *)
Definition list_of_cell_face_pairs (n : trip Z) (g : gcs) (f : option Z) : res (option (list (side * side))) :=
  do raw <- (match f with None => Ok (Some (links g)) | Some f => raw_list_for_feature g f end);
  match raw with
  | None => Ok None
  | Some l => do r <- map_res (decode_link n) l; Ok (Some r)
  end.
(* _grid_connection_set.py:1094-1113 feature_index_for_cell_face *)
Fixpoint first_match (cell face : Z) (l : list link) (fi : list Z) : res (option Z) :=
  match l with
  | [] => Ok None
  | x :: r =>
    if ((ca x =? cell) && (fa x =? face)) || ((cb x =? cell) && (fb x =? face))
    then match fi with f :: _ => Ok (Some f) | [] => Err IndexError end
    else first_match cell face r (tl fi)
  end.
Definition feature_index_for_cell_face (n : trip Z) (g : gcs) (c : cell) (a : axis) (p : bool) : res (option Z) :=
  match feature_indices g with
  | None => Ok None
  | Some fi => first_match (natural n c) (face_index_map a p) (links g) fi
  end.

(** ** kelp: sets of column edges *)
(* _grid_connection_set.py:1214-1250 simplified_sets_of_kelp_for_feature_index: the columns added
   to the J and to the I set for one side of a connection *)
Definition kelp_of_side (s : side) : list (axis * (Z * Z)) :=
  let '(c, (a, p)) := s in
  match a with
  | K => []
  | _ => let c := if p then c else set c a (get c a - 1) in
         if negb p && (get c a <? 0) then [] else [(a, (tj c, ti c))]
  end.
Definition axis_is (a : axis) (e : axis * (Z * Z)) : bool := axis_eqb a (fst e).
Definition simplified_sets_of_kelp (n : trip Z) (g : gcs) (f : Z) : res (list (Z * Z) * list (Z * Z)) :=
  do r <- list_of_cell_face_pairs n g (Some f);
  match r with
  | None => Err TypeError
  | Some l =>
    let es := flat_map (fun '(s, t) => kelp_of_side s ++ kelp_of_side t) l in
    Ok (map snd (filter (axis_is J) es), map snd (filter (axis_is I) es))
  end.
(* _grid_connection_set.py:505-540, axis K: a layer of marks from a list of columns; numpy wraps
   negative indices and raises IndexError beyond the shape *)
Definition wrap_index (m i : Z) : res Z :=
  if (0 <=? i) && (i <? m) then Ok i else if (- m <=? i) && (i <? 0) then Ok (i + m) else Err IndexError.
Definition wrap_pair (m0 m1 : Z) (p : Z * Z) : res (Z * Z) :=
  do a <- wrap_index m0 (fst p); do b <- wrap_index m1 (snd p); Ok (a, b).
Definition mem2 (p : Z * Z) (l : list (Z * Z)) : bool := existsb (fun q => (fst p =? fst q) && (snd p =? snd q)) l.
Definition kelp_faces (n : trip Z) (a : axis) (kelp : list (Z * Z)) : res faces :=
  match kelp with
  | [] => Ok None
  | _ => if 1 <? get n a then
           do l <- map_res (wrap_pair (tj (face_shape n a)) (ti (face_shape n a))) kelp;
           Ok (Some (fun c => mem2 (tj c, ti c) l))
         else Ok None
  end.
(* _grid_connection_set.py:474-553 set_pairs_from_kelp with axis 'K' *)
Definition set_pairs_from_kelp (n : trip Z) (kelp_j kelp_i : list (Z * Z)) (fs : list feature) : res gcs :=
  do jf <- kelp_faces n J kelp_j;
  do i_f <- kelp_faces n I kelp_i;
  Ok (set_pairs_from_face_masks n None jf i_f None None None fs).

(* _grid_connection_set.py:1252-1291 rework_face_pairs *)
Definition rework_link (n : trip Z) (l : link) : link :=
  let a := denatural n (ca l) in
  let b := denatural n (cb l) in
  let faces :=
    if tj a =? tj b then
      if ti a =? ti b + 1 then Some (face_index_map I false, face_index_map I true)
      else if ti a =? ti b - 1 then Some (face_index_map I true, face_index_map I false)
      else None
    else if ti a =? ti b then
      if tj a =? tj b + 1 then Some (face_index_map J false, face_index_map J true)
      else if tj a =? tj b - 1 then Some (face_index_map J true, face_index_map J false)
      else None
    else None in
  match faces with None => l | Some (f, g) => Lk (ca l) (cb l) f g end.
Definition rework_face_pairs (n : trip Z) (g : gcs) : gcs :=
  match feature_indices g with
  | None => g
  | Some _ => Gcs (map (rework_link n) (links g)) (feature_indices g) (feature_list g)
  end.

(** ** grid face arrays *)
Section FaceArrays.
  Context {V : Type}.
  (** the three arrays (nk + 1, nj, ni), (nk, nj + 1, ni), (nk, nj, ni + 1) *)
  Definition arrays := axis -> cell -> V.
  (* numpy assignment to one element *)
  Definition wrap_cell (s : trip Z) (c : cell) : res cell :=
    do k <- wrap_index (tk s) (tk c); do j <- wrap_index (tj s) (tj c); do i <- wrap_index (ti s) (ti c); Ok (T k j i).
  Definition grid_face_shape (n : trip Z) (a : axis) : trip Z := set n a (get n a + 1).
  Definition put (arr : arrays) (a : axis) (c : cell) (v : V) : arrays :=
    fun b d => if axis_eqb a b && cell_eqb c d then v else arr b d.
  (* _grid_connection_set.py:2279-2297: the assignments for one side; the three axes go to
     three arrays so that their order does not matter *)
  Definition write_side (n : trip Z) (r : res arrays) (sv : side * V) : res arrays :=
    do arr <- r;
    let '((c, (a, p)), v) := sv in
    do c <- wrap_cell (grid_face_shape n a) (set c a (get c a + if p then 1 else 0));
    Ok (put arr a c v).
  (* _grid_connection_set.py:2178-2300 grid_face_arrays: values and masks are given as lists over
     the connections; zero is the value set where the baffle mask is True *)
  Fixpoint where2 (m : list bool) (v : list V) (zero : V) : list V :=
    match m, v with b :: m, x :: v => (if b then zero else x) :: where2 m v zero | _, _ => v end.
  Definition grid_face_arrays (n : trip Z) (g : gcs) (values : list V) (default zero : V) (feature_index : option Z)
      (active : option (list bool)) (lazy : bool) (baffle : option (list bool)) : res arrays :=
    let count := List.length (links g) in
    do _ <- (match active with Some m => assert_ (Nat.eqb (List.length m) count) | None => Ok tt end);
    do _ <- assert_ (Nat.eqb (List.length values) count);
    do pairs <- list_of_cell_face_pairs n g feature_index;
    match pairs with
    | None => Err TypeError
    | Some pairs =>
      do values <- (match baffle with
                    | None => Ok values
                    | Some m => if Nat.eqb (List.length m) count then Ok (where2 m values zero) else Err IndexError
                    end);
      do (values, active) <-
        (match feature_index with
         | None => Ok (values, active)
         | Some f => match indices_for_feature_index g f with
                     | None => Err TypeError
                     | Some is => do v <- take_at values is;
                                  match active with
                                  | None => Ok (v, None)
                                  | Some m => do m <- take_at m is; Ok (v, Some m)
                                  end
                     end
         end);
      let '(pairs, values) := match active with
                              | None => (pairs, values)
                              | Some m => (keep_flagged m pairs, keep_flagged m values)
                              end in
      let first := combine (map fst pairs) values in
      let second := if lazy then [] else combine (map snd pairs) values in
      fold_left (write_side n) (first ++ second) (Ok (fun _ _ => default))
    end.
End FaceArrays.
Arguments arrays : clear implicits.

(** ** combination of transmissibility multipliers; None is NaN *)
Inductive merge_mode := Minimum | Multiply | Maximum | Exception.
(* _gcs_functions.py:432-453: one face; the exception is raised where any face clashes *)
Definition merge_face (m : merge_mode) (combo new : option Q) : res (option Q) :=
  match new, combo with
  | None, _ => Ok combo
  | Some _, None => Ok new
  | Some v, Some w =>
    match m with
    | Exception => Err ValueError
    | Minimum => Ok (Some (Qminb w v))
    | Maximum => Ok (Some (Qmaxb w v))
    | Multiply => Ok (Some (w * v)%Q)
    end
  end.
(* a face of the combined arrays after the loop over the sets *)
Definition merge_faces (m : merge_mode) (vs : list (option Q)) : res (option Q) :=
  fold_left (fun r v => do c <- r; merge_face m c v) vs (Ok None).
(* _gcs_functions.py:457-463 *)
Definition finish_face (fill : option Q) (v : option Q) : res (option Q) :=
  let v := match v, fill with None, Some f => Some f | _, _ => v end in
  match v with Some q => if (0 <=b q)%Q then Ok v else Err AssertionError | None => Ok None end.
Definition all_faces (n : trip Z) : list (axis * cell) :=
  flat_map (fun a => map (pair a) (indices (grid_face_shape n a))) [K; J; I].
(* _gcs_functions.py:352-465 combined_tr_mult_from_gcs_mults: each set is given by its connections,
   multipliers, active mask and baffle mask.  The arrays are combined face by face. *)
Record mult_set := MS { ms_gcs : gcs; ms_values : list (option Q); ms_active : option (list bool); ms_baffle : option (list bool) }.
Definition set_arrays (n : trip Z) (active_only apply_baffles lazy : bool) (s : mult_set) : res (arrays (option Q)) :=
  grid_face_arrays n (ms_gcs s) (ms_values s) None (Some 0%Q) None (if active_only then ms_active s else None) lazy
    (if apply_baffles then ms_baffle s else None).
Definition default_sided (m : merge_mode) (sided : option bool) : bool :=
  match sided with Some b => b | None => match m with Multiply => false | _ => true end end.
Definition merged_at (m : merge_mode) (arrs : list (arrays (option Q))) (ac : axis * cell) : res (option Q) :=
  merge_faces m (map (fun arr : arrays (option Q) => arr (fst ac) (snd ac)) arrs).
Definition combined_tr_mult (n : trip Z) (sets : list mult_set) (m : merge_mode) (sided : option bool) (fill : option Q)
    (active_only apply_baffles : bool) : res (arrays (option Q)) :=
  do _ <- assert_ (match sets with [] => false | _ => true end);
  do arrs <- map_res (set_arrays n active_only apply_baffles (negb (default_sided m sided))) sets;
  do _ <- map_res (merged_at m arrs) (all_faces n);
  do _ <- map_res (fun ac => do v <- merged_at m arrs ac; finish_face fill v) (all_faces n);
  Ok (fun a c => match (do v <- merged_at m arrs (a, c); finish_face fill v) with Ok v => v | Err _ => None end).

(** ** subsets and unions *)
(* _grid_connection_set.py:862-881 clean_feature_list; np.unique is sorted and without repeats *)
Fixpoint unique_sorted (l : list Z) : list Z :=
  match l with
  | [] => []
  | x :: r => match r with y :: _ => if x =? y then unique_sorted r else x :: unique_sorted r | [] => [x] end
  end.
Definition unique (l : list Z) : list Z := unique_sorted (sort_by (fun x => x) l).
Fixpoint clean_loop (i : Z) (keep : list Z) (fi : list Z) (fl : list feature) : res (list Z * list feature) :=
  match keep with
  | [] => Ok (fi, [])
  | k :: keep =>
    do _ <- assert_ (i <=? k);
    let fi := if i =? k then fi else map (fun f => if f =? k then i else f) fi in
    do x <- (match nth_error fl (Z.to_nat k) with Some x => Ok x | None => Err IndexError end);
    do (fi, r) <- clean_loop (i + 1) keep fi fl;
    Ok (fi, x :: r)
  end.
Definition clean_feature_list (g : gcs) : res gcs :=
  match feature_indices g, feature_list g with
  | Some fi, Some fl =>
    let keep := unique fi in
    if Nat.eqb (List.length keep) (List.length fl) then Ok g
    else do (fi, fl) <- clean_loop 0 keep fi fl; Ok (Gcs (links g) (Some fi) (Some fl))
  | _, _ => Err TypeError
  end.
(* _grid_connection_set.py:815-860 filtered_by_cell_mask; the second component is the list of the
   indices of the connections which are kept *)
Definition flat_index (n : trip Z) (c0 : Z) : res Z := wrap_index (size n) c0.
Definition passes (n : trip Z) (mask : cell -> bool) (both : bool) (l : link) : res bool :=
  do a <- flat_index n (ca l);
  do b <- flat_index n (cb l);
  Ok (if both then mask (denatural n a) && mask (denatural n b) else mask (denatural n a) || mask (denatural n b)).
Definition filtered_by_cell_mask (n : trip Z) (g : gcs) (mask : cell -> bool) (both pare_down : bool) : res (option (gcs * list Z)) :=
  do m <- map_res (passes n mask both) (links g);
  let is := keep_flagged m (zrange (Z.of_nat (List.length (links g)))) in
  match is with
  | [] => Ok None
  | _ =>
    match feature_indices g, feature_list g with
    | Some fi, Some fl =>
      do fi <- take_at fi is;
      let r := Gcs (keep_flagged m (links g)) (Some fi) (Some fl) in
      do r <- (if pare_down then clean_feature_list r else Ok r);
      Ok (Some (r, is))
    | None, _ => Err TypeError
    | Some _, None => Err AttributeError
    end
  end.
(* _grid_connection_set.py:771-813 filtered_by_layer_range; a bound of None raises TypeError and a
   set without connections is not considered.  Slices count negative bounds from the end. *)
Definition in_slice (m lo hi k : Z) : bool :=
  let norm b := if b <? 0 then Z.max 0 (b + m) else b in (norm lo <=? k) && (k <? norm hi).
Definition filtered_by_layer_range (n : trip Z) (g : gcs) (min_k0 max_k0 : Z) (pare_down : bool) : res (option (gcs * list Z)) :=
  let lo := if min_k0 <=? 0 then None else Some min_k0 in
  let hi := if tk n - 1 <=? max_k0 then None else Some max_k0 in
  match lo, hi with
  | None, None => Ok (Some (g, zrange (Z.of_nat (List.length (links g)))))
  | _, _ =>
    let mask c := match lo, hi with
                  | Some lo, Some hi => in_slice (tk n) lo (hi + 1) (tk c)
                  | Some lo, None => in_slice (tk n) lo (tk n) (tk c)
                  | None, Some hi => in_slice (tk n) 0 (hi + 1) (tk c)
                  | None, None => true
                  end in
    filtered_by_cell_mask n g mask true pare_down
  end.
(* _grid_connection_set.py:1046-1065 feature_index_and_uuid_for_fault_name *)
Fixpoint feature_named (name : str) (i : Z) (fl : list feature) : option Z :=
  match fl with [] => None | (_, t) :: r => if startswith t name then Some i else feature_named name (i + 1) r end.
(* _grid_connection_set.py:747-769 single_feature, by index *)
Definition single_feature (g : gcs) (f : Z) : res (option gcs) :=
  match feature_list g with
  | None => Err TypeError
  | Some fl =>
    if (f <? 0) || (Z.of_nat (List.length fl) <=? f) then Ok None
    else
      do raw <- raw_list_for_feature g f;
      match raw with
      | None => Err TypeError
      | Some l => match nth_error fl (Z.to_nat f) with
                  | None => Err IndexError
                  | Some x => Ok (Some (Gcs l (Some (map (fun _ => 0) l)) (Some [x])))
                  end
      end
  end.
(* the same, by name *)
Definition single_feature_named (g : gcs) (name : str) : res (option gcs) :=
  match feature_list g with
  | None => Ok None
  | Some fl => match feature_named name 0 fl with None => Ok None | Some f => single_feature g f end
  end.
(* _grid_connection_set.py:706-745 append: both for the same grid *)
Definition append (g h : gcs) : gcs :=
  match links g with
  | [] => h
  | _ =>
    let '(offset, fl, fi) := match feature_list g, feature_list h with
                             | Some a, Some b => (Z.of_nat (List.length a), Some (a ++ b), feature_indices g)
                             | _, _ => (0, None, None)
                             end in
    let fi := match fi, feature_indices h with
              | Some a, Some b => Some (a ++ map (fun f => f + offset) b)
              | _, _ => None
              end in
    Gcs (links g ++ links h) fi fl
  end.

(** ** connections across pinchouts and k gaps *)
(* _gcs_functions.py:46-69: one column; po and dead are the columns of the masks *)
Fixpoint advance (fuel : nat) (p : Z -> bool) (k : Z) : Z :=
  match fuel with O => k | S fuel => if p k then advance fuel p (k + 1) else k end.
Fixpoint pinch_column (fuel : nat) (nk : Z) (po dead gap : Z -> bool) (skip_inactive : bool) (k : Z) : res (list (Z * Z)) :=
  match fuel with
  | O => Err DivergesError
  | S fuel =>
    let ka := advance (Z.to_nat nk) (fun k => (k <? nk - 1) && po k) k in
    let ka := advance (Z.to_nat nk) (fun k => (k <? nk - 1) && negb (po (k + 1))) ka in
    if nk - 1 <=? ka then Ok []
    else if (skip_inactive && dead ka) || gap ka then pinch_column fuel nk po dead gap skip_inactive (ka + 1)
    else
      let kb := advance (Z.to_nat nk) (fun k => (k <? nk) && po k) (ka + 1) in
      if nk <=? kb then Ok []
      else if skip_inactive && dead kb then pinch_column fuel nk po dead gap skip_inactive (kb + 1)
      else do r <- pinch_column fuel nk po dead gap skip_inactive (kb + 1); Ok ((ka, kb) :: r)
  end.
Definition columns (n : trip Z) : list (Z * Z) := flat_map (fun j => map (pair j) (zrange (ti n))) (zrange (tj n)).
(* _gcs_functions.py:565-596 _make_k_gcs_from_cip_list *)
Definition make_k_gcs (cip : list (Z * Z)) (fs : list feature) : option gcs :=
  match cip with
  | [] => None
  | _ => Some (Gcs (map (fun '(a, b) => Lk a b 1 0) cip) (Some (map (fun _ => 0) cip)) (Some fs))
  end.
(* _gcs_functions.py:23-73 pinchout_connection_set; gap k is grid.k_gaps and k_gap_after_array[k] *)
Definition pinchout_connection_set (n : trip Z) (po dead : cell -> bool) (gap : Z -> bool) (skip_inactive : bool) (fs : list feature)
  : res (option gcs) :=
  do cip <- map_res (fun '(j, i) =>
      do r <- pinch_column (S (Z.to_nat (tk n))) (tk n) (fun k => po (T k j i)) (fun k => dead (T k j i)) gap skip_inactive 0;
      Ok (map (fun '(a, b) => (natural n (T a j i), natural n (T b j i))) r)) (columns n);
  Ok (make_k_gcs (List.concat cip) fs).
(* _gcs_functions.py:76-124 k_gap_connection_set where the grid has k gaps; thickness k j i is the
   mean over the four pillars of the thickness of the gap below layer k, None for NaN, with the
   sign changed where the z axis is flipped *)
Definition k_gap_connection_set (n : trip Z) (gap : Z -> bool) (thickness : cell -> option Q) (dead : cell -> bool)
    (skip_inactive : bool) (tolerance : Q) (fs : list feature) : option gcs :=
  let wanted c := gap (tk c) && match thickness c with Some t => (t <b tolerance)%Q | None => false end
                  && negb (skip_inactive && (dead c || dead (T (tk c + 1) (tj c) (ti c)))) in
  make_k_gcs (map (fun c => (natural n c, natural n (T (tk c + 1) (tj c) (ti c)))) (where_true n K wanted)) fs.

(** ** cached connection sets of a grid *)
(* grid/_connection_sets.py:11-206 fault_connection_set, pinchout_connection_set and
   k_gap_connection_set have the same form: the attributes fgcs, fgcs_skip_inactive and
   array_fgcs_transmissibility (pgcs.., kgcs..) of the grid are the state.  build is the function
   which makes the set, for a given value of skip_inactive and other arguments (tolerance), and
   trans the computation of transmissibilities.  Writing to the model and the inheriting of
   features are not modelled. *)
Section Cached.
  Context {G X : Type}.
  Variables (build : bool -> X -> option G) (trans : G -> list Q).
  Record cache := Cache { c_set : option (option G * bool); c_trans : option (list Q) }.
  Definition cached_set (s : cache) (skip : bool) (x : X) (compute : bool) : cache * (option G * option (list Q)) :=
    let set := match c_set s with
               | Some (g, sk) => if Bool.eqb sk skip then g else build skip x
               | None => build skip x
               end in
    let s := Cache (Some (set, skip)) (c_trans s) in
    match set with
    | None => (s, (None, None))
    | Some g =>
      let t := match c_trans s with
               | Some t => Some t
               | None => if compute then Some (trans g) else None
               end in
      (Cache (c_set s) t, (Some g, t))
    end.
  Fixpoint calls (s : cache) (l : list (bool * X * bool)) : cache :=
    match l with [] => s | (skip, x, compute) :: r => calls (fst (cached_set s skip x compute)) r end.
End Cached.
Arguments cache : clear implicits.
