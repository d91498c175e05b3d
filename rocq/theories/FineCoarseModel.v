(** FineCoarseModel.v: model of class FineCoarse and tartan_refinement,
    /repo/resqpy/olio/fine_coarse.py.  Each of the three axes holds its own
    extents, ratios and proportions.  The optional within_fine_box /
    within_coarse_box (only stored by the class) and write_cartref are left out.
    Proportions are rationals instead of floats. *)
From Verif Require Import Base BoxModel.
From Coq Require Import QArith Qround.
Open Scope Z_scope.

Record axdata := Ax {
  fine : Z; coarse : Z;                (* fine_extent_kji[axis], coarse_extent_kji[axis] *)
  cratio : option Z;                   (* constant_ratios[axis] *)
  vratio : option (list Z);            (* vector_ratios[axis] *)
  eqprop : bool;                       (* equal_proportions[axis] *)
  vprop : option (list (list Q)) }.    (* vector_proportions[axis] *)

(** np.empty(...) contents are unknown: [None] is an uninitialised element. *)
Definition cvec := list (option Z).
Record fc := FC {
  ax : trip axdata;
  cache : option (trip (option cvec)) }.  (* fine_to_coarse_mapping *)

(* fine_coarse.py:375-380 *)
Definition extents_valid (fe ce : Z) : bool := (0 <? fe) && (ce <=? fe).

(* fine_coarse.py:19-63 *)
Definition fc_init (fe ce : cell) : res fc :=
  do _ <- assert_ (forall3 (fun d => extents_valid (get fe d) (get ce d)));
  Ok (FC (zip3 (fun f c => Ax f c None None true None) fe ce) None).

(** numpy / Python list indexing, negative indices counting from the end. *)
Definition py_nth {A} (l : list A) (i : Z) : res A :=
  let n := Z.of_nat (List.length l) in
  let j := if i <? 0 then n + i else i in
  if (j <? 0) || (n <=? j) then Err IndexError
  else match nth_error l (Z.to_nat j) with Some x => Ok x | None => Err IndexError end.

(** [l[:c]] *)
Definition py_prefix {A} (l : list A) (c : Z) : list A :=
  if c <? 0 then firstn (Z.to_nat (Z.of_nat (List.length l) + c)) l else firstn (Z.to_nat c) l.

Definition zsum (l : list Z) : Z := fold_right Z.add 0 l.

(* fine_coarse.py:102-107; subscripting None is a TypeError *)
Definition ratio (a : axdata) (c0 : Z) : res Z :=
  match cratio a with
  | Some r => Ok r
  | None => match vratio a with None => Err TypeError | Some v => py_nth v c0 end
  end.

(* fine_coarse.py:143-148 *)
Definition fine_base_for_coarse_axial (a : axdata) (c0 : Z) : res Z :=
  match cratio a with
  | Some r => Ok (c0 * r)
  | None => match vratio a with None => Err TypeError | Some v => Ok (zsum (py_prefix v c0)) end
  end.

Definition seq3 {A} (t : trip (res A)) : res (trip A) :=
  do k <- tk t; do j <- tj t; do i <- ti t; Ok (T k j i).

(* fine_coarse.py:109-112 *)
Definition ratios (s : fc) (c : cell) : res cell := seq3 (zip3 ratio (ax s) c).

(* fine_coarse.py:150-156 *)
Definition fine_base_for_coarse (s : fc) (c : cell) : res cell :=
  seq3 (zip3 fine_base_for_coarse_axial (ax s) c).

(* fine_coarse.py:158-168 *)
Definition fine_box_for_coarse (s : fc) (c : cell) : res box :=
  do b <- fine_base_for_coarse s c;
  do r <- ratios s c;
  Ok (Box b (zip3 (fun b r => b + r - 1) b r)).

(** [a[f0:f1] = v] for 0 <= f0 <= f1 *)
Fixpoint slice_set_from (i : Z) (l : cvec) (f0 f1 v : Z) : cvec :=
  match l with
  | [] => []
  | x :: l' => (if (f0 <=? i) && (i <? f1) then Some v else x) :: slice_set_from (i + 1) l' f0 f1 v
  end.
Definition slice_set (l : cvec) (f0 f1 v : Z) : cvec := slice_set_from 0 l f0 f1 v.

(* fine_coarse.py:387-390: the loop over coarse slices, state (f0, array) *)
Fixpoint map_loop (a : axdata) (cs : list Z) (f0 : Z) (arr : cvec) : res (Z * cvec) :=
  match cs with
  | [] => Ok (f0, arr)
  | c0 :: cs' =>
      do r <- ratio a c0;
      map_loop a cs' (f0 + r) (slice_set arr f0 (f0 + r) c0)
  end.

(* fine_coarse.py:385-391: one axis; the outcome of the axis (value stored, and
   whether the final assertion holds) *)
Definition map_axis (a : axdata) : option cvec * res unit :=
  let empty := repeat None (Z.to_nat (fine a)) in
  match map_loop a (zrange (coarse a)) 0 empty with
  | Err e => (Some empty, Err e)       (* contents unimportant: array object present *)
  | Ok (f0, arr) => (Some arr, assert_ (f0 =? fine a))
  end.

(* fine_coarse.py:382-391: the cache is assigned before the loops run, so it
   stays (partly) filled when an exception is raised *)
Definition set_mapping (s : fc) : fc * res unit :=
  let (k, ek) := map_axis (tk (ax s)) in
  match ek with
  | Err e => (FC (ax s) (Some (T k None None)), Err e)
  | Ok _ =>
    let (j, ej) := map_axis (tj (ax s)) in
    match ej with
    | Err e => (FC (ax s) (Some (T k j None)), Err e)
    | Ok _ =>
      let (i, ei) := map_axis (ti (ax s)) in
      (FC (ax s) (Some (T k j i)), ei)
    end
  end.

(* fine_coarse.py:114-119 (also 139-141 with a single axis selected) *)
Definition coarse_for_fine (s : fc) : fc * res (trip (option cvec)) :=
  match cache s with
  | Some m => (s, Ok m)
  | None =>
      let (s', e) := set_mapping s in
      match e, cache s' with
      | Ok _, Some m => (s', Ok m)
      | Ok _, None => (s', Err TypeError)
      | Err x, _ => (s', Err x)
      end
  end.

(** Index one axis of the mapping; subscripting a None entry is a TypeError, an
    uninitialised element is reported as None. *)
Definition map_lookup (m : trip (option cvec)) (d : axis) (f0 : Z) : res (option Z) :=
  match get m d with None => Err TypeError | Some v => py_nth v f0 end.

(* fine_coarse.py:129-134 *)
Definition coarse_for_fine_axial (s : fc) (d : axis) (f0 : Z) : fc * res (option Z) :=
  let (s', m) := coarse_for_fine s in (s', do m <- m; map_lookup m d f0).

(* fine_coarse.py:121-127 *)
Definition coarse_for_fine_kji0 (s : fc) (f : cell) : fc * res (trip (option Z)) :=
  let (s', m) := coarse_for_fine s in
  (s', do m <- m; seq3 (T (map_lookup m K (tk f)) (map_lookup m J (tj f)) (map_lookup m I (ti f)))).

(* fine_coarse.py:219-226 *)
Definition set_constant_ratio_ax (a : axdata) : res axdata :=
  if coarse a =? 0 then Err ZeroDivisionError
  else
    do _ <- assert_ (fine a mod coarse a =? 0);
    Ok (Ax (fine a) (coarse a) (Some (fine a / coarse a)) None (eqprop a) (vprop a)).

Definition zmin_list (v : list Z) : Z := fold_right Z.min (hd 0 v) v.
Definition zmax_list (v : list Z) : Z := fold_right Z.max (hd 0 v) v.

(* fine_coarse.py:240-260; np.min of an empty vector cannot be reached since the
   sum assertion fails first (fine extent is positive) *)
Definition set_ratio_vector_ax (a : axdata) (v : list Z) : res axdata :=
  do _ <- assert_ (Z.of_nat (List.length v) =? coarse a);
  do _ <- assert_ (zsum v =? fine a);
  let mn := zmin_list v in
  do _ <- assert_ (0 <? mn);
  if mn =? zmax_list v then
    do a' <- set_constant_ratio_ax a;
    do _ <- assert_ (match cratio a' with Some r => r =? mn | None => false end);
    Ok a'
  else Ok (Ax (fine a) (coarse a) None (Some v) (eqprop a) (vprop a)).

(** The setters touch the axis only (never the cache): fine_coarse.py:219-260. *)
Definition set_constant_ratio (s : fc) (d : axis) : res fc :=
  do a <- set_constant_ratio_ax (get (ax s) d); Ok (FC (set (ax s) d a) (cache s)).
Definition set_ratio_vector (s : fc) (d : axis) (v : list Z) : res fc :=
  do a <- set_ratio_vector_ax (get (ax s) d) v; Ok (FC (set (ax s) d a) (cache s)).

(* fine_coarse.py:307-322 and 324-339: first fine index for a coarse index, with
   the code's own case split *)
Definition first_fine (a : axdata) (x : Z) : res Z :=
  match cratio a with
  | None => if x =? 0 then Ok x
            else match vratio a with None => Err TypeError | Some v => Ok (zsum (py_prefix v x)) end
  | Some r => Ok (x * r)
  end.
(* divmod by a zero extent is a ZeroDivisionError *)
Definition fine_for_coarse_natural_column_index (s : fc) (col : Z) : res Z :=
  let ni := coarse (ti (ax s)) in
  if ni =? 0 then Err ZeroDivisionError
  else
    do j <- first_fine (tj (ax s)) (col / ni);
    do i <- first_fine (ti (ax s)) (col mod ni);
    Ok (j * fine (ti (ax s)) + i).
Definition fine_for_coarse_natural_pillar_index (s : fc) (p : Z) : res Z :=
  let ni1 := coarse (ti (ax s)) + 1 in
  if ni1 =? 0 then Err ZeroDivisionError
  else
    do j <- first_fine (tj (ax s)) (p / ni1);
    do i <- first_fine (ti (ax s)) (p mod ni1);
    Ok (j * (fine (ti (ax s)) + 1) + i).

(** * Proportions *)
Definition qsum (l : list Q) : Q := fold_right Qplus 0%Q l.

(* fine_coarse.py:170-181; division of 1.0 by float(0) is a ZeroDivisionError,
   np.full with a negative count a ValueError *)
Definition proportion (a : axdata) (c0 : Z) : res (list Q) :=
  if eqprop a then
    do n <- ratio a c0;
    if n =? 0 then Err ZeroDivisionError
    else if n <? 0 then Err ValueError
    else Ok (repeat (1 / inject_Z n)%Q (Z.to_nat n))
  else match vprop a with None => Err TypeError | Some vp => py_nth vp c0 end.

(* fine_coarse.py:183-200; the slice assignments of lines 193-195 fill
   consecutive blocks, written here as a concatenation, padded with the zeros of
   line 191 and cut to the fine extent *)
Definition proportions_for_axis (a : axdata) : res (list Q) :=
  if eqprop a then
    match cratio a with
    | None =>
        match vratio a with
        | None => Err AssertionError
        | Some v =>
            do _ <- assert_ (Z.of_nat (List.length v) =? coarse a);
            let l := flat_map (fun r => repeat (1 / inject_Z r)%Q (Z.to_nat r)) v in
            Ok (firstn (Z.to_nat (fine a)) (l ++ repeat 0%Q (Z.to_nat (fine a))))
        end
    | Some r =>
        if r =? 0 then Err ZeroDivisionError
        else Ok (repeat (1 / inject_Z r)%Q (Z.to_nat (fine a)))
    end
  else match vprop a with None => Err ValueError | Some vp => Ok (List.concat vp) end.

(* fine_coarse.py:207-212: running totals; [n] entries are produced starting
   from the accumulated value *)
Fixpoint interp_loop (props : list Q) (acc : Q) (n : nat) : res (list Q) :=
  match n with
  | O => Ok []
  | S n' =>
      match props with
      | [] => if Nat.eqb n' 0 then Ok [acc] else Err IndexError
      | p :: ps => do rest <- interp_loop ps (acc + p)%Q n'; Ok (acc :: rest)
      end
  end.
Definition interpolation (a : axdata) (c0 : Z) : res (list Q) :=
  do n <- ratio a c0;
  if n <? 0 then Err ValueError
  else do p <- proportion a c0; interp_loop p 0%Q (Z.to_nat n).

Definition qmax_list (v : list Q) : Q := fold_right (fun x y => if Qle_bool x y then y else x) (hd 0%Q v) v.
Definition qmin_list (v : list Q) : Q := fold_right (fun x y => if Qle_bool x y then x else y) (hd 0%Q v) v.
Definition q_near : Q := (1 # 1000000)%Q.
Definition q_pos (q : Q) : bool := negb (Qle_bool q 0%Q).

(* fine_coarse.py:284-299, one coarse slice; line 290's message concatenates a
   string and an int, so a wrong length raises TypeError *)
Definition prop_slice (a : axdata) (c0 : Z) (v : list Q) : res (list Q * bool) :=
  do n <- ratio a c0;
  if negb (Z.of_nat (List.length v) =? n) then Err TypeError
  else
    do _ <- assert_ (forallb q_pos v);
    let f := map (fun x => x / qsum v)%Q v in
    Ok (f, Qle_bool (qmax_list f - qmin_list f) q_near).

Fixpoint prop_loop (a : axdata) (c0 : Z) (vs : list (list Q)) : res (list (list Q) * bool) :=
  match vs with
  | [] => Ok ([], true)
  | v :: vs' =>
      do (f, e) <- prop_slice a c0 v;
      do (fs, es) <- prop_loop a (c0 + 1) vs';
      Ok (f :: fs, e && es)
  end.

(* fine_coarse.py:275-305 *)
Definition set_proportions (a : axdata) (vs : list (list Q)) : res axdata :=
  do _ <- assert_ (Z.of_nat (List.length vs) =? coarse a);
  do (fs, all_equal) <- prop_loop a 0 vs;
  if (all_equal : bool) then Ok (Ax (fine a) (coarse a) (cratio a) (vratio a) true None)
  else Ok (Ax (fine a) (coarse a) (cratio a) (vratio a) false (Some fs)).

(** * Histories of calls on one object (used for C11) *)
Inductive fcop := OpConst (d : axis) | OpVec (d : axis) (v : list Z) | OpQuery.
(** Setters that raise leave the object as it was (the last assertion of
    set_ratio_vector, the only one after a mutation, cannot fail: lemma
    set_ratio_vector_ax_iff). *)
Definition fc_step (s : fc) (o : fcop) : fc :=
  match o with
  | OpConst d => match set_constant_ratio s d with Ok s' => s' | Err _ => s end
  | OpVec d v => match set_ratio_vector s d v with Ok s' => s' | Err _ => s end
  | OpQuery => fst (coarse_for_fine s)
  end.
Definition fc_run (s : fc) (os : list fcop) : fc := fold_left fc_step os s.

(** * tartan_refinement, fine_coarse.py:394-492 *)
(** np.around(x).astype(int): round half to even. *)
Definition around (q : Q) : Z :=
  let f := Qfloor q in
  let t := (q - inject_Z f)%Q in
  match Qcompare t (1 # 2) with
  | Lt => f
  | Gt => f + 1
  | Eq => if Z.even f then f else f + 1
  end.

Inductive decay_mode := Exponential | Linear.

(* fine_coarse.py:463-466 and 475-478 *)
Definition decay (m : decay_mode) (x rate : Q) : Q :=
  match m with Linear => (x - rate)%Q | Exponential => (x * rate)%Q end.

Definition set_nth (l : list Z) (i : Z) (v : Z) : list Z :=
  if (0 <=? i) && (i <? Z.of_nat (List.length l))
  then firstn (Z.to_nat i) l ++ v :: skipn (S (Z.to_nat i)) l else l.

(* fine_coarse.py:468-479: the while loop, with fuel *)
Fixpoint tartan_loop (fuel : nat) (m : decay_mode) (n : Z) (ra rb : Q)
    (sa sb : Z) (fa fb : Q) (rs : list Z) : res (list Z) :=
  if ((1 <? around fa) || (1 <? around fb)) && ((0 <? sa) || (sb <? n - 1)) then
    match fuel with
    | O => Err DivergesError
    | S fuel' =>
        let sa := sa - 1 in
        let sb := sb + 1 in
        let rs := if 0 <=? sa then set_nth rs sa (around fa) else rs in
        let rs := if sb <? n then set_nth rs sb (around fb) else rs in
        tartan_loop fuel' m n ra rb sa sb (decay m fa ra) (decay m fb rb) rs
    end
  else Ok rs.

(* fine_coarse.py:459-480 for one axis: n coarse slices, fovea a..b, ratio r and
   the two decay rates.  The rates are arguments: their default computation
   (lines 439-448) is modelled by [default_linear_rate] for linear decay only
   (the exponential default needs irrational powers). *)
Definition tartan_axis (m : decay_mode) (n a b r : Z) (ra rb : Q) : res (list Z) :=
  let rs := map (fun i => if (a <=? i) && (i <=? b) then r else 1) (zrange n) in
  tartan_loop (Z.to_nat n) m n ra rb a b
    (decay m (inject_Z r) ra) (decay m (inject_Z r) rb) rs.

(* fine_coarse.py:442-446 *)
Definition default_linear_rate_lo (a r : Z) : Q := (inject_Z (r - 1) / (inject_Z a + (1 # 2)))%Q.
Definition default_linear_rate_hi (n b r : Z) : Q := (inject_Z (r - 1) / (inject_Z (n - b) - (1 # 2)))%Q.

(* fine_coarse.py:431-436, 455-492 *)
Definition tartan_refinement (m : decay_mode) (ce : cell) (fovea : box) (r : cell)
    (ra rb : trip Q) : res fc :=
  do _ <- assert_ (valid_box fovea ce);
  do _ <- assert_ (forall3 (fun d => 1 <=? get r d));
  let one d := tartan_axis m (get ce d) (get (lo fovea) d) (get (hi fovea) d) (get r d) (get ra d) (get rb d) in
  do rs <- seq3 (T (one K) (one J) (one I));
  do s0 <- fc_init (map3 zsum rs) ce;
  do s1 <- set_ratio_vector s0 K (tk rs);
  do s2 <- set_ratio_vector s1 J (tj rs);
  set_ratio_vector s2 I (ti rs).
