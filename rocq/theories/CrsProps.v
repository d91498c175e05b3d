(** CrsProps.v: theorems for C31 (coordinate transforms), C32 (equivalence) and C58 (storage). *)
From Coq Require Import Reals Qreals RMicromega.
From Verif Require Import QBase StrModel StrProofs WamData WamModel WamProofs WamProps CrsModel CrsProofs.
From Coq Require Import Lra.
Open Scope R_scope.

(** * C31 *)
Theorem C31_round_trips c p gz go : Valid c ->
  (exists q, global_to_local c p gz go = Ok q /\ local_to_global c q gz go = Ok p) /\
  (exists q, local_to_global c p gz go = Ok q /\ global_to_local c q gz go = Ok p).
Proof.
  intros V. apply valid_good in V. split.
  - destruct (g2l_ok c p gz go V) as [q H]. exists q. split; [assumption|]. assert (R := round_gl c p gz go V). now rewrite H in R.
  - destruct (l2g_ok c p gz go V) as [q H]. exists q. split; [assumption|]. assert (R := round_lg c p gz go V). now rewrite H in R.
Qed.
Print Assumptions C31_round_trips.
(** A local point is at: the offset, taken along the axes, plus the local coordinates taken
    along the axes after turning these clockwise by the rotation. *)
Theorem C31_position c p : Valid c -> local_to_global c p true EN = Ok (position c p).
Proof. intros V. now apply l2g_position, valid_good. Qed.
Print Assumptions C31_position.
Lemma isclose_true a b t : isclose a b t = true <-> Rabs (a - b) <= Rmax (/ 10 ^ 9 * Rmax (Rabs a) (Rabs b)) t.
Proof. unfold isclose. destruct (Rle_dec _ _); split; try discriminate; tauto. Qed.
(** The angle used is the rotation, up to whole turns and to less than one millionth of a degree. *)
Theorem C31_angle c : Valid c -> exists k : Z, Rabs (angle c - (degrees c - 360 * IZR k) * PI / 180) <= / 10 ^ 6 * (PI / 180).
Proof.
  intros _. unfold angle, is_rotated. assert (PP := PI_RGT_0).
  assert (E8 : / 10 ^ 8 = 1 / 100000000) by (simpl; lra). assert (E9 : / 10 ^ 9 = 1 / 1000000000) by (simpl; lra). assert (E6 : / 10 ^ 6 = 1 / 1000000) by (simpl; lra).
  set (d := degrees c). destruct (isclose d 0 (/ 10 ^ 8)) eqn:C0.
  - cbn [negb andb]. exists 0%Z. apply isclose_true in C0. rewrite E8, E9 in C0. rewrite E6.
    replace (0 - (d - 360 * 0) * PI / 180) with (- d * (PI / 180)) by field. rewrite Rabs_mult, (Rabs_right (PI / 180)) by lra. apply Rmult_le_compat_r; [lra|].
    rewrite Rabs_Ropp. revert C0. rewrite Rminus_0_r, Rabs_R0. rewrite (Rmax_left (Rabs d) 0) by apply Rabs_pos. unfold Rmax. destruct (Rle_dec _ _); lra.
  - destruct (isclose d 360 (/ 10 ^ 8)) eqn:C1; cbn [negb andb].
    + exists 1%Z. apply isclose_true in C1. rewrite E8, E9 in C1. rewrite E6.
      replace (0 - (d - 360 * 1) * PI / 180) with (- (d - 360) * (PI / 180)) by field. rewrite Rabs_mult, (Rabs_right (PI / 180)) by lra. apply Rmult_le_compat_r; [lra|].
      rewrite Rabs_Ropp. revert C1. rewrite (Rabs_right 360) by lra. unfold Rmax. destruct (Rle_dec (Rabs d) 360); destruct (Rle_dec _ _); intros C1; try lra.
      assert (T : Rabs d <= Rabs (d - 360) + 360) by (replace d with ((d - 360) + 360) at 1 by ring; eapply Rle_trans; [apply Rabs_triang|rewrite (Rabs_right 360); lra]). lra.
    + exists 0%Z. replace (d * PI / 180 - (d - 360 * 0) * PI / 180) with 0 by field. rewrite Rabs_R0, E6. lra.
Qed.
Print Assumptions C31_angle.
(** Arrays are transformed point by point. *)
Lemma mapM_map {A B} (f : A -> res B) (g : A -> B) l : (forall a, f a = Ok (g a)) -> mapM f l = Ok (map g l).
Proof. intros H. induction l as [|a l IH]; [reflexivity|]. cbn. now rewrite H, IH. Qed.
Lemma if_map (b : bool) (f : point -> point) l : (if b then map f l else l) = map (fun p => if b then f p else p) l.
Proof. destruct b; [reflexivity|]. symmetry. apply map_id. Qed.
Lemma arrays_good c l gz go : Good c ->
  global_to_local_array c l gz go = mapM (fun p => global_to_local c p gz go) l /\
  local_to_global_array c l gz go = mapM (fun p => local_to_global c p gz go) l.
Proof.
  intros V. split.
  - unfold global_to_local_array, rotation_matrices. rewrite (rotation_deg_eq c V). cbn [bind].
    assert (M : exists m, (if is_rotated (degrees c) then Ok (Some (if is_right_handed_xy c then (rotation_matrix_z (- degrees c), rotation_matrix_z (degrees c)) else (rotation_matrix_z (degrees c), rotation_matrix_z (- degrees c)))) else Ok None) = Ok m) by (destruct (is_rotated (degrees c)); eauto).
    destruct M as [m M]. cbv zeta. rewrite M. cbn [bind].
    rewrite (mapM_map _ (fun p => match global_to_local c p gz go with Ok q => q | Err _ => p end)) by (intros a; destruct (g2l_ok c a gz go V) as [q H]; now rewrite H).
    f_equal. unfold on_x, on_y, on_z, switch_axes_array, rotate_array. rewrite !if_map, !map_map.
    assert (E : forall (f : point -> point) k, match m with Some (rot, _) => map (rotate_vector rot) (map f k) | None => map f k end = map (fun p => match m with Some (rot, _) => rotate_vector rot (f p) | None => f p end) k).
    { intros f k. destruct m as [[rot rv]|]; [now rewrite map_map|reflexivity]. }
    rewrite E. apply map_ext. intros [[x y] z]. unfold global_to_local, rotation_matrices. rewrite (rotation_deg_eq c V). cbn [bind]. cbv zeta. rewrite M. cbn [bind].
    unfold switch_axes. destruct (axis_order_eqb (order c) go); cbn [negb]; [|destruct (row_times (x, y) _) as [x' y']];
      destruct (neq0 (x_offset c)), (neq0 (y_offset c)), (Bool.eqb gz (z_inc_down c)), (neq0 (z_offset c)); cbn [negb]; destruct m as [[rot rv]|]; reflexivity.
  - unfold local_to_global_array, rotation_matrices. rewrite (rotation_deg_eq c V). cbn [bind].
    assert (M : exists m, (if is_rotated (degrees c) then Ok (Some (if is_right_handed_xy c then (rotation_matrix_z (- degrees c), rotation_matrix_z (degrees c)) else (rotation_matrix_z (degrees c), rotation_matrix_z (- degrees c)))) else Ok None) = Ok m) by (destruct (is_rotated (degrees c)); eauto).
    destruct M as [m M]. cbv zeta. rewrite M. cbn [bind].
    rewrite (mapM_map _ (fun p => match local_to_global c p gz go with Ok q => q | Err _ => p end)) by (intros a; destruct (l2g_ok c a gz go V) as [q H]; now rewrite H).
    f_equal. unfold on_x, on_y, on_z, switch_axes_array, rotate_array.
    assert (E : match m with Some (_, rv) => map (rotate_vector rv) l | None => l end = map (fun p => match m with Some (_, rv) => rotate_vector rv p | None => p end) l).
    { destruct m as [[rot rv]|]; [reflexivity|symmetry; apply map_id]. }
    rewrite E, !if_map, !map_map. apply map_ext. intros p. unfold local_to_global, rotation_matrices. rewrite (rotation_deg_eq c V). cbn [bind]. cbv zeta. rewrite M. cbn [bind].
    destruct (match m with Some (_, rv) => rotate_vector rv p | None => p end) as [[x y] z].
    unfold switch_axes. destruct (neq0 (x_offset c)), (neq0 (y_offset c)), (Bool.eqb gz (z_inc_down c)), (neq0 (z_offset c)); cbn [negb];
      (destruct (axis_order_eqb (order c) go); cbn [negb]; [reflexivity|match goal with |- context [row_times ?a ?b] => destruct (row_times a b) end; reflexivity]).
Qed.
Theorem C31_arrays_point_by_point c l gz go : Valid c ->
  global_to_local_array c l gz go = mapM (fun p => global_to_local c p gz go) l /\
  local_to_global_array c l gz go = mapM (fun p => local_to_global c p gz go) l.
Proof. intros V. now apply arrays_good, valid_good. Qed.
Print Assumptions C31_arrays_point_by_point.

(** Conversion between two crs keeps the place, in base units; and that determines it. *)
Theorem C31_conversion_keeps_the_place a b p : Valid a -> Valid b -> is_time a = is_time b ->
  (exists q, convert_to a b false p = Ok q) /\ (forall q, convert_to a b false p = Ok q <-> base_position b q = base_position a p).
Proof. intros Va Vb T. apply valid_good in Va, Vb. split; [now apply convert_to_ok|intros q; now apply convert_to_spec]. Qed.
Print Assumptions C31_conversion_keeps_the_place.
Theorem C31_conversion_round_trip a b p : Valid a -> Valid b -> is_time a = is_time b ->
  exists q, convert_to a b false p = Ok q /\ convert_to b a false q = Ok p /\ convert_from a b false q = Ok p.
Proof.
  intros Va Vb T. apply valid_good in Va, Vb. destruct (convert_to_ok a b p Va Vb T) as [q H]. exists q. split; [assumption|].
  assert (H' : convert_to b a false q = Ok p) by (apply convert_to_spec; auto; symmetry; now apply convert_to_spec). split; [assumption|]. now rewrite convert_from_is.
Qed.
Print Assumptions C31_conversion_round_trip.
Theorem C31_by_way_of_another a b c p q r : Valid a -> Valid b -> Valid c -> is_time a = is_time b -> is_time b = is_time c ->
  convert_to a b false p = Ok q -> convert_to b c false q = Ok r -> convert_to a c false p = Ok r.
Proof.
  intros Va Vb Vc T T' H H'. apply valid_good in Va, Vb, Vc. apply convert_to_spec in H; auto. apply convert_to_spec in H'; auto. apply convert_to_spec; auto; congruence.
Qed.
Print Assumptions C31_by_way_of_another.
Theorem C31_time_and_depth_do_not_mix a b p : is_time a <> is_time b -> convert_to a b false p = Err AssertionError.
Proof. intros N. unfold convert_to. destruct (is_time a), (is_time b); try congruence; reflexivity. Qed.
Print Assumptions C31_time_and_depth_do_not_mix.

Lemma mapM_app2 {A B C} (f : A -> res B) (g : B -> res C) (f' : A -> B) (g' : B -> C) l : (forall a, f a = Ok (f' a)) -> (forall b, g b = Ok (g' b)) ->
  (do m <- mapM f l; mapM g m) = Ok (map (fun a => g' (f' a)) l).
Proof. intros Hf Hg. rewrite (mapM_map f f' l Hf). cbn [bind]. rewrite (mapM_map g g' _ Hg), map_map. reflexivity. Qed.
Lemma array_step a b (h : list point -> res (list point)) l : Good a -> Good b -> is_time a = is_time b ->
  (forall k, h k = Ok (map (rescale a b) k)) ->
  (do g <- local_to_global_array a l true EN; do k <- h g; global_to_local_array b k true EN) = mapM (convert_to a b false) l.
Proof.
  intros Ga Gb T F. rewrite (proj2 (arrays_good a l true EN Ga)), (mapM_map _ (position a)) by (intros p; now apply l2g_position).
  cbn [bind]. rewrite F. cbn [bind]. rewrite (proj1 (arrays_good b _ true EN Gb)), map_map.
  induction l as [|p l IH]; [reflexivity|]. cbn [mapM map]. rewrite (convert_to_eq a b p Ga Gb T), IH. reflexivity.
Qed.
Lemma steps a b k : Good a -> Good b -> is_time a = is_time b ->
  (if negb (is_time a) then
     if str_eqb (xy_units a) (z_units a) && str_eqb (xy_units b) (z_units b)
     then mapM (conv_xyz (fun v => convert_lengthsR v (xy_units a) (xy_units b))) k
     else do g1 <- mapM (conv_xy (fun v => convert_lengthsR v (xy_units a) (xy_units b))) k;
          mapM (conv_z (fun v => convert_lengthsR v (z_units a) (z_units b))) g1
   else do g1 <- mapM (conv_xy (fun v => convert_lengthsR v (xy_units a) (xy_units b))) k;
        mapM (conv_z (fun v => convert_timesR v (the (time_units a)) (the (time_units b)))) g1) = Ok (map (rescale a b) k).
Proof.
  intros Ga Gb T. assert (Hl : here "length") by (now left). assert (Ht : here "time") by (right; now left).
  assert (XY : forall v, convert_lengthsR v (xy_units a) (xy_units b) = Ok (v * (unit_scale (xy_units a) / unit_scale (xy_units b)))).
  { intros v. apply (convertR_valid "length"); try exact Hl; now apply good_xy. }
  set (kxy := unit_scale (xy_units a) / unit_scale (xy_units b)) in *.
  assert (TWO : forall (f : R -> res R) kz, (forall v, f v = Ok (v * kz)) ->
    (do g1 <- mapM (conv_xy (fun v => convert_lengthsR v (xy_units a) (xy_units b))) k; mapM (conv_z f) g1) = Ok (map (fun p : point => let '(x, y, z) := p in (x * kxy, y * kxy, z * kz)) k)).
  { intros f kz F. rewrite (mapM_app2 _ _ (fun p : point => let '(x, y, z) := p in (x * kxy, y * kxy, z)) (fun p : point => let '(x, y, z) := p in (x, y, z * kz))).
    - f_equal. apply map_ext. intros [[x y] z]. reflexivity.
    - intros [[x y] z]. unfold conv_xy. now rewrite !XY.
    - intros [[x y] z]. unfold conv_z. now rewrite F. }
  unfold rescale, z_scale. fold kxy. destruct (is_time a) eqn:Ta; rewrite <- T; cbn [negb].
  - apply TWO. intros v. unfold convert_timesR. apply (convertR_valid "time"); try exact Ht; apply good_t; auto.
  - assert (Z : forall v, convert_lengthsR v (z_units a) (z_units b) = Ok (v * (unit_scale (z_units a) / unit_scale (z_units b)))).
    { intros v. apply (convertR_valid "length"); try exact Hl; now apply good_z. }
    destruct (str_eqb_spec (xy_units a) (z_units a)) as [Ea|Na], (str_eqb_spec (xy_units b) (z_units b)) as [Eb|Nb]; cbn [andb]; [|now apply TWO..].
    rewrite <- Ea, <- Eb. fold kxy. rewrite (mapM_map _ (fun p : point => let '(e, n, d) := p in (e * kxy, n * kxy, d * kxy))); [reflexivity|].
    intros [[x y] z]. unfold conv_xyz. now rewrite !XY.
Qed.
(** Arrays are converted like their points, unless the two crs are taken to be equivalent,
    when the array is left as it is. *)
Theorem C31_array_conversion a b l e : Valid a -> Valid b -> is_time a = is_time b -> is_equivalent a b = Ok e ->
  (convert_array_to a b l = if e then Ok l else mapM (convert_to a b false) l) /\
  (convert_array_from a b l = if e then Ok l else mapM (convert_from a b false) l).
Proof.
  intros Va Vb T E. apply valid_good in Va, Vb. unfold convert_array_to, convert_array_from. rewrite E. cbn [bind]. destruct e; [split; reflexivity|].
  rewrite T, eqb_reflx. cbn [assert_ bind]. split.
  - rewrite <- T. apply array_step; auto. intros k. now apply steps.
  - rewrite (array_step b a (fun k => if negb (is_time b) then
      if str_eqb (xy_units a) (z_units a) && str_eqb (xy_units b) (z_units b)
      then mapM (conv_xyz (fun v => convert_lengthsR v (xy_units b) (xy_units a))) k
      else do g1 <- mapM (conv_xy (fun v => convert_lengthsR v (xy_units b) (xy_units a))) k; mapM (conv_z (fun v => convert_lengthsR v (z_units b) (z_units a))) g1
      else do g1 <- mapM (conv_xy (fun v => convert_lengthsR v (xy_units b) (xy_units a))) k; mapM (conv_z (fun v => convert_timesR v (the (time_units b)) (the (time_units a)))) g1) l); auto.
    + clear. induction l as [|p l IH]; [reflexivity|]. cbn [mapM]. now rewrite convert_from_is, IH.
    + intros k. rewrite (andb_comm (str_eqb (xy_units a) (z_units a))). now apply steps.
Qed.
Print Assumptions C31_array_conversion.

(** The handedness reported is that of the axes: the sign of their triple product in the frame
    (east, north, up). *)
Definition up (c : crs) : R := if z_inc_down c then -1 else 1.
Theorem C31_handedness c :
  let '(xe, xn) := compass (order c) (1, 0) in let '(ye, yn) := compass (order c) (0, 1) in
  is_right_handed_xyz c = true <-> (xe * yn - xn * ye) * up c > 0.
Proof.
  unfold is_right_handed_xyz, is_right_handed_xy, up. destruct (order c), (z_inc_down c); cbn; (split; intros H; [lra|first [reflexivity|exfalso; lra]]) || (split; intros H; [discriminate|exfalso; lra]).
Qed.
Print Assumptions C31_handedness.

(** Switching axes: right exactly when neither order, or both, mirror-and-swap alike. *)
Definition swapped (o : axis_order) : bool := match o with NE | SW | NW => true | _ => false end.
Definition mismatched (f t : axis_order) : bool :=
  match f, t with
  | WN, (NE | SW | NW) | (NE | SW | NW), WN => true
  | NW, (NE | SW) | (NE | SW), NW => true
  | _, _ => false
  end.
Theorem C31_switching_axes_partial f t : mismatched f t = false <-> forall x y, compass t (switch_axes f t x y) = compass f (x, y).
Proof.
  split.
  - intros M x y. unfold switch_axes, row_times, matmul2, transpose2, axis_reordering, compass. destruct f, t; cbn in M; try discriminate; cbn [fst snd]; f_equal; ring.
  - intros H. specialize (H 1 2). revert H. unfold switch_axes, row_times, matmul2, transpose2, axis_reordering, compass.
    destruct f, t; cbn [fst snd mismatched]; intros H; try reflexivity; exfalso; injection H; intros; lra.
Qed.
Print Assumptions C31_switching_axes_partial.
Theorem C31_switching_axes_back f t x y : let '(u, v) := switch_axes f t x y in switch_axes t f u v = (x, y).
Proof. assert (H := sw_sw f t (x, y)). unfold sw in H. cbn [fst snd] in H. destruct (switch_axes f t x y). exact H. Qed.
Print Assumptions C31_switching_axes_back.

Definition plain : crs :=
  {| uuid := L "1"; x_offset := 0; y_offset := 0; z_offset := 0; rotation := 0; rotation_units := L "dega"; xy_units := L "m"; z_units := L "m";
     z_inc_down := true; order := EN; time_units := None; epsg_code := None; extra_metadata := [] |}.
Definition with_order (o : axis_order) : crs :=
  {| uuid := L "1"; x_offset := 0; y_offset := 0; z_offset := 0; rotation := 0; rotation_units := L "dega"; xy_units := L "m"; z_units := L "m";
     z_inc_down := true; order := o; time_units := None; epsg_code := None; extra_metadata := [] |}.
Lemma valid_with_order o : Valid (with_order o).
Proof. destruct o; vm_compute; reflexivity. Qed.
(** A point given as (northing, easting) = (1, 2) read into a northing westing crs: its place
    on the map is not kept (westing 2 and southing 1 instead of westing -2 and northing 1). *)
Theorem C31_global_axis_order_refuted : exists c p q, Valid c /\ global_to_local c p true NE = Ok q /\
  compass (order c) (fst q) <> compass NE (fst p).
Proof.
  exists (with_order NW), (1, 2, 0). eexists. split; [apply valid_with_order|]. rewrite (g2l _ _ _ _ _ _ (valid_good _ (valid_with_order NW))). split; [reflexivity|].
  assert (A : angle (with_order NW) = 0).
  { unfold angle. replace (degrees (with_order NW)) with 0 by (unfold degrees; cbn [rotation with_order]; ring). unfold is_rotated.
    replace (isclose 0 0 (/ 10 ^ 8)) with true; [reflexivity|]. symmetry. apply isclose_true. rewrite Rminus_diag_eq, Rabs_R0 by reflexivity. eapply Rle_trans; [|apply Rmax_r]. simpl. lra. }
  unfold cs, sn. rewrite A, cos_0, sin_0. cbn. intros H. injection H. intros. lra.
Qed.
Print Assumptions C31_global_axis_order_refuted.

(** * C32 *)
Lemma isclose_sym a b t : isclose a b t = isclose b a t.
Proof. unfold isclose. rewrite (Rabs_minus_sym a b), (Rmax_comm (Rabs a)). reflexivity. Qed.
Lemma isclose_refl a t : 0 <= t -> isclose a a t = true.
Proof. intros H. apply isclose_true. rewrite Rminus_diag_eq, Rabs_R0 by reflexivity. eapply Rle_trans; [exact H|apply Rmax_r]. Qed.
Lemma null_ok c : Good c -> exists n, null_transform c = Ok n.
Proof. intros G. unfold null_transform, rotation_matrices. rewrite (rotation_deg_eq c G). cbn [bind]. destruct (is_rotated (degrees c)); cbn [bind]; eauto. Qed.
Lemma opt_str_eqb_eq a b : opt_str_eqb a b = true <-> a = b.
Proof.
  destruct a, b; cbn; split; intros H; try discriminate; auto.
  - f_equal. now apply str_eqb_eq.
  - injection H as ->. apply str_eqb_refl.
Qed.
Lemma opt_str_eqb_sym a b : opt_str_eqb a b = opt_str_eqb b a.
Proof. apply eq_true_iff_eq. rewrite !opt_str_eqb_eq. split; congruence. Qed.
Lemma str_eqb_sym a b : str_eqb a b = str_eqb b a.
Proof. apply eq_true_iff_eq. rewrite !str_eqb_eq. split; congruence. Qed.
Lemma axis_order_eqb_eq a b : axis_order_eqb a b = true <-> a = b.
Proof. destruct a, b; cbn; split; congruence. Qed.
Lemma axis_order_eqb_sym a b : axis_order_eqb a b = axis_order_eqb b a.
Proof. destruct a, b; reflexivity. Qed.
Lemma meta_incl a b : matching_extra_metadata a b = true <-> List.length (extra_metadata a) = List.length (extra_metadata b) /\ incl (extra_metadata a) (extra_metadata b).
Proof.
  unfold matching_extra_metadata. destruct (Nat.eqb_spec (List.length (extra_metadata a)) (List.length (extra_metadata b))) as [E|N]; cbn [negb].
  - rewrite forallb_forall. split.
    + intros H. split; [assumption|]. intros i Ii. specialize (H i Ii). apply existsb_exists in H. destruct H as [j [Ij H]]. apply andb_true_iff in H. destruct H as [H1 H2].
      apply str_eqb_eq in H1, H2. destruct i, j. cbn in *. now subst.
    + intros [_ H] i Ii. apply existsb_exists. exists i. split; [now apply H|]. now rewrite !str_eqb_refl.
  - split; [discriminate|tauto].
Qed.
Lemma meta_sym a b : NoDup (map fst (extra_metadata a)) -> matching_extra_metadata a b = true -> matching_extra_metadata b a = true.
Proof.
  intros N. rewrite !meta_incl. intros [E I]. split; [now symmetry|]. apply NoDup_length_incl; [|lia|assumption]. now apply NoDup_map_inv in N.
Qed.
(** The result does not depend on which crs is asked, the keys of the metadata being those of
    a dictionary; and a crs is equivalent to itself. *)
Theorem C32_symmetric a b : Valid a -> Valid b -> NoDup (map fst (extra_metadata a)) -> NoDup (map fst (extra_metadata b)) -> is_equivalent a b = is_equivalent b a.
Proof.
  intros Va Vb Na Nb. apply valid_good in Va, Vb. unfold is_equivalent. rewrite (str_eqb_sym (uuid a)), (str_eqb_sym (xy_units a)), (str_eqb_sym (z_units a)).
  rewrite (opt_str_eqb_sym (time_units a)), (axis_order_eqb_sym (order a)). replace (Bool.eqb (is_time a) (is_time b)) with (Bool.eqb (is_time b) (is_time a)) by (destruct (is_time a), (is_time b); reflexivity).
  replace (Bool.eqb (z_inc_down a) (z_inc_down b)) with (Bool.eqb (z_inc_down b) (z_inc_down a)) by (destruct (z_inc_down a), (z_inc_down b); reflexivity).
  replace (has_same_epsg_code a b) with (has_same_epsg_code b a).
  2:{ unfold has_same_epsg_code. rewrite (opt_str_eqb_sym (epsg_code a)). destruct (ofs (epsg_code a)), (ofs (epsg_code b)), (opt_str_eqb (epsg_code b) (epsg_code a)); reflexivity. }
  replace (matching_extra_metadata a b) with (matching_extra_metadata b a) by (apply eq_true_iff_eq; split; now apply meta_sym).
  rewrite (isclose_sym (x_offset a)), (isclose_sym (y_offset a)), (isclose_sym (z_offset a)), (isclose_sym (rotation a)).
  destruct (null_ok a Va) as [na Ha], (null_ok b Vb) as [nb Hb]. rewrite Ha, Hb. cbn [bind]. rewrite (andb_comm na). reflexivity.
Qed.
Print Assumptions C32_symmetric.
Theorem C32_reflexive a : is_equivalent a a = Ok true.
Proof. unfold is_equivalent. now rewrite str_eqb_refl. Qed.
Print Assumptions C32_reflexive.
Lemma equivalent_inv a b : is_equivalent a b = Ok true -> uuid a <> uuid b ->
  is_time a = is_time b /\ xy_units a = xy_units b /\ z_units a = z_units b /\ z_inc_down a = z_inc_down b /\ time_units a = time_units b /\ order a = order b.
Proof.
  unfold is_equivalent. intros H N. destruct (str_eqb_spec (uuid a) (uuid b)) as [|_]; [contradiction|].
  destruct (Bool.eqb (is_time a) (is_time b)) eqn:E1; [|discriminate]. cbn [negb] in H.
  destruct (str_eqb_spec (xy_units a) (xy_units b)) as [E2|]; [|discriminate]. destruct (str_eqb_spec (z_units a) (z_units b)) as [E3|]; [|discriminate]. cbn [negb orb] in H.
  destruct (Bool.eqb (z_inc_down a) (z_inc_down b)) eqn:E4; [|discriminate]. destruct (opt_str_eqb (time_units a) (time_units b)) eqn:E5; [|discriminate].
  destruct (axis_order_eqb (order a) (order b)) eqn:E6; [|discriminate]. apply eqb_prop in E1, E4. apply opt_str_eqb_eq in E5. apply axis_order_eqb_eq in E6. tauto.
Qed.
Lemma ok_inj {A} (a b : A) : Ok a = Ok b -> a = b.
Proof. now intros [= ->]. Qed.
Lemma convert_same_turn a b p : Good a -> Good b -> is_equivalent a b = Ok true -> uuid a <> uuid b -> degrees a = degrees b ->
  let '(x, y, z) := p in let dx := x_offset a - x_offset b in let dy := y_offset a - y_offset b in
  convert_to a b false p = Ok (x + (cs a * dx - sn a * dy), y + (cs a * dy + sn a * dx), z + (z_offset a - z_offset b)).
Proof.
  intros Ga Gb H N D. destruct p as [[x y] z]. destruct (equivalent_inv a b H N) as (T & U1 & U2 & Z & T2 & O). cbv zeta.
  rewrite (convert_to_eq a b _ Ga Gb T). assert (A := xy_scale_pos b Gb). assert (A' := z_scale_pos b Gb).
  assert (R : rescale a b (position a (x, y, z)) = position a (x, y, z)).
  { unfold rescale. replace (z_scale a) with (z_scale b) by (unfold z_scale; now rewrite T, U2, T2). rewrite U1. destruct (position a (x, y, z)) as [[e n] d]. f_equal; [f_equal|]; field; ne. }
  rewrite R. assert (S1 : cs b = cs a) by (unfold cs, angle; now rewrite D). assert (S2 : sn b = sn a) by (unfold sn, angle, is_right_handed_xy; now rewrite D, O).
  assert (P := l2g_position a (x, y, z) Ga). rewrite (l2g a x y z true EN Ga) in P. cbv zeta in P. apply ok_inj in P. rewrite <- P.
  rewrite (g2l b _ _ _ true EN Gb). cbv zeta.
  match goal with |- context [sw EN (order b) (fst ?h, snd ?h)] => replace (sw EN (order b) (fst h, snd h)) with (sw EN (order b) h) by (destruct h; reflexivity) end.
  rewrite <- O, sw_sw. cbn [fst snd]. rewrite S1, S2. assert (Q := cs_sn a). assert (Zz : zsign b true = zsign a true) by (unfold zsign; now rewrite Z). assert (Hz := zsign2 a true). rewrite Zz.
  f_equal. f_equal; [f_equal|].
  - replace (cs a * (cs a * x + sn a * y + x_offset a - x_offset b) - sn a * (cs a * y - sn a * x + y_offset a - y_offset b)) with ((cs a * cs a + sn a * sn a) * x + (cs a * (x_offset a - x_offset b) - sn a * (y_offset a - y_offset b))) by ring. rewrite Q. ring.
  - replace (cs a * (cs a * y - sn a * x + y_offset a - y_offset b) + sn a * (cs a * x + sn a * y + x_offset a - x_offset b)) with ((cs a * cs a + sn a * sn a) * y + (cs a * (y_offset a - y_offset b) + sn a * (x_offset a - x_offset b))) by ring. rewrite Q. ring.
  - replace (zsign a true * (zsign a true * (z + z_offset a)) - z_offset b) with (zsign a true * zsign a true * (z + z_offset a) - z_offset b) by ring. rewrite Hz. ring.
Qed.
(** With the same rotation (in the same units), conversion between crs taken to be equivalent
    moves every point by the difference of the origins, ... *)
Theorem C32_same_rotation_partial a b x y z : Valid a -> Valid b -> is_equivalent a b = Ok true -> uuid a <> uuid b ->
  rotation a = rotation b -> rotation_units a = rotation_units b ->
  exists x' y' z', convert_to a b false (x, y, z) = Ok (x', y', z') /\
    (x' - x)² + (y' - y)² = (x_offset a - x_offset b)² + (y_offset a - y_offset b)² /\ z' - z = z_offset a - z_offset b.
Proof.
  intros Va Vb H N R U. apply valid_good in Va, Vb. assert (D : degrees a = degrees b) by (unfold degrees; now rewrite R, U).
  assert (C := convert_same_turn a b (x, y, z) Va Vb H N D). cbv zeta iota in C. do 3 eexists. split; [exact C|]. assert (Q := cs_sn a). split; [|ring].
  unfold Rsqr. set (dx := x_offset a - x_offset b). set (dy := y_offset a - y_offset b).
  replace ((x + (cs a * dx - sn a * dy) - x) * (x + (cs a * dx - sn a * dy) - x) + (y + (cs a * dy + sn a * dx) - y) * (y + (cs a * dy + sn a * dx) - y)) with ((cs a * cs a + sn a * sn a) * (dx * dx + dy * dy)) by ring. rewrite Q. ring.
Qed.
Print Assumptions C32_same_rotation_partial.
(** ... which is at most one part in 10^9 or 10^-4 along each axis. *)
Theorem C32_tolerance a b : Valid a -> Valid b -> is_equivalent a b = Ok true -> uuid a <> uuid b ->
  let near u v := Rabs (u - v) <= Rmax (/ 10 ^ 9 * Rmax (Rabs u) (Rabs v)) (/ 10 ^ 4) in
  near (x_offset a) (x_offset b) /\ near (y_offset a) (y_offset b) /\ near (z_offset a) (z_offset b).
Proof.
  intros Va Vb H N near. apply valid_good in Va, Vb. unfold is_equivalent in H. destruct (str_eqb_spec (uuid a) (uuid b)) as [|_]; [contradiction|].
  repeat match goal with H : (if ?b then _ else _) = _ |- _ => destruct b; [discriminate|] end.
  destruct (null_transform a) as [na|] eqn:Ha; [|discriminate]. destruct (null_transform b) as [nb|] eqn:Hb; [|discriminate]. cbn [bind] in H.
  destruct (na && nb) eqn:NN.
  - apply andb_true_iff in NN. destruct NN as [-> ->].
    assert (Z : forall c, null_transform c = Ok true -> Rabs (x_offset c) <= 2 / 10 ^ 8 /\ Rabs (y_offset c) <= 2 / 10 ^ 8 /\ Rabs (z_offset c) <= 2 / 10 ^ 8).
    { intros c Hc. unfold null_transform in Hc. destruct (rotation_matrices c) as [m|]; [|discriminate]. cbn [bind] in Hc. injection Hc as Hc. rewrite !andb_true_iff in Hc. destruct Hc as [[[H1 H2] H3] _].
      apply isclose_true in H1, H2, H3.
      assert (G : forall u, Rabs (u - 0) <= Rmax (/ 10 ^ 9 * Rmax (Rabs u) (Rabs 0)) (/ 10 ^ 8) -> Rabs u <= 2 / 10 ^ 8).
      { intros u. rewrite Rminus_0_r, Rabs_R0, (Rmax_left (Rabs u) 0) by apply Rabs_pos. assert (P := Rabs_pos u). replace (/ 10 ^ 9) with (1 / 1000000000) by (simpl; lra). replace (/ 10 ^ 8) with (1 / 100000000) by (simpl; lra).
        replace (2 / 10 ^ 8) with (2 / 100000000) by (simpl; lra). unfold Rmax. destruct (Rle_dec _ _); lra. }
      auto. }
    apply Z in Ha, Hb. assert (G : forall u v, Rabs u <= 2 / 10 ^ 8 -> Rabs v <= 2 / 10 ^ 8 -> near u v).
    { intros u v Hu Hv. unfold near. eapply Rle_trans; [|apply Rmax_r]. replace (2 / 10 ^ 8) with (2 / 100000000) in * by (simpl; lra). replace (/ 10 ^ 4) with (1 / 10000) by (simpl; lra).
      unfold Rminus. eapply Rle_trans; [apply Rabs_triang|]. rewrite Rabs_Ropp. lra. }
    repeat split; apply G; tauto.
  - injection H as H. rewrite !andb_true_iff in H. destruct H as [[[H1 H2] H3] _]. apply isclose_true in H1, H2, H3. auto.
Qed.
Print Assumptions C32_tolerance.
(** Equal settings: nothing moves. *)
Theorem C32_equal_settings a b p : Valid a -> Valid b -> is_equivalent a b = Ok true -> uuid a <> uuid b ->
  rotation a = rotation b -> rotation_units a = rotation_units b -> x_offset a = x_offset b -> y_offset a = y_offset b -> z_offset a = z_offset b ->
  convert_to a b false p = Ok p.
Proof.
  intros Va Vb H N R U X Y Z. apply valid_good in Va, Vb. assert (D : degrees a = degrees b) by (unfold degrees; now rewrite R, U).
  assert (C := convert_same_turn a b p Va Vb H N D). destruct p as [[x y] z]. cbv zeta iota in C. rewrite C, X, Y, Z. f_equal. f_equal; [f_equal|]; ring.
Qed.
Print Assumptions C32_equal_settings.

Definition turned (id : string) (r : R) (u : string) (e : option str) : crs :=
  {| uuid := L id; x_offset := 0; y_offset := 0; z_offset := 0; rotation := r; rotation_units := L u; xy_units := L "m"; z_units := L "m";
     z_inc_down := true; order := EN; time_units := None; epsg_code := e; extra_metadata := [] |}.
Lemma turned_valid id r u e : In u ["dega"; "rev"]%string -> Valid (turned id r u e).
Proof. intros [<-|[<-|[]]]; vm_compute; reflexivity. Qed.
Lemma tol_pos n : 0 <= / 10 ^ n.
Proof. left. apply Rinv_0_lt_compat, pow_lt. lra. Qed.
Lemma turned_equivalent id id' r u u' e e' : In u ["dega"; "rev"]%string -> In u' ["dega"; "rev"]%string -> id <> id' ->
  has_same_epsg_code (turned id r u e) (turned id' r u' e') = true -> is_equivalent (turned id r u e) (turned id' r u' e') = Ok true.
Proof.
  intros Hu Hu' N E. assert (G := valid_good _ (turned_valid id r u e Hu)). assert (G' := valid_good _ (turned_valid id' r u' e' Hu')).
  destruct (null_ok _ G) as [na Ha], (null_ok _ G') as [nb Hb]. unfold is_equivalent. rewrite Ha, Hb, E. cbn [uuid turned is_time time_units ofs xy_units z_units z_inc_down order axis_order_eqb opt_str_eqb].
  destruct (str_eqb_spec (L id) (L id')); [reflexivity|]. rewrite !str_eqb_refl. cbn. destruct (na && nb); [reflexivity|].
  rewrite !isclose_refl; [reflexivity|..]; apply (tol_pos 4).
Qed.
(** Half a revolution and half a degree are taken to be equivalent: an array is left as it is
    while a point is moved. *)
Theorem C32_rotation_units_refuted : exists a b p, Valid a /\ Valid b /\ is_equivalent a b = Ok true /\
  convert_array_to a b [p] = Ok [p] /\ exists q, convert_to a b false p = Ok q /\ q <> p.
Proof.
  set (a := turned "a" (1 / 2) "rev" None). set (b := turned "b" (1 / 2) "dega" None).
  assert (Va : Valid a) by (apply turned_valid; right; now left). assert (Vb : Valid b) by (apply turned_valid; now left).
  assert (E : is_equivalent a b = Ok true) by (apply turned_equivalent; [right; now left|now left|discriminate|reflexivity]).
  exists a, b, (1, 0, 0). repeat (split; [assumption|]). split; [unfold convert_array_to; now rewrite E|].
  destruct (C31_conversion_keeps_the_place a b (1, 0, 0) Va Vb eq_refl) as [[q H] S]. exists q. split; [assumption|]. intros ->. apply S in H.
  unfold base_position, position in H. cbn [xy_units a b turned order x_offset y_offset compass plus2 clockwise fst snd] in H.
  assert (P : 0 < unit_scale (L "m")) by (apply (xy_scale_pos a); now apply valid_good). assert (H1 := f_equal (fun t : point => fst (fst t)) H). cbn [fst] in H1. apply Rmult_eq_reg_l in H1; [|lra].
  assert (S1 : unit_scale (L "rev") / unit_scale (L "dega") = 360).
  { unfold unit_scale.
    replace (get_conversion_factors (L "rev")) with (Ok (L "rad", L "A", (0 # 1, 3141592653589793 # 500000000000000, 1 # 1, 0 # 1))%Q) by (vm_compute; reflexivity).
    replace (get_conversion_factors (L "dega")) with (Ok (L "rad", L "A", (0 # 1, 3141592653589793 # 1000000000000000, 180 # 1, 0 # 1))%Q) by (vm_compute; reflexivity).
    unfold Q2R. cbn [Qnum Qden]. field. }
  assert (Da : degrees a = 180) by (unfold degrees, a; cbn [rotation rotation_units turned]; rewrite S1; lra).
  assert (Pd : 0 < unit_scale (L "dega")) by (apply (scale_pos "plane angle"); [do 2 right; now left|exact dega_valid]).
  assert (Db : degrees b = 1 / 2) by (unfold degrees, b; cbn [rotation rotation_units turned]; field; lra).
  assert (NR : forall d, 1 / 4 < Rabs d -> 1 / 4 < Rabs (d - 360) -> Rabs d <= 180 -> is_rotated d = true).
  { intros d H1' H2 H3. unfold is_rotated. apply andb_true_iff. split; apply negb_true_iff; apply not_true_is_false; rewrite isclose_true;
      replace (/ 10 ^ 9) with (1 / 1000000000) by (simpl; lra); replace (/ 10 ^ 8) with (1 / 100000000) by (simpl; lra); intros C.
    - rewrite Rminus_0_r, Rabs_R0 in C. rewrite (Rmax_left (Rabs d) 0) in C by lra. revert C. unfold Rmax. destruct (Rle_dec _ _); lra.
    - rewrite (Rabs_right 360) in C by lra. rewrite (Rmax_right (Rabs d) 360) in C by lra. revert C. unfold Rmax. destruct (Rle_dec _ _); lra. }
  assert (Aa : angle a = PI). { unfold angle. rewrite Da, NR; [field|..]; unfold Rabs; repeat destruct (Rcase_abs _); lra. }
  assert (Ab : angle b = PI / 360). { unfold angle. rewrite Db, NR; [field|..]; unfold Rabs; repeat destruct (Rcase_abs _); lra. }
  rewrite Aa, Ab, cos_PI in H1. assert (C : 0 < cos (PI / 360)) by (assert (X := PI_RGT_0); apply cos_gt_0; lra). lra.
Qed.
Print Assumptions C32_rotation_units_refuted.
(** Equivalence is not transitive: a crs without EPSG code is equivalent to crs with different
    codes. *)
Theorem C32_not_transitive_refuted : exists a b c, Valid a /\ Valid b /\ Valid c /\
  is_equivalent a b = Ok true /\ is_equivalent b c = Ok true /\ is_equivalent a c = Ok false.
Proof.
  exists (turned "a" 0 "dega" (Some (L "23031"))), (turned "b" 0 "dega" None), (turned "c" 0 "dega" (Some (L "27700"))).
  assert (I : In "dega"%string ["dega"; "rev"]%string) by (now left). split; [now apply turned_valid|]. split; [now apply turned_valid|]. split; [now apply turned_valid|].
  split; [apply turned_equivalent; [auto|auto|discriminate|reflexivity]|]. split; [apply turned_equivalent; [auto|auto|discriminate|reflexivity]|]. reflexivity.
Qed.
Print Assumptions C32_not_transitive_refuted.

(** * C58: storing a crs *)
Lemma round_to_close n x : Rabs (round_to n x - x) <= / 2 * / 10 ^ n.
Proof.
  unfold round_to. assert (P : 0 < 10 ^ n) by (apply pow_lt; lra). destruct (base_Int_part (x * 10 ^ n + / 2)) as [H1 H2]. set (k := IZR (Int_part (x * 10 ^ n + / 2))) in *.
  replace (k / 10 ^ n - x) with ((k - x * 10 ^ n) * / 10 ^ n) by (field; lra). rewrite Rabs_mult, (Rabs_right (/ 10 ^ n)) by (left; now apply Rinv_0_lt_compat).
  apply Rmult_le_compat_r; [left; now apply Rinv_0_lt_compat|]. unfold Rabs. destruct (Rcase_abs _); lra.
Qed.
Lemma Int_part_spec r z : IZR z <= r < IZR z + 1 -> z = Int_part r.
Proof. intros H. unfold Int_part. rewrite <- (tech_up r (z + 1)%Z); [lia|rewrite plus_IZR; lra|rewrite plus_IZR; lra]. Qed.
Lemma Int_part_half k : Int_part (IZR k + / 2) = k.
Proof. symmetry. apply Int_part_spec. lra. Qed.
Lemma round_to_id n x k : x = IZR k / 10 ^ n -> round_to n x = x.
Proof.
  intros ->. assert (P : 0 < 10 ^ n) by (apply pow_lt; lra). unfold round_to. replace (IZR k / 10 ^ n * 10 ^ n) with (IZR k) by (field; lra). now rewrite Int_part_half.
Qed.
(** Offsets are kept to half a thousandth (z: half a ten-thousandth) of a unit, the rotation to
    half a millionth; everything else, and values with no more decimals, exactly. *)
Theorem C58_stored_values c : let s := stored c in
  Rabs (x_offset s - x_offset c) <= / 2 * / 10 ^ 3 /\ Rabs (y_offset s - y_offset c) <= / 2 * / 10 ^ 3 /\
  Rabs (z_offset s - z_offset c) <= / 2 * / 10 ^ 4 /\ Rabs (rotation s - rotation c) <= / 2 * / 10 ^ 6 /\ (Valid c <-> Valid s).
Proof. cbv zeta. cbn [x_offset y_offset z_offset rotation stored]. repeat split; try apply round_to_close; exact (fun H => H). Qed.
Print Assumptions C58_stored_values.
Theorem C58_exact_when_few_decimals c kx ky kz kr : x_offset c = IZR kx / 10 ^ 3 -> y_offset c = IZR ky / 10 ^ 3 -> z_offset c = IZR kz / 10 ^ 4 -> rotation c = IZR kr / 10 ^ 6 -> stored c = c.
Proof.
  intros Hx Hy Hz Hr. unfold stored. rewrite (round_to_id 3 _ kx Hx), (round_to_id 3 _ ky Hy), (round_to_id 4 _ kz Hz), (round_to_id 6 _ kr Hr). destruct c; reflexivity.
Qed.
Print Assumptions C58_exact_when_few_decimals.
Theorem C58_storing_again_changes_nothing c : stored (stored c) = stored c.
Proof.
  eapply C58_exact_when_few_decimals; cbn [x_offset y_offset z_offset rotation stored]; unfold round_to; reflexivity.
Qed.
Print Assumptions C58_storing_again_changes_nothing.
(** With the rotation kept, a stored crs puts every point within a thousandth of a unit of
    where it was. *)
Theorem C58_position_moves_little c p : Valid c -> rotation (stored c) = rotation c ->
  let '(e, n, d) := position c p in let '(e', n', d') := position (stored c) p in
  Rabs (e' - e) <= / 2 * / 10 ^ 3 /\ Rabs (n' - n) <= / 2 * / 10 ^ 3 /\ Rabs (d' - d) <= / 2 * / 10 ^ 4.
Proof.
  intros V R. destruct p as [[x y] z]. assert (A : angle (stored c) = angle c) by (unfold angle, degrees; now rewrite R).
  unfold position. rewrite A. cbn [order stored x_offset y_offset z_offset z_inc_down]. assert (Bx := round_to_close 3 (x_offset c)). assert (By := round_to_close 3 (y_offset c)). assert (Bz := round_to_close 4 (z_offset c)).
  destruct (clockwise (angle c) (compass (order c) (x, y))) as [ce cn]. unfold plus2, compass.
  assert (F : forall a b s, (a + s) - (b + s) = a - b) by (intros; ring).
  assert (G : forall a b s, (- a + s) - (- b + s) = - (a - b)) by (intros; ring).
  repeat split.
  - destruct (order c); cbn [fst snd]; rewrite ?G, ?F, ?Rabs_Ropp; assumption.
  - destruct (order c); cbn [fst snd]; rewrite ?G, ?F, ?Rabs_Ropp; assumption.
  - destruct (z_inc_down c).
    + replace (1 * (z + round_to 4 (z_offset c)) - 1 * (z + z_offset c)) with (round_to 4 (z_offset c) - z_offset c) by ring. assumption.
    + replace (-1 * (z + round_to 4 (z_offset c)) - -1 * (z + z_offset c)) with (- (round_to 4 (z_offset c) - z_offset c)) by ring. rewrite Rabs_Ropp. assumption.
Qed.
Print Assumptions C58_position_moves_little.
(** A crs with more decimals does not come back: the stored one is not even equivalent to a
    crs with the original settings. *)
Theorem C58_stored_is_equivalent_refuted : exists c c', Valid c /\ Valid c' /\ uuid c' <> uuid c /\ x_offset c' = x_offset c /\ is_equivalent c c' = Ok true /\ is_equivalent (stored c) c' = Ok false.
Proof.
  set (at_ := fun id => {| uuid := L id; x_offset := 4 / 10000; y_offset := 0; z_offset := 0; rotation := 0; rotation_units := L "dega"; xy_units := L "m"; z_units := L "m";
     z_inc_down := true; order := EN; time_units := None; epsg_code := None; extra_metadata := [] |}).
  assert (V : forall id, Valid (at_ id)) by (intros id; vm_compute; reflexivity).
  exists (at_ "a"%string), (at_ "b"%string). do 2 (split; [apply V|]). split; [discriminate|]. split; [reflexivity|].
  assert (R0 : round_to 3 (4 / 10000) = 0). { unfold round_to. replace (Int_part (4 / 10000 * 10 ^ 3 + / 2)) with 0%Z; [simpl; lra|]. apply Int_part_spec. simpl. lra. }
  assert (NB : null_transform (at_ "b"%string) = Ok false).
  { unfold null_transform, rotation_matrices. rewrite (rotation_deg_eq _ (valid_good _ (V "b"%string))). cbn [bind].
    assert (F : isclose (x_offset (at_ "b"%string)) 0 (/ 10 ^ 8) = false).
    { apply not_true_is_false. rewrite isclose_true. cbn [x_offset at_]. replace (/ 10 ^ 9) with (1 / 1000000000) by (simpl; lra). replace (/ 10 ^ 8) with (1 / 100000000) by (simpl; lra).
      rewrite Rminus_0_r, Rabs_R0, (Rabs_right (4 / 10000)), (Rmax_left (4 / 10000) 0) by lra. unfold Rmax. destruct (Rle_dec _ _); lra. }
    rewrite F. destruct (is_rotated (degrees (at_ "b"%string))); reflexivity. }
  assert (T4 : 0 <= / 10 ^ 4) by apply tol_pos.
  split.
  - destruct (null_ok _ (valid_good _ (V "a"%string))) as [na Ha]. unfold is_equivalent. rewrite Ha, NB. cbn. rewrite andb_false_r. cbn in T4. rewrite !isclose_refl by assumption. reflexivity.
  - assert (Vs : Valid (stored (at_ "a"%string))) by exact (V "a"%string). destruct (null_ok _ (valid_good _ Vs)) as [na Ha]. unfold is_equivalent. rewrite Ha, NB. 
    assert (F : isclose (x_offset (stored (at_ "a"%string))) (x_offset (at_ "b"%string)) (/ 10 ^ 4) = false).
    { apply not_true_is_false. rewrite isclose_true. cbn [x_offset at_ stored]. rewrite R0. replace (/ 10 ^ 9) with (1 / 1000000000) by (simpl; lra). replace (/ 10 ^ 4) with (1 / 10000) by (simpl; lra).
      rewrite Rminus_0_l, Rabs_Ropp, Rabs_R0, (Rabs_right (4 / 10000)), (Rmax_right 0 (4 / 10000)) by lra. unfold Rmax. destruct (Rle_dec _ _); lra. }
    rewrite F. cbn [bind andb]. rewrite andb_false_r. reflexivity.
Qed.
Print Assumptions C58_stored_is_equivalent_refuted.

(** A crs in feet with depth in metres, turned by 30 degrees, and one in time. *)
Example C31_some_crs :
  Valid {| uuid := L "a"; x_offset := 1000; y_offset := 2000; z_offset := 10; rotation := 30; rotation_units := L "dega"; xy_units := L "ft"; z_units := L "m";
     z_inc_down := false; order := NW; time_units := None; epsg_code := None; extra_metadata := [(L "k", L "v")] |} /\
  Valid {| uuid := L "b"; x_offset := 1000; y_offset := 2000; z_offset := 10; rotation := 1; rotation_units := L "rad"; xy_units := L "ft[US]"; z_units := L "m";
     z_inc_down := true; order := SW; time_units := Some (L "ms"); epsg_code := Some (L "23031"); extra_metadata := [] |}.
Proof. split; vm_compute; reflexivity. Qed.
