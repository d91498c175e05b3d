(** VolProps.v: theorems for C34 (cell volumes). *)
From Verif Require Import QBase VolModel.

(** * Specification *)
(** The trilinear cell: the point at fractions u, v, w along I, J and K. *)
Definition pick (t : Q) (b : bool) : Q := if b then t else 1 - t.
Definition blend8 (f : bool -> bool -> bool -> Q) : Q :=
  f false false false + f false false true + f false true false + f false true true +
  f true false false + f true false true + f true true false + f true true true.
Definition coord (g : vec -> Q) (cp : corners) (u v w : Q) : Q :=
  blend8 (fun kp jp ip => pick w kp * pick v jp * pick u ip * g (cp kp jp ip)).
(** its partial derivatives with respect to u, v and w: differences of opposite faces *)
Definition sgn (b : bool) : Q := if b then 1 else -(1).
Definition coord_u (g : vec -> Q) (cp : corners) (v w : Q) : Q := blend8 (fun kp jp ip => pick w kp * pick v jp * sgn ip * g (cp kp jp ip)).
Definition coord_v (g : vec -> Q) (cp : corners) (u w : Q) : Q := blend8 (fun kp jp ip => pick w kp * sgn jp * pick u ip * g (cp kp jp ip)).
Definition coord_w (g : vec -> Q) (cp : corners) (u v : Q) : Q := blend8 (fun kp jp ip => sgn kp * pick v jp * pick u ip * g (cp kp jp ip)).
Definition det3 (a b c : vec) : Q := dot a (cross b c).
Definition jacobian (cp : corners) (u v w : Q) : Q :=
  det3 (coord_u vx cp v w, coord_u vy cp v w, coord_u vz cp v w) (coord_v vx cp u w, coord_v vy cp u w, coord_v vz cp u w)
       (coord_w vx cp u v, coord_w vy cp u v, coord_w vz cp u v).
(** polynomials of degree at most two in each of three variables, and their integral over
    the unit cube *)
Definition sum3 (f : nat -> Q) : Q := f 0%nat + f 1%nat + f 2%nat.
Definition poly3 (c : nat -> nat -> nat -> Q) (u v w : Q) : Q :=
  sum3 (fun i => sum3 (fun j => sum3 (fun k => c i j k * u ^ Z.of_nat i * v ^ Z.of_nat j * w ^ Z.of_nat k))).
Definition integral3 (c : nat -> nat -> nat -> Q) : Q :=
  sum3 (fun i => sum3 (fun j => sum3 (fun k => c i j k / (inject_Z (Z.of_nat i + 1) * inject_Z (Z.of_nat j + 1) * inject_Z (Z.of_nat k + 1))))).

(** V is the volume of the cell: the integral of its jacobian. *)
Definition CellVolume (cp : corners) (V : Q) : Prop :=
  exists coeff, (forall u v w, jacobian cp u v w == poly3 coeff u v w) /\ V == integral3 coeff.
(** the integral is determined by the values of the polynomial (Simpson's rule is exact) *)
Definition simpson (f : Q -> Q) : Q := (f 0 + 4 * f (1 # 2) + f 1) / 6.
Lemma integral3_simpson c : integral3 c == simpson (fun u => simpson (fun v => simpson (fun w => poly3 c u v w))).
Proof. unfold integral3, simpson, poly3, sum3. cbn [Z.of_nat Pos.of_succ_nat Pos.succ inject_Z Z.add Pos.add Qpower Qpower_positive pow_pos Pos.iter]. field. Qed.
Lemma cell_volume_simpson cp V : CellVolume cp V -> V == simpson (fun u => simpson (fun v => simpson (fun w => jacobian cp u v w))).
Proof. intros [c [H ->]]. rewrite integral3_simpson. unfold simpson. rewrite !H. reflexivity. Qed.
Lemma cell_volume_unique cp V V' : CellVolume cp V -> CellVolume cp V' -> V == V'.
Proof. intros H H'. rewrite (cell_volume_simpson _ _ H), (cell_volume_simpson _ _ H'). reflexivity. Qed.
(** the partial derivatives are what they are said to be *)
Lemma deriv_u g cp u v w h : coord g cp (u + h) v w - coord g cp u v w == h * coord_u g cp v w.
Proof. unfold coord, coord_u, blend8, pick, sgn. ring. Qed.
Lemma deriv_v g cp u v w h : coord g cp u (v + h) w - coord g cp u v w == h * coord_v g cp u w.
Proof. unfold coord, coord_v, blend8, pick, sgn. ring. Qed.
Lemma deriv_w g cp u v w h : coord g cp u v (w + h) - coord g cp u v w == h * coord_w g cp u v.
Proof. unfold coord, coord_w, blend8, pick, sgn. ring. Qed.

(** * Theorems *)
Theorem C34_centre_is_immaterial cp c c' off : tetra_cell_volume cp c off == tetra_cell_volume cp c' off.
Proof.
  assert (G : forall x y, tetra_cell_volume cp (Some x) off == tetra_cell_volume cp (Some y) off).
  { intros x y. unfold tetra_cell_volume, pyr, dot, cross, vsub. cbn [vx vy vz fst snd]. destruct off; field. }
  destruct c as [x|], c' as [y|]; try reflexivity; first [apply G | exact (G x (mean_corner cp)) | exact (G (mean_corner cp) y)].
Qed.
Print Assumptions C34_centre_is_immaterial.

(** The coefficients of the jacobian: the edges from corner 0 (a, b, c), the twists of the
    three faces there (d, e, f) and of the cell (g). *)
Definition ed (f : vec -> Q) (cp : corners) (n : nat) : Q :=
  let c000 := f (cp false false false) in let c001 := f (cp false false true) in let c010 := f (cp false true false) in let c011 := f (cp false true true) in
  let c100 := f (cp true false false) in let c101 := f (cp true false true) in let c110 := f (cp true true false) in let c111 := f (cp true true true) in
  match n with
  | 0%nat => c001 - c000 | 1%nat => c010 - c000 | 2%nat => c100 - c000
  | 3%nat => c011 - c001 - c010 + c000 | 4%nat => c101 - c001 - c100 + c000 | 5%nat => c110 - c010 - c100 + c000
  | _ => c111 - c011 - c101 - c110 + c001 + c010 + c100 - c000
  end.
Definition ev (cp : corners) (n : nat) : vec := (ed vx cp n, ed vy cp n, ed vz cp n).
Definition du (E : nat -> vec) (j k : bool) : vec := E match j, k with false, false => 0 | true, false => 3 | false, true => 4 | _, _ => 6 end%nat.
Definition dv (E : nat -> vec) (i k : bool) : vec := E match i, k with false, false => 1 | true, false => 3 | false, true => 5 | _, _ => 6 end%nat.
Definition dw (E : nat -> vec) (i j : bool) : vec := E match i, j with false, false => 2 | true, false => 4 | false, true => 5 | _, _ => 6 end%nat.
Definition split2 (n : nat) (f : bool -> bool -> Q) : Q :=
  match n with O => f false false | S O => f false true + f true false | _ => f true true end.
Definition coeffs (E : nat -> vec) (i j k : nat) : Q :=
  split2 j (fun j1 j2 => split2 i (fun i1 i2 => split2 k (fun k1 k2 => det3 (du E j1 k1) (dv E i1 k2) (dw E i2 j2)))).
Lemma coord_u_ed g cp v w : coord_u g cp v w == ed g cp 0 + ed g cp 3 * v + ed g cp 4 * w + ed g cp 6 * v * w.
Proof. unfold coord_u, ed, blend8, pick, sgn. ring. Qed.
Lemma coord_v_ed g cp u w : coord_v g cp u w == ed g cp 1 + ed g cp 3 * u + ed g cp 5 * w + ed g cp 6 * u * w.
Proof. unfold coord_v, ed, blend8, pick, sgn. ring. Qed.
Lemma coord_w_ed g cp u v : coord_w g cp u v == ed g cp 2 + ed g cp 4 * u + ed g cp 5 * v + ed g cp 6 * u * v.
Proof. unfold coord_w, ed, blend8, pick, sgn. ring. Qed.

Lemma jacobian_poly cp u v w : jacobian cp u v w == poly3 (coeffs (ev cp)) u v w.
Proof.
  unfold jacobian, det3, dot, cross. cbn [vx vy vz fst snd]. rewrite !coord_u_ed, !coord_v_ed, !coord_w_ed.
  unfold poly3, sum3, coeffs, split2, du, dv, dw, ev, det3, dot, cross. cbn [vx vy vz fst snd Z.of_nat Pos.of_succ_nat Pos.succ Qpower Qpower_positive pow_pos Pos.iter].
  repeat match goal with |- context [ed ?f cp ?n] => generalize (ed f cp n); intros ? end.
  ring.
Qed.

(** A quadrilateral face, corners in order around it; its twist is six times the signed
    volume of the tetrahedron of the four corners, zero exactly when they are coplanar. *)
Definition twist (a b c d : vec) : Q := det3 (vsub c a) (vsub d a) (vsub b a).
Definition faces (cp : corners) : list (vec * vec * vec * vec) :=
  let c000 := cp false false false in let c001 := cp false false true in let c010 := cp false true false in let c011 := cp false true true in
  let c100 := cp true false false in let c101 := cp true false true in let c110 := cp true true false in let c111 := cp true true true in
  [ (c000, c001, c011, c010); (c000, c100, c101, c001); (c000, c010, c110, c100);
    (c111, c101, c100, c110); (c111, c110, c010, c011); (c111, c011, c001, c101) ].
Definition sumQ (l : list Q) : Q := fold_right Qplus 0 l.
Definition total_twist (cp : corners) : Q := sumQ (map (fun f => let '(a, b, c, d) := f in twist a b c d) (faces cp)).

(** The volume returned is the true volume of the cell with bilinear faces plus a sixth of
    the twists of its faces: the correction for twisted faces is subtracted from the wrong
    side. *)
Theorem C34_volume_and_twist cp c :
  CellVolume cp (tetra_cell_volume cp c false - total_twist cp / 6).
Proof.
  exists (coeffs (ev cp)). split; [apply jacobian_poly|].
  rewrite (C34_centre_is_immaterial cp c (Some (cp false false false)) false).
  unfold tetra_cell_volume, integral3, coeffs, split2, du, dv, dw, ev, sum3, total_twist, faces, twist. cbn [Z.of_nat Pos.of_succ_nat Pos.succ inject_Z Z.add Pos.add map sumQ fold_right].
  unfold det3, dot, cross, ed, pyr, dot, cross, vsub. cbn [vx vy vz fst snd].
  destruct (cp false false false) as [[? ?] ?], (cp false false true) as [[? ?] ?], (cp false true false) as [[? ?] ?], (cp false true true) as [[? ?] ?],
    (cp true false false) as [[? ?] ?], (cp true false true) as [[? ?] ?], (cp true true false) as [[? ?] ?], (cp true true true) as [[? ?] ?].
  cbn [vx vy vz fst snd]. field.
Qed.
Print Assumptions C34_volume_and_twist.

Definition Coplanar (f : vec * vec * vec * vec) : Prop := let '(a, b, c, d) := f in twist a b c d == 0.

Theorem C34_planar_faces_are_exact cp c : Forall Coplanar (faces cp) -> CellVolume cp (tetra_cell_volume cp c false).
Proof.
  intros P. destruct (C34_volume_and_twist cp c) as [k [H E]]. exists k. split; [exact H|]. rewrite <- E.
  assert (Z : total_twist cp == 0).
  { unfold total_twist. revert P. generalize (faces cp). induction l as [|[[[a b] c0] d] l IH]; intros P; [reflexivity|].
    assert (P1 := Forall_inv P). assert (P2 := Forall_inv_tail P). cbn [map sumQ fold_right]. cbn [Coplanar] in P1. unfold sumQ in IH. rewrite P1, (IH P2). reflexivity. }
  rewrite Z. field.
Qed.
Print Assumptions C34_planar_faces_are_exact.

(** A cell of area 100 by 100 with vertical sides and a flat base, one metre thick at three
    of its corners and 21 metres at the fourth: 60000 cubic metres, reported as 93333. *)
Definition lifted : corners := fun k j i =>
  (if i then 100 else 0, if j then 100 else 0, if k then (if j && i then 21 else 1) else 0).
Theorem C34_twisted_faces_refuted : exists cp V, CellVolume cp V /\ ~ tetra_cell_volume cp None false == V.
Proof.
  exists lifted, 60000. split.
  - destruct (C34_volume_and_twist lifted None) as [k [H E]]. exists k. split; [exact H|]. rewrite <- E. vm_compute. reflexivity.
  - vm_compute. discriminate.
Qed.
Print Assumptions C34_twisted_faces_refuted.
Example C34_lifted_reported : tetra_cell_volume lifted None false == 280000 # 3.
Proof. vm_compute. reflexivity. Qed.

(** * Shape *)
Definition parallelepiped (o a b c : vec) : corners := fun k j i =>
  vadd o (vadd (if i then a else (0, 0, 0)) (vadd (if j then b else (0, 0, 0)) (if k then c else (0, 0, 0)))).
Theorem C34_parallelepiped o a b c ce off :
  tetra_cell_volume (parallelepiped o a b c) ce off == if off then - det3 a b c else det3 a b c.
Proof.
  rewrite (C34_centre_is_immaterial _ ce (Some o) off).
  destruct o as [[? ?] ?], a as [[? ?] ?], b as [[? ?] ?], c as [[? ?] ?].
  unfold tetra_cell_volume, parallelepiped, pyr, det3, dot, cross, vsub, vadd. cbn [vx vy vz fst snd]. destruct off; field.
Qed.
Print Assumptions C34_parallelepiped.
Theorem C34_box x y z dx dy dz ce :
  tetra_cell_volume (fun k j i => (if i then x + dx else x, if j then y + dy else y, if k then z + dz else z)) ce false == dx * dy * dz.
Proof.
  rewrite (C34_centre_is_immaterial _ ce (Some (x, y, z)) false).
  unfold tetra_cell_volume, pyr, dot, cross, vsub. cbn [vx vy vz fst snd]. field.
Qed.
Print Assumptions C34_box.

(** * Movement *)
Theorem C34_translation cp t ce off : tetra_cell_volume (fun k j i => vadd (cp k j i) t) ce off == tetra_cell_volume cp ce off.
Proof.
  rewrite (C34_centre_is_immaterial _ ce (Some t) off), (C34_centre_is_immaterial cp ce (Some (0, 0, 0)) off).
  unfold tetra_cell_volume, pyr, dot, cross, vsub, vadd. cbn [vx vy vz fst snd]. destruct off; field.
Qed.
Print Assumptions C34_translation.

(** any linear map, given by the images of the axes: rotation, scaling, reflection ... *)
Definition linear (a b c : vec) (p : vec) : vec := vadd (vscale (vx p) a) (vadd (vscale (vy p) b) (vscale (vz p) c)).
Lemma linear_sub a b c p q : forall g, g = vx \/ g = vy \/ g = vz -> g (vsub (linear a b c p) (linear a b c q)) == g (linear a b c (vsub p q)).
Proof. intros g [->|[->| ->]]; unfold linear, vsub, vadd, vscale; cbn [vx vy vz fst snd]; ring. Qed.
Lemma det3_linear a b c p q r : det3 (linear a b c p) (linear a b c q) (linear a b c r) == det3 a b c * det3 p q r.
Proof. unfold det3, linear, dot, cross, vadd, vscale. cbn [vx vy vz fst snd]. ring. Qed.
Lemma det3_compat a b c a' b' c' : vx a == vx a' -> vy a == vy a' -> vz a == vz a' -> vx b == vx b' -> vy b == vy b' -> vz b == vz b' ->
  vx c == vx c' -> vy c == vy c' -> vz c == vz c' -> det3 a b c == det3 a' b' c'.
Proof. intros H1 H2 H3 H4 H5 H6 H7 H8 H9. unfold det3, dot, cross. cbn [vx vy vz fst snd]. rewrite H1, H2, H3, H4, H5, H6, H7, H8, H9. reflexivity. Qed.
Lemma pyr_linear a b c r r1 p p1 q q1 s s1 t t1 :
  pyr (vsub (linear a b c r) (linear a b c r1)) (vsub (linear a b c p) (linear a b c p1)) (vsub (linear a b c q) (linear a b c q1))
      (vsub (linear a b c s) (linear a b c s1)) (vsub (linear a b c t) (linear a b c t1)) ==
  det3 a b c * pyr (vsub r r1) (vsub p p1) (vsub q q1) (vsub s s1) (vsub t t1).
Proof.
  unfold pyr. change dot with (fun x y => dot x y). cbv beta. fold (det3 (vsub r r1) (vsub t t1) (vsub q q1)) (det3 (vsub q q1) (vsub s s1) (vsub p p1)).
  fold (det3 (vsub (linear a b c r) (linear a b c r1)) (vsub (linear a b c t) (linear a b c t1)) (vsub (linear a b c q) (linear a b c q1))).
  fold (det3 (vsub (linear a b c q) (linear a b c q1)) (vsub (linear a b c s) (linear a b c s1)) (vsub (linear a b c p) (linear a b c p1))).
  assert (L : forall x x1 y y1 z z1, det3 (vsub (linear a b c x) (linear a b c x1)) (vsub (linear a b c y) (linear a b c y1)) (vsub (linear a b c z) (linear a b c z1)) ==
    det3 a b c * det3 (vsub x x1) (vsub y y1) (vsub z z1)).
  { intros. rewrite <- det3_linear. apply det3_compat; apply linear_sub; auto. }
  rewrite !L. ring.
Qed.
Theorem C34_linear_map cp a b c ce off :
  tetra_cell_volume (fun k j i => linear a b c (cp k j i)) ce off == det3 a b c * tetra_cell_volume cp ce off.
Proof.
  rewrite (C34_centre_is_immaterial _ ce (Some (linear a b c (0, 0, 0))) off), (C34_centre_is_immaterial cp ce (Some (0, 0, 0)) off).
  destruct off; unfold tetra_cell_volume; cbv beta zeta iota; rewrite !pyr_linear;
  repeat match goal with |- context [pyr ?a ?b ?c ?d ?e] => generalize (pyr a b c d e); intros ? end; field.
Qed.
Print Assumptions C34_linear_map.
Theorem C34_scales_cubically cp k ce off : tetra_cell_volume (fun kp jp ip => vscale k (cp kp jp ip)) ce off == k * k * k * tetra_cell_volume cp ce off.
Proof.
  rewrite (C34_centre_is_immaterial _ ce (Some (0, 0, 0)) off), (C34_centre_is_immaterial cp ce (Some (0, 0, 0)) off).
  unfold tetra_cell_volume, pyr, dot, cross, vsub, vscale. cbn [vx vy vz fst snd]. destruct off; field.
Qed.
Print Assumptions C34_scales_cubically.

(** * Handedness *)
Theorem C34_off_hand_negates cp ce : tetra_cell_volume cp ce true == - tetra_cell_volume cp ce false.
Proof. unfold tetra_cell_volume. cbv zeta. field. Qed.
Print Assumptions C34_off_hand_negates.
(** Numbering an axis the other way round should only change the sign. *)
Definition tw (cp : corners) (n : nat) : Q := nth n (map (fun f : vec * vec * vec * vec => let '(a, b, c, d) := f in twist a b c d) (faces cp)) 0.
Lemma reversed_gen cp (off : bool) : let sg (x : Q) := if off then - x else x in
  tetra_cell_volume (fun k j i => cp k j (negb i)) (Some (0, 0, 0)) off == - tetra_cell_volume cp (Some (0, 0, 0)) off + sg ((tw cp 0 + tw cp 1 + tw cp 3 + tw cp 4) / 3) /\
  tetra_cell_volume (fun k j i => cp k (negb j) i) (Some (0, 0, 0)) off == - tetra_cell_volume cp (Some (0, 0, 0)) off + sg ((tw cp 0 + tw cp 2 + tw cp 3 + tw cp 5) / 3) /\
  tetra_cell_volume (fun k j i => cp (negb k) j i) (Some (0, 0, 0)) off == - tetra_cell_volume cp (Some (0, 0, 0)) off + sg ((tw cp 1 + tw cp 2 + tw cp 4 + tw cp 5) / 3).
Proof.
  repeat split;
    unfold tw, faces, twist, det3, tetra_cell_volume, pyr, dot, cross, vsub; cbn [nth map negb vx vy vz fst snd]; destruct off; field.
Qed.
Theorem C34_reversed_axis_planar_faces cp ce off : Forall Coplanar (faces cp) ->
  tetra_cell_volume (fun k j i => cp k j (negb i)) ce off == - tetra_cell_volume cp ce off /\
  tetra_cell_volume (fun k j i => cp k (negb j) i) ce off == - tetra_cell_volume cp ce off /\
  tetra_cell_volume (fun k j i => cp (negb k) j i) ce off == - tetra_cell_volume cp ce off.
Proof.
  intros P.
  assert (Z : forall n, tw cp n == 0).
  { intros n. unfold tw. revert n P. generalize (faces cp). induction l as [|[[[a b] c0] d] l IH]; intros [|n] P; try reflexivity.
    - exact (Forall_inv P).
    - exact (IH n (Forall_inv_tail P)). }
  destruct (reversed_gen cp off) as [A [B C]].
  assert (G : forall a b c d, a == 0 -> b == 0 -> c == 0 -> d == 0 -> (if off then - ((a + b + c + d) / 3) else (a + b + c + d) / 3) == 0).
  { intros a b c d Ha Hb Hc Hd. destruct off; rewrite Ha, Hb, Hc, Hd; field. }
  cbv zeta in A, B, C. rewrite G in A, B, C by apply Z. rewrite Qplus_0_r in A, B, C.
  repeat split;
    match goal with |- tetra_cell_volume ?f _ _ == _ => rewrite (C34_centre_is_immaterial f ce (Some (0, 0, 0)) off) end;
    rewrite (C34_centre_is_immaterial cp ce (Some (0, 0, 0)) off); assumption.
Qed.
Print Assumptions C34_reversed_axis_planar_faces.
(** the same body of rock, its corners numbered the other way along I, has a different size *)
Theorem C34_reversed_axis_refuted : exists cp, 0 < tetra_cell_volume cp None false /\
  ~ Qabs (tetra_cell_volume (fun k j i => cp k j (negb i)) None false) == Qabs (tetra_cell_volume cp None false).
Proof. exists lifted. split; [reflexivity|]. vm_compute. discriminate. Qed.
Print Assumptions C34_reversed_axis_refuted.
Theorem C34_swapped_axes cp ce off :
  tetra_cell_volume (fun k j i => cp k i j) ce off == - tetra_cell_volume cp ce off /\
  tetra_cell_volume (fun k j i => cp j k i) ce off == - tetra_cell_volume cp ce off.
Proof.
  split;
    match goal with |- tetra_cell_volume ?f _ _ == _ => rewrite (C34_centre_is_immaterial f ce (Some (0, 0, 0)) off) end;
    rewrite (C34_centre_is_immaterial cp ce (Some (0, 0, 0)) off);
    unfold tetra_cell_volume, pyr, dot, cross, vsub; cbn [vx vy vz fst snd]; destruct off; field.
Qed.
Print Assumptions C34_swapped_axes.
