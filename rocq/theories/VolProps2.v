(** VolProps2.v: more theorems for C34: cut cells, whole arrays, pyramids and tetrahedra. *)
From Verif Require Import QBase VolModel VolProps.

(** * Cutting a cell in two *)
(** the point at fraction t between a and b, and the two parts of the cell either side of
    the section at fraction t along K, J or I *)
Definition between (t : Q) (a b : vec) : vec := vadd (vscale (1 - t) a) (vscale t b).
Definition below_k (t : Q) (cp : corners) : corners := fun k j i => if k then between t (cp false j i) (cp true j i) else cp false j i.
Definition above_k (t : Q) (cp : corners) : corners := fun k j i => if k then cp true j i else between t (cp false j i) (cp true j i).
Definition before_j (t : Q) (cp : corners) : corners := fun k j i => if j then between t (cp k false i) (cp k true i) else cp k false i.
Definition after_j (t : Q) (cp : corners) : corners := fun k j i => if j then cp k true i else between t (cp k false i) (cp k true i).
Definition before_i (t : Q) (cp : corners) : corners := fun k j i => if i then between t (cp k j false) (cp k j true) else cp k j false.
Definition after_i (t : Q) (cp : corners) : corners := fun k j i => if i then cp k j true else between t (cp k j false) (cp k j true).

(** How far the two parts fail to make up the whole: the twists of the four faces cut. *)
Lemma cut_gen cp t :
  tetra_cell_volume (below_k t cp) (Some (0, 0, 0)) false + tetra_cell_volume (above_k t cp) (Some (0, 0, 0)) false ==
    tetra_cell_volume cp (Some (0, 0, 0)) false - t * (1 - t) / 3 * (tw cp 1 + tw cp 2 + tw cp 4 + tw cp 5) /\
  tetra_cell_volume (before_j t cp) (Some (0, 0, 0)) false + tetra_cell_volume (after_j t cp) (Some (0, 0, 0)) false ==
    tetra_cell_volume cp (Some (0, 0, 0)) false - t * (1 - t) / 3 * (tw cp 0 + tw cp 2 + tw cp 3 + tw cp 5) /\
  tetra_cell_volume (before_i t cp) (Some (0, 0, 0)) false + tetra_cell_volume (after_i t cp) (Some (0, 0, 0)) false ==
    tetra_cell_volume cp (Some (0, 0, 0)) false - t * (1 - t) / 3 * (tw cp 0 + tw cp 1 + tw cp 3 + tw cp 4).
Proof.
  unfold tw, faces, tetra_cell_volume, below_k, above_k, before_j, after_j, before_i, after_i, between. cbn [nth map].
  unfold twist, det3, pyr, dot, cross, vsub, vadd, vscale. cbn [vx vy vz fst snd]. repeat split; field.
Qed.

(** A cell with planar faces may be cut anywhere along any axis: the volumes of the parts
    add up to that of the cell. *)
Theorem C34_parts_add_up_planar_faces cp t ce : Forall Coplanar (faces cp) ->
  tetra_cell_volume (below_k t cp) ce false + tetra_cell_volume (above_k t cp) ce false == tetra_cell_volume cp ce false /\
  tetra_cell_volume (before_j t cp) ce false + tetra_cell_volume (after_j t cp) ce false == tetra_cell_volume cp ce false /\
  tetra_cell_volume (before_i t cp) ce false + tetra_cell_volume (after_i t cp) ce false == tetra_cell_volume cp ce false.
Proof.
  intros P.
  assert (Z : forall n, tw cp n == 0).
  { intros n. unfold tw. revert n P. generalize (faces cp). induction l as [|[[[a b] c0] d] l IH]; intros [|n] P; try reflexivity.
    - exact (Forall_inv P).
    - exact (IH n (Forall_inv_tail P)). }
  destruct (cut_gen cp t) as [A [B C]]. rewrite !Z in A, B, C.
  assert (N : forall f, tetra_cell_volume f ce false == tetra_cell_volume f (Some (0, 0, 0)) false) by (intros; apply C34_centre_is_immaterial).
  rewrite !N, A, B, C. repeat split; field.
Qed.
Print Assumptions C34_parts_add_up_planar_faces.
Theorem C34_parts_add_up_refuted : exists cp,
  ~ tetra_cell_volume (before_i (1 # 2) cp) None false + tetra_cell_volume (after_i (1 # 2) cp) None false == tetra_cell_volume cp None false.
Proof. exists lifted. vm_compute. discriminate. Qed.
Print Assumptions C34_parts_add_up_refuted.
(** planar faces do not have to be parallel or square: a cell that narrows to one side *)
Definition frustum : corners := fun k j i =>
  (if i then (if k then 3 else 4) else (if k then 1 else 0), if j then (if k then 3 else 4) else (if k then 1 else 0), if k then 2 else 0).
Example C34_frustum_is_planar : Forall Coplanar (faces frustum) /\ tetra_cell_volume frustum None false == 56 # 3.
Proof. split; [repeat constructor; vm_compute; reflexivity|]. vm_compute. reflexivity. Qed.

(** * Whole arrays *)
Lemma volumes_slow_map cells centres off :
  tetra_volumes_slow cells None off = map (fun cp => tetra_cell_volume cp None off) cells /\
  tetra_volumes_slow cells (Some centres) off = map (fun cc => tetra_cell_volume (fst cc) (Some (snd cc)) off) (combine cells centres).
Proof.
  split; [|reflexivity]. unfold tetra_volumes_slow. induction cells as [|c l IH]; [reflexivity|]. cbn [map combine]. f_equal. exact IH.
Qed.
Definition Qs_eq (a b : list Q) : Prop := Forall2 Qeq a b.
Lemma volumes_cons c l x xs off : exists q, q == tetra_cell_volume c (Some x) off /\
  tetra_volumes (c :: l) (Some (x :: xs)) off = q :: tetra_volumes l (Some xs) off.
Proof.
  destruct off; eexists; (split; [|unfold tetra_volumes; cbn [map combine fst snd]; reflexivity]); unfold tetra_cell_volume; cbv zeta; field.
Qed.
Lemma volumes_some : forall cells centres off, List.length centres = List.length cells ->
  Qs_eq (tetra_volumes cells (Some centres) off) (tetra_volumes_slow cells (Some centres) off).
Proof.
  induction cells as [|c l IH]; intros [|x xs] off L; try discriminate L; [destruct off; constructor|].
  destruct (volumes_cons c l x xs off) as [q [E ->]]. cbn [tetra_volumes_slow combine map]. constructor; [exact E|]. apply IH. now injection L.
Qed.
(** The array form gives the volume of each cell, wherever the centre is taken to be. *)
Theorem C34_array_is_cell_by_cell cells centres off :
  match centres with Some c => List.length c = List.length cells | None => True end ->
  Qs_eq (tetra_volumes cells centres off) (map (fun cp => tetra_cell_volume cp None off) cells) /\
  Qs_eq (tetra_volumes_slow cells centres off) (map (fun cp => tetra_cell_volume cp None off) cells).
Proof.
  assert (S : forall cells centres, List.length centres = List.length cells ->
    Qs_eq (tetra_volumes_slow cells (Some centres) off) (map (fun cp => tetra_cell_volume cp None off) cells)).
  { clear. induction cells as [|c l IH]; intros [|x xs] L; try discriminate L; [constructor|].
    cbn [tetra_volumes_slow combine map fst snd]. constructor; [apply C34_centre_is_immaterial|]. apply IH. now injection L. }
  assert (T : forall a b c, Qs_eq a b -> Qs_eq b c -> Qs_eq a c).
  { clear. intros a b c H. revert c. induction H; intros c K; inversion K; subst; constructor; [etransitivity; eassumption|apply IHForall2; assumption]. }
  assert (M : forall cs, List.length cs = List.length cells -> Qs_eq (tetra_volumes cells (Some cs) off) (map (fun cp => tetra_cell_volume cp None off) cells) /\
    Qs_eq (tetra_volumes_slow cells (Some cs) off) (map (fun cp => tetra_cell_volume cp None off) cells)).
  { intros cs L. split; [|now apply S]. eapply T; [now apply volumes_some|now apply S]. }
  destruct centres as [cs|]; intros L; [now apply M|]. apply (M (map mean_corner cells)). now rewrite map_length.
Qed.
Print Assumptions C34_array_is_cell_by_cell.

(** * Pyramids and tetrahedra *)
(** the bilinear base of a pyramid and the rate at which volume is swept out by lines from
    the apex: three times the volume is the integral of (r - apex) . (r_u x r_v) *)
Definition quad (g : vec -> Q) (a b c d : vec) (u v : Q) : Q := (1 - u) * (1 - v) * g a + u * (1 - v) * g b + u * v * g c + (1 - u) * v * g d.
Definition quad_u (g : vec -> Q) (a b c d : vec) (v : Q) : Q := (1 - v) * (g b - g a) + v * (g c - g d).
Definition quad_v (g : vec -> Q) (a b c d : vec) (u : Q) : Q := (1 - u) * (g d - g a) + u * (g c - g b).
Lemma quad_derivs g a b c d u v h : quad g a b c d (u + h) v - quad g a b c d u v == h * quad_u g a b c d v /\
  quad g a b c d u (v + h) - quad g a b c d u v == h * quad_v g a b c d u.
Proof. split; unfold quad, quad_u, quad_v; ring. Qed.
Definition flux (apex a b c d : vec) (u v : Q) : Q :=
  det3 (vsub (quad vx a b c d u v, quad vy a b c d u v, quad vz a b c d u v) apex) (quad_u vx a b c d v, quad_u vy a b c d v, quad_u vz a b c d v)
       (quad_v vx a b c d u, quad_v vy a b c d u, quad_v vz a b c d u).
Definition poly2 (k : nat -> nat -> Q) (u v : Q) : Q := k 0%nat 0%nat + k 1%nat 0%nat * u + k 0%nat 1%nat * v + k 1%nat 1%nat * u * v.
Definition integral2 (k : nat -> nat -> Q) : Q := k 0%nat 0%nat + k 1%nat 0%nat / 2 + k 0%nat 1%nat / 2 + k 1%nat 1%nat / 4.
Theorem C34_pyramid_volume_is_swept_out apex a b c d :
  exists k, (forall u v, flux apex a b c d u v == poly2 k u v) /\
    pyramid_volume apex a b c d true == integral2 k / 3 /\ pyramid_volume apex a b c d false == - (integral2 k / 3).
Proof.
  exists (fun i j => match i, j with
    | O, O => flux apex a b c d 0 0 | S O, O => flux apex a b c d 1 0 - flux apex a b c d 0 0
    | O, S O => flux apex a b c d 0 1 - flux apex a b c d 0 0
    | _, _ => flux apex a b c d 1 1 - flux apex a b c d 1 0 - flux apex a b c d 0 1 + flux apex a b c d 0 0 end).
  destruct apex as [[? ?] ?], a as [[? ?] ?], b as [[? ?] ?], c as [[? ?] ?], d as [[? ?] ?].
  unfold poly2, integral2, pyramid_volume, flux, quad, quad_u, quad_v, pyr, det3, dot, cross, vsub. cbn [vx vy vz fst snd].
  split; [intros u v; ring|]. split; field.
Qed.
Print Assumptions C34_pyramid_volume_is_swept_out.
(** The six pyramids from any point to the faces of a cell do make up the volume of the
    cell, whatever the twist of its faces: the two functions of the module disagree. *)
Theorem C34_pyramids_make_up_the_cell cp apex :
  CellVolume cp (sumQ (map (fun f => let '(a, b, c, d) := f in pyramid_volume apex a b c d false) (faces cp))).
Proof.
  destruct (C34_volume_and_twist cp (Some apex)) as [k [H E]]. exists k. split; [exact H|]. rewrite <- E.
  unfold total_twist, faces, twist, tetra_cell_volume, pyramid_volume. cbn [map sumQ fold_right]. unfold det3, pyr, dot, cross, vsub. cbn [vx vy vz fst snd].
  field.
Qed.
Print Assumptions C34_pyramids_make_up_the_cell.
Theorem C34_pyramid_start_is_immaterial apex a b c d h :
  pyramid_volume apex b c d a h == pyramid_volume apex a b c d h /\ pyramid_volume apex a d c b h == - pyramid_volume apex a b c d h.
Proof. unfold pyramid_volume, pyr, dot, cross, vsub. cbn [vx vy vz fst snd]. destruct h; split; field. Qed.
Print Assumptions C34_pyramid_start_is_immaterial.

Lemma Qabs_eq x y : x == y \/ x == - y -> Qabs x == Qabs y.
Proof. intros [-> | ->]; [reflexivity|apply Qabs_opp]. Qed.
Lemma tetra_abs a b c d a' b' c' d' :
  (dot (vsub a d) (cross (vsub b d) (vsub c d)) == dot (vsub a' d') (cross (vsub b' d') (vsub c' d')) \/
   dot (vsub a d) (cross (vsub b d) (vsub c d)) == - dot (vsub a' d') (cross (vsub b' d') (vsub c' d'))) ->
  tetrahedron_volume a b c d == tetrahedron_volume a' b' c' d'.
Proof. intros H. unfold tetrahedron_volume. rewrite (Qabs_eq _ _ H). reflexivity. Qed.
(** The volume of a tetrahedron does not depend on the order of its corners (adjacent
    exchanges generate all orders) or on where it is, is never negative, and is zero exactly
    when the corners lie in one plane; it is that of the pyramid with two base corners the
    same. *)
Theorem C34_tetrahedron a b c d t h :
  tetrahedron_volume b a c d == tetrahedron_volume a b c d /\ tetrahedron_volume a c b d == tetrahedron_volume a b c d /\
  tetrahedron_volume a b d c == tetrahedron_volume a b c d /\
  tetrahedron_volume (vadd a t) (vadd b t) (vadd c t) (vadd d t) == tetrahedron_volume a b c d /\
  0 <= tetrahedron_volume a b c d /\ (tetrahedron_volume a b c d == 0 <-> twist a b c d == 0) /\
  tetrahedron_volume a b c d == Qabs (pyramid_volume a b c d d h).
Proof.
  repeat split.
  - apply tetra_abs. right. unfold dot, cross, vsub. cbn [vx vy vz fst snd]. ring.
  - apply tetra_abs. right. unfold dot, cross, vsub. cbn [vx vy vz fst snd]. ring.
  - apply tetra_abs. right. unfold dot, cross, vsub. cbn [vx vy vz fst snd]. ring.
  - apply tetra_abs. left. unfold dot, cross, vsub, vadd. cbn [vx vy vz fst snd]. ring.
  - unfold tetrahedron_volume. apply Qle_shift_div_l; [reflexivity|]. rewrite Qmult_0_l. apply Qabs_nonneg.
  - intros H. assert (A : Qabs (dot (vsub a d) (cross (vsub b d) (vsub c d))) == 0).
    { unfold tetrahedron_volume in H. revert H. generalize (Qabs (dot (vsub a d) (cross (vsub b d) (vsub c d)))). intros q H.
      assert (q == q / 6 * 6) by field. rewrite H0, H. reflexivity. }
    assert (Z : dot (vsub a d) (cross (vsub b d) (vsub c d)) == 0).
    { revert A. generalize (dot (vsub a d) (cross (vsub b d) (vsub c d))). intros q. apply Qabs_case; intros; lra. }
    assert (T : twist a b c d == - dot (vsub a d) (cross (vsub b d) (vsub c d))) by (unfold twist, det3, dot, cross, vsub; cbn [vx vy vz fst snd]; ring).
    rewrite T, Z. reflexivity.
  - intros H. unfold tetrahedron_volume. rewrite (Qabs_eq _ (twist a b c d)).
    + rewrite H. reflexivity.
    + first [left; unfold twist, det3, dot, cross, vsub; cbn [vx vy vz fst snd]; ring | right; unfold twist, det3, dot, cross, vsub; cbn [vx vy vz fst snd]; ring].
  - unfold tetrahedron_volume. transitivity (Qabs (dot (vsub a d) (cross (vsub b d) (vsub c d)) / 6)).
    + unfold Qdiv. rewrite Qabs_Qmult. reflexivity.
    + apply Qabs_eq. unfold pyramid_volume, pyr, dot, cross, vsub. cbn [vx vy vz fst snd]. destruct h; first [left; field | right; field].
Qed.
Print Assumptions C34_tetrahedron.
