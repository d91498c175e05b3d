(** TriProps.v: properties C62 to C65. *)
From Verif Require Import QBase TriModel TriProofs TriProofs2 TriProofs3 TriProofs4.

(** * C62: points in triangles by orientation *)
Theorem C62_in_triangle a b c d : Anticlockwise a b c ->
  (in_triangle a b c d = true <-> Inner a b c d) /\ (in_triangle_edged a b c d = true <-> Hull a b c d).
Proof.
  intros HC. apply anticlockwise_cw in HC. rewrite (inner_ccw a b c d HC), (hull_ccw a b c d HC).
  unfold in_triangle, in_triangle_edged. rewrite !andb_true_iff, !Qltb_iff, !Qleb_iff. tauto.
Qed.
Print Assumptions C62_in_triangle.
(** The corners must be given anti-clockwise: otherwise nothing is inside. *)
Theorem C62_clockwise_order_loses_points_refuted : exists a b c d, Inner a b c d /\ in_triangle a b c d = false /\ in_triangle_edged a b c d = false.
Proof.
  exists (0, 0), (0, 4), (4, 0), (1, 1). split; [|split; reflexivity]. apply inner_swap. apply inner_ccw; [reflexivity|]. repeat split.
Qed.
Print Assumptions C62_clockwise_order_loses_points_refuted.

Definition axes_of (projection : string) (a0 a1 : Z) : Prop :=
  (projection = "xy" /\ a0 = 0 /\ a1 = 1 \/ projection = "xz" /\ a0 = 0 /\ a1 = 2 \/ projection = "yz" /\ a0 = 1 /\ a1 = 2)%Z%string.
Definition index_ok {A} (p : list A) (i : Z) : Prop := (0 <= i < Z.of_nat (List.length p))%Z.

Lemma axes_ok projection a0 a1 : axes_of projection a0 a1 -> projected_xyz_axes projection = Ok (a0, a1).
Proof. intros [(-> & -> & ->)|[(-> & -> & ->)|(-> & -> & ->)]]; reflexivity. Qed.
Definition pnt (p : list pt3) (i : Z) : pt3 := nth (Z.to_nat i) p (0, 0, 0).
Lemma py_get_ok (p : list pt3) i : index_ok p i -> py_get p i = Ok (pnt p i).
Proof.
  intros H. unfold index_ok in H. unfold py_get, pnt. destruct (Z.ltb_spec i 0); [lia|]. destruct (Z.ltb_spec i 0); [lia|].
  rewrite (nth_error_nth' p (0, 0, 0)) by lia. reflexivity.
Qed.
Lemma cw3_ok a0 a1 p t0 t1 t2 : index_ok p t0 -> index_ok p t1 -> index_ok p t2 ->
  clockwise_triangle a0 a1 p (t0, t1, t2) = Ok (clockwise (proj a0 a1 (pnt p t0)) (proj a0 a1 (pnt p t1)) (proj a0 a1 (pnt p t2))).
Proof. intros H0 H1 H2. unfold clockwise_triangle. rewrite (py_get_ok p t0 H0), (py_get_ok p t1 H1), (py_get_ok p t2 H2). reflexivity. Qed.
Lemma pnt_app_l p da i : index_ok p i -> pnt (p ++ da) i = pnt p i.
Proof. intros H. unfold index_ok in H. unfold pnt. apply app_nth1. lia. Qed.
Lemma pnt_app_r p da d : (0 <= d)%Z -> pnt (p ++ da) (d + Z.of_nat (List.length p)) = pnt da d.
Proof. intros H. unfold pnt. rewrite app_nth2 by lia. f_equal. lia. Qed.

Definition inside_test (edged : bool) (a b c d : pt2) : bool :=
  let s q := if edged then q <=b 0 else q <b 0 in
  if 0 <b clockwise a b c then s (clockwise b a d) && (s (clockwise c b d) && (s (clockwise a c d) && true))
  else s (clockwise a b d) && (s (clockwise b c d) && (s (clockwise c a d) && true)).
Lemma inside_test_strict a b c d : inside_test false a b c d = true <-> Inner a b c d.
Proof.
  unfold inside_test. destruct (Qltb_spec 0 (clockwise a b c)) as [L|L].
  - rewrite !andb_true_iff, !Qltb_iff. rewrite <- inner_swap.
    assert (HC : clockwise b a c < 0) by (rewrite cw_swap; lra). rewrite (inner_ccw b a c d HC). tauto.
  - rewrite !andb_true_iff, !Qltb_iff. destruct (Qeq_dec (clockwise a b c) 0) as [E|E].
    + pose proof (cw_sum a b c d). split; [intros; lra|]. intros [N _]. exfalso. apply N. now apply collinear_cw.
    + assert (HC : clockwise a b c < 0) by lra. rewrite (inner_ccw a b c d HC). tauto.
Qed.
Lemma inside_test_edged a b c d : ~ Collinear a b c -> (inside_test true a b c d = true <-> Hull a b c d).
Proof.
  rewrite collinear_cw. intros N. unfold inside_test. destruct (Qltb_spec 0 (clockwise a b c)) as [L|L]; rewrite !andb_true_iff, !Qleb_iff.
  - rewrite <- hull_swap. assert (HC : clockwise b a c < 0) by (rewrite cw_swap; lra). rewrite (hull_ccw b a c d HC). tauto.
  - assert (HC : clockwise a b c < 0) by lra. rewrite (hull_ccw a b c d HC). tauto.
Qed.
Lemma inside_test_edged_line a b c d : Hull a b c d -> inside_test true a b c d = true.
Proof.
  intros H. destruct (Qeq_dec (clockwise a b c) 0) as [E|E]; [|apply inside_test_edged; [rewrite collinear_cw; exact E|exact H]].
  destruct H as (u & v & w & Hu & Hv & Hw & H1 & H2 & H3). destruct (cw_mean a b c d u v w H1 H2 H3) as (E1 & E2 & E3). rewrite E in *.
  unfold inside_test. destruct (Qltb_spec 0 (clockwise a b c)) as [L|L]; [lra|]. rewrite !andb_true_iff, !Qleb_iff. repeat split; lra.
Qed.

Theorem C62_points_in_triangles p ts da projection a0 a1 edged : axes_of projection a0 a1 ->
  (forall t0 t1 t2, In (t0, t1, t2) ts -> index_ok p t0 /\ index_ok p t1 /\ index_ok p t2) ->
  exists m, points_in_triangles p ts da projection edged = Ok m /\ List.length m = List.length ts /\
  forall i t0 t1 t2 A B C, nth_error ts i = Some (t0, t1, t2) ->
    nth_error p (Z.to_nat t0) = Some A -> nth_error p (Z.to_nat t1) = Some B -> nth_error p (Z.to_nat t2) = Some C ->
    exists row, nth_error m i = Some row /\ List.length row = List.length da /\
    forall j D, nth_error da j = Some D ->
      let a := (coord A a0, coord A a1) in let b := (coord B a0, coord B a1) in
      let c := (coord C a0, coord C a1) in let d := (coord D a0, coord D a1) in
      exists inside, nth_error row j = Some inside /\
        (edged = false -> (inside = true <-> Inner a b c d)) /\
        (edged = true -> (Hull a b c d -> inside = true) /\ (~ Collinear a b c -> inside = true -> Hull a b c d)).
Proof.
  intros HA HI. pose proof (axes_ok _ _ _ HA) as EA.
  set (P l i := proj a0 a1 (pnt l i)).
  set (cw t := let '(t0, t1, t2) := t in clockwise (P p t0) (P p t1) (P p t2)).
  assert (E1 : clockwise_triangles p ts projection = Ok (map cw ts)).
  { unfold clockwise_triangles. rewrite EA. cbn [bind]. apply mapM_ok. intros [[t0 t1] t2] Ht. destruct (HI _ _ _ Ht) as (I0 & I1 & I2). now apply cw3_ok. }
  set (cell t d := let '(t0, t1, t2) := t in inside_test edged (P p t0) (P p t1) (P p t2) (P da d)).
  assert (E2 : points_in_triangles p ts da projection edged = Ok (map (fun t => map (cell t) (zrange (Z.of_nat (List.length da)))) ts)).
  { unfold points_in_triangles. rewrite E1. cbn [bind].
    assert (EC : combine (map cw ts) ts = map (fun t => (cw t, t)) ts) by (clear; induction ts as [|t l IH]; cbn; [reflexivity|now rewrite IH]).
    rewrite EC, mapM_map. apply mapM_ok. intros [[t0 t1] t2] Ht. cbn [fst snd]. apply mapM_ok. intros d Hd. apply in_zrange in Hd.
    destruct (HI _ _ _ Ht) as (I0 & I1 & I2).
    assert (AP : forall t, index_ok p t -> index_ok (p ++ da) t) by (unfold index_ok; intros t H; rewrite app_length; lia).
    assert (ID : index_ok (p ++ da) (d + Z.of_nat (List.length p))) by (unfold index_ok; rewrite app_length; lia).
    unfold clockwise_triangles. rewrite EA. cbn [bind]. unfold little_triangles, cell, inside_test. fold (cw (t0, t1, t2)). change (clockwise (P p t0) (P p t1) (P p t2)) with (cw (t0, t1, t2)).
    destruct (0 <b cw (t0, t1, t2)); cbn [mapM]; rewrite !cw3_ok by auto; cbn [bind forallb]; rewrite !pnt_app_r, !pnt_app_l by (assumption || lia); reflexivity. }
  rewrite E2. eexists. split; [reflexivity|]. split; [apply map_length|].
  intros i t0 t1 t2 A B C Ht HAa HB HC. rewrite nth_error_map, Ht. cbn [option_map]. eexists. split; [reflexivity|]. split; [rewrite map_length, zrange_length; lia|].
  intros j D HD. cbv zeta. rewrite nth_error_map.
  assert (HJ : (j < List.length da)%nat) by (apply nth_error_Some; congruence).
  rewrite (nth_error_nth' (zrange _) 0%Z) by (rewrite zrange_length; lia). rewrite zrange_nth by lia. cbn [option_map]. eexists. split; [reflexivity|].
  unfold cell, P, proj, pnt. rewrite (nth_error_nth _ _ _ HAa), (nth_error_nth _ _ _ HB), (nth_error_nth _ _ _ HC).
  rewrite Nat2Z.id, (nth_error_nth _ _ _ HD). split.
  - intros ->. apply inside_test_strict.
  - intros ->. split; [apply inside_test_edged_line|]. intros N H. now apply inside_test_edged in H.
Qed.
Print Assumptions C62_points_in_triangles.
Example C62_example : points_in_triangles [(0, 0, 7); (0, 4, 8); (4, 0, 9)] [(0, 1, 2)%Z; (2, 1, 0)%Z] [(1, 1, 0); (0, 2, 0); (3, 3, 0)] "xy" false
  = Ok [[true; false; false]; [true; false; false]].
Proof. reflexivity. Qed.
Example C62_example_edged : points_in_triangles [(0, 0, 7); (0, 4, 8); (4, 0, 9)] [(0, 1, 2)%Z; (2, 1, 0)%Z] [(1, 1, 0); (0, 2, 0); (3, 3, 0)] "xy" true
  = Ok [[true; true; false]; [true; true; false]].
Proof. reflexivity. Qed.
(** With edges, a triangle of no area takes in the whole line it lies on. *)
Theorem C62_flat_triangle_takes_line_refuted : exists p ts da,
  points_in_triangles p ts da "xy" true = Ok [[true]] /\
  exists A B C D, p = [A; B; C] /\ ts = [(0, 1, 2)%Z] /\ da = [D] /\ ~ Hull (proj 0 1 A) (proj 0 1 B) (proj 0 1 C) (proj 0 1 D).
Proof.
  exists [(0, 0, 0); (1, 0, 0); (2, 0, 0)], [(0, 1, 2)%Z], [(5, 0, 0)]. split; [reflexivity|].
  exists (0, 0, 0), (1, 0, 0), (2, 0, 0), (5, 0, 0). repeat split; auto. intros H. apply hull_box in H. destruct H as [[_ H] _]. revert H. cbn. lra.
Qed.
Print Assumptions C62_flat_triangle_takes_line_refuted.
(** Corners given by negative indices are looked up among the tested points: the same
    triangle gives different answers. *)
Theorem C62_negative_index_refuted : exists p da,
  points_in_triangles p [(0, 1, 2)%Z] da "xy" false = Ok [[true]] /\ points_in_triangles p [(0, 1, -1)%Z] da "xy" false = Ok [[false]] /\
  List.length p = 3%nat.
Proof. exists [(0, 0, 0); (0, 4, 0); (4, 0, 0)], [(1, 1, 0)]. repeat split. Qed.
Print Assumptions C62_negative_index_refuted.

(** * C63: circumcircles *)
Theorem C63_in_circumcircle a b c d o : Anticlockwise a b c -> dist2 b o == dist2 a o -> dist2 c o == dist2 a o ->
  (in_circumcircle a b c d = true <-> dist2 d o < dist2 a o).
Proof.
  intros HC Hb Hc. apply anticlockwise_cw in HC. unfold in_circumcircle. fold (circ_det a b c d). rewrite Qltb_iff.
  rewrite (circ_det_eq a b c d o (dist2 a o)) by (assumption || reflexivity).
  set (k := clockwise a b c) in *. set (m := dist2 a o - dist2 d o). assert (E : dist2 d o < dist2 a o <-> 0 < m) by (unfold m; split; intros; lra). rewrite E. clearbody k m.
  split; intros H.
  - destruct (Qlt_le_dec 0 m) as [L|L]; [exact L|]. assert (0 <= (- k) * (- m)) by (apply Qmult_le_0_compat; lra). lra.
  - apply Qmult_lt_0_compat; lra.
Qed.
Print Assumptions C63_in_circumcircle.
Theorem C63_circle_exists a b c : Anticlockwise a b c -> exists o, dist2 b o == dist2 a o /\ dist2 c o == dist2 a o.
Proof. intros H. apply circumcentre_exists. rewrite collinear_cw. apply anticlockwise_cw in H. lra. Qed.
Print Assumptions C63_circle_exists.
(** The criterion used for flipping edges of a triangulation is symmetric: d is inside
    the circle of a b c exactly when b is inside the circle of a c d, for a convex
    quadrilateral a b c d. *)
Theorem C63_flip_is_symmetric a b c d : Anticlockwise a b c -> Anticlockwise a c d ->
  in_circumcircle a b c d = in_circumcircle a c d b.
Proof.
  intros H1 H2. unfold in_circumcircle. fold (circ_det a b c d) (circ_det a c d b).
  assert (E : circ_det a b c d == circ_det a c d b).
  { destruct a as [a1 a2], b as [b1 b2], c as [c1 c2], d as [d1 d2]. unfold circ_det, determinant, coord. cbn [fst snd Z.eqb Pos.eqb]. ring. }
  now rewrite E.
Qed.
Print Assumptions C63_flip_is_symmetric.
Example C63_example : in_circumcircle (0, 0) (4, 0) (0, 4) (3, 3) = true /\ in_circumcircle (0, 0) (4, 0) (0, 4) (4, 4) = false /\ in_circumcircle (0, 0) (4, 0) (0, 4) (5, 3) = false.
Proof. repeat split. Qed.

(** * C64: points in polygons by crossings *)
Theorem C64_polygon x y poly : poly <> [] ->
  exists inside, point_in_polygon x y poly = Ok inside /\
    (inside = true <-> OddMany (fun e => Crosses x y (fst e) (snd e)) (polygon_edges poly)).
Proof.
  intros H. rewrite (point_in_polygon_xor x y poly H). eexists. split; [reflexivity|]. apply xor_all_odd. intros e. apply edge_hit_iff.
Qed.
Print Assumptions C64_polygon.
Theorem C64_triangle x y a b c :
  point_in_polygon x y [a; b; c] = Ok (point_in_triangle x y (a, b, c)) /\
  (Inner a b c (x, y) -> point_in_triangle x y (a, b, c) = true) /\
  (point_in_triangle x y (a, b, c) = true -> Hull a b c (x, y)).
Proof.
  split; [apply triangle_is_polygon|]. rewrite point_in_triangle_hits. split; [apply inner_hits|apply tri_hits_hull].
Qed.
Print Assumptions C64_triangle.
(** A polygon cut into triangles from its first corner: a point in the polygon is in an
    odd number of the triangles, a point outside in an even number - also on the cuts. *)
Theorem C64_triangles_of_polygon x y v w l : exists inside, point_in_polygon x y (v :: w :: l) = Ok inside /\
  (inside = true <-> OddMany (fun t => point_in_triangle x y t = true) (map (fun e => (v, fst e, snd e)) (combine (w :: l) l))).
Proof.
  rewrite point_in_polygon_xor by discriminate. eexists. split; [reflexivity|]. cbn [polygon_edges edges_from xor_all fold_right fst snd].
  change (fold_right (fun a b => xorb (edge_hit x y (fst a) (snd a)) b) false (edges_from w l v)) with (xor_all (fun e => edge_hit x y (fst e) (snd e)) (edges_from w l v)).
  rewrite fan. rewrite <- xorb_assoc, xorb_nilpotent, xorb_false_l. apply xor_all_odd. intros t. reflexivity.
Qed.
Print Assumptions C64_triangles_of_polygon.
(** Two triangles sharing an edge: together they take in exactly the points of the
    quadrilateral, and no point on the shared edge is counted twice or missed. *)
Theorem C64_shared_edge x y a b c d : 
  point_in_polygon x y [a; b; c; d] = Ok (xorb (point_in_triangle x y (a, b, c)) (point_in_triangle x y (a, c, d))).
Proof.
  rewrite point_in_polygon_xor by discriminate. f_equal. cbn [polygon_edges edges_from xor_all fold_right fst snd]. rewrite !point_in_triangle_hits. unfold tri_hits. rewrite (edge_hit_sym x y c a).
  destruct (edge_hit x y a b), (edge_hit x y b c), (edge_hit x y a c), (edge_hit x y c d), (edge_hit x y d a); reflexivity.
Qed.
Print Assumptions C64_shared_edge.
(** Outside the box of a polygon nothing is inside. *)
Lemma spans_telescope y v l last : xor_all (fun e => spans y (fst e) (snd e)) (edges_from v l last) = xorb (snd v <b y) (snd last <b y).
Proof.
  revert v. induction l as [|w l IH]; intros v; cbn [edges_from xor_all fold_right fst snd]; [rewrite spans_xor; apply xorb_false_r|].
  change (fold_right (fun a b => xorb (spans y (fst a) (snd a)) b) false (edges_from w l last)) with (xor_all (fun e => spans y (fst e) (snd e)) (edges_from w l last)).
  rewrite IH, spans_xor. destruct (snd v <b y), (snd w <b y), (snd last <b y); reflexivity.
Qed.
Lemma edges_from_in v l last e : In e (edges_from v l last) -> In (fst e) (v :: l) /\ (In (snd e) l \/ snd e = last).
Proof.
  revert v. induction l as [|w l IH]; intros v; cbn [edges_from In].
  - intros [<-|[]]. cbn. auto.
  - intros [<-|H]; [cbn; auto|]. apply IH in H. cbn [In] in *. tauto.
Qed.
Lemma polygon_edges_in poly e : In e (polygon_edges poly) -> In (fst e) poly /\ In (snd e) poly.
Proof. destruct poly as [|v l]; [intros []|]. cbn [polygon_edges]. intros H. apply edges_from_in in H. destruct H as [H1 [H2| ->]]; split; auto; [now right|now left]. Qed.
Lemma xor_all_false {A} (f : A -> bool) l : (forall a, In a l -> f a = false) -> xor_all f l = false.
Proof. induction l as [|a l IH]; intros H; [reflexivity|]. cbn [xor_all fold_right]. change (fold_right _ false l) with (xor_all f l). rewrite (H a), IH; [reflexivity| |now left]. intros; apply H; now right. Qed.
Lemma xor_all_ext {A} (f g : A -> bool) l : (forall a, In a l -> f a = g a) -> xor_all f l = xor_all g l.
Proof. induction l as [|a l IH]; intros H; [reflexivity|]. cbn [xor_all fold_right]. change (fold_right (fun a b => xorb (f a) b) false l) with (xor_all f l). change (fold_right (fun a b => xorb (g a) b) false l) with (xor_all g l). rewrite (H a), IH; [reflexivity| |now left]. intros; apply H; now right. Qed.
Theorem C64_outside_box x y poly : poly <> [] ->
  (forall v, In v poly -> x < fst v) \/ (forall v, In v poly -> fst v < x) \/ (forall v, In v poly -> y < snd v) \/ (forall v, In v poly -> snd v < y) ->
  point_in_polygon x y poly = Ok false.
Proof.
  intros N H. rewrite (point_in_polygon_xor x y poly N). f_equal.
  assert (CR : forall e, In e (polygon_edges poly) -> edge_hit x y (fst e) (snd e) = true -> exists s, 0 <= s <= 1 /\ y == (1 - s) * snd (fst e) + s * snd (snd e) /\ x <= (1 - s) * fst (fst e) + s * fst (snd e)).
  { intros e _ E. apply edge_hit_iff in E. destruct E as (_ & E). exact E. }
  destruct H as [H|H].
  - destruct poly as [|v l]; [congruence|]. cbn [polygon_edges].
    rewrite (xor_all_ext _ (fun e => spans y (fst e) (snd e))); [rewrite spans_telescope; apply xorb_nilpotent|].
    intros e He. destruct (spans y (fst e) (snd e)) eqn:ES.
    + destruct (edge_hit x y (fst e) (snd e)) eqn:EH; [reflexivity|]. destruct (spans_not_hit _ _ _ _ ES EH) as (s & HS & _ & HX).
      destruct (polygon_edges_in (v :: l) e He) as [I1 I2]. apply H in I1, I2. exfalso.
      assert (0 <= (1 - s) * (fst (fst e) - x)) by (apply Qmult_le_0_compat; lra). assert (0 <= s * (fst (snd e) - x)) by (apply Qmult_le_0_compat; lra). lra.
    + destruct (edge_hit x y (fst e) (snd e)) eqn:EH; [apply hit_spans in EH; congruence|reflexivity].
  - apply xor_all_false. intros e He. destruct (edge_hit x y (fst e) (snd e)) eqn:EH; [|reflexivity]. exfalso.
    destruct (CR e He EH) as (s & [S0 S1] & HY & HX). destruct (polygon_edges_in poly e He) as [I1 I2].
    assert (MEAN : forall p q m, (0 < p - m /\ 0 < q - m) -> ~ (1 - s) * p + s * q <= m).
    { intros p q m [G1 G2] G. assert (0 <= (1 - s) * (p - m)) by (apply Qmult_le_0_compat; lra). assert (0 <= s * (q - m)) by (apply Qmult_le_0_compat; lra).
      assert (Z1 : (1 - s) * (p - m) == 0) by lra. assert (Z2 : s * (q - m) == 0) by lra. apply Qmult_integral in Z1, Z2. destruct Z1, Z2; lra. }
    destruct H as [H|[H|H]]; apply H in I1, I2.
    + assert (0 <= (1 - s) * (x - fst (fst e))) by (apply Qmult_le_0_compat; lra). assert (0 <= s * (x - fst (snd e))) by (apply Qmult_le_0_compat; lra).
      assert (Z1 : (1 - s) * (x - fst (fst e)) == 0) by lra. assert (Z2 : s * (x - fst (snd e)) == 0) by lra. apply Qmult_integral in Z1, Z2. destruct Z1, Z2; lra.
    + apply (MEAN (snd (fst e)) (snd (snd e)) y); lra.
    + assert (0 <= (1 - s) * (y - snd (fst e))) by (apply Qmult_le_0_compat; lra). assert (0 <= s * (y - snd (snd e))) by (apply Qmult_le_0_compat; lra).
      assert (Z1 : (1 - s) * (y - snd (fst e)) == 0) by lra. assert (Z2 : s * (y - snd (snd e)) == 0) by lra. apply Qmult_integral in Z1, Z2. destruct Z1, Z2; lra.
Qed.
Print Assumptions C64_outside_box.
Example C64_example : point_in_polygon 1 1 [(0, 0); (4, 0); (4, 4); (2, 1); (0, 4)] = Ok true /\ point_in_polygon 2 3 [(0, 0); (4, 0); (4, 4); (2, 1); (0, 4)] = Ok false.
Proof. split; reflexivity. Qed.

(** The rows returned for many points *)
Theorem C64_points_in_polygon points poly xlen num : poly <> [] -> num <> (-1)%Z ->
  exists rows, points_in_polygon points poly xlen num = Ok rows /\
  forall n j i, In (n, j, i) rows <->
    n = num /\ exists k p, nth_error points k = Some p /\ point_in_polygon (fst p) (snd p) poly = Ok true /\
                           j = (Z.of_nat k / xlen)%Z /\ i = (Z.of_nat k mod xlen)%Z.
Proof.
  intros HP HN. unfold points_in_polygon.
  set (f := fun kp : Z * pt2 => match point_in_polygon (fst (snd kp)) (snd (snd kp)) poly with Ok true => (num, fst kp / xlen, fst kp mod xlen)%Z | _ => (-1, -1, -1)%Z end).
  rewrite (mapM_ok _ f).
  2: { intros [k p] _. cbn [fst snd]. unfold f. cbn [fst snd]. rewrite (point_in_polygon_xor _ _ _ HP). cbn [bind]. now destruct (xor_all _ _). }
  cbn [bind]. eexists. split; [reflexivity|]. intros n j i. rewrite filter_In, in_map_iff. split.
  - intros [([k p] & E & Hin) Hk]. apply in_indexed in Hin. destruct Hin as [K0 Hin]. rewrite Z.sub_0_r in Hin. unfold f in E. cbn [fst snd] in E.
    destruct (point_in_polygon (fst p) (snd p) poly) as [[|]|] eqn:EP.
    + injection E as <- <- <-. split; [reflexivity|]. exists (Z.to_nat k), p. rewrite Z2Nat.id by exact K0. auto.
    + injection E as <- <- <-. discriminate Hk.
    + injection E as <- <- <-. discriminate Hk.
  - intros (-> & k & p & Hin & EP & -> & ->). split; [|unfold row_kept; cbn [fst]; destruct (Z.eqb_spec num (-1)); [contradiction|reflexivity]].
    exists (Z.of_nat k, p). split; [unfold f; cbn [fst snd]; now rewrite EP|]. apply in_indexed. split; [lia|]. rewrite Z.sub_0_r, Nat2Z.id. exact Hin.
Qed.
Print Assumptions C64_points_in_polygon.
Theorem C64_points_in_polygons points polys xlen : Forall (fun poly => poly <> []) polys ->
  exists rows, points_in_polygons points polys xlen = Ok rows /\
  forall n j i, In (n, j, i) rows <->
    (0 <= n)%Z /\ exists poly k p, nth_error polys (Z.to_nat n) = Some poly /\ nth_error points k = Some p /\
      point_in_polygon (fst p) (snd p) poly = Ok true /\ j = (Z.of_nat k / xlen)%Z /\ i = (Z.of_nat k mod xlen)%Z.
Proof.
  intros HP. rewrite Forall_forall in HP. unfold points_in_polygons.
  set (f := fun kp : Z * list pt2 => match points_in_polygon points (snd kp) xlen (fst kp) with Ok r => r | Err _ => [] end).
  rewrite (mapM_ok _ f).
  2: { intros [k p] Hin. apply in_indexed in Hin. destruct Hin as [K0 Hin]. apply nth_error_In in Hin. unfold f. cbn [fst snd].
       destruct (C64_points_in_polygon points p xlen k (HP _ Hin) ltac:(lia)) as (r & E & _). now rewrite E. }
  cbn [bind]. eexists. split; [reflexivity|]. intros n j i. rewrite in_concat. split.
  - intros (r & Hr & Hin). apply in_map_iff in Hr. destruct Hr as ([m poly] & <- & Hm). apply in_indexed in Hm. rewrite Z.sub_0_r in Hm. destruct Hm as [M0 Hm].
    unfold f in Hin. cbn [fst snd] in Hin. destruct (C64_points_in_polygon points poly xlen m (HP _ (nth_error_In _ _ Hm)) ltac:(lia)) as (r & E & H).
    rewrite E in Hin. apply H in Hin. destruct Hin as (-> & k & p & Hp & H1 & H2 & H3). split; [exact M0|]. exists poly, k, p. auto.
  - intros (H0 & poly & k & p & Ht & Hp & EP & Hj & Hi). destruct (C64_points_in_polygon points poly xlen n (HP _ (nth_error_In _ _ Ht)) ltac:(lia)) as (r & E & H).
    exists r. split; [|apply H; split; [reflexivity|]; exists k, p; auto].
    apply in_map_iff. exists (n, poly). split; [unfold f; cbn [fst snd]; now rewrite E|]. apply in_indexed. rewrite Z.sub_0_r. auto.
Qed.
Print Assumptions C64_points_in_polygons.
Example C64_polygons_example : points_in_polygons [(1, 1); (5, 5); (2, 1)] [[(0, 0); (3, 0); (0, 3)]; [(4, 4); (6, 4); (5, 7)]] 2 = Ok [(0, 0, 0); (0, 1, 0); (1, 0, 1)]%Z.
Proof. vm_compute. reflexivity. Qed.
Theorem C64_points_in_triangles points ts xlen n j i :
  In (n, j, i) (points_in_triangles_njit points ts xlen) <->
    (0 <= n)%Z /\ exists t k p, nth_error ts (Z.to_nat n) = Some t /\ nth_error points k = Some p /\ point_in_triangle (fst p) (snd p) t = true /\
                           j = (Z.of_nat k / xlen)%Z /\ i = (Z.of_nat k mod xlen)%Z.
Proof.
  unfold points_in_triangles_njit. rewrite in_concat. split.
  - intros (r & Hr & Hin). apply in_map_iff in Hr. destruct Hr as ([m t] & <- & Hm). apply in_indexed in Hm. rewrite Z.sub_0_r in Hm. cbn [fst snd] in Hin.
    unfold points_in_triangle in Hin. apply filter_In in Hin. destruct Hin as [Hin Hk]. apply in_map_iff in Hin. destruct Hin as ([k p] & E & Hp). apply in_indexed in Hp. rewrite Z.sub_0_r in Hp. cbn [fst snd] in E.
    destruct (point_in_triangle (fst p) (snd p) t) eqn:EP; injection E as <- <- <-; [|discriminate Hk].
    split; [apply Hm|]. exists t, (Z.to_nat k), p. rewrite Z2Nat.id by apply Hp. repeat split; auto; apply Hm || apply Hp.
  - intros (H0 & t & k & p & Ht & Hp & EP & -> & ->). exists (points_in_triangle points t xlen n). split.
    + apply in_map_iff. exists (n, t). split; [reflexivity|]. apply in_indexed. rewrite Z.sub_0_r. auto.
    + unfold points_in_triangle. apply filter_In. split; [|unfold row_kept; cbn [fst]; destruct (Z.eqb_spec n (-1)); [lia|reflexivity]].
      apply in_map_iff. exists (Z.of_nat k, p). cbn [fst snd]. rewrite EP. split; [reflexivity|]. apply in_indexed. rewrite Z.sub_0_r, Nat2Z.id. split; [lia|exact Hp].
Qed.
Print Assumptions C64_points_in_triangles.
Theorem C64_aligned nx ny dx dy ts n y x : 0 < dx -> 0 < dy ->
  (In (n, y, x) (points_in_triangles_aligned nx ny dx dy ts) <->
   (0 <= n)%Z /\ (0 <= x < nx)%Z /\ (0 <= y < ny)%Z /\
   exists t, nth_error ts (Z.to_nat n) = Some t /\ point_in_triangle ((inject_Z x + (1 # 2)) * dx) ((inject_Z y + (1 # 2)) * dy) t = true).
Proof.
  intros Hx Hy. unfold points_in_triangles_aligned. rewrite in_concat. split.
  - intros (r & Hr & Hin). apply in_map_iff in Hr. destruct Hr as ([m [[a b] c]] & <- & Hm). apply in_indexed in Hm. rewrite Z.sub_0_r in Hm. cbn [fst snd] in Hin.
    apply (aligned_one_spec nx ny dx dy m a b c n y x Hx Hy) in Hin. destruct Hin as (-> & Rx & Ry & H). split; [apply Hm|]. split; [exact Rx|]. split; [exact Ry|]. exists (a, b, c). split; [apply Hm|exact H].
  - intros (H0 & Rx & Ry & [[a b] c] & Ht & H). exists (aligned_one nx ny dx dy n (a, b, c)). split.
    + apply in_map_iff. exists (n, (a, b, c)). split; [reflexivity|]. apply in_indexed. rewrite Z.sub_0_r. auto.
    + apply aligned_one_spec; auto.
Qed.
Print Assumptions C64_aligned.
Example C64_aligned_example : points_in_triangles_aligned 4 4 1 1 [((0, 0), (3, 0), (0, 3)); ((3, 3), (4, 3), (4, 4))] = [(0, 0, 0); (0, 0, 1); (0, 0, 2); (0, 1, 0); (0, 1, 1); (0, 2, 0)]%Z.
Proof. vm_compute. reflexivity. Qed.

(** * C65: triangles sampled on a mesh, in batches *)
Lemma serial_number nx ny dx dy ts : points_in_triangles_aligned_optimised_serial nx ny dx dy ts = number_from (fun k t => triangle_rows nx ny k t) 0 (map (normalise dx dy) ts).
Proof. reflexivity. Qed.
Lemma optimised_number nx ny base l : optimised_batch nx ny base l = number_from (fun k t => triangle_rows nx ny k t) base l.
Proof. unfold optimised_batch. apply (number_from_shift (fun k t => triangle_rows nx ny k t)). Qed.
Theorem C65_batches_are_immaterial nx ny dx dy ts n_batches : (1 <= n_batches)%Z ->
  points_in_triangles_aligned_optimised nx ny dx dy ts n_batches = points_in_triangles_aligned_optimised_serial nx ny dx dy ts.
Proof.
  intros H. rewrite serial_number. unfold points_in_triangles_aligned_optimised.
  apply (in_batches_serial (fun k t => triangle_rows nx ny k t)); [apply optimised_number|exact H].
Qed.
Print Assumptions C65_batches_are_immaterial.
(** Every row returned is a mesh point of the closed triangle, each at most once *)
Theorem C65_rows_are_in_the_triangles nx ny dx dy ts n_batches : ~ dx == 0 -> ~ dy == 0 -> (1 <= n_batches)%Z ->
  exists rows, points_in_triangles_aligned_optimised nx ny dx dy ts n_batches = Ok rows /\ NoDup rows /\
  forall n y x, In (n, y, x) rows -> (0 <= n)%Z /\ (0 <= x < nx)%Z /\ (0 <= y < ny)%Z /\
    exists a b c, nth_error ts (Z.to_nat n) = Some (a, b, c) /\ Hull a b c ((inject_Z x + (1 # 2)) * dx, (inject_Z y + (1 # 2)) * dy).
Proof.
  intros NX NY HB. rewrite C65_batches_are_immaterial by exact HB. rewrite serial_number.
  set (R := fun (t : tri2) (b : row) => match triangle_rows nx ny (fst (fst b)) t with Ok r => In b r | Err _ => False end).
  destruct (number_from_rows (fun b : row => fst (fst b)) (fun k t => triangle_rows nx ny k t) R 0 (map (normalise dx dy) ts)) as (rows & E & ND & HR).
  { intros k [[a b] c] _. destruct (triangle_rows_spec nx ny k a b c) as (r & Er & NDr & Hr & _). exists r. split; [exact Er|]. split; [exact NDr|].
    intros [[k' y] x]. cbn [fst]. unfold R. cbn [fst]. split.
    - intros Hin. destruct (Hr _ _ _ Hin) as (-> & _). split; [reflexivity|].
      match goal with |- match ?X with _ => _ end => replace X with (@Ok (list row) r) by (symmetry; exact Er) end. exact Hin.
    - intros [-> Hin]. revert Hin. match goal with |- match ?X with _ => _ end -> _ => replace X with (@Ok (list row) r) by (symmetry; exact Er) end. auto. }
  exists rows. split; [exact E|]. split; [exact ND|]. intros n y x Hin. apply HR in Hin. cbn [fst] in Hin. rewrite Z.sub_0_r in Hin. destruct Hin as (H0 & t & Ht & Hin).
  rewrite nth_error_map in Ht. destruct (nth_error ts (Z.to_nat n)) as [[[a b] c]|] eqn:EN; [|discriminate]. cbn [option_map] in Ht. injection Ht as <-.
  unfold R in Hin. cbn [fst] in Hin. destruct (triangle_rows_spec nx ny n (fst a / dx - (1 # 2), snd a / dy - (1 # 2)) (fst b / dx - (1 # 2), snd b / dy - (1 # 2)) (fst c / dx - (1 # 2), snd c / dy - (1 # 2))) as (r & Er & _ & Hr & _).
  revert Hin. match goal with |- match ?X with _ => _ end -> _ => replace X with (@Ok (list row) r) by (symmetry; exact Er) end. intros Hin.
  apply Hr in Hin. destruct Hin as (_ & Rx & Ry & HH). split; [exact H0|]. split; [exact Rx|]. split; [exact Ry|]. exists a, b, c. split; [reflexivity|]. apply (proj1 (hull_normalise dx dy a b c x y NX NY)). exact HH.
Qed.
Print Assumptions C65_rows_are_in_the_triangles.
(** All of them, unless the three corners have the same x *)
Theorem C65_all_points_found nx ny dx dy ts n_batches : ~ dx == 0 -> ~ dy == 0 -> (1 <= n_batches)%Z ->
  exists rows, points_in_triangles_aligned_optimised nx ny dx dy ts n_batches = Ok rows /\
  forall n y x a b c, (0 <= n)%Z -> nth_error ts (Z.to_nat n) = Some (a, b, c) -> ~ (fst a == fst b /\ fst b == fst c) ->
    (0 <= x < nx)%Z -> (0 <= y < ny)%Z -> Hull a b c ((inject_Z x + (1 # 2)) * dx, (inject_Z y + (1 # 2)) * dy) -> In (n, y, x) rows.
Proof.
  intros NX NY HB. rewrite C65_batches_are_immaterial by exact HB. rewrite serial_number.
  set (R := fun (t : tri2) (b : row) => match triangle_rows nx ny (fst (fst b)) t with Ok r => In b r | Err _ => False end).
  destruct (number_from_rows (fun b : row => fst (fst b)) (fun k t => triangle_rows nx ny k t) R 0 (map (normalise dx dy) ts)) as (rows & E & ND & HR).
  { intros k [[a b] c] _. destruct (triangle_rows_spec nx ny k a b c) as (r & Er & NDr & Hr & _). exists r. split; [exact Er|]. split; [exact NDr|].
    intros [[k' y] x]. cbn [fst]. unfold R. cbn [fst]. split.
    - intros Hin. destruct (Hr _ _ _ Hin) as (-> & _). split; [reflexivity|].
      match goal with |- match ?X with _ => _ end => replace X with (@Ok (list row) r) by (symmetry; exact Er) end. exact Hin.
    - intros [-> Hin]. revert Hin. match goal with |- match ?X with _ => _ end -> _ => replace X with (@Ok (list row) r) by (symmetry; exact Er) end. auto. }
  exists rows. split; [exact E|]. intros n y x a b c H0 Ht NA Rx Ry HH. apply HR. cbn [fst]. rewrite Z.sub_0_r. split; [exact H0|]. exists (normalise dx dy (a, b, c)). split; [rewrite nth_error_map, Ht; reflexivity|].
  unfold R. cbn [fst]. destruct (triangle_rows_spec nx ny n (fst a / dx - (1 # 2), snd a / dy - (1 # 2)) (fst b / dx - (1 # 2), snd b / dy - (1 # 2)) (fst c / dx - (1 # 2), snd c / dy - (1 # 2))) as (r & Er & _ & _ & Hr).
  match goal with |- match ?X with _ => _ end => replace X with (@Ok (list row) r) by (symmetry; exact Er) end.
  apply Hr; auto.
  - intros F. apply NA. now apply (proj1 (all_x_normalise dx dy a b c NX)).
  - now apply (proj2 (hull_normalise dx dy a b c x y NX NY)).
Qed.
Print Assumptions C65_all_points_found.
Example C65_example : points_in_triangles_aligned_optimised 4 4 1 1 [((0, 0), (2, 0), (0, 2)); ((3, 3), (4, 3), (4, 4))] 20 = Ok [(0, 0, 0); (0, 1, 0); (0, 0, 1); (1, 3, 3)]%Z.
Proof. reflexivity. Qed.
(** A triangle seen edge on along y (all corners at one x) loses points: only the heights
    of its first two corners are looked at. *)
Theorem C65_edge_on_triangle_loses_points_refuted : exists a b c y x,
  points_in_triangles_aligned_optimised 4 4 1 1 [(a, b, c)] 20 = Ok [(0, 0, 0)%Z] /\ (0 <= x < 4)%Z /\ (0 <= y < 4)%Z /\ y <> 0%Z /\
  Hull a b c ((inject_Z x + (1 # 2)) * 1, (inject_Z y + (1 # 2)) * 1).
Proof.
  exists ((1 # 2), 0), ((1 # 2), 1), ((1 # 2), 3), 2%Z, 0%Z. split; [reflexivity|]. split; [lia|]. split; [lia|]. split; [lia|].
  exists (1 # 6), 0, (5 # 6). cbn. repeat split; lra.
Qed.
Print Assumptions C65_edge_on_triangle_loses_points_refuted.
(** The number of batches must be positive: none raises, a negative number finds nothing. *)
Theorem C65_no_batches_refuted : exists ts,
  points_in_triangles_aligned_optimised 4 4 1 1 ts 0 = Err ZeroDivisionError /\ points_in_triangles_aligned_optimised 4 4 1 1 ts (-1) = Ok [] /\
  exists r rs, points_in_triangles_aligned_optimised 4 4 1 1 ts 1 = Ok (r :: rs).
Proof. exists [((0, 0), (2, 0), (0, 2))]. split; [reflexivity|]. split; [reflexivity|]. eexists. eexists. reflexivity. Qed.
Print Assumptions C65_no_batches_refuted.

(** Sampling in three dimensions: the rows are those of the triangles projected along the
    chosen axis, and each z value puts the point on the triangle. *)
Lemma unified_number_from nx ny ax ay az base l : unified_batch nx ny ax ay az base l = number_from (fun k t => unified_rows nx ny ax ay az k t) base l.
Proof. unfold unified_batch. apply (number_from_shift (fun k t => unified_rows nx ny ax ay az k t)). Qed.
Definition select2 (ax ay : Z) (t : tri3) : tri2 :=
  let '(a, b, c) := t in ((coord a ax, coord a ay), (coord b ax, coord b ay), (coord c ax, coord c ay)).
Lemma select2_proj ax ay l : map (select2 ax ay) l = map (map_tri (proj ax ay)) l.
Proof. apply map_ext. intros [[a b] c]. reflexivity. Qed.
Theorem C65_unified nx ny ax ay az ts n_batches : (1 <= n_batches)%Z ->
  exists out, points_in_triangles_aligned_unified nx ny ax ay az ts n_batches = Ok out /\
    in_batches n_batches (optimised_batch nx ny) (map (select2 ax ay) ts) = Ok (map fst out) /\
    forall n y x z, In ((n, y, x), z) out -> exists a b c u v w, nth_error ts (Z.to_nat n) = Some (a, b, c) /\
      0 <= u /\ 0 <= v /\ 0 <= w /\ u + v + w == 1 /\
      inject_Z x == u * coord a ax + v * coord b ax + w * coord c ax /\
      inject_Z y == u * coord a ay + v * coord b ay + w * coord c ay /\
      z == u * coord a az + v * coord b az + w * coord c az.
Proof.
  intros HB. unfold points_in_triangles_aligned_unified. rewrite select2_proj.
  rewrite (in_batches_serial (fun k t => unified_rows nx ny ax ay az k t)) by (apply unified_number_from || exact HB).
  rewrite (in_batches_serial (fun k t => triangle_rows nx ny k t)) by (apply optimised_number || exact HB).
  pose proof (unified_number nx ny ax ay az 0 ts) as U.
  destruct (number_from (fun k t => unified_rows nx ny ax ay az k t) 0 ts) as [r|e].
  - destruct U as [U1 U2]. exists r. split; [reflexivity|]. split; [exact U1|]. intros n y x z Hin. rewrite Forall_forall in U2. destruct (U2 _ Hin) as ([[a b] c] & Ht & HH). cbn [fst] in Ht. rewrite Z.sub_0_r in Ht.
    destruct HH as (u & v & w & HH). exists a, b, c, u, v, w. split; [exact Ht|]. tauto.
  - exfalso. set (R := fun (t : tri2) (b : row) => match triangle_rows nx ny (fst (fst b)) t with Ok r => In b r | Err _ => False end).
    destruct (number_from_rows (fun b : row => fst (fst b)) (fun k t => triangle_rows nx ny k t) R 0 (map (map_tri (proj ax ay)) ts)) as (rows & E & _).
    { intros k [[a b] c] _. destruct (triangle_rows_spec nx ny k a b c) as (r & Er & NDr & Hr & _). exists r. split; [exact Er|]. split; [exact NDr|].
      intros [[k' y] x]. cbn [fst]. unfold R. cbn [fst]. split.
      - intros Hin. destruct (Hr _ _ _ Hin) as (-> & _). split; [reflexivity|].
        match goal with |- match ?X with _ => _ end => replace X with (@Ok (list row) r) by (symmetry; exact Er) end. exact Hin.
      - intros [-> Hin]. revert Hin. match goal with |- match ?X with _ => _ end -> _ => replace X with (@Ok (list row) r) by (symmetry; exact Er) end. auto. }
    rewrite U in E. discriminate.
Qed.
Print Assumptions C65_unified.
Example C65_unified_example : exists out, points_in_triangles_aligned_unified 4 4 0 1 2 [((0, 0, 0), (2, 0, 2), (0, 2, 4))] 20 = Ok out /\
  map fst out = [(0, 0, 0); (0, 1, 0); (0, 2, 0); (0, 0, 1); (0, 1, 1); (0, 0, 2)]%Z.
Proof. eexists. split; reflexivity. Qed.
