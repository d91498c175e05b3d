(** PipProps.v: theorems for C33 (point in polygon), C54 (scan) and C55 (pixel maps). *)
From Verif Require Import QBase PipModel PipProofs PipProofs2 PipProofs3 PipProofs4.
From Coq Require Import Permutation.

(** * C33 *)
(** The crossing count has the parity of the winding number, for every polygon, also one
    that crosses itself. *)
Theorem C33_crossing_is_parity_of_winding p poly : pip_cn p poly = Z.odd (winding p poly).
Proof.
  unfold pip_cn. rewrite crossings_sum, winding_sum. induction (edges poly) as [|e l IH]; [reflexivity|].
  cbn [map zsum fold_right]. fold (zsum (map (fun e => b2z (cn_edge p e)) l)) (zsum (map (wn_edge p) l)).
  rewrite !Z.odd_add, IH, cn_is_wn. f_equal. destruct (wn_edge_small p e) as [->|[->| ->]]; reflexivity.
Qed.
Print Assumptions C33_crossing_is_parity_of_winding.
Theorem C33_inside_by_crossing_is_inside_by_winding p poly : pip_cn p poly = true -> pip_wn p poly = true.
Proof. rewrite C33_crossing_is_parity_of_winding. unfold pip_wn. destruct (Z.eqb_spec (winding p poly) 0) as [->|]; [discriminate|reflexivity]. Qed.
Print Assumptions C33_inside_by_crossing_is_inside_by_winding.
(** The converse fails: the centre of a pentagram is inside by winding (2) and outside by
    crossing. *)
Theorem C33_tests_differ_for_self_crossing_refuted : exists p poly, pip_wn p poly = true /\ pip_cn p poly = false.
Proof.
  exists (0, 0), [(0, 10); (-(6), -(8)); (9, 3); (-(9), 3); (6, -(8))]. split; vm_compute; reflexivity.
Qed.
Print Assumptions C33_tests_differ_for_self_crossing_refuted.
(** ... but they agree whenever the winding number is small, as for polygons that do not
    cross themselves. *)
Theorem C33_tests_agree_when_simply_wound p poly : (-1 <= winding p poly <= 1)%Z -> pip_cn p poly = pip_wn p poly.
Proof.
  intros H. rewrite C33_crossing_is_parity_of_winding. unfold pip_wn.
  assert (E : winding p poly = 0%Z \/ winding p poly = 1%Z \/ winding p poly = (-1)%Z) by lia. destruct E as [->|[->| ->]]; reflexivity.
Qed.
Print Assumptions C33_tests_agree_when_simply_wound.

Theorem C33_start_vertex_is_immaterial p a b : winding p (a ++ b) = winding p (b ++ a) /\ crossings p (a ++ b) = crossings p (b ++ a).
Proof. rewrite !winding_sum, !crossings_sum. split; apply zsum_perm, Permutation_map, edges_rotate. Qed.
Print Assumptions C33_start_vertex_is_immaterial.
Theorem C33_direction_is_immaterial p poly :
  winding p (rev poly) = (- winding p poly)%Z /\ pip_cn p (rev poly) = pip_cn p poly /\ pip_wn p (rev poly) = pip_wn p poly.
Proof.
  assert (W : winding p (rev poly) = (- winding p poly)%Z).
  { rewrite !winding_sum. rewrite (zsum_perm _ _ (Permutation_map (wn_edge p) (edges_rev poly))). rewrite map_map.
    induction (edges poly) as [|[a b] l IH]; [reflexivity|]. cbn [map zsum fold_right]. unfold zsum in IH. rewrite IH. unfold swap. cbn [fst snd].
    rewrite !wn_edge_wedge, wedge_swap. lia. }
  split; [assumption|]. rewrite !C33_crossing_is_parity_of_winding. unfold pip_wn. rewrite W. split; [apply Z.odd_opp|].
  destruct (Z.eqb_spec (winding p poly) 0), (Z.eqb_spec (- winding p poly) 0); lia || reflexivity.
Qed.
Print Assumptions C33_direction_is_immaterial.

(** The array version is the pointwise one, whatever numpy yields for divisions by zero. *)
Theorem C33_array_is_pointwise dz ps poly : pip_array_cn dz ps poly = map (fun p => pip_cn p poly) ps.
Proof.
  unfold pip_array_cn.
  assert (G : forall es (f : pt -> Z), fold_left (fun cs e => map (fun pc => snd pc + (if array_edge dz (fst pc) e then 1 else 0))%Z (combine ps cs)) es (map f ps) =
              map (fun p => fold_left (fun c e => if cn_edge p e then c + 1 else c)%Z es (f p)) ps).
  { induction es as [|e es IH]; intros f; cbn [fold_left]; [reflexivity|].
    rewrite <- IH. f_equal. clear IH.
    induction ps as [|p ps IH]; [reflexivity|]. cbn [map combine fst snd]. rewrite IH, array_edge_cn. f_equal. destruct (cn_edge p e); lia. }
  rewrite G, map_map. reflexivity.
Qed.
Print Assumptions C33_array_is_pointwise.

(** Inclusion, for the points that a straight line separates from the polygon, and for
    those that see every edge going round them in the same direction. *)
Theorem C33_separated_points_are_outside p poly n1 n2 :
  (forall v, In v poly -> n1 * fst p + n2 * snd p < n1 * fst v + n2 * snd v) -> pip_wn p poly = false /\ pip_cn p poly = false.
Proof.
  intros H. assert (W : winding p poly = 0%Z) by (apply (separated_winding p poly n1 n2); intros v Hv; specialize (H v Hv); lra).
  rewrite C33_crossing_is_parity_of_winding. unfold pip_wn. rewrite W. split; reflexivity.
Qed.
Print Assumptions C33_separated_points_are_outside.
Theorem C33_enclosed_points_are_inside p poly : poly <> [] -> SameSide poly p -> pip_wn p poly = true.
Proof.
  assert (G : forall q, q <> [] -> (forall e, In e (edges q) -> 0 < side (fst e) (snd e) p) -> pip_wn p q = true).
  { intros q Hq H. unfold pip_wn. destruct (enclosed_ups p q Hq) as [_ W]; [rewrite Forall_forall; exact H|].
    destruct (Z.eqb_spec (winding p q) 0); [lia|reflexivity]. }
  intros Hne [H|H]; [now apply G|].
  rewrite <- (proj2 (proj2 (C33_direction_is_immaterial p poly))). apply G.
  - intros E. apply Hne. rewrite <- (rev_involutive poly), E. reflexivity.
  - intros e He. apply (Permutation_in _ (edges_rev poly)) in He. apply in_map_iff in He. destruct He as (e' & <- & He').
    cbn [swap fst snd]. rewrite side_swap. specialize (H e' He'). lra.
Qed.
Print Assumptions C33_enclosed_points_are_inside.
(** Convex quadrilaterals: the crossing test is exact on both sides. *)
Theorem C33_convex_cells a b c d p : Convex4 a b c d ->
  (SameSide [a; b; c; d] p -> pip_cn p [a; b; c; d] = true) /\ (~ SameSideOrOn [a; b; c; d] p -> pip_cn p [a; b; c; d] = false).
Proof.
  intros HC. split.
  - intros HS. destruct (inside_between4 a b c d p HS HC) as (x0 & x1 & E & B). unfold pip_cn. rewrite crossings_hits, E.
    cbn [filter]. unfold Qminb, Qmaxb in B. destruct (Qleb_spec' x0 x1), (Qltb_spec (fst p) x0), (Qltb_spec (fst p) x1); try reflexivity; lra.
  - intros HO. unfold pip_cn. rewrite crossings_hits. destruct (hits4 a b c d (snd p) HC) as [L|L].
    + destruct (hits (snd p) [a; b; c; d]); [reflexivity|discriminate].
    + destruct (hits (snd p) [a; b; c; d]) as [|x0 [|x1 [|? ?]]] eqn:E; try discriminate. cbn [filter].
      assert (N : ~ (Qminb x0 x1 <= fst p <= Qmaxb x0 x1)).
      { intros B. apply HO. replace p with (fst p, snd p) by (destruct p; reflexivity). now apply (between_inside4 a b c d (snd p) (fst p) x0 x1). }
      unfold Qminb, Qmaxb in N. destruct (Qleb_spec' x0 x1), (Qltb_spec (fst p) x0), (Qltb_spec (fst p) x1); try reflexivity; exfalso; apply N; lra.
Qed.
Print Assumptions C33_convex_cells.
(** Any polygon: the winding number adds up the triangles spanned by its first vertex and
    the other edges, each counted +1, -1 or 0 by which way round it encloses the point. *)
Definition encloses (p a b c : pt) : Z :=
  if (0 <b side a b p) && (0 <b side b c p) && (0 <b side c a p) then 1%Z
  else if (side a b p <b 0) && (side b c p <b 0) && (side c a p <b 0) then (-1)%Z else 0%Z.
Definition off_line (p a b : pt) : Prop := ~ side a b p == 0.
Theorem C33_winding_adds_up_triangles p v a l :
  (forall u, In u (a :: l) -> off_line p v u) -> (forall e, In e (path (a :: l)) -> off_line p (fst e) (snd e)) ->
  winding p (v :: a :: l) = zsum (map (fun e => encloses p v (fst e) (snd e)) (path (a :: l))).
Proof.
  intros H1 H2. rewrite winding_fan. f_equal. apply map_ext_in. intros [x y] He. cbn [fst snd].
  pose proof (path_in _ _ He) as [Hx Hy]. cbn [fst snd] in Hx, Hy. specialize (H2 _ He). cbn [fst snd] in H2.
  apply tri_wn_zero_sides; [apply H1; assumption|exact H2|]. intros E. apply (H1 y Hy). rewrite side_swap in E. lra.
Qed.
Print Assumptions C33_winding_adds_up_triangles.
Theorem C33_triangle_is_exact p a b c : off_line p a b -> off_line p b c -> off_line p c a ->
  (pip_cn p [a; b; c] = true <-> SameSide [a; b; c] p) /\ (pip_wn p [a; b; c] = true <-> SameSide [a; b; c] p).
Proof.
  intros H1 H2 H3.
  assert (W : winding p [a; b; c] = encloses p a b c).
  { rewrite (C33_winding_adds_up_triangles p a b [c]).
    - cbn. lia.
    - intros u [<-|[<-|[]]]; [assumption|]. intros E. apply H3. rewrite side_swap. lra.
    - intros e [<-|[]]. exact H2. }
  assert (I : encloses p a b c <> 0%Z <-> SameSide [a; b; c] p).
  { unfold encloses, SameSide. split.
    - intros E. destruct (Qltb_spec 0 (side a b p)), (Qltb_spec 0 (side b c p)), (Qltb_spec 0 (side c a p)),
        (Qltb_spec (side a b p) 0), (Qltb_spec (side b c p) 0), (Qltb_spec (side c a p) 0); cbn in E; try congruence; try lra;
        [left|right]; intros e He; cbn in He; destruct He as [<-|[<-|[<-|[]]]]; assumption.
    - intros [H|H]; pose proof (H (c, a) ltac:(cbn; auto)) as A1; pose proof (H (a, b) ltac:(cbn; auto)) as A2; pose proof (H (b, c) ltac:(cbn; auto)) as A3; cbn [fst snd] in *.
      + rewrite (proj2 (Qltb_iff _ _) A1), (proj2 (Qltb_iff _ _) A2), (proj2 (Qltb_iff _ _) A3). discriminate.
      + destruct (Qltb_spec 0 (side a b p)); [lra|]. rewrite (proj2 (Qltb_iff _ _) A1), (proj2 (Qltb_iff _ _) A2), (proj2 (Qltb_iff _ _) A3). discriminate. }
  assert (S : encloses p a b c = 0%Z \/ encloses p a b c = 1%Z \/ encloses p a b c = (-1)%Z).
  { unfold encloses. destruct (_ && _); [auto|]. destruct (_ && _); auto. }
  rewrite C33_crossing_is_parity_of_winding. unfold pip_wn. rewrite W.
  destruct S as [S|[S|S]]; rewrite S in *; cbn; split; (split; intros E; [first [discriminate E | apply I; discriminate]|first [reflexivity | exfalso; apply I in E; now apply E]]).
Qed.
Print Assumptions C33_triangle_is_exact.
Example C33_ex_hypotheses : Convex4 (0, 0) (4, 1) (5, 5) (1, 3) /\ SameSide [(0, 0); (4, 1); (5, 5); (1, 3)] (2, 2) /\
  ~ SameSideOrOn [(0, 0); (4, 1); (5, 5); (1, 3)] (0, 2) /\ pip_cn (2, 2) [(0, 0); (4, 1); (5, 5); (1, 3)] = true /\ pip_cn (0, 2) [(0, 0); (4, 1); (5, 5); (1, 3)] = false /\
  off_line (2, 2) (0, 0) (4, 1) /\ winding (2, 2) [(1, 3); (5, 5); (4, 1); (0, 0)] = (-1)%Z.
Proof.
  repeat split; try (vm_compute; reflexivity).
  - left. repeat split; vm_compute; reflexivity.
  - left. intros e He. cbn in He. destruct He as [<-|[<-|[<-|[<-|[]]]]]; vm_compute; reflexivity.
  - intros [H|H].
    + specialize (H ((1, 3), (0, 0)) ltac:(cbn; auto)). vm_compute in H. congruence.
    + specialize (H ((0, 0), (4, 1)) ltac:(cbn; auto)). vm_compute in H. congruence.
  - vm_compute. discriminate.
Qed.

(** * C54: scanning a rectangle of points against a polygon *)
Definition grid_point (origin : pt) (dx dy : Q) (row col : Z) : pt := (fst origin + dx * inject_Z col, snd origin + dy * inject_Z row).
Definition marked (a : list (list bool)) (row col : Z) : bool := nth (Z.to_nat col) (nth (Z.to_nat row) a []) false.
Lemma scan_marked origin ncol nrow dx dy poly row col : (0 <= row < nrow)%Z -> (0 <= col < ncol)%Z ->
  marked (scan origin ncol nrow dx dy poly) row col = scan_row (fst origin) ncol dx (snd origin + dy * inject_Z row) poly col.
Proof.
  intros Hr Hc. unfold marked, scan.
  assert (G : forall B (f : Z -> B) d n k, (0 <= k < n)%Z -> nth (Z.to_nat k) (map f (zrange n)) d = f k).
  { intros B f d n k Hk. rewrite (nth_indep _ d (f 0%Z)) by (rewrite map_length, zrange_length; lia).
    rewrite map_nth, zrange_nth by lia. rewrite Z2Nat.id by lia. reflexivity. }
  rewrite (G _ (fun row => map (scan_row (fst origin) ncol dx (snd origin + dy * inject_Z row) poly) (zrange ncol))) by assumption.
  apply G. assumption.
Qed.
Theorem C54_shape origin ncol nrow dx dy poly : (0 <= ncol)%Z -> (0 <= nrow)%Z ->
  Z.of_nat (List.length (scan origin ncol nrow dx dy poly)) = nrow /\ forall r, In r (scan origin ncol nrow dx dy poly) -> Z.of_nat (List.length r) = ncol.
Proof.
  intros H1 H2. unfold scan. rewrite map_length, zrange_length. split; [lia|]. intros r Hr. apply in_map_iff in Hr. destruct Hr as (z & <- & _).
  rewrite map_length, zrange_length. lia.
Qed.
Print Assumptions C54_shape.
(** For convex cells that do not extend to the left of the scanned rectangle, the marked
    points are those of the cell; only points on its edges may go either way. *)
Theorem C54_convex_cells_are_scanned_exactly origin ncol nrow dx dy a b c d row col :
  Convex4 a b c d -> 0 < dx -> (forall v, In v [a; b; c; d] -> fst origin <= fst v) -> (0 <= row < nrow)%Z -> (0 <= col < ncol)%Z ->
  (SameSide [a; b; c; d] (grid_point origin dx dy row col) -> marked (scan origin ncol nrow dx dy [a; b; c; d]) row col = true) /\
  (marked (scan origin ncol nrow dx dy [a; b; c; d]) row col = true -> SameSideOrOn [a; b; c; d] (grid_point origin dx dy row col)).
Proof.
  intros HC Hdx Hv Hr Hc. rewrite scan_marked by assumption. split.
  - intros HS. now apply scan_row_complete.
  - intros HS. now apply (scan_row_sound (fst origin) ncol dx (snd origin + dy * inject_Z row) a b c d col).
Qed.
Print Assumptions C54_convex_cells_are_scanned_exactly.
(** Off the edges scan and the crossing test agree. *)
Theorem C54_scan_agrees_with_crossing_test origin ncol nrow dx dy a b c d row col :
  Convex4 a b c d -> 0 < dx -> (forall v, In v [a; b; c; d] -> fst origin <= fst v) -> (0 <= row < nrow)%Z -> (0 <= col < ncol)%Z ->
  (forall e, In e (edges [a; b; c; d]) -> off_line (grid_point origin dx dy row col) (fst e) (snd e)) ->
  marked (scan origin ncol nrow dx dy [a; b; c; d]) row col = pip_cn (grid_point origin dx dy row col) [a; b; c; d].
Proof.
  intros HC Hdx Hv Hr Hc Ho. set (p := grid_point origin dx dy row col) in *.
  destruct (C54_convex_cells_are_scanned_exactly origin ncol nrow dx dy a b c d row col HC Hdx Hv Hr Hc) as [C S]. fold p in C, S.
  assert (Strict : SameSideOrOn [a; b; c; d] p -> SameSide [a; b; c; d] p).
  { intros [H|H]; [left|right]; intros e He; specialize (H e He); specialize (Ho e He); unfold off_line in Ho; apply Qle_lteq in H; destruct H as [H|H]; try assumption; exfalso; apply Ho; lra. }
  destruct (marked _ row col) eqn:M.
  - symmetry. apply C33_convex_cells; auto.
  - symmetry. apply C33_convex_cells; [assumption|]. intros H. apply Strict, C in H. congruence.
Qed.
Print Assumptions C54_scan_agrees_with_crossing_test.
(** Any polygon, convex or not: with two crossings on a row the points between them are
    marked; with none, nothing is. *)
Theorem C54_rows_with_two_crossings ox ncol dx y poly x0 x1 col : 0 < dx -> (0 <= col < ncol)%Z -> hits y poly = [x0; x1] -> ox <= x0 -> ox <= x1 ->
  (scan_row ox ncol dx y poly col = true <-> Qminb x0 x1 <= ox + dx * inject_Z col <= Qmaxb x0 x1).
Proof. intros. apply scan_row_spec; assumption. Qed.
Print Assumptions C54_rows_with_two_crossings.
Theorem C54_rows_without_crossings ox ncol dx y poly col : hits y poly = [] -> scan_row ox ncol dx y poly col = false.
Proof. intros H. apply scan_row_none. rewrite H. cbn. lia. Qed.
Print Assumptions C54_rows_without_crossings.
(** When the cell begins to the left of the rectangle the slice bound is negative: points of
    the cell are missed (the whole row, here), ... *)
Theorem C54_cells_to_the_left_lose_points_refuted : exists origin ncol nrow dx dy a b c d row col,
  Convex4 a b c d /\ 0 < dx /\ (0 <= row < nrow)%Z /\ (0 <= col < ncol)%Z /\
  SameSide [a; b; c; d] (grid_point origin dx dy row col) /\ marked (scan origin ncol nrow dx dy [a; b; c; d]) row col = false.
Proof.
  exists (0, 0), 10%Z, 3%Z, 1, 1, (-(5), 0 - 1), (4, 0 - 1), (4, 4), (-(5), 4), 1%Z, 2%Z.
  split; [left; repeat split; vm_compute; reflexivity|]. split; [reflexivity|]. split; [lia|]. split; [lia|]. split; [|vm_compute; reflexivity].
  left. intros e He. cbn in He. destruct He as [<-|[<-|[<-|[<-|[]]]]]; vm_compute; reflexivity.
Qed.
Print Assumptions C54_cells_to_the_left_lose_points_refuted.
(** ... and points outside are marked, as int() rounds towards zero. *)
Theorem C54_cells_to_the_left_gain_points_refuted : exists origin ncol nrow dx dy a b c d row col,
  Convex4 a b c d /\ 0 < dx /\ (0 <= row < nrow)%Z /\ (0 <= col < ncol)%Z /\
  ~ SameSideOrOn [a; b; c; d] (grid_point origin dx dy row col) /\ marked (scan origin ncol nrow dx dy [a; b; c; d]) row col = true.
Proof.
  exists (1 # 2, 0), 10%Z, 3%Z, 1, 1, (0, 0 - 1), (3 # 10, 0 - 1), (3 # 10, 4), (0, 4), 1%Z, 0%Z.
  split; [left; repeat split; vm_compute; reflexivity|]. split; [reflexivity|]. split; [lia|]. split; [lia|]. split; [|vm_compute; reflexivity].
  intros [H|H].
  - specialize (H ((3 # 10, 0 - 1), (3 # 10, 4)) ltac:(cbn; auto)). vm_compute in H. congruence.
  - specialize (H ((0, 4), (0, 0 - 1)) ltac:(cbn; auto)). vm_compute in H. congruence.
Qed.
Print Assumptions C54_cells_to_the_left_gain_points_refuted.
(** Polygons with more than two crossings on a row: only the first two edges count. *)
Theorem C54_more_than_two_crossings_refuted : exists origin ncol nrow dx dy poly row col,
  0 < dx /\ (forall v, In v poly -> fst origin <= fst v) /\ (0 <= row < nrow)%Z /\ (0 <= col < ncol)%Z /\
  marked (scan origin ncol nrow dx dy poly) row col <> pip_cn (grid_point origin dx dy row col) poly.
Proof.
  exists (0, 0), 8%Z, 3%Z, 1, 1, [(1, 0 - 1); (7, 0 - 1); (7, 4); (5, 4); (5, 0); (3, 0); (3, 4); (1, 4)], 1%Z, 4%Z.
  split; [reflexivity|]. split; [intros v Hv; cbn in Hv; intuition subst; vm_compute; congruence|]. split; [lia|]. split; [lia|]. vm_compute. discriminate.
Qed.
Print Assumptions C54_more_than_two_crossings_refuted.
Example C54_ex : Convex4 (0, 0) (4, 1) (5, 5) (1, 3) /\ scan (0, 0) 6 4 1 1 [(0, 0); (4, 1); (5, 5); (1, 3)] =
  [[true; false; false; false; false; false]; [false; true; true; true; true; false]; [false; true; true; true; true; false]; [false; true; true; true; true; false]].
Proof. split; [left; repeat split; vm_compute; reflexivity|vm_compute; reflexivity]. Qed.

(** * C55: pixel maps *)
(** Cells are given by their index pair and their four corners, None when undefined. *)
Definition Sound (origin : pt) (dx dy : Q) (cells : list ((Z * Z) * option (bool -> bool -> pt))) (m : pmap) : Prop :=
  forall row col ji, m row col = Some ji -> exists hp, In (ji, Some hp) cells /\ SameSideOrOn (cell_poly hp) (pixel_centre origin dx dy row col).
Lemma fold_paint origin w h dx dy (cells : list ((Z * Z) * option (bool -> bool -> pt))) : 0 < dx -> 0 < dy ->
  (forall ji hp, In (ji, Some hp) cells -> CellConvex hp /\ WellWithin origin w h dx dy (cell_poly hp)) ->
  forall m row col,
  let r := fold_left (paint_cell origin w h dx dy) cells m row col in
  (r = m row col /\ (forall ji hp, In (ji, Some hp) cells -> SameSide (cell_poly hp) (pixel_centre origin dx dy row col) -> Some ji = r)) \/
  exists ji hp, r = Some ji /\ In (ji, Some hp) cells /\ SameSideOrOn (cell_poly hp) (pixel_centre origin dx dy row col) /\ (0 <= row < h)%Z /\ (0 <= col < w)%Z.
Proof.
  intros Hdx Hdy. induction cells as [|[ji [hp|]] cells IH]; intros Hc m row col; cbn [fold_left].
  - left. split; [reflexivity|]. intros ? ? [].
  - destruct (Hc ji hp (or_introl eq_refl)) as [C W].
    destruct (paint_outcome origin w h dx dy m ji hp row col Hdx Hdy C W) as [P1 P2].
    destruct (IH (fun a b H => Hc a b (or_intror H)) (paint_cell origin w h dx dy m (ji, Some hp)) row col) as [[E S]|(ji' & hp' & E & I & S)].
    + set (r := fold_left (paint_cell origin w h dx dy) cells (paint_cell origin w h dx dy m (ji, Some hp)) row col) in *. clearbody r. subst r. destruct P2 as [P2|(P2 & P3 & P4)].
      * left. split; [assumption|]. intros ji' hp' [[= <- <-]|H] HS; [|now apply (S ji' hp')]. rewrite (P1 HS). reflexivity.
      * right. exists ji, hp. split; [assumption|]. split; [now left|]. split; assumption.
    + right. exists ji', hp'. split; [assumption|]. split; [now right|assumption].
  - destruct (IH (fun a b H => Hc a b (or_intror H)) m row col) as [[E S]|(ji' & hp' & E & I & S)].
    + left. change (paint_cell origin w h dx dy m (ji, None)) with m. split; [assumption|].
      intros ji' hp' [[= ]|H] HS. now apply (S ji' hp').
    + right. exists ji', hp'. split; [assumption|]. split; [now right|assumption].
Qed.
(** With convex cells that stay half a pixel away from the edges of the map, the mapped cell
    contains the pixel centre, and pixels outside the map are never touched. *)
Theorem C55_mapped_cell_holds_the_pixel_centre origin w h dx dy cells row col ji : 0 < dx -> 0 < dy ->
  (forall ji hp, In (ji, Some hp) cells -> CellConvex hp /\ WellWithin origin w h dx dy (cell_poly hp)) ->
  pixel_map_for_split_horizon_points cells origin w h dx dy row col = Some ji ->
  (0 <= row < h)%Z /\ (0 <= col < w)%Z /\
  exists hp, In (ji, Some hp) cells /\ SameSideOrOn (cell_poly hp) (pixel_centre origin dx dy row col).
Proof.
  intros Hdx Hdy Hc E. unfold pixel_map_for_split_horizon_points in E.
  destruct (fold_paint origin w h dx dy cells Hdx Hdy Hc (fun _ _ => None) row col) as [[E' _]|(ji' & hp' & E' & I & S & R)]; rewrite E in E'; [discriminate|].
  injection E' as <-. split; [apply R|]. split; [apply R|]. exists hp'. split; assumption.
Qed.
Print Assumptions C55_mapped_cell_holds_the_pixel_centre.
(** A pixel whose centre is strictly inside some cell is mapped, and to that cell when no
    other cell holds the centre. *)
Theorem C55_pixels_inside_cells_are_mapped origin w h dx dy cells row col ji hp : 0 < dx -> 0 < dy ->
  (forall ji hp, In (ji, Some hp) cells -> CellConvex hp /\ WellWithin origin w h dx dy (cell_poly hp)) ->
  In (ji, Some hp) cells -> SameSide (cell_poly hp) (pixel_centre origin dx dy row col) ->
  pixel_map_for_split_horizon_points cells origin w h dx dy row col <> None /\
  ((forall ji' hp', In (ji', Some hp') cells -> SameSideOrOn (cell_poly hp') (pixel_centre origin dx dy row col) -> ji' = ji) ->
   pixel_map_for_split_horizon_points cells origin w h dx dy row col = Some ji).
Proof.
  intros Hdx Hdy Hc Hi HS. unfold pixel_map_for_split_horizon_points.
  destruct (fold_paint origin w h dx dy cells Hdx Hdy Hc (fun _ _ => None) row col) as [[E' F]|(ji' & hp' & E' & I & S & R)].
  - specialize (F ji hp Hi HS). rewrite E' in F. discriminate.
  - rewrite E'. split; [discriminate|]. intros U. f_equal. now apply (U ji' hp').
Qed.
Print Assumptions C55_pixels_inside_cells_are_mapped.
(** A pixel that lies in no cell is left null. *)
Theorem C55_other_pixels_are_null origin w h dx dy cells row col : 0 < dx -> 0 < dy ->
  (forall ji hp, In (ji, Some hp) cells -> CellConvex hp /\ WellWithin origin w h dx dy (cell_poly hp)) ->
  (forall ji hp, In (ji, Some hp) cells -> ~ SameSideOrOn (cell_poly hp) (pixel_centre origin dx dy row col)) ->
  pixel_map_for_split_horizon_points cells origin w h dx dy row col = None.
Proof.
  intros Hdx Hdy Hc Ho. destruct (pixel_map_for_split_horizon_points cells origin w h dx dy row col) as [ji|] eqn:E; [|reflexivity].
  destruct (C55_mapped_cell_holds_the_pixel_centre origin w h dx dy cells row col ji Hdx Hdy Hc E) as (_ & _ & hp & Hi & HS). exfalso. exact (Ho ji hp Hi HS).
Qed.
Print Assumptions C55_other_pixels_are_null.
Definition rect (x0 y0 x1 y1 : Q) (jp ip : bool) : pt := (if ip then x1 else x0, if jp then y1 else y0).
Lemma rect_convex x0 y0 x1 y1 : x0 < x1 -> y0 < y1 -> CellConvex (rect x0 y0 x1 y1).
Proof. intros H1 H2. left. unfold ConvexQuad, side, rect. cbn [fst snd]. repeat split; nra. Qed.
(** Without the half pixel margin: a pixel is mapped to a cell that its centre is not in, ... *)
Theorem C55_cells_near_the_edge_gain_pixels_refuted : exists origin w h dx dy cells row col ji,
  0 < dx /\ 0 < dy /\ (forall ji hp, In (ji, Some hp) cells -> CellConvex hp /\ forall v, In v (cell_poly hp) ->
      fst origin <= fst v <= fst origin + dx * inject_Z w /\ snd origin <= snd v <= snd origin + dy * inject_Z h) /\
  pixel_map_for_split_horizon_points cells origin w h dx dy row col = Some ji /\
  forall hp, In (ji, Some hp) cells -> ~ SameSideOrOn (cell_poly hp) (pixel_centre origin dx dy row col).
Proof.
  exists (0, 0), 10%Z, 10%Z, 1, 1, [((0, 0)%Z, Some (rect 0 1 (3 # 10) 3))], 1%Z, 0%Z, (0, 0)%Z.
  split; [reflexivity|]. split; [reflexivity|]. split; [|split].
  - intros ji hp [[= <- <-]|[]]. split; [apply rect_convex; vm_compute; reflexivity|].
    intros v Hv. cbn in Hv. destruct Hv as [<-|[<-|[<-|[<-|[]]]]]; vm_compute; intuition congruence.
  - vm_compute. reflexivity.
  - intros hp Hin HS. cbn in Hin. destruct Hin as [Hin|[]]. injection Hin as <-. destruct HS as [H|H].
    + specialize (H ((3 # 10, 1), (3 # 10, 3)) ltac:(cbn; auto)). vm_compute in H. congruence.
    + specialize (H ((0, 1), (3 # 10, 1)) ltac:(cbn; auto)). vm_compute in H. congruence.
Qed.
Print Assumptions C55_cells_near_the_edge_gain_pixels_refuted.
(** ... and cells lying within the map but close to its edge are dropped altogether. *)
Theorem C55_cells_near_the_edge_are_dropped_refuted : exists origin w h dx dy cells row col,
  0 < dx /\ 0 < dy /\ (0 <= row < h)%Z /\ (0 <= col < w)%Z /\
  (forall ji hp, In (ji, Some hp) cells -> CellConvex hp /\ forall v, In v (cell_poly hp) ->
      fst origin <= fst v <= fst origin + dx * inject_Z w /\ snd origin <= snd v <= snd origin + dy * inject_Z h) /\
  (exists ji hp, In (ji, Some hp) cells /\ SameSide (cell_poly hp) (pixel_centre origin dx dy row col)) /\
  pixel_map_for_split_horizon_points cells origin w h dx dy row col = None.
Proof.
  exists (0, 0), 10%Z, 10%Z, 1, 1, [((0, 0)%Z, Some (rect (0) (1) (10) (9)))], 4%Z, 4%Z.
  split; [reflexivity|]. split; [reflexivity|]. split; [lia|]. split; [lia|]. split; [|split].
  - intros ji hp [[= <- <-]|[]]. split; [apply rect_convex; vm_compute; reflexivity|].
    intros v Hv. cbn in Hv. destruct Hv as [<-|[<-|[<-|[<-|[]]]]]; vm_compute; intuition congruence.
  - exists (0, 0)%Z, (rect 0 1 10 9). split; [now left|]. left. intros e He. cbn in He. destruct He as [<-|[<-|[<-|[<-|[]]]]]; vm_compute; reflexivity.
  - vm_compute. reflexivity.
Qed.
Print Assumptions C55_cells_near_the_edge_are_dropped_refuted.
Example C55_ex : let cells := [((0, 0)%Z, Some (rect 1 1 3 3)); ((0, 1)%Z, Some (rect 3 1 6 3)); ((1, 0)%Z, None)] in
  (forall ji hp, In (ji, Some hp) cells -> CellConvex hp /\ WellWithin (0, 0) 10 5 1 1 (cell_poly hp)) /\
  pixel_map_for_split_horizon_points cells (0, 0) 10 5 1 1 2%Z 4%Z = Some (0, 1)%Z /\
  pixel_map_for_split_horizon_points cells (0, 0) 10 5 1 1 2%Z 7%Z = None.
Proof.
  intros cells. split; [|split; vm_compute; reflexivity].
  intros ji hp H. cbn in H. destruct H as [H|[H|[H|[]]]]; [injection H as <- <-|injection H as <- <-|discriminate H]; (split; [apply rect_convex; vm_compute; reflexivity|]);
    intros v Hv; cbn in Hv; destruct Hv as [<-|[<-|[<-|[<-|[]]]]]; vm_compute; intuition congruence.
Qed.
