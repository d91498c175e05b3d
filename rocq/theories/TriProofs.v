(** TriProofs.v: specification of triangles in the plane and lemmas for TriProps.v. *)
From Verif Require Import QBase TriModel.

(** ** Specification *)
(** p is a weighted mean of the corners a, b and c: the closed triangle *)
Definition Hull (a b c p : pt2) : Prop :=
  exists u v w, 0 <= u /\ 0 <= v /\ 0 <= w /\ u + v + w == 1 /\
    fst p == u * fst a + v * fst b + w * fst c /\ snd p == u * snd a + v * snd b + w * snd c.
(** the corners lie on one straight line *)
Definition Collinear (a b c : pt2) : Prop :=
  exists n1 n2 k, (~ n1 == 0 \/ ~ n2 == 0) /\
    n1 * fst a + n2 * snd a == k /\ n1 * fst b + n2 * snd b == k /\ n1 * fst c + n2 * snd c == k.
(** the inside of the triangle, without its edges *)
Definition Inner (a b c p : pt2) : Prop :=
  ~ Collinear a b c /\
  exists u v w, 0 < u /\ 0 < v /\ 0 < w /\ u + v + w == 1 /\
    fst p == u * fst a + v * fst b + w * fst c /\ snd p == u * snd a + v * snd b + w * snd c.
(** the corners are passed anti-clockwise: seen with x to the right and y up, c is to
    the left of the direction from a to b *)
Definition Anticlockwise (a b c : pt2) : Prop :=
  0 < (fst b - fst a) * (snd c - snd a) - (snd b - snd a) * (fst c - fst a).

(** ** Orientation *)
Lemma cw_sum a b c d : clockwise a b d + clockwise b c d + clockwise c a d == clockwise a b c.
Proof. unfold clockwise. ring. Qed.
Lemma cw_swap a b c : clockwise b a c == - clockwise a b c.
Proof. unfold clockwise. ring. Qed.
Lemma cw_swap2 a b c : clockwise a c b == - clockwise a b c.
Proof. unfold clockwise. ring. Qed.
Lemma cw_rot a b c : clockwise b c a == clockwise a b c.
Proof. unfold clockwise. ring. Qed.
Lemma cw_x a b c d : fst d * clockwise a b c == clockwise b c d * fst a + clockwise c a d * fst b + clockwise a b d * fst c.
Proof. unfold clockwise. ring. Qed.
Lemma cw_y a b c d : snd d * clockwise a b c == clockwise b c d * snd a + clockwise c a d * snd b + clockwise a b d * snd c.
Proof. unfold clockwise. ring. Qed.
(** the orientation of a weighted mean with an edge *)
Lemma cw_mean a b c d u v w : u + v + w == 1 -> fst d == u * fst a + v * fst b + w * fst c -> snd d == u * snd a + v * snd b + w * snd c ->
  clockwise a b d == w * clockwise a b c /\ clockwise b c d == u * clockwise a b c /\ clockwise c a d == v * clockwise a b c.
Proof.
  intros H1 H2 H3. assert (E : u == 1 - v - w) by lra. unfold clockwise. rewrite H2, H3, E. repeat split; ring.
Qed.
Lemma collinear_cw a b c : Collinear a b c <-> clockwise a b c == 0.
Proof.
  split.
  - intros (n1 & n2 & k & N & Ha & Hb & Hc).
    assert (E1 : n1 * clockwise a b c == 0).
    { assert (F : n1 * clockwise a b c == (n1 * fst c + n2 * snd c - (n1 * fst a + n2 * snd a)) * (snd b - snd a) - (n1 * fst b + n2 * snd b - (n1 * fst a + n2 * snd a)) * (snd c - snd a)) by (unfold clockwise; ring).
      rewrite F, Ha, Hb, Hc. ring. }
    assert (E2 : n2 * clockwise a b c == 0).
    { assert (F : n2 * clockwise a b c == (n1 * fst b + n2 * snd b - (n1 * fst a + n2 * snd a)) * (fst c - fst a) - (n1 * fst c + n2 * snd c - (n1 * fst a + n2 * snd a)) * (fst b - fst a)) by (unfold clockwise; ring).
      rewrite F, Ha, Hb, Hc. ring. }
    destruct N as [N|N]; [apply Qmult_integral in E1; tauto|apply Qmult_integral in E2; tauto].
  - intros E. destruct (Qeq_dec (fst b - fst a) 0) as [D1|D1], (Qeq_dec (snd b - snd a) 0) as [D2|D2].
    + (* a = b *) destruct (Qeq_dec (fst c - fst a) 0) as [D3|D3].
      * exists 1, 0, (fst a). repeat split; [left; lra| | |]; lra.
      * exists (snd c - snd a), (- (fst c - fst a)), ((snd c - snd a) * fst a - (fst c - fst a) * snd a). repeat split; [right; lra|ring| |ring].
        setoid_replace (fst b) with (fst a) by lra. setoid_replace (snd b) with (snd a) by lra. ring.
    + exists (snd b - snd a), (- (fst b - fst a)), ((snd b - snd a) * fst a - (fst b - fst a) * snd a). repeat split; [left; assumption|ring|ring|]. unfold clockwise in E. lra.
    + exists (snd b - snd a), (- (fst b - fst a)), ((snd b - snd a) * fst a - (fst b - fst a) * snd a). repeat split; [right; lra|ring|ring|]. unfold clockwise in E. lra.
    + exists (snd b - snd a), (- (fst b - fst a)), ((snd b - snd a) * fst a - (fst b - fst a) * snd a). repeat split; [left; assumption|ring|ring|]. unfold clockwise in E. lra.
Qed.
Lemma anticlockwise_cw a b c : Anticlockwise a b c <-> clockwise a b c < 0.
Proof. unfold Anticlockwise, clockwise. split; intros H; lra. Qed.

Lemma div_pos a b : a < 0 -> b < 0 -> 0 < a / b.
Proof. intros Ha Hb. setoid_replace (a / b) with ((- a) / (- b)) by (field; lra). apply Qlt_shift_div_l; lra. Qed.
Lemma div_nonneg a b : a <= 0 -> b < 0 -> 0 <= a / b.
Proof. intros Ha Hb. setoid_replace (a / b) with ((- a) / (- b)) by (field; lra). apply Qle_shift_div_l; lra. Qed.

Lemma inner_ccw a b c d : clockwise a b c < 0 ->
  (Inner a b c d <-> clockwise a b d < 0 /\ clockwise b c d < 0 /\ clockwise c a d < 0).
Proof.
  intros HC. split.
  - intros (_ & u & v & w & Hu & Hv & Hw & H1 & H2 & H3).
    destruct (cw_mean a b c d u v w H1 H2 H3) as (E1 & E2 & E3). rewrite E1, E2, E3. clear - HC Hu Hv Hw. repeat split; nra.
  - intros (H1 & H2 & H3). split; [rewrite collinear_cw; lra|].
    exists (clockwise b c d / clockwise a b c), (clockwise c a d / clockwise a b c), (clockwise a b d / clockwise a b c).
    split; [now apply div_pos|]. split; [now apply div_pos|]. split; [now apply div_pos|].
    assert (N : ~ clockwise a b c == 0) by lra.
    pose proof (cw_sum a b c d) as S0. pose proof (cw_x a b c d) as X. pose proof (cw_y a b c d) as Y.
    set (k := clockwise a b c) in *. clearbody k.
    repeat split.
    + transitivity ((clockwise a b d + clockwise b c d + clockwise c a d) / k); [field; assumption|]. rewrite S0. field. assumption.
    + transitivity (fst d * k / k); [field; assumption|]. rewrite X. field. assumption.
    + transitivity (snd d * k / k); [field; assumption|]. rewrite Y. field. assumption.
Qed.
Lemma hull_ccw a b c d : clockwise a b c < 0 ->
  (Hull a b c d <-> clockwise a b d <= 0 /\ clockwise b c d <= 0 /\ clockwise c a d <= 0).
Proof.
  intros HC. split.
  - intros (u & v & w & Hu & Hv & Hw & H1 & H2 & H3).
    destruct (cw_mean a b c d u v w H1 H2 H3) as (E1 & E2 & E3). rewrite E1, E2, E3. clear - HC Hu Hv Hw. repeat split; nra.
  - intros (H1 & H2 & H3).
    exists (clockwise b c d / clockwise a b c), (clockwise c a d / clockwise a b c), (clockwise a b d / clockwise a b c).
    split; [now apply div_nonneg|]. split; [now apply div_nonneg|]. split; [now apply div_nonneg|].
    assert (N : ~ clockwise a b c == 0) by lra.
    pose proof (cw_sum a b c d) as S0. pose proof (cw_x a b c d) as X. pose proof (cw_y a b c d) as Y.
    set (k := clockwise a b c) in *. clearbody k.
    repeat split.
    + transitivity ((clockwise a b d + clockwise b c d + clockwise c a d) / k); [field; assumption|]. rewrite S0. field. assumption.
    + transitivity (fst d * k / k); [field; assumption|]. rewrite X. field. assumption.
    + transitivity (snd d * k / k); [field; assumption|]. rewrite Y. field. assumption.
Qed.
(** the order of the corners does not matter *)
Lemma hull_rot a b c d : Hull b c a d <-> Hull a b c d.
Proof. split; intros (u & v & w & Hu & Hv & Hw & H1 & H2 & H3); [exists w, u, v|exists v, w, u]; repeat split; try assumption; lra. Qed.
Lemma hull_swap a b c d : Hull b a c d <-> Hull a b c d.
Proof. split; intros (u & v & w & Hu & Hv & Hw & H1 & H2 & H3); exists v, u, w; repeat split; try assumption; lra. Qed.
Lemma collinear_swap a b c : Collinear b a c <-> Collinear a b c.
Proof. rewrite !collinear_cw. pose proof (cw_swap a b c). split; intros; lra. Qed.
Lemma inner_swap a b c d : Inner b a c d <-> Inner a b c d.
Proof.
  unfold Inner. rewrite (collinear_swap a b c).
  split; (intros [N (u & v & w & Hu & Hv & Hw & H1 & H2 & H3)]; split; [exact N|]; exists v, u, w; repeat split; try assumption; lra).
Qed.
Lemma inner_hull a b c d : Inner a b c d -> Hull a b c d.
Proof. intros (_ & u & v & w & Hu & Hv & Hw & H1 & H2 & H3). exists u, v, w. repeat split; try assumption; lra. Qed.
Lemma hull_convex a b c p q s r : Hull a b c p -> Hull a b c q -> 0 <= s <= 1 ->
  fst r == (1 - s) * fst p + s * fst q -> snd r == (1 - s) * snd p + s * snd q -> Hull a b c r.
Proof.
  intros (u & v & w & Hu & Hv & Hw & H1 & H2 & H3) (u' & v' & w' & Hu' & Hv' & Hw' & H1' & H2' & H3') [S0 S1] X Y.
  exists ((1 - s) * u + s * u'), ((1 - s) * v + s * v'), ((1 - s) * w + s * w').
  assert (P : forall i j, 0 <= i -> 0 <= j -> 0 <= (1 - s) * i + s * j).
  { intros i j Hi Hj. assert (0 <= (1 - s) * i) by (apply Qmult_le_0_compat; lra). assert (0 <= s * j) by (apply Qmult_le_0_compat; lra). lra. }
  repeat split; try (apply P; assumption).
  - transitivity ((1 - s) * (u + v + w) + s * (u' + v' + w')); [ring|]. rewrite H1, H1'. ring.
  - rewrite X, H2, H2'. ring.
  - rewrite Y, H3, H3'. ring.
Qed.

(** ** Circles *)
Definition dist2 (p q : pt2) : Q := (fst p - fst q) * (fst p - fst q) + (snd p - snd q) * (snd p - snd q).
Definition circ_det (a b c d : pt2) : Q :=
  let row p := (fst p - fst d, snd p - snd d, (fst p - fst d) * (fst p - fst d) + (snd p - snd d) * (snd p - snd d)) in
  determinant (row a) (row b) (row c).
Lemma circ_det_eq a b c d o r : dist2 a o == r -> dist2 b o == r -> dist2 c o == r ->
  circ_det a b c d == - clockwise a b c * (r - dist2 d o).
Proof.
  intros Ha Hb Hc.
  (* each row's third entry is |p - d|^2 = |p - o|^2 - |d - o|^2 - 2 (p - d).(d - o) *)
  assert (G : circ_det a b c d ==
     - clockwise b c d * (dist2 a o - dist2 d o) - clockwise c a d * (dist2 b o - dist2 d o) - clockwise a b d * (dist2 c o - dist2 d o)).
  { destruct a as [a1 a2], b as [b1 b2], c as [c1 c2], d as [d1 d2], o as [o1 o2]. unfold circ_det, determinant, coord, clockwise, dist2. cbn [fst snd Z.eqb Pos.eqb]. ring. }
  rewrite G, Ha, Hb, Hc. rewrite <- (cw_sum a b c d). ring.
Qed.
Lemma circumcentre_exists a b c : ~ Collinear a b c -> exists o, dist2 b o == dist2 a o /\ dist2 c o == dist2 a o.
Proof.
  rewrite collinear_cw. intros N.
  set (k := clockwise a b c) in *.
  set (sb := (fst b * fst b + snd b * snd b - fst a * fst a - snd a * snd a) / 2).
  set (sc := (fst c * fst c + snd c * snd c - fst a * fst a - snd a * snd a) / 2).
  (* (b-a).o = sb, (c-a).o = sc *)
  exists ((- sb * (snd c - snd a) + sc * (snd b - snd a)) / k, (- sc * (fst b - fst a) + sb * (fst c - fst a)) / k).
  unfold dist2. cbn [fst snd]. split; unfold sb, sc, k in *; unfold clockwise in *; field; exact N.
Qed.
