(** TriProofs2.v: the crossing tests point_in_polygon and point_in_triangle. *)
From Verif Require Import QBase TriModel TriProofs.

(** ** Specification *)
(** The horizontal half line from (x, y) in the direction of increasing x meets the edge
    from a to b, the lower end of the edge not counting as part of it. *)
Definition Crosses (x y : Q) (a b : pt2) : Prop :=
  (snd a < y \/ snd b < y) /\
  exists s, 0 <= s <= 1 /\ y == (1 - s) * snd a + s * snd b /\ x <= (1 - s) * fst a + s * fst b.
(** the edges of a closed polygon, from corner to corner *)
Fixpoint edges_from (v : pt2) (l : list pt2) (last : pt2) : list (pt2 * pt2) :=
  match l with
  | [] => [(v, last)]
  | w :: l => (v, w) :: edges_from w l last
  end.
Definition polygon_edges (poly : list pt2) : list (pt2 * pt2) :=
  match poly with [] => [] | v :: l => edges_from v l v end.
(** [OddMany P l]: P holds for an odd number of the elements of l *)
Inductive OddMany {A} (P : A -> Prop) : list A -> Prop :=
  | odd_here a l : P a -> EvenMany P l -> OddMany P (a :: l)
  | odd_skip a l : ~ P a -> OddMany P l -> OddMany P (a :: l)
with EvenMany {A} (P : A -> Prop) : list A -> Prop :=
  | even_nil : EvenMany P []
  | even_here a l : P a -> OddMany P l -> EvenMany P (a :: l)
  | even_skip a l : ~ P a -> EvenMany P l -> EvenMany P (a :: l).

(** ** One edge *)
Definition xint (y : Q) (a b : pt2) : Q := (y - snd a) * (fst b - fst a) / (snd b - snd a) + fst a.
Definition edge_hit (x y : Q) (a b : pt2) : bool :=
  (Qminb (snd a) (snd b) <b y) && (y <=b Qmaxb (snd a) (snd b)) && (x <=b Qmaxb (fst a) (fst b)) &&
  (Qeq_bool (fst a) (fst b) || (x <=b xint y a b)).

Lemma xint_eq y a b s : ~ snd a == snd b -> y == (1 - s) * snd a + s * snd b -> xint y a b == (1 - s) * fst a + s * fst b.
Proof.
  intros N E. unfold xint. assert (F : y - snd a == s * (snd b - snd a)) by (rewrite E; ring).
  rewrite F. field. intros G. apply N. lra.
Qed.
Lemma edge_hit_iff x y a b : edge_hit x y a b = true <-> Crosses x y a b.
Proof.
  unfold edge_hit, Crosses. rewrite !andb_true_iff, orb_true_iff, Qltb_iff, !Qleb_iff, Qeq_bool_iff.
  split.
  - intros [[[H1 H2] H3] H4].
    destruct (Qminb_spec (snd a) (snd b)) as [[A1 A2]|[A1 A2]], (Qmaxb_spec (snd a) (snd b)) as [[B1 B2]|[B1 B2]]; rewrite A2 in H1; rewrite B2 in H2; try lra.
    + split; [left; exact H1|]. exists ((y - snd a) / (snd b - snd a)).
      assert (D : 0 < snd b - snd a) by lra.
      assert (EX : (1 - (y - snd a) / (snd b - snd a)) * fst a + (y - snd a) / (snd b - snd a) * fst b == xint y a b) by (unfold xint; field; lra).
      repeat split; [apply Qle_shift_div_l; lra|apply Qle_shift_div_r; lra|field; lra|].
      rewrite EX. destruct H4 as [H4|H4]; [|exact H4]. unfold xint. setoid_replace (fst b - fst a) with 0 by lra.
      destruct (Qmaxb_spec (fst a) (fst b)) as [[C1 C2]|[C1 C2]]; rewrite C2 in H3; setoid_replace ((y - snd a) * 0 / (snd b - snd a)) with 0 by (field; lra); lra.
    + split; [right; exact H1|]. exists ((y - snd a) / (snd b - snd a)).
      assert (D : snd b - snd a < 0) by lra.
      assert (EX : (1 - (y - snd a) / (snd b - snd a)) * fst a + (y - snd a) / (snd b - snd a) * fst b == xint y a b) by (unfold xint; field; lra).
      assert (ES : (y - snd a) / (snd b - snd a) == (snd a - y) / (snd a - snd b)) by (field; lra).
      repeat split; [rewrite ES; apply Qle_shift_div_l; lra|rewrite ES; apply Qle_shift_div_r; lra|field; lra|].
      rewrite EX. destruct H4 as [H4|H4]; [|exact H4]. unfold xint. setoid_replace (fst b - fst a) with 0 by lra.
      destruct (Qmaxb_spec (fst a) (fst b)) as [[C1 C2]|[C1 C2]]; rewrite C2 in H3; setoid_replace ((y - snd a) * 0 / (snd b - snd a)) with 0 by (field; lra); lra.
  - intros (HL & s & [S0 S1] & HY & HX).
    assert (N : ~ snd a == snd b).
    { intros E. setoid_replace (snd b) with (snd a) in HY by lra. assert (y == snd a) by (rewrite HY; ring). lra. }
    assert (LE : forall p q m : Q, m == (1 - s) * p + s * q -> (p <= m <= q \/ q <= m <= p)).
    { intros p q m E. assert (M : m - p == s * (q - p)) by (rewrite E; ring). assert (M' : q - m == (1 - s) * (q - p)) by (rewrite E; ring).
      destruct (Qlt_le_dec p q) as [L|L]; [left|right].
      - assert (0 <= s * (q - p)) by (apply Qmult_le_0_compat; lra). assert (0 <= (1 - s) * (q - p)) by (apply Qmult_le_0_compat; lra). lra.
      - assert (0 <= s * (p - q)) by (apply Qmult_le_0_compat; lra). assert (0 <= (1 - s) * (p - q)) by (apply Qmult_le_0_compat; lra). lra. }
    pose proof (LE _ _ _ HY) as BY. pose proof (LE (fst a) (fst b) ((1 - s) * fst a + s * fst b) (Qeq_refl _)) as BX.
    rewrite (xint_eq y a b s N HY).
    destruct (Qminb_spec (snd a) (snd b)) as [[A1 A2]|[A1 A2]], (Qmaxb_spec (snd a) (snd b)) as [[B1 B2]|[B1 B2]]; rewrite A2, B2; try lra;
      destruct (Qmaxb_spec (fst a) (fst b)) as [[C1 C2]|[C1 C2]]; rewrite C2; repeat split; try lra; right; exact HX.
Qed.
Lemma crosses_sym x y a b : Crosses x y a b <-> Crosses x y b a.
Proof.
  unfold Crosses. split; (intros (HL & s & HS & HY & HX); split; [tauto|]; exists (1 - s); repeat split; [lra|lra|rewrite HY; ring|];
    (eapply Qle_trans; [exact HX|]; apply Qle_lteq; right; ring)).
Qed.
Lemma edge_hit_sym x y a b : edge_hit x y a b = edge_hit x y b a.
Proof. apply eq_true_iff_eq. rewrite !edge_hit_iff. apply crosses_sym. Qed.
Lemma edge_hit_self x y a : edge_hit x y a a = false.
Proof.
  destruct (edge_hit x y a a) eqn:E; [|reflexivity]. apply edge_hit_iff in E. destruct E as (HL & s & HS & HY & HX).
  assert (y == snd a) by (rewrite HY; ring). lra.
Qed.
Lemma pit_edge_hit x y a b i : pit_edge x y a b i = xorb i (edge_hit x y a b).
Proof.
  unfold pit_edge, edge_hit, xint.
  destruct (Qltb_spec (Qminb (snd a) (snd b)) y) as [H1|H1]; [|cbn; now destruct i].
  destruct (Qleb_spec' y (Qmaxb (snd a) (snd b))) as [H2|H2]; [|cbn; now destruct i].
  destruct (Qleb_spec' x (Qmaxb (fst a) (fst b))) as [H3|H3]; [|cbn; now destruct i].
  destruct (Qeq_bool (fst a) (fst b)); [cbn; now destruct i|].
  destruct (Qeq_bool (snd a) (snd b)) eqn:E.
  - apply Qeq_bool_iff in E. exfalso. unfold Qminb, Qmaxb in *. destruct (_ <=b _) in H1, H2; lra.
  - cbn [andb orb]. destruct (_ <=b _); now destruct i.
Qed.
Lemma pip_step_hit x y a b st : fst (pip_step x y a b st) = xorb (fst st) (edge_hit x y a b).
Proof.
  destruct st as [i xi], a as [ax ay], b as [bx by_]. unfold pip_step, edge_hit, xint. cbn [fst snd].
  destruct (Qltb_spec (Qminb ay by_) y) as [H1|H1]; [|cbn; now destruct i].
  destruct (Qleb_spec' y (Qmaxb ay by_)) as [H2|H2]; [|cbn; now destruct i].
  destruct (Qleb_spec' x (Qmaxb ax bx)) as [H3|H3]; [|cbn; now destruct i].
  destruct (Qeq_bool ay by_) eqn:E.
  - apply Qeq_bool_iff in E. exfalso. unfold Qminb, Qmaxb in *. destruct (_ <=b _) in H1, H2; lra.
  - cbn [andb]. destruct (_ || _); cbn; now destruct i.
Qed.

(** ** Polygons *)
Definition xor_all {A} (f : A -> bool) (l : list A) : bool := fold_right (fun a b => xorb (f a) b) false l.
Lemma xor_all_app {A} (f : A -> bool) l m : xor_all f (l ++ m) = xorb (xor_all f l) (xor_all f m).
Proof. induction l as [|a l IH]; cbn [xor_all fold_right app]; [now rewrite xorb_false_l|]. change (fold_right _ false (l ++ m)) with (xor_all f (l ++ m)). rewrite IH. symmetry. apply xorb_assoc. Qed.
Lemma odd_even_excl {A} (P : A -> Prop) l : OddMany P l -> EvenMany P l -> False.
Proof. induction l as [|a l IH]; intros H1 H2; inversion H1; inversion H2; subst; auto; contradiction. Qed.
Lemma xor_all_odd {A} (f : A -> bool) (P : A -> Prop) l : (forall a, f a = true <-> P a) ->
  (xor_all f l = true <-> OddMany P l) /\ (xor_all f l = false <-> EvenMany P l).
Proof.
  intros H. assert (H' : forall a, f a = false -> ~ P a) by (intros a Ha Pa; apply H in Pa; congruence).
  assert (G : (xor_all f l = true -> OddMany P l) /\ (xor_all f l = false -> EvenMany P l)).
  { induction l as [|a l [IH1 IH2]].
    - split; [discriminate|constructor].
    - cbn [xor_all fold_right]. change (fold_right _ false l) with (xor_all f l).
      destruct (f a) eqn:Ea; [apply H in Ea|apply H' in Ea]; destruct (xor_all f l); cbn; (split; intros E; try discriminate).
      + apply even_here; auto.
      + apply odd_here; auto.
      + apply odd_skip; auto.
      + apply even_skip; auto. }
  destruct G as [G1 G2]. split; split; auto; intros E; destruct (xor_all f l) eqn:F; auto; exfalso; eapply (odd_even_excl P l); auto.
Qed.
Lemma pip_loop_xor x y v l last st :
  pip_loop x y v (l ++ [last]) st = xorb (fst st) (xor_all (fun e => edge_hit x y (fst e) (snd e)) (edges_from v l last)).
Proof.
  revert v st. induction l as [|w l IH]; intros v st.
  - cbn [app pip_loop edges_from xor_all fold_right]. rewrite pip_step_hit. cbn [fst snd]. now rewrite xorb_false_r.
  - cbn [app pip_loop edges_from]. rewrite IH, pip_step_hit. cbn [xor_all fold_right fst snd]. apply xorb_assoc.
Qed.
Lemma point_in_polygon_xor x y poly : poly <> [] ->
  point_in_polygon x y poly = Ok (xor_all (fun e => edge_hit x y (fst e) (snd e)) (polygon_edges poly)).
Proof.
  destruct poly as [|v l]; [congruence|]. intros _. unfold point_in_polygon, polygon_edges. f_equal.
  cbn [app pip_loop]. rewrite pip_loop_xor, pip_step_hit. cbn [fst]. rewrite edge_hit_self. now rewrite !xorb_false_l.
Qed.

(** ** Triangles *)
Definition tri_hits (x y : Q) (a b c : pt2) : bool :=
  xorb (xorb (edge_hit x y a b) (edge_hit x y b c)) (edge_hit x y c a).
(** whether an edge passes the height y: independent of x *)
Definition spans (y : Q) (a b : pt2) : bool := (Qminb (snd a) (snd b) <b y) && (y <=b Qmaxb (snd a) (snd b)).
Lemma spans_xor y a b : spans y a b = xorb (snd a <b y) (snd b <b y).
Proof.
  unfold spans. unfold Qminb, Qmaxb. destruct (Qleb_spec' (snd a) (snd b)), (Qltb_spec (snd a) y), (Qltb_spec (snd b) y); cbn;
    repeat match goal with |- context[?p <=b ?q] => destruct (Qleb_spec' p q) | |- context[?p <b ?q] => destruct (Qltb_spec p q) end; try reflexivity; lra.
Qed.
Lemma hit_spans x y a b : edge_hit x y a b = true -> spans y a b = true.
Proof. unfold edge_hit, spans. rewrite !andb_true_iff. tauto. Qed.
Lemma spans_not_hit x y a b : spans y a b = true -> edge_hit x y a b = false ->
  exists s, 0 <= s <= 1 /\ y == (1 - s) * snd a + s * snd b /\ (1 - s) * fst a + s * fst b < x.
Proof.
  intros HS HN. unfold spans in HS. apply andb_true_iff in HS. destruct HS as [H1 H2]. apply Qltb_iff in H1. apply Qleb_iff in H2.
  set (s := (y - snd a) / (snd b - snd a)).
  assert (D : ~ snd b - snd a == 0) by (unfold Qminb, Qmaxb in *; destruct (_ <=b _) in H1, H2; lra).
  assert (HY : y == (1 - s) * snd a + s * snd b) by (unfold s; field; exact D).
  assert (HS : 0 <= s <= 1).
  { unfold s. destruct (Qlt_le_dec 0 (snd b - snd a)) as [L|L].
    - unfold Qminb, Qmaxb in *. destruct (Qleb_spec' (snd a) (snd b)); [|lra]. split; [apply Qle_shift_div_l; lra|apply Qle_shift_div_r; lra].
    - setoid_replace ((y - snd a) / (snd b - snd a)) with ((snd a - y) / (snd a - snd b)) by (field; lra).
      unfold Qminb, Qmaxb in *. destruct (Qleb_spec' (snd a) (snd b)); [lra|]. split; [apply Qle_shift_div_l; lra|apply Qle_shift_div_r; lra]. }
  exists s. split; [exact HS|]. split; [exact HY|].
  destruct (Qlt_le_dec ((1 - s) * fst a + s * fst b) x) as [L|L]; [exact L|].
  exfalso. assert (C : Crosses x y a b).
  { split; [|exists s; repeat split; try assumption; apply HS]. unfold Qminb in H1. destruct (_ <=b _) in H1; tauto. }
  apply edge_hit_iff in C. congruence.
Qed.
Lemma segment_in_hull a b c s p : 0 <= s <= 1 -> fst p == (1 - s) * fst a + s * fst b -> snd p == (1 - s) * snd a + s * snd b -> Hull a b c p.
Proof. intros H X Y. exists (1 - s), s, 0. repeat split; lra. Qed.

Lemma two_sides_in_hull a b c p q y x : Hull a b c p -> Hull a b c q -> snd p == y -> snd q == y -> fst p <= x <= fst q -> Hull a b c (x, y).
Proof.
  intros Hp Hq Ep Eq [L R]. destruct (Qlt_le_dec (fst p) (fst q)) as [D|D].
  - apply (hull_convex a b c p q ((x - fst p) / (fst q - fst p))); try assumption; cbn [fst snd].
    + split; [apply Qle_shift_div_l; lra|apply Qle_shift_div_r; lra].
    + field. lra.
    + rewrite Ep, Eq. ring.
  - apply (hull_convex a b c p q 0); try assumption; cbn [fst snd]; lra.
Qed.
(** a point with an odd number of crossings is in the closed triangle *)
Lemma tri_hits_hull x y a b c : tri_hits x y a b c = true -> Hull a b c (x, y).
Proof.
  intros H. unfold tri_hits in H.
  assert (R : forall p q r, edge_hit x y p q = true -> exists h, Hull p q r h /\ snd h == y /\ x <= fst h).
  { intros p q r E. apply edge_hit_iff in E. destruct E as (_ & s & HS & HY & HX).
    exists ((1 - s) * fst p + s * fst q, (1 - s) * snd p + s * snd q). split; [|split; [symmetry; exact HY|exact HX]].
    apply (segment_in_hull p q r s); [exact HS|reflexivity|reflexivity]. }
  assert (L : forall p q r, spans y p q = true -> edge_hit x y p q = false -> exists h, Hull p q r h /\ snd h == y /\ fst h <= x).
  { intros p q r E1 E2. destruct (spans_not_hit x y p q E1 E2) as (s & HS & HY & HX).
    exists ((1 - s) * fst p + s * fst q, (1 - s) * snd p + s * snd q). split; [|split; [symmetry; exact HY|cbn [fst]; lra]].
    apply (segment_in_hull p q r s); [exact HS|reflexivity|reflexivity]. }
  assert (HR : exists h, Hull a b c h /\ snd h == y /\ x <= fst h).
  { destruct (edge_hit x y a b) eqn:E1; [now apply R|]. destruct (edge_hit x y b c) eqn:E2.
    - destruct (R b c a E2) as (h & Hh & ?). exists h. rewrite <- hull_rot. auto.
    - destruct (edge_hit x y c a) eqn:E3; [|discriminate H]. destruct (R c a b E3) as (h & Hh & ?). exists h. rewrite <- hull_rot, <- hull_rot. auto. }
  assert (HL : exists h, Hull a b c h /\ snd h == y /\ fst h <= x).
  { pose proof (spans_xor y a b) as S1. pose proof (spans_xor y b c) as S2. pose proof (spans_xor y c a) as S3.
    destruct (edge_hit x y a b) eqn:E1, (edge_hit x y b c) eqn:E2, (edge_hit x y c a) eqn:E3; cbn in H; try discriminate.
    - apply hit_spans in E1, E2, E3. rewrite E1 in S1. rewrite E2 in S2. rewrite E3 in S3.
      destruct (snd a <b y), (snd b <b y), (snd c <b y); discriminate.
    - apply hit_spans in E1. destruct (spans y b c) eqn:F2.
      + destruct (L b c a F2 E2) as (h & Hh & ?). exists h. rewrite <- hull_rot. auto.
      + destruct (spans y c a) eqn:F3; [destruct (L c a b F3 E3) as (h & Hh & ?); exists h; rewrite <- hull_rot, <- hull_rot; auto|].
        rewrite E1 in S1. destruct (snd a <b y), (snd b <b y), (snd c <b y); discriminate.
    - apply hit_spans in E2. destruct (spans y a b) eqn:F2.
      + now apply L.
      + destruct (spans y c a) eqn:F3; [destruct (L c a b F3 E3) as (h & Hh & ?); exists h; rewrite <- hull_rot, <- hull_rot; auto|].
        rewrite E2 in S2. destruct (snd a <b y), (snd b <b y), (snd c <b y); discriminate.
    - apply hit_spans in E3. destruct (spans y a b) eqn:F2.
      + now apply L.
      + destruct (spans y b c) eqn:F3; [destruct (L b c a F3 E2) as (h & Hh & ?); exists h; rewrite <- hull_rot; auto|].
        rewrite E3 in S3. destruct (snd a <b y), (snd b <b y), (snd c <b y); discriminate. }
  destruct HR as (q & Hq & Q1 & Q2), HL as (p & Hp & P1 & P2). apply (two_sides_in_hull a b c p q y x); auto.
Qed.
Lemma hull_box a b c p : Hull a b c p ->
  (min3 (fst a) (fst b) (fst c) <= fst p <= max3 (fst a) (fst b) (fst c)) /\ (min3 (snd a) (snd b) (snd c) <= snd p <= max3 (snd a) (snd b) (snd c)).
Proof.
  intros (u & v & w & Hu & Hv & Hw & H1 & H2 & H3).
  assert (G : forall i j k m, m == u * i + v * j + w * k -> min3 i j k <= m <= max3 i j k).
  { intros i j k m E. assert (Eu : u == 1 - v - w) by lra.
    assert (LO : min3 i j k <= i /\ min3 i j k <= j /\ min3 i j k <= k) by (unfold min3, Qminb; destruct (Qleb_spec' i j) as [?|?]; [destruct (Qleb_spec' i k)|destruct (Qleb_spec' j k)]; repeat split; lra).
    assert (HI : i <= max3 i j k /\ j <= max3 i j k /\ k <= max3 i j k) by (unfold max3, Qmaxb; destruct (Qleb_spec' i j) as [?|?]; [destruct (Qleb_spec' j k)|destruct (Qleb_spec' i k)]; repeat split; lra).
    set (lo := min3 i j k) in *. set (hi := max3 i j k) in *. clearbody lo hi. destruct LO as (L1 & L2 & L3), HI as (I1 & I2 & I3).
    assert (A1 : 0 <= u * (i - lo)) by (apply Qmult_le_0_compat; lra). assert (A2 : 0 <= v * (j - lo)) by (apply Qmult_le_0_compat; lra). assert (A3 : 0 <= w * (k - lo)) by (apply Qmult_le_0_compat; lra).
    assert (B1 : 0 <= u * (hi - i)) by (apply Qmult_le_0_compat; lra). assert (B2 : 0 <= v * (hi - j)) by (apply Qmult_le_0_compat; lra). assert (B3 : 0 <= w * (hi - k)) by (apply Qmult_le_0_compat; lra).
    assert (SL : u * lo + v * lo + w * lo == lo) by (transitivity ((u + v + w) * lo); [ring|rewrite H1; ring]).
    assert (SH : u * hi + v * hi + w * hi == hi) by (transitivity ((u + v + w) * hi); [ring|rewrite H1; ring]).
    split; lra. }
  split; apply G; assumption.
Qed.
Lemma point_in_triangle_hits x y a b c : point_in_triangle x y (a, b, c) = tri_hits x y a b c.
Proof.
  unfold point_in_triangle. rewrite !pit_edge_hit. rewrite xorb_false_l. fold (tri_hits x y a b c).
  destruct (tri_hits x y a b c) eqn:E.
  - apply tri_hits_hull in E. apply hull_box in E. cbn [fst snd] in E. unfold min3, max3 in E. destruct E as [[E1 E2] [E3 E4]].
    rewrite (proj2 (Qltb_false _ _) E1), (proj2 (Qltb_false _ _) E2), (proj2 (Qltb_false _ _) E3), (proj2 (Qltb_false _ _) E4). reflexivity.
  - now repeat match goal with |- context[if ?b then _ else _] => destruct b end.
Qed.
Lemma triangle_is_polygon x y a b c : point_in_polygon x y [a; b; c] = Ok (point_in_triangle x y (a, b, c)).
Proof.
  rewrite point_in_polygon_xor by discriminate. rewrite point_in_triangle_hits. f_equal. cbn. unfold tri_hits.
  now rewrite xorb_false_r, xorb_assoc.
Qed.
(** a polygon as a fan of triangles *)
Lemma fan x y v w l :
  xor_all (fun e => edge_hit x y (fst e) (snd e)) (edges_from w l v) = xorb (edge_hit x y v w) (xor_all (fun t => point_in_triangle x y t) (map (fun e => (v, fst e, snd e)) (combine (w :: l) l))).
Proof.
  revert w. induction l as [|u l IH]; intros w.
  - cbn. rewrite (edge_hit_sym x y w v). reflexivity.
  - cbn [edges_from combine map xor_all fold_right fst snd]. change (fold_right (fun a b => xorb (edge_hit x y (fst a) (snd a)) b) false (edges_from u l v)) with (xor_all (fun e => edge_hit x y (fst e) (snd e)) (edges_from u l v)).
    rewrite IH. rewrite point_in_triangle_hits. unfold tri_hits. rewrite (edge_hit_sym x y u v). cbn [fst snd].
    change (fold_right (fun (a : tri2) (b : bool) => xorb (point_in_triangle x y a) b) false _)
      with (xor_all (fun t => point_in_triangle x y t) (map (fun e => (v, fst e, snd e)) (combine (u :: l) l))).
    generalize (xor_all (fun t => point_in_triangle x y t) (map (fun e => (v, fst e, snd e)) (combine (u :: l) l))). intros r.
    destruct (edge_hit x y v w), (edge_hit x y w u), (edge_hit x y v u), r; reflexivity.
Qed.
Lemma cw_at a b x y s : y == (1 - s) * snd a + s * snd b ->
  clockwise a b (x, y) == (snd b - snd a) * (x - ((1 - s) * fst a + s * fst b)).
Proof. intros E. unfold clockwise. cbn [fst snd]. rewrite E. ring. Qed.
Lemma hit_upward x y a b : clockwise a b (x, y) < 0 -> edge_hit x y a b = (snd a <b y) && negb (snd b <b y).
Proof.
  intros HC. destruct (spans y a b) eqn:ES.
  - destruct (edge_hit x y a b) eqn:EH.
    + apply edge_hit_iff in EH. destruct EH as (HL & s & HS & HY & HX). rewrite (cw_at a b x y s HY) in HC.
      assert (U : snd a < snd b).
      { destruct (Qlt_le_dec (snd a) (snd b)) as [U|U]; [exact U|]. exfalso.
        assert (0 <= (snd a - snd b) * ((1 - s) * fst a + s * fst b - x)) by (apply Qmult_le_0_compat; lra). lra. }
      rewrite spans_xor in ES. destruct (Qltb_spec (snd a) y), (Qltb_spec (snd b) y); cbn in *; try discriminate; try reflexivity. lra.
    + destruct (spans_not_hit x y a b ES EH) as (s & HS & HY & HX). rewrite (cw_at a b x y s HY) in HC.
      assert (U : snd b < snd a).
      { destruct (Qlt_le_dec (snd b) (snd a)) as [U|U]; [exact U|]. exfalso.
        assert (0 <= (snd b - snd a) * (x - ((1 - s) * fst a + s * fst b))) by (apply Qmult_le_0_compat; lra). lra. }
      rewrite spans_xor in ES. destruct (Qltb_spec (snd a) y), (Qltb_spec (snd b) y); cbn in *; try discriminate; try reflexivity. lra.
  - destruct (edge_hit x y a b) eqn:EH; [apply hit_spans in EH; congruence|].
    rewrite spans_xor in ES. destruct (snd a <b y), (snd b <b y); cbn in *; congruence.
Qed.
Lemma inner_hits_ccw x y a b c : clockwise a b c < 0 -> Inner a b c (x, y) -> tri_hits x y a b c = true.
Proof.
  intros HC HI. pose proof HI as (NC & u & v & w & Hu & Hv & Hw & H1 & _ & H3). apply (inner_ccw a b c (x, y) HC) in HI. destruct HI as (I1 & I2 & I3).
  unfold tri_hits. rewrite (hit_upward x y a b I1), (hit_upward x y b c I2), (hit_upward x y c a I3). cbn [snd] in H3.
  assert (Eu : u == 1 - v - w) by lra.
  destruct (Qltb_spec (snd a) y) as [A|A], (Qltb_spec (snd b) y) as [B|B], (Qltb_spec (snd c) y) as [C|C]; try reflexivity; exfalso.
  - assert (0 < u * (y - snd a)) by (apply Qmult_lt_0_compat; lra). assert (0 < v * (y - snd b)) by (apply Qmult_lt_0_compat; lra). assert (0 < w * (y - snd c)) by (apply Qmult_lt_0_compat; lra).
    assert (E : u * y + v * y + w * y == y) by (transitivity ((u + v + w) * y); [ring|rewrite H1; ring]). lra.
  - assert (P1 : 0 <= u * (snd a - y)) by (apply Qmult_le_0_compat; lra). assert (P2 : 0 <= v * (snd b - y)) by (apply Qmult_le_0_compat; lra). assert (P3 : 0 <= w * (snd c - y)) by (apply Qmult_le_0_compat; lra).
    assert (E : u * y + v * y + w * y == y) by (transitivity ((u + v + w) * y); [ring|rewrite H1; ring]).
    assert (Z1 : u * (snd a - y) == 0) by lra. assert (Z2 : v * (snd b - y) == 0) by lra. assert (Z3 : w * (snd c - y) == 0) by lra.
    apply Qmult_integral in Z1, Z2, Z3. apply NC. exists 0, 1, y. split; [right; lra|]. repeat split; lra.
Qed.
Lemma tri_hits_swap x y a b c : tri_hits x y b a c = tri_hits x y a b c.
Proof.
  unfold tri_hits. rewrite (edge_hit_sym x y b a), (edge_hit_sym x y a c), (edge_hit_sym x y c b).
  destruct (edge_hit x y a b), (edge_hit x y b c), (edge_hit x y c a); reflexivity.
Qed.
Lemma inner_hits x y a b c : Inner a b c (x, y) -> tri_hits x y a b c = true.
Proof.
  intros HI. destruct (Qlt_le_dec (clockwise a b c) 0) as [L|L]; [now apply inner_hits_ccw|].
  rewrite <- tri_hits_swap. apply inner_hits_ccw; [|now apply inner_swap].
  rewrite cw_swap. destruct (Qeq_dec (clockwise a b c) 0) as [E|E]; [|lra]. exfalso. apply HI. now apply collinear_cw.
Qed.
(** the test does not depend on the units of x and y nor on the origin *)
Lemma crosses_scale x y a b sx sy ox oy : 0 < sx -> 0 < sy ->
  (Crosses (x / sx - ox) (y / sy - oy) (fst a / sx - ox, snd a / sy - oy) (fst b / sx - ox, snd b / sy - oy) <-> Crosses x y a b).
Proof.
  intros Hx Hy. unfold Crosses. cbn [fst snd].
  assert (T : forall p q o s, 0 < s -> (p / s - o < q / s - o <-> p < q)).
  { intros p q o s Hs. assert (E : p / s - o < q / s - o <-> p / s < q / s) by lra. rewrite E, (Qdiv_mult_lt _ _ _ Hs).
    setoid_replace (q / s * s) with q by (field; lra). reflexivity. }
  rewrite !T by assumption. split; intros (HL & s & HS & EY & EX); (split; [exact HL|]); exists s; (split; [exact HS|]).
  - split.
    + assert (F : y / sy == ((1 - s) * snd a + s * snd b) / sy) by (assert (y / sy - oy + oy == (1 - s) * (snd a / sy - oy) + s * (snd b / sy - oy) + oy) by (rewrite EY; reflexivity); setoid_replace ((1 - s) * snd a + s * snd b) with (sy * ((1 - s) * (snd a / sy - oy) + s * (snd b / sy - oy) + oy)) by (field; lra); setoid_replace (sy * ((1 - s) * (snd a / sy - oy) + s * (snd b / sy - oy) + oy) / sy) with ((1 - s) * (snd a / sy - oy) + s * (snd b / sy - oy) + oy) by (field; lra); lra).
      transitivity (y / sy * sy); [field; lra|]. rewrite F. field. lra.
    + assert (F : x / sx <= ((1 - s) * fst a + s * fst b) / sx) by (setoid_replace (((1 - s) * fst a + s * fst b) / sx) with ((1 - s) * (fst a / sx - ox) + s * (fst b / sx - ox) + ox) by (field; lra); lra).
      apply (Qdiv_mult_le _ _ _ Hx) in F. setoid_replace (((1 - s) * fst a + s * fst b) / sx * sx) with ((1 - s) * fst a + s * fst b) in F by (field; lra). exact F.
  - split.
    + rewrite EY. field. lra.
    + setoid_replace ((1 - s) * (fst a / sx - ox) + s * (fst b / sx - ox)) with (((1 - s) * fst a + s * fst b) / sx - ox) by (field; lra).
      assert (F : x / sx <= ((1 - s) * fst a + s * fst b) / sx) by (apply (Qdiv_mult_le _ _ _ Hx); setoid_replace (((1 - s) * fst a + s * fst b) / sx * sx) with ((1 - s) * fst a + s * fst b) by (field; lra); exact EX). lra.
Qed.
