(** TriMeshProps.v: places, triangles and nodes of tri meshes agree. *)
From Coq Require Import Qround Qabs Lqa Qfield.
From Verif Require Import Base QBase BoxProofs DecoarsenProofs IntersectModel IntersectProofs TriMeshModel.
Open Scope Z_scope.

Definition WF (m : trimesh) : Prop := 1 < tm_nj m /\ 1 < tm_ni m /\ (0 < tm_t m)%Q /\ (0 < tm_h m)%Q.
Definition IsTri (m : trimesh) (j i : Z) : Prop := 0 <= j < tm_nj m - 1 /\ 0 <= i < 2 * (tm_ni m - 1).
Definition IsNode (m : trimesh) (n : Z * Z) : Prop := 0 <= fst n < tm_nj m /\ 0 <= snd n < tm_ni m.
(** the corners of triangle (j, i): in each row of triangles they point up and down in turn, an even row starting
    with one whose base is at the lower numbered row of nodes, an odd row with one whose base is at the higher *)
Definition IsCorners (j i : Z) (a b c : Z * Z) : Prop :=
  let base := if Bool.eqb (Z.odd j) (Z.odd i) then j else j + 1 in
  let tip := if Bool.eqb (Z.odd j) (Z.odd i) then j + 1 else j in
  a = (base, i / 2) /\ b = (base, i / 2 + 1) /\ c = (tip, i / 2 + (if Z.odd i then 1 else 0)).
(** (x, y) is the mean of nodes a, b and c with the weights given *)
Definition Mean (m : trimesh) (a b c : Z * Z) (f0 f1 f2 x y : Q) : Prop :=
  (f0 + f1 + f2 == 1 /\
   x == f0 * vx (at2 (xyz m) a) + f1 * vx (at2 (xyz m) b) + f2 * vx (at2 (xyz m) c) /\
   y == f0 * vy (at2 (xyz m) a) + f1 * vy (at2 (xyz m) b) + f2 * vy (at2 (xyz m) c))%Q.

Lemma odd_spec z : odd z = Z.odd z.
Proof. unfold odd. rewrite Zmod_odd. destruct (Z.odd z); reflexivity. Qed.
Lemma mod2_odd z : z mod 2 = if Z.odd z then 1 else 0.
Proof. apply Zmod_odd. Qed.
Lemma odd_double i : Z.odd (i * 2) = false.
Proof. rewrite Z.odd_mul, andb_false_r. reflexivity. Qed.
Lemma odd_double1 i : Z.odd (i * 2 + 1) = true.
Proof. rewrite Z.odd_add, odd_double. reflexivity. Qed.
Lemma half_double i : i * 2 / 2 = i. Proof. apply Z.div_mul. lia. Qed.
Lemma half_double1 i : (i * 2 + 1) / 2 = i. Proof. rewrite Z.div_add_l by lia. change (1 / 2) with 0. lia. Qed.
Lemma floor_spec q z : Qfloor q = z <-> (inject_Z z <= q /\ q < inject_Z z + 1)%Q.
Proof.
  split.
  - intros <-. split; [apply Qfloor_le|]. pose proof (Qlt_floor q) as H. rewrite inject_Z_plus in H. exact H.
  - intros [A B]. pose proof (Qfloor_le q) as C. pose proof (Qlt_floor q) as D. 
    assert (E1 : (inject_Z z < inject_Z (Qfloor q + 1))%Q) by (eapply Qle_lt_trans; [exact A|exact D]). assert (E2 : (inject_Z (Qfloor q) < inject_Z (z + 1))%Q) by (rewrite inject_Z_plus; change (inject_Z 1) with 1%Q; eapply Qle_lt_trans; [exact C|exact B]).
    rewrite <- Zlt_Qlt in E1, E2. lia.
Qed.

Lemma nodes_ok m j i : IsTri m j i -> exists a b c, tri_nodes_for_tji m j i = Ok (a, b, c) /\ IsCorners j i a b c.
Proof.
  intros [Hj Hi]. unfold tri_nodes_for_tji. replace ((0 <=? j) && (j <? tm_nj m - 1) && (0 <=? i) && (i <? 2 * (tm_ni m - 1))) with true by lia. cbn [assert_ bind].
  rewrite !mod2_odd. unfold IsCorners. destruct (Z.odd i) eqn:Oi, (Z.odd j) eqn:Oj; cbn [Z.eqb negb Bool.eqb]; do 3 eexists; (split; [reflexivity|]); repeat split; f_equal; lia.
Qed.

Section Places.
Context (m : trimesh).
Hypothesis W : WF m.
Definition ox : Q := match tm_origin m with Some o => vx o | None => 0%Q end.
Definition oy : Q := match tm_origin m with Some o => vy o | None => 0%Q end.
Lemma node_x j i : (vx (xyz m j i) == (inject_Z i + (if Z.odd j then 1 # 2 else 0)) * tm_t m + ox)%Q.
Proof. unfold xyz, ox. rewrite odd_spec. destruct (tm_origin m); cbn [vadd vx]; ring. Qed.
Lemma node_y j i : (vy (xyz m j i) == tm_h m * inject_Z j * tm_t m + oy)%Q.
Proof. unfold xyz, oy. destruct (tm_origin m); cbn [vadd vy]; ring. Qed.
(* places in units of the mesh *)
Definition X x : Q := ((x - ox) / tm_t m)%Q.
Definition Y y : Q := ((y - oy) / (tm_t m * tm_h m))%Q.
Lemma x_of x : (x == X x * tm_t m + ox)%Q.
Proof. unfold X. destruct W as (_ & _ & T & _). field. lra. Qed.
Lemma y_of y : (y == Y y * (tm_t m * tm_h m) + oy)%Q.
Proof. unfold Y. destruct W as (_ & _ & T & H). field. split; lra. Qed.
Definition fy_of (y : Q) : Q := let j := Qfloor (Y y) in if Z.odd j then (inject_Z j + 1 - Y y)%Q else (Y y - inject_Z j)%Q.
Lemma floor_eq a b : (a == b)%Q -> Qfloor a = Qfloor b.
Proof. intros E. rewrite E. reflexivity. Qed.
(* the lookup in those units *)
Definition lookup (x y : Q) : option ((Z * Z) * (Q * Q * Q)) :=
  let j := Qfloor (Y y) in
  let i := Qfloor (X x - (1 # 2) * fy_of y) in
  let fx := (X x - (1 # 2) * fy_of y - inject_Z i)%Q in
  if (0 <=? j) && (j <? tm_nj m - 1) && (0 <=? i) && (i <? tm_ni m - 1) then
    if (1 - fy_of y <b fx)%Q then Some ((j, i * 2 + 1), (1 - fx, fx - (1 - fy_of y), 1 - fy_of y)%Q)
    else Some ((j, i * 2), (1 - (fx + fy_of y), fx, fy_of y)%Q)
  else None.
Definition SameLookup (a b : option ((Z * Z) * (Q * Q * Q))) : Prop :=
  match a, b with
  | None, None => True
  | Some (t, (f0, f1, f2)), Some (t', (g0, g1, g2)) => t = t' /\ (f0 == g0 /\ f1 == g1 /\ f2 == g2)%Q
  | _, _ => False
  end.
Lemma lookup_ok x y : SameLookup (tji_tc_for_xy m x y) (lookup x y).
Proof.
  unfold tji_tc_for_xy, lookup. cbv zeta.
  set (x0 := match tm_origin m with Some o => (x - vx o)%Q | None => x end). set (y0 := match tm_origin m with Some o => (y - vy o)%Q | None => y end).
  assert (EX : (x0 / tm_t m == X x)%Q). { unfold X, x0, ox. destruct W as (_ & _ & T & _). destruct (tm_origin m); field; lra. }
  assert (EY : (y0 / (tm_t m * tm_h m) == Y y)%Q). { unfold Y, y0, oy. destruct W as (_ & _ & T & H). destruct (tm_origin m); field; split; lra. }
  clearbody x0 y0. rewrite (floor_eq _ _ EY). set (j := Qfloor (Y y)).
  destruct ((0 <=? j) && (j <? tm_nj m - 1)) eqn:Ej; cbn [negb andb]; [|exact Logic.I].
  rewrite odd_spec.
  set (fy := if Z.odd j then _ else _). assert (EF : (fy == fy_of y)%Q). { unfold fy, fy_of. fold j. destruct (Z.odd j); rewrite EY; [rewrite inject_Z_plus|]; reflexivity. }
  assert (EI : (x0 / tm_t m - (1 # 2) * fy == X x - (1 # 2) * fy_of y)%Q) by (rewrite EX, EF; reflexivity). rewrite (floor_eq _ _ EI).
  set (i := Qfloor (X x - (1 # 2) * fy_of y)). destruct ((0 <=? i) && (i <? tm_ni m - 1)) eqn:Ei; cbn [negb].
  2: exact Logic.I. clearbody i fy.
  destruct (1 - fy <b x0 / tm_t m - (1 # 2) * fy - inject_Z i)%Q eqn:E1, (1 - fy_of y <b X x - (1 # 2) * fy_of y - inject_Z i)%Q eqn:E2;
    cbn [SameLookup].
  - split; [reflexivity|]. rewrite EI, EF. repeat split; ring.
  - exfalso. rewrite EI, EF in E1. congruence.
  - exfalso. rewrite EI, EF in E1. congruence.
  - split; [reflexivity|]. rewrite EI, EF. repeat split; ring.
Qed.
Lemma fy_range y : (0 <= fy_of y <= 1)%Q.
Proof. unfold fy_of. destruct (proj1 (floor_spec (Y y) _) eq_refl). destruct (Z.odd _); lra. Qed.
End Places.

(** What the lookup of a place gives: a triangle, and weights that are not negative, add up to one, and have the
    place as the mean of the triangle's corners. *)
Theorem C90_lookup : forall m, WF m -> forall x y j i f0 f1 f2, tji_tc_for_xy m x y = Some ((j, i), (f0, f1, f2)) ->
  IsTri m j i /\ (0 <= f0 /\ 0 <= f1 /\ 0 <= f2)%Q /\
  exists a b c, tri_nodes_for_tji m j i = Ok (a, b, c) /\ IsCorners j i a b c /\ Mean m a b c f0 f1 f2 x y.
Proof.
  intros m W x y j i f0 f1 f2 E. pose proof (lookup_ok m W x y) as L. rewrite E in L. unfold lookup in L. cbv zeta in L.
  destruct (_ && _) eqn:R in L; [|destruct L]. apply andb_true_iff in R as [R R4]. apply andb_true_iff in R as [R R3]. apply andb_true_iff in R as [R1 R2].
  pose proof (fy_range m y) as F. destruct (proj1 (floor_spec (X m x - (1 # 2) * fy_of m y)%Q _) eq_refl) as [I1 I2].
  pose proof (x_of m W x) as Ex. pose proof (y_of m W y) as Ey.
  set (j0 := Qfloor (Y m y)) in *. set (i0 := Qfloor (X m x - (1 # 2) * fy_of m y)) in *.
  assert (EF : fy_of m y = if Z.odd j0 then (inject_Z j0 + 1 - Y m y)%Q else (Y m y - inject_Z j0)%Q) by reflexivity.
  destruct (1 - fy_of m y <b X m x - (1 # 2) * fy_of m y - inject_Z i0)%Q eqn:B; (apply Qltb_iff in B || apply Qltb_false in B); cbn [SameLookup] in L;
    destruct L as ([= -> ->] & A0 & A1 & A2).
  - assert (T : IsTri m j0 (i0 * 2 + 1)) by (split; lia). split; [exact T|]. split; [rewrite A0, A1, A2; repeat split; lra|].
    destruct (nodes_ok m _ _ T) as (a & b & c & N & C). exists a, b, c. split; [exact N|]. split; [exact C|]. unfold IsCorners in C. rewrite odd_double1, half_double1 in C.
    destruct C as (-> & -> & ->). unfold Mean, at2. cbn [fst snd]. rewrite !node_x, !node_y, A0, A1, A2. split; [ring|].
    destruct (Z.odd j0) eqn:O; cbn [Bool.eqb]; rewrite ?Z.odd_add, ?O, !inject_Z_plus; cbn [xorb Z.odd]; rewrite EF in *; split; (rewrite Ex at 1 || rewrite Ey at 1); change (inject_Z 1) with 1%Q; ring.
  - assert (T : IsTri m j0 (i0 * 2)) by (split; lia). split; [exact T|]. split; [rewrite A0, A1, A2; repeat split; lra|].
    destruct (nodes_ok m _ _ T) as (a & b & c & N & C). exists a, b, c. split; [exact N|]. split; [exact C|]. unfold IsCorners in C. rewrite odd_double, half_double in C.
    destruct C as (-> & -> & ->). unfold Mean, at2. cbn [fst snd]. rewrite !node_x, !node_y, A0, A1, A2. split; [ring|].
    destruct (Z.odd j0) eqn:O; cbn [Bool.eqb]; rewrite ?Z.odd_add, ?O, !inject_Z_plus; cbn [xorb Z.odd]; rewrite EF in *; split; (rewrite Ex at 1 || rewrite Ey at 1); change (inject_Z 1) with 1%Q; change (inject_Z 0) with 0%Q; ring.
Qed.
Print Assumptions C90_lookup.

(** A place strictly inside a triangle is found in that triangle: so no two triangles overlap, and there is no
    place inside the mesh, off the edges, that is not found. *)
Theorem C90_inside : forall m, WF m -> forall x y j i a b c f0 f1 f2, IsTri m j i -> IsCorners j i a b c ->
  (0 < f0 /\ 0 < f1 /\ 0 < f2)%Q -> Mean m a b c f0 f1 f2 x y ->
  exists g0 g1 g2, tji_tc_for_xy m x y = Some ((j, i), (g0, g1, g2)) /\ (g0 == f0 /\ g1 == f1 /\ g2 == f2)%Q.
Proof.
  intros m W x y j i a b c f0 f1 f2 (Hj & Hi) C (P0 & P1 & P2) (S1 & Ex & Ey).
  cut (SameLookup (lookup m x y) (Some ((j, i), (f0, f1, f2)))).
  { intros S. pose proof (lookup_ok m W x y) as L. destruct (lookup m x y) as [[t [[h0 h1] h2]]|]; [|destruct S]. cbn [SameLookup] in S. destruct S as (-> & A & B & D).
    destruct (tji_tc_for_xy m x y) as [[t' [[g0 g1] g2]]|]; [|destruct L]. cbn [SameLookup] in L. destruct L as (-> & A' & B' & D'). exists g0, g1, g2. split; [reflexivity|].
    rewrite A', B', D', A, B, D. repeat split; reflexivity. }
  destruct W as (Wj & Wi & Wt & Wh). set (I0 := i / 2) in *.
  assert (Di : i = I0 * 2 + (if Z.odd i then 1 else 0)). { unfold I0. rewrite <- mod2_odd. pose proof (Z.div_mod i 2). lia. }
  assert (F0 : (f0 == 1 - f1 - f2)%Q) by lra.
  assert (EY : (Y m y == inject_Z j + (if Bool.eqb (Z.odd j) (Z.odd i) then f2 else 1 - f2))%Q).
  { unfold Y. rewrite Ey. destruct C as (-> & -> & ->). unfold at2. cbn [fst snd]. rewrite !node_y. destruct (Bool.eqb (Z.odd j) (Z.odd i)); rewrite ?inject_Z_plus, F0; change (inject_Z 1) with 1%Q; field; lra. }
  assert (Fj : Qfloor (Y m y) = j). { apply floor_spec. rewrite EY. destruct (Bool.eqb (Z.odd j) (Z.odd i)); lra. }
  assert (EF : (fy_of m y == if Z.odd i then 1 - f2 else f2)%Q). { unfold fy_of. rewrite Fj. destruct (Z.odd j) eqn:Oj; rewrite EY; destruct (Z.odd i); cbn [Bool.eqb]; ring. }
  assert (EX : (X m x - (1 # 2) * fy_of m y == inject_Z I0 + (if Z.odd i then f1 + f2 else f1))%Q).
  { unfold X. rewrite Ex, EF. destruct C as (-> & -> & ->). unfold at2. cbn [fst snd]. rewrite !node_x.
    destruct (Z.odd j) eqn:Oj, (Z.odd i) eqn:Oi; cbn [Bool.eqb]; fold I0; rewrite ?Z.odd_add, ?Oj, ?inject_Z_plus, ?F0; change (Z.odd 1) with true; cbn [xorb]; change (inject_Z 1) with 1%Q; change (inject_Z 0) with 0%Q; field; lra. }
  assert (Fi : Qfloor (X m x - (1 # 2) * fy_of m y) = I0). { apply floor_spec. rewrite EX. destruct (Z.odd i); lra. }
  unfold lookup. cbv zeta. rewrite Fj, Fi.
  replace ((0 <=? j) && (j <? tm_nj m - 1) && (0 <=? I0) && (I0 <? tm_ni m - 1)) with true by (destruct (Z.odd i); lia).
  destruct (Z.odd i) eqn:Oi.
  - replace (1 - fy_of m y <b X m x - (1 # 2) * fy_of m y - inject_Z I0)%Q with true by (symmetry; apply Qltb_iff; rewrite EX, EF; lra).
    cbn [SameLookup]. rewrite Di. split; [reflexivity|]. rewrite EX, EF. repeat split; lra.
  - replace (1 - fy_of m y <b X m x - (1 # 2) * fy_of m y - inject_Z I0)%Q with false by (symmetry; apply Qltb_false; rewrite EX, EF; lra).
    cbn [SameLookup]. rewrite Di, Z.add_0_r. split; [reflexivity|]. rewrite EX, EF. repeat split; lra.
Qed.
Print Assumptions C90_inside.

(** The functions for arrays of places and triangles agree with those for one. *)
Theorem C90_arrays : forall m,
  (forall x y, tji_tc_for_xy_elem m (Some x) (Some y) =
    match tji_tc_for_xy m x y with Some (t, (f0, f1, f2)) => (t, (Some f0, Some f1, Some f2)) | None => ((-1, -1), (None, None, None)) end) /\
  (forall x y, x = None \/ y = None -> tji_tc_for_xy_elem m x y = ((-1, -1), (None, None, None))) /\
  (forall j i, tri_nodes_for_tji_elem m j i = match tri_nodes_for_tji m j i with Ok n => n | Err _ => ((-1, -1), (-1, -1), (-1, -1)) end).
Proof.
  intros m. split; [|split].
  - intros x y. unfold tji_tc_for_xy_elem, tji_tc_for_xy. cbv zeta.
    replace (match (match tm_origin m with Some v => Some (x - vx v)%Q | None => Some x end) with Some a => a | None => 0%Q end)
      with (match tm_origin m with Some o => (x - vx o)%Q | None => x end) by (destruct (tm_origin m); reflexivity).
    replace (match (match tm_origin m with Some v => Some (y - vy v)%Q | None => Some y end) with Some a => a | None => 0%Q end)
      with (match tm_origin m with Some o => (y - vy o)%Q | None => y end) by (destruct (tm_origin m); reflexivity).
    set (x0 := match tm_origin m with Some o => (x - vx o)%Q | None => x end). set (y0 := match tm_origin m with Some o => (y - vy o)%Q | None => y end).
    set (j := Qfloor _). cbn [orb]. set (fy := if odd j then _ else _). set (i := Qfloor _).
    destruct ((0 <=? j) && (j <? tm_nj m - 1)) eqn:Ej; cbn [negb].
    + replace ((j <? 0) || (j >=? tm_nj m - 1)) with false by lia. cbn [orb].
      destruct ((0 <=? i) && (i <? tm_ni m - 1)) eqn:Ei; cbn [negb].
      * replace ((i <? 0) || (i >=? tm_ni m - 1)) with false by lia. destruct (1 - fy <b x0 / tm_t m - (1 # 2) * fy - inject_Z i)%Q; reflexivity.
      * replace ((i <? 0) || (i >=? tm_ni m - 1)) with true by lia. reflexivity.
    + replace ((j <? 0) || (j >=? tm_nj m - 1)) with true by lia. reflexivity.
  - intros x y [-> | ->]; unfold tji_tc_for_xy_elem; cbv zeta; [reflexivity|]. destruct x; reflexivity.
  - intros j i. unfold tri_nodes_for_tji_elem, tri_nodes_for_tji. cbv zeta.
    destruct ((0 <=? j) && (j <? tm_nj m - 1) && (0 <=? i) && (i <? 2 * (tm_ni m - 1))) eqn:E; cbn [assert_ bind].
    + replace ((j <? 0) || (j >=? tm_nj m - 1) || ((i <? 0) || (i >=? 2 * (tm_ni m - 1)))) with false by lia. destruct (negb (i mod 2 =? 0)); reflexivity.
    + replace ((j <? 0) || (j >=? tm_nj m - 1) || ((i <? 0) || (i >=? 2 * (tm_ni m - 1)))) with true by lia. reflexivity.
Qed.
Print Assumptions C90_arrays.

(** Interpolation is exact where the depths are those of a plane, and never leaves the range of the depths. *)
Theorem C90_interpolated : forall m, WF m -> forall x y,
  (interpolated_z m x y = Ok None /\ tji_tc_for_xy m x y = None) \/
  exists z, interpolated_z m x y = Ok (Some z) /\
    (forall A B C, (forall j i, vz (xyz m j i) == A * vx (xyz m j i) + B * vy (xyz m j i) + C)%Q -> (z == A * x + B * y + C)%Q) /\
    (forall lo hi, (forall n, IsNode m n -> lo <= vz (at2 (xyz m) n) <= hi)%Q -> (lo <= z <= hi)%Q).
Proof.
  intros m W x y. unfold interpolated_z. destruct (tji_tc_for_xy m x y) as [[[j i] [[f0 f1] f2]]|] eqn:E; [right|left; split; reflexivity].
  destruct (C90_lookup m W _ _ _ _ _ _ _ E) as ((Hj & Hi) & (P0 & P1 & P2) & a & b & c & N & C & (S1 & Ex & Ey)). rewrite N. cbn [bind]. eexists. split; [reflexivity|]. split.
  - intros A B D H. rewrite Ex, Ey. unfold at2. rewrite (H (fst a) (snd a)), (H (fst b) (snd b)), (H (fst c) (snd c)).
    assert (F0 : (f0 == 1 - f1 - f2)%Q) by lra. rewrite F0. ring.
  - intros lo hi H.
    assert (NN : IsNode m a /\ IsNode m b /\ IsNode m c).
    { destruct C as (-> & -> & ->). pose proof (Z.div_mod i 2 ltac:(lia)) as D. rewrite mod2_odd in D. unfold IsNode. cbn [fst snd].
      destruct (Z.odd j), (Z.odd i); cbn [Bool.eqb]; lia. }
    destruct NN as (Na & Nb & Nc). pose proof (H a Na) as [? ?]. pose proof (H b Nb) as [? ?]. pose proof (H c Nc) as [? ?]. unfold at2 in *. split; nra.
Qed.
Print Assumptions C90_interpolated.
