(** PipProofs.v: lemmas on point inclusion. *)
From Verif Require Import QBase PipModel.
From Coq Require Import Permutation.

(** * The side of a line *)
(** Positive when [p] is to the left of the line from [a] to [b]. *)
Definition side (a b p : pt) : Q := (fst b - fst a) * (snd p - snd a) - (snd b - snd a) * (fst p - fst a).

Lemma x_at_up p a b : snd a < snd b -> (fst p < x_at (snd p) a b <-> 0 < side a b p).
Proof.
  intros H. unfold x_at, side. set (d := snd b - snd a). set (n := (fst b - fst a) * (snd p - snd a)).
  assert (Hd : 0 < d) by (unfold d; lra).
  split; intros H1.
  - assert (H2 : fst p - fst a < n / d) by lra. apply (proj1 (Qlt_div_mult n d _ Hd)) in H2. nra.
  - assert (H2 : fst p - fst a < n / d) by (apply (proj2 (Qlt_div_mult n d _ Hd)); nra). lra.
Qed.
Lemma x_at_swap y a b : ~ snd a == snd b -> x_at y a b == x_at y b a.
Proof. intros H. unfold x_at. field. split; lra. Qed.
Lemma side_swap a b p : side b a p == - side a b p.
Proof. unfold side. ring. Qed.
Lemma x_at_down p a b : snd b < snd a -> (fst p < x_at (snd p) a b <-> side a b p < 0).
Proof.
  intros H. rewrite x_at_swap by lra. rewrite x_at_up by assumption. rewrite side_swap. split; intros; lra.
Qed.

(** The edge crosses the level of [p] upwards or downwards. *)
Definition up (p a b : pt) : bool := (snd a <=b snd p) && (snd p <b snd b).
Definition down (p a b : pt) : bool := (snd p <b snd a) && (snd b <=b snd p).
Definition b2z (b : bool) : Z := if b then 1 else 0.
Definition wedge (p a b : pt) : Z := (b2z (up p a b && (0 <b side a b p)) - b2z (down p a b && (side a b p <b 0)))%Z.

Ltac qcase a b := destruct (Qltb_spec a b).
Ltac qlecase a b := destruct (Qleb_spec' a b).

Lemma bool_eq_iff (a b : bool) : (a = true <-> b = true) -> a = b.
Proof. destruct a, b; intuition congruence. Qed.

Lemma wn_edge_wedge p a b : wn_edge p (a, b) = wedge p a b.
Proof.
  unfold wn_edge, wedge, up, down.
  assert (U : snd a <= snd p -> snd p < snd b -> (fst p <b x_at (snd p) a b) = (0 <b side a b p)).
  { intros H1 H2. apply bool_eq_iff. rewrite !Qltb_iff. apply x_at_up. lra. }
  assert (D : snd p < snd a -> snd b <= snd p -> (fst p <b x_at (snd p) a b) = (side a b p <b 0)).
  { intros H1 H2. apply bool_eq_iff. rewrite !Qltb_iff. apply x_at_down. lra. }
  destruct (Qleb_spec' (snd a) (snd p)) as [Ha|Ha], (Qltb_spec (snd p) (snd b)) as [Hb|Hb], (Qleb_spec' (snd b) (snd p)) as [Hb'|Hb'],
    (Qltb_spec (snd p) (snd a)) as [Ha'|Ha']; try lra; cbn [andb].
  - (* up *) rewrite U by assumption. qlecase (fst a) (fst p); qlecase (fst b) (fst p); qcase (fst p) (fst a); qcase (fst p) (fst b); try lra; cbn [andb];
      destruct (Qltb_spec 0 (side a b p)) as [Hs|Hs]; cbn [b2z]; try reflexivity; exfalso; unfold side in Hs; nra.
  - (* none *) destruct (_ && _); reflexivity.
  - destruct (_ && _); reflexivity.
  - (* down *) rewrite D by assumption. qlecase (fst a) (fst p); qlecase (fst b) (fst p); qcase (fst p) (fst a); qcase (fst p) (fst b); try lra; cbn [andb];
      destruct (Qltb_spec (side a b p) 0) as [Hs|Hs]; cbn [b2z]; try reflexivity; exfalso; unfold side in Hs; nra.
Qed.

Lemma cn_edge_wedge p a b : cn_edge p (a, b) = (up p a b && (0 <b side a b p)) || (down p a b && (side a b p <b 0)).
Proof.
  unfold cn_edge, up, down.
  assert (U : snd a <= snd p -> snd p < snd b -> (fst p <b x_at (snd p) a b) = (0 <b side a b p)).
  { intros H1 H2. apply bool_eq_iff. rewrite !Qltb_iff. apply x_at_up. lra. }
  assert (D : snd p < snd a -> snd b <= snd p -> (fst p <b x_at (snd p) a b) = (side a b p <b 0)).
  { intros H1 H2. apply bool_eq_iff. rewrite !Qltb_iff. apply x_at_down. lra. }
  destruct (Qleb_spec' (snd a) (snd p)) as [Ha|Ha], (Qltb_spec (snd p) (snd b)) as [Hb|Hb], (Qleb_spec' (snd b) (snd p)) as [Hb'|Hb'],
    (Qltb_spec (snd p) (snd a)) as [Ha'|Ha']; try lra; cbn [andb orb].
  - rewrite U by assumption. qcase (fst p) (fst a); qcase (fst p) (fst b); cbn [andb orb];
      destruct (Qltb_spec 0 (side a b p)) as [Hs|Hs]; cbn; try reflexivity; exfalso; unfold side in Hs; nra.
  - rewrite andb_false_r. reflexivity.
  - rewrite andb_false_r. reflexivity.
  - rewrite D by assumption. qcase (fst p) (fst a); qcase (fst p) (fst b); cbn [andb orb];
      destruct (Qltb_spec (side a b p) 0) as [Hs|Hs]; cbn; try reflexivity; exfalso; unfold side in Hs; nra.
Qed.
Lemma up_not_down p a b : up p a b = true -> down p a b = false.
Proof.
  unfold up, down. rewrite andb_true_iff, Qleb_iff, Qltb_iff. intros [H1 H2].
  destruct (Qltb_spec (snd p) (snd a)); [lra|reflexivity].
Qed.
Lemma cn_is_wn p e : cn_edge p e = negb (wn_edge p e =? 0)%Z.
Proof.
  destruct e as [a b]. rewrite cn_edge_wedge, wn_edge_wedge. unfold wedge.
  destruct (up p a b) eqn:U.
  - rewrite (up_not_down p a b U). cbn [andb orb]. destruct (0 <b side a b p); reflexivity.
  - cbn [andb orb]. destruct (down p a b && (side a b p <b 0)); reflexivity.
Qed.
Lemma wn_edge_small p e : (wn_edge p e = 0 \/ wn_edge p e = 1 \/ wn_edge p e = -1)%Z.
Proof.
  destruct e as [a b]. rewrite wn_edge_wedge. unfold wedge. destruct (up p a b) eqn:U.
  - rewrite (up_not_down p a b U). cbn [andb]. destruct (0 <b side a b p); cbn; auto.
  - cbn [andb]. destruct (down p a b && (side a b p <b 0)); cbn; auto.
Qed.
Lemma array_edge_cn dz p e : array_edge dz p e = cn_edge p e.
Proof.
  destruct e as [a b]. unfold array_edge, cn_edge.
  destruct (((fst p <b fst a) || (fst p <b fst b)) && ((snd a <=b snd p) && (snd p <b snd b) || (snd p <b snd a) && (snd b <=b snd p))) eqn:E; cbn [andb]; [|reflexivity].
  destruct ((fst p <b fst a) && (fst p <b fst b)); cbn [orb]; [reflexivity|].
  destruct (Qeq_bool (snd b) (snd a)) eqn:Eq; [|reflexivity]. apply Qeq_bool_iff in Eq.
  apply andb_true_iff in E. destruct E as [_ E]. apply orb_true_iff in E.
  rewrite !andb_true_iff, !Qleb_iff, !Qltb_iff in E. lra.
Qed.

(** * Sums over edges *)
Definition zsum (l : list Z) : Z := fold_right Z.add 0%Z l.
Lemma zsum_app a b : zsum (a ++ b) = (zsum a + zsum b)%Z.
Proof. induction a as [|x a IH]; cbn; [reflexivity|]. fold (zsum (a ++ b)) (zsum a). lia. Qed.
Lemma zsum_perm a b : Permutation a b -> zsum a = zsum b.
Proof. induction 1; cbn; unfold zsum in *; lia. Qed.
Lemma fold_zsum {A} (f : A -> Z) l z : fold_left (fun w e => w + f e)%Z l z = (z + zsum (map f l))%Z.
Proof. revert z. induction l as [|e l IH]; intros z; cbn; [lia|]. rewrite IH. fold (zsum (map f l)). lia. Qed.
Lemma winding_sum p poly : winding p poly = zsum (map (wn_edge p) (edges poly)).
Proof. unfold winding. now rewrite fold_zsum. Qed.
Lemma crossings_sum p poly : crossings p poly = zsum (map (fun e => b2z (cn_edge p e)) (edges poly)).
Proof.
  unfold crossings. rewrite <- (Z.add_0_l (zsum _)). rewrite <- fold_zsum.
  generalize 0%Z. induction (edges poly) as [|e l IH]; intros z; cbn [fold_left]; [reflexivity|]. rewrite <- IH. f_equal.
  destruct (cn_edge p e); cbn; lia.
Qed.

(** * Edges as a closed path *)
Definition path {A} (w : list A) : list (A * A) := combine w (tl w).
Definition swap {A} (e : A * A) : A * A := (snd e, fst e).
Lemma path_cons {A} (x y : A) l : path (x :: y :: l) = (x, y) :: path (y :: l).
Proof. reflexivity. Qed.
Lemma path_snoc {A} (w : list A) d v : w <> [] -> path (w ++ [v]) = path w ++ [(last w d, v)].
Proof.
  intros H. induction w as [|x w IH]; [congruence|]. destruct w as [|y w]; [reflexivity|].
  cbn [app] in *. rewrite !path_cons. rewrite IH by discriminate. cbn [app last]. reflexivity.
Qed.
Lemma edges_path {A} (v : A) l : edges (v :: l) = path (last (v :: l) v :: v :: l).
Proof. reflexivity. Qed.
Lemma edges_closed {A} (v : A) l : Permutation (edges (v :: l)) (path (v :: l ++ [v])).
Proof.
  rewrite edges_path. change (v :: l ++ [v]) with ((v :: l) ++ [v]). rewrite (path_snoc _ v) by discriminate.
  rewrite path_cons. apply Permutation_cons_append.
Qed.
Lemma edges_rotate1 {A} (v : A) l : Permutation (edges (v :: l)) (edges (l ++ [v])).
Proof.
  destruct l as [|u l]; [reflexivity|]. rewrite edges_closed.
  cbn [app]. rewrite edges_path.
  replace (last (u :: l ++ [v]) u) with v.
  2:{ change (u :: l ++ [v]) with ((u :: l) ++ [v]). now rewrite last_last. }
  reflexivity.
Qed.
Lemma edges_rotate {A} (a b : list A) : Permutation (edges (a ++ b)) (edges (b ++ a)).
Proof.
  revert b. induction a as [|v a IH]; intros b; cbn [app]; [now rewrite app_nil_r|].
  rewrite edges_rotate1, <- app_assoc, IH, <- app_assoc. reflexivity.
Qed.
Lemma path_rev {A} (w : list A) : path (rev w) = rev (map swap (path w)).
Proof.
  induction w as [|x w IH]; [reflexivity|]. destruct w as [|y w]; [reflexivity|].
  rewrite path_cons. cbn [map rev]. cbn [rev] in IH. rewrite <- IH.
  rewrite (path_snoc _ x). 2:{ intros E. apply app_eq_nil in E. destruct E; discriminate. }
  rewrite last_last. reflexivity.
Qed.
Lemma edges_rev {A} (w : list A) : Permutation (edges (rev w)) (map swap (edges w)).
Proof.
  destruct w as [|v l]; [reflexivity|].
  transitivity (edges (v :: rev l)); [cbn [rev]; symmetry; apply edges_rotate1|].
  rewrite edges_closed. replace (v :: rev l ++ [v]) with (rev (v :: l ++ [v])).
  2:{ cbn [rev]. rewrite rev_app_distr. reflexivity. }
  rewrite path_rev. rewrite <- Permutation_rev. apply Permutation_map. symmetry. apply edges_closed.
Qed.

Lemma wedge_swap p a b : wedge p b a = (- wedge p a b)%Z.
Proof.
  unfold wedge. assert (E1 : up p b a = down p a b) by (unfold up, down; apply andb_comm).
  assert (E2 : down p b a = up p a b) by (unfold up, down; apply andb_comm).
  assert (S1 : (0 <b side b a p) = (side a b p <b 0)).
  { apply bool_eq_iff. rewrite !Qltb_iff, side_swap. split; intros; lra. }
  assert (S2 : (side b a p <b 0) = (0 <b side a b p)).
  { apply bool_eq_iff. rewrite !Qltb_iff, side_swap. split; intros; lra. }
  rewrite E1, E2, S1, S2. lia.
Qed.

(** * Fan of triangles *)
Definition tri_wn (p a b c : pt) : Z := (wedge p c a + wedge p a b + wedge p b c)%Z.
Lemma path_wn_cons p x y l : zsum (map (wn_edge p) (path (x :: y :: l))) = (wedge p x y + zsum (map (wn_edge p) (path (y :: l))))%Z.
Proof. rewrite path_cons. cbn [map]. rewrite wn_edge_wedge. reflexivity. Qed.
Lemma fan_sum p v a l : zsum (map (wn_edge p) (path (v :: (a :: l) ++ [v]))) =
  zsum (map (fun e => tri_wn p v (fst e) (snd e)) (path (a :: l))).
Proof.
  revert a. induction l as [|b l IH]; intros a.
  - cbn [app path combine tl map]. rewrite !wn_edge_wedge. cbn. rewrite (wedge_swap p v a). lia.
  - cbn [app]. rewrite !path_wn_cons. specialize (IH b). cbn [app] in IH. rewrite path_wn_cons in IH.
    rewrite (path_cons a b l). cbn [map zsum fold_right fst snd]. fold (zsum (map (fun e => tri_wn p v (fst e) (snd e)) (path (b :: l)))).
    rewrite <- IH. unfold tri_wn. rewrite (wedge_swap p v b). lia.
Qed.
Lemma winding_fan p v a l : winding p (v :: a :: l) = zsum (map (fun e => tri_wn p v (fst e) (snd e)) (path (a :: l))).
Proof.
  rewrite winding_sum. rewrite (zsum_perm _ _ (Permutation_map (wn_edge p) (edges_closed v (a :: l)))). apply fan_sum.
Qed.

Ltac wcases p :=
  unfold wedge, up, down;
  repeat match goal with
  | |- context [?x <=b ?y] => destruct (Qleb_spec' x y)
  | |- context [?x <b ?y] => destruct (Qltb_spec x y)
  end; cbn [andb b2z].

(** The relation that ties the three sides of a triangle together. *)
Lemma side_levels p a b c : (snd c - snd p) * side a b p + (snd a - snd p) * side b c p + (snd b - snd p) * side c a p == 0.
Proof. unfold side. ring. Qed.

Lemma wedge_val p a b : wedge p a b =
  if up p a b then b2z (0 <b side a b p) else if down p a b then (- b2z (side a b p <b 0))%Z else 0%Z.
Proof.
  unfold wedge. destruct (up p a b) eqn:U; cbn [andb].
  - rewrite (up_not_down _ _ _ U). cbn. lia.
  - destruct (down p a b); cbn; lia.
Qed.
(** Above the level of [p], or not. *)
Definition above (p v : pt) : bool := snd p <b snd v.
Lemma up_above p a b : up p a b = negb (above p a) && above p b.
Proof. unfold up, above. f_equal. unfold Qltb. now rewrite negb_involutive. Qed.
Lemma down_above p a b : down p a b = above p a && negb (above p b).
Proof. unfold down, above. f_equal. unfold Qltb. now rewrite negb_involutive. Qed.
Lemma above_lt p v : above p v = true -> 0 < snd v - snd p.
Proof. unfold above. rewrite Qltb_iff. lra. Qed.
Lemma above_le p v : above p v = false -> snd v - snd p <= 0.
Proof. unfold above. rewrite Qltb_false. lra. Qed.

Lemma tri_wn_zero_sides p a b c : ~ side a b p == 0 -> ~ side b c p == 0 -> ~ side c a p == 0 ->
  tri_wn p a b c =
    if (0 <b side a b p) && (0 <b side b c p) && (0 <b side c a p) then 1%Z
    else if (side a b p <b 0) && (side b c p <b 0) && (side c a p <b 0) then (-1)%Z else 0%Z.
Proof.
  intros N1 N2 N3. pose proof (side_levels p a b c) as L.
  assert (X : snd a - snd p == 0 -> snd b - snd p == 0 -> side a b p == 0).
  { intros Ea Eb. unfold side. setoid_replace (snd b - snd a) with 0 by lra. setoid_replace (snd p - snd a) with 0 by lra. ring. }
  unfold tri_wn. rewrite !wedge_val, !up_above, !down_above.
  set (s1 := side a b p) in *. set (s2 := side b c p) in *. set (s3 := side c a p) in *.
  destruct (above p a) eqn:Aa, (above p b) eqn:Ab, (above p c) eqn:Ac; cbn [andb negb];
    repeat match goal with H : above _ _ = true |- _ => apply above_lt in H | H : above _ _ = false |- _ => apply above_le in H end;
    set (la := snd a - snd p) in *; set (lb := snd b - snd p) in *; set (lc := snd c - snd p) in *;
    clearbody s1 s2 s3 la lb lc; clear p a b c;
    destruct (Qltb_spec 0 s1), (Qltb_spec s1 0), (Qltb_spec 0 s2), (Qltb_spec s2 0), (Qltb_spec 0 s3), (Qltb_spec s3 0);
    cbn [andb b2z]; try reflexivity; exfalso; try lra; try nra;
    apply N1; apply X; nra.
Qed.
