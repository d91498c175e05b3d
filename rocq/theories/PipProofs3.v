(** PipProofs3.v: scan lines, convex quadrilaterals and pixel maps. *)
From Verif Require Import QBase PipModel PipProofs PipProofs2.
From Coq Require Import Permutation.

(** * The crossings of one row *)
Definition crosses (y : Q) (e : pt * pt) : bool := xorb (y <b snd (fst e)) (y <b snd (snd e)).
Lemma crosses_code y (v1 v2 : pt) : ((y <b snd v1) && (y <b snd v2)) || ((snd v1 <=b y) && (snd v2 <=b y)) = negb (crosses y (v1, v2)).
Proof. unfold crosses, Qltb. cbn [fst snd]. destruct (snd v1 <=b y), (snd v2 <=b y); reflexivity. Qed.
Definition hits (y : Q) (poly : list pt) : list Q := map (fun e => x_at y (fst e) (snd e)) (filter (crosses y) (edges poly)).
Lemma row_hits_gen y es ic acc : (ic <= 1)%nat -> row_hits y es ic acc =
  acc ++ firstn (2 - ic) (map (fun e => x_at y (fst e) (snd e)) (filter (crosses y) es)).
Proof.
  revert ic acc. induction es as [|[v1 v2] es IH]; intros ic acc Hic; cbn [row_hits filter].
  - now rewrite firstn_nil, app_nil_r.
  - rewrite crosses_code. destruct (crosses y (v1, v2)); cbn [negb]; [|now apply IH].
    destruct (Nat.eqb_spec (S ic) 2) as [E|E].
    + assert (ic = 1)%nat by lia. subst ic. reflexivity.
    + assert (ic = 0)%nat by lia. subst ic. rewrite IH by lia. rewrite <- app_assoc. reflexivity.
Qed.
Lemma row_hits_spec y poly : row_hits y (edges poly) 0 [] = firstn 2 (hits y poly).
Proof. rewrite row_hits_gen by lia. reflexivity. Qed.

Definition col_x (ox dx : Q) (col : Z) : Q := ox + dx * inject_Z col.
Lemma scan_row_spec ox ncol dx y poly x0 x1 col : 0 < dx -> (0 <= col < ncol)%Z -> hits y poly = [x0; x1] ->
  ox <= x0 -> ox <= x1 ->
  (scan_row ox ncol dx y poly col = true <-> Qminb x0 x1 <= col_x ox dx col <= Qmaxb x0 x1).
Proof.
  intros Hdx Hcol Hh H0 H1. unfold scan_row. rewrite row_hits_spec, Hh. cbn [firstn].
  assert (G : forall sx ex, ox <= sx -> ox <= ex ->
    ((slice_bound ncol (Qceiling ((sx - ox) / dx)) <=? col)%Z && (col <? slice_bound ncol (Qtrunc ((ex - ox) / dx) + 1))%Z = true <->
     sx <= col_x ox dx col <= ex)).
  { intros sx ex Hs He.
    assert (Ps : 0 <= (sx - ox) / dx) by (apply Qle_div_mult; lra).
    assert (Pe : 0 <= (ex - ox) / dx) by (apply Qle_div_mult; lra).
    unfold Qtrunc. rewrite (proj2 (Qleb_iff _ _) Pe).
    assert (Cs : (0 <= Qceiling ((sx - ox) / dx))%Z) by (change 0%Z with (Qceiling 0); now apply Qceiling_resp_le).
    assert (Ce : (0 <= Qfloor ((ex - ox) / dx))%Z) by (change 0%Z with (Qfloor 0); now apply Qfloor_resp_le).
    unfold slice_bound. destruct (Z.ltb_spec (Qceiling ((sx - ox) / dx)) 0); [lia|].
    destruct (Z.ltb_spec (Qfloor ((ex - ox) / dx) + 1) 0); [lia|].
    rewrite andb_true_iff, Z.leb_le, Z.ltb_lt.
    transitivity ((Qceiling ((sx - ox) / dx) <= col)%Z /\ (col <= Qfloor ((ex - ox) / dx))%Z); [lia|].
    rewrite Qceiling_iff, Qfloor_iff, Qdiv_mult_le, Qle_div_mult by assumption. unfold col_x. split; intros [A B]; split; lra. }
  unfold Qminb, Qmaxb. destruct (Qltb_spec x1 x0); destruct (Qleb_spec' x0 x1); try lra; apply G; assumption.
Qed.
Lemma scan_row_none ox ncol dx y poly col : (List.length (hits y poly) < 2)%nat -> scan_row ox ncol dx y poly col = false.
Proof.
  intros H. unfold scan_row. rewrite row_hits_spec. destruct (hits y poly) as [|x0 [|x1 [|x2 r]]]; cbn in *; try reflexivity; lia.
Qed.
(** The number of crossings to the right of a point *)
Lemma cn_edge_hit p e : cn_edge p e = crosses (snd p) e && (fst p <b x_at (snd p) (fst e) (snd e)).
Proof.
  destruct e as [a b]. rewrite cn_edge_wedge, up_above, down_above. unfold crosses, above. cbn [fst snd].
  destruct (Qltb_spec (snd p) (snd a)) as [Ha|Ha], (Qltb_spec (snd p) (snd b)) as [Hb|Hb]; cbn [negb andb orb xorb]; try reflexivity.
  - apply bool_eq_iff. rewrite !Qltb_iff. symmetry. apply x_at_down. lra.
  - rewrite orb_false_r. apply bool_eq_iff. rewrite !Qltb_iff. symmetry. apply x_at_up. lra.
Qed.
Lemma crossings_hits p poly : crossings p poly = Z.of_nat (List.length (filter (fun x => fst p <b x) (hits (snd p) poly))).
Proof.
  rewrite crossings_sum. unfold hits. induction (edges poly) as [|e l IH]; [reflexivity|].
  cbn [map zsum fold_right filter]. fold (zsum (map (fun e => b2z (cn_edge p e)) l)). rewrite IH, cn_edge_hit.
  destruct (crosses (snd p) e); cbn [map filter andb]; [|cbn; lia].
  destruct (fst p <b x_at (snd p) (fst e) (snd e)); cbn [b2z List.length]; lia.
Qed.

(** * Affine combinations *)
Lemma x_at_between y a b : crosses y (a, b) = true -> exists t, 0 <= t <= 1 /\ x_at y a b == (1 - t) * fst a + t * fst b /\ y == (1 - t) * snd a + t * snd b.
Proof.
  unfold crosses. cbn [fst snd]. intros H. exists ((y - snd a) / (snd b - snd a)).
  destruct (Qltb_spec y (snd a)) as [Ha|Ha], (Qltb_spec y (snd b)) as [Hb|Hb]; cbn in H; try discriminate.
  - split; [|split].
    + setoid_replace ((y - snd a) / (snd b - snd a)) with ((snd a - y) / (snd a - snd b)) by (field; lra).
      split; [apply Qle_div_mult|apply Qdiv_mult_le]; lra.
    + unfold x_at. field. lra.
    + field. lra.
  - split; [|split].
    + split; [apply Qle_div_mult|apply Qdiv_mult_le]; lra.
    + unfold x_at. field. lra.
    + field. lra.
Qed.
Lemma side_affine a b u v t : side a b ((1 - t) * fst u + t * fst v, (1 - t) * snd u + t * snd v) == (1 - t) * side a b u + t * side a b v.
Proof. unfold side. cbn [fst snd]. ring. Qed.
Lemma side_ext a b u v : fst u == fst v -> snd u == snd v -> side a b u == side a b v.
Proof. intros H1 H2. unfold side. now rewrite H1, H2. Qed.

(** * Convex quadrilaterals *)
Definition ConvexQuad (a b c d : pt) : Prop := 0 < side a b c /\ 0 < side b c d /\ 0 < side c d a /\ 0 < side d a b.
Lemma quad_vertices a b c d : ConvexQuad a b c d -> forall e v, In e (edges [a; b; c; d]) -> In v [a; b; c; d] -> 0 <= side (fst e) (snd e) v.
Proof.
  intros (H1 & H2 & H3 & H4) e v He Hv.
  assert (S : forall x y, side x y x == 0 /\ side x y y == 0) by (intros x y; unfold side; split; ring).
  assert (C : forall x y z, side x y z == side y z x) by (intros x y z; unfold side; ring).
  cbn in He, Hv. destruct He as [<-|[<-|[<-|[<-|[]]]]]; destruct Hv as [<-|[<-|[<-|[<-|[]]]]]; cbn [fst snd];
    try (rewrite (proj1 (S _ _)); lra); try (rewrite (proj2 (S _ _)); lra); try lra;
    try (rewrite C; lra); rewrite <- C; lra.
Qed.
Lemma quad_levels a b c d : side b c d * snd a + side d a b * snd c == side c d a * snd b + side a b c * snd d.
Proof. unfold side. ring. Qed.
Lemma quad_not_alternating a b c d y : ConvexQuad a b c d ->
  ((y <b snd a) = (y <b snd c) -> (y <b snd b) = (y <b snd d) -> (y <b snd a) = (y <b snd b)).
Proof.
  intros (H1 & H2 & H3 & H4) E1 E2. pose proof (quad_levels a b c d) as L.
  assert (A : side a b c + side c d a == side b c d + side d a b) by (unfold side; ring).
  destruct (Qltb_spec y (snd a)), (Qltb_spec y (snd b)); try reflexivity; exfalso; symmetry in E1, E2.
  - apply Qltb_iff in E1. apply Qltb_false in E2. set (s1 := side a b c) in *. set (s2 := side b c d) in *. set (s3 := side c d a) in *. set (s4 := side d a b) in *.
    clearbody s1 s2 s3 s4. assert (s2 * (snd a - y) + s4 * (snd c - y) == s3 * (snd b - y) + s1 * (snd d - y)) by nra. nra.
  - apply Qltb_false in E1. apply Qltb_iff in E2. set (s1 := side a b c) in *. set (s2 := side b c d) in *. set (s3 := side c d a) in *. set (s4 := side d a b) in *.
    clearbody s1 s2 s3 s4. assert (s2 * (snd a - y) + s4 * (snd c - y) == s3 * (snd b - y) + s1 * (snd d - y)) by nra. nra.
Qed.
Lemma quad_hits a b c d y : ConvexQuad a b c d ->
  (List.length (hits y [a; b; c; d]) = 0 \/ List.length (hits y [a; b; c; d]) = 2)%nat.
Proof.
  intros H. pose proof (quad_not_alternating a b c d y H) as N. unfold hits. rewrite map_length.
  cbn [edges last combine filter]. unfold crosses. cbn [fst snd].
  destruct (y <b snd a), (y <b snd b), (y <b snd c), (y <b snd d); cbn [xorb List.length]; auto; exfalso;
    specialize (N eq_refl eq_refl); discriminate.
Qed.
Lemma hit_inside a b c d y x : ConvexQuad a b c d -> In x (hits y [a; b; c; d]) ->
  forall e, In e (edges [a; b; c; d]) -> 0 <= side (fst e) (snd e) (x, y).
Proof.
  intros H Hx e He. unfold hits in Hx. apply in_map_iff in Hx. destruct Hx as ([u v] & <- & Hf). apply filter_In in Hf. destruct Hf as [Huv Hc].
  destruct (x_at_between y u v Hc) as (t & Ht & Ex & Ey). cbn [fst snd].
  rewrite (side_ext _ _ (x_at y u v, y) ((1 - t) * fst u + t * fst v, (1 - t) * snd u + t * snd v)) by assumption.
  rewrite side_affine. apply edges_in in Huv. destruct Huv as [Hu Hv]. cbn [fst snd] in Hu, Hv.
  pose proof (quad_vertices a b c d H e u He Hu). pose proof (quad_vertices a b c d H e v He Hv). nra.
Qed.
Lemma between_inside a b c d y x x0 x1 : ConvexQuad a b c d -> hits y [a; b; c; d] = [x0; x1] ->
  Qminb x0 x1 <= x <= Qmaxb x0 x1 -> forall e, In e (edges [a; b; c; d]) -> 0 <= side (fst e) (snd e) (x, y).
Proof.
  intros H Hh Hx e He.
  assert (G0 : 0 <= side (fst e) (snd e) (x0, y)) by (apply (hit_inside a b c d); [assumption|rewrite Hh; now left|assumption]).
  assert (G1 : 0 <= side (fst e) (snd e) (x1, y)) by (apply (hit_inside a b c d); [assumption|rewrite Hh; right; now left|assumption]).
  assert (G : forall p q, p <= x <= q -> 0 <= side (fst e) (snd e) (p, y) -> 0 <= side (fst e) (snd e) (q, y) -> 0 <= side (fst e) (snd e) (x, y)).
  { intros p q Hpq Gp Gq. unfold side in *. cbn [fst snd] in *.
    set (k := snd (snd e) - snd (fst e)) in *. set (m := (fst (snd e) - fst (fst e)) * (y - snd (fst e))) in *. set (f := fst (fst e)) in *. clearbody k m f.
    destruct (Qlt_le_dec k 0); nra. }
  destruct (Qminb_spec x0 x1) as [[E1 E2]|[E1 E2]], (Qmaxb_spec x0 x1) as [[E3 E4]|[E3 E4]]; try lra; rewrite E2, E4 in Hx;
    [apply (G x0 x1)|apply (G x1 x0)]; assumption.
Qed.
(** A point strictly inside lies strictly between the two crossings of its row. *)
Lemma inside_between a b c d p : (forall e, In e (edges [a; b; c; d]) -> 0 < side (fst e) (snd e) p) -> ConvexQuad a b c d ->
  exists x0 x1, hits (snd p) [a; b; c; d] = [x0; x1] /\ Qminb x0 x1 < fst p < Qmaxb x0 x1.
Proof.
  intros Hin Hc.
  assert (Hne : [a; b; c; d] <> []) by discriminate.
  destruct (enclosed_ups p [a; b; c; d] Hne) as [E W]; [rewrite Forall_forall; exact Hin|].
  assert (D := ups_are_downs p [a; b; c; d]). rewrite <- E in D.
  assert (Up : exists u v, In (u, v) (edges [a; b; c; d]) /\ up p u v = true).
  { destruct (existsb (fun e => up p (fst e) (snd e)) (edges [a; b; c; d])) eqn:Ex.
    - apply existsb_exists in Ex. destruct Ex as ([u v] & Hi & Hu). exists u, v. auto.
    - exfalso. assert (zsum (map (fun e => b2z (up p (fst e) (snd e))) (edges [a; b; c; d])) = 0)%Z; [|lia].
      revert Ex. match goal with |- existsb _ ?l = _ -> _ => generalize l end. intros l. induction l as [|e l IH]; [reflexivity|]. cbn [existsb map]. intros Ex. apply orb_false_iff in Ex.
      destruct Ex as [Ee El]. rewrite Ee. cbn [b2z zsum fold_right]. apply IH in El. unfold zsum in El. lia. }
  assert (Dn : exists u v, In (u, v) (edges [a; b; c; d]) /\ down p u v = true).
  { destruct (existsb (fun e => down p (fst e) (snd e)) (edges [a; b; c; d])) eqn:Ex.
    - apply existsb_exists in Ex. destruct Ex as ([u v] & Hi & Hu). exists u, v. auto.
    - exfalso. assert (zsum (map (fun e => b2z (down p (fst e) (snd e))) (edges [a; b; c; d])) = 0)%Z; [|lia].
      revert Ex. match goal with |- existsb _ ?l = _ -> _ => generalize l end. intros l. induction l as [|e l IH]; [reflexivity|]. cbn [existsb map]. intros Ex. apply orb_false_iff in Ex.
      destruct Ex as [Ee El]. rewrite Ee. cbn [b2z zsum fold_right]. apply IH in El. unfold zsum in El. lia. }
  destruct Up as (u1 & v1 & Hi1 & U1), Dn as (u2 & v2 & Hi2 & U2).
  assert (X1 : fst p < x_at (snd p) u1 v1).
  { apply x_at_up; [|apply (Hin _ Hi1)]. unfold up in U1. apply andb_true_iff in U1. rewrite Qleb_iff, Qltb_iff in U1. lra. }
  assert (X2 : x_at (snd p) u2 v2 < fst p).
  { assert (L : snd v2 < snd u2) by (unfold down in U2; apply andb_true_iff in U2; rewrite Qleb_iff, Qltb_iff in U2; lra).
    destruct (Qlt_le_dec (x_at (snd p) u2 v2) (fst p)) as [|Hge]; [assumption|exfalso]. pose proof (Hin _ Hi2) as S. cbn [fst snd] in S.
    rewrite x_at_swap in Hge by lra. unfold x_at, side in *.
    assert (0 < snd u2 - snd v2) by lra.
    assert (Hd : fst p - fst v2 <= (fst u2 - fst v2) * (snd p - snd v2) / (snd u2 - snd v2)) by lra.
    apply Qle_div_mult in Hd; [|assumption]. nra. }
  assert (M1 : In (x_at (snd p) u1 v1) (hits (snd p) [a; b; c; d])).
  { unfold hits. apply in_map_iff. exists (u1, v1). split; [reflexivity|]. apply filter_In. split; [assumption|].
    rewrite up_above in U1. apply andb_true_iff in U1. destruct U1 as [Ua Ub]. unfold crosses, above in *. cbn [fst snd]. rewrite Ub.
    apply negb_true_iff in Ua. rewrite Ua. reflexivity. }
  assert (M2 : In (x_at (snd p) u2 v2) (hits (snd p) [a; b; c; d])).
  { unfold hits. apply in_map_iff. exists (u2, v2). split; [reflexivity|]. apply filter_In. split; [assumption|].
    rewrite down_above in U2. apply andb_true_iff in U2. destruct U2 as [Ua Ub]. unfold crosses, above in *. cbn [fst snd]. rewrite Ua.
    apply negb_true_iff in Ub. rewrite Ub. reflexivity. }
  destruct (quad_hits a b c d (snd p) Hc) as [L|L].
  - destruct (hits (snd p) [a; b; c; d]); [destruct M1|discriminate].
  - destruct (hits (snd p) [a; b; c; d]) as [|x0 [|x1 [|? ?]]] eqn:Eh; try discriminate. exists x0, x1. split; [reflexivity|].
    set (h1 := x_at (snd p) u1 v1) in *. set (h2 := x_at (snd p) u2 v2) in *. clearbody h1 h2.
    cbn in M1, M2. unfold Qminb, Qmaxb. destruct (Qleb_spec' x0 x1); destruct M1 as [->|[->|[]]], M2 as [->|[->|[]]]; lra.
Qed.
