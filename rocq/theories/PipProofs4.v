(** PipProofs4.v: quadrilaterals of either direction, and the painting of one cell. *)
From Verif Require Import QBase PipModel PipProofs PipProofs2 PipProofs3.
From Coq Require Import Permutation.

Definition SameSide (poly : list pt) (p : pt) : Prop :=
  (forall e, In e (edges poly) -> 0 < side (fst e) (snd e) p) \/ (forall e, In e (edges poly) -> side (fst e) (snd e) p < 0).
Definition SameSideOrOn (poly : list pt) (p : pt) : Prop :=
  (forall e, In e (edges poly) -> 0 <= side (fst e) (snd e) p) \/ (forall e, In e (edges poly) -> side (fst e) (snd e) p <= 0).
Definition Convex4 (a b c d : pt) : Prop := ConvexQuad a b c d \/ ConvexQuad d c b a.

Lemma Qminb_eq x y u v : x == u -> y == v -> Qminb x y == Qminb u v.
Proof. intros H1 H2. unfold Qminb. rewrite H1, H2. destruct (u <=b v); assumption. Qed.
Lemma Qmaxb_eq x y u v : x == u -> y == v -> Qmaxb x y == Qmaxb u v.
Proof. intros H1 H2. unfold Qmaxb. rewrite H1, H2. destruct (u <=b v); assumption. Qed.
Lemma Qminb_comm x y : Qminb x y == Qminb y x.
Proof. unfold Qminb. destruct (Qleb_spec' x y), (Qleb_spec' y x); lra. Qed.
Lemma Qmaxb_comm x y : Qmaxb x y == Qmaxb y x.
Proof. unfold Qmaxb. destruct (Qleb_spec' x y), (Qleb_spec' y x); lra. Qed.

Lemma hits_turned a b c d y r0 r1 : hits y [d; c; b; a] = [r0; r1] ->
  exists x0 x1, hits y [a; b; c; d] = [x0; x1] /\ Qminb x0 x1 == Qminb r0 r1 /\ Qmaxb x0 x1 == Qmaxb r0 r1.
Proof.
  assert (S : forall u v, crosses y (u, v) = true -> x_at y u v == x_at y v u).
  { intros u v H. apply x_at_swap. unfold crosses in H. cbn [fst snd] in H.
    destruct (Qltb_spec y (snd u)), (Qltb_spec y (snd v)); cbn in H; try discriminate; lra. }
  unfold hits. cbn [edges last combine filter]. unfold crosses in *. cbn [fst snd] in *.
  pose proof (S a b) as Sab. pose proof (S b c) as Sbc. pose proof (S c d) as Scd. pose proof (S d a) as Sda. clear S.
  destruct (y <b snd a), (y <b snd b), (y <b snd c), (y <b snd d); cbn [xorb map fst snd] in *; intros [= <- <-];
    (eexists; eexists; split; [reflexivity|split];
      [first [solve [apply Qminb_eq; first [solve [auto] | symmetry; solve [auto]]] | rewrite Qminb_comm; apply Qminb_eq; first [solve [auto] | symmetry; solve [auto]]]
      |first [solve [apply Qmaxb_eq; first [solve [auto] | symmetry; solve [auto]]] | rewrite Qmaxb_comm; apply Qmaxb_eq; first [solve [auto] | symmetry; solve [auto]]]]).
Qed.
Lemma edges4 {A} (a b c d : A) e : In e (edges [a; b; c; d]) <-> e = (d, a) \/ e = (a, b) \/ e = (b, c) \/ e = (c, d).
Proof. cbn. intuition. Qed.
Lemma Qpos_eq (u v : Q) : u == v -> 0 <= u -> 0 <= v.
Proof. lra. Qed.
Lemma Qneg_eq (u v : Q) : u == v -> u < 0 -> v < 0.
Proof. lra. Qed.
Lemma edges4_turn a b c d (P : Q -> Prop) p : (forall x y, x == y -> P x -> P y) ->
  (forall e, In e (edges [d; c; b; a]) -> P (side (fst e) (snd e) p)) -> forall e, In e (edges [a; b; c; d]) -> P (- side (fst e) (snd e) p).
Proof.
  intros HP H e He. apply (HP (side (snd e) (fst e) p)); [apply side_swap|].
  apply (H (snd e, fst e)). apply edges4 in He. apply edges4. destruct He as [->|[->|[->| ->]]]; cbn; auto.
Qed.
Lemma between_inside4 a b c d y x x0 x1 : Convex4 a b c d -> hits y [a; b; c; d] = [x0; x1] ->
  Qminb x0 x1 <= x <= Qmaxb x0 x1 -> SameSideOrOn [a; b; c; d] (x, y).
Proof.
  intros [H|H] Hh Hx.
  - left. now apply (between_inside a b c d y x x0 x1).
  - right. intros e He. destruct (hits_turned d c b a y x0 x1 Hh) as (r0 & r1 & Hr & E1 & E2).
    assert (G : forall e, In e (edges [d; c; b; a]) -> 0 <= side (fst e) (snd e) (x, y)).
    { apply (between_inside d c b a y x r0 r1 H Hr). rewrite E1, E2. assumption. }
    pose proof (edges4_turn a b c d (fun q => 0 <= q) (x, y) Qpos_eq G e He) as F.
    cbn beta in F. lra.
Qed.
Lemma inside_between4 a b c d p : SameSide [a; b; c; d] p -> Convex4 a b c d ->
  exists x0 x1, hits (snd p) [a; b; c; d] = [x0; x1] /\ Qminb x0 x1 < fst p < Qmaxb x0 x1.
Proof.
  assert (Area : forall u v w z, side u v p + side v w p + side w z p + side z u p == side u v w + side w z u) by (intros; unfold side; ring).
  intros HI HC. destruct HI as [HI|HI].
  - apply inside_between; [assumption|]. destruct HC as [HC|HC]; [assumption|exfalso].
    pose proof (HI (d, a)) as H1. pose proof (HI (a, b)) as H2. pose proof (HI (b, c)) as H3. pose proof (HI (c, d)) as H4.
    rewrite !edges4 in *. cbn [fst snd] in *. specialize (H1 ltac:(auto)). specialize (H2 ltac:(auto)). specialize (H3 ltac:(auto)). specialize (H4 ltac:(auto)).
    pose proof (Area a b c d) as A. destruct HC as (C1 & C2 & C3 & C4).
    assert (side a b c == - side c b a) by (unfold side; ring). assert (side c d a == - side a d c) by (unfold side; ring). lra.
  - assert (HC' : ConvexQuad d c b a).
    { destruct HC as [HC|HC]; [exfalso|assumption].
      pose proof (HI (d, a)) as H1. pose proof (HI (a, b)) as H2. pose proof (HI (b, c)) as H3. pose proof (HI (c, d)) as H4.
      rewrite !edges4 in *. cbn [fst snd] in *. specialize (H1 ltac:(auto)). specialize (H2 ltac:(auto)). specialize (H3 ltac:(auto)). specialize (H4 ltac:(auto)).
      pose proof (Area a b c d) as A. destruct HC as (C1 & C2 & C3 & C4). lra. }
    destruct (inside_between d c b a p) as (r0 & r1 & Hr & Hp); [|assumption|].
    + intros e He. pose proof (edges4_turn d c b a (fun q => q < 0) p Qneg_eq HI e He) as F.
      cbn beta in F. lra.
    + destruct (hits_turned a b c d (snd p) r0 r1 Hr) as (x0 & x1 & Hx & E1 & E2). exists x0, x1. split; [assumption|]. rewrite E1, E2. assumption.
Qed.
Lemma hits4 a b c d y : Convex4 a b c d -> (List.length (hits y [a; b; c; d]) = 0 \/ List.length (hits y [a; b; c; d]) = 2)%nat.
Proof.
  intros [H|H]; [now apply quad_hits|]. destruct (quad_hits d c b a y H) as [L|L].
  - left. unfold hits in *. rewrite map_length in *. cbn [edges last combine filter] in *. unfold crosses in *. cbn [fst snd] in *.
    destruct (y <b snd a), (y <b snd b), (y <b snd c), (y <b snd d); cbn [xorb List.length] in *; congruence.
  - right. destruct (hits y [d; c; b; a]) as [|r0 [|r1 [|? ?]]] eqn:E; try discriminate.
    destruct (hits_turned a b c d y r0 r1 E) as (x0 & x1 & -> & _). reflexivity.
Qed.
Lemma hit_bounds poly y x lo hi : (forall v, In v poly -> lo <= fst v <= hi) -> In x (hits y poly) -> lo <= x <= hi.
Proof.
  intros H Hx. unfold hits in Hx. apply in_map_iff in Hx. destruct Hx as ([u v] & <- & Hf). apply filter_In in Hf. destruct Hf as [Huv Hc].
  destruct (x_at_between y u v Hc) as (t & Ht & Ex & _). cbn [fst snd]. rewrite Ex.
  apply edges_in in Huv. cbn [fst snd] in Huv. destruct Huv as [Hu Hv]. pose proof (H u Hu). pose proof (H v Hv). split; nra.
Qed.

(** A row of the scan, for a convex quadrilateral not extending to the left of the origin. *)
Lemma scan_row_sound ox ncol dx y a b c d col : Convex4 a b c d -> 0 < dx -> (forall v, In v [a; b; c; d] -> ox <= fst v) -> (0 <= col < ncol)%Z ->
  scan_row ox ncol dx y [a; b; c; d] col = true -> SameSideOrOn [a; b; c; d] (col_x ox dx col, y).
Proof.
  intros HC Hdx Hv Hcol Hs. destruct (hits4 a b c d y HC) as [L|L]; [rewrite scan_row_none in Hs by lia; discriminate|].
  destruct (hits y [a; b; c; d]) as [|x0 [|x1 [|? ?]]] eqn:E; try discriminate.
  assert (B : forall x, In x (hits y [a; b; c; d]) -> ox <= x).
  { intros x Hx. apply (hit_bounds [a; b; c; d] y x ox (Qmaxb (Qmaxb (fst a) (fst b)) (Qmaxb (fst c) (fst d)))); [|assumption].
    intros v Hin. split; [now apply Hv|]. destruct (Qmaxb_spec (fst a) (fst b)) as [[? ->]|[? ->]], (Qmaxb_spec (fst c) (fst d)) as [[? ->]|[? ->]];
    match goal with |- _ <= Qmaxb ?p ?q => destruct (Qmaxb_spec p q) as [[? ->]|[? ->]] end; cbn in Hin; destruct Hin as [<-|[<-|[<-|[<-|[]]]]]; lra. }
  rewrite (scan_row_spec ox ncol dx y [a; b; c; d] x0 x1 col Hdx Hcol E) in Hs; [|apply B; rewrite E; cbn; auto..].
  now apply (between_inside4 a b c d y _ x0 x1).
Qed.
Lemma scan_row_complete ox ncol dx y a b c d col : Convex4 a b c d -> 0 < dx -> (forall v, In v [a; b; c; d] -> ox <= fst v) -> (0 <= col < ncol)%Z ->
  SameSide [a; b; c; d] (col_x ox dx col, y) -> scan_row ox ncol dx y [a; b; c; d] col = true.
Proof.
  intros HC Hdx Hv Hcol HS. destruct (inside_between4 a b c d _ HS HC) as (x0 & x1 & E & B1). cbn [fst snd] in *.
  assert (B : forall x, In x (hits y [a; b; c; d]) -> ox <= x).
  { intros x Hx. apply (hit_bounds [a; b; c; d] y x ox (Qmaxb (Qmaxb (fst a) (fst b)) (Qmaxb (fst c) (fst d)))); [|assumption].
    intros v Hin. split; [now apply Hv|]. destruct (Qmaxb_spec (fst a) (fst b)) as [[? ->]|[? ->]], (Qmaxb_spec (fst c) (fst d)) as [[? ->]|[? ->]];
    match goal with |- _ <= Qmaxb ?p ?q => destruct (Qmaxb_spec p q) as [[? ->]|[? ->]] end; cbn in Hin; destruct Hin as [<-|[<-|[<-|[<-|[]]]]]; lra. }
  rewrite (scan_row_spec ox ncol dx y [a; b; c; d] x0 x1 col Hdx Hcol E); [lra|apply B; rewrite E; cbn; auto..].
Qed.

(** * Bounding values *)
Lemma fold_min l x : (forall v, In v (x :: l) -> fold_left Qminb l x <= v) /\ exists v, In v (x :: l) /\ fold_left Qminb l x == v.
Proof.
  revert x. induction l as [|z l IH]; intros x; cbn [fold_left].
  - split; [intros v [->|[]]; lra|]. exists x. split; [now left|reflexivity].
  - destruct (IH (Qminb x z)) as [H1 (v & Hv & Ev)]. destruct (Qminb_spec x z) as [[L E]|[L E]]; rewrite E in *.
    + split.
      * intros u [->|[->|Hu]]; [apply H1; now left| |apply H1; now right]. specialize (H1 x (or_introl eq_refl)). lra.
      * exists v. split; [destruct Hv as [->|Hv]; [now left|right; now right]|assumption].
    + split.
      * intros u [->|[->|Hu]]; [|apply H1; now left|apply H1; now right]. specialize (H1 z (or_introl eq_refl)). lra.
      * exists v. split; [destruct Hv as [->|Hv]; [right; now left|right; now right]|assumption].
Qed.
Lemma fold_max l x : (forall v, In v (x :: l) -> v <= fold_left Qmaxb l x) /\ exists v, In v (x :: l) /\ fold_left Qmaxb l x == v.
Proof.
  revert x. induction l as [|z l IH]; intros x; cbn [fold_left].
  - split; [intros v [->|[]]; lra|]. exists x. split; [now left|reflexivity].
  - destruct (IH (Qmaxb x z)) as [H1 (v & Hv & Ev)]. destruct (Qmaxb_spec x z) as [[L E]|[L E]]; rewrite E in *.
    + split.
      * intros u [->|[->|Hu]]; [|apply H1; now left|apply H1; now right]. specialize (H1 z (or_introl eq_refl)). lra.
      * exists v. split; [destruct Hv as [->|Hv]; [right; now left|right; now right]|assumption].
    + split.
      * intros u [->|[->|Hu]]; [apply H1; now left| |apply H1; now right]. specialize (H1 x (or_introl eq_refl)). lra.
      * exists v. split; [destruct Hv as [->|Hv]; [now left|right; now right]|assumption].
Qed.
Lemma qmin_le l x : In x l -> qmin_of l <= x.
Proof. destruct l as [|z l]; [intros []|]. apply fold_min. Qed.
Lemma qmax_ge l x : In x l -> x <= qmax_of l.
Proof. destruct l as [|z l]; [intros []|]. apply fold_max. Qed.
Lemma qmin_glb l lo : l <> [] -> (forall x, In x l -> lo <= x) -> lo <= qmin_of l.
Proof. destruct l as [|z l]; [congruence|]. intros _ H. destruct (fold_min l z) as [_ (v & Hv & E)]. cbn [qmin_of]. rewrite E. now apply H. Qed.
Lemma qmax_lub l hi : l <> [] -> (forall x, In x l -> x <= hi) -> qmax_of l <= hi.
Proof. destruct l as [|z l]; [congruence|]. intros _ H. destruct (fold_max l z) as [_ (v & Hv & E)]. cbn [qmax_of]. rewrite E. now apply H. Qed.
Lemma qmin_lt l x : l <> [] -> qmin_of l < x -> exists v, In v l /\ v < x.
Proof. destruct l as [|z l]; [congruence|]. intros _ H. destruct (fold_min l z) as [_ (v & Hv & E)]. cbn [qmin_of] in H. exists v. split; [assumption|lra]. Qed.

Lemma inside_box a b c d p : SameSide [a; b; c; d] p -> Convex4 a b c d ->
  qmin_of (map fst [a; b; c; d]) <= fst p < qmax_of (map fst [a; b; c; d]) /\ qmin_of (map snd [a; b; c; d]) <= snd p < qmax_of (map snd [a; b; c; d]).
Proof.
  intros HS HC. destruct (inside_between4 a b c d p HS HC) as (x0 & x1 & E & B).
  assert (X : forall x, In x (hits (snd p) [a; b; c; d]) -> qmin_of (map fst [a; b; c; d]) <= x <= qmax_of (map fst [a; b; c; d])).
  { intros x Hx. apply (hit_bounds [a; b; c; d] (snd p) x); [|assumption]. intros v Hv. split; [apply qmin_le|apply qmax_ge]; now apply in_map. }
  pose proof (X x0 ltac:(rewrite E; cbn; auto)) as X0. pose proof (X x1 ltac:(rewrite E; cbn; auto)) as X1.
  split.
  - destruct (Qminb_spec x0 x1) as [[? E1]|[? E1]], (Qmaxb_spec x0 x1) as [[? E2]|[? E2]]; rewrite E1, E2 in B; lra.
  - assert (Hin : In x0 (hits (snd p) [a; b; c; d])) by (rewrite E; cbn; auto). unfold hits in Hin. apply in_map_iff in Hin.
    destruct Hin as ([u v] & _ & Hf). apply filter_In in Hf. destruct Hf as [Huv Hc]. apply edges_in in Huv. cbn [fst snd] in Huv. destruct Huv as [Hu Hv].
    apply (in_map snd) in Hu. apply (in_map snd) in Hv. pose proof (qmin_le _ _ Hu). pose proof (qmin_le _ _ Hv). pose proof (qmax_ge _ _ Hu). pose proof (qmax_ge _ _ Hv).
    unfold crosses in Hc. cbn [fst snd] in Hc. destruct (Qltb_spec (snd p) (snd u)), (Qltb_spec (snd p) (snd v)); cbn in Hc; try discriminate; split; lra.
Qed.

(** * Painting one cell *)
Definition pixel_centre (origin : pt) (dx dy : Q) (row col : Z) : pt :=
  (fst origin + dx * (inject_Z col + (1 # 2)), snd origin + dy * (inject_Z row + (1 # 2))).
(** the cell keeps at least half a pixel away from the edges of the map *)
Definition WellWithin (origin : pt) (width height : Z) (dx dy : Q) (poly : list pt) : Prop :=
  forall v, In v poly ->
    fst origin + (1 # 2) * dx <= fst v <= fst origin + dx * (inject_Z width - (1 # 2)) /\
    snd origin + (1 # 2) * dy <= snd v <= snd origin + dy * (inject_Z height - (1 # 2)).

Lemma trunc_pos q : 0 <= q -> Qtrunc q = Qfloor q /\ (0 <= Qfloor q)%Z.
Proof. intros H. unfold Qtrunc. rewrite (proj2 (Qleb_iff _ _) H). split; [reflexivity|]. change 0%Z with (Qfloor 0). now apply Qfloor_resp_le. Qed.
(** one axis of the pixel box: offset and extent, in pixels *)
Lemma axis_fits lo hi o d w : 0 < d -> lo <= hi -> o + (1 # 2) * d <= lo -> hi <= o + d * (inject_Z w - (1 # 2)) ->
  let p := Qtrunc ((lo - (1 # 2) * d - o) / d) in let e := Qceiling ((hi + (1 # 2) * d - (lo - (1 # 2) * d)) / d) in
  (0 <= p)%Z /\ (p + e <= w)%Z /\ o + d * inject_Z p + (1 # 2) * d <= lo /\
  (forall z, lo <= o + d * (inject_Z z + (1 # 2)) < hi -> (p <= z < p + e)%Z).
Proof.
  intros Hd Hlh Hlo Hhi p e. destruct (trunc_pos ((lo - (1 # 2) * d - o) / d)) as [E P]; [apply Qle_div_mult; [assumption|lra]|].
  assert (F1 : inject_Z p <= (lo - (1 # 2) * d - o) / d) by (unfold p; rewrite E; apply Qfloor_le).
  assert (F2 : (lo - (1 # 2) * d - o) / d < inject_Z (p + 1)) by (unfold p; rewrite E; apply Qlt_floor).
  apply Qle_div_mult in F1; [|assumption]. apply Qdiv_mult_lt in F2; [|assumption]. rewrite inject_Z_plus in F2. change (inject_Z 1) with 1 in F2.
  assert (C1 : (hi + (1 # 2) * d - (lo - (1 # 2) * d)) / d <= inject_Z e) by (unfold e; apply Qle_ceiling).
  assert (C2 : inject_Z e - 1 < (hi + (1 # 2) * d - (lo - (1 # 2) * d)) / d) by (setoid_replace (inject_Z e - 1) with (inject_Z (e - 1)) by (unfold Z.sub; rewrite inject_Z_plus; reflexivity); unfold e; apply Qceiling_lt).
  apply Qdiv_mult_le in C1; [|assumption]. apply Qlt_div_mult in C2; [|assumption].
  split; [unfold p; rewrite E; assumption|]. split; [|split].
  - assert (G : inject_Z (p + e) < inject_Z (w + 1)); [|rewrite <- Zlt_Qlt in G; lia]. rewrite !inject_Z_plus. change (inject_Z 1) with 1.
    set (pq := inject_Z p) in *. set (eq := inject_Z e) in *. set (wq := inject_Z w) in *. clearbody pq eq wq. nra.
  - lra.
  - intros z Hz. set (pq := inject_Z p) in *. set (eq := inject_Z e) in *. split.
    + assert (G : inject_Z p < inject_Z (z + 1)); [|rewrite <- Zlt_Qlt in G; lia]. rewrite !inject_Z_plus. change (inject_Z 1) with 1. fold pq.
      set (zq := inject_Z z) in *. clearbody pq eq zq. nra.
    + rewrite Zlt_Qlt, inject_Z_plus. fold pq eq. set (zq := inject_Z z) in *. clearbody pq eq zq. nra.
Qed.
Lemma cell_poly_eta hp : cell_poly hp = [hp false false; hp false true; hp true true; hp true false].
Proof. reflexivity. Qed.
Definition CellConvex (hp : bool -> bool -> pt) : Prop := Convex4 (hp false false) (hp false true) (hp true true) (hp true false).

Lemma paint_outcome origin w h dx dy m ji hp row col : 0 < dx -> 0 < dy -> CellConvex hp -> WellWithin origin w h dx dy (cell_poly hp) ->
  (SameSide (cell_poly hp) (pixel_centre origin dx dy row col) -> paint_cell origin w h dx dy m (ji, Some hp) row col = Some ji) /\
  (paint_cell origin w h dx dy m (ji, Some hp) row col = m row col \/
   paint_cell origin w h dx dy m (ji, Some hp) row col = Some ji /\ SameSideOrOn (cell_poly hp) (pixel_centre origin dx dy row col) /\ (0 <= row < h)%Z /\ (0 <= col < w)%Z).
Proof.
  intros Hdx Hdy HC HW.
  assert (Hne : forall f : pt -> Q, map f (cell_poly hp) <> []) by (intros f; discriminate).
  unfold paint_cell. cbn [fst snd].
  set (xlo := qmin_of (map fst (cell_poly hp))). set (xhi := qmax_of (map fst (cell_poly hp))).
  set (ylo := qmin_of (map snd (cell_poly hp))). set (yhi := qmax_of (map snd (cell_poly hp))).
  assert (Xl : xlo <= xhi) by (apply Qle_trans with (fst (hp false false)); [apply qmin_le|apply qmax_ge]; apply in_map; now left).
  assert (Yl : ylo <= yhi) by (apply Qle_trans with (snd (hp false false)); [apply qmin_le|apply qmax_ge]; apply in_map; now left).
  assert (X1 : fst origin + (1 # 2) * dx <= xlo) by (apply qmin_glb; [apply Hne|]; intros x Hx; apply in_map_iff in Hx; destruct Hx as (v & <- & Hv); apply (HW v Hv)).
  assert (X2 : xhi <= fst origin + dx * (inject_Z w - (1 # 2))) by (apply qmax_lub; [apply Hne|]; intros x Hx; apply in_map_iff in Hx; destruct Hx as (v & <- & Hv); apply (HW v Hv)).
  assert (Y1 : snd origin + (1 # 2) * dy <= ylo) by (apply qmin_glb; [apply Hne|]; intros x Hx; apply in_map_iff in Hx; destruct Hx as (v & <- & Hv); apply (HW v Hv)).
  assert (Y2 : yhi <= snd origin + dy * (inject_Z h - (1 # 2))) by (apply qmax_lub; [apply Hne|]; intros x Hx; apply in_map_iff in Hx; destruct Hx as (v & <- & Hv); apply (HW v Hv)).
  destruct (axis_fits xlo xhi (fst origin) dx w Hdx Xl X1 X2) as (Px & Pe & Po & Pz).
  destruct (axis_fits ylo yhi (snd origin) dy h Hdy Yl Y1 Y2) as (Qx & Qe & Qo & Qz).
  set (px := Qtrunc ((xlo - (1 # 2) * dx - fst origin) / dx)) in *. set (ex := Qceiling ((xhi + (1 # 2) * dx - (xlo - (1 # 2) * dx)) / dx)) in *.
  set (py := Qtrunc ((ylo - (1 # 2) * dy - snd origin) / dy)) in *. set (ey := Qceiling ((yhi + (1 # 2) * dy - (ylo - (1 # 2) * dy)) / dy)) in *.
  assert (B1 : ((px <? 0)%Z || (py <? 0)%Z) = false) by (destruct (Z.ltb_spec px 0), (Z.ltb_spec py 0); cbn; lia || reflexivity).
  assert (B2 : ((w <? px + ex)%Z || (h <? py + ey)%Z) = false) by (destruct (Z.ltb_spec w (px + ex)), (Z.ltb_spec h (py + ey)); cbn; lia || reflexivity).
  rewrite B1, B2. clear B1 B2.
  assert (Cx : col_x (fst origin + dx * inject_Z px + (1 # 2) * dx) dx (col - px) == fst origin + dx * (inject_Z col + (1 # 2))).
  { unfold col_x. unfold Z.sub. rewrite inject_Z_plus, inject_Z_opp. ring. }
  assert (Cy : snd origin + dy * inject_Z py + (1 # 2) * dy + dy * inject_Z (row - py) == snd origin + dy * (inject_Z row + (1 # 2))).
  { unfold Z.sub. rewrite inject_Z_plus, inject_Z_opp. ring. }
  assert (Vx : forall v, In v (cell_poly hp) -> fst origin + dx * inject_Z px + (1 # 2) * dx <= fst v).
  { intros v Hv. apply Qle_trans with xlo; [assumption|]. apply qmin_le. now apply in_map. }
  set (oy := snd origin + dy * inject_Z py + (1 # 2) * dy + dy * inject_Z (row - py)) in *.
  assert (SS : forall e : pt * pt, side (fst e) (snd e) (col_x (fst origin + dx * inject_Z px + (1 # 2) * dx) dx (col - px), oy) ==
                     side (fst e) (snd e) (pixel_centre origin dx dy row col)) by (intros e; apply side_ext; assumption).
  split.
  - intros HS. destruct (inside_box _ _ _ _ _ HS HC) as [[BX1 BX2] [BY1 BY2]]. cbn [pixel_centre fst snd] in BX1, BX2, BY1, BY2.
    pose proof (Pz col (conj BX1 BX2)) as [R1 R2]. pose proof (Qz row (conj BY1 BY2)) as [R3 R4].
    rewrite (proj2 (Z.leb_le py row)), (proj2 (Z.ltb_lt row (py + ey))), (proj2 (Z.leb_le px col)), (proj2 (Z.ltb_lt col (px + ex))) by assumption.
    cbn [andb]. rewrite cell_poly_eta. rewrite scan_row_complete; [reflexivity|exact HC|exact Hdx|exact Vx|lia|].
    destruct HS as [HS|HS]; [left|right]; intros e He; specialize (HS e He); specialize (SS e); lra.
  - destruct ((py <=? row)%Z && (row <? py + ey)%Z && (px <=? col)%Z && (col <? px + ex)%Z) eqn:R; cbn [andb]; [|now left].
    rewrite !andb_true_iff, !Z.leb_le, !Z.ltb_lt in R. destruct R as [[[R1 R2] R3] R4].
    rewrite cell_poly_eta at 1. rewrite cell_poly_eta at 1.
    destruct (scan_row (fst origin + dx * inject_Z px + (1 # 2) * dx) ex dx oy [hp false false; hp false true; hp true true; hp true false] (col - px)) eqn:Sc; [|now left].
    right. split; [reflexivity|]. split; [|lia].
    apply scan_row_sound in Sc; [|exact HC|exact Hdx|exact Vx|lia].
    rewrite cell_poly_eta. destruct Sc as [Sc|Sc]; [left|right]; intros e He; specialize (Sc e He); specialize (SS e); lra.
Qed.
