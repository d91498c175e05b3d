(** PointsProps.v: the corners, centres, horizons and cross sections a grid gives are those of its
    pillars and rows of points. *)
From Coq Require Import Lqa.
From Verif Require Import Base QBase IntersectModel IntersectProofs PillarModel PillarProofs PointsModel PointsProofs.
Open Scope Z_scope.

Local Ltac bits := repeat match goal with H : bit _ |- _ => destruct H as [-> | ->] end.
Local Ltac pick := cbn [eight four Z.eqb Pos.eqb]; unfold eight, four; cbn [Z.eqb Pos.eqb].

(** The whole array of corner points has at [k, j, i, kp, jp, ip] the point of that corner. *)
Theorem C85_corners : forall g xs, Pillars g xs -> Layers g ->
  exists cp, all_corner_points g = Ok cp /\
    forall k j i kp jp ip, IsCell g k j i -> bit kp -> bit jp -> bit ip -> Corner g xs k j i kp jp ip (cp k j i kp jp ip).
Proof.
  intros g xs P La. destruct (map_ok g xs P) as (m & Em & U & N).
  unfold all_corner_points. rewrite Em. cbn [bind].
  destruct (g_has_split (gg g)) eqn:HS, (has_gaps g) eqn:HG; eexists; (split; [reflexivity|]);
    intros k j i kp jp ip (Hk & Hj & Hi) Bk Bj Bi; exists (m j i jp ip); (split; [apply U; assumption|]);
    rewrite ?(raw_spec g k La Hk), ?(row_no_gaps g k HG), ?pts4_pillar; rewrite ?(N eq_refl j i jp ip Bj Bi);
    bits; pick; rewrite ?Z.add_0_r; reflexivity.
Qed.
Print Assumptions C85_corners.

(** Asking for one point of one cell gives the same, when no pillar is flagged as undefined. *)
Theorem C85_point : forall g xs, Pillars g xs -> Layers g -> g_pdef g = None ->
  forall k j i kp jp ip, IsCell g k j i -> bit kp -> bit jp -> bit ip ->
    (forall d, g_cdef g = Some d -> d k j i = true) ->
    exists p, point g k j i kp jp ip = Ok (Some p) /\ Corner g xs k j i kp jp ip p.
Proof.
  intros g xs P La Pd k j i kp jp ip (Hk & Hj & Hi) Bk Bj Bi D. destruct (map_ok g xs P) as (m & Em & U & N).
  exists (g_pts g (top_row g k + kp) (m j i jp ip)). split; [|exists (m j i jp ip); split; [apply U; assumption|reflexivity]].
  unfold point. replace (match g_cdef g with Some d => negb (d k j i) | None => false end) with false
    by (destruct (g_cdef g) as [d|]; [rewrite (D d eq_refl)|]; reflexivity).
  rewrite (raw_spec g k La Hk). unfold point_raw2, point_raw3. rewrite Pd, Em. cbn [bind].
  destruct (g_has_split (gg g)) eqn:HS; [reflexivity|]. rewrite pts4_pillar, (N eq_refl) by assumption. reflexivity.
Qed.
Print Assumptions C85_point.

(** A cell whose geometry is flagged as undefined has no points. *)
Theorem C85_undefined_cell : forall g k j i kp jp ip d, g_cdef g = Some d -> d k j i = false ->
  point g k j i kp jp ip = Ok None /\ corner_points g k j i = Ok None /\ centre_point g k j i = Ok None.
Proof.
  intros g k j i kp jp ip d D F. unfold centre_point, corner_points, point. rewrite D, F. repeat split.
Qed.
Print Assumptions C85_undefined_cell.

(** Without faults a point on a pillar flagged as undefined is missing, except in the last row of
    pillars, which is not tested. *)
Theorem C85_undefined_pillar : forall g, g_has_split (gg g) = false -> g_cdef g = None -> Layers g ->
  forall d, g_pdef g = Some d -> forall k j i kp jp ip, IsCell g k j i -> bit jp ->
    point g k j i kp jp ip =
      Ok (if (j + jp <? nj g) && negb (d (j + jp) (i + ip)) then None
          else Some (g_pts g (top_row g k + kp) (pillar (ni g) (j + jp) (i + ip)))).
Proof.
  intros g HS C La d D k j i kp jp ip (Hk & Hj & Hi) B. unfold point. rewrite C, HS. unfold point_raw3. rewrite D, (raw_spec g k La Hk).
  destruct ((j + jp <? nj g) && negb (d (j + jp) (i + ip))); reflexivity.
Qed.
Print Assumptions C85_undefined_pillar.

(** The corner points of one cell are those of the whole array. *)
Theorem C85_one_cell : forall g xs, Pillars g xs -> Layers g -> g_pdef g = None -> g_cdef g = None ->
  forall cp, all_corner_points g = Ok cp ->
  forall k j i, IsCell g k j i -> exists one, corner_points g k j i = Ok (Some one) /\
    forall kp jp ip, bit kp -> bit jp -> bit ip -> one kp jp ip = Some (cp k j i kp jp ip).
Proof.
  intros g xs P La Pd Cd cp E k j i H.
  destruct (C85_corners g xs P La) as (cp' & E' & A). rewrite E in E'. injection E' as <-.
  assert (S1 : forall kp jp ip, bit kp -> bit jp -> bit ip -> point g k j i kp jp ip = Ok (Some (cp k j i kp jp ip))).
  { intros kp jp ip B1 B2 B3. destruct (C85_point g xs P La Pd k j i kp jp ip H B1 B2 B3) as (p & Ep & n & Un & ->).
    { intros d D. rewrite Cd in D. discriminate D. }
    rewrite Ep. destruct (A k j i kp jp ip H B1 B2 B3) as (n' & Un' & ->). rewrite (uses_functional _ _ _ _ _ _ _ _ _ Un Un'). reflexivity. }
  unfold corner_points, one_cell_cp. rewrite Cd.
  rewrite !S1 by (unfold bit; tauto). cbn [bind]. eexists. split; [reflexivity|].
  intros kp jp ip B1 B2 B3. bits; reflexivity.
Qed.
Print Assumptions C85_one_cell.

(** Depths of corners, in either order of the axes, are those of the corner points. *)
Theorem C85_depths : forall g xs, Pillars g xs -> Layers g ->
  exists z l, z_corner_point_depths g Cellular = Ok z /\ z_corner_point_depths g Linear = Ok l /\
    forall k j i kp jp ip, IsCell g k j i -> bit kp -> bit jp -> bit ip ->
      exists p, Corner g xs k j i kp jp ip p /\ z k j i kp jp ip = vz p /\ l k kp j jp i ip = vz p.
Proof.
  intros g xs P La. destruct (map_ok g xs P) as (m & Em & U & N).
  unfold z_corner_point_depths, z_cellular. rewrite Em. cbn [bind].
  destruct (g_has_split (gg g)) eqn:HS, (has_gaps g) eqn:HG; do 2 eexists; (split; [reflexivity|]); (split; [reflexivity|]);
    intros k j i kp jp ip (Hk & Hj & Hi) Bk Bj Bi; exists (g_pts g (top_row g k + kp) (m j i jp ip));
    (split; [exists (m j i jp ip); split; [apply U; assumption|reflexivity]|]);
    rewrite ?(raw_spec g k La Hk), ?(row_no_gaps g k HG), ?pts4_pillar; rewrite ?(N eq_refl j i jp ip Bj Bi);
    bits; pick; rewrite ?Z.add_0_r; split; reflexivity.
Qed.
Print Assumptions C85_depths.

Lemma same_vsum8 a b c d e f h i l : List.length l = 8%nat ->
  Same (fold_right vadd (V 0 0 0) l) (vadd (vadd (vadd (vadd (vadd (vadd (vadd a b) c) d) e) f) h) i) ->
  Same (vsum8 a b c d e f h i) (vmean l).
Proof.
  intros L (A & B & C). unfold vmean, vsum8. rewrite L. unfold Same in *. cbn [vscale vx vy vz]. rewrite A, B, C. repeat split; reflexivity.
Qed.
Definition corners_of (p : Z -> Z -> Z -> vec) : list vec :=
  [p 0 0 0; p 0 0 1; p 0 1 0; p 0 1 1; p 1 0 0; p 1 0 1; p 1 1 0; p 1 1 1].
(** Centre points, for the whole grid or for one cell, are the means of the eight corners. *)
Theorem C85_centres : forall g xs, Pillars g xs -> Layers g ->
  exists cs, all_centre_points g = Ok cs /\
    forall k j i, IsCell g k j i -> exists p,
      (forall kp jp ip, bit kp -> bit jp -> bit ip -> Corner g xs k j i kp jp ip (p kp jp ip)) /\
      Same (cs k j i) (vmean (corners_of p)) /\
      (g_pdef g = None -> g_cdef g = None -> exists c, centre_point g k j i = Ok (Some (Some c)) /\ Same c (vmean (corners_of p))).
Proof.
  intros g xs P La. destruct (map_ok g xs P) as (m & Em & U & N).
  assert (A : exists cs, all_centre_points g = Ok cs /\ forall k j i, IsCell g k j i ->
     Same (cs k j i) (vmean (corners_of (fun kp jp ip => g_pts g (top_row g k + kp) (m j i jp ip))))).
  { unfold all_centre_points. rewrite Em. cbn [bind].
    destruct (g_has_split (gg g)) eqn:HS, (has_gaps g) eqn:HG; eexists; (split; [reflexivity|]);
      intros k j i (Hk & Hj & Hi); apply same_vsum8; try reflexivity;
      rewrite ?(raw_spec g k La Hk), ?(row_no_gaps g k HG), ?pts4_pillar; unfold corners_of;
      rewrite ?(N eq_refl j i) by (unfold bit; tauto); rewrite ?Z.add_0_r;
      unfold Same; cbn [fold_right vadd vx vy vz]; repeat split; ring. }
  destruct A as (cs & E & A). exists cs. split; [exact E|]. intros k j i H.
  assert (C : forall kp jp ip, bit kp -> bit jp -> bit ip -> Corner g xs k j i kp jp ip (g_pts g (top_row g k + kp) (m j i jp ip))).
  { intros kp jp ip B1 B2 B3. exists (m j i jp ip). split; [|reflexivity]. destruct H as (Hk & Hj & Hi). apply U; assumption. }
  eexists. split; [exact C|]. split; [apply A; exact H|]. intros Pd Cd.
  destruct (C85_corners g xs P La) as (cp & Ecp & Acp).
  destruct (C85_one_cell g xs P La Pd Cd cp Ecp k j i H) as (one & Eo & Ao).
  assert (Q : forall kp jp ip, bit kp -> bit jp -> bit ip -> one kp jp ip = Some (g_pts g (top_row g k + kp) (m j i jp ip))).
  { intros kp jp ip B1 B2 B3. rewrite Ao by assumption. destruct (Acp k j i kp jp ip H B1 B2 B3) as (n & Un & ->).
    destruct (C kp jp ip B1 B2 B3) as (n' & Un' & ->). rewrite (uses_functional _ _ _ _ _ _ _ _ _ Un Un'). reflexivity. }
  unfold centre_point. rewrite Eo. cbn [bind]. rewrite !Q by (unfold bit; tauto). eexists. split; [reflexivity|].
  apply same_vsum8; [reflexivity|]. unfold Same, corners_of. cbn [fold_right vadd vx vy vz]. repeat split; ring.
Qed.
Print Assumptions C85_centres.

(** Cells one above the other share their corners exactly when no gap is flagged between them:
    the base of the upper is then the top of the lower, and otherwise uses the row before. *)
Theorem C85_gaps : forall g, Layers g -> forall k, 0 <= k < g_nk g - 1 ->
  top_row g (k + 1) = top_row g k + 1 +
    (match g_gap_after g with Some l => if nth (Z.to_nat k) l false then 1 else 0 | None => 0 end).
Proof.
  intros g (Hn & L) k H. unfold top_row, gaps_above. destruct (g_gap_after g) as [l|]; [|lia].
  specialize (L _ eq_refl). replace (Z.to_nat (k + 1)) with (S (Z.to_nat k)) by lia.
  assert (Hk : (Z.to_nat k < List.length l)%nat) by lia. clear L.
  assert (G : forall n (q : list bool), (n < List.length q)%nat ->
     count_occ Bool.bool_dec (firstn (S n) q) true = (count_occ Bool.bool_dec (firstn n q) true + (if nth n q false then 1 else 0))%nat).
  { induction n as [|n IH]; intros [|b q] Q; cbn [List.length] in Q; try lia.
    - cbn. destruct b; reflexivity.
    - specialize (IH q ltac:(lia)). change (firstn (S (S n)) (b :: q)) with (b :: firstn (S n) q).
      change (firstn (S n) (b :: q)) with (b :: firstn n q). cbn [nth].
      destruct b; [rewrite !count_occ_cons_eq by reflexivity|rewrite !count_occ_cons_neq by discriminate]; lia. }
  rewrite (G _ _ Hk). destruct (nth (Z.to_nat k) l false); lia.
Qed.
Print Assumptions C85_gaps.

Theorem C85_stacked : forall g xs k j i jp ip p q, Layers g -> 0 <= k < g_nk g - 1 ->
  (forall l, g_gap_after g = Some l -> nth (Z.to_nat k) l false = false) ->
  Corner g xs k j i 1 jp ip p -> Corner g xs (k + 1) j i 0 jp ip q -> p = q.
Proof.
  intros g xs k j i jp ip p q La H G (n & U & ->) (n' & U' & ->). rewrite (uses_functional _ _ _ _ _ _ _ _ _ U U').
  rewrite (C85_gaps g La k H). destruct (g_gap_after g) as [l|]; [rewrite (G l eq_refl)|]; f_equal; lia.
Qed.
Print Assumptions C85_stacked.

(** Cells of one layer meeting at a pillar which is not split have the same points there. *)
Theorem C85_side_by_side : forall g xs k j i jp ip j' i' jp' ip' kp p q,
  j + jp = j' + jp' -> i + ip = i' + ip' -> ~ IsSplitPillar (ni g) xs (j + jp) (i + ip) ->
  Corner g xs k j i kp jp ip p -> Corner g xs k j' i' kp jp' ip' q -> p = q.
Proof.
  intros g xs k j i jp ip j' i' jp' ip' kp p q E1 E2 NS (n & U & ->) (n' & U' & ->).
  rewrite (uses_unsplit _ _ _ _ _ _ _ _ NS U). rewrite <- E1, <- E2 in U'. rewrite (uses_unsplit _ _ _ _ _ _ _ _ NS U'). reflexivity.
Qed.
Print Assumptions C85_side_by_side.

(** A horizon as used by each column has the corners of the cells of the layer, at top or base. *)
Theorem C85_horizon : forall g xs, Pillars g xs -> Layers g -> forall k kp, 0 <= k < g_nk g -> bit kp ->
  exists h, split_horizon_points g k kp = Ok h /\
    forall j i jp ip, 0 <= j < nj g -> 0 <= i < ni g -> bit jp -> bit ip -> Corner g xs k j i kp jp ip (h j i jp ip).
Proof.
  intros g xs P La k kp Hk Bk. destruct (map_ok g xs P) as (m & Em & U & N).
  assert (R : horizon_row g k kp = top_row g k + kp).
  { unfold horizon_row. destruct (has_gaps g) eqn:HG; [rewrite (raw_spec g k La Hk)|rewrite (row_no_gaps g k HG)]; reflexivity. }
  unfold split_horizon_points. rewrite Em, R. cbn [bind].
  destruct (g_has_split (gg g)) eqn:HS; eexists; (split; [reflexivity|]); intros j i jp ip Hj Hi Bj Bi;
    exists (m j i jp ip); (split; [apply U; assumption|]); rewrite ?pts4_pillar; rewrite ?(N eq_refl j i jp ip Bj Bi);
    bits; pick; rewrite ?Z.add_0_r; reflexivity.
Qed.
Print Assumptions C85_horizon.

(** A range of horizons has the rows of points from the first to the last asked for. *)
Theorem C85_horizons : forall g xs, Pillars g xs -> forall lo hi,
  (forall a, lo = Some a -> 0 <= a <= nk_plus_k_gaps g) ->
  (forall b, hi = Some b -> (match lo with Some a => a | None => 0 end) <= b <= nk_plus_k_gaps g) ->
  exists h, split_horizons_points g lo hi = Ok h /\
    forall n j i jp ip, 0 <= j < nj g -> 0 <= i < ni g -> bit jp -> bit ip ->
      OnPillar g xs ((match lo with Some a => a | None => 0 end) + n) (j + jp) (i + ip) j i (h n j i jp ip).
Proof.
  intros g xs P lo hi Hlo Hhi. destruct (map_ok g xs P) as (m & Em & U & N). unfold split_horizons_points.
  replace (match lo with None => Ok 0 | Some a => do _ <- assert_ ((0 <=? a) && (a <=? nk_plus_k_gaps g)); Ok a end)
    with (Ok (match lo with Some a => a | None => 0 end)).
  2:{ destruct lo as [a|]; [|reflexivity]. specialize (Hlo _ eq_refl). rewrite assert_true by lia. reflexivity. }
  cbn [bind]. set (a := match lo with Some a => a | None => 0 end) in *.
  assert (Eh : exists b, match hi with None => Ok (nk_plus_k_gaps g) | Some b => do _ <- assert_ ((a <=? b) && (b <=? nk_plus_k_gaps g)); Ok b end = Ok b).
  { destruct hi as [b|]; [|eexists; reflexivity]. specialize (Hhi _ eq_refl). rewrite assert_true by lia. eexists; reflexivity. }
  destruct Eh as (b & ->). cbn [bind]. rewrite Em. cbn [bind].
  destruct (g_has_split (gg g)) eqn:HS; eexists; (split; [reflexivity|]); intros n j i jp ip Hj Hi Bj Bi;
    exists (m j i jp ip); (split; [apply U; assumption|]); rewrite ?pts4_pillar; rewrite ?(N eq_refl j i jp ip Bj Bi);
    bits; cbv zeta; pick; rewrite ?Z.add_0_r; reflexivity.
Qed.
Print Assumptions C85_horizons.
Theorem C85_horizons_bad_range : forall g lo hi a b, (lo = Some a /\ ~ 0 <= a <= nk_plus_k_gaps g) \/ (lo = None /\ hi = Some b /\ ~ 0 <= b <= nk_plus_k_gaps g) \/
  (lo = Some a /\ hi = Some b /\ ~ a <= b <= nk_plus_k_gaps g) -> split_horizons_points g lo hi = Err AssertionError.
Proof.
  intros g lo hi a b [(-> & H)|[(-> & -> & H)|(-> & -> & H)]]; unfold split_horizons_points.
  - replace ((0 <=? a) && (a <=? nk_plus_k_gaps g)) with false by lia. reflexivity.
  - cbn [bind]. replace ((0 <=? b) && (b <=? nk_plus_k_gaps g)) with false by lia. reflexivity.
  - destruct ((0 <=? a) && (a <=? nk_plus_k_gaps g)); [|reflexivity]. cbn [assert_ bind].
    replace ((a <=? b) && (b <=? nk_plus_k_gaps g)) with false by lia. reflexivity.
Qed.
Print Assumptions C85_horizons_bad_range.

(** ** Healing of faults *)
Lemma same_mean1 p : Same p (vmean [p]).
Proof. unfold Same, vmean, vscale, vadd. cbn -[Qmult Qplus Qinv]. change (/ inject_Z 1)%Q with 1%Q. repeat split; ring. Qed.
Lemma same_mean2 p q : Same (vmean2 p q) (vmean [p; q]).
Proof. unfold Same, vmean, vmean2, vscale, vadd. cbn -[Qmult Qplus Qinv]. change (/ inject_Z 2)%Q with (1 # 2)%Q. repeat split; ring. Qed.
Lemma same_mean4 p q r t : Same (vmean4 p q r t) (vmean [p; q; r; t]).
Proof. unfold Same, vmean, vmean4, vscale, vadd. cbn -[Qmult Qplus Qinv]. change (/ inject_Z 4)%Q with (1 # 4)%Q. repeat split; ring. Qed.

(** Healed points are the means of the points as used by the columns around each position. *)
Theorem C85_healed : forall g xs, Pillars g xs -> g_has_split (gg g) = true ->
  exists u, unsplit_points_ref g = Ok u /\
    forall r pj pi, 0 <= pj <= nj g -> 0 <= pi <= ni g -> exists ps,
      Forall2 (fun c p => OnPillar g xs r pj pi (fst c) (snd c) p) (around (nj g) (ni g) pj pi) ps /\ Same (u r pj pi) (vmean ps).
Proof.
  intros g xs P HS. destruct (map_ok g xs P) as (m & Em & U & _). destruct P as ((Wj & Wi & _) & _).
  unfold unsplit_points_ref. rewrite HS, Em. cbn [negb bind]. eexists. split; [reflexivity|].
  intros r pj pi Hj Hi. cbv beta zeta.
  assert (O : forall a b j i jp ip, a = j -> b = i -> 0 <= j < nj g -> 0 <= i < ni g -> bit jp -> bit ip -> pj = j + jp -> pi = i + ip ->
     OnPillar g xs r pj pi a b (g_pts g r (m j i jp ip))).
  { intros a b j i jp ip -> -> A B C D -> ->. exists (m j i jp ip). split; [apply U; assumption|reflexivity]. }
  assert (K0 : bit 0) by (left; reflexivity). assert (K1 : bit 1) by (right; reflexivity).
  unfold around. cbn [filter fst snd].
  destruct (Z.eqb_spec pj (nj g)) as [Ej|Ej], (Z.eqb_spec pi (ni g)) as [Ei|Ei], (Z.eqb_spec pj 0) as [Zj|Zj], (Z.eqb_spec pi 0) as [Zi|Zi];
    try lia; cbn [andb];
    repeat match goal with |- context [if (?a && ?b && ?c && ?d)%bool then _ else _] =>
      first [replace (a && b && c && d)%bool with true by lia | replace (a && b && c && d)%bool with false by lia] end;
    (eexists; split; [|first [apply same_mean4 | apply same_mean2 | apply same_mean1]]);
    repeat (apply Forall2_cons || apply Forall2_nil); cbn [fst snd];
    apply O; try assumption; lia.
Qed.
Print Assumptions C85_healed.

(** Where a pillar is not split, healing leaves its points alone. *)
Theorem C85_healing_leaves_whole_pillars : forall g xs, Pillars g xs -> forall u, unsplit_points_ref g = Ok u ->
  forall r pj pi, 0 <= pj <= nj g -> 0 <= pi <= ni g -> ~ IsSplitPillar (ni g) xs pj pi ->
    Same (u r pj pi) (g_pts g r (pillar (ni g) pj pi)).
Proof.
  intros g xs P u E r pj pi Hj Hi NS. destruct (g_has_split (gg g)) eqn:HS.
  - destruct (C85_healed g xs P HS) as (u' & E' & A). rewrite E in E'. injection E' as <-.
    destruct (A r pj pi Hj Hi) as (ps & F & S1).
    assert (Q : ps = repeat (g_pts g r (pillar (ni g) pj pi)) (List.length (around (nj g) (ni g) pj pi))).
    { clear S1. induction F as [|c p cs ps (n & Un & ->) F IH]; [reflexivity|]. cbn [List.length repeat].
      rewrite (uses_unsplit _ _ _ _ _ _ _ _ NS Un). f_equal. exact IH. }
    destruct P as ((Wj & Wi & _) & _).
    assert (Lc : let n := List.length (around (nj g) (ni g) pj pi) in n = 1%nat \/ n = 2%nat \/ n = 4%nat).
    { unfold around. cbn [filter fst snd].
      destruct (Z.eq_dec pj 0), (Z.eq_dec pi 0), (Z.eq_dec pj (nj g)), (Z.eq_dec pi (ni g)); try lia;
      repeat match goal with |- context [if (?a && ?b && ?c && ?d)%bool then _ else _] =>
        first [replace (a && b && c && d)%bool with true by lia | replace (a && b && c && d)%bool with false by lia] end; cbn; tauto. }
    subst ps. set (p := g_pts g r (pillar (ni g) pj pi)) in *. destruct S1 as (X & Y & Z).
    destruct Lc as [K|[K|K]]; rewrite K in X, Y, Z; unfold Same; unfold vmean, vscale, vadd in X, Y, Z; cbn -[Qmult Qplus Qinv] in X, Y, Z;
      [change (/ inject_Z 1)%Q with 1%Q in X, Y, Z | change (/ inject_Z 2)%Q with (1 # 2)%Q in X, Y, Z | change (/ inject_Z 4)%Q with (1 # 4)%Q in X, Y, Z];
      rewrite X, Y, Z; repeat split; ring.
  - unfold unsplit_points_ref in E. rewrite HS in E. injection E as <-. repeat split; reflexivity.
Qed.
Print Assumptions C85_healing_leaves_whole_pillars.

(** A single horizon, healed or not: the row asked for of the healed points, or of the primary pillars. *)
Theorem C85_one_horizon : forall g xs, Pillars g xs -> Layers g -> forall k kp heal, 0 <= k < g_nk g ->
  exists h u, horizon_points g k heal kp = Ok h /\ unsplit_points_ref g = Ok u /\
    forall pj pi, h pj pi = (if heal then u (top_row g k + kp) pj pi else g_pts g (top_row g k + kp) (pillar (ni g) pj pi)).
Proof.
  intros g xs P La k kp heal Hk. destruct (map_ok g xs P) as (m & Em & _ & _).
  assert (R : horizon_row g k kp = top_row g k + kp).
  { unfold horizon_row. destruct (has_gaps g) eqn:HG; [rewrite (raw_spec g k La Hk)|rewrite (row_no_gaps g k HG)]; reflexivity. }
  unfold horizon_points, unsplit_points_ref. rewrite Em, R. destruct (g_has_split (gg g)), heal; cbn [negb bind];
    do 2 eexists; (split; [reflexivity|]); (split; [reflexivity|]); intros; reflexivity.
Qed.
Print Assumptions C85_one_horizon.

(** The ends of a coordinate line: the top of the first layer and the base of the last. *)
Theorem C85_line_ends : forall g, Layers g -> forall pj pi,
  coordinate_line_end_points g pj pi 0 = g_pts g (top_row g 0) (pillar (ni g) pj pi) /\
  coordinate_line_end_points g pj pi 1 = g_pts g (top_row g (g_nk g - 1) + 1) (pillar (ni g) pj pi).
Proof.
  intros g (N & L) pj pi. unfold coordinate_line_end_points, top_row, gaps_above, nk_plus_k_gaps. cbn [Z.eqb].
  destruct (g_gap_after g) as [l|]; [|split; unfold pillar; f_equal; lia]. specialize (L _ eq_refl).
  split; [reflexivity|]. rewrite firstn_all2 by lia.
  assert (G : forall q : list bool, List.length (filter (fun b => b) q) = count_occ Bool.bool_dec q true).
  { induction q as [|b q IH]; [reflexivity|]. destruct b; [rewrite count_occ_cons_eq by reflexivity|rewrite count_occ_cons_neq by discriminate]; cbn; lia. }
  rewrite G. unfold pillar. f_equal. lia.
Qed.
Print Assumptions C85_line_ends.

(** ** Cross sections *)
(** the cell of layer k in column c of a section through slice ref, and the side p of that column *)
Definition in_section (a : xaxis) (ref c : Z) : Z * Z := match a with AxisI => (c, ref) | AxisJ => (ref, c) end.
Definition across (g : geo) (a : xaxis) : Z := match a with AxisI => ni g | AxisJ => nj g end.
Definition along_section (g : geo) (a : xaxis) : Z := match a with AxisI => nj g | AxisJ => ni g end.

(** Unless the grid has k gaps and no faults, a section has the corners of the cells of the slice, on
    the side asked for. *)
Theorem C85_section_partial : forall g xs, Pillars g xs -> Layers g -> (has_gaps g = true -> g_has_split (gg g) = true) ->
  forall a ref plus, 0 <= ref < across g a ->
  exists x, x_section_corner_points g a ref plus = Ok x /\
    forall k c kp p, 0 <= k < g_nk g -> 0 <= c < along_section g a -> bit kp -> bit p ->
      let q := if plus then 1 else 0 in
      let jp := match a with AxisI => p | AxisJ => q end in
      let ip := match a with AxisI => q | AxisJ => p end in
      Corner g xs k (fst (in_section a ref c)) (snd (in_section a ref c)) kp jp ip (x k c kp p).
Proof.
  intros g xs P La HH a ref plus Hr. destruct (map_ok g xs P) as (m & Em & U & N).
  unfold x_section_corner_points, split_gap_x_section_points, split_x_section_points, unsplit_x_section_points.
  assert (Bq : bit (if plus then 1 else 0)) by (destruct plus; [right|left]; reflexivity).
  destruct (g_has_split (gg g)) eqn:HS, (has_gaps g) eqn:HG; try (specialize (HH eq_refl); discriminate HH);
    cbn [negb assert_ bind]; rewrite ?Em; cbn [bind]; eexists; (split; [reflexivity|]); intros k c kp p Hk Hc Bk Bp; cbv zeta;
    destruct a; cbn [in_section fst snd across along_section sliced] in *.
  all: try (eexists; split; [apply U; (assumption || eassumption)|]).
  all: rewrite ?(raw_spec g k La Hk), ?(row_no_gaps g k HG), ?pts4_pillar.
  all: try (destruct Bk as [-> | ->]; cbn [Z.eqb Pos.eqb]; rewrite ?Z.add_0_r; reflexivity).
  all: rewrite (N eq_refl) by assumption; clear Bq; bits; pick; destruct plus; rewrite ?Z.add_0_r; reflexivity.
Qed.
Print Assumptions C85_section_partial.

(** With k gaps and no faults, which the note on the function says will work, a section cannot be had. *)
Theorem C85_gap_section_refuted : forall g a ref plus, has_gaps g = true -> g_has_split (gg g) = false ->
  x_section_corner_points g a ref plus = Err ValueError.
Proof. intros g a ref plus HG HS. unfold x_section_corner_points, split_gap_x_section_points. rewrite HG, HS. reflexivity. Qed.
Print Assumptions C85_gap_section_refuted.

(** The function said to work "whether the grid has split pillars or not" has no section across I for a
    grid without them. *)
Theorem C85_split_section_refuted : forall g xs ref plus, Pillars g xs -> g_has_split (gg g) = false -> has_gaps g = false ->
  0 <= ref < ni g -> split_x_section_points g AxisI ref plus = Err IndexError.
Proof.
  intros g xs ref plus P HS HG Hr. destruct (map_ok g xs P) as (m & Em & U & N). destruct P as ((Wj & Wi & _) & _).
  unfold split_x_section_points. rewrite HG, Em, HS. cbn [negb assert_ bind].
  destruct (forallb _ _) eqn:F; [exfalso|reflexivity]. rewrite forallb_forall in F.
  specialize (F (nj g - 1) ltac:(apply in_zrange; lia)). cbn [sliced] in F. rewrite !N in F by (solve [unfold bit; tauto | destruct plus; unfold bit; tauto]).
  unfold pillar in F. apply andb_prop in F as [_ F]. apply Z.ltb_lt in F. destruct plus; nia.
Qed.
Print Assumptions C85_split_section_refuted.

(** With an array of flags for the pillars, faulted grids test the wrong flag: the point on an undefined
    pillar is returned, and a point on a defined one is missing. *)
Definition flagged (pj pi : Z) : geo := Geo (of_extras 1 2 [(1, [1])]) 1 None (fun r p => V (inject_Z p) 0 (inject_Z r))
  (Some (fun j i => negb ((j =? pj) && (i =? pi)))) None.
Theorem C85_undefined_pillar_refuted :
  (* only pillar (0, 2) is undefined, and its point is returned *)
  point (flagged 0 2) 0 0 1 0 0 1 = Ok (Some (V 2 0 0)) /\
  (* with five columns, only pillar (1, 0) is undefined, and the point on (0, 5) is missing *)
  point (Geo (of_extras 2 5 [(1, [1])]) 1 None (fun r p => V (inject_Z p) 0 (inject_Z r))
    (Some (fun j i => negb ((j =? 1) && (i =? 0)))) None) 0 0 4 0 0 1 = Ok None.
Proof. split; reflexivity. Qed.
Print Assumptions C85_undefined_pillar_refuted.

(** ** Interpolation *)
Theorem C85_interpolated : forall cp fk fj fi, (0 <= fk <= 1)%Q -> (0 <= fj <= 1)%Q -> (0 <= fi <= 1)%Q ->
  Same (interpolated_point cp (T fk fj fi)) (trilinear cp fk fj fi).
Proof.
  intros cp fk fj fi Hk Hj Hi.
  assert (C : forall q, (0 <= q <= 1)%Q -> (clamp q == q)%Q).
  { intros q H. unfold clamp. destruct (Qminb_spec q 1) as [[M ->]|[M ->]], (Qmaxb_spec q 0) as [[M' E']|[M' E']], (Qmaxb_spec 1 0) as [[M2 E2]|[M2 E2]];
      rewrite ?E', ?E2; try reflexivity; try lra. }
  unfold interpolated_point, trilinear, Same. cbn -[Qmult Qplus Qminus clamp].
  rewrite !(C fk Hk), !(C fj Hj), !(C fi Hi). repeat split; ring.
Qed.
Print Assumptions C85_interpolated.

(** Beyond the cell the fractions are taken as 0 or 1. *)
Theorem C85_interpolation_stays_inside : forall cp f, exists h,
  Same (interpolated_point cp f) (trilinear cp (tk h) (tj h) (ti h)) /\
  forall a, (get f a <= 0 -> get h a == 0)%Q /\ (1 <= get f a -> get h a == 1)%Q /\ (0 <= get f a <= 1 -> get h a == get f a)%Q.
Proof.
  intros cp f. exists (map3 clamp f). split.
  - unfold interpolated_point, trilinear, Same. cbn -[Qmult Qplus Qminus clamp]. repeat split; ring.
  - intros a. replace (get (map3 clamp f) a) with (clamp (get f a)) by (destruct a; reflexivity). generalize (get f a). intros q.
    unfold clamp. destruct (Qminb_spec q 1) as [[M ->]|[M ->]], (Qmaxb_spec q 0) as [[M' E']|[M' E']], (Qmaxb_spec 1 0) as [[M2 E2]|[M2 E2]];
      rewrite ?E', ?E2; repeat split; intros; lra.
Qed.
Print Assumptions C85_interpolation_stays_inside.

(** A lattice of points has at [a, b, c] the point at the a'th, b'th and c'th fractions. *)
Theorem C85_lattice : forall cp fks fjs fis fk fj fi a b c,
  nth_error fks a = Some fk -> nth_error fjs b = Some fj -> nth_error fis c = Some fi ->
  exists plane row p, nth_error (interpolated_points cp fks fjs fis) a = Some plane /\ nth_error plane b = Some row /\
    nth_error row c = Some p /\ Same p (trilinear cp fk fj fi).
Proof.
  intros cp fks fjs fis fk fj fi a b c Ha Hb Hc. unfold interpolated_points. do 3 eexists.
  split; [apply map_nth_error; exact Ha|]. split; [apply map_nth_error; exact Hb|]. split; [apply map_nth_error; exact Hc|].
  unfold lattice_point, trilinear, Same. cbn -[Qmult Qplus Qminus]. repeat split; ring.
Qed.
Print Assumptions C85_lattice.

(** At fractions 0 and 1 interpolation gives the corners; in the middle, the centre. *)
Theorem C85_interpolation_ends : forall cp kp jp ip, bit kp -> bit jp -> bit ip ->
  Same (trilinear cp (inject_Z kp) (inject_Z jp) (inject_Z ip)) (cp kp jp ip) /\
  Same (trilinear cp (1 # 2) (1 # 2) (1 # 2)) (vmean (corners_of cp)).
Proof.
  intros cp kp jp ip B1 B2 B3. split.
  - bits; unfold trilinear, Same; cbn -[Qmult Qplus Qminus]; unfold inject_Z; repeat split; ring.
  - unfold trilinear, vmean, corners_of, Same; cbn -[Qmult Qplus Qminus Qinv]. change (/ inject_Z 8)%Q with (1 # 8)%Q. repeat split; ring.
Qed.
Print Assumptions C85_interpolation_ends.

(** ** Concrete cases *)
(** A two layer grid with a gap, two columns either side of a fault: columns 0 and 1, the two primary
    pillars between them doubled for column 1. *)
Definition faulted : geo := Geo (of_extras 1 2 [(1, [1]); (4, [1])]) 2 (Some [true])
  (fun r p => V (inject_Z (p mod 3)) (inject_Z ((p / 3) mod 2)) (inject_Z (10 * r + (if 6 <=? p then 5 else 0)))) None None.
Example faulted_pillars : Pillars faulted [(1, [1]); (4, [1])].
Proof.
  split; [|left; reflexivity]. split; [reflexivity|]. split; [reflexivity|].
  repeat constructor; cbn; try lia; [exists 0, 1, 0, 0|exists 0, 1, 1, 0]; repeat split; cbn; lia.
Qed.
Example faulted_layers : Layers faulted.
Proof. split; [reflexivity|]. intros l H. injection H as <-. reflexivity. Qed.
Example faulted_corners : exists cp, all_corner_points faulted = Ok cp /\
  vz (cp 0 0 0 0 0 1) = 0%Q /\ vz (cp 0 0 1 0 0 0) = 5%Q /\ vz (cp 1 0 0 0 0 1) = 20%Q /\ vz (cp 1 0 1 1 0 0) = 35%Q.
Proof. eexists. split; [reflexivity|]. repeat split; vm_compute; reflexivity. Qed.
Example faulted_healed : exists u, unsplit_points_ref faulted = Ok u /\ Qred (vz (u 0 0 1)) = (5 # 2)%Q /\ vz (u 0 0 0) = 0%Q.
Proof. eexists. split; [reflexivity|]. split; vm_compute; reflexivity. Qed.
Example faulted_section : exists x, x_section_corner_points faulted AxisJ 0 false = Ok x /\ vz (x 1 0 1 1) = 30%Q /\ vz (x 1 1 0 0) = 25%Q.
Proof. eexists. split; [reflexivity|]. split; vm_compute; reflexivity. Qed.
(** an unfaulted grid with a gap *)
Definition gapped : geo := Geo (SGrid 2 2 false [] [] []) 2 (Some [true]) (g_pts faulted) None None.
Example gapped_pillars : Pillars gapped [] /\ Layers gapped.
Proof. split; [split; [repeat split; constructor|right; split; reflexivity]|split; [reflexivity|intros l H; injection H as <-; reflexivity]]. Qed.
