(** ThrowProps.v: C93, interpolated grids, healed grids and scaled throws. *)
From Coq Require Import Lqa.
From Verif Require Import Base QBase IntersectModel IntersectProofs PillarModel PillarProofs PointsModel PointsProofs PointsProps ThrowModel.
Open Scope Z_scope.

(** ** Interpolation *)
Lemma same_list_refl l : same_list l l = true.
Proof. induction l; [ reflexivity | cbn; rewrite Z.eqb_refl; assumption ]. Qed.
Lemma same_list_eq : forall a b, same_list a b = true -> a = b.
Proof.
  induction a as [|x a IH]; intros [|y b] H; try discriminate; [ reflexivity |]. cbn in H. apply andb_prop in H. destruct H as (H1 & H2).
  apply Z.eqb_eq in H1. subst. f_equal. apply IH. exact H2.
Qed.
(** Between two grids with the same pillars and no k gaps, every corner of every cell of the new grid is at the given
    fraction of the way from that corner of the first grid to that corner of the second. *)
Theorem C93_interpolated_partial : forall ga gb xs w, Pillars ga xs -> Pillars gb xs -> g_has_split (gg ga) = g_has_split (gg gb) ->
  g_gap_after ga = None -> g_gap_after gb = None -> g_cdef ga = None -> g_cdef gb = None ->
  g_nk ga = g_nk gb -> nj ga = nj gb -> ni ga = ni gb -> (0 <= w <= 1)%Q ->
  exists g, interpolated_grid ga gb w = Ok (Some g) /\ Pillars g xs /\ g_nk g = g_nk ga /\ nj g = nj ga /\ ni g = ni ga /\ g_gap_after g = None /\
    forall k j i kp jp ip a b p, IsCell ga k j i -> Corner ga xs k j i kp jp ip a -> Corner gb xs k j i kp jp ip b -> Corner g xs k j i kp jp ip p ->
      Same p (V ((1 - w) * vx a + w * vx b) ((1 - w) * vy a + w * vy b) ((1 - w) * vz a + w * vz b))
      /\ (w == 0 -> Same p a)%Q /\ (w == 1 -> Same p b)%Q.
Proof.
  intros ga gb xs w Pa Pb Hs Ga Gb Ca Cb Ek Ej Ei Hw. unfold interpolated_grid.
  replace ((0 <=b w)%Q && (w <=b 1)%Q) with true by (symmetry; apply andb_true_intro; split; apply Qleb_iff; lra).
  rewrite Ek, Ej, Ei, !Z.eqb_refl, Ca, Cb. cbn [andb assert_ bind].
  assert (W : work_from_pillars ga gb = true).
  { unfold work_from_pillars. rewrite <- Hs. destruct (g_has_split (gg ga)) eqn:E; [| reflexivity ]. cbn [negb andb].
    destruct Pa as (_ & [Pa | (_ & Pa)]); [| congruence ]. destruct Pb as (_ & [Pb | (_ & Pb)]); [| congruence ].
    rewrite Pa, Pb, Ej, Ei, !same_list_refl. unfold nk_plus_k_gaps. rewrite Ga, Gb, Ek, Z.eqb_refl. reflexivity. }
  rewrite W. cbn [negb]. assert (N : nk_plus_k_gaps ga =? nk_plus_k_gaps gb = true) by (unfold nk_plus_k_gaps; rewrite Ga, Gb, Ek; apply Z.eqb_refl).
  rewrite N. cbn [negb]. eexists. split; [ reflexivity |].
  split; [ exact Pa |]. split; [ reflexivity |]. split; [ exact Ej |]. split; [ exact Ei |]. split; [ reflexivity |].
  intros k j i kp jp ip a b p Hc (n & U & ->) (n' & U' & ->) (n2 & U2 & ->).
  rewrite <- Ej, <- Ei in U'. rewrite (uses_functional _ _ _ _ _ _ _ _ _ U' U). clear U'. unfold nj, ni in U2. cbn [gg] in U2. fold (nj ga) (ni ga) in U2.
  rewrite (uses_functional _ _ _ _ _ _ _ _ _ U2 U). clear U2.
  unfold top_row, gaps_above. rewrite Ga, Gb. cbn [g_gap_after g_pts]. unfold vadd, vscale, Same. cbn [vx vy vz].
  split; [ repeat split; reflexivity |]. split; intros E; rewrite E; repeat split; ring.
Qed.
Print Assumptions C93_interpolated_partial.
(** Grids that are not of the same extent, or a fraction outside 0 to 1, are refused. *)
Theorem C93_interpolated_refuses : forall ga gb w,
  ~ (g_nk ga = g_nk gb /\ nj ga = nj gb /\ ni ga = ni gb /\ (0 <= w <= 1)%Q) -> interpolated_grid ga gb w = Err AssertionError.
Proof.
  intros ga gb w H. unfold interpolated_grid. destruct ((0 <=b w)%Q && (w <=b 1)%Q) eqn:E1; [| reflexivity ]. cbn [assert_ bind].
  destruct ((g_nk ga =? g_nk gb) && (nj ga =? nj gb) && (ni ga =? ni gb)) eqn:E2; [| reflexivity ]. exfalso. apply H.
  apply andb_prop in E1. rewrite !Qleb_iff in E1. repeat split; try lia; tauto.
Qed.
Print Assumptions C93_interpolated_refuses.
(** Missing: with k gaps.  The new grid is given the rows of points of the old, but not the gaps. *)
Definition gappy : geo := Geo (SGrid 1 1 false [] [] []) 2 (Some [true]) (fun r p => V (inject_Z (p mod 2)) (inject_Z (p / 2)) (inject_Z r)) None None.
Theorem C93_interpolated_refuted : exists g g' p p', Pillars g [] /\ Layers g /\ interpolated_grid g g (1 # 2) = Ok (Some g')
  /\ Corner g [] 1 0 0 0 0 0 p /\ Corner g' [] 1 0 0 0 0 0 p' /\ ~ Same p p'.
Proof.
  exists gappy. eexists _, _, _.
  split. { split; [ split; [ cbn; lia | split; [ cbn; lia | constructor ] ] | right; split; reflexivity ]. }
  split. { split; [ cbn; lia |]. intros l E. injection E as <-. reflexivity. }
  split; [ reflexivity |]. split; [ eexists; split; [ apply uses_nil | reflexivity ] |]. split; [ eexists; split; [ apply uses_nil | reflexivity ] |].
  intros (_ & _ & H). vm_compute in H. discriminate.
Qed.
Print Assumptions C93_interpolated_refuted.

(** ** Healing *)
(** A faulted grid without k gaps becomes one with a single pillar at each position, whose points are the means of the
    points used there by the columns around it; pillars that were not split do not move. *)
Theorem C93_healed_grid : forall g xs, Pillars g xs -> g_has_split (gg g) = true -> g_gap_after g = None ->
  exists g', unsplit_grid g = Ok g' /\ Pillars g' [] /\ g_nk g' = g_nk g /\ nj g' = nj g /\ ni g' = ni g /\ g_gap_after g' = None /\
    forall r pj pi j i p, 0 <= pj <= nj g -> 0 <= pi <= ni g -> OnPillar g' [] r pj pi j i p ->
      (exists ps, Forall2 (fun c q => OnPillar g xs r pj pi (fst c) (snd c) q) (around (nj g) (ni g) pj pi) ps /\ Same p (vmean ps))
      /\ (~ IsSplitPillar (ni g) xs pj pi -> forall q, OnPillar g xs r pj pi j i q -> Same p q).
Proof.
  intros g xs P HS HG. unfold unsplit_grid. rewrite HS. cbn [assert_ bind]. destruct (C85_healed g xs P HS) as (u & E & A). rewrite E. cbn [bind].
  replace (nk_plus_k_gaps g =? g_nk g) with true by (unfold nk_plus_k_gaps; rewrite HG; symmetry; apply Z.eqb_refl). cbn [assert_ bind].
  eexists. split; [ reflexivity |]. pose proof P as ((Wj & Wi & _) & _).
  split. { split; [ split; [ exact Wj | split; [ exact Wi | constructor ] ] | right; split; reflexivity ]. }
  split; [ reflexivity |]. split; [ reflexivity |]. split; [ reflexivity |]. split; [ exact HG |].
  intros r pj pi j i p Hj Hi (n & U & ->). rewrite (uses_functional _ _ _ _ _ _ _ _ _ U (uses_nil _ _ _ _ _ _)). cbn [g_pts ni gg g_ni].
  unfold pillar. destruct (divmod_unique (ni g + 1) pj pi ltac:(lia)) as (D & M).
  change (ni {| gg := SGrid (nj g) (ni g) false [] [] []; g_nk := g_nk g; g_gap_after := g_gap_after g; g_pts := fun r0 p0 => u r0 (p0 / (ni g + 1)) (p0 mod (ni g + 1)); g_pdef := g_pdef g; g_cdef := g_cdef g |}) with (ni g).
  rewrite D, M. split; [ apply A; assumption |]. intros NS q (n2 & U2 & ->).
  rewrite (uses_unsplit _ _ _ _ _ _ _ _ NS U2). exact (C85_healing_leaves_whole_pillars g xs P u E r pj pi Hj Hi NS).
Qed.
Print Assumptions C93_healed_grid.
(** A grid with an actual k gap is refused, after the work is done; so is an unfaulted one. *)
Theorem C93_healed_refuses : forall g xs, Pillars g xs ->
  (g_has_split (gg g) = false \/ exists gaps, g_gap_after g = Some gaps /\ In true gaps) -> unsplit_grid g = Err AssertionError.
Proof.
  intros g xs P H. unfold unsplit_grid. destruct (g_has_split (gg g)) eqn:HS; [| reflexivity ]. destruct H as [H | (gaps & E & H)]; [ discriminate |].
  cbn [assert_ bind]. destruct (C85_healed g xs P HS) as (u & Eu & _). rewrite Eu. cbn [bind].
  assert (N : nk_plus_k_gaps g =? g_nk g = false).
  { unfold nk_plus_k_gaps. rewrite E. apply Z.eqb_neq. assert (L : (0 < List.length (filter (fun b : bool => b) gaps))%nat); [| lia ].
    destruct (filter (fun b : bool => b) gaps) eqn:F; [| cbn; lia ]. exfalso. assert (K : In true (filter (fun b : bool => b) gaps)) by (apply filter_In; auto).
    rewrite F in K. exact K. }
  rewrite N. reflexivity.
Qed.
Print Assumptions C93_healed_refuses.

(** ** Scaling the throws of all faults *)
Lemma in_spi_iff g xs pj pi : gg g = of_extras (nj g) (ni g) xs -> (in_spi g (pillar (ni g) pj pi) = true <-> IsSplitPillar (ni g) xs pj pi).
Proof.
  intros E. unfold in_spi, IsSplitPillar. rewrite E. cbn [g_spi of_extras]. rewrite existsb_exists. split.
  - intros (x & H & Ex). apply Z.eqb_eq in Ex. subst. exact H.
  - intros H. eexists. split; [ exact H | apply Z.eqb_refl ].
Qed.
Lemma on_unique g xs r pj pi : forall cs ps qs, Forall2 (fun c q => OnPillar g xs r pj pi (fst c) (snd c) q) cs ps ->
  Forall2 (fun c q => OnPillar g xs r pj pi (fst c) (snd c) q) cs qs -> ps = qs.
Proof.
  intros cs ps qs F. revert qs. induction F as [| c p cs ps (n & U & ->) F IH]; intros qs G; inversion G as [| ? q ? qs' (n' & U' & ->) G']; subst; [ reflexivity |].
  rewrite (uses_functional _ _ _ _ _ _ _ _ _ U' U). f_equal. apply IH. exact G'.
Qed.
(** Every point is moved by the same amount in all rows: (factor - 1) times the distance, in the reference row, of its
    coordinate line from the mean of the lines of that pillar, taken over the columns around it. *)
Theorem C93_throw_moves : forall g xs s ref, Pillars g xs -> g_has_split (gg g) = true -> g_gap_after g = None -> g_pdef g = None -> 0 <= ref <= g_nk g ->
  exists g', fault_throw_scaling g (Some s) None ref = Ok g' /\ gg g' = gg g /\ g_nk g' = g_nk g /\ g_gap_after g' = None /\
    forall r pj pi j i p q ps p', 0 <= pj <= nj g -> 0 <= pi <= ni g ->
      OnPillar g xs r pj pi j i p -> OnPillar g xs ref pj pi j i q ->
      Forall2 (fun c x => OnPillar g xs ref pj pi (fst c) (snd c) x) (around (nj g) (ni g) pj pi) ps ->
      OnPillar g' xs r pj pi j i p' ->
      Same p' (vadd p (vscale (s - 1) (vsub q (vmean ps)))).
Proof.
  intros g xs s ref P HS HG HP Hr. unfold fault_throw_scaling, offsets_by_factor. rewrite HS, HP. cbn [assert_ bind].
  replace ((0 <=? ref) && (ref <=? g_nk g)) with true by lia. cbn [assert_ bind].
  destruct (C85_healed g xs P HS) as (u & Eu & A). rewrite Eu. unfold has_gaps. rewrite HG. cbn [bind].
  eexists. split; [ reflexivity |]. split; [ reflexivity |]. split; [ reflexivity |]. split; [ reflexivity |].
  intros r pj pi j i p q ps p' Hj Hi (n & U & ->) (n1 & U1 & ->) Fp (n2 & U2 & ->).
  rewrite (uses_functional _ _ _ _ _ _ _ _ _ U1 U). clear U1. change (Uses (nj g) (ni g) xs pj pi j i n2) in U2.
  rewrite (uses_functional _ _ _ _ _ _ _ _ _ U2 U). clear U2. cbn [g_pts].
  destruct (A ref pj pi Hj Hi) as (ps' & Fp' & Hm). rewrite <- (on_unique _ _ _ _ _ _ _ _ Fp Fp') in Hm. clear Fp' ps'.
  pose proof P as ((Wj & Wi & WF) & Gx). assert (Eg : gg g = of_extras (nj g) (ni g) xs) by (destruct Gx as [Gx | (_ & Gx)]; [ exact Gx | congruence ]).
  assert (Hpr : 0 <= pillar (ni g) pj pi < primaries g) by (unfold pillar, primaries; nia).
  destruct (divmod_unique (ni g + 1) pj pi ltac:(lia)) as (D & M). fold (pillar (ni g) pj pi) in D, M.
  destruct U as [(e & (cs & Hx & _) & _ & ->) | (_ & ->)].
  - fold (primaries g). set (b := primaries g + Z.of_nat e).
    replace (primaries g <=? b) with true by lia. replace (b <? primaries g) with false by lia. rewrite orb_true_r.
    replace (nth (Z.to_nat (b - primaries g)) (g_spi (gg g)) 0) with (pillar (ni g) pj pi).
    2:{ replace (Z.to_nat (b - primaries g)) with e by lia. rewrite Eg. cbn [g_spi of_extras]. change 0 with (fst ((0, []) : Z * list Z)).
        rewrite map_nth. rewrite (nth_error_nth _ _ _ Hx). reflexivity. }
    unfold flat_pillars. rewrite D, M. destruct Hm as (X & Y & Z0). unfold Same, vadd, vscale, vsub. cbn [vx vy vz]. rewrite X, Y, Z0. repeat split; reflexivity.
  - replace (pillar (ni g) pj pi <? primaries g) with true by lia. replace (primaries g <=? pillar (ni g) pj pi) with false by lia.
    rewrite andb_true_r, orb_false_r. destruct (in_spi g (pillar (ni g) pj pi)) eqn:Es.
    + unfold flat_pillars. rewrite D, M. destruct Hm as (X & Y & Z0). unfold Same, vadd, vscale, vsub. cbn [vx vy vz]. rewrite X, Y, Z0. repeat split; reflexivity.
    + assert (NS : ~ IsSplitPillar (ni g) xs pj pi) by (intros K; apply (in_spi_iff g xs pj pi Eg) in K; congruence).
      pose proof (C85_healing_leaves_whole_pillars g xs P u Eu ref pj pi Hj Hi NS) as (X & Y & Z0). destruct Hm as (X' & Y' & Z').
      unfold Same, vadd, vscale, vsub. cbn [vx vy vz]. rewrite <- X', <- Y', <- Z', X, Y, Z0. repeat split; ring.
Qed.
Print Assumptions C93_throw_moves.

Lemma pillar_lists g xs : Pillars g xs -> forall r pj pi, 0 <= pj <= nj g -> 0 <= pi <= ni g ->
  exists ps, Forall2 (fun c x => OnPillar g xs r pj pi (fst c) (snd c) x) (around (nj g) (ni g) pj pi) ps.
Proof.
  intros P r pj pi Hj Hi. destruct (map_ok g xs P) as (m & _ & U & _).
  assert (C : forall c, In c (around (nj g) (ni g) pj pi) -> exists x, OnPillar g xs r pj pi (fst c) (snd c) x).
  { intros (j, i) Hc. unfold around in Hc. apply filter_In in Hc. destruct Hc as (Hin & Hb). cbn [fst snd] in *.
    assert (B : bit (pj - j) /\ bit (pi - i)).
    { unfold bit. cbn [In] in Hin. repeat (destruct Hin as [E | Hin]; [ injection E as <- <-; lia |]). contradiction. }
    destruct B as (B1 & B2). specialize (U j i (pj - j) (pi - i) ltac:(lia) ltac:(lia) B1 B2).
    replace (j + (pj - j)) with pj in U by lia. replace (i + (pi - i)) with pi in U by lia. eexists _, _. split; [ exact U | reflexivity ]. }
  clear - C. induction (around (nj g) (ni g) pj pi) as [|c cs IH]; [ exists []; constructor |].
  destruct (C c (or_introl eq_refl)) as (x & Hx). destruct IH as (ps & F); [ intros; apply C; right; assumption |]. exists (x :: ps). constructor; assumption.
Qed.
Lemma used_here g xs : Pillars g xs -> forall r r' pj pi j i p, OnPillar g xs r pj pi j i p -> exists q, OnPillar g xs r' pj pi j i q.
Proof. intros P r r' pj pi j i p (n & U & _). eexists _, n. split; [ exact U | reflexivity ]. Qed.
(** So in the reference row the throw between any two columns is the old throw times the factor; the thickness of every
    layer along every coordinate line is as it was; and pillars that are not split do not move. *)
Theorem C93_throws : forall g xs s ref g', Pillars g xs -> g_has_split (gg g) = true -> g_gap_after g = None -> g_pdef g = None -> 0 <= ref <= g_nk g ->
  fault_throw_scaling g (Some s) None ref = Ok g' ->
  forall pj pi, 0 <= pj <= nj g -> 0 <= pi <= ni g ->
    (forall j i j2 i2 a b a' b', OnPillar g xs ref pj pi j i a -> OnPillar g xs ref pj pi j2 i2 b ->
       OnPillar g' xs ref pj pi j i a' -> OnPillar g' xs ref pj pi j2 i2 b' -> Same (vsub a' b') (vscale s (vsub a b)))
    /\ (forall r r2 j i a b a' b', OnPillar g xs r pj pi j i a -> OnPillar g xs r2 pj pi j i b ->
       OnPillar g' xs r pj pi j i a' -> OnPillar g' xs r2 pj pi j i b' -> Same (vsub a' b') (vsub a b))
    /\ (~ IsSplitPillar (ni g) xs pj pi -> forall r j i a a', OnPillar g xs r pj pi j i a -> OnPillar g' xs r pj pi j i a' -> Same a' a).
Proof.
  intros g xs s ref g' P HS HG HP Hr E pj pi Hj Hi. destruct (C93_throw_moves g xs s ref P HS HG HP Hr) as (g2 & E2 & Eg & _ & _ & A).
  rewrite E in E2. injection E2 as <-. destruct (pillar_lists g xs P ref pj pi Hj Hi) as (ps & F). split; [| split ].
  - intros j i j2 i2 a b a' b' Oa Ob Oa' Ob'. pose proof (A ref pj pi j i a a ps a' Hj Hi Oa Oa F Oa') as (X & Y & Z0).
    pose proof (A ref pj pi j2 i2 b b ps b' Hj Hi Ob Ob F Ob') as (X2 & Y2 & Z2). unfold Same, vadd, vscale, vsub in *. cbn [vx vy vz] in *.
    rewrite X, Y, Z0, X2, Y2, Z2. repeat split; ring.
  - intros r r2 j i a b a' b' Oa Ob Oa' Ob'. destruct (used_here g xs P r ref pj pi j i a Oa) as (q & Oq).
    pose proof (A r pj pi j i a q ps a' Hj Hi Oa Oq F Oa') as (X & Y & Z0). pose proof (A r2 pj pi j i b q ps b' Hj Hi Ob Oq F Ob') as (X2 & Y2 & Z2).
    unfold Same, vadd, vscale, vsub in *. cbn [vx vy vz] in *. rewrite X, Y, Z0, X2, Y2, Z2. repeat split; ring.
  - intros NS r j i a a' (n & U & ->) (n' & U' & ->). unfold nj, ni in U'. rewrite Eg in U'. rewrite (uses_unsplit _ _ _ _ _ _ _ _ NS U).
    change (Uses (nj g) (ni g) xs pj pi j i n') in U'. rewrite (uses_unsplit _ _ _ _ _ _ _ _ NS U').
    destruct P as ((Wj & Wi & WF) & Gx). assert (Egx : gg g = of_extras (nj g) (ni g) xs) by (destruct Gx as [Gx | (_ & Gx)]; [ exact Gx | congruence ]).
    assert (Hpr : 0 <= pillar (ni g) pj pi < primaries g) by (unfold pillar, primaries; nia).
    unfold fault_throw_scaling in E. rewrite HS, HP in E. cbn [assert_ bind] in E. replace ((0 <=? ref) && (ref <=? g_nk g)) with true in E by lia.
    cbn [assert_ bind] in E. destruct (offsets_by_factor g s ref) as [o | x]; [| discriminate ]. cbn [bind] in E. injection E as <-. cbn [g_pts].
    destruct (in_spi g (pillar (ni g) pj pi)) eqn:Es; [ exfalso; apply NS; apply (in_spi_iff g xs pj pi Egx); exact Es |].
    replace (primaries g <=? pillar (ni g) pj pi) with false by lia. apply same_refl.
Qed.
Print Assumptions C93_throws.
(** The mean over the columns of the points in the reference row does not move. *)
Lemma mean_kept s m : forall ps ps', Forall2 (fun p p' => Same p' (vadd p (vscale (s - 1) (vsub p m)))) ps ps' ->
  Same (fold_right vadd (V 0 0 0) ps') (vadd (vscale s (fold_right vadd (V 0 0 0) ps)) (vscale ((1 - s) * inject_Z (Z.of_nat (List.length ps))) m)).
Proof.
  intros ps ps' F. induction F as [| p p' ps ps' (X & Y & Z0) F (X2 & Y2 & Z2)].
  - unfold Same, vadd, vscale. cbn [fold_right vx vy vz List.length]. change (inject_Z (Z.of_nat 0)) with 0%Q. repeat split; ring.
  - cbn [fold_right List.length]. rewrite Nat2Z.inj_succ. unfold Z.succ. unfold Same, vadd, vscale, vsub in *. cbn [vx vy vz] in *.
    rewrite inject_Z_plus. change (inject_Z 1) with 1%Q. rewrite X, Y, Z0, X2, Y2, Z2. repeat split; ring.
Qed.
Theorem C93_midpoints_stay : forall g xs s ref g', Pillars g xs -> g_has_split (gg g) = true -> g_gap_after g = None -> g_pdef g = None -> 0 <= ref <= g_nk g ->
  fault_throw_scaling g (Some s) None ref = Ok g' ->
  forall pj pi ps ps', 0 <= pj <= nj g -> 0 <= pi <= ni g ->
    Forall2 (fun c x => OnPillar g xs ref pj pi (fst c) (snd c) x) (around (nj g) (ni g) pj pi) ps ->
    Forall2 (fun c x => OnPillar g' xs ref pj pi (fst c) (snd c) x) (around (nj g) (ni g) pj pi) ps' -> Same (vmean ps') (vmean ps).
Proof.
  intros g xs s ref g' P HS HG HP Hr E pj pi ps ps' Hj Hi F F'. destruct (C93_throw_moves g xs s ref P HS HG HP Hr) as (g2 & E2 & _ & _ & _ & A).
  rewrite E in E2. injection E2 as <-.
  assert (G : Forall2 (fun p p' => Same p' (vadd p (vscale (s - 1) (vsub p (vmean ps))))) ps ps').
  { assert (A' : forall j i a a', OnPillar g xs ref pj pi j i a -> OnPillar g' xs ref pj pi j i a' -> Same a' (vadd a (vscale (s - 1) (vsub a (vmean ps)))))
      by (intros j i a a' Oa Oa'; exact (A ref pj pi j i a a ps a' Hj Hi Oa Oa F Oa')).
    clear - F F' A'. set (m := vmean ps) in *. clearbody m. revert ps' F'. induction F as [| c p cs ps O F IH]; intros ps' F'; inversion F'; subst; constructor.
    - eapply A'; eassumption.
    - apply IH; assumption. }
  assert (L : List.length ps' = List.length ps) by (revert G; generalize (vmean ps) as m; intros m G; clear - G; induction G; cbn [List.length]; congruence).
  assert (Ln : ps <> []).
  { intros ->. inversion F as [K |]. unfold around in K. cbn [filter fst snd] in K. destruct P as ((Wj & Wi & _) & _).
    destruct (Z.eq_dec pj (nj g)), (Z.eq_dec pi (ni g));
      repeat match type of K with context [if (?a && ?b && ?c && ?d)%bool then _ else _] => destruct (a && b && c && d)%bool eqn:?; try discriminate K end; lia. }
  destruct (mean_kept s (vmean ps) ps ps' G) as (X & Y & Z0). unfold vmean at 1. rewrite L.
  assert (N : ~ (inject_Z (Z.of_nat (List.length ps)) == 0)%Q).
  { intros K. apply Ln. unfold Qeq, inject_Z in K. cbn [Qnum Qden] in K. destruct ps as [|x0 ps0]; [ reflexivity |]. exfalso. clear - K. cbn [List.length] in K. lia. }
  unfold vmean in *. set (t := fold_right vadd (V 0 0 0) ps) in *. set (nn := inject_Z (Z.of_nat (List.length ps))) in *.
  unfold Same, vadd, vscale in *. cbn [vx vy vz] in *. rewrite X, Y, Z0. repeat split; field; exact N.
Qed.
Print Assumptions C93_midpoints_stay.
(** With factor 1 nothing moves. *)
Theorem C93_factor_one : forall g xs ref g', Pillars g xs -> g_has_split (gg g) = true -> g_gap_after g = None -> g_pdef g = None -> 0 <= ref <= g_nk g ->
  fault_throw_scaling g (Some 1%Q) None ref = Ok g' ->
  forall r pj pi j i p p', 0 <= pj <= nj g -> 0 <= pi <= ni g -> OnPillar g xs r pj pi j i p -> OnPillar g' xs r pj pi j i p' -> Same p' p.
Proof.
  intros g xs ref g' P HS HG HP Hr E r pj pi j i p p' Hj Hi O O'. destruct (C93_throw_moves g xs 1 ref P HS HG HP Hr) as (g2 & E2 & _ & _ & _ & A).
  rewrite E in E2. injection E2 as <-. destruct (pillar_lists g xs P ref pj pi Hj Hi) as (ps & F). destruct (used_here g xs P r ref pj pi j i p O) as (q & Oq).
  destruct (A r pj pi j i p q ps p' Hj Hi O Oq F O') as (X & Y & Z0). unfold Same, vadd, vscale, vsub in *. cbn [vx vy vz] in *. rewrite X, Y, Z0. repeat split; ring.
Qed.
Print Assumptions C93_factor_one.

(** ** Scaling the throws of named faults *)
Lemma set_other mid f pts st p q : q <> p -> fst (set_offset mid f pts st p) q = fst st q.
Proof. intros N. destruct st as (o, l). unfold set_offset. destruct (existsb (Z.eqb p) l); [ reflexivity |]. cbn [fst]. replace (q =? p) with false by lia. reflexivity. Qed.
Lemma set_list mid f pts st p q : existsb (Z.eqb q) (snd (set_offset mid f pts st p)) = existsb (Z.eqb q) (snd st) || (q =? p).
Proof.
  destruct st as (o, l). unfold set_offset. destruct (existsb (Z.eqb p) l) eqn:E; cbn [snd existsb]; [| apply orb_comm ].
  destruct (q =? p) eqn:Q; [| rewrite orb_false_r; reflexivity ]. apply Z.eqb_eq in Q. subst. rewrite E. reflexivity.
Qed.
Lemma pairs_other f pts q : forall prs st, (forall a b, In (a, b) prs -> q <> a /\ q <> b) ->
  fst (fold_left (scale_pair f pts) prs st) q = fst st q /\ existsb (Z.eqb q) (snd (fold_left (scale_pair f pts) prs st)) = existsb (Z.eqb q) (snd st).
Proof.
  induction prs as [|(a, b) prs IH]; intros st H; [ split; reflexivity |]. cbn [fold_left].
  destruct (H a b (or_introl eq_refl)) as (Na & Nb). destruct (IH (scale_pair f pts st (a, b))) as (I1 & I2); [ intros; apply H; right; assumption |].
  rewrite I1, I2. unfold scale_pair. rewrite !set_other, !set_list by assumption. replace (q =? a) with false by lia. replace (q =? b) with false by lia.
  rewrite !orb_false_r. split; reflexivity.
Qed.
Lemma pairs_seen f pts q : forall prs st, existsb (Z.eqb q) (snd st) = true -> fst (fold_left (scale_pair f pts) prs st) q = fst st q.
Proof.
  assert (one : forall st p mid, existsb (Z.eqb q) (snd st) = true -> fst (set_offset mid f pts st p) q = fst st q).
  { intros st p mid H. destruct (Z.eq_dec q p) as [->|N]; [| apply set_other; exact N ]. destruct st as (o, l). cbn [snd] in H. unfold set_offset. rewrite H. reflexivity. }
  induction prs as [|(a, b) prs IH]; intros st H; [ reflexivity |]. cbn [fold_left]. unfold scale_pair at 2.
  rewrite IH; [ rewrite !one; try assumption; [ reflexivity | rewrite set_list, H; reflexivity ] |]. rewrite !set_list, H. reflexivity.
Qed.
Lemma pairs_hit f pts a b : forall prs st, a <> b -> In (a, b) prs -> existsb (Z.eqb a) (snd st) = false -> existsb (Z.eqb b) (snd st) = false ->
  (forall c d, In (c, d) prs -> (c, d) = (a, b) \/ (c <> a /\ c <> b /\ d <> a /\ d <> b)) ->
  let mid := vscale (1 # 2) (vadd (pts a) (pts b)) in
  fst (fold_left (scale_pair f pts) prs st) a = vscale (f - 1)%Q (vsub (pts a) mid) /\ fst (fold_left (scale_pair f pts) prs st) b = vscale (f - 1)%Q (vsub (pts b) mid).
Proof.
  induction prs as [|(c, d) prs IH]; intros st N Hin Ha Hb H mid; [ contradiction |]. cbn [fold_left].
  destruct (H c d (or_introl eq_refl)) as [E | (N1 & N2 & N3 & N4)].
  - injection E as -> ->. unfold scale_pair at 2 4. fold mid.
    assert (La : existsb (Z.eqb a) (snd (set_offset mid f pts (set_offset mid f pts st a) b)) = true) by (rewrite !set_list, Z.eqb_refl, orb_true_r; reflexivity).
    assert (Lb : existsb (Z.eqb b) (snd (set_offset mid f pts (set_offset mid f pts st a) b)) = true) by (rewrite !set_list, Z.eqb_refl, orb_true_r; reflexivity).
    rewrite (pairs_seen _ _ _ _ _ La), (pairs_seen _ _ _ _ _ Lb). rewrite set_other by exact N. split.
    + destruct st as (o, l). cbn [snd] in Ha. unfold set_offset. rewrite Ha. cbn [fst]. rewrite Z.eqb_refl. reflexivity.
    + assert (Hb2 : existsb (Z.eqb b) (snd (set_offset mid f pts st a)) = false) by (rewrite set_list, Hb; cbn [orb]; lia).
      destruct (set_offset mid f pts st a) as (o, l). cbn [snd] in Hb2. unfold set_offset. rewrite Hb2. cbn [fst]. rewrite Z.eqb_refl. reflexivity.
  - apply IH; [ exact N | destruct Hin as [E | Hin]; [ injection E as -> ->; congruence | exact Hin ] | | | intros; apply H; right; assumption ].
    + unfold scale_pair. rewrite !set_list, Ha. cbn [orb]. lia.
    + unfold scale_pair. rewrite !set_list, Hb. cbn [orb]. lia.
Qed.
(** The two lines that the columns on the two sides of a face have at one of its ends. *)
Definition Across (nj ni : Z) (xs : extras) (f : fault) (a b : Z) : Prop :=
  (exists j i ip, In (j, i) (f_kelp_j f) /\ bit ip /\ Uses nj ni xs (j + 1) (i + ip) j i a /\ Uses nj ni xs (j + 1) (i + ip) (j + 1) i b)
  \/ (exists j i jp, In (j, i) (f_kelp_i f) /\ bit jp /\ Uses nj ni xs (j + jp) (i + 1) j i a /\ Uses nj ni xs (j + jp) (i + 1) j (i + 1) b).
Definition InGrid (nj ni : Z) (f : fault) : Prop :=
  (forall j i, In (j, i) (f_kelp_j f) -> 0 <= j /\ j + 1 < nj /\ 0 <= i < ni) /\ (forall j i, In (j, i) (f_kelp_i f) -> 0 <= j < nj /\ 0 <= i /\ i + 1 < ni).
Lemma pairs_across nj ni xs m f : InGrid nj ni f ->
  (forall j i jp ip, 0 <= j < nj -> 0 <= i < ni -> bit jp -> bit ip -> Uses nj ni xs (j + jp) (i + ip) j i (m j i jp ip)) ->
  forall a b, In (a, b) (pairs_of_kelp m (f_kelp_j f) (f_kelp_i f)) <-> Across nj ni xs f a b.
Proof.
  intros (Gj & Gi) U a b. unfold pairs_of_kelp. rewrite in_app_iff, !in_flat_map.
  assert (b0 : bit 0) by (unfold bit; lia). assert (b1 : bit 1) by (unfold bit; lia). split.
  - intros [((j, i) & Hin & Hm) | ((j, i) & Hin & Hm)]; apply in_map_iff in Hm; destruct Hm as (p & E & Hp); injection E as <- <-;
      assert (Bp : bit p) by (unfold bit; cbn [In] in Hp; lia).
    + left. destruct (Gj j i Hin) as (? & ? & ?). exists j, i, p. split; [ exact Hin |]. split; [ exact Bp |]. split; [ apply U; auto; lia |].
      replace (j + 1) with (j + 1 + 0) at 1 by lia. apply U; auto; lia.
    + right. destruct (Gi j i Hin) as (? & ? & ?). exists j, i, p. split; [ exact Hin |]. split; [ exact Bp |]. split; [ apply U; auto; lia |].
      replace (i + 1) with (i + 1 + 0) at 1 by lia. apply U; auto; lia.
  - intros [(j & i & p & Hin & Bp & Ua & Ub) | (j & i & p & Hin & Bp & Ua & Ub)].
    + left. exists (j, i). split; [ exact Hin |]. apply in_map_iff. exists p. destruct (Gj j i Hin) as (? & ? & ?). split; [| cbn [In]; unfold bit in Bp; lia ].
      replace (j + 1) with (j + 1 + 0) in Ub at 1 by lia. f_equal; eapply uses_functional; try eassumption; apply U; auto; lia.
    + right. exists (j, i). split; [ exact Hin |]. apply in_map_iff. exists p. destruct (Gi j i Hin) as (? & ? & ?). split; [| cbn [In]; unfold bit in Bp; lia ].
      replace (i + 1) with (i + 1 + 0) in Ub at 1 by lia. f_equal; eapply uses_functional; try eassumption; apply U; auto; lia.
Qed.
Lemma moved_here g xs pj pi j i j2 i2 a b : Pillars g xs -> g_has_split (gg g) = true -> 0 <= pj <= nj g -> 0 <= pi <= ni g ->
  Uses (nj g) (ni g) xs pj pi j i a -> Uses (nj g) (ni g) xs pj pi j2 i2 b -> a <> b ->
  (in_spi g a && (a <? primaries g)) || (primaries g <=? a) = true.
Proof.
  intros P HS Hj Hi Ua Ub N. pose proof P as ((Wj & Wi & WF) & Gx).
  assert (Eg : gg g = of_extras (nj g) (ni g) xs) by (destruct Gx as [Gx | (_ & Gx)]; [ exact Gx | congruence ]).
  destruct Ua as [(e & _ & _ & ->) | (_ & ->)].
  - fold (primaries g). apply orb_true_intro. right. lia.
  - assert (Sp : IsSplitPillar (ni g) xs pj pi).
    { destruct Ub as [(e & (cs & Hx & _) & _ & _) | (_ & ->)]; [| congruence ]. apply in_map_iff. eexists. split; [| eapply nth_error_In; exact Hx ]. reflexivity. }
    apply (in_spi_iff g xs pj pi Eg) in Sp. rewrite Sp. cbn [andb]. assert (0 <= pillar (ni g) pj pi < primaries g) by (unfold pillar, primaries; nia).
    apply orb_true_intro. left. lia.
Qed.
Lemma across_moved g xs f a b : Pillars g xs -> g_has_split (gg g) = true -> InGrid (nj g) (ni g) f -> Across (nj g) (ni g) xs f a b -> a <> b ->
  (in_spi g a && (a <? primaries g)) || (primaries g <=? a) = true /\ (in_spi g b && (b <? primaries g)) || (primaries g <=? b) = true.
Proof.
  intros P HS (Gj & Gi) [(j & i & p & Hin & Bp & Ua & Ub) | (j & i & p & Hin & Bp & Ua & Ub)] N; unfold bit in Bp.
  - destruct (Gj j i Hin) as (? & ? & ?). assert (Rj : 0 <= j + 1 <= nj g) by lia. assert (Ri : 0 <= i + p <= ni g) by lia.
    split; [ exact (moved_here g xs _ _ _ _ _ _ a b P HS Rj Ri Ua Ub N) | exact (moved_here g xs _ _ _ _ _ _ b a P HS Rj Ri Ub Ua (not_eq_sym N)) ].
  - destruct (Gi j i Hin) as (? & ? & ?). assert (Rj : 0 <= j + p <= nj g) by lia. assert (Ri : 0 <= i + 1 <= ni g) by lia.
    split; [ exact (moved_here g xs _ _ _ _ _ _ a b P HS Rj Ri Ua Ub N) | exact (moved_here g xs _ _ _ _ _ _ b a P HS Rj Ri Ub Ua (not_eq_sym N)) ].
Qed.
Lemma dict_other g m ref q : forall l o, (forall f2 c d, In f2 l -> f_scaling f2 <> None -> In (c, d) (pairs_of_kelp m (f_kelp_j f2) (f_kelp_i f2)) -> q <> c /\ q <> d) ->
  offsets_by_dict g m l ref o q = o q.
Proof.
  unfold offsets_by_dict. induction l as [|f l IH]; intros o H; [ reflexivity |]. cbn [fold_left]. rewrite IH by (intros f2 c d Hin; apply H; right; exact Hin).
  destruct (f_scaling f) as [s|] eqn:Es; [| reflexivity ]. destruct (Qeq_bool s 1); [ reflexivity |].
  destruct (pairs_other s (g_pts g ref) q (pairs_of_kelp m (f_kelp_j f) (f_kelp_i f)) (o, [])) as (X & _); [| exact X ].
  intros c d Hcd. apply (H f c d (or_introl eq_refl)); [ congruence | exact Hcd ].
Qed.
(** A fault with a factor other than 1 in the dictionary: where two coordinate lines that face each other across it face no
    others across it, or across a later fault of the dictionary, their throw in the reference row is the old throw times
    the factor of the fault, whatever the default factor, and their mid point stays. *)
Theorem C93_named_fault_partial : forall g xs s0 l1 f l2 s ref, Pillars g xs -> g_has_split (gg g) = true -> g_gap_after g = None -> g_pdef g = None -> 0 <= ref <= g_nk g ->
  (forall f2, In f2 (l1 ++ f :: l2) -> InGrid (nj g) (ni g) f2) -> f_scaling f = Some s -> ~ (s == 1)%Q ->
  exists g', fault_throw_scaling g s0 (Some (l1 ++ f :: l2)) ref = Ok g' /\ gg g' = gg g /\ g_nk g' = g_nk g /\
    forall a b, a <> b -> Across (nj g) (ni g) xs f a b ->
      (forall c d, Across (nj g) (ni g) xs f c d -> (c, d) = (a, b) \/ (c <> a /\ c <> b /\ d <> a /\ d <> b)) ->
      (forall f2 c d, In f2 l2 -> f_scaling f2 <> None -> Across (nj g) (ni g) xs f2 c d -> a <> c /\ a <> d /\ b <> c /\ b <> d) ->
      Same (vsub (g_pts g' ref a) (g_pts g' ref b)) (vscale s (vsub (g_pts g ref a) (g_pts g ref b)))
      /\ Same (vscale (1 # 2) (vadd (g_pts g' ref a) (g_pts g' ref b))) (vscale (1 # 2) (vadd (g_pts g ref a) (g_pts g ref b)))
      /\ forall r, Same (vsub (g_pts g' r a) (g_pts g' ref a)) (vsub (g_pts g r a) (g_pts g ref a)) /\ Same (vsub (g_pts g' r b) (g_pts g' ref b)) (vsub (g_pts g r b) (g_pts g ref b)).
Proof.
  intros g xs s0 l1 f l2 s ref P HS HG HP Hr HI Hs Ns. unfold fault_throw_scaling. rewrite HS, HP.
  replace (match s0 with Some _ | _ => true end) with true by (destruct s0; reflexivity).
  replace ((0 <=? ref) && (ref <=? g_nk g)) with true by lia. cbn [assert_ bind].
  assert (Ho : exists o, match s0 with Some s => offsets_by_factor g s ref | None => Ok (fun _ => V 0 0 0) end = Ok o).
  { destruct s0 as [x|]; [| eexists; reflexivity ]. unfold offsets_by_factor. destruct (C85_healed g xs P HS) as (u & Eu & _). rewrite Eu. unfold has_gaps. rewrite HG.
    cbn [bind]. eexists. reflexivity. }
  destruct Ho as (o & Eo). rewrite Eo. destruct (map_ok g xs P) as (m & Em & U & _). rewrite Em.
  cbn [bind].
  eexists. split; [ reflexivity |]. split; [ reflexivity |]. split; [ reflexivity |]. intros a b N Ac One Later.
  assert (If : InGrid (nj g) (ni g) f) by (apply HI; apply in_elt).
  destruct (across_moved g xs f a b P HS If Ac N) as (Ma & Mb). cbn [g_pts]. rewrite Ma, Mb.
  assert (Of : forall q, (forall f2 c d, In f2 l2 -> f_scaling f2 <> None -> Across (nj g) (ni g) xs f2 c d -> q <> c /\ q <> d) ->
     offsets_by_dict g m (l1 ++ f :: l2) ref o q = fst (fold_left (scale_pair s (g_pts g ref)) (pairs_of_kelp m (f_kelp_j f) (f_kelp_i f)) (offsets_by_dict g m l1 ref o, [])) q).
  { intros q Hq. unfold offsets_by_dict at 1. rewrite fold_left_app. cbn [fold_left]. rewrite Hs.
    replace (Qeq_bool s 1) with false by (symmetry; destruct (Qeq_bool s 1) eqn:Q1; [ apply Qeq_bool_iff in Q1; contradiction | reflexivity ]).
    etransitivity; [ apply (dict_other g m ref q l2) | reflexivity ]. intros f2 c d Hin Hn Hcd. apply (Hq f2 c d Hin Hn).
    apply (pairs_across (nj g) (ni g) xs m f2) in Hcd; [ exact Hcd | apply HI; apply in_or_app; right; right; exact Hin | exact U ]. }
  rewrite (Of a), (Of b) by (intros f2 c d Hin Hn Hcd; destruct (Later f2 c d Hin Hn Hcd) as (? & ? & ? & ?); split; assumption).
  destruct (pairs_hit s (g_pts g ref) a b (pairs_of_kelp m (f_kelp_j f) (f_kelp_i f)) (offsets_by_dict g m l1 ref o, []) N) as (Xa & Xb); try reflexivity.
  { apply (pairs_across _ _ xs m f If U). exact Ac. }
  { intros c d Hcd. apply One. apply (pairs_across _ _ xs m f If U). exact Hcd. }
  rewrite Xa, Xb. unfold Same, vadd, vsub, vscale. cbn [vx vy vz]. split; [ repeat split; ring |]. split; [ repeat split; ring |]. intros r. split; repeat split; ring.
Qed.
Print Assumptions C93_named_fault_partial.
(** A coordinate line that is not at a face of a fault of the dictionary is where it is without the dictionary; without
    a default factor that is where it was. *)
Theorem C93_other_faults : forall g xs l ref s0 g', Pillars g xs -> g_has_split (gg g) = true -> g_gap_after g = None -> g_pdef g = None -> 0 <= ref <= g_nk g ->
  (forall f2, In f2 l -> InGrid (nj g) (ni g) f2) -> fault_throw_scaling g s0 (Some l) ref = Ok g' ->
  forall n r, (forall f c d, In f l -> f_scaling f <> None -> Across (nj g) (ni g) xs f c d -> n <> c /\ n <> d) ->
    match s0 with
    | None => Same (g_pts g' r n) (g_pts g r n)
    | Some s => exists g0, fault_throw_scaling g (Some s) None ref = Ok g0 /\ Same (g_pts g' r n) (g_pts g0 r n)
    end.
Proof.
  intros g xs l ref s0 g' P HS HG HP Hr HI E n r Hn. unfold fault_throw_scaling in *. rewrite HS, HP in *.
  replace ((0 <=? ref) && (ref <=? g_nk g)) with true in * by lia.
  replace (match s0 with Some _ | _ => true end) with true in E by (destruct s0; reflexivity). cbn [assert_ bind] in *.
  destruct (map_ok g xs P) as (m & Em & U & _). rewrite Em in E. cbn [bind] in E.
  assert (D : forall o, offsets_by_dict g m l ref o n = o n).
  { intros o. apply dict_other. intros f2 c d Hin Hs Hcd. apply (Hn f2 c d Hin Hs). apply (pairs_across (nj g) (ni g) xs m f2) in Hcd; [ exact Hcd | apply HI; exact Hin | exact U ]. }
  destruct s0 as [s|].
  - destruct (offsets_by_factor g s ref) as [o | x]; [| discriminate ]. cbn [bind] in *. eexists. split; [ reflexivity |]. injection E as <-. cbn [g_pts]. rewrite D. apply same_refl.
  - cbn [bind] in E. injection E as <-. cbn [g_pts]. rewrite D. destruct ((in_spi g n && (n <? primaries g)) || (primaries g <=? n)); [| apply same_refl ].
    unfold Same, vadd. cbn [vx vy vz]. repeat split; ring.
Qed.
Print Assumptions C93_other_faults.

(** ** Where it goes wrong *)
(** a row of two columns with a throw of 4 between them, and two layers *)
Definition step : geo := Geo (of_extras 1 2 [(1, [1]); (4, [1])]) 2 None
  (fun r p => V (inject_Z (p mod 3)) (inject_Z (p / 3)) (inject_Z (10 * r + (if 6 <=? p then 4 else 0)))) None None.
Example step_pillars : Pillars step [(1, [1]); (4, [1])].
Proof.
  split; [| left; reflexivity ]. split; [ reflexivity |]. split; [ reflexivity |].
  repeat constructor; cbn; try lia; [ exists 0, 1, 0, 0 | exists 0, 1, 1, 0 ]; repeat split; cbn; lia.
Qed.
Definition throw_at (x : res geo) (r a b : Z) : option Q := match x with Ok g => Some (Qred (vz (g_pts g r a) - vz (g_pts g r b))) | Err _ => None end.
Lemma throw_is g r a b q : throw_at (Ok g) r a b = Some q -> (vz (g_pts g r a) - vz (g_pts g r b) == q)%Q.
Proof. unfold throw_at. intros H. assert (E : Qred (vz (g_pts g r a) - vz (g_pts g r b)) = q) by congruence. rewrite <- E. symmetry. apply Qred_correct. Qed.
Example step_scaled : throw_at (fault_throw_scaling step (Some (3 # 1)) None 0) 1 6 1 = Some (12 # 1)%Q
  /\ throw_at (fault_throw_scaling step None (Some [Fault (Some (1 # 2)%Q) [] [(0, 0)]]) 0) 2 6 1 = Some (2 # 1)%Q
  /\ throw_at (unsplit_grid step) 0 1 0 = Some (2 # 1)%Q
  /\ (exists g, interpolated_grid step step (1 # 2) = Ok (Some g) /\ throw_at (Ok g) 0 6 1 = Some (4 # 1)%Q).
Proof. split; [ vm_compute; reflexivity |]. split; [ vm_compute; reflexivity |]. split; [ vm_compute; reflexivity |]. eexists. split; [ reflexivity | vm_compute; reflexivity ]. Qed.
Lemma step_uses : Uses 1 2 [(1, [1]); (4, [1])] 0 1 0 0 1 /\ Uses 1 2 [(1, [1]); (4, [1])] 0 1 0 1 6.
Proof.
  split; [ right | left ].
  - split; [| reflexivity ]. intros [|[|[|e]]] (cs & H & Hc); try discriminate; injection H as <-; cbn in Hc; lia.
  - exists 0%nat. split; [ exists [1]; split; [ reflexivity | left; reflexivity ] |]. split; [| reflexivity ].
    intros [|[|[|e]]] (cs & H & Hc); try lia; discriminate.
Qed.
(** A fault that the dictionary gives the factor 1 has its throw changed by the default factor. *)
Theorem C93_named_factor_one_refuted : exists g xs f a b g', Pillars g xs /\ InGrid (nj g) (ni g) f /\ f_scaling f = Some 1%Q /\ a <> b /\ Across (nj g) (ni g) xs f a b
  /\ fault_throw_scaling g (Some 2%Q) (Some [f]) 0 = Ok g' /\ ~ Same (vsub (g_pts g' 0 a) (g_pts g' 0 b)) (vsub (g_pts g 0 a) (g_pts g 0 b)).
Proof.
  destruct (fault_throw_scaling step (Some 2%Q) (Some [Fault (Some 1%Q) [] [(0, 0)]]) 0) as [g' | x] eqn:E.
  2:{ exfalso. assert (K : throw_at (fault_throw_scaling step (Some 2%Q) (Some [Fault (Some 1%Q) [] [(0, 0)]]) 0) 0 1 6 = Some (-8 # 1)%Q) by (vm_compute; reflexivity). rewrite E in K. discriminate. }
  exists step, [(1, [1]); (4, [1])], (Fault (Some 1%Q) [] [(0, 0)]), 1, 6, g'. split; [ exact step_pillars |].
  split. { split; [ intros j i [] | intros j i [K | []]; injection K as <- <-; cbn; lia ]. }
  split; [ reflexivity |]. split; [ lia |].
  split. { right. exists 0, 0, 0. split; [ left; reflexivity |]. split; [ unfold bit; lia |]. exact step_uses. }
  split; [ exact E |]. intros (_ & _ & K).
  assert (K2 : throw_at (fault_throw_scaling step (Some 2%Q) (Some [Fault (Some 1%Q) [] [(0, 0)]]) 0) 0 1 6 = Some (-8 # 1)%Q) by (vm_compute; reflexivity).
  rewrite E in K2. apply throw_is in K2.
  unfold vsub in K. cbn [vz] in K. rewrite K2 in K. vm_compute in K. discriminate.
Qed.
Print Assumptions C93_named_factor_one_refuted.
(** Where three lines meet in a fault, the throws between them are not all multiplied by its factor. *)
Definition corner3 : geo := Geo (of_extras 2 2 [(4, [1]); (4, [2])]) 1 None
  (fun r p => V (inject_Z (p mod 3)) (inject_Z (p / 3)) (inject_Z (10 * r + (if p =? 9 then 8 else if p =? 10 then 4 else 0)))) None None.
Theorem C93_three_lines_refuted : exists g xs f a b s g', Pillars g xs /\ InGrid (nj g) (ni g) f /\ f_scaling f = Some s /\ ~ (s == 1)%Q /\ a <> b /\ Across (nj g) (ni g) xs f a b
  /\ fault_throw_scaling g None (Some [f]) 0 = Ok g' /\ ~ Same (vsub (g_pts g' 0 a) (g_pts g' 0 b)) (vscale s (vsub (g_pts g 0 a) (g_pts g 0 b))).
Proof.
  set (f := Fault (Some 2%Q) [(0, 0)] [(0, 0)]). set (xs := [(4, [1]); (4, [2])]).
  assert (K2 : throw_at (fault_throw_scaling corner3 None (Some [f]) 0) 0 4 9 = Some (-14 # 1)%Q) by (vm_compute; reflexivity).
  destruct (fault_throw_scaling corner3 None (Some [f]) 0) as [g' | x] eqn:E; [| discriminate ].
  exists corner3, xs, f, 4, 9, 2%Q, g'.
  split. { split; [| left; reflexivity ]. split; [ reflexivity |]. split; [ reflexivity |]. repeat constructor; cbn; try lia; [ exists 0, 1, 1, 0 | exists 1, 0, 0, 1 ]; repeat split; cbn; lia. }
  split. { split; intros j i [K | []]; injection K as <- <-; cbn; lia. }
  split; [ reflexivity |]. split; [ discriminate |]. split; [ lia |].
  split. { right. exists 0, 0, 1. split; [ left; reflexivity |]. split; [ unfold bit; lia |]. split; [ right | left ].
    - split; [| reflexivity ]. intros [|[|[|e]]] (cs & H & Hc); try discriminate; injection H as <-; cbn in Hc; lia.
    - exists 0%nat. split; [ exists [1]; split; [ reflexivity | left; reflexivity ] |]. split; [| reflexivity ].
      intros [|[|[|e]]] (cs & H & Hc); try lia; try discriminate. injection H as <-; cbn in Hc; lia. }
  split; [ exact E |]. intros (_ & _ & K). apply throw_is in K2.
  unfold vsub, vscale in K. cbn [vz] in K. rewrite K2 in K. vm_compute in K. discriminate.
Qed.
Print Assumptions C93_three_lines_refuted.
