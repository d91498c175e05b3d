(** DrapeProps.v: C94, draped grids. *)
From Coq Require Import Lqa.
From Verif Require Import Base QBase IntersectModel IntersectProofs PillarModel PillarProofs PointsModel PointsProofs PointsProps ThrowModel ThrowProps DrapeModel.
Open Scope Z_scope.

Lemma healed_any g xs : Pillars g xs -> exists u, unsplit_points_ref g = Ok u /\
  forall r pj pi ps, 0 <= pj <= nj g -> 0 <= pi <= ni g ->
    Forall2 (fun c x => OnPillar g xs r pj pi (fst c) (snd c) x) (around (nj g) (ni g) pj pi) ps -> Same (u r pj pi) (vmean ps).
Proof.
  intros Pg. destruct (g_has_split (gg g)) eqn:HS.
  - destruct (C85_healed g xs Pg HS) as (u & E & A). exists u. split; [ exact E |]. intros r pj pi ps Hj Hi F.
    destruct (A r pj pi Hj Hi) as (ps' & F' & Hm). rewrite (on_unique _ _ _ _ _ _ _ _ F F'). exact Hm.
  - exists (pts4 g). split; [ unfold unsplit_points_ref; rewrite HS; reflexivity |]. intros r pj pi ps Hj Hi F.
    assert (X : xs = []) by (destruct Pg as (_ & [E | (E & _)]); [ rewrite E in HS; discriminate | exact E ]). subst xs.
    assert (NS : ~ IsSplitPillar (ni g) [] pj pi) by (intros []).
    assert (W := C85_healing_leaves_whole_pillars g [] Pg (pts4 g) ltac:(unfold unsplit_points_ref; rewrite HS; reflexivity) r pj pi Hj Hi NS).
    eapply same_trans; [ exact W |]. set (p := g_pts g r (pillar (ni g) pj pi)) in *.
    assert (Al : Forall (fun x => x = p) ps).
    { clear - F. induction F as [| c x cs ps (n & U & ->) F IH]; constructor; [| exact IH ]. rewrite (uses_functional _ _ _ _ _ _ _ _ _ U (uses_nil _ _ _ _ _ _)). reflexivity. }
    assert (Ln : ps <> []).
    { intros ->. inversion F as [K |]. unfold around in K. cbn [filter fst snd] in K. destruct Pg as ((Wj & Wi & _) & _).
      destruct (Z.eq_dec pj (nj g)), (Z.eq_dec pi (ni g));
        repeat match type of K with context [if (?a && ?b && ?c && ?d)%bool then _ else _] => destruct (a && b && c && d)%bool eqn:?; try discriminate K end; lia. }
    assert (Sm : Same (fold_right vadd (V 0 0 0) ps) (vscale (inject_Z (Z.of_nat (List.length ps))) p)).
    { clear - Al. induction Al as [| x ps -> Al (X & Y & Z0)].
      - unfold Same, vscale. cbn [fold_right vx vy vz List.length]. change (inject_Z (Z.of_nat 0)) with 0%Q. repeat split; ring.
      - cbn [fold_right List.length]. rewrite Nat2Z.inj_succ. unfold Z.succ. unfold Same, vadd, vscale in *. cbn [vx vy vz] in *.
        rewrite inject_Z_plus. change (inject_Z 1) with 1%Q. rewrite X, Y, Z0. repeat split; ring. }
    assert (N : ~ (inject_Z (Z.of_nat (List.length ps)) == 0)%Q).
    { intros K. apply Ln. unfold Qeq, inject_Z in K. cbn [Qnum Qden] in K. destruct ps as [|x0 ps0]; [ reflexivity |]. exfalso. clear - K. cbn [List.length] in K. lia. }
    unfold vmean. destruct Sm as (X & Y & Z0). unfold Same, vscale in *. cbn [vx vy vz] in *. rewrite X, Y, Z0. repeat split; field; exact N.
Qed.
(** Draping moves every line at a pillar by the same vector in all rows: from the mean, over the columns around, of the
    points in the reference row to the place where the pillar meets the surface. *)
Theorem C94_drape_moves : forall g xs picks ref base, Pillars g xs -> g_pdef g = None -> g_cdef g = None -> 0 <= ref < g_nk g ->
  (forall pj pi, 0 <= pj <= nj g -> 0 <= pi <= ni g -> picks (pillar (ni g) pj pi) <> None) ->
  exists g', drape_to_surface g picks ref base = Ok g' /\ gg g' = gg g /\ g_nk g' = g_nk g /\ g_gap_after g' = g_gap_after g /\
    forall r pj pi j i p ps x p', 0 <= pj <= nj g -> 0 <= pi <= ni g -> OnPillar g xs r pj pi j i p ->
      Forall2 (fun c q => OnPillar g xs (ref + (if base then 1 else 0)) pj pi (fst c) (snd c) q) (around (nj g) (ni g) pj pi) ps ->
      picks (pillar (ni g) pj pi) = Some x -> OnPillar g' xs r pj pi j i p' -> Same p' (vadd p (vsub x (vmean ps))).
Proof.
  intros g xs picks ref base Pg HP HC Hr Hx. unfold drape_to_surface. rewrite HP, HC. replace ((0 <=? ref) && (ref <? g_nk g)) with true by lia. cbn [assert_ bind].
  destruct (healed_any g xs Pg) as (u & E & A). rewrite E. cbn [bind]. pose proof Pg as ((Wj & Wi & WF) & Gx).
  replace (forallb (fun p => match picks p with Some _ => true | None => false end) (zrange ((nj g + 1) * (ni g + 1)))) with true.
  2:{ symmetry. apply forallb_forall. intros p Hp. apply in_zrange in Hp. specialize (Hx (p / (ni g + 1)) (p mod (ni g + 1))). unfold pillar in Hx.
      assert (M := Z.mod_pos_bound p (ni g + 1) ltac:(lia)). assert (D : p / (ni g + 1) * (ni g + 1) + p mod (ni g + 1) = p) by (pose proof (Z.div_mod p (ni g + 1)); lia).
      rewrite D in Hx. assert (0 <= p / (ni g + 1)) by (apply Z.div_pos; lia). assert (p / (ni g + 1) < nj g + 1) by (apply Z.div_lt_upper_bound; lia).
      specialize (Hx ltac:(lia) ltac:(lia)). destruct (picks p); [ reflexivity | congruence ]. }
  cbn [assert_ bind]. eexists. split; [ reflexivity |]. split; [ reflexivity |]. split; [ reflexivity |]. split; [ reflexivity |].
  intros r pj pi j i p ps x p' Hj Hi (n & U & ->) F Ex (n2 & U2 & ->). change (Uses (nj g) (ni g) xs pj pi j i n2) in U2.
  rewrite (uses_functional _ _ _ _ _ _ _ _ _ U2 U). clear U2. cbn [g_pts].
  assert (Hm : Same (u (if base then ref + 1 else ref) pj pi) (vmean ps)).
  { apply A; try assumption. destruct base; [ exact F | rewrite Z.add_0_r in F; exact F ]. }
  assert (Hpr : 0 <= pillar (ni g) pj pi < (nj g + 1) * (ni g + 1)) by (unfold pillar; nia).
  destruct (divmod_unique (ni g + 1) pj pi ltac:(lia)) as (D & M). fold (pillar (ni g) pj pi) in D, M.
  assert (G : shift_by_translation_vectors g (fun p => match picks p with Some x => vsub x (u (if base then ref + 1 else ref) (p / (ni g + 1)) (p mod (ni g + 1))) | None => V 0 0 0 end) r n
            = vadd (g_pts g r n) (vsub x (u (if base then ref + 1 else ref) pj pi))).
  { unfold shift_by_translation_vectors. destruct U as [(e & (cs & Hn & _) & _ & ->) | (_ & ->)].
    - assert (Eg : gg g = of_extras (nj g) (ni g) xs) by (destruct Gx as [Gx | (-> & _)]; [ exact Gx | destruct e; discriminate ]).
      replace (g_has_split (gg g)) with true by (rewrite Eg; reflexivity). replace ((nj g + 1) * (ni g + 1) + Z.of_nat e <? (nj g + 1) * (ni g + 1)) with false by lia.
      replace (nth (Z.to_nat ((nj g + 1) * (ni g + 1) + Z.of_nat e - (nj g + 1) * (ni g + 1))) (g_spi (gg g)) 0) with (pillar (ni g) pj pi).
      2:{ replace (Z.to_nat ((nj g + 1) * (ni g + 1) + Z.of_nat e - (nj g + 1) * (ni g + 1))) with e by lia. rewrite Eg. cbn [g_spi of_extras]. change 0 with (fst ((0, []) : Z * list Z)).
          rewrite map_nth. rewrite (nth_error_nth _ _ _ Hn). reflexivity. }
      rewrite Ex, D, M. reflexivity.
    - destruct (g_has_split (gg g)); [ replace (pillar (ni g) pj pi <? (nj g + 1) * (ni g + 1)) with true by lia |]; rewrite Ex, D, M; reflexivity. }
  rewrite G. destruct Hm as (X & Y & Z0). unfold Same, vadd, vsub. cbn [vx vy vz]. rewrite X, Y, Z0. repeat split; reflexivity.
Qed.
Print Assumptions C94_drape_moves.
(** A pillar that misses the surface stops it. *)
Theorem C94_drape_refuses : forall g xs picks ref base pj pi, Pillars g xs -> 0 <= pj <= nj g -> 0 <= pi <= ni g -> picks (pillar (ni g) pj pi) = None ->
  drape_to_surface g picks ref base = Err AssertionError.
Proof.
  intros g xs picks ref base pj pi Pg Hj Hi Hx. unfold drape_to_surface. destruct ((0 <=? ref) && (ref <? g_nk g)); [| reflexivity ]. cbn [assert_ bind].
  destruct (g_pdef g); [ reflexivity |]. cbn [assert_ bind]. destruct (g_cdef g); [ reflexivity |]. cbn [assert_ bind].
  destruct (healed_any g xs Pg) as (u & E & _). rewrite E. cbn [bind].
  replace (forallb (fun p => match picks p with Some _ => true | None => false end) (zrange ((nj g + 1) * (ni g + 1)))) with false; [ reflexivity |].
  symmetry. apply not_true_is_false. intros K. rewrite forallb_forall in K. specialize (K (pillar (ni g) pj pi)). rewrite Hx in K.
  assert (0 <= pillar (ni g) pj pi < (nj g + 1) * (ni g + 1)) by (unfold pillar; nia). specialize (K ltac:(apply in_zrange; lia)). discriminate.
Qed.
Print Assumptions C94_drape_refuses.
Lemma mean_moved x : forall ps ps', Forall2 (fun p p' => Same p' (vadd p x)) ps ps' ->
  Same (fold_right vadd (V 0 0 0) ps') (vadd (fold_right vadd (V 0 0 0) ps) (vscale (inject_Z (Z.of_nat (List.length ps))) x)).
Proof.
  intros ps ps' F. induction F as [| p p' ps ps' (X & Y & Z0) F (X2 & Y2 & Z2)].
  - unfold Same, vadd, vscale. cbn [fold_right vx vy vz List.length]. change (inject_Z (Z.of_nat 0)) with 0%Q. repeat split; ring.
  - cbn [fold_right List.length]. rewrite Nat2Z.inj_succ. unfold Z.succ. unfold Same, vadd, vscale in *. cbn [vx vy vz] in *.
    rewrite inject_Z_plus. change (inject_Z 1) with 1%Q. rewrite X, Y, Z0, X2, Y2, Z2. repeat split; ring.
Qed.
(** So the pillars of the draped grid meet the surface in the reference row, each in the mean of the points of the columns
    around it; throws between columns and thicknesses along lines are as they were. *)
Theorem C94_draped : forall g xs picks ref base g', Pillars g xs -> g_pdef g = None -> g_cdef g = None -> 0 <= ref < g_nk g ->
  (forall pj pi, 0 <= pj <= nj g -> 0 <= pi <= ni g -> picks (pillar (ni g) pj pi) <> None) -> drape_to_surface g picks ref base = Ok g' ->
  forall pj pi, 0 <= pj <= nj g -> 0 <= pi <= ni g ->
    (forall x ps', picks (pillar (ni g) pj pi) = Some x ->
       Forall2 (fun c q => OnPillar g' xs (ref + (if base then 1 else 0)) pj pi (fst c) (snd c) q) (around (nj g) (ni g) pj pi) ps' -> Same (vmean ps') x)
    /\ (forall r j i j2 i2 a b a' b', OnPillar g xs r pj pi j i a -> OnPillar g xs r pj pi j2 i2 b ->
       OnPillar g' xs r pj pi j i a' -> OnPillar g' xs r pj pi j2 i2 b' -> Same (vsub a' b') (vsub a b))
    /\ (forall r r2 j i a b a' b', OnPillar g xs r pj pi j i a -> OnPillar g xs r2 pj pi j i b ->
       OnPillar g' xs r pj pi j i a' -> OnPillar g' xs r2 pj pi j i b' -> Same (vsub a' b') (vsub a b)).
Proof.
  intros g xs picks ref base g' Pg HP HC Hr Hx E pj pi Hj Hi.
  destruct (C94_drape_moves g xs picks ref base Pg HP HC Hr Hx) as (g2 & E2 & _ & _ & _ & A). rewrite E in E2. injection E2 as <-.
  destruct (pillar_lists g xs Pg (ref + (if base then 1 else 0)) pj pi Hj Hi) as (ps & F).
  destruct (picks (pillar (ni g) pj pi)) as [x|] eqn:Ex; [| destruct (Hx pj pi Hj Hi Ex) ]. split; [| split ].
  - intros x0 ps' X0 F'. injection X0 as <-. 
    assert (G : Forall2 (fun p p' => Same p' (vadd p (vsub x (vmean ps)))) ps ps').
    { assert (A' : forall j i a a', OnPillar g xs (ref + (if base then 1 else 0)) pj pi j i a -> OnPillar g' xs (ref + (if base then 1 else 0)) pj pi j i a' -> Same a' (vadd a (vsub x (vmean ps))))
        by (intros j i a a' Oa Oa'; exact (A _ pj pi j i a ps x a' Hj Hi Oa F Ex Oa')).
      clear - F F' A'. set (m := vmean ps) in *. clearbody m. revert ps' F'. induction F as [| c p cs ps O F IH]; intros ps' F'; inversion F'; subst; constructor.
      - eapply A'; eassumption.
      - apply IH; assumption. }
    assert (L : List.length ps' = List.length ps) by (revert G; generalize (vmean ps) as m; intros m G; clear - G; induction G; cbn [List.length]; congruence).
    assert (Ln : ps <> []).
    { intros ->. inversion F as [K |]. unfold around in K. cbn [filter fst snd] in K. destruct Pg as ((Wj & Wi & _) & _).
      destruct (Z.eq_dec pj (nj g)), (Z.eq_dec pi (ni g));
        repeat match type of K with context [if (?a && ?b && ?c && ?d)%bool then _ else _] => destruct (a && b && c && d)%bool eqn:?; try discriminate K end; lia. }
    destruct (mean_moved _ ps ps' G) as (X & Y & Z0). unfold vmean at 1. rewrite L.
    assert (N : ~ (inject_Z (Z.of_nat (List.length ps)) == 0)%Q).
    { intros K. apply Ln. unfold Qeq, inject_Z in K. cbn [Qnum Qden] in K. destruct ps as [|x0 ps0]; [ reflexivity |]. exfalso. clear - K. cbn [List.length] in K. lia. }
    unfold vmean in *. set (t := fold_right vadd (V 0 0 0) ps) in *. set (nn := inject_Z (Z.of_nat (List.length ps))) in *.
    unfold Same, vadd, vsub, vscale in *. cbn [vx vy vz] in *. rewrite X, Y, Z0. repeat split; field; exact N.
  - intros r j i j2 i2 a b a' b' Oa Ob Oa' Ob'. pose proof (A r pj pi j i a ps x a' Hj Hi Oa F Ex Oa') as (X & Y & Z0).
    pose proof (A r pj pi j2 i2 b ps x b' Hj Hi Ob F Ex Ob') as (X2 & Y2 & Z2). unfold Same, vadd, vscale, vsub in *. cbn [vx vy vz] in *.
    rewrite X, Y, Z0, X2, Y2, Z2. repeat split; ring.
  - intros r r2 j i a b a' b' Oa Ob Oa' Ob'. pose proof (A r pj pi j i a ps x a' Hj Hi Oa F Ex Oa') as (X & Y & Z0).
    pose proof (A r2 pj pi j i b ps x b' Hj Hi Ob F Ex Ob') as (X2 & Y2 & Z2). unfold Same, vadd, vscale, vsub in *. cbn [vx vy vz] in *.
    rewrite X, Y, Z0, X2, Y2, Z2. repeat split; ring.
Qed.
Print Assumptions C94_draped.
(** With k gaps the row of points numbered as the reference layer is not at the top of that layer: layer 1 of a grid draped
    with reference layer 1 is not put on the surface. *)
Theorem C94_drape_refuted : exists g picks g' x p, Pillars g [] /\ Layers g /\ drape_to_surface g picks 1 false = Ok g'
  /\ picks 0 = Some x /\ Corner g' [] 1 0 0 0 0 0 p /\ ~ Same p x.
Proof.
  exists gappy, (fun p => Some (V (inject_Z (p mod 2)) (inject_Z (p / 2)) 100)). eexists _, _, _.
  split. { split; [ split; [ cbn; lia | split; [ cbn; lia | constructor ] ] | right; split; reflexivity ]. }
  split. { split; [ cbn; lia |]. intros l E. injection E as <-. reflexivity. }
  split; [ reflexivity |]. split; [ reflexivity |]. split; [ eexists; split; [ apply uses_nil | reflexivity ] |].
  intros (_ & _ & H). vm_compute in H. discriminate.
Qed.
Print Assumptions C94_drape_refuted.
Definition flat_picks (p : Z) : option vec := Some (V (inject_Z (p mod 3)) (inject_Z (p / 3)) 100).
Example step_draped : throw_at (drape_to_surface step flat_picks 0 false) 0 6 1 = Some (4 # 1)%Q
  /\ match drape_to_surface step flat_picks 0 true with Ok g => (Qred (vz (g_pts g 1 0)) = 100 # 1 /\ Qred (vz (g_pts g 1 1)) = 98 # 1 /\ Qred (vz (g_pts g 1 6)) = 102 # 1)%Q | Err _ => False end.
Proof. vm_compute. repeat split; reflexivity. Qed.
