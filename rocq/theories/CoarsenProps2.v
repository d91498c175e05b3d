(** CoarsenProps2.v: properties carried to a finer grid, and there and back (C80). *)
From Verif Require Import Base QBase BisectModel BisectProofs BisectProofs4 TriModel TriProofs3 GcsNexusProofs StrModel BoxModel BoxProofs FineCoarseModel
  FineCoarseProofs FineCoarseProofs2 ProportionProofs FineCoarseProps PropSelModel CoarsenModel CoarsenProofs CoarsenProps.
From Verif Require PropSelProofs.
From Coq Require Import Lqa Permutation.
Open Scope Z_scope.

Lemma axial_vector_ok s d : ValidFC s -> cache s = None -> snd (axial_vector s d) = Ok (map Some (expand 0 (ratios_of (get (ax s) d)))).
Proof. intros V N. unfold axial_vector. rewrite (mapping_valid s V N). cbn [snd bind]. rewrite get_map3. reflexivity. Qed.
Lemma expand_in_range rs : forall c, (forall r, In r rs -> 0 < r) -> forall x, In x (expand c rs) -> c <= x < c + Z.of_nat (List.length rs).
Proof.
  induction rs as [|r rs IH]; intros c H x Hx; [destruct Hx|]. cbn [expand List.length] in *. apply in_app_iff in Hx. destruct Hx as [Hx|Hx].
  - apply repeat_spec in Hx. lia.
  - specialize (IH (c + 1) (fun r Hr => H r (or_intror Hr)) x Hx). lia.
Qed.
Lemma take_along_ok {A} (a : arr A) d l : (forall x, In x l -> 0 <= x < get (shape a) d) ->
  take_along a d (map Some l) = Ok (Arr (set (shape a) d (Z.of_nat (List.length l))) (fun c => el a (set c d (nth (Z.to_nat (get c d)) l 0)))).
Proof.
  intro H. unfold take_along. rewrite mapM_map. rewrite (mapM_ok _ (fun x => x)).
  - cbn [bind]. now rewrite map_id.
  - intros x Hx. specialize (H x Hx). now assert ((0 <=? x) && (x <? get (shape a) d) = true) as -> by lia.
Qed.

Section Refine.
  Context (s : fc) (V : ValidFC s) (N : cache s = None).
  Definition owner_along (d : axis) (f : Z) : Z := nth (Z.to_nat f) (expand 0 (ratios_of (get (ax s) d))) 0.
  Lemma owner_spec f : InExtent f (fine_extent s) -> exists c, InExtent c (coarse_extent s) /\ (forall d, owner_along d (get f d) = get c d) /\
    forall c' b, InExtent c' (coarse_extent s) -> fine_box_for_coarse s c' = Ok b -> (InBox f b <-> c' = c).
  Proof.
    intro Hf. destruct (owner s V f Hf) as (c & Hc & Hl & Ho). exists c. split; [exact Hc|]. split; [|exact Ho].
    intro d. specialize (Hl d). unfold map_lookup in Hl. rewrite get_map3 in Hl. unfold owner_along.
    pose proof (Hf d) as B. unfold fine_extent in B. rewrite get_map3 in B.
    pose proof (V d) as VA. pose proof (expand_length (ratios_of (get (ax s) d)) 0 (va_pos _ VA)) as EL. rewrite (va_sum _ VA) in EL.
    rewrite (py_nth_ok _ _ None) in Hl by (rewrite map_length; lia). injection Hl as Hl.
    rewrite (nth_indep _ None (Some 0)) in Hl by (rewrite map_length; lia). rewrite map_nth in Hl. now injection Hl.
  Qed.
  (** one axis: the shape so far need only agree along that axis *)
  Definition step (a : arr value) (d : axis) : res (arr value) :=
    do v <- snd (axial_vector s d);
    do _ <- (if Z.of_nat (List.length v) =? get (map3 fine (ax s)) d then Ok tt else Err ValueError);
    take_along a d v.
  Lemma step_ok a d : get (shape a) d = coarse (get (ax s) d) ->
    step a d = Ok (Arr (set (shape a) d (fine (get (ax s) d))) (fun c => el a (set c d (owner_along d (get c d))))).
  Proof.
    intro H. unfold step. rewrite (axial_vector_ok s d V N). cbn [bind].
    pose proof (V d) as VA. pose proof (expand_length (ratios_of (get (ax s) d)) 0 (va_pos _ VA)) as EL. rewrite (va_sum _ VA) in EL.
    rewrite map_length, get_map3, EL, Z.eqb_refl. cbn [bind]. rewrite take_along_ok; [now rewrite EL|].
    intros x Hx. rewrite H. pose proof (expand_in_range _ 0 (va_pos _ VA) x Hx) as B. rewrite (va_len _ VA) in B. lia.
  Qed.
  Lemma resampled a : shape a = coarse_extent s ->
    exists r, (do a <- step a K; do a <- step a J; step a I) = Ok r /\ shape r = fine_extent s /\
      forall f, el r f = el a (T (owner_along K (tk f)) (owner_along J (tj f)) (owner_along I (ti f))).
  Proof.
    intro Ha. rewrite step_ok by (rewrite Ha; reflexivity). cbn [bind].
    rewrite step_ok by (cbn [shape]; rewrite Ha; reflexivity). cbn [bind].
    rewrite step_ok by (cbn [shape]; rewrite Ha; reflexivity).
    eexists. split; [reflexivity|]. split; [cbn [shape]; rewrite Ha; reflexivity|].
    intros [k j i]. reflexivity.
  Qed.
End Refine.

(** the property is the length of cells along d, with its direction as a facet *)
Definition LengthAlong (p : part) (d : axis) : Prop := p_cont p = true /\ p_kind p = L "cell length" /\ p_count p = 1 /\ p_dir p = Some d.

Lemma resample_formula fe ce s p a : Mapping fe ce s -> shape a = ce -> p_indexable p = L "cells" ->
  exists r0, shape r0 = fe /\ (forall f, el r0 f = el a (T (owner_along s K (tk f)) (owner_along s J (tj f)) (owner_along s I (ti f)))) /\
  resample fe s p a = match p_dir p with
    | Some d => if p_cont p && str_eqb (p_kind p) (L "cell length") && (p_count p =? 1) then do r <- scale_lengths r0 d s; Ok (Some r) else Ok (Some r0)
    | None => Ok (Some r0) end.
Proof.
  intros M Ha Hp. destruct (mapping_ok _ _ _ M) as (V & _ & F & C & Nn). rewrite <- F in *. rewrite <- C in *.
  destruct (resampled s V Nn a Ha) as (r0 & E & S0 & E0). exists r0. split; [exact S0|]. split; [exact E0|].
  unfold resample. rewrite Hp, (proj2 (PropSelProofs.str_eqb_ok _ _) eq_refl). cbn [negb].
  change (map3 coarse (ax s)) with (coarse_extent s). change (map3 fine (ax s)) with (fine_extent s).
  rewrite Ha, !(proj2 (same_shape_spec _ _) eq_refl). cbn [assert_ bind].
  change (fine_extent s) with (map3 fine (ax s)). unfold step in E.
  cbv zeta. revert E.
  match goal with |- (do a0 <- ?x; _) = _ -> _ => destruct x as [a1|]; [|discriminate] end. cbn [bind].
  match goal with |- (do a0 <- ?x; _) = _ -> _ => destruct x as [a2|]; [|discriminate] end. cbn [bind].
  intros ->. reflexivity.
Qed.

(** a fine cell has the value of the coarse cell it lies in *)
Theorem C80_refine : forall fe ce s p a, Mapping fe ce s -> shape a = ce -> p_indexable p = L "cells" ->
  (forall d, ~ LengthAlong p d) ->
  exists r, resample fe s p a = Ok (Some r) /\ shape r = fe /\
    forall c b f, InExtent c ce -> fine_box_for_coarse s c = Ok b -> InBox f b -> el r f = el a c.
Proof.
  intros fe ce s p a M Ha Hp HL. destruct (resample_formula fe ce s p a M Ha Hp) as (r0 & S0 & E0 & E). exists r0.
  split; [|split; [exact S0|]].
  - rewrite E. destruct (p_dir p) as [d|] eqn:D; [|reflexivity].
    destruct (p_cont p) eqn:C1; [|reflexivity]. cbn [andb]. destruct (str_eqb (p_kind p) (L "cell length")) eqn:C2; [|reflexivity]. cbn [andb].
    destruct (Z.eqb_spec (p_count p) 1) as [C3|C3]; [|reflexivity]. exfalso. apply (HL d). repeat split; try assumption. now apply PropSelProofs.str_eqb_ok.
  - intros c b f Hc Hb Hf. destruct (mapping_ok _ _ _ M) as (V & _ & F & C & Nn). rewrite <- C in Hc. 
    destruct (box_of s V c Hc) as (b' & Hb' & _ & Hin). rewrite Hb in Hb'. injection Hb' as <-.
    destruct (owner_spec s V f (Hin f Hf)) as (o & Ho & Hg & Hu). rewrite E0. pose proof (proj1 (Hu c b Hc Hb) Hf) as ->.
    pose proof (Hg K) as HK; pose proof (Hg J) as HJ; pose proof (Hg I) as HI. cbn [get] in *. rewrite HK, HJ, HI. now destruct o.
Qed.
Print Assumptions C80_refine.

(** ** Lengths *)
Lemma map_nth_block {A} (d : A) (l m r : list A) :
  map (fun x => nth (Z.to_nat x) (l ++ m ++ r) d) (zrange2 (Z.of_nat (List.length l)) (Z.of_nat (List.length l) + Z.of_nat (List.length m))) = m.
Proof.
  revert l. induction m as [|x m IH]; intro l.
  - cbn [List.length app]. now rewrite zrange2_nil by lia.
  - rewrite zrange2_cons by (cbn [List.length]; lia). cbn [map]. f_equal.
    + rewrite Nat2Z.id, app_nth2, Nat.sub_diag by lia. reflexivity.
    + specialize (IH (l ++ [x])). rewrite app_length in IH. cbn [List.length] in *. rewrite <- app_assoc in IH. cbn [app] in IH.
      replace (Z.of_nat (List.length l + 1)) with (Z.of_nat (List.length l) + 1) in IH by lia.
      replace (Z.of_nat (List.length l) + Z.of_nat (S (List.length m))) with (Z.of_nat (List.length l) + 1 + Z.of_nat (List.length m)) by lia.
      exact IH.
Qed.
Lemma concat_split {A} (ps : list (list A)) n : (n < List.length ps)%nat ->
  List.concat ps = List.concat (firstn n ps) ++ nth n ps [] ++ List.concat (skipn (S n) ps).
Proof.
  revert n. induction ps as [|p ps IH]; intros n H; [cbn in H; lia|]. destruct n as [|n]; [reflexivity|].
  cbn [firstn nth skipn List.concat]. rewrite (IH n) at 1 by (cbn in H; lia). now rewrite <- app_assoc.
Qed.
Lemma concat_firstn_length {A} (ps : list (list A)) rs : List.length ps = List.length rs ->
  (forall k, (k < List.length rs)%nat -> Z.of_nat (List.length (nth k ps [])) = nth k rs 0) ->
  forall n, (n <= List.length rs)%nat -> Z.of_nat (List.length (List.concat (firstn n ps))) = zsum (firstn n rs).
Proof.
  revert rs. induction ps as [|p ps IH]; intros rs HL H n Hn.
  - destruct rs; [|discriminate]. now rewrite !firstn_nil.
  - destruct rs as [|r rs]; [discriminate|]. destruct n as [|n]; [reflexivity|]. cbn [firstn List.concat zsum fold_right].
    rewrite app_length, Nat2Z.inj_add. pose proof (H 0%nat ltac:(cbn; lia)) as H0. cbn [nth] in H0. rewrite H0. f_equal.
    apply IH; [now injection HL| |cbn in Hn; lia]. intros k Hk. apply (H (S k)). cbn. lia.
Qed.
(** the proportions of the fine cells of one coarse cell add up to one *)
Lemma proportions_of_block a c ps : PropsOK a -> proportions_for_axis a = Ok ps -> 0 <= c < coarse a ->
  (qsum (map (fun x => nth (Z.to_nat x) ps 0%Q) (zrange2 (zsum (firstn (Z.to_nat c) (ratios_of a))) (zsum (firstn (Z.to_nat (c + 1)) (ratios_of a))))) == 1)%Q.
Proof.
  intros P E Hc. destruct (proportions_for_axis_ok a P) as (pss & E' & HL & _ & Hp). rewrite E in E'. injection E' as ->.
  pose proof (proj1 P) as VA. pose proof (va_len a VA) as LR.
  assert (Hl : forall k, (k < List.length (ratios_of a))%nat -> Shares (nth k (ratios_of a) 0) (nth k pss [])).
  { intros k Hk. destruct (proportion_ok a (Z.of_nat k) P ltac:(lia)) as (p & Ep & Sp). rewrite (Hp (Z.of_nat k) ltac:(lia)), Nat2Z.id in Ep.
    injection Ep as <-. now rewrite Nat2Z.id in Sp. }
  pose proof (concat_firstn_length pss (ratios_of a) ltac:(lia) (fun k Hk => proj1 (Hl k Hk)) (Z.to_nat c) ltac:(lia)) as B.
  destruct (Hl (Z.to_nat c) ltac:(lia)) as (S1 & _ & S3).
  rewrite (concat_split pss (Z.to_nat c)) by lia.
  replace (Z.to_nat (c + 1)) with (S (Z.to_nat c)) by lia. rewrite (zsum_firstn_S _ _ 0) by lia. rewrite <- B, <- S1.
  rewrite map_nth_block. exact S3.
Qed.

(** the lengths of the fine cells in a line across a coarse cell add up to the length of the
    coarse cell *)
Theorem C80_refine_lengths : forall fe ce s p a d, Mapping fe ce s -> shape a = ce -> p_indexable p = L "cells" -> LengthAlong p d ->
  exists r, resample fe s p a = Ok (Some r) /\ shape r = fe /\
    forall c b g x, InExtent c ce -> fine_box_for_coarse s c = Ok b -> InBox g b -> el a c = Some x ->
      (forall f, InBox f b -> exists y, el r f = Some y) /\
      TotalOver (fun f => InBox f b /\ forall d', d' <> d -> get f d' = get g d') (fun f => num (el r f)) x.
Proof.
  intros fe ce s p a d M Ha Hp (L1 & L2 & L3 & L4). destruct (resample_formula fe ce s p a M Ha Hp) as (r0 & S0 & E0 & E).
  rewrite L4, L1, L2, L3 in E. rewrite (proj2 (PropSelProofs.str_eqb_ok _ _) eq_refl), Z.eqb_refl in E. cbn [andb] in E.
  destruct (mapping_ok _ _ _ M) as (V & PO & F & C & Nn).
  unfold scale_lengths in E. destruct (proportions_for_axis_ok (get (ax s) d) (PO d)) as (pss & EP & _ & LP & _). rewrite EP in E. cbn [bind] in E.
  rewrite S0, LP in E. rewrite <- F in E. unfold fine_extent in E at 2. rewrite get_map3, Z.eqb_refl in E. cbn [bind] in E. rewrite F in E.
  eexists. split; [exact E|]. split; [reflexivity|]. intros c b g x Hc Hb Hg Hx. cbn [el].
  rewrite <- C in Hc. destruct (fine_box_spec s c V Hc) as (b' & Hb' & NE & Hlo & Hown). rewrite Hb in Hb'. injection Hb' as <-.
  assert (Hv : forall f, InBox f b -> el r0 f = Some x).
  { intros f Hf. destruct (box_of s V c Hc) as (b' & Hb' & _ & Hin). rewrite Hb in Hb'. injection Hb' as <-.
    destruct (owner_spec s V f (Hin f Hf)) as (o & Ho & Hgo & Hu). rewrite E0. pose proof (proj1 (Hu c b Hc Hb) Hf) as ->.
    pose proof (Hgo K) as HK; pose proof (Hgo J) as HJ; pose proof (Hgo I) as HI. cbn [get] in *. rewrite HK, HJ, HI. now destruct o. }
  split; [intros f Hf; rewrite (Hv f Hf); eexists; reflexivity|].
  assert (GS : forall y d', get (set g d y) d' = if BisectModel.axis_eqb d' d then y else get g d') by (intros y d'; destruct d, d', g; reflexivity).
  assert (Hc' : 0 <= get c d < coarse (get (ax s) d)) by (specialize (Hc d); unfold coarse_extent in Hc; now rewrite get_map3 in Hc).
  assert (Hhi : get (hi b) d + 1 = zsum (firstn (Z.to_nat (get c d + 1)) (ratios_of (get (ax s) d)))).
  { assert (A1 : InBox (set g d (get (hi b) d)) b).
    { intro d'. rewrite GS. destruct (BisectModel.axis_eqb d' d) eqn:D; [|apply Hg]. destruct d, d'; try discriminate; pose proof (NE K); pose proof (NE J); pose proof (NE I); cbn [get] in *; lia. }
    pose proof (proj1 (Hown _) A1 d) as O1. unfold Owns in O1. rewrite GS in O1.
    replace (BisectModel.axis_eqb d d) with true in O1 by now destruct d.
    destruct (Z.eq_dec (get (hi b) d + 1) (zsum (firstn (Z.to_nat (get c d + 1)) (ratios_of (get (ax s) d))))) as [e|ne]; [exact e|exfalso].
    assert (A2 : InBox (set g d (get (hi b) d + 1)) b).
    { apply Hown. intro d'. rewrite GS. destruct (BisectModel.axis_eqb d' d) eqn:D; [|apply Hown; exact Hg].
      assert (d' = d) as -> by (destruct d, d'; try discriminate; reflexivity). unfold Owns. lia. }
    specialize (A2 d). rewrite GS in A2. replace (BisectModel.axis_eqb d d) with true in A2 by now destruct d. lia. }
  exists (map (fun y => set g d y) (zrange2 (get (lo b) d) (get (hi b) d + 1))). split; [|split].
  - apply NoDup_map_inj_in; [|apply NoDup_zrange2]. intros y z _ _ Eq. apply (f_equal (fun t => get t d)) in Eq. rewrite !GS in Eq.
    now replace (BisectModel.axis_eqb d d) with true in Eq by now destruct d.
  - intro f. rewrite in_map_iff. split.
    + intros (y & <- & Hy). apply in_zrange2 in Hy. split.
      * intro d'. rewrite GS. destruct (BisectModel.axis_eqb d' d) eqn:D; [|apply Hg].
        assert (d' = d) as -> by (destruct d, d'; try discriminate; reflexivity). lia.
      * intros d' Hd. rewrite GS. destruct (BisectModel.axis_eqb d' d) eqn:D; [|reflexivity].
        exfalso. apply Hd. destruct d, d'; try discriminate; reflexivity.
    + intros [Hf Ho]. exists (get f d). split; [|apply in_zrange2; specialize (Hf d); lia].
      pose proof (Ho K) as HK; pose proof (Ho J) as HJ; pose proof (Ho I) as HI.
      destruct d, f as [k j i], g as [k' j' i']; cbn [get set tk tj ti] in *; f_equal; try (symmetry; apply HK; discriminate); try (symmetry; apply HJ; discriminate); try (symmetry; apply HI; discriminate).
  - rewrite map_map.
    transitivity (qsum (map (fun y => x * nth (Z.to_nat y) (List.concat pss) 0) (zrange2 (get (lo b) d) (get (hi b) d + 1))))%Q.
    + rewrite (qsum_ext _ (fun y => nth (Z.to_nat y) (List.concat pss) 0%Q * x)%Q) by (intros; ring). rewrite qsum_scale.
      rewrite (Hlo d), Hhi. rewrite (proportions_of_block _ _ _ (PO d) EP Hc'). ring.
    + apply qsum_ext. intros y Hy. apply in_zrange2 in Hy. rewrite Hv.
      * cbn [option_map num]. rewrite GS. replace (BisectModel.axis_eqb d d) with true by now destruct d. reflexivity.
      * intro d'. rewrite GS. destruct (BisectModel.axis_eqb d' d) eqn:D; [|apply Hg].
        assert (d' = d) as -> by (destruct d, d'; try discriminate; reflexivity). lia.
Qed.
Print Assumptions C80_refine_lengths.

(** ** There and back *)
Theorem C80_refined_then_coarsened : forall fe ce s p a r, Mapping fe ce s -> shape a = ce -> p_indexable p = L "cells" ->
  (forall d, ~ LengthAlong p d) -> resample fe s p a = Ok (Some r) ->
  (exists a', coarsening_sample s None r = Ok a' /\ shape a' = ce /\ forall c, InExtent c ce -> el a' c = el a c) /\
  forall fw cw zero, shape fw = fe -> MatchingWeights s fw cw -> (forall f, InExtent f fe -> exists w, el fw f = Some w /\ (0 < w)%Q) ->
    exists a', coarsening_weighted_mean s r fw cw zero = Ok a' /\ shape a' = ce /\
      forall c x, InExtent c ce -> el a c = Some x -> exists x', el a' c = Some x' /\ (x' == x)%Q.
Proof.
  intros fe ce s p a r M Ha Hp HL Hr. destruct (C80_refine fe ce s p a M Ha Hp HL) as (r' & E & Sr & Er). rewrite Hr in E. injection E as <-.
  destruct (mapping_ok _ _ _ M) as (V & PO & F & C & Nn). split.
  - destruct (C80_sample _ fe ce s None r M Sr) as (a' & E & Sa & Ea). exists a'. split; [exact E|]. split; [exact Sa|].
    intros c Hc. destruct (box_of s V c) as (b & Hb & _); [now rewrite C|]. destruct (Ea c b Hc Hb) as (f & Hf & _ & ->). now apply (Er c b).
  - intros fw cw zero Sw Mw Hw. destruct (C80_weighted_mean fe ce s r fw cw zero M Sr Sw Mw) as (a' & E & Sa & Ea).
    exists a'. split; [exact E|]. split; [exact Sa|]. intros c x Hc Hx. destruct (box_of s V c) as (b & Hb & NE & Hin); [now rewrite C|]. rewrite F in Hin.
    destruct (Ea c b x x Hc Hb) as [_ H].
    + intros f Hf. destruct (Hw f (Hin f Hf)) as (w & Ew & Pw). exists x, w. rewrite (Er c b f Hc Hb Hf). repeat split; try assumption; lra.
    + destruct H as (m & w & Em & Bm & _).
      * exists (lo b). assert (InBox (lo b) b) as HB by (intro d; pose proof (NE d); lia). split; [exact HB|].
        destruct (Hw _ (Hin _ HB)) as (w & -> & Pw). exact Pw.
      * exists m. split; [exact Em|]. lra.
Qed.
Print Assumptions C80_refined_then_coarsened.
