(** CoarsenProps.v: properties carried to a coarser or finer grid (C80).

    Specification vocabulary:
    - [Mapping fe ce s]: s relates a fine grid of extent fe to a coarse one of extent ce: built
      by the constructor, then ratios, then possibly proportions set for the axes;
    - [InExtent], [InBox] as for FineCoarse; [num v]: the number, 0 for not a number;
    - [TotalOver P g q]: q is the total of g over the cells with P. *)
From Verif Require Import Base QBase BisectModel BisectProofs BisectProofs4 TriModel TriProofs3 GcsNexusProofs StrModel BoxModel BoxProofs FineCoarseModel
  FineCoarseProofs FineCoarseProofs2 ProportionProofs FineCoarseProps PropSelModel CoarsenModel CoarsenProofs.
From Coq Require Import Lqa Permutation.
Open Scope Z_scope.

Definition Mapping (fe ce : BoxModel.cell) (s : fc) : Prop :=
  (forall d, 0 < get ce d) /\
  exists s0 os, fc_init fe ce = Ok s0 /\ only_setters os = true /\ RatiosSet (fc_run s0 os) /\ cache s = None /\
    forall d, PropsOf (get (ax (fc_run s0 os)) d) (get (ax s) d).
Lemma mapping_ok fe ce s : Mapping fe ce s -> ValidFC s /\ (forall d, PropsOK (get (ax s) d)) /\ fine_extent s = fe /\ coarse_extent s = ce /\ cache s = None.
Proof.
  intros (Hc & s0 & os & Hi & Hq & Hr & Hn & Hp).
  pose proof (reachable_valid fe ce s0 os Hi Hc (ratios_set_iff _ Hr)) as V.
  destruct (run_extents fe ce s0 os Hi Hc) as [E1 E2].
  assert (P : forall d, PropsOK (get (ax s) d) /\ coarse (get (ax s) d) = get ce d /\ fine (get (ax s) d) = get fe d).
  { intro d. destruct (props_of_ok _ _ (V d) (Hp d)) as (P & _ & C & F). split; [exact P|].
    rewrite C, F. rewrite <- E1, <- E2. unfold coarse_extent, fine_extent. now rewrite !get_map3. }
  split; [intro d; apply (P d)|]. split; [intro d; apply (P d)|].
  split; [|split; [|exact Hn]].
  - unfold fine_extent, map3. pose proof (P K) as (_ & _ & HK); pose proof (P J) as (_ & _ & HJ); pose proof (P I) as (_ & _ & HI).
    cbn [get] in *. rewrite HK, HJ, HI. now destruct fe.
  - unfold coarse_extent, map3. pose proof (P K) as (_ & HK & _); pose proof (P J) as (_ & HJ & _); pose proof (P I) as (_ & HI & _).
    cbn [get] in *. rewrite HK, HJ, HI. now destruct ce.
Qed.

(** each coarse cell gets the total over its fine cells, and nothing is lost or added overall *)
Theorem C80_sum : forall fe ce s a, Mapping fe ce s -> shape a = fe ->
  exists r, coarsening_sum s a None = Ok r /\ shape r = ce /\
    (forall c b, InExtent c ce -> fine_box_for_coarse s c = Ok b ->
       exists q, el r c = Some q /\ TotalOver (fun f => InBox f b) (fun f => num (el a f)) q) /\
    forall t, TotalOver (fun c => InExtent c ce) (fun c => num (el r c)) t -> TotalOver (fun f => InExtent f fe) (fun f => num (el a f)) t.
Proof.
  intros fe ce s a M Ha. destruct (mapping_ok _ _ _ M) as (V & _ & F & C & _). rewrite <- F in *. rewrite <- C in *. clear M F C.
  unfold coarsening_sum. rewrite (check_shape_ok s a Ha). cbn [bind].
  destruct (for_coarse_ok s V (None : option Q) (fun b => Ok (Some (nansum (part_of a b)))) (fun b => Some (nansum (part_of a b)))) as (r & Hr & Hs & He); [reflexivity|].
  exists r. split; [exact Hr|]. split; [exact Hs|].
  assert (E : forall c b, InExtent c (coarse_extent s) -> fine_box_for_coarse s c = Ok b ->
     exists q, el r c = Some q /\ (q == qsum (map (fun f => num (el a f)) (box_cells b)))%Q).
  { intros c b Hc Hb. exists (nansum (part_of a b)). split; [now apply He|]. rewrite (part_of_box s V a c b Ha Hc Hb), nansum_qsum, map_map. reflexivity. }
  split.
  - intros c b Hc Hb. destruct (E c b Hc Hb) as (q & Hq & Hv). exists q. split; [exact Hq|].
    apply (total_ext _ _ _ _ _ _ (fun _ => iff_refl _) (fun _ _ => Qeq_refl _) (Qeq_sym _ _ Hv) (total_box b _)).
  - intros t Ht. exists (indices (fine_extent s)). split; [apply NoDup_indices|]. split; [intro; apply in_cells|].
    rewrite (total_unique _ _ _ _ Ht (total_extent _ _)).
    rewrite <- (qsum_perm _ _ (Permutation_map (fun f => num (el a f)) (boxes_tile s V))).
    rewrite qsum_flat_map. apply qsum_ext. intros c Hc. apply in_cells in Hc.
    destruct (E c _ Hc (box_at_ok s V c Hc)) as (q & -> & Hv). exact Hv.
Qed.
Print Assumptions C80_sum.

(** lengths along an axis: the total over the fine cells, shared between the columns of the
    coarse cell along that axis *)
Definition columns_along (b : box) (d : axis) : Z :=
  let n x := get (hi b) x - get (lo b) x + 1 in
  match d with K => n J * n I | J => n K * n I | I => n K * n J end.
Theorem C80_lengths : forall fe ce s a d, Mapping fe ce s -> shape a = fe ->
  exists r, coarsening_sum s a (Some d) = Ok r /\ shape r = ce /\
    forall c b, InExtent c ce -> fine_box_for_coarse s c = Ok b ->
      0 < columns_along b d /\
      exists q, el r c = Some q /\ TotalOver (fun f => InBox f b) (fun f => num (el a f)) (q * inject_Z (columns_along b d)).
Proof.
  intros fe ce s a d M Ha. destruct (mapping_ok _ _ _ M) as (V & _ & F & C & _). rewrite <- F in *. rewrite <- C in *. clear M F C.
  unfold coarsening_sum. rewrite (check_shape_ok s a Ha). cbn [bind].
  match goal with |- context [for_coarse s None ?f] =>
    destruct (for_coarse_ok s V (None : option Q) f (fun b => match f b with Ok v => v | Err _ => None end)) as (r & Hr & Hs & He); [reflexivity|] end.
  exists r. split; [exact Hr|]. split; [exact Hs|].
  intros c b Hc Hb. destruct (box_of s V c Hc) as (b' & Hb' & NE & _). rewrite Hb in Hb'. injection Hb' as <-.
  assert (CP : 0 < columns_along b d).
  { pose proof (NE K); pose proof (NE J); pose proof (NE I). destruct d; unfold columns_along; apply Z.mul_pos_pos; lia. }
  split; [exact CP|]. specialize (He c b Hc Hb). cbn beta iota in He. eexists. split; [exact He|].
  refine (total_ext _ _ _ _ _ _ (fun _ => iff_refl _) (fun _ _ => Qeq_refl _) _ (total_box b _)).
  rewrite (part_of_box s V a c b Ha Hc Hb), nansum_qsum, map_map.
  match goal with |- context [(_ / inject_Z ?n)%Q] => replace n with (columns_along b d) end.
  - field. pose proof (inject_lt0 _ CP). lra.
  - destruct d; unfold columns_along, next_axis; ring.
Qed.
Print Assumptions C80_lengths.

(** discrete values: the one of the first fine cell of the coarse cell *)
Theorem C80_sample : forall A fe ce s (d : A) a, Mapping fe ce s -> shape a = fe ->
  exists r, coarsening_sample s d a = Ok r /\ shape r = ce /\
    forall c b, InExtent c ce -> fine_box_for_coarse s c = Ok b ->
      exists f, InBox f b /\ (forall f', InBox f' b -> forall x, get f x <= get f' x) /\ el r c = el a f.
Proof.
  intros A fe ce s d a M Ha. destruct (mapping_ok _ _ _ M) as (V & _ & F & C & _). rewrite <- F in *. rewrite <- C in *. clear M F C.
  unfold coarsening_sample. rewrite (check_shape_ok s a Ha). cbn [bind].
  match goal with |- context [for_coarse s d ?f] =>
    destruct (for_coarse_ok s V d f (fun b => el a (lo b))) as (r & Hr & Hs & He) end.
  - intros c b Hc Hb. destruct (box_of s V c Hc) as (b' & Hb' & NE & Hin). rewrite Hb in Hb'. injection Hb' as <-.
    rewrite (proj2 (inside_spec _ _)); [reflexivity|]. rewrite Ha. apply Hin. intro x. pose proof (NE x). lia.
  - exists r. split; [exact Hr|]. split; [exact Hs|]. intros c b Hc Hb.
    destruct (box_of s V c Hc) as (b' & Hb' & NE & _). rewrite Hb in Hb'. injection Hb' as <-.
    exists (lo b). split; [intro x; pose proof (NE x); lia|]. split; [intros f' Hf' x; apply Hf'|]. now apply He.
Qed.
Print Assumptions C80_sample.

(** ** Weighted means *)
(** [cw]: no coarse weights, or those found by adding up the fine ones *)
Definition MatchingWeights (s : fc) (fw : arr value) (cw : option (arr value)) : Prop :=
  match cw with None => True | Some w => coarsening_sum s fw None = Ok w end.
Lemma weighted_mean_formula fe ce s a fw cw zero : Mapping fe ce s -> shape a = fe -> shape fw = fe -> MatchingWeights s fw cw ->
  exists r, coarsening_weighted_mean s a fw cw zero = Ok r /\ shape r = ce /\
    forall c b, InExtent c ce -> fine_box_for_coarse s c = Ok b ->
      let w := qsum (map (fun f => num (el fw f)) (box_cells b)) in
      let t := qsum (map (fun f => num (vmul (el a f) (el fw f))) (box_cells b)) in
      ((w == 0)%Q -> el r c = zero) /\ (~ (w == 0)%Q -> exists m, el r c = Some m /\ (m * w == t)%Q).
Proof.
  intros M Ha Hw Hcw. destruct (mapping_ok _ _ _ M) as (V & _ & F & C & _). rewrite <- F in *. rewrite <- C in *.
  unfold coarsening_weighted_mean. rewrite (check_shape_ok s a Ha). cbn [bind].
  rewrite Ha, Hw, (proj2 (same_shape_spec _ _) eq_refl). cbn [assert_ bind].
  assert (S1 : forall c b, InExtent c (coarse_extent s) -> fine_box_for_coarse s c = Ok b ->
    (nansum (map (fun e => vmul (fst e) (snd e)) (combine (part_of a b) (part_of fw b))) == qsum (map (fun f => num (vmul (el a f) (el fw f))) (box_cells b)))%Q).
  { intros c b Hc Hb. rewrite (part_of_box s V a c b Ha Hc Hb), (part_of_box s V fw c b Hw Hc Hb), combine_map2, nansum_qsum, !map_map. reflexivity. }
  assert (S2 : forall c b, InExtent c (coarse_extent s) -> fine_box_for_coarse s c = Ok b ->
    (nansum (part_of fw b) == qsum (map (fun f => num (el fw f)) (box_cells b)))%Q).
  { intros c b Hc Hb. rewrite (part_of_box s V fw c b Hw Hc Hb), nansum_qsum, map_map. reflexivity. }
  destruct cw as [cw|].
  - unfold MatchingWeights in Hcw.
    destruct (C80_sum _ _ s fw M Hw) as (w0 & E0 & Sw & Tw & _). rewrite Hcw in E0. injection E0 as <-.
    change (map3 coarse (ax s)) with (coarse_extent s).
    rewrite Sw, (proj2 (same_shape_spec _ _) eq_refl). cbn [assert_ bind].
    match goal with |- context [for_coarse s None ?f] =>
      destruct (for_coarse_ok s V (None : option Q) f (fun b => match f b with Ok v => v | Err _ => None end)) as (r & Hr & Hs & He); [reflexivity|] end.
    cbn [bind] in Hr |- *. rewrite Hr. cbn [bind]. eexists. split; [reflexivity|]. split; [exact Hs|].
    intros c b Hc Hb. cbv zeta. cbn [el]. rewrite (He c b Hc Hb). destruct (Tw c b Hc Hb) as (q & -> & Tq).
    pose proof (total_unique _ _ _ _ Tq (total_box b _)) as Eq.
    pose proof (S1 c b Hc Hb) as E1.
    destruct (Qeq_bool q 0) eqn:Z; [apply Qeq_bool_iff in Z|apply Qeq_bool_neq in Z]; split; intro W; rewrite <- Eq in W; try contradiction; [reflexivity|].
    eexists. split; [reflexivity|]. rewrite <- E1, <- Eq. field. assumption.
  - cbn [bind].
    match goal with |- context [for_coarse s None ?f] =>
      destruct (for_coarse_ok s V (None : option Q) f (fun b => match f b with Ok v => v | Err _ => None end)) as (r & Hr & Hs & He); [reflexivity|] end.
    cbn [bind] in Hr |- *. rewrite Hr. cbn [bind]. eexists. split; [reflexivity|]. split; [exact Hs|].
    intros c b Hc Hb. cbv zeta. rewrite (He c b Hc Hb). pose proof (S1 c b Hc Hb) as E1. pose proof (S2 c b Hc Hb) as Eq.
    destruct (Qeq_bool (nansum (part_of fw b)) 0) eqn:Z; [apply Qeq_bool_iff in Z|apply Qeq_bool_neq in Z]; split; intro W; rewrite <- Eq in W; try contradiction; [reflexivity|].
    eexists. split; [reflexivity|]. rewrite <- E1, <- Eq. field. assumption.
Qed.

(** where no value is missing and no weight is negative, the mean lies between the smallest and
    the largest value, and mean times weight is the total of value times weight; where all
    weights are zero it is the value asked for *)
Theorem C80_weighted_mean : forall fe ce s a fw cw zero, Mapping fe ce s -> shape a = fe -> shape fw = fe -> MatchingWeights s fw cw ->
  exists r, coarsening_weighted_mean s a fw cw zero = Ok r /\ shape r = ce /\
    forall c b x y, InExtent c ce -> fine_box_for_coarse s c = Ok b ->
      (forall f, InBox f b -> exists v w, el a f = Some v /\ el fw f = Some w /\ (0 <= w)%Q /\ (x <= v <= y)%Q) ->
      ((forall f, InBox f b -> (num (el fw f) == 0)%Q) -> el r c = zero) /\
      ((exists f, InBox f b /\ (0 < num (el fw f))%Q) -> exists m w, el r c = Some m /\ (x <= m <= y)%Q /\
          TotalOver (fun f => InBox f b) (fun f => num (el fw f)) w /\
          TotalOver (fun f => InBox f b) (fun f => num (el a f) * num (el fw f))%Q (m * w)).
Proof.
  intros fe ce s a fw cw zero M Ha Hw Hcw. destruct (weighted_mean_formula fe ce s a fw cw zero M Ha Hw Hcw) as (r & Hr & Hs & He).
  exists r. split; [exact Hr|]. split; [exact Hs|]. intros c b x y Hc Hb Hv. destruct (He c b Hc Hb) as [Z N]. clear He.
  assert (P : forall f, In f (box_cells b) -> exists v w, el a f = Some v /\ el fw f = Some w /\ (0 <= w)%Q /\ (x <= v <= y)%Q)
    by (intros f Hf; apply Hv; now apply in_box_cells).
  split.
  - intro H0. apply Z. transitivity (qsum (map (fun _ : BoxModel.cell => 0%Q) (box_cells b))).
    + apply qsum_ext. intros f Hf. apply H0. now apply in_box_cells.
    + generalize (box_cells b). intro l. unfold qsum. induction l as [|z l IH]; cbn [map fold_right]; [reflexivity|]. rewrite IH. reflexivity.
  - intros (f0 & Hf0 & H0).
    assert (W : (0 < qsum (map (fun f => num (el fw f)) (box_cells b)))%Q).
    { apply (qsum_pos _ _ f0); [|now apply in_box_cells|exact H0]. intros f Hf. destruct (P f Hf) as (v & w & _ & E & H & _). now rewrite E. }
    destruct (N ltac:(lra)) as (m & Em & Hm). exists m, (qsum (map (fun f => num (el fw f)) (box_cells b))). split; [exact Em|].
    set (w := qsum (map (fun f => num (el fw f)) (box_cells b))) in *.
    assert (L : (x * w <= m * w)%Q /\ (m * w <= y * w)%Q).
    { rewrite Hm. unfold w. split; [rewrite Qmult_comm|rewrite (Qmult_comm y)]; rewrite <- qsum_scale; apply qsum_le; intros f Hf;
      destruct (P f Hf) as (v & u & -> & -> & H1 & H2); cbn [num vmul]; nra. }
    split; [split; [apply (Qmult_le_r _ _ w W)|apply (Qmult_le_r _ _ w W)]; apply L|].
    split; [exact (total_box b _)|].
    refine (total_ext _ _ _ _ _ _ (fun _ => iff_refl _) _ (Qeq_sym _ _ Hm) (total_box b _)).
    intros f Hf. destruct (Hv f Hf) as (v & u & -> & -> & _). reflexivity.
Qed.
Print Assumptions C80_weighted_mean.
