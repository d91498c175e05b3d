(** FineCoarseProps.v: property theorems about FineCoarse (C08-C13).

    Specification vocabulary:
    - [RatiosSet s]: ratio(axis, 0) answers for every axis of s;
    - [InExtent c e]: 0 <= c < e on every axis;  [InBox f b]: lo <= f <= hi;
    - [Shares n p] (ProportionProofs): n positive numbers summing to one;
    - [TartanSpec], [TartanShape], [factor], [RateOK] (TartanProofs). *)
From Verif Require Import Base BoxModel BoxProofs FineCoarseModel FineCoarseProofs FineCoarseProofs2
  TartanProofs ProportionProofs.
From Coq Require Import QArith Lqa.
Open Scope Z_scope.

Definition RatiosSet (s : fc) : Prop := forall d, exists r, ratio (get (ax s) d) 0 = Ok r.

Lemma ratios_set_iff s : RatiosSet s -> forall d, cratio (get (ax s) d) <> None \/ vratio (get (ax s) d) <> None.
Proof.
  intros H d. destruct (H d) as [r E]. unfold ratio in E.
  destruct (cratio _); [left; discriminate|]. destruct (vratio _); [right; discriminate|discriminate].
Qed.

(** A history in which every query comes after every setter. *)
Definition only_setters (os : list fcop) : bool := forallb (fun o => negb (is_query o)) os.

(** C08: every fine cell lies in the fine box of exactly one coarse cell, the one
    reported by coarse_for_fine_kji0.  (fe, ce: extents given to the constructor.) *)
Theorem C08_fine_cells_partitioned : forall fe ce s0 os n, fc_init fe ce = Ok s0 -> (forall d, 0 < get ce d) ->
  only_setters os = true ->
  let s := fc_run s0 (os ++ queries n) in
  RatiosSet s ->
  forall f, InExtent f fe ->
    exists c, snd (coarse_for_fine_kji0 s f) = Ok (map3 Some c) /\ InExtent c ce /\
      forall c' b, InExtent c' ce -> fine_box_for_coarse s c' = Ok b -> (InBox f b <-> c' = c).
Proof.
  intros fe ce s0 os n Hi Hc Hq s Hs. exact (proj2 (consistent_after fe ce s0 os n Hi Hc Hq (ratios_set_iff _ Hs))).
Qed.
Print Assumptions C08_fine_cells_partitioned.

Lemma run_extents fe ce s0 os : fc_init fe ce = Ok s0 -> (forall d, 0 < get ce d) ->
  fine_extent (fc_run s0 os) = fe /\ coarse_extent (fc_run s0 os) = ce.
Proof.
  intros Hi Hc. split; apply trip_ext; intros d; unfold fine_extent, coarse_extent; rewrite get_map3;
    destruct (init_ok fe ce s0 d Hi (Hc d)) as (H1 & H2 & H3 & _);
    destruct (run_axes os s0 d H1) as (_ & G2 & G3); congruence.
Qed.

(** The constructor accepts exactly the pairs of extents for which a coarsening can exist
    along every axis (a non-positive coarse extent is, wrongly, accepted too). *)
Theorem C08_constructor_accepts : forall fe ce,
  (exists s, fc_init fe ce = Ok s) <-> (forall d, 0 < get fe d /\ get ce d <= get fe d).
Proof.
  intros fe ce. unfold fc_init. split.
  - intros [s H]. unfold assert_ in H.
    match type of H with context [if ?c then _ else _] => destruct c eqn:C end; [|discriminate].
    rewrite forall3_spec in C. intro d. specialize (C d). unfold extents_valid in C.
    apply andb_true_iff in C. lia.
  - intro H. unfold assert_.
    match goal with |- context [if ?c then _ else _] => replace c with true end; [eexists; reflexivity|].
    symmetry. rewrite forall3_spec. intro d. specialize (H d). unfold extents_valid. apply andb_true_iff. lia.
Qed.
Print Assumptions C08_constructor_accepts.
Example C08_constructor_accepts_ex : exists s, fc_init (T 6 5 4) (T 2 5 1) = Ok s.
Proof. eexists. reflexivity. Qed.

Theorem C08_coarse_cells_own_fine_cells : forall fe ce s0 os, fc_init fe ce = Ok s0 -> (forall d, 0 < get ce d) ->
  RatiosSet (fc_run s0 os) -> forall c, InExtent c ce ->
  exists b, fine_box_for_coarse (fc_run s0 os) c = Ok b /\ NonEmptyBox b /\ forall f, InBox f b -> InExtent f fe.
Proof.
  intros fe ce s0 os Hi Hc Hs c Hin. destruct (run_extents fe ce s0 os Hi Hc) as [E1 E2].
  destruct (boxes_inside (fc_run s0 os) (reachable_valid fe ce s0 os Hi Hc (ratios_set_iff _ Hs)) c) as (b & H); [now rewrite E2|].
  exists b. now rewrite E1 in H.
Qed.
Print Assumptions C08_coarse_cells_own_fine_cells.

Theorem C08_mapping_non_decreasing : forall fe ce s0 os, fc_init fe ce = Ok s0 -> (forall d, 0 < get ce d) ->
  only_setters os = true -> RatiosSet (fc_run s0 os) ->
  forall d f1 f2 c1 c2, 0 <= f1 <= f2 -> f2 < get fe d ->
  snd (coarse_for_fine_axial (fc_run s0 os) d f1) = Ok (Some c1) ->
  snd (coarse_for_fine_axial (fc_run s0 os) d f2) = Ok (Some c2) -> c1 <= c2.
Proof.
  intros fe ce s0 os Hi Hc Hq Hs d f1 f2 c1 c2 Hf Hf2. destruct (run_extents fe ce s0 os Hi Hc) as [E1 E2].
  apply (mapping_monotone _ d); try assumption.
  - exact (reachable_valid fe ce s0 os Hi Hc (ratios_set_iff _ Hs)).
  - rewrite setters_no_cache by exact Hq. apply (init_ok fe ce s0 K Hi (Hc K)).
  - now rewrite E1.
Qed.
Print Assumptions C08_mapping_non_decreasing.

Definition ex_ops := [OpConst K; OpVec J [1; 3; 1]; OpVec I [2; 2]].
Example C08_example : exists s0, fc_init (T 6 5 4) (T 3 3 2) = Ok s0 /\
  only_setters ex_ops = true /\ RatiosSet (fc_run s0 ex_ops) /\
  snd (coarse_for_fine_kji0 (fc_run s0 ex_ops) (T 3 3 3)) = Ok (T (Some 1) (Some 1) (Some 1)).
Proof.
  eexists. split; [reflexivity|]. split; [reflexivity|]. split; [|vm_compute; reflexivity].
  intros [ | | ]; eexists; vm_compute; reflexivity.
Qed.

(** C09 *)
Theorem C09_constant_ratio_accepted_iff : forall a, 0 < coarse a ->
  (exists a', set_constant_ratio_ax a = Ok a') <-> (coarse a | fine a).
Proof. exact set_constant_iff. Qed.
Print Assumptions C09_constant_ratio_accepted_iff.

Theorem C09_constant_ratio_result : forall a a' c, 0 < coarse a -> 0 < fine a -> set_constant_ratio_ax a = Ok a' ->
  0 <= c < coarse a -> exists r, ratio a' c = Ok r /\ fine a = coarse a * r.
Proof.
  intros a a' c Hc Hf H Hin. destruct (set_constant_result a a' Hc Hf H) as (V & F & C & R).
  pose proof (proj1 (set_constant_iff a Hc) (ex_intro _ a' H)) as [q Hq].
  rewrite ratio_nth by (congruence || assumption). rewrite R, nth_repeat_lt by lia. eexists. split; [reflexivity|].
  rewrite Hq, Z.div_mul by lia. lia.
Qed.
Print Assumptions C09_constant_ratio_result.

Theorem C09_ratio_vector_accepted_iff : forall a v, 0 < fine a ->
  (exists a', set_ratio_vector_ax a v = Ok a') <->
  Z.of_nat (List.length v) = coarse a /\ zsum v = fine a /\ (forall r, In r v -> 0 < r).
Proof. intros a v H. exact (proj1 (set_ratio_vector_ax_iff a v H)). Qed.
Print Assumptions C09_ratio_vector_accepted_iff.

Theorem C09_ratio_returns_supplied_entries : forall a v a' c, 0 < fine a -> set_ratio_vector_ax a v = Ok a' ->
  0 <= c < coarse a -> ratio a' c = Ok (nth (Z.to_nat c) v 0) /\ fine a' = fine a /\ coarse a' = coarse a.
Proof.
  intros a v a' c Hf H Hin. destruct (proj2 (set_ratio_vector_ax_iff a v Hf) a' H) as (V & F & C & R).
  rewrite ratio_nth by (congruence || assumption). rewrite R. auto.
Qed.
Print Assumptions C09_ratio_returns_supplied_entries.

Example C09_example_collapse : exists a', set_ratio_vector_ax (Ax 6 3 None None true None) [2; 2; 2] = Ok a' /\ cratio a' = Some 2.
Proof. eexists. split; reflexivity. Qed.
Example C09_example_reject : set_ratio_vector_ax (Ax 6 3 None None true None) [2; 4; 0] = Err AssertionError.
Proof. reflexivity. Qed.

(** C10: [PropsOf a a'] says how the proportions in a' may have come about: the
    initial equal ones, or a successful set_proportions call on consistent ratios. *)
Definition PropsOf (a a' : axdata) : Prop :=
  (a' = a /\ eqprop a = true) \/ exists vs, set_proportions a vs = Ok a'.
Lemma props_of_ok a a' : ValidAxis a -> PropsOf a a' -> PropsOK a' /\ ratios_of a' = ratios_of a /\ coarse a' = coarse a /\ fine a' = fine a.
Proof.
  intros Ha [[-> He]|[vs Hs]].
  - repeat split; try apply Ha. left; assumption.
  - destruct (set_proportions_ok a vs a' Ha Hs) as (H1 & H2 & H3 & H4 & _). auto.
Qed.

Theorem C10_proportions_sum_to_one : forall a a' c r, ValidAxis a -> PropsOf a a' -> 0 <= c < coarse a ->
  ratio a c = Ok r -> exists p, proportion a' c = Ok p /\ Shares r p.
Proof.
  intros a a' c r Ha Hp Hc Hr. destruct (props_of_ok a a' Ha Hp) as (Hok & R & C & F).
  rewrite ratio_nth in Hr by assumption. injection Hr as <-.
  destruct (proportion_ok a' c Hok) as (p & E & S); [congruence|]. exists p. rewrite R in S. auto.
Qed.
Print Assumptions C10_proportions_sum_to_one.

Theorem C10_given_proportions_are_normalised : forall a vs a' c, ValidAxis a -> set_proportions a vs = Ok a' ->
  eqprop a' = false -> 0 <= c < coarse a ->
  proportion a' c = Ok (map (fun x => x / qsum (nth (Z.to_nat c) vs []))%Q (nth (Z.to_nat c) vs [])).
Proof.
  intros a vs a' c Ha Hs He Hc. destruct (set_proportions_ok a vs a' Ha Hs) as (_ & _ & _ & _ & H).
  destruct (H He c Hc) as (p & E & ->). exact E.
Qed.
Print Assumptions C10_given_proportions_are_normalised.

Theorem C10_axis_proportions_are_concatenation : forall a a', ValidAxis a -> PropsOf a a' ->
  exists ps, proportions_for_axis a' = Ok (List.concat ps) /\ Z.of_nat (List.length ps) = coarse a /\
    Z.of_nat (List.length (List.concat ps)) = fine a /\
    forall c, 0 <= c < coarse a -> proportion a' c = Ok (nth (Z.to_nat c) ps []).
Proof.
  intros a a' Ha Hp. destruct (props_of_ok a a' Ha Hp) as (Hok & R & C & F).
  rewrite <- C, <- F. now apply proportions_for_axis_ok.
Qed.
Print Assumptions C10_axis_proportions_are_concatenation.

Theorem C10_interpolation_monotone_below_one : forall a a' c, ValidAxis a -> PropsOf a a' -> 0 <= c < coarse a ->
  exists p l, proportion a' c = Ok p /\ interpolation a' c = Ok l /\ List.length l = List.length p /\
    (nth 0 l 1 == 0)%Q /\
    (forall k, (k < List.length l)%nat -> (nth k l 0 == qsum (firstn k p))%Q /\ (0 <= nth k l 0 < 1)%Q) /\
    (forall k, (S k < List.length l)%nat -> (nth (S k) l 0 == nth k l 0 + nth k p 0)%Q /\ (nth k l 0 < nth (S k) l 0)%Q).
Proof.
  intros a a' c Ha Hp Hc. destruct (props_of_ok a a' Ha Hp) as (Hok & R & C & F).
  apply interpolation_ok; [assumption|congruence].
Qed.
Print Assumptions C10_interpolation_monotone_below_one.

(** Finding: the ratio setters do not touch proportions, so proportions set
    before a change of ratio may have the wrong number of entries. *)
Theorem C10_proportions_follow_ratios_refuted : exists a vs a1 v a2 c r p,
  ValidAxis a /\ set_proportions a vs = Ok a1 /\ set_ratio_vector_ax a1 v = Ok a2 /\ 0 <= c < coarse a2 /\
  ratio a2 c = Ok r /\ proportion a2 c = Ok p /\ Z.of_nat (List.length p) <> r.
Proof.
  exists (Ax 4 2 (Some 2) None true None), [[1; 2]; [1; 1]]%Q.
  eexists. exists [1; 3]. eexists. exists 0. eexists. eexists.
  split. { split; [reflexivity|reflexivity|intros r Hr; vm_compute in Hr; intuition lia|reflexivity]. }
  split; [vm_compute; reflexivity|]. split; [vm_compute; reflexivity|]. split; [cbn; lia|].
  split; [vm_compute; reflexivity|]. split; [vm_compute; reflexivity|]. vm_compute. discriminate.
Qed.
Print Assumptions C10_proportions_follow_ratios_refuted.

Example C10_example : ValidAxis (Ax 5 2 None (Some [2; 3]) true None) /\
  exists a', set_proportions (Ax 5 2 None (Some [2; 3]) true None) [[1; 3]; [1; 1; 2]]%Q = Ok a' /\ eqprop a' = false.
Proof.
  split; [split; [reflexivity|reflexivity|intros r Hr; vm_compute in Hr; intuition lia|reflexivity]|]. eexists. split; [vm_compute; reflexivity|reflexivity].
Qed.

(** C11 *)
Theorem C11_answers_current_if_setters_precede_queries_partial : forall fe ce s0 os n,
  fc_init fe ce = Ok s0 -> (forall d, 0 < get ce d) -> only_setters os = true ->
  let s := fc_run s0 (os ++ queries n) in
  RatiosSet s ->
  forall f c c' b, InExtent f fe -> InExtent c' ce ->
    snd (coarse_for_fine_kji0 s f) = Ok (map3 Some c) -> fine_box_for_coarse s c' = Ok b ->
    (InBox f b <-> c' = c).
Proof.
  intros fe ce s0 os n Hi Hc Hq s Hs f c c' b Hf Hc' Hk Hb.
  destruct (C08_fine_cells_partitioned fe ce s0 os n Hi Hc Hq Hs f Hf) as (x & X1 & X2 & X3). fold s in X1, X3.
  rewrite Hk in X1. assert (x = c) as ->; [|now apply X3].
  destruct x, c; cbn in X1. injection X1 as -> -> ->. reflexivity.
Qed.
Print Assumptions C11_answers_current_if_setters_precede_queries_partial.

(** The full statement fails: setters do not clear the cached mapping. *)
Theorem C11_answers_current_refuted : exists fe ce s0 os,
  fc_init fe ce = Ok s0 /\ (forall d, 0 < get ce d) /\ RatiosSet (fc_run s0 os) /\
  exists f c b, InExtent f fe /\ InExtent c ce /\
    snd (coarse_for_fine_kji0 (fc_run s0 os) f) = Ok (map3 Some c) /\
    fine_box_for_coarse (fc_run s0 os) c = Ok b /\ ~ InBox f b.
Proof.
  exists (T 4 2 2), (T 2 1 1). eexists.
  exists [OpConst K; OpConst J; OpConst I; OpQuery; OpVec K [1; 3]].
  split; [reflexivity|]. split; [intros [ | | ]; cbn; lia|].
  split; [intros [ | | ]; eexists; vm_compute; reflexivity|].
  exists (T 1 0 0), (T 0 0 0). eexists.
  split; [intros [ | | ]; cbn; lia|]. split; [intros [ | | ]; cbn; lia|].
  split; [vm_compute; reflexivity|]. split; [vm_compute; reflexivity|].
  intros H. specialize (H K). vm_compute in H. destruct H as [_ H]. now apply H.
Qed.
Print Assumptions C11_answers_current_refuted.

(** C12 *)
Theorem C12_natural_column_index : forall s j i, ValidFC s ->
  0 <= j < coarse (tj (ax s)) -> 0 <= i < coarse (ti (ax s)) ->
  exists base, fine_base_for_coarse s (T 0 j i) = Ok base /\
    0 <= tj base < fine (tj (ax s)) /\ 0 <= ti base < fine (ti (ax s)) /\
    fine_for_coarse_natural_column_index s (j * coarse (ti (ax s)) + i) = Ok (tj base * fine (ti (ax s)) + ti base).
Proof.
  intros s j i Hs Hj Hi. destruct (natural_column s j i Hs Hj Hi) as (fj & fi & E1 & E2 & B1 & B2 & R).
  exists (T 0 fj fi). unfold fine_base_for_coarse, zip3, seq3. cbn [tk tj ti].
  pose proof (va_coarse _ (Hs K)) as HK. rewrite (base_psum (tk (ax s)) 0 (Hs K)) by (cbn [get] in HK; lia).
  rewrite E1, E2. cbn [bind Z.to_nat firstn zsum fold_right]. auto.
Qed.
Print Assumptions C12_natural_column_index.

Theorem C12_natural_pillar_index : forall s j i, ValidFC s ->
  0 <= j <= coarse (tj (ax s)) -> 0 <= i <= coarse (ti (ax s)) ->
  exists base, fine_base_for_coarse s (T 0 j i) = Ok base /\
    0 <= tj base <= fine (tj (ax s)) /\ 0 <= ti base <= fine (ti (ax s)) /\
    fine_for_coarse_natural_pillar_index s (j * (coarse (ti (ax s)) + 1) + i) =
      Ok (tj base * (fine (ti (ax s)) + 1) + ti base).
Proof.
  intros s j i Hs Hj Hi. destruct (natural_pillar s j i Hs Hj Hi) as (fj & fi & E1 & E2 & B1 & B2 & R).
  exists (T 0 fj fi). unfold fine_base_for_coarse, zip3, seq3. cbn [tk tj ti].
  pose proof (va_coarse _ (Hs K)) as HK. rewrite (base_psum (tk (ax s)) 0 (Hs K)) by (cbn [get] in HK; lia).
  rewrite E1, E2. cbn [bind Z.to_nat firstn zsum fold_right]. auto.
Qed.
Print Assumptions C12_natural_pillar_index.

Theorem C12_natural_column_increasing : forall s c1 c2 n1 n2, ValidFC s ->
  0 <= c1 < c2 -> c2 < coarse (tj (ax s)) * coarse (ti (ax s)) ->
  fine_for_coarse_natural_column_index s c1 = Ok n1 ->
  fine_for_coarse_natural_column_index s c2 = Ok n2 -> n1 < n2.
Proof. exact natural_column_increasing. Qed.
Print Assumptions C12_natural_column_increasing.

(** The object reached in C08_example meets the hypothesis. *)
Example C12_example : forall s0, fc_init (T 6 5 4) (T 3 3 2) = Ok s0 -> ValidFC (fc_run s0 ex_ops) /\
  fine_for_coarse_natural_column_index (fc_run s0 ex_ops) 5 = Ok 18.
Proof.
  intros s0 H. split.
  - apply (reachable_valid _ _ _ _ H); [intros [ | | ]; cbn; lia|]. injection H as <-.
    intros [ | | ]; vm_compute; (left; discriminate) || (right; discriminate).
  - injection H as <-. vm_compute. reflexivity.
Qed.

(** C13: explicit decay rates (the code uses the same rate on both sides). *)
Theorem C13_tartan_explicit_rates : forall m ce fv r rate, valid_box fv ce = true -> (forall d, 1 <= get r d) ->
  (forall d, RateOK m (get rate d)) ->
  exists s, tartan_refinement m ce fv r rate rate = Ok s /\ ValidFC s /\ coarse_extent s = ce /\
    forall d,
      TartanSpec m (get ce d) (get (lo fv) d) (get (hi fv) d) (get r d) (get rate d) (get rate d) (ratios_of (get (ax s) d)) /\
      TartanShape (get ce d) (get (lo fv) d) (get (hi fv) d) (get r d) (ratios_of (get (ax s) d)) /\
      fine (get (ax s) d) = zsum (ratios_of (get (ax s) d)).
Proof.
  intros m ce fv r rate Hb Hr HR.
  destruct (tartan_whole m ce fv r rate rate Hb Hr HR HR) as (s & E & V & _ & C & S).
  { intros d. left. reflexivity. }
  exists s. split; [exact E|]. split; [exact V|]. split; [exact C|]. intros d. split; [apply S|].
  apply valid_box_spec in Hb. destruct Hb as (B0 & B1 & B2). specialize (B0 d). specialize (B1 d). specialize (B2 d).
  split; [eapply tartan_shape; try apply S; auto; lia|]. symmetry. apply (va_sum _ (V d)).
Qed.
Print Assumptions C13_tartan_explicit_rates.

(** Default rates of the linear mode. *)
Theorem C13_tartan_default_linear : forall ce fv r, valid_box fv ce = true -> (forall d, 1 <= get r d) ->
  let ra := zip3 default_linear_rate_lo (lo fv) r in
  let rb := T (default_linear_rate_hi (tk ce) (tk (hi fv)) (tk r)) (default_linear_rate_hi (tj ce) (tj (hi fv)) (tj r))
              (default_linear_rate_hi (ti ce) (ti (hi fv)) (ti r)) in
  exists s, tartan_refinement Linear ce fv r ra rb = Ok s /\ ValidFC s /\ coarse_extent s = ce /\
    forall d,
      TartanSpec Linear (get ce d) (get (lo fv) d) (get (hi fv) d) (get r d) (get ra d) (get rb d) (ratios_of (get (ax s) d)) /\
      TartanShape (get ce d) (get (lo fv) d) (get (hi fv) d) (get r d) (ratios_of (get (ax s) d)) /\
      fine (get (ax s) d) = zsum (ratios_of (get (ax s) d)).
Proof.
  intros ce fv r Hb Hr ra rb.
  assert (Hb' := Hb). apply valid_box_spec in Hb'. destruct Hb' as (B0 & B1 & B2).
  assert (Hd : forall d, RateOK Linear (get ra d) /\ RateOK Linear (get rb d) /\
    (forall x, 0 < x <= get (lo fv) d -> 1 <= around (factor Linear (get r d) (get ra d) x)) /\
    (forall x, 0 < x < get ce d - get (hi fv) d -> 1 <= around (factor Linear (get r d) (get rb d) x))).
  { intros d. specialize (B0 d). specialize (B1 d). specialize (B2 d).
    pose proof (default_linear_ok (get ce d) (get (lo fv) d) (get (hi fv) d) (get r d) ltac:(lia) ltac:(lia) (Hr d)) as H.
    destruct d; exact H. }
  destruct (tartan_whole Linear ce fv r ra rb Hb Hr) as (s & E & V & _ & C & S);
    [intros d; apply Hd|intros d; apply Hd|intros d; right; apply Hd|].
  exists s. split; [exact E|]. split; [exact V|]. split; [exact C|]. intros d. split; [apply S|].
  specialize (B0 d). specialize (B1 d). specialize (B2 d).
  split; [eapply tartan_shape; try apply S; try apply Hd; auto; lia|]. symmetry. apply (va_sum _ (V d)).
Qed.
Print Assumptions C13_tartan_default_linear.

(** Different exponential rates on the two sides, as the default computation
    produces: enough that the factor reaching the grid boundary still rounds to
    one or more (the real default rate q has r*q^(a+1/2) = 3/2).  Missing from the
    full claim: that the floating-point default rates meet this condition. *)
Theorem C13_tartan_exponential_two_sided_partial : forall ce fv r ra rb, valid_box fv ce = true -> (forall d, 1 <= get r d) ->
  (forall d, RateOK Exponential (get ra d)) -> (forall d, RateOK Exponential (get rb d)) ->
  (forall d, (1 <= inject_Z (get r d) * get ra d ^ get (lo fv) d)%Q) ->
  (forall d, (1 <= inject_Z (get r d) * get rb d ^ (get ce d - get (hi fv) d - 1))%Q) ->
  exists s, tartan_refinement Exponential ce fv r ra rb = Ok s /\ ValidFC s /\ coarse_extent s = ce /\
    forall d,
      TartanSpec Exponential (get ce d) (get (lo fv) d) (get (hi fv) d) (get r d) (get ra d) (get rb d) (ratios_of (get (ax s) d)) /\
      TartanShape (get ce d) (get (lo fv) d) (get (hi fv) d) (get r d) (ratios_of (get (ax s) d)) /\
      fine (get (ax s) d) = zsum (ratios_of (get (ax s) d)).
Proof.
  intros ce fv r ra rb Hb Hr HRa HRb Ha Hbb.
  assert (Hb' := Hb). apply valid_box_spec in Hb'. destruct Hb' as (B0 & B1 & B2).
  destruct (tartan_whole Exponential ce fv r ra rb Hb Hr HRa HRb) as (s & E & V & _ & C & S).
  { intros d. right. specialize (B0 d). specialize (B1 d). specialize (B2 d). specialize (Hr d). split; intros x Hx; apply around_ge.
    - eapply Qle_trans; [apply (Ha d)|]. apply (factor_mono Exponential); [apply HRa|lia|lia].
    - eapply Qle_trans; [apply (Hbb d)|]. apply (factor_mono Exponential); [apply HRb|lia|lia]. }
  exists s. split; [exact E|]. split; [exact V|]. split; [exact C|]. intros d. split; [apply S|].
  specialize (B0 d). specialize (B1 d). specialize (B2 d).
  split; [eapply tartan_shape; try apply S; auto; lia|]. symmetry. apply (va_sum _ (V d)).
Qed.
Print Assumptions C13_tartan_exponential_two_sided_partial.

(** np.around is rounding to nearest. *)
Theorem C13_around_is_nearest : forall q, (- (1 # 2) <= q - inject_Z (around q) <= 1 # 2)%Q.
Proof. exact around_nearest. Qed.
Print Assumptions C13_around_is_nearest.

Example C13_example : exists s, tartan_refinement Exponential (T 1 7 7) (Box (T 0 3 3) (T 0 3 4)) (T 1 5 8)
   (T 1 (1 # 2) (1 # 2))%Q (T 1 (1 # 2) (1 # 2))%Q = Ok s /\
   map3 ratios_of (ax s) = T [1] [1; 1; 2; 5; 2; 1; 1] [1; 2; 4; 8; 8; 4; 2].
Proof. eexists. split; vm_compute; reflexivity. Qed.
