(** FineCoarseProofs2.v: setters, histories, natural indices, proportions. *)
From Verif Require Import Base BoxModel BoxProofs FineCoarseModel FineCoarseProofs.
From Coq Require Import QArith Lqa.
Open Scope Z_scope.

(** * C09: setters *)
Lemma set_constant_iff a : 0 < coarse a ->
  (exists a', set_constant_ratio_ax a = Ok a') <-> (coarse a | fine a).
Proof.
  intros Hc. unfold set_constant_ratio_ax. assert (coarse a =? 0 = false) as -> by lia.
  rewrite <- Z.mod_divide by lia.
  destruct (Z.eqb_spec (fine a mod coarse a) 0) as [E|E]; cbn [assert_ bind].
  - split; [auto|]. intros _. eexists; reflexivity.
  - split; [intros [a' H]; discriminate|contradiction].
Qed.

Lemma set_constant_result a a' : 0 < coarse a -> 0 < fine a -> set_constant_ratio_ax a = Ok a' ->
  ValidAxis a' /\ fine a' = fine a /\ coarse a' = coarse a /\
  ratios_of a' = repeat (fine a / coarse a) (Z.to_nat (coarse a)).
Proof.
  intros Hc Hf. unfold set_constant_ratio_ax. assert (coarse a =? 0 = false) as -> by lia.
  destruct (Z.eqb_spec (fine a mod coarse a) 0) as [E|E]; cbn [assert_ bind]; [|discriminate].
  intros [= <-]. split; [|cbn; auto].
  assert (Ef : fine a = coarse a * (fine a / coarse a)) by (apply Z.div_exact; lia).
  split; cbn [coarse fine ratios_of cratio].
  - assumption.
  - rewrite repeat_length. lia.
  - intros r Hr. apply repeat_spec in Hr. subst r. nia.
  - rewrite zsum_repeat. rewrite Z2Nat.id by lia. lia.
Qed.

Lemma zmin_le v : forall x, In x v -> zmin_list v <= x.
Proof.
  unfold zmin_list. generalize (hd 0 v) as d. induction v as [|y v IH]; intros d x [].
  - subst. cbn. lia.
  - cbn. specialize (IH d x H). lia.
Qed.
Lemma zmax_ge v : forall x, In x v -> x <= zmax_list v.
Proof.
  unfold zmax_list. generalize (hd 0 v) as d. induction v as [|y v IH]; intros d x [].
  - subst. cbn. lia.
  - cbn. specialize (IH d x H). lia.
Qed.
Lemma fold_min_in v d : fold_right Z.min d v = d \/ In (fold_right Z.min d v) v.
Proof.
  induction v as [|y v IH]; cbn; [auto|].
  destruct (Z.min_spec y (fold_right Z.min d v)) as [[_ ->]|[_ ->]]; [auto|]. destruct IH; auto.
Qed.
Lemma zmin_in v : v <> [] -> In (zmin_list v) v.
Proof.
  intros H. unfold zmin_list. destruct (fold_min_in v (hd 0 v)) as [E|E]; [|assumption].
  rewrite E. destruct v; [contradiction|]. left; reflexivity.
Qed.

Lemma all_eq_repeat (v : list Z) x : (forall y, In y v -> y = x) -> v = repeat x (List.length v).
Proof.
  induction v as [|y v IH]; intros H; [reflexivity|]. cbn [List.length repeat]. f_equal.
  - apply H; left; reflexivity.
  - apply IH. intros; apply H; right; assumption.
Qed.

Lemma set_ratio_vector_ax_iff a v : 0 < fine a ->
  ((exists a', set_ratio_vector_ax a v = Ok a') <->
   Z.of_nat (List.length v) = coarse a /\ zsum v = fine a /\ (forall r, In r v -> 0 < r)) /\
  (forall a', set_ratio_vector_ax a v = Ok a' ->
     ValidAxis a' /\ fine a' = fine a /\ coarse a' = coarse a /\ ratios_of a' = v).
Proof.
  intros Hf.
  assert (Hmain : Z.of_nat (List.length v) = coarse a /\ zsum v = fine a /\ (forall r, In r v -> 0 < r) ->
    exists a', set_ratio_vector_ax a v = Ok a' /\ ValidAxis a' /\ fine a' = fine a /\ coarse a' = coarse a /\ ratios_of a' = v).
  { intros (H1 & H2 & H3).
    assert (Hne : v <> []) by (intros ->; cbn in H2; lia).
    unfold set_ratio_vector_ax. rewrite H1, H2, !Z.eqb_refl. cbn [assert_ bind].
    pose proof (H3 _ (zmin_in v Hne)) as Hmin.
    assert (0 <? zmin_list v = true) as -> by lia. cbn [assert_ bind].
    destruct (Z.eqb_spec (zmin_list v) (zmax_list v)) as [E|E].
    - assert (Ev : v = repeat (zmin_list v) (List.length v)).
      { apply all_eq_repeat. intros y Hy. pose proof (zmin_le v y Hy). pose proof (zmax_ge v y Hy). lia. }
      assert (Hc : 0 < coarse a) by (destruct v; [contradiction|cbn in H1; lia]).
      assert (Efine : fine a = coarse a * zmin_list v).
      { rewrite <- H2. rewrite Ev at 1. rewrite zsum_repeat. lia. }
      destruct (proj2 (set_constant_iff a Hc)) as [a' Ha'].
      { exists (zmin_list v). lia. }
      pose proof (set_constant_result a a' Hc Hf Ha') as (V1 & V2 & V3 & V4).
      rewrite Ha'. cbn [bind].
      assert (Ediv : fine a / coarse a = zmin_list v).
      { rewrite Efine, Z.mul_comm. apply Z.div_mul. lia. }
      unfold set_constant_ratio_ax in Ha'. destruct (coarse a =? 0); [discriminate|].
      destruct (assert_ _); cbn [bind] in Ha'; [|discriminate]. injection Ha' as <-.
      cbn [cratio]. rewrite Ediv, Z.eqb_refl. cbn [assert_ bind].
      eexists. split; [reflexivity|]. rewrite Ediv in V1, V2, V3, V4. 
      split; [exact V1|]. split; [reflexivity|]. split; [reflexivity|].
      rewrite V4. rewrite Ev at 2. f_equal. lia.
    - eexists. split; [reflexivity|]. split; [|cbn; auto].
      split; cbn [ratios_of cratio vratio coarse fine]; try assumption.
      destruct v; [contradiction|cbn in H1; lia]. }
  assert (Hback : (exists a', set_ratio_vector_ax a v = Ok a') ->
    Z.of_nat (List.length v) = coarse a /\ zsum v = fine a /\ (forall r, In r v -> 0 < r)).
  { intros [a' H]. unfold set_ratio_vector_ax in H.
    destruct (Z.eqb_spec (Z.of_nat (List.length v)) (coarse a)); cbn [assert_ bind] in H; [|discriminate].
    destruct (Z.eqb_spec (zsum v) (fine a)); cbn [assert_ bind] in H; [|discriminate].
    destruct (Z.ltb_spec 0 (zmin_list v)); cbn [assert_ bind] in H; [|discriminate].
    split; [assumption|]. split; [assumption|]. intros r Hr. pose proof (zmin_le v r Hr). lia. }
  split.
  - split; [exact Hback|]. intros H. destruct (Hmain H) as (a' & Ha' & _). eauto.
  - intros a' Ha'. destruct (Hmain (Hback (ex_intro _ a' Ha'))) as (a'' & H'' & V).
    assert (a'' = a') as -> by congruence. exact V.
Qed.

(** * Reachable objects *)
(** Either no ratios yet, or consistent ones. *)
Definition AxisOK (a : axdata) : Prop :=
  0 < fine a /\ 0 < coarse a /\ ((cratio a = None /\ vratio a = None) \/ ValidAxis a).

Lemma init_ok fe ce s d : fc_init fe ce = Ok s -> 0 < get ce d -> AxisOK (get (ax s) d) /\
  fine (get (ax s) d) = get fe d /\ coarse (get (ax s) d) = get ce d /\ cache s = None.
Proof.
  unfold fc_init. destruct (forall3 _) eqn:E; cbn [assert_ bind]; [|discriminate].
  intros [= <-] Hc. cbn [ax cache]. rewrite get_zip3. cbn [fine coarse].
  rewrite forall3_spec in E. specialize (E d). unfold extents_valid in E.
  unfold AxisOK; cbn. intuition; try reflexivity; lia.
Qed.

Lemma set_const_axis s s' d : set_constant_ratio s d = Ok s' ->
  exists a, set_constant_ratio_ax (get (ax s) d) = Ok a /\ s' = FC (set (ax s) d a) (cache s).
Proof. unfold set_constant_ratio. destruct (set_constant_ratio_ax _); cbn [bind]; [|discriminate]. intros [= <-]. eauto. Qed.
Lemma set_vec_axis s s' d v : set_ratio_vector s d v = Ok s' ->
  exists a, set_ratio_vector_ax (get (ax s) d) v = Ok a /\ s' = FC (set (ax s) d a) (cache s).
Proof. unfold set_ratio_vector. destruct (set_ratio_vector_ax _ _); cbn [bind]; [|discriminate]. intros [= <-]. eauto. Qed.

Lemma axis_eq_dec (d d' : axis) : {d = d'} + {d <> d'}.
Proof. decide equality. Qed.

Lemma step_axes s o d : AxisOK (get (ax s) d) -> AxisOK (get (ax (fc_step s o)) d) /\
  fine (get (ax (fc_step s o)) d) = fine (get (ax s) d) /\ coarse (get (ax (fc_step s o)) d) = coarse (get (ax s) d).
Proof.
  intros Hok. destruct o as [d'|d' v|]; cbn [fc_step].
  - destruct (set_constant_ratio s d') as [s'|e] eqn:E; [|auto].
    apply set_const_axis in E. destruct E as (a & Ha & ->). cbn [ax].
    destruct (axis_eq_dec d' d) as [->|Hn].
    + rewrite get_set_same. destruct Hok as (H1 & H2 & _).
      pose proof (set_constant_result _ _ H2 H1 Ha) as (V1 & V2 & V3 & _).
      unfold AxisOK. rewrite V2, V3. auto.
    + rewrite get_set_other by assumption. auto.
  - destruct (set_ratio_vector s d' v) as [s'|e] eqn:E; [|auto].
    apply set_vec_axis in E. destruct E as (a & Ha & ->). cbn [ax].
    destruct (axis_eq_dec d' d) as [->|Hn].
    + rewrite get_set_same. destruct Hok as (H1 & H2 & _).
      destruct (set_ratio_vector_ax_iff (get (ax s) d) v H1) as [_ H].
      destruct (H _ Ha) as (V1 & V2 & V3 & _).
      unfold AxisOK. rewrite V2, V3. auto.
    + rewrite get_set_other by assumption. auto.
  - unfold coarse_for_fine. destruct (cache s); [auto|]. unfold set_mapping.
    destruct (map_axis (tk (ax s))) as [k [|]]; [|cbn; auto].
    destruct (map_axis (tj (ax s))) as [j [|]]; [|cbn; auto].
    destruct (map_axis (ti (ax s))) as [i [|]]; cbn; auto.
Qed.

Lemma run_axes os : forall s d, AxisOK (get (ax s) d) -> AxisOK (get (ax (fc_run s os)) d) /\
  fine (get (ax (fc_run s os)) d) = fine (get (ax s) d) /\ coarse (get (ax (fc_run s os)) d) = coarse (get (ax s) d).
Proof.
  induction os as [|o os IH]; intros s d H; [cbn; auto|]. cbn [fc_run fold_left].
  destruct (step_axes s o d H) as (H1 & H2 & H3).
  destruct (IH (fc_step s o) d H1) as (G1 & G2 & G3). rewrite <- H2, <- H3. auto.
Qed.

(** Every object built by __init__ and any history of setters and queries is a
    valid mapping once all three axes have ratios. *)
Lemma reachable_valid fe ce s os : fc_init fe ce = Ok s -> (forall d, 0 < get ce d) ->
  (forall d, cratio (get (ax (fc_run s os)) d) <> None \/ vratio (get (ax (fc_run s os)) d) <> None) ->
  ValidFC (fc_run s os).
Proof.
  intros Hi Hc Hset d. destruct (init_ok fe ce s d Hi (Hc d)) as (H & _).
  destruct (run_axes os s d H) as ((_ & _ & G) & _). destruct G as [[G1 G2]|G]; [|assumption].
  exfalso. destruct (Hset d); contradiction.
Qed.

(** * C11 *)
Definition is_query (o : fcop) : bool := match o with OpQuery => true | _ => false end.

Lemma setters_no_cache os : forall s, forallb (fun o => negb (is_query o)) os = true ->
  cache (fc_run s os) = cache s.
Proof.
  induction os as [|o os IH]; intros s H; [reflexivity|]. cbn [forallb] in H.
  apply andb_true_iff in H. destruct H as [Ho H]. cbn [fc_run fold_left].
  change (fold_left fc_step os (fc_step s o)) with (fc_run (fc_step s o) os). rewrite IH by assumption.
  destruct o as [d|d v|]; cbn in *; [| |discriminate].
  - destruct (set_constant_ratio s d) eqn:E; [|reflexivity].
    apply set_const_axis in E. destruct E as (? & _ & ->). reflexivity.
  - destruct (set_ratio_vector s d v) eqn:E; [|reflexivity].
    apply set_vec_axis in E. destruct E as (? & _ & ->). reflexivity.
Qed.

Lemma query_answer s : ValidFC s -> cache s = None ->
  let s' := fst (coarse_for_fine s) in
  ax s' = ax s /\ fst (coarse_for_fine s') = s' /\ snd (coarse_for_fine s') = snd (coarse_for_fine s).
Proof. intros H Hc. rewrite mapping_valid by assumption. cbn. auto. Qed.

Definition queries (n : nat) : list fcop := repeat OpQuery n.

(** Answers given after a history in which no query precedes a setter. *)
Lemma consistent_after fe ce s0 os n : fc_init fe ce = Ok s0 -> (forall d, 0 < get ce d) ->
  forallb (fun o => negb (is_query o)) os = true ->
  let s := fc_run s0 (os ++ queries n) in
  (forall d, cratio (get (ax s) d) <> None \/ vratio (get (ax s) d) <> None) ->
  ValidFC s /\
  forall f, InExtent f fe ->
    exists c, snd (coarse_for_fine_kji0 s f) = Ok (map3 Some c) /\ InExtent c ce /\
      forall c' b, InExtent c' ce -> fine_box_for_coarse s c' = Ok b -> (InBox f b <-> c' = c).
Proof.
  intros Hi Hc Hq s Hset.
  pose proof (reachable_valid fe ce s0 (os ++ queries n) Hi Hc Hset) as Hv. fold s in Hv.
  split; [assumption|].
  set (s1 := fc_run s0 os).
  assert (Hc1 : cache s1 = None).
  { unfold s1. rewrite setters_no_cache by assumption. apply (init_ok fe ce s0 K Hi (Hc K)). }
  assert (Hs : s = fc_run s1 (queries n)).
  { unfold s, s1, fc_run. now rewrite fold_left_app. }
  assert (Hax : ax s = ax s1 /\ (n = 0%nat \/ cache s = Some (map3 (fun a => Some (map Some (expand 0 (ratios_of a)))) (ax s1)))).
  { assert (Hv1 : ValidFC s1 \/ True) by auto. clear Hv1.
    assert (G : forall n s', ax s' = ax s1 -> (cache s' = None \/ cache s' = Some (map3 (fun a => Some (map Some (expand 0 (ratios_of a)))) (ax s1))) ->
      ValidFC s' -> ax (fc_run s' (queries n)) = ax s1 /\
       ((n = 0%nat /\ cache (fc_run s' (queries n)) = cache s') \/ cache (fc_run s' (queries n)) = Some (map3 (fun a => Some (map Some (expand 0 (ratios_of a)))) (ax s1)))).
    { clear -Hc1. induction n as [|n IH]; intros s' Hax Hca Hv; [cbn; auto|].
      change (fc_run s' (queries (S n))) with (fc_run (fst (coarse_for_fine s')) (queries n)).
      destruct Hca as [Hca|Hca].
      - rewrite mapping_valid by assumption. cbn [fst].
        destruct (IH (FC (ax s') (Some (map3 (fun a => Some (map Some (expand 0 (ratios_of a)))) (ax s'))))) as [I1 I2].
        + exact Hax.
        + right. cbn. now rewrite Hax.
        + exact Hv.
        + split; [exact I1|]. right. destruct I2 as [[_ I2]|I2]; [rewrite I2; cbn; now rewrite Hax|exact I2].
      - assert (fst (coarse_for_fine s') = s') as -> by (unfold coarse_for_fine; now rewrite Hca).
        destruct (IH s' Hax (or_intror Hca) Hv) as [I1 I2]. split; [exact I1|].
        right. destruct I2 as [[_ I2]|I2]; congruence. }
    assert (Hax0 : forall m s', ax (fc_run s' (queries m)) = ax s').
    { clear. induction m as [|m IH]; intros s'; [reflexivity|].
      change (fc_run s' (queries (S m))) with (fc_run (fst (coarse_for_fine s')) (queries m)).
      rewrite IH. unfold coarse_for_fine. destruct (cache s'); [reflexivity|]. unfold set_mapping.
      destruct (map_axis (tk (ax s'))) as [k [|]]; [|reflexivity].
      destruct (map_axis (tj (ax s'))) as [j [|]]; [|reflexivity].
      destruct (map_axis (ti (ax s'))) as [i [|]]; reflexivity. }
    assert (Hv1 : ValidFC s1).
    { intros d. specialize (Hv d). rewrite Hs, Hax0 in Hv. exact Hv. }
    destruct (G n s1 eq_refl (or_introl Hc1) Hv1) as [G1 G2]. rewrite <- Hs in *.
    split; [exact G1|]. destruct G2 as [[G2 _]|G2]; auto. }
  destruct Hax as [Hax Hca].
  assert (Hext : fine_extent s = fe /\ coarse_extent s = ce).
  { split; apply trip_ext; intros d; unfold fine_extent, coarse_extent; rewrite get_map3;
    destruct (init_ok fe ce s0 d Hi (Hc d)) as (H1 & H2 & H3 & _);
    destruct (run_axes (os ++ queries n) s0 d H1) as (_ & G2 & G3); fold s in G2, G3; congruence. }
  destruct Hext as [He1 He2].
  assert (Hans : snd (coarse_for_fine s) = snd (coarse_for_fine (FC (ax s) None))).
  { rewrite (mapping_valid (FC (ax s) None)) by (try assumption; reflexivity). cbn [snd].
    destruct Hca as [->|Hca].
    - cbn in Hs. rewrite Hs. rewrite mapping_valid; [reflexivity|now rewrite <- Hs|assumption].
    - unfold coarse_for_fine. rewrite Hca, Hax. reflexivity. }
  assert (Hk : forall f, snd (coarse_for_fine_kji0 s f) = snd (coarse_for_fine_kji0 (FC (ax s) None) f)).
  { intros f. unfold coarse_for_fine_kji0. destruct (coarse_for_fine s), (coarse_for_fine (FC (ax s) None)).
    cbn [snd] in *. now rewrite Hans. }
  intros f Hf.
  destruct (partition (FC (ax s) None) Hv eq_refl f) as (c & P1 & P2 & P3).
  { unfold fine_extent in *. cbn [ax]. now rewrite He1. }
  exists c. rewrite Hk. unfold coarse_extent in *. cbn [ax] in *. rewrite He2 in *.
  split; [assumption|]. split; [assumption|]. exact P3.
Qed.

(** * C12 *)
Lemma psum_strict a c c' : ValidAxis a -> 0 <= c < c' -> c' <= coarse a ->
  zsum (firstn (Z.to_nat c) (ratios_of a)) < zsum (firstn (Z.to_nat c') (ratios_of a)).
Proof.
  intros Ha Hc Hc'. pose proof (owns_nonempty a c Ha ltac:(lia)) as [[_ H] _].
  destruct Ha as [H1 H2 H3 H4].
  pose proof (zsum_firstn_mono (ratios_of a) (Z.to_nat (c + 1)) (Z.to_nat c') H3 ltac:(lia)). lia.
Qed.

Lemma psum_bounds a c : ValidAxis a -> 0 <= c <= coarse a ->
  0 <= zsum (firstn (Z.to_nat c) (ratios_of a)) <= fine a.
Proof.
  intros [H1 H2 H3 H4] Hc.
  pose proof (zsum_firstn_mono (ratios_of a) (Z.to_nat c) (List.length (ratios_of a)) H3 ltac:(lia)) as Hm.
  rewrite firstn_all in Hm.
  pose proof (zsum_firstn_mono (ratios_of a) 0 (Z.to_nat c) H3 ltac:(lia)) as Hm0.
  cbn [firstn zsum fold_right] in Hm0. lia.
Qed.

Definition natural (ni j i : Z) : Z := j * ni + i.

Lemma natural_column s j i : ValidFC s -> 0 <= j < coarse (tj (ax s)) -> 0 <= i < coarse (ti (ax s)) ->
  exists fj fi, fine_base_for_coarse_axial (tj (ax s)) j = Ok fj /\ fine_base_for_coarse_axial (ti (ax s)) i = Ok fi /\
    0 <= fj < fine (tj (ax s)) /\ 0 <= fi < fine (ti (ax s)) /\
    fine_for_coarse_natural_column_index s (natural (coarse (ti (ax s))) j i) = Ok (natural (fine (ti (ax s))) fj fi).
Proof.
  intros Hs Hj Hi. pose proof (Hs J) as HJ. pose proof (Hs I) as HI. cbn [get] in *.
  exists (zsum (firstn (Z.to_nat j) (ratios_of (tj (ax s))))), (zsum (firstn (Z.to_nat i) (ratios_of (ti (ax s))))).
  rewrite !base_psum by (assumption || lia).
  split; [reflexivity|]. split; [reflexivity|].
  pose proof (owns_nonempty _ _ HJ Hj) as [_ B1]. pose proof (owns_nonempty _ _ HI Hi) as [_ B2].
  split; [lia|]. split; [lia|].
  unfold fine_for_coarse_natural_column_index, natural.
  assert (coarse (ti (ax s)) =? 0 = false) as -> by lia.
  rewrite (Z.div_add_l j) by lia. rewrite (Z.div_small i) by lia. rewrite Z.add_0_r.
  rewrite (Z.add_comm (j * _)), Z.mod_add by lia. rewrite (Z.mod_small i) by lia.
  rewrite !first_fine_psum by (assumption || lia). reflexivity.
Qed.

Lemma natural_pillar s j i : ValidFC s -> 0 <= j <= coarse (tj (ax s)) -> 0 <= i <= coarse (ti (ax s)) ->
  exists fj fi, fine_base_for_coarse_axial (tj (ax s)) j = Ok fj /\ fine_base_for_coarse_axial (ti (ax s)) i = Ok fi /\
    0 <= fj <= fine (tj (ax s)) /\ 0 <= fi <= fine (ti (ax s)) /\
    fine_for_coarse_natural_pillar_index s (natural (coarse (ti (ax s)) + 1) j i) = Ok (natural (fine (ti (ax s)) + 1) fj fi).
Proof.
  intros Hs Hj Hi. pose proof (Hs J) as HJ. pose proof (Hs I) as HI. cbn [get] in *.
  exists (zsum (firstn (Z.to_nat j) (ratios_of (tj (ax s))))), (zsum (firstn (Z.to_nat i) (ratios_of (ti (ax s))))).
  rewrite !base_psum by (assumption || lia).
  split; [reflexivity|]. split; [reflexivity|].
  pose proof (psum_bounds _ _ HJ Hj) as B1. pose proof (psum_bounds _ _ HI Hi) as B2.
  split; [lia|]. split; [lia|].
  unfold fine_for_coarse_natural_pillar_index, natural.
  assert (coarse (ti (ax s)) + 1 =? 0 = false) as -> by lia.
  rewrite (Z.div_add_l j) by lia. rewrite (Z.div_small i) by lia. rewrite Z.add_0_r.
  rewrite (Z.add_comm (j * _)), Z.mod_add by lia. rewrite (Z.mod_small i) by lia.
  rewrite !first_fine_psum by (assumption || lia). reflexivity.
Qed.

Lemma natural_column_increasing s c1 c2 n1 n2 : ValidFC s ->
  0 <= c1 < c2 -> c2 < coarse (tj (ax s)) * coarse (ti (ax s)) ->
  fine_for_coarse_natural_column_index s c1 = Ok n1 ->
  fine_for_coarse_natural_column_index s c2 = Ok n2 -> n1 < n2.
Proof.
  intros Hs Hc Hc2. pose proof (va_coarse _ (Hs I)) as Hci. cbn [get] in Hci.
  set (ci := coarse (ti (ax s))) in *.
  assert (D1 : c1 = natural ci (c1 / ci) (c1 mod ci)) by (unfold natural; rewrite Z.mul_comm; apply Z.div_mod; lia).
  assert (D2 : c2 = natural ci (c2 / ci) (c2 mod ci)) by (unfold natural; rewrite Z.mul_comm; apply Z.div_mod; lia).
  pose proof (Z.mod_pos_bound c1 ci Hci). pose proof (Z.mod_pos_bound c2 ci Hci).
  assert (0 <= c1 / ci) by (apply Z.div_pos; lia).
  assert (c2 / ci < coarse (tj (ax s))) by (apply Z.div_lt_upper_bound; lia).
  assert (c1 / ci <= c2 / ci) by (apply Z.div_le_mono; lia).
  destruct (natural_column s (c1 / ci) (c1 mod ci) Hs) as (f1 & g1 & A1 & B1 & C1 & E1 & R1); [lia|assumption|].
  destruct (natural_column s (c2 / ci) (c2 mod ci) Hs) as (f2 & g2 & A2 & B2 & C2 & E2 & R2); [lia|assumption|].
  fold ci in R1, R2. rewrite <- D1 in R1. rewrite <- D2 in R2. rewrite R1, R2. intros [= <-] [= <-].
  pose proof (Hs J) as HJ. pose proof (Hs I) as HI. cbn [get] in *.
  rewrite base_psum in A1, A2, B1, B2 by (try assumption; fold ci; lia).
  injection A1 as <-. injection A2 as <-. injection B1 as <-. injection B2 as <-.
  unfold natural in *.
  destruct (Z.eq_dec (c1 / ci) (c2 / ci)) as [E|E].
  - rewrite E. pose proof (psum_strict (ti (ax s)) (c1 mod ci) (c2 mod ci) HI) as P.
    fold ci in P. assert (c1 mod ci < c2 mod ci) by (rewrite E in D1; lia). specialize (P ltac:(lia) ltac:(lia)). lia.
  - pose proof (psum_strict (tj (ax s)) (c1 / ci) (c2 / ci) HJ ltac:(lia) ltac:(lia)) as P.
    nia.
Qed.
