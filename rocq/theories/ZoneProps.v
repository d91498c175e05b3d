(** ZoneProps.v: the layer ranges of zones and the grids made from them. *)
From Verif Require Import Base QBase PySort IntersectModel PillarModel PillarProofs PointsModel PointsProofs ExtractModel ZoneModel.
From Coq Require Import Sorting.Sorted Sorting.Permutation.
Open Scope Z_scope.

(** * Specification *)
(** every active cell of layer k is of zone z, and there is one *)
Definition Zoned (za : zarray) (k z : Z) : Prop := In (Some z) (za k) /\ forall v, In (Some v) (za k) -> v = z.
Definition Idle (za : zarray) (k : Z) : Prop := forall v, ~ In (Some v) (za k).
Definition Contiguous (rs : list (Z * Z * Z)) : Prop := forall p q a b z a' b' z',
  rs = p ++ (a, b, z) :: (a', b', z') :: q -> a' = b + 1.
(** the ranges of the zones of layers lo to hi, in order *)
Record Ranges (za : zarray) (lo hi : Z) (rs : list (Z * Z * Z)) : Prop := {
  R_some : rs <> [];
  R_zone : forall a b z, In (a, b, z) rs -> lo <= a <= b /\ b <= hi /\ forall k, a <= k <= b -> Zoned za k z;
  R_next : Contiguous rs;
  R_all : forall k, lo <= k <= hi -> Idle za k \/ exists a b z, In (a, b, z) rs /\ a <= k <= b;
  R_once : NoDup (map snd rs) }.

(** * Lemmas *)
Lemma in_actives v l : In v (actives l) <-> In (Some v) l.
Proof.
  unfold actives. rewrite in_flat_map. split.
  - intros ([w|] & H & E); [|destruct E]. destruct E as [->|[]]. exact H.
  - intros H. exists (Some v). split; [exact H|left; reflexivity].
Qed.
Lemma in_unique v l : In v (unique l) <-> In v l.
Proof.
  unfold unique. split; intros H.
  - apply (nodup_In Z.eq_dec). eapply Permutation_in; [apply Permutation_sym, isort_perm|exact H].
  - eapply Permutation_in; [apply isort_perm|]. apply nodup_In. exact H.
Qed.
Lemma NoDup_unique l : NoDup (unique l).
Proof. unfold unique. eapply Permutation_NoDup; [apply isort_perm|apply NoDup_nodup]. Qed.
Lemma any_spec z l : any_zone z l = true <-> In (Some z) l.
Proof.
  unfold any_zone. rewrite existsb_exists. split.
  - intros ([v|] & H & E); [|discriminate]. apply Z.eqb_eq in E. subst v. exact H.
  - intros H. exists (Some z). split; [exact H|apply Z.eqb_refl].
Qed.
Lemma all_spec za z k : all_zone z (za k) = true <-> Zoned za k z.
Proof.
  unfold all_zone, Zoned. destruct (actives (za k)) as [|v vs] eqn:E.
  - split; [discriminate|]. intros [H _]. apply in_actives in H. rewrite E in H. destruct H.
  - rewrite forallb_forall. split.
    + intros H. assert (A : forall w, In (Some w) (za k) -> w = z) by (intros w Hw; apply in_actives in Hw; rewrite E in Hw; apply H in Hw; lia).
      split; [|exact A]. assert (B : In (Some v) (za k)) by (apply in_actives; rewrite E; left; reflexivity). rewrite <- (A v B). exact B.
    + intros [_ H] w Hw. rewrite <- E in Hw. apply in_actives in Hw. apply H in Hw. lia.
Qed.
Lemma find_first (f : Z -> bool) a b : forall n, Z.to_nat (b - a) = n -> 
  match find f (zrange2 a b) with
  | Some x => a <= x < b /\ f x = true /\ forall k, a <= k < x -> f k = false
  | None => forall k, a <= k < b -> f k = false end.
Proof.
  intros n. revert a. induction n as [|n IH]; intros a E.
  - rewrite zrange2_nil by lia. cbn. intros; lia.
  - rewrite zrange2_cons by lia. cbn [find]. destruct (f a) eqn:F; [split; [lia|]; split; [exact F|intros; lia]|].
    specialize (IH (a + 1) ltac:(lia)). destruct (find f (zrange2 (a + 1) b)).
    + destruct IH as (R & T & L). split; [lia|]. split; [exact T|]. intros k Hk. destruct (Z.eq_dec k a) as [-> |]; [exact F|apply L; lia].
    + intros k Hk. destruct (Z.eq_dec k a) as [-> |]; [exact F|apply IH; lia].
Qed.
Lemma zrange2_last a b : a <= b -> zrange2 a (b + 1) = zrange2 a b ++ [b].
Proof.
  intros H. unfold zrange2. replace (Z.to_nat (b + 1 - a)) with (Z.to_nat (b - a) + 1)%nat by lia.
  rewrite seq_app, map_app. f_equal. cbn. f_equal. lia.
Qed.
Lemma find_last (f : Z -> bool) a b : forall n, Z.to_nat (b - a) = n -> 
  match find f (rev (zrange2 a b)) with
  | Some x => a <= x < b /\ f x = true /\ forall k, x < k < b -> f k = false
  | None => forall k, a <= k < b -> f k = false end.
Proof.
  intros n. revert b. induction n as [|n IH]; intros b E.
  - rewrite zrange2_nil by lia. cbn. intros; lia.
  - replace b with (b - 1 + 1) by lia. rewrite zrange2_last by lia. rewrite rev_unit. cbn [find]. destruct (f (b - 1)) eqn:F; [split; [lia|]; split; [exact F|intros; lia]|].
    specialize (IH (b - 1) ltac:(lia)). destruct (find f (rev (zrange2 a (b - 1)))).
    + destruct IH as (R & T & L). split; [lia|]. split; [exact T|]. intros k Hk. destruct (Z.eq_dec k (b - 1)) as [-> |]; [exact F|apply L; lia].
    + intros k Hk. destruct (Z.eq_dec k (b - 1)) as [-> |]; [exact F|apply IH; lia].
Qed.
(** a zone's range: its first and last layer, and no other zone between *)
Definition Range (za : zarray) (lo hi a b z : Z) : Prop :=
  lo <= a <= b /\ b <= hi /\ (forall k, a <= k <= b -> Zoned za k z) /\ forall k, lo <= k <= hi -> In (Some z) (za k) -> a <= k <= b.
Lemma one_zone_spec za lo hi z :
  match one_zone za lo hi z with
  | Ok (Some (a, b, z')) => z' = z /\ Range za lo hi a b z
  | Ok None => forall k, lo <= k <= hi -> ~ In (Some z) (za k)
  | Err e => e = AssertionError /\ exists a k b, lo <= a <= k /\ k <= b <= hi /\ In (Some z) (za a) /\ In (Some z) (za b) /\ ~ Zoned za k z
  end.
Proof.
  unfold one_zone. pose proof (find_first (fun k => any_zone z (za k)) lo (hi + 1) _ eq_refl) as F.
  pose proof (find_last (fun k => any_zone z (za k)) lo (hi + 1) _ eq_refl) as L.
  destruct (find _ (zrange2 lo (hi + 1))) as [a|].
  - destruct F as (Ra & Ta & Fa). destruct (find _ (rev _)) as [b|].
    + destruct L as (Rb & Tb & Lb). destruct (forallb _ (zrange2 a (b + 1))) eqn:A; cbn [assert_ bind].
      * split; [reflexivity|]. rewrite forallb_forall in A. apply any_spec in Ta as Ta'.
        assert (AB : a <= b) by (destruct (Z_lt_le_dec b a); [|lia]; specialize (Lb a ltac:(lia)); congruence).
        split; [lia|]. split; [lia|]. split.
        -- intros k Hk. apply all_spec, A, in_zrange2. lia.
        -- intros k Hk I. apply any_spec in I. destruct (Z_lt_le_dec k a); [specialize (Fa k ltac:(lia)); congruence|]. destruct (Z_lt_le_dec b k); [specialize (Lb k ltac:(lia)); congruence|lia].
      * split; [reflexivity|].
        assert (X : exists k, In k (zrange2 a (b + 1)) /\ all_zone z (za k) = false).
        { clear - A. induction (zrange2 a (b + 1)) as [|x l IH]; [discriminate|]. cbn in A. destruct (all_zone z (za x)) eqn:E; [|exists x; split; [left; reflexivity|exact E]].
          destruct (IH A) as (k & H & E'). exists k. split; [right; exact H|exact E']. }
        destruct X as (k & Ik & Ek). apply in_zrange2 in Ik. exists a, k, b. apply any_spec in Ta, Tb. split; [lia|]. split; [lia|]. split; [exact Ta|]. split; [exact Tb|].
        intros Zk. apply all_spec in Zk. congruence.
    + specialize (L a Ra). congruence.
  - intros k Hk I. apply any_spec in I. specialize (F k ltac:(lia)). congruence.
Qed.
Lemma each_zone_spec za lo hi : forall zs, NoDup zs ->
  match each_zone za lo hi zs with
  | Ok rs => (forall a b z, In (a, b, z) rs -> In z zs /\ Range za lo hi a b z) /\ NoDup (map snd rs) /\
             forall z k, In z zs -> lo <= k <= hi -> In (Some z) (za k) -> exists a b, In (a, b, z) rs
  | Err e => e = AssertionError /\ exists z a k b, In z zs /\ lo <= a <= k /\ k <= b <= hi /\ In (Some z) (za a) /\ In (Some z) (za b) /\ ~ Zoned za k z
  end.
Proof.
  induction zs as [|z zs IH]; intros N; cbn [each_zone].
  - split; [intros ? ? ? []|]. split; [constructor|intros ? ? []].
  - inversion N as [|z0 l Nz N']; subst z0 l. specialize (IH N'). pose proof (one_zone_spec za lo hi z) as O.
    destruct (one_zone za lo hi z) as [[[[a b] z']|]|e]; cbn [bind].
    + destruct O as [-> R]. destruct (each_zone za lo hi zs) as [rs|e]; cbn [bind].
      * destruct IH as (I1 & I2 & I3). split; [|split].
        -- intros a' b' z' [E|H]; [injection E as <- <- <-; split; [left; reflexivity|exact R]|]. destruct (I1 _ _ _ H). split; [right; assumption|assumption].
        -- cbn. constructor; [|exact I2]. intros H. apply in_map_iff in H as ([[a' b'] z'] & E & H). cbn in E. subst z'. apply I1 in H. tauto.
        -- intros z' k [<- |H] Hk I; [exists a, b; left; reflexivity|]. destruct (I3 z' k H Hk I) as (a' & b' & H'). exists a', b'. right. exact H'.
      * destruct IH as (-> & z' & a' & k & b' & H). split; [reflexivity|]. exists z', a', k, b'. split; [right; apply H|apply H].
    + destruct (each_zone za lo hi zs) as [rs|e]; cbn [bind].
      * destruct IH as (I1 & I2 & I3). split; [|split; [exact I2|]].
        -- intros a' b' z' H. destruct (I1 _ _ _ H). split; [right; assumption|assumption].
        -- intros z' k [<- |H] Hk I; [exfalso; exact (O k Hk I)|]. exact (I3 z' k H Hk I).
      * destruct IH as (-> & z' & a' & k & b' & H). split; [reflexivity|]. exists z', a', k, b'. split; [right; apply H|apply H].
    + destruct O as (-> & a & k & b & H). split; [reflexivity|]. exists z, a, k, b. split; [left; reflexivity|exact H].
Qed.
Lemma range_le_order : Order range_le.
Proof.
  constructor.
  - intros [[a b] z] [[a' b'] z']. unfold range_le. lia.
  - intros [[a b] z] [[a' b'] z'] [[a1 b1] z1]. unfold range_le. lia.
  - intros [[a b] z] [[a' b'] z']. unfold range_le. intros H H'. assert (a = a' /\ b = b' /\ z = z') as (-> & -> & ->) by lia. reflexivity.
Qed.
Lemma close_ok rs : close_gaps rs = Ok tt -> Contiguous rs.
Proof.
  induction rs as [|[[a b] z] rs IH]; intros H p q a0 b0 z0 a' b' z' E; [destruct p; discriminate|].
  destruct rs as [|[[a1 b1] z1] rs].
  - destruct p as [|x p]; [discriminate|]. destruct p; discriminate.
  - cbn [close_gaps] in H. destruct (Z.ltb_spec b a1); [|discriminate]. cbn [assert_ bind] in H. destruct (Z.ltb_spec (b + 1) a1); [discriminate|]. cbn [bind] in H.
    destruct p as [|x p].
    + injection E as -> -> -> -> -> -> ->. lia.
    + injection E as _ E. exact (IH H p q a0 b0 z0 a' b' z' E).
Qed.
Lemma ok_close rs : (forall p q a b z a' b' z', rs = p ++ (a, b, z) :: (a', b', z') :: q -> a' = b + 1) -> close_gaps rs = Ok tt.
Proof.
  induction rs as [|[[a b] z] rs IH]; intros H; [reflexivity|]. destruct rs as [|[[a1 b1] z1] rs]; [reflexivity|].
  cbn [close_gaps]. specialize (H [] rs _ _ _ _ _ _ eq_refl) as E. replace (b <? a1) with true by lia. cbn [assert_ bind]. replace (b + 1 <? a1) with false by lia. cbn [bind].
  apply IH. intros p q a0 b0 z0 a' b' z' E'. apply (H ((a, b, z) :: p) q a0 b0 z0 a' b' z'). rewrite E'. reflexivity.
Qed.

(** * Layer ranges *)
Lemma ranges_of za lo hi zs : (forall k v, lo <= k <= hi -> In (Some v) (za k) -> In v zs) ->
  forall rs0 rs, each_zone za lo hi zs = Ok rs0 -> NoDup zs -> rs = isort range_le rs0 ->
  (forall a b z, In (a, b, z) rs -> Range za lo hi a b z) /\ NoDup (map snd rs) /\
  (forall k, lo <= k <= hi -> Idle za k \/ exists a b z, In (a, b, z) rs /\ a <= k <= b) /\
  StronglySorted (leP range_le) rs.
Proof.
  intros Hz rs0 rs E N ->. pose proof (each_zone_spec za lo hi zs N) as S0. rewrite E in S0. destruct S0 as (S1 & S2 & S3).
  pose proof (isort_perm range_le rs0) as P. split; [|split; [|split]].
  - intros a b z H. apply S1. eapply Permutation_in; [apply Permutation_sym; exact P|exact H].
  - eapply Permutation_NoDup; [apply Permutation_map; exact P|exact S2].
  - intros k Hk. destruct (actives (za k)) as [|v vs] eqn:A.
    + left. intros v H. apply in_actives in H. rewrite A in H. destruct H.
    + right. assert (I : In (Some v) (za k)) by (apply in_actives; rewrite A; left; reflexivity).
      destruct (S3 v k (Hz k v Hk I) Hk I) as (a & b & H). exists a, b, v. split; [eapply Permutation_in; eassumption|]. apply S1 in H as (_ & _ & _ & _ & L). apply L; assumption.
  - apply isort_sorted, range_le_order.
Qed.
Lemma in_all za nk k v : 0 <= k < nk -> In (Some v) (za k) -> In v (unique (flat_map (fun k => actives (za k)) (zrange nk))).
Proof. intros Hk H. apply in_unique, in_flat_map. exists k. split; [apply in_zrange; exact Hk|apply in_actives; exact H]. Qed.

Definition last_layer (nk : Z) (hi : option Z) : Z := match hi with Some h => h | None => nk - 1 end.
(** The ranges returned are those of the zones, contiguous and in order, and every layer with an active cell
    is in one of them. *)
Theorem C87_ranges : forall za nk lo hi rs za', 0 <= lo -> last_layer nk hi < nk ->
  zone_layer_ranges za nk lo hi false = Ok (rs, za') -> za' = za /\ Ranges za lo (last_layer nk hi) rs.
Proof.
  intros za nk lo hi rs za' H0 H1. unfold zone_layer_ranges. fold (last_layer nk hi). set (h := last_layer nk hi) in *.
  destruct (existsb _ _); [|discriminate]. cbn [assert_ bind]. set (zs := unique _). destruct (each_zone za lo h zs) as [rs0|] eqn:E; [|discriminate]. cbn [bind].
  destruct (match rs0 with [] => false | _ => true end) eqn:NE; [|discriminate]. cbn [assert_ bind].
  destruct (close_gaps (isort range_le rs0)) as [[]|] eqn:CG; [|discriminate]. cbn [bind]. intros X. injection X as X1 X2.
  split; [symmetry; exact X2|]. destruct (ranges_of za lo h zs (fun k v Hk => in_all za nk k v ltac:(lia)) _ rs E (NoDup_unique _) (eq_sym X1)) as (Q1 & Q2 & Q3 & Q4).
  constructor.
  - rewrite <- X1. intros N. pose proof (isort_perm range_le rs0) as P. rewrite N in P. apply Permutation_sym, Permutation_nil in P. subst rs0. discriminate.
  - intros a b z H. destruct (Q1 a b z H) as (A & B & C & _). auto.
  - rewrite <- X1. apply close_ok. exact CG.
  - exact Q3.
  - exact Q2.
Qed.
Print Assumptions C87_ranges.

(** If the layers with active cells are together, each of one zone, and the layers of a zone are together,
    the ranges are found. *)
Theorem C87_found : forall za nk lo hi k1 k2 zone, 0 <= lo -> last_layer nk hi < nk ->
  lo <= k1 <= k2 -> k2 <= last_layer nk hi ->
  (forall k, k1 <= k <= k2 -> Zoned za k (zone k)) ->
  (forall k, lo <= k < k1 \/ k2 < k <= last_layer nk hi -> Idle za k) ->
  (forall k m l, k1 <= k <= m -> m <= l <= k2 -> zone k = zone l -> zone m = zone k) ->
  exists rs, zone_layer_ranges za nk lo hi false = Ok (rs, za).
Proof.
  intros za nk lo hi k1 k2 zone H0 H1 H2 H3 HZ HI HC. unfold zone_layer_ranges. fold (last_layer nk hi). set (h := last_layer nk hi) in *.
  destruct (HZ k1 ltac:(lia)) as [A1 _].
  assert (EX : existsb (fun k => match actives (za k) with [] => false | _ => true end) (zrange nk) = true).
  { apply existsb_exists. exists k1. split; [apply in_zrange; lia|]. apply in_actives in A1. destruct (actives (za k1)); [destruct A1|reflexivity]. }
  rewrite EX. cbn [assert_ bind]. set (zs := unique _).
  assert (ZN : forall k v, lo <= k <= h -> In (Some v) (za k) -> k1 <= k <= k2 /\ v = zone k).
  { intros k v Hk I. destruct (Z_lt_le_dec k k1) as [L|L]; [exfalso; exact (HI k ltac:(lia) v I)|]. destruct (Z_lt_le_dec k2 k) as [L'|L']; [exfalso; exact (HI k ltac:(lia) v I)|].
    split; [lia|]. apply (HZ k ltac:(lia)). exact I. }
  pose proof (each_zone_spec za lo h zs (NoDup_unique _)) as S0. destruct (each_zone za lo h zs) as [rs0|e] eqn:E.
  2: { exfalso. destruct S0 as (_ & z & a & k & b & _ & B1 & B2 & I1 & I2 & NZ). destruct (ZN a z ltac:(lia) I1) as [Ra Ea]. destruct (ZN b z ltac:(lia) I2) as [Rb Eb].
       apply NZ. rewrite Ea, <- (HC a k b ltac:(lia) ltac:(lia) ltac:(congruence)). apply HZ. lia. }
  cbn [bind]. destruct (ranges_of za lo h zs (fun k v Hk => in_all za nk k v ltac:(lia)) _ _ E (NoDup_unique _) eq_refl) as (Q1 & Q2 & Q3 & Q4).
  assert (NE : rs0 <> []). { intros ->. destruct (Q3 k1 ltac:(lia)) as [I|(a & b & z & [] & _)]. exact (I _ A1). }
  destruct rs0 as [|r0 rs1]; [congruence|]. cbn [assert_ bind]. set (rs := isort range_le (r0 :: rs1)) in *.
  rewrite (ok_close rs); [cbn [bind]; eexists; reflexivity|].
  intros p q a b z a' b' z' Es. rewrite Es in Q4, Q2.
  assert (Ix : In (a, b, z) rs) by (rewrite Es; apply in_or_app; right; left; reflexivity).
  assert (Iy : In (a', b', z') rs) by (rewrite Es; apply in_or_app; right; right; left; reflexivity).
  destruct (Q1 _ _ _ Ix) as (X1 & X2 & X3 & X4). destruct (Q1 _ _ _ Iy) as (Y1 & Y2 & Y3 & Y4).
  assert (Nz : z <> z').
  { rewrite map_app in Q2. cbn [map snd] in Q2. apply NoDup_remove_2 in Q2. intros ->. apply Q2. apply in_or_app. right. left. reflexivity. }
  assert (So : StronglySorted (leP range_le) ((a, b, z) :: (a', b', z') :: q)).
  { clear - Q4. induction p as [|x p IH]; [exact Q4|]. cbn in Q4. inversion Q4. auto. }
  assert (Le : a <= a'). { inversion So as [|? ? _ F]. inversion F as [|? ? L _]. unfold leP, range_le in L. lia. }
  assert (Gt : b < a').
  { destruct (Z_lt_le_dec b a') as [|G]; [assumption|]. exfalso. apply Nz. destruct (X3 a' ltac:(lia)) as [_ U]. destruct (Y3 a' ltac:(lia)) as [V _]. symmetry. apply U. exact V. }
  destruct (Z.eq_dec a' (b + 1)) as [|Ne]; [assumption|]. exfalso.
  (* the layer below b has a zone, whose range must be between *)
  destruct (ZN b z ltac:(lia) (proj1 (X3 b ltac:(lia)))) as [Rb _]. destruct (ZN a' z' ltac:(lia) (proj1 (Y3 a' ltac:(lia)))) as [Ra' _].
  destruct (Q3 (b + 1) ltac:(lia)) as [Id|(a2 & b2 & z2 & I2 & R2)]; [exact (Id _ (proj1 (HZ (b + 1) ltac:(lia))))|].
  destruct (Q1 _ _ _ I2) as (W1 & W2 & W3 & W4).
  assert (a2 <= a).
  { rewrite Es in I2. apply in_app_or in I2 as [I2|[I2|I2]].
    - assert (F : Forall (leP range_le (a2, b2, z2)) ((a, b, z) :: (a', b', z') :: q)).
      { clear - Q4 I2. induction p as [|x p IH]; [destruct I2|]. cbn in Q4. inversion Q4 as [|? ? Q4' F]. subst. destruct I2 as [-> |I2]; [apply Forall_app in F; tauto|auto]. }
      inversion F as [|? ? L _]. unfold leP, range_le in L. lia.
    - injection I2 as -> -> ->. lia.
    - assert (a' <= a2); [|lia]. destruct I2 as [I2|I2]; [injection I2 as -> -> ->; lia|].
      inversion So as [|? ? So' _]. inversion So' as [|? ? _ F]. rewrite Forall_forall in F. specialize (F _ I2). unfold leP, range_le in F. lia. }
  assert (z2 = z) by (symmetry; apply (W3 a ltac:(lia)); apply (X3 a ltac:(lia))). subst z2.
  specialize (X4 (b + 1) ltac:(lia) (proj1 (W3 (b + 1) R2))). lia.
Qed.
Print Assumptions C87_found.

(** Two zones in one layer: refused. *)
Theorem C87_variation : forall za nk lo hi k v w, 0 <= lo -> last_layer nk hi < nk -> lo <= k <= last_layer nk hi ->
  In (Some v) (za k) -> In (Some w) (za k) -> v <> w -> zone_layer_ranges za nk lo hi false = Err AssertionError.
Proof.
  intros za nk lo hi k v w H0 H1 Hk Iv Iw N. unfold zone_layer_ranges. fold (last_layer nk hi). set (h := last_layer nk hi) in *.
  destruct (existsb _ _); [|reflexivity]. cbn [assert_ bind]. set (zs := unique _). pose proof (each_zone_spec za lo h zs (NoDup_unique _)) as S0.
  destruct (each_zone za lo h zs) as [rs0|e]; [|destruct S0 as [-> _]; reflexivity]. exfalso. destruct S0 as (S1 & _ & S3).
  destruct (S3 v k (in_all za nk k v ltac:(lia) Iv) Hk Iv) as (a & b & I). apply S1 in I as (_ & _ & _ & Z & L). apply N. symmetry. apply (Z k (L k Hk Iv)). exact Iw.
Qed.
Print Assumptions C87_variation.

(** The most common zone of each layer is used for the whole layer, the lowest of several as common. *)
Definition Dominant (l : list (option Z)) (d : Z) : Prop :=
  In (Some d) l /\ forall v, let n v := count_occ Z.eq_dec (actives l) v in (n v <= n d)%nat /\ (n v = n d -> In (Some v) l -> d <= v).
Lemma dominant_spec l : actives l <> [] -> Dominant l (dominant_of l).
Proof.
  intros NE. unfold dominant_of. pose proof (fun v => in_unique v (actives l)) as U.
  assert (So : StronglySorted (leP Z.leb) (unique (actives l))) by (apply isort_sorted, zle_order).
  destruct (unique (actives l)) as [|u us] eqn:E.
  { destruct (actives l) as [|v vs]; [congruence|]. exfalso. apply (U v). left. reflexivity. }
  set (n v := count_occ Z.eq_dec (actives l) v) in *.
  assert (G : forall us seen d, StronglySorted (leP Z.leb) (seen ++ us) -> In d seen -> (forall v, In v seen -> (n v <= n d)%nat /\ (n v = n d -> d <= v)) ->
     let d' := fst (fold_left (fun dc v => let m := Z.of_nat (n v) in if snd dc <? m then (v, m) else dc) us (d, Z.of_nat (n d))) in
     In d' (seen ++ us) /\ forall v, In v (seen ++ us) -> (n v <= n d')%nat /\ (n v = n d' -> d' <= v)).
  { clear. induction us as [|x us IH]; intros seen d So I H; cbn [fold_left]; [rewrite app_nil_r; split; assumption|].
    cbv zeta. cbn [snd]. replace (seen ++ x :: us) with ((seen ++ [x]) ++ us) in * by (rewrite <- app_assoc; reflexivity).
    assert (LE : forall v, In v seen -> v <= x).
    { clear - So. intros v Hv. induction seen as [|y seen IH]; [destruct Hv|]. cbn in So. inversion So as [|? ? So' F]. subst. destruct Hv as [-> |Hv]; [|auto].
      rewrite Forall_forall in F. specialize (F x). unfold leP in F. apply Z.leb_le, F. apply in_or_app. left. apply in_or_app. right. left. reflexivity. }
    destruct (Z.ltb_spec (Z.of_nat (n d)) (Z.of_nat (n x))).
    - apply IH; [exact So|apply in_or_app; right; left; reflexivity|]. intros v Hv. apply in_app_or in Hv as [Hv|[<- |[]]]; [|lia]. specialize (H v Hv). lia.
    - apply IH; [exact So|apply in_or_app; left; exact I|]. intros v Hv. apply in_app_or in Hv as [Hv|[<- |[]]]; [apply H; exact Hv|]. specialize (LE d I). lia. }
  specialize (G us [u] u So (or_introl eq_refl)). cbn [app] in G. destruct G as [G1 G2].
  { intros v [<- |[]]. lia. }
  split; [apply in_actives, U; exact G1|]. intros v. cbv zeta. fold (n v). fold (n (fst (fold_left (fun dc v => let m := Z.of_nat (n v) in if snd dc <? m then (v, m) else dc) us (u, Z.of_nat (n u))))).
  split.
  - destruct (in_dec Z.eq_dec v (actives l)) as [I|NI]; [apply G2, U; exact I|]. unfold n at 1. rewrite (proj1 (count_occ_not_In Z.eq_dec _ _) NI). lia.
  - intros En I. apply G2; [apply U, in_actives; exact I|exact En].
Qed.
Theorem C87_dominant : forall za nk lo hi rs za', zone_layer_ranges za nk lo hi true = Ok (rs, za') ->
  zone_layer_ranges za' nk lo hi false = Ok (rs, za') /\
  forall k, (forall c, In c (za k) -> c <> None) -> za k <> [] ->
    exists d, Dominant (za k) d /\ za' k = map (fun _ => Some d) (za k).
Proof.
  intros za nk lo hi rs za' H. assert (E : za' = dominant_zone za).
  { unfold zone_layer_ranges in H. destruct (assert_ _); [|discriminate]. cbn [bind] in H. destruct (each_zone _ _ _ _); [|discriminate]. cbn [bind] in H.
    destruct (assert_ _); [|discriminate]. cbn [bind] in H. destruct (close_gaps _); [|discriminate]. cbn [bind] in H. injection H as _ <-. reflexivity. }
  split.
  - subst za'. unfold zone_layer_ranges in *. exact H.
  - intros k Nn Ne. subst za'. unfold dominant_zone.
    assert (A : actives (za k) <> []). { destruct (za k) as [|[v|] l] eqn:Ez; [congruence|cbn; discriminate|]. exfalso. apply (Nn None); [left; reflexivity|reflexivity]. }
    exists (dominant_of (za k)). pose proof (dominant_spec _ A) as D. split; [exact D|].
    destruct (Nat.leb_spec (List.length (unique (actives (za k)))) 1); [|reflexivity].
    rewrite <- (map_id (za k)) at 1. apply map_ext_in. intros [v|] Hv; [|exfalso; exact (Nn None Hv eq_refl)]. f_equal.
    pose proof (proj2 (in_unique v (actives (za k))) (proj2 (in_actives v _) Hv)) as I1. pose proof (proj2 (in_unique _ (actives (za k))) (proj2 (in_actives _ _) (proj1 D))) as I2.
    destruct (unique (actives (za k))) as [|x [|y l]]; [destruct I1| |cbn in *; lia]. destruct I1 as [<- |[]]. destruct I2 as [<- |[]]. reflexivity.
Qed.
Print Assumptions C87_dominant.

(** A layer with no active cell between two zones, or within one. *)
Definition za3 (l : list (list (option Z))) : zarray := fun k => nth (Z.to_nat k) l [].
Theorem C87_gap_refuted : zone_layer_ranges (za3 [[Some 1]; [None]; [Some 2]]) 3 0 None false = Err TypeError.
Proof. reflexivity. Qed.
Print Assumptions C87_gap_refuted.
Theorem C87_idle_layer_refuted : zone_layer_ranges (za3 [[Some 1]; [None]; [Some 1]]) 3 0 None false = Err AssertionError.
Proof. reflexivity. Qed.
Print Assumptions C87_idle_layer_refuted.
Example three_zones : exists za', zone_layer_ranges (za3 [[Some 7; Some 7]; [None; Some 7]; [Some 3; Some 3]; [Some 9; None]]) 4 0 None false = Ok ([(0, 1, 7); (2, 2, 3); (3, 3, 9)], za').
Proof. eexists. reflexivity. Qed.
Example mixed : exists za', zone_layer_ranges (za3 [[Some 7; Some 7; Some 3]; [Some 4; Some 3; Some 5]]) 2 0 None true = Ok ([(0, 0, 7); (1, 1, 3)], za').
Proof. eexists. reflexivity. Qed.

(** * Grids of one layer per zone *)
(** what is asked of the new grid's cell in layer z: columns and pillars those of the source, inactive if all
    (any) of its cells are *)
Definition Merges (src e : egrid) (laissez_faire : bool) (z a b : Z) : Prop := forall j i,
  match e_inactive src, e_inactive e with
  | None, None => True
  | Some m, Some m' => m' z j i = true <-> (if laissez_faire then forall k, a <= k <= b -> m k j i = true else exists k, a <= k <= b /\ m k j i = true)
  | _, _ => False
  end.
Lemma merges src e lf rs z a b : e_inactive e = zonal_inactive (e_inactive src) lf rs -> range_of rs z = (a, b) -> Merges src e lf z a b.
Proof.
  intros E R j i. rewrite E. unfold zonal_inactive. destruct (e_inactive src) as [m|]; [|constructor]. rewrite R. destruct lf.
  - rewrite forallb_forall. split; intros H k Hk; apply H; [apply in_zrange2; lia|apply in_zrange2 in Hk; lia].
  - rewrite existsb_exists. split; intros (k & Hk & E'); exists k; (split; [|exact E']); [apply in_zrange2 in Hk; lia|apply in_zrange2; lia].
Qed.
Lemma check_k_spec nk kmin kmax a b : 0 < nk -> check_k nk kmin kmax = Ok (a, b) ->
  0 <= a <= b /\ b < nk /\ a = (match kmin with Some x => x | None => 0 end) /\ b = (match kmax with Some x => x | None => nk - 1 end).
Proof.
  intros N. unfold check_k. destruct kmin as [x|]; cbn [bind].
  - destruct ((0 <=? x) && (x <? nk)) eqn:E; [|discriminate]. cbn [assert_ bind]. destruct kmax as [y|]; cbn [bind].
    + destruct ((0 <=? y) && (y <? nk) && (x <=? y)) eqn:E'; [|discriminate]. cbn [assert_ bind]. intros H. injection H as <- <-. lia.
    + intros H. injection H as <- <-. lia.
  - destruct kmax as [y|]; cbn [bind].
    + destruct ((0 <=? y) && (y <? nk) && (0 <=? y)) eqn:E'; [|discriminate]. cbn [assert_ bind]. intros H. injection H as <- <-. lia.
    + intros H. injection H as <- <-. lia.
Qed.
(** A single layer from a source without k gaps: the top corners of layer k0_min and the base corners of layer k0_max. *)
Theorem C87_single_layer_partial : forall src xs kmin kmax lf e,
  Pillars (e_geo src) xs -> Layers (e_geo src) -> g_gap_after (e_geo src) = None ->
  zonal_grid src NoZones kmin kmax lf = Ok (Some e) ->
  let a := match kmin with Some x => x | None => 0 end in
  let b := match kmax with Some x => x | None => g_nk (e_geo src) - 1 end in
  0 <= a <= b /\ b < g_nk (e_geo src) /\
  T (g_nk (e_geo e)) (nj (e_geo e)) (ni (e_geo e)) = T 1 (nj (e_geo src)) (ni (e_geo src)) /\ Pillars (e_geo e) xs /\ Layers (e_geo e) /\
  (forall j i kp jp ip p, bit kp ->
     (Corner (e_geo e) xs 0 j i kp jp ip p <-> Corner (e_geo src) xs (if kp =? 0 then a else b) j i kp jp ip p)) /\
  Merges src e lf 0 a b.
Proof.
  intros src xs kmin kmax lf e Pi La NG H. unfold zonal_grid in H. destruct (check_k _ kmin kmax) as [[a0 b0]|] eqn:CK; [|discriminate].
  apply check_k_spec in CK as (K1 & K2 & Ka & Kb); [|apply La]. cbn [bind fst snd] in H. change (0 <? Z.of_nat (List.length [(a0, b0, 0)])) with true in H. cbn [assert_ bind] in H.
  destruct (match zonal_cdef _ _ with None => true | Some _ => _ end); [|discriminate]. injection H as <-.
  cbv zeta. rewrite <- Ka, <- Kb. split; [lia|]. split; [lia|]. split; [reflexivity|]. split; [exact Pi|]. split; [split; [reflexivity|discriminate]|]. split.
  - intros j i kp jp ip p B. unfold Corner, top_row, gaps_above. cbn [e_geo g_gap_after g_pts]. rewrite NG. unfold nj, ni. cbn [gg].
    assert (E : forall n, zonal_points (e_geo src) true [(a0, b0, 0)] (0 + 0 + kp) n = g_pts (e_geo src) ((if kp =? 0 then a0 else b0) + 0 + kp) n).
    { intros n. unfold zonal_points. destruct B as [-> | ->]; [change (0 + 0 + 0 =? 0) with true; change (0 =? 0) with true|change (0 + 0 + 1 =? 0) with false; change (1 =? 0) with false; change (range_of _ _) with (a0, b0)]; cbv iota beta; [change (range_of _ _) with (a0, b0); cbn [fst]|]; f_equal; lia. }
    split; intros (n & U & ->); exists n; (split; [exact U|]); rewrite E; reflexivity.
  - eapply merges; reflexivity.
Qed.
Print Assumptions C87_single_layer_partial.
(** With k gaps in the source the rows of points are taken for layers. *)
Definition gap_source : egrid := EGrid (Geo (SGrid 1 1 false [] [] []) 2 (Some [true]) (fun r p => V 0 0 (inject_Z (10 * r))) None None) None.
Theorem C87_single_layer_gaps_refuted : exists e p q, Layers (e_geo gap_source) /\ zonal_grid gap_source NoZones None None true = Ok (Some e) /\
  Corner (e_geo e) [] 0 0 0 1 0 0 p /\ Corner (e_geo gap_source) [] 1 0 0 1 0 0 q /\ vz p = 20%Q /\ vz q = 30%Q.
Proof.
  eexists. exists (V 0 0 20), (V 0 0 30). split; [split; [reflexivity|intros l E; injection E as <-; reflexivity]|]. split; [reflexivity|].
  split; [exists 0; split; [apply (uses_nil 1 1 0 0 0 0)|reflexivity]|]. split; [exists 0; split; [apply (uses_nil 1 1 0 0 0 0)|reflexivity]|]. split; reflexivity.
Qed.
Print Assumptions C87_single_layer_gaps_refuted.
(** With several zones: one layer each, the top of the first at the top of its first layer, the tops of others at
    the bases of those above, and the inactive cells merged. *)
Theorem C87_zones_partial : forall src xs rs kmin kmax lf e, (2 <= List.length rs)%nat ->
  Pillars (e_geo src) xs -> Layers (e_geo src) -> g_gap_after (e_geo src) = None ->
  zonal_grid src (FromList rs) kmin kmax lf = Ok (Some e) ->
  T (g_nk (e_geo e)) (nj (e_geo e)) (ni (e_geo e)) = T (Z.of_nat (List.length rs)) (nj (e_geo src)) (ni (e_geo src)) /\
  Pillars (e_geo e) xs /\ Layers (e_geo e) /\
  (forall n a b z, nth_error rs n = Some (a, b, z) -> Merges src e lf (Z.of_nat n) a b) /\
  (forall a b z rs', rs = (a, b, z) :: rs' -> forall j i jp ip p, Corner (e_geo e) xs 0 j i 0 jp ip p <-> Corner (e_geo src) xs a j i 0 jp ip p) /\
  (forall n j i jp ip p, 0 <= n -> Corner (e_geo e) xs (n + 1) j i 0 jp ip p <-> Corner (e_geo e) xs n j i 1 jp ip p).
Proof.
  intros src xs rs kmin kmax lf e L2 Pi La NG H. unfold zonal_grid in H. destruct (check_k _ kmin kmax) as [[a0 b0]|] eqn:CK; [|discriminate].
  replace (match rs with [_] => true | _ => false end) with false in H by (destruct rs as [|? [|]]; cbn in L2; (lia || reflexivity)). cbn [bind fst snd] in H.
  replace (0 <? Z.of_nat (List.length rs)) with true in H by lia. cbn [assert_ bind] in H.
  destruct (match zonal_cdef _ _ with None => true | Some _ => _ end); [|discriminate]. injection H as <-.
  split; [reflexivity|]. split; [exact Pi|]. split; [split; [cbn; lia|discriminate]|]. split; [|split].
  - intros n a b z E. eapply merges; [reflexivity|]. unfold range_of. rewrite Nat2Z.id. rewrite (nth_error_nth _ _ _ E). reflexivity.
  - intros a b z rs' -> j i jp ip p. unfold Corner, top_row, gaps_above. cbn [e_geo g_gap_after g_pts]. rewrite NG. unfold nj, ni. cbn [gg].
    replace (a + 0 + 0) with a by lia. split; intros (n & U & ->); exists n; (split; [exact U|reflexivity]).
  - intros n j i jp ip p Hn. unfold Corner, top_row, gaps_above. cbn [e_geo g_gap_after g_pts]. replace (n + 1 + 0 + 0) with (n + 0 + 1) by lia. reflexivity.
Qed.
Print Assumptions C87_zones_partial.
(** But the base of each zone is at the top of its last layer, not its base. *)
Theorem C87_zone_bases_refuted : forall src xs rs kmin kmax lf e, (2 <= List.length rs)%nat ->
  Pillars (e_geo src) xs -> Layers (e_geo src) -> g_gap_after (e_geo src) = None ->
  zonal_grid src (FromList rs) kmin kmax lf = Ok (Some e) ->
  forall n a b z, nth_error rs n = Some (a, b, z) -> forall j i jp ip p,
    Corner (e_geo e) xs (Z.of_nat n) j i 1 jp ip p <-> Corner (e_geo src) xs b j i 0 jp ip p.
Proof.
  intros src xs rs kmin kmax lf e L2 Pi La NG H. unfold zonal_grid in H. destruct (check_k _ kmin kmax) as [[a0 b0]|] eqn:CK; [|discriminate].
  replace (match rs with [_] => true | _ => false end) with false in H by (destruct rs as [|? [|]]; cbn in L2; (lia || reflexivity)). cbn [bind fst snd] in H.
  replace (0 <? Z.of_nat (List.length rs)) with true in H by lia. cbn [assert_ bind] in H.
  destruct (match zonal_cdef _ _ with None => true | Some _ => _ end); [|discriminate]. injection H as <-.
  intros n a b z E j i jp ip p. unfold Corner, top_row, gaps_above. cbn [e_geo g_gap_after g_pts]. rewrite NG. unfold nj, ni. cbn [gg].
  assert (EQ : forall m, zonal_points (e_geo src) false rs (Z.of_nat n + 0 + 1) m = g_pts (e_geo src) (b + 0 + 0) m).
  { intros m. unfold zonal_points. replace (Z.of_nat n + 0 + 1 =? 0) with false by lia. replace (Z.of_nat n + 0 + 1 - 1) with (Z.of_nat n) by lia.
    unfold range_of. rewrite Nat2Z.id, (nth_error_nth _ _ _ E). cbn [fst]. f_equal. lia. }
  split; intros (m & U & ->); exists m; (split; [exact U|]); rewrite EQ; reflexivity.
Qed.
Print Assumptions C87_zone_bases_refuted.
(** A list of one range is ignored. *)
Theorem C87_one_range_refuted : forall src r kmin kmax lf, zonal_grid src (FromList [r]) kmin kmax lf = zonal_grid src NoZones kmin kmax lf.
Proof. intros src r kmin kmax lf. unfold zonal_grid. reflexivity. Qed.
Print Assumptions C87_one_range_refuted.
(** Zones from an array are the same as from the list of their ranges. *)
Theorem C87_from_array : forall src za dom kmin kmax lf e, zonal_grid src (FromArray za dom) kmin kmax lf = Ok (Some e) ->
  exists a b rs za', check_k (g_nk (e_geo src)) kmin kmax = Ok (a, b) /\ zone_layer_ranges za (g_nk (e_geo src)) a (Some b) dom = Ok (rs, za') /\
    ((2 <= List.length rs)%nat -> zonal_grid src (FromList rs) kmin kmax lf = Ok (Some e)).
Proof.
  intros src za dom kmin kmax lf e H. unfold zonal_grid in *. destruct (check_k _ kmin kmax) as [[a b]|]; [|discriminate]. cbn [bind fst snd] in H.
  destruct (zone_layer_ranges za (g_nk (e_geo src)) a (Some b) dom) as [[rs za']|] eqn:ZR; [|discriminate]. cbn [bind fst] in H.
  exists a, b, rs, za'. split; [reflexivity|]. split; [exact ZR|]. intros L2. cbn [bind].
  replace (match rs with [_] => true | _ => false end) with false by (destruct rs as [|? [|]]; cbn in L2; (lia || reflexivity)). exact H.
Qed.
Print Assumptions C87_from_array.
Definition three_layers : egrid := EGrid (Geo (SGrid 1 1 false [] [] []) 3 None (fun r p => V 0 0 (inject_Z (10 * r))) None None) (Some (fun k j i => k =? 1)).
Example three_layers_zoned : exists e, zonal_grid three_layers (FromArray (za3 [[Some 1]; [Some 1]; [Some 2]]) false) None None true = Ok (Some e) /\
  g_nk (e_geo e) = 2 /\ g_pts (e_geo e) 1 0 = V 0 0 10 /\ Pillars (e_geo three_layers) [] /\ Layers (e_geo three_layers).
Proof.
  eexists. split; [reflexivity|]. split; [reflexivity|]. split; [reflexivity|]. split; [split; [split; [reflexivity|split; [reflexivity|constructor]]|right; split; reflexivity]|split; [reflexivity|discriminate]].
Qed.
(** A grid is made from the points of the pillars only if, for every zone, every cell of its first and last layers has geometry. *)
Theorem C87_defined : forall src rs kmin kmax lf, (2 <= List.length rs)%nat -> forall d, g_cdef (e_geo src) = Some d ->
  is_ok (check_k (g_nk (e_geo src)) kmin kmax) = true ->
  ((exists e, zonal_grid src (FromList rs) kmin kmax lf = Ok (Some e)) <->
   forall a b z j i, In (a, b, z) rs -> 0 <= j < nj (e_geo src) -> 0 <= i < ni (e_geo src) -> d a j i = true /\ d b j i = true).
Proof.
  intros src rs kmin kmax lf L2 d Ed CK. unfold zonal_grid. destruct (check_k _ kmin kmax) as [[a0 b0]|]; [|discriminate].
  replace (match rs with [_] => true | _ => false end) with false by (destruct rs as [|? [|]]; cbn in L2; (lia || reflexivity)). cbn [bind fst snd].
  replace (0 <? Z.of_nat (List.length rs)) with true by lia. cbn [assert_ bind]. rewrite Ed. unfold zonal_cdef.
  match goal with |- context [if ?c then _ else _] => set (c0 := c) end.
  assert (C : c0 = true <-> forall a b z j i, In (a, b, z) rs -> 0 <= j < nj (e_geo src) -> 0 <= i < ni (e_geo src) -> d a j i = true /\ d b j i = true).
  { unfold c0. rewrite forallb_forall. split.
    - intros H a b z j i Hin Hj Hi. apply In_nth_error in Hin as (n & E). assert (Ln : (n < List.length rs)%nat) by (apply nth_error_Some; congruence).
      specialize (H (Z.of_nat n) ltac:(apply in_zrange; lia)). rewrite forallb_forall in H. specialize (H j ltac:(apply in_zrange; lia)). rewrite forallb_forall in H.
      specialize (H i ltac:(apply in_zrange; lia)). unfold range_of in H. rewrite Nat2Z.id, (nth_error_nth _ _ _ E) in H. cbn [fst] in H. apply andb_prop in H. exact H.
    - intros H z Hz. apply in_zrange in Hz. apply forallb_forall. intros j Hj. apply in_zrange in Hj. apply forallb_forall. intros i Hi. apply in_zrange in Hi.
      unfold range_of. destruct (nth (Z.to_nat z) rs (0, 0, 0)) as [[a b] z'] eqn:E. cbn [fst]. apply andb_true_intro. apply (H a b z' j i); [|lia|lia].
      rewrite <- E. apply nth_In. lia. }
  rewrite <- C. destruct c0; split; intros H; try reflexivity; try discriminate.
  - eexists. reflexivity.
  - destruct H as (e & H). discriminate.
Qed.
Print Assumptions C87_defined.
