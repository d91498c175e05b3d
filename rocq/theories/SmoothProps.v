(** SmoothProps.v: C93, the smoothing of scaled throws. *)
From Coq Require Import Lqa.
From Verif Require Import Base QBase IntersectModel IntersectProofs PillarModel PillarProofs PointsModel PointsProofs PointsProps ThrowModel ThrowProps SmoothModel.
Open Scope Z_scope.

(** Line n is used at a pillar next to (j, i) that is adjusted already, by a column that has both pillars at its corners. *)
Definition Neighbour (g : geo) (xs : extras) (adjusted : Z -> Z -> bool) (j i n : Z) : Prop :=
  exists pj pi cj ci, Z.abs (pj - j) + Z.abs (pi - i) = 1 /\ adjusted pj pi = true /\ 0 <= pj <= nj g /\ 0 <= pi <= ni g /\ 0 <= cj < nj g /\ 0 <= ci < ni g /\
    bit (pj - cj) /\ bit (pi - ci) /\ bit (j - cj) /\ bit (i - ci) /\ Uses (nj g) (ni g) xs pj pi cj ci n.
Lemma contributions_are g xs m adjusted : 
  (forall j i jp ip, 0 <= j < nj g -> 0 <= i < ni g -> bit jp -> bit ip -> Uses (nj g) (ni g) xs (j + jp) (i + ip) j i (m j i jp ip)) ->
  forall j i, 0 <= j <= nj g -> 0 <= i <= ni g -> forall n, In n (contributions g m adjusted j i) <-> Neighbour g xs adjusted j i n.
Proof.
  intros U j i Hj Hi n.
  assert (mk : forall cj ci jp ip, 0 <= cj < nj g -> 0 <= ci < ni g -> bit jp -> bit ip -> bit (j - cj) -> bit (i - ci) -> adjusted (cj + jp) (ci + ip) = true ->
     Z.abs (cj + jp - j) + Z.abs (ci + ip - i) = 1 -> Neighbour g xs adjusted j i (m cj ci jp ip)).
  { intros cj ci jp ip H1 H2 B1 B2 B3 B4 Ha Hd. exists (cj + jp), (ci + ip), cj, ci. unfold bit in *. repeat split; try assumption; try lia. apply U; unfold bit; try lia. }
  unfold contributions. rewrite !in_app_iff. split.
  - intros H.
    destruct H as [H | [H | [H | H]]];
      match type of H with In _ (if ?c then _ else _) => destruct c eqn:E; [| contradiction ] end; apply andb_prop in E; destruct E as (E1 & E2);
      apply in_app_iff in H; destruct H as [H | H]; match type of H with In _ (if ?c then _ else _) => destruct c eqn:E3; [| contradiction ] end; destruct H as [<- | []];
      apply mk; unfold bit; try lia; match goal with |- adjusted ?a ?b = true => first [ replace a with j by lia; replace b with (i - 1) by lia; exact E2
        | replace a with (j - 1) by lia; replace b with i by lia; exact E2 | replace a with j by lia; replace b with (i + 1) by lia; exact E2 | replace a with (j + 1) by lia; replace b with i by lia; exact E2 ] end.
  - intros (pj & pi & cj & ci & Hd & Ha & Rj & Ri & Rc & Rd & B1 & B2 & B3 & B4 & Un).
    assert (Em : n = m cj ci (pj - cj) (pi - ci)).
    { eapply uses_functional; [ exact Un |]. specialize (U cj ci (pj - cj) (pi - ci) Rc Rd B1 B2). replace (cj + (pj - cj)) with pj in U by lia. replace (ci + (pi - ci)) with pi in U by lia. exact U. }
    subst n. clear Un. unfold bit in *.
    assert (D : (pj = j /\ pi = i - 1) \/ (pj = j - 1 /\ pi = i) \/ (pj = j /\ pi = i + 1) \/ (pj = j + 1 /\ pi = i)) by lia.
    destruct D as [(-> & ->) | [(-> & ->) | [(-> & ->) | (-> & ->)]]].
    + left. replace (0 <? i) with true by lia. rewrite Ha. cbn [andb]. apply in_app_iff. assert (ci = i - 1) by lia. subst ci.
      destruct (Z.eq_dec cj j) as [->|]; [ right; replace (j <? nj g) with true by lia | left; assert (cj = j - 1) by lia; subst cj; replace (0 <? j) with true by lia ]; left; f_equal; lia.
    + right; left. replace (0 <? j) with true by lia. rewrite Ha. cbn [andb]. apply in_app_iff. assert (cj = j - 1) by lia. subst cj.
      destruct (Z.eq_dec ci i) as [->|]; [ right; replace (i <? ni g) with true by lia | left; assert (ci = i - 1) by lia; subst ci; replace (0 <? i) with true by lia ]; left; f_equal; lia.
    + right; right; left. replace (i <? ni g) with true by lia. rewrite Ha. cbn [andb]. apply in_app_iff. assert (ci = i) by lia. subst ci.
      destruct (Z.eq_dec cj j) as [->|]; [ right; replace (j <? nj g) with true by lia | left; assert (cj = j - 1) by lia; subst cj; replace (0 <? j) with true by lia ]; left; f_equal; lia.
    + right; right; right. replace (j <? nj g) with true by lia. rewrite Ha. cbn [andb]. apply in_app_iff. assert (cj = j) by lia. subst cj.
      destruct (Z.eq_dec ci i) as [->|]; [ right; replace (i <? ni g) with true by lia | left; assert (ci = i - 1) by lia; subst ci; replace (0 <? i) with true by lia ]; left; f_equal; lia.
Qed.
Lemma decay_range c : 0 < c -> (0 < offset_decay c /\ offset_decay c < 1 # 2)%Q.
Proof.
  intros H. unfold offset_decay. rewrite Z.pow_add_r by lia. change (2 ^ 1) with 2. assert (A : 2 <= 2 ^ c) by (change 2 with (2 ^ 1) at 1; apply Z.pow_le_mono_r; lia).
  set (t := 2 ^ c) in *. clearbody t. rewrite inject_Z_mult. change (inject_Z 2) with 2%Q. assert (B : (2 <= inject_Z t)%Q) by (change 2%Q with (inject_Z 2); rewrite <- Zle_Qle; exact A).
  set (q := inject_Z t) in *. clearbody q. split.
  - apply Qlt_shift_div_l; lra.
  - apply Qlt_shift_div_r; lra.
Qed.
Lemma qsum_bounds lo hi : forall l, (forall x, In x l -> lo <= x <= hi)%Q -> (inject_Z (Z.of_nat (List.length l)) * lo <= qsum l <= inject_Z (Z.of_nat (List.length l)) * hi)%Q.
Proof.
  induction l as [|x l IH]; intros H; [ cbn [List.length qsum fold_right]; change (inject_Z (Z.of_nat 0)) with 0%Q; lra |]. cbn [List.length qsum fold_right]. rewrite Nat2Z.inj_succ. unfold Z.succ. rewrite inject_Z_plus. change (inject_Z 1) with 1%Q.
  fold (qsum l). specialize (IH (fun y Hy => H y (or_intror Hy))). specialize (H x (or_introl eq_refl)). lra.
Qed.
Lemma NoDup_app_ {A} : forall a b : list A, NoDup a -> NoDup b -> (forall x, In x a -> ~ In x b) -> NoDup (a ++ b).
Proof.
  intros a b Na Nb H. induction Na as [| x a Nx Na IH]; [ exact Nb |]. cbn [app]. constructor.
  - intros K. apply in_app_iff in K. destruct K as [K | K]; [ contradiction | apply (H x (or_introl eq_refl) K) ].
  - apply IH. intros y Hy. apply H. right. exact Hy.
Qed.
Lemma nodup_prod : forall (a b : list Z), NoDup a -> NoDup b -> NoDup (list_prod a b).
Proof.
  intros a b Na Nb. induction Na as [| x a Nx Na IH]; [ constructor |]. cbn [list_prod]. apply NoDup_app_.
  - clear - Nb. induction Nb as [| y b Ny Nb IH]; constructor; [| exact IH ]. intros H. apply in_map_iff in H. destruct H as (z & E & Hz). injection E as ->. contradiction.
  - exact IH.
  - intros (p, q) H1 H2. apply in_map_iff in H1. destruct H1 as (z & E & _). injection E as <- _. apply in_prod_iff in H2. destruct H2. contradiction.
Qed.
Definition At (g : geo) (j i : Z) : Prop := 0 <= j <= nj g /\ 0 <= i <= ni g.
Lemma pass g xs m c adjusted : Pillars g xs ->
  (forall j i jp ip, 0 <= j < nj g -> 0 <= i < ni g -> bit jp -> bit ip -> Uses (nj g) (ni g) xs (j + jp) (i + ip) j i (m j i jp ip)) ->
  forall l st o0, (forall j i, In (j, i) l -> At g j i) -> NoDup l -> 
    (forall n, (forall j i, At g j i -> adjusted j i = false -> n <> pillar (ni g) j i) -> fst st n = o0 n) ->
    let st' := fold_left (adjust_pillar g m (offset_decay c) adjusted) l st in
    (forall n, (forall j i, In (j, i) l -> adjusted j i = false -> n <> pillar (ni g) j i) -> fst st' n = fst st n) /\
    (forall j i, In (j, i) (snd st') <-> In (j, i) (snd st) \/ (In (j, i) l /\ adjusted j i = false /\ in_spi g (pillar (ni g) j i) = false /\ contributions g m adjusted j i <> [])) /\
    (forall j i, In (j, i) l -> adjusted j i = false -> in_spi g (pillar (ni g) j i) = false -> let ls := contributions g m adjusted j i in
       let p := pillar (ni g) j i in let top := g_pts g 0 p in let bot := g_pts g (g_nk g) p in
       let z := (offset_decay c * qsum (map (fun n => vz (o0 n)) ls) / inject_Z (Z.of_nat (List.length ls)))%Q in
       ls <> [] -> fst st' p = V (z * ((vx bot - vx top) / (vz bot - vz top))) (z * ((vy bot - vy top) / (vz bot - vz top))) z) /\
    (forall j i, At g j i -> adjusted j i = false -> contributions g m adjusted j i = [] -> fst st' (pillar (ni g) j i) = fst st (pillar (ni g) j i)).
Proof.
  intros Pg U. pose proof Pg as ((Wj & Wi & _) & _).
  assert (Keep : forall j i n, At g j i -> In n (contributions g m adjusted j i) -> forall j' i', At g j' i' -> adjusted j' i' = false -> n <> pillar (ni g) j' i').
  { intros j i n (Hj & Hi) Hn j' i' (Hj' & Hi') Ha E. apply (contributions_are g xs m adjusted U j i Hj Hi) in Hn.
    destruct Hn as (pj & pi & cj & ci & _ & Hadj & Rj & Ri & _ & _ & _ & _ & _ & _ & Un). destruct Un as [(e & _ & _ & En) | (_ & En)].
    - rewrite En in E. unfold pillar in E. nia.
    - rewrite En in E. apply pillar_inj in E; [| lia | lia ]. destruct E as (-> & ->). congruence. }
  induction l as [|(j, i) l IH]; intros st o0 Hl ND H0; cbn [fold_left].
  { split; [ reflexivity |]. split; [ intros j i; split; [ intros H; left; exact H | intros [H | ([] & _)]; exact H ] |]. split; [ intros ? ? [] | reflexivity ]. }
  inversion ND as [| ? ? Nin ND']; subst.
  assert (Hji : At g j i) by (apply Hl; left; reflexivity).
  set (st1 := adjust_pillar g m (offset_decay c) adjusted st (j, i)).
  assert (S1 : (adjusted j i = true \/ in_spi g (pillar (ni g) j i) = true \/ contributions g m adjusted j i = []) /\ st1 = st \/
     adjusted j i = false /\ in_spi g (pillar (ni g) j i) = false /\ contributions g m adjusted j i <> [] /\ snd st1 = (j, i) :: snd st /\
     (forall n, n <> pillar (ni g) j i -> fst st1 n = fst st n) /\
     let ls := contributions g m adjusted j i in
       let p := pillar (ni g) j i in let top := g_pts g 0 p in let bot := g_pts g (g_nk g) p in
       let z := (offset_decay c * qsum (map (fun n => vz (fst st n)) ls) / inject_Z (Z.of_nat (List.length ls)))%Q in
       fst st1 p = V (z * ((vx bot - vx top) / (vz bot - vz top))) (z * ((vy bot - vy top) / (vz bot - vz top))) z).
  { unfold st1, adjust_pillar. destruct st as (o, nw). cbn [fst snd]. fold (pillar (ni g) j i). destruct (adjusted j i); [ left; auto |].
    destruct (in_spi g (pillar (ni g) j i)); [ left; auto |]. destruct (contributions g m adjusted j i) as [|a ls] eqn:E; [ left; auto |].
    right. repeat split; try discriminate.
    - intros n Hn. cbn [fst]. replace (n =? pillar (ni g) j i) with false by lia. reflexivity.
    - cbn [fst]. rewrite Z.eqb_refl. reflexivity. }
  clearbody st1. destruct (IH st1 o0) as (I1 & I2 & I3 & I4); [ intros; apply Hl; right; assumption | exact ND' | |].
  { intros n Hn. destruct S1 as [(_ & ->) | (Ha & _ & _ & _ & S1 & _)]; [ apply H0; exact Hn |]. rewrite S1 by (apply Hn; assumption). apply H0. exact Hn. }
  split; [| split; [| split ] ].
  - intros n Hn. rewrite I1 by (intros j' i' H; apply Hn; right; exact H). destruct S1 as [(_ & ->) | (Ha & _ & _ & _ & S1 & _)]; [ reflexivity |]. apply S1. apply Hn; [ left; reflexivity | exact Ha ].
  - intros j' i'. rewrite I2. destruct S1 as [(Hc & ->) | (Ha & Hs & Hc & -> & _)].
    + split; [ intros [H | H]; [ left; exact H | right; split; [ right; apply H | apply H ] ] | intros [H | ([H | H] & H2 & H3 & H4)]; [ left; exact H | | right; auto ] ].
      injection H as <- <-. destruct Hc as [Hc | [Hc | Hc]]; congruence.
    + cbn [In]. split; [ intros [[H | H] | H]; [ right; injection H as <- <-; split; [ left; reflexivity | auto ] | left; exact H | right; split; [ right; apply H | apply H ] ] |].
      intros [H | ([H | H] & H2)]; [ left; right; exact H | left; left; exact H | right; split; [ exact H | exact H2 ] ].
  - intros j' i' [H | H] Ha Hs Hc; [| apply I3; assumption ]. injection H as <- <-.
    destruct S1 as [([K | [K | K]] & _) | (_ & _ & _ & _ & _ & S1)]; [ congruence | congruence | contradiction |].
    rewrite I1.
    2:{ intros j' i' H _ E. pose proof (Hl j' i' (or_intror H)) as (Q1 & Q2). destruct Hji as (Q3 & Q4). apply pillar_inj in E; [| lia | lia ]. destruct E as (<- & <-). contradiction. }
    cbv zeta in S1. rewrite S1.
    assert (EQ : map (fun n => vz (fst st n)) (contributions g m adjusted j i) = map (fun n => vz (o0 n)) (contributions g m adjusted j i)).
    { apply map_ext_in. intros n Hn. f_equal. apply H0. intros j' i' Hat Ha'. exact (Keep j i n Hji Hn j' i' Hat Ha'). }
    rewrite EQ. reflexivity.
  - intros j' i' Hat Ha Hc. rewrite I4 by assumption. destruct S1 as [(_ & ->) | (_ & _ & Hn & _ & S1 & _)]; [ reflexivity |]. apply S1. intros E.
    destruct Hat as (Q1 & Q2). destruct Hji as (Q3 & Q4). apply pillar_inj in E; [| lia | lia ]. destruct E as (-> & ->). contradiction.
Qed.
(** A pass of the smoothing gives an offset to just those pillars that are not adjusted yet and next to one that is: along the
    pillar, and vertically a fraction of less than a half of an amount that lies between the least and the greatest of the
    offsets of its neighbours before the pass.  Nothing else changes. *)
Theorem C93_smoothing : forall g xs m c adjusted offsets, Pillars g xs -> g_has_split (gg g) = true -> create_column_pillar_mapping (gg g) = Ok m -> 0 < c ->
  (forall pj pi, At g pj pi -> IsSplitPillar (ni g) xs pj pi -> adjusted pj pi = true) ->
  exists offsets' newly decay, neighbourly_adjustment g m c adjusted offsets = (offsets', newly) /\ (0 < decay < 1 # 2)%Q /\
    (forall j i, In (j, i) newly <-> At g j i /\ adjusted j i = false /\ exists n, Neighbour g xs adjusted j i n) /\
    (forall n, (forall j i, In (j, i) newly -> n <> pillar (ni g) j i) -> offsets' n = offsets n) /\
    (forall j i, In (j, i) newly -> let p := pillar (ni g) j i in
       (forall lo hi, (forall n, Neighbour g xs adjusted j i n -> lo <= vz (offsets n) <= hi) -> decay * lo <= vz (offsets' p) <= decay * hi)%Q /\
       (~ vz (g_pts g (g_nk g) p) == vz (g_pts g 0 p) ->
          vx (offsets' p) * (vz (g_pts g (g_nk g) p) - vz (g_pts g 0 p)) == vz (offsets' p) * (vx (g_pts g (g_nk g) p) - vx (g_pts g 0 p)) /\
          vy (offsets' p) * (vz (g_pts g (g_nk g) p) - vz (g_pts g 0 p)) == vz (offsets' p) * (vy (g_pts g (g_nk g) p) - vy (g_pts g 0 p)))%Q).
Proof.
  intros g xs m c adjusted offsets Pg HS Em Hc Hsp. destruct (map_ok g xs Pg) as (m' & Em' & U & _). rewrite Em in Em'. injection Em' as <-.
  pose proof Pg as ((Wj & Wi & _) & Gx).
  set (L := list_prod (zrange (nj g + 1)) (zrange (ni g + 1))).
  assert (HL : forall j i, In (j, i) L <-> At g j i) by (intros j i; unfold L, At; rewrite in_prod_iff, !in_zrange; lia).
  assert (ND : NoDup L).
  { unfold L. apply nodup_prod; apply NoDup_zrange. }
  destruct (pass g xs m c adjusted Pg U L (offsets, []) offsets) as (I1 & I2 & I3 & I4); [ intros; apply HL; assumption | exact ND | reflexivity |].
  unfold neighbourly_adjustment. fold L. destruct (fold_left (adjust_pillar g m (offset_decay c) adjusted) L (offsets, [])) as (o', nw). cbn [fst snd] in *.
  assert (Sp : forall j i, At g j i -> adjusted j i = false -> in_spi g (pillar (ni g) j i) = false).
  { intros j i H Ha. destruct (in_spi g (pillar (ni g) j i)) eqn:E; [| reflexivity ]. exfalso.
    assert (K : IsSplitPillar (ni g) xs j i); [| apply (Hsp j i H) in K; congruence ].
    destruct Gx as [Gx | (_ & Gx)]; [ apply (in_spi_iff g xs j i Gx); exact E | congruence ]. }
  assert (Nw : forall j i, In (j, i) nw <-> At g j i /\ adjusted j i = false /\ exists n, Neighbour g xs adjusted j i n).
  { intros j i. rewrite I2. split.
    - intros [[] | (H & Ha & _ & Hn)]. apply HL in H. split; [ exact H |]. split; [ exact Ha |]. destruct (contributions g m adjusted j i) as [|n l] eqn:E; [ congruence |].
      exists n. destruct H as (Hj & Hi). apply (contributions_are g xs m adjusted U j i Hj Hi). rewrite E. left; reflexivity.
    - intros (H & Ha & n & Hn). right. split; [ apply HL; exact H |]. split; [ exact Ha |]. split; [ apply Sp; assumption |]. destruct H as (Hj & Hi).
      apply (contributions_are g xs m adjusted U j i Hj Hi) in Hn. intros K. rewrite K in Hn. exact Hn. }
  exists o', nw, (offset_decay c). split; [ reflexivity |]. split; [ apply decay_range; exact Hc |]. split; [ exact Nw |]. split.
  - intros n Hn. destruct (existsb (fun ji => negb (adjusted (fst ji) (snd ji)) && (n =? pillar (ni g) (fst ji) (snd ji))) L) eqn:Ex.
    + apply existsb_exists in Ex. destruct Ex as ((j, i) & Hin & Hb). cbn [fst snd] in Hb. apply andb_prop in Hb. destruct Hb as (Ha & En). apply negb_true_iff in Ha. apply Z.eqb_eq in En.
      apply HL in Hin. assert (K : contributions g m adjusted j i = []).
      { destruct (contributions g m adjusted j i) as [|q l] eqn:E; [ reflexivity |]. exfalso. apply (Hn j i); [| exact En ]. apply Nw. split; [ exact Hin |]. split; [ exact Ha |].
        exists q. destruct Hin as (Hj & Hi). apply (contributions_are g xs m adjusted U j i Hj Hi). rewrite E. left; reflexivity. }
      subst n. clear - I4 K Hin Ha. apply I4; assumption.
    + apply I1. intros j i Hin Ha En. assert (K : existsb (fun ji => negb (adjusted (fst ji) (snd ji)) && (n =? pillar (ni g) (fst ji) (snd ji))) L = true); [| congruence ].
      apply existsb_exists. exists (j, i). split; [ exact Hin |]. cbn [fst snd]. rewrite Ha. cbn [negb andb]. apply Z.eqb_eq. exact En.
  - intros j i H. set (p := pillar (ni g) j i). apply Nw in H. destruct H as (Hat & Ha & q & Hq). pose proof Hat as (Hj & Hi). pose proof (contributions_are g xs m adjusted U j i Hj Hi) as Ct.
    assert (Ne : contributions g m adjusted j i <> []) by (intros K; apply Ct in Hq; rewrite K in Hq; exact Hq).
    pose proof (I3 j i (proj2 (HL j i) Hat) Ha (Sp j i Hat Ha) Ne) as E. cbv zeta in E. fold p in E. rewrite E. cbn [vx vy vz]. clear E.
    destruct (decay_range c Hc) as (D1 & D2). set (dc := offset_decay c) in *. clearbody dc. set (ls := contributions g m adjusted j i) in *.
    assert (Ln : (0 < inject_Z (Z.of_nat (List.length ls)))%Q).
    { change 0%Q with (inject_Z 0). rewrite <- Zlt_Qlt. destruct ls; [ congruence | cbn [List.length]; lia ]. }
    split.
    + intros lo hi Hb. pose proof (qsum_bounds lo hi (map (fun n => vz (offsets n)) ls)) as B. rewrite map_length in B.
      assert (B' := B ltac:(intros x Hx; apply in_map_iff in Hx; destruct Hx as (n & <- & Hn); apply Hb; apply Ct; exact Hn)). clear B.
      set (k := inject_Z (Z.of_nat (List.length ls))) in *. set (sm := qsum _) in *. clearbody k sm. split; [ apply Qle_shift_div_l | apply Qle_shift_div_r ]; try exact Ln; nra.
    + intros Hz. set (z := (dc * _ / _)%Q). clearbody z. split; field; lra.
Qed.
Print Assumptions C93_smoothing.

(** The grid of one row of two columns, with a throw of 4 scaled by 3: the pillars at the ends follow by a third of the mean. *)
Example step_smoothed : match create_column_pillar_mapping (gg step) with
  | Err _ => False
  | Ok m => let r := neighbourly_adjustment step m 1 (fun _ i => i =? 1) (fun n => V 0 0 (if 6 <=? n then 4 else -4)) in
            snd r = [(1, 2); (1, 0); (0, 2); (0, 0)] /\ (Qred (vz (fst r 0%Z)) = - (4 # 3) /\ Qred (vz (fst r 2%Z)) = 4 # 3)%Q
  end.
Proof. vm_compute. repeat split; reflexivity. Qed.
