(** RefineProofs.v: lemmas for refined and coarsened grids. *)
From Coq Require Import Lqa.
From Verif Require Import Base QBase BoxModel BoxProofs FineCoarseModel FineCoarseProofs ProportionProofs IntersectModel IntersectProofs PillarModel PillarProofs PointsModel PointsProofs ExtractProps RefineModel.
Open Scope Z_scope.

(** * Specification *)
(** the first fine cell of coarse cell c of an axis *)
Definition start (a : axdata) (c : Z) : Z := zsum (firstn (Z.to_nat c) (ratios_of a)).
(** the m'th line across coarse cell c is at fraction q: the proportions before it *)
Definition Fraction (a : axdata) (c m : Z) (q : Q) : Prop := exists p, proportion a c = Ok p /\ (q == qsum (firstn (Z.to_nat m) p))%Q.

(** * One axis *)
Definition count_of (a : axdata) (c : Z) : Z := nth (Z.to_nat c) (ratios_of a) 0.
Lemma start_next a c : ValidAxis a -> 0 <= c < coarse a -> start a (c + 1) = start a c + count_of a c.
Proof.
  intros V H. unfold start, count_of. replace (Z.to_nat (c + 1)) with (S (Z.to_nat c)) by lia. apply zsum_firstn_S. pose proof (va_len a V). lia.
Qed.
Lemma count_pos a c : ValidAxis a -> 0 <= c < coarse a -> 0 < count_of a c.
Proof. intros V H. apply (va_pos a V). apply nth_In. pose proof (va_len a V). lia. Qed.
Lemma start_0 a : start a 0 = 0. Proof. reflexivity. Qed.
Lemma start_end a : ValidAxis a -> start a (coarse a) = fine a.
Proof. intros V. unfold start. rewrite firstn_all2 by (pose proof (va_len a V); lia). apply (va_sum a V). Qed.
Lemma start_mono a c c' : ValidAxis a -> 0 <= c <= c' -> start a c <= start a c'.
Proof. intros V H. unfold start. apply zsum_firstn_mono; [apply (va_pos a V)|lia]. Qed.
Lemma owns_start a c f : Owns a c f <-> start a c <= f < start a (c + 1).
Proof. reflexivity. Qed.
Definition block (a : axdata) (gap : Z -> bool) (c : Z) : list (Z * Q) :=
  map (fun f => (c, f)) (match interpolation a c with Ok l => l | Err _ => [] end) ++ (if gap c then [(c, 1%Q)] else []).
Definition bump (gap : Z -> bool) (c : Z) : Z := if gap c then 1 else 0.
Lemma interp_len a c : PropsOK a -> 0 <= c < coarse a -> exists p l, proportion a c = Ok p /\ interpolation a c = Ok l /\
  Z.of_nat (List.length p) = count_of a c /\ Z.of_nat (List.length l) = count_of a c /\ (qsum p == 1)%Q /\
  forall k, (k < List.length l)%nat -> (nth k l 0 == qsum (firstn k p))%Q.
Proof.
  intros P H. destruct (interpolation_ok a c P H) as (p & l & Ep & El & L & _ & N & _). destruct (proportion_ok a c P H) as (p' & Ep' & S1 & S2 & S3).
  rewrite Ep in Ep'. injection Ep' as <-. exists p, l. split; [exact Ep|]. split; [exact El|]. split; [exact S1|]. split; [unfold count_of; lia|]. split; [exact S3|].
  intros k Hk. apply N. exact Hk.
Qed.
Lemma block_len a gap c : PropsOK a -> 0 <= c < coarse a -> Z.of_nat (List.length (block a gap c)) = count_of a c + bump gap c.
Proof.
  intros P H. destruct (interp_len a c P H) as (p & l & _ & El & _ & Ll & _). unfold block, bump. rewrite El, app_length, map_length. destruct (gap c); cbn; lia.
Qed.
Section Axis.
Context (a : axdata) (gap : Z -> bool) (ga : Z -> Z).
Hypothesis P : PropsOK a.
Hypothesis G : forall c, 0 <= c < coarse a -> ga (c + 1) = ga c + bump gap c.
Lemma VA : ValidAxis a. Proof using P. apply P. Qed.
Lemma axis_loop_spec : forall n c0, Z.to_nat (coarse a - c0) = n -> 0 <= c0 <= coarse a ->
  exists ls ids raws, axis_loop a gap (zrange2 c0 (coarse a)) (start a c0) (ga c0) = Ok (ls, ids, raws, (fine a, ga (coarse a))) /\
  Z.of_nat (List.length ls) = start a (coarse a) + ga (coarse a) - (start a c0 + ga c0) /\
  (forall c m, c0 <= c < coarse a -> 0 <= m < count_of a c + bump gap c ->
     nth_error ls (Z.to_nat (start a c + ga c + m - (start a c0 + ga c0))) = nth_error (block a gap c) (Z.to_nat m)) /\
  (forall i, In i ids <-> exists c, c0 <= c < coarse a /\ gap c = true /\ i = start a (c + 1) - 1) /\
  Z.of_nat (List.length raws) = start a (coarse a) - start a c0 /\
  (forall c l, c0 <= c < coarse a -> 0 <= l < count_of a c -> nth (Z.to_nat (start a c + l - start a c0)) raws 0 = start a c + l + ga c) /\
  (forall c, c0 <= c -> c <= coarse a -> start a c0 + ga c0 <= start a c + ga c).
Proof using All.
  pose proof VA as V. induction n as [|n IH]; intros c0 En H0.
  - assert (c0 = coarse a) by lia. subst c0. rewrite zrange2_nil by lia. exists [], [], []. cbn [axis_loop List.length]. rewrite start_end by exact V.
    split; [reflexivity|]. split; [lia|]. split; [intros; lia|]. split; [intros i; split; [intros []|intros (c & ? & _); lia]|]. split; [lia|]. split; [intros; lia|].
    intros c Hc Hc'. replace c with (coarse a) by lia. rewrite start_end by exact V. lia.
  - assert (Hc : 0 <= c0 < coarse a) by lia. rewrite zrange2_cons by lia. cbn [axis_loop]. rewrite ratio_nth by assumption. cbn [bind]. fold (count_of a c0).
    destruct (interp_len a c0 P Hc) as (p & l & _ & El & _ & Ll & _ & _). rewrite El. cbn [bind]. rewrite <- start_next by assumption.
    replace (if gap c0 then ga c0 + 1 else ga c0) with (ga (c0 + 1)) by (rewrite G by exact Hc; unfold bump; destruct (gap c0); lia).
    destruct (IH (c0 + 1) ltac:(lia) ltac:(lia)) as (ls & ids & raws & E & L & N & I & R & W & M). rewrite E. cbn [bind].
    pose proof (start_next a c0 V Hc) as Sn. pose proof (count_pos a c0 V Hc) as Cp. pose proof (G c0 Hc) as Gc. pose proof (block_len a gap c0 P Hc) as Bl.
    assert (B0 : 0 <= bump gap c0) by (unfold bump; destruct (gap c0); lia).
    do 3 eexists. split; [reflexivity|].
    assert (Eb : forall t, map (fun f => (c0, f)) l ++ (if gap c0 then [(c0, 1%Q)] else []) ++ t = block a gap c0 ++ t) by (intros t; unfold block; rewrite El, app_assoc; reflexivity).
    rewrite Eb. split; [rewrite app_length; lia|]. split; [|split; [|split; [|split]]].
    + intros c m Hc' Hm. destruct (Z.eq_dec c c0) as [-> |Ne].
      * replace (start a c0 + ga c0 + m - (start a c0 + ga c0)) with m by lia. rewrite nth_error_app1 by lia. reflexivity.
      * specialize (M c ltac:(lia) ltac:(lia)) as M'. rewrite nth_error_app2 by lia. rewrite <- (N c m) by lia. f_equal. lia.
    + intros i. rewrite in_app_iff, I. split.
      * intros [H|(c & Hc' & Gt & ->)]; [|exists c; split; [lia|]; split; [exact Gt|reflexivity]]. destruct (gap c0) eqn:Gt; [|destruct H]. destruct H as [<- |[]].
        exists c0. split; [lia|]. split; [exact Gt|]. lia.
      * intros (c & Hc' & Gt & ->). destruct (Z.eq_dec c c0) as [-> |Ne]; [left; rewrite Gt; left; lia|]. right. exists c. split; [lia|]. split; [exact Gt|reflexivity].
    + rewrite app_length, map_length, length_zrange. lia.
    + intros c m Hc' Hm. destruct (Z.eq_dec c c0) as [-> |Ne].
      * rewrite app_nth1 by (rewrite map_length, length_zrange; lia). replace (start a c0 + m - start a c0) with m by lia.
        rewrite nth_map_zrange by lia. reflexivity.
      * pose proof (start_mono a (c0 + 1) c V ltac:(lia)). rewrite app_nth2 by (rewrite map_length, length_zrange; lia). rewrite map_length, length_zrange.
        rewrite <- (W c m) by lia. f_equal. lia.
    + intros c H1 H2. destruct (Z.eq_dec c c0) as [-> |Ne]; [lia|]. specialize (M c ltac:(lia) ltac:(lia)). lia.
Qed.
(** an entry stands for the point at the fraction of its line *)
Hypothesis Last : gap (coarse a - 1) = false.
Definition Entry (c m : Z) (e : Z * Q) : Prop := forall (top base : Z -> vec), 
  (forall c, 0 <= c < coarse a - 1 -> gap c = false -> base c = top (c + 1)) ->
  forall q, Fraction a c m q -> Same (between (coarse a) top base e) (vadd (vscale q (base c)) (vscale (1 - q)%Q (top c))).
Lemma same_mix x y q q' : (q == q')%Q -> Same (vadd (vscale q x) (vscale (1 - q)%Q y)) (vadd (vscale q' x) (vscale (1 - q')%Q y)).
Proof using. intros H. unfold Same; cbn; rewrite H; repeat split; ring. Qed.
Lemma same_one x y q : (q == 1)%Q -> Same x (vadd (vscale q x) (vscale (1 - q)%Q y)).
Proof using. intros H. unfold Same; cbn; rewrite H; repeat split; ring. Qed.
Lemma same_zero x y q : (q == 0)%Q -> Same y (vadd (vscale q x) (vscale (1 - q)%Q y)).
Proof using. intros H. unfold Same; cbn; rewrite H; repeat split; ring. Qed.
Lemma entries : ga 0 = 0 -> exists ls ids raws, axis_loop a gap (zrange (coarse a)) 0 0 = Ok (ls, ids, raws, (fine a, ga (coarse a))) /\
  (forall c m, 0 <= c < coarse a -> 0 <= m <= count_of a c ->
     exists e, nth_error (ls ++ [(coarse a, 0%Q)]) (Z.to_nat (start a c + ga c + m)) = Some e /\ Entry c m e) /\
  (forall i, In i ids <-> exists c, 0 <= c < coarse a /\ gap c = true /\ i = start a (c + 1) - 1) /\
  Z.of_nat (List.length raws) = fine a /\
  (forall c f, 0 <= c < coarse a -> Owns a c f -> nth (Z.to_nat f) raws 0 = f + ga c).
Proof using All.
  intros G0. pose proof VA as V. pose proof (va_coarse a V) as Cp. destruct (axis_loop_spec _ 0 eq_refl ltac:(lia)) as (ls & ids & raws & E & L & N & I & R & W & M).
  rewrite start_0, G0 in *. exists ls, ids, raws. replace (zrange (coarse a)) with (zrange2 0 (coarse a)) by (unfold zrange, zrange2; rewrite Z.sub_0_r; apply map_ext; intros; lia).
  split; [exact E|]. rewrite start_end in * by exact V. split; [|split; [exact I|split; [lia|]]].
  2: { intros c f Hc [O1 O2]. fold (start a c) in O1. fold (start a (c + 1)) in O2. rewrite start_next in O2 by assumption. specialize (W c (f - start a c) Hc ltac:(lia)).
       replace (start a c + (f - start a c) - 0) with f in W by lia. rewrite W. lia. }
  assert (LB : forall c, 0 <= c <= coarse a -> 0 <= start a c + ga c) by (intros c Hc; specialize (M c ltac:(lia) ltac:(lia)); lia).
  assert (UB : forall c m, 0 <= c < coarse a -> 0 <= m < count_of a c + bump gap c -> start a c + ga c + m < fine a + ga (coarse a)).
  { intros c m Hc Hm. destruct (axis_loop_spec _ (c + 1) eq_refl ltac:(lia)) as (_ & _ & _ & _ & _ & _ & _ & _ & _ & M'). specialize (M' (coarse a) ltac:(lia) ltac:(lia)).
    rewrite start_end in M' by exact V. rewrite start_next, G in M' by assumption. lia. }
  assert (IN : forall c m, 0 <= c < coarse a -> 0 <= m < count_of a c + bump gap c ->
     nth_error (ls ++ [(coarse a, 0%Q)]) (Z.to_nat (start a c + ga c + m)) = nth_error (block a gap c) (Z.to_nat m)).
  { intros c m Hc Hm. specialize (UB c m Hc Hm). specialize (LB c ltac:(lia)). rewrite nth_error_app1 by lia. rewrite <- (N c m Hc Hm). f_equal. lia. }
  intros c m Hc Hm. destruct (interp_len a c P Hc) as (p & l & Ep & El & Lp & Ll & Sp & Fl).
  destruct (Z_lt_le_dec m (count_of a c)) as [Lt|Ge].
  - rewrite IN by (unfold bump; destruct (gap c); lia). exists (c, nth (Z.to_nat m) l 0%Q). split.
    + unfold block. rewrite El, nth_error_app1 by (rewrite map_length; lia). rewrite (map_nth_error (fun f => (c, f)) (Z.to_nat m) l (d := nth (Z.to_nat m) l 0%Q)); [reflexivity|]. apply nth_error_nth'. lia.
    + intros top base _ q (p' & Ep' & Eq). rewrite Ep in Ep'. injection Ep' as <-. unfold between. cbn [fst snd]. replace (c =? coarse a) with false by lia.
      apply same_mix. rewrite Eq. apply Fl. lia.
  - assert (m = count_of a c) by lia. subst m.
    assert (Q1 : forall q, Fraction a c (count_of a c) q -> (q == 1)%Q).
    { intros q (p' & Ep' & Eq). rewrite Ep in Ep'. injection Ep' as <-. rewrite Eq, firstn_all2 by lia. exact Sp. }
    destruct (gap c) eqn:Gc.
    + rewrite IN by (unfold bump; rewrite ?Gc; lia). exists (c, 1%Q). split.
      * unfold block. rewrite El, ?Gc, nth_error_app2 by (rewrite map_length; lia). rewrite map_length. replace (Z.to_nat (count_of a c) - List.length l)%nat with O by lia. reflexivity.
      * intros top base _ q Fq. unfold between. cbn [fst snd]. replace (c =? coarse a) with false by lia. apply same_mix. rewrite (Q1 q Fq). reflexivity.
    + pose proof (G c Hc) as Gn. unfold bump in Gn. rewrite Gc in Gn. pose proof (start_next a c V Hc) as Sn.
      replace (start a c + ga c + count_of a c) with (start a (c + 1) + ga (c + 1) + 0) by lia.
      destruct (Z.eq_dec (c + 1) (coarse a)) as [En|En].
      * rewrite En, start_end by exact V. exists (coarse a, 0%Q). split.
        -- replace (Z.to_nat (fine a + ga (coarse a) + 0)) with (List.length ls) by lia. rewrite nth_error_app2 by lia. rewrite Nat.sub_diag. reflexivity.
        -- intros top base _ q Fq. unfold between. cbn [fst snd]. rewrite Z.eqb_refl. replace (coarse a - 1) with c by lia. apply same_one, Q1, Fq.
      * assert (Hc1 : 0 <= c + 1 < coarse a) by lia. pose proof (count_pos a (c + 1) V Hc1).
        destruct (interp_len a (c + 1) P Hc1) as (p1 & l1 & Ep1 & El1 & Lp1 & Ll1 & Sp1 & Fl1).
        rewrite IN by (unfold bump; destruct (gap (c + 1)); lia). exists (c + 1, nth 0 l1 0%Q). split.
        -- unfold block. rewrite El1, nth_error_app1 by (rewrite map_length; lia). rewrite (map_nth_error (fun f => (c + 1, f)) (Z.to_nat 0) l1 (d := nth 0 l1 0%Q)); [reflexivity|]. apply nth_error_nth'. lia.
        -- intros top base HB q Fq. unfold between. cbn [fst snd]. replace (c + 1 =? coarse a) with false by lia.
           apply (same_trans _ (top (c + 1))).
           ++ apply same_sym, same_zero. rewrite Fl1 by lia. reflexivity.
           ++ rewrite <- (HB c ltac:(lia) Gc). apply same_one, Q1, Fq.
Qed.
(** the flags of the refined layers *)
Lemma flags_count : ga 0 = 0 -> forall ids, (forall i, In i ids <-> exists c, 0 <= c < coarse a /\ gap c = true /\ i = start a (c + 1) - 1) ->
  let flags := map (fun i => existsb (Z.eqb i) ids) (zrange (fine a - 1)) in
  forall n f c, Z.to_nat f = n -> 0 <= f < fine a -> 0 <= c < coarse a -> Owns a c f -> cnt (firstn (Z.to_nat f) flags) = ga c.
Proof using All.
  intros G0 ids I flags. pose proof VA as V. pose proof (va_coarse a V) as Cp.
  assert (O0 : Owns a 0 0) by (rewrite owns_start; pose proof (start_next a 0 V ltac:(lia)); pose proof (count_pos a 0 V ltac:(lia)); cbn [Z.add] in *; rewrite start_0 in *; lia).
  assert (St : forall f, 0 <= f < fine a - 1 -> cnt (firstn (Z.to_nat (f + 1)) flags) = cnt (firstn (Z.to_nat f) flags) + (if existsb (Z.eqb f) ids then 1 else 0)).
  { intros f Hf. replace (Z.to_nat (f + 1)) with (Z.to_nat f + 1)%nat by lia. rewrite firstn_plus, cnt_app. f_equal.
    assert (Hn : nth_error flags (Z.to_nat f) = Some (existsb (Z.eqb f) ids)).
    { unfold flags. apply (map_nth_error (fun i => existsb (Z.eqb i) ids) (Z.to_nat f)). rewrite (nth_error_nth' _ 0) by (rewrite length_zrange; lia). f_equal.
      rewrite <- (map_id (zrange (fine a - 1))). rewrite (nth_map_zrange (fun x => x)) by lia. reflexivity. }
    destruct (skipn (Z.to_nat f) flags) as [|b bs] eqn:Es.
    - exfalso. apply (f_equal (@List.length bool)) in Es. rewrite skipn_length in Es. cbn in Es. assert (nth_error flags (Z.to_nat f) <> None) as X by congruence. apply nth_error_Some in X. lia.
    - assert (b = existsb (Z.eqb f) ids). { rewrite <- (firstn_skipn (Z.to_nat f) flags) in Hn. rewrite nth_error_app2 in Hn by (rewrite firstn_length; lia). rewrite Es in Hn.
        rewrite firstn_length in Hn. replace (Z.to_nat f - Nat.min (Z.to_nat f) (List.length flags))%nat with O in Hn; [cbn in Hn; congruence|].
        assert (X : nth_error flags (Z.to_nat f) <> None). { intros X. apply nth_error_None in X. apply (f_equal (@List.length bool)) in Es. rewrite skipn_length in Es. cbn in Es. lia. } apply nth_error_Some in X. lia. }
      subst b. cbn [firstn]. unfold cnt. destruct (existsb (Z.eqb f) ids); reflexivity. }
  induction n as [|n IH]; intros f c En Hf Hc O.
  - assert (f = 0) by lia. subst f. rewrite (owns_unique a c 0 0 V ltac:(lia) ltac:(lia) O O0). cbn. rewrite G0. reflexivity.
  - replace f with (f - 1 + 1) by lia. rewrite St by lia. rewrite owns_start in O.
    destruct (Z_le_gt_dec (start a c) (f - 1)) as [In1|Out].
    + rewrite (IH (f - 1) c) by (try lia; rewrite owns_start; lia).
      replace (existsb (Z.eqb (f - 1)) ids) with false; [lia|]. symmetry. apply not_true_iff_false. intros X. apply existsb_exists in X as (i & Ii & Ei). apply Z.eqb_eq in Ei. subst i.
      apply I in Ii as (c' & Hc' & _ & E'). assert (c' = c).
      { apply (owns_unique a c' c (f - 1) V); try lia; rewrite owns_start; [|lia]. pose proof (start_next a c' V Hc'). pose proof (count_pos a c' V Hc'). lia. }
      subst c'. lia.
    + assert (Cc : 0 < c). { destruct (Z.eq_dec c 0) as [-> |]; [|lia]. rewrite start_0 in Out. lia. }
      pose proof (start_next a (c - 1) V ltac:(lia)) as Sn. replace (c - 1 + 1) with c in Sn by lia. pose proof (count_pos a (c - 1) V ltac:(lia)) as Cn.
      rewrite (IH (f - 1) (c - 1)) by (try lia; rewrite owns_start; replace (c - 1 + 1) with c by lia; lia).
      pose proof (G (c - 1) ltac:(lia)) as Gn. replace (c - 1 + 1) with c in Gn by lia. rewrite Gn. f_equal. unfold bump.
      destruct (gap (c - 1)) eqn:Gt.
      * replace (existsb (Z.eqb (f - 1)) ids) with true; [reflexivity|]. symmetry. apply existsb_exists. exists (f - 1). split; [|apply Z.eqb_refl]. apply I. exists (c - 1). split; [lia|]. split; [exact Gt|].
        replace (c - 1 + 1) with c by lia. lia.
      * replace (existsb (Z.eqb (f - 1)) ids) with false; [reflexivity|]. symmetry. apply not_true_iff_false. intros X. apply existsb_exists in X as (i & Ii & Ei). apply Z.eqb_eq in Ei. subst i.
        apply I in Ii as (c' & Hc' & Gt' & E'). assert (c' = c - 1); [|congruence].
        apply (owns_unique a c' (c - 1) (f - 1) V); try lia; rewrite owns_start; [|replace (c - 1 + 1) with c by lia; lia].
        pose proof (start_next a c' V Hc'). pose proof (count_pos a c' V Hc'). lia.
Qed.
End Axis.
