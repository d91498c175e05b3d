(** FromCpProofs.v: lemmas for grids made from corner points. *)
From Coq Require Import Qabs Lqa.
From Verif Require Import Base QBase BoxProofs IntersectModel IntersectProofs PillarModel PillarProofs PointsModel PointsProofs PointsProps FromCpModel.
Open Scope Z_scope.

(** * Specification *)
(** no coordinate of the points differs by more than t *)
Definition Within (t : Q) (a b : vec) : Prop :=
  (Qabs (vx a - vx b) <= t /\ Qabs (vy a - vy b) <= t /\ Qabs (vz a - vz b) <= t)%Q.

Lemma qmax_pos l : (0 <= qmax l)%Q.
Proof. induction l as [|x l IH]; cbn [qmax fold_right]; [lra|]. fold (qmax l). destruct (Qmaxb_spec x (qmax l)) as [[? ->]|[? ->]]; lra. Qed.
Lemma qmax_le l t : (0 <= t)%Q -> ((qmax l <= t)%Q <-> forall x, In x l -> (x <= t)%Q).
Proof.
  intros T. induction l as [|x l IH]; cbn [qmax fold_right]; [split; [intros _ x []|intros; exact T]|]. fold (qmax l).
  destruct (Qmaxb_spec x (qmax l)) as [[? ->]|[? ->]]; split.
  - intros H' y [<- |Hy]; [lra|]. apply IH; assumption.
  - intros H'. apply IH. intros y Hy. apply H'. right. exact Hy.
  - intros H' y [<- |Hy]; [lra|]. apply IH; [lra|assumption].
  - intros H'. apply H'. left. reflexivity.
Qed.
Lemma qmax_ge l x : In x l -> (x <= qmax l)%Q.
Proof. intros H. apply (qmax_le l (qmax l) (qmax_pos l)); [lra|exact H]. Qed.
Lemma in_comps v x : In x (comps v) <-> x = Qabs (vx v) \/ x = Qabs (vy v) \/ x = Qabs (vz v).
Proof. unfold comps. cbn. intuition. Qed.
Lemma comps_within a b t : (forall x, In x (comps (vsub a b)) -> (x <= t)%Q) <-> Within t a b.
Proof.
  unfold Within. split.
  - intros H. repeat split; apply H; apply in_comps; cbn; auto.
  - intros (A & B & C) x H. apply in_comps in H as [-> |[-> | ->]]; assumption.
Qed.
Lemma within_le t t' a b : (t <= t')%Q -> Within t a b -> Within t' a b.
Proof. intros H (A & B & C). repeat split; lra. Qed.
Lemma abs_le a t : (Qabs a <= t)%Q <-> (- t <= a <= t)%Q.
Proof. apply Qabs_Qle_condition. Qed.
Lemma within_trans t t' a b c : Within t a b -> Within t' b c -> Within (t + t') a c.
Proof.
  intros (A & B & C) (A' & B' & C'). apply abs_le in A, B, C, A', B', C'. repeat split; apply abs_le; lra.
Qed.
Lemma within_same t a b a' b' : Same a a' -> Same b b' -> Within t a b -> Within t a' b'.
Proof.
  intros (A & B & C) (A' & B' & C') (P & Q & R). apply abs_le in P, Q, R. repeat split; apply abs_le; lra.
Qed.
Lemma same_within t a b : (0 <= t)%Q -> Same a b -> Within t a b.
Proof. intros T (A & B & C). repeat split; apply abs_le; lra. Qed.
Lemma within_zero a b : Within 0 a b -> Same a b.
Proof. intros (A & B & C). apply abs_le in A, B, C. repeat split; lra. Qed.

(** * Voids *)
Lemma in_corners4 nj ni j i jp ip : 0 <= j < nj -> 0 <= i < ni -> bit jp -> bit ip -> In (j, i, (jp, ip)) (corners4 nj ni).
Proof.
  intros Hj Hi Bj Bi. unfold corners4. apply in_flat_map. exists j. split; [apply in_zrange; lia|]. apply in_flat_map. exists i. split; [apply in_zrange; lia|].
  apply in_map. destruct Bj as [-> | ->], Bi as [-> | ->]; cbn; auto.
Qed.
Lemma layer_gap_within cp nj ni k t j i jp ip : (0 <= t)%Q -> (layer_gap cp nj ni k <= t)%Q -> 0 <= j < nj -> 0 <= i < ni -> bit jp -> bit ip ->
  Within t (cp (k + 1) j i 0 jp ip) (cp k j i 1 jp ip).
Proof.
  intros T H Hj Hi Bj Bi. apply comps_within. intros x Hx. apply (proj1 (qmax_le _ t T) H). apply in_flat_map. exists (j, i, (jp, ip)).
  split; [apply in_corners4; assumption|exact Hx].
Qed.
Section Voids.
Context (cp : cps) (nk nj ni : Z) (mv : Q).
Hypothesis Nk : 0 < nk.
Hypothesis Mv : (0 <= mv)%Q.
Let ga := fst (check_for_kgaps cp nk nj ni mv).
Let closed := snd (check_for_kgaps cp nk nj ni mv).
Let cp' := close_gaps cp nk closed.
Definition gap_after (k : Z) : bool := match ga with None => false | Some l => nth (Z.to_nat k) l false end.
Lemma ga_len l : ga = Some l -> Z.of_nat (List.length l) = nk - 1.
Proof.
  unfold ga, check_for_kgaps. destruct (Z.gtb_spec nk 1); [|discriminate]. destruct (mv <b _)%Q; cbn [fst]; [|destruct (0 <b _)%Q; discriminate].
  intros [= <-]. rewrite map_length, length_zrange. lia.
Qed.
Lemma voids k : 0 <= k < nk - 1 ->
  (gap_after k = true <-> (mv < layer_gap cp nj ni k)%Q) /\
  (closed k = true -> (layer_gap cp nj ni k <= mv)%Q) /\
  (gap_after k = false -> closed k = false -> (layer_gap cp nj ni k <= 0)%Q).
Proof.
  intros Hk. unfold gap_after, closed, ga, check_for_kgaps. destruct (Z.gtb_spec nk 1); [|lia].
  assert (M : (layer_gap cp nj ni k <= qmax (map (layer_gap cp nj ni) (zrange (nk - 1))))%Q) by (apply qmax_ge, in_map, in_zrange; lia).
  destruct (Qltb mv (qmax (map (layer_gap cp nj ni) (zrange (nk - 1))))) eqn:E.
  - cbn [fst snd]. rewrite nth_map_zrange by lia. destruct (Qltb mv (layer_gap cp nj ni k)) eqn:E1.
    + rewrite Qltb_iff in E1. split; [tauto|]. split; discriminate.
    + rewrite Qltb_false in E1. split; [split; [discriminate|lra]|]. split; [intros _; exact E1|]. intros _ E2. rewrite Qltb_false in E2. exact E2.
  - rewrite Qltb_false in E. destruct (Qltb 0 (qmax (map (layer_gap cp nj ni) (zrange (nk - 1))))) eqn:E1; cbn [fst snd].
    + split; [split; [discriminate|lra]|]. split; [lra|discriminate].
    + rewrite Qltb_false in E1. split; [split; [discriminate|lra]|]. split; [discriminate|lra].
Qed.
(** closing moves a corner by at most half of the limit *)
Lemma closed_within k j i kp jp ip : 0 <= k < nk -> 0 <= j < nj -> 0 <= i < ni -> bit kp -> bit jp -> bit ip ->
  Within (mv * (1 # 2)) (cp' k j i kp jp ip) (cp k j i kp jp ip).
Proof.
  intros Hk Hj Hi Bk Bj Bi. unfold cp', close_gaps.
  assert (Z0 : forall v, Within (mv * (1 # 2)) v v) by (intros v; apply same_within; [lra|apply same_refl]).
  destruct Bk as [-> | ->]; cbn [Z.eqb].
  - destruct ((0 <? k) && closed (k - 1)) eqn:E; [|apply Z0]. apply andb_true_iff in E as [E1 E2]. destruct (voids (k - 1) ltac:(lia)) as (_ & C & _). specialize (C E2).
    destruct (layer_gap_within cp nj ni (k - 1) mv j i jp ip Mv C Hj Hi Bj Bi) as (A & B & D). replace (k - 1 + 1) with k in * by lia.
    apply abs_le in A, B, D. unfold void. replace (k - 1 + 1) with k by lia. repeat split; apply abs_le; cbn -[Qmult Qplus Qminus]; lra.
  - destruct ((k <? nk - 1) && closed k) eqn:E; [|apply Z0]. apply andb_true_iff in E as [E1 E2]. destruct (voids k ltac:(lia)) as (_ & C & _). specialize (C E2).
    destruct (layer_gap_within cp nj ni k mv j i jp ip Mv C Hj Hi Bj Bi) as (A & B & D).
    apply abs_le in A, B, D. unfold void. repeat split; apply abs_le; cbn -[Qmult Qplus Qminus]; lra.
Qed.
Lemma closed_joined k j i jp ip : 0 <= k < nk - 1 -> gap_after k = false -> 0 <= j < nj -> 0 <= i < ni -> bit jp -> bit ip ->
  Same (cp' (k + 1) j i 0 jp ip) (cp' k j i 1 jp ip).
Proof.
  intros Hk G Hj Hi Bj Bi. destruct (voids k Hk) as (_ & C & Z). unfold cp', close_gaps. cbn [Z.eqb]. replace (k + 1 - 1) with k by lia.
  replace (0 <? k + 1) with true by lia. replace (k <? nk - 1) with true by lia. cbn [andb]. destruct (closed k) eqn:E.
  - unfold Same, void; cbn -[Qmult Qplus Qminus]. repeat split; lra.
  - apply within_zero, (layer_gap_within cp nj ni k 0); try assumption; [lra|]. apply Z; [exact G|reflexivity].
Qed.
End Voids.

(** * Rows of points *)
Lemma zrange_split k n : 0 <= k < n -> zrange n = zrange k ++ k :: zrange2 (k + 1) n.
Proof.
  intros H. assert (E : zrange n = zrange2 0 n) by (unfold zrange, zrange2; rewrite Z.sub_0_r; apply map_ext; intros; lia).
  assert (E' : zrange k = zrange2 0 k) by (unfold zrange, zrange2; rewrite Z.sub_0_r; apply map_ext; intros; lia).
  rewrite E, E'. rewrite <- (zrange2_cons k n) by lia. unfold zrange2. replace (Z.to_nat (n - 0)) with (Z.to_nat (k - 0) + Z.to_nat (n - k))%nat by lia.
  rewrite seq_app, map_app. f_equal.
  assert (X : forall m s1, map (fun i => 0 + Z.of_nat i) (seq (0 + Z.to_nat (k - 0) + s1) m) = map (fun i => k + Z.of_nat i) (seq s1 m)).
  { induction m as [|m IHm]; intros s1; [reflexivity|]. cbn [seq map]. f_equal; [lia|]. rewrite <- IHm. do 2 f_equal. lia. }
  specialize (X (Z.to_nat (n - k)) 0%nat). rewrite Nat.add_0_r in X. exact X.
Qed.
Section Rows.
Context (G : Z -> bool) (ca : Z -> Z) (nk : Z).
Hypothesis Nk : 0 < nk.
Hypothesis C0 : ca 0 = 0.
Hypothesis CS : forall k, 0 <= k < nk - 1 -> ca (k + 1) = ca k + (if G k then 1 else 0).
Definition blk (k : Z) : list (Z * Z) := if G k then [(k, 1); (k + 1, 0)] else [(k + 1, 0)].
Definition grows : list (Z * Z) := (0, 0) :: flat_map blk (zrange (nk - 1)) ++ [(nk - 1, 1)].
Lemma blk_len n : Z.of_nat n <= nk - 1 -> Z.of_nat (List.length (flat_map blk (zrange (Z.of_nat n)))) = Z.of_nat n + ca (Z.of_nat n).
Proof.
  induction n as [|n IH]; intros H; [cbn; rewrite C0; reflexivity|]. rewrite zrange_of_nat_S, flat_map_app, app_length. cbn [flat_map]. rewrite app_nil_r.
  replace (Z.of_nat (S n)) with (Z.of_nat n + 1) by lia. rewrite CS by lia. unfold blk at 2. specialize (IH ltac:(lia)). destruct (G (Z.of_nat n)); cbn [List.length]; lia.
Qed.
Lemma grows_len : Z.of_nat (List.length grows) = nk + 1 + ca (nk - 1).
Proof.
  unfold grows. cbn [List.length]. rewrite app_length. cbn [List.length]. pose proof (blk_len (Z.to_nat (nk - 1)) ltac:(lia)) as L. rewrite Z2Nat.id in L by lia. lia.
Qed.
Lemma ca_pos n : Z.of_nat n <= nk - 1 -> 0 <= ca (Z.of_nat n).
Proof. induction n as [|n IH]; intros H; [cbn; lia|]. replace (Z.of_nat (S n)) with (Z.of_nat n + 1) by lia. rewrite CS by lia. specialize (IH ltac:(lia)). destruct (G _); lia. Qed.
Lemma row_base k : 0 <= k < nk -> nth_error grows (Z.to_nat (k + ca k + 1)) = Some (if (k <? nk - 1) && negb (G k) then (k + 1, 0) else (k, 1)).
Proof.
  intros Hk. pose proof (ca_pos (Z.to_nat k) ltac:(lia)) as Cp. rewrite Z2Nat.id in Cp by lia. unfold grows. replace (Z.to_nat (k + ca k + 1)) with (S (Z.to_nat (k + ca k))) by lia. cbn [nth_error].
  pose proof (blk_len (Z.to_nat k) ltac:(lia)) as L. rewrite Z2Nat.id in L by lia. destruct (Z.ltb_spec k (nk - 1)) as [Lt|Ge]; cbn [andb].
  - rewrite (zrange_split k (nk - 1)) by lia. rewrite flat_map_app, <- app_assoc. rewrite nth_error_app2 by lia. replace (Z.to_nat (k + ca k) - _)%nat with O by lia.
    cbn [flat_map]. unfold blk at 1. destruct (G k); reflexivity.
  - assert (k = nk - 1) by lia. subst k. rewrite nth_error_app2 by lia. replace (Z.to_nat _ - _)%nat with O by lia. reflexivity.
Qed.
Lemma row_top k : 0 <= k < nk -> nth_error grows (Z.to_nat (k + ca k)) = Some (k, 0).
Proof.
  intros Hk. destruct (Z.eq_dec k 0) as [-> |Ne]; [rewrite C0; reflexivity|]. pose proof (CS (k - 1) ltac:(lia)) as Cs. replace (k - 1 + 1) with k in Cs by lia.
  pose proof (ca_pos (Z.to_nat (k - 1)) ltac:(lia)) as Cp. rewrite Z2Nat.id in Cp by lia.
  pose proof (blk_len (Z.to_nat (k - 1)) ltac:(lia)) as L. rewrite Z2Nat.id in L by lia. unfold grows.
  replace (Z.to_nat (k + ca k)) with (S (Z.to_nat (k - 1 + ca k))) by (destruct (G (k - 1)); lia). cbn [nth_error].
  rewrite (zrange_split (k - 1) (nk - 1)) by lia. rewrite flat_map_app, <- app_assoc. rewrite nth_error_app2 by (destruct (G (k - 1)); lia). cbn [flat_map].
  assert (Eb : blk (k - 1) = if G (k - 1) then [(k - 1, 1); (k - 1 + 1, 0)] else [(k - 1 + 1, 0)]) by reflexivity. rewrite Eb.
  destruct (G (k - 1)).
  - replace (Z.to_nat _ - _)%nat with 1%nat by lia. cbn. do 2 f_equal. lia.
  - replace (Z.to_nat _ - _)%nat with 0%nat by lia. cbn. do 2 f_equal. lia.
Qed.
End Rows.

(** * Pillars *)
Section PillarLemmas.
Context (red : Z -> Z -> Z -> Z -> Z -> vec) (nrows nj ni : Z) (active : Z -> Z -> bool) (tol : Q).
Hypothesis Tol : (0 <= tol)%Q.
Hypothesis Nj : 0 < nj.
Hypothesis Ni : 0 < ni.
(** the column at corner q of pillar (j, i) *)
Definition Col (j i : Z) (q : Z * Z) : Prop := bit (fst q) /\ bit (snd q) /\ 0 <= j - fst q < nj /\ 0 <= i - snd q < ni.
Definition at_ (r j i : Z) (q : Z * Z) : vec := red r (j - fst q) (i - snd q) (fst q) (snd q).
Definition Near (j i : Z) (q q' : Z * Z) : Prop := forall r, 0 <= r < nrows -> Within tol (at_ r j i q) (at_ r j i q').
Lemma near_spec j i q q' : Qle_bool (discrepancy red nrows j i q q') tol = true <-> Near j i q q'.
Proof.
  rewrite Qle_bool_iff. unfold discrepancy. rewrite (qmax_le _ tol Tol). unfold Near. split.
  - intros H r Hr. apply comps_within. intros x Hx. apply H. apply in_flat_map. exists r. split; [apply in_zrange; lia|exact Hx].
  - intros H x Hx. apply in_flat_map in Hx as (r & Hr & Hx). apply in_zrange in Hr. apply (proj2 (comps_within _ _ tol) (H r Hr)). exact Hx.
Qed.
Lemma near_refl j i q : Near j i q q.
Proof. intros r _. apply same_within; [exact Tol|apply same_refl]. Qed.
Lemma primary_col j i : 0 <= j <= nj -> 0 <= i <= ni -> Col j i (primary active nj ni j i).
Proof.
  intros Hj Hi. unfold primary. destruct (Z.eqb_spec j nj), (Z.eqb_spec i ni);
    repeat match goal with |- context [if ?b then _ else _] => destruct b eqn:? end; unfold Col, bit; cbn [fst snd] in *; lia.
Qed.
Lemma first_near_spec j i q l : forall e0, 0 <= e0 ->
  (first_near red nrows tol j i q l e0 = -1 /\ forall q', In q' l -> ~ Near j i q q') \/
  (exists n q', first_near red nrows tol j i q l e0 = e0 + Z.of_nat n /\ nth_error l n = Some q' /\ Near j i q q' /\
     forall m x, (m < n)%nat -> nth_error l m = Some x -> ~ Near j i q x).
Proof.
  induction l as [|q1 l IH]; intros e0 H0; [left; split; [reflexivity|intros ? []]|]. cbn [first_near].
  destruct (Qle_bool (discrepancy red nrows j i q q1) tol) eqn:E.
  - right. exists O, q1. split; [lia|]. split; [reflexivity|]. split; [apply near_spec, E|]. intros; lia.
  - assert (N : ~ Near j i q q1) by (intros X; apply near_spec in X; congruence). destruct (IH (e0 + 1) ltac:(lia)) as [(A & B)|(n & q' & A & B & C & D)].
    + left. split; [exact A|]. intros q' [<- |H]; [exact N|apply B, H].
    + right. exists (S n), q'. split; [lia|]. split; [exact B|]. split; [exact C|]. intros [|m] x Hm Hx; [cbn in Hx; injection Hx as <-; exact N|]. apply (D m); [lia|exact Hx].
Qed.
Definition Matches (j i : Z) (exs : list (Z * Z)) (q : Z * Z) (u : Z) : Prop :=
  (u = -1 /\ Near j i q (primary active nj ni j i)) \/
  (exists n q', u = Z.of_nat n /\ nth_error exs n = Some q' /\ Near j i q q' /\ ~ Near j i q (primary active nj ni j i) /\
     forall m x, (m < n)%nat -> nth_error exs m = Some x -> ~ Near j i q x).
Definition Inv (j i : Z) (done : list (Z * Z)) (exs : list (Z * Z)) (use : Z * Z -> Z) : Prop :=
  (forall q, ~ (In q done /\ Col j i q) -> use q = -1) /\
  (forall q, In q done -> Col j i q -> Matches j i exs q (use q)) /\
  (forall n q, nth_error exs n = Some q -> In q done /\ Col j i q /\ use q = Z.of_nat n).
Lemma matches_app j i exs x q u : Matches j i exs q u -> Matches j i (exs ++ [x]) q u.
Proof.
  intros [H|(n & q' & E & N & A & B & C)]; [left; exact H|]. right. exists n, q'. assert (L : (n < List.length exs)%nat) by (apply nth_error_Some; congruence).
  split; [exact E|]. split; [rewrite nth_error_app1 by exact L; exact N|]. split; [exact A|]. split; [exact B|]. intros m y Hm. rewrite nth_error_app1 by lia. apply C, Hm.
Qed.
Lemma upd_use_eq u q e : upd_use u q e q = e.
Proof. unfold upd_use. rewrite !Z.eqb_refl. reflexivity. Qed.
Lemma upd_use_neq u q e q' : q' <> q -> upd_use u q e q' = u q'.
Proof. intros H. unfold upd_use. destruct q as [a b], q' as [a' b']. cbn [fst snd]. destruct (Z.eqb_spec a' a), (Z.eqb_spec b' b); cbn; try reflexivity. subst. congruence. Qed.
Lemma step_inv j i done exs use q : bit (fst q) -> bit (snd q) -> ~ In q done -> Inv j i done exs use ->
  Inv j i (q :: done) (fst (append_single red nrows nj ni active tol j i (exs, use) q)) (snd (append_single red nrows nj ni active tol j i (exs, use) q)).
Proof.
  intros B1 B2 Nq (I1 & I2 & I3). unfold append_single.
  assert (Skip : ~ Col j i q -> Inv j i (q :: done) exs use).
  { intros NC. split; [|split].
    - intros q' H. apply I1. intros [A B]. apply H. split; [right; exact A|exact B].
    - intros q' [<- |H] C; [contradiction|]. apply I2; assumption.
    - intros n q' H. destruct (I3 n q' H) as (A & B & C). split; [right; exact A|]. split; assumption. }
  destruct ((j - fst q <? 0) || (nj <=? j - fst q)) eqn:O1; [apply Skip; unfold Col; lia|].
  destruct ((i - snd q <? 0) || (ni <=? i - snd q)) eqn:O2; [apply Skip; unfold Col; lia|].
  assert (Cq : Col j i q) by (unfold Col; split; [exact B1|]; split; [exact B2|]; lia).
  assert (Keep : Near j i q (primary active nj ni j i) -> Inv j i (q :: done) exs use).
  { intros N. assert (U : use q = -1) by (apply I1; intros [A _]; contradiction). split; [|split].
    - intros q' H. apply I1. intros [A B]. apply H. split; [right; exact A|exact B].
    - intros q' [<- |H] C; [left; split; assumption|]. apply I2; assumption.
    - intros n q' H. destruct (I3 n q' H) as (A & B & C). split; [right; exact A|]. split; assumption. }
  destruct ((fst q =? fst (primary active nj ni j i)) && (snd q =? snd (primary active nj ni j i))) eqn:Pr.
  { apply Keep. replace (primary active nj ni j i) with q; [apply near_refl|]. destruct q, (primary active nj ni j i). cbn [fst snd] in *. f_equal; lia. }
  destruct (Qle_bool (discrepancy red nrows j i q (primary active nj ni j i)) tol) eqn:D; [apply Keep, near_spec, D|].
  assert (ND : ~ Near j i q (primary active nj ni j i)) by (intros X; apply near_spec in X; congruence).
  assert (Ne : forall q', In q' done -> q' <> q) by (intros q' H ->; contradiction).
  cbv zeta. destruct (first_near_spec j i q exs 0 ltac:(lia)) as [(E & F)|(n & q1 & E & N1 & N2 & F)]; rewrite E.
  - cbn [Z.leb Z.compare fst snd]. split; [|split].
    + intros q' H. rewrite upd_use_neq; [apply I1|].
      * intros [A B]. apply H. split; [right; exact A|exact B].
      * intros ->. apply H. split; [left; reflexivity|exact Cq].
    + intros q' [<- |H] C.
      * rewrite upd_use_eq. right. exists (List.length exs), q. split; [reflexivity|]. split; [rewrite nth_error_app2, Nat.sub_diag by lia; reflexivity|]. split; [apply near_refl|]. split; [exact ND|].
        intros m x Hm. rewrite nth_error_app1 by exact Hm. intros Hx. apply F. eapply nth_error_In; exact Hx.
      * rewrite upd_use_neq by (apply Ne, H). apply matches_app, I2; assumption.
    + intros m q' H. destruct (Nat.lt_ge_cases m (List.length exs)) as [L|L].
      * rewrite nth_error_app1 in H by exact L. destruct (I3 m q' H) as (A & B & C). split; [right; exact A|]. split; [exact B|]. rewrite upd_use_neq by (apply Ne, A). exact C.
      * rewrite nth_error_app2 in H by exact L. destruct (m - List.length exs)%nat as [|z] eqn:Em; [|destruct z; discriminate]. cbn in H. injection H as <-.
        split; [left; reflexivity|]. split; [exact Cq|]. rewrite upd_use_eq. f_equal. lia.
  - rewrite Z.add_0_l. replace (0 <=? Z.of_nat n) with true by lia. cbn [fst snd]. split; [|split].
    + intros q' H. rewrite upd_use_neq; [apply I1|].
      * intros [A B]. apply H. split; [right; exact A|exact B].
      * intros ->. apply H. split; [left; reflexivity|exact Cq].
    + intros q' [<- |H] C.
      * rewrite upd_use_eq. right. exists n, q1. auto 6.
      * rewrite upd_use_neq by (apply Ne, H). apply I2; assumption.
    + intros m q' H. destruct (I3 m q' H) as (A & B & C). split; [right; exact A|]. split; [exact B|]. rewrite upd_use_neq by (apply Ne, A). exact C.
Qed.
Lemma extras_spec j i :
  let '(exs, use) := pillar_extras red nrows nj ni active tol true j i in
  (forall q, ~ Col j i q -> use q = -1) /\
  (forall q, Col j i q -> Matches j i exs q (use q)) /\
  (forall n q, nth_error exs n = Some q -> Col j i q /\ use q = Z.of_nat n).
Proof.
  unfold pillar_extras. cbn [fold_left].
  assert (I0 : Inv j i [] [] (fun _ => -1)) by (split; [reflexivity|]; split; [intros q []|intros [|n] q; discriminate]).
  pose proof (step_inv j i [] [] (fun _ => -1) (0, 0) ltac:(unfold bit; cbn; lia) ltac:(unfold bit; cbn; lia) ltac:(intros []) I0) as I1.
  destruct (append_single red nrows nj ni active tol j i ([], fun _ => -1) (0, 0)) as [e1 u1]. cbn [fst snd] in I1.
  pose proof (step_inv j i [(0, 0)] e1 u1 (0, 1) ltac:(unfold bit; cbn; lia) ltac:(unfold bit; cbn; lia) ltac:(cbn; intuition discriminate) I1) as I2.
  destruct (append_single red nrows nj ni active tol j i (e1, u1) (0, 1)) as [e2 u2]. cbn [fst snd] in I2.
  pose proof (step_inv j i [(0, 1); (0, 0)] e2 u2 (1, 0) ltac:(unfold bit; cbn; lia) ltac:(unfold bit; cbn; lia) ltac:(cbn; intuition discriminate) I2) as I3.
  destruct (append_single red nrows nj ni active tol j i (e2, u2) (1, 0)) as [e3 u3]. cbn [fst snd] in I3.
  pose proof (step_inv j i [(1, 0); (0, 1); (0, 0)] e3 u3 (1, 1) ltac:(unfold bit; cbn; lia) ltac:(unfold bit; cbn; lia) ltac:(cbn; intuition discriminate) I3) as I4.
  destruct (append_single red nrows nj ni active tol j i (e3, u3) (1, 1)) as [e4 u4]. cbn [fst snd] in I4.
  destruct I4 as (A & B & C). split; [intros q H; apply A; tauto|]. split.
  - intros q H. apply B; [|exact H]. destruct q as [x y]. destruct H as ([Hx|Hx] & [Hy|Hy] & _); cbn in Hx, Hy; subst; cbn; auto.
  - intros n q H. destruct (C n q H) as (_ & H1 & H2). split; assumption.
Qed.
(** columns with the same points at a pillar use the same one *)
Lemma same_use j i q q' : Col j i q -> Col j i q' -> (forall r, 0 <= r < nrows -> Same (at_ r j i q) (at_ r j i q')) ->
  snd (pillar_extras red nrows nj ni active tol true j i) q = snd (pillar_extras red nrows nj ni active tol true j i) q'.
Proof.
  intros C C' H. pose proof (extras_spec j i) as X. destruct (pillar_extras red nrows nj ni active tol true j i) as [exs use]. cbn [snd]. destruct X as (_ & M & _).
  assert (Eq : forall x, Near j i q x <-> Near j i q' x).
  { intros x. split; intros N r Hr; (eapply within_same; [|apply same_refl|exact (N r Hr)]); [|apply same_sym]; apply H, Hr. }
  destruct (M q C) as [(-> & N)|(n & x & -> & A1 & A2 & A3 & A4)], (M q' C') as [(-> & N')|(n' & x' & -> & B1 & B2 & B3 & B4)].
  - reflexivity.
  - exfalso. apply B3, Eq, N.
  - exfalso. apply A3, Eq, N'.
  - f_equal. destruct (Nat.lt_trichotomy n n') as [L|[L|L]]; [|exact L|]; exfalso.
    + apply (B4 n x L A1), Eq, A2.
    + apply (A4 n' x' L B1), Eq, B2.
Qed.
End PillarLemmas.
