(** NormProps.v: C77, properties mapped to the range 0 to 1; C78, the order of faces and
    edges. *)
From Verif Require Import Base QBase TriModel NormModel.
Open Scope Q_scope.

(** ** Specification *)
(** [v] is the value of an element that is not masked out *)
Definition visible (a : marray) (v : Q) : Prop := In (Some v, false) a.
Definition minimum_of (a : marray) (lo : Q) : Prop := visible a lo /\ forall v, visible a v -> lo <= v.
Definition maximum_of (a : marray) (hi : Q) : Prop := visible a hi /\ forall v, visible a v -> v <= hi.
(** elements of the result are those of the array, mapped by [g]; not-a-number stays *)
Definition mapped (g : Q -> Q) (a n : marray) : Prop :=
  List.length n = List.length a /\
  forall k v m, nth_error a k = Some (v, m) ->
    exists x, nth_error n k = Some (x, m) /\ match v with None => x = None | Some v => exists y, x = Some y /\ y == g v end.
Definition rising (g : Q -> Q) : Prop := forall v w, v <= w -> g v <= g w.

(** ** Lemmas *)
Lemma seen_in a v : In v (seen a) <-> visible a v.
Proof.
  unfold seen, visible. rewrite in_flat_map. split.
  - intros ([[w|] []] & H & E); cbn in E; try tauto. destruct E as [<-|[]]. assumption.
  - intros H. exists (Some v, false). split; [assumption|now left].
Qed.
Lemma fold_min l x : (In (fold_left Qminb l x) (x :: l)) /\ forall y, In y (x :: l) -> fold_left Qminb l x <= y.
Proof.
  revert x. induction l as [|y l IH]; intros x; cbn [fold_left].
  - split; [now left|]. intros y [<-|[]]. lra.
  - destruct (IH (Qminb x y)) as [I1 I2]. destruct (Qminb_spec x y) as [[H E]|[H E]]; rewrite E in *.
    + split; [destruct I1; [now left|right; now right]|]. intros z [<-|[<-|Hz]]; [apply I2; now left| |apply I2; now right].
      eapply Qle_trans; [apply I2; now left|assumption].
    + split; [destruct I1; [right; now left|right; now right]|]. intros z [<-|[<-|Hz]]; [|apply I2; now left|apply I2; now right].
      eapply Qle_trans; [apply I2; now left|lra].
Qed.
Lemma fold_max l x : (In (fold_left Qmaxb l x) (x :: l)) /\ forall y, In y (x :: l) -> y <= fold_left Qmaxb l x.
Proof.
  revert x. induction l as [|y l IH]; intros x; cbn [fold_left].
  - split; [now left|]. intros y [<-|[]]. lra.
  - destruct (IH (Qmaxb x y)) as [I1 I2]. destruct (Qmaxb_spec x y) as [[H E]|[H E]]; rewrite E in *.
    + split; [destruct I1; [right; now left|right; now right]|]. intros z [<-|[<-|Hz]]; [|apply I2; now left|apply I2; now right].
      eapply Qle_trans; [eassumption|apply I2; now left].
    + split; [destruct I1; [now left|right; now right]|]. intros z [<-|[<-|Hz]]; [apply I2; now left| |apply I2; now right].
      apply Qle_trans with x; [lra|apply I2; now left].
Qed.
Lemma lowest_spec a : (exists v, visible a v) -> exists lo, lowest (seen a) = Some lo /\ minimum_of a lo.
Proof.
  intros [v Hv]. apply seen_in in Hv. destruct (seen a) as [|x l] eqn:E; [destruct Hv|]. cbn [lowest]. eexists. split; [reflexivity|].
  destruct (fold_min l x) as [M1 M2]. rewrite <- E in *. split; [now apply seen_in|]. intros w Hw. apply M2. now apply seen_in.
Qed.
Lemma highest_spec a : (exists v, visible a v) -> exists hi, highest (seen a) = Some hi /\ maximum_of a hi.
Proof.
  intros [v Hv]. apply seen_in in Hv. destruct (seen a) as [|x l] eqn:E; [destruct Hv|]. cbn [highest]. eexists. split; [reflexivity|].
  destruct (fold_max l x) as [M1 M2]. rewrite <- E in *. split; [now apply seen_in|]. intros w Hw. apply M2. now apply seen_in.
Qed.
Lemma mapped_on g a : mapped g a (on_values g a).
Proof.
  unfold mapped, on_values. split; [apply map_length|]. intros k v m E. rewrite nth_error_map, E. cbn. eexists. split; [reflexivity|].
  destruct v; cbn; [|reflexivity]. eexists. split; [reflexivity|reflexivity].
Qed.
Lemma mapped_id a : mapped (fun v => v) a a.
Proof. split; [reflexivity|]. intros k v m E. exists v. split; [assumption|]. destruct v; [|reflexivity]. eexists. split; [reflexivity|reflexivity]. Qed.
Lemma mapped_trans f g a b c : (forall x y, x == y -> g x == g y) -> mapped f a b -> mapped g b c -> mapped (fun v => g (f v)) a c.
Proof.
  intros Hg [L1 H1] [L2 H2]. split; [congruence|]. intros k v m E. destruct (H1 k v m E) as (x & Ex & Hx). destruct (H2 k x m Ex) as (y & Ey & Hy).
  exists y. split; [assumption|]. destruct v as [v|].
  - destruct Hx as (z & -> & Hz). destruct Hy as (w & -> & Hw). exists w. split; [reflexivity|]. now rewrite Hw, (Hg _ _ Hz).
  - now subst x.
Qed.
Lemma mapped_ext f g a b : (forall v, f v == g v) -> mapped f a b -> mapped g a b.
Proof.
  intros H [L1 H1]. split; [assumption|]. intros k v m E. destruct (H1 k v m E) as (x & Ex & Hx). exists x. split; [assumption|].
  destruct v; [|assumption]. destruct Hx as (y & -> & Hy). exists y. split; [reflexivity|]. now rewrite Hy, H.
Qed.
(** on what is visible only *)
Definition mapped_visible (g : Q -> Q) (a n : marray) : Prop :=
  List.length n = List.length a /\
  forall k v m, nth_error a k = Some (v, m) ->
    exists x, nth_error n k = Some (x, m) /\
      match v with None => x = None | Some v => exists y, x = Some y /\ (m = false -> y == g v) end.
Lemma mapped_vis f g a n : (forall v, visible a v -> f v == g v) -> mapped f a n -> mapped_visible g a n.
Proof.
  intros H [L1 H1]. split; [assumption|]. intros k v m E. destruct (H1 k v m E) as (x & Ex & Hx). exists x. split; [assumption|].
  destruct v as [v|]; [|assumption]. destruct Hx as (y & -> & Hy). exists y. split; [reflexivity|]. intros ->. rewrite Hy. apply H. apply nth_error_In in E. exact E.
Qed.
Definition spread_f (lo hi v : Q) : Q := if Qeq_bool hi lo then 1 # 2 else (v - lo) / (hi - lo).
Lemma spread_mapped lo hi a : mapped (spread_f lo hi) a (spread lo hi a).
Proof. unfold spread, spread_f. destruct (Qeq_bool hi lo); apply mapped_on. Qed.
Lemma spread_proper lo hi x y : x == y -> spread_f lo hi x == spread_f lo hi y.
Proof. intros H. unfold spread_f. destruct (Qeq_bool hi lo); [reflexivity|]. now rewrite H. Qed.
Lemma at_least_proper b x y : x == y -> at_least b x == at_least b y.
Proof. intros H. unfold at_least. rewrite H. destruct (y <b b); [reflexivity|assumption]. Qed.
Lemma at_least_cases b v : (b <= v /\ at_least b v = v) \/ (v < b /\ at_least b v = b).
Proof. unfold at_least. destruct (Qltb_spec v b); auto. Qed.
Lemma at_most_cases b v : (v <= b /\ at_most b v = v) \/ (b < v /\ at_most b v = b).
Proof. unfold at_most. destruct (Qltb_spec b v); auto. Qed.

(** * C77 *)
(** Without a fixed zero: the minimum goes to 0, the maximum to 1 and all else in
    proportion; a constant property goes to one half. *)
Theorem C77_linear : forall lg a dt meta, (exists v, visible a v) ->
  exists n lo hi meta', normalized_part_array lg false (Some a) dt false None false meta None = (Ok (Some n, Some lo, Some hi), meta') /\
    minimum_of a lo /\ maximum_of a hi /\ mapped (fun v => if Qeq_bool hi lo then 1 # 2 else (v - lo) / (hi - lo)) a n.
Proof.
  intros lg a dt meta Hv. destruct (lowest_spec a Hv) as (lo & El & Ml). destruct (highest_spec a Hv) as (hi & Eh & Mh).
  unfold normalized_part_array, get_minmax. rewrite El, Eh.
  assert (X : apply_discrete_cycle dt None a lo hi = (lo, hi, a)) by now destruct dt. rewrite X.
  assert (Hle : lo <= hi) by (apply (proj2 Ml), Mh). apply Qltb_false in Hle. rewrite Hle.
  eexists. exists lo, hi. eexists. split; [reflexivity|]. split; [assumption|]. split; [assumption|]. apply spread_mapped.
Qed.
Print Assumptions C77_linear.
(** With the zero fixed at f between 0 and 1: the range is the smallest one with the values
    in it and zero at f; everything visible is in proportion, so between 0 and 1.  A property
    that is zero throughout goes to one half. *)
Theorem C77_zero_fixed : forall lg a dt meta f, (exists v, visible a v) -> 0 < f -> f < 1 ->
  exists n lo hi mn mx meta', normalized_part_array lg false (Some a) dt false None false meta (Some f) = (Ok (Some n, Some lo, Some hi), meta') /\
    minimum_of a mn /\ maximum_of a mx /\ lo <= mn /\ mx <= hi /\ (lo == mn \/ hi == mx) /\ f * (hi - lo) == - lo /\
    mapped_visible (fun v => if Qeq_bool hi lo then 1 # 2 else (v - lo) / (hi - lo)) a n.
Proof.
  intros lg a dt meta f Hv F0 F1. destruct (lowest_spec a Hv) as (lo & El & Ml). destruct (highest_spec a Hv) as (hi & Eh & Mh).
  unfold normalized_part_array, get_minmax. rewrite El, Eh.
  assert (X : apply_discrete_cycle dt None a lo hi = (lo, hi, a)) by now destruct dt. rewrite X.
  assert (Hle : lo <= hi) by (apply (proj2 Ml), Mh). pose proof Hle as Hle'. apply Qltb_false in Hle'. rewrite Hle'.
  unfold fix_zero_at. assert (G0 : (f <=b 0) = false) by (apply Qleb_false; lra). assert (G1 : (1 <=b f) = false) by (apply Qleb_false; lra). rewrite G0, G1. cbv zeta.
  assert (Eu : hi / (1 - f) * (1 - f) == hi) by (field; lra). assert (Elw : - lo / f * f == - lo) by (field; lra).
  set (up := hi / (1 - f)) in *. set (lw := - lo / f) in *.
  destruct (Qleb_spec' lw up) as [H|H].
  - assert (Hlo : - up * f <= lo) by nra.
    eexists. exists (- up * f), hi, lo, hi. eexists. split; [reflexivity|]. split; [assumption|]. split; [assumption|]. split; [assumption|]. split; [lra|].
    split; [now right|]. split; [nra|].
    eapply mapped_vis; [|eapply mapped_trans; [apply (spread_proper (- up * f) hi)|apply (mapped_on (at_least (- up * f)))|apply spread_mapped]].
    intros v Hvis. apply spread_proper. destruct (at_least_cases (- up * f) v) as [[_ E]|[L _]]; [now rewrite E|]. exfalso. pose proof (proj2 Ml v Hvis). lra.
  - assert (Hhi : hi <= lw * (1 - f)) by nra.
    eexists. exists lo, (lw * (1 - f)), lo, hi. eexists. split; [reflexivity|]. split; [assumption|]. split; [assumption|]. split; [lra|]. split; [assumption|].
    split; [left; reflexivity|]. split; [nra|].
    eapply mapped_vis; [|eapply mapped_trans; [apply (spread_proper lo (lw * (1 - f)))|apply (mapped_on (at_most (lw * (1 - f))))|apply spread_mapped]].
    intros v Hvis. apply spread_proper. destruct (at_most_cases (lw * (1 - f)) v) as [[_ E]|[L _]]; [now rewrite E|]. exfalso. pose proof (proj2 Mh v Hvis). lra.
Qed.
Print Assumptions C77_zero_fixed.
(** Zero fixed at 0 (or less): negative values are cut to zero.  Missing: properties without
    a positive value (see below).  At 1, the mirror image. *)
Theorem C77_zero_at_the_ends_partial : forall lg a dt meta f, (exists v, visible a v) ->
  (f <= 0 -> (exists v, visible a v /\ 0 < v) ->
   exists n hi meta', normalized_part_array lg false (Some a) dt false None false meta (Some f) = (Ok (Some n, Some 0, Some hi), meta') /\
     maximum_of a hi /\ 0 < hi /\ mapped_visible (fun v => Qmaxb v 0 / hi) a n) /\
  (1 <= f -> (exists v, visible a v /\ v < 0) ->
   exists n lo meta', normalized_part_array lg false (Some a) dt false None false meta (Some f) = (Ok (Some n, Some lo, Some 0), meta') /\
     minimum_of a lo /\ lo < 0 /\ mapped_visible (fun v => 1 - Qminb v 0 / lo) a n).
Proof.
  intros lg a dt meta f Hv. destruct (lowest_spec a Hv) as (lo & El & Ml). destruct (highest_spec a Hv) as (hi & Eh & Mh).
  assert (X : apply_discrete_cycle dt None a lo hi = (lo, hi, a)) by now destruct dt.
  assert (Hle : lo <= hi) by (apply (proj2 Ml), Mh). pose proof Hle as Hle'. apply Qltb_false in Hle'.
  assert (PM : forall x y, x == y -> Qmaxb x 0 == Qmaxb y 0) by (intros x y E; unfold Qmaxb; rewrite E; destruct (y <=b 0); [reflexivity|assumption]).
  split; intros Hf (w & Hw & Pw); unfold normalized_part_array, get_minmax; rewrite El, Eh, X, Hle'; unfold fix_zero_at.
  - assert (G0 : (f <=b 0) = true) by now apply Qleb_iff. rewrite G0.
    assert (Hp : 0 < hi) by (pose proof (proj2 Mh w Hw); lra).
    assert (Nz : Qeq_bool hi 0 = false) by (apply not_true_iff_false; intros E; apply Qeq_bool_iff in E; lra).
    eexists. exists hi. eexists. split; [reflexivity|]. split; [assumption|]. split; [assumption|].
    destruct (Qltb_spec lo 0) as [Hn|Hn].
    + eapply mapped_vis; [|eapply mapped_trans; [apply (spread_proper 0 hi)|apply (mapped_on (at_least 0))|apply spread_mapped]].
      intros v _. unfold spread_f. rewrite Nz. destruct (at_least_cases 0 v) as [[H ->]|[H ->]]; unfold Qmaxb; destruct (Qleb_spec' v 0); try lra; field_simplify_eq; lra.
    + eapply mapped_vis; [|apply spread_mapped]. intros v Hvis. pose proof (proj2 Ml v Hvis). unfold spread_f. rewrite Nz. unfold Qmaxb. destruct (Qleb_spec' v 0); field_simplify_eq; lra.
  - assert (G0 : (f <=b 0) = false) by (apply Qleb_false; lra). assert (G1 : (1 <=b f) = true) by now apply Qleb_iff. rewrite G0, G1.
    assert (Hp : lo < 0) by (pose proof (proj2 Ml w Hw); lra).
    assert (Nz : Qeq_bool 0 lo = false) by (apply not_true_iff_false; intros E; apply Qeq_bool_iff in E; lra).
    eexists. exists lo. eexists. split; [reflexivity|]. split; [assumption|]. split; [assumption|].
    destruct (Qltb_spec 0 hi) as [Hn|Hn].
    + eapply mapped_vis; [|eapply mapped_trans; [apply (spread_proper lo 0)|apply (mapped_on (at_most 0))|apply spread_mapped]].
      intros v _. unfold spread_f. rewrite Nz. destruct (at_most_cases 0 v) as [[H ->]|[H ->]]; unfold Qminb; destruct (Qleb_spec' v 0); try lra; field_simplify_eq; lra.
    + eapply mapped_vis; [|apply spread_mapped]. intros v Hvis. pose proof (proj2 Mh v Hvis). unfold spread_f. rewrite Nz. unfold Qminb. destruct (Qleb_spec' v 0); field_simplify_eq; lra.
Qed.
Print Assumptions C77_zero_at_the_ends_partial.
(** A property with no positive value and the zero fixed at 0: a property of zeros goes to
    one half instead of 0, and for negative values the range returned is upside down. *)
Theorem C77_zero_at_zero_refuted :
  (exists a n, normalized_part_array (fun v => v) false (Some a) DFloat false None false (None, None) (Some 0) = (Ok (Some n, Some 0, Some 0), (Some (-1 # 1), Some 0)) /\
     visible a 0 /\ visible n (1 # 2) /\ forall v, visible n v -> v == 1 # 2) /\
  (exists a n lo hi m, normalized_part_array (fun v => v) false (Some a) DFloat false None false (None, None) (Some 0) = (Ok (Some n, Some lo, Some hi), m) /\ hi < lo).
Proof.
  split.
  - exists [(Some 0, false); (Some (-1 # 1), false)]. eexists. split; [vm_compute; reflexivity|]. split; [now left|]. split; [now left|].
    intros v [[= <-]|[[= <-]|[]]]; reflexivity.
  - exists [(Some (-1 # 1), false); (Some (-2 # 1), false)]. do 4 eexists. split; [vm_compute; reflexivity|]. reflexivity.
Qed.
Print Assumptions C77_zero_at_zero_refuted.
(** So, in each of these cases, visible results lie between 0 and 1 and keep the order of
    the values. *)
Theorem C77_in_range_and_order : forall lg a dt meta f n lo hi meta', (exists v, visible a v) ->
  (forall z, f = Some z -> (0 < z \/ exists v, visible a v /\ 0 < v) /\ (z < 1 \/ exists v, visible a v /\ v < 0)) ->
  normalized_part_array lg false (Some a) dt false None false meta f = (Ok (Some n, lo, hi), meta') ->
  exists g, mapped_visible g a n /\ (forall v, visible a v -> 0 <= g v <= 1) /\ (forall v w, visible a v -> visible a w -> v <= w -> g v <= g w).
Proof.
  intros lg a dt meta f n lo hi meta' Hv Hf E.
  assert (SP : forall l h mn mx, l <= mn -> mx <= h -> minimum_of a mn -> maximum_of a mx ->
    (forall v, visible a v -> 0 <= (if Qeq_bool h l then 1 # 2 else (v - l) / (h - l)) <= 1) /\
    (forall v w, visible a v -> visible a w -> v <= w -> (if Qeq_bool h l then 1 # 2 else (v - l) / (h - l)) <= (if Qeq_bool h l then 1 # 2 else (w - l) / (h - l)))).
  { intros l h mn mx L1 L2 [_ M1] [M0 M2]. pose proof (M1 mx M0). destruct (Qeq_bool h l) eqn:Q0.
    - split; intros; lra.
    - assert (l < h). { assert (~ h == l) by (intros X; apply Qeq_bool_iff in X; congruence). lra. }
      split.
      + intros v Hvis. pose proof (M1 v Hvis). pose proof (M2 v Hvis). split; [apply Qle_div_mult; lra|apply Qdiv_mult_le; lra].
      + intros v w Hvv Hww Hvw. apply Qdiv_mult_le; [lra|]. setoid_replace ((w - l) / (h - l) * (h - l)) with (w - l) by (field; lra). lra. }
  destruct f as [z|].
  - destruct (Hf z eq_refl) as [Z0 Z1]. destruct (Qlt_le_dec 0 z) as [P0|P0]; [destruct (Qlt_le_dec z 1) as [P1|P1]|].
    + destruct (C77_zero_fixed lg a dt meta z Hv P0 P1) as (n' & l & h & mn & mx & m & E' & M1 & M2 & L1 & L2 & _ & _ & MM). rewrite E in E'. injection E' as <- -> -> ->.
      eexists. split; [exact MM|]. apply (SP l h mn mx); assumption.
    + destruct Z1 as [Z1|Z1]; [lra|]. destruct (proj2 (C77_zero_at_the_ends_partial lg a dt meta z Hv) P1 Z1) as (n' & l & m & E' & M1 & L0 & MM). rewrite E in E'. injection E' as <- -> -> ->.
      eexists. split; [exact MM|]. destruct M1 as [M0 M1].
      assert (B : forall v, visible a v -> 0 <= Qminb v 0 / l <= 1).
      { intros v Hvis. pose proof (M1 v Hvis). setoid_replace (Qminb v 0 / l) with (- Qminb v 0 / - l) by (field; lra). destruct (Qminb_spec v 0) as [[? ->]|[? ->]]; (split; [apply Qle_div_mult; lra|apply Qdiv_mult_le; lra]). }
      split; [intros v Hvis; specialize (B v Hvis); lra|]. intros v w Hvv Hww Hvw.
      enough (Qminb w 0 / l <= Qminb v 0 / l) by lra.
      setoid_replace (Qminb w 0 / l) with (- Qminb w 0 / - l) by (field; lra). apply Qdiv_mult_le; [lra|]. setoid_replace (Qminb v 0 / l * - l) with (- Qminb v 0) by (field; lra).
      destruct (Qminb_spec v 0) as [[? ->]|[? ->]], (Qminb_spec w 0) as [[? ->]|[? ->]]; lra.
    + destruct Z0 as [Z0|Z0]; [lra|]. destruct (proj1 (C77_zero_at_the_ends_partial lg a dt meta z Hv) P0 Z0) as (n' & h & m & E' & M2 & L0 & MM). rewrite E in E'. injection E' as <- -> -> ->.
      eexists. split; [exact MM|]. destruct M2 as [M0 M2]. split.
      * intros v Hvis. pose proof (M2 v Hvis). destruct (Qmaxb_spec v 0) as [[? ->]|[? ->]]; (split; [apply Qle_div_mult; lra|apply Qdiv_mult_le; lra]).
      * intros v w Hvv Hww Hvw. apply Qdiv_mult_le; [lra|]. setoid_replace (Qmaxb w 0 / h * h) with (Qmaxb w 0) by (field; lra).
        destruct (Qmaxb_spec v 0) as [[? ->]|[? ->]], (Qmaxb_spec w 0) as [[? ->]|[? ->]]; lra.
  - destruct (C77_linear lg a dt meta Hv) as (n' & l & h & m & E' & M1 & M2 & MM). rewrite E in E'. injection E' as <- -> -> ->.
    eexists. split; [apply (mapped_vis _ _ _ _ (fun v _ => Qeq_refl _) MM)|]. apply (SP l h l h); auto; lra.
Qed.
Print Assumptions C77_in_range_and_order.

Lemma visible_on f a w : visible (on_values f a) w <-> exists v, visible a v /\ w = f v.
Proof.
  unfold visible, on_values. rewrite in_map_iff. split.
  - intros ([[v|] m] & E & H); cbn in E; [|discriminate]. injection E as E1 E2. subst. exists v. auto.
  - intros (v & H & ->). exists (Some v, false). split; [reflexivity|assumption].
Qed.
Lemma on_values_on f g a : on_values f (on_values g a) = on_values (fun v => f (g v)) a.
Proof. unfold on_values. rewrite map_map. apply map_ext. intros [[v|] m]; reflexivity. Qed.
(** With logarithms: any function that rises on positive numbers can stand for log10.  Values
    are first raised to 0.0001 if some visible value is not positive. *)
Theorem C77_logarithm : forall lg a dt meta, (exists v, visible a v) -> (forall x y, 0 < x -> x <= y -> lg x <= lg y) ->
  exists n lo hi mn mx meta', normalized_part_array lg false (Some a) dt true None false meta None = (Ok (Some n, Some lo, Some hi), meta') /\
    minimum_of a mn /\ maximum_of a mx /\
    let c v := if mn <=b 0 then Qmaxb v (1 # 10000) else v in
    lo == lg (c mn) /\ hi == lg (c mx) /\
    mapped_visible (fun v => if Qeq_bool hi lo then 1 # 2 else (lg (c v) - lo) / (hi - lo)) a n.
Proof.
  intros lg a dt meta Hv Hlg. destruct (lowest_spec a Hv) as (lo & El & Ml). destruct (highest_spec a Hv) as (hi & Eh & Mh).
  unfold normalized_part_array, get_minmax. rewrite El, Eh.
  assert (X : apply_discrete_cycle dt None a lo hi = (lo, hi, a)) by now destruct dt. rewrite X.
  assert (Hle : lo <= hi) by (apply (proj2 Ml), Mh). pose proof Hle as Hle'. apply Qltb_false in Hle'. rewrite Hle'.
  unfold use_logarithm. destruct (seen a) as [|x l] eqn:Es; [discriminate|]. rewrite <- Es in *. cbv zeta.
  set (c := fun v => if lo <=b 0 then at_least (1 # 10000) v else v).
  assert (Ec : (if lo <=b 0 then on_values (at_least (1 # 10000)) a else a) = on_values c a).
  { unfold c. destruct (lo <=b 0); [reflexivity|]. unfold on_values. rewrite <- (map_id a) at 1. apply map_ext. intros [[v|] m]; reflexivity. }
  rewrite Ec, on_values_on.
  assert (Hv2 : exists v, visible (on_values (fun v => lg (c v)) a) v) by (destruct Hv as [v Hv]; exists (lg (c v)); apply visible_on; eauto).
  destruct (lowest_spec _ Hv2) as (lo2 & El2 & Ml2). destruct (highest_spec _ Hv2) as (hi2 & Eh2 & Mh2). rewrite El2, Eh2.
  eexists. exists lo2, hi2, lo, hi. eexists. split; [reflexivity|]. split; [assumption|]. split; [assumption|]. cbv zeta.
  assert (Pc : forall v, visible a v -> 0 < c v).
  { intros v Hvis. pose proof (proj2 Ml v Hvis). unfold c. destruct (Qleb_spec' lo 0); [|lra]. destruct (at_least_cases (1 # 10000) v) as [[H1 ->]|[H1 ->]]; [lra|reflexivity]. }
  assert (Mc : forall v w, v <= w -> c v <= c w).
  { intros v w Hvw. unfold c. destruct (lo <=b 0); [|assumption]. destruct (at_least_cases (1 # 10000) v) as [[H1 ->]|[H1 ->]], (at_least_cases (1 # 10000) w) as [[H2 ->]|[H2 ->]]; lra. }
  assert (Cc : forall v, c v == if lo <=b 0 then Qmaxb v (1 # 10000) else v).
  { intros v. unfold c. destruct (lo <=b 0); [|reflexivity]. destruct (at_least_cases (1 # 10000) v) as [[H1 ->]|[H1 ->]], (Qmaxb_spec v (1 # 10000)) as [[H2 ->]|[H2 ->]]; lra. }
  assert (Lc : forall v, visible a v -> lg (c v) == lg (if lo <=b 0 then Qmaxb v (1 # 10000) else v)).
  { intros v Hvis. pose proof (Pc v Hvis). pose proof (Cc v) as E. apply Qle_antisym; apply Hlg; lra. }
  split; [|split].
  - rewrite <- Lc by apply Ml. apply Qle_antisym.
    + apply (proj2 Ml2). apply visible_on. exists lo. split; [apply Ml|reflexivity].
    + destruct (proj1 (visible_on _ _ _) (proj1 Ml2)) as (v & Hvis & ->). apply Hlg; [apply Pc, Ml|]. apply Mc, (proj2 Ml), Hvis.
  - rewrite <- Lc by apply Mh. apply Qle_antisym.
    + destruct (proj1 (visible_on _ _ _) (proj1 Mh2)) as (v & Hvis & ->). apply Hlg; [apply Pc, Hvis|]. apply Mc, (proj2 Mh), Hvis.
    + apply (proj2 Mh2). apply visible_on. exists hi. split; [apply Mh|reflexivity].
  - eapply mapped_vis; [|eapply mapped_trans; [apply (spread_proper lo2 hi2)|apply (mapped_on (fun v => lg (c v)))|apply spread_mapped]].
    intros v Hvis. unfold spread_f. destruct (Qeq_bool hi2 lo2); [reflexivity|]. now rewrite (Lc v Hvis).
Qed.
Print Assumptions C77_logarithm.
(** Integer properties with a cycle of n: the values modulo n, from 0 to 1; nothing for n
    below 1, and one half throughout for n = 1. *)
Theorem C77_cycle : forall lg a meta n, (exists v, visible a v) -> (forall v m, In (Some v, m) a -> exists z, v = inject_Z z) ->
  exists r lo hi meta', normalized_part_array lg false (Some a) DInt false (Some n) false meta None = (Ok (r, Some lo, Some hi), meta') /\
    (n < 1 -> r = None)%Z /\
    ((1 <= n)%Z -> exists b, r = Some b /\ lo == 0 /\ hi == inject_Z (n - 1) /\ List.length b = List.length a /\
      forall k z m, nth_error a k = Some (Some (inject_Z z), m) ->
        exists x, nth_error b k = Some (Some x, m) /\ x == if (n =? 1)%Z then 1 # 2 else inject_Z (z mod n) / inject_Z (n - 1)).
Proof.
  intros lg a meta n Hv Hz. destruct (lowest_spec a Hv) as (lo & El & Ml). destruct (highest_spec a Hv) as (hi & Eh & Mh).
  unfold normalized_part_array, get_minmax. rewrite El, Eh. cbn [apply_discrete_cycle].
  destruct (Qltb_spec (inject_Z (n - 1)) 0) as [H|H].
  - do 4 eexists. split; [reflexivity|]. split; [reflexivity|]. intros Hn. exfalso. change 0 with (inject_Z 0) in H. rewrite <- Zlt_Qlt in H. lia.
  - change 0 with (inject_Z 0) in H. rewrite <- Zle_Qle in H.
    do 4 eexists. split; [reflexivity|]. split; [lia|]. intros _. eexists. split; [reflexivity|]. split; [reflexivity|]. split; [reflexivity|].
    unfold spread. destruct (Z.eqb_spec n 1) as [->|N1].
    + change (Qeq_bool (inject_Z (1 - 1)) 0) with true. cbv iota. rewrite on_values_on. split; [apply map_length|]. intros k z m E.
      unfold on_values. rewrite nth_error_map, E. eexists. split; [reflexivity|reflexivity].
    + assert (Nz : Qeq_bool (inject_Z (n - 1)) 0 = false).
      { apply not_true_iff_false. intros E. apply Qeq_bool_iff in E. change 0 with (inject_Z 0) in E. rewrite inject_Z_injective in E. lia. }
      rewrite Nz, on_values_on. split; [apply map_length|]. intros k z m E. unfold on_values. rewrite nth_error_map, E. eexists. split; [reflexivity|].
      assert (Em : Qmodulo (inject_Z z) (inject_Z n) == inject_Z (z mod n)).
      { unfold Qmodulo. rewrite <- Zdiv_Qdiv, <- inject_Z_mult. unfold Qminus. rewrite <- inject_Z_opp, <- inject_Z_plus. rewrite inject_Z_injective. rewrite Z.mod_eq by lia. lia. }
      rewrite Em. assert (~ inject_Z (n - 1) == 0) by (intros X; apply Qeq_bool_iff in X; congruence). field. intros X. apply H0. rewrite <- X. ring.
Qed.
Print Assumptions C77_cycle.
(** Nothing visible but not-a-number: no array is returned. *)
Theorem C77_nothing_to_show : forall lg a dt lgf cycle meta f, (forall v, ~ visible a v) -> (f = None \/ lgf = false) ->
  normalized_part_array lg false (Some a) dt lgf cycle false meta f = (Ok (None, None, None), (None, None)).
Proof.
  intros lg a dt lgf cycle meta f Hn Hf. unfold normalized_part_array, get_minmax.
  assert (E : seen a = []). { destruct (seen a) as [|x l] eqn:E; [reflexivity|]. exfalso. apply (Hn x). apply seen_in. rewrite E. now left. }
  rewrite E. destruct Hf as [->| ->]; [reflexivity|]. now destruct f.
Qed.
Print Assumptions C77_nothing_to_show.
(** A second time, relying on the minimum and maximum remembered from the first: the same. *)
Theorem C77_remembered_limits : forall lg points array dt use_log cycle meta f r meta',
  normalized_part_array lg points array dt use_log cycle false meta f = (r, meta') ->
  normalized_part_array lg points array dt use_log cycle true meta' f = (r, meta').
Proof.
  intros lg points array dt use_log cycle meta f r meta' E. unfold normalized_part_array in *.
  destruct points; [now inversion E|]. destruct (match f with Some _ => use_log | None => false end); [now inversion E|].
  destruct array as [a|]; [|now inversion E]. unfold get_minmax in *.
  assert (M : meta' = (lowest (seen a), highest (seen a))).
  { revert E. destruct (lowest (seen a)) as [lo|], (highest (seen a)) as [hi|]; try (intros [= _ <-]; reflexivity).
    destruct (apply_discrete_cycle dt cycle a lo hi) as [[lo' hi'] a']. destruct (hi' <b lo'); [intros [= _ <-]; reflexivity|].
    destruct (if use_log then use_logarithm lg lo' a' else (a', (Some lo', Some hi'))) as [a2 [[x|] [y|]]]; try (intros [= _ <-]; reflexivity).
    destruct (match f with Some z => fix_zero_at x y a2 z | None => (x, y, a2) end) as [[u w] q]. intros [= _ <-]. reflexivity. }
  rewrite M in *. clear M. destruct (lowest (seen a)) as [lo|], (highest (seen a)) as [hi|]; exact E.
Qed.
Print Assumptions C77_remembered_limits.
(** Without reliance on them, whatever the metadata says does not matter; reliance on wrong
    metadata gives values outside 0 to 1. *)
Theorem C77_wrong_metadata_refuted : exists a meta n lo hi m, normalized_part_array (fun v => v) false (Some a) DFloat false None true meta None = (Ok (Some n, lo, hi), m) /\
  exists v, visible n v /\ 1 < v.
Proof.
  exists [(Some (3 # 1), false)], (Some 0, Some 1). do 4 eexists. split; [vm_compute; reflexivity|]. eexists. split; [left; reflexivity|]. reflexivity.
Qed.
Print Assumptions C77_wrong_metadata_refuted.
Example C77_case : exists n lo hi m, normalized_part_array (fun v => v) false (Some [(Some (-1 # 1), false); (None, false); (Some (1 # 1), false); (Some (3 # 1), false); (Some (50 # 1), true)]) DFloat false None false (None, None) (Some (1 # 4))
  = (Ok (Some n, Some lo, Some hi), m) /\ lo == -1 # 1 /\ hi == 3 # 1 /\ map (fun e => option_map Qred (fst e)) n = [Some 0; None; Some (1 # 2); Some 1; Some (51 # 4)].
Proof. do 4 eexists. split; [vm_compute; reflexivity|]. repeat split; vm_compute; reflexivity. Qed.
Example C77_case_cycle : exists b m, normalized_part_array (fun v => v) false (Some [(Some (inject_Z (-1)), false); (Some (inject_Z 7), false)]) DInt false (Some 5%Z) false (None, None) None
  = (Ok (Some b, Some 0, Some (4 # 1)), m) /\ map (fun e => option_map Qred (fst e)) b = [Some 1; Some (1 # 2)].
Proof. do 2 eexists. split; vm_compute; reflexivity. Qed.

(** * C78 *)
(** ** Specification: the faces of a cell in RESQML order, and the edges of a column *)
Inductive side := Minus | Plus.
Definition resqml_faces : list (axis * side) := [(K, Minus); (K, Plus); (J, Minus); (I, Plus); (J, Plus); (I, Minus)].
Definition resqml_edges : list (axis * side) := [(I, Minus); (J, Plus); (I, Plus); (J, Minus)].
Definition axis_number (x : axis) : Z := match x with K => 0 | J => 1 | I => 2 end.
Definition side_number (p : side) : Z := match p with Minus => 0 | Plus => 1 end.

Lemma len6 {A} (l : list A) : List.length l = 6%nat -> exists a b c d e f, l = [a; b; c; d; e; f].
Proof. destruct l as [|a [|b [|c [|d [|e [|f [|]]]]]]]; try discriminate. eauto 10. Qed.
Lemma len2 {A} (l : list A) : List.length l = 2%nat -> exists a b, l = [a; b].
Proof. destruct l as [|a [|b [|]]]; try discriminate. eauto. Qed.
Lemma len3 {A} (l : list A) : List.length l = 3%nat -> exists a b c, l = [a; b; c].
Proof. destruct l as [|a [|b [|c [|]]]]; try discriminate. eauto. Qed.
Definition three_by_two {A} (l : list (list A)) : Prop := List.length l = 3%nat /\ forall m, In m l -> List.length m = 2%nat.
Lemma len32 {A} (l : list (list A)) : three_by_two l -> exists a b c d e f, l = [[a; b]; [c; d]; [e; f]].
Proof.
  intros [L H]. destruct (len3 _ L) as (x & y & z & ->). destruct (len2 x) as (a & b & ->); [apply H; now left|].
  destruct (len2 y) as (c & d & ->); [apply H; right; now left|]. destruct (len2 z) as (e & f & ->); [apply H; right; right; now left|]. eauto 10.
Qed.
Lemma shape_ok {A} (l : list (list A)) : (Nat.eqb (List.length l) 3 && forallb (fun m => Nat.eqb (List.length m) 2) l = true)%bool <-> three_by_two l.
Proof. unfold three_by_two. rewrite andb_true_iff, Nat.eqb_eq, forallb_forall. split; intros [H1 H2]; (split; [assumption|]); intros m Hm; specialize (H2 m Hm); now apply Nat.eqb_eq. Qed.

(** Face number k of the six is found under its axis and side. *)
Theorem C78_faces : forall {A} (d : A) a, (forall l, In l a -> List.length l = 6%nat) ->
  exists b, combobulated d a = Ok b /\ List.length b = List.length a /\
    (forall l, In l b -> three_by_two l) /\
    forall n cell cell' k x p, nth_error a n = Some cell -> nth_error b n = Some cell' -> nth_error resqml_faces k = Some (x, p) ->
      exists v, nth_error cell k = Some v /\
        exists row, nth_error cell' (Z.to_nat (axis_number x)) = Some row /\ nth_error row (Z.to_nat (side_number p)) = Some v.
Proof.
  intros A d a H. unfold combobulated.
  assert (F : forallb (fun l => Nat.eqb (List.length l) 6) a = true) by (apply forallb_forall; intros l Hl; apply Nat.eqb_eq; auto). rewrite F. cbn [assert_ bind].
  eexists. split; [reflexivity|]. split; [apply map_length|]. split.
  - intros l Hl. apply in_map_iff in Hl as (c & <- & Hc). split; [reflexivity|]. intros m Hm. cbn in Hm. destruct Hm as [<-|[<-|[<-|[]]]]; reflexivity.
  - intros n cell cell' k x p E1 E2 Ek. rewrite nth_error_map, E1 in E2. injection E2 as <-. apply nth_error_In in E1. destruct (len6 _ (H _ E1)) as (v0 & v1 & v2 & v3 & v4 & v5 & ->).
    destruct k as [|[|[|[|[|[|k]]]]]]; cbn in Ek; try (injection Ek as <- <-; eexists; split; [reflexivity|]; eexists; split; reflexivity). destruct k; discriminate.
Qed.
Print Assumptions C78_faces.
(** The two are inverse to each other; arrays of any other shape are refused. *)
Theorem C78_round_trips : forall {A} (d : A),
  (forall a, (forall l, In l a -> List.length l = 6%nat) -> exists b, combobulated d a = Ok b /\ discombobulated d b = Ok a) /\
  (forall b, (forall l, In l b -> three_by_two l) -> exists a, discombobulated d b = Ok a /\ combobulated d a = Ok b) /\
  (forall a l, In l a -> List.length l <> 6%nat -> combobulated d a = Err AssertionError) /\
  (forall b l, In l b -> ~ three_by_two l -> discombobulated d b = Err AssertionError).
Proof.
  intros A d. repeat split.
  - intros a H. destruct (C78_faces d a H) as (b & E & _ & Sb & _). exists b. split; [assumption|]. unfold discombobulated.
    assert (F : forallb (fun l => Nat.eqb (List.length l) 3 && forallb (fun m => Nat.eqb (List.length m) 2) l)%bool b = true) by (apply forallb_forall; intros l Hl; now apply shape_ok, Sb).
    rewrite F. cbn [assert_ bind]. f_equal. unfold combobulated in E. destruct (forallb _ a); [|discriminate]. injection E as <-. rewrite map_map. rewrite <- (map_id a) at 2.
    apply map_ext_in. intros l Hl. destruct (len6 _ (H l Hl)) as (v0 & v1 & v2 & v3 & v4 & v5 & ->). reflexivity.
  - intros b H. unfold discombobulated.
    assert (F : forallb (fun l => Nat.eqb (List.length l) 3 && forallb (fun m => Nat.eqb (List.length m) 2) l)%bool b = true) by (apply forallb_forall; intros l Hl; now apply shape_ok, H).
    rewrite F. cbn [assert_ bind]. eexists. split; [reflexivity|]. unfold combobulated.
    assert (G : forallb (fun l => Nat.eqb (List.length l) 6) (map (discombobulate_cell d) b) = true) by (apply forallb_forall; intros l Hl; apply in_map_iff in Hl as (c & <- & _); reflexivity).
    rewrite G. cbn [assert_ bind]. f_equal. rewrite map_map. rewrite <- (map_id b) at 2. apply map_ext_in. intros l Hl. destruct (len32 _ (H l Hl)) as (v0 & v1 & v2 & v3 & v4 & v5 & ->). reflexivity.
  - intros a l Hl H. unfold combobulated. destruct (forallb _ a) eqn:F; [|reflexivity]. exfalso. rewrite forallb_forall in F. apply H. now apply Nat.eqb_eq, F.
  - intros b l Hl H. unfold discombobulated. destruct (forallb _ b) eqn:F; [|reflexivity]. exfalso. rewrite forallb_forall in F. apply H. apply shape_ok. now apply F.
Qed.
Print Assumptions C78_round_trips.
(** Edges of columns: edge k is found under its axis (J first) and side, and the two
    functions are inverse to each other. *)
Theorem C78_edges : forall {A} (d : A),
  (forall j0 j1 i0 i1, let cell := [[j0; j1]; [i0; i1]] in
     edges_from_resqml d (edges_to_resqml d cell) = cell /\
     forall k x p, nth_error resqml_edges k = Some (x, p) ->
       nth_error (edges_to_resqml d cell) k = Some (match x, p with J, Minus => j0 | J, Plus => j1 | _, Minus => i0 | _, Plus => i1 end)) /\
  (forall l, List.length l = 4%nat -> edges_to_resqml d (edges_from_resqml d l) = l).
Proof.
  intros A d. split.
  - intros j0 j1 i0 i1 cell. split; [reflexivity|]. intros k x p E. destruct k as [|[|[|[|k]]]]; cbn in E; try (injection E as <- <-; reflexivity). destruct k; discriminate.
  - intros l H. destruct l as [|a [|b [|c [|e [|]]]]]; try discriminate. reflexivity.
Qed.
Print Assumptions C78_edges.
Example C78_case : combobulated 0%Z [[10; 11; 12; 13; 14; 15]%Z] = Ok [[[10; 11]; [12; 14]; [15; 13]]%Z] /\ edges_to_resqml 0%Z [[1; 2]; [3; 4]]%Z = [3; 2; 4; 1]%Z.
Proof. split; reflexivity. Qed.
