(** TimeProps2.v: time arithmetic, building series from lists and merging, geologic series,
    equivalence of series. *)
From Verif Require Import Base TextModel StrModel StrProofs PySort TimeModel TimeProofs TimeProps.
From Coq Require Import Permutation Sorted.

Lemma ordered_ss (R : str -> str -> Prop) l : StronglySorted R l -> Ordered R l.
Proof. intros S. exact (proj1 (ss_nth R l) S). Qed.

(** * C46: time arithmetic *)
Lemma after_duration_full us t : InRange t -> InRange (t + us) -> timestamp_after_duration us (full t) = Ok (full (t + us)).
Proof.
  intros R [R1 R2]. unfold timestamp_after_duration, check_timestamp, full. rewrite strip_z_app, strip_isoformat.
  rewrite from_iso by exact R. cbn [bind]. unfold shift.
  replace ((0 <=? t + us) && (t + us <? max_moment)) with true by (symmetry; apply andb_true_iff; lia). reflexivity.
Qed.
(** the new stamp is exactly the duration away, or the call is refused because the year would
    leave 1..9999 *)
Theorem C46_after_is_exact us s t : Tidy s -> Moment s t ->
  (InRange (t + us) -> exists r, timestamp_after_duration us s = Ok r /\ Moment r (t + us)) /\
  (~ InRange (t + us) -> timestamp_after_duration us s = Err ValueError).
Proof.
  intros T M. split; intros R.
  - exists (full (t + us)). split; [apply after_duration_ok; assumption|apply moment_full, R].
  - unfold timestamp_after_duration, check_timestamp. rewrite strip_tidy by exact T. unfold Moment in M. rewrite M. cbn [bind].
    unfold shift. destruct ((0 <=? t + us) && (t + us <? max_moment)) eqn:C; [|reflexivity]. destruct R. unfold InRange. lia.
Qed.
Print Assumptions C46_after_is_exact.
Theorem C46_before_is_exact us s t : Tidy s -> Moment s t ->
  (InRange (t - us) -> exists r, timestamp_before_duration us s = Ok r /\ Moment r (t - us)) /\
  (~ InRange (t - us) -> timestamp_before_duration us s = Err ValueError).
Proof. intros T M. unfold timestamp_before_duration. replace (t - us) with (t + - us) by lia. apply C46_after_is_exact; assumption. Qed.
Print Assumptions C46_before_is_exact.
Theorem C46_before_undoes_after us s r : Canonical s ->
  (timestamp_after_duration us s = Ok r -> timestamp_before_duration us r = Ok s) /\
  (timestamp_before_duration us s = Ok r -> timestamp_after_duration us r = Ok s).
Proof.
  intros C. destruct (canonical_moment s C) as (t & M & R & W & E).
  split; intros A.
  - destruct (after_duration us s t r M A) as [R' ->]. unfold timestamp_before_duration.
    rewrite after_duration_full; [|exact R'|]; replace (t + us + - us) with t by lia; congruence.
  - unfold timestamp_before_duration in A. destruct (after_duration (- us) s t r M A) as [R' ->].
    rewrite after_duration_full; [|exact R'|]; replace (t + - us + us) with t by lia; congruence.
Qed.
Print Assumptions C46_before_undoes_after.
Theorem C46_duration_connects a b : Tidy a -> Canonical b ->
  exists d, duration_between a b = Ok d /\ timestamp_after_duration d a = Ok b /\ duration_between b a = Ok (- d).
Proof.
  intros A B. destruct (tidy_moment a A) as [ta Ma]. destruct (canonical_moment b B) as (tb & Mb & R & W & ->).
  exists (tb - ta). split; [apply duration_between_ok; assumption|]. split.
  - rewrite (after_duration_ok _ a ta A Ma); replace (ta + (tb - ta)) with tb by lia; [reflexivity|assumption].
  - rewrite (duration_between_ok _ _ tb ta) by assumption. f_equal. lia.
Qed.
Print Assumptions C46_duration_connects.

Lemma nth_moment l k : Forall Tidy l -> (k < List.length l)%nat -> exists t, Moment (nth k l []) t.
Proof. intros T H. rewrite Forall_forall in T. apply tidy_moment, T, nth_In, H. Qed.
(** the steps up to an index add up to the time since the start *)
Theorem C46_steps_add_up l (step : Z -> Z) (n : nat) : Forall Tidy l -> (n < List.length l)%nat ->
  (forall i, 1 <= i <= Z.of_nat n -> step_duration l i = Ok (Some (step i))) ->
  duration_since_start l (Z.of_nat n) = Ok (Some (fold_right Z.add 0 (map step (zrange2 1 (Z.of_nat n + 1))))).
Proof.
  intros T. induction n as [|n IH]; intros L H.
  - destruct (nth_moment l 0 T L) as [t M]. unfold duration_since_start, duration_between_timestamps. cbn [Z.of_nat].
    replace (Z.of_nat (List.length l) <=? 0) with false by lia. cbn -[nth duration_between].
    rewrite (duration_between_ok _ _ t t) by assumption. cbn [bind]. do 2 f_equal. lia.
  - specialize (IH ltac:(lia) ltac:(intros; apply H; lia)). specialize (H (Z.of_nat (S n)) ltac:(lia)).
    destruct (nth_moment l 0 T ltac:(lia)) as [t0 M0]. destruct (nth_moment l n T ltac:(lia)) as [t1 M1].
    destruct (nth_moment l (S n) T L) as [t2 M2].
    unfold step_duration, duration_since_start, duration_between_timestamps in *.
    replace (Z.of_nat (S n) - 1) with (Z.of_nat n) in * by lia.
    replace (Z.of_nat (List.length l) <=? Z.of_nat n) with false in * by lia.
    replace (Z.of_nat (List.length l) <=? Z.of_nat (S n)) with false in * by lia.
    replace (Z.of_nat n <? 0) with false in * by lia. replace (Z.of_nat (S n) <? 0) with false in * by lia.
    replace (Z.of_nat (S n) <? 1) with false in * by lia. replace (Z.of_nat (S n) <? Z.of_nat n) with false in * by lia.
    cbn [orb Z.ltb Z.compare] in *. rewrite !Nat2Z.id in *. change (Z.to_nat 0) with 0%nat in *.
    rewrite (duration_between_ok _ _ t0 t1) in IH by assumption.
    rewrite (duration_between_ok _ _ t1 t2) in H by assumption.
    rewrite (duration_between_ok _ _ t0 t2) by assumption. cbn [bind] in *.
    rewrite zrange2_snoc, map_app by lia. cbn [map]. rewrite fold_add_app.
    apply (f_equal (fun r => match r with Ok (Some a) => a | _ => 0 end)) in IH, H. cbv beta iota in IH, H.
    replace (Z.of_nat n + 1) with (Z.of_nat (S n)) in IH by lia. do 2 f_equal. lia.
Qed.
Print Assumptions C46_steps_add_up.
Theorem C46_durations_not_negative l i j d : Forall Tidy l -> Ordered NotAfter l ->
  duration_between_timestamps l i j = Ok (Some d) -> 0 <= d.
Proof.
  intros T O. unfold duration_between_timestamps.
  destruct ((i <? 0) || (Z.of_nat (List.length l) <=? j) || (j <? i)) eqn:C; [discriminate|].
  apply orb_false_iff in C as [C C3]. apply orb_false_iff in C as [C1 C2].
  destruct (nth_moment l (Z.to_nat i) T ltac:(lia)) as [a A]. destruct (nth_moment l (Z.to_nat j) T ltac:(lia)) as [b B].
  rewrite (duration_between_ok _ _ a b) by assumption. cbn [bind]. intros E. assert (d = b - a) as -> by congruence.
  destruct (Z.eq_dec i j) as [->|N]; [rewrite (moment_fun _ _ _ A B); lia|].
  destruct (O (Z.to_nat i) (Z.to_nat j) (nth (Z.to_nat i) l []) (nth (Z.to_nat j) l [])) as (x & y & X & Y & H);
    [lia|apply nth_error_nth'; lia|apply nth_error_nth'; lia|].
  rewrite (moment_fun _ _ _ A X), (moment_fun _ _ _ B Y). lia.
Qed.
Print Assumptions C46_durations_not_negative.
(** the constructor's daily, monthly (30 days), quarterly (90 days) and yearly (365 days) steps *)
Fixpoint walk (t : moment) (days : list Z) : list moment :=
  match days with [] => [t] | d :: ds => t :: walk (t + d * day_us) ds end.
Lemma walk_snoc t ds d : walk t (ds ++ [d]) = walk t ds ++ [t + fold_right Z.add 0 ds * day_us + d * day_us].
Proof.
  revert t; induction ds as [|e ds IH]; intros t; cbn [walk app fold_right]; [do 2 f_equal; lia|]. rewrite IH. cbn. do 3 f_equal. lia.
Qed.
Lemma walk_last t ds : exists p, walk t ds = p ++ [t + fold_right Z.add 0 ds * day_us].
Proof.
  revert t; induction ds as [|e ds IH]; intros t; cbn [walk fold_right]; [exists []; cbn; f_equal; lia|].
  destruct (IH (t + e * day_us)) as [p E]. exists (t :: p). rewrite E. cbn. do 3 f_equal. lia.
Qed.
Lemma forall2_snoc {A B} (P : A -> B -> Prop) l x m : Forall2 P (l ++ [x]) m -> exists m' y, m = m' ++ [y] /\ Forall2 P l m' /\ P x y.
Proof.
  intros F. apply Forall2_app_inv_l in F as (m' & r & F1 & F2 & ->). inversion F2 as [|? y ? ? Q F3]; subst. inversion F3; subst. eauto.
Qed.
Lemma extend_walk n d l l' t ds : Forall Tidy l -> Forall2 Moment l (walk t ds) -> extend_n n d l = Ok l' ->
  Forall Tidy l' /\ Forall2 Moment l' (walk t (ds ++ repeat d n)).
Proof.
  revert l ds. induction n as [|n IH]; intros l ds T F; cbn [extend_n repeat].
  - intros [= <-]. rewrite app_nil_r. auto.
  - destruct (extend_by_days l d) as [m|] eqn:E; cbn [bind]; [|discriminate]. intros E'.
    unfold extend_by_days in E. destruct (extend_by_duration_spec l _ m T (days_whole d) E) as (_ & x & u & La & M & -> & C & R).
    replace (ds ++ d :: repeat d n) with ((ds ++ [d]) ++ repeat d n) by (rewrite <- app_assoc; reflexivity).
    apply (IH (l ++ [full (u + duration_of d 0 0 0)])); [|rewrite walk_snoc|exact E'].
    + apply Forall_app. split; [assumption|]. constructor; [left; exact C|constructor].
    + apply Forall2_app; [exact F|]. constructor; [|constructor]. apply last_timestamp_some in La as [p ->].
      destruct (walk_last t ds) as [q Eq]. rewrite Eq in F. apply forall2_snoc in F as (m' & y & Em & _ & My).
      apply app_inj_tail in Em as [_ <-]. rewrite <- (moment_fun _ _ _ M My).
      replace (u + d * day_us) with (u + duration_of d 0 0 0) by (unfold duration_of; lia). apply moment_full, R.
Qed.
Theorem C46_constructor_steps first t daily monthly quarterly yearly l : Tidy first -> Moment first t ->
  new_series first daily monthly quarterly yearly = Ok l ->
  Forall2 Moment l (walk t (repeat 1 daily ++ repeat 30 monthly ++ repeat 90 quarterly ++ repeat 365 yearly)).
Proof.
  intros T M. unfold new_series. rewrite (tidy_check first T). cbn [bind].
  destruct (extend_n daily 1 [first]) as [l1|] eqn:E1; cbn [bind]; [|discriminate].
  destruct (extend_n monthly 30 l1) as [l2|] eqn:E2; cbn [bind]; [|discriminate].
  destruct (extend_n quarterly 90 l2) as [l3|] eqn:E3; cbn [bind]; [|discriminate]. intros E4.
  apply (extend_walk _ _ _ _ t []) in E1 as [T1 E1]; [|constructor; [assumption|constructor]|constructor; [assumption|constructor]].
  apply (extend_walk _ _ _ _ t _) with (2 := E1) in E2 as [T2 E2]; [|assumption].
  apply (extend_walk _ _ _ _ t _) with (2 := E2) in E3 as [T3 E3]; [|assumption].
  apply (extend_walk _ _ _ _ t _) with (2 := E3) in E4 as [T4 E4]; [|assumption].
  cbn [app] in E4. rewrite <- !app_assoc in E4. exact E4.
Qed.
Print Assumptions C46_constructor_steps.
Example C46_example : timestamp_after_duration (duration_of 366 1 0 1) d1 = Ok (L "2021-03-01T01:00:00Z") /\
  step_duration [d1; d2] 1 = Ok (Some (86401 * 1000000)) /\ days_between_timestamps [d1; d2] 0 1 = Ok (Some 1).
Proof. vm_compute. auto. Qed.

(** * C47: series from lists *)
Lemma firstn_iso_date n r : firstn 10 (iso_date n ++ r) = iso_date n.
Proof. apply firstn_app_exact. symmetry. apply length_iso_date. Qed.
Lemma skipn_iso_date n c r : skipn 11 (iso_date n ++ c :: r) = r.
Proof.
  change (c :: r) with ([c] ++ r). rewrite app_assoc. apply skipn_app_exact. rewrite app_length, length_iso_date. reflexivity.
Qed.
Lemma firstn_iso_time u r : firstn 8 (iso_time u ++ r) = iso_time (u - u mod 1000000).
Proof.
  unfold iso_time. replace ((u - u mod 1000000) mod 1000000) with 0 by (Z.to_euclidean_division_equations; lia).
  replace ((u - u mod 1000000) / 1000000) with (u / 1000000) by (Z.to_euclidean_division_equations; lia).
  set (x := if u mod 1000000 =? 0 then _ else _). cbn [Z.eqb]. rewrite app_nil_r, <- !app_assoc.
  set (a := u / 1000000). clearbody a x.
  replace (dec 2 (a / 3600) ++ L ":" ++ dec 2 (a / 60 mod 60) ++ L ":" ++ dec 2 (a mod 60) ++ x ++ r)
    with ((dec 2 (a / 3600) ++ L ":" ++ dec 2 (a / 60 mod 60) ++ L ":" ++ dec 2 (a mod 60)) ++ x ++ r) by (rewrite <- !app_assoc; reflexivity).
  apply firstn_app_exact. rewrite !app_length, !length_dec. reflexivity.
Qed.
Lemma iso_time_inj u v : 0 <= u < day_us -> 0 <= v < day_us -> iso_time u = iso_time v -> u = v.
Proof. intros U V E. pose proof (parse_iso_time u U) as A. pose proof (parse_iso_time v V). rewrite E in A. congruence. Qed.
(** the whole second in which a moment lies *)
Definition second_of (t : moment) : moment := t - t mod 1000000.
Definition tidy_text (t : moment) : str := if t mod day_us =? 0 then iso_date (t / day_us) else full t.
Lemma second_day n u : 0 <= u < day_us -> second_of (n * day_us + u) = n * day_us + (u - u mod 1000000) /\ 0 <= u - u mod 1000000 < day_us.
Proof. unfold second_of, day_us. intros H. Z.to_euclidean_division_equations; lia. Qed.
Lemma cleaned_time n u c z : 0 <= u < day_us -> check_timestamp (iso_date n ++ c :: iso_time u ++ z) = Ok tt ->
  cleaned_timestamp (iso_date n ++ c :: iso_time u ++ z) = Ok (tidy_text (second_of (n * day_us + u))).
Proof.
  intros U C. unfold cleaned_timestamp. rewrite C. cbn [bind].
  assert (19 <= List.length (iso_date n ++ c :: iso_time u ++ z))%nat as Ln.
  { rewrite app_length, length_iso_date. cbn [List.length]. rewrite app_length, length_iso_time. destruct (_ =? _); lia. }
  replace (_ <? 19)%nat with false by (symmetry; apply Nat.ltb_ge; exact Ln). cbn [orb].
  rewrite skipn_iso_date, firstn_iso_time, firstn_iso_date. destruct (second_day n u U) as [-> V].
  unfold tidy_text. destruct (day_div n _ V) as [D1 D2]. rewrite D1, D2.
  destruct (str_eqb_spec (iso_time (u - u mod 1000000)) (L "00:00:00")) as [E|E].
  - assert (u - u mod 1000000 = 0) as ->; [|reflexivity].
    apply iso_time_inj; [exact V|unfold day_us; lia|]. rewrite E. reflexivity.
  - destruct (Z.eqb_spec (u - u mod 1000000) 0) as [E0|E0]; [rewrite E0 in E; destruct E; reflexivity|].
    unfold full, isoformat. rewrite D1, D2. rewrite <- !app_assoc. reflexivity.
Qed.
Lemma tidy_text_ok t : InRange t -> WholeSecond t -> Tidy (tidy_text t) /\ Moment (tidy_text t) t.
Proof.
  intros R W. unfold tidy_text. destruct (Z.eqb_spec (t mod day_us) 0) as [E|E].
  - pose proof (day_range t R) as D. split; [right; apply date_only_form; eauto|].
    replace t with (t / day_us * day_us) at 2 by (pose proof (day_split t); lia). apply moment_date, D.
  - split; [left; apply canonical_of_full; assumption|apply moment_full, R].
Qed.
Lemma second_in_range t : InRange t -> InRange (second_of t) /\ WholeSecond (second_of t).
Proof. unfold InRange, second_of, WholeSecond. intros H. Z.to_euclidean_division_equations; lia. Qed.
Lemma second_whole t : WholeSecond t -> second_of t = t.
Proof. unfold WholeSecond, second_of. intros ->. lia. Qed.
Lemma cleaned_full t : InRange t -> cleaned_timestamp (full t) = Ok (tidy_text (second_of t)).
Proof.
  intros R. pose proof (moment_check _ _ (moment_full t R)) as C. pose proof (day_split t) as [E B].
  replace (full t) with (iso_date (t / day_us) ++ "T"%char :: iso_time (t mod day_us) ++ L "Z") in *
    by (unfold full, isoformat; rewrite <- !app_assoc; reflexivity).
  rewrite cleaned_time by assumption. rewrite <- E. reflexivity.
Qed.
Lemma cleaned_tidy s t : Tidy s -> Moment s t -> cleaned_timestamp s = Ok (tidy_text t).
Proof.
  intros T M. destruct (tidy_form s T) as (t' & M' & R & W & F). rewrite <- (moment_fun _ _ _ M M') in *. clear M' t'.
  destruct F as [->|[-> D]].
  - rewrite cleaned_full, second_whole by assumption. reflexivity.
  - unfold cleaned_timestamp. rewrite (moment_check _ _ M). cbn [bind]. rewrite length_iso_date. cbn [Nat.ltb Nat.leb orb].
    rewrite <- (app_nil_r (iso_date (t / day_us))) at 1. rewrite firstn_iso_date. unfold tidy_text, whole_day in *. rewrite D. reflexivity.
Qed.

(** cleaning keeps the moment of a stamp in whole seconds, drops a fraction, and is idempotent *)
Theorem C47_cleaned_keeps_moment s t : Tidy s -> Moment s t ->
  exists r, cleaned_timestamp s = Ok r /\ Tidy r /\ Moment r t /\ cleaned_timestamp r = Ok r.
Proof.
  intros T M. exists (tidy_text t). destruct (tidy_form s T) as (t' & M' & R & W & _). rewrite <- (moment_fun _ _ _ M M') in *.
  destruct (tidy_text_ok t R W) as [A B]. split; [apply cleaned_tidy; assumption|]. split; [exact A|]. split; [exact B|].
  apply cleaned_tidy; assumption.
Qed.
Print Assumptions C47_cleaned_keeps_moment.
Theorem C47_cleaned_drops_fraction t : InRange t ->
  exists r, cleaned_timestamp (isoformat t ++ L "Z") = Ok r /\ Tidy r /\ Moment r (t - t mod 1000000).
Proof.
  intros R. exists (tidy_text (second_of t)). destruct (second_in_range t R) as [R' W].
  split; [apply cleaned_full, R|]. apply tidy_text_ok; assumption.
Qed.
Print Assumptions C47_cleaned_drops_fraction.

Lemma tidy_moment_fun s : Tidy s -> exists t, Moment s t /\ InRange t /\ WholeSecond t.
Proof. intros T. destruct (tidy_form s T) as (t & M & R & W & _). eauto. Qed.
Lemma append_tidy l s : Forall Tidy l -> Tidy s -> (forall x, In x l -> Before x s) -> add_timestamp l s false = Ok (l ++ [s]).
Proof.
  intros T Ts H. unfold add_timestamp. rewrite (tidy_check s Ts). cbn [bind].
  destruct (last_timestamp l) as [x|] eqn:E; [|reflexivity].
  pose proof (last_tidy l x T E) as Tx. destruct (last_timestamp_some l x E) as [p ->].
  destruct (H x) as (tx & ts & Mx & Ms & Lt); [apply in_or_app; cbn; auto|].
  rewrite (tidy_lt x s tx ts) by assumption. reflexivity.
Qed.
Lemma add_cleaned_ok raws : forall l ts, Forall Tidy l -> StronglySorted Before (l ++ map tidy_text ts) ->
  Forall InRange ts -> Forall WholeSecond ts -> Forall2 (fun r t => cleaned_timestamp r = Ok (tidy_text t)) raws ts ->
  add_cleaned l raws = Ok (l ++ map tidy_text ts).
Proof.
  induction raws as [|r raws IH]; intros l ts T S R W F; inversion F as [|? t ? ts' C F']; subst; cbn [add_cleaned map].
  - rewrite app_nil_r. reflexivity.
  - inversion R; inversion W; subst. rewrite C. cbn [bind]. cbn [map] in S.
    destruct (tidy_text_ok t) as [Tt _]; [assumption..|].
    rewrite append_tidy; [|assumption|assumption|].
    + cbn [bind]. rewrite (IH (l ++ [tidy_text t]) ts').
      * rewrite <- app_assoc. reflexivity.
      * apply Forall_app. split; [assumption|]. constructor; [assumption|constructor].
      * rewrite <- app_assoc. exact S.
      * assumption.
      * assumption.
      * assumption.
    + intros x Hx. apply ss_app in S as (_ & _ & Q). rewrite Forall_forall in Q. specialize (Q x Hx). inversion Q; assumption.
Qed.
Lemma sorted_before ts : StronglySorted Z.lt ts -> Forall InRange ts -> Forall WholeSecond ts -> StronglySorted Before (map tidy_text ts).
Proof.
  induction 1 as [|t ts S IH F]; intros R W; cbn [map]; constructor; inversion R; inversion W; subst; [auto|].
  apply Forall_forall. intros x Hx. apply in_map_iff in Hx as (u & <- & Hu). rewrite Forall_forall in *.
  exists t, u. repeat split; [apply tidy_text_ok; auto|apply tidy_text_ok; auto|]. apply F, Hu.
Qed.
Lemma texts_ok ts : Forall InRange ts -> Forall WholeSecond ts -> Forall Tidy (map tidy_text ts).
Proof.
  intros R W. apply Forall_forall. intros x Hx. apply in_map_iff in Hx as (u & <- & Hu). rewrite Forall_forall in *. apply tidy_text_ok; auto.
Qed.
Lemma sorted_lt ts : StronglySorted (leP Z.leb) ts -> NoDup ts -> StronglySorted Z.lt ts.
Proof.
  induction 1 as [|t ts S IH F]; intros N; [constructor|]. inversion N; subst. constructor; [auto|].
  rewrite Forall_forall in *. intros u Hu. specialize (F u Hu). unfold leP in F. apply Z.leb_le in F.
  assert (t <> u) by congruence. lia.
Qed.
(** adding cleaned texts of an increasing list of moments *)
Lemma build_ok r raws t ts : StronglySorted Z.lt (t :: ts) -> Forall InRange (t :: ts) -> Forall WholeSecond (t :: ts) ->
  Forall2 (fun r t => cleaned_timestamp r = Ok (tidy_text t)) (r :: raws) (t :: ts) ->
  (do s <- cleaned_timestamp r; do l <- new_series s 0 0 0 0; add_cleaned l raws) = Ok (map tidy_text (t :: ts)).
Proof.
  intros S R W F. inversion F as [|? ? ? ? C F']; subst. rewrite C. cbn [bind]. inversion R; inversion W; subst.
  destruct (tidy_text_ok t) as [Tt Mt]; [assumption..|]. unfold new_series. rewrite (tidy_check _ Tt). cbn [bind extend_n].
  apply (add_cleaned_ok raws [tidy_text t] ts); try assumption.
  - constructor; [assumption|constructor].
  - apply (sorted_before (t :: ts)); assumption.
Qed.

(** the moments of a list of stamps *)
Definition Has (l : series) (t : moment) : Prop := exists s, In s l /\ Moment s t.
Lemma has_texts ts t : Forall InRange ts -> Forall WholeSecond ts -> (Has (map tidy_text ts) t <-> In t ts).
Proof.
  intros R W. rewrite Forall_forall in *. split.
  - intros (s & Hs & M). apply in_map_iff in Hs as (u & <- & Hu). destruct (tidy_text_ok u) as [_ M']; auto.
    rewrite (moment_fun _ _ _ M M'). exact Hu.
  - intros H. exists (tidy_text t). split; [apply in_map, H|apply tidy_text_ok; auto].
Qed.
Lemma tidy_moments l : Forall Tidy l -> exists ts, Forall2 Moment l ts /\ Forall InRange ts /\ Forall WholeSecond ts.
Proof.
  induction 1 as [|s l T _ (ts & F & R & W)]; [exists []; repeat constructor|].
  destruct (tidy_moment_fun s T) as (t & M & R' & W'). exists (t :: ts). repeat split; constructor; assumption.
Qed.
Lemma forall2_in_r {A B} (P : A -> B -> Prop) l m y : Forall2 P l m -> In y m -> exists x, In x l /\ P x y.
Proof. induction 1 as [|a b l m H _ IH]; intros []; [subst; exists a; cbn; auto|]. destruct IH as (x & ? & ?); [assumption|]. exists x; cbn; auto. Qed.
Lemma forall2_in_l {A B} (P : A -> B -> Prop) l m x : Forall2 P l m -> In x l -> exists y, In y m /\ P x y.
Proof. induction 1 as [|a b l m H _ IH]; intros []; [subst; exists b; cbn; auto|]. destruct IH as (y & ? & ?); [assumption|]. exists y; cbn; auto. Qed.
Lemma has_forall2 l ts t : Forall2 Moment l ts -> (Has l t <-> In t ts).
Proof.
  intros F. split.
  - intros (s & Hs & M). destruct (forall2_in_l _ _ _ _ F Hs) as (u & Hu & M'). rewrite (moment_fun _ _ _ M M'). exact Hu.
  - intros H. destruct (forall2_in_r _ _ _ _ F H) as (s & Hs & M). exists s. auto.
Qed.
Lemma str_sorted_times l ts : Forall Tidy l -> Forall2 Moment l ts -> StronglySorted (leP str_le) l -> StronglySorted (leP Z.leb) ts.
Proof.
  intros T F. revert T. induction F as [|s t l ts M F IH]; intros T S; [constructor|].
  inversion T; subst. apply StronglySorted_inv in S as [S Q]. constructor; [auto|].
  apply Forall_forall. intros u Hu. destruct (forall2_in_r _ _ _ _ F Hu) as (x & Hx & Mx). unfold leP. apply Z.leb_le.
  rewrite Forall_forall in *. apply (tidy_le s x); auto. apply Q, Hx.
Qed.

(** Distinct stamps given in any order become one series of just those moments in order. *)
Theorem C47_series_from_list raws : raws <> [] -> Forall Tidy raws ->
  (forall i j a b t, nth_error raws i = Some a -> nth_error raws j = Some b -> Moment a t -> Moment b t -> i = j) ->
  exists l, time_series_from_list raws = Ok l /\ Forall Tidy l /\ Ordered Before l /\
            (forall t, Has l t <-> Has raws t) /\ List.length l = List.length raws.
Proof.
  intros Ne T D. set (sorted := isort str_le raws). pose proof (isort_perm str_le raws) as P. fold sorted in P.
  assert (Forall Tidy sorted) as Ts by (rewrite Forall_forall in *; intros x Hx; apply T; eapply Permutation_in; [apply Permutation_sym, P|exact Hx]).
  destruct (tidy_moments sorted Ts) as (ts & F & R & W).
  pose proof (str_sorted_times sorted ts Ts F (isort_sorted str_le raws str_le_order)) as S.
  assert (NoDup ts) as N.
  { destruct (tidy_moments raws T) as (us & F' & _ & _).
    assert (NoDup us) as Nu.
    { apply NoDup_nth_error. intros i j Hi E. destruct (nth_error us i) as [t|] eqn:Ei; [|apply nth_error_None in Ei; lia].
      symmetry in E. assert (forall k t, nth_error us k = Some t -> exists s, nth_error raws k = Some s /\ Moment s t) as G.
      { clear - F'. induction F' as [|s t l ts M F IH]; intros [|k] u H; try discriminate; cbn in *; [injection H as <-; eauto|auto]. }
      destruct (G i t Ei) as (a & A & Ma). destruct (G j t E) as (b & B & Mb). apply (D i j a b t); assumption. }
    assert (Permutation us ts) as Pt; [|eapply Permutation_NoDup; eassumption].
    clear - P F F'. revert us F' ts F. induction P as [|x l l' P IH|x y l|l l' l'' P1 IH1 P2 IH2]; intros us F' ts F.
    - inversion F'; inversion F; subst. constructor.
    - inversion F' as [|? t1 ? us1 M1]; inversion F as [|? t2 ? ts2 M2]; subst. rewrite (moment_fun _ _ _ M1 M2). constructor. auto.
    - inversion F' as [|? t1 ? us1 M1 F1]; subst. inversion F1 as [|? t2 ? us2 M2 F2]; subst.
      inversion F as [|? t3 ? us3 M3 F3]; subst. inversion F3 as [|? t4 ? us4 M4 F4]; subst.
      rewrite (moment_fun _ _ _ M1 M4), (moment_fun _ _ _ M2 M3).
      assert (us2 = us4) as ->; [|apply perm_swap].
      clear - F2 F4. revert us4 F4. induction F2 as [|s t l ts M F IH]; intros vs G; inversion G; subst; [reflexivity|].
      f_equal; [eapply moment_fun; eassumption|auto].
    - assert (exists vs, Forall2 Moment l' vs) as [vs G].
      { clear - P1 F'. assert (forall s, In s l' -> exists t, Moment s t) as H.
        { intros s Hs. apply (Permutation_in s (Permutation_sym P1)) in Hs. destruct (forall2_in_l _ _ _ _ F' Hs) as (t & _ & M). eauto. }
        clear P1. induction l' as [|s l' IH]; [exists []; constructor|].
        destruct (H s) as [t M]; [cbn; auto|]. destruct IH as [vs G]; [intros; apply H; cbn; auto|]. exists (t :: vs). constructor; assumption. }
      eapply Permutation_trans; [apply IH1; eassumption|apply IH2; eassumption]. }
  exists (map tidy_text ts). split; [|split; [apply texts_ok; assumption|split; [|split]]].
  - unfold time_series_from_list. fold sorted. clearbody sorted.
    assert (Forall2 (fun r t => cleaned_timestamp r = Ok (tidy_text t)) sorted ts) as FC.
    { clear - F Ts. revert Ts. induction F; intros Ts; inversion Ts; subst; constructor; [apply cleaned_tidy; assumption|auto]. }
    destruct sorted as [|r rs]; [apply Permutation_sym, Permutation_nil in P; congruence|].
    inversion F as [|? t ? ts' M F']; subst. apply build_ok; try assumption. apply sorted_lt; assumption.
  - apply ordered_ss. apply sorted_before; [|assumption|assumption]. apply sorted_lt; assumption.
  - intros t. rewrite has_texts by assumption. rewrite <- (has_forall2 sorted ts t F). unfold Has. split; intros (s & Hs & M); exists s; (split; [|exact M]).
    + eapply Permutation_in; [apply Permutation_sym, P|exact Hs].
    + eapply Permutation_in; [exact P|exact Hs].
  - rewrite map_length. rewrite (Permutation_length P). clear - F. induction F; cbn; auto.
Qed.
Print Assumptions C47_series_from_list.
(** two different moments within the same second: the list is refused *)
Theorem C47_same_second_refuted : exists raws t1 t2, Forall2 Moment raws [t1; t2] /\ t1 < t2 /\ time_series_from_list raws = Err AssertionError.
Proof.
  exists [L "2020-01-01T00:00:01.250Z"; L "2020-01-01T00:00:01.750Z"], (737424 * day_us + 1250000), (737424 * day_us + 1750000).
  split; [repeat constructor; vm_compute; reflexivity|]. split; [vm_compute; reflexivity|vm_compute; reflexivity].
Qed.
Print Assumptions C47_same_second_refuted.

(** merging series *)
Lemma lstrip_stop p c s : p c = false -> lstrip p (c :: s) = c :: s.
Proof. intros H. cbn. rewrite H. reflexivity. Qed.
Lemma rstrip_last p s c : p (last s c) = false -> s <> [] -> rstrip p s = s.
Proof.
  intros H Ne. destruct s as [|x s _] using rev_ind; [congruence|]. rewrite last_last in H. unfold rstrip. rewrite rev_app_distr. cbn [rev app].
  rewrite lstrip_stop by exact H. cbn [rev]. rewrite rev_involutive. reflexivity.
Qed.
Lemma rstrip_snoc p s c : p c = true -> rstrip p (s ++ [c]) = rstrip p s.
Proof. intros H. unfold rstrip. rewrite rev_app_distr. cbn [rev app lstrip]. rewrite H. reflexivity. Qed.
Lemma not_Z_test c : c <> "Z"%char -> chr_eqb c "Z"%char = false.
Proof. intros H. destruct (chr_eqb_spec c "Z"%char); congruence. Qed.
Lemma last_isoformat t c : last (isoformat t) c <> "Z"%char.
Proof.
  unfold isoformat. rewrite last_iso_date. cbn [app L list_ascii_of_string].
  pose proof (last_iso_time (t mod day_us) c) as H. pose proof (length_iso_time (t mod day_us)) as E.
  destruct (iso_time (t mod day_us)) as [|x r]; [destruct (_ =? _); discriminate E|]. exact H.
Qed.
Lemma iso_date_last n c : 0 <= n < year_start 10000 -> last (iso_date n) c <> "Z"%char.
Proof.
  intros H. unfold iso_date. pose proof (date_of_spec n H) as A.
  destruct (date_of n) as [[y m] d]. destruct A as [(Dy & Dm & Dd) E].
  change (dec 2 d) with (dec 1 (d / 10) ++ [dec_digit (d mod 10)]). rewrite !app_assoc, last_last.
  apply dec_digit_not_Z. pose proof (Z.mod_pos_bound d 10). lia.
Qed.
Lemma datetimes_ok l ts : Forall Tidy l -> Forall2 Moment l ts -> datetimes l = Ok ts.
Proof.
  intros T F. revert T. induction F as [|s t l ts M F IH]; intros T; [reflexivity|]. inversion T as [|? ? Ts Tl]; subst. cbn [datetimes].
  assert (rstrip (fun c => chr_eqb c "Z"%char) s = strip_z s) as ->.
  { destruct (tidy_form s Ts) as (t' & M' & R & W & [->|[-> D]]).
    - unfold full. rewrite strip_z_app. change (L "Z") with ["Z"%char]. rewrite rstrip_snoc by reflexivity.
      apply rstrip_last with (c := "a"%char); [apply not_Z_test, last_isoformat|].
      intros E. apply (f_equal (@List.length ascii)) in E. unfold isoformat in E. rewrite app_length, length_iso_date in E. discriminate.
    - pose proof (day_range t' R). rewrite strip_iso_date by assumption.
      apply rstrip_last with (c := "a"%char); [apply not_Z_test, iso_date_last; assumption|].
      intros E. apply (f_equal (@List.length ascii)) in E. rewrite length_iso_date in E. discriminate. }
  unfold Moment in M. rewrite M. rewrite IH by assumption. reflexivity.
Qed.
Lemma cleaned_datetime t : InRange t -> cleaned_timestamp (str_of_datetime t) = Ok (tidy_text (second_of t)).
Proof.
  intros R. pose proof (day_split t) as [E B]. pose proof (day_range t R) as D.
  assert (fromisoformat (str_of_datetime t) = Some t) as M.
  { unfold str_of_datetime. rewrite from_iso_date by exact D. cbn [app L list_ascii_of_string]. rewrite parse_iso_time by exact B. rewrite <- E. reflexivity. }
  assert (strip_z (str_of_datetime t) = str_of_datetime t) as Sz.
  { apply strip_z_id with (c := "a"%char). unfold str_of_datetime. rewrite last_iso_date. cbn [app L list_ascii_of_string].
    pose proof (last_iso_time (t mod day_us) "a"%char) as H. pose proof (length_iso_time (t mod day_us)) as En.
    destruct (iso_time (t mod day_us)) as [|x r]; [destruct (_ =? _); discriminate En|]. exact H. }
  assert (check_timestamp (str_of_datetime t) = Ok tt) as C by (unfold check_timestamp; rewrite Sz, M; reflexivity).
  replace (str_of_datetime t) with (iso_date (t / day_us) ++ " "%char :: iso_time (t mod day_us) ++ []) in *
    by (unfold str_of_datetime; rewrite app_nil_r; reflexivity).
  rewrite cleaned_time by assumption. rewrite <- E. reflexivity.
Qed.
Lemma all_datetimes_ok ls : Forall (Forall Tidy) ls -> exists ts, all_datetimes ls = Ok ts /\ Forall InRange ts /\ Forall WholeSecond ts /\
  forall t, In t ts <-> exists l, In l ls /\ Has l t.
Proof.
  induction 1 as [|l ls T _ (ts & E & R & W & H)]; [exists []; repeat split; try constructor; [intros []|intros (l & [] & _)]|].
  destruct (tidy_moments l T) as (us & F & R' & W'). exists (us ++ ts). cbn [all_datetimes]. rewrite (datetimes_ok l us T F), E. cbn [bind].
  split; [reflexivity|]. split; [apply Forall_app; auto|]. split; [apply Forall_app; auto|].
  intros t. rewrite in_app_iff, H. rewrite <- (has_forall2 l us t F). split.
  - intros [A|(m & A & B)]; [exists l|exists m]; cbn; auto.
  - intros (m & [<-|A] & B); [auto|right; eauto].
Qed.
(** Merging gives one strictly ordered series with exactly the moments of the given series. *)
Theorem C47_merge_is_union ls : Forall (Forall Tidy) ls -> (exists l, In l ls /\ l <> []) ->
  exists l, merge_timeseries ls = Ok l /\ Forall Tidy l /\ Ordered Before l /\ forall t, Has l t <-> exists m, In m ls /\ Has m t.
Proof.
  intros T (m & Hm & Nm). destruct (all_datetimes_ok ls T) as (ts & E & R & W & H). unfold merge_timeseries. rewrite E. cbn [bind].
  set (us := isort Z.leb (nodup Z.eq_dec ts)). pose proof (isort_perm Z.leb (nodup Z.eq_dec ts)) as P. fold us in P.
  assert (forall t, In t us <-> In t ts) as Q.
  { intros t. rewrite <- (nodup_In Z.eq_dec ts t). split; apply Permutation_in; [apply Permutation_sym|]; exact P. }
  assert (StronglySorted Z.lt us) as S.
  { apply sorted_lt; [apply isort_sorted, zle_order|]. eapply Permutation_NoDup; [exact P|apply NoDup_nodup]. }
  assert (Forall InRange us) as Ru by (rewrite Forall_forall in *; intros t Ht; apply R, Q, Ht).
  assert (Forall WholeSecond us) as Wu by (rewrite Forall_forall in *; intros t Ht; apply W, Q, Ht).
  clearbody us. exists (map tidy_text us). split; [|split; [apply texts_ok; assumption|split]].
  - destruct us as [|t r].
    + exfalso. destruct m as [|s m]; [congruence|]. rewrite Forall_forall in T. specialize (T _ Hm). inversion T as [|? ? Ts _]; subst.
      destruct (tidy_moment s Ts) as [t M]. assert (In t ts) as I by (apply H; exists (s :: m); split; [exact Hm|exists s; cbn; auto]).
      apply Q in I. destruct I.
    + apply (build_ok (str_of_datetime t) (map str_of_datetime r) t r); try assumption.
      clear - Ru Wu. revert Wu. change (str_of_datetime t :: map str_of_datetime r) with (map str_of_datetime (t :: r)).
      induction Ru as [|u l Ru _ IH]; intros Wu; inversion Wu; subst; cbn [map]; constructor; [|auto].
      rewrite cleaned_datetime, second_whole by assumption. reflexivity.
  - apply ordered_ss. apply sorted_before; assumption.
  - intros t. rewrite has_texts by assumption. rewrite Q. apply H.
Qed.
Print Assumptions C47_merge_is_union.
Example C47_example : merge_timeseries [[e0; d2]; [d1; L "2020-03-01"]] = Ok [L "2020-01-01"; d1; L "2020-03-01"] /\
  time_series_from_list [d2; L "2020-01-01"; d1] = Ok [L "2020-01-01"; d1; L "2020-03-01"].
Proof. vm_compute. auto. Qed.

(** selecting from a series *)
Lemma pick_spec {A} (l : list A) is_ xs : pick l is_ = Ok xs -> Forall2 (fun i x => py_index l i = Ok x) is_ xs.
Proof.
  revert xs. induction is_ as [|i r IH]; intros xs; cbn [pick]; [intros [= <-]; constructor|].
  destruct (py_index l i) as [x|] eqn:E; cbn [bind]; [|discriminate]. destruct (pick l r) as [ys|]; cbn [bind]; [|discriminate].
  intros [= <-]. constructor; auto.
Qed.
Lemma py_index_nat {A} (l : list A) i x : 0 <= i -> py_index l i = Ok x -> nth_error l (Z.to_nat i) = Some x.
Proof.
  intros P. unfold py_index. destruct (_ && _); [|discriminate]. replace (i <? 0) with false by lia.
  destruct (nth_error l (Z.to_nat i)); [congruence|discriminate].
Qed.
Theorem C47_selection l indices l' (R : str -> str -> Prop) : Ordered R l -> NoDup indices -> Forall (fun i => 0 <= i) indices ->
  selected_time_series l indices = Ok l' ->
  Ordered R l' /\ List.length l' = List.length indices /\
  (forall s, In s l' <-> exists i, In i indices /\ nth_error l (Z.to_nat i) = Some s).
Proof.
  intros O N P E. unfold selected_time_series in E. apply pick_spec in E. pose proof (isort_perm Z.leb indices) as Pm.
  pose proof (sorted_lt _ (isort_sorted Z.leb indices zle_order) (Permutation_NoDup Pm N)) as S.
  assert (Forall (fun i => 0 <= i) (isort Z.leb indices)) as P'.
  { rewrite Forall_forall in *. intros i Hi. apply P. eapply Permutation_in; [apply Permutation_sym, Pm|exact Hi]. }
  split; [|split].
  - apply ordered_ss. clear - O E S P'. revert P' S. induction E as [|i x is_ xs Q F IH]; intros P S; constructor; inversion P; subst.
    + apply IH; [assumption|]. apply StronglySorted_inv in S. apply S.
    + apply Forall_forall. intros y Hy. destruct (forall2_in_r _ _ _ _ F Hy) as (j & Hj & Qj).
      apply StronglySorted_inv in S as [_ S]. rewrite Forall_forall in *. pose proof (S j Hj).
      apply (O (Z.to_nat i) (Z.to_nat j)); [lia|apply py_index_nat; assumption|apply py_index_nat; [lia|assumption]].
  - rewrite (Permutation_length Pm). clear - E. induction E; cbn; auto.
  - intros s. split.
    + intros Hs. destruct (forall2_in_r _ _ _ _ E Hs) as (i & Hi & Q). rewrite Forall_forall in P'. exists i.
      split; [eapply Permutation_in; [apply Permutation_sym, Pm|exact Hi]|apply py_index_nat; auto].
    + intros (i & Hi & Q). assert (In i (isort Z.leb indices)) as Hi' by (eapply Permutation_in; eassumption).
      destruct (forall2_in_l _ _ _ _ E Hi') as (y & Hy & Qy). rewrite Forall_forall in P'.
      apply py_index_nat in Qy; [|auto]. congruence.
Qed.
Print Assumptions C47_selection.
(** a negative index sorts before the others, so the last stamp is put first *)
Theorem C47_negative_selection_refuted : exists l indices l', Ordered Before l /\ selected_time_series l indices = Ok l' /\ ~ Ordered NotAfter l'.
Proof.
  exists [d1; d2], [0; -1], [d2; d1]. split; [|split].
  - apply ordered_ss. constructor; [constructor; constructor|]. constructor; [|constructor].
    apply before_text; [exact c_d1|exact c_d2|vm_compute; reflexivity].
  - vm_compute. reflexivity.
  - intros O. destruct (O 0%nat 1%nat d2 d1) as (a & b & A & B & H); [lia|reflexivity|reflexivity|].
    assert (Before d1 d2) as (x & y & X & Y & Q) by (apply before_text; [exact c_d1|exact c_d2|vm_compute; reflexivity]).
    rewrite (moment_fun _ _ _ A Y), (moment_fun _ _ _ B X) in H. lia.
Qed.
Print Assumptions C47_negative_selection_refuted.
Example C47_selection_example : selected_time_series [d1; f2; d2] [2; 0] = Ok [d1; d2].
Proof. reflexivity. Qed.

(** * C48: geologic series *)
Theorem C48_years_sorted_oldest_first years l : from_year_list years = Ok l ->
  StronglySorted Z.le l /\ Permutation l (map (fun y => - Z.abs y) years).
Proof.
  unfold from_year_list. destruct years as [|y ys] eqn:E; [discriminate|]. rewrite <- E. clear E. intros [= <-].
  set (m := map (fun y => if 0 <? y then - y else y) years). split.
  - pose proof (isort_sorted Z.leb m zle_order) as S. apply ss_nth. intros i j a b L A B. apply Z.leb_le.
    exact (proj1 (ss_nth _ _) S i j a b L A B).
  - eapply Permutation_trans; [apply Permutation_sym, isort_perm|]. unfold m. erewrite map_ext; [apply Permutation_refl|].
    intros x. cbv beta. destruct (Z.ltb_spec 0 x); lia.
Qed.
Print Assumptions C48_years_sorted_oldest_first.
Theorem C48_order_and_sign_do_not_matter a b : a <> [] -> Permutation (map Z.abs a) (map Z.abs b) -> from_year_list a = from_year_list b.
Proof.
  intros Na P. assert (b <> []) as Nb by (intros ->; apply Permutation_sym, Permutation_nil in P; destruct a; [congruence|discriminate]).
  destruct (from_year_list a) as [la|] eqn:Ea; [|destruct a; [congruence|discriminate]].
  destruct (from_year_list b) as [lb|] eqn:Eb; [|destruct b; [congruence|discriminate]].
  destruct (C48_years_sorted_oldest_first _ _ Ea) as [Sa Pa]. destruct (C48_years_sorted_oldest_first _ _ Eb) as [Sb Pb]. f_equal.
  assert (forall l, StronglySorted Z.le l -> StronglySorted (leP Z.leb) l) as G.
  { intros l S. apply ss_nth. intros i j x y L X Y. unfold leP. apply Z.leb_le. exact (proj1 (ss_nth _ _) S i j x y L X Y). }
  apply (sorted_unique Z.leb); [apply zle_order|auto|auto|].
  eapply Permutation_trans; [exact Pa|]. eapply Permutation_trans; [|apply Permutation_sym, Pb].
  rewrite <- !(map_map Z.abs Z.opp). apply Permutation_map, P.
Qed.
Print Assumptions C48_order_and_sign_do_not_matter.
Lemma year_index_spec y l : forall k, match year_index_from k l y with
  | Some j => (k <= j)%nat /\ nth_error l (j - k) = Some y /\ forall i, (i < j - k)%nat -> nth_error l i <> Some y
  | None => ~ In y l end.
Proof.
  induction l as [|x l IH]; intros k; cbn [year_index_from]; [intros []|]. destruct (Z.eqb_spec x y) as [->|D].
  - rewrite Nat.sub_diag. split; [lia|]. split; [reflexivity|]. intros; lia.
  - specialize (IH (S k)). destruct (year_index_from (S k) l y) as [j|].
    + destruct IH as (J & N & F). replace (j - k)%nat with (S (j - S k)) by lia. split; [lia|]. split; [exact N|].
      intros [|i] Hi; cbn; [congruence|]. apply F. lia.
    + intros [H|H]; [congruence|auto].
Qed.
Theorem C48_index_for_year l y : match year_index_from 0 l y with
  | Some j => nth_error l j = Some y /\ forall i, (i < j)%nat -> nth_error l i <> Some y
  | None => ~ In y l end.
Proof.
  pose proof (year_index_spec y l 0) as H. destruct (year_index_from 0 l y); [|exact H]. rewrite Nat.sub_0_r in H. tauto.
Qed.
Print Assumptions C48_index_for_year.
(** the text form is not unique: the index of the text of a stamp can be another stamp's *)
Theorem C48_text_lookup_refuted : exists years l, from_year_list years = Ok l /\ NoDup l /\
  exists i y, nth_error l i = Some y /\ geologic_index_from 0 l (geologic_time_str y) <> Some i.
Proof.
  exists [65300000; 65900000], [-65900000; -65300000]. split; [reflexivity|]. split.
  - constructor; [intros [H|[]]; discriminate|constructor; [intros []|constructor]].
  - exists 1%nat, (-65300000). split; [reflexivity|]. vm_compute. discriminate.
Qed.
Print Assumptions C48_text_lookup_refuted.
Example C48_example : from_year_list [2500000; -66000000; 0] = Ok [-66000000; -2500000; 0] /\
  map geologic_time_str [-66000000; -2500000; 0] = [L "-66 Ma"; L "-2.500 Ma"; L "0 Ma"].
Proof. vm_compute. auto. Qed.

(** * C49: equivalence of series *)
Lemma within_sym tol a : forall b, within_tolerance tol a b = within_tolerance tol b a.
Proof.
  induction a as [|x a IH]; intros [|y b]; cbn [within_tolerance]; [reflexivity..|]. rewrite IH.
  unfold duration_between. destruct (fromisoformat (strip_z x)) as [t|], (fromisoformat (strip_z y)) as [u|]; cbn [bind]; try reflexivity.
  replace (Z.abs (u - t)) with (Z.abs (t - u)) by lia. reflexivity.
Qed.
Theorem C49_equivalence_is_symmetric a b tol : is_equivalent a b tol = is_equivalent b a tol.
Proof. unfold is_equivalent. rewrite Nat.eqb_sym, within_sym. reflexivity. Qed.
Print Assumptions C49_equivalence_is_symmetric.
Theorem C49_equivalence_criterion a b tol ta tb : 0 <= tol -> Forall2 Moment a ta -> Forall2 Moment b tb ->
  (is_equivalent a b tol = Ok true <-> Forall2 (fun t u => Z.abs (t - u) <= tol * 1000000) ta tb) /\
  (is_equivalent a b tol = Ok true \/ is_equivalent a b tol = Ok false).
Proof.
  intros P Fa. revert b tb. induction Fa as [|x t a ta M F IH]; intros b tb Fb; destruct Fb as [|y u b tb M' F'];
    unfold is_equivalent; cbn [List.length Nat.eqb negb within_tolerance].
  - split; [split; constructor|auto].
  - split; [split; [discriminate|intros H; inversion H]|auto].
  - split; [split; [discriminate|intros H; inversion H]|auto].
  - specialize (IH b tb F'). unfold is_equivalent in IH.
    rewrite (duration_between_ok x y t u) by assumption. cbn [bind]. replace (Z.abs (u - t)) with (Z.abs (t - u)) by lia.
    destruct (List.length a =? List.length b)%nat; cbn [negb] in *.
    + destruct (Z.ltb_spec (tol * 1000000) (Z.abs (t - u))).
      * split; [split; [discriminate|intros H'; inversion H'; subst; lia]|auto].
      * destruct IH as [IH1 IH2]. split; [|exact IH2]. rewrite IH1. split; [intros H'; constructor; assumption|intros H'; inversion H'; assumption].
    + destruct IH as [IH1 _]. split; [|auto]. split; [discriminate|]. intros H'. inversion H'; subst. apply IH1. assumption.
Qed.
Print Assumptions C49_equivalence_criterion.
Theorem C49_transitivity_refuted : exists a b c, is_equivalent a b 1 = Ok true /\ is_equivalent b c 1 = Ok true /\ is_equivalent a c 1 = Ok false.
Proof. exists [L "2020-01-01T00:00:00Z"], [L "2020-01-01T00:00:01Z"], [L "2020-01-01T00:00:02Z"]. vm_compute. auto. Qed.
Print Assumptions C49_transitivity_refuted.
