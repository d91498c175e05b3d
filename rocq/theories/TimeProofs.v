(** TimeProofs.v: the calendar, the text form of time stamps and their order. *)
From Verif Require Import Base TextModel StrModel StrProofs PySort TimeModel.
From Coq Require Import Permutation Sorted.

(** * Calendar *)
Lemma year_start_S y : year_start (y + 1) = year_start y + year_len y.
Proof.
  unfold year_start, year_len, leap.
  replace (y + 1 - 1) with y by lia.
  pose proof (Z.div_mod y 4). pose proof (Z.div_mod y 100). pose proof (Z.div_mod y 400).
  pose proof (Z.div_mod (y - 1) 4). pose proof (Z.div_mod (y - 1) 100). pose proof (Z.div_mod (y - 1) 400).
  pose proof (Z.mod_pos_bound y 4). pose proof (Z.mod_pos_bound y 100). pose proof (Z.mod_pos_bound y 400).
  pose proof (Z.mod_pos_bound (y - 1) 4). pose proof (Z.mod_pos_bound (y - 1) 100). pose proof (Z.mod_pos_bound (y - 1) 400).
  destruct (Z.eqb_spec (y mod 4) 0), (Z.eqb_spec (y mod 100) 0), (Z.eqb_spec (y mod 400) 0); cbn [andb orb negb]; lia.
Qed.
Lemma month_len_pos y m : 28 <= month_len y m <= 31.
Proof. unfold month_len. destruct (m =? 2), (leap y), ((m =? 4) || (m =? 6) || (m =? 9) || (m =? 11)); lia. Qed.
Lemma year_len_pos y : 365 <= year_len y <= 366.
Proof. unfold year_len. destruct (leap y); lia. Qed.
Lemma zrange2_snoc a b : a <= b -> zrange2 a (b + 1) = zrange2 a b ++ [b].
Proof.
  intros H. unfold zrange2. replace (Z.to_nat (b + 1 - a)) with (S (Z.to_nat (b - a))) by lia.
  rewrite seq_S, map_app. cbn. do 2 f_equal. lia.
Qed.
Lemma fold_add_app l x : fold_right Z.add 0 (l ++ [x]) = fold_right Z.add 0 l + x.
Proof. induction l as [|y l IH]; cbn; [lia|rewrite IH; lia]. Qed.
Lemma month_start_S y m : 1 <= m -> month_start y (m + 1) = month_start y m + month_len y m.
Proof. intros H. unfold month_start. rewrite zrange2_snoc, map_app by lia. cbn [map]. apply fold_add_app. Qed.
Lemma month_start_1 y : month_start y 1 = 0.
Proof. reflexivity. Qed.
Lemma month_start_13 y : month_start y 13 = year_len y.
Proof.
  unfold month_start, year_len. change (zrange2 1 13) with [1; 2; 3; 4; 5; 6; 7; 8; 9; 10; 11; 12].
  unfold month_len. cbn. destruct (leap y); reflexivity.
Qed.
Lemma month_start_mono y m m' : 1 <= m <= m' -> month_start y m <= month_start y m'.
Proof.
  intros H. replace m' with (m + Z.of_nat (Z.to_nat (m' - m))) by lia.
  induction (Z.to_nat (m' - m)) as [|k IH]; [replace (m + Z.of_nat 0) with m by lia; lia|].
  replace (m + Z.of_nat (S k)) with (m + Z.of_nat k + 1) by lia.
  rewrite month_start_S by lia. pose proof (month_len_pos y (m + Z.of_nat k)). lia.
Qed.
Lemma year_start_mono y y' : y <= y' -> year_start y <= year_start y'.
Proof.
  intros H. replace y' with (y + Z.of_nat (Z.to_nat (y' - y))) by lia.
  induction (Z.to_nat (y' - y)) as [|k IH]; [replace (y + Z.of_nat 0) with y by lia; lia|].
  replace (y + Z.of_nat (S k)) with (y + Z.of_nat k + 1) by lia.
  rewrite year_start_S. pose proof (year_len_pos (y + Z.of_nat k)). lia.
Qed.

(** A date of the proleptic Gregorian calendar. *)
Definition Date (y m d : Z) : Prop := 1 <= y <= 9999 /\ 1 <= m <= 12 /\ 1 <= d <= month_len y m.
Lemma valid_date_iff y m d : valid_date y m d = true <-> Date y m d.
Proof. unfold valid_date, Date. rewrite !andb_true_iff, !Z.leb_le. tauto. Qed.

Lemma day_in_year y m d : Date y m d -> 0 <= month_start y m + (d - 1) < year_len y.
Proof.
  intros (Hy & Hm & Hd).
  pose proof (month_start_mono y 1 m). pose proof (month_start_mono y (m + 1) 13).
  rewrite month_start_S, month_start_13 in * by lia. rewrite month_start_1 in *. lia.
Qed.
Definition lex_date (y m d y' m' d' : Z) : Prop := y < y' \/ (y = y' /\ (m < m' \/ (m = m' /\ d < d'))).
Lemma day_number_lt y m d y' m' d' : Date y m d -> Date y' m' d' ->
  lex_date y m d y' m' d' -> day_number y m d < day_number y' m' d'.
Proof.
  intros D D' L. unfold day_number. pose proof (day_in_year y m d D). pose proof (day_in_year y' m' d' D').
  destruct D as (Hy & Hm & Hd), D' as (Hy' & Hm' & Hd').
  destruct L as [L|[<- [L|[<- L]]]].
  - pose proof (year_start_mono (y + 1) y'). rewrite year_start_S in *. lia.
  - pose proof (month_start_mono y (m + 1) m'). rewrite month_start_S in * by lia. lia.
  - lia.
Qed.
Lemma day_number_inj y m d y' m' d' : Date y m d -> Date y' m' d' ->
  day_number y m d = day_number y' m' d' -> y = y' /\ m = m' /\ d = d'.
Proof.
  intros D D' E.
  assert (lex_date y m d y' m' d' \/ lex_date y' m' d' y m d \/ (y = y' /\ m = m' /\ d = d')) as [L|[L|L]]
    by (unfold lex_date; lia); [| |exact L].
  - pose proof (day_number_lt _ _ _ _ _ _ D D' L). lia.
  - pose proof (day_number_lt _ _ _ _ _ _ D' D L). lia.
Qed.
Lemma day_number_range y m d : Date y m d -> 0 <= day_number y m d < year_start 10000.
Proof.
  intros D. pose proof (day_in_year y m d D). destruct D as (Hy & _). unfold day_number.
  pose proof (year_start_mono 1 y). pose proof (year_start_mono (y + 1) 10000). rewrite year_start_S in *.
  change (year_start 1) with 0 in *. lia.
Qed.

Lemma find_year_spec fuel : forall y n, 0 <= n < year_start (y + Z.of_nat fuel) - year_start y ->
  let '(y', r) := find_year fuel y n in
  y <= y' < y + Z.of_nat fuel /\ year_start y' + r = year_start y + n /\ 0 <= r < year_len y'.
Proof.
  induction fuel as [|f IH]; intros y n H; cbn [find_year].
  - replace (y + Z.of_nat 0) with y in H by lia. lia.
  - destruct (Z.ltb_spec n (year_len y)); [lia|].
    specialize (IH (y + 1) (n - year_len y)). rewrite year_start_S in IH.
    replace (y + 1 + Z.of_nat f) with (y + Z.of_nat (S f)) in IH by lia.
    destruct (find_year f (y + 1) (n - year_len y)) as [y' r]. lia.
Qed.
Lemma find_month_spec y fuel : forall m n, 1 <= m -> 0 <= n < month_start y (m + Z.of_nat fuel) - month_start y m ->
  let '(m', r) := find_month fuel y m n in
  m <= m' < m + Z.of_nat fuel /\ month_start y m' + r = month_start y m + n /\ 0 <= r < month_len y m'.
Proof.
  induction fuel as [|f IH]; intros m n Hm H; cbn [find_month].
  - replace (m + Z.of_nat 0) with m in H by lia. lia.
  - destruct (Z.ltb_spec n (month_len y m)); [lia|].
    specialize (IH (m + 1) (n - month_len y m)). rewrite month_start_S in IH by lia.
    replace (m + 1 + Z.of_nat f) with (m + Z.of_nat (S f)) in IH by lia.
    destruct (find_month f y (m + 1) (n - month_len y m)) as [m' r]. lia.
Qed.
Lemma date_of_spec n : 0 <= n < year_start 10000 ->
  let '(y, m, d) := date_of n in Date y m d /\ day_number y m d = n.
Proof.
  intros H. unfold date_of.
  pose proof (find_year_spec (Z.to_nat 9999) 1 n) as Y. rewrite Z2Nat.id in Y by lia.
  destruct (find_year (Z.to_nat 9999) 1 n) as [y r]. change (year_start 1) with 0 in Y. change (1 + 9999) with 10000 in Y.
  destruct Y as (Y1 & Y2 & Y3); [lia|].
  pose proof (find_month_spec y 12 1 r) as M. change (1 + Z.of_nat 12) with 13 in M.
  rewrite month_start_13, month_start_1 in M. destruct (find_month 12 y 1 r) as [m d].
  destruct M as (M1 & M2 & M3); [lia|lia|]. unfold Date, day_number. lia.
Qed.
Lemma date_of_day_number y m d : Date y m d -> date_of (day_number y m d) = (y, m, d).
Proof.
  intros D. pose proof (date_of_spec (day_number y m d) (day_number_range y m d D)) as S.
  destruct (date_of (day_number y m d)) as [[y' m'] d']. destruct S as [D' E].
  destruct (day_number_inj _ _ _ _ _ _ D' D E) as (-> & -> & ->). reflexivity.
Qed.

(** * Fixed width decimals *)
Lemma length_dec k n : List.length (dec k n) = k.
Proof. revert n; induction k as [|k IH]; intros n; cbn; [reflexivity|]. rewrite app_length, IH. cbn. lia. Qed.
Lemma dec_digit_N d : 0 <= d <= 9 -> N_of_ascii (dec_digit d) = Z.to_N (48 + d).
Proof. intros H. unfold dec_digit. apply N_ascii_embedding. lia. Qed.
Lemma digit_val_dec d : 0 <= d <= 9 -> digit_val (dec_digit d) = Some d.
Proof.
  intros H. unfold digit_val. rewrite dec_digit_N by lia. rewrite Z2N.id by lia.
  replace (48 <=? 48 + d) with true by lia. replace (48 + d <=? 57) with true by lia. cbn [andb]. f_equal. lia.
Qed.
Lemma digit_val_some c d : digit_val c = Some d -> 0 <= d <= 9 /\ c = dec_digit d.
Proof.
  unfold digit_val. destruct ((48 <=? Z.of_N (N_of_ascii c)) && (Z.of_N (N_of_ascii c) <=? 57)) eqn:E; [|discriminate].
  intros [= <-]. apply andb_true_iff in E as [E1 E2]. split; [lia|]. unfold dec_digit.
  replace (48 + (Z.of_N (N_of_ascii c) - 48)) with (Z.of_N (N_of_ascii c)) by lia. rewrite N2Z.id.
  symmetry. apply ascii_N_embedding.
Qed.
Lemma undec_app acc a b : undec acc (a ++ b) = match undec acc a with Some v => undec v b | None => None end.
Proof. revert acc; induction a as [|c a IH]; intros acc; cbn; [reflexivity|]. destruct (digit_val c); [apply IH|reflexivity]. Qed.
Lemma undec_dec k : forall acc n, 0 <= n < 10 ^ Z.of_nat k -> undec acc (dec k n) = Some (acc * 10 ^ Z.of_nat k + n).
Proof.
  induction k as [|k IH]; intros acc n H.
  - change (10 ^ Z.of_nat 0) with 1 in *. cbn. f_equal. lia.
  - rewrite Nat2Z.inj_succ, Z.pow_succ_r in * by lia. cbn [dec].
    pose proof (Z.div_mod n 10). pose proof (Z.mod_pos_bound n 10).
    rewrite undec_app, IH by lia. cbn [undec]. rewrite digit_val_dec by lia. f_equal. nia.
Qed.
Lemma undec_some s : forall v, undec 0 s = Some v -> 0 <= v < 10 ^ Z.of_nat (List.length s) /\ s = dec (List.length s) v.
Proof.
  induction s as [|c s IH] using rev_ind; intros v; cbn.
  - intros [= <-]. split; [lia|reflexivity].
  - rewrite undec_app. destruct (undec 0 s) as [w|]; [|discriminate]. destruct (IH w eq_refl) as [B E].
    cbn [undec]. destruct (digit_val c) as [d|] eqn:D; [|discriminate]. apply digit_val_some in D as [D ->].
    intros V. assert (v = 10 * w + d) as -> by congruence. clear V. rewrite app_length. cbn [List.length]. rewrite Nat.add_1_r.
    rewrite Nat2Z.inj_succ, Z.pow_succ_r by lia. split; [lia|]. cbn [dec].
    replace ((10 * w + d) / 10) with w by (apply (Z.div_unique _ _ _ d); lia).
    replace ((10 * w + d) mod 10) with d by (apply (Z.mod_unique _ _ w); lia). congruence.
Qed.

Lemma str_le_cons_eq c s s' : str_le (c :: s) (c :: s') = str_le s s'.
Proof. cbn [str_le]. rewrite N.ltb_irrefl. reflexivity. Qed.
Lemma str_le_app_eq p s s' : str_le (p ++ s) (p ++ s') = str_le s s'.
Proof. induction p as [|c p IH]; [reflexivity|]. cbn [app]. rewrite str_le_cons_eq. exact IH. Qed.
Lemma str_le_dec k : forall a b s s', 0 <= a < 10 ^ Z.of_nat k -> 0 <= b < 10 ^ Z.of_nat k ->
  str_le (dec k a ++ s) (dec k b ++ s') = if a <? b then true else if b <? a then false else str_le s s'.
Proof.
  induction k as [|k IH]; intros a b s s' Ha Hb.
  - change (10 ^ Z.of_nat 0) with 1 in *. assert (a = b) as -> by lia. rewrite Z.ltb_irrefl. reflexivity.
  - rewrite Nat2Z.inj_succ, Z.pow_succ_r in * by lia. cbn [dec]. rewrite <- !app_assoc.
    pose proof (Z.div_mod a 10). pose proof (Z.mod_pos_bound a 10). pose proof (Z.div_mod b 10). pose proof (Z.mod_pos_bound b 10).
    rewrite IH by lia. cbn [app str_le]. rewrite !dec_digit_N by lia.
    destruct (Z.ltb_spec (a / 10) (b / 10)), (Z.ltb_spec (b / 10) (a / 10)),
      (Z.ltb_spec a b), (Z.ltb_spec b a); try lia;
    destruct (N.ltb_spec (Z.to_N (48 + a mod 10)) (Z.to_N (48 + b mod 10))),
      (N.ltb_spec (Z.to_N (48 + b mod 10)) (Z.to_N (48 + a mod 10))); try reflexivity; try lia.
Qed.

(** * Text of dates and times *)
Definition InRange (t : moment) : Prop := 0 <= t < max_moment.
Definition WholeSecond (t : moment) : Prop := t mod 1000000 = 0.
Lemma day_range t : InRange t -> 0 <= t / day_us < year_start 10000.
Proof.
  unfold InRange, max_moment. intros H. split; [apply Z.div_pos; unfold day_us; lia|].
  apply Z.div_lt_upper_bound; [unfold day_us; lia|lia].
Qed.
Ltac date n := let H := fresh "DS" in pose proof (date_of_spec n) as H; destruct (date_of n) as [[? ?] ?] eqn:?.

Lemma iso_date_order n n' s s' : 0 <= n < year_start 10000 -> 0 <= n' < year_start 10000 ->
  str_le (iso_date n ++ s) (iso_date n' ++ s') = if n <? n' then true else if n' <? n then false else str_le s s'.
Proof.
  intros H H'. unfold iso_date. pose proof (date_of_spec n H) as A. pose proof (date_of_spec n' H') as B.
  destruct (date_of n) as [[y m] d], (date_of n') as [[y' m'] d']. destruct A as [D E], B as [D' E'].
  pose proof (month_len_pos y m). pose proof (month_len_pos y' m').
  pose proof D as (Dy & Dm & Dd). pose proof D' as (Dy' & Dm' & Dd').
  repeat rewrite <- app_assoc.
  rewrite str_le_dec by (cbn; lia). rewrite str_le_app_eq.
  rewrite str_le_dec by (cbn; lia). rewrite str_le_app_eq.
  rewrite str_le_dec by (cbn; lia).
  assert (lex_date y m d y' m' d' \/ lex_date y' m' d' y m d \/ (y = y' /\ m = m' /\ d = d')) as [C|[C|C]] by (unfold lex_date; lia).
  - pose proof (day_number_lt _ _ _ _ _ _ D D' C). unfold lex_date in C.
    destruct (Z.ltb_spec n n'); [|lia].
    destruct (Z.ltb_spec y y'), (Z.ltb_spec y' y), (Z.ltb_spec m m'), (Z.ltb_spec m' m), (Z.ltb_spec d d'); try reflexivity; lia.
  - pose proof (day_number_lt _ _ _ _ _ _ D' D C). unfold lex_date in C.
    destruct (Z.ltb_spec n n'), (Z.ltb_spec n' n); try lia.
    destruct (Z.ltb_spec y y'), (Z.ltb_spec y' y), (Z.ltb_spec m m'), (Z.ltb_spec m' m), (Z.ltb_spec d d'), (Z.ltb_spec d' d); try reflexivity; lia.
  - destruct C as (-> & -> & ->). subst n n'. rewrite !Z.ltb_irrefl. reflexivity.
Qed.
Lemma iso_time_order u u' s s' : 0 <= u < day_us -> 0 <= u' < day_us -> WholeSecond u -> WholeSecond u' ->
  str_le (iso_time u ++ s) (iso_time u' ++ s') = if u <? u' then true else if u' <? u then false else str_le s s'.
Proof.
  unfold iso_time, WholeSecond. intros H H' W W'. rewrite W, W'. cbn [Z.eqb]. rewrite !app_nil_r. unfold day_us in *.
  set (a := u / 1000000). set (b := u' / 1000000).
  assert (u = a * 1000000) by (unfold a; pose proof (Z.div_mod u 1000000); lia).
  assert (u' = b * 1000000) by (unfold b; pose proof (Z.div_mod u' 1000000); lia).
  clearbody a b. subst u u'. clear W W'.
  assert (0 <= a < 86400) by lia. assert (0 <= b < 86400) by lia. clear H H'.
  assert (0 <= a / 3600 < 24 /\ 0 <= a / 60 mod 60 < 60 /\ 0 <= a mod 60 < 60 /\ a = a / 3600 * 3600 + a / 60 mod 60 * 60 + a mod 60) as A
    by (Z.to_euclidean_division_equations; lia).
  assert (0 <= b / 3600 < 24 /\ 0 <= b / 60 mod 60 < 60 /\ 0 <= b mod 60 < 60 /\ b = b / 3600 * 3600 + b / 60 mod 60 * 60 + b mod 60) as B
    by (Z.to_euclidean_division_equations; lia).
  repeat rewrite <- app_assoc.
  rewrite str_le_dec by (cbn; lia). rewrite str_le_app_eq.
  rewrite str_le_dec by (cbn; lia). rewrite str_le_app_eq.
  rewrite str_le_dec by (cbn; lia).
  set (h := a / 3600) in *. set (m := a / 60 mod 60) in *. set (c := a mod 60) in *.
  set (h' := b / 3600) in *. set (m' := b / 60 mod 60) in *. set (c' := b mod 60) in *.
  clearbody h m c h' m' c'. destruct A as (A1 & A2 & A3 & A4), B as (B1 & B2 & B3 & B4).
  destruct (Z.ltb_spec h h'), (Z.ltb_spec h' h), (Z.ltb_spec m m'), (Z.ltb_spec m' m), (Z.ltb_spec c c'), (Z.ltb_spec c' c),
   (Z.ltb_spec (a * 1000000) (b * 1000000)), (Z.ltb_spec (b * 1000000) (a * 1000000)); try reflexivity; lia.
Qed.

(** The stamp of a moment: the full form, or the date alone. *)
Definition full (t : moment) : str := isoformat t ++ L "Z".
Definition whole_day (t : moment) : Prop := t mod day_us = 0.

Lemma whole_second_day t : WholeSecond t -> WholeSecond (t mod day_us).
Proof. unfold WholeSecond, day_us. intros H. rewrite <- Znumtheory.Zmod_div_mod; try lia. exists 86400. reflexivity. Qed.
Lemma day_split t : t = t / day_us * day_us + t mod day_us /\ 0 <= t mod day_us < day_us.
Proof. unfold day_us. pose proof (Z.div_mod t 86400000000). pose proof (Z.mod_pos_bound t 86400000000). lia. Qed.

Lemma full_order t t' : InRange t -> InRange t' -> WholeSecond t -> WholeSecond t' ->
  str_le (full t) (full t') = (t <=? t').
Proof.
  intros R R' W W'. unfold full, isoformat. rewrite <- !app_assoc.
  rewrite iso_date_order by auto using day_range. rewrite str_le_app_eq.
  pose proof (day_split t) as [E B]. pose proof (day_split t') as [E' B'].
  rewrite iso_time_order by auto using whole_second_day.
  destruct (Z.ltb_spec (t / day_us) (t' / day_us)), (Z.ltb_spec (t' / day_us) (t / day_us)),
    (Z.ltb_spec (t mod day_us) (t' mod day_us)), (Z.ltb_spec (t' mod day_us) (t mod day_us)); try reflexivity;
  destruct (Z.leb_spec t t'); try reflexivity; unfold day_us in *; lia.
Qed.

(** * Reading stamps *)
Lemma field_dec k n sep r : 0 <= n < 10 ^ Z.of_nat k -> field k sep (dec k n ++ sep ++ r) = Some (n, r).
Proof.
  intros H. unfold field. rewrite app_length, length_dec.
  replace (k + List.length (sep ++ r) <? k)%nat with false by (symmetry; apply Nat.ltb_ge; lia).
  rewrite firstn_app_exact by (symmetry; apply length_dec). rewrite undec_dec by exact H.
  rewrite skipn_app_exact by (symmetry; apply length_dec). rewrite startswith_app, skipn_app_exact by reflexivity.
  f_equal.
Qed.
Lemma field_some k sep s v r : field k sep s = Some (v, r) -> 0 <= v < 10 ^ Z.of_nat k /\ s = dec k v ++ sep ++ r.
Proof.
  unfold field. destruct (Nat.ltb_spec (List.length s) k); [discriminate|].
  destruct (undec 0 (firstn k s)) as [w|] eqn:U; [|discriminate].
  apply undec_some in U as [B E]. rewrite firstn_length_le in B, E by assumption.
  destruct (startswith (skipn k s) sep) eqn:P; [|discriminate]. apply startswith_iff in P as [q P].
  intros [= <- <-]. split; [exact B|]. rewrite P, skipn_app_exact by reflexivity. rewrite <- P, <- E.
  symmetry. apply firstn_skipn.
Qed.
Lemma obind_some {A B} (o : option A) (f : A -> option B) b : obind o f = Some b -> exists a, o = Some a /\ f a = Some b.
Proof. destruct o as [a|]; cbn; [|discriminate]. eauto. Qed.

Lemma length_iso_date n : List.length (iso_date n) = 10%nat.
Proof. unfold iso_date. destruct (date_of n) as [[y m] d]. rewrite !app_length, !length_dec. reflexivity. Qed.
Lemma length_iso_time u : List.length (iso_time u) = if u mod 1000000 =? 0 then 8%nat else 15%nat.
Proof. unfold iso_time. destruct (u mod 1000000 =? 0); rewrite !app_length, !length_dec; cbn; rewrite ?length_dec; reflexivity. Qed.

Lemma parse_iso_time u : 0 <= u < day_us -> parse_time (iso_time u) = Some u.
Proof.
  intros H. unfold day_us in H. unfold parse_time. rewrite length_iso_time.
  set (a := u / 1000000).
  assert (0 <= u mod 1000000 < 1000000 /\ u = a * 1000000 + u mod 1000000 /\ 0 <= a < 86400) as U
    by (unfold a; Z.to_euclidean_division_equations; lia).
  assert (0 <= a / 3600 < 24 /\ 0 <= a / 60 mod 60 < 60 /\ 0 <= a mod 60 < 60 /\ a = a / 3600 * 3600 + a / 60 mod 60 * 60 + a mod 60) as A
    by (Z.to_euclidean_division_equations; lia).
  unfold iso_time. fold a.
  destruct (Z.eqb_spec (u mod 1000000) 0) as [E|E]; cbn [Nat.eqb orb Nat.sub].
  - rewrite field_dec by (cbn; lia). cbn [obind]. rewrite field_dec by (cbn; lia). cbn [obind].
    change (dec 2 (a mod 60) ++ []) with (dec 2 (a mod 60) ++ [] ++ []). rewrite field_dec by (cbn; lia). cbn [obind].
    replace (a / 3600 <? 24) with true by lia. replace (a / 60 mod 60 <? 60) with true by lia.
    replace (a mod 60 <? 60) with true by lia. cbn [andb]. f_equal. lia.
  - rewrite field_dec by (cbn; lia). cbn [obind]. rewrite field_dec by (cbn; lia). cbn [obind].
    rewrite field_dec by (cbn; lia). cbn [obind].
    replace (dec 6 (u mod 1000000)) with (dec 6 (u mod 1000000) ++ [] ++ []) by (rewrite app_nil_r; reflexivity).
    rewrite field_dec by (cbn; lia). cbn [obind].
    replace (a / 3600 <? 24) with true by lia. replace (a / 60 mod 60 <? 60) with true by lia.
    replace (a mod 60 <? 60) with true by lia. cbn [andb]. f_equal. lia.
Qed.
Lemma from_iso_date n r : 0 <= n < year_start 10000 ->
  fromisoformat (iso_date n ++ r) = match r with [] => Some (n * day_us)
                                    | _ :: tm => match parse_time tm with Some u => Some (n * day_us + u) | None => None end end.
Proof.
  intros H. unfold iso_date. pose proof (date_of_spec n H) as A. destruct (date_of n) as [[y m] d]. destruct A as [D E].
  pose proof (month_len_pos y m). pose proof D as (Dy & Dm & Dd). repeat rewrite <- app_assoc. unfold fromisoformat.
  rewrite field_dec by (cbn; lia). cbn [obind]. rewrite field_dec by (cbn; lia). cbn [obind].
  change (dec 2 d ++ r) with (dec 2 d ++ [] ++ r). rewrite field_dec by (cbn; lia). cbn [obind].
  rewrite (proj2 (valid_date_iff y m d) D). cbn [negb]. rewrite E. destruct r; [reflexivity|].
  destruct (parse_time r); reflexivity.
Qed.
Theorem from_iso t : InRange t -> fromisoformat (isoformat t) = Some t.
Proof.
  intros R. unfold isoformat. rewrite from_iso_date by auto using day_range. cbn [app L list_ascii_of_string].
  rewrite parse_iso_time by apply (proj2 (day_split t)). f_equal. symmetry. apply (proj1 (day_split t)).
Qed.
Lemma strip_z_app s : strip_z (s ++ L "Z") = s.
Proof.
  unfold strip_z. replace (endswith (s ++ L "Z") (L "Z")) with true by (symmetry; apply endswith_iff; eauto).
  apply removelast_last.
Qed.
Lemma strip_z_id s c : last s c <> "Z"%char -> strip_z s = s.
Proof.
  intros H. unfold strip_z. destruct (endswith s (L "Z")) eqn:E; [|reflexivity].
  apply endswith_iff in E as [t ->]. cbn [L list_ascii_of_string] in H. rewrite last_last in H. congruence.
Qed.

(** What a stamp means. *)
Definition Moment (s : str) (t : moment) : Prop := fromisoformat (strip_z s) = Some t.
Lemma moment_full t : InRange t -> Moment (full t) t.
Proof. intros R. unfold Moment, full. rewrite strip_z_app. apply from_iso, R. Qed.
Lemma moment_fun s t t' : Moment s t -> Moment s t' -> t = t'.
Proof. unfold Moment. congruence. Qed.

Lemma from_iso_some s t : fromisoformat s = Some t -> InRange t /\
  exists n r, 0 <= n < year_start 10000 /\ s = iso_date n ++ r /\
    ((r = [] /\ t = n * day_us) \/ (exists c tm u, r = c :: tm /\ parse_time tm = Some u /\ t = n * day_us + u /\ 0 <= u < day_us)).
Proof.
  unfold fromisoformat. intros H.
  apply obind_some in H as [[y r] [H1 H]]. apply obind_some in H as [[m r1] [H2 H]]. apply obind_some in H as [[d r2] [H3 H]].
  apply field_some in H1 as [B1 ->]. apply field_some in H2 as [B2 ->]. apply field_some in H3 as [B3 ->].
  destruct (valid_date y m d) eqn:V; [|discriminate]. apply valid_date_iff in V. cbn [negb] in H.
  assert (forall r, dec 4 y ++ L "-" ++ dec 2 m ++ L "-" ++ dec 2 d ++ [] ++ r = iso_date (day_number y m d) ++ r) as F.
  { intros r. unfold iso_date. rewrite date_of_day_number by exact V. repeat rewrite <- app_assoc. reflexivity. }
  rewrite F. pose proof (day_number_range y m d V) as N.
  assert (forall u, 0 <= u < day_us -> InRange (day_number y m d * day_us + u)) as IR.
  { unfold InRange, max_moment, day_us. intros. lia. }
  destruct r2 as [|c tm].
  - injection H as <-. split; [specialize (IR 0); unfold day_us in *; rewrite Z.add_0_r in IR; apply IR; lia|].
    exists (day_number y m d), []. auto.
  - apply obind_some in H as [u [H4 H]]. injection H as <-.
    assert (0 <= u < day_us) as U.
    { clear - H4. unfold parse_time, day_us in *. set (n := List.length tm) in *. clearbody n.
      repeat match type of H4 with (if ?c then _ else _) = _ =>
        match c with context [(n =? _)%nat] => destruct c eqn:?C end end; try discriminate.
      all: repeat match goal with H : obind _ _ = Some _ |- _ => apply obind_some in H as [[? ?] [? H]] end.
      all: repeat match goal with H : field _ _ _ = Some _ |- _ => apply field_some in H as [? _] end.
      all: match goal with H : (if ?c then _ else _) = Some ?x |- _ => destruct c eqn:?C; [|discriminate];
             apply (f_equal (fun o => match o with Some a => a | None => 0 end)) in H; cbv beta iota in H; subst x end.
      all: repeat match goal with H : _ && _ = true |- _ => apply andb_true_iff in H as [? H] end.
      1-3: lia.
      assert (n = 12 \/ n = 15)%nat as [->| ->].
      { destruct (n =? 12)%nat eqn:N1; [left; apply Nat.eqb_eq, N1|]. right. apply Nat.eqb_eq. assumption. }
      - cbn [Nat.sub Nat.eqb]. change (10 ^ Z.of_nat (12 - 9)) with 1000 in *. lia.
      - cbn [Nat.sub Nat.eqb]. change (10 ^ Z.of_nat (15 - 9)) with 1000000 in *. lia. }
    split; [apply IR, U|]. exists (day_number y m d), (c :: tm). eauto 12.
Qed.

(** * The two text forms *)
(** YYYY-MM-DDTHH:MM:SSZ, accepted by the library *)
Definition Canonical (s : str) : Prop :=
  List.length s = 20%nat /\ nth_error s 10 = Some "T"%char /\ nth_error s 19 = Some "Z"%char /\ check_timestamp s = Ok tt.
(** YYYY-MM-DD, accepted by the library *)
Definition DateOnly (s : str) : Prop := List.length s = 10%nat /\ check_timestamp s = Ok tt.
Definition Tidy (s : str) : Prop := Canonical s \/ DateOnly s.

Lemma check_moment s : check_timestamp s = Ok tt <-> exists t, Moment s t.
Proof. unfold check_timestamp, Moment. destruct (fromisoformat (strip_z s)); split; [eauto|reflexivity|discriminate|intros [? ?]; discriminate]. Qed.
Lemma moment_check s t : Moment s t -> check_timestamp s = Ok tt.
Proof. intros M. apply check_moment. eauto. Qed.

Lemma parse_time_8 tm u : List.length tm = 8%nat -> parse_time tm = Some u ->
  0 <= u < day_us /\ WholeSecond u /\ tm = iso_time u.
Proof.
  intros E H. unfold parse_time in H. rewrite E in H. cbn [Nat.eqb] in H.
  apply obind_some in H as [[h r1] [H1 H]]. apply obind_some in H as [[mi r2] [H2 H]]. apply obind_some in H as [[se r3] [H3 H]].
  apply field_some in H1 as [B1 ->]. apply field_some in H2 as [B2 ->]. apply field_some in H3 as [B3 ->].
  match type of H with (if ?c then _ else _) = _ => destruct c eqn:C; [|discriminate] end.
  apply (f_equal (fun o => match o with Some a => a | None => 0 end)) in H. cbv beta iota in H. subst u.
  apply andb_true_iff in C as [C C3]. apply andb_true_iff in C as [C1 C2].
  set (a := (h * 60 + mi) * 60 + se). assert (0 <= a < 86400) as A by (unfold a; lia).
  assert (r3 = []) as ->.
  { rewrite !app_length, !length_dec in E. cbn in E. destruct r3; [reflexivity|cbn in E; lia]. }
  unfold WholeSecond, iso_time, day_us. rewrite Z.mod_mul, Z.div_mul by lia. cbn [Z.eqb]. split; [lia|]. split; [reflexivity|].
  replace (a / 3600) with h by (apply (Z.div_unique _ _ _ (mi * 60 + se)); unfold a; lia).
  replace (a / 60) with (h * 60 + mi) by (apply (Z.div_unique _ _ _ se); unfold a; lia).
  replace ((h * 60 + mi) mod 60) with mi by (apply (Z.mod_unique _ _ h); lia).
  replace (a mod 60) with se by (apply (Z.mod_unique _ _ (h * 60 + mi)); unfold a; lia). reflexivity.
Qed.
Lemma day_div n u : 0 <= u < day_us -> (n * day_us + u) / day_us = n /\ (n * day_us + u) mod day_us = u.
Proof.
  unfold day_us. intros H. split; [symmetry; apply (Z.div_unique _ _ _ u); lia|symmetry; apply (Z.mod_unique _ _ n); lia].
Qed.
Lemma split_last (s : str) n c : List.length s = S n -> nth_error s n = Some c -> exists p, s = p ++ [c] /\ List.length p = n.
Proof.
  revert n. induction s as [|x s IH] using rev_ind; intros n E H; [discriminate|].
  rewrite app_length in E. cbn in E. assert (n = List.length s) as -> by lia.
  rewrite nth_error_app2, Nat.sub_diag in H by lia. cbn in H. injection H as ->. eauto.
Qed.
Lemma canonical_full s : Canonical s <-> exists t, InRange t /\ WholeSecond t /\ s = full t.
Proof.
  split.
  - intros (E & T & Z & C). apply check_moment in C as [t M]. unfold Moment in M.
    destruct (split_last s 19 _ E Z) as (p & -> & Ep). change ["Z"%char] with (L "Z") in *. rewrite strip_z_app in M.
    destruct (from_iso_some p t M) as (R & n & r & N & -> & [[-> ->]|(c & tm & u & -> & P & -> & U)]).
    + rewrite app_length, length_iso_date in Ep. discriminate.
    + rewrite app_length, length_iso_date in Ep. cbn in Ep.
      destruct (parse_time_8 tm u) as (_ & W & ->); [lia|exact P|].
      rewrite nth_error_app1 in T by (rewrite app_length, length_iso_date; cbn; lia).
      rewrite nth_error_app2, length_iso_date in T by (rewrite length_iso_date; lia). cbn in T. injection T as ->.
      exists (n * day_us + u). split; [exact R|]. split.
      * unfold WholeSecond in *. rewrite Z.add_mod by lia.
        replace (n * day_us) with (n * 86400 * 1000000) by (unfold day_us; lia). rewrite Z.mod_mul by lia. rewrite W. reflexivity.
      * unfold full, isoformat. destruct (day_div n u U) as [-> ->]. reflexivity.
  - intros (t & R & W & ->).
    assert (List.length (isoformat t) = 19%nat) as E19.
    { unfold isoformat. rewrite !app_length, length_iso_date, length_iso_time, (whole_second_day t W). reflexivity. }
    unfold Canonical, full. repeat split.
    + rewrite app_length, E19. reflexivity.
    + rewrite nth_error_app1 by lia. unfold isoformat.
      rewrite nth_error_app2 by (rewrite length_iso_date; lia). rewrite length_iso_date. reflexivity.
    + rewrite nth_error_app2 by lia. rewrite E19. reflexivity.
    + apply (moment_check _ t), moment_full, R.
Qed.
Lemma last_iso_date n r c : last (iso_date n ++ r) c = match r with [] => last (iso_date n) c | _ => last r c end.
Proof. destruct r as [|x r]; [rewrite app_nil_r; reflexivity|]. induction (iso_date n) as [|y l IH]; [reflexivity|]. cbn [app last]. destruct (l ++ x :: r) eqn:E; [destruct l; discriminate|]. exact IH. Qed.
Lemma dec_digit_not_Z d : 0 <= d <= 9 -> dec_digit d <> "Z"%char.
Proof. intros H E. pose proof (dec_digit_N d H) as N. rewrite E in N. change (N_of_ascii "Z"%char) with 90%N in N. lia. Qed.
Lemma last_dec k n c : 0 <= n -> last (dec (S k) n) c = dec_digit (n mod 10).
Proof. intros. cbn [dec]. apply last_last. Qed.
Lemma strip_iso_date n : 0 <= n < year_start 10000 -> strip_z (iso_date n) = iso_date n.
Proof.
  intros H. apply strip_z_id with (c := "a"%char). unfold iso_date. pose proof (date_of_spec n H) as A.
  destruct (date_of n) as [[y m] d]. destruct A as [(Dy & Dm & Dd) E].
  change (dec 2 d) with (dec 1 (d / 10) ++ [dec_digit (d mod 10)]). rewrite !app_assoc, last_last.
  apply dec_digit_not_Z. pose proof (Z.mod_pos_bound d 10). lia.
Qed.
Lemma date_only_form s : DateOnly s <-> exists n, 0 <= n < year_start 10000 /\ s = iso_date n.
Proof.
  split.
  - intros (E & C). apply check_moment in C as [t M]. unfold Moment in M.
    assert (strip_z s = s \/ exists p, s = p ++ L "Z" /\ strip_z s = p) as [Q|(p & -> & Q)].
    { unfold strip_z. destruct (endswith s (L "Z")) eqn:Ez; [right|auto]. apply endswith_iff in Ez as [p ->]. exists p.
      split; [reflexivity|]. apply removelast_last. }
    + rewrite Q in M. destruct (from_iso_some s t M) as (R & n & r & N & -> & D).
      rewrite app_length, length_iso_date in E. destruct r; [|cbn in E; lia]. rewrite app_nil_r. eauto.
    + rewrite Q in M. destruct (from_iso_some p t M) as (R & n & r & N & -> & D).
      rewrite !app_length, length_iso_date in E. cbn in E. lia.
  - intros (n & N & ->). split; [apply length_iso_date|]. apply (moment_check _ (n * day_us)). unfold Moment.
    rewrite strip_iso_date by exact N. rewrite <- (app_nil_r (iso_date n)). rewrite from_iso_date by exact N. reflexivity.
Qed.
Lemma moment_date n : 0 <= n < year_start 10000 -> Moment (iso_date n) (n * day_us).
Proof.
  intros N. unfold Moment. rewrite strip_iso_date by exact N. rewrite <- (app_nil_r (iso_date n)). rewrite from_iso_date by exact N. reflexivity.
Qed.
Lemma canonical_moment s : Canonical s -> exists t, Moment s t /\ InRange t /\ WholeSecond t /\ s = full t.
Proof. intros C. apply canonical_full in C as (t & R & W & ->). exists t. auto using moment_full. Qed.
Lemma canonical_tidy s : Canonical s -> Tidy s.
Proof. left; assumption. Qed.
Lemma in_range_day n : 0 <= n < year_start 10000 -> InRange (n * day_us).
Proof. unfold InRange, max_moment, day_us. lia. Qed.
Lemma whole_second_days n : WholeSecond (n * day_us).
Proof. unfold WholeSecond. replace (n * day_us) with (n * 86400 * 1000000) by (unfold day_us; lia). apply Z.mod_mul. lia. Qed.
Lemma tidy_form s : Tidy s -> exists t, Moment s t /\ InRange t /\ WholeSecond t /\
  (s = full t \/ (s = iso_date (t / day_us) /\ whole_day t)).
Proof.
  intros [C|D].
  - destruct (canonical_moment s C) as (t & ?). exists t. intuition.
  - apply date_only_form in D as (n & N & ->). exists (n * day_us).
    split; [apply moment_date, N|]. split; [apply in_range_day, N|]. split; [apply whole_second_days|]. right.
    unfold whole_day. assert (0 < day_us) by (unfold day_us; lia). rewrite Z.div_mul, Z.mod_mul by lia. auto.
Qed.
Lemma tidy_moment s : Tidy s -> exists t, Moment s t.
Proof. intros T. destruct (tidy_form s T) as (t & M & _). eauto. Qed.
Lemma tidy_check s : Tidy s -> check_timestamp s = Ok tt.
Proof. intros T. apply check_moment, tidy_moment, T. Qed.

(** * String order and time order *)
Lemma tidy_le a b ta tb : Tidy a -> Tidy b -> Moment a ta -> Moment b tb -> str_le a b = true -> ta <= tb.
Proof.
  intros A B Ma Mb.
  destruct (tidy_form a A) as (t & M & R & W & F). rewrite <- (moment_fun _ _ _ Ma M) in *. clear M t.
  destruct (tidy_form b B) as (t & M & R' & W' & F'). rewrite <- (moment_fun _ _ _ Mb M) in *. clear M t.
  pose proof (day_split ta) as [E1 B1]. pose proof (day_split tb) as [E2 B2].
  pose proof (day_range ta R). pose proof (day_range tb R').
  destruct F as [->|[-> D]], F' as [->|[-> D']].
  - rewrite full_order by assumption. lia.
  - unfold full, isoformat. rewrite <- !app_assoc. rewrite <- (app_nil_r (iso_date (tb / day_us))).
    rewrite iso_date_order by assumption. cbn [app L list_ascii_of_string str_le].
    destruct (Z.ltb_spec (ta / day_us) (tb / day_us)), (Z.ltb_spec (tb / day_us) (ta / day_us)); try discriminate; unfold day_us in *; lia.
  - unfold full, isoformat. rewrite <- !app_assoc. rewrite <- (app_nil_r (iso_date (ta / day_us))).
    rewrite iso_date_order by assumption. unfold whole_day in *.
    destruct (Z.ltb_spec (ta / day_us) (tb / day_us)), (Z.ltb_spec (tb / day_us) (ta / day_us)); try discriminate; unfold day_us in *; lia.
  - rewrite <- (app_nil_r (iso_date (ta / day_us))), <- (app_nil_r (iso_date (tb / day_us))).
    rewrite iso_date_order by assumption. unfold whole_day in *.
    destruct (Z.ltb_spec (ta / day_us) (tb / day_us)), (Z.ltb_spec (tb / day_us) (ta / day_us)); try discriminate; unfold day_us in *; lia.
Qed.
Lemma str_lt_le a b : str_lt a b = true -> str_le a b = true.
Proof. unfold str_lt. intros H. destruct (o_total _ str_le_order a b) as [E|E]; [exact E|]. rewrite E in H. discriminate. Qed.
Lemma str_lt_false a b : str_lt a b = false -> str_le b a = true.
Proof. unfold str_lt. intros H. destruct (str_le b a); [reflexivity|discriminate]. Qed.
Lemma tidy_lt a b ta tb : Tidy a -> Tidy b -> Moment a ta -> Moment b tb -> ta < tb -> str_lt a b = true.
Proof.
  intros A B Ma Mb H. unfold str_lt. destruct (str_le b a) eqn:E; [|reflexivity].
  pose proof (tidy_le b a tb ta B A Mb Ma E). lia.
Qed.
Lemma canonical_lt a b ta tb : Canonical a -> Canonical b -> Moment a ta -> Moment b tb -> str_lt a b = (ta <? tb).
Proof.
  intros A B Ma Mb. destruct (canonical_moment a A) as (t & M & R & W & ->). rewrite <- (moment_fun _ _ _ Ma M) in *.
  destruct (canonical_moment b B) as (t' & M' & R' & W' & ->). rewrite <- (moment_fun _ _ _ Mb M') in *.
  unfold str_lt. rewrite full_order by assumption. lia.
Qed.
Lemma canonical_inj a b t : Canonical a -> Canonical b -> Moment a t -> Moment b t -> a = b.
Proof.
  intros A B Ma Mb. destruct (canonical_moment a A) as (ta & M & R & W & ->). destruct (canonical_moment b B) as (tb & M' & R' & W' & ->).
  rewrite (moment_fun _ _ _ M Ma), (moment_fun _ _ _ M' Mb). reflexivity.
Qed.
