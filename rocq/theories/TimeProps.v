(** TimeProps.v: time series properties. *)
From Verif Require Import Base TextModel StrModel StrProofs PySort TimeModel TimeProofs.
From Coq Require Import Permutation Sorted.

(** * Specification *)
(** [Moment s t] (TimeProofs.v): the text s, less a trailing Z, is read by datetime.fromisoformat
    as the moment t.  [Canonical s]: s has the form YYYY-MM-DDTHH:MM:SSZ and is accepted by
    check_timestamp; [DateOnly s]: likewise for YYYY-MM-DD; [Tidy]: either. *)
Definition Before (a b : str) : Prop := exists ta tb, Moment a ta /\ Moment b tb /\ ta < tb.
Definition NotAfter (a b : str) : Prop := exists ta tb, Moment a ta /\ Moment b tb /\ ta <= tb.
Definition Ordered (R : str -> str -> Prop) (l : series) : Prop :=
  forall i j a b, (i < j)%nat -> nth_error l i = Some a -> nth_error l j = Some b -> R a b.

(** * Lists *)
Lemma ss_nth {A} (R : A -> A -> Prop) l :
  StronglySorted R l <-> forall i j a b, (i < j)%nat -> nth_error l i = Some a -> nth_error l j = Some b -> R a b.
Proof.
  induction l as [|x l IH]; [split; [intros _ [|?] ? ? ? ? H; discriminate H|constructor]|]. split.
  - intros S. apply StronglySorted_inv in S as [S F]. intros [|i] [|j] a b L H1 H2; try lia.
    + cbn in *. injection H1 as <-. apply nth_error_In in H2. rewrite Forall_forall in F. auto.
    + apply (proj1 IH S i j); [lia|assumption|assumption].
  - intros H. constructor.
    + apply IH. intros i j a b L H1 H2. apply (H (S i) (S j)); [lia|assumption|assumption].
    + apply Forall_forall. intros y Hy. apply In_nth_error in Hy as [j Hj]. apply (H 0%nat (S j)); [lia|reflexivity|assumption].
Qed.
Lemma ss_app {A} (R : A -> A -> Prop) a b :
  StronglySorted R (a ++ b) <-> StronglySorted R a /\ StronglySorted R b /\ Forall (fun x => Forall (R x) b) a.
Proof.
  induction a as [|x a IH]; cbn; [split; [intros H; repeat split; [constructor|exact H|constructor]|intros H; apply H]|].
  split.
  - intros H. apply StronglySorted_inv in H as [H F]. apply IH in H as (H1 & H2 & H3). apply Forall_app in F as [F1 F2].
    repeat split; [constructor; assumption|assumption|constructor; assumption].
  - intros (H1 & H2 & H3). apply StronglySorted_inv in H1 as [H1 F]. inversion H3; subst.
    constructor; [apply IH; auto|apply Forall_app; auto].
Qed.
Lemma last_timestamp_spec l : last_timestamp l = match rev l with [] => None | x :: _ => Some x end.
Proof.
  induction l as [|x l _] using rev_ind; [reflexivity|]. rewrite rev_app_distr. cbn [rev app].
  unfold last_timestamp. destruct (l ++ [x]) eqn:E; [destruct l; discriminate|]. rewrite <- E. clear E.
  unfold timestamp. rewrite app_length. cbn [List.length].
  replace ((- Z.of_nat (List.length l + 1) <=? -1) && (-1 <? Z.of_nat (List.length l + 1))) with true
    by (symmetry; apply andb_true_iff; lia).
  replace (-1 <? 0) with true by reflexivity.
  replace (Z.to_nat (Z.of_nat (List.length l + 1) + -1)) with (List.length l) by lia.
  rewrite nth_error_app2, Nat.sub_diag by lia. reflexivity.
Qed.
Lemma last_timestamp_some l x : last_timestamp l = Some x -> exists p, l = p ++ [x].
Proof.
  rewrite last_timestamp_spec. destruct (rev l) as [|y r] eqn:E; [discriminate|]. intros [= <-].
  exists (rev r). rewrite <- (rev_involutive l), E. reflexivity.
Qed.
Lemma last_timestamp_none l : last_timestamp l = None -> l = [].
Proof.
  rewrite last_timestamp_spec. destruct (rev l) as [|y r] eqn:E; [|discriminate]. intros _.
  rewrite <- (rev_involutive l), E. reflexivity.
Qed.

Lemma nth_error_skipn {A} k i (l : list A) : nth_error (skipn k l) i = nth_error l (k + i).
Proof. revert l; induction k as [|k IH]; intros l; [reflexivity|]. destruct l; [cbn; destruct i; reflexivity|]. cbn. apply IH. Qed.
Lemma nth_error_firstn {A} k i (l : list A) x : nth_error (firstn k l) i = Some x -> (i < k)%nat /\ nth_error l i = Some x.
Proof.
  revert i l; induction k as [|k IH]; intros i l H; [destruct i; discriminate|]. destruct l; [destruct i; discriminate|].
  destruct i; cbn in *; [split; [lia|exact H]|]. apply IH in H. split; [lia|apply H].
Qed.

(** what the two scans find, as text *)
Lemma not_later_scan l s i : (i <= List.length l)%nat ->
  match not_later_loop l s i with
  | Some j => (j < i)%nat /\ (exists x, nth_error l j = Some x /\ str_lt s x = false) /\
              forall k y, (j < k < i)%nat -> nth_error l k = Some y -> str_lt s y = true
  | None => forall k y, (k < i)%nat -> nth_error l k = Some y -> str_lt s y = true
  end.
Proof.
  induction i as [|i IH]; intros H; cbn [not_later_loop]; [intros; lia|].
  destruct (nth_error l i) as [x|] eqn:E; [|apply nth_error_None in E; lia].
  destruct (str_lt s x) eqn:C.
  - specialize (IH ltac:(lia)). destruct (not_later_loop l s i) as [j|].
    + destruct IH as (J & X & F). split; [lia|]. split; [exact X|]. intros k y K N.
      assert (k = i \/ k < i)%nat as [->|] by lia; [congruence|]. apply (F k y); [lia|assumption].
    + intros k y K N. assert (k = i \/ k < i)%nat as [->|] by lia; [congruence|]. apply (IH k y); [lia|assumption].
  - split; [lia|]. split; [eauto|]. intros; lia.
Qed.
Lemma not_earlier_scan s l : forall k,
  match not_earlier_loop k l s with
  | Some j => (k <= j)%nat /\ (exists x, nth_error l (j - k) = Some x /\ str_lt x s = false) /\
              forall i y, (i < j - k)%nat -> nth_error l i = Some y -> str_lt y s = true
  | None => forall i y, nth_error l i = Some y -> str_lt y s = true
  end.
Proof.
  induction l as [|x l IH]; intros k; cbn [not_earlier_loop]; [intros [|?] ? ?; discriminate|].
  destruct (str_lt x s) eqn:C.
  - specialize (IH (S k)). destruct (not_earlier_loop (S k) l s) as [j|].
    + destruct IH as (J & (y & X & Y) & F). split; [lia|]. split.
      * exists y. split; [|exact Y]. replace (j - k)%nat with (S (j - S k)) by lia. exact X.
      * intros [|i] z I N; [cbn in N; congruence|]. apply (F i); [lia|exact N].
    + intros [|i] z N; [cbn in N; congruence|]. eapply IH, N.
  - rewrite Nat.sub_diag. split; [lia|]. split; [exists x; auto|]. intros; lia.
Qed.

(** * Order is kept *)
Lemma before_text a b : Canonical a -> Canonical b -> (Before a b <-> str_lt a b = true).
Proof.
  intros A B. destruct (canonical_moment a A) as (ta & Ma & _). destruct (canonical_moment b B) as (tb & Mb & _).
  rewrite (canonical_lt a b ta tb) by assumption. rewrite Z.ltb_lt. split.
  - intros (x & y & X & Y & H). rewrite (moment_fun _ _ _ Ma X), (moment_fun _ _ _ Mb Y). exact H.
  - intros H. exists ta, tb. auto.
Qed.
Lemma not_after_text a b : Tidy a -> Tidy b -> str_le a b = true -> NotAfter a b.
Proof.
  intros A B H. destruct (tidy_moment a A) as (ta & Ma). destruct (tidy_moment b B) as (tb & Mb). exists ta, tb.
  repeat split; [assumption..|]. apply (tidy_le a b); assumption.
Qed.
Lemma not_after_trans a b c : NotAfter a b -> NotAfter b c -> NotAfter a c.
Proof.
  intros (ta & tb & Ma & Mb & H) (tb' & tc & Mb' & Mc & H'). rewrite (moment_fun _ _ _ Mb Mb') in *. exists ta, tc. repeat split; [assumption..|lia].
Qed.
Lemma before_trans_l a b c : NotAfter a b -> Before b c -> Before a c.
Proof.
  intros (ta & tb & Ma & Mb & H) (tb' & tc & Mb' & Mc & H'). rewrite (moment_fun _ _ _ Mb Mb') in *. exists ta, tc. repeat split; [assumption..|lia].
Qed.
Lemma before_not_after a b : Before a b -> NotAfter a b.
Proof. intros (ta & tb & Ma & Mb & H). exists ta, tb. repeat split; [assumption..|lia]. Qed.
Lemma not_after_refl a : Tidy a -> NotAfter a a.
Proof. intros A. destruct (tidy_moment a A) as [t M]. exists t, t. repeat split; [assumption..|lia]. Qed.

Lemma snoc_ordered (R : str -> str -> Prop) l s : StronglySorted R l ->
  (forall x, In x l -> R x s) -> StronglySorted R (l ++ [s]).
Proof.
  intros S H. apply ss_app. repeat split; [assumption|repeat constructor|]. apply Forall_forall. intros x Hx.
  constructor; [auto|constructor].
Qed.
Lemma insert_ordered (R : str -> str -> Prop) l k s : StronglySorted R l ->
  (forall i x, (i < k)%nat -> nth_error l i = Some x -> R x s) ->
  (forall i x, (k <= i)%nat -> nth_error l i = Some x -> R s x) -> StronglySorted R (insert_at l k s).
Proof.
  intros S H1 H2. unfold insert_at. rewrite <- (firstn_skipn k l) in S. apply ss_app in S as (S1 & S2 & F).
  apply ss_app. split; [assumption|]. split.
  - constructor; [assumption|]. apply Forall_forall. intros x Hx. apply In_nth_error in Hx as [i Hi].
    rewrite nth_error_skipn in Hi. apply (H2 (k + i)%nat); [lia|assumption].
  - apply Forall_forall. intros x Hx. pose proof Hx as Hx'. apply In_nth_error in Hx' as [i Hi]. apply nth_error_firstn in Hi as [Hi N].
    constructor; [eauto|]. rewrite Forall_forall in F. auto.
Qed.
Lemma insert_in l k s x : In x (insert_at l k s) -> x = s \/ In x l.
Proof.
  unfold insert_at. rewrite in_app_iff. cbn. rewrite <- (firstn_skipn k l) at 3. rewrite in_app_iff. intuition.
Qed.
(** all elements of a sorted list are not after the last *)
Lemma last_is_latest l x y : StronglySorted NotAfter l -> Forall Tidy l -> last_timestamp l = Some x -> In y l -> NotAfter y x.
Proof.
  intros S T E. apply last_timestamp_some in E as [p ->]. apply ss_app in S as (_ & _ & F).
  rewrite in_app_iff. intros [H|[<-|[]]].
  - rewrite Forall_forall in F. specialize (F y H). inversion F; subst. assumption.
  - apply not_after_refl. rewrite Forall_forall in T. apply T. apply in_or_app. cbn. auto.
Qed.
Lemma last_tidy l x : Forall Tidy l -> last_timestamp l = Some x -> Tidy x.
Proof.
  intros T E. apply last_timestamp_some in E as [p ->]. apply Forall_app in T as [_ T]. inversion T; subst. assumption.
Qed.

Lemma last_iso_time u c : last (iso_time u) c <> "Z"%char.
Proof.
  unfold iso_time. set (a := u / 1000000).
  assert (forall d, dec_digit (d mod 10) <> "Z"%char) as G.
  { intros d. apply dec_digit_not_Z. pose proof (Z.mod_pos_bound d 10). lia. }
  destruct (u mod 1000000 =? 0).
  - rewrite app_nil_r. change (dec 2 (a mod 60)) with (dec 1 (a mod 60 / 10) ++ [dec_digit (a mod 60 mod 10)]).
    rewrite !app_assoc, last_last. apply G.
  - change (dec 6 (u mod 1000000)) with (dec 5 (u mod 1000000 / 10) ++ [dec_digit (u mod 1000000 mod 10)]).
    rewrite !app_assoc, last_last. apply G.
Qed.
Lemma strip_isoformat t : strip_z (isoformat t) = isoformat t.
Proof.
  apply strip_z_id with (c := "a"%char). unfold isoformat. rewrite last_iso_date. cbn [app L list_ascii_of_string].
  pose proof (last_iso_time (t mod day_us) "a"%char) as H. pose proof (length_iso_time (t mod day_us)) as E.
  destruct (iso_time (t mod day_us)) as [|x r]; [destruct (_ =? _); discriminate E|]. exact H.
Qed.
Lemma strip_tidy s : Tidy s -> strip_z (strip_z s) = strip_z s.
Proof.
  intros T. destruct (tidy_form s T) as (t & M & R & W & [->|[-> D]]).
  - unfold full. rewrite strip_z_app. apply strip_isoformat.
  - rewrite !strip_iso_date by apply day_range, R. reflexivity.
Qed.
Lemma after_duration us s t r : Moment s t -> timestamp_after_duration us s = Ok r -> InRange (t + us) /\ r = full (t + us).
Proof.
  intros M. unfold timestamp_after_duration.
  unfold check_timestamp. destruct (fromisoformat (strip_z (strip_z s))) as [u|]; cbn [bind]; [|discriminate].
  unfold Moment in M. rewrite M. unfold shift.
  destruct ((0 <=? t + us) && (t + us <? max_moment)) eqn:C; cbn [bind]; [|discriminate]. intros [= <-].
  apply andb_true_iff in C as [C1 C2]. split; [unfold InRange; lia|reflexivity].
Qed.
Lemma after_duration_ok us s t : Tidy s -> Moment s t -> InRange (t + us) -> timestamp_after_duration us s = Ok (full (t + us)).
Proof.
  intros T M [R1 R2]. unfold timestamp_after_duration, check_timestamp. rewrite strip_tidy by exact T.
  unfold Moment in M. rewrite M. cbn [bind]. unfold shift.
  replace ((0 <=? t + us) && (t + us <? max_moment)) with true by (symmetry; apply andb_true_iff; lia). reflexivity.
Qed.
Definition WholeSeconds (us : Z) : Prop := us mod 1000000 = 0.
Lemma whole_second_add t us : WholeSecond t -> WholeSeconds us -> WholeSecond (t + us).
Proof. unfold WholeSecond, WholeSeconds. intros A B. rewrite Z.add_mod, A, B by lia. reflexivity. Qed.
Lemma canonical_of_full t : InRange t -> WholeSecond t -> Canonical (full t).
Proof. intros. apply canonical_full. eauto. Qed.

Lemma extend_by_duration_spec l us l' : Forall Tidy l -> WholeSeconds us -> extend_by_duration l us = Ok l' ->
  0 <= us /\ exists x t, last_timestamp l = Some x /\ Moment x t /\ l' = l ++ [full (t + us)] /\
  Canonical (full (t + us)) /\ InRange (t + us).
Proof.
  intros T W. unfold extend_by_duration. destruct (0 <=? us / day_us) eqn:C; cbn [assert_ bind]; [|discriminate].
  assert (0 <= us) by (pose proof (Z.div_mod us day_us); pose proof (Z.mod_pos_bound us day_us); unfold day_us in *; lia).
  destruct (last_timestamp l) as [x|] eqn:E; [|discriminate].
  pose proof (last_tidy l x T E) as X. destruct (tidy_form x X) as (t & M & R & Wt & _).
  destruct (timestamp_after_duration us x) as [s|] eqn:A; cbn [bind]; [|discriminate]. intros [= <-].
  destruct (after_duration us x t s M A) as [R' ->]. split; [assumption|]. exists x, t.
  repeat split; try assumption. all: try (apply R'). all: apply canonical_of_full; [exact R'|auto using whole_second_add].
Qed.
Lemma extend_by_duration_ordered l us l' : Forall Tidy l -> StronglySorted NotAfter l -> WholeSeconds us ->
  extend_by_duration l us = Ok l' -> Forall Tidy l' /\ StronglySorted NotAfter l'.
Proof.
  intros T S W E. destruct (extend_by_duration_spec l us l' T W E) as (P & x & t & L & M & -> & C & R).
  split; [apply Forall_app; split; [assumption|constructor; [left; exact C|constructor]]|].
  apply snoc_ordered; [assumption|]. intros y Hy. apply (not_after_trans y x); [apply (last_is_latest l); assumption|].
  exists t, (t + us). repeat split; [assumption|apply moment_full, R|lia].
Qed.
Lemma days_whole d : WholeSeconds (duration_of d 0 0 0).
Proof. unfold WholeSeconds, duration_of. replace (d * day_us + _) with (d * 86400 * 1000000) by (unfold day_us; lia). apply Z.mod_mul. lia. Qed.
Lemma extend_n_ind (P : series -> Prop) n d l l' : (forall a b, P a -> extend_by_days a d = Ok b -> P b) ->
  P l -> extend_n n d l = Ok l' -> P l'.
Proof.
  intros H. revert l. induction n as [|n IH]; intros l Hl; cbn [extend_n]; [intros [= <-]; exact Hl|].
  destruct (extend_by_days l d) as [m|] eqn:E; cbn [bind]; [|discriminate]. intros E'. apply (IH m); eauto.
Qed.
Lemma new_series_ind (P : series -> Prop) s a b c e l : (forall x y d, 0 < d -> P x -> extend_by_days x d = Ok y -> P y) ->
  (check_timestamp s = Ok tt -> P [s]) -> new_series s a b c e = Ok l -> P l.
Proof.
  intros H H0. unfold new_series. destruct (check_timestamp s) as [[]|]; cbn [bind]; [|discriminate].
  destruct (extend_n a 1 [s]) as [l1|] eqn:E1; cbn [bind]; [|discriminate].
  destruct (extend_n b 30 l1) as [l2|] eqn:E2; cbn [bind]; [|discriminate].
  destruct (extend_n c 90 l2) as [l3|] eqn:E3; cbn [bind]; [|discriminate]. intros E4.
  apply (extend_n_ind P) in E1; [|intros x y; apply H; lia|auto].
  apply (extend_n_ind P) in E2; [|intros x y; apply H; lia|auto].
  apply (extend_n_ind P) in E3; [|intros x y; apply H; lia|auto].
  apply (extend_n_ind P) in E4; [|intros x y; apply H; lia|auto]. exact E4.
Qed.

(** the index at which add_timestamp inserts *)
Lemma insertion_spec l s l' : Tidy s -> add_timestamp l s true = Ok l' ->
  exists k, l' = insert_at l k s /\
    (forall i x, (k <= i)%nat -> nth_error l i = Some x -> str_lt s x = true) /\
    (k = O \/ exists x, nth_error l (k - 1) = Some x /\ str_lt s x = false).
Proof.
  intros T. unfold add_timestamp, not_later_than. rewrite (tidy_check s T). cbn [bind].
  pose proof (not_later_scan l s (List.length l) (le_n _)) as H.
  destruct (not_later_loop l s (List.length l)) as [j|]; intros [= <-].
  - destruct H as (J & X & F). exists (S j). split; [reflexivity|]. split.
    + intros i x K N. apply (F i); [|exact N]. split; [lia|]. apply nth_error_Some. congruence.
    + right. cbn. rewrite Nat.sub_0_r. exact X.
  - exists O. split; [reflexivity|]. split; [|auto]. intros i x _ N. apply (H i); [|exact N]. apply nth_error_Some. congruence.
Qed.
Lemma nth_tidy (P : str -> Prop) l i x : Forall P l -> nth_error l i = Some x -> P x.
Proof. intros T N. rewrite Forall_forall in T. eapply T, nth_error_In, N. Qed.
Lemma add_ordered l s ins l' : Forall Tidy l -> StronglySorted NotAfter l -> Tidy s ->
  add_timestamp l s ins = Ok l' -> Forall Tidy l' /\ StronglySorted NotAfter l'.
Proof.
  intros T S Ts. destruct ins.
  - intros E. destruct (insertion_spec l s l' Ts E) as (k & -> & A & B). split.
    + apply Forall_forall. intros x Hx. apply insert_in in Hx as [->|Hx]; [exact Ts|]. rewrite Forall_forall in T. auto.
    + apply insert_ordered; [assumption| |].
      * intros i x K N. destruct B as [->|(y & Ny & Cy)]; [lia|].
        assert (NotAfter y s) as Y by (apply not_after_text; [apply (nth_tidy Tidy l (k - 1)); assumption|assumption|apply str_lt_false, Cy]).
        assert (i = k - 1 \/ i < k - 1)%nat as [->|Hi] by lia; [congruence|].
        apply (not_after_trans x y); [|exact Y]. apply (proj1 (ss_nth _ _) S i (k - 1)%nat); assumption.
      * intros i x K N. apply not_after_text; [assumption|apply (nth_tidy Tidy l i); assumption|]. apply str_lt_le, (A i); assumption.
  - unfold add_timestamp. rewrite (tidy_check s Ts). cbn [bind].
    assert (forall l', Ok (l ++ [s]) = Ok l' -> (forall x, In x l -> NotAfter x s) -> Forall Tidy l' /\ StronglySorted NotAfter l') as G.
    { intros m [= <-] H. split; [apply Forall_app; split; [assumption|constructor; [assumption|constructor]]|].
      apply snoc_ordered; assumption. }
    destruct (last_timestamp l) as [x|] eqn:E.
    + destruct (str_lt x s) eqn:C; cbn [assert_ bind]; [|discriminate]. intros H. apply G; [exact H|].
      intros y Hy. apply (not_after_trans y x); [apply (last_is_latest l); assumption|].
      apply not_after_text; [apply (last_tidy l); assumption|assumption|apply str_lt_le, C].
    + intros H. apply G; [exact H|]. apply last_timestamp_none in E as ->. intros y [].
Qed.

(** * C23 *)
(** Series built by any history of accepted calls with tidy stamps. *)
Inductive Built : series -> Prop :=
| BEmpty : Built []
| BNew : forall first daily monthly quarterly yearly l, Tidy first ->
    new_series first daily monthly quarterly yearly = Ok l -> Built l
| BAdd : forall l s allow_insertion l', Built l -> Tidy s -> add_timestamp l s allow_insertion = Ok l' -> Built l'
| BExtend : forall l us l', Built l -> WholeSeconds us -> extend_by_duration l us = Ok l' -> Built l'
| BDays : forall l days l', Built l -> extend_by_days l days = Ok l' -> Built l'.
Lemma built_ordered l : Built l -> Forall Tidy l /\ StronglySorted NotAfter l.
Proof.
  induction 1 as [|first d m q y l T E|l s ins l' _ [T S] Ts E|l us l' _ [T S] W E|l days l' _ [T S] E].
  - split; constructor.
  - revert E. apply (new_series_ind (fun l => Forall Tidy l /\ StronglySorted NotAfter l)); [|intros _; split; [constructor; [assumption|constructor]|constructor; constructor]].
    intros a b d' _ [Ta Sa] E. apply (extend_by_duration_ordered a _ b Ta Sa (days_whole d') E).
  - apply (add_ordered l s ins l'); assumption.
  - apply (extend_by_duration_ordered l us l'); assumption.
  - apply (extend_by_duration_ordered l _ l' T S (days_whole days) E).
Qed.
Theorem C23_stamps_never_go_back l : Built l -> Forall Tidy l /\ Ordered NotAfter l.
Proof. intros B. destruct (built_ordered l B) as [T S]. split; [exact T|]. exact (proj1 (ss_nth _ l) S). Qed.
Print Assumptions C23_stamps_never_go_back.

(** Series built with canonical stamps, positive durations, and insertion of new stamps only. *)
Inductive BuiltStrict : series -> Prop :=
| SEmpty : BuiltStrict []
| SNew : forall first daily monthly quarterly yearly l, Canonical first ->
    new_series first daily monthly quarterly yearly = Ok l -> BuiltStrict l
| SAppend : forall l s l', BuiltStrict l -> Canonical s -> add_timestamp l s false = Ok l' -> BuiltStrict l'
| SInsert : forall l s l', BuiltStrict l -> Canonical s -> ~ In s l -> add_timestamp l s true = Ok l' -> BuiltStrict l'
| SExtend : forall l us l', BuiltStrict l -> WholeSeconds us -> 0 < us -> extend_by_duration l us = Ok l' -> BuiltStrict l'
| SDays : forall l days l', BuiltStrict l -> 0 < days -> extend_by_days l days = Ok l' -> BuiltStrict l'.
Lemma forall_tidy l : Forall Canonical l -> Forall Tidy l.
Proof. apply Forall_impl. exact canonical_tidy. Qed.
Lemma sorted_weak l : StronglySorted Before l -> StronglySorted NotAfter l.
Proof. rewrite !ss_nth. intros H i j a b L A B. apply before_not_after, (H i j); assumption. Qed.
Lemma extend_strict l us l' : Forall Canonical l /\ StronglySorted Before l -> WholeSeconds us -> 0 < us ->
  extend_by_duration l us = Ok l' -> Forall Canonical l' /\ StronglySorted Before l'.
Proof.
  intros [T S] W P E. destruct (extend_by_duration_spec l us l' (forall_tidy l T) W E) as (_ & x & t & L & M & -> & C & R).
  split; [apply Forall_app; split; [assumption|constructor; [exact C|constructor]]|].
  apply snoc_ordered; [assumption|]. intros y Hy.
  apply (before_trans_l y x); [apply (last_is_latest l); auto using sorted_weak, forall_tidy|].
  exists t, (t + us). repeat split; [assumption|apply moment_full, R|lia].
Qed.
Lemma append_strict l s l' : Forall Canonical l /\ StronglySorted Before l -> Canonical s ->
  add_timestamp l s false = Ok l' -> Forall Canonical l' /\ StronglySorted Before l'.
Proof.
  intros [T S] Ts. unfold add_timestamp. rewrite (tidy_check s (canonical_tidy s Ts)). cbn [bind].
  assert (forall l', Ok (l ++ [s]) = Ok l' -> (forall x, In x l -> Before x s) -> Forall Canonical l' /\ StronglySorted Before l') as G.
  { intros m [= <-] H. split; [apply Forall_app; split; [assumption|constructor; [assumption|constructor]]|].
    apply snoc_ordered; assumption. }
  destruct (last_timestamp l) as [x|] eqn:E.
  - destruct (str_lt x s) eqn:C; cbn [assert_ bind]; [|discriminate]. intros H. apply G; [exact H|].
    intros y Hy. apply (before_trans_l y x); [apply (last_is_latest l); auto using sorted_weak, forall_tidy|].
    apply before_text; [|assumption|exact C]. apply last_timestamp_some in E as [p ->]. apply Forall_app in T as [_ T]. inversion T; assumption.
  - intros H. apply G; [exact H|]. apply last_timestamp_none in E as ->. intros y [].
Qed.
Lemma insert_strict l s l' : Forall Canonical l /\ StronglySorted Before l -> Canonical s -> ~ In s l ->
  add_timestamp l s true = Ok l' -> Forall Canonical l' /\ StronglySorted Before l'.
Proof.
  intros [T S] Ts New E. destruct (insertion_spec l s l' (canonical_tidy s Ts) E) as (k & -> & A & B). split.
  - apply Forall_forall. intros x Hx. apply insert_in in Hx as [->|Hx]; [exact Ts|]. rewrite Forall_forall in T. auto.
  - apply insert_ordered; [assumption| |].
    + intros i x K N. destruct B as [->|(y & Ny & Cy)]; [lia|].
      assert (Before y s) as Y.
      { apply before_text; [apply (nth_tidy Canonical l (k - 1)); assumption|assumption|].
        unfold str_lt. destruct (str_le s y) eqn:Q; [|reflexivity]. apply str_lt_false in Cy.
        pose proof (o_antisym _ str_le_order _ _ Cy Q). subst y. destruct New. eapply nth_error_In, Ny. }
      assert (i = k - 1 \/ i < k - 1)%nat as [->|Hi] by lia; [congruence|].
      apply (before_trans_l x y); [|exact Y]. apply before_not_after. apply (proj1 (ss_nth _ _) S i (k - 1)%nat); assumption.
    + intros i x K N. apply before_text; [assumption|apply (nth_tidy Canonical l i); assumption|]. apply (A i); assumption.
Qed.
Lemma strict_sorted l : BuiltStrict l -> Forall Canonical l /\ StronglySorted Before l.
Proof.
  induction 1 as [|first d m q y l T E|l s l' _ IH Ts E|l s l' _ IH Ts New E|l us l' _ IH W P E|l days l' _ IH P E].
  - split; constructor.
  - revert E. apply (new_series_ind (fun l => Forall Canonical l /\ StronglySorted Before l)); [|intros _; split; [constructor; [assumption|constructor]|constructor; constructor]].
    intros a b d' P IH E. apply (extend_strict a _ b IH (days_whole d')) in E; [exact E|]. unfold duration_of, day_us. lia.
  - apply (append_strict l s l'); assumption.
  - apply (insert_strict l s l'); assumption.
  - apply (extend_strict l us l'); assumption.
  - apply (extend_strict l _ l' IH (days_whole days)) in E; [exact E|]. unfold duration_of, day_us. lia.
Qed.
Theorem C23_stamps_strictly_increase l : BuiltStrict l -> Forall Canonical l /\ Ordered Before l.
Proof. intros B. destruct (strict_sorted l B) as [T S]. split; [exact T|]. exact (proj1 (ss_nth _ l) S). Qed.
Print Assumptions C23_stamps_strictly_increase.

(** What the accepted calls add, and which calls are accepted. *)
Theorem C23_append_accepts l s : Forall Canonical l -> Canonical s ->
  add_timestamp l s false = Ok (l ++ [s]) /\ (forall p x, l = p ++ [x] -> Before x s)
  \/ add_timestamp l s false = Err AssertionError /\ (exists p x, l = p ++ [x] /\ ~ Before x s).
Proof.
  intros T Ts. unfold add_timestamp. rewrite (tidy_check s (canonical_tidy s Ts)). cbn [bind].
  destruct (last_timestamp l) as [x|] eqn:E.
  - apply last_timestamp_some in E as [p ->]. apply Forall_app in T as [_ T]. inversion T; subst.
    destruct (str_lt x s) eqn:C; cbn [assert_ bind]; [left|right]; (split; [reflexivity|]).
    + intros q y Q. apply app_inj_tail in Q as [_ <-]. apply before_text; assumption.
    + exists p, x. split; [reflexivity|]. rewrite before_text by assumption. congruence.
  - left. split; [reflexivity|]. apply last_timestamp_none in E as ->. intros p x Q. destruct p; discriminate.
Qed.
Print Assumptions C23_append_accepts.
Theorem C23_insert_adds_one l s : Tidy s -> exists a b, l = a ++ b /\ add_timestamp l s true = Ok (a ++ s :: b).
Proof.
  intros T. unfold add_timestamp, not_later_than. rewrite (tidy_check s T). cbn [bind].
  set (k := match not_later_loop l s (List.length l) with None => O | Some i => S i end).
  exists (firstn k l), (skipn k l). split; [symmetry; apply firstn_skipn|reflexivity].
Qed.
Print Assumptions C23_insert_adds_one.
Theorem C23_extend_adds_the_shifted_stamp l x us t : Tidy x -> Moment x t -> WholeSeconds us -> 0 <= us ->
  InRange (t + us) -> exists s, extend_by_duration (l ++ [x]) us = Ok (l ++ [x; s]) /\ Canonical s /\ Moment s (t + us).
Proof.
  intros T M W P R. exists (full (t + us)). unfold extend_by_duration.
  replace (0 <=? us / day_us) with true by (symmetry; apply Z.leb_le, Z.div_pos; unfold day_us; lia). cbn [assert_ bind].
  rewrite last_timestamp_spec, rev_app_distr. cbn [rev app].
  rewrite (after_duration_ok us x t T M R). cbn [bind]. rewrite <- app_assoc. split; [reflexivity|].
  split; [|apply moment_full, R]. apply canonical_of_full; [exact R|]. apply whole_second_add; [|exact W].
  destruct (tidy_form x T) as (t' & M' & _ & W' & _). rewrite (moment_fun _ _ _ M M'). exact W'.
Qed.
Print Assumptions C23_extend_adds_the_shifted_stamp.

(** index_for_timestamp inverts timestamp *)
Lemma index_from_spec s l : forall k,
  match index_for_timestamp_from k l s with
  | Some j => (k <= j)%nat /\ nth_error l (j - k) = Some s /\ forall i, (i < j - k)%nat -> nth_error l i <> Some s
  | None => ~ In s l
  end.
Proof.
  induction l as [|x l IH]; intros k; cbn [index_for_timestamp_from]; [intros []|].
  destruct (str_eqb_spec x s) as [->|D].
  - rewrite Nat.sub_diag. split; [lia|]. split; [reflexivity|]. intros; lia.
  - specialize (IH (S k)). destruct (index_for_timestamp_from (S k) l s) as [j|].
    + destruct IH as (J & N & F). replace (j - k)%nat with (S (j - S k)) by lia. split; [lia|]. split; [exact N|].
      intros [|i] I; cbn; [congruence|]. apply F. lia.
    + intros [H|H]; [congruence|auto].
Qed.
Lemma timestamp_nat l (i : nat) : timestamp l (Z.of_nat i) = nth_error l i.
Proof.
  unfold timestamp. destruct (Z.ltb_spec (Z.of_nat i) (Z.of_nat (List.length l))).
  - replace (- Z.of_nat (List.length l) <=? Z.of_nat i) with true by lia. cbn [andb].
    replace (Z.of_nat i <? 0) with false by lia. rewrite Nat2Z.id. reflexivity.
  - rewrite andb_false_r. symmetry. apply nth_error_None. lia.
Qed.
Theorem C23_index_is_first_match l s :
  match index_for_timestamp l s with
  | Some j => timestamp l (Z.of_nat j) = Some s /\ forall i, (i < j)%nat -> timestamp l (Z.of_nat i) <> Some s
  | None => forall i, timestamp l i <> Some s
  end.
Proof.
  pose proof (index_from_spec s l 0) as H. unfold index_for_timestamp.
  destruct (index_for_timestamp_from 0 l s) as [j|].
  - destruct H as (_ & N & F). rewrite Nat.sub_0_r in *. rewrite timestamp_nat. split; [exact N|].
    intros i I. rewrite timestamp_nat. apply F, I.
  - intros i. unfold timestamp. destruct (_ && _); [|discriminate]. intros N. apply H. eapply nth_error_In, N.
Qed.
Print Assumptions C23_index_is_first_match.
Theorem C23_index_inverts_timestamp l i s : BuiltStrict l -> 0 <= i -> timestamp l i = Some s ->
  index_for_timestamp l s = Some (Z.to_nat i).
Proof.
  intros B P N. replace i with (Z.of_nat (Z.to_nat i)) in N by lia. pose proof (C23_index_is_first_match l s) as H.
  destruct (C23_stamps_strictly_increase l B) as [C O].
  destruct (index_for_timestamp l s) as [j|]; [|apply H in N as []].
  destruct H as [J F]. assert (j = Z.to_nat i \/ j < Z.to_nat i \/ Z.to_nat i < j)%nat as [->|[L|L]] by lia; [reflexivity| |].
  - rewrite timestamp_nat in N, J. destruct (O _ _ _ _ L J N) as (a & b & A & D & X). pose proof (moment_fun _ _ _ A D). lia.
  - destruct (F _ L N).
Qed.
Print Assumptions C23_index_inverts_timestamp.
(** a negative index counts from the end *)
Theorem C23_negative_index l i : - Z.of_nat (List.length l) <= i < 0 -> timestamp l i = timestamp l (Z.of_nat (List.length l) + i).
Proof.
  intros H. unfold timestamp. set (n := Z.of_nat (List.length l)) in *.
  replace ((- n <=? i) && (i <? n)) with true by (symmetry; apply andb_true_iff; lia).
  replace ((- n <=? n + i) && (n + i <? n)) with true by (symmetry; apply andb_true_iff; lia).
  replace (i <? 0) with true by lia. replace (n + i <? 0) with false by lia. reflexivity.
Qed.
Print Assumptions C23_negative_index.

(** The documented claim of strict order fails for a zero duration, for a repeated insertion, and
    for stamps with a fraction of a second. *)
Definition d1 : str := L "2020-02-28T23:59:59Z".
Definition d2 : str := L "2020-03-01T00:00:00Z".
Theorem C23_zero_duration_refuted : exists l', extend_by_duration [d1] 0 = Ok l' /\ l' = [d1; d1].
Proof. eexists. split; vm_compute; reflexivity. Qed.
Print Assumptions C23_zero_duration_refuted.
Theorem C23_reinsertion_refuted : exists l', add_timestamp [d1; d2] d1 true = Ok l' /\ l' = [d1; d1; d2].
Proof. eexists. split; vm_compute; reflexivity. Qed.
Print Assumptions C23_reinsertion_refuted.
(** the second stamp is half a second before the first, yet it is accepted as later *)
Definition f1 : str := L "2020-01-01T00:00:00.500Z".
Definition f2 : str := L "2020-01-01T00:00:00Z".
Theorem C23_fraction_refuted : exists l' t1 t2, add_timestamp [f1] f2 false = Ok l' /\ l' = [f1; f2] /\
  Moment f1 t1 /\ Moment f2 t2 /\ t2 < t1.
Proof.
  exists [f1; f2], (737424 * day_us + 500000), (737424 * day_us).
  split; [vm_compute; reflexivity|]. split; [reflexivity|]. split; [vm_compute; reflexivity|]. split; [vm_compute; reflexivity|]. vm_compute; reflexivity.
Qed.
Print Assumptions C23_fraction_refuted.
Lemma c_d1 : Canonical d1. Proof. repeat split; vm_compute; reflexivity. Qed.
Lemma c_d2 : Canonical d2. Proof. repeat split; vm_compute; reflexivity. Qed.
(** a non-trivial reachable series: two daily steps across a leap day, then an insertion *)
Example C23_example : exists l, BuiltStrict l /\
  l = [d1; L "2020-02-29T23:59:59Z"; d2; L "2020-03-01T23:59:59Z"] /\ index_for_timestamp l d2 = Some 2%nat.
Proof.
  exists [d1; L "2020-02-29T23:59:59Z"; d2; L "2020-03-01T23:59:59Z"]. split; [|split; [|vm_compute; reflexivity]].
  - apply (SInsert [d1; L "2020-02-29T23:59:59Z"; L "2020-03-01T23:59:59Z"] d2).
    + apply (SNew d1 2 0 0 0); [exact c_d1|vm_compute; reflexivity].
    + exact c_d2.
    + cbn [In]. intros [H|[H|[H|[]]]]; discriminate H.
    + vm_compute. reflexivity.
  - reflexivity.
Qed.

(** * C24 *)
Definition at_ (l : series) (i : nat) (t : moment) : Prop := exists x, nth_error l i = Some x /\ Moment x t.
Theorem C24_not_later_than l s t : Forall Canonical l -> Canonical s -> Moment s t ->
  exists r, not_later_than l s = Ok r /\
  match r with
  | Some i => (exists u, at_ l i u /\ u <= t) /\ forall j u, (i < j)%nat -> at_ l j u -> t < u
  | None => forall j u, at_ l j u -> t < u
  end.
Proof.
  intros C Cs M. unfold not_later_than. rewrite (moment_check s t M). cbn [bind]. eexists. split; [reflexivity|].
  pose proof (not_later_scan l s (List.length l) (le_n _)) as H.
  assert (forall j u x, nth_error l j = Some x -> Moment x u -> str_lt s x = (t <? u)) as G.
  { intros j u x N Mx. apply canonical_lt; try assumption. apply (nth_tidy Canonical l j); assumption. }
  destruct (not_later_loop l s (List.length l)) as [i|].
  - destruct H as (J & (x & N & X) & F). split.
    + destruct (canonical_moment x (nth_tidy Canonical l i x C N)) as (u & Mu & _). exists u. split; [exists x; auto|].
      rewrite (G i u x N Mu) in X. lia.
    + intros j u L (y & Ny & My). pose proof (F j y) as Q. rewrite (G j u y Ny My) in Q.
      apply Z.ltb_lt, Q; [|exact Ny]. split; [exact L|]. apply nth_error_Some. congruence.
  - intros j u (y & Ny & My). pose proof (H j y) as Q. rewrite (G j u y Ny My) in Q.
    apply Z.ltb_lt, Q; [|exact Ny]. apply nth_error_Some. congruence.
Qed.
Print Assumptions C24_not_later_than.
Theorem C24_not_earlier_than l s t : Forall Canonical l -> Canonical s -> Moment s t ->
  exists r, not_earlier_than l s = Ok r /\
  match r with
  | Some i => (exists u, at_ l i u /\ t <= u) /\ forall j u, (j < i)%nat -> at_ l j u -> u < t
  | None => forall j u, at_ l j u -> u < t
  end.
Proof.
  intros C Cs M. unfold not_earlier_than. rewrite (moment_check s t M). cbn [bind]. eexists. split; [reflexivity|].
  pose proof (not_earlier_scan s l 0) as H.
  assert (forall j u x, nth_error l j = Some x -> Moment x u -> str_lt x s = (u <? t)) as G.
  { intros j u x N Mx. apply canonical_lt; try assumption. apply (nth_tidy Canonical l j); assumption. }
  destruct (not_earlier_loop 0 l s) as [i|].
  - rewrite Nat.sub_0_r in H. destruct H as (J & (x & N & X) & F). split.
    + destruct (canonical_moment x (nth_tidy Canonical l i x C N)) as (u & Mu & _). exists u. split; [exists x; auto|].
      rewrite (G i u x N Mu) in X. lia.
    + intros j u L (y & Ny & My). pose proof (F j y) as Q. rewrite (G j u y Ny My) in Q. apply Z.ltb_lt, Q; assumption.
  - intros j u (y & Ny & My). pose proof (H j y) as Q. rewrite (G j u y Ny My) in Q. apply Z.ltb_lt, Q; assumption.
Qed.
Print Assumptions C24_not_earlier_than.

Lemma duration_between_ok a b ta tb : Moment a ta -> Moment b tb -> duration_between a b = Ok (tb - ta).
Proof. unfold Moment, duration_between. intros -> ->. reflexivity. Qed.
Definition Nearest (l : series) (t : moment) (i : nat) : Prop :=
  exists u, at_ l i u /\ forall j v, at_ l j v -> Z.abs (u - t) <= Z.abs (v - t).
Lemma at_fun l i t t' : at_ l i t -> at_ l i t' -> t = t'.
Proof. intros (x & N & M) (y & N' & M'). rewrite N in N'. injection N' as ->. eapply moment_fun; eassumption. Qed.
Lemma ordered_at l i j u v : Forall Canonical l -> Ordered NotAfter l -> (i <= j)%nat -> at_ l i u -> at_ l j v -> u <= v.
Proof.
  intros C O L A B. assert (i = j \/ i < j)%nat as [->|K] by lia; [rewrite (at_fun l j u v A B); lia|].
  destruct A as (x & N & M), B as (y & N' & M'). destruct (O _ _ _ _ K N N') as (p & q & P & Q & H).
  rewrite (moment_fun _ _ _ M P), (moment_fun _ _ _ M' Q). exact H.
Qed.
Lemma at_exists l i : Forall Canonical l -> (i < List.length l)%nat -> exists u, at_ l i u.
Proof.
  intros C H. destruct (nth_error l i) as [x|] eqn:E; [|apply nth_error_None in E; lia].
  destruct (canonical_moment x (nth_tidy Canonical l i x C E)) as (u & M & _). exists u, x. auto.
Qed.
(** closest_to gives a nearest stamp, except that when the query lies between the first two
    stamps it gives the first, whichever is nearer. *)
Theorem C24_closest_to_partial l s t : Forall Canonical l -> Ordered NotAfter l -> l <> [] -> Canonical s -> Moment s t ->
  exists i, closest_to l s = Ok (Some i) /\
  ( (exists u v, at_ l 0 u /\ at_ l 1 v /\ u <= t < v /\ i = 0%nat) \/ Nearest l t i ).
Proof.
  intros C O Ne Cs M. unfold closest_to. rewrite (moment_check s t M). cbn [bind].
  destruct (C24_not_later_than l s t C Cs M) as (r & E & H). rewrite E. cbn [bind].
  destruct l as [|x0 l0]; [congruence|]. set (l := x0 :: l0) in *.
  assert (0 < List.length l)%nat as Len by (cbn; lia).
  destruct (at_exists l 0 C Len) as [u0 A0].
  destruct r as [before|].
  - destruct H as [(u & A & U) F]. destruct before as [|b].
    + exists 0%nat. split; [reflexivity|]. rewrite (at_fun _ _ _ _ A A0) in *.
      destruct (Nat.eq_dec (List.length l) 1) as [E1|N1].
      * right. exists u0. split; [exact A0|]. intros j v B. assert (j = 0)%nat as ->.
        { destruct B as (y & B & _). assert (j < List.length l)%nat by (apply nth_error_Some; congruence). lia. }
        rewrite (at_fun _ _ _ _ B A0). lia.
      * left. destruct (at_exists l 1 C ltac:(lia)) as [v B]. exists u0, v. repeat split; try assumption.
        apply (F 1%nat); [lia|exact B].
    + set (before := S b) in *. destruct A as (x & N & Mx).
      assert (before < List.length l)%nat as Bl by (apply nth_error_Some; congruence).
      assert (nth before l [] = x) as Nx by (erewrite nth_error_nth; [reflexivity|exact N]). rewrite Nx.
      assert (forall j v, (j <= before)%nat -> at_ l j v -> v <= u) as Lo.
      { intros j v J B. apply (ordered_at l j before); try assumption. exists x. auto. }
      assert (at_ l before u) as A by (exists x; auto).
      destruct ((before =? List.length l - 1)%nat || str_eqb x s) eqn:Q.
      * exists before. split; [reflexivity|]. right. exists u. split; [exact A|]. intros j v B.
        assert (j < List.length l)%nat as J by (destruct B as (y & B & _); apply nth_error_Some; congruence).
        apply orb_true_iff in Q as [Q|Q].
        -- apply Nat.eqb_eq in Q. pose proof (Lo j v ltac:(lia) B). lia.
        -- apply str_eqb_eq in Q as ->. rewrite (moment_fun _ _ _ Mx M). lia.
      * apply orb_false_iff in Q as [Q1 _]. apply Nat.eqb_neq in Q1.
        destruct (at_exists l (S before) C ltac:(lia)) as [v B]. pose proof B as (y & Ny & My).
        assert (nth (S before) l [] = y) as Ey by (erewrite nth_error_nth; [reflexivity|exact Ny]). rewrite Ey.
        rewrite (duration_between_ok x s u t Mx M), (duration_between_ok s y t v M My). cbn [bind].
        pose proof (F (S before) v ltac:(lia) B) as Tv.
        assert (forall j w, (S before <= j)%nat -> at_ l j w -> v <= w) as Hi.
        { intros j w J W. apply (ordered_at l (S before) j); assumption. }
        exists (if t - u <=? v - t then before else S before). split; [reflexivity|]. right.
        destruct (Z.leb_spec (t - u) (v - t)).
        -- exists u. split; [exact A|]. intros j w W. destruct (le_lt_dec j before) as [J|J].
           ++ pose proof (Lo j w J W). lia.
           ++ pose proof (Hi j w J W). lia.
        -- exists v. split; [exact B|]. intros j w W. destruct (le_lt_dec j before) as [J|J].
           ++ pose proof (Lo j w J W). lia.
           ++ pose proof (Hi j w J W). lia.
  - exists 0%nat. split; [reflexivity|]. right. exists u0. split; [exact A0|]. intros j v B.
    pose proof (ordered_at l 0 j u0 v C O (Nat.le_0_l j) A0 B). pose proof (H _ _ A0). lia.
Qed.
Print Assumptions C24_closest_to_partial.
Definition e0 : str := L "2020-01-01T00:00:00Z".
Definition e1 : str := L "2020-01-31T00:00:00Z".
Definition eq_ : str := L "2020-01-30T00:00:00Z".
(** one day from the second stamp, 29 from the first, and the first is returned *)
Theorem C24_closest_to_refuted : exists l s t, BuiltStrict l /\ Canonical s /\ Moment s t /\
  closest_to l s = Ok (Some 0%nat) /\ ~ Nearest l t 0.
Proof.
  exists [e0; e1], eq_, ((737424 + 29) * day_us). split.
  { apply (SNew e0 0 1 0 0); [repeat split; vm_compute; reflexivity|vm_compute; reflexivity]. }
  split; [repeat split; vm_compute; reflexivity|]. split; [vm_compute; reflexivity|]. split; [vm_compute; reflexivity|].
  intros (u & A & H). assert (at_ [e0; e1] 0 (737424 * day_us)) as A' by (exists e0; split; [reflexivity|vm_compute; reflexivity]).
  assert (at_ [e0; e1] 1 ((737424 + 30) * day_us)) as B by (exists e1; split; [reflexivity|vm_compute; reflexivity]).
  rewrite (at_fun _ _ _ _ A A') in H. specialize (H 1%nat _ B). vm_compute in H. apply H. reflexivity.
Qed.
Print Assumptions C24_closest_to_refuted.
(** a date-only stamp and the midnight stamp of the same day are the same moment, but the lookup
    takes the midnight stamp to be later than the date *)
Theorem C24_mixed_form_refuted : exists l s t, Forall Tidy l /\ Tidy s /\ Moment s t /\ at_ l 0 t /\ not_later_than l s = Ok None.
Proof.
  exists [e0], (L "2020-01-01"), (737424 * day_us). split.
  { constructor; [|constructor]. left. repeat split; vm_compute; reflexivity. }
  split; [right; split; vm_compute; reflexivity|]. split; [vm_compute; reflexivity|].
  split; [exists e0; split; [reflexivity|vm_compute; reflexivity]|vm_compute; reflexivity].
Qed.
Print Assumptions C24_mixed_form_refuted.
Example C24_example : not_later_than [d1; L "2020-02-29T23:59:59Z"; d2] (L "2020-02-29T23:59:59Z") = Ok (Some 1%nat) /\
  not_earlier_than [d1; d2] (L "2020-02-29T00:00:00Z") = Ok (Some 1%nat) /\
  closest_to [d1; L "2020-02-29T23:59:59Z"; d2] (L "2020-02-29T23:59:59Z") = Ok (Some 1%nat).
Proof. vm_compute. auto. Qed.
