(** BisectProofs5.v: columns and shadows. *)
From Verif Require Import QBase BisectModel BisectProofs.
Open Scope Z_scope.

(** ** specification for columns: neighbouring columns with no face between them *)
Definition in_layer (n : col) (c : col) : Prop := 0 <= fst c < fst n /\ 0 <= snd c < snd n.
Inductive Joined (jf ff : col -> bool) : col -> col -> Prop :=
| joined_j j i : jf (j, i) = false -> Joined jf ff (j, i) (j + 1, i)
| joined_i j i : ff (j, i) = false -> Joined jf ff (j, i) (j, i + 1)
| joined_sym c d : Joined jf ff c d -> Joined jf ff d c.
Inductive Reach (n : col) (jf ff : col -> bool) : col -> Prop :=
| reach_0 : Reach n jf ff (0, 0)
| reach_step c d : Reach n jf ff c -> Joined jf ff c d -> in_layer n d -> Reach n jf ff d.

Lemma col_eqb_eq c d : col_eqb c d = true <-> c = d.
Proof. destruct c, d. unfold col_eqb. cbn. rewrite andb_true_iff, !Z.eqb_eq. split; [intros [-> ->]; reflexivity|intros [= -> ->]; auto]. Qed.
Lemma mem2_iff c l : mem2 c l = true <-> In c l.
Proof.
  unfold mem2. rewrite existsb_exists. split; [intros (x & H & E); apply col_eqb_eq in E; congruence|]. intros H. exists c. split; [assumption|now apply col_eqb_eq].
Qed.
Lemma in_indices2 n c : In c (indices2 n) <-> in_layer n c.
Proof.
  unfold indices2, in_layer. rewrite in_flat_map. split.
  - intros (j & Hj & H). apply in_map_iff in H. destruct H as (i & <- & Hi). apply in_zrange in Hj, Hi. cbn. lia.
  - intros [H1 H2]. exists (fst c). split; [now apply in_zrange|]. apply in_map_iff. exists (snd c). split; [now destruct c|now apply in_zrange].
Qed.
Lemma NoDup_indices2 n : NoDup (indices2 n).
Proof.
  unfold indices2. generalize (NoDup_zrange (fst n)). induction 1 as [|j l Hj Hl IH]; [constructor|]. cbn [flat_map].
  assert (D : forall e, In e (map (fun i => (j, i)) (zrange (snd n))) -> ~ In e (flat_map (fun j => map (fun i => (j, i)) (zrange (snd n))) l)).
  { intros e H X. apply in_map_iff in H. destruct H as (i & <- & _). apply in_flat_map in X. destruct X as (j' & Hj' & X). apply in_map_iff in X. destruct X as (i' & E & _). congruence. }
  assert (N : NoDup (map (fun i => (j, i)) (zrange (snd n)))) by (apply NoDup_map_inj_in; [intros x y _ _ E; congruence|apply NoDup_zrange]).
  revert D N. generalize (map (fun i => (j, i)) (zrange (snd n))). intros m D N. induction N as [|e r He Hr IHr]; [assumption|]. cbn [app]. constructor.
  - rewrite in_app_iff. intros [X|X]; [contradiction|]. apply (D e); [now left|assumption].
  - apply IHr. intros e' He'. apply D. now right.
Qed.
Lemma length_indices2 n : List.length (indices2 n) = (Z.to_nat (fst n) * Z.to_nat (snd n))%nat.
Proof.
  unfold indices2. rewrite (length_flat_const _ (Z.to_nat (snd n))), length_zrange; [reflexivity|]. intros j. now rewrite map_length, length_zrange.
Qed.

Section Columns.
Variables (n : col) (jf ff : col -> bool).
Hypothesis Hn : 0 < fst n /\ 0 < snd n.
Notation oj := (fun c => negb (jf c)).
Notation oi := (fun c => negb (ff c)).
Definition Good (a : list col) : Prop := NoDup a /\ forall c, In c a -> in_layer n c /\ Reach n jf ff c.
Lemma change_iff a c : (forall d, In d a -> in_layer n d) ->
  (In c (column_change n oj oi a) <-> in_layer n c /\ ~ In c a /\ exists d, In d a /\ Joined jf ff d c).
Proof.
  intros Ha. unfold column_change. rewrite filter_In, in_indices2. destruct c as [j i]. rewrite andb_true_iff, negb_true_iff.
  rewrite <- not_true_iff_false, mem2_iff, !orb_true_iff, !andb_true_iff, !mem2_iff, !negb_true_iff, !Z.leb_le, !Z.ltb_lt.
  split; intros (H1 & H2 & H3); (split; [assumption|split; [assumption|]]).
  - destruct H3 as [[[((X & Y) & Z')|((X & Y) & Z')]|((X & Y) & Z')]|((X & Y) & Z')]; eexists; (split; [exact Y|]).
    + replace (j, i) with (j - 1 + 1, i) by (f_equal; lia). now constructor.
    + apply joined_sym. now constructor.
    + replace (j, i) with (j, i - 1 + 1) by (f_equal; lia). now constructor.
    + apply joined_sym. now constructor.
  - destruct H3 as (d & Hd & H3). specialize (Ha d Hd). unfold in_layer in *. cbn [fst snd] in *.
    assert (Q : forall x y, Joined jf ff x y -> (fst y = fst x + 1 /\ snd y = snd x /\ jf x = false) \/ (fst y = fst x /\ snd y = snd x + 1 /\ ff x = false) \/
                              (fst x = fst y + 1 /\ snd x = snd y /\ jf y = false) \/ (fst x = fst y /\ snd x = snd y + 1 /\ ff y = false)).
    { induction 1 as [? ? E|? ? E|? ? E IH]; cbn [fst snd]; [auto|auto|]. tauto. }
    apply Q in H3. destruct d as [dj di]. cbn [fst snd] in *. destruct H3 as [(-> & -> & X)|[(-> & -> & X)|[(-> & -> & X)|(-> & -> & X)]]].
    + left. left. left. replace (dj + 1 - 1) with dj by lia. repeat split; (assumption || lia).
    + left. right. replace (di + 1 - 1) with di by lia. repeat split; (assumption || lia).
    + left. left. right. repeat split; (assumption || lia).
    + right. repeat split; (assumption || lia).
Qed.
Lemma good_change a : Good a -> Good (column_change n oj oi a ++ a).
Proof.
  intros [N H]. assert (Ha : forall d, In d a -> in_layer n d) by (intros d Hd; now apply H). split.
  - assert (D : forall c, In c (column_change n oj oi a) -> ~ In c a) by (intros c X; apply change_iff in X; tauto).
    assert (N2 : NoDup (column_change n oj oi a)) by (unfold column_change; apply NoDup_filter, NoDup_indices2).
    revert D N2. generalize (column_change n oj oi a). intros m D N2. induction N2 as [|e r He Hr IHr]; [assumption|]. cbn [app]. constructor.
    + rewrite in_app_iff. intros [X|X]; [contradiction|]. apply (D e); [now left|assumption].
    + apply IHr. intros e' He'. apply D. now right.
  - intros c X. apply in_app_iff in X. destruct X as [X|X]; [|now apply H]. apply change_iff in X; [|assumption]. destruct X as (X1 & _ & d & X2 & X3).
    split; [assumption|]. apply reach_step with d; [now apply H|assumption|assumption].
Qed.
Lemma good_length a : Good a -> (List.length a <= Z.to_nat (fst n) * Z.to_nat (snd n))%nat.
Proof.
  intros [N H]. rewrite <- length_indices2. apply NoDup_incl_length; [assumption|]. intros c Hc. apply in_indices2. now apply H.
Qed.
Lemma column_loop_ok limit a : Good a -> In (0, 0) a -> (Z.to_nat (fst n) * Z.to_nat (snd n) < limit + List.length a)%nat ->
  let a' := column_loop limit n oj oi a in NoDup a' /\ forall c, In c a' <-> Reach n jf ff c.
Proof.
  cbn zeta. revert a. induction limit as [|limit IH]; intros a G H0 HL; [pose proof (good_length a G); lia|]. cbn [column_loop].
  destruct (column_change n oj oi a) as [|e r] eqn:E.
  - split; [apply G|]. intros c. split; [apply G|]. induction 1 as [|c d _ IHc HJ Hd]; [assumption|].
    destruct (mem2 d a) eqn:X; [now apply mem2_iff|]. exfalso. apply not_true_iff_false in X. rewrite mem2_iff in X.
    assert (Y : In d (column_change n oj oi a)); [|rewrite E in Y; destruct Y].
    apply change_iff; [intros x Hx; now apply G|]. eauto.
  - pose proof (good_change a G) as G'. rewrite E in G'. apply IH; [assumption|apply in_app_iff; now right|]. rewrite app_length. cbn [List.length]. lia.
Qed.
Lemma good_start : Good [(0, 0)].
Proof.
  split; [repeat constructor; easy|]. intros c [<-|[]]. split; [unfold in_layer; cbn; lia|constructor].
Qed.
End Columns.

(** ** shadows: one column *)
Lemma pass_up_length s : List.length (pass_up s) = List.length s.
Proof. induction s as [|a [|b r] IH]; [reflexivity|reflexivity|]. cbn [pass_up List.length] in *. now rewrite IH. Qed.
Lemma pass_up_nth s k : (k < List.length s)%nat -> nth k (pass_up s) 0 = if (nth k s 0 =? 0) && (nth (S k) s 0 =? 1) then 1 else nth k s 0.
Proof.
  revert k. induction s as [|a [|b r] IH]; intros k Hk; [cbn in Hk; lia| |].
  - cbn in Hk. assert (k = 0)%nat as -> by lia. cbn. now rewrite andb_false_r.
  - destruct k as [|k]; [reflexivity|]. change (pass_up (a :: b :: r)) with ((if (a =? 0) && (b =? 1) then 1 else a) :: pass_up (b :: r)).
    cbn [nth]. rewrite IH by (cbn in *; lia). reflexivity.
Qed.
Lemma pass_down_aux_length p s : List.length (pass_down_aux p s) = List.length s.
Proof. revert p. induction s as [|a r IH]; intros p; [reflexivity|]. cbn. now rewrite IH. Qed.
Lemma pass_down_length s : List.length (pass_down s) = List.length s.
Proof. destruct s; [reflexivity|]. cbn. now rewrite pass_down_aux_length. Qed.
Lemma pass_down_aux_nth p s k : (k < List.length s)%nat ->
  nth k (pass_down_aux p s) 0 = if (nth k s 0 =? 0) && (nth k (p :: s) 0 =? 2) then 2 else nth k s 0.
Proof. revert p k. induction s as [|a r IH]; intros p k Hk; [cbn in Hk; lia|]. destruct k as [|k]; [reflexivity|]. cbn [pass_down_aux nth]. rewrite IH by (cbn in Hk; lia). reflexivity. Qed.
Lemma pass_down_nth s k : (k < List.length s)%nat ->
  nth k (pass_down s) 0 = match k with O => nth 0 s 0 | S q => if (nth k s 0 =? 0) && (nth q s 0 =? 2) then 2 else nth k s 0 end.
Proof.
  destruct s as [|a r]; intros Hk; [cbn in Hk; lia|]. destruct k as [|k]; [reflexivity|]. cbn [pass_down nth]. rewrite pass_down_aux_nth by (cbn in Hk; lia). reflexivity.
Qed.
Lemma pass_between_aux_length h s : List.length (pass_between_aux h s) = List.length s.
Proof. revert h. induction s as [|a [|b r] IH]; intros h; [reflexivity|reflexivity|]. change (S (List.length (pass_between_aux ((2 <=? a) && (b =? 1)) (b :: r))) = S (List.length (b :: r))). now rewrite IH. Qed.
Lemma pass_between_aux_nth h s k : (k < List.length s)%nat ->
  nth k (pass_between_aux h s) 0 = if (match k with O => h | S q => (2 <=? nth q s 0) && (nth k s 0 =? 1) end) || ((2 <=? nth k s 0) && (nth (S k) s 0 =? 1)) then 3 else nth k s 0.
Proof.
  revert h k. induction s as [|a [|b r] IH]; intros h k Hk; [cbn in Hk; lia| |].
  - cbn in Hk. assert (k = 0)%nat as -> by lia. cbn [pass_between_aux nth]. now rewrite andb_false_r, orb_false_r.
  - change (pass_between_aux h (a :: b :: r)) with ((if h || ((2 <=? a) && (b =? 1)) then 3 else a) :: pass_between_aux ((2 <=? a) && (b =? 1)) (b :: r)).
    destruct k as [|k]; [reflexivity|]. cbn [nth]. rewrite IH by (cbn in *; lia). destruct k; reflexivity.
Qed.

Section Column.
Variable f : list bool.
Notation m := (List.length f).
Notation face q := (nth q f false = true).
Definition A (k : nat) : bool := match k with O => false | S q => nth q f false end.
Definition faces_in (lo hi : nat) : Prop := exists q, (lo <= q < hi)%nat /\ face q.
Lemma face_m q : face q -> (q < m)%nat.
Proof. intros H. destruct (le_lt_dec m q) as [L|L]; [|assumption]. rewrite nth_overflow in H by assumption. discriminate. Qed.
Lemma faces_dec lo hi : faces_in lo hi \/ ~ faces_in lo hi.
Proof.
  induction hi as [|hi IH]; [right; intros (q & X & _); lia|]. destruct IH as [(q & X & Y)|N]; [left; exists q; split; [lia|assumption]|].
  destruct (nth hi f false) eqn:E.
  - destruct (le_lt_dec lo hi); [left; exists hi; split; [lia|assumption]|]. right. intros (q & X & _). lia.
  - right. intros (q & X & Y). apply N. exists q. split; [|assumption]. assert (q <> hi) by congruence. lia.
Qed.
Lemma A_iff k : A k = true <-> exists q, k = S q /\ face q.
Proof. destruct k as [|q]; cbn [A]; split; [discriminate|intros (q & X & _); discriminate|eauto|intros (q' & [= <-] & X); exact X]. Qed.

Lemma start_length a : List.length (shadow_start a f) = S m.
Proof. revert a. induction f as [|b r IH]; intros a; [reflexivity|]. cbn. now rewrite IH. Qed.
End Column.
Lemma start_nth a f k : (k <= List.length f)%nat ->
  nth k (shadow_start a f) 0 = (if nth k f false then 1 else 0) + (if match k with O => a | S q => nth q f false end then 2 else 0).
Proof.
  revert a k. induction f as [|b r IH]; intros a k Hk.
  - cbn in Hk. assert (k = 0)%nat as -> by lia. reflexivity.
  - destruct k as [|k]; [reflexivity|]. cbn [shadow_start nth]. rewrite IH by (cbn in Hk; lia). destruct k; reflexivity.
Qed.
Lemma nth_end {X} k (s : list X) d : (List.length s <= k)%nat -> nth k s d = d.
Proof. apply nth_overflow. Qed.

Section Passes.
Variable f : list bool.
Notation m := (List.length f).
Notation face q := (nth q f false = true).
Notation A := (A f).
Notation faces_in := (faces_in f).
Definition inv1 (p : nat) (s : list Z) : Prop := List.length s = S m /\ forall k, (k <= m)%nat ->
  (A k = true -> nth k s 0 = 2 + if nth k f false then 1 else 0) /\
  (A k = false -> faces_in k (S (k + p)) -> nth k s 0 = 1) /\
  (A k = false -> ~ faces_in k (S (k + p)) -> nth k s 0 = 0).
Lemma inv1_start : inv1 0 (shadow_start false f).
Proof.
  split; [apply start_length|]. intros k Hk. rewrite start_nth by assumption. fold (A k). split; [|split].
  - intros ->. lia.
  - intros -> (q & X & Y). assert (q = k) as -> by lia. rewrite Y. reflexivity.
  - intros -> N. destruct (nth k f false) eqn:E; [|reflexivity]. exfalso. apply N. exists k. split; [lia|assumption].
Qed.
Lemma inv1_step p s : inv1 p s -> inv1 (S p) (pass_up s).
Proof.
  intros [L H]. split; [now rewrite pass_up_length|]. intros k Hk. rewrite pass_up_nth by lia. destruct (H k Hk) as (H1 & H2 & H3). split; [|split].
  - intros X. rewrite (H1 X). destruct (nth k f false); reflexivity.
  - intros X Y. destruct (faces_dec f k (S (k + p))) as [D|D].
    + rewrite (H2 X D). reflexivity.
    + rewrite (H3 X D). assert (HA : A (S k) = false). { apply not_true_iff_false. intros Z'. apply D. exists k. split; [lia|exact Z']. }
      destruct Y as (q & Y1 & Y2). pose proof (face_m f q Y2) as Y3. assert (q = S (k + p)) by (destruct (Nat.eq_dec q (S (k + p))); [assumption|exfalso; apply D; exists q; split; [lia|assumption]]).
      destruct (H (S k) ltac:(lia)) as (_ & H2' & _). rewrite (H2' HA); [reflexivity|]. exists q. split; [lia|assumption].
  - intros X Y. assert (D : ~ faces_in k (S (k + p))) by (intros (q & X1 & X2); apply Y; exists q; split; [lia|assumption]).
    rewrite (H3 X D). destruct (le_lt_dec (S k) m) as [L'|L']; [|rewrite nth_end with (k := S k) by lia; reflexivity].
    assert (HA : A (S k) = false). { apply not_true_iff_false. intros Z'. apply D. exists k. split; [lia|exact Z']. }
    destruct (H (S k) L') as (_ & _ & H3'). rewrite H3'; [reflexivity|assumption|]. intros (q & X1 & X2). apply Y. exists q. split; [lia|assumption].
Qed.

Definition inv2 (p : nat) (s : list Z) : Prop := List.length s = S m /\ forall k, (k <= m)%nat ->
  (A k = true -> nth k s 0 = 2 + if nth k f false then 1 else 0) /\
  (A k = false -> faces_in k m -> nth k s 0 = 1) /\
  (A k = false -> ~ faces_in k m -> faces_in (k - 1 - p) k -> nth k s 0 = 2) /\
  (A k = false -> ~ faces_in k m -> ~ faces_in (k - 1 - p) k -> nth k s 0 = 0).
Lemma inv2_start s : inv1 m s -> inv2 0 s.
Proof.
  intros [L H]. split; [assumption|]. intros k Hk. destruct (H k Hk) as (H1 & H2 & H3).
  assert (W : faces_in k (S (k + m)) <-> faces_in k m). { split; intros (q & X & Y); exists q; (split; [|assumption]); pose proof (face_m f q Y); lia. }
  rewrite W in *. split; [assumption|]. split; [assumption|]. split; [|intros; auto].
  intros X _ (q & Y & Z'). exfalso. apply not_true_iff_false in X. apply X. apply A_iff. exists q. split; [lia|assumption].
Qed.
Lemma inv2_step p s : inv2 p s -> inv2 (S p) (pass_down s).
Proof.
  intros [L H]. split; [now rewrite pass_down_length|]. intros k Hk. rewrite pass_down_nth by lia. destruct (H k Hk) as (H1 & H2 & H3 & H4).
  destruct k as [|k].
  { split; [assumption|]. split; [assumption|]. split; [intros _ _ (q & X & _); lia|]. intros X Y _. apply H4; auto. intros (q & Z' & _). lia. }
  destruct (H k ltac:(lia)) as (G1 & G2 & G3 & G4). split; [|split; [|split]].
  - intros X. rewrite (H1 X). destruct (nth (S k) f false); reflexivity.
  - intros X Y. rewrite (H2 X Y). reflexivity.
  - intros X Y Z'. destruct (faces_dec f (S k - 1 - p) (S k)) as [D|D]; [rewrite (H3 X Y D); reflexivity|]. rewrite (H4 X Y D).
    destruct Z' as (q & Z1 & Z2). assert (Z3 : (q < S k - 1 - p)%nat) by (destruct (le_lt_dec (S k - 1 - p) q); [exfalso; apply D; exists q; split; [lia|assumption]|assumption]).
    assert (U : ~ faces_in k m). { intros (r & R1 & R2). apply Y. exists r. split; [|assumption]. assert (r <> k) by (intros ->; cbn [BisectProofs5.A] in X; congruence). lia. }
    destruct (A k) eqn:HA.
    + rewrite (G1 eq_refl). destruct (nth k f false) eqn:E; [|reflexivity]. exfalso. apply U. exists k. split; [pose proof (face_m f k E); lia|assumption].
    + rewrite (G3 eq_refl U); [reflexivity|]. exists q. split; [lia|assumption].
  - intros X Y Z'. assert (D : ~ faces_in (S k - 1 - p) (S k)) by (intros (q & X1 & X2); apply Z'; exists q; split; [lia|assumption]). rewrite (H4 X Y D).
    assert (U : ~ faces_in k m). { intros (r & R1 & R2). apply Y. exists r. split; [|assumption]. assert (r <> k) by (intros ->; cbn [BisectProofs5.A] in X; congruence). lia. }
    assert (HA : A k = false). { apply not_true_iff_false. rewrite A_iff. intros (q & -> & Q2). apply Z'. exists q. split; [lia|assumption]. }
    rewrite (G4 HA U); [reflexivity|]. intros (q & X1 & X2). apply Z'. exists q. split; [lia|assumption].
Qed.

Notation up k := (faces_in k m).
Notation dn k := (faces_in 0 k).
Definition inv3 (p : nat) (s : list Z) : Prop := List.length s = S m /\ forall k, (k <= m)%nat ->
  (up k -> ~ dn k -> nth k s 0 = 1) /\ (~ up k -> dn k -> nth k s 0 = 2) /\ (~ up k -> ~ dn k -> nth k s 0 = 0) /\
  (up k -> A k = true -> nth k s 0 = 3 \/ (p = O /\ nth k f false = false /\ nth k s 0 = 2)) /\
  (up k -> dn k -> A k = false -> p = O -> nth k s 0 = 1) /\
  (up k -> dn k -> A k = false -> nth k s 0 = 3 \/ (nth k s 0 = 1 /\ ~ faces_in (k - 1 - p) (k - 1))).
Lemma inv3_start s : inv2 m s -> inv3 0 s.
Proof.
  intros [L H]. split; [assumption|]. intros k Hk. destruct (H k Hk) as (H1 & H2 & H3 & H4).
  assert (DA : A k = true -> dn k) by (rewrite A_iff; intros (q & -> & X); exists q; split; [lia|assumption]).
  assert (W : faces_in (k - 1 - m) k <-> dn k). { split; intros (q & X & Y); exists q; (split; [|assumption]); lia. }
  rewrite W in *.
  assert (UK : nth k f false = true -> up k) by (intros X; exists k; split; [pose proof (face_m f k X); lia|assumption]).
  split; [|split; [|split; [|split; [|split]]]].
  - intros X Y. apply H2; [|assumption]. apply not_true_iff_false. tauto.
  - intros X Y. destruct (A k) eqn:E; [|now apply H3]. rewrite H1 by reflexivity. destruct (nth k f false); [|reflexivity]. exfalso. auto.
  - intros X Y. apply H4; [|assumption|assumption]. apply not_true_iff_false. tauto.
  - intros X Y. rewrite (H1 Y). destruct (nth k f false); auto.
  - intros X Y Z' _. auto.
  - intros X Y Z'. right. split; [auto|]. intros (q & Q1 & Q2). lia.
Qed.
Lemma inv3_step p s : inv3 p s -> inv3 (S p) (pass_between s).
Proof.
  intros [L H]. split; [unfold pass_between; now rewrite pass_between_aux_length|]. intros k Hk. unfold pass_between. rewrite pass_between_aux_nth by lia.
  destruct (H k Hk) as (H1 & H2 & H3 & H4 & H6 & H5).
  assert (EQ : forall x, nth k s 0 = 3 -> (if x || ((2 <=? nth k s 0) && (nth (S k) s 0 =? 1)) then 3 else nth k s 0) = 3) by (intros x ->; destruct x; [reflexivity|]; destruct (nth (S k) s 0 =? 1); reflexivity).
  assert (NU : ~ up k -> nth (S k) s 0 <> 1).
  { intros X. destruct (le_lt_dec (S k) m) as [L'|L']; [|rewrite nth_end by lia; discriminate]. destruct (H (S k) L') as (_ & G2 & G3 & _).
    assert (U : ~ up (S k)) by (intros (q & Q1 & Q2); apply X; exists q; split; [lia|assumption]).
    destruct (faces_dec f 0 (S k)) as [D|D]; [rewrite (G2 U D)|rewrite (G3 U D)]; discriminate. }
  split; [|split; [|split; [|split; [|split]]]].
  - intros X Y. rewrite (H1 X Y). destruct k as [|k]; [reflexivity|]. destruct (H k ltac:(lia)) as (G1 & _ & G3 & _).
    assert (D : ~ dn k) by (intros (q & Q1 & Q2); apply Y; exists q; split; [lia|assumption]).
    destruct (faces_dec f k m) as [U|U]; [rewrite (G1 U D)|rewrite (G3 U D)]; reflexivity.
  - intros X Y. rewrite (H2 X Y). specialize (NU X). apply Z.eqb_neq in NU. rewrite NU. destruct k as [|k']; [destruct Y as (q & Q1 & _); lia|]. rewrite !andb_false_r. reflexivity.
  - intros X Y. rewrite (H3 X Y). destruct k as [|k']; [reflexivity|]. rewrite andb_false_r. reflexivity.
  - intros X Y. left. assert (D : dn k) by (apply A_iff in Y; destruct Y as (q & -> & Q); exists q; split; [lia|assumption]).
    destruct (H4 X Y) as [E|(E0 & E1 & E2)]; [now apply EQ|].
    assert (U : up (S k)) by (destruct X as (q & Q1 & Q2); exists q; split; [|assumption]; assert (q <> k) by congruence; lia).
    assert (L' : (S k <= m)%nat) by (destruct U as (q & Q1 & Q2); lia).
    destruct (H (S k) L') as (_ & _ & _ & _ & G6 & _). assert (HA : A (S k) = false) by exact E1.
    assert (D' : dn (S k)) by (destruct D as (q & Q1 & Q2); exists q; split; [lia|assumption]).
    rewrite E2, (G6 U D' HA E0), orb_true_r. reflexivity.
  - intros _ _ _ X. discriminate.
  - intros X Y Z'. destruct (H5 X Y Z') as [E|[E N]]; [left; now apply EQ|]. rewrite E. change (2 <=? 1) with false. rewrite andb_false_l, orb_false_r.
    destruct k as [|k]; [destruct Y as (q & Q1 & _); lia|]. cbn [Z.eqb Pos.eqb]. rewrite andb_true_r.
    destruct (2 <=? nth k s 0) eqn:E2; [now left|]. right. split; [reflexivity|]. apply Z.leb_gt in E2. intros (q & Q1 & Q2).
    assert (QE : (q < S k - 1 - p)%nat) by (destruct (le_lt_dec (S k - 1 - p) q); [exfalso; apply N; exists q; split; [lia|assumption]|assumption]).
    assert (U : up k) by (destruct X as (r & R1 & R2); exists r; split; [lia|assumption]).
    destruct (H k ltac:(lia)) as (_ & _ & _ & G4 & _ & G5). destruct (A k) eqn:HA.
    + destruct (G4 U eq_refl) as [G|(_ & _ & G)]; lia.
    + assert (QA : q <> (k - 1)%nat). { intros ->. destruct k as [|k]; [lia|]. cbn [BisectProofs5.A] in HA. replace (S k - 1)%nat with k in Q2 by lia. congruence. }
      destruct (G5 U) as [G|[_ G]]; [exists q; split; [lia|assumption]|reflexivity|lia|]. apply G. exists q. split; [lia|assumption].
Qed.
Lemma inv3_end s k : inv3 m s -> (k <= m)%nat -> exists a b : bool, nth k s 0 = (if a then 1 else 0) + (if b then 2 else 0) /\
  (a = true <-> faces_in k m) /\ (b = true <-> faces_in 0 k).
Proof.
  intros [L H] Hk. destruct (H k Hk) as (H1 & H2 & H3 & H4 & H6 & H5).
  destruct (faces_dec f k m) as [U|U], (faces_dec f 0 k) as [D|D].
  - exists true, true. split; [|tauto]. destruct (A k) eqn:HA.
    + destruct (H4 U eq_refl) as [->|(X & Y & _)]; [reflexivity|]. exfalso. destruct U as (q & Q & _). lia.
    + destruct (H5 U D eq_refl) as [->|[_ X]]; [reflexivity|]. exfalso. apply X. destruct D as (q & Q1 & Q2). exists q. split; [|assumption].
      assert (q <> (k - 1)%nat); [|lia]. intros ->. apply not_true_iff_false in HA. apply HA. apply A_iff. exists (k - 1)%nat. split; [lia|assumption].
  - exists true, false. split; [now apply H1|split; [tauto|]]. split; [discriminate|tauto].
  - exists false, true. split; [now apply H2|split; [|tauto]]. split; [discriminate|tauto].
  - exists false, false. split; [now apply H3|split; (split; [discriminate|tauto])].
Qed.
End Passes.

(** ** loops *)
Lemma zlist_eqb_eq s t : zlist_eqb s t = true -> s = t.
Proof.
  unfold zlist_eqb. rewrite andb_true_iff, Nat.eqb_eq. intros [L H]. revert t L H. induction s as [|x s IH]; intros [|y t] L H; try discriminate; [reflexivity|].
  cbn in L, H. apply andb_true_iff in H. destruct H as [H1 H2]. apply Z.eqb_eq in H1. f_equal; auto.
Qed.
Lemma iter_fix {X} (g : X -> X) x p : g x = x -> Nat.iter p g x = x.
Proof. intros E. induction p as [|p IH]; [reflexivity|]. change (g (Nat.iter p g x) = x). now rewrite IH. Qed.
Lemma iter_shift {X} (g : X -> X) x p : Nat.iter p g (g x) = Nat.iter (S p) g x.
Proof. induction p as [|p IH]; [reflexivity|]. change (g (Nat.iter p g (g x)) = g (Nat.iter (S p) g x)). now rewrite IH. Qed.
Lemma shadow_loop_eq limit pass cols : shadow_loop limit pass cols = map (Nat.iter limit pass) cols.
Proof.
  revert cols. induction limit as [|limit IH]; intros cols; [symmetry; apply map_id|]. cbn [shadow_loop].
  destruct (forallb _ cols) eqn:E.
  - rewrite <- (map_id cols) at 1. apply map_ext_in. intros s Hs. symmetry. rewrite forallb_forall in E. specialize (E s Hs). apply zlist_eqb_eq in E. exact (iter_fix pass s (S limit) E).
  - rewrite IH, map_map. apply map_ext. intros s. apply iter_shift.
Qed.
Lemma iter_inv {X} (P : nat -> X -> Prop) g x p : P O x -> (forall q y, P q y -> P (S q) (g y)) -> P p (Nat.iter p g x).
Proof. intros H0 H. induction p as [|p IH]; [exact H0|]. apply H, IH. Qed.
Definition shadow_column (f : list bool) : list Z :=
  let m := List.length f in Nat.iter m pass_between (Nat.iter m pass_down (Nat.iter m pass_up (shadow_start false f))).
Lemma shadow_column_inv f : inv3 f (List.length f) (shadow_column f).
Proof.
  unfold shadow_column. cbn zeta. apply (iter_inv (inv3 f)); [|apply inv3_step]. apply inv3_start. apply (iter_inv (inv2 f)); [|apply inv2_step]. apply inv2_start.
  apply (iter_inv (inv1 f)); [apply inv1_start|apply inv1_step].
Qed.
Lemma shadow_eq nk fs : (forall f, In f fs -> Z.of_nat (List.length f) = nk - 1) -> shadow_from_faces nk fs = map shadow_column fs.
Proof.
  intros H. unfold shadow_from_faces. rewrite !shadow_loop_eq, !map_map. apply map_ext_in. intros f Hf. unfold shadow_column. specialize (H f Hf).
  replace (Z.to_nat (nk - 1)) with (List.length f) by lia. reflexivity.
Qed.
