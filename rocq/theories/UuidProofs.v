(** UuidProofs.v: lemmas about uuid conversions and part names (C14, C15). *)
From Verif Require Import Base TextModel StrModel StrProofs UuidModel.

Definition IsUuid (n : Z) : Prop := 0 <= n < uuid_bound.

Definition hexch (c : ascii) : Prop := exists d, 0 <= d < 16 /\ c = hex_digit d.

Lemma hex_cases (P : Z -> Prop) : (forall d, In d (zrange 16) -> P d) -> forall d, 0 <= d < 16 -> P d.
Proof. intros H d Hd. apply H. apply in_zrange. lia. Qed.

Lemma digit_hex d : 0 <= d < 16 -> digit_value (hex_digit d) = Some d.
Proof.
  revert d. apply hex_cases. intros d H. cbn in H.
  repeat (destruct H as [<-|H]; [vm_compute; reflexivity|]). contradiction.
Qed.

(** Characters that never appear in a uuid string. *)
Definition alien (c : ascii) : bool :=
  chr_eqb c "u" || chr_eqb c "_" || chr_eqb c "+" || chr_eqb c "x" || chr_eqb c "X" || is_ws c || is_brace c
  || chr_eqb c ":" || chr_eqb c "/" || chr_eqb c ".".
Lemma hexch_plain c : hexch c -> alien c = false /\ chr_eqb c "-" = false.
Proof.
  intros (d & Hd & ->). revert d Hd. apply hex_cases. intros d H. cbn in H.
  repeat (destruct H as [<-|H]; [vm_compute; split; reflexivity|]). contradiction.
Qed.

Lemma hex_fixed_length k n : List.length (hex_fixed k n) = k.
Proof. revert n. induction k as [|k IH]; intros n; [reflexivity|]. cbn. rewrite app_length, IH. cbn. lia. Qed.
Lemma hex_fixed_hexch k n : forall c, In c (hex_fixed k n) -> hexch c.
Proof.
  revert n. induction k as [|k IH]; intros n c H; [contradiction|]. cbn [hex_fixed] in H.
  apply in_app_iff in H. destruct H as [H|[<-|[]]]; [eapply IH; eassumption|].
  exists (n mod 16). split; [apply Z.mod_pos_bound; lia|reflexivity].
Qed.

Lemma hex_loop_app l us acc s : (forall c, In c l -> hexch c) -> l <> [] ->
  hex_loop acc us (l ++ s) = hex_loop (fold_left (fun a c => 16 * a + match digit_value c with Some d => d | None => 0 end) l acc) false s.
Proof.
  revert us acc. induction l as [|c l IH]; intros us acc H Hne; [contradiction|].
  cbn [app hex_loop fold_left].
  destruct (hexch_plain c (H c (or_introl eq_refl))) as [A B].
  assert (chr_eqb c "_" = false) as -> by (unfold alien in A; destruct (chr_eqb c "_"); [rewrite orb_true_r in A; discriminate|reflexivity]).
  destruct (H c (or_introl eq_refl)) as (d & Hd & ->). rewrite digit_hex by assumption.
  destruct l as [|c' l]; [reflexivity|]. apply IH; [|discriminate]. intros x Hx. apply H. now right.
Qed.

Lemma hex_fixed_value k : forall n acc, 0 <= n ->
  fold_left (fun a c => 16 * a + match digit_value c with Some d => d | None => 0 end) (hex_fixed k n) acc
  = acc * 16 ^ Z.of_nat k + n mod 16 ^ Z.of_nat k.
Proof.
  induction k as [|k IH]; intros n acc Hn.
  - cbn. rewrite Z.mod_1_r. lia.
  - cbn [hex_fixed]. rewrite fold_left_app, IH by (apply Z.div_pos; lia). cbn [fold_left].
    rewrite digit_hex by (apply Z.mod_pos_bound; lia).
    rewrite Nat2Z.inj_succ, Z.pow_succ_r by lia.
    rewrite (Z.rem_mul_r n 16 (16 ^ Z.of_nat k)) by (try lia; apply Z.pow_pos_nonneg; lia). lia.
Qed.

Lemma int16_hex k n : (2 <= k)%nat -> 0 <= n < 16 ^ Z.of_nat k -> int16 (hex_fixed k n) = Some n.
Proof.
  intros Hk Hn. unfold int16.
  pose proof (hex_fixed_hexch k n) as Hx. pose proof (hex_fixed_length k n) as Hlen.
  rewrite strip_id.
  2:{ intros c Hc. destruct (hexch_plain c (Hx c Hc)) as [A _]. unfold alien in A.
      destruct (is_ws c); [|reflexivity]. rewrite !orb_true_r in A; discriminate. }
  destruct (hex_fixed k n) as [|c0 [|c1 s]] eqn:E; [cbn in Hlen; lia|cbn in Hlen; lia|].
  destruct (hexch_plain c0 (Hx c0 (or_introl eq_refl))) as [A0 ->].
  destruct (hexch_plain c1 (Hx c1 (or_intror (or_introl eq_refl)))) as [A1 _].
  assert (chr_eqb c0 "+" = false) as ->.
  { unfold alien in A0. destruct (chr_eqb c0 "+"); [rewrite !orb_true_r in A0; discriminate|reflexivity]. }
  assert (Hu : hex_unsigned (c0 :: c1 :: s) = hex_loop 0 true (c0 :: c1 :: s)).
  { unfold hex_unsigned. destruct s as [|c2 s]; [reflexivity|].
    unfold alien in A1.
    destruct (chr_eqb c1 "x"); [rewrite !orb_true_r in A1; discriminate|].
    destruct (chr_eqb c1 "X"); [rewrite !orb_true_r in A1; discriminate|]. now rewrite andb_false_r. }
  rewrite Hu. rewrite <- E. rewrite <- (app_nil_r (hex_fixed k n)).
  rewrite hex_loop_app by (try apply hex_fixed_hexch; rewrite E; discriminate).
  rewrite hex_fixed_value by lia. cbn [hex_loop]. f_equal. rewrite Z.mod_small by lia. lia.
Qed.

Definition uuid_char (c : ascii) : Prop := hexch c \/ c = "-"%char.
Lemma uuid_str_chars n c : In c (uuid_str n) -> uuid_char c.
Proof.
  unfold uuid_str. intros H.
  assert (G : forall a b, In c (firstn a (skipn b (hex_fixed 32 n))) -> uuid_char c).
  { intros a b Hin. left. eapply hex_fixed_hexch.
    rewrite <- (firstn_skipn b (hex_fixed 32 n)). apply in_app_iff. right.
    rewrite <- (firstn_skipn a (skipn b _)). apply in_app_iff. now left. }
  assert (D : In c (L "-") -> uuid_char c) by (intros [<-|[]]; now right).
  rewrite !in_app_iff in H.
  destruct H as [H|[H|[H|[H|[H|[H|[H|[H|H]]]]]]]]; auto; try (eapply G; eassumption).
  - apply (G 8%nat 0%nat). exact H.
  - left. eapply hex_fixed_hexch. rewrite <- (firstn_skipn 20 (hex_fixed 32 n)). apply in_app_iff. right. exact H.
Qed.
Lemma uuid_char_plain c : uuid_char c -> alien c = false.
Proof. intros [H| ->]; [now apply hexch_plain|reflexivity]. Qed.

Lemma uuid_str_length n : List.length (uuid_str n) = 36%nat.
Proof.
  unfold uuid_str. rewrite !app_length, !firstn_length, !skipn_length, hex_fixed_length. reflexivity.
Qed.

Lemma uuid_str_no_hyphens n : replace (uuid_str n) (L "-") [] = hex_fixed 32 n.
Proof.
  unfold uuid_str. change (L "-") with ["-"%char]. rewrite !replace_chr_app.
  assert (R : forall l, (forall c, In c l -> In c (hex_fixed 32 n)) -> replace l ["-"%char] [] = l).
  { intros l H. apply replace_chr_absent. intros E. destruct (hexch_plain _ (hex_fixed_hexch 32 n _ (H _ E))) as [_ X]. discriminate. }
  change (replace ["-"%char] ["-"%char] []) with (@nil ascii). cbn [app].
  assert (S1 : forall a b c, In c (firstn a (skipn b (hex_fixed 32 n))) -> In c (hex_fixed 32 n)).
  { intros a b c Hin. rewrite <- (firstn_skipn b (hex_fixed 32 n)). apply in_app_iff. right.
    rewrite <- (firstn_skipn a (skipn b _)). apply in_app_iff. now left. }
  rewrite !R; try (intros c Hc; eapply S1; eassumption).
  - rewrite <- (firstn_skipn 8 (hex_fixed 32 n)) at 5. f_equal.
    rewrite <- (firstn_skipn 4 (skipn 8 (hex_fixed 32 n))) at 2. f_equal. rewrite skipn_skipn. cbn [Nat.add].
    rewrite <- (firstn_skipn 4 (skipn 12 (hex_fixed 32 n))) at 2. f_equal. rewrite skipn_skipn. cbn [Nat.add].
    rewrite <- (firstn_skipn 4 (skipn 16 (hex_fixed 32 n))) at 2. f_equal. now rewrite skipn_skipn.
  - intros c Hc. rewrite <- (firstn_skipn 20 (hex_fixed 32 n)). apply in_app_iff. now right.
  - intros c Hc. apply (S1 8%nat 0%nat). exact Hc.
Qed.

Lemma pow_16_32 : 16 ^ Z.of_nat 32 = uuid_bound.
Proof. reflexivity. Qed.

Lemma UUID_of_hex_str n : IsUuid n -> UUID_of_hex (uuid_str n) = Ok n.
Proof.
  intros Hn. unfold UUID_of_hex.
  assert (Hal : forall c, alien c = true -> ~ In c (uuid_str n)).
  { intros c Ha Hin. apply uuid_str_chars, uuid_char_plain in Hin. congruence. }
  change (L "urn:") with ("u"%char :: L "rn:"). change (L "uuid:") with ("u"%char :: L "uid:").
  rewrite !replace_absent_head by (try rewrite replace_absent_head; apply Hal; reflexivity).
  rewrite strip_id.
  2:{ intros c Hc. apply uuid_str_chars, uuid_char_plain in Hc. unfold alien in Hc.
      destruct (is_brace c); [|reflexivity]. rewrite !orb_true_r in Hc; discriminate. }
  rewrite uuid_str_no_hyphens, hex_fixed_length. cbn [Nat.eqb negb].
  rewrite int16_hex by (try lia; rewrite pow_16_32; exact Hn).
  unfold UUID_of_int. unfold IsUuid in Hn. destruct ((0 <=? n) && (n <? uuid_bound)) eqn:E; [reflexivity|lia].
Qed.

Lemma uuid_str_cons n : exists c t, uuid_str n = c :: t /\ chr_eqb c "_" = false.
Proof.
  pose proof (uuid_str_length n) as Hl. destruct (uuid_str n) as [|c t] eqn:E; [discriminate|].
  exists c, t. split; [reflexivity|].
  assert (Ha : alien c = false) by (apply uuid_char_plain, (uuid_str_chars n); rewrite E; now left).
  unfold alien in Ha. destruct (chr_eqb c "_"); [rewrite orb_true_r in Ha; discriminate|reflexivity].
Qed.

Lemma from_str_plain n tail : IsUuid n -> uuid_from_str (uuid_str n ++ tail) = Some n.
Proof.
  intros Hn. pose proof (uuid_str_length n) as Hl. pose proof (UUID_of_hex_str n Hn) as Hu.
  destruct (uuid_str_cons n) as (c & t & E & Hc). rewrite E in *. unfold uuid_from_str. cbn [app].
  rewrite Hc. change (c :: t ++ tail) with ((c :: t) ++ tail).
  assert ((List.length ((c :: t) ++ tail) <? 36)%nat = false) as -> by (rewrite app_length; lia).
  rewrite firstn_app_exact by lia. now rewrite Hu.
Qed.
Lemma from_str_underscore n tail : IsUuid n -> uuid_from_str ("_"%char :: uuid_str n ++ tail) = Some n.
Proof.
  intros Hn. pose proof (uuid_str_length n) as Hl. pose proof (UUID_of_hex_str n Hn) as Hu.
  unfold uuid_from_str. cbn [chr_eqb]. change (chr_eqb "_" "_") with true. cbv iota.
  assert ((List.length ("_"%char :: uuid_str n ++ tail) <? 37)%nat = false) as -> by (cbn [List.length]; rewrite app_length; lia).
  rewrite firstn_app_exact by lia. now rewrite Hu.
Qed.
Lemma from_str_short s : (List.length s < 36)%nat -> uuid_from_str s = None.
Proof.
  intros H. destruct s as [|c t]; [reflexivity|]. unfold uuid_from_str.
  assert ((List.length (c :: t) <? 37)%nat = true) as -> by lia.
  assert ((List.length (c :: t) <? 36)%nat = true) as -> by lia. now destruct (chr_eqb c "_").
Qed.
Lemma from_str_range s n : uuid_from_str s = Some n -> IsUuid n.
Proof.
  destruct s as [|c t]; [discriminate|]. unfold uuid_from_str.
  assert (G : forall h, UUID_of_hex h = Ok n -> IsUuid n).
  { intros h. unfold UUID_of_hex. destruct (negb _); [discriminate|]. destruct (int16 _); [|discriminate].
    unfold UUID_of_int. destruct (_ && _) eqn:E; [|discriminate]. intros [= ->]. unfold IsUuid. lia. }
  destruct (chr_eqb c "_").
  - destruct (_ <? _)%nat; [discriminate|]. destruct (UUID_of_hex _) eqn:E; [|discriminate]. intros [= ->]. eauto.
  - destruct (_ <? _)%nat; [discriminate|]. destruct (UUID_of_hex _) eqn:E; [|discriminate]. intros [= ->]. eauto.
Qed.

Lemma uuid_str_injective m n : IsUuid m -> IsUuid n -> uuid_str m = uuid_str n -> m = n.
Proof. intros Hm Hn E. apply UUID_of_hex_str in Hm, Hn. rewrite E in Hm. congruence. Qed.

(** * Part names *)
Lemma part_name_shape ty u pre sub p : part_name_for_object ty u pre sub = Ok p ->
  exists x, p = x ++ uuid_str u ++ L ".xml".
Proof.
  unfold part_name_for_object. destruct (if pre then _ else _) as [prefix|]; cbn [bind]; [|discriminate].
  set (q := match sub with None | Some [] => _ | Some _ => _ end). clearbody q. intros [= <-].
  exists (q ++ ty ++ L "_"). now rewrite <- !app_assoc.
Qed.

Lemma uuid_in_name x n : IsUuid n -> uuid_in_part_name (x ++ uuid_str n ++ L ".xml") = Ok (Some n).
Proof.
  intros Hn. unfold uuid_in_part_name. pose proof (uuid_str_length n) as Hl.
  rewrite (app_assoc x), last_n_app by reflexivity. rewrite str_eqb_refl.
  assert ((40 <=? List.length ((x ++ uuid_str n) ++ L ".xml"))%nat = true) as ->.
  { apply Nat.leb_le. rewrite !app_length, Hl. change (List.length (L ".xml")) with 4%nat.
    try change (List.length (L ".rels")) with 5%nat. lia. }
  cbn [andb]. rewrite <- app_assoc, last_n_m_app by (rewrite ?Hl; reflexivity).
  now rewrite UUID_of_hex_str.
Qed.

Lemma uuid_in_rels_name x n : IsUuid n -> uuid_in_part_name (x ++ uuid_str n ++ L ".xml" ++ L ".rels") = Ok (Some n).
Proof.
  intros Hn. unfold uuid_in_part_name. pose proof (uuid_str_length n) as Hl.
  assert (E4 : last_n (x ++ uuid_str n ++ L ".xml" ++ L ".rels") 4 = L "rels").
  { change (L ".xml" ++ L ".rels") with (L ".xml." ++ L "rels"). rewrite !app_assoc. now apply last_n_app. }
  rewrite E4. change (str_eqb (L "rels") (L ".xml")) with false. cbn [andb].
  rewrite (app_assoc x), last_n_app by reflexivity.
  change (str_eqb (L ".xml" ++ L ".rels") (L ".xml.rels")) with true.
  assert ((45 <=? List.length ((x ++ uuid_str n) ++ L ".xml" ++ L ".rels"))%nat = true) as ->.
  { apply Nat.leb_le. rewrite !app_length, Hl. change (List.length (L ".xml")) with 4%nat.
    try change (List.length (L ".rels")) with 5%nat. lia. }
  cbn [andb]. rewrite <- app_assoc, last_n_m_app by (rewrite ?Hl; reflexivity).
  now rewrite UUID_of_hex_str.
Qed.

(** Characters of the tail of a part name. *)
Lemma tail_char n c : In c (uuid_str n ++ L ".xml") -> chr_eqb c ":" = false /\ chr_eqb c "}" = false /\ chr_eqb c "/" = false.
Proof.
  rewrite in_app_iff. intros [H|H].
  - apply uuid_str_chars, uuid_char_plain in H. unfold alien, is_brace in H.
    destruct (chr_eqb c ":"); [rewrite ?orb_true_r in H; discriminate|].
    destruct (chr_eqb c "}"); [rewrite ?orb_true_r in H; discriminate|].
    destruct (chr_eqb c "/"); [rewrite ?orb_true_r in H; discriminate|]. auto.
  - cbn in H. repeat (destruct H as [<-|H]; [auto|]). contradiction.
Qed.

Lemma from_tail x c t k : ~ In c t -> rfind_chr c (x ++ t) = Some k -> exists y, from (x ++ t) (k + 1) = y ++ t /\ (k < List.length x)%nat.
Proof.
  intros Hn H. apply rfind_chr_some in H. destruct H as (a & b & E & <- & Hb).
  assert (Hl : (List.length a < List.length x)%nat).
  { destruct (Nat.lt_ge_cases (List.length a) (List.length x)) as [|Hge]; [assumption|exfalso].
    apply Hn. apply (f_equal (skipn (List.length x))) in E. rewrite skipn_app_exact in E by reflexivity.
    rewrite E. rewrite skipn_app. apply in_app_iff. right.
    replace (List.length x - List.length a)%nat with 0%nat by lia. now left. }
  exists (skipn (List.length a + 1) x). split; [|assumption].
  unfold from. rewrite skipn_app. f_equal. replace (List.length a + 1 - List.length x)%nat with 0%nat by lia. reflexivity.
Qed.

Lemma chr_not_in c t : (forall x, In x t -> chr_eqb x c = false) -> ~ In c t.
Proof. intros H Hin. specialize (H c Hin). rewrite chr_eqb_refl in H. discriminate. Qed.

Lemma tail_absent n c : In c [":"; "}"; "/"]%char -> ~ In c (uuid_str n ++ L ".xml").
Proof.
  intros Hc. apply chr_not_in. intros x Hx. destruct (tail_char n x Hx) as (H1 & H2 & H3).
  destruct Hc as [<-|[<-|[<-|[]]]]; assumption.
Qed.

Lemma stripped_tail x n : exists y, stripped_of_prefix (x ++ uuid_str n ++ L ".xml") = y ++ uuid_str n ++ L ".xml".
Proof.
  unfold stripped_of_prefix.
  destruct (rfind_chr "}" (x ++ uuid_str n ++ L ".xml")) as [p|] eqn:E.
  - destruct (from_tail x "}"%char _ p (tail_absent n "}"%char ltac:(cbn; tauto)) E) as (y & Hy & _). eauto.
  - destruct (rfind_chr ":" (x ++ uuid_str n ++ L ".xml")) as [p|] eqn:E2; [|eauto].
    destruct (from_tail x ":"%char _ p (tail_absent n ":"%char ltac:(cbn; tauto)) E2) as (y & Hy & _). eauto.
Qed.

Lemma rels_name x n : IsUuid n -> exists q, rels_part_name_for_part (x ++ uuid_str n ++ L ".xml") = Some q /\
  uuid_in_part_name q = Ok (Some n).
Proof.
  intros Hn. unfold rels_part_name_for_part. destruct (stripped_tail x n) as [y ->].
  set (t := uuid_str n ++ L ".xml").
  assert (Hne : y ++ t <> []). { unfold t. pose proof (uuid_str_length n). destruct y; [|discriminate]. destruct (uuid_str n); discriminate. }
  assert (G : forall z, uuid_in_part_name (z ++ t ++ L ".rels") = Ok (Some n)).
  { intros z. unfold t. rewrite <- app_assoc. now apply uuid_in_rels_name. }
  destruct (y ++ t) as [|c0 s0] eqn:Es; [contradiction|]. rewrite <- Es.
  destruct (rfind_chr "/" (y ++ t)) as [k|] eqn:E.
  - destruct (from_tail y "/"%char t k (tail_absent n "/"%char ltac:(cbn; tauto)) E) as (z & Hz & Hk).
    assert (Hfrom : exists w, from (y ++ t) k = w ++ t).
    { exists (skipn k y). unfold from. rewrite skipn_app. f_equal. replace (k - List.length y)%nat with 0%nat by lia. reflexivity. }
    destruct Hfrom as [w Hw].
    destruct k as [|k].
    + eexists. split; [reflexivity|]. rewrite <- app_assoc, (app_assoc (L "_rels")). apply G.
    + assert (Nat.eqb (S k) (List.length (y ++ t) - 1) = false) as ->.
      { apply Nat.eqb_neq. rewrite app_length. unfold t. rewrite app_length, uuid_str_length. lia. }
      eexists. split; [reflexivity|]. rewrite Hw. rewrite <- (app_assoc w), (app_assoc (L "_rels")), (app_assoc (upto _ _)). apply G.
  - eexists. split; [reflexivity|]. rewrite <- app_assoc, (app_assoc (L "_rels/")). apply G.
Qed.

(** * Specification of what an argument denotes *)
Definition Denotes (a : uarg) (n : Z) : Prop :=
  match a with
  | UNone => False
  | UObj m => m = n
  | UInt m => m = n
  | UStr s => uuid_from_str s = Some n
  end.
Lemma denotes_unique a m n : Denotes a m -> Denotes a n -> m = n.
Proof. destruct a; cbn; congruence || tauto. Qed.

Lemma matching_iff a b : matching_uuids a b = true <-> exists n, Denotes a n /\ Denotes b n.
Proof.
  unfold matching_uuids.
  destruct a as [|m|s|m], b as [|m'|s'|m']; cbn [Denotes];
  repeat match goal with |- context [uuid_from_str ?s] => destruct (uuid_from_str s) end;
  try (split; [discriminate|]; intros (n & H1 & H2); try contradiction; discriminate);
  rewrite Z.eqb_eq; (split; [intros ->; eexists; split; reflexivity|intros (n & H1 & H2); congruence]).
Qed.

(** * Bytes *)
Lemma bytes_value k : forall n, 0 <= n ->
  fold_left (fun a b => 256 * a + b) (bytes_fixed k n) 0 = n mod 256 ^ Z.of_nat k /\ List.length (bytes_fixed k n) = k /\
  (forall b, In b (bytes_fixed k n) -> 0 <= b < 256).
Proof.
  induction k as [|k IH]; intros n Hn.
  - cbn. rewrite Z.mod_1_r. split; [reflexivity|]. split; [reflexivity|]. intros b [].
  - cbn [bytes_fixed]. destruct (IH (n / 256) ltac:(apply Z.div_pos; lia)) as (V & Len & R).
    rewrite fold_left_app, V, app_length, Len. cbn [fold_left List.length]. split; [|split; [lia|]].
    + rewrite Nat2Z.inj_succ, Z.pow_succ_r by lia.
      rewrite (Z.rem_mul_r n 256 (256 ^ Z.of_nat k)) by (try lia; apply Z.pow_pos_nonneg; lia). lia.
    + intros b Hb. apply in_app_iff in Hb. destruct Hb as [Hb|[<-|[]]]; [auto|]. apply Z.mod_pos_bound. lia.
Qed.
