(** AsciiProofs2.v: reading back what was written; number formats; keyword searches. *)
From Verif Require Import QBase TextModel TextProofs StrModel StrProofs NArray AsciiModel AsciiProofs.
From Coq Require DecimalString DecimalZ.
Open Scope Z_scope.

(** ** finding the keyword *)
Definition enough (max_lines : option Z) (n : nat) : Prop := match max_lines with None => True | Some m => Z.of_nat n < m end.
Lemma find_kw_app k l P R : forall max, Forall (fun x => starts k x = false) P -> starts k l = true -> enough max (List.length P) ->
  find_keyword_aux (P ++ l :: R) k max = Some (l :: R).
Proof.
  induction P as [|x P IH]; intros max HP Hl Hm; cbn [app].
  - destruct max as [m|]; cbn [find_keyword_aux enough List.length] in *; [destruct (Z.leb_spec m 0); [lia|]|]; now rewrite Hl.
  - inversion HP as [|? ? Hx HP']; subst. destruct max as [m|]; cbn [find_keyword_aux enough List.length] in *.
    + destruct (Z.leb_spec m 0); [lia|]. rewrite Hx. apply IH; [assumption|assumption|cbn; lia].
    + rewrite Hx. now apply IH.
Qed.
Lemma guess_ok f c : guess_comment_char f = Some c -> comment_ok c.
Proof.
  unfold guess_comment_char. generalize 10%nat as n. intros n. revert f. induction n as [|n IH]; intros [|l f]; cbn [guess_aux]; try discriminate.
  destruct (words l) as [|w ws]; [apply IH|]. destruct (existsb _ _) eqn:E; [|apply IH]. intros [= <-]. cbn [existsb] in E.
  repeat (apply orb_true_iff in E; destruct E as [E|E]); try discriminate; apply str_eqb_eq in E; subst w;
    [right; exists "!"%char|right; exists "C"%char|right; exists "#"%char|left]; repeat split; discriminate.
Qed.
Definition the_comment (comment_char : option str) (f : file) : str :=
  match comment_char with
  | Some ((_ :: _) as c) => c
  | _ => match guess_comment_char f with Some c => c | None => L "!" end
  end.
Lemma comment_pling : comment_ok (L "!").
Proof. right. exists "!"%char. repeat split; discriminate. Qed.
Lemma the_comment_ok cc f : match cc with Some c => comment_ok c | None => True end -> comment_ok (the_comment cc f).
Proof.
  unfold the_comment. destruct cc as [[|c cs]|]; intros H.
  - destruct (guess_comment_char f) eqn:E; [eapply guess_ok; eassumption|apply comment_pling].
  - exact H.
  - destruct (guess_comment_char f) eqn:E; [eapply guess_ok; eassumption|apply comment_pling].
Qed.

(** ** the header lines *)
Definition header_lines (o : wopts) (nk nj ni : nat) : list str :=
  if w_headers o then
    [L "! Data written by write_array_to_ascii_file() python function" ++ [nl];
     (L "! Extent of array is: [" ++ num ni ++ L ", " ++ num nj ++ L ", " ++ num nk ++ L "]") ++ [nl];
     (L "! Maximum " ++ num (w_columns o) ++ L " data items per line") ++ [nl]]
  else [].
Lemma in_app3 {X} (x : X) a b : ~ In x a -> ~ In x b -> ~ In x (a ++ b).
Proof. rewrite in_app_iff. tauto. Qed.
Lemma L_no_nl s : find_chr nl (L s) = None -> ~ In nl (L s).
Proof. apply find_chr_none. Qed.
Lemma num_no_nl n : ~ In nl (num n).
Proof. apply no_ws_nl. apply str_no_ws. Qed.
Lemma lines_header o nk nj ni b : lines (header_text o nk nj ni ++ b) = header_lines o nk nj ni ++ lines b.
Proof.
  unfold header_text, header_lines. destruct (w_headers o); [|reflexivity].
  remember (L "! Data written by write_array_to_ascii_file() python function") as x1 eqn:E1.
  remember (L "! Extent of array is: [" ++ num ni ++ L ", " ++ num nj ++ L ", " ++ num nk ++ L "]") as x2 eqn:E2.
  remember (L "! Maximum " ++ num (w_columns o) ++ L " data items per line") as x3 eqn:E3.
  rewrite <- !app_assoc. cbn [app]. rewrite lines_line by (rewrite E1; now apply L_no_nl). cbn [app]. f_equal.
  rewrite lines_line by (rewrite E2; repeat apply in_app3; try apply num_no_nl; now apply L_no_nl). f_equal.
  rewrite lines_line by (rewrite E3; repeat apply in_app3; try apply num_no_nl; now apply L_no_nl). reflexivity.
Qed.
Lemma header_first o nk nj ni : Forall (fun l => exists ws, words l = L "!" :: ws) (header_lines o nk nj ni).
Proof.
  unfold header_lines. destruct (w_headers o); [|constructor].
  assert (G : forall x, exists ws, words (L "!" ++ sp :: x) = L "!" :: ws).
  { intros x. rewrite words_word; [eexists; reflexivity|reflexivity|discriminate|]. right. exists sp, x. split; reflexivity. }
  constructor; [|constructor; [|constructor; [|constructor]]].
  - exact (G (L "Data written by write_array_to_ascii_file() python function" ++ [nl])).
  - destruct (G ((L "Extent of array is: [" ++ num ni ++ L ", " ++ num nj ++ L ", " ++ num nk ++ L "]") ++ [nl])) as [ws E]. exists ws. exact E.
  - destruct (G ((L "Maximum " ++ num (w_columns o) ++ L " data items per line") ++ [nl])) as [ws E]. exists ws. exact E.
Qed.
Lemma header_skipped o nk nj ni skip_c f : skip_blank_lines_and_comments (header_lines o nk nj ni ++ f) (L "!") skip_c = skip_blank_lines_and_comments f (L "!") skip_c.
Proof.
  pose proof (header_first o nk nj ni) as H. induction H as [|l ls [ws E] _ IH]; [reflexivity|].
  cbn [app skip_blank_lines_and_comments]. unfold comment_line. rewrite E. cbn [L list_ascii_of_string]. cbn [str_eqb]. rewrite chr_eqb_refl. cbn [andb orb].
  rewrite orb_true_r. exact IH.
Qed.
Lemma header_starts o nk nj ni k : upper k <> L "!" -> Forall (fun l => starts k l = false) (header_lines o nk nj ni).
Proof.
  intros N. pose proof (header_first o nk nj ni) as H. rewrite Forall_forall in *. intros l Hl. destruct (H l Hl) as [ws E]. unfold starts. rewrite E.
  destruct (str_eqb_spec (upper (L "!")) (upper k)) as [X|]; [|reflexivity]. exfalso. apply N. symmetry. exact X.
Qed.
Lemma header_guess o nk nj ni f : w_headers o = true -> guess_comment_char (header_lines o nk nj ni ++ f) = Some (L "!").
Proof.
  intros W. pose proof (header_first o nk nj ni) as H. unfold header_lines in *. rewrite W in *. 
  match type of H with Forall _ (?x1 :: ?r) => generalize dependent x1; intros l; generalize r; intros ls H end.
  apply Forall_inv in H. destruct H as [ws E].
  unfold guess_comment_char. cbn [app guess_aux]. rewrite E. reflexivity.
Qed.

(** ** reading back *)
Section Back.
Context {A B : Type} (fmt : A -> str) (parse : str -> res B) (g : A -> B).
Hypothesis Hfmt : forall v, good (fmt v).
Hypothesis Hparse : forall v, parse (fmt v) = Ok (g v).

Lemma body_back cc skip_c o nk nj ni a post : comment_ok cc ->
  fromstring parse (Z.of_nat (prod [nk; nj; ni]))
    (blank_out cc (List.concat (skip_blank_lines_and_comments (lines (body_text fmt o nk nj ni a ++ post)) cc skip_c)) false) = Ok (map g (cells nk nj ni a)).
Proof.
  intros K. destruct (Nat.eq_dec (nk * (nj * ni)) 0) as [Z0|NZ].
  - assert (E : cells nk nj ni a = []) by (apply length_zero_iff_nil; now rewrite cells_length). rewrite E.
    replace (prod [nk; nj; ni]) with 0%nat by (cbn; lia). reflexivity.
  - assert (0 < nk)%nat by nia. assert (0 < nj)%nat by nia. assert (0 < ni)%nat by nia.
    pose proof (fromstring_body fmt Hfmt parse g cc o nk nj ni a post K Hparse ltac:(assumption) ltac:(assumption)) as F.
    rewrite <- (skip_body fmt Hfmt cc skip_c) in F by assumption.
    unfold fromstring in *. now rewrite blank_cons_ws in F by assumption.
Qed.
Lemma reshaped nk nj ni a : exists r, reshape (NArr [List.length (map g (cells nk nj ni a))] (map g (cells nk nj ni a))) [nk; nj; ni] = Ok r /\ a_shape r = [nk; nj; ni] /\
  forall k j i, (k < nk)%nat -> (j < nj)%nat -> (i < ni)%nat -> get_ r [k; j; i] = Ok (g (a k j i)).
Proof.
  unfold reshape. cbn [a_data].
  replace (prod [nk; nj; ni] =? _)%nat with true by (symmetry; apply Nat.eqb_eq; rewrite map_length, cells_length; cbn; lia).
  eexists. split; [reflexivity|]. split; [reflexivity|]. intros k j i Hk Hj Hi. unfold get_. cbn [a_shape a_data].
  replace (in_bounds _ _) with true by (symmetry; apply in_bounds_iff; repeat constructor; assumption).
  replace (flat [nk; nj; ni] [k; j; i]) with (k * (nj * ni) + (j * ni + i))%nat by (cbn; lia).
  rewrite nth_error_map, cells_nth by assumption. reflexivity.
Qed.
Definition arr_is (r : narr B) (nk nj ni : nat) (a : nat -> nat -> nat -> A) : Prop :=
  a_shape r = [nk; nj; ni] /\ forall k j i, (k < nk)%nat -> (j < nj)%nat -> (i < ni)%nat -> get_ r [k; j; i] = Ok (g (a k j i)).

Lemma back_keyword o kw key w ws pre post nk nj ni a text cc max skip_c :
  w_keyword o = Some kw -> ~ In nl kw -> words kw = w :: ws -> upper w = upper key -> key <> [] -> upper key <> L "!" ->
  (pre = [] \/ exists p, pre = p ++ [nl]) -> Forall (fun l => starts key l = false) (lines pre) ->
  match cc with Some c => comment_ok c | None => True end -> enough max (List.length (lines pre) + 3) ->
  write_array fmt o nk nj ni a = Ok text ->
  exists r, load_array parse (pre ++ text ++ post) (Some [nk; nj; ni]) (Some key) max cc skip_c = Ok r /\ arr_is r nk nj ni a.
Proof.
  intros Hk Hn Hw Hu Hne Hp Hpre HF Hcc Hm W. unfold write_array in W. destruct (0 <? w_columns o)%nat; [|discriminate]. injection W as <-.
  unfold load_array. fold (the_comment cc (lines (pre ++ (header_text o nk nj ni ++ keyword_text o ++ body_text fmt o nk nj ni a) ++ post))).
  pose proof (the_comment_ok cc (lines (pre ++ (header_text o nk nj ni ++ keyword_text o ++ body_text fmt o nk nj ni a) ++ post)) Hcc) as K.
  set (c := the_comment cc _) in *. clearbody c.
  unfold keyword_text. rewrite Hk, lines_app by assumption. rewrite <- !app_assoc. rewrite lines_header. cbn [app].
  rewrite lines_line by assumption.
  assert (S : starts key (kw ++ [nl]) = true).
  { unfold starts, words in *. assert (E : split_aux (kw ++ [nl]) [] = split_aux kw []).
    { assert (G : forall s cur, split_aux (s ++ [nl]) cur = split_aux s cur).
      { induction s as [|x s IH]; intros cur; cbn [app split_aux]; [destruct cur; reflexivity|]. destruct (is_ws x); [destruct cur|]; now rewrite IH. }
      apply G. }
    rewrite E, Hw. apply str_eqb_eq. assumption. }
  destruct key as [|k0 key]; [congruence|]. cbv zeta. unfold find_keyword. rewrite app_assoc.
  rewrite find_kw_app; [| |assumption|].
  2:{ apply Forall_app. split; [assumption|]. apply header_starts. assumption. }
  2:{ destruct max as [m|]; [|exact Logic.I]. cbn [enough] in *. rewrite app_length.
      assert (List.length (header_lines o nk nj ni) <= 3)%nat by (unfold header_lines; destruct (w_headers o); cbn [List.length]; lia). lia. }
  cbn [tl]. rewrite body_back by assumption. cbn [bind]. destruct (reshaped nk nj ni a) as (r & E & S1 & S2). exists r. split; [exact E|]. split; assumption.
Qed.
Lemma back_plain o post nk nj ni a text cc max skip_c :
  w_keyword o = None -> (cc = None \/ cc = Some (L "!") \/ w_headers o = false /\ exists c, cc = Some c /\ comment_ok c) ->
  write_array fmt o nk nj ni a = Ok text ->
  exists r, load_array parse (text ++ post) (Some [nk; nj; ni]) None max cc skip_c = Ok r /\ arr_is r nk nj ni a.
Proof.
  intros Hk Hcc W. unfold write_array in W. destruct (0 <? w_columns o)%nat; [|discriminate]. injection W as <-.
  unfold load_array. fold (the_comment cc (lines ((header_text o nk nj ni ++ keyword_text o ++ body_text fmt o nk nj ni a) ++ post))).
  assert (K : comment_ok (the_comment cc (lines ((header_text o nk nj ni ++ keyword_text o ++ body_text fmt o nk nj ni a) ++ post)))).
  { apply the_comment_ok. destruct Hcc as [->|[->|(_ & c & -> & Hc)]]; [exact Logic.I|apply comment_pling|exact Hc]. }
  set (c := the_comment cc _) in *. cbv zeta.
  assert (E : skip_blank_lines_and_comments (lines ((header_text o nk nj ni ++ keyword_text o ++ body_text fmt o nk nj ni a) ++ post)) c skip_c
    = skip_blank_lines_and_comments (lines (body_text fmt o nk nj ni a ++ post)) c skip_c).
  { unfold keyword_text in *. rewrite Hk in *. cbn [app] in *. rewrite <- !app_assoc in *. rewrite lines_header in *.
    destruct (w_headers o) eqn:Wh; [|unfold header_lines; rewrite Wh; reflexivity].
    assert (Ec : c = L "!").
    { subst c. destruct Hcc as [->|[->|(X & _)]]; [|reflexivity|discriminate]. unfold the_comment, keyword_text. rewrite Hk. cbn [app]. rewrite <- !app_assoc, lines_header, header_guess by assumption. reflexivity. }
    rewrite Ec. apply header_skipped. }
  rewrite E, body_back by assumption. cbn [bind]. destruct (reshaped nk nj ni a) as (r & E' & S1 & S2). exists r. split; [exact E'|]. split; assumption.
Qed.
End Back.

(** ** integers *)
Lemma uint_num d : forallb numch (list_ascii_of_string (DecimalString.NilEmpty.string_of_uint d)) = true.
Proof. induction d; cbn [DecimalString.NilEmpty.string_of_uint list_ascii_of_string forallb]; [reflexivity|..]; rewrite IHd; reflexivity. Qed.
Lemma uint0_num d : forallb numch (list_ascii_of_string (DecimalString.NilZero.string_of_uint d)) = true.
Proof. destruct d; try apply (uint_num _). reflexivity. Qed.
Lemma uint_nodot d : ~ In "."%char (list_ascii_of_string (DecimalString.NilEmpty.string_of_uint d)).
Proof. induction d; cbn [DecimalString.NilEmpty.string_of_uint list_ascii_of_string In]; [tauto|..]; intros [E|E]; try discriminate; tauto. Qed.
Lemma good_int z : good (fmt_int z).
Proof.
  unfold fmt_int, str_of_int, L. destruct (Z.to_int z) as [d|d]; cbn [DecimalString.NilZero.string_of_int].
  - pose proof (uint0_num d) as H. pose proof (uint0_nonempty d) as N. destruct (list_ascii_of_string _) as [|c w]; [congruence|].
    cbn [forallb good] in *. apply andb_true_iff in H. tauto.
  - cbn [list_ascii_of_string good]. split; [now right|]. apply uint0_num.
Qed.
Lemma parse_fmt_int z : parse_int (fmt_int z) = Ok z.
Proof. unfold parse_int, fmt_int, L. rewrite string_of_list_ascii_of_string. apply int_str_roundtrip. Qed.
Lemma good_bool b : good (fmt_bool b).
Proof. destruct b; cbn; auto. Qed.
Lemma parse_fmt_bool b : parse_int (fmt_bool b) = Ok (if b then 1 else 0).
Proof. destruct b; reflexivity. Qed.

(** ** reals *)
Lemma nonneg_num z : 0 <= z -> forallb numch (L (str_of_int z)) = true /\ ~ In "."%char (L (str_of_int z)) /\ L (str_of_int z) <> [] /\
  forall c t, L (str_of_int z) = c :: t -> c <> "-"%char.
Proof.
  intros H. assert (E : exists d, Z.to_int z = Decimal.Pos d) by (destruct z; cbn; [eexists; reflexivity|eexists; reflexivity|lia]).
  destruct E as [d E]. unfold str_of_int, L. rewrite E. cbn [DecimalString.NilZero.string_of_int].
  pose proof (uint0_num d) as N. split; [exact N|]. split; [|split; [apply uint0_nonempty|]].
  - destruct d; try apply (uint_nodot _). cbn. intros [X|[]]. discriminate.
  - intros c t X. rewrite X in N. cbn in N. intros ->. discriminate.
Qed.
Lemma round_even_spec q : (Qabs (inject_Z (round_even q) - q) <= 1 # 2)%Q.
Proof.
  unfold round_even. pose proof (Qfloor_le q) as H1. pose proof (Qlt_floor q) as H2. rewrite inject_Z_plus in H2. change (inject_Z 1) with 1%Q in H2.
  set (f := Qfloor q) in *. clearbody f. apply Qabs_Qle_condition.
  destruct (Qltb (q - inject_Z f) (1 # 2)) eqn:E1; [apply Qltb_iff in E1; split; lra|]. apply Qltb_false in E1.
  destruct (Qltb (1 # 2) (q - inject_Z f)) eqn:E2; [apply Qltb_iff in E2; rewrite inject_Z_plus; change (inject_Z 1) with 1%Q; split; lra|]. apply Qltb_false in E2.
  destruct (Z.even f); [|rewrite inject_Z_plus; change (inject_Z 1) with 1%Q]; split; lra.
Qed.
Lemma round_even_nonneg q : (0 <= q)%Q -> 0 <= round_even q.
Proof.
  intros H. assert (0 <= Qfloor q) by (apply (Qfloor_resp_le 0 q) in H; exact H). unfold round_even.
  destruct (Qltb _ _); [lia|]. destruct (Qltb _ _); [lia|]. destruct (Z.even _); lia.
Qed.
Lemma digit_num z : 0 <= z <= 9 -> numch (digit z) = true /\ digit_value (digit z) = Ok z.
Proof.
  intros H. assert (E : z = 0 \/ z = 1 \/ z = 2 \/ z = 3 \/ z = 4 \/ z = 5 \/ z = 6 \/ z = 7 \/ z = 8 \/ z = 9) by lia.
  repeat (destruct E as [->|E]; [split; reflexivity|]). subst z. split; reflexivity.
Qed.
Lemma digits_num d : forall z, forallb numch (digits d z) = true.
Proof.
  induction d as [|d IH]; intros z; [reflexivity|]. cbn [digits]. rewrite forallb_app, IH. cbn [forallb].
  destruct (digit_num (z mod 10)) as [E _]; [pose proof (Z.mod_pos_bound z 10); lia|]. now rewrite E.
Qed.
Lemma digits_length d : forall z, List.length (digits d z) = d.
Proof. induction d as [|d IH]; intros z; [reflexivity|]. cbn [digits]. rewrite app_length, IH. cbn. lia. Qed.
Lemma digits_value_app s t : forall acc, digits_value (s ++ t) acc = (do x <- digits_value s acc; digits_value t x).
Proof.
  induction s as [|c s IH]; intros acc; cbn [app digits_value bind]; [reflexivity|]. destruct (digit_value c); cbn [bind]; [apply IH|reflexivity].
Qed.
Lemma pow10_S d : 10 ^ Z.of_nat (S d) = 10 * 10 ^ Z.of_nat d.
Proof. rewrite Nat2Z.inj_succ, Z.pow_succ_r by lia. reflexivity. Qed.
Lemma pow10_pos d : 0 < 10 ^ Z.of_nat d.
Proof. apply Z.pow_pos_nonneg; lia. Qed.
Lemma digits_value_digits d : forall z acc, 0 <= z -> digits_value (digits d z) acc = Ok (acc * 10 ^ Z.of_nat d + z mod 10 ^ Z.of_nat d).
Proof.
  induction d as [|d IH]; intros z acc Hz.
  - cbn [digits digits_value]. change (10 ^ Z.of_nat 0) with 1. rewrite Z.mod_1_r. f_equal. lia.
  - cbn [digits]. rewrite digits_value_app, IH by (apply Z.div_pos; lia). cbn [bind digits_value].
    destruct (digit_num (z mod 10)) as [_ E]; [pose proof (Z.mod_pos_bound z 10); lia|]. rewrite E. cbn [bind]. f_equal.
    rewrite pow10_S. pose proof (pow10_pos d). rewrite (Z.rem_mul_r z 10 (10 ^ Z.of_nat d)) by lia. lia.
Qed.
Definition scaled (d : nat) (q : Q) : Z := round_even (Qabs q * inject_Z (10 ^ Z.of_nat d))%Q.
Definition rounded_abs (d : nat) (q : Q) : Q :=
  match d with
  | O => inject_Z (scaled d q / 10 ^ Z.of_nat d)
  | _ => inject_Z (scaled d q / 10 ^ Z.of_nat d) + inject_Z (scaled d q mod 10 ^ Z.of_nat d) / inject_Z (10 ^ Z.of_nat d)
  end%Q.
Definition rounded (d : nat) (q : Q) : Q := if Qltb q 0%Q then (- rounded_abs d q)%Q else rounded_abs d q.
Lemma scaled_nonneg d q : 0 <= scaled d q.
Proof.
  apply round_even_nonneg. apply Qmult_le_0_compat; [apply Qabs_nonneg|]. rewrite <- (Zle_Qle 0). pose proof (pow10_pos d). lia.
Qed.
Lemma rounded_abs_val d q : (rounded_abs d q == inject_Z (scaled d q) / inject_Z (10 ^ Z.of_nat d))%Q.
Proof.
  pose proof (pow10_pos d) as P. assert (NZ : ~ (inject_Z (10 ^ Z.of_nat d) == 0)%Q) by (intros X; unfold Qeq, inject_Z in X; cbn [Qnum Qden] in X; lia).
  unfold rounded_abs. set (m := scaled d q). destruct d as [|d].
  - change (10 ^ Z.of_nat 0) with 1. rewrite Z.div_1_r. field.
  - set (p := 10 ^ Z.of_nat (S d)) in *. rewrite (Z.div_mod m p) at 3 by lia. rewrite inject_Z_plus, inject_Z_mult. field. assumption.
Qed.
Lemma scale_abs (x y p : Q) : (0 < p)%Q -> (Qabs (x - y * p) <= 1 # 2)%Q -> (Qabs (x / p - y) <= (1 # 2) / p)%Q.
Proof.
  intros P H. assert (NZ : ~ (p == 0)%Q) by lra.
  setoid_replace (x / p - y)%Q with ((x - y * p) / p)%Q by (field; assumption).
  unfold Qdiv. rewrite Qabs_Qmult. rewrite (Qabs_pos (/ p)) by (apply Qlt_le_weak, Qinv_lt_0_compat; assumption).
  apply Qmult_le_compat_r; [assumption|]. apply Qlt_le_weak, Qinv_lt_0_compat; assumption.
Qed.
Lemma rounded_close d q : (Qabs (rounded d q - q) <= (1 # 2) / inject_Z (10 ^ Z.of_nat d))%Q.
Proof.
  pose proof (pow10_pos d) as P. assert (P' : (0 < inject_Z (10 ^ Z.of_nat d))%Q) by (rewrite <- (Zlt_Qlt 0); assumption).
  assert (G : (Qabs (rounded_abs d q - Qabs q) <= (1 # 2) / inject_Z (10 ^ Z.of_nat d))%Q).
  { rewrite rounded_abs_val. apply scale_abs; [assumption|]. apply round_even_spec. }
  unfold rounded. destruct (Qltb q 0%Q) eqn:E.
  - apply Qltb_iff in E. rewrite (Qabs_neg q) in G by lra. setoid_replace (- rounded_abs d q - q)%Q with (- (rounded_abs d q - - q))%Q by ring.
    rewrite Qabs_opp. exact G.
  - apply Qltb_false in E. rewrite (Qabs_pos q) in G by lra. exact G.
Qed.
Definition unsigned_text (d : nat) (q : Q) : str :=
  L (str_of_int (scaled d q / 10 ^ Z.of_nat d)) ++ match d with O => [] | _ => L "." ++ digits d (scaled d q mod 10 ^ Z.of_nat d) end.
Lemma unsigned_ok d q : forallb numch (unsigned_text d q) = true /\ unsigned_text d q <> [] /\
  (forall c t, unsigned_text d q = c :: t -> c <> "-"%char) /\ parse_unsigned (unsigned_text d q) = Ok (rounded_abs d q).
Proof.
  unfold unsigned_text, rounded_abs. pose proof (scaled_nonneg d q) as M. set (m := scaled d q) in *. clearbody m. pose proof (pow10_pos d) as P.
  assert (D : 0 <= m / 10 ^ Z.of_nat d) by (apply Z.div_pos; lia).
  pose proof (Z.mod_pos_bound m (10 ^ Z.of_nat d) P) as Mb.
  destruct (nonneg_num _ D) as (N1 & N2 & N3 & N4). pose proof (parse_fmt_int (m / 10 ^ Z.of_nat d)) as PI. unfold fmt_int in PI.
  set (u := L (str_of_int (m / 10 ^ Z.of_nat d))) in *. clearbody u.
  destruct d as [|d].
  - rewrite app_nil_r. repeat split; try assumption. unfold parse_unsigned. rewrite (proj2 (find_chr_none _ _) N2), PI. reflexivity.
  - remember (S d) as e eqn:Ee. clear Ee. split; [|split; [|split]].
    + rewrite !forallb_app, N1, digits_num. reflexivity.
    + destruct u; [congruence|discriminate].
    + intros c t E. destruct u as [|x u]; [congruence|]. injection E as <- _. eapply N4. reflexivity.
    + unfold parse_unsigned. change (L "." ++ ?x) with ("."%char :: x). rewrite find_chr_app by assumption.
      rewrite (firstn_app_exact u _ _ eq_refl), PI. cbn [bind].
      replace (skipn (List.length u + 1) (u ++ "."%char :: digits e (m mod 10 ^ Z.of_nat e))) with (digits e (m mod 10 ^ Z.of_nat e)).
      2:{ rewrite Nat.add_comm. cbn [Nat.add]. change (S (List.length u)) with (1 + List.length u)%nat. rewrite Nat.add_comm, <- skipn_skipn, (skipn_app_exact u _ _ eq_refl). reflexivity. }
      rewrite digits_value_digits by lia. cbn [bind]. rewrite digits_length, Z.mod_mod by lia. reflexivity.
Qed.
Lemma fmt_real_eq d q : fmt_real d q = (if Qltb q 0%Q then L "-" else []) ++ unsigned_text d q.
Proof. reflexivity. Qed.
Lemma good_real d q : good (fmt_real d q).
Proof.
  rewrite fmt_real_eq. destruct (unsigned_ok d q) as (N1 & N2 & N3 & _). destruct (Qltb q 0%Q); cbn [app L list_ascii_of_string].
  - split; [now right|assumption].
  - destruct (unsigned_text d q) as [|c t]; [congruence|]. cbn [forallb good] in *. apply andb_true_iff in N1. tauto.
Qed.
Lemma parse_fmt_real d q : parse_real (fmt_real d q) = Ok (rounded d q).
Proof.
  rewrite fmt_real_eq. destruct (unsigned_ok d q) as (N1 & N2 & N3 & N4). unfold rounded. destruct (Qltb q 0%Q); cbn [app L list_ascii_of_string].
  - unfold parse_real. rewrite chr_eqb_refl, N4. reflexivity.
  - destruct (unsigned_text d q) as [|c t]; [congruence|]. unfold parse_real.
    destruct (chr_eqb_spec c "-") as [->|]; [exfalso; eapply N3; reflexivity|]. exact N4.
Qed.
