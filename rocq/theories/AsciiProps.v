(** AsciiProps.v: arrays written to text files are read back (C27); keyword searches (C61). *)
From Verif Require Import QBase TextModel TextProofs StrModel StrProofs NArray AsciiModel AsciiProofs AsciiProofs2.
Open Scope Z_scope.

(** ** Specification *)
(** the first word of the line is the keyword, whatever the case of the letters *)
Definition names (keyword line : str) : Prop := exists w ws, words line = w :: ws /\ upper w = upper keyword.
(** the first two words are the given ones *)
Definition names2 (primary secondary line : str) : Prop :=
  exists w v ws, words line = w :: v :: ws /\ upper w = upper primary /\ upper v = upper secondary.
(** text that is a number of whole lines *)
Definition whole_lines (s : str) : Prop := s = [] \/ exists p, s = p ++ [nl].
Definition holds {A} (r : narr A) (nk nj ni : nat) (P : nat -> nat -> nat -> A -> Prop) : Prop :=
  a_shape r = [nk; nj; ni] /\ forall k j i, (k < nk)%nat -> (j < nj)%nat -> (i < ni)%nat -> exists v, get_ r [k; j; i] = Ok v /\ P k j i v.
(** the position reached is that of line [l], the first for which P holds *)
Definition first_at (f f' : file) (P : str -> Prop) : Prop :=
  exists before l after, f = before ++ l :: after /\ f' = l :: after /\ P l /\ Forall (fun x => ~ P x) before.

Lemma starts_iff k l : starts k l = true <-> names k l.
Proof.
  unfold starts, names. destruct (words l) as [|w ws].
  - split; [discriminate|]. intros (? & ? & ? & _). discriminate.
  - rewrite str_eqb_eq. split; [intros E; eauto|]. intros (? & ? & [= <- <-] & E). exact E.
Qed.
Lemma starts_false k l : starts k l = false <-> ~ names k l.
Proof. rewrite <- starts_iff. destruct (starts k l); split; congruence. Qed.
Lemma Forall_starts k ls : Forall (fun x => ~ names k x) ls -> Forall (fun x => starts k x = false) ls.
Proof. apply Forall_impl. intros x. apply starts_false. Qed.
Lemma arr_holds {A B} (g : A -> B) r nk nj ni a (P : nat -> nat -> nat -> B -> Prop) :
  arr_is g r nk nj ni a -> (forall k j i, P k j i (g (a k j i))) -> holds r nk nj ni P.
Proof. intros [H1 H2] H. split; [exact H1|]. intros. eexists. split; [now apply H2|apply H]. Qed.

(** where an array written with a keyword sits in a file: whole lines before it, none of which
    begins with the keyword, and anything after it *)
Record placed (o : wopts) (key : str) (pre : str) (max : option Z) (cc : option str) : Prop := {
  pl_kw : exists kw, w_keyword o = Some kw /\ ~ In nl kw /\ names key kw;
  pl_key : key <> [] /\ upper key <> L "!";
  pl_pre : whole_lines pre /\ Forall (fun l => ~ names key l) (lines pre);
  pl_max : match max with None => True | Some m => Z.of_nat (List.length (lines pre) + 3) < m end;
  pl_cc : match cc with Some c => comment_ok c | None => True end
}.

(** ** C27 *)
Section C27.
Context {A B : Type} (fmt : A -> str) (parse : str -> res B) (g : A -> B).
Hypothesis Hfmt : forall v, good (fmt v).
Hypothesis Hparse : forall v, parse (fmt v) = Ok (g v).
Lemma keyword_back o key pre post nk nj ni a text cc max skip_c :
  placed o key pre max cc -> write_array fmt o nk nj ni a = Ok text ->
  exists r, load_array parse (pre ++ text ++ post) (Some [nk; nj; ni]) (Some key) max cc skip_c = Ok r /\ arr_is g r nk nj ni a.
Proof.
  intros [(kw & K1 & K2 & w & ws & K3 & K4) [P1 P2] [P3 P4] P5 P6] W.
  eapply back_keyword; try eassumption. now apply Forall_starts.
Qed.
End C27.

Theorem C27_integers o key pre post nk nj ni (a : nat -> nat -> nat -> Z) text cc max skip_c :
  placed o key pre max cc -> write_array fmt_int o nk nj ni a = Ok text ->
  exists r, load_array parse_int (pre ++ text ++ post) (Some [nk; nj; ni]) (Some key) max cc skip_c = Ok r /\
            holds r nk nj ni (fun k j i v => v = a k j i).
Proof.
  intros P W. destruct (keyword_back fmt_int parse_int (fun z => z) good_int parse_fmt_int o key pre post nk nj ni a text cc max skip_c P W) as (r & E & H).
  exists r. split; [exact E|]. eapply arr_holds; [exact H|reflexivity].
Qed.
Print Assumptions C27_integers.

Theorem C27_booleans o key pre post nk nj ni (a : nat -> nat -> nat -> bool) text cc max skip_c :
  placed o key pre max cc -> write_array fmt_bool o nk nj ni a = Ok text ->
  exists r, load_bool (pre ++ text ++ post) (Some [nk; nj; ni]) (Some key) max cc skip_c = Ok r /\
            holds r nk nj ni (fun k j i v => v = a k j i).
Proof.
  intros P W. destruct (keyword_back fmt_bool parse_int (fun b : bool => if b then 1 else 0) good_bool parse_fmt_bool o key pre post nk nj ni a text cc max skip_c P W) as (r & E & H1 & H2).
  unfold load_bool. rewrite E. cbn [bind]. eexists. split; [reflexivity|]. split; [exact H1|]. intros k j i Hk Hj Hi. specialize (H2 k j i Hk Hj Hi).
  unfold get_ in *. cbn [amap a_shape a_data]. destruct (in_bounds _ _); [|discriminate]. rewrite nth_error_map.
  destruct (nth_error _ _) as [z|]; [|discriminate]. injection H2 as ->. eexists. split; [reflexivity|]. destruct (a k j i); reflexivity.
Qed.
Print Assumptions C27_booleans.

Theorem C27_reals d o key pre post nk nj ni (a : nat -> nat -> nat -> Q) text cc max skip_c :
  placed o key pre max cc -> write_array (fmt_real d) o nk nj ni a = Ok text ->
  exists r, load_array parse_real (pre ++ text ++ post) (Some [nk; nj; ni]) (Some key) max cc skip_c = Ok r /\
            holds r nk nj ni (fun k j i v => (Qabs (v - a k j i) <= (1 # 2) / inject_Z (10 ^ Z.of_nat d))%Q).
Proof.
  intros P W. destruct (keyword_back (fmt_real d) parse_real (rounded d) (good_real d) (parse_fmt_real d) o key pre post nk nj ni a text cc max skip_c P W) as (r & E & H).
  exists r. split; [exact E|]. eapply arr_holds; [exact H|]. intros. apply rounded_close.
Qed.
Print Assumptions C27_reals.

(** a file that holds only the array, written and read without a keyword *)
Theorem C27_without_keyword d o post nk nj ni (a : nat -> nat -> nat -> Q) text cc max skip_c :
  w_keyword o = None -> cc = None \/ cc = Some (L "!") ->
  write_array (fmt_real d) o nk nj ni a = Ok text ->
  exists r, load_array parse_real (text ++ post) (Some [nk; nj; ni]) None max cc skip_c = Ok r /\
            holds r nk nj ni (fun k j i v => (Qabs (v - a k j i) <= (1 # 2) / inject_Z (10 ^ Z.of_nat d))%Q).
Proof.
  intros K C W. destruct (back_plain (fmt_real d) parse_real (rounded d) (good_real d) (parse_fmt_real d) o post nk nj ni a text cc max skip_c K ltac:(tauto) W) as (r & E & H).
  exists r. split; [exact E|]. eapply arr_holds; [exact H|]. intros. apply rounded_close.
Qed.
Print Assumptions C27_without_keyword.
Theorem C27_integers_without_keyword o post nk nj ni (a : nat -> nat -> nat -> Z) text cc max skip_c :
  w_keyword o = None -> cc = None \/ cc = Some (L "!") ->
  write_array fmt_int o nk nj ni a = Ok text ->
  exists r, load_array parse_int (text ++ post) (Some [nk; nj; ni]) None max cc skip_c = Ok r /\
            holds r nk nj ni (fun k j i v => v = a k j i).
Proof.
  intros K C W. destruct (back_plain fmt_int parse_int (fun z => z) good_int parse_fmt_int o post nk nj ni a text cc max skip_c K ltac:(tauto) W) as (r & E & H).
  exists r. split; [exact E|]. eapply arr_holds; [exact H|reflexivity].
Qed.
Print Assumptions C27_integers_without_keyword.

(** two arrays appended to one file *)
Definition demo_o (k : string) := WO true (Some (L k)) 2 true false false.
Definition demo_text (k : string) (a : nat -> nat -> nat -> Z) (nk nj ni : nat) : str :=
  match write_array fmt_int (demo_o k) nk nj ni a with Ok s => s | Err _ => [] end.
Definition demo_a (k j i : nat) : Z := 7 - Z.of_nat (100 * k + 10 * j + i).
Definition demo_b (k j i : nat) : Z := Z.of_nat (i * i + k) - 3 * Z.of_nat j.
Definition demo_pre : str := L "# run 12" ++ [nl] ++ demo_text "KX VALUE" demo_a 2 2 3.
Example C27_example_placed : placed (demo_o "Ky VALUE") (L "KY") demo_pre (Some 100) None.
Proof.
  split.
  - exists (L "Ky VALUE"). split; [reflexivity|]. split; [apply L_no_nl; reflexivity|]. apply starts_iff. reflexivity.
  - split; discriminate.
  - split; [right; exists (removelast demo_pre); vm_compute; reflexivity|].
    assert (E : forallb (fun l => negb (starts (L "KY") l)) (lines demo_pre) = true) by (vm_compute; reflexivity).
    rewrite forallb_forall in E. apply Forall_forall. intros l Hl. apply starts_false. specialize (E l Hl). now destruct (starts _ _).
  - vm_compute. reflexivity.
  - exact Logic.I.
Qed.
Example C27_example :
  (do r <- load_array parse_int (demo_pre ++ demo_text "Ky VALUE" demo_b 1 2 2 ++ L "-- end") (Some [1; 2; 2]%nat) (Some (L "KY")) None None true; get_ r [0; 1; 1]%nat) = Ok (-2) /\
  (do r <- load_array parse_int (demo_pre ++ demo_text "Ky VALUE" demo_b 1 2 2 ++ L "-- end") (Some [2; 2; 3]%nat) (Some (L "kx")) None None true; get_ r [1; 1; 2]%nat) = Ok (-105).
Proof. vm_compute. split; reflexivity. Qed.
Example C27_example_real : map string_of_list_ascii [fmt_real 3 (-123456 # 100000); fmt_real 2 (5 # 1000); fmt_real 2 (15 # 1000); fmt_real 0 (7 # 2); fmt_real 2 (-1 # 1000)]
  = ["-1.235"; "0.00"; "0.02"; "4"; "-0.00"]%string.
Proof. vm_compute. reflexivity. Qed.

(** asking for a keyword that is not in the file is not reported: the numbers at the start of the
    file are returned *)
Theorem C27_missing_keyword_refuted :
  exists text key r, Forall (fun l => ~ names key l) (lines text) /\
    load_array parse_int text (Some [1; 1; 2]%nat) (Some key) None None true = Ok r.
Proof.
  exists (L "1 2 3" ++ [nl]), (L "KX"). eexists. split; [|vm_compute; reflexivity].
  repeat constructor. apply starts_false. reflexivity.
Qed.
Print Assumptions C27_missing_keyword_refuted.
(** with the same keyword twice, the second array is not reachable *)
Theorem C27_repeated_keyword_refuted :
  exists o key a b text1 text2, write_array fmt_int o 1 1 1 a = Ok text1 /\ write_array fmt_int o 1 1 1 b = Ok text2 /\
    (do r <- load_array parse_int (text1 ++ text2) (Some [1; 1; 1]%nat) (Some key) None None true; get_ r [0; 0; 0]%nat) <> Ok (b 0 0 0)%nat.
Proof.
  exists (demo_o "KX"), (L "KX"), (fun _ _ _ => 1), (fun _ _ _ => 2). do 2 eexists. split; [reflexivity|]. split; [reflexivity|]. vm_compute. discriminate.
Qed.
Print Assumptions C27_repeated_keyword_refuted.

(** ** C61: keyword searches *)
Theorem C61_find_keyword f k max f' b : find_keyword f k max = (f', b) ->
  (b = true -> first_at f f' (names k)) /\
  (b = true -> match max with None => True | Some m => Z.of_nat (List.length f) - Z.of_nat (List.length f') < m end) /\
  (b = false -> f' = f) /\
  (b = false -> forall n l, nth_error f n = Some l -> match max with None => True | Some m => Z.of_nat n < m end -> ~ names k l).
Proof.
  unfold find_keyword. assert (G : match find_keyword_aux f k max with
    | Some r => first_at f r (names k) /\ match max with None => True | Some m => Z.of_nat (List.length f) - Z.of_nat (List.length r) < m end
    | None => forall n l, nth_error f n = Some l -> match max with None => True | Some m => Z.of_nat n < m end -> ~ names k l end).
  { revert max. induction f as [|x f IH]; intros max.
    - destruct max as [m|]; cbn [find_keyword_aux]; [destruct (m <=? 0)|]; intros [|n] l; discriminate.
    - assert (ST : forall m', match m' with Some m => 0 < m | None => True end -> find_keyword_aux (x :: f) k m' = if starts k x then Some (x :: f) else find_keyword_aux f k (option_map (fun m => m - 1) m')).
      { intros [m|] H; cbn [find_keyword_aux option_map]; [destruct (Z.leb_spec m 0); [lia|]|]; reflexivity. }
      assert (D : match max with Some m => 0 < m | None => True end \/ exists m, max = Some m /\ m <= 0) by (destruct max as [m|]; [destruct (Z.leb_spec m 0); [right; eauto|left; lia]|left; exact Logic.I]).
      destruct D as [D|(m & -> & D)].
      + rewrite ST by assumption. destruct (starts k x) eqn:E.
        * split; [|destruct max; [rewrite Z.sub_diag; exact D|exact Logic.I]]. exists [], x, f. split; [reflexivity|]. split; [reflexivity|]. split; [now apply starts_iff|constructor].
        * apply starts_false in E. specialize (IH (option_map (fun m => m - 1) max)). destruct (find_keyword_aux f k _) as [r|].
          -- destruct IH as [(bf & l & af & -> & -> & N & F) B]. split.
             ++ exists (x :: bf), l, af. split; [reflexivity|]. split; [reflexivity|]. split; [assumption|]. now constructor.
             ++ destruct max as [m|]; [|exact Logic.I]. cbn [option_map List.length] in *. rewrite Nat2Z.inj_succ. lia.
          -- intros [|n] l H B; [injection H as <-; assumption|]. apply (IH n l H). destruct max as [m|]; [|exact Logic.I]. cbn [option_map] in *. lia.
      + cbn [find_keyword_aux]. destruct (Z.leb_spec m 0); [|lia]. intros n l _ B. lia. }
  destruct (find_keyword_aux f k max) as [r|]; intros [= <- <-].
  - destruct G as [G1 G2]. repeat split; try discriminate; intros _; assumption.
  - split; [discriminate|]. split; [discriminate|]. split; [reflexivity|]. intros _. exact G.
Qed.
Print Assumptions C61_find_keyword.

(** reached without passing the other keyword *)
Theorem C61_without_passing f k stop f' b : find_keyword_without_passing f k stop = (f', b) ->
  (b = true -> first_at f f' (names k) /\ first_at f f' (fun l => names k l \/ names stop l)) /\
  (b = false -> (first_at f f' (fun l => names k l \/ names stop l) /\ exists l r, f' = l :: r /\ names stop l /\ ~ names k l) \/
                (f' = [] /\ Forall (fun l => ~ names k l /\ ~ names stop l) f)).
Proof.
  revert f' b. induction f as [|x f IH]; intros f' b; cbn [find_keyword_without_passing].
  - intros [= <- <-]. split; [discriminate|]. intros _. right. split; [reflexivity|constructor].
  - destruct (starts k x) eqn:E1.
    + intros [= <- <-]. apply starts_iff in E1. split; [|discriminate]. intros _. split; exists [], x, f; repeat split; auto.
    + apply starts_false in E1. destruct (starts stop x) eqn:E2.
      * intros [= <- <-]. apply starts_iff in E2. split; [discriminate|]. intros _. left. split; [exists [], x, f; repeat split; auto|]. exists x, f. auto.
      * apply starts_false in E2. intros E. destruct (IH _ _ E) as [H1 H2]. split.
        -- intros B. destruct (H1 B) as [(p & l & r & -> & -> & N & F) (p' & l' & r' & Ep & El & N' & F')]. split.
           ++ exists (x :: p), l, r. repeat split; auto.
           ++ exists (x :: p'), l', r'. rewrite Ep. repeat split; auto. constructor; [tauto|assumption].
        -- intros B. destruct (H2 B) as [[(p & l & r & -> & -> & N & F) X]|[-> F]].
           ++ left. split; [|exact X]. exists (x :: p), l, r. repeat split; auto. constructor; [tauto|assumption].
           ++ right. split; [reflexivity|]. constructor; [tauto|assumption].
Qed.
Print Assumptions C61_without_passing.

(** copying keeps the text: what was copied followed by what is left is the file, and the search
    ends at the first line with the keyword *)
Theorem C61_copying f k f' out b : find_keyword_with_copy f k = (f', out, b) ->
  f = out ++ f' /\ Forall (fun l => ~ names k l) out /\ (b = true -> exists l r, f' = l :: r /\ names k l) /\ (b = false -> f' = []).
Proof.
  revert f' out b. induction f as [|x f IH]; intros f' out b; cbn [find_keyword_with_copy].
  - intros [= <- <- <-]. repeat split; try discriminate; constructor.
  - destruct (starts k x) eqn:E.
    + intros [= <- <- <-]. apply starts_iff in E. repeat split; try discriminate; [constructor|eauto].
    + apply starts_false in E. destruct (find_keyword_with_copy f k) as [[r o] c]. intros [= <- <- <-].
      destruct (IH _ _ _ eq_refl) as (-> & F & H1 & H2). repeat split; auto.
Qed.
Print Assumptions C61_copying.

Lemma names2_names p s l : names2 p s l -> names p l.
Proof. intros (w & v & ws & E & H & _). exists w, (v :: ws). auto. Qed.
Lemma second_iff p s l : names p l -> (names2 p s l <-> exists w, second_word l = Some w /\ upper w = upper s).
Proof.
  intros (w & ws & E & H). unfold second_word, names2. rewrite E. split.
  - intros (w' & v & ws' & [= -> ->] & _ & Hv). eauto.
  - intros (v & X & Hv). destruct ws as [|v' ws]; [discriminate|]. injection X as ->. eauto 8.
Qed.
Theorem C61_pair f p s f' b : find_keyword_pair f p s = (f', b) ->
  (b = true -> first_at f f' (names2 p s)) /\
  (b = false -> Forall (fun l => ~ names2 p s l) f).
Proof.
  unfold find_keyword_pair. assert (Le : (List.length f < S (List.length f))%nat) by lia. revert Le. generalize (S (List.length f)) as n.
  intros n. revert f f' b. induction n as [|n IH]; intros f f' b Le; [lia|]. cbn [find_keyword_pair_aux].
  destruct (C61_find_keyword f p None (fst (find_keyword f p None)) (snd (find_keyword f p None)) (surjective_pairing _)) as (H1 & _ & _ & H2).
  unfold find_keyword in *. destruct (find_keyword_aux f p None) as [r|] eqn:Er; cbn [fst snd] in *.
  - destruct (H1 eq_refl) as (bf & l & af & -> & -> & N & F).
    assert (F2 : Forall (fun l => ~ names2 p s l) bf) by (revert F; apply Forall_impl; intros x X Y; apply X; eapply names2_names; eassumption).
    rewrite app_length in Le. cbn [List.length] in Le.
    assert (K : ~ names2 p s l -> find_keyword_pair_aux n af p s = (f', b) -> (b = true -> first_at (bf ++ l :: af) f' (names2 p s)) /\ (b = false -> Forall (fun l => ~ names2 p s l) (bf ++ l :: af))).
    { intros NN E. destruct (IH af f' b ltac:(lia) E) as [I1 I2]. split.
      - intros B. destruct (I1 B) as (bf' & l' & af' & -> & -> & N' & F'). exists (bf ++ l :: bf'), l', af'. rewrite <- app_assoc. repeat split; auto.
        apply Forall_app. split; [assumption|]. now constructor.
      - intros B. apply Forall_app. split; [assumption|]. constructor; [assumption|auto]. }
    pose proof (second_iff p s l N) as SI. destruct (second_word l) as [w|].
    + destruct (str_eqb_spec (upper w) (upper s)) as [E|E].
      * intros [= <- <-]. split; [|discriminate]. intros _. exists bf, l, af. repeat split; auto. apply SI. eauto.
      * apply K. intros X. apply SI in X. destruct X as (? & [= <-] & X). congruence.
    + apply K. intros X. apply SI in X. destruct X as (? & X & _). discriminate.
  - intros [= <- <-]. split; [discriminate|]. intros _. apply Forall_forall. intros x Hx Y. apply In_nth_error in Hx. destruct Hx as [m Hm].
    apply (H2 eq_refl m x Hm Logic.I). eapply names2_names; eassumption.
Qed.
Print Assumptions C61_pair.

(** a line without content: blank, or its first word begins with the comment character, or is a
    lone C or c when such comments are to be skipped *)
Definition idle (cc : str) (c_space : bool) (line : str) : Prop :=
  words line = [] \/ exists c w ws, words line = (c :: w) :: ws /\ ([c] = cc \/ c_space = true /\ w = [] /\ (c = "C"%char \/ c = "c"%char)).
Lemma words_nonempty s : Forall (fun w => w <> []) (words s).
Proof.
  unfold words. assert (G : forall s cur, Forall (fun w : list ascii => w <> []) (split_aux s cur)); [|apply G].
  induction s0 as [|c s0 IH]; intros cur; cbn [split_aux].
  - destruct cur; constructor; [|constructor]. cbn. destruct (rev cur); discriminate.
  - destruct (is_ws c); [|apply IH]. destruct cur; [apply IH|]. constructor; [cbn; destruct (rev cur); discriminate|apply IH].
Qed.
Lemma idle_iff cc c_space l : blank l || comment_line cc c_space l = true <-> idle cc c_space l.
Proof.
  unfold blank, comment_line, idle. pose proof (words_nonempty l) as N. destruct (words l) as [|w ws].
  - split; auto.
  - apply Forall_inv in N. destruct w as [|c w]; [congruence|]. cbn [orb]. rewrite orb_true_iff, andb_true_iff, str_eqb_eq. split.
    + intros H. right. exists c, w, ws. split; [reflexivity|]. destruct H as [H|[H1 H2]]; [now left|right]. destruct w; [|discriminate]. apply orb_true_iff in H2.
      repeat split; auto. destruct H2 as [H2|H2]; [left|right]; [destruct (chr_eqb_spec c "C")|destruct (chr_eqb_spec c "c")]; congruence.
    + intros [H|(c' & w' & ws' & [= <- <- <-] & H)]; [discriminate|]. destruct H as [H|(-> & -> & H)]; [now left|right]. split; [reflexivity|]. destruct H as [-> | ->]; reflexivity.
Qed.
Theorem C61_skipping f cc c_space : exists passed, f = passed ++ skip_blank_lines_and_comments f cc c_space /\ Forall (idle cc c_space) passed /\
  forall l r, skip_blank_lines_and_comments f cc c_space = l :: r -> ~ idle cc c_space l.
Proof.
  induction f as [|x f (p & E & F & H)]; cbn [skip_blank_lines_and_comments].
  - exists []. repeat split; [constructor|discriminate].
  - destruct (blank x || comment_line cc c_space x) eqn:B.
    + exists (x :: p). repeat split; [cbn; now rewrite <- E| |exact H]. constructor; [now apply idle_iff|assumption].
    + exists []. repeat split; [constructor|]. intros l r [= <- <-] I. apply idle_iff in I. congruence.
Qed.
Print Assumptions C61_skipping.

(** comments among the data: a line of numbers may end with a comment, or consist of one *)
Definition data_line {A} (fmt : A -> str) (cc : str) (l : list A * option str) : str :=
  flat_map (fun v => fmt v ++ [sp]) (fst l) ++ match snd l with Some c => cc ++ c | None => [] end ++ [nl].
Definition plain_comment (l : option str) : Prop := match l with Some c => ~ In nl c | None => True end.
Section Comments.
Context {A B : Type} (fmt : A -> str) (parse : str -> res B) (g : A -> B).
Hypothesis Hfmt : forall v, good (fmt v).
Hypothesis Hparse : forall v, parse (fmt v) = Ok (g v).
Lemma blank_inside cc c s : ~ In nl c -> words (blank_out cc (c ++ nl :: s) true) = words (blank_out cc s false).
Proof.
  induction c as [|x c IH]; intros H; cbn [app blank_out].
  - rewrite chr_eqb_refl. now apply words_ws.
  - destruct (chr_eqb_spec x nl) as [->|]; [destruct H; now left|]. cbn [orb]. rewrite words_ws by reflexivity. apply IH. intros K. apply H. now right.
Qed.
Lemma comment_no_nl cc : comment_ok cc -> ~ In nl cc.
Proof. intros [->|(d & -> & _ & _ & H)]; [intros [E|[E|[]]]; discriminate|]. intros [->|[]]. discriminate. Qed.
Lemma startswith_app cc s : startswith (cc ++ s) cc = true.
Proof. induction cc as [|c cc IH]; [now destruct s|]. cbn [app startswith]. now rewrite chr_eqb_refl, IH. Qed.
Lemma blank_comment cc c s : comment_ok cc -> ~ In nl c -> words (blank_out cc (cc ++ c ++ nl :: s) false) = words (blank_out cc s false).
Proof.
  intros K H. pose proof (startswith_app cc (c ++ nl :: s)) as S'. pose proof (comment_no_nl cc K) as N.
  destruct cc as [|d cc]; [destruct K as [K|(? & K & _)]; discriminate|]. cbn [app] in *. cbn [blank_out].
  destruct (chr_eqb_spec d nl) as [->|]; [destruct N; now left|]. rewrite S'. cbn [orb]. rewrite words_ws by reflexivity.
  rewrite app_assoc. apply blank_inside. rewrite in_app_iff. intros [X|X]; [apply N; now right|auto].
Qed.
Lemma words_data_line cc l s : comment_ok cc -> plain_comment (snd l) ->
  words (blank_out cc (data_line fmt cc l ++ s) false) = map fmt (fst l) ++ words (blank_out cc s false).
Proof.
  intros K. destruct l as [vs c]. unfold data_line. cbn [fst snd]. intros H. induction vs as [|v vs IH]; cbn [flat_map map app].
  - destruct c as [c|]; cbn [app]; [|now apply blank_cons_ws]. rewrite <- !app_assoc. cbn [app]. now apply blank_comment.
  - rewrite <- !app_assoc. cbn [app]. rewrite blank_good; [|assumption|auto|right; exists sp; eexists; split; reflexivity].
    rewrite blank_ws by (assumption || reflexivity).
    rewrite words_word; [|apply good_no_ws; auto|apply good_nonempty; auto|right; exists sp; eexists; split; reflexivity].
    rewrite words_ws by reflexivity. f_equal. rewrite <- !app_assoc in IH. exact IH.
Qed.
Lemma idle_data_line cc skip_c l : comment_ok cc -> blank (data_line fmt cc l) || comment_line cc skip_c (data_line fmt cc l) = true -> fst l = [].
Proof.
  intros K H. apply idle_iff in H. destruct l as [[|v vs] c]; [reflexivity|]. exfalso. unfold data_line in H. cbn [fst snd flat_map] in H.
  rewrite <- !app_assoc in H. cbn [app] in H. pose proof (Hfmt v) as G.
  unfold idle in H. rewrite words_word in H; [|now apply good_no_ws|now apply good_nonempty|right; exists sp; eexists; split; reflexivity].
  destruct H as [H|(x & w & ws & E & H)]; [discriminate|]. injection E as E _. rewrite E in G. destruct G as [G _].
  destruct H as [<-|(_ & -> & [-> | ->])].
  - destruct K as [K|(d & K & K1 & K2 & _)]; [discriminate|]. injection K as <-. destruct G; congruence.
  - destruct G as [G|G]; discriminate.
  - destruct G as [G|G]; discriminate.
Qed.
Lemma line_one cc l : comment_ok cc -> plain_comment (snd l) -> exists p, data_line fmt cc l = p ++ [nl] /\ ~ In nl p.
Proof.
  intros K H. unfold data_line. rewrite app_assoc. eexists. split; [reflexivity|]. rewrite in_app_iff. intros [X|X].
  - apply in_flat_map in X. destruct X as (v & _ & X). rewrite in_app_iff in X. destruct X as [X|[X|[]]]; [|discriminate].
    revert X. apply no_ws_nl, good_no_ws, Hfmt.
  - destruct (snd l) as [c|]; [|easy]. rewrite in_app_iff in X. destruct X as [X|X]; [now apply (comment_no_nl cc)|auto].
Qed.
Lemma lines_data cc ls : comment_ok cc -> Forall (fun l => plain_comment (snd l)) ls -> lines (flat_map (data_line fmt cc) ls) = map (data_line fmt cc) ls.
Proof.
  intros K. induction 1 as [|l ls H _ IH]; [reflexivity|]. cbn [flat_map map]. destruct (line_one cc l K H) as (p & -> & N).
  rewrite <- app_assoc. cbn [app]. now rewrite lines_line, IH.
Qed.
Lemma skip_data cc skip_c ls : comment_ok cc -> exists ls', skip_blank_lines_and_comments (map (data_line fmt cc) ls) cc skip_c = map (data_line fmt cc) ls' /\ flat_map fst ls' = flat_map fst ls /\ incl ls' ls.
Proof.
  intros K. induction ls as [|l ls (ls' & E & F & I')]; cbn [map skip_blank_lines_and_comments].
  - exists []. repeat split. apply incl_refl.
  - destruct (blank _ || _) eqn:Bk.
    + exists ls'. apply idle_data_line in Bk; [|assumption]. repeat split; [assumption|cbn; now rewrite Bk|now apply incl_tl].
    + exists (l :: ls). repeat split. apply incl_refl.
Qed.
Lemma load_data cc ls max skip_c : comment_ok cc -> Forall (fun l => plain_comment (snd l)) ls ->
  load_array parse (flat_map (data_line fmt cc) ls) None None max (Some cc) skip_c =
  Ok (NArr [List.length (flat_map fst ls)] (map g (flat_map fst ls))).
Proof.
  intros K H. unfold load_array. rewrite lines_data by assumption.
  replace (match cc with [] => _ | _ :: _ => _ end) with cc by (destruct cc; [destruct K as [K|(? & K & _)]; discriminate|reflexivity]).
  destruct (skip_data cc skip_c ls K) as (ls' & -> & F & I').
  assert (H' : Forall (fun l => plain_comment (snd l)) ls') by (rewrite Forall_forall in *; auto).
  rewrite <- flat_map_concat_map.
  assert (W : words (blank_out cc (flat_map (data_line fmt cc) ls') false) = map fmt (flat_map fst ls')).
  { clear - K H' Hfmt. induction H' as [|l ls' H _ IH]; [reflexivity|]. cbn [flat_map]. now rewrite words_data_line, IH, map_app. }
  unfold fromstring. cbn [Z.ltb Z.compare]. rewrite W, (map_res_fmt fmt parse g) by assumption. cbn. now rewrite map_length, F.
Qed.
End Comments.
Theorem C27_comments_among_data cc (ls : list (list Z * option str)) max skip_c : comment_ok cc -> Forall (fun l => plain_comment (snd l)) ls ->
  load_array parse_int (flat_map (data_line fmt_int cc) ls) None None max (Some cc) skip_c =
  Ok (NArr [List.length (flat_map fst ls)] (flat_map fst ls)).
Proof. intros K H. rewrite (load_data fmt_int parse_int (fun z => z) good_int parse_fmt_int) by assumption. now rewrite map_id. Qed.
Print Assumptions C27_comments_among_data.
Example C27_comments_example : exists ls, Forall (fun l => plain_comment (snd l)) ls /\ comment_ok (L "--") /\ flat_map (data_line fmt_int (L "--")) ls = L "-- head 7" ++ nl :: L "12 -3 -- two 55" ++ nl :: nl :: L "--" ++ nl :: L "4 " ++ [nl] /\ flat_map fst ls = [12; -3; 4].
Proof.
  exists [([], Some (L " head 7")); ([12; -3], Some (L " two 55")); ([], None); ([], Some []); ([4], None)]. split; [|split; [now left|split; reflexivity]].
  repeat constructor; cbn; intuition discriminate.
Qed.

(** is the keyword next? *)
Theorem C61_keyword_next f k skip c f' b : specific_keyword_next f k skip [c] = (f', b) ->
  (b = true <-> exists passed l rest, f = passed ++ l :: rest /\ Forall (idle [c] false) passed /\ ~ idle [c] false l /\ names k l) /\
  (skip = false -> f' = f) /\
  (skip = true -> exists passed, f = passed ++ f' /\ Forall (idle [c] false) passed).
Proof.
  unfold specific_keyword_next. assert (G : forall g saved, specific_keyword_next_aux g saved k skip [c] = (f', b) ->
    (b = true <-> exists passed l rest, g = passed ++ l :: rest /\ Forall (idle [c] false) passed /\ ~ idle [c] false l /\ names k l) /\
    (skip = false -> f' = saved) /\ (skip = true -> exists passed, g = passed ++ f' /\ Forall (idle [c] false) passed)).
  2:{ apply G. }
  induction g as [|x g IH]; intros saved; cbn [specific_keyword_next_aux].
  - intros [= <- <-]. split; [|split].
    + split; [discriminate|]. intros ([|x0 p0] & l0 & r0 & E & _); discriminate.
    + intros ->. reflexivity.
    + intros ->. exists []. split; [reflexivity|constructor].
  - assert (CONT : idle [c] false x -> specific_keyword_next_aux g (if skip then x :: g else saved) k skip [c] = (f', b) ->
      (b = true <-> exists passed l rest, x :: g = passed ++ l :: rest /\ Forall (idle [c] false) passed /\ ~ idle [c] false l /\ names k l) /\
      (skip = false -> f' = saved) /\ (skip = true -> exists passed, x :: g = passed ++ f' /\ Forall (idle [c] false) passed)).
    { intros Ix E. destruct (IH _ E) as (H1 & H2 & H3). split; [|split].
      - rewrite H1. split.
        + intros (p & l & r & -> & F & H). exists (x :: p), l, r. repeat split; try tauto. now constructor.
        + intros ([|y p] & l & r & E2 & F & H); [injection E2 as E2 E2'; subst; tauto|]. injection E2 as E2 E2'. subst. inversion F; subst. exists p, l, r. tauto.
      - intros ->. apply H2. reflexivity.
      - intros Hs. destruct (H3 Hs) as (p & -> & F). exists (x :: p). split; [reflexivity|]. now constructor. }
    pose proof (words_nonempty x) as N. destruct (words x) as [|w ws] eqn:W; [intros E; apply CONT; [left; assumption|exact E]|].
    apply Forall_inv in N. destruct w as [|c0 w]; [congruence|]. cbn [firstn]. destruct (str_eqb_spec [c0] [c]) as [Ec|Nc].
    + intros E. apply CONT; [|exact E]. right. exists c0, w, ws. auto.
    + clear CONT. intros [= <- <-]. assert (NI : ~ idle [c] false x).
      { intros [X|(c' & w' & ws' & X & [Y|(Y & _)])]; [congruence| |discriminate]. rewrite W in X. injection X as -> -> ->. contradiction. }
      split; [|split].
      * change (str_eqb (upper (c0 :: w)) (upper k) = true <-> (exists passed l rest, x :: g = passed ++ l :: rest /\ Forall (idle [c] false) passed /\ ~ idle [c] false l /\ names k l)). rewrite str_eqb_eq. split.
        -- intros E. exists [], x, g. repeat split; auto. exists (c0 :: w), ws. auto.
        -- intros ([|y p] & l & r & E2 & F & H1 & H2).
           ++ injection E2 as E2 E2'. subst. destruct H2 as (w1 & ws1 & E3 & E4). rewrite W in E3. injection E3 as <- <-. exact E4.
           ++ injection E2 as E2 E2'. subst. inversion F; subst. tauto.
      * intros ->. reflexivity.
      * intros ->. exists []. split; [reflexivity|constructor].
Qed.
Print Assumptions C61_keyword_next.

(** trailing comments *)
Definition one_line (s : str) : Prop := ~ In nl s /\ ~ In "013"%char s.
Lemma rstrip_line s : one_line s -> rstrip (fun c => chr_eqb c nl || chr_eqb c "013") (s ++ [nl]) = s /\ rstrip (fun c => chr_eqb c nl || chr_eqb c "013") s = s.
Proof.
  intros [H1 H2]. unfold rstrip. rewrite rev_app_distr. cbn [rev app lstrip]. change (chr_eqb nl nl || chr_eqb nl "013") with true. cbn iota.
  assert (E : lstrip (fun c => chr_eqb c nl || chr_eqb c "013") (rev s) = rev s); [|rewrite E, rev_involutive; auto].
  apply lstrip_id. intros c t E. assert (In c s) by (apply in_rev; rewrite E; now left).
  destruct (chr_eqb_spec c nl) as [->|]; [contradiction|]. destruct (chr_eqb_spec c "013") as [->|]; [contradiction|reflexivity].
Qed.
Theorem C61_trailing_comment_partial text c comment :
  one_line (text ++ c :: comment) -> ~ In c text -> List.length comment <> 1%nat ->
  split_trailing_comment (text ++ c :: comment ++ [nl]) c = (text, comment).
Proof.
  intros H N Le. unfold split_trailing_comment. replace (text ++ c :: comment ++ [nl]) with ((text ++ c :: comment) ++ [nl]) by (now rewrite <- app_assoc).
  rewrite (proj1 (rstrip_line _ H)), find_chr_app, (firstn_app_exact text _ _ eq_refl) by assumption. f_equal.
  rewrite app_length. cbn [List.length]. destruct (Nat.ltb_spec (List.length text) (List.length text + S (List.length comment) - 2)) as [L1|L1].
  - rewrite Nat.add_comm, <- (Nat.add_comm (List.length text) 1), <- skipn_skipn, (skipn_app_exact text _ _ eq_refl). reflexivity.
  - destruct comment as [|x [|y comment]]; cbn [List.length] in *; [reflexivity|lia|lia].
Qed.
Print Assumptions C61_trailing_comment_partial.
Theorem C61_no_comment text c : one_line text -> ~ In c text -> split_trailing_comment (text ++ [nl]) c = (text, []).
Proof. intros H N. unfold split_trailing_comment. rewrite (proj1 (rstrip_line _ H)). now rewrite (proj2 (find_chr_none _ _) N). Qed.
Print Assumptions C61_no_comment.
Theorem C61_short_comment_refuted : exists text c comment, one_line (text ++ c :: comment) /\ ~ In c text /\ split_trailing_comment (text ++ c :: comment ++ [nl]) c <> (text, comment).
Proof.
  exists (L "7 8 "), "!"%char, (L "x"). split; [split; apply find_chr_none; reflexivity|]. split; [apply find_chr_none; reflexivity|]. vm_compute. discriminate.
Qed.
Print Assumptions C61_short_comment_refuted.

Example C61_example :
  let f := lines (L "! start" ++ [nl; nl] ++ L "  grid dims" ++ [nl] ++ L "GRID map" ++ [nl] ++ L "10 20 ! x y" ++ [nl]) in
  snd (find_keyword f (L "Grid") None) = true /\ List.length (fst (find_keyword f (L "Grid") None)) = 3%nat /\
  snd (find_keyword f (L "Grid") (Some 2)) = false /\ snd (find_keyword f (L "Grid") (Some 3)) = true /\
  List.length (fst (find_keyword_pair f (L "grid") (L "MAP"))) = 2%nat /\
  specific_keyword_next f (L "grid") true (L "!") = (skipn 2 f, true) /\
  find_keyword_without_passing f (L "map") (L "grid") = (skipn 2 f, false).
Proof. vm_compute. repeat split; reflexivity. Qed.
