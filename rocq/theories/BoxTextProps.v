(** BoxTextProps.v: C07, text form of a box reads back. *)
From Verif Require Import Base BoxModel BoxProofs TextModel TextProofs BoxTextModel.
Open Scope string_scope.

Lemma words_of_spaced b :
  split_ws (spaced_string_iijjkk1 b " ") =
  [ str_of_int (ti (lo b) + 1); str_of_int (ti (hi b) + 1);
    str_of_int (tj (lo b) + 1); str_of_int (tj (hi b) + 1);
    str_of_int (tk (lo b) + 1); str_of_int (tk (hi b) + 1) ].
Proof.
  unfold split_ws, spaced_string_iijjkk1. rewrite !list_ascii_app.
  cbn [list_ascii_of_string]. cbn [app].
  repeat (first [ rewrite split_word_blank by (first [apply str_no_ws | apply str_nonempty | reflexivity])
                | rewrite split_skip_blank by reflexivity ]).
  rewrite split_word_end by (first [apply str_no_ws | apply str_nonempty]).
  cbn [map]. now rewrite !string_of_list_ascii_of_string.
Qed.

Lemma box_text_roundtrip b : NonEmptyBox b ->
  box_from_words (split_ws (spaced_string_iijjkk1 b " ")) = Ok b.
Proof.
  intros H. rewrite words_of_spaced. unfold box_from_words. rewrite !int_str_roundtrip. cbn [bind].
  destruct b as [[k0 j0 i0] [k1 j1 i1]]. cbn [lo hi tk tj ti].
  rewrite !Z.add_simpl_r.
  match goal with |- context [forall3 ?f] => assert (forall3 f = true) as -> end; [|reflexivity].
  apply forall3_spec. intros d. specialize (H d). cbn [lo hi] in *. lia.
Qed.

Lemma box_words_sound w b : box_from_words w = Ok b -> NonEmptyBox b.
Proof.
  unfold box_from_words.
  destruct w as [|w0 [|w1 [|w2 [|w3 [|w4 [|w5 w]]]]]]; try discriminate.
  destruct (int_of_str w4), (int_of_str w5), (int_of_str w2), (int_of_str w3), (int_of_str w0), (int_of_str w1);
    cbn [bind]; try discriminate.
  match goal with |- context [forall3 ?f] => destruct (forall3 f) eqn:E end; cbn [assert_ bind]; [|discriminate].
  intros [= <-] d. rewrite forall3_spec in E. specialize (E d). cbn [lo hi] in *. lia.
Qed.

Theorem C07_box_text_roundtrip : forall b, NonEmptyBox b ->
  box_from_words (split_ws (spaced_string_iijjkk1 b " ")) = Ok b.
Proof. exact box_text_roundtrip. Qed.
Print Assumptions C07_box_text_roundtrip.

Theorem C07_inverted_box_rejected : forall w b, box_from_words w = Ok b -> NonEmptyBox b.
Proof. exact box_words_sound. Qed.
Print Assumptions C07_inverted_box_rejected.

Example C07_example :
  spaced_string_iijjkk1 (Box (T 99 2 0) (T 102 19 4)) " " = "1 5  3 20  100 103"
  /\ NonEmptyBox (Box (T 99 2 0) (T 102 19 4))
  /\ box_from_words ["5"; "1"; "1"; "1"; "1"; "1"] = Err AssertionError.
Proof. split; [reflexivity|split; [intros [ | | ]; cbn; lia|reflexivity]]. Qed.
