(** TextProofs.v: lemmas about TextModel.v. *)
From Verif Require Import Base TextModel.
From Coq Require DecimalString DecimalZ DecimalFacts DecimalPos.
Import DecimalString DecimalPos.

Lemma int_str_roundtrip z : int_of_str (str_of_int z) = Ok z.
Proof.
  unfold int_of_str, str_of_int.
  rewrite NilZero.isi.
  - now rewrite DecimalZ.of_to.
  - destruct z as [|p|p]; cbn; try discriminate; intros H; injection H as H;
      apply (Unsigned.to_uint_nonnil p H).
  - destruct z as [|p|p]; cbn; try discriminate; intros H; injection H as H;
      apply (Unsigned.to_uint_nonnil p H).
Qed.

(** A word: non-empty and free of white space. *)
Definition no_ws (l : list ascii) : Prop := forallb (fun c => negb (is_ws c)) l = true.

Lemma split_aux_word w s cur : no_ws w -> split_aux (w ++ s) cur = split_aux s (rev w ++ cur).
Proof.
  revert cur. induction w as [|c w IH]; intros cur H; [reflexivity|].
  unfold no_ws in H. cbn [forallb] in H. apply andb_true_iff in H. destruct H as [Hc Hw].
  cbn [app split_aux]. apply negb_true_iff in Hc. rewrite Hc, IH by assumption.
  cbn [rev]. now rewrite <- app_assoc.
Qed.

Lemma split_aux_blank c s cur : is_ws c = true -> cur <> [] ->
  split_aux (c :: s) cur = rev cur :: split_aux s [].
Proof. intros Hc Hn. cbn [split_aux]. rewrite Hc. destruct cur; [contradiction|reflexivity]. Qed.

Lemma split_word_blank w c s : no_ws w -> w <> [] -> is_ws c = true ->
  split_aux (w ++ c :: s) [] = w :: split_aux s [].
Proof.
  intros Hw Hn Hc. rewrite split_aux_word, app_nil_r by assumption.
  rewrite split_aux_blank, rev_involutive; [reflexivity|assumption|].
  intros E. apply Hn. apply (f_equal (@rev _)) in E. rewrite rev_involutive in E. exact E.
Qed.

Lemma split_word_end w : no_ws w -> w <> [] -> split_aux w [] = [w].
Proof.
  intros Hw Hn. rewrite <- (app_nil_r w) at 1. rewrite split_aux_word, app_nil_r by assumption.
  cbn [split_aux]. destruct (rev w) eqn:E.
  - apply (f_equal (@rev _)) in E. rewrite rev_involutive in E. cbn in E. contradiction.
  - rewrite <- E, rev_involutive. reflexivity.
Qed.

Lemma split_skip_blank c s : is_ws c = true -> split_aux (c :: s) [] = split_aux s [].
Proof. intros H. cbn [split_aux]. now rewrite H. Qed.

Lemma list_ascii_app s t :
  list_ascii_of_string (s ++ t) = (list_ascii_of_string s ++ list_ascii_of_string t)%list.
Proof. induction s as [|c s IH]; cbn; [reflexivity|]. now rewrite IH. Qed.

Lemma no_ws_app a b : no_ws a -> no_ws b -> no_ws (a ++ b).
Proof. unfold no_ws. intros. rewrite forallb_app. now rewrite H, H0. Qed.

Lemma uint_no_ws d : no_ws (list_ascii_of_string (NilEmpty.string_of_uint d)).
Proof.
  induction d; cbn [NilEmpty.string_of_uint list_ascii_of_string]; [reflexivity|..];
    unfold no_ws in *; cbn [forallb]; rewrite IHd; reflexivity.
Qed.

Lemma uint0_no_ws d : no_ws (list_ascii_of_string (NilZero.string_of_uint d)).
Proof. destruct d; try apply (uint_no_ws _). reflexivity. Qed.

Lemma uint0_nonempty d : list_ascii_of_string (NilZero.string_of_uint d) <> [].
Proof. destruct d; cbn; discriminate. Qed.

Lemma str_no_ws z : no_ws (list_ascii_of_string (str_of_int z)).
Proof.
  unfold str_of_int. destruct (Z.to_int z) as [d|d]; cbn [NilZero.string_of_int].
  - apply uint0_no_ws.
  - cbn [list_ascii_of_string]. pose proof (uint0_no_ws d) as H. unfold no_ws in *. cbn [forallb].
    rewrite H. reflexivity.
Qed.

Lemma str_nonempty z : list_ascii_of_string (str_of_int z) <> [].
Proof.
  unfold str_of_int. destruct (Z.to_int z) as [d|d]; cbn [NilZero.string_of_int].
  - apply uint0_nonempty.
  - cbn. discriminate.
Qed.
