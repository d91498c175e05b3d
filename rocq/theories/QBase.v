(** QBase.v: conventions for models that use exact rational numbers where the code uses
    floating point.  Nothing here models a particular resqpy function. *)
From Verif Require Export Base.
From Coq Require Export QArith Qround Qabs Lqa.
Open Scope Q_scope.

Definition Qltb (a b : Q) : bool := negb (Qle_bool b a).
Notation "a <=b b" := (Qle_bool a b) (at level 70).
Notation "a <b b" := (Qltb a b) (at level 70).
Definition Qminb (a b : Q) : Q := if a <=b b then a else b.
Definition Qmaxb (a b : Q) : Q := if a <=b b then b else a.

Lemma Qleb_spec a b : reflect (a <= b) (a <=b b).
Proof. destruct (a <=b b) eqn:E; constructor; [now apply Qle_bool_iff|]. intros H. apply Qle_bool_iff in H. congruence. Qed.
Lemma Qleb_spec' a b : BoolSpec (a <= b) (b < a) (a <=b b).
Proof. destruct (Qleb_spec a b) as [H|H]; constructor; [assumption|now apply Qnot_le_lt]. Qed.
Lemma Qltb_spec a b : BoolSpec (a < b) (b <= a) (a <b b).
Proof. unfold Qltb. destruct (Qleb_spec' b a); constructor; assumption. Qed.
Lemma Qltb_iff a b : (a <b b) = true <-> a < b.
Proof. destruct (Qltb_spec a b) as [H|H]; split; auto; try discriminate. intros H2. lra. Qed.
Lemma Qltb_false a b : (a <b b) = false <-> b <= a.
Proof. destruct (Qltb_spec a b) as [H|H]; split; auto; try discriminate. intros H2. lra. Qed.
Lemma Qleb_iff a b : (a <=b b) = true <-> a <= b.
Proof. apply Qle_bool_iff. Qed.
Lemma Qleb_false a b : (a <=b b) = false <-> b < a.
Proof. destruct (Qleb_spec' a b) as [H|H]; split; auto; try discriminate. intros H2. lra. Qed.
#[global] Instance Qltb_proper : Proper (Qeq ==> Qeq ==> eq) Qltb.
Proof. intros a a' Ha b b' Hb. unfold Qltb. now rewrite Ha, Hb. Qed.
Lemma Qminb_spec a b : (a <= b /\ Qminb a b = a) \/ (b < a /\ Qminb a b = b).
Proof. unfold Qminb. destruct (Qleb_spec' a b); auto. Qed.
Lemma Qmaxb_spec a b : (a <= b /\ Qmaxb a b = b) \/ (b < a /\ Qmaxb a b = a).
Proof. unfold Qmaxb. destruct (Qleb_spec' a b); auto. Qed.

(* math.floor, math.ceil: Qfloor, Qceiling; int(): truncation towards zero *)
Definition Qtrunc (q : Q) : Z := if 0 <=b q then Qfloor q else Qceiling q.

Lemma Qdiv_mult_lt a b c : 0 < b -> (a / b < c <-> a < c * b).
Proof.
  intros Hb. split; intros H.
  - apply Qmult_lt_r with (z := b) in H; [|assumption]. setoid_replace (a / b * b) with a in H by (field; lra). exact H.
  - apply Qlt_shift_div_r; assumption.
Qed.
Lemma Qdiv_mult_le a b c : 0 < b -> (a / b <= c <-> a <= c * b).
Proof.
  intros Hb. split; intros H.
  - apply Qmult_le_r with (z := b) in H; [|assumption]. setoid_replace (a / b * b) with a in H by (field; lra). exact H.
  - apply Qle_shift_div_r; assumption.
Qed.
Lemma Qlt_div_mult a b c : 0 < b -> (c < a / b <-> c * b < a).
Proof.
  intros Hb. split; intros H.
  - apply Qmult_lt_r with (z := b) in H; [|assumption]. setoid_replace (a / b * b) with a in H by (field; lra). exact H.
  - apply Qlt_shift_div_l; assumption.
Qed.
Lemma Qle_div_mult a b c : 0 < b -> (c <= a / b <-> c * b <= a).
Proof.
  intros Hb. split; intros H.
  - apply Qmult_le_r with (z := b) in H; [|assumption]. setoid_replace (a / b * b) with a in H by (field; lra). exact H.
  - apply Qle_shift_div_l; assumption.
Qed.
Lemma Qfloor_iff q z : (z <= Qfloor q)%Z <-> inject_Z z <= q.
Proof.
  split; intros H.
  - apply Qle_trans with (inject_Z (Qfloor q)); [now rewrite <- Zle_Qle|apply Qfloor_le].
  - rewrite <- (Qfloor_Z z). now apply Qfloor_resp_le.
Qed.
Lemma Qceiling_iff q z : (Qceiling q <= z)%Z <-> q <= inject_Z z.
Proof.
  split; intros H.
  - apply Qle_trans with (inject_Z (Qceiling q)); [apply Qle_ceiling|now rewrite <- Zle_Qle].
  - rewrite <- (Qceiling_Z z). now apply Qceiling_resp_le.
Qed.

Lemma zrange_length n : List.length (zrange n) = Z.to_nat n.
Proof. unfold zrange. now rewrite map_length, seq_length. Qed.
Lemma zrange_nth n k : (k < Z.to_nat n)%nat -> nth k (zrange n) 0%Z = Z.of_nat k.
Proof.
  intros H. unfold zrange. rewrite (nth_indep _ 0%Z (Z.of_nat 0)) by (rewrite map_length, seq_length; lia).
  rewrite (map_nth Z.of_nat). rewrite seq_nth by assumption. reflexivity.
Qed.
