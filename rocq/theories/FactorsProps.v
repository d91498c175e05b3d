(** FactorsProps.v: property theorems about factorisation (C25). *)
From Verif Require Import Base PySort FactorsModel.
From Coq Require Import Znumtheory Permutation Sorted.

Definition zprod (l : list Z) : Z := fold_right Z.mul 1 l.
Lemma zprod_app a b : zprod (a ++ b) = zprod a * zprod b.
Proof. unfold zprod. induction a as [|x a IH]; cbn [app fold_right]; [lia|]. fold zprod in *. unfold zprod in *. rewrite IH. lia. Qed.

(** No divisor of n lies between 2 and i - 1. *)
Definition Rough (n i : Z) : Prop := forall d, 2 <= d < i -> ~ (d | n).

Lemma rough_prime n i : 2 <= i -> (i | n) -> Rough n i -> prime i.
Proof.
  intros Hi Hd Hr. apply prime_alt. split; [lia|]. intros d Hd1 Hd2. apply (Hr d); [lia|]. now apply Z.divide_trans with i.
Qed.
Lemma rough_self n i : n < i + 1 -> 2 <= i -> n mod i <> 0 -> 0 < n -> Rough n i -> n = 1.
Proof.
  intros H1 H2 H3 H4 Hr. destruct (Z.eq_dec n 1) as [|N]; [assumption|]. exfalso. destruct (Z.eq_dec n i) as [->|N2].
  - rewrite Z.mod_same in H3 by lia. lia.
  - apply (Hr n); [lia|]. apply Z.divide_refl.
Qed.

Lemma factorize_loop_ok : forall fuel n i acc, 2 <= i -> 0 < n -> Rough n i -> (n = 1 \/ i <= n) -> (Z.to_nat (n - i + 1) < fuel)%nat ->
  exists l, factorize_loop fuel n i acc = Ok (acc ++ l) /\ zprod l = n /\ Forall prime l /\ Forall (fun p => i <= p) l /\ StronglySorted Z.le l.
Proof.
  induction fuel as [|fuel IH]; intros n i acc Hi Hn Hr Hni Hf; [lia|]. cbn [factorize_loop].
  destruct (Z.eqb_spec (n mod i) 0) as [E|E]; cbn [negb].
  - assert (D : (i | n)) by (apply Z.mod_divide; [lia|assumption]).
    assert (Hni' : i <= n) by (apply Z.divide_pos_le; assumption).
    pose proof (Z.div_mod n i ltac:(lia)) as DM. rewrite E in DM.
    assert (Hq : 0 < n / i) by (apply Z.div_str_pos; lia).
    assert (Hp : prime i) by (eapply rough_prime; eassumption).
    assert (Hrq : Rough (n / i) i). { intros d Hd Hdd. apply (Hr d Hd). rewrite DM, Z.add_0_r. now apply Z.divide_mul_r. }
    destruct (Z.ltb_spec (n / i) i) as [L|L].
    + assert (Q1 : n / i = 1). { destruct (Z.eq_dec (n / i) 1) as [|N]; [assumption|]. exfalso. apply (Hrq (n / i)); [lia|apply Z.divide_refl]. }
      exists [i]. split; [reflexivity|]. split; [cbn; rewrite Q1 in DM; lia|]. split; [constructor; [assumption|constructor]|]. split; repeat constructor; lia.
    + assert (nia1 : 2 * (n / i) <= n) by nia.
      destruct (IH (n / i) i (acc ++ [i]) Hi Hq Hrq (or_intror L)) as (l & El & Pl & Fl & Gl & Sl); [lia|].
      exists (i :: l). rewrite El, <- app_assoc. split; [reflexivity|]. split; [cbn; fold (zprod l); rewrite Pl; lia|].
      split; [constructor; assumption|]. split; [constructor; [lia|assumption]|]. constructor; assumption.
  - destruct (Z.ltb_spec n (i + 1)) as [L|L].
    + exists []. rewrite app_nil_r. split; [reflexivity|]. split; [cbn; symmetry; eapply rough_self; eassumption|]. repeat constructor.
    + assert (Hr' : Rough n (i + 1)).
      { intros d Hd Hdd. destruct (Z.eq_dec d i) as [->|]; [|apply (Hr d); [lia|assumption]]. apply E. now apply Z.mod_divide; [lia|]. }
      destruct (IH n (i + 1) acc ltac:(lia) Hn Hr' ltac:(right; lia)) as (l & El & Pl & Fl & Gl & Sl); [lia|].
      exists l. repeat split; try assumption. eapply Forall_impl; [|exact Gl]. cbn. lia.
Qed.

(** factorize(n) terminates and gives the ascending prime factorisation of n. *)
Theorem C25_factorize_correct : forall n, 1 <= n -> exists fuel l, factorize fuel n = Ok l /\
  zprod l = n /\ Forall prime l /\ StronglySorted Z.le l.
Proof.
  intros n Hn. exists (S (S (Z.to_nat n))). destruct (factorize_loop_ok (S (S (Z.to_nat n))) n 2 []) as (l & E & P & F & _ & S).
  - lia.
  - lia.
  - intros d Hd. lia.
  - lia.
  - lia.
  - exists l. auto.
Qed.
Print Assumptions C25_factorize_correct.
(** More fuel never changes an answer, so the answer above is the program's. *)
Lemma factorize_loop_mono f : forall f' n i acc l, (f <= f')%nat -> factorize_loop f n i acc = Ok l -> factorize_loop f' n i acc = Ok l.
Proof.
  induction f as [|f IH]; intros [|f'] n i acc l Hf H; try discriminate; try lia. cbn [factorize_loop] in *.
  destruct (negb _); [destruct (n <? i + 1)|destruct (n / i <? i)]; auto; eapply IH; try eassumption; lia.
Qed.
Theorem C25_factorize_deterministic : forall f f' n l l', factorize f n = Ok l -> factorize f' n = Ok l' -> l = l'.
Proof.
  intros f f' n l l' H H'. unfold factorize in *. apply (factorize_loop_mono f (max f f')) in H; [|lia].
  apply (factorize_loop_mono f' (max f f')) in H'; [|lia]. congruence.
Qed.
Print Assumptions C25_factorize_deterministic.

Lemma in_isort x l : In x (isort Z.leb l) <-> In x l.
Proof. split; apply Permutation_in; [symmetry|]; apply isort_perm. Qed.
Lemma in_combinatorial p ps x : In x (combinatorial (p :: ps)) <->
  x = p \/ In x (combinatorial ps) \/ exists o, In o (combinatorial ps) /\ x = p * o.
Proof.
  cbn [combinatorial]. rewrite in_isort. cbn [In]. rewrite in_flat_map. split.
  - intros [->|(o & Ho & H)]; [auto|]. apply in_app_iff in H. destruct H as [H|[<-|[]]].
    + destruct (o =? p); [destruct H|]. destruct H as [<-|[]]. auto.
    + right. right. eauto.
  - intros [->|[H|(o & Ho & ->)]]; [auto| |].
    + destruct (Z.eq_dec x p) as [->|N]; [auto|]. right. exists x. split; [assumption|].
      apply in_app_iff. left. destruct (Z.eqb_spec x p); [contradiction|now left].
    + right. exists o. split; [assumption|]. apply in_app_iff. right. now left.
Qed.
Lemma combinatorial_divisors ps : Forall prime ps -> forall x, 0 < x ->
  ((x | zprod ps) <-> x = 1 \/ In x (combinatorial ps)).
Proof.
  induction 1 as [|p ps Hp Hps IH]; intros x Hx.
  - cbn. split; [|intros [->|[]]; apply Z.divide_refl]. intros H. left. apply Z.divide_1_r_nonneg in H; lia.
  - rewrite in_combinatorial. cbn [zprod fold_right]. fold (zprod ps). assert (2 <= p) by now apply prime_ge_2. split.
    + intros H1. destruct (Zdivide_dec p x) as [[y Hy]|N].
      * assert (0 < y) by nia. assert (D : (y | zprod ps)).
        { destruct H1 as [z Hz]. exists z. apply (Z.mul_reg_l _ _ p); lia. }
        apply IH in D; [|assumption]. destruct D as [->|D]; [right; left; lia|]. right. right. right. exists y. split; [assumption|lia].
      * assert (R : rel_prime x p) by (apply rel_prime_sym; now apply prime_rel_prime).
        apply Gauss in H1; [|assumption]. apply IH in H1; [|assumption]. tauto.
    + intros [->|[->|[D|(o & Ho & ->)]]].
      * apply Z.divide_1_l.
      * apply Z.divide_factor_l.
      * apply Z.divide_mul_r. apply IH; auto.
      * apply Z.mul_divide_mono_l. apply IH; [nia|auto].
Qed.
Lemma comb_ge ps x : Forall prime ps -> In x (combinatorial ps) -> 2 <= x.
Proof.
  intros H. revert x. induction H as [|q qs Hq Hqs IH]; intros x Hx; [destruct Hx|]. apply in_combinatorial in Hx.
  assert (2 <= q) by now apply prime_ge_2. destruct Hx as [->|[Hx|(o & Ho & ->)]]; [lia|auto|]. specialize (IH o Ho). nia.
Qed.
Lemma sorted_lt l : StronglySorted (leP Z.leb) l -> NoDup l -> StronglySorted Z.lt l.
Proof.
  induction 1 as [|x l Hs IH Hx]; intros Hn; constructor; inversion Hn; subst; [auto|].
  rewrite Forall_forall in *. intros y Hy. specialize (Hx y Hy). unfold leP in Hx. assert (x <> y) by (intros ->; contradiction). lia.
Qed.
Lemma all_from_primes ps : Forall prime ps ->
  StronglySorted Z.lt (all_factors_from_primes ps) /\ forall d, In d (all_factors_from_primes ps) <-> 0 < d /\ (d | zprod ps).
Proof.
  intros H. unfold all_factors_from_primes. split.
  - apply sorted_lt; [apply isort_sorted, zle_order|]. rewrite <- isort_perm.
    rewrite <- Permutation_cons_append. constructor; [|apply NoDup_nodup]. rewrite nodup_In. intros Hin. apply comb_ge in Hin; [lia|assumption].
  - intros d. rewrite in_isort, in_app_iff, nodup_In. cbn. split.
    + intros [Hd|[<-|[]]]; [|split; [lia|apply Z.divide_1_l]]. assert (2 <= d) by (eapply comb_ge; eassumption).
      split; [lia|]. apply combinatorial_divisors; [assumption|lia|auto].
    + intros [H1 H2]. apply combinatorial_divisors in H2; [|assumption|assumption]. destruct H2 as [->|]; auto.
Qed.
(** all_factors(n) lists exactly the positive divisors of n, strictly increasing. *)
Theorem C25_all_factors_exact : forall n, 1 <= n -> exists fuel l, all_factors fuel n = Ok l /\
  StronglySorted Z.lt l /\ forall d, In d l <-> 0 < d /\ (d | n).
Proof.
  intros n Hn. destruct (C25_factorize_correct n Hn) as (fuel & ps & E & P & F & _).
  exists fuel, (all_factors_from_primes ps). unfold all_factors. rewrite E. split; [reflexivity|].
  rewrite <- P. now apply all_from_primes.
Qed.
Print Assumptions C25_all_factors_exact.
(** all_factors_from_primes accepts the primes in any order. *)
Theorem C25_from_primes_any_order : forall ps n fuel l, Forall prime ps -> zprod ps = n -> 1 <= n -> all_factors fuel n = Ok l ->
  all_factors_from_primes ps = l.
Proof.
  intros ps n fuel l H P Hn E. unfold all_factors in E. destruct (factorize fuel n) as [qs|] eqn:Eq; [|discriminate]. injection E as <-.
  destruct (C25_factorize_correct n Hn) as (f & qs' & E' & P' & F' & _).
  assert (qs = qs') by (eapply C25_factorize_deterministic; eassumption). subst qs'.
  destruct (all_from_primes ps H) as [S1 I1], (all_from_primes qs F') as [S2 I2].
  assert (Q : forall a b, StronglySorted Z.lt a -> StronglySorted Z.lt b -> (forall d, In d a <-> In d b) -> a = b).
  { clear. induction a as [|x a IH]; intros b Ha Hb Hi.
    - destruct b as [|y b]; [reflexivity|]. exfalso. apply (Hi y). now left.
    - destruct b as [|y b]; [exfalso; apply (Hi x); now left|].
      inversion Ha as [|? ? Ha1 Ha2]; inversion Hb as [|? ? Hb1 Hb2]; subst. rewrite Forall_forall in Ha2, Hb2.
      assert (x = y).
      { assert (In x (y :: b)) as [->|Hx] by (apply Hi; now left); [reflexivity|].
        assert (In y (x :: a)) as [->|Hy] by (apply Hi; now left); [reflexivity|]. specialize (Ha2 y Hy). specialize (Hb2 x Hx). lia. }
      subst y. f_equal. apply IH; [assumption|assumption|]. intros d. split; intros Hd.
      + assert (In d (x :: b)) as [->|] by (apply Hi; now right); [specialize (Ha2 d Hd); lia|assumption].
      + assert (In d (x :: a)) as [->|] by (apply Hi; now right); [specialize (Hb2 d Hd); lia|assumption]. }
  apply Q; [assumption|assumption|]. intros d. rewrite I1, I2, P, P'. tauto.
Qed.
Print Assumptions C25_from_primes_any_order.
Example C25_example : factorize 100 360 = Ok [2; 2; 2; 3; 3; 5] /\ all_factors 100 12 = Ok [1; 2; 3; 4; 6; 12].
Proof. split; vm_compute; reflexivity. Qed.
(** Removing a subset of the factors takes away exactly their occurrences. *)
Lemma list_remove_perm l e l' : list_remove l e = Some l' -> Permutation l (e :: l').
Proof.
  revert l'. induction l as [|x l IH]; intros l' H; [discriminate|]. cbn in H. destruct (Z.eqb_spec x e) as [->|].
  - injection H as <-. reflexivity.
  - destruct (list_remove l e) as [r|]; [|discriminate]. injection H as <-. rewrite (IH r eq_refl). apply perm_swap.
Qed.
Theorem C25_remove_subset : forall primary subset rest, remove_subset primary subset = (rest, Ok tt) -> Permutation primary (subset ++ rest).
Proof.
  intros primary subset. revert primary. induction subset as [|e s IH]; intros primary rest H; cbn in H; [injection H as ->; reflexivity|].
  destruct (list_remove primary e) as [p|] eqn:E; [|discriminate]. apply list_remove_perm in E. rewrite E. cbn. constructor. now apply IH.
Qed.
Print Assumptions C25_remove_subset.
