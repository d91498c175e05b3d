(** GcsProofs2.v: sorting, removal of duplicates and selection by index. *)
From Coq Require Import Permutation Sorted.
From Verif Require Import QBase StrModel BisectModel BisectProofs BisectProofs4 GcsModel GcsProofs.
Open Scope Z_scope.

(** ** take_at *)
Lemma take_at_inv {A} (l : list A) is r : take_at l is = Ok r -> Forall2 (fun i x => 0 <= i /\ nth_error l (Z.to_nat i) = Some x) is r.
Proof.
  revert r. induction is as [|i is IH]; intros r; cbn; [intros [= <-]; constructor|].
  destruct (take_at l is) as [r'|] eqn:E; unfold take_at in E; rewrite E; cbn; [|discriminate].
  destruct (i <? 0) eqn:Ei; [discriminate|]. destruct (nth_error l (Z.to_nat i)) as [x|] eqn:En; [|discriminate].
  intros [= <-]. constructor; [split; [lia|assumption]|now apply IH].
Qed.
Lemma take_at_ok {A} (l : list A) is r : Forall2 (fun i x => 0 <= i /\ nth_error l (Z.to_nat i) = Some x) is r -> take_at l is = Ok r.
Proof.
  intros H. induction H as [|i x is r [Hi Hx] H IH]; [reflexivity|]. cbn. unfold take_at in IH. rewrite IH. cbn.
  destruct (i <? 0) eqn:Ei; [lia|]. now rewrite Hx.
Qed.
Lemma Forall2_zrange {A} (l l0 : list A) :
  Forall2 (fun i x => 0 <= i /\ nth_error (l0 ++ l) (Z.to_nat i) = Some x)
    (zrange2 (Z.of_nat (List.length l0)) (Z.of_nat (List.length l0) + Z.of_nat (List.length l))) l.
Proof.
  revert l0. induction l as [|x r IH]; intros l0; cbn [List.length].
  - rewrite Z.add_0_r. unfold zrange2. rewrite Z.sub_diag. constructor.
  - unfold zrange2. replace (Z.to_nat (Z.of_nat (List.length l0) + Z.of_nat (S (List.length r)) - Z.of_nat (List.length l0))) with (S (List.length r)) by lia.
    rewrite <- cons_seq, map_cons. constructor.
    + split; [lia|]. rewrite nth_error_app2 by lia. replace (Z.to_nat _ - _)%nat with 0%nat by lia. reflexivity.
    + specialize (IH (l0 ++ [x])). rewrite <- app_assoc in IH. cbn in IH. rewrite app_length in IH. cbn in IH.
      unfold zrange2 in IH.
      replace (Z.to_nat (Z.of_nat (List.length l0 + 1) + Z.of_nat (List.length r) - Z.of_nat (List.length l0 + 1))) with (List.length r) in IH by lia.
      rewrite <- seq_shift, map_map.
      erewrite map_ext; [exact IH|]. intros; cbn; lia.
Qed.
Lemma zrange_zrange2 n : zrange n = zrange2 0 n.
Proof. unfold zrange, zrange2. now rewrite Z.sub_0_r. Qed.
Lemma take_at_all {A} (l : list A) : take_at l (zrange (Z.of_nat (List.length l))) = Ok l.
Proof. apply take_at_ok. rewrite zrange_zrange2. apply (Forall2_zrange l []). Qed.
Lemma raw_list_zero (l : list link) fl : raw_list_for_feature (Gcs l (Some (map (fun _ => 0) l)) fl) 0 = Ok (Some l).
Proof.
  unfold raw_list_for_feature, indices_for_feature_index. cbn [feature_indices links]. rewrite positions_of_zeros.
  rewrite Z.add_0_l, <- zrange_zrange2, take_at_all. reflexivity.
Qed.

(** ** sort_by *)
Lemma insert_by_perm {A} (key : A -> Z) x l : Permutation (x :: l) (insert_by key x l).
Proof.
  induction l as [|y r IH]; cbn; [reflexivity|]. destruct (key x <=? key y); [reflexivity|].
  rewrite perm_swap. now constructor.
Qed.
Lemma sort_by_perm {A} (key : A -> Z) l : Permutation l (sort_by key l).
Proof. induction l as [|x r IH]; cbn; [constructor|]. rewrite <- insert_by_perm. now constructor. Qed.
Definition le_key {A} (key : A -> Z) (x y : A) : Prop := key x <= key y.
Lemma insert_by_sorted {A} (key : A -> Z) x l : StronglySorted (le_key key) l -> StronglySorted (le_key key) (insert_by key x l).
Proof.
  intros H. induction H as [|y r S IH F]; cbn; [repeat constructor|]. destruct (key x <=? key y) eqn:E.
  - constructor; [now constructor|]. apply Z.leb_le in E. constructor; [exact E|].
    rewrite Forall_forall in *. intros z Hz. specialize (F z Hz). unfold le_key in *. lia.
  - constructor; [exact IH|]. apply Z.leb_gt in E.
    apply (Permutation_Forall (insert_by_perm key x r)). constructor; [unfold le_key; lia|assumption].
Qed.
Lemma sort_by_sorted {A} (key : A -> Z) l : StronglySorted (le_key key) (sort_by key l).
Proof. induction l as [|x r IH]; cbn; [constructor|]. now apply insert_by_sorted. Qed.

(** ** removal of repeats from a sorted list *)
Lemma keep_flagged_cons {A} (b : bool) m (x : A) l : keep_flagged (b :: m) (x :: l) = if b then x :: keep_flagged m l else keep_flagged m l.
Proof. unfold keep_flagged. cbn. now destruct b. Qed.
Definition le_id := le_key (fun x : Z => x).
Lemma keep_flagged_strict prev l : StronglySorted le_id l -> (forall p, prev = Some p -> Forall (fun x => p <= x) l) ->
  StronglySorted Z.lt (keep_flagged (new_flags prev l) l) /\
  (forall p, prev = Some p -> Forall (fun x => p < x) (keep_flagged (new_flags prev l) l)) /\
  (forall x, In x (keep_flagged (new_flags prev l) l) <-> In x l /\ prev <> Some x).
Proof.
  revert prev. induction l as [|x r IH]; intros prev S P.
  - cbn. repeat split; try constructor; tauto.
  - inversion S as [|? ? S' F]; subst. cbn [new_flags]. rewrite keep_flagged_cons.
    destruct (IH (Some x) S') as (A & B & C). { intros p [= <-]. exact F. }
    specialize (B x eq_refl).
    set (b := match prev with Some p => negb (x =? p) | None => true end).
    destruct b eqn:Eb; unfold b in Eb; clear b.
    + repeat split.
      * constructor; assumption.
      * intros p ->. specialize (P p eq_refl). inversion P as [|? ? P1 P2]; subst.
        apply negb_true_iff, Z.eqb_neq in Eb. constructor; [lia|].
        rewrite Forall_forall in *. intros z Hz. specialize (B z Hz). lia.
      * destruct H as [<-|H]; [now left|]. right. apply C in H. tauto.
      * intros ->. apply negb_true_iff, Z.eqb_neq in Eb. destruct H as [<-|H]; [congruence|].
        specialize (P _ eq_refl). inversion P; subst. rewrite Forall_forall in B. specialize (B _ H). lia.
      * intros [[<-|H] N]; [now left|]. destruct (Z.eq_dec x x0) as [<-|D]; [now left|]. right. apply C. split; [assumption|congruence].
    + destruct prev as [p|]; [|discriminate]. apply negb_false_iff, Z.eqb_eq in Eb. subst p. repeat split.
      * assumption.
      * intros p [= <-]. exact B.
      * right. apply C in H. tauto.
      * apply C in H. tauto.
      * intros [[<-|H] N]; [congruence|]. apply C. auto.
Qed.
Lemma new_flags_length prev l : List.length (new_flags prev l) = List.length l.
Proof. revert prev. induction l; intros; cbn; auto. Qed.
Lemma keep_flagged_all {A} (m : list bool) (l : list A) : List.length m = List.length l -> forallb (fun x => x) m = true -> keep_flagged m l = l.
Proof.
  revert l. induction m as [|b m IH]; intros [|x l] E F; try discriminate; [reflexivity|].
  cbn in F. apply andb_true_iff in F. destruct F as [-> F]. rewrite keep_flagged_cons, IH; auto.
Qed.
Lemma keep_flagged_combine {A B} (m : list bool) (l1 : list A) (l2 : list B) : List.length l1 = List.length l2 ->
  combine (keep_flagged m l1) (keep_flagged m l2) = keep_flagged m (combine l1 l2).
Proof.
  revert l1 l2. induction m as [|b m IH]; intros [|x l1] [|y l2] E; try discriminate; try reflexivity.
  cbn [combine]. rewrite !keep_flagged_cons. destruct b; cbn [combine]; rewrite ?IH by (cbn in E; lia); reflexivity.
Qed.
Lemma in_keep_flagged {A} (m : list bool) (l : list A) x : In x (keep_flagged m l) -> In x l.
Proof. unfold keep_flagged. rewrite in_map_iff. intros ((b & y) & <- & H). apply filter_In in H. destruct H as [H _]. now apply in_combine_r in H. Qed.
Lemma keep_flagged_length {A B} (m : list bool) (l1 : list A) (l2 : list B) : List.length l1 = List.length l2 ->
  List.length (keep_flagged m l1) = List.length (keep_flagged m l2).
Proof.
  revert l1 l2. induction m as [|b m IH]; intros [|x l1] [|y l2] E; try discriminate; try reflexivity.
  rewrite !keep_flagged_cons. destruct b; cbn; rewrite (IH l1 l2) by (cbn in E; lia); reflexivity.
Qed.

(** ** argsort *)
Lemma combine_zrange_nth {A} (a : list A) x i : In (x, i) (combine a (zrange (Z.of_nat (List.length a)))) -> 0 <= i /\ nth_error a (Z.to_nat i) = Some x.
Proof.
  intros H. pose proof (Forall2_zrange a []) as F. cbn in F. rewrite <- zrange_zrange2 in F.
  revert H F. generalize (zrange (Z.of_nat (List.length a))) as is. generalize a at 1 3 as b.
  intros b. induction b as [|y b IH]; intros is H F; [destruct H|]. inversion F as [|i0 ? is0 ? [A1 A2] F']; subst.
  destruct H as [[= <- <-]|H]; [auto|]. eapply IH; eauto.
Qed.
Lemma sorted_pairs a : let s := sort_by fst (combine a (zrange (Z.of_nat (List.length a)))) in
  Permutation a (map fst s) /\ StronglySorted le_id (map fst s) /\ take_at a (argsort a) = Ok (map fst s) /\
  Forall (fun xi => 0 <= snd xi /\ nth_error a (Z.to_nat (snd xi)) = Some (fst xi)) s.
Proof.
  intros s.
  assert (L : List.length (zrange (Z.of_nat (List.length a))) = List.length a) by (rewrite length_zrange; lia).
  assert (P : Permutation (combine a (zrange (Z.of_nat (List.length a)))) s) by apply sort_by_perm.
  assert (F : Forall (fun xi => 0 <= snd xi /\ nth_error a (Z.to_nat (snd xi)) = Some (fst xi)) s).
  { apply (Permutation_Forall P). apply Forall_forall. intros [x i] H. now apply combine_zrange_nth. }
  assert (E : map fst (combine a (zrange (Z.of_nat (List.length a)))) = a).
  { clear -L. revert L. generalize (zrange (Z.of_nat (List.length a))) as is. induction a as [|x a IH]; intros [|i is] L; try discriminate; cbn; [reflexivity|].
    f_equal. apply IH. cbn in L. lia. }
  repeat split.
  - rewrite <- E at 1. now apply Permutation_map.
  - pose proof (sort_by_sorted fst (combine a (zrange (Z.of_nat (List.length a))))) as S. fold s in S.
    clear -S. induction S as [|x r S IH F]; cbn; constructor; auto. rewrite Forall_forall in *. intros z Hz.
    apply in_map_iff in Hz. destruct Hz as (y & <- & Hy). exact (F y Hy).
  - apply take_at_ok. unfold argsort. fold s. clear -F. induction F as [|[x i] r [H1 H2] F IH]; cbn; constructor; auto.
  - exact F.
Qed.
Lemma sorted_perm_unique l1 l2 : StronglySorted le_id l1 -> StronglySorted le_id l2 -> Permutation l1 l2 -> l1 = l2.
Proof.
  intros S1. revert l2. induction S1 as [|x r S1 IH F1]; intros l2 S2 P.
  - now apply Permutation_nil in P.
  - inversion S2 as [|y r2 S2' F2]; subst; [symmetry in P; now apply Permutation_nil in P; discriminate|].
    assert (x = y).
    { assert (In x (y :: r2)) as [->|H1] by (eapply Permutation_in; [exact P|now left]); [reflexivity|].
      assert (In y (x :: r)) as [->|H2] by (eapply Permutation_in; [symmetry; exact P|now left]); [reflexivity|].
      rewrite Forall_forall in *. specialize (F1 _ H2). specialize (F2 _ H1). unfold le_id, le_key in *. lia. }
    subst y. f_equal. apply IH; [assumption|]. now apply Permutation_cons_inv in P.
Qed.

Lemma sort_and_remove_spec a props r : List.length a <> 1%nat -> a <> [] -> sort_and_remove_duplicates a props = Ok r ->
  StronglySorted Z.lt (fst r) /\ (forall x, In x (fst r) <-> In x a).
Proof.
  intros N1 N0. unfold sort_and_remove_duplicates. destruct (Nat.leb_spec (List.length a) 1) as [H|H].
  { destruct a as [|x [|y a]]; cbn in *; congruence || lia. }
  pose proof (sorted_pairs a) as (P & S & T & F). set (s := sort_by fst _) in *.
  assert (Eb : (match props with [] => Ok (sort_by (fun x => x) a) | _ => take_at a (argsort a) end) = Ok (map fst s)).
  { destruct props; [|exact T]. f_equal. apply sorted_perm_unique; [apply sort_by_sorted|exact S|].
    rewrite <- sort_by_perm. exact P. }
  rewrite Eb. cbn [bind]. set (b := map fst s) in *.
  pose proof (keep_flagged_strict None b S ltac:(discriminate)) as (A & _ & C).
  assert (C' : forall x, In x (keep_flagged (new_flags None b) b) <-> In x a).
  { intros x. rewrite C. split; [intros [H' _]; now apply (Permutation_in x (Permutation_sym P))|intros H'; split; [now apply (Permutation_in x P)|discriminate]]. }
  destruct (forallb (fun x => x) (new_flags None b)) eqn:EF.
  - intros [= <-]. cbn. rewrite keep_flagged_all in A, C' by (auto using new_flags_length). auto.
  - destruct (map_res _ props) as [ps|]; cbn [bind]; [|discriminate]. intros [= <-]. auto.
Qed.
Lemma sort_and_remove_nil a : exists b, sort_and_remove_duplicates a [] = Ok (b, []).
Proof.
  unfold sort_and_remove_duplicates. destruct (List.length a <=? 1)%nat; [eauto|]. cbn [bind map_res].
  destruct (forallb _ _); eauto.
Qed.
