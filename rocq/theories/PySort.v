(** PySort.v: Python's [sorted] / [list.sort] as a stable insertion sort, generic in the
    ordering.  Nothing here models a particular resqpy function. *)
From Verif Require Import Base TextModel StrModel.
From Coq Require Import Permutation Sorted.

Fixpoint ins {A} (leb : A -> A -> bool) (x : A) (l : list A) : list A :=
  match l with
  | [] => [x]
  | y :: l' => if leb x y then x :: l else y :: ins leb x l'
  end.
Definition isort {A} (leb : A -> A -> bool) (l : list A) : list A := fold_right (ins leb) [] l.

(** Python's order on str (code points), [a <= b]. *)
Fixpoint str_le (a b : str) : bool :=
  match a, b with
  | [], _ => true
  | _ :: _, [] => false
  | x :: a', y :: b' =>
      let n := N_of_ascii x in let m := N_of_ascii y in
      if (n <? m)%N then true else if (m <? n)%N then false else str_le a' b'
  end.
(** Lexicographic order on pairs (key, index), [a <= b]. *)
Definition lex_le {A} (leb : A -> A -> bool) (p q : A * nat) : bool :=
  if leb (fst p) (fst q) then (if leb (fst q) (fst p) then Nat.leb (snd p) (snd q) else true) else false.

Record Order {A} (leb : A -> A -> bool) : Prop := {
  o_total : forall a b, leb a b = true \/ leb b a = true;
  o_trans : forall a b c, leb a b = true -> leb b c = true -> leb a c = true;
  o_antisym : forall a b, leb a b = true -> leb b a = true -> a = b }.

Lemma str_le_order : Order str_le.
Proof.
  constructor.
  - intros a. induction a as [|x a IH]; intros [|y b]; cbn; auto.
    destruct (N.ltb_spec (N_of_ascii x) (N_of_ascii y)), (N.ltb_spec (N_of_ascii y) (N_of_ascii x)); auto; lia.
  - intros a. induction a as [|x a IH]; intros [|y b] [|z c]; cbn; try discriminate; auto.
    destruct (N.ltb_spec (N_of_ascii x) (N_of_ascii y)), (N.ltb_spec (N_of_ascii y) (N_of_ascii x)); try discriminate; try lia;
    destruct (N.ltb_spec (N_of_ascii y) (N_of_ascii z)), (N.ltb_spec (N_of_ascii z) (N_of_ascii y)); try discriminate; try lia;
    destruct (N.ltb_spec (N_of_ascii x) (N_of_ascii z)), (N.ltb_spec (N_of_ascii z) (N_of_ascii x)); try discriminate; try lia; eauto.
  - intros a. induction a as [|x a IH]; intros [|y b]; cbn; try discriminate; auto.
    destruct (N.ltb_spec (N_of_ascii x) (N_of_ascii y)), (N.ltb_spec (N_of_ascii y) (N_of_ascii x)); try discriminate; try lia.
    intros H1 H2. f_equal; [|auto]. rewrite <- (ascii_N_embedding x), <- (ascii_N_embedding y). f_equal. lia.
Qed.
Lemma zle_order : Order Z.leb.
Proof. constructor; intros; lia. Qed.
Lemma lex_le_order {A} (leb : A -> A -> bool) : Order leb -> Order (lex_le leb).
Proof.
  intros O. constructor; unfold lex_le.
  - intros [a i] [b j]; cbn. destruct (o_total leb O a b) as [E|E]; rewrite E.
    + destruct (leb b a); [|auto]. destruct (Nat.leb_spec i j); auto. right. apply Nat.leb_le. lia.
    + destruct (leb a b); [|auto]. destruct (Nat.leb_spec i j); auto. right. apply Nat.leb_le. lia.
  - intros [a i] [b j] [c k]; cbn. destruct (leb a b) eqn:E1; [|discriminate]. destruct (leb b c) eqn:E2; [|discriminate].
    rewrite (o_trans leb O a b c E1 E2). destruct (leb c a) eqn:E3; [|auto].
    rewrite (o_trans leb O b c a E2 E3), (o_trans leb O c a b E3 E1). rewrite !Nat.leb_le. lia.
  - intros [a i] [b j]; cbn. destruct (leb a b) eqn:E1; [|discriminate]. destruct (leb b a) eqn:E2; [|discriminate].
    rewrite !Nat.leb_le. intros H1 H2. f_equal; [apply (o_antisym leb O); assumption|lia].
Qed.

Lemma ins_perm {A} leb (x : A) l : Permutation (x :: l) (ins leb x l).
Proof.
  induction l as [|y l IH]; cbn; [reflexivity|]. destruct (leb x y); [reflexivity|].
  rewrite perm_swap. now constructor.
Qed.
Lemma isort_perm {A} leb (l : list A) : Permutation l (isort leb l).
Proof. induction l as [|x l IH]; [reflexivity|]. cbn. rewrite <- ins_perm. now constructor. Qed.
Definition leP {A} (leb : A -> A -> bool) (a b : A) : Prop := leb a b = true.
Lemma ins_sorted {A} leb (x : A) l : Order leb -> StronglySorted (leP leb) l -> StronglySorted (leP leb) (ins leb x l).
Proof.
  intros O. induction 1 as [|y l Hs IH Hy]; cbn; [repeat constructor|]. destruct (leb x y) eqn:E.
  - constructor; [constructor; assumption|]. constructor; [exact E|]. eapply Forall_impl; [|exact Hy].
    intros z Hz. eapply (o_trans leb O); eassumption.
  - constructor; [assumption|]. rewrite <- ins_perm. constructor; [|assumption].
    destruct (o_total leb O x y); [congruence|assumption].
Qed.
Lemma isort_sorted {A} leb (l : list A) : Order leb -> StronglySorted (leP leb) (isort leb l).
Proof. intros O. induction l; cbn; [constructor|]. now apply ins_sorted. Qed.
Lemma ins_hd {A} leb (x : A) l : StronglySorted (leP leb) (x :: l) -> ins leb x l = x :: l.
Proof. intros H. inversion H as [|? ? _ F]; subst. destruct l as [|y l]; cbn; [reflexivity|]. inversion F; subst. unfold leP in *. now rewrite H2. Qed.
Lemma isort_id {A} leb (l : list A) : StronglySorted (leP leb) l -> isort leb l = l.
Proof.
  intros H. induction H as [|x l Hs IH Hx]; [reflexivity|]. cbn. fold (isort leb l). rewrite IH. apply ins_hd. now constructor.
Qed.
Lemma sorted_unique {A} leb (l l' : list A) : Order leb -> StronglySorted (leP leb) l -> StronglySorted (leP leb) l' ->
  Permutation l l' -> l = l'.
Proof.
  intros O Hl. revert l'. induction Hl as [|x l Hs IH Hx]; intros l' Hl' P.
  - now apply Permutation_nil in P.
  - destruct Hl' as [|y l' Hs' Hy]; [apply Permutation_sym, Permutation_nil in P; discriminate|].
    assert (x = y).
    { assert (In x (y :: l')) by (eapply Permutation_in; [exact P|now left]).
      assert (In y (x :: l)) by (eapply Permutation_in; [symmetry; exact P|now left]).
      destruct H as [|H]; [auto|]. destruct H0 as [|H0]; [auto|].
      rewrite Forall_forall in Hx, Hy. apply (o_antisym leb O); [apply Hx|apply Hy]; assumption. }
    subst y. f_equal. apply IH; [assumption|]. now apply Permutation_cons_inv in P.
Qed.
Lemma StronglySorted_map {A B} (f : A -> B) (R : B -> B -> Prop) (S : A -> A -> Prop) l :
  (forall a b, S a b -> R (f a) (f b)) -> StronglySorted S l -> StronglySorted R (map f l).
Proof.
  intros H. induction 1 as [|x l Hs IH Hx]; cbn; constructor; [assumption|].
  rewrite Forall_map. eapply Forall_impl; [|exact Hx]. auto.
Qed.
