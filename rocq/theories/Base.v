(** Base.v: conventions shared by all the models.  Nothing here models a
    particular resqpy function. *)
From Coq Require Export List ZArith Lia Bool Arith String Ascii.
From Coq Require Export ZifyBool ZifyNat.
Export ListNotations.
Open Scope Z_scope.

(** Python exceptions as values. *)
Inductive exn :=
  | AssertionError | KeyError | TypeError | ValueError | IndexError
  | AttributeError | FileNotFoundError | OSError | NotImplementedError
  | ZeroDivisionError | NameError | StopIteration | RuntimeError
  | InvalidUnitError | IncompatibleUnitsError
  | DivergesError (* fuel exhausted: the loop did not finish *).

Inductive res (A : Type) := Ok (a : A) | Err (e : exn).
Arguments Ok {A} _.
Arguments Err {A} _.

Definition bind {A B} (r : res A) (f : A -> res B) : res B :=
  match r with Ok a => f a | Err e => Err e end.
Notation "'do' x <- r ; f" := (bind r (fun x => f))
  (at level 200, x pattern, r at level 100, f at level 200, right associativity).

(** Python's [assert b]. *)
Definition assert_ (b : bool) : res unit := if b then Ok tt else Err AssertionError.

Definition is_ok {A} (r : res A) : bool := match r with Ok _ => true | Err _ => false end.

(** The three grid axes in the kji order used throughout resqpy. *)
Inductive axis := K | J | I.
Definition all_axes : list axis := [K; J; I].

Record trip (A : Type) := T { tk : A; tj : A; ti : A }.
Arguments T {A} _ _ _.
Arguments tk {A} _.
Arguments tj {A} _.
Arguments ti {A} _.

Definition get {A} (t : trip A) (a : axis) : A :=
  match a with K => tk t | J => tj t | I => ti t end.
Definition set {A} (t : trip A) (a : axis) (v : A) : trip A :=
  match a with
  | K => T v (tj t) (ti t)
  | J => T (tk t) v (ti t)
  | I => T (tk t) (tj t) v
  end.
Definition map3 {A B} (f : A -> B) (t : trip A) : trip B := T (f (tk t)) (f (tj t)) (f (ti t)).
Definition zip3 {A B C} (f : A -> B -> C) (s : trip A) (t : trip B) : trip C :=
  T (f (tk s) (tk t)) (f (tj s) (tj t)) (f (ti s) (ti t)).
Definition forall3 (f : axis -> bool) : bool := f K && f J && f I.

(** [range n] as in Python: [0; 1; ...; n-1], empty for n <= 0. *)
Definition zrange (n : Z) : list Z := map Z.of_nat (seq 0 (Z.to_nat n)).

(** [range(a, b)]. *)
Definition zrange2 (a b : Z) : list Z := map (fun i => a + Z.of_nat i) (seq 0 (Z.to_nat (b - a))).

Lemma in_zrange n x : In x (zrange n) <-> 0 <= x < n.
Proof.
  unfold zrange. rewrite in_map_iff. split.
  - intros [y [Hy Hin]]. apply in_seq in Hin. lia.
  - intros H. exists (Z.to_nat x). split; [lia|]. apply in_seq. lia.
Qed.

Lemma in_zrange2 a b x : In x (zrange2 a b) <-> a <= x < b.
Proof.
  unfold zrange2. rewrite in_map_iff. split.
  - intros [y [Hy Hin]]. apply in_seq in Hin. lia.
  - intros H. exists (Z.to_nat (x - a)). split; [lia|]. apply in_seq. lia.
Qed.

Lemma NoDup_map_inj_in {A B} (f : A -> B) l :
  (forall x y, In x l -> In y l -> f x = f y -> x = y) -> NoDup l -> NoDup (map f l).
Proof.
  intros Hf Hn. induction Hn as [|a l Ha Hn IH]; cbn [map]; constructor.
  - rewrite in_map_iff. intros [y [He Hy]].
    assert (y = a) by (apply Hf; [right; assumption | left; reflexivity | assumption]).
    subst. contradiction.
  - apply IH. intros x y Hx Hy. apply Hf; right; assumption.
Qed.

Lemma NoDup_zrange n : NoDup (zrange n).
Proof.
  unfold zrange. apply NoDup_map_inj_in; [|apply seq_NoDup].
  intros; lia.
Qed.

Lemma NoDup_zrange2 a b : NoDup (zrange2 a b).
Proof.
  unfold zrange2. apply NoDup_map_inj_in; [|apply seq_NoDup].
  intros; lia.
Qed.

Lemma length_zrange n : List.length (zrange n) = Z.to_nat n.
Proof. unfold zrange. now rewrite map_length, seq_length. Qed.

Lemma length_zrange2 a b : List.length (zrange2 a b) = Z.to_nat (b - a).
Proof. unfold zrange2. now rewrite map_length, seq_length. Qed.

Lemma zrange_S n : 0 <= n -> zrange (n + 1) = zrange n ++ [n].
Proof.
  intros H. unfold zrange. replace (Z.to_nat (n + 1)) with (S (Z.to_nat n)) by lia.
  rewrite seq_S, map_app. cbn [map]. repeat f_equal. lia.
Qed.

Lemma zrange_neg n : n <= 0 -> zrange n = [].
Proof. intros H. unfold zrange. now replace (Z.to_nat n) with 0%nat by lia. Qed.

Lemma zrange2_cons a b : a < b -> zrange2 a b = a :: zrange2 (a + 1) b.
Proof.
  intros H. unfold zrange2. replace (Z.to_nat (b - a)) with (S (Z.to_nat (b - (a + 1)))) by lia.
  cbn [seq map]. f_equal; [lia|].
  rewrite <- seq_shift, map_map. apply map_ext. intros; lia.
Qed.

Lemma zrange2_nil a b : b <= a -> zrange2 a b = [].
Proof. intros H. unfold zrange2. now replace (Z.to_nat (b - a)) with 0%nat by lia. Qed.

Lemma nth_map_zrange {A} (f : Z -> A) n i d : 0 <= i < n ->
  nth (Z.to_nat i) (map f (zrange n)) d = f i.
Proof.
  intros Hi. unfold zrange. rewrite map_map.
  rewrite (nth_indep _ d (f (Z.of_nat 0))) by (rewrite map_length, seq_length; lia).
  rewrite (map_nth (fun x => f (Z.of_nat x))), seq_nth by lia. cbn [Nat.add].
  now rewrite Z2Nat.id by lia.
Qed.
