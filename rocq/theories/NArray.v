(** NArray.v: numpy arrays as a shape and row-major data.  Models the library, not a
    particular resqpy function. *)
From Verif Require Import Base.

Record narr (A : Type) := NArr { a_shape : list nat; a_data : list A }.
Arguments NArr {A}. Arguments a_shape {A}. Arguments a_data {A}.
Definition prod (s : list nat) : nat := fold_right Nat.mul 1%nat s.
Definition wf {A} (a : narr A) : Prop := List.length (a_data a) = prod (a_shape a).
(** the position of an index tuple in the data *)
Fixpoint flat (s : list nat) (ix : list nat) : nat :=
  match s, ix with n :: s', i :: ix' => (i * prod s' + flat s' ix')%nat | _, _ => O end.
Definition in_bounds (s ix : list nat) : bool :=
  (List.length ix =? List.length s)%nat && forallb (fun p => (fst p <? snd p)%nat) (combine ix s).
(** [a[ix]] for a full index tuple *)
Definition get_ {A} (a : narr A) (ix : list nat) : res A :=
  if in_bounds (a_shape a) ix then
    match nth_error (a_data a) (flat (a_shape a) ix) with Some x => Ok x | None => Err IndexError end
  else Err IndexError.
(** [a[ix]] for an index tuple that may be shorter than the shape: the sub-array *)
Definition sub {A} (a : narr A) (ix : list nat) : res (narr A) :=
  let k := List.length ix in
  let s1 := firstn k (a_shape a) in let t := skipn k (a_shape a) in
  if in_bounds s1 ix then Ok (NArr t (firstn (prod t) (skipn (flat s1 ix * prod t) (a_data a)))) else Err IndexError.
(** [a.reshape(s)] *)
Definition reshape {A} (a : narr A) (s : list nat) : res (narr A) :=
  if (prod s =? List.length (a_data a))%nat then Ok (NArr s (a_data a)) else Err ValueError.
Definition amap {A B} (f : A -> B) (a : narr A) : narr B := NArr (a_shape a) (map f (a_data a)).
Definition shape_eqb (s t : list nat) : bool := (List.length s =? List.length t)%nat && forallb (fun p => (fst p =? snd p)%nat) (combine s t).

(** Spec: all index tuples lie within the shape *)
Definition Index (s ix : list nat) : Prop := Forall2 lt ix s.
Lemma in_bounds_iff s : forall ix, in_bounds s ix = true <-> Index s ix.
Proof.
  unfold in_bounds, Index. induction s as [|n s IH]; intros [|i ix].
  - cbn. split; [constructor|reflexivity].
  - cbn. split; [discriminate|intros H; inversion H].
  - cbn. split; [discriminate|intros H; inversion H].
  - specialize (IH ix). cbn [List.length combine forallb fst snd Nat.eqb]. rewrite !andb_true_iff in *. rewrite Nat.ltb_lt. split.
    + intros (H1 & H2 & H3). constructor; [exact H2|]. apply IH. auto.
    + intros H. inversion H as [|? ? ? ? H1 H2]; subst. apply IH in H2 as [H6 H7]. auto.
Qed.
Lemma shape_eqb_iff s : forall t, shape_eqb s t = true <-> s = t.
Proof.
  unfold shape_eqb. induction s as [|n s IH]; intros [|m t].
  - cbn; tauto.
  - cbn; split; discriminate.
  - cbn; split; discriminate.
  - specialize (IH t). cbn [List.length combine forallb fst snd Nat.eqb]. rewrite !andb_true_iff in *. rewrite Nat.eqb_eq. split.
    + intros (H1 & H2 & H3). apply Nat.eqb_eq in H2. f_equal; [exact H2|]. apply IH. split; [apply Nat.eqb_eq|]; assumption.
    + intros [= -> ->]. destruct (proj2 IH eq_refl) as [A B]. apply Nat.eqb_eq in A. rewrite Nat.eqb_refl. auto.
Qed.
Lemma prod_app s t : prod (s ++ t) = (prod s * prod t)%nat.
Proof. unfold prod. induction s as [|n s IH]; cbn; [lia|]. rewrite IH. lia. Qed.
Lemma flat_lt s ix : Index s ix -> (flat s ix < prod s)%nat.
Proof. unfold prod. intros H; induction H as [|i n ix s L _ IH]; cbn; [lia|]. fold (prod s) in *. nia. Qed.
Lemma flat_app s1 s2 i1 i2 : List.length s1 = List.length i1 -> flat (s1 ++ s2) (i1 ++ i2) = (flat s1 i1 * prod s2 + flat s2 i2)%nat.
Proof.
  revert i1. induction s1 as [|n s1 IH]; intros [|i i1] E; try discriminate; cbn [app flat]; [reflexivity|].
  rewrite prod_app, IH by (cbn in E; lia). lia.
Qed.
Lemma prod_pos s ix : Index s ix -> (0 < prod s)%nat.
Proof. intros H. pose proof (flat_lt s ix H). lia. Qed.

(** distinct index tuples have distinct positions, and every position has one *)
Fixpoint unflat (s : list nat) (k : nat) : list nat :=
  match s with [] => [] | n :: s' => (k / prod s')%nat :: unflat s' (k mod prod s')%nat end.
Lemma unflat_index s : forall k, (k < prod s)%nat -> Index s (unflat s k) /\ flat s (unflat s k) = k.
Proof.
  unfold prod. induction s as [|n s IH]; intros k H; cbn in *; [split; [constructor|lia]|]. fold (prod s) in *.
  assert (prod s <> 0)%nat by nia. pose proof (Nat.div_mod k (prod s) ltac:(assumption)). pose proof (Nat.mod_upper_bound k (prod s) ltac:(assumption)).
  destruct (IH (k mod prod s)%nat) as [A B]; [assumption|]. split.
  - constructor; [|exact A]. apply Nat.div_lt_upper_bound; [assumption|lia].
  - rewrite B. lia.
Qed.
Lemma flat_inj s i j : Index s i -> Index s j -> flat s i = flat s j -> i = j.
Proof.
  intros H. revert j. induction H as [|a n i s L H IH]; intros j Hj E; inversion Hj as [|b m j' s' L' H']; subst; [reflexivity|].
  cbn in E. pose proof (flat_lt s i H). pose proof (flat_lt s j' H').
  assert (a = b) by nia. subst b. f_equal. apply IH; [assumption|lia].
Qed.
Lemma reshape_get {A} (a b : narr A) s ix : wf a -> reshape a s = Ok b -> Index s ix ->
  exists k, flat s ix = k /\ forall iy, Index (a_shape a) iy -> flat (a_shape a) iy = k -> get_ b ix = get_ a iy.
Proof.
  intros W. unfold reshape. destruct (Nat.eqb_spec (prod s) (List.length (a_data a))); [|discriminate]. intros [= <-] H.
  eexists. split; [reflexivity|]. intros iy Hy E. unfold get_. cbn [a_shape a_data].
  rewrite (proj2 (in_bounds_iff _ _) H), (proj2 (in_bounds_iff _ _) Hy), E. reflexivity.
Qed.

Lemma index_app s1 s2 i1 i2 : Index s1 i1 -> Index s2 i2 -> Index (s1 ++ s2) (i1 ++ i2).
Proof. unfold Index. intros A B. induction A; cbn; [exact B|constructor; assumption]. Qed.
Lemma index_length s i : Index s i -> List.length i = List.length s.
Proof. intros H. induction H; cbn; lia. Qed.
Lemma nth_error_firstn_lt {A} (l : list A) : forall n k, (k < n)%nat -> nth_error (firstn n l) k = nth_error l k.
Proof. induction l as [|x l IH]; intros [|n] [|k] H; cbn; try reflexivity; try lia. apply IH. lia. Qed.
Lemma nth_error_skipn_add {A} (l : list A) : forall n k, nth_error (skipn n l) k = nth_error l (n + k).
Proof. induction l as [|x l IH]; intros [|n] k; cbn; try reflexivity; [destruct k; reflexivity|apply IH]. Qed.
(** what a sub-array is: its elements are those whose index tuples extend the given one *)
Lemma sub_get {A} (a : narr A) s1 t ix : wf a -> a_shape a = s1 ++ t -> Index s1 ix ->
  exists b, sub a ix = Ok b /\ wf b /\ a_shape b = t /\ forall iy, Index t iy -> get_ b iy = get_ a (ix ++ iy).
Proof.
  intros W E H. pose proof (index_length _ _ H) as L. unfold sub. rewrite E, L.
  rewrite firstn_app, Nat.sub_diag, firstn_all, skipn_app, Nat.sub_diag, skipn_all. cbn [firstn skipn app]. rewrite app_nil_r.
  rewrite (proj2 (in_bounds_iff _ _) H). eexists. split; [reflexivity|]. unfold wf in *. cbn [a_data a_shape].
  pose proof (flat_lt _ _ H) as F. rewrite E, prod_app in W. repeat split.
  - rewrite firstn_length, skipn_length, W. nia.
  - intros iy Hy. unfold get_. cbn [a_data a_shape]. rewrite (proj2 (in_bounds_iff _ _) Hy), E.
    rewrite (proj2 (in_bounds_iff _ _) (index_app _ _ _ _ H Hy)), flat_app by lia.
    rewrite nth_error_firstn_lt by (apply flat_lt, Hy). rewrite nth_error_skipn_add. reflexivity.
Qed.
