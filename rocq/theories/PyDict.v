(** PyDict.v: Python dictionaries (insertion ordered) and sets as lists.  Models
    the language, not a particular resqpy function. *)
From Verif Require Import Base.

Definition dict (K V : Type) := list (K * V).

Section Dict.
  Context {K V : Type} (eqb : K -> K -> bool).
  (** [d.get(k)] *)
  Fixpoint dget (d : dict K V) (k : K) : option V :=
    match d with
    | [] => None
    | (a, v) :: d' => if eqb a k then Some v else dget d' k
    end.
  (** [d[k] = v]: an existing key keeps its place *)
  Fixpoint dset (d : dict K V) (k : K) (v : V) : dict K V :=
    match d with
    | [] => [(k, v)]
    | (a, w) :: d' => if eqb a k then (a, v) :: d' else (a, w) :: dset d' k v
    end.
  (** [del d[k]] for a key known to be present *)
  Definition ddel (d : dict K V) (k : K) : dict K V := filter (fun p => negb (eqb (fst p) k)) d.
  Definition dkeys (d : dict K V) : list K := map fst d.
  Definition dvals (d : dict K V) : list V := map snd d.

  Context (eqb_iff : forall a b, eqb a b = true <-> a = b).
  Lemma eqb_refl' k : eqb k k = true. Proof. now apply eqb_iff. Qed.
  Lemma eqb_neq' a b : a <> b -> eqb a b = false.
  Proof. intros H. destruct (eqb a b) eqn:E; [|reflexivity]. apply eqb_iff in E. contradiction. Qed.

  Lemma dget_dset_eq d k v : dget (dset d k v) k = Some v.
  Proof.
    induction d as [|[a w] d IH]; cbn; [now rewrite eqb_refl'|]. destruct (eqb a k) eqn:E; cbn; rewrite E; auto.
  Qed.
  Lemma dget_dset_neq d k v k' : k' <> k -> dget (dset d k v) k' = dget d k'.
  Proof.
    intros N. induction d as [|[a w] d IH]; cbn.
    - now rewrite eqb_neq' by congruence.
    - destruct (eqb a k) eqn:E; cbn.
      + apply eqb_iff in E. subst. now rewrite !eqb_neq' by congruence.
      + destruct (eqb a k'); auto.
  Qed.
  Lemma dget_ddel_eq d k : dget (ddel d k) k = None.
  Proof.
    induction d as [|[a w] d IH]; cbn; [reflexivity|]. destruct (eqb a k) eqn:E; cbn; [assumption|]. now rewrite E.
  Qed.
  Lemma dget_ddel_neq d k k' : k' <> k -> dget (ddel d k) k' = dget d k'.
  Proof.
    intros N. induction d as [|[a w] d IH]; cbn; [reflexivity|]. destruct (eqb a k) eqn:E; cbn.
    - apply eqb_iff in E. subst. now rewrite eqb_neq' by congruence.
    - destruct (eqb a k'); auto.
  Qed.
  Lemma dget_in d k v : dget d k = Some v -> In (k, v) d.
  Proof.
    induction d as [|[a w] d IH]; cbn; [discriminate|]. destruct (eqb a k) eqn:E; [|auto].
    apply eqb_iff in E. intros [= ->]. subst. now left.
  Qed.
  Lemma dkeys_dget d k : In k (dkeys d) <-> exists v, dget d k = Some v.
  Proof.
    induction d as [|[a w] d IH]; cbn; [split; [tauto|intros [v E]; discriminate]|].
    destruct (eqb a k) eqn:E.
    - apply eqb_iff in E. subst. split; eauto.
    - rewrite <- IH. split; [|auto]. intros [->|H]; [rewrite eqb_refl' in E; discriminate|assumption].
  Qed.
  Lemma in_dget d k v : NoDup (dkeys d) -> In (k, v) d -> dget d k = Some v.
  Proof.
    induction d as [|[a x] d IH]; [intros _ []|]. intros Hn [H|H]; cbn.
    - injection H as -> ->. now rewrite eqb_refl'.
    - inversion Hn as [|? ? N1 N2]; subst. rewrite eqb_neq'; [now apply IH|]. intros ->. apply N1. apply in_map_iff. now exists (k, v).
  Qed.
  Lemma dget_none d k : dget d k = None <-> ~ In k (dkeys d).
  Proof.
    rewrite dkeys_dget. destruct (dget d k); split; intros H; try discriminate; auto.
    - exfalso. apply H. eauto.
    - intros [v E]. discriminate.
  Qed.
  Lemma dkeys_dset d k v : dkeys (dset d k v) = if existsb (fun a => eqb a k) (dkeys d) then dkeys d else dkeys d ++ [k].
  Proof.
    induction d as [|[a w] d IH]; cbn; [reflexivity|]. destruct (eqb a k) eqn:E; cbn; [reflexivity|].
    fold (dkeys (dset d k v)). rewrite IH. fold (dkeys d). now destruct (existsb _ (dkeys d)).
  Qed.
  Lemma dkeys_dset_present d k v : In k (dkeys d) -> dkeys (dset d k v) = dkeys d.
  Proof.
    intros H. rewrite dkeys_dset. assert (existsb (fun a => eqb a k) (dkeys d) = true) as ->; [|reflexivity].
    apply existsb_exists. exists k. split; [assumption|apply eqb_refl'].
  Qed.
  Lemma dkeys_dset_absent d k v : ~ In k (dkeys d) -> dkeys (dset d k v) = dkeys d ++ [k].
  Proof.
    intros H. rewrite dkeys_dset. assert (existsb (fun a => eqb a k) (dkeys d) = false) as ->; [|reflexivity].
    apply not_true_iff_false. rewrite existsb_exists. intros (x & Hx & E). apply eqb_iff in E. now subst.
  Qed.
  Lemma dkeys_ddel d k : dkeys (ddel d k) = filter (fun a => negb (eqb a k)) (dkeys d).
  Proof.
    induction d as [|[a w] d IH]; cbn; [reflexivity|]. destruct (eqb a k); cbn; [assumption|]. f_equal. exact IH.
  Qed.
  Lemma dset_nodup d k v : NoDup (dkeys d) -> NoDup (dkeys (dset d k v)).
  Proof.
    intros H. rewrite dkeys_dset. destruct (existsb _ _) eqn:E; [assumption|].
    rewrite <- rev_involutive, rev_app_distr. apply NoDup_rev. cbn. constructor; [|now apply NoDup_rev].
    rewrite <- in_rev. intros Hin. apply not_true_iff_false in E. apply E, existsb_exists. exists k. split; [assumption|apply eqb_refl'].
  Qed.
  Lemma ddel_nodup d k : NoDup (dkeys d) -> NoDup (dkeys (ddel d k)).
  Proof. intros H. rewrite dkeys_ddel. now apply NoDup_filter. Qed.
  Lemma ddel_absent d k : ~ In k (dkeys d) -> ddel d k = d.
  Proof.
    induction d as [|[a w] d IH]; cbn; [reflexivity|]. intros H. rewrite eqb_neq' by (intros ->; tauto). cbn. f_equal. apply IH. tauto.
  Qed.
End Dict.

(** Sets of integers. *)
Definition zmem (x : Z) (s : list Z) : bool := existsb (Z.eqb x) s.
Definition sadd (x : Z) (s : list Z) : list Z := if zmem x s then s else s ++ [x].
Definition sdel (x : Z) (s : list Z) : list Z := filter (fun y => negb (y =? x)) s.
Lemma zmem_iff x s : zmem x s = true <-> In x s.
Proof.
  unfold zmem. rewrite existsb_exists. split; [intros (y & H & E); apply Z.eqb_eq in E; now subst|].
  intros H. exists x. split; [assumption|apply Z.eqb_refl].
Qed.
Lemma zmem_false x s : zmem x s = false <-> ~ In x s.
Proof. rewrite <- zmem_iff. now destruct (zmem x s). Qed.
Lemma in_sadd x y s : In x (sadd y s) <-> x = y \/ In x s.
Proof.
  unfold sadd. destruct (zmem y s) eqn:E.
  - apply zmem_iff in E. split; [auto|]. intros [->|H]; assumption.
  - rewrite in_app_iff. cbn. intuition.
Qed.
Lemma in_sdel x y s : In x (sdel y s) <-> x <> y /\ In x s.
Proof. unfold sdel. rewrite filter_In. destruct (Z.eqb_spec x y); cbn; intuition discriminate. Qed.
Lemma sadd_nodup x s : NoDup s -> NoDup (sadd x s).
Proof.
  intros H. unfold sadd. destruct (zmem x s) eqn:E; [assumption|]. apply zmem_false in E.
  rewrite <- rev_involutive, rev_app_distr. apply NoDup_rev. cbn. constructor; [now rewrite <- in_rev|now apply NoDup_rev].
Qed.
Lemma sdel_nodup x s : NoDup s -> NoDup (sdel x s).
Proof. apply NoDup_filter. Qed.
