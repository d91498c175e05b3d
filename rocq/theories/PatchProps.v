(** PatchProps.v: patches of triangles have the shape of what they are made from. *)
From Verif Require Import Base QBase BoxProofs DecoarsenProofs IntersectModel IntersectProofs PatchModel.
Open Scope Z_scope.

(** The surface a patch represents: its triangles as triples of points. *)
Definition triangle := (vec * vec * vec)%type.
Definition IsAt (points : list vec) (t : tri) (abc : triangle) : Prop :=
  let '(a, b, c) := t in let '(pa, pb, pc) := abc in
  znth points a = Some pa /\ znth points b = Some pb /\ znth points c = Some pc.
Definition Shape (t : list tri) (points : list vec) (s : list triangle) : Prop := Forall2 (IsAt points) t s.
(** The mean of four points. *)
Definition centre4 (a b c d : vec) : vec :=
  V ((1 # 4) * (vx a + vx b + vx c + vx d)) ((1 # 4) * (vy a + vy b + vy c + vy d)) ((1 # 4) * (vz a + vz b + vz c + vz d)).
(** The triangles of a quadrilateral with corners a b / c d: two, or four around its centre. *)
Definition Quad (quad : bool) (a b c d : vec) : list triangle :=
  if quad then let m := centre4 a b c d in [(m, a, b); (m, b, d); (m, d, c); (m, c, a)] else [(a, b, c); (d, b, c)].

(** ** Lists *)
Lemma znth_app1 {A} (l1 l2 : list A) z x : znth l1 z = Some x -> znth (l1 ++ l2) z = Some x.
Proof. unfold znth. destruct (z <? 0); [discriminate|]. intros H. rewrite nth_error_app1; [exact H|]. apply nth_error_Some. rewrite H. discriminate. Qed.
Lemma znth_app2 {A} (l1 l2 : list A) n z : Z.of_nat (List.length l1) = n -> 0 <= z -> znth (l1 ++ l2) (n + z) = znth l2 z.
Proof. intros L H. unfold znth. replace (n + z <? 0) with false by lia. replace (z <? 0) with false by lia. rewrite nth_error_app2 by lia. f_equal. lia. Qed.
Lemma nth_flat_const {A B} (f : A -> list B) k l u s x : (forall a, List.length (f a) = k) -> nth_error l u = Some x -> (s < k)%nat ->
  nth_error (flat_map f l) (u * k + s) = nth_error (f x) s.
Proof.
  intros L. revert u. induction l as [|a l IH]; intros [|u] E Hs; try discriminate; cbn [flat_map].
  - injection E as ->. cbn [Nat.mul Nat.add]. apply nth_error_app1. now rewrite L.
  - cbn [nth_error] in E. rewrite nth_error_app2 by (rewrite L; lia). rewrite L. rewrite <- (IH u E Hs). f_equal. cbn [Nat.mul]. lia.
Qed.
Lemma nth_zrange n k : 0 <= k < n -> nth_error (zrange n) (Z.to_nat k) = Some k.
Proof.
  intros H. unfold zrange. rewrite nth_error_map, (nth_error_nth' _ 0%nat) by (rewrite seq_length; lia). rewrite seq_nth by lia. cbn [option_map]. f_equal. lia.
Qed.
Lemma flat2_alt {A} nj ni (f : Z -> Z -> list A) : 0 <= nj -> 0 <= ni -> flat2 nj ni f = flat_map (fun u => f (u / ni) (u mod ni)) (zrange (nj * ni)).
Proof.
  intros Hj Hi. unfold flat2. rewrite zrange_mul by assumption. rewrite flat_map_flat_map'. rewrite !flat_map_concat_map. f_equal. apply map_ext_in. intros j _. rewrite flat_map_map', !flat_map_concat_map. f_equal.
  apply map_ext_in. intros i H. apply in_zrange in H. rewrite Z.div_add_l, (Z.div_small i ni), Z.add_0_r by lia. rewrite Z.add_comm, Z.mod_add, Z.mod_small by lia. reflexivity.
Qed.
Lemma nth_flat2 {A} nj ni k (f : Z -> Z -> list A) j i s : (forall j i, List.length (f j i) = Z.to_nat k) -> 0 <= j < nj -> 0 <= i < ni -> 0 <= s < k ->
  znth (flat2 nj ni f) ((j * ni + i) * k + s) = znth (f j i) s.
Proof.
  intros L Hj Hi Hs. rewrite flat2_alt by lia. unfold znth. assert (P : 0 <= j * ni + i) by nia. assert (P' : 0 <= (j * ni + i) * k) by nia.
  replace ((j * ni + i) * k + s <? 0) with false by lia. replace (s <? 0) with false by lia.
  rewrite (Z2Nat.inj_add _ s P' (proj1 Hs)), (Z2Nat.inj_mul _ k P) by lia.
  rewrite (nth_flat_const _ (Z.to_nat k) _ _ _ (j * ni + i)); [|intros; apply L|apply nth_zrange; nia|lia].
  rewrite Z.div_add_l, (Z.div_small i ni), Z.add_0_r by lia. rewrite Z.add_comm, Z.mod_add, Z.mod_small by lia. reflexivity.
Qed.
Lemma nth_flat1 {A} nj ni (f : Z -> Z -> A) j i : 0 <= j < nj -> 0 <= i < ni -> znth (flat2 nj ni (fun j i => [f j i])) (j * ni + i) = Some (f j i).
Proof. intros Hj Hi. replace (j * ni + i) with ((j * ni + i) * 1 + 0) by lia. rewrite nth_flat2; try lia; [reflexivity|intros; reflexivity]. Qed.
Lemma length_flat2 {A} nj ni k (f : Z -> Z -> list A) : (forall j i, List.length (f j i) = Z.to_nat k) -> 0 <= nj -> 0 <= ni -> 0 <= k ->
  Z.of_nat (List.length (flat2 nj ni f)) = nj * ni * k.
Proof.
  intros L Hj Hi Hk. unfold flat2. rewrite (length_flat_map_const _ _ (Z.to_nat ni * Z.to_nat k)).
  - rewrite length_zrange. nia.
  - intros j _. rewrite (length_flat_map_const _ _ (Z.to_nat k)) by (intros; apply L). rewrite length_zrange. reflexivity.
Qed.
Lemma Forall2_flat_map {A B C} (R : B -> C -> Prop) (f : A -> list B) (g : A -> list C) l : (forall x, In x l -> Forall2 R (f x) (g x)) -> Forall2 R (flat_map f l) (flat_map g l).
Proof. induction l as [|a l IH]; intros H; [constructor|]. cbn [flat_map]. apply Forall2_app; [apply H; left; reflexivity|apply IH; intros; apply H; right; assumption]. Qed.
Lemma shape_flat2 nj ni (f : Z -> Z -> list tri) (g : Z -> Z -> list triangle) points : (forall j i, 0 <= j < nj -> 0 <= i < ni -> Shape (f j i) points (g j i)) ->
  Shape (flat2 nj ni f) points (flat2 nj ni g).
Proof. intros H. apply Forall2_flat_map. intros j Hj. apply in_zrange in Hj. apply Forall2_flat_map. intros i Hi. apply in_zrange in Hi. apply H; assumption. Qed.
Lemma columns_ok nj ni k (g : Z -> Z -> list triangle) : 0 < nj -> 0 < ni -> 0 < k -> (forall j i, List.length (g j i) = Z.to_nat k) -> forall t, 0 <= t < k * nj * ni ->
  0 <= t / k / ni < nj /\ 0 <= (t / k) mod ni < ni /\ exists x, znth (flat2 nj ni g) t = Some x /\ In x (g (t / k / ni) ((t / k) mod ni)).
Proof.
  intros Hj Hi Hk L t Ht. pose proof (Z.div_mod t k ltac:(lia)) as D1. pose proof (Z.mod_pos_bound t k ltac:(lia)) as B1. set (u := t / k) in *.
  pose proof (Z.div_mod u ni ltac:(lia)) as D2. pose proof (Z.mod_pos_bound u ni ltac:(lia)) as B2.
  assert (U : 0 <= u < nj * ni) by (unfold u; split; [apply Z.div_pos; lia|apply Z.div_lt_upper_bound; nia]).
  assert (J : 0 <= u / ni < nj) by (split; [apply Z.div_pos; lia|apply Z.div_lt_upper_bound; nia]). split; [exact J|]. split; [exact B2|].
  assert (E : t = (u / ni * ni + u mod ni) * k + t mod k) by nia.
  assert (N : znth (flat2 nj ni g) t = znth (g (u / ni) (u mod ni)) (t mod k)) by (rewrite E at 1; apply nth_flat2; auto).
  rewrite N. unfold znth. replace (t mod k <? 0) with false by lia.
  destruct (nth_error (g (u / ni) (u mod ni)) (Z.to_nat (t mod k))) as [x|] eqn:X.
  - exists x. split; [reflexivity|]. eapply nth_error_In, X.
  - apply nth_error_None in X. rewrite L in X. lia.
Qed.

(** ** Meshes *)
(** What a patch made from a mesh of nj by ni columns should be: the triangles of each column in turn, with the
    right counts, and with the column found again from the index of each of its triangles. *)
Definition MadeFromMesh (p : patch) (nj ni : Z) (tris : Z -> Z -> list triangle) : Prop :=
  let s := flat2 nj ni tris in
  Shape (p_tris p) (p_points p) s /\
  p_count p = Z.of_nat (List.length (p_tris p)) /\ p_nodes p = Z.of_nat (List.length (p_points p)) /\
  (forall t, 0 <= t < p_count p -> exists j i x, column_from_triangle_index p t = Some (j, i) /\ 0 <= j < nj /\ 0 <= i < ni /\ znth s t = Some x /\ In x (tris j i)) /\
  (forall t, p_count p <= t -> column_from_triangle_index p t = None).

Theorem C91_irregular_mesh : forall nj ni mesh quad, 1 < nj -> 1 < ni -> exists p, set_from_irregular_mesh nj ni mesh quad = Ok p /\
  MadeFromMesh p (nj - 1) (ni - 1) (fun j i => Quad quad (mesh j i) (mesh j (i + 1)) (mesh (j + 1) i) (mesh (j + 1) (i + 1))).
Proof.
  intros nj ni mesh quad Hj Hi. unfold set_from_irregular_mesh. replace ((nj >? 1) && (ni >? 1)) with true by lia. cbn [assert_ bind]. cbv zeta.
  pose proof (fun j i Bj Bi => nth_flat1 nj ni mesh j i Bj Bi) as N.
  assert (N1 : forall j i, 0 <= j < nj -> 0 <= i < ni - 1 -> znth (flat2 nj ni (fun j i => [mesh j i])) (j * ni + i + 1) = Some (mesh j (i + 1))) by (intros; replace (j * ni + i + 1) with (j * ni + (i + 1)) by lia; apply N; lia).
  assert (LN : Z.of_nat (List.length (flat2 nj ni (fun j i => [mesh j i]))) = nj * ni) by (rewrite (length_flat2 _ _ 1); [lia|intros; reflexivity|lia|lia|lia]).
  destruct quad; eexists; (split; [reflexivity|]); unfold MadeFromMesh; cbn [p_tris p_points p_nodes p_count]; (split; [|split; [|split; [|split]]]).
  - apply shape_flat2. intros j i Bj Bi. cbn [Quad]. pose (f := fun j i : Z => centre4 (mesh j i) (mesh j (i + 1)) (mesh (j + 1) i) (mesh (j + 1) (i + 1))).
    assert (C : znth (flat2 nj ni (fun j i => [mesh j i]) ++ flat2 (nj - 1) (ni - 1) (fun j i => [f j i])) (nj * ni + j * (ni - 1) + i) = Some (f j i)).
    { rewrite <- Z.add_assoc. rewrite (znth_app2 _ _ (nj * ni)) by (try exact LN; nia). apply (nth_flat1 (nj - 1) (ni - 1) f); assumption. }
    unfold Shape; repeat apply Forall2_cons; try apply Forall2_nil; unfold IsAt; (split; [exact C|]); split; apply znth_app1; first [apply N; lia | apply N1; lia].
  - rewrite (length_flat2 _ _ 4); [lia|intros; reflexivity|lia|lia|lia].
  - rewrite app_length, Nat2Z.inj_add, LN, (length_flat2 _ _ 1); [lia|intros; reflexivity|lia|lia|lia].
  - intros t Ht. destruct (columns_ok (nj - 1) (ni - 1) 4 (fun j i => Quad true (mesh j i) (mesh j (i + 1)) (mesh (j + 1) i) (mesh (j + 1) (i + 1))) ltac:(lia) ltac:(lia) ltac:(lia) ltac:(reflexivity) t Ht) as (A & B & x & X & In').
    exists (t / 4 / (ni - 1)), ((t / 4) mod (ni - 1)), x. split; [|auto]. unfold column_from_triangle_index. cbn [p_quad p_ni p_count]. replace (t >=? _) with false by lia. reflexivity.
  - intros t Ht. unfold column_from_triangle_index. cbn [p_quad p_ni p_count]. replace (t >=? _) with true by lia. reflexivity.
  - apply shape_flat2. intros j i Bj Bi. cbn [Quad]. unfold Shape; repeat apply Forall2_cons; try apply Forall2_nil; unfold IsAt; repeat split; first [apply N; lia | apply N1; lia].
  - rewrite (length_flat2 _ _ 2); [lia|intros; reflexivity|lia|lia|lia].
  - rewrite LN. reflexivity.
  - intros t Ht. destruct (columns_ok (nj - 1) (ni - 1) 2 (fun j i => Quad false (mesh j i) (mesh j (i + 1)) (mesh (j + 1) i) (mesh (j + 1) (i + 1))) ltac:(lia) ltac:(lia) ltac:(lia) ltac:(reflexivity) t Ht) as (A & B & x & X & In').
    exists (t / 2 / (ni - 1)), ((t / 2) mod (ni - 1)), x. split; [|auto]. unfold column_from_triangle_index. cbn [p_quad p_ni p_count]. replace (t >=? _) with false by lia. reflexivity.
  - intros t Ht. unfold column_from_triangle_index. cbn [p_quad p_ni p_count]. replace (t >=? _) with true by lia. reflexivity.
Qed.
Print Assumptions C91_irregular_mesh.

Theorem C91_torn_mesh : forall nj ni mesh quad, 0 < nj -> 0 < ni -> exists p, set_from_torn_mesh nj ni mesh quad = Ok p /\
  MadeFromMesh p nj ni (fun j i => Quad quad (mesh j i 0 0) (mesh j i 0 1) (mesh j i 1 0) (mesh j i 1 1)).
Proof.
  intros nj ni mesh quad Hj Hi. unfold set_from_torn_mesh. replace ((nj >? 0) && (ni >? 0)) with true by lia. cbn [assert_ bind]. cbv zeta.
  set (f := fun j i => [mesh j i 0 0; mesh j i 0 1; mesh j i 1 0; mesh j i 1 1]).
  assert (N : forall j i s, 0 <= j < nj -> 0 <= i < ni -> 0 <= s < 4 -> znth (flat2 nj ni f) (4 * (j * ni + i) + s) = znth (f j i) s).
  { intros j i s Bj Bi Bs. rewrite Z.mul_comm. apply nth_flat2; auto. }
  assert (N0 : forall j i, 0 <= j < nj -> 0 <= i < ni -> znth (flat2 nj ni f) (4 * (j * ni + i)) = Some (mesh j i 0 0)).
  { intros j i Bj Bi. rewrite <- (Z.add_0_r (4 * _)). rewrite N by lia. reflexivity. }
  assert (LN : Z.of_nat (List.length (flat2 nj ni f)) = nj * ni * 4) by (apply length_flat2; try lia; intros; reflexivity).
  destruct quad; eexists; (split; [reflexivity|]); unfold MadeFromMesh; cbn [p_tris p_points p_nodes p_count]; (split; [|split; [|split; [|split]]]).
  - apply shape_flat2. intros j i Bj Bi. cbn [Quad]. pose (g := fun j i : Z => centre4 (mesh j i 0 0) (mesh j i 0 1) (mesh j i 1 0) (mesh j i 1 1)).
    assert (C : znth (flat2 nj ni f ++ flat2 nj ni (fun j i => [g j i])) (nj * ni * 4 + j * ni + i) = Some (g j i)).
    { rewrite <- Z.add_assoc. rewrite (znth_app2 _ _ (nj * ni * 4)) by (try exact LN; nia). apply (nth_flat1 nj ni g); assumption. }
    unfold Shape; repeat apply Forall2_cons; try apply Forall2_nil; unfold IsAt; (split; [exact C|]); split; apply znth_app1; first [apply N0; assumption | rewrite N by lia; reflexivity].
  - rewrite (length_flat2 _ _ 4); [lia|intros; reflexivity|lia|lia|lia].
  - rewrite app_length, Nat2Z.inj_add, LN, (length_flat2 _ _ 1); [lia|intros; reflexivity|lia|lia|lia].
  - intros t Ht. destruct (columns_ok nj ni 4 (fun j i => Quad true (mesh j i 0 0) (mesh j i 0 1) (mesh j i 1 0) (mesh j i 1 1)) ltac:(lia) ltac:(lia) ltac:(lia) ltac:(reflexivity) t Ht) as (A & B & x & X & In').
    exists (t / 4 / ni), ((t / 4) mod ni), x. split; [|auto]. unfold column_from_triangle_index. cbn [p_quad p_ni p_count]. replace (t >=? _) with false by lia. reflexivity.
  - intros t Ht. unfold column_from_triangle_index. cbn [p_quad p_ni p_count]. replace (t >=? _) with true by lia. reflexivity.
  - apply shape_flat2. intros j i Bj Bi. cbn [Quad]. unfold Shape; repeat apply Forall2_cons; try apply Forall2_nil; unfold IsAt; repeat split; first [apply N0; assumption | rewrite N by lia; reflexivity].
  - rewrite (length_flat2 _ _ 2); [lia|intros; reflexivity|lia|lia|lia].
  - rewrite LN. lia.
  - intros t Ht. destruct (columns_ok nj ni 2 (fun j i => Quad false (mesh j i 0 0) (mesh j i 0 1) (mesh j i 1 0) (mesh j i 1 1)) ltac:(lia) ltac:(lia) ltac:(lia) ltac:(reflexivity) t Ht) as (A & B & x & X & In').
    exists (t / 2 / ni), ((t / 2) mod ni), x. split; [|auto]. unfold column_from_triangle_index. cbn [p_quad p_ni p_count]. replace (t >=? _) with false by lia. reflexivity.
  - intros t Ht. unfold column_from_triangle_index. cbn [p_quad p_ni p_count]. replace (t >=? _) with true by lia. reflexivity.
Qed.
Print Assumptions C91_torn_mesh.
