(** ShadowProps.v: bisection of the columns (C67) and shadows of K faces (C68). *)
From Verif Require Import QBase BisectModel BisectProofs BisectProofs5.
Open Scope Z_scope.

(** ** C67: the side of column (0, 0) *)
(** [in_layer], [Joined] and [Reach] of BisectProofs5: the columns of the layer, neighbours with no face between, and
    paths of them from (0, 0). *)
Theorem C67_column_bisector n jf ff : 0 < fst n -> 0 < snd n ->
  exists a, column_bisector_from_faces n ((fst n - 1, snd n), jf) ((fst n, snd n - 1), ff) = Ok a /\
    NoDup a /\ (forall c, In c a <-> Reach n jf ff c) /\ (forall c, In c a -> in_layer n c) /\ In (0, 0) a.
Proof.
  intros H1 H2. unfold column_bisector_from_faces. cbn [fst snd].
  assert (E : forall c, col_eqb c c = true) by (intros c; now apply col_eqb_eq). rewrite !E. cbn [assert_ bind]. eexists. split; [reflexivity|].
  destruct (column_loop_ok n jf ff (conj H1 H2) (Z.to_nat (fst n * snd n)) [(0, 0)]) as [A B].
  - apply good_start. split; assumption.
  - now left.
  - rewrite Z2Nat.inj_mul by lia. cbn [List.length]. lia.
  - split; [exact A|]. split; [exact B|]. split; [|apply B; constructor]. intros c Hc. apply B in Hc. destruct Hc; [unfold in_layer; cbn; lia|assumption].
Qed.
Print Assumptions C67_column_bisector.
Theorem C67_face_shapes n jf ff : fst jf <> (fst n - 1, snd n) \/ fst ff <> (fst n, snd n - 1) -> column_bisector_from_faces n jf ff = Err AssertionError.
Proof.
  intros H. unfold column_bisector_from_faces. match goal with |- (do _ <- assert_ ?x; do _ <- assert_ ?y; _) = _ => destruct x eqn:E; [|reflexivity]; destruct y eqn:E'; [|reflexivity] end.
  apply col_eqb_eq in E, E'. tauto.
Qed.
Print Assumptions C67_face_shapes.
Theorem C67_column_bisector_from_indices n jl il : 0 < fst n -> 0 < snd n ->
  exists a, column_bisector_from_face_indices n jl il = Ok a /\
    NoDup a /\ (forall c, In c a <-> Reach n (fun c => mem2 c jl) (fun c => mem2 c il) c) /\ (forall c, In c a -> in_layer n c).
Proof.
  intros H1 H2. destruct (C67_column_bisector n (fun c => mem2 c jl) (fun c => mem2 c il) H1 H2) as (a & E & A & B & C & _). exists a. auto.
Qed.
Print Assumptions C67_column_bisector_from_indices.
(** a curtain across a 3 x 3 layer, with a box at the far corner: the box and the far side are False *)
Example C67_example : column_bisector_from_face_indices (3, 3) [(0, 0); (0, 1); (1, 2)] [(1, 1)] = Ok [(1, 2); (0, 2); (0, 1); (0, 0)] /\
  column_bisector_from_faces (3, 3) ((3, 3), fun _ => true) ((3, 2), fun _ => true) = Err AssertionError.
Proof. split; vm_compute; reflexivity. Qed.

(** ** C68: shadows *)
(** what the shadow of the faces of one column should be: face q lies between layers q and q + 1 *)
Definition face_below (f : list bool) (k : nat) : Prop := exists q, (k <= q)%nat /\ nth q f false = true.
Definition face_above (f : list bool) (k : nat) : Prop := exists q, (q < k)%nat /\ nth q f false = true.
Definition shadow_value (v : Z) (below above : Prop) : Prop :=
  (v = 0 <-> ~ below /\ ~ above) /\ (v = 1 <-> below /\ ~ above) /\ (v = 2 <-> ~ below /\ above) /\ (v = 3 <-> below /\ above) /\ 0 <= v <= 3.
Lemma column_value f k : (k <= List.length f)%nat -> shadow_value (nth k (shadow_column f) 0) (face_below f k) (face_above f k).
Proof.
  intros Hk. destruct (inv3_end f _ k (shadow_column_inv f) Hk) as (a & b & E & Ha & Hb). rewrite E.
  assert (A : a = true <-> face_below f k). { rewrite Ha. split; intros (q & Q1 & Q2); exists q; (split; [|assumption]); pose proof (face_m f q Q2); lia. }
  assert (B : b = true <-> face_above f k). { rewrite Hb. split; intros (q & Q1 & Q2); exists q; (split; [|assumption]); lia. }
  unfold shadow_value. rewrite <- A, <- B. destruct a, b; repeat split; (congruence || lia || (intros [X Y]; try (now destruct X); try (now destruct Y); congruence)).
Qed.
Theorem C68_shadow_from_faces nk fs : (forall f, In f fs -> Z.of_nat (List.length f) = nk - 1) ->
  List.length (shadow_from_faces nk fs) = List.length fs /\
  forall c f, nth_error fs c = Some f -> exists s, nth_error (shadow_from_faces nk fs) c = Some s /\ Z.of_nat (List.length s) = nk /\
  forall k v, nth_error s k = Some v -> shadow_value v (face_below f k) (face_above f k).
Proof.
  intros H. rewrite (shadow_eq nk fs H). split; [apply map_length|]. intros c f Hc. exists (shadow_column f).
  assert (Hf : In f fs) by (eapply nth_error_In; eassumption). specialize (H f Hf). pose proof (proj1 (shadow_column_inv f)) as L.
  split; [now apply map_nth_error|]. split; [lia|]. intros k v Hv. assert (Hk : (k <= List.length f)%nat) by (assert (k < List.length (shadow_column f))%nat by (apply nth_error_Some; congruence); lia).
  rewrite <- (nth_error_nth _ _ 0 Hv). now apply column_value.
Qed.
Print Assumptions C68_shadow_from_faces.

(** the value of cell (k, j, i) of the result *)
Definition shadow_at (n : trip Z) (s : list (list Z)) (c : cell) : Z := nth (Z.to_nat (tk c)) (nth (Z.to_nat (tj c * ti n + ti c)) s []) 0.
Lemma nth_zrange m k d : (k < Z.to_nat m)%nat -> nth k (zrange m) d = Z.of_nat k.
Proof.
  intros H. unfold zrange. rewrite nth_indep with (d' := Z.of_nat 0) by (rewrite map_length, seq_length; lia). rewrite map_nth, seq_nth by lia. reflexivity.
Qed.
Lemma nth_indices2 nj ni j i d : 0 <= j < nj -> 0 <= i < ni -> nth (Z.to_nat (j * ni + i)) (indices2 (nj, ni)) d = (j, i).
Proof.
  intros Hj Hi. unfold indices2. cbn [fst snd].
  assert (Q : forall l k, (k < List.length l)%nat -> nth (k * Z.to_nat ni + Z.to_nat i) (flat_map (fun j => map (fun i => (j, i)) (zrange ni)) l) d = (nth k l 0, i)).
  { induction l as [|x l IH]; intros k Hk; [cbn in Hk; lia|]. cbn [flat_map]. destruct k as [|k].
    - rewrite app_nth1 by (rewrite map_length, length_zrange; cbn; lia). cbn [Nat.mul Nat.add nth].
      rewrite nth_indep with (d' := (x, 0)) by (rewrite map_length, length_zrange; lia). rewrite (map_nth (fun i => (x, i))). rewrite nth_zrange by lia. f_equal. lia.
    - rewrite app_nth2 by (rewrite map_length, length_zrange; lia). rewrite map_length, length_zrange.
      replace (S k * Z.to_nat ni + Z.to_nat i - Z.to_nat ni)%nat with (k * Z.to_nat ni + Z.to_nat i)%nat by lia. cbn [nth]. apply IH. cbn in Hk. lia. }
  replace (Z.to_nat (j * ni + i)) with (Z.to_nat j * Z.to_nat ni + Z.to_nat i)%nat by (rewrite Z2Nat.inj_add, Z2Nat.inj_mul by nia; reflexivity).
  rewrite Q by (rewrite length_zrange; lia). rewrite nth_zrange by lia. f_equal. lia.
Qed.
Theorem C68_shadow_from_face_indices n kji0 : (forall a, 0 < get n a) -> (forall c, In c kji0 -> 0 <= tk c < tk n - 1 /\ 0 <= tj c < tj n /\ 0 <= ti c < ti n) ->
  forall c, within n c -> shadow_value (shadow_at n (shadow_from_face_indices n kji0) c)
    (exists q, tk c <= q /\ In (T q (tj c) (ti c)) kji0) (exists q, q < tk c /\ In (T q (tj c) (ti c)) kji0).
Proof.
  intros Hn HV c Hc. pose proof (Hc K) as Ck. pose proof (Hc J) as Cj. pose proof (Hc I) as Ci. cbn [get] in *. unfold shadow_from_face_indices, shadow_at.
  pose proof (Hn K) as Nk. cbn [get] in Nk.
  rewrite shadow_eq by (intros f Hf; apply in_map_iff in Hf; destruct Hf as (d & <- & _); rewrite map_length, length_zrange; lia).
  set (g := fun c0 : col => map (fun k => mem (T k (fst c0) (snd c0)) kji0) (zrange (tk n - 1))).
  rewrite map_map. rewrite nth_indep with (d' := shadow_column (g (0, 0))).
  2:{ rewrite map_length, length_indices2. cbn [fst snd]. apply Nat2Z.inj_lt. rewrite Nat2Z.inj_mul, !Z2Nat.id by nia. nia. }
  rewrite (map_nth (fun x => shadow_column (g x))), nth_indices2 by assumption.
  assert (Lg : List.length (g (tj c, ti c)) = Z.to_nat (tk n - 1)) by (unfold g; rewrite map_length, length_zrange; reflexivity).
  assert (Ng : forall q, nth q (g (tj c, ti c)) false = true <-> In (T (Z.of_nat q) (tj c) (ti c)) kji0).
  { intros q. rewrite <- mem_iff. destruct (le_lt_dec (Z.to_nat (tk n - 1)) q) as [L|L].
    - rewrite nth_overflow by lia. split; [discriminate|]. intros X. apply mem_iff in X. apply HV in X. cbn in X. lia.
    - unfold g. rewrite nth_indep with (d' := mem (T 0 (tj c) (ti c)) kji0) by (rewrite map_length, length_zrange; lia).
      rewrite (map_nth (fun k => mem (T k (fst (tj c, ti c)) (snd (tj c, ti c))) kji0)). rewrite nth_zrange by lia. reflexivity. }
  pose proof (column_value (g (tj c, ti c)) (Z.to_nat (tk c)) ltac:(lia)) as V. revert V.
  assert (E1 : face_below (g (tj c, ti c)) (Z.to_nat (tk c)) <-> exists q, tk c <= q /\ In (T q (tj c) (ti c)) kji0).
  { split.
    - intros (q & Q1 & Q2). apply Ng in Q2. exists (Z.of_nat q). split; [lia|assumption].
    - intros (q & Q1 & Q2). exists (Z.to_nat q). split; [lia|]. apply Ng. rewrite Z2Nat.id by lia. assumption. }
  assert (E2 : face_above (g (tj c, ti c)) (Z.to_nat (tk c)) <-> exists q, q < tk c /\ In (T q (tj c) (ti c)) kji0).
  { split.
    - intros (q & Q1 & Q2). apply Ng in Q2. exists (Z.of_nat q). split; [lia|assumption].
    - intros (q & Q1 & Q2). pose proof (HV _ Q2) as X. cbn in X. exists (Z.to_nat q). split; [lia|]. apply Ng. rewrite Z2Nat.id by lia. assumption. }
  unfold shadow_value. rewrite E1, E2. tauto.
Qed.
Print Assumptions C68_shadow_from_face_indices.
(** two columns of six layers: faces below layers 0, 3 and 4; none *)
Example C68_example : shadow_from_face_indices (T 6 1 2) [T 3 0 0; T 0 0 0; T 4 0 0; T 0 0 0] = [[1; 3; 3; 3; 3; 2]; [0; 0; 0; 0; 0; 0]] /\
  shadow_from_faces 6 [[false; true; false; false; true]] = [[1; 1; 3; 3; 3; 2]].
Proof. split; vm_compute; reflexivity. Qed.
