(** TriMeshProps2.v: the triangles, edges and crossings of tri meshes. *)
From Coq Require Import Qround Qabs Lqa Qfield.
From Verif Require Import Base QBase BoxProofs DecoarsenProofs IntersectModel IntersectProofs TriMeshModel TriMeshProps.
Open Scope Z_scope.

Lemma nth_zrange n k : 0 <= k < n -> nth_error (zrange n) (Z.to_nat k) = Some k.
Proof.
  intros H. unfold zrange. rewrite nth_error_map, (nth_error_nth' _ 0%nat) by (rewrite seq_length; lia). rewrite seq_nth by lia. cbn [option_map]. f_equal. lia.
Qed.
Lemma nth_rows {A} (f : Z -> Z -> A) a b j i : 0 <= j < a -> 0 <= i < b ->
  nth_error (flat_map (fun j => map (f j) (zrange b)) (zrange a)) (Z.to_nat (j * b + i)) = Some (f j i).
Proof.
  intros Hj Hi.
  assert (E : flat_map (fun j => map (f j) (zrange b)) (zrange a) = map (fun t => f (t / b) (t mod b)) (zrange (a * b))).
  { rewrite zrange_mul by lia. rewrite map_flat_map'. rewrite !flat_map_concat_map. f_equal. apply map_ext_in. intros j' _. rewrite map_map. apply map_ext_in. intros i' Hi'. apply in_zrange in Hi'.
    rewrite Z.div_add_l, (Z.div_small i' b), Z.add_0_r by lia. rewrite Z.add_comm, Z.mod_add, Z.mod_small by lia. reflexivity. }
  rewrite E, nth_error_map, nth_zrange by nia. cbn [option_map]. rewrite Z.div_add_l, (Z.div_small i b), Z.add_0_r by lia. rewrite Z.add_comm, Z.mod_add, Z.mod_small by lia. reflexivity.
Qed.

Lemma corners_nodes m j i a b c : IsTri m j i -> IsCorners j i a b c -> IsNode m a /\ IsNode m b /\ IsNode m c.
Proof.
  intros [Hj Hi] (-> & -> & ->). pose proof (Z.div_mod i 2 ltac:(lia)) as D. rewrite mod2_odd in D. unfold IsNode. cbn [fst snd].
  destruct (Z.odd j), (Z.odd i); cbn [Bool.eqb]; lia.
Qed.

(** Every triangle has three different nodes of the mesh for its corners, whichever function gives them, and the
    triangles and points handed to a surface are those, numbered as the index functions say. *)
Theorem C90_triangles : forall m j i, IsTri m j i -> exists a b c t,
  tri_nodes_for_tji m j i = Ok (a, b, c) /\ all_tri_nodes j i = (a, b, c) /\ IsCorners j i a b c /\
  (IsNode m a /\ IsNode m b /\ IsNode m c) /\ a <> b /\ b <> c /\ a <> c /\
  triangle_index_for_tji m j i = Ok t /\ tji_for_triangle_index m t = Ok (j, i) /\
  exists ia ib ic, nth_error (triangles m) (Z.to_nat t) = Some (ia, ib, ic) /\
    nth_error (points m) (Z.to_nat ia) = Some (at2 (xyz m) a) /\ nth_error (points m) (Z.to_nat ib) = Some (at2 (xyz m) b) /\
    nth_error (points m) (Z.to_nat ic) = Some (at2 (xyz m) c).
Proof.
  intros m j i T. destruct (nodes_ok m j i T) as (a & b & c & N & C). pose proof (corners_nodes m j i a b c T C) as NN. destruct T as [Hj Hi].
  assert (EA : all_tri_nodes j i = (a, b, c)).
  { destruct C as (-> & -> & ->). unfold all_tri_nodes. rewrite !odd_spec. cbv zeta. destruct (Z.odd j), (Z.odd i); cbn [Bool.eqb andb negb]; repeat match goal with |- (_, _) = (_, _) => f_equal end; lia. }
  exists a, b, c, (2 * (tm_ni m - 1) * j + i).
  split; [exact N|]. split; [exact EA|]. split; [exact C|]. split; [exact NN|].
  split; [|split; [|split]].
  1-3: destruct C as (-> & -> & ->); intros E; injection E; intros; destruct (Bool.eqb (Z.odd j) (Z.odd i)); lia.
  split; [|split].
  - unfold triangle_index_for_tji. replace ((0 <=? j) && (j <? tm_nj m - 1) && (0 <=? i) && (i <? 2 * (tm_ni m - 1))) with true by lia. reflexivity.
  - unfold tji_for_triangle_index. replace ((0 <=? _) && _) with true by nia. cbn [assert_ bind].
    rewrite (Z.mul_comm (2 * (tm_ni m - 1)) j), Z.div_add_l, (Z.div_small i), Z.add_0_r by lia. rewrite (Z.add_comm _ i), Z.mod_add, Z.mod_small by lia. reflexivity.
  - exists (fst a * tm_ni m + snd a), (fst b * tm_ni m + snd b), (fst c * tm_ni m + snd c). split.
    + unfold triangles. rewrite (Z.mul_comm (2 * (tm_ni m - 1)) j). cbv zeta. rewrite (nth_rows (fun j i => let '(a, b, d) := all_tri_nodes j i in (fst a * tm_ni m + snd a, fst b * tm_ni m + snd b, fst d * tm_ni m + snd d))) by lia.
      rewrite EA. reflexivity.
    + destruct NN as ((? & ?) & (? & ?) & (? & ?)). unfold points, at2. split; [|split]; apply (nth_rows (xyz m)); assumption.
Qed.
Print Assumptions C90_triangles.
Theorem C90_triangle_count : forall m, WF m -> Z.of_nat (List.length (triangles m)) = 2 * (tm_nj m - 1) * (tm_ni m - 1) /\
  Z.of_nat (List.length (points m)) = tm_nj m * tm_ni m /\
  (forall t, 0 <= t < 2 * (tm_nj m - 1) * (tm_ni m - 1) -> exists j i, IsTri m j i /\ tji_for_triangle_index m t = Ok (j, i) /\ triangle_index_for_tji m j i = Ok t) /\
  (forall t, ~ 0 <= t < 2 * (tm_nj m - 1) * (tm_ni m - 1) -> tji_for_triangle_index m t = Err AssertionError).
Proof.
  intros m (Wj & Wi & _). split; [|split; [|split]].
  - unfold triangles. cbv zeta. rewrite (length_flat_map_const _ _ (Z.to_nat (2 * (tm_ni m - 1)))) by (intros; now rewrite map_length, length_zrange). rewrite length_zrange. nia.
  - unfold points. rewrite (length_flat_map_const _ _ (Z.to_nat (tm_ni m))) by (intros; now rewrite map_length, length_zrange). rewrite length_zrange. nia.
  - intros t Ht. exists (t / (2 * (tm_ni m - 1))), (t mod (2 * (tm_ni m - 1))).
    pose proof (Z.div_mod t (2 * (tm_ni m - 1)) ltac:(lia)) as D. pose proof (Z.mod_pos_bound t (2 * (tm_ni m - 1)) ltac:(lia)) as B.
    assert (0 <= t / (2 * (tm_ni m - 1)) < tm_nj m - 1) by (split; [apply Z.div_pos; lia|apply Z.div_lt_upper_bound; nia]).
    split; [split; assumption|]. split.
    + unfold tji_for_triangle_index. replace ((0 <=? t) && _) with true by nia. reflexivity.
    + unfold triangle_index_for_tji. replace ((0 <=? _) && _ && _ && _) with true by lia. cbn [assert_ bind]. f_equal. lia.
  - intros t Ht. unfold tji_for_triangle_index. replace ((0 <=? t) && _) with false by nia. reflexivity.
Qed.
Print Assumptions C90_triangle_count.

(** ** Edges *)
Definition Cornered (a b c n : Z * Z) : Prop := n = a \/ n = b \/ n = c.
(** n and n' are the ends of an edge: different corners of some triangle *)
Definition IsEdge (m : trimesh) (n n' : Z * Z) : Prop :=
  n <> n' /\ exists j i a b c, IsTri m j i /\ IsCorners j i a b c /\ Cornered a b c n /\ Cornered a b c n'.

Lemma in_every2 s e j : In j (every2 s e) <-> s <= j < e /\ (j - s) mod 2 = 0.
Proof. unfold every2. rewrite filter_In, in_zrange2, Z.eqb_eq. reflexivity. Qed.
Lemma in_rows {A} (f : Z -> Z -> A) l b x : In x (flat_map (fun j => map (f j) (zrange b)) l) <-> exists j i, In j l /\ 0 <= i < b /\ x = f j i.
Proof.
  rewrite in_flat_map. split.
  - intros (j & Hj & Hx). apply in_map_iff in Hx as (i & <- & Hi). apply in_zrange in Hi. exists j, i. auto.
  - intros (j & i & Hj & Hi & ->). exists j. split; [exact Hj|]. apply in_map_iff. exists i. rewrite in_zrange. auto.
Qed.
Lemma in_edges m j1 i1 j2 i2 : In ((j1, i1), (j2, i2)) (edges m) <->
  IsNode m (j1, i1) /\ IsNode m (j2, i2) /\ ((j2 = j1 /\ i2 = i1 + 1) \/ (j2 = j1 + 1 /\ (i2 = i1 \/ (if Z.odd j1 then i2 = i1 + 1 else i2 = i1 - 1)))).
Proof.
  unfold edges. cbv zeta. rewrite !in_app_iff, !in_rows. unfold IsNode. cbn [fst snd]. split.
  - intros [(j & i & Hj & Hi & E)|[(j & i & Hj & Hi & E)|[(j & i & Hj & Hi & E)|(j & i & Hj & Hi & E)]]]; injection E as -> -> -> ->;
      first [apply in_zrange in Hj; lia | apply in_every2 in Hj as [Hj M]]; rewrite mod2_odd, Z.odd_sub in M; change (Z.odd 0) with false in M; change (Z.odd 1) with true in M; rewrite ?xorb_false_r, ?xorb_true_r in M;
      destruct (Z.odd j); cbn [negb] in M; lia.
  - intros (N1 & N2 & [(-> & ->)|(-> & [->|H])]).
    + left. exists j1, i1. rewrite in_zrange. repeat split; lia.
    + right. left. exists j1, i1. rewrite in_zrange. repeat split; lia.
    + right. right. destruct (Z.odd j1) eqn:O; subst i2.
      * right. exists j1, i1. rewrite in_every2, mod2_odd, Z.odd_sub, O. cbn. assert (j1 <> 0) by (intros ->; discriminate). repeat split; lia.
      * left. exists j1, (i1 - 1). rewrite in_every2, mod2_odd, Z.odd_sub, O. cbn. repeat split; try lia. repeat f_equal; lia.
Qed.

(** The pairs of nodes looked at for crossings are the edges of the mesh, each once and in one direction. *)
Theorem C90_edges : forall m, WF m ->
  (forall n n', (In (n, n') (edges m) \/ In (n', n) (edges m)) <-> IsEdge m n n') /\
  NoDup (edges m) /\ (forall n n', In (n, n') (edges m) -> ~ In (n', n) (edges m)).
Proof.
  intros m (Wj & Wi & _). split; [|split].
  - intros [j1 i1] [j2 i2]. split.
    + assert (G : forall j1 i1 j2 i2, In ((j1, i1), (j2, i2)) (edges m) -> IsEdge m (j1, i1) (j2, i2)).
      { clear j1 i1 j2 i2. intros j1 i1 j2 i2 H. apply in_edges in H as (N1 & N2 & H). unfold IsNode in N1, N2. cbn [fst snd] in N1, N2.
        split; [intros E; injection E; intros; destruct (Z.odd j1); lia|].
        assert (K : forall j I (o : bool) a b c, 0 <= j < tm_nj m - 1 -> 0 <= I < tm_ni m - 1 ->
          a = ((if Bool.eqb (Z.odd j) o then j else j + 1), I) -> b = ((if Bool.eqb (Z.odd j) o then j else j + 1), I + 1) ->
          c = ((if Bool.eqb (Z.odd j) o then j + 1 else j), I + (if o then 1 else 0)) -> Cornered a b c (j1, i1) -> Cornered a b c (j2, i2) ->
          exists j i a b c, IsTri m j i /\ IsCorners j i a b c /\ Cornered a b c (j1, i1) /\ Cornered a b c (j2, i2)).
        { intros j I o a b c Hj HI Ea Eb Ec C1 C2. exists j, (I * 2 + (if o then 1 else 0)), a, b, c. split; [split; [lia|destruct o; lia]|]. split; [|auto].
          assert (O : Z.odd (I * 2 + (if o then 1 else 0)) = o) by (destruct o; rewrite ?odd_double1, ?Z.add_0_r, ?odd_double; reflexivity).
          assert (D : (I * 2 + (if o then 1 else 0)) / 2 = I) by (destruct o; rewrite ?half_double1, ?Z.add_0_r, ?half_double; reflexivity).
          unfold IsCorners. rewrite O, D. auto. }
        destruct H as [(-> & ->)|(-> & H)].
        - destruct (Z.eq_dec j1 (tm_nj m - 1)) as [L|L].
          + eapply (K (j1 - 1) i1 (Z.odd j1)); try reflexivity; try lia; replace (Z.odd (j1 - 1)) with (negb (Z.odd j1)) by (rewrite Z.odd_sub; destruct (Z.odd j1); reflexivity);
              destruct (Z.odd j1); cbn [negb Bool.eqb]; replace (j1 - 1 + 1) with j1 by lia; unfold Cornered; auto.
          + eapply (K j1 i1 (Z.odd j1)); try reflexivity; try lia; rewrite Bool.eqb_reflx; unfold Cornered; auto.
        - destruct H as [->|H].
          + destruct (Z.eq_dec i1 (tm_ni m - 1)) as [L|L].
            * eapply (K j1 (i1 - 1) true); try reflexivity; try lia; destruct (Z.odd j1); cbn [Bool.eqb]; replace (i1 - 1 + 1) with i1 by lia; unfold Cornered; auto.
            * eapply (K j1 i1 false); try reflexivity; try lia; destruct (Z.odd j1); cbn [Bool.eqb]; rewrite Z.add_0_r; unfold Cornered; auto.
          + destruct (Z.odd j1) eqn:O; subst i2.
            * eapply (K j1 i1 false); try reflexivity; try lia; rewrite O; cbn [Bool.eqb]; rewrite Z.add_0_r; unfold Cornered; auto.
            * eapply (K j1 (i1 - 1) false); try reflexivity; try lia; rewrite O; cbn [Bool.eqb]; rewrite Z.add_0_r; replace (i1 - 1 + 1) with i1 by lia; unfold Cornered; auto. }
      intros [H|H]; apply G in H; [exact H|]. destruct H as (N & j & i & a & b & c & T & C & A & B). split; [congruence|]. exists j, i, a, b, c. auto.
    + intros (N & j & i & a & b & c & T & C & A & B). destruct (corners_nodes m j i a b c T C) as (Na & Nb & Nc). rewrite !in_edges.
      assert (N1 : IsNode m (j1, i1)) by (destruct A as [->|[->| ->]]; assumption). assert (N2 : IsNode m (j2, i2)) by (destruct B as [->|[->| ->]]; assumption).
      cut (((j2 = j1 /\ i2 = i1 + 1) \/ (j2 = j1 + 1 /\ (i2 = i1 \/ (if Z.odd j1 then i2 = i1 + 1 else i2 = i1 - 1)))) \/
           ((j1 = j2 /\ i1 = i2 + 1) \/ (j1 = j2 + 1 /\ (i1 = i2 \/ (if Z.odd j2 then i1 = i2 + 1 else i1 = i2 - 1))))); [intros [H|H]; [left|right]; auto|].
      clear N1 N2 Na Nb Nc T. destruct C as (-> & -> & ->). destruct (Z.odd j) eqn:Oj, (Z.odd i) eqn:Oi; cbn [Bool.eqb] in A, B;
        destruct A as [A|[A|A]]; injection A as -> ->; destruct B as [B|[B|B]]; injection B as -> ->; rewrite ?Z.odd_add, ?Oj; cbn [xorb Z.odd]; try (exfalso; apply N; reflexivity); lia.
  - unfold edges. cbv zeta.
    assert (D : forall (f : Z -> Z -> (Z * Z) * (Z * Z)) l b, NoDup l -> (forall j i j' i', f j i = f j' i' -> j = j' /\ i = i') -> NoDup (flat_map (fun j => map (f j) (zrange b)) l)).
    { intros f l b Nl Inj. apply NoDup_flat_map; [exact Nl| |].
      - intros j _. apply FinFun.Injective_map_NoDup; [|apply NoDup_zrange]. intros i i' E. apply (Inj j i j i' E).
      - intros j j' z _ _ H H'. apply in_map_iff in H as (i & <- & _). apply in_map_iff in H' as (i' & E & _). symmetry in E. apply (Inj j i j' i' E). }
    assert (E2 : forall s e, NoDup (every2 s e)) by (intros; apply NoDup_filter, NoDup_zrange2).
    assert (DJ : forall {A} (l1 l2 : list A), NoDup l1 -> NoDup l2 -> (forall x, In x l1 -> ~ In x l2) -> NoDup (l1 ++ l2)).
    { intros A l1. induction l1 as [|a l1 IH]; intros l2 D1 D2 H; [exact D2|]. cbn [app]. inversion D1 as [|? ? N' D1']; subst. constructor.
      - rewrite in_app_iff. intros [K|K]; [exact (N' K)|exact (H a (or_introl eq_refl) K)].
      - apply IH; auto. intros x Hx. apply H. right. exact Hx. }
    apply DJ; [apply D; [apply NoDup_zrange|intros ? ? ? ? E; injection E; intros; lia]|apply DJ; [apply D; [apply NoDup_zrange|intros ? ? ? ? E; injection E; intros; lia]|apply DJ;
      [apply D; [apply E2|intros ? ? ? ? E; injection E; intros; lia]|apply D; [apply E2|intros ? ? ? ? E; injection E; intros; lia]|]|]|];
    intros x Hx; rewrite ?in_app_iff, !in_rows; apply in_rows in Hx as (j & i & Hj & Hi & ->).
    + intros (j' & i' & _ & _ & E). injection E. intros. lia.
    + intros [(j' & i' & _ & _ & E)|(j' & i' & _ & _ & E)]; injection E; intros; lia.
    + intros [(j' & i' & _ & _ & E)|[(j' & i' & _ & _ & E)|(j' & i' & _ & _ & E)]]; injection E; intros; lia.
  - intros [j1 i1] [j2 i2]. rewrite !in_edges. intros (_ & _ & A) (_ & _ & B). destruct (Z.odd j1), (Z.odd j2); lia.
Qed.
Print Assumptions C90_edges.

(** ** Crossings *)
Definition Opposite (a b : Q) : Prop := (a < 0 < b \/ b < 0 < a)%Q.
(** p is between the ends of the edge, where a value changing steadily along it is zero *)
Definition Crosses (m : trimesh) (v : Z -> Z -> Q) (e : (Z * Z) * (Z * Z)) (p : vec) : Prop :=
  exists w, (0 < w < 1)%Q /\ Same p (vadd (vscale (1 - w) (at2 (xyz m) (fst e))) (vscale w (at2 (xyz m) (snd e)))) /\
    ((1 - w) * at2 v (fst e) + w * at2 v (snd e) == 0)%Q.
(** one point for each edge at whose ends the values have opposite signs, and no others *)
Definition AllCrossings (m : trimesh) (v : Z -> Z -> Q) (l : list vec) : Prop :=
  exists es, NoDup es /\ (forall e, In e es <-> In e (edges m) /\ Opposite (at2 v (fst e)) (at2 v (snd e))) /\ Forall2 (Crosses m v) es l.

Lemma crossing_iff v e : crossing v e = true <-> Opposite (at2 v (fst e)) (at2 v (snd e)).
Proof.
  unfold crossing, Opposite. set (a := at2 v (fst e)). set (b := at2 v (snd e)). split.
  - intros H. apply Qltb_iff in H. destruct (Qlt_le_dec a 0) as [A|A].
    + left. split; [exact A|]. destruct (Qlt_le_dec 0 b) as [B|B]; [exact B|]. exfalso. nra.
    + right. destruct (Qlt_le_dec b 0) as [B|B]; [|exfalso; nra]. split; [exact B|]. destruct (Qlt_le_dec 0 a) as [C|C]; [exact C|]. exfalso. nra.
  - intros H. apply Qltb_iff. destruct H as [[A B]|[A B]]; nra.
Qed.
Lemma crosses m v e : crossing v e = true -> Crosses m v e (crossing_point m v e).
Proof.
  intros H. apply crossing_iff in H. unfold crossing_point, Crosses. cbv zeta. set (a := at2 v (fst e)) in *. set (b := at2 v (snd e)) in *.
  assert (P : (0 < Qabs a /\ 0 < Qabs b /\ Qabs b * a + Qabs a * b == 0)%Q).
  { destruct H as [[A B]|[A B]]; [rewrite (Qabs_neg a), (Qabs_pos b) by lra|rewrite (Qabs_pos a), (Qabs_neg b) by lra]; (split; [|split]; [lra|lra|ring]). }
  destruct P as (PA & PB & Z0). set (s := (Qabs a + Qabs b)%Q) in *. assert (PS : (0 < s)%Q) by (unfold s; lra).
  exists (Qabs a / s)%Q.
  assert (E1 : (1 - Qabs a / s == Qabs b / s)%Q) by (unfold s; field; fold s; lra).
  split; [|split].
  - split; [apply Qlt_shift_div_l; lra|apply Qlt_shift_div_r; unfold s; lra].
  - unfold Same, vadd, vscale. cbn [vx vy vz]. rewrite E1. repeat split; field; lra.
  - rewrite E1. setoid_replace (Qabs b / s * a + Qabs a / s * b)%Q with ((Qabs b * a + Qabs a * b) / s)%Q by (field; lra). rewrite Z0. field. lra.
Qed.
Lemma all_crossings m v : WF m -> AllCrossings m v (map (crossing_point m v) (filter (crossing v) (edges m))).
Proof.
  intros W. destruct (C90_edges m W) as (_ & N & _). exists (filter (crossing v) (edges m)). split; [apply NoDup_filter, N|]. split.
  - intros e. rewrite filter_In, crossing_iff. reflexivity.
  - assert (G : forall l, Forall2 (Crosses m v) (filter (crossing v) l) (map (crossing_point m v) (filter (crossing v) l))); [|apply G].
    induction l as [|e l IH]; [constructor|]. cbn [filter]. destruct (crossing v e) eqn:E; [|exact IH]. cbn [map]. constructor; [apply crosses, E|exact IH].
Qed.
Theorem C90_crossings : forall m, WF m ->
  (forall v, AllCrossings m v (edge_zero_crossings m (Some v))) /\
  AllCrossings m (fun j i => vz (xyz m j i)) (edge_zero_crossings m None) /\
  (forall value, AllCrossings m (fun j i => vz (xyz m j i) - value)%Q (axial_edge_crossings_z m value)) /\
  (forall p, In p (edge_zero_crossings m None) -> vz p == 0)%Q /\
  (forall value p, In p (axial_edge_crossings_z m value) -> vz p == value)%Q.
Proof.
  intros m W. split; [|split; [|split; [|split]]]; try (intros; apply all_crossings, W).
  - intros p H. apply in_map_iff in H as (e & <- & H). apply filter_In in H as (_ & H). apply (crosses m) in H as (w & _ & (_ & _ & Ez) & S). rewrite Ez. unfold vadd, vscale. cbn [vz]. exact S.
  - intros value p H. apply in_map_iff in H as (e & <- & H). apply filter_In in H as (_ & H). apply (crosses m) in H as (w & _ & (_ & _ & Ez) & S). rewrite Ez. unfold vadd, vscale, at2 in *. cbn [vz]. lra.
Qed.
Print Assumptions C90_crossings.

(** Crossings with a plane of constant y: what is right ... *)
Theorem C90_axial_y_partial : forall m, WF m -> tm_origin m = None -> forall value l, axial_edge_crossings_y m value = Ok l -> l <> [] ->
  (forall p, In p l -> vy p == value)%Q /\
  exists j w, 0 <= j < tm_nj m - 1 /\ (0 < w < 1)%Q /\ forall i, 0 <= i < tm_ni m ->
    In (vadd (vscale (1 - w) (xyz m j i)) (vscale w (xyz m (j + 1) i))) l /\ IsEdge m (j, i) (j + 1, i).
Proof.
  intros m W O value l. unfold axial_edge_crossings_y. cbv zeta. set (u := (tm_t m * tm_h m)%Q). set (j := Qfloor (value / u)). set (yr := (value - inject_Z j * u)%Q).
  destruct ((0 <=? j) && _) eqn:Ej; [|intros E; injection E as <-; intros N; exfalso; apply N; reflexivity].
  destruct (Qeq_bool yr 0) eqn:Ey; [discriminate|]. destruct (j + 1 >=? tm_nj m) eqn:El; [discriminate|]. intros E _. injection E as <-.
  pose proof W as (Wj & Wi & Wt & Wh). assert (U : (0 < u)%Q) by (unfold u; nra).
  assert (Oy : (oy m == 0)%Q) by (unfold oy; rewrite O; reflexivity).
  assert (B : (0 < yr / u < 1)%Q).
  { destruct (proj1 (floor_spec (value / u) j) eq_refl) as [A B]. assert (Ev : (value == (value / u) * u)%Q) by (field; lra). apply Qeq_bool_neq in Ey. unfold yr in *.
    assert (A' : (inject_Z j * u <= value)%Q) by (rewrite Ev; nra). assert (B' : (value < (inject_Z j + 1) * u)%Q) by (rewrite Ev; nra).
    split; [apply Qlt_shift_div_l; lra|apply Qlt_shift_div_r; lra]. }
  assert (Hy : forall i i', (vy (vadd (vscale (1 - yr / u) (xyz m j i)) (vscale (yr / u) (xyz m (j + 1) i'))) == value)%Q).
  { intros i i'. unfold vadd, vscale. cbn [vy]. rewrite !node_y, Oy, inject_Z_plus. change (inject_Z 1) with 1%Q. unfold yr, u in *. field. split; lra. }
  split.
  - intros p H. apply in_app_iff in H as [H|H]; apply in_map_iff in H as (i & <- & _); unfold at2; cbn [fst snd]; [apply Hy|destruct (odd j); apply Hy].
  - exists j, (yr / u)%Q. split; [lia|]. split; [exact B|]. intros i Hi. split.
    + apply in_app_iff. left. apply in_map_iff. exists i. rewrite in_zrange. split; [reflexivity|exact Hi].
    + apply (proj1 (proj1 (C90_edges m W) (j, i) (j + 1, i))). left. apply in_edges. unfold IsNode. cbn [fst snd]. repeat split; lia.
Qed.
Print Assumptions C90_axial_y_partial.
(** ... and what is not: some of the points are not on the surface, a plane through a row of nodes raises, a plane
    through the mesh may find nothing and one beyond it may raise. *)
Theorem C90_axial_y_refuted :
  (exists m value l p z, WF m /\ axial_edge_crossings_y m value = Ok l /\ In p l /\ interpolated_z m (vx p) (vy p) = Ok (Some z) /\ ~ (vz p == z)%Q) /\
  (forall m, WF m -> axial_edge_crossings_y m 0 = Err NameError) /\
  (exists m value, WF m /\ (vy (xyz m 0 0) < value < vy (xyz m (tm_nj m - 1) 0))%Q /\ axial_edge_crossings_y m value = Ok []) /\
  (exists m value, WF m /\ (vy (xyz m (tm_nj m - 1) 0) < value)%Q /\ axial_edge_crossings_y m value = Err IndexError).
Proof.
  split; [|split; [|split]].
  - exists (TriMesh 2 2 1 (13 # 15) None (fun j i => if (j =? 1) && (i =? 1) then 4 else 0)%Q), (13 # 30)%Q. do 3 eexists.
    split; [unfold WF; cbn; repeat split; lra|]. split; [vm_compute; reflexivity|]. split; [right; right; left; reflexivity|]. split; [vm_compute; reflexivity|]. vm_compute. discriminate.
  - intros m (Wj & Wi & Wt & Wh). unfold axial_edge_crossings_y. cbv zeta. set (u := (tm_t m * tm_h m)%Q). assert (U : (0 < u)%Q) by (unfold u; nra).
    assert (F : Qfloor (0 / u) = 0). { apply floor_spec. assert (E : (0 / u == 0)%Q) by (field; lra). rewrite E. change (inject_Z 0) with 0%Q. lra. }
    rewrite F. set (yr := (0 - inject_Z 0 * u)%Q). assert (Y0 : (yr == 0)%Q) by (unfold yr; change (inject_Z 0) with 0%Q; ring).
    replace (inject_Z 0 + yr <=b inject_Z (tm_nj m - 1) * tm_t m * tm_h m)%Q with true.
    + cbn [Z.leb Z.compare andb]. rewrite (proj2 (Qeq_bool_iff yr 0) Y0). reflexivity.
    + symmetry. apply Qleb_iff. rewrite Y0. change (inject_Z 0) with 0%Q. rewrite <- Qmult_assoc. fold u. assert (0 < inject_Z (tm_nj m - 1))%Q by (change 0%Q with (inject_Z 0); rewrite <- Zlt_Qlt; lia). nra.
  - exists (TriMesh 3 2 (1 # 10) (13 # 15) None (fun _ _ => 0)%Q), (13 # 100)%Q. split; [unfold WF; cbn; repeat split; lra|]. split; [vm_compute; split; reflexivity|vm_compute; reflexivity].
  - exists (TriMesh 2 2 10 (13 # 15) None (fun _ _ => 0)%Q), 9%Q. split; [unfold WF; cbn; repeat split; lra|]. split; [vm_compute; reflexivity|vm_compute; reflexivity].
Qed.
Print Assumptions C90_axial_y_refuted.

(** A mesh that meets the hypotheses: places found in triangles of each kind, and a plane's crossings. *)
Definition mesh34 : trimesh := TriMesh 4 5 (5 # 2) (13 # 15) (Some (V 100 200 10)) (fun j i => inject_Z (j * 3 + i * i - 7))%Q.
Example mesh34_wf : WF mesh34. Proof. unfold WF; cbn; repeat split; lra. Qed.
Example mesh34_places : option_map fst (tji_tc_for_xy mesh34 101 201) = Some (0, 0) /\ option_map fst (tji_tc_for_xy mesh34 103 (403 # 2)) = Some (0, 1) /\
  option_map fst (tji_tc_for_xy mesh34 105 203) = Some (1, 3) /\ option_map fst (tji_tc_for_xy mesh34 106 203) = Some (1, 4) /\ tji_tc_for_xy mesh34 99 201 = None.
Proof. vm_compute. repeat split. Qed.
Example mesh34_crossings : List.length (edge_zero_crossings mesh34 None) = 0%nat /\ List.length (axial_edge_crossings_z mesh34 (21 # 2)) = 10%nat /\ List.length (edges mesh34) = 43%nat /\ List.length (triangles mesh34) = 24%nat.
Proof. vm_compute. repeat split. Qed.
