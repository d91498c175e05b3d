(** GcsProps.v: grid connection sets hold the faces they are made from (C69). *)
From Coq Require Import Permutation Sorted.
From Verif Require Import QBase StrModel BisectModel BisectProofs BisectProofs4 GcsModel GcsProofs GcsProofs2 GcsProofs3.
Open Scope Z_scope.

(** C69: made from masks, a set has exactly one connection for each marked face inside the grid; the
    connection names the two cells which share the face, each with its own side of it, the lower
    cell first unless the side mask is set.  The connections of feature 0 are all of them. *)
Theorem C69_one_connection_per_marked_face : forall n kf jf i_f ks js is fs,
  let g := set_pairs_from_face_masks n kf jf i_f ks js is fs in
  exists es : list (axis * cell),
    NoDup es /\
    (forall a c, In (a, c) es <-> inner_face n a c /\ marked (sides_of kf jf i_f a) c) /\
    (forall f, f = None \/ f = Some 0 ->
       list_of_cell_face_pairs n g f = Ok (Some (map (fun '(a, c) => across a c (flipped (sides_of ks js is a) c)) es))).
Proof.
  intros n kf jf i_f ks js is fs g. exists (marks n kf K ++ marks n jf J ++ marks n i_f I). split; [|split].
  - apply (NoDup_three (fun a => sides_of kf jf i_f a)).
  - intros a c. rewrite !in_app_iff, !in_marks. destruct a; cbn; intuition congruence.
  - assert (E : map_res (decode_link n) (links g) =
                Ok (map (fun '(a, c) => across a c (flipped (sides_of ks js is a) c)) (marks n kf K ++ marks n jf J ++ marks n i_f I))).
    { unfold g, set_pairs_from_face_masks. cbn [links]. rewrite !map_app.
      assert (H : forall a f s, s = sides_of ks js is a -> map_res (decode_link n) (mask_links n a f s) =
                   Ok (map (fun '(a, c) => across a c (flipped (sides_of ks js is a) c)) (marks n f a))).
      { intros a f s ->. rewrite decode_mask_links. f_equal. apply map_ext_in. intros [b c] H. apply in_marks in H. destruct H as [-> _]. reflexivity. }
      apply map_res_app; [now apply H|]. apply map_res_app; now apply H. }
    intros f [->|[= ->]]; unfold list_of_cell_face_pairs.
    + cbn [bind]. rewrite E. reflexivity.
    + replace (raw_list_for_feature g 0) with (@Ok (option (list link)) (Some (links g))); [cbn [bind]; rewrite E; reflexivity|].
      unfold g, set_pairs_from_face_masks. cbn [links]. now rewrite raw_list_zero.
Qed.
Print Assumptions C69_one_connection_per_marked_face.
(** two faces of a 2 by 2 by 2 grid *)
Example masks_example :
  list_of_cell_face_pairs (T 2 2 2)
    (set_pairs_from_face_masks (T 2 2 2) (Some (fun c => cell_eqb c (T 0 1 0))) None (Some (fun c => cell_eqb c (T 1 0 0)))
       None None (Some (fun _ => true)) []) None
  = Ok (Some [((T 0 1 0, (K, true)), (T 1 1 0, (K, false))); ((T 1 0 1, (I, false)), (T 1 0 0, (I, true)))]).
Proof. vm_compute. reflexivity. Qed.

(** C69: made from lists of faces, a set has one connection for each different face, in increasing
    order within each axis, where duplicates are removed; and one for each entry, in order, where not. *)
Theorem C69_one_connection_per_listed_face : forall n kl jl il rd fs,
  (forall c, In c kl -> inner_face n K c) -> (forall c, In c jl -> inner_face n J c) -> (forall c, In c il -> inner_face n I c) ->
  exists g p es fs', from_faces_indices n kl jl il rd [] [] [] fs = Ok (g, p) /\
    list_of_cell_face_pairs n g None = Ok (Some (map (fun '(a, c) => across a c false) es)) /\
    es = map (pair K) (fs' K) ++ map (pair J) (fs' J) ++ map (pair I) (fs' I) /\
    (forall a, if rd then NoDup (fs' a) /\ increasing n (fs' a) /\ forall c, In c (fs' a) <-> In c (match a with K => kl | J => jl | I => il end)
               else fs' a = match a with K => kl | J => jl | I => il end).
Proof.
  intros n kl jl il rd fs Wk Wj Wi.
  assert (H : forall a l, (forall c, In c l -> inner_face n a c) ->
    exists es, index_links n a l rd [] = Ok (map (plain n a) es, []) /\ (forall c, In c es -> inner_face n a c) /\
      (if rd then NoDup es /\ increasing n es /\ forall c, In c es <-> In c l else es = l)).
  { intros a l W. destruct rd.
    - destruct (index_links_ok n a l true) as (x & E). destruct (index_links_dedup _ _ _ _ _ W E) as (es & Ex & N & S & M).
      cbn in Ex. subst x. exists es. split; [exact E|]. split; [intros c Hc; apply W, M, Hc|auto].
    - exists l. rewrite index_links_plain. auto. }
  destruct (H K kl Wk) as (ek & Ek & Wk' & Hk). destruct (H J jl Wj) as (ej & Ej & Wj' & Hj). destruct (H I il Wi) as (ei & Ei & Wi' & Hi).
  unfold from_faces_indices. rewrite Ek, Ej, Ei. cbn [bind].
  eexists _, _, _, (fun a => match a with K => ek | J => ej | I => ei end). split; [reflexivity|]. split; [|split; [reflexivity|]].
  - unfold list_of_cell_face_pairs. cbn [bind links].
    assert (D : forall a es, (forall c, In c es -> inner_face n a c) ->
      map_res (decode_link n) (map (plain n a) es) = Ok (map (fun '(a, c) => across a c false) (map (pair a) es))).
    { intros a es W. rewrite map_res_map, map_map. apply map_res_ok. intros c Hc. apply decode_plain. auto. }
    rewrite (map_res_app _ _ _ _ _ (D K ek Wk') (map_res_app _ _ _ _ _ (D J ej Wj') (D I ei Wi'))). cbn [bind].
    rewrite !map_app. reflexivity.
  - intros []; destruct rd; auto.
Qed.
Print Assumptions C69_one_connection_per_listed_face.
Example listed_example : exists g p, from_faces_indices (T 2 2 2) [T 0 1 1; T 0 0 0; T 0 1 1] [] [T 0 0 0] true [] [] [] [] = Ok (g, p) /\
  list_of_cell_face_pairs (T 2 2 2) g None = Ok (Some (map (fun '(a, c) => across a c false) [(K, T 0 0 0); (K, T 0 1 1); (I, T 0 0 0)])).
Proof. vm_compute. eauto. Qed.

(** C69: property arrays passed with the lists stay in line with the connections where each list is
    already in increasing order or has a repeated face.  (Missing: a list without repeats which is
    not in order; see the next theorem.) *)
Theorem C69_properties_follow_faces_partial : forall n kl jl il kp jp ip fs,
  (forall c, In c kl -> inner_face n K c) -> (forall c, In c jl -> inner_face n J c) -> (forall c, In c il -> inner_face n I c) ->
  List.length kp = List.length kl -> List.length jp = List.length jl -> List.length ip = List.length il ->
  (increasing n kl \/ ~ NoDup kl) -> (increasing n jl \/ ~ NoDup jl) -> (increasing n il \/ ~ NoDup il) ->
  exists g kq jq iq kx jx ix, from_faces_indices n kl jl il true [kp] [jp] [ip] fs = Ok (g, ([kq], [jq], [iq])) /\
    links g = kx ++ jx ++ ix /\ aligned n K kl kp kx kq /\ aligned n J jl jp jx jq /\ aligned n I il ip ix iq.
Proof.
  intros n kl jl il kp jp ip fs Wk Wj Wi Lk Lj Li Dk Dj Di.
  destruct (index_links_aligned n K kl kp Wk Lk Dk) as (kx & kq & Ek & Ak).
  destruct (index_links_aligned n J jl jp Wj Lj Dj) as (jx & jq & Ej & Aj).
  destruct (index_links_aligned n I il ip Wi Li Di) as (ix & iq & Ei & Ai).
  unfold from_faces_indices. rewrite Ek, Ej, Ei. cbn [bind].
  eexists _, kq, jq, iq, kx, jx, ix. split; [reflexivity|]. auto.
Qed.
Print Assumptions C69_properties_follow_faces_partial.
Example properties_example : exists g, from_faces_indices (T 2 2 2) [T 0 1 1; T 0 0 0; T 0 1 1] [] [] true [[5; 6; 5]%Q] [[]] [[]] []
  = Ok (g, ([[6; 5]%Q], [[]], [[]])).
Proof. vm_compute. eauto. Qed.
(** C69: without repeats the connections are sorted but the property arrays are not. *)
Theorem C69_properties_follow_faces_refuted : exists n kl kp g kq jq iq,
  (forall c, In c kl -> inner_face n K c) /\ List.length kp = List.length kl /\
  from_faces_indices n kl [] [] true [kp] [] [] [] = Ok (g, ([kq], jq, iq)) /\ ~ aligned n K kl kp (links g) kq.
Proof.
  exists (T 2 2 2), [T 0 1 1; T 0 0 0], [5; 6]%Q. eexists _, [5; 6]%Q, [], []. split; [|split; [reflexivity|split; [vm_compute; reflexivity|]]].
  - intros c [<-|[<-|[]]]; split; intros []; cbn; lia.
  - intros [_ A]. specialize (A 0%nat _ _ eq_refl eq_refl). destruct A as (s & c & Hs & Hp & D).
    destruct s as [|[|[|s]]]; cbn in Hs, Hp; try discriminate. injection Hs as <-. vm_compute in D. discriminate.
Qed.
Print Assumptions C69_properties_follow_faces_refuted.

(** C69: the skin of a set of cells consists of the faces between a cell inside and a cell outside. *)
Theorem C69_skin_separates_inside_from_outside : forall n inside fs,
  exists es, NoDup es /\
    (forall a c, In (a, c) es <-> inner_face n a c /\ inside c <> inside (next a c)) /\
    list_of_cell_face_pairs n (cell_set_skin n inside fs) None = Ok (Some (map (fun '(a, c) => across a c false) es)).
Proof.
  intros n inside fs.
  destruct (C69_one_connection_per_marked_face n (skin_faces n inside K) (skin_faces n inside J) (skin_faces n inside I) None None None fs)
    as (es & N & M & E).
  exists es. split; [assumption|]. split.
  - intros a c. rewrite M.
    assert (H : sides_of (skin_faces n inside K) (skin_faces n inside J) (skin_faces n inside I) a = skin_faces n inside a) by now destruct a.
    rewrite H. unfold skin_faces, marked. fold (next a c). split.
    + intros [H1 H2]. split; [assumption|]. apply andb_true_iff in H2. destruct H2 as [_ H2]. apply negb_true_iff, eqb_false_iff in H2. congruence.
    + intros [H1 H2]. split; [assumption|]. apply andb_true_iff. split.
      * destruct H1 as [A B]. specialize (A a). specialize (B a). rewrite get_next in B. destruct (axis_dec a a); [lia|congruence].
      * apply negb_true_iff, eqb_false_iff. congruence.
  - unfold cell_set_skin. rewrite (E None) by auto. do 2 f_equal. apply map_ext. intros [a c]. now destruct a.
Qed.
Print Assumptions C69_skin_separates_inside_from_outside.
Example skin_example :
  list_of_cell_face_pairs (T 1 3 3) (cell_set_skin (T 1 3 3) (fun c => cell_eqb c (T 0 1 1)) []) None
  = Ok (Some (map (fun '(a, c) => across a c false) [(J, T 0 0 1); (J, T 0 1 1); (I, T 0 1 0); (I, T 0 1 1)])).
Proof. vm_compute. reflexivity. Qed.

(** the cells of a connection are in the grid and its faces are between 0 and 5 *)
Definition link_ok (n : trip Z) (l : link) : Prop := 0 <= ca l < size n /\ 0 <= cb l < size n /\ 0 <= fa l <= 5 /\ 0 <= fb l <= 5.
Definition touches (n : trip Z) (l : link) (s : side) : Prop := exists a b, decode_link n l = Ok (a, b) /\ (a = s \/ b = s).
Lemma face_number f : 0 <= f <= 5 -> exists a p, f = face_index_map a p.
Proof.
  intros H. assert (f = 0 \/ f = 1 \/ f = 2 \/ f = 3 \/ f = 4 \/ f = 5) by lia.
  destruct H0 as [->|[->|[->|[->|[->| ->]]]]];
    [exists K, false|exists K, true|exists J, false|exists I, true|exists J, true|exists I, false]; reflexivity.
Qed.
Lemma touches_iff n l c a p : 0 < tj n -> 0 < ti n -> link_ok n l -> within n c ->
  touches n l (c, (a, p)) <-> (ca l = natural n c /\ fa l = face_index_map a p) \/ (cb l = natural n c /\ fb l = face_index_map a p).
Proof.
  intros Hj Hi (H1 & H2 & H3 & H4) W. destruct (face_number _ H3) as (a1 & p1 & E1), (face_number _ H4) as (a2 & p2 & E2).
  unfold touches, decode_link. rewrite E1, E2, !inverse_of_map. cbn [bind].
  assert (R : forall x, 0 <= x < size n -> denatural n x = c <-> x = natural n c).
  { intros x Hx. destruct (natural_denatural n x Hj Hi Hx) as [Y Z]. split; [intros <-; now symmetry|intros ->; now apply denatural_natural]. }
  split.
  - intros (s & t & [= <- <-] & [[= E <- <-]|[= E <- <-]]); apply R in E; auto.
  - intros [[E F]|[E F]]; apply face_index_map_inj in F; destruct F as [-> ->]; apply R in E; auto; eexists _, _; (split; [reflexivity|]);
      rewrite E; auto.
Qed.
Lemma first_match_spec n c a p : 0 < tj n -> 0 < ti n -> within n c -> forall l fi, Forall (link_ok n) l -> List.length fi = List.length l ->
  exists r, first_match (natural n c) (face_index_map a p) l fi = Ok r /\
    match r with
    | None => forall x, In x l -> ~ touches n x (c, (a, p))
    | Some f => exists i x, nth_error l i = Some x /\ nth_error fi i = Some f /\ touches n x (c, (a, p)) /\
                forall j y, (j < i)%nat -> nth_error l j = Some y -> ~ touches n y (c, (a, p))
    end.
Proof.
  intros Hj Hi W l. induction l as [|x l IH]; intros fi F L; cbn.
  - exists None. split; [reflexivity|]. intros x [].
  - destruct fi as [|f fi]; [discriminate|]. inversion F as [|? ? Fx F']; subst.
    set (b := _ || _). assert (B : b = true <-> touches n x (c, (a, p))).
    { rewrite (touches_iff n x c a p Hj Hi Fx W). unfold b. rewrite orb_true_iff, !andb_true_iff, !Z.eqb_eq. reflexivity. }
    destruct b.
    + exists (Some f). split; [reflexivity|]. exists 0%nat, x. repeat split; auto. { now apply B. } intros j y Hjl. lia.
    + cbn [tl]. destruct (IH fi F' ltac:(cbn in L; lia)) as (r & E & R). exists r. split; [exact E|]. destruct r as [g|].
      * destruct R as (i & y & A1 & A2 & A3 & A4). exists (S i), y. repeat split; auto.
        intros [|j] z Hlt Hz; [injection Hz as <-; intros T; apply B in T; discriminate|]. apply (A4 j z); [lia|exact Hz].
      * intros y [<-|Hy]; [intros T; apply B in T; discriminate|now apply R].
Qed.
(** C69: the feature found for a cell face is the one of the first connection with that cell face on
    either side, and none is found only where there is no such connection. *)
Theorem C69_feature_of_cell_face : forall n l fi fl c a p, 0 < tj n -> 0 < ti n -> within n c ->
  Forall (link_ok n) l -> List.length fi = List.length l ->
  exists r, feature_index_for_cell_face n (Gcs l (Some fi) fl) c a p = Ok r /\
    match r with
    | None => forall x, In x l -> ~ touches n x (c, (a, p))
    | Some f => exists i x, nth_error l i = Some x /\ nth_error fi i = Some f /\ touches n x (c, (a, p)) /\
                forall j y, (j < i)%nat -> nth_error l j = Some y -> ~ touches n y (c, (a, p))
    end.
Proof. intros n l fi fl c a p Hj Hi W F L. unfold feature_index_for_cell_face. cbn [feature_indices links]. now apply first_match_spec. Qed.
Print Assumptions C69_feature_of_cell_face.
Example feature_example :
  feature_index_for_cell_face (T 1 2 2) (Gcs [Lk 0 1 3 5; Lk 1 3 4 2] (Some [4; 7]) None) (T 0 1 1) J false = Ok (Some 7) /\
  feature_index_for_cell_face (T 1 2 2) (Gcs [Lk 0 1 3 5; Lk 1 3 4 2] (Some [4; 7]) None) (T 0 1 1) J true = Ok None.
Proof. split; reflexivity. Qed.

(** C69: the columns reported for a set made from masks are those with a marked J (I) face in some layer *)
Theorem C69_kelp_of_masks : forall n kf jf i_f ks js is fs, exists sj si,
  simplified_sets_of_kelp n (set_pairs_from_face_masks n kf jf i_f ks js is fs) 0 = Ok (sj, si) /\
  (forall j i, In (j, i) sj <-> exists k, inner_face n J (T k j i) /\ marked jf (T k j i)) /\
  (forall j i, In (j, i) si <-> exists k, inner_face n I (T k j i) /\ marked i_f (T k j i)).
Proof.
  intros n kf jf i_f ks js is fs. destruct (C69_one_connection_per_marked_face n kf jf i_f ks js is fs) as (es & _ & M & E).
  unfold simplified_sets_of_kelp. rewrite (E (Some 0)) by auto. cbn [bind]. eexists _, _. split; [reflexivity|].
  rewrite flat_map_concat_map, map_map, <- flat_map_concat_map.
  assert (H : forall a c j i, In (a, c) es -> forall b, In (b, (j, i)) (let '(s, t) := (let '(a, c) := (a, c) in across a c (flipped (sides_of ks js is a) c)) in kelp_of_side s ++ kelp_of_side t)
     <-> b = a /\ a <> K /\ j = tj c /\ i = ti c).
  { intros a c j i Hin b. apply M in Hin. destruct Hin as [[W _] _]. specialize (W a). destruct c as [k0 j0 i0].
    destruct a, (flipped (sides_of ks js is _) _); cbn [across next kelp_of_side set get tk tj ti negb andb app];
      cbn [get tk tj ti] in W; repeat match goal with |- context [?x <? 0] => destruct (Z.ltb_spec x 0); [lia|] end;
      cbn [In app]; split; intros HH;
      repeat match goal with H : _ \/ _ |- _ => destruct H | H : False |- _ => destruct H | H : _ /\ _ |- _ => destruct H | H : (_, _) = (_, _) |- _ => injection H; clear H; intros end;
      subst; try congruence; try (repeat split; (congruence || lia)); left; do 2 f_equal; lia. }
  assert (H2 : forall b j i, In (j, i) (map snd (filter (axis_is b) (flat_map (fun x : axis * cell => let '(s, t) := (let '(a, c) := x in across a c (flipped (sides_of ks js is a) c)) in kelp_of_side s ++ kelp_of_side t) es)))
     <-> b <> K /\ exists k, inner_face n b (T k j i) /\ marked (sides_of kf jf i_f b) (T k j i)).
  { intros b j i. rewrite in_map_iff. split.
    - intros ((b' & (j' & i')) & [= -> ->] & Hf). apply filter_In in Hf. destruct Hf as [Hf Hb].
      assert (b' = b) by (destruct b, b'; cbn in Hb; congruence). subst b'.
      apply in_flat_map in Hf. destruct Hf as ((a & c) & Hac & Hx). apply (H a c) in Hx; [|assumption].
      destruct Hx as (-> & Ha & -> & ->). split; [assumption|]. exists (tk c). apply M in Hac. destruct c; exact Hac.
    - intros (Nb & k & HH). exists (b, (j, i)). split; [reflexivity|]. apply filter_In. split; [|now destruct b].
      apply in_flat_map. exists (b, T k j i). apply M in HH. split; [assumption|]. apply H; auto. }
  split; intros j i; rewrite H2; cbn [sides_of]; intuition congruence.
Qed.
Print Assumptions C69_kelp_of_masks.
(** C69: a set made from lists of column edges gives those column edges back *)
Theorem C69_kelp_round_trip : forall n kj ki fs, 0 < tk n ->
  (forall j i, In (j, i) kj -> 0 <= j < tj n - 1 /\ 0 <= i < ti n) ->
  (forall j i, In (j, i) ki -> 0 <= j < tj n /\ 0 <= i < ti n - 1) ->
  exists g sj si, set_pairs_from_kelp n kj ki fs = Ok g /\ simplified_sets_of_kelp n g 0 = Ok (sj, si) /\
    (forall p, In p sj <-> In p kj) /\ (forall p, In p si <-> In p ki).
Proof.
  intros n kj ki fs Hk Wj Wi.
  assert (H : forall a l, a <> K -> (forall j i, In (j, i) l -> inner_face n a (T 0 j i)) ->
    exists f, kelp_faces n a l = Ok f /\ forall j i, In (j, i) l <-> exists k, inner_face n a (T k j i) /\ marked f (T k j i)).
  { intros a l Na W. unfold kelp_faces. destruct l as [|p0 l0] eqn:El.
    - exists None. split; [reflexivity|]. intros j i. split; [intros []|intros (k & _ & [])].
    - rewrite <- El in *.
      assert (Hgt : 1 < get n a).
      { destruct p0 as [j i]. destruct (W j i) as [A B]; [rewrite El; now left|]. specialize (A a). specialize (B a). rewrite get_next in B. destruct (axis_dec a a); [lia|congruence]. }
      destruct (1 <? get n a) eqn:E1; [|lia].
      assert (Em : map_res (wrap_pair (tj (face_shape n a)) (ti (face_shape n a))) l = Ok (map (fun p => p) l)).
      { apply map_res_ok. intros [j i] Hp. specialize (W j i Hp). apply within_face_shape in W. pose proof (W J) as WJ. pose proof (W I) as WI. cbn in WJ, WI.
        unfold wrap_pair. cbn [fst snd]. rewrite !wrap_index_ok by assumption. reflexivity. }
      rewrite Em, map_id. cbn [bind]. eexists. split; [reflexivity|]. intros j i. cbn [marked tj ti]. split.
      + intros Hp. exists 0. split; [now apply W|now apply mem2_iff].
      + intros (k & _ & Hp). now apply mem2_iff in Hp. }
  destruct (H J kj ltac:(discriminate)) as (jf & Ej & Mj).
  { intros j i Hp. specialize (Wj j i Hp). split; intros []; cbn; lia. }
  destruct (H I ki ltac:(discriminate)) as (i_f & Ei & Mi).
  { intros j i Hp. specialize (Wi j i Hp). split; intros []; cbn; lia. }
  destruct (C69_kelp_of_masks n None jf i_f None None None fs) as (sj & si & E & Sj & Si).
  exists (set_pairs_from_face_masks n None jf i_f None None None fs), sj, si. unfold set_pairs_from_kelp. rewrite Ej, Ei. cbn [bind].
  split; [reflexivity|]. split; [exact E|]. split; intros [j i]; [rewrite Sj, Mj|rewrite Si, Mi]; reflexivity.
Qed.
Print Assumptions C69_kelp_round_trip.
Example kelp_example : exists g, set_pairs_from_kelp (T 2 3 3) [(1, 2)] [(0, 1)] [] = Ok g /\ List.length (links g) = 4%nat /\
  simplified_sets_of_kelp (T 2 3 3) g 0 = Ok ([(1, 2); (1, 2); (1, 2); (1, 2)], [(0, 1); (0, 1); (0, 1); (0, 1)]).
Proof. eexists. split; [vm_compute; reflexivity|]. split; reflexivity. Qed.

(** C69: reworking the faces keeps the cells of each connection, makes the faces face each other
    where the cells are in neighbouring columns, and changes nothing otherwise. *)
Theorem C69_rework_faces : forall n l fi fl r x, nth_error l r = Some x ->
  exists y, nth_error (links (rework_face_pairs n (Gcs l (Some fi) fl))) r = Some y /\ ca y = ca x /\ cb y = cb x /\
  let c := denatural n (ca x) in let d := denatural n (cb x) in
  (forall a, a <> K -> (forall b, b <> K -> get d b = get (next a c) b) -> fa y = face_index_map a true /\ fb y = face_index_map a false) /\
  (forall a, a <> K -> (forall b, b <> K -> get c b = get (next a d) b) -> fa y = face_index_map a false /\ fb y = face_index_map a true) /\
  ((forall a, a <> K -> ~ (forall b, b <> K -> get d b = get (next a c) b) /\ ~ (forall b, b <> K -> get c b = get (next a d) b)) -> y = x).
Proof.
  intros n l fi fl r x Hx. exists (rework_link n x). split; [cbn; now rewrite nth_error_map, Hx|].
  unfold rework_link. cbv zeta. set (c := denatural n (ca x)). set (d := denatural n (cb x)).
  assert (H : forall e f a, a <> K -> (forall b, b <> K -> get e b = get (next a f) b) <-> tj e = tj (next a f) /\ ti e = ti (next a f)).
  { intros e f a _. split; [intros HH; split; [apply (HH J)|apply (HH I)]; discriminate|intros [A B] [] N; cbn; auto; congruence]. }
  assert (HJ : J <> K) by discriminate. assert (HI : I <> K) by discriminate.
  clearbody c d. destruct c as [ck cj ci], d as [dk dj di]. cbn [tj ti].
  destruct (Z.eqb_spec cj dj); [destruct (Z.eqb_spec ci (di + 1)); [|destruct (Z.eqb_spec ci (di - 1))]|
    destruct (Z.eqb_spec ci di); [destruct (Z.eqb_spec cj (dj + 1)); [|destruct (Z.eqb_spec cj (dj - 1))]|]];
  cbn [ca cb fa fb]; (split; [reflexivity|split; [reflexivity|]]); (split; [|split]);
  try (intros [] Na; [congruence| |]; rewrite H by assumption; cbn; intros [? ?]; solve [split; reflexivity|lia]);
  try (intros Hn; exfalso; destruct (Hn J HJ) as [A1 A2], (Hn I HI) as [B1 B2]; rewrite H in A1, A2, B1, B2 by assumption; cbn in *;
       (apply A1; split; lia) || (apply A2; split; lia) || (apply B1; split; lia) || (apply B2; split; lia));
  try reflexivity.
  all: intros _; reflexivity.
Qed.
Print Assumptions C69_rework_faces.
Example rework_example : links (rework_face_pairs (T 2 2 2) (Gcs [Lk 0 5 0 0; Lk 7 1 0 1; Lk 0 4 1 0] (Some [0; 0; 0]) None))
  = [Lk 0 5 3 5; Lk 7 1 2 4; Lk 0 4 1 0].
Proof. vm_compute. reflexivity. Qed.
