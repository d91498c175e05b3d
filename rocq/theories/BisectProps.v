(** BisectProps.v: a set of faces divides the grid (C66). *)
From Verif Require Import QBase BisectModel BisectProofs BisectProofs2 BisectProofs3 BisectProofs4.
Open Scope Z_scope.

(** The statements use, from BisectProofs: [within n c] (c is a cell of a grid of extent n),
    [Conn R F s c] (a path from s to c through cells of R which crosses no face of F); and
    [FaceSet], [IndexSet]: the faces given as arrays or as lists of indices. *)
Definition origin : cell := T 0 0 0.
Definition extent_ok (n : trip Z) : Prop := forall a, 0 < get n a.
(** same side of the faces as cell (0, 0, 0) *)
Definition Side (n : trip Z) (F : axis -> cell -> Prop) (c : cell) : Prop := Conn (within n) F origin c.
(** the lists hold the cells of the grid for which a is True and False *)
Definition sides_of (n : trip Z) (a : cell -> bool) (t f : list cell) : Prop :=
  NoDup t /\ NoDup f /\ (forall c, In c t <-> within n c /\ a c = true) /\ (forall c, In c f <-> within n c /\ a c = false).

Lemma faces_open n kf jf ff b a c : Ready n (fst b) (snd b) (FaceSet n kf jf ff) ->
  within (zip3 Z.sub (snd b) (fst b)) c -> within (zip3 Z.sub (snd b) (fst b)) (shift a 1 c) ->
  (match pick kf jf ff a with None => true | Some f => negb (f (zip3 Z.add c (fst b))) end = true <-> ~ FaceSet n kf jf ff a (zip3 Z.add c (fst b))).
Proof.
  intros (HR & _) H1 H2. unfold FaceSet. destruct (pick kf jf ff a) as [f|] eqn:E.
  - rewrite negb_true_iff. split.
    + intros X (_ & g & [= <-] & Y). congruence.
    + intros X. apply not_true_iff_false. intros Y. apply X. split; [|eauto].
      intros x. rewrite get_face_shape, get_zip3. specialize (H1 x). specialize (H2 x). rewrite get_shift, get_zip3 in H2. rewrite get_zip3 in H1.
      specialize (HR x). destruct (axis_dec a x) as [->|]; lia.
  - split; [intros _ (_ & g & X & _); discriminate|reflexivity].
Qed.
Lemma lists_open kf jf ff b a c : (negb (mem c (box_faces b (pick kf jf ff a))) = true <-> ~ IndexSet kf jf ff a (zip3 Z.add c (fst b))).
Proof.
  rewrite negb_true_iff, mem_false. unfold IndexSet, box_faces. destruct (pick kf jf ff a) as [l|].
  - rewrite in_map_iff. split.
    + intros X (l' & [= <-] & Y). apply X. exists (zip3 Z.add c (fst b)). split; [apply cell_ext; intros x; rewrite !get_zip3; lia|assumption].
    + intros X (d & <- & Y). apply X. exists l. split; [reflexivity|]. replace (zip3 Z.add _ _) with d; [assumption|]. apply cell_ext. intros x. rewrite !get_zip3. lia.
  - split; [intros _ (l & X & _); discriminate|easy].
Qed.

Lemma faces_raw n kf jf ff raw : extent_ok n -> (exists a c, FaceSet n kf jf ff a c) -> (exists c, within n c /\ ~ Side n (FaceSet n kf jf ff) c) ->
  exists a0, (forall c, within n c -> (a0 c = true <-> Side n (FaceSet n kf jf ff) c)) /\
    bisector_from_faces n kf jf ff raw = Ok (shallow_or_curtain n a0 raw).
Proof.
  intros Hn HF Hex. pose proof (get_boundary_ready n kf jf ff HF) as HR. cbn zeta in HR.
  apply (bisect_box_ok n _ _ (fun a c => match pick kf jf ff a with None => true | Some f => negb (f (zip3 Z.add c (fst (get_boundary kf jf ff n)))) end) Hn HR); [|exact Hex].
  intros a c H1 H2. now apply faces_open.
Qed.
Lemma lists_raw n kf jf ff raw : extent_ok n -> valid_indices n kf jf ff -> (forall a, pick kf jf ff a <> Some []) ->
  (exists c, within n c /\ ~ Side n (IndexSet kf jf ff) c) -> (exists a c, IndexSet kf jf ff a c) ->
  exists a0, (forall c, within n c -> (a0 c = true <-> Side n (IndexSet kf jf ff) c)) /\
    bisector_from_face_indices n kf jf ff raw = Ok (shallow_or_curtain n a0 raw).
Proof.
  intros Hn HV HE Hex HF. destruct (indices_ready n kf jf ff Hn HF HV HE) as (b & E & HR).
  unfold bisector_from_face_indices. rewrite E. cbn [bind].
  apply (bisect_box_ok n b _ (fun a c => negb (mem c (box_faces b (pick kf jf ff a)))) Hn HR); [|exact Hex].
  intros a c _ _. apply lists_open.
Qed.
(** a divided grid has a face *)
Lemma brick_all n F : extent_ok n -> (forall a c, ~ F a c) -> forall c, within n c -> Side n F c.
Proof.
  intros Hn NF c Hc. apply (brick_conn _ _ origin n); auto.
  - intros d Hd a. specialize (Hd a). destruct a; cbn in *; lia.
  - intros a. specialize (Hn a). destruct a; cbn in *; lia.
  - intros a. specialize (Hc a). destruct a; cbn in *; lia.
Qed.

(** ** Faces given as arrays: the raw bisector is the side of cell (0, 0, 0) *)
Theorem C66_bisector_from_faces n kf jf ff : extent_ok n -> (exists a c, FaceSet n kf jf ff a c) ->
  (exists c, within n c /\ ~ Side n (FaceSet n kf jf ff) c) ->
  exists a curtain, bisector_from_faces n kf jf ff true = Ok (a, curtain) /\
    forall c, within n c -> (a c = true <-> Side n (FaceSet n kf jf ff) c).
Proof.
  intros Hn HF Hex. destruct (faces_raw n kf jf ff true Hn HF Hex) as (a0 & H & E). rewrite E. unfold shallow_or_curtain. rewrite andb_false_r. eauto.
Qed.
Print Assumptions C66_bisector_from_faces.
Lemma faces_dec n kf jf ff : (exists a c, FaceSet n kf jf ff a c) \/ forall a c, ~ FaceSet n kf jf ff a c.
Proof.
  destruct (one_dec n K kf) as [(c & D)|D1]; [left; exists K, c; exact D|]. destruct (one_dec n J jf) as [(c & D)|D2]; [left; exists J, c; exact D|].
  destruct (one_dec n I ff) as [(c & D)|D3]; [left; exists I, c; exact D|]. right. intros [] c X; [apply D1|apply D2|apply D3]; exists c; exact X.
Qed.
(** Otherwise there is an error, never a wrong array. *)
Theorem C66_leaky_faces n kf jf ff raw : extent_ok n -> (forall c, within n c -> Side n (FaceSet n kf jf ff) c) ->
  bisector_from_faces n kf jf ff raw = Err AssertionError.
Proof.
  intros Hn HA.
  destruct (faces_dec n kf jf ff) as [HF|NF].
  - pose proof (get_boundary_ready n kf jf ff HF) as HR. cbn zeta in HR.
    apply (bisect_box_leaky n _ _ (fun a c => match pick kf jf ff a with None => true | Some f => negb (f (zip3 Z.add c (fst (get_boundary kf jf ff n)))) end) Hn HR); [|exact HA].
    intros a c H1 H2. now apply faces_open.
  - assert (EB : get_boundary kf jf ff n = (T 0 0 0, T 1 1 1)).
    { assert (E : forall a, one_bounds n a (pick kf jf ff a) = None) by (intros a; apply one_none; intros (c & X); exact (NF a c X)).
      pose proof (E K) as E1. pose proof (E J) as E2. pose proof (E I) as E3. cbn [pick] in *. unfold one_bounds in *. unfold get_boundary. rewrite E1, E2, E3. reflexivity. }
    unfold bisector_from_faces. rewrite EB.
    apply (bisect_box_leaky n (T 0 0 0, T 1 1 1) (FaceSet n kf jf ff) (fun a c => match pick kf jf ff a with None => true | Some f => negb (f (zip3 Z.add c (T 0 0 0))) end) Hn); [| |exact HA].
    + split; [|split; [|split]]; cbn [fst snd].
      * intros a. specialize (Hn a). destruct a; cbn in *; lia.
      * intros a c X. now apply NF in X.
      * intros a c x X. now apply NF in X.
      * intros a c x X. now apply NF in X.
    + intros a c H1 H2. exfalso. specialize (H2 a). rewrite get_shift in H2. destruct (axis_dec a a); [|congruence]. specialize (H1 a). destruct a; cbn in *; lia.
Qed.
Print Assumptions C66_leaky_faces.

(** ** Faces given as indices *)
Theorem C66_bisector_from_face_indices n kf jf ff : extent_ok n -> valid_indices n kf jf ff -> (forall a, pick kf jf ff a <> Some []) ->
  (exists c, within n c /\ ~ Side n (IndexSet kf jf ff) c) ->
  exists a curtain, bisector_from_face_indices n kf jf ff true = Ok (a, curtain) /\
    forall c, within n c -> (a c = true <-> Side n (IndexSet kf jf ff) c).
Proof.
  intros Hn HV HE Hex.
  assert (HF : exists a c, IndexSet kf jf ff a c).
  { destruct kf as [[|c l]|]; [now destruct (HE K)|exists K, c, (c :: l); split; [reflexivity|now left]|].
    destruct jf as [[|c l]|]; [now destruct (HE J)|exists J, c, (c :: l); split; [reflexivity|now left]|].
    destruct ff as [[|c l]|]; [now destruct (HE I)|exists I, c, (c :: l); split; [reflexivity|now left]|].
    exfalso. destruct Hex as (c & Hc & X). apply X. apply brick_all; auto. intros [] d (l & Y & _); discriminate. }
  destruct (lists_raw n kf jf ff true Hn HV HE Hex HF) as (a0 & H & E). rewrite E. unfold shallow_or_curtain. rewrite andb_false_r. eauto.
Qed.
Print Assumptions C66_bisector_from_face_indices.
Theorem C66_leaky_indices n kf jf ff raw : extent_ok n -> valid_indices n kf jf ff -> (forall a, pick kf jf ff a <> Some []) ->
  (forall c, within n c -> Side n (IndexSet kf jf ff) c) -> bisector_from_face_indices n kf jf ff raw = Err AssertionError.
Proof.
  intros Hn HV HE HA. assert (D : (exists a c, IndexSet kf jf ff a c) \/ (kf = None /\ jf = None /\ ff = None)).
  { destruct kf as [[|c l]|]; [now destruct (HE K)|left; exists K, c, (c :: l); split; [reflexivity|now left]|].
    destruct jf as [[|c l]|]; [now destruct (HE J)|left; exists J, c, (c :: l); split; [reflexivity|now left]|].
    destruct ff as [[|c l]|]; [now destruct (HE I)|left; exists I, c, (c :: l); split; [reflexivity|now left]|]. auto. }
  destruct D as [HF|(-> & -> & ->)].
  - destruct (indices_ready n kf jf ff Hn HF HV HE) as (b & E & HR). unfold bisector_from_face_indices. rewrite E. cbn [bind].
    apply (bisect_box_leaky n b _ (fun a c => negb (mem c (box_faces b (pick kf jf ff a)))) Hn HR); [|exact HA].
    intros a c _ _. apply lists_open.
  - unfold bisector_from_face_indices, get_boundary_from_indices. cbn [index_bounds bind update_bounds fst snd].
    replace (all3 Z.leb n (T (-1) (-1) (-1))) with false; [reflexivity|]. symmetry. apply not_true_iff_false. rewrite all3_iff. intros X.
    specialize (X K). specialize (Hn K). cbn in *. lia.
Qed.
Print Assumptions C66_leaky_indices.
(** An axis without faces must be given as None: an empty index array stops the function. *)
Theorem C66_empty_index_array_refuted : exists n kf jf, extent_ok n /\ valid_indices n kf (Some []) jf /\
  (exists c, within n c /\ ~ Side n (IndexSet kf (Some []) jf) c) /\ bisector_from_face_indices n kf (Some []) jf true = Err ValueError.
Proof.
  exists (T 2 1 1), (Some [T 0 0 0]), None. split; [intros []; cbn; lia|]. split.
  { intros [] c (l & E & H); cbn in E; [|injection E as <-; destruct H|discriminate]. injection E as <-. destruct H as [<-|[]]. intros []; cbn; lia. }
  split; [|reflexivity]. exists (T 1 0 0). split; [intros []; cbn; lia|]. intros X.
  assert (Q : forall c, Side (T 2 1 1) (IndexSet (Some [T 0 0 0]) (Some []) None) c -> tk c = 0); [|apply Q in X; discriminate].
  induction 1 as [H|c a H IH H1 H2|c a H IH H1 H2]; [reflexivity| |].
  - pose proof (conn_in _ _ _ _ H) as Wc. destruct a; [|exact IH|exact IH]. exfalso. apply H2. exists [T 0 0 0]. split; [reflexivity|]. left.
    apply cell_ext. intros x. specialize (Wc x). destruct x; cbn in *; lia.
  - destruct a; [|exact IH|exact IH]. specialize (H1 K). cbn in *. lia.
Qed.
Print Assumptions C66_empty_index_array_refuted.

(** ** The default bisector is the shallower side *)
Lemma shallow_spec n a0 raw t f : sides_of n a0 t f -> t <> [] -> f <> [] ->
  let '(a, curtain) := shallow_or_curtain n a0 raw in
  (a = a0 \/ (raw = false /\ forall c, a c = negb (a0 c))) /\
  (raw = false -> a = a0 -> sum_k t * Z.of_nat (List.length f) <= sum_k f * Z.of_nat (List.length t)) /\
  (raw = false -> a <> a0 -> sum_k f * Z.of_nat (List.length t) < sum_k t * Z.of_nat (List.length f)) /\
  (curtain = true <-> Z.abs (sum_k t * Z.of_nat (List.length f) - sum_k f * Z.of_nat (List.length t)) * 1000 <= Z.of_nat (List.length t) * Z.of_nat (List.length f)).
Proof.
  intros (N1 & N2 & H1 & H2) T1 F1. unfold shallow_or_curtain.
  set (lt := filter a0 (indices n)). set (lf := filter (fun c => negb (a0 c)) (indices n)).
  destruct (perm_sum t lt N1) as [St Lt]; [apply NoDup_filter, NoDup_indices|intros x; unfold lt; rewrite filter_In, in_indices; apply H1|].
  destruct (perm_sum f lf N2) as [Sf Lf]; [apply NoDup_filter, NoDup_indices|intros x; unfold lf; rewrite filter_In, in_indices, negb_true_iff; apply H2|].
  assert (Nt : lt <> []) by (intros X; rewrite X in Lt; destruct t; [congruence|discriminate]).
  assert (Nf : lf <> []) by (intros X; rewrite X in Lf; destruct f; [congruence|discriminate]).
  pose proof (mean_k_eq lt Nt) as Mt. pose proof (mean_k_eq lf Nf) as Mf. rewrite <- St, <- Lt in Mt. rewrite <- Sf, <- Lf in Mf.
  set (mt := mean_k lt) in *. set (mf := mean_k lf) in *. clearbody mt mf. clear lt lf St Lt Sf Lf Nt Nf H1 H2 N1 N2.
  assert (P : (0 < List.length t)%nat) by (destruct t; [congruence|cbn; lia]). assert (P' : (0 < List.length f)%nat) by (destruct f; [congruence|cbn; lia]).
  set (p := Z.of_nat (List.length t)) in *. set (q := Z.of_nat (List.length f)) in *. assert (Pp : 0 < p) by lia. assert (Pq : 0 < q) by lia. clearbody p q. clear P P' T1 F1.
  set (u := sum_k t) in *. set (v := sum_k f) in *. clearbody u v.
  assert (D : (mt - mf == inject_Z (u * q - v * p) / inject_Z (p * q))%Q).
  { rewrite Mt, Mf. unfold Z.sub. rewrite inject_Z_plus, inject_Z_opp, !inject_Z_mult. field. split; intros X; unfold Qeq in X; cbn in X; lia. }
  assert (PQ : (0 < inject_Z (p * q))%Q) by (rewrite <- Zlt_Qlt with (x := 0); nia).
  assert (LT : Qltb mf mt = true <-> v * p < u * q).
  { rewrite Qltb_iff. split.
    - intros X. assert (Y : (0 < inject_Z (u * q - v * p) / inject_Z (p * q))%Q) by (rewrite <- D; lra).
      apply Qlt_div_mult in Y; [|assumption]. rewrite Qmult_0_l in Y. rewrite <- Zlt_Qlt with (x := 0) in Y. lia.
    - intros X. assert (Y : (0 < inject_Z (u * q - v * p) / inject_Z (p * q))%Q); [|rewrite <- D in Y; lra].
      apply Qlt_div_mult; [assumption|]. rewrite Qmult_0_l. rewrite <- Zlt_Qlt with (x := 0). lia. }
  assert (LE : Qle_bool (mt - mf) (1 # 1000) = true <-> (u * q - v * p) * 1000 <= p * q).
  { rewrite Qle_bool_iff, D. split; intros X.
    - apply (Qdiv_mult_le _ _ _ PQ) in X. unfold Qle in X; cbn [Qnum Qden inject_Z Qmult] in X; rewrite ?Pos.mul_1_r, ?Z.mul_1_r, ?Z.mul_1_l in X; lia.
    - apply Qdiv_mult_le; [assumption|]. unfold Qle; cbn [Qnum Qden inject_Z Qmult]; rewrite ?Pos.mul_1_r, ?Z.mul_1_r, ?Z.mul_1_l; lia. }
  assert (LE' : Qle_bool (mf - mt) (1 # 1000) = true <-> (v * p - u * q) * 1000 <= p * q).
  { rewrite Qle_bool_iff. assert (D' : (mf - mt == inject_Z (v * p - u * q) / inject_Z (p * q))%Q).
    { setoid_replace (mf - mt)%Q with (- (mt - mf))%Q by ring. rewrite D. unfold Z.sub. rewrite !inject_Z_plus, !inject_Z_opp. field. intros X; unfold Qeq in X; cbn in X; lia. }
    rewrite D'. split; intros X.
    - apply (Qdiv_mult_le _ _ _ PQ) in X. unfold Qle in X; cbn [Qnum Qden inject_Z Qmult] in X; rewrite ?Pos.mul_1_r, ?Z.mul_1_r, ?Z.mul_1_l in X; lia.
    - apply Qdiv_mult_le; [assumption|]. unfold Qle; cbn [Qnum Qden inject_Z Qmult]; rewrite ?Pos.mul_1_r, ?Z.mul_1_r, ?Z.mul_1_l; lia. }
  split; [|split; [|split]].
  - destruct (Qltb mf mt && negb raw) eqn:E; [|now left]. right. apply andb_true_iff in E. destruct E as [_ E]. apply negb_true_iff in E. auto.
  - intros -> E. destruct (Qltb mf mt) eqn:L; cbn [andb negb] in E; [|assert (~ v * p < u * q) by (rewrite <- LT; congruence); lia].
    exfalso. assert (E' : negb (a0 origin) = a0 origin) by exact (f_equal (fun g => g origin) E). destruct (a0 origin); discriminate.
  - intros -> E. destruct (Qltb mf mt) eqn:L; cbn [andb negb] in E; [now apply LT|congruence].
  - rewrite andb_true_iff, LE, LE'. lia.
Qed.
(** what it is for one side to be shallower on average: total depth over number of cells *)
Definition no_deeper (t f : list cell) : Prop := sum_k t * Z.of_nat (List.length f) <= sum_k f * Z.of_nat (List.length t).
Definition level (t f : list cell) : Prop :=
  Z.abs (sum_k t * Z.of_nat (List.length f) - sum_k f * Z.of_nat (List.length t)) * 1000 <= Z.of_nat (List.length t) * Z.of_nat (List.length f).
Lemma sides_exist n a : sides_of n a (filter a (indices n)) (filter (fun c => negb (a c)) (indices n)).
Proof.
  split; [apply NoDup_filter, NoDup_indices|]. split; [apply NoDup_filter, NoDup_indices|].
  split; intros c; rewrite filter_In, in_indices, ?negb_true_iff; reflexivity.
Qed.
Lemma origin_in n : extent_ok n -> within n origin.
Proof. intros Hn a. specialize (Hn a). destruct a; cbn in *; lia. Qed.
Lemma shallow_side n F a0 a curtain t f : extent_ok n -> (exists c, within n c /\ ~ Side n F c) ->
  (forall c, within n c -> (a0 c = true <-> Side n F c)) -> shallow_or_curtain n a0 false = (a, curtain) -> sides_of n a t f ->
  ((forall c, within n c -> (a c = true <-> Side n F c)) \/ (forall c, within n c -> (a c = true <-> ~ Side n F c))) /\
  no_deeper t f /\ (curtain = true <-> level t f).
Proof.
  intros Hn (c1 & Hc1 & N1) H E HS. pose proof (sides_exist n a0) as S0. set (t0 := filter a0 (indices n)) in *. set (f0 := filter (fun c => negb (a0 c)) (indices n)) in *.
  destruct (S0) as (NT & NF' & IT & IF').
  assert (T0 : t0 <> []). { intros X. assert (Y : In origin t0); [|rewrite X in Y; destruct Y]. apply IT. split; [now apply origin_in|]. apply H; [now apply origin_in|]. constructor. now apply origin_in. }
  assert (F0 : f0 <> []). { intros X. assert (Y : In c1 f0); [|rewrite X in Y; destruct Y]. apply IF'. split; [assumption|]. apply not_true_iff_false. intros Y. apply N1. now apply H. }
  pose proof (shallow_spec n a0 false t0 f0 S0 T0 F0) as SP. rewrite E in SP. destruct SP as (A & B & C & D).
  destruct HS as (N1' & N2' & H1 & H2).
  destruct A as [->|[_ A]].
  - destruct (perm_sum t t0 N1' NT) as [Et Lt]; [intros x; rewrite H1; symmetry; apply IT|].
    destruct (perm_sum f f0 N2' NF') as [Ef Lf]; [intros x; rewrite H2; symmetry; apply IF'|].
    split; [now left|]. unfold no_deeper, level. rewrite Et, Ef, Lt, Lf. split; [now apply B|exact D].
  - assert (NE : a <> a0). { intros ->. specialize (A origin). destruct (a0 origin); discriminate. }
    destruct (perm_sum t f0 N1' NF') as [Et Lt]; [intros x; rewrite H1; rewrite IF', A, negb_true_iff; reflexivity|].
    destruct (perm_sum f t0 N2' NT) as [Ef Lf]; [intros x; rewrite H2; rewrite IT, A, negb_false_iff; reflexivity|].
    split; [right; intros c Hc; rewrite A, negb_true_iff; rewrite <- (H c Hc); destruct (a0 c); split; congruence|].
    unfold no_deeper, level. rewrite Et, Ef, Lt, Lf. split; [specialize (C eq_refl NE); lia|]. rewrite D. lia.
Qed.
Theorem C66_shallow_side_of_faces n kf jf ff : extent_ok n -> (exists a c, FaceSet n kf jf ff a c) -> (exists c, within n c /\ ~ Side n (FaceSet n kf jf ff) c) ->
  exists a curtain, bisector_from_faces n kf jf ff false = Ok (a, curtain) /\ forall t f, sides_of n a t f ->
  ((forall c, within n c -> (a c = true <-> Side n (FaceSet n kf jf ff) c)) \/ (forall c, within n c -> (a c = true <-> ~ Side n (FaceSet n kf jf ff) c))) /\
  no_deeper t f /\ (curtain = true <-> level t f).
Proof.
  intros Hn HF Hex. destruct (faces_raw n kf jf ff false Hn HF Hex) as (a0 & H & E). rewrite E.
  destruct (shallow_or_curtain n a0 false) as [a curtain] eqn:ES. exists a, curtain. split; [reflexivity|]. intros t f HS.
  eapply shallow_side; eassumption.
Qed.
Print Assumptions C66_shallow_side_of_faces.
Theorem C66_shallow_side_of_indices n kf jf ff : extent_ok n -> valid_indices n kf jf ff -> (forall a, pick kf jf ff a <> Some []) ->
  (exists a c, IndexSet kf jf ff a c) -> (exists c, within n c /\ ~ Side n (IndexSet kf jf ff) c) ->
  exists a curtain, bisector_from_face_indices n kf jf ff false = Ok (a, curtain) /\ forall t f, sides_of n a t f ->
  ((forall c, within n c -> (a c = true <-> Side n (IndexSet kf jf ff) c)) \/ (forall c, within n c -> (a c = true <-> ~ Side n (IndexSet kf jf ff) c))) /\
  no_deeper t f /\ (curtain = true <-> level t f).
Proof.
  intros Hn HV HE HF Hex. destruct (lists_raw n kf jf ff false Hn HV HE Hex HF) as (a0 & H & E). rewrite E.
  destruct (shallow_or_curtain n a0 false) as [a curtain] eqn:ES. exists a, curtain. split; [reflexivity|]. intros t f HS.
  eapply shallow_side; eassumption.
Qed.
Print Assumptions C66_shallow_side_of_indices.
(** a stepped surface in a 3 x 2 x 3 grid: below layer 0 for i < 1 and below layer 1 beyond; by indices and by arrays *)
Definition demo_k : list cell := [T 0 0 0; T 0 1 0; T 1 0 1; T 1 0 2; T 1 1 1; T 1 1 2].
Definition demo_i : list cell := [T 1 0 0; T 1 1 0].
Example C66_example : (do r <- bisector_from_face_indices (T 3 2 3) (Some demo_k) None (Some demo_i) true; Ok (filter (fst r) (indices (T 3 2 3)), snd r)) =
    Ok ([T 0 0 0; T 0 0 1; T 0 0 2; T 0 1 0; T 0 1 1; T 0 1 2; T 1 0 1; T 1 0 2; T 1 1 1; T 1 1 2], false) /\
  (do r <- bisector_from_faces (T 3 2 3) (Some (fun c => mem c demo_k)) None (Some (fun c => mem c demo_i)) true; Ok (filter (fst r) (indices (T 3 2 3)), snd r)) =
    Ok ([T 0 0 0; T 0 0 1; T 0 0 2; T 0 1 0; T 0 1 1; T 0 1 2; T 1 0 1; T 1 0 2; T 1 1 1; T 1 1 2], false) /\
  bisector_from_face_indices (T 3 2 3) (Some demo_k) None None true = Err AssertionError.
Proof. split; [vm_compute; reflexivity|]. split; vm_compute; reflexivity. Qed.
