(** BisectProofs4.v: faces given as indices; the whole functions. *)
From Coq Require Import Sorting.Permutation.
From Verif Require Import QBase BisectModel BisectProofs BisectProofs2 BisectProofs3.
Open Scope Z_scope.

Definition IndexSet (k_faces j_faces i_faces : face_list) (a : axis) (c : cell) : Prop :=
  exists l, pick k_faces j_faces i_faces a = Some l /\ In c l.
Definition valid_indices (n : trip Z) (k_faces j_faces i_faces : face_list) : Prop :=
  forall a c, IndexSet k_faces j_faces i_faces a c -> within (face_shape n a) c.

Definition Loose (n : trip Z) (P : cell -> Prop) (b : box) : Prop :=
  (forall x, 0 <= get (fst b) x /\ get (snd b) x < get n x) /\ forall c x, P c -> get (fst b) x <= get c x <= get (snd b) x.
Lemma index_bounds_loose n a f : f <> Some [] -> (forall l c, f = Some l -> In c l -> within (face_shape n a) c) ->
  exists ob, index_bounds f = Ok ob /\ (ob = None <-> f = None) /\ forall b, ob = Some b -> Loose n (fun c => exists l, f = Some l /\ In c l) b.
Proof.
  intros N V. destruct f as [[|c l]|]; [congruence| |].
  - set (w := c :: l) in *. assert (Nw : w <> []) by discriminate. change (index_bounds (Some w)) with (@Ok (option box) (Some (T (amin (map tk w)) (amin (map tj w)) (amin (map ti w)), T (amax (map tk w)) (amax (map tj w)) (amax (map ti w))))).
    clearbody w. set (lo := T (amin _) _ _). set (hi := T (amax _) _ _). exists (Some (lo, hi)). split; [reflexivity|]. split; [split; discriminate|].
    assert (HB : forall x, (forall y, In y w -> get lo x <= get y x <= get hi x) /\ (exists y, In y w /\ get lo x = get y x) /\ (exists y, In y w /\ get hi x = get y x)).
    { intros []; [apply (map_bound tk)|apply (map_bound tj)|apply (map_bound ti)]; assumption. }
    clearbody lo hi. intros b [= <-]. split; cbn [fst snd].
    + intros x. destruct (HB x) as (_ & (y & Hy & ->) & (z & Hz & ->)). pose proof (V w y eq_refl Hy x) as Vy. pose proof (V w z eq_refl Hz x) as Vz.
      rewrite get_face_shape in *. destruct (axis_dec a x); lia.
    + intros d x (l' & [= <-] & Hd). now apply HB.
  - exists None. split; [reflexivity|]. split; [tauto|discriminate].
Qed.
Lemma loose_update n P P' b ob : (forall x, 0 < get n x) -> Loose n P b -> (forall b', ob = Some b' -> Loose n P' b') -> (ob = None -> forall c, ~ P' c) ->
  Loose n (fun c => P c \/ P' c) (update_bounds b ob).
Proof.
  intros Hn [H1 H2] H3 H4. destruct ob as [[c0 c1]|]; cbn [update_bounds].
  - destruct (H3 _ eq_refl) as [H5 H6]. cbn [fst snd] in *. split; cbn [fst snd].
    + intros x. specialize (H1 x). specialize (H5 x). rewrite !get_zip3. lia.
    + intros c x [X|X]; rewrite !get_zip3; [specialize (H2 c x X)|specialize (H6 c x X)]; lia.
  - split; [exact H1|]. intros c x [X|X]; [auto|]. now apply H4 in X.
Qed.
Lemma indices_ready n kf jf ff : (forall x, 0 < get n x) -> (exists a c, IndexSet kf jf ff a c) -> valid_indices n kf jf ff ->
  (forall a, pick kf jf ff a <> Some []) ->
  exists b, get_boundary_from_indices kf jf ff n = Ok b /\ Ready n (fst b) (snd b) (IndexSet kf jf ff).
Proof.
  intros Hn (a0 & c0 & Hc0) V NE.
  assert (Q : forall a, exists ob, index_bounds (pick kf jf ff a) = Ok ob /\ (ob = None <-> pick kf jf ff a = None) /\ forall b, ob = Some b -> Loose n (IndexSet kf jf ff a) b).
  { intros a. apply (index_bounds_loose n a); [apply NE|]. intros l c E H. apply V. exists l. auto. }
  destruct (Q K) as (kb & EK & NK & LK). destruct (Q J) as (jb & EJ & NJ & LJ). destruct (Q I) as (ib & EI & NI & LI). cbn [pick] in *.
  unfold get_boundary_from_indices. rewrite EK, EJ, EI. cbn [bind].
  set (b1 := match kb with None => _ | Some b => b end).
  assert (L1 : Loose n (IndexSet kf jf ff K) b1).
  { unfold b1. destruct kb as [b|]; [now apply LK|]. split; cbn [fst snd].
    - intros x. specialize (Hn x). destruct x; cbn in *; lia.
    - intros c x (l & E & _). cbn [pick] in E. rewrite (proj1 NK eq_refl) in E. discriminate. }
  pose proof (loose_update n _ _ b1 jb Hn L1 LJ) as L2.
  assert (X2 : jb = None -> forall c, ~ IndexSet kf jf ff J c) by (intros E c (l & E' & _); cbn [pick] in E'; apply NJ in E; congruence).
  specialize (L2 X2). pose proof (loose_update n _ _ _ ib Hn L2 LI) as L3.
  assert (X3 : ib = None -> forall c, ~ IndexSet kf jf ff I c) by (intros E c (l & E' & _); cbn [pick] in E'; apply NI in E; congruence).
  specialize (L3 X3). set (b := update_bounds (update_bounds b1 jb) ib) in *. clearbody b. clear L1 L2 X2 X3 b1 Q.
  destruct L3 as [H1 H2]. assert (H3 : forall a c x, IndexSet kf jf ff a c -> get (fst b) x <= get c x <= get (snd b) x) by (intros a c x X; apply H2; destruct a; tauto).
  pose proof (fun x => H3 a0 c0 x Hc0) as H0.
  assert (A1 : all3 Z.leb (fst b) (snd b) = true) by (apply all3_iff; intros x; specialize (H0 x); lia). rewrite A1. cbn [assert_ bind].
  set (b0' := map3 _ (fst b)). set (b1' := zip3 Z.min _ n).
  assert (G0 : forall x, get b0' x = Z.max (get (fst b) x - 1) 0) by (intros x; apply get_map3).
  assert (G1 : forall x, get b1' x = Z.min (get (snd b) x + 2) (get n x)) by (intros x; unfold b1'; rewrite get_zip3, get_map3; reflexivity).
  assert (A2 : all3 Z.leb (T 0 0 0) b0' = true) by (apply all3_iff; intros x; rewrite G0; destruct x; cbn; lia).
  assert (A3 : all3 Z.ltb b0' b1' = true) by (apply all3_iff; intros x; rewrite G0, G1; specialize (H0 x); specialize (H1 x); lia).
  assert (A4 : all3 Z.leb b1' n = true) by (apply all3_iff; intros x; rewrite G1; lia).
  rewrite A2, A3, A4. cbn [assert_ bind]. exists (b0', b1'). split; [reflexivity|]. cbn [fst snd].
  repeat split.
  - rewrite G0. lia.
  - rewrite G0, G1. specialize (H0 a). specialize (H1 a). lia.
  - rewrite G1. lia.
  - rewrite G0. specialize (H3 _ _ a1 H). specialize (H1 a1). lia.
  - rewrite G1. specialize (H3 _ _ a1 H). specialize (H1 a1). lia.
  - rewrite G1. specialize (H3 _ _ a H). pose proof (V _ _ H a) as Va. rewrite get_face_shape in Va. destruct (axis_dec a a); [lia|congruence].
  - intros a c x H N. rewrite G0. specialize (H3 _ _ x H). lia.
  - intros a c x H N. rewrite G1. specialize (H3 _ _ x H). lia.
Qed.

(** ** counting *)
Lemma NoDup_indices n : NoDup (indices n).
Proof.
  unfold indices. 
  assert (ND : forall {A} (f : Z -> list A) l, NoDup l -> (forall x, NoDup (f x)) -> (forall x y e, In e (f x) -> In e (f y) -> x = y) -> NoDup (flat_map f l)).
  { intros A f l Hl H1 H2. induction Hl as [|x l Hx Hl IH]; cbn [flat_map]; [constructor|].
    assert (D : forall e, In e (f x) -> ~ In e (flat_map f l)).
    { intros e He X. apply in_flat_map in X. destruct X as (y & Hy & X). assert (x = y) by (eapply H2; eassumption). congruence. }
    specialize (H1 x). induction H1 as [|e r He Hr IHr]; [assumption|]. cbn [app]. constructor.
    - rewrite in_app_iff. intros [X|X]; [contradiction|]. apply (D e); [now left|assumption].
    - apply IHr. intros e' He'. apply D. now right. }
  apply ND; [apply NoDup_zrange| |].
  - intros k. apply ND; [apply NoDup_zrange| |].
    + intros j. apply NoDup_map_inj_in; [|apply NoDup_zrange]. intros x y _ _ E. congruence.
    + intros x y e H1 H2. apply in_map_iff in H1, H2. destruct H1 as (? & <- & _). destruct H2 as (? & E & _). congruence.
  - intros x y e H1 H2. apply in_flat_map in H1, H2. destruct H1 as (? & _ & H1). destruct H2 as (? & _ & H2).
    apply in_map_iff in H1, H2. destruct H1 as (? & <- & _). destruct H2 as (? & E & _). congruence.
Qed.
Lemma filter_split {A} (f : A -> bool) l : (List.length (filter f l) + List.length (filter (fun x => negb (f x)) l))%nat = List.length l.
Proof. induction l as [|x l IH]; [reflexivity|]. cbn [filter]. destruct (f x); cbn [negb List.length]; lia. Qed.

(** ** the result of bisect_box *)
Section Whole.
Variables (n : trip Z) (b : box) (F : axis -> cell -> Prop) (op : axis -> cell -> bool).
Hypothesis Hn : forall a, 0 < get n a.
Hypothesis HR : Ready n (fst b) (snd b) F.
Hypothesis Hop : forall a c, within (zip3 Z.sub (snd b) (fst b)) c -> within (zip3 Z.sub (snd b) (fst b)) (shift a 1 c) -> (op a c = true <-> ~ F a (zip3 Z.add c (fst b))).
Notation O := (T 0 0 0).
Notation G := (Conn (within n) F O).
Lemma whole : exists s, fill_bisector (S (Z.to_nat (size (zip3 Z.sub (snd b) (fst b))))) (zip3 Z.sub (snd b) (fst b)) (op K) (op J) (op I) [O] = Ok s /\
  forall c, within n c -> (whole_array n b s c = true <-> G c).
Proof.
  destruct HR as (H1 & H2 & H3 & H4). destruct b as [b0 b1]. cbn [fst snd] in *.
  apply (whole_iff n b0 b1 F H1 H2 H3 H4 op Hop).
Qed.
Lemma within_0 : within n O.
Proof. intros a. specialize (Hn a). destruct a; cbn in *; lia. Qed.
Lemma bisect_box_ok raw : (exists c, within n c /\ ~ G c) ->
  exists a0 , (forall c, within n c -> (a0 c = true <-> G c)) /\ bisect_box n b (op K) (op J) (op I) raw = Ok (shallow_or_curtain n a0 raw).
Proof.
  intros (c1 & Hc1 & N1). destruct whole as (s & E & H). exists (whole_array n b s). split; [exact H|]. unfold bisect_box. rewrite E. cbn [bind].
  set (f := whole_array n b s) in *. clearbody f.
  assert (L0 : (0 < List.length (filter f (indices n)))%nat).
  { assert (X : In O (filter f (indices n))) by (apply filter_In; split; [apply in_indices, within_0|apply H; [apply within_0|constructor; apply within_0]]).
    destruct (filter f (indices n)); [destruct X|cbn; lia]. }
  assert (L1 : (0 < List.length (filter (fun c => negb (f c)) (indices n)))%nat).
  { assert (X : In c1 (filter (fun c => negb (f c)) (indices n))).
    { apply filter_In. split; [now apply in_indices|]. apply negb_true_iff, not_true_iff_false. intros X. apply N1. now apply H. }
    destruct (filter (fun c => negb (f c)) (indices n)); [destruct X|cbn; lia]. }
  pose proof (filter_split f (indices n)) as L2. pose proof (size_indices n Hn) as L3.
  replace (_ && _) with true; [reflexivity|]. symmetry. apply andb_true_iff. split; apply Z.ltb_lt; lia.
Qed.
Lemma bisect_box_leaky raw : (forall c, within n c -> G c) -> bisect_box n b (op K) (op J) (op I) raw = Err AssertionError.
Proof.
  intros HA. destruct whole as (s & E & H). unfold bisect_box. rewrite E. cbn [bind].
  set (f := whole_array n b s) in *. clearbody f.
  assert (E' : filter f (indices n) = indices n).
  { assert (X : forall l, (forall c, In c l -> f c = true) -> filter f l = l).
    { induction l as [|c l IH]; intros X; [reflexivity|]. cbn [filter]. rewrite X by now left. f_equal. apply IH. intros. apply X. now right. }
    apply X. intros c Hc. apply in_indices in Hc. apply H; auto. }
  rewrite E'. pose proof (size_indices n Hn) as L3. replace (_ && _) with false; [reflexivity|]. symmetry. apply andb_false_iff. right. apply Z.ltb_ge.
  assert (0 <= size n). { unfold size. pose proof (Hn K). pose proof (Hn J). pose proof (Hn I). cbn in *. nia. } lia.
Qed.
End Whole.

(** ** the shallower side *)
Definition sum_k (l : list cell) : Z := fold_right Z.add 0 (map tk l).
Lemma sum_k1 l : fold_right Z.add 0 (map (fun c => tk c + 1) l) = sum_k l + Z.of_nat (List.length l).
Proof. unfold sum_k. induction l as [|c l IH]; [reflexivity|]. cbn [map fold_right List.length]. rewrite IH. lia. Qed.
Lemma Qdiv_same_plus (s m : Q) : (~ m == 0 -> (s + m) / m == s / m + 1)%Q.
Proof. intros H. field. exact H. Qed.
Lemma mean_k_eq l : l <> [] -> (mean_k l == inject_Z (sum_k l) / inject_Z (Z.of_nat (List.length l)) + 1)%Q.
Proof.
  intros N. unfold mean_k. rewrite sum_k1. rewrite inject_Z_plus. apply Qdiv_same_plus. intros X. destruct l; [congruence|]. cbn [List.length] in X.
  unfold Qeq in X. cbn in X. lia.
Qed.
Lemma perm_sum l l' : NoDup l -> NoDup l' -> (forall x, In x l <-> In x l') -> sum_k l = sum_k l' /\ List.length l = List.length l'.
Proof.
  intros H1 H2 H. assert (P : Permutation l l') by now apply NoDup_Permutation. clear H1 H2 H.
  induction P as [|x l l' P [IH IH']|x y l|l l2 l3 P1 [IH1 IH1'] P2 [IH2 IH2']]; unfold sum_k in *; cbn [map fold_right List.length]; lia.
Qed.
