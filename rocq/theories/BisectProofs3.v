(** BisectProofs3.v: the bounding boxes meet the conditions of BisectProofs2; the whole functions. *)
From Coq Require Import Sorting.Sorted.
From Verif Require Import QBase BisectModel BisectProofs BisectProofs2.
Open Scope Z_scope.

Lemma fold_min l : forall x, let m := fold_left Z.min l x in (m = x \/ In m l) /\ m <= x /\ forall y, In y l -> m <= y.
Proof.
  induction l as [|z l IH]; intros x; cbn [fold_left]; [repeat split; auto; [lia|easy]|].
  destruct (IH (Z.min x z)) as (A & B & C). cbn zeta in *. repeat split.
  - destruct A as [A|A]; [|right; now right]. rewrite A. destruct (Z.min_spec x z) as [[_ E]|[_ E]]; rewrite E; [now left|right; now left].
  - lia.
  - intros y [<-|Hy]; [lia|auto].
Qed.
Lemma fold_max l : forall x, let m := fold_left Z.max l x in (m = x \/ In m l) /\ x <= m /\ forall y, In y l -> y <= m.
Proof.
  induction l as [|z l IH]; intros x; cbn [fold_left]; [repeat split; auto; [lia|easy]|].
  destruct (IH (Z.max x z)) as (A & B & C). cbn zeta in *. repeat split.
  - destruct A as [A|A]; [|right; now right]. rewrite A. destruct (Z.max_spec x z) as [[_ E]|[_ E]]; rewrite E; [right; now left|now left].
  - lia.
  - intros y [<-|Hy]; [lia|auto].
Qed.
Lemma amin_spec l : l <> [] -> In (amin l) l /\ forall y, In y l -> amin l <= y.
Proof.
  destruct l as [|x l]; [congruence|]. intros _. unfold amin. destruct (fold_min l x) as (A & B & C). split.
  - destruct A as [A|A]; [rewrite A; now left|now right].
  - intros y [<-|Hy]; auto.
Qed.
Lemma amax_spec l : l <> [] -> In (amax l) l /\ forall y, In y l -> y <= amax l.
Proof.
  destruct l as [|x l]; [congruence|]. intros _. unfold amax. destruct (fold_max l x) as (A & B & C). split.
  - destruct A as [A|A]; [rewrite A; now left|now right].
  - intros y [<-|Hy]; auto.
Qed.

(** lo and hi are the exact bounds of the cells of w *)
Definition Bounds (w : list cell) (lo hi : trip Z) : Prop :=
  forall a, (forall x, In x w -> get lo a <= get x a <= get hi a) /\ (exists x, In x w /\ get lo a = get x a) /\ (exists x, In x w /\ get hi a = get x a).
Lemma map_bound (g : cell -> Z) w : w <> [] ->
  (forall x, In x w -> amin (map g w) <= g x <= amax (map g w)) /\ (exists x, In x w /\ amin (map g w) = g x) /\ (exists x, In x w /\ amax (map g w) = g x).
Proof.
  intros N. assert (N' : map g w <> []) by (destruct w; [congruence|discriminate]).
  destruct (amin_spec _ N') as [A B]. destruct (amax_spec _ N') as [C D].
  apply in_map_iff in A, C. destruct A as (x & E & Hx). destruct C as (y & E' & Hy). repeat split.
  - apply B. now apply in_map.
  - apply D. now apply in_map.
  - eauto.
  - eauto.
Qed.

(** natural order *)
Definition kle (c d : cell) : Prop := tk c <= tk d.
Lemma sorted_app {A} (R : A -> A -> Prop) l1 l2 : StronglySorted R l1 -> StronglySorted R l2 -> (forall x y, In x l1 -> In y l2 -> R x y) -> StronglySorted R (l1 ++ l2).
Proof.
  intros H1 H2 H. induction H1 as [|x l1 H1 IH F]; [assumption|]. cbn [app]. constructor.
  - apply IH. intros. apply H; [now right|assumption].
  - apply Forall_app. split; [assumption|]. apply Forall_forall. intros y Hy. apply H; [now left|assumption].
Qed.
Lemma sorted_indices n : StronglySorted kle (indices n).
Proof.
  unfold indices. set (f := fun k => flat_map _ _).
  assert (Hf : forall k x, In x (f k) -> tk x = k).
  { intros k x Hx. unfold f in Hx. apply in_flat_map in Hx. destruct Hx as (j & _ & Hx). apply in_map_iff in Hx. destruct Hx as (i & <- & _). reflexivity. }
  assert (S1 : StronglySorted Z.lt (zrange (tk n))).
  { unfold zrange. generalize 0%nat. induction (Z.to_nat (tk n)) as [|m IH]; intros s; cbn [seq map]; constructor; [apply IH|].
    apply Forall_forall. intros x Hx. apply in_map_iff in Hx. destruct Hx as (y & <- & Hy). apply in_seq in Hy. lia. }
  clearbody f. induction S1 as [|k l S1 IH F]; cbn [flat_map]; [constructor|]. apply sorted_app; [|exact IH|].
  - specialize (Hf k). induction (f k) as [|x r IHr]; constructor; [apply IHr; intros; apply Hf; now right|].
    apply Forall_forall. intros y Hy. unfold kle. rewrite (Hf x), (Hf y); [lia|now right|now left].
  - intros x y Hx Hy. apply in_flat_map in Hy. destruct Hy as (k' & Hk & Hy). rewrite Forall_forall in F. specialize (F _ Hk). unfold kle. rewrite (Hf _ _ Hx), (Hf _ _ Hy). lia.
Qed.
Lemma sorted_filter {A} (R : A -> A -> Prop) f l : StronglySorted R l -> StronglySorted R (filter f l).
Proof.
  induction 1 as [|x l H IH F]; cbn [filter]; [constructor|]. destruct (f x); [|assumption]. constructor; [assumption|].
  rewrite Forall_forall in *. intros y Hy. apply F. now apply filter_In in Hy.
Qed.
Lemma sorted_last (l : list cell) : forall c, StronglySorted kle l -> l <> [] -> In (last l c) l /\ forall x, In x l -> kle x (last l c).
Proof.
  induction l as [|y l IH]; intros c H N; [congruence|]. inversion H as [|? ? H1 H2]; subst. destruct l as [|z l].
  - cbn. split; [now left|]. intros x [<-|[]]. unfold kle. lia.
  - change (last (y :: z :: l) c) with (last (z :: l) c). destruct (IH c H1 ltac:(discriminate)) as [A B]. split; [now right|].
    intros x [<-|Hx]; [|auto]. rewrite Forall_forall in H2. now apply H2.
Qed.
(** the bounds of one set of faces, before and after widening *)
Lemma face_bounds_ok n a f w : w = where_true n a f -> w <> [] ->
  exists lo hi, Bounds w lo hi /\
    face_bounds n a w = Some (T (widen_min n a K (tk lo)) (widen_min n a J (tj lo)) (widen_min n a I (ti lo)),
                              T (widen_max n a K (tk hi)) (widen_max n a J (tj hi)) (widen_max n a I (ti hi))).
Proof.
  intros E N. assert (S1 : StronglySorted kle w) by (rewrite E; apply sorted_filter, sorted_indices). clear E.
  destruct w as [|c w]; [congruence|]. set (v := c :: w) in *.
  exists (T (tk c) (amin (map tj v)) (amin (map ti v))), (T (tk (last v c)) (amax (map tj v)) (amax (map ti v))). split; [|reflexivity].
  intros []; cbn [get tk tj ti]; [|now apply (map_bound tj)|now apply (map_bound ti)].
  destruct (sorted_last v c S1 N) as [A B]. repeat split.
  - destruct H as [<-|H]; [lia|]. inversion S1 as [|? ? _ F]; subst. rewrite Forall_forall in F. apply (F _ H).
  - apply (B _ H).
  - exists c. split; [now left|reflexivity].
  - exists (last v c). auto.
Qed.

Definition Box_of (l : list box) (b : option box) : Prop :=
  match b with
  | None => l = []
  | Some (b0, b1) => l <> [] /\ forall a, (forall m, In m l -> get b0 a <= get (fst m) a /\ get (snd m) a <= get b1 a) /\
      (exists m, In m l /\ get b0 a = get (fst m) a) /\ (exists m, In m l /\ get b1 a = get (snd m) a)
  end.
Lemma box_of_one m : Box_of [m] (Some m).
Proof.
  destruct m as [b0 b1]. split; [discriminate|]. intros a. repeat split.
  - destruct H as [<-|[]]. cbn. lia.
  - destruct H as [<-|[]]. cbn. lia.
  - exists (b0, b1). split; [now left|reflexivity].
  - exists (b0, b1). split; [now left|reflexivity].
Qed.
Lemma box_of_merge l l' b b' : Box_of l b -> Box_of l' b' -> Box_of (l ++ l') (merge_bounds b b').
Proof.
  destruct b as [[b0 b1]|]; [|cbn; intros ->; destruct b' as [[]|]; auto].
  destruct b' as [[c0 c1]|]; [|intros H ->; rewrite app_nil_r; exact H].
  intros [N H] [N' H']. cbn [merge_bounds Box_of]. split; [destruct l; [congruence|discriminate]|]. intros a. rewrite !get_zip3.
  destruct (H a) as (A & (m & Hm & Em) & (p & Hp & Ep)). destruct (H' a) as (A' & (m' & Hm' & Em') & (p' & Hp' & Ep')). repeat split.
  - apply in_app_iff in H0. destruct (Z.ltb_spec (get c0 a) (get b0 a)); destruct H0 as [H0|H0]; [apply A in H0|apply A' in H0|apply A in H0|apply A' in H0]; lia.
  - apply in_app_iff in H0. destruct (Z.ltb_spec (get b1 a) (get c1 a)); destruct H0 as [H0|H0]; [apply A in H0|apply A' in H0|apply A in H0|apply A' in H0]; lia.
  - destruct (_ <? _); [exists m'|exists m]; rewrite in_app_iff; auto.
  - destruct (_ <? _); [exists p'|exists p]; rewrite in_app_iff; auto.
Qed.

(** ** the set of faces given as arrays *)
Definition pick {A} (x y z : A) (a : axis) : A := match a with K => x | J => y | I => z end.
Definition FaceSet (n : trip Z) (k_faces j_faces i_faces : faces) (a : axis) (c : cell) : Prop :=
  within (face_shape n a) c /\ exists f, pick k_faces j_faces i_faces a = Some f /\ f c = true.
Definition Ready (n b0 b1 : trip Z) (F : axis -> cell -> Prop) : Prop :=
  (forall a, 0 <= get b0 a < get b1 a /\ get b1 a <= get n a) /\
  (forall a c, F a c -> Brick b0 b1 c /\ get c a + 1 < get b1 a) /\
  (forall a c x, F a c -> x <> a -> get b0 x <> 0 -> get b0 x < get c x) /\
  (forall a c x, F a c -> x <> a -> get b1 x < get n x -> get c x < get b1 x - 1).
Lemma get_face_shape n a x : get (face_shape n a) x = if axis_dec a x then get n x - 1 else get n x.
Proof. unfold face_shape. destruct (axis_dec a x) as [<-|N]; [apply get_set_same|now apply get_set_other]. Qed.
Lemma where_true_iff n a f c : In c (where_true n a f) <-> within (face_shape n a) c /\ f c = true.
Proof. unfold where_true. rewrite filter_In, in_indices. reflexivity. Qed.
Lemma widen_min_eq n f_i a m : widen_min n f_i a m = if axis_dec f_i a then m else if 0 <? m then m - 1 else m.
Proof. unfold widen_min. destruct (axis_dec f_i a) as [->|N]; [now destruct a|]. destruct f_i, a; (reflexivity || congruence). Qed.
Lemma widen_max_eq n f_i a m : widen_max n f_i a m = if axis_dec f_i a then m + 1 else if m <? get n a - 1 then m + 1 else m.
Proof. unfold widen_max. destruct (axis_dec f_i a) as [->|N]; [now destruct a|]. destruct f_i, a; (reflexivity || congruence). Qed.
(** what is known of the widened bounds m of the faces of axis a *)
Definition Wide (n : trip Z) (P : cell -> Prop) (a : axis) (m : box) : Prop :=
  (forall x, 0 <= get (fst m) x <= get (snd m) x /\ get (snd m) x < get n x) /\
  (forall c, P c -> (forall x, get (fst m) x <= get c x <= get (snd m) x) /\ get c a < get (snd m) a /\
     (forall x, x <> a -> get (fst m) x <> 0 -> get (fst m) x < get c x) /\
     (forall x, x <> a -> get (snd m) x <> get n x - 1 -> get c x < get (snd m) x)).
Definition one_bounds (n : trip Z) a (f : faces) : option box := match f with None => None | Some f => face_bounds n a (where_true n a f) end.
Lemma one_wide n a (f : faces) : (exists c, within (face_shape n a) c /\ exists g, f = Some g /\ g c = true) ->
  exists m, one_bounds n a f = Some m /\ Wide n (fun c => within (face_shape n a) c /\ exists g, f = Some g /\ g c = true) a m.
Proof.
  intros (c0 & H0 & g & -> & Hg). set (w := where_true n a g).
  assert (Hw0 : In c0 w) by (apply where_true_iff; auto).
  destruct (face_bounds_ok n a g w eq_refl) as (lo & hi & HB & E); [intros X; rewrite X in Hw0; destruct Hw0|].
  cbn [one_bounds]. fold w. rewrite E. eexists. split; [reflexivity|].
  set (m0 := T (widen_min n a K (tk lo)) (widen_min n a J (tj lo)) (widen_min n a I (ti lo))).
  set (m1 := T (widen_max n a K (tk hi)) (widen_max n a J (tj hi)) (widen_max n a I (ti hi))).
  assert (E0 : forall x, get m0 x = widen_min n a x (get lo x)) by (intros []; reflexivity).
  assert (E1 : forall x, get m1 x = widen_max n a x (get hi x)) by (intros []; reflexivity).
  clearbody m0 m1. unfold Wide. cbn [fst snd].
  assert (R : forall x, 0 <= get lo x /\ get lo x <= get hi x /\ get hi x < get (face_shape n a) x).
  { intros x. destruct (HB x) as (A & (y & Hy & Ey) & (z & Hz & Ez)). pose proof (A _ Hw0).
    apply where_true_iff in Hy, Hz. destruct Hy as [Hy _], Hz as [Hz _]. specialize (Hy x). specialize (Hz x). lia. }
  split.
  - intros x. specialize (R x). rewrite E0, E1, widen_min_eq, widen_max_eq. rewrite get_face_shape in R. destruct (axis_dec a x); [lia|].
    destruct (Z.ltb_spec 0 (get lo x)), (Z.ltb_spec (get hi x) (get n x - 1)); lia.
  - intros c (Hc & g' & [= <-] & Hg'). assert (Hw : In c w) by (apply where_true_iff; auto).
    assert (Q : forall x, get lo x <= get c x <= get hi x) by (intros x; apply (HB x); assumption).
    repeat split.
    + specialize (Q x). rewrite E0, widen_min_eq. destruct (axis_dec a x); [lia|]. destruct (Z.ltb_spec 0 (get lo x)); lia.
    + specialize (Q x). rewrite E1, widen_max_eq. destruct (axis_dec a x); [lia|]. destruct (Z.ltb_spec (get hi x) (get n x - 1)); lia.
    + specialize (Q a). rewrite E1, widen_max_eq. destruct (axis_dec a a); [lia|congruence].
    + intros x N. specialize (Q x). specialize (R x). rewrite E0, widen_min_eq. destruct (axis_dec a x); [congruence|]. destruct (Z.ltb_spec 0 (get lo x)); lia.
    + intros x N. specialize (Q x). specialize (R x). rewrite get_face_shape in R. rewrite E1, widen_max_eq. destruct (axis_dec a x); [congruence|]. destruct (Z.ltb_spec (get hi x) (get n x - 1)); lia.
Qed.
Lemma one_none n a (f : faces) : (~ exists c, within (face_shape n a) c /\ exists g, f = Some g /\ g c = true) -> one_bounds n a f = None.
Proof.
  intros H. destruct f as [g|]; [|reflexivity]. cbn. destruct (where_true n a g) as [|c w] eqn:E; [reflexivity|]. exfalso. apply H. exists c.
  assert (X : In c (where_true n a g)) by (rewrite E; now left). apply where_true_iff in X. destruct X. eauto.
Qed.
Lemma one_dec n a (f : faces) : (exists c, within (face_shape n a) c /\ exists g, f = Some g /\ g c = true) \/ ~ (exists c, within (face_shape n a) c /\ exists g, f = Some g /\ g c = true).
Proof.
  destruct f as [g|]; [|right; intros (c & _ & g & X & _); discriminate].
  destruct (where_true n a g) as [|c w] eqn:E.
  - right. intros (c & H1 & g' & [= <-] & H2). assert (X : In c (where_true n a g)) by (apply where_true_iff; auto). rewrite E in X. destruct X.
  - left. exists c. assert (X : In c (where_true n a g)) by (rewrite E; now left). apply where_true_iff in X. destruct X. eauto.
Qed.
Lemma get_boundary_ready n kf jf ff : (exists a c, FaceSet n kf jf ff a c) ->
  let b := get_boundary kf jf ff n in Ready n (fst b) (snd b) (FaceSet n kf jf ff).
Proof.
  intros Hex. cbn zeta. unfold get_boundary. fold (one_bounds n K kf) (one_bounds n J jf) (one_bounds n I ff).
  change (match kf with None => None | Some f => face_bounds n K (where_true n K f) end) with (one_bounds n K kf).
  change (match jf with None => None | Some f => face_bounds n J (where_true n J f) end) with (one_bounds n J jf).
  change (match ff with None => None | Some f => face_bounds n I (where_true n I f) end) with (one_bounds n I ff).
  set (ob a := one_bounds n a (pick kf jf ff a)).
  assert (Q : exists l, Box_of l (merge_bounds (merge_bounds (ob K) (ob J)) (ob I)) /\
    (forall m, In m l -> exists a, Wide n (FaceSet n kf jf ff a) a m) /\
    (forall a c, FaceSet n kf jf ff a c -> exists m, In m l /\ Wide n (FaceSet n kf jf ff a) a m)).
  { assert (Q1 : forall a, exists l, Box_of l (ob a) /\ (forall m, In m l -> Wide n (FaceSet n kf jf ff a) a m) /\ (forall c, FaceSet n kf jf ff a c -> l <> [])).
    { intros a. unfold ob. destruct (one_dec n a (pick kf jf ff a)) as [H|H].
      - destruct (one_wide n a _ H) as (m & E & Wm). exists [m]. rewrite E. split; [apply box_of_one|]. split; [intros x [<-|[]]; exact Wm|discriminate].
      - exists []. rewrite one_none by assumption. split; [reflexivity|]. split; [easy|]. intros c X. exfalso. apply H. exists c. exact X. }
    destruct (Q1 K) as (lk & A1 & A2 & A3). destruct (Q1 J) as (lj & B1 & B2 & B3). destruct (Q1 I) as (li & C1 & C2 & C3).
    exists ((lk ++ lj) ++ li). split; [now apply box_of_merge; [apply box_of_merge|]|]. split.
    - intros m Hm. rewrite !in_app_iff in Hm. destruct Hm as [[Hm|Hm]|Hm]; [exists K; auto|exists J; auto|exists I; auto].
    - intros [] c X.
      + specialize (A3 c X). destruct lk as [|m lk]; [congruence|]. exists m. split; [rewrite !in_app_iff; do 2 left; now left|apply A2; now left].
      + specialize (B3 c X). destruct lj as [|m lj]; [congruence|]. exists m. split; [rewrite !in_app_iff; left; right; now left|apply B2; now left].
      + specialize (C3 c X). destruct li as [|m li]; [congruence|]. exists m. split; [rewrite !in_app_iff; right; now left|apply C2; now left]. }
  destruct Q as (l & HB & Hl & HF).
  change (one_bounds n K kf) with (ob K). change (one_bounds n J jf) with (ob J). change (one_bounds n I ff) with (ob I).
  destruct (merge_bounds (merge_bounds (ob K) (ob J)) (ob I)) as [[b0 b1]|].
  2:{ exfalso. cbn in HB. subst l. destruct Hex as (a & c & X). destruct (HF a c X) as (m & [] & _). }
  cbn [fst snd]. destruct HB as [N HB]. unfold Ready. repeat split.
  - destruct (HB a) as (_ & (m & Hm & ->) & _). destruct (Hl m Hm) as (x & Wm & _). apply Wm.
  - rewrite get_map3. destruct (HB a) as (A & (m & Hm & ->) & _). destruct (Hl m Hm) as (x & Wm & _). destruct (A m Hm) as [_ A']. specialize (Wm a). lia.
  - rewrite get_map3. destruct (HB a) as (_ & _ & (m & Hm & ->)). destruct (Hl m Hm) as (x & Wm & _). specialize (Wm a). lia.
  - destruct (HF a c H) as (m & Hm & _ & Wm). destruct (HB a0) as (A & _). destruct (A m Hm). destruct (Wm c H) as (X & _). specialize (X a0). lia.
  - rewrite get_map3. destruct (HF a c H) as (m & Hm & _ & Wm). destruct (HB a0) as (A & _). destruct (A m Hm). destruct (Wm c H) as (X & _). specialize (X a0). lia.
  - rewrite get_map3. destruct (HF a c H) as (m & Hm & _ & Wm). destruct (HB a) as (A & _). destruct (A m Hm). destruct (Wm c H) as (_ & X & _). lia.
  - intros a c x H Nx Z0. destruct (HF a c H) as (m & Hm & W0 & Wm). destruct (HB x) as (A & _). destruct (A m Hm) as [A1 _]. destruct (Wm c H) as (X & _ & Y & _).
    specialize (W0 x). destruct (HB x) as (_ & (m' & Hm' & E') & _). destruct (Hl m' Hm') as (x' & W' & _). specialize (W' x).
    specialize (Y x Nx). lia.
  - intros a c x H Nx. rewrite get_map3. intros Z1. destruct (HF a c H) as (m & Hm & W0 & Wm). destruct (HB x) as (A & _). destruct (A m Hm) as [_ A1]. destruct (Wm c H) as (X & _ & _ & Y).
    specialize (Y x Nx). lia.
Qed.
