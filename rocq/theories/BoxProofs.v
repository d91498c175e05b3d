(** BoxProofs.v: specification and lemmas for BoxModel.v. *)
From Verif Require Import Base BoxModel.

(** * Specification vocabulary *)

(** A cell lies in a box: between the bounds in every axis. *)
Definition InBox (c : cell) (b : box) : Prop :=
  forall d, get (lo b) d <= get c d <= get (hi b) d.
(** A box with at least one cell. *)
Definition NonEmptyBox (b : box) : Prop := forall d, get (lo b) d <= get (hi b) d.
(** Set inclusion of boxes. *)
Definition SubBox (a b : box) : Prop := forall c, InBox c a -> InBox c b.

Ltac axes := intros [ | | ].
Ltac box_unfold :=
  unfold InBox, NonEmptyBox, SubBox, cell_in_box, valid_box, boxes_overlap, forall3,
    volume_of_box, extent_of_box, map3, zip3 in *; cbn [get tk tj ti lo hi] in *.

Lemma forall_axis (P : axis -> Prop) : (forall d, P d) <-> P K /\ P J /\ P I.
Proof. split; [intros H; repeat split; apply H | intros (?&?&?) [ | | ]; assumption]. Qed.

Lemma trip_ext {A} (s t : trip A) : (forall d, get s d = get t d) -> s = t.
Proof.
  intros H. pose proof (H K) as HK. pose proof (H J) as HJ. pose proof (H I) as HI.
  destruct s as [s1 s2 s3], t as [t1 t2 t3]. cbn [get tk tj ti] in *. congruence.
Qed.

Lemma get_set_same {A} (t : trip A) d v : get (set t d v) d = v.
Proof. destruct d; reflexivity. Qed.
Lemma get_set_other {A} (t : trip A) d d' v : d <> d' -> get (set t d v) d' = get t d'.
Proof. destruct d, d'; cbn; congruence. Qed.

Lemma get_zip3 {A B C} (f : A -> B -> C) s t d : get (zip3 f s t) d = f (get s d) (get t d).
Proof. destruct d; reflexivity. Qed.
Lemma get_map3 {A B} (f : A -> B) s d : get (map3 f s) d = f (get s d).
Proof. destruct d; reflexivity. Qed.
Lemma forall3_spec f : forall3 f = true <-> forall d, f d = true.
Proof. unfold forall3. rewrite !andb_true_iff, forall_axis. tauto. Qed.
Lemma forall3_false f : forall3 f = false <-> exists d, f d = false.
Proof.
  unfold forall3. split.
  - destruct (f K) eqn:?, (f J) eqn:?, (f I) eqn:?; cbn; intros; try discriminate; eauto.
  - intros [[ | | ] H]; rewrite H, ?andb_false_r; reflexivity.
Qed.

Lemma cell_in_box_spec c b : cell_in_box c b = true <-> InBox c b.
Proof. unfold InBox. rewrite forall_axis. box_unfold. lia. Qed.

Lemma valid_box_spec b h :
  valid_box b h = true <->
  NonEmptyBox b /\ (forall d, 0 <= get (lo b) d) /\ (forall d, get (hi b) d < get h d).
Proof. unfold NonEmptyBox. rewrite !forall_axis. box_unfold. lia. Qed.

(** Explicit enumeration of the cells of a box, used only to count them. *)
Definition cells_of (b : box) : list cell :=
  flat_map (fun k => flat_map (fun j => map (fun i => T k j i) (zrange2 (ti (lo b)) (ti (hi b) + 1)))
    (zrange2 (tj (lo b)) (tj (hi b) + 1))) (zrange2 (tk (lo b)) (tk (hi b) + 1)).

Lemma in_cells_of c b : In c (cells_of b) <-> InBox c b.
Proof.
  unfold cells_of. rewrite in_flat_map. unfold InBox. rewrite forall_axis. cbn [get].
  split.
  - intros (k & Hk & H). rewrite in_flat_map in H. destruct H as (j & Hj & H).
    apply in_map_iff in H. destruct H as (i & <- & Hi).
    rewrite in_zrange2 in *. cbn. lia.
  - intros H. destruct c as [k j i]. cbn in H.
    exists k. rewrite in_zrange2. split; [lia|].
    rewrite in_flat_map. exists j. rewrite in_zrange2. split; [lia|].
    apply in_map_iff. exists i. rewrite in_zrange2. split; [reflexivity|lia].
Qed.

Lemma NoDup_app_intro {A} (l1 l2 : list A) :
  NoDup l1 -> NoDup l2 -> (forall x, In x l1 -> In x l2 -> False) -> NoDup (l1 ++ l2).
Proof.
  intros H1 H2 Hd. induction H1 as [|a l Ha H1 IH]; cbn [app]; [assumption|].
  constructor.
  - rewrite in_app_iff. intros [?|?]; [contradiction|]. apply (Hd a); [left; reflexivity|assumption].
  - apply IH. intros x Hx. apply Hd. right; assumption.
Qed.

Lemma NoDup_flat_map {A B} (f : A -> list B) l :
  NoDup l -> (forall x, In x l -> NoDup (f x)) ->
  (forall x y z, In x l -> In y l -> In z (f x) -> In z (f y) -> x = y) ->
  NoDup (flat_map f l).
Proof.
  intros Hn Hf Hd. induction Hn as [|a l Ha Hn IH]; cbn [flat_map]; [constructor|].
  apply NoDup_app_intro.
  - apply Hf. left; reflexivity.
  - apply IH; [intros; apply Hf; right; assumption|].
    intros x y z Hx Hy. apply Hd; right; assumption.
  - intros z Hz1 Hz2. apply in_flat_map in Hz2. destruct Hz2 as (y & Hy & Hz2).
    assert (a = y) by (apply (Hd a y z); [left; reflexivity|right; assumption|assumption|assumption]).
    subst; contradiction.
Qed.

Lemma NoDup_cells_of b : NoDup (cells_of b).
Proof.
  unfold cells_of. apply NoDup_flat_map; [apply NoDup_zrange2| |].
  - intros k _. apply NoDup_flat_map; [apply NoDup_zrange2| |].
    + intros j _. apply NoDup_map_inj_in; [|apply NoDup_zrange2]. intros; congruence.
    + intros j1 j2 c _ _ H1 H2. apply in_map_iff in H1, H2.
      destruct H1 as (? & <- & _), H2 as (? & ? & _). congruence.
  - intros k1 k2 c _ _ H1 H2. apply in_flat_map in H1, H2.
    destruct H1 as (? & _ & H1), H2 as (? & _ & H2).
    apply in_map_iff in H1, H2.
    destruct H1 as (? & <- & _), H2 as (? & ? & _). congruence.
Qed.

Lemma length_flat_map_const {A B} (f : A -> list B) l n :
  (forall x, In x l -> List.length (f x) = n) -> List.length (flat_map f l) = (List.length l * n)%nat.
Proof.
  induction l as [|a l IH]; cbn [flat_map List.length]; intros H; [reflexivity|].
  rewrite app_length, IH, (H a); [lia|left; reflexivity|intros; apply H; right; assumption].
Qed.

Lemma length_cells_of b : NonEmptyBox b -> Z.of_nat (List.length (cells_of b)) = volume_of_box b.
Proof.
  intros H. unfold NonEmptyBox in H. rewrite forall_axis in H. cbn [get] in H.
  unfold cells_of.
  rewrite (length_flat_map_const _ _
     (Z.to_nat (tj (hi b) + 1 - tj (lo b)) * Z.to_nat (ti (hi b) + 1 - ti (lo b)))%nat).
  - rewrite length_zrange2. unfold volume_of_box. rewrite !Nat2Z.inj_mul, !Z2Nat.id by lia.
    ring.
  - intros k _. rewrite (length_flat_map_const _ _ (Z.to_nat (ti (hi b) + 1 - ti (lo b)))).
    + now rewrite length_zrange2.
    + intros j _. now rewrite map_length, length_zrange2.
Qed.

(** * C01 *)
Lemma volume_counts_cells b (cs : list cell) :
  NonEmptyBox b -> NoDup cs -> (forall c, In c cs <-> cell_in_box c b = true) ->
  volume_of_box b = Z.of_nat (List.length cs).
Proof.
  intros Hb Hn Hc. rewrite <- length_cells_of by assumption. f_equal.
  apply Nat.le_antisymm.
  - apply NoDup_incl_length; [apply NoDup_cells_of|].
    intros c H. apply Hc, cell_in_box_spec, in_cells_of, H.
  - apply NoDup_incl_length; [assumption|].
    intros c H. apply in_cells_of, cell_in_box_spec, Hc, H.
Qed.

Lemma some_enumeration b : exists cs, NoDup cs /\ (forall c, In c cs <-> cell_in_box c b = true).
Proof.
  exists (cells_of b). split; [apply NoDup_cells_of|].
  intros c. now rewrite cell_in_box_spec, in_cells_of.
Qed.

Lemma volume_is_extent_product b :
  volume_of_box b = tk (extent_of_box b) * tj (extent_of_box b) * ti (extent_of_box b).
Proof. reflexivity. Qed.

Lemma central_cell_inside b : NonEmptyBox b -> cell_in_box (central_cell b) b = true.
Proof.
  intros H. apply cell_in_box_spec. intros d. specialize (H d).
  unfold central_cell. rewrite get_zip3.
  pose proof (Z.div_pos (get (hi b) d - get (lo b) d) 2).
  pose proof (Z.div_le_upper_bound (get (hi b) d - get (lo b) d) 2 (get (hi b) d - get (lo b) d)).
  lia.
Qed.

(** * C02 *)
Lemma local_parent b p base :
  forall l, local_box_cell_from_parent_cell b p base = Some l ->
  InBox p b /\ parent_cell_from_local_box_cell b l base = p /\
  (forall d, base <= get l d < base + get (extent_of_box b) d).
Proof.
  unfold local_box_cell_from_parent_cell.
  destruct (_ && _) eqn:E; [|discriminate]. intros l [= <-].
  rewrite andb_true_iff, !forall3_spec in E. destruct E as [E1 E2].
  split; [|split].
  - intros d. specialize (E1 d). specialize (E2 d). lia.
  - apply trip_ext. intros d. unfold parent_cell_from_local_box_cell. rewrite !get_zip3. lia.
  - intros d. unfold extent_of_box. rewrite !get_zip3. specialize (E1 d). specialize (E2 d). lia.
Qed.

Lemma local_none b p base :
  local_box_cell_from_parent_cell b p base = None <-> ~ InBox p b.
Proof.
  unfold local_box_cell_from_parent_cell.
  destruct (_ && _) eqn:E.
  - split; [discriminate|]. intros H. exfalso. apply H. intros d.
    rewrite andb_true_iff, !forall3_spec in E. destruct E as [E1 E2].
    specialize (E1 d). specialize (E2 d). lia.
  - split; [|reflexivity]. intros _ H.
    rewrite andb_false_iff, !forall3_false in E. destruct E as [[d E]|[d E]]; specialize (H d); lia.
Qed.

Lemma parent_local b l base :
  (forall d, base <= get l d < base + get (extent_of_box b) d) ->
  InBox (parent_cell_from_local_box_cell b l base) b /\
  local_box_cell_from_parent_cell b (parent_cell_from_local_box_cell b l base) base = Some l.
Proof.
  intros H.
  assert (Hin : InBox (parent_cell_from_local_box_cell b l base) b).
  { intros d. specialize (H d). unfold parent_cell_from_local_box_cell, extent_of_box in *.
    rewrite !get_zip3 in *. lia. }
  split; [assumption|].
  destruct (local_box_cell_from_parent_cell b (parent_cell_from_local_box_cell b l base) base) as [l'|] eqn:E.
  - f_equal. apply local_parent in E. destruct E as (_ & E & _).
    apply trip_ext. intros d. apply (f_equal (fun t => get t d)) in E.
    unfold parent_cell_from_local_box_cell in E. rewrite !get_zip3 in E. lia.
  - apply local_none in E. contradiction.
Qed.

(** * C03 *)
Lemma overlap_axes a b :
  boxes_overlap a b = true <->
  forall d, get (lo b) d <= get (hi a) d /\ get (lo a) d <= get (hi b) d.
Proof. rewrite forall_axis. unfold boxes_overlap. cbn [get]. lia. Qed.

Lemma overlap_iff_common a b : NonEmptyBox a -> NonEmptyBox b ->
  (boxes_overlap a b = true <-> exists c, InBox c a /\ InBox c b).
Proof.
  intros Ha Hb. rewrite overlap_axes. split.
  - intros H. exists (zip3 Z.max (lo a) (lo b)). split; intros d; rewrite get_zip3;
      specialize (H d); specialize (Ha d); specialize (Hb d); lia.
  - intros (c & Hca & Hcb) d. specialize (Hca d). specialize (Hcb d). lia.
Qed.

Lemma overlap_sym a b : boxes_overlap a b = boxes_overlap b a.
Proof. apply eq_true_iff_eq. rewrite !overlap_axes. split; intros H d; specialize (H d); lia. Qed.

(** * C04 *)
Lemma union_upper a b u : union a b = Some u ->
  (forall x, a = Some x -> SubBox x u) /\ (forall x, b = Some x -> SubBox x u).
Proof.
  destruct a as [a|], b as [b|]; cbn [union]; intros [= <-]; split; intros x [= <-] c Hc d;
    specialize (Hc d); cbn [lo hi]; rewrite ?get_zip3; lia.
Qed.

Lemma subbox_bounds a b : NonEmptyBox a ->
  (SubBox a b <-> forall d, get (lo b) d <= get (lo a) d /\ get (hi a) d <= get (hi b) d).
Proof.
  intros Ha. split.
  - intros H d. split.
    + apply (H (lo a)). intros d'. specialize (Ha d'). lia.
    + apply (H (hi a)). intros d'. specialize (Ha d'). lia.
  - intros H c Hc d. specialize (H d). specialize (Hc d). lia.
Qed.

Lemma union_least a b u w :
  union a b = Some u ->
  (forall x, a = Some x -> NonEmptyBox x) -> (forall x, b = Some x -> NonEmptyBox x) ->
  (forall x, a = Some x -> SubBox x w) -> (forall x, b = Some x -> SubBox x w) ->
  SubBox u w.
Proof.
  intros Hu Na Nb Ha Hb c Hc d. specialize (Hc d).
  destruct a as [a|], b as [b|]; cbn [union] in Hu; [ | | |discriminate]; injection Hu as <-; cbn [lo hi] in Hc;
    rewrite ?get_zip3 in Hc;
    repeat match goal with
    | N : forall x, Some ?y = Some x -> NonEmptyBox x, H : forall x, Some ?y = Some x -> SubBox x w |- _ =>
        let E := fresh in
        pose proof (proj1 (subbox_bounds _ _ (N _ eq_refl)) (H _ eq_refl) d) as E; clear N H
    end; lia.
Qed.

Lemma union_none a b : union a b = None <-> a = None /\ b = None.
Proof. destruct a, b; cbn; intuition congruence. Qed.

Lemma box_ext a b : (forall d, get (lo a) d = get (lo b) d) -> (forall d, get (hi a) d = get (hi b) d) -> a = b.
Proof. intros H1 H2. destruct a, b. f_equal; apply trip_ext; assumption. Qed.

Lemma union_comm a b : union a b = union b a.
Proof.
  destruct a as [a|], b as [b|]; cbn [union]; try reflexivity. f_equal.
  apply box_ext; intros d; cbn [lo hi]; rewrite !get_zip3; lia.
Qed.
Lemma union_idem a : union a a = a.
Proof.
  destruct a as [a|]; cbn [union]; try reflexivity. f_equal.
  apply box_ext; intros d; cbn [lo hi]; rewrite !get_zip3; lia.
Qed.
Lemma union_assoc a b c : union a (union b c) = union (union a b) c.
Proof.
  destruct a as [a|], b as [b|], c as [c|]; cbn [union]; try reflexivity. f_equal.
  apply box_ext; intros d; cbn [lo hi]; rewrite !get_zip3; lia.
Qed.

(** * C05 *)
(** Truth of a grid cell in a (box, mask) pair. *)
Definition MaskedCell (b : box) (m : mask) (c : cell) : Prop :=
  InBox c b /\ mval m (zip3 Z.sub c (lo b)) = true.

Definition LocalIn (m : mask) (c : cell) : Prop := forall d, 0 <= get c d < get (mext m) d.

Lemma any_in_layer_spec m d x : 0 <= x < get (mext m) d ->
  any_in_layer m d x = true <-> exists c, LocalIn m c /\ get c d = x /\ mval m c = true.
Proof.
  intros Hx. unfold LocalIn.
  assert (E : forall (P : cell -> Prop),
     (exists c, (forall d, 0 <= get c d < get (mext m) d) /\ P c) <->
     exists k j i, (0 <= k < tk (mext m)) /\ (0 <= j < tj (mext m)) /\ (0 <= i < ti (mext m)) /\ P (T k j i)).
  { intros P. split.
    - intros ([k j i] & Hc & HP). rewrite forall_axis in Hc. cbn [get tk tj ti] in Hc.
      exists k, j, i. intuition.
    - intros (k & j & i & Hk & Hj & Hi & HP). exists (T k j i). split; [|assumption].
      rewrite forall_axis. cbn [get tk tj ti]. auto. }
  rewrite E. clear E.
  destruct d; cbn [get tk tj ti] in *; unfold any_in_layer;
    rewrite existsb_exists; split.
  1,3,5: intros (a & Ha & H); rewrite existsb_exists in H; destruct H as (b & Hb & H);
    rewrite in_zrange in *.
  - exists x, a, b. intuition.
  - exists a, x, b. intuition.
  - exists a, b, x. intuition.
  - intros (k & j & i & Hk & Hj & Hi & -> & H). exists j. rewrite in_zrange. split; [lia|].
    rewrite existsb_exists. exists i. rewrite in_zrange. auto.
  - intros (k & j & i & Hk & Hj & Hi & -> & H). exists k. rewrite in_zrange. split; [lia|].
    rewrite existsb_exists. exists i. rewrite in_zrange. auto.
  - intros (k & j & i & Hk & Hj & Hi & -> & H). exists k. rewrite in_zrange. split; [lia|].
    rewrite existsb_exists. exists j. rewrite in_zrange. auto.
Qed.

Lemma any_mask_spec m : any_mask m = true <-> exists c, LocalIn m c /\ mval m c = true.
Proof.
  unfold any_mask. rewrite existsb_exists. split.
  - intros (k & Hk & H). rewrite in_zrange in Hk.
    apply (any_in_layer_spec m K) in H; [|assumption]. destruct H as (c & H & _ & H'). eauto.
  - intros (c & Hc & H). pose proof (Hc K) as HK. cbn in HK. exists (tk c). rewrite in_zrange. split; [assumption|].
    apply (any_in_layer_spec m K); [assumption|]. exists c. auto.
Qed.

(** Invariant of the scan loop after [n] layers. *)
Lemma scan_prefix m d n : 0 <= n <= get (mext m) d ->
  let st := fold_left (scan_step m d) (zrange n) (get (mext m) d, -1) in
  (  (st = (get (mext m) d, -1) /\ forall x, 0 <= x < n -> any_in_layer m d x = false)
   \/ (0 <= fst st <= snd st /\ snd st < n /\ any_in_layer m d (fst st) = true /\ any_in_layer m d (snd st) = true /\
       forall x, 0 <= x < n -> any_in_layer m d x = true -> fst st <= x <= snd st)).
Proof.
  intros Hn. destruct Hn as [H0 Hn]. revert Hn. pattern n. apply natlike_ind; [| |assumption].
  - intros _. left. split; [reflexivity|]. intros; lia.
  - clear n H0. intros n H0 IH Hn. cbn zeta in *. unfold Z.succ. rewrite zrange_S by assumption.
    rewrite fold_left_app. cbn [fold_left].
    set (st := fold_left _ (zrange n) _) in *. specialize (IH ltac:(lia)).
    unfold scan_step. destruct (any_in_layer m d n) eqn:E.
    + right. destruct IH as [[-> IH]|(IH1 & IH2 & IH3 & IH4 & IH5)].
      * cbn [fst snd]. rewrite Z.eqb_refl.
        split; [lia|]. split; [lia|]. split; [assumption|]. split; [assumption|].
        intros x Hx Hx'. assert (x = n \/ x < n) as [->|] by lia; [lia|].
        rewrite IH in Hx' by lia. discriminate.
      * assert (fst st =? get (mext m) d = false) as -> by lia. cbn [fst snd].
        split; [lia|]. split; [lia|]. split; [assumption|]. split; [assumption|].
        intros x Hx Hx'. assert (x = n \/ x < n) as [->|] by lia; [lia|].
        specialize (IH5 x ltac:(lia) Hx'). lia.
    + destruct IH as [[-> IH]|(IH1 & IH2 & IH3 & IH4 & IH5)]; [left|right].
      * split; [reflexivity|]. intros x Hx. assert (x = n \/ x < n) as [->|] by lia; [assumption|]. apply IH; lia.
      * split; [lia|]. split; [lia|]. split; [assumption|]. split; [assumption|].
        intros x Hx Hx'. assert (x = n \/ x < n) as [->|] by lia; [congruence|]. apply IH5; [lia|assumption].
Qed.

Lemma scan_axis_spec m d : any_mask m = true ->
  let l := fst (scan_axis m d) in let h := snd (scan_axis m d) in
  0 <= l <= h /\ h < get (mext m) d /\ any_in_layer m d l = true /\ any_in_layer m d h = true /\
  forall c, LocalIn m c -> mval m c = true -> l <= get c d <= h.
Proof.
  intros Hm. apply any_mask_spec in Hm. destruct Hm as (c0 & Hc0 & Hv0).
  pose proof (Hc0 d) as Hd.
  pose proof (scan_prefix m d (get (mext m) d) ltac:(lia)) as H. cbn zeta in H.
  fold (scan_axis m d) in H. cbn zeta.
  destruct H as [[_ H]|(H1 & H2 & H3 & H4 & H5)].
  - exfalso. assert (any_in_layer m d (get c0 d) = true) as E.
    { apply any_in_layer_spec; [assumption|]. eauto. }
    rewrite H in E by assumption. discriminate.
  - split; [assumption|]. split; [assumption|]. split; [assumption|]. split; [assumption|].
    intros c Hc Hv. apply H5; [apply Hc|]. apply any_in_layer_spec; [apply Hc|]. eauto.
Qed.

Lemma trim_ok b m :
  (forall d, get (mext m) d = get (extent_of_box b) d) -> any_mask m = true ->
  let llo := T (fst (scan_axis m K)) (fst (scan_axis m J)) (fst (scan_axis m I)) in
  let lhi := T (snd (scan_axis m K)) (snd (scan_axis m J)) (snd (scan_axis m I)) in
  trim_box_to_mask b m =
    Ok (Box (zip3 Z.add (lo b) llo) (zip3 Z.add (lo b) lhi), slice_mask m llo lhi).
Proof.
  intros He Hm llo lhi. unfold trim_box_to_mask.
  assert (forall3 (fun d => get (mext m) d =? get (extent_of_box b) d) = true) as ->.
  { apply forall3_spec. intros d. rewrite He. apply Z.eqb_refl. }
  rewrite Hm. cbn [assert_ bind]. fold llo lhi.
  assert (Hs : forall d, 0 <= get llo d <= get lhi d /\ get lhi d < get (mext m) d).
  { intros d. pose proof (scan_axis_spec m d Hm) as H. cbn zeta in H. destruct d; cbn [get tk tj ti llo lhi]; tauto. }
  assert (forall3 (fun d => (0 <=? get llo d) && (0 <=? get lhi d)) = true) as ->.
  { apply forall3_spec. intros d. specialize (Hs d). lia. }
  cbn [assert_ bind].
  assert (forall3 (fun d => get llo d <=? get lhi d) = true) as ->.
  { apply forall3_spec. intros d. specialize (Hs d). lia. }
  cbn [assert_ bind].
  assert (forall3 (fun d => get lhi d <? get (extent_of_box b) d) = true) as ->.
  { apply forall3_spec. intros d. specialize (Hs d). rewrite <- He. lia. }
  cbn [assert_ bind].
  assert (Eb : zip3 Z.sub (hi b) (zip3 (fun n h => n - h - 1) (extent_of_box b) lhi) = zip3 Z.add (lo b) lhi).
  { apply trip_ext. intros d. rewrite !get_zip3. unfold extent_of_box. rewrite get_zip3. lia. }
  rewrite Eb.
  match goal with |- context [forall3 ?f] => assert (forall3 f = true) as -> end.
  { apply forall3_spec. intros d. cbn [lo hi]. rewrite !get_zip3. specialize (Hs d). lia. }
  reflexivity.
Qed.

Lemma trim_to_mask_correct b m :
  (forall d, get (mext m) d = get (extent_of_box b) d) ->
  (exists c, MaskedCell b m c) ->
  exists b' m', trim_box_to_mask b m = Ok (b', m') /\
    SubBox b' b /\
    (forall d, get (mext m') d = get (extent_of_box b') d) /\
    (forall c, MaskedCell b' m' c <-> MaskedCell b m c) /\
    (forall d, (exists c, MaskedCell b' m' c /\ get c d = get (lo b') d) /\
               (exists c, MaskedCell b' m' c /\ get c d = get (hi b') d)).
Proof.
  intros He Hex.
  assert (Hloc : forall c, InBox c b <-> LocalIn m (zip3 Z.sub c (lo b))).
  { intros c. unfold InBox, LocalIn. split; intros H d; specialize (H d); rewrite He in *;
      unfold extent_of_box in *; rewrite !get_zip3 in *; lia. }
  assert (Hm : any_mask m = true).
  { apply any_mask_spec. destruct Hex as (c & Hc & Hv). exists (zip3 Z.sub c (lo b)). split; [apply Hloc|]; assumption. }
  pose proof (trim_ok b m He Hm) as Ht. cbn zeta in Ht.
  set (llo := T (fst (scan_axis m K)) (fst (scan_axis m J)) (fst (scan_axis m I))) in *.
  set (lhi := T (snd (scan_axis m K)) (snd (scan_axis m J)) (snd (scan_axis m I))) in *.
  assert (Hs : forall d, (0 <= get llo d <= get lhi d /\ get lhi d < get (mext m) d) /\
     any_in_layer m d (get llo d) = true /\ any_in_layer m d (get lhi d) = true /\
     forall c, LocalIn m c -> mval m c = true -> get llo d <= get c d <= get lhi d).
  { intros d. pose proof (scan_axis_spec m d Hm) as H. cbn zeta in H. destruct d; cbn [get tk tj ti llo lhi]; tauto. }
  clearbody llo lhi.
  eexists _, _. split; [exact Ht|].
  assert (Hsub : SubBox {| lo := zip3 Z.add (lo b) llo; hi := zip3 Z.add (lo b) lhi |} b).
  { intros c Hc d. specialize (Hc d). cbn [lo hi] in Hc. rewrite !get_zip3 in Hc.
    destruct (Hs d) as (H & _). rewrite He in H. unfold extent_of_box in H. rewrite get_zip3 in H. lia. }
  split; [assumption|].
  assert (Hiff : forall c,
    MaskedCell {| lo := zip3 Z.add (lo b) llo; hi := zip3 Z.add (lo b) lhi |} (slice_mask m llo lhi) c <-> MaskedCell b m c).
  { intros c. unfold MaskedCell. cbn [mval slice_mask lo hi].
    assert (zip3 Z.add llo (zip3 Z.sub c (zip3 Z.add (lo b) llo)) = zip3 Z.sub c (lo b)) as ->.
    { apply trip_ext. intros d. rewrite !get_zip3. lia. }
    split; intros [H1 H2]; (split; [|assumption]); [apply Hsub; assumption|].
    intros d. cbn [lo hi]. rewrite !get_zip3. destruct (Hs d) as (_ & _ & _ & H).
    specialize (H _ (proj1 (Hloc c) H1) H2). rewrite get_zip3 in H. lia. }
  split; [|split; [assumption|]].
  - intros d. cbn [mext slice_mask]. unfold extent_of_box. cbn [lo hi]. rewrite !get_zip3. lia.
  - intros d. destruct (Hs d) as (Hr & Hl & Hh & Hb). cbn [lo hi]. rewrite !get_zip3.
    apply any_in_layer_spec in Hl, Hh; try lia.
    assert (Hback : forall lc, LocalIn m lc -> mval m lc = true -> MaskedCell b m (zip3 Z.add (lo b) lc)).
    { intros lc H1 H2. assert (Eq : zip3 Z.sub (zip3 Z.add (lo b) lc) (lo b) = lc).
      { apply trip_ext. intros d'. rewrite !get_zip3. lia. }
      split; [apply Hloc|]; now rewrite Eq. }
    destruct Hl as (c1 & H11 & H12 & H13), Hh as (c2 & H21 & H22 & H23).
    split.
    + exists (zip3 Z.add (lo b) c1). rewrite Hiff, get_zip3. split; [apply Hback; assumption|lia].
    + exists (zip3 Z.add (lo b) c2). rewrite Hiff, get_zip3. split; [apply Hback; assumption|lia].
Qed.

Lemma trim_to_mask_empty b m :
  (forall d, get (mext m) d = get (extent_of_box b) d) ->
  ~ (exists c, MaskedCell b m c) -> trim_box_to_mask b m = Err AssertionError.
Proof.
  intros He Hex. unfold trim_box_to_mask.
  assert (forall3 (fun d => get (mext m) d =? get (extent_of_box b) d) = true) as ->.
  { apply forall3_spec. intros d. rewrite He. apply Z.eqb_refl. }
  cbn [assert_ bind]. destruct (any_mask m) eqn:E; [|reflexivity].
  exfalso. apply Hex. apply any_mask_spec in E. destruct E as (c & Hc & Hv).
  exists (zip3 Z.add (lo b) c). split.
  - intros d. specialize (Hc d). rewrite He in Hc. unfold extent_of_box in Hc. rewrite !get_zip3 in *. lia.
  - assert (zip3 Z.sub (zip3 Z.add (lo b) c) (lo b) = c) as ->; [|assumption].
    apply trip_ext. intros d. rewrite !get_zip3. lia.
Qed.

(** * C06 *)
(** Number of cells of [n] in a slab covering the e-range along [d]. *)
Definition slab (e n : box) (d : axis) : box :=
  Box (set (lo n) d (Z.max (get (lo e) d) (get (lo n) d)))
      (set (hi n) d (Z.min (get (hi e) d) (get (hi n) d))).

Lemma slab_volume e n d :
  volume_of_box (slab e n d) =
  (Z.min (get (hi e) d) (get (hi n) d) - Z.max (get (lo e) d) (get (lo n) d) + 1) * slice_area n d.
Proof. destruct d; unfold volume_of_box, slab, slice_area; cbn [lo hi set get tk tj ti]; ring. Qed.

Lemma slice_area_pos n d : NonEmptyBox n -> 0 < slice_area n d.
Proof.
  intros H. pose proof (H K). pose proof (H J). pose proof (H I). cbn [get] in *.
  destruct d; unfold slice_area; apply Z.mul_pos_pos; lia.
Qed.

Lemma slab_cost_le e n d : NonEmptyBox n -> boxes_overlap e n = true ->
  volume_of_box (slab e n d) <= volume_of_box n.
Proof.
  intros Hn Ho. rewrite slab_volume. pose proof (slice_area_pos n d Hn) as Hp.
  assert (volume_of_box n = (get (hi n) d - get (lo n) d + 1) * slice_area n d) as ->
    by (destruct d; unfold volume_of_box, slice_area; cbn [get]; ring).
  apply Z.mul_le_mono_nonneg_r; lia.
Qed.

Lemma overlapping_choice e n : NonEmptyBox n -> boxes_overlap e n = true ->
  exists d, overlapping_boxes e n = Ok (true, slab e n d) /\
    forall d', volume_of_box (slab e n d) <= volume_of_box (slab e n d').
Proof.
  intros Hn Ho. unfold overlapping_boxes. rewrite Ho. cbn [negb].
  pose proof (slab_cost_le e n K Hn Ho) as HK.
  pose proof (slab_volume e n K) as EK. pose proof (slab_volume e n J) as EJ. pose proof (slab_volume e n I) as EI.
  cbn [all_axes fold_left]. unfold trim_step at 3. cbn [fst].
  rewrite <- EK.
  assert (volume_of_box (slab e n K) <? volume_of_box n + 1 = true) as -> by lia.
  unfold trim_step at 2. cbn [fst]. rewrite <- EJ.
  destruct (volume_of_box (slab e n J) <? volume_of_box (slab e n K)) eqn:E1;
  unfold trim_step; cbn [fst]; rewrite <- EI.
  - destruct (volume_of_box (slab e n I) <? volume_of_box (slab e n J)) eqn:E2; cbn [snd].
    + exists I. split; [reflexivity|]. axes; lia.
    + exists J. split; [reflexivity|]. axes; lia.
  - destruct (volume_of_box (slab e n I) <? volume_of_box (slab e n K)) eqn:E2; cbn [snd].
    + exists I. split; [reflexivity|]. axes; lia.
    + exists K. split; [reflexivity|]. axes; lia.
Qed.

(** The result of trimming: what is left is [n] without the cells of the slab,
    and it misses [e]. *)
Definition TrimmedCorrectly (e n t n' : box) (m m' : mask) : Prop :=
  NonEmptyBox n' /\ boxes_overlap e n' = false /\
  (forall c, InBox c n' <-> InBox c n /\ ~ InBox c t) /\
  (forall d, get (mext m') d = get (extent_of_box n') d) /\
  (forall c, InBox c n' -> mval m' (zip3 Z.sub c (lo n')) = mval m (zip3 Z.sub c (lo n))).

(** The slab reaches exactly one of the two faces of [n] across axis [d]. *)
Definition TouchesOneFace (e n : box) (d : axis) : Prop :=
  (get (lo e) d <= get (lo n) d /\ get (hi e) d < get (hi n) d) \/
  (get (lo n) d < get (lo e) d /\ get (hi n) d <= get (hi e) d).

Lemma trim_slab e n d m : NonEmptyBox n -> NonEmptyBox e -> boxes_overlap e n = true ->
  (forall d, get (mext m) d = get (extent_of_box n) d) ->
  (TouchesOneFace e n d ->
     exists n' m', trim_box_by_box n (slab e n d) m = Ok (n', m') /\ TrimmedCorrectly e n (slab e n d) n' m m') /\
  (~ TouchesOneFace e n d -> trim_box_by_box n (slab e n d) m = Err AssertionError).
Proof.
  intros Hn He Ho Hm. rewrite overlap_axes in Ho.
  pose proof (Hn K) as HnK. pose proof (Hn J) as HnJ. pose proof (Hn I) as HnI.
  pose proof (He K) as HeK. pose proof (He J) as HeJ. pose proof (He I) as HeI.
  pose proof (Ho K) as HoK. pose proof (Ho J) as HoJ. pose proof (Ho I) as HoI.
  pose proof (Hm K) as HmK. pose proof (Hm J) as HmJ. pose proof (Hm I) as HmI.
  destruct n as [[lk lj li] [hk hj hi_]], e as [[ek ej ei] [fk fj fi]], m as [[mk mj mi] mv].
  clear Hn He Ho Hm.
  cbn [get lo hi tk tj ti mext extent_of_box zip3] in *.
  unfold TouchesOneFace. split; intros Ht.
  - destruct d; cbn [get lo hi tk tj ti] in Ht; destruct Ht as [Ht|Ht];
    unfold trim_box_by_box, slab; cbn [get lo hi tk tj ti set forall3 extent_of_box zip3 map3].
    all: unfold forall3; cbn [get lo hi tk tj ti set].
    all: repeat match goal with
         | |- context [?x =? ?y] => 
             first [ assert (x =? y = true) as -> by lia | assert (x =? y = false) as -> by lia ]
         end; cbn [andb negb assert_ bind].
    all: repeat match goal with
         | |- context [?x <=? ?y] => assert (x <=? y = true) as -> by lia
         end; cbn [andb negb assert_ bind].
    all: eexists _, _; (split; [reflexivity|]).
    all: unfold TrimmedCorrectly; split; [|split; [|split; [|split]]];
      [ unfold NonEmptyBox; rewrite forall_axis; cbn [get lo hi tk tj ti]; lia
      | unfold boxes_overlap; cbn [get lo hi tk tj ti]; lia
      | intros c; unfold InBox; rewrite !forall_axis; cbn [get lo hi tk tj ti]; lia
      | axes; unfold slice_mask, extent_of_box, zip3, map3, set; cbn [mext get lo hi tk tj ti]; lia
      | intros c _; cbn [mval slice_mask mext]; f_equal; apply trip_ext; axes; unfold zip3, map3; cbn [get set lo hi tk tj ti]; lia ].
  - destruct d; cbn [get lo hi tk tj ti] in Ht;
    unfold trim_box_by_box, slab; cbn [get lo hi tk tj ti set forall3 extent_of_box zip3 map3];
    unfold forall3; cbn [get lo hi tk tj ti set].
    all: repeat match goal with
         | |- context [?x =? ?y] => destruct (Z.eqb_spec x y); cbn [andb negb assert_ bind]; try lia; try reflexivity
         end.
Qed.

Lemma overlapping_false e n t : overlapping_boxes e n = Ok (false, t) ->
  boxes_overlap e n = false /\ t = Box (T 0 0 0) (T 0 0 0).
Proof.
  unfold overlapping_boxes. destruct (boxes_overlap e n) eqn:E; cbn [negb].
  - destruct (snd _); discriminate.
  - intros [= <-]. auto.
Qed.
