(** FineCoarseProofs.v: specification and lemmas for FineCoarseModel.v. *)
From Verif Require Import Base BoxModel BoxProofs FineCoarseModel.
From Coq Require Import QArith.
Open Scope Z_scope.

(** * Specification *)
(** The ratio sequence an axis stands for. *)
Definition ratios_of (a : axdata) : list Z :=
  match cratio a with
  | Some r => repeat r (Z.to_nat (coarse a))
  | None => match vratio a with Some v => v | None => [] end
  end.

(** A consistent axis: one positive ratio per coarse slice, adding up to the
    fine extent. *)
Record ValidAxis (a : axdata) : Prop := {
  va_coarse : 0 < coarse a;
  va_len : Z.of_nat (List.length (ratios_of a)) = coarse a;
  va_pos : forall r, In r (ratios_of a) -> 0 < r;
  va_sum : zsum (ratios_of a) = fine a }.

Definition ValidFC (s : fc) : Prop := forall d, ValidAxis (get (ax s) d).

(** Fine slice [f] belongs to coarse slice [c] of axis [a]. *)
Definition Owns (a : axdata) (c f : Z) : Prop :=
  zsum (firstn (Z.to_nat c) (ratios_of a)) <= f < zsum (firstn (Z.to_nat (c + 1)) (ratios_of a)).

(** * Sums *)
Lemma zsum_app l m : zsum (l ++ m) = zsum l + zsum m.
Proof. unfold zsum. induction l as [|x l IH]; cbn [app fold_right]; [lia|]. rewrite IH. lia. Qed.

Lemma zsum_nonneg l : (forall r, In r l -> 0 < r) -> 0 <= zsum l.
Proof.
  induction l as [|x l IH]; intros H; cbn; [lia|].
  pose proof (H x (or_introl eq_refl)). specialize (IH (fun r Hr => H r (or_intror Hr))). unfold zsum in IH. lia.
Qed.

Lemma zsum_repeat r n : zsum (repeat r n) = Z.of_nat n * r.
Proof. unfold zsum. induction n as [|n IH]; cbn [repeat fold_right]; [lia|]. rewrite IH. lia. Qed.

Lemma firstn_In {A} n (l : list A) x : In x (firstn n l) -> In x l.
Proof. intros H. rewrite <- (firstn_skipn n l). apply in_app_iff. auto. Qed.

Lemma zsum_firstn_S l n d : (n < List.length l)%nat ->
  zsum (firstn (S n) l) = zsum (firstn n l) + nth n l d.
Proof.
  revert n. induction l as [|x l IH]; intros n H; [cbn in H; lia|].
  destruct n as [|n]; cbn [firstn nth zsum fold_right].
  - destruct l; cbn; lia.
  - specialize (IH n ltac:(cbn in H; lia)). unfold zsum in IH. cbn [firstn] in IH. rewrite IH. lia.
Qed.

Lemma zsum_firstn_mono l n m : (forall r, In r l -> 0 < r) -> (n <= m)%nat ->
  zsum (firstn n l) <= zsum (firstn m l).
Proof.
  intros Hp Hle. rewrite <- (firstn_skipn n (firstn m l)), zsum_app, firstn_firstn.
  replace (Nat.min n m) with n by lia.
  assert (0 <= zsum (skipn n (firstn m l))); [|lia].
  apply zsum_nonneg. intros r Hr. apply Hp. apply (firstn_In m).
  rewrite <- (firstn_skipn n (firstn m l)). apply in_app_iff. auto.
Qed.

Lemma firstn_repeat {A} (x : A) n m : (n <= m)%nat -> firstn n (repeat x m) = repeat x n.
Proof.
  revert m. induction n as [|n IH]; intros m H; [reflexivity|].
  destruct m as [|m]; [lia|]. cbn [repeat firstn]. now rewrite IH by lia.
Qed.

Lemma nth_repeat_lt {A} (x d : A) n m : (n < m)%nat -> nth n (repeat x m) d = x.
Proof. revert m. induction n as [|n IH]; intros [|m] H; cbn; try lia; [reflexivity|]. apply IH; lia. Qed.

(** * Axis functions in terms of the ratio sequence *)
Lemma py_nth_ok {A} (l : list A) i d : 0 <= i < Z.of_nat (List.length l) -> py_nth l i = Ok (nth (Z.to_nat i) l d).
Proof.
  intros H. unfold py_nth. assert (i <? 0 = false) as -> by lia.
  assert ((i <? 0) || (Z.of_nat (List.length l) <=? i) = false) as -> by lia.
  rewrite (nth_error_nth' l d) by lia. reflexivity.
Qed.

Lemma ratio_nth a c : ValidAxis a -> 0 <= c < coarse a -> ratio a c = Ok (nth (Z.to_nat c) (ratios_of a) 0).
Proof.
  intros [Hc Hl Hp Hs] H. unfold ratio, ratios_of in *.
  destruct (cratio a) as [r|].
  - rewrite nth_repeat_lt by lia. reflexivity.
  - destruct (vratio a) as [v|]; [|cbn in Hl; lia]. apply py_nth_ok. lia.
Qed.

Lemma base_psum a c : ValidAxis a -> 0 <= c <= coarse a ->
  fine_base_for_coarse_axial a c = Ok (zsum (firstn (Z.to_nat c) (ratios_of a))).
Proof.
  intros [Hc Hl Hp Hs] H. unfold fine_base_for_coarse_axial, ratios_of in *.
  destruct (cratio a) as [r|].
  - rewrite firstn_repeat, zsum_repeat by lia. rewrite Z2Nat.id by lia. reflexivity.
  - destruct (vratio a) as [v|]; [|cbn in Hl; lia]. unfold py_prefix.
    assert (c <? 0 = false) as -> by lia. reflexivity.
Qed.

Lemma first_fine_psum a c : ValidAxis a -> 0 <= c <= coarse a ->
  first_fine a c = Ok (zsum (firstn (Z.to_nat c) (ratios_of a))).
Proof.
  intros Ha H. rewrite <- base_psum by assumption. unfold first_fine, fine_base_for_coarse_axial.
  destruct (cratio a) eqn:E; [reflexivity|]. destruct (Z.eqb_spec c 0) as [->|]; [|reflexivity].
  destruct Ha as [Hc Hl _ _]. unfold ratios_of in Hl. rewrite E in Hl.
  destruct (vratio a); [|cbn in Hl; lia]. reflexivity.
Qed.

(** * The fine to coarse mapping *)
Fixpoint expand (c0 : Z) (rs : list Z) : list Z :=
  match rs with [] => [] | r :: rs' => repeat c0 (Z.to_nat r) ++ expand (c0 + 1) rs' end.

Lemma slice_set_from_out l : forall i f0 f1 v, f1 <= i -> slice_set_from i l f0 f1 v = l.
Proof.
  induction l as [|x l IH]; intros i f0 f1 v H; cbn [slice_set_from]; [reflexivity|].
  rewrite IH by lia. assert (i <? f1 = false) as -> by lia. now rewrite andb_false_r.
Qed.

Lemma slice_set_from_none n : forall i f0 f1 v, f0 <= i -> (Z.to_nat (f1 - i) <= n)%nat ->
  slice_set_from i (repeat None n) f0 f1 v =
  repeat (Some v) (Z.to_nat (f1 - i)) ++ repeat None (n - Z.to_nat (f1 - i)).
Proof.
  induction n as [|n IH]; intros i f0 f1 v Hf Hn.
  - cbn. replace (Z.to_nat (f1 - i)) with 0%nat by lia. reflexivity.
  - cbn [repeat slice_set_from]. assert (f0 <=? i = true) as -> by lia. cbn [andb].
    destruct (Z.ltb_spec i f1).
    + rewrite IH by lia. replace (Z.to_nat (f1 - i)) with (S (Z.to_nat (f1 - (i + 1)))) by lia.
      cbn [repeat app]. repeat f_equal.
    + rewrite slice_set_from_out by lia. replace (Z.to_nat (f1 - i)) with 0%nat by lia. reflexivity.
Qed.

Lemma slice_set_from_app l m : forall i f0 f1 v, i + Z.of_nat (List.length l) <= f0 ->
  slice_set_from i (l ++ m) f0 f1 v = l ++ slice_set_from (i + Z.of_nat (List.length l)) m f0 f1 v.
Proof.
  induction l as [|x l IH]; intros i f0 f1 v H; cbn [app slice_set_from List.length].
  - now rewrite Z.add_0_r.
  - cbn [List.length] in H. rewrite IH by lia. assert (f0 <=? i = false) as -> by lia. cbn [andb].
    replace (i + Z.of_nat (S (List.length l))) with (i + 1 + Z.of_nat (List.length l)) by lia. reflexivity.
Qed.

Lemma slice_set_block (pre : cvec) n r v : (Z.to_nat r <= n)%nat -> 0 <= r ->
  slice_set (pre ++ repeat None n) (Z.of_nat (List.length pre)) (Z.of_nat (List.length pre) + r) v =
  pre ++ repeat (Some v) (Z.to_nat r) ++ repeat None (n - Z.to_nat r).
Proof.
  intros H Hr. unfold slice_set. rewrite slice_set_from_app by lia.
  rewrite slice_set_from_none by lia. repeat f_equal; lia.
Qed.

Lemma map_repeat {A B} (f : A -> B) x n : map f (repeat x n) = repeat (f x) n.
Proof. induction n as [|n IH]; cbn; congruence. Qed.

Lemma map_loop_expand a : ValidAxis a -> forall n c pre,
  n = Z.to_nat (coarse a - c) -> 0 <= c <= coarse a ->
  Z.of_nat (List.length pre) = zsum (firstn (Z.to_nat c) (ratios_of a)) ->
  map_loop a (zrange2 c (coarse a)) (Z.of_nat (List.length pre))
    (pre ++ repeat None (Z.to_nat (fine a) - List.length pre)) =
  Ok (fine a, pre ++ map Some (expand c (skipn (Z.to_nat c) (ratios_of a)))).
Proof.
  intros Ha. induction n as [|n IH]; intros c pre Hn Hc Hpre.
  - assert (c = coarse a) as -> by lia. rewrite zrange2_nil by lia. cbn [map_loop].
    destruct Ha as [H1 H2 H3 H4].
    rewrite firstn_all2 in Hpre by lia. rewrite H4 in Hpre.
    rewrite skipn_all2 by lia. cbn [expand map].
    replace (Z.to_nat (fine a) - List.length pre)%nat with 0%nat by lia. cbn [repeat]. now rewrite Hpre.
  - rewrite zrange2_cons by lia. cbn [map_loop]. rewrite ratio_nth by (assumption || lia). cbn [bind].
    pose proof Ha as [H1 H2 H3 H4].
    set (r := nth (Z.to_nat c) (ratios_of a) 0).
    assert (Hr : 0 < r) by (apply H3, nth_In; lia).
    pose proof (zsum_firstn_S (ratios_of a) (Z.to_nat c) 0 ltac:(lia)) as Hsum. fold r in Hsum.
    pose proof (zsum_firstn_mono (ratios_of a) (S (Z.to_nat c)) (List.length (ratios_of a)) H3 ltac:(lia)) as Hmono.
    rewrite firstn_all, H4 in Hmono.
    rewrite slice_set_block by lia.
    rewrite app_assoc.
    specialize (IH (c + 1) (pre ++ repeat (Some c) (Z.to_nat r)) ltac:(lia) ltac:(lia)).
    rewrite app_length, repeat_length in IH.
    replace (Z.to_nat (c + 1)) with (S (Z.to_nat c)) in IH by lia.
    specialize (IH ltac:(lia)).
    replace (Z.of_nat (List.length pre + Z.to_nat r)) with (Z.of_nat (List.length pre) + r) in IH by lia.
    replace (Z.to_nat (fine a) - (List.length pre + Z.to_nat r))%nat
      with (Z.to_nat (fine a) - List.length pre - Z.to_nat r)%nat in IH by lia.
    rewrite IH. f_equal. f_equal. rewrite <- app_assoc. f_equal.
    assert (skipn (Z.to_nat c) (ratios_of a) = r :: skipn (S (Z.to_nat c)) (ratios_of a)) as ->.
    { subst r. clear -H2 Hc Hn. set (l := ratios_of a) in *. assert (H : (Z.to_nat c < List.length l)%nat) by lia.
      clearbody l. revert H. generalize (Z.to_nat c) as k. clear. induction l as [|x l IHl]; intros k H; [cbn in H; lia|].
      destruct k as [|k]; [reflexivity|]. cbn [skipn nth]. apply IHl. cbn in H; lia. }
    cbn [expand]. rewrite map_app, map_repeat. reflexivity.
Qed.

Lemma map_axis_expand a : ValidAxis a -> map_axis a = (Some (map Some (expand 0 (ratios_of a))), Ok tt).
Proof.
  intros Ha. unfold map_axis.
  pose proof (map_loop_expand a Ha (Z.to_nat (coarse a - 0)) 0 [] eq_refl) as H.
  destruct Ha as [H1 H2 H3 H4].
  specialize (H ltac:(lia) eq_refl). cbn [List.length app] in H. rewrite Nat.sub_0_r in H.
  change (Z.to_nat 0) with 0%nat in H. cbn [skipn] in H.
  assert (zrange (coarse a) = zrange2 0 (coarse a)) as ->.
  { unfold zrange, zrange2. rewrite Z.sub_0_r. reflexivity. }
  change (Z.of_nat 0) with 0 in H. rewrite H, Z.eqb_refl. reflexivity.
Qed.

Lemma expand_length rs : forall c, (forall r, In r rs -> 0 < r) -> Z.of_nat (List.length (expand c rs)) = zsum rs.
Proof.
  induction rs as [|r rs IH]; intros c H; [reflexivity|]. cbn [expand zsum fold_right].
  rewrite app_length, repeat_length, Nat2Z.inj_add, IH by (intros; apply H; right; assumption).
  pose proof (H r (or_introl eq_refl)). unfold zsum. lia.
Qed.

Lemma expand_nth rs : forall c f, (forall r, In r rs -> 0 < r) -> 0 <= f < zsum rs ->
  exists i, 0 <= i < Z.of_nat (List.length rs) /\ nth (Z.to_nat f) (expand c rs) 0 = c + i /\
    zsum (firstn (Z.to_nat i) rs) <= f < zsum (firstn (Z.to_nat (i + 1)) rs).
Proof.
  induction rs as [|r rs IH]; intros c f Hp Hf; [cbn in Hf; lia|].
  pose proof (Hp r (or_introl eq_refl)) as Hr.
  assert (Hp' : forall x, In x rs -> 0 < x) by (intros; apply Hp; right; assumption).
  cbn [expand]. destruct (Z.ltb_spec f r) as [Hlt|Hge].
  - exists 0. rewrite app_nth1 by (rewrite repeat_length; lia). rewrite nth_repeat_lt by lia.
    split; [cbn [List.length]; lia|]. split; [lia|]. change (Z.to_nat (0 + 1)) with 1%nat. cbn. lia.
  - destruct (IH (c + 1) (f - r) Hp') as (i & Hi & Hn & Hs).
    { cbn [zsum fold_right] in Hf. unfold zsum. lia. }
    exists (i + 1). rewrite app_nth2 by (rewrite repeat_length; lia). rewrite repeat_length.
    split; [cbn [List.length]; lia|]. split.
    + rewrite <- Z.add_assoc, (Z.add_comm 1 i), Z.add_assoc in Hn.
      replace (Z.to_nat f - Z.to_nat r)%nat with (Z.to_nat (f - r)) by lia. rewrite Hn. lia.
    + replace (Z.to_nat (i + 1 + 1)) with (S (Z.to_nat (i + 1))) by lia.
      replace (Z.to_nat (i + 1)) with (S (Z.to_nat i)) in * by lia.
      cbn [firstn zsum fold_right]. cbn [firstn] in Hs. unfold zsum in Hs. lia.
Qed.

Lemma owns_unique a c c' f : ValidAxis a -> 0 <= c -> 0 <= c' -> Owns a c f -> Owns a c' f -> c = c'.
Proof.
  intros [H1 H2 H3 H4] Hc Hc' Ho Ho'. unfold Owns in *.
  destruct (Z.lt_trichotomy c c') as [H|[H|H]]; [|assumption|]; exfalso.
  - pose proof (zsum_firstn_mono (ratios_of a) (Z.to_nat (c + 1)) (Z.to_nat c') H3 ltac:(lia)). lia.
  - pose proof (zsum_firstn_mono (ratios_of a) (Z.to_nat (c' + 1)) (Z.to_nat c) H3 ltac:(lia)). lia.
Qed.

Lemma lookup_expand a f : ValidAxis a -> 0 <= f < fine a ->
  exists c, 0 <= c < coarse a /\ Owns a c f /\
   py_nth (map Some (expand 0 (ratios_of a))) f = Ok (Some c).
Proof.
  intros Ha Hf. pose proof Ha as [H1 H2 H3 H4].
  destruct (expand_nth (ratios_of a) 0 f H3 ltac:(lia)) as (i & Hi & Hn & Hs).
  exists i. split; [lia|]. split; [assumption|].
  pose proof (expand_length (ratios_of a) 0 H3) as Hl.
  rewrite (py_nth_ok _ _ None) by (rewrite map_length; lia).
  f_equal. rewrite (nth_indep _ None (Some 0)) by (rewrite map_length; lia).
  rewrite map_nth, Hn. reflexivity.
Qed.

Lemma owns_nonempty a c : ValidAxis a -> 0 <= c < coarse a ->
  Owns a c (zsum (firstn (Z.to_nat c) (ratios_of a))) /\
  0 <= zsum (firstn (Z.to_nat c) (ratios_of a)) < fine a.
Proof.
  intros [H1 H2 H3 H4] Hc. unfold Owns.
  replace (Z.to_nat (c + 1)) with (S (Z.to_nat c)) by lia.
  pose proof (zsum_firstn_S (ratios_of a) (Z.to_nat c) 0 ltac:(lia)) as E.
  pose proof (H3 (nth (Z.to_nat c) (ratios_of a) 0) ltac:(apply nth_In; lia)).
  pose proof (zsum_firstn_mono (ratios_of a) (S (Z.to_nat c)) (List.length (ratios_of a)) H3 ltac:(lia)) as Hm.
  rewrite firstn_all in Hm.
  pose proof (zsum_firstn_mono (ratios_of a) 0 (Z.to_nat c) H3 ltac:(lia)) as Hm0.
  cbn [firstn zsum fold_right] in Hm0. lia.
Qed.

(** * Whole objects *)
Lemma mapping_valid s : ValidFC s -> cache s = None ->
  coarse_for_fine s =
    (FC (ax s) (Some (map3 (fun a => Some (map Some (expand 0 (ratios_of a)))) (ax s))),
     Ok (map3 (fun a => Some (map Some (expand 0 (ratios_of a)))) (ax s))).
Proof.
  intros H Hc. unfold coarse_for_fine. rewrite Hc. unfold set_mapping.
  rewrite (map_axis_expand (tk (ax s))) by apply (H K).
  rewrite (map_axis_expand (tj (ax s))) by apply (H J).
  rewrite (map_axis_expand (ti (ax s))) by apply (H I).
  reflexivity.
Qed.

Definition fine_extent (s : fc) : cell := map3 fine (ax s).
Definition coarse_extent (s : fc) : cell := map3 coarse (ax s).
Definition InExtent (c e : cell) : Prop := forall d, 0 <= get c d < get e d.

Lemma fine_box_spec s c : ValidFC s -> InExtent c (coarse_extent s) ->
  exists b, fine_box_for_coarse s c = Ok b /\ NonEmptyBox b /\
    (forall d, get (lo b) d = zsum (firstn (Z.to_nat (get c d)) (ratios_of (get (ax s) d)))) /\
    (forall f, InBox f b <-> forall d, Owns (get (ax s) d) (get c d) (get f d)).
Proof.
  intros Hs Hc. unfold fine_box_for_coarse, fine_base_for_coarse, ratios.
  assert (Hc' : forall d, 0 <= get c d < coarse (get (ax s) d)).
  { intros d. specialize (Hc d). unfold coarse_extent in Hc. now rewrite get_map3 in Hc. }
  assert (Eb : seq3 (zip3 fine_base_for_coarse_axial (ax s) c) =
     Ok (zip3 (fun a x => zsum (firstn (Z.to_nat x) (ratios_of a))) (ax s) c)).
  { unfold seq3, zip3. cbn [tk tj ti].
    rewrite (base_psum (tk (ax s))) by (first [apply (Hs K) | pose proof (Hc' K); cbn [get] in *; lia]).
    rewrite (base_psum (tj (ax s))) by (first [apply (Hs J) | pose proof (Hc' J); cbn [get] in *; lia]).
    rewrite (base_psum (ti (ax s))) by (first [apply (Hs I) | pose proof (Hc' I); cbn [get] in *; lia]).
    reflexivity. }
  assert (Er : seq3 (zip3 ratio (ax s) c) =
     Ok (zip3 (fun a x => nth (Z.to_nat x) (ratios_of a) 0) (ax s) c)).
  { unfold seq3, zip3. cbn [tk tj ti].
    rewrite (ratio_nth (tk (ax s))) by (first [apply (Hs K) | apply (Hc' K)]).
    rewrite (ratio_nth (tj (ax s))) by (first [apply (Hs J) | apply (Hc' J)]).
    rewrite (ratio_nth (ti (ax s))) by (first [apply (Hs I) | apply (Hc' I)]).
    reflexivity. }
  rewrite Eb, Er. cbn [bind]. eexists. split; [reflexivity|].
  assert (Hd : forall d, zsum (firstn (Z.to_nat (get c d + 1)) (ratios_of (get (ax s) d))) =
     zsum (firstn (Z.to_nat (get c d)) (ratios_of (get (ax s) d))) + nth (Z.to_nat (get c d)) (ratios_of (get (ax s) d)) 0
     /\ 0 < nth (Z.to_nat (get c d)) (ratios_of (get (ax s) d)) 0).
  { intros d. specialize (Hc' d). destruct (Hs d) as [H1 H2 H3 H4].
    replace (Z.to_nat (get c d + 1)) with (S (Z.to_nat (get c d))) by lia.
    split; [apply zsum_firstn_S; lia|]. apply H3, nth_In. lia. }
  split; [|split].
  - intros d. cbn [lo hi]. rewrite !get_zip3. specialize (Hd d). lia.
  - intros d. cbn [lo hi]. now rewrite !get_zip3.
  - intros f. unfold InBox, Owns. cbn [lo hi].
    split; intros H d; specialize (H d); specialize (Hd d); rewrite !get_zip3 in *; lia.
Qed.

Lemma kji0_lookup s f : ValidFC s -> cache s = None -> InExtent f (fine_extent s) ->
  exists c, snd (coarse_for_fine_kji0 s f) = Ok (map3 Some c) /\ InExtent c (coarse_extent s) /\
    forall d, Owns (get (ax s) d) (get c d) (get f d).
Proof.
  intros Hs Hc Hf. unfold coarse_for_fine_kji0. rewrite mapping_valid by assumption. cbn [snd bind].
  assert (Hf' : forall d, 0 <= get f d < fine (get (ax s) d)).
  { intros d. specialize (Hf d). unfold fine_extent in Hf. now rewrite get_map3 in Hf. }
  destruct (lookup_expand (tk (ax s)) (tk f) (Hs K) (Hf' K)) as (ck & Hk1 & Hk2 & Hk3).
  destruct (lookup_expand (tj (ax s)) (tj f) (Hs J) (Hf' J)) as (cj & Hj1 & Hj2 & Hj3).
  destruct (lookup_expand (ti (ax s)) (ti f) (Hs I) (Hf' I)) as (ci & Hi1 & Hi2 & Hi3).
  exists (T ck cj ci). unfold map_lookup, map3, seq3. cbn [get tk tj ti].
  rewrite Hk3, Hj3, Hi3. cbn [bind]. split; [reflexivity|].
  split; unfold InExtent, coarse_extent, map3; intros [ | | ]; cbn [get tk tj ti]; assumption.
Qed.

Lemma partition s : ValidFC s -> cache s = None ->
  forall f, InExtent f (fine_extent s) ->
  exists c, snd (coarse_for_fine_kji0 s f) = Ok (map3 Some c) /\ InExtent c (coarse_extent s) /\
    forall c' b, InExtent c' (coarse_extent s) -> fine_box_for_coarse s c' = Ok b ->
      (InBox f b <-> c' = c).
Proof.
  intros Hs Hc f Hf. destruct (kji0_lookup s f Hs Hc Hf) as (c & H1 & H2 & H3).
  exists c. split; [assumption|]. split; [assumption|].
  intros c' b Hc' Hb. destruct (fine_box_spec s c' Hs Hc') as (b' & Hb' & _ & _ & Hin).
  assert (b' = b) as -> by congruence. rewrite Hin. split.
  - intros H. apply trip_ext. intros d.
    apply (owns_unique (get (ax s) d) _ _ (get f d) (Hs d)); try apply H; try apply H3;
    specialize (Hc' d); specialize (H2 d); lia.
  - intros ->. assumption.
Qed.

Lemma boxes_inside s : ValidFC s -> forall c, InExtent c (coarse_extent s) ->
  exists b, fine_box_for_coarse s c = Ok b /\ NonEmptyBox b /\
    forall f, InBox f b -> InExtent f (fine_extent s).
Proof.
  intros Hs c Hc. destruct (fine_box_spec s c Hs Hc) as (b & Hb & Hne & _ & Hin).
  exists b. split; [assumption|]. split; [assumption|].
  intros f Hf d. rewrite Hin in Hf. specialize (Hf d). specialize (Hc d).
  unfold fine_extent, coarse_extent in *. rewrite get_map3 in *.
  destruct (Hs d) as [H1 H2 H3 H4]. unfold Owns in Hf.
  pose proof (zsum_firstn_mono (ratios_of (get (ax s) d)) (Z.to_nat (get c d + 1)) (List.length (ratios_of (get (ax s) d))) H3 ltac:(lia)) as Hm.
  rewrite firstn_all in Hm.
  pose proof (zsum_firstn_mono (ratios_of (get (ax s) d)) 0 (Z.to_nat (get c d)) H3 ltac:(lia)) as Hm0.
  cbn [firstn zsum fold_right] in Hm0. lia.
Qed.

Lemma mapping_monotone s d f1 f2 c1 c2 : ValidFC s -> cache s = None ->
  0 <= f1 <= f2 -> f2 < get (fine_extent s) d ->
  snd (coarse_for_fine_axial s d f1) = Ok (Some c1) ->
  snd (coarse_for_fine_axial s d f2) = Ok (Some c2) -> c1 <= c2.
Proof.
  intros Hs Hc Hf Hf2. unfold coarse_for_fine_axial. rewrite mapping_valid by assumption. cbn [snd bind].
  unfold map_lookup. rewrite get_map3. unfold fine_extent in Hf2. rewrite get_map3 in Hf2.
  destruct (lookup_expand _ f1 (Hs d) ltac:(lia)) as (x1 & Hx1 & Ho1 & ->).
  destruct (lookup_expand _ f2 (Hs d) ltac:(lia)) as (x2 & Hx2 & Ho2 & ->).
  intros [= <-] [= <-]. destruct (Z.leb_spec x1 x2); [assumption|exfalso].
  unfold Owns in *. destruct (Hs d) as [H1 H2 H3 H4].
  pose proof (zsum_firstn_mono (ratios_of (get (ax s) d)) (Z.to_nat (x2 + 1)) (Z.to_nat x1) H3 ltac:(lia)). lia.
Qed.
