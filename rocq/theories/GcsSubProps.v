(** GcsSubProps.v: subsets and unions of grid connection sets (C71). *)
From Coq Require Import Permutation Sorted.
From Verif Require Import QBase StrModel BisectModel BisectProofs BisectProofs4 GcsModel GcsProofs GcsProofs2 GcsProofs3.
Open Scope Z_scope.

(** ** Specification: the connections of a set, each with the feature its feature index stands for *)
Definition entries (g : gcs) : list (link * option feature) :=
  match feature_indices g, feature_list g with
  | Some fi, Some fl => map (fun '(l, f) => (l, nth_error fl (Z.to_nat f))) (combine (links g) fi)
  | _, _ => []
  end.
(** every connection has a feature *)
Definition well_formed (g : gcs) : Prop := exists fi fl, feature_indices g = Some fi /\ feature_list g = Some fl /\
  List.length fi = List.length (links g) /\ forall f, In f fi -> 0 <= f < Z.of_nat (List.length fl).
(** every feature has a connection *)
Definition no_unused_feature (g : gcs) : Prop := forall fi fl, feature_indices g = Some fi -> feature_list g = Some fl ->
  forall f, 0 <= f < Z.of_nat (List.length fl) -> In f fi.
Definition cells_within (n : trip Z) (g : gcs) : Prop := forall l, In l (links g) ->
  exists c d, within n c /\ within n d /\ ca l = natural n c /\ cb l = natural n d.
(** the connection l, between the cells c and d, is kept by the mask *)
Definition kept_by (n : trip Z) (mask : cell -> bool) (both : bool) (l : link) : bool :=
  let a := mask (denatural n (ca l)) in let b := mask (denatural n (cb l)) in if both then a && b else a || b.

(** ** Proofs *)
Lemma unique_sorted_spec l : StronglySorted le_id l ->
  StronglySorted Z.lt (unique_sorted l) /\ (forall x, In x (unique_sorted l) <-> In x l) /\
  (forall x, Forall (fun y => x < y) l -> Forall (fun y => x < y) (unique_sorted l)).
Proof.
  assert (G : forall x, (forall y, In y (unique_sorted l) <-> In y l) -> Forall (fun y => x < y) l -> Forall (fun y => x < y) (unique_sorted l)).
  { intros x H F. rewrite Forall_forall in *. intros y Hy. now apply F, H. }
  intros S. enough (H : StronglySorted Z.lt (unique_sorted l) /\ (forall x, In x (unique_sorted l) <-> In x l)) by (destruct H; auto).
  clear G. induction S as [|x r S IH F]; [split; [constructor|tauto]|]. destruct IH as [IH1 IH2].
  cbn [unique_sorted]. destruct r as [|y r]; [split; [repeat constructor|tauto]|].
  destruct (Z.eqb_spec x y) as [->|N].
  - split; [assumption|]. intros z. rewrite IH2. cbn [In]. tauto.
  - split.
    + constructor; [assumption|]. rewrite Forall_forall. intros z Hz. apply IH2 in Hz.
      rewrite Forall_forall in F. pose proof (F z Hz) as Lz. pose proof (F y (or_introl eq_refl)) as Ly. unfold le_id, le_key in Lz, Ly.
      destruct Hz as [<-|Hz]; [lia|]. inversion S as [|? ? S' F']; subst. rewrite Forall_forall in F'. specialize (F' z Hz). unfold le_id, le_key in F'. lia.
    + intros z. cbn [In] in *. rewrite IH2. tauto.
Qed.
Lemma unique_spec l : StronglySorted Z.lt (unique l) /\ forall x, In x (unique l) <-> In x l.
Proof.
  unfold unique. destruct (unique_sorted_spec (sort_by (fun x => x) l)) as (A & B & _); [apply sort_by_sorted|].
  split; [assumption|]. intros x. rewrite B. split; apply Permutation_in; [symmetry|]; apply sort_by_perm.
Qed.

Lemma clean_loop_spec fl : forall keep i fi, StronglySorted Z.lt keep -> 0 <= i ->
  (forall k, In k keep -> i <= k < Z.of_nat (List.length fl)) ->
  (forall f, In f fi -> 0 <= f < i \/ In f keep) ->
  exists fi' r, clean_loop i keep fi fl = Ok (fi', r) /\ List.length r = List.length keep /\
    Forall2 (fun f f' => (f < i /\ f' = f) \/ (i <= f /\ i <= f' < i + Z.of_nat (List.length keep) /\ nth_error r (Z.to_nat (f' - i)) = nth_error fl (Z.to_nat f))) fi fi' /\
    ((forall k, In k keep -> In k fi) -> forall p, i <= p < i + Z.of_nat (List.length keep) -> In p fi').
Proof.
  induction keep as [|k keep IH]; intros i fi S Hi B C; cbn [clean_loop].
  - exists fi, []. split; [reflexivity|]. split; [reflexivity|]. split; [|intros _ p Hp; cbn in Hp; lia].
    assert (forall f, In f fi -> f < i) as F by (intros f Hf; destruct (C f Hf) as [?|[]]; lia). clear C.
    induction fi as [|f fi IHf]; constructor; [left; split; [apply F; now left|reflexivity]|]. apply IHf. intros; apply F; now right.
  - inversion S as [|? ? S' F]; subst. rewrite Forall_forall in F.
    assert (Bk : i <= k < Z.of_nat (List.length fl)) by (apply B; now left).
    replace (i <=? k) with true by lia. cbn [assert_ bind].
    set (fi1 := if i =? k then fi else map (fun f => if f =? k then i else f) fi).
    assert (E1 : fi1 = map (fun f => if f =? k then i else f) fi).
    { unfold fi1. destruct (Z.eqb_spec i k) as [<-|_]; [|reflexivity]. rewrite <- (map_id fi) at 1. apply map_ext. intros f. destruct (Z.eqb_spec f i); congruence. }
    clearbody fi1. subst fi1.
    destruct (nth_error fl (Z.to_nat k)) as [x|] eqn:Ex; [|apply nth_error_None in Ex; lia]. cbn [bind].
    destruct (IH (i + 1) (map (fun f => if f =? k then i else f) fi) S') as (fi' & r & E & L & F2 & U).
    + lia.
    + intros k' Hk'. specialize (F k' Hk'). specialize (B k' (or_intror Hk')). lia.
    + intros f1 Hf1. apply in_map_iff in Hf1. destruct Hf1 as (f & <- & Hf). destruct (Z.eqb_spec f k) as [->|N]; [left; lia|].
      destruct (C f Hf) as [?|[?|?]]; [left; lia|congruence|now right].
    + rewrite E. cbn [bind]. exists fi', (x :: r). split; [reflexivity|]. split; [cbn; lia|]. split.
      * clear U E. cbn [List.length]. revert C F2. clear IH. generalize fi' as gi. induction fi as [|f fi IHf]; intros gi C F2; inversion F2 as [|? f' ? gi' H F2']; subst; constructor.
        -- cbv beta in H. destruct (Z.eqb_spec f k) as [->|N].
           ++ destruct H as [[_ ->]|[H _]]; [|lia]. right. split; [lia|]. split; [lia|]. rewrite Z.sub_diag. cbn. now rewrite Ex.
           ++ destruct H as [[H ->]|(H1 & H2 & H3)].
              ** left. split; [|reflexivity]. destruct (C f (or_introl eq_refl)) as [?|[?|Hin]]; [lia|congruence|]. specialize (F f Hin). lia.
              ** right. split; [lia|]. split; [lia|]. replace (Z.to_nat (f' - i)) with (Datatypes.S (Z.to_nat (f' - (i + 1)))) by lia. exact H3.
        -- apply IHf; [intros; apply C; now right|assumption].
      * intros Hall p Hp. cbn [List.length] in Hp.
        destruct (Z.eq_dec p i) as [->|Np].
        -- assert (Hk : In i (map (fun f => if f =? k then i else f) fi)) by (apply in_map_iff; exists k; rewrite Z.eqb_refl; split; [reflexivity|apply Hall; now left]).
           clear - F2 Hk. induction F2 as [|a b l l' H F2 IH]; [destruct Hk|]. destruct Hk as [->|Hk]; [|right; auto].
           destruct H as [[_ ->]|[H _]]; [now left|lia].
        -- apply U; [|lia]. intros k' Hk'. apply in_map_iff. exists k'. specialize (F k' Hk'). replace (k' =? k) with false by lia.
           split; [reflexivity|]. apply Hall. now right.
Qed.

Lemma forall2_length {A B} (P : A -> B -> Prop) l l' : Forall2 P l l' -> List.length l = List.length l'.
Proof. induction 1; cbn; congruence. Qed.
Lemma entries_ext l fi fi' fl fl' : List.length fi = List.length fi' ->
  Forall2 (fun f f' => nth_error fl' (Z.to_nat f') = nth_error fl (Z.to_nat f)) fi fi' ->
  entries (Gcs l (Some fi') (Some fl')) = entries (Gcs l (Some fi) (Some fl)).
Proof.
  intros _ F. unfold entries. cbn. revert l. induction F as [|f f' fi fi' H F IH]; intros [|x l]; try reflexivity.
  cbn. now rewrite H, IH.
Qed.

(** C71: removing the unused features leaves every connection with its feature and no feature without
    a connection. *)
Theorem C71_clean_feature_list : forall g, well_formed g -> exists g', clean_feature_list g = Ok g' /\
  links g' = links g /\ entries g' = entries g /\ well_formed g' /\ no_unused_feature g'.
Proof.
  intros [l ofi ofl] (fi & fl & Efi & Efl & L & B). cbn in Efi, Efl, L. subst. unfold clean_feature_list. cbn [feature_indices feature_list].
  destruct (unique_spec fi) as [S U].
  destruct (Nat.eqb_spec (List.length (unique fi)) (List.length fl)) as [E|N].
  - exists (Gcs l (Some fi) (Some fl)). split; [reflexivity|]. split; [reflexivity|]. split; [reflexivity|]. split; [exists fi, fl; auto|].
    intros fi0 fl0 [= <-] [= <-] f Hf. apply U.
    assert (I1 : incl (zrange (Z.of_nat (List.length fl))) (unique fi)).
    { apply NoDup_length_incl; [now apply strict_NoDup|rewrite length_zrange; lia|]. intros x Hx. apply in_zrange. apply U in Hx. now apply B. }
    apply I1, in_zrange. lia.
  - destruct (clean_loop_spec fl (unique fi) 0 fi S) as (fi' & r & E & Lr & F2 & Us).
    + lia.
    + intros k Hk. apply B. now apply U.
    + intros f Hf. right. now apply U.
    + rewrite E. cbn [bind]. exists (Gcs l (Some fi') (Some r)). cbn [links]. split; [reflexivity|]. split; [reflexivity|].
      assert (F3 : Forall2 (fun f f' => nth_error r (Z.to_nat f') = nth_error fl (Z.to_nat f)) fi fi').
      { assert (B0 : forall f, In f fi -> 0 <= f) by (intros; now apply B). clear - F2 B0. revert F2 B0. generalize (List.length (unique fi)) as q. intros q F2 B0. induction F2 as [|f f' fj fj' H F2 IH]; constructor; [|apply IH; intros; apply B0; now right].
        destruct H as [[H _]|(_ & _ & H)]; [specialize (B0 f (or_introl eq_refl)); lia|]. now rewrite Z.sub_0_r in H. }
      split; [apply entries_ext; [eapply forall2_length; exact F2|exact F3]|]. split.
      * exists fi', r. cbn. split; [reflexivity|]. split; [reflexivity|]. split; [rewrite <- L; symmetry; eapply forall2_length; exact F2|].
        intros f' Hf'. clear - F2 B Hf' Lr. revert F2 B Hf' Lr. generalize (List.length (unique fi)) as q. intros q F2 B Hf' Lr. revert B Hf'. induction F2 as [|f f1 fj fj' H F2 IH]; intros B Hf'; [destruct Hf'|]. destruct Hf' as [->|Hf'].
        -- destruct H as [[H ->]|(_ & H & _)]; [specialize (B f (or_introl eq_refl)); lia|lia].
        -- apply IH; [intros; apply B; now right|assumption].
      * intros fi0 fl0 [= <-] [= <-] f Hf. apply Us; [|lia]. intros k Hk. now apply U.
Qed.
Print Assumptions C71_clean_feature_list.

(** ** filtering *)
Lemma keep_flagged_map {A} (p : A -> bool) l : keep_flagged (map p l) l = filter p l.
Proof. induction l as [|x l IH]; [reflexivity|]. cbn [map filter]. rewrite keep_flagged_cons, IH. reflexivity. Qed.
Lemma Forall2_flagged {A B} (P : A -> B -> Prop) m l1 l2 : Forall2 P l1 l2 -> Forall2 P (keep_flagged m l1) (keep_flagged m l2).
Proof.
  intros H. revert m. induction H as [|x y l1 l2 Hxy H IH]; intros [|b m]; try constructor. rewrite !keep_flagged_cons. destruct b; [constructor|]; auto.
Qed.
Lemma take_at_flagged {A} m (l : list A) : take_at l (keep_flagged m (zrange (Z.of_nat (List.length l)))) = Ok (keep_flagged m l).
Proof. apply take_at_ok. apply Forall2_flagged. rewrite zrange_zrange2. apply (Forall2_zrange l []). Qed.
Lemma sorted_flagged m l : StronglySorted Z.lt l -> StronglySorted Z.lt (keep_flagged m l).
Proof.
  intros H. revert m. induction H as [|x l S IH F]; intros [|b m]; try constructor. rewrite keep_flagged_cons. destruct b; [|apply IH].
  constructor; [apply IH|]. rewrite Forall_forall in *. intros y Hy. apply F. now apply in_keep_flagged in Hy.
Qed.
Lemma sorted_zrange n : StronglySorted Z.lt (zrange n).
Proof.
  unfold zrange. generalize (Z.to_nat n) as k. intros k. generalize 0%nat as a. induction k as [|k IH]; intros a; constructor; [apply IH|].
  rewrite Forall_forall. intros x Hx. apply in_map_iff in Hx. destruct Hx as (y & <- & Hy). apply in_seq in Hy. lia.
Qed.
Lemma entries_flagged m l fi fl : List.length fi = List.length l ->
  entries (Gcs (keep_flagged m l) (Some (keep_flagged m fi)) (Some fl)) = keep_flagged m (entries (Gcs l (Some fi) (Some fl))).
Proof.
  intros L. unfold entries. cbn. rewrite keep_flagged_combine by auto.
  unfold keep_flagged at 1. rewrite map_map. unfold keep_flagged. revert m. generalize (combine l fi) as cs. induction cs as [|[x f] cs IH]; intros [|b m]; try reflexivity.
  cbn. destruct b; cbn; rewrite IH; reflexivity.
Qed.
Lemma map_fst_entries l fi fl : List.length fi = List.length l -> map fst (entries (Gcs l (Some fi) (Some fl))) = l.
Proof. intros H. unfold entries. cbn. revert fi H. induction l as [|x l IH]; intros [|f fi] H; try discriminate; [reflexivity|]. cbn. f_equal. apply IH. now injection H. Qed.

Theorem C71_filtered_by_cell_mask : forall n g mask both pare_down, well_formed g -> cells_within n g ->
  let kept := filter (fun e => kept_by n mask both (fst e)) (entries g) in
  (kept = [] -> filtered_by_cell_mask n g mask both pare_down = Ok None) /\
  (kept <> [] -> exists g' is, filtered_by_cell_mask n g mask both pare_down = Ok (Some (g', is)) /\
     entries g' = kept /\ well_formed g' /\
     StronglySorted Z.lt is /\ take_at (links g) is = Ok (links g') /\
     (if pare_down then no_unused_feature g' else feature_list g' = feature_list g)).
Proof.
  intros n [l ofi ofl] mask both pd (fi & fl & Efi & Efl & L & B) W kept. cbn in Efi, Efl, L. subst ofi ofl. unfold cells_within in W. cbn in W.
  unfold filtered_by_cell_mask. cbn [links feature_indices feature_list].
  assert (E : map_res (passes n mask both) l = Ok (map (kept_by n mask both) l)).
  { apply map_res_ok. intros x Hx. destruct (W x Hx) as (c & d & Wc & Wd & Ec & Ed). unfold passes, flat_index, kept_by.
    rewrite (wrap_index_ok _ (ca x)) by (rewrite Ec; now apply natural_bounds).
    rewrite (wrap_index_ok _ (cb x)) by (rewrite Ed; now apply natural_bounds). reflexivity. }
  rewrite E. cbn [bind]. set (m := map (kept_by n mask both) l).
  assert (K1 : kept = keep_flagged m (entries (Gcs l (Some fi) (Some fl)))).
  { unfold kept, m. rewrite <- keep_flagged_map. f_equal. rewrite <- (map_fst_entries l fi fl L) at 2. now rewrite map_map. }
  assert (Ll : List.length (zrange (Z.of_nat (List.length l))) = List.length (entries (Gcs l (Some fi) (Some fl)))).
  { rewrite length_zrange. rewrite <- (map_fst_entries l fi fl L) at 1. rewrite map_length. lia. }
  pose proof (keep_flagged_length m _ _ Ll) as Lk. rewrite <- K1 in Lk.
  destruct (keep_flagged m (zrange (Z.of_nat (List.length l)))) as [|i0 is0] eqn:Eis.
  { split; [reflexivity|]. intros N. destruct kept; [contradiction|discriminate]. }
  split; [intros N; rewrite N in Lk; discriminate|]. intros N. rewrite <- Eis.
  replace (take_at fi (keep_flagged m (zrange (Z.of_nat (List.length l))))) with (Ok (keep_flagged m fi)) by (rewrite <- L; symmetry; apply take_at_flagged). cbn [bind].
  assert (Wf : well_formed (Gcs (keep_flagged m l) (Some (keep_flagged m fi)) (Some fl))).
  { exists (keep_flagged m fi), fl. cbn. split; [reflexivity|]. split; [reflexivity|]. split; [now apply keep_flagged_length|].
    intros f Hf. apply B. now apply in_keep_flagged in Hf. }
  assert (Ek : entries (Gcs (keep_flagged m l) (Some (keep_flagged m fi)) (Some fl)) = kept) by (rewrite K1; now apply entries_flagged).
  assert (Ss : StronglySorted Z.lt (keep_flagged m (zrange (Z.of_nat (List.length l))))) by (apply sorted_flagged, sorted_zrange).
  destruct pd.
  - destruct (C71_clean_feature_list _ Wf) as (g' & E' & El & Ee & W' & U). rewrite E'. cbn [bind]. exists g', (keep_flagged m (zrange (Z.of_nat (List.length l)))).
    split; [reflexivity|]. split; [congruence|]. split; [assumption|]. split; [assumption|]. split; [|assumption].
    rewrite El. apply take_at_flagged.
  - cbn [bind]. eexists _, _. split; [reflexivity|]. split; [exact Ek|]. split; [exact Wf|]. split; [exact Ss|]. split; [apply take_at_flagged|reflexivity].
Qed.
Print Assumptions C71_filtered_by_cell_mask.
Example filter_example :
  let g := Gcs [Lk 0 1 3 5; Lk 1 2 3 5; Lk 2 3 3 5] (Some [0; 1; 2]) (Some [(7, L "F7"); (8, L "F8"); (9, L "F9")]) in
  filtered_by_cell_mask (T 1 1 4) g (fun c => 1 <=? ti c) true true
  = Ok (Some (Gcs [Lk 1 2 3 5; Lk 2 3 3 5] (Some [0; 1]) (Some [(8, L "F8"); (9, L "F9")]), [1; 2])).
Proof. reflexivity. Qed.

(** C71: filtering by layers min_k0 to max_k0 keeps the connections with both cells in those layers.
    (Missing: max_k0 < 0, see below.)  Where all layers are asked for, nothing is removed. *)
Theorem C71_filtered_by_layer_range_partial : forall n g min_k0 max_k0 pare_down, well_formed g -> cells_within n g -> 0 <= max_k0 ->
  let inside c := (min_k0 <=? tk c) && (tk c <=? max_k0) in
  let kept := filter (fun e => inside (denatural n (ca (fst e))) && inside (denatural n (cb (fst e)))) (entries g) in
  (min_k0 <= 0 /\ tk n - 1 <= max_k0 -> kept = entries g /\ filtered_by_layer_range n g min_k0 max_k0 pare_down = Ok (Some (g, zrange (Z.of_nat (List.length (links g)))))) /\
  (~ (min_k0 <= 0 /\ tk n - 1 <= max_k0) ->
    (kept = [] -> filtered_by_layer_range n g min_k0 max_k0 pare_down = Ok None) /\
    (kept <> [] -> exists g' is, filtered_by_layer_range n g min_k0 max_k0 pare_down = Ok (Some (g', is)) /\
       entries g' = kept /\ well_formed g' /\ StronglySorted Z.lt is /\ take_at (links g) is = Ok (links g') /\
       (if pare_down then no_unused_feature g' else feature_list g' = feature_list g))).
Proof.
  intros n g lo hi pd Wf W Hh inside kept.
  assert (EL : forall e, In e (entries g) -> exists c d, within n c /\ within n d /\ denatural n (ca (fst e)) = c /\ denatural n (cb (fst e)) = d).
  { intros e He. destruct Wf as (fi & fl & E1 & E2 & Lf & B). destruct g as [l ofi ofl]. unfold cells_within in W. cbn [links feature_indices feature_list] in *. subst.
    assert (Hl : In (fst e) l) by (rewrite <- (map_fst_entries l fi fl Lf); now apply in_map).
    destruct (W _ Hl) as (c & d & Wc & Wd & Ec & Ed). exists c, d. rewrite Ec, Ed, !denatural_natural by assumption. auto. }
  split.
  - intros [H1 H2]. split.
    + unfold kept. rewrite <- (filter_ext_in (fun _ => true)).
      * induction (entries g) as [|e es IH]; [reflexivity|]. cbn. now rewrite IH by (intros; apply EL; now right).
      * intros e He. destruct (EL e He) as (c & d & Wc & Wd & -> & ->). unfold inside. pose proof (Wc K). pose proof (Wd K). cbn in *. lia.
    + unfold filtered_by_layer_range. replace (lo <=? 0) with true by lia. replace (tk n - 1 <=? hi) with true by lia. reflexivity.
  - intros N. unfold filtered_by_layer_range.
    destruct (lo <=? 0) eqn:E1, (tk n - 1 <=? hi) eqn:E2; [exfalso; apply N; lia| | |];
    match goal with |- context [filtered_by_cell_mask n g ?m true pd] => set (mask := m) end;
    pose proof (C71_filtered_by_cell_mask n g mask true pd Wf W) as H; cbn zeta in H;
    replace (filter (fun e => kept_by n mask true (fst e)) (entries g)) with kept in H by
      (apply filter_ext_in; intros e He; destruct (EL e He) as (c & d & Wc & Wd & Ec & Ed); unfold kept_by; rewrite Ec, Ed;
       pose proof (Wc K); pose proof (Wd K); cbn in *; unfold mask, inside, in_slice;
       repeat match goal with |- context [if ?x then _ else _] => destruct x eqn:? end; lia); exact H.
Qed.
Print Assumptions C71_filtered_by_layer_range_partial.
Example layer_example :
  let g := Gcs [Lk 0 1 1 0; Lk 1 2 1 0; Lk 2 3 1 0] (Some [0; 1; 0]) (Some [(7, L "F7"); (8, L "F8")]) in
  filtered_by_layer_range (T 4 1 1) g 1 2 true = Ok (Some (Gcs [Lk 1 2 1 0] (Some [0]) (Some [(8, L "F8")]), [1])).
Proof. reflexivity. Qed.
(** C71: a negative last layer, for which no connection qualifies, counts from the deepest layer. *)
Theorem C71_negative_layer_refuted : exists n g max_k0 g' is, well_formed g /\ cells_within n g /\ max_k0 < 0 /\
  filtered_by_layer_range n g 0 max_k0 true = Ok (Some (g', is)) /\ links g' <> [].
Proof.
  exists (T 3 1 1), (Gcs [Lk 0 1 1 0; Lk 1 2 1 0] (Some [0; 0]) (Some [(7, L "F7")])), (-2), (Gcs [Lk 0 1 1 0] (Some [0]) (Some [(7, L "F7")])), [0].
  split; [|split; [|split; [lia|split; [reflexivity|discriminate]]]].
  - exists [0; 0], [(7, L "F7")]. repeat split; cbn in *; intuition lia.
  - intros l [<-|[<-|[]]]; [exists (T 0 0 0), (T 1 0 0)|exists (T 1 0 0), (T 2 0 0)];
      (split; [intros []; cbn; lia|split; [intros []; cbn; lia|split; reflexivity]]).
Qed.
Print Assumptions C71_negative_layer_refuted.
(** C71: where all layers are asked for, unused features stay although their removal is asked for. *)
Theorem C71_full_range_keeps_unused_features_refuted : exists n g g' is, well_formed g /\ cells_within n g /\
  filtered_by_layer_range n g 0 (tk n - 1) true = Ok (Some (g', is)) /\ ~ no_unused_feature g'.
Proof.
  exists (T 2 1 1), (Gcs [Lk 0 1 1 0] (Some [1]) (Some [(7, L "F7"); (8, L "F8")])), (Gcs [Lk 0 1 1 0] (Some [1]) (Some [(7, L "F7"); (8, L "F8")])), [0].
  split; [|split; [|split; [reflexivity|]]].
  - exists [1], [(7, L "F7"); (8, L "F8")]. repeat split; cbn in *; intuition lia.
  - intros l [<-|[]]. exists (T 0 0 0), (T 1 0 0). split; [intros []; cbn; lia|split; [intros []; cbn; lia|split; reflexivity]].
  - intros H. destruct (H _ _ eq_refl eq_refl 0 ltac:(cbn; lia)) as [E|[]]. discriminate.
Qed.
Print Assumptions C71_full_range_keeps_unused_features_refuted.

(** ** one feature, and two sets together *)
Lemma take_positions {A} f (l : list A) fi : List.length fi = List.length l ->
  take_at l (positions_of f 0 fi) = Ok (keep_flagged (map (fun x => x =? f) fi) l).
Proof.
  intros E. rewrite <- (take_at_flagged (map (fun x => x =? f) fi) l). f_equal. rewrite <- E. rewrite zrange_zrange2. clear.
  assert (G : forall i, positions_of f i fi = keep_flagged (map (fun x => x =? f) fi) (zrange2 i (i + Z.of_nat (List.length fi)))).
  { induction fi as [|x fi IH]; intros i; [reflexivity|]. cbn [positions_of map List.length]. rewrite IH.
    unfold zrange2. replace (Z.to_nat (i + Z.of_nat (S (List.length fi)) - i)) with (S (List.length fi)) by lia.
    rewrite <- cons_seq, map_cons, keep_flagged_cons. replace (i + Z.of_nat 0) with i by lia.
    replace (Z.to_nat (i + 1 + Z.of_nat (List.length fi) - (i + 1))) with (List.length fi) by lia.
    rewrite <- seq_shift, map_map. rewrite (map_ext (fun x => i + Z.of_nat (S x)) (fun x => i + 1 + Z.of_nat x)) by (intros; lia). reflexivity. }
  rewrite (G 0). reflexivity.
Qed.
Definition with_index (g : gcs) : list (Z * link) :=
  match feature_indices g with Some fi => combine fi (links g) | None => [] end.
(** C71: the set for one feature has exactly the connections of that feature. *)
Theorem C71_single_feature : forall g f, well_formed g ->
  (forall fl, feature_list g = Some fl -> ~ (0 <= f < Z.of_nat (List.length fl)) -> single_feature g f = Ok None) /\
  (forall fl x, feature_list g = Some fl -> 0 <= f -> nth_error fl (Z.to_nat f) = Some x -> exists g',
     single_feature g f = Ok (Some g') /\ feature_list g' = Some [x] /\ well_formed g' /\
     links g' = map snd (filter (fun e => fst e =? f) (with_index g)) /\
     Forall (fun e => snd e = Some x) (entries g')).
Proof.
  intros [l ofi ofl] f (fi & fl & E1 & E2 & Lf & B). cbn in E1, E2, Lf. subst. unfold single_feature, with_index. cbn [feature_list feature_indices links]. split.
  - intros ? [= <-] N. destruct ((f <? 0) || (Z.of_nat (List.length fl) <=? f)) eqn:E; [reflexivity|lia].
  - intros ? x [= <-] Hf Hx. assert (Lx : (Z.to_nat f < List.length fl)%nat) by (apply nth_error_Some; congruence).
    replace ((f <? 0) || (Z.of_nat (List.length fl) <=? f)) with false by lia.
    unfold raw_list_for_feature, indices_for_feature_index. cbn [feature_indices links].
    rewrite take_positions by assumption. cbn [bind]. rewrite Hx. eexists. split; [reflexivity|]. cbn [feature_list links]. split; [reflexivity|].
    split.
    + eexists _, _. cbn [feature_indices feature_list links]. split; [reflexivity|]. split; [reflexivity|]. split; [now rewrite map_length|].
      intros g Hg. apply in_map_iff in Hg. destruct Hg as (? & <- & _). cbn. lia.
    + split.
      * clear - Lf. revert l Lf. induction fi as [|y fi IH]; intros [|z l] E; try discriminate; [reflexivity|].
        cbn [map combine filter fst]. rewrite keep_flagged_cons. rewrite IH by (cbn in E; lia). now destruct (y =? f).
      * unfold entries. cbn. rewrite Forall_forall. intros e He. apply in_map_iff in He. destruct He as ([y k] & <- & Hy). apply in_combine_r in Hy.
        apply in_map_iff in Hy. destruct Hy as (? & <- & _). reflexivity.
Qed.
Print Assumptions C71_single_feature.
Example single_feature_example :
  single_feature (Gcs [Lk 0 1 3 5; Lk 1 2 3 5; Lk 2 3 3 5] (Some [0; 1; 0]) (Some [(7, L "F7"); (8, L "F8")])) 0
  = Ok (Some (Gcs [Lk 0 1 3 5; Lk 2 3 3 5] (Some [0; 0]) (Some [(7, L "F7")]))).
Proof. reflexivity. Qed.
(** C71: found by name, the feature is the first whose title starts with the name, *)
Theorem C71_single_feature_named : forall g fl name, feature_list g = Some fl ->
  (forall x, In x fl -> startswith (snd x) name = false) /\ single_feature_named g name = Ok None \/
  exists f x, 0 <= f /\ nth_error fl (Z.to_nat f) = Some x /\ startswith (snd x) name = true /\
    (forall h y, 0 <= h < f -> nth_error fl (Z.to_nat h) = Some y -> startswith (snd y) name = false) /\
    single_feature_named g name = single_feature g f.
Proof.
  intros g fl name E. unfold single_feature_named. rewrite E.
  assert (G : forall l i, (forall x, In x l -> startswith (snd x) name = false) /\ feature_named name i l = None \/
     exists f x, nth_error l f = Some x /\ startswith (snd x) name = true /\ (forall h y, (h < f)%nat -> nth_error l h = Some y -> startswith (snd y) name = false) /\
       feature_named name i l = Some (i + Z.of_nat f)).
  { induction l as [|[u t] l IH]; intros i; [left; split; [intros ? []|reflexivity]|]. cbn [feature_named].
    destruct (startswith t name) eqn:Et.
    - right. exists 0%nat, (u, t). split; [reflexivity|]. split; [assumption|]. split; [intros; lia|]. f_equal. lia.
    - destruct (IH (i + 1)) as [[A B]|(f & x & A & B & C & D)].
      + left. split; [|assumption]. intros x [<-|Hx]; auto.
      + right. exists (S f), x. split; [assumption|]. split; [assumption|]. split; [|rewrite D; f_equal; lia].
        intros [|h] y Hh Hy; [injection Hy as <-; assumption|]. apply (C h); [lia|assumption]. }
  destruct (G fl 0) as [[A B]|(f & x & A & B & C & D)].
  - left. rewrite B. auto.
  - right. exists (Z.of_nat f), x. rewrite Nat2Z.id. split; [lia|]. split; [assumption|]. split; [assumption|]. split; [|now rewrite D].
    intros h y Hh Hy. apply (C (Z.to_nat h)); [lia|assumption].
Qed.
Print Assumptions C71_single_feature_named.
(** which may not be the feature of that name *)
Theorem C71_feature_by_name_refuted : exists g name fl f x g', well_formed g /\ feature_list g = Some fl /\
  nth_error fl f = Some (x, name) /\ single_feature_named g name = Ok (Some g') /\ feature_list g' <> Some [(x, name)].
Proof.
  exists (Gcs [Lk 0 1 3 5; Lk 1 2 3 5] (Some [0; 1]) (Some [(7, L "F10"); (8, L "F1")])), (L "F1"), [(7, L "F10"); (8, L "F1")], 1%nat, 8,
    (Gcs [Lk 0 1 3 5] (Some [0]) (Some [(7, L "F10")])).
  split; [|split; [reflexivity|split; [reflexivity|split; [reflexivity|discriminate]]]].
  exists [0; 1], [(7, L "F10"); (8, L "F1")]. repeat split; cbn in *; intuition lia.
Qed.
Print Assumptions C71_feature_by_name_refuted.

(** C71: appending gives the connections of both sets, each with its own feature. *)
Theorem C71_append : forall g h, well_formed g -> well_formed h ->
  entries (append g h) = entries g ++ entries h /\ links (append g h) = links g ++ links h /\ well_formed (append g h).
Proof.
  intros [l ofi ofl] [l2 ofi2 ofl2] (fi & fl & E1 & E2 & Lf & B) (fi2 & fl2 & E3 & E4 & Lf2 & B2). cbn in E1, E2, Lf, E3, E4, Lf2. subst.
  unfold append. cbn [links]. destruct l as [|x0 l0] eqn:El.
  - destruct fi; [|discriminate]. cbn [links app]. split; [reflexivity|]. split; [reflexivity|]. exists fi2, fl2. auto.
  - rewrite <- El in *. cbn [feature_list feature_indices links]. split; [|split; [reflexivity|]].
    + unfold entries. cbn. clear El x0 l0. revert fi Lf B. induction l as [|x l IH]; intros [|f fi] E B; try discriminate.
      * cbn [combine app map]. clear - B2 Lf2. revert l2 Lf2. induction fi2 as [|f fi2 IH]; intros [|x l2] E; try discriminate; [reflexivity|].
        cbn [combine map]. rewrite IH; [|intros; apply B2; now right|cbn in E; lia]. f_equal. f_equal.
        specialize (B2 f (or_introl eq_refl)). rewrite nth_error_app2 by lia. f_equal. lia.
      * cbn [combine app map]. rewrite IH; [|cbn in E; lia|intros; apply B; now right]. f_equal. f_equal.
        specialize (B f (or_introl eq_refl)). apply nth_error_app1. lia.
    + eexists _, _. cbn. split; [reflexivity|]. split; [reflexivity|]. rewrite !app_length, map_length. split; [lia|].
      intros f Hf. apply in_app_iff in Hf. destruct Hf as [Hf|Hf]; [specialize (B f Hf); lia|]. apply in_map_iff in Hf. destruct Hf as (y & <- & Hy). specialize (B2 y Hy). lia.
Qed.
Print Assumptions C71_append.
Example append_example :
  append (Gcs [Lk 0 1 3 5; Lk 2 3 3 5] (Some [1; 0]) (Some [(7, L "F7"); (8, L "F8")])) (Gcs [Lk 1 2 3 5] (Some [0]) (Some [(9, L "F9")]))
  = Gcs [Lk 0 1 3 5; Lk 2 3 3 5; Lk 1 2 3 5] (Some [1; 0; 2]) (Some [(7, L "F7"); (8, L "F8"); (9, L "F9")]).
Proof. reflexivity. Qed.
