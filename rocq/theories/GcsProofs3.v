(** GcsProofs3.v: sets made from lists of faces, their properties, kelp. *)
From Coq Require Import Permutation Sorted.
From Verif Require Import QBase StrModel BisectModel BisectProofs BisectProofs4 GcsModel GcsProofs GcsProofs2.
Open Scope Z_scope.

(** ** Specification: property values of a list of faces before (p for l) and after (q for the connections x) *)
Definition aligned (n : trip Z) (a : axis) (l : list cell) (p : list Q) (x : list link) (q : list Q) : Prop :=
  List.length q = List.length x /\
  forall r k v, nth_error x r = Some k -> nth_error q r = Some v ->
    exists s c, nth_error l s = Some c /\ nth_error p s = Some v /\ decode_link n k = Ok (across a c false).
(** the list needs no sorting, or it has repeats *)
Definition increasing (n : trip Z) (l : list cell) : Prop := StronglySorted Z.lt (map (natural n) l).

Definition plain (n : trip Z) (a : axis) (c : cell) : link := mask_link n a (fun _ => false) c.
Lemma decode_plain n a c : inner_face n a c -> decode_link n (plain n a c) = Ok (across a c false).
Proof. intros H. unfold plain. now rewrite decode_mask_link. Qed.
Lemma plain_eq n a l : map (fun c => Lk c (c + stride n a) (face_index_map a true) (face_index_map a false)) (map (natural n) l) = map (plain n a) l.
Proof. rewrite map_map. apply map_ext. reflexivity. Qed.
Lemma strict_NoDup l : StronglySorted Z.lt l -> NoDup l.
Proof.
  intros H. induction H as [|x r S IH F]; constructor; auto. intros Hx. rewrite Forall_forall in F. specialize (F _ Hx). lia.
Qed.
Lemma index_links_dedup n a l props r : (forall c, In c l -> inner_face n a c) -> index_links n a l true props = Ok r ->
  exists es, fst r = map (plain n a) es /\ NoDup es /\ increasing n es /\ (forall c, In c es <-> In c l).
Proof.
  intros W. unfold index_links. destruct l as [|c0 l0] eqn:El.
  - intros [= <-]. exists []. repeat split; try constructor; tauto.
  - rewrite <- El in *. destruct (sort_and_remove_duplicates (map (natural n) l) props) as [[ci p]|] eqn:E; cbn [bind]; [|discriminate].
    intros [= <-]. cbn [fst].
    assert (H : StronglySorted Z.lt ci /\ (forall x, In x ci <-> In x (map (natural n) l))).
    { destruct (Nat.eq_dec (List.length (map (natural n) l)) 1) as [L1|L1].
      - unfold sort_and_remove_duplicates in E. rewrite L1 in E. cbn in E. injection E as <- _. split; [|tauto].
        destruct (map (natural n) l) as [|x [|]]; try discriminate. repeat constructor.
      - apply (sort_and_remove_spec _ _ _ L1) in E; [exact E|]. rewrite El. discriminate. }
    destruct H as [H1 H2].
    assert (W' : forall x, In x ci -> exists c, In c l /\ x = natural n c /\ denatural n x = c).
    { intros x Hx. apply H2, in_map_iff in Hx. destruct Hx as (c & <- & Hc). exists c. split; [assumption|]. split; [reflexivity|].
      apply denatural_natural, (W c Hc). }
    assert (Eci : map (natural n) (map (denatural n) ci) = ci).
    { rewrite map_map. rewrite <- (map_id ci) at 2. apply map_ext_in. intros x Hx. destruct (W' x Hx) as (c & Hc & -> & ->). reflexivity. }
    exists (map (denatural n) ci). repeat split.
    + rewrite <- plain_eq, Eci. reflexivity.
    + apply (NoDup_map_inv (natural n)). rewrite Eci. now apply strict_NoDup.
    + unfold increasing. now rewrite Eci.
    + intros H. apply in_map_iff in H. destruct H as (x & <- & Hx). destruct (W' x Hx) as (d & Hd & _ & ->). exact Hd.
    + intros H. apply in_map_iff. exists (natural n c). split; [apply denatural_natural, (W c H)|]. apply H2. now apply in_map.
Qed.
Lemma index_links_plain n a l props : index_links n a l false props = Ok (map (plain n a) l, props).
Proof. unfold index_links. destruct l; [reflexivity|]. cbn [bind]. now rewrite plain_eq. Qed.
Lemma index_links_ok n a l rd : exists x, index_links n a l rd [] = Ok (x, []).
Proof.
  unfold index_links. destruct l as [|c l]; [eauto|]. destruct rd; cbn [bind]; [|eauto].
  destruct (sort_and_remove_nil (map (natural n) (c :: l))) as (b & ->). cbn. eauto.
Qed.

(** ** properties *)
Lemma nth_error_Some_combine {A B} (l1 : list A) (l2 : list B) r x y :
  nth_error (combine l1 l2) r = Some (x, y) <-> nth_error l1 r = Some x /\ nth_error l2 r = Some y.
Proof.
  revert l1 l2. induction r as [|r IH]; intros [|a l1] [|b l2]; cbn; try (split; [discriminate|intros [? ?]; discriminate]).
  - split; [intros [= -> ->]; auto|intros [[= ->] [= ->]]; reflexivity].
  - apply IH.
Qed.
Lemma take_at_length {A} (l : list A) is r : take_at l is = Ok r -> List.length r = List.length is.
Proof. intros H. apply take_at_inv in H. induction H; cbn; auto. Qed.
Lemma take_at_exists {A B} (l : list A) (p : list B) is r : List.length p = List.length l -> take_at l is = Ok r -> exists q, take_at p is = Ok q.
Proof.
  intros L H. apply take_at_inv in H.
  assert (exists q, Forall2 (fun i x => 0 <= i /\ nth_error p (Z.to_nat i) = Some x) is q) as (q & Hq); [|exists q; now apply take_at_ok].
  induction H as [|i x is r [Hi Hx] H IH]; [exists []; constructor|]. destruct IH as (q & Hq).
  assert (Z.to_nat i < List.length p)%nat as Hl by (rewrite L; apply nth_error_Some; congruence).
  destruct (nth_error p (Z.to_nat i)) as [y|] eqn:Ey; [|apply nth_error_None in Ey; lia].
  exists (y :: q). constructor; auto.
Qed.
Lemma flags_strict prev l : forallb (fun x => x) (new_flags prev l) = true -> StronglySorted le_id l ->
  StronglySorted Z.lt l.
Proof.
  intros H S. assert (E := keep_flagged_strict None l S ltac:(discriminate)).
  assert (F : forallb (fun x => x) (new_flags None l) = true).
  { destruct l as [|x r]; [reflexivity|]. cbn in *. apply andb_true_iff in H. tauto. }
  rewrite keep_flagged_all in E by (auto using new_flags_length). apply E.
Qed.
Lemma strict_le l : StronglySorted Z.lt l -> StronglySorted le_id l.
Proof.
  intros H. induction H as [|x r S IH F]; constructor; auto. rewrite Forall_forall in *. intros y Hy. specialize (F y Hy). unfold le_id, le_key. lia.
Qed.
(** sorting with one array of properties *)
Lemma sort_and_remove_aligned a p : List.length p = List.length a -> (StronglySorted Z.lt a \/ ~ NoDup a) ->
  exists b q, sort_and_remove_duplicates a [p] = Ok (b, [q]) /\ List.length q = List.length b /\
  (forall r x v, nth_error b r = Some x -> nth_error q r = Some v -> exists s, nth_error a s = Some x /\ nth_error p s = Some v).
Proof.
  intros L D. unfold sort_and_remove_duplicates. destruct (Nat.leb_spec (List.length a) 1) as [H|H].
  { exists a, p. split; [reflexivity|]. split; [assumption|]. intros r x v. eauto. }
  pose proof (sorted_pairs a) as (P & S & T & F). set (s := sort_by fst _) in *. rewrite T. cbn [bind]. set (b := map fst s) in *.
  destruct (forallb (fun x => x) (new_flags None b)) eqn:EF.
  - destruct D as [D|D].
    + exists b, p. split; [reflexivity|]. assert (E : b = a).
      { apply sorted_perm_unique; [exact S|now apply strict_le|now symmetry]. }
      rewrite E. split; [assumption|]. intros r x v. eauto.
    + exfalso. apply D. apply (Permutation_NoDup (Permutation_sym P)). apply strict_NoDup. eapply flags_strict; eauto.
  - destruct (take_at_exists a p (argsort a) b L T) as (q & Hq). cbn [map_res]. rewrite Hq. cbn [bind].
    exists (keep_flagged (new_flags None b) b), (keep_flagged (new_flags None b) q). split; [reflexivity|].
    assert (Lq : List.length q = List.length b).
    { rewrite (take_at_length _ _ _ Hq), <- (take_at_length _ _ _ T). reflexivity. }
    split; [now apply keep_flagged_length|]. intros r x v Hx Hv.
    assert (Hc : In (x, v) (combine b q)).
    { eapply in_keep_flagged. rewrite <- keep_flagged_combine by auto. eapply nth_error_In. apply nth_error_Some_combine. split; eassumption. }
    apply In_nth_error in Hc. destruct Hc as (t & Ht). apply nth_error_Some_combine in Ht. destruct Ht as [Hb Hq'].
    apply take_at_inv in T, Hq.
    assert (Hi : exists i, nth_error (argsort a) t = Some i /\ nth_error a (Z.to_nat i) = Some x /\ nth_error p (Z.to_nat i) = Some v).
    { clear -T Hq Hb Hq'. revert t q Hb Hq' Hq. induction T as [|i y is b [Hi Hy] T IH]; intros t q Hb Hq' Hq; [destruct t; discriminate|].
      inversion Hq as [|? z ? q' [_ Hz] Hq2]; subst. destruct t as [|t]; cbn in *.
      - injection Hb as <-. injection Hq' as <-. exists i. auto.
      - eapply IH; eauto. }
    destruct Hi as (i & _ & A & B). exists (Z.to_nat i). auto.
Qed.
Lemma index_links_aligned n a l p : (forall c, In c l -> inner_face n a c) -> List.length p = List.length l ->
  (increasing n l \/ ~ NoDup l) ->
  exists x q, index_links n a l true [p] = Ok (x, [q]) /\ aligned n a l p x q.
Proof.
  intros W L D. unfold index_links. destruct l as [|c0 l0] eqn:El.
  - destruct p; [|discriminate]. exists [], []. split; [reflexivity|]. split; [reflexivity|]. intros [] ? ? H; discriminate.
  - rewrite <- El in *. destruct (sort_and_remove_aligned (map (natural n) l) p) as (b & q & E & Lq & A).
    + now rewrite map_length.
    + destruct D as [D|D]; [now left|right]. intros N. apply D. now apply NoDup_map_inv in N.
    + rewrite E. cbn [bind]. eexists _, q. split; [reflexivity|]. split; [now rewrite map_length|].
      intros r k v Hk Hv. rewrite nth_error_map in Hk. destruct (nth_error b r) as [x|] eqn:Eb; [|discriminate].
      injection Hk as <-. destruct (A r x v Eb Hv) as (s & Hs & Hp). rewrite nth_error_map in Hs.
      destruct (nth_error l s) as [c|] eqn:Ec; [|discriminate]. injection Hs as <-. exists s, c. repeat split; auto.
      apply (decode_plain n a c). apply W. eapply nth_error_In; eauto.
Qed.

(** ** kelp *)
Lemma wrap_index_ok m i : 0 <= i < m -> wrap_index m i = Ok i.
Proof. intros H. unfold wrap_index. destruct (0 <=? i) eqn:A, (i <? m) eqn:B; try lia. reflexivity. Qed.
Lemma mem2_iff p l : mem2 p l = true <-> In p l.
Proof.
  unfold mem2. rewrite existsb_exists. destruct p as [a b]. split.
  - intros ((c & d) & H & E). apply andb_true_iff in E. cbn in E. rewrite !Z.eqb_eq in E. destruct E as [-> ->]. exact H.
  - intros H. exists (a, b). split; [exact H|]. cbn. now rewrite !Z.eqb_refl.
Qed.
