(** ConsolProps.v: property theorems about consolidation (C16, C17). *)
From Verif Require Import Base TextModel StrModel StrProofs ConsolModel ConsolProofs.
From Coq Require Import Permutation Sorted.

(** C16.  [DocHist [] os]: a history of calls as documented: parts are compared
    with other parts (ignore_identical_part is left at False), forced targets are
    resident uuids, and the resident model only gains parts. *)
Theorem C16_following_terminates_partial : forall eqv os, DocHist [] os ->
  exists n m, (forall fuel, (n <= fuel)%nat -> crun fuel eqv [] os = Ok m) /\
    (* following the final map from any uuid ends, at a uuid that is not mapped *)
    forall r, exists k x, (forall fuel, (k <= fuel)%nat -> follow fuel m r = Ok x) /\ lookup m x = None.
Proof.
  intros eqv os Hd. destruct (run_inv eqv os [] [] ) as (n & m & H & Hr); [|exact Hd|].
  - split; [exists (fun _ => 0%nat); discriminate|intros x []].
  - exists n, m. split; [exact H|]. intros r. destruct Hr as [rank Hrank].
    destruct (follow_ranked m rank Hrank (rank r) r (le_n _)) as [x Hx]. exists (rank r), x. split; [exact Hx|].
    eapply follow_end. apply (Hx (rank r)). lia.
Qed.
Print Assumptions C16_following_terminates_partial.

(** No uuid is both key and value, provided nothing is forced onto an already
    mapped uuid. *)
Theorem C16_map_integrity_partial : forall fuel eqv os m, DocHist [] os -> TargetsUnmapped fuel eqv [] os ->
  crun fuel eqv [] os = Ok m -> check_map_integrity m = true /\ forall x, In x (keys m) -> ~ In x (values m).
Proof.
  intros fuel eqv os m Hd Ht Hr.
  assert (D : Disjoint m).
  { apply (run_disjoint fuel eqv os [] []); try assumption.
    - exists (fun _ => 0%nat). discriminate.
    - intros x [].
    - intros x []. }
  split; [now apply integrity_iff|]. intros x Hk Hv. exact (D x Hk Hv).
Qed.
Print Assumptions C16_map_integrity_partial.

(** A recognised equivalence is remembered: asking again, at any later time and
    in any context, gives the same answer. *)
Theorem C16_equivalence_remembered : forall fuel eqv m u c rs ig m1 r,
  equivalent_uuid_int fuel eqv m u c rs ig = Ok (m1, Some r) -> (ig = true \/ ~ In u rs) ->
  forall os m2 fuel' eqv' c' rs' ig', forallb is_equiv os = true -> crun fuel eqv m1 os = Ok m2 ->
  equivalent_uuid_int fuel' eqv' m2 u c' rs' ig' = Ok (m2, Some r).
Proof.
  intros fuel eqv m u c rs ig m1 r H Hn os m2 fuel' eqv' c' rs' ig' Ho Hrun.
  assert (Hl : lookup m1 u = Some r).
  { unfold equivalent_uuid_int in H. destruct (lookup m u) eqn:E; [congruence|].
    destruct (negb c); [congruence|].
    assert (negb ig && mem u rs = false) as E2.
    { destruct Hn as [->|Hn]; [reflexivity|]. destruct (mem u rs) eqn:Em; [apply mem_iff in Em; contradiction|]. apply andb_false_r. }
    rewrite E2 in H. destruct (search_spec _ _ _ _ _ _ _ _ H) as [[_ ?]|(r' & x & _ & _ & _ & -> & E3)]; [discriminate|].
    rewrite lookup_update, Z.eqb_refl. congruence. }
  unfold equivalent_uuid_int. now rewrite (run_stable fuel eqv os m1 m2 u r Ho Hl Hrun).
Qed.
Print Assumptions C16_equivalence_remembered.

(** Whatever the history, uuids are only mapped together when linked by
    comparisons that succeeded or pairs that were forced. *)
Theorem C16_mapping_is_sound : forall fuel eqv os m, crun fuel eqv [] os = Ok m ->
  forall k v, lookup m k = Some v -> Conn eqv (forced_pairs os) k v.
Proof.
  intros fuel eqv os m H. eapply run_conn; [apply incl_refl| |exact H]. discriminate.
Qed.
Print Assumptions C16_mapping_is_sound.

(** Finding: forcing onto a mapped uuid passes the assertion and breaks the
    integrity that copy_all_parts_from_other_model later asserts. *)
Theorem C16_map_integrity_refuted : exists os m, DocHist [1; 2] os /\
  crun 5 (fun _ _ => false) [] os = Ok m /\ check_map_integrity m = false.
Proof.
  exists [Force 1 2; Force 3 1]. eexists. split.
  - apply (doc_cons [1; 2] [1; 2]); [apply incl_refl|cbn; auto|].
    apply (doc_cons [1; 2] [1; 2]); [apply incl_refl|cbn; auto|]. constructor.
  - split; reflexivity.
Qed.
Print Assumptions C16_map_integrity_refuted.

(** Finding: with ignore_identical_part = True, three mutually equivalent parts
    of one model make the search loop for ever. *)
Theorem C16_following_terminates_refuted : exists eqv os, forall fuel, crun fuel eqv [] os = Err DivergesError.
Proof.
  exists (fun _ _ => true), [Equiv 1 true [1; 2; 3] true; Equiv 2 true [1; 2; 3] true; Equiv 3 true [1; 2; 3] true].
  assert (G : forall f, follow f [(1, 2); (2, 2)] 2 = Err DivergesError).
  { induction f as [|f IH]; [reflexivity|]. cbn. exact IH. }
  intros [|[|f]]; [reflexivity|reflexivity|].
  cbn -[follow].
  assert (E1 : follow (S (S f)) [] 2 = Ok 2) by reflexivity. rewrite E1. cbn -[follow].
  assert (E2 : follow (S (S f)) [(1, 2)] 1 = Ok 2) by reflexivity. rewrite E2. cbn -[follow].
  assert (E3 : follow (S (S f)) [(1, 2); (2, 2)] 1 = Err DivergesError).
  { cbn [follow lookup Z.eqb Pos.eqb]. apply (G (S f)). }
  rewrite E3. reflexivity.
Qed.
Print Assumptions C16_following_terminates_refuted.

Example C16_example : DocHist [] [Equiv 10 true [1; 2] false; Force 11 2; Equiv 10 true [1; 2; 11] false] /\
  crun 3 (fun a b => (a =? 10) && (b =? 2)) [] [Equiv 10 true [1; 2] false; Force 11 2; Equiv 10 true [1; 2; 11] false] = Ok [(10, 2); (11, 2)] /\
  TargetsUnmapped 3 (fun a b => (a =? 10) && (b =? 2)) [] [Equiv 10 true [1; 2] false; Force 11 2; Equiv 10 true [1; 2; 11] false].
Proof.
  split; [|split; [reflexivity|cbn; intuition lia]].
  apply (doc_cons [] [1; 2]); [intros x []|cbn; repeat split; try apply incl_refl; intuition|].
  apply (doc_cons [1; 2] [1; 2]); [apply incl_refl|cbn; auto|].
  apply (doc_cons [1; 2] [1; 2; 11]); [intros x; cbn; tauto| |constructor].
  cbn; repeat split; try apply incl_refl; intuition.
Qed.

(** C17 *)
Theorem C17_sorted_list_is_permutation : forall type_of parts out, sort_parts_list type_of parts = Ok out ->
  Permutation parts out.
Proof.
  intros type_of parts out. unfold sort_parts_list. destruct (pair_list type_of parts) as [pl|] eqn:E; cbn; [|discriminate].
  intros [= <-]. destruct (pair_list_spec _ _ _ E) as [<- _]. apply Permutation_map, sort_perm.
Qed.
Print Assumptions C17_sorted_list_is_permutation.

(** Classes appear in non-decreasing consolidation order. *)
Theorem C17_sorted_by_class_order : forall type_of parts out, sort_parts_list type_of parts = Ok out ->
  forall i j d ti tj, (i <= j < List.length out)%nat ->
  type_of (nth i out d) = Some ti -> type_of (nth j out d) = Some tj -> ordering ti <= ordering tj.
Proof.
  intros type_of parts out. unfold sort_parts_list. destruct (pair_list type_of parts) as [pl|] eqn:E; cbn; [|discriminate].
  intros [= <-] i j d ti tj Hij Hi Hj. destruct (pair_list_spec _ _ _ E) as [_ Hord].
  rewrite map_length in Hij.
  assert (G : forall k t, (k < List.length (sort_pairs pl))%nat -> type_of (nth k (map snd (sort_pairs pl)) d) = Some t ->
    fst (nth k (sort_pairs pl) (0, d)) = ordering t).
  { intros k t Hk Ht. rewrite (nth_indep _ d (snd (0, d))) in Ht by (now rewrite map_length).
    rewrite (map_nth snd) in Ht. cbn in Ht.
    assert (Hin : In (nth k (sort_pairs pl) (0, d)) pl).
    { eapply Permutation_in; [symmetry; apply sort_perm|]. now apply nth_In. }
    destruct (nth k (sort_pairs pl) (0, d)) as [x p] eqn:Ep. destruct (Hord x p Hin) as (t' & Ht' & ->). cbn in *. congruence. }
  rewrite <- (G i ti), <- (G j tj) by (lia || assumption). apply sorted_nth; [apply sort_sorted|lia].
Qed.
Print Assumptions C17_sorted_by_class_order.

(** The result depends only on the set of parts, not on their initial order. *)
Theorem C17_sort_is_canonical : forall type_of a b oa ob, Permutation a b ->
  sort_parts_list type_of a = Ok oa -> sort_parts_list type_of b = Ok ob -> oa = ob.
Proof.
  intros type_of a b oa ob H. unfold sort_parts_list.
  destruct (pair_list type_of a) as [pa|] eqn:Ea; cbn; [|discriminate].
  destruct (pair_list type_of b) as [pb|] eqn:Eb; cbn; [|discriminate]. intros [= <-] [= <-].
  f_equal. apply sort_canonical. eapply pair_list_perm; eassumption.
Qed.
Print Assumptions C17_sort_is_canonical.

(** Listed classes keep their listed order and precede all unlisted ones. *)
Theorem C17_listed_classes_first : forall t, match index_of t ordering_list with
  | Some i => ordering t = i /\ 0 <= i < 30
  | None => 30 <= ordering t <= 33
  end.
Proof.
  intros t. unfold ordering. destruct (index_of t ordering_list) as [i|] eqn:E.
  - split; [reflexivity|]. assert (G : forall l j, index_of t l = Some j -> 0 <= j < Z.of_nat (List.length l)).
    { clear. induction l as [|x l IH]; intros j; cbn [index_of List.length]; [discriminate|].
      destruct (str_eqb x t); [intros [= <-]; lia|]. destruct (index_of t l); [|discriminate]. cbn.
      intros [= <-]. specialize (IH z eq_refl). lia. }
    exact (G _ _ E).
  - cbn [ordering_list map List.length]. destruct (endswith t (L "Interpretation")), (endswith t (L "Representation")), (endswith t (L "Property")); cbn; lia.
Qed.
Print Assumptions C17_listed_classes_first.

Example C17_example : sort_parts_list (fun p => Some (if str_eqb p (L "a") then L "IjkGridRepresentation" else if str_eqb p (L "b") then L "ContinuousProperty" else L "LocalDepth3dCrs"))
  (map L ["b"; "a"; "d"; "c"]%string) = Ok (map L ["c"; "d"; "a"; "b"]%string).
Proof. vm_compute. reflexivity. Qed.
