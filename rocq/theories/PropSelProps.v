(** PropSelProps.v: C74, choosing properties from a collection. *)
From Coq Require Import QArith Permutation Sorted.
From Verif Require Import Base QBase TextModel StrModel StrProofs UuidModel PyDict PySort ForestModel CatalogueModel CatalogueProofs CatalogueProps PropSelModel PropSelProofs.
Open Scope Z_scope.

Lemma matching_two u v n : denotes u n -> denotes v n -> matching_uuids u v = true.
Proof.
  intros [->|[->|(s & -> & E)]] [->|[->|(t & -> & F)]]; unfold matching_uuids; cbn; rewrite ?E, ?F; cbn; apply Z.eqb_refl.
Qed.
Lemma denotes_some u n : denotes u n -> is_none u = false /\ uuid_as_int u = Ok (Some n).
Proof. intros [->|[->|(s & -> & E)]]; cbn; rewrite ?E; auto. Qed.
Lemma select_ok c a f : in_order c a -> (forall p i, In (p, i) (c_dict c) -> passes (c_model c) a p i = Ok (f (p, i))) ->
  exists v, selective_version c a = Ok v /\ c_dict v = filter f (c_dict c) /\ c_model v = c_model c /\
            c_support v = (if is_none (s_support a) then c_support c else s_support a) /\ c_realization v = s_realization a.
Proof.
  intros O Hf. unfold selective_version.
  assert (Ha : add_selected (c_model c) a false (c_dict c) [] = (filter f (c_dict c), Ok tt)).
  { rewrite (add_selected_ok _ _ _ _ f); [|apply (o_keys c a O)|assumption|now right].
    cbn [app]. f_equal. apply filter_ext. intros e. apply andb_true_r. }
  assert (Hr : realization_check (s_realization a) (c_realization c) = Ok tt).
  { unfold realization_check. destruct (s_realization a) as [x|] eqn:E1; [|reflexivity]. destruct (c_realization c) as [y|] eqn:E2; [|reflexivity].
    pose proof (o_realization c a O x y E1 E2) as X. apply pval_eqb_ok in X. now rewrite X. }
  assert (Ht : time_index_check (s_time a) = Ok tt).
  { unfold time_index_check. destruct (s_time a) as [x|] eqn:E; [|reflexivity]. destruct (o_time c a O x E) as (q & -> & Hq).
    apply Qle_bool_iff in Hq. now rewrite Hq. }
  destruct (o_support c a O) as [Es|(n & mid & m & p & Dn & Em & Ep & Ec)].
  - rewrite Es. cbn [is_none bind]. unfold inherit_selectively, support_from. rewrite Es.
    destruct (s_realization a) as [x|];
      cbn [with_realization new_coll with_support c_model c_support c_dict c_realization is_none orb andb assert_ bind];
      rewrite Hr; cbn [bind]; rewrite Ht, Ha; cbn [fst snd]; eexists; (split; [reflexivity|]); cbn; (split; [reflexivity|]);
      (split; [now destruct (c_support c)|]); auto.
  - destruct (denotes_some _ _ Dn) as [Ns Ni]. rewrite Ns. unfold set_support_uuid. cbn [c_model new_coll]. rewrite Em, Ni. cbn [bind]. rewrite Ep.
    assert (X : forall (r x : res coll), match s_support a with UNone => r | _ => x end = x).
    { intros r x. destruct (s_support a); [discriminate|reflexivity|reflexivity|reflexivity]. }
    rewrite X. clear X. cbn [bind]. unfold inherit_selectively, support_from.
    assert (Y : is_none (c_support c) || matching_uuids (s_support a) (c_support c) = true).
    { destruct Ec as [->|Dc]; [reflexivity|]. rewrite (matching_two _ _ n Dn Dc). apply orb_true_r. }
    rewrite Em in *.
    destruct (s_realization a) as [x|];
      cbn [with_realization new_coll with_support c_model c_support c_dict c_realization];
      rewrite Ns, (matching_two _ _ n Dn Dn), Z.eqb_refl; cbn [orb andb assert_ bind];
      cbn [with_realization new_coll with_support c_model c_support c_dict c_realization]; rewrite ?Ns; cbn [orb andb]; rewrite Y; cbn [assert_ bind with_realization new_coll with_support c_model c_support c_dict c_realization];
      rewrite Hr; cbn [bind c_dict]; rewrite Ht, Ha; cbn [fst snd]; eexists; (split; [reflexivity|]); cbn; auto.
Qed.
(** Whether a part meets the criteria can be decided. *)
Definition picks (c : coll) (a : sel) (e : str * info) : bool := match passes (c_model c) a (fst e) (snd e) with Ok b => b | Err _ => false end.
Lemma picks_ok c a p i : in_order c a -> In (p, i) (c_dict c) ->
  passes (c_model c) a p i = Ok (picks c a (p, i)) /\ (picks c a (p, i) = true <-> meets c a p i).
Proof.
  intros O Hi. destruct (passes_spec c a p i O) as (b & E & H); [apply in_map_iff; now exists (p, i)|].
  unfold picks. cbn [fst snd]. rewrite E. auto.
Qed.

(** * C74 *)
(** A selection from a collection holds exactly the properties that meet every criterion
    given, in the order and with the attributes they have in the collection.  Missing:
    the unit of measure, which [meets] leaves out (see below). *)
Theorem C74_selection_partial : forall c a, in_order c a ->
  exists v f, selective_version c a = Ok v /\ c_dict v = filter f (c_dict c) /\
    forall p i, In (p, i) (c_dict c) -> (f (p, i) = true <-> meets c a p i).
Proof.
  intros c a O. destruct (select_ok c a (picks c a) O) as (v & E & Ed & _); [intros p i Hi; now apply picks_ok|].
  exists v, (picks c a). split; [assumption|]. split; [assumption|]. intros p i Hi. now apply picks_ok.
Qed.
Print Assumptions C74_selection_partial.

Definition demo_info (r : option Z) (kind title : str) (facet : option str) (ti : option Z) (uom : str) : info :=
  Info r None 7 true 1 (L "cells") kind (match facet with None => None | Some _ => Some (L "direction") end) facet title (Some 5) ti None None (Some uom) None None [] None None false.
Definition demo : coll := with_dict new_coll
  [(L "p1", demo_info (Some 0) (L "permeability rock") (L "KH") (Some (L "I")) (Some 0) (L "mD"));
   (L "p2", demo_info (Some 1) (L "rock permeability") (L "KV") (Some (L "K")) (Some 0) (L "D"));
   (L "p3", demo_info (Some 2) (L "porosity") (L "PORO") None (Some 1) (L "m3/m3"))].
Definition ask_kind (k : str) : sel :=
  Sel None UNone UNone None None None None (Some k) None None None TNone UNone None None UNone None None None [].
Definition ask_uom (u : str) : sel :=
  Sel None UNone UNone None None None None None None None None TNone UNone None (Some (PStr u)) UNone None None None [].
Definition ask_time (t : pval) : sel :=
  Sel None UNone UNone None None None None None None None None TNone UNone (Some t) None UNone None None None [].
Lemma demo_keys : NoDup (dkeys (c_dict demo)).
Proof. cbn. repeat constructor; cbn; intuition discriminate. Qed.
Example demo_in_order : in_order demo (ask_kind (L "permeability rock")).
Proof.
  constructor; cbn; try (intros; discriminate); [apply demo_keys|now left| |constructor]. intros H. now elim H.
Qed.
Example demo_selected : exists v, selective_version demo (ask_kind (L "permeability rock")) = Ok v /\ parts_of v = [L "p1"; L "p2"].
Proof. eexists. split; reflexivity. Qed.

(** The unit of measure is accepted as a criterion and then ignored: asking for metres of
    a collection in which every property is in something else gives all of it. *)
Theorem C74_uom_is_ignored_refuted : exists c u v, NoDup (dkeys (c_dict c)) /\ in_order c (ask_uom u) /\
  (forall p i, In (p, i) (c_dict c) -> i_uom i <> Some u) /\
  selective_version c (ask_uom u) = Ok v /\ c_dict v = c_dict c /\ c_dict c <> [].
Proof.
  exists demo, (L "m"). eexists. split; [apply demo_keys|]. split.
  { constructor; cbn; try (intros; discriminate); [apply demo_keys|now left| |constructor]. intros H. now elim H. }
  split; [|split; [reflexivity|split; [reflexivity|discriminate]]].
  intros p i [H|[H|[H|[]]]]; injection H as <- <-; cbn; discriminate.
Qed.
Print Assumptions C74_uom_is_ignored_refuted.
(** In fact the criterion never matters. *)
Theorem C74_uom_never_matters : forall c a u,
  selective_version c a =
  selective_version c (Sel (s_realization a) (s_support a) (s_uuid a) (s_continuous a) (s_points a) (s_count a) (s_indexable a) (s_kind a)
    (s_facet_type a) (s_facet a) (s_title a) (s_mode a) (s_ts a) (s_time a) u (s_lookup a) (s_categorical a) (s_related a) (s_const a) (s_extra a)).
Proof.
  intros c a u. set (a' := Sel _ _ _ _ _ _ _ _ _ _ _ _ _ _ _ _ _ _ _ _).
  assert (P : forall m items d, add_selected m a false items d = add_selected m a' false items d).
  { intros m items. induction items as [|[p i] items IH]; intros d; [reflexivity|]. cbn [add_selected].
    change (passes m a' p i) with (passes m a p i).
    destruct (passes m a p i) as [[]|]; [|apply IH|reflexivity]. destruct (dget str_eqb d p); [reflexivity|apply IH]. }
  assert (I : forall v, inherit_selectively v c a false = inherit_selectively v c a' false).
  { intros v. unfold inherit_selectively. change (s_support a') with (s_support a). change (s_time a') with (s_time a).
    destruct (support_from v c (s_support a)) as [c1|]; [|reflexivity]. destruct (bind _ _); [|reflexivity]. now rewrite P. }
  unfold selective_version. change (s_support a') with (s_support a). change (s_realization a') with (s_realization a).
  destruct (if is_none (s_support a) then _ else _) as [v|]; [|reflexivity]. cbn [bind]. cbv zeta. now rewrite I.
Qed.
Print Assumptions C74_uom_never_matters.
(** The documented special values '*' and 'none' (and every other text) raise TypeError
    when given for the time index. *)
Theorem C74_special_time_index_refuted : forall c s, selective_version c (ask_time (PStr s)) = Err TypeError.
Proof.
  intros c s. unfold selective_version, ask_time. cbn [s_support s_realization is_none bind].
  unfold inherit_selectively, support_from. cbn. destruct (c_support c); reflexivity.
Qed.
Print Assumptions C74_special_time_index_refuted.

(** Choosing from a selection is choosing with both sets of criteria. *)
Theorem C74_selections_compose : forall c a b v, in_order c a -> selective_version c a = Ok v -> in_order v b ->
  exists w, selective_version v b = Ok w /\
    (forall p i, In (p, i) (c_dict w) <-> In (p, i) (c_dict c) /\ meets c a p i /\ meets c b p i) /\
    exists f, c_dict w = filter f (c_dict c).
Proof.
  intros c a b v Oa Ea Ob.
  destruct (select_ok c a (picks c a) Oa) as (v' & E & Ed & Em & _); [intros p i Hi; now apply picks_ok|].
  rewrite Ea in E. injection E as <-.
  destruct (select_ok v b (picks v b) Ob) as (w & Ew & Fw & _); [intros p i Hi; now apply picks_ok|].
  exists w. split; [assumption|].
  assert (MM : forall p i, meets v b p i <-> meets c b p i).
  { intros p i. split; intros [M1 M2 M3 M4 M5 M6 M7 M8 M9 M10 M11 M12 M13 M14 M15 M16 M17 M18];
      [rewrite Em in M17|rewrite <- Em in M17]; constructor; assumption. }
  split.
  - intros p i. rewrite Fw, filter_In. split.
    + intros [Hi Hp]. apply picks_ok in Hp; [|assumption|assumption]. rewrite MM in Hp.
      rewrite Ed, filter_In in Hi. destruct Hi as [Hi Ha]. apply picks_ok in Ha; auto.
    + intros (Hi & Ma & Mb). assert (Hv : In (p, i) (c_dict v)). { rewrite Ed, filter_In. split; [assumption|]. now apply picks_ok. }
      split; [assumption|]. apply picks_ok; [assumption|assumption|]. now apply MM.
  - exists (fun e => picks c a e && picks v b e). rewrite Fw, Ed. clear. induction (c_dict c) as [|e l IH]; [reflexivity|].
    cbn [filter]. destruct (picks c a e); cbn [andb filter]; [|assumption]. destruct (picks v b e); [now f_equal|assumption].
Qed.
Print Assumptions C74_selections_compose.
(** singleton(): None without a match, the match when there is one; several matches raise
    by default, or are resolved as asked. *)
Lemma parts_q_list m l : l <> [] -> parts_q m (Query (Some l) None None None (L "is") false [] [] None None None None) = Ok (Some l).
Proof. destruct l; [congruence|reflexivity]. Qed.
Theorem C74_singleton : forall c a how, in_order c a ->
  exists ps, (forall p, In p ps <-> exists i, In (p, i) (c_dict c) /\ meets c a p i) /\ NoDup ps /\
    match ps with
    | [] => singleton c a how = Ok None
    | [p] => singleton c a how = Ok (Some p)
    | p :: _ =>
        singleton c a (L "exception") = Err AssertionError /\
        forall mid m, c_model c = Some (mid, m) ->
          singleton c a (L "first") = Ok (Some p) /\ singleton c a (L "none") = Ok None /\
          (incl ps (dkeys (parts m)) ->
           (exists q, singleton c a (L "newest") = Ok (Some q) /\ In q ps /\ forall q', In q' ps -> str_le (created_of m q') (created_of m q) = true) /\
           (exists q, singleton c a (L "oldest") = Ok (Some q) /\ In q ps /\ forall q', In q' ps -> str_le (created_of m q) (created_of m q') = true))
    end.
Proof.
  intros c a how O. destruct (select_ok c a (picks c a) O) as (v & E & Ed & _); [intros p i Hi; now apply picks_ok|].
  exists (parts_of v). split; [|split].
  - intros p. unfold parts_of, dkeys. rewrite Ed, in_map_iff. split.
    + intros ([p' i] & <- & Hi). apply filter_In in Hi. destruct Hi as [Hi Hp]. exists i. split; [assumption|]. now apply picks_ok in Hp.
    + intros (i & Hi & M). exists (p, i). split; [reflexivity|]. apply filter_In. split; [assumption|]. now apply picks_ok.
  - unfold parts_of, dkeys. rewrite Ed. pose proof (o_keys c a O) as Hn. unfold dkeys in Hn. clear -Hn. induction (c_dict c) as [|e l IH]; [constructor|].
    cbn [filter map] in *. inversion Hn as [|? ? N1 N2]; subst. destruct (picks c a e); [|auto]. cbn [map]. constructor; [|auto].
    intros Hi. apply N1. apply in_map_iff in Hi. destruct Hi as (x & <- & Hx). apply filter_In in Hx. apply in_map. tauto.
  - unfold singleton. rewrite E. cbn [bind]. destruct (parts_of v) as [|p [|p2 l]]; [reflexivity|reflexivity|].
    split; [reflexivity|]. intros mid m Em. rewrite Em.
    change (negb (str_eqb (L "first") (L "exception"))) with true. change (negb (str_eqb (L "none") (L "exception"))) with true.
    change (negb (str_eqb (L "newest") (L "exception"))) with true. change (negb (str_eqb (L "oldest") (L "exception"))) with true. cbv iota.
    assert (Eq : parts_q m (Query (Some (p :: p2 :: l)) None None None (L "is") false [] [] None None None None) = Ok (Some (p :: p2 :: l))) by reflexivity.
    destruct (C20_part_default_is_unique m _ (p :: p2 :: l) how Eq) as (_ & D1 & D2 & _).
    split; [exact D2|]. split; [exact D1|]. intros Il. unfold part_q. rewrite Eq. cbn [bind orb]. set (ps := p :: p2 :: l) in *.
    change (str_eqb (L "newest") (L "first")) with false. change (str_eqb (L "newest") (L "none")) with false. change (str_eqb (L "newest") (L "newest")) with true.
    change (str_eqb (L "oldest") (L "first")) with false. change (str_eqb (L "oldest") (L "none")) with false. change (str_eqb (L "oldest") (L "newest")) with false.
    change (str_eqb (L "oldest") (L "oldest")) with true. cbv iota.
    destruct (timestamp_sort_ok m ps Il) as (s & Es & P & T). rewrite Es. cbn [bind].
    assert (Rf : forall x, str_le x x = true) by apply str_le_refl.
    assert (PI : forall x, In x s <-> In x ps) by (intros x; split; apply Permutation_in; [symmetry|]; exact P).
    split.
    + destruct s as [|q s]; [symmetry in P; apply Permutation_nil in P; discriminate|]. exists q. split; [reflexivity|]. split; [apply PI; now left|].
      intros q' Hq. apply PI in Hq. inversion T as [|? ? _ F]; subst. destruct Hq as [->|Hq]; [apply Rf|]. rewrite Forall_forall in F. now apply F.
    + apply StronglySorted_rev in T. assert (PR : forall x, In x (rev s) <-> In x ps) by (intros x; rewrite <- in_rev; apply PI).
      destruct (rev s) as [|q r]; [exfalso; apply (PR p); now left|]. exists q. split; [reflexivity|]. split; [apply PR; now left|].
      intros q' Hq. apply PR in Hq. inversion T as [|? ? _ F]; subst. destruct Hq as [->|Hq]; [apply Rf|]. rewrite Forall_forall in F. now apply F.
Qed.
Print Assumptions C74_singleton.

(** Inheriting properties from another collection: the collection keeps all it had, and
    gains exactly the properties of the other that meet the criteria and that it did not
    have; with ignore_clashes a property both have stays as it is, without it such a
    property raises AssertionError. *)
Definition compatible (c other : coll) (a : sel) : Prop :=
  (s_support a = UNone \/ c_support c = UNone \/ exists n, denotes (s_support a) n /\ denotes (c_support c) n) /\
  (c_model c = None \/ exists mid m m', c_model c = Some (mid, m) /\ c_model other = Some (mid, m')) /\
  (c_support c = UNone \/ c_support other = UNone \/ exists n, denotes (c_support c) n /\ denotes (c_support other) n) /\
  (forall x y, c_realization c = Some x -> c_realization other = Some y -> same_value x y).
Lemma inherit_shape c other a ic : compatible c other a -> (forall x, s_time a = Some x -> exists q, x = PNum q /\ (0 <= q)%Q) ->
  exists c1, c_dict c1 = c_dict c /\
    inherit_selectively c other a ic = (with_dict c1 (fst (add_selected (c_model other) a ic (c_dict other) (c_dict c))),
                                        snd (add_selected (c_model other) a ic (c_dict other) (c_dict c))).
Proof.
  intros (C1 & C2 & C3 & C4) Ht. unfold inherit_selectively, support_from.
  assert (N : forall u n, denotes u n -> is_none u = false) by (intros u n D; now apply denotes_some in D).
  assert (X1 : is_none (s_support a) || is_none (c_support c) || matching_uuids (s_support a) (c_support c) = true).
  { destruct C1 as [->|[->|(n & D1 & D2)]]; [reflexivity|cbn; now rewrite orb_true_r|]. rewrite (matching_two _ _ n D1 D2). apply orb_true_r. }
  assert (X3 : is_none (c_support c) || is_none (c_support other) || matching_uuids (c_support c) (c_support other) = true).
  { destruct C3 as [->|[->|(n & D1 & D2)]]; [reflexivity|cbn; now rewrite orb_true_r|]. rewrite (matching_two _ _ n D1 D2). apply orb_true_r. }
  assert (X4 : realization_check (c_realization c) (c_realization other) = Ok tt).
  { unfold realization_check. destruct (c_realization c) as [x|] eqn:E1; [|reflexivity]. destruct (c_realization other) as [y|] eqn:E2; [|reflexivity].
    pose proof (C4 x y eq_refl eq_refl) as X. apply pval_eqb_ok in X. now rewrite X. }
  assert (X5 : time_index_check (s_time a) = Ok tt).
  { unfold time_index_check. destruct (s_time a) as [x|]; [|reflexivity]. destruct (Ht x eq_refl) as (q & -> & Hq). apply Qle_bool_iff in Hq. now rewrite Hq. }
  rewrite X1. cbn [assert_ bind].
  assert (G : forall c1, c_dict c1 = c_dict c -> c_support c1 = c_support c -> c_realization c1 = c_realization c ->
    exists c2, c_dict c2 = c_dict c /\
    match (do _ <- assert_ (is_none (c_support c1) || is_none (c_support other) || matching_uuids (c_support c1) (c_support other));
           (if is_none (c_support c1) && match c_dict c1 with [] => true | _ :: _ => false end
            then Ok (with_support c1 match c_support other with UNone => c_model c1 | _ => c_model other end (c_support other)) else Ok c1)) with
    | Ok c3 => match (do _ <- realization_check (c_realization c3) (c_realization other); time_index_check (s_time a)) with
               | Ok _ => let r := add_selected (c_model other) a ic (c_dict other) (c_dict c3) in (with_dict c3 (fst r), snd r)
               | Err e => (c3, Err e)
               end
    | Err e => (c, Err e)
    end = (with_dict c2 (fst (add_selected (c_model other) a ic (c_dict other) (c_dict c))), snd (add_selected (c_model other) a ic (c_dict other) (c_dict c)))).
  { intros c1 E1 E2 E3. rewrite E1, E2, X3. cbn [assert_ bind]. destruct (is_none (c_support c) && _).
    - cbn [c_realization with_support c_dict]. rewrite E3, X4. cbn [bind]. rewrite X5. rewrite E1. cbv zeta. eexists. split; [|reflexivity]. exact E1.
    - rewrite E3, X4. cbn [bind]. rewrite X5, E1. cbv zeta. eexists. split; [|reflexivity]. exact E1. }
  revert G. destruct C2 as [->|(mid & m & m' & -> & ->)]; intros G; cbn [bind].
  - apply G; reflexivity.
  - rewrite Z.eqb_refl. cbn [assert_ bind]. apply G; reflexivity.
Qed.
Theorem C74_inheriting : forall c other a ignore_clashes, in_order other a -> compatible c other a ->
  let clash := exists p i, In (p, i) (c_dict other) /\ meets other a p i /\ In p (dkeys (c_dict c)) in
  (ignore_clashes = false -> clash -> snd (inherit_selectively c other a ignore_clashes) = Err AssertionError) /\
  (ignore_clashes = true \/ ~ clash -> exists c' added, inherit_selectively c other a ignore_clashes = (c', Ok tt) /\
     c_dict c' = c_dict c ++ added /\
     (forall p i, In (p, i) added <-> In (p, i) (c_dict other) /\ meets other a p i /\ ~ In p (dkeys (c_dict c))) /\
     exists f, added = filter f (c_dict other)).
Proof.
  intros c other a ic O C clash. destruct (inherit_shape c other a ic C (o_time _ _ O)) as (c1 & E1 & ->).
  assert (P : forall p i, In (p, i) (c_dict other) -> passes (c_model other) a p i = Ok (picks other a (p, i))) by (intros p i Hi; now apply picks_ok).
  pose proof (o_keys _ _ O) as Hn. split.
  - intros -> (p & i & Hi & M & Hk). cbn [snd]. apply (add_selected_clash _ _ _ (picks other a) _ p i); auto; [now apply picks_ok|].
    apply (dkeys_dget str_eqb str_eqb_ok) in Hk. destruct Hk as [x ->]. discriminate.
  - intros H. rewrite (add_selected_ok _ _ _ _ (picks other a)); [|assumption|assumption|].
    2: { destruct H as [H|H]; [now left|]. right. intros p i Hi Hp. apply picks_ok in Hp; [|assumption|assumption].
         destruct (dget str_eqb (c_dict c) p) eqn:E; [|reflexivity]. exfalso. apply H. exists p, i. split; [assumption|]. split; [assumption|].
         apply (dkeys_dget str_eqb str_eqb_ok). eauto. }
    cbn [fst snd]. eexists. eexists. split; [reflexivity|]. cbn [with_dict c_dict]. split; [reflexivity|]. split; [|eexists; reflexivity].
    intros p i. rewrite filter_In, andb_true_iff. cbn [fst].
    assert (K : negb (has_key (c_dict c) p) = true <-> ~ In p (dkeys (c_dict c))).
    { rewrite <- (dget_none str_eqb str_eqb_ok). unfold has_key. destruct (dget str_eqb (c_dict c) p); cbn; intuition discriminate. }
    rewrite K. split; [intros (Hi & Hp & N); split; [assumption|]; split; [now apply picks_ok|assumption]|].
    intros (Hi & M & N). split; [assumption|]. split; [now apply picks_ok|assumption].
Qed.
Print Assumptions C74_inheriting.
(** Whatever happens, properties already in the collection are untouched. *)
Lemma support_from_dict c other u c1 : support_from c other u = Ok c1 -> c_dict c1 = c_dict c.
Proof.
  unfold support_from. intros H.
  destruct (assert_ _) eqn:E1 in H; [|discriminate]. cbn [bind] in H.
  destruct (match c_model c with None => _ | Some _ => _ end) as [c2|] eqn:E2 in H; [|discriminate]. cbn [bind] in H.
  assert (D : c_dict c2 = c_dict c).
  { destruct (c_model c) as [[mid m]|]; [|injection E2 as <-; reflexivity]. destruct (c_model other) as [[mid' m']|]; [|discriminate].
    destruct (assert_ (mid =? mid')); [|discriminate]. now injection E2 as <-. }
  destruct (assert_ _) in H; [|discriminate]. cbn [bind] in H. destruct (_ && _) in H; injection H as <-; exact D.
Qed.
Theorem C74_inheriting_keeps_what_was_there : forall c other a ignore_clashes p i,
  dget str_eqb (c_dict c) p = Some i ->
  dget str_eqb (c_dict (fst (inherit_selectively c other a ignore_clashes))) p = Some i /\
  dget str_eqb (c_dict (fst (inherit_parts c other ignore_clashes))) p = Some i.
Proof.
  intros c other a ic p i H. split.
  - unfold inherit_selectively. destruct (support_from c other (s_support a)) as [c1|] eqn:E; [|assumption].
    apply support_from_dict in E. destruct (bind _ _); cbn [fst with_dict c_dict]; [|now rewrite E]. rewrite E. now apply add_selected_keeps.
  - unfold inherit_parts. destruct (assert_ _); [|assumption]. cbn [bind]. cbv zeta.
    destruct (_ && _ && _); cbn [with_support c_realization]; (destruct (realization_check _ _); [|assumption]); cbn [bind fst with_dict with_support c_dict];
      rewrite (add_all_as_selected _ _ _ None); now apply add_selected_keeps.
Qed.
Print Assumptions C74_inheriting_keeps_what_was_there.
(** inherit_parts_from_other_collection brings in everything. *)
Theorem C74_inheriting_everything : forall c other ignore_clashes, NoDup (dkeys (c_dict other)) ->
  (c_support c = UNone \/ c_support other = UNone \/ exists n, denotes (c_support c) n /\ denotes (c_support other) n) ->
  (forall x y, c_realization c = Some x -> c_realization other = Some y -> same_value x y) ->
  let clash := exists p, In p (dkeys (c_dict other)) /\ In p (dkeys (c_dict c)) in
  (ignore_clashes = false -> clash -> snd (inherit_parts c other ignore_clashes) = Err AssertionError) /\
  (ignore_clashes = true \/ ~ clash -> exists c' added, inherit_parts c other ignore_clashes = (c', Ok tt) /\
     c_dict c' = c_dict c ++ added /\
     (forall p i, In (p, i) added <-> In (p, i) (c_dict other) /\ ~ In p (dkeys (c_dict c)))).
Proof.
  intros c other ic Hn C3 C4 clash.
  assert (X3 : is_none (c_support c) || is_none (c_support other) || matching_uuids (c_support c) (c_support other) = true).
  { destruct C3 as [->|[->|(n & D1 & D2)]]; [reflexivity|cbn; now rewrite orb_true_r|]. rewrite (matching_two _ _ n D1 D2). apply orb_true_r. }
  assert (X4 : realization_check (c_realization c) (c_realization other) = Ok tt).
  { unfold realization_check. destruct (c_realization c) as [x|] eqn:E1; [|reflexivity]. destruct (c_realization other) as [y|] eqn:E2; [|reflexivity].
    pose proof (C4 x y eq_refl eq_refl) as X. apply pval_eqb_ok in X. now rewrite X. }
  assert (S : exists c1, c_dict c1 = c_dict c /\ inherit_parts c other ic = (with_dict c1 (fst (add_all ic (c_dict other) (c_dict c))), snd (add_all ic (c_dict other) (c_dict c)))).
  { unfold inherit_parts. rewrite X3. cbn [assert_ bind]. cbv zeta. destruct (_ && _ && _); cbn [with_support c_realization c_dict]; rewrite X4; cbn [bind]; eexists; (split; [|reflexivity]); reflexivity. }
  destruct S as (c1 & E1 & ->). rewrite (add_all_as_selected _ _ _ None).
  assert (P : forall p i, In (p, i) (c_dict other) -> passes None sel_all p i = Ok ((fun _ => true) (p, i))) by reflexivity.
  split.
  - intros -> (p & Hp & Hk). cbn [snd]. apply in_map_iff in Hp. destruct Hp as ([p' i] & <- & Hi). cbn [fst] in *.
    apply (add_selected_clash _ _ _ (fun _ => true) _ p' i); auto. apply (dkeys_dget str_eqb str_eqb_ok) in Hk. destruct Hk as [x ->]. discriminate.
  - intros H. rewrite (add_selected_ok _ _ _ _ (fun _ => true)); [|assumption|assumption|].
    2: { destruct H as [H|H]; [now left|]. right. intros p i Hi _. destruct (dget str_eqb (c_dict c) p) eqn:E; [|reflexivity]. exfalso. apply H. exists p.
         split; [apply in_map_iff; now exists (p, i)|]. apply (dkeys_dget str_eqb str_eqb_ok). eauto. }
    cbn [fst snd]. eexists. eexists. split; [reflexivity|]. cbn [with_dict c_dict]. split; [reflexivity|].
    intros p i. rewrite filter_In. cbn [fst andb].
    assert (K : negb (has_key (c_dict c) p) = true <-> ~ In p (dkeys (c_dict c))).
    { rewrite <- (dget_none str_eqb str_eqb_ok). unfold has_key. destruct (dget str_eqb (c_dict c) p); cbn; intuition discriminate. }
    now rewrite K.
Qed.
Print Assumptions C74_inheriting_everything.

(** ** Properties like an example *)
Definition real_text (s : option str) : Prop := s <> Some (L "*") /\ s <> Some (L "none").
(** what is asked when the example's own value is the criterion *)
Lemma wants_own_num o v : wants (onum o) (onum v) <-> (o = None \/ v = o).
Proof.
  unfold wants, onum. destruct o as [x|]; [|tauto]. split.
  - intros [[H _]|[[H _]|(_ & _ & w & Hw & S)]]; [discriminate|discriminate|]. right. destruct v as [y|]; [|discriminate]. injection Hw as <-.
    cbn in S. unfold Qeq in S. cbn in S. f_equal. lia.
  - intros [H| ->]; [discriminate|]. right. right. split; [discriminate|]. split; [discriminate|]. eexists. split; [reflexivity|]. cbn. reflexivity.
Qed.
Lemma wants_own_str o v : real_text o -> (wants (ostr o) (ostr v) <-> (o = None \/ v = o)).
Proof.
  intros [N1 N2]. unfold wants, ostr. destruct o as [x|]; [|tauto]. split.
  - intros [[H _]|[[H _]|(_ & _ & w & Hw & S)]]; [congruence|congruence|]. right. destruct v as [y|]; [|discriminate]. injection Hw as <-. cbn in S. now subst.
  - intros [H| ->]; [discriminate|]. right. right. split; [congruence|]. split; [congruence|]. eexists. split; [reflexivity|]. reflexivity.
Qed.
Lemma wants_own_bool b b' : wants (Some (PBool b)) (Some (PBool b')) <-> b' = b.
Proof.
  unfold wants. split.
  - intros [[H _]|[[H _]|(_ & _ & w & [= <-] & S)]]; [discriminate|discriminate|]. destruct b, b'; cbn in S; try reflexivity; unfold Qeq in S; cbn in S; lia.
  - intros ->. right. right. split; [discriminate|]. split; [discriminate|]. eexists. split; [reflexivity|]. cbn. reflexivity.
Qed.
Lemma wants_own_uuid o v : wants_uuid (uarg_of o) v <-> (o = None \/ v = o).
Proof.
  unfold wants_uuid. destruct o as [n|]; cbn [uarg_of]; [|tauto]. split.
  - intros [H|[[H _]|[[H _]|(_ & m & -> & [D|[D|(s & D & _)]])]]]; try discriminate. right. congruence.
  - intros [H| ->]; [discriminate|]. right. right. right. split; [discriminate|]. exists n. split; [reflexivity|now left].
Qed.
Lemma title_is t x : title_fits (L "is") t x <-> x = t.
Proof. unfold title_fits. split; [|intros ->; left; auto]. intros H. pick_mode. assumption. Qed.
(** [like e i]: everything that the example has, i has too, with the same value. *)
Definition like (e i : info) : Prop :=
  (i_support e = None \/ i_support i = i_support e) /\ i_continuous i = i_continuous e /\ i_points i = i_points e /\
  i_indexable i = i_indexable e /\ same_kind (i_kind i) (i_kind e) /\ i_title i = i_title e /\
  (i_ts e = None \/ i_ts i = i_ts e).
Definition facets_like (e i : info) : Prop :=
  (i_facet_type e = None \/ i_facet_type i = i_facet_type e) /\ (i_facet e = None \/ i_facet i = i_facet e).
(** An empty collection takes, from another, the example and the properties like it: for a
    time series those of any time, for facets those of any facet, for realizations those
    of any realization.  Missing: an attribute that the example does not have (None) is not
    compared, so that more is taken than the same property (see below). *)
Lemma like_meets other e i p r ft fa t :
  real_text (Some (i_indexable e)) -> real_text ft -> real_text fa ->
  (meets other (Sel (onum r) (uarg_of (i_support e)) UNone (Some (PBool (i_continuous e))) (Some (PBool (i_points e))) None
                 (Some (PStr (i_indexable e))) (Some (i_kind e)) (ostr ft) (ostr fa) (Some (i_title e)) TNone
                 (uarg_of (i_ts e)) (onum t) None UNone None None None []) p i <->
   like e i /\ (r = None \/ i_realization i = r) /\ (ft = None \/ i_facet_type i = ft) /\ (fa = None \/ i_facet i = fa) /\ (t = None \/ i_time i = t)).
Proof.
  intros Ti Tf Ta. pose proof (wants_own_str (Some (i_indexable e)) (Some (i_indexable i)) Ti) as Wi. cbn [ostr] in Wi.
  split.
  - intros [M1 M2 M3 M4 M5 M6 M7 M8 M9 M10 M11 M12 M13 M14 M15 M16 M17 M18]. cbn [s_realization s_support s_continuous s_points s_indexable s_kind s_facet_type s_facet s_title s_mode s_ts s_time mode_name] in *.
    apply wants_own_num in M1. apply wants_own_uuid in M2. apply wants_own_bool in M4. apply wants_own_bool in M7. apply Wi in M8.
    specialize (M9 _ eq_refl). apply (wants_own_str _ _ Tf) in M10. apply (wants_own_str _ _ Ta) in M11. specialize (M12 _ eq_refl). apply title_is in M12.
    apply wants_own_uuid in M13. apply wants_own_num in M14. unfold like.
    assert (i_indexable i = i_indexable e) by (destruct M8; congruence). tauto.
  - intros ((L1 & L2 & L3 & L4 & L5 & L6 & L7) & R & F1 & F2 & T).
    constructor; cbn [s_realization s_support s_uuid s_continuous s_points s_count s_indexable s_kind s_facet_type s_facet s_title s_mode s_ts s_time s_lookup s_categorical s_related s_const s_extra mode_name];
      try (intros; discriminate); try exact Logic.I; try (now left).
    + now apply wants_own_num. + now apply wants_own_uuid. + now apply wants_own_bool. + now apply wants_own_bool.
    + apply Wi. right. congruence. + now intros k [= <-]. + now apply wants_own_str. + now apply wants_own_str. + intros s [= <-]. now apply title_is.
    + now apply wants_own_uuid. + now apply wants_own_num. + intros k v [].
Qed.
Definition starting (c other : coll) : Prop :=
  c_dict c = [] /\ (c_model c = None \/ exists mid m m', c_model c = Some (mid, m) /\ c_model other = Some (mid, m')) /\
  c_support c = UNone /\ (c_realization c = None \/ c_realization other = None).
Lemma starting_compatible c other a : starting c other -> compatible c other a.
Proof.
  intros (_ & Hm & Hs & Hr). split; [auto|]. split; [assumption|]. split; [auto|]. intros x y E1 E2. destruct Hr; congruence.
Qed.
Lemma into_empty c other a ic : in_order other a -> starting c other ->
  exists c', inherit_selectively c other a ic = (c', Ok tt) /\
    forall p i, In (p, i) (c_dict c') <-> In (p, i) (c_dict other) /\ meets other a p i.
Proof.
  intros O S. destruct (C74_inheriting c other a ic O (starting_compatible c other a S)) as [_ H].
  destruct S as (Hd & _). destruct H as (c' & added & E & Ed & Ha & _).
  { right. intros (p & i & _ & _ & Hk). rewrite Hd in Hk. destruct Hk. }
  exists c'. split; [assumption|]. intros p i. rewrite Ed, Hd. cbn [app]. rewrite Ha, Hd. cbn. tauto.
Qed.
Lemma own_in_order c other r s cont pts idx k ft fa t ts ti n :
  NoDup (dkeys (c_dict other)) -> starting c other ->
  (s = UNone \/ (denotes s n /\ exists mid m p, c_model other = Some (mid, m) /\ dget Z.eqb (u2p m) n = Some p /\ (c_support other = UNone \/ denotes (c_support other) n))) ->
  (forall x y, r = Some x -> c_realization other = Some y -> same_value x y) ->
  (forall z, ti = Some z -> 0 <= z) ->
  in_order other (Sel r s UNone cont pts None idx k ft fa t TNone ts (onum ti) None UNone None None None []).
Proof.
  intros Hn St Hs Hr Ht. constructor; cbn; auto; try (intros; discriminate).
  - destruct Hs as [->|(D & mid & m & p & E1 & E2 & E3)]; [now left|]. right. exists n, mid, m, p. auto.
  - intros x H. destruct ti as [z|]; [|discriminate]. injection H as <-. exists (inject_Z z). split; [reflexivity|]. specialize (Ht z eq_refl). unfold Qle. cbn. lia.
  - constructor.
Qed.
(** The example is supported by an object the model knows (or by none), and attributes
    that are text are not one of the special values. *)
Definition ordinary (other : coll) (e : info) : Prop :=
  NoDup (dkeys (c_dict other)) /\
  (forall n, i_support e = Some n -> exists mid m p, c_model other = Some (mid, m) /\ dget Z.eqb (u2p m) n = Some p /\
                                     (c_support other = UNone \/ denotes (c_support other) n)) /\
  (forall r y, i_realization e = Some r -> c_realization other = Some y -> same_value (PInt r) y) /\
  (forall t, i_time e = Some t -> 0 <= t) /\
  real_text (Some (i_indexable e)) /\ real_text (i_facet_type e) /\ real_text (i_facet e).
Lemma support_hyp other e : ordinary other e -> exists n, uarg_of (i_support e) = UNone \/
  (denotes (uarg_of (i_support e)) n /\ exists mid m p, c_model other = Some (mid, m) /\ dget Z.eqb (u2p m) n = Some p /\ (c_support other = UNone \/ denotes (c_support other) n)).
Proof.
  intros (_ & H & _). destruct (i_support e) as [n|]; [|exists 0; now left]. exists n. right. split; [now left|]. now apply H.
Qed.
Theorem C74_like_an_example_partial : forall c other example e ic, starting c other -> ordinary other e ->
  dget str_eqb (c_dict other) example = Some e ->
  (forall ts, i_ts e = Some ts -> exists c', inherit_for_time_series c other example None ic = (c', Ok tt) /\
     forall p i, In (p, i) (c_dict c') <->
       In (p, i) (c_dict other) /\ like e i /\ facets_like e i /\ (i_realization e = None \/ i_realization i = i_realization e)) /\
  (i_points e = false -> exists c', inherit_for_facets c other example None ic = (c', Ok tt) /\
     forall p i, In (p, i) (c_dict c') <->
       In (p, i) (c_dict other) /\ like e i /\ (i_realization e = None \/ i_realization i = i_realization e) /\ (i_time e = None \/ i_time i = i_time e)) /\
  (exists c', inherit_for_realizations c other example None ic = (c', Ok tt) /\
     forall p i, In (p, i) (c_dict c') <->
       In (p, i) (c_dict other) /\ like e i /\ facets_like e i /\ (i_time e = None \/ i_time i = i_time e)).
Proof.
  intros c other example e ic S O Ee. destruct (support_hyp other e O) as [n Hs]. destruct O as (Hn & _ & Hr & Ht & T1 & T2 & T3).
  assert (Hr' : forall x y, onum (i_realization e) = Some x -> c_realization other = Some y -> same_value x y).
  { intros x y H1 H2. destruct (i_realization e) as [r|]; [|discriminate]. injection H1 as <-. now apply Hr. }
  assert (Hno : real_text None) by (split; discriminate).
  split; [|split].
  - intros ts Ets. unfold inherit_for_time_series. rewrite Ee, Ets.
    pose proof (like_meets other e) as LM. rewrite Ets in LM. cbn [uarg_of] in LM.
    destruct (into_empty c other (Sel (onum (i_realization e)) (uarg_of (i_support e)) UNone (Some (PBool (i_continuous e))) (Some (PBool (i_points e))) None
                 (Some (PStr (i_indexable e))) (Some (i_kind e)) (ostr (i_facet_type e)) (ostr (i_facet e)) (Some (i_title e)) TNone
                 (UObj ts) (onum None) None UNone None None None []) ic) as (c' & E & H); [|assumption|].
    { apply (own_in_order c other _ _ _ _ _ _ _ _ _ _ _ n); auto. intros z H. discriminate. }
    exists c'. split; [exact E|]. intros p i. rewrite H, (LM i p (i_realization e) _ _ None T1 T2 T3). unfold facets_like. tauto.
  - intros Ep. unfold inherit_for_facets. rewrite Ee, Ep.
    pose proof (like_meets other e) as LM. rewrite Ep in LM.
    destruct (into_empty c other (Sel (onum (i_realization e)) (uarg_of (i_support e)) UNone (Some (PBool (i_continuous e))) (Some (PBool false)) None
                 (Some (PStr (i_indexable e))) (Some (i_kind e)) (ostr None) (ostr None) (Some (i_title e)) TNone
                 (uarg_of (i_ts e)) (onum (i_time e)) None UNone None None None []) ic) as (c' & E & H); [|assumption|].
    { apply (own_in_order c other _ _ _ _ _ _ _ _ _ _ _ n); auto. }
    exists c'. split; [exact E|]. intros p i. rewrite H, (LM i p (i_realization e) None None (i_time e) T1 Hno Hno). tauto.
  - unfold inherit_for_realizations. rewrite Ee. pose proof (like_meets other e) as LM.
    destruct (into_empty c other (Sel (onum None) (uarg_of (i_support e)) UNone (Some (PBool (i_continuous e))) (Some (PBool (i_points e))) None
                 (Some (PStr (i_indexable e))) (Some (i_kind e)) (ostr (i_facet_type e)) (ostr (i_facet e)) (Some (i_title e)) TNone
                 (uarg_of (i_ts e)) (onum (i_time e)) None UNone None None None []) ic) as (c' & E & H); [|assumption|].
    { apply (own_in_order c other _ _ _ _ _ _ _ _ _ _ _ n); auto. intros x y H. discriminate. }
    exists c'. split; [exact E|]. intros p i. rewrite H, (LM i p None _ _ (i_time e) T1 T2 T3). unfold facets_like. tauto.
Qed.
Print Assumptions C74_like_an_example_partial.
(** A time series made from an example without a facet takes in properties with facets:
    here, horizontal and vertical permeability. *)
Definition mixed : coll := with_dict new_coll
  [(L "p1", demo_info None (L "rock permeability") (L "PERM") None (Some 0) (L "mD"));
   (L "p2", demo_info None (L "rock permeability") (L "PERM") (Some (L "I")) (Some 1) (L "mD"));
   (L "p3", demo_info None (L "rock permeability") (L "PERM") (Some (L "K")) (Some 1) (L "mD"))].
Theorem C74_time_series_mixes_facets_refuted : exists c', inherit_for_time_series new_coll mixed (L "p1") None false = (c', Ok tt) /\
  starting new_coll mixed /\ ordinary mixed (demo_info None (L "rock permeability") (L "PERM") None (Some 0) (L "mD")) /\
  exists p i q j, In (p, i) (c_dict c') /\ In (q, j) (c_dict c') /\ p <> q /\ i_time i = i_time j /\ i_facet i <> i_facet j.
Proof.
  eexists. split; [vm_compute; reflexivity|]. split; [cbn; unfold starting; auto|]. split.
  { split; [repeat constructor; cbn; intuition discriminate|]. split; [intros n H; discriminate|]. split; [intros r y H; discriminate|].
    split; [intros t H; injection H as <-; lia|]. repeat split; discriminate. }
  exists (L "p2"), (demo_info None (L "rock permeability") (L "PERM") (Some (L "I")) (Some 1) (L "mD")),
         (L "p3"), (demo_info None (L "rock permeability") (L "PERM") (Some (L "K")) (Some 1) (L "mD")).
  cbn. split; [right; left; reflexivity|]. split; [right; right; left; reflexivity|]. split; [discriminate|]. split; [reflexivity|discriminate].
Qed.
Print Assumptions C74_time_series_mixes_facets_refuted.
Example demo_inherits : exists c', inherit_for_facets new_coll mixed (L "p2") None false = (c', Ok tt) /\ parts_of c' = [L "p2"; L "p3"].
Proof. eexists. split; vm_compute; reflexivity. Qed.
