(** PropSelProofs.v: what it means to meet a filter, in words a caller would use, and the
    lemmas connecting it with PropSelModel. *)
From Coq Require Import QArith Permutation Sorted.
From Verif Require Import Base QBase TextModel StrModel StrProofs UuidModel PyDict PySort ForestModel CatalogueModel CatalogueProofs PropSelModel.
Open Scope Z_scope.

(** ** Specification *)
(** Python's == *)
Definition same_value (a b : pval) : Prop :=
  match a, b with PStr s, PStr t => s = t | PNum p, PNum q => (p == q)%Q | _, _ => False end.
(** An ordinary filter: no filter; '*' (anything but None); 'none' (only None); a value. *)
Definition wants (arg value : option pval) : Prop :=
  match arg with
  | None => True
  | Some x =>
      (x = PStr (L "*") /\ value <> None) \/
      (x = PStr (L "none") /\ value = None) \/
      (x <> PStr (L "*") /\ x <> PStr (L "none") /\ exists v, value = Some v /\ same_value v x)
  end.
(** The uuid that a uuid argument stands for. *)
Definition denotes (u : uarg) (n : Z) : Prop :=
  u = UObj n \/ u = UInt n \/ exists s, u = UStr s /\ uuid_from_str s = Some n.
Definition wants_uuid (u : uarg) (value : option Z) : Prop :=
  u = UNone \/ (u = UStr (L "*") /\ value <> None) \/ (u = UStr (L "none") /\ value = None) \/
  (u <> UStr (L "none") /\ exists n, value = Some n /\ denotes u n).
(** Titles *)
Definition mode_name (m : tmode) : str :=
  match m with TNone => L "is" | TBool true => L "starts" | TBool false => L "is" | TMode s => s end.
Definition starts_with (x t : str) : Prop := exists r, x = t ++ r.
Definition ends_with (x t : str) : Prop := exists r, x = r ++ t.
Definition has_inside (x t : str) : Prop := exists r s, x = r ++ t ++ s.
Definition title_fits (mode t x : str) : Prop :=
  (mode = L "is" /\ x = t) \/ (mode = L "starts" /\ starts_with x t) \/ (mode = L "ends" /\ ends_with x t) \/
  (mode = L "contains" /\ has_inside x t) \/ (mode = L "is not" /\ x <> t) \/ (mode = L "does not start" /\ ~ starts_with x t) \/
  (mode = L "does not end" /\ ~ ends_with x t) \/ (mode = L "does not contain" /\ ~ has_inside x t).
Definition documented_mode (mode : str) : Prop :=
  In mode (map L ["is"; "starts"; "ends"; "contains"; "is not"; "does not start"; "does not end"; "does not contain"]%string).
(** Property kinds are the same, or the two names for permeability *)
Definition same_kind (a b : str) : Prop :=
  a = b \/ (In a [L "permeability rock"; L "rock permeability"] /\ In b [L "permeability rock"; L "rock permeability"]).
Definition categorical_property (i : info) : Prop := i_continuous i = false /\ i_lookup i <> None.
(** A relationship, of any sort, of the part with the object having the uuid *)
Definition related (m : mdl) (u : Z) (p : str) : Prop :=
  exists r ct n t, dget Z.eqb (urels m) u = Some r /\ dget str_eqb (parts m) p = Some (ct, n, t) /\
                   In n (r_ref r ++ r_refd r ++ r_soft r).
(** All the criteria other than the unit of measure. *)
Record meets (c : coll) (a : sel) (p : str) (i : info) : Prop := Meets {
  m_realization : wants (s_realization a) (onum (i_realization i));
  m_support : wants_uuid (s_support a) (i_support i);
  m_uuid : wants_uuid (s_uuid a) (Some (i_uuid i));
  m_continuous : wants (s_continuous a) (Some (PBool (i_continuous i)));
  m_categorical : forall b, s_categorical a = Some b -> (categorical_property i <-> b = true);
  m_count : wants (s_count a) (Some (PInt (i_count i)));
  m_points : wants (s_points a) (Some (PBool (i_points i)));
  m_indexable : wants (s_indexable a) (Some (PStr (i_indexable i)));
  m_kind : forall k, s_kind a = Some k -> same_kind (i_kind i) k;
  m_facet_type : wants (s_facet_type a) (ostr (i_facet_type i));
  m_facet : wants (s_facet a) (ostr (i_facet i));
  m_title : forall t, s_title a = Some t -> title_fits (mode_name (s_mode a)) t (i_title i);
  m_ts : wants_uuid (s_ts a) (i_ts i);
  m_time : wants (s_time a) (onum (i_time i));
  m_lookup : wants_uuid (s_lookup a) (i_lookup i);
  m_const : wants (s_const a) (oq (i_const i));
  m_related : forall u, s_related a = Some u -> exists mid m, c_model c = Some (mid, m) /\ related m u p;
  m_extra : forall k v, In (k, v) (s_extra a) -> dget str_eqb (i_extra i) k = Some v }.
(** A call that respects the documented types of the arguments. *)
Record in_order (c : coll) (a : sel) : Prop := InOrder {
  o_keys : NoDup (dkeys (c_dict c));
  o_support : s_support a = UNone \/
    exists n mid m p, denotes (s_support a) n /\ c_model c = Some (mid, m) /\ dget Z.eqb (u2p m) n = Some p /\
                      (c_support c = UNone \/ denotes (c_support c) n);
  o_realization : forall x y, s_realization a = Some x -> c_realization c = Some y -> same_value x y;
  o_time : forall x, s_time a = Some x -> exists q, x = PNum q /\ (0 <= q)%Q;
  o_title : s_title a <> None -> documented_mode (mode_name (s_mode a));
  o_related : forall u, s_related a = Some u -> exists mid m, c_model c = Some (mid, m) /\ rels_present m = true /\
                        forall p, In p (dkeys (c_dict c)) -> In p (dkeys (parts m));
  o_extra : NoDup (dkeys (s_extra a)) }.

(** ** Lemmas *)
Lemma str_eqb_ok a b : str_eqb a b = true <-> a = b.
Proof. apply str_eqb_eq. Qed.
Lemma str_eqb_no a b : str_eqb a b = false <-> a <> b.
Proof. rewrite <- not_true_iff_false, str_eqb_ok. tauto. Qed.
Lemma pval_eqb_ok a b : pval_eqb a b = true <-> same_value a b.
Proof. destruct a, b; cbn; [apply str_eqb_ok|split; [discriminate|tauto]|split; [discriminate|tauto]|apply Qeq_bool_iff]. Qed.
Lemma pval_eqb_str x s : pval_eqb x (PStr s) = true <-> x = PStr s.
Proof.
  rewrite pval_eqb_ok. destruct x; cbn; [|split; [tauto|discriminate]]. split; [now intros ->|congruence].
Qed.
Lemma not_equals_spec arg v : not_none_and_not_equals arg v = false <-> wants arg v.
Proof.
  unfold not_none_and_not_equals, wants. destruct arg as [x|]; [|tauto].
  destruct (pval_eqb x (PStr (L "*"))) eqn:E1.
  { apply pval_eqb_str in E1. subst x. destruct v; split; intros H; try discriminate; try reflexivity.
    - left. split; [reflexivity|discriminate].
    - destruct H as [[_ H]|[[H _]|(H & _)]]; [congruence|discriminate|congruence]. }
  assert (N1 : x <> PStr (L "*")) by (intros ->; cbn in E1; discriminate). clear E1.
  destruct (pval_eqb x (PStr (L "none"))) eqn:E2.
  { apply pval_eqb_str in E2. subst x. destruct v; split; intros H; try discriminate; try reflexivity.
    - destruct H as [[H _]|[[_ H]|(_ & H & _)]]; congruence.
    - right. left. auto. }
  assert (N2 : x <> PStr (L "none")) by (intros ->; cbn in E2; discriminate). clear E2.
  destruct v as [w|].
  - rewrite negb_false_iff, pval_eqb_ok. split.
    + intros H. right. right. split; [assumption|]. split; [assumption|]. eauto.
    + intros [[H _]|[[H _]|(_ & _ & v & [= <-] & H)]]; congruence.
  - split; [discriminate|]. intros [[H _]|[[H _]|(_ & _ & v & H & _)]]; congruence.
Qed.
Lemma matching_denotes u n : matching_uuids u (UObj n) = true <-> denotes u n.
Proof.
  unfold matching_uuids, denotes. destruct u as [|m|s|m]; cbn.
  - split; [discriminate|]. intros [H|[H|(s & H & _)]]; discriminate.
  - rewrite Z.eqb_eq. split; [intros ->; auto|]. intros [H|[H|(s & H & _)]]; congruence.
  - destruct (uuid_from_str s) as [m|] eqn:E.
    + rewrite Z.eqb_eq. split; [intros ->; right; right; eauto|]. intros [H|[H|(s' & H & H')]]; congruence.
    + split; [discriminate|]. intros [H|[H|(s' & H & H')]]; congruence.
  - rewrite Z.eqb_eq. split; [intros ->; auto|]. intros [H|[H|(s & H & _)]]; congruence.
Qed.
Lemma matching_none u : matching_uuids u UNone = false.
Proof. unfold matching_uuids. destruct u; cbn; try reflexivity. now destruct (uuid_from_str s). Qed.
Lemma no_star_uuid n : ~ denotes (UStr (L "*")) n.
Proof. intros [H|[H|(s & [= <-] & H)]]; discriminate. Qed.
Lemma no_none_uuid n : ~ denotes (UStr (L "none")) n.
Proof. intros [H|[H|(s & [= <-] & H)]]; discriminate. Qed.
Lemma match_spec u v : negb (matching_uuids u (uarg_of v)) = false <-> exists n, v = Some n /\ denotes u n.
Proof.
  rewrite negb_false_iff. destruct v as [n|]; cbn [uarg_of].
  - rewrite matching_denotes. split; [eauto|]. now intros (m & [= <-] & H).
  - rewrite matching_none. split; [discriminate|]. intros (m & H & _). discriminate.
Qed.
Lemma uuid_match_spec u v : not_none_and_not_uuid_match u v = false <-> wants_uuid u v.
Proof.
  unfold not_none_and_not_uuid_match, wants_uuid. destruct u as [|m|s|m].
  - tauto.
  - rewrite match_spec. split; [|intros [H|[[H _]|[[H _]|[_ H]]]]; [discriminate|discriminate|discriminate|assumption]].
    intros H. right. right. right. split; [discriminate|assumption].
  - destruct (str_eqb s (L "*")) eqn:E1.
    { apply str_eqb_ok in E1. subst s. destruct v; split; intros H; try discriminate; try reflexivity.
      - right. left. split; [reflexivity|discriminate].
      - destruct H as [H|[[_ H]|[[H _]|(_ & n & H & _)]]]; [discriminate|congruence|discriminate|discriminate]. }
    apply str_eqb_no in E1. destruct (str_eqb s (L "none")) eqn:E2.
    { apply str_eqb_ok in E2. subst s. destruct v; split; intros H; try discriminate; try reflexivity.
      - destruct H as [H|[[H _]|[[_ H]|(H & _)]]]; [discriminate|discriminate|discriminate|congruence].
      - right. right. left. auto. }
    apply str_eqb_no in E2. rewrite match_spec. split; [|intros [H|[[H _]|[[H _]|[_ H]]]]; [discriminate|congruence|congruence|assumption]].
    intros H. right. right. right. split; [congruence|assumption].
  - rewrite match_spec. split; [|intros [H|[[H _]|[[H _]|[_ H]]]]; [discriminate|discriminate|discriminate|assumption]].
    intros H. right. right. right. split; [discriminate|assumption].
Qed.

Lemma L_inj a b : L a = L b -> a = b.
Proof. unfold L. intros H. apply (f_equal string_of_list_ascii) in H. now rewrite !string_of_list_ascii_of_string in H. Qed.

(** The eight modes are pairwise different: pick the right disjunct. *)
Ltac pick_mode :=
  match goal with
  | H : _ \/ _ |- _ => destruct H as [H|H]; pick_mode
  | H : L _ = L _ /\ _ |- _ => destruct H as [H ?]; try (apply L_inj in H; discriminate H)
  | _ => idtac
  end.
Lemma title_spec t mode x : (forall s, t = Some s -> documented_mode (mode_name mode)) ->
  exists b, check_citation_title t mode x = Ok b /\ (b = false <-> forall s, t = Some s -> title_fits (mode_name mode) s x).
Proof.
  intros D. destruct t as [t|]; [|exists false; split; [reflexivity|]; split; [intros _ s H; discriminate|reflexivity]].
  specialize (D t eq_refl).
  assert (G : forall b, (b = false <-> title_fits (mode_name mode) t x) -> (b = false <-> forall s, Some t = Some s -> title_fits (mode_name mode) s x)).
  { intros b Hb. rewrite Hb. split; [now intros H s [= <-]|auto]. }
  assert (I : negb (str_eqb x t) = false <-> title_fits (L "is") t x).
  { rewrite negb_false_iff, str_eqb_ok. split; [intros ->; left; auto|]. unfold title_fits. intros H. pick_mode. assumption. }
  assert (S : negb (startswith x t) = false <-> title_fits (L "starts") t x).
  { rewrite negb_false_iff, startswith_iff. split; [intros H; right; left; auto|]. unfold title_fits. intros H. pick_mode. assumption. }
  unfold check_citation_title. destruct mode as [|b|s]; cbn [mode_name] in *.
  - eexists. split; [reflexivity|]. apply G, I.
  - destruct b; cbn [mode_name] in *; eexists; (split; [reflexivity|]); apply G; [exact S|exact I].
  - unfold documented_mode in D. cbn [map] in D. cbn [mode_name] in G.
    destruct D as [<-|[<-|[<-|[<-|[<-|[<-|[<-|[<-|[]]]]]]]]]; eexists; (split; [reflexivity|]); apply G; clear G.
    + exact I.
    + exact S.
    + rewrite negb_false_iff, endswith_iff. split; [intros H; do 2 right; left; auto|]. unfold title_fits. intros H. pick_mode. assumption.
    + rewrite negb_false_iff, contains_iff. split; [intros H; do 3 right; left; auto|]. unfold title_fits. intros H. pick_mode. assumption.
    + rewrite str_eqb_no. split; [intros H; do 4 right; left; auto|]. unfold title_fits. intros H. pick_mode. assumption.
    + rewrite <- not_true_iff_false, startswith_iff. split; [intros H; do 5 right; left; auto|]. unfold title_fits. intros H. pick_mode. assumption.
    + rewrite <- not_true_iff_false, endswith_iff. split; [intros H; do 6 right; left; auto|]. unfold title_fits. intros H. pick_mode. assumption.
    + rewrite <- not_true_iff_false, contains_iff. split; [intros H; do 7 right; auto|]. unfold title_fits. intros H. pick_mode. assumption.
Qed.
Lemma kind_spec a b : same_property_kind a b = true <-> same_kind a b.
Proof.
  unfold same_property_kind, same_kind. rewrite orb_true_iff, andb_true_iff, !orb_true_iff, !str_eqb_ok. cbn [In]. intuition congruence.
Qed.
Lemma categorical_spec cat i : check_categorical_and_lookup cat i = false <-> forall b, cat = Some b -> (categorical_property i <-> b = true).
Proof.
  unfold check_categorical_and_lookup, categorical_property. destruct cat as [[]|].
  - rewrite orb_false_iff. split.
    + intros [H1 H2] b [= <-]. split; [reflexivity|]. intros _. split; [assumption|]. destruct (i_lookup i); congruence.
    + intros H. destruct (H true eq_refl) as [_ H']. destruct (H' eq_refl) as [H1 H2]. split; [assumption|]. destruct (i_lookup i); congruence.
  - rewrite negb_false_iff, orb_true_iff. split.
    + intros H b [= <-]. split; [|discriminate]. intros [H1 H2]. destruct H as [H|H]; [congruence|]. destruct (i_lookup i); congruence.
    + intros H. destruct (H false eq_refl) as [H' _]. destruct (i_continuous i); [auto|]. destruct (i_lookup i); [|auto].
      assert (X : false = true) by (apply H'; split; [reflexivity|discriminate]). discriminate.
  - split; [intros _ b H; discriminate|reflexivity].
Qed.
Lemma extra_spec e em : NoDup (dkeys e) -> (extra_ok e em = true <-> forall k v, In (k, v) e -> dget str_eqb em k = Some v).
Proof.
  intros Hn. unfold extra_ok. destruct e as [|kv e]; [split; [intros _ k v []|reflexivity]|].
  set (l := kv :: e) in *. rewrite andb_true_iff, negb_true_iff, Nat.ltb_ge, forallb_forall. split.
  - intros [_ H] k v Hi. specialize (H (k, v) Hi). cbn in H. destruct (dget str_eqb em k) as [w|]; [|discriminate]. apply str_eqb_ok in H. now subst.
  - intros H. split.
    + assert (Hs : incl (dkeys l) (dkeys em)).
      { intros k Hk. apply in_map_iff in Hk. destruct Hk as ([k' v] & <- & Hi). apply (dkeys_dget str_eqb str_eqb_ok). exists v. now apply H. }
      apply (NoDup_incl_length Hn) in Hs. unfold dkeys in Hs. now rewrite !map_length in Hs.
    + intros [k v] Hi. cbn. rewrite (H k v Hi). now apply str_eqb_ok.
Qed.
Lemma zmem_in n l : zmem n l = true <-> In n l.
Proof.
  induction l as [|x l IH]; cbn; [split; [discriminate|tauto]|]. rewrite orb_true_iff, IH, Z.eqb_eq. intuition congruence.
Qed.
Lemma related_spec mo r p : (forall u, r = Some u -> exists mid m, mo = Some (mid, m) /\ rels_present m = true /\ In p (dkeys (parts m))) ->
  exists b, related_ok mo r p = Ok b /\ (b = true <-> forall u, r = Some u -> exists mid m, mo = Some (mid, m) /\ related m u p).
Proof.
  intros H. unfold related_ok. destruct r as [u|]; [|exists true; split; [reflexivity|]; split; [intros _ u E; discriminate|reflexivity]].
  destruct (H u eq_refl) as (mid & m & -> & Hr & Hp). apply (dkeys_dget str_eqb str_eqb_ok) in Hp. destruct Hp as ([[ct n] t] & Hp).
  unfold part_q, parts_q, parts_typed, parts_tail. cbn [q_uuid q_list q_subdir q_type q_title q_meta q_extra q_related q_rmode q_sort bind].
  unfold filtered_by_related. rewrite Hr. cbn [negb].
  assert (G : forall b, (b = true <-> related m u p) -> (b = true <-> forall u', Some u = Some u' -> exists mid' m', Some (mid, m) = Some (mid', m') /\ related m' u' p)).
  { intros b Hb. rewrite Hb. split; [intros X u' [= <-]; eauto|]. intros X. destruct (X u eq_refl) as (mid' & m' & [= <- <-] & Y). assumption. }
  destruct (dget Z.eqb (urels m) u) as [rs|] eqn:Eu; cbn [bind filter_related].
  - unfold uuid_for_part. rewrite Hp. cbn [bind]. destruct (zmem n _) eqn:Ez; cbn.
    + exists true. split; [reflexivity|]. apply G. split; [|reflexivity]. intros _. apply zmem_in in Ez. unfold related. exists rs, ct, n, t. auto.
    + exists false. split; [reflexivity|]. apply G. split; [discriminate|]. intros (rs' & ct' & n' & t' & E1 & E2 & Hi).
      rewrite Eu in E1. injection E1 as <-. rewrite Hp in E2. injection E2 as <- <- <-. apply zmem_in in Hi. congruence.
  - exists false. split; [reflexivity|]. apply G. split; [discriminate|]. intros (rs' & ct' & n' & t' & E1 & _). congruence.
Qed.

Lemma passes_spec c a p i : in_order c a -> In p (dkeys (c_dict c)) ->
  exists b, passes (c_model c) a p i = Ok b /\ (b = true <-> meets c a p i).
Proof.
  intros O Hp. unfold passes.
  destruct (title_spec (s_title a) (s_mode a) (i_title i)) as (bt & Et & Ht).
  { intros s Hs. apply (o_title c a O). congruence. }
  destruct (related_spec (c_model c) (s_related a) p) as (br & Er & Hr).
  { intros u Hu. destruct (o_related c a O u Hu) as (mid & m & E1 & E2 & E3). exists mid, m. auto. }
  pose proof (extra_spec (s_extra a) (i_extra i) (o_extra c a O)) as He.
  rewrite Et, Er. cbn [bind].
  assert (W : forall arg v, not_none_and_not_equals arg v = true -> ~ wants arg v) by (intros arg v H W; apply not_equals_spec in W; congruence).
  assert (W' : forall arg v, not_none_and_not_equals arg v = false -> wants arg v) by (intros; now apply not_equals_spec).
  assert (V : forall u v, not_none_and_not_uuid_match u v = true -> ~ wants_uuid u v) by (intros u v H X; apply uuid_match_spec in X; congruence).
  assert (V' : forall u v, not_none_and_not_uuid_match u v = false -> wants_uuid u v) by (intros; now apply uuid_match_spec).
  assert (F : forall P : Prop, ~ P -> exists b, Ok false = Ok b /\ (b = true <-> P)) by (intros P N; exists false; split; [reflexivity|]; split; [discriminate|tauto]).
  destruct (not_none_and_not_equals (s_realization a) _) eqn:E1; [apply F; intros M; exact (W _ _ E1 (m_realization _ _ _ _ M))|].
  destruct (not_none_and_not_uuid_match (s_support a) _) eqn:E2; [apply F; intros M; exact (V _ _ E2 (m_support _ _ _ _ M))|].
  destruct (not_none_and_not_uuid_match (s_uuid a) _) eqn:E3; [apply F; intros M; exact (V _ _ E3 (m_uuid _ _ _ _ M))|].
  destruct (not_none_and_not_equals (s_continuous a) _) eqn:E4; [apply F; intros M; exact (W _ _ E4 (m_continuous _ _ _ _ M))|].
  destruct (check_categorical_and_lookup _ _) eqn:E5.
  { apply F. intros M. pose proof (m_categorical _ _ _ _ M) as X. apply categorical_spec in X. congruence. }
  destruct (not_none_and_not_equals (s_count a) _) eqn:E6; [apply F; intros M; exact (W _ _ E6 (m_count _ _ _ _ M))|].
  destruct (not_none_and_not_equals (s_points a) _) eqn:E7; [apply F; intros M; exact (W _ _ E7 (m_points _ _ _ _ M))|].
  destruct (not_none_and_not_equals (s_indexable a) _) eqn:E8; [apply F; intros M; exact (W _ _ E8 (m_indexable _ _ _ _ M))|].
  destruct (match s_kind a with None => false | Some k => negb (same_property_kind (i_kind i) k) end) eqn:E9.
  { apply F. intros M. destruct (s_kind a) as [k|] eqn:Ek; [|discriminate]. apply negb_true_iff in E9. pose proof (m_kind _ _ _ _ M k Ek) as X. apply kind_spec in X. congruence. }
  assert (K : forall k, s_kind a = Some k -> same_kind (i_kind i) k).
  { intros k Ek. rewrite Ek in E9. apply negb_false_iff in E9. now apply kind_spec. }
  destruct (not_none_and_not_equals (s_facet_type a) _) eqn:E10; [apply F; intros M; exact (W _ _ E10 (m_facet_type _ _ _ _ M))|].
  destruct (not_none_and_not_equals (s_facet a) _) eqn:E11; [apply F; intros M; exact (W _ _ E11 (m_facet _ _ _ _ M))|].
  destruct bt; [apply F; intros M; pose proof (m_title _ _ _ _ M) as X; apply Ht in X; discriminate|].
  destruct (not_none_and_not_uuid_match (s_ts a) _) eqn:E12; [apply F; intros M; exact (V _ _ E12 (m_ts _ _ _ _ M))|].
  destruct (not_none_and_not_equals (s_time a) _) eqn:E13; [apply F; intros M; exact (W _ _ E13 (m_time _ _ _ _ M))|].
  destruct (not_none_and_not_uuid_match (s_lookup a) _) eqn:E14; [apply F; intros M; exact (V _ _ E14 (m_lookup _ _ _ _ M))|].
  destruct (not_none_and_not_equals (s_const a) _) eqn:E15; [apply F; intros M; exact (W _ _ E15 (m_const _ _ _ _ M))|].
  destruct br; [|apply F; intros M; pose proof (m_related _ _ _ _ M) as X; apply Hr in X; discriminate].
  cbn [negb]. eexists. split; [reflexivity|]. rewrite He. split; [|intros M; exact (m_extra _ _ _ _ M)].
  intros X. constructor; auto; [now apply categorical_spec|now apply Ht|now apply Hr].
Qed.

(** Dictionaries *)
Definition has_key (d : dict str info) (p : str) : bool := match dget str_eqb d p with Some _ => true | None => false end.
Lemma dset_absent (d : dict str info) p i : dget str_eqb d p = None -> dset str_eqb d p i = d ++ [(p, i)].
Proof.
  induction d as [|[q j] d IH]; cbn; [reflexivity|]. destruct (str_eqb q p); [discriminate|]. intros H. now rewrite IH.
Qed.
Lemma dget_app (d e : dict str info) p : dget str_eqb (d ++ e) p = match dget str_eqb d p with Some x => Some x | None => dget str_eqb e p end.
Proof. induction d as [|[q j] d IH]; cbn; [reflexivity|]. destruct (str_eqb q p); auto. Qed.
Lemma add_selected_ok m a ic items f d : NoDup (dkeys items) ->
  (forall p i, In (p, i) items -> passes m a p i = Ok (f (p, i))) ->
  (ic = true \/ forall p i, In (p, i) items -> f (p, i) = true -> dget str_eqb d p = None) ->
  add_selected m a ic items d = (d ++ filter (fun e => f e && negb (has_key d (fst e))) items, Ok tt).
Proof.
  revert d. induction items as [|[p i] items IH]; intros d Hn Hf Hc; [now rewrite app_nil_r|].
  cbn [add_selected dkeys map fst] in *. inversion Hn as [|? ? N1 N2]; subst. rewrite (Hf p i (or_introl eq_refl)). cbn [filter fst].
  assert (Hf' : forall q j, In (q, j) items -> passes m a q j = Ok (f (q, j))) by (intros; apply Hf; now right).
  destruct (f (p, i)) eqn:Ef; cbn [andb].
  2: { apply IH; auto. destruct Hc as [Hc|Hc]; [auto|]. right. intros q j Hi. apply Hc. now right. }
  unfold has_key at 1. destruct (dget str_eqb d p) eqn:Ed; cbn [negb].
  - destruct Hc as [->|Hc]; [|rewrite (Hc p i (or_introl eq_refl) Ef) in Ed; discriminate].
    apply IH; auto.
  - rewrite (dset_absent d p i Ed). assert (Np : forall q j, In (q, j) items -> q <> p).
    { intros q j Hi ->. apply N1. apply in_map_iff. now exists (p, j). }
    assert (Hg : forall q j, In (q, j) items -> dget str_eqb (d ++ [(p, i)]) q = dget str_eqb d q).
    { intros q j Hi. rewrite dget_app. destruct (dget str_eqb d q); [reflexivity|]. cbn. pose proof (Np q j Hi) as X.
      destruct (str_eqb p q) eqn:E; [|reflexivity]. apply str_eqb_ok in E. congruence. }
    rewrite IH; auto.
    + rewrite <- app_assoc. cbn [app]. f_equal. f_equal. f_equal. apply filter_ext_in. intros [q j] Hi. unfold has_key. cbn [fst]. now rewrite (Hg q j Hi).
    + destruct Hc as [->|Hc]; [now left|]. right. intros q j Hi Hq. rewrite (Hg q j Hi). apply (Hc q j); [now right|assumption].
Qed.
Lemma add_selected_clash m a items f d p i : NoDup (dkeys items) ->
  (forall p i, In (p, i) items -> passes m a p i = Ok (f (p, i))) ->
  In (p, i) items -> f (p, i) = true -> dget str_eqb d p <> None -> snd (add_selected m a false items d) = Err AssertionError.
Proof.
  revert d. induction items as [|[q j] items IH]; intros d Hn Hf Hi Hp Hd; [destruct Hi|].
  cbn [add_selected dkeys map fst] in *. inversion Hn as [|? ? N1 N2]; subst. rewrite (Hf q j (or_introl eq_refl)).
  assert (Hf' : forall q j, In (q, j) items -> passes m a q j = Ok (f (q, j))) by (intros; apply Hf; now right).
  destruct Hi as [Hi|Hi].
  - injection Hi as -> ->. rewrite Hp. destruct (dget str_eqb d p); [reflexivity|congruence].
  - destruct (f (q, j)); [|apply IH; auto]. destruct (dget str_eqb d q) eqn:Ed; [reflexivity|]. apply IH; auto.
    rewrite (dset_absent d q j Ed), dget_app. destruct (dget str_eqb d p); congruence.
Qed.
Lemma add_selected_keeps m a ic items d p i : dget str_eqb d p = Some i -> dget str_eqb (fst (add_selected m a ic items d)) p = Some i.
Proof.
  revert d. induction items as [|[q j] items IH]; intros d H; [assumption|]. cbn [add_selected].
  destruct (passes m a q j) as [[]|]; [|now apply IH|assumption]. destruct (dget str_eqb d q) eqn:Ed.
  - destruct ic; [now apply IH|assumption].
  - apply IH. rewrite (dset_absent d q j Ed), dget_app, H. reflexivity.
Qed.
Lemma add_all_as_selected ic items d m : add_all ic items d = add_selected m sel_all ic items d.
Proof.
  revert d. induction items as [|[p i] items IH]; intros d; [reflexivity|]. cbn [add_all add_selected].
  change (passes m sel_all p i) with (Ok true). cbn iota. destruct (dget str_eqb d p); [|apply IH]. destruct ic; [apply IH|reflexivity].
Qed.
