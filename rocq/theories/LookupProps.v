(** LookupProps.v: property theorems about string lookup tables (C26). *)
From Verif Require Import Base TextModel TextProofs StrModel StrProofs PyDict LookupModel.

Lemma zeqb_iff a b : Z.eqb a b = true <-> a = b. Proof. apply Z.eqb_eq. Qed.
Notation zg := (dget Z.eqb).
Lemma fold_min_spec l : forall x, (forall y, In y (x :: l) -> fold_left Z.min l x <= y) /\ In (fold_left Z.min l x) (x :: l).
Proof.
  induction l as [|a l IH]; intros x; cbn [fold_left]; [split; [intros y [<-|[]]; lia|now left]|].
  destruct (IH (Z.min x a)) as [H1 H2]. split.
  - intros y [<-|[<-|Hy]]; [specialize (H1 _ (or_introl eq_refl)); lia|specialize (H1 _ (or_introl eq_refl)); lia|apply H1; now right].
  - destruct H2 as [H2|H2]; [|now right; right]. rewrite <- H2. destruct (Z.min_spec x a) as [[_ ->]|[_ ->]]; [now left|right; now left].
Qed.
Lemma fold_max_spec l : forall x, (forall y, In y (x :: l) -> y <= fold_left Z.max l x) /\ In (fold_left Z.max l x) (x :: l).
Proof.
  induction l as [|a l IH]; intros x; cbn [fold_left]; [split; [intros y [<-|[]]; lia|now left]|].
  destruct (IH (Z.max x a)) as [H1 H2]. split.
  - intros y [<-|[<-|Hy]]; [specialize (H1 _ (or_introl eq_refl)); lia|specialize (H1 _ (or_introl eq_refl)); lia|apply H1; now right].
  - destruct H2 as [H2|H2]; [|now right; right]. rewrite <- H2. destruct (Z.max_spec x a) as [[_ ->]|[_ ->]]; [right; now left|now left].
Qed.
Lemma zmin_le l y : In y l -> zmin l <= y.
Proof. destruct l as [|x l]; [intros []|]. apply fold_min_spec. Qed.
Lemma zmax_ge l y : In y l -> y <= zmax l.
Proof. destruct l as [|x l]; [intros []|]. apply fold_max_spec. Qed.

Lemma load_inv d s : load_from_dict d = Ok s -> d <> [] /\
  s = set_list_conditionally (Lookup (IInt (zmin (dkeys d))) (IInt (zmax (dkeys d))) [] d false) (zmin (dkeys d)) (zmax (dkeys d)).
Proof. destruct d as [|e d]; [discriminate|]. unfold load_from_dict. intros H. split; [discriminate|]. congruence. Qed.

(** Both storage forms answer get_string from the dictionary supplied. *)
Theorem C26_get_string_exact : forall d s, load_from_dict d = Ok s -> forall k, get_string s k = Ok (zg d k).
Proof.
  intros d s H k. apply load_inv in H. destruct H as [_ ->]. set (D := d) in *.
  assert (OUT : forall k, zg D k <> None -> zmin (dkeys D) <= k <= zmax (dkeys D)).
  { intros k' Hk. destruct (zg D k') as [v|] eqn:E; [|contradiction].
    assert (In k' (dkeys D)) by (apply (dkeys_dget Z.eqb zeqb_iff); eauto). split; [now apply zmin_le|now apply zmax_ge]. }
  set (mn := zmin (dkeys D)) in *. set (mx := zmax (dkeys D)) in *. clearbody mn mx.
  unfold set_list_conditionally. match goal with |- context [if ?c then Lookup _ _ _ _ _ else _] => destruct c eqn:C end.
  - unfold get_string. cbn [l_min l_max l_as_list l_list l_dict].
    destruct ((k <? mn) || (mx <? k)) eqn:B.
    + destruct (zg D k) eqn:E; [|reflexivity]. assert (mn <= k <= mx) by (apply OUT; congruence). lia.
    + assert (0 <= k < mx + 1) by lia. rewrite nth_error_map. unfold zrange. rewrite nth_error_map.
      rewrite (nth_error_nth' _ 0%nat) by (rewrite seq_length; lia). rewrite seq_nth by lia. cbn. now rewrite Z2Nat.id by lia.
  - unfold get_string. cbn [l_min l_max l_as_list l_list l_dict]. destruct ((k <? mn) || (mx <? k)) eqn:B; [|reflexivity].
    destruct (zg D k) eqn:E; [|reflexivity]. assert (mn <= k <= mx) by (apply OUT; congruence). lia.
Qed.
Print Assumptions C26_get_string_exact.

Lemma index_of_spec v l : match index_of v l with
  | Some i => 0 <= i /\ nth_error l (Z.to_nat i) = Some (Some v) /\ (forall j, (j < Z.to_nat i)%nat -> nth_error l j <> Some (Some v))
  | None => ~ In (Some v) l end.
Proof.
  induction l as [|x l IH]; cbn; [tauto|].
  assert (SUCC : forall i, 0 <= i -> Z.to_nat (Z.succ i) = S (Z.to_nat i)) by (intros; lia).
  destruct x as [x|].
  - destruct (str_eqb x v) eqn:E.
    + apply str_eqb_eq in E. subst. repeat split; [lia|]. intros j Hj. lia.
    + assert (Nx : x <> v) by (intros ->; rewrite str_eqb_refl in E; discriminate).
      destruct (index_of v l) as [i|]; cbn.
      * destruct IH as (H1 & H2 & H3). rewrite SUCC by assumption. repeat split; [lia|exact H2|].
        intros [|j] Hj; cbn; [congruence|apply H3; lia].
      * intros [H|H]; [congruence|contradiction].
  - destruct (index_of v l) as [i|]; cbn.
    + destruct IH as (H1 & H2 & H3). rewrite SUCC by assumption. repeat split; [lia|exact H2|]. intros [|j] Hj; cbn; [discriminate|apply H3; lia].
    + intros [H|H]; [discriminate|contradiction].
Qed.
Lemma key_of_spec v (d : dict Z str) : match key_of v d with Some k => In (k, v) d | None => ~ In v (dvals d) end.
Proof.
  induction d as [|[k x] d IH]; cbn; [tauto|]. destruct (str_eqb x v) eqn:E.
  - apply str_eqb_eq in E. subst. now left.
  - destruct (key_of v d); [now right|]. intros [H|H]; [subst; rewrite str_eqb_refl in E; discriminate|contradiction].
Qed.
(** The inverse: a string in the table is found under a key that maps to it, and the key
    is the only one when strings are distinct; an absent string gives None. *)
Theorem C26_index_inverts : forall d s, load_from_dict d = Ok s -> NoDup (dkeys d) ->
  forall v, match get_index_for_string s v with
            | Some k => zg d k = Some v
            | None => forall k, zg d k <> Some v
            end.
Proof.
  intros d s H Hn v. pose proof (C26_get_string_exact d s H) as G.
  apply load_inv in H. destruct H as [_ ->]. set (D := d) in *.
  assert (OUT : forall k v, zg D k = Some v -> zmin (dkeys D) <= k <= zmax (dkeys D)).
  { intros k' v' E. assert (In k' (dkeys D)) by (apply (dkeys_dget Z.eqb zeqb_iff); eauto). split; [now apply zmin_le|now apply zmax_ge]. }
  set (mn := zmin (dkeys D)) in *. set (mx := zmax (dkeys D)) in *. clearbody mn mx. clear G.
  unfold set_list_conditionally. match goal with |- context [if ?c then Lookup _ _ _ _ _ else _] => destruct c eqn:C end; unfold get_index_for_string; cbn [l_as_list l_list l_dict].
  - assert (NE : forall i, nth_error (map (fun k => zg D k) (zrange (mx + 1))) i = Some (Some v) -> (i < Z.to_nat (mx + 1))%nat /\ zg D (Z.of_nat i) = Some v).
    { intros i Hi. assert (Hl : (i < Z.to_nat (mx + 1))%nat).
      { rewrite <- length_zrange, <- (map_length (fun k => zg D k)). apply nth_error_Some. congruence. }
      split; [assumption|]. rewrite nth_error_map in Hi. unfold zrange in Hi. rewrite nth_error_map in Hi.
      rewrite (nth_error_nth' _ 0%nat) in Hi by (rewrite seq_length; lia). rewrite seq_nth in Hi by lia. cbn in Hi. congruence. }
    pose proof (index_of_spec v (map (fun k => zg D k) (zrange (mx + 1)))) as S. cbn [dict] in *.
    destruct (index_of v _) as [i|].
    + destruct S as (H1 & H2 & _). apply NE in H2. destruct H2 as [_ H2]. now rewrite Z2Nat.id in H2 by lia.
    + intros k Hk. apply S. rewrite <- Hk. apply in_map_iff. exists k. split; [reflexivity|]. apply in_zrange. specialize (OUT _ _ Hk). lia.
  - pose proof (key_of_spec v D) as S. destruct (key_of v D) as [k|].
    + now apply (in_dget Z.eqb zeqb_iff).
    + intros k Hk. apply S. clear -Hk. induction D as [|[a x] D IH]; [discriminate|]. cbn in Hk. destruct (a =? k); [injection Hk as ->; now left|right; auto].
Qed.
Print Assumptions C26_index_inverts.
Theorem C26_round_trip : forall d s, load_from_dict d = Ok s -> NoDup (dkeys d) ->
  (forall k k' v, zg d k = Some v -> zg d k' = Some v -> k = k') ->
  forall k v, get_string s k = Ok (Some v) <-> get_index_for_string s v = Some k.
Proof.
  intros d s H Hn Hinj k v. rewrite (C26_get_string_exact d s H k). pose proof (C26_index_inverts d s H Hn v) as I.
  destruct (get_index_for_string s v) as [j|].
  - split; [intros E; injection E as E; f_equal; eauto|]. intros E. injection E as ->. now rewrite I.
  - split; [|discriminate]. intros E. injection E as E. now apply I in E.
Qed.
Print Assumptions C26_round_trip.
Example C26_example_list : exists s, load_from_dict [(3, L "sand"); (0, L "shale")] = Ok s /\ l_as_list s = true /\ get_index_for_string s (L "sand") = Some 3.
Proof. eexists. split; [reflexivity|]. split; vm_compute; reflexivity. Qed.
Example C26_example_dict : exists s, load_from_dict [(300, L "sand"); (-1, L "shale")] = Ok s /\ l_as_list s = false /\ get_index_for_string s (L "sand") = Some 300.
Proof. eexists. split; [reflexivity|]. split; vm_compute; reflexivity. Qed.

(** Written to xml and read back, a table of non-blank trimmed strings answers the same. *)
Lemma load_xml_spec : forall vs s, NoDup (map fst vs) -> (forall k v, In (k, v) vs -> strip is_space v = v /\ v <> []) ->
  (forall k, In k (map fst vs) -> zg (l_dict s) k = None) -> l_as_list s = false -> (l_dict s = [] -> l_min s = INone /\ l_max s = INone) ->
  (l_dict s <> [] -> exists a b, l_min s = IInt a /\ l_max s = IInt b /\ forall k v, zg (l_dict s) k = Some v -> a <= k <= b) ->
  exists s', load_from_xml s (map (fun e => (list_ascii_of_string (str_of_int (fst e)), stripped_text (snd e))) vs) = Ok s' /\
    l_as_list s' = false /\ l_dict s' = l_dict s ++ vs /\
    (l_dict s' <> [] -> exists a b, l_min s' = IInt a /\ l_max s' = IInt b /\ forall k v, zg (l_dict s') k = Some v -> a <= k <= b).
Proof.
  induction vs as [|[k v] vs IH]; intros s Hn Hv Hk Ha He Hb; cbn [map load_from_xml].
  - exists s. rewrite app_nil_r. auto.
  - cbn [fst snd]. rewrite string_of_list_ascii_of_string, int_str_roundtrip. cbn [bind].
    rewrite (Hk k) by now left. destruct (Hv k v (or_introl eq_refl)) as [V1 V2]. unfold stripped_text at 1. rewrite V1.
    destruct v as [|c v]; [contradiction|]. inversion Hn as [|? ? Hn1 Hn2]; subst.
    assert (ABS : ~ In k (dkeys (l_dict s))). { rewrite <- (dget_none Z.eqb zeqb_iff). apply Hk. now left. }
    assert (DS : dset Z.eqb (l_dict s) k (c :: v) = l_dict s ++ [(k, c :: v)]).
    { clear -ABS. induction (l_dict s) as [|[a x] d IH]; [reflexivity|]. cbn in *. destruct (Z.eqb_spec a k) as [->|]; [exfalso; auto|]. rewrite IH by auto. reflexivity. }
    set (s1 := Lookup _ _ _ _ _). assert (Ed : l_dict s1 = l_dict s ++ [(k, c :: v)]) by exact DS.
    destruct (IH s1) as (s' & E & A & D & B).
    + assumption.
    + intros k' v' Hin. apply (Hv k' v'). now right.
    + intros k' Hin. cbn. rewrite (dget_dset_neq Z.eqb zeqb_iff); [apply Hk; now right|]. intros ->. contradiction.
    + assumption.
    + rewrite Ed. intros H. destruct (l_dict s); discriminate.
    + intros _. destruct (l_dict s) as [|e0 d0] eqn:Es.
      * destruct (He eq_refl) as [M1 M2]. exists k, k. cbn. rewrite M1, M2. split; [reflexivity|]. split; [reflexivity|].
        intros k' v' Hg. cbn in Hg. destruct (Z.eqb_spec k k'); [lia|discriminate].
      * destruct Hb as (a & b & M1 & M2 & Hab); [discriminate|]. exists (Z.min a k), (Z.max b k). cbn [s1 l_min l_max l_dict].
        rewrite M1, M2. split; [cbn; destruct (Z.ltb_spec k a); f_equal; lia|]. split; [cbn; destruct (Z.ltb_spec b k); f_equal; lia|].
        intros k' v' Hg. destruct (Z.eq_dec k' k) as [->|N]; [lia|].
        rewrite (dget_dset_neq Z.eqb zeqb_iff) in Hg by assumption. apply Hab in Hg. lia.
    + exists s'. split; [exact E|]. split; [exact A|]. split; [rewrite D, Ed, <- app_assoc; reflexivity|exact B].
Qed.
Theorem C26_reload_same_answers : forall d s, load_from_dict d = Ok s -> NoDup (dkeys d) ->
  (forall k v, zg d k = Some v -> strip is_space v = v /\ v <> []) ->
  exists s', reload s = Ok s' /\ (forall k, get_string s' k = get_string s k) /\
    ((forall k k' v, zg d k = Some v -> zg d k' = Some v -> k = k') -> forall v, get_index_for_string s' v = get_index_for_string s v).
Proof.
  intros d s H Hn Hv. pose proof (C26_get_string_exact d s H) as G. pose proof (C26_index_inverts d s H Hn) as I.
  assert (Ed : l_dict s = d).
  { apply load_inv in H. destruct H as [_ ->]. unfold set_list_conditionally. match goal with |- context [if ?c then Lookup _ _ _ _ _ else _] => now destruct c end. }
  assert (Nd : d <> []) by (intros ->; discriminate).
  destruct (load_xml_spec d empty_lookup) as (s' & E & A & D & B).
  - exact Hn.
  - intros k v Hin. apply (Hv k v). now apply (in_dget Z.eqb zeqb_iff).
  - reflexivity.
  - reflexivity.
  - auto.
  - intros X. now elim X.
  - cbn [empty_lookup l_dict app] in D. exists s'. split.
    { unfold reload, xml_values. rewrite Ed, map_map. exact E. }
    assert (G' : forall k, get_string s' k = Ok (zg d k)).
    { intros k. destruct B as (a & b & M1 & M2 & Hab); [rewrite D; assumption|]. unfold get_string. rewrite M1, M2, A, D.
      destruct ((k <? a) || (b <? k)) eqn:C; [|reflexivity]. destruct (zg d k) as [v|] eqn:Ek; [|reflexivity].
      rewrite <- D in Ek. apply Hab in Ek. lia. }
    split; [intros k; rewrite G, G'; reflexivity|]. intros Hinj v. specialize (I v).
    unfold get_index_for_string at 1. rewrite A, D. pose proof (key_of_spec v d) as S. destruct (key_of v d) as [k|].
    + apply (in_dget Z.eqb zeqb_iff _ _ _ Hn) in S. destruct (get_index_for_string s v) as [j|]; [f_equal; eauto|]. now apply I in S.
    + destruct (get_index_for_string s v) as [j|]; [|reflexivity]. exfalso. apply S. clear -I.
      induction d as [|[a x] D IH]; [discriminate|]. cbn in I. destruct (a =? j); [injection I as ->; now left|right; auto].
Qed.
Print Assumptions C26_reload_same_answers.

(** Finding: set_string can never be used to extend a populated table: it raises after
    changing the dictionary, and leaves the two stores inconsistent. *)
Theorem C26_set_string_refuted : forall d s k v, load_from_dict d = Ok s ->
  set_string s k v = (fst (set_string s k v), Err TypeError) /\ zg (l_dict (fst (set_string s k v))) k = Some v.
Proof.
  intros d s k v H. apply load_inv in H. destruct H as [_ ->]. unfold set_list_conditionally.
  match goal with |- context [if ?c then Lookup _ _ _ _ _ else _] => destruct c end; cbn; (split; [reflexivity|apply (dget_dset_eq Z.eqb zeqb_iff)]).
Qed.
Print Assumptions C26_set_string_refuted.
(** Worse: a table built entirely with set_string accepts every entry but can then answer
    no query. *)
Theorem C26_set_string_then_get_refuted : forall kvs, kvs <> [] ->
  exists s, fold_left (fun s kv => fst (set_string s (fst kv) (snd kv))) kvs empty_lookup = s /\
    (forall k v, In (k, v) kvs -> exists w, zg (l_dict s) k = Some w) /\ forall k, get_string s k = Err TypeError.
Proof.
  intros kvs Hne. eexists. split; [reflexivity|].
  assert (G : forall kvs s, l_as_list s = false -> (exists a b, l_min s = IStr a /\ l_max s = IStr b) \/ (l_min s = INone /\ l_max s = INone /\ kvs <> []) ->
    let s' := fold_left (fun s kv => fst (set_string s (fst kv) (snd kv))) kvs s in
    (forall k v, zg (l_dict s) k = Some v -> exists w, zg (l_dict s') k = Some w) /\
    (forall k v, In (k, v) kvs -> exists w, zg (l_dict s') k = Some w) /\ forall k, get_string s' k = Err TypeError).
  { clear. induction kvs as [|[k v] kvs IH]; intros s Ha Hs; cbn [fold_left].
    - destruct Hs as [(a & b & M1 & M2)|(_ & _ & N)]; [|contradiction]. cbv zeta. repeat split; [eauto|intros ? ? []|].
      intros k. unfold get_string. now rewrite M1.
    - set (s1 := fst (set_string s (fst (k, v)) (snd (k, v)))).
      assert (S1 : l_as_list s1 = false /\ (exists a b, l_min s1 = IStr a /\ l_max s1 = IStr b) /\ l_dict s1 = dset Z.eqb (l_dict s) k v).
      { unfold s1, set_string. cbn [fst snd]. destruct Hs as [(a & b & M1 & M2)|(M1 & M2 & _)]; rewrite M1, M2, Ha.
        - destruct (str_ltb v a), (str_ltb b v); cbn; eauto 6.
        - cbn. eauto 6. }
      destruct S1 as (A1 & B1 & D1). destruct (IH s1 A1 (or_introl B1)) as (I1 & I2 & I3). cbv zeta. repeat split; [| |exact I3].
      + intros k' v' H. destruct (Z.eq_dec k' k) as [->|N].
        * apply (I1 k v). rewrite D1. apply (dget_dset_eq Z.eqb zeqb_iff).
        * apply (I1 k' v'). rewrite D1, (dget_dset_neq Z.eqb zeqb_iff); assumption.
      + intros k' v' [E|H]; [|eauto]. injection E as <- <-. apply (I1 k v). rewrite D1. apply (dget_dset_eq Z.eqb zeqb_iff). }
  destruct (G kvs empty_lookup eq_refl) as (_ & G2 & G3); [right; auto|]. auto.
Qed.
Print Assumptions C26_set_string_then_get_refuted.
(** Finding: the length and list of a table depend on the storage form: a gap is listed
    (as None) in one form and not in the other, so a reloaded table differs. *)
Theorem C26_length_refuted : exists d s s', load_from_dict d = Ok s /\ reload s = Ok s' /\ length_l s = 4 /\ length_l s' = 1 /\
  get_list s = [None; None; None; Some (L "a")] /\ get_list s' = [Some (L "a")].
Proof. exists [(3, L "a")]. do 2 eexists. repeat split; vm_compute; reflexivity. Qed.
Print Assumptions C26_length_refuted.
