(** PropStackProps.v: C76, the arrays of a collection stacked over realizations, time
    indices or facets. *)
From Coq Require Import QArith Permutation Sorted.
From Verif Require Import Base QBase TextModel StrModel StrProofs UuidModel PyDict PySort ForestModel CatalogueModel CatalogueProofs CatalogueProps PropSelModel PropSelProofs PropSelProps PropFlagProps.
Open Scope Z_scope.

(** ** Specification *)
(** every property has a label (realization number, time index, facet), and no two have the
    same *)
Definition labelled {A} (label : info -> option A) (c : coll) : Prop :=
  (forall i, holds c i -> label i <> None) /\
  (forall p i q j, In (p, i) (c_dict c) -> In (q, j) (c_dict c) -> label i = label j -> p = q).
(** The collection is of a single property: the same kind, indexable element and unit, on
    one support. *)
Definition single (c : coll) : Prop :=
  c_support c <> UNone /\ c_dict c <> [] /\ all_same i_kind c /\ all_same i_indexable c /\ all_same i_uom c /\ all_same i_continuous c.

(** ** Lemmas *)
Lemma upd_length {A} (l : list A) n x : List.length (upd l n x) = List.length l.
Proof. revert n. induction l as [|y l IH]; intros [|n]; cbn; auto. Qed.
Lemma upd_eq {A} (l : list A) n x : (n < List.length l)%nat -> nth_error (upd l n x) n = Some x.
Proof. revert n. induction l as [|y l IH]; intros [|n] H; cbn in *; [lia|lia|reflexivity|]. apply IH. lia. Qed.
Lemma upd_neq {A} (l : list A) n m x : n <> m -> nth_error (upd l n x) m = nth_error l m.
Proof. revert n m. induction l as [|y l IH]; intros [|n] [|m] H; cbn; try reflexivity; try congruence. apply IH. congruence. Qed.
Lemma nth_error_ext2 {A} (l m : list A) : (forall n, nth_error l n = nth_error m n) -> l = m.
Proof.
  revert m. induction l as [|x l IH]; intros [|y m] H; [reflexivity|specialize (H 0%nat); discriminate|specialize (H 0%nat); discriminate|].
  f_equal; [specialize (H 0%nat); now injection H|]. apply IH. intros n. exact (H (S n)).
Qed.
Section Distinct.
  Context {A : Type} (eqb : A -> A -> bool) (eqb_ok : forall a b, eqb a b = true <-> a = b).
  Lemma exists_in x s : existsb (eqb x) s = true <-> In x s.
  Proof. rewrite existsb_exists. split; [intros (y & H & E); apply eqb_ok in E; now subst|]. intros H. exists x. split; [assumption|now apply eqb_ok]. Qed.
  Lemma distinct_le l s : (List.length (distinct eqb l s) <= List.length s + List.length l)%nat.
  Proof.
    revert s. induction l as [|[x|] l IH]; intros s; cbn [distinct List.length]; [lia| |pose proof (IH s); lia].
    destruct (existsb (eqb x) s); [pose proof (IH s); lia|]. pose proof (IH (s ++ [x])) as H. rewrite app_length in H. cbn in H. lia.
  Qed.
  Lemma distinct_full l s : List.length (distinct eqb l s) = (List.length s + List.length l)%nat ->
    exists vs, l = map Some vs /\ distinct eqb l s = s ++ vs /\ NoDup vs /\ forall v, In v vs -> ~ In v s.
  Proof.
    revert s. induction l as [|[x|] l IH]; intros s; cbn [distinct List.length].
    - intros _. exists []. rewrite app_nil_r. repeat split; [constructor|intros v []].
    - destruct (existsb (eqb x) s) eqn:E; [pose proof (distinct_le l s); lia|]. intros H.
      destruct (IH (s ++ [x])) as (vs & -> & E2 & N & D); [rewrite app_length; cbn; lia|].
      exists (x :: vs). split; [reflexivity|]. split; [rewrite E2, <- app_assoc; reflexivity|].
      assert (Nx : ~ In x s) by (intros X; apply exists_in in X; congruence).
      split; [constructor; [|assumption]; intros X; apply (D x X); apply in_or_app; right; now left|].
      intros v [<-|Hv]; [assumption|]. intros X. apply (D v Hv). apply in_or_app. now left.
    - pose proof (distinct_le l s). lia.
  Qed.
  Lemma distinct_map vs s : NoDup vs -> (forall v, In v vs -> ~ In v s) -> distinct eqb (map Some vs) s = s ++ vs.
  Proof.
    revert s. induction vs as [|x vs IH]; intros s N D; cbn [map distinct]; [now rewrite app_nil_r|]. inversion N; subst.
    destruct (existsb (eqb x) s) eqn:E; [apply exists_in in E; exfalso; apply (D x); [now left|assumption]|].
    rewrite IH; [now rewrite <- app_assoc|assumption|]. intros v Hv X. apply in_app_or in X. destruct X as [X|[<-|[]]]; [apply (D v); [now right|assumption]|contradiction].
  Qed.
  Lemma distinct_one b l : l <> [] -> (distinct eqb (map Some l) [] = [b] <-> forall x, In x l -> x = b).
  Proof.
    assert (G : forall l s, incl s (distinct eqb (map Some l) s) /\ (forall x, In x l -> In x (distinct eqb (map Some l) s))).
    { clear l. induction l as [|y l IH]; intros s; cbn [map distinct]; [split; [apply incl_refl|intros x []]|].
      destruct (IH (if existsb (eqb y) s then s else s ++ [y])) as [I1 I2]. split.
      - intros x Hx. apply I1. destruct (existsb _ _); [assumption|apply in_or_app; now left].
      - intros x [<-|Hx]; [|auto]. apply I1. destruct (existsb (eqb y) s) eqn:E; [now apply exists_in|apply in_or_app; right; now left]. }
    intros Hn. split.
    - intros E x Hx. destruct (G l []) as [_ H]. specialize (H x Hx). rewrite E in H. destruct H as [H|[]]. congruence.
    - intros H. destruct l as [|y l]; [congruence|]. cbn [map distinct existsb app]. rewrite (H y (or_introl eq_refl)).
      assert (H' : forall x, In x l -> x = b) by (intros x Hx; apply H; now right). clear -H' eqb_ok.
      induction l as [|y l IH]; [reflexivity|]. cbn [map distinct existsb]. rewrite (H' y (or_introl eq_refl)).
      assert (X : eqb b b = true) by now apply eqb_ok. rewrite X. cbn. apply IH. intros x Hx. apply H'. now right.
  Qed.
End Distinct.
Lemma bool_eqb_ok a b : Bool.eqb a b = true <-> a = b. Proof. apply Bool.eqb_true_iff. Qed.
Lemma z_eqb_ok a b : Z.eqb a b = true <-> a = b. Proof. apply Z.eqb_eq. Qed.
Lemma infos_ne c : c_dict c <> [] -> infos c <> [].
Proof. unfold infos, dvals. destruct (c_dict c); [congruence|discriminate]. Qed.
Lemma mixture_spec c : c_dict c <> [] -> (mixture_check c = Ok tt <-> all_same i_continuous c).
Proof.
  intros Hn. unfold mixture_check, all_continuous, all_discrete.
  assert (E0 : map (fun i => Some (i_continuous i)) (infos c) = map Some (map i_continuous (infos c))) by (rewrite map_map; reflexivity).
  rewrite E0. clear E0.
  assert (Hm : map i_continuous (infos c) <> []) by (intros H; apply map_eq_nil in H; now apply infos_ne in Hn).
  rewrite <- map_all.
  assert (X : (exists b, distinct Bool.eqb (map Some (map i_continuous (infos c))) [] = [b]) <->
              (forall s t, In s (map i_continuous (infos c)) -> In t (map i_continuous (infos c)) -> s = t)).
  { split.
    - intros [b E]. pose proof (proj1 (distinct_one Bool.eqb bool_eqb_ok b _ Hm) E) as E1. intros s t Hs Ht. now rewrite (E1 s Hs), (E1 t Ht).
    - intros H. destruct (map i_continuous (infos c)) as [|b l] eqn:E; [congruence|]. exists b.
      apply (distinct_one _ bool_eqb_ok b _ Hm). intros x Hx. apply H; [assumption|now left]. }
  rewrite <- X. destruct (distinct Bool.eqb _ []) as [|b [|b' l]].
  - cbn. split; [discriminate|]. intros [b H]. discriminate.
  - split; [intros _; now exists b|]. intros _. now destruct b.
  - cbn. split; [discriminate|]. intros [x H]. discriminate.
Qed.
Section Labels.
  Context {A : Type} (eqb : A -> A -> bool) (eqb_ok : forall a b, eqb a b = true <-> a = b) (label : info -> option A).
  Lemma labels_nodup c vs : NoDup (dkeys (c_dict c)) -> map label (infos c) = map Some vs -> NoDup vs -> labelled label c.
  Proof.
    intros Hk E N. unfold labelled, infos, dvals, dkeys in *. split.
    - intros i [p Hi] X. assert (Y : In (label i) (map Some vs)) by (rewrite <- E; apply in_map, in_map_iff; now exists (p, i)).
      rewrite X in Y. apply in_map_iff in Y. destruct Y as (v & Y & _). discriminate.
    - assert (N' : NoDup (map label (map snd (c_dict c)))).
      { rewrite E. clear -N. induction N as [|x l H1 H2 IH]; cbn; constructor; [|assumption]. intros X. apply in_map_iff in X. destruct X as (y & [= <-] & Hy). contradiction. }
      clear E N Hk. induction (c_dict c) as [|[q j] d IH]; [intros p i q j []|]. cbn [map snd] in N'. inversion N' as [|? ? H1 H2]; subst.
      intros p1 i1 p2 i2 [[= <- <-]|Hi] [[= <- <-]|Hj] EQ; [reflexivity| | |eapply IH; eauto].
      + exfalso. apply H1. rewrite EQ. apply in_map, in_map_iff. now exists (p2, i2).
      + exfalso. apply H1. rewrite <- EQ. apply in_map, in_map_iff. now exists (p1, i1).
  Qed.
  Lemma labels_list c : NoDup (dkeys (c_dict c)) -> labelled label c -> exists vs, map label (infos c) = map Some vs /\ NoDup vs.
  Proof.
    unfold labelled, holds, infos, dvals, dkeys. intros Hk [H1 H2]. induction (c_dict c) as [|[p i] d IH]; [exists []; split; [reflexivity|constructor]|].
    cbn [map fst snd] in *. inversion Hk as [|? ? K1 K2]; subst.
    destruct IH as (vs & E & N); [assumption|intros j [q Hj]; apply H1; exists q; now right|intros p1 i1 p2 i2 X Y; apply H2; now right|].
    destruct (label i) as [v|] eqn:Ev; [|exfalso; apply (H1 i); [exists p; now left|assumption]].
    exists (v :: vs). cbn [map]. split; [now rewrite E|]. constructor; [|assumption]. intros X.
    assert (Y : In (Some v) (map label (map snd d))) by (rewrite E; now apply in_map). rewrite map_map in Y. apply in_map_iff in Y. destruct Y as ([q j] & Ej & Hj). cbn in Ej.
    assert (p = q) by (apply (H2 p i q j); [now left|now right|congruence]). subst q. apply K1. apply in_map_iff. now exists (p, j).
  Qed.
  Lemma count_labelled c : NoDup (dkeys (c_dict c)) ->
    (Nat.eqb (List.length (c_dict c)) (List.length (distinct eqb (map label (infos c)) [])) = true <-> labelled label c).
  Proof.
    intros Hk. rewrite Nat.eqb_eq. split.
    - intros H. destruct (distinct_full eqb eqb_ok (map label (infos c)) []) as (vs & E & _ & N & _).
      { rewrite <- H. cbn. unfold infos, dvals. now rewrite !map_length. }
      now apply (labels_nodup c vs).
    - intros H. destruct (labels_list c Hk H) as (vs & E & N). rewrite E, (distinct_map eqb eqb_ok); [|assumption|intros v _ []].
      cbn. apply (f_equal (@List.length _)) in E. unfold infos, dvals in E. rewrite !map_length in E. assumption.
  Qed.
End Labels.
Lemma isort_length {A} leb (l : list A) : List.length (isort leb l) = List.length l.
Proof. symmetry. apply Permutation_length, isort_perm. Qed.
Lemma last_max l d : l <> [] -> StronglySorted (leP Z.leb) l -> In (last l d) l /\ forall x, In x l -> x <= last l d.
Proof.
  intros Hn Hs. induction Hs as [|x l Hs IH Hx]; [congruence|]. destruct l as [|y l].
  - cbn. split; [now left|]. intros z [->|[]]. lia.
  - destruct IH as [I1 I2]; [discriminate|]. change (last (x :: y :: l) d) with (last (y :: l) d). split; [now right|].
    intros z [->|Hz]; [|auto]. rewrite Forall_forall in Hx. specialize (Hx _ I1). unfold leP in Hx. lia.
Qed.

Section Arrays.
  Context {A : Type} (fetch : str -> A).
  Lemma stack_by_number_ok num ext items a : NoDup (map (fun e => num (snd e)) items) ->
    (forall p i, In (p, i) items -> exists r, num i = Some r /\ 0 <= r < ext) -> List.length a = Z.to_nat ext ->
    exists s, stack_by_number fetch items num ext a = Ok s /\ List.length s = Z.to_nat ext /\
      (forall p i r, In (p, i) items -> num i = Some r -> nth_error s (Z.to_nat r) = Some (fetch p)) /\
      (forall n, (forall p i, In (p, i) items -> num i <> Some (Z.of_nat n)) -> nth_error s n = nth_error a n).
  Proof.
    revert a. induction items as [|[p i] items IH]; intros a N H L; cbn [stack_by_number].
    - exists a. repeat split; auto. intros p i r [].
    - cbn [map snd] in N. inversion N as [|? ? N1 N2]; subst.
      destruct (H p i (or_introl eq_refl)) as (r & Er & Hr). rewrite Er.
      destruct (0 <=? r) eqn:E1; [|lia]. destruct (r <? ext) eqn:E2; [|lia]. cbn [andb].
      destruct (IH (upd a (Z.to_nat r) (fetch p))) as (s & Es & Ls & S1 & S2); [assumption|intros q j Hj; apply (H q j); now right|now rewrite upd_length|].
      exists s. split; [assumption|]. split; [assumption|].
      assert (Np : forall q j, In (q, j) items -> num j <> Some r).
      { intros q j Hj X. apply N1. rewrite Er, <- X. apply in_map_iff. now exists (q, j). }
      split.
      + intros q j t [[= <- <-]|Hj] Et; [|eapply S1; eauto]. rewrite Er in Et. injection Et as <-.
        rewrite S2; [|intros q j Hj; rewrite Z2Nat.id by lia; now apply (Np q j)]. apply upd_eq. rewrite L. lia.
      + intros n Hn. rewrite S2; [|intros q j Hj; apply (Hn q j); now right]. apply upd_neq. intros X.
        apply (Hn p i (or_introl eq_refl)). rewrite Er. f_equal. lia.
  Qed.
  Lemma stack_by_number_inv num ext items a s : stack_by_number fetch items num ext a = Ok s ->
    forall p i, In (p, i) items -> exists r, num i = Some r /\ 0 <= r < ext.
  Proof.
    revert a. induction items as [|[p i] items IH]; intros a H q j; [intros []|]. cbn [stack_by_number] in H.
    destruct (num i) as [r|] eqn:Er; [|discriminate]. destruct (_ && _) eqn:E in H; [|discriminate]. apply andb_true_iff in E.
    intros [[= <- <-]|Hj]; [exists r; split; [assumption|lia]|]. eapply IH; eauto.
  Qed.
  Lemma stack_in_order_ok c ask ps l : Forall2 (fun p r => singleton c (ask r) (L "exception") = Ok (Some p)) ps l ->
    stack_in_order fetch c ask l = Ok (map fetch ps).
  Proof. induction 1 as [|p r ps l H1 H2 IH]; cbn [stack_in_order map]; [reflexivity|]. rewrite H1. cbn [bind]. rewrite IH. reflexivity. Qed.
  (** the checks made first *)
  Definition as_before (c c' : coll) : Prop := c_dict c' = c_dict c /\ c_model c' = c_model c /\ c_support c' = c_support c /\ c_realization c' = c_realization c.
  Lemma checks_ok c : snd (has_one_kind c) = true -> snd (has_one_indexable c) = true -> snd (has_one_uom c) = true ->
    c_support c <> UNone -> c_dict c <> [] -> exists c', stack_checks c = (c', Ok tt) /\ as_before c c'.
  Proof.
    intros H1 H2 H3 Hs Hd. unfold stack_checks. assert (N : is_none (c_support c) = false) by (destruct (c_support c); [congruence|reflexivity..]).
    rewrite N. destruct (c_dict c) as [|e d] eqn:Ed; [congruence|].
    assert (K : forall c1, c_dict c1 = c_dict c -> c_model c1 = c_model c -> c_support c1 = c_support c -> c_realization c1 = c_realization c -> c_one_uom c1 = c_one_uom c ->
       exists c', (let (c2, b3) := has_one_uom c1 in if negb b3 then (c2, Err AssertionError) else (c2, Ok tt)) = (c', Ok tt) /\ as_before c c').
    { intros c1 E1 E2 E3 E4 E5. unfold has_one_uom in *. rewrite E5. destruct (c_one_uom c) as [b|]; cbn [snd] in H3.
      - subst b. cbn [negb]. exists c1. split; [reflexivity|]. repeat split; assumption.
      - unfold establish_one_uom in *. cbn [snd] in H3. unfold infos in *. rewrite E1. rewrite H3. cbn [negb]. eexists. split; [reflexivity|]. repeat split; assumption. }
    assert (K2 : forall c1, c_dict c1 = c_dict c -> c_model c1 = c_model c -> c_support c1 = c_support c -> c_realization c1 = c_realization c -> c_one_uom c1 = c_one_uom c -> c_one_indexable c1 = c_one_indexable c ->
       exists c', (let (c1, b2) := has_one_indexable c1 in if negb b2 then (c1, Err AssertionError) else
                   let (c2, b3) := has_one_uom c1 in if negb b3 then (c2, Err AssertionError) else (c2, Ok tt)) = (c', Ok tt) /\ as_before c c').
    { intros c1 E1 E2 E3 E4 E5 E6. unfold has_one_indexable in *. rewrite E6. destruct (c_one_indexable c) as [b|]; cbn [snd] in H2.
      - subst b. cbn [negb]. now apply K.
      - unfold establish_one_indexable in *. cbn [snd] in H2. unfold infos in *. rewrite E1. rewrite H2. cbn [negb]. apply K; assumption. }
    unfold has_one_kind in *. destruct (c_one_kind c) as [b|]; cbn [snd] in H1.
    - subst b. cbn [negb]. now apply K2.
    - unfold establish_one_kind in *. cbn [snd] in H1. rewrite H1. cbn [negb]. apply K2; reflexivity.
  Qed.
  Lemma checks_inv c c' : stack_checks c = (c', Ok tt) ->
    snd (has_one_kind c) = true /\ snd (has_one_indexable c) = true /\ snd (has_one_uom c) = true /\ c_support c <> UNone /\ c_dict c <> [].
  Proof.
    intros H.
    assert (Hs : c_support c <> UNone) by (intros X; unfold stack_checks in H; rewrite X in H; discriminate).
    assert (Hd : c_dict c <> []) by (intros X; unfold stack_checks in H; rewrite X in H; destruct (is_none (c_support c)); discriminate).
    unfold stack_checks in H. destruct (is_none (c_support c)); [discriminate|]. destruct (c_dict c) as [|e d] eqn:Ed; [congruence|].
    unfold has_one_kind in *. destruct (c_one_kind c) as [[]|] eqn:Ek; cbn [negb snd] in *; try discriminate.
    - split; [reflexivity|]. unfold has_one_indexable in *. destruct (c_one_indexable c) as [[]|] eqn:Ei; cbn [negb snd] in *; try discriminate.
      + split; [reflexivity|]. unfold has_one_uom in *. destruct (c_one_uom c) as [[]|] eqn:Eu; cbn [negb snd] in *; try discriminate; auto.
        unfold establish_one_uom in *. cbn [snd] in *. destruct (same_uom_loop _ _); [auto|discriminate].
      + unfold establish_one_indexable in *. cbn [snd] in *. destruct (same_text_loop _ _); [|discriminate]. split; [reflexivity|]. cbn [negb] in H.
        unfold has_one_uom in *. cbn [c_one_uom with_flags] in H. destruct (c_one_uom c) as [[]|] eqn:Eu; cbn [negb snd] in *; try discriminate; auto.
        unfold establish_one_uom in *. cbn [snd] in *. rewrite infos_flags in H. destruct (same_uom_loop _ _); [auto|discriminate].
    - unfold establish_one_kind in *. cbn [snd] in *. destruct (same_text_loop (map i_kind (infos c)) None); [|discriminate]. split; [reflexivity|]. cbn [negb] in H.
      unfold has_one_indexable in *. cbn [c_one_indexable with_flags] in H. destruct (c_one_indexable c) as [[]|] eqn:Ei; cbn [negb snd] in *; try discriminate.
      + split; [reflexivity|]. unfold has_one_uom in *. cbn [c_one_uom with_flags] in H. destruct (c_one_uom c) as [[]|] eqn:Eu; cbn [negb snd] in *; try discriminate; auto.
        unfold establish_one_uom in *. cbn [snd] in *. rewrite infos_flags in H. destruct (same_uom_loop _ _); [auto|discriminate].
      + unfold establish_one_indexable in *. cbn [snd] in *. rewrite infos_flags in H. destruct (same_text_loop _ _); [|discriminate]. split; [reflexivity|]. cbn [negb] in H.
        unfold has_one_uom in *. cbn [c_one_uom with_flags] in H. destruct (c_one_uom c) as [[]|] eqn:Eu; cbn [negb snd] in *; try discriminate; auto.
        unfold establish_one_uom in *. cbn [snd] in *. rewrite !infos_flags in H. destruct (same_uom_loop _ _); [auto|discriminate].
  Qed.
  (** slices for every number up to the largest; those of the properties are their arrays *)
  Definition filled (num : info -> option Z) (c : coll) (fill : A) (s : list A) : Prop :=
    (exists i r, holds c i /\ num i = Some r /\ Z.of_nat (List.length s) = r + 1) /\
    (forall p i r, In (p, i) (c_dict c) -> num i = Some r -> nth_error s (Z.to_nat r) = Some (fetch p)) /\
    (forall n, (n < List.length s)%nat -> (forall i, holds c i -> num i <> Some (Z.of_nat n)) -> nth_error s n = Some fill).
  (** the arrays in increasing order of the number *)
  Definition in_sequence (num : info -> option Z) (c : coll) (s : list A) : Prop :=
    exists ps, s = map fetch ps /\ Permutation ps (parts_of c) /\
      StronglySorted (fun p q => exists i j r t, In (p, i) (c_dict c) /\ In (q, j) (c_dict c) /\ num i = Some r /\ num j = Some t /\ r < t) ps.
  Definition not_negative (num : info -> option Z) (c : coll) : Prop := forall i r, holds c i -> num i = Some r -> 0 <= r.
  Definition numbers (num : info -> option Z) (c : coll) : list Z := isort Z.leb (distinct Z.eqb (map num (infos c)) []).
  Lemma numbers_spec num c : NoDup (dkeys (c_dict c)) -> labelled num c ->
    exists vs, map num (infos c) = map Some vs /\ NoDup vs /\ Permutation vs (numbers num c) /\ StronglySorted (leP Z.leb) (numbers num c) /\
      forall r, In r (numbers num c) <-> exists i, holds c i /\ num i = Some r.
  Proof.
    intros Hk Hl. destruct (labels_list num c Hk Hl) as (vs & E & N). exists vs. split; [assumption|]. split; [assumption|].
    assert (P : Permutation vs (numbers num c)) by (unfold numbers; rewrite E, (distinct_map Z.eqb z_eqb_ok); [apply isort_perm|assumption|intros v _ []]).
    split; [assumption|]. split; [apply isort_sorted, zle_order|]. intros r.
    assert (X : In r (numbers num c) <-> In r vs) by (split; apply Permutation_in; [symmetry|]; exact P). rewrite X. split.
    - intros Hr. assert (Y : In (Some r) (map num (infos c))) by (rewrite E; now apply in_map). apply in_map_iff in Y. destruct Y as (i & Ei & Hi). exists i. split; [now apply holds_infos|assumption].
    - intros (i & Hi & Ei). assert (Y : In (Some r) (map num (infos c))) by (rewrite <- Ei; apply in_map; now apply holds_infos). rewrite E in Y. apply in_map_iff in Y. destruct Y as (x & [= ->] & Hx). assumption.
  Qed.
  Lemma stacked_filled num ask c fill : NoDup (dkeys (c_dict c)) -> c_dict c <> [] ->
    (labelled num c -> all_same i_continuous c -> not_negative num c ->
       exists s, stacked fetch c (numbers num c) num ask true fill = Ok s /\ filled num c fill s) /\
    (forall s, stacked fetch c (numbers num c) num ask true fill = Ok s -> labelled num c /\ all_same i_continuous c /\ not_negative num c).
  Proof.
    intros Hk Hd.
    assert (CL : Nat.eqb (List.length (c_dict c)) (List.length (numbers num c)) = true <-> labelled num c).
    { unfold numbers. rewrite isort_length. apply (count_labelled Z.eqb z_eqb_ok num c Hk). }
    split.
    - intros Hl Hc Hn. unfold stacked. apply CL in Hl as E. rewrite E. cbn [assert_ bind]. apply (mixture_spec c Hd) in Hc. rewrite Hc. cbn [bind].
      destruct (numbers_spec num c Hk Hl) as (vs & Ev & Nv & P & S & HI).
      assert (Ne : numbers num c <> []).
      { intros X. destruct (c_dict c) as [|[p i] d] eqn:Ed; [congruence|]. assert (Hi : holds c i) by (exists p; rewrite Ed; now left).
        destruct Hl as [Hl _]. specialize (Hl i Hi). destruct (num i) as [r|] eqn:Er; [|congruence]. assert (In r (numbers num c)) by (apply HI; eauto). now rewrite X in H. }
      destruct (last_max (numbers num c) 0 Ne S) as [M1 M2]. set (top := last (numbers num c) 0) in *.
      apply HI in M1. destruct M1 as (it & Hit & Eit). pose proof (Hn it top Hit Eit) as Ht.
      destruct (stack_by_number_ok num (top + 1) (c_dict c) (repeat fill (Z.to_nat (top + 1)))) as (s & Es & Ls & S1 & S2).
      + assert (X : map (fun e => num (snd e)) (c_dict c) = map Some vs) by (rewrite <- Ev; unfold infos, dvals; now rewrite map_map).
        rewrite X. clear -Nv. induction Nv as [|x l H1 H2 IH]; cbn; constructor; [|assumption]. intros X. apply in_map_iff in X. destruct X as (y & [= <-] & Hy). contradiction.
      + intros p i Hi. assert (Hi' : holds c i) by now exists p. destruct Hl as [Hl _]. specialize (Hl i Hi'). destruct (num i) as [r|] eqn:Er; [|congruence].
        exists r. split; [reflexivity|]. pose proof (Hn i r Hi' Er). assert (r <= top) by (apply M2, HI; eauto). lia.
      + apply repeat_length.
      + exists s. split; [assumption|]. split; [exists it, top; split; [assumption|]; split; [assumption|]; rewrite Ls; lia|]. split; [assumption|].
        intros n Hlen Hno. rewrite S2; [|intros p i Hi; apply Hno; now exists p]. rewrite Ls in Hlen. now apply nth_error_repeat.
    - intros s H. unfold stacked in H. destruct (Nat.eqb _ _) eqn:E in H; [|discriminate]. cbn [assert_ bind] in H. apply CL in E.
      destruct (mixture_check c) as [[]|] eqn:Em; [|discriminate]. cbn [bind] in H. apply (mixture_spec c Hd) in Em.
      split; [assumption|]. split; [assumption|]. intros i r [p Hi] Er. destruct (stack_by_number_inv _ _ _ _ _ H p i Hi) as (r' & Er' & Hr). rewrite Er in Er'. injection Er' as <-. lia.
  Qed.
  Lemma stacked_sequence num ask c fill : NoDup (dkeys (c_dict c)) -> c_dict c <> [] ->
    (forall p i r, In (p, i) (c_dict c) -> num i = Some r -> labelled num c -> singleton c (ask r) (L "exception") = Ok (Some p)) ->
    (labelled num c -> all_same i_continuous c ->
       exists s, stacked fetch c (numbers num c) num ask false fill = Ok s /\ in_sequence num c s) /\
    (forall s, stacked fetch c (numbers num c) num ask false fill = Ok s -> labelled num c /\ all_same i_continuous c).
  Proof.
    intros Hk Hd Hs.
    assert (CL : Nat.eqb (List.length (c_dict c)) (List.length (numbers num c)) = true <-> labelled num c).
    { unfold numbers. rewrite isort_length. apply (count_labelled Z.eqb z_eqb_ok num c Hk). }
    split.
    - intros Hl Hc. unfold stacked. apply CL in Hl as E. rewrite E. cbn [assert_ bind]. apply (mixture_spec c Hd) in Hc. rewrite Hc. cbn [bind].
      destruct (numbers_spec num c Hk Hl) as (vs & Ev & Nv & P & S & HI).
      assert (Nn : NoDup (numbers num c)) by (eapply Permutation_NoDup; [exact P|assumption]).
      assert (F : exists ps, Forall2 (fun p r => exists i, In (p, i) (c_dict c) /\ num i = Some r) ps (numbers num c)).
      { assert (X : forall l, incl l (numbers num c) -> exists ps, Forall2 (fun p r => exists i, In (p, i) (c_dict c) /\ num i = Some r) ps l).
        { induction l as [|r l IH]; intros Hl'; [exists []; constructor|]. destruct IH as [ps F]; [intros x Hx; apply Hl'; now right|].
          assert (Hr : In r (numbers num c)) by (apply Hl'; now left). apply HI in Hr. destruct Hr as (i & [p Hi] & Ei). exists (p :: ps). constructor; [now exists i|assumption]. }
        apply X, incl_refl. }
      destruct F as [ps F]. exists (map fetch ps). split.
      + apply stack_in_order_ok. clear -F Hs Hl. induction F as [|p r ps l (i & Hi & Ei) F IH]; constructor; [now apply (Hs p i)|assumption].
      + exists ps. split; [reflexivity|].
        assert (So : StronglySorted (fun p q => exists i j r t, In (p, i) (c_dict c) /\ In (q, j) (c_dict c) /\ num i = Some r /\ num j = Some t /\ r < t) ps).
        { revert S Nn. clear -F. induction F as [|p r ps l (i & Hi & Ei) F IH]; intros S Nn; [constructor|]. inversion S as [|? ? S1 S2]; subst. inversion Nn as [|? ? N1 N2]; subst.
          constructor; [now apply IH|]. rewrite Forall_forall. intros q Hq. clear IH.
          assert (X : exists t, In t l /\ exists j, In (q, j) (c_dict c) /\ num j = Some t).
          { clear -F Hq. induction F as [|p r ps l H F IH]; [destruct Hq|]. destruct Hq as [->|Hq]; [exists r; split; [now left|assumption]|]. destruct (IH Hq) as (t & Ht & X). exists t. split; [now right|assumption]. }
          destruct X as (t & Ht & j & Hj & Ej). exists i, j, r, t. split; [assumption|]. split; [assumption|]. split; [assumption|]. split; [assumption|].
          rewrite Forall_forall in S2. specialize (S2 t Ht). unfold leP in S2. assert (r <> t) by (intros ->; contradiction). lia. }
        split; [|exact So].
        assert (Np : NoDup ps).
        { clear -So Hk. assert (FU : forall p i j, In (p, i) (c_dict c) -> In (p, j) (c_dict c) -> i = j).
          { intros p i j Hi Hj. apply (in_dget str_eqb str_eqb_ok _ _ _ Hk) in Hi. apply (in_dget str_eqb str_eqb_ok _ _ _ Hk) in Hj. congruence. }
          induction So as [|p ps S IH H]; constructor; [|assumption]. intros Hp. rewrite Forall_forall in H. destruct (H p Hp) as (i & j & r & t & Hi & Hj & Ei & Ej & Hlt).
          rewrite (FU p i j Hi Hj) in Ei. rewrite Ei in Ej. injection Ej as <-. lia. }
        apply NoDup_Permutation_bis; [assumption| |].
        * unfold parts_of, dkeys. rewrite map_length. assert (F' : List.length ps = List.length (numbers num c)) by (clear -F; induction F; cbn; congruence). rewrite F'. apply Nat.eqb_eq in E. lia.
        * intros p Hp. clear -F Hp. unfold parts_of, dkeys. induction F as [|q r ps l (i & Hi & _) F IH]; [destruct Hp|]. destruct Hp as [->|Hp]; [|auto]. apply in_map_iff. now exists (p, i).
    - intros s H. unfold stacked in H. destruct (Nat.eqb _ _) eqn:E in H; [|discriminate]. cbn [assert_ bind] in H. apply CL in E.
      destruct (mixture_check c) as [[]|] eqn:Em; [|discriminate]. apply (mixture_spec c Hd) in Em. auto.
  Qed.
  Lemma one_part c a p : in_order c a -> (forall q, (exists i, In (q, i) (c_dict c) /\ meets c a q i) <-> q = p) ->
    singleton c a (L "exception") = Ok (Some p).
  Proof.
    intros O H. destruct (C74_singleton c a (L "exception") O) as (ps & Hp & N & M).
    assert (X : forall q, In q ps <-> q = p) by (intros q; now rewrite Hp, H).
    destruct ps as [|q [|q2 ps]].
    - exfalso. apply (X p). reflexivity.
    - assert (q = p) by (apply X; now left). now subst.
    - exfalso. assert (q = p) by (apply X; now left). assert (q2 = p) by (apply X; right; now left). subst. inversion N as [|? ? N1 _]. apply N1. now left.
  Qed.
  Lemma meets_realization c r p i : meets c (sel_realization r) p i <-> i_realization i = Some r.
  Proof.
    pose proof (wants_own_num (Some r) (i_realization i)) as W. cbn [onum] in W. split.
    - intros [M1 _ _ _ _ _ _ _ _ _ _ _ _ _ _ _ _ _]. cbn [s_realization sel_realization] in M1. apply W in M1. destruct M1; [discriminate|assumption].
    - intros E. constructor; cbn; try (intros; discriminate); try exact Logic.I; try (now left); [apply W; now right|intros k v []].
  Qed.
  Lemma meets_time c t p i : meets c (sel_time t) p i <-> i_time i = Some t.
  Proof.
    pose proof (wants_own_num (Some t) (i_time i)) as W. cbn [onum] in W. split.
    - intros [_ _ _ _ _ _ _ _ _ _ _ _ _ M14 _ _ _ _]. cbn [s_time sel_time] in M14. apply W in M14. destruct M14; [discriminate|assumption].
    - intros E. constructor; cbn; try (intros; discriminate); try exact Logic.I; try (now left); [apply W; now right|intros k v []].
  Qed.
  Lemma single_realization c p i r : NoDup (dkeys (c_dict c)) -> c_realization c = None -> In (p, i) (c_dict c) -> i_realization i = Some r ->
    labelled i_realization c -> singleton c (sel_realization r) (L "exception") = Ok (Some p).
  Proof.
    intros Hk Hr Hi Er [_ Hl]. apply one_part.
    - constructor; cbn; auto; try (intros; discriminate); try congruence. constructor.
    - intros q. split; [|intros ->; exists i; split; [assumption|now apply meets_realization]].
      intros (j & Hj & M). apply meets_realization in M. apply (Hl q j p i Hj Hi). congruence.
  Qed.
  Lemma single_time c p i r : NoDup (dkeys (c_dict c)) -> not_negative i_time c -> In (p, i) (c_dict c) -> i_time i = Some r ->
    labelled i_time c -> singleton c (sel_time r) (L "exception") = Ok (Some p).
  Proof.
    intros Hk Hn Hi Er [_ Hl]. apply one_part.
    - constructor; cbn; auto; try (intros; discriminate); try congruence; [|constructor]. intros x [= <-]. exists (inject_Z r). split; [reflexivity|].
      assert (0 <= r) by (apply (Hn i); [now exists p|assumption]). unfold Qle. cbn. lia.
    - intros q. split; [|intros ->; exists i; split; [assumption|now apply meets_time]].
      intros (j & Hj & M). apply meets_time in M. apply (Hl q j p i Hj Hi). congruence.
  Qed.

  (** * C76 *)
  Lemma fresh_checks c : fresh c -> units_uniform c ->
    (snd (has_one_kind c) = true <-> all_same i_kind c) /\ (snd (has_one_indexable c) = true <-> all_same i_indexable c) /\ (snd (has_one_uom c) = true <-> all_same i_uom c).
  Proof.
    intros (F1 & F2 & F3) U. destruct (C75_reevaluation_partial c) as (R1 & R2 & _ & _ & R5). specialize (R5 U).
    unfold has_one_kind, has_one_indexable, has_one_uom. rewrite F1, F2, F3. auto.
  Qed.
  Lemma before_facts (c c' : coll) : as_before c c' -> (forall i, holds c' i <-> holds c i) /\ infos c' = infos c /\ parts_of c' = parts_of c.
  Proof. intros (E & _). unfold holds, infos, parts_of. rewrite E. intuition. Qed.
  (** For a collection about which nothing was asked before: the stack over realizations is
      built exactly when the properties are of one kind, indexable element, unit and value
      type on a support and each has a realization number of its own; the slices are the
      arrays at their numbers, and the fill elsewhere.  The same over time indices. *)
  Theorem C76_filled_stack : forall c fill, fresh c -> units_uniform c -> NoDup (dkeys (c_dict c)) ->
    (single c /\ labelled i_realization c /\ not_negative i_realization c ->
       exists c' s, realizations_array fetch c true fill = (c', Ok s) /\ filled i_realization c fill s) /\
    (forall c' s, realizations_array fetch c true fill = (c', Ok s) -> single c /\ labelled i_realization c /\ not_negative i_realization c) /\
    (single c /\ labelled i_time c /\ not_negative i_time c ->
       exists c' s, time_series_array fetch c true fill = (c', Ok s) /\ filled i_time c fill s) /\
    (forall c' s, time_series_array fetch c true fill = (c', Ok s) -> single c /\ labelled i_time c /\ not_negative i_time c).
  Proof.
    intros c fill F U Hk. destruct (fresh_checks c F U) as (K1 & K2 & K3).
    assert (G : forall num ask (arr : coll -> bool -> A -> coll * res (list A)),
      (forall c b f, arr c b f = match stack_checks c with (c, Err e) => (c, Err e) | (c, Ok _) => (c, stacked fetch c (numbers num c) num ask b f) end) ->
      (single c /\ labelled num c /\ not_negative num c -> exists c' s, arr c true fill = (c', Ok s) /\ filled num c fill s) /\
      (forall c' s, arr c true fill = (c', Ok s) -> single c /\ labelled num c /\ not_negative num c)).
    { intros num ask arr Ea. split.
      - intros ((S1 & S2 & S3 & S4 & S5 & S6) & Hl & Hn). rewrite Ea. destruct (checks_ok c) as (c1 & E1 & B); try tauto. rewrite E1.
        destruct (before_facts c c1 B) as (B1 & B2 & B3). destruct B as (B0 & _).
        destruct (stacked_filled num ask c1 fill) as [X _]; [now rewrite B0|now rewrite B0|].
        destruct X as (s & Es & Fs).
        + destruct Hl as [H1 H2]. split; [intros i Hi; apply H1; now apply B1|now rewrite B0].
        + intros i j Hi Hj. apply S6; now apply B1.
        + intros i r Hi. apply Hn. now apply B1.
        + exists c1, s. split; [now rewrite Es|]. destruct Fs as ((i & r & Hi & Ei & El) & F2 & F3). rewrite B0 in F2.
          split; [exists i, r; rewrite B1 in Hi; auto|]. split; [assumption|]. intros n Hlen Hno. apply F3; [assumption|]. intros j Hj. apply Hno. now apply B1.
      - intros c' s H. rewrite Ea in H. destruct (stack_checks c) as [c1 [[]|]] eqn:E1; [|discriminate]. injection H as <- H.
        destruct (checks_inv c c1 E1) as (T1 & T2 & T3 & T4 & T5). destruct (checks_ok c T1 T2 T3 T4 T5) as (c2 & E2 & B). rewrite E1 in E2. injection E2 as <-.
        destruct (before_facts c c1 B) as (B1 & B2 & B3). destruct B as (B0 & _).
        destruct (stacked_filled num ask c1 fill) as [_ X]; [now rewrite B0|now rewrite B0|]. destruct (X s H) as ((L1 & L2) & L3 & L4). rewrite B0 in L2.
        split; [|split].
        + unfold single. repeat split; try tauto. intros i j Hi Hj. apply L3; now apply B1.
        + split; [intros i Hi; apply L1; now apply B1|assumption].
        + intros i r Hi. apply L4. now apply B1. }
    destruct (G i_realization sel_realization (realizations_array fetch)) as [G1 G2]; [reflexivity|].
    destruct (G i_time sel_time (time_series_array fetch)) as [G3 G4]; [reflexivity|]. auto.
  Qed.
  (** Without filling, the arrays follow each other in increasing order of the number. *)
  Theorem C76_sequence : forall c fill, fresh c -> units_uniform c -> NoDup (dkeys (c_dict c)) -> single c ->
    (c_realization c = None -> labelled i_realization c ->
       exists c' s, realizations_array fetch c false fill = (c', Ok s) /\ in_sequence i_realization c s) /\
    (not_negative i_time c -> labelled i_time c ->
       exists c' s, time_series_array fetch c false fill = (c', Ok s) /\ in_sequence i_time c s).
  Proof.
    intros c fill F U Hk (S1 & S2 & S3 & S4 & S5 & S6). destruct (fresh_checks c F U) as (K1 & K2 & K3).
    destruct (checks_ok c) as (c1 & E1 & B); try tauto. destruct (before_facts c c1 B) as (B1 & B2 & B3). destruct B as (B0 & _ & _ & B4).
    assert (Q : forall num s, in_sequence num c1 s -> in_sequence num c s).
    { intros num s (ps & Es & P & So). exists ps. rewrite B3 in P. rewrite B0 in So. auto. }
    assert (Lb : forall num : info -> option Z, labelled num c -> labelled num c1) by (intros num [H1 H2]; split; [intros i Hi; apply H1; now apply B1|now rewrite B0]).
    assert (Sc : all_same i_continuous c1) by (intros i j Hi Hj; apply S6; now apply B1).
    split.
    - intros Hr Hl. unfold realizations_array. rewrite E1. change (realization_list c1) with (numbers i_realization c1).
      destruct (stacked_sequence i_realization sel_realization c1 fill) as [X _]; [now rewrite B0|now rewrite B0| |].
      { intros p i r Hi Er Hl1. apply (single_realization c1 p i r); auto; [now rewrite B0|congruence]. }
      destruct (X (Lb _ Hl) Sc) as (s & -> & H). eauto.
    - intros Hn Hl. unfold time_series_array. rewrite E1. change (time_index_list c1) with (numbers i_time c1).
      destruct (stacked_sequence i_time sel_time c1 fill) as [X _]; [now rewrite B0|now rewrite B0| |].
      { intros p i r Hi Er Hl1. apply (single_time c1 p i r); auto; [now rewrite B0|]. intros j t Hj. apply Hn. now apply B1. }
      destruct (X (Lb _ Hl) Sc) as (s & -> & H). eauto.
  Qed.
  (** facets_array_ref: one slice for each facet, in the order of facet_list(), which has
      the facets of the properties in alphabetical order. *)
  Lemma index_of_in l x : In x l -> exists n, index_of l x = Some n /\ nth_error l n = Some x /\ (n < List.length l)%nat.
  Proof.
    induction l as [|y l IH]; intros H; [destruct H|]. cbn [index_of]. destruct (str_eqb y x) eqn:E.
    - apply str_eqb_ok in E. subst. exists 0%nat. cbn. split; [reflexivity|]. split; [reflexivity|lia].
    - apply str_eqb_no in E. destruct H as [H|H]; [contradiction|]. destruct (IH H) as (n & En & Nn & Ln). exists (S n). rewrite En. cbn. split; [reflexivity|]. split; [assumption|lia].
  Qed.
  Lemma index_of_nth l x n : index_of l x = Some n -> nth_error l n = Some x.
  Proof.
    revert n. induction l as [|y l IH]; intros n H; [discriminate|]. cbn [index_of] in H. destruct (str_eqb y x) eqn:E.
    - injection H as <-. apply str_eqb_ok in E. now subst.
    - destruct (index_of l x); [|discriminate]. injection H as <-. cbn. now apply IH.
  Qed.
  Lemma stack_by_facet_ok fl items a : NoDup (map (fun e => i_facet (snd e)) items) ->
    (forall p i, In (p, i) items -> exists f, i_facet i = Some f /\ In f fl) -> List.length a = List.length fl ->
    exists s, stack_by_facet fetch items fl a = Ok s /\ List.length s = List.length fl /\
      (forall p i f, In (p, i) items -> i_facet i = Some f -> exists n, nth_error fl n = Some f /\ nth_error s n = Some (fetch p)) /\
      (forall n, (forall p i f, In (p, i) items -> i_facet i = Some f -> index_of fl f <> Some n) -> nth_error s n = nth_error a n).
  Proof.
    revert a. induction items as [|[p i] items IH]; intros a N H L; cbn [stack_by_facet].
    - exists a. repeat split; auto. intros p i f [].
    - cbn [map snd] in N. inversion N as [|? ? N1 N2]; subst.
      destruct (H p i (or_introl eq_refl)) as (f & Ef & Hf). rewrite Ef. destruct (index_of_in fl f Hf) as (n & En & Nn & Ln). rewrite En.
      destruct (IH (upd a n (fetch p))) as (s & Es & Ls & S1 & S2); [assumption|intros q j Hj; apply (H q j); now right|now rewrite upd_length|].
      exists s. split; [assumption|]. split; [assumption|]. split.
      + intros q j t [[= <- <-]|Hj] Et; [|eapply S1; eauto]. rewrite Ef in Et. injection Et as <-. exists n. split; [assumption|].
        rewrite S2; [apply upd_eq; lia|]. intros q j g Hj Eg X. apply N1. apply index_of_nth in X. rewrite Nn in X. injection X as <-. rewrite Ef, <- Eg. apply in_map_iff. now exists (q, j).
      + intros m Hm. rewrite S2; [|intros q j g Hj; apply (Hm q j g); now right]. apply upd_neq. intros <-. now apply (Hm p i f (or_introl eq_refl) Ef).
  Qed.
  Theorem C76_facets : forall c zero, fresh c -> units_uniform c -> NoDup (dkeys (c_dict c)) -> single c -> labelled i_facet c ->
    StronglySorted (leP str_le) (facet_list c) /\ NoDup (facet_list c) /\ (forall f, In f (facet_list c) <-> exists i, holds c i /\ i_facet i = Some f) /\
    exists c' s, facets_array fetch c zero = (c', Ok s) /\ facet_list c' = facet_list c /\ List.length s = List.length (c_dict c) /\ List.length s = List.length (facet_list c) /\
      forall p i f, In (p, i) (c_dict c) -> i_facet i = Some f -> exists n, nth_error (facet_list c) n = Some f /\ nth_error s n = Some (fetch p).
  Proof.
    intros c zero F U Hk (S1 & S2 & S3 & S4 & S5 & S6) Hl. destruct (fresh_checks c F U) as (K1 & K2 & K3).
    destruct (checks_ok c) as (c1 & E1 & B); try tauto. destruct (before_facts c c1 B) as (B1 & B2 & B3). destruct B as (B0 & _ & _ & _).
    destruct (labels_list i_facet c Hk Hl) as (vs & Ev & Nv).
    assert (P : Permutation vs (facet_list c)) by (unfold facet_list; rewrite Ev, (distinct_map str_eqb str_eqb_ok); [apply isort_perm|assumption|intros v _ []]).
    assert (HI : forall f, In f (facet_list c) <-> exists i, holds c i /\ i_facet i = Some f).
    { intros f. assert (X : In f (facet_list c) <-> In f vs) by (split; apply Permutation_in; [symmetry|]; exact P). rewrite X. split.
      - intros Hr. assert (Y : In (Some f) (map i_facet (infos c))) by (rewrite Ev; now apply in_map). apply in_map_iff in Y. destruct Y as (i & Ei & Hi). exists i. split; [now apply holds_infos|assumption].
      - intros (i & Hi & Ei). assert (Y : In (Some f) (map i_facet (infos c))) by (rewrite <- Ei; apply in_map; now apply holds_infos). rewrite Ev in Y. apply in_map_iff in Y. destruct Y as (x & [= ->] & Hx). assumption. }
    assert (Ef : facet_list c1 = facet_list c) by (unfold facet_list; now rewrite B2).
    assert (CL : Nat.eqb (List.length (c_dict c)) (List.length (facet_list c)) = true).
    { unfold facet_list. rewrite isort_length. now apply (count_labelled str_eqb str_eqb_ok i_facet c Hk). }
    split; [apply isort_sorted, str_le_order|]. split; [eapply Permutation_NoDup; [exact P|assumption]|]. split; [assumption|].
    unfold facets_array. rewrite E1. cbv zeta. rewrite Ef, B0, CL. apply Nat.eqb_eq in CL.
    assert (L0 : Nat.ltb 0 (List.length (facet_list c)) = true) by (apply Nat.ltb_lt; rewrite <- CL; destruct (c_dict c); [congruence|cbn; lia]). rewrite L0. cbn [assert_ bind].
    assert (M : mixture_check c1 = Ok tt) by (apply mixture_spec; [now rewrite B0|]; intros i j Hi Hj; apply S6; now apply B1). rewrite M. cbn [bind].
    destruct (stack_by_facet_ok (facet_list c) (c_dict c) (repeat zero (List.length (facet_list c)))) as (s & Es & Ls & R1 & _).
    - assert (X : map (fun e => i_facet (snd e)) (c_dict c) = map Some vs) by (rewrite <- Ev; unfold infos, dvals; now rewrite map_map).
      rewrite X. clear -Nv. induction Nv as [|x l H1 H2 IH]; cbn; constructor; [|assumption]. intros X. apply in_map_iff in X. destruct X as (y & [= <-] & Hy). contradiction.
    - intros p i Hi. assert (Hh : holds c i) by now exists p. destruct Hl as [Hl _]. specialize (Hl i Hh). destruct (i_facet i) as [f|] eqn:Efi; [|congruence]. exists f. split; [reflexivity|]. apply HI. eauto.
    - apply repeat_length.
    - exists c1, s. rewrite Es. split; [reflexivity|]. split; [assumption|]. split; [lia|]. split; [assumption|]. exact R1.
  Qed.
  (** Numbering the properties of a collection and stacking them over realizations gives
      the arrays in the order of the collection. *)
  Theorem C76_number_then_stack : forall c fill, fresh c -> units_uniform c -> NoDup (dkeys (c_dict c)) -> single c ->
    exists c' c'' , assign_realization_numbers c = (c', Ok tt) /\
      realizations_array fetch c' true fill = (c'', Ok (map fetch (parts_of c))).
  Proof.
    intros c fill F U Hk (S1 & S2 & S3 & S4 & S5 & S6).
    destruct (C75_numbering c F U) as (N1 & _ & N3). destruct (assign_realization_numbers c) as [c' r] eqn:Ea. cbn [fst snd] in *.
    assert (r = Ok tt) by (apply N1; auto). subst r. exists c'. destruct (N3 eq_refl) as (Nl & Nn & _). clear N1 N3.
    assert (Fl : c_one_kind c' = Some true /\ c_one_indexable c' = Some true /\ c_one_uom c' = Some true /\ c_support c' = c_support c /\ c_dict c' = number_items (c_dict c) 0).
    { unfold assign_realization_numbers, has_one_kind in Ea. destruct F as (F1 & F2 & F3). rewrite F1 in Ea. unfold establish_one_kind in Ea.
      destruct (same_text_loop (map i_kind (infos c)) None); cbn [negb] in Ea; [|discriminate].
      unfold has_one_indexable in Ea. cbn [c_one_indexable with_flags] in Ea. rewrite F2 in Ea. unfold establish_one_indexable in Ea. rewrite infos_flags in Ea.
      destruct (same_text_loop (map i_indexable (infos c)) None); cbn [negb] in Ea; [|discriminate].
      unfold has_one_uom in Ea. cbn [c_one_uom with_flags] in Ea. rewrite F3 in Ea. unfold establish_one_uom in Ea. rewrite !infos_flags in Ea.
      destruct (same_uom_loop (map i_uom (infos c)) None); cbn [negb] in Ea; [|discriminate]. injection Ea as <-. repeat split; reflexivity. }
    destruct Fl as (F1 & F2 & F3 & F4 & F5).
    assert (Hd : c_dict c' <> []) by (intros X; rewrite X in Nl; destruct (c_dict c); [congruence|discriminate]).
    destruct (checks_ok c') as (c1 & E1 & B); [unfold has_one_kind; now rewrite F1|unfold has_one_indexable; now rewrite F2|unfold has_one_uom; now rewrite F3|congruence|assumption|].
    destruct (before_facts c' c1 B) as (B1 & B2 & B3). destruct B as (B0 & _). exists c1. split; [reflexivity|].
    unfold realizations_array. rewrite E1. change (realization_list c1) with (numbers i_realization c1).
    assert (Hkeys : dkeys (c_dict c') = dkeys (c_dict c)).
    { rewrite F5. clear. generalize 0. induction (c_dict c) as [|[p i] d IH]; intros r; [reflexivity|]. unfold dkeys in *. cbn. now rewrite IH. }
    assert (Hnth : forall p i, In (p, i) (c_dict c1) -> exists n, nth_error (c_dict c1) n = Some (p, i) /\ i_realization i = Some (Z.of_nat n)).
    { intros p i Hi. rewrite B0 in *. apply In_nth_error in Hi. destruct Hi as [n En]. exists n. split; [assumption|].
      rewrite F5, number_items_nth in En. destruct (nth_error (c_dict c) n) as [[q j]|]; [|discriminate]. injection En as <- <-. reflexivity. }
    destruct (stacked_filled i_realization sel_realization c1 fill) as [X _]; [rewrite B0, Hkeys; assumption|now rewrite B0|].
    destruct X as (s & Es & Fs).
    - split.
      + intros i [p Hi]. destruct (Hnth p i Hi) as (n & _ & ->). discriminate.
      + intros p i q j Hi Hj Eq. destruct (Hnth p i Hi) as (n & En & Ri). destruct (Hnth q j Hj) as (m & Em & Rj). rewrite Ri, Rj in Eq. injection Eq as Eq. assert (n = m) by lia. subst m. congruence.
    - intros i j [p Hi] [q Hj]. destruct (Hnth p i Hi) as (n & En & _). destruct (Hnth q j Hj) as (m & Em & _). rewrite B0, F5, number_items_nth in En, Em.
      destruct (nth_error (c_dict c) n) as [[p0 i0]|] eqn:X1; [|discriminate]. destruct (nth_error (c_dict c) m) as [[q0 j0]|] eqn:X2; [|discriminate].
      injection En as <- <-. injection Em as <- <-. cbn. apply S6; [exists p0; now apply nth_error_In in X1|exists q0; now apply nth_error_In in X2].
    - intros i r [p Hi] Er. destruct (Hnth p i Hi) as (n & _ & Ri). rewrite Er in Ri. injection Ri as ->. lia.
    - rewrite Es. do 2 f_equal. destruct Fs as ((i & r & [p Hi] & Er & El) & Fn & _).
      assert (Ls : List.length s = List.length (c_dict c)).
      { assert (Lb : (List.length s <= List.length (c_dict c1))%nat).
        { destruct (Hnth p i Hi) as (n & En & Ri). rewrite Er in Ri. injection Ri as ->. assert (n < List.length (c_dict c1))%nat by (apply nth_error_Some; congruence). lia. }
        rewrite B0, Nl in Lb. destruct (Nat.eq_dec (List.length s) (List.length (c_dict c))) as [|Ne]; [assumption|exfalso].
        assert (Hlt : (List.length s < List.length (c_dict c))%nat) by lia.
        apply nth_error_Some in Hlt. destruct (nth_error (c_dict c) (List.length s)) as [[q j]|] eqn:Eq; [|congruence].
        destruct (Nn _ _ _ Eq) as (j' & Ej & Rj & _). specialize (Fn q j' (Z.of_nat (List.length s))). rewrite B0 in Fn. rewrite Nat2Z.id in Fn.
        assert (Y : nth_error s (List.length s) = Some (fetch q)) by (apply Fn; [eapply nth_error_In; eassumption|assumption]).
        assert (List.length s < List.length s)%nat by (apply nth_error_Some; congruence). lia. }
      apply nth_error_ext2. intros n. unfold parts_of, dkeys. rewrite map_map. destruct (nth_error (c_dict c) n) as [[q j]|] eqn:Eq.
      + rewrite nth_error_map, Eq. cbn. destruct (Nn _ _ _ Eq) as (j' & Ej & Rj & _). specialize (Fn q j' (Z.of_nat n)). rewrite B0, Nat2Z.id in Fn. apply Fn; [eapply nth_error_In; eassumption|assumption].
      + rewrite nth_error_map, Eq. cbn. apply nth_error_None. rewrite Ls. now apply nth_error_None.
  Qed.
End Arrays.
Print Assumptions C76_filled_stack.
Print Assumptions C76_sequence.
Print Assumptions C76_facets.
Print Assumptions C76_number_then_stack.

(** Examples *)
Definition on_grid (l : list (str * info)) : coll := with_support (just l) None (UObj 9).
Definition poro_r (r : Z) : info := demo_info (Some r) (L "porosity") (L "PORO") None None (L "m3/m3").
Definition three : coll := on_grid [(L "b", poro_r 4); (L "a", poro_r 1)].
Example three_ready : fresh three /\ units_uniform three /\ NoDup (dkeys (c_dict three)) /\ single three /\ labelled i_realization three /\
  not_negative i_realization three /\ c_realization three = None.
Proof.
  assert (H : forall i, holds three i -> i = poro_r 4 \/ i = poro_r 1) by (intros i (p & [[= <- <-]|[[= <- <-]|[]]]); auto).
  split; [repeat split|]. split; [left; intros i Hi; destruct (H i Hi) as [->| ->]; discriminate|]. split; [repeat constructor; cbn; intuition discriminate|].
  split; [split; [discriminate|]; split; [discriminate|]; repeat split; intros i j Hi Hj; destruct (H i Hi) as [->| ->], (H j Hj) as [->| ->]; reflexivity|].
  split; [split; [intros i Hi; destruct (H i Hi) as [->| ->]; discriminate|]|split; [|reflexivity]].
  - intros p i q j [[= <- <-]|[[= <- <-]|[]]] [[= <- <-]|[[= <- <-]|[]]] E; try reflexivity; discriminate E.
  - intros i r Hi. destruct (H i Hi) as [->| ->]; intros [= <-]; lia.
Qed.
Example three_stacked : exists c', realizations_array (fun p => p) three true (L "none") = (c', Ok [L "none"; L "a"; L "none"; L "none"; L "b"]) /\
  exists c', realizations_array (fun p => p) three false (L "none") = (c', Ok [L "a"; L "b"]).
Proof. eexists. split; [vm_compute; reflexivity|]. eexists. vm_compute. reflexivity. Qed.

(** A collection that was asked about its kind and unit before a second property was added
    is stacked although it mixes porosity and pressure. *)
Definition asked_early : coll :=
  fold_left step [OAdd (L "p") poro; OKind; OUom; OAdd (L "q") pres] (on_grid []).
Theorem C76_remembered_answers_mix_kinds_refuted : exists c c' (s : list str) i j, 
  realizations_array (fun p => p) c true [] = (c', Ok s) /\ holds c i /\ holds c j /\ i_kind i <> i_kind j /\ i_uom i <> i_uom j.
Proof.
  exists asked_early. eexists. eexists. exists poro, pres. split; [vm_compute; reflexivity|].
  split; [exists (L "p"); vm_compute; tauto|]. split; [exists (L "q"); vm_compute; tauto|]. split; discriminate.
Qed.
Print Assumptions C76_remembered_answers_mix_kinds_refuted.
