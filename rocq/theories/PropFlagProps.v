(** PropFlagProps.v: C75, what a collection says about its properties as a whole. *)
From Coq Require Import QArith Permutation Sorted.
From Verif Require Import Base QBase TextModel StrModel StrProofs UuidModel PyDict PySort ForestModel CatalogueModel CatalogueProofs CatalogueProps PropSelModel PropSelProofs PropSelProps.
Open Scope Z_scope.

(** ** Specification *)
(** the properties of the collection, with their attributes *)
Definition holds (c : coll) (i : info) : Prop := exists p, In (p, i) (c_dict c).
Definition all_same {A} (f : info -> A) (c : coll) : Prop := forall i j, holds c i -> holds c j -> f i = f j.
Definition two_realizations (c : coll) : Prop :=
  exists i j r s, holds c i /\ holds c j /\ i_realization i = Some r /\ i_realization j = Some s /\ r <> s.
Definition one_time (c : coll) : Prop :=
  (forall i, holds c i -> i_time i <> None /\ i_ts i <> None) /\ all_same i_time c /\ all_same i_ts c.
(** what each question ought to be answered with *)
Definition right_kind c (b : bool) := b = true <-> all_same i_kind c.
Definition right_indexable c (b : bool) := b = true <-> all_same i_indexable c.
Definition right_uom c (b : bool) := b = true <-> all_same i_uom c.
Definition right_many c (b : bool) := b = true <-> two_realizations c.
Definition right_time c (b : bool) := b = true <-> one_time c.

(** ** Lemmas *)
Lemma holds_infos c i : holds c i <-> In i (infos c).
Proof.
  unfold holds, infos, dvals. rewrite in_map_iff. split; [intros [p H]; now exists (p, i)|]. intros ([p j] & <- & H). now exists p.
Qed.
Lemma same_text_some l t : same_text_loop l (Some t) = true <-> forall s, In s l -> s = t.
Proof.
  induction l as [|s l IH]; cbn; [intuition|]. destruct (str_eqb s t) eqn:E.
  - rewrite IH. apply str_eqb_ok in E. split; [intros H x [<-|Hx]; auto|auto].
  - apply str_eqb_no in E. split; [discriminate|]. intros H. elim E. apply H. now left.
Qed.
Lemma same_text_spec l : same_text_loop l None = true <-> forall s t, In s l -> In t l -> s = t.
Proof.
  destruct l as [|x l]; cbn; [intuition|]. rewrite same_text_some. split.
  - intros H s t [<-|Hs] [<-|Ht]; auto; [now rewrite (H t Ht)|]. now rewrite (H s Hs), (H t Ht).
  - intros H s Hs. apply H; auto.
Qed.
Lemma map_all {A} (f : info -> A) c : (forall s t, In s (map f (infos c)) -> In t (map f (infos c)) -> s = t) <-> all_same f c.
Proof.
  unfold all_same. split.
  - intros H i j Hi Hj. apply H; apply in_map; now apply holds_infos.
  - intros H s t Hs Ht. apply in_map_iff in Hs. apply in_map_iff in Ht. destruct Hs as (i & <- & Hi). destruct Ht as (j & <- & Hj).
    apply H; now apply holds_infos.
Qed.
Lemma same_uom_some l t : same_uom_loop l (Some t) = true <-> forall s, In s l -> s = Some t.
Proof.
  induction l as [|s l IH]; cbn; [intuition|]. destruct s as [s|].
  - destruct (str_eqb s t) eqn:E.
    + rewrite IH. apply str_eqb_ok in E. subst s. split; [intros H x [<-|Hx]; auto|auto].
    + apply str_eqb_no in E. split; [discriminate|]. intros H. elim E. specialize (H _ (or_introl eq_refl)). congruence.
  - split; [discriminate|]. intros H. specialize (H _ (or_introl eq_refl)). discriminate.
Qed.
(** exactly what the answer about units means *)
Lemma same_uom_spec l : same_uom_loop l None = true <-> exists n l' t, l = repeat None n ++ l' /\ forall s, In s l' -> s = Some t.
Proof.
  induction l as [|s l IH]; cbn [same_uom_loop].
  - split; [|reflexivity]. intros _. exists 0%nat, [], []. split; [reflexivity|intros s []].
  - destruct s as [s|].
    + rewrite same_uom_some. split.
      * intros H. exists 0%nat, (Some s :: l), s. split; [reflexivity|]. intros x [<-|Hx]; auto.
      * intros ([|n] & l' & t & E & H); [|discriminate]. cbn in E. subst l'. intros x Hx.
        pose proof (H _ (or_introl eq_refl)) as X. injection X as ->. apply H. now right.
    + rewrite IH. split.
      * intros (n & l' & t & -> & H). exists (S n), l', t. auto.
      * intros ([|n] & l' & t & E & H).
        -- cbn in E. subst l'. specialize (H _ (or_introl eq_refl)). discriminate.
        -- injection E as ->. eauto.
Qed.
Lemma many_real_some l c : fst (many_real_loop l (Some c)) = true <-> exists r, In (Some r) l /\ r <> c.
Proof.
  induction l as [|[r|] l IH]; cbn [many_real_loop].
  - split; [discriminate|intros (r & [] & _)].
  - destruct (Z.eqb_spec r c) as [->|N].
    + rewrite IH. split; [intros (r & Hr & N); exists r; split; [now right|assumption]|]. intros (r & [[= ->]|Hr] & N); [congruence|eauto].
    + cbn. split; [|reflexivity]. intros _. exists r. split; [now left|assumption].
  - rewrite IH. split; [intros (r & Hr & N); exists r; split; [now right|assumption]|]. intros (r & [H|Hr] & N); [discriminate|eauto].
Qed.
Lemma many_real_spec l : fst (many_real_loop l None) = true <-> exists r s, In (Some r) l /\ In (Some s) l /\ r <> s.
Proof.
  induction l as [|[r|] l IH]; cbn [many_real_loop].
  - split; [discriminate|intros (r & s & [] & _)].
  - rewrite many_real_some. split.
    + intros (s & Hs & N). exists s, r. split; [now right|]. split; [now left|assumption].
    + intros (s & t & [[= ->]|Hs] & [[= ->]|Ht] & N); [congruence| | |].
      * exists t. split; [assumption|congruence]. * exists s. auto.
      * destruct (Z.eq_dec s r) as [->|Ne]; [exists t; split; [assumption|congruence]|exists s; auto].
  - rewrite IH. split; [intros (s & t & Hs & Ht & N); exists s, t; split; [now right|]; split; [now right|assumption]|].
    intros (s & t & [H|Hs] & [H'|Ht] & N); try discriminate. eauto.
Qed.
Lemma time_set_some l t s : time_set_loop l (Some t) (Some s) = true <-> forall i, In i l -> i_time i = Some t /\ i_ts i = Some s.
Proof.
  induction l as [|i l IH]; cbn [time_set_loop].
  - split; [intros _ i []|reflexivity].
  - destruct (i_time i) as [t'|] eqn:Et; [|split; [discriminate|]; intros H; destruct (H i (or_introl eq_refl)); congruence].
    destruct (Z.eqb_spec t t') as [<-|N]; [|split; [discriminate|]; intros H; destruct (H i (or_introl eq_refl)); congruence].
    destruct (i_ts i) as [s'|] eqn:Es; [|split; [discriminate|]; intros H; destruct (H i (or_introl eq_refl)); congruence].
    destruct (matching_uuids (UObj s) (UObj s')) eqn:E.
    + apply matching_denotes in E. destruct E as [[= <-]|[E|(x & E & _)]]; [|discriminate|discriminate].
      rewrite IH. split; [intros H j [<-|Hj]; auto|intros H j Hj; apply H; now right].
    + split; [discriminate|]. intros H. destruct (H i (or_introl eq_refl)) as [_ X]. rewrite X in Es. injection Es as <-.
      exfalso. assert (Y : matching_uuids (UObj s) (UObj s) = true) by (apply matching_denotes; now left). congruence.
Qed.
Lemma time_set_spec l : time_set_loop l None None = true <-> exists t s, forall i, In i l -> i_time i = Some t /\ i_ts i = Some s.
Proof.
  destruct l as [|i l]; cbn [time_set_loop].
  - split; [|reflexivity]. intros _. exists 0, 0. intros i [].
  - destruct (i_time i) as [t'|] eqn:Et; [|split; [discriminate|]; intros (t & s & H); destruct (H i (or_introl eq_refl)); congruence].
    destruct (i_ts i) as [s'|] eqn:Es; [|split; [discriminate|]; intros (t & s & H); destruct (H i (or_introl eq_refl)); congruence].
    rewrite time_set_some. split.
    + intros H. exists t', s'. intros j [<-|Hj]; auto.
    + intros (t & s & H) j Hj. destruct (H i (or_introl eq_refl)) as [X Y]. destruct (H j (or_intror Hj)) as [X' Y']. split; congruence.
Qed.
Lemma one_time_spec c : one_time c <-> exists t s, forall i, In i (infos c) -> i_time i = Some t /\ i_ts i = Some s.
Proof.
  split.
  - intros (H1 & H2 & H3). destruct (infos c) as [|i l] eqn:E; [exists 0, 0; intros i []|].
    assert (Hi : holds c i) by (apply holds_infos; rewrite E; now left). destruct (H1 i Hi) as [X Y].
    destruct (i_time i) as [t|] eqn:Et; [|congruence]. destruct (i_ts i) as [s|] eqn:Es; [|congruence]. exists t, s.
    intros j Hj. rewrite <- E in Hj. apply holds_infos in Hj. split; [rewrite <- Et; now apply H2|rewrite <- Es; now apply H3].
  - intros (t & s & H). split; [|split].
    + intros i Hi. apply holds_infos in Hi. destruct (H i Hi) as [-> ->]. split; discriminate.
    + intros i j Hi Hj. apply holds_infos in Hi. apply holds_infos in Hj. destruct (H i Hi), (H j Hj). congruence.
    + intros i j Hi Hj. apply holds_infos in Hi. apply holds_infos in Hj. destruct (H i Hi), (H j Hj). congruence.
Qed.

(** * C75 *)
(** Re-evaluating gives the right answer for every collection, whatever was answered
    before.  Missing: units of measure, where it is right when all properties have a unit
    or none has. *)
Definition units_uniform (c : coll) : Prop :=
  (forall i, holds c i -> i_uom i <> None) \/ (forall i, holds c i -> i_uom i = None).
Lemma uom_right c : units_uniform c -> (same_uom_loop (map i_uom (infos c)) None = true <-> all_same i_uom c).
Proof.
  intros U. rewrite <- map_all, same_uom_spec. split.
  - intros (n & l' & t & E & H). destruct U as [U|U].
    + destruct n as [|n].
      * cbn in E. rewrite E. intros s s' Hs Hs'. now rewrite (H s Hs), (H s' Hs').
      * exfalso. assert (X : In None (map i_uom (infos c))) by (rewrite E; now left). apply in_map_iff in X. destruct X as (i & X & Hi). apply holds_infos in Hi. now apply (U i).
    + intros s s' Hs Hs'. apply in_map_iff in Hs. apply in_map_iff in Hs'. destruct Hs as (i & <- & Hi). destruct Hs' as (j & <- & Hj).
      apply holds_infos in Hi. apply holds_infos in Hj. now rewrite (U i Hi), (U j Hj).
  - intros H. destruct (map i_uom (infos c)) as [|[t|] l] eqn:E.
    + exists 0%nat, [], []. split; [reflexivity|intros s []].
    + exists 0%nat, (Some t :: l), t. split; [reflexivity|]. intros s Hs. apply H; [assumption|now left].
    + exists (List.length (None :: l)), [], []. split; [|intros s []]. rewrite app_nil_r. assert (A : forall s, In s (None :: l) -> s = None) by (intros s Hs; apply H; [assumption|now left]).
      clear -A. induction (None :: l) as [|x m IH]; [reflexivity|]. cbn. rewrite (A x (or_introl eq_refl)). f_equal. apply IH. intros s Hs. apply A. now right.
Qed.
Theorem C75_reevaluation_partial : forall c,
  right_kind c (snd (establish_one_kind c)) /\ right_indexable c (snd (establish_one_indexable c)) /\
  right_many c (snd (establish_many_real c)) /\ right_time c (snd (establish_time_set c)) /\
  (units_uniform c -> right_uom c (snd (establish_one_uom c))).
Proof.
  intros c. unfold right_kind, right_indexable, right_many, right_time, right_uom.
  split; [cbn [establish_one_kind snd]; rewrite same_text_spec; apply map_all|].
  split; [cbn [establish_one_indexable snd]; rewrite same_text_spec; apply map_all|].
  split; [|split; [cbn [establish_time_set snd]; rewrite time_set_spec; symmetry; apply one_time_spec|intros U; now apply uom_right]].
  unfold establish_many_real. pose proof (many_real_spec (map i_realization (infos c))) as M. destruct (many_real_loop _ None) as [b common]. cbn [fst snd] in *.
  rewrite M. unfold two_realizations. split.
  - intros (r & s & Hr & Hs & N). apply in_map_iff in Hr. apply in_map_iff in Hs. destruct Hr as (i & Ei & Hi). destruct Hs as (j & Ej & Hj).
    exists i, j, r, s. rewrite !holds_infos. auto.
  - intros (i & j & r & s & Hi & Hj & Ei & Ej & N). exists r, s. rewrite <- Ei, <- Ej. rewrite holds_infos in Hi, Hj. split; [now apply in_map|]. split; [now apply in_map|assumption].
Qed.
Print Assumptions C75_reevaluation_partial.

(** When it works out whether there are several realizations the collection also sets its own:
    none if there are several, the only one if there is one; with no numbers it is kept. *)
Lemma many_real_common l : forall c, fst (many_real_loop l c) = false ->
  match snd (many_real_loop l c) with
  | Some r => (c = Some r \/ In (Some r) l) /\ forall s, In (Some s) l -> s = r
  | None => c = None /\ forall s, ~ In (Some s) l
  end.
Proof.
  induction l as [|[r|] l IH]; intros c; cbn [many_real_loop].
  - intros _. cbn [snd]. destruct c as [r|]; [split; [now left|intros s []]|split; [reflexivity|intros s []]].
  - destruct c as [q|].
    + destruct (Z.eqb_spec r q) as [->|N]; [|discriminate]. intro F. specialize (IH (Some q) F).
      destruct (snd (many_real_loop l (Some q))) as [t|]; [|destruct IH as [E _]; discriminate E]. destruct IH as [E H]. split.
      * destruct E as [E|E]; [now left|right; now right].
      * intros s [[= <-]|Hs]; [|now apply H]. destruct E as [[= ->]|E]; [reflexivity|].
        destruct (Z.eq_dec q t) as [->|N]; [reflexivity|]. exfalso. assert (X : fst (many_real_loop l (Some q)) = true) by (apply many_real_some; exists t; auto). congruence.
    + intro F. specialize (IH (Some r) F). destruct (snd (many_real_loop l (Some r))) as [t|]; [|destruct IH as [E _]; discriminate E]. destruct IH as [E H]. split.
      * right. destruct E as [[= ->]|E]; [now left|now right].
      * intros s [[= <-]|Hs]; [|now apply H]. destruct E as [[= ->]|E]; [reflexivity|].
        destruct (Z.eq_dec r t) as [->|N]; [reflexivity|]. exfalso. assert (X : fst (many_real_loop l (Some r)) = true) by (apply many_real_some; exists t; auto). congruence.
  - intro F. specialize (IH c F). destruct (snd (many_real_loop l c)) as [t|].
    + destruct IH as [[E|E] H]; (split; [|intros s [X|Hs]; [discriminate X|now apply H]]); [now left|right; now right].
    + destruct IH as [E H]. split; [assumption|]. intros s [X|Hs]; [discriminate X|now apply (H s)].
Qed.
Theorem C75_own_realization : forall c, let c' := fst (establish_many_real c) in
  (two_realizations c -> c_realization c' = None) /\
  (forall i r, ~ two_realizations c -> holds c i -> i_realization i = Some r -> c_realization c' = Some (PInt r)) /\
  ((forall i, holds c i -> i_realization i = None) -> c_realization c' = c_realization c) /\
  c_dict c' = c_dict c.
Proof.
  intros c c'. destruct (C75_reevaluation_partial c) as (_ & _ & R & _). unfold right_many in R.
  unfold c', establish_many_real in *. pose proof (many_real_common (map i_realization (infos c)) None) as M.
  destruct (many_real_loop (map i_realization (infos c)) None) as [b common]. cbn [fst snd] in *.
  split; [|split; [|split]].
  - intro H. apply R in H. rewrite H. reflexivity.
  - intros i r N Hi Er. destruct b; [exfalso; apply N, R; reflexivity|]. specialize (M eq_refl).
    assert (In (Some r) (map i_realization (infos c))) by (apply in_map_iff; exists i; split; [assumption|now apply holds_infos]).
    destruct common as [t|]; [|exfalso; now apply (proj2 M r)]. destruct M as [_ M]. rewrite (M r) by assumption. reflexivity.
  - intro H. destruct b.
    + exfalso. destruct (proj1 R eq_refl) as (i & j & r & s & Hi & _ & Er & _). rewrite (H i Hi) in Er. discriminate.
    + specialize (M eq_refl). destruct common as [t|]; [|reflexivity]. destruct M as [[X|X] _]; [discriminate X|]. apply in_map_iff in X. destruct X as (i & Ei & Hi).
      rewrite (H i) in Ei; [discriminate Ei|]. now apply holds_infos.
  - reflexivity.
Qed.
Print Assumptions C75_own_realization.
(** With units, the answer depends on the order of the properties: a property without a
    unit is overlooked if it comes first. *)
Definition just (l : list (str * info)) : coll := with_dict new_coll l.
Definition no_unit : info :=
  Info None None 7 false 1 (L "cells") (L "index") None None (L "X") None None None None None None None [] None None false.
Theorem C75_units_depend_on_order_refuted : exists c d, Permutation (c_dict c) (c_dict d) /\
  ~ all_same i_uom c /\ ~ all_same i_uom d /\ snd (establish_one_uom c) = true /\ snd (establish_one_uom d) = false.
Proof.
  exists (just [(L "p", no_unit); (L "q", demo_info None (L "length") (L "Y") None None (L "m"))]),
         (just [(L "q", demo_info None (L "length") (L "Y") None None (L "m")); (L "p", no_unit)]).
  split; [apply perm_swap|].
  split; [|split; [|split; reflexivity]];
    (intros H; specialize (H no_unit (demo_info None (L "length") (L "Y") None None (L "m")));
     assert (X : i_uom no_unit = i_uom (demo_info None (L "length") (L "Y") None None (L "m"))) by (apply H; [exists (L "p"); cbn; tauto|exists (L "q"); cbn; tauto]); discriminate X).
Qed.
Print Assumptions C75_units_depend_on_order_refuted.

(** *** Histories *)
(** Changes to a collection, and questions. *)
Inductive op : Type :=
| OAdd (p : str) (i : info) | ORemove (p : str) | OInherit (other : coll) (ignore : bool) | OSelect (other : coll) (a : sel) (ignore : bool)
| OKind | OIndexable | OUom | OMany | OTime.
(** the collection after the operation, whether or not it raised *)
Definition step (c : coll) (o : op) : coll :=
  match o with
  | OAdd p i => match add_part c p i with Ok c' => c' | Err _ => c end
  | ORemove p => remove_part c p
  | OInherit other ic => fst (inherit_parts c other ic)
  | OSelect other a ic => fst (inherit_selectively c other a ic)
  | OKind => fst (has_one_kind c) | OIndexable => fst (has_one_indexable c) | OUom => fst (has_one_uom c)
  | OMany => fst (has_many_real c) | OTime => fst (time_set_kind c)
  end.
Definition history (ops : list op) : coll := fold_left step ops new_coll.
Definition flags (c : coll) := (c_time_set c, c_one_kind c, c_one_uom c, c_one_indexable c, c_many_real c).
Lemma support_from_flags c other u c1 : support_from c other u = Ok c1 -> flags c1 = flags c.
Proof.
  unfold support_from. intros H.
  destruct (assert_ _) eqn:E1 in H; [|discriminate]. cbn [bind] in H.
  destruct (match c_model c with None => _ | Some _ => _ end) as [c2|] eqn:E2 in H; [|discriminate]. cbn [bind] in H.
  assert (D : flags c2 = flags c).
  { destruct (c_model c) as [[mid m]|]; [|injection E2 as <-; reflexivity]. destruct (c_model other) as [[mid' m']|]; [|discriminate].
    destruct (assert_ (mid =? mid')); [|discriminate]. now injection E2 as <-. }
  destruct (assert_ _) in H; [|discriminate]. cbn [bind] in H. destruct (_ && _) in H; injection H as <-; exact D.
Qed.
(** a change leaves the remembered answers alone *)
Definition is_change (o : op) : bool := match o with OAdd _ _ | ORemove _ | OInherit _ _ | OSelect _ _ _ => true | _ => false end.
Lemma change_flags c o : is_change o = true -> flags (step c o) = flags c.
Proof.
  destruct o as [p i|p|other ic|other a ic| | | | |]; intros H; try discriminate; cbn [step].
  - unfold add_part. destruct (assert_ _); reflexivity.
  - unfold remove_part. destruct (dget str_eqb (c_dict c) p); reflexivity.
  - unfold inherit_parts. destruct (assert_ _); [|reflexivity]. cbn [bind]. cbv zeta. destruct (_ && _ && _); destruct (realization_check _ _); reflexivity.
  - unfold inherit_selectively. destruct (support_from c other (s_support a)) as [c1|] eqn:E; [|reflexivity].
    apply support_from_flags in E. destruct (bind _ _); cbn [fst]; assumption.
Qed.
Lemma question_dict c o : is_change o = false -> c_dict (step c o) = c_dict c.
Proof.
  destruct o; intros H; try discriminate; cbn [step]; clear H.
  - unfold has_one_kind. now destruct (c_one_kind c). - unfold has_one_indexable. now destruct (c_one_indexable c).
  - unfold has_one_uom. now destruct (c_one_uom c).
  - unfold has_many_real. destruct (c_many_real c); [reflexivity|]. unfold establish_many_real. now destruct (many_real_loop _ _).
  - unfold time_set_kind. now destruct (c_time_set c).
Qed.
(** Asking changes neither the properties nor their order. *)
Theorem C75_asking_changes_nothing : forall c o, is_change o = false -> c_dict (step c o) = c_dict c.
Proof. exact question_dict. Qed.
Print Assumptions C75_asking_changes_nothing.
(** Up to the first time a question is asked, after any history of changes and of other
    questions, the answer is right. *)
Definition never (q : op) (ops : list op) : Prop := ~ In q ops.
Lemma flag_unset (get : coll -> option bool) q ops :
  (forall c o, o <> q -> get (step c o) = get c) -> never q ops -> get new_coll = None -> get (history ops) = None.
Proof.
  intros Hs Hn H0. unfold history. revert H0. generalize new_coll. induction ops as [|o ops IH]; intros c H0; [assumption|]. cbn [fold_left].
  apply IH; [intros Hq; apply Hn; now right|]. rewrite Hs; [assumption|]. intros ->. apply Hn. now left.
Qed.
Ltac by_flags := cbn [step];
  unfold has_one_kind, has_one_indexable, has_one_uom, has_many_real, time_set_kind;
  repeat match goal with |- context [match ?x with Some _ => _ | None => _ end] => destruct x end;
  try reflexivity; unfold establish_many_real; destruct (many_real_loop _ _); reflexivity.
Lemma flags_kind c c' : flags c' = flags c -> c_one_kind c' = c_one_kind c. Proof. unfold flags. congruence. Qed.
Lemma flags_idx c c' : flags c' = flags c -> c_one_indexable c' = c_one_indexable c. Proof. unfold flags. congruence. Qed.
Lemma flags_uom c c' : flags c' = flags c -> c_one_uom c' = c_one_uom c. Proof. unfold flags. congruence. Qed.
Lemma flags_many c c' : flags c' = flags c -> c_many_real c' = c_many_real c. Proof. unfold flags. congruence. Qed.
Lemma flags_time c c' : flags c' = flags c -> c_time_set c' = c_time_set c. Proof. unfold flags. congruence. Qed.
Lemma step_kind c o : o <> OKind -> c_one_kind (step c o) = c_one_kind c.
Proof. destruct (is_change o) eqn:E; [intros _; now apply flags_kind, change_flags|]. destruct o; try discriminate E; intros N; try (now elim N); by_flags. Qed.
Lemma step_idx c o : o <> OIndexable -> c_one_indexable (step c o) = c_one_indexable c.
Proof. destruct (is_change o) eqn:E; [intros _; now apply flags_idx, change_flags|]. destruct o; try discriminate E; intros N; try (now elim N); by_flags. Qed.
Lemma step_uom c o : o <> OUom -> c_one_uom (step c o) = c_one_uom c.
Proof. destruct (is_change o) eqn:E; [intros _; now apply flags_uom, change_flags|]. destruct o; try discriminate E; intros N; try (now elim N); by_flags. Qed.
Lemma step_many c o : o <> OMany -> c_many_real (step c o) = c_many_real c.
Proof. destruct (is_change o) eqn:E; [intros _; now apply flags_many, change_flags|]. destruct o; try discriminate E; intros N; try (now elim N); by_flags. Qed.
Lemma step_time c o : o <> OTime -> c_time_set (step c o) = c_time_set c.
Proof. destruct (is_change o) eqn:E; [intros _; now apply flags_time, change_flags|]. destruct o; try discriminate E; intros N; try (now elim N); by_flags. Qed.
Theorem C75_first_answer_partial : forall ops, let c := history ops in
  (never OKind ops -> right_kind c (snd (has_one_kind c))) /\
  (never OIndexable ops -> right_indexable c (snd (has_one_indexable c))) /\
  (never OMany ops -> right_many c (snd (has_many_real c))) /\
  (never OTime ops -> right_time c (snd (time_set_kind c))) /\
  (never OUom ops -> units_uniform c -> right_uom c (snd (has_one_uom c))).
Proof.
  intros ops c. destruct (C75_reevaluation_partial c) as (R1 & R2 & R3 & R4 & R5).
  split; [|split; [|split; [|split]]]; intros N.
  - unfold has_one_kind. pose proof (flag_unset c_one_kind OKind ops step_kind N eq_refl) as F. fold c in F. now rewrite F.
  - unfold has_one_indexable. pose proof (flag_unset c_one_indexable OIndexable ops step_idx N eq_refl) as F. fold c in F. now rewrite F.
  - unfold has_many_real. pose proof (flag_unset c_many_real OMany ops step_many N eq_refl) as F. fold c in F. now rewrite F.
  - unfold time_set_kind. pose proof (flag_unset c_time_set OTime ops step_time N eq_refl) as F. fold c in F. now rewrite F.
  - unfold has_one_uom. pose proof (flag_unset c_one_uom OUom ops step_uom N eq_refl) as F. fold c in F. now rewrite F.
Qed.
Print Assumptions C75_first_answer_partial.
(** From then on the answer never changes, whatever is added or removed. *)
Lemma frozen (get : coll -> option bool) b ops c :
  (forall c o x, get c = Some x -> get (step c o) = Some x) -> get c = Some b -> get (fold_left step ops c) = Some b.
Proof. intros Hs. revert c. induction ops as [|o ops IH]; intros c H; [assumption|]. cbn [fold_left]. apply IH. now apply Hs. Qed.
Theorem C75_answers_are_remembered : forall c ops,
  let c1 := fold_left step ops (fst (has_one_kind c)) in
  let c2 := fold_left step ops (fst (has_one_indexable c)) in
  let c3 := fold_left step ops (fst (has_many_real c)) in
  let c4 := fold_left step ops (fst (time_set_kind c)) in
  let c5 := fold_left step ops (fst (has_one_uom c)) in
  snd (has_one_kind c1) = snd (has_one_kind c) /\ snd (has_one_indexable c2) = snd (has_one_indexable c) /\
  snd (has_many_real c3) = snd (has_many_real c) /\ snd (time_set_kind c4) = snd (time_set_kind c) /\
  snd (has_one_uom c5) = snd (has_one_uom c).
Proof.
  intros c ops c1 c2 c3 c4 c5.
  split; [|split; [|split; [|split]]].
  - assert (F : c_one_kind c1 = Some (snd (has_one_kind c))).
    { apply frozen; [intros d o x E; destruct (is_change o) eqn:C; [now rewrite (flags_kind d _ (change_flags d o C))|]; destruct o; try discriminate C; cbn [step];
        [unfold has_one_kind; now rewrite E|rewrite <- E; by_flags..]|]. unfold has_one_kind. destruct (c_one_kind c) eqn:E; [exact E|reflexivity]. }
    unfold has_one_kind at 1. now rewrite F.
  - assert (F : c_one_indexable c2 = Some (snd (has_one_indexable c))).
    { apply frozen; [intros d o x E; rewrite <- E; destruct (is_change o) eqn:C; [now rewrite (flags_idx d _ (change_flags d o C))|]; destruct o; try discriminate C; cbn [step];
        [by_flags|unfold has_one_indexable; now rewrite E|by_flags..]|]. unfold has_one_indexable. destruct (c_one_indexable c) eqn:E; [exact E|reflexivity]. }
    unfold has_one_indexable at 1. now rewrite F.
  - assert (F : c_many_real c3 = Some (snd (has_many_real c))).
    { apply frozen; [intros d o x E; rewrite <- E; destruct (is_change o) eqn:C; [now rewrite (flags_many d _ (change_flags d o C))|]; destruct o; try discriminate C; cbn [step];
        try (unfold has_many_real; now rewrite E); by_flags|]. unfold has_many_real. destruct (c_many_real c) eqn:E; [exact E|]. unfold establish_many_real. now destruct (many_real_loop _ _). }
    unfold has_many_real at 1. now rewrite F.
  - assert (F : c_time_set c4 = Some (snd (time_set_kind c))).
    { apply frozen; [intros d o x E; rewrite <- E; destruct (is_change o) eqn:C; [now rewrite (flags_time d _ (change_flags d o C))|]; destruct o; try discriminate C; cbn [step];
        try (unfold time_set_kind; now rewrite E); by_flags|]. unfold time_set_kind. destruct (c_time_set c) eqn:E; [exact E|reflexivity]. }
    unfold time_set_kind at 1. now rewrite F.
  - assert (F : c_one_uom c5 = Some (snd (has_one_uom c))).
    { apply frozen; [intros d o x E; rewrite <- E; destruct (is_change o) eqn:C; [now rewrite (flags_uom d _ (change_flags d o C))|]; destruct o; try discriminate C; cbn [step];
        try (unfold has_one_uom; now rewrite E); by_flags|]. unfold has_one_uom. destruct (c_one_uom c) eqn:E; [exact E|reflexivity]. }
    unfold has_one_uom at 1. now rewrite F.
Qed.
Print Assumptions C75_answers_are_remembered.
(** So a collection asked when it holds one property goes on saying that it has a single
    kind, a single unit and one realization after others were added. *)
Definition poro : info := demo_info (Some 0) (L "porosity") (L "PORO") None None (L "m3/m3").
Definition pres : info := demo_info (Some 1) (L "pressure") (L "PRES") None None (L "bar").
Theorem C75_answers_go_stale_refuted : exists ops, let c := history ops in
  ~ right_kind c (snd (has_one_kind c)) /\ ~ right_many c (snd (has_many_real c)) /\ ~ right_uom c (snd (has_one_uom c)).
Proof.
  exists [OAdd (L "p") poro; OKind; OMany; OUom; OAdd (L "q") pres]. cbv zeta.
  assert (H1 : holds (history [OAdd (L "p") poro; OKind; OMany; OUom; OAdd (L "q") pres]) poro) by (exists (L "p"); vm_compute; tauto).
  assert (H2 : holds (history [OAdd (L "p") poro; OKind; OMany; OUom; OAdd (L "q") pres]) pres) by (exists (L "q"); vm_compute; tauto).
  split; [|split].
  - intros [R _]. specialize (R eq_refl poro pres H1 H2). discriminate R.
  - intros [_ R]. assert (X : false = true); [|discriminate X]. apply R. exists poro, pres, 0, 1. repeat split; auto; discriminate.
  - intros [R _]. specialize (R eq_refl poro pres H1 H2). discriminate R.
Qed.
Print Assumptions C75_answers_go_stale_refuted.
Example history_fresh : never OKind [OAdd (L "p") poro; OMany; OAdd (L "q") pres; ORemove (L "p")] /\
  snd (has_one_kind (history [OAdd (L "p") poro; OMany; OAdd (L "q") pres])) = false /\
  snd (has_one_kind (history [OAdd (L "p") poro; OMany; OAdd (L "q") pres; ORemove (L "p")])) = true.
Proof. split; [|split; reflexivity]. intros H. cbn in H. intuition discriminate. Qed.

(** assign_realization_numbers on a collection of one kind, indexable element and unit:
    the properties are numbered 0, 1, ... in order, and nothing else about them changes. *)
Definition same_but_realization (i j : info) : Prop := forall r, set_realization_of i r = set_realization_of j r.
Lemma number_items_nth d r n : nth_error (number_items d r) n = option_map (fun e => (fst e, set_realization_of (snd e) (r + Z.of_nat n))) (nth_error d n).
Proof.
  revert r n. induction d as [|[p i] d IH]; intros r [|n]; cbn; try reflexivity.
  - now rewrite Z.add_0_r. - rewrite IH. destruct (nth_error d n); cbn; [|reflexivity]. do 3 f_equal. lia.
Qed.
Definition fresh (c : coll) : Prop := c_one_kind c = None /\ c_one_indexable c = None /\ c_one_uom c = None.
Lemma number_items_length d r : List.length (number_items d r) = List.length d.
Proof. revert r. induction d as [|[p i] d IH]; intros r; cbn; [reflexivity|]. now rewrite IH. Qed.
Lemma infos_flags c a b d e f : infos (with_flags c a b d e f) = infos c.
Proof. reflexivity. Qed.
Theorem C75_numbering : forall c, fresh c -> units_uniform c ->
  (all_same i_kind c /\ all_same i_indexable c /\ all_same i_uom c <-> snd (assign_realization_numbers c) = Ok tt) /\
  (snd (assign_realization_numbers c) <> Ok tt -> snd (assign_realization_numbers c) = Err AssertionError /\ c_dict (fst (assign_realization_numbers c)) = c_dict c) /\
  (snd (assign_realization_numbers c) = Ok tt -> let c' := fst (assign_realization_numbers c) in
     List.length (c_dict c') = List.length (c_dict c) /\
     (forall n p i, nth_error (c_dict c) n = Some (p, i) ->
        exists j, nth_error (c_dict c') n = Some (p, j) /\ i_realization j = Some (Z.of_nat n) /\ same_but_realization i j) /\
     right_many c' (snd (has_many_real c'))).
Proof.
  intros c (F1 & F2 & F3) U. destruct (C75_reevaluation_partial c) as (R1 & R2 & _ & _ & R5). specialize (R5 U).
  unfold right_kind, right_indexable, right_uom in *. unfold assign_realization_numbers.
  unfold has_one_kind. rewrite F1. unfold establish_one_kind in *. cbn [snd] in R1.
  destruct (same_text_loop (map i_kind (infos c)) None); cbn [negb fst snd].
  2: { split; [|split; [intros _; split; reflexivity|discriminate]]. split; [|discriminate]. intros (K & _). destruct R1 as [_ R1]. now apply R1 in K. }
  unfold has_one_indexable. cbn [c_one_indexable with_flags]. rewrite F2. unfold establish_one_indexable in *. cbn [snd] in R2. rewrite !infos_flags.
  destruct (same_text_loop (map i_indexable (infos c)) None); cbn [negb fst snd].
  2: { split; [|split; [intros _; split; reflexivity|discriminate]]. split; [|discriminate]. intros (_ & K & _). destruct R2 as [_ R2]. now apply R2 in K. }
  unfold has_one_uom. cbn [c_one_uom with_flags]. rewrite F3. unfold establish_one_uom in *. cbn [snd] in R5. rewrite !infos_flags.
  destruct (same_uom_loop (map i_uom (infos c)) None); cbn [negb fst snd].
  2: { split; [|split; [intros _; split; reflexivity|discriminate]]. split; [|discriminate]. intros (_ & _ & K). destruct R5 as [_ R5]. now apply R5 in K. }
  split; [tauto|]. split; [congruence|]. intros _. cbv zeta. cbn [with_flags with_dict c_dict c_many_real].
  assert (Hnth : forall n p i, nth_error (c_dict c) n = Some (p, i) ->
    exists j, nth_error (number_items (c_dict c) 0) n = Some (p, j) /\ i_realization j = Some (Z.of_nat n) /\ same_but_realization i j).
  { intros n p i E. rewrite number_items_nth, E. cbn. eexists. split; [reflexivity|]. split; [reflexivity|]. intros r. reflexivity. }
  split; [apply number_items_length|]. split; [exact Hnth|].
  unfold right_many, has_many_real. cbn [with_flags with_dict c_dict c_many_real snd]. rewrite Z.ltb_lt, number_items_length.
  unfold two_realizations, holds. cbn [with_flags with_dict c_dict]. split.
  - intros Hl. destruct (c_dict c) as [|[p i] [|[q j] d]]; [cbn in Hl; lia|cbn in Hl; lia|]. cbn [number_items].
    exists (set_realization_of i 0), (set_realization_of j 1), 0, 1. split; [exists p; now left|]. split; [exists q; right; now left|]. repeat split; discriminate.
  - intros (i & j & r & s & (p & Hi) & (q & Hj) & Ei & Ej & N). destruct (c_dict c) as [|[p1 i1] [|e d]]; [destruct Hi| |cbn [List.length]; lia].
    cbn in Hi, Hj. destruct Hi as [[= <- <-]|[]]. destruct Hj as [[= <- <-]|[]]. congruence.
Qed.
Print Assumptions C75_numbering.
Example numbering_ok : exists c', assign_realization_numbers (just [(L "p", poro); (L "q", poro)]) = (c', Ok tt) /\
  map (fun e => i_realization (snd e)) (c_dict c') = [Some 0; Some 1].
Proof. eexists. split; reflexivity. Qed.
