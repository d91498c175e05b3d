(** CatalogueProofs.v: specification of the part queries and lemmas about them. *)
From Verif Require Import Base TextModel StrModel StrProofs UuidModel UuidProofs PyDict PySort ForestModel ForestProofs CatalogueModel.
From Coq Require Import Permutation Sorted.

(** * Specification *)
(** The eight title modes, on normalised titles. *)
Definition TitleSpec (mode title pt : str) : Prop :=
  (mode = L "is" /\ pt = title) \/
  (mode = L "starts" /\ exists b, pt = title ++ b) \/
  (mode = L "ends" /\ exists a, pt = a ++ title) \/
  (mode = L "contains" /\ exists a b, pt = a ++ title ++ b) \/
  (mode = L "is not" /\ pt <> title) \/
  (mode = L "does not start" /\ ~ exists b, pt = title ++ b) \/
  (mode = L "does not end" /\ ~ exists a, pt = a ++ title) \/
  (mode = L "does not contain" /\ ~ exists a b, pt = a ++ title ++ b).
(** Titles are compared without surrounding white space and, unless asked otherwise,
    without regard to case. *)
Definition compared_title (case_sensitive : bool) (s : str) : str :=
  if case_sensitive then strip is_space s else map upper_chr (strip is_space s).
(** A class given with a leading capital is meant without its obj_ prefix. *)
Definition ClassSpec (ty ct : str) : Prop :=
  exists c s, ty = c :: s /\ ct = if is_upper_chr c then L "obj_" ++ ty else ty.
Definition Related (m : mdl) (k : option kind) (u v : Z) : Prop :=
  match k with
  | Some k => In v (R (urels m) k u)
  | None => In v (R (urels m) Ref u) \/ In v (R (urels m) Refd u) \/ In v (R (urels m) Soft u)
  end.
Definition given {A} (o : option (list A)) (P : list A -> Prop) : Prop := match o with None | Some [] => True | Some l => P l end.
(** Part p satisfies every criterion of q (other than a location in the epc). *)
Definition Satisfies (m : mdl) (q : query) (p : str) : Prop :=
  exists ct u t, sget (parts m) p = Some (ct, u, t) /\
    (forall v, q_uuid q = Some v -> u = v) /\
    given (q_type q) (fun ty => ClassSpec ty ct) /\
    given (q_title q) (fun ti => TitleSpec (q_title_mode q) (compared_title (q_case q) ti) (compared_title (q_case q) (t_title t))) /\
    (forall k v, In (k, v) (q_meta q) -> sget (t_meta t) k = Some v) /\
    (forall k v, In (k, v) (q_extra q) -> sget (t_extra t) k = Some v) /\
    (forall v, q_related q = Some v -> Related m (q_rmode q) v u).
Definition base (m : mdl) (q : query) : list str := match q_list q with None | Some [] => list_of_parts m | Some l => l end.

(** * Lemmas *)
Lemma norm_title_spec c s : norm_title c s = compared_title c s.
Proof. unfold norm_title, compared_title, upper. destruct c; reflexivity. Qed.
Lemma str_mem_iff p l : str_mem p l = true <-> In p l.
Proof. induction l as [|q l IH]; cbn; [split; [discriminate|tauto]|]. rewrite orb_true_iff, IH, str_eqb_eq. tauto. Qed.
Lemma contains_iff s p : contains s p = true <-> exists a b, s = a ++ p ++ b.
Proof.
  induction s as [|c s IH].
  - cbn. rewrite orb_false_r, startswith_iff. split.
    + intros [t H]. exists [], t. exact H.
    + intros (a & b & H). symmetry in H. apply app_eq_nil in H. destruct H as [_ H]. exists b. now rewrite H.
  - cbn [contains]. rewrite orb_true_iff, IH, startswith_iff. split.
    + intros [[t H]|(a & b & H)]; [exists [], t; exact H|]. exists (c :: a), b. now rewrite H.
    + intros (a & b & H). destruct a as [|x a]; [left; exists b; exact H|]. right. exists a, b. now injection H.
Qed.
Lemma title_test_iff mode ti pt : In mode title_modes -> (title_test mode ti pt = true <-> TitleSpec mode ti pt).
Proof.
  unfold title_modes. intros H.
  repeat (destruct H as [<-|H]; [
    unfold title_test, TitleSpec;
    repeat match goal with |- context[str_eqb (L ?a) (L ?b)] => let v := eval vm_compute in (str_eqb (L a) (L b)) in change (str_eqb (L a) (L b)) with v end;
    cbv iota; rewrite ?negb_true_iff, <- ?not_true_iff_false, ?str_eqb_eq, ?startswith_iff, ?endswith_iff, ?contains_iff;
    split;
    [ intros; repeat (first [solve [left; split; [reflexivity|assumption]]|right]); try (split; [reflexivity|assumption])
    | intros D; repeat (destruct D as [[E D]|D]; [first [exact D|exfalso; discriminate E]|]); destruct D as [E D]; first [exact D|exfalso; discriminate E] ] |]).
  destruct H.
Qed.

Lemma filtered_by_type_ok m l ty : incl l (dkeys (parts m)) -> exists f,
  filtered_by_type m l ty = Ok (filter f l) /\ forall p, f p = match sget (parts m) p with Some (ct, _, _) => str_eqb ct ty | None => false end.
Proof.
  intros Hi. eexists. split; [|intros p; reflexivity]. induction l as [|p l IH]; [reflexivity|].
  cbn [filtered_by_type filter]. assert (Hp : In p (dkeys (parts m))) by (apply Hi; now left).
  apply (dkeys_dget str_eqb str_eqb_iff) in Hp. destruct Hp as [[[ct u] t] Hp]. rewrite Hp. rewrite IH by (intros x Hx; apply Hi; now right).
  cbn. reflexivity.
Qed.
Lemma filter_related_filter m rels l : incl l (dkeys (parts m)) ->
  filter_related m rels l = Ok (filter (fun p => match sget (parts m) p with Some (_, u, _) => zmem u rels | None => false end) l).
Proof.
  intros Hi. induction l as [|p l IH]; [reflexivity|]. cbn [filter_related filter].
  assert (Hp : In p (dkeys (parts m))) by (apply Hi; now left).
  apply (dkeys_dget str_eqb str_eqb_iff) in Hp. destruct Hp as [[[ct u] t] Hp]. unfold uuid_for_part. rewrite Hp. cbn [bind].
  rewrite IH by (intros x Hx; apply Hi; now right). reflexivity.
Qed.
Lemma items_match_iff d items : items_match d items = true <-> forall k v, In (k, v) items -> sget d k = Some v.
Proof.
  unfold items_match. rewrite forallb_forall. split.
  - intros H k v Hin. specialize (H _ Hin). cbn in H. destruct (dget str_eqb d k); [|discriminate]. apply str_eqb_eq in H. now subst.
  - intros H [k v] Hin. cbn. rewrite (H _ _ Hin). apply str_eqb_refl.
Qed.
Lemma incl_filter {A} (f : A -> bool) l : incl (filter f l) l.
Proof. intros x Hx. now apply filter_In in Hx. Qed.

Lemma filter_none {A} (l : list A) : filter (fun _ => false) l = [].
Proof. now induction l. Qed.

(** One stage of the query keeps the parts satisfying one criterion. *)
Definition Stage (m : mdl) (P : str -> Prop) (l l' : list str) : Prop :=
  exists f, l' = filter f l /\ forall p, In p l -> (f p = true <-> P p).
Lemma stage_trivial m (P : str -> Prop) l : (forall p, In p l -> P p) -> Stage m P l l.
Proof.
  intros H. exists (fun _ => true). split; [|firstorder]. induction l as [|x l IH]; [reflexivity|]. cbn. f_equal. apply IH. firstorder.
Qed.
Lemma stage_comp m P Q l l1 l2 : Stage m P l l1 -> Stage m Q l1 l2 -> Stage m (fun p => P p /\ Q p) l l2.
Proof.
  intros (f & -> & Hf) (g & -> & Hg). exists (fun p => f p && g p). split; [apply filter_filter|].
  intros p Hp. rewrite andb_true_iff, (Hf p Hp). split; intros [H1 H2]; split; auto.
  - apply Hg; [apply filter_In; split; [assumption|now apply Hf]|assumption].
  - apply Hg; [apply filter_In; split; [assumption|now apply Hf]|assumption].
Qed.
Lemma stage_ext m P Q l l' : (forall p, In p l -> (P p <-> Q p)) -> Stage m P l l' -> Stage m Q l l'.
Proof. intros H (f & E & Hf). exists f. split; [assumption|]. intros p Hp. rewrite (Hf p Hp). now apply H. Qed.
Lemma stage_incl m P l l' : Stage m P l l' -> incl l' l.
Proof. intros (f & -> & _). apply incl_filter. Qed.
Lemma stage_nil m P l Q : Stage m P l [] -> Stage m (fun p => P p /\ Q p) l [].
Proof. intros H. eapply stage_comp; [exact H|]. exists (fun _ => true). split; [reflexivity|]. intros p []. Qed.

Definition CTitle m q p := given (q_title q) (fun ti => TitleSpec (q_title_mode q) (compared_title (q_case q) ti) (compared_title (q_case q) (citation_title_for_part m p))).
Definition CMeta m q p := forall k v, In (k, v) (q_meta q) -> exists t, tree_for_part m p = Some t /\ sget (t_meta t) k = Some v.
Definition CExtra m q p := forall k v, In (k, v) (q_extra q) -> exists t, tree_for_part m p = Some t /\ sget (t_extra t) k = Some v.
Definition CRel m q p := forall v, q_related q = Some v -> exists u, uuid_for_part m p = Ok u /\ Related m (q_rmode q) v u.
Definition CType m q p := given (q_type q) (fun ty => exists ct u t, sget (parts m) p = Some (ct, u, t) /\ ClassSpec ty ct).

Definition Sortless (q : query) : Prop := q_sort q = None \/ q_sort q = Some [].
Definition ValidQ (m : mdl) (q : query) : Prop := given (q_title q) (fun _ => In (q_title_mode q) title_modes) /\
  (q_related q <> None -> rels_present m = true) /\ (q_subdir q = None \/ q_subdir q = Some []).

Lemma known_get m l p : incl l (dkeys (parts m)) -> In p l -> exists ct u t, sget (parts m) p = Some (ct, u, t).
Proof. intros Hi Hp. apply Hi in Hp. apply (dkeys_dget str_eqb str_eqb_iff) in Hp. destruct Hp as [[[ct u] t] Hp]. eauto. Qed.

Definition unsorted (q : query) : query :=
  Query (q_list q) (q_type q) (q_uuid q) (q_title q) (q_title_mode q) (q_case q) (q_meta q) (q_extra q) (q_related q) (q_rmode q) (q_subdir q) None.

Definition sort_step (m : mdl) (q : query) (l : list str) : res (list str) :=
  match q_sort q with
  | None | Some [] => Ok l
  | Some s => match l with [] => Ok [] | _ => sorted_parts_list m l s end
  end.
Lemma parts_tail_ok m q l : ValidQ m q -> incl l (dkeys (parts m)) ->
  exists l', parts_tail m q l = (do s <- sort_step m q l'; Ok (Some s)) /\
    Stage m (fun p => ((CTitle m q p /\ CMeta m q p) /\ CExtra m q p) /\ CRel m q p) l l'.
Proof.
  intros (V1 & V2 & V3) Hi. unfold parts_tail.
  assert (T : exists l1, match q_title q with None | Some [] => Ok l | Some t => filtered_by_title m l t (q_title_mode q) (q_case q) end = Ok l1 /\ Stage m (CTitle m q) l l1).
  { unfold CTitle, given in *. destruct (q_title q) as [[|c s]|]; [exists l; split; [reflexivity|apply stage_trivial; auto]| |exists l; split; [reflexivity|apply stage_trivial; auto]].
    unfold filtered_by_title, assert_. replace (str_mem (q_title_mode q) title_modes) with true by (symmetry; now apply str_mem_iff).
    cbn [bind]. eexists. split; [reflexivity|]. eexists. split; [reflexivity|]. intros p _. now apply title_test_iff. }
  destruct T as (l1 & -> & S1). cbn [bind]. assert (I1 := stage_incl _ _ _ _ S1).
  set (l2 := match q_meta q with [] => l1 | meta => filtered_by_metadata m l1 meta end).
  assert (S2 : Stage m (CMeta m q) l1 l2).
  { unfold l2, CMeta. destruct (q_meta q) as [|kv meta]; [apply stage_trivial; intros p _ k v []|].
    eexists. split; [reflexivity|]. intros p _. cbv beta. destruct (tree_for_part m p) as [t|].
    - rewrite items_match_iff. split; intros H k v Hkv; [exists t; split; auto|]. destruct (H k v Hkv) as (t' & E & Ht). injection E as <-. exact Ht.
    - rewrite items_match_iff. split; intros H k v Hkv; [discriminate (H k v Hkv)|]. destruct (H k v Hkv) as (t' & E & Ht). discriminate. }
  clearbody l2. assert (I2 := stage_incl _ _ _ _ S2).
  set (l3 := match q_extra q with [] => l2 | extra => filtered_by_extra m l2 extra end).
  assert (S3 : Stage m (CExtra m q) l2 l3).
  { unfold l3, CExtra. destruct (q_extra q) as [|kv extra]; [apply stage_trivial; intros p _ k v []|].
    eexists. split; [reflexivity|]. intros p _. cbv beta. destruct (tree_for_part m p) as [t|].
    - transitivity (items_match (t_extra t) (kv :: extra) = true).
      { destruct (t_extra t); [|tauto]. split; [discriminate|]. rewrite items_match_iff. intros H. destruct kv as [k v]. discriminate (H k v (or_introl eq_refl)). }
      rewrite items_match_iff. split; intros H k v Hkv; [exists t; split; auto|]. destruct (H k v Hkv) as (t' & E & Ht). injection E as <-. exact Ht.
    - split; [discriminate|]. intros H. destruct kv as [k v]. destruct (H k v (or_introl eq_refl)) as (t' & E & Ht). discriminate. }
  clearbody l3. assert (I3 := stage_incl _ _ _ _ S3).
  assert (T : exists l4, match q_related q with None => Ok (Some l3) | Some u => filtered_by_related m l3 u (q_rmode q) end = Ok (Some l4) /\ Stage m (CRel m q) l3 l4).
  { unfold CRel. destruct (q_related q) as [v|]; [|exists l3; split; [reflexivity|apply stage_trivial; discriminate]].
    unfold filtered_by_related. rewrite V2 by discriminate. cbn [negb].
    assert (I : incl l3 (dkeys (parts m))) by (intros x Hx; auto).
    destruct (zget (urels m) v) as [r|] eqn:Er.
    - rewrite filter_related_filter by assumption. cbn [bind]. eexists. split; [reflexivity|]. eexists. split; [reflexivity|].
      intros p Hp. destruct (known_get m l3 p I Hp) as (ct & u & t & E). rewrite E. unfold uuid_for_part. rewrite E, zmem_iff.
      assert (Q : In u match q_rmode q with Some k => rget k r | None => r_ref r ++ r_refd r ++ r_soft r end <-> Related m (q_rmode q) v u).
      { unfold Related. destruct (q_rmode q) as [k|]; [now rewrite (R_some _ _ _ _ Er)|]. rewrite !(R_some _ _ _ _ Er), !in_app_iff. cbn. tauto. }
      rewrite Q. split; [intros H w Hw; injection Hw as <-; eauto|]. intros H. destruct (H v eq_refl) as (u' & E' & H'). injection E' as <-. exact H'.
    - exists []. split; [reflexivity|]. exists (fun _ => false). split; [now rewrite filter_none|].
      intros p Hp. split; [discriminate|]. intros H. destruct (H v eq_refl) as (u & _ & Hr). exfalso.
      unfold Related in Hr. assert (N : forall k, ~ In u (R (urels m) k v)).
      { intros k Hk. apply R_in_some in Hk. destruct Hk. congruence. }
      destruct (q_rmode q); [now apply N in Hr|]. destruct Hr as [Hr|[Hr|Hr]]; now apply N in Hr. }
  destruct T as (l4 & -> & S4). cbn [bind]. exists l4. split.
  - unfold sort_step. destruct (q_sort q) as [[|c s]|]; try reflexivity. destruct l4; reflexivity.
  - eapply stage_comp; [eapply stage_comp; [eapply stage_comp|]|]; eassumption.
Qed.

Lemma parts_typed_ok m q l : ValidQ m q -> incl l (dkeys (parts m)) ->
  exists l', parts_typed m q l = (do s <- sort_step m q l'; Ok (Some s)) /\
    Stage m (fun p => CType m q p /\ (((CTitle m q p /\ CMeta m q p) /\ CExtra m q p) /\ CRel m q p)) l l'.
Proof.
  intros V Hi. unfold parts_typed.
  replace (match q_subdir q with None | Some [] => Ok l | Some s => filtered_by_epc_subdir l s end) with (@Ok (list str) l)
    by (destruct V as (_ & _ & [-> | ->]); reflexivity). cbn [bind].
  assert (D : (q_type q = None \/ q_type q = Some []) \/ exists c s, q_type q = Some (c :: s)).
  { destruct (q_type q) as [[|c s]|]; eauto. }
  destruct D as [D|(c & s & D)].
  - destruct (parts_tail_ok m q l V Hi) as (l' & E & S). exists l'. split; [destruct D as [-> | ->]; exact E|].
    eapply stage_comp; [|exact S]. apply stage_trivial. intros p _. unfold CType. destruct D as [-> | ->]; exact Logic.I.
  - rewrite D. destruct (filtered_by_type_ok m l (full_type (c :: s)) Hi) as (f & -> & Hf). cbn [bind].
    assert (S0 : Stage m (CType m q) l (filter f l)).
    { eexists. split; [reflexivity|]. intros p Hp. rewrite Hf. destruct (known_get m l p Hi Hp) as (ct & u & t & E). rewrite E, str_eqb_eq.
      unfold CType. rewrite D. unfold given, ClassSpec, full_type. split.
      - intros ->. exists (if is_upper_chr c then L "obj_" ++ c :: s else c :: s), u, t. split; [assumption|]. eauto.
      - intros (ct' & u' & t' & E' & c' & s' & Ec & ->). injection Ec as <- <-. rewrite E in E'. injection E' as E' _ _. exact E'. }
    destruct (filter f l) as [|p0 l0] eqn:Ef.
    + exists []. split; [unfold sort_step; now destruct (q_sort q) as [[|? ?]|]|]. now apply stage_nil.
    + rewrite <- Ef in *. destruct (parts_tail_ok m q (filter f l) V) as (l' & E & S).
      { intros x Hx. apply Hi. eapply incl_filter; eassumption. }
      exists l'. split; [exact E|]. eapply stage_comp; eassumption.
Qed.

Lemma satisfies_iff m q p ct u t : sget (parts m) p = Some (ct, u, t) ->
  (Satisfies m q p <-> (forall v, q_uuid q = Some v -> u = v) /\ CType m q p /\ (((CTitle m q p /\ CMeta m q p) /\ CExtra m q p) /\ CRel m q p)).
Proof.
  intros E. unfold Satisfies, CType, CTitle, CMeta, CExtra, CRel, citation_title_for_part, tree_for_part, uuid_for_part. rewrite E. split.
  - intros (ct' & u' & t' & E' & H1 & H2 & H3 & H4 & H5 & H6). injection E' as <- <- <-.
    repeat split; eauto. unfold given in *. destruct (q_type q) as [[|? ?]|]; eauto 7.
  - intros (H1 & H2 & ((H3 & H4) & H5) & H6). exists ct, u, t. split; [reflexivity|]. split; [assumption|]. split; [|split; [assumption|]].
    + unfold given in *. destruct (q_type q) as [[|? ?]|]; auto. destruct H2 as (a1 & b1 & d1 & E2 & H2). injection E2 as <- _ _. exact H2.
    + split; [|split].
      * intros k v Hk. destruct (H4 k v Hk) as (t' & E' & H'). injection E' as <-. exact H'.
      * intros k v Hk. destruct (H5 k v Hk) as (t' & E' & H'). injection E' as <-. exact H'.
      * intros v Hv. destruct (H6 v Hv) as (u' & E' & H'). injection E' as <-. exact H'.
Qed.

Lemma filter_single {A} (f : A -> bool) (eqd : forall a b : A, {a = b} + {a <> b}) x l : NoDup l -> In x l -> (forall y, In y l -> f y = true -> y = x) ->
  filter f l = if f x then [x] else [].
Proof.
  intros Hn Hx Hf. induction Hn as [|y l Hy Hn IH]; [destruct Hx|]. cbn.
  destruct Hx as [->|Hx].
  - assert (filter f l = []).
    { clear IH. induction l as [|z l IH]; [reflexivity|]. cbn. destruct (f z) eqn:E.
      - exfalso. apply Hy. left. apply Hf; [right; now left|assumption].
      - inversion Hn; subst. apply IH; [firstorder|assumption|]. intros w Hw. apply Hf. destruct Hw; [now left|right; now right]. }
    rewrite H. reflexivity.
  - rewrite (IH Hx) by (intros z Hz; apply Hf; now right). destruct (f y) eqn:E; [|reflexivity].
    exfalso. apply Hy. rewrite (Hf y (or_introl eq_refl) E). assumption.
Qed.
Lemma str_dec (a b : str) : {a = b} + {a <> b}.
Proof. destruct (str_eqb a b) eqn:E; [left; now apply str_eqb_eq|right; intros ->; rewrite str_eqb_refl in E; discriminate]. Defined.

Lemma parts_q_ok m q : Cat m -> ValidQ m q -> NoDup (base m q) -> incl (base m q) (dkeys (parts m)) ->
  exists l', parts_q m q = (do s <- sort_step m q l'; Ok (Some s)) /\ Stage m (Satisfies m q) (base m q) l'.
Proof.
  intros C V Hn Hi. unfold parts_q. fold (base m q).
  assert (EMPTY : sort_step m q [] = Ok []) by (unfold sort_step; now destruct (q_sort q) as [[|? ?]|]).
  destruct (q_uuid q) as [u|] eqn:Eu.
  - assert (NO : (forall p ct t, In p (base m q) -> sget (parts m) p <> Some (ct, u, t)) ->
      exists l', Ok (Some []) = (do s <- sort_step m q l'; Ok (Some s)) /\ Stage m (Satisfies m q) (base m q) l').
    { intros H. exists []. rewrite EMPTY. split; [reflexivity|]. exists (fun _ => false). split; [now rewrite filter_none|].
      intros p Hp. split; [discriminate|]. intros (ct & v & t & E & H1 & _). exfalso. rewrite (H1 u Eu) in E. eapply H; eassumption. }
    destruct (dget Z.eqb (u2p m) u) as [p|] eqn:Ep.
    + destruct (str_mem p (base m q)) eqn:Em.
      * apply str_mem_iff in Em. assert (Hi1 : incl [p] (dkeys (parts m))) by (intros x [<-|[]]; auto).
        destruct (parts_typed_ok m q [p] V Hi1) as (l' & E & f & El & Hf). exists l'. split; [exact E|].
        pose (g := fun x => str_eqb x p && f x).
        destruct (c_uuid_part m C _ _ Ep) as (ct & t & Hp).
        exists g. assert (Hg : forall x, In x (base m q) -> (g x = true <-> Satisfies m q x)).
        { intros x Hx. unfold g. rewrite andb_true_iff, str_eqb_eq. split.
          - intros [-> Hfx]. apply (satisfies_iff m q p ct u t Hp). split; [intros v Hv; congruence|]. apply (Hf p (or_introl eq_refl)). exact Hfx.
          - intros (ct' & v & t' & E' & H1 & Hrest). assert (v = u) by auto. subst v.
            assert (x = p). { apply (c_part_uuid m C) in E'. destruct E'. congruence. } subst x. split; [reflexivity|].
            apply (Hf p (or_introl eq_refl)). apply (satisfies_iff m q p ct' u t' E'). exists ct', u, t'. auto. }
        split; [|assumption]. rewrite El. rewrite (filter_single g str_dec p (base m q) Hn Em).
        -- unfold g. rewrite str_eqb_refl. cbn. now destruct (f p).
        -- intros y _ Hy. unfold g in Hy. apply andb_true_iff in Hy. destruct Hy as [Hy _]. now apply str_eqb_eq.
      * apply NO. intros x ct t Hx E. apply (c_part_uuid m C) in E. destruct E as [E _]. rewrite Ep in E. injection E as <-.
        apply str_mem_iff in Hx. congruence.
    + apply NO. intros x ct t Hx E. apply (c_part_uuid m C) in E. destruct E as [E _]. congruence.
  - destruct (parts_typed_ok m q (base m q) V Hi) as (l' & E & S). exists l'. split; [exact E|].
    eapply stage_ext; [|exact S]. intros p Hp. destruct (known_get m _ p Hi Hp) as (ct & u & t & Ep).
    rewrite (satisfies_iff m q p ct u t Ep). rewrite Eu. split; [intros H; split; [discriminate|exact H]|tauto].
Qed.

(** * Sorting *)
Lemma combine_index_nth (key : str -> str) l ki : In ki (combine (map key l) (seq 0 (List.length l))) ->
  fst ki = key (nth (snd ki) l []).
Proof.
  intros H. destruct ki as [k i]. apply (In_nth _ _ ([], 0%nat)) in H. destruct H as (n & Hn & E).
  rewrite combine_length, map_length, seq_length, Nat.min_id in Hn.
  rewrite combine_nth in E by now rewrite map_length, seq_length. injection E as E1 E2.
  rewrite seq_nth in E2 by assumption. cbn in *. subst i. rewrite <- E1. rewrite (nth_indep _ [] (key [])) by now rewrite map_length.
  now rewrite map_nth.
Qed.
Lemma map_nth_seq {A} (l : list A) d : map (fun i => nth i l d) (seq 0 (List.length l)) = l.
Proof.
  induction l as [|x l IH]; [reflexivity|]. cbn. f_equal. rewrite <- seq_shift, map_map. exact IH.
Qed.
Lemma map_snd_combine {A B} (a : list A) (b : list B) : List.length a = List.length b -> map snd (combine a b) = b.
Proof. revert b. induction a as [|x a IH]; intros [|y b] H; cbn in *; try discriminate; [reflexivity|]. f_equal. apply IH. lia. Qed.
Lemma sorted_by_key_perm key l : Permutation l (sorted_by_key key l).
Proof.
  unfold sorted_by_key. rewrite <- (isort_perm (lex_le str_le)).
  rewrite <- (map_map snd (fun i => nth i l [])), map_snd_combine by now rewrite map_length, seq_length.
  now rewrite map_nth_seq.
Qed.
Lemma sorted_by_key_sorted key l : StronglySorted (fun a b => str_le (key a) (key b) = true) (sorted_by_key key l).
Proof.
  unfold sorted_by_key.
  set (c := combine (map key l) (seq 0 (List.length l))).
  assert (H : forall ki, In ki (isort (lex_le str_le) c) -> fst ki = key (nth (snd ki) l [])).
  { intros ki Hk. apply combine_index_nth. eapply Permutation_in; [symmetry; apply isort_perm|exact Hk]. }
  assert (S := isort_sorted (lex_le str_le) c (lex_le_order _ str_le_order)).
  induction S as [|x s Hs IH Hx]; cbn; constructor.
  - apply IH. intros ki Hk. apply H. now right.
  - rewrite Forall_map, Forall_forall in *. intros y Hy. specialize (Hx y Hy).
    rewrite <- (H x (or_introl eq_refl)), <- (H y (or_intror Hy)). unfold leP, lex_le in Hx. now destruct (str_le (fst x) (fst y)).
Qed.
Lemma StronglySorted_rev {A} (R : A -> A -> Prop) l : StronglySorted R l -> StronglySorted (fun a b => R b a) (rev l).
Proof.
  assert (G : forall (S : A -> A -> Prop) l x, StronglySorted S l -> Forall (fun y => S y x) l -> StronglySorted S (l ++ [x])).
  { clear. intros S l x H. induction H as [|y l Hs IH Hy]; intros F; cbn; [repeat constructor|].
    inversion F; subst. constructor; [now apply IH|]. apply Forall_app. auto. }
  induction 1 as [|x l Hs IH Hx]; cbn; [constructor|]. apply G; [assumption|]. rewrite Forall_forall in *. intros y Hy. apply in_rev in Hy. auto.
Qed.
Lemma known_all m l : incl l (dkeys (parts m)) -> forallb (known m) l = true.
Proof.
  intros Hi. apply forallb_forall. intros p Hp. destruct (known_get m l p Hi Hp) as (ct & u & t & E).
  unfold known, tree_for_part. now rewrite E.
Qed.
Lemma timestamp_sort_ok m l : incl l (dkeys (parts m)) -> exists s, sort_parts_list_by_timestamp m l = Ok s /\
  Permutation l s /\ StronglySorted (fun a b => str_le (created_of m b) (created_of m a) = true) s.
Proof.
  intros Hi. unfold sort_parts_list_by_timestamp. destruct l as [|p l]; [exists []; repeat split; constructor|].
  rewrite (known_all m (p :: l) Hi). eexists. split; [reflexivity|]. split.
  - rewrite <- Permutation_rev. apply sorted_by_key_perm.
  - apply StronglySorted_rev. apply sorted_by_key_sorted.
Qed.
Lemma all_known_ok m l : incl l (dkeys (parts m)) -> all_known m l = Ok tt.
Proof.
  intros Hi. induction l as [|p l IH]; [reflexivity|]. cbn. destruct (known_get m (p :: l) p Hi (or_introl eq_refl)) as (ct & u & t & E).
  unfold uuid_for_part. rewrite E. cbn. apply IH. intros x Hx. apply Hi. now right.
Qed.
