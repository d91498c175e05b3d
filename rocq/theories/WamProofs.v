(** WamProofs.v: facts about the unit tables and lemmas for unit conversion. *)
From Verif Require Import QBase StrModel StrProofs WamData WamModel.

(** * Tables *)
Lemma all_uoms_eq : all_uoms = map fst units.
Proof. reflexivity. Qed.
Global Opaque units all_uoms quantities alias_map case_insensitive.
Lemma mem_In s l : mem s l = true <-> In s l.
Proof.
  unfold mem. rewrite existsb_exists. split.
  - intros [x [H E]]. apply str_eqb_eq in E. now subst.
  - intros H. exists s. split; [assumption|apply str_eqb_refl].
Qed.
Lemma assoc_In {A} s (l : list (str * A)) v : assoc s l = Some v -> In (s, v) l.
Proof.
  induction l as [|[k w] l IH]; cbn; [discriminate|]. destruct (str_eqb_spec s k) as [->|N]; [intros [= ->]; now left|intros H; right; auto].
Qed.
Lemma assoc_mem {A} s (l : list (str * A)) : mem s (map fst l) = true <-> exists v, assoc s l = Some v.
Proof.
  induction l as [|[k w] l IH]; cbn; [split; [discriminate|intros [v H]; discriminate]|].
  destruct (str_eqb_spec s k); cbn; [split; eauto|exact IH].
Qed.

Definition good_unit (e : str * (option (str * factors) * str)) : bool :=
  match snd e with
  | (Some (b, (a, b1, c, d)), dim) =>
      Qeq_bool d 0 && (0 <b b1) && (0 <b c) &&
      match assoc b units with Some (None, dim') => str_eqb dim dim' | _ => false end
  | (None, _) => true
  end.
Lemma units_good : forallb good_unit units = true.
Proof. vm_compute. reflexivity. Qed.
Lemma base_units_found : forallb (fun e => match snd e with (None, dim) => match assoc (fst e) units with Some (None, dim') => str_eqb dim dim' | _ => false end | _ => true end) units = true.
Proof. vm_compute. reflexivity. Qed.
Lemma factors_good u b dim a b1 c d : get_conversion_factors u = Ok (b, dim, (a, b1, c, d)) ->
  d == 0 /\ 0 < b1 /\ 0 < c /\ exists o, assoc b units = Some (o, dim).
Proof.
  unfold get_conversion_factors. destruct (assoc u units) as [[[[b' [[[a' b1'] c'] d']]|] dim']|] eqn:E; [|intros H|discriminate].
  - intros H. injection H as <- <- <- <- <- <-. assert (G := proj1 (forallb_forall _ _) units_good _ (assoc_In _ _ _ E)).
    unfold good_unit in G. cbn [snd] in G. rewrite !andb_true_iff in G. destruct G as [[[G1 G2] G3] G4].
    apply Qeq_bool_eq in G1. apply Qltb_iff in G2, G3. repeat split; auto.
    destruct (assoc b' units) as [[[?|] dim'']|]; try discriminate. apply str_eqb_eq in G4. subst. eauto.
  - injection H as <- <- <- <- <- <-. repeat split; try reflexivity. eauto.
Qed.
Lemma same_base_same_dim u v b dim dim' f f' : get_conversion_factors u = Ok (b, dim, f) -> get_conversion_factors v = Ok (b, dim', f') -> dim = dim'.
Proof.
  destruct f as [[[? ?] ?] ?], f' as [[[? ?] ?] ?]. intros H H'.
  destruct (factors_good _ _ _ _ _ _ _ H) as (_ & _ & _ & o & E). destruct (factors_good _ _ _ _ _ _ _ H') as (_ & _ & _ & o' & E'). congruence.
Qed.
Lemma in_table u : mem u all_uoms = true -> exists r, get_conversion_factors u = Ok r.
Proof.
  intros H. rewrite all_uoms_eq in H. apply assoc_mem in H. destruct H as [[[[b f]|] dim] H]; unfold get_conversion_factors; rewrite H; eauto.
Qed.

(** * Recognising units *)
Definition tidy (u : str) : bool := negb (str_eqb u []) && str_eqb (strip is_space u) u.
Lemma tables_valid :
  forallb tidy all_uoms = true /\ forallb (fun u => mem u all_uoms) case_insensitive = true /\
  forallb (fun e => mem (snd e) all_uoms) alias_map = true.
Proof. repeat split; vm_compute; reflexivity. Qed.
Lemma try_parse_valid : forall fuel s u, try_parse fuel s = Some u -> mem u all_uoms = true.
Proof.
  destruct tables_valid as [_ [V1 V2]].
  induction fuel as [|fuel IH]; intros s u; [discriminate|]. cbn [try_parse].
  destruct (mem s all_uoms) eqn:E1; [now intros [= <-]|].
  destruct (mem (lower s) case_insensitive) eqn:E2.
  { intros [= <-]. apply (proj1 (forallb_forall _ _) V1). now apply mem_In. }
  destruct (assoc (lower s) alias_map) as [u'|] eqn:E3.
  { intros [= <-]. exact (proj1 (forallb_forall _ _) V2 _ (assoc_In _ _ _ E3)). }
  destruct (mem (lower s) all_uoms) eqn:E4; [now intros [= <-]|].
  destruct (bracketed s); [apply IH|]. destruct (find_chr slash s) as [k|]; [|discriminate].
  destruct (try_parse fuel (upto s k)) as [l|]; [|discriminate]. destruct (try_parse fuel (from s (S k))) as [l0|]; [|discriminate].
  destruct (_ && _); [|discriminate]. destruct (mem (l ++ slash :: l0) all_uoms) eqn:E5; [intros [= <-]; exact E5|intros [=]].
Qed.
Lemma try_parse_self u : mem u all_uoms = true -> try_parse_unit u = Some u.
Proof. intros H. unfold try_parse_unit. cbn [try_parse]. now rewrite H. Qed.

(** the fuel always suffices *)
Lemma parse_fuel : forall n s f f', (List.length s <= n)%nat -> (List.length s < f)%nat -> (List.length s < f')%nat -> try_parse f s = try_parse f' s.
Proof.
  induction n as [|n IH]; intros s f f' Hn Hf Hf'.
  - destruct s; [|cbn in Hn; lia]. destruct f as [|f], f' as [|f']; try (cbn in *; lia). reflexivity.
  - destruct f as [|f], f' as [|f']; try lia. cbn [try_parse].
    destruct (mem s all_uoms); [reflexivity|]. destruct (mem (lower s) case_insensitive); [reflexivity|].
    destruct (assoc (lower s) alias_map); [reflexivity|]. destruct (mem (lower s) all_uoms); [reflexivity|].
    destruct (bracketed s) eqn:Eb.
    + assert (H2 : (2 <= List.length s)%nat).
      { unfold bracketed in Eb. rewrite !andb_true_iff in Eb. destruct Eb as [[B1 B2] B3].
        apply startswith_iff in B1. destruct B1 as [t ->]. apply endswith_iff in B2. destruct B2 as [t' E].
        destruct t as [|c t]; [|cbn; lia]. destruct t' as [|c' t']; cbn in E; [discriminate|]. injection E as _ E. destruct t'; discriminate. }
      assert (H3 : (List.length (upto (from s 1) (List.length s - 2)) <= List.length s - 2)%nat) by (unfold upto; rewrite firstn_length; lia).
      apply IH; lia.
    + destruct (find_chr slash s) as [k|] eqn:Ek; [|reflexivity].
      apply find_chr_some in Ek. destruct Ek as (a & b & -> & <- & _).
      assert (L1 : upto (a ++ slash :: b) (List.length a) = a) by (apply firstn_app_exact; reflexivity).
      assert (L2 : from (a ++ slash :: b) (S (List.length a)) = b).
      { unfold from. replace (a ++ slash :: b) with ((a ++ [slash]) ++ b) by (now rewrite <- app_assoc). apply skipn_app_exact. rewrite app_length. cbn. lia. }
      rewrite L1, L2. rewrite app_length in Hn, Hf, Hf'. cbn [List.length] in Hn, Hf, Hf'.
      rewrite (IH a f f'), (IH b f f') by lia. reflexivity.
Qed.

Lemma strip_valid u : mem u all_uoms = true -> strip is_space u = u /\ u <> [].
Proof.
  intros H. apply mem_In in H. assert (G := proj1 (forallb_forall _ _) (proj1 tables_valid) _ H).
  unfold tidy in G. apply andb_true_iff in G. destruct G as [G1 G2]. apply str_eqb_eq in G2. split; [assumption|]. intros ->. discriminate.
Qed.
Lemma rq_uom_valid s q u : rq_uom s q = Ok u -> mem u all_uoms = true.
Proof.
  unfold rq_uom. destruct (str_eqb s []); [discriminate|]. destruct (try_parse_unit (strip is_space s)) as [u'|] eqn:E; [|discriminate].
  intros H. assert (u' = u).
  { destruct q as [q|]; [|now injection H]. destruct (valid_uoms (Some q)); cbn in H; [|discriminate]. destruct (mem u' a); [now injection H|discriminate]. }
  subst. eapply try_parse_valid. exact E.
Qed.
Definition Supported (q : option str) (u : str) : Prop :=
  match q with None => In u all_uoms | Some _ => exists l, valid_uoms q = Ok l /\ In u l end.
Lemma rq_uom_self u q : In u all_uoms -> Supported q u -> rq_uom u q = Ok u.
Proof.
  intros V H. apply mem_In in V. destruct (strip_valid u V) as [S N]. unfold rq_uom.
  destruct (str_eqb_spec u []); [contradiction|]. rewrite S, (try_parse_self u V).
  destruct q as [q|]; [|reflexivity]. destruct H as [l [E I]]. rewrite E. cbn. apply mem_In in I. now rewrite I.
Qed.
Lemma supported_valid q u : Supported q u -> In u all_uoms.
Proof.
  destruct q as [q|]; [|auto]. intros [l [E H]]. cbn in E. destruct (str_eqb q []); [injection E as <-; assumption|].
  destruct (assoc q quantities); [|discriminate]. injection E as <-. apply filter_In in H. tauto.
Qed.
Lemma rq_uom_supported s q u : rq_uom s q = Ok u -> Supported q u.
Proof.
  intros H. assert (V := rq_uom_valid _ _ _ H). revert H. unfold rq_uom. destruct (str_eqb s []); [discriminate|].
  destruct (try_parse_unit (strip is_space s)) as [u'|]; [|discriminate].
  destruct q as [q|]; intros H; [|injection H as <-; now apply mem_In].
  destruct (valid_uoms (Some q)) as [l|] eqn:E; cbn in H; [|discriminate]. destruct (mem u' l) eqn:Em; [|discriminate].
  injection H as <-. exists l. split; [assumption|now apply mem_In].
Qed.

(** * Conversion *)
(** the documented formula for the value in the base unit *)
Definition base_value (u : str) (x v : Q) : Prop :=
  exists b dim a b1 c d, get_conversion_factors u = Ok (b, dim, (a, b1, c, d)) /\ ~ c + d * x == 0 /\ v == (a + b1 * x) / (c + d * x).
Definition dimension (u : str) : option str := match assoc u units with Some (_, d) => Some d | None => None end.
Definition offset_free (u : str) : Prop := exists b dim b1 c d, exists a, get_conversion_factors u = Ok (b, dim, (a, b1, c, d)) /\ a == 0.

Lemma gcf_dim u b dim f : get_conversion_factors u = Ok (b, dim, f) -> dimension u = Some dim.
Proof. unfold get_conversion_factors, dimension. destruct (assoc u units) as [[[[? ?]|] ?]|]; intros [= <- <- <-]; reflexivity. Qed.
Lemma qdiv_ok a b : ~ b == 0 -> qdiv a b = Ok (a / b).
Proof. intros H. unfold qdiv. destruct (Qeq_bool b 0) eqn:E; [|reflexivity]. apply Qeq_bool_eq in E. contradiction. Qed.
Lemma qdiv_inv a b y : qdiv a b = Ok y -> ~ b == 0 /\ y = a / b.
Proof. unfold qdiv. destruct (Qeq_bool b 0) eqn:E; [discriminate|]. intros [= <-]. split; [now apply Qeq_bool_neq|reflexivity]. Qed.

(** the value in unit t of x in unit f, from their factors *)
Definition conv (a1 b1 c1 a2 b2 c2 x : Q) : Q := (c2 * ((a1 + b1 * x) / c1) - a2) / b2.
Lemma convert_units u v x b1 dim1 A1 B1 C1 D1 b2 dim2 A2 B2 C2 D2 inplace :
  get_conversion_factors u = Ok (b1, dim1, (A1, B1, C1, D1)) -> get_conversion_factors v = Ok (b2, dim2, (A2, B2, C2, D2)) ->
  dim1 = dim2 -> (inplace = true -> A1 == 0 /\ A2 == 0) ->
  exists y, y == conv A1 B1 C1 A2 B2 C2 x /\
  (if negb (str_eqb b1 b2) && negb (str_eqb dim1 dim2) then Err IncompatibleUnitsError
    else if negb inplace then
      do y <- qdiv (A1 + B1 * x) (C1 + D1 * x);
      qdiv (A2 - C2 * y) (D2 * y - B2)
    else if existsb (fun f => negb (Qeq_bool f 0)) [A1; A2; D1; D2] then Err NotImplementedError
    else
      do factor <- qdiv (B1 * C2) (C1 * B2);
      Ok (x * factor)) = Ok y.
Proof.
  intros H1 H2 -> Hi. destruct (factors_good _ _ _ _ _ _ _ H1) as (Z1 & P1 & Q1 & _). destruct (factors_good _ _ _ _ _ _ _ H2) as (Z2 & P2 & Q2 & _).
  rewrite str_eqb_refl, andb_false_r. destruct inplace; cbn [negb].
  - destruct (Hi eq_refl) as [Y1 Y2]. cbn [existsb]. rewrite (Qeq_eq_bool _ _ Y1), (Qeq_eq_bool _ _ Y2), (Qeq_eq_bool _ _ Z1), (Qeq_eq_bool _ _ Z2). cbn [negb orb].
    rewrite qdiv_ok by (intros E; assert (0 < C1 * B2) by (apply Qmult_lt_0_compat; assumption); lra). cbn [bind]. eexists. split; [|reflexivity].
    unfold conv. rewrite Y1, Y2. field. split; lra.
  - rewrite qdiv_ok by (rewrite Z1; lra). cbn [bind]. rewrite qdiv_ok by (rewrite Z2; lra). eexists. split; [|reflexivity].
    unfold conv. rewrite Z1, Z2. field. repeat split; lra.
Qed.
Lemma conv_id a b c x : 0 < b -> 0 < c -> conv a b c a b c x == x.
Proof. intros. unfold conv. field. split; lra. Qed.
Lemma conv_conv a1 b1 c1 a2 b2 c2 a3 b3 c3 x : 0 < b1 -> 0 < c1 -> 0 < b2 -> 0 < c2 -> 0 < b3 -> 0 < c3 ->
  conv a2 b2 c2 a3 b3 c3 (conv a1 b1 c1 a2 b2 c2 x) == conv a1 b1 c1 a3 b3 c3 x.
Proof. intros. unfold conv. field. repeat split; lra. Qed.
Lemma conv_ext a1 b1 c1 a2 b2 c2 x x' : x == x' -> conv a1 b1 c1 a2 b2 c2 x == conv a1 b1 c1 a2 b2 c2 x'.
Proof. intros H. unfold conv. now rewrite H. Qed.

(** Everything about one call: the units recognised, and either they are the same or they
    have the same dimension and, in place, no offset. *)
Lemma convert_inv x f t q i y : convert x f t q i = Ok y ->
  exists u v b1 dim a1 s1 c1 d1 b2 a2 s2 c2 d2, rq_uom f q = Ok u /\ rq_uom t q = Ok v /\
    get_conversion_factors u = Ok (b1, dim, (a1, s1, c1, d1)) /\ get_conversion_factors v = Ok (b2, dim, (a2, s2, c2, d2)) /\
    y == conv a1 s1 c1 a2 s2 c2 x /\ (u = v \/ (i = true -> a1 == 0 /\ a2 == 0)).
Proof.
  unfold convert. destruct (rq_uom f q) as [u|] eqn:Eu; [|discriminate]. cbn [bind]. destruct (rq_uom t q) as [v|] eqn:Ev; [|discriminate]. cbn [bind].
  destruct (in_table u (rq_uom_valid _ _ _ Eu)) as [[[b1 dim1] [[[a1 s1] c1] d1]] G1].
  destruct (in_table v (rq_uom_valid _ _ _ Ev)) as [[[b2 dim2] [[[a2 s2] c2] d2]] G2].
  assert (F1 := factors_good _ _ _ _ _ _ _ G1). assert (F2 := factors_good _ _ _ _ _ _ _ G2).
  destruct (str_eqb_spec u v) as [->|N].
  - intros [= <-]. rewrite G1 in G2. injection G2 as -> -> -> -> -> ->. exists v, v. repeat eexists; eauto. symmetry. apply conv_id; tauto.
  - rewrite G1, G2. cbn [bind]. intros H.
    assert (D : dim1 = dim2).
    { destruct (str_eqb_spec b1 b2) as [->|Nb]; [exact (same_base_same_dim _ _ _ _ _ _ _ G1 G2)|].
      destruct (str_eqb_spec dim1 dim2); [assumption|discriminate H]. }
    subst dim2. assert (I : i = true -> a1 == 0 /\ a2 == 0).
    { intros ->. rewrite str_eqb_refl, andb_false_r in H. cbn [negb existsb] in H.
      destruct (Qeq_bool a1 0) eqn:E1; [|discriminate]. destruct (Qeq_bool a2 0) eqn:E2; [|discriminate].
      split; now apply Qeq_bool_eq. }
    destruct (convert_units u v x _ _ _ _ _ _ _ _ _ _ _ _ i G1 G2 eq_refl I) as [y' [Ey E]]. rewrite E in H. injection H as <-.
    exists u, v. repeat eexists; eauto.
Qed.
Lemma convert_fwd x f t q i u v b1 dim a1 s1 c1 d1 b2 a2 s2 c2 d2 : rq_uom f q = Ok u -> rq_uom t q = Ok v ->
  get_conversion_factors u = Ok (b1, dim, (a1, s1, c1, d1)) -> get_conversion_factors v = Ok (b2, dim, (a2, s2, c2, d2)) ->
  (u = v \/ (i = true -> a1 == 0 /\ a2 == 0)) ->
  exists y, convert x f t q i = Ok y /\ y == conv a1 s1 c1 a2 s2 c2 x.
Proof.
  intros Eu Ev G1 G2 H. unfold convert. rewrite Eu, Ev. cbn [bind]. destruct (str_eqb_spec u v) as [->|N].
  - rewrite G1 in G2. injection G2 as -> -> -> -> ->. exists x. split; [reflexivity|]. symmetry.
    destruct (factors_good _ _ _ _ _ _ _ G1) as (_ & ? & ? & _). apply conv_id; assumption.
  - destruct H as [H|H]; [contradiction|]. rewrite G1, G2. cbn [bind].
    destruct (convert_units u v x _ _ _ _ _ _ _ _ _ _ _ _ i G1 G2 eq_refl H) as [y [Ey E]]. exists y. auto.
Qed.
