(** WamProps.v: theorems for C56 (unit conversion) and C57 (recognition of units). *)
From Verif Require Import QBase StrModel StrProofs WamData WamModel WamProofs.

(** * C56 *)
(** The value expressed in the base unit, by the documented formula (A + Bx)/(C + Dx), is
    the same before and after. *)
Theorem C56_base_value_is_kept x f t q i y : convert x f t q i = Ok y ->
  exists u v b, rq_uom f q = Ok u /\ rq_uom t q = Ok v /\ base_value u x b /\ base_value v y b.
Proof.
  intros H. destruct (convert_inv _ _ _ _ _ _ H) as (u & v & b1 & dim & a1 & s1 & c1 & d1 & b2 & a2 & s2 & c2 & d2 & E1 & E2 & G1 & G2 & E & _).
  destruct (factors_good _ _ _ _ _ _ _ G1) as (Z1 & P1 & R1 & _). destruct (factors_good _ _ _ _ _ _ _ G2) as (Z2 & P2 & R2 & _).
  exists u, v, ((a1 + s1 * x) / c1). split; [assumption|]. split; [assumption|]. split.
  - exists b1, dim, a1, s1, c1, d1. split; [assumption|]. split; [rewrite Z1; lra|]. rewrite Z1. field. lra.
  - exists b2, dim, a2, s2, c2, d2. split; [assumption|]. split; [rewrite Z2; lra|]. rewrite Z2, E. unfold conv. field. repeat split; lra.
Qed.
Print Assumptions C56_base_value_is_kept.

Theorem C56_round_trip x f t q i y : convert x f t q i = Ok y -> exists x', convert y t f q i = Ok x' /\ x' == x.
Proof.
  intros H. destruct (convert_inv _ _ _ _ _ _ H) as (u & v & b1 & dim & a1 & s1 & c1 & d1 & b2 & a2 & s2 & c2 & d2 & E1 & E2 & G1 & G2 & E & I).
  destruct (factors_good _ _ _ _ _ _ _ G1) as (_ & P1 & R1 & _). destruct (factors_good _ _ _ _ _ _ _ G2) as (_ & P2 & R2 & _).
  destruct (convert_fwd y t f q i v u _ _ _ _ _ _ _ _ _ _ _ E2 E1 G2 G1) as [x' [H' E']].
  - destruct I as [I|I]; [left; now symmetry|right; intros Hi; destruct (I Hi); now split].
  - exists x'. split; [assumption|]. rewrite E', (conv_ext _ _ _ _ _ _ _ _ E), conv_conv, conv_id by assumption. reflexivity.
Qed.
Print Assumptions C56_round_trip.

(** Going by way of another unit makes no difference. *)
Theorem C56_by_way_of_another_unit x f t w q i j k y z : convert x f t q i = Ok y -> convert y t w q j = Ok z ->
  (k = true -> i = true /\ j = true) -> exists z', convert x f w q k = Ok z' /\ z' == z.
Proof.
  intros H H' Hk. destruct (convert_inv _ _ _ _ _ _ H) as (u & v & b1 & dim & a1 & s1 & c1 & d1 & b2 & a2 & s2 & c2 & d2 & E1 & E2 & G1 & G2 & E & I).
  destruct (convert_inv _ _ _ _ _ _ H') as (v' & o & b3 & dim' & a3 & s3 & c3 & d3 & b4 & a4 & s4 & c4 & d4 & E3 & E4 & G3 & G4 & E' & I').
  rewrite E2 in E3. injection E3 as <-. rewrite G2 in G3. injection G3 as <- <- <- <- <- <-.
  destruct (factors_good _ _ _ _ _ _ _ G1) as (_ & P1 & R1 & _). destruct (factors_good _ _ _ _ _ _ _ G2) as (_ & P2 & R2 & _). destruct (factors_good _ _ _ _ _ _ _ G4) as (_ & P4 & R4 & _).
  destruct (convert_fwd x f w q k u o _ _ _ _ _ _ _ _ _ _ _ E1 E4 G1 G4) as [z' [H'' E'']].
  - destruct (str_eqb_spec u o) as [->|N]; [now left|]. right. intros ->. destruct (Hk eq_refl) as [-> ->].
    destruct I as [->|I], I' as [->|I'].
    + congruence.
    + rewrite G1 in G2. injection G2 as -> -> -> -> ->. auto.
    + rewrite G4 in G2. injection G2 as -> -> -> -> ->. auto.
    + split; [now apply I|now apply I'].
  - exists z'. split; [assumption|]. rewrite E'', E', (conv_ext _ _ _ _ _ _ _ _ E), conv_conv by assumption. reflexivity.
Qed.
Print Assumptions C56_by_way_of_another_unit.

(** Converting in place gives the same numbers. *)
Theorem C56_in_place_agrees x f t q y : convert x f t q true = Ok y -> exists y', convert x f t q false = Ok y' /\ y' == y.
Proof.
  intros H. destruct (convert_inv _ _ _ _ _ _ H) as (u & v & b1 & dim & a1 & s1 & c1 & d1 & b2 & a2 & s2 & c2 & d2 & E1 & E2 & G1 & G2 & E & I).
  destruct (convert_fwd x f t q false u v _ _ _ _ _ _ _ _ _ _ _ E1 E2 G1 G2) as [y' [H' E']]; [right; discriminate|].
  exists y'. split; [assumption|]. now rewrite E', E.
Qed.
Print Assumptions C56_in_place_agrees.

(** When a conversion is possible: both units are recognised (and allowed for the quantity)
    and have the same dimension; in place, neither has an offset. *)
Theorem C56_when_possible x f t q i :
  is_ok (convert x f t q i) = true <->
  exists u v, rq_uom f q = Ok u /\ rq_uom t q = Ok v /\ dimension u = dimension v /\ (u = v \/ (i = true -> offset_free u /\ offset_free v)).
Proof.
  split.
  - destruct (convert x f t q i) as [y|] eqn:H; [|discriminate]. intros _.
    destruct (convert_inv _ _ _ _ _ _ H) as (u & v & b1 & dim & a1 & s1 & c1 & d1 & b2 & a2 & s2 & c2 & d2 & E1 & E2 & G1 & G2 & E & I).
    exists u, v. rewrite (gcf_dim _ _ _ _ G1), (gcf_dim _ _ _ _ G2). repeat split; auto. destruct I as [I|I]; [now left|right].
    intros Hi. destruct (I Hi). split; [exists b1, dim, s1, c1, d1, a1|exists b2, dim, s2, c2, d2, a2]; auto.
  - intros (u & v & E1 & E2 & D & I).
    destruct (in_table u (rq_uom_valid _ _ _ E1)) as [[[b1 dim1] [[[a1 s1] c1] d1]] G1].
    destruct (in_table v (rq_uom_valid _ _ _ E2)) as [[[b2 dim2] [[[a2 s2] c2] d2]] G2].
    rewrite (gcf_dim _ _ _ _ G1), (gcf_dim _ _ _ _ G2) in D. injection D as <-.
    destruct (convert_fwd x f t q i u v _ _ _ _ _ _ _ _ _ _ _ E1 E2 G1 G2) as [y [H _]].
    + destruct I as [I|I]; [now left|right]. intros Hi. destruct (I Hi) as [(? & ? & ? & ? & ? & ? & A1 & Z1) (? & ? & ? & ? & ? & ? & A2 & Z2)].
      rewrite G1 in A1. rewrite G2 in A2. injection A1 as _ _ -> _ _ _. injection A2 as _ _ -> _ _ _. auto.
    + now rewrite H.
Qed.
Print Assumptions C56_when_possible.

(** Only the two temperature scales have an offset. *)
Theorem C56_offsets u : In u all_uoms -> ~ offset_free u -> u = L "degC" \/ u = L "degF".
Proof.
  intros V N. apply mem_In in V. rewrite all_uoms_eq in V. apply assoc_mem in V. destruct V as [[[[b [[[a b1] c] d]]|] dim] E].
  - assert (T : forallb (fun e => match snd e with (Some (_, (a, _, _, _)), _) => Qeq_bool a 0 || str_eqb (fst e) (L "degC") || str_eqb (fst e) (L "degF") | _ => true end) units = true)
      by (vm_compute; reflexivity).
    assert (G := proj1 (forallb_forall _ _) T _ (assoc_In _ _ _ E)). cbn [fst snd] in G. rewrite !orb_true_iff in G. destruct G as [[G|G]|G].
    + exfalso. apply N. exists b, dim, b1, c, d, a. split; [|now apply Qeq_bool_eq]. unfold get_conversion_factors. now rewrite E.
    + left. now apply str_eqb_eq.
    + right. now apply str_eqb_eq.
  - exfalso. apply N. exists u, dim, 1, 1, 0, 0. split; [|reflexivity]. unfold get_conversion_factors. now rewrite E.
Qed.
Print Assumptions C56_offsets.

Theorem C56_strictly_increasing x x' f t q i y y' : convert x f t q i = Ok y -> convert x' f t q i = Ok y' -> (x < x' <-> y < y').
Proof.
  intros H H'. destruct (convert_inv _ _ _ _ _ _ H) as (u & v & b1 & dim & a1 & s1 & c1 & d1 & b2 & a2 & s2 & c2 & d2 & E1 & E2 & G1 & G2 & E & _).
  destruct (convert_inv _ _ _ _ _ _ H') as (u' & v' & b1' & dim' & a1' & s1' & c1' & d1' & b2' & a2' & s2' & c2' & d2' & E1' & E2' & G1' & G2' & E' & _).
  rewrite E1 in E1'. rewrite E2 in E2'. injection E1' as <-. injection E2' as <-. rewrite G1 in G1'. rewrite G2 in G2'.
  injection G1' as <- <- <- <- <- <-. injection G2' as <- <- <- <- <-.
  destruct (factors_good _ _ _ _ _ _ _ G1) as (_ & P1 & R1 & _). destruct (factors_good _ _ _ _ _ _ _ G2) as (_ & P2 & R2 & _).
  assert (D : y' - y == (c2 * s1) / (c1 * s2) * (x' - x)) by (rewrite E, E'; unfold conv; field; split; lra).
  assert (K : 0 < (c2 * s1) / (c1 * s2)).
  { apply Qlt_shift_div_l; [apply Qmult_lt_0_compat; assumption|]. rewrite Qmult_0_l. apply Qmult_lt_0_compat; assumption. }
  revert D K. generalize ((c2 * s1) / (c1 * s2)). intros k D K. split; intros L; nra.
Qed.
Print Assumptions C56_strictly_increasing.

(** All units of one quantity can be converted into each other. *)
Lemma one_dimension : forallb (fun e => match snd e with [] => true | u :: l => forallb (fun v => match dimension u, dimension v with Some a, Some b => str_eqb a b | _, _ => false end) (u :: l) end) quantities = true.
Proof. vm_compute. reflexivity. Qed.
Theorem C56_units_of_a_quantity x q l u v : q <> [] -> valid_uoms (Some q) = Ok l -> In u l -> In v l -> exists y, convert x u v (Some q) false = Ok y.
Proof.
  intros Nq E Iu Iv. assert (R : forall w, In w l -> rq_uom w (Some q) = Ok w).
  { intros w I. assert (S : Supported (Some q) w) by (exists l; auto). apply rq_uom_self; [exact (supported_valid _ _ S)|exact S]. }
  assert (G : is_ok (convert x u v (Some q) false) = true).
  { apply C56_when_possible. exists u, v. split; [now apply R|]. split; [now apply R|]. split; [|right; discriminate].
    unfold valid_uoms in E. destruct (str_eqb_spec q []); [contradiction|]. destruct (assoc q quantities) as [ms|] eqn:Eq; [|discriminate].
    injection E as <-. apply filter_In in Iu. apply filter_In in Iv. destruct Iu as [_ Iu], Iv as [_ Iv]. apply mem_In in Iu, Iv.
    assert (T := proj1 (forallb_forall _ _) one_dimension _ (assoc_In _ _ _ Eq)). cbn [snd] in T. destruct ms as [|m ms]; [destruct Iu|].
    assert (Tu := proj1 (forallb_forall _ _) T _ Iu). assert (Tv := proj1 (forallb_forall _ _) T _ Iv). cbv beta in Tu, Tv.
    destruct (dimension m); [|discriminate]. destruct (dimension u); [|discriminate]. destruct (dimension v); [|discriminate].
    apply str_eqb_eq in Tu, Tv. congruence. }
  destruct (convert x u v (Some q) false); [eauto|discriminate].
Qed.
Print Assumptions C56_units_of_a_quantity.

(** The functions for one quantity: any two valid units, in place, and back again. *)
Lemma no_offsets : forallb (fun q => match assoc (L q) quantities with Some ms => forallb (fun u => match get_conversion_factors u with Ok (_, _, (a, _, _, _)) => Qeq_bool a 0 | _ => false end) ms | None => false end)
  ["length"; "time"; "pressure"; "volume"; "volume per time"]%string = true.
Proof. vm_compute. reflexivity. Qed.
Lemma in_place_ok q x u v l : In q ["length"; "time"; "pressure"; "volume"; "volume per time"]%string -> valid_uoms (Some (L q)) = Ok l -> In u l -> In v l ->
  exists y, convert x u v (Some (L q)) true = Ok y.
Proof.
  intros Iq E Iu Iv. assert (Nq : L q <> []) by (repeat destruct Iq as [<-|Iq]; [discriminate..|destruct Iq]).
  destruct (C56_units_of_a_quantity x (L q) l u v Nq E Iu Iv) as [y H]. destruct (convert_inv _ _ _ _ _ _ H) as (u' & v' & b1 & dim & a1 & s1 & c1 & d1 & b2 & a2 & s2 & c2 & d2 & E1 & E2 & G1 & G2 & _ & _).
  assert (R : forall w, In w l -> rq_uom w (Some (L q)) = Ok w).
  { intros w I. assert (S : Supported (Some (L q)) w) by (exists l; auto). apply rq_uom_self; [exact (supported_valid _ _ S)|exact S]. }
  assert (T := proj1 (forallb_forall _ _) no_offsets _ Iq). cbv beta in T.
  unfold valid_uoms in E. destruct (str_eqb_spec (L q) []); [contradiction|]. destruct (assoc (L q) quantities) as [ms|] eqn:Eq; [|discriminate].
  injection E as E. assert (E1' := eq_trans (eq_sym (R u Iu)) E1). assert (E2' := eq_trans (eq_sym (R v Iv)) E2). injection E1' as <-. injection E2' as <-.
  assert (Z : forall w b dm a s c d, In w l -> get_conversion_factors w = Ok (b, dm, (a, s, c, d)) -> a == 0).
  { intros w b dm a s c d I G. rewrite <- E in I. apply filter_In in I. destruct I as [_ I]. apply mem_In in I.
    assert (Tw := proj1 (forallb_forall _ _) T _ I). cbv beta in Tw. rewrite G in Tw. now apply Qeq_bool_eq. }
  destruct (convert_fwd x u v (Some (L q)) true u v _ _ _ _ _ _ _ _ _ _ _ (R u Iu) (R v Iv) G1 G2) as [y' [H' _]]; [right; split; eauto|]. eauto.
Qed.
Definition same_amount (x : Q) (u : str) (y : Q) (v : str) : Prop := exists b, base_value u x b /\ base_value v y b.
Theorem C56_lengths_and_times x u v l : 
  (valid_uoms (Some (L "length")) = Ok l -> In u l -> In v l -> exists y x', convert_lengths x u v = Ok y /\ convert_lengths y v u = Ok x' /\ x' == x /\ same_amount x u y v) /\
  (valid_uoms (Some (L "time")) = Ok l -> In u l -> In v l -> exists y x', convert_times x u v false = Ok y /\ convert_times y u v true = Ok x' /\ x' == x /\ same_amount x u y v) /\
  (valid_uoms (Some (L "pressure")) = Ok l -> In u l -> In v l -> exists y x', convert_pressures x u v = Ok y /\ convert_pressures y v u = Ok x' /\ x' == x /\ same_amount x u y v) /\
  (valid_uoms (Some (L "volume")) = Ok l -> In u l -> In v l -> exists y x', convert_volumes x u v = Ok y /\ convert_volumes y v u = Ok x' /\ x' == x /\ same_amount x u y v) /\
  (valid_uoms (Some (L "volume per time")) = Ok l -> In u l -> In v l -> exists y x', convert_flow_rates x u v = Ok y /\ convert_flow_rates y v u = Ok x' /\ x' == x /\ same_amount x u y v).
Proof.
  assert (G : forall q, In q ["length"; "time"; "pressure"; "volume"; "volume per time"]%string -> valid_uoms (Some (L q)) = Ok l -> In u l -> In v l ->
    exists y x', convert x u v (Some (L q)) true = Ok y /\ convert y v u (Some (L q)) true = Ok x' /\ x' == x /\ same_amount x u y v).
  { intros q Iq E Iu Iv. destruct (in_place_ok q x u v l Iq E Iu Iv) as [y H]. destruct (C56_round_trip _ _ _ _ _ _ H) as [x' [H' E']]. exists y, x'. repeat (split; [assumption|]).
    destruct (C56_base_value_is_kept _ _ _ _ _ _ H) as (u' & v' & b & E1 & E2 & B1 & B2). exists b.
    assert (R : forall w, In w l -> rq_uom w (Some (L q)) = Ok w).
    { intros w I. assert (S : Supported (Some (L q)) w) by (exists l; auto). apply rq_uom_self; [exact (supported_valid _ _ S)|exact S]. }
    assert (E1' := eq_trans (eq_sym (R u Iu)) E1). assert (E2' := eq_trans (eq_sym (R v Iv)) E2). injection E1' as <-. injection E2' as <-. auto. }
  repeat split; intros E Iu Iv.
  - apply (G "length"%string); auto. now left.
  - apply (G "time"%string); auto. right. now left.
  - apply (G "pressure"%string); auto. do 2 right. now left.
  - apply (G "volume"%string); auto. do 3 right. now left.
  - apply (G "volume per time"%string); auto. do 4 right. now left.
Qed.
Print Assumptions C56_lengths_and_times.

Example C56_feet : exists y, convert_lengths 1000 (L "ft") (L "metres") = Ok y /\ y == 3048 # 10.
Proof. eexists. split; [vm_compute; reflexivity|]. vm_compute. reflexivity. Qed.
Example C56_boiling : exists y, convert 212 (L "degF") (L "degC") None false = Ok y /\ y == 100.
Proof. eexists. split; [vm_compute; reflexivity|]. vm_compute. reflexivity. Qed.

(** * Transmissibility units *)
Lemma find_sub_app p a b : p <> [] -> (forall a1 a2, a = a1 ++ a2 -> a2 <> [] -> startswith (a2 ++ p ++ b) p = false) -> find_sub p (a ++ p ++ b) = Some (List.length a).
Proof.
  intros Np. induction a as [|c a IH]; intros H.
  - cbn [app]. destruct (p ++ b) as [|c l] eqn:E; [destruct p; [contradiction|discriminate]|]. cbn [find_sub]. rewrite <- E, startswith_app. reflexivity.
  - cbn [app find_sub]. assert (S0 := H [] (c :: a) eq_refl ltac:(discriminate)). cbn [app] in S0. rewrite S0.
    rewrite IH; [reflexivity|]. intros a1 a2 E N. apply (H (c :: a1) a2); [cbn; now rewrite E|assumption].
Qed.
(** No "." in the volume unit, no "/(" in the viscosity unit, no "." in the time unit: the
    four parts are found again. *)
Theorem C56_transmissibility_parts a b c d : a <> [] -> b <> [] -> c <> [] -> ~ In dot_chr a -> ~ In dot_chr d ->
  contains b [slash; open_bracket] = false -> ~ In open_bracket a ->
  uom_components (a ++ dot_chr :: b ++ [slash; open_bracket] ++ c ++ dot_chr :: d ++ [close_bracket]) = Ok (a, b, c, d).
Proof.
  intros Na Nb Nc Da Dd Cb Ca. unfold uom_components.
  set (u := a ++ dot_chr :: b ++ [slash; open_bracket] ++ c ++ dot_chr :: d ++ [close_bracket]).
  assert (P1 : find_chr dot_chr u = Some (List.length a)) by (now apply find_chr_app).
  assert (P3 : rfind_chr dot_chr u = Some (List.length (a ++ dot_chr :: b ++ [slash; open_bracket] ++ c))).
  { unfold u. replace (a ++ dot_chr :: b ++ [slash; open_bracket] ++ c ++ dot_chr :: d ++ [close_bracket])
      with ((a ++ dot_chr :: b ++ [slash; open_bracket] ++ c) ++ dot_chr :: (d ++ [close_bracket])) by (cbn [app]; rewrite <- !app_assoc; cbn [app]; rewrite <- !app_assoc; reflexivity).
    apply rfind_chr_app. rewrite in_app_iff. intros [H|[H|[]]]; [contradiction|discriminate]. }
  assert (P2 : find_sub [slash; open_bracket] u = Some (List.length (a ++ dot_chr :: b))).
  { unfold u. replace (a ++ dot_chr :: b ++ [slash; open_bracket] ++ c ++ dot_chr :: d ++ [close_bracket])
      with ((a ++ dot_chr :: b) ++ [slash; open_bracket] ++ (c ++ dot_chr :: d ++ [close_bracket])) by (rewrite <- app_assoc; reflexivity).
    apply find_sub_app; [discriminate|]. intros a1 a2 E N2.
    destruct (startswith (a2 ++ [slash; open_bracket] ++ c ++ dot_chr :: d ++ [close_bracket]) [slash; open_bracket]) eqn:S; [|reflexivity].
    exfalso. apply startswith_iff in S. destruct S as [t S].
    destruct a2 as [|c1 a2]; [contradiction|]. injection S as -> S. destruct a2 as [|c2 a2].
    - (* slash is the last character of b *) cbn in S. injection S as S _. discriminate.
    - injection S as -> S. clear S.
      (* a2 = / ( a2 sits within a ++ . b *)
      assert (G : exists b1 b2, b = b1 ++ slash :: open_bracket :: b2).
      { clear - E Ca. revert a1 E. induction a as [|x a IH]; intros a1 E.
        - destruct a1 as [|y a1]; cbn in E; [discriminate|]. injection E as _ ->. eauto.
        - destruct a1 as [|y a1].
          + cbn in E. injection E as -> E. destruct a as [|z a]; cbn in E; [discriminate|]. injection E as -> _. exfalso. apply Ca. right. now left.
          + cbn in E. injection E as _ E. apply (IH (fun H => Ca (or_intror H)) a1 E). }
      destruct G as [b1 [b2 ->]]. clear - Cb. induction b1 as [|x b1 IH].
      + cbn in Cb. discriminate.
      + apply IH. cbn [app contains] in Cb. apply orb_false_iff in Cb. tauto. }
  rewrite P1, P2, P3. cbn [zfind].
  assert (RV : rev u = close_bracket :: rev (a ++ dot_chr :: b ++ [slash; open_bracket] ++ c ++ dot_chr :: d)).
  { unfold u. replace (a ++ dot_chr :: b ++ [slash; open_bracket] ++ c ++ dot_chr :: d ++ [close_bracket])
      with ((a ++ dot_chr :: b ++ [slash; open_bracket] ++ c ++ dot_chr :: d) ++ [close_bracket]) by (cbn [app]; rewrite <- !app_assoc; cbn [app]; rewrite <- !app_assoc; cbn [app]; rewrite <- !app_assoc; reflexivity).
    rewrite rev_app_distr. reflexivity. }
  rewrite RV, chr_eqb_refl, andb_true_r.
  assert (La : (0 < List.length a)%nat) by (destruct a; [contradiction|cbn; lia]). assert (Lb' : (0 < List.length b)%nat) by (destruct b; [contradiction|cbn; lia]).
  assert (Lc : (0 < List.length c)%nat) by (destruct c; [contradiction|cbn; lia]).
  assert (L1 : List.length (a ++ dot_chr :: b) = (List.length a + 1 + List.length b)%nat) by (rewrite app_length; cbn; lia).
  assert (L2 : List.length (a ++ dot_chr :: b ++ [slash; open_bracket] ++ c) = (List.length a + 1 + List.length b + 2 + List.length c)%nat) by (rewrite app_length; cbn; rewrite app_length; cbn; lia).
  assert (L3 : List.length u = (List.length a + 1 + List.length b + 2 + List.length c + 1 + List.length d + 1)%nat).
  { unfold u. rewrite app_length. cbn. rewrite app_length. cbn. rewrite app_length. cbn. rewrite app_length. cbn. lia. }
  rewrite L1, L2, L3.
  assert (C1 : (0 <? Z.of_nat (List.length a))%Z = true) by lia. rewrite C1.
  assert (C2 : (Z.of_nat (List.length a) <? Z.of_nat (List.length a + 1 + List.length b) - 1)%Z = true) by lia. rewrite C2.
  assert (C3 : (Z.of_nat (List.length a + 1 + List.length b) <? Z.of_nat (List.length a + 1 + List.length b + 2 + List.length c) - 2)%Z = true) by lia. rewrite C3.
  cbn [andb]. clear C1 C2 C3 RV P1 P2 P3.
  assert (S : forall p m r x y, u = p ++ m ++ r -> x = Z.of_nat (List.length p) -> y = Z.of_nat (List.length p + List.length m) -> firstn (Z.to_nat (y - x)) (skipn (Z.to_nat x) u) = m).
  { intros p m r x y E -> ->. rewrite E, Nat2Z.id, skipn_app_exact by reflexivity. apply firstn_app_exact. lia. }
  f_equal. f_equal; [f_equal; [f_equal|]|].
  - apply (S [] a (dot_chr :: b ++ [slash; open_bracket] ++ c ++ dot_chr :: d ++ [close_bracket])); [reflexivity|reflexivity|cbn; lia].
  - apply (S (a ++ [dot_chr]) b ([slash; open_bracket] ++ c ++ dot_chr :: d ++ [close_bracket])); [unfold u; rewrite <- app_assoc; reflexivity|rewrite app_length; cbn; lia|rewrite app_length; cbn; lia].
  - apply (S (a ++ dot_chr :: b ++ [slash; open_bracket]) c (dot_chr :: d ++ [close_bracket]));
      [unfold u; rewrite <- !app_assoc; cbn [app]; rewrite <- !app_assoc; reflexivity|rewrite app_length; cbn; rewrite app_length; cbn; lia|rewrite app_length; cbn; rewrite app_length; cbn; lia].
  - apply (S (a ++ dot_chr :: b ++ [slash; open_bracket] ++ c ++ [dot_chr]) d [close_bracket]);
      [unfold u; rewrite <- !app_assoc; cbn [app]; rewrite <- !app_assoc; cbn [app]; rewrite <- !app_assoc; reflexivity
      |rewrite app_length; cbn; rewrite app_length; cbn; rewrite app_length; cbn; lia|rewrite app_length; cbn; rewrite app_length; cbn; rewrite app_length; cbn; lia].
Qed.
Print Assumptions C56_transmissibility_parts.

(** What one of the unit is worth in base units, for units without an offset. *)
Definition scale (u : str) (k : Q) : Prop :=
  exists b dim a s c d, get_conversion_factors u = Ok (b, dim, (a, s, c, d)) /\ a == 0 /\ k == s / c /\ 0 < k.
Lemma scale_base u k : scale u k -> forall x v, base_value u x v <-> v == k * x.
Proof.
  intros (b & dim & a & s & c & d & G & A & K & P) x v. destruct (factors_good _ _ _ _ _ _ _ G) as (Z & P1 & R1 & _). split.
  - intros (b' & dim' & a' & s' & c' & d' & G' & N & E). rewrite G in G'. injection G' as <- <- <- <- <- <-. rewrite E, K, A, Z. field. lra.
  - intros E. exists b, dim, a, s, c, d. split; [assumption|]. split; [rewrite Z; lra|]. rewrite E, K, A, Z. field. lra.
Qed.
Definition trans_quantities : list string := ["volume"; "dynamic viscosity"; "pressure"; "time"]%string.
Lemma trans_no_offsets : forallb (fun q => match assoc (L q) quantities with Some ms => forallb (fun u => match get_conversion_factors u with Ok (_, _, (a, _, _, _)) => Qeq_bool a 0 | _ => false end) ms | None => false end)
  trans_quantities = true.
Proof. vm_compute. reflexivity. Qed.
Lemma check_unit_scale q u : In q trans_quantities -> check_unit u q = Ok tt -> In u all_uoms /\ exists b dim a s c d, get_conversion_factors u = Ok (b, dim, (a, s, c, d)) /\ a == 0.
Proof.
  intros Iq H. assert (Nq : L q <> []) by (clear - Iq; repeat destruct Iq as [<-|Iq]; [discriminate..|destruct Iq]). unfold check_unit in H. destruct (valid_uoms (Some (L q))) as [l|] eqn:E; [|discriminate]. cbn [bind] in H.
  destruct (mem u l) eqn:M; [|discriminate]. apply mem_In in M. assert (V : In u all_uoms) by (apply (supported_valid (Some (L q))); exists l; auto). split; [exact V|].
  assert (T := proj1 (forallb_forall _ _) trans_no_offsets _ Iq). cbv beta in T.
  unfold valid_uoms in E. destruct (str_eqb_spec (L q) []) as [Z|_]; [contradiction|].
  destruct (assoc (L q) quantities) as [ms|]; [|discriminate]. injection E as E. rewrite <- E in M. apply filter_In in M. destruct M as [_ M]. apply mem_In in M.
  assert (Tu := proj1 (forallb_forall _ _) T _ M). cbv beta in Tu. destruct (get_conversion_factors u) as [[[b dim] [[[a s] c] d]]|]; [|discriminate].
  exists b, dim, a, s, c, d. split; [reflexivity|]. now apply Qeq_bool_eq.
Qed.
Lemma component_factor_spec q f t r : In q trans_quantities -> component_factor f t q = Ok r ->
  exists kf kt, scale f kf /\ scale t kt /\ r == kf / kt.
Proof.
  intros Iq H. unfold component_factor in H. destruct (check_unit f q) as [[]|] eqn:Ef; [|discriminate]. cbn [bind] in H.
  destruct (check_unit_scale q f Iq Ef) as [Vf (b & dim & a & s & c & d & G & A)]. destruct (factors_good _ _ _ _ _ _ _ G) as (_ & P1 & R1 & _).
  assert (K : 0 < s / c) by (apply Qlt_shift_div_l; lra).
  destruct (str_eqb_spec f t) as [<-|N].
  - injection H as <-. exists (s / c), (s / c). split; [exists b, dim, a, s, c, d; repeat split; auto; reflexivity|]. split; [exists b, dim, a, s, c, d; repeat split; auto; reflexivity|].
    field. split; lra.
  - destruct (check_unit t q) as [[]|] eqn:Et; [|discriminate]. cbn [bind] in H. destruct (check_unit_scale q t Iq Et) as [Vt (b2 & dim2 & a2 & s2 & c2 & d2 & G2 & A2)].
    destruct (factors_good _ _ _ _ _ _ _ G2) as (_ & P2 & R2 & _). assert (K2 : 0 < s2 / c2) by (apply Qlt_shift_div_l; lra).
    destruct (convert_inv _ _ _ _ _ _ H) as (u & v & b1 & dim1 & a1 & s1 & c1 & d1 & b3 & a3 & s3 & c3 & d3 & E1 & E2 & G1' & G2' & E & _).
    assert (Ef' := eq_trans (eq_sym (rq_uom_self f None Vf Vf)) E1). injection Ef' as <-. assert (Et' := eq_trans (eq_sym (rq_uom_self t None Vt Vt)) E2). injection Et' as <-.
    rewrite G in G1'. injection G1' as <- <- <- <- <- <-. rewrite G2 in G2'. injection G2' as <- _ <- <- <- <-.
    exists (s / c), (s2 / c2). split; [exists b, dim, a, s, c, d; repeat split; auto; reflexivity|]. split; [exists b2, dim2, a2, s2, c2, d2; repeat split; auto; reflexivity|].
    rewrite E. unfold conv. rewrite A, A2. field. repeat split; lra.
Qed.

(** A transmissibility in U (volume a, viscosity b, pressure c, time d) and its conversion to V
    are the same amount of base units. *)
Theorem C56_transmissibility_value x U V y : convert_transmissibilities x U V = Ok y ->
  exists a b c d a' b' c' d' ka kb kc kd ka' kb' kc' kd',
    uom_components U = Ok (a, b, c, d) /\ uom_components V = Ok (a', b', c', d') /\
    scale a ka /\ scale b kb /\ scale c kc /\ scale d kd /\ scale a' ka' /\ scale b' kb' /\ scale c' kc' /\ scale d' kd' /\
    y * (ka' * kb' / (kc' * kd')) == x * (ka * kb / (kc * kd)).
Proof.
  unfold convert_transmissibilities. destruct (uom_components U) as [[[[a b] c] d]|] eqn:EU; [|discriminate]. destruct (uom_components V) as [[[[a' b'] c'] d']|] eqn:EV; [|discriminate].
  cbn [bind]. destruct (component_factor a a' "volume") as [r1|] eqn:E1; [|discriminate]. cbn [bind]. destruct (component_factor b b' "dynamic viscosity") as [r2|] eqn:E2; [|discriminate]. cbn [bind].
  destruct (component_factor c c' "pressure") as [r3|] eqn:E3; [|discriminate]. cbn [bind]. destruct (component_factor d d' "time") as [r4|] eqn:E4; [|discriminate]. cbn [bind].
  destruct (qdiv (1 * r1 * r2) r3) as [f1|] eqn:Q1; [|discriminate]. cbn [bind]. destruct (qdiv f1 r4) as [f2|] eqn:Q2; [|discriminate]. cbn [bind]. intros [= <-].
  apply component_factor_spec in E1; [|now left]. apply component_factor_spec in E2; [|right; now left]. apply component_factor_spec in E3; [|do 2 right; now left].
  apply component_factor_spec in E4; [|do 3 right; now left].
  destruct E1 as (ka & ka' & S1 & S1' & X1), E2 as (kb & kb' & S2 & S2' & X2), E3 as (kc & kc' & S3 & S3' & X3), E4 as (kd & kd' & S4 & S4' & X4).
  apply qdiv_inv in Q1, Q2. destruct Q1 as [_ ->], Q2 as [_ ->].
  exists a, b, c, d, a', b', c', d', ka, kb, kc, kd, ka', kb', kc', kd'. repeat (split; [first [assumption|reflexivity]|]).
  assert (P : forall u k, scale u k -> 0 < k) by (intros u k (? & ? & ? & ? & ? & ? & ? & ? & ? & ?); assumption).
  apply P in S1, S1', S2, S2', S3, S3', S4, S4'. rewrite X1, X2, X3, X4. field. repeat split; lra.
Qed.
Print Assumptions C56_transmissibility_value.

Lemma component_factor_back q f t r : In q trans_quantities -> component_factor f t q = Ok r -> exists r', component_factor t f q = Ok r' /\ ~ r == 0 /\ ~ r' == 0 /\ r * r' == 1.
Proof.
  intros Iq H. destruct (component_factor_spec q f t r Iq H) as (kf & kt & Sf & St & E).
  assert (P : forall u k, scale u k -> 0 < k) by (intros u k (? & ? & ? & ? & ? & ? & ? & ? & ? & ?); assumption).
  assert (G : exists r', component_factor t f q = Ok r').
  { unfold component_factor in *. destruct (check_unit f q) as [[]|] eqn:Ef; [|discriminate]. cbn [bind] in *. destruct (str_eqb_spec f t) as [<-|N].
    - rewrite Ef. cbn [bind]. rewrite str_eqb_refl. eauto.
    - destruct (check_unit t q) as [[]|] eqn:Et; [|discriminate]. cbn [bind] in *. destruct (str_eqb_spec t f) as [<-|_]; [contradiction|].
      assert (W : is_ok (convert 1 t f None false) = true); [|destruct (convert 1 t f None false); [eauto|discriminate]].
      assert (W : is_ok (convert 1 f t None false) = true) by (now rewrite H). apply C56_when_possible in W. apply C56_when_possible.
      destruct W as (u & v & A1 & A2 & A3 & A4). exists v, u. repeat split; auto. destruct A4 as [->|A4]; [now left|right]. intros Z. discriminate. }
  destruct G as [r' H']. destruct (component_factor_spec q t f r' Iq H') as (kt' & kf' & St' & Sf' & E'). exists r'. split; [assumption|].
  assert (Q1 : kf == kf'). { destruct Sf as (? & ? & ? & ? & ? & ? & G1 & _ & K1 & _), Sf' as (? & ? & ? & ? & ? & ? & G2 & _ & K2 & _). rewrite G1 in G2. injection G2 as <- <- <- <- <- <-. now rewrite K1, K2. }
  assert (Q2 : kt == kt'). { destruct St as (? & ? & ? & ? & ? & ? & G1 & _ & K1 & _), St' as (? & ? & ? & ? & ? & ? & G2 & _ & K2 & _). rewrite G1 in G2. injection G2 as <- <- <- <- <- <-. now rewrite K1, K2. }
  apply P in Sf, St. assert (R : r * r' == 1) by (rewrite E, E', <- Q1, <- Q2; field; split; lra).
  repeat split; [intros Z; rewrite Z in R; lra|intros Z; rewrite Z in R; lra|assumption].
Qed.
Theorem C56_transmissibility_round_trip x U V y : convert_transmissibilities x U V = Ok y -> exists x', convert_transmissibilities y V U = Ok x' /\ x' == x.
Proof.
  unfold convert_transmissibilities. destruct (uom_components U) as [[[[a b] c] d]|] eqn:EU; [|discriminate]. destruct (uom_components V) as [[[[a' b'] c'] d']|] eqn:EV; [|discriminate].
  cbn [bind]. destruct (component_factor a a' "volume") as [r1|] eqn:E1; [|discriminate]. cbn [bind]. destruct (component_factor b b' "dynamic viscosity") as [r2|] eqn:E2; [|discriminate]. cbn [bind].
  destruct (component_factor c c' "pressure") as [r3|] eqn:E3; [|discriminate]. cbn [bind]. destruct (component_factor d d' "time") as [r4|] eqn:E4; [|discriminate]. cbn [bind].
  destruct (qdiv (1 * r1 * r2) r3) as [f1|] eqn:Q1; [|discriminate]. cbn [bind]. destruct (qdiv f1 r4) as [f2|] eqn:Q2; [|discriminate]. cbn [bind]. intros [= <-].
  apply component_factor_back in E1; [|now left]. apply component_factor_back in E2; [|right; now left]. apply component_factor_back in E3; [|do 2 right; now left].
  apply component_factor_back in E4; [|do 3 right; now left].
  destruct E1 as (s1 & -> & N1 & M1 & X1), E2 as (s2 & -> & N2 & M2 & X2), E3 as (s3 & -> & N3 & M3 & X3), E4 as (s4 & -> & N4 & M4 & X4). cbn [bind].
  apply qdiv_inv in Q1, Q2. destruct Q1 as [_ ->], Q2 as [_ ->]. rewrite (qdiv_ok _ _ M3). cbn [bind]. rewrite (qdiv_ok _ _ M4). cbn [bind].
  eexists. split; [reflexivity|].
  assert (I1 : s1 == / r1) by (apply (Qmult_inj_l _ _ r1 N1); rewrite X1; field; assumption). assert (I2 : s2 == / r2) by (apply (Qmult_inj_l _ _ r2 N2); rewrite X2; field; assumption).
  assert (I3 : s3 == / r3) by (apply (Qmult_inj_l _ _ r3 N3); rewrite X3; field; assumption). assert (I4 : s4 == / r4) by (apply (Qmult_inj_l _ _ r4 N4); rewrite X4; field; assumption).
  rewrite I1, I2, I3, I4. field. repeat split; assumption.
Qed.
Print Assumptions C56_transmissibility_round_trip.
Example C56_transmissibility : exists y, convert_transmissibilities 1 (L "bbl.cP/(psi.d)") (L "m3.Pa.s/(Pa.s)") = Ok y /\ 0 < y.
Proof. eexists. split; [vm_compute; reflexivity|]. vm_compute. reflexivity. Qed.
(** A valid volume unit with a "." in its name cannot be used. *)
Theorem C56_transmissibility_volume_with_dot_refuted :
  exists vol l, valid_uoms (Some (L "volume")) = Ok l /\ In vol l /\
    convert_transmissibilities 1 (vol ++ L ".cP/(psi.d)") (L "m3.cP/(psi.d)") = Err AssertionError.
Proof.
  exists (L "acre.ft"). eexists. split; [vm_compute; reflexivity|]. split; [apply mem_In; vm_compute; reflexivity|]. vm_compute. reflexivity.
Qed.
Print Assumptions C56_transmissibility_volume_with_dot_refuted.

(** * C57 *)
Theorem C57_result_is_a_valid_unit s q u : rq_uom s q = Ok u ->
  In u all_uoms /\ match q with None => True | Some _ => exists l, valid_uoms q = Ok l /\ In u l end.
Proof. intros H. split; [apply mem_In; exact (rq_uom_valid _ _ _ H)|]. assert (S := rq_uom_supported _ _ _ H). destruct q; [exact S|exact Logic.I]. Qed.
Print Assumptions C57_result_is_a_valid_unit.
Theorem C57_valid_units_unchanged u : In u all_uoms -> rq_uom u None = Ok u.
Proof. intros H. now apply rq_uom_self. Qed.
Print Assumptions C57_valid_units_unchanged.
Theorem C57_valid_units_of_a_quantity_unchanged q l u : valid_uoms (Some q) = Ok l -> In u l -> rq_uom u (Some q) = Ok u.
Proof. intros E I. assert (S : Supported (Some q) u) by (exists l; auto). apply rq_uom_self; [exact (supported_valid _ _ S)|exact S]. Qed.
Print Assumptions C57_valid_units_of_a_quantity_unchanged.
Theorem C57_idempotent s q u : rq_uom s q = Ok u -> rq_uom u q = Ok u.
Proof. intros H. apply rq_uom_self; [apply mem_In; exact (rq_uom_valid _ _ _ H)|exact (rq_uom_supported _ _ _ H)]. Qed.
Print Assumptions C57_idempotent.
(** What is listed for a quantity is exactly the valid units among its members. *)
Theorem C57_quantity_members q ms : q <> [] -> assoc q quantities = Some ms -> exists l, valid_uoms (Some q) = Ok l /\ forall u, In u l <-> In u ms /\ In u all_uoms.
Proof.
  intros N E. unfold valid_uoms. destruct (str_eqb_spec q []); [contradiction|]. rewrite E. eexists. split; [reflexivity|]. intros u. rewrite filter_In, mem_In. tauto.
Qed.
Print Assumptions C57_quantity_members.
(** White space around the name makes no difference. *)
Lemma lstrip_all p w s : Forall (fun c => p c = true) w -> lstrip p (w ++ s) = lstrip p s.
Proof. induction 1 as [|c w Hc _ IH]; [reflexivity|]. cbn. now rewrite Hc. Qed.
Theorem C57_white_space s q v w : s <> [] -> Forall (fun c => is_space c = true) v -> Forall (fun c => is_space c = true) w -> (exists c, In c s /\ is_space c = false) -> rq_uom (v ++ s ++ w) q = rq_uom s q.
Proof.
  intros N Hv Hw (c & Ic & Nc).
  assert (S : strip is_space (v ++ s ++ w) = strip is_space s).
  { unfold strip, rstrip. rewrite lstrip_all by assumption. f_equal.
    assert (G : lstrip is_space (s ++ w) = lstrip is_space s ++ w).
    { clear - Ic Nc. induction s as [|x s IH]; [destruct Ic|]. cbn. destruct (is_space x) eqn:E; [|reflexivity]. apply IH. destruct Ic as [->|Ic]; [congruence|assumption]. }
    rewrite G, rev_app_distr. apply lstrip_all. apply Forall_rev. assumption. }
  unfold rq_uom. rewrite S. destruct (str_eqb_spec s []); [contradiction|]. destruct (str_eqb_spec (v ++ s ++ w) []) as [E|_]; [|reflexivity].
  apply app_eq_nil in E. destruct E as [_ E]. apply app_eq_nil in E. destruct E. contradiction.
Qed.
Print Assumptions C57_white_space.
(** The aliases: each listed alias gives its unit, whatever the case unless the spelling is
    itself a valid unit name. *)
Theorem C57_aliases a u : In (a, u) alias_data -> rq_uom (L a) None = Ok (L u).
Proof.
  assert (T : forallb (fun e => match rq_uom (L (fst e)) None with Ok u => str_eqb u (L (snd e)) | _ => false end) alias_data = true) by (vm_compute; reflexivity).
  intros H. assert (G := proj1 (forallb_forall _ _) T _ H). cbn [fst snd] in G. destruct (rq_uom (L a) None); [|discriminate]. f_equal. now apply str_eqb_eq.
Qed.
Print Assumptions C57_aliases.
Theorem C57_aliases_any_case s u : s <> [] -> strip is_space s = s -> ~ In s all_uoms -> ~ In (lower s) case_insensitive -> assoc (lower s) alias_map = Some u -> rq_uom s None = Ok u.
Proof.
  intros N S V C E. unfold rq_uom, try_parse_unit. destruct (str_eqb_spec s []); [contradiction|]. rewrite S. cbn [try_parse].
  destruct (mem s all_uoms) eqn:M; [now apply mem_In in M|]. destruct (mem (lower s) case_insensitive) eqn:M'; [now apply mem_In in M'|]. now rewrite E.
Qed.
Print Assumptions C57_aliases_any_case.
(** Ratios such as "stb/day". *)
Theorem C57_ratio a b u v : a <> [] -> strip is_space (a ++ slash :: b) = a ++ slash :: b -> ~ In slash a -> bracketed (a ++ slash :: b) = false ->
  try_parse_unit a = Some u -> try_parse_unit b = Some v -> In (u ++ slash :: v) all_uoms ->
  ~ In (a ++ slash :: b) all_uoms -> ~ In (lower (a ++ slash :: b)) case_insensitive -> assoc (lower (a ++ slash :: b)) alias_map = None -> ~ In (lower (a ++ slash :: b)) all_uoms ->
  rq_uom (a ++ slash :: b) None = Ok (u ++ slash :: v).
Proof.
  intros Na Sp Ns Br Ea Eb V N1 N2 N3 N4. unfold rq_uom. destruct (str_eqb_spec (a ++ slash :: b) []) as [E|_]; [destruct a; discriminate|].
  rewrite Sp. unfold try_parse_unit in *. remember (List.length (a ++ slash :: b)) as n eqn:Hn. cbn [try_parse].
  destruct (mem (a ++ slash :: b) all_uoms) eqn:M; [now apply mem_In in M|]. destruct (mem (lower (a ++ slash :: b)) case_insensitive) eqn:M'; [now apply mem_In in M'|].
  rewrite N3. destruct (mem (lower (a ++ slash :: b)) all_uoms) eqn:M2; [now apply mem_In in M2|]. rewrite Br, (find_chr_app slash a b Ns).
  unfold upto, from. rewrite app_length in Hn. cbn in Hn.
  rewrite (firstn_app_exact a (slash :: b) _ eq_refl). replace (skipn (S (List.length a)) (a ++ slash :: b)) with b.
  2:{ clear. induction a as [|x a IH]; [reflexivity|exact IH]. }
  rewrite (parse_fuel (List.length a) a n (S (List.length a))), Ea by lia. rewrite (parse_fuel (List.length b) b n (S (List.length b))), Eb by lia.
  assert (Vu := try_parse_valid _ _ _ Ea). assert (Vv := try_parse_valid _ _ _ Eb). apply strip_valid in Vu, Vv. destruct Vu as [_ Vu], Vv as [_ Vv].
  destruct (str_eqb_spec u []); [contradiction|]. destruct (str_eqb_spec v []); [contradiction|]. cbn [negb andb]. apply mem_In in V. now rewrite V.
Qed.
Print Assumptions C57_ratio.
Example C57_ratio_example : rq_uom (L " STB/day ") (Some (L "volume per time")) = Ok (L "bbl/d") /\ rq_uom (L "(psia)") None = Ok (L "psi").
Proof. split; vm_compute; reflexivity. Qed.

(** The unit used by a simulator for a quantity is a valid unit of that quantity. *)
Definition resqml_quantity (q : str) : str := if str_eqb q (L "rock permeability") then L "permeability rock" else q.
Theorem C57_simulator_units system quantity flavour u : nexus_uom_for_quantity system quantity flavour = Ok u ->
  exists l, valid_uoms (Some (resqml_quantity quantity)) = Ok l /\ In u l.
Proof.
  assert (T : forallb (fun s => forallb (fun q => match assoc s nexus_table with Some row => match assoc (if str_eqb q (L "permeability rock") then L "rock permeability" else q) row with Some u =>
      match valid_uoms (Some (resqml_quantity q)) with Ok l => mem u l | _ => false end | None => true end | None => true end) nexus_quantities) (map fst nexus_table) = true) by (vm_compute; reflexivity).
  assert (F : forallb (fun e => match valid_uoms (Some (resqml_quantity (L (fst e)))) with Ok l => mem (L (snd e)) l | _ => false end)
    [("volume","ft3");("volume","bbl");("volume per time","1000 ft3/d");("volume per volume","bbl/bbl");("volume per volume","1000 ft3/bbl")]%string = true) by (vm_compute; reflexivity).
  unfold nexus_uom_for_quantity. set (sys := upper system). destruct (mem sys (map fst nexus_table)) eqn:M1; [|discriminate]. cbn [assert_ bind].
  destruct (mem quantity nexus_quantities) eqn:M2; [|discriminate]. cbn [assert_ bind]. apply mem_In in M1, M2.
  assert (G := proj1 (forallb_forall _ _) (proj1 (forallb_forall _ _) T _ M1) _ M2). cbv beta in G. clear T.
  set (q' := if str_eqb quantity (L "permeability rock") then L "rock permeability" else quantity) in *.
  assert (LK : (match assoc sys nexus_table with None => Err KeyError | Some row => match assoc q' row with Some u => Ok u | None => Err KeyError end end) = Ok u ->
     exists l, valid_uoms (Some (resqml_quantity quantity)) = Ok l /\ In u l).
  { destruct (assoc sys nexus_table) as [row|]; [|discriminate]. destruct (assoc q' row) as [w|]; [|discriminate]. intros [= <-].
    destruct (valid_uoms (Some (resqml_quantity quantity))) as [l|]; [|discriminate]. exists l. split; [reflexivity|now apply mem_In]. }
  assert (FL : forall q w, In (q, w) [("volume","ft3");("volume","bbl");("volume per time","1000 ft3/d");("volume per volume","bbl/bbl");("volume per volume","1000 ft3/bbl")]%string ->
     str_eqb q' (L q) = true -> L q <> L "rock permeability" -> exists l, valid_uoms (Some (resqml_quantity quantity)) = Ok l /\ In (L w) l).
  { intros q w I Q NQ. apply str_eqb_eq in Q. assert (E : quantity = L q).
    { unfold q' in Q. destruct (str_eqb_spec quantity (L "permeability rock")); [|assumption]. symmetry in Q. contradiction. }
    assert (Fq := proj1 (forallb_forall _ _) F _ I). cbn [fst snd] in Fq. rewrite <- E in Fq. destruct (valid_uoms (Some (resqml_quantity quantity))) as [l|]; [|discriminate].
    exists l. split; [reflexivity|now apply mem_In]. }
  destruct flavour as [f|]; [|exact LK]. destruct (negb (str_eqb sys (L "ENGLISH"))); [exact LK|].
  destruct (str_eqb (lower f) (L "pv")). { destruct (str_eqb q' (L "volume")) eqn:Q; [|discriminate]. intros [= <-]. apply (FL "volume" "ft3")%string; [now left|exact Q|discriminate]. }
  destruct (str_eqb (lower f) (L "over pv")). { destruct (str_eqb q' (L "volume")) eqn:Q; [|discriminate]. intros [= <-]. apply (FL "volume" "bbl")%string; [right; now left|exact Q|discriminate]. }
  destruct (str_eqb (lower f) (L "surface gas rate")). { destruct (str_eqb q' (L "volume per time")) eqn:Q; [|discriminate]. intros [= <-]. apply (FL "volume per time" "1000 ft3/d")%string; [do 2 right; now left|exact Q|discriminate]. }
  destruct (str_eqb q' (L "volume per volume")) eqn:Q; [|discriminate]. cbn [assert_ bind].
  destruct (str_eqb (lower f) (L "fvf")). { intros [= <-]. apply (FL "volume per volume" "bbl/bbl")%string; [do 3 right; now left|exact Q|discriminate]. }
  destruct (str_eqb (lower f) (L "gor")). { intros [= <-]. apply (FL "volume per volume" "1000 ft3/bbl")%string; [do 4 right; now left|exact Q|discriminate]. }
  destruct (str_eqb (lower f) (L "saturation")); [exact LK|discriminate].
Qed.
Print Assumptions C57_simulator_units.
Example C57_english : nexus_uom_for_quantity (L "English") (L "volume") (Some (L "PV")) = Ok (L "ft3").
Proof. vm_compute. reflexivity. Qed.
