(** ProportionProofs.v: proportions and interpolation (C10). *)
From Verif Require Import Base BoxModel BoxProofs FineCoarseModel FineCoarseProofs FineCoarseProofs2 TartanProofs.
From Coq Require Import QArith Qround Qpower Lqa.
Open Scope Z_scope.

(** * Specification: a list of positive shares of the whole *)
Definition Shares (n : Z) (p : list Q) : Prop :=
  Z.of_nat (List.length p) = n /\ (forall x, In x p -> 0 < x)%Q /\ (qsum p == 1)%Q.

Lemma qsum_app l l' : (qsum (l ++ l') == qsum l + qsum l')%Q.
Proof. unfold qsum. induction l as [|x l IH]; cbn [fold_right app]; [ring|]. rewrite IH. ring. Qed.

Lemma qsum_repeat q k : (qsum (repeat q k) == inject_Z (Z.of_nat k) * q)%Q.
Proof.
  induction k as [|k IH]; [cbn; ring|]. cbn [repeat qsum fold_right]. unfold qsum in IH. rewrite IH.
  rewrite Nat2Z.inj_succ, <- Z.add_1_r, inject_Z_plus. change (inject_Z 1) with 1%Q. ring.
Qed.

Lemma qsum_map_div l c : (qsum (map (fun x => x / c) l) == qsum l / c)%Q.
Proof.
  induction l as [|x l IH]; cbn [map qsum fold_right]; [unfold Qdiv; ring|]. unfold qsum in IH. rewrite IH.
  unfold Qdiv. ring.
Qed.

Lemma inject_lt0 n : 0 < n -> (0 < inject_Z n)%Q.
Proof. intros H. change 0%Q with (inject_Z 0). now rewrite <- Zlt_Qlt. Qed.

Lemma qsum_nonneg l : (forall x, In x l -> 0 < x)%Q -> (0 <= qsum l)%Q.
Proof.
  induction l as [|x l IH]; intros H; cbn [qsum fold_right]; [lra|].
  specialize (IH (fun y Hy => H y (or_intror Hy))). specialize (H x (or_introl eq_refl)). unfold qsum in *. lra.
Qed.
Lemma qsum_pos l : l <> [] -> (forall x, In x l -> 0 < x)%Q -> (0 < qsum l)%Q.
Proof.
  destruct l as [|x l]; [contradiction|]. intros _ H. cbn [qsum fold_right].
  pose proof (qsum_nonneg l (fun y Hy => H y (or_intror Hy))). specialize (H x (or_introl eq_refl)). unfold qsum in *. lra.
Qed.

Lemma shares_equal n : 0 < n -> Shares n (repeat (1 / inject_Z n)%Q (Z.to_nat n)).
Proof.
  intros Hn. pose proof (inject_lt0 n Hn) as Hq. split; [rewrite repeat_length; lia|]. split.
  - intros x Hx. apply repeat_spec in Hx. subst x. apply Qlt_shift_div_l; lra.
  - rewrite qsum_repeat. rewrite Z2Nat.id by lia. field. lra.
Qed.

Lemma q_pos_spec q : q_pos q = true <-> (0 < q)%Q.
Proof.
  unfold q_pos. rewrite negb_true_iff. split; intros H.
  - apply Qnot_le_lt. intros E. apply Qle_bool_iff in E. congruence.
  - apply not_true_iff_false. intros E. apply Qle_bool_iff in E. lra.
Qed.

Lemma shares_normalised n v : 0 < n -> Z.of_nat (List.length v) = n -> forallb q_pos v = true ->
  Shares n (map (fun x => x / qsum v)%Q v).
Proof.
  intros Hn Hl Hp. rewrite forallb_forall in Hp.
  assert (Hp' : forall x, In x v -> (0 < x)%Q) by (intros x Hx; apply q_pos_spec; auto).
  assert (Hs : (0 < qsum v)%Q) by (apply qsum_pos; [intros ->; cbn in Hl; lia|assumption]).
  split; [rewrite map_length; assumption|]. split.
  - intros x Hx. apply in_map_iff in Hx. destruct Hx as (y & <- & Hy). apply Qlt_shift_div_l; [assumption|].
    specialize (Hp' y Hy). lra.
  - rewrite qsum_map_div. field. lra.
Qed.

(** * Objects whose proportions belong to their ratios *)
Definition PropsOK (a : axdata) : Prop :=
  ValidAxis a /\ (eqprop a = true \/ exists vp, vprop a = Some vp /\ eqprop a = false /\
     Z.of_nat (List.length vp) = coarse a /\
     forall c, 0 <= c < coarse a -> Shares (nth (Z.to_nat c) (ratios_of a) 0) (nth (Z.to_nat c) vp [])).

Lemma prop_slice_ok a c v f e : ValidAxis a -> 0 <= c < coarse a -> prop_slice a c v = Ok (f, e) ->
  Shares (nth (Z.to_nat c) (ratios_of a) 0) f /\ f = map (fun x => x / qsum v)%Q v.
Proof.
  intros Ha Hc. unfold prop_slice. rewrite ratio_nth by assumption. cbn [bind].
  destruct (Z.eqb_spec (Z.of_nat (List.length v)) (nth (Z.to_nat c) (ratios_of a) 0)) as [E|E]; cbn [negb]; [|discriminate].
  destruct (forallb q_pos v) eqn:Hp; cbn [assert_ bind]; [|discriminate].
  intros [= <- <-]. split; [|reflexivity]. apply shares_normalised; try assumption.
  apply (va_pos a Ha). apply nth_In. pose proof (va_len a Ha). lia.
Qed.

Lemma prop_loop_ok a : ValidAxis a -> forall vs c fs e, 0 <= c -> c + Z.of_nat (List.length vs) <= coarse a ->
  prop_loop a c vs = Ok (fs, e) ->
  List.length fs = List.length vs /\
  forall k, (k < List.length vs)%nat -> Shares (nth (Z.to_nat c + k) (ratios_of a) 0) (nth k fs []) /\
    nth k fs [] = map (fun x => x / qsum (nth k vs []))%Q (nth k vs []).
Proof.
  intros Ha. induction vs as [|v vs IH]; intros c fs e Hc Hl; cbn [prop_loop].
  - intros [= <- <-]. split; [reflexivity|]. intros k Hk. cbn in Hk. lia.
  - cbn [List.length] in Hl. destruct (prop_slice a c v) as [[f e1]|] eqn:E1; cbn [bind]; [|discriminate].
    destruct (prop_loop a (c + 1) vs) as [[fs' e2]|] eqn:E2; cbn [bind]; [|discriminate].
    intros [= <- <-]. destruct (IH (c + 1) fs' e2 ltac:(lia) ltac:(lia) E2) as [L P].
    split; [cbn; lia|]. intros [|k] Hk; cbn [nth].
    + rewrite Nat.add_0_r. eapply prop_slice_ok; try eassumption. lia.
    + cbn [List.length] in Hk. specialize (P k ltac:(lia)). replace (Z.to_nat c + S k)%nat with (Z.to_nat (c + 1) + k)%nat by lia. exact P.
Qed.

Lemma set_proportions_ok a vs a' : ValidAxis a -> set_proportions a vs = Ok a' ->
  PropsOK a' /\ ratios_of a' = ratios_of a /\ fine a' = fine a /\ coarse a' = coarse a /\
  (eqprop a' = false -> forall c, 0 <= c < coarse a ->
     exists p, proportion a' c = Ok p /\ p = map (fun x => x / qsum (nth (Z.to_nat c) vs []))%Q (nth (Z.to_nat c) vs [])).
Proof.
  intros Ha. unfold set_proportions.
  destruct (Z.eqb_spec (Z.of_nat (List.length vs)) (coarse a)) as [El|]; cbn [assert_ bind]; [|discriminate].
  destruct (prop_loop a 0 vs) as [[fs e]|] eqn:E; cbn [bind]; [|discriminate].
  destruct (prop_loop_ok a Ha vs 0 fs e ltac:(lia) ltac:(lia) E) as [L P].
  assert (V : forall ep vp, ValidAxis (Ax (fine a) (coarse a) (cratio a) (vratio a) ep vp)).
  { intros. destruct Ha as [A1 A2 A3 A4]. split; assumption. }
  assert (R : forall ep vp, ratios_of (Ax (fine a) (coarse a) (cratio a) (vratio a) ep vp) = ratios_of a) by reflexivity.
  destruct e; intros [= <-].
  - split; [split; [apply V|left; reflexivity]|]. cbn [eqprop]. repeat split; try reflexivity. discriminate.
  - split.
    + split; [apply V|]. right. exists fs. cbn [eqprop vprop coarse]. split; [reflexivity|]. split; [reflexivity|].
      split; [lia|]. intros c Hc. rewrite R. destruct (P (Z.to_nat c) ltac:(lia)) as [P1 _]. exact P1.
    + split; [reflexivity|]. split; [reflexivity|]. split; [reflexivity|]. intros _ c Hc.
      destruct (P (Z.to_nat c) ltac:(lia)) as [_ P2]. exists (nth (Z.to_nat c) fs []). split; [|exact P2].
      unfold proportion. cbn [eqprop vprop]. apply py_nth_ok. lia.
Qed.

Lemma proportion_ok a c : PropsOK a -> 0 <= c < coarse a ->
  exists p, proportion a c = Ok p /\ Shares (nth (Z.to_nat c) (ratios_of a) 0) p.
Proof.
  intros [Ha [He|(vp & Hvp & He & Hl & Hs)]] Hc; unfold proportion; rewrite He.
  - rewrite ratio_nth by assumption. cbn [bind]. set (n := nth (Z.to_nat c) (ratios_of a) 0).
    assert (Hn : 0 < n) by (apply (va_pos a Ha); apply nth_In; pose proof (va_len a Ha); lia).
    assert (n =? 0 = false) as -> by lia. assert (n <? 0 = false) as -> by lia.
    eexists. split; [reflexivity|]. now apply shares_equal.
  - rewrite Hvp. rewrite (py_nth_ok _ _ []) by lia. eexists. split; [reflexivity|]. now apply Hs.
Qed.

(** * The whole axis *)
Lemma proportions_for_axis_ok a : PropsOK a ->
  exists ps, proportions_for_axis a = Ok (List.concat ps) /\ Z.of_nat (List.length ps) = coarse a /\
    Z.of_nat (List.length (List.concat ps)) = fine a /\
    forall c, 0 <= c < coarse a -> proportion a c = Ok (nth (Z.to_nat c) ps []).
Proof.
  intros Hp. destruct Hp as [Ha Hp'] eqn:Heq. clear Heq.
  set (ps := map (fun c => match proportion a c with Ok p => p | Err _ => [] end) (zrange (coarse a))).
  assert (Hl : Z.of_nat (List.length ps) = coarse a).
  { unfold ps. rewrite map_length, length_zrange. pose proof (va_coarse a Ha). lia. }
  assert (Hn : forall c, 0 <= c < coarse a -> proportion a c = Ok (nth (Z.to_nat c) ps [])).
  { intros c Hc. unfold ps. rewrite nth_map_zrange by assumption.
    destruct (proportion_ok a c Hp Hc) as (p & E & _). now rewrite E. }
  exists ps. 
  assert (Hclen : Z.of_nat (List.length (List.concat ps)) = fine a).
  { rewrite <- (va_sum a Ha). 
    assert (G : forall l rs, List.length l = List.length rs ->
      (forall k, (k < List.length rs)%nat -> Z.of_nat (List.length (nth k l ([] : list Q))) = nth k rs 0) ->
      Z.of_nat (List.length (List.concat l)) = zsum rs).
    { induction l as [|x l IH]; intros [|r rs] E H; try discriminate; [reflexivity|].
      cbn [List.concat]. rewrite app_length, Nat2Z.inj_add.
      pose proof (H 0%nat ltac:(cbn; lia)) as H0. cbn in H0. cbn [zsum fold_right]. fold (zsum rs).
      rewrite (IH rs); [cbn; lia|cbn in E; lia|]. intros k Hk. apply (H (S k)). cbn; lia. }
    apply G.
    - pose proof (va_len a Ha). lia.
    - intros k Hk. pose proof (va_len a Ha) as Hva.
      destruct (proportion_ok a (Z.of_nat k) Hp ltac:(lia)) as (p & E & S1 & _).
      rewrite (Hn (Z.of_nat k)) in E by lia. injection E as E. rewrite Nat2Z.id in *. rewrite E. exact S1. }
  split; [|auto]. 
  unfold proportions_for_axis. destruct Hp' as [He|(vp & Hvp & He & Hvl & Hs)]; rewrite He.
  - pose proof (va_coarse a Ha) as Hc.
    assert (Hcon : List.concat ps = flat_map (fun r => repeat (1 / inject_Z r)%Q (Z.to_nat r)) (ratios_of a)).
    { rewrite flat_map_concat_map. f_equal. 
      apply (nth_ext _ _ [] []).
      - rewrite map_length. pose proof (va_len a Ha). lia.
      - intros k Hk. specialize (Hn (Z.of_nat k) ltac:(lia)). rewrite Nat2Z.id in Hn.
        unfold proportion in Hn. rewrite He in Hn. rewrite ratio_nth in Hn by (assumption || lia). cbn [bind] in Hn.
        rewrite Nat2Z.id in Hn.
        assert (Hlen : (k < List.length (ratios_of a))%nat) by (pose proof (va_len a Ha); lia).
        assert (Hpos : 0 < nth k (ratios_of a) 0) by (apply (va_pos a Ha), nth_In; assumption).
        set (n := nth k (ratios_of a) 0) in *.
        assert (E0 : n =? 0 = false) by lia. assert (E1 : n <? 0 = false) by lia. rewrite E0, E1 in Hn.
        injection Hn as <-. 
        rewrite (nth_indep _ [] ((fun r => repeat (1 / inject_Z r)%Q (Z.to_nat r)) 0)) by (now rewrite map_length).
        rewrite (map_nth (fun r => repeat (1 / inject_Z r)%Q (Z.to_nat r))). reflexivity. }
    unfold ratios_of in *.
    destruct (cratio a) as [r|] eqn:Ecr.
    + pose proof (va_pos a Ha) as Hpos. unfold ratios_of in Hpos. rewrite Ecr in Hpos.
      assert (Hr : 0 < r). { apply Hpos. destruct (Z.to_nat (coarse a)) eqn:E; [lia|]. left; reflexivity. }
      assert (r =? 0 = false) as -> by lia. f_equal.
      assert (Hf : Z.to_nat (fine a) = (Z.to_nat (coarse a) * Z.to_nat r)%nat).
      { pose proof (va_sum a Ha) as Hsum. unfold ratios_of in Hsum. rewrite Ecr in Hsum. rewrite zsum_repeat in Hsum. nia. }
      rewrite Hcon, Hf. clear.
      induction (Z.to_nat (coarse a)) as [|k IH]; [reflexivity|]. cbn [repeat flat_map Nat.mul].
      rewrite <- IH. now rewrite repeat_app.
    + pose proof (va_len a Ha) as Hlen. pose proof (va_sum a Ha) as Hsum. pose proof (va_pos a Ha) as Hpos.
      unfold ratios_of in Hlen, Hsum, Hpos. rewrite Ecr in Hlen, Hsum, Hpos.
      destruct (vratio a) as [v|] eqn:Ev.
      * rewrite Hlen, Z.eqb_refl. cbn [assert_ bind]. f_equal. rewrite Hcon.
        rewrite firstn_app. rewrite Hcon in Hclen.
        replace (Z.to_nat (fine a) - List.length (flat_map (fun r => repeat (1 / inject_Z r)%Q (Z.to_nat r)) v))%nat with 0%nat by lia.
        cbn [firstn]. rewrite app_nil_r. apply firstn_all2. lia.
      * cbn in Hlen. lia.
  - rewrite Hvp. f_equal. f_equal. apply (nth_ext _ _ [] []); [lia|]. intros k Hk.
    specialize (Hn (Z.of_nat k) ltac:(lia)). rewrite Nat2Z.id in Hn. unfold proportion in Hn. rewrite He, Hvp in Hn.
    rewrite (py_nth_ok _ _ []) in Hn by lia. rewrite Nat2Z.id in Hn. now injection Hn.
Qed.

(** * Interpolation *)
Lemma interp_loop_ok : forall n p acc, List.length p = n ->
  exists l, interp_loop p acc n = Ok l /\ List.length l = n /\
    forall k, (k < n)%nat -> (nth k l 0 == acc + qsum (firstn k p))%Q.
Proof.
  induction n as [|n IH]; intros p acc Hl.
  - destruct p; [|discriminate]. exists []. split; [reflexivity|]. split; [reflexivity|]. intros; lia.
  - destruct p as [|x p]; [discriminate|]. cbn in Hl.
    destruct (IH p (acc + x)%Q ltac:(lia)) as (l & E & L & P). cbn [interp_loop]. rewrite E. cbn [bind].
    exists (acc :: l). split; [reflexivity|]. split; [cbn; lia|]. intros [|k] Hk; cbn [nth firstn].
    + cbn [qsum fold_right]. ring.
    + rewrite P by lia. cbn [qsum fold_right]. unfold qsum. ring.
Qed.

Lemma in_firstn {A} k (l : list A) x : In x (firstn k l) -> In x l.
Proof. intros H. rewrite <- (firstn_skipn k l). apply in_or_app. now left. Qed.
Lemma in_skipn {A} k (l : list A) x : In x (skipn k l) -> In x l.
Proof. intros H. rewrite <- (firstn_skipn k l). apply in_or_app. now right. Qed.

Lemma interpolation_ok a c : PropsOK a -> 0 <= c < coarse a ->
  exists p l, proportion a c = Ok p /\ interpolation a c = Ok l /\ List.length l = List.length p /\
    (nth 0 l 1 == 0)%Q /\
    (forall k, (k < List.length l)%nat -> (nth k l 0 == qsum (firstn k p))%Q /\ (0 <= nth k l 0 < 1)%Q) /\
    (forall k, (S k < List.length l)%nat -> (nth (S k) l 0 == nth k l 0 + nth k p 0)%Q /\ (nth k l 0 < nth (S k) l 0)%Q).
Proof.
  intros Hp Hc. destruct (proportion_ok a c Hp Hc) as (p & E & S1 & S2 & S3). destruct Hp as [Ha _].
  unfold interpolation. rewrite ratio_nth by assumption. cbn [bind].
  set (n := nth (Z.to_nat c) (ratios_of a) 0) in *.
  assert (Hn : 0 < n) by (apply (va_pos a Ha); apply nth_In; pose proof (va_len a Ha); lia).
  assert (n <? 0 = false) as -> by lia. rewrite E. cbn [bind].
  destruct (interp_loop_ok (Z.to_nat n) p 0%Q ltac:(lia)) as (l & El & Ll & Pl).
  exists p, l. split; [reflexivity|]. split; [exact El|]. split; [lia|].
  split.
  { rewrite (nth_indep l 1%Q 0%Q) by lia. rewrite Pl by lia. cbn. reflexivity. }
  split.
  - intros k Hk. assert (Ek : (nth k l 0 == qsum (firstn k p))%Q) by (rewrite Pl by lia; ring).
    split; [exact Ek|]. rewrite Ek. split.
    + apply qsum_nonneg. intros x Hx. apply S2. eapply in_firstn; eassumption.
    + rewrite <- S3. rewrite <- (firstn_skipn k p) at 2. rewrite qsum_app.
      assert ((0 < qsum (skipn k p))%Q).
      { apply qsum_pos. - intros E0. apply (f_equal (@List.length Q)) in E0. rewrite skipn_length in E0. cbn in E0. lia.
        - intros x Hx. apply S2. eapply in_skipn; eassumption. }
      lra.
  - intros k Hk. rewrite !Pl by lia.
    assert (Es : (qsum (firstn (S k) p) == qsum (firstn k p) + nth k p 0)%Q).
    { clear -Hk Ll S1. assert (Hk' : (k < List.length p)%nat) by lia. clear -Hk'. revert k Hk'.
      induction p as [|x p IH]; intros k Hk; [cbn in Hk; lia|]. destruct k as [|k].
      - cbn. ring.
      - cbn [firstn nth qsum fold_right]. cbn in Hk. specialize (IH k ltac:(lia)). unfold qsum in IH.
        change (x + fold_right Qplus 0 (firstn (S k) p) == x + fold_right Qplus 0 (firstn k p) + nth k p 0)%Q. rewrite IH. ring. }
    split; [rewrite Es; ring|]. rewrite Es.
    assert ((0 < nth k p 0)%Q) by (apply S2, nth_In; lia). lra.
Qed.
