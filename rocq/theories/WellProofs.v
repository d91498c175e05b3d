(** WellProofs.v: specification and lemmas for WellModel.v. *)
From Verif Require Import Base QBase TriModel TriProofs3 FineCoarseModel CoarsenProofs WellModel.
From Coq Require Import Lqa Permutation.
Open Scope Z_scope.

(** * Specification *)
Definition len {A} (l : list A) : Z := Z.of_nat (List.length l).
(** measured depths increase from each node to the next *)
Definition Increasing (l : list Q) : Prop := forall i j, 0 <= i < j -> j < len l -> (at_ l i < at_ l j)%Q.
(** the length of the part that the intervals from a to b and from c to d have in common *)
Definition overlap (a b c d : Q) : Q := Qmaxb 0 (Qminb b d - Qmaxb a c).
(** frame interval i, and what it has in common with the interval from a to b *)
Definition frame_len (f : list Q) (i : Z) : Q := (at_ f (i + 1) - at_ f i)%Q.
Definition common (f : list Q) (a b : Q) (i : Z) : Q := overlap a b (at_ f i) (at_ f (i + 1)).
Definition key (e : Z * Q * Q) : Z := fst (fst e).
(** [l]: the frame intervals contributing to the cell from a to b: consecutive intervals,
    among them all that have a length in common with it, with the fractions of the interval
    and of the cell that are in common *)
Definition Contributions (f : list Q) (a b : Q) (l : list (Z * Q * Q)) : Prop :=
  (exists lo hi, map key l = zrange2 lo hi) /\
  (forall e, In e l -> 0 <= key e < len f - 1 /\ (snd (fst e) == common f a b (key e) / frame_len f (key e))%Q /\
                       (snd e == common f a b (key e) / (b - a))%Q /\ (at_ f (key e) <= b)%Q /\ (a <= at_ f (key e + 1))%Q) /\
  (forall i, 0 <= i < len f - 1 -> (0 < common f a b i)%Q -> In i (map key l)).

(** * Lookups *)
Lemma at_cons a l i : 0 <= i -> at_ (a :: l) (i + 1) = at_ l i.
Proof. intro H. unfold at_. replace (Z.to_nat (i + 1)) with (S (Z.to_nat i)) by lia. reflexivity. Qed.
Lemma len_cons {A} (a : A) l : len (a :: l) = len l + 1.
Proof. unfold len. cbn [List.length]. lia. Qed.
Lemma len_nonneg {A} (l : list A) : 0 <= len l. Proof. unfold len. lia. Qed.
Lemma increasing_tail a l : Increasing (a :: l) -> Increasing l.
Proof. intros H i j Hi Hj. rewrite <- (at_cons a l i), <- (at_cons a l j) by lia. apply H; [lia|]. rewrite len_cons. lia. Qed.
Lemma interval_from_spec md : forall l i, (at_ l 0 <= md)%Q ->
  (exists j, 0 <= j < len l - 1 /\ (at_ l j <= md)%Q /\ (md <= at_ l (j + 1))%Q /\ (j = 0 \/ (at_ l j < md)%Q) /\
     interval_from l i md = (i + j, ((md - at_ l j) / (at_ l (j + 1) - at_ l j))%Q)) \/
  ((len l <= 1 \/ (at_ l (len l - 1) < md)%Q) /\ interval_from l i md = (-1, 1%Q)).
Proof.
  induction l as [|a l IH]; intros i H; [right; split; [left; cbn; lia|reflexivity]|].
  destruct l as [|b l']; [right; split; [left; cbn; lia|reflexivity]|].
  change (interval_from (a :: b :: l') i md) with (if md <=b b then (i, ((md - a) / (b - a))%Q) else interval_from (b :: l') (i + 1) md).
  destruct (Qleb_spec' md b) as [G|G].
  - left. exists 0. split; [rewrite !len_cons; pose proof (len_nonneg l'); lia|]. split; [assumption|]. split; [exact G|]. split; [now left|]. now rewrite Z.add_0_r.
  - assert (Hb : (at_ (b :: l') 0 <= md)%Q) by (cbn; lra). destruct (IH (i + 1) Hb) as [(j & Hj & H1 & H2 & H3 & ->)|[H1 ->]].
    + left. exists (j + 1). rewrite (len_cons a). split; [lia|]. rewrite !(at_cons a (b :: l')) by lia. split; [assumption|]. split; [assumption|]. split.
      * right. destruct H3 as [->|H3]; [cbn; lra|assumption].
      * f_equal. lia.
    + right. split; [|reflexivity]. right. rewrite (len_cons a). replace (len (b :: l') + 1 - 1) with (len (b :: l') - 1 + 1) by lia.
      rewrite at_cons by (rewrite len_cons; pose proof (len_nonneg l'); lia). destruct H1 as [H1|H1]; [|assumption].
      rewrite len_cons in *. pose proof (len_nonneg l'). replace (len l' + 1 - 1) with 0 by lia. cbn. lra.
Qed.
Lemma interval_for_md_spec f md : 2 <= len f -> exists r, interval_for_md f md = Ok r /\
  (((md < at_ f 0)%Q /\ r = (-1, 0%Q)) \/
   ((at_ f 0 <= md)%Q /\ (at_ f (len f - 1) < md)%Q /\ r = (-1, 1%Q)) \/
   (exists j, 0 <= j < len f - 1 /\ (at_ f j <= md)%Q /\ (md <= at_ f (j + 1))%Q /\ (j = 0 \/ (at_ f j < md)%Q) /\ (at_ f 0 <= md)%Q /\
      r = (j, ((md - at_ f j) / (at_ f (j + 1) - at_ f j))%Q))).
Proof.
  intro Hn. destruct f as [|a f]; [cbn in Hn; lia|]. unfold interval_for_md. eexists. split; [reflexivity|].
  change (at_ (a :: f) 0) with a. destruct (Qltb_spec md a) as [G|G]; [left; auto|right].
  destruct (interval_from_spec md (a :: f) 0 G) as [(j & Hj & H1 & H2 & H3 & E)|[H1 E]]; rewrite E.
  - right. exists j. repeat split; try assumption; lia.
  - left. split; [assumption|]. split; [|reflexivity]. destruct H1 as [H1|H1]; [lia|assumption].
Qed.

(** * Contributions *)
Lemma zrange2_snoc a b : a <= b -> zrange2 a (b + 1) = zrange2 a b ++ [b].
Proof.
  intro H. remember (Z.to_nat (b - a)) as n eqn:E. revert a H E. induction n as [|n IH]; intros a H E.
  - replace b with a by lia. rewrite zrange2_cons, !zrange2_nil by lia. reflexivity.
  - rewrite (zrange2_cons a (b + 1)), (zrange2_cons a b) by lia. cbn [app]. rewrite <- IH by lia. reflexivity.
Qed.
Ltac flat x := lazymatch x with context [Qminb _ _] => fail | context [Qmaxb _ _] => fail | _ => idtac end.
Ltac minmax := repeat match goal with
  | |- context [Qminb ?x ?y] => flat x; flat y; let H := fresh in let E := fresh in destruct (Qminb_spec x y) as [[H E]|[H E]]; rewrite E; clear E
  | |- context [Qmaxb ?x ?y] => flat x; flat y; let H := fresh in let E := fresh in destruct (Qmaxb_spec x y) as [[H E]|[H E]]; rewrite E; clear E
  end.
Lemma overlap_nonneg a b c d : (0 <= overlap a b c d)%Q. Proof. unfold overlap. minmax; lra. Qed.
Section Frame.
  Context (f : list Q) (Hf : Increasing f) (Hn : 2 <= len f) (a b : Q) (Hab : (a < b)%Q).
  Local Notation n := (len f).
  Lemma at_lt i j : 0 <= i < j -> j < n -> (at_ f i < at_ f j)%Q. Proof. intros. now apply Hf. Qed.
  Lemma at_le i j : 0 <= i <= j -> j < n -> (at_ f i <= at_ f j)%Q.
  Proof. intros H1 H2. destruct (Z.eq_dec i j) as [->|N]; [lra|]. pose proof (at_lt i j ltac:(lia) H2). lra. Qed.
  (** the cell cut to the frame *)
  Let a' := Qmaxb a (at_ f 0).
  Let b' := Qminb b (at_ f (n - 1)).
  Lemma common_cut i : 0 <= i < n - 1 -> (common f a b i == Qmaxb 0 (Qminb b' (at_ f (i + 1)) - Qmaxb a' (at_ f i)))%Q.
  Proof.
    intro Hi. pose proof (at_le 0 i ltac:(lia) ltac:(lia)). pose proof (at_le (i + 1) (n - 1) ltac:(lia) ltac:(lia)).
    unfold common, overlap, a', b'. minmax; try lra.
  Qed.
  Section At.
    Context (ei xi : Z) (He : 0 <= ei < n - 1) (Hx : 0 <= xi < n - 1) (Hle : (a' <= b')%Q).
    Context (E1 : (at_ f ei <= a')%Q) (E2 : (a' <= at_ f (ei + 1))%Q) (X1 : (at_ f xi <= b')%Q) (X2 : (b' <= at_ f (xi + 1))%Q).
    Lemma max_entry : (Qmaxb a (at_ f ei) == a')%Q.
    Proof using All. pose proof (at_le 0 ei ltac:(lia) ltac:(lia)). revert E1. unfold a'. minmax; intro; lra. Qed.
    Lemma min_exit : (Qminb b (at_ f (xi + 1)) == b')%Q.
    Proof using All. pose proof (at_le (xi + 1) (n - 1) ltac:(lia) ltac:(lia)). revert X2. unfold b'. minmax; intro; lra. Qed.
    Lemma common_same : xi = ei -> (common f a b ei == b' - a')%Q.
    Proof using All. intros ->. rewrite common_cut by assumption. revert Hle E1 E2 X1 X2. generalize a' b'. intros u v. minmax; lra. Qed.
    Lemma common_first : ei < xi -> (common f a b ei == at_ f (ei + 1) - a')%Q.
    Proof using All.
      intro H. rewrite common_cut by assumption. pose proof (at_le (ei + 1) xi ltac:(lia) ltac:(lia)). revert Hle E1 E2 X1 X2. generalize a' b'. intros u v. minmax; lra.
    Qed.
    Lemma common_last : ei < xi -> (common f a b xi == b' - at_ f xi)%Q.
    Proof using All.
      intro H. rewrite common_cut by assumption. pose proof (at_le (ei + 1) xi ltac:(lia) ltac:(lia)). revert Hle E1 E2 X1 X2. generalize a' b'. intros u v. minmax; lra.
    Qed.
    Lemma common_middle i : ei < i < xi -> (common f a b i == frame_len f i)%Q.
    Proof using All.
      intro H. rewrite common_cut by lia. pose proof (at_le (ei + 1) i ltac:(lia) ltac:(lia)). pose proof (at_le (i + 1) xi ltac:(lia) ltac:(lia)).
      pose proof (at_lt i (i + 1) ltac:(lia) ltac:(lia)). unfold frame_len. revert Hle E1 E2 X1 X2. generalize a' b'. intros u v. minmax; lra.
    Qed.
    Lemma common_outside i : 0 <= i < n - 1 -> i < ei \/ xi < i -> (common f a b i == 0)%Q.
    Proof using All.
      intros Hi H. rewrite common_cut by lia. pose proof (at_lt i (i + 1) ltac:(lia) ltac:(lia)). destruct H as [H|H].
      - pose proof (at_le (i + 1) ei ltac:(lia) ltac:(lia)). revert Hle E1 E2 X1 X2. generalize a' b'. intros u v. minmax; lra.
      - pose proof (at_le (xi + 1) i ltac:(lia) ltac:(lia)). revert Hle E1 E2 X1 X2. generalize a' b'. intros u v. minmax; lra.
    Qed.
    Lemma bounds_ab : (a <= a')%Q /\ (b' <= b)%Q. Proof. unfold a', b'. split; minmax; lra. Qed.
  End At.
  Lemma frame_len_pos i : 0 <= i < n - 1 -> (0 < frame_len f i)%Q.
  Proof. intro H. unfold frame_len. pose proof (at_lt i (i + 1) ltac:(lia) ltac:(lia)). lra. Qed.
  Lemma none_common : (b' <= a')%Q -> forall i, 0 <= i < n - 1 -> ~ (0 < common f a b i)%Q.
  Proof. intros H i Hi. rewrite common_cut by assumption. revert H. generalize a' b'. intros u v H. minmax; lra. Qed.
  Lemma contributions_nil : (b' <= a')%Q -> Contributions f a b [].
  Proof.
    intro H. split; [exists 0, 0; reflexivity|]. split; [intros e []|]. intros i Hi Hc. exfalso. now apply (none_common H i Hi).
  Qed.
  Lemma div_bounds x : (0 <= x)%Q -> (x <= b - a)%Q -> (0 <= x / (b - a))%Q /\ (x / (b - a) <= 1)%Q.
  Proof.
    intros H1 H2. split.
    - apply Qle_shift_div_l; lra.
    - apply Qle_shift_div_r; lra.
  Qed.
  Lemma bool_le x y : (x <= y)%Q -> (x <=b y) = true. Proof. intro H. now apply Qleb_iff. Qed.

  Lemma contributions_ok : exists l, contributions_one f a b = Ok l /\ Contributions f a b l.
  Proof.
    unfold contributions_one. change (Z.of_nat (List.length f)) with (len f).
    destruct (interval_for_md_spec f a Hn) as ([ei ef] & -> & Ha). destruct (interval_for_md_spec f b Hn) as ([xi xf] & -> & Hb). cbn [bind].
    pose proof (at_lt 0 (n - 1) ltac:(lia) ltac:(lia)) as F0.
    (* disjoint from the frame *)
    destruct Hb as [[Hb [= -> ->]]|Hb].
    { cbn [Z.eqb andb orb]. replace (0 <b (1 # 2)) with true by reflexivity. cbn [orb andb]. exists []. split; [reflexivity|]. apply contributions_nil.
      unfold a', b'. minmax; lra. }
    destruct Ha as [Ha|[(Ha1 & Ha & [= -> ->])|Ha]].
    2: { cbn [Z.eqb andb]. replace ((1 # 2) <b 1) with true by reflexivity. rewrite orb_true_r. exists []. split; [reflexivity|]. apply contributions_nil.
         unfold a', b'. minmax; lra. }
    all: assert (Hle : (a' <= b')%Q) by (unfold a', b'; destruct Hb as [(Hb1 & Hb & _)|(j & Hj & Hb1 & Hb2 & _ & Hb3 & _)];
           lazymatch type of Ha with _ /\ _ => destruct Ha as [Ha _] | _ => destruct Ha as (j2 & Hj2 & Ha1 & Ha2 & _ & Ha3 & _); pose proof (at_le (j2 + 1) (n - 1) ltac:(lia) ltac:(lia)) end; minmax; lra).
    all: cycle 0.
    (* the entry, adjusted *)
    all: assert (Entry : exists ei' ef', (if ei =? -1 then do _ <- assert_ (ef <b (1 # 2)); Ok (0, 0%Q) else Ok (ei, ef)) = Ok (ei', ef') /\
      0 <= ei' < n - 1 /\ (at_ f ei' <= a')%Q /\ (a' <= at_ f (ei' + 1))%Q /\ (ei' = 0 \/ (at_ f ei' < a')%Q) /\ (ef' * frame_len f ei' == a' - at_ f ei')%Q /\
      (ei =? -1) && ((1 # 2) <b ef) = false)
      by (lazymatch type of Ha with _ /\ _ => destruct Ha as [Ha [= -> ->]]; exists 0, 0%Q; split; [reflexivity|]; split; [lia|];
            pose proof (at_lt 0 (0 + 1) ltac:(lia) ltac:(lia)); unfold a'; split; [minmax; lra|]; split; [minmax; lra|]; split; [now left|]; split; [minmax; lra|reflexivity]
          | _ => destruct Ha as (j & Hj & Ha1 & Ha2 & Ha4 & Ha3 & [= -> ->]); exists j, ((a - at_ f j) / (at_ f (j + 1) - at_ f j))%Q;
            rewrite (proj2 (Z.eqb_neq j (-1))) by lia; split; [reflexivity|]; split; [lia|];
            assert (Ea : (a' == a)%Q) by (unfold a'; minmax; lra); split; [lra|]; split; [lra|]; split; [destruct Ha4 as [Ha4|Ha4]; [now left|right; lra]|];
            split; [|reflexivity]; pose proof (at_lt j (j + 1) ltac:(lia) ltac:(lia)); unfold frame_len; transitivity (a - at_ f j)%Q; [field; lra|lra] end).
    all: assert (Exit : exists xi' xf', (if xi =? -1 then do _ <- assert_ ((1 # 2) <b xf); Ok (len f - 2, 1%Q) else Ok (xi, xf)) = Ok (xi', xf') /\
      0 <= xi' < n - 1 /\ (at_ f xi' <= b')%Q /\ (b' <= at_ f (xi' + 1))%Q /\ (xf' * frame_len f xi' == b' - at_ f xi')%Q /\ (xi' = 0 \/ (at_ f xi' < b')%Q) /\
      (xi =? -1) && (xf <b (1 # 2)) = false)
      by (destruct Hb as [(Hb1 & Hb & [= -> ->])|(j & Hj & Hb1 & Hb2 & Hb4 & Hb3 & [= -> ->])];
          [ exists (len f - 2), 1%Q; split; [reflexivity|]; split; [lia|]; assert (Eb : (b' == at_ f (n - 1))%Q) by (unfold b'; minmax; lra);
            unfold frame_len; replace (n - 2 + 1) with (n - 1) by lia; pose proof (at_lt (n - 2) (n - 1) ltac:(lia) ltac:(lia)); split; [lra|]; split; [lra|]; split; [lra|]; split; [right; lra|reflexivity]
          | exists j, ((b - at_ f j) / (at_ f (j + 1) - at_ f j))%Q; rewrite (proj2 (Z.eqb_neq j (-1))) by lia; split; [reflexivity|]; split; [lia|];
            pose proof (at_le (j + 1) (n - 1) ltac:(lia) ltac:(lia)); assert (Eb : (b' == b)%Q) by (unfold b'; minmax; lra); split; [lra|]; split; [lra|];
            split; [pose proof (at_lt j (j + 1) ltac:(lia) ltac:(lia)); unfold frame_len; transitivity (b - at_ f j)%Q; [field; lra|lra]|]; split; [destruct Hb4 as [Hb4|Hb4]; [now left|right; lra]|reflexivity] ]).
    all: destruct Entry as (ei' & ef' & Ee & He & E1 & E2 & E3 & E4 & E5); destruct Exit as (xi' & xf' & Ex & Hx & X1 & X2 & X4 & X3 & X5).
    all: rewrite E5, X5, Ee; cbn [bind orb]; rewrite Ex; cbn [bind].
    all: clear Ha Hb Ee Ex E5 X5 ei ef xi xf.
    all: assert (Hex : ei' <= xi') by
      (destruct (Z_le_gt_dec ei' xi') as [G|G]; [assumption|exfalso]; destruct E3 as [E3|E3]; [lia|]; pose proof (at_le (xi' + 1) ei' ltac:(lia) ltac:(lia)); lra).
    all: rewrite (proj2 (Z.leb_le ei' xi') Hex); cbn [assert_ bind].
    all: pose proof bounds_ab as [Ba Bb]; pose proof (frame_len_pos ei' He) as Le; pose proof (frame_len_pos xi' Hx) as Lx.
    all: pose proof (max_entry ei' xi' He Hx Hle E1 E2 X1 X2) as Me; pose proof (min_exit ei' xi' He Hx Hle E1 E2 X1 X2) as Mx.
    all: destruct (Z.eqb_spec xi' ei') as [Exe|Exe].
    1,3: pose proof (common_same ei' xi' He Hx Hle E1 E2 X1 X2 Exe) as Cs; rewrite Exe in *;
      assert (Fl : ((xf' - ef') * frame_len f ei' == b' - a')%Q) by lra;
      assert (Fd : (ef' <= xf')%Q) by nra;
      rewrite (bool_le _ _ Fd); cbn [assert_ bind];
      destruct (Qeq_bool xf' ef') eqn:Eq; [apply Qeq_bool_iff in Eq; exists []; split; [reflexivity|]; apply contributions_nil; nra|];
      set (fr := ((Qminb b (at_ f (ei' + 1)) - Qmaxb a (at_ f ei')) / (b - a))%Q);
      assert (Efr : (fr == (b' - a') / (b - a))%Q) by (unfold fr; rewrite Me, Mx; reflexivity);
      destruct (div_bounds (b' - a') ltac:(lra) ltac:(lra)) as [D1 D2];
      rewrite (bool_le 0 fr) by lra; rewrite (bool_le fr (1 + (1 # 1000000))) by lra; cbn [andb assert_ bind];
      eexists; (split; [reflexivity|]);
      (split; [exists ei', (ei' + 1); rewrite zrange2_cons, zrange2_nil by lia; reflexivity|]); split;
      [ intros e [<-|[]]; cbn [key fst snd]; (split; [assumption|]); rewrite Cs; (split; [|split; [exact Efr|split; lra]]); (apply (Qmult_inj_r _ _ (frame_len f ei')); [lra|]); rewrite Fl; field; lra
      | intros i Hi Hc; left; cbn [key fst]; destruct (Z.eq_dec ei' i) as [|Ne]; [assumption|]; exfalso;
        rewrite (common_outside ei' ei' He Hx Hle E1 E2 X1 X2 i Hi) in Hc by lia; lra ].
    all: pose proof (common_first ei' xi' He Hx Hle E1 E2 X1 X2 ltac:(lia)) as Cf; pose proof (common_last ei' xi' He Hx Hle E1 E2 X1 X2 ltac:(lia)) as Cl;
      pose proof (at_le (ei' + 1) xi' ltac:(lia) ltac:(lia)) as Fe;
      set (fr := ((at_ f (ei' + 1) - Qmaxb a (at_ f ei')) / (b - a))%Q);
      assert (Efr : (fr == (at_ f (ei' + 1) - a') / (b - a))%Q) by (unfold fr; rewrite Me; reflexivity);
      set (fr' := ((Qminb b (at_ f (xi' + 1)) - at_ f xi') / (b - a))%Q);
      assert (Efr' : (fr' == (b' - at_ f xi') / (b - a))%Q) by (unfold fr'; rewrite Mx; reflexivity);
      destruct (div_bounds (at_ f (ei' + 1) - a') ltac:(lra) ltac:(lra)) as [D1 D2]; destruct (div_bounds (b' - at_ f xi') ltac:(lra) ltac:(lra)) as [D3 D4];
      unfold within01; rewrite (bool_le 0 fr), (bool_le fr 1), (bool_le 0 fr'), (bool_le fr' 1) by lra; cbn [andb assert_ bind];
      eexists; (split; [reflexivity|]);
      (split; [exists ei', (xi' + 1); cbn [map key fst]; rewrite map_app, map_map; cbn [map key fst]; rewrite map_id, (zrange2_cons ei') by lia; f_equal; symmetry; apply zrange2_snoc; lia|]); split;
      [ intros e [<-|He2];
        [ cbn [key fst snd]; (split; [assumption|]); rewrite Cf; (split; [|split; [exact Efr|split; lra]]); unfold frame_len in *; (apply (Qmult_inj_r _ _ (at_ f (ei' + 1) - at_ f ei')); [lra|]); transitivity (at_ f (ei' + 1) - a')%Q; [lra|field; lra]
        | apply in_app_or in He2; destruct He2 as [He2|[<-|[]]];
          [ apply in_map_iff in He2; destruct He2 as (i & <- & Hi); apply in_zrange2 in Hi; cbn [key fst snd]; (split; [lia|]);
            rewrite (common_middle ei' xi' He Hx Hle E1 E2 X1 X2 i) by lia; pose proof (frame_len_pos i ltac:(lia)); pose proof (at_le (ei' + 1) i ltac:(lia) ltac:(lia)); pose proof (at_le (i + 1) xi' ltac:(lia) ltac:(lia)); unfold frame_len in *; split; [field; lra|]; split; [reflexivity|split; lra]
          | cbn [key fst snd]; (split; [assumption|]); rewrite Cl; (split; [|split; [exact Efr'|split; lra]]); (apply (Qmult_inj_r _ _ (frame_len f xi')); [lra|]); rewrite X4; field; lra ] ]
      | intros i Hi Hc; cbn [map key fst]; rewrite map_app, map_map; cbn [map key fst];
        destruct (Z_lt_ge_dec i ei') as [G|G]; [exfalso; rewrite (common_outside ei' xi' He Hx Hle E1 E2 X1 X2 i Hi) in Hc by lia; lra|];
        destruct (Z_lt_ge_dec xi' i) as [G2|G2]; [exfalso; rewrite (common_outside ei' xi' He Hx Hle E1 E2 X1 X2 i Hi) in Hc by lia; lra|];
        destruct (Z.eq_dec ei' i) as [|N1]; [now left|]; right; apply in_or_app; destruct (Z.eq_dec xi' i) as [|N2]; [right; now left|]; left;
        rewrite map_id; apply in_zrange2; lia ].
  Qed.
End Frame.

(** * Sums over intervals *)
Lemma qsum_zero {A} (g : A -> Q) l : (forall x, In x l -> g x == 0)%Q -> (qsum (map g l) == 0)%Q.
Proof.
  intro H. induction l as [|x l IH]; [reflexivity|]. unfold qsum in *. cbn [map fold_right]. rewrite IH by (intros y Hy; apply H; now right).
  rewrite (H x (or_introl eq_refl)). reflexivity.
Qed.
Lemma qsum_sub (g : Z -> Q) : forall K L, NoDup L -> NoDup K -> incl K L -> (forall i, In i L -> ~ In i K -> g i == 0)%Q ->
  (qsum (map g L) == qsum (map g K))%Q.
Proof.
  induction K as [|k K IH]; intros L NL NK HI HZ; [apply qsum_zero; intros x Hx; apply HZ; [assumption|intros []]|].
  destruct (in_split k L (HI k (or_introl eq_refl))) as (l1 & l2 & ->). apply NoDup_cons_iff in NK. destruct NK as [NK1 NK2].
  transitivity (qsum (map g (k :: l1 ++ l2))); [apply qsum_perm, Permutation_map, Permutation_sym, Permutation_middle|].
  unfold qsum at 1 2. cbn [map fold_right]. fold (qsum (map g (l1 ++ l2))) (qsum (map g K)).
  pose proof (NoDup_remove_1 _ _ _ NL) as N1. pose proof (NoDup_remove_2 _ _ _ NL) as N2.
  rewrite (IH (l1 ++ l2) N1 NK2); [reflexivity| |].
  - intros x Hx. assert (Hin : In x (l1 ++ k :: l2)) by (apply HI; now right). apply in_app_or in Hin. apply in_or_app.
    destruct Hin as [?|[->|?]]; [now left|contradiction|now right].
  - intros x Hx Hn. apply HZ; [apply in_app_or in Hx; apply in_or_app; destruct Hx; [now left|right; now right]|]. intros [->|Hk]; contradiction.
Qed.
Lemma fold_left_qsum {A} (g : A -> Q) : forall l s, (fold_left (fun s e => s + g e)%Q l s == s + qsum (map g l))%Q.
Proof. induction l as [|x l IH]; intro s; unfold qsum in *; cbn [fold_left map fold_right]; [lra|]. rewrite IH. lra. Qed.
(** the sum over all the frame intervals *)
Definition over_frame (f : list Q) (g : Z -> Q) : Q := qsum (map g (zrange (len f - 1))).
Section Sums.
  Context (f : list Q) (a b : Q) (l : list (Z * Q * Q)) (HC : Contributions f a b l).
  Lemma contributions_nodup : NoDup (map key l).
  Proof. destruct HC as [(lo & hi & ->) _]. apply NoDup_zrange2. Qed.
  Lemma contributions_sum (h : Z -> Q) : (forall i, 0 <= i < len f - 1 -> (common f a b i == 0)%Q -> (h i == 0)%Q) ->
    (qsum (map (fun e => h (key e)) l) == over_frame f h)%Q.
  Proof.
    intro H. destruct HC as (_ & H1 & H2). unfold over_frame. rewrite <- (map_map key h). symmetry.
    apply qsum_sub; [apply NoDup_zrange|apply contributions_nodup| |].
    - intros i Hi. apply in_map_iff in Hi. destruct Hi as (e & <- & He). apply in_zrange. now apply H1.
    - intros i Hi Hn. apply in_zrange in Hi. apply H; [assumption|]. destruct (Qlt_le_dec 0 (common f a b i)) as [G|G]; [exfalso; now apply Hn, H2|].
      pose proof (overlap_nonneg a b (at_ f i) (at_ f (i + 1))). unfold common in *. lra.
  Qed.
End Sums.
Lemma overlap_split a b c u v : (a <= b)%Q -> (b <= c)%Q -> (u <= v)%Q -> (overlap a b u v + overlap b c u v == overlap a c u v)%Q.
Proof. intros. unfold overlap. minmax; lra. Qed.
Lemma overlap_sym a b c d : (overlap a b c d == overlap c d a b)%Q.
Proof. unfold overlap. minmax; lra. Qed.
Lemma overlap_none a u v : (u <= v)%Q -> (overlap a a u v == 0)%Q. Proof. intros. unfold overlap. minmax; lra. Qed.
(** consecutive pairs *)
Fixpoint steps (l : list Q) : list (Q * Q) :=
  match l with a :: ((b :: _) as l') => (a, b) :: steps l' | _ => [] end.
Lemma last_at l d : l <> [] -> last l d = at_ l (len l - 1).
Proof.
  induction l as [|x l IH]; intro H; [congruence|]. destruct l as [|y l]; [reflexivity|]. change (last (x :: y :: l) d) with (last (y :: l) d).
  rewrite IH by congruence. rewrite (len_cons x). replace (len (y :: l) + 1 - 1) with (len (y :: l) - 1 + 1) by lia.
  rewrite at_cons; [reflexivity|]. rewrite len_cons. pose proof (len_nonneg l). lia.
Qed.
Lemma steps_overlap u v : (u <= v)%Q -> forall l, Increasing l -> l <> [] ->
  (qsum (map (fun c => overlap (fst c) (snd c) u v) (steps l)) == overlap (at_ l 0) (at_ l (len l - 1)) u v)%Q.
Proof.
  intro Huv. induction l as [|x l IH]; intros HI H; [congruence|]. destruct l as [|y l].
  { cbn [steps map]. change (qsum []) with 0%Q. change (len [x] - 1) with 0. now rewrite overlap_none. }
  change (steps (x :: y :: l)) with ((x, y) :: steps (y :: l)). unfold qsum. cbn [map fold_right fst snd]. fold (qsum (map (fun c => overlap (fst c) (snd c) u v) (steps (y :: l)))).
  rewrite IH by (try congruence; now apply increasing_tail in HI). change (at_ (x :: y :: l) 0) with x. change (at_ (y :: l) 0) with y.
  rewrite (len_cons x). replace (len (y :: l) + 1 - 1) with (len (y :: l) - 1 + 1) by lia. rewrite at_cons by (rewrite len_cons; pose proof (len_nonneg l); lia).
  apply overlap_split; [| |assumption].
  - pose proof (HI 0 1 ltac:(lia) ltac:(rewrite !len_cons; pose proof (len_nonneg l); lia)) as G. change (at_ (x :: y :: l) 0) with x in G. change (at_ (x :: y :: l) 1) with y in G. lra.
  - apply increasing_tail in HI. destruct l as [|z l]; [cbn; lra|].
    pose proof (HI 0 (len (y :: z :: l) - 1) ltac:(rewrite !len_cons; pose proof (len_nonneg l); lia) ltac:(rewrite !len_cons; pose proof (len_nonneg l); lia)) as G.
    change (at_ (y :: z :: l) 0) with y in G. lra.
Qed.
Lemma steps_zrange (g : Q -> Q -> Q) l : map (fun c => g (fst c) (snd c)) (steps l) = map (fun i => g (at_ l i) (at_ l (i + 1))) (zrange (len l - 1)).
Proof.
  induction l as [|x l IH]; [reflexivity|]. destruct l as [|y l]; [reflexivity|]. change (steps (x :: y :: l)) with ((x, y) :: steps (y :: l)). cbn [map fst snd]. rewrite IH.
  rewrite (len_cons x). replace (len (y :: l) + 1 - 1) with (len (y :: l)) by lia.
  unfold zrange. rewrite !len_cons. pose proof (len_nonneg l). replace (Z.to_nat (len l + 1)) with (S (Z.to_nat (len l))) by lia.
  replace (Z.to_nat (len l + 1 - 1)) with (Z.to_nat (len l)) by lia. cbn [seq map]. f_equal. rewrite <- seq_shift, !map_map. apply map_ext. intro i.
  replace (Z.of_nat (S i)) with (Z.of_nat i + 1) by lia. rewrite !(at_cons x (y :: l)) by lia. reflexivity.
Qed.
(** everything the cell has in common with the frame *)
Lemma common_total f a b : Increasing f -> 2 <= len f -> (a <= b)%Q ->
  (over_frame f (common f a b) == overlap a b (at_ f 0) (at_ f (len f - 1)))%Q.
Proof.
  intros HI Hn Hab. rewrite overlap_sym. rewrite <- steps_overlap; [|assumption|assumption|intros ->; cbn in Hn; lia].
  rewrite (steps_zrange (fun x y => overlap x y a b)). unfold over_frame. apply qsum_ext. intros i _. apply overlap_sym.
Qed.
