(** GridFnProofs.v: specification and lemmas for GridFnProps. *)
From Verif Require Import QBase GridFnModel.
Open Scope Z_scope.

(** * Specification of infilling *)
Section Spec.
Variables (nk : Z) (o : options) (c : column).
(** a cell is active when its depth is not (nearly) zero *)
Definition Active (k : Z) : Prop := 0 <= k < nk /\ (o_dzt o < Qabs (c_depth c k))%Q.
(** b is the next active cell after a *)
Definition Next (a b : Z) : Prop := Active a /\ Active b /\ a < b /\ forall k, a < k < b -> ~ Active k.
(** upper and lower face of a cell in the direction of increasing k *)
Definition face_before (d t : col) (k : Z) : Q := (d k - o_sign o * (t k / 2))%Q.
Definition face_after (d t : col) (k : Z) : Q := (d k + o_sign o * (t k / 2))%Q.
(** size of the void between two active cells; negative when they overlap *)
Definition gap (a b : Z) : Q := (o_sign o * (face_before (c_depth c) (c_thick c) b - face_after (c_depth c) (c_thick c) a))%Q.
(** the inactive cells between a and b share the void equally, in order *)
Definition Shares (c' : column) (a b : Z) : Prop := forall k, a < k < b ->
  let n := inject_Z (b - a - 1) in let v := (inject_Z (k - a) - half)%Q in
  (c_thick c' k == gap a b / n)%Q /\
  (c_depth c' k == face_after (c_depth c) (c_thick c) a + o_sign o * (v * (gap a b / n)))%Q /\
  (c_x c' k == c_x c a + v * ((c_x c b - c_x c a) / n))%Q /\
  (c_y c' k == c_y c a + v * ((c_y c b - c_y c a) / n))%Q.
Definition Kept (c' : column) (k : Z) : Prop :=
  c_depth c' k = c_depth c k /\ c_thick c' k = c_thick c k /\ c_x c' k = c_x c k /\ c_y c' k = c_y c k.
End Spec.

(** * Lemmas *)
Lemma tiny_false o v : tiny (o_dzt o) v = false <-> (o_dzt o < Qabs v)%Q.
Proof. unfold tiny. rewrite Qleb_false. reflexivity. Qed.
Lemma tiny_zero t v : tiny t v = true -> tiny t 0%Q = true.
Proof. unfold tiny. rewrite !Qleb_iff. intros H. change (Qabs 0) with 0%Q. pose proof (Qabs_nonneg v). lra. Qed.

Lemma clean_up_spec o : forall n k c k2 c', clean_up n o k c = (k2, c') ->
  k <= k2 <= k + Z.of_nat n /\
  (forall j, k <= j < k2 -> tiny (o_dzt o) (c_depth c j) = true) /\
  (k2 = k + Z.of_nat n \/ tiny (o_dzt o) (c_depth c k2) = false) /\
  (forall j, k <= j < k2 -> c_depth c' j = 0%Q /\ c_thick c' j = 0%Q) /\
  (forall j, ~ (k <= j < k2) -> Kept c c' j).
Proof.
  induction n as [|n IH]; intros k c k2 c' E; cbn [clean_up] in E.
  - injection E as <- <-. split; [lia|]. split; [intros; lia|]. split; [left; lia|]. split; [intros; lia|]. intros; unfold Kept; auto.
  - destruct (tiny (o_dzt o) (c_depth c k)) eqn:T.
    2:{ injection E as <- <-. split; [lia|]. split; [intros; lia|]. split; [right; exact T|]. split; [intros; lia|]. intros; unfold Kept; auto. }
    apply IH in E as (B & T1 & T2 & Z1 & K1). cbn [c_depth c_thick c_x c_y] in *.
    split; [lia|]. split; [|split; [|split]].
    + intros j Hj. destruct (Z.eq_dec j k) as [->|]; [exact T|]. specialize (T1 j ltac:(lia)). unfold put in T1. replace (j =? k) with false in T1 by lia. exact T1.
    + destruct T2 as [->|T2]; [left; lia|right]. unfold put in T2. replace (k2 =? k) with false in T2 by lia. exact T2.
    + intros j Hj. destruct (Z.eq_dec j k) as [->|]; [|apply Z1; lia].
      destruct (K1 k ltac:(lia)) as (A & B' & _). cbn [c_depth c_thick] in A, B'. rewrite A, B'. unfold put. rewrite !Z.eqb_refl. auto.
    + intros j Hj. destruct (K1 j ltac:(lia)) as (A & B' & C & D). cbn [c_depth c_thick c_x c_y] in *.
      unfold put in *. replace (j =? k) with false in * by lia.
      repeat split; auto; [rewrite C|rewrite D]; match goal with |- context [if ?x then _ else _] => destruct x end; try reflexivity; replace (j =? k) with false by lia; reflexivity.
Qed.
Lemma skip_active_spec o c : forall n k k1, skip_active n o k c = k1 ->
  k <= k1 <= k + Z.of_nat n /\ (forall j, k <= j < k1 -> tiny (o_dzt o) (c_depth c j) = false) /\
  (k1 = k + Z.of_nat n \/ tiny (o_dzt o) (c_depth c k1) = true).
Proof.
  induction n as [|n IH]; intros k k1 E; cbn [skip_active] in E.
  - subst. split; [lia|]. split; [intros; lia|left; lia].
  - destruct (tiny (o_dzt o) (c_depth c k)) eqn:T; cbn [negb] in E.
    + subst. split; [lia|]. split; [intros; lia|right; exact T].
    + apply IH in E as (B & A & S). split; [lia|]. split; [|destruct S; [left; lia|right; assumption]].
      intros j Hj. destruct (Z.eq_dec j k) as [->|]; [exact T|]. apply A. lia.
Qed.
Lemma fill_spec n m kt sign top thick tx dx ty dy c : let c' := fill n m kt sign top thick tx dx ty dy c in
  (forall k, ~ (kt <= k < kt + Z.of_nat n) -> Kept c c' k) /\
  (forall k, kt <= k < kt + Z.of_nat n -> let v := (half + inject_Z (k - kt))%Q in
     c_depth c' k = (top + v * thick * sign)%Q /\ c_thick c' k = thick /\
     c_x c' k = (tx + v * dx / inject_Z m)%Q /\ c_y c' k = (ty + v * dy / inject_Z m)%Q).
Proof.
  cbn zeta. induction n as [|n [IH1 IH2]]; cbn [fill].
  - split; [intros; unfold Kept; auto|intros; lia].
  - set (c1 := fill n m kt sign top thick tx dx ty dy c) in *. split.
    + intros k Hk. destruct (IH1 k ltac:(lia)) as (A & B & C & D). unfold Kept. cbn [c_depth c_thick c_x c_y]. unfold put.
      replace (k =? kt + Z.of_nat n) with false by lia. auto.
    + intros k Hk. cbn [c_depth c_thick c_x c_y]. unfold put. destruct (Z.eqb_spec k (kt + Z.of_nat n)) as [->|N].
      * replace (kt + Z.of_nat n - kt) with (Z.of_nat n) by lia. auto.
      * apply IH2. lia.
Qed.

Section Infill.
Variables (nk : Z) (o : options) (c0 : column).
Let Act := Active nk o c0.
Record Inv (kt : Z) (c : column) : Prop := {
  inv_act : Act kt;
  inv_kept : forall k, Act k -> Kept c0 c k;
  inv_tiny : forall k, kt <= k < nk -> tiny (o_dzt o) (c_depth c k) = tiny (o_dzt o) (c_depth c0 k);
  inv_shares : forall a b, Next nk o c0 a b -> b <= kt -> Shares o c0 c a b;
  inv_above : forall k, 0 <= k < nk -> (forall a, Act a -> k < a) -> c_depth c k = 0%Q /\ c_thick c k = 0%Q }.
(** the state at the end, before snapping: kt - 1 is the last active cell *)
Record Fin (kt : Z) (c : column) : Prop := {
  fin_last : Act (kt - 1);
  fin_after : forall k, Act k -> k < kt;
  fin_kept : forall k, Act k -> Kept c0 c k;
  fin_shares : forall a b, Next nk o c0 a b -> Shares o c0 c a b;
  fin_above : forall k, 0 <= k < nk -> (forall a, Act a -> k < a) -> c_depth c k = 0%Q /\ c_thick c k = 0%Q;
  fin_below : forall k, kt <= k < nk -> tiny (o_dzt o) (c_depth c k) = true }.
Lemma act_tiny k : Act k <-> 0 <= k < nk /\ tiny (o_dzt o) (c_depth c0 k) = false.
Proof. unfold Act, Active. rewrite tiny_false. reflexivity. Qed.
Lemma shares_ext c c' a b : (forall k, a < k < b -> Kept c c' k) -> Shares o c0 c a b -> Shares o c0 c' a b.
Proof. intros K S k Hk. destruct (K k Hk) as (A & B & C & D). cbn zeta. rewrite A, B, C, D. apply S; exact Hk. Qed.

Hypothesis gaps : forall a b, Next nk o c0 a b -> a + 1 < b -> (0 <= gap o c0 a b)%Q.

Lemma loop_spec : forall fuel kt c, Inv kt c -> nk - kt <= Z.of_nat fuel ->
  exists kt' c', infill_loop fuel nk o kt c = (snap o kt' true c', Ok tt) /\ Fin kt' c'.
Proof.
  induction fuel as [|fuel IH]; intros kt c Iv F.
  - destruct (inv_act _ _ Iv) as [? _]. lia.
  - pose proof Iv as [Ia Ik It Is Ib]. pose proof Ia as [Bk _]. cbn [infill_loop].
    destruct (skip_active_spec o c (Z.to_nat (nk - kt)) kt _ eq_refl) as (B1 & A1 & S1).
    set (k1 := skip_active (Z.to_nat (nk - kt)) o kt c) in *.
    assert (K1 : kt < k1).
    { destruct (Z.eq_dec k1 kt) as [E|]; [|lia]. exfalso. destruct S1 as [S1|S1]; [lia|]. rewrite E, It in S1 by lia. apply act_tiny in Ia. destruct Ia; congruence. }
    assert (AC : forall k, kt <= k < k1 -> Act k) by (intros k Hk; apply act_tiny; split; [lia|]; rewrite <- It by lia; apply A1; exact Hk).
    destruct (clean_up (Z.to_nat (nk - (k1 + 1))) o (k1 + 1) c) as [k2 c2] eqn:CU.
    pose proof (clean_up_spec o _ _ _ _ _ CU) as (B2 & T2 & S2 & Z2 & Kp2).
    assert (IA : forall k, k1 <= k < k2 -> k < nk -> ~ Act k).
    { intros k Hk Hn A. apply act_tiny in A as [_ A]. destruct (Z.eq_dec k k1) as [->|].
      - destruct S1 as [S1|S1]; [lia|]. rewrite It in S1 by lia. congruence.
      - specialize (T2 k ltac:(lia)). rewrite It in T2 by lia. congruence. }
    assert (AL : forall k, Act k -> Kept c0 c2 k).
    { intros k A. destruct (Ik k A) as (E1 & E2 & E3 & E4).
      assert (N : ~ (k1 + 1 <= k < k2)) by (intros H; apply (IA k); [lia|destruct A as [? _]; lia|exact A]).
      destruct (Kp2 k N) as (F1 & F2 & F3 & F4). unfold Kept. rewrite F1, F2, F3, F4. auto. }
    assert (SH : forall a b, Next nk o c0 a b -> b < k1 -> Shares o c0 c2 a b).
    { intros a b N L. destruct (Z_le_dec b kt) as [Lb|Lb].
      - eapply shares_ext; [|apply Is; [exact N|exact Lb]]. intros k Hk. apply Kp2. lia.
      - (* b - 1 is active too *) intros k Hk. exfalso. destruct N as (_ & _ & _ & NA). apply (NA (b - 1)); [lia|]. apply AC. lia. }
    assert (AB : forall k, 0 <= k < nk -> (forall a, Act a -> k < a) -> c_depth c2 k = 0%Q /\ c_thick c2 k = 0%Q).
    { intros k Hk H. destruct (Kp2 k) as (E1 & E2 & _); [specialize (H kt Ia); lia|]. rewrite E1, E2. apply Ib; assumption. }
    destruct (Z.leb_spec nk k2) as [Le|Lt].
    + exists k1, c2. split; [reflexivity|]. constructor.
      * apply AC. lia.
      * intros k A. destruct (Z_lt_dec k k1); [assumption|]. exfalso. apply (IA k); [destruct A; lia|destruct A; lia|exact A].
      * exact AL.
      * intros a b N. apply SH; [exact N|]. destruct N as (_ & A & _). destruct (Z_lt_dec b k1); [assumption|]. exfalso. apply (IA b); [destruct A; lia|destruct A; lia|exact A].
      * exact AB.
      * intros k Hk. destruct (Z_lt_dec k (k1 + 1)).
        -- replace k with k1 in * by lia. destruct (Kp2 k1 ltac:(lia)) as (E1 & _). rewrite E1. destruct S1 as [S1|S1]; [lia|exact S1].
        -- destruct (Z2 k ltac:(lia)) as (E1 & _). rewrite E1. apply tiny_zero with (c_depth c k). apply T2. lia.
    + destruct S2 as [S2|S2]; [lia|].
      assert (A2 : Act k2) by (apply act_tiny; split; [lia|]; rewrite <- It by lia; exact S2).
      assert (N12 : Next nk o c0 (k1 - 1) k2).
      { split; [apply AC; lia|]. split; [exact A2|]. split; [lia|]. intros k Hk A. apply (IA k); [lia|lia|exact A]. }
      destruct (AL (k1 - 1) ltac:(apply AC; lia)) as (P1 & P2 & P3 & P4).
      destruct (AL k2 A2) as (Q1 & Q2 & Q3 & Q4).
      set (top := (c_depth c2 (k1 - 1)%Z + c_thick c2 (k1 - 1)%Z / 2 * o_sign o)%Q).
      set (bottom := (c_depth c2 k2 - c_thick c2 k2 / 2 * o_sign o)%Q).
      assert (G : (o_sign o * (bottom - top) == gap o c0 (k1 - 1) k2)%Q).
      { unfold gap, bottom, top, face_before, face_after. rewrite P1, P2, Q1, Q2. field. }
      assert (M : 0 < k2 - k1) by lia.
      assert (MQ : (0 < inject_Z (k2 - k1))%Q) by (change 0%Q with (inject_Z 0); rewrite <- Zlt_Qlt; exact M).
      assert (GP : (0 <= gap o c0 (k1 - 1) k2)%Q) by (apply gaps; [exact N12|lia]).
      assert (I0 : Qltb (o_sign o * (bottom - top)) 0%Q = false) by (apply Qltb_false; rewrite G; exact GP).
      assert (I1 : Qle_bool 0%Q (o_sign o * (bottom - top) / inject_Z (k2 - k1))%Q = true).
      { apply Qleb_iff. apply Qle_div_mult; [exact MQ|]. rewrite G. lra. }
      rewrite I0, I1. cbn [negb].
      pose proof (fill_spec (Z.to_nat (k2 - k1)) (k2 - k1) k1 (o_sign o) top (o_sign o * (bottom - top) / inject_Z (k2 - k1))%Q
                   (c_x c2 (k1 - 1)%Z) (c_x c2 k2 - c_x c2 (k1 - 1)%Z)%Q (c_y c2 (k1 - 1)%Z) (c_y c2 k2 - c_y c2 (k1 - 1)%Z)%Q c2) as [FK FV].
      set (c3 := fill _ _ _ _ _ _ _ _ _ _ c2) in *. replace (k1 + Z.of_nat (Z.to_nat (k2 - k1))) with k2 in * by lia.
      apply IH; [|lia]. constructor.
      * exact A2.
      * intros k A. destruct (AL k A) as (E1 & E2 & E3 & E4).
        assert (N : ~ (k1 <= k < k2)) by (intros H; apply (IA k); [lia|lia|exact A]).
        destruct (FK k N) as (F1 & F2 & F3 & F4). unfold Kept. rewrite F1, F2, F3, F4. auto.
      * intros k Hk. destruct (FK k ltac:(lia)) as (F1 & _). destruct (Kp2 k ltac:(lia)) as (F2 & _). rewrite F1, F2. apply It. lia.
      * intros a b N Lb. destruct (Z_lt_dec b k1) as [L|L].
        -- eapply shares_ext; [|apply SH; [exact N|exact L]]. intros k Hk. apply FK. lia.
        -- assert (b = k2).
           { destruct N as (_ & A & _). destruct (Z.eq_dec b k2); [assumption|]. exfalso. apply (IA b); [lia|destruct A; lia|exact A]. }
           subst b. assert (a = k1 - 1).
           { destruct N as (A & _ & La & NA). destruct (Z_lt_dec a (k1 - 1)); [exfalso; apply (NA (k1 - 1)); [lia|apply AC; lia]|].
             destruct (Z_lt_dec (k1 - 1) a); [exfalso; apply (IA a); [lia|lia|exact A]|lia]. }
           subst a. intros k Hk. destruct (FV k ltac:(lia)) as (V1 & V2 & V3 & V4). cbn zeta.
           rewrite V1, V2, V3, V4. replace (k2 - (k1 - 1) - 1) with (k2 - k1) by lia.
           assert (HV : (inject_Z (k - (k1 - 1)) - half == half + inject_Z (k - k1))%Q).
           { replace (k - (k1 - 1)) with (k - k1 + 1) by lia. rewrite inject_Z_plus. unfold half. change (inject_Z 1) with 1%Q. lra. }
           rewrite HV, G, P3, P4, Q3, Q4. set (v := (half + inject_Z (k - k1))%Q). set (n := inject_Z (k2 - k1)) in *.
           assert (TE : (top == face_after o (c_depth c0) (c_thick c0) (k1 - 1))%Q).
           { unfold top, face_after. rewrite P1, P2. ring. }
           rewrite TE. repeat split; field; lra.
      * intros k Hk H. destruct (FK k) as (E1 & E2 & _); [specialize (H kt Ia); lia|]. rewrite E1, E2. apply AB; assumption.
Qed.

Lemma column_spec : (exists k, Act k) ->
  exists kt c, infill_column nk o c0 = (snap o kt true c, Ok tt) /\ Fin kt c.
Proof.
  intros (ka & A). unfold infill_column. destruct (clean_up (Z.to_nat nk) o 0 c0) as [k2 c2] eqn:CU.
  pose proof (clean_up_spec o _ _ _ _ _ CU) as (B2 & T2 & S2 & Z2 & Kp2). pose proof A as A'. destruct A' as [Bk _].
  assert (L : k2 <= ka). { destruct (Z_le_dec k2 ka); [assumption|]. exfalso. apply act_tiny in A as [_ A]. rewrite T2 in A by lia. discriminate. }
  destruct (Z.leb_spec nk k2); [lia|]. destruct S2 as [S2|S2]; [lia|]. cbn [snap].
  apply loop_spec; [|lia]. constructor.
  - apply act_tiny. split; [lia|exact S2].
  - intros k Ak. apply Kp2. intros H1. apply act_tiny in Ak as [_ Ak]. rewrite T2 in Ak by lia. discriminate.
  - intros k Hk. destruct (Kp2 k ltac:(lia)) as (E & _). rewrite E. reflexivity.
  - intros a b (Aa & _ & La & _) Lb. exfalso. apply act_tiny in Aa as [Ba Aa]. rewrite T2 in Aa by lia. discriminate.
  - intros k Hk H1. apply Z2. split; [lia|]. apply H1. apply act_tiny. split; [lia|exact S2].
Qed.
End Infill.

(** active cells survive without snapping, even when the loop stops early *)
Section Keep.
Variables (nk : Z) (o : options) (c0 : column).
Hypothesis nosnap : o_snap o = false.
Lemma loop_keeps : forall fuel kt c c' r, (forall k, Active nk o c0 k -> Kept c0 c k) ->
  (forall k, kt <= k < nk -> tiny (o_dzt o) (c_depth c k) = tiny (o_dzt o) (c_depth c0 k)) ->
  infill_loop fuel nk o kt c = (c', r) -> forall k, Active nk o c0 k -> Kept c0 c' k.
Proof.
  induction fuel as [|fuel IH]; intros kt c c' r Hk Ht E; cbn [infill_loop] in E; [injection E as <- _; exact Hk|].
  destruct (skip_active_spec o c (Z.to_nat (nk - kt)) kt _ eq_refl) as (B1 & A1 & S1).
  set (k1 := skip_active (Z.to_nat (nk - kt)) o kt c) in *.
  destruct (clean_up (Z.to_nat (nk - (k1 + 1))) o (k1 + 1) c) as [k2 c2] eqn:CU.
  pose proof (clean_up_spec o _ _ _ _ _ CU) as (B2 & T2 & S2 & Z2 & Kp2).
  assert (IA : forall k, k1 <= k < k2 -> ~ Active nk o c0 k).
  { intros k Hk' A. apply act_tiny in A as [Bn A]. destruct (Z.eq_dec k k1) as [->|].
    - destruct S1 as [S1|S1]; [lia|]. rewrite Ht in S1 by lia. congruence.
    - specialize (T2 k ltac:(lia)). rewrite Ht in T2 by lia. congruence. }
  assert (AL : forall k, Active nk o c0 k -> Kept c0 c2 k).
  { intros k A. destruct (Hk k A) as (E1 & E2 & E3 & E4).
    destruct (Kp2 k) as (F1 & F2 & F3 & F4); [intros H; apply (IA k); [lia|exact A]|]. unfold Kept. rewrite F1, F2, F3, F4. auto. }
  destruct (nk <=? k2) eqn:Q; [injection E as <- _; unfold snap; rewrite nosnap; exact AL|].
  destruct (Qltb _ 0%Q). { destruct (Qltb _ (o_overlap o)); injection E as <- _; exact AL. }
  destruct (negb _); [injection E as <- _; exact AL|].
  eapply IH; [| |exact E].
  - intros k A. destruct (AL k A) as (E1 & E2 & E3 & E4).
    edestruct (fill_spec (Z.to_nat (k2 - k1)) (k2 - k1) k1) as [FK _].
    destruct (FK k) as (F1 & F2 & F3 & F4); [intros H; apply (IA k); [lia|exact A]|]. unfold Kept. rewrite F1, F2, F3, F4. auto.
  - intros k Hk'. edestruct (fill_spec (Z.to_nat (k2 - k1)) (k2 - k1) k1) as [FK _].
    destruct (FK k) as (F1 & _); [lia|]. rewrite F1. destruct (Kp2 k ltac:(lia)) as (F2 & _). rewrite F2. apply Ht. lia.
Qed.
End Keep.

(** * Corner points *)
Lemma z24 n : 0 <= n < 24 -> In n (zrange 24).
Proof. intros H. apply in_zrange. exact H. Qed.
Lemma forall24 (P : Z -> Prop) : Forall P (zrange 24) -> forall n, 0 <= n < 24 -> P n.
Proof. intros F n H. rewrite Forall_forall in F. apply F. apply z24. exact H. Qed.

(** * Translation *)
Lemma qmin_list_le d l : (qmin_list d l <= d)%Q /\ forall x, In x l -> (qmin_list d l <= x)%Q.
Proof.
  induction l as [|y l [IH1 IH2]]; cbn; [split; [lra|tauto]|].
  destruct (Qminb_spec y (qmin_list d l)) as [[H E]|[H E]]; rewrite E; (split; [lra|]); intros x [<-|I]; try specialize (IH2 x I); lra.
Qed.
Lemma qmin_list_in d l : In (qmin_list d l) (d :: l).
Proof.
  induction l as [|y l IH]; cbn; [auto|]. destruct (Qminb_spec y (qmin_list d l)) as [[H E]|[H E]]; rewrite E; [auto|]. destruct IH; auto.
Qed.
