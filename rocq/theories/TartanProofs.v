(** TartanProofs.v: rounding and the tartan refinement loop (C13). *)
From Verif Require Import Base BoxModel BoxProofs FineCoarseModel FineCoarseProofs FineCoarseProofs2.
From Coq Require Import QArith Qround Qpower Lqa.
Open Scope Z_scope.

(** * Rounding half to even *)
Lemma floor_bounds q : (inject_Z (Qfloor q) <= q /\ q < inject_Z (Qfloor q + 1))%Q.
Proof. split; [apply Qfloor_le|apply Qlt_floor]. Qed.

Lemma around_cases q : (around q = Qfloor q /\ (q - inject_Z (Qfloor q) <= 1 # 2)%Q) \/
  (around q = Qfloor q + 1 /\ ((1 # 2) <= q - inject_Z (Qfloor q))%Q).
Proof.
  unfold around. destruct (Qcompare_spec (q - inject_Z (Qfloor q)) (1 # 2)) as [E|E|E].
  - destruct (Z.even _); [left|right]; split; try reflexivity; lra.
  - left. split; [reflexivity|lra].
  - right. split; [reflexivity|lra].
Qed.

Lemma around_nearest q : (- (1 # 2) <= q - inject_Z (around q) <= 1 # 2)%Q.
Proof.
  pose proof (floor_bounds q) as [H1 H2]. rewrite inject_Z_plus in H2.
  destruct (around_cases q) as [[-> H]|[-> H]]; rewrite ?inject_Z_plus; change (inject_Z 1) with 1%Q in *; lra.
Qed.

Lemma around_comp q1 q2 : (q1 == q2)%Q -> around q1 = around q2.
Proof.
  intros E. unfold around. assert (Qfloor q1 = Qfloor q2) as -> by now apply Qfloor_comp.
  assert (((q1 - inject_Z (Qfloor q2)) ?= (1 # 2)) = ((q2 - inject_Z (Qfloor q2)) ?= (1 # 2)))%Q as ->; [|reflexivity].
  apply Qcompare_comp; [now rewrite E|reflexivity].
Qed.

Lemma around_mono q1 q2 : (q1 <= q2)%Q -> around q1 <= around q2.
Proof.
  intros E. pose proof (Qfloor_resp_le _ _ E) as Hf.
  destruct (Z.eq_dec (Qfloor q1) (Qfloor q2)) as [Ef|Ef].
  - unfold around. rewrite <- Ef.
    destruct (Qcompare_spec (q1 - inject_Z (Qfloor q1)) (1 # 2)) as [E1|E1|E1];
    destruct (Qcompare_spec (q2 - inject_Z (Qfloor q1)) (1 # 2)) as [E2|E2|E2];
    try (destruct (Z.even _); lia); try lra; try lia.
  - assert (around q1 <= Qfloor q1 + 1) by (destruct (around_cases q1) as [[-> _]|[-> _]]; lia).
    assert (Qfloor q2 <= around q2) by (destruct (around_cases q2) as [[-> _]|[-> _]]; lia). lia.
Qed.

Lemma around_Z z : around (inject_Z z) = z.
Proof.
  unfold around. rewrite Qfloor_Z.
  destruct (Qcompare_spec (inject_Z z - inject_Z z) (1 # 2)) as [E|E|E]; try reflexivity; lra.
Qed.

Lemma around_ge z q : (inject_Z z <= q)%Q -> z <= around q.
Proof. intros H. rewrite <- (around_Z z). now apply around_mono. Qed.
Lemma around_le z q : (q <= inject_Z z)%Q -> around q <= z.
Proof. intros H. rewrite <- (around_Z z). now apply around_mono. Qed.

(** * The unrounded refinement factor [d] slices away from the fovea *)
Definition factor (m : decay_mode) (r : Z) (rate : Q) (d : Z) : Q :=
  match m with
  | Linear => (inject_Z r - inject_Z d * rate)%Q
  | Exponential => (inject_Z r * rate ^ d)%Q
  end.

(** The rates allowed by the documentation. *)
Definition RateOK (m : decay_mode) (rate : Q) : Prop :=
  match m with Linear => (0 <= rate)%Q | Exponential => (0 <= rate <= 1)%Q end.

Definition iterfac (m : decay_mode) (r : Z) (rate : Q) (t : nat) : Q :=
  Nat.iter t (fun x => decay m x rate) (inject_Z r).

Lemma iterfac_factor m r rate t : (iterfac m r rate t == factor m r rate (Z.of_nat t))%Q.
Proof.
  induction t as [|t IH].
  - change (iterfac m r rate 0) with (inject_Z r). change (Z.of_nat 0) with 0.
    destruct m; unfold factor; [change (rate ^ 0)%Q with 1%Q|change (inject_Z 0) with 0%Q]; ring.
  - change (iterfac m r rate (S t)) with (decay m (iterfac m r rate t) rate).
    rewrite Nat2Z.inj_succ, <- Z.add_1_r.
    destruct m; cbn [decay factor] in *; rewrite IH.
    + rewrite Qpower_plus' by lia. change (rate ^ 1)%Q with rate. ring.
    + rewrite inject_Z_plus. change (inject_Z 1) with 1%Q. ring.
Qed.

Lemma factor_step m r rate d : RateOK m rate -> 0 <= r -> 0 <= d ->
  (factor m r rate (d + 1) <= factor m r rate d)%Q.
Proof.
  intros H Hr Hd. assert (Hr' : (0 <= inject_Z r)%Q) by (change 0%Q with (inject_Z 0); now rewrite <- Zle_Qle).
  destruct m; cbn [factor RateOK] in *.
  - assert (Hp : (0 <= rate ^ d)%Q) by (apply Qpower_pos; lra).
    assert (Hs : (rate ^ (d + 1) == rate ^ d * rate)%Q).
    { rewrite Qpower_plus' by lia. change (rate ^ 1)%Q with rate. reflexivity. }
    rewrite Hs. assert ((rate ^ d * rate <= rate ^ d)%Q) by nra. nra.
  - rewrite inject_Z_plus. change (inject_Z 1) with 1%Q. lra.
Qed.

Lemma factor_mono m r rate d d' : RateOK m rate -> 0 <= r -> 0 <= d <= d' ->
  (factor m r rate d' <= factor m r rate d)%Q.
Proof.
  intros H Hr Hd. replace d' with (d + Z.of_nat (Z.to_nat (d' - d))) by lia.
  induction (Z.to_nat (d' - d)) as [|k IH].
  - rewrite Z.add_0_r. apply Qle_refl.
  - rewrite Nat2Z.inj_succ. replace (d + Z.succ (Z.of_nat k)) with (d + Z.of_nat k + 1) by lia.
    eapply Qle_trans; [apply factor_step; lia || assumption|exact IH].
Qed.

Lemma factor_0 m r rate : (factor m r rate 0 == inject_Z r)%Q.
Proof. destruct m; unfold factor; [change (rate ^ 0)%Q with 1%Q|change (inject_Z 0) with 0%Q]; ring. Qed.

(** * The loop *)
Lemma set_nth_length l i v : List.length (set_nth l i v) = List.length l.
Proof.
  unfold set_nth. destruct ((0 <=? i) && (i <? Z.of_nat (List.length l))) eqn:E; [|reflexivity].
  rewrite app_length, firstn_length. cbn [List.length]. rewrite skipn_length. lia.
Qed.
Lemma nth_skipn_add {A} (d : A) n : forall k l, nth k (skipn n l) d = nth (n + k) l d.
Proof.
  induction n as [|n IH]; intros k l; [reflexivity|]. destruct l; cbn [skipn]; [now destruct k|]. apply IH.
Qed.
Lemma set_nth_nth l i v j : 0 <= i < Z.of_nat (List.length l) -> 0 <= j ->
  nth (Z.to_nat j) (set_nth l i v) 0 = if j =? i then v else nth (Z.to_nat j) l 0.
Proof.
  intros Hi Hj. unfold set_nth. assert ((0 <=? i) && (i <? Z.of_nat (List.length l)) = true) as -> by lia.
  assert (Hl : List.length (firstn (Z.to_nat i) l) = Z.to_nat i) by (rewrite firstn_length; lia).
  destruct (Z.eqb_spec j i) as [->|Hne].
  - rewrite app_nth2 by lia. rewrite Hl, Nat.sub_diag. reflexivity.
  - destruct (Z_lt_ge_dec j i).
    + rewrite app_nth1 by lia. rewrite <- (firstn_skipn (Z.to_nat i) l) at 2. rewrite app_nth1 by lia. reflexivity.
    + rewrite app_nth2 by lia. rewrite Hl.
      replace (Z.to_nat j - Z.to_nat i)%nat with (S (Z.to_nat j - Z.to_nat i - 1)) by lia. cbn [nth].
      rewrite nth_skipn_add. f_equal. lia.
Qed.

Lemma decay_step m r rate t f : 0 <= t -> (f == factor m r rate (t + 1))%Q ->
  (decay m f rate == factor m r rate (t + 1 + 1))%Q.
Proof.
  intros Ht Hfe. pose proof (iterfac_factor m r rate (S (Z.to_nat (t + 1)))) as Hx.
  change (iterfac m r rate (S (Z.to_nat (t + 1)))) with (decay m (iterfac m r rate (Z.to_nat (t + 1))) rate) in Hx.
  replace (Z.of_nat (S (Z.to_nat (t + 1)))) with (t + 1 + 1) in Hx by lia. rewrite <- Hx.
  pose proof (iterfac_factor m r rate (Z.to_nat (t + 1))) as Hy.
  replace (Z.of_nat (Z.to_nat (t + 1))) with (t + 1) in Hy by lia. rewrite <- Hfe in Hy.
  destruct m; cbn [decay]; rewrite Hy; reflexivity.
Qed.

Section Loop.
Context (m : decay_mode) (n a b r : Z) (ra rb : Q).
Context (Hab : 0 <= a <= b) (Hb : b < n).

Let va d := around (factor m r ra d).
Let vb d := around (factor m r rb d).

(** Contents of the ratio vector after [t] turns. *)
Definition val (t i : Z) : Z :=
  if (a <=? i) && (i <=? b) then r
  else if i <? a then (if a - i <=? t then va (a - i) else 1)
  else (if i - b <=? t then vb (i - b) else 1).

Definition Inv (t : Z) (rs : list Z) : Prop :=
  Z.of_nat (List.length rs) = n /\ forall i, 0 <= i < n -> nth (Z.to_nat i) rs 0 = val t i.

Definition goes_on (t : Z) : Prop :=
  (1 < va (t + 1) \/ 1 < vb (t + 1)) /\ (0 < a - t \/ b + t < n - 1).

Lemma inv_step t rs : 0 <= t -> Inv t rs ->
  let rs1 := if 0 <=? a - t - 1 then set_nth rs (a - t - 1) (va (t + 1)) else rs in
  let rs2 := if b + t + 1 <? n then set_nth rs1 (b + t + 1) (vb (t + 1)) else rs1 in
  Inv (t + 1) rs2.
Proof.
  intros Ht [Hl Hv] rs1 rs2.
  assert (Hl1 : Z.of_nat (List.length rs1) = n).
  { unfold rs1. destruct (0 <=? _); [rewrite set_nth_length|]; assumption. }
  split.
  - unfold rs2. destruct (_ <? _); [rewrite set_nth_length|]; assumption.
  - intros i Hi.
    assert (H1 : nth (Z.to_nat i) rs1 0 = if i =? a - t - 1 then va (t + 1) else val t i).
    { unfold rs1. destruct (Z.leb_spec 0 (a - t - 1)).
      - rewrite set_nth_nth by lia. destruct (i =? a - t - 1); [reflexivity|]. now apply Hv.
      - assert (i =? a - t - 1 = false) as -> by lia. now apply Hv. }
    assert (H2 : nth (Z.to_nat i) rs2 0 = if i =? b + t + 1 then vb (t + 1) else nth (Z.to_nat i) rs1 0).
    { unfold rs2. destruct (Z.ltb_spec (b + t + 1) n).
      - rewrite set_nth_nth by lia. reflexivity.
      - assert (i =? b + t + 1 = false) as -> by lia. reflexivity. }
    rewrite H2, H1. unfold val.
    destruct (Z.eqb_spec i (b + t + 1)) as [->|N1].
    + assert ((a <=? b + t + 1) && (b + t + 1 <=? b) = false) as -> by lia.
      assert (b + t + 1 <? a = false) as -> by lia.
      assert (b + t + 1 - b <=? t + 1 = true) as -> by lia. f_equal. lia.
    + destruct (Z.eqb_spec i (a - t - 1)) as [->|N2].
      * assert ((a <=? a - t - 1) && (a - t - 1 <=? b) = false) as -> by lia.
        assert (a - t - 1 <? a = true) as -> by lia.
        assert (a - (a - t - 1) <=? t + 1 = true) as -> by lia. f_equal. lia.
      * destruct ((a <=? i) && (i <=? b)) eqn:E; [reflexivity|].
        destruct (Z.ltb_spec i a).
        -- assert ((a - i <=? t + 1) = (a - i <=? t)) as -> by lia. reflexivity.
        -- assert ((i - b <=? t + 1) = (i - b <=? t)) as -> by lia. reflexivity.
Qed.

Lemma loop_spec fuel : forall t rs fa fb, 0 <= t -> Inv t rs ->
  (fa == factor m r ra (t + 1))%Q -> (fb == factor m r rb (t + 1))%Q -> n - t <= Z.of_nat fuel ->
  exists t' rs', tartan_loop fuel m n ra rb (a - t) (b + t) fa fb rs = Ok rs' /\ t <= t' /\ Inv t' rs' /\
    ~ goes_on t' /\ forall s, t <= s < t' -> goes_on s.
Proof.
  induction fuel as [|fuel IH]; intros t rs fa fb Ht Hi Ha Hb' Hf; cbn [tartan_loop].
  - destruct (_ && _) eqn:E.
    + exfalso. lia.
    + exists t, rs. repeat split; try lia; try apply Hi.
      unfold goes_on. unfold va, vb. rewrite <- (around_comp _ _ Ha), <- (around_comp _ _ Hb'). lia.
  - destruct (_ && _) eqn:E.
    + assert (Eg : goes_on t).
      { unfold goes_on, va, vb. rewrite <- (around_comp _ _ Ha), <- (around_comp _ _ Hb'). lia. }
      pose proof (inv_step t rs Ht Hi) as Hi'.
      rewrite (around_comp _ _ Ha), (around_comp _ _ Hb').
      change (around (factor m r ra (t + 1))) with (va (t + 1)).
      change (around (factor m r rb (t + 1))) with (vb (t + 1)).
      replace (a - t - 1) with (a - (t + 1)) in * by lia.
      replace (b + t + 1) with (b + (t + 1)) in * by lia.
      destruct (IH (t + 1) _ (decay m fa ra) (decay m fb rb) ltac:(lia) Hi' (decay_step m r ra t fa Ht Ha) (decay_step m r rb t fb Ht Hb') ltac:(lia))
        as (t' & rs' & R & T1 & T2 & T3 & T4).
      exists t', rs'. split; [exact R|]. split; [lia|]. split; [exact T2|]. split; [exact T3|].
      intros s Hs. destruct (Z.eq_dec s t) as [->|]; [exact Eg|]. apply T4; lia.
    + exists t, rs. repeat split; try lia; try apply Hi.
      unfold goes_on. unfold va, vb. rewrite <- (around_comp _ _ Ha), <- (around_comp _ _ Hb'). lia.
Qed.

Lemma tartan_axis_spec : exists t rs, tartan_axis m n a b r ra rb = Ok rs /\ 0 <= t /\ Inv t rs /\
    ~ goes_on t /\ forall s, 0 <= s < t -> goes_on s.
Proof.
  unfold tartan_axis.
  assert (H0 : Inv 0 (map (fun i => if (a <=? i) && (i <=? b) then r else 1) (zrange n))).
  { split; [rewrite map_length, length_zrange; lia|]. intros i Hi.
    rewrite nth_map_zrange by lia. unfold val.
    destruct (_ && _) eqn:E; [reflexivity|]. destruct (Z.ltb_spec i a).
    - assert (a - i <=? 0 = false) as -> by lia. reflexivity.
    - assert (i - b <=? 0 = false) as -> by lia. reflexivity. }
  destruct (loop_spec (Z.to_nat n) 0 _ (decay m (inject_Z r) ra) (decay m (inject_Z r) rb) ltac:(lia) H0) as (t & rs & H).
  - pose proof (iterfac_factor m r ra 1) as H. exact H.
  - pose proof (iterfac_factor m r rb 1) as H. exact H.
  - lia.
  - rewrite Z.sub_0_r, Z.add_0_r in H. exists t, rs. exact H.
Qed.

End Loop.

(** * Specification: the documented tartan refinement of one axis *)
Record TartanSpec (m : decay_mode) (n a b r : Z) (ra rb : Q) (v : list Z) : Prop := {
  ts_len : Z.of_nat (List.length v) = n;
  (* the fovea gets the requested ratio *)
  ts_fovea : forall i, a <= i <= b -> nth (Z.to_nat i) v 0 = r;
  (* d slices away, the decayed factor rounded to an integer, but never below one *)
  ts_before : forall i, 0 <= i < a -> nth (Z.to_nat i) v 0 = Z.max 1 (around (factor m r ra (a - i)));
  ts_after : forall i, b < i < n -> nth (Z.to_nat i) v 0 = Z.max 1 (around (factor m r rb (i - b)))
}.

(** Written slices must round to at least one (automatic when both sides share
    a rate; arithmetic for the default rates). *)
Lemma tartan_closed_form m n a b r ra rb :
  0 <= a <= b -> b < n -> 1 <= r -> RateOK m ra -> RateOK m rb ->
  ((ra == rb)%Q \/
   (forall d, 0 < d <= a -> 1 <= around (factor m r ra d)) /\
   (forall d, 0 < d < n - b -> 1 <= around (factor m r rb d))) ->
  exists v, tartan_axis m n a b r ra rb = Ok v /\ TartanSpec m n a b r ra rb v.
Proof.
  intros Hab Hb Hr HRa HRb Hside.
  destruct (tartan_axis_spec m n a b r ra rb Hab Hb) as (t & v & Hv & Ht & (Hl & Hi) & Hstop & Hgo).
  exists v. split; [exact Hv|].
  assert (Hsame : (ra == rb)%Q -> forall d, around (factor m r ra d) = around (factor m r rb d)).
  { intros E d. apply around_comp. destruct m; cbn [factor]; rewrite E; reflexivity. }
  split; [exact Hl|..].
  - intros i Hi'. rewrite Hi by lia. unfold val. assert ((a <=? i) && (i <=? b) = true) as -> by lia. reflexivity.
  - intros i Hi'. rewrite Hi by lia. unfold val.
    assert ((a <=? i) && (i <=? b) = false) as -> by lia. assert (i <? a = true) as -> by lia.
    destruct (Z.leb_spec (a - i) t).
    + enough (1 <= around (factor m r ra (a - i))) by lia.
      destruct Hside as [E|[Hs _]]; [|apply Hs; lia].
      destruct (Hgo (a - i - 1) ltac:(lia)) as [G _]. replace (a - i - 1 + 1) with (a - i) in G by lia.
      rewrite <- (Hsame E) in G. lia.
    + enough (around (factor m r ra (a - i)) <= 1) by lia.
      assert (Hle : around (factor m r ra (t + 1)) <= 1) by (unfold goes_on in Hstop; lia).
      pose proof (around_mono _ _ (factor_mono m r ra (t + 1) (a - i) HRa ltac:(lia) ltac:(lia))). lia.
  - intros i Hi'. rewrite Hi by lia. unfold val.
    assert ((a <=? i) && (i <=? b) = false) as -> by lia. assert (i <? a = false) as -> by lia.
    destruct (Z.leb_spec (i - b) t).
    + enough (1 <= around (factor m r rb (i - b))) by lia.
      destruct Hside as [E|[_ Hs]]; [|apply Hs; lia].
      destruct (Hgo (i - b - 1) ltac:(lia)) as [G _]. replace (i - b - 1 + 1) with (i - b) in G by lia.
      rewrite (Hsame E) in G. lia.
    + enough (around (factor m r rb (i - b)) <= 1) by lia.
      assert (Hle : around (factor m r rb (t + 1)) <= 1) by (unfold goes_on in Hstop; lia).
      pose proof (around_mono _ _ (factor_mono m r rb (t + 1) (i - b) HRb ltac:(lia) ltac:(lia))). lia.
Qed.

(** Consequences the documentation promises. *)
Record TartanShape (n a b r : Z) (v : list Z) : Prop := {
  sh_range : forall i, 0 <= i < n -> 1 <= nth (Z.to_nat i) v 0 <= r;
  sh_before : forall i j, 0 <= i <= j -> j <= b -> nth (Z.to_nat i) v 0 <= nth (Z.to_nat j) v 0;
  sh_after : forall i j, a <= i <= j -> j < n -> nth (Z.to_nat j) v 0 <= nth (Z.to_nat i) v 0
}.

Lemma tartan_shape m n a b r ra rb v : 0 <= a <= b -> b < n -> 1 <= r -> RateOK m ra -> RateOK m rb ->
  TartanSpec m n a b r ra rb v -> TartanShape n a b r v.
Proof.
  intros Hab Hb Hr HRa HRb [S1 S2 S3 S4].
  assert (Hle : forall rate d, RateOK m rate -> 0 <= d -> around (factor m r rate d) <= r).
  { intros rate d HR Hd. apply around_le. rewrite <- (factor_0 m r rate). apply factor_mono; lia || assumption. }
  assert (Hmono : forall rate d d', RateOK m rate -> 0 <= d <= d' -> around (factor m r rate d') <= around (factor m r rate d)).
  { intros rate d d' HR Hd. apply around_mono, factor_mono; lia || assumption. }
  split.
  - intros i Hi. destruct (Z_lt_ge_dec i a).
    + rewrite S3 by lia. pose proof (Hle ra (a - i) HRa ltac:(lia)). lia.
    + destruct (Z_le_gt_dec i b).
      * rewrite S2 by lia. lia.
      * rewrite S4 by lia. pose proof (Hle rb (i - b) HRb ltac:(lia)). lia.
  - intros i j Hij Hj. destruct (Z_lt_ge_dec i a); [destruct (Z_lt_ge_dec j a)|].
    + rewrite !S3 by lia. pose proof (Hmono ra (a - j) (a - i) HRa ltac:(lia)). lia.
    + rewrite S3, S2 by lia. pose proof (Hle ra (a - i) HRa ltac:(lia)). lia.
    + rewrite !S2 by lia. lia.
  - intros i j Hij Hj. destruct (Z_le_gt_dec i b); [destruct (Z_le_gt_dec j b)|].
    + rewrite !S2 by lia. lia.
    + rewrite S4, S2 by lia. pose proof (Hle rb (j - b) HRb ltac:(lia)). lia.
    + rewrite !S4 by lia. pose proof (Hmono rb (i - b) (j - b) HRb ltac:(lia)). lia.
Qed.

(** Default linear rates. *)
Lemma inject_pos z : 0 <= z -> (0 <= inject_Z z)%Q.
Proof. intros H. change 0%Q with (inject_Z 0). now rewrite <- Zle_Qle. Qed.

Lemma default_rate_pos r x : 1 <= r -> (0 < x)%Q -> (0 <= inject_Z (r - 1) / x)%Q.
Proof.
  intros Hr Hx. apply Qle_shift_div_l; [assumption|]. pose proof (inject_pos (r - 1) ltac:(lia)). lra.
Qed.

Lemma default_linear_factor r d c : 1 <= r -> 0 <= d <= c ->
  (1 <= factor Linear r (inject_Z (r - 1) / (inject_Z c + (1 # 2))) d)%Q.
Proof.
  intros Hr Hd. cbn [factor].
  pose proof (inject_pos c ltac:(lia)) as Hc. pose proof (inject_pos d ltac:(lia)) as Hdp.
  assert (Hdc : (inject_Z d <= inject_Z c)%Q) by (rewrite <- Zle_Qle; lia).
  set (x := (inject_Z c + (1 # 2))%Q). assert (Hx : (0 < x)%Q) by (unfold x; lra).
  assert (E : (inject_Z r == inject_Z (r - 1) + 1)%Q).
  { replace r with (r - 1 + 1) at 1 by lia. now rewrite inject_Z_plus. }
  set (y := inject_Z (r - 1)) in *. assert (Hy : (0 <= y)%Q) by (apply inject_pos; lia).
  assert (Hq : (y / x * x == y)%Q) by (field; lra).
  assert (Hq0 : (0 <= y / x)%Q) by (apply default_rate_pos; assumption || lia).
  assert ((inject_Z d * (y / x) <= y)%Q).
  { rewrite <- Hq at 2. rewrite (Qmult_comm (y / x)). apply Qmult_le_compat_r; [unfold x; lra|assumption]. }
  rewrite E. lra.
Qed.

Lemma default_linear_ok n a b r : 0 <= a <= b -> b < n -> 1 <= r ->
  let ra := default_linear_rate_lo a r in let rb := default_linear_rate_hi n b r in
  RateOK Linear ra /\ RateOK Linear rb /\
   (forall d, 0 < d <= a -> 1 <= around (factor Linear r ra d)) /\
   (forall d, 0 < d < n - b -> 1 <= around (factor Linear r rb d)).
Proof.
  intros Hab Hb Hr ra rb.
  pose proof (inject_pos a ltac:(lia)) as Ha.
  assert (Eb : (inject_Z (n - b) - (1 # 2) == inject_Z (n - b - 1) + (1 # 2))%Q).
  { replace (n - b) with (n - b - 1 + 1) at 1 by lia. rewrite inject_Z_plus. change (inject_Z 1) with 1%Q. ring. }
  pose proof (inject_pos (n - b - 1) ltac:(lia)) as Hnb.
  split; [|split; [|split]].
  - apply default_rate_pos; [lia|lra].
  - unfold rb, default_linear_rate_hi. cbn [RateOK]. apply default_rate_pos; [lia|lra].
  - intros d Hd. apply around_ge. apply default_linear_factor; lia.
  - intros d Hd. apply around_ge. 
    assert (E : (factor Linear r rb d == factor Linear r (inject_Z (r - 1) / (inject_Z (n - b - 1) + (1 # 2))) d)%Q).
    { cbn [factor]. unfold rb, default_linear_rate_hi. rewrite Eb. reflexivity. }
    rewrite E. apply default_linear_factor; lia.
Qed.

(** * The whole function *)
Lemma nth_In_zsum v : (forall i, 0 <= i < Z.of_nat (List.length v) -> 1 <= nth (Z.to_nat i) v 0) ->
  forall x, In x v -> 0 < x.
Proof.
  intros H x Hx. apply (In_nth _ _ 0) in Hx. destruct Hx as (k & Hk & <-).
  specialize (H (Z.of_nat k) ltac:(lia)). rewrite Nat2Z.id in H. lia.
Qed.

Lemma tartan_whole m ce fv r ra rb : valid_box fv ce = true -> (forall d, 1 <= get r d) ->
  (forall d, RateOK m (get ra d)) -> (forall d, RateOK m (get rb d)) ->
  (forall d, (get ra d == get rb d)%Q \/
    (forall x, 0 < x <= get (lo fv) d -> 1 <= around (factor m (get r d) (get ra d) x)) /\
    (forall x, 0 < x < get ce d - get (hi fv) d -> 1 <= around (factor m (get r d) (get rb d) x))) ->
  exists s, tartan_refinement m ce fv r ra rb = Ok s /\ ValidFC s /\ cache s = None /\ coarse_extent s = ce /\
    forall d, TartanSpec m (get ce d) (get (lo fv) d) (get (hi fv) d) (get r d) (get ra d) (get rb d) (ratios_of (get (ax s) d)).
Proof.
  intros Hbox Hr HRa HRb Hside. unfold tartan_refinement. rewrite Hbox. cbn [assert_ bind].
  assert (forall3 (fun d => 1 <=? get r d) = true) as ->.
  { apply forall3_spec. intros d. specialize (Hr d). lia. }
  cbn [assert_ bind].
  apply valid_box_spec in Hbox.
  assert (Hb : forall d, 0 <= get (lo fv) d <= get (hi fv) d /\ get (hi fv) d < get ce d).
  { destruct Hbox as (B0 & B1 & B2). intros d. specialize (B0 d). specialize (B1 d). specialize (B2 d). lia. }
  assert (Hone : forall d, exists v, tartan_axis m (get ce d) (get (lo fv) d) (get (hi fv) d) (get r d) (get ra d) (get rb d) = Ok v /\
     TartanSpec m (get ce d) (get (lo fv) d) (get (hi fv) d) (get r d) (get ra d) (get rb d) v).
  { intros d. destruct (Hb d). apply tartan_closed_form; auto. }
  destruct (Hone K) as (vk & Ek & Sk). destruct (Hone J) as (vj & Ej & Sj). destruct (Hone I) as (vi & Ei & Si).
  rewrite Ek, Ej, Ei. cbn [seq3 bind tk tj ti].
  set (rs := T vk vj vi).
  assert (Hpos : forall d, (forall x, In x (get rs d) -> 0 < x) /\ Z.of_nat (List.length (get rs d)) = get ce d /\ 0 < get ce d /\ 0 < zsum (get rs d)).
  { intros d. assert (Hx : TartanSpec m (get ce d) (get (lo fv) d) (get (hi fv) d) (get r d) (get ra d) (get rb d) (get rs d)).
    { destruct d; assumption. }
    destruct (Hb d) as [B1 B2].
    pose proof (tartan_shape _ _ _ _ _ _ _ _ B1 B2 (Hr d) (HRa d) (HRb d) Hx) as [P _ _].
    pose proof (ts_len _ _ _ _ _ _ _ _ Hx) as Hl.
    assert (Hp : forall x, In x (get rs d) -> 0 < x) by (apply nth_In_zsum; intros i Hi; apply P; lia).
    split; [exact Hp|]. split; [exact Hl|]. split; [lia|].
    pose proof (zsum_firstn_mono (get rs d) 0 1 Hp ltac:(lia)) as Q1.
    pose proof (zsum_firstn_mono (get rs d) 1 (List.length (get rs d)) Hp ltac:(lia)) as Q2.
    rewrite firstn_all in Q2.
    destruct (get rs d) as [|x l]; [cbn in Hl; lia|]. specialize (Hp x (or_introl eq_refl)). cbn in Q1, Q2 |- *. lia. }
  destruct (fc_init (map3 zsum rs) ce) as [s0|e] eqn:Einit.
  2:{ exfalso. unfold fc_init in Einit. destruct (forall3 _) eqn:E; [discriminate|].
      apply not_true_iff_false in E. apply E. apply forall3_spec. intros d. unfold extents_valid.
      rewrite get_map3. destruct (Hpos d) as (P1 & P2 & P3 & P4).
      assert (get ce d <= zsum (get rs d)).
      { rewrite <- P2. clear -P1. induction (get rs d) as [|x l IH]; [cbn; lia|].
        cbn [List.length zsum fold_right]. specialize (IH (fun y H => P1 y (or_intror H))).
        specialize (P1 x (or_introl eq_refl)). unfold zsum in IH. lia. }
      lia. }
  cbn [bind].
  assert (H0 : forall d, fine (get (ax s0) d) = zsum (get rs d) /\ coarse (get (ax s0) d) = get ce d /\ cache s0 = None).
  { intros d. destruct (Hpos d) as (_ & _ & Hc & _).
    destruct (init_ok _ _ s0 d Einit Hc) as (_ & F & C & N). rewrite get_map3 in F. auto. }
  assert (Hset : forall s d, fine (get (ax s) d) = zsum (get rs d) -> coarse (get (ax s) d) = get ce d ->
     exists a', set_ratio_vector s d (get rs d) = Ok (FC (set (ax s) d a') (cache s)) /\
        ValidAxis a' /\ ratios_of a' = get rs d /\ coarse a' = get ce d).
  { intros s d F C. destruct (Hpos d) as (P1 & P2 & P3 & P4).
    destruct (set_ratio_vector_ax_iff (get (ax s) d) (get rs d)) as [[_ Q1] Q2]; [lia|].
    destruct Q1 as [a' Ha']; [rewrite F, C; auto|]. destruct (Q2 _ Ha') as (V1 & V2 & V3 & V4).
    exists a'. unfold set_ratio_vector. rewrite Ha'. cbn [bind]. rewrite V3. auto. }
  destruct (H0 K) as (F1 & C1 & N). destruct (H0 J) as (F2 & C2 & _). destruct (H0 I) as (F3 & C3 & _).
  destruct (Hset s0 K F1 C1) as (ak & Rk & Vk & Gk & Dk). cbn [get] in Rk. change (tk rs) with vk in Rk.
  unfold rs; cbn [tk tj ti]. rewrite Rk. cbn [bind].
  destruct (Hset (FC (set (ax s0) K ak) (cache s0)) J) as (aj & Rj & Vj & Gj & Dj); [exact F2|exact C2|].
  cbn [get] in Rj. change (tj rs) with vj in Rj. rewrite Rj. cbn [bind].
  destruct (Hset (FC (set (ax (FC (set (ax s0) K ak) (cache s0))) J aj) (cache (FC (set (ax s0) K ak) (cache s0)))) I) as (ai & Ri & Vi & Gi & Di); [exact F3|exact C3|].
  cbn [get] in Ri. change (ti rs) with vi in Ri. rewrite Ri.
  eexists. split; [reflexivity|]. cbn [ax cache].
  split; [intros d; destruct d; cbn; assumption|].
  split; [exact N|]. split.
  - apply trip_ext. intros d. unfold coarse_extent. rewrite get_map3. destruct d; cbn; assumption.
  - intros d. destruct d; cbn [get set tk tj ti]; [rewrite Gk|rewrite Gj|rewrite Gi]; assumption.
Qed.
