(** DrapeProps2.v: C94, local changes of depth. *)
From Verif Require Import Base DrapeModel.
From Coq Require Import Reals Lra.

(** ** Local depth adjustment *)
Open Scope R_scope.
(** The shift at a distance: all of it at the centre, none at the radius and beyond, never more further out. *)
Theorem C94_decay : forall c radius s, 0 < radius -> s <> Other ->
  decayed_shift c 0 radius s = Ok c
  /\ (forall d, radius <= d -> decayed_shift c d radius s = Ok 0)
  /\ (forall d, 0 <= d -> exists x w, decayed_shift c d radius s = Ok x /\ x = w * c /\ 0 <= w <= 1)
  /\ (forall d e x y, 0 <= d <= e -> decayed_shift c d radius s = Ok x -> decayed_shift c e radius s = Ok y -> Rabs y <= Rabs x)
  /\ (forall d x, 0 <= d < radius -> c <> 0 -> decayed_shift c d radius s = Ok x -> x <> 0).
Proof.
  intros c radius s Hr Hs.
  assert (W : exists f, (forall d, 0 <= d -> decayed_shift c d radius s = Ok (f d * c)) /\ f 0 = 1 /\ (forall d, radius <= d -> f d = 0)
     /\ (forall d, 0 <= d -> 0 <= f d <= 1) /\ (forall d e, 0 <= d <= e -> f e <= f d) /\ (forall d, 0 <= d < radius -> 0 < f d)).
  { assert (Nz : radius <> 0) by lra.
    assert (N0 : forall d, 0 <= d -> 0 <= rmin (d / radius) 1 <= 1).
    { intros d Hd. unfold rmin. destruct (Rle_dec (d / radius) 1); [| lra ]. split; [| lra ]. apply Rmult_le_pos; [ lra | left; apply Rinv_0_lt_compat; lra ]. }
    assert (N1 : rmin (0 / radius) 1 = 0) by (unfold rmin, Rdiv; rewrite Rmult_0_l; destruct (Rle_dec 0 1); lra).
    assert (N2 : forall d, radius <= d -> rmin (d / radius) 1 = 1).
    { intros d Hd. assert (1 <= d / radius) by (apply Rmult_le_reg_r with radius; [ lra |]; unfold Rdiv; rewrite Rmult_assoc, Rinv_l; lra).
      unfold rmin. destruct (Rle_dec (d / radius) 1); lra. }
    assert (N3 : forall d e, 0 <= d <= e -> rmin (d / radius) 1 <= rmin (e / radius) 1).
    { intros d e Hd. assert (d / radius <= e / radius) by (apply Rmult_le_compat_r; [ left; apply Rinv_0_lt_compat; lra | lra ]).
      unfold rmin. destruct (Rle_dec (d / radius) 1), (Rle_dec (e / radius) 1); lra. }
    assert (N4 : forall d, 0 <= d < radius -> rmin (d / radius) 1 < 1).
    { intros d Hd. assert (d / radius < 1) by (apply Rmult_lt_reg_r with radius; [ lra |]; unfold Rdiv; rewrite Rmult_assoc, Rinv_l; lra).
      unfold rmin. destruct (Rle_dec (d / radius) 1); lra. }
    unfold decayed_shift. destruct (Req_EM_T radius 0); [ contradiction |]. destruct s; [| | congruence ].
    - exists (fun d => 1 - rmin (d / radius) 1). repeat split.
      + rewrite N1. lra.
      + intros d Hd. rewrite N2 by exact Hd. lra.
      + specialize (N0 d H). lra.
      + specialize (N0 d H). lra.
      + intros d e H. specialize (N3 d e H). lra.
      + intros d H. specialize (N4 d H). lra.
    - exists (fun d => let t := rmin (d / radius) 1 in if Rle_dec (1 / 2) t then 2 * (1 - t) * (1 - t) else 1 - 2 * t * t). cbv zeta. repeat split.
      + intros d Hd. destruct (Rle_dec (1 / 2) (rmin (d / radius) 1)); [ reflexivity | f_equal; ring ].
      + rewrite N1. destruct (Rle_dec (1 / 2) 0); lra.
      + intros d Hd. rewrite N2 by exact Hd. destruct (Rle_dec (1 / 2) 1); lra.
      + specialize (N0 d H). set (t := rmin (d / radius) 1) in *. destruct (Rle_dec (1 / 2) t); nra.
      + specialize (N0 d H). set (t := rmin (d / radius) 1) in *. destruct (Rle_dec (1 / 2) t); nra.
      + intros d e H. specialize (N3 d e H). pose proof (N0 d ltac:(lra)) as A. pose proof (N0 e ltac:(lra)) as B.
        set (t := rmin (d / radius) 1) in *. set (v := rmin (e / radius) 1) in *. destruct (Rle_dec (1 / 2) t), (Rle_dec (1 / 2) v); nra.
      + intros d H. specialize (N4 d H). pose proof (N0 d ltac:(lra)) as A. set (t := rmin (d / radius) 1) in *. destruct (Rle_dec (1 / 2) t); nra. }
  destruct W as (f & E & F0 & F1 & F2 & F3 & F4).
  split; [ rewrite E by lra; rewrite F0; f_equal; ring |]. split; [ intros d Hd; rewrite E by lra; rewrite F1 by exact Hd; f_equal; ring |].
  split; [ intros d Hd; exists (f d * c), (f d); split; [ apply E; exact Hd |]; split; [ reflexivity | apply F2; exact Hd ] |].
  split.
  - intros d e x y H Ex Ey. rewrite E in Ex, Ey by lra. injection Ex as <-. injection Ey as <-. rewrite !Rabs_mult. apply Rmult_le_compat_r; [ apply Rabs_pos |].
    pose proof (F2 d ltac:(lra)). pose proof (F2 e ltac:(lra)). rewrite !Rabs_right by lra. apply F3. exact H.
  - intros d x H Hc Ex. rewrite E in Ex by lra. injection Ex as <-. specialize (F4 d H). apply Rmult_integral_contrapositive. lra.
Qed.
Print Assumptions C94_decay.

(** What is to become of a line: if its point in the reference row is within the radius of the centre, all its points are moved
    down, as depth goes, by the shift at that distance; otherwise nothing. *)
Definition Dist (cx cy : R) (p : rpt) : R := sqrt ((cx - px p) * (cx - px p) + (cy - py p) * (cy - py p)).
Definition Moved (ref : nat) (cx cy radius shift : R) (s : shape) (down : bool) (line line' : list rpt) : Prop :=
  exists p x, nth_error line ref = Some p /\ decayed_shift shift (Dist cx cy p) radius s = Ok x /\
    Forall2 (fun q q' => px q' = px q /\ py q' = py q /\ pz q' = pz q + (if down then x else - x)) line line'.
Lemma shift_neg c d radius s x : decayed_shift (- c) d radius s = Ok x -> decayed_shift c d radius s = Ok (- x).
Proof.
  unfold decayed_shift. destruct (Req_EM_T radius 0); [ discriminate |]. destruct s; [| destruct (Rle_dec (1 / 2) (rmin (d / radius) 1)) |]; intros E; try discriminate;
    injection E as <-; f_equal; ring.
Qed.
Lemma adjusted ref cx cy radius c s : 0 < radius -> s <> Other -> forall lines, (forall l, In l lines -> nth_error l ref <> None) ->
  exists lines' n, adjust_lines ref cx cy radius c s lines = Ok (lines', n) /\ Forall2 (Moved ref cx cy radius c s true) lines lines'
    /\ (n = 0%nat <-> forall l p, In l lines -> nth_error l ref = Some p -> radius < Dist cx cy p).
Proof.
  intros Hr Hs. destruct (C94_decay c radius s Hr Hs) as (_ & Far & Near & _).
  induction lines as [|line lines IH]; intros H; [ exists [], 0%nat; split; [ reflexivity |]; split; [ constructor |]; split; [ intros _ l p [] | reflexivity ] |].
  destruct IH as (ls & n & E & F & Hn); [ intros; apply H; right; assumption |].
  destruct (nth_error line ref) as [p|] eqn:Ep; [| destruct (H line (or_introl eq_refl) Ep) ].
  assert (EQ : adjust_lines ref cx cy radius c s (line :: lines) =
     if Rlt_dec (radius * radius) ((cx - px p) * (cx - px p) + (cy - py p) * (cy - py p)) then Ok (line :: ls, n)
     else do shift <- decayed_shift c (Dist cx cy p) radius s; Ok (map (fun q => P (px q) (py q) (pz q + shift)) line :: ls, S n)).
  { cbn [adjust_lines]. rewrite Ep. rewrite E. unfold Dist. destruct (Rlt_dec _ _); [ reflexivity |]. destruct (decayed_shift _ _ _ _); reflexivity. }
  rewrite EQ. clear EQ. set (d2 := (cx - px p) * (cx - px p) + (cy - py p) * (cy - py p)) in *.
  assert (D0 : 0 <= d2) by (unfold d2; pose proof (Rle_0_sqr (cx - px p)); pose proof (Rle_0_sqr (cy - py p)); unfold Rsqr in *; lra). assert (Dd : Dist cx cy p = sqrt d2) by reflexivity.
  destruct (Rlt_dec (radius * radius) d2) as [L | L].
  - assert (Lt : radius < sqrt d2) by (rewrite <- (sqrt_square radius) by lra; apply sqrt_lt_1; [ apply Rmult_le_pos; lra | exact D0 | exact L ]).
    exists (line :: ls), n. split; [ reflexivity |]. split.
    + constructor; [| exact F ]. exists p, 0. split; [ exact Ep |]. split; [ apply Far; rewrite Dd; lra |].
      clear. induction line; constructor; [ repeat split; ring | assumption ].
    + rewrite Hn. split; [ intros K l q [<- | Hl] Eq; [ rewrite Ep in Eq; injection Eq as <-; rewrite Dd; exact Lt | eapply K; eassumption ] | intros K l q Hl; apply K; right; exact Hl ].
  - destruct (Near (Dist cx cy p)) as (x & w & Ex & _); [ rewrite Dd; apply sqrt_pos |]. rewrite Ex. cbn [bind].
    eexists _, _. split; [ reflexivity |]. split.
    + constructor; [| exact F ]. exists p, x. split; [ exact Ep |]. split; [ exact Ex |]. clear. induction line; cbn [map]; constructor; [ repeat split; reflexivity | assumption ].
    + split; [ discriminate |]. intros K. exfalso. specialize (K line p (or_introl eq_refl) Ep). rewrite Dd in K.
      assert (sqrt d2 <= radius) by (rewrite <- (sqrt_square radius) by lra; apply sqrt_le_1; [ exact D0 | apply Rmult_le_pos; lra | lra ]). lra.
Qed.
(** Nothing is returned if no line is within the radius. *)
Theorem C94_local_depth : forall lines cx cy radius shift (use_local down : bool) rotation xo yo s ref,
  0 < radius -> s <> Other -> (forall l, In l lines -> nth_error l ref <> None) -> use_local = true \/ rotation = 0 ->
  let ox := if use_local then cx else cx - xo in let oy := if use_local then cy else cy - yo in
  exists r, local_depth_adjustment lines cx cy radius shift use_local rotation xo yo down s ref = Ok r /\
    match r with
    | None => forall l p, In l lines -> nth_error l ref = Some p -> radius < Dist ox oy p
    | Some lines' => Forall2 (Moved ref ox oy radius shift s down) lines lines' /\ exists l p, In l lines /\ nth_error l ref = Some p /\ Dist ox oy p <= radius
    end.
Proof.
  intros lines cx cy radius shift use_local down rotation xo yo s ref Hr Hs Hl Hu ox oy. unfold local_depth_adjustment.
  assert (EQ : negb use_local && (if Rlt_dec (1 / 1000) rotation then true else false) = false).
  { destruct Hu as [-> | ->]; [ reflexivity |]. destruct (Rlt_dec (1 / 1000) 0); [ lra | apply andb_false_r ]. }
  rewrite EQ. clear EQ. assert (EQ : (if use_local then (cx, cy) else (cx - xo, cy - yo)) = (ox, oy)) by (unfold ox, oy; destruct use_local; reflexivity). rewrite EQ. clear EQ.
  destruct (adjusted ref ox oy radius (if down then shift else - shift) s Hr Hs lines Hl) as (ls & n & E & F & Hn). rewrite E. cbn [bind fst snd].
  destruct n as [|n]; eexists; (split; [ reflexivity |]).
  - exact (proj1 Hn eq_refl).
  - split.
    + clear - F. induction F as [| l l' ls ls' (p & x & Ep & Ex & G) F IH]; constructor; [| exact IH ]. destruct down.
      * exists p, x. repeat split; assumption.
      * exists p, (- x). split; [ exact Ep |]. split; [ apply shift_neg; exact Ex |]. clear - G. induction G as [| q q' l l' (X & Y & Z0) G IH]; constructor; [| exact IH ].
        rewrite Ropp_involutive. repeat split; assumption.
    + clear - Hn Hl. assert (K : ~ forall l p, In l lines -> nth_error l ref = Some p -> radius < Dist ox oy p) by (intros K; apply Hn in K; discriminate). clear Hn.
      induction lines as [|l lines IH]; [ exfalso; apply K; intros ? ? [] |].
      destruct (nth_error l ref) as [p|] eqn:Ep; [| destruct (Hl l (or_introl eq_refl) Ep) ].
      destruct (Rle_dec (Dist ox oy p) radius) as [L | L]; [ exists l, p; repeat split; [ left; reflexivity | exact Ep | exact L ] |].
      destruct IH as (l2 & p2 & H2 & E2 & L2); [ intros; apply Hl; right; assumption | | exists l2, p2; repeat split; [ right; exact H2 | exact E2 | exact L2 ] ].
      intros G. apply K. intros l2 p2 [<- | H2] E2; [ rewrite Ep in E2; injection E2 as <-; lra | eapply G; eassumption ].
Qed.
Print Assumptions C94_local_depth.
(** A crs turned anticlockwise is taken for one that is not turned: the centre is then in the wrong place. *)
Theorem C94_rotation_refuted : forall lines cx cy radius shift down rotation xo yo s ref, rotation < 0 ->
  local_depth_adjustment lines cx cy radius shift false rotation xo yo down s ref = local_depth_adjustment lines cx cy radius shift false 0 xo yo down s ref.
Proof.
  intros. unfold local_depth_adjustment. destruct (Rlt_dec (1 / 1000) rotation); [ lra |]. destruct (Rlt_dec (1 / 1000) 0); [ lra |]. reflexivity.
Qed.
Print Assumptions C94_rotation_refuted.
Example one_line : exists r, local_depth_adjustment [[P 0 0 5; P 0 0 7]] 0 0 1 2 true 0 0 0 true Linear 0 = Ok (Some r) /\ exists q, nth_error (hd [] r) 1 = Some q /\ pz q = 9.
Proof.
  destruct (C94_local_depth [[P 0 0 5; P 0 0 7]] 0 0 1 2 true true 0 0 0 Linear 0) as (r & E & H); [ lra | discriminate | intros l [<- | []]; discriminate | left; reflexivity |].
  assert (D : Dist 0 0 (P 0 0 5) = 0) by (unfold Dist; cbn [px py]; replace ((0 - 0) * (0 - 0) + (0 - 0) * (0 - 0)) with 0 by ring; apply sqrt_0).
  destruct r as [r|].
  - exists r. split; [ exact E |]. destruct H as (F & _). inversion F as [| l l' ls ls' (p & x & Ep & Ex & G) F2]; subst. inversion F2; subst. cbn in Ep. injection Ep as <-. rewrite D in Ex.
    destruct (C94_decay 2 1 Linear ltac:(lra) ltac:(discriminate)) as (C0 & _). rewrite C0 in Ex. injection Ex as <-.
    inversion G as [| ? ? ? ? _ G2]; subst. inversion G2 as [| ? q ? ? (_ & _ & Hz) G3]; subst. exists q. split; [ reflexivity |]. rewrite Hz. cbn [pz]. lra.
  - exfalso. specialize (H _ (P 0 0 5) (or_introl eq_refl) eq_refl). rewrite D in H. lra.
Qed.
