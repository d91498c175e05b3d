(** BisectProofs2.v: from the bounding box to the whole grid. *)
From Verif Require Import QBase BisectModel BisectProofs.
Open Scope Z_scope.

Definition Brick (lo hi : trip Z) (c : cell) : Prop := forall a, get lo a <= get c a < get hi a.
Lemma brick_set lo hi c a v : Brick lo hi c -> get lo a <= v < get hi a -> Brick lo hi (set c a v).
Proof. intros Hc Hv b. specialize (Hc b). destruct (axis_dec a b) as [<-|N]; [rewrite get_set_same; lia|rewrite get_set_other by assumption; lia]. Qed.
Section Brick.
Variables (R : cell -> Prop) (F : axis -> cell -> Prop) (lo hi : trip Z).
Hypothesis HR : forall c, Brick lo hi c -> R c.
Hypothesis HF : forall a c, Brick lo hi c -> Brick lo hi (shift a 1 c) -> ~ F a c.
Lemma brick_line_up a m : forall c, Brick lo hi c -> get c a + Z.of_nat m < get hi a -> Conn R F c (set c a (get c a + Z.of_nat m)).
Proof.
  induction m as [|m IH]; intros c Hc Hm.
  - replace (set c a _) with c by (apply cell_ext; intros b; destruct (axis_dec a b) as [<-|N]; [rewrite get_set_same; lia|now rewrite get_set_other]).
    constructor. auto.
  - assert (H1 : Brick lo hi (set c a (get c a + Z.of_nat m))).
    { intros b. specialize (Hc b). destruct (axis_dec a b) as [<-|N]; [rewrite get_set_same; lia|rewrite get_set_other by assumption; lia]. }
    assert (E : set c a (get c a + Z.of_nat (S m)) = shift a 1 (set c a (get c a + Z.of_nat m))).
    { apply cell_ext. intros b. rewrite get_shift. destruct (axis_dec a b) as [<-|N]; [rewrite !get_set_same; lia|now rewrite !get_set_other]. }
    assert (H2 : Brick lo hi (shift a 1 (set c a (get c a + Z.of_nat m)))).
    { rewrite <- E. intros b. specialize (Hc b). destruct (axis_dec a b) as [<-|N]; [rewrite get_set_same; lia|rewrite get_set_other by assumption; lia]. }
    rewrite E. apply conn_up; [apply IH; [assumption|lia]|auto|auto].
Qed.
Lemma set_set (c : cell) a v w : set (set c a v) a w = set c a w.
Proof. now destruct a. Qed.
Lemma set_get (c : cell) a : set c a (get c a) = c.
Proof. now destruct a, c. Qed.
Lemma brick_line a c v : Brick lo hi c -> get lo a <= v < get hi a -> Conn R F c (set c a v).
Proof.
  intros Hc Hv. destruct (Z.le_gt_cases (get c a) v) as [L|L].
  - replace v with (get c a + Z.of_nat (Z.to_nat (v - get c a))) by lia. apply brick_line_up; [assumption|lia].
  - apply conn_sym. assert (H1 : Brick lo hi (set c a v)).
    { intros b. specialize (Hc b). destruct (axis_dec a b) as [<-|N]; [rewrite get_set_same; lia|rewrite get_set_other by assumption; lia]. }
    pose proof (brick_line_up a (Z.to_nat (get c a - v)) _ H1) as L1. rewrite get_set_same, set_set in L1.
    replace (v + Z.of_nat (Z.to_nat (get c a - v))) with (get c a) in L1 by lia. rewrite set_get in L1. apply L1. apply Hc.
Qed.
Lemma brick_conn c d : Brick lo hi c -> Brick lo hi d -> Conn R F c d.
Proof.
  intros Hc Hd. replace d with (set (set (set c K (tk d)) J (tj d)) I (ti d)) by now destruct d.
  eapply conn_trans; [|apply brick_line; [|apply (Hd I)]]; [|apply brick_set; [apply brick_set|]; [assumption|apply (Hd K)|apply (Hd J)]].
  eapply conn_trans; [|apply brick_line; [|apply (Hd J)]]; [|apply brick_set; [assumption|apply (Hd K)]].
  apply brick_line; [assumption|apply (Hd K)].
Qed.
End Brick.

Section Box.
Variables (n b0 b1 : trip Z) (F : axis -> cell -> Prop).
Hypothesis Hb : forall a, 0 <= get b0 a < get b1 a /\ get b1 a <= get n a.
Hypothesis HF : forall a c, F a c -> Brick b0 b1 c /\ get c a + 1 < get b1 a.
Hypothesis Hlow : forall a c x, F a c -> x <> a -> get b0 x <> 0 -> get b0 x < get c x.
Hypothesis Hhigh : forall a c x, F a c -> x <> a -> get b1 x < get n x -> get c x < get b1 x - 1.
Notation B := (Conn (Brick b0 b1) F b0).
Notation G := (Conn (within n) F).
Notation O := (T 0 0 0).

Lemma brick_b0 : Brick b0 b1 b0.
Proof. intros a. specialize (Hb a). lia. Qed.
Lemma brick_within c : Brick b0 b1 c -> within n c.
Proof. intros H a. specialize (Hb a). specialize (H a). lia. Qed.
Lemma low_layer a c : get b0 a <> 0 -> Brick b0 b1 c -> get c a = get b0 a -> B c.
Proof.
  intros N Hc E. apply (brick_conn _ _ b0 (set b1 a (get b0 a + 1))).
  - intros x Hx y. specialize (Hx y). specialize (Hb y). destruct (axis_dec a y) as [<-|D]; [rewrite get_set_same in Hx; lia|now rewrite get_set_other in Hx].
  - intros x d Hd Hd' HF'. destruct (axis_dec x a) as [->|D].
    + specialize (Hd' a). rewrite get_shift, get_set_same in Hd'. destruct (axis_dec a a); [|congruence]. specialize (Hd a). lia.
    + pose proof (Hlow _ _ a HF' (not_eq_sym D) N). specialize (Hd a). rewrite get_set_same in Hd. lia.
  - intros y. specialize (Hb y). destruct (axis_dec a y) as [<-|D]; [rewrite get_set_same; lia|rewrite get_set_other by assumption; lia].
  - intros y. specialize (Hc y). destruct (axis_dec a y) as [<-|D]; [rewrite get_set_same; lia|rewrite get_set_other by assumption; lia].
Qed.
Lemma high_layer a w c : get b1 a < get n a -> B w -> get w a = get b1 a - 1 -> Brick b0 b1 c -> get c a = get b1 a - 1 -> B c.
Proof.
  intros N Hw Ew Hc E. eapply conn_trans; [exact Hw|]. pose proof (conn_in _ _ _ _ Hw) as Hw'.
  apply (brick_conn _ _ (set b0 a (get b1 a - 1)) b1).
  - intros x Hx y. specialize (Hx y). specialize (Hb y). destruct (axis_dec a y) as [<-|D]; [rewrite get_set_same in Hx; lia|now rewrite get_set_other in Hx].
  - intros x d Hd Hd' HF'. destruct (axis_dec x a) as [->|D].
    + specialize (Hd' a). rewrite get_shift in Hd'. destruct (axis_dec a a); [|congruence]. specialize (Hd a). rewrite get_set_same in *. lia.
    + pose proof (Hhigh _ _ a HF' (not_eq_sym D) N). specialize (Hd a). rewrite get_set_same in Hd. lia.
  - intros y. specialize (Hw' y). destruct (axis_dec a y) as [<-|D]; [rewrite get_set_same; lia|rewrite get_set_other by assumption; lia].
  - intros y. specialize (Hc y). destruct (axis_dec a y) as [<-|D]; [rewrite get_set_same; lia|rewrite get_set_other by assumption; lia].
Qed.
Lemma low_slab a c d : within n c -> within n d -> get c a < get b0 a -> get d a < get b0 a -> G c d.
Proof.
  intros Hc Hd Lc Ld. apply (brick_conn _ _ O (set n a (get b0 a))).
  - intros x Hx y. specialize (Hx y). specialize (Hb y). destruct (axis_dec a y) as [<-|D]; [rewrite get_set_same in Hx; destruct a; cbn in *; lia|rewrite get_set_other in Hx by assumption; destruct y; cbn in *; lia].
  - intros x e He He' HF'. destruct (HF _ _ HF') as [H1 _]. specialize (He a). rewrite get_set_same in He. specialize (H1 a). lia.
  - intros y. specialize (Hc y). replace (get O y) with 0 by now destruct y. destruct (axis_dec a y) as [<-|D]; [rewrite get_set_same; lia|rewrite get_set_other by assumption; lia].
  - intros y. specialize (Hd y). replace (get O y) with 0 by now destruct y. destruct (axis_dec a y) as [<-|D]; [rewrite get_set_same; lia|rewrite get_set_other by assumption; lia].
Qed.
Lemma high_slab a c d : within n c -> within n d -> get b1 a <= get c a -> get b1 a <= get d a -> G c d.
Proof.
  intros Hc Hd Lc Ld. apply (brick_conn _ _ (set O a (get b1 a)) n).
  - intros x Hx y. specialize (Hx y). specialize (Hb y). destruct (axis_dec a y) as [<-|D]; [rewrite get_set_same in Hx; lia|rewrite get_set_other in Hx by assumption; destruct y; cbn in *; lia].
  - intros x e He He' HF'. destruct (HF _ _ HF') as [H1 _]. specialize (He a). rewrite get_set_same in He. specialize (H1 a). lia.
  - intros y. specialize (Hc y). destruct (axis_dec a y) as [<-|D]; [rewrite get_set_same; lia|rewrite get_set_other by assumption; destruct y; cbn in *; lia].
  - intros y. specialize (Hd y). destruct (axis_dec a y) as [<-|D]; [rewrite get_set_same; lia|rewrite get_set_other by assumption; destruct y; cbn in *; lia].
Qed.
Definition Lo (c : cell) a : Prop := get b0 a <> 0 /\ get c a < get b0 a.
Definition Hi (c : cell) a : Prop := get b1 a < get n a /\ get b1 a <= get c a /\ exists w, B w /\ get w a = get b1 a - 1.
Definition W (c : cell) : Prop := B c \/ exists a, Lo c a \/ Hi c a.

Definition near (c d : cell) a : Prop := (d = shift a 1 c /\ ~ F a c) \/ (d = shift a (-1) c /\ ~ F a d).
Lemma near_other c d a y : near c d a -> y <> a -> get d y = get c y.
Proof. intros [[-> _]|[-> _]] N; rewrite get_shift; destruct (axis_dec a y); congruence. Qed.
Lemma near_same c d a : near c d a -> get d a = get c a + 1 \/ get d a = get c a - 1.
Proof. intros [[-> _]|[-> _]]; rewrite get_shift; destruct (axis_dec a a); try congruence; lia. Qed.
Lemma brick_dec c : {Brick b0 b1 c} + {exists y, get c y < get b0 y \/ get b1 y <= get c y}.
Proof.
  assert (D : forall y, {get b0 y <= get c y < get b1 y} + {get c y < get b0 y \/ get b1 y <= get c y}).
  { intros y. destruct (Z_lt_dec (get c y) (get b0 y)); [right; lia|]. destruct (Z_le_dec (get b1 y) (get c y)); [right; lia|left; lia]. }
  destruct (D K) as [DK|DK]; [|right; eauto]. destruct (D J) as [DJ|DJ]; [|right; eauto]. destruct (D I) as [DI|DI]; [|right; eauto].
  left. intros []; assumption.
Qed.
Lemma W_closed c d a : within n c -> within n d -> W c -> near c d a -> W d.
Proof.
  intros Hc Hd Wc S'. destruct (brick_dec d) as [Bd|(y & [Ly|Ly])].
  - left. destruct Wc as [Bc|(x & [[N L]|(N & L & w & Hw & Ew)])].
    + destruct S' as [[-> NF]|[-> NF]]; [now apply conn_up|now apply conn_down].
    + assert (x = a). { destruct (axis_dec x a) as [->|D]; [reflexivity|]. rewrite <- (near_other c d a x S' D) in L. specialize (Bd x). lia. }
      subst x. apply (low_layer a); auto. specialize (Bd a). pose proof (near_same _ _ _ S'). lia.
    + assert (x = a). { destruct (axis_dec x a) as [->|D]; [reflexivity|]. rewrite <- (near_other c d a x S' D) in L. specialize (Bd x). lia. }
      subst x. apply (high_layer a w); auto. specialize (Bd a). pose proof (near_same _ _ _ S'). lia.
  - right. exists y. left. split; [specialize (Hd y); lia|assumption].
  - right. exists y. right. split; [specialize (Hd y); lia|]. split; [assumption|].
    destruct Wc as [Bc|(x & [[N L]|(N & L & w & Hw & Ew)])].
    + exists c. split; [assumption|]. pose proof (conn_in _ _ _ _ Bc y). destruct (axis_dec y a) as [->|D]; [pose proof (near_same _ _ _ S'); lia|].
      rewrite (near_other _ _ _ _ S' D) in Ly. lia.
    + destruct (axis_dec x y) as [->|D].
      { exfalso. destruct (axis_dec y a) as [->|D]; [pose proof (near_same _ _ _ S'); specialize (Hb a); lia|]. rewrite (near_other _ _ _ _ S' D) in Ly. specialize (Hb y). lia. }
      exists (set b0 y (get b1 y - 1)). split; [|apply get_set_same]. apply (low_layer x); auto; [|now rewrite get_set_other by congruence].
      apply brick_set; [apply brick_b0|]. specialize (Hb y). lia.
    + destruct (axis_dec x y) as [->|D]; [eauto|].
      exists (set w y (get b1 y - 1)). split; [|apply get_set_same]. apply (high_layer x w); auto; [|now rewrite get_set_other by congruence].
      apply brick_set; [eapply conn_in; eassumption|]. specialize (Hb y). lia.
Qed.
Lemma within_O : within n O.
Proof. intros a. specialize (Hb a). destruct a; cbn in *; lia. Qed.
Lemma b0_dec : b0 = O \/ exists a, get b0 a <> 0.
Proof.
  destruct (Z.eq_dec (tk b0) 0); [|right; now exists K]. destruct (Z.eq_dec (tj b0) 0); [|right; now exists J]. destruct (Z.eq_dec (ti b0) 0); [|right; now exists I].
  left. apply cell_ext. intros []; assumption.
Qed.
Lemma W_complete c : G O c -> W c.
Proof.
  induction 1 as [H|c a H IH H1 H2|c a H IH H1 H2].
  - destruct b0_dec as [E|(a & N)].
    + left. rewrite E. constructor. rewrite <- E. apply brick_b0.
    + right. exists a. left. split; [assumption|]. specialize (Hb a). destruct a; cbn in *; lia.
  - eapply (W_closed c _ a); eauto; [eapply conn_in; eassumption|]. left. auto.
  - eapply (W_closed c _ a); eauto; [eapply conn_in; eassumption|]. right. auto.
Qed.
Lemma G_b0 : G O b0.
Proof.
  destruct b0_dec as [E|(a & N)]; [rewrite E; apply conn_here; apply within_O|].
  assert (P : 0 < get b0 a) by (specialize (Hb a); lia).
  assert (W1 : within n (shift a (-1) b0)).
  { intros y. rewrite get_shift. specialize (Hb y). destruct (axis_dec a y) as [<-|]; lia. }
  eapply (conn_trans _ _ _ (shift a (-1) b0)).
  - apply (low_slab a); [apply within_O|assumption|destruct a; cbn in *; lia|rewrite get_shift; destruct (axis_dec a a); [lia|congruence]].
  - pose proof (conn_step_up (within n) F (shift a (-1) b0) a) as S'. rewrite shift_shift in S'. apply S'; [assumption|apply brick_within, brick_b0|].
    intros X. destruct (HF _ _ X) as [H1 _]. specialize (H1 a). rewrite get_shift in H1. destruct (axis_dec a a); [lia|congruence].
Qed.
Lemma B_G c : B c -> G O c.
Proof. intros H. eapply conn_trans; [apply G_b0|]. eapply conn_mono; [apply brick_within| |exact H]. auto. Qed.
Lemma W_sound c : within n c -> W c -> G O c.
Proof.
  intros Hc [Bc|(a & [[N L]|(N & L & w & Hw & Ew)])]; [now apply B_G| |].
  - apply (low_slab a); auto; [apply within_O|]. specialize (Hb a). destruct a; cbn in *; lia.
  - pose proof (conn_in _ _ _ _ Hw) as Bw. assert (W1 : within n (shift a 1 w)).
    { intros y. rewrite get_shift. specialize (Hb y). specialize (Bw y). destruct (axis_dec a y) as [<-|]; lia. }
    eapply conn_trans; [apply B_G, Hw|]. eapply (conn_trans _ _ _ (shift a 1 w)).
    + apply conn_step_up; auto; [now apply brick_within|]. intros X. destruct (HF _ _ X) as [_ X']. lia.
    + apply (high_slab a); auto. rewrite get_shift. destruct (axis_dec a a); [lia|congruence].
Qed.
Lemma W_iff c : within n c -> (W c <-> G O c).
Proof. intros H. split; [now apply W_sound|apply W_complete]. Qed.

(** the array made from the filled box *)
Variables (op : axis -> cell -> bool).
Hypothesis Hop : forall a c, within (zip3 Z.sub b1 b0) c -> within (zip3 Z.sub b1 b0) (shift a 1 c) -> (op a c = true <-> ~ F a (zip3 Z.add c b0)).
Notation shape := (zip3 Z.sub b1 b0).
Lemma shift_add a d c : zip3 Z.add (shift a d c) b0 = shift a d (zip3 Z.add c b0).
Proof. apply cell_ext. intros y. rewrite get_zip3, !get_shift, get_zip3. destruct (axis_dec a y); lia. Qed.
Lemma add_sub c : zip3 Z.add (zip3 Z.sub c b0) b0 = c.
Proof. apply cell_ext. intros y. rewrite !get_zip3. lia. Qed.
Lemma sub_add c : zip3 Z.sub (zip3 Z.add c b0) b0 = c.
Proof. apply cell_ext. intros y. rewrite !get_zip3. lia. Qed.
Lemma within_shape c : within shape c <-> Brick b0 b1 (zip3 Z.add c b0).
Proof. split; intros H y; specialize (H y); rewrite get_zip3 in *; lia. Qed.
Lemma local_conn c : Conn (within shape) (fun a c => op a c = false) O c <-> B (zip3 Z.add c b0).
Proof.
  assert (E0 : zip3 Z.add O b0 = b0) by (apply cell_ext; intros y; rewrite get_zip3; destruct y; cbn; lia). split.
  - induction 1 as [H|c a H IH H1 H2|c a H IH H1 H2].
    + rewrite E0. constructor. apply brick_b0.
    + rewrite shift_add. apply conn_up; [assumption|rewrite <- shift_add; now apply within_shape|]. apply Hop; auto; [eapply conn_in; eassumption|now apply not_false_iff_true].
    + rewrite shift_add. apply conn_down; [assumption|rewrite <- shift_add; now apply within_shape|]. rewrite <- shift_add. apply Hop; auto; [rewrite shift_shift; eapply conn_in; eassumption|now apply not_false_iff_true].
  - intros H. rewrite <- (sub_add c). set (d := zip3 Z.add c b0) in *. clearbody d.
    induction H as [H|d a H IH H1 H2|d a H IH H1 H2].
    + replace (zip3 Z.sub b0 b0) with O by (apply cell_ext; intros y; rewrite get_zip3; destruct y; cbn; lia).
      constructor. apply within_shape. rewrite E0. apply brick_b0.
    + assert (E : zip3 Z.sub (shift a 1 d) b0 = shift a 1 (zip3 Z.sub d b0)) by (apply cell_ext; intros y; rewrite get_zip3, !get_shift, get_zip3; destruct (axis_dec a y); lia).
      rewrite E. assert (W1 : within shape (shift a 1 (zip3 Z.sub d b0))) by (apply within_shape; rewrite <- E, add_sub; assumption).
      apply conn_up; auto. apply not_false_iff_true, Hop; auto; [eapply conn_in; eassumption|now rewrite add_sub].
    + assert (E : zip3 Z.sub (shift a (-1) d) b0 = shift a (-1) (zip3 Z.sub d b0)) by (apply cell_ext; intros y; rewrite get_zip3, !get_shift, get_zip3; destruct (axis_dec a y); lia).
      rewrite E. assert (W1 : within shape (shift a (-1) (zip3 Z.sub d b0))) by (apply within_shape; rewrite <- E, add_sub; assumption).
      apply conn_down; auto. apply not_false_iff_true, Hop; auto; [rewrite shift_shift; eapply conn_in; eassumption|]. now rewrite <- E, add_sub.
Qed.
Lemma set_outside_iff s a arr c : set_outside n (b0, b1) s a arr c = true <->
  arr c = true \/ (get b0 a <> 0 /\ get c a < get b0 a) \/ (get b1 a < get n a /\ get b1 a <= get c a /\ exists w, In w s /\ get w a = get b1 a - get b0 a - 1).
Proof.
  unfold set_outside, any_last. cbn [fst snd].
  assert (EX : existsb (fun x => get x a =? get b1 a - get b0 a - 1) s = true <-> exists w, In w s /\ get w a = get b1 a - get b0 a - 1).
  { rewrite existsb_exists. split; intros (w & H1 & H2); exists w; (split; [assumption|]); now apply Z.eqb_eq. }
  destruct (negb (get b0 a =? 0) && (get c a <? get b0 a)) eqn:E1.
  - apply andb_true_iff in E1. rewrite negb_true_iff, Z.eqb_neq, Z.ltb_lt in E1. split; [intros _; right; now left|reflexivity].
  - assert (N1 : ~ (get b0 a <> 0 /\ get c a < get b0 a)).
    { intros [X Y]. apply andb_false_iff in E1. rewrite negb_false_iff, Z.eqb_eq, Z.ltb_ge in E1. lia. }
    destruct (_ && _ && _) eqn:E2.
    + rewrite !andb_true_iff, Z.ltb_lt, Z.leb_le, EX in E2. split; [intros _; right; right; tauto|reflexivity].
    + split; [now left|]. intros [X|[X|(X & Y & Z')]]; [assumption|contradiction|]. exfalso. apply not_true_iff_false in E2. apply E2.
      rewrite !andb_true_iff, Z.ltb_lt, Z.leb_le, EX. tauto.
Qed.
Lemma whole_iff : exists s, fill_bisector (S (Z.to_nat (size shape))) shape (op K) (op J) (op I) [O] = Ok s /\
  forall c, within n c -> (whole_array n (b0, b1) s c = true <-> G O c).
Proof.
  destruct (fill_conn shape op) with (s0 := O) as (s & E & _ & Hs).
  - intros a. rewrite get_zip3. specialize (Hb a). lia.
  - intros a. rewrite get_zip3. specialize (Hb a). destruct a; cbn in *; lia.
  - exists s. split; [exact E|]. intros c Hc. rewrite <- W_iff by assumption.
    assert (Hs' : forall w, In w s <-> B (zip3 Z.add w b0)) by (intros w; rewrite Hs; apply local_conn).
    unfold whole_array. rewrite !set_outside_iff. cbn [fst snd].
    assert (EX : forall a, (exists w, In w s /\ get w a = get b1 a - get b0 a - 1) <-> (exists w, B w /\ get w a = get b1 a - 1)).
    { intros a. split; intros (w & H1 & H2).
      - exists (zip3 Z.add w b0). split; [now apply Hs'|]. rewrite get_zip3. lia.
      - exists (zip3 Z.sub w b0). split; [apply Hs'; now rewrite add_sub|]. rewrite get_zip3. lia. }
    rewrite !EX.
    assert (EI : in_box (b0, b1) c && mem (zip3 Z.sub c b0) s = true <-> B c).
    { rewrite andb_true_iff, mem_iff, Hs', add_sub. split; [tauto|]. intros H. split; [|assumption]. unfold in_box. cbn [fst snd].
      apply conn_in in H. rewrite andb_true_iff, !all3_iff. split; intros a; specialize (H a); lia. }
    rewrite EI. unfold W, Lo, Hi. split.
    + intros [[[H|H]|H]|H]; [now left| | |]; right; [exists K|exists J|exists I]; exact H.
    + intros [H|([] & H)]; [now do 3 left| | |]; [do 2 left; right|left; right|right]; exact H.
Qed.
End Box.
