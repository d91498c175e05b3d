(** IntersectProofs.v: what it is for a line to meet a triangle or a line, and that the
    determinants of IntersectModel.v find where. *)
From Coq Require Import Lqa.
From Verif Require Import Base QBase IntersectModel.
Open Scope Q_scope.

(** ** Specification *)
Definition Same (a b : vec) : Prop := vx a == vx b /\ vy a == vy b /\ vz a == vz b.
(** the point reached from [p] after [s] steps of [v] *)
Definition along (p v : vec) (s : Q) : vec := V (vx p + s * vx v) (vy p + s * vy v) (vz p + s * vz v).
(** the point of the plane of a triangle with coordinates (u, w) along its two edges from the first corner *)
Definition within (tr : triangle) (u w : Q) : vec :=
  V (vx (t0 tr) + u * (vx (t1 tr) - vx (t0 tr)) + w * (vx (t2 tr) - vx (t0 tr)))
    (vy (t0 tr) + u * (vy (t1 tr) - vy (t0 tr)) + w * (vy (t2 tr) - vy (t0 tr)))
    (vz (t0 tr) + u * (vz (t1 tr) - vz (t0 tr)) + w * (vz (t2 tr) - vz (t0 tr))).
(** the determinant of three vectors *)
Definition det3 (a b c : vec) : Q :=
  vx a * (vy b * vz c - vz b * vy c) + vy a * (vz b * vx c - vx b * vz c) + vz a * (vx b * vy c - vy b * vx c).
(** the direction and the two edges are dependent: the line is parallel to the plane, or there is no plane *)
Definition Parallel (v : vec) (tr : triangle) : Prop :=
  det3 v (V (vx (t1 tr) - vx (t0 tr)) (vy (t1 tr) - vy (t0 tr)) (vz (t1 tr) - vz (t0 tr)))
         (V (vx (t2 tr) - vx (t0 tr)) (vy (t2 tr) - vy (t0 tr)) (vz (t2 tr) - vz (t0 tr))) == 0.
(** [q] is on the line and in the triangle, each extended by its tolerance *)
Definition Meets (p v : vec) (tr : triangle) (segment : bool) (l_tol t_tol : Q) (q : vec) : Prop :=
  exists s u w, Same q (along p v s) /\ Same q (within tr u w)
    /\ (segment = true -> - l_tol <= s <= 1 + l_tol)
    /\ - t_tol <= u <= 1 + t_tol /\ - t_tol <= w /\ u + w <= 1 + t_tol.

(** ** Cramer *)
Lemma denom_det v tr : let p01 := vsub (t1 tr) (t0 tr) in let p02 := vsub (t2 tr) (t0 tr) in
  dot (vneg v) (cross p01 p02) == - det3 v p01 p02.
Proof. cbv zeta. unfold dot, cross, det3, vneg; cbn [vx vy vz]. ring. Qed.
Lemma dot_comm a b : dot a b == dot b a.
Proof. unfold dot. ring. Qed.

Section C.
  Variables (p v : vec) (tr : triangle).
  Let p01 := vsub (t1 tr) (t0 tr).
  Let p02 := vsub (t2 tr) (t0 tr).
  Let denom := dot (vneg v) (cross p01 p02).
  Let d := vsub p (t0 tr).
  Let t := dot (cross p01 p02) d / denom.
  Let u := dot (cross p02 (vneg v)) d / denom.
  Let w := dot (cross (vneg v) p01) d / denom.
  Lemma cramer_meets : ~ denom == 0 -> Same (along p v t) (within tr u w).
  Proof.
    intro N. unfold Same, along, within, t, u, w; cbn [vx vy vz].
    unfold denom, d, p01, p02, dot, cross, vneg, vsub in *; cbn [vx vy vz] in *.
    repeat split; field; exact N.
  Qed.
  Lemma cramer_unique s a b : ~ denom == 0 -> Same (along p v s) (within tr a b) -> s == t /\ a == u /\ b == w.
  Proof.
    intros N (X & Y & Z). unfold along, within in *; cbn [vx vy vz] in *.
    assert (X' : vx p == vx (t0 tr) + a * (vx (t1 tr) - vx (t0 tr)) + b * (vx (t2 tr) - vx (t0 tr)) - s * vx v) by lra.
    assert (Y' : vy p == vy (t0 tr) + a * (vy (t1 tr) - vy (t0 tr)) + b * (vy (t2 tr) - vy (t0 tr)) - s * vy v) by lra.
    assert (Z' : vz p == vz (t0 tr) + a * (vz (t1 tr) - vz (t0 tr)) + b * (vz (t2 tr) - vz (t0 tr)) - s * vz v) by lra.
    unfold t, u, w. unfold denom, d, p01, p02, dot, cross, vneg, vsub in *; cbn [vx vy vz] in *.
    repeat split; rewrite X', Y', Z'; field; exact N.
  Qed.
End C.

Lemma parallel_iff v tr : Qeq_bool (dot (vneg v) (cross (vsub (t1 tr) (t0 tr)) (vsub (t2 tr) (t0 tr)))) 0 = true <-> Parallel v tr.
Proof.
  rewrite Qeq_bool_iff. pose proof (denom_det v tr) as E; cbv zeta in E. unfold Parallel.
  change (V (vx (t1 tr) - vx (t0 tr)) (vy (t1 tr) - vy (t0 tr)) (vz (t1 tr) - vz (t0 tr))) with (vsub (t1 tr) (t0 tr)).
  change (V (vx (t2 tr) - vx (t0 tr)) (vy (t2 tr) - vy (t0 tr)) (vz (t2 tr) - vz (t0 tr))) with (vsub (t2 tr) (t0 tr)).
  split; intro H; lra.
Qed.
Lemma same_trans a b c : Same a b -> Same b c -> Same a c.
Proof. intros (?&?&?) (?&?&?). repeat split; etransitivity; eauto. Qed.
Lemma same_sym a b : Same a b -> Same b a.
Proof. intros (?&?&?). repeat split; symmetry; auto. Qed.
Lemma same_refl a : Same a a.
Proof. repeat split; reflexivity. Qed.
Lemma along_same p v s s' : s == s' -> Same (along p v s) (along p v s').
Proof. intro E. unfold Same, along; cbn [vx vy vz]. rewrite E. repeat split; reflexivity. Qed.

(** the scalar function, in one statement *)
Lemma scalar_spec p v tr seg lt tt :
  match line_triangle_intersect p v tr seg lt tt with
  | None => Parallel v tr \/ (~ Parallel v tr /\ forall q, ~ Meets p v tr seg lt tt q)
  | Some q => ~ Parallel v tr /\ Meets p v tr seg lt tt q /\ forall q', Meets p v tr seg lt tt q' -> Same q' q
  end.
Proof.
  unfold line_triangle_intersect.
  pose proof (parallel_iff v tr) as HP. pose proof (cramer_meets p v tr) as CM. pose proof (cramer_unique p v tr) as CU.
  set (denom := dot (vneg v) _) in *.
  set (t := dot (cross (vsub (t1 tr) (t0 tr)) (vsub (t2 tr) (t0 tr))) (vsub p (t0 tr)) / denom) in *.
  set (u := dot (cross (vsub (t2 tr) (t0 tr)) (vneg v)) (vsub p (t0 tr)) / denom) in *.
  set (w := dot (cross (vneg v) (vsub (t1 tr) (t0 tr))) (vsub p (t0 tr)) / denom) in *.
  destruct (Qeq_bool denom 0) eqn:E; [left; now apply HP|].
  assert (NP : ~ Parallel v tr) by (intro F; apply HP in F; discriminate).
  assert (ND : ~ denom == 0) by (intro F; apply Qeq_bool_iff in F; congruence).
  specialize (CM ND).
  assert (CU' : forall q s a b, Same q (along p v s) -> Same q (within tr a b) -> s == t /\ a == u /\ b == w).
  { intros q s a b A B. apply (CU s a b ND). eapply same_trans; [apply same_sym, A|exact B]. }
  clear CU HP E. clearbody t u w.
  assert (NO : (seg = true /\ (t < - lt \/ 1 + lt < t)) \/ u < - tt \/ 1 + tt < u \/ w < - tt \/ 1 + tt < u + w ->
     Parallel v tr \/ (~ Parallel v tr /\ forall q, ~ Meets p v tr seg lt tt q)).
  { intro H. right. split; [exact NP|]. intros q (s & a & b & A & B & Hs & Ha & Hb & Hc).
    destruct (CU' _ _ _ _ A B) as (E1 & E2 & E3).
    destruct H as [(H1 & H2)|H]; [specialize (Hs H1); lra|lra]. }
  destruct (seg && _) eqn:E1.
  { apply NO. left. apply andb_true_iff in E1. destruct E1 as (-> & E1). split; [reflexivity|].
    apply orb_true_iff in E1. rewrite !Qltb_iff in E1. lra. }
  destruct ((u <b 0 - tt) || _) eqn:E2.
  { apply NO. right. apply orb_true_iff in E2. rewrite !Qltb_iff in E2. lra. }
  destruct ((w <b 0 - tt) || _) eqn:E3.
  { apply NO. right. apply orb_true_iff in E3. rewrite !Qltb_iff in E3. lra. }
  split; [exact NP|]. apply orb_false_iff in E2, E3. rewrite !Qltb_false in E2, E3.
  split.
  - exists t, u, w. split; [apply same_refl|]. split; [exact CM|]. split; [|repeat split; lra].
    intros ->. cbn [andb] in E1. apply orb_false_iff in E1. rewrite !Qltb_false in E1. lra.
  - intros q' (s & a & b & A & B & _). destruct (CU' _ _ _ _ A B) as (H1 & _ & _).
    eapply same_trans; [exact A|]. now apply along_same.
Qed.

(** ** The array functions *)
Definition Osame (a b : option vec) : Prop :=
  match a, b with Some x, Some y => Same x y | None, None => True | _, _ => False end.
Lemma set_element_spec p v tr seg : Osame (set_element p v tr seg) (line_triangle_intersect p v tr seg 0 0).
Proof.
  unfold set_element, line_triangle_intersect.
  set (denom := dot (vneg v) _).
  destruct (Qeq_bool denom 0) eqn:E; cbn [negb masked_divide below above oplus orb andb option_map].
  - destruct seg; exact Logic.I.
  - set (t := dot (cross (vsub (t1 tr) (t0 tr)) (vsub (t2 tr) (t0 tr))) (vsub p (t0 tr)) / denom).
    set (u := dot (cross (vsub (t2 tr) (t0 tr)) (vneg v)) (vsub p (t0 tr)) / denom).
    set (w := dot (cross (vneg v) (vsub (t1 tr) (t0 tr))) (vsub p (t0 tr)) / denom).
    change (0 - 0) with 0. change (1 + 0) with 1.
    destruct seg; cbn [andb].
    + destruct ((t <b 0) || (1 <b t)); [destruct (_ || _); cbn; exact Logic.I|].
      destruct ((u <b 0) || (1 <b u)); cbn [orb]; [exact Logic.I|].
      destruct ((w <b 0) || (1 <b u + w)); [exact Logic.I|].
      unfold Osame, Same, vadd, vscale; cbn [vx vy vz option_map]. repeat split; ring.
    + destruct ((u <b 0) || (1 <b u)); cbn [orb]; [exact Logic.I|].
      destruct ((w <b 0) || (1 <b u + w)); [exact Logic.I|].
      unfold Osame, Same, vadd, vscale; cbn [vx vy vz option_map]. repeat split; ring.
Qed.
Lemma row_spec p v tr seg : Osame (triangles_row p v tr seg) (line_triangle_intersect p v tr seg 0 0).
Proof.
  enough (E : triangles_row p v tr seg = set_element p v tr seg \/ Osame (triangles_row p v tr seg) (set_element p v tr seg)).
  { destruct E as [->|E]; [apply set_element_spec|]. pose proof (set_element_spec p v tr seg) as F. revert E F. unfold Osame.
    destruct (triangles_row _ _ _ _), (set_element _ _ _ _), (line_triangle_intersect _ _ _ _ _ _); try tauto. apply same_trans. }
  right. unfold triangles_row, set_element.
  set (a := dot (cross (vsub (t1 tr) (t0 tr)) (vsub (t2 tr) (t0 tr))) (vneg v)). set (b := dot (vneg v) (cross (vsub (t1 tr) (t0 tr)) (vsub (t2 tr) (t0 tr)))).
  assert (AB : a == b) by (unfold a, b; apply dot_comm). clearbody a b.
  set (x := dot (cross (vsub (t1 tr) (t0 tr)) (vsub (t2 tr) (t0 tr))) (vsub p (t0 tr))).
  set (y := dot (cross (vsub (t2 tr) (t0 tr)) (vneg v)) (vsub p (t0 tr))).
  set (z := dot (cross (vneg v) (vsub (t1 tr) (t0 tr))) (vsub p (t0 tr))). clearbody x y z.
  assert (N : Qeq_bool a 0 = Qeq_bool b 0).
  { destruct (Qeq_bool a 0) eqn:E1, (Qeq_bool b 0) eqn:E2; try reflexivity; exfalso.
    - apply Qeq_bool_iff in E1. assert (b == 0) as F by lra. apply Qeq_bool_iff in F. congruence.
    - apply Qeq_bool_iff in E2. assert (a == 0) as F by lra. apply Qeq_bool_iff in F. congruence. }
  rewrite N. destruct (Qeq_bool b 0) eqn:E2; cbn [negb masked_divide below above oplus orb andb option_map].
  - destruct seg; exact Logic.I.
  - assert (X : x / a == x / b) by (now rewrite AB). assert (Y : y / a == y / b) by (now rewrite AB). assert (Z : z / a == z / b) by (now rewrite AB).
    set (xa := x / a) in *. set (ya := y / a) in *. set (za := z / a) in *. set (xb := x / b) in *. set (yb := y / b) in *. set (zb := z / b) in *.
    clearbody xa ya za xb yb zb.
    assert (L : forall q r k, q == r -> (q <b k) = (r <b k)) by (intros q r k H; destruct (Qltb_spec q k), (Qltb_spec r k); try reflexivity; lra).
    assert (G : forall q r k, q == r -> (k <b q) = (k <b r)) by (intros q r k H; destruct (Qltb_spec k q), (Qltb_spec k r); try reflexivity; lra).
    rewrite (L _ _ 0 X), (G _ _ 1 X), (L _ _ 0 Y), (G _ _ 1 Y), (L _ _ 0 Z), (G (ya + za) (yb + zb) 1) by (rewrite Y, Z; reflexivity).
    destruct (_ || (_ || _)); [exact Logic.I|]. destruct (seg && _); [exact Logic.I|].
    cbn [option_map Osame]. unfold Same, vadd, vscale; cbn [vx vy vz]. repeat split; rewrite X; reflexivity.
Qed.

(** ** Picking hits *)
Lemma indices_from_in {A} (l : list (option A)) i k :
  In k (indices_from l i) <-> (i <= k)%Z /\ exists x, nth_error l (Z.to_nat (k - i)) = Some (Some x).
Proof.
  revert i. induction l as [|o l IH]; intro i.
  - cbn. split; [tauto|]. intros (_ & x & H). destruct (Z.to_nat (k - i)); discriminate.
  - assert (R : In k (indices_from l (i + 1)) <-> (i < k)%Z /\ exists x, nth_error (o :: l) (Z.to_nat (k - i)) = Some (Some x)).
    { rewrite IH. split; intros (H & x & E); (split; [lia|exists x]).
      - replace (Z.to_nat (k - i)) with (S (Z.to_nat (k - (i + 1)))) by lia. exact E.
      - replace (Z.to_nat (k - i)) with (S (Z.to_nat (k - (i + 1)))) in E by lia. exact E. }
    destruct o as [y|]; cbn [indices_from In]; rewrite R.
    + split.
      * intros [<-|(H & E)]; [|split; [lia|exact E]]. split; [lia|]. exists y. now rewrite Z.sub_diag.
      * intros (H & E). destruct (Z.eq_dec i k) as [->|N]; [now left|right; split; [lia|exact E]].
    + split; [intros (H & E); split; [lia|exact E]|].
      intros (H & x & E). destruct (Z.eq_dec i k) as [->|N]; [rewrite Z.sub_diag in E; discriminate|split; [lia|eauto]].
Qed.
Lemma hits_from_in l li i a b x :
  In (a, b, x) (hits_from l li i) <-> a = li /\ (i <= b)%Z /\ nth_error l (Z.to_nat (b - i)) = Some (Some x).
Proof.
  revert i. induction l as [|o l IH]; intro i.
  - cbn. split; [tauto|]. intros (_ & _ & H). destruct (Z.to_nat (b - i)); discriminate.
  - assert (R : In (a, b, x) (hits_from l li (i + 1)) <-> a = li /\ (i < b)%Z /\ nth_error (o :: l) (Z.to_nat (b - i)) = Some (Some x)).
    { rewrite IH. split; intros (H1 & H & E); (split; [exact H1|split; [lia|]]).
      - replace (Z.to_nat (b - i)) with (S (Z.to_nat (b - (i + 1)))) by lia. exact E.
      - replace (Z.to_nat (b - i)) with (S (Z.to_nat (b - (i + 1)))) in E by lia. exact E. }
    destruct o as [y|]; cbn [hits_from In]; rewrite R.
    + split.
      * intros [[= <- <- <-]|(H1 & H & E)]; [|split; [exact H1|split; [lia|exact E]]].
        split; [reflexivity|split; [lia|]]. now rewrite Z.sub_diag.
      * intros (-> & H & E). destruct (Z.eq_dec i b) as [->|N]; [|right; split; [reflexivity|split; [lia|exact E]]].
        left. rewrite Z.sub_diag in E. cbn in E. now injection E as ->.
    + split; [intros (H1 & H & E); split; [exact H1|split; [lia|exact E]]|].
      intros (H1 & H & E). destruct (Z.eq_dec i b) as [->|N]; [rewrite Z.sub_diag in E; discriminate|split; [exact H1|split; [lia|exact E]]].
Qed.
(** element (line, triangle) of the array of intersections *)
Definition Hit (a : list (list (option vec))) (li ti : Z) (x : vec) : Prop :=
  (0 <= li)%Z /\ (0 <= ti)%Z /\ exists r, nth_error a (Z.to_nat li) = Some r /\ nth_error r (Z.to_nat ti) = Some (Some x).
Lemma all_hits_in a i li ti x :
  In (li, ti, x) (all_hits a i) <->
  (i <= li)%Z /\ (0 <= ti)%Z /\ exists r, nth_error a (Z.to_nat (li - i)) = Some r /\ nth_error r (Z.to_nat ti) = Some (Some x).
Proof.
  revert i. induction a as [|r a IH]; intro i.
  - cbn. split; [tauto|]. intros (_ & _ & r & H & _). destruct (Z.to_nat (li - i)); discriminate.
  - cbn [all_hits]. rewrite in_app_iff, hits_from_in, IH. split.
    + intros [(-> & H & E)|(H & H2 & r' & E1 & E2)].
      * split; [lia|split; [lia|]]. exists r. rewrite Z.sub_diag, Z.sub_0_r in *. auto.
      * split; [lia|split; [lia|]]. exists r'. replace (Z.to_nat (li - i)) with (S (Z.to_nat (li - (i + 1)))) by lia. auto.
    + intros (H & H2 & r' & E1 & E2). destruct (Z.eq_dec i li) as [->|N].
      * left. rewrite Z.sub_diag in E1. cbn in E1. injection E1 as ->. now rewrite Z.sub_0_r.
      * right. split; [lia|split; [lia|]]. exists r'. replace (Z.to_nat (li - i)) with (S (Z.to_nat (li - (i + 1)))) in E1 by lia. auto.
Qed.
Lemma column_hits_in a tn i li x :
  In (li, x) (column_hits a tn i) <->
  (i <= li)%Z /\ exists r, nth_error a (Z.to_nat (li - i)) = Some r /\ nth_error r tn = Some (Some x).
Proof.
  assert (NE : forall (r : list (option vec)) x, nth tn r None = Some x <-> nth_error r tn = Some (Some x)).
  { intros r y. destruct (nth_error r tn) as [o|] eqn:E.
    - rewrite (nth_error_nth _ _ None E). split; congruence.
    - rewrite nth_overflow; [split; discriminate|]. now apply nth_error_None. }
  revert i. induction a as [|r a IH]; intro i.
  - cbn. split; [tauto|]. intros (_ & r & H & _). destruct (Z.to_nat (li - i)); discriminate.
  - assert (R : In (li, x) (column_hits a tn (i + 1)) <-> (i < li)%Z /\ exists r', nth_error (r :: a) (Z.to_nat (li - i)) = Some r' /\ nth_error r' tn = Some (Some x)).
    { rewrite IH. split; intros (H & r' & E1 & E2); (split; [lia|exists r'; split; [|exact E2]]).
      - replace (Z.to_nat (li - i)) with (S (Z.to_nat (li - (i + 1)))) by lia. exact E1.
      - replace (Z.to_nat (li - i)) with (S (Z.to_nat (li - (i + 1)))) in E1 by lia. exact E1. }
    cbn [column_hits]. destruct (nth tn r None) as [y|] eqn:EN.
    + cbn [In]. rewrite R. split.
      * intros [[= <- <-]|(H & E)]; [|split; [lia|exact E]]. split; [lia|]. exists r. rewrite Z.sub_diag. split; [reflexivity|now apply NE].
      * intros (H & r' & E1 & E2). destruct (Z.eq_dec i li) as [->|N]; [|right; split; [lia|eauto]].
        left. rewrite Z.sub_diag in E1. cbn in E1. injection E1 as <-. apply NE in E2. congruence.
    + rewrite R. split; [intros (H & E); split; [lia|exact E]|].
      intros (H & r' & E1 & E2). destruct (Z.eq_dec i li) as [->|N]; [|split; [lia|eauto]].
      rewrite Z.sub_diag in E1. cbn in E1. injection E1 as <-. apply NE in E2. congruence.
Qed.

(** the last that is not nan *)
Definition LastOf (r : list (option vec)) (o : option vec) : Prop :=
  match o with
  | None => forall x, ~ In (Some x) r
  | Some x => exists b c, r = b ++ Some x :: c /\ forall y, ~ In (Some y) c
  end.
Lemma fold_last r m : let o := fold_left (fun m x => match x with Some _ => x | None => m end) r m in
  (o = m /\ forall x, ~ In (Some x) r) \/ exists x, o = Some x /\ LastOf r (Some x).
Proof.
  cbv zeta. revert m. induction r as [|o r IH]; intro m; [left; split; [reflexivity|intros x []]|].
  cbn [fold_left]. destruct (IH (match o with Some _ => o | None => m end)) as [(E & H)|(x & E & b & c & Er & H)].
  - rewrite E. destruct o as [y|].
    + right. exists y. split; [reflexivity|]. exists [], r. auto.
    + left. split; [reflexivity|]. intros x [F|F]; [discriminate|exact (H x F)].
  - right. exists x. split; [exact E|]. exists (o :: b), c. split; [now rewrite Er|exact H].
Qed.
Lemma last_spec a : Forall2 LastOf a (last_intersects a).
Proof.
  unfold last_intersects. induction a as [|r a IH]; constructor; [|exact IH].
  destruct (fold_last r None) as [(E & H)|(x & E & H)]; rewrite E; [exact H|exact H].
Qed.
