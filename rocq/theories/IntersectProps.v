(** IntersectProps.v (C84): the points where lines meet planes, triangles and one another. *)
From Coq Require Import Lqa Sorted.
From Verif Require Import Base QBase IntersectModel IntersectProofs.
Open Scope Q_scope.

(** ** A line and a plane, a line and a triangle *)
(** A line meets the plane of a triangle exactly when it is not parallel to it, and then in one point: the point
    returned is on the line and in the plane, and any point that is both is that one. *)
Theorem C84_plane : forall p v tr,
  match line_plane_intersect p v tr with
  | None => Parallel v tr
  | Some q => ~ Parallel v tr
      /\ (exists s u w, Same q (along p v s) /\ Same q (within tr u w))
      /\ (forall q' s u w, Same q' (along p v s) -> Same q' (within tr u w) -> Same q' q)
  end.
Proof.
  intros p v tr. unfold line_plane_intersect.
  pose proof (parallel_iff v tr) as HP. pose proof (cramer_meets p v tr) as CM. pose proof (cramer_unique p v tr) as CU.
  set (denom := dot (vneg v) _) in *.
  destruct (Qeq_bool denom 0) eqn:E; [now apply HP|].
  assert (ND : ~ denom == 0) by (intro F; apply Qeq_bool_iff in F; congruence).
  split; [intro F; apply HP in F; discriminate|]. split.
  - do 3 eexists. split; [apply same_refl|]. exact (CM ND).
  - intros q' s u w A B. destruct (CU s u w ND) as (H & _ & _); [eapply same_trans; [apply same_sym, A|exact B]|].
    eapply same_trans; [exact A|]. now apply along_same.
Qed.
Print Assumptions C84_plane.

(** A point is returned exactly when the line - or the segment from p to p + v, lengthened at both ends by the
    fraction [l_tol] - and the triangle - widened by the fraction [t_tol] - have a common point, unless the line
    is parallel to the plane of the triangle; it is then the only common point. *)
Theorem C84_triangle : forall p v tr seg l_tol t_tol,
  match line_triangle_intersect p v tr seg l_tol t_tol with
  | None => Parallel v tr \/ (~ Parallel v tr /\ forall q, ~ Meets p v tr seg l_tol t_tol q)
  | Some q => ~ Parallel v tr /\ Meets p v tr seg l_tol t_tol q /\ forall q', Meets p v tr seg l_tol t_tol q' -> Same q' q
  end.
Proof. exact scalar_spec. Qed.
Print Assumptions C84_triangle.

(** what one element of an array of intersections should hold *)
Definition Found (p v : vec) (seg : bool) (tr : triangle) (o : option vec) : Prop :=
  match o with
  | None => Parallel v tr \/ (~ Parallel v tr /\ forall q, ~ Meets p v tr seg 0 0 q)
  | Some q => ~ Parallel v tr /\ Meets p v tr seg 0 0 q /\ forall q', Meets p v tr seg 0 0 q' -> Same q' q
  end.
Lemma meets_same p v tr seg l t q q' : Same q q' -> Meets p v tr seg l t q' -> Meets p v tr seg l t q.
Proof. intros E (s & u & w & A & B & H). exists s, u, w. split; [eapply same_trans; eauto|]. split; [eapply same_trans; eauto|exact H]. Qed.
Lemma found_of p v seg tr o : Osame o (line_triangle_intersect p v tr seg 0 0) -> Found p v seg tr o.
Proof.
  pose proof (scalar_spec p v tr seg 0 0) as H. destruct o as [q|], (line_triangle_intersect p v tr seg 0 0) as [r|]; cbn [Osame Found]; try tauto.
  intro E. destruct H as (H1 & H2 & H3). split; [exact H1|]. split; [eapply meets_same; eauto|].
  intros q' M. eapply same_trans; [apply H3, M|]. now apply same_sym.
Qed.
Lemma forall2_map {A B} (R : A -> B -> Prop) (f : A -> B) l : (forall a, R a (f a)) -> Forall2 R l (map f l).
Proof. intro H. induction l; constructor; auto. Qed.

(** One line and many triangles: each row is what that triangle alone would give. *)
Theorem C84_triangles : forall p v trs seg,
  Forall2 (Found p v seg) trs (line_triangles_intersects p v trs seg).
Proof. intros. apply forall2_map. intro tr. apply found_of, row_spec. Qed.
Print Assumptions C84_triangles.

(** the direction of each line *)
Definition Directed (ps : list vec) (vs : directions) (vl : list vec) : Prop :=
  match vs with Each l => vl = l | Common v => vl = repeat v (List.length ps) end.
(** Many lines and many triangles: element (i, j) is what line i and triangle j would give, one common vector
    serving every line; refused unless there is a vector for every point. *)
Theorem C84_line_sets : forall ps vs trs seg,
  match line_set_triangles_intersects ps vs trs seg with
  | Ok a => exists vl, Directed ps vs vl /\ List.length vl = List.length ps
      /\ Forall2 (fun pv row => Forall2 (Found (fst pv) (snd pv) seg) trs row) (combine ps vl) a
  | Err e => e = ValueError /\ exists l, vs = Each l /\ List.length l <> List.length ps
  end.
Proof.
  intros ps vs trs seg. unfold line_set_triangles_intersects.
  set (vl := match vs with Each l => l | Common v => map (fun _ => v) ps end).
  destruct (Nat.eqb_spec (List.length vl) (List.length ps)) as [E|N].
  - exists vl. split; [|split; [exact E|]].
    + unfold Directed, vl. destruct vs as [l|v]; [reflexivity|]. clear E. induction ps; cbn; [reflexivity|now f_equal].
    + apply forall2_map. intros (p & v). apply forall2_map. intro tr. apply found_of, set_element_spec.
  - split; [reflexivity|]. destruct vs as [l|v]; [eauto|]. exfalso. apply N. unfold vl. apply map_length.
Qed.
Print Assumptions C84_line_sets.

(** the vector from one point to another *)
Definition towards (a b : vec) : vec := V (vx b - vx a) (vy b - vy a) (vz b - vz a).
Lemma removelast_nth {A} (l : list A) i : (S i < List.length l)%nat -> nth_error (removelast l) i = nth_error l i.
Proof.
  revert i. induction l as [|a l IH]; intros i H; [cbn in H; lia|].
  destruct l as [|b l]; [cbn in H; lia|].
  change (removelast (a :: b :: l)) with (a :: removelast (b :: l)).
  destruct i; [reflexivity|]. cbn [nth_error]. apply IH. cbn in *; lia.
Qed.
Lemma removelast_len {A} (l : list A) : List.length (removelast l) = pred (List.length l).
Proof. induction l as [|a [|b l] IH]; [reflexivity|reflexivity|]. change (removelast (a :: b :: l)) with (a :: removelast (b :: l)). cbn [List.length] in *. lia. Qed.
Lemma nth_combine {A B} (l : list A) (m : list B) i a b :
  nth_error l i = Some a -> nth_error m i = Some b -> nth_error (combine l m) i = Some (a, b).
Proof.
  revert m i. induction l as [|x l IH]; intros m i; [destruct i; discriminate|].
  destruct m as [|y m]; [destruct i; discriminate|]. destruct i; cbn; [congruence|apply IH].
Qed.
Lemma forall2_nth {A B} (R : A -> B -> Prop) l m i a : Forall2 R l m -> nth_error l i = Some a -> exists b, nth_error m i = Some b /\ R a b.
Proof. intro F. revert i. induction F; intros [|i] E; try discriminate; cbn in *; [injection E as ->; eauto|auto]. Qed.
Lemma forall2_len {A B} (R : A -> B -> Prop) l m : Forall2 R l m -> List.length l = List.length m.
Proof. induction 1; cbn; congruence. Qed.
(** A poly-line: row i is for the segment from point i to point i + 1; there is one row fewer than points. *)
Theorem C84_poly_line : forall ps trs, exists rows,
  poly_line_triangles_intersects ps trs = Ok rows
  /\ List.length rows = pred (List.length ps)
  /\ forall i a b, nth_error ps i = Some a -> nth_error ps (S i) = Some b ->
       exists row, nth_error rows i = Some row /\ Forall2 (Found a (towards a b) true) trs row.
Proof.
  intros ps trs. unfold poly_line_triangles_intersects.
  set (vl := map _ _). assert (LT : List.length (tl ps) = pred (List.length ps)) by (destruct ps; reflexivity).
  assert (LV : List.length vl = List.length (removelast ps)).
  { unfold vl. rewrite map_length, combine_length, removelast_len, LT. lia. }
  pose proof (C84_line_sets (removelast ps) (Each vl) trs true) as H.
  destruct (line_set_triangles_intersects _ _ _ _) as [rows|e].
  - exists rows. destruct H as (vl' & D & L' & F). cbn in D; subst vl'. split; [reflexivity|]. split.
    + rewrite <- (forall2_len _ _ _ F), combine_length, LV, removelast_len. lia.
    + intros i a b Ea Eb.
      assert (Li : (S i < List.length ps)%nat) by (apply nth_error_Some; congruence).
      assert (E1 : nth_error (removelast ps) i = Some a) by (rewrite removelast_nth; auto).
      assert (E2 : nth_error (tl ps) i = Some b) by (destruct ps; [discriminate|exact Eb]).
      assert (E3 : nth_error vl i = Some (towards a b)).
      { unfold vl. exact (map_nth_error (fun pq => vsub (snd pq) (fst pq)) i _ (nth_combine _ _ _ _ _ E1 E2)). }
      destruct (forall2_nth _ _ _ _ _ F (nth_combine _ _ _ _ _ E1 E3)) as (row & Er & R). exists row. auto.
  - destruct H as (_ & l & [= <-] & N). now rewrite LV in N.
Qed.
Print Assumptions C84_poly_line.

(** ** Choosing among the intersections *)
(** The indices listed for one line, the pairs listed for many, the triangles listed for one line of many and the lines
    listed for one triangle are exactly those with an intersection, each with its point. *)
Theorem C84_lists : 
  (forall l k, In k (intersects_indices l) <-> (0 <= k)%Z /\ exists x, nth_error l (Z.to_nat k) = Some (Some x))
  /\ (forall a li ti x, In (li, ti, x) (distilled_intersects a) <-> Hit a li ti x)
  /\ (forall a li ti x, (li < List.length a)%nat -> In (ti, x) (triangles_for_line a li) <-> Hit a (Z.of_nat li) ti x)
  /\ (forall a tn li x, In (li, x) (lines_for_triangle a tn) <-> Hit a li (Z.of_nat tn) x).
Proof.
  repeat apply conj.
  - intros l k. unfold intersects_indices. rewrite indices_from_in. now rewrite Z.sub_0_r.
  - intros a li ti x. unfold distilled_intersects, Hit. rewrite all_hits_in. now rewrite Z.sub_0_r.
  - intros a li ti x L. unfold triangles_for_line, Hit. rewrite in_map_iff. split.
    + intros (((l & t) & y) & [= <- <-] & H). apply hits_from_in in H. destruct H as (-> & H & E). rewrite Z.sub_0_r in E.
      split; [lia|split; [lia|]]. exists (nth li a []). rewrite Nat2Z.id. split; [now apply nth_error_nth'|exact E].
    + intros (_ & H & r & E1 & E2). exists (Z.of_nat li, ti, x). split; [reflexivity|]. apply hits_from_in.
      split; [reflexivity|split; [exact H|]]. rewrite Nat2Z.id in E1. rewrite (nth_error_nth _ _ [] E1), Z.sub_0_r. exact E2.
  - intros a tn li x. unfold lines_for_triangle, Hit. rewrite column_hits_in, Z.sub_0_r, Nat2Z.id. split.
    + intros (H & E). split; [exact H|]. split; [lia|exact E].
    + intros (H & _ & E). auto.
Qed.
Print Assumptions C84_lists.

(** None of them is listed twice, and they come in ascending order. *)
Lemma hits_sorted l li i : StronglySorted (fun a b => fst (fst a) = fst (fst b) /\ (snd (fst a) < snd (fst b))%Z) (hits_from l li i).
Proof.
  revert i. induction l as [|[x|] l IH]; intro i; cbn [hits_from]; [constructor| |apply IH].
  constructor; [apply IH|]. apply Forall_forall. intros ((a & b) & y) H. apply hits_from_in in H. cbn. destruct H as (-> & H & _). split; [reflexivity|lia].
Qed.
Definition before (a b : Z * Z * vec) : Prop :=
  (fst (fst a) < fst (fst b))%Z \/ fst (fst a) = fst (fst b) /\ (snd (fst a) < snd (fst b))%Z.
Lemma ss_app {A} (R : A -> A -> Prop) l m : StronglySorted R l -> StronglySorted R m -> (forall x y, In x l -> In y m -> R x y) -> StronglySorted R (l ++ m).
Proof.
  induction 1 as [|x l H IH F]; intros M X; [exact M|]. cbn. constructor.
  - apply IH; [exact M|]. intros; apply X; [now right|assumption].
  - apply Forall_app. split; [exact F|]. apply Forall_forall. intros; apply X; [now left|assumption].
Qed.
Lemma ss_impl {A} (R S : A -> A -> Prop) l : (forall x y, R x y -> S x y) -> StronglySorted R l -> StronglySorted S l.
Proof. intro H. induction 1 as [|x l _ IH F]; constructor; [exact IH|]. eapply Forall_impl; [|exact F]. auto. Qed.
Theorem C84_lists_ascending :
  (forall l, StronglySorted Z.lt (intersects_indices l))
  /\ (forall a, StronglySorted before (distilled_intersects a))
  /\ (forall a li, StronglySorted (fun x y => (fst x < fst y)%Z) (triangles_for_line a li))
  /\ (forall a tn, StronglySorted (fun x y => (fst x < fst y)%Z) (lines_for_triangle a tn)).
Proof.
  repeat apply conj.
  - intro l. unfold intersects_indices. generalize 0%Z. induction l as [|[x|] l IH]; intro i; cbn [indices_from]; [constructor| |apply IH].
    constructor; [apply IH|]. apply Forall_forall. intros k H. apply indices_from_in in H. lia.
  - intro a. unfold distilled_intersects. generalize 0%Z. induction a as [|r a IH]; intro i; cbn [all_hits]; [constructor|].
    apply ss_app; [|apply IH|].
    + eapply ss_impl; [|apply hits_sorted]. intros x y H. right. exact H.
    + intros ((x1 & x2) & x3) ((y1 & y2) & y3) X Y. apply hits_from_in in X. apply all_hits_in in Y. left. cbn. lia.
  - intros a li. unfold triangles_for_line. pose proof (hits_sorted (nth li a []) (Z.of_nat li) 0) as H.
    induction H as [|x l _ IH F]; cbn; constructor; [exact IH|]. apply Forall_map. eapply Forall_impl; [|exact F]. cbn. tauto.
  - intros a tn. unfold lines_for_triangle. generalize 0%Z. induction a as [|r a IH]; intro i; cbn [column_hits]; [constructor|].
    destruct (nth tn r None); [|apply IH]. constructor; [apply IH|]. apply Forall_forall. intros (l & x) H. apply column_hits_in in H. cbn. lia.
Qed.
Print Assumptions C84_lists_ascending.

(** At most one point for each line: that of the last triangle in the list which the line meets. *)
Theorem C84_last : forall a, Forall2 LastOf a (last_intersects a).
Proof. exact last_spec. Qed.
Print Assumptions C84_last.

(** none of the triangles is met by the segment from a to b *)
Definition Misses (a b : vec) (trs : list triangle) : Prop :=
  forall tr, In tr trs -> Parallel (towards a b) tr \/ forall q, ~ Meets a (towards a b) tr true 0 0 q.
Lemma found_misses a b trs row : Forall2 (Found a (towards a b) true) trs row -> (forall x, ~ In (Some x) row) -> Misses a b trs.
Proof.
  induction 1 as [|tr o trs row F _ IH]; intros N tr' I'; [destruct I'|].
  destruct I' as [<-|I']; [|apply IH; [intros x H; apply (N x); now right|exact I']].
  destruct o as [x|]; [exfalso; apply (N x); now left|]. cbn in F. tauto.
Qed.
Lemma found_split a b trs r1 x r2 : Forall2 (Found a (towards a b) true) trs (r1 ++ Some x :: r2) -> (forall y, ~ In (Some y) r2) ->
  exists l1 tr l2, trs = l1 ++ tr :: l2 /\ Found a (towards a b) true tr (Some x) /\ Misses a b l2.
Proof.
  intros F N. apply Forall2_app_inv_r in F. destruct F as (l1 & l' & _ & F & ->). inversion F as [|tr o l2 r F1 F2]; subst.
  exists l1, tr, l2. split; [reflexivity|]. split; [exact F1|]. eapply found_misses; eauto.
Qed.
Lemma first_spec l c trs :
  match first_from l c trs with
  | None => forall i a b, nth_error l i = Some a -> nth_error l (S i) = Some b -> Misses a b trs
  | Some (k, o) => exists n a b x l1 tr l2, k = (c + Z.of_nat n)%Z /\ nth_error l n = Some a /\ nth_error l (S n) = Some b
      /\ (forall i a' b', (i < n)%nat -> nth_error l i = Some a' -> nth_error l (S i) = Some b' -> Misses a' b' trs)
      /\ o = Some x /\ trs = l1 ++ tr :: l2 /\ ~ Parallel (towards a b) tr /\ Meets a (towards a b) tr true 0 0 x /\ Misses a b l2
  end.
Proof.
  revert c. induction l as [|a l IH]; intro c; [intros i a b E; destruct i; discriminate|].
  destruct l as [|b l]; [intros [|i] a' b' E F; [discriminate|destruct i; discriminate]|].
  change (first_from (a :: b :: l) c trs) with
    (let points := line_triangles_intersects a (vsub b a) trs true in
      if forallb (fun x => match x with None => true | Some _ => false end) points then first_from (b :: l) (c + 1) trs
      else Some (c, hd None (last_intersects [points]))).
  cbv zeta. pose proof (C84_triangles a (vsub b a) trs true) as F. change (vsub b a) with (towards a b) in *.
  set (points := line_triangles_intersects a (towards a b) trs true) in *.
  destruct (forallb _ points) eqn:EA.
  - assert (M : Misses a b trs).
    { apply (found_misses _ _ _ _ F). intros x H. rewrite forallb_forall in EA. now specialize (EA _ H). }
    specialize (IH (c + 1)%Z). destruct (first_from (b :: l) (c + 1) trs) as [(k & o)|].
    + destruct IH as (n & a' & b' & x & l1 & tr & l2 & E1 & E2 & E3 & E4 & E5). exists (S n), a', b', x, l1, tr, l2.
      split; [lia|]. split; [exact E2|]. split; [exact E3|]. split; [|exact E5].
      intros [|i] p q Hi Ep Eq; [cbn in Ep, Eq; injection Ep as <-; injection Eq as <-; exact M|]. apply (E4 i p q); [lia|exact Ep|exact Eq].
    + intros [|i] p q Ep Eq; [cbn in Ep, Eq; injection Ep as <-; injection Eq as <-; exact M|]. exact (IH i p q Ep Eq).
  - assert (LS := C84_last [points]). destruct (last_intersects [points]) as [|o rest]; [inversion LS|].
    inversion LS as [|r o' rr oo LO _]; subst. cbn [hd].
    destruct o as [x|].
    + destruct LO as (r1 & r2 & Er & N). rewrite Er in F. destruct (found_split _ _ _ _ _ _ F N) as (l1 & tr & l2 & Et & (P1 & P2 & _) & M).
      exists 0%nat, a, b, x, l1, tr, l2. split; [lia|]. split; [reflexivity|]. split; [reflexivity|]. split; [intros; lia|]. auto.
    + exfalso. assert (X : forallb (fun x : option vec => match x with None => true | Some _ => false end) points = true); [|congruence].
      apply forallb_forall. intros [x|] H; [exfalso; exact (LO x H)|reflexivity].
Qed.
Lemma skipn_nth {A} (l : list A) s i : nth_error (skipn s l) i = nth_error l (s + i).
Proof. revert l. induction s; intro l; [reflexivity|]. destruct l; [destruct i; reflexivity|]. cbn. apply IHs. Qed.
(** The first intersection of a poly-line: of the segments from number [start] on the first that meets a triangle is found, with
    its point on the last triangle it meets; nothing is returned only when no such segment meets any triangle. *)
Theorem C84_first : forall ps trs start,
  match poly_line_triangles_first_intersect ps trs start with
  | None => forall i a b, (start <= i)%nat -> nth_error ps i = Some a -> nth_error ps (S i) = Some b -> Misses a b trs
  | Some (k, o) => exists n a b x l1 tr l2, k = Z.of_nat n /\ (start <= n)%nat /\ nth_error ps n = Some a /\ nth_error ps (S n) = Some b
      /\ (forall i a' b', (start <= i < n)%nat -> nth_error ps i = Some a' -> nth_error ps (S i) = Some b' -> Misses a' b' trs)
      /\ o = Some x /\ trs = l1 ++ tr :: l2 /\ ~ Parallel (towards a b) tr /\ Meets a (towards a b) tr true 0 0 x /\ Misses a b l2
  end.
Proof.
  intros ps trs start. unfold poly_line_triangles_first_intersect. pose proof (first_spec (skipn start ps) (Z.of_nat start) trs) as H.
  destruct (first_from _ _ _) as [(k & o)|].
  - destruct H as (n & a & b & x & l1 & tr & l2 & E1 & E2 & E3 & E4 & E5). rewrite skipn_nth in E2, E3.
    exists (start + n)%nat, a, b, x, l1, tr, l2. split; [lia|]. split; [lia|]. split; [exact E2|].
    split; [now rewrite Nat.add_succ_r in E3|]. split; [|exact E5].
    intros i p q Hi Ep Eq. apply (E4 (i - start)%nat p q); [lia| |]; rewrite skipn_nth.
    + replace (start + (i - start))%nat with i by lia. exact Ep.
    + replace (start + S (i - start))%nat with (S i) by lia. exact Eq.
  - intros i p q Hi Ep Eq. apply (H (i - start)%nat p q); rewrite skipn_nth.
    + replace (start + (i - start))%nat with i by lia. exact Ep.
    + replace (start + S (i - start))%nat with (S i) by lia. exact Eq.
Qed.
Print Assumptions C84_first.

(** ** In the plane *)
Definition Same2 (p q : pt) : Prop := px p == px q /\ py p == py q.
(** the point a fraction s of the way from a to b *)
Definition on (a b : pt) (s : Q) : pt := P2 (px a + s * (px b - px a)) (py a + s * (py b - py a)).
Definition Parallel2 (a b c d : pt) : Prop := (px b - px a) * (py d - py c) == (py b - py a) * (px d - px c).
(** [q] is on the first line at s and on the second at u, within the bounds asked for *)
Definition Crosses (a b c d : pt) (segment half : bool) (q : pt) : Prop :=
  exists s u, Same2 q (on a b s) /\ Same2 q (on c d u)
    /\ (segment = true -> 0 <= s /\ (half = false -> s <= 1) /\ 0 <= u <= 1).
Lemma same2_trans p q r : Same2 p q -> Same2 q r -> Same2 p r.
Proof. intros (?&?) (?&?). split; etransitivity; eauto. Qed.
Lemma same2_sym p q : Same2 p q -> Same2 q p.
Proof. intros (?&?). split; symmetry; auto. Qed.
Lemma same2_refl p : Same2 p p.
Proof. split; reflexivity. Qed.
Lemma cramer2 a b c d s u :
  let D := (px a - px b) * (py c - py d) - (py a - py b) * (px c - px d) in
  ~ D == 0 ->
  (Same2 (on a b s) (on c d u) <->
   s == ((px a - px c) * (py c - py d) - (py a - py c) * (px c - px d)) / D
   /\ u == (- ((px a - px b) * (py a - py c) - (py a - py b) * (px a - px c))) / D).
Proof.
  cbv zeta. intro N. unfold Same2, on; cbn [px py]. split.
  - intros (X & Y).
    assert (X' : px a == px c + u * (px d - px c) - s * (px b - px a)) by lra.
    assert (Y' : py a == py c + u * (py d - py c) - s * (py b - py a)) by lra.
    assert (XC : px a - px c == u * (px d - px c) - s * (px b - px a)) by lra.
    assert (YC : py a - py c == u * (py d - py c) - s * (py b - py a)) by lra.
    rewrite XC, YC. split; field; exact N.
  - intros (-> & ->). split; field; exact N.
Qed.
Lemma on_same a b s s' : s == s' -> Same2 (on a b s) (on a b s').
Proof. intro E. unfold Same2, on; cbn [px py]. rewrite E. split; reflexivity. Qed.

(** Two lines cross in the point returned and in no other; nothing is returned only when they are parallel, or when they are
    bounded - the second between its points, the first there too or only at its first point - and do not cross within bounds.
    Both ends count as within. *)
Theorem C84_lines : forall a b c d segment half,
  match line_line_intersect a b c d segment half with
  | None => Parallel2 a b c d \/ (~ Parallel2 a b c d /\ forall q, ~ Crosses a b c d segment half q)
  | Some q => ~ Parallel2 a b c d /\ Crosses a b c d segment half q /\ forall q', Crosses a b c d segment half q' -> Same2 q' q
  end.
Proof.
  intros a b c d seg half. unfold line_line_intersect.
  pose proof (cramer2 a b c d) as CR. cbv zeta in CR.
  assert (DP : (px a - px b) * (py c - py d) - (py a - py b) * (px c - px d) == 0 <-> Parallel2 a b c d) by (unfold Parallel2; split; intro; lra).
  set (D := (px a - px b) * (py c - py d) - (py a - py b) * (px c - px d)) in *.
  destruct (Qeq_bool D 0) eqn:E; [left; apply DP; now apply Qeq_bool_iff|].
  assert (ND : ~ D == 0) by (intro F; apply Qeq_bool_iff in F; congruence).
  assert (NP : ~ Parallel2 a b c d) by (intro F; apply ND; now apply DP).
  set (t := _ / D) in *. set (w := _ / D) in CR.
  assert (HS : Same2 (on a b t) (on c d w)) by (apply (CR t w ND); split; reflexivity).
  assert (CU : forall q s u, Same2 q (on a b s) -> Same2 q (on c d u) -> s == t /\ u == w).
  { intros q s u A B. apply (CR s u ND). eapply same2_trans; [apply same2_sym, A|exact B]. }
  destruct seg.
  - fold w. 
    assert (NO : (t < 0 \/ (half = false /\ 1 < t) \/ w < 0 \/ 1 < w) ->
      Parallel2 a b c d \/ (~ Parallel2 a b c d /\ forall q, ~ Crosses a b c d true half q)).
    { intro H. right. split; [exact NP|]. intros q (s & u & A & B & H'). destruct (H' eq_refl) as (H1 & H2 & H3).
      destruct (CU _ _ _ A B) as (E1 & E2). destruct H as [H|[(Hh & H)|H]]; [lra|specialize (H2 Hh); lra|lra]. }
    destruct ((t <b 0) || (negb half && (1 <b t))) eqn:E1.
    { apply NO. apply orb_true_iff in E1. rewrite andb_true_iff, !Qltb_iff, negb_true_iff in E1. tauto. }
    apply orb_false_iff in E1. destruct E1 as (E1 & E1'). apply Qltb_false in E1.
    destruct ((0 <=b w) && (w <=b 1)) eqn:E2; cbn [negb].
    + apply andb_true_iff in E2. rewrite !Qleb_iff in E2. split; [exact NP|]. split.
      * exists t, w. split; [apply same2_refl|]. split; [exact HS|]. intros _. split; [lra|]. split; [|lra].
        intros ->. cbn [negb andb] in E1'. now apply Qltb_false in E1'.
      * intros q' (s & u & A & B & _). destruct (CU _ _ _ A B) as (H1 & _). eapply same2_trans; [exact A|]. now apply (on_same a b).
    + apply NO. right. right. apply andb_false_iff in E2. rewrite !Qleb_false in E2. exact E2.
  - split; [exact NP|].
    set (q := P2 _ _).
    assert (Hq : Same2 q (on a b t)).
    { unfold Same2, on, q, t, D in *; cbn [px py]. split; field; exact ND. }
    split.
    + exists t, w. split; [exact Hq|]. split; [eapply same2_trans; [exact Hq|exact HS]|discriminate].
    + intros q' (s & u & A & B & _). destruct (CU _ _ _ A B) as (H1 & _). eapply same2_trans; [exact A|].
      eapply same2_trans; [apply on_same, H1|]. now apply same2_sym.
Qed.
Print Assumptions C84_lines.

Definition dist2 (p q : pt) : Q := (px p - px q) * (px p - px q) + (py p - py q) * (py p - py q).
Lemma length_pos l1 l2 : ~ Same2 l1 l2 -> 0 < (px l2 - px l1) * (px l2 - px l1) + (py l2 - py l1) * (py l2 - py l1).
Proof.
  intro N. destruct (Qlt_le_dec 0 ((px l2 - px l1) * (px l2 - px l1) + (py l2 - py l1) * (py l2 - py l1))) as [H|H]; [exact H|].
  exfalso. apply N.
  assert (S0 : forall x : Q, 0 <= x * x) by (intro; nra).
  pose proof (S0 (px l2 - px l1)) as A. pose proof (S0 (py l2 - py l1)) as B.
  assert (A0 : (px l2 - px l1) * (px l2 - px l1) == 0) by lra. assert (B0 : (py l2 - py l1) * (py l2 - py l1) == 0) by lra.
  apply Qmult_integral in A0, B0. split; lra.
Qed.
Lemma projection p l1 l2 : ~ Same2 l1 l2 ->
  exists q s, point_projected_to_line_2d p l1 l2 = Some q /\ Same2 q (on l1 l2 s)
    /\ (px p - px q) * (px l2 - px l1) + (py p - py q) * (py l2 - py l1) == 0.
Proof.
  intro N. apply length_pos in N. unfold point_projected_to_line_2d.
  pose proof (C84_lines l1 l2 p (P2 (px p + - (py l2 - py l1)) (py p + (px l2 - px l1))) false false) as H.
  cbn [px py] in *. destruct (line_line_intersect _ _ _ _ _ _) as [q|].
  - destruct H as (_ & (s & u & A & (B1 & B2) & _) & _). exists q, s. split; [reflexivity|]. split; [exact A|].
    unfold on in B1, B2; cbn [px py] in B1, B2. 
    assert (X : px p - px q == u * (py l2 - py l1)) by lra. assert (Y : py p - py q == - u * (px l2 - px l1)) by lra.
    rewrite X, Y. ring.
  - exfalso. assert (PP : Parallel2 l1 l2 p (P2 (px p + - (py l2 - py l1)) (py p + (px l2 - px l1))) -> False).
    { unfold Parallel2; cbn [px py]. intro F. lra. }
    destruct H as [H|(_ & H)]; [exact (PP H)|].
    pose proof (cramer2 l1 l2 p (P2 (px p + - (py l2 - py l1)) (py p + (px l2 - px l1)))) as CR. cbv zeta in CR.
    destruct (Qeq_dec ((px l1 - px l2) * (py p - py (P2 (px p + - (py l2 - py l1)) (py p + (px l2 - px l1)))) -
      (py l1 - py l2) * (px p - px (P2 (px p + - (py l2 - py l1)) (py p + (px l2 - px l1))))) 0) as [F|F].
    + apply PP. unfold Parallel2. cbn [px py] in *. lra.
    + eapply H. eexists _, _. split; [apply same2_refl|]. split; [apply (CR _ _ F); split; reflexivity|discriminate].
Qed.
(** The nearest point of a line: the point returned is on the line through l1 and l2 and no point of that line is nearer to p. *)
Theorem C84_projection : forall p l1 l2, ~ Same2 l1 l2 ->
  exists q s, point_projected_to_line_2d p l1 l2 = Some q /\ Same2 q (on l1 l2 s)
    /\ forall r, dist2 p q <= dist2 p (on l1 l2 r).
Proof.
  intros p l1 l2 N. destruct (projection p l1 l2 N) as (q & s & E & (Q1 & Q2) & O). exists q, s. split; [exact E|]. split; [split; assumption|].
  intro r. unfold dist2, on in *; cbn [px py] in *.
  set (vx := px l2 - px l1) in *. set (vy := py l2 - py l1) in *.
  assert (X : px p - (px l1 + r * vx) == (px p - px q) + (s - r) * vx) by lra.
  assert (Y : py p - (py l1 + r * vy) == (py p - py q) + (s - r) * vy) by lra.
  rewrite X, Y.
  assert (Z : ((px p - px q) + (s - r) * vx) * ((px p - px q) + (s - r) * vx) + ((py p - py q) + (s - r) * vy) * ((py p - py q) + (s - r) * vy)
    == (px p - px q) * (px p - px q) + (py p - py q) * (py p - py q) + 2 * (s - r) * ((px p - px q) * vx + (py p - py q) * vy)
      + (s - r) * (s - r) * (vx * vx + vy * vy)) by ring.
  rewrite Z, O.
  assert (S0 : forall x : Q, 0 <= x * x) by (intro; nra). pose proof (S0 ((s - r) * vx)). pose proof (S0 ((s - r) * vy)). lra.
Qed.
Print Assumptions C84_projection.

(** The nearest point of a segment: the point returned is between the ends, and no point between them is nearer to p. *)
Theorem C84_snap : forall p l1 l2, ~ Same2 l1 l2 ->
  exists q s, point_snapped_to_line_segment_2d p l1 l2 = Some q /\ 0 <= s <= 1 /\ Same2 q (on l1 l2 s)
    /\ forall r, 0 <= r <= 1 -> dist2 p q <= dist2 p (on l1 l2 r).
Proof.
  intros p l1 l2 N. pose proof (length_pos _ _ N) as LP. unfold point_snapped_to_line_segment_2d, is_obtuse_2d.
  assert (S0 : forall x : Q, 0 <= x * x) by (intro; nra).
  destruct (Qltb_spec ((px p - px l1) * (px l2 - px l1) + (py p - py l1) * (py l2 - py l1)) 0) as [H1|H1].
  - exists l1, 0. split; [reflexivity|]. split; [lra|]. split; [unfold Same2, on; cbn [px py]; split; ring|].
    intros r Hr. unfold dist2, on; cbn [px py]. set (vx := px l2 - px l1) in *. set (vy := py l2 - py l1) in *.
    assert (Z : (px p - (px l1 + r * vx)) * (px p - (px l1 + r * vx)) + (py p - (py l1 + r * vy)) * (py p - (py l1 + r * vy)) ==
      (px p - px l1) * (px p - px l1) + (py p - py l1) * (py p - py l1) - 2 * (r * ((px p - px l1) * vx + (py p - py l1) * vy)) + (r * vx) * (r * vx) + (r * vy) * (r * vy)) by ring.
    rewrite Z. set (k := (px p - px l1) * vx + (py p - py l1) * vy) in *. assert (r * k <= 0) by nra.
    pose proof (S0 (r * vx)). pose proof (S0 (r * vy)). lra.
  - destruct (Qltb_spec ((px p - px l2) * (px l1 - px l2) + (py p - py l2) * (py l1 - py l2)) 0) as [H2|H2].
    + exists l2, 1. split; [reflexivity|]. split; [lra|]. split; [unfold Same2, on; cbn [px py]; split; ring|].
      intros r Hr. unfold dist2, on; cbn [px py]. set (vx := px l1 - px l2) in *. set (vy := py l1 - py l2) in *.
      assert (Z : (px p - (px l1 + r * (px l2 - px l1))) * (px p - (px l1 + r * (px l2 - px l1))) + (py p - (py l1 + r * (py l2 - py l1))) * (py p - (py l1 + r * (py l2 - py l1))) ==
        (px p - px l2) * (px p - px l2) + (py p - py l2) * (py p - py l2) - 2 * ((1 - r) * ((px p - px l2) * vx + (py p - py l2) * vy)) + ((1 - r) * vx) * ((1 - r) * vx) + ((1 - r) * vy) * ((1 - r) * vy)) by (unfold vx, vy; ring).
      rewrite Z. set (k := (px p - px l2) * vx + (py p - py l2) * vy) in *. assert ((1 - r) * k <= 0) by nra.
      pose proof (S0 ((1 - r) * vx)). pose proof (S0 ((1 - r) * vy)). lra.
    + destruct (projection p l1 l2 N) as (q & s & E & (Q1 & Q2) & O).
      destruct (C84_projection p l1 l2 N) as (q' & s' & E' & _ & M). rewrite E in E'. injection E' as <-.
      exists q, s. split; [exact E|]. split; [|split; [split; assumption|intros r _; apply M]].
      unfold on in Q1, Q2; cbn [px py] in Q1, Q2.
      set (vx := px l2 - px l1) in *. set (vy := py l2 - py l1) in *.
      assert (A : (px p - px l1) * vx + (py p - py l1) * vy == s * (vx * vx + vy * vy)).
      { assert (X : px p - px l1 == (px p - px q) + s * vx) by lra. assert (Y : py p - py l1 == (py p - py q) + s * vy) by lra. rewrite X, Y.
        transitivity (((px p - px q) * vx + (py p - py q) * vy) + s * (vx * vx + vy * vy)); [ring|]. rewrite O. ring. }
      assert (B : (px p - px l2) * (px l1 - px l2) + (py p - py l2) * (py l1 - py l2) == (1 - s) * (vx * vx + vy * vy)).
      { assert (X : px p - px l2 == (px p - px q) - (1 - s) * vx) by (unfold vx in *; lra). assert (Y : py p - py l2 == (py p - py q) - (1 - s) * vy) by (unfold vy in *; lra).
        assert (X1 : px l1 - px l2 == - vx) by (unfold vx; lra). assert (Y1 : py l1 - py l2 == - vy) by (unfold vy; lra). rewrite X, Y, X1, Y1.
        transitivity (- ((px p - px q) * vx + (py p - py q) * vy) + (1 - s) * (vx * vx + vy * vy)); [ring|]. rewrite O. ring. }
      rewrite A in H1. rewrite B in H2. set (k := vx * vx + vy * vy) in *. clearbody k. clear - LP H1 H2. split; nra.
Qed.
Print Assumptions C84_snap.
(** When the two ends are one point, that point is the nearest, but nothing is returned. *)
Theorem C84_snap_point_refuted : exists p l, ~ Same2 p l /\ point_snapped_to_line_segment_2d p l l = None.
Proof. exists (P2 1 2), (P2 3 4). split; [|reflexivity]. intros (H & _). discriminate H. Qed.
Print Assumptions C84_snap_point_refuted.

(** ** Concrete cases *)
Definition flat_tri : triangle := Tri (V 0 0 5) (V 4 0 5) (V 0 4 5).
Example hit_inside : option_map (fun q => (Qred (vx q), Qred (vy q), Qred (vz q))) (line_triangle_intersect (V 1 1 0) (V 0 0 10) flat_tri true 0 0) = Some (1, 1, 5).
Proof. reflexivity. Qed.
Example hit_hypotenuse : is_ok (match line_triangle_intersect (V 2 2 0) (V 0 0 10) flat_tri true 0 0 with Some q => Ok q | None => Err ValueError end) = true.
Proof. reflexivity. Qed.
Example miss_short : line_triangle_intersect (V 1 1 0) (V 0 0 4) flat_tri true 0 0 = None.
Proof. reflexivity. Qed.
Example hit_short_tolerant : is_ok (match line_triangle_intersect (V 1 1 0) (V 0 0 4) flat_tri true (1 # 2) 0 with Some q => Ok q | None => Err ValueError end) = true.
Proof. reflexivity. Qed.
Example first_segment : option_map fst (poly_line_triangles_first_intersect [V 1 1 0; V 1 1 1; V 1 1 4; V 1 1 8; V 1 1 0] [flat_tri] 1) = Some 2%Z.
Proof. reflexivity. Qed.
Example crossing : option_map (fun q => (Qred (px q), Qred (py q))) (line_line_intersect (P2 0 0) (P2 4 4) (P2 0 4) (P2 4 0) true false) = Some (2, 2).
Proof. reflexivity. Qed.
Example snap_end : point_snapped_to_line_segment_2d (P2 (-3) 1) (P2 0 0) (P2 4 0) = Some (P2 0 0).
Proof. reflexivity. Qed.
Example snap_inside : option_map (fun q => (Qred (px q), Qred (py q))) (point_snapped_to_line_segment_2d (P2 1 7) (P2 0 0) (P2 4 0)) = Some (1, 0).
Proof. reflexivity. Qed.
