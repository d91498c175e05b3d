(** PolylineProps2.v: C92, files of lines, vertices removed, trimming and convexity. *)
From Coq Require Import Qabs Lqa.
From Verif Require Import Base QBase IntersectModel PolylineModel PolylineProps.
Open Scope Z_scope.

(** ** IRAP files *)
Definition EndsMeet (pts : list vec) : Prop :=
  exists a z, hd_error pts = Some a /\ hd_error (rev pts) = Some z /\
    (Qabs (vx a - vx z) <= 1 # 1000000 /\ Qabs (vy a - vy z) <= 1 # 1000000 /\ Qabs (vz a - vz z) <= 1 # 1000000)%Q.
Lemma read_line : forall ps pl rest l, (forall p, In p ps -> np_isclose p end_of_line = false) -> pl ++ ps <> [] ->
  read_rows rest [] = Some l -> read_rows (ps ++ end_of_line :: rest) pl = Some ((pl ++ ps) :: l).
Proof.
  induction ps as [|p ps IH]; intros pl rest l Hp Hne Hr.
  - cbn [app read_rows]. replace (np_isclose end_of_line end_of_line) with true by (vm_compute; reflexivity).
    rewrite app_nil_r in *. destruct pl; [ congruence |]. rewrite Hr. reflexivity.
  - cbn [app read_rows]. rewrite (Hp p (or_introl eq_refl)). rewrite (IH (pl ++ [p]) rest l); [| | | exact Hr ].
    + rewrite <- app_assoc. reflexivity.
    + intros q Hq. apply Hp. right; exact Hq.
    + destruct pl; discriminate.
Qed.
Lemma read_written : forall polys, Forall Enough polys -> (forall ps p, In ps polys -> In p ps -> np_isclose p end_of_line = false) ->
  read_lines (convert_to_irap polys) = polys.
Proof.
  intros polys He Hp. unfold read_lines. assert (E : read_rows (convert_to_irap polys) [] = Some polys); [| rewrite E; reflexivity ].
  induction He as [|ps polys H1 He IH]; [ reflexivity |]. unfold convert_to_irap. cbn [flat_map]. rewrite <- app_assoc. cbn [app].
  apply (read_line ps []).
  - intros p. apply Hp. left; reflexivity.
  - intros E. cbn in E. subst. unfold Enough in H1. cbn in H1. lia.
  - apply IH. intros ps' p H. apply Hp. right; exact H.
Qed.
Definition meets (pts : list vec) : bool := match pts with [] => false | a :: _ => vu_isclose a (last pts a) end.
Lemma meets_iff pts : meets pts = true <-> EndsMeet pts.
Proof.
  destruct pts as [|a r]. { split; [ discriminate | intros (x & y & E & _); discriminate ]. }
  unfold meets. set (pts := a :: r).
  assert (L : hd_error (rev pts) = Some (last pts a)).
  { rewrite (app_removelast_last a (l := pts)) at 1 by discriminate. rewrite rev_app_distr. reflexivity. }
  assert (V : vu_isclose a (last pts a) = true <->
    (Qabs (vx a - vx (last pts a)) <= 1 # 1000000 /\ Qabs (vy a - vy (last pts a)) <= 1 # 1000000 /\ Qabs (vz a - vz (last pts a)) <= 1 # 1000000)%Q).
  { unfold vu_isclose. rewrite !andb_true_iff, !Qleb_iff. tauto. }
  rewrite V. split.
  - intros H. exists a, (last pts a). repeat split; try reflexivity; try exact L; apply H.
  - intros (x & y & Ex & Ey & H). cbn in Ex. injection Ex as <-. rewrite L in Ey. injection Ey as <-. exact H.
Qed.
Lemma irap_fold : forall polys c ct cl i, Forall Enough polys -> 0 < i ->
  fold_left irap_step polys (Ok (Some c, ct, cl, i)) = Ok (Some (c ++ List.concat polys), ct ++ map zlen polys, cl ++ map meets polys, i + zlen polys).
Proof.
  induction polys as [|ps polys IH]; intros c ct cl i He Hi.
  - cbn. rewrite !app_nil_r. unfold zlen; cbn. rewrite Z.add_0_r. reflexivity.
  - inversion He as [| ? ? H1 H2]; subst. cbn [fold_left].
    assert (S1 : irap_step (Ok (Some c, ct, cl, i)) ps = Ok (Some (c ++ ps), ct ++ [zlen ps], cl ++ [meets ps], i + 1)).
    { unfold irap_step. cbn [bind]. unfold Enough in H1. replace (zlen ps >? 1) with true by (symmetry; apply Z.gtb_lt; unfold zlen; lia).
      destruct ps as [|p ps]; [ cbn in H1; lia |]. replace (i =? 0) with false by (symmetry; apply Z.eqb_neq; lia). reflexivity. }
    rewrite S1, IH by (assumption || lia). cbn [List.concat map]. rewrite <- !app_assoc. cbn [app].
    replace (i + 1 + zlen polys) with (i + zlen (ps :: polys)) by (unfold zlen; cbn [List.length]; lia). reflexivity.
Qed.
(** Polylines written to an IRAP file and read come back in order with their points, closed if their ends meet.  No point
    may be near the mark (999, 999, 999) that ends a line. *)
Theorem C92_irap : forall polys, polys <> [] -> Forall Enough polys ->
  (forall ps p, In ps polys -> In p ps -> np_isclose p (V 999 999 999) = false) ->
  exists out, set_from_irap (convert_to_irap polys) = Ok out
    /\ Forall2 (fun ps q => (fst q = true <-> EndsMeet ps) /\ ReadBack (fst q) ps (snd q)) polys out.
Proof.
  intros polys Hne He Hp. unfold set_from_irap. rewrite read_written by assumption.
  destruct polys as [|ps polys]; [ congruence |]. inversion He as [| ? ? H1 H2]; subst. cbn [fold_left].
  assert (S1 : irap_step (Ok (None, [], [], 0)) ps = Ok (Some ps, [zlen ps], [meets ps], 1)).
  { unfold irap_step. cbn [bind]. unfold Enough in H1. replace (zlen ps >? 1) with true by (symmetry; apply Z.gtb_lt; unfold zlen; lia).
    destruct ps as [|p ps]; [ cbn in H1; lia |]. reflexivity. }
  rewrite S1, irap_fold by (assumption || lia). cbn [bind app].
  change (ps ++ List.concat polys) with (List.concat (ps :: polys)). change (zlen ps :: map zlen polys) with (map zlen (ps :: polys)).
  change (meets ps :: map meets polys) with (map meets (ps :: polys)).
  eexists. split; [ apply convert_lemma; [ apply map_length | apply Counts_exact | exact He ] |].
  clear. generalize (ps :: polys). intros l. induction l as [|a l IH]; [ constructor |]. cbn [map combine]. constructor; [| exact IH ].
  cbn [fst snd]. split; [ apply meets_iff | apply tidy_ReadBack ].
Qed.
Print Assumptions C92_irap.
Example irap_square : set_from_irap (convert_to_irap [pl_coords ex_square; pl_coords ex_triangle])
  = Ok [(true, [V 0 0 0; V 1 0 0; V 1 1 0; V 0 1 0]); (false, pl_coords ex_triangle)].
Proof. vm_compute. reflexivity. Qed.
(** A closed polyline (that does not repeat its first point) comes back open. *)
Theorem C92_irap_closed_refuted : exists p, pl_closed p = true /\ Enough (pl_coords p)
  /\ set_from_irap (convert_to_irap [pl_coords p]) = Ok [(false, pl_coords p)].
Proof. exists ex_triangle. split; [ reflexivity | split; [ unfold Enough; cbn; lia | vm_compute; reflexivity ] ]. Qed.
Print Assumptions C92_irap_closed_refuted.
(** A line of one point is left out, but if it is the first line of the file nothing can be read. *)
Theorem C92_irap_first_line_refuted : exists point line, Enough line
  /\ set_from_irap (convert_to_irap [line; [point]]) = Ok [(false, line)]
  /\ set_from_irap (convert_to_irap [[point]; line]) = Err ValueError.
Proof. exists (V 8 8 8), [V 0 0 0; V 1 0 0]. split; [ unfold Enough; cbn; lia | split; vm_compute; reflexivity ]. Qed.
Print Assumptions C92_irap_first_line_refuted.

(** ** Vertices removed *)
(** [Sub a l]: [a] is [l] with some of its members left out. *)
Inductive Sub {A} : list A -> list A -> Prop :=
| Sub_nil : Sub [] []
| Sub_skip : forall x a l, Sub a l -> Sub a (x :: l)
| Sub_take : forall x a l, Sub a l -> Sub (x :: a) (x :: l).
Lemma Sub_empty {A} (l : list A) : Sub [] l.
Proof. induction l; [ apply Sub_nil | apply Sub_skip; assumption ]. Qed.
Lemma Sub_refl {A} (l : list A) : Sub l l.
Proof. induction l; [ apply Sub_nil | apply Sub_take; assumption ]. Qed.
Lemma Sub_app {A} (a b c d : list A) : Sub a b -> Sub c d -> Sub (a ++ c) (b ++ d).
Proof. intros H K. induction H; cbn; [ exact K | apply Sub_skip; assumption | apply Sub_take; assumption ]. Qed.
Lemma Sub_length {A} (a l : list A) : Sub a l -> (List.length a <= List.length l)%nat.
Proof. induction 1; cbn; lia. Qed.
Lemma Sub_full {A} (a l : list A) : Sub a l -> List.length a = List.length l -> a = l.
Proof.
  induction 1 as [| x a l H IH | x a l H IH]; intros E; [ reflexivity | |].
  - apply Sub_length in H. cbn in E. lia.
  - cbn in E. f_equal. apply IH. lia.
Qed.
Lemma Sub_snoc {A} (x z : A) : forall m l, Sub (l ++ [x]) (m ++ [z]) -> Sub l m.
Proof.
  induction m as [|y m IH]; intros l H.
  - apply Sub_length in H. rewrite app_length in H. cbn in H. destruct l; [ apply Sub_nil | cbn in H; lia ].
  - destruct l as [|a l]; [ apply Sub_empty |]. cbn [app] in H. inversion H; subst.
    + apply Sub_skip. apply IH. assumption.
    + apply Sub_take. apply IH. assumption.
Qed.
Lemma manhattan_self a : (manhattan a a == 0)%Q.
Proof. unfold manhattan. assert (E : forall q, (Qabs (q - q) == 0)%Q) by (intros q; setoid_replace (q - q)%Q with 0%Q by ring; reflexivity). rewrite !E. ring. Qed.
Lemma manhattan_sym a b : (manhattan a b == manhattan b a)%Q.
Proof. unfold manhattan. rewrite (Qabs_Qminus (vx a)), (Qabs_Qminus (vy a)), (Qabs_Qminus (vz a)). reflexivity. Qed.
Lemma manhattan_triangle a b c : (manhattan a c <= manhattan a b + manhattan b c)%Q.
Proof.
  unfold manhattan. assert (T : forall p q r, (Qabs (p - r) <= Qabs (p - q) + Qabs (q - r))%Q).
  { intros p q r. setoid_replace (p - r)%Q with ((p - q) + (q - r))%Q by ring. apply Qabs_triangle. }
  pose proof (T (vx a) (vx b) (vx c)). pose proof (T (vy a) (vy b) (vy c)). pose proof (T (vz a) (vz b) (vz c)). lra.
Qed.
Definition Apart (tol : Q) (w : list vec) : Prop := forall l a b l', w = l ++ a :: b :: l' -> (tol < manhattan a b)%Q.
Lemma whittled_inv tol (Ht : (0 <= tol)%Q) : forall rest pre w,
  w <> [] -> Sub (rev w) pre -> (forall d, last w d = hd d pre) -> (forall v, In v pre -> exists u, In u w /\ (manhattan v u <= tol)%Q) ->
  (forall d, (manhattan (last pre d) (hd d w) <= tol)%Q) -> Apart tol w -> pre <> [] ->
  let w' := fold_left (whittle tol) rest w in
  w' <> [] /\ Sub (rev w') (pre ++ rest) /\ (forall d, last w' d = hd d (pre ++ rest))
  /\ (forall v, In v (pre ++ rest) -> exists u, In u w' /\ (manhattan v u <= tol)%Q)
  /\ (forall d, (manhattan (last (pre ++ rest) d) (hd d w') <= tol)%Q) /\ Apart tol w'.
Proof.
  induction rest as [|p rest IH]; intros pre w Hw HS Hl Hn Hz Ha Hpre.
  - cbn. rewrite app_nil_r. tauto.
  - cbv zeta in *. cbn [fold_left]. replace (pre ++ p :: rest) with ((pre ++ [p]) ++ rest) by (rewrite <- app_assoc; reflexivity).
    destruct w as [|x w]; [ congruence |]. destruct pre as [|f pre]; [ congruence |].
    assert (Hpp : (manhattan p p <= tol)%Q) by (rewrite manhattan_self; exact Ht).
    assert (Wp : whittle tol (x :: w) p = if (tol <b manhattan p x)%Q then p :: x :: w else x :: w) by reflexivity. rewrite Wp. clear Wp. destruct (tol <b manhattan p x)%Q eqn:E.
    + apply Qltb_iff in E. apply IH.
      * discriminate.
      * cbn [rev]. apply (Sub_app _ _ [p] [p]); [ exact HS | apply Sub_refl ].
      * intros d. change (last (p :: x :: w) d) with (last (x :: w) d). rewrite Hl. reflexivity.
      * intros v Hv. apply in_app_iff in Hv. destruct Hv as [Hv | [<- | [] ] ].
        -- destruct (Hn v Hv) as (u & Hu & Hd). exists u. split; [ right; exact Hu | exact Hd ].
        -- exists p. split; [ left; reflexivity | exact Hpp ].
      * intros d. rewrite last_last. exact Hpp.
      * intros l a b l' El. destruct l as [|y l]; cbn [app] in El.
        -- injection El as E1 E2 E3. subst. exact E.
        -- injection El as E1 E2. exact (Ha l a b l' E2).
      * discriminate.
    + apply Qltb_false in E. apply IH.
      * discriminate.
      * rewrite <- (app_nil_r (rev (x :: w))). apply Sub_app; [ exact HS | apply Sub_empty ].
      * intros d. rewrite Hl. reflexivity.
      * intros v Hv. apply in_app_iff in Hv. destruct Hv as [Hv | [<- | [] ] ]; [ exact (Hn v Hv) |].
        exists x. split; [ left; reflexivity | exact E ].
      * intros d. rewrite last_last. exact E.
      * exact Ha.
      * discriminate.
Qed.
(** With repeated vertices removed: the vertices left are vertices of the line in their order; the last is the last of the
    line; if two or more are left the first is the first of the line; every vertex of the line is within twice the
    tolerance of one that is left; and those left, but for the last pair, are more than the tolerance apart. *)
Theorem C92_duplicates_partial : forall line tol r, (0 <= tol)%Q -> r = duplicate_vertices_removed line tol ->
  Sub r line
  /\ (forall d, last r d = last line d)
  /\ ((2 <= List.length r)%nat -> hd_error r = hd_error line)
  /\ (forall v, In v line -> exists u, In u r /\ (manhattan v u <= 2 * tol)%Q)
  /\ (forall l a b l', r = l ++ a :: b :: l' -> l' <> [] -> (tol < manhattan a b)%Q).
Proof.
  intros line tol r Ht ->.
  assert (Short : (List.length line < 3)%nat -> duplicate_vertices_removed line tol = line)
    by (destruct line as [|? [|? [|? ?] ] ]; cbn; intros; reflexivity || lia).
  assert (Near : forall v, (manhattan v v <= 2 * tol)%Q) by (intros v; rewrite manhattan_self; lra).
  destruct (Nat.lt_ge_cases (List.length line) 3) as [Hs | Hs].
  { rewrite Short by exact Hs. split; [ apply Sub_refl |]. split; [ reflexivity |]. split; [ reflexivity |]. split.
    - intros v Hv. exists v. split; [ exact Hv | apply Near ].
    - intros l a b l' E Hl'. exfalso. rewrite E, app_length in Hs. destruct l'; [ congruence |]. cbn in Hs. lia. }
  destruct line as [|first [|second [|third rest] ] ]; cbn in Hs; try lia. clear Hs Short.
  unfold duplicate_vertices_removed. set (more := second :: third :: rest). set (line := first :: more).
  assert (One : (manhattan first first <= tol)%Q) by (rewrite manhattan_self; exact Ht).
  destruct (whittled_inv tol Ht more [first] [first]) as (W1 & W2 & W3 & W4 & W5 & W6); try discriminate.
  { apply Sub_refl. } { reflexivity. }
  { intros v [<- | [] ]. exists first. split; [ left; reflexivity | exact One ]. }
  { intros d. exact One. }
  { intros l a b l' E. destruct l as [|? [|? ?] ]; discriminate. }
  change ([first] ++ more) with line in *. set (w := fold_left (whittle tol) more [first]) in *. clearbody w.
  destruct (zlen w =? zlen line) eqn:El.
  - apply Z.eqb_eq in El. assert (Rw : rev w = line).
    { apply Sub_full; [ exact W2 |]. rewrite rev_length. unfold zlen in El. lia. }
    split; [ apply Sub_refl |]. split; [ reflexivity |]. split; [ reflexivity |]. split.
    + intros v Hv. exists v. split; [ exact Hv | apply Near ].
    + intros l a b l' E _. rewrite manhattan_sym. apply (W6 (rev l') b a (rev l)).
      rewrite <- (rev_involutive w), Rw, E, rev_app_distr. cbn [rev]. rewrite <- !app_assoc. reflexivity.
  - destruct w as [|x w]; [ congruence |]. cbn [List.tl]. cbn [rev] in *.
    assert (Ll : line = removelast line ++ [last line first]) by (apply app_removelast_last; discriminate).
    assert (S1 : Sub (rev w ++ [last line first]) line).
    { rewrite Ll at 2. apply Sub_app; [| apply Sub_refl ]. rewrite Ll in W2. exact (Sub_snoc _ _ _ _ W2). }
    split; [ exact S1 |]. split. { intros d. rewrite last_last. rewrite Ll, !last_last. reflexivity. }
    split; [| split ].
    + intros Hlen. rewrite app_length, rev_length in Hlen. cbn in Hlen. destruct w as [|y w]; [ cbn in Hlen; lia |].
      specialize (W3 first). change (last (x :: y :: w) first) with (last (y :: w) first) in W3. cbn [hd line] in W3. unfold line in W3. cbn [hd] in W3.
      rewrite (app_removelast_last first (l := y :: w)) by discriminate. rewrite W3, rev_app_distr. reflexivity.
    + intros v Hv. destruct (W4 v Hv) as (u & [<- | Hu] & Hd).
      * exists (last line first). split; [ apply in_app_iff; right; left; reflexivity |].
        specialize (W5 first). cbn [hd] in W5. pose proof (manhattan_triangle v x (last line first)) as Tr.
        rewrite (manhattan_sym x) in Tr. lra.
      * exists u. split; [ apply in_app_iff; left; apply -> in_rev; exact Hu | lra ].
    + intros l a b l' E Hl'. destruct (exists_last Hl') as (l'' & z & ->).
      assert (E' : rev w ++ [last line first] = (l ++ a :: b :: l'') ++ [z]) by (rewrite E, <- app_assoc; reflexivity).
      apply app_inj_tail in E'. destruct E' as (E' & _). rewrite manhattan_sym. apply (W6 (x :: rev l'') b a (rev l)). cbn [app]. f_equal.
      rewrite <- (rev_involutive w), E', rev_app_distr. cbn [rev]. rewrite <- !app_assoc. reflexivity.
Qed.
Print Assumptions C92_duplicates_partial.
Example duplicates_gone : duplicate_vertices_removed [V 0 0 0; V 0 0 0; V 1 0 0; V 2 0 0; V 2 0 0] (1 # 1000) = [V 0 0 0; V 1 0 0; V 2 0 0].
Proof. vm_compute. reflexivity. Qed.
(** Missing: the first vertex is said always to be kept.  A line of three vertices near one another is left with its last
    vertex only. *)
Theorem C92_duplicates_refuted : exists a b c, duplicate_vertices_removed [a; b; c] (1 # 1000) = [c] /\ a <> c.
Proof. exists (V 0 0 0), (V 0 0 0), (V (1 # 2000) 0 0). split; [ vm_compute; reflexivity | discriminate ]. Qed.
Print Assumptions C92_duplicates_refuted.
(** The last vertex is dropped exactly when it is within the tolerance of the first. *)
Theorem C92_polygon_line : forall first mid final tol,
  ((manhattan first final <= tol)%Q -> polygon_line (first :: mid ++ [final]) tol = first :: mid)
  /\ ((tol < manhattan first final)%Q -> polygon_line (first :: mid ++ [final]) tol = first :: mid ++ [final]).
Proof.
  intros f mid z tol.
  assert (E : polygon_line (f :: mid ++ [z]) tol = if (tol <b manhattan f (last (f :: mid ++ [z]) f))%Q then f :: mid ++ [z] else removelast (f :: mid ++ [z])).
  { destruct mid; reflexivity. }
  rewrite E, app_comm_cons, last_last, removelast_last. split; intros H.
  - destruct (tol <b manhattan f z)%Q eqn:B; [| reflexivity ]. apply Qltb_iff in B. exfalso. lra.
  - apply Qltb_iff in H. rewrite H. reflexivity.
Qed.
Print Assumptions C92_polygon_line.

(** ** Trimming *)
(** A polyline trimmed to segments [s] to [e] has the ends asked for (by default those of the segments) and the vertices
    between as they were; asking for segments that are not there is refused. *)
Theorem C92_trimmed_line : forall coords s e p q,
  (~ (0 <= s <= e /\ e < Z.of_nat (List.length coords) - 1) -> from_trimmed_polyline coords s e p q = Err AssertionError)
  /\ (0 <= s <= e /\ e < Z.of_nat (List.length coords) - 1 -> exists r d, from_trimmed_polyline coords s e p q = Ok r
      /\ Z.of_nat (List.length r) = e - s + 2
      /\ nth 0 r d = match p with Some x => x | None => nth (Z.to_nat s) coords d end
      /\ nth (Z.to_nat (e - s + 1)) r d = match q with Some x => x | None => nth (Z.to_nat (e + 1)) coords d end
      /\ (forall k, 0 < k < e - s + 1 -> nth (Z.to_nat k) r d = nth (Z.to_nat (s + k)) coords d)).
Proof.
  intros coords s e p q. unfold from_trimmed_polyline, zlen. split.
  - intros H. destruct ((0 <=? s) && (s <=? e)) eqn:E1; [| reflexivity ]. cbn [assert_ bind].
    destruct (e <? Z.of_nat (List.length coords) - 1) eqn:E2; [| reflexivity ]. exfalso. apply H. lia.
  - intros H. replace ((0 <=? s) && (s <=? e)) with true by lia. replace (e <? Z.of_nat (List.length coords) - 1) with true by lia.
    cbn [assert_ bind]. set (c := firstn _ _).
    assert (Lc : List.length c = Z.to_nat (e - s + 2)) by (unfold c; rewrite firstn_length, skipn_length; lia).
    set (d := V 0 0 0).
    assert (Nc : forall k, (k < Z.to_nat (e - s + 2))%nat -> nth k c d = nth (Z.to_nat s + k) coords d).
    { intros k Hk. unfold c. rewrite <- (firstn_skipn (Z.to_nat s) coords) at 2. rewrite app_nth2; rewrite firstn_length; [| lia ].
      replace (Z.to_nat s + k - Nat.min (Z.to_nat s) (List.length coords))%nat with k by lia.
      rewrite <- (firstn_skipn (Z.to_nat (e + 2 - s)) (skipn (Z.to_nat s) coords)) at 2. rewrite app_nth1; [ reflexivity |].
      fold c. lia. }
    clearbody c. destruct c as [|c0 c]; [ cbn in Lc; lia |].
    set (c1 := match p with Some x => x :: c | None => c0 :: c end).
    assert (L1 : List.length c1 = Z.to_nat (e - s + 2)) by (rewrite <- Lc; unfold c1; destruct p; reflexivity).
    assert (N0 : nth 0 c1 d = match p with Some x => x | None => nth (Z.to_nat s) coords d end).
    { unfold c1. destruct p; [ reflexivity |]. specialize (Nc 0%nat ltac:(lia)). rewrite Nat.add_0_r in Nc. exact Nc. }
    assert (N1 : forall k, (0 < k < Z.to_nat (e - s + 2))%nat -> nth k c1 d = nth (Z.to_nat s + k) coords d).
    { intros k Hk. rewrite <- Nc by lia. unfold c1. destruct p, k; (lia || reflexivity). }
    clearbody c1. clear Nc Lc c c0.
    assert (Hne : c1 <> []) by (intros ->; cbn in L1; lia). destruct (exists_last Hne) as (ini & z & ->).
    rewrite app_length in L1. cbn in L1.
    eexists (match q with Some x => ini ++ [x] | None => ini ++ [z] end), d. split; [ rewrite removelast_last; reflexivity |].
    assert (Hi : (1 <= List.length ini)%nat) by lia.
    repeat split.
    + destruct q; rewrite app_length; cbn; lia.
    + rewrite <- N0. destruct q; [| reflexivity ]. rewrite !app_nth1 by lia. reflexivity.
    + replace (Z.to_nat (e - s + 1)) with (List.length ini) by lia. destruct q; [ apply nth_middle |]. rewrite N1 by lia. f_equal. lia.
    + intros k Hk. replace (Z.to_nat (s + k)) with (Z.to_nat s + Z.to_nat k)%nat by lia. rewrite <- N1 by lia.
      destruct q; [| reflexivity ]. rewrite !app_nth1 by lia. reflexivity.
Qed.
Print Assumptions C92_trimmed_line.
Example trimmed : from_trimmed_polyline [V 0 0 0; V 1 0 0; V 2 0 0; V 3 0 0; V 4 0 0] 1 2 (Some (V (3 # 2) 0 0)) None = Ok [V (3 # 2) 0 0; V 2 0 0; V 3 0 0].
Proof. vm_compute. reflexivity. Qed.

(** ** Convexity *)
(** vertex number [i] of a closed polyline, counted round and round *)
Definition vertex (coords : list vec) (i : Z) : vec := nth (Z.to_nat (i mod Z.of_nat (List.length coords))) coords (V 0 0 0).
(** twice the area, positive if clockwise, of the triangle [a b c] in plan *)
Definition turn (a b c : vec) : Q := ((vx c - vx a) * (vy b - vy a) - (vy c - vy a) * (vx b - vx a))%Q.
(** all the vertices are on one side of (the line through) every side *)
Definition Convex (coords : list vec) : Prop :=
  exists s, (s == 1 \/ s == - (1))%Q /\ forall i v, In v coords -> (0 <= s * turn (vertex coords i) (vertex coords (i + 1)) v)%Q.
(** the line does not go straight on everywhere *)
Definition Bends (coords : list vec) : Prop :=
  exists i, ~ (turn (vertex coords i) (vertex coords (i + 1)) (vertex coords (i + 2)) == 0)%Q.
Definition agrees (b : bool) (t : Q) : Prop := (t == 0)%Q \/ (0 <b t)%Q = b.
Lemma convex_some : forall ts b, convex_loop ts (Some b) = true <-> Forall (agrees b) ts.
Proof.
  induction ts as [|t ts IH]; intros b; cbn [convex_loop]; [ split; [ constructor | reflexivity ] |].
  destruct (Qeq_bool t 0) eqn:E.
  - apply Qeq_bool_eq in E. rewrite IH. split; [ constructor; [ left; exact E | assumption ] | intros H; inversion H; assumption ].
  - apply Qeq_bool_neq in E. destruct (Bool.eqb b (0 <b t)%Q) eqn:B.
    + apply Bool.eqb_prop in B. rewrite IH. split; [ constructor; [ right; symmetry; exact B | assumption ] | intros H; inversion H; assumption ].
    + split; [ discriminate |]. intros H. inversion H as [| ? ? [H1 | H1] ?]; subst; [ contradiction |]. rewrite Bool.eqb_reflx in B. discriminate.
Qed.
Lemma convex_none : forall ts, convex_loop ts None = true <-> (exists b, Forall (agrees b) ts) /\ Exists (fun t => ~ (t == 0)%Q) ts.
Proof.
  induction ts as [|t ts IH]; cbn [convex_loop].
  - split; [ discriminate | intros (_ & H); inversion H ].
  - destruct (Qeq_bool t 0) eqn:E.
    + apply Qeq_bool_eq in E. rewrite IH. split.
      * intros ((b & H) & K). split; [ exists b; constructor; [ left; exact E | exact H ] | apply Exists_cons_tl; exact K ].
      * intros ((b & H) & K). split; [ exists b; inversion H; assumption |]. inversion K; subst; [ contradiction | assumption ].
    + apply Qeq_bool_neq in E. rewrite convex_some. split.
      * intros H. split; [ exists (0 <b t)%Q; constructor; [ right; reflexivity | exact H ] | apply Exists_cons_hd; exact E ].
      * intros ((b & H) & _). inversion H as [| ? ? [H1 | H1] ?]; subst; [ contradiction | assumption ].
Qed.
Lemma node_vertex coords k i : 3 <= zlen coords -> 0 <= k < zlen coords -> 0 <= i <= 2 -> node coords (k - 2 + i) = vertex coords (k - 2 + i).
Proof.
  intros Hn Hk Hi. unfold node, vertex. fold (zlen coords). f_equal. f_equal. destruct (Z.ltb_spec (k - 2 + i) 0).
  - rewrite <- (Z_mod_plus_full _ 1). rewrite Z.mul_1_l. symmetry. apply Z.mod_small. lia.
  - symmetry. apply Z.mod_small. lia.
Qed.
Lemma vertex_mod coords i j : 0 < zlen coords -> vertex coords (i mod zlen coords + j) = vertex coords (i + j).
Proof. intros H. unfold vertex. fold (zlen coords). rewrite Zplus_mod_idemp_l. reflexivity. Qed.
(** The test answers: there are three vertices or more, they turn somewhere, and nowhere the other way. *)
Theorem C92_convex_turns : forall coords, is_convex coords = true <->
  3 <= Z.of_nat (List.length coords) /\ Bends coords
  /\ exists s, (s == 1 \/ s == - (1))%Q /\ forall i, (0 <= s * turn (vertex coords i) (vertex coords (i + 1)) (vertex coords (i + 2)))%Q.
Proof.
  intros coords. unfold is_convex. fold (zlen coords). destruct (Z.ltb_spec (zlen coords) 3) as [H | H].
  { split; [ discriminate | lia ]. }
  rewrite convex_none. set (tn := fun i => turn (vertex coords i) (vertex coords (i + 1)) (vertex coords (i + 2))).
  assert (E : map (fun n => clockwise (node coords (n - 2)) (node coords (n - 1)) (node coords n)) (zrange (zlen coords)) = map (fun n => tn (n - 2)) (zrange (zlen coords))).
  { apply map_ext_in. intros k Hk. apply in_zrange in Hk. unfold tn. rewrite <- (node_vertex coords k 1), <- (node_vertex coords k 2) by lia.
    pose proof (node_vertex coords k 0 ltac:(lia) ltac:(lia) ltac:(lia)) as N0. rewrite Z.add_0_r in N0. rewrite <- N0.
    unfold turn, clockwise. replace (k - 2 + 1) with (k - 1) by lia. replace (k - 2 + 2) with k by lia. reflexivity. }
  rewrite E. clear E.
  assert (P : forall i, tn i = tn ((i + 2) mod zlen coords - 2)).
  { intros i. unfold tn.
    assert (M : forall j, vertex coords ((i + 2) mod zlen coords - 2 + j) = vertex coords (i + j)).
    { intros j. replace ((i + 2) mod zlen coords - 2 + j) with ((i + 2) mod zlen coords + (j - 2)) by lia. rewrite vertex_mod by lia. f_equal; lia. }
    rewrite !M. pose proof (M 0) as M0. rewrite !Z.add_0_r in M0. rewrite M0. reflexivity. }
  assert (R : forall i, In (tn i) (map (fun n => tn (n - 2)) (zrange (zlen coords)))).
  { intros i. rewrite P. apply in_map_iff. exists ((i + 2) mod zlen coords). split; [ reflexivity |]. apply in_zrange. apply Z.mod_pos_bound. lia. }
  assert (A : forall b t, agrees b t <-> (0 <= (if b then 1 else - (1)) * t)%Q).
  { intros b t. unfold agrees. destruct b.
    - rewrite Qltb_iff. split; [ intros [K | K]; lra |]. intros K. destruct (Qlt_le_dec 0 t); [ right; assumption | left; lra ].
    - rewrite Qltb_false. split; [ intros [K | K]; lra |]. intros K. right. lra. }
  split.
  - intros ((b & F) & Ex). rewrite Forall_forall in F. split; [ exact H |]. split.
    + apply Exists_exists in Ex. destruct Ex as (t & Ht & K). apply in_map_iff in Ht. destruct Ht as (k & <- & _). exists (k - 2). exact K.
    + exists (if b then 1 else - (1))%Q. split; [ destruct b; [ left | right ]; reflexivity |]. intros i. apply A. apply F. apply R.
  - intros (_ & (i & Hb) & (s & Hs & F)). split.
    + exists (if Qeq_bool s 1 then true else false). apply Forall_forall. intros t Ht. apply in_map_iff in Ht. destruct Ht as (k & <- & _).
      apply A. specialize (F (k - 2)). fold (tn (k - 2)) in F. destruct (Qeq_bool s 1) eqn:Es.
      * apply Qeq_bool_eq in Es. rewrite Es in F. exact F.
      * apply Qeq_bool_neq in Es. destruct Hs as [Hs | Hs]; [ contradiction |]. rewrite Hs in F. exact F.
    + apply Exists_exists. exists (tn i). split; [ apply R | exact Hb ].
Qed.
Print Assumptions C92_convex_turns.
(** So a closed polyline that is convex, and does not go straight on everywhere, is found convex. *)
Theorem C92_convex_partial : forall coords, 3 <= Z.of_nat (List.length coords) -> Convex coords -> Bends coords -> is_convex coords = true.
Proof.
  intros coords Hn (s & Hs & H) Hb. apply C92_convex_turns. split; [ exact Hn | split; [ exact Hb |] ]. exists s. split; [ exact Hs |].
  intros i. apply H. unfold vertex at 1. apply nth_In. pose proof (Z.mod_pos_bound (i + 2) (Z.of_nat (List.length coords)) ltac:(lia)). lia.
Qed.
Print Assumptions C92_convex_partial.
Example square_convex : is_convex [V 0 0 0; V 1 0 0; V 1 1 0; V 0 1 0] = true. Proof. vm_compute. reflexivity. Qed.
Example dart_not_convex : is_convex [V 0 0 0; V 2 1 0; V 0 2 0; V 1 1 0] = false. Proof. vm_compute. reflexivity. Qed.
(** Missing: a star of five points, which crosses itself, is found convex. *)
Theorem C92_convex_refuted : exists coords, is_convex coords = true /\ ~ Convex coords.
Proof.
  exists [V 0 10 0; V 6 (-8) 0; V (-10) 3 0; V 10 3 0; V (-6) (-8) 0]. split; [ vm_compute; reflexivity |].
  intros (s & Hs & H). pose proof (H 0 (V (-10) 3 0) ltac:(right; right; left; reflexivity)) as H1.
  pose proof (H 0 (V 10 3 0) ltac:(right; right; right; left; reflexivity)) as H2.
  change (vertex _ 0) with (V 0 10 0) in H1, H2. change (vertex _ (0 + 1)) with (V 6 (-8) 0) in H1, H2. unfold turn in H1, H2. cbn [vx vy] in H1, H2.
  destruct Hs as [Hs | Hs]; rewrite Hs in H1, H2; lra.
Qed.
Print Assumptions C92_convex_refuted.

(** Rows of points with markers after them are read as the lines between the markers; a marker with no points before it
    adds nothing. *)
Theorem C92_irap_rows : forall lines, (forall ps p, In ps lines -> In p ps -> np_isclose p end_of_line = false) ->
  read_lines (flat_map (fun ps => ps ++ [V 999 999 999]) lines) = filter (fun ps => negb (Nat.eqb (List.length ps) 0)) lines.
Proof.
  intros lines Hp. unfold read_lines.
  assert (E : read_rows (flat_map (fun ps => ps ++ [V 999 999 999]) lines) [] = Some (filter (fun ps => negb (Nat.eqb (List.length ps) 0)) lines)); [| rewrite E; reflexivity ].
  induction lines as [|ps lines IH]; [ reflexivity |]. assert (IH' := IH (fun qs p H => Hp qs p (or_intror H))). clear IH.
  cbn [flat_map]. rewrite <- app_assoc. cbn [app]. destruct ps as [|p ps].
  - cbn [app filter List.length Nat.eqb negb]. cbn [read_rows]. replace (np_isclose (V 999 999 999) end_of_line) with true by (vm_compute; reflexivity). exact IH'.
  - change (filter (fun ps0 : list vec => negb (Nat.eqb (List.length ps0) 0)) ((p :: ps) :: lines)) with ((p :: ps) :: filter (fun ps0 : list vec => negb (Nat.eqb (List.length ps0) 0)) lines).
    apply (read_line (p :: ps) []); [ intros q; apply Hp; left; reflexivity | discriminate | exact IH' ].
Qed.
Print Assumptions C92_irap_rows.
Example irap_rows : read_lines [V 999 999 999; V 1 2 3; V 4 5 6; V 999 999 999; V 999 999 999; V 7 8 9; V 999 999 999] = [[V 1 2 3; V 4 5 6]; [V 7 8 9]].
Proof. vm_compute. reflexivity. Qed.
