(** PolylineProps.v: C92, sets of polylines keep their polylines. *)
From Coq Require Import Qabs Lqa.
From Verif Require Import Base QBase IntersectModel PolylineModel.
Open Scope Z_scope.

(** ** Specification *)
(** The repeated end point: a closed polyline of more than two points whose last point is (nearly) its first. *)
Definition Repeats (pts : list vec) : Prop :=
  exists first mid final, pts = first :: mid ++ [final] /\ mid <> [] /\ np_isclose first final = true.
(** [out] is polyline [pts] as read back: as it was, or without the repeated end point of a closed polyline. *)
Definition ReadBack (closed : bool) (pts out : list vec) : Prop :=
  (closed = true -> Repeats pts -> exists x, pts = out ++ [x])
  /\ (~ (closed = true /\ Repeats pts) -> out = pts).
(** a number of points that a polyline may have *)
Definition Enough (pts : list vec) : Prop := (2 <= List.length pts)%nat.

(** ** The flags *)
Lemma zlen_nonneg {A} (l : list A) : 0 <= zlen l. Proof. unfold zlen; lia. Qed.
Lemma combine_map_same {A B} (f : A -> B) l : combine l (map f l) = map (fun x => (x, f x)) l.
Proof. induction l; cbn; [ reflexivity | rewrite IHl; reflexivity ]. Qed.
Lemma list_as_map (d : bool) (l : list bool) : l = map (fun i => nth (Z.to_nat i) l d) (zrange (zlen l)).
Proof.
  unfold zrange, zlen. rewrite Nat2Z.id, map_map.
  transitivity (map (fun k => nth k l d) (seq 0 (List.length l))).
  - induction l as [|a l IH]; [ reflexivity |]. cbn [List.length seq map nth]. f_equal.
    rewrite <- seq_shift, map_map. exact IH.
  - apply map_ext. intros k. f_equal. lia.
Qed.
Lemma in_indices_of (b : bool) (l : list bool) i : 0 <= i < zlen l ->
  existsb (Z.eqb i) (indices_of b l) = Bool.eqb (nth (Z.to_nat i) l false) b.
Proof.
  intros Hi. unfold indices_of. rewrite (list_as_map false l) at 2. rewrite combine_map_same.
  apply Bool.eq_iff_eq_true. rewrite existsb_exists. split.
  - intros (j & Hj & E). apply Z.eqb_eq in E; subst j. apply in_map_iff in Hj. destruct Hj as ((a & v) & E & H). cbn in E; subst a.
    apply filter_In in H. destruct H as (H & F). apply in_map_iff in H. destruct H as (x & E & _). injection E as E1 E2. subst. exact F.
  - intros E. exists i. split; [| apply Z.eqb_refl ]. apply in_map_iff. exists (i, nth (Z.to_nat i) l false). split; [ reflexivity |].
    apply filter_In. split; [| exact E ]. apply in_map_iff. exists i. split; [ reflexivity | apply in_zrange; exact Hi ].
Qed.
(** Whatever the mixture of open and closed, the flags read are the flags written. *)
Theorem C92_closed_flags : forall closed, get_bool_array (store_closed closed) = closed.
Proof.
  intros l. unfold store_closed, bool_array_format.
  destruct (forallb id l) eqn:Fa.
  { cbn [get_bool_array]. rewrite (list_as_map true l) at 2. apply map_ext_in. intros i Hi. apply in_zrange in Hi.
    rewrite forallb_forall in Fa. symmetry. apply (Fa (nth (Z.to_nat i) l true)). apply nth_In. unfold zlen in Hi. lia. }
  destruct (existsb id l) eqn:Ex; cbn [negb].
  2:{ cbn [get_bool_array]. rewrite (list_as_map false l) at 2. apply map_ext_in. intros i Hi. apply in_zrange in Hi.
      destruct (nth (Z.to_nat i) l false) eqn:E; [| reflexivity ]. exfalso. rewrite <- Bool.not_true_iff_false in Ex. apply Ex.
      apply existsb_exists. exists true. split; [| reflexivity ]. rewrite <- E. apply nth_In. unfold zlen in Hi. lia. }
  destruct (zlen (filter id l) >? zlen l / 2); cbn [get_bool_array negb]; (etransitivity; [| symmetry; exact (list_as_map false l) ]);
    apply map_ext_in; intros i Hi; apply in_zrange in Hi; rewrite in_indices_of by exact Hi;
    destruct (nth (Z.to_nat i) l false); reflexivity.
Qed.
Print Assumptions C92_closed_flags.

(** ** Combining *)
Lemma fold_add l a : fold_left Z.add l a = a + fold_left Z.add l 0.
Proof. revert a. induction l as [|x l IH]; intros a; cbn; [ lia |]. rewrite (IH (a + x)), (IH x). lia. Qed.
Lemma sum_lengths (ls : list (list vec)) : fold_left Z.add (map zlen ls) 0 = zlen (List.concat ls).
Proof.
  induction ls as [|l ls IH]; [ reflexivity |]. cbn [map fold_left List.concat]. rewrite fold_add, IH.
  unfold zlen. rewrite app_length. lia.
Qed.
(** The arrays of a set are the points of its polylines one after the other, with the number of points and the flag of
    each polyline; for any polylines of which no two are the same. *)
Theorem C92_combined : forall polylines, polylines <> [] -> NoDup (map pl_id polylines) ->
  combine_polylines polylines =
    Ok (List.concat (map pl_coords polylines), map pl_closed polylines, map (fun p => Z.of_nat (List.length (pl_coords p))) polylines).
Proof.
  intros [|p ps] Hne Hnd; [ congruence |]. clear Hne. unfold combine_polylines. cbn [fold_left app]. rewrite Z.eqb_refl.
  assert (G : forall qs co cl ct, ~ In (pl_id p) (map pl_id qs) ->
    fold_left (fun '(co, cl, ct) q =>
      (if pl_id q =? pl_id p then Some (pl_coords q) else match co with Some c => Some (c ++ pl_coords q) | None => None end,
       cl ++ [pl_closed q], ct ++ [zlen (pl_coords q)])) qs (Some co, cl, ct)
    = (Some (co ++ List.concat (map pl_coords qs)), cl ++ map pl_closed qs, ct ++ map (fun q => zlen (pl_coords q)) qs)).
  { induction qs as [|q qs IH]; intros co cl ct Hin.
    - cbn. rewrite !app_nil_r. reflexivity.
    - cbn [fold_left]. cbn [map In] in Hin. replace (pl_id q =? pl_id p) with false by (symmetry; apply Z.eqb_neq; intros E; apply Hin; left; exact E).
      rewrite IH by (intros H; apply Hin; right; exact H). cbn [map List.concat]. rewrite <- !app_assoc. reflexivity. }
  inversion Hnd; subst. rewrite (G ps) by assumption. cbn [app].
  replace (zlen (pl_closed p :: map pl_closed ps) =? zlen (zlen (pl_coords p) :: map (fun q => zlen (pl_coords q)) ps)) with true
    by (symmetry; apply Z.eqb_eq; unfold zlen; cbn [List.length]; rewrite !map_length; reflexivity).
  cbn [assert_ bind].
  assert (E : zlen (pl_coords p) :: map (fun q => zlen (pl_coords q)) ps = map zlen (map pl_coords (p :: ps)))
    by (cbn [map]; rewrite map_map; reflexivity).
  rewrite E, sum_lengths. cbn [map List.concat]. rewrite Z.eqb_refl. cbn [assert_ bind]. rewrite map_map. reflexivity.
Qed.
Print Assumptions C92_combined.
(** A set in which the first polyline comes up again is refused. *)
Theorem C92_repeated_polyline_refuted :
  exists p q, Enough (pl_coords p) /\ Enough (pl_coords q) /\ combine_polylines [p; q; p] = Err AssertionError.
Proof.
  exists (Poly 1 false [V 0 0 0; V 1 0 0]), (Poly 2 false [V 0 1 0; V 1 1 0]). unfold Enough. cbn. repeat split; try lia.
Qed.
Print Assumptions C92_repeated_polyline_refuted.

(** ** Splitting *)
Definition tidy (closed : bool) (pts : list vec) : list vec :=
  match pts with
  | [] => []
  | first :: _ => if closed && (np_isclose first (last pts first) && (zlen pts >? 2)) then removelast pts else pts
  end.
Lemma repeats_iff pts first r : pts = first :: r -> (np_isclose first (last pts first) && (zlen pts >? 2) = true <-> Repeats pts).
Proof.
  intros E. split.
  - intros H. apply andb_prop in H. destruct H as (Hc & Hl). apply Z.gtb_lt in Hl. unfold zlen in Hl.
    destruct (exists_last (l := r)) as (mid & final & Er).
    { intros ->. subst pts. cbn in Hl. lia. }
    subst r. exists first, mid, final. repeat split; [ exact E | |].
    + intros ->. subst pts. cbn in Hl. lia.
    + rewrite E in Hc. rewrite app_comm_cons, last_last in Hc. exact Hc.
  - intros (f & mid & final & E2 & Hm & Hc). rewrite E in E2. injection E2 as -> ->. subst pts.
    rewrite app_comm_cons, last_last, Hc. cbn [andb]. apply Z.gtb_lt. unfold zlen. cbn [List.length app]. rewrite app_length. cbn.
    destruct mid; [ congruence | cbn; lia ].
Qed.
Lemma tidy_ReadBack closed pts : ReadBack closed pts (tidy closed pts).
Proof.
  destruct pts as [|first r] eqn:E.
  - split; [| reflexivity ]. intros _ (f & m & l & Ep & _). discriminate.
  - rewrite <- E. pose proof (repeats_iff pts first r E) as HR. unfold tidy. rewrite E at 2. rewrite E at 1. rewrite <- E.
    destruct closed; cbn [andb].
    + destruct (np_isclose first (last pts first) && (zlen pts >? 2)) eqn:Hd; rewrite E; rewrite <- E.
      * split; [| intros H; exfalso; apply H; split; [ reflexivity | apply HR; reflexivity ] ].
        intros _ _. exists (last pts first). apply app_removelast_last. rewrite E; discriminate.
      * split; [| reflexivity ]. intros _ H. apply HR in H. discriminate.
    + split; [ discriminate | ]. rewrite E; reflexivity.
Qed.
Lemma tidy_enough closed pts : Enough pts -> zlen (tidy closed pts) >? 1 = true.
Proof.
  intros H. unfold Enough in H. apply Z.gtb_lt. destruct pts as [|first r]; [ cbn in H; lia |]. unfold tidy.
  destruct (closed && _) eqn:E; [| unfold zlen; lia ].
  apply andb_prop in E. destruct E as (_ & E). apply andb_prop in E. destruct E as (_ & E). apply Z.gtb_lt in E. unfold zlen in *.
  assert (L : List.length (first :: r) = S (List.length (removelast (first :: r)))).
  { rewrite (app_removelast_last first (l := first :: r)) at 1 by discriminate. rewrite app_length. cbn. lia. }
  lia.
Qed.
(** the counts of the points of a list of polylines, the last of which may be one short *)
Fixpoint Counts (ls : list (list vec)) (cs : list Z) : Prop :=
  match ls, cs with
  | [], [] => True
  | [l], [c] => c = zlen l \/ c = zlen l - 1
  | l :: ls, c :: cs => c = zlen l /\ Counts ls cs
  | _, _ => False
  end.
Lemma convert_lemma : forall ls cls cs, List.length cls = List.length ls -> Counts ls cs -> Forall Enough ls ->
  convert_to_polylines (Some cls) cs (List.concat ls) = Ok (map (fun x => (fst x, tidy (fst x) (snd x))) (combine cls ls)).
Proof.
  induction ls as [|l ls IH]; intros cls cs Hl Hc He.
  - destruct cs; [| contradiction ]. destruct cls; [ reflexivity | discriminate ].
  - destruct cls as [|b cls]; [ discriminate |]. inversion He as [| ? ? H1 H2]; subst.
    destruct cs as [|c cs]; [ destruct ls; contradiction |].
    assert (Sub : firstn (Z.to_nat (match cs with [] => c + 1 | _ => c end)) (List.concat (l :: ls)) = l
                  /\ (ls <> [] -> skipn (Z.to_nat c) (List.concat (l :: ls)) = List.concat ls) /\ Counts ls cs).
    { destruct ls as [|l' ls].
      - destruct cs; [| cbn in Hc; tauto ]. cbn [Counts] in Hc. cbn [List.concat]. rewrite app_nil_r. split; [| split; [ congruence | exact Logic.I ] ].
        apply firstn_all2. unfold zlen in Hc. lia.
      - cbn [Counts] in Hc. destruct Hc as (Hc & Hc'). destruct cs as [|c2 cs]; [ destruct ls; contradiction |].
        cbn [List.concat]. subst c. unfold zlen. rewrite Nat2Z.id. split; [| split; [| exact Hc' ] ].
        + rewrite firstn_app, Nat.sub_diag, firstn_O, app_nil_r. apply firstn_all.
        + intros _. rewrite skipn_app, Nat.sub_diag, skipn_all. reflexivity. }
    destruct Sub as (Sub & Skip & Hcs). cbn [convert_to_polylines]. rewrite Sub.
    destruct l as [|first r] eqn:El; [ unfold Enough in H1; cbn in H1; lia |]. rewrite <- El in *. cbn [bind].
    assert (T : (if b && (np_isclose first (last l first) && (zlen l >? 2)) then removelast l else l) = tidy b l)
      by (rewrite El; reflexivity).
    rewrite T, tidy_enough by exact H1. cbn [assert_ bind option_map List.tl].
    assert (R : convert_to_polylines (Some cls) cs (skipn (Z.to_nat c) (List.concat (l :: ls)))
                = Ok (map (fun x => (fst x, tidy (fst x) (snd x))) (combine cls ls))).
    { destruct ls as [|l' ls].
      - destruct cs; [| contradiction ]. destruct cls; [ reflexivity | discriminate ].
      - rewrite Skip by discriminate. apply IH; [ cbn in *; lia | exact Hcs | exact H2 ]. }
    rewrite R. reflexivity.
Qed.
Lemma Counts_exact ls : Counts ls (map zlen ls).
Proof.
  induction ls as [|l ls IH]; [ exact Logic.I |]. destruct ls as [|l' ls]; [ left; reflexivity |].
  split; [ reflexivity | exact IH ].
Qed.
(** Polylines put into a set, written, and read back: each comes back in its place with its flag and its points, but that
    a closed polyline comes back without a last point that repeats the first. *)
Theorem C92_round_trip : forall polylines, polylines <> [] -> NoDup (map pl_id polylines) -> Forall (fun p => Enough (pl_coords p)) polylines ->
  exists coordinates closed counts out,
    combine_polylines polylines = Ok (coordinates, closed, counts)
    /\ convert_to_polylines (Some (get_bool_array (store_closed closed))) counts coordinates = Ok out
    /\ Forall2 (fun p q => fst q = pl_closed p /\ ReadBack (pl_closed p) (pl_coords p) (snd q)) polylines out.
Proof.
  intros ps Hne Hnd He. eexists _, _, _, _. split; [ apply C92_combined; assumption |]. rewrite C92_closed_flags. split.
  - assert (E : map (fun p => Z.of_nat (List.length (pl_coords p))) ps = map zlen (map pl_coords ps)) by (rewrite map_map; reflexivity).
    rewrite E. apply convert_lemma; [ rewrite !map_length; reflexivity | apply Counts_exact |]. apply Forall_map. exact He.
  - clear. induction ps as [|p ps IH]; [ constructor |]. cbn [map combine]. constructor; [| exact IH ].
    cbn [fst snd]. split; [ reflexivity | apply tidy_ReadBack ].
Qed.
Print Assumptions C92_round_trip.
(** So polylines of which none is closed with its first point repeated come back exactly. *)
Theorem C92_round_trip_exact : forall polylines, polylines <> [] -> NoDup (map pl_id polylines) ->
  Forall (fun p => Enough (pl_coords p) /\ ~ (pl_closed p = true /\ Repeats (pl_coords p))) polylines ->
  exists coordinates closed counts,
    combine_polylines polylines = Ok (coordinates, closed, counts)
    /\ convert_to_polylines (Some (get_bool_array (store_closed closed))) counts coordinates
       = Ok (map (fun p => (pl_closed p, pl_coords p)) polylines).
Proof.
  intros ps Hne Hnd He. destruct (C92_round_trip ps Hne Hnd) as (co & cl & ct & out & E1 & E2 & F).
  { eapply Forall_impl; [| exact He ]. intros p Hp; exact (proj1 Hp). }
  exists co, cl, ct. split; [ exact E1 |]. rewrite E2. f_equal. clear - He F.
  induction F as [| p q ps out (Ec & _ & Hq) F IH]; [ reflexivity |]. inversion He as [| ? ? (_ & Hn) He']; subst. cbn [map].
  rewrite IH by exact He'. rewrite <- (Hq Hn), <- Ec. destruct q; reflexivity.
Qed.
Print Assumptions C92_round_trip_exact.
Definition ex_square : polyline := Poly 1 true [V 0 0 0; V 1 0 0; V 1 1 0; V 0 1 0; V 0 0 0].
Definition ex_open : polyline := Poly 2 false [V 3 0 0; V 4 0 0; V 3 0 0].
Definition ex_triangle : polyline := Poly 3 true [V 5 0 0; V 6 0 0; V 6 1 0].
Example polylines_read_back :
  (do s <- combine_polylines [ex_square; ex_open; ex_triangle];
   let '(co, cl, ct) := s in convert_to_polylines (Some (get_bool_array (store_closed cl))) ct co)
  = Ok [(true, [V 0 0 0; V 1 0 0; V 1 1 0; V 0 1 0]); (false, pl_coords ex_open); (true, pl_coords ex_triangle)].
Proof. vm_compute. reflexivity. Qed.

(** ** Charisma files *)
(** A file of sticks: groups of rows with the same name, different from the name of the group before. *)
Fixpoint Sticks (groups : list (Z * list vec)) : Prop :=
  match groups with
  | (n1, p1) :: (((n2, _) :: _) as rest) => n1 <> n2 /\ p1 <> [] /\ Sticks rest
  | [(_, p)] => p <> []
  | [] => True
  end.
Definition rows_of (groups : list (Z * list vec)) : list (vec * Z) := flat_map (fun '(n, ps) => map (fun p => (p, n)) ps) groups.
Definition keeps (g : Z * list vec) : bool := 2 <=? zlen (snd g).
Lemma delete_lbo l x y : delete_last_but_one (l ++ [x; y]) = l ++ [y].
Proof. unfold delete_last_but_one. rewrite rev_app_distr. cbn. rewrite rev_involutive. reflexivity. Qed.
Lemma same_stick n name : forall ps co ct count i, 0 < i -> i + zlen ps < n ->
  fold_left (charisma_step n) (map (fun p => (p, name)) ps) (co, ct, name, count, i) = (co ++ ps, ct, name, count + zlen ps, i + zlen ps).
Proof.
  induction ps as [|p ps IH]; intros co ct count i Hi Hn.
  - cbn. rewrite app_nil_r. unfold zlen; cbn. rewrite !Z.add_0_r. reflexivity.
  - assert (L : zlen (p :: ps) = 1 + zlen ps) by (unfold zlen; cbn [List.length]; lia). rewrite L in *. pose proof (zlen_nonneg ps).
    cbn [map fold_left charisma_step]. replace (i =? 0) with false by (symmetry; apply Z.eqb_neq; lia).
    rewrite Z.eqb_refl. replace (i =? n - 1) with false by (symmetry; apply Z.eqb_neq; lia). cbn [negb orb].
    rewrite IH by lia. rewrite <- app_assoc. cbn [app]. repeat match goal with |- (_, _) = (_, _) => f_equal end; lia.
Qed.
(** the rest of the file, from inside a stick of which [done] (one or more) have been read *)
Lemma charisma_rest : forall groups n name done ps co ct i, Sticks ((name, done ++ ps) :: groups) -> done <> [] -> 0 < i ->
  n = i + zlen ps + zlen (rows_of groups) ->
  (groups = [] -> ps <> []) -> keeps (last groups (name, done ++ ps)) = true ->
  exists stick count i' cs, fold_left (charisma_step n) (map (fun p => (p, name)) ps ++ rows_of groups) (co ++ done, ct, name, zlen done, i)
    = (co ++ List.concat (map snd (filter keeps ((name, done ++ ps) :: groups))), ct ++ cs, stick, count, i')
    /\ Counts (map snd (filter keeps ((name, done ++ ps) :: groups))) cs.
Proof.
  induction groups as [|(name2, ps2) groups IH]; intros n name dn ps co ct i HS Hd Hi Hn Hps Hk.
  - specialize (Hps eq_refl). cbn [rows_of flat_map] in *. rewrite app_nil_r.
    destruct (exists_last Hps) as (ini & x & ->). rewrite map_app, fold_left_app.
    assert (L : zlen (ini ++ [x]) = zlen ini + 1) by (unfold zlen; rewrite app_length; cbn; lia).
    rewrite L in Hn. change (zlen (@nil (vec * Z))) with 0 in Hn. rewrite same_stick by lia. cbn [map fold_left charisma_step].
    pose proof (zlen_nonneg ini). replace (i + zlen ini =? 0) with false by (symmetry; apply Z.eqb_neq; lia). rewrite Z.eqb_refl.
    replace (i + zlen ini =? n - 1) with true by (symmetry; apply Z.eqb_eq; lia). cbn [negb orb]. rewrite andb_false_r.
    cbn [last] in Hk. cbn [filter]. rewrite Hk. eexists _, _, _, _. split.
    + cbn [map List.concat snd]. rewrite app_nil_r, <- !app_assoc. reflexivity.
    + cbn [map Counts snd]. right. unfold zlen. rewrite !app_length. cbn [List.length]. lia.
  - cbn [Sticks] in HS. destruct HS as (Hname & Hne & HS).
    assert (Hps2 : ps2 <> []) by (destruct groups as [|(? & ?) ?]; cbn in HS; tauto).
    destruct ps2 as [|y ps2]; [ congruence |].
    assert (R : rows_of ((name2, y :: ps2) :: groups) = (y, name2) :: map (fun p => (p, name2)) ps2 ++ rows_of groups) by reflexivity.
    rewrite R in *. assert (Ln : zlen ((y, name2) :: map (fun p => (p, name2)) ps2 ++ rows_of groups) = 1 + zlen ps2 + zlen (rows_of groups))
      by (unfold zlen; cbn [List.length]; rewrite app_length, map_length; lia).
    rewrite Ln in Hn. pose proof (zlen_nonneg ps). pose proof (zlen_nonneg ps2). pose proof (zlen_nonneg (rows_of groups)).
    assert (Hpos : 0 < zlen dn) by (destruct dn; [ congruence | unfold zlen; cbn [List.length]; lia ]).
    rewrite fold_left_app, same_stick by lia. cbn [fold_left charisma_step].
    replace (i + zlen ps =? 0) with false by (symmetry; apply Z.eqb_neq; lia).
    replace (name =? name2) with false by (symmetry; apply Z.eqb_neq; exact Hname). cbn [negb orb]. rewrite andb_true_r.
    assert (Lk : keeps (name, dn ++ ps) = negb (zlen dn + zlen ps + 1 <=? 2)).
    { unfold keeps, zlen. cbn [snd]. rewrite app_length. apply Bool.eq_iff_eq_true. rewrite Bool.negb_true_iff, Z.leb_le, Z.leb_gt. lia. }
    assert (Hk2 : keeps (last groups (name2, [y] ++ ps2)) = true).
    { cbn [app]. rewrite <- Hk. f_equal. destruct groups; [ reflexivity |]. cbn [last].
      clear. revert p. induction groups; intros p; [ reflexivity |]. cbn [last]. apply IHgroups. }
    assert (Hps2' : groups = [] -> ps2 <> []).
    { intros -> ->. cbn in Hk2. discriminate. }
    destruct (zlen dn + zlen ps + 1 <=? 2) eqn:El; cbn [negb] in Lk.
    + apply Z.leb_le in El. assert (Hp : ps = []) by (destruct ps; [ reflexivity | unfold zlen in *; cbn [List.length] in *; lia ]). subst ps.
      assert (Hd1 : exists x, dn = [x]).
      { destruct dn as [|x [|? ?]]; [ congruence | eexists; reflexivity | unfold zlen in El; cbn [List.length] in El; lia ]. }
      destruct Hd1 as (x & ->). cbn [app]. rewrite app_nil_r, <- app_assoc. cbn [app]. rewrite delete_lbo.
      destruct (IH n name2 [y] ps2 co ct (i + 0 + 1) HS) as (st & cn & i' & cs & E & HC); try assumption; try discriminate; try lia.
      exists st, cn, i', cs. cbn [app] in Lk. cbn [filter] in *. rewrite Lk. split; [| exact HC ]. exact E.
    + destruct (IH n name2 [y] ps2 (co ++ dn ++ ps) (ct ++ [zlen dn + zlen ps]) (i + zlen ps + 1) HS) as (st & cn & i' & cs & E & HC); try assumption; try discriminate; try lia.
      exists st, cn, i', ((zlen dn + zlen ps) :: cs). cbn [app] in E, HC.
      assert (F : filter keeps ((name, dn ++ ps) :: (name2, y :: ps2) :: groups) = (name, dn ++ ps) :: filter keeps ((name2, y :: ps2) :: groups))
        by (cbn [filter]; rewrite Lk; reflexivity).
      rewrite F. split.
      * replace (zlen dn + zlen ps + 1 - 1) with (zlen dn + zlen ps) by lia. rewrite !app_assoc in *.
        change 1 with (zlen [y]) at 1. rewrite E. cbn [map List.concat snd]. rewrite <- !app_assoc. reflexivity.
      * cbn [map snd]. set (G := map snd (filter keeps ((name2, y :: ps2) :: groups))) in *.
        assert (Z1 : zlen dn + zlen ps = zlen (dn ++ ps)) by (unfold zlen; rewrite app_length; lia).
        destruct G as [|g G]; [ destruct cs; [ left; exact Z1 | contradiction ] |].
        split; [ exact Z1 | exact HC ].
Qed.
(** Reading a Charisma file whose last stick has two points or more gives, in order, the sticks of two points or more, as
    open polylines. *)
Theorem C92_charisma_partial : forall groups, groups <> [] -> Sticks groups -> 2 <= Z.of_nat (List.length (snd (last groups (0, [])))) ->
  set_from_charisma (rows_of groups) = Ok (map (fun g => (false, snd g)) (filter (fun g => 2 <=? Z.of_nat (List.length (snd g))) groups)).
Proof.
  intros [|(name, pts) groups] Hne HS Hl; [ congruence |].
  assert (Hp : pts <> []) by (destruct groups as [|(? & ?) ?]; cbn in HS; tauto).
  destruct pts as [|x ps]; [ congruence |]. unfold set_from_charisma.
  assert (R : rows_of ((name, x :: ps) :: groups) = (x, name) :: map (fun p => (p, name)) ps ++ rows_of groups) by reflexivity.
  rewrite R. set (n := zlen _). cbn [fold_left]. cbn [charisma_step Z.eqb].
  assert (Hlast : keeps (last groups (name, [x] ++ ps)) = true).
  { unfold keeps, zlen. apply Z.leb_le. replace (last groups (name, [x] ++ ps)) with (last ((name, x :: ps) :: groups) (0, [])); [ exact Hl |].
    clear. cbn [app]. revert name x ps. induction groups as [|(a & b) g IH]; intros; [ reflexivity |]. cbn [last] in *.
    destruct g as [|h g]; [ reflexivity |]. clear. revert h. induction g; intros; [ reflexivity |]. cbn [last] in *. apply IHg. }
  destruct (charisma_rest groups n name [x] ps [] [] 1 HS) as (st & cn & i' & cs & E & HC); try assumption; try discriminate; try lia.
  { unfold n, zlen. cbn [List.length]. rewrite app_length, map_length. lia. }
  { intros -> ->. cbn in Hlast. discriminate. }
  cbn [app] in E, HC. change (0 + 1) with 1. change (zlen [x]) with 1 in E. rewrite E.
  assert (Len : List.length cs = List.length (map snd (filter keeps ((name, x :: ps) :: groups)))).
  { clear - HC. revert cs HC. generalize (map snd (filter keeps ((name, x :: ps) :: groups))). intros G. induction G as [|g G IH]; intros [|c cs] H.
    - reflexivity. - contradiction. - destruct G; contradiction.
    - destruct G as [|g' G]; [ destruct cs; [ reflexivity | destruct H; contradiction ] |]. destruct H as (_ & H). cbn [List.length]. f_equal. apply IH. exact H. }
  rewrite (convert_lemma (map snd (filter keeps ((name, x :: ps) :: groups)))); [| rewrite map_length; exact Len | exact HC |].
  - f_equal. fold keeps. change (fun g : Z * list vec => 2 <=? Z.of_nat (List.length (snd g))) with keeps.
    revert Len. generalize (filter keeps ((name, x :: ps) :: groups)). clear. intros G. revert cs.
    induction G as [|g G IH]; intros [|c cs] L; try discriminate; [ reflexivity |]. cbn [map combine fst snd]. f_equal; [| apply IH; cbn in L; lia ].
    unfold tidy. destruct (snd g); reflexivity.
  - apply Forall_map. apply Forall_forall. intros g Hg. apply filter_In in Hg. destruct Hg as (_ & Hg). unfold keeps, zlen in Hg.
    apply Z.leb_le in Hg. unfold Enough. lia.
Qed.
Print Assumptions C92_charisma_partial.
Example sticks_read : set_from_charisma (rows_of [(7, [V 0 0 0]); (8, [V 1 0 0; V 2 0 0]); (9, [V 5 5 5]); (7, [V 3 0 0; V 4 0 0; V 5 0 0])])
  = Ok [(false, [V 1 0 0; V 2 0 0]); (false, [V 3 0 0; V 4 0 0; V 5 0 0])].
Proof. vm_compute. reflexivity. Qed.
(** Missing: a last stick of a single point is not left out; its point becomes a point of the polyline before. *)
Theorem C92_charisma_refuted : exists a b c,
  set_from_charisma (rows_of [(1, [a; b]); (2, [c])]) = Ok [(false, [a; b; c])] /\ c <> a /\ c <> b.
Proof. exists (V 0 0 0), (V 1 0 0), (V 50 60 70). split; [ vm_compute; reflexivity | split; discriminate ]. Qed.
Print Assumptions C92_charisma_refuted.
(** Polylines written to a Charisma file and read are the same, all open. *)
Theorem C92_charisma_round_trip : forall polys, polys <> [] -> Forall Enough polys ->
  set_from_charisma (convert_to_charisma polys) = Ok (map (fun p => (false, p)) polys).
Proof.
  intros polys Hne He. set (groups := map (fun x => (fst x + 1, snd x)) (combine (zrange (zlen polys)) polys)).
  assert (R : convert_to_charisma polys = rows_of groups).
  { unfold convert_to_charisma, rows_of, groups. generalize (combine (zrange (zlen polys)) polys). intros l.
    induction l as [|(i & p) l IH]; [ reflexivity |]. cbn [map flat_map fst snd]. rewrite IH. reflexivity. }
  assert (G : forall m k ps, k = m -> Forall Enough ps -> let gs := map (fun x : Z * list vec => (fst x + 1, snd x)) (combine (map (fun j => m + Z.of_nat j) (seq 0 (List.length ps))) ps) in
    Sticks gs /\ map snd gs = ps /\ (match gs with (n0, _) :: _ => n0 = m + 1 | [] => True end)).
  { intros m k ps _ F. revert m. induction F as [|p ps Hp F IH]; intros m; [ cbn; tauto |]. cbv zeta. cbn [List.length seq map combine fst snd].
    rewrite <- seq_shift, map_map. specialize (IH (m + 1)). cbv zeta in IH. destruct IH as (I1 & I2 & I3).
    assert (E : map (fun x => m + Z.of_nat (S x)) (seq 0 (List.length ps)) = map (fun j => m + 1 + Z.of_nat j) (seq 0 (List.length ps)))
      by (apply map_ext; intros; lia).
    rewrite E. set (gs := map _ (combine (map (fun j => m + 1 + Z.of_nat j) _) ps)) in *. clearbody gs.
    assert (p <> []) by (intros ->; unfold Enough in Hp; cbn in Hp; lia).
    split; [| split; [ rewrite I2; reflexivity | lia ] ]. destruct gs as [|(n2 & q) gs]; [ exact H |]. split; [ lia | split; [ exact H | exact I1 ] ]. }
  specialize (G 0 0 polys eq_refl He). cbv zeta in G.
  assert (E : map (fun j => 0 + Z.of_nat j) (seq 0 (List.length polys)) = zrange (zlen polys)).
  { unfold zrange, zlen. rewrite Nat2Z.id. reflexivity. }
  rewrite E in G. fold groups in G. destruct G as (HS & Hs & _). clearbody groups. rewrite R.
  assert (Hg : Forall (fun g => Enough (snd g)) groups) by (apply Forall_map with (f := snd); rewrite Hs; exact He).
  assert (Hgn : groups <> []) by (intros ->; cbn in Hs; congruence).
  rewrite C92_charisma_partial; [| exact Hgn | exact HS |].
  - f_equal. rewrite <- Hs, map_map. f_equal. clear - Hg. induction Hg as [|g gs H Hg IH]; [ reflexivity |]. cbn [filter].
    unfold Enough in H. replace (2 <=? Z.of_nat (List.length (snd g))) with true by (symmetry; apply Z.leb_le; lia). f_equal. exact IH.
  - destruct (exists_last Hgn) as (ini & g & ->). rewrite last_last. apply Forall_app in Hg. destruct Hg as (_ & Hg). inversion Hg; subst.
    unfold Enough in *. lia.
Qed.
Print Assumptions C92_charisma_round_trip.
