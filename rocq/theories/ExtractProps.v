(** ExtractProps.v: a box of cells extracted as a grid has the geometry of the cells of the box. *)
From Verif Require Import Base QBase BoxModel BoxProofs IntersectModel PillarModel PillarProofs PointsModel PointsProofs ExtractModel ExtractProofs.
Open Scope Z_scope.

(** ** Layers *)
Definition cnt (l : list bool) : Z := Z.of_nat (count_occ Bool.bool_dec l true).
Lemma cnt_filter l : Z.of_nat (List.length (filter (fun x => x) l)) = cnt l.
Proof.
  unfold cnt. f_equal. induction l as [|b l IH]; [reflexivity|].
  destruct b; [rewrite count_occ_cons_eq by reflexivity|rewrite count_occ_cons_neq by discriminate]; cbn; lia.
Qed.
Lemma cnt_app a c : cnt (a ++ c) = cnt a + cnt c.
Proof. unfold cnt. rewrite count_occ_app. lia. Qed.
Lemma firstn_plus {A} (l : list A) : forall a k, firstn (a + k) l = firstn a l ++ firstn k (skipn a l).
Proof. induction l as [|x l IH]; intros [|a] k; cbn; rewrite ?firstn_nil; try reflexivity. f_equal. apply IH. Qed.
Lemma inherit_spec g b : Layers g -> 0 <= tk (lo b) <= tk (hi b) -> tk (hi b) < g_nk g ->
  exists l', inherit_k_gaps (g_gap_after g) b = Ok l' /\
    (forall l, l' = Some l -> Z.of_nat (List.length l) = tk (hi b) - tk (lo b)) /\
    forall k, 0 <= k <= tk (hi b) - tk (lo b) ->
      (match l' with None => 0 | Some l => cnt (firstn (Z.to_nat k) l) end) + gaps_above g (tk (lo b)) = gaps_above g (tk (lo b) + k).
Proof.
  intros (N & L) H0 H1. unfold inherit_k_gaps, gaps_above. destruct (g_gap_after g) as [l|]; [|eexists; split; [reflexivity|]; split; [discriminate|intros; lia]].
  specialize (L _ eq_refl). set (a := Z.to_nat (tk (lo b))).
  assert (Sp : forall k, 0 <= k <= tk (hi b) - tk (lo b) -> cnt (firstn (Z.to_nat (tk (lo b) + k)) l) = cnt (firstn a l) + cnt (firstn (Z.to_nat k) (skipn a l))).
  { intros k Hk. replace (Z.to_nat (tk (lo b) + k)) with (a + Z.to_nat k)%nat by (unfold a; lia). rewrite firstn_plus, cnt_app. reflexivity. }
  fold (cnt (firstn a l)).
  destruct (Z.ltb_spec (tk (lo b)) (tk (hi b))) as [Lt|Ge].
  - set (s := firstn (Z.to_nat (tk (hi b) - tk (lo b))) (skipn a l)).
    assert (Ls : List.length s = Z.to_nat (tk (hi b) - tk (lo b))) by (unfold s; rewrite firstn_length, skipn_length; unfold a; lia).
    pose proof (cnt_filter s) as Cs. destruct (Nat.ltb_spec 0 (List.length (filter (fun x => x) s))) as [G|G].
    + rewrite firstn_all2 by lia. rewrite Nat.eqb_refl. cbn [assert_ bind]. eexists. split; [reflexivity|]. split; [intros q E; injection E as <-; lia|].
      intros k Hk. fold (cnt (firstn (Z.to_nat (tk (lo b) + k)) l)). rewrite (Sp k Hk). unfold s. rewrite firstn_firstn. replace (Nat.min _ _) with (Z.to_nat k) by lia. lia.
    + eexists. split; [reflexivity|]. split; [discriminate|]. intros k Hk. fold (cnt (firstn (Z.to_nat (tk (lo b) + k)) l)). rewrite (Sp k Hk).
      assert (E : s = firstn (Z.to_nat k) (skipn a l) ++ skipn (Z.to_nat k) s).
      { rewrite <- (firstn_skipn (Z.to_nat k) s) at 1. f_equal. unfold s. rewrite firstn_firstn. f_equal. lia. }
      assert (C0 : cnt s = 0) by lia. rewrite E, cnt_app in C0. unfold cnt in *. lia.
  - eexists. split; [reflexivity|]. split; [discriminate|]. intros k Hk. replace (tk (lo b) + k) with (tk (lo b)) by lia. unfold cnt, a. lia.
Qed.

(** ** The theorem *)
Definition ValidBox (g : geo) (b : box) : Prop :=
  forall a, 0 <= get (lo b) a <= get (hi b) a /\ get (hi b) a < get (T (g_nk g) (nj g) (ni g)) a.
Lemma valid_box_ok g b : valid_box b (T (g_nk g) (nj g) (ni g)) = true <-> ValidBox g b.
Proof.
  unfold valid_box, ValidBox. rewrite forall3_spec. split; intros H a; specialize (H a); lia.
Qed.
(** e is the extraction of box b: of its extent, with gaps, flags and mask those of the box, and with
    each corner of each cell where it is in the source *)
Record Extraction (src : egrid) (xs : extras) (b : box) (given : option mask) (e : egrid) (xs' : extras) : Prop := {
  X_pillars : Pillars (e_geo e) xs';
  X_layers : Layers (e_geo e);
  X_extent : T (g_nk (e_geo e)) (nj (e_geo e)) (ni (e_geo e)) =
             T (tk (hi b) - tk (lo b) + 1) (tj (hi b) - tj (lo b) + 1) (ti (hi b) - ti (lo b) + 1);
  X_corners : forall k j i kp jp ip p, IsCell (e_geo e) k j i -> bit kp -> bit jp -> bit ip ->
     (Corner (e_geo e) xs' k j i kp jp ip p <-> Corner (e_geo src) xs (tk (lo b) + k) (tj (lo b) + j) (ti (lo b) + i) kp jp ip p);
  X_defined : match g_cdef (e_geo src), g_cdef (e_geo e) with
     | Some d, Some d' => forall k j i, d' k j i = d (tk (lo b) + k) (tj (lo b) + j) (ti (lo b) + i)
     | None, None => True | _, _ => False end;
  X_inactive : forall k j i,
     (match e_inactive e with Some m => m k j i | None => false end) =
     (match e_inactive src with Some m => m (tk (lo b) + k) (tj (lo b) + j) (ti (lo b) + i) | None => false end)
     || (match given with Some m => m k j i | None => false end) }.

Theorem C86_extraction_partial : forall src xs b given,
  Pillars (e_geo src) xs -> Layers (e_geo src) -> ValidBox (e_geo src) b -> g_pdef (e_geo src) = None ->
  Disjoint xs -> Shared (ni (e_geo src)) b xs ->
  exists e xs', extract_box src b given = Ok e /\ Extraction src xs b given e xs'.
Proof.
  intros src xs b given Pi La Vb Pd D Sh. set (g := e_geo src) in *. unfold extract_box. fold g.
  rewrite (proj2 (valid_box_ok g b) Vb). cbn [assert_ bind].
  pose proof (Vb K) as VK. pose proof (Vb J) as VJ. pose proof (Vb I) as VI. cbn [get tk tj ti] in VK, VJ, VI.
  destruct (inherit_spec g b La (proj1 VK) (proj2 VK)) as (l' & El & Ll & Rl). rewrite El. cbn [bind]. rewrite Pd. cbn [bind].
  replace (if has_gaps g then raw g (tk (lo b)) else tk (lo b)) with (top_row g (tk (lo b)))
    by (destruct (has_gaps g) eqn:HG; [rewrite (raw_spec g _ La) by lia|rewrite (row_no_gaps g _ HG)]; reflexivity).
  set (nk' := tk (hi b) - tk (lo b) + 1). set (nj' := tj (hi b) - tj (lo b) + 1). set (ni' := ti (hi b) - ti (lo b) + 1).
  set (cd := match g_cdef g with Some d => Some (array_box3 d b) | None => None end).
  set (ina := extract_inactive (e_inactive src) given b).
  pose proof (fun k => Rl k) as Rl'.
  (* the layers of the result *)
  assert (LL : forall gg0 pts0, Layers (Geo gg0 nk' l' pts0 None cd)).
  { intros gg0 pts0. split; cbn; [unfold nk'; lia|]. intros q E. specialize (Ll q E). unfold nk'. lia. }
  assert (TR : forall gg0 pts0 k, 0 <= k < nk' -> top_row g (tk (lo b)) + top_row (Geo gg0 nk' l' pts0 None cd) k = top_row g (tk (lo b) + k)).
  { intros gg0 pts0 k Hk. unfold nk' in Hk. specialize (Rl k ltac:(lia)). unfold top_row at 1 2 3. unfold gaps_above at 2. cbn [g_gap_after]. unfold cnt in Rl. destruct l'; lia. }
  assert (IA : forall k j i, (match ina with Some m => m k j i | None => false end) =
     (match e_inactive src with Some m => m (tk (lo b) + k) (tj (lo b) + j) (ti (lo b) + i) | None => false end) || (match given with Some m => m k j i | None => false end)).
  { intros k j i. unfold ina, extract_inactive. destruct (e_inactive src), given; cbn; rewrite ?orb_false_r; reflexivity. }
  assert (CD : match g_cdef g, cd with Some d, Some d' => forall k j i, d' k j i = d (tk (lo b) + k) (tj (lo b) + j) (ti (lo b) + i) | None, None => True | _, _ => False end).
  { unfold cd. destruct (g_cdef g); [intros; reflexivity|constructor]. }
  assert (Bj : 0 <= tj (lo b) /\ tj (lo b) <= tj (hi b) /\ tj (hi b) < nj g) by lia.
  assert (Bi : 0 <= ti (lo b) /\ ti (lo b) <= ti (hi b) /\ ti (hi b) < ni g) by lia.
  assert (CB : forall j i, 0 <= j < nj' -> 0 <= i < ni' -> ColumnInBox b (tj (lo b) + j) (ti (lo b) + i)) by (intros j i A B; unfold ColumnInBox, nj', ni' in *; lia).
  (* from the pillars used to the corners *)
  assert (CO : forall gg0 (f : Z -> Z) xs', g_nj gg0 = nj' -> g_ni gg0 = ni' ->
     (forall j i jp ip n', ColumnInBox b j i -> bit jp -> bit ip ->
        Uses nj' ni' xs' (j - tj (lo b) + jp) (i - ti (lo b) + ip) (j - tj (lo b)) (i - ti (lo b)) n' -> Uses (nj g) (ni g) xs (j + jp) (i + ip) j i (f n')) ->
     let h := Geo gg0 nk' l' (fun r lp => g_pts g (top_row g (tk (lo b)) + r) (f lp)) None cd in
     forall k j i kp jp ip p, IsCell h k j i -> bit kp -> bit jp -> bit ip ->
       (Corner h xs' k j i kp jp ip p <-> Corner g xs (tk (lo b) + k) (tj (lo b) + j) (ti (lo b) + i) kp jp ip p)).
  { intros gg0 f xs' Ej Ei HU h k j i kp jp ip p (Hk & Hj & Hi) B1 B2 B3. unfold Corner. cbn [g_pts h]. 
    unfold nj, ni in Hj, Hi |- *. cbn [gg h] in *. rewrite Ej, Ei in *. fold (nj g) (ni g). cbn [g_nk h] in Hk.
    pose proof (CB j i Hj Hi) as C.
    assert (FU : forall n', Uses nj' ni' xs' (j + jp) (i + ip) j i n' -> Uses (nj g) (ni g) xs (tj (lo b) + j + jp) (ti (lo b) + i + ip) (tj (lo b) + j) (ti (lo b) + i) (f n')).
    { intros n' U. apply HU; try assumption. replace (tj (lo b) + j - tj (lo b)) with j by lia. replace (ti (lo b) + i - ti (lo b)) with i by lia. exact U. }
    assert (RR : top_row g (tk (lo b)) + (top_row h k + kp) = top_row g (tk (lo b) + k) + kp) by (unfold h; rewrite <- (TR gg0 (fun r lp => g_pts g (top_row g (tk (lo b)) + r) (f lp)) k Hk); lia).
    split.
    - intros (n' & U & ->). exists (f n'). split; [apply FU; exact U|]. rewrite RR. reflexivity.
    - intros (n & U & ->). destruct (uses_exists nj' ni' xs' (j + jp) (i + ip) j i) as (n' & U'). exists n'. split; [exact U'|].
      rewrite RR, (uses_functional _ _ _ _ _ _ _ _ _ U (FU n' U')). reflexivity. }
  assert (WN : WellFormed nj' ni' []) by (unfold WellFormed, nj', ni'; repeat split; try lia; constructor).
  destruct Pi as (W & [Eg|[-> Es]]).
  - (* faulted *)
    assert (HS : g_has_split (gg g) = true) by (rewrite Eg; reflexivity). rewrite HS. cbn [negb].
    replace (jagged 0 (g_spi (gg g)) (g_cl (gg g)) (g_cols (gg g))) with xs by (rewrite Eg; cbn [of_extras g_spi g_cl g_cols]; symmetry; apply jagged_of).
    pose proof (all_splits_inv (nj g) (ni g) b Bj Bi xs [] _ (inv0 (nj g) (ni g) b Bj Bi)) as IV. cbn [app List.length Z.of_nat] in IV.
    assert (FX : Forall (fun x => exists pj pi, fst x = pillar (ni g) pj pi /\ 0 <= pi <= ni g) xs).
    { destruct W as (W1 & W2 & W3). eapply Forall_impl; [|exact W3]. intros [p cs] [Hp _]. cbn [fst] in *. exists (p / (ni g + 1)), (p mod (ni g + 1)).
      pose proof (Z.div_mod p (ni g + 1) ltac:(lia)). pose proof (Z.mod_pos_bound p (ni g + 1) ltac:(lia)). unfold pillar. split; [lia|lia]. }
    specialize (IV FX D Sh). change (natural (ni g) b) with (fun lp => (tj (lo b) + lp / (ni' + 1)) * (ni g + 1) + (ti (lo b) + lp mod (ni' + 1))) in IV.
    fold nj' ni' in IV. set (s := all_splits (nj g) (ni g) nj' ni' b 0 xs _) in *. destruct IV as (IW & _ & _ & IU).
    destruct (extra s) as [|x0 ex0] eqn:Ex.
    + exists (EGrid (Geo (SGrid nj' ni' false [] [] []) nk' l' (fun r lp => g_pts g (top_row g (tk (lo b)) + r) (src_of b s lp)) None cd) ina), [].
      split; [unfold src_of; rewrite Ex; reflexivity|]. constructor; cbn [e_geo e_inactive]; [|apply LL|reflexivity| |exact CD|exact IA].
      * split; [exact WN|right; split; reflexivity].
      * apply (CO _ (src_of b s)); [reflexivity|reflexivity|exact IU].
    + rewrite <- Ex in *. assert (RW : forall (ty : Type) (u v : ty), match extra s with [] => u | _ :: _ => v end = v) by (intros; rewrite Ex; reflexivity).
      eexists. exists (map fst (extra s)). split; [rewrite Ex at 1; rewrite <- Ex; reflexivity|].
      constructor; cbn [e_geo e_inactive]; [|apply LL|reflexivity| |exact CD|exact IA].
      * split; [exact IW|]. left. cbn [gg nj ni g_nj g_ni]. unfold nj, ni. cbn [gg g_nj g_ni]. unfold of_extras. rewrite cumulative_of, !map_map. reflexivity.
      * apply (CO _ (src_of b s)); [reflexivity|reflexivity|exact IU].
  - (* unfaulted *)
    rewrite Es. cbn [negb]. eexists. exists []. split; [reflexivity|].
    constructor; cbn [e_geo e_inactive]; [|apply LL|reflexivity| |exact CD|exact IA].
    + split; [exact WN|right; split; reflexivity].
    + apply (CO _ (natural (ni g) b)); [reflexivity|reflexivity|]. intros j i jp ip n' C B1 B2 U.
      destruct (uses_range _ _ _ _ _ _ _ _ U) as [-> |(e & L & _)]; [|cbn in L; lia].
      replace (j - tj (lo b) + jp) with (j + jp - tj (lo b)) by lia. replace (i - ti (lo b) + ip) with (i + ip - ti (lo b)) by lia.
      unfold ni'. rewrite (natural_at (nj g) (ni g) b Bj Bi); [apply uses_nil|]. eapply corner_in; eassumption.
Qed.
Print Assumptions C86_extraction_partial.

(** A box that is not within the grid is refused. *)
Theorem C86_bad_box : forall src b given, ~ ValidBox (e_geo src) b -> extract_box src b given = Err AssertionError.
Proof.
  intros src b given N. unfold extract_box. destruct (valid_box b _) eqn:V; [|reflexivity]. apply valid_box_ok in V. contradiction.
Qed.
Print Assumptions C86_bad_box.

(** With flags for undefined pillars nothing can be extracted. *)
Theorem C86_pillar_flags_refuted : forall src b given d, g_pdef (e_geo src) = Some d -> Layers (e_geo src) -> ValidBox (e_geo src) b ->
  extract_box src b given = Err IndexError.
Proof.
  intros src b given d E La V. unfold extract_box. rewrite (proj2 (valid_box_ok _ b) V). cbn [assert_ bind].
  pose proof (V K) as VK. cbn [get tk tj ti] in VK. destruct (inherit_spec (e_geo src) b La (proj1 VK) (proj2 VK)) as (l' & El & _). rewrite El. cbn [bind]. rewrite E. reflexivity.
Qed.
Print Assumptions C86_pillar_flags_refuted.

(** Where a pillar is split three ways and the box has only columns of the first extra pillar, the new grid
    gets the points of the primary pillar. *)
Definition three_ways : extras := [(4, [0]); (4, [3])].
Definition three_way_grid : egrid := EGrid (Geo (of_extras 2 2 three_ways) 1 None (fun r p => V (inject_Z p) 0 (inject_Z r)) None None) None.
Definition first_column : box := Box (T 0 0 0) (T 0 0 0).
Theorem C86_three_way_split_refuted : exists e p q,
  Pillars (e_geo three_way_grid) three_ways /\ Layers (e_geo three_way_grid) /\ ValidBox (e_geo three_way_grid) first_column /\ Disjoint three_ways /\
  extract_box three_way_grid first_column None = Ok e /\
  Corner (e_geo e) [] 0 0 0 0 1 1 p /\ Corner (e_geo three_way_grid) three_ways 0 0 0 0 1 1 q /\ vx p = 4%Q /\ vx q = 9%Q.
Proof.
  eexists. exists (V 4 0 0), (V 9 0 0). split; [|split; [|split; [|split; [|split; [vm_compute; reflexivity|]]]]].
  - split; [|left; reflexivity]. split; [reflexivity|]. split; [reflexivity|].
    repeat constructor; cbn; try lia; [exists 0, 0, 1, 1|exists 1, 1, 0, 0]; repeat split; cbn; lia.
  - split; [reflexivity|discriminate].
  - intros []; cbn; lia.
  - intros e e' p cs cs' c E E' H H'. destruct e as [|[|e]], e' as [|[|e']]; try reflexivity; cbn in E, E'; try (destruct e; discriminate E); try (destruct e'; discriminate E');
      injection E as <- <-; injection E' as <-; cbn in H, H'; lia.
  - split; [|split; [|split; reflexivity]].
    + exists 3. split; [|reflexivity]. apply (uses_nil 1 1 1 1 0 0).
    + exists 9. split; [|reflexivity]. left. exists O. split; [exists [0]; split; [reflexivity|left; reflexivity]|]. split; [|reflexivity].
      intros e' (cs & E & H). destruct e' as [|[|e']]; [lia| |destruct e'; discriminate E]. cbn in E. injection E as <-. cbn in H. lia.
Qed.
Print Assumptions C86_three_way_split_refuted.

(** ** Concrete cases *)
(** no pillar doubled twice: the hypotheses on the extra pillars hold for any box *)
Example once_each : forall ni b xs, NoDup (map fst xs) -> Disjoint xs /\ Shared ni b xs.
Proof.
  intros ni b xs N.
  assert (U : forall e e' p cs cs', nth_error xs e = Some (p, cs) -> nth_error xs e' = Some (p, cs') -> e = e').
  { intros e e' p cs cs' E E'. rewrite NoDup_nth_error in N. apply N.
    - rewrite map_length. apply nth_error_Some. congruence.
    - rewrite (map_nth_error fst _ _ E), (map_nth_error fst _ _ E'). reflexivity. }
  split.
  - intros e e' p cs cs' c E E' _ _. eapply U; eassumption.
  - intros e e' pj pi cs cs' _ E E' Lt. pose proof (U _ _ _ _ _ E E'). lia.
Qed.
(** a grid of two by two columns in three layers with a gap after the second, faulted between its two columns
    of cells, and a box of its last two layers and last column *)
Definition small_xs : extras := [(1, [1]); (4, [1; 3]); (7, [3])].
Definition small : egrid := EGrid (Geo (of_extras 2 2 small_xs) 3 (Some [false; true]) (fun r p => V (inject_Z p) 0 (inject_Z r)) None None) (Some (fun k j i => k =? 2)).
Definition small_box : box := Box (T 1 0 1) (T 2 1 1).
Example small_ok : Pillars (e_geo small) small_xs /\ Layers (e_geo small) /\ ValidBox (e_geo small) small_box /\ NoDup (map fst small_xs).
Proof.
  split; [|split; [|split]].
  - split; [|left; reflexivity]. split; [reflexivity|]. split; [reflexivity|].
    repeat constructor; cbn; try lia; [exists 0, 1, 0, 0|exists 0, 1, 1, 0|exists 1, 1, 0, 0|exists 1, 1, 1, 0]; repeat split; cbn; lia.
  - split; [reflexivity|]. intros l E. injection E as <-. reflexivity.
  - intros []; cbn; lia.
  - repeat constructor; cbn; intuition discriminate.
Qed.
Example small_extracted : exists e, extract_box small small_box None = Ok e /\ g_has_split (gg (e_geo e)) = false /\
  g_gap_after (e_geo e) = Some [true] /\ g_pts (e_geo e) 0 0 = V 9 0 1 /\ g_pts (e_geo e) 3 4 = V 11 0 4 /\
  e_inactive e = Some (fun k j i => 1 + k =? 2).
Proof. eexists. split; [vm_compute; reflexivity|]. repeat split. Qed.
