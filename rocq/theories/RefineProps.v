(** RefineProps.v: refined grids keep the geometry of the source; coarsened grids keep the lines of it they use. *)
From Coq Require Import Lqa.
From Verif Require Import Base QBase BoxModel BoxProofs FineCoarseModel FineCoarseProofs FineCoarseProps ProportionProofs IntersectModel IntersectProofs PillarModel PillarProofs PointsModel PointsProofs PointsProps ExtractProofs ExtractProps RefineModel RefineProofs.
Open Scope Z_scope.

(** the mapping is sound and its coarse side is the grid g *)
Definition FromCoarse (g : geo) (s : fc) : Prop :=
  (PropsOK (tk (ax s)) /\ PropsOK (tj (ax s)) /\ PropsOK (ti (ax s))) /\
  coarse (tk (ax s)) = g_nk g /\ coarse (tj (ax s)) = nj g /\ coarse (ti (ax s)) = ni g.
(** fine cell f is in coarse cell c *)
Definition OwnsCell (s : fc) (ck cj ci fk fj fi : Z) : Prop :=
  Owns (tk (ax s)) ck fk /\ Owns (tj (ax s)) cj fj /\ Owns (ti (ax s)) ci fi.
(** the fractions across its coarse cell of corner (kp, jp, ip) of fine cell f *)
Definition Fractions (s : fc) (ck cj ci fk fj fi kp jp ip : Z) (qk qj qi : Q) : Prop :=
  Fraction (tk (ax s)) ck (fk - start (tk (ax s)) ck + kp) qk /\
  Fraction (tj (ax s)) cj (fj - start (tj (ax s)) cj + jp) qj /\
  Fraction (ti (ax s)) ci (fi - start (ti (ax s)) ci + ip) qi.

Lemma mix_same x y x' y' q : Same x x' -> Same y y' -> Same (vadd (vscale q x) (vscale (1 - q)%Q y)) (vadd (vscale q x') (vscale (1 - q)%Q y')).
Proof. intros (A1 & A2 & A3) (B1 & B2 & B3). unfold Same; cbn. rewrite A1, A2, A3, B1, B2, B3. repeat split; ring. Qed.
Lemma mix_trilinear cp qk qj qi :
  let k jp ip := vadd (vscale qk (cp 1 jp ip)) (vscale (1 - qk)%Q (cp 0 jp ip)) in
  let j ip := vadd (vscale qj (k 1 ip)) (vscale (1 - qj)%Q (k 0 ip)) in
  Same (vadd (vscale qi (j 1)) (vscale (1 - qi)%Q (j 0))) (trilinear cp qk qj qi).
Proof. unfold trilinear, Same; cbn -[Qmult Qplus Qminus]. repeat split; ring. Qed.
Definition gap_in (g : geo) (n c : Z) : bool := match g_gap_after g with Some l => (c <? n - 1) && nth (Z.to_nat c) l false | None => false end.
Lemma gaps_step g : Layers g -> forall c, 0 <= c < g_nk g -> gaps_above g (c + 1) = gaps_above g c + bump (gap_in g (g_nk g)) c.
Proof.
  intros L c Hc. unfold bump, gap_in. destruct (Z_lt_le_dec c (g_nk g - 1)) as [Lt|Ge].
  - pose proof (C85_gaps g L c ltac:(lia)) as E. unfold top_row in E. destruct (g_gap_after g); [|lia]. replace (c <? g_nk g - 1) with true by lia. cbn [andb]. lia.
  - destruct (g_gap_after g) as [l|] eqn:El; [|unfold gaps_above; rewrite El; lia]. replace (c <? g_nk g - 1) with false by lia. cbn [andb].
    destruct L as [Lp Ll]. specialize (Ll l El). unfold gaps_above. rewrite El, !firstn_all2 by lia. lia.
Qed.
Lemma gaps_all g : Layers g -> nk_plus_k_gaps g - g_nk g = gaps_above g (g_nk g).
Proof.
  intros [Lp Ll]. unfold nk_plus_k_gaps, gaps_above. destruct (g_gap_after g) as [l|]; [|lia]. specialize (Ll l eq_refl). rewrite firstn_all2 by lia.
  clear Ll. assert (E : List.length (filter (fun b => b) l) = count_occ Bool.bool_dec l true); [|lia]. induction l as [|[] l IH]; cbn; [reflexivity| |]; rewrite ?IH; reflexivity.
Qed.
Lemma zero_gaps a : PropsOK a -> exists ls ids raws, axis_loop a (fun _ => false) (zrange (coarse a)) 0 0 = Ok (ls, ids, raws, (fine a, 0)) /\
  (forall c m, 0 <= c < coarse a -> 0 <= m <= count_of a c -> exists e, nth_error (ls ++ [(coarse a, 0%Q)]) (Z.to_nat (start a c + m)) = Some e /\ Entry a (fun _ => false) c m e).
Proof.
  intros P. destruct (entries a (fun _ => false) (fun _ => 0) P ltac:(intros; cbn; lia) eq_refl eq_refl) as (ls & ids & raws & E & N & _).
  exists ls, ids, raws. split; [exact E|]. intros c m Hc Hm. specialize (N c m Hc Hm). replace (start a c + 0 + m) with (start a c + m) in N by lia. exact N.
Qed.
Lemma owned_offset a c f p : ValidAxis a -> 0 <= c < coarse a -> Owns a c f -> bit p -> 0 <= f - start a c + p <= count_of a c.
Proof. intros V Hc O B. rewrite owns_start in O. pose proof (start_next a c V Hc). unfold bit in B. lia. Qed.
Lemma owned_range a c f : ValidAxis a -> 0 <= c < coarse a -> Owns a c f -> 0 <= f < fine a.
Proof.
  intros V Hc O. rewrite owns_start in O. pose proof (start_mono a 0 c V ltac:(lia)). pose proof (start_mono a (c + 1) (coarse a) V ltac:(lia)). rewrite start_0, start_end in * by exact V. lia.
Qed.

(** Refining an unfaulted grid: the result has the fine extent; its cells lie in their coarse cells, each corner
    at its fractions across the coarse cell, as given by the proportions; its K gaps are those of the source,
    after the last fine layer of the coarse layer above; the layer index stored is the one of the grid. *)
Theorem C88_refined : forall g s, g_has_split (gg g) = false -> Layers g -> FromCoarse g s -> 
  exists g' raws, refined_unfaulted g s = Ok (g', raws) /\ Pillars g' [] /\ g_has_split (gg g') = false /\ Layers g' /\
    g_nk g' = fine (tk (ax s)) /\ nj g' = fine (tj (ax s)) /\ ni g' = fine (ti (ax s)) /\
    has_gaps g' = has_gaps g /\ (has_gaps g = true -> raws = k_raw_index_array g') /\
    (forall ck fk, 0 <= ck < g_nk g -> Owns (tk (ax s)) ck fk -> gaps_above g' fk = gaps_above g ck) /\
    forall ck cj ci fk fj fi kp jp ip qk qj qi, IsCell g ck cj ci -> OwnsCell s ck cj ci fk fj fi -> bit kp -> bit jp -> bit ip ->
      Fractions s ck cj ci fk fj fi kp jp ip qk qj qi ->
      forall cp, (forall a b c, bit a -> bit b -> bit c -> Corner g [] ck cj ci a b c (cp a b c)) ->
      exists p, Corner g' [] fk fj fi kp jp ip p /\ Same p (trilinear cp qk qj qi).
Proof.
  intros g s HS La ((PK & PJ & PI) & Ek & Ej & Ei). set (ak := tk (ax s)) in *. set (aj := tj (ax s)) in *. set (ai := ti (ax s)) in *.
  pose proof (proj1 PK) as VK. pose proof (proj1 PJ) as VJ. pose proof (proj1 PI) as VI.
  assert (GS : forall c, 0 <= c < coarse ak -> gaps_above g (c + 1) = gaps_above g c + bump (gap_in g (coarse ak)) c) by (rewrite Ek; apply gaps_step, La).
  assert (G0 : gaps_above g 0 = 0) by (unfold gaps_above; destruct (g_gap_after g); reflexivity).
  assert (GL : gap_in g (coarse ak) (coarse ak - 1) = false) by (unfold gap_in; destruct (g_gap_after g); [rewrite Z.ltb_irrefl|]; reflexivity).
  destruct (entries ak (gap_in g (coarse ak)) (gaps_above g) PK GS GL G0) as (kls & ids & raws & E1 & N1 & I1 & R1 & W1).
  destruct (zero_gaps aj PJ) as (jls & ? & ? & E2 & N2). destruct (zero_gaps ai PI) as (ils & ? & ? & E3 & N3).
  assert (Fp : 0 < fine ak). { pose proof (va_coarse ak VK). destruct (owned_range ak 0 (start ak 0) VK ltac:(lia)) as [? ?]; [|rewrite start_0 in *; lia]. destruct (owns_nonempty ak 0 VK ltac:(lia)); assumption. }
  assert (Fi : 0 < fine ai). { pose proof (va_coarse ai VI). destruct (owned_range ai 0 (start ai 0) VI ltac:(lia)) as [? ?]; [|rewrite start_0 in *; lia]. destruct (owns_nonempty ai 0 VI ltac:(lia)); assumption. }
  assert (Fj : 0 < fine aj). { pose proof (va_coarse aj VJ). destruct (owned_range aj 0 (start aj 0) VJ ltac:(lia)) as [? ?]; [|rewrite start_0 in *; lia]. destruct (owns_nonempty aj 0 VJ ltac:(lia)); assumption. }
  unfold refined_unfaulted. fold ak aj ai. change (fun c => match g_gap_after g with Some l => (c <? coarse ak - 1) && nth (Z.to_nat c) l false | None => false end) with (gap_in g (coarse ak)).
  rewrite E1. cbn [bind]. rewrite E2. cbn [bind]. rewrite E3. cbn [bind]. rewrite !Z.eqb_refl. cbn [assert_ bind].
  rewrite (gaps_all g La), <- Ek, Z.eqb_refl. cbn [assert_ bind]. do 2 eexists. split; [reflexivity|].
  set (flags := map (fun i => existsb (Z.eqb i) ids) (zrange (fine ak - 1))).
  set (g' := Geo _ _ _ _ _ _).
  assert (Nj : nj g' = fine aj) by reflexivity. assert (Ni : ni g' = fine ai) by reflexivity. assert (Nk : g_nk g' = fine ak) by reflexivity.
  assert (La' : Layers g'). { split; [rewrite Nk; exact Fp|]. intros l. cbn [g_gap_after g']. destruct (has_gaps g); [|discriminate]. intros [= <-]. unfold flags. rewrite map_length, length_zrange, Nk. lia. }
  assert (Ga : forall ck fk, 0 <= ck < g_nk g -> Owns ak ck fk -> gaps_above g' fk = gaps_above g ck).
  { intros ck fk Hc O. rewrite <- Ek in Hc. unfold gaps_above at 1. cbn [g_gap_after g']. destruct (has_gaps g) eqn:HG.
    - exact (flags_count ak (gap_in g (coarse ak)) (gaps_above g) PK GS GL G0 ids I1 _ fk ck eq_refl (owned_range _ _ _ VK Hc O) Hc O).
    - unfold has_gaps in HG. unfold gaps_above. destruct (g_gap_after g); [discriminate|reflexivity]. }
  split. { split; [|right; split; reflexivity]. split; [rewrite Nj; exact Fj|]. split; [rewrite Ni; exact Fi|constructor]. }
  split; [reflexivity|]. split; [exact La'|]. split; [exact Nk|]. split; [exact Nj|]. split; [exact Ni|].
  split. { unfold has_gaps at 1. cbn [g_gap_after g']. destruct (has_gaps g); reflexivity. }
  split. { intros HG. rewrite HG. apply nth_ext with (d := 0) (d' := 0).
    - unfold k_raw_index_array. cbn [g_gap_after g']. rewrite HG, raw_loop_length, Nk. lia.
    - intros n Hn. assert (Hf : 0 <= Z.of_nat n < fine ak) by lia. destruct (lookup_expand ak (Z.of_nat n) VK Hf) as (c & Hc & O & _).
      specialize (W1 c (Z.of_nat n) Hc O). rewrite Nat2Z.id in W1. rewrite W1. rewrite <- Nk in Hf. pose proof (raw_spec g' (Z.of_nat n) La' Hf) as Rs. unfold raw in Rs. rewrite Nat2Z.id in Rs. rewrite Rs.
      unfold top_row. rewrite (Ga c (Z.of_nat n)); [reflexivity|lia|exact O]. }
  split; [rewrite Ek; exact Ga|].
  intros ck cj ci fk fj fi kp jp ip qk qj qi (Hk & Hj & Hi) (OK & Oj & Oi) Bk Bj Bi (Qk & Qj & Qi) cp C. fold ak in OK, Qk. fold aj in Oj, Qj. fold ai in Oi, Qi.
  rewrite <- ?Ek in Hk. rewrite <- Ej in Hj. rewrite <- Ei in Hi.
  pose proof (owned_offset _ _ _ _ VK Hk OK Bk) as Mk. pose proof (owned_offset _ _ _ _ VJ Hj Oj Bj) as Mj. pose proof (owned_offset _ _ _ _ VI Hi Oi Bi) as Mi.
  destruct (N1 ck _ Hk Mk) as (ke & Lk & Fk'). destruct (N2 cj _ Hj Mj) as (je & Lj & Fj'). destruct (N3 ci _ Hi Mi) as (ie & Li & Fi').
  pose proof (owned_range _ _ _ VJ Hj Oj) as Rj. pose proof (owned_range _ _ _ VI Hi Oi) as Ri. pose proof (owned_range _ _ _ VK Hk OK) as Rk.
  exists (g_pts g' (top_row g' fk + kp) (pillar (fine ai) (fj + jp) (fi + ip))). split.
  { exists (pillar (fine ai) (fj + jp) (fi + ip)). split; [|reflexivity]. rewrite Ni. apply uses_nil. }
  cbn [g_pts g']. unfold pillar. 
  assert (Dv : ((fj + jp) * (fine ai + 1) + (fi + ip)) / (fine ai + 1) = fj + jp) by (unfold bit in Bi; rewrite Z.div_add_l by lia; rewrite Z.div_small by lia; lia).
  assert (Dm : ((fj + jp) * (fine ai + 1) + (fi + ip)) mod (fine ai + 1) = fi + ip) by (unfold bit in Bi; rewrite Z.add_comm, Z.mod_add by lia; apply Z.mod_small; lia).
  rewrite Dv, Dm.
  assert (Tr : top_row g' fk + kp = start ak ck + gaps_above g ck + (fk - start ak ck + kp)) by (unfold top_row; rewrite (Ga ck fk) by (lia || exact OK); lia).
  rewrite Tr. erewrite nth_error_nth by exact Lk.
  replace (fj + jp) with (start aj cj + (fj - start aj cj + jp)) by lia. erewrite nth_error_nth by exact Lj.
  replace (fi + ip) with (start ai ci + (fi - start ai ci + ip)) by lia. erewrite nth_error_nth by exact Li.
  set (row := fun c => if has_gaps g then raw g c else c).
  assert (Row : forall c, 0 <= c < coarse ak -> row c = top_row g c).
  { intros c Hc. unfold row. destruct (has_gaps g) eqn:HG; [apply raw_spec; [exact La|lia]|symmetry; apply row_no_gaps, HG]. }
  assert (KP : forall pj pi, Same (between (coarse ak) (fun c => pts4 g (row c) pj pi) (fun c => pts4 g (row c + 1) pj pi) ke)
     (vadd (vscale qk (pts4 g (row ck + 1) pj pi)) (vscale (1 - qk)%Q (pts4 g (row ck) pj pi)))).
  { intros pj pi. apply (Fk' (fun c => pts4 g (row c) pj pi) (fun c => pts4 g (row c + 1) pj pi)); [|exact Qk]. intros c Hc Gc. cbv beta. f_equal. rewrite !Row by lia. unfold top_row. rewrite GS by lia. unfold bump. rewrite Gc. lia. }
  set (kp_ := fun pj pi => between (coarse ak) (fun c => pts4 g (row c) pj pi) (fun c => pts4 g (row c + 1) pj pi) ke) in *.
  assert (JP : forall pi, Same (between (coarse aj) (fun c => kp_ c pi) (fun c => kp_ (c + 1) pi) je) (vadd (vscale qj (kp_ (cj + 1) pi)) (vscale (1 - qj)%Q (kp_ cj pi)))).
  { intros pi. apply (Fj' (fun c => kp_ c pi) (fun c => kp_ (c + 1) pi)); [|exact Qj]. reflexivity. }
  set (jp_ := fun pi => between (coarse aj) (fun c => kp_ c pi) (fun c => kp_ (c + 1) pi) je) in *.
  assert (IP : Same (between (coarse ai) (fun c => jp_ c) (fun c => jp_ (c + 1)) ie) (vadd (vscale qi (jp_ (ci + 1))) (vscale (1 - qi)%Q (jp_ ci)))).
  { apply (Fi' (fun c => jp_ c) (fun c => jp_ (c + 1))); [|exact Qi]. reflexivity. }
  assert (CP : forall a b c, bit a -> bit b -> bit c -> cp a b c = pts4 g (row ck + a) (cj + b) (ci + c)).
  { intros a b c Ba Bb Bc. destruct (C a b c Ba Bb Bc) as (n & Un & ->). rewrite Row by exact Hk. rewrite pts4_pillar. f_equal. apply (uses_functional _ _ [] _ _ _ _ _ _ Un). apply uses_nil. }
  apply (same_trans _ _ _ IP). eapply same_trans; [|exact (mix_trilinear cp qk qj qi)]. cbv beta zeta. rewrite !CP by (unfold bit; auto). rewrite !Z.add_0_r.
  apply mix_same; (eapply same_trans; [apply JP|]); apply mix_same; apply KP.
Qed.
Print Assumptions C88_refined.

(** ** Faulted *)
Lemma writer_ok a f c : PropsOK a -> 0 <= c < coarse a -> Owns a c f ->
  exists l, interpolation a c = Ok l /\ writer a (zrange (coarse a)) f = Ok (Some (c, start a c, l ++ [1%Q])).
Proof.
  intros P Hc O. pose proof (proj1 P) as V.
  assert (G : forall n c0, Z.to_nat (coarse a - c0) = n -> 0 <= c0 <= coarse a ->
    (c < c0 -> writer a (zrange2 c0 (coarse a)) f = Ok None) /\
    (c0 <= c -> exists l, interpolation a c = Ok l /\ writer a (zrange2 c0 (coarse a)) f = Ok (Some (c, start a c, l ++ [1%Q])))).
  { induction n as [|n IH]; intros c0 En H0; [rewrite zrange2_nil by lia; split; [reflexivity|lia]|].
    rewrite zrange2_cons by lia. cbn [writer]. rewrite base_psum by (assumption || lia). fold (start a c0). cbn [bind]. rewrite ratio_nth by (assumption || lia). fold (count_of a c0). cbn [bind].
    assert (H0' : 0 <= c0 < coarse a) by lia. destruct (interp_len a c0 P H0') as (p & l & _ & El & _). rewrite El. cbn [bind].
    destruct (IH (c0 + 1) ltac:(lia) ltac:(lia)) as [A B]. rewrite owns_start in O. pose proof (start_next a c0 V H0') as Sn.
    split; intros Lt.
    - rewrite (A ltac:(lia)). cbn [bind]. replace ((start a c0 <=? f) && (f <? start a c0 + count_of a c0)) with false; [reflexivity|]. pose proof (start_mono a (c + 1) c0 V ltac:(lia)). symmetry. apply andb_false_iff. left. apply Z.leb_gt. lia.
    - destruct (Z.eq_dec c0 c) as [-> |Ne].
      + rewrite (A ltac:(lia)). cbn [bind]. exists l. split; [exact El|]. replace ((start a c <=? f) && (f <? start a c + count_of a c)) with true by lia. reflexivity.
      + destruct (B ltac:(lia)) as (l' & El' & Ew). rewrite Ew. cbn [bind]. exists l'. split; [exact El'|reflexivity]. }
  destruct (G _ 0 eq_refl ltac:(lia)) as [_ B]. destruct (B ltac:(lia)) as (l & El & Ew). exists l. split; [exact El|].
  replace (zrange (coarse a)) with (zrange2 0 (coarse a)) by (unfold zrange, zrange2; rewrite Z.sub_0_r; apply map_ext; intros; lia). exact Ew.
Qed.
Lemma fraction_entry a c l m q : PropsOK a -> 0 <= c < coarse a -> interpolation a c = Ok l -> 0 <= m <= count_of a c -> Fraction a c m q ->
  exists q', nth_error (l ++ [1%Q]) (Z.to_nat m) = Some q' /\ (q' == q)%Q.
Proof.
  intros P Hc El Hm (p' & Ep' & Eq). destruct (interp_len a c P Hc) as (p & l' & Ep & El' & Lp & Ll & Sp & Fl). rewrite El in El'. injection El' as <-. rewrite Ep in Ep'. injection Ep' as <-.
  destruct (Z_lt_le_dec m (count_of a c)) as [Lt|Ge].
  - exists (nth (Z.to_nat m) l 0%Q). split; [rewrite nth_error_app1 by lia; apply nth_error_nth'; lia|]. rewrite Eq. apply Fl. lia.
  - exists 1%Q. split; [rewrite nth_error_app2 by lia; replace (Z.to_nat m - List.length l)%nat with O by lia; reflexivity|]. rewrite Eq, firstn_all2 by lia. symmetry. exact Sp.
Qed.
Lemma trilinear_same cp qk qj qi qk' qj' qi' : (qk == qk')%Q -> (qj == qj')%Q -> (qi == qi')%Q -> Same (trilinear cp qk qj qi) (trilinear cp qk' qj' qi').
Proof. intros A B C. unfold trilinear, Same; cbn -[Qmult Qplus Qminus]. rewrite A, B, C. repeat split; ring. Qed.

(** Refining a faulted grid: every corner of every fine cell is written, at its fractions across its own coarse
    cell, so that the throw of the faults is kept. *)
Theorem C88_refined_faulted : forall g xs s, Pillars g xs -> Layers g -> FromCoarse g s ->
  forall ck cj ci fk fj fi kp jp ip qk qj qi, IsCell g ck cj ci -> OwnsCell s ck cj ci fk fj fi -> bit kp -> bit jp -> bit ip ->
    Fractions s ck cj ci fk fj fi kp jp ip qk qj qi ->
    forall cp, (forall a b c, bit a -> bit b -> bit c -> Corner g xs ck cj ci a b c (cp a b c)) ->
    exists p, refined_faulted_cp g s fk fj fi kp jp ip = Ok (Some p) /\ Same p (trilinear cp qk qj qi).
Proof.
  intros g xs s Pg La ((PK & PJ & PI) & Ek & Ej & Ei) ck cj ci fk fj fi kp jp ip qk qj qi Hc (OK & Oj & Oi) Bk Bj Bi (Qk & Qj & Qi) cp C.
  destruct (C85_corners g xs Pg La) as (cps & Ec & Cc). unfold refined_faulted_cp. rewrite Ec. cbn [bind]. pose proof Hc as (Hk & Hj & Hi).
  rewrite <- Ek in Hk. rewrite <- Ej in Hj. rewrite <- Ei in Hi. rewrite <- Ek, <- Ej, <- Ei.
  destruct (writer_ok _ _ _ PK Hk OK) as (lk & Ik & ->). destruct (writer_ok _ _ _ PJ Hj Oj) as (lj & Ij & ->). destruct (writer_ok _ _ _ PI Hi Oi) as (li & Ii & ->). cbn [bind].
  destruct (fraction_entry _ _ _ _ _ PK Hk Ik (owned_offset _ _ _ _ (proj1 PK) Hk OK Bk) Qk) as (qk' & Nk & Sk).
  destruct (fraction_entry _ _ _ _ _ PJ Hj Ij (owned_offset _ _ _ _ (proj1 PJ) Hj Oj Bj) Qj) as (qj' & Nj & Sj).
  destruct (fraction_entry _ _ _ _ _ PI Hi Ii (owned_offset _ _ _ _ (proj1 PI) Hi Oi Bi) Qi) as (qi' & Ni & Si).
  destruct (C85_lattice (cps ck cj ci) _ _ _ _ _ _ _ _ _ Nk Nj Ni) as (plane & row & p & -> & -> & -> & Sp).
  exists p. split; [reflexivity|]. apply (same_trans _ _ _ Sp). eapply same_trans; [apply trilinear_same; eassumption|].
  assert (E : forall a b c, bit a -> bit b -> bit c -> cps ck cj ci a b c = cp a b c).
  { intros a b c Ba Bb Bc. destruct (C a b c Ba Bb Bc) as (n & Un & ->). destruct (Cc ck cj ci a b c Hc Ba Bb Bc) as (n' & Un' & ->). f_equal. apply (uses_functional _ _ _ _ _ _ _ _ _ Un' Un). }
  unfold trilinear. cbn [flat_map map app]. rewrite !E by (unfold bit; auto). apply same_refl.
Qed.
Print Assumptions C88_refined_faulted.

(** ** Coarsening *)
(** the mapping is sound and its fine side is the grid g *)
Definition FromFine (g : geo) (s : fc) : Prop :=
  ValidFC s /\ fine (tk (ax s)) = g_nk g /\ fine (tj (ax s)) = nj g /\ fine (ti (ax s)) = ni g.
(** of the fine cells of coarse cell c of an axis, f is the first (p = 0) or the last (p = 1) *)
Definition Extreme (a : axdata) (c p f : Z) : Prop := Owns a c f /\ ~ Owns a c (if p =? 0 then f - 1 else f + 1).
Lemma extreme_start a c p f : ValidAxis a -> 0 <= c < coarse a -> bit p -> Extreme a c p f -> f + p = start a (c + p).
Proof.
  intros V Hc B (O & N). rewrite owns_start in *. destruct B as [-> | ->]; cbn [Z.eqb] in N; [replace (c + 0) with c by lia|]; lia.
Qed.
Lemma extreme_exists a c p : ValidAxis a -> 0 <= c < coarse a -> bit p -> Extreme a c p (start a (c + p) - p).
Proof.
  intros V Hc B. unfold Extreme. rewrite !owns_start. pose proof (start_next a c V Hc). pose proof (count_pos a c V Hc). destruct B as [-> | ->]; cbn [Z.eqb]; rewrite ?Z.add_0_r; lia.
Qed.
Lemma running_nth v : forall acc n, (n <= List.length v)%nat -> nth n (running acc v) 0 = acc + zsum (firstn n v).
Proof. induction v as [|r v IH]; intros acc [|n] H; cbn [running nth firstn List.length] in *; cbn; try lia. rewrite IH by lia. unfold zsum. lia. Qed.
Lemma running_last v : forall acc, last (running acc v) 0 = acc + zsum v.
Proof.
  induction v as [|r v IH]; intros acc; [cbn; lia|]. cbn [running]. assert (running (acc + r) v <> []) by (destruct v; discriminate).
  destruct (running (acc + r) v) eqn:E; [congruence|]. change (last (acc :: z :: l) 0) with (last (z :: l) 0). rewrite <- E, IH. cbn. unfold zsum. lia.
Qed.
Lemma pillar_index s p : ValidFC s -> 0 <= p < (coarse (tj (ax s)) + 1) * (coarse (ti (ax s)) + 1) -> is_ok (fine_for_coarse_natural_pillar_index s p) = true.
Proof.
  intros V H. pose proof (va_coarse _ (V I)) as Ci. pose proof (va_coarse _ (V J)) as Cj. cbn [get] in *. unfold fine_for_coarse_natural_pillar_index.
  replace (coarse (ti (ax s)) + 1 =? 0) with false by lia.
  rewrite first_fine_psum; [|exact (V J)|split; [apply Z.div_pos; lia|apply Z.lt_succ_r, Z.div_lt_upper_bound; lia]]. cbn [bind].
  rewrite first_fine_psum; [|exact (V I)|pose proof (Z.mod_pos_bound p (coarse (ti (ax s)) + 1)); lia]. reflexivity.
Qed.

(** A coarsened grid: each corner of a coarse cell is that corner of the fine cell at that corner of the cell. *)
Theorem C88_coarsened : forall g s, g_has_split (gg g) = false -> has_gaps g = false -> FromFine g s ->
  exists g', coarsened g s = Ok g' /\ Pillars g' [] /\ Layers g' /\ has_gaps g' = false /\
    g_nk g' = coarse (tk (ax s)) /\ nj g' = coarse (tj (ax s)) /\ ni g' = coarse (ti (ax s)) /\
    forall ck cj ci kp jp ip fk fj fi, IsCell g' ck cj ci -> bit kp -> bit jp -> bit ip ->
      Extreme (tk (ax s)) ck kp fk -> Extreme (tj (ax s)) cj jp fj -> Extreme (ti (ax s)) ci ip fi ->
      forall p, Corner g' [] ck cj ci kp jp ip p <-> Corner g [] fk fj fi kp jp ip p.
Proof.
  intros g s HS HG (V & Ek & Ej & Ei). pose proof (V K) as VK. pose proof (V J) as VJ. pose proof (V I) as VI. cbn [get] in *.
  unfold coarsened. rewrite HS, HG. cbn [negb assert_ bind]. rewrite Ek, Ej, Ei, !Z.eqb_refl. cbn [andb assert_ bind].
  set (ak := tk (ax s)) in *. set (aj := tj (ax s)) in *. set (ai := ti (ax s)) in *.
  assert (R : exists rows, coarse_rows ak (g_nk g) = Ok rows /\ forall c, 0 <= c <= coarse ak -> nth (Z.to_nat c) rows 0 = start ak c).
  { pose proof VK as [Vc Vl Vp Vs]. unfold coarse_rows, start. unfold ratios_of in *. destruct (cratio ak) as [r|] eqn:Er.
    - assert (Rp : 0 < r). { apply Vp. destruct (Z.to_nat (coarse ak)) eqn:En; [lia|]. left. reflexivity. }
      assert (Fe : g_nk g = coarse ak * r). { rewrite <- Ek, <- Vs. rewrite <- (firstn_all (repeat r (Z.to_nat (coarse ak)))), repeat_length, firstn_repeat, zsum_repeat by lia. rewrite Z2Nat.id by lia. reflexivity. }
      replace (r =? 0) with false by lia. assert (Dv : (g_nk g + r) / r = coarse ak + 1) by (rewrite Fe; replace (coarse ak * r + r) with ((coarse ak + 1) * r) by lia; apply Z.div_mul; lia).
      rewrite Dv. cbv zeta. rewrite map_length, length_zrange. rewrite Z2Nat.id by lia. rewrite Z.eqb_refl. eexists. split; [reflexivity|].
      intros c Hc. rewrite nth_map_zrange by lia. rewrite firstn_repeat, zsum_repeat by lia. rewrite Z2Nat.id by lia. reflexivity.
    - destruct (vratio ak) as [v|]; [|cbn in Vl; lia]. cbv zeta. rewrite running_last, Z.add_0_l, Vs, Ek, Z.eqb_refl. cbn [assert_ bind]. eexists. split; [reflexivity|].
      intros c Hc. rewrite running_nth by lia. reflexivity. }
  destruct R as (rows & -> & Rn). cbn [bind].
  assert (Al : forallb is_ok (map (fun p => fine_for_coarse_natural_pillar_index s p) (zrange ((coarse aj + 1) * (coarse ai + 1)))) = true).
  { apply forallb_forall. intros x Hx. apply in_map_iff in Hx as (p & <- & Hp). apply in_zrange in Hp. apply pillar_index; assumption. }
  rewrite Al. cbn [bind]. eexists. split; [reflexivity|]. set (g' := Geo _ _ _ _ _ _).
  assert (Nj : nj g' = coarse aj) by reflexivity. assert (Ni : ni g' = coarse ai) by reflexivity. assert (Nk : g_nk g' = coarse ak) by reflexivity.
  split. { split; [|right; split; reflexivity]. split; [rewrite Nj; exact (va_coarse _ VJ)|]. split; [rewrite Ni; exact (va_coarse _ VI)|constructor]. }
  split. { split; [rewrite Nk; exact (va_coarse _ VK)|]. intros l; discriminate. }
  split; [reflexivity|]. split; [reflexivity|]. split; [reflexivity|]. split; [reflexivity|].
  intros ck cj ci kp jp ip fk fj fi (Hk & Hj & Hi) Bk Bj Bi Xk Xj Xi p. rewrite Nk in Hk. rewrite Nj in Hj. rewrite Ni in Hi.
  apply extreme_start in Xk; try assumption. apply extreme_start in Xj; try assumption. apply extreme_start in Xi; try assumption.
  assert (Eq : g_pts g' (top_row g' ck + kp) (pillar (ni g') (cj + jp) (ci + ip)) = g_pts g (top_row g fk + kp) (pillar (ni g) (fj + jp) (fi + ip))).
  { rewrite (row_no_gaps g') by reflexivity. rewrite (row_no_gaps g) by exact HG. rewrite Ni. cbn [g_pts g']. unfold pillar.
    destruct (C12_natural_pillar_index s (cj + jp) (ci + ip) V) as (base & Eb & _ & _ & Ep); [unfold bit in *; fold aj; lia|unfold bit in *; fold ai; lia|]. fold ai in Ep. rewrite Ep.
    rewrite Rn by (unfold bit in *; lia). rewrite <- Xk. rewrite Xj, Xi, <- Ei.
    unfold fine_base_for_coarse, zip3, seq3 in Eb. cbn [tk tj ti] in Eb. fold ak aj ai in Eb.
    rewrite !base_psum in Eb by (assumption || (unfold bit in *; lia) || (pose proof (va_coarse _ VK); lia)). cbn [bind] in Eb. injection Eb as <-. reflexivity. }
  unfold Corner. split; intros (n & Un & ->).
  - rewrite (uses_functional _ _ [] _ _ _ _ _ _ Un (uses_nil _ _ _ _ _ _)). exists (pillar (ni g) (fj + jp) (fi + ip)). split; [apply uses_nil|exact Eq].
  - rewrite (uses_functional _ _ [] _ _ _ _ _ _ Un (uses_nil _ _ _ _ _ _)). exists (pillar (ni g') (cj + jp) (ci + ip)). split; [apply uses_nil|symmetry; exact Eq].
Qed.
Print Assumptions C88_coarsened.

(** Faulted grids, and grids with K gaps, are refused. *)
Theorem C88_coarsened_refused : forall g s, g_has_split (gg g) = true \/ has_gaps g = true -> coarsened g s = Err AssertionError.
Proof. intros g s H. unfold coarsened. destruct (g_has_split (gg g)); [reflexivity|]. destruct H as [H|H]; [discriminate|]. rewrite H. reflexivity. Qed.
Print Assumptions C88_coarsened_refused.

(** Refining an unfaulted grid without gaps and coarsening the result by the same mapping gives the grid back. *)
Theorem C88_refined_then_coarsened : forall g s, g_has_split (gg g) = false -> has_gaps g = false -> Layers g -> FromCoarse g s ->
  exists g1 raws g2, refined_unfaulted g s = Ok (g1, raws) /\ coarsened g1 s = Ok g2 /\
    g_nk g2 = g_nk g /\ nj g2 = nj g /\ ni g2 = ni g /\
    forall k j i kp jp ip p, IsCell g k j i -> bit kp -> bit jp -> bit ip -> Corner g [] k j i kp jp ip p ->
      exists q, Corner g2 [] k j i kp jp ip q /\ Same q p.
Proof.
  intros g s HS HG La FC. destruct (C88_refined g s HS La FC) as (g1 & raws & E1 & P1 & S1 & L1 & Ek & Ej & Ei & Hg & _ & _ & Cr).
  destruct FC as ((PK & PJ & PI) & Ck & Cj & Ci). assert (V : ValidFC s) by (intros []; cbn [get]; [apply PK|apply PJ|apply PI]).
  destruct (C88_coarsened g1 s S1 ltac:(rewrite Hg; exact HG) ltac:(split; [exact V|]; auto)) as (g2 & E2 & P2 & L2 & _ & K2 & J2 & I2 & Cc).
  exists g1, raws, g2. split; [exact E1|]. split; [exact E2|]. split; [congruence|]. split; [congruence|]. split; [congruence|].
  intros k j i kp jp ip p Hc Bk Bj Bi Cp. pose proof Hc as (Hk & Hj & Hi). rewrite <- Ck in Hk. rewrite <- Cj in Hj. rewrite <- Ci in Hi.
  pose proof (extreme_exists _ k kp (V K) Hk Bk) as Xk. pose proof (extreme_exists _ j jp (V J) Hj Bj) as Xj. pose proof (extreme_exists _ i ip (V I) Hi Bi) as Xi. cbn [get] in *.
  assert (Fr : forall a c q, PropsOK a -> 0 <= c < coarse a -> bit q -> Fraction a c (start a (c + q) - q - start a c + q) (inject_Z q)).
  { intros a c q P H B. destruct (interp_len a c P H) as (pr & l & Ep & _ & Lp & _ & Sp & _). exists pr. split; [exact Ep|]. destruct B as [-> | ->].
    - replace (c + 0) with c by lia. replace (start a c - 0 - start a c + 0) with 0 by lia. reflexivity.
    - rewrite (start_next a c (proj1 P) H). rewrite firstn_all2 by lia. rewrite Sp. reflexivity. }
  set (cp := fun a b c => g_pts g (top_row g k + a) (pillar (ni g) (j + b) (i + c))).
  destruct (Cr k j i _ _ _ kp jp ip (inject_Z kp) (inject_Z jp) (inject_Z ip) Hc (conj (proj1 Xk) (conj (proj1 Xj) (proj1 Xi))) Bk Bj Bi
    (conj (Fr _ _ _ PK Hk Bk) (conj (Fr _ _ _ PJ Hj Bj) (Fr _ _ _ PI Hi Bi))) cp) as (q & Cq & Sq).
  { intros a b c _ _ _. exists (pillar (ni g) (j + b) (i + c)). split; [apply uses_nil|reflexivity]. }
  exists q. split.
  - apply (Cc k j i kp jp ip _ _ _ ltac:(unfold IsCell; rewrite K2, J2, I2; auto) Bk Bj Bi Xk Xj Xi q). exact Cq.
  - apply (same_trans _ _ _ Sq). destruct (C85_interpolation_ends cp kp jp ip Bk Bj Bi) as [Se _]. apply (same_trans _ _ _ Se).
    destruct Cp as (n & Un & ->). rewrite (uses_functional _ _ [] _ _ _ _ _ _ Un (uses_nil _ _ _ _ _ _)). apply same_refl.
Qed.
Print Assumptions C88_refined_then_coarsened.

(** ** Concrete cases *)
(** three layers with a gap below the first, two columns; layer 0 split in 2, layer 1 kept, layer 2 in 3 with
    proportions 1/2, 1/4, 1/4; columns split in 2 along i *)
Definition three : geo := Geo (SGrid 1 2 false [] [] []) 3 (Some [true; false])
  (fun r p => V (inject_Z (100 * (p mod 3))) (inject_Z (100 * (p / 3))) (inject_Z (10 * r + (p mod 3)))) None None.
Definition by_ratios : fc := FC (T
  (Ax 6 3 None (Some [2; 1; 3]) false (Some [[(1 # 2)%Q; (1 # 2)%Q]; [1%Q]; [(1 # 2)%Q; (1 # 4)%Q; (1 # 4)%Q]]))
  (Ax 1 1 (Some 1) None true None) (Ax 4 2 (Some 2) None true None)) None.
Example by_ratios_ok : FromCoarse three by_ratios.
Proof.
  assert (V1 : ValidAxis (tk (ax by_ratios))) by (constructor; [reflexivity|reflexivity|intros r Hr; vm_compute in Hr; intuition (subst; reflexivity)|reflexivity]).
  assert (V2 : ValidAxis (tj (ax by_ratios))) by (constructor; [reflexivity|reflexivity|intros r Hr; vm_compute in Hr; intuition (subst; reflexivity)|reflexivity]).
  assert (V3 : ValidAxis (ti (ax by_ratios))) by (constructor; [reflexivity|reflexivity|intros r Hr; vm_compute in Hr; intuition (subst; reflexivity)|reflexivity]).
  split; [|repeat split]. split; [|split; (split; [assumption|left; reflexivity])]. split; [exact V1|]. right. eexists. split; [reflexivity|]. split; [reflexivity|]. split; [reflexivity|].
  intros c Hc. change (coarse (tk (ax by_ratios))) with 3 in Hc. assert (c = 0 \/ c = 1 \/ c = 2) as [-> |[-> | ->]] by lia; (split; [reflexivity|]; split; [intros x Hx; vm_compute in Hx; intuition (subst; reflexivity)|reflexivity]).
Qed.
Example three_ok : g_has_split (gg three) = false /\ Layers three.
Proof. split; [reflexivity|]. split; [cbn; lia|]. intros l [= <-]. reflexivity. Qed.
Example three_refined : match refined_unfaulted three by_ratios with
  | Ok (g', raws) => g_gap_after g' = Some [false; true; false; false; false] /\ raws = [0; 1; 3; 4; 5; 6] /\
      map (fun r => Qred (vz (g_pts g' r 1))) (zrange 8) = [(1 # 2); (11 # 2); (21 # 2); (41 # 2); (61 # 2); (71 # 2); (38 # 1); (81 # 2)]%Q
  | Err _ => False end.
Proof. vm_compute. repeat split. Qed.
Example three_faulted_way : match refined_faulted_cp three by_ratios 3 0 1 1 0 0 with Ok (Some p) => Qred (vz p) = (71 # 2)%Q | _ => False end.
Proof. reflexivity. Qed.
(** four layers, coarsened to two *)
Definition four_layers : geo := Geo (SGrid 1 4 false [] [] []) 4 None (fun r p => V (inject_Z p) 0 (inject_Z r)) None None.
Definition halves : fc := FC (T (Ax 4 2 None (Some [1; 3]) true None) (Ax 1 1 (Some 1) None true None) (Ax 4 2 (Some 2) None true None)) None.
Example halves_ok : FromFine four_layers halves.
Proof. split; [|repeat split]. intros []; (constructor; [reflexivity|reflexivity|intros r Hr; vm_compute in Hr; intuition (subst; reflexivity)|reflexivity]). Qed.
Example halves_coarsened : match coarsened four_layers halves with Ok g' => map (fun r => map (fun p => g_pts g' r p) (zrange 3)) (zrange 3) =
  [[V 0 0 0; V 2 0 0; V 4 0 0]; [V 0 0 1; V 2 0 1; V 4 0 1]; [V 0 0 4; V 2 0 4; V 4 0 4]] | Err _ => False end.
Proof. reflexivity. Qed.
