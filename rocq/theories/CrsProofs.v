(** CrsProofs.v: specification and lemmas for CrsModel. *)
From Coq Require Import Reals Qreals RMicromega.
From Verif Require Import QBase StrModel StrProofs WamData WamModel WamProofs WamProps CrsModel.
From Coq Require Import Lra.
Open Scope R_scope.
Ltac ne := repeat split; solve [lra | apply Rgt_not_eq; lra | apply Rlt_not_eq; lra].

(** * Specification *)
(** What an axis order means: the eastward and northward components of (x, y). *)
Definition compass (o : axis_order) (v : R * R) : R * R :=
  let '(x, y) := v in
  match o with
  | EN => (x, y)        (* x is easting, y is northing *)
  | NE => (y, x)        (* x is northing, y is easting *)
  | WS => (- x, - y)    (* x is westing, y is southing *)
  | SW => (- y, - x)    (* x is southing, y is westing *)
  | NW => (- y, x)      (* x is northing, y is westing *)
  | WN => (- x, y)      (* x is westing, y is northing *)
  end.
(** turning a direction (east, north) clockwise on the map *)
Definition clockwise (theta : R) (v : R * R) : R * R :=
  (cos theta * fst v + sin theta * snd v, cos theta * snd v - sin theta * fst v).
Definition plus2 (a b : R * R) : R * R := (fst a + fst b, snd a + snd b).
(** size of a unit in terms of its base unit *)
Definition unit_scale (u : str) : R :=
  match get_conversion_factors u with Ok (_, _, (_, s, c, _)) => Q2R s / Q2R c | Err _ => 1 end.
(** A crs that passed the checks of the constructor. *)
Definition Valid (c : crs) : Prop := check_crs c = Ok tt.
(** The angle used, in radians. *)
Definition degrees (c : crs) : R := rotation c * (unit_scale (rotation_units c) / unit_scale (L "dega")).
Definition angle (c : crs) : R := if is_rotated (degrees c) then degrees c * PI / 180 else 0.
(** Where a local point is: eastward, northward and downward of the parent origin. *)
Definition position (c : crs) (p : point) : point :=
  let '(x, y, z) := p in
  let h := plus2 (compass (order c) (x_offset c, y_offset c)) (clockwise (angle c) (compass (order c) (x, y))) in
  (fst h, snd h, (if z_inc_down c then 1 else -1) * (z + z_offset c)).
(** ... in base units. *)
Definition z_scale (c : crs) : R := if is_time c then unit_scale (the (time_units c)) else unit_scale (z_units c).
Definition base_position (c : crs) (p : point) : point :=
  let '(e, n, d) := position c p in (unit_scale (xy_units c) * e, unit_scale (xy_units c) * n, z_scale c * d).

(** * Units *)
Lemma no_offsets_here : forallb (fun q => match assoc (L q) quantities with Some ms => forallb (fun u => match get_conversion_factors u with Ok (_, _, (a, _, _, _)) => Qeq_bool a 0 | _ => false end) ms | None => false end)
  ["length"; "time"; "plane angle"]%string = true.
Proof. vm_compute. reflexivity. Qed.
Definition valid_for (q : string) (u : str) : Prop := exists l, valid_uoms (Some (L q)) = Ok l /\ In u l.
Definition here (q : string) : Prop := In q ["length"; "time"; "plane angle"]%string.
Lemma here_ne q : here q -> L q <> [].
Proof. intros Iq. repeat destruct Iq as [<-|Iq]; [discriminate..|destruct Iq]. Qed.
Lemma valid_factors q u : here q -> valid_for q u ->
  exists b dim a s c d, get_conversion_factors u = Ok (b, dim, (a, s, c, d)) /\ Q2R a = 0 /\ Q2R d = 0 /\ 0 < Q2R s /\ 0 < Q2R c /\ a == 0%Q /\ d == 0%Q.
Proof.
  intros Iq [l [E I]]. assert (Nq := here_ne q Iq). assert (T := proj1 (forallb_forall _ _) no_offsets_here _ Iq). cbv beta in T.
  unfold valid_uoms in E. destruct (str_eqb_spec (L q) []) as [Z|_]; [contradiction|].
  destruct (assoc (L q) quantities) as [ms|]; [|discriminate]. injection E as E. rewrite <- E in I. apply filter_In in I. destruct I as [_ M]. apply mem_In in M.
  assert (Tu := proj1 (forallb_forall _ _) T _ M). cbv beta in Tu. destruct (get_conversion_factors u) as [[[b dim] [[[a s] c] d]]|] eqn:G; [|discriminate].
  destruct (factors_good _ _ _ _ _ _ _ G) as (Z & P & Q & _). apply Qeq_bool_eq in Tu.
  exists b, dim, a, s, c, d. split; [reflexivity|]. split; [rewrite (Qeq_eqR _ _ Tu); exact RMicromega.Q2R_0|].
  assert (Z' : (d == 0)%Q) by exact Z. split; [rewrite (Qeq_eqR _ _ Z'); exact RMicromega.Q2R_0|].
  assert (R0 := RMicromega.Q2R_0). repeat split; [| |assumption|assumption]; rewrite <- R0; apply Qlt_Rlt; assumption.
Qed.
Lemma scale_pos q u : here q -> valid_for q u -> 0 < unit_scale u.
Proof.
  intros Iq V. destruct (valid_factors q u Iq V) as (b & dim & a & s & c & d & G & _ & _ & Ps & Pc & _). unfold unit_scale. rewrite G. apply Rdiv_lt_0_compat; assumption.
Qed.
Lemma convertR_valid q u v x i : here q -> valid_for q u -> valid_for q v -> convertR x u v (Some (L q)) i = Ok (x * (unit_scale u / unit_scale v)).
Proof.
  intros Iq Vu Vv. assert (Pu := scale_pos q u Iq Vu). assert (Pv := scale_pos q v Iq Vv).
  destruct (valid_factors q u Iq Vu) as (b & dim & a & s & c & d & G & A & D & Ps & Pc & Az & Dz).
  destruct (valid_factors q v Iq Vv) as (b2 & dim2 & a2 & s2 & c2 & d2 & G2 & A2 & D2 & Ps2 & Pc2 & Az2 & Dz2).
  destruct Vu as [l [E Iu]], Vv as [l' [E' Iv]]. rewrite E in E'. injection E' as <-.
  destruct (C56_units_of_a_quantity 1%Q (L q) l u v (here_ne q Iq) E Iu Iv) as [y H].
  assert (Ru := C57_valid_units_of_a_quantity_unchanged _ _ _ E Iu). assert (Rv := C57_valid_units_of_a_quantity_unchanged _ _ _ E Iv).
  assert (Dm : dim = dim2).
  { assert (OK : is_ok (convert 1%Q u v (Some (L q)) false) = true) by exact (f_equal is_ok H). apply C56_when_possible in OK. destruct OK as (u' & v' & E1 & E2 & DD & _).
    assert (X1 := eq_trans (eq_sym Ru) E1). assert (X2 := eq_trans (eq_sym Rv) E2). injection X1 as <-. injection X2 as <-.
    rewrite (gcf_dim _ _ _ _ G), (gcf_dim _ _ _ _ G2) in DD. now injection DD. }
  subst dim2. unfold convertR. rewrite Ru, Rv. cbn [bind]. destruct (str_eqb_spec u v) as [<-|N]; [f_equal; field; ne|].
  rewrite G, G2. cbn [bind]. rewrite str_eqb_refl, andb_false_r. unfold unit_scale. rewrite G, G2. destruct i; cbn [negb].
  - assert (X : existsb (fun f => negb (Qeq_bool f 0%Q)) [a; a2; d; d2] = false).
    { cbn [existsb]. rewrite !(proj2 (Qeq_bool_iff _ _)) by assumption. reflexivity. }
    rewrite X. unfold rdiv. destruct (Req_EM_T (Q2R c * Q2R s2) 0) as [Z|_]; [apply Rmult_integral in Z; lra|]. cbn [bind]. f_equal. field; ne.
  - unfold rdiv. rewrite D, D2, A, A2. destruct (Req_EM_T (Q2R c + 0 * x) 0) as [Z|_]; [lra|]. cbn [bind].
    destruct (Req_EM_T (0 * ((0 + Q2R s * x) / (Q2R c + 0 * x)) - Q2R s2) 0) as [Z|_]; [lra|]. f_equal. field; ne.
Qed.

(** * The transforms in closed form *)
Record Good (c : crs) : Prop := {
  good_xy : valid_for "length" (xy_units c); good_z : valid_for "length" (z_units c);
  good_r : valid_for "plane angle" (rotation_units c); good_t : is_time c = true -> valid_for "time" (the (time_units c)) }.
Lemma valid_good c : Valid c -> Good c.
Proof.
  unfold Valid, check_crs. intros H. destruct (valid_uoms (Some (L "length"))) as [lu|] eqn:El; [|discriminate]. cbn [bind] in H.
  destruct (mem (xy_units c) lu) eqn:M1; [|discriminate]. cbn [assert_ bind] in H.
  destruct (str_eqb (z_units c) (xy_units c) || mem (z_units c) lu) eqn:M2; [|discriminate]. cbn [assert_ bind] in H.
  destruct (valid_uoms (Some (L "plane angle"))) as [au|] eqn:Ea; [|discriminate]. cbn [bind] in H. destruct (mem (rotation_units c) au) eqn:M3; [|discriminate]. cbn [assert_ bind] in H.
  apply mem_In in M1, M3. split.
  - exists lu. auto.
  - exists lu. split; [exact El|]. apply orb_true_iff in M2. destruct M2 as [M2|M2]; [apply str_eqb_eq in M2; now rewrite M2|now apply mem_In].
  - exists au. auto.
  - unfold is_time, ofs, the. destruct (time_units c) as [[|t0 t]|]; try discriminate. intros _. destruct (valid_uoms (Some (L "time"))) as [tu|] eqn:Et; [|discriminate]. cbn [bind] in H.
    exists tu. split; [exact Et|]. destruct (mem (t0 :: t) tu) eqn:M; [now apply mem_In|discriminate].
Qed.
Lemma dega_valid : valid_for "plane angle" (L "dega").
Proof. eexists. split; [vm_compute; reflexivity|]. apply mem_In. vm_compute. reflexivity. Qed.
Lemma rotation_deg_eq c : Good c -> rotation_deg c = Ok (degrees c).
Proof. intros G. unfold rotation_deg. apply (convertR_valid "plane angle"); [do 2 right; now left|apply good_r; exact G|exact dega_valid]. Qed.
(** the sine with the sign that goes with the axis order *)
Definition sn (c : crs) : R := if is_right_handed_xy c then - sin (angle c) else sin (angle c).
Definition cs (c : crs) : R := cos (angle c).
Lemma cs_sn c : cs c * cs c + sn c * sn c = 1.
Proof. unfold cs, sn. assert (H := sin2_cos2 (angle c)). unfold Rsqr in H. destruct (is_right_handed_xy c); lra. Qed.
Lemma switch_same o x y : switch_axes o o x y = (x, y).
Proof. unfold switch_axes, row_times, matmul2, transpose2, axis_reordering. destruct o; cbn [fst snd]; f_equal; lra. Qed.
Lemma maybe_switch a b o1 o2 x y : (a = o1 /\ b = o2) \/ (a = o2 /\ b = o1) -> (if negb (axis_order_eqb a b) then switch_axes o1 o2 x y else (x, y)) = switch_axes o1 o2 x y.
Proof.
  intros H. destruct (axis_order_eqb a b) eqn:E; [|reflexivity]. assert (a = b) by (destruct a, b; cbn in E; congruence). cbn.
  destruct H as [[<- <-]|[<- <-]]; subst; now rewrite switch_same.
Qed.
Lemma maybe_sub o x : (if neq0 o then x - o else x) = x - o.
Proof. unfold neq0. destruct (Req_EM_T o 0) as [->|]; [lra|reflexivity]. Qed.
Lemma maybe_add o x : (if neq0 o then x + o else x) = x + o.
Proof. unfold neq0. destruct (Req_EM_T o 0) as [->|]; [lra|reflexivity]. Qed.
Definition zsign (c : crs) (g : bool) : R := if Bool.eqb g (z_inc_down c) then 1 else -1.
Lemma zsign2 c g : zsign c g * zsign c g = 1.
Proof. unfold zsign. destruct (Bool.eqb g (z_inc_down c)); lra. Qed.
Lemma maybe_neg c g x : (if negb (Bool.eqb g (z_inc_down c)) then - x else x) = zsign c g * x.
Proof. unfold zsign. destruct (Bool.eqb g (z_inc_down c)); cbn; lra. Qed.
Definition sw (f t : axis_order) (v : R * R) : R * R := switch_axes f t (fst v) (snd v).
Lemma l2g c x y z gz go : Good c -> local_to_global c (x, y, z) gz go =
  let h := sw (order c) go (cs c * x + sn c * y + x_offset c, cs c * y - sn c * x + y_offset c) in
  Ok (fst h, snd h, zsign c gz * (z + z_offset c)).
Proof.
  intros G. unfold local_to_global, rotation_matrices. rewrite (rotation_deg_eq c G). cbn [bind]. unfold cs, sn, angle, sw.
  destruct (is_rotated (degrees c)); cbn [bind].
  - destruct (is_right_handed_xy c); unfold rotate_vector, rotation_matrix_z, dot3; cbv beta iota; rewrite !maybe_add, maybe_neg;
      rewrite (maybe_switch _ _ (order c) go) by (left; split; reflexivity);
      replace (- degrees c * PI / 180) with (- (degrees c * PI / 180)) by (unfold Rdiv; ring); rewrite ?cos_neg, ?sin_neg; cbn [fst snd];
      match goal with |- context [let '(_, _) := switch_axes _ _ ?a ?b in _] => match goal with |- context [fst (switch_axes _ _ ?c ?d)] =>
        replace a with c by ring; replace b with d by ring end end; destruct (switch_axes _ _ _ _); cbn [fst snd]; do 2 f_equal; ring.
  - cbv beta iota. rewrite !maybe_add, maybe_neg. rewrite (maybe_switch _ _ (order c) go) by (left; split; reflexivity). rewrite cos_0, sin_0.
    cbn [fst snd]. replace (if is_right_handed_xy c then - 0 else 0) with 0 by (destruct (is_right_handed_xy c); ring).
    replace (1 * x + 0 * y + x_offset c) with (x + x_offset c) by ring. replace (1 * y - 0 * x + y_offset c) with (y + y_offset c) by ring.
    destruct (switch_axes _ _ _ _). reflexivity.
Qed.
Lemma g2l c x y z gz go : Good c -> global_to_local c (x, y, z) gz go =
  let h := sw go (order c) (x, y) in let u := fst h - x_offset c in let v := snd h - y_offset c in
  Ok (cs c * u - sn c * v, cs c * v + sn c * u, zsign c gz * z - z_offset c).
Proof.
  intros G. unfold global_to_local, rotation_matrices. rewrite (rotation_deg_eq c G). cbn [bind]. unfold cs, sn, angle, sw. cbn [fst snd].
  rewrite (maybe_switch _ _ go (order c)) by (right; split; reflexivity). destruct (switch_axes go (order c) x y) as [u v]. rewrite !maybe_sub, maybe_neg.
  cbn [fst snd]. destruct (is_rotated (degrees c)); cbn [bind].
  - destruct (is_right_handed_xy c); unfold rotate_vector, rotation_matrix_z, dot3;
      replace (- degrees c * PI / 180) with (- (degrees c * PI / 180)) by (unfold Rdiv; ring); rewrite ?cos_neg, ?sin_neg; do 2 f_equal; [f_equal| |f_equal|]; ring.
  - rewrite cos_0, sin_0. destruct (is_right_handed_xy c); do 2 f_equal; [f_equal|f_equal]; ring.
Qed.
Lemma sw_sw f t v : sw t f (sw f t v) = v.
Proof.
  destruct v as [x y]. unfold sw, switch_axes, row_times, matmul2, transpose2, axis_reordering. destruct f, t; cbn [fst snd]; f_equal; ring.
Qed.
Lemma sw_EN f v : sw f EN v = compass f v.
Proof. destruct v as [x y]. unfold sw, switch_axes, row_times, matmul2, transpose2, axis_reordering, compass. destruct f; cbn [fst snd]; f_equal; ring. Qed.
Lemma compass_add o u v : compass o (plus2 u v) = plus2 (compass o u) (compass o v).
Proof. destruct u, v. unfold compass, plus2. destruct o; cbn [fst snd]; f_equal; ring. Qed.
Lemma compass_turn c x y : compass (order c) (cs c * x + sn c * y, cs c * y - sn c * x) = clockwise (angle c) (compass (order c) (x, y)).
Proof.
  unfold compass, clockwise, cs, sn, is_right_handed_xy. destruct (order c); cbn [fst snd]; f_equal; ring.
Qed.
Lemma l2g_position c p : Good c -> local_to_global c p true EN = Ok (position c p).
Proof.
  intros G. destruct p as [[x y] z]. rewrite (l2g c x y z true EN G). cbv zeta. unfold position. rewrite <- compass_turn, <- compass_add. unfold plus2. cbn [fst snd].
  rewrite sw_EN. replace (x_offset c + (cs c * x + sn c * y)) with (cs c * x + sn c * y + x_offset c) by ring.
  replace (y_offset c + (cs c * y - sn c * x)) with (cs c * y - sn c * x + y_offset c) by ring.
  unfold zsign. destruct (z_inc_down c); reflexivity.
Qed.
(** both round trips *)
Lemma round_gl c p gz go : Good c -> (do q <- global_to_local c p gz go; local_to_global c q gz go) = Ok p.
Proof.
  intros G. destruct p as [[x y] z]. rewrite (g2l c x y z gz go G). cbv zeta. cbn [bind]. rewrite (l2g c _ _ _ gz go G). cbv zeta.
  assert (H := cs_sn c). assert (Hz := zsign2 c gz). destruct (sw go (order c) (x, y)) as [u v] eqn:E. cbn [fst snd].
  replace (cs c * (cs c * (u - x_offset c) - sn c * (v - y_offset c)) + sn c * (cs c * (v - y_offset c) + sn c * (u - x_offset c)) + x_offset c) with ((cs c * cs c + sn c * sn c) * (u - x_offset c) + x_offset c) by ring.
  replace (cs c * (cs c * (v - y_offset c) + sn c * (u - x_offset c)) - sn c * (cs c * (u - x_offset c) - sn c * (v - y_offset c)) + y_offset c) with ((cs c * cs c + sn c * sn c) * (v - y_offset c) + y_offset c) by ring.
  rewrite H. replace (1 * (u - x_offset c) + x_offset c) with u by ring. replace (1 * (v - y_offset c) + y_offset c) with v by ring.
  rewrite <- E, sw_sw. cbn [fst snd]. do 2 f_equal. replace (zsign c gz * (zsign c gz * z - z_offset c + z_offset c)) with (zsign c gz * zsign c gz * z) by ring. rewrite Hz. ring.
Qed.
Lemma round_lg c p gz go : Good c -> (do q <- local_to_global c p gz go; global_to_local c q gz go) = Ok p.
Proof.
  intros G. destruct p as [[x y] z]. rewrite (l2g c x y z gz go G). cbv zeta. cbn [bind]. rewrite (g2l c _ _ _ gz go G). cbv zeta.
  assert (H := cs_sn c). assert (Hz := zsign2 c gz).
  match goal with |- context [sw go (order c) (fst ?h, snd ?h)] => replace (sw go (order c) (fst h, snd h)) with (sw go (order c) h) by (destruct h; reflexivity) end.
  rewrite sw_sw. cbn [fst snd]. f_equal. f_equal; [f_equal|].
  - replace (cs c * (cs c * x + sn c * y + x_offset c - x_offset c) - sn c * (cs c * y - sn c * x + y_offset c - y_offset c)) with ((cs c * cs c + sn c * sn c) * x) by ring. rewrite H. ring.
  - replace (cs c * (cs c * y - sn c * x + y_offset c - y_offset c) + sn c * (cs c * x + sn c * y + x_offset c - x_offset c)) with ((cs c * cs c + sn c * sn c) * y) by ring. rewrite H. ring.
  - replace (zsign c gz * (zsign c gz * (z + z_offset c)) - z_offset c) with (zsign c gz * zsign c gz * (z + z_offset c) - z_offset c) by ring. rewrite Hz. ring.
Qed.
Lemma l2g_ok c p gz go : Good c -> exists q, local_to_global c p gz go = Ok q.
Proof. intros G. destruct p as [[x y] z]. rewrite (l2g c x y z gz go G). eexists. reflexivity. Qed.
Lemma g2l_ok c p gz go : Good c -> exists q, global_to_local c p gz go = Ok q.
Proof. intros G. destruct p as [[x y] z]. rewrite (g2l c x y z gz go G). eexists. reflexivity. Qed.
Lemma g2l_position c p q : Good c -> global_to_local c p true EN = Ok q <-> position c q = p.
Proof.
  intros G. split; intros H.
  - assert (R := round_gl c p true EN G). rewrite H in R. cbn [bind] in R. rewrite (l2g_position c q G) in R. now injection R.
  - assert (R := round_lg c q true EN G). rewrite (l2g_position c q G) in R. cbn [bind] in R. now rewrite <- H.
Qed.
Lemma position_inj c p q : Good c -> position c p = position c q -> p = q.
Proof.
  intros G H. apply (proj2 (g2l_position c _ p G)) in H as H1. rewrite (proj2 (g2l_position c _ q G) eq_refl) in H1. now injection H1.
Qed.
(** conversion, in terms of positions *)
Lemma z_scale_pos c : Good c -> 0 < z_scale c.
Proof.
  intros G. unfold z_scale. destruct (is_time c) eqn:T; [apply (scale_pos "time"); [right; now left|now apply good_t]|apply (scale_pos "length"); [now left|now apply good_z]].
Qed.
Lemma xy_scale_pos c : Good c -> 0 < unit_scale (xy_units c).
Proof. intros G. apply (scale_pos "length"); [now left|now apply good_xy]. Qed.
Definition rescale (a b : crs) (p : point) : point :=
  let '(e, n, d) := p in let k := unit_scale (xy_units a) / unit_scale (xy_units b) in (e * k, n * k, d * (z_scale a / z_scale b)).
Lemma convert_to_eq a b p : Good a -> Good b -> is_time a = is_time b -> convert_to a b false p = global_to_local b (rescale a b (position a p)) true EN.
Proof.
  intros Ga Gb T. unfold convert_to. rewrite T, eqb_reflx. cbn [assert_ bind]. rewrite (l2g_position a p Ga). cbn [bind]. destruct (position a p) as [[x y] z].
  unfold convert_lengthsR, convert_timesR. assert (Hl : here "length") by (now left). assert (Ht : here "time") by (right; now left).
  rewrite !(convertR_valid "length" (xy_units a) (xy_units b)) by (try exact Hl; now apply good_xy). cbn [bind].
  unfold rescale, z_scale. destruct (is_time b) eqn:Tb.
  - rewrite (convertR_valid "time") by (try exact Ht; now apply good_t). cbn [bind]. rewrite T. reflexivity.
  - rewrite (convertR_valid "length") by (try exact Hl; now apply good_z). cbn [bind]. rewrite T. reflexivity.
Qed.
Lemma rescale_base a b e f : Good a -> Good b ->
  f = rescale a b e <-> (let '(x, y, z) := f in (unit_scale (xy_units b) * x, unit_scale (xy_units b) * y, z_scale b * z)) = (let '(x, y, z) := e in (unit_scale (xy_units a) * x, unit_scale (xy_units a) * y, z_scale a * z)).
Proof.
  intros Ga Gb. assert (A := xy_scale_pos a Ga). assert (B := xy_scale_pos b Gb). assert (A' := z_scale_pos a Ga). assert (B' := z_scale_pos b Gb).
  destruct e as [[x y] z], f as [[u v] w]. unfold rescale. split.
  - intros [= -> -> ->]. f_equal; [f_equal|]; field; ne.
  - intros [= H1 H2 H3]. f_equal; [f_equal|].
    + apply (Rmult_eq_reg_l (unit_scale (xy_units b))); [rewrite H1; field; ne|lra].
    + apply (Rmult_eq_reg_l (unit_scale (xy_units b))); [rewrite H2; field; ne|lra].
    + apply (Rmult_eq_reg_l (z_scale b)); [rewrite H3; field; ne|lra].
Qed.
Lemma convert_to_spec a b p q : Good a -> Good b -> is_time a = is_time b -> convert_to a b false p = Ok q <-> base_position b q = base_position a p.
Proof.
  intros Ga Gb T. rewrite (convert_to_eq a b p Ga Gb T), (g2l_position b _ q Gb), (rescale_base a b _ _ Ga Gb).
  unfold base_position. destruct (position a p) as [[x y] z], (position b q) as [[u v] w]. reflexivity.
Qed.
Lemma convert_to_ok a b p : Good a -> Good b -> is_time a = is_time b -> exists q, convert_to a b false p = Ok q.
Proof. intros Ga Gb T. rewrite (convert_to_eq a b p Ga Gb T). now apply g2l_ok. Qed.
Lemma convert_from_is a b s p : convert_from a b s p = convert_to b a s p.
Proof.
  unfold convert_from, convert_to. destruct s; [reflexivity|]. destruct (is_time a), (is_time b); reflexivity.
Qed.
