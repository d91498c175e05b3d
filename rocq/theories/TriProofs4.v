(** TriProofs4.v: many triangles, unified sampling and the aligned mesh. *)
From Verif Require Import QBase TriModel TriProofs TriProofs2 TriProofs3.

(** ** Numbered triangles *)
Lemma number_from_rows {A B} (num : B -> Z) (g : Z -> A -> res (list B)) (Q1 : A -> B -> Prop) base l :
  (forall k t, In t l -> exists r, g k t = Ok r /\ NoDup r /\ (forall b, In b r <-> num b = k /\ Q1 t b)) ->
  exists rows, number_from g base l = Ok rows /\ NoDup rows /\
    forall b, In b rows <-> (base <= num b)%Z /\ exists t, nth_error l (Z.to_nat (num b - base)) = Some t /\ Q1 t b.
Proof.
  revert base. induction l as [|t l IH]; intros base H.
  - exists []. split; [reflexivity|]. split; [constructor|]. intros b. split; [intros []|]. intros [_ (t & E & _)]. destruct (Z.to_nat _); discriminate.
  - destruct (H base t ltac:(now left)) as (r & E & ND & HR). destruct (IH (base + 1)%Z) as (rs & ES & NDS & HS); [intros; apply H; now right|].
    change (t :: l) with ([t] ++ l). rewrite number_from_app. exists (r ++ rs). split; [|split].
    + unfold number_from at 1. cbn [indexed mapM fst snd]. rewrite E. cbn [bind mapM]. cbn [List.length]. change (Z.of_nat 1) with 1%Z. rewrite ES. cbn [bind List.concat]. now rewrite app_nil_r.
    + apply NoDup_app2; auto. intros b H1 H2. apply HR in H1. apply HS in H2. lia.
    + intros b. rewrite in_app_iff, HR, HS. split.
      * intros [[E1 H1]|[E1 (t' & E2 & H2)]].
        -- split; [lia|]. exists t. rewrite E1, Z.sub_diag. split; [reflexivity|exact H1].
        -- split; [lia|]. exists t'. split; [|exact H2]. replace (Z.to_nat (num b - base)) with (S (Z.to_nat (num b - (base + 1)))) by lia. exact E2.
      * intros [E1 (t' & E2 & H2)]. destruct (Z.eq_dec (num b) base) as [Eb|Eb].
        -- left. split; [exact Eb|]. rewrite Eb, Z.sub_diag in E2. cbn in E2. injection E2 as ->. exact H2.
        -- right. split; [lia|]. exists t'. split; [|exact H2]. replace (Z.to_nat (num b - base)) with (S (Z.to_nat (num b - (base + 1)))) in E2 by lia. exact E2.
Qed.

(** ** Scaling *)
Definition mesh_point (dx dy : Q) (x y : Z) : pt2 := ((inject_Z x + (1 # 2)) * dx, (inject_Z y + (1 # 2)) * dy).
Lemma hull_normalise dx dy a b c x y : ~ dx == 0 -> ~ dy == 0 ->
  (Hull (fst a / dx - (1 # 2), snd a / dy - (1 # 2)) (fst b / dx - (1 # 2), snd b / dy - (1 # 2)) (fst c / dx - (1 # 2), snd c / dy - (1 # 2)) (inject_Z x, inject_Z y)
   <-> Hull a b c (mesh_point dx dy x y)).
Proof.
  intros NX NY. unfold Hull, mesh_point. cbn [fst snd]. split; intros (u & v & w & Hu & Hv & Hw & H1 & H2 & H3); exists u, v, w; (split; [exact Hu|]); (split; [exact Hv|]); (split; [exact Hw|]); (split; [exact H1|]).
  - assert (Eu : u == 1 - v - w) by lra. rewrite H2, H3. rewrite !Eu. split; field; assumption.
  - assert (Eu : u == 1 - v - w) by lra. split.
    + transitivity ((inject_Z x + (1 # 2)) * dx / dx - (1 # 2)); [field; assumption|]. rewrite H2. rewrite !Eu. field. assumption.
    + transitivity ((inject_Z y + (1 # 2)) * dy / dy - (1 # 2)); [field; assumption|]. rewrite H3. rewrite !Eu. field. assumption.
Qed.
Lemma all_x_normalise dx dy a b c : ~ dx == 0 ->
  (all_x_equal (fst a / dx - (1 # 2), snd a / dy - (1 # 2)) (fst b / dx - (1 # 2), snd b / dy - (1 # 2)) (fst c / dx - (1 # 2), snd c / dy - (1 # 2)) <-> all_x_equal a b c).
Proof.
  intros NX. unfold all_x_equal. cbn [fst snd].
  assert (G : forall p q, p / dx - (1 # 2) == q / dx - (1 # 2) <-> p == q).
  { intros p q. split; intros H.
    - transitivity (p / dx * dx); [field; assumption|]. transitivity (q / dx * dx); [|field; assumption]. setoid_replace (p / dx) with (q / dx) by lra. reflexivity.
    - rewrite H. reflexivity. }
  now rewrite !G.
Qed.

(** ** Unified sampling *)
Definition Hull3 (t : tri3) (ax ay az : Z) (x y z : Q) : Prop :=
  let '(a, b, c) := t in
  exists u v w, 0 <= u /\ 0 <= v /\ 0 <= w /\ u + v + w == 1 /\
    x == u * coord a ax + v * coord b ax + w * coord c ax /\
    y == u * coord a ay + v * coord b ay + w * coord c ay /\
    z == u * coord a az + v * coord b az + w * coord c az.
Definition proj (ax ay : Z) (p : pt3) : pt2 := (coord p ax, coord p ay).
Definition icept3 (ax ay az : Z) (x : Q) (p q : pt3) : option (Q * Q) :=
  vertical_intercept_nan_yz x (coord p ax) (coord q ax) (coord p ay) (coord q ay) (coord p az) (coord q az).
Lemma icept3_fst ax ay az x p q : option_map fst (icept3 ax ay az x p q) = icept x (proj ax ay p) (proj ax ay q).
Proof.
  unfold icept3, icept, vertical_intercept_nan_yz, vertical_intercept_nan, proj. cbn [fst snd].
  destruct (coord q ax <b coord p ax); destruct (_ && _); try reflexivity; destruct (Qeq_bool _ _); reflexivity.
Qed.
Lemma icept3_segment ax ay az x p q y z : icept3 ax ay az x p q = Some (y, z) ->
  exists s, 0 <= s <= 1 /\ x == (1 - s) * coord p ax + s * coord q ax /\ y == (1 - s) * coord p ay + s * coord q ay /\ z == (1 - s) * coord p az + s * coord q az.
Proof.
  unfold icept3, vertical_intercept_nan_yz. generalize (coord p ax) (coord q ax) (coord p ay) (coord q ay) (coord p az) (coord q az). intros px qx py qy pz qz.
  destruct (Qltb_spec qx px) as [L|L].
  - destruct (Qleb_spec' qx x) as [B1|]; [|discriminate]. destruct (Qleb_spec' x px) as [B2|]; [|discriminate]. cbn [andb].
    destruct (Qeq_bool qx px) eqn:E; [apply Qeq_bool_iff in E; lra|]. intros H. injection H as <- <-.
    exists ((px - x) / (px - qx)). repeat split; [apply Qle_shift_div_l; lra|apply Qle_shift_div_r; lra|field; lra|field; lra|field; lra].
  - destruct (Qleb_spec' px x) as [B1|]; [|discriminate]. destruct (Qleb_spec' x qx) as [B2|]; [|discriminate]. cbn [andb].
    destruct (Qeq_bool px qx) eqn:E.
    + intros H. injection H as <- <-. apply Qeq_bool_iff in E. exists 0. repeat split; lra.
    + intros H. injection H as <- <-. assert (~ px == qx) by (intros F; apply Qeq_bool_iff in F; congruence).
      exists ((x - px) / (qx - px)). repeat split; [apply Qle_shift_div_l; lra|apply Qle_shift_div_r; lra|field; lra|field; lra|field; lra].
Qed.
Definition es (ax ay az : Z) (x : Q) (a b c : pt3) : list (option (Q * Q)) := [icept3 ax ay az x b c; icept3 ax ay az x a b; icept3 ax ay az x a c].
Lemma icept3_hull ax ay az x a b c y z : In (Some (y, z)) (es ax ay az x a b c) -> Hull3 (a, b, c) ax ay az x y z.
Proof.
  intros [E|[E|[E|[]]]]; apply icept3_segment in E; destruct E as (s & HS & HX & HY & HZ).
  - exists 0, (1 - s), s. repeat split; try lra.
  - exists (1 - s), s, 0. repeat split; try lra.
  - exists (1 - s), 0, s. repeat split; try lra.
Qed.
Lemma unified_ends_spec e0 e1 e2 :
  match unified_ends e0 e1 e2 with
  | None => e0 = None /\ e1 = None /\ e2 = None
  | Some (lo, hi) => In (Some lo) [e0; e1; e2] /\ In (Some hi) [e0; e1; e2] /\
      nanmin (map (option_map fst) [e0; e1; e2]) = Some (fst lo) /\
      exists m, nanmax (map (option_map fst) [e0; e1; e2]) = Some m /\ m == fst hi
  end.
Proof.
  unfold nanmin, nanmax.
  destruct e0 as [[y0 z0]|], e1 as [[y1 z1]|], e2 as [[y2 z2]|];
    cbn [unified_ends fst snd map option_map fold_left nan2 In]; unfold Qminb, Qmaxb, Qltb;
    repeat match goal with |- context[?p <=b ?q] => destruct (Qleb_spec' p q); cbn [negb fst snd] end;
    repeat split; auto; try (eexists; split; [reflexivity|]; lra); try lra.
Qed.
(** the rows are those of the projected triangle; each z is on the triangle *)
Definition unified_cell_ok (t : tri3) (ax ay az : Z) (rz : row * Q) : Prop :=
  let '((k, y, x), z) := rz in Hull3 t ax ay az (inject_Z x) (inject_Z y) z.
Lemma unified_column_spec ny ax ay az k a b c xi :
  match unified_column ny ax ay az k (a, b, c) xi with
  | Ok r => triangle_column ny k (proj ax ay a, proj ax ay b, proj ax ay c) xi = Ok (map fst r) /\ Forall (unified_cell_ok (a, b, c) ax ay az) r
  | Err e => triangle_column ny k (proj ax ay a, proj ax ay b, proj ax ay c) xi = Err e
  end.
Proof.
  unfold unified_column, triangle_column.
  fold (icept (inject_Z xi) (proj ax ay b) (proj ax ay c)) (icept (inject_Z xi) (proj ax ay a) (proj ax ay b)) (icept (inject_Z xi) (proj ax ay a) (proj ax ay c)).
  fold (icept3 ax ay az (inject_Z xi) b c) (icept3 ax ay az (inject_Z xi) a b) (icept3 ax ay az (inject_Z xi) a c).
  rewrite <- !(icept3_fst ax ay az).
  pose proof (unified_ends_spec (icept3 ax ay az (inject_Z xi) b c) (icept3 ax ay az (inject_Z xi) a b) (icept3 ax ay az (inject_Z xi) a c)) as S0.
  pose proof (fun y z => icept3_hull ax ay az (inject_Z xi) a b c y z) as HH. unfold es in HH.
  destruct (unified_ends _ _ _) as [[[fy fz] [cy cz]]|] eqn:EU.
  - destruct S0 as (I1 & I2 & EM & m & EX & Em). cbn [map fst] in EM, EX. rewrite EM, EX. cbn [fst] in *.
    apply HH in I1, I2.
    assert (EF : Qfloor m = Qfloor cy) by (now rewrite Em). rewrite EF. split.
    + f_equal. rewrite map_map. apply map_ext. reflexivity.
    + rewrite Forall_forall. intros [[[k' y] x] z] Hin. apply in_map_iff in Hin. destruct Hin as (y' & E & Hy). injection E as <- <- <- Ez.
      apply in_zrange2 in Hy. assert (G1 : (Qceiling fy <= y')%Z) by lia. assert (G2 : (y' <= Qfloor cy)%Z) by lia. apply Qceiling_iff in G1. apply Qfloor_iff in G2.
      unfold unified_cell_ok. clear - I1 I2 G1 G2 Ez. destruct I1 as (u & v & w & Hu & Hv & Hw & H1 & H2 & H3 & H4), I2 as (u' & v' & w' & Hu' & Hv' & Hw' & H1' & H2' & H3' & H4').
      set (s := if 0 <b cy - fy then (inject_Z y' - fy) / (cy - fy) else 0).
      assert (HS : 0 <= s <= 1 /\ inject_Z y' == (1 - s) * fy + s * cy /\ z == (1 - s) * fz + s * cz).
      { unfold s. destruct (Qltb_spec 0 (cy - fy)) as [D|D].
        - split; [split; [apply Qle_shift_div_l; lra|apply Qle_shift_div_r; lra]|]. split; [field; lra|]. rewrite <- Ez. field. lra.
        - split; [lra|]. split; [lra|]. rewrite <- Ez. setoid_replace (inject_Z y' - fy) with 0 by lra. lra. }
      clearbody s. destruct HS as ([S0 S1] & SY & SZ).
      assert (P : forall i j, 0 <= i -> 0 <= j -> 0 <= (1 - s) * i + s * j).
      { intros i j Hi Hj. assert (0 <= (1 - s) * i) by (apply Qmult_le_0_compat; lra). assert (0 <= s * j) by (apply Qmult_le_0_compat; lra). lra. }
      exists ((1 - s) * u + s * u'), ((1 - s) * v + s * v'), ((1 - s) * w + s * w').
      split; [now apply P|]. split; [now apply P|]. split; [now apply P|]. split; [|split; [|split]].
      * transitivity ((1 - s) * (u + v + w) + s * (u' + v' + w')); [ring|]. rewrite H1, H1'. ring.
      * transitivity ((1 - s) * inject_Z xi + s * inject_Z xi); [ring|]. rewrite H2 at 1. rewrite H2'. ring.
      * rewrite SY, H3, H3'. ring.
      * rewrite SZ, H4, H4'. ring.
  - destruct S0 as (E1 & E2 & E3). rewrite E1, E2, E3. reflexivity.
Qed.
Lemma mapM_unified {A B C} (f : A -> res (list B)) (g : A -> res (list C)) (h : B -> C) (P : A -> B -> Prop) l :
  (forall a, In a l -> match f a with Ok r => g a = Ok (map h r) /\ Forall (P a) r | Err e => g a = Err e end) ->
  match mapM f l with
  | Ok rs => mapM g l = Ok (map (map h) rs) /\ Forall2 (fun a r => Forall (P a) r) l rs
  | Err e => mapM g l = Err e
  end.
Proof.
  induction l as [|a l IH]; intros H; cbn [mapM]; [split; [reflexivity|constructor]|].
  pose proof (H a ltac:(now left)) as Ha. destruct (f a) as [r|e]; [|rewrite Ha; reflexivity]. destruct Ha as [-> HP]. cbn [bind].
  specialize (IH (fun b Hb => H b (or_intror Hb))). destruct (mapM f l) as [rs|e]; [|rewrite IH; reflexivity]. destruct IH as [-> HF]. cbn [bind].
  split; [reflexivity|]. now constructor.
Qed.
Lemma unified_rows_spec nx ny ax ay az k a b c :
  match unified_rows nx ny ax ay az k (a, b, c) with
  | Ok r => triangle_rows nx ny k (proj ax ay a, proj ax ay b, proj ax ay c) = Ok (map fst r) /\ Forall (unified_cell_ok (a, b, c) ax ay az) r
  | Err e => triangle_rows nx ny k (proj ax ay a, proj ax ay b, proj ax ay c) = Err e
  end.
Proof.
  unfold unified_rows, triangle_rows, triangle_box. cbn [proj fst snd].
  set (cols := zrange2 _ _).
  pose proof (mapM_unified (unified_column ny ax ay az k (a, b, c)) (triangle_column ny k (proj ax ay a, proj ax ay b, proj ax ay c)) fst (fun _ => unified_cell_ok (a, b, c) ax ay az) cols
    (fun xi _ => unified_column_spec ny ax ay az k a b c xi)) as M.
  change (coord a ax, coord a ay) with (proj ax ay a). change (coord b ax, coord b ay) with (proj ax ay b). change (coord c ax, coord c ay) with (proj ax ay c).
  destruct (mapM (unified_column ny ax ay az k (a, b, c)) cols) as [rs|e]; cbn [bind].
  - destruct M as [M1 M2]. rewrite M1. cbn [bind]. split; [now rewrite concat_map|].
    clear M1. induction M2 as [|x r cols' rs' Hr HF IH]; cbn [List.concat]; [constructor|]. apply Forall_app. split; assumption.
  - rewrite M. reflexivity.
Qed.
Lemma unified_number nx ny ax ay az base l :
  match number_from (fun k t => unified_rows nx ny ax ay az k t) base l with
  | Ok r => number_from (fun k t => triangle_rows nx ny k t) base (map (map_tri (proj ax ay)) l) = Ok (map fst r) /\
            Forall (fun rz => exists t, nth_error l (Z.to_nat (fst (fst (fst rz)) - base)) = Some t /\ unified_cell_ok t ax ay az rz) r
  | Err e => number_from (fun k t => triangle_rows nx ny k t) base (map (map_tri (proj ax ay)) l) = Err e
  end.
Proof.
  unfold number_from. rewrite indexed_map, mapM_map. cbn [fst snd].
  pose proof (mapM_unified (fun kt => unified_rows nx ny ax ay az (fst kt) (snd kt)) (fun kt => triangle_rows nx ny (fst kt) (map_tri (proj ax ay) (snd kt))) fst
    (fun kt rz => fst (fst (fst rz)) = fst kt /\ unified_cell_ok (snd kt) ax ay az rz) (indexed base l)) as M.
  assert (HM : forall kt, In kt (indexed base l) ->
     match unified_rows nx ny ax ay az (fst kt) (snd kt) with
     | Ok r => triangle_rows nx ny (fst kt) (map_tri (proj ax ay) (snd kt)) = Ok (map fst r) /\ Forall (fun rz => fst (fst (fst rz)) = fst kt /\ unified_cell_ok (snd kt) ax ay az rz) r
     | Err e => triangle_rows nx ny (fst kt) (map_tri (proj ax ay) (snd kt)) = Err e
     end).
  { intros [k [[a b] c]] _. cbn [fst snd map_tri]. pose proof (unified_rows_spec nx ny ax ay az k a b c) as U.
    destruct (unified_rows nx ny ax ay az k (a, b, c)) as [r|e]; [|exact U]. destruct U as [U1 U2]. split; [exact U1|].
    destruct (triangle_rows_spec nx ny k (proj ax ay a) (proj ax ay b) (proj ax ay c)) as (r' & E & _ & HS & _).
    assert (map fst r = r') by congruence. subst r'.
    rewrite Forall_forall in *. intros [[[k' y] x] z] Hin. split; [|now apply U2]. cbn [fst]. refine (proj1 (HS k' y x _)). apply in_map_iff. exists (k', y, x, z). now split. }
  specialize (M HM). clear HM.
  destruct (mapM (fun kt => unified_rows nx ny ax ay az (fst kt) (snd kt)) (indexed base l)) as [rs|e]; cbn [bind].
  - destruct M as [M1 M2]. match goal with |- bind ?X _ = _ /\ _ => replace X with (Ok (map (map fst) rs)) by (symmetry; exact M1) end. cbn [bind]. split; [now rewrite concat_map|].
    rewrite Forall_forall. intros rz Hin. apply in_concat in Hin. destruct Hin as (r & Hr & Hz).
    assert (G : exists kt, In kt (indexed base l) /\ Forall (fun rz => fst (fst (fst rz)) = fst kt /\ unified_cell_ok (snd kt) ax ay az rz) r).
    { clear - M2 Hr. induction M2 as [|kt r' kts rs Hk HF IH]; [destruct Hr|]. destruct Hr as [->|Hr]; [exists kt; split; [now left|exact Hk]|].
      destruct (IH Hr) as (kt' & H1 & H2). exists kt'. split; [now right|exact H2]. }
    destruct G as ([k t] & Hk & HF). rewrite Forall_forall in HF. destruct (HF _ Hz) as [E1 E2]. cbn [fst snd] in *.
    apply in_indexed in Hk. exists t. rewrite E1. split; [apply Hk|exact E2].
  - match goal with |- bind ?X _ = _ => replace X with (@Err (list (list row)) e) by (symmetry; exact M) end. reflexivity.
Qed.

(** ** The aligned mesh with the crossing test *)
Lemma edge_hit_scale x y a b sx sy ox oy : 0 < sx -> 0 < sy ->
  edge_hit (x / sx - ox) (y / sy - oy) (fst a / sx - ox, snd a / sy - oy) (fst b / sx - ox, snd b / sy - oy) = edge_hit x y a b.
Proof. intros Hx Hy. apply eq_true_iff_eq. rewrite !edge_hit_iff. now apply crosses_scale. Qed.
Lemma crosses_eq x x' y y' a a' b b' : x == x' -> y == y' -> fst a == fst a' -> snd a == snd a' -> fst b == fst b' -> snd b == snd b' ->
  Crosses x y a b -> Crosses x' y' a' b'.
Proof.
  intros E1 E2 E3 E4 E5 E6 (HL & s & HS & HY & HX). split; [lra|]. exists s. split; [exact HS|]. rewrite <- E1, <- E2, <- E3, <- E4, <- E5, <- E6. split; assumption.
Qed.
Lemma edge_hit_eq x x' y y' a a' b b' : x == x' -> y == y' -> fst a == fst a' -> snd a == snd a' -> fst b == fst b' -> snd b == snd b' ->
  edge_hit x y a b = edge_hit x' y' a' b'.
Proof.
  intros E1 E2 E3 E4 E5 E6. apply eq_true_iff_eq. rewrite !edge_hit_iff.
  split; apply crosses_eq; assumption || (symmetry; assumption).
Qed.
Lemma tri_hits_mesh dx dy a b c ix iy x y : 0 < dx -> 0 < dy ->
  let f p := (fst p / dx - (1 # 2) - inject_Z ix, snd p / dy - (1 # 2) - inject_Z iy) in
  tri_hits (inject_Z x) (inject_Z y) (f a) (f b) (f c) =
  tri_hits (fst (mesh_point dx dy (x + ix) (y + iy))) (snd (mesh_point dx dy (x + ix) (y + iy))) a b c.
Proof.
  intros Hx Hy f. unfold tri_hits.
  assert (G : forall p q, edge_hit (inject_Z x) (inject_Z y) (f p) (f q) =
     edge_hit (fst (mesh_point dx dy (x + ix) (y + iy))) (snd (mesh_point dx dy (x + ix) (y + iy))) p q).
  { intros p q. rewrite <- (edge_hit_scale (fst (mesh_point dx dy (x + ix) (y + iy))) (snd (mesh_point dx dy (x + ix) (y + iy))) p q dx dy ((1 # 2) + inject_Z ix) ((1 # 2) + inject_Z iy) Hx Hy).
    unfold f, mesh_point. cbn [fst snd]. rewrite !inject_Z_plus. apply edge_hit_eq; cbn [fst snd]; try (field; lra); ring. }
  now rewrite !G.
Qed.
Lemma Qminb_eq a a' b b' : a == a' -> b == b' -> Qminb a b == Qminb a' b'.
Proof. intros H1 H2. destruct (Qminb_spec a b) as [[? ->]|[? ->]], (Qminb_spec a' b') as [[? ->]|[? ->]]; lra. Qed.
Lemma Qmaxb_eq a a' b b' : a == a' -> b == b' -> Qmaxb a b == Qmaxb a' b'.
Proof. intros H1 H2. destruct (Qmaxb_spec a b) as [[? ->]|[? ->]], (Qmaxb_spec a' b') as [[? ->]|[? ->]]; lra. Qed.
Lemma aligned_one_spec nx ny dx dy k a b c k' y x : 0 < dx -> 0 < dy ->
  (In (k', y, x) (aligned_one nx ny dx dy k (a, b, c)) <->
   k' = k /\ (0 <= x < nx)%Z /\ (0 <= y < ny)%Z /\
   point_in_triangle (fst (mesh_point dx dy x y)) (snd (mesh_point dx dy x y)) (a, b, c) = true).
Proof.
  intros Hx Hy. unfold aligned_one. cbn [normalise map_tri].
  set (a' := (fst a / dx - (1 # 2), snd a / dy - (1 # 2))). set (b' := (fst b / dx - (1 # 2), snd b / dy - (1 # 2))). set (c' := (fst c / dx - (1 # 2), snd c / dy - (1 # 2))).
  cbn [triangle_box].
  set (x0 := Z.max (Qceiling (min3 (fst a') (fst b') (fst c'))) 0). set (x1 := Z.min (Qfloor (max3 (fst a') (fst b') (fst c'))) (nx - 1)).
  set (y0 := Z.max (Qceiling (min3 (snd a') (snd b') (snd c'))) 0). set (y1 := Z.min (Qfloor (max3 (snd a') (snd b') (snd c'))) (ny - 1)).
  rewrite point_in_triangle_hits.
  assert (BOX : tri_hits (fst (mesh_point dx dy x y)) (snd (mesh_point dx dy x y)) a b c = true -> (0 <= x < nx)%Z -> (0 <= y < ny)%Z -> (x0 <= x <= x1)%Z /\ (y0 <= y <= y1)%Z).
  { intros H Rx Ry. pose proof (tri_hits_mesh dx dy a b c 0 0 x y Hx Hy) as E. cbv beta zeta in E. rewrite !Z.add_0_r in E. rewrite <- E in H. apply tri_hits_hull in H. apply hull_box in H. cbn [fst snd] in H.
    change (inject_Z 0) with 0 in H. destruct H as [[B1 B2] [B3 B4]].
    assert (MN : forall p q r, min3 (p - 0) (q - 0) (r - 0) == min3 p q r).
    { intros p q r. unfold min3. apply Qminb_eq; [apply Qminb_eq|]; ring. }
    assert (MX : forall p q r, max3 (p - 0) (q - 0) (r - 0) == max3 p q r).
    { intros p q r. unfold max3. apply Qmaxb_eq; [apply Qmaxb_eq|]; ring. }
    rewrite MN in B1, B3. rewrite MX in B2, B4.
    assert (C1 : (Qceiling (min3 (fst a') (fst b') (fst c')) <= x)%Z) by (apply Qceiling_iff; exact B1).
    assert (C2 : (x <= Qfloor (max3 (fst a') (fst b') (fst c')))%Z) by (apply Qfloor_iff; exact B2).
    assert (C3 : (Qceiling (min3 (snd a') (snd b') (snd c')) <= y)%Z) by (apply Qceiling_iff; exact B3).
    assert (C4 : (y <= Qfloor (max3 (snd a') (snd b') (snd c')))%Z) by (apply Qfloor_iff; exact B4).
    unfold x0, x1, y0, y1. lia. }
  assert (XB : (0 <= x0)%Z /\ (x1 < nx)%Z /\ (0 <= y0)%Z /\ (y1 < ny)%Z) by (unfold x0, x1, y0, y1; lia).
  clearbody x0 x1 y0 y1.
  destruct (Z.ltb_spec x1 x0) as [L|L].
  { split; [intros []|]. intros (_ & Rx & Ry & H). specialize (BOX H Rx Ry). lia. }
  destruct (Z.ltb_spec y1 y0) as [L2|L2].
  { split; [intros []|]. intros (_ & Rx & Ry & H). specialize (BOX H Rx Ry). lia. }
  rewrite in_map_iff. unfold mesh_points_in_triangle. split.
  - intros ([[k2 y2] x2] & E & H). injection E as <- <- <-. apply in_flat_map in H. destruct H as (yi & Hyi & H). apply in_flat_map in H. destruct H as (xi & Hxi & H).
    apply in_zrange in Hyi, Hxi. destruct (point_in_triangle _ _ _) eqn:EP; [|destruct H]. destruct H as [H|[]]. injection H as <- <- <-.
    rewrite point_in_triangle_hits in EP. repeat split; try lia. rewrite <- (tri_hits_mesh dx dy a b c x0 y0 xi yi Hx Hy). exact EP.
  - intros (-> & Rx & Ry & H). specialize (BOX H Rx Ry). exists (k, (y - y0)%Z, (x - x0)%Z). split; [repeat f_equal; lia|].
    apply in_flat_map. exists (y - y0)%Z. split; [apply in_zrange; lia|]. apply in_flat_map. exists (x - x0)%Z. split; [apply in_zrange; lia|].
    pose proof (tri_hits_mesh dx dy a b c x0 y0 (x - x0) (y - y0) Hx Hy) as TE. cbv beta zeta in TE.
    replace (x - x0 + x0)%Z with x in TE by lia. replace (y - y0 + y0)%Z with y in TE by lia. rewrite H, <- point_in_triangle_hits in TE.
    match goal with |- In _ (if ?X then _ else _) => replace X with true by (symmetry; exact TE) end. now left.
Qed.
