(** TriProofs3.v: triangles sampled on a regular mesh. *)
From Verif Require Import QBase TriModel TriProofs TriProofs2.

(** ** Lists of results *)
Lemma mapM_app {A B} (f : A -> res B) l m : mapM f (l ++ m) = do a <- mapM f l; do b <- mapM f m; Ok (a ++ b).
Proof.
  induction l as [|x l IH]; cbn [mapM app bind]; [now destruct (mapM f m)|].
  destruct (f x); cbn [bind]; [|reflexivity]. rewrite IH. destruct (mapM f l); cbn [bind]; [|reflexivity]. now destruct (mapM f m).
Qed.
Lemma mapM_ext {A B} (f g : A -> res B) l : (forall a, In a l -> f a = g a) -> mapM f l = mapM g l.
Proof. intros H. induction l as [|x l IH]; cbn; [reflexivity|]. rewrite (H x) by now left. destruct (g x); [|reflexivity]. cbn. rewrite IH; [reflexivity|]. intros ? ?; apply H; now right. Qed.
Lemma mapM_map {A B C} (f : B -> res C) (g : A -> B) l : mapM f (map g l) = mapM (fun a => f (g a)) l.
Proof. induction l as [|x l IH]; cbn; [reflexivity|]. now rewrite IH. Qed.
Lemma mapM_ok {A B} (f : A -> res B) (g : A -> B) l : (forall a, In a l -> f a = Ok (g a)) -> mapM f l = Ok (map g l).
Proof. intros H. induction l as [|x l IH]; cbn; [reflexivity|]. rewrite (H x) by now left. cbn. rewrite IH; [reflexivity|]. intros ? ?; apply H; now right. Qed.
Lemma indexed_app {A} i (l m : list A) : indexed i (l ++ m) = indexed i l ++ indexed (i + Z.of_nat (List.length l))%Z m.
Proof. revert i. induction l as [|a l IH]; intros i; cbn [app indexed List.length]; [now rewrite Z.add_0_r|]. rewrite IH. do 2 f_equal. f_equal. lia. Qed.
Lemma indexed_shift {A} i j (l : list A) : indexed (i + j) l = map (fun ka => (fst ka + j, snd ka))%Z (indexed i l).
Proof. revert i. induction l as [|a l IH]; intros i; cbn; [reflexivity|]. f_equal. replace (i + j + 1)%Z with (i + 1 + j)%Z by lia. apply IH. Qed.
Lemma in_indexed {A} i (l : list A) k a : In (k, a) (indexed i l) <-> (i <= k)%Z /\ nth_error l (Z.to_nat (k - i)) = Some a.
Proof.
  revert i. induction l as [|b l IH]; intros i; cbn [indexed In].
  - split; [tauto|]. intros [_ H]. destruct (Z.to_nat (k - i)); discriminate.
  - rewrite IH. split.
    + intros [E|[H1 H2]].
      * injection E as <- <-. split; [lia|]. rewrite Z.sub_diag. reflexivity.
      * split; [lia|]. replace (Z.to_nat (k - i)) with (S (Z.to_nat (k - (i + 1)))) by lia. exact H2.
    + intros [H1 H2]. destruct (Z.eq_dec k i) as [->|N].
      * left. rewrite Z.sub_diag in H2. cbn in H2. now injection H2 as ->.
      * right. split; [lia|]. replace (Z.to_nat (k - i)) with (S (Z.to_nat (k - (i + 1)))) in H2 by lia. exact H2.
Qed.
Lemma indexed_map {A B} (f : A -> B) i l : indexed i (map f l) = map (fun ka => (fst ka, f (snd ka))) (indexed i l).
Proof. revert i. induction l as [|a l IH]; intros i; cbn; [reflexivity|]. now rewrite IH. Qed.

Lemma NoDup_app2 {A} (l m : list A) : NoDup l -> NoDup m -> (forall a, In a l -> In a m -> False) -> NoDup (l ++ m).
Proof.
  induction l as [|a l IH]; intros Hl Hm H; cbn [app]; [exact Hm|]. inversion_clear Hl as [|? ? Ha Hl']. constructor.
  - rewrite in_app_iff. intros [G|G]; [contradiction|]. apply (H a); [now left|exact G].
  - apply IH; auto. intros b Hb. apply H. now right.
Qed.

(** ** Batches *)
Definition number_from {A B} (g : Z -> A -> res (list B)) (base : Z) (l : list A) : res (list B) :=
  do rs <- mapM (fun kt => g (fst kt) (snd kt)) (indexed base l); Ok (List.concat rs).
Lemma number_from_shift {A B} (g : Z -> A -> res (list B)) base l :
  (do rs <- mapM (fun kt => g (fst kt + base)%Z (snd kt)) (indexed 0 l); Ok (List.concat rs)) = number_from g base l.
Proof. unfold number_from. replace base with (0 + base)%Z at 2 by lia. rewrite (indexed_shift 0 base), mapM_map. reflexivity. Qed.
Lemma number_from_app {A B} (g : Z -> A -> res (list B)) base l m :
  number_from g base (l ++ m) = do a <- number_from g base l; do b <- number_from g (base + Z.of_nat (List.length l))%Z m; Ok (a ++ b).
Proof.
  unfold number_from. rewrite indexed_app, mapM_app. destruct (mapM _ (indexed base l)); cbn [bind]; [|reflexivity].
  destruct (mapM _ (indexed _ m)); cbn [bind]; [|reflexivity]. now rewrite concat_app.
Qed.
Lemma zrange_succ k : (0 <= k)%Z -> zrange (k + 1) = zrange k ++ [k].
Proof.
  intros H. unfold zrange. replace (Z.to_nat (k + 1)) with (Z.to_nat k + 1)%nat by lia. rewrite seq_app, map_app. cbn. do 2 f_equal. lia.
Qed.
Lemma batches_prefix {A B} (g : Z -> A -> res (list B)) l s k : (0 <= s)%Z ->
  (do rs <- mapM (fun b => number_from g (b * s)%Z (slice (b * s) ((b + 1) * s) l)) (zrange (Z.of_nat k)); Ok (List.concat rs))
  = number_from g 0 (firstn (Z.to_nat (Z.of_nat k * s)) l).
Proof.
  intros Hs. induction k as [|k IH]; [reflexivity|].
  replace (Z.of_nat (S k)) with (Z.of_nat k + 1)%Z by lia. rewrite zrange_succ, mapM_app by lia.
  set (m := mapM _ (zrange (Z.of_nat k))) in *.
  assert (E : firstn (Z.to_nat ((Z.of_nat k + 1) * s)) l = firstn (Z.to_nat (Z.of_nat k * s)) l ++ slice (Z.of_nat k * s) ((Z.of_nat k + 1) * s) l).
  { unfold slice. replace (Z.to_nat ((Z.of_nat k + 1) * s)) with (Z.to_nat (Z.of_nat k * s) + Z.to_nat s)%nat by lia.
    replace ((Z.of_nat k + 1) * s - Z.of_nat k * s)%Z with s by lia.
    generalize (Z.to_nat (Z.of_nat k * s)) (Z.to_nat s). clear. intros i j. revert l. induction i as [|i IH]; intros l; [reflexivity|].
    destruct l as [|a l]; [now destruct j|]. cbn. now rewrite IH. }
  rewrite E, number_from_app. rewrite <- IH. destruct m; cbn [bind]; [|reflexivity]. cbn [mapM].
  assert (F : number_from g (Z.of_nat k * s) (slice (Z.of_nat k * s) ((Z.of_nat k + 1) * s) l) =
              number_from g (0 + Z.of_nat (List.length (firstn (Z.to_nat (Z.of_nat k * s)) l))) (slice (Z.of_nat k * s) ((Z.of_nat k + 1) * s) l)).
  { destruct (Z_le_gt_dec (Z.of_nat k * s) (Z.of_nat (List.length l))) as [L|L].
    - rewrite firstn_length. f_equal. lia.
    - unfold slice. rewrite skipn_all2 by lia. rewrite firstn_nil. reflexivity. }
  rewrite <- F. clear IH F. destruct (number_from g (Z.of_nat k * s) _); cbn [bind]; [|reflexivity]. rewrite concat_app. cbn [List.concat]. now rewrite app_nil_r.
Qed.
Lemma in_batches_serial {A B} (g : Z -> A -> res (list B)) f l nb : (forall base m, f base m = number_from g base m) -> (1 <= nb)%Z ->
  in_batches nb f l = number_from g 0 l.
Proof.
  intros Hf Hn. unfold in_batches. set (n := Z.of_nat (List.length l)).
  destruct (Z.eqb_spec n 0) as [E|E].
  - destruct l; [reflexivity|]. unfold n in E. cbn [List.length] in E. lia.
  - assert (Hp : (1 <= n)%Z) by (unfold n in *; lia). destruct (Z.eqb_spec (Z.min n nb) 0) as [E2|E2]; [lia|].
    set (s := ((n - 1) / Z.min n nb + 1)%Z).
    assert (Hs : (0 <= s)%Z) by (unfold s; assert (0 <= (n - 1) / Z.min n nb)%Z by (apply Z.div_pos; lia); lia).
    rewrite (mapM_ext _ (fun b => number_from g (b * s)%Z (slice (b * s) ((b + 1) * s) l))) by (intros; apply Hf).
    replace (Z.min n nb) with (Z.of_nat (Z.to_nat (Z.min n nb))) at 1 by lia. rewrite batches_prefix by exact Hs.
    rewrite firstn_all2; [reflexivity|].
    assert (n <= Z.min n nb * s)%Z.
    { unfold s. pose proof (Z.div_mod (n - 1) (Z.min n nb) ltac:(lia)). pose proof (Z.mod_pos_bound (n - 1) (Z.min n nb) ltac:(lia)). nia. }
    unfold n in *. lia.
Qed.

(** ** Intercepts *)
(** y is the height at x of the line through p and q, which is not vertical *)
Definition OnLine (x : Q) (p q : pt2) (y : Q) : Prop :=
  ~ fst p == fst q /\ (fst q - fst p) * y == (fst q - x) * snd p + (x - fst p) * snd q.
Lemma online_sym x p q y : OnLine x p q y <-> OnLine x q p y.
Proof.
  unfold OnLine. split; intros [N E]; (split; [intros F; apply N; now symmetry|]).
  - transitivity (- ((fst q - fst p) * y)); [ring|rewrite E; ring].
  - transitivity (- ((fst p - fst q) * y)); [ring|rewrite E; ring].
Qed.
Definition Between (x a b : Q) : Prop := (a <= x <= b) \/ (b <= x <= a).
Definition icept (x : Q) (p q : pt2) : option Q := vertical_intercept_nan x (fst p) (fst q) (snd p) (snd q).

Lemma icept_online x p q : Between x (fst p) (fst q) -> ~ fst p == fst q -> exists y, icept x p q = Some y /\ OnLine x p q y.
Proof.
  intros HB N. unfold icept, vertical_intercept_nan. destruct (Qltb_spec (fst q) (fst p)) as [L|L].
  - assert (B : fst q <= x <= fst p) by (destruct HB; lra). rewrite (proj2 (Qleb_iff _ _) (proj1 B)), (proj2 (Qleb_iff _ _) (proj2 B)). cbn [andb].
    destruct (Qeq_bool (fst q) (fst p)) eqn:E; [apply Qeq_bool_iff in E; lra|]. eexists. split; [reflexivity|]. split; [exact N|]. field. lra.
  - assert (B : fst p <= x <= fst q) by (destruct HB; lra). rewrite (proj2 (Qleb_iff _ _) (proj1 B)), (proj2 (Qleb_iff _ _) (proj2 B)). cbn [andb].
    destruct (Qeq_bool (fst p) (fst q)) eqn:E; [apply Qeq_bool_iff in E; lra|]. eexists. split; [reflexivity|]. split; [exact N|]. field. lra.
Qed.
Lemma icept_on_segment x p q y : icept x p q = Some y ->
  exists s, 0 <= s <= 1 /\ x == (1 - s) * fst p + s * fst q /\ y == (1 - s) * snd p + s * snd q.
Proof.
  unfold icept, vertical_intercept_nan. destruct (Qltb_spec (fst q) (fst p)) as [L|L].
  - destruct (Qleb_spec' (fst q) x) as [B1|]; [|discriminate]. destruct (Qleb_spec' x (fst p)) as [B2|]; [|discriminate]. cbn [andb].
    destruct (Qeq_bool (fst q) (fst p)) eqn:E; [apply Qeq_bool_iff in E; lra|]. intros H. injection H as <-.
    exists ((fst p - x) / (fst p - fst q)). repeat split; [apply Qle_shift_div_l; lra|apply Qle_shift_div_r; lra|field; lra|field; lra].
  - destruct (Qleb_spec' (fst p) x) as [B1|]; [|discriminate]. destruct (Qleb_spec' x (fst q)) as [B2|]; [|discriminate]. cbn [andb].
    destruct (Qeq_bool (fst p) (fst q)) eqn:E.
    + intros H. injection H as <-. apply Qeq_bool_iff in E. exists 0. repeat split; lra.
    + intros H. injection H as <-. assert (~ fst p == fst q) by (intros F; apply Qeq_bool_iff in F; congruence).
      exists ((x - fst p) / (fst q - fst p)). repeat split; [apply Qle_shift_div_l; lra|apply Qle_shift_div_r; lra|field; lra|field; lra].
Qed.
Lemma icept_none x p q : icept x p q = None -> ~ Between x (fst p) (fst q).
Proof.
  unfold icept, vertical_intercept_nan. intros H B. destruct (Qltb_spec (fst q) (fst p)) as [L|L].
  - destruct (Qleb_spec' (fst q) x), (Qleb_spec' x (fst p)); cbn [andb] in H; [destruct (Qeq_bool _ _); discriminate|destruct B; lra..].
  - destruct (Qleb_spec' (fst p) x), (Qleb_spec' x (fst q)); cbn [andb] in H; [destruct (Qeq_bool _ _); discriminate|destruct B; lra..].
Qed.

(** ** The extent of a triangle at a given x *)
(** one corner on one side of the line through x, the other two on the other side *)
Lemma lone_vertex (a b c : pt2) x y y1 y2 : (fst a < x /\ x <= fst b /\ x <= fst c) \/ (x < fst a /\ fst b <= x /\ fst c <= x) ->
  OnLine x a b y1 -> OnLine x a c y2 -> Hull a b c (x, y) -> Between y y1 y2.
Proof.
  intros HS [N1 E1] [N2 E2] (u & v & w & Hu & Hv & Hw & H1 & H2 & H3). cbn [fst snd] in H2, H3.
  (* s = v (b - a) / (x - a): weight of y1 *)
  assert (NX : ~ x - fst a == 0) by (destruct HS; lra).
  set (al := x - fst a) in *.
  set (s := v * (fst b - fst a) / al). set (r := w * (fst c - fst a) / al).
  assert (HX : u * al == v * (fst b - x) + w * (fst c - x)).
  { assert (u == 1 - v - w) by lra. unfold al. assert (G : v * (fst b - x) + w * (fst c - x) == (v * fst b + w * fst c) - (v + w) * x) by ring.
    assert (G2 : v * fst b + w * fst c == x - u * fst a) by lra. rewrite G, G2. setoid_replace (v + w) with (1 - u) by lra. ring. }
  assert (S1 : s + r == 1).
  { unfold s, r. transitivity ((v * (fst b - x) + w * (fst c - x) + (v + w) * al) / al).
    - unfold al. field. exact NX.
    - rewrite <- HX. setoid_replace (v + w) with (1 - u) by lra. field. exact NX. }
  assert (S2 : y == s * y1 + r * y2).
  { assert (T : s * y1 + r * y2 == (v * ((fst b - fst a) * y1) + w * ((fst c - fst a) * y2)) / al) by (unfold s, r; field; exact NX).
    rewrite T, E1, E2. fold al.
    transitivity (((v * (fst b - x) + w * (fst c - x)) * snd a + al * (v * snd b + w * snd c)) / al); [|field; exact NX].
    rewrite <- HX, H3. field. exact NX. }
  assert (S0 : 0 <= s /\ 0 <= r).
  { unfold s, r, al in *. destruct HS as [(G1 & G2 & G3)|(G1 & G2 & G3)].
    - split; (apply Qle_shift_div_l; [lra|]); rewrite Qmult_0_l; apply Qmult_le_0_compat; lra.
    - setoid_replace (v * (fst b - fst a) / (x - fst a)) with (v * (fst a - fst b) / (fst a - x)) by (field; lra).
      setoid_replace (w * (fst c - fst a) / (x - fst a)) with (w * (fst a - fst c) / (fst a - x)) by (field; lra).
      split; (apply Qle_shift_div_l; [lra|]); rewrite Qmult_0_l; apply Qmult_le_0_compat; lra. }
  clearbody s r. destruct S0 as [S3 S4].
  destruct (Qlt_le_dec y1 y2) as [L|L]; [left|right].
  - assert (0 <= r * (y2 - y1)) by (apply Qmult_le_0_compat; lra). assert (0 <= s * (y2 - y1)) by (apply Qmult_le_0_compat; lra).
    assert (r == 1 - s) by lra. assert (y - y1 == r * (y2 - y1)) by (rewrite S2; setoid_replace s with (1 - r) by lra; ring).
    assert (y2 - y == s * (y2 - y1)) by (rewrite S2; setoid_replace r with (1 - s) by lra; ring). lra.
  - assert (0 <= r * (y1 - y2)) by (apply Qmult_le_0_compat; lra). assert (0 <= s * (y1 - y2)) by (apply Qmult_le_0_compat; lra).
    assert (y - y2 == s * (y1 - y2)) by (rewrite S2; setoid_replace r with (1 - s) by lra; ring).
    assert (y1 - y == r * (y1 - y2)) by (rewrite S2; setoid_replace s with (1 - r) by lra; ring). lra.
Qed.
(** a corner at x, the others strictly to one side *)
Lemma end_vertex (a b c : pt2) x y y1 : fst a == x -> (x < fst b /\ x < fst c) \/ (fst b < x /\ fst c < x) ->
  OnLine x a b y1 -> Hull a b c (x, y) -> y == y1.
Proof.
  intros EA HS [N1 E1] (u & v & w & Hu & Hv & Hw & H1 & H2 & H3). cbn [fst snd] in H2, H3.
  assert (HX : v * (fst b - x) + w * (fst c - x) == 0).
  { transitivity (u * fst a + v * fst b + w * fst c - (u + v + w) * x); [rewrite EA; ring|]. rewrite <- H2, H1. ring. }
  assert (ZV : v == 0 /\ w == 0).
  { destruct HS as [[A B]|[A B]].
    - assert (P1 : 0 <= v * (fst b - x)) by (apply Qmult_le_0_compat; lra). assert (P2 : 0 <= w * (fst c - x)) by (apply Qmult_le_0_compat; lra).
      assert (Z1 : v * (fst b - x) == 0) by lra. assert (Z2 : w * (fst c - x) == 0) by lra.
      apply Qmult_integral in Z1, Z2. split; [destruct Z1; lra|destruct Z2; lra].
    - assert (P1 : 0 <= v * (x - fst b)) by (apply Qmult_le_0_compat; lra). assert (P2 : 0 <= w * (x - fst c)) by (apply Qmult_le_0_compat; lra).
      assert (Z1 : v * (x - fst b) == 0) by lra. assert (Z2 : w * (x - fst c) == 0) by lra.
      apply Qmult_integral in Z1, Z2. split; [destruct Z1; lra|destruct Z2; lra]. }
  destruct ZV as [ZV ZW]. assert (u == 1) by lra.
  assert (Y : y == snd a) by (rewrite H3, ZV, ZW, H; ring).
  assert (E : (fst b - fst a) * (y1 - snd a) == 0).
  { transitivity ((fst b - fst a) * y1 - (fst b - fst a) * snd a); [ring|]. rewrite E1. rewrite EA. ring. }
  apply Qmult_integral in E. destruct E; lra.
Qed.
Definition ey_list (x : Q) (a b c : pt2) : list (option Q) := [icept x b c; icept x a b; icept x a c].
Definition all_x_equal (a b c : pt2) : Prop := fst a == fst b /\ fst b == fst c.

Lemma hull_between_icepts a b c x y : ~ all_x_equal a b c -> Hull a b c (x, y) ->
  exists y1 y2, In (Some y1) (ey_list x a b c) /\ In (Some y2) (ey_list x a b c) /\ Between y y1 y2.
Proof.
  intros NA HH. pose proof (hull_box _ _ _ _ HH) as [[B1 B2] _]. cbn [fst] in B1, B2.
  assert (NAB : all_x_equal a b c -> False) by exact NA. unfold all_x_equal in NAB.
  (* the three edges in either order *)
  assert (GAB : Between x (fst a) (fst b) -> ~ fst a == fst b -> exists y', In (Some y') (ey_list x a b c) /\ OnLine x a b y').
  { intros B N. destruct (icept_online x a b B N) as (y' & E & O). exists y'. split; [right; left; exact E|exact O]. }
  assert (GBC : Between x (fst b) (fst c) -> ~ fst b == fst c -> exists y', In (Some y') (ey_list x a b c) /\ OnLine x b c y').
  { intros B N. destruct (icept_online x b c B N) as (y' & E & O). exists y'. split; [left; exact E|exact O]. }
  assert (GAC : Between x (fst a) (fst c) -> ~ fst a == fst c -> exists y', In (Some y') (ey_list x a b c) /\ OnLine x a c y').
  { intros B N. destruct (icept_online x a c B N) as (y' & E & O). exists y'. split; [right; right; left; exact E|exact O]. }
  set (L := ey_list x a b c) in *. clearbody L.
  assert (CA : (fst a < x /\ x <= fst b /\ x <= fst c) \/ (x < fst a /\ fst b <= x /\ fst c <= x) ->
     exists y1 y2, In (Some y1) L /\ In (Some y2) L /\ Between y y1 y2).
  { intros H. destruct GAB as (y1 & I1 & O1); [unfold Between; destruct H; lra|destruct H; lra|].
    destruct GAC as (y2 & I2 & O2); [unfold Between; destruct H; lra|destruct H; lra|].
    exists y1, y2. split; [exact I1|]. split; [exact I2|]. now apply (lone_vertex a b c x y y1 y2). }
  assert (CB : (fst b < x /\ x <= fst a /\ x <= fst c) \/ (x < fst b /\ fst a <= x /\ fst c <= x) ->
     exists y1 y2, In (Some y1) L /\ In (Some y2) L /\ Between y y1 y2).
  { intros H. destruct GAB as (y1 & I1 & O1); [unfold Between; destruct H; lra|destruct H; lra|].
    destruct GBC as (y2 & I2 & O2); [unfold Between; destruct H; lra|destruct H; lra|].
    exists y1, y2. split; [exact I1|]. split; [exact I2|]. apply (lone_vertex b a c x y y1 y2); [exact H|now apply online_sym|exact O2|now apply hull_swap]. }
  assert (CC : (fst c < x /\ x <= fst a /\ x <= fst b) \/ (x < fst c /\ fst a <= x /\ fst b <= x) ->
     exists y1 y2, In (Some y1) L /\ In (Some y2) L /\ Between y y1 y2).
  { intros H. destruct GAC as (y1 & I1 & O1); [unfold Between; destruct H; lra|destruct H; lra|].
    destruct GBC as (y2 & I2 & O2); [unfold Between; destruct H; lra|destruct H; lra|].
    exists y1, y2. split; [exact I1|]. split; [exact I2|]. apply (lone_vertex c a b x y y1 y2); [exact H|now apply online_sym|now apply online_sym|]. now apply hull_rot, hull_rot. }
  assert (EB : forall y', y == y' -> Between y y' y') by (intros; left; lra).
  assert (VA : fst a == x -> (x < fst b /\ x < fst c) \/ (fst b < x /\ fst c < x) -> exists y1 y2, In (Some y1) L /\ In (Some y2) L /\ Between y y1 y2).
  { intros E H. destruct GAB as (y1 & I1 & O1); [unfold Between; destruct H; lra|destruct H; lra|].
    exists y1, y1. split; [exact I1|]. split; [exact I1|]. apply EB. now apply (end_vertex a b c x y y1). }
  assert (VB : fst b == x -> (x < fst a /\ x < fst c) \/ (fst a < x /\ fst c < x) -> exists y1 y2, In (Some y1) L /\ In (Some y2) L /\ Between y y1 y2).
  { intros E H. destruct GAB as (y1 & I1 & O1); [unfold Between; destruct H; lra|destruct H; lra|].
    exists y1, y1. split; [exact I1|]. split; [exact I1|]. apply EB. apply (end_vertex b a c x y y1); [exact E|exact H|now apply online_sym|now apply hull_swap]. }
  assert (VC : fst c == x -> (x < fst a /\ x < fst b) \/ (fst a < x /\ fst b < x) -> exists y1 y2, In (Some y1) L /\ In (Some y2) L /\ Between y y1 y2).
  { intros E H. destruct GAC as (y1 & I1 & O1); [unfold Between; destruct H; lra|destruct H; lra|].
    exists y1, y1. split; [exact I1|]. split; [exact I1|]. apply EB. apply (end_vertex c a b x y y1); [exact E|exact H|now apply online_sym|now apply hull_rot, hull_rot]. }
  destruct (Q_dec (fst a) x) as [[A|A]|A], (Q_dec (fst b) x) as [[B|B]|B], (Q_dec (fst c) x) as [[C|C]|C];
    try (apply CA; lra); try (apply CB; lra); try (apply CC; lra).
  all: try (exfalso; unfold min3, max3, Qminb, Qmaxb in *;
     repeat match goal with H : context[if ?p <=b ?q then _ else _] |- _ => destruct (Qleb_spec' p q) end; lra).
  all: try (exfalso; apply NAB; split; lra).
  all: first [apply VA; [assumption|tauto] | apply VB; [assumption|tauto] | apply VC; [assumption|tauto]].
Qed.

(** ** Lowest and highest intercepts *)
Lemma nanfold_spec (f : Q -> Q -> Q) (R : Q -> Q -> Prop) l acc m :
  (forall a b, (f a b = a \/ f a b = b) /\ R (f a b) a /\ R (f a b) b) -> (forall a, R a a) -> (forall a b c, R a b -> R b c -> R a c) ->
  fold_left (nan2 f) l acc = m ->
  match m with
  | None => acc = None /\ Forall (fun o => o = None) l
  | Some v => (acc = Some v \/ In (Some v) l) /\ (forall w, acc = Some w -> R v w) /\ (forall w, In (Some w) l -> R v w)
  end.
Proof.
  intros Hf Hr Ht. revert acc. induction l as [|o l IH]; intros acc H; cbn [fold_left] in H.
  - subst m. destruct acc as [v|]; [|now split]. split; [now left|]. split; [intros w E; injection E as <-; apply Hr|intros w []].
  - apply IH in H. destruct m as [v|].
    + destruct H as (H1 & H2 & H3). destruct acc as [p|], o as [q|]; cbn [nan2] in *.
      * destruct (Hf p q) as (F1 & F2 & F3). specialize (H2 _ eq_refl). split; [|split].
        -- destruct H1 as [H1|H1]; [|right; now right]. injection H1 as H1. destruct F1 as [F1|F1]; rewrite F1 in H1; subst v; [now left|right; now left].
        -- intros w E. injection E as <-. eapply Ht; eassumption.
        -- intros w [E|E]; [injection E as <-; eapply Ht; eassumption|now apply H3].
      * split; [destruct H1 as [H1|H1]; [now left|right; now right]|]. split; [exact H2|]. intros w [E|E]; [discriminate|now apply H3].
      * split; [destruct H1 as [H1|H1]; [right; now left|right; now right]|]. split; [intros w E; discriminate|]. intros w [E|E]; [now apply H2|now apply H3].
      * split; [destruct H1 as [H1|H1]; [now left|right; now right]|]. split; [exact H2|]. intros w [E|E]; [discriminate|now apply H3].
    + destruct H as [H1 H2]. destruct acc as [p|], o as [q|]; cbn [nan2] in H1; try discriminate. split; [reflexivity|constructor; auto].
Qed.
Lemma nanmin_spec l v : nanmin l = Some v -> In (Some v) l /\ forall w, In (Some w) l -> v <= w.
Proof.
  intros H. destruct (nanfold_spec Qminb Qle l None (Some v)) as ([E|E] & _ & H3); try exact H.
  - intros a b. destruct (Qminb_spec a b) as [[? ->]|[? ->]]; repeat split; auto; lra.
  - intros; lra.
  - intros; lra.
  - discriminate.
  - auto.
Qed.
Lemma nanmax_spec l v : nanmax l = Some v -> In (Some v) l /\ forall w, In (Some w) l -> w <= v.
Proof.
  intros H. destruct (nanfold_spec Qmaxb (fun a b => b <= a) l None (Some v)) as ([E|E] & _ & H3); try exact H.
  - intros a b. destruct (Qmaxb_spec a b) as [[? ->]|[? ->]]; repeat split; auto; lra.
  - intros; lra.
  - intros; lra.
  - discriminate.
  - auto.
Qed.
Lemma nan_none_min l : nanmin l = None -> forall w, ~ In (Some w) l.
Proof.
  intros H w Hw. destruct (nanfold_spec Qminb Qle l None None) as [_ F]; try exact H.
  - intros a b. destruct (Qminb_spec a b) as [[? ->]|[? ->]]; repeat split; auto; lra.
  - intros; lra.
  - intros; lra.
  - rewrite Forall_forall in F. specialize (F _ Hw). discriminate.
Qed.
Lemma nan_none_max l : nanmax l = None -> forall w, ~ In (Some w) l.
Proof.
  intros H w Hw. destruct (nanfold_spec Qmaxb (fun a b => b <= a) l None None) as [_ F]; try exact H.
  - intros a b. destruct (Qmaxb_spec a b) as [[? ->]|[? ->]]; repeat split; auto; lra.
  - intros; lra.
  - intros; lra.
  - rewrite Forall_forall in F. specialize (F _ Hw). discriminate.
Qed.
(** within the box of the triangle some edge is met *)
Lemma some_icept a b c x : min3 (fst a) (fst b) (fst c) <= x <= max3 (fst a) (fst b) (fst c) -> exists y, In (Some y) (ey_list x a b c).
Proof.
  intros H. unfold ey_list. destruct (icept x b c) as [y|] eqn:E1; [exists y; now left|]. destruct (icept x a b) as [y|] eqn:E2; [exists y; right; now left|].
  destruct (icept x a c) as [y|] eqn:E3; [exists y; right; right; now left|]. exfalso. apply icept_none in E1, E2, E3. unfold Between in *.
  unfold min3, max3, Qminb, Qmaxb in H. repeat match goal with H : context[if ?p <=b ?q then _ else _] |- _ => destruct (Qleb_spec' p q) end; lra.
Qed.
Lemma icept_hull a b c x y : In (Some y) (ey_list x a b c) -> Hull a b c (x, y).
Proof.
  assert (G : forall p q r, icept x p q = Some y -> Hull p q r (x, y)).
  { intros p q r E. apply icept_on_segment in E. destruct E as (s & HS & HX & HY). now apply (segment_in_hull p q r s). }
  intros [E|[E|[E|[]]]].
  - apply (proj1 (hull_rot a b c _)). now apply G.
  - now apply G.
  - apply (proj1 (hull_swap a b c _)), (proj1 (hull_rot b a c _)). now apply G.
Qed.
Lemma hull_vertical_convex a b c x y y1 y2 : Hull a b c (x, y1) -> Hull a b c (x, y2) -> y1 <= y <= y2 -> Hull a b c (x, y).
Proof.
  intros H1 H2 [L R]. destruct (Qlt_le_dec y1 y2) as [D|D].
  - apply (hull_convex a b c _ _ ((y - y1) / (y2 - y1)) _ H1 H2); cbn [fst snd]; [|field; lra|field; lra].
    split; [apply Qle_shift_div_l; lra|apply Qle_shift_div_r; lra].
  - apply (hull_convex a b c _ _ 0 _ H1 H2); cbn [fst snd]; lra.
Qed.

(** ** The rows of one triangle *)
Definition column_rows (ny k : Z) (t : tri2) (xi : Z) : list row :=
  match triangle_column ny k t xi with Ok r => r | Err _ => [] end.
Lemma triangle_column_spec ny k a b c xi : min3 (fst a) (fst b) (fst c) <= inject_Z xi <= max3 (fst a) (fst b) (fst c) ->
  exists r, triangle_column ny k (a, b, c) xi = Ok r /\ NoDup r /\
   (forall k' y x, In (k', y, x) r -> k' = k /\ x = xi /\ (0 <= y < ny)%Z /\ Hull a b c (inject_Z xi, inject_Z y)) /\
   (~ all_x_equal a b c -> forall y, (0 <= y < ny)%Z -> Hull a b c (inject_Z xi, inject_Z y) -> In (k, y, xi) r).
Proof.
  intros HB. unfold triangle_column. fold (icept (inject_Z xi) b c) (icept (inject_Z xi) a b) (icept (inject_Z xi) a c). fold (ey_list (inject_Z xi) a b c).
  destruct (some_icept a b c _ HB) as (y0 & I0).
  destruct (nanmin (ey_list (inject_Z xi) a b c)) as [lo|] eqn:EL; [|exfalso; exact (nan_none_min _ EL _ I0)].
  destruct (nanmax (ey_list (inject_Z xi) a b c)) as [hi|] eqn:EH; [|exfalso; exact (nan_none_max _ EH _ I0)].
  apply nanmin_spec in EL. apply nanmax_spec in EH. destruct EL as [L1 L2], EH as [H1 H2].
  eexists. split; [reflexivity|]. split; [|split].
  - apply NoDup_map_inj_in; [|apply NoDup_zrange2]. intros p q _ _ E. congruence.
  - intros k' y x Hin. apply in_map_iff in Hin. destruct Hin as (y' & E & Hy). injection E as <- <- <-. apply in_zrange2 in Hy.
    assert (G1 : (Qceiling lo <= y')%Z) by lia. assert (G2 : (y' <= Qfloor hi)%Z) by lia. apply Qceiling_iff in G1. apply Qfloor_iff in G2.
    split; [reflexivity|]. split; [reflexivity|]. split; [lia|].
    apply (hull_vertical_convex a b c _ _ lo hi); [now apply icept_hull|now apply icept_hull|split; assumption].
  - intros NA y Hy HH. destruct (hull_between_icepts a b c _ _ NA HH) as (y1 & y2 & I1 & I2 & HBt).
    pose proof (L2 _ I1). pose proof (L2 _ I2). pose proof (H2 _ I1). pose proof (H2 _ I2).
    apply in_map_iff. exists y. split; [reflexivity|]. apply in_zrange2.
    assert (G1 : lo <= inject_Z y) by (destruct HBt; lra). assert (G2 : inject_Z y <= hi) by (destruct HBt; lra).
    apply Qceiling_iff in G1. apply Qfloor_iff in G2. lia.
Qed.
Lemma column_rows_ok ny k t xi r : triangle_column ny k t xi = Ok r -> triangle_column ny k t xi = Ok (column_rows ny k t xi) /\ column_rows ny k t xi = r.
Proof. unfold column_rows. intros E. rewrite E. now split. Qed.
Lemma triangle_rows_spec nx ny k a b c :
  exists r, triangle_rows nx ny k (a, b, c) = Ok r /\ NoDup r /\
   (forall k' y x, In (k', y, x) r -> k' = k /\ (0 <= x < nx)%Z /\ (0 <= y < ny)%Z /\ Hull a b c (inject_Z x, inject_Z y)) /\
   (~ all_x_equal a b c -> forall y x, (0 <= x < nx)%Z -> (0 <= y < ny)%Z -> Hull a b c (inject_Z x, inject_Z y) -> In (k, y, x) r).
Proof.
  unfold triangle_rows, triangle_box. set (cols := zrange2 _ _).
  assert (HC : forall xi, In xi cols -> (0 <= xi < nx)%Z /\ min3 (fst a) (fst b) (fst c) <= inject_Z xi <= max3 (fst a) (fst b) (fst c)).
  { intros xi H. apply in_zrange2 in H. split; [lia|]. assert (G1 : (Qceiling (min3 (fst a) (fst b) (fst c)) <= xi)%Z) by lia.
    assert (G2 : (xi <= Qfloor (max3 (fst a) (fst b) (fst c)))%Z) by lia. apply Qceiling_iff in G1. apply Qfloor_iff in G2. split; assumption. }
  assert (HC' : forall xi, (0 <= xi < nx)%Z -> min3 (fst a) (fst b) (fst c) <= inject_Z xi <= max3 (fst a) (fst b) (fst c) -> In xi cols).
  { intros xi H [G1 G2]. apply Qceiling_iff in G1. apply Qfloor_iff in G2. apply in_zrange2. lia. }
  assert (ND : NoDup cols) by apply NoDup_zrange2. clearbody cols.
  rewrite (mapM_ok _ (column_rows ny k (a, b, c))).
  2: { intros xi Hx. destruct (triangle_column_spec ny k a b c xi (proj2 (HC xi Hx))) as (r & E & _). exact (proj1 (column_rows_ok _ _ _ _ _ E)). }
  cbn [bind]. eexists. split; [reflexivity|].
  assert (CR : forall xi, In xi cols -> NoDup (column_rows ny k (a, b, c) xi) /\
     (forall k' y x, In (k', y, x) (column_rows ny k (a, b, c) xi) -> k' = k /\ x = xi /\ (0 <= y < ny)%Z /\ Hull a b c (inject_Z xi, inject_Z y)) /\
     (~ all_x_equal a b c -> forall y, (0 <= y < ny)%Z -> Hull a b c (inject_Z xi, inject_Z y) -> In (k, y, xi) (column_rows ny k (a, b, c) xi))).
  { intros xi Hx. destruct (triangle_column_spec ny k a b c xi (proj2 (HC xi Hx))) as (r & E & H). pose proof (proj2 (column_rows_ok _ _ _ _ _ E)) as F. subst r. exact H. }
  rewrite <- flat_map_concat_map. split; [|split].
  - clear HC'. induction cols as [|xi cols IH]; cbn [flat_map]; [constructor|]. inversion_clear ND as [|? ? Hni ND'].
    apply NoDup_app2; [apply CR; now left|apply IH; [intros; apply HC; now right|exact ND'|intros; apply CR; now right]|].
    intros [[k' y] x] H1 H2. apply in_flat_map in H2. destruct H2 as (xi' & H2 & H3).
    apply (CR xi ltac:(now left)) in H1. apply (CR xi' ltac:(now right)) in H3. destruct H1 as (_ & -> & _), H3 as (_ & -> & _). contradiction.
  - intros k' y x H. apply in_flat_map in H. destruct H as (xi & Hx & H). apply (CR xi Hx) in H. destruct H as (-> & -> & Hy & HH).
    split; [reflexivity|]. split; [apply (HC xi Hx)|]. split; assumption.
  - intros NA y x Hx Hy HH. apply in_flat_map. exists x. pose proof (hull_box _ _ _ _ HH) as [HX _]. cbn [fst] in HX.
    assert (In x cols) by (apply HC'; assumption). split; [assumption|]. now apply (CR x).
Qed.
