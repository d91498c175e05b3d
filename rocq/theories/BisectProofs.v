(** BisectProofs.v: connected cells and the filling of a box. *)
From Verif Require Import QBase BisectModel.
Open Scope Z_scope.

(** ** Specification *)
(** the neighbour d steps along an axis *)
Definition shift (a : axis) (d : Z) (c : cell) : cell := set c a (get c a + d).
Definition within (n : trip Z) (c : cell) : Prop := forall a, 0 <= get c a < get n a.
(** [F a c]: the face between cell c and its next neighbour along axis a is in the set.
    [Conn R F s c]: there is a path from s to c through cells of R which crosses no face of F. *)
Inductive Conn (R : cell -> Prop) (F : axis -> cell -> Prop) (s : cell) : cell -> Prop :=
| conn_here : R s -> Conn R F s s
| conn_up c a : Conn R F s c -> R (shift a 1 c) -> ~ F a c -> Conn R F s (shift a 1 c)
| conn_down c a : Conn R F s c -> R (shift a (-1) c) -> ~ F a (shift a (-1) c) -> Conn R F s (shift a (-1) c).

(** ** cells *)
Lemma get_set_same (c : cell) a v : get (set c a v) a = v.
Proof. now destruct a. Qed.
Lemma get_set_other (c : cell) a b v : a <> b -> get (set c a v) b = get c b.
Proof. destruct a, b; (congruence || reflexivity). Qed.
Lemma cell_ext (c d : cell) : (forall a, get c a = get d a) -> c = d.
Proof. intros H. destruct c, d. pose proof (H K). pose proof (H J). pose proof (H I). cbn in *. congruence. Qed.
Lemma axis_dec (a b : axis) : {a = b} + {a <> b}.
Proof. decide equality. Qed.
Lemma get_shift a d c b : get (shift a d c) b = if axis_dec a b then get c b + d else get c b.
Proof. unfold shift. destruct (axis_dec a b) as [<-|N]; [apply get_set_same|now apply get_set_other]. Qed.
Lemma shift_shift a c : shift a 1 (shift a (-1) c) = c.
Proof. apply cell_ext. intros b. rewrite !get_shift. destruct (axis_dec a b); lia. Qed.
Lemma shift_shift' a c : shift a (-1) (shift a 1 c) = c.
Proof. apply cell_ext. intros b. rewrite !get_shift. destruct (axis_dec a b); lia. Qed.
Lemma get_zip3 (f : Z -> Z -> Z) s t a : get (zip3 f s t) a = f (get s a) (get t a).
Proof. now destruct a. Qed.
Lemma get_map3 (f : Z -> Z) s a : get (map3 f s) a = f (get s a).
Proof. now destruct a. Qed.
Lemma cell_eqb_eq c d : cell_eqb c d = true <-> c = d.
Proof.
  unfold cell_eqb. rewrite !andb_true_iff, !Z.eqb_eq. destruct c, d; cbn. split; [intros [[-> ->] ->]; reflexivity|intros [= -> -> ->]; auto].
Qed.
Lemma mem_iff c l : mem c l = true <-> In c l.
Proof.
  unfold mem. rewrite existsb_exists. split.
  - intros (x & H & E). apply cell_eqb_eq in E. now subst.
  - intros H. exists c. split; [assumption|now apply cell_eqb_eq].
Qed.
Lemma mem_false c l : mem c l = false <-> ~ In c l.
Proof. rewrite <- mem_iff. destruct (mem c l); split; congruence. Qed.
Lemma all3_iff (f : Z -> Z -> bool) s t : all3 f s t = true <-> forall a, f (get s a) (get t a) = true.
Proof.
  unfold all3. rewrite !andb_true_iff. split; [intros [[A B] C] []; assumption|].
  intros H. pose proof (H K). pose proof (H J). pose proof (H I). auto.
Qed.
Lemma in_indices n c : In c (indices n) <-> within n c.
Proof.
  unfold indices. rewrite in_flat_map. split.
  - intros (k & Hk & H). apply in_flat_map in H. destruct H as (j & Hj & H). apply in_map_iff in H. destruct H as (i & <- & Hi).
    apply in_zrange in Hk, Hj, Hi. intros []; assumption.
  - intros H. destruct c as [k j i]. exists k. split; [apply in_zrange, (H K)|]. apply in_flat_map. exists j. split; [apply in_zrange, (H J)|].
    apply in_map_iff. exists i. split; [reflexivity|apply in_zrange, (H I)].
Qed.
Lemma length_flat_const {A B} (f : A -> list B) m l : (forall x, List.length (f x) = m) -> List.length (flat_map f l) = (List.length l * m)%nat.
Proof. intros H. induction l as [|x l IH]; [reflexivity|]. cbn [flat_map List.length]. rewrite app_length, H, IH. lia. Qed.
Lemma length_indices n : List.length (indices n) = (Z.to_nat (tk n) * (Z.to_nat (tj n) * Z.to_nat (ti n)))%nat.
Proof.
  unfold indices. rewrite (length_flat_const _ (Z.to_nat (tj n) * Z.to_nat (ti n))%nat), length_zrange; [reflexivity|].
  intros k. rewrite (length_flat_const _ (Z.to_nat (ti n))), length_zrange; [reflexivity|]. intros j. now rewrite map_length, length_zrange.
Qed.
Lemma size_indices n : (forall a, 0 < get n a) -> Z.to_nat (size n) = List.length (indices n).
Proof. intros H. rewrite length_indices. unfold size. pose proof (H K). pose proof (H J). pose proof (H I). cbn in *. rewrite !Z2Nat.inj_mul by lia. lia. Qed.

(** ** connection *)
Section Conn.
Variables (R : cell -> Prop) (F : axis -> cell -> Prop).
Lemma conn_in s c : Conn R F s c -> R c.
Proof. intros []; assumption. Qed.
Lemma conn_start s c : Conn R F s c -> R s.
Proof. induction 1; assumption. Qed.
Lemma conn_trans s c d : Conn R F s c -> Conn R F c d -> Conn R F s d.
Proof. intros H1 H2. induction H2; [assumption|now constructor|now constructor]. Qed.
Lemma conn_step_up c a : R c -> R (shift a 1 c) -> ~ F a c -> Conn R F c (shift a 1 c).
Proof. intros. constructor; [now constructor|assumption|assumption]. Qed.
Lemma conn_step_down c a : R c -> R (shift a 1 c) -> ~ F a c -> Conn R F (shift a 1 c) c.
Proof.
  intros H1 H2 H3. rewrite <- (shift_shift' a c) at 2. apply conn_down; [now constructor|now rewrite shift_shift'|now rewrite shift_shift'].
Qed.
Lemma conn_sym s c : Conn R F s c -> Conn R F c s.
Proof.
  induction 1 as [H|c a H IH H1 H2|c a H IH H1 H2]; [now constructor| |].
  - eapply conn_trans; [|exact IH]. apply conn_step_down; auto. eapply conn_in; eassumption.
  - eapply conn_trans; [|exact IH]. pose proof (conn_step_up (shift a (-1) c) a) as S'. rewrite shift_shift in S'. apply S'; auto. eapply conn_in; eassumption.
Qed.
End Conn.
Lemma conn_mono (R R' : cell -> Prop) (F F' : axis -> cell -> Prop) s c :
  (forall x, R x -> R' x) -> (forall a x, R x -> R (shift a 1 x) -> F' a x -> F a x) -> Conn R F s c -> Conn R' F' s c.
Proof.
  intros H1 H2. induction 1 as [H|c a H IH H3 H4|c a H IH H3 H4]; [constructor; auto| |]; (constructor; [assumption|auto|]).
  - intros X. apply H4, H2; auto. eapply conn_in; eassumption.
  - intros X. apply H4, H2; auto. rewrite shift_shift. eapply conn_in; eassumption.
Qed.

(** ** the filling loop *)
Section Fill.
Variables (n : trip Z) (op : axis -> cell -> bool).
Hypothesis Hn : forall a, 0 < get n a.
Notation Fo := (fun a c => op a c = false).
Definition Fills (s : list cell) (c : cell) : Prop :=
  exists a, (In (shift a (-1) c) s /\ op a (shift a (-1) c) = true) \/ (In (shift a 1 c) s /\ op a c = true).
Lemma spreads_iff s c : within n c -> (forall x, In x s -> within n x) -> (spreads n (op K) (op J) (op I) s c = true <-> Fills s c).
Proof.
  intros Hc Hs. destruct c as [k j i]. unfold spreads. rewrite !orb_true_iff, !andb_true_iff, !mem_iff, !negb_true_iff, !Z.eqb_neq, !Z.ltb_lt. split.
  - intros [[[[[H|H]|H]|H]|H]|H].
    + exists K. left. exact (conj (proj2 (proj1 H)) (proj2 H)).
    + exists J. left. exact (conj (proj2 (proj1 H)) (proj2 H)).
    + exists I. left. exact (conj (proj2 (proj1 H)) (proj2 H)).
    + exists K. right. exact (conj (proj2 (proj1 H)) (proj2 H)).
    + exists J. right. exact (conj (proj2 (proj1 H)) (proj2 H)).
    + exists I. right. exact (conj (proj2 (proj1 H)) (proj2 H)).
  - intros ([] & [[H1 H2]|[H1 H2]]); pose proof (Hs _ H1) as W.
    + do 5 left. specialize (W K). unfold shift in *. cbn [set get tk tj ti] in *. replace (k + -1) with (k - 1) in * by lia. repeat split; auto. lia.
    + do 2 left. right. specialize (W K). unfold shift in *. cbn [set get tk tj ti] in *. repeat split; auto. lia.
    + do 4 left. right. specialize (W J). unfold shift in *. cbn [set get tk tj ti] in *. replace (j + -1) with (j - 1) in * by lia. repeat split; auto. lia.
    + do 1 left. right. specialize (W J). unfold shift in *. cbn [set get tk tj ti] in *. repeat split; auto. lia.
    + do 3 left. right. specialize (W I). unfold shift in *. cbn [set get tk tj ti] in *. replace (i + -1) with (i - 1) in * by lia. repeat split; auto. lia.
    + right. specialize (W I). unfold shift in *. cbn [set get tk tj ti] in *. repeat split; auto. lia.
Qed.
Variable s0 : cell.
Definition Good (s : list cell) : Prop := NoDup s /\ forall x, In x s -> Conn (within n) Fo s0 x.
Lemma good_within s x : Good s -> In x s -> within n x.
Proof. intros [_ H] Hx. eapply conn_in. now apply H. Qed.
Lemma good_fills s c : Good s -> within n c -> Fills s c -> Conn (within n) Fo s0 c.
Proof.
  intros [_ H] Hc (a & [[H1 H2]|[H1 H2]]); specialize (H _ H1).
  - pose proof (conn_up (within n) Fo s0 _ a H) as G. rewrite shift_shift in G. apply G; [assumption|]. cbn beta. congruence.
  - pose proof (conn_down (within n) Fo s0 _ a H) as G. rewrite shift_shift' in G. apply G; [assumption|]. cbn beta. congruence.
Qed.
Lemma fold_fill l : forall s g s' g', Good s -> (forall x, In x l -> within n x) ->
  fold_left (fill_element n (op K) (op J) (op I)) l (s, g) = (s', g') ->
  Good s' /\ incl s s' /\ (g' = false -> g = false /\ s' = s /\ forall x, In x l -> In x s \/ ~ Fills s x) /\
  (g' = true -> g = true \/ (List.length s < List.length s')%nat) /\ (List.length s <= List.length s')%nat.
Proof.
  induction l as [|c l IH]; intros s g s' g' Gs Hl E; cbn [fold_left] in E.
  - injection E as <- <-. repeat split; auto; try apply Gs; try apply incl_refl; easy.
  - assert (Hc : within n c) by (apply Hl; now left).
    pose proof (spreads_iff s c Hc (fun x => good_within s x Gs)) as SI.
    unfold fill_element at 2 in E. cbn [fst] in E. destruct (mem c s) eqn:M.
    { apply mem_iff in M. destruct (IH _ _ _ _ Gs (fun x Hx => Hl x (or_intror Hx)) E) as (A & B & C & D & E'). repeat split; auto; try apply A; try (intros; now apply C).
      intros x [<-|Hx]; [now left|]. now apply C. }
    destruct (spreads n (op K) (op J) (op I) s c) eqn:SP.
    + assert (G2 : Good (c :: s)).
      { split; [constructor; [now apply mem_false|apply Gs]|]. intros x [<-|Hx]; [|now apply Gs]. eapply good_fills; [exact Gs|assumption|now apply SI]. }
      destruct (IH _ _ _ _ G2 (fun x Hx => Hl x (or_intror Hx)) E) as (A & B & C & D & E'). cbn [List.length] in E'.
      split; [exact A|]. split; [intros x Hx; apply B; now right|]. split; [intros X; destruct (C X) as [Y _]; discriminate|]. split; [intros; right; lia|lia].
    + destruct (IH _ _ _ _ Gs (fun x Hx => Hl x (or_intror Hx)) E) as (A & B & C & D & E'). repeat split; auto; try apply A; try (intros; now apply C).
      intros x [<-|Hx]; [|now apply C]. right. intros X. apply SI in X. discriminate.
Qed.
Lemma good_length s : Good s -> (List.length s <= List.length (indices n))%nat.
Proof. intros G. apply NoDup_incl_length; [apply G|]. intros x Hx. apply in_indices. now apply (good_within s). Qed.
Lemma fill_ok fuel : forall s, Good s -> (List.length (indices n) < List.length s + fuel)%nat ->
  exists s', fill_bisector fuel n (op K) (op J) (op I) s = Ok s' /\ Good s' /\ incl s s' /\ forall x, within n x -> In x s' \/ ~ Fills s' x.
Proof.
  induction fuel as [|fuel IH]; intros s G L; [pose proof (good_length s G); lia|]. cbn [fill_bisector].
  destruct (fill_sweep n (op K) (op J) (op I) s) as [s1 g] eqn:E. unfold fill_sweep in E.
  destruct (fold_fill _ _ _ _ _ G (fun x => proj1 (in_indices n x)) E) as (A & B & C & D & E').
  destruct g.
  - destruct (D eq_refl) as [D'|D']; [discriminate|]. destruct (IH s1 A ltac:(lia)) as (s2 & E2 & G2 & I2 & C2).
    exists s2. repeat split; auto; try apply G2. eapply incl_tran; eassumption.
  - destruct (C eq_refl) as (_ & -> & C'). exists s. repeat split; auto; try apply G. intros x Hx. apply C', in_indices, Hx.
Qed.
(** the box is filled with exactly the cells connected to the seed *)
Lemma fill_conn : within n s0 -> exists s', fill_bisector (S (Z.to_nat (size n))) n (op K) (op J) (op I) [s0] = Ok s' /\ NoDup s' /\
  forall x, In x s' <-> Conn (within n) Fo s0 x.
Proof.
  intros H0. destruct (fill_ok (S (Z.to_nat (size n))) [s0]) as (s' & E & G & I' & C).
  - split; [repeat constructor; easy|]. intros x [<-|[]]. now constructor.
  - rewrite size_indices by assumption. cbn [List.length]. lia.
  - exists s'. split; [exact E|]. split; [apply G|]. intros x. split; [apply G|].
    induction 1 as [H|c a H IH H1 H2|c a H IH H1 H2]; [apply I'; now left| |].
    + destruct (C (shift a 1 c) H1) as [X|X]; [assumption|]. exfalso. apply X. exists a. left. rewrite shift_shift'. split; [assumption|now apply not_false_iff_true].
    + destruct (C (shift a (-1) c) H1) as [X|X]; [assumption|]. exfalso. apply X. exists a. right. rewrite shift_shift. split; [assumption|now apply not_false_iff_true].
Qed.
End Fill.
