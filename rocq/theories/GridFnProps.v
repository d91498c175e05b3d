(** GridFnProps.v: theorems for C28 (reordering of corner points), C30 (infilling of inactive
    cells) and C60 (translation of corner points). *)
From Verif Require Import QBase GridFnModel GridFnProofs.
Open Scope Z_scope.

(** ** C28 *)
Definition InGrid (nk nj ni k j i : Z) : Prop := 0 <= k < nk /\ 0 <= j < nj /\ 0 <= i < ni.
Lemma in_grid_b nk nj ni k j i : InGrid nk nj ni k j i -> (0 <=? k) && (k <? nk) && (0 <=? j) && (j <? nj) && (0 <=? i) && (i <? ni) = true.
Proof. unfold InGrid. lia. Qed.

(** Outside eight mode the corners (1, 0) and (1, 1) of both layers of corners change places,
    and doing it twice restores every number of every cell. *)
Theorem C28_four_mode_exchanges : forall A (zero : A) nk nj ni undo (cp : corp A) k j i kp x,
  InGrid nk nj ni k j i -> 0 <= kp <= 1 -> 0 <= x <= 2 ->
  let r := resequence_nexus_corp zero nk nj ni false undo cp k j i in
  cp_get r kp 0 0 x = cp_get (cp k j i) kp 0 0 x /\ cp_get r kp 0 1 x = cp_get (cp k j i) kp 0 1 x /\
  cp_get r kp 1 0 x = cp_get (cp k j i) kp 1 1 x /\ cp_get r kp 1 1 x = cp_get (cp k j i) kp 1 0 x.
Proof.
  intros A zero nk nj ni undo cp k j i kp x G Hk Hx. cbn zeta. unfold resequence_nexus_corp. rewrite (in_grid_b _ _ _ _ _ _ G).
  assert (K : kp = 0 \/ kp = 1) by lia. assert (X : x = 0 \/ x = 1 \/ x = 2) by lia.
  destruct K as [-> | ->], X as [-> |[-> | ->]]; repeat split; reflexivity.
Qed.
Print Assumptions C28_four_mode_exchanges.

Theorem C28_four_mode_twice : forall A (zero : A) nk nj ni undo undo' (cp : corp A) k j i n, 0 <= n < 24 ->
  resequence_nexus_corp zero nk nj ni false undo' (resequence_nexus_corp zero nk nj ni false undo cp) k j i n = cp k j i n.
Proof.
  intros A zero nk nj ni undo undo' cp k j i n H. unfold resequence_nexus_corp.
  destruct ((0 <=? k) && (k <? nk) && (0 <=? j) && (j <? nj) && (0 <=? i) && (i <? ni)); [|reflexivity].
  revert n H. apply forall24. repeat constructor.
Qed.
Print Assumptions C28_four_mode_twice.

(** In eight mode the data of a cell are eight x values, then eight y values, then eight z
    values; they become the coordinates of the eight corners. *)
Theorem C28_eight_mode_meaning : forall A (zero : A) nk nj ni (cp : corp A) k j i kp jp ip x,
  InGrid nk nj ni k j i -> 0 <= kp <= 1 -> 0 <= jp <= 1 -> 0 <= ip <= 1 -> 0 <= x <= 2 ->
  cp_get (resequence_nexus_corp zero nk nj ni true false cp k j i) kp jp ip x = cp k j i (x * 8 + (4 * kp + 2 * jp + ip)) /\
  resequence_nexus_corp zero nk nj ni true true cp k j i (x * 8 + (4 * kp + 2 * jp + ip)) = cp_get (cp k j i) kp jp ip x.
Proof.
  intros A zero nk nj ni cp k j i kp jp ip x G Hk Hj Hi Hx. unfold resequence_nexus_corp. rewrite (in_grid_b _ _ _ _ _ _ G).
  assert (K : kp = 0 \/ kp = 1) by lia. assert (J : jp = 0 \/ jp = 1) by lia. assert (I' : ip = 0 \/ ip = 1) by lia. assert (X : x = 0 \/ x = 1 \/ x = 2) by lia.
  destruct K as [-> | ->], J as [-> | ->], I' as [-> | ->], X as [-> |[-> | ->]]; split; reflexivity.
Qed.
Print Assumptions C28_eight_mode_meaning.

Theorem C28_eight_mode_undo : forall A (zero : A) nk nj ni (cp : corp A) k j i n, 0 <= n < 24 ->
  resequence_nexus_corp zero nk nj ni true true (resequence_nexus_corp zero nk nj ni true false cp) k j i n = cp k j i n /\
  resequence_nexus_corp zero nk nj ni true false (resequence_nexus_corp zero nk nj ni true true cp) k j i n = cp k j i n.
Proof.
  intros A zero nk nj ni cp k j i n H. unfold resequence_nexus_corp.
  destruct ((0 <=? k) && (k <? nk) && (0 <=? j) && (j <? nj) && (0 <=? i) && (i <? ni)); [|auto].
  revert n H. apply forall24. repeat constructor.
Qed.
Print Assumptions C28_eight_mode_undo.

(** Nothing is moved between cells, and no number of a cell is lost or repeated. *)
Theorem C28_within_cells : forall eight_mode undo, exists (p q : Z -> Z),
  (forall n, 0 <= n < 24 -> 0 <= p n < 24 /\ 0 <= q n < 24 /\ q (p n) = n /\ p (q n) = n) /\
  forall A (zero : A) nk nj ni (cp : corp A) k j i n, InGrid nk nj ni k j i -> 0 <= n < 24 ->
    resequence_nexus_corp zero nk nj ni eight_mode undo cp k j i n = cp k j i (p n).
Proof.
  intros e u.
  pose (sw := fun n => if (n / 3 =? 2) || (n / 3 =? 6) then n + 3 else if (n / 3 =? 3) || (n / 3 =? 7) then n - 3 else n).
  pose (d := fun n => (n mod 3) * 8 + n / 3). pose (w := fun n => (n mod 8) * 3 + n / 8).
  exists (if e then (if u then w else d) else sw), (if e then (if u then d else w) else sw). split.
  - apply forall24. destruct e, u; repeat (constructor; [vm_compute; intuition congruence|]); constructor.
  - intros A zero nk nj ni cp k j i n G H. unfold resequence_nexus_corp. rewrite (in_grid_b _ _ _ _ _ _ G).
    revert n H. apply forall24. destruct e, u; repeat constructor.
Qed.
Print Assumptions C28_within_cells.
Example C28_example : map (resequence_nexus_corp 0 1 1 1 true false (fun _ _ _ n => n) 0 0 0) [0; 1; 2; 3; 4; 5] = [0; 8; 16; 1; 9; 17].
Proof. reflexivity. Qed.

(** ** C30 *)

(** Without snapping, the depths, thicknesses and positions of active cells are never changed,
    whether or not the call succeeds. *)
Theorem C30_active_cells_kept_partial : forall nk o c c' r, o_snap o = false ->
  infill_column nk o c = (c', r) -> forall k, Active nk o c k -> Kept c c' k.
Proof.
  intros nk o c c' r NS E. unfold infill_column in E.
  destruct (clean_up (Z.to_nat nk) o 0 c) as [k2 c2] eqn:CU.
  pose proof (clean_up_spec o _ _ _ _ _ CU) as (B2 & T2 & S2 & Z2 & Kp2).
  assert (AL : forall k, Active nk o c k -> Kept c c2 k).
  { intros k A. apply Kp2. intros H. apply act_tiny in A as [_ A]. rewrite T2 in A by lia. discriminate. }
  destruct (nk <=? k2) eqn:Q; [injection E as <- _; exact AL|].
  eapply loop_keeps; [exact NS|exact AL| |exact E]. intros k Hk. destruct (Kp2 k ltac:(lia)) as (F & _). cbn [snap]. rewrite F. reflexivity.
Qed.
Print Assumptions C30_active_cells_kept_partial.

(** Without snapping, the cells above the first active one, or all of them when there is none, get
    depth and thickness zero; their x and y are zero when within the tolerance and kept otherwise. *)
Definition settled (tol v v' : Q) : Prop := ((Qabs v <= tol)%Q -> v' = 0%Q) /\ ((tol < Qabs v)%Q -> v' = v).
Lemma clean_up_settles o : forall n k c k2 c', clean_up n o k c = (k2, c') ->
  forall j, k <= j < k2 -> settled (o_xyt o) (c_x c j) (c_x c' j) /\ settled (o_xyt o) (c_y c j) (c_y c' j).
Proof.
  induction n as [|n IH]; intros k c k2 c' E; cbn [clean_up] in E.
  - injection E as <- <-. intros; lia.
  - destruct (tiny (o_dzt o) (c_depth c k)) eqn:T; [|injection E as <- <-; intros; lia].
    pose proof (clean_up_spec o _ _ _ _ _ E) as (_ & _ & _ & _ & Kp). specialize (IH _ _ _ _ E). cbn [c_depth c_thick c_x c_y] in *.
    intros j Hj. destruct (Z.eq_dec j k) as [->|N].
    + destruct (Kp k ltac:(lia)) as (_ & _ & X & Y). cbn [c_x c_y] in X, Y. rewrite X, Y. unfold settled, tiny, put.
      split; [destruct (Qle_bool (Qabs (c_x c k)) (o_xyt o)) eqn:Q|destruct (Qle_bool (Qabs (c_y c k)) (o_xyt o)) eqn:Q];
        rewrite ?Z.eqb_refl; rewrite ?Qleb_iff, ?Qleb_false in Q; split; intros H; try reflexivity; exfalso; lra.
    + specialize (IH j ltac:(lia)).
      assert (P : forall (b : bool) (g : col), (if b then put g k 0%Q else g) j = g j) by (intros [] g; unfold put; [now replace (j =? k) with false by lia|reflexivity]).
      rewrite !P in IH. exact IH.
Qed.
Lemma loop_keeps_above nk o : o_snap o = false -> forall fuel kt c c' r, infill_loop fuel nk o kt c = (c', r) -> forall k, k < kt -> Kept c c' k.
Proof.
  intros NS. induction fuel as [|fuel IH]; intros kt c c' r E k Hk; cbn [infill_loop] in E; [injection E as <- _; unfold Kept; auto|].
  destruct (skip_active_spec o c (Z.to_nat (nk - kt)) kt _ eq_refl) as (B1 & _).
  set (k1 := skip_active (Z.to_nat (nk - kt)) o kt c) in *.
  destruct (clean_up (Z.to_nat (nk - (k1 + 1))) o (k1 + 1) c) as [k2 c2] eqn:CU.
  pose proof (clean_up_spec o _ _ _ _ _ CU) as (B2 & _ & _ & _ & Kp2). specialize (Kp2 k ltac:(lia)).
  destruct (nk <=? k2); [injection E as <- _; unfold snap; rewrite NS; exact Kp2|].
  destruct (Qltb _ 0%Q). { destruct (Qltb _ (o_overlap o)); injection E as <- _; exact Kp2. }
  destruct (negb _); [injection E as <- _; exact Kp2|].
  specialize (IH _ _ _ _ E k ltac:(lia)). destruct Kp2 as (E1 & E2 & E3 & E4).
  edestruct (fill_spec (Z.to_nat (k2 - k1)) (k2 - k1) k1) as [FK _]. destruct (FK k ltac:(lia)) as (F1 & F2 & F3 & F4).
  destruct IH as (G1 & G2 & G3 & G4). unfold Kept. rewrite G1, G2, G3, G4, F1, F2, F3, F4. auto.
Qed.
Theorem C30_cells_above_the_first_active : forall nk o c c' r, o_snap o = false -> infill_column nk o c = (c', r) ->
  forall k, 0 <= k < nk -> (forall a, Active nk o c a -> k < a) ->
    c_depth c' k = 0%Q /\ c_thick c' k = 0%Q /\ settled (o_xyt o) (c_x c k) (c_x c' k) /\ settled (o_xyt o) (c_y c k) (c_y c' k).
Proof.
  intros nk o c c' r NS E k Hk H. unfold infill_column in E.
  destruct (clean_up (Z.to_nat nk) o 0 c) as [k2 c2] eqn:CU.
  pose proof (clean_up_spec o _ _ _ _ _ CU) as (B2 & T2 & S2 & Z2 & _). pose proof (clean_up_settles o _ _ _ _ _ CU) as SE.
  assert (L : k < k2).
  { destruct S2 as [->|S2]; [lia|]. destruct (Z.eq_dec k2 nk) as [->|]; [lia|]. apply H. apply act_tiny. split; [lia|exact S2]. }
  destruct (Z2 k ltac:(lia)) as [D T]. destruct (SE k ltac:(lia)) as [X Y].
  destruct (nk <=? k2); [injection E as <- _; auto|]. cbn [snap] in E.
  destruct (loop_keeps_above nk o NS _ _ _ _ _ E k L) as (E1 & E2 & E3 & E4). rewrite E1, E2, E3, E4. auto.
Qed.
Print Assumptions C30_cells_above_the_first_active.
Example C30_cells_above_example :
  let c := Col (fun k => if k =? 2 then 100%Q else (1#100000)%Q) (fun _ => 5%Q) (fun k => if k =? 0 then 7%Q else (1#1000000)%Q) (fun _ => 3%Q) in
  let o := Opt (1#100) (1#100) 20 false false 1 in let c' := fst (infill_column 3 o c) in
  map (c_x c') [0; 1; 2] = [7%Q; 0%Q; (1#1000000)%Q] /\ map (c_depth c') [0; 1; 2] = [0%Q; 0%Q; 100%Q].
Proof. split; reflexivity. Qed.

(** Without snapping, for a column with an active cell and no overlap over a void: the call
    succeeds, each run of inactive cells between two active ones shares the void equally and in
    order, the cells above the first active one are zero and those below the last stay inactive. *)
Theorem C30_voids_are_shared_partial : forall nk o c, o_snap o = false ->
  (exists k, Active nk o c k) ->
  (forall a b, Next nk o c a b -> a + 1 < b -> (0 <= gap o c a b)%Q) ->
  exists c', infill_column nk o c = (c', Ok tt) /\
    (forall k, Active nk o c k -> Kept c c' k) /\
    (forall a b, Next nk o c a b -> Shares o c c' a b) /\
    (forall k, 0 <= k < nk -> (forall a, Active nk o c a -> k < a) -> c_depth c' k = 0%Q /\ c_thick c' k = 0%Q) /\
    (forall k, 0 <= k < nk -> (forall a, Active nk o c a -> a < k) -> (Qabs (c_depth c' k) <= o_dzt o)%Q).
Proof.
  intros nk o c NS EX G. destruct (column_spec nk o c G EX) as (kt & c' & E & F). exists c'.
  unfold snap in E. rewrite NS in E. destruct F as [F1 F2 F3 F4 F5 F6]. split; [exact E|]. split; [exact F3|]. split; [exact F4|]. split; [exact F5|].
  intros k Hk H. specialize (F6 k). unfold tiny in F6. rewrite Qleb_iff in F6. apply F6. specialize (H _ F1). lia.
Qed.
Print Assumptions C30_voids_are_shared_partial.

(** Shared voids leave no gap and no overlap: each cell from a on ends where the next begins. *)
Theorem C30_shared_voids_abut : forall nk o c c' a b, (o_sign o * o_sign o == 1)%Q ->
  Next nk o c a b -> a + 1 < b -> Kept c c' a -> Kept c c' b -> Shares o c c' a b ->
  forall k, a <= k < b -> (face_after o (c_depth c') (c_thick c') k == face_before o (c_depth c') (c_thick c') (k + 1))%Q.
Proof.
  intros nk o c c' a b S2 N L (A1 & A2 & _) (B1 & B2 & _) SH k Hk.
  assert (NZ : (0 < inject_Z (b - a - 1))%Q) by (change 0%Q with (inject_Z 0); rewrite <- Zlt_Qlt; lia).
  assert (GG : (o_sign o * gap o c a b == face_before o (c_depth c) (c_thick c) b - face_after o (c_depth c) (c_thick c) a)%Q).
  { unfold gap. set (u := (face_before o (c_depth c) (c_thick c) b - face_after o (c_depth c) (c_thick c) a)%Q).
    setoid_replace (o_sign o * (o_sign o * u))%Q with ((o_sign o * o_sign o) * u)%Q by ring. rewrite S2. ring. }
  set (g := gap o c a b) in *. set (n := inject_Z (b - a - 1)) in *. set (s := o_sign o) in *.
  set (fa := face_after o (c_depth c) (c_thick c) a) in *. set (fb := face_before o (c_depth c) (c_thick c) b) in *.
  assert (LO : forall j, a < j < b -> (face_before o (c_depth c') (c_thick c') j == fa + s * (inject_Z (j - a - 1) * (g / n)))%Q /\
                                     (face_after o (c_depth c') (c_thick c') j == fa + s * (inject_Z (j - a) * (g / n)))%Q).
  { intros j Hj. destruct (SH j Hj) as (T & D & _). cbn zeta in T, D. fold g n s fa in T, D. unfold face_before, face_after. fold s. rewrite T, D.
    replace (j - a - 1) with (j - a + - (1)) by lia. rewrite inject_Z_plus. change (inject_Z (- (1))) with (- (1))%Q. unfold half. split; field; lra. }
  assert (A : (face_after o (c_depth c') (c_thick c') a == fa)%Q) by (unfold face_after, fa; rewrite A1, A2; reflexivity).
  assert (B : (face_before o (c_depth c') (c_thick c') b == fb)%Q) by (unfold face_before, fb; rewrite B1, B2; reflexivity).
  assert (EN : (n * (g / n) == g)%Q) by (field; lra).
  destruct (Z.eq_dec k a) as [->|Nk].
  - destruct (LO (a + 1) ltac:(lia)) as [L1 _]. rewrite A, L1. replace (a + 1 - a - 1) with 0 by lia. change (inject_Z 0) with 0%Q. ring.
  - destruct (LO k ltac:(lia)) as [_ L1]. rewrite L1. destruct (Z.eq_dec (k + 1) b) as [Eb|Nb].
    + rewrite Eb, B. replace (k - a) with (b - a - 1) by lia. fold n. rewrite EN, GG. ring.
    + destruct (LO (k + 1) ltac:(lia)) as [L2 _]. rewrite L2. replace (k + 1 - a - 1) with (k - a) by lia. reflexivity.
Qed.
Print Assumptions C30_shared_voids_abut.

(** With snapping (the default) the depth of every cell above the deepest active one, active or
    not, is replaced by the top of the deepest active cell. *)
Theorem C30_snapping_flattens_the_column : forall nk o c, o_snap o = true ->
  (exists k, Active nk o c k) ->
  (forall a b, Next nk o c a b -> a + 1 < b -> (0 <= gap o c a b)%Q) ->
  exists c' last, infill_column nk o c = (c', Ok tt) /\ Active nk o c last /\ (forall k, Active nk o c k -> k <= last) /\
    forall k, 0 <= k < last -> (c_depth c' k == face_before o (c_depth c) (c_thick c) last)%Q /\ c_x c' k = c_x c last /\ c_y c' k = c_y c last.
Proof.
  intros nk o c NS EX G. destruct (column_spec nk o c G EX) as (kt & c' & E & F). destruct F as [F1 F2 F3 F4 F5 F6].
  exists (snap o kt true c'), (kt - 1). split; [exact E|]. split; [exact F1|]. split; [intros k A; specialize (F2 k A); lia|].
  intros k Hk. unfold snap. rewrite NS. cbn [c_depth c_x c_y]. replace ((0 <=? k) && (k <? kt - 1)) with true by lia.
  destruct (F3 _ F1) as (A & B & C & D). split; [|auto]. unfold face_before. rewrite A, B. field.
Qed.
Print Assumptions C30_snapping_flattens_the_column.

(** So the property fails for the default options: two active cells 10 thick at depths 5 and 15
    both end up with active depths, but the first is moved to 10. *)
Definition defaults (snap nudge : bool) : options := Opt (1 # 100) (1 # 100) (1 # 100) snap nudge 1.
Definition demo_two : column := Col (fun k => if k =? 0 then 5 else 15)%Q (fun _ => 10%Q) (fun _ => 0%Q) (fun _ => 0%Q).
Theorem C30_snapping_moves_active_cells_refuted : exists nk o c c' k,
  infill_column nk o c = (c', Ok tt) /\ Active nk o c k /\ ~ (c_depth c' k == c_depth c k)%Q.
Proof.
  exists 2, (defaults true true), demo_two.
  destruct (C30_snapping_flattens_the_column 2 (defaults true true) demo_two) as (c' & last & E & A & M & H); [reflexivity| | |].
  - exists 0. split; [lia|]. reflexivity.
  - intros a b (Aa & Ab & _) L. destruct Aa, Ab. lia.
  - assert (last = 1). { specialize (M 1 ltac:(split; [lia|reflexivity])). destruct A. lia. } subst last.
    exists c', 0. split; [exact E|]. split; [split; [lia|reflexivity]|]. destruct (H 0 ltac:(lia)) as (D & _). rewrite D. cbn. discriminate.
Qed.
Print Assumptions C30_snapping_moves_active_cells_refuted.

(** An overlap smaller than the tolerance is meant to be nudged away; instead the call raises
    TypeError, whatever the nudge option. *)
Definition demo_overlap : column :=
  Col (fun k => if k =? 0 then 5 else if k =? 1 then 0 else 14999 # 1000)%Q (fun k => if k =? 1 then 0 else 10)%Q (fun _ => 0%Q) (fun _ => 0%Q).
Theorem C30_nudging_refuted : forall snap nudge, exists nk c, (exists a b, Next nk (defaults snap nudge) c a b /\
    (- o_overlap (defaults snap nudge) < gap (defaults snap nudge) c a b < 0)%Q) /\
  snd (infill_column nk (defaults snap nudge) c) = Err TypeError.
Proof.
  intros s n. exists 3, demo_overlap. split.
  - exists 0, 2. split.
    + split; [split; [lia|reflexivity]|]. split; [split; [lia|reflexivity]|]. split; [lia|]. intros k Hk [_ A]. replace k with 1 in A by lia. vm_compute in A. discriminate.
    + split; vm_compute; reflexivity.
  - destruct s, n; vm_compute; reflexivity.
Qed.
Print Assumptions C30_nudging_refuted.

Definition demo_void : column :=
  Col (fun k => if k =? 0 then 5 else if k =? 3 then 35 else 0)%Q (fun k => if (k =? 0) || (k =? 3) then 10 else 0)%Q (fun k => inject_Z k) (fun _ => 0%Q).
Example C30_example : let r := fst (infill_column 4 (defaults false true) demo_void) in
  map (fun k => Qred (c_depth r k)) [0; 1; 2; 3] = [5; 15; 25; 35]%Q /\ map (fun k => Qred (c_thick r k)) [0; 1; 2; 3] = [10; 10; 10; 10]%Q.
Proof. split; vm_compute; reflexivity. Qed.
Example C30_hypotheses_met : (exists k, Active 4 (defaults false true) demo_void k) /\
  (forall a b, Next 4 (defaults false true) demo_void a b -> a + 1 < b -> (0 <= gap (defaults false true) demo_void a b)%Q).
Proof.
  split; [exists 0; split; [lia|reflexivity]|]. intros a b (Aa & Ab & L & _) L2.
  assert (X : forall k, Active 4 (defaults false true) demo_void k -> k = 0 \/ k = 3).
  { intros k [B A]. destruct (Z.eq_dec k 0); [auto|]. destruct (Z.eq_dec k 3); [auto|]. exfalso. unfold demo_void in A. cbn [c_depth] in A.
    replace (k =? 0) with false in A by lia. replace (k =? 3) with false in A by lia. vm_compute in A. discriminate. }
  destruct (X a Aa), (X b Ab); subst; try lia. vm_compute. discriminate.
Qed.

(** ** C60 *)

(** Translation moves all points by the same amount; the amount is what was asked for if a shift
    was given, and otherwise brings the least value to the requested minimum. *)
Theorem C60_translation : forall points shift min_xy,
  points <> [] -> exists r s, translate_axis points shift min_xy None = Ok r /\
    List.length r = List.length points /\
    (forall n p, nth_error points n = Some p -> exists p', nth_error r n = Some p' /\ (p' == p + s)%Q) /\
    (forall t, shift = Some t -> (s == t)%Q) /\
    (shift = None -> let m := match min_xy with Some m => m | None => 0%Q end in
       (exists p', In p' r /\ (p' == m)%Q) /\ forall p', In p' r -> (m <= p')%Q).
Proof.
  intros points shift mn NE. destruct points as [|p0 pts]; [congruence|].
  assert (NM : forall sub, (forall n p, nth_error (p0 :: pts) n = Some p -> exists p', nth_error (map (fun p => (p - sub)%Q) (p0 :: pts)) n = Some p' /\ (p' == p + - sub)%Q)).
  { intros sub n p H. exists (p - sub)%Q. rewrite nth_error_map, H. split; [reflexivity|]. ring. }
  destruct shift as [t|].
  - exists (map (fun p => (p - - t)%Q) (p0 :: pts)), (- (- t))%Q. split; [reflexivity|]. split; [apply map_length|]. split; [apply NM|].
    split; [|discriminate]. intros t' [= <-]. ring.
  - set (m := match mn with Some m => m | None => 0%Q end). set (sub := (qmin_list p0 pts - m)%Q).
    exists (map (fun p => (p - sub)%Q) (p0 :: pts)), (- sub)%Q. split; [reflexivity|]. split; [apply map_length|]. split; [apply NM|].
    split; [discriminate|]. intros _. cbn zeta. fold m. split.
    + exists (qmin_list p0 pts - sub)%Q. split; [apply (in_map (fun p => (p - sub)%Q)); apply qmin_list_in|]. unfold sub. ring.
    + intros p' H. apply in_map_iff in H as (p & <- & H). destruct (qmin_list_le p0 pts) as [Q1 Q2]. unfold sub. destruct H as [->|H]; [lra|]. specialize (Q2 p H). lra.
Qed.
Print Assumptions C60_translation.

(** With preserve_digits the amount is a whole multiple of that power of ten, and lies within
    one multiple of what it would have been, so that the digits below are kept and (without a
    shift) the least value lands between the minimum and one multiple above it. *)
Theorem C60_preserved_digits : forall points shift min_xy d s, shift_amount points shift min_xy None = Ok s ->
  exists z s', shift_amount points shift min_xy (Some d) = Ok s' /\
    let unit := inject_Z (10 ^ Z.of_nat d) in (s' == unit * inject_Z z)%Q /\ (s' <= s < s' + unit)%Q.
Proof.
  intros points shift mn d s E. unfold shift_amount in *.
  destruct (match shift with Some s => Ok (- s)%Q | None => _ end) as [sub|e]; [|discriminate]. cbn [bind] in *. injection E as <-.
  set (u := inject_Z (10 ^ Z.of_nat d)). exists (Qfloor (sub / u)), (u * inject_Z (Qfloor (sub / u)))%Q. split; [reflexivity|]. cbn zeta. split; [reflexivity|].
  assert (U : (0 < u)%Q) by (unfold u; change 0%Q with (inject_Z 0); rewrite <- Zlt_Qlt; lia).
  pose proof (Qfloor_le (sub / u)) as F1. pose proof (Qlt_floor (sub / u)) as F2.
  assert (E : (u * (sub / u) == sub)%Q) by (field; lra). set (q := (sub / u)%Q) in *.
  rewrite inject_Z_plus in F2. change (inject_Z 1) with 1%Q in F2. set (f := inject_Z (Qfloor q)) in *. clearbody f q u. split; nra.
Qed.
Print Assumptions C60_preserved_digits.
Example C60_example : (do r <- translate_axis [12345; 12399]%Q None None (Some 2%nat); Ok (map Qred r)) = Ok [45; 99]%Q.
Proof. vm_compute. reflexivity. Qed.
