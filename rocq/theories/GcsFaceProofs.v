(** GcsFaceProofs.v: the arrays of face values of a grid connection set. *)
From Coq Require Import Permutation.
From Verif Require Import QBase StrModel BisectModel BisectProofs GcsModel GcsProofs GcsProofs2 GcsProofs3 GcsProps.
Open Scope Z_scope.

(** ** Specification *)
(** the index of a cell face in the array of faces of its axis *)
Definition face_at (s : side) : axis * cell := let '(c, (a, p)) := s in (a, if p then next a c else c).
(** the values held after a list of assignments: the last one made at a place, or the initial one *)
Definition holds {F V} (ws : list (F * V)) (default : V) (f : F) (v : V) : Prop :=
  (exists l1 l2, ws = l1 ++ (f, v) :: l2 /\ ~ In f (map fst l2)) \/ (~ In f (map fst ws) /\ v = default).
(** the connections which are used: those of the feature, if given, which are active *)
Definition row_used (fi : list Z) (f : option Z) (active : option (list bool)) (r : nat) : bool :=
  match f with None => true | Some f => nth r fi (f - 1) =? f end && match active with None => true | Some m => nth r m false end.
(** the value of a connection: zero where it is a baffle *)
Definition row_value {V} (values : list V) (zero : V) (baffle : option (list bool)) (r : nat) : V :=
  if match baffle with None => false | Some m => nth r m false end then zero else nth r values zero.
Definition no_link := Lk 0 0 0 0.
Definition sides (n : trip Z) (l : link) : side * side :=
  match decode_link n l with Ok s => s | Err _ => ((T 0 0 0, (K, false)), (T 0 0 0, (K, false))) end.
Definition assignments {V} (n : trip Z) (l : list link) (fi : list Z) (f : option Z) (active : option (list bool)) (lazy : bool)
    (values : list V) (zero : V) (baffle : option (list bool)) : list ((axis * cell) * V) :=
  let rows := filter (row_used fi f active) (seq 0 (List.length l)) in
  map (fun r => (face_at (fst (sides n (nth r l no_link))), row_value values zero baffle r)) rows ++
  (if lazy then [] else map (fun r => (face_at (snd (sides n (nth r l no_link))), row_value values zero baffle r)) rows).

(** ** lists as functions of the row *)
Lemma forallb_filter_id {A} (f : A -> bool) l : forallb f l = true -> filter f l = l.
Proof. induction l as [|x l IH]; [reflexivity|]. cbn. intros H. apply andb_true_iff in H. destruct H as [-> H]. now rewrite IH. Qed.
Lemma as_map {A} (l : list A) d : l = map (fun r => nth r l d) (seq 0 (List.length l)).
Proof.
  induction l as [|x l IH]; [reflexivity|]. cbn [List.length]. rewrite <- cons_seq, map_cons. f_equal.
  rewrite <- seq_shift, map_map. exact IH.
Qed.
Lemma positions_of_rows f fi i : positions_of f i fi = map (fun r => i + Z.of_nat r) (filter (fun r => nth r fi (f - 1) =? f) (seq 0 (List.length fi))).
Proof.
  revert i. induction fi as [|x fi IH]; intros i; [reflexivity|]. cbn [positions_of List.length]. rewrite <- cons_seq.
  assert (E : forall g, filter g (seq 1 (List.length fi)) = map S (filter (fun r => g (S r)) (seq 0 (List.length fi)))).
  { intros g. rewrite <- seq_shift. clear IH. induction (seq 0 (List.length fi)) as [|y s IHs]; [reflexivity|]. cbn. rewrite IHs. destruct (g (S y)); reflexivity. }
  assert (E2 : map (fun r => i + Z.of_nat r) (filter (fun r => nth r (x :: fi) (f - 1) =? f) (seq 1 (List.length fi))) = positions_of f (i + 1) fi).
  { rewrite E, map_map, IH. apply map_ext. intros; lia. }
  cbn [filter]. change (nth 0 (x :: fi) (f - 1)) with x. destruct (x =? f).
  - cbn [map]. rewrite E2. f_equal. lia.
  - exact (eq_sym E2).
Qed.
Lemma take_at_rows {A} (l : list A) d rs : (forall r, In r rs -> (r < List.length l)%nat) -> take_at l (map (fun r => 0 + Z.of_nat r) rs) = Ok (map (fun r => nth r l d) rs).
Proof.
  intros H. apply take_at_ok. induction rs as [|r rs IH]; cbn; constructor.
  - split; [lia|]. rewrite Nat2Z.id. apply nth_error_nth'. apply H. now left.
  - apply IH. intros. apply H. now right.
Qed.
Lemma keep_flagged_rows {A} (mm : nat -> bool) (ll : nat -> A) rs : keep_flagged (map mm rs) (map ll rs) = map ll (filter mm rs).
Proof. induction rs as [|r rs IH]; [reflexivity|]. cbn [map filter]. rewrite keep_flagged_cons. destruct (mm r); cbn [map]; now rewrite IH. Qed.
Lemma where2_rows {V} (m : list bool) (v : list V) zero : List.length m = List.length v ->
  where2 m v zero = map (row_value v zero (Some m)) (seq 0 (List.length v)).
Proof.
  revert v. induction m as [|b m IH]; intros [|x v] L; try discriminate; [reflexivity|]. cbn [where2 List.length]. rewrite <- cons_seq, map_cons.
  f_equal. rewrite <- seq_shift, map_map, IH by (cbn in L; lia). reflexivity.
Qed.
Lemma decode_ok n l : link_ok n l -> decode_link n l = Ok (sides n l).
Proof.
  intros (_ & _ & H3 & H4). destruct (face_number _ H3) as (a & p & E), (face_number _ H4) as (b & q & F).
  unfold sides, decode_link. rewrite E, F, !inverse_of_map. reflexivity.
Qed.
Lemma sides_within n l : 0 < tj n -> 0 < ti n -> link_ok n l -> within n (fst (fst (sides n l))) /\ within n (fst (snd (sides n l))).
Proof.
  intros Hj Hi (H1 & H2 & H3 & H4). destruct (face_number _ H3) as (a & p & E), (face_number _ H4) as (b & q & F).
  unfold sides, decode_link. rewrite E, F, !inverse_of_map. cbn. split; now apply natural_denatural.
Qed.

(** ** assignments *)
Lemma axis_eqb_eq a b : axis_eqb a b = true <-> a = b.
Proof. destruct a, b; cbn; split; congruence. Qed.
Lemma wrap_cell_ok s c : within s c -> wrap_cell s c = Ok c.
Proof.
  intros H. unfold wrap_cell. rewrite (wrap_index_ok (tk s) (tk c) (H K)), (wrap_index_ok (tj s) (tj c) (H J)), (wrap_index_ok (ti s) (ti c) (H I)).
  now destruct c.
Qed.
Lemma face_index_within n c a (p : bool) : within n c -> within (grid_face_shape n a) (set c a (get c a + if p then 1 else 0)).
Proof.
  intros H b. specialize (H b). unfold grid_face_shape. destruct (axis_dec a b) as [<-|N]; rewrite ?get_set_same, ?get_set_other by assumption; destruct p; lia.
Qed.
Lemma face_at_set (c : cell) a (p : bool) : (a, set c a (get c a + if p then 1 else 0)) = face_at (c, (a, p)).
Proof. destruct c, a, p; cbn; rewrite ?Z.add_0_r; reflexivity. Qed.
Lemma writes_hold {V} n (svs : list (side * V)) : (forall s v, In (s, v) svs -> within n (fst s)) -> forall arr0 : arrays V,
  exists arr, fold_left (write_side n) svs (Ok arr0) = Ok arr /\
    forall a c, (exists l1 l2, map (fun '(s, v) => (face_at s, v)) svs = l1 ++ ((a, c), arr a c) :: l2 /\ ~ In (a, c) (map fst l2)) \/
                (~ In (a, c) (map fst (map (fun '(s, v) => (face_at s, v)) svs)) /\ arr a c = arr0 a c).
Proof.
  induction svs as [|sv svs IH] using rev_ind; intros W arr0.
  - exists arr0. split; [reflexivity|]. intros a c. right. split; [intros []|reflexivity].
  - destruct (IH ltac:(intros s v H; apply (W s v); rewrite in_app_iff; auto) arr0) as (arr & E & H).
    rewrite fold_left_app, E. destruct sv as [[c [a p]] v]. cbn [fold_left write_side bind].
    assert (Wc : within n c) by (apply (W (c, (a, p)) v); rewrite in_app_iff; right; now left).
    rewrite wrap_cell_ok by now apply face_index_within. cbn [bind]. eexists. split; [reflexivity|].
    intros b d. rewrite map_app. cbn [map]. rewrite <- face_at_set. set (e := set c a _). unfold put.
    destruct (axis_eqb a b && cell_eqb e d) eqn:Eq.
    + apply andb_true_iff in Eq. rewrite axis_eqb_eq, cell_eqb_eq in Eq. destruct Eq as [-> ->]. left.
      exists (map (fun '(s, v) => (face_at s, v)) svs), []. split; [reflexivity|intros []].
    + assert (N : (a, e) <> (b, d)).
      { intros [= -> ->]. rewrite (proj2 (axis_eqb_eq b b) eq_refl), (proj2 (cell_eqb_eq d d) eq_refl) in Eq. discriminate. }
      destruct (H b d) as [(l1 & l2 & El & Nl)|[Nl El]].
      * left. exists l1, (l2 ++ [((a, e), v)]). rewrite El, <- app_assoc. split; [reflexivity|]. rewrite map_app, in_app_iff. cbn. tauto.
      * right. split; [|assumption]. rewrite map_app, in_app_iff. cbn. tauto.
Qed.
Lemma combine_map_map {A B C D} (f : A -> B) (g : A -> C) (h : B -> D) rs : combine (map h (map f rs)) (map g rs) = map (fun r => (h (f r), g r)) rs.
Proof. induction rs; cbn; congruence. Qed.

Lemma grid_face_arrays_ok {V} n l fi fl (values : list V) default zero f active lazy baffle :
  0 < tj n -> 0 < ti n -> Forall (link_ok n) l -> List.length fi = List.length l -> List.length values = List.length l ->
  (forall m, active = Some m -> List.length m = List.length l) -> (forall m, baffle = Some m -> List.length m = List.length l) ->
  exists arr, grid_face_arrays n (Gcs l (Some fi) fl) values default zero f active lazy baffle = Ok arr /\
    forall a c, holds (assignments n l fi f active lazy values zero baffle) default (a, c) (arr a c).
Proof.
  intros Hj Hi Wl Lf Lv La Lb. unfold grid_face_arrays, list_of_cell_face_pairs, raw_list_for_feature, indices_for_feature_index. cbn [links feature_indices].
  assert (Ea : match active with Some m => assert_ (Nat.eqb (List.length m) (List.length l)) | None => Ok tt end = Ok tt).
  { destruct active as [m|]; [|reflexivity]. rewrite (La m eq_refl), Nat.eqb_refl. reflexivity. }
  rewrite Ea. cbn [bind]. rewrite Lv, Nat.eqb_refl. cbn [assert_ bind].
  set (rf := match f with None => fun _ => true | Some f => fun r => nth r fi (f - 1) =? f end).
  set (rows1 := filter rf (seq 0 (List.length l))).
  assert (R1 : forall r, In r rows1 -> (r < List.length l)%nat).
  { intros r H. unfold rows1 in H. apply filter_In in H. destruct H as [H _]. apply in_seq in H. lia. }
  assert (Ep : (do raw <- match f with
                          | Some f0 => do l0 <- take_at l (positions_of f0 0 fi); Ok (Some l0)
                          | None => Ok (Some l) end;
                match raw with Some l0 => do r <- map_res (decode_link n) l0; Ok (Some r) | None => Ok None end)
               = Ok (Some (map (fun r => sides n (nth r l no_link)) rows1))).
  { assert (E0 : match f with Some f0 => do l0 <- take_at l (positions_of f0 0 fi); Ok (Some l0) | None => Ok (Some l) end
                 = Ok (Some (map (fun r => nth r l no_link) rows1))).
    { destruct f as [f|].
      - rewrite positions_of_rows, Lf. cbn in rf. fold rf. fold rows1. rewrite (take_at_rows l no_link rows1 R1). reflexivity.
      - do 2 f_equal. rewrite (as_map l no_link) at 1. unfold rows1, rf. f_equal. symmetry. apply forallb_filter_id. now apply forallb_forall. }
    rewrite E0. cbn [bind]. rewrite map_res_map. rewrite (map_res_ok _ (fun r => sides n (nth r l no_link))); [reflexivity|].
    intros r Hr. apply decode_ok. rewrite Forall_forall in Wl. apply Wl. apply nth_In. auto. }
  rewrite Ep. cbn [bind]. clear Ep.
  assert (Ev : match baffle with None => Ok values | Some m => if Nat.eqb (List.length m) (List.length l) then Ok (where2 m values zero) else Err IndexError end
               = Ok (map (row_value values zero baffle) (seq 0 (List.length l)))).
  { destruct baffle as [m|].
    - rewrite (Lb m eq_refl), Nat.eqb_refl, where2_rows, Lv by (rewrite (Lb m eq_refl); auto). reflexivity.
    - f_equal. rewrite (as_map values zero) at 1. rewrite Lv. reflexivity. }
  rewrite Ev. cbn [bind]. clear Ev.
  set (rv := row_value values zero baffle). set (vs := map rv (seq 0 (List.length l))).
  assert (Lvs : List.length vs = List.length l) by (unfold vs; rewrite map_length, seq_length; reflexivity).
  assert (Nvs : forall r, In r rows1 -> nth r vs zero = rv r).
  { intros r H. unfold vs. rewrite (nth_indep _ zero (rv 0%nat)) by (rewrite map_length, seq_length; auto).
    rewrite map_nth, seq_nth by auto. reflexivity. }
  assert (Evs : match f with
                | Some f0 => do v <- take_at vs (positions_of f0 0 fi);
                             match active with Some m => do m0 <- take_at m (positions_of f0 0 fi); Ok (v, Some m0) | None => Ok (v, None) end
                | None => Ok (vs, active) end
                = Ok (map rv rows1, option_map (fun m => map (fun r => nth r m false) rows1) active)).
  { destruct f as [f|].
    - rewrite positions_of_rows, Lf. cbn in rf. fold rf. fold rows1. rewrite (take_at_rows vs zero rows1) by (rewrite Lvs; auto). cbn [bind].
      rewrite (map_ext_in _ rv rows1 Nvs). destruct active as [m|]; [|reflexivity].
      rewrite (take_at_rows m false rows1) by (rewrite (La m eq_refl); auto). reflexivity.
    - assert (E1 : rows1 = seq 0 (List.length l)) by (apply forallb_filter_id; now apply forallb_forall). rewrite E1.
      f_equal. f_equal. destruct active as [m|]; [|reflexivity]. cbn. f_equal. rewrite (as_map m false) at 1. now rewrite (La m eq_refl). }
  rewrite Evs. cbn [bind]. clear Evs.
  set (rows := filter (row_used fi f active) (seq 0 (List.length l))).
  assert (Er : rows = filter (fun r => match active with None => true | Some m => nth r m false end) rows1).
  { unfold rows, rows1. clear. induction (seq 0 (List.length l)) as [|r s IH]; [reflexivity|]. cbn [filter]. unfold row_used at 1.
    unfold rf at 1. destruct f as [f|]; [destruct (nth r fi (f - 1) =? f)|]; cbn [andb filter]; rewrite ?IH; auto; reflexivity. }
  assert (Ef : (let '(pairs, values0) := match option_map (fun m => map (fun r => nth r m false) rows1) active with
                  | Some m => (keep_flagged m (map (fun r => sides n (nth r l no_link)) rows1), keep_flagged m (map rv rows1))
                  | None => (map (fun r => sides n (nth r l no_link)) rows1, map rv rows1) end in
                fold_left (write_side n) (combine (map fst pairs) values0 ++ (if lazy then [] else combine (map snd pairs) values0)) (Ok (fun _ _ => default)))
               = fold_left (write_side n) (map (fun r => (fst (sides n (nth r l no_link)), rv r)) rows ++
                   (if lazy then [] else map (fun r => (snd (sides n (nth r l no_link)), rv r)) rows)) (Ok (fun _ _ => default))).
  { assert (Em : match option_map (fun m => map (fun r => nth r m false) rows1) active with
                  | Some m => (keep_flagged m (map (fun r => sides n (nth r l no_link)) rows1), keep_flagged m (map rv rows1))
                  | None => (map (fun r => sides n (nth r l no_link)) rows1, map rv rows1) end
                 = (map (fun r => sides n (nth r l no_link)) rows, map rv rows)).
    { rewrite Er. destruct active as [m|]; cbn [option_map].
      - rewrite !keep_flagged_rows. reflexivity.
      - rewrite (forallb_filter_id _ rows1) by now apply forallb_forall. reflexivity. }
    rewrite Em. rewrite !combine_map_map. destruct lazy; reflexivity. }
  cbv zeta. cbv zeta in Ef.
  destruct (match option_map (fun m => map (fun r => nth r m false) rows1) active with
            | Some m => (keep_flagged m (map (fun r => sides n (nth r l no_link)) rows1), keep_flagged m (map rv rows1))
            | None => (map (fun r => sides n (nth r l no_link)) rows1, map rv rows1) end) as [ps vs'] eqn:Ex.
  rewrite Ef.
  assert (R : forall r, In r rows -> link_ok n (nth r l no_link)).
  { intros r H. rewrite Forall_forall in Wl. apply Wl, nth_In. rewrite Er in H. apply filter_In in H. now apply R1. }
  edestruct (writes_hold n (map (fun r => (fst (sides n (nth r l no_link)), rv r)) rows ++
                   (if lazy then [] else map (fun r => (snd (sides n (nth r l no_link)), rv r)) rows))) as (arr & E & H).
  { intros s v Hs. apply in_app_iff in Hs. destruct Hs as [Hs|Hs]; [|destruct lazy; [destruct Hs|]]; apply in_map_iff in Hs;
      destruct Hs as (r & [= <- <-] & Hr); apply sides_within; auto. }
  exists arr. split; [exact E|]. intros a c.
  assert (Eas : map (fun '(s, v) => (face_at s, v)) (map (fun r => (fst (sides n (nth r l no_link)), rv r)) rows ++
                   (if lazy then [] else map (fun r => (snd (sides n (nth r l no_link)), rv r)) rows))
          = assignments n l fi f active lazy values zero baffle).
  { rewrite map_app. unfold assignments. fold rows. rewrite map_map. f_equal. destruct lazy; [reflexivity|]. now rewrite map_map. }
  rewrite <- Eas. exact (H a c).
Qed.
