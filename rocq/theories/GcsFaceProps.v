(** GcsFaceProps.v: values over grid faces from grid connection sets (C70). *)
From Coq Require Import Permutation.
From Verif Require Import QBase StrModel BisectModel BisectProofs GcsModel GcsProofs GcsProofs2 GcsProofs3 GcsProps GcsFaceProofs.
Open Scope Z_scope.

(** C70: each grid face holds the value of the last connection used which has the face on its first
    or (unless lazy) its second side, second sides counting as later than first sides; zero where
    that connection is a baffle; and the default where no connection used has it. *)
Theorem C70_face_values : forall (V : Type) n l fi fl (values : list V) default zero f active lazy baffle,
  0 < tj n -> 0 < ti n -> Forall (link_ok n) l -> List.length fi = List.length l -> List.length values = List.length l ->
  (forall m, active = Some m -> List.length m = List.length l) -> (forall m, baffle = Some m -> List.length m = List.length l) ->
  exists arr, grid_face_arrays n (Gcs l (Some fi) fl) values default zero f active lazy baffle = Ok arr /\
    forall a c, holds (assignments n l fi f active lazy values zero baffle) default (a, c) (arr a c).
Proof. intros. now apply grid_face_arrays_ok. Qed.
Print Assumptions C70_face_values.
Example face_values_example : exists arr,
  grid_face_arrays (T 1 2 2) (Gcs [Lk 0 1 3 5; Lk 1 3 4 2; Lk 0 2 4 2] (Some [0; 1; 1]) None) [10; 20; 30] (-1) 0 (Some 1)
    (Some [true; true; true]) false (Some [false; false; true]) = Ok arr /\
  arr I (T 0 0 1) = -1 /\ arr J (T 0 1 1) = 20 /\ arr J (T 0 1 0) = 0.
Proof. eexists. split; [vm_compute; reflexivity|]. repeat split; reflexivity. Qed.

(** the values for the marked faces are in the order of the connections; see
    C69_one_connection_per_marked_face *)
Lemma link_ok_mask n a s c : inner_face n a c -> link_ok n (mask_link n a s c).
Proof.
  intros [H1 H2]. pose proof (natural_bounds n c H1). pose proof (natural_bounds n _ H2). rewrite natural_next in H0.
  unfold link_ok, mask_link. destruct (s c), a; cbn [ca cb fa fb face_index_map]; lia.
Qed.
Lemma masks_ok n kf jf i_f ks js is fs : Forall (link_ok n) (links (set_pairs_from_face_masks n kf jf i_f ks js is fs)).
Proof.
  assert (H : forall a f s, Forall (link_ok n) (mask_links n a f s)).
  { intros a f s. destruct f as [m|]; [|constructor]. cbn. apply Forall_forall. intros x Hx. apply in_map_iff in Hx.
    destruct Hx as (c & <- & Hc). apply link_ok_mask. apply filter_In in Hc. now apply within_face_shape, in_indices. }
  cbn [links set_pairs_from_face_masks]. rewrite !Forall_app. auto.
Qed.
Lemma across_face a c b : face_at (fst (across a c b)) = (a, next a c) /\ face_at (snd (across a c b)) = (a, next a c).
Proof. unfold across. destruct b; cbn; auto. Qed.
(** C70: for a set made from masks the grid face arrays are one to one with the connections: the face
    of the r-th connection holds the r-th value and all other faces hold the default. *)
Theorem C70_face_values_of_masks : forall (V : Type) n kf jf i_f ks js is fs (values : list V) default zero lazy es,
  0 < tj n -> 0 < ti n ->
  let g := set_pairs_from_face_masks n kf jf i_f ks js is fs in
  list_of_cell_face_pairs n g None = Ok (Some (map (fun '(a, c) => across a c (flipped (sides_of ks js is a) c)) es)) -> NoDup es ->
  List.length values = List.length es ->
  exists arr, grid_face_arrays n g values default zero None None lazy None = Ok arr /\
    (forall r a c v, nth_error es r = Some (a, c) -> nth_error values r = Some v -> arr a (next a c) = v) /\
    (forall a c, ~ In (a, c) es -> arr a (next a c) = default).
Proof.
  intros V n kf jf i_f ks js is fs values default zero lazy es Hj Hi g Es N Lv.
  set (l := links g). pose proof (masks_ok n kf jf i_f ks js is fs) as Wl. fold g in Wl. fold l in Wl.
  assert (Eg : g = Gcs l (Some (map (fun _ => 0) l)) (Some fs)) by reflexivity.
  assert (Esides : map (sides n) l = map (fun '(a, c) => across a c (flipped (sides_of ks js is a) c)) es).
  { unfold list_of_cell_face_pairs in Es. cbn [bind] in Es. fold l in Es.
    rewrite (map_res_ok _ (sides n)) in Es; [cbn [bind] in Es; injection Es as Es; exact Es|].
    intros x Hx. apply decode_ok. rewrite Forall_forall in Wl. auto. }
  assert (Ll : List.length l = List.length es) by (rewrite <- (map_length (sides n)), Esides, map_length; reflexivity).
  destruct (C70_face_values V n l (map (fun _ => 0) l) (Some fs) values default zero None None lazy None) as (arr & E & H); auto;
    try discriminate; try lia. { now rewrite map_length. }
  exists arr. rewrite Eg. split; [exact E|].
  assert (Er : filter (row_used (map (fun _ => 0) l) None None) (seq 0 (List.length l)) = seq 0 (List.length l)).
  { apply forallb_filter_id. now apply forallb_forall. }
  assert (Nes : forall r, (r < List.length l)%nat -> exists a c, nth_error es r = Some (a, c) /\
             face_at (fst (sides n (nth r l no_link))) = (a, next a c) /\ face_at (snd (sides n (nth r l no_link))) = (a, next a c)).
  { intros r Hr. destruct (nth_error es r) as [[a c]|] eqn:Ee; [|apply nth_error_None in Ee; lia]. exists a, c. split; [reflexivity|].
    assert (X : nth_error (map (sides n) l) r = Some (across a c (flipped (sides_of ks js is a) c))) by (rewrite Esides, nth_error_map, Ee; reflexivity).
    rewrite nth_error_map in X. rewrite (nth_error_nth' l no_link Hr) in X. cbn [option_map] in X.
    assert (X2 : sides n (nth r l no_link) = across a c (flipped (sides_of ks js is a) c)) by congruence. rewrite X2. apply across_face. }
  assert (A : forall a d v, In ((a, d), v) (assignments n l (map (fun _ => 0) l) None None lazy values zero None) ->
              exists r c, nth_error es r = Some (a, c) /\ d = next a c /\ nth_error values r = Some v).
  { intros a d v Hin. unfold assignments in Hin. rewrite Er in Hin. apply in_app_iff in Hin.
    assert (X : exists r, (r < List.length l)%nat /\ ((a, d) = face_at (fst (sides n (nth r l no_link))) \/ (a, d) = face_at (snd (sides n (nth r l no_link)))) /\ v = nth r values zero).
    { destruct Hin as [Hin|Hin]; [|destruct lazy; [destruct Hin|]]; apply in_map_iff in Hin; destruct Hin as (r & [= E1 E2] & Hr); apply in_seq in Hr;
        exists r; (split; [lia|]); cbn in E2; auto. }
    destruct X as (r & Hr & Hf & ->). destruct (Nes r Hr) as (a' & c & Ee & F1 & F2). exists r, c.
    assert ((a, d) = (a', next a' c)) as [= -> ->] by (destruct Hf; congruence).
    repeat split; auto. apply nth_error_nth'. lia. }
  split.
  - intros r a c v Hr Hv. destruct (H a (next a c)) as [(l1 & l2 & El & _)|[Nin _]].
    + assert (Hin : In ((a, next a c), arr a (next a c)) (assignments n l (map (fun _ => 0) l) None None lazy values zero None)) by (rewrite El, in_app_iff; right; now left).
      apply A in Hin. destruct Hin as (r' & c' & Hr' & Hn & Hv'). apply next_inj in Hn. subst c'.
      assert (r' = r). { eapply (proj1 (NoDup_nth_error es) N); [apply nth_error_Some; congruence|congruence]. }
      subst r'. congruence.
    + exfalso. apply Nin. unfold assignments. rewrite Er, map_app, in_app_iff. left. rewrite map_map. apply in_map_iff. exists r.
      assert (Hlt : (r < List.length l)%nat) by (rewrite Ll; apply nth_error_Some; congruence).
      destruct (Nes r Hlt) as (a' & c' & Ee & F1 & _). assert ((a', c') = (a, c)) as [= -> ->] by congruence.
      split; [exact F1|]. apply in_seq. lia.
  - intros a c Nin. destruct (H a (next a c)) as [(l1 & l2 & El & _)|[_ Ed]]; [|exact Ed]. exfalso.
    assert (Hin : In ((a, next a c), arr a (next a c)) (assignments n l (map (fun _ => 0) l) None None lazy values zero None)) by (rewrite El, in_app_iff; right; now left).
    apply A in Hin. destruct Hin as (r' & c' & Hr' & Hn & _). apply next_inj in Hn. subst c'. apply Nin. eapply nth_error_In; eauto.
Qed.
Print Assumptions C70_face_values_of_masks.

(** C70: where one side of a connection is null (-1 for both cell and face) its value is also written
    to a face of the grid which is in no connection. *)
Theorem C70_null_side_refuted : exists n (l : list link) fi fl arr,
  0 < tj n /\ 0 < ti n /\ l = [Lk 0 (-1) 3 (-1)] /\
  grid_face_arrays n (Gcs l (Some fi) fl) [7] 0 0 None None false None = Ok arr /\
  exists a c, within n c /\ arr a c = 7 /\ (a, c) <> face_at (T 0 0 0, (I, true)).
Proof.
  exists (T 2 2 3), [Lk 0 (-1) 3 (-1)], [0], None. eexists. do 3 (split; [reflexivity|]). split; [vm_compute; reflexivity|]. exists I, (T 1 1 2).
  split; [intros []; cbn; lia|]. split; [reflexivity|discriminate].
Qed.
Print Assumptions C70_null_side_refuted.

(** ** combined multipliers *)
Definition present (vs : list (option Q)) : list Q := flat_map (fun v => match v with Some q => [q] | None => [] end) vs.
(** the value combined from a list of values *)
Definition combined (m : merge_mode) (vs : list Q) (v : Q) : Prop :=
  match m with
  | Minimum => In v vs /\ forall w, In w vs -> (v <= w)%Q
  | Maximum => In v vs /\ forall w, In w vs -> (w <= v)%Q
  | Multiply => (v == fold_right Qmult 1 vs)%Q
  | Exception => vs = [v]
  end.
Lemma fold_err {A B} (f : A -> B -> res A) l e : fold_left (fun r x => do c <- r; f c x) l (Err e) = Err e.
Proof. induction l; cbn; auto. Qed.
Lemma fold_right_Qmult_app l x : (fold_right Qmult 1 (l ++ [x]) == fold_right Qmult 1 l * x)%Q.
Proof. induction l as [|y l IH]; cbn; [ring|]. rewrite IH. ring. Qed.
Lemma merge_faces_spec m vs r : merge_faces m vs = Ok r ->
  match r with None => present vs = [] | Some v => combined m (present vs) v /\ present vs <> [] end.
Proof.
  unfold merge_faces. revert r. induction vs as [|v vs IH] using rev_ind; intros r.
  - intros [= <-]. reflexivity.
  - rewrite fold_left_app. set (acc := fold_left _ vs _) in *. destruct acc as [c|]; cbn [fold_left bind]; [|discriminate].
    specialize (IH c eq_refl). unfold present. rewrite flat_map_app. cbn [flat_map]. fold (present vs). rewrite app_nil_r.
    destruct v as [v|]; cbn [merge_face].
    + destruct c as [w|].
      * destruct IH as [IH _]. assert (Hne : present vs ++ [v] <> []) by (destruct (present vs); discriminate).
        destruct m; cbn in IH |- *; try discriminate; intros [= <-]; (split; [|exact Hne]).
        -- destruct IH as [I1 I2]. unfold Qminb. destruct (w <=b v)%Q eqn:E; [apply Qleb_iff in E|apply Qleb_false in E];
             (split; [apply in_app_iff; cbn; tauto|]); intros x Hx; apply in_app_iff in Hx; destruct Hx as [Hx|[<-|[]]]; try lra; specialize (I2 x Hx); lra.
        -- rewrite fold_right_Qmult_app, IH. reflexivity.
        -- destruct IH as [I1 I2]. unfold Qmaxb. destruct (w <=b v)%Q eqn:E; [apply Qleb_iff in E|apply Qleb_false in E];
             (split; [apply in_app_iff; cbn; tauto|]); intros x Hx; apply in_app_iff in Hx; destruct Hx as [Hx|[<-|[]]]; try lra; specialize (I2 x Hx); lra.
      * rewrite IH. cbn. intros [= <-]. split; [|discriminate]. destruct m; cbn; try (split; [now left|intros ? [<-|[]]; lra]); [ring|reflexivity].
    + cbn. rewrite app_nil_r. intros [= <-]. exact IH.
Qed.
Lemma merge_faces_total m vs : (m = Exception -> (List.length (present vs) <= 1)%nat) -> exists r, merge_faces m vs = Ok r.
Proof.
  unfold merge_faces. induction vs as [|v vs IH] using rev_ind; intros H; [eexists; reflexivity|].
  unfold present in H. rewrite flat_map_app in H. cbn [flat_map] in H. rewrite app_nil_r, app_length in H. fold (present vs) in H.
  destruct IH as (c & E). { intros Em. specialize (H Em). lia. }
  pose proof (merge_faces_spec m vs c E) as Sp. rewrite fold_left_app, E. cbn [fold_left bind].
  destruct v as [v|]; cbn; [|eexists; reflexivity]. destruct c as [w|]; [|eexists; reflexivity].
  destruct m; try (eexists; reflexivity). exfalso. specialize (H eq_refl). cbn in Sp, H. destruct Sp as [Sp _]. rewrite Sp in H. cbn in H. lia.
Qed.
Lemma in_all_faces n a c : In (a, c) (all_faces n) <-> within (grid_face_shape n a) c.
Proof.
  unfold all_faces. rewrite in_flat_map. split.
  - intros (b & _ & H). apply in_map_iff in H. destruct H as (d & [= -> ->] & H). now apply in_indices.
  - intros H. exists a. split; [destruct a; cbn; auto|]. apply in_map_iff. exists c. split; [reflexivity|now apply in_indices].
Qed.
(** only one side of a face gets its value: as asked, by default just when values are multiplied *)
Definition one_side (m : merge_mode) (sided : option bool) (lazy : bool) : Prop :=
  match sided with Some b => lazy = negb b | None => lazy = true <-> m = Multiply end.
Lemma default_one_side m sided : one_side m sided (negb (default_sided m sided)).
Proof. destruct sided; [reflexivity|]. destruct m; split; try reflexivity; discriminate. Qed.
Lemma one_side_default m sided lazy : one_side m sided lazy -> lazy = negb (default_sided m sided).
Proof. destruct sided; [auto|]. unfold one_side. destruct m, lazy; cbn; intuition discriminate. Qed.
(** C70: each face of the combined arrays holds the minimum, maximum or product of the values the sets
    have at the face, the only value where clashes are exceptions, and the fill value where there is
    none; no value is negative. *)
Theorem C70_combined_multipliers : forall n sets m sided fill active_only apply_baffles r,
  combined_tr_mult n sets m sided fill active_only apply_baffles = Ok r ->
  exists lazy arrs, one_side m sided lazy /\ map_res (set_arrays n active_only apply_baffles lazy) sets = Ok arrs /\
    forall a c, within (grid_face_shape n a) c ->
      let vs := present (map (fun arr : arrays (option Q) => arr a c) arrs) in
      match r a c with
      | Some v => (0 <= v)%Q /\ (combined m vs v /\ vs <> [] \/ vs = [] /\ fill = Some v)
      | None => vs = [] /\ fill = None
      end.
Proof.
  intros n sets m sided fill ao ab r H. unfold combined_tr_mult in H.
  destruct (match sets with [] => false | _ => true end); cbn [assert_ bind] in H; [|discriminate].
  destruct (map_res (set_arrays n ao ab (negb (default_sided m sided))) sets) as [arrs|] eqn:Ea; cbn [bind] in H; [|discriminate].
  exists (negb (default_sided m sided)), arrs. split; [apply default_one_side|]. split; [exact Ea|]. set (at_face := merged_at m arrs) in *.
  destruct (map_res at_face (all_faces n)) as [x1|] eqn:E1; cbn [bind] in H; [|discriminate].
  destruct (map_res (fun ac => do v <- at_face ac; finish_face fill v) (all_faces n)) as [x2|] eqn:E2; cbn [bind] in H; [|discriminate].
  injection H as <-. intros a c W vs. apply in_all_faces in W. apply map_res_inv in E2.
  assert (Hok : exists v, (do v <- at_face (a, c); finish_face fill v) = Ok v).
  { clear -E2 W. induction E2; [destruct W|]. destruct W as [->|W]; [eauto|auto]. }
  destruct Hok as (v & Ev). rewrite Ev. destruct (at_face (a, c)) as [w|] eqn:Ew; cbn [bind] in Ev; [|discriminate].
  unfold at_face, merged_at in Ew. cbn [fst snd] in Ew. apply merge_faces_spec in Ew. fold vs in Ew.
  unfold finish_face in Ev. destruct w as [w|].
  - assert (Ev' : (if (0 <=b w)%Q then Ok (Some w) else Err AssertionError) = Ok v) by exact Ev.
    destruct (0 <=b w)%Q eqn:E0; [|discriminate]. injection Ev' as <-. apply Qleb_iff in E0. split; [assumption|]. now left.
  - destruct fill as [f|].
    + assert (Ev' : (if (0 <=b f)%Q then Ok (Some f) else Err AssertionError) = Ok v) by exact Ev.
      destruct (0 <=b f)%Q eqn:E0; [|discriminate]. injection Ev' as <-. apply Qleb_iff in E0. auto.
    + injection Ev as <-. auto.
Qed.
Print Assumptions C70_combined_multipliers.

(** C70: the combination succeeds where every set gives its arrays, no value is negative and, where
    clashes are exceptions, no face has two values. *)
Theorem C70_combination_succeeds : forall n sets m sided fill active_only apply_baffles lazy arrs,
  sets <> [] -> one_side m sided lazy -> map_res (set_arrays n active_only apply_baffles lazy) sets = Ok arrs ->
  (forall f, fill = Some f -> (0 <= f)%Q) ->
  (forall a c, within (grid_face_shape n a) c -> let vs := present (map (fun arr : arrays (option Q) => arr a c) arrs) in
     (forall v, In v vs -> (0 <= v)%Q) /\ (m = Exception -> (List.length vs <= 1)%nat)) ->
  exists r, combined_tr_mult n sets m sided fill active_only apply_baffles = Ok r.
Proof.
  intros n sets m sided fill ao ab lazy arrs Ns Hl Ea Hf H. apply one_side_default in Hl. subst lazy. unfold combined_tr_mult. destruct sets as [|s0 sets0] eqn:Es; [congruence|]. rewrite <- Es in *.
  cbn [assert_ bind]. rewrite Ea. cbn [bind]. set (at_face := merged_at m arrs).
  assert (T : forall a c, In (a, c) (all_faces n) -> exists v, at_face (a, c) = Ok v /\ exists w, finish_face fill v = Ok w).
  { intros a c Hin. apply in_all_faces in Hin. destruct (H a c Hin) as [Hpos Hex]. destruct (merge_faces_total m _ Hex) as (v & Ev).
    exists v. split; [exact Ev|]. apply merge_faces_spec in Ev. unfold finish_face. destruct v as [v|].
    - assert (0 <= v)%Q as Hv.
      { destruct Ev as [Ev Ne]. destruct m; cbn in Ev.
        - apply Hpos, Ev.
        - rewrite Ev. clear -Hpos. induction (present _) as [|x l IH]; cbn; [lra|]. pose proof (Hpos x ltac:(now left)).
          specialize (IH ltac:(intros; apply Hpos; now right)). now apply Qmult_le_0_compat.
        - apply Hpos, Ev.
        - apply Hpos. rewrite Ev. now left. }
      apply Qleb_iff in Hv. rewrite Hv. eauto.
    - destruct fill as [f|]; [|eauto]. specialize (Hf f eq_refl). apply Qleb_iff in Hf. rewrite Hf. eauto. }
  assert (G : forall B (f : axis * cell -> res B) l, (forall a c, In (a, c) l -> exists v, f (a, c) = Ok v) -> exists ys, map_res f l = Ok ys).
  { intros B f l Hl. induction l as [|[a c] l IH]; [eexists; reflexivity|]. destruct (Hl a c ltac:(now left)) as (v & Ev).
    destruct IH as (ys & Ey); [intros; apply Hl; now right|]. cbn. rewrite Ev. cbn. rewrite Ey. cbn. eauto. }
  destruct (G _ at_face (all_faces n)) as (y1 & E1). { intros a c Hin. destruct (T a c Hin) as (v & Ev & _). eauto. }
  rewrite E1. cbn [bind].
  destruct (G _ (fun ac => do v <- at_face ac; finish_face fill v) (all_faces n)) as (y2 & E2).
  { intros a c Hin. destruct (T a c Hin) as (v & Ev & w & Ew). exists w. rewrite Ev. exact Ew. }
  rewrite E2. cbn [bind]. eauto.
Qed.
Print Assumptions C70_combination_succeeds.

(** C70: the order of the sets does not matter. *)
Definition same_value (v w : option Q) : Prop := match v, w with Some v, Some w => (v == w)%Q | None, None => True | _, _ => False end.
Lemma present_perm l l' : Permutation l l' -> Permutation (present l) (present l').
Proof. intros P. unfold present. now apply Permutation_flat_map. Qed.
Lemma product_perm l l' : Permutation l l' -> (fold_right Qmult 1 l == fold_right Qmult 1 l')%Q.
Proof. intros P. induction P; cbn; [reflexivity|now rewrite IHP|ring|now rewrite IHP1]. Qed.
Lemma combined_perm m l l' v w : Permutation l l' -> combined m l v -> combined m l' w -> (v == w)%Q.
Proof.
  intros P. destruct m; cbn.
  - intros [A B] [C D]. pose proof (B w (Permutation_in w (Permutation_sym P) C)). pose proof (D v (Permutation_in v P A)). lra.
  - intros -> ->. now apply product_perm.
  - intros [A B] [C D]. pose proof (B w (Permutation_in w (Permutation_sym P) C)). pose proof (D v (Permutation_in v P A)). lra.
  - intros -> ->. apply Permutation_length_1 in P. subst. reflexivity.
Qed.
Lemma map_res_perm {A B} (f : A -> res B) l l' ys : Permutation l l' -> map_res f l = Ok ys -> exists ys', map_res f l' = Ok ys' /\ Permutation ys ys'.
Proof.
  intros P. revert ys. induction P; intros ys; cbn.
  - intros [= <-]. exists []. auto.
  - destruct (f x) as [y|]; cbn; [|discriminate]. destruct (map_res f l) as [zs|]; cbn; [|discriminate]. intros [= <-].
    destruct (IHP zs eq_refl) as (zs' & -> & Pz). cbn. exists (y :: zs'). auto.
  - destruct (f y) as [a|]; cbn; [|discriminate]. destruct (f x) as [b|]; cbn; [|discriminate]. destruct (map_res f l) as [zs|]; cbn; [|discriminate].
    intros [= <-]. exists (b :: a :: zs). split; [reflexivity|constructor].
  - intros E. destruct (IHP1 _ E) as (ys' & E' & P'). destruct (IHP2 _ E') as (ys'' & E'' & P''). exists ys''. split; [assumption|now transitivity ys'].
Qed.
Theorem C70_combination_order_free : forall n sets sets' m sided fill active_only apply_baffles r r',
  Permutation sets sets' ->
  combined_tr_mult n sets m sided fill active_only apply_baffles = Ok r ->
  combined_tr_mult n sets' m sided fill active_only apply_baffles = Ok r' ->
  forall a c, within (grid_face_shape n a) c -> same_value (r a c) (r' a c).
Proof.
  intros n sets sets' m sided fill ao ab r r' P H H' a c W.
  destruct (C70_combined_multipliers _ _ _ _ _ _ _ _ H) as (lz & arrs & Hz & Ea & S1). destruct (C70_combined_multipliers _ _ _ _ _ _ _ _ H') as (lz' & arrs' & Hz' & Ea' & S2). apply one_side_default in Hz, Hz'. subst lz lz'.
  destruct (map_res_perm _ _ _ _ P Ea) as (arrs2 & E2 & P2). rewrite E2 in Ea'. injection Ea' as ->.
  specialize (S1 a c W). specialize (S2 a c W). cbv zeta in S1, S2.
  assert (Pv : Permutation (present (map (fun arr : arrays (option Q) => arr a c) arrs)) (present (map (fun arr : arrays (option Q) => arr a c) arrs')))
    by (apply present_perm; now apply Permutation_map).
  destruct (r a c) as [v|], (r' a c) as [w|]; cbn; auto.
  - destruct S1 as [_ [[C1 N1]|[N1 F1]]], S2 as [_ [[C2 N2]|[N2 F2]]].
    + eapply combined_perm; eauto.
    + rewrite N2 in Pv. symmetry in Pv. now apply Permutation_nil in Pv.
    + rewrite N1 in Pv. now apply Permutation_nil in Pv.
    + rewrite F1 in F2. injection F2 as ->. reflexivity.
  - destruct S1 as [_ [[C1 N1]|[N1 F1]]], S2 as [N2 F2]; [|congruence]. rewrite N2 in Pv. symmetry in Pv. now apply Permutation_nil in Pv.
  - destruct S2 as [_ [[C1 N1]|[N1 F1]]], S1 as [N2 F2]; [|congruence]. rewrite N2 in Pv. now apply Permutation_nil in Pv.
Qed.
Print Assumptions C70_combination_order_free.
(** two sets which share the face between the cells 0 and 1 *)
Example combined_example :
  let s1 := MS (Gcs [Lk 0 1 3 5] (Some [0]) None) [Some (1 # 2)%Q] None None in
  let s2 := MS (Gcs [Lk 0 1 3 5; Lk 1 3 4 2] (Some [0; 0]) None) [Some (1 # 4)%Q; Some 3%Q] None None in
  exists r q, combined_tr_mult (T 1 2 2) [s1; s2] Minimum None (Some 1%Q) true false = Ok r /\
    r I (T 0 0 1) = Some (1 # 4)%Q /\ r J (T 0 1 1) = Some 3%Q /\ r J (T 0 1 0) = Some 1%Q /\
  combined_tr_mult (T 1 2 2) [s1; s2] Multiply None None true false = Ok q /\ q I (T 0 0 1) = Some (1 # 8)%Q /\ q J (T 0 1 0) = None /\
  combined_tr_mult (T 1 2 2) [s1; s2] Exception None None true false = Err ValueError.
Proof. eexists _, _. repeat (split; [vm_compute; reflexivity|]). vm_compute. reflexivity. Qed.
