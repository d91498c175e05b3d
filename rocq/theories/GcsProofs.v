(** GcsProofs.v: cells and faces of grid connection sets. *)
From Coq Require Import Permutation Sorted.
From Verif Require Import QBase StrModel BisectModel BisectProofs BisectProofs4 GcsModel.
Open Scope Z_scope.

(** ** Specification *)
(** cells c and [next a c] share the face "plus a" of c *)
Definition next (a : axis) (c : cell) : cell := set c a (get c a + 1).
(** the face between c and [next a c] is inside the grid *)
Definition inner_face (n : trip Z) (a : axis) (c : cell) : Prop := within n c /\ within n (next a c).
(** what a connection across the face "plus a" of c looks like, from below or (flipped) from above *)
Definition across (a : axis) (c : cell) (flip : bool) : side * side :=
  if flip then ((next a c, (a, false)), (c, (a, true))) else ((c, (a, true)), (next a c, (a, false))).
Definition marked (f : faces) (c : cell) : Prop := match f with Some m => m c = true | None => False end.
Definition flipped (s : faces) (c : cell) : bool := match s with Some m => m c | None => false end.

(** ** lists *)
Lemma map_res_ok {A B} (f : A -> res B) (g : A -> B) l : (forall x, In x l -> f x = Ok (g x)) -> map_res f l = Ok (map g l).
Proof.
  induction l as [|x r IH]; intros H; cbn; [reflexivity|]. rewrite H by now left. cbn. rewrite IH by (intros; apply H; now right). reflexivity.
Qed.
Lemma map_res_map {A B C} (f : B -> res C) (g : A -> B) l : map_res f (map g l) = map_res (fun x => f (g x)) l.
Proof. induction l as [|x r IH]; cbn; [reflexivity|]. destruct (f (g x)); cbn; [|reflexivity]. now rewrite IH. Qed.
Lemma map_res_inv {A B} (f : A -> res B) l ys : map_res f l = Ok ys -> Forall2 (fun x y => f x = Ok y) l ys.
Proof.
  revert ys. induction l as [|x r IH]; intros ys; cbn; [intros [= <-]; constructor|].
  destruct (f x) as [y|] eqn:E; cbn; [|discriminate]. destruct (map_res f r) as [zs|]; cbn; [|discriminate].
  intros [= <-]. constructor; auto.
Qed.
Lemma map_res_err {A B} (f : A -> res B) l e : map_res f l = Err e -> exists x, In x l /\ f x = Err e.
Proof.
  induction l as [|x r IH]; cbn; [discriminate|]. destruct (f x) as [y|e'] eqn:E; cbn.
  - destruct (map_res f r) as [zs|e']; cbn; [discriminate|]. intros [= ->]. destruct (IH eq_refl) as (z & Hz & Ez). exists z. auto.
  - intros [= ->]. exists x. auto.
Qed.
Lemma map_res_app {A B} (f : A -> res B) l1 l2 ys1 ys2 :
  map_res f l1 = Ok ys1 -> map_res f l2 = Ok ys2 -> map_res f (l1 ++ l2) = Ok (ys1 ++ ys2).
Proof.
  revert ys1. induction l1 as [|x r IH]; intros ys1; cbn; [intros [= <-] E; exact E|].
  destruct (f x) as [y|]; cbn; [|discriminate]. destruct (map_res f r) as [zs|]; cbn; [|discriminate].
  intros [= <-] E. rewrite (IH zs eq_refl E). reflexivity.
Qed.

(** ** natural indices *)
Lemma natural_bounds n c : within n c -> 0 <= natural n c < size n.
Proof.
  intros H. pose proof (H K). pose proof (H J). pose proof (H I). destruct n as [nk nj ni], c as [k j i]. unfold natural, size. cbn in *.
  assert (0 <= k * nj + j < nk * nj) by nia. nia.
Qed.
Lemma denatural_natural n c : within n c -> denatural n (natural n c) = c.
Proof.
  intros H. pose proof (H K) as HK. pose proof (H J) as HJ. pose proof (H I) as HI. destruct n as [nk nj ni], c as [k j i].
  unfold natural, denatural. cbn in *.
  assert (E : (k * nj + j) * ni + i = k * (nj * ni) + (j * ni + i)) by ring. rewrite E.
  assert (0 <= j * ni + i < nj * ni) by nia.
  rewrite Z.div_add_l by nia. rewrite Z.div_small by assumption.
  rewrite (Z.add_comm (k * _)), Z.mod_add, Z.mod_small by nia.
  rewrite Z.div_add_l, (Z.div_small i) by lia. rewrite (Z.add_comm (j * ni) i), Z.mod_add, Z.mod_small by lia. f_equal; lia.
Qed.
Lemma natural_denatural n x : 0 < tj n -> 0 < ti n -> 0 <= x < size n -> natural n (denatural n x) = x /\ within n (denatural n x).
Proof.
  destruct n as [nk nj ni]. unfold natural, denatural, size. cbn. intros Hj Hi Hx.
  pose proof (Z.div_mod x (nj * ni) ltac:(nia)). pose proof (Z.mod_pos_bound x (nj * ni) ltac:(nia)).
  set (q := x / (nj * ni)) in *. set (r := x mod (nj * ni)) in *.
  pose proof (Z.div_mod r ni ltac:(lia)). pose proof (Z.mod_pos_bound r ni ltac:(lia)).
  set (s := r / ni) in *. set (t := r mod ni) in *.
  split; [nia|]. intros []; cbn.
  - split; [unfold q; apply Z.div_pos; nia|]. assert (nj * ni * q < nj * ni * nk) by nia. nia.
  - split; [unfold s; apply Z.div_pos; lia|nia].
  - lia.
Qed.
Lemma natural_inj n c d : within n c -> within n d -> natural n c = natural n d -> c = d.
Proof. intros Hc Hd E. rewrite <- (denatural_natural n c Hc), <- (denatural_natural n d Hd). now rewrite E. Qed.
Lemma natural_next n a c : natural n (next a c) = natural n c + stride n a.
Proof. destruct a, c as [k j i]; unfold natural, next, stride; cbn; ring. Qed.
Lemma get_next a c b : get (next a c) b = if axis_dec a b then get c b + 1 else get c b.
Proof. unfold next. destruct (axis_dec a b) as [<-|N]; [apply get_set_same|now apply get_set_other]. Qed.
Lemma within_face_shape n a c : within (face_shape n a) c <-> inner_face n a c.
Proof.
  unfold inner_face, within. split.
  - intros H. split; intros b; specialize (H b); unfold face_shape in H; [|rewrite get_next];
      destruct (axis_dec a b) as [<-|N]; rewrite ?get_set_same in H; rewrite ?get_set_other in H by assumption; lia.
  - intros [H1 H2] b. specialize (H1 b). specialize (H2 b). rewrite get_next in H2. unfold face_shape.
    destruct (axis_dec a b) as [<-|N]; rewrite ?get_set_same, ?get_set_other by assumption; lia.
Qed.
Lemma inverse_of_map a p : face_index_inverse_map (face_index_map a p) = Ok (a, p).
Proof. now destruct a, p. Qed.
Lemma face_index_map_inj a p b q : face_index_map a p = face_index_map b q -> a = b /\ p = q.
Proof. destruct a, p, b, q; cbn; try discriminate; auto. Qed.
Lemma next_inj a c d : next a c = next a d -> c = d.
Proof.
  intros E. apply cell_ext. intros b. pose proof (f_equal (fun x => get x b) E) as H. cbn in H. rewrite !get_next in H.
  destruct (axis_dec a b); lia.
Qed.

(** ** connections from masks *)
Lemma decode_mask_link n a s c : inner_face n a c -> decode_link n (mask_link n a s c) = Ok (across a c (s c)).
Proof.
  intros [H1 H2]. unfold mask_link, across, decode_link. rewrite <- natural_next.
  destruct (s c); cbn [ca cb fa fb]; rewrite !inverse_of_map; cbn [bind]; rewrite !denatural_natural by assumption; reflexivity.
Qed.
Definition marks (n : trip Z) (f : faces) (a : axis) : list (axis * cell) :=
  match f with None => [] | Some m => map (pair a) (where_true n a m) end.
Definition sides_of (ks js is : faces) (a : axis) : faces := match a with K => ks | J => js | I => is end.
Lemma decode_mask_links n a f s :
  map_res (decode_link n) (mask_links n a f s) = Ok (map (fun '(a, c) => across a c (flipped s c)) (marks n f a)).
Proof.
  destruct f as [m|]; cbn; [|reflexivity]. rewrite map_res_map, map_map.
  apply map_res_ok. intros c Hc. rewrite decode_mask_link; [now destruct s|].
  unfold where_true in Hc. apply filter_In in Hc. now apply within_face_shape, in_indices.
Qed.
Lemma in_marks n f a b c : In (b, c) (marks n f a) <-> b = a /\ inner_face n a c /\ marked f c.
Proof.
  destruct f as [m|]; cbn; [|tauto]. rewrite in_map_iff. unfold where_true. split.
  - intros (d & [= -> ->] & H). apply filter_In in H. rewrite in_indices, within_face_shape in H. tauto.
  - intros (-> & H1 & H2). exists c. split; [reflexivity|]. apply filter_In. rewrite in_indices, within_face_shape. auto.
Qed.
Lemma NoDup_marks n f a : NoDup (marks n f a).
Proof.
  destruct f as [m|]; cbn; [|constructor]. apply FinFun.Injective_map_NoDup; [intros x y [= E]; exact E|].
  apply NoDup_filter, NoDup_indices.
Qed.
Lemma NoDup_three (f : axis -> faces) n : NoDup (marks n (f K) K ++ marks n (f J) J ++ marks n (f I) I).
Proof.
  assert (H : forall A (l1 l2 : list A), NoDup l1 -> NoDup l2 -> (forall x, In x l1 -> ~ In x l2) -> NoDup (l1 ++ l2)).
  { intros A l1. induction l1 as [|x r IH]; intros l2 N1 N2 D; cbn; [assumption|]. inversion N1; subst. constructor.
    - rewrite in_app_iff. intros [H|H]; [auto|]. apply (D x); [now left|assumption].
    - apply IH; auto. intros y Hy. apply D. now right. }
  apply H; [apply NoDup_marks|apply H; try apply NoDup_marks|].
  - intros [b c] H1 H2. apply in_marks in H1, H2. destruct H1 as [-> _], H2 as [E _]. discriminate.
  - intros [b c] H1 H2. apply in_app_iff in H2. rewrite !in_marks in H2. apply in_marks in H1. destruct H1 as [-> _].
    destruct H2 as [[E _]|[E _]]; discriminate.
Qed.

Lemma positions_of_zeros {A} (l : list A) i : positions_of 0 i (map (fun _ => 0) l) = zrange2 i (i + Z.of_nat (List.length l)).
Proof.
  revert i. induction l as [|x r IH]; intros i; cbn [map positions_of List.length].
  - rewrite Z.add_0_r. unfold zrange2. now rewrite Z.sub_diag.
  - cbn [Z.eqb]. rewrite IH. unfold zrange2.
    replace (Z.to_nat (i + Z.of_nat (S (List.length r)) - i)) with (S (List.length r)) by lia.
    replace (Z.to_nat (i + 1 + Z.of_nat (List.length r) - (i + 1))) with (List.length r) by lia.
    rewrite <- cons_seq, map_cons. f_equal; [lia|]. rewrite <- seq_shift, map_map. apply map_ext. intros; lia.
Qed.
