(** CoarsenProofs.v: specification and lemmas for CoarsenModel.v. *)
From Verif Require Import Base QBase BisectModel BisectProofs BisectProofs4 TriModel TriProofs3 GcsNexusProofs StrModel BoxModel BoxProofs FineCoarseModel
  FineCoarseProofs FineCoarseProofs2 PropSelModel CoarsenModel.
From Coq Require Import Lqa Permutation.
Open Scope Z_scope.

(** * Specification *)
(** what a value adds to a total: nothing if it is not a number *)
Definition num (v : option Q) : Q := match v with Some q => q | None => 0%Q end.
(** [q] is the total of g over the cells with P *)
Definition TotalOver (P : BoxModel.cell -> Prop) (g : BoxModel.cell -> Q) (q : Q) : Prop :=
  exists l, NoDup l /\ (forall c, In c l <-> P c) /\ (q == qsum (map g l))%Q.

(** * Lists *)
Lemma qsum_app l m : (qsum (l ++ m) == qsum l + qsum m)%Q.
Proof. unfold qsum. induction l as [|x l IH]; cbn [app fold_right]; [lra|]. rewrite IH. lra. Qed.
Lemma qsum_perm l m : Permutation l m -> (qsum l == qsum m)%Q.
Proof. unfold qsum. induction 1; cbn [fold_right]; try lra. Qed.
Lemma qsum_ext {A} (f g : A -> Q) l : (forall x, In x l -> f x == g x)%Q -> (qsum (map f l) == qsum (map g l))%Q.
Proof.
  unfold qsum. induction l as [|x l IH]; intro H; cbn [map fold_right]; [reflexivity|].
  rewrite (H x (or_introl eq_refl)), IH; [reflexivity|]. intros y Hy. apply H. now right.
Qed.
Lemma qsum_flat_map {A B} (f : B -> Q) (g : A -> list B) l : (qsum (map f (flat_map g l)) == qsum (map (fun a => qsum (map f (g a))) l))%Q.
Proof.
  induction l as [|x l IH]; cbn [map flat_map]; [reflexivity|]. rewrite map_app, qsum_app, IH. reflexivity.
Qed.
Lemma qsum_scale {A} (f : A -> Q) k l : (qsum (map (fun x => f x * k) l) == qsum (map f l) * k)%Q.
Proof. unfold qsum. induction l as [|x l IH]; cbn [map fold_right]; [lra|]. rewrite IH. lra. Qed.
Lemma qsum_le {A} (f g : A -> Q) l : (forall x, In x l -> f x <= g x)%Q -> (qsum (map f l) <= qsum (map g l))%Q.
Proof.
  unfold qsum. induction l as [|x l IH]; intro H; cbn [map fold_right]; [lra|].
  pose proof (H x (or_introl eq_refl)). specialize (IH (fun y Hy => H y (or_intror Hy))). lra.
Qed.
Lemma qsum_pos {A} (f : A -> Q) l x : (forall x, In x l -> 0 <= f x)%Q -> In x l -> (0 < f x)%Q -> (0 < qsum (map f l))%Q.
Proof.
  unfold qsum. induction l as [|y l IH]; intros H Hin Hx; [destruct Hin|]. cbn [map fold_right].
  pose proof (H y (or_introl eq_refl)).
  assert (0 <= fold_right Qplus 0 (map f l))%Q.
  { clear -H. assert (G : forall x, In x l -> (0 <= f x)%Q) by (intros; apply H; now right). clear H.
    induction l as [|z l IH]; cbn [map fold_right]; [lra|]. pose proof (G z (or_introl eq_refl)). specialize (IH (fun y Hy => G y (or_intror Hy))). lra. }
  destruct Hin as [->|Hin]; [lra|]. specialize (IH (fun z Hz => H z (or_intror Hz)) Hin Hx). lra.
Qed.
Lemma nansum_qsum l : (nansum l == qsum (map num l))%Q.
Proof. unfold nansum, qsum. induction l as [|[q|] l IH]; cbn [map fold_right num]; [reflexivity|rewrite IH; reflexivity|rewrite IH; lra]. Qed.
Lemma total_unique P g q r : TotalOver P g q -> TotalOver P g r -> (q == r)%Q.
Proof.
  intros (l & L1 & L2 & ->) (m & M1 & M2 & ->). apply qsum_perm, Permutation_map, NoDup_Permutation; [assumption|assumption|].
  intro c. now rewrite L2, M2.
Qed.
Lemma filter_all {A} (f : A -> bool) l : (forall x, In x l -> f x = true) -> filter f l = l.
Proof.
  induction l as [|x l IH]; intro H; [reflexivity|]. cbn [filter]. rewrite (H x (or_introl eq_refl)), IH; [reflexivity|].
  intros y Hy. apply H. now right.
Qed.

(** * Cells *)
Lemma same_shape_spec a b : same_shape a b = true <-> a = b.
Proof.
  unfold same_shape. rewrite forall3_spec. split.
  - intro H. pose proof (H K); pose proof (H J); pose proof (H I). cbn [get] in *. destruct a, b. cbn in *.
    f_equal; lia.
  - intros -> d. apply Z.eqb_refl.
Qed.
Lemma inside_spec n c : inside n c = true <-> InExtent c n.
Proof.
  unfold inside, InExtent. rewrite forall3_spec. split; intros H d; specialize (H d); [apply andb_true_iff in H; lia|].
  apply andb_true_iff. lia.
Qed.
Lemma in_box_cells b c : In c (box_cells b) <-> InBox c b.
Proof.
  unfold box_cells. rewrite in_flat_map. split.
  - intros (k & Hk & H). apply in_flat_map in H. destruct H as (j & Hj & H). apply in_map_iff in H. destruct H as (i & <- & Hi).
    apply in_zrange2 in Hk, Hj, Hi. intros []; cbn [get tk tj ti]; lia.
  - intro H. pose proof (H K); pose proof (H J); pose proof (H I). cbn [get] in *. exists (tk c). split; [apply in_zrange2; lia|].
    apply in_flat_map. exists (tj c). split; [apply in_zrange2; lia|]. apply in_map_iff. exists (ti c). split; [now destruct c|apply in_zrange2; lia].
Qed.
Lemma NoDup_flat_map' {A B} (f : A -> list B) (key : B -> A) l : NoDup l -> (forall a, In a l -> NoDup (f a)) ->
  (forall a b, In a l -> In b (f a) -> key b = a) -> NoDup (flat_map f l).
Proof.
  induction l as [|x l IH]; intros Hl Hf Hk; [constructor|]. cbn [flat_map]. inversion_clear Hl.
  apply NoDup_app2; [apply Hf; now left|apply IH; auto; intros; [apply Hf|apply Hk]; auto; now right|].
  intros b Hb Hb'. apply in_flat_map in Hb'. destruct Hb' as (y & Hy & Hb').
  apply H. rewrite <- (Hk x b), (Hk y b); auto; [now right|now left].
Qed.
Lemma NoDup_box_cells b : NoDup (box_cells b).
Proof.
  unfold box_cells. apply (NoDup_flat_map' _ tk); [apply NoDup_zrange2| |].
  - intros k _. apply (NoDup_flat_map' _ tj); [apply NoDup_zrange2| |].
    + intros j _. apply NoDup_map_inj_in; [|apply NoDup_zrange2]. intros x y _ _ E. now injection E.
    + intros j c _ H. apply in_map_iff in H. destruct H as (i & <- & _). reflexivity.
  - intros k c _ H. apply in_flat_map in H. destruct H as (j & _ & H). apply in_map_iff in H. destruct H as (i & <- & _). reflexivity.
Qed.
Lemma in_cells n c : In c (indices n) <-> InExtent c n.
Proof. rewrite in_indices. reflexivity. Qed.

(** * Loops over coarse cells *)
Section Coarse.
  Context (s : fc) (V : ValidFC s).
  Lemma box_of c : InExtent c (coarse_extent s) -> exists b, fine_box_for_coarse s c = Ok b /\ NonEmptyBox b /\
    (forall f, InBox f b -> InExtent f (fine_extent s)).
  Proof. intro H. exact (boxes_inside s V c H). Qed.
  Lemma for_coarse_ok {A} (d : A) (f : box -> res A) (g : box -> A) :
    (forall c b, InExtent c (coarse_extent s) -> fine_box_for_coarse s c = Ok b -> f b = Ok (g b)) ->
    exists r, for_coarse s d f = Ok r /\ shape r = coarse_extent s /\
      forall c b, InExtent c (coarse_extent s) -> fine_box_for_coarse s c = Ok b -> el r c = g b.
  Proof.
    intro H. unfold for_coarse. change (map3 coarse (ax s)) with (coarse_extent s).
    rewrite (mapM_ok _ (fun c => match fine_box_for_coarse s c with Ok b => g b | Err _ => d end)).
    - cbn [bind]. eexists. split; [reflexivity|]. split; [reflexivity|]. intros c b Hc Hb. cbn [el]. rewrite Hb. cbn [bind].
      now rewrite (H c b).
    - intros c Hc. apply in_cells in Hc. destruct (box_of c Hc) as (b & Hb & _). rewrite Hb. cbn [bind]. now apply (H c).
  Qed.
  Definition box_at (c : BoxModel.cell) : box := match fine_box_for_coarse s c with Ok b => b | Err _ => Box c c end.
  Lemma box_at_ok c : InExtent c (coarse_extent s) -> fine_box_for_coarse s c = Ok (box_at c).
  Proof. intro H. destruct (box_of c H) as (b & Hb & _). unfold box_at. now rewrite Hb. Qed.
  Lemma owner f : InExtent f (fine_extent s) -> exists c, InExtent c (coarse_extent s) /\
    (forall d, map_lookup (map3 (fun a => Some (map Some (expand 0 (ratios_of a)))) (ax s)) d (get f d) = Ok (Some (get c d))) /\
    forall c' b, InExtent c' (coarse_extent s) -> fine_box_for_coarse s c' = Ok b -> (InBox f b <-> c' = c).
  Proof.
    intro Hf. destruct (partition (FC (ax s) None) V eq_refl f Hf) as (c & H1 & H2 & H3). exists c. split; [exact H2|]. split; [|exact H3].
    unfold coarse_for_fine_kji0 in H1. rewrite (mapping_valid (FC (ax s) None) V eq_refl) in H1. cbn [snd ax bind] in H1.
    set (m := map3 _ (ax s)) in *. clearbody m. unfold seq3, map3 in H1. cbn [tk tj ti] in H1.
    destruct (map_lookup m K (tk f)) as [vk|] eqn:EK; [|discriminate H1].
    destruct (map_lookup m J (tj f)) as [vj|] eqn:EJ; [|discriminate H1].
    destruct (map_lookup m I (ti f)) as [vi|] eqn:EI; [|discriminate H1].
    cbn [bind] in H1. injection H1 as -> -> ->. intros []; assumption.
  Qed.
  Lemma boxes_tile : Permutation (flat_map (fun c => box_cells (box_at c)) (indices (coarse_extent s))) (indices (fine_extent s)).
  Proof.
    apply NoDup_Permutation.
    - assert (G : forall c f, InExtent c (coarse_extent s) -> In f (box_cells (box_at c)) -> forall c', InExtent c' (coarse_extent s) -> In f (box_cells (box_at c')) -> c = c').
      { intros c f Hc Hf c' Hc' Hf'. apply in_box_cells in Hf, Hf'. destruct (box_of c Hc) as (b & Hb & _ & Hin).
        unfold box_at in Hf. rewrite Hb in Hf. destruct (owner f (Hin f Hf)) as (o & _ & _ & Ho).
        pose proof (proj1 (Ho c b Hc Hb) Hf). pose proof (proj1 (Ho c' _ Hc' (box_at_ok c' Hc')) Hf'). congruence. }
      pose proof (NoDup_indices (coarse_extent s)) as ND.
      assert (I : forall c, In c (indices (coarse_extent s)) -> InExtent c (coarse_extent s)) by (intros; now apply in_cells).
      revert ND I. generalize (indices (coarse_extent s)). intros l ND I.
      induction l as [|c l IH]; [constructor|]. cbn [flat_map]. inversion_clear ND. apply NoDup_app2.
      + apply NoDup_box_cells.
      + apply IH; [assumption|]. intros; apply I; now right.
      + intros f Hf Hf'. apply in_flat_map in Hf'. destruct Hf' as (c' & Hc' & Hf'). apply H.
        now rewrite (G c f (I c (or_introl eq_refl)) Hf c' (I c' (or_intror Hc')) Hf').
    - apply NoDup_indices.
    - intro f. rewrite in_flat_map, in_cells. split.
      + intros (c & Hc & Hf). apply in_cells in Hc. apply in_box_cells in Hf. destruct (box_of c Hc) as (b & Hb & _ & Hin).
        unfold box_at in Hf. rewrite Hb in Hf. now apply Hin.
      + intro Hf. destruct (owner f Hf) as (c & Hc & _ & Ho). exists c. split; [now apply in_cells|]. apply in_box_cells.
        now apply (Ho c _ Hc (box_at_ok c Hc)).
  Qed.
  Lemma part_of_box {A} (a : arr A) c b : shape a = fine_extent s -> InExtent c (coarse_extent s) -> fine_box_for_coarse s c = Ok b ->
    part_of a b = map (el a) (box_cells b).
  Proof.
    intros Hs Hc Hb. unfold part_of. rewrite filter_all; [reflexivity|]. intros f Hf. apply inside_spec. rewrite Hs.
    destruct (box_of c Hc) as (b' & Hb' & _ & Hin). rewrite Hb in Hb'. injection Hb' as <-. apply Hin. now apply in_box_cells.
  Qed.
  Lemma check_shape_ok {A} (a : arr A) : shape a = fine_extent s -> check_shape s a = Ok tt.
  Proof. intro H. unfold check_shape. change (map3 fine (ax s)) with (fine_extent s). rewrite H. now rewrite (proj2 (same_shape_spec _ _) eq_refl). Qed.
End Coarse.

Lemma total_box b g : TotalOver (fun f => InBox f b) g (qsum (map g (box_cells b))).
Proof. exists (box_cells b). split; [apply NoDup_box_cells|]. split; [intro; apply in_box_cells|reflexivity]. Qed.
Lemma total_extent n g : TotalOver (fun f => InExtent f n) g (qsum (map g (indices n))).
Proof. exists (indices n). split; [apply NoDup_indices|]. split; [intro; apply in_cells|reflexivity]. Qed.
Lemma total_ext P Q g h x y : (forall c, P c <-> Q c) -> (forall c, P c -> g c == h c)%Q -> (x == y)%Q -> TotalOver P g x -> TotalOver Q h y.
Proof.
  intros HP Hg Hx (l & L1 & L2 & L3). exists l. split; [assumption|]. split; [intro; now rewrite L2, HP|].
  rewrite <- Hx, L3. apply qsum_ext. intros c Hc. apply Hg. now apply L2.
Qed.
Lemma combine_map2 {A B C} (f : A -> B) (g : A -> C) l : combine (map f l) (map g l) = map (fun x => (f x, g x)) l.
Proof. induction l as [|x l IH]; cbn [map combine]; [reflexivity|now rewrite IH]. Qed.
