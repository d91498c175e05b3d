(** SingleCellProps.v: C95, a grid of one cell encloses the points it is made for. *)
From Verif Require Import Base QBase GridFnModel GridFnProofs GridFnProps TriModel TriProofs3 SingleCellModel.
Open Scope Z_scope.

(** * Specification *)
(** x, y or z of some point is v *)
Definition Has (ps : list npoint) (x : Z) (v : Q) : Prop :=
  exists a b c, In (a, b, c) ps /\ (x = 0 /\ a = Some v \/ x = 1 /\ b = Some v \/ x = 2 /\ c = Some v).
(** lo and hi are the least and greatest values of a coordinate *)
Definition Least (ps : list npoint) (x : Z) (lo hi : Q) : Prop :=
  Has ps x lo /\ Has ps x hi /\ forall v, Has ps x v -> (lo <= v <= hi)%Q.

(** * Lemmas *)
Lemma has_coord ps x v : 0 <= x <= 2 -> (In (Some v) (map (coord x) ps) <-> Has ps x v).
Proof.
  intros Hx. rewrite in_map_iff. unfold Has. split.
  - intros (((a & b) & c) & E & I). exists a, b, c. split; [exact I|].
    assert (X : x = 0 \/ x = 1 \/ x = 2) by lia. destruct X as [-> |[-> | ->]]; cbn in E; auto.
  - intros (a & b & c & I & H). exists (a, b, c). split; [|exact I]. destruct H as [[-> H]|[[-> H]|[-> H]]]; exact H.
Qed.
Lemma known_some v : known v = true -> v = Some (get v).
Proof. destruct v; [reflexivity|discriminate]. Qed.
Lemma all3 (f : Z -> bool) : forallb f [0; 1; 2] = true <-> forall x, 0 <= x <= 2 -> f x = true.
Proof.
  rewrite forallb_forall. split; intros H x Hx; apply H.
  - assert (X : x = 0 \/ x = 1 \/ x = 2) by lia. cbn. lia.
  - cbn in Hx. lia.
Qed.
Lemma read_back c n : 0 <= n < 24 -> read_corp (resequence_nexus_corp 0%Q 1 1 1 false false (fun _ _ _ => c) 0 0 0) n = c n.
Proof. intros H. exact (C28_four_mode_twice Q 0%Q 1 1 1 false false (fun _ _ _ => c) 0 0 0 n H). Qed.
Lemma box_corner lo hi kp jp ip : 0 <= kp <= 1 -> 0 <= jp <= 1 -> 0 <= ip <= 1 ->
  cp_get (box_cell lo hi) kp jp ip 0 = (if ip =? 0 then lo 0 else hi 0) /\
  cp_get (box_cell lo hi) kp jp ip 1 = (if jp =? 0 then lo 1 else hi 1) /\
  cp_get (box_cell lo hi) kp jp ip 2 = (if kp =? 0 then lo 2 else hi 2).
Proof.
  intros Hk Hj Hi. assert (K : kp = 0 \/ kp = 1) by lia. assert (J : jp = 0 \/ jp = 1) by lia. assert (I : ip = 0 \/ ip = 1) by lia.
  destruct K as [-> | ->], J as [-> | ->], I as [-> | ->]; repeat split; reflexivity.
Qed.

(** * Theorems *)
(** If each of x, y and z is known at some point, the cell is the smallest box that holds the known coordinates,
    its corners in order along the axes. *)
Theorem C95_encloses : forall ps, (forall x, 0 <= x <= 2 -> exists v, Has ps x v) ->
  exists c lo hi, single_cell ps = Ok c /\ (forall x, 0 <= x <= 2 -> Least ps x (lo x) (hi x)) /\
  forall kp jp ip, 0 <= kp <= 1 -> 0 <= jp <= 1 -> 0 <= ip <= 1 ->
    cp_get c kp jp ip 0 = (if ip =? 0 then lo 0 else hi 0) /\
    cp_get c kp jp ip 1 = (if jp =? 0 then lo 1 else hi 1) /\
    cp_get c kp jp ip 2 = (if kp =? 0 then lo 2 else hi 2).
Proof.
  intros ps H.
  assert (L : forall x, 0 <= x <= 2 -> known (lowest ps x) = true).
  { intros x Hx. destruct (H x Hx) as [v Hv]. apply (has_coord ps x v Hx) in Hv. unfold lowest. destruct (nanmin _) eqn:E; [reflexivity|]. destruct (nan_none_min _ E _ Hv). }
  assert (U : forall x, 0 <= x <= 2 -> known (highest ps x) = true).
  { intros x Hx. destruct (H x Hx) as [v Hv]. apply (has_coord ps x v Hx) in Hv. unfold highest. destruct (nanmax _) eqn:E; [reflexivity|]. destruct (nan_none_max _ E _ Hv). }
  eexists _, (fun x => get (lowest ps x)), (fun x => get (highest ps x)). split; [|split].
  - unfold single_cell. rewrite (proj2 (all3 _) L), (proj2 (all3 _) U). destruct ps; [|reflexivity].
    destruct (H 0 ltac:(lia)) as (v & a & b & c & [] & _).
  - intros x Hx. destruct (nanmin_spec _ _ (known_some _ (L x Hx))) as [L1 L2]. destruct (nanmax_spec _ _ (known_some _ (U x Hx))) as [U1 U2].
    split; [apply has_coord; [exact Hx|exact L1]|]. split; [apply has_coord; [exact Hx|exact U1]|].
    intros v Hv. apply (has_coord ps x v Hx) in Hv. split; [exact (L2 v Hv)|exact (U2 v Hv)].
  - intros kp jp ip Hk Hj Hi. unfold cp_get, corner. rewrite !read_back by lia. apply box_corner; assumption.
Qed.
Print Assumptions C95_encloses.

(** Otherwise the grid is not made. *)
Theorem C95_refused : forall ps x, 0 <= x <= 2 -> (forall v, ~ Has ps x v) -> exists e, single_cell ps = Err e.
Proof.
  intros ps x Hx N. unfold single_cell. destruct ps as [|p ps']; [eexists; reflexivity|]. set (ps := p :: ps') in *. cbn [bind].
  destruct (forallb (fun x => known (lowest ps x)) [0; 1; 2]) eqn:L; [|eexists; reflexivity]. exfalso.
  pose proof (proj1 (all3 _) L x Hx) as K. cbn beta in K. destruct (nanmin_spec _ _ (known_some _ K)) as [I _].
  apply (N (get (lowest ps x))). apply has_coord; [exact Hx|exact I].
Qed.
Print Assumptions C95_refused.

(** Two points with an unknown depth between them; the points meet the hypothesis of C95_encloses. *)
Definition some_points : list npoint := [(Some 1, Some 5, None); (None, Some 2, Some 9); (Some 4, Some 3, Some 7)]%Q.
Example some_points_known : forall x, 0 <= x <= 2 -> exists v, Has some_points x v.
Proof.
  intros x Hx. assert (X : x = 0 \/ x = 1 \/ x = 2) by lia. unfold Has, some_points. destruct X as [-> |[-> | ->]].
  - exists 4%Q, (Some 4%Q), (Some 3%Q), (Some 7%Q). cbn. auto.
  - exists 3%Q, (Some 4%Q), (Some 3%Q), (Some 7%Q). cbn. auto 6.
  - exists 7%Q, (Some 4%Q), (Some 3%Q), (Some 7%Q). cbn. auto 6.
Qed.
Example some_points_cell : match single_cell some_points with
  | Ok c => map c (zrange 24) = [1; 2; 7; 4; 2; 7; 1; 5; 7; 4; 5; 7; 1; 2; 9; 4; 2; 9; 1; 5; 9; 4; 5; 9]%Q
  | Err _ => False end.
Proof. reflexivity. Qed.
Example no_depths : single_cell [(Some 1, Some 5, None); (Some 4, Some 3, None)]%Q = Err AssertionError.
Proof. reflexivity. Qed.
