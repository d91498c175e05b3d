(** RefineProps2.v: the grid that refining a faulted grid gives, from its corner points to its pillars. *)
From Coq Require Import Qabs Lqa.
From Verif Require Import Base QBase BoxModel FineCoarseModel FineCoarseProofs ProportionProofs IntersectModel IntersectProofs PillarModel PillarProofs PointsModel PointsProofs PointsProps
  RefineModel RefineProofs RefineProps FromCpModel FromCpProofs FromCpProps.
Open Scope Z_scope.

(** fine_cp, of zeros before it is written (_refined_grid.py:149-152) *)
Definition fine_cp (g : geo) (s : fc) : cps := fun k j i kp jp ip =>
  match refined_faulted_cp g s k j i kp jp ip with Ok (Some p) => p | _ => V 0 0 0 end.
(* _refined_grid.py:147-192, with the default arguments of grid_from_cp *)
Definition refined_faulted (g : geo) (s : fc) : res from_cp :=
  do _ <- refined_faulted_cp g s 0 0 0 0 0 0;
  grid_from_cp (fine_cp g s) (fine (tk (ax s))) (fine (tj (ax s))) (fine (ti (ax s))) (fun _ _ => true) (1 # 10) (1 # 100) true.
Lemma owner a f : PropsOK a -> 0 <= f < fine a -> exists c, 0 <= c < coarse a /\ Owns a c f.
Proof. intros P Hf. destruct (lookup_expand a f (proj1 P) Hf) as (c & Hc & O & _). exists c. split; assumption. Qed.
Lemma fine_pos a : PropsOK a -> 0 < fine a.
Proof.
  intros [[C L P S'] _]. rewrite <- S'. destruct (ratios_of a) as [|r l]; [cbn in L; lia|]. clear L S'. cbn [zsum fold_right]. fold (zsum l).
  assert (0 < r) by (apply P; left; reflexivity). assert (0 <= zsum l); [|lia].
  assert (Q : forall x, In x l -> 0 < x) by (intros x Hx; apply P; right; exact Hx). clear P. induction l as [|x l IH]; [reflexivity|]. cbn [zsum fold_right]. fold (zsum l).
  assert (0 < x) by (apply Q; left; reflexivity). assert (0 <= zsum l) by (apply IH; intros y Hy; apply Q; right; exact Hy). lia.
Qed.
Lemma fraction_exists a c m : PropsOK a -> 0 <= c < coarse a -> exists q, Fraction a c m q.
Proof. intros P Hc. destruct (proportion_ok a c P Hc) as (p & E & _). eexists. exists p. split; [exact E|reflexivity]. Qed.

(** The grid refined from a faulted grid: each corner of each fine cell is at its fractions across its own coarse
    cell, to within the default tolerances of the making of grids from corner points. *)
Theorem C88_refined_faulted_grid : forall g xs s, Pillars g xs -> Layers g -> FromCoarse g s ->
  exists f xs', refined_faulted g s = Ok f /\ Pillars (f_geo f) xs' /\ Layers (f_geo f) /\
    (g_nk (f_geo f) = fine (tk (ax s)) /\ nj (f_geo f) = fine (tj (ax s)) /\ ni (f_geo f) = fine (ti (ax s))) /\
    forall ck cj ci fk fj fi kp jp ip qk qj qi, IsCell g ck cj ci -> OwnsCell s ck cj ci fk fj fi -> bit kp -> bit jp -> bit ip ->
      0 <= fk < fine (tk (ax s)) -> 0 <= fj < fine (tj (ax s)) -> 0 <= fi < fine (ti (ax s)) ->
      Fractions s ck cj ci fk fj fi kp jp ip qk qj qi ->
      forall cp, (forall a b c, bit a -> bit b -> bit c -> Corner g xs ck cj ci a b c (cp a b c)) ->
      exists p, Corner (f_geo f) xs' fk fj fi kp jp ip p /\ Within (6 # 100) p (trilinear cp qk qj qi).
Proof.
  intros g xs s Pg La F. pose proof F as ((PK & PJ & PI) & Ek & Ej & Ei).
  destruct (C85_corners g xs Pg La) as (cps & Ec & Cc).
  assert (First : exists p, refined_faulted_cp g s 0 0 0 0 0 0 = Ok (Some p)).
  { destruct (owner _ 0 PK ltac:(pose proof (fine_pos _ PK); lia)) as (ck & Hk & Ok'). destruct (owner _ 0 PJ ltac:(pose proof (fine_pos _ PJ); lia)) as (cj & Hj & Oj).
    destruct (owner _ 0 PI ltac:(pose proof (fine_pos _ PI); lia)) as (ci & Hi & Oi).
    destruct (fraction_exists _ ck (0 - start (tk (ax s)) ck + 0) PK Hk) as (qk & Qk). destruct (fraction_exists _ cj (0 - start (tj (ax s)) cj + 0) PJ Hj) as (qj & Qj).
    destruct (fraction_exists _ ci (0 - start (ti (ax s)) ci + 0) PI Hi) as (qi & Qi).
    assert (Hc : IsCell g ck cj ci) by (unfold IsCell; rewrite <- Ek, <- Ej, <- Ei; auto).
    assert (B0 : bit 0) by (left; reflexivity).
    destruct (C88_refined_faulted g xs s Pg La F ck cj ci 0 0 0 0 0 0 qk qj qi Hc (conj Ok' (conj Oj Oi)) B0 B0 B0 (conj Qk (conj Qj Qi)) (cps ck cj ci)) as (p & E & _); [|exists p; exact E].
    intros a b c Ba Bb Bc. apply Cc; assumption. }
  destruct First as (p0 & E0). unfold refined_faulted. rewrite E0. cbn [bind].
  destruct (C89_grid_from_cp (fine_cp g s) (fine (tk (ax s))) (fine (tj (ax s))) (fine (ti (ax s))) (fun _ _ => true) (1 # 10) (1 # 100)) as (f & xs' & E & M);
    [apply fine_pos, PK|apply fine_pos, PJ|apply fine_pos, PI|lra|lra|].
  exists f, xs'. split; [exact E|]. split; [apply M|]. split; [apply M|]. split; [apply M|].
  intros ck cj ci fk fj fi kp jp ip qk qj qi Hc O Bk Bj Bi Hk Hj Hi Fr cp C.
  destruct (mf_extent _ _ _ _ _ _ _ _ M) as (Ek' & Ej' & Ei').
  destruct (mf_corners _ _ _ _ _ _ _ _ M fk fj fi kp jp ip) as (p & Cp & W); try assumption; [unfold IsCell; rewrite Ek', Ej', Ei'; auto|].
  exists p. split; [exact Cp|]. destruct (C88_refined_faulted g xs s Pg La F ck cj ci fk fj fi kp jp ip qk qj qi Hc O Bk Bj Bi Fr cp C) as (p' & E' & S').
  unfold fine_cp in W. rewrite E' in W. eapply within_same; [apply same_refl|exact S'|]. eapply within_le; [|exact W]. lra.
Qed.
Print Assumptions C88_refined_faulted_grid.

(** two columns apart by a fault, refined two by one by two *)
Definition faulted2 : geo := Geo (SGrid 1 2 true [1; 4] [0; 0] [1; 2]) 1 None
  (fun r p => V (inject_Z (100 * (if p <? 6 then p mod 3 else 1))) (inject_Z (100 * (if p <? 6 then p / 3 else p - 6))) (inject_Z (10 * r + (if (p =? 0) || (p =? 3) || (6 <=? p) then 5 else 0)))) None None.
Definition two_one_two : fc := FC (T (Ax 2 1 (Some 2) None true None) (Ax 1 1 (Some 1) None true None) (Ax 4 2 (Some 2) None true None)) None.
Example faulted2_ok : Pillars faulted2 [(1, [0]); (4, [0])] /\ Layers faulted2 /\ FromCoarse faulted2 two_one_two.
Proof.
  split; [|split].
  - split; [|left; reflexivity]. split; [reflexivity|]. split; [reflexivity|]. repeat constructor; cbn; try lia;
      [exists 0, 0, 0, 1|exists 0, 0, 1, 1]; cbn; repeat split; lia.
  - split; [reflexivity|]. intros l [=].
  - assert (V1 : ValidAxis (tk (ax two_one_two))) by (constructor; [reflexivity|reflexivity|intros r Hr; vm_compute in Hr; intuition (subst; reflexivity)|reflexivity]).
    assert (V2 : ValidAxis (tj (ax two_one_two))) by (constructor; [reflexivity|reflexivity|intros r Hr; vm_compute in Hr; intuition (subst; reflexivity)|reflexivity]).
    assert (V3 : ValidAxis (ti (ax two_one_two))) by (constructor; [reflexivity|reflexivity|intros r Hr; vm_compute in Hr; intuition (subst; reflexivity)|reflexivity]).
    split; [|repeat split]. split; [|split]; (split; [assumption|left; reflexivity]).
Qed.
(* the throw is kept: only the pillar at the fault is split *)
Example faulted2_refined : look (fun f => (g_spi (gg (f_geo f)), g_cols (gg (f_geo f)), g_gap_after (f_geo f), Qred (vz (g_pts (f_geo f) 1 10)), Qred (vz (g_pts (f_geo f) 1 2))))
  (refined_faulted faulted2 two_one_two) = Some ([2; 7], [1; 1], None, 10%Q, 5%Q).
Proof. vm_compute. reflexivity. Qed.
