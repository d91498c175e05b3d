(** PointsProofs.v: where the corners of cells are, and the lemmas for PointsProps.v. *)
From Coq Require Import Lqa.
From Verif Require Import Base QBase IntersectModel IntersectProofs PillarModel PillarProofs PointsModel.
Open Scope Z_scope.

(** * Specification *)

(** The pillars of a grid: an unfaulted one has the primary pillars only; a faulted one has the extra
    pillars xs, each a primary pillar with the columns for which it replaces that pillar. *)
Definition Pillars (g : geo) (xs : extras) : Prop :=
  WellFormed (nj g) (ni g) xs /\
  (gg g = of_extras (nj g) (ni g) xs \/ (xs = [] /\ g_has_split (gg g) = false)).
(** one flag for each layer but the last *)
Definition Layers (g : geo) : Prop :=
  0 < g_nk g /\ forall l, g_gap_after g = Some l -> Z.of_nat (List.length l) = g_nk g - 1.
(** the number of gaps above layer k, and the row of points at its top *)
Definition gaps_above (g : geo) (k : Z) : Z :=
  match g_gap_after g with None => 0 | Some l => Z.of_nat (count_occ Bool.bool_dec (firstn (Z.to_nat k) l) true) end.
Definition top_row (g : geo) (k : Z) : Z := k + gaps_above g k.
Definition bit (z : Z) : Prop := z = 0 \/ z = 1.
Definition IsCell (g : geo) (k j i : Z) : Prop := 0 <= k < g_nk g /\ 0 <= j < nj g /\ 0 <= i < ni g.
(** p is at corner (kp, jp, ip) of cell (k, j, i): on the pillar used there by the column, at the
    top or base of the layer *)
Definition Corner (g : geo) (xs : extras) (k j i kp jp ip : Z) (p : vec) : Prop :=
  exists n, Uses (nj g) (ni g) xs (j + jp) (i + ip) j i n /\ p = g_pts g (top_row g k + kp) n.
(** p is on row r of points, at the position (pj, pi), as used by column (j, i) *)
Definition OnPillar (g : geo) (xs : extras) (r pj pi j i : Z) (p : vec) : Prop :=
  exists n, Uses (nj g) (ni g) xs pj pi j i n /\ p = g_pts g r n.
(** the mean of a list of points *)
Definition vmean (l : list vec) : vec :=
  vscale (/ inject_Z (Z.of_nat (List.length l))) (fold_right vadd (V 0 0 0) l).
(** the columns around the pillar position (pj, pi) *)
Definition around (nj ni pj pi : Z) : list (Z * Z) :=
  filter (fun c => (0 <=? fst c) && (fst c <? nj) && (0 <=? snd c) && (snd c <? ni))
    [(pj - 1, pi - 1); (pj - 1, pi); (pj, pi - 1); (pj, pi)].
(** the value at fractions (fk, fj, fi) across the cell of the trilinear function through the corners *)
Definition trilinear (cp : Z -> Z -> Z -> vec) (fk fj fi : Q) : vec :=
  let w f b := if b =? 0 then (1 - f)%Q else f in
  fold_right vadd (V 0 0 0)
    (flat_map (fun kp => flat_map (fun jp => map (fun ip =>
       vscale (w fk kp * w fj jp * w fi ip)%Q (cp kp jp ip)) [0; 1]) [0; 1]) [0; 1]).

(** * Lemmas *)

Lemma raw_loop_length n : forall k gc l, List.length (raw_loop n k gc l) = n.
Proof. induction n as [|n IH]; intros; [reflexivity|]. cbn [raw_loop List.length]. rewrite IH. reflexivity. Qed.
Lemma raw_loop_nth n : forall k gc l m, (m < n)%nat -> (n <= S (List.length l))%nat ->
  nth m (raw_loop n k gc l) 0 = k + Z.of_nat m + gc + Z.of_nat (count_occ Bool.bool_dec (firstn m l) true).
Proof.
  induction n as [|n IH]; intros k gc l m Hm HL; [lia|].
  destruct m as [|m]; [cbn [raw_loop nth firstn count_occ]; lia|]. cbn [raw_loop nth].
  destruct n as [|n']; [lia|]. destruct l as [|b l]; [cbn in HL; lia|].
  cbn [List.length] in HL. cbn [tl firstn]. rewrite IH by lia.
  destruct b; [rewrite count_occ_cons_eq by reflexivity|rewrite count_occ_cons_neq by discriminate]; lia.
Qed.
Lemma raw_spec g k : Layers g -> 0 <= k < g_nk g -> raw g k = top_row g k.
Proof.
  intros (N & L) H. unfold raw, k_raw_index_array, top_row, gaps_above. destruct (g_gap_after g) as [l|] eqn:E.
  - specialize (L _ eq_refl). rewrite raw_loop_nth by lia. rewrite Z2Nat.id by lia. lia.
  - rewrite zrange_nth by lia. lia.
Qed.
Lemma row_no_gaps g k : has_gaps g = false -> top_row g k = k.
Proof. unfold has_gaps, top_row, gaps_above. destruct (g_gap_after g); [discriminate|]. intros _. lia. Qed.

Lemma uses_nil a b pj pi j i : Uses a b [] pj pi j i (pillar b pj pi).
Proof. right. split; [|reflexivity]. intros e (cs & H & _). destruct e; discriminate. Qed.
Lemma map_ok g xs : Pillars g xs -> exists m, create_column_pillar_mapping (gg g) = Ok m /\
  (forall j i jp ip, 0 <= j < nj g -> 0 <= i < ni g -> bit jp -> bit ip ->
    Uses (nj g) (ni g) xs (j + jp) (i + ip) j i (m j i jp ip)) /\
  (g_has_split (gg g) = false -> forall j i jp ip, bit jp -> bit ip -> m j i jp ip = pillar (ni g) (j + jp) (i + ip)).
Proof.
  intros (W & [E|[-> E]]).
  - destruct (create_spec _ _ _ W) as (m & Em & U). exists m. rewrite E. split; [exact Em|]. split.
    + intros j i jp ip Hj Hi B1 B2. apply U; unfold bit in *; lia.
    + intros C. discriminate C.
  - exists (natural_map (ni g)). split; [unfold create_column_pillar_mapping; rewrite E; reflexivity|].
    assert (N : forall j i jp ip, bit jp -> bit ip -> natural_map (ni g) j i jp ip = pillar (ni g) (j + jp) (i + ip)).
    { intros j i jp ip B1 B2. apply natural_map_spec; unfold bit in *; lia. }
    split; [|intros _; exact N]. intros j i jp ip _ _ B1 B2. rewrite N by assumption. apply uses_nil.
Qed.
Lemma pts4_pillar g r pj pi : pts4 g r pj pi = g_pts g r (pillar (ni g) pj pi).
Proof. reflexivity. Qed.
