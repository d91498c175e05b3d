(** PatchProps2.v: sparse meshes, trimmed patches, combined surfaces and the faces of cells. *)
From Verif Require Import Base QBase BoxProofs DecoarsenProofs IntersectModel IntersectProofs PatchModel PatchProps.
Open Scope Z_scope.

(** ** Meshes with holes *)
(** The triangles of a quadrilateral some of whose corners may be missing. *)
Definition QuadOpt (a b c d : option vec) : list triangle :=
  match a, b, c, d with
  | Some a, Some b, Some c, Some d => [(a, b, c); (d, b, c)]
  | None, Some b, Some c, Some d => [(b, c, d)]
  | Some a, None, Some c, Some d => [(a, c, d)]
  | Some a, Some b, None, Some d => [(b, a, d)]
  | Some a, Some b, Some c, None => [(b, c, a)]
  | _, _, _, _ => []
  end.

Lemma ix_spec l : NoDup (map fst l) -> forall ix0 n,
  let ix := fst (fold_left (fun '(ix, n) '(j, i, _) => ((fun j' i' => if (j' =? j) && (i' =? i) then n else ix j' i'), n + 1)) l (ix0 : Z -> Z -> Z, n)) in
  (forall u j i (v : vec), nth_error l u = Some (j, i, v) -> ix j i = n + Z.of_nat u) /\ (forall j i, ~ In (j, i) (map fst l) -> ix j i = ix0 j i).
Proof.
  induction l as [|[[j0 i0] v0] l IH]; intros N ix0 n; cbn [fold_left].
  - split; [intros [|u]; discriminate|reflexivity].
  - cbn [map fst] in N. inversion N as [|? ? N0 N']; subst. specialize (IH N' (fun j' i' => if (j' =? j0) && (i' =? i0) then n else ix0 j' i') (n + 1)). cbv zeta in IH |- *. destruct IH as [A B]. split.
    + intros [|u] j i v E.
      * cbn [nth_error] in E. injection E as -> -> ->. rewrite B by exact N0. rewrite !Z.eqb_refl. cbn [andb]. lia.
      * cbn [nth_error] in E. rewrite (A u j i v E). lia.
    + intros j i H. cbn [map fst In] in H. rewrite B by tauto. destruct ((j =? j0) && (i =? i0)) eqn:E; [|reflexivity]. exfalso. apply H. left. f_equal; lia.
Qed.
Lemma in_flat2 {A} nj ni (f : Z -> Z -> list A) x : In x (flat2 nj ni f) <-> exists j i, 0 <= j < nj /\ 0 <= i < ni /\ In x (f j i).
Proof.
  unfold flat2. rewrite in_flat_map. split.
  - intros (j & Hj & H). apply in_flat_map in H as (i & Hi & H). apply in_zrange in Hj, Hi. exists j, i. auto.
  - intros (j & i & Hj & Hi & H). exists j. rewrite in_zrange. split; [exact Hj|]. apply in_flat_map. exists i. rewrite in_zrange. auto.
Qed.
Lemma in_defined nj ni mesh j i v : In (j, i, v) (defined nj ni mesh) <-> 0 <= j < nj /\ 0 <= i < ni /\ mesh j i = Some v.
Proof.
  unfold defined. rewrite in_flat2. split.
  - intros (j' & i' & Hj & Hi & H). destruct (mesh j' i') as [w|] eqn:E; [|destruct H]. destruct H as [H|[]]. injection H as -> -> ->. auto.
  - intros (Hj & Hi & E). exists j, i. rewrite E. split; [exact Hj|]. split; [exact Hi|]. left. reflexivity.
Qed.
Lemma nodup_defined nj ni mesh : NoDup (map fst (defined nj ni mesh)).
Proof.
  unfold defined, flat2. rewrite map_flat_map'. apply NoDup_flat_map; [apply NoDup_zrange| |].
  - intros j _. rewrite map_flat_map'. apply NoDup_flat_map; [apply NoDup_zrange| |].
    + intros i _. destruct (mesh j i); cbn [map]; repeat constructor. intros [].
    + intros i i' z _ _ H H'. destruct (mesh j i); [|destruct H]. destruct (mesh j i'); [|destruct H']. destruct H as [<-|[]], H' as [H'|[]]. injection H'. auto.
  - intros j j' z _ _ H H'. apply in_map_iff in H as ([[a b] v] & <- & H). apply in_map_iff in H' as ([[a' b'] v'] & E & H'). injection E as -> ->.
    apply in_flat_map in H as (i & _ & H). apply in_flat_map in H' as (i' & _ & H'). destruct (mesh j i); [|destruct H]. destruct (mesh j' i'); [|destruct H']. destruct H as [H|[]], H' as [H'|[]]. injection H as -> -> _. injection H' as -> _ _. reflexivity.
Qed.
Lemma index_ok nj ni mesh j i : 0 <= j < nj -> 0 <= i < ni -> let d := defined nj ni mesh in let k := sparse_indices d j i in
  match mesh j i with Some v => 0 <= k /\ znth (map snd d) k = Some v | None => k = -1 end.
Proof.
  intros Hj Hi. cbv zeta. destruct (ix_spec (defined nj ni mesh) (nodup_defined nj ni mesh) (fun _ _ => -1) 0) as [A B]. fold (sparse_indices (defined nj ni mesh)) in A, B.
  destruct (mesh j i) as [v|] eqn:E.
  - assert (H : In (j, i, v) (defined nj ni mesh)) by (apply in_defined; auto). apply In_nth_error in H as (u & H). rewrite (A u j i v H). split; [lia|]. unfold znth. replace (0 + Z.of_nat u <? 0) with false by lia.
    rewrite nth_error_map. replace (Z.to_nat (0 + Z.of_nat u)) with u by lia. rewrite H. reflexivity.
  - apply B. intros H. apply in_map_iff in H as ([[a b] v] & F & H). injection F as -> ->. apply in_defined in H as (_ & _ & H). congruence.
Qed.
Lemma concat_shape points (f : Z -> res (list tri)) (g : Z -> list triangle) l : (forall u, In u l -> exists x, f u = Ok x /\ Shape x points (g u)) ->
  exists r, concat_res (flat_map (fun u => [f u]) l) = Ok r /\ Shape r points (flat_map g l).
Proof.
  induction l as [|u l IH]; intros H; [exists []; split; [reflexivity|constructor]|].
  destruct (H u (or_introl eq_refl)) as (x & Ex & Sx). destruct IH as (r & Er & Sr); [intros v Hv; apply H; right; exact Hv|]. exists (x ++ r). cbn [flat_map app concat_res]. rewrite Ex. cbn [bind]. rewrite Er. cbn [bind]. split; [reflexivity|].
  apply Forall2_app; assumption.
Qed.

(** A mesh with missing nodes gives two triangles for a quadrilateral with all its corners, one for one with three,
    none for the others; its points are the nodes there are. *)
Theorem C91_sparse_mesh : forall nj ni mesh, 1 < nj -> 1 < ni -> exists p, set_from_sparse_mesh nj ni mesh = Ok p /\
  Shape (p_tris p) (p_points p) (flat2 (nj - 1) (ni - 1) (fun j i => QuadOpt (mesh j i) (mesh j (i + 1)) (mesh (j + 1) i) (mesh (j + 1) (i + 1)))) /\
  p_points p = flat2 nj ni (fun j i => match mesh j i with Some v => [v] | None => [] end) /\
  p_count p = Z.of_nat (List.length (p_tris p)) /\ p_nodes p = Z.of_nat (List.length (p_points p)) /\
  (forall t, column_from_triangle_index p t = None).
Proof.
  intros nj ni mesh Hj Hi. unfold set_from_sparse_mesh. replace ((nj >? 1) && (ni >? 1)) with true by lia. cbn [assert_ bind]. cbv zeta. set (d := defined nj ni mesh). set (ix := sparse_indices d).
  rewrite (flat2_alt _ _ (fun j i => QuadOpt (mesh j i) (mesh j (i + 1)) (mesh (j + 1) i) (mesh (j + 1) (i + 1)))), (flat2_alt _ _ (fun j i => [sparse_block mesh ix j i])) by lia.
  destruct (concat_shape (map snd d) (fun u => sparse_block mesh ix (u / (ni - 1)) (u mod (ni - 1)))
    (fun u => (fun j i => QuadOpt (mesh j i) (mesh j (i + 1)) (mesh (j + 1) i) (mesh (j + 1) (i + 1))) (u / (ni - 1)) (u mod (ni - 1))) (zrange ((nj - 1) * (ni - 1)))) as (r & Er & Sr).
  - intros u Hu. apply in_zrange in Hu.
    assert (J : 0 <= u / (ni - 1) < nj - 1) by (split; [apply Z.div_pos; lia|apply Z.div_lt_upper_bound; nia]). pose proof (Z.mod_pos_bound u (ni - 1) ltac:(lia)) as B.
    set (j := u / (ni - 1)) in *. set (i := u mod (ni - 1)) in *.
    pose proof (index_ok nj ni mesh j i ltac:(lia) ltac:(lia)) as Ia. pose proof (index_ok nj ni mesh j (i + 1) ltac:(lia) ltac:(lia)) as Ib.
    pose proof (index_ok nj ni mesh (j + 1) i ltac:(lia) ltac:(lia)) as Ic. pose proof (index_ok nj ni mesh (j + 1) (i + 1) ltac:(lia) ltac:(lia)) as Id.
    cbv zeta in Ia, Ib, Ic, Id. fold d in Ia, Ib, Ic, Id. fold ix in Ia, Ib, Ic, Id. unfold sparse_block. cbv zeta.
    destruct (mesh j i) as [a|], (mesh j (i + 1)) as [b|], (mesh (j + 1) i) as [c|], (mesh (j + 1) (i + 1)) as [e|]; cbn [Z.add Pos.add Z.gtb Z.eqb Z.compare Pos.compare Pos.compare_cont QuadOpt];
      repeat match goal with H : _ /\ znth _ _ = Some _ |- _ => destruct H end;
      repeat match goal with |- context [?k <? 0] => first [replace (k <? 0) with false by lia | replace (k <? 0) with true by lia] end;
      eexists; (split; [reflexivity|]); unfold Shape; repeat apply Forall2_cons; try apply Forall2_nil; unfold IsAt; repeat split; assumption.
  - rewrite Er. cbn [bind]. eexists. split; [reflexivity|]. cbn [p_tris p_points p_count p_nodes]. split; [exact Sr|]. split; [|split; [reflexivity|split; [now rewrite map_length|reflexivity]]].
    unfold d, defined, flat2. rewrite map_flat_map'. rewrite !flat_map_concat_map. f_equal. apply map_ext. intros j. rewrite map_flat_map', !flat_map_concat_map. f_equal. apply map_ext. intros i. destruct (mesh j i); reflexivity.
Qed.
Print Assumptions C91_sparse_mesh.

(** ** Trimming *)
Definition Inside (box : option (vec * vec)) (polygon : option (vec -> bool)) (p : vec) : Prop :=
  match box with Some (lo, hi) => (vx lo <= vx p <= vx hi /\ vy lo <= vy p <= vy hi /\ vz lo <= vz p <= vz hi)%Q | None => True end /\
  match polygon with Some f => f p = true | None => True end.
(** the triangles kept: those with every corner inside, or with any *)
Definition Kept (inside : vec -> bool) (internal : bool) (t : triangle) : bool :=
  let '(a, b, c) := t in if internal then inside a && inside b && inside c else inside a || inside b || inside c.

Lemma znth_range {A} (l : list A) k x : znth l k = Some x -> 0 <= k < Z.of_nat (List.length l).
Proof. unfold znth. destruct (k <? 0) eqn:E; [discriminate|]. intros H. assert (nth_error l (Z.to_nat k) <> None) as N by (rewrite H; discriminate). apply nth_error_Some in N. lia. Qed.
Lemma Forall2_filter {A B} (R : A -> B -> Prop) (f : A -> bool) (g : B -> bool) l m : (forall a b, R a b -> f a = g b) -> Forall2 R l m -> Forall2 R (filter f l) (filter g m).
Proof. intros H F. induction F as [|a b l m Hab F IH]; [constructor|]. cbn [filter]. rewrite (H a b Hab). destruct (g b); [constructor; assumption|exact IH]. Qed.
Lemma position_spec l k : NoDup l -> forall n u, nth_error l u = Some k -> position l k n = n + Z.of_nat u.
Proof.
  induction l as [|x l IH]; intros N n [|u] E; try discriminate; cbn [nth_error] in E; cbn [position]; inversion N as [|? ? Nx N']; subst.
  - injection E as ->. rewrite Z.eqb_refl. lia.
  - destruct (x =? k) eqn:X; [exfalso; apply Nx; apply Z.eqb_eq in X; subst x; eapply nth_error_In, E|]. rewrite (IH N' (n + 1) u E). lia.
Qed.
Lemma nth_points (P : list vec) l u : (forall k, In k l -> exists p, znth P k = Some p) ->
  nth_error (flat_map (fun k => match znth P k with Some p => [p] | None => [] end) l) u = match nth_error l u with Some k => znth P k | None => None end.
Proof.
  revert u. induction l as [|k l IH]; intros u H; [destruct u; reflexivity|]. cbn [flat_map]. destruct (H k (or_introl eq_refl)) as (p & E). rewrite E. cbn [app]. destruct u as [|u]; cbn [nth_error]; [symmetry; exact E|].
  apply IH. intros k' Hk'. apply H. right. exact Hk'.
Qed.

(** Trimming keeps exactly the triangles with enough corners inside, in order and in place, and just their points. *)
Theorem C91_trimmed : forall large s box polygon internal inside,
  Shape (p_tris large) (p_points large) s -> box <> None \/ polygon <> None -> (forall p, inside p = true <-> Inside box polygon p) ->
  exists p, set_to_trimmed_patch large box polygon internal = Ok p /\
    Shape (p_tris p) (p_points p) (filter (Kept inside internal) s) /\
    p_count p = Z.of_nat (List.length (p_tris p)) /\ p_nodes p = Z.of_nat (List.length (p_points p)) /\
    (forall k, 0 <= k < p_nodes p -> exists a b c, In (a, b, c) (p_tris p) /\ (k = a \/ k = b \/ k = c)).
Proof.
  intros large s box polygon internal inside Sh Some_ Ins. pose (P := p_points large). pose (tris := p_tris large). fold P in Sh. fold tris in Sh. pose (n := Z.of_nat (List.length P)).
  pose (ins := fun p => match box with Some b => in_box b p | None => true end && match polygon with Some f => f p | None => true end).
  pose (points_in := fun k => match znth P k with Some p => ins p | None => false end).
  pose (trim := filter (if internal then t_all points_in else t_any points_in) tris). pose (keep := filter (fun k => existsb (t_any (Z.eqb k)) trim) (zrange n)).
  pose (pts := flat_map (fun k => match znth P k with Some p => [p] | None => [] end) keep).
  pose (ts := map (t_map (fun k => position keep k 0)) trim).
  assert (EQ : set_to_trimmed_patch large box polygon internal =
    (do _ <- assert_ (match box, polygon with None, None => false | _, _ => true end);
     do _ <- (if forallb (t_all (fun a => (0 <=? a) && (a <? n))) tris then Ok tt else Err IndexError);
     do _ <- assert_ (forallb (t_all (fun a => a >=? 0)) ts);
     do _ <- assert_ (forallb (t_all (fun a => a <? Z.of_nat (List.length pts))) ts);
     Ok (Patch ts pts (Z.of_nat (List.length pts)) (Z.of_nat (List.length ts)) None None))) by reflexivity.
  rewrite EQ. clear EQ.
  replace (match box, polygon with None, None => false | _, _ => true end) with true by (destruct box, polygon; try reflexivity; destruct Some_ as [H|H]; exfalso; apply H; reflexivity). cbn [assert_ bind].
  assert (InR : forall a b c, In (a, b, c) tris -> exists pa pb pc, znth P a = Some pa /\ znth P b = Some pb /\ znth P c = Some pc).
  { clear - Sh. intros a b c H. unfold Shape in Sh. induction Sh as [|t abc l m At F IH]; [destruct H|]. destruct H as [-> |H]; [|exact (IH H)]. destruct abc as [[pa pb] pc]. exists pa, pb, pc. exact At. }
  replace (forallb (t_all (fun a => (0 <=? a) && (a <? n))) tris) with true.
  2:{ symmetry. apply forallb_forall. intros [[a b] c] H. destruct (InR a b c H) as (pa & pb & pc & A & B & C). apply znth_range in A, B, C. cbn [t_all]. unfold n. lia. }
  cbn [bind].
  assert (EI : forall p, ins p = inside p).
  { intros p. apply eq_true_iff_eq. rewrite Ins. unfold ins, Inside, in_box. rewrite andb_true_iff. destruct box as [[lo hi]|]; cbn [fst snd]; rewrite ?andb_true_iff, ?Qleb_iff; destruct polygon; intuition. }
  assert (ST : Forall2 (IsAt P) trim (filter (Kept inside internal) s)).
  { unfold trim. apply Forall2_filter; [|exact Sh]. intros [[a b] c] [[pa pb] pc] (A & B & C). unfold Kept, t_all, t_any, points_in. rewrite <- !EI. destruct internal; rewrite A, B, C; reflexivity. }
  assert (ND : NoDup keep) by (apply NoDup_filter, NoDup_zrange).
  assert (KP : forall k, In k keep -> exists p, znth P k = Some p).
  { intros k H. apply filter_In in H as (R & H). apply in_zrange in R. unfold znth. replace (k <? 0) with false by lia. destruct (nth_error P (Z.to_nat k)) as [p|] eqn:E; [exists p; reflexivity|]. apply nth_error_None in E. unfold n in R. lia. }
  assert (LP : List.length pts = List.length keep).
  { unfold pts. clear - KP. induction keep as [|k l IH]; [reflexivity|]. cbn [flat_map]. destruct (KP k (or_introl eq_refl)) as (p & ->). cbn [app List.length]. f_equal. apply IH. intros k' Hk'. apply KP. right. exact Hk'. }
  assert (POS : forall k, In k keep -> 0 <= position keep k 0 < Z.of_nat (List.length keep) /\ znth pts (position keep k 0) = znth P k).
  { intros k H. apply In_nth_error in H as (u & H). rewrite (position_spec keep k ND 0 u H). assert (u < List.length keep)%nat by (apply nth_error_Some; rewrite H; discriminate). split; [lia|].
    unfold znth at 1. replace (0 + Z.of_nat u <? 0) with false by lia. replace (Z.to_nat (0 + Z.of_nat u)) with u by lia. unfold pts. rewrite nth_points by exact KP. rewrite H. reflexivity. }
  assert (IK : forall a b c, In (a, b, c) trim -> In a keep /\ In b keep /\ In c keep).
  { intros a b c H. assert (H' : In (a, b, c) tris) by (apply filter_In in H as (H & _); exact H). destruct (InR a b c H') as (pa & pb & pc & A & B & C). apply znth_range in A, B, C.
    assert (G : forall k, 0 <= k < n -> t_any (Z.eqb k) (a, b, c) = true -> In k keep).
    { intros k R E. apply filter_In. split; [apply in_zrange, R|]. apply existsb_exists. exists (a, b, c). auto. }
    unfold n in G. repeat split; apply G; try assumption; cbn [t_any]; rewrite Z.eqb_refl, ?orb_true_r; reflexivity. }
  replace (forallb (t_all (fun a => a >=? 0)) ts) with true.
  2:{ symmetry. apply forallb_forall. intros t H. apply in_map_iff in H as ([[a b] c] & <- & H). destruct (IK a b c H) as (A & B & C). apply POS in A as (A & _), B as (B & _), C as (C & _). cbn [t_map t_all]. lia. }
  cbn [assert_ bind].
  replace (forallb (t_all (fun a => a <? Z.of_nat (List.length pts))) ts) with true.
  2:{ symmetry. apply forallb_forall. intros t H. apply in_map_iff in H as ([[a b] c] & <- & H). destruct (IK a b c H) as (A & B & C). apply POS in A as (A & _), B as (B & _), C as (C & _). cbn [t_map t_all]. rewrite LP. lia. }
  cbn [assert_ bind]. eexists. split; [reflexivity|]. cbn [p_tris p_points p_count p_nodes]. split; [|split; [reflexivity|split; [reflexivity|]]].
  - unfold Shape, ts. clearbody ts. clearbody pts. clearbody keep. clearbody trim. clear -ST IK POS. revert IK. induction ST as [|[[a b] c] [[pa pb] pc] l m (A & B & C) F IH]; intros IK; [constructor|]. cbn [map]. constructor.
    + destruct (IK a b c (or_introl eq_refl)) as (Ka & Kb & Kc). cbn [t_map IsAt]. rewrite (proj2 (POS a Ka)), (proj2 (POS b Kb)), (proj2 (POS c Kc)). auto.
    + apply IH. intros a' b' c' H. apply IK. right. exact H.
  - intros k Hk. rewrite LP in Hk. destruct (nth_error keep (Z.to_nat k)) as [q|] eqn:Q; [|apply nth_error_None in Q; lia].
    assert (Pq : position keep q 0 = k) by (rewrite (position_spec keep q ND 0 _ Q); lia). apply nth_error_In in Q. apply filter_In in Q as (_ & Q). apply existsb_exists in Q as ([[a b] c] & H & E).
    exists (position keep a 0), (position keep b 0), (position keep c 0). split; [apply in_map_iff; exists (a, b, c); split; [reflexivity|exact H]|].
    cbn [t_any] in E. rewrite !orb_true_iff, !Z.eqb_eq in E. destruct E as [[<-|<-]|<-]; auto.
Qed.
Print Assumptions C91_trimmed.

(** ** Combined surfaces *)
Lemma shape_empty t s : Shape t [] s -> t = [] /\ s = [].
Proof. intros H. destruct H as [|[[a b] c] [[pa pb] pc] l m (A & _) _]; [auto|]. unfold znth in A. destruct (a <? 0); [discriminate|]. destruct (Z.to_nat a); discriminate. Qed.
Lemma shape_shift t p s ps off : Shape t p s -> Z.of_nat (List.length ps) = off -> Shape (map (t_map (fun k => k + off)) t) (ps ++ p) s.
Proof.
  intros H L. unfold Shape in *. induction H as [|[[a b] c] [[pa pb] pc] l m (A & B & C) F IH]; [constructor|]. cbn [map]. constructor; [|exact IH]. cbn [t_map IsAt].
  pose proof (znth_range _ _ _ A). pose proof (znth_range _ _ _ B). pose proof (znth_range _ _ _ C). rewrite (Z.add_comm a), (Z.add_comm b), (Z.add_comm c), !(znth_app2 ps p off) by (try exact L; lia). auto.
Qed.
Lemma shape_app t p s q : Shape t p s -> Shape t (p ++ q) s.
Proof. intros H. unfold Shape in *. induction H as [|[[a b] c] [[pa pb] pc] l m (A & B & C) F IH]; [constructor|]. constructor; [|exact IH]. cbn [IsAt]. repeat split; apply znth_app1; assumption. Qed.
Lemma combined_fold l ss : Forall2 (fun tp s => Shape (fst tp) (snd tp) s) l ss -> forall ts ps s0 off, Shape ts ps s0 -> off = Z.of_nat (List.length ps) ->
  exists ts' ps', fst (fold_left (fun '(acc, off) '(t, p) =>
        (match acc with
         | Some (ts, ps) => if off =? 0 then Some (t, p) else Some (ts ++ map (t_map (fun k => k + off)) t, ps ++ p)
         | None => Some (t, p)
         end, off + Z.of_nat (List.length p))) l (Some (ts, ps), off)) = Some (ts', ps') /\ Shape ts' ps' (s0 ++ List.concat ss).
Proof.
  induction 1 as [|[t p] s l ss Sh F IH]; intros ts ps s0 off S0 L; cbn [fold_left List.concat].
  - exists ts, ps. rewrite app_nil_r. split; [reflexivity|exact S0].
  - cbn [fst snd] in Sh. rewrite app_assoc. destruct (off =? 0) eqn:E.
    + assert (ps = []) as -> by (destruct ps; [reflexivity|cbn [List.length] in L; lia]). destruct (shape_empty _ _ S0) as (-> & ->). cbn [app]. apply IH; [exact Sh|]. lia.
    + apply IH; [|rewrite app_length; lia]. apply Forall2_app; [apply shape_app, S0|apply shape_shift; [exact Sh|symmetry; exact L]].
Qed.
Lemma length_shape t p s : Shape t p s -> List.length t = List.length s.
Proof. intros H. unfold Shape in H. induction H; cbn [List.length]; congruence. Qed.

(** The patches of a surface, or the surfaces of a combined surface, are put together without moving any triangle;
    and the surface and local index found for a triangle of a combined surface are those of that triangle. *)
Theorem C91_combined : forall l ss, Forall2 (fun tp s => Shape (fst tp) (snd tp) s) l ss -> l <> [] ->
  (exists t p, combined l = Some (t, p) /\ Shape t p (List.concat ss)) /\
  (forall t, 0 <= t -> match surface_index_for_triangle_index (map (fun tp => Z.of_nat (List.length (fst tp))) l) 0 t with
     | Some (i, u) => exists s x, znth ss i = Some s /\ znth s u = Some x /\ znth (List.concat ss) t = Some x
     | None => Z.of_nat (List.length (List.concat ss)) <= t
     end).
Proof.
  intros l ss F Ne. split.
  - destruct F as [|[t p] s l ss Sh F]; [exfalso; apply Ne; reflexivity|]. unfold combined. cbn [fold_left List.concat]. cbn [fst snd] in Sh.
    destruct (combined_fold l ss F t p s (0 + Z.of_nat (List.length p)) Sh ltac:(lia)) as (t' & p' & E & S'). exists t', p'. auto.
  - clear Ne. assert (G : forall t s_i, 0 <= t -> match surface_index_for_triangle_index (map (fun tp => Z.of_nat (List.length (fst tp))) l) s_i t with
       | Some (i, u) => s_i <= i /\ exists s x, znth ss (i - s_i) = Some s /\ znth s u = Some x /\ znth (List.concat ss) t = Some x
       | None => Z.of_nat (List.length (List.concat ss)) <= t end).
    { induction F as [|[t p] s l ss Sh F IH]; intros u s_i Hu; cbn [map surface_index_for_triangle_index List.concat]; [cbn; lia|]. cbn [fst snd] in *. rewrite (length_shape _ _ _ Sh). destruct (u <? Z.of_nat (List.length s)) eqn:E.
      - split; [lia|]. destruct (nth_error s (Z.to_nat u)) as [x|] eqn:X; [|apply nth_error_None in X; lia]. assert (Z1 : znth s u = Some x) by (unfold znth; replace (u <? 0) with false by lia; exact X).
        exists s, x. split; [rewrite Z.sub_diag; reflexivity|]. split; [exact Z1|]. apply znth_app1, Z1.
      - specialize (IH (u - Z.of_nat (List.length s)) (s_i + 1) ltac:(lia)). destruct (surface_index_for_triangle_index _ (s_i + 1) _) as [[i v]|].
        + destruct IH as (Hi & s' & x & A & B & C). split; [lia|]. exists s', x. split; [|split; [exact B|]].
          * unfold znth in *. replace (i - s_i <? 0) with false by lia. replace (i - (s_i + 1) <? 0) with false in A by lia. replace (Z.to_nat (i - s_i)) with (S (Z.to_nat (i - (s_i + 1)))) by lia. exact A.
          * replace u with (Z.of_nat (List.length s) + (u - Z.of_nat (List.length s))) by lia. rewrite (znth_app2 s (List.concat ss) _ _ eq_refl) by lia. exact C.
        + rewrite app_length. lia. }
    intros t Ht. specialize (G t 0 Ht). destruct (surface_index_for_triangle_index _ 0 t) as [[i u]|]; [|exact G]. destruct G as (_ & s & x & A & B). rewrite Z.sub_0_r in A. exists s, x. auto.
Qed.
Print Assumptions C91_combined.

(** ** The faces of a cell *)
(** the corner of the face of an axis and polarity reached from its corner nearest the first (or, at the far end, the
    last) corner of the cell by going u and v along the other two axes in order *)
Definition FaceCorner (cp : Z -> Z -> Z -> vec) (axis s u v : Z) : vec :=
  let away x := if x =? 0 then s else 1 - s in
  if axis =? 0 then cp s (away u) (away v) else if axis =? 1 then cp (away u) s (away v) else cp (away u) (away v) s.
Definition FaceCentre (cp : Z -> Z -> Z -> vec) (axis s : Z) : vec :=
  if axis =? 0 then centre4 (cp s 0 0) (cp s 0 1) (cp s 1 0) (cp s 1 1)
  else if axis =? 1 then centre4 (cp 0 s 0) (cp 0 s 1) (cp 1 s 0) (cp 1 s 1)
  else centre4 (cp 0 0 s) (cp 0 1 s) (cp 1 0 s) (cp 1 1 s).
Definition FaceTris (cp : Z -> Z -> Z -> vec) (quad : bool) (axis s : Z) : list triangle :=
  let c := FaceCorner cp axis s in let m := FaceCentre cp axis s in
  if quad then [(m, c 0 0, c 0 1); (m, c 0 1, c 1 1); (m, c 1 1, c 1 0); (m, c 1 0, c 0 0)]
  else [(c 0 0, c 1 1, c 0 1); (c 0 0, c 1 1, c 1 0)].

(** The surface of a cell has the triangles of each of its faces in turn, and the face of a triangle is found again
    from its index. *)
Theorem C91_cell_faces : forall cp quad, let p := set_to_cell_faces_from_corner_points cp quad in
  let s := flat2 3 2 (FaceTris cp quad) in
  Shape (p_tris p) (p_points p) s /\ p_count p = Z.of_nat (List.length (p_tris p)) /\ p_nodes p = Z.of_nat (List.length (p_points p)) /\
  (forall t, 0 <= t < p_count p -> exists axis polarity x, cell_axis_and_polarity_from_triangle_index quad t = (0, axis, polarity) /\
     znth s t = Some x /\ In x (FaceTris cp quad axis polarity)).
Proof.
  intros cp quad p s. split; [|split; [|split]].
  - unfold p, s. destruct quad; unfold Shape; cbn [set_to_cell_faces_from_corner_points p_tris p_points]; repeat apply Forall2_cons; try apply Forall2_nil; repeat split; reflexivity.
  - unfold p. destruct quad; reflexivity.
  - unfold p. destruct quad; reflexivity.
  - intros t Ht. set (k := if quad then 4 else 2).
    assert (Hk : p_count p = k * 3 * 2) by (unfold p, k; destruct quad; reflexivity). rewrite Hk in Ht.
    destruct (columns_ok 3 2 k (FaceTris cp quad) ltac:(lia) ltac:(lia) ltac:(unfold k; destruct quad; lia) ltac:(unfold k; destruct quad; reflexivity) t Ht) as (A & B & x & X & I').
    exists (t / k / 2), ((t / k) mod 2), x. split; [|auto]. unfold cell_axis_and_polarity_from_triangle_index. fold k.
    assert (F : 0 <= t / k < 6) by (split; [apply Z.div_pos; unfold k in *; destruct quad; lia|apply Z.div_lt_upper_bound; unfold k in *; destruct quad; lia]).
    cbv zeta. rewrite (Z.div_small (t / k) 6), (Z.mod_small (t / k) 6) by lia. reflexivity.
Qed.
Print Assumptions C91_cell_faces.
(** The patch's own function for that never answers: the counts it asks for are not those of such a patch. *)
Theorem C91_face_from_index_refuted : forall cp quad t, face_from_triangle_index (set_to_cell_faces_from_corner_points cp quad) t = Err AssertionError.
Proof. intros cp [|] t; reflexivity. Qed.
Print Assumptions C91_face_from_index_refuted.

(** ** Examples: a mesh with a hole, trimmed, and two patches combined *)
Definition hole (j i : Z) : option vec := if (j =? 1) && (i =? 1) then None else Some (V (inject_Z i) (inject_Z j) (inject_Z (j * i))).
Definition tris_of (r : res patch) : list tri := match r with Ok p => p_tris p | Err _ => [] end.
Example hole_tris : tris_of (set_from_sparse_mesh 3 4 hole) = [(1, 4, 0); (2, 1, 5); (2, 3, 5); (6, 3, 5); (4, 7, 8); (5, 8, 9); (5, 6, 9); (10, 6, 9)].
Proof. vm_compute. reflexivity. Qed.
Example hole_trimmed : match set_from_sparse_mesh 3 4 hole with Ok p => tris_of (set_to_trimmed_patch p (Some (V 2 0 0, V 3 1 5)) None true) | Err _ => [] end = [(0, 1, 2); (3, 1, 2)].
Proof. vm_compute. reflexivity. Qed.
Example two_patches : surface_index_for_triangle_index [8; 2; 0; 3] 0 11 = Some (3, 1) /\ surface_index_for_triangle_index [8; 2; 0; 3] 0 13 = None /\
  option_map fst (combined [([(0, 1, 2)], [V 0 0 0; V 1 0 0; V 0 1 0]); ([], []); ([(0, 2, 1)], [V 5 5 5; V 6 6 6; V 5 6 7])]) = Some [(0, 1, 2); (3, 5, 4)].
Proof. vm_compute. repeat split. Qed.
