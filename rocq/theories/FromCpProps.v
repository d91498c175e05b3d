(** FromCpProps.v: a grid made from corner points has those corner points. *)
From Coq Require Import Qabs Lqa FinFun.
From Verif Require Import Base QBase BoxProofs IntersectModel IntersectProofs PillarModel PillarProofs PointsModel PointsProofs PointsProps FromCpModel FromCpProofs.
Open Scope Z_scope.

(** column (j, i) has at its corner (jp, ip) the points that column (j', i') has at its corner (jp', ip') *)
Definition Together (cp : cps) (mk j i jp ip j' i' jp' ip' : Z) : Prop :=
  forall k kp, 0 <= k < mk -> bit kp -> Same (cp k j i kp jp ip) (cp k j' i' kp jp' ip').
Definition IsCol (mj mi j i : Z) : Prop := 0 <= j < mj /\ 0 <= i < mi.
Definition GapAfter (g : geo) (k : Z) : Prop := exists l, g_gap_after g = Some l /\ nth (Z.to_nat k) l false = true.
(** what a grid made from corner points should be, with extra pillars xs *)
Record MadeFrom (cp : cps) (mk mj mi : Z) (mv tol : Q) (f : from_cp) (xs : extras) : Prop := {
  mf_pillars : Pillars (f_geo f) xs;
  mf_layers : Layers (f_geo f);
  mf_extent : g_nk (f_geo f) = mk /\ nj (f_geo f) = mj /\ ni (f_geo f) = mi;
  (* every corner of every cell, to within the two tolerances *)
  mf_corners : forall k j i kp jp ip, IsCell (f_geo f) k j i -> bit kp -> bit jp -> bit ip ->
    exists p, Corner (f_geo f) xs k j i kp jp ip p /\ Within (tol + mv * (1 # 2)) p (cp k j i kp jp ip);
  (* a gap after each layer that is, somewhere, more than the limit above the next *)
  mf_gaps : forall k, 0 <= k < mk - 1 -> (GapAfter (f_geo f) k <->
    exists j i jp ip, IsCol mj mi j i /\ bit jp /\ bit ip /\ ~ Within mv (cp (k + 1) j i 0 jp ip) (cp k j i 1 jp ip));
  (* columns that meet share the pillar *)
  mf_joined : forall j i jp ip j' i' jp' ip' n, IsCol mj mi j i -> IsCol mj mi j' i' -> bit jp -> bit ip -> bit jp' -> bit ip' ->
    j + jp = j' + jp' -> i + ip = i' + ip' -> Together cp mk j i jp ip j' i' jp' ip' ->
    Uses mj mi xs (j + jp) (i + ip) j i n -> Uses mj mi xs (j' + jp') (i' + ip') j' i' n;
  (* the mapping kept with the grid is right *)
  mf_mapping : forall j i jp ip, IsCol mj mi j i -> bit jp -> bit ip -> Uses mj mi xs (j + jp) (i + ip) j i (f_pfc f j i jp ip) }.

Lemma qmax_gt l t : (0 <= t)%Q -> (t < qmax l)%Q -> exists x, In x l /\ (t < x)%Q.
Proof.
  intros T. induction l as [|x l IH]; cbn [qmax fold_right]; [lra|]. fold (qmax l). destruct (Qmaxb_spec x (qmax l)) as [[? ->]|[? ->]]; intros H'.
  - destruct (IH H') as (y & Hy & Ly). exists y. split; [right; exact Hy|exact Ly].
  - exists x. split; [left; reflexivity|exact H'].
Qed.
Lemma layer_gap_gt cp mj mi k t : (0 <= t)%Q -> (t < layer_gap cp mj mi k)%Q <->
  exists j i jp ip, IsCol mj mi j i /\ bit jp /\ bit ip /\ ~ Within t (cp (k + 1) j i 0 jp ip) (cp k j i 1 jp ip).
Proof.
  intros T. split.
  - intros H. apply qmax_gt in H as (x & Hx & Lx); [|exact T]. apply in_flat_map in Hx as (((j, i), (jp, ip)) & Hc & Hx).
    unfold corners4 in Hc. apply in_flat_map in Hc as (j' & Hj & Hc). apply in_flat_map in Hc as (i' & Hi & Hc). apply in_zrange in Hj, Hi.
    apply in_map_iff in Hc as (q & [= -> -> ->] & Hq). exists j, i, jp, ip. split; [split; assumption|].
    assert (B : bit jp /\ bit ip) by (unfold bit; cbn in Hq; intuition congruence). split; [apply B|]. split; [apply B|].
    intros W. pose proof (proj2 (comps_within _ _ t) W x Hx). lra.
  - intros (j & i & jp & ip & [Hj Hi] & Bj & Bi & N). apply Qnot_le_lt. intros L. apply N. apply (layer_gap_within cp mj mi k t); assumption.
Qed.

(** ** The list of extra pillars *)
Lemma nth_error_map_some {A B} (f : A -> B) l n y : nth_error (map f l) n = Some y -> exists x, nth_error l n = Some x /\ f x = y.
Proof. rewrite nth_error_map. destruct (nth_error l n) as [x|]; [|discriminate]. intros [= <-]. exists x. split; reflexivity. Qed.
Section Tags.
Context (red : Z -> Z -> Z -> Z -> Z -> vec) (nrows mj mi : Z) (active : Z -> Z -> bool) (tol : Q) (sp : bool).
Hypothesis Tol : (0 <= tol)%Q.
Hypothesis Mj : 0 < mj.
Hypothesis Mi : 0 < mi.
Let pe := pillar_extras red nrows mj mi active tol sp.
Let tags := tags_of red nrows mj mi active tol sp (all_pillars mj mi).
Let us j i e := users red nrows mj mi active tol sp j i e.
Definition xs_of : extras := map (fun t => let '(j, i, e) := t in (j * (mi + 1) + i, us j i e)) tags.
Lemma pe_spec j i : (forall q, ~ Col mj mi j i q -> snd (pe j i) q = -1) /\
  (forall q, Col mj mi j i q -> sp = true -> Matches red nrows mj mi active tol j i (fst (pe j i)) q (snd (pe j i) q)) /\
  (forall n q, nth_error (fst (pe j i)) n = Some q -> Col mj mi j i q /\ snd (pe j i) q = Z.of_nat n).
Proof.
  unfold pe. destruct sp.
  - pose proof (extras_spec red nrows mj mi active tol Tol j i) as X. destruct (pillar_extras red nrows mj mi active tol true j i) as [exs use]. cbn [fst snd].
    destruct X as (A & B & C). auto.
  - cbn. split; [reflexivity|]. split; [discriminate|]. intros [|n] q; discriminate.
Qed.
Lemma use_range j i q : snd (pe j i) q = -1 \/ (Col mj mi j i q /\ 0 <= snd (pe j i) q < Z.of_nat (List.length (fst (pe j i)))).
Proof.
  destruct (pe_spec j i) as (A & B & C).
  assert (D : Col mj mi j i q \/ ~ Col mj mi j i q) by (unfold Col, bit; lia). destruct D as [D|D]; [|left; apply A, D].
  destruct sp eqn:E.
  - destruct (B q D eq_refl) as [(H & _)|(n & q' & H & N & _)]; [left; exact H|]. right. split; [exact D|]. rewrite H. assert ((n < List.length (fst (pe j i)))%nat) by (apply nth_error_Some; congruence). lia.
  - left. unfold pe. cbn. reflexivity.
Qed.
Lemma pillars_nth n : forall j i, 0 <= j <= mj -> 0 <= i <= mi -> n = Z.to_nat (j * (mi + 1) + i) -> nth_error (all_pillars mj mi) n = Some (j, i).
Proof.
  intros j i Hj Hi ->. unfold all_pillars. rewrite (zrange_split j (mj + 1)) by lia. rewrite flat_map_app.
  assert (L : forall l : list Z, List.length (flat_map (fun j0 => map (fun i0 => (j0, i0)) (zrange (mi + 1))) l) = (List.length l * Z.to_nat (mi + 1))%nat).
  { induction l as [|x l IH]; [reflexivity|]. cbn [flat_map List.length]. rewrite app_length, map_length, length_zrange, IH. lia. }
  rewrite nth_error_app2 by (rewrite L, length_zrange; nia). rewrite L, length_zrange. replace (Z.to_nat (j * (mi + 1) + i) - Z.to_nat j * Z.to_nat (mi + 1))%nat with (Z.to_nat i) by nia.
  cbn [flat_map]. rewrite nth_error_app1 by (rewrite map_length, length_zrange; lia). apply (map_nth_error (fun i0 => (j, i0))).
  rewrite (zrange_split i (mi + 1)) by lia. rewrite nth_error_app2 by (rewrite length_zrange; lia). rewrite length_zrange, Nat.sub_diag. reflexivity.
Qed.
Lemma in_pillars j i : In (j, i) (all_pillars mj mi) <-> 0 <= j <= mj /\ 0 <= i <= mi.
Proof.
  unfold all_pillars. rewrite in_flat_map. split.
  - intros (x & Hx & H). apply in_map_iff in H as (y & [= -> ->] & Hy). apply in_zrange in Hx, Hy. lia.
  - intros [Hj Hi]. exists j. split; [apply in_zrange; lia|]. apply in_map, in_zrange. lia.
Qed.
Lemma in_tags j i e : In (j, i, e) tags <-> (0 <= j <= mj /\ 0 <= i <= mi) /\ 0 <= e < Z.of_nat (List.length (fst (pe j i))).
Proof.
  unfold tags, tags_of. rewrite in_flat_map. split.
  - intros ((x & y) & Hp & H). cbn [fst snd] in H. apply in_map_iff in H as (z & [= -> -> ->] & Hz). apply in_zrange in Hz. apply in_pillars in Hp. split; [exact Hp|exact Hz].
  - intros [Hp He]. exists (j, i). split; [apply in_pillars, Hp|]. cbn [fst snd]. apply in_map, in_zrange. exact He.
Qed.
Lemma tags_nodup : NoDup tags.
Proof.
  unfold tags, tags_of. apply NoDup_flat_map.
  - unfold all_pillars. apply NoDup_flat_map; [apply NoDup_zrange| |].
    + intros x _. apply FinFun.Injective_map_NoDup; [intros a b [= ->]; reflexivity|apply NoDup_zrange].
    + intros x y z _ _ Hx Hy. apply in_map_iff in Hx as (? & <- & _). apply in_map_iff in Hy as (? & [= -> _] & _). reflexivity.
  - intros x _. apply FinFun.Injective_map_NoDup; [intros a b [= ->]; reflexivity|apply NoDup_zrange].
  - intros [x1 x2] [y1 y2] z _ _ Hx Hy. cbn [fst snd] in *. apply in_map_iff in Hx as (? & <- & _). apply in_map_iff in Hy as (? & [= -> -> _] & _). reflexivity.
Qed.
Lemma tag_at j i e : 0 <= j <= mj -> 0 <= i <= mi -> 0 <= e < Z.of_nat (List.length (fst (pe j i))) ->
  nth_error tags (Z.to_nat (Z.of_nat (List.length (tags_of red nrows mj mi active tol sp (firstn (Z.to_nat (j * (mi + 1) + i)) (all_pillars mj mi)))) + e)) = Some (j, i, e).
Proof.
  intros Hj Hi He. set (n := Z.to_nat (j * (mi + 1) + i)). pose proof (pillars_nth n j i Hj Hi eq_refl) as N. apply nth_error_split in N as (l1 & l2 & E & L).
  unfold tags. rewrite E. replace (firstn n (l1 ++ (j, i) :: l2)) with l1 by (rewrite <- L, firstn_app, firstn_all, Nat.sub_diag; cbn; rewrite app_nil_r; reflexivity).
  unfold tags_of. rewrite flat_map_app. rewrite nth_error_app2 by lia. replace (Z.to_nat _ - _)%nat with (Z.to_nat e) by lia. cbn [flat_map fst snd]. fold (pe j i).
  rewrite nth_error_app1 by (rewrite map_length, length_zrange; lia). apply (map_nth_error (fun e0 => (j, i, e0))).
  rewrite (zrange_split e (Z.of_nat (List.length (fst (pe j i))))) by lia. rewrite nth_error_app2 by (rewrite length_zrange; lia). rewrite length_zrange, Nat.sub_diag. reflexivity.
Qed.
Lemma in_users j i e c : In c (us j i e) <-> exists q, Col mj mi j i q /\ snd (pe j i) q = e /\ c = column mi (j - fst q) (i - snd q).
Proof.
  unfold us, users. rewrite in_flat_map. fold (pe j i). split.
  - intros (q & Hq & H). destruct ((j - fst q <? 0) || (mj <=? j - fst q) || (i - snd q <? 0) || (mi <=? i - snd q)) eqn:O; [destruct H|].
    destruct (Z.eqb_spec (snd (pe j i) q) e) as [E|]; [|destruct H]. destruct H as [<- |[]]. exists q. split; [|split; [exact E|reflexivity]].
    apply orb_false_iff in O as [O O4]. apply orb_false_iff in O as [O O3]. apply orb_false_iff in O as [O1 O2]. unfold Col, bit. cbn in Hq. split; [|split; [|lia]]; intuition (subst; cbn; lia).
  - intros (q & C & E & ->). exists q. destruct C as (B1 & B2 & C1 & C2). split.
    + destruct q as [x y]. cbn [fst snd] in *. destruct B1 as [-> | ->], B2 as [-> | ->]; cbn; auto.
    + replace ((j - fst q <? 0) || (mj <=? j - fst q) || (i - snd q <? 0) || (mi <=? i - snd q)) with false by lia. rewrite E, Z.eqb_refl. left. reflexivity.
Qed.
Lemma xs_wf : WellFormed mj mi xs_of.
Proof.
  split; [exact Mj|]. split; [exact Mi|]. apply Forall_forall. intros x Hx. apply in_map_iff in Hx as (((j, i), e) & <- & Ht). apply in_tags in Ht as [[Hj Hi] He]. cbn [fst snd].
  split; [nia|]. apply Forall_forall. intros c Hc. apply in_users in Hc as (q & (B1 & B2 & C1 & C2) & _ & ->). exists (j - fst q), (i - snd q), (fst q), (snd q).
  unfold bit in *. split; [exact C1|]. split; [exact C2|]. split; [lia|]. split; [lia|]. split; [reflexivity|]. unfold pillar. f_equal; [f_equal|]; lia.
Qed.
Lemma doubles_tag j i jp ip n : 0 <= j < mj -> 0 <= i < mi -> bit jp -> bit ip ->
  Doubles mi xs_of (j + jp) (i + ip) j i n <-> nth_error tags n = Some (j + jp, i + ip, snd (pe (j + jp) (i + ip)) (jp, ip)) /\ 0 <= snd (pe (j + jp) (i + ip)) (jp, ip).
Proof.
  intros Hj Hi Bj Bi. unfold Doubles, xs_of. split.
  - intros (cs & H & Hc). apply nth_error_map_some in H as (((j', i'), e) & Ht & [= Ep <-]). pose proof (nth_error_In _ _ Ht) as It. apply in_tags in It as [[Hj' Hi'] He].
    destruct (pillar_inj mi j' i' (j + jp) (i + ip)) as [-> ->]; [lia|unfold bit in Bi; lia|exact Ep|].
    apply in_users in Hc as (q & (B1 & B2 & C1 & C2) & E & Ec). apply column_inj in Ec as [E1 E2]; [|exact Hi|exact C2].
    assert (q = (jp, ip)) by (destruct q; cbn [fst snd] in *; f_equal; lia). subst q. rewrite E. split; [exact Ht|lia].
  - intros (Ht & H0). exists (us (j + jp) (i + ip) (snd (pe (j + jp) (i + ip)) (jp, ip))). split.
    + rewrite (map_nth_error _ _ _ Ht). reflexivity.
    + apply in_users. exists (jp, ip). cbn [fst snd]. split; [|split; [reflexivity|]].
      * unfold Col. cbn [fst snd]. split; [exact Bj|]. split; [exact Bi|]. lia.
      * f_equal; lia.
Qed.
Definition number (j i jp ip : Z) : Z :=
  let u := snd (pe (j + jp) (i + ip)) (jp, ip) in
  if u <? 0 then (j + jp) * (mi + 1) + i + ip
  else (mj + 1) * (mi + 1) + (Z.of_nat (List.length (tags_of red nrows mj mi active tol sp (firstn (Z.to_nat ((j + jp) * (mi + 1) + (i + ip))) (all_pillars mj mi)))) + u).
Lemma uses_number j i jp ip : 0 <= j < mj -> 0 <= i < mi -> bit jp -> bit ip -> Uses mj mi xs_of (j + jp) (i + ip) j i (number j i jp ip).
Proof.
  intros Hj Hi Bj Bi. unfold number. cbv zeta. destruct (use_range (j + jp) (i + ip) (jp, ip)) as [E|(_ & R)].
  - rewrite E. cbn [Z.ltb Z.compare]. right. split; [|unfold pillar; lia]. intros e D. apply doubles_tag in D as [_ D]; try assumption. lia.
  - replace (snd (pe (j + jp) (i + ip)) (jp, ip) <? 0) with false by lia.
    pose proof (tag_at (j + jp) (i + ip) _ ltac:(unfold bit in *; lia) ltac:(unfold bit in *; lia) R) as T. left. eexists. split; [|split].
    + apply doubles_tag; try assumption. split; [exact T|lia].
    + intros e' D. apply doubles_tag in D as [T' _]; try assumption. pose proof tags_nodup as ND. rewrite NoDup_nth_error in ND.
      rewrite (ND e' _ ltac:(apply nth_error_Some; congruence) (eq_trans T' (eq_sym T))). lia.
    + lia.
Qed.
End Tags.
Lemma users_nonempty red nrows mj mi active tol sp : (0 <= tol)%Q -> forall j i e, In (j, i, e) (tags_of red nrows mj mi active tol sp (all_pillars mj mi)) ->
  users red nrows mj mi active tol sp j i e <> [].
Proof.
  intros T j i e H E. apply in_tags in H as [_ He]. destruct (nth_error (fst (pillar_extras red nrows mj mi active tol sp j i)) (Z.to_nat e)) as [q|] eqn:Eq; [|apply nth_error_None in Eq; lia].
  destruct (pe_spec red nrows mj mi active tol sp T j i) as (_ & _ & C). destruct (C _ _ Eq) as [Cq Uq].
  assert (X : In (column mi (j - fst q) (i - snd q)) (users red nrows mj mi active tol sp j i e)) by (apply in_users; exists q; split; [exact Cq|]; split; [lia|reflexivity]).
  rewrite E in X. destruct X.
Qed.
Lemma tags_unsplit red nrows mj mi active tol ps : tags_of red nrows mj mi active tol false ps = [].
Proof. unfold tags_of. cbn. induction ps; [reflexivity|assumption]. Qed.
Lemma cumulative_cumul (xs : extras) : forall acc, cumulative acc (map snd xs) = cumul acc xs.
Proof. induction xs as [|x xs IH]; intros acc; [reflexivity|]. cbn. f_equal. apply IH. Qed.

(** ** The grid *)
Section Made.
Context (cp : cps) (mk mj mi : Z) (active : Z -> Z -> bool) (mv tol : Q) (sp : bool).
Hypothesis Mk : 0 < mk.
Hypothesis Mj : 0 < mj.
Hypothesis Mi : 0 < mi.
Hypothesis Mv : (0 <= mv)%Q.
Hypothesis Tol : (0 <= tol)%Q.
Let ga := fst (check_for_kgaps cp mk mj mi mv).
Let cp' := close_gaps cp mk (snd (check_for_kgaps cp mk mj mi mv)).
Definition reduced (r j i jp ip : Z) : vec := let '(k, kp) := nth (Z.to_nat r) (rows mk ga) (0, 0) in cp' k j i kp jp ip.
Definition nrows_ : Z := Z.of_nat (List.length (rows mk ga)).
Definition xs_made : extras := xs_of reduced nrows_ mj mi active tol sp.
Definition G : Z -> bool := gap_after cp mk mj mi mv.
Lemma rows_grows : rows mk ga = grows G mk.
Proof.
  unfold rows, grows, G, gap_after, blk. fold ga. destruct ga as [l|]; reflexivity.
Qed.
Lemma made : exists f, grid_from_cp cp mk mj mi active mv tol sp = Ok f /\ Pillars (f_geo f) xs_made /\ Layers (f_geo f) /\
  g_nk (f_geo f) = mk /\ nj (f_geo f) = mj /\ ni (f_geo f) = mi /\ g_gap_after (f_geo f) = ga /\ f_raw f = raw_index mk ga /\
  (forall j i jp ip, f_pfc f j i jp ip = number reduced nrows_ mj mi active tol sp j i jp ip) /\
  (g_has_split (gg (f_geo f)) = true -> xs_made <> []) /\
  (forall r j i jp ip, 0 <= j < mj -> 0 <= i < mi -> bit jp -> bit ip -> exists q, Col mj mi (j + jp) (i + ip) q /\
     g_pts (f_geo f) r (number reduced nrows_ mj mi active tol sp j i jp ip) = at_ reduced r (j + jp) (i + ip) q /\
     (sp = true -> Near reduced nrows_ tol (j + jp) (i + ip) (jp, ip) q) /\
     (sp = false -> q = primary active mj mi (j + jp) (i + ip))).
Proof.
  unfold grid_from_cp. rewrite (surjective_pairing (check_for_kgaps cp mk mj mi mv)). cbv beta iota zeta. fold ga cp'.
  change (fun r j i jp ip : Z => let '(k, kp) := nth (Z.to_nat r) (rows mk ga) (0, 0) in cp' k j i kp jp ip) with reduced. fold nrows_.
  set (tags := tags_of reduced nrows_ mj mi active tol sp (all_pillars mj mi)).
  assert (As : forallb (fun u => 0 <? Z.of_nat (List.length u)) (map (fun t => let '(j, i, e) := t in users reduced nrows_ mj mi active tol sp j i e) tags) = true).
  { apply forallb_forall. intros u Hu. apply in_map_iff in Hu as (((j, i), e) & <- & Ht). pose proof (users_nonempty _ _ _ _ _ _ _ Tol _ _ _ Ht) as X.
    destruct (users reduced nrows_ mj mi active tol sp j i e); [congruence|]. reflexivity. }
  rewrite As. set (split := sp && negb (Z.of_nat (List.length tags) =? 0)).
  replace (if split then assert_ true else Ok tt) with (@Ok unit tt) by (destruct split; reflexivity). cbn [bind]. eexists. split; [reflexivity|]. cbn [f_geo f_raw f_pfc].
  assert (Sp0 : split = false -> tags = []).
  { unfold split. intros H. destruct (bool_dec sp false) as [Es|Es]; [unfold tags; rewrite Es; apply tags_unsplit|]. apply not_false_is_true in Es. rewrite Es in H. cbn [andb] in H. destruct tags; [reflexivity|discriminate]. }
  assert (Sp1 : split = true -> sp = true) by (unfold split; destruct sp; [reflexivity|discriminate]).
  split. { split.
    - unfold nj, ni. cbn [gg]. replace (g_nj (if split then _ else _)) with mj by (destruct split; reflexivity). replace (g_ni (if split then _ else _)) with mi by (destruct split; reflexivity).
      apply xs_wf; assumption.
    - unfold nj, ni. cbn [gg]. destruct split eqn:E; cbn [g_nj g_ni g_has_split].
      + left. unfold of_extras. f_equal.
        * unfold xs_made, xs_of. rewrite map_map. apply map_ext. intros ((j, i), e). reflexivity.
        * unfold xs_made, xs_of. rewrite map_map. f_equal. apply map_ext. intros ((j, i), e). reflexivity.
        * rewrite <- cumulative_cumul. unfold xs_made, xs_of. rewrite map_map. f_equal. apply map_ext. intros ((j, i), e). reflexivity.
      + right. split; [|reflexivity]. unfold xs_made, xs_of. fold tags. rewrite (Sp0 eq_refl). reflexivity. }
  split. { split; [exact Mk|]. cbn [g_gap_after g_nk]. intros l. apply ga_len. }
  split; [reflexivity|]. split; [unfold nj; cbn [gg]; destruct split; reflexivity|]. split; [unfold ni; cbn [gg]; destruct split; reflexivity|]. split; [reflexivity|]. split; [reflexivity|].
  split. { intros j i jp ip. unfold number. cbv zeta. destruct split eqn:E; [reflexivity|]. cbn [negb orb].
    destruct (use_range reduced nrows_ mj mi active tol sp Tol (j + jp) (i + ip) (jp, ip)) as [-> |(C & R)]; [reflexivity|]. exfalso.
    assert (X : In (j + jp, i + ip, snd (pillar_extras reduced nrows_ mj mi active tol sp (j + jp) (i + ip)) (jp, ip)) tags).
    { apply in_tags. destruct C as (B1 & B2 & C1 & C2). cbn [fst snd] in *. unfold bit in *. split; [lia|exact R]. }
    rewrite (Sp0 eq_refl) in X. destruct X. }
  split. { cbn [gg]. destruct split eqn:E; [|discriminate]. intros _ X. unfold xs_made, xs_of in X. fold tags in X. apply map_eq_nil in X. unfold split in E. rewrite X in E. rewrite andb_false_r in E. discriminate. }
  intros r j i jp ip Hj Hi Bj Bi. cbn [g_pts]. unfold number. cbv zeta.
  assert (Rj : 0 <= j + jp <= mj) by (clear - Hj Bj; unfold bit in *; lia). assert (Ri : 0 <= i + ip <= mi) by (clear - Hi Bi; unfold bit in *; lia).
  assert (Cq : Col mj mi (j + jp) (i + ip) (jp, ip)) by (unfold Col; cbn [fst snd]; split; [exact Bj|]; split; [exact Bi|]; lia).
  destruct (pe_spec reduced nrows_ mj mi active tol sp Tol (j + jp) (i + ip)) as (_ & PM & PN).
  destruct (use_range reduced nrows_ mj mi active tol sp Tol (j + jp) (i + ip) (jp, ip)) as [E|(_ & R)].
  - rewrite E. cbn [Z.ltb Z.compare]. exists (primary active mj mi (j + jp) (i + ip)). split; [apply (primary_col reduced); assumption|]. split; [|split; [|reflexivity]].
    + replace ((j + jp) * (mi + 1) + i + ip <? (mj + 1) * (mi + 1)) with true by (symmetry; apply Z.ltb_lt; clear - Rj Ri; nia).
      destruct (divmod_unique (mi + 1) (j + jp) (i + ip)) as [D1 D2]; [clear - Ri; lia|]. replace ((j + jp) * (mi + 1) + i + ip) with ((j + jp) * (mi + 1) + (i + ip)) by lia. rewrite D1, D2. reflexivity.
    + intros Hs. destruct (PM (jp, ip) Cq Hs) as [(_ & N)|(n & q' & U & _)]; [exact N|]. rewrite E in U. lia.
  - replace (snd (pillar_extras reduced nrows_ mj mi active tol sp (j + jp) (i + ip)) (jp, ip) <? 0) with false by lia.
    set (u := snd (pillar_extras reduced nrows_ mj mi active tol sp (j + jp) (i + ip)) (jp, ip)) in *.
    assert (Hs : sp = true). { destruct sp; [reflexivity|]. cbn in R. lia. }
    destruct (PM (jp, ip) Cq Hs) as [(U & _)|(n & q' & U & N & Nr & _)]; [fold u in U; lia|]. fold u in U. exists q'. split; [apply (PN n q' N)|].
    assert (Tg := tag_at reduced nrows_ mj mi active tol sp Mj Mi (j + jp) (i + ip) u Rj Ri R). fold tags in Tg.
    set (off := Z.of_nat (List.length (tags_of reduced nrows_ mj mi active tol sp (firstn (Z.to_nat ((j + jp) * (mi + 1) + (i + ip))) (all_pillars mj mi))))) in *.
    assert (0 <= off) by (unfold off; lia).
    split; [|split; [intros _; exact Nr|congruence]].
    replace ((mj + 1) * (mi + 1) + (off + u) <? (mj + 1) * (mi + 1)) with false by (symmetry; apply Z.ltb_ge; lia).
    replace ((mj + 1) * (mi + 1) + (off + u) - (mj + 1) * (mi + 1)) with (off + u) by lia. erewrite nth_error_nth by exact Tg.
    change (at_ reduced r (j + jp) (i + ip) (nth (Z.to_nat u) (fst (pillar_extras reduced nrows_ mj mi active tol sp (j + jp) (i + ip))) (0, 0)) = at_ reduced r (j + jp) (i + ip) q').
    f_equal. rewrite U, Nat2Z.id. apply nth_error_nth. exact N.
Qed.
(** reduced rows and the given corners *)
Variable f : from_cp.
Hypothesis La : Layers (f_geo f).
Hypothesis Fk : g_nk (f_geo f) = mk.
Hypothesis Fg : g_gap_after (f_geo f) = ga.
Lemma ca_steps : gaps_above (f_geo f) 0 = 0 /\ forall k, 0 <= k < mk - 1 -> gaps_above (f_geo f) (k + 1) = gaps_above (f_geo f) k + (if G k then 1 else 0).
Proof.
  split; [unfold gaps_above; destruct (g_gap_after (f_geo f)); reflexivity|]. intros k Hk. pose proof (C85_gaps (f_geo f) La k ltac:(lia)) as E. unfold top_row in E.
  unfold G, gap_after. fold ga. rewrite Fg in E. destruct ga as [l|]; lia.
Qed.
Lemma reduced_at k j i kp jp ip : 0 <= k < mk -> 0 <= j < mj -> 0 <= i < mi -> bit kp -> bit jp -> bit ip ->
  0 <= top_row (f_geo f) k + kp < nrows_ /\ Within (mv * (1 # 2)) (reduced (top_row (f_geo f) k + kp) j i jp ip) (cp k j i kp jp ip).
Proof.
  intros Hk Hj Hi Bk Bj Bi. destruct ca_steps as [C0 CS]. pose proof (row_top G (gaps_above (f_geo f)) mk C0 CS k Hk) as RT. pose proof (row_base G (gaps_above (f_geo f)) mk C0 CS k Hk) as RB.
  rewrite <- rows_grows in RT, RB. fold (top_row (f_geo f) k) in RT, RB. 
  assert (P0 : 0 <= top_row (f_geo f) k) by (unfold top_row, gaps_above; destruct (g_gap_after (f_geo f)); lia).
  pose proof (closed_within cp mk mj mi mv Mv k j i kp jp ip Hk Hj Hi Bk Bj Bi) as W. fold cp' in W. unfold reduced, nrows_.
  destruct Bk as [-> | ->].
  - rewrite Z.add_0_r. assert ((Z.to_nat (top_row (f_geo f) k) < List.length (rows mk ga))%nat) by (apply nth_error_Some; congruence). split; [lia|]. erewrite nth_error_nth by exact RT. exact W.
  - assert ((Z.to_nat (top_row (f_geo f) k + 1) < List.length (rows mk ga))%nat) by (apply nth_error_Some; congruence). split; [lia|]. erewrite nth_error_nth by exact RB.
    destruct ((k <? mk - 1) && negb (G k)) eqn:E; [|exact W]. apply andb_true_iff in E as [E1 E2]. apply negb_true_iff in E2.
    eapply within_same; [|apply same_refl|exact W]. apply same_sym. apply (closed_joined cp mk mj mi mv); try assumption. lia.
Qed.
Lemma closed_same k j i kp jp ip j' i' jp' ip' : Together cp mk j i jp ip j' i' jp' ip' -> 0 <= k < mk -> bit kp -> Same (cp' k j i kp jp ip) (cp' k j' i' kp jp' ip').
Proof.
  intros T Hk Bk. unfold cp', close_gaps, void. destruct Bk as [-> | ->]; cbn [Z.eqb].
  - destruct ((0 <? k) && snd (check_for_kgaps cp mk mj mi mv) (k - 1)) eqn:E; [|apply T; unfold bit; auto]. replace (k - 1 + 1) with k by lia.
    destruct (T k 0 ltac:(lia) ltac:(unfold bit; auto)) as (A & B & C). destruct (T (k - 1) 1 ltac:(lia) ltac:(unfold bit; auto)) as (A' & B' & C').
    unfold Same; cbn -[Qmult Qplus Qminus]. rewrite A, B, C, A', B', C'. repeat split; reflexivity.
  - destruct ((k <? mk - 1) && snd (check_for_kgaps cp mk mj mi mv) k) eqn:E; [|apply T; unfold bit; auto].
    destruct (T (k + 1) 0 ltac:(lia) ltac:(unfold bit; auto)) as (A & B & C). destruct (T k 1 ltac:(lia) ltac:(unfold bit; auto)) as (A' & B' & C').
    unfold Same; cbn -[Qmult Qplus Qminus]. rewrite A, B, C, A', B', C'. repeat split; reflexivity.
Qed.
Lemma in_rows k kp : In (k, kp) (rows mk ga) -> 0 <= k < mk /\ bit kp.
Proof.
  rewrite rows_grows. unfold grows. intros [[= <- <-]|H]; [unfold bit; lia|]. apply in_app_or in H as [H|[[= <- <-]|[]]]; [|unfold bit; lia].
  apply in_flat_map in H as (x & Hx & H). apply in_zrange in Hx. unfold blk in H. destruct (G x); cbn in H; unfold bit; intuition (try congruence); repeat match goal with E : (_, _) = (_, _) |- _ => injection E as <- <- end; lia.
Qed.
Lemma reduced_same r j i jp ip j' i' jp' ip' : Together cp mk j i jp ip j' i' jp' ip' -> 0 <= r < nrows_ -> Same (reduced r j i jp ip) (reduced r j' i' jp' ip').
Proof.
  intros T Hr. unfold reduced. destruct (nth (Z.to_nat r) (rows mk ga) (0, 0)) as [k kp] eqn:E.
  destruct (in_rows k kp) as [Hk Bk]; [rewrite <- E; apply nth_In; unfold nrows_ in Hr; lia|]. apply closed_same; assumption.
Qed.
End Made.

(** The grid made from an array of corner points, pillars being split where they need to be. *)
Theorem C89_grid_from_cp : forall cp mk mj mi active mv tol, 0 < mk -> 0 < mj -> 0 < mi -> (0 <= mv)%Q -> (0 <= tol)%Q ->
  exists f xs, grid_from_cp cp mk mj mi active mv tol true = Ok f /\ MadeFrom cp mk mj mi mv tol f xs.
Proof.
  intros cp mk mj mi active mv tol Mk Mj Mi Mv Tol. destruct (made cp mk mj mi active mv tol true Mk Mj Mi Tol) as (f & E & P & L & Fk & Fj & Fi & Fg & _ & Fp & _ & Pt).
  exists f, (xs_made cp mk mj mi active mv tol true). split; [exact E|].
  assert (U : forall j i jp ip, IsCol mj mi j i -> bit jp -> bit ip -> Uses mj mi (xs_made cp mk mj mi active mv tol true) (j + jp) (i + ip) j i (f_pfc f j i jp ip)).
  { intros j i jp ip [Hj Hi] Bj Bi. rewrite Fp. apply uses_number; assumption. }
  constructor.
  - exact P.
  - exact L.
  - auto.
  - intros k j i kp jp ip (Hk & Hj & Hi) Bk Bj Bi. rewrite Fk in Hk. rewrite Fj in Hj. rewrite Fi in Hi. eexists. split.
    + exists (f_pfc f j i jp ip). rewrite Fj, Fi. split; [apply U; [split; assumption|assumption|assumption]|reflexivity].
    + destruct (Pt (top_row (f_geo f) k + kp) j i jp ip Hj Hi Bj Bi) as (q & Cq & Eq & Nr & _). rewrite Fp, Eq.
      destruct (reduced_at cp mk mj mi active mv Mv f L Fk Fg k j i kp jp ip Hk Hj Hi Bk Bj Bi) as [Rr W].
      eapply within_trans; [|exact W]. specialize (Nr eq_refl _ Rr). unfold at_ in Nr at 1. cbn [fst snd] in Nr. replace (j + jp - jp) with j in Nr by lia. replace (i + ip - ip) with i in Nr by lia.
      destruct Nr as (A & B & C). rewrite Qabs_Qminus in A, B, C. repeat split; assumption.
  - intros k Hk. destruct (voids cp mk mj mi mv k Hk) as (V & _). rewrite <- layer_gap_gt by exact Mv. rewrite <- V. unfold GapAfter, gap_after. rewrite Fg.
    destruct (fst (check_for_kgaps cp mk mj mi mv)) as [l|]; split; [intros (l' & [= <-] & H); exact H|intros H; exists l; split; [reflexivity|exact H]|intros (l' & ? & _); discriminate|discriminate].
  - intros j i jp ip j' i' jp' ip' n [Hj Hi] [Hj' Hi'] Bj Bi Bj' Bi' Ej Ei T Un.
    rewrite (uses_functional _ _ _ _ _ _ _ _ _ Un (uses_number (reduced cp mk mj mi mv) (nrows_ cp mk mj mi mv) mj mi active tol true Tol Mj Mi j i jp ip Hj Hi Bj Bi)).
    pose proof (uses_number (reduced cp mk mj mi mv) (nrows_ cp mk mj mi mv) mj mi active tol true Tol Mj Mi j' i' jp' ip' Hj' Hi' Bj' Bi') as U'.
    replace (number _ _ mj mi active tol true j i jp ip) with (number (reduced cp mk mj mi mv) (nrows_ cp mk mj mi mv) mj mi active tol true j' i' jp' ip'); [exact U'|].
    unfold number. cbv zeta. rewrite <- Ej, <- Ei.
    rewrite <- (same_use (reduced cp mk mj mi mv) (nrows_ cp mk mj mi mv) mj mi active tol Tol (j + jp) (i + ip) (jp, ip) (jp', ip')).
    + replace ((j + jp) * (mi + 1) + i' + ip') with ((j + jp) * (mi + 1) + i + ip) by lia. reflexivity.
    + unfold Col; cbn [fst snd]; split; [exact Bj|]; split; [exact Bi|]; lia.
    + unfold Col; cbn [fst snd]; split; [exact Bj'|]; split; [exact Bi'|]; lia.
    + intros r Hr. unfold at_. cbn [fst snd]. replace (j + jp - jp) with j by lia. replace (i + ip - ip) with i by lia. replace (j + jp - jp') with j' by lia. replace (i + ip - ip') with i' by lia.
      apply (reduced_same cp mk mj mi active); assumption.
  - exact U.
Qed.
Print Assumptions C89_grid_from_cp.

(** With no tolerance the corners are exactly those given. *)
Theorem C89_exact : forall cp mk mj mi active, 0 < mk -> 0 < mj -> 0 < mi ->
  exists f xs, grid_from_cp cp mk mj mi active 0 0 true = Ok f /\ Pillars (f_geo f) xs /\ Layers (f_geo f) /\
    forall k j i kp jp ip, 0 <= k < mk -> IsCol mj mi j i -> bit kp -> bit jp -> bit ip ->
      exists p, Corner (f_geo f) xs k j i kp jp ip p /\ Same p (cp k j i kp jp ip).
Proof.
  intros cp mk mj mi active Mk Mj Mi. destruct (C89_grid_from_cp cp mk mj mi active 0 0 Mk Mj Mi ltac:(lra) ltac:(lra)) as (f & xs & E & M).
  exists f, xs. split; [exact E|]. split; [apply M|]. split; [apply M|]. intros k j i kp jp ip Hk [Hj Hi] Bk Bj Bi. destruct (mf_extent _ _ _ _ _ _ _ _ M) as (Ek & Ej & Ei).
  destruct (mf_corners _ _ _ _ _ _ _ _ M k j i kp jp ip) as (p & C & W); try assumption; [unfold IsCell; rewrite Ek, Ej, Ei; auto|].
  exists p. split; [exact C|]. apply within_zero. eapply within_le; [|exact W]. lra.
Qed.
Print Assumptions C89_exact.

(** Columns that share a pillar are within twice the tolerances of each other all the way down it. *)
Theorem C89_apart : forall cp mk mj mi active mv tol, 0 < mk -> 0 < mj -> 0 < mi -> (0 <= mv)%Q -> (0 <= tol)%Q ->
  exists f xs, grid_from_cp cp mk mj mi active mv tol true = Ok f /\ Pillars (f_geo f) xs /\
    forall j i jp ip j' i' jp' ip' n, IsCol mj mi j i -> IsCol mj mi j' i' -> bit jp -> bit ip -> bit jp' -> bit ip' ->
      j + jp = j' + jp' -> i + ip = i' + ip' -> Uses mj mi xs (j + jp) (i + ip) j i n -> Uses mj mi xs (j' + jp') (i' + ip') j' i' n ->
      forall k kp, 0 <= k < mk -> bit kp -> Within (2 * tol + mv) (cp k j i kp jp ip) (cp k j' i' kp jp' ip').
Proof.
  intros cp mk mj mi active mv tol Mk Mj Mi Mv Tl. destruct (C89_grid_from_cp cp mk mj mi active mv tol Mk Mj Mi Mv Tl) as (f & xs & E & M).
  exists f, xs. split; [exact E|]. split; [apply M|]. intros j i jp ip j' i' jp' ip' n [Hj Hi] [Hj' Hi'] Bj Bi Bj' Bi' _ _ U U' k kp Hk Bk.
  destruct (mf_extent _ _ _ _ _ _ _ _ M) as (Ek & Ej & Ei).
  destruct (mf_corners _ _ _ _ _ _ _ _ M k j i kp jp ip) as (p & (m & C & ->) & W); try assumption; [unfold IsCell; rewrite Ek, Ej, Ei; auto|].
  destruct (mf_corners _ _ _ _ _ _ _ _ M k j' i' kp jp' ip') as (p' & (m' & C' & ->) & W'); try assumption; [unfold IsCell; rewrite Ek, Ej, Ei; auto|].
  rewrite Ej, Ei in C, C'. rewrite (uses_functional _ _ _ _ _ _ _ _ _ C U) in W. rewrite (uses_functional _ _ _ _ _ _ _ _ _ C' U') in W'.
  eapply within_le; [|eapply within_trans; [|exact W']]; [|destruct W as (A & B & D); rewrite Qabs_Qminus in A, B, D; repeat split; eassumption]. lra.
Qed.
Print Assumptions C89_apart.

(** Where no columns are apart there are no faults. *)
Theorem C89_unfaulted : forall cp mk mj mi active mv tol, 0 < mk -> 0 < mj -> 0 < mi -> (0 <= mv)%Q -> (0 <= tol)%Q ->
  (forall j i jp ip j' i' jp' ip', IsCol mj mi j i -> IsCol mj mi j' i' -> bit jp -> bit ip -> bit jp' -> bit ip' ->
     j + jp = j' + jp' -> i + ip = i' + ip' -> Together cp mk j i jp ip j' i' jp' ip') ->
  exists f, grid_from_cp cp mk mj mi active mv tol true = Ok f /\ MadeFrom cp mk mj mi mv tol f [] /\ g_has_split (gg (f_geo f)) = false.
Proof.
  intros cp mk mj mi active mv tol Mk Mj Mi Mv Tl T. destruct (made cp mk mj mi active mv tol true Mk Mj Mi Tl) as (f & E & _ & _ & _ & _ & _ & _ & _ & _ & Sp & _).
  destruct (C89_grid_from_cp cp mk mj mi active mv tol Mk Mj Mi Mv Tl) as (f' & xs & E' & M). rewrite E in E'. injection E' as <-.
  assert (X : xs_made cp mk mj mi active mv tol true = []).
  { unfold xs_made, xs_of. destruct (tags_of _ _ mj mi active tol true (all_pillars mj mi)) as [|((j, i), e) l] eqn:Et; [reflexivity|]. exfalso.
    assert (It : In (j, i, e) (tags_of (reduced cp mk mj mi mv) (nrows_ cp mk mj mi mv) mj mi active tol true (all_pillars mj mi))) by (rewrite Et; left; reflexivity).
    apply in_tags in It as [[Hj Hi] He].
    destruct (pe_spec (reduced cp mk mj mi mv) (nrows_ cp mk mj mi mv) mj mi active tol true Tl j i) as (_ & PM & PN).
    destruct (nth_error (fst (pillar_extras (reduced cp mk mj mi mv) (nrows_ cp mk mj mi mv) mj mi active tol true j i)) (Z.to_nat e)) as [q|] eqn:Eq; [|apply nth_error_None in Eq; lia].
    destruct (PN _ _ Eq) as [Cq Uq]. destruct (PM q Cq eq_refl) as [(U & _)|(n & q' & _ & _ & _ & Nn & _)]; [lia|]. apply Nn. intros r Hr. apply same_within; [exact Tl|].
    unfold at_. pose proof (primary_col (reduced cp mk mj mi mv) mj mi active Mj Mi j i Hj Hi) as (B1 & B2 & C1 & C2). destruct Cq as (B1' & B2' & C1' & C2').
    apply (reduced_same cp mk mj mi active mv Mk); [|exact Hr]. apply T; try assumption; try (split; assumption); lia. }
  assert (Sf : g_has_split (gg (f_geo f)) = false) by (destruct (g_has_split (gg (f_geo f))); [exfalso; exact (Sp eq_refl X)|reflexivity]).
  exists f. split; [exact E|]. split; [|exact Sf].
  destruct M as [P L Ex Co Ga Jo Ma]. destruct P as [Wf [P|[-> _]]].
  - exfalso. rewrite P in Sf. discriminate.
  - constructor; try assumption. split; [exact Wf|right; auto].
Qed.
Print Assumptions C89_unfaulted.

Lemma primary_active (active : Z -> Z -> bool) mj mi j i q : Col mj mi j i q -> active (j - fst q) (i - snd q) = true ->
  active (j - fst (primary active mj mi j i)) (i - snd (primary active mj mi j i)) = true.
Proof.
  intros (B1 & B2 & C1 & C2) A. unfold primary. cbv zeta.
  destruct (active (j - (if j =? mj then 1 else 0)) (i - (if i =? mi then 1 else 0))) eqn:A1; [exact A1|].
  destruct ((0 <? i) && ((if i =? mi then 1 else 0) =? 0) && active (j - (if j =? mj then 1 else 0)) (i - 1)) eqn:A2; [cbn [fst snd]; apply andb_true_iff in A2; apply A2|].
  destruct ((0 <? j) && ((if j =? mj then 1 else 0) =? 0) && active (j - 1) (i - (if i =? mi then 1 else 0))) eqn:A3; [cbn [fst snd]; apply andb_true_iff in A3; apply A3|].
  destruct ((0 <? i) && (0 <? j) && ((if j =? mj then 1 else 0) =? 0) && ((if i =? mi then 1 else 0) =? 0) && active (j - 1) (i - 1)) eqn:A4; [cbn [fst snd]; apply andb_true_iff in A4; apply A4|].
  exfalso. destruct q as [x y]. cbn [fst snd] in *.
  destruct (Z.eqb_spec j mj), (Z.eqb_spec i mi), B1 as [-> | ->], B2 as [-> | ->]; try lia; rewrite A in *; try discriminate;
    repeat match goal with H : _ && true = false |- _ => rewrite andb_true_r in H end; cbn [Z.eqb andb] in *; try discriminate; try (replace (0 <? i) with true in * by lia); try (replace (0 <? j) with true in * by lia); cbn [andb] in *; try discriminate.
Qed.
(** Without splitting, each pillar follows one of the columns around it, an active one if there is one. *)
Theorem C89_unsplit : forall cp mk mj mi active mv tol, 0 < mk -> 0 < mj -> 0 < mi -> (0 <= mv)%Q -> (0 <= tol)%Q ->
  exists f, grid_from_cp cp mk mj mi active mv tol false = Ok f /\ Pillars (f_geo f) [] /\ Layers (f_geo f) /\
    (g_nk (f_geo f) = mk /\ nj (f_geo f) = mj /\ ni (f_geo f) = mi) /\
    forall j i jp ip, IsCol mj mi j i -> bit jp -> bit ip ->
      exists j' i' jp' ip', IsCol mj mi j' i' /\ bit jp' /\ bit ip' /\ j' + jp' = j + jp /\ i' + ip' = i + ip /\
        (active j i = true -> active j' i' = true) /\
        forall k kp, 0 <= k < mk -> bit kp -> exists p, Corner (f_geo f) [] k j i kp jp ip p /\ Within (mv * (1 # 2)) p (cp k j' i' kp jp' ip').
Proof.
  intros cp mk mj mi active mv tol Mk Mj Mi Mv Tl. destruct (made cp mk mj mi active mv tol false Mk Mj Mi Tl) as (f & E & P & L & Fk & Fj & Fi & Fg & _ & _ & _ & Pt).
  assert (X : xs_made cp mk mj mi active mv tol false = []) by (unfold xs_made, xs_of; rewrite tags_unsplit; reflexivity). rewrite X in P.
  exists f. split; [exact E|]. split; [exact P|]. split; [exact L|]. split; [auto|]. intros j i jp ip [Hj Hi] Bj Bi.
  assert (Cq : Col mj mi (j + jp) (i + ip) (jp, ip)) by (unfold Col; cbn [fst snd]; split; [exact Bj|]; split; [exact Bi|]; lia).
  set (q := primary active mj mi (j + jp) (i + ip)).
  assert (Rj : 0 <= j + jp <= mj) by (unfold bit in *; lia). assert (Ri : 0 <= i + ip <= mi) by (unfold bit in *; lia).
  destruct (primary_col (reduced cp mk mj mi mv) mj mi active Mj Mi _ _ Rj Ri) as (B1 & B2 & C1 & C2). fold q in B1, B2, C1, C2.
  exists (j + jp - fst q), (i + ip - snd q), (fst q), (snd q). split; [split; assumption|]. split; [exact B1|]. split; [exact B2|]. split; [lia|]. split; [lia|]. split.
  - intros A. apply (primary_active active mj mi (j + jp) (i + ip) (jp, ip) Cq). cbn [fst snd]. replace (j + jp - jp) with j by lia. replace (i + ip - ip) with i by lia. exact A.
  - intros k kp Hk Bk. eexists. split.
    + exists (number (reduced cp mk mj mi mv) (nrows_ cp mk mj mi mv) mj mi active tol false j i jp ip). split; [|reflexivity]. rewrite Fj, Fi, <- X. apply uses_number; assumption.
    + destruct (Pt (top_row (f_geo f) k + kp) j i jp ip Hj Hi Bj Bi) as (q' & _ & Eq & _ & Pq). rewrite (Pq eq_refl) in Eq. fold q in Eq. rewrite Eq.
      apply (reduced_at cp mk mj mi active mv Mv f L Fk Fg k _ _ kp _ _ Hk C1 C2 Bk B1 B2).
Qed.
Print Assumptions C89_unsplit.

(** The index of the rows of points kept with the grid is right when there are no gaps. *)
Theorem C89_raw_index_partial : forall cp mk mj mi active mv tol sp, 0 < mk -> 0 < mj -> 0 < mi -> (0 <= mv)%Q -> (0 <= tol)%Q ->
  exists f, grid_from_cp cp mk mj mi active mv tol sp = Ok f /\ Z.of_nat (List.length (f_raw f)) = mk /\
    ((forall k, 0 <= k < mk - 1 -> ~ GapAfter (f_geo f) k) -> forall k, 0 <= k < mk -> nth (Z.to_nat k) (f_raw f) 0 = top_row (f_geo f) k).
Proof.
  intros cp mk mj mi active mv tol sp Mk Mj Mi Mv Tl. destruct (made cp mk mj mi active mv tol sp Mk Mj Mi Tl) as (f & E & _ & L & Fk & _ & _ & Fg & Fr & _).
  exists f. split; [exact E|]. split.
  { rewrite Fr. unfold raw_index. rewrite <- Fg. destruct (g_gap_after (f_geo f)) as [l|] eqn:Eg.
    - pose proof (proj2 L l Eg) as Ll. rewrite Fk in Ll. cbn [List.length]. replace (List.length (raw_index_loop l 0 0)) with (List.length l); [ lia |].
      generalize 0 at 1 as a. generalize 0 as b. clear. induction l as [|x l IH]; intros b a; [ reflexivity |]. cbn [raw_index_loop List.length]. f_equal. apply IH.
    - rewrite zrange_length. lia. }
  intros N k Hk. rewrite Fr. unfold raw_index. rewrite <- Fg.
  destruct (g_gap_after (f_geo f)) as [l|] eqn:Eg.
  - exfalso. pose proof (proj2 L l Eg) as Ll. rewrite Fk in Ll. pose proof Fg as Eq. symmetry in Eq. pose proof Eq as Eq0. unfold check_for_kgaps in Eq. destruct (mk >? 1) eqn:E1; [|discriminate].
    destruct ((mv <b qmax (map (layer_gap cp mj mi) (zrange (mk - 1))))%Q) eqn:E2; [|cbn [fst] in Eq; destruct (0 <b _)%Q; discriminate].
    apply Qltb_iff in E2. apply qmax_gt in E2 as (x & Hx & Lx); [|exact Mv]. apply in_map_iff in Hx as (k' & <- & Hk'). apply in_zrange in Hk'.
    apply (N k' Hk'). exists l. split; [exact Eg|]. destruct (voids cp mk mj mi mv k' Hk') as (V & _). apply V in Lx. unfold gap_after in Lx. rewrite Eq0 in Lx. exact Lx.
  - unfold top_row, gaps_above. rewrite Eg, zrange_nth by lia. lia.
Qed.
Print Assumptions C89_raw_index_partial.

(** Two layers ten apart: the second is kept as starting on the row at the base of the first.
    _grid_from_cp.py:230 *)
Definition apart : cps := fun k j i kp jp ip => V (inject_Z (i + ip)) (inject_Z (j + jp)) (inject_Z (20 * k + 10 * kp)).
Theorem C89_raw_index_refuted : exists f, grid_from_cp apart 2 1 1 (fun _ _ => true) (1 # 10) (1 # 100) true = Ok f /\
  MadeFrom apart 2 1 1 (1 # 10) (1 # 100) f [] /\ GapAfter (f_geo f) 0 /\ top_row (f_geo f) 1 = 2 /\ nth 1 (f_raw f) 0 = 1.
Proof.
  destruct (C89_unfaulted apart 2 1 1 (fun _ _ => true) (1 # 10) (1 # 100)) as (f & E & M & _); [lia|lia|lia|lra|lra| |].
  - intros j i jp ip j' i' jp' ip' _ _ _ _ _ _ Ej Ei k kp _ _. unfold apart, Same. cbn [vx vy vz]. rewrite Ej, Ei. repeat split; reflexivity.
  - destruct (made apart 2 1 1 (fun _ _ => true) (1 # 10) (1 # 100) true) as (f' & E' & _ & _ & _ & _ & _ & Fg & Fr & _); [lia|lia|lia|lra|]. rewrite E in E'. injection E' as <-.
    assert (A : fst (check_for_kgaps apart 2 1 1 (1 # 10)) = Some [true]) by (vm_compute; reflexivity). rewrite A in Fg, Fr.
    exists f. split; [exact E|]. split; [exact M|]. split; [eexists; split; [exact Fg|reflexivity]|]. unfold top_row, gaps_above. rewrite Fg, Fr. split; reflexivity.
Qed.
Print Assumptions C89_raw_index_refuted.

(** ** Examples *)
(* two columns with a throw of half a layer, and a void between the two layers that is closed *)
Definition thrown : cps := fun k j i kp jp ip => V (inject_Z (i + ip)) (inject_Z (j + jp)) (inject_Z (10 * (k + kp)) + (if i =? 1 then 5 else 0) + (if k =? 1 then (1 # 50) else 0))%Q.
Definition look {A} (g : from_cp -> A) (r : res from_cp) : option A := match r with Ok f => Some (g f) | Err _ => None end.
Example thrown_made : look (fun f => (g_spi (gg (f_geo f)), g_cols (gg (f_geo f)), g_gap_after (f_geo f), Qred (vz (g_pts (f_geo f) 1 6)), Qred (vz (g_pts (f_geo f) 1 1))))
  (grid_from_cp thrown 2 1 2 (fun _ _ => true) (1 # 10) (1 # 100) true) = Some ([1; 4], [0; 0], None, (1001 # 100)%Q, (1501 # 100)%Q).
Proof. vm_compute. reflexivity. Qed.
Example thrown_not_together : ~ Together thrown 2 0 0 0 1 0 1 0 0.
Proof. intros T. destruct (T 0 0 ltac:(lia) ltac:(unfold bit; auto)) as (_ & _ & A). vm_compute in A. discriminate. Qed.
Example thrown_meets : Together thrown 2 0 0 1 0 0 0 1 0.
Proof. intros k kp _ _. apply same_refl. Qed.
