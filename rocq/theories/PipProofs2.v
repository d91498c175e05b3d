(** PipProofs2.v: separation, enclosure, convex quadrilaterals, scan lines and pixel maps. *)
From Verif Require Import QBase PipModel PipProofs.
From Coq Require Import Permutation.

(** * Paths *)
Lemma path_in {A} (w : list A) e : In e (path w) -> In (fst e) w /\ In (snd e) w.
Proof.
  destruct e as [a b]. unfold path. intros H. split; [eapply in_combine_l; eassumption|].
  apply in_combine_r in H. destruct w; [destruct H|now right].
Qed.
Lemma edges_in {A} (poly : list A) e : In e (edges poly) -> In (fst e) poly /\ In (snd e) poly.
Proof.
  destruct poly as [|v l]; [intros []|]. intros H. apply (Permutation_in _ (edges_closed v l)) in H. apply path_in in H.
  destruct H as [H1 H2]. split; [destruct H1 as [H1|H1]|destruct H2 as [H2|H2]]; try (left; assumption);
    rewrite in_app_iff in *; cbn in *; intuition.
Qed.
Lemma telescope {A} (g : A -> Z) x l d : zsum (map (fun e => g (snd e) - g (fst e))%Z (path (x :: l))) = (g (last (x :: l) d) - g x)%Z.
Proof.
  revert x. induction l as [|y l IH]; intros x; [cbn; lia|]. rewrite path_cons. cbn [map zsum fold_right fst snd].
  fold (zsum (map (fun e => g (snd e) - g (fst e))%Z (path (y :: l)))). rewrite IH. cbn [last]. destruct l; lia.
Qed.
Lemma telescope_closed {A} (g : A -> Z) poly : zsum (map (fun e => g (snd e) - g (fst e))%Z (edges poly)) = 0%Z.
Proof.
  destruct poly as [|v l]; [reflexivity|]. rewrite (zsum_perm _ _ (Permutation_map _ (edges_closed v l))).
  rewrite (telescope g v (l ++ [v]) v). change (v :: l ++ [v]) with ((v :: l) ++ [v]). rewrite last_last. lia.
Qed.
Lemma chain {A} (R : A -> A -> Prop) x l y : (forall a b c, R a b -> R b c -> R a c) ->
  Forall (fun e => R (fst e) (snd e)) (path (x :: l ++ [y])) -> R x y.
Proof.
  intros T. revert x. induction l as [|z l IH]; intros x F; cbn [app] in F; rewrite path_cons in F; inversion F as [|? ? H F']; subst; [exact H|].
  eapply T; [exact H|]. apply IH. exact F'.
Qed.
Lemma next_edge {A} (poly : list A) a b : In (a, b) (edges poly) -> exists c, In (b, c) (edges poly).
Proof.
  destruct poly as [|v l]; [intros []|]. intros H. apply edges_in in H. cbn [snd] in H. destruct H as [_ H].
  assert (G : forall w u, In b w -> exists c, In (b, c) (path (w ++ [u]))).
  { induction w as [|x w IH]; intros u [].
    - subst x. destruct w as [|y w]; [exists u; now left|exists y; now left].
    - destruct (IH u H0) as [c Hc]. destruct w as [|y w]; [destruct H0|]. exists c. cbn [app]. rewrite path_cons. right. exact Hc. }
  destruct (G (v :: l) v H) as [c Hc]. exists c. eapply Permutation_in; [symmetry; apply edges_closed|exact Hc].
Qed.
Lemma Forall_perm {A} (P : A -> Prop) a b : Permutation a b -> Forall P a -> Forall P b.
Proof. intros H F. rewrite Forall_forall in *. intros x Hx. apply F. eapply Permutation_in; [symmetry; exact H|exact Hx]. Qed.

(** * Separation *)
Lemma separated_wedge p a b n1 n2 :
  0 < n1 * (fst a - fst p) + n2 * (snd a - snd p) -> 0 < n1 * (fst b - fst p) + n2 * (snd b - snd p) ->
  wedge p a b = if 0 <b n1 then (b2z (above p b) - b2z (above p a))%Z else 0%Z.
Proof.
  intros Ha Hb. rewrite wedge_val, up_above, down_above.
  assert (S : side a b p == (fst a - fst p) * (snd b - snd p) - (snd a - snd p) * (fst b - fst p)) by (unfold side; ring).
  rewrite !S. clear S.
  destruct (above p a) eqn:Aa, (above p b) eqn:Ab; cbn [andb negb b2z];
    repeat match goal with H : above _ _ = true |- _ => apply above_lt in H | H : above _ _ = false |- _ => apply above_le in H end;
    set (A1 := fst a - fst p) in *; set (B1 := fst b - fst p) in *; set (la := snd a - snd p) in *; set (lb := snd b - snd p) in *;
    clearbody A1 B1 la lb.
  - destruct (0 <b n1); reflexivity.
  - assert (E : n1 * (A1 * lb - la * B1) < 0).
    { setoid_replace (n1 * (A1 * lb - la * B1)) with (lb * (n1 * A1 + n2 * la) - la * (n1 * B1 + n2 * lb)) by ring.
      clear - Ha Hb Aa Ab. revert Ha Hb. generalize (n1 * A1 + n2 * la) (n1 * B1 + n2 * lb). intros u w Hu Hw. nra. }
    revert E. generalize (A1 * lb - la * B1). intros z E. destruct (Qltb_spec 0 n1), (Qltb_spec z 0); try reflexivity; exfalso; nra.
  - assert (E : 0 < n1 * (A1 * lb - la * B1)).
    { setoid_replace (n1 * (A1 * lb - la * B1)) with (lb * (n1 * A1 + n2 * la) - la * (n1 * B1 + n2 * lb)) by ring.
      clear - Ha Hb Aa Ab. revert Ha Hb. generalize (n1 * A1 + n2 * la) (n1 * B1 + n2 * lb). intros u w Hu Hw. nra. }
    revert E. generalize (A1 * lb - la * B1). intros z E. destruct (Qltb_spec 0 n1), (Qltb_spec 0 z); try reflexivity; exfalso; nra.
  - destruct (0 <b n1); reflexivity.
Qed.
Lemma separated_winding p poly n1 n2 :
  (forall v, In v poly -> 0 < n1 * (fst v - fst p) + n2 * (snd v - snd p)) -> winding p poly = 0%Z.
Proof.
  intros H. rewrite winding_sum.
  rewrite (map_ext_in _ (fun e => if 0 <b n1 then (b2z (above p (snd e)) - b2z (above p (fst e)))%Z else 0%Z)).
  2:{ intros [a b] He. rewrite wn_edge_wedge. apply edges_in in He. destruct He. apply (separated_wedge p a b n1 n2); apply H; assumption. }
  destruct (0 <b n1); [apply (telescope_closed (fun v => b2z (above p v)))|].
  match goal with |- zsum (map _ ?l) = _ => generalize l end. intros l. induction l as [|e l IH]; [reflexivity|]. cbn. exact IH.
Qed.

(** * Enclosed by every edge *)
Lemma side_form p a b : side a b p == (fst a - fst p) * (snd b - snd p) - (snd a - snd p) * (fst b - fst p).
Proof. unfold side. ring. Qed.
Lemma left_of_all_wedge p a b : 0 < side a b p -> wedge p a b = b2z (up p a b).
Proof.
  intros H. rewrite wedge_val. destruct (up p a b); cbn [b2z].
  - rewrite (proj2 (Qltb_iff 0 (side a b p)) H). reflexivity.
  - destruct (down p a b); [|reflexivity]. rewrite (proj2 (Qltb_false (side a b p) 0)) by lra. reflexivity.
Qed.
Lemma zsum_nonneg l : Forall (fun z => 0 <= z)%Z l -> (0 <= zsum l)%Z.
Proof. induction 1 as [|x l Hx H IH]; cbn; [lia|]. fold (zsum l). lia. Qed.
Lemma zsum_zero l : Forall (fun z => 0 <= z)%Z l -> zsum l = 0%Z -> Forall (fun z => z = 0)%Z l.
Proof.
  induction 1 as [|x l Hx H IH]; cbn; intros E; [constructor|]. fold (zsum l) in E. pose proof (zsum_nonneg l H).
  constructor; [lia|]. apply IH. lia.
Qed.
Lemma zsum_map_sub {A} (f g : A -> Z) l : zsum (map (fun x => f x - g x)%Z l) = (zsum (map f l) - zsum (map g l))%Z.
Proof. induction l as [|x l IH]; cbn; [lia|]. unfold zsum in *. lia. Qed.
Lemma ups_are_downs p poly : zsum (map (fun e => b2z (up p (fst e) (snd e))) (edges poly)) = zsum (map (fun e => b2z (down p (fst e) (snd e))) (edges poly)).
Proof.
  pose proof (telescope_closed (fun v => b2z (above p v)) poly) as T.
  rewrite (map_ext _ (fun e => b2z (up p (fst e) (snd e)) - b2z (down p (fst e) (snd e)))%Z) in T.
  2:{ intros [a b]. cbn [fst snd]. rewrite up_above, down_above. destruct (above p a), (above p b); reflexivity. }
  rewrite zsum_map_sub in T. lia.
Qed.
Lemma level_edges p poly : zsum (map (fun e => b2z (up p (fst e) (snd e))) (edges poly)) = 0%Z ->
  forall a b, In (a, b) (edges poly) -> above p a = above p b.
Proof.
  intros Hu. assert (Hd := ups_are_downs p poly). rewrite Hu in Hd. symmetry in Hd.
  apply zsum_zero in Hu; [|rewrite Forall_map, Forall_forall; intros e _; destruct (up _ _ _); cbn; lia].
  apply zsum_zero in Hd; [|rewrite Forall_map, Forall_forall; intros e _; destruct (down _ _ _); cbn; lia].
  rewrite Forall_map, Forall_forall in Hu, Hd. intros a b He. specialize (Hu _ He). specialize (Hd _ He). cbn [fst snd] in *.
  rewrite up_above in Hu. rewrite down_above in Hd. destruct (above p a), (above p b); cbn in *; congruence.
Qed.
Lemma same_level p poly : (forall a b, In (a, b) (edges poly) -> above p a = above p b) ->
  forall v l, poly = v :: l -> forall u, In u poly -> above p u = above p v.
Proof.
  intros H v l -> u Hu.
  assert (G : forall w x, (forall a b, In (a, b) (path (x :: w)) -> above p a = above p b) -> forall u, In u (x :: w) -> above p u = above p x).
  { induction w as [|y w IH]; intros x Hx u' Hu'; [destruct Hu' as [<-|[]]; reflexivity|].
    destruct Hu' as [<-|Hu']; [reflexivity|]. rewrite (IH y) by (try assumption; intros a b Hab; apply Hx; rewrite path_cons; now right).
    symmetry. apply Hx. rewrite path_cons. now left. }
  apply (G (l ++ [v]) v).
  - intros a b Hab. apply H. eapply Permutation_in; [symmetry; apply edges_closed|exact Hab].
  - destruct Hu as [<-|Hu]; [now left|]. right. apply in_or_app. now left.
Qed.
Lemma enclosed_ups p poly : poly <> [] -> Forall (fun e => 0 < side (fst e) (snd e) p) (edges poly) ->
  winding p poly = zsum (map (fun e => b2z (up p (fst e) (snd e))) (edges poly)) /\ (1 <= winding p poly)%Z.
Proof.
  intros Hne F.
  assert (E : winding p poly = zsum (map (fun e => b2z (up p (fst e) (snd e))) (edges poly))).
  { rewrite winding_sum. f_equal. apply map_ext_in. intros [a b] He. rewrite wn_edge_wedge. apply left_of_all_wedge.
    rewrite Forall_forall in F. apply (F _ He). }
  split; [exact E|]. rewrite E.
  assert (Hn : (0 <= zsum (map (fun e => b2z (up p (fst e) (snd e))) (edges poly)))%Z).
  { apply zsum_nonneg. rewrite Forall_map, Forall_forall. intros e _. destruct (up _ _ _); cbn; lia. }
  destruct (Z.eq_dec (zsum (map (fun e => b2z (up p (fst e) (snd e))) (edges poly))) 0) as [E0|]; [exfalso|lia].
  pose proof (level_edges p poly E0) as Hl. destruct poly as [|v l]; [congruence|].
  pose proof (same_level p (v :: l) Hl v l eq_refl) as Hs. rewrite Forall_forall in F.
  (* no vertex is at the level of p *)
  assert (Hz : forall u, In u (v :: l) -> ~ snd u - snd p == 0).
  { intros u Hu Ez.
    assert (Hout : exists c, In (u, c) (edges (v :: l))).
    { assert (Hin : exists a, In (a, u) (edges (v :: l))).
      { rewrite edges_path. clear - Hu. revert Hu. generalize (last (v :: l) v). generalize (v :: l). induction l0 as [|x l0 IH]; intros z []; [subst; exists z; now left|].
        destruct (IH x H) as [a Ha]. exists a. rewrite path_cons. now right. }
      destruct Hin as [a Ha]. eapply next_edge; exact Ha. }
    destruct Hout as [c Hc].
    assert (Hin : exists a, In (a, u) (edges (v :: l))).
    { rewrite edges_path. clear - Hu. revert Hu. generalize (last (v :: l) v). generalize (v :: l). induction l0 as [|x l0 IH]; intros z []; [subst; exists z; now left|].
      destruct (IH x H) as [a Ha]. exists a. rewrite path_cons. now right. }
    destruct Hin as [a Ha].
    pose proof (F _ Hc) as Fc. pose proof (F _ Ha) as Fa. cbn [fst snd] in Fc, Fa. rewrite side_form in Fc, Fa.
    pose proof (Hl _ _ Hc) as Lc. pose proof (Hl _ _ Ha) as La.
    assert (Au : above p u = false) by (unfold above; apply Qltb_false; lra). rewrite Au in Lc, La.
    symmetry in Lc. apply above_le in Lc, La. rewrite Ez in Fc, Fa. clear - Lc La Fc Fa. revert Lc La Fc Fa.
    generalize (fst u - fst p) (snd c - snd p) (snd a - snd p) (fst c - fst p) (fst a - fst p). intros U lc la' c1 a1 H1 H2 H3 H4.
    destruct (Qlt_le_dec U 0); nra. }
  set (f := fun u : pt => (fst u - fst p) / (snd u - snd p)).
  assert (Hr : Forall (fun e => f (snd e) < f (fst e)) (path (v :: l ++ [v]))).
  { apply (Forall_perm _ _ _ (edges_closed v l)). rewrite Forall_forall. intros [a b] He. cbn [fst snd].
    pose proof (F _ He) as Fe. cbn [fst snd] in Fe. rewrite side_form in Fe. destruct (edges_in _ _ He) as [Ia Ib]. cbn [fst snd] in Ia, Ib.
    pose proof (Hz a Ia) as Za. pose proof (Hz b Ib) as Zb. pose proof (Hl _ _ He) as Le. unfold f.
    set (A1 := fst a - fst p) in *. set (B1 := fst b - fst p) in *.
    destruct (above p a) eqn:Aa; symmetry in Le.
    - apply above_lt in Aa, Le. set (la := snd a - snd p) in *. set (lb := snd b - snd p) in *. clearbody la lb A1 B1.
      apply Qdiv_mult_lt; [assumption|]. setoid_replace (A1 / la * lb) with ((A1 * lb) / la) by (field; assumption).
      apply Qlt_div_mult; [assumption|]. nra.
    - apply above_le in Aa, Le. set (la := snd a - snd p) in *. set (lb := snd b - snd p) in *. clearbody la lb A1 B1.
      assert (0 < - la) by lra. assert (0 < - lb) by lra.
      setoid_replace (B1 / lb) with ((- B1) / (- lb)) by (field; lra). setoid_replace (A1 / la) with ((- A1) / (- la)) by (field; lra).
      apply Qdiv_mult_lt; [assumption|]. setoid_replace (- A1 / - la * - lb) with ((A1 * lb) / (- la)) by (field; lra).
      apply Qlt_div_mult; [assumption|]. nra. }
  assert (f v < f v); [|lra].
  apply (chain (fun a b => f b < f a) v l v); [intros; lra|exact Hr].
Qed.
