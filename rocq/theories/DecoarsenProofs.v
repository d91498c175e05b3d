(** DecoarsenProofs.v: specification and lemmas for DecoarsenModel.v. *)
From Verif Require Import Base QBase BisectModel BisectProofs BisectProofs2 BisectProofs4 TriModel TriProofs3 StrModel BoxModel BoxProofs FineCoarseModel
  FineCoarseProofs PropSelModel CoarsenModel CoarsenProofs GcsModel GcsProofs DecoarsenModel.
From Coq Require Import Lqa.
Open Scope Z_scope.

(** * Specification *)
(** The grid is divided into boxes of cells, [blk c] the one with c.  The lowest corner of a
    box is its host: the cell that held the coarse values. *)
Definition Division (n : cell) (blk : cell -> box) : Prop :=
  forall c, within n c -> InBox c (blk c) /\ within n (lo (blk c)) /\ within n (hi (blk c)) /\
    forall c', InBox c' (blk c) -> blk c' = blk c.
(** The KID values of a division: -3 for a cell other than the host of its box; 0 for an active
    host; a cell inactive for another reason is alone in its box. *)
Definition KidOf (n : cell) (blk : cell -> box) (kid : cell -> value) : Prop :=
  forall c, within n c ->
    (c <> lo (blk c) -> exists q, kid c = Some q /\ (q == -3)%Q) /\
    (c = lo (blk c) -> (exists q, kid c = Some q /\ (q == 0)%Q) \/ (blk c = Box c c /\ forall q, kid c = Some q -> ~ (q == -3)%Q)).
(** the cell next to the host's row of cells, along each axis, is the host of its own box *)
Definition Separate (n : cell) (blk : cell -> box) : Prop :=
  forall c d, within n c -> c = lo (blk c) -> get (hi (blk c)) d + 1 < get n d ->
    lo (blk (set c d (get (hi (blk c)) d + 1))) = set c d (get (hi (blk c)) d + 1).
(** the boxes are cut by planes of constant index through the whole grid *)
Definition Regular (n : cell) (blk : cell -> box) : Prop :=
  forall c c' d, within n c -> within n c' -> get c d = get c' d -> get (lo (blk c)) d = get (lo (blk c')) d.
(** how a property is spread *)
Inductive rule := ByVolume | Along (d : axis) | Copied.
Inductive Rule : str -> option str -> rule -> Prop :=
| rule_volume k d : In k (map L ["volume"; "rock volume"; "pore volume"; "fluid volume"]%string) -> Rule k d ByVolume
| rule_thickness k d : In k (map L ["thickness"; "permeability thickness"]%string) -> Rule k d (Along K)
| rule_length k d s : In k (map L ["length"; "cell length"; "permeability length"]%string) ->
    In (s, d) [("K"%string, K); ("J"%string, J); ("I"%string, I)] -> Rule k (Some (L s)) (Along d)
| rule_copied k d : ~ In k (map L ["volume"; "rock volume"; "pore volume"; "fluid volume"; "thickness"; "permeability thickness";
    "length"; "cell length"; "permeability length"; "transmissibility"]%string) -> Rule k d Copied.
(** the cells of box b on the line through c along d *)
Definition OnLine (b : box) (c : cell) (d : axis) (x : cell) : Prop :=
  InBox x b /\ forall d', d' <> d -> get x d' = get c d'.
(** [a']: a spread by a rule.  Cells of one box get equal values. *)
Definition SpreadBy (n : cell) (blk : cell -> box) (r : rule) (a a' : arr value) : Prop :=
  shape a' = n /\
  forall c, within n c ->
    (forall c', InBox c' (blk c) -> el a' c' = el a' c) /\
    (el a (lo (blk c)) = None -> el a' c = None) /\
    forall v, el a (lo (blk c)) = Some v ->
      (exists w, el a' c = Some w) /\
      match r with
      | ByVolume => TotalOver (fun x => InBox x (blk c)) (fun x => num (el a' x)) v
      | Along d => TotalOver (OnLine (blk c) c d) (fun x => num (el a' x)) v
      | Copied => el a' c = Some v
      end.
(** what becomes of an imported item *)
Definition Spread (n : cell) (blk : cell -> box) (m m' : item) : Prop :=
  m_keyword m' = m_keyword m /\ m_discrete m' = m_discrete m /\ m_kind m' = m_kind m /\ m_dir m' = m_dir m /\ m_cells m' = m_cells m /\
  match m_array m with
  | None => m_array m' = None
  | Some a =>
      if negb (m_cells m) || existsb (fun x => str_eqb (upper (m_keyword m)) (L x)) ["UID"; "ICOARS"; "KID"; "DAD"]%string
      then m_array m' = Some a
      else exists r a', Rule (m_kind m) (m_dir m) r /\ m_array m' = Some a' /\ SpreadBy n blk r a a'
  end.

(** * Cells in natural order *)
Lemma get_ext (c d : cell) : (forall a, get c a = get d a) -> c = d.
Proof. intro H. pose proof (H K); pose proof (H J); pose proof (H I). destruct c, d. cbn in *. congruence. Qed.
Lemma zrange_app a b : 0 <= a -> 0 <= b -> zrange (a + b) = zrange a ++ map (Z.add a) (zrange b).
Proof.
  intros Ha Hb. unfold zrange. rewrite Z2Nat.inj_add by assumption. rewrite seq_app, map_app. f_equal. cbn [plus].
  rewrite map_map. rewrite <- (map_id (seq (Z.to_nat a) _)) at 1. 
  assert (G : forall m s, map Z.of_nat (map (fun x => x) (seq s m)) = map (fun x => Z.of_nat s + Z.of_nat x) (seq 0 m)).
  { clear. induction m as [|m IH]; intro s; [reflexivity|]. cbn [seq map]. f_equal; [lia|]. rewrite IH. rewrite <- seq_shift, map_map.
    apply map_ext. intro x. lia. }
  rewrite G. apply map_ext. intro x. rewrite Z2Nat.id by assumption. reflexivity.
Qed.
Lemma zrange_mul a b : 0 <= a -> 0 <= b -> zrange (a * b) = flat_map (fun x => map (fun y => x * b + y) (zrange b)) (zrange a).
Proof.
  intros Ha Hb. revert a Ha. apply natlike_ind; [reflexivity|]. intros a Ha IH. replace (Z.succ a) with (a + 1) by lia.
  rewrite zrange_succ by assumption. rewrite flat_map_app, <- IH. cbn [flat_map]. rewrite app_nil_r.
  replace ((a + 1) * b) with (a * b + b) by ring. rewrite zrange_app by nia. reflexivity.
Qed.
Lemma flat_map_map' {A B C} (f : A -> B) (g : B -> list C) l : flat_map g (map f l) = flat_map (fun x => g (f x)) l.
Proof. induction l as [|x l IH]; [reflexivity|]. cbn [map flat_map]. now rewrite IH. Qed.
Lemma flat_map_flat_map' {A B C} (f : A -> list B) (g : B -> list C) l : flat_map g (flat_map f l) = flat_map (fun x => flat_map g (f x)) l.
Proof. induction l as [|x l IH]; [reflexivity|]. cbn [flat_map]. now rewrite flat_map_app, IH. Qed.
Lemma map_flat_map' {A B C} (f : A -> list B) (g : B -> C) l : map g (flat_map f l) = flat_map (fun x => map g (f x)) l.
Proof. induction l as [|x l IH]; [reflexivity|]. cbn [flat_map]. now rewrite map_app, IH. Qed.
Lemma natural_indices n : (forall d, 0 <= get n d) -> map (natural n) (indices n) = zrange (size n).
Proof.
  intro H. pose proof (H K); pose proof (H J); pose proof (H I). unfold size. cbn [get] in *. rewrite zrange_mul by nia. rewrite zrange_mul by nia.
  unfold indices. rewrite map_flat_map', flat_map_flat_map'. apply flat_map_ext. intro k.
  rewrite map_flat_map', flat_map_map'. apply flat_map_ext. intro j. rewrite map_map. reflexivity.
Qed.
Lemma indices_natural n : (forall d, 0 <= get n d) -> indices n = map (denatural n) (zrange (size n)).
Proof.
  intro H. rewrite <- natural_indices by assumption. rewrite map_map. rewrite <- (map_id (indices n)) at 1.
  apply map_ext_in. intros c Hc. symmetry. apply denatural_natural. now apply in_indices.
Qed.
(** a loop over the cells *)
Lemma loop_inv {S} (n : cell) (f : S -> cell -> S) (P : Z -> S -> Prop) s0 : (forall d, 0 < get n d) ->
  P 0 s0 -> (forall m s, 0 <= m < size n -> P m s -> P (m + 1) (f s (denatural n m))) -> P (size n) (fold_left f (indices n) s0).
Proof.
  intros Hn H0 Hs. rewrite indices_natural by (intro d; specialize (Hn d); lia).
  assert (Hp : 0 <= size n) by (pose proof (Hn K); pose proof (Hn J); pose proof (Hn I); unfold size; cbn [get] in *; nia).
  assert (G : forall m, 0 <= m -> m <= size n -> P m (fold_left f (map (denatural n) (zrange m)) s0)).
  { apply (natlike_ind (fun m => m <= size n -> P m (fold_left f (map (denatural n) (zrange m)) s0))); [intros _; exact H0|].
    intros m Hm IH Hle. replace (Z.succ m) with (m + 1) by lia. rewrite zrange_succ, map_app, fold_left_app by assumption. cbn [map fold_left].
    apply Hs; [lia|]. apply IH. lia. }
  apply G; lia.
Qed.
Lemma natural_le n c d : within n c -> within n d -> (forall a, get c a <= get d a) -> natural n c <= natural n d.
Proof.
  intros Hc Hd H. pose proof (H K); pose proof (H J); pose proof (H I). pose proof (Hd K); pose proof (Hd J); pose proof (Hd I).
  pose proof (Hc K); pose proof (Hc J); pose proof (Hc I). unfold natural. cbn [get] in *. assert (tk c * tj n + tj c <= tk d * tj n + tj d) by nia. nia.
Qed.

(** * Runs *)
Lemma run_on_spec p n c d h : forall fuel e, get c d < e <= h + 1 -> h < get n d -> Z.of_nat fuel >= h + 1 - e ->
  (forall x, e <= x <= h -> p (set c d x) = true) -> (h + 1 < get n d -> p (set c d (h + 1)) = false) -> run_on fuel n p c d e = h + 1.
Proof.
  induction fuel as [|f IH]; intros e He Hh Hf Hp Hn; cbn [run_on]; [lia|].
  destruct (Z.eq_dec e (h + 1)) as [E|E].
  - destruct (Z.ltb_spec e (get n d)) as [G|G]; cbn [andb]; [|assumption]. rewrite E in G |- *. rewrite (Hn G). reflexivity.
  - rewrite (proj2 (Z.ltb_lt e (get n d))) by lia. rewrite (Hp e) by lia. cbn [andb]. apply IH; [lia|lia|lia| |assumption]. intros x Hx. apply Hp. lia.
Qed.
Lemma run_box_spec n p b : within n (lo b) -> within n (hi b) -> NonEmptyBox b ->
  (forall d x, get (lo b) d < x <= get (hi b) d -> p (set (lo b) d x) = true) ->
  (forall d, get (hi b) d + 1 < get n d -> p (set (lo b) d (get (hi b) d + 1)) = false) -> run_box n p (lo b) = b.
Proof.
  intros Hl Hh Hne Hp Hq.
  assert (E : forall d, run_end n p (lo b) d = get (hi b) d + 1).
  { intro d. unfold run_end. pose proof (Hl d). pose proof (Hh d). pose proof (Hne d).
    apply run_on_spec; [lia|lia|lia| |apply Hq]. intros x Hx. apply Hp. lia. }
  unfold run_box. rewrite !E. destruct b as [l h]. cbn [lo hi]. f_equal. destruct h. cbn. f_equal; lia.
Qed.

Section Divided.
  Context (n : cell) (blk : cell -> box) (D : Division n blk).
  Lemma div_in c : within n c -> InBox c (blk c). Proof. intro H. apply D, H. Qed.
  Lemma div_lo c : within n c -> within n (lo (blk c)). Proof. intro H. apply D, H. Qed.
  Lemma div_hi c : within n c -> within n (hi (blk c)). Proof. intro H. apply D, H. Qed.
  Lemma div_same c c' : within n c -> InBox c' (blk c) -> blk c' = blk c. Proof. intro H. apply D, H. Qed.
  Lemma div_ne c : within n c -> NonEmptyBox (blk c). Proof. intros H d. pose proof (div_in c H d). lia. Qed.
  Lemma div_lo_in c : within n c -> InBox (lo (blk c)) (blk c). Proof. intros H d. pose proof (div_ne c H d). lia. Qed.
  Lemma div_lo_blk c : within n c -> blk (lo (blk c)) = blk c. Proof. intro H. apply div_same; [assumption|]. now apply div_lo_in. Qed.
  Lemma div_sub c c' : within n c -> InBox c' (blk c) -> within n c'.
  Proof. intros H Hc d. pose proof (Hc d). pose proof (div_lo c H d). pose proof (div_hi c H d). lia. Qed.
  (** cells have one host exactly when they are in one box *)
  Lemma host_box c x : within n c -> within n x -> natural n (lo (blk x)) = natural n (lo (blk c)) -> blk x = blk c.
  Proof.
    intros Hc Hx E. apply natural_inj in E; [|now apply div_lo|now apply div_lo]. rewrite <- (div_lo_blk x Hx), E. now apply div_lo_blk.
  Qed.
  Lemma host_first c : within n c -> c <> lo (blk c) -> natural n (lo (blk c)) < natural n c.
  Proof.
    intros H Hne. assert (natural n (lo (blk c)) <= natural n c).
    { apply natural_le; [now apply div_lo|assumption|]. intro a. pose proof (div_in c H a). lia. }
    assert (natural n (lo (blk c)) <> natural n c); [|lia]. intro E. apply Hne. symmetry. apply (natural_inj n); [now apply div_lo|assumption|assumption].
  Qed.
  Lemma extent_pos c d : within n c -> 0 < get (extent_of_box (blk c)) d.
  Proof. intro H. unfold extent_of_box. rewrite get_zip3. pose proof (div_ne c H d). lia. Qed.
  Lemma n_pos c : within n c -> forall d, 0 < get n d. Proof. intros H d. specialize (H d). lia. Qed.
  (** the processed boxes after m cells *)
  Definition done (m : Z) (c : cell) : bool := natural n (lo (blk c)) <? m.
  (** a step that fills the box of its cell when that is a host *)
  Lemma done_host {A} (m : Z) (f : cell -> A) (g : cell -> A) z : 0 <= m < size n -> (forall d, 0 < get n d) ->
    let c := denatural n m in lo (blk c) = c ->
    (forall x, within n x -> f x = if done m x then g x else z) -> (forall x, InBox x (blk c) -> g x = g c) ->
    forall x, within n x -> fill f (blk c) (g c) x = if done (m + 1) x then g x else z.
  Proof.
    intros Hm Hn c Hlo Hf Hg x Hx. destruct (natural_denatural n m (Hn J) (Hn I) Hm) as [Ec Hc]. fold c in Ec, Hc.
    unfold fill. destruct (cell_in_box x (blk c)) eqn:E.
    - apply cell_in_box_spec in E. unfold done. rewrite (div_same c x Hc E), Hlo, Ec.
      rewrite (proj2 (Z.ltb_lt m (m + 1))) by lia. symmetry. now apply Hg.
    - rewrite Hf by assumption. unfold done. destruct (Z.ltb_spec (natural n (lo (blk x))) m) as [G|G]; destruct (Z.ltb_spec (natural n (lo (blk x))) (m + 1)) as [G'|G']; try lia; try reflexivity.
      exfalso. assert (natural n (lo (blk x)) = natural n (lo (blk c))) by (rewrite Hlo, Ec; lia).
      apply host_box in H; [|assumption|assumption]. assert (cell_in_box x (blk c) = true); [|congruence].
      apply cell_in_box_spec. rewrite <- H. now apply div_in.
  Qed.
  Lemma done_other {A} (m : Z) (f : cell -> A) (g : cell -> A) z : 0 <= m < size n -> (forall d, 0 < get n d) ->
    let c := denatural n m in lo (blk c) <> c ->
    (forall x, within n x -> f x = if done m x then g x else z) -> forall x, within n x -> f x = if done (m + 1) x then g x else z.
  Proof.
    intros Hm Hn c Hlo Hf x Hx. destruct (natural_denatural n m (Hn J) (Hn I) Hm) as [Ec Hc]. fold c in Ec, Hc.
    rewrite Hf by assumption. unfold done.
    destruct (Z.ltb_spec (natural n (lo (blk x))) m) as [G|G]; destruct (Z.ltb_spec (natural n (lo (blk x))) (m + 1)) as [G'|G']; try lia; try reflexivity.
    exfalso. assert (E : natural n (lo (blk x)) = natural n c) by (rewrite Ec; lia). apply natural_inj in E; [|now apply div_lo|assumption].
    apply Hlo. rewrite <- E. rewrite (div_lo_blk x Hx). reflexivity.
  Qed.
  Lemma done_all c : within n c -> done (size n) c = true.
  Proof. intro H. unfold done. apply Z.ltb_lt. apply natural_bounds. now apply div_lo. Qed.

  (** ** the shares from the hosts *)
  Lemma run_box_hosts (host : cell -> Z) c : (forall x, within n x -> host x = natural n (lo (blk x))) -> within n c -> lo (blk c) = c ->
    run_box n (fun x => host x =? natural n c) c = blk c.
  Proof.
    intros Hh Hc Hlo. transitivity (run_box n (fun x => host x =? natural n c) (lo (blk c))); [now rewrite Hlo|]. apply run_box_spec; [now apply div_lo|now apply div_hi|now apply div_ne| |].
    - intros d x Hx. rewrite Hlo in Hx |- *. assert (B : InBox (set c d x) (blk c)).
      { intro a. destruct (axis_dec d a) as [->|Ne]; [rewrite BisectProofs.get_set_same; rewrite Hlo; lia|].
        rewrite BisectProofs.get_set_other by assumption. now apply div_in. }
      apply Z.eqb_eq. rewrite Hh by (now apply (div_sub c)). rewrite (div_same c _ Hc B). now rewrite Hlo.
    - intros d Hd. rewrite Hlo. apply Z.eqb_neq. intro E.
      assert (W : within n (set c d (get (hi (blk c)) d + 1))).
      { intro a. destruct (axis_dec d a) as [<-|Ne]; [rewrite BisectProofs.get_set_same; pose proof (div_hi c Hc d); lia|].
        rewrite BisectProofs.get_set_other by assumption. apply Hc. }
      rewrite Hh in E by assumption. assert (E2 : natural n (lo (blk (set c d (get (hi (blk c)) d + 1)))) = natural n (lo (blk c))) by (rewrite Hlo; exact E). clear E; rename E2 into E. apply host_box in E; [|assumption|assumption].
      pose proof (div_in _ W d) as B. rewrite E in B. rewrite BisectProofs.get_set_same in B. lia.
  Qed.
  Lemma shares_of_ok host : (forall x, within n x -> host x = natural n (lo (blk x))) -> forall c, within n c -> shares_of n host c = extent_of_box (blk c).
  Proof.
    intros Hh c0 Hc0. pose proof (n_pos c0 Hc0) as Hn.
    assert (G : forall x, within n x -> shares_of n host x = if done (size n) x then extent_of_box (blk x) else T 0 0 0).
    { unfold shares_of. apply (loop_inv n (share_step n host) (fun m (s : cell -> trip Z) => forall x, within n x -> s x = if done m x then extent_of_box (blk x) else T 0 0 0)); [assumption| |].
      - intros x Hx. unfold done. pose proof (natural_bounds n _ (div_lo x Hx)). rewrite (proj2 (Z.ltb_ge _ 0)) by lia. reflexivity.
      - intros m s Hm IH. destruct (natural_denatural n m (Hn J) (Hn I) Hm) as [Ec Hc]. set (c := denatural n m) in *.
        destruct (cell_eqb c (lo (blk c))) eqn:E.
        + apply cell_eqb_eq in E. symmetry in E. unfold share_step.
          assert (Hs : s c = T 0 0 0). { rewrite IH by assumption. unfold done. rewrite E, Ec. now rewrite Z.ltb_irrefl. }
          rewrite Hs. cbn [tk Z.eqb]. rewrite run_box_hosts by assumption.
          apply (done_host m s (fun x => extent_of_box (blk x)) (T 0 0 0) Hm Hn E IH). intros x Hx. fold c in Hx |- *. now rewrite (div_same c x Hc Hx).
        + assert (E' : lo (blk c) <> c). { intro F. rewrite F in E. now rewrite (proj2 (cell_eqb_eq c c) eq_refl) in E. }
          unfold share_step. assert (Hs : s c = extent_of_box (blk c)).
          { rewrite IH by assumption. unfold done. rewrite (proj2 (Z.ltb_lt _ m)); [reflexivity|]. pose proof (host_first c Hc ltac:(congruence)) as Q1. rewrite Ec in Q1. exact Q1. }
          rewrite Hs. pose proof (extent_pos c K Hc) as P. cbn [get] in P. rewrite (proj2 (Z.eqb_neq _ 0)) by lia.
          exact (done_other m s (fun x => extent_of_box (blk x)) (T 0 0 0) Hm Hn E' IH). }
    rewrite G by assumption. now rewrite done_all.
  Qed.

  (** ** hosts and shares from KID *)
  Lemma next_within c d : within n c -> get (hi (blk c)) d + 1 < get n d -> within n (set c d (get (hi (blk c)) d + 1)).
  Proof.
    intros Hc H a. destruct (axis_dec d a) as [<-|Ne]; [rewrite BisectProofs.get_set_same; pose proof (div_hi c Hc d); lia|].
    rewrite BisectProofs.get_set_other by assumption. apply Hc.
  Qed.
  Lemma regular_separate : Regular n blk -> Separate n blk.
  Proof.
    intros R c d Hc Hlo Hd. pose proof (next_within c d Hc Hd) as Hx. set (x := set c d (get (hi (blk c)) d + 1)) in *.
    assert (Xd : get x d = get (hi (blk c)) d + 1) by apply BisectProofs.get_set_same.
    assert (Xo : forall a, d <> a -> get x a = get c a) by (intros a Ha; now apply BisectProofs.get_set_other).
    assert (Lo : forall a, d <> a -> get (lo (blk x)) a = get x a).
    { intros a Ha. rewrite (R x c a Hx Hc (Xo a Ha)). rewrite <- Hlo. symmetry. now apply Xo. }
    apply get_ext. intro a. destruct (axis_dec d a) as [<-|Ne]; [|now apply Lo].
    pose proof (div_in x Hx d) as Bx. destruct (Z_le_gt_dec (get (lo (blk x)) d) (get (hi (blk c)) d)) as [G|G]; [|lia]. exfalso.
    set (y := set c d (get (hi (blk c)) d)).
    assert (Yc : InBox y (blk c)).
    { intro a. unfold y. destruct (axis_dec d a) as [<-|Ne]; [rewrite BisectProofs.get_set_same; pose proof (div_in c Hc d); lia|].
      rewrite BisectProofs.get_set_other by assumption. now apply div_in. }
    assert (Yx : InBox y (blk x)).
    { intro a. unfold y. destruct (axis_dec d a) as [<-|Ne]; [rewrite BisectProofs.get_set_same; lia|].
      rewrite BisectProofs.get_set_other by assumption. rewrite <- (Xo a Ne). now apply div_in. }
    assert (E : blk x = blk c) by (rewrite <- (div_same c y Hc Yc); symmetry; now apply div_same).
    rewrite E in Bx. lia.
  Qed.
  Lemma from_kid_ok kid : KidOf n blk kid -> Separate n blk -> forall c, within n c ->
    fst (from_kid n kid) c = natural n (lo (blk c)) /\ snd (from_kid n kid) c = extent_of_box (blk c).
  Proof.
    intros Hk Hs c0 Hc0. pose proof (n_pos c0 Hc0) as Hn.
    assert (G : (forall x, within n x -> fst (from_kid n kid) x = if done (size n) x then natural n (lo (blk x)) else -1) /\
                (forall x, within n x -> snd (from_kid n kid) x = if done (size n) x then extent_of_box (blk x) else T 0 0 0)).
    { unfold from_kid. apply (loop_inv n (kid_step n kid) (fun m (s : (cell -> Z) * (cell -> trip Z)) =>
        (forall x, within n x -> fst s x = if done m x then natural n (lo (blk x)) else -1) /\
        (forall x, within n x -> snd s x = if done m x then extent_of_box (blk x) else T 0 0 0))); [assumption| |].
      - split; intros x Hx; unfold done; pose proof (natural_bounds n _ (div_lo x Hx)); rewrite (proj2 (Z.ltb_ge _ 0)) by lia; reflexivity.
      - intros m s Hm [IH1 IH2]. destruct (natural_denatural n m (Hn J) (Hn I) Hm) as [Ec Hc]. set (c := denatural n m) in *.
        set (is := kid_is kid).
        assert (Mask : forall x, within n x -> is (-3)%Q x = true <-> x <> lo (blk x)).
        { intros x Hx. destruct (Hk x Hx) as [K1 K2]. unfold is, kid_is. split.
          - intros M E. destruct (K2 E) as [(q & Eq & Q0)|[_ N]].
            + rewrite Eq in M. apply Qeq_bool_iff in M. rewrite Q0 in M. discriminate.
            + destruct (kid x) as [q|]; [|discriminate]. apply Qeq_bool_iff in M. now apply (N q).
          - intro E. destruct (K1 E) as (q & -> & Eq). now apply Qeq_bool_iff. }
        assert (Fill : lo (blk c) = c -> 
          (forall x, within n x -> fill (fst s) (blk c) (natural n c) x = if done (m + 1) x then natural n (lo (blk x)) else -1) /\
          (forall x, within n x -> fill (snd s) (blk c) (extent_of_box (blk c)) x = if done (m + 1) x then extent_of_box (blk x) else T 0 0 0)).
        { intro E. split; intros x Hx.
          - pose proof (done_host m (fst s) (fun x => natural n (lo (blk x))) (-1) Hm Hn E IH1) as Q. cbv beta zeta in Q. fold c in Q. rewrite E in Q. apply Q; [|assumption].
            intros y Hy. now rewrite (div_same c y Hc Hy), E.
          - apply (done_host m (snd s) (fun x => extent_of_box (blk x)) (T 0 0 0) Hm Hn E IH2); [|assumption].
            intros y Hy. fold c in Hy |- *. now rewrite (div_same c y Hc Hy). }
        unfold kid_step. fold is. destruct (cell_eqb c (lo (blk c))) eqn:E.
        + apply cell_eqb_eq in E. symmetry in E.
          assert (NM : is (-3)%Q c = false). { destruct (is (-3)%Q c) eqn:F; [|reflexivity]. apply (Mask c Hc) in F. congruence. }
          destruct (is 0%Q c) eqn:Z0; cbn [fst snd].
          * assert (B : run_box n (is (-3)%Q) c = blk c).
            { transitivity (run_box n (is (-3)%Q) (lo (blk c))); [now rewrite E|].
              apply run_box_spec; [now apply div_lo|now apply div_hi|now apply div_ne| |].
              - intros d x Hx. rewrite E in Hx |- *. assert (B : InBox (set c d x) (blk c)).
                { intro a. destruct (axis_dec d a) as [<-|Ne]; [rewrite BisectProofs.get_set_same; rewrite E; lia|].
                  rewrite BisectProofs.get_set_other by assumption. now apply div_in. }
                apply Mask; [now apply (div_sub c)|]. rewrite (div_same c _ Hc B), E. intro F. apply (f_equal (fun t => get t d)) in F.
                rewrite BisectProofs.get_set_same in F. lia.
              - intros d Hd. rewrite E. destruct (is (-3)%Q (set c d (get (hi (blk c)) d + 1))) eqn:F; [|reflexivity]. exfalso.
                apply Mask in F; [|now apply next_within]. apply F. symmetry. now apply Hs. }
            rewrite B. apply Fill, E.
          * rewrite NM. cbn [negb fst snd]. destruct (Hk c Hc) as [_ K2]. destruct (K2 (eq_sym E)) as [(q & Eq & Q0)|[B _]].
            { exfalso. unfold is, kid_is in Z0. rewrite Eq in Z0. apply Qeq_bool_iff in Q0. congruence. }
            specialize (Fill E). rewrite B in Fill. destruct Fill as [F1 F2]. split; [exact F1|]. intros x Hx. rewrite <- (F2 x Hx).
            unfold fill. destruct (cell_in_box x (Box c c)); [|reflexivity]. unfold extent_of_box, zip3. cbn [lo hi]. f_equal; lia.
        + assert (E' : lo (blk c) <> c). { intro F. rewrite F in E. now rewrite (proj2 (cell_eqb_eq c c) eq_refl) in E. }
          assert (M : is (-3)%Q c = true) by (apply Mask; [assumption|congruence]).
          assert (Z0 : is 0%Q c = false).
          { unfold is, kid_is in M |- *. destruct (kid c) as [q|]; [|reflexivity]. apply Qeq_bool_iff in M.
            destruct (Qeq_bool q 0) eqn:F; [|reflexivity]. apply Qeq_bool_iff in F. rewrite F in M. discriminate. }
          rewrite Z0, M. cbn [negb]. split.
          * exact (done_other m (fst s) (fun x => natural n (lo (blk x))) (-1) Hm Hn E' IH1).
          * exact (done_other m (snd s) (fun x => extent_of_box (blk x)) (T 0 0 0) Hm Hn E' IH2). }
    destruct G as [G1 G2]. rewrite G1, G2 by assumption. now rewrite done_all.
  Qed.
End Divided.
