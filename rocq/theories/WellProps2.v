(** WellProps2.v: C82, lookups by measured depth. *)
From Verif Require Import Base QBase TriModel TriProofs3 WellModel WellProofs WellProps.
From Coq Require Import Lqa.
Open Scope Z_scope.

(** * Frames *)
Theorem C82_interval_for_md (f : list Q) (md : Q) : Increasing f -> 2 <= len f ->
  exists i x, interval_for_md f md = Ok (i, x) /\
    ((i = -1 /\ (md < at_ f 0)%Q /\ (x == 0)%Q) \/ (i = -1 /\ (at_ f (len f - 1) < md)%Q /\ (x == 1)%Q) \/
     (0 <= i < len f - 1 /\ (at_ f i <= md <= at_ f (i + 1))%Q /\ (x == (md - at_ f i) / (at_ f (i + 1) - at_ f i))%Q)) /\
    (forall j, 0 <= j < len f - 1 -> (at_ f j < md <= at_ f (j + 1))%Q -> i = j).
Proof.
  intros Hf Hn. destruct (interval_for_md_spec f md Hn) as ([i x] & E & H). exists i, x. split; [exact E|].
  pose proof (fun p q H1 H2 => at_le f Hf p q H1 H2) as Le.
  destruct H as [[H [= -> ->]]|[(H1 & H2 & [= -> ->])|(j & Hj & H1 & H2 & H3 & H4 & [= -> ->])]].
  - split; [left; repeat split; lra|]. intros j Hj [G1 G2]. pose proof (Le 0 j ltac:(lia) ltac:(lia)). lra.
  - split; [right; left; repeat split; lra|]. intros j Hj [G1 G2]. pose proof (Le (j + 1) (len f - 1) ltac:(lia) ltac:(lia)). lra.
  - split; [right; right; repeat split; (lia || lra)|]. intros k Hk [G1 G2].
    destruct (Z.lt_trichotomy j k) as [C|[C|C]]; [|assumption|].
    + pose proof (Le (j + 1) k ltac:(lia) ltac:(lia)). lra.
    + pose proof (Le (k + 1) j ltac:(lia) ltac:(lia)). destruct H3 as [H3|H3]; [lia|lra].
Qed.
Print Assumptions C82_interval_for_md.

(** * Blocked wells *)
(** a well as WellOk with its count of cells that of the intervals that have a grid *)
Definition WellCells (w : bwell) : Prop := WellOk w /\ cell_count w = len (filter (fun x => 0 <=? x) (grid_indices w)).
Lemma blocked_length g : forall i, len (blocked_from g i) = len (filter (fun x => 0 <=? x) g).
Proof.
  induction g as [|x g IH]; intro i; [reflexivity|]. cbn [blocked_from filter]. destruct (Z.ltb_spec x 0).
  - rewrite (proj2 (Z.leb_gt 0 x)) by lia. apply IH.
  - rewrite (proj2 (Z.leb_le 0 x)) by lia. rewrite !len_cons, IH. reflexivity.
Qed.
Lemma filter_full {A} (p : A -> bool) l : len (filter p l) <= len l /\ (len (filter p l) = len l -> forallb p l = true).
Proof.
  induction l as [|x l [IH1 IH2]]; [split; [cbn; lia|reflexivity]|]. cbn [filter forallb]. destruct (p x); rewrite ?len_cons; (split; [lia|]).
  - intro H. apply IH2. lia.
  - intro H. lia.
Qed.
Lemma blocked_all g : forallb (fun x => 0 <=? x) g = true -> forall i c, 0 <= c < len g -> nth (Z.to_nat c) (blocked_from g i) 0 = i + c.
Proof.
  induction g as [|x g IH]; intros H i c Hc; [cbn in Hc; lia|]. cbn [forallb] in H. apply andb_true_iff in H. destruct H as [H1 H2].
  cbn [blocked_from]. apply Z.leb_le in H1. rewrite (proj2 (Z.ltb_ge x 0)) by lia. destruct (Z.eq_dec c 0) as [->|N]; [cbn; lia|].
  rewrite len_cons in Hc. replace (Z.to_nat c) with (S (Z.to_nat (c - 1))) by lia. cbn [nth]. rewrite IH by (assumption || lia). lia.
Qed.
(** the interval of a cell, whether or not all intervals are cells *)
Lemma interval_for_cell_eq w c : WellCells w -> 0 <= c < cell_count w -> interval_for_cell w c = Ok (nth (Z.to_nat c) (blocked_from (grid_indices w) 0) 0).
Proof.
  intros ((_ & H2 & H3) & H4) Hc. unfold interval_for_cell. rewrite (proj2 (Z.leb_le 0 c)), (proj2 (Z.ltb_lt c (cell_count w))) by lia. cbn [andb assert_ bind].
  unfold node_count. fold (len (node_mds w)). destruct (Z.eqb_spec (len (node_mds w)) (cell_count w + 1)) as [E|E].
  - rewrite blocked_all; [f_equal; lia| |]; [|lia]. destruct (filter_full (fun x => 0 <=? x) (grid_indices w)) as [_ F]. apply F. lia.
  - unfold cell_interval_map, node_count. fold (len (node_mds w)) (len (grid_indices w)).
    rewrite (proj2 (Z.ltb_ge (len (grid_indices w)) (len (node_mds w) - 1))) by lia. cbn [bind].
    rewrite firstn_all2 by (unfold len in *; lia). fold (len (blocked_from (grid_indices w) 0)). rewrite blocked_length, <- H4, Z.ltb_irrefl, Z.eqb_refl. reflexivity.
Qed.
Lemma blocked_cells g : forall l i c d, len g = len l - 1 -> 0 <= c < len (blocked_from g i) ->
  let j := nth (Z.to_nat c) (blocked_from g i) 0 in
  i <= j < i + len g /\ nth (Z.to_nat c) (cells_from l g) d = (at_ l (j - i), at_ l (j - i + 1)) /\ 0 <= nth (Z.to_nat (j - i)) g (-1).
Proof.
  induction g as [|x g IH]; intros l i c d Hl Hc; [cbn in Hc; lia|]. rewrite len_cons in Hl. cbn [blocked_from] in *.
  destruct l as [|a [|b l]]; [cbn in Hl; pose proof (len_nonneg g); lia|cbn in Hl; pose proof (len_nonneg g); lia|]. rewrite len_cons in Hl.
  change (cells_from (a :: b :: l) (x :: g)) with (if x <? 0 then cells_from (b :: l) g else (a, b) :: cells_from (b :: l) g).
  destruct (Z.ltb_spec x 0) as [G|G].
  - destruct (IH (b :: l) (i + 1) c d ltac:(lia) Hc) as (A1 & A2 & A3). cbv zeta in *. rewrite len_cons. split; [lia|]. rewrite A2.
    set (j := nth (Z.to_nat c) (blocked_from g (i + 1)) 0) in *. replace (j - i) with (j - (i + 1) + 1) by lia. rewrite !(at_cons a (b :: l)) by lia.
    split; [reflexivity|]. replace (Z.to_nat (j - (i + 1) + 1)) with (S (Z.to_nat (j - (i + 1)))) by lia. exact A3.
  - rewrite len_cons in Hc. destruct (Z.eq_dec c 0) as [->|N].
    + cbn [Z.to_nat nth]. rewrite Z.sub_diag. rewrite len_cons. pose proof (len_nonneg g). split; [lia|]. split; [reflexivity|exact G].
    + replace (Z.to_nat c) with (S (Z.to_nat (c - 1))) by lia. cbn [nth].
      destruct (IH (b :: l) (i + 1) (c - 1) d ltac:(lia) ltac:(lia)) as (A1 & A2 & A3). cbv zeta in *. rewrite len_cons. split; [lia|]. rewrite A2.
      set (j := nth (Z.to_nat (c - 1)) (blocked_from g (i + 1)) 0) in *. replace (j - i) with (j - (i + 1) + 1) by lia. rewrite !(at_cons a (b :: l)) by lia.
      split; [reflexivity|]. replace (Z.to_nat (j - (i + 1) + 1)) with (S (Z.to_nat (j - (i + 1)))) by lia. exact A3.
Qed.
Lemma cells_length g : forall l i, len g = len l - 1 -> len (cells_from l g) = len (blocked_from g i).
Proof.
  induction g as [|x g IH]; intros l i Hl; [destruct l as [|a [|b l]]; reflexivity|]. rewrite len_cons in Hl.
  destruct l as [|a [|b l]]; [cbn in Hl; pose proof (len_nonneg g); lia|cbn in Hl; pose proof (len_nonneg g); lia|]. rewrite len_cons in Hl.
  change (cells_from (a :: b :: l) (x :: g)) with (if x <? 0 then cells_from (b :: l) g else (a, b) :: cells_from (b :: l) g). cbn [blocked_from].
  destruct (x <? 0); rewrite ?len_cons; rewrite (IH (b :: l) (i + 1)) by lia; reflexivity.
Qed.
(** entry and exit depths: those of the cell's interval; cells follow in order without overlap; a number
    is a cell's exactly when it is below the count *)
Lemma entry_exit_eq w c d : WellCells w -> 0 <= c < cell_count w -> entry_and_exit_mds w c = Ok (nth (Z.to_nat c) (cells w) d).
Proof.
  intros HW Hc. unfold entry_and_exit_mds. rewrite (interval_for_cell_eq w c HW Hc). cbn [bind]. destruct HW as ((_ & H2 & H3) & H4).
  destruct (blocked_cells (grid_indices w) (node_mds w) 0 c d H3) as (A1 & A2 & _); [rewrite blocked_length; lia|]. cbv zeta in *.
  unfold cells. rewrite A2, Z.sub_0_r. unfold node_count. fold (len (node_mds w)). rewrite (proj2 (Z.ltb_lt _ _)) by lia. reflexivity.
Qed.
Lemma entry_exit_inv w c r : entry_and_exit_mds w c = Ok r -> 0 <= c < cell_count w.
Proof.
  unfold entry_and_exit_mds, interval_for_cell. destruct (Z.leb_spec 0 c); [|discriminate]. destruct (Z.ltb_spec c (cell_count w)); [lia|discriminate].
Qed.
Theorem C82_entry_and_exit (w : bwell) : WellCells w ->
  (forall c, 0 <= c < cell_count w -> exists i, interval_for_cell w c = Ok i /\ 0 <= i < len (node_mds w) - 1 /\ 0 <= nth (Z.to_nat i) (grid_indices w) (-1) /\
     entry_and_exit_mds w c = Ok (at_ (node_mds w) i, at_ (node_mds w) (i + 1))) /\
  (forall i, 0 <= i < len (node_mds w) - 1 -> 0 <= nth (Z.to_nat i) (grid_indices w) (-1) -> exists c, 0 <= c < cell_count w /\ interval_for_cell w c = Ok i) /\
  (forall c c' i i', c < c' -> interval_for_cell w c = Ok i -> interval_for_cell w c' = Ok i' -> i < i').
Proof.
  intro HW. pose proof HW as ((H1 & H2 & H3) & H4). split; [|split].
  - intros c Hc. eexists. split; [now apply interval_for_cell_eq|]. destruct (blocked_cells (grid_indices w) (node_mds w) 0 c (0, 0)%Q H3) as (A1 & A2 & A3); [rewrite blocked_length; lia|].
    cbv zeta in *. rewrite !Z.sub_0_r in *. split; [lia|]. split; [exact A3|]. rewrite (entry_exit_eq w c (0, 0)%Q HW Hc). unfold cells. now rewrite A2.
  - intros i Hi Hg. assert (K : forall g i0 i, i0 <= i < i0 + len g -> 0 <= nth (Z.to_nat (i - i0)) g (-1) -> In i (blocked_from g i0)).
    { induction g as [|x g IH]; intros i0 k Hk Hn; [cbn in Hk; lia|]. rewrite len_cons in Hk. cbn [blocked_from]. destruct (Z.eq_dec k i0) as [->|N].
      - rewrite Z.sub_diag in Hn. cbn in Hn. rewrite (proj2 (Z.ltb_ge x 0)) by lia. now left.
      - assert (In k (blocked_from g (i0 + 1))). { apply IH; [lia|]. replace (Z.to_nat (k - i0)) with (S (Z.to_nat (k - (i0 + 1)))) in Hn by lia. exact Hn. }
        destruct (x <? 0); [assumption|now right]. }
    specialize (K (grid_indices w) 0 i ltac:(lia) ltac:(now rewrite Z.sub_0_r)). destruct (In_nth _ _ 0 K) as (n & Hn & En).
    exists (Z.of_nat n). assert (Hb : 0 <= Z.of_nat n < cell_count w) by (rewrite H4, <- (blocked_length _ 0); unfold len; lia). split; [assumption|].
    rewrite interval_for_cell_eq by assumption. rewrite Nat2Z.id. now rewrite En.
  - intros c c' i i' Hlt E E'. assert (Hr : forall c i, interval_for_cell w c = Ok i -> 0 <= c < cell_count w).
    { intros k r. unfold interval_for_cell. destruct (Z.leb_spec 0 k); [|discriminate]. destruct (Z.ltb_spec k (cell_count w)); [lia|discriminate]. }
    pose proof (Hr _ _ E) as B. pose proof (Hr _ _ E') as B'. rewrite interval_for_cell_eq in E, E' by assumption. injection E as <-. injection E' as <-.
    assert (K : forall g i0 c c', 0 <= c < c' -> c' < len (blocked_from g i0) -> nth (Z.to_nat c) (blocked_from g i0) 0 < nth (Z.to_nat c') (blocked_from g i0) 0).
    { induction g as [|x g IH]; intros i0 k k' Hk Hk'; [cbn in Hk'; lia|]. cbn [blocked_from] in *. destruct (x <? 0); [now apply IH|]. rewrite len_cons in Hk'.
      replace (Z.to_nat k') with (S (Z.to_nat (k' - 1))) by lia. destruct (Z.eq_dec k 0) as [->|N].
      - cbn [Z.to_nat nth]. assert (F : Forall (fun z => i0 < z) (blocked_from g (i0 + 1))).
        { clear. assert (F : forall g j, i0 < j -> Forall (fun z => i0 < z) (blocked_from g j)).
          { induction g0 as [|y g0 IH]; intros j Hj; [constructor|]. cbn [blocked_from]. destruct (y <? 0); [apply IH; lia|constructor; [lia|apply IH; lia]]. }
          apply F. lia. }
        rewrite Forall_forall in F. apply F, nth_In. unfold len in *. lia.
      - replace (Z.to_nat k) with (S (Z.to_nat (k - 1))) by lia. cbn [nth]. apply IH; lia. }
    apply K; [lia|]. rewrite blocked_length. lia.
Qed.
Print Assumptions C82_entry_and_exit.

(** the cell at a measured depth, and how far through it *)
Lemma wb_cell_from_spec g md : forall l ci0, Increasing l -> len g = len l - 1 -> 1 <= len l -> (at_ l 0 <= md)%Q -> 0 <= ci0 ->
  exists ci x, wb_cell_from l g ci0 md = Ok (ci, x) /\
    ((ci = -1) \/ exists k, 0 <= k < len (cells_from l g) /\ ci = ci0 + k /\ (let c := nth (Z.to_nat k) (cells_from l g) (0, 0)%Q in (fst c <= md <= snd c)%Q /\ (x == (md - fst c) / (snd c - fst c))%Q)) /\
    (forall k, 0 <= k < len (cells_from l g) -> (let c := nth (Z.to_nat k) (cells_from l g) (0, 0)%Q in (fst c < md <= snd c)%Q) -> ci = ci0 + k).
Proof.
  induction g as [|y g IH]; intros l ci0 Hi Hl Hl1 Hmd Hc0.
  - destruct l as [|a [|b l]]; [cbn in Hl; lia| |rewrite !len_cons in Hl; pose proof (len_nonneg l); cbn in Hl; lia].
    exists (-1), 1%Q. split; [reflexivity|]. split; [now left|]. intros k Hk. cbn in Hk. lia.
  - rewrite len_cons in Hl. destruct l as [|a [|b l]]; [cbn in Hl; pose proof (len_nonneg g); lia|cbn in Hl; pose proof (len_nonneg g); lia|]. rewrite len_cons in Hl.
    change (cells_from (a :: b :: l) (y :: g)) with (if y <? 0 then cells_from (b :: l) g else (a, b) :: cells_from (b :: l) g).
    change (wb_cell_from (a :: b :: l) (y :: g) ci0 md) with
      (if md <=b b then Ok (if y <? 0 then -1 else ci0, ((md - a) / (b - a))%Q) else wb_cell_from (b :: l) g (if 0 <=? y then ci0 + 1 else ci0) md).
    change (at_ (a :: b :: l) 0) with a in Hmd. pose proof (increasing_tail _ _ Hi) as Hi'.
    assert (Later : forall k, 0 <= k < len (cells_from (b :: l) g) -> (b <= fst (nth (Z.to_nat k) (cells_from (b :: l) g) (0, 0)%Q))%Q).
    { intros k Hk. rewrite (cells_length g (b :: l) 0 ltac:(lia)) in Hk. destruct (blocked_cells g (b :: l) 0 k (0, 0)%Q ltac:(lia) Hk) as (A1 & A2 & _). cbv zeta in *. rewrite A2. cbn [fst].
      rewrite Z.sub_0_r. change b with (at_ (b :: l) 0) at 1. apply at_le; [assumption|lia|]. lia. }
    destruct (Qleb_spec' md b) as [G|G].
    + eexists _, _. split; [reflexivity|]. destruct (Z.ltb_spec y 0) as [Y|Y].
      * split; [now left|]. intros k Hk H. cbv zeta in H. specialize (Later k Hk). lra.
      * split; [right; exists 0; rewrite len_cons; split; [pose proof (len_nonneg (cells_from (b :: l) g)); lia|]; split; [lia|]; cbn; split; [lra|reflexivity]|].
        intros k Hk H. rewrite len_cons in Hk. destruct (Z.eq_dec k 0) as [->|N]; [lia|exfalso]. cbv zeta in H. replace (Z.to_nat k) with (S (Z.to_nat (k - 1))) in H by lia. cbn [nth] in H.
        specialize (Later (k - 1) ltac:(lia)). lra.
    + assert (Hb : (at_ (b :: l) 0 <= md)%Q) by (change (at_ (b :: l) 0) with b; lra).
      destruct (Z.ltb_spec y 0) as [Y|Y].
      * rewrite (proj2 (Z.leb_gt 0 y)) by lia. apply IH; try assumption; rewrite ?len_cons in *; pose proof (len_nonneg l); lia.
      * rewrite (proj2 (Z.leb_le 0 y)) by lia.
        destruct (IH (b :: l) (ci0 + 1) Hi' ltac:(lia) ltac:(rewrite len_cons; pose proof (len_nonneg l); lia) Hb ltac:(lia)) as (ci & x & E & H1 & H2).
        exists ci, x. split; [exact E|]. split.
        -- destruct H1 as [->|(k & Hk & -> & Hx)]; [now left|right]. exists (k + 1). rewrite len_cons. split; [lia|]. split; [lia|].
           replace (Z.to_nat (k + 1)) with (S (Z.to_nat k)) by lia. exact Hx.
        -- intros k Hk H. rewrite len_cons in Hk. destruct (Z.eq_dec k 0) as [->|N]; [cbv zeta in H; cbn [Z.to_nat nth fst snd] in H; lra|].
           replace (Z.to_nat k) with (S (Z.to_nat (k - 1))) in H by lia. rewrite (H2 (k - 1) ltac:(lia) H). lia.
Qed.
Theorem C82_cell_at_depth (w : bwell) (md : Q) : WellCells w ->
  exists ci x, wb_cell_for_md w md = Ok (ci, x) /\
    (ci = -1 \/ exists a b, entry_and_exit_mds w ci = Ok (a, b) /\ (a <= md <= b)%Q /\ (x == (md - a) / (b - a))%Q) /\
    (forall c a b, entry_and_exit_mds w c = Ok (a, b) -> (a < md <= b)%Q -> ci = c).
Proof.
  intro HW. pose proof HW as ((H1 & H2 & H3) & H4). unfold wb_cell_for_md.
  destruct (node_mds w) as [|m0 l] eqn:El; [cbn in H2; lia|]. rewrite <- El in *.
  assert (Hm : at_ (node_mds w) 0 = m0) by (rewrite El; reflexivity).
  assert (Hlen : len (cells w) = cell_count w) by (unfold cells; rewrite (cells_length _ _ 0 H3), blocked_length; congruence).
  destruct (Qltb_spec md m0) as [G|G].
  - exists (-1), 0%Q. split; [reflexivity|]. split; [now left|]. intros c a b E [G1 G2]. exfalso.
    destruct (C82_entry_and_exit w HW) as (A & _ & _). destruct (A c (entry_exit_inv w c _ E)) as (i & _ & Hi & _ & E2). rewrite E in E2. injection E2 as -> ->.
    pose proof (at_le _ H1 0 i ltac:(lia) ltac:(lia)). rewrite Hm in *. lra.
  - destruct (wb_cell_from_spec (grid_indices w) md (node_mds w) 0 H1 H3 ltac:(lia) ltac:(rewrite Hm; lra) ltac:(lia)) as (ci & x & E & A1 & A2). fold (cells w) in *.
    exists ci, x. split; [exact E|]. split.
    + destruct A1 as [->|(k & Hk & -> & Hx)]; [now left|right]. cbv zeta in Hx. rewrite Z.add_0_l. rewrite (entry_exit_eq w k (0, 0)%Q HW) by lia.
      destruct (nth (Z.to_nat k) (cells w) (0, 0)%Q) as [a b]. exists a, b. split; [reflexivity|exact Hx].
    + intros c a b Ec Hab. pose proof (entry_exit_inv w c _ Ec) as Hc. rewrite (entry_exit_eq w c (0, 0)%Q HW Hc) in Ec. injection Ec as Ec.
      rewrite (A2 c); [lia|lia|]. cbv zeta. now rewrite Ec.
Qed.
Print Assumptions C82_cell_at_depth.

(** the two index arrays agree with the cell intervals *)
Lemma index_map_spec g : Forall (fun x => -1 <= x) g -> forall i c0 c, 0 <= c < len (blocked_from g i) ->
  nth (Z.to_nat (nth (Z.to_nat c) (blocked_from g i) 0 - i)) (index_map g c0) (-2) = c0 + c /\
  nth (Z.to_nat c) (filter (fun x => 0 <=? x) g) (-1) = nth (Z.to_nat (nth (Z.to_nat c) (blocked_from g i) 0 - i)) g (-1).
Proof.
  induction 1 as [|x g Hx Hg IH]; intros i c0 c Hc; [cbn in Hc; lia|].
  assert (Lower : forall i k, 0 <= k < len (blocked_from g i) -> i <= nth (Z.to_nat k) (blocked_from g i) 0).
  { clear. induction g as [|y g IH]; intros i k Hk; [cbn in Hk; lia|]. cbn [blocked_from] in *. destruct (y <? 0); [specialize (IH (i + 1) k Hk); lia|].
    rewrite len_cons in Hk. destruct (Z.eq_dec k 0) as [->|N]; [cbn; lia|]. replace (Z.to_nat k) with (S (Z.to_nat (k - 1))) by lia. cbn [nth]. specialize (IH (i + 1) (k - 1) ltac:(lia)). lia. }
  cbn [blocked_from index_map filter] in *. destruct (Z.ltb_spec x 0) as [G|G].
  - rewrite (proj2 (Z.eqb_eq x (-1))) by lia. rewrite (proj2 (Z.leb_gt 0 x)) by lia. destruct (IH (i + 1) c0 c Hc) as [A1 A2]. pose proof (Lower (i + 1) c Hc).
    set (j := nth (Z.to_nat c) (blocked_from g (i + 1)) 0) in *. replace (Z.to_nat (j - i)) with (S (Z.to_nat (j - (i + 1)))) by lia. cbn [nth]. now split.
  - rewrite (proj2 (Z.eqb_neq x (-1))) by lia. rewrite (proj2 (Z.leb_le 0 x)) by lia. rewrite len_cons in Hc. destruct (Z.eq_dec c 0) as [->|N].
    + cbn [Z.to_nat nth]. rewrite Z.sub_diag. cbn. split; [lia|reflexivity].
    + replace (Z.to_nat c) with (S (Z.to_nat (c - 1))) by lia. cbn [nth]. destruct (IH (i + 1) (c0 + 1) (c - 1) ltac:(lia)) as [A1 A2]. pose proof (Lower (i + 1) (c - 1) ltac:(lia)).
      set (j := nth (Z.to_nat (c - 1)) (blocked_from g (i + 1)) 0) in *. replace (Z.to_nat (j - i)) with (S (Z.to_nat (j - (i + 1)))) by lia. cbn [nth]. split; [lia|assumption].
Qed.
Theorem C82_index_maps (w : bwell) : WellCells w -> Forall (fun x => -1 <= x) (grid_indices w) ->
  exists l, compressed_grid_indices w = Ok l /\ len l = cell_count w /\ len (map_cell_and_grid_indices w) = len (grid_indices w) /\
  (forall c i, interval_for_cell w c = Ok i -> nth (Z.to_nat i) (map_cell_and_grid_indices w) (-2) = c /\ nth (Z.to_nat c) l (-1) = nth (Z.to_nat i) (grid_indices w) (-1)) /\
  (forall i, 0 <= i < len (grid_indices w) -> nth (Z.to_nat i) (grid_indices w) (-1) = -1 -> nth (Z.to_nat i) (map_cell_and_grid_indices w) (-2) = -1).
Proof.
  intros HW Hg. pose proof HW as ((H1 & H2 & H3) & H4). unfold compressed_grid_indices. fold (len (filter (fun x => 0 <=? x) (grid_indices w))). rewrite <- H4, Z.eqb_refl. cbn [assert_ bind].
  eexists. split; [reflexivity|]. split; [now rewrite H4|]. split; [|split].
  - unfold map_cell_and_grid_indices, len. f_equal. generalize 0 at 1. clear. induction (grid_indices w) as [|x g IH]; intro j; [reflexivity|]. cbn [index_map]. destruct (x =? -1); cbn [List.length]; now rewrite IH.
  - intros c i E. assert (Hc : 0 <= c < cell_count w) by (revert E; unfold interval_for_cell; destruct (Z.leb_spec 0 c); [|discriminate]; destruct (Z.ltb_spec c (cell_count w)); [lia|discriminate]).
    rewrite (interval_for_cell_eq w c HW Hc) in E. injection E as <-. destruct (index_map_spec (grid_indices w) Hg 0 0 c) as [A1 A2]; [rewrite blocked_length; lia|].
    rewrite !Z.sub_0_r in *. split; [exact A1|exact A2].
  - unfold map_cell_and_grid_indices. generalize 0 at 2. clear. induction (grid_indices w) as [|x g IH]; intros j i Hi Hn; [cbn in Hi; lia|]. rewrite len_cons in Hi. cbn [index_map].
    destruct (Z.eq_dec i 0) as [->|N]; [cbn in Hn; rewrite Hn; reflexivity|]. replace (Z.to_nat i) with (S (Z.to_nat (i - 1))) in * by lia. cbn [nth] in Hn.
    destruct (x =? -1); cbn [nth]; (apply IH; [lia|assumption]).
Qed.
Print Assumptions C82_index_maps.

(** * Trajectories *)
(** measured depths increase, there is a point for each, and the trajectory starts and ends with them *)
Definition TrajOk (t : traj) : Prop :=
  Increasing (mds t) /\ 2 <= len (mds t) /\ len (points t) = len (mds t) /\ (start_md t == at_ (mds t) 0)%Q /\ (finish_md t == at_ (mds t) (len (mds t) - 1))%Q /\ (0 <= start_md t)%Q.
(** the point a fraction x of the way from p to q *)
Definition Between (p q : point) (x : Q) (r : point) : Prop := forall a, (get r a == get p a + x * (get q a - get p a))%Q.
Lemma interpolate_between p q x : Between p q x (interpolate p q x).
Proof. intro a. unfold interpolate. destruct a; cbn [get zip3 tk tj ti]; lra. Qed.
Lemma search_spec t md (H : TrajOk t) : forall fuel i1 i2, 0 <= i1 < i2 -> i2 < len (mds t) -> (Z.to_nat (i2 - i1) <= S fuel)%nat ->
  (at_ (mds t) i1 < md <= at_ (mds t) i2)%Q ->
  exists i, 0 <= i < len (mds t) - 1 /\ (at_ (mds t) i < md <= at_ (mds t) (i + 1))%Q /\
    search fuel t md i1 i2 = Ok (interpolate (pt (points t) i) (pt (points t) (i + 1)) ((md - at_ (mds t) i) / (at_ (mds t) (i + 1) - at_ (mds t) i))).
Proof.
  destruct H as (H1 & H2 & H3 & _). induction fuel as [|k IH]; intros i1 i2 Hi Hi2 Hf Hmd.
  - assert (i2 = i1 + 1) as -> by lia. cbn [search]. rewrite (proj2 (Z.leb_le (i1 + 1 - i1) 1)) by lia. exists i1. split; [lia|]. split; [assumption|].
    destruct (Qeq_bool md (at_ (mds t) i1)) eqn:E; [apply Qeq_bool_iff in E; lra|]. unfold len in *. rewrite H3. rewrite (proj2 (Z.ltb_lt _ _)) by lia. reflexivity.
  - cbn [search]. destruct (Z.leb_spec (i2 - i1) 1) as [G|G].
    + assert (i2 = i1 + 1) as -> by lia. exists i1. split; [lia|]. split; [assumption|].
      destruct (Qeq_bool md (at_ (mds t) i1)) eqn:E; [apply Qeq_bool_iff in E; lra|]. unfold len in *. rewrite H3. rewrite (proj2 (Z.ltb_lt _ _)) by lia. reflexivity.
    + pose proof (Z.div_le_lower_bound (i2 - i1) 2 1 ltac:(lia) ltac:(lia)). pose proof (Z.div_lt (i2 - i1) 2 ltac:(lia) ltac:(lia)).
      destruct (Qleb_spec' md (at_ (mds t) (i1 + (i2 - i1) / 2))) as [C|C]; apply IH; try lia; lra.
Qed.
Theorem C82_xyz_for_md (t : traj) (md : Q) : TrajOk t ->
  ((md < 0 \/ at_ (mds t) (len (mds t) - 1) < md)%Q -> xyz_for_md t md = Ok None) /\
  ((start_md t == 0)%Q -> (md == 0)%Q -> xyz_for_md t md = Ok (Some (datum t))) /\
  ((0 < start_md t)%Q -> (0 <= md <= at_ (mds t) 0)%Q -> exists p, xyz_for_md t md = Ok (Some p) /\ Between (datum t) (pt (points t) 0) (md / at_ (mds t) 0) p) /\
  (forall i, 0 <= i < len (mds t) - 1 -> (at_ (mds t) i < md <= at_ (mds t) (i + 1))%Q ->
     exists p, xyz_for_md t md = Ok (Some p) /\ Between (pt (points t) i) (pt (points t) (i + 1)) ((md - at_ (mds t) i) / (at_ (mds t) (i + 1) - at_ (mds t) i)) p).
Proof.
  intro HT. pose proof HT as (H1 & H2 & H3 & H4 & H5 & H6). unfold xyz_for_md.
  destruct (mds t) as [|m l] eqn:Em; [cbn in H2; lia|]. rewrite <- Em in *.
  assert (Hlast : last (mds t) m = at_ (mds t) (len (mds t) - 1)) by (apply last_at; rewrite Em; discriminate). rewrite Hlast.
  pose proof (at_lt (mds t) H1 0 (len (mds t) - 1) ltac:(lia) ltac:(lia)) as F.
  assert (Out : (0 <= md <= at_ (mds t) (len (mds t) - 1))%Q -> ((md <b 0) || (finish_md t <b md) || (at_ (mds t) (len (mds t) - 1) <b md)) = false).
  { intros [A B]. destruct (Qltb_spec md 0); [lra|]. destruct (Qltb_spec (finish_md t) md); [lra|]. destruct (Qltb_spec (at_ (mds t) (len (mds t) - 1)) md); [lra|reflexivity]. }
  split; [|split; [|split]].
  - intros [G|G]; [rewrite (proj2 (Qltb_iff md 0) G); reflexivity|]. rewrite (proj2 (Qltb_iff _ md) G). rewrite orb_true_r. reflexivity.
  - intros S0 M0. rewrite Out by lra. rewrite (proj2 (Qleb_iff md (start_md t))) by lra. rewrite (proj2 (Qeq_bool_iff _ _) S0). reflexivity.
  - intros S0 M0. rewrite Out by lra. rewrite (proj2 (Qleb_iff md (start_md t))) by lra.
    destruct (Qeq_bool (start_md t) 0) eqn:E; [apply Qeq_bool_iff in E; lra|]. destruct (points t) as [|p0 ps] eqn:Ep; [exfalso; cbn in H3; lia|].
    eexists. split; [reflexivity|]. intro a. rewrite (interpolate_between (datum t) p0 (md / start_md t) a). rewrite H4. reflexivity.
  - intros i Hi Hmd. pose proof (at_le (mds t) H1 0 i ltac:(lia) ltac:(lia)). pose proof (at_le (mds t) H1 (i + 1) (len (mds t) - 1) ltac:(lia) ltac:(lia)).
    rewrite Out by lra. destruct (Qleb_spec' md (start_md t)) as [C|C]; [exfalso; lra|].
    destruct (search_spec t md HT (List.length (points t)) 0 (len (mds t) - 1) ltac:(lia) ltac:(lia) ltac:(unfold len in *; lia) ltac:(lra)) as (j & Hj & Hmj & E).
    unfold len in E, H3. rewrite H3, E. cbn [bind]. eexists. split; [reflexivity|].
    assert (j = i) as ->; [|apply interpolate_between]. destruct (Z.lt_trichotomy j i) as [L|[L|L]]; [|assumption|].
    + pose proof (at_le (mds t) H1 (j + 1) i ltac:(lia) ltac:(lia)). lra.
    + pose proof (at_le (mds t) H1 (i + 1) j ltac:(lia) ltac:(lia)). lra.
Qed.
Print Assumptions C82_xyz_for_md.
(** so each control point is found at its own measured depth *)
Theorem C82_control_points (t : traj) (i : Z) : TrajOk t -> (0 < start_md t)%Q -> 0 <= i < len (mds t) ->
  exists p, xyz_for_md t (at_ (mds t) i) = Ok (Some p) /\ forall a, (get p a == get (pt (points t) i) a)%Q.
Proof.
  intros HT HS Hi. pose proof HT as (H1 & H2 & H3 & H4 & H5 & H6). destruct (C82_xyz_for_md t (at_ (mds t) i) HT) as (_ & _ & A & B). destruct (Z.eq_dec i 0) as [->|N].
  - destruct (A HS ltac:(lra)) as (p & E & HB). exists p. split; [exact E|]. intro a. rewrite (HB a). field. lra.
  - pose proof (at_lt (mds t) H1 (i - 1) i ltac:(lia) ltac:(lia)) as L. destruct (B (i - 1) ltac:(lia)) as (p & E & HB); [replace (i - 1 + 1) with i by lia; lra|].
    exists p. split; [exact E|]. intro a. rewrite (HB a). replace (i - 1 + 1) with i by lia. field. lra.
Qed.
Print Assumptions C82_control_points.

(** ** examples *)
Definition w1 := BW [0; 10; 20; 40]%Q [0; -1; 0] 2.
Example C82_hypotheses : WellCells w1.
Proof.
  split; [|reflexivity]. split; [|split; [discriminate|reflexivity]]. intros i j H1 H2. change (len (node_mds w1)) with 4 in H2.
  assert (C : (i = 0 /\ j = 1) \/ (i = 0 /\ j = 2) \/ (i = 0 /\ j = 3) \/ (i = 1 /\ j = 2) \/ (i = 1 /\ j = 3) \/ (i = 2 /\ j = 3)) by lia.
  destruct C as [[-> ->]|[[-> ->]|[[-> ->]|[[-> ->]|[[-> ->]|[-> ->]]]]]]; reflexivity.
Qed.
Example C82_cell_example : (exists x, wb_cell_for_md w1 25 = Ok (1, x) /\ (x == 1 # 4)%Q) /\ entry_and_exit_mds w1 1 = Ok (20, 40)%Q /\
  wb_cell_for_md w1 50 = Ok (-1, 1%Q) /\ map_cell_and_grid_indices w1 = [0; -1; 1].
Proof. split; [eexists; split; vm_compute; reflexivity|]. repeat split; vm_compute; reflexivity. Qed.
Definition t1 := Traj [10; 20; 40]%Q [T 0 0 5; T 0 10 5; T 8 10 5]%Q 10 40 (T 0 0 1)%Q.
Example C82_traj_hypotheses : TrajOk t1.
Proof.
  split; [|repeat split; try discriminate; reflexivity]. intros i j H1 H2. change (len (mds t1)) with 3 in H2.
  assert (C : (i = 0 /\ j = 1) \/ (i = 0 /\ j = 2) \/ (i = 1 /\ j = 2)) by lia. destruct C as [[-> ->]|[[-> ->]|[-> ->]]]; reflexivity.
Qed.
Example C82_traj_example : exists p, xyz_for_md t1 30 = Ok (Some p) /\ map3 Qred p = T 4%Q 10%Q 5%Q.
Proof. eexists. split; vm_compute; reflexivity. Qed.
