(** WellProps.v: C83, frame intervals and the cells of a blocked well; C82, lookups by measured depth. *)
From Verif Require Import Base QBase TriModel TriProofs3 FineCoarseModel CoarsenProofs WellModel WellProofs.
From Coq Require Import Lqa Permutation.
Open Scope Z_scope.

(** * C83: contributions of frame intervals to cells *)
Theorem C83_contributions (f : list Q) (a b : Q) : Increasing f -> 2 <= len f -> (a < b)%Q ->
  exists l, contributions_one f a b = Ok l /\ Contributions f a b l.
Proof. intros. now apply contributions_ok. Qed.
Print Assumptions C83_contributions.

(** a well whose measured depths increase and with a grid index for each interval *)
Definition WellOk (w : bwell) : Prop :=
  Increasing (node_mds w) /\ 2 <= len (node_mds w) /\ len (grid_indices w) = len (node_mds w) - 1.
Lemma cells_increasing g : forall l, Increasing l -> Forall (fun c => fst c < snd c)%Q (cells_from l g).
Proof.
  induction g as [|x g IH]; intros l Hl; destruct l as [|a [|b l]]; try constructor.
  pose proof (Hl 0 1 ltac:(lia) ltac:(rewrite !len_cons; pose proof (len_nonneg l); lia)) as G.
  change (at_ (a :: b :: l) 0) with a in G. change (at_ (a :: b :: l) 1) with b in G.
  change (cells_from (a :: b :: l) (x :: g)) with (if x <? 0 then cells_from (b :: l) g else (a, b) :: cells_from (b :: l) g).
  apply increasing_tail in Hl. destruct (x <? 0); [now apply IH|]. constructor; [exact G|now apply IH].
Qed.
Theorem C83_all_cells (w : bwell) (f : list Q) : WellOk w -> Increasing f -> 2 <= len f ->
  exists ls, contributions_list w f = Ok ls /\ Forall2 (fun c l => Contributions f (fst c) (snd c) l) (cells w) ls.
Proof.
  intros (H1 & H2 & H3) Hf Hn. unfold contributions_list, node_count. fold (len (node_mds w)) (len (grid_indices w)).
  rewrite (proj2 (Z.ltb_ge (len (grid_indices w)) (len (node_mds w) - 1))) by lia. cbn [bind].
  pose proof (cells_increasing (grid_indices w) _ H1) as G. fold (cells w) in G. induction G as [|c cs Hc _ IH]; [exists []; split; [reflexivity|constructor]|].
  destruct (C83_contributions f (fst c) (snd c) Hf Hn Hc) as (l & E & HC). destruct IH as (ls & E2 & HF). exists (l :: ls). cbn [mapM]. rewrite E. cbn [bind].
  rewrite E2. split; [reflexivity|now constructor].
Qed.
Print Assumptions C83_all_cells.

(** the part of the cell that lies in the frame *)
Theorem C83_whole_frame (f : list Q) (a b : Q) l : Increasing f -> 2 <= len f -> (a < b)%Q -> contributions_one f a b = Ok l ->
  (qsum (map snd l) * (b - a) == overlap a b (at_ f 0) (at_ f (len f - 1)))%Q.
Proof.
  intros Hf Hn Hab E. destruct (C83_contributions f a b Hf Hn Hab) as (l' & E' & HC). rewrite E in E'. injection E' as <-.
  rewrite <- common_total by (assumption || lra). rewrite <- (contributions_sum f a b l HC (common f a b)) by (intros; assumption).
  rewrite <- qsum_scale. apply qsum_ext. intros e He. destruct HC as (_ & H & _). destruct (H e He) as (_ & _ & -> & _). field. lra.
Qed.
Print Assumptions C83_whole_frame.

(** the total length of the active intervals in the cell *)
Definition active_length (f : list Q) (act : list bool) (a b : Q) : Q :=
  over_frame f (fun i => if flag act i then common f a b i else 0%Q).
Section Cell.
  Context (f : list Q) (Hf : Increasing f) (Hn : 2 <= len f) (a b : Q) (Hab : (a < b)%Q) (l : list (Z * Q * Q)) (HC : Contributions f a b l).
  Lemma sum_active act : (qsum (map (fun e => if flag act (key e) then snd e else 0%Q) l) * (b - a) == active_length f act a b)%Q.
  Proof.
    unfold active_length. rewrite <- (contributions_sum f a b l HC) by (intros i _ G; destruct (flag act i); [assumption|reflexivity]).
    rewrite <- qsum_scale. apply qsum_ext. intros e He. destruct HC as (_ & H & _). destruct (H e He) as (_ & _ & Ee & _).
    destruct (flag act (key e)); [rewrite Ee; field|]; lra.
  Qed.
  Lemma common_nonneg i : (0 <= common f a b i)%Q. Proof. apply overlap_nonneg. Qed.
  Lemma active_bounds act : (0 <= active_length f act a b)%Q /\ (active_length f act a b <= b - a)%Q.
  Proof.
    unfold active_length, over_frame. split.
    - apply Qle_trans with (qsum (map (fun _ : Z => 0%Q) (zrange (len f - 1)))); [rewrite qsum_zero by reflexivity; lra|].
      apply qsum_le. intros i _. destruct (flag act i); [apply common_nonneg|lra].
    - apply Qle_trans with (over_frame f (common f a b)).
      + apply qsum_le. intros i _. pose proof (common_nonneg i). destruct (flag act i); lra.
      + rewrite common_total by (assumption || lra). unfold overlap. minmax; lra.
  Qed.
  Lemma perforated_fold act : forall m s, (fold_left (fun s (e : Z * Q * Q) => if flag act (fst (fst e)) then (s + snd e)%Q else s) m s ==
      s + qsum (map (fun e => if flag act (key e) then snd e else 0%Q) m))%Q.
  Proof.
    induction m as [|e m IH]; intro s; unfold qsum in *; cbn [fold_left map fold_right]; [lra|]. rewrite IH. unfold key. destruct (flag act (fst (fst e))); lra.
  Qed.
  Lemma sum_active_div act : (qsum (map (fun e => if flag act (key e) then snd e else 0%Q) l) == active_length f act a b / (b - a))%Q.
  Proof. apply (Qmult_inj_r _ _ (b - a)); [lra|]. rewrite sum_active. field. lra. Qed.
  Lemma cell_perforated_eq act : (cell_perforated act l == active_length f act a b / (b - a))%Q.
  Proof.
    unfold cell_perforated. pose proof (perforated_fold act l 0) as P. rewrite sum_active_div in P.
    destruct (active_bounds act) as [B1 B2]. destruct (div_bounds a b Hab _ B1 B2) as [B3 B4].
    match goal with |- ((if _ <b ?x then _ else _) == _)%Q => destruct (Qltb_spec 1 x) as [G|G] end; lra.
  Qed.
End Cell.
(** perforated fraction and perforated length of a cell *)
Theorem C83_perforated (f : list Q) (act : list bool) (a b : Q) l : Increasing f -> 2 <= len f -> (a < b)%Q -> contributions_one f a b = Ok l ->
  (cell_perforated act l == active_length f act a b / (b - a))%Q /\ (cell_length act l a b == active_length f act a b)%Q /\
  (0 <= cell_perforated act l <= 1)%Q.
Proof.
  intros Hf Hn Hab E. destruct (C83_contributions f a b Hf Hn Hab) as (l' & E' & HC). rewrite E in E'. injection E' as <-.
  pose proof (cell_perforated_eq f Hf Hn a b Hab l HC act) as P. split; [exact P|]. split.
  - unfold cell_length. rewrite P. field. lra.
  - destruct (active_bounds f Hf Hn a b Hab act) as [B1 B2]. destruct (div_bounds a b Hab _ B1 B2) as [B3 B4]. lra.
Qed.
Print Assumptions C83_perforated.

(** a cell with some of an active interval in it is active, and an active cell at least touches an active interval *)
Theorem C83_active (f : list Q) (act : list bool) (a b : Q) l : Increasing f -> 2 <= len f -> (a < b)%Q -> contributions_one f a b = Ok l ->
  (forall i, 0 <= i < len f - 1 -> flag act i = true -> (0 < common f a b i)%Q -> cell_active act l = true) /\
  (cell_active act l = true -> exists i, 0 <= i < len f - 1 /\ flag act i = true /\ (at_ f i <= b)%Q /\ (a <= at_ f (i + 1))%Q).
Proof.
  intros Hf Hn Hab E. destruct (C83_contributions f a b Hf Hn Hab) as (l' & E' & HC). rewrite E in E'. injection E' as <-.
  destruct HC as (_ & H1 & H2). split.
  - intros i Hi Ha Hc. apply existsb_exists. specialize (H2 i Hi Hc). apply in_map_iff in H2. destruct H2 as (e & <- & He). now exists e.
  - intro H. apply existsb_exists in H. destruct H as (e & He & Ha). destruct (H1 e He) as (Hi & _ & _ & T1 & T2). exists (key e). auto.
Qed.
Print Assumptions C83_active.

(** the interval whose cell data (radius, skin) stands for the cell *)
Lemma dominant_fold act : forall m q o,
  (0 <= q)%Q ->
  let r := fold_left (fun m (e : Z * Q * Q) => if flag act (fst (fst e)) && (fst m <b snd e) then (snd e, Some (fst (fst e))) else m) m (q, o) in
  (q <= fst r)%Q /\ (forall e, In e m -> flag act (key e) = true -> (snd e <= fst r)%Q) /\
  ((fst r = q /\ snd r = o) \/ exists e, In e m /\ flag act (key e) = true /\ fst r = snd e /\ (q < snd e)%Q /\ snd r = Some (key e)).
Proof.
  induction m as [|e m IH]; intros q o Hq; cbn [fold_left].
  - cbn. split; [lra|]. split; [intros _ []|]. now left.
  - cbn [fst snd]. unfold key in *. destruct (flag act (fst (fst e))) eqn:A; cbn [andb]; [destruct (Qltb_spec q (snd e)) as [G|G]|].
    + destruct (IH (snd e) (Some (fst (fst e))) ltac:(lra)) as (B1 & B2 & B3). split; [lra|]. split.
      * intros e' [<-|He'] Ha; [exact B1|now apply B2].
      * right. destruct B3 as [[B3 B4]|(e' & He' & Ha & B4 & B5 & B6)]; [exists e; split; [now left|auto]|exists e'; split; [now right|]]. repeat split; auto. lra.
    + destruct (IH q o Hq) as (B1 & B2 & B3). split; [exact B1|]. split.
      * intros e' [<-|He'] Ha; [lra|now apply B2].
      * destruct B3 as [B3|(e' & He' & B3)]; [now left|right; exists e'; split; [now right|exact B3]].
    + destruct (IH q o Hq) as (B1 & B2 & B3). split; [exact B1|]. split.
      * intros e' [<-|He'] Ha; [congruence|now apply B2].
      * destruct B3 as [B3|(e' & He' & B3)]; [now left|right; exists e'; split; [now right|exact B3]].
Qed.
Theorem C83_dominant (f : list Q) (act : list bool) (a b : Q) l : Increasing f -> 2 <= len f -> (a < b)%Q -> contributions_one f a b = Ok l ->
  let i := cell_dominant act l in
  (0 <= i < len f - 1 /\ flag act i = true /\ (0 < common f a b i)%Q /\
     forall j, 0 <= j < len f - 1 -> flag act j = true -> (common f a b j <= common f a b i)%Q) \/
  (i = -1 /\ forall j, 0 <= j < len f - 1 -> flag act j = true -> (common f a b j == 0)%Q).
Proof.
  intros Hf Hn Hab E. destruct (C83_contributions f a b Hf Hn Hab) as (l' & E' & HC). rewrite E in E'. injection E' as <-.
  destruct HC as (_ & H1 & H2). unfold cell_dominant. cbv zeta. destruct (dominant_fold act l 0 None ltac:(lra)) as (B1 & B2 & B3).
  match goal with |- context [snd ?x] => set (r := x) in * end. clearbody r.
  assert (D : forall x y, (x / (b - a) <= y / (b - a))%Q -> (x <= y)%Q).
  { intros x y H. apply (Qmult_le_compat_r _ _ (b - a)) in H; [|lra]. setoid_replace (x / (b - a) * (b - a))%Q with x in H by (field; lra).
    setoid_replace (y / (b - a) * (b - a))%Q with y in H by (field; lra). exact H. }
  destruct B3 as [[B3 ->]|(e & He & Ha & B3 & B4 & ->)]; [right; split; [reflexivity|]|left].
  - intros j Hj Ha. destruct (Qlt_le_dec 0 (common f a b j)) as [G|G]; [exfalso|pose proof (common_nonneg f a b j); lra].
    pose proof (H2 j Hj G) as Hin. apply in_map_iff in Hin. destruct Hin as (e & <- & He). destruct (H1 e He) as (_ & _ & Ee & _). specialize (B2 e He Ha). rewrite B3 in B2.
    rewrite Ee in B2. setoid_replace 0%Q with (0 / (b - a))%Q in B2 by (field; lra). apply D in B2. lra.
  - destruct (H1 e He) as (Hi & _ & Ee & _). split; [assumption|]. split; [assumption|].
    assert (P : (0 < common f a b (key e))%Q).
    { rewrite Ee in B4. pose proof (common_nonneg f a b (key e)). destruct (Qeq_dec (common f a b (key e)) 0) as [Z|NZ]; [|lra].
      rewrite Z in B4. setoid_replace (0 / (b - a))%Q with 0%Q in B4 by (field; lra). lra. }
    split; [assumption|]. intros j Hj Haj. destruct (Qlt_le_dec 0 (common f a b j)) as [G|G]; [|lra].
    pose proof (H2 j Hj G) as Hin. apply in_map_iff in Hin. destruct Hin as (e' & Ek & He'). subst j. destruct (H1 e' He') as (_ & _ & Ee' & _). specialize (B2 e' He' Haj).
    rewrite B3, Ee, Ee' in B2. now apply D in B2.
Qed.
Print Assumptions C83_dominant.

(** permeability thickness: a cell has its share of that of each interval *)
Definition num0 (v : value) : Q := match v with Some x => x | None => 0%Q end.
Lemma kh_fold kh : forall m s, (fold_left (fun s (e : Z * Q * Q) => match val kh (fst (fst e)) with Some v => (s + v * snd (fst e))%Q | None => s end) m s ==
   s + qsum (map (fun e => num0 (val kh (key e)) * snd (fst e)) m))%Q.
Proof.
  induction m as [|e m IH]; intro s; unfold qsum in *; cbn [fold_left map fold_right]; [lra|]. rewrite IH. unfold key. destruct (val kh (fst (fst e))); cbn [num0]; lra.
Qed.
Theorem C83_kh (f : list Q) (kh : list value) (a b : Q) l : Increasing f -> 2 <= len f -> (a < b)%Q -> contributions_one f a b = Ok l ->
  (cell_kh kh l == over_frame f (fun i => num0 (val kh i) * (common f a b i / frame_len f i)))%Q.
Proof.
  intros Hf Hn Hab E. destruct (C83_contributions f a b Hf Hn Hab) as (l' & E' & HC). rewrite E in E'. injection E' as <-.
  unfold cell_kh. rewrite kh_fold, Qplus_0_l. rewrite <- (contributions_sum f a b l HC).
  - apply qsum_ext. intros e He. destruct HC as (_ & H & _). destruct (H e He) as (_ & -> & _). reflexivity.
  - intros i Hi G. rewrite G. pose proof (frame_len_pos f Hf i Hi). field. lra.
Qed.
Print Assumptions C83_kh.
(** when the cells leave no gap and reach beyond both ends of the frame, nothing is lost *)
Lemma cells_steps g : forall l, len g = len l - 1 -> Forall (fun x => 0 <= x) g -> cells_from l g = steps l.
Proof.
  induction g as [|x g IH]; intros l Hl Hg; destruct l as [|a [|b l]]; try reflexivity; rewrite ?len_cons in Hl; try (cbn in Hl; pose proof (len_nonneg g); lia); try (change (len (@nil Z)) with 0 in Hl; pose proof (len_nonneg l); lia).
  inversion_clear Hg as [|? ? Hx Hg']. change (cells_from (a :: b :: l) (x :: g)) with (if x <? 0 then cells_from (b :: l) g else (a, b) :: cells_from (b :: l) g).
  rewrite (proj2 (Z.ltb_ge x 0)) by lia. change (steps (a :: b :: l)) with ((a, b) :: steps (b :: l)). f_equal. apply IH; [rewrite len_cons; lia|assumption].
Qed.
Lemma qsum_swap {A B} (g : A -> B -> Q) l m : (qsum (map (fun x => qsum (map (g x) m)) l) == qsum (map (fun y => qsum (map (fun x => g x y) l)) m))%Q.
Proof.
  induction l as [|x l IH].
  - cbn [map]. change (qsum []) with 0%Q. symmetry. apply qsum_zero. reflexivity.
  - unfold qsum at 1. cbn [map fold_right]. fold (qsum (map (fun x => qsum (map (g x) m)) l)). rewrite IH. clear IH.
    induction m as [|y m IH]; unfold qsum in *; cbn [map fold_right] in *; [lra|]. rewrite <- IH. lra.
Qed.
Theorem C83_kh_conserved (w : bwell) (f : list Q) (kh : list value) ls : WellOk w -> Increasing f -> 2 <= len f ->
  Forall (fun x => 0 <= x) (grid_indices w) ->
  (at_ (node_mds w) 0 <= at_ f 0)%Q -> (at_ f (len f - 1) <= at_ (node_mds w) (len (node_mds w) - 1))%Q ->
  contributions_list w f = Ok ls ->
  (qsum (map (cell_kh kh) ls) == over_frame f (fun i => num0 (val kh i)))%Q.
Proof.
  intros HW Hf Hn Hg B1 B2 E. destruct (C83_all_cells w f HW Hf Hn) as (ls' & E' & HF). rewrite E in E'. injection E' as <-. destruct HW as (W1 & W2 & W3).
  pose proof (cells_increasing (grid_indices w) _ W1) as Hc. fold (cells w) in Hc.
  transitivity (qsum (map (fun c => over_frame f (fun i => num0 (val kh i) * (common f (fst c) (snd c) i / frame_len f i))) (cells w)))%Q.
  - clear E. revert Hc. induction HF as [|c l cs ls' H1 HF IH]; intro Hc; [reflexivity|]. inversion_clear Hc as [|? ? Hc1 Hc2].
    unfold qsum in *. cbn [map fold_right]. rewrite IH by assumption. apply Qplus_inj_r.
    destruct (C83_contributions f (fst c) (snd c) Hf Hn Hc1) as (l2 & E2 & _).
    unfold cell_kh. rewrite kh_fold, Qplus_0_l. rewrite <- (contributions_sum f _ _ l H1).
    + apply qsum_ext. intros e He. destruct H1 as (_ & H & _). destruct (H e He) as (_ & -> & _). reflexivity.
    + intros i Hi G. rewrite G. pose proof (frame_len_pos f Hf i Hi). field. lra.
  - unfold over_frame. rewrite qsum_swap. apply qsum_ext. intros i Hi. apply in_zrange in Hi. pose proof (frame_len_pos f Hf i Hi) as Hl.
    transitivity (num0 (val kh i) * (qsum (map (fun c => common f (fst c) (snd c) i) (cells w)) / frame_len f i))%Q.
    + transitivity (qsum (map (fun c => common f (fst c) (snd c) i * (num0 (val kh i) / frame_len f i)) (cells w)))%Q.
      * apply qsum_ext. intros c _. field. lra.
      * rewrite qsum_scale. field. lra.
    + assert (T : (qsum (map (fun c => common f (fst c) (snd c) i) (cells w)) == frame_len f i)%Q).
      { unfold cells. rewrite cells_steps by assumption. unfold common. rewrite steps_overlap; [|unfold frame_len in Hl; lra|assumption|intros Z; rewrite Z in W2; cbn in W2; lia].
        pose proof (at_le f Hf 0 i ltac:(lia) ltac:(lia)). pose proof (at_le f Hf (i + 1) (len f - 1) ltac:(lia) ltac:(lia)).
        unfold overlap, frame_len in *. minmax; lra. }
      rewrite T. field. lra.
Qed.
Print Assumptions C83_kh_conserved.

(** skin: the mean over the intervals with a value, weighted by length in the cell *)
Definition valued_length (f : list Q) (vs : list value) (a b : Q) : Q :=
  over_frame f (fun i => match val vs i with Some _ => common f a b i | None => 0%Q end).
Lemma skin_fold skin : forall m v s,
  let r := fold_left (fun st (e : Z * Q * Q) => match val skin (fst (fst e)) with
                                        | None => st
                                        | Some x => (Some (match fst st with Some y => y | None => 0 end + x * snd e)%Q, (snd st + snd e)%Q)
                                        end) m (v, s) in
  (num0 (fst r) == num0 v + qsum (map (fun e => num0 (val skin (key e)) * snd e) m))%Q /\
  (snd r == s + qsum (map (fun e => match val skin (key e) with Some _ => snd e | None => 0 end) m))%Q /\
  (fst r = None <-> v = None /\ forall e, In e m -> val skin (key e) = None).
Proof.
  induction m as [|e m IH]; intros v s; cbn [fold_left].
  - cbn. split; [unfold qsum; cbn; lra|]. split; [unfold qsum; cbn; lra|]. split; [intro H; split; [assumption|intros _ []]|tauto].
  - cbn [fst snd]. unfold key in *. destruct (val skin (fst (fst e))) as [x|] eqn:Ev.
    + destruct (IH (Some ((match v with Some y => y | None => 0 end) + x * snd e)%Q) (s + snd e)%Q) as (A1 & A2 & A3). cbv zeta. split; [|split].
      * rewrite A1. unfold qsum. cbn [map fold_right num0]. rewrite Ev. cbn [num0]. destruct v; cbn [num0]; lra.
      * rewrite A2. unfold qsum. cbn [map fold_right]. rewrite Ev. lra.
      * rewrite A3. split; [intros [? _]; discriminate|]. intros [_ H]. specialize (H e (or_introl eq_refl)). congruence.
    + destruct (IH v s) as (A1 & A2 & A3). cbv zeta. split; [|split].
      * rewrite A1. unfold qsum. cbn [map fold_right]. rewrite Ev. cbn [num0]. lra.
      * rewrite A2. unfold qsum. cbn [map fold_right]. rewrite Ev. lra.
      * rewrite A3. split; intros [H1 H2]; (split; [assumption|]).
        -- intros e' [<-|He']; [assumption|now apply H2].
        -- intros e' He'. apply H2. now right.
Qed.
Theorem C83_skin (f : list Q) (skin : list value) (a b : Q) l : Increasing f -> 2 <= len f -> (a < b)%Q -> contributions_one f a b = Ok l ->
  ((0 < valued_length f skin a b)%Q -> exists s, cell_skin skin l = Some s /\
     (s == over_frame f (fun i => num0 (val skin i) * common f a b i) / valued_length f skin a b)%Q) /\
  ((forall i, 0 <= i < len f - 1 -> (at_ f i <= b)%Q -> (a <= at_ f (i + 1))%Q -> val skin i = None) -> cell_skin skin l = None).
Proof.
  intros Hf Hn Hab E. destruct (C83_contributions f a b Hf Hn Hab) as (l' & E' & HC). rewrite E in E'. injection E' as <-.
  unfold cell_skin. pose proof (skin_fold skin l None 0) as S. cbv zeta in S. destruct S as (S1 & S2 & S3).
  match goal with |- context [match ?x with (_, _) => _ end] => destruct x as [v s] end. cbn [fst snd] in *.
  assert (Es : (s == valued_length f skin a b / (b - a))%Q).
  { rewrite S2, Qplus_0_l. apply (Qmult_inj_r _ _ (b - a)); [lra|]. rewrite <- qsum_scale.
    transitivity (valued_length f skin a b); [|field; lra]. unfold valued_length. rewrite <- (contributions_sum f a b l HC) by (intros i _ G; destruct (val skin i); [assumption|reflexivity]).
    apply qsum_ext. intros e He. destruct HC as (_ & H & _). destruct (H e He) as (_ & _ & Ee & _). destruct (val skin (key e)); [rewrite Ee; field|]; lra. }
  split.
  - intro P. assert (Ps : (0 < s)%Q) by (rewrite Es; apply Qlt_shift_div_l; lra). rewrite (proj2 (Qltb_iff 0 s) Ps).
    destruct v as [x|].
    + cbn [option_map]. exists (x / s)%Q. split; [reflexivity|]. cbn [num0] in S1. rewrite Es.
      assert (Ex : (x == over_frame f (fun i => num0 (val skin i) * common f a b i) / (b - a))%Q).
      { rewrite S1, Qplus_0_l. apply (Qmult_inj_r _ _ (b - a)); [lra|]. rewrite <- qsum_scale.
        match goal with |- (_ == ?y / _ * _)%Q => transitivity y; [|field; lra] end.
        rewrite <- (contributions_sum f a b l HC) by (intros i _ G; rewrite G; lra).
        apply qsum_ext. intros e He. destruct HC as (_ & H & _). destruct (H e He) as (_ & _ & -> & _). field. lra. }
      rewrite Ex. field. lra.
    + exfalso. destruct S3 as [S3 _]. destruct (S3 eq_refl) as [_ Hall]. rewrite S2 in Ps. rewrite qsum_zero in Ps; [lra|]. intros e He. now rewrite (Hall e He).
  - intro Hall. destruct S3 as [_ S3]. rewrite S3.
    + now destruct (0 <b s).
    + split; [reflexivity|]. intros e He. destruct HC as (_ & H & _). destruct (H e He) as (Hi & _ & _ & T1 & T2). now apply Hall.
Qed.
Print Assumptions C83_skin.

(** radius: the largest of the intervals' values *)
Lemma max_fold : forall vs m, let r := fold_left (fun m (v : value) => match m, v with None, v => v | m, None => m | Some x, Some y => Some (Qmaxb x y) end) vs m in
  (forall x, m = Some x \/ In (Some x) vs -> exists y, r = Some y /\ (x <= y)%Q) /\ (forall y, r = Some y -> m = Some y \/ In (Some y) vs).
Proof.
  induction vs as [|v vs IH]; intro m; cbn [fold_left].
  - split; [intros x [->|[]]; exists x; split; [reflexivity|lra]|]. intros y H. now left.
  - cbv zeta in IH. destruct m as [x|], v as [y|].
    + destruct (IH (Some (Qmaxb x y))) as [A1 A2]. split.
      * intros z H. destruct (A1 (Qmaxb x y) (or_introl eq_refl)) as (r & E & Hr).
        assert (M : (x <= Qmaxb x y)%Q /\ (y <= Qmaxb x y)%Q) by (split; minmax; lra).
        destruct H as [[= <-]|[[= <-]|H]]; [exists r; split; [exact E|lra]|exists r; split; [exact E|lra]|apply A1; now right].
      * intros r Hr. destruct (A2 r Hr) as [[= <-]|H]; [|right; now right]. destruct (Qmaxb_spec x y) as [[_ ->]|[_ ->]]; [right; now left|now left].
    + destruct (IH (Some x)) as [A1 A2]. split; [intros z [H|[H|H]]; [apply A1; now left|discriminate|apply A1; now right]|].
      intros r Hr. destruct (A2 r Hr) as [H|H]; [now left|right; now right].
    + destruct (IH (Some y)) as [A1 A2]. split; [intros z [H|[H|H]]; [discriminate|apply A1; now left|apply A1; now right]|].
      intros r Hr. destruct (A2 r Hr) as [H|H]; right; [now left|now right].
    + destruct (IH None) as [A1 A2]. split; [intros z [H|[H|H]]; [discriminate|discriminate|apply A1; now right]|].
      intros r Hr. destruct (A2 r Hr) as [H|H]; [discriminate|right; now right].
Qed.
Lemma zrange2_last lo hi d (l : list (Z * Q * Q)) : map key l = zrange2 lo hi -> l <> [] -> key (hd d l) = lo /\ key (last l d) = hi - 1.
Proof.
  intros E N. destruct l as [|e l]; [congruence|]. destruct (Z_lt_ge_dec lo hi) as [G|G]; [|rewrite zrange2_nil in E by lia; discriminate].
  split.
  - rewrite zrange2_cons in E by lia. now injection E.
  - replace hi with (hi - 1 + 1) in E by lia. rewrite zrange2_snoc in E by lia.
    destruct (exists_last (l := e :: l) ltac:(congruence)) as (l' & x & Hl). rewrite Hl in *. rewrite map_app in E. cbn [map] in E.
    apply app_inj_tail in E. rewrite last_last. now destruct E.
Qed.
Theorem C83_radius (f : list Q) (rad : list value) (a b : Q) l : Increasing f -> 2 <= len f -> (a < b)%Q -> len rad = len f - 1 -> contributions_one f a b = Ok l ->
  (forall i x, 0 <= i < len f - 1 -> (0 < common f a b i)%Q -> val rad i = Some x -> exists r, cell_radius rad l = Some r /\ (x <= r)%Q) /\
  (forall r, cell_radius rad l = Some r -> exists i, 0 <= i < len f - 1 /\ val rad i = Some r /\ (at_ f i <= b)%Q /\ (a <= at_ f (i + 1))%Q).
Proof.
  intros Hf Hn Hab Hr E. destruct (C83_contributions f a b Hf Hn Hab) as (l' & E' & HC). rewrite E in E'. injection E' as <-.
  destruct HC as ((lo & hi & Hk) & H1 & H2). unfold cell_radius. destruct l as [|e l]; [split; [intros i x Hi Hc; destruct (H2 i Hi Hc)|discriminate]|].
  destruct (zrange2_last lo hi e (e :: l) Hk ltac:(congruence)) as [K1 K2]. cbn [hd] in K1. cbv zeta. unfold key in K1, K2 at 1. rewrite K1, K2.
  assert (Hl : In (last (e :: l) e) (e :: l)) by (destruct (exists_last (l := e :: l) ltac:(congruence)) as (l' & x & ->); rewrite last_last; apply in_or_app; right; now left).
  destruct (H1 _ Hl) as (Hl2 & _). unfold key in Hl2. rewrite K2 in Hl2. fold (len rad). replace (Z.min (hi - 1 + 1) (len rad)) with hi by lia.
  destruct (max_fold (map (val rad) (zrange2 lo hi)) None) as [M1 M2]. split.
  - intros i x Hi Hc Hv. apply M1. right. rewrite <- Hv. apply in_map. rewrite <- Hk. now apply H2.
  - intros r Er. destruct (M2 r Er) as [|Hin]; [discriminate|]. apply in_map_iff in Hin. destruct Hin as (i & Ei & Hi). rewrite <- Hk in Hi. apply in_map_iff in Hi. destruct Hi as (e' & <- & He').
    destruct (H1 e' He') as (B & _ & _ & T1 & T2). exists (key e'). auto.
Qed.
Print Assumptions C83_radius.

(** A cell that begins where an active interval ends is flagged active though nothing of that
    interval is in it, and its radius and skin are those of the interval it only touches *)
Theorem C83_touching_refuted : exists f act a b l, Increasing f /\ 2 <= len f /\ (a < b)%Q /\ contributions_one f a b = Ok l /\
  (active_length f act a b == 0)%Q /\ cell_active act l = true /\
  (exists rad skin, (forall i, (0 < common f a b i)%Q -> 0 <= i < len f - 1 -> val rad i = Some (1 # 4)%Q /\ val skin i = None) /\
     cell_radius rad l = Some (1 # 2)%Q /\ exists z, cell_skin skin l = Some z /\ (z == 0)%Q).
Proof.
  exists [0; 10; 20]%Q, [true; false], 10%Q, 15%Q. eexists. split.
  { intros i j H1 H2. change (len [0; 10; 20]%Q) with 3 in H2. assert (C : (i = 0 /\ j = 1) \/ (i = 0 /\ j = 2) \/ (i = 1 /\ j = 2)) by lia.
    destruct C as [[-> ->]|[[-> ->]|[-> ->]]]; reflexivity. }
  split; [discriminate|]. split; [reflexivity|]. split; [vm_compute; reflexivity|]. split; [vm_compute; reflexivity|]. split; [vm_compute; reflexivity|].
  exists [Some (1 # 2); Some (1 # 4)]%Q, [Some 3%Q; None]. split.
  - intros i Hc Hi. change (len [0; 10; 20]%Q) with 3 in Hi. assert (C : i = 0 \/ i = 1) by lia. destruct C as [-> | ->]; [exfalso; revert Hc; vm_compute; discriminate|split; reflexivity].
  - split; [vm_compute; reflexivity|]. eexists. split; [vm_compute; reflexivity|reflexivity].
Qed.
Print Assumptions C83_touching_refuted.
(** a frame with one node has no intervals, and yet the contributions to a cell across it fail *)
Theorem C83_one_node_refuted : exists f a b, Increasing f /\ len f = 1 /\ (a < b)%Q /\ contributions_one f a b = Err AssertionError.
Proof. exists [5%Q], 0%Q, 10%Q. split; [intros i j H1 H2; change (len [5%Q]) with 1 in H2; lia|]. repeat split; reflexivity. Qed.
Print Assumptions C83_one_node_refuted.
(** examples: two frame intervals partly in the cell and one wholly *)
Example C83_example :
  exists l, contributions_one [0; 10; 20; 40]%Q 5 25 = Ok l /\ map key l = [0; 1; 2] /\ map (fun e => Qred (snd e)) l = [1 # 4; 1 # 2; 1 # 4]%Q /\
  Qred (cell_length [true; false; true] l 5 25) = 10%Q /\ cell_dominant [true; true; false] l = 1 /\
  Qred (cell_kh [Some 100; None; Some 40]%Q l) = 60%Q /\ option_map Qred (cell_skin [Some 4; None; Some 2]%Q l) = Some 3%Q.
Proof. eexists. split; [vm_compute; reflexivity|]. repeat split; vm_compute; reflexivity. Qed.
Example C83_example_well :
  exists ls, contributions_list (BW [0; 15; 30; 50]%Q [0; 0; 0] 3) [5; 10; 20; 40]%Q = Ok ls /\
  Qred (qsum (map (cell_kh [Some 100; Some 7; Some 40]%Q) ls)) = 147%Q.
Proof. eexists. split; vm_compute; reflexivity. Qed.
