(** ExtractProofs.v: lemmas for the extraction of a box. *)
From Verif Require Import Base QBase BoxModel IntersectModel PillarModel PillarProofs PointsModel PointsProofs ExtractModel.
Open Scope Z_scope.

(** * Specification *)
(** at any pillar a column is in the list of one extra pillar at most *)
Definition Disjoint (xs : extras) : Prop := forall e e' p cs cs' c,
  nth_error xs e = Some (p, cs) -> nth_error xs e' = Some (p, cs') -> In c cs -> In c cs' -> e = e'.
Definition ColumnInBox (b : box) (j i : Z) : Prop := tj (lo b) <= j <= tj (hi b) /\ ti (lo b) <= i <= ti (hi b).
Definition PillarInBox (b : box) (pj pi : Z) : Prop := tj (lo b) <= pj <= tj (hi b) + 1 /\ ti (lo b) <= pi <= ti (hi b) + 1.
Definition Meets (pj pi j i : Z) : Prop := pj - 1 <= j <= pj /\ pi - 1 <= i <= pi.
(** where a pillar is doubled more than once, each extra pillar but the last leaves to others at least one of
    the columns of the box around it *)
Definition Shared (ni : Z) (b : box) (xs : extras) : Prop := forall e e' pj pi cs cs',
  PillarInBox b pj pi -> nth_error xs e = Some (pillar ni pj pi, cs) -> nth_error xs e' = Some (pillar ni pj pi, cs') -> (e < e')%nat ->
  exists j i, ColumnInBox b j i /\ Meets pj pi j i /\ ~ In (column ni j i) cs.

(** * Lemmas *)
Lemma jagged_of xs : forall acc, jagged acc (map fst xs) (cumul acc xs) (List.concat (map snd xs)) = xs.
Proof.
  induction xs as [|[p cs] xs IH]; intros acc; [reflexivity|]. cbn [map fst snd cumul List.concat jagged].
  replace (Z.to_nat (acc + Z.of_nat (List.length cs) - acc)) with (List.length cs) by lia.
  rewrite firstn_app, Nat.sub_diag, firstn_all, app_nil_r. rewrite skipn_app, Nat.sub_diag, skipn_all. cbn [app skipn firstn].
  f_equal. apply IH.
Qed.
Lemma cumulative_of (ex : list (Z * list Z * Z)) : forall acc, cumulative acc (map (fun e => snd (fst e)) ex) = cumul acc (map fst ex).
Proof. induction ex as [|[[p cs] v] ex IH]; intros acc; [reflexivity|]. cbn. f_equal. apply IH. Qed.
Lemma uses_exists nj ni xs pj pi j i : exists n, Uses nj ni xs pj pi j i n.
Proof.
  induction xs as [|x xs IH] using rev_ind; [eexists; apply uses_nil|]. destruct IH as (n & U). eexists. apply uses_snoc. exact U.
Qed.
Lemma uses_range nj ni xs pj pi j i n : Uses nj ni xs pj pi j i n ->
  n = pillar ni pj pi \/ (exists e, (e < List.length xs)%nat /\ n = (nj + 1) * (ni + 1) + Z.of_nat e).
Proof.
  intros [(e & D & _ & ->)|(_ & ->)]; [|now left]. right. exists e. split; [|reflexivity]. eapply doubles_lt; exact D.
Qed.

Section Extract.
Context (nj ni : Z) (b : box).
Local Notation j0 := (tj (lo b)). Local Notation j1 := (tj (hi b)).
Local Notation i0 := (ti (lo b)). Local Notation i1 := (ti (hi b)).
Local Notation nj' := (j1 - j0 + 1). Local Notation ni' := (i1 - i0 + 1).
Local Notation count := ((nj' + 1) * (ni' + 1)).
Hypothesis Bj : 0 <= j0 /\ j0 <= j1 /\ j1 < nj.
Hypothesis Bi : 0 <= i0 /\ i0 <= i1 /\ i1 < ni.

Lemma pillar_div k pj pi : 0 <= pi <= k -> pillar k pj pi / (k + 1) = pj /\ pillar k pj pi mod (k + 1) = pi.
Proof. intros H. unfold pillar. apply divmod_unique. lia. Qed.
Lemma local_in pj pi : PillarInBox b pj pi -> local_pillar_index ni b (pillar ni pj pi) = Some (pillar ni' (pj - j0) (pi - i0)).
Proof using All.
  intros (A & B). unfold local_pillar_index. destruct (pillar_div ni pj pi ltac:(lia)) as [-> ->].
  replace ((pj - j0 <? 0) || (pi - i0 <? 0) || (j1 - j0 + 1 <? pj - j0) || (i1 - i0 + 1 <? pi - i0)) with false by lia.
  unfold pillar. f_equal. f_equal. f_equal. lia.
Qed.
Lemma local_out pj pi : 0 <= pi <= ni -> ~ PillarInBox b pj pi -> local_pillar_index ni b (pillar ni pj pi) = None.
Proof using All.
  intros R N. unfold local_pillar_index. destruct (pillar_div ni pj pi R) as [-> ->]. unfold PillarInBox in N.
  replace ((pj - j0 <? 0) || (pi - i0 <? 0) || (j1 - j0 + 1 <? pj - j0) || (i1 - i0 + 1 <? pi - i0)) with true by lia. reflexivity.
Qed.
Definition quads : list (Z * Z) := [(-1, -1); (-1, 0); (0, -1); (0, 0)].
Definition col_at (mj mi pj pi : Z) (q : Z * Z) : Z :=
  if (0 <=? pj + fst q) && (pj + fst q <? mj) && (0 <=? pi + snd q) && (pi + snd q <? mi) then column mi (pj + fst q) (pi + snd q) else -1.
Lemma cols_at mj mi pj pi : 0 <= pj <= mj -> 0 <= pi <= mi -> cols_for_pillar mj mi (pillar mi pj pi) = map (col_at mj mi pj pi) quads.
Proof using All.
  intros Hj Hi. unfold cols_for_pillar. destruct (pillar_div mi pj pi Hi) as [-> ->]. unfold quads, col_at, column. cbn [map fst snd].
  f_equal; [|f_equal; [|f_equal; [|f_equal]]];
  repeat match goal with |- context [if ?c then _ else _] => let E := fresh "E" in destruct c eqn:E end; try lia.
Qed.
Lemma quad_in pj pi j i : Meets pj pi j i -> In (j - pj, i - pi) quads.
Proof using All.
  intros (A & B). unfold quads. cbn. assert (j - pj = -1 \/ j - pj = 0) as [-> | ->] by lia; assert (i - pi = -1 \/ i - pi = 0) as [-> | ->] by lia; tauto.
Qed.
Lemma quad_meets pj pi q : In q quads -> Meets pj pi (pj + fst q) (pi + snd q).
Proof using All. intros H. unfold quads in H. unfold Meets. cbn in H. repeat destruct H as [<- | H]; try destruct H; cbn; lia. Qed.
Lemma meets_col (pj pi j i : Z) : PillarInBox b pj pi -> ColumnInBox b j i -> Meets pj pi j i ->
  col_at nj ni pj pi (j - pj, i - pi) = column ni j i /\ col_at nj' ni' (pj - j0) (pi - i0) (j - pj, i - pi) = column ni' (j - j0) (i - i0) /\
  0 <= column ni' (j - j0) (i - i0).
Proof using All.
  intros P C M. destruct P as [P1 P2]. destruct C as [C1 C2]. unfold col_at. cbn [fst snd].
  split; [|split].
  - replace ((0 <=? pj + (j - pj)) && (pj + (j - pj) <? nj) && (0 <=? pi + (i - pi)) && (pi + (i - pi) <? ni)) with true by lia. f_equal; lia.
  - replace ((0 <=? pj - j0 + (j - pj)) && (pj - j0 + (j - pj) <? nj') && (0 <=? pi - i0 + (i - pi)) && (pi - i0 + (i - pi) <? ni')) with true by lia. f_equal; lia.
  - unfold column. nia.
Qed.
Lemma local_col pj pi q : PillarInBox b pj pi -> In q quads -> 0 <= col_at nj' ni' (pj - j0) (pi - i0) q -> ColumnInBox b (pj + fst q) (pi + snd q).
Proof using All.
  intros P Q. unfold col_at. destruct (_ && _) eqn:E; [|lia]. intros _. unfold ColumnInBox. lia.
Qed.

(** what one extra pillar does *)
Inductive effect (pj pi : Z) (cs : list Z) (n : Z) (s s' : splits) : Prop :=
| E_all : (forall j i, ColumnInBox b j i -> Meets pj pi j i -> In (column ni j i) cs) ->
    s' = Splits (fun l => if l =? pillar ni' (pj - j0) (pi - i0) then n else base s l) (extra s) -> effect pj pi cs n s s'
| E_none : (forall j i, ColumnInBox b j i -> Meets pj pi j i -> ~ In (column ni j i) cs) ->
    s' = Splits (fun l => if l =? pillar ni' (pj - j0) (pi - i0) then pillar ni pj pi else base s l) (extra s) -> effect pj pi cs n s s'
| E_some (m : list Z) : 
    s' = Splits (fun l => if l =? pillar ni' (pj - j0) (pi - i0) then pillar ni pj pi else base s l)
                (extra s ++ [(pillar ni' (pj - j0) (pi - i0), m, n)]) ->
    (forall j i, ColumnInBox b j i -> Meets pj pi j i -> (In (column ni' (j - j0) (i - i0)) m <-> In (column ni j i) cs)) ->
    Forall (Touches nj' ni' (pillar ni' (pj - j0) (pi - i0))) m -> effect pj pi cs n s s'.

Lemma one_split_effect pj pi cs index s : PillarInBox b pj pi -> 0 <= index ->
  effect pj pi cs ((nj + 1) * (ni + 1) + index) s (one_split nj ni nj' ni' b index (pillar ni pj pi, cs) s).
Proof using All.
  intros P I0. unfold one_split. cbn [fst snd]. rewrite (local_in pj pi P).
  pose proof P as [P1 P2]. rewrite (cols_at nj ni pj pi) by lia. rewrite (cols_at nj' ni' (pj - j0) (pi - i0)) by lia.
  set (n := (nj + 1) * (ni + 1) + index). set (p := pillar ni pj pi). set (lp := pillar ni' (pj - j0) (pi - i0)).
  assert (Cm : forall (f g : Z * Z -> Z) l, combine (map f l) (map g l) = map (fun q => (f q, g q)) l).
  { intros f g l. induction l as [|q l IH]; [reflexivity|]. cbn. f_equal. exact IH. }
  rewrite Cm, map_map. cbn [fst snd].
  set (S1 := fun q => if col_at nj' ni' (pj - j0) (pi - i0) q <? 0 then -1 else if existsb (Z.eqb (col_at nj ni pj pi q)) cs then n else p).
  rewrite Cm.
  assert (Pp : 0 <= p < (nj + 1) * (ni + 1)) by (unfold p, pillar; nia).
  assert (Pn : p < n) by (unfold n; lia).
  (* the value for a column of the box *)
  assert (SV : forall j i, ColumnInBox b j i -> Meets pj pi j i -> S1 (j - pj, i - pi) = if existsb (Z.eqb (column ni j i)) cs then n else p).
  { intros j i C M. destruct (meets_col pj pi j i P C M) as (E1 & E2 & E3). unfold S1. rewrite E1, E2. replace (_ <? 0) with false by lia. reflexivity. }
  assert (SI : forall q, In q quads -> S1 q = p \/ S1 q = n -> ColumnInBox b (pj + fst q) (pi + snd q) /\ 0 <= col_at nj' ni' (pj - j0) (pi - i0) q).
  { intros q Hq Hs. assert (0 <= col_at nj' ni' (pj - j0) (pi - i0) q).
    { unfold S1 in Hs. destruct (Z.ltb_spec (col_at nj' ni' (pj - j0) (pi - i0) q) 0); [|assumption]. lia. }
    split; [|assumption]. apply local_col; assumption. }
  assert (SJ : forall q, q = (pj + fst q - pj, pi + snd q - pi)) by (intros [x y]; cbn; f_equal; lia).
  (* membership *)
  assert (Mn : existsb (Z.eqb n) (map S1 quads) = true <-> exists j i, ColumnInBox b j i /\ Meets pj pi j i /\ In (column ni j i) cs).
  { rewrite existsb_exists. split.
    - intros (x & Hx & Ex). apply Z.eqb_eq in Ex. subst x. apply in_map_iff in Hx as (q & Eq & Hq).
      destruct (SI q Hq (or_intror Eq)) as [C _]. exists (pj + fst q), (pi + snd q). pose proof (quad_meets pj pi q Hq) as M. split; [exact C|]. split; [exact M|].
      rewrite (SJ q) in Eq. rewrite (SV _ _ C M) in Eq. apply existsb_eqb. destruct (existsb _ cs); [reflexivity|lia].
    - intros (j & i & C & M & H). exists n. split; [|apply Z.eqb_refl]. apply in_map_iff. exists (j - pj, i - pi). split; [|apply quad_in; exact M].
      rewrite (SV _ _ C M). apply existsb_eqb in H. rewrite H. reflexivity. }
  assert (Mp : existsb (Z.eqb p) (map S1 quads) = true <-> exists j i, ColumnInBox b j i /\ Meets pj pi j i /\ ~ In (column ni j i) cs).
  { rewrite existsb_exists. split.
    - intros (x & Hx & Ex). apply Z.eqb_eq in Ex. subst x. apply in_map_iff in Hx as (q & Eq & Hq).
      destruct (SI q Hq (or_introl Eq)) as [C _]. exists (pj + fst q), (pi + snd q). pose proof (quad_meets pj pi q Hq) as M. split; [exact C|]. split; [exact M|].
      rewrite (SJ q) in Eq. rewrite (SV _ _ C M) in Eq. intro H. apply existsb_eqb in H. rewrite H in Eq. lia.
    - intros (j & i & C & M & H). exists p. split; [|apply Z.eqb_refl]. apply in_map_iff. exists (j - pj, i - pi). split; [|apply quad_in; exact M].
      rewrite (SV _ _ C M). destruct (existsb (Z.eqb (column ni j i)) cs) eqn:Q; [|reflexivity]. apply existsb_eqb in Q. contradiction. }
  unfold unique_pis. cbn [filter].
  destruct (existsb (Z.eqb p) (map S1 quads)) eqn:Ep, (existsb (Z.eqb n) (map S1 quads)) eqn:En; cbn [map].
  - eapply E_some; [reflexivity| |].
    + intros j i C M. rewrite in_map_iff. split.
      * intros ((v & l) & El & Hf). cbn [snd] in El. subst l. apply filter_In in Hf as [Hf Hc]. apply in_map_iff in Hf as (q & Eq & Hq). injection Eq as E1 E2.
        cbn [fst snd] in Hc. apply andb_prop in Hc as [Hv Hl]. apply Z.eqb_eq in Hv. rewrite Hv in E1.
        destruct (SI q Hq (or_intror E1)) as [C' _]. pose proof (quad_meets pj pi q Hq) as M'.
        rewrite (SJ q) in E1, E2. rewrite (SV _ _ C' M') in E1. destruct (meets_col pj pi _ _ P C' M') as (_ & E4 & _). rewrite E4 in E2.
        apply column_inj in E2; [|destruct C'; lia|destruct C; lia]. destruct E2 as [E5 E6]. replace j with (pj + fst q) by lia. replace i with (pi + snd q) by lia.
        apply existsb_eqb. destruct (existsb _ cs); [reflexivity|lia].
      * intros H. apply existsb_eqb in H. destruct (meets_col pj pi j i P C M) as (_ & E4 & E5). exists (n, column ni' (j - j0) (i - i0)). split; [reflexivity|].
        apply filter_In. split; [|cbn [fst snd]; rewrite Z.eqb_refl; cbn; lia]. apply in_map_iff. exists (j - pj, i - pi). split; [|apply quad_in; exact M].
        rewrite (SV _ _ C M), H, E4. reflexivity.
    + apply Forall_forall. intros l Hl. apply in_map_iff in Hl as ((v & l') & El & Hf). cbn [snd] in El. subst l'. apply filter_In in Hf as [Hf Hc].
      apply in_map_iff in Hf as (q & Eq & Hq). injection Eq as E1 E2. cbn [fst snd] in Hc. apply andb_prop in Hc as [Hv Hl']. apply Z.eqb_eq in Hv. rewrite Hv in E1.
      destruct (SI q Hq (or_intror E1)) as [C' _]. pose proof (quad_meets pj pi q Hq) as M'. rewrite (SJ q) in E2. destruct (meets_col pj pi _ _ P C' M') as (_ & E4 & _).
      rewrite E4 in E2. destruct C' as [C1 C2]. destruct M' as [M1 M2].
      exists (pj + fst q - j0), (pi + snd q - i0), (- fst q), (- snd q). repeat split; try lia. unfold lp. f_equal; lia.
  - apply E_none; [|rewrite app_nil_r; reflexivity]. intros j i C M H. assert (false = true) as X; [|discriminate X]. apply Mn. exists j, i. tauto.
  - apply E_all; [|rewrite app_nil_r; reflexivity]. intros j i C M. destruct (existsb (Z.eqb (column ni j i)) cs) eqn:Q; [apply existsb_eqb; exact Q|].
    assert (false = true) as X; [|discriminate X]. apply Mp. exists j, i. repeat split; try (apply C); try (apply M). intro H. apply existsb_eqb in H. congruence.
  - exfalso. (* the box has a column there *)
    assert (exists j i, ColumnInBox b j i /\ Meets pj pi j i) as (j & i & C & M).
    { exists (if pj <=? j1 then pj else pj - 1), (if pi <=? i1 then pi else pi - 1). unfold ColumnInBox, Meets. destruct (Z.leb_spec pj j1), (Z.leb_spec pi i1); lia. }
    destruct (existsb (Z.eqb (column ni j i)) cs) eqn:Q.
    + apply existsb_eqb in Q. assert (false = true) as X; [|discriminate X]. apply Mn. exists j, i. tauto.
    + assert (false = true) as X; [|discriminate X]. apply Mp. exists j, i. repeat split; try (apply C); try (apply M). intro H. apply existsb_eqb in H. congruence.
Qed.

Definition src_of (s : splits) (l : Z) : Z := if l <? count then base s l else nth (Z.to_nat (l - count)) (map snd (extra s)) 0.
Definition natural (l : Z) : Z := (j0 + l / (ni' + 1)) * (ni + 1) + (i0 + l mod (ni' + 1)).
Definition Inv (ys : extras) (s : splits) : Prop :=
  WellFormed nj' ni' (map fst (extra s)) /\
  Forall (fun x => (nj + 1) * (ni + 1) <= snd x) (extra s) /\
  (forall pj pi, PillarInBox b pj pi -> base s (pillar ni' (pj - j0) (pi - i0)) = pillar ni pj pi \/
     exists e cs, nth_error ys e = Some (pillar ni pj pi, cs) /\ forall j i, ColumnInBox b j i -> Meets pj pi j i -> In (column ni j i) cs) /\
  (forall j i jp ip n', ColumnInBox b j i -> bit jp -> bit ip ->
     Uses nj' ni' (map fst (extra s)) (j - j0 + jp) (i - i0 + ip) (j - j0) (i - i0) n' -> Uses nj ni ys (j + jp) (i + ip) j i (src_of s n')).

Lemma natural_at pj pi : PillarInBox b pj pi -> natural (pillar ni' (pj - j0) (pi - i0)) = pillar ni pj pi.
Proof using All. intros [A B]. unfold natural. destruct (pillar_div ni' (pj - j0) (pi - i0) ltac:(lia)) as [-> ->]. unfold pillar. f_equal; [f_equal|]; lia. Qed.
Lemma local_pillar_range pj pi : PillarInBox b pj pi -> 0 <= pillar ni' (pj - j0) (pi - i0) < count.
Proof using All. intros [A B]. unfold pillar. nia. Qed.
Lemma corner_in j i jp ip : ColumnInBox b j i -> bit jp -> bit ip -> PillarInBox b (j + jp) (i + ip) /\ Meets (j + jp) (i + ip) j i.
Proof using All. intros [A B] X Y. unfold PillarInBox, Meets, bit in *. lia. Qed.
Lemma inv0 : Inv [] (Splits natural []).
Proof using All.
  split; [split; [lia|split; [lia|constructor]]|]. split; [constructor|]. split.
  - intros pj pi P. left. apply natural_at. exact P.
  - intros j i jp ip n' C B1 B2 U. cbn [map extra] in U. destruct (corner_in j i jp ip C B1 B2) as [P _].
    destruct (uses_range _ _ _ _ _ _ _ _ U) as [-> |(e & L & _)]; [|cbn in L; lia].
    replace (j - j0 + jp) with (j + jp - j0) by lia. replace (i - i0 + ip) with (i + ip - i0) by lia.
    unfold src_of. pose proof (local_pillar_range _ _ P). replace (_ <? count) with true by lia. cbn [base].
    rewrite natural_at by exact P. apply uses_nil.
Qed.
Lemma src_of_old s bs ex n' P : (forall l, l <> P -> bs l = base s l) -> (n' <> P \/ bs P = base s P) ->
  n' < count + Z.of_nat (List.length (extra s)) -> src_of (Splits bs (extra s ++ ex)) n' = src_of s n'.
Proof using All.
  intros A B L. unfold src_of. cbn [base extra]. destruct (Z.ltb_spec n' count).
  - destruct (Z.eq_dec n' P) as [-> |N]; [|apply A; exact N]. destruct B as [B|B]; [contradiction|exact B].
  - rewrite map_app. apply app_nth1. rewrite map_length. lia.
Qed.

Lemma step ys x s : Inv ys s -> (exists pj pi, fst x = pillar ni pj pi /\ 0 <= pi <= ni) ->
  Disjoint (ys ++ [x]) -> Shared ni b (ys ++ [x]) -> Inv (ys ++ [x]) (one_split nj ni nj' ni' b (Z.of_nat (List.length ys)) x s).
Proof using All.
  intros (W & F & Hb & Hu) (pj & pi & Ex & Rp) D Sh. destruct x as [p cs]. cbn [fst] in Ex. subst p.
  assert (Old : forall e y, nth_error ys e = Some y -> nth_error (ys ++ [(pillar ni pj pi, cs)]) e = Some y).
  { intros e y E. rewrite nth_error_app1; [exact E|]. apply nth_error_Some. congruence. }
  assert (New : nth_error (ys ++ [(pillar ni pj pi, cs)]) (List.length ys) = Some (pillar ni pj pi, cs)).
  { rewrite nth_error_app2 by lia. rewrite Nat.sub_diag. reflexivity. }
  assert (Dec : PillarInBox b pj pi \/ ~ PillarInBox b pj pi) by (unfold PillarInBox; lia).
  destruct Dec as [Pb|Pb].
  2:{ unfold one_split. cbn [fst]. rewrite (local_out pj pi Rp Pb). split; [exact W|]. split; [exact F|]. split.
      - intros qj qi Q. destruct (Hb qj qi Q) as [E|(e & c & E & A)]; [left; exact E|right; exists e, c; split; [apply Old; exact E|exact A]].
      - intros j i jp ip n' C B1 B2 U. specialize (Hu j i jp ip n' C B1 B2 U). apply (uses_snoc _ _ _ (pillar ni pj pi, cs)) in Hu. cbn [fst snd] in Hu.
        destruct (corner_in j i jp ip C B1 B2) as [Q _]. destruct (Z.eqb_spec (pillar ni (j + jp) (i + ip)) (pillar ni pj pi)) as [E|E]; [|exact Hu].
        apply pillar_inj in E; [|destruct Q; lia|lia]. destruct E as [E1 E2]. rewrite E1, E2 in Q. contradiction. }
  (* base was the primary pillar *)
  assert (B0 : base s (pillar ni' (pj - j0) (pi - i0)) = pillar ni pj pi).
  { destruct (Hb pj pi Pb) as [E|(e & c & E & A)]; [exact E|]. exfalso.
    assert (Le : (e < List.length ys)%nat) by (apply nth_error_Some; congruence).
    destruct (Sh e (List.length ys) pj pi c cs Pb (Old _ _ E) New Le) as (j & i & C & M & N). apply N. apply A; assumption. }
  pose proof (one_split_effect pj pi cs (Z.of_nat (List.length ys)) s Pb ltac:(lia)) as Ef.
  set (n := (nj + 1) * (ni + 1) + Z.of_nat (List.length ys)) in *. set (lp := pillar ni' (pj - j0) (pi - i0)) in *.
  set (s' := one_split _ _ _ _ _ _ _ _) in *. pose proof (local_pillar_range pj pi Pb) as Rlp. fold lp in Rlp.
  assert (LI : forall qj qi, PillarInBox b qj qi -> pillar ni' (qj - j0) (qi - i0) = lp -> qj = pj /\ qi = pi).
  { intros qj qi Q E. unfold lp in E. apply pillar_inj in E; [|destruct Q; lia|destruct Pb; lia]. lia. }
  assert (SrcEq : forall qj qi, PillarInBox b qj qi -> pillar ni qj qi = pillar ni pj pi -> qj = pj /\ qi = pi).
  { intros qj qi Q E. apply pillar_inj in E; [exact E|destruct Q; lia|lia]. }
  (* what the columns use *)
  assert (Bs : forall ex bs j i jp ip n', (forall l, l <> lp -> bs l = base s l) -> ColumnInBox b j i -> bit jp -> bit ip ->
     (j + jp <> pj \/ i + ip <> pi) ->
     Uses nj' ni' (map fst (extra s)) (j - j0 + jp) (i - i0 + ip) (j - j0) (i - i0) n' ->
     Uses nj ni (ys ++ [(pillar ni pj pi, cs)]) (j + jp) (i + ip) j i (src_of (Splits bs (extra s ++ ex)) n')).
  { intros ex bs j i jp ip n' Hbs C B1 B2 N U. pose proof (Hu j i jp ip n' C B1 B2 U) as V.
    apply (uses_snoc _ _ _ (pillar ni pj pi, cs)) in V. cbn [fst snd] in V. destruct (corner_in j i jp ip C B1 B2) as [Q _].
    destruct (Z.eqb_spec (pillar ni (j + jp) (i + ip)) (pillar ni pj pi)) as [E|E]; [apply SrcEq in E; [lia|exact Q]|]. cbn [andb] in V.
    rewrite (src_of_old s bs ex n' lp); [exact V|exact Hbs| |].
    - left. intros ->. destruct (uses_range _ _ _ _ _ _ _ _ U) as [E1|(e & L & E1)]; [|lia].
      replace (j - j0 + jp) with (j + jp - j0) in E1 by lia. replace (i - i0 + ip) with (i + ip - i0) in E1 by lia. symmetry in E1. apply LI in E1; [lia|exact Q].
    - destruct (uses_range _ _ _ _ _ _ _ _ U) as [E1|(e & L & E1)]; [|rewrite map_length in L; lia].
      replace (j - j0 + jp) with (j + jp - j0) in E1 by lia. replace (i - i0 + ip) with (i + ip - i0) in E1 by lia. pose proof (local_pillar_range _ _ Q). lia. }
  assert (I2 : forall ex v, s' = Splits (fun l => if l =? lp then v else base s l) ex -> (v = pillar ni pj pi \/ forall j i, ColumnInBox b j i -> Meets pj pi j i -> In (column ni j i) cs) ->
     forall qj qi, PillarInBox b qj qi -> base s' (pillar ni' (qj - j0) (qi - i0)) = pillar ni qj qi \/
     exists e c, nth_error (ys ++ [(pillar ni pj pi, cs)]) e = Some (pillar ni qj qi, c) /\ forall j i, ColumnInBox b j i -> Meets qj qi j i -> In (column ni j i) c).
  { intros ex v -> Hv qj qi Q. cbn [base]. destruct (Z.eqb_spec (pillar ni' (qj - j0) (qi - i0)) lp) as [E|E].
    - apply LI in E; [|exact Q]. destruct E as [-> ->]. destruct Hv as [-> |A]; [left; reflexivity|]. right. exists (List.length ys), cs. split; [exact New|exact A].
    - destruct (Hb qj qi Q) as [E'|(e & c & E' & A)]; [left; exact E'|right; exists e, c; split; [apply Old; exact E'|exact A]]. }
  assert (Dd : forall j i jp ip, j + jp = pj -> i + ip = pi -> ColumnInBox b j i -> In (column ni j i) cs -> forall m, Uses nj ni ys pj pi j i m -> m = pillar ni pj pi).
  { intros j i jp ip E1 E2 C H m [(e & (c & E & Hc) & _ & _)|(_ & ->)]; [|reflexivity]. exfalso.
    assert (Le : (e < List.length ys)%nat) by (apply nth_error_Some; congruence).
    pose proof (D e (List.length ys) _ _ _ _ (Old _ _ E) New Hc H). lia. }
  assert (Pn : pillar ni pj pi < (nj + 1) * (ni + 1)) by (destruct Pb; unfold pillar; nia).
  (* the columns at the pillar itself *)
  destruct Ef as [A E|A E|m E Hm Tm]; fold lp in E.
  - (* all *)
    split; [rewrite E; exact W|]. split; [rewrite E; exact F|]. split; [apply (I2 _ _ E); right; exact A|].
    intros j i jp ip n' C B1 B2 U. rewrite E in U. cbn [extra] in U.
    assert (Dc : (j + jp = pj /\ i + ip = pi) \/ (j + jp <> pj \/ i + ip <> pi)) by lia. destruct Dc as [[E1 E2]|Ne].
    2:{ rewrite E, <- (app_nil_r (extra s)). apply Bs; try assumption. intros l Nl. destruct (Z.eqb_spec l lp); [contradiction|reflexivity]. }
    destruct (corner_in j i jp ip C B1 B2) as [_ M]. rewrite E1, E2 in M. pose proof (A j i C M) as H.
    pose proof (Hu j i jp ip n' C B1 B2 U) as V. rewrite E1, E2 in V. pose proof (Dd j i jp ip E1 E2 C H _ V) as V1.
    assert (N1 : n' = lp).
    { destruct (uses_range _ _ _ _ _ _ _ _ U) as [X|(e & L & X)]; [rewrite X; unfold lp; f_equal; lia|]. exfalso.
      unfold src_of in V1. replace (n' <? count) with false in V1 by lia. replace (Z.to_nat (n' - count)) with e in V1 by lia.
      rewrite map_length in L. rewrite Forall_forall in F. destruct (nth_error (extra s) e) as [y|] eqn:Y; [|apply nth_error_None in Y; lia].
      rewrite (nth_error_nth _ _ _ (map_nth_error snd _ _ Y)) in V1. apply nth_error_In in Y. specialize (F _ Y). lia. }
    rewrite E1, E2, N1, E. unfold src_of. cbn [base]. replace (lp <? count) with true by lia. rewrite Z.eqb_refl.
    apply (uses_snoc _ _ _ (pillar ni pj pi, cs)) in V. cbn [fst snd] in V. rewrite Z.eqb_refl in V. apply existsb_eqb in H. rewrite H in V. exact V.
  - (* none *)
    split; [rewrite E; exact W|]. split; [rewrite E; exact F|]. split; [apply (I2 _ _ E); left; reflexivity|].
    intros j i jp ip n' C B1 B2 U. rewrite E in U. cbn [extra] in U.
    assert (Dc : (j + jp = pj /\ i + ip = pi) \/ (j + jp <> pj \/ i + ip <> pi)) by lia. destruct Dc as [[E1 E2]|Ne].
    2:{ rewrite E, <- (app_nil_r (extra s)). apply Bs; try assumption. intros l Nl. destruct (Z.eqb_spec l lp); [contradiction|reflexivity]. }
    destruct (corner_in j i jp ip C B1 B2) as [_ M]. rewrite E1, E2 in M. pose proof (A j i C M) as H.
    pose proof (Hu j i jp ip n' C B1 B2 U) as V. apply (uses_snoc _ _ _ (pillar ni pj pi, cs)) in V. cbn [fst snd] in V.
    destruct (existsb (Z.eqb (column ni j i)) cs) eqn:X; [apply existsb_eqb in X; contradiction|]. rewrite andb_false_r in V.
    rewrite E, <- (app_nil_r (extra s)). rewrite (src_of_old s _ [] n' lp); [exact V| | |].
    + intros l Nl. cbv beta. replace (l =? lp) with false by lia. reflexivity.
    + right. rewrite Z.eqb_refl. symmetry. exact B0.
    + destruct (uses_range _ _ _ _ _ _ _ _ U) as [X1|(e & L & X1)]; [|rewrite map_length in L; lia].
      assert (n' = lp) by (rewrite X1; unfold lp; f_equal; lia). lia.
  - (* some *)
    assert (Wn : WellFormed nj' ni' (map fst (extra s'))).
    { rewrite E. cbn [extra]. rewrite map_app. destruct W as (W1 & W2 & W3). split; [exact W1|]. split; [exact W2|]. apply Forall_app. split; [exact W3|].
      constructor; [|constructor]. cbn [fst snd]. split; [exact Rlp|exact Tm]. }
    split; [exact Wn|]. split; [rewrite E; cbn [extra]; apply Forall_app; split; [exact F|constructor; [cbn; lia|constructor]]|].
    split; [apply (I2 _ _ E); left; reflexivity|].
    intros j i jp ip n' C B1 B2 U. rewrite E in U. cbn [extra] in U. rewrite map_app in U. cbn [map fst] in U.
    destruct (uses_exists nj' ni' (map fst (extra s)) (j - j0 + jp) (i - i0 + ip) (j - j0) (i - i0)) as (n0 & U0).
    pose proof (uses_snoc _ _ _ (lp, m) _ _ _ _ _ U0) as U1. cbn [fst snd] in U1. rewrite (uses_functional _ _ _ _ _ _ _ _ _ U U1). clear U U1.
    rewrite E.
    destruct (corner_in j i jp ip C B1 B2) as [Q M].
    assert (OtherP : j + jp <> pj \/ i + ip <> pi ->
      Uses nj ni (ys ++ [(pillar ni pj pi, cs)]) (j + jp) (i + ip) j i
       (src_of (Splits (fun l => if l =? lp then pillar ni pj pi else base s l) (extra s ++ [(lp, m, n)]))
         (if (pillar ni' (j - j0 + jp) (i - i0 + ip) =? lp) && existsb (Z.eqb (column ni' (j - j0) (i - i0))) m then (nj' + 1) * (ni' + 1) + Z.of_nat (List.length (map fst (extra s))) else n0))).
    { intros Ne. destruct (Z.eqb_spec (pillar ni' (j - j0 + jp) (i - i0 + ip)) lp) as [X|X].
      - exfalso. replace (j - j0 + jp) with (j + jp - j0) in X by lia. replace (i - i0 + ip) with (i + ip - i0) in X by lia. apply LI in X; [lia|exact Q].
      - cbn [andb]. apply Bs; try assumption. intros l Nl. cbv beta. replace (l =? lp) with false by lia. reflexivity. }
    destruct (Z.eq_dec (j + jp) pj) as [E1|E1]; [|apply OtherP; lia]. destruct (Z.eq_dec (i + ip) pi) as [E2|E2]; [|apply OtherP; lia].
    clear OtherP. rewrite E1, E2 in M.
    replace (pillar ni' (j - j0 + jp) (i - i0 + ip)) with lp by (unfold lp; f_equal; lia). rewrite Z.eqb_refl. cbn [andb].
    pose proof (Hu j i jp ip n0 C B1 B2 U0) as V. apply (uses_snoc _ _ _ (pillar ni pj pi, cs)) in V. cbn [fst snd] in V.
    rewrite E1, E2, Z.eqb_refl in V. cbn [andb] in V. rewrite E1, E2.
    assert (Eb : existsb (Z.eqb (column ni' (j - j0) (i - i0))) m = existsb (Z.eqb (column ni j i)) cs).
    { apply Bool.eq_true_iff_eq. rewrite !existsb_eqb. apply Hm; assumption. }
    rewrite Eb. destruct (existsb (Z.eqb (column ni j i)) cs) eqn:X.
    + rewrite map_length. unfold src_of. replace (_ <? count) with false by lia. cbn [extra]. rewrite map_app, app_nth2 by (rewrite map_length; lia).
      rewrite map_length. replace (_ - _)%nat with O by lia. exact V.
    + rewrite (src_of_old s _ _ n0 lp); [exact V| | |].
      * intros l Nl. cbv beta. replace (l =? lp) with false by lia. reflexivity.
      * right. rewrite Z.eqb_refl. symmetry. exact B0.
      * destruct (uses_range _ _ _ _ _ _ _ _ U0) as [X1|(e & L & X1)]; [|rewrite map_length in L; lia].
        assert (n0 = lp) by (rewrite X1; unfold lp; f_equal; lia). lia.
Qed.

Lemma all_splits_inv xs : forall ys s, Inv ys s -> Forall (fun x => exists pj pi, fst x = pillar ni pj pi /\ 0 <= pi <= ni) xs ->
  Disjoint (ys ++ xs) -> Shared ni b (ys ++ xs) -> Inv (ys ++ xs) (all_splits nj ni nj' ni' b (Z.of_nat (List.length ys)) xs s).
Proof using All.
  induction xs as [|x xs IH]; intros ys s Iv Fx D Sh; [rewrite app_nil_r; exact Iv|]. cbn [all_splits].
  inversion Fx; subst. replace (ys ++ x :: xs) with ((ys ++ [x]) ++ xs) in * by (rewrite <- app_assoc; reflexivity).
  replace (Z.of_nat (List.length ys) + 1) with (Z.of_nat (List.length (ys ++ [x]))) by (rewrite app_length; cbn; lia).
  assert (Pre : forall e y, nth_error (ys ++ [x]) e = Some y -> nth_error ((ys ++ [x]) ++ xs) e = Some y).
  { intros e y E. rewrite nth_error_app1; [exact E|]. apply nth_error_Some. congruence. }
  apply IH; try assumption. apply step; try assumption.
  - intros e e' p cs cs' c E E'. apply D with (1 := Pre _ _ E) (2 := Pre _ _ E').
  - intros e e' pj pi cs cs' Pb E E'. apply Sh with (1 := Pb) (2 := Pre _ _ E) (3 := Pre _ _ E').
Qed.
End Extract.
