(** PillarProofs.v: specification of split pillars and lemmas for PillarProps. *)
From Verif Require Import Base PillarModel.

(** * Specification *)

(** A grid of nj by ni columns has (nj+1) by (ni+1) primary pillars.  A fault is described by
    extra pillars: each names the primary pillar it doubles and the columns that use it. *)
Definition extras := list (Z * list Z).
Definition pillar (ni pj pi : Z) : Z := pj * (ni + 1) + pi.
Definition column (ni j i : Z) : Z := j * ni + i.
Fixpoint cumul (acc : Z) (xs : extras) : list Z :=
  match xs with [] => [] | x :: r => let a := acc + Z.of_nat (List.length (snd x)) in a :: cumul a r end.
(** the three arrays a grid keeps for them: pillar indices, a flat list of columns, and the
    cumulative lengths *)
Definition of_extras (nj ni : Z) (xs : extras) : sgrid :=
  SGrid nj ni true (map fst xs) (List.concat (map snd xs)) (cumul 0 xs).
(** a column touches a pillar when the pillar is one of its four corners *)
Definition Touches (nj ni p c : Z) : Prop :=
  exists j i jp ip, 0 <= j < nj /\ 0 <= i < ni /\ 0 <= jp <= 1 /\ 0 <= ip <= 1 /\
    c = column ni j i /\ p = pillar ni (j + jp) (i + ip).
Definition WellFormed (nj ni : Z) (xs : extras) : Prop :=
  0 < nj /\ 0 < ni /\
  Forall (fun x => 0 <= fst x < (nj + 1) * (ni + 1) /\ Forall (Touches nj ni (fst x)) (snd x)) xs.
(** extra pillar number e doubles pillar (pj, pi) for column (j, i) *)
Definition Doubles (ni : Z) (xs : extras) (pj pi j i : Z) (e : nat) : Prop :=
  exists cs, nth_error xs e = Some (pillar ni pj pi, cs) /\ In (column ni j i) cs.
(** column (j, i) uses pillar number n at the position of the primary pillar (pj, pi) *)
Definition Uses (nj ni : Z) (xs : extras) (pj pi j i n : Z) : Prop :=
  (exists e, Doubles ni xs pj pi j i e /\ (forall e', Doubles ni xs pj pi j i e' -> (e' <= e)%nat) /\
             n = (nj + 1) * (ni + 1) + Z.of_nat e) \/
  ((forall e, ~ Doubles ni xs pj pi j i e) /\ n = pillar ni pj pi).
(** the face between columns (j, i) and (j+1, i), or (j, i) and (j, i+1), is split when the two
    columns do not use the same pillars along it *)
Definition SplitJ nj ni xs j i : Prop :=
  exists q n1 n2, 0 <= q <= 1 /\ Uses nj ni xs (j + 1) (i + q) j i n1 /\ Uses nj ni xs (j + 1) (i + q) (j + 1) i n2 /\ n1 <> n2.
Definition SplitI nj ni xs j i : Prop :=
  exists q n1 n2, 0 <= q <= 1 /\ Uses nj ni xs (j + q) (i + 1) j i n1 /\ Uses nj ni xs (j + q) (i + 1) j (i + 1) n2 /\ n1 <> n2.
(** the primary pillar is doubled by some extra pillar *)
Definition IsSplitPillar (ni : Z) (xs : extras) (pj pi : Z) : Prop := In (pillar ni pj pi) (map fst xs).

(** * Lemmas *)

Lemma divmod_unique n a b : 0 <= b < n -> (a * n + b) / n = a /\ (a * n + b) mod n = b.
Proof. intros H. split; [symmetry; apply Z.div_unique with b; lia|symmetry; apply Z.mod_unique with a; lia]. Qed.
Lemma pillar_inj ni pj pi pj' pi' : 0 <= pi <= ni -> 0 <= pi' <= ni -> pillar ni pj pi = pillar ni pj' pi' -> pj = pj' /\ pi = pi'.
Proof.
  unfold pillar. intros H1 H2 E. destruct (divmod_unique (ni + 1) pj pi) as [A B]; [lia|].
  destruct (divmod_unique (ni + 1) pj' pi') as [A' B']; [lia|]. rewrite E in *. split; congruence.
Qed.
Lemma column_inj ni j i j' i' : 0 <= i < ni -> 0 <= i' < ni -> column ni j i = column ni j' i' -> j = j' /\ i = i'.
Proof.
  unfold column. intros H1 H2 E. destruct (divmod_unique ni j i) as [A B]; [lia|].
  destruct (divmod_unique ni j' i') as [A' B']; [lia|]. rewrite E in *. split; congruence.
Qed.

Lemma zget_nth {A} (l : list A) k x : nth_error l k = Some x -> zget l (Z.of_nat k) = Ok x.
Proof.
  intros H. assert (L : (k < List.length l)%nat) by (apply nth_error_Some; congruence).
  unfold zget, np_index. destruct (Z.leb_spec 0 (Z.of_nat k)); [|lia].
  destruct (Z.ltb_spec (Z.of_nat k) (Z.of_nat (List.length l))); [|lia]. cbn. rewrite Nat2Z.id, H. reflexivity.
Qed.
Lemma fold_res_app {A B} (f : B -> A -> res A) l1 l2 a : fold_res f (l1 ++ l2) a = (do a' <- fold_res f l1 a; fold_res f l2 a').
Proof. revert a. induction l1 as [|b l1 IH]; intros a; [reflexivity|]. cbn. destruct (f b a); cbn; auto. Qed.
Lemma fold_res_ext {A B} (f g : B -> A -> res A) l a : (forall b a, In b l -> f b a = g b a) -> fold_res f l a = fold_res g l a.
Proof.
  revert a. induction l as [|b l IH]; intros a H; [reflexivity|]. cbn. rewrite H by (left; reflexivity).
  destruct (g b a); cbn; auto. apply IH. intros; apply H; right; assumption.
Qed.
Lemma fold_slice {A} (F : Z -> A -> res A) pre cs post a :
  fold_res (fun c m => do col <- zget (pre ++ cs ++ post) c; F col m)
    (zrange2 (Z.of_nat (List.length pre)) (Z.of_nat (List.length pre) + Z.of_nat (List.length cs))) a = fold_res F cs a.
Proof.
  unfold zrange2. replace (Z.to_nat _) with (List.length cs) by lia.
  revert pre a. induction cs as [|c cs IH]; intros pre a; [reflexivity|].
  cbn [List.length seq map fold_res]. replace (Z.of_nat (List.length pre) + Z.of_nat 0) with (Z.of_nat (List.length pre)) by lia.
  rewrite (zget_nth (pre ++ (c :: cs) ++ post) (List.length pre) c).
  2:{ rewrite nth_error_app2 by lia. rewrite Nat.sub_diag. reflexivity. }
  cbn [bind]. destruct (F c a) as [a'|e]; [|reflexivity]. cbn [bind].
  rewrite <- (IH (pre ++ [c]) a'). rewrite app_length. cbn [List.length].
  rewrite <- seq_shift, map_map. rewrite <- app_assoc. cbn [app].
  f_equal. apply map_ext. intros; lia.
Qed.
Lemma cumul_length acc xs : List.length (cumul acc xs) = List.length xs.
Proof. revert acc. induction xs; intros; cbn; auto. Qed.
Lemma cumul_nth xs : forall acc e, (e < List.length xs)%nat ->
  nth_error (cumul acc xs) e = Some (acc + Z.of_nat (List.length (List.concat (map snd (firstn (S e) xs))))).
Proof.
  induction xs as [|x xs IH]; intros acc e L; [cbn in L; lia|]. destruct e as [|e].
  - cbn. rewrite app_nil_r. reflexivity.
  - cbn [cumul nth_error]. rewrite IH by (cbn in L; lia). cbn [firstn map List.concat]. rewrite !app_length. f_equal. lia.
Qed.

(** the loop over the columns of extra pillar e *)
Lemma extra_loop {A} (F : Z -> A -> res A) nj ni xs e x (a : A) :
  nth_error xs e = Some x ->
  (do start <- (if Z.of_nat e =? 0 then Ok 0 else zget (g_cl (of_extras nj ni xs)) (Z.of_nat e - 1));
   do stop <- zget (g_cl (of_extras nj ni xs)) (Z.of_nat e);
   fold_res (fun c m => do col <- zget (g_cols (of_extras nj ni xs)) c; F col m) (zrange2 start stop) a) = fold_res F (snd x) a.
Proof.
  intros Hx. cbn [of_extras g_cl g_cols]. assert (L : (e < List.length xs)%nat) by (apply nth_error_Some; congruence).
  assert (S1 : (if Z.of_nat e =? 0 then Ok 0 else zget (cumul 0 xs) (Z.of_nat e - 1)) = Ok (Z.of_nat (List.length (List.concat (map snd (firstn e xs)))))).
  { destruct e as [|e]; [reflexivity|]. replace (Z.of_nat (S e) =? 0) with false by lia.
    replace (Z.of_nat (S e) - 1) with (Z.of_nat e) by lia. apply zget_nth. rewrite cumul_nth by lia. f_equal. }
  rewrite S1. cbn [bind]. rewrite (zget_nth _ e _ (cumul_nth xs 0 e L)). cbn [bind].
  assert (E : xs = firstn e xs ++ x :: skipn (S e) xs).
  { clear - Hx. revert e Hx. induction xs as [|y xs IH]; intros [|e] H; try discriminate; cbn in *; [injection H as ->; reflexivity|].
    f_equal. apply IH. exact H. }
  assert (E2 : List.concat (map snd xs) = List.concat (map snd (firstn e xs)) ++ snd x ++ List.concat (map snd (skipn (S e) xs))).
  { rewrite E at 1. rewrite map_app, concat_app. reflexivity. }
  assert (E3 : firstn (S e) xs = firstn e xs ++ [x]).
  { rewrite E at 1. rewrite firstn_app. rewrite firstn_firstn. rewrite Nat.min_r by lia.
    rewrite firstn_length, Nat.min_l by lia. replace (S e - e)%nat with 1%nat by lia. reflexivity. }
  rewrite E2, E3, map_app, concat_app, app_length. cbn [map List.concat]. rewrite app_nil_r.
  rewrite Z.add_0_l, Nat2Z.inj_add. apply fold_slice.
Qed.

Lemma natural_map_spec ni j i jp ip : 0 <= jp <= 1 -> 0 <= ip <= 1 -> natural_map ni j i jp ip = pillar ni (j + jp) (i + ip).
Proof.
  intros H1 H2. unfold natural_map, pillar. assert (A : jp = 0 \/ jp = 1) by lia. assert (B : ip = 0 \/ ip = 1) by lia.
  destruct A as [-> | ->], B as [-> | ->]; cbn [Z.eqb]; ring.
Qed.

Lemma np_index_in n i : 0 <= i < n -> np_index n i = Ok i.
Proof. intros H. unfold np_index. destruct (Z.leb_spec 0 i), (Z.ltb_spec i n); try lia. reflexivity. Qed.
Lemma assert_true b : b = true -> assert_ b = Ok tt.
Proof. intros ->. reflexivity. Qed.

(** effect of the columns of one extra pillar on the mapping *)
Definition claims_col (nj ni p v : Z) (cs : list Z) (m m' : cpm_t) : Prop :=
  forall j i jp ip, 0 <= j < nj -> 0 <= i < ni -> 0 <= jp <= 1 -> 0 <= ip <= 1 ->
    m' j i jp ip = if (pillar ni (j + jp) (i + ip) =? p) && existsb (Z.eqb (column ni j i)) cs then v else m j i jp ip.
Definition claim1 (g : sgrid) (pj pi v col : Z) (m : cpm_t) : res cpm_t :=
  let j := col / g_ni g in let i := col mod g_ni g in
  let jp := pj - j in let ip := pi - i in
  do _ <- assert_ (((jp =? 0) || (jp =? 1)) && ((ip =? 0) || (ip =? 1)));
  do j' <- np_index (g_nj g) j;
  do i' <- np_index (g_ni g) i;
  Ok (upd4 m j' i' jp ip v).
Lemma touches_pos nj ni p c : 0 < ni -> Touches nj ni p c ->
  let pj := p / (ni + 1) in let pi := p mod (ni + 1) in let j := c / ni in let i := c mod ni in
  0 <= j < nj /\ 0 <= i < ni /\ 0 <= pj - j <= 1 /\ 0 <= pi - i <= 1 /\ c = column ni j i /\ p = pillar ni pj pi.
Proof.
  intros Hn (j & i & jp & ip & Hj & Hi & H1 & H2 & -> & ->). unfold column, pillar.
  destruct (divmod_unique ni j i Hi) as [-> ->]. destruct (divmod_unique (ni + 1) (j + jp) (i + ip)) as [-> ->]; [lia|].
  cbn. repeat split; lia.
Qed.
Lemma claim1_loop nj ni xs p v cs : 0 < ni -> Forall (Touches nj ni p) cs -> forall m,
  exists m', fold_res (claim1 (of_extras nj ni xs) (p / (ni + 1)) (p mod (ni + 1)) v) cs m = Ok m' /\ claims_col nj ni p v cs m m'.
Proof.
  intros Hn HF. induction HF as [|c cs T _ IH]; intros m.
  - exists m. split; [reflexivity|]. intros j i jp ip _ _ _ _. cbn. rewrite andb_false_r. reflexivity.
  - pose proof (touches_pos nj ni p c Hn T) as (Hj & Hi & Hp & Hq & Ec & Ep).
    cbn [fold_res]. unfold claim1 at 1. cbn [of_extras g_ni g_nj].
    rewrite assert_true by lia. cbn [bind]. rewrite !np_index_in by assumption. cbn [bind].
    destruct (IH (upd4 m (c / ni) (c mod ni) (p / (ni + 1) - c / ni) (p mod (ni + 1) - c mod ni) v)) as (m' & E & C).
    exists m'. split; [exact E|]. intros j i jp ip Bj Bi Bp Bq. rewrite (C j i jp ip Bj Bi Bp Bq). cbn [existsb].
    destruct (pillar ni (j + jp) (i + ip) =? p) eqn:Q.
    + cbn. destruct (existsb (Z.eqb (column ni j i)) cs) eqn:X; [rewrite orb_true_r; reflexivity|]. rewrite orb_false_r.
      apply Z.eqb_eq in Q. rewrite Ep in Q. apply pillar_inj in Q; [|lia|]; [|pose proof (Z.mod_pos_bound p (ni + 1)); lia].
      unfold upd4. destruct (Z.eqb_spec (column ni j i) c) as [EE|NE].
      * rewrite Ec in EE. apply column_inj in EE; [|lia|lia]. destruct EE as [-> ->].
        rewrite !Z.eqb_refl. destruct Q as [<- <-].
        replace (c / ni + jp - c / ni) with jp by lia. replace (c mod ni + ip - c mod ni) with ip by lia.
        rewrite !Z.eqb_refl. reflexivity.
      * destruct (Z.eqb_spec j (c / ni)) as [->|]; [|reflexivity]. destruct (Z.eqb_spec i (c mod ni)) as [->|]; [|reflexivity].
        exfalso. apply NE. rewrite Ec at 3. reflexivity.
    + cbn. unfold upd4. destruct (Z.eqb_spec j (c / ni)) as [->|]; [|reflexivity]. destruct (Z.eqb_spec i (c mod ni)) as [->|]; [|reflexivity].
      destruct (Z.eqb_spec jp (p / (ni + 1) - c / ni)) as [->|]; [|reflexivity].
      destruct (Z.eqb_spec ip (p mod (ni + 1) - c mod ni)) as [->|]; [|reflexivity].
      exfalso. apply Z.eqb_neq in Q. apply Q. rewrite Ep at 3. f_equal; lia.
Qed.

Lemma nth_error_split_at {A} (l : list A) n x : nth_error l n = Some x -> firstn (S n) l = firstn n l ++ [x].
Proof. revert n. induction l as [|y l IH]; intros [|n] H; try discriminate; cbn in *; [injection H as ->; reflexivity|]. f_equal. apply IH. exact H. Qed.
Lemma nth_error_firstn_lt {A} (l : list A) n k : (k < n)%nat -> nth_error (firstn n l) k = nth_error l k.
Proof. revert n l. induction k; intros [|n] [|x l] H; try lia; cbn; auto. apply IHk. lia. Qed.
Lemma nth_error_firstn_some {A} (l : list A) n k x : nth_error (firstn n l) k = Some x -> (k < n)%nat /\ nth_error l k = Some x.
Proof.
  intros H. assert (L : (k < List.length (firstn n l))%nat) by (apply nth_error_Some; congruence).
  rewrite firstn_length in L. split; [lia|]. rewrite nth_error_firstn_lt in H by lia. exact H.
Qed.

Lemma doubles_snoc ni xs x pj pi j i e : Doubles ni (xs ++ [x]) pj pi j i e <->
  (Doubles ni xs pj pi j i e \/ (e = List.length xs /\ fst x = pillar ni pj pi /\ In (column ni j i) (snd x))).
Proof.
  unfold Doubles. split.
  - intros (cs & H & K). destruct (Nat.lt_ge_cases e (List.length xs)) as [L|G].
    + rewrite nth_error_app1 in H by lia. left; eauto.
    + rewrite nth_error_app2 in H by lia. destruct (e - List.length xs)%nat as [|n] eqn:E; [|destruct n; discriminate].
      cbn in H. injection H as ->. right. repeat split; [lia|exact K].
  - intros [(cs & H & K)|(-> & E & K)].
    + exists cs. split; [|exact K]. rewrite nth_error_app1; [exact H|]. apply nth_error_Some. congruence.
    + exists (snd x). split; [|exact K]. rewrite nth_error_app2 by lia. rewrite Nat.sub_diag. cbn. destruct x; cbn in *; congruence.
Qed.
Lemma doubles_lt ni xs pj pi j i e : Doubles ni xs pj pi j i e -> (e < List.length xs)%nat.
Proof. intros (cs & H & _). apply nth_error_Some. congruence. Qed.

Lemma existsb_eqb c cs : existsb (Z.eqb c) cs = true <-> In c cs.
Proof. rewrite existsb_exists. split; [intros (x & H & E); apply Z.eqb_eq in E; subst; exact H|intros H; exists c; split; [exact H|apply Z.eqb_refl]]. Qed.

Lemma uses_snoc nj ni xs x pj pi j i n :
  Uses nj ni xs pj pi j i n ->
  Uses nj ni (xs ++ [x]) pj pi j i
    (if (pillar ni pj pi =? fst x) && existsb (Z.eqb (column ni j i)) (snd x) then (nj + 1) * (ni + 1) + Z.of_nat (List.length xs) else n).
Proof.
  intros U. destruct ((pillar ni pj pi =? fst x) && existsb (Z.eqb (column ni j i)) (snd x)) eqn:Q.
  - apply andb_true_iff in Q as [Q1 Q2]. apply Z.eqb_eq in Q1. apply existsb_eqb in Q2. left. exists (List.length xs).
    split; [apply doubles_snoc; right; auto|]. split; [|reflexivity].
    intros e' D. apply doubles_snoc in D as [D|D]; [apply doubles_lt in D|]; lia.
  - assert (N : ~ (fst x = pillar ni pj pi /\ In (column ni j i) (snd x))).
    { intros [A B]. apply existsb_eqb in B. rewrite A, Z.eqb_refl, B in Q. discriminate. }
    destruct U as [(e & D & M & ->)|(D & ->)].
    + left. exists e. split; [apply doubles_snoc; left; exact D|]. split; [|reflexivity].
      intros e' D'. apply doubles_snoc in D' as [D'|D']; [auto|tauto].
    + right. split; [|reflexivity]. intros e' D'. apply doubles_snoc in D' as [D'|D']; [eapply D; eauto|tauto].
Qed.

Lemma zrange_of_nat_S k : zrange (Z.of_nat (S k)) = zrange (Z.of_nat k) ++ [Z.of_nat k].
Proof. unfold zrange. rewrite !Nat2Z.id, seq_S, map_app. reflexivity. Qed.

Lemma create_spec nj ni xs : WellFormed nj ni xs ->
  exists m, create_column_pillar_mapping (of_extras nj ni xs) = Ok m /\
    forall j i jp ip, 0 <= j < nj -> 0 <= i < ni -> 0 <= jp <= 1 -> 0 <= ip <= 1 ->
      Uses nj ni xs (j + jp) (i + ip) j i (m j i jp ip).
Proof.
  intros (Hj & Hi & HF). unfold create_column_pillar_mapping. cbn [of_extras g_has_split g_spi g_ni]. rewrite map_length.
  assert (G : forall k, (k <= List.length xs)%nat -> exists m,
     fold_res (one_extra (of_extras nj ni xs)) (zrange (Z.of_nat k)) (natural_map ni) = Ok m /\
     forall j i jp ip, 0 <= j < nj -> 0 <= i < ni -> 0 <= jp <= 1 -> 0 <= ip <= 1 ->
      Uses nj ni (firstn k xs) (j + jp) (i + ip) j i (m j i jp ip)).
  { induction k as [|k IH]; intros L.
    - exists (natural_map ni). split; [reflexivity|]. intros j i jp ip _ _ B1 B2. right. split; [|apply natural_map_spec; assumption].
      intros e (cs & H & _). destruct e; discriminate.
    - destruct IH as (m & E & U); [lia|]. rewrite zrange_of_nat_S, fold_res_app, E. cbn [bind fold_res].
      destruct (nth_error xs k) as [x|] eqn:X; [|apply nth_error_None in X; lia].
      assert (Fx : 0 <= fst x < (nj + 1) * (ni + 1) /\ Forall (Touches nj ni (fst x)) (snd x)) by (rewrite Forall_forall in HF; apply HF; eapply nth_error_In; exact X).
      destruct Fx as [_ Fx].
      destruct (claim1_loop nj ni xs (fst x) ((nj + 1) * (ni + 1) + Z.of_nat k) (snd x) Hi Fx m) as (m' & E' & C).
      assert (O1 : one_extra (of_extras nj ni xs) (Z.of_nat k) m = Ok m').
      { unfold one_extra. rewrite (zget_nth (g_spi (of_extras nj ni xs)) k (fst x)) by (cbn; rewrite nth_error_map, X; reflexivity).
        cbn [bind]. rewrite <- E'. rewrite <- (extra_loop _ nj ni xs k x m X). reflexivity. }
      rewrite O1. cbn [bind]. exists m'. split; [reflexivity|]. intros j i jp ip B1 B2 B3 B4.
      rewrite (C j i jp ip B1 B2 B3 B4). rewrite (nth_error_split_at _ _ _ X).
      replace (Z.of_nat k) with (Z.of_nat (List.length (firstn k xs))) by (rewrite firstn_length; lia).
      apply uses_snoc. apply U; assumption. }
  destruct (G (List.length xs) (le_n _)) as (m & E & U). exists m. split; [exact E|]. rewrite firstn_all in U. exact U.
Qed.

Lemma uses_functional nj ni xs pj pi j i n n' : Uses nj ni xs pj pi j i n -> Uses nj ni xs pj pi j i n' -> n = n'.
Proof.
  intros [(e & D & M & ->)|(D & ->)] [(e' & D' & M' & ->)|(D' & ->)]; try reflexivity.
  - specialize (M e' D'). specialize (M' e D). lia.
  - exfalso. eapply D'; eauto.
  - exfalso. eapply D; eauto.
Qed.

(** * The four columns round a pillar *)
Definition fours (nj ni v j0 i0 : Z) (cs : list Z) (m m' : quad) : Prop :=
  forall a b, 0 <= a <= 1 -> 0 <= b <= 1 -> 0 <= j0 - 1 + a < nj -> 0 <= i0 - 1 + b < ni ->
    m' a b = if existsb (Z.eqb (column ni (j0 - 1 + a) (i0 - 1 + b))) cs then v else m a b.
Definition four1 (g : sgrid) (j0 i0 e col : Z) (f : quad) : res quad :=
  let a := col / g_ni g - (j0 - 1) in let b := col mod g_ni g - (i0 - 1) in
  do _ <- assert_ (((a =? 0) || (a =? 1)) && ((b =? 0) || (b =? 1)));
  Ok (upd2 f a b ((g_nj g + 1) * (g_ni g + 1) + e)).
Lemma four1_loop nj ni xs e j0 i0 cs : 0 < ni -> 0 <= i0 <= ni -> Forall (Touches nj ni (pillar ni j0 i0)) cs -> forall m,
  exists m', fold_res (four1 (of_extras nj ni xs) j0 i0 e) cs m = Ok m' /\ fours nj ni ((nj + 1) * (ni + 1) + e) j0 i0 cs m m'.
Proof.
  intros Hn Hi0 HF. induction HF as [|c cs T _ IH]; intros m.
  - exists m. split; [reflexivity|]. intros a b _ _ _ _. reflexivity.
  - pose proof (touches_pos nj ni _ c Hn T) as (Hj & Hi & Hp & Hq & Ec & Ep). cbn zeta in *.
    assert (P : pillar ni j0 i0 / (ni + 1) = j0 /\ pillar ni j0 i0 mod (ni + 1) = i0) by (apply divmod_unique; lia).
    destruct P as [P1 P2]. rewrite P1, P2 in *.
    cbn [fold_res]. unfold four1 at 1. cbn [of_extras g_ni g_nj].
    rewrite assert_true by lia. cbn [bind].
    destruct (IH (upd2 m (c / ni - (j0 - 1)) (c mod ni - (i0 - 1)) ((nj + 1) * (ni + 1) + e))) as (m' & E & C).
    exists m'. split; [exact E|]. intros a b Ba Bb Bj Bi. rewrite (C a b Ba Bb Bj Bi). cbn [existsb].
    destruct (existsb (Z.eqb (column ni (j0 - 1 + a) (i0 - 1 + b))) cs) eqn:X; [rewrite orb_true_r; reflexivity|]. rewrite orb_false_r.
    unfold upd2. destruct (Z.eqb_spec (column ni (j0 - 1 + a) (i0 - 1 + b)) c) as [EE|NE].
    + rewrite Ec in EE. apply column_inj in EE; [|lia|lia]. destruct EE as [A B].
      replace (a =? c / ni - (j0 - 1)) with true by lia. replace (b =? c mod ni - (i0 - 1)) with true by lia. reflexivity.
    + destruct (Z.eqb_spec a (c / ni - (j0 - 1))) as [->|]; [|reflexivity]. destruct (Z.eqb_spec b (c mod ni - (i0 - 1))) as [->|]; [|reflexivity].
      exfalso. apply NE. rewrite Ec at 3. f_equal; lia.
Qed.

Lemma where_eq_in v l : forall k e, In e (where_eq v l k) <-> exists n, nth_error l n = Some v /\ e = k + Z.of_nat n.
Proof.
  induction l as [|x l IH]; intros k e; cbn.
  - split; [tauto|]. intros ([|n] & H & _); discriminate.
  - destruct (Z.eqb_spec x v) as [->|N]; cbn; rewrite IH.
    + split.
      * intros [<-|(n & H & ->)]; [exists 0%nat|exists (S n)]; split; auto; lia.
      * intros ([|n] & H & ->); [left; lia|right; exists n; split; [exact H|lia]].
    + split; [intros (n & H & ->); exists (S n); split; [exact H|lia]|].
      intros ([|n] & H & ->); [cbn in H; congruence|]. exists n. split; [exact H|lia].
Qed.
Lemma where_eq_snoc v l x : forall k, where_eq v (l ++ [x]) k = where_eq v l k ++ (if x =? v then [k + Z.of_nat (List.length l)] else []).
Proof.
  induction l as [|y l IH]; intros k; cbn.
  - destruct (x =? v); [repeat f_equal; lia|reflexivity].
  - rewrite IH. replace (k + 1 + Z.of_nat (List.length l)) with (k + Z.pos (Pos.of_succ_nat (List.length l))) by lia.
    destruct (y =? v); reflexivity.
Qed.

Lemma foursome_loop nj ni xs j0 i0 : WellFormed nj ni xs -> 0 <= i0 <= ni ->
  exists f, fold_res (four_extra (of_extras nj ni xs) j0 i0) (where_eq (pillar ni j0 i0) (map fst xs) 0) (fun _ _ => pillar ni j0 i0) = Ok f /\
    forall a b, 0 <= a <= 1 -> 0 <= b <= 1 -> 0 <= j0 - 1 + a < nj -> 0 <= i0 - 1 + b < ni ->
      Uses nj ni xs j0 i0 (j0 - 1 + a) (i0 - 1 + b) (f a b).
Proof.
  intros (Hj & Hi & HF) Hi0.
  assert (G : forall k, (k <= List.length xs)%nat -> exists f,
    fold_res (four_extra (of_extras nj ni xs) j0 i0) (where_eq (pillar ni j0 i0) (map fst (firstn k xs)) 0) (fun _ _ => pillar ni j0 i0) = Ok f /\
    forall a b, 0 <= a <= 1 -> 0 <= b <= 1 -> 0 <= j0 - 1 + a < nj -> 0 <= i0 - 1 + b < ni ->
      Uses nj ni (firstn k xs) j0 i0 (j0 - 1 + a) (i0 - 1 + b) (f a b)).
  { induction k as [|k IH]; intros L.
    - exists (fun _ _ => pillar ni j0 i0). split; [reflexivity|]. intros. right. split; [|reflexivity]. intros e (cs & H' & _). destruct e; discriminate.
    - destruct IH as (f & E & U); [lia|]. destruct (nth_error xs k) as [x|] eqn:X; [|apply nth_error_None in X; lia].
      rewrite (nth_error_split_at _ _ _ X), map_app. cbn [map]. rewrite where_eq_snoc, fold_res_app, E. cbn [bind].
      rewrite map_length, firstn_length, Nat.min_l by lia.
      destruct (Z.eqb_spec (fst x) (pillar ni j0 i0)) as [P|NP].
      + assert (Fx : 0 <= fst x < (nj + 1) * (ni + 1) /\ Forall (Touches nj ni (fst x)) (snd x)) by (rewrite Forall_forall in HF; apply HF; eapply nth_error_In; exact X).
        destruct Fx as [_ Fx]. rewrite P in Fx.
        destruct (four1_loop nj ni xs (Z.of_nat k) j0 i0 (snd x) Hi Hi0 Fx f) as (f' & E' & C).
        assert (O1 : four_extra (of_extras nj ni xs) j0 i0 (0 + Z.of_nat k) f = Ok f').
        { rewrite Z.add_0_l. rewrite <- E'. rewrite <- (extra_loop _ nj ni xs k x f X). reflexivity. }
        cbn [fold_res]. rewrite O1. cbn [bind]. exists f'. split; [reflexivity|]. intros a b B1 B2 B3 B4.
        rewrite (C a b B1 B2 B3 B4).
        pose proof (uses_snoc nj ni (firstn k xs) x j0 i0 (j0 - 1 + a) (i0 - 1 + b) _ (U a b B1 B2 B3 B4)) as V.
        rewrite P, Z.eqb_refl in V. cbn [andb] in V. rewrite firstn_length, Nat.min_l in V by lia. exact V.
      + cbn [fold_res]. exists f. split; [reflexivity|]. intros a b B1 B2 B3 B4.
        pose proof (uses_snoc nj ni (firstn k xs) x j0 i0 (j0 - 1 + a) (i0 - 1 + b) _ (U a b B1 B2 B3 B4)) as V.
        replace (pillar ni j0 i0 =? fst x) with false in V by lia. cbn [andb] in V. exact V. }
  destruct (G (List.length xs) (le_n _)) as (f & E & U). rewrite firstn_all in *. exists f. auto.
Qed.
Lemma cumul_last xs : xs <> [] -> zget (cumul 0 xs) (-1) = Ok (Z.of_nat (List.length (List.concat (map snd xs)))).
Proof.
  intros NE. destruct xs as [|x xs']; [congruence|]. set (xs := x :: xs') in *.
  assert (L : (0 < List.length xs)%nat) by (cbn; lia).
  pose proof (cumul_nth xs 0 (List.length xs - 1) ltac:(lia)) as H.
  replace (S (List.length xs - 1)) with (List.length xs) in H by lia. rewrite firstn_all in H.
  unfold zget, np_index. rewrite cumul_length. destruct (Z.leb_spec 0 (-1)); [lia|].
  destruct (Z.leb_spec (- Z.of_nat (List.length xs)) (-1)); [|lia]. cbn [andb Z.ltb Z.compare bind].
  replace (Z.to_nat (-1 + Z.of_nat (List.length xs))) with (List.length xs - 1)%nat by lia. rewrite H. reflexivity.
Qed.

(** * Split faces *)
Definition splitJ_b (m : cpm_t) j i := negb (m j i 1 0 =? m (j + 1) i 0 0) || negb (m j i 1 1 =? m (j + 1) i 0 1).
Definition splitI_b (m : cpm_t) j i := negb (m j i 0 1 =? m j (i + 1) 0 0) || negb (m j i 1 1 =? m j (i + 1) 1 0).

Section Faces.
Variables (nj ni : Z) (xs : extras).
Hypothesis WFx : WellFormed nj ni xs.
Variable m : cpm_t.
Hypothesis Em : create_column_pillar_mapping (of_extras nj ni xs) = Ok m.
Lemma m_uses j i jp ip : 0 <= j < nj -> 0 <= i < ni -> 0 <= jp <= 1 -> 0 <= ip <= 1 -> Uses nj ni xs (j + jp) (i + ip) j i (m j i jp ip).
Proof. destruct (create_spec nj ni xs WFx) as (m' & E & U). rewrite Em in E. injection E as <-. apply U. Qed.

Lemma splitJ_b_spec j i : 0 <= j < nj - 1 -> 0 <= i < ni -> (splitJ_b m j i = true <-> SplitJ nj ni xs j i).
Proof.
  intros Hj Hi. unfold splitJ_b, SplitJ.
  pose proof (m_uses j i 1 0 ltac:(lia) ltac:(lia) ltac:(lia) ltac:(lia)) as A0.
  pose proof (m_uses j i 1 1 ltac:(lia) ltac:(lia) ltac:(lia) ltac:(lia)) as A1.
  pose proof (m_uses (j + 1) i 0 0 ltac:(lia) ltac:(lia) ltac:(lia) ltac:(lia)) as B0.
  pose proof (m_uses (j + 1) i 0 1 ltac:(lia) ltac:(lia) ltac:(lia) ltac:(lia)) as B1.
  replace (j + 1 + 0) with (j + 1) in * by lia. rewrite orb_true_iff, !negb_true_iff, !Z.eqb_neq. split.
  - intros [N|N]; [exists 0|exists 1]; do 2 eexists; (split; [lia|]); eauto.
  - intros (q & n1 & n2 & Hq & U1 & U2 & N).
    assert (Q : q = 0 \/ q = 1) by lia. destruct Q as [-> | ->]; [left|right].
    + rewrite (uses_functional _ _ _ _ _ _ _ _ _ A0 U1), (uses_functional _ _ _ _ _ _ _ _ _ B0 U2). exact N.
    + rewrite (uses_functional _ _ _ _ _ _ _ _ _ A1 U1), (uses_functional _ _ _ _ _ _ _ _ _ B1 U2). exact N.
Qed.
Lemma splitI_b_spec j i : 0 <= j < nj -> 0 <= i < ni - 1 -> (splitI_b m j i = true <-> SplitI nj ni xs j i).
Proof.
  intros Hj Hi. unfold splitI_b, SplitI.
  pose proof (m_uses j i 0 1 ltac:(lia) ltac:(lia) ltac:(lia) ltac:(lia)) as A0.
  pose proof (m_uses j i 1 1 ltac:(lia) ltac:(lia) ltac:(lia) ltac:(lia)) as A1.
  pose proof (m_uses j (i + 1) 0 0 ltac:(lia) ltac:(lia) ltac:(lia) ltac:(lia)) as B0.
  pose proof (m_uses j (i + 1) 1 0 ltac:(lia) ltac:(lia) ltac:(lia) ltac:(lia)) as B1.
  replace (i + 1 + 0) with (i + 1) in * by lia. rewrite orb_true_iff, !negb_true_iff, !Z.eqb_neq. split.
  - intros [N|N]; [exists 0|exists 1]; do 2 eexists; (split; [lia|]); eauto.
  - intros (q & n1 & n2 & Hq & U1 & U2 & N).
    assert (Q : q = 0 \/ q = 1) by lia. destruct Q as [-> | ->]; [left|right].
    + rewrite (uses_functional _ _ _ _ _ _ _ _ _ A0 U1), (uses_functional _ _ _ _ _ _ _ _ _ B0 U2). exact N.
    + rewrite (uses_functional _ _ _ _ _ _ _ _ _ A1 U1), (uses_functional _ _ _ _ _ _ _ _ _ B1 U2). exact N.
Qed.
Lemma is_splitJ_plus j i : 0 <= j < nj - 1 -> is_split_column_face (of_extras nj ni xs) j i 1 1 = Ok (splitJ_b m j i).
Proof.
  intros Hj. unfold is_split_column_face. cbn [of_extras g_has_split g_nj g_ni negb Z.eqb assert_ bind Pos.eqb orb].
  replace (j =? nj - 1) with false by lia. fold (of_extras nj ni xs). rewrite Em. reflexivity.
Qed.
Lemma is_splitJ_minus j i : 0 < j -> is_split_column_face (of_extras nj ni xs) j i 1 0 = Ok (splitJ_b m (j - 1) i).
Proof.
  intros Hj. unfold is_split_column_face. cbn [of_extras g_has_split g_nj g_ni negb Z.eqb assert_ bind Pos.eqb orb].
  replace (j =? 0) with false by lia. fold (of_extras nj ni xs). rewrite Em. cbn [bind]. unfold splitJ_b. change (1 - 0) with 1.
  replace (j - 1 + 1) with j by lia. f_equal. f_equal; f_equal; apply Z.eqb_sym.
Qed.
Lemma is_splitI_plus j i : 0 <= i < ni - 1 -> is_split_column_face (of_extras nj ni xs) j i 2 1 = Ok (splitI_b m j i).
Proof.
  intros Hj. unfold is_split_column_face. cbn [of_extras g_has_split g_nj g_ni negb Z.eqb assert_ bind Pos.eqb orb].
  replace (i =? ni - 1) with false by lia. fold (of_extras nj ni xs). rewrite Em. reflexivity.
Qed.
Lemma is_splitI_minus j i : 0 < i -> is_split_column_face (of_extras nj ni xs) j i 2 0 = Ok (splitI_b m j (i - 1)).
Proof.
  intros Hj. unfold is_split_column_face. cbn [of_extras g_has_split g_nj g_ni negb Z.eqb assert_ bind Pos.eqb orb].
  replace (i =? 0) with false by lia. fold (of_extras nj ni xs). rewrite Em. cbn [bind]. unfold splitI_b. change (1 - 0) with 1.
  replace (i - 1 + 1) with i by lia. f_equal. f_equal; f_equal; apply Z.eqb_sym.
Qed.

(** what the marks are after some split pillars have been looked at *)
Definition seenJ (ps : list Z) j i : bool :=
  existsb (Z.eqb (pillar ni (j + 1) (i + 1))) ps || ((i <? ni - 1) && existsb (Z.eqb (pillar ni (j + 1) i)) ps).
Definition seenI (ps : list Z) j i : bool :=
  existsb (Z.eqb (pillar ni (j + 1) (i + 1))) ps || ((j <? nj - 1) && existsb (Z.eqb (pillar ni j (i + 1))) ps).
Definition marksJ (ps : list Z) (mj : grid2 bool) : Prop :=
  forall j i, 0 <= j < nj - 1 -> 0 <= i < ni -> mj j i = splitJ_b m j i && seenJ ps j i.
Definition marksI (ps : list Z) (mi : grid2 bool) : Prop :=
  forall j i, 0 <= j < nj -> 0 <= i < ni - 1 -> mi j i = splitI_b m j i && seenI ps j i.

Lemma seenJ_snoc ps p j i : seenJ (ps ++ [p]) j i = seenJ ps j i || (pillar ni (j + 1) (i + 1) =? p) || ((i <? ni - 1) && (pillar ni (j + 1) i =? p)).
Proof. unfold seenJ. rewrite !existsb_app. cbn. rewrite !orb_false_r. destruct (existsb _ ps), (existsb _ ps), (i <? ni - 1), (_ =? p), (_ =? p); reflexivity. Qed.
Lemma seenI_snoc ps p j i : seenI (ps ++ [p]) j i = seenI ps j i || (pillar ni (j + 1) (i + 1) =? p) || ((j <? nj - 1) && (pillar ni j (i + 1) =? p)).
Proof. unfold seenI. rewrite !existsb_app. cbn. rewrite !orb_false_r. destruct (existsb _ ps), (existsb _ ps), (j <? nj - 1), (_ =? p), (_ =? p); reflexivity. Qed.

Lemma set2_if (s : bool) (f : grid2 bool) a b j i : (if s then set2 f a b true else f) j i = f j i || (s && ((j =? a) && (i =? b))).
Proof. unfold set2. destruct s; cbn; [|rewrite orb_false_r; reflexivity]. destruct ((j =? a) && (i =? b)); [rewrite orb_true_r|rewrite orb_false_r]; reflexivity. Qed.
Lemma mark_pillar_spec p mj mi : 0 <= p < (nj + 1) * (ni + 1) ->
  exists mj' mi', mark_pillar (of_extras nj ni xs) p (mj, mi) = Ok (mj', mi') /\
   (forall j i, 0 <= j < nj - 1 -> 0 <= i < ni ->
      mj' j i = mj j i || (splitJ_b m j i && ((pillar ni (j + 1) (i + 1) =? p) || ((i <? ni - 1) && (pillar ni (j + 1) i =? p))))) /\
   (forall j i, 0 <= j < nj -> 0 <= i < ni - 1 ->
      mi' j i = mi j i || (splitI_b m j i && ((pillar ni (j + 1) (i + 1) =? p) || ((j <? nj - 1) && (pillar ni j (i + 1) =? p))))).
Proof.
  intros Hp. destruct WFx as (Hj & Hi & _).
  set (a := p / (ni + 1)). set (b := p mod (ni + 1)).
  assert (Bb : 0 <= b <= ni) by (pose proof (Z.mod_pos_bound p (ni + 1)); lia).
  assert (Ep : p = pillar ni a b) by (unfold pillar, a, b; rewrite (Z.div_mod p (ni + 1)) at 1 by lia; lia).
  assert (Ba : 0 <= a <= nj). { unfold pillar in Ep. split; [apply Z.div_pos; lia|]. nia. }
  assert (PE : forall x y, 0 <= y <= ni -> (pillar ni x y =? p) = (x =? a) && (y =? b)).
  { intros x y Hy. rewrite Ep. apply eq_true_iff_eq. rewrite andb_true_iff, !Z.eqb_eq. split; [|intros [-> ->]; reflexivity]. apply pillar_inj; lia. }
  unfold mark_pillar. cbn [of_extras g_ni g_nj]. fold (of_extras nj ni xs). fold a b. unfold mark.
  assert (JJ : exists mj', (if (0 <? a) && (a <? nj) then
      do m0 <- (if 0 <? b then do s <- is_split_column_face (of_extras nj ni xs) a (b - 1) 1 0; Ok (if s then set2 mj (a - 1) (b - 1) true else mj) else Ok mj);
      (if b <? ni - 1 then do s <- is_split_column_face (of_extras nj ni xs) a b 1 0; Ok (if s then set2 m0 (a - 1) b true else m0) else Ok m0)
      else Ok mj) = Ok mj' /\ (forall j i, 0 <= j < nj - 1 -> 0 <= i < ni ->
      mj' j i = mj j i || (splitJ_b m j i && ((pillar ni (j + 1) (i + 1) =? p) || ((i <? ni - 1) && (pillar ni (j + 1) i =? p)))))).
  { destruct (Z.ltb_spec 0 a); destruct (Z.ltb_spec a nj); cbn [andb].
    2,3,4: (exists mj; split; [reflexivity|]; intros j i Bj Bi; rewrite !PE by lia; replace (j + 1 =? a) with false by lia; rewrite !andb_false_r, !orb_false_r; reflexivity).
    rewrite !is_splitJ_minus by lia. cbn [bind].
    destruct (Z.ltb_spec 0 b); destruct (Z.ltb_spec b (ni - 1)); cbn [bind]; (eexists; split; [reflexivity|]); intros j i Bj Bi; rewrite !PE by lia; rewrite ?set2_if.
    all: destruct (Z.eqb_spec j (a - 1)) as [->|Na]; [|replace (j + 1 =? a) with false by lia; cbn [andb]; rewrite ?andb_false_r; cbn [orb]; rewrite ?andb_false_r, ?orb_false_r; reflexivity].
    all: replace (a - 1 + 1 =? a) with true by lia; cbn [andb].
    - destruct (Z.eqb_spec i (b - 1)) as [->|Nb].
      + replace (b - 1 + 1 =? b) with true by lia. replace (b - 1 =? b) with false by lia. cbn [orb]. rewrite ?andb_true_r, ?andb_false_r, ?orb_false_r. reflexivity.
      + replace (i + 1 =? b) with false by lia. rewrite andb_false_r, orb_false_r. cbn [orb].
        destruct (Z.eqb_spec i b) as [->|]; [replace (b <? ni - 1) with true by lia; reflexivity|]. rewrite !andb_false_r. reflexivity.
    - replace (i + 1 =? b) with (i =? b - 1) by lia. replace ((i <? ni - 1) && (i =? b)) with false by lia. rewrite orb_false_r. destruct (Z.eqb_spec i (b - 1)) as [->|]; [reflexivity|]. rewrite !andb_false_r. reflexivity.
    - replace (i + 1 =? b) with false by lia. cbn [orb]. destruct (Z.eqb_spec i b) as [->|]; [replace (b <? ni - 1) with true by lia; reflexivity|]. rewrite !andb_false_r. reflexivity.
    - replace (i + 1 =? b) with false by lia. replace ((i <? ni - 1) && (i =? b)) with false by lia. cbn. rewrite andb_false_r, orb_false_r. reflexivity. }
  assert (II : exists mi', (if (0 <? b) && (b <? ni) then
      do m0 <- (if 0 <? a then do s <- is_split_column_face (of_extras nj ni xs) (a - 1) b 2 0; Ok (if s then set2 mi (a - 1) (b - 1) true else mi) else Ok mi);
      (if a <? nj - 1 then do s <- is_split_column_face (of_extras nj ni xs) a b 2 0; Ok (if s then set2 m0 a (b - 1) true else m0) else Ok m0)
      else Ok mi) = Ok mi' /\ (forall j i, 0 <= j < nj -> 0 <= i < ni - 1 ->
      mi' j i = mi j i || (splitI_b m j i && ((pillar ni (j + 1) (i + 1) =? p) || ((j <? nj - 1) && (pillar ni j (i + 1) =? p)))))).
  { destruct (Z.ltb_spec 0 b); destruct (Z.ltb_spec b ni); cbn [andb].
    2,3,4: (exists mi; split; [reflexivity|]; intros j i Bj Bi; rewrite !PE by lia; replace (i + 1 =? b) with false by lia; rewrite ?andb_false_r, ?orb_false_r, ?andb_false_r, ?orb_false_r; reflexivity).
    rewrite !is_splitI_minus by lia. cbn [bind].
    destruct (Z.ltb_spec 0 a); destruct (Z.ltb_spec a (nj - 1)); cbn [bind]; (eexists; split; [reflexivity|]); intros j i Bj Bi; rewrite !PE by lia; rewrite ?set2_if.
    all: destruct (Z.eqb_spec i (b - 1)) as [->|Na]; [|replace (i + 1 =? b) with false by lia; rewrite ?andb_false_r; cbn [orb]; rewrite ?andb_false_r, ?orb_false_r; reflexivity].
    all: replace (b - 1 + 1 =? b) with true by lia; rewrite ?andb_true_r.
    - destruct (Z.eqb_spec j (a - 1)) as [->|Nb].
      + replace (a - 1 + 1 =? a) with true by lia. replace (a - 1 =? a) with false by lia. cbn [orb]. rewrite ?andb_true_r, ?andb_false_r, ?orb_false_r. reflexivity.
      + replace (j + 1 =? a) with false by lia. rewrite andb_false_r, orb_false_r. cbn [orb].
        destruct (Z.eqb_spec j a) as [->|]; [replace (a <? nj - 1) with true by lia; reflexivity|]. rewrite !andb_false_r. reflexivity.
    - replace (j + 1 =? a) with (j =? a - 1) by lia. replace ((j <? nj - 1) && (j =? a)) with false by lia. rewrite orb_false_r. destruct (Z.eqb_spec j (a - 1)) as [->|]; [reflexivity|]. rewrite !andb_false_r. reflexivity.
    - replace (j + 1 =? a) with false by lia. cbn [orb]. destruct (Z.eqb_spec j a) as [->|]; [replace (a <? nj - 1) with true by lia; reflexivity|]. rewrite !andb_false_r. reflexivity.
    - replace (j + 1 =? a) with false by lia. replace ((j <? nj - 1) && (j =? a)) with false by lia. cbn. rewrite andb_false_r, orb_false_r. reflexivity. }
  destruct JJ as (mj' & EJ & SJ), II as (mi' & EI & SI). rewrite EJ. cbn [bind]. rewrite EI. cbn [bind]. eauto.
Qed.
Lemma marks_spec : exists mj mi, split_column_faces (of_extras nj ni xs) = Ok (Some (mj, mi)) /\ marksJ (map fst xs) mj /\ marksI (map fst xs) mi.
Proof.
  unfold split_column_faces. rewrite Em. cbn [of_extras g_has_split g_spi negb bind].
  assert (P : Forall (fun p => 0 <= p < (nj + 1) * (ni + 1)) (map fst xs)).
  { destruct WFx as (_ & _ & HF). rewrite Forall_map. eapply Forall_impl; [|exact HF]. cbn; tauto. }
  assert (G : forall ps done mj mi, Forall (fun p => 0 <= p < (nj + 1) * (ni + 1)) ps -> marksJ done mj -> marksI done mi ->
     exists mj' mi', fold_res (mark_pillar (of_extras nj ni xs)) ps (mj, mi) = Ok (mj', mi') /\ marksJ (done ++ ps) mj' /\ marksI (done ++ ps) mi').
  { clear P. induction ps as [|p ps IH]; intros done mj mi F MJ MI.
    - exists mj, mi. rewrite app_nil_r. auto.
    - inversion F as [|? ? F1 F2]; subst. destruct (mark_pillar_spec p mj mi F1) as (mj' & mi' & E & SJ & SI).
      destruct (IH (done ++ [p]) mj' mi' F2) as (mj2 & mi2 & E2 & R1 & R2).
      + intros j i Bj Bi. rewrite SJ, seenJ_snoc by assumption. rewrite MJ by assumption. destruct (splitJ_b m j i); cbn; [|reflexivity]. rewrite orb_assoc. reflexivity.
      + intros j i Bj Bi. rewrite SI, seenI_snoc by assumption. rewrite MI by assumption. destruct (splitI_b m j i); cbn; [|reflexivity]. rewrite orb_assoc. reflexivity.
      + exists mj2, mi2. cbn [fold_res]. rewrite E. cbn [bind]. rewrite E2. rewrite <- !app_assoc in *. auto. }
  destruct (G (map fst xs) [] (fun _ _ => false) (fun _ _ => false) P) as (mj & mi & E & MJ & MI).
  - intros j i _ _. unfold seenJ. cbn. rewrite !andb_false_r. reflexivity.
  - intros j i _ _. unfold seenI. cbn. rewrite !andb_false_r. reflexivity.
  - exists mj, mi. split; [|auto]. exact (f_equal (fun r => do st <- r; Ok (Some st)) E).
Qed.
End Faces.

Lemma uses_unsplit nj ni xs pj pi j i n : ~ IsSplitPillar ni xs pj pi -> Uses nj ni xs pj pi j i n -> n = pillar ni pj pi.
Proof.
  intros N [(e & (cs & H & _) & _)|(_ & ->)]; [|reflexivity]. exfalso. apply N. unfold IsSplitPillar.
  apply in_map_iff. eexists; split; [|eapply nth_error_In; exact H]. reflexivity.
Qed.

(** * Spreading the distance *)
Definition manhattan (j i j' i' : Z) : Z := Z.abs (j - j') + Z.abs (i - i').
(** d is the least number of steps from (j, i) to a column with the property, or cap if there is none *)
Definition LeastSteps (nj ni : Z) (P : Z -> Z -> Prop) (cap j i d : Z) : Prop :=
  (exists j' i', 0 <= j' < nj /\ 0 <= i' < ni /\ P j' i' /\ d = manhattan j i j' i' /\
     forall j2 i2, 0 <= j2 < nj -> 0 <= i2 < ni -> P j2 i2 -> d <= manhattan j i j2 i2) \/
  ((forall j' i', 0 <= j' < nj -> 0 <= i' < ni -> ~ P j' i') /\ d = cap).

Section Spread.
Variables (nj ni : Z).
Hypothesis (Hj : 0 < nj) (Hi : 0 < ni).
Variable P : Z -> Z -> bool.
Let cap := nj + ni.
(** after t rounds: cells within t steps of a source hold their distance *)
Definition within (t j i : Z) (f : grid2 Z) : Prop :=
  (f (j + 1) (i + 1) = cap /\ forall j' i', 0 <= j' < nj -> 0 <= i' < ni -> P j' i' = true -> t < manhattan j i j' i') \/
  (exists j' i', 0 <= j' < nj /\ 0 <= i' < ni /\ P j' i' = true /\ f (j + 1) (i + 1) = manhattan j i j' i' /\ manhattan j i j' i' <= t /\
     forall j2 i2, 0 <= j2 < nj -> 0 <= i2 < ni -> P j2 i2 = true -> manhattan j i j' i' <= manhattan j i j2 i2).
Definition inv (t : Z) (f : grid2 Z) : Prop :=
  (forall j i, 0 <= j < nj -> 0 <= i < ni -> within t j i f) /\
  (forall j i, ~ (1 <= j <= nj /\ 1 <= i <= ni) -> f j i = cap).
Lemma inv0 : inv 0 (framed0 nj ni P).
Proof.
  split.
  - intros j i Bj Bi. unfold within, framed0. replace ((1 <=? j + 1) && (j + 1 <=? nj) && (1 <=? i + 1) && (i + 1 <=? ni)) with true by lia.
    replace (j + 1 - 1) with j by lia. replace (i + 1 - 1) with i by lia. destruct (P j i) eqn:E.
    + right. exists j, i. unfold manhattan. repeat split; try lia; auto. 
    + left. split; [reflexivity|]. intros j' i' Bj' Bi' Q. unfold manhattan.
      destruct (Z.eq_dec j j') as [->|]; [|lia]. destruct (Z.eq_dec i i') as [->|]; [congruence|lia].
  - intros j i N. unfold framed0. destruct ((1 <=? j) && (j <=? nj) && (1 <=? i) && (i <=? ni)) eqn:E; [lia|reflexivity].
Qed.
(** the value at a neighbour bounds the distance *)
Lemma man_bound j i j' i' : 0 <= j < nj -> 0 <= i < ni -> 0 <= j' < nj -> 0 <= i' < ni -> 0 <= manhattan j i j' i' <= cap - 2.
Proof. unfold manhattan, cap. lia. Qed.
Lemma f_ge t f j i : 0 <= t -> inv t f -> 0 <= j < nj -> 0 <= i < ni -> forall a b d, Z.abs (a - j) + Z.abs (b - i) = d -> d <= 1 ->
  forall j' i', 0 <= j' < nj -> 0 <= i' < ni -> P j' i' = true ->
  (forall j2 i2, 0 <= j2 < nj -> 0 <= i2 < ni -> P j2 i2 = true -> manhattan j i j' i' <= manhattan j i j2 i2) ->
  manhattan j i j' i' <= f (a + 1) (b + 1) + d.
Proof.
  intros Ht [I1 I2] Bj Bi a b d Ed Hd j' i' Bj' Bi' Q M.
  pose proof (man_bound j i j' i' Bj Bi Bj' Bi').
  destruct (Z_le_dec 0 a); destruct (Z_lt_dec a nj); destruct (Z_le_dec 0 b); destruct (Z_lt_dec b ni); try (rewrite I2 by lia; lia).
  destruct (I1 a b ltac:(lia) ltac:(lia)) as [[E _]|(j2 & i2 & B1 & B2 & Q2 & E & L & M2)]; [rewrite E; lia|].
  rewrite E. specialize (M j2 i2 B1 B2 Q2). unfold manhattan in *. lia.
Qed.
Lemma inv_step t f : 0 <= t -> inv t f -> inv (t + 1) (write_interior nj ni f (updated f)).
Proof.
  intros Ht Iv. pose proof Iv as [I1 I2]. split.
  2:{ intros j i N. unfold write_interior. destruct ((1 <=? j) && (j <=? nj) && (1 <=? i) && (i <=? ni)) eqn:E; [lia|]. apply I2; exact N. }
  intros j i Bj Bi. unfold within.
  assert (EV : write_interior nj ni f (updated f) (j + 1) (i + 1) = updated f (j + 1) (i + 1)).
  { unfold write_interior. replace ((1 <=? j + 1) && (j + 1 <=? nj) && (1 <=? i + 1) && (i + 1 <=? ni)) with true by lia. reflexivity. }
  rewrite EV. unfold updated. replace (j + 1 - 1) with (j - 1 + 1) by lia. replace (i + 1 - 1) with (i - 1 + 1) by lia.
  pose proof (f_ge t f j i Ht Iv Bj Bi j i 0 ltac:(lia) ltac:(lia)) as G0.
  pose proof (f_ge t f j i Ht Iv Bj Bi (j - 1) i 1 ltac:(lia) ltac:(lia)) as G1.
  pose proof (f_ge t f j i Ht Iv Bj Bi (j + 1) i 1 ltac:(lia) ltac:(lia)) as G2.
  pose proof (f_ge t f j i Ht Iv Bj Bi j (i - 1) 1 ltac:(lia) ltac:(lia)) as G3.
  pose proof (f_ge t f j i Ht Iv Bj Bi j (i + 1) 1 ltac:(lia) ltac:(lia)) as G4.
  destruct (I1 j i Bj Bi) as [[E N]|(j' & i' & B1 & B2 & Q & E & L & M)].
  2:{ right. exists j', i'. do 3 (split; [assumption|]). split; [|split; [lia|exact M]].
      specialize (G0 j' i' B1 B2 Q M). specialize (G1 j' i' B1 B2 Q M). specialize (G2 j' i' B1 B2 Q M). specialize (G3 j' i' B1 B2 Q M). specialize (G4 j' i' B1 B2 Q M). lia. }
  (* not reached before: either some source is at distance t + 1 exactly, through a neighbour, or none *)
  assert (D : (exists j' i', 0 <= j' < nj /\ 0 <= i' < ni /\ P j' i' = true /\ manhattan j i j' i' = t + 1) \/
              (forall j' i', 0 <= j' < nj -> 0 <= i' < ni -> P j' i' = true -> t + 1 < manhattan j i j' i')).
  { destruct (existsb (fun p => P (fst p) (snd p) && (manhattan j i (fst p) (snd p) =? t + 1)) (list_prod (zrange nj) (zrange ni))) eqn:X.
    - left. apply existsb_exists in X as ((j' & i') & H & K). apply in_prod_iff in H as [H1 H2]. apply in_zrange in H1, H2. cbn in K. exists j', i'. repeat split; lia.
    - right. intros j' i' H1 H2 Q. specialize (N j' i' H1 H2 Q). destruct (Z.eq_dec (manhattan j i j' i') (t + 1)) as [W|]; [|lia].
      exfalso. assert (Y : existsb (fun p => P (fst p) (snd p) && (manhattan j i (fst p) (snd p) =? t + 1)) (list_prod (zrange nj) (zrange ni)) = true); [|congruence].
      apply existsb_exists. exists (j', i'). split; [apply in_prod_iff; rewrite !in_zrange; auto|]. cbn. lia. }
  destruct D as [(j' & i' & B1 & B2 & Q & W)|D].
  - right. exists j', i'. do 3 (split; [assumption|]).
    assert (M : forall j2 i2, 0 <= j2 < nj -> 0 <= i2 < ni -> P j2 i2 = true -> manhattan j i j' i' <= manhattan j i j2 i2).
    { intros j2 i2 H1 H2 H3. specialize (N j2 i2 H1 H2 H3). lia. }
    split; [|split; [lia|exact M]].
    specialize (G0 j' i' B1 B2 Q M). specialize (G1 j' i' B1 B2 Q M). specialize (G2 j' i' B1 B2 Q M). specialize (G3 j' i' B1 B2 Q M). specialize (G4 j' i' B1 B2 Q M).
    (* some neighbour is one step nearer *)
    assert (NB : exists a b, Z.abs (a - j) + Z.abs (b - i) = 1 /\ 0 <= a < nj /\ 0 <= b < ni /\ manhattan a b j' i' = t).
    { unfold manhattan in *. destruct (Z_lt_dec j j'); [exists (j + 1), i; lia|]. destruct (Z_lt_dec j' j); [exists (j - 1), i; lia|].
      destruct (Z_lt_dec i i'); [exists j, (i + 1); lia|]. exists j, (i - 1). lia. }
    destruct NB as (a & b & Hab & Ba & Bb & W2).
    assert (FB : f (a + 1) (b + 1) <= t).
    { destruct (I1 a b Ba Bb) as [[_ N2]|(j2 & i2 & C1 & C2 & Q2 & E2 & L2 & M2)]; [specialize (N2 j' i' B1 B2 Q); lia|].
      rewrite E2. specialize (M2 j' i' B1 B2 Q). lia. }
    assert (CC : (a = j - 1 /\ b = i) \/ (a = j + 1 /\ b = i) \/ (a = j /\ b = i - 1) \/ (a = j /\ b = i + 1)) by lia.
    destruct CC as [[-> ->]|[[-> ->]|[[-> ->]|[-> ->]]]]; lia.
  - left. split; [|exact D]. 
    assert (GE : forall a b, Z.abs (a - j) + Z.abs (b - i) = 1 -> f (a + 1) (b + 1) = cap).
    { intros a b Hab. destruct (Z_le_dec 0 a); destruct (Z_lt_dec a nj); destruct (Z_le_dec 0 b); destruct (Z_lt_dec b ni); try (rewrite I2 by lia; lia).
      destruct (I1 a b ltac:(lia) ltac:(lia)) as [[E2 _]|(j2 & i2 & C1 & C2 & Q2 & E2 & L2 & M2)]; [exact E2|].
      specialize (D j2 i2 C1 C2 Q2). unfold manhattan in *. lia. }
    rewrite E, (GE (j - 1) i), (GE (j + 1) i), (GE j (i - 1)), (GE j (i + 1)) by lia. lia.
Qed.
Lemma inv_big t f : nj + ni <= t -> inv t f -> forall j i, 0 <= j < nj -> 0 <= i < ni -> LeastSteps nj ni (fun j i => P j i = true) cap j i (f (j + 1) (i + 1)).
Proof.
  intros Ht [I1 _] j i Bj Bi. destruct (I1 j i Bj Bi) as [[E N]|(j' & i' & B1 & B2 & Q & E & L & M)].
  - right. split; [|exact E]. intros j' i' B1 B2 Q. specialize (N j' i' B1 B2 Q). pose proof (man_bound j i j' i' Bj Bi B1 B2). unfold cap in *. lia.
  - left. exists j', i'. rewrite E. auto 8.
Qed.
(** a fixed point of the update satisfies every later invariant *)
Lemma all2_true p : all2 nj ni p = true <-> forall j i, 1 <= j <= nj -> 1 <= i <= ni -> p j i = true.
Proof.
  unfold all2. rewrite forallb_forall. split.
  - intros H j i B1 B2. specialize (H j). rewrite forallb_forall in H. apply H.
    + unfold zrange2. apply in_map_iff. exists (Z.to_nat (j - 1)). split; [lia|]. apply in_seq. lia.
    + unfold zrange2. apply in_map_iff. exists (Z.to_nat (i - 1)). split; [lia|]. apply in_seq. lia.
  - intros H j Ij. rewrite forallb_forall. intros i Ii. unfold zrange2 in *. apply in_map_iff in Ij as (a & <- & Ia), Ii as (b & <- & Ib).
    apply in_seq in Ia, Ib. apply H; lia.
Qed.
Lemma inv_ext t f g : (forall j i, f j i = g j i) -> inv t f -> inv t g.
Proof.
  intros E [I1 I2]. split.
  - intros j i Bj Bi. destruct (I1 j i Bj Bi) as [[A N]|(j' & i' & B1 & B2 & Q & A & L & M)].
    + left. rewrite <- E. auto.
    + right. exists j', i'. rewrite <- E. auto 8.
  - intros j i N. rewrite <- E. auto.
Qed.
Lemma inv_fixed f : all2 nj ni (fun j i => updated f j i =? f j i) = true -> forall n t, 0 <= t -> inv t f -> inv (t + Z.of_nat n) f.
Proof.
  intros F. induction n as [|n IH]; intros t Ht Iv; [rewrite Z.add_0_r; exact Iv|].
  replace (t + Z.of_nat (S n)) with ((t + 1) + Z.of_nat n) by lia. apply IH; [lia|].
  eapply inv_ext; [|apply inv_step; [exact Ht|exact Iv]]. intros j i. unfold write_interior.
  destruct ((1 <=? j) && (j <=? nj) && (1 <=? i) && (i <=? ni)) eqn:B; [|reflexivity].
  rewrite all2_true in F. specialize (F j i ltac:(lia) ltac:(lia)). lia.
Qed.
Lemma spread_ok : forall n fuel t f, 0 <= t -> t + Z.of_nat n = nj + ni -> (n < fuel)%nat -> inv t f ->
  exists f', spread fuel nj ni f = Ok f' /\ forall j i, 0 <= j < nj -> 0 <= i < ni -> LeastSteps nj ni (fun j i => P j i = true) cap j i (f' (j + 1) (i + 1)).
Proof.
  induction n as [|n IH]; intros [|fuel] t f Ht En Lf Iv; try lia; cbn [spread].
  - destruct (all2 nj ni (fun j i => updated f j i =? f j i)) eqn:F.
    + exists f. split; [reflexivity|]. intros j i Bj Bi. apply inv_big with t; auto. lia.
    + (* after nj + ni rounds nothing can change *)
      exfalso. pose proof (inv_step t f Ht Iv) as Iv'.
      assert (F' : all2 nj ni (fun j i => updated f j i =? f j i) = true); [|congruence].
      apply all2_true. intros j i B1 B2. apply Z.eqb_eq.
      pose proof (inv_big t f ltac:(lia) Iv (j - 1) (i - 1) ltac:(lia) ltac:(lia)) as L1.
      pose proof (inv_big (t + 1) _ ltac:(lia) Iv' (j - 1) (i - 1) ltac:(lia) ltac:(lia)) as L2.
      replace (j - 1 + 1) with j in * by lia. replace (i - 1 + 1) with i in * by lia.
      unfold write_interior in L2. replace ((1 <=? j) && (j <=? nj) && (1 <=? i) && (i <=? ni)) with true in L2 by lia.
      destruct L1 as [(a & b & C1 & C2 & Q & E & M)|[N E]], L2 as [(a' & b' & C1' & C2' & Q' & E' & M')|[N' E']].
      * specialize (M a' b' C1' C2' Q'). specialize (M' a b C1 C2 Q). lia.
      * exfalso. eapply N'; eauto.
      * exfalso. eapply N; eauto.
      * congruence.
  - destruct (all2 nj ni (fun j i => updated f j i =? f j i)) eqn:F.
    + exists f. split; [reflexivity|]. intros j i Bj Bi. apply inv_big with (t + Z.of_nat (S n)); auto; [lia|]. apply inv_fixed; auto.
    + apply (IH fuel (t + 1)); [lia|lia|lia|]. apply inv_step; auto.
Qed.
End Spread.
