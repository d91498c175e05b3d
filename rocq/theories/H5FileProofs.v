(** H5FileProofs.v: lemmas on hdf5 file contents. *)
From Verif Require Import Base StrModel StrProofs UuidModel UuidProofs PyDict NArray PackModel PackProps H5FileModel.

Lemma ipath_eqb_iff : forall p q, ipath_eqb p q = true <-> p = q.
Proof.
  induction p as [|a p IH]; intros [|b q]; cbn; try (split; congruence). rewrite andb_true_iff, str_eqb_eq, IH. split; [intros [-> ->]; reflexivity|intros [= -> ->]; auto].
Qed.
Lemma rkey_eqb_iff a b : rkey_eqb a b = true <-> a = b.
Proof. destruct a as [u s], b as [v t]. unfold rkey_eqb. cbn. rewrite andb_true_iff, Z.eqb_eq, str_eqb_eq. split; [intros [-> ->]; reflexivity|intros [= -> ->]; auto]. Qed.
(** Spec: one path lies at or below another *)
Definition Below (p q : ipath) : Prop := exists r, q = p ++ r.
Lemma is_prefix_iff : forall p q, is_prefix p q = true <-> Below p q.
Proof.
  unfold Below. induction p as [|a p IH]; intros q; cbn.
  - split; [intros _; exists q; reflexivity|reflexivity].
  - destruct q as [|b q]; [split; [discriminate|intros [r H]; discriminate]|]. rewrite andb_true_iff, str_eqb_eq, IH. split.
    + intros [-> [r ->]]. exists r. reflexivity.
    + intros [r [= -> ->]]. eauto.
Qed.
Lemma below_refl p : Below p p. Proof. exists []. now rewrite app_nil_r. Qed.
Lemma fhas_iff f p : fhas f p = true <-> exists q d, In (q, d) f /\ Below p q.
Proof.
  unfold fhas. rewrite existsb_exists. split.
  - intros ([q d] & H1 & H2). cbn in H2. apply is_prefix_iff in H2. eauto.
  - intros (q & d & H1 & H2). exists (q, d). split; [exact H1|]. now apply is_prefix_iff.
Qed.
Lemma fget_in f p d : fget f p = Some d -> In (p, d) f.
Proof. apply dget_in, ipath_eqb_iff. Qed.
Lemma fget_none f p : fget f p = None <-> forall d, ~ In (p, d) f.
Proof.
  unfold fget. rewrite (dget_none ipath_eqb ipath_eqb_iff). unfold dkeys. rewrite in_map_iff. split.
  - intros H d D. apply H. exists (p, d). auto.
  - intros H ([q d] & E & D). cbn in E. subst. now apply (H d).
Qed.
Lemma fget_app f g p : fget (f ++ g) p = match fget f p with Some d => Some d | None => fget g p end.
Proof. unfold fget. induction f as [|[q d] f IH]; cbn; [reflexivity|]. destruct (ipath_eqb q p); auto. Qed.
Lemma fget_one p d q : fget [(p, d)] q = if ipath_eqb p q then Some d else None.
Proof. reflexivity. Qed.
Lemma fhas_app f g p : fhas (f ++ g) p = fhas f p || fhas g p.
Proof. unfold fhas. apply existsb_app. Qed.

(** * Creating *)
Definition Clash (p q : ipath) : Prop := Below p q \/ Below q p.
Lemma clash_sym p q : Clash p q -> Clash q p. Proof. unfold Clash. tauto. Qed.
Lemma create_ok f p d : p <> [] -> (forall q e, In (q, e) f -> ~ Clash p q) -> create_dataset f p d = Ok (f ++ [(p, d)]).
Proof.
  intros N H. unfold create_dataset. destruct p as [|a p]; [congruence|].
  destruct (existsb _ f) eqn:E; [|reflexivity]. exfalso. apply existsb_exists in E as ([q e] & I & E). cbn [fst] in E.
  apply orb_true_iff in E. apply (H q e I). unfold Clash. rewrite <- !is_prefix_iff. tauto.
Qed.
Lemma create_inv f p d f' : create_dataset f p d = Ok f' -> f' = f ++ [(p, d)] /\ p <> [] /\ forall q e, In (q, e) f -> ~ Clash p q.
Proof.
  unfold create_dataset. destruct p as [|a p]; [discriminate|]. destruct (existsb _ f) eqn:E; [discriminate|]. intros [= <-].
  split; [reflexivity|]. split; [discriminate|]. intros q e I C. apply not_true_iff_false in E. apply E, existsb_exists. exists (q, e). split; [exact I|].
  cbn [fst]. unfold Clash in C. rewrite <- !is_prefix_iff in C. apply orb_true_iff. tauto.
Qed.
Lemma create_fget f p d f' q : create_dataset f p d = Ok f' -> fget f' q = (if ipath_eqb p q then Some d else fget f q) /\ fget f p = None.
Proof.
  intros E. apply create_inv in E as (-> & _ & C). assert (fget f p = None) as N.
  { apply fget_none. intros e I. apply (C p e I). left. apply below_refl. }
  split; [|exact N]. rewrite fget_app, fget_one. destruct (ipath_eqb p q) eqn:E.
  - apply ipath_eqb_iff in E. subst. now rewrite N.
  - destruct (fget f q); reflexivity.
Qed.

(** * Writing *)
Lemma write_sets_keeps r i : forall l f f' x p d, write_sets r i l f = (f', x) -> fget f p = Some d -> fget f' p = Some d.
Proof.
  induction l as [|[k [a t]] l IH]; cbn; intros f f' x p d E F; [now injection E as <- _|].
  destruct (create_dataset _ _ _) as [f1|e] eqn:C; [|now injection E as <- _]. apply (IH f1 f' x p d E).
  destruct (create_fget _ _ _ _ p C) as [-> N]. destruct (ipath_eqb _ p) eqn:Q; [|exact F]. apply ipath_eqb_iff in Q. congruence.
Qed.
Lemma write_sets_stored r i : forall l f f' k a t, write_sets r i l f = (f', Ok tt) -> In (k, (a, t)) l -> fget f' (internal_path r k) = Some (stored_form i a t).
Proof.
  induction l as [|[k [a t]] l IH]; cbn; intros f f' k' a' t' E H; [contradiction|].
  destruct (create_dataset _ _ _) as [f1|e] eqn:C; [|discriminate]. destruct H as [H|H].
  - injection H as <- <- <-. eapply write_sets_keeps; [exact E|]. destruct (create_fget _ _ _ _ (internal_path r k) C) as [-> _].
    now rewrite (proj2 (ipath_eqb_iff _ _) eq_refl).
  - eapply IH; eassumption.
Qed.
Lemma write_sets_others r i : forall l f f' x q, write_sets r i l f = (f', x) -> (forall k, In k (dkeys l) -> internal_path r k <> q) -> fget f' q = fget f q.
Proof.
  induction l as [|[k [a t]] l IH]; cbn; intros f f' x q E H; [now injection E as <- _|].
  destruct (create_dataset _ _ _) as [f1|e] eqn:C; [|now injection E as <- _]. rewrite (IH f1 f' x q E) by (intros; apply H; now right).
  destruct (create_fget _ _ _ _ q C) as [-> _]. destruct (ipath_eqb _ q) eqn:Q; [|reflexivity]. apply ipath_eqb_iff in Q. exfalso. apply (H k); [now left|exact Q].
Qed.
Lemma write_sets_succeeds r i : forall l f, (forall k, In k (dkeys l) -> internal_path r k <> []) ->
  (forall k q e, In k (dkeys l) -> In (q, e) f -> ~ Clash (internal_path r k) q) ->
  ForallOrdPairs (fun k k' => ~ Clash (internal_path r k) (internal_path r k')) (dkeys l) ->
  exists f', write_sets r i l f = (f', Ok tt).
Proof.
  induction l as [|[k [a t]] l IH]; intros f N C P; [eexists; reflexivity|]. cbn [dkeys map fst] in *. inversion P as [|? ? P1 P2]; subst.
  cbn [write_sets]. rewrite create_ok; [|apply N; now left|intros q e I; apply (C k q e); [now left|exact I]].
  apply IH; [intros; apply N; now right| |exact P2]. intros k' q e K I. apply in_app_iff in I as [I|[I|[]]].
  - apply (C k' q e); [now right|exact I].
  - injection I as <- _. rewrite Forall_forall in P1. intros X. apply (P1 k' K), clash_sym, X.
Qed.

(** * Paths *)
Lemma split_aux_app a : forall cur b, ~ In "/"%char a -> split_slash_aux cur (a ++ b) = split_slash_aux (rev a ++ cur) b.
Proof. induction a as [|x a IH]; intros cur b N; [reflexivity|]. cbn. destruct (chr_eqb x "/") eqn:E; [apply Ascii.eqb_eq in E; subst; exfalso; apply N; now left|].
  rewrite IH by (intros H; apply N; now right). rewrite <- app_assoc. reflexivity. Qed.
Lemma split_slash_cons a b : ~ In "/"%char a -> split_slash (a ++ L "/" ++ b) = a :: split_slash b.
Proof. intros N. unfold split_slash. rewrite split_aux_app by exact N. rewrite app_nil_r. change (L "/" ++ b) with ("/"%char :: b). cbn [split_slash_aux]. change (chr_eqb "/" "/") with true. cbv iota. rewrite rev_involutive. reflexivity. Qed.
Lemma uuid_no_slash n : ~ In "/"%char (uuid_str n).
Proof. intros H. apply uuid_str_chars in H. apply uuid_char_plain in H. vm_compute in H. discriminate. Qed.
Lemma default_path u tail : components (L "/RESQML/" ++ uuid_str u ++ L "/" ++ tail) = RESQML :: uuid_str u :: components tail.
Proof.
  unfold components. change (L "/RESQML/" ++ uuid_str u ++ L "/" ++ tail) with ([] ++ L "/" ++ L "RESQML" ++ L "/" ++ (uuid_str u ++ L "/" ++ tail)).
  rewrite split_slash_cons by (intros []). rewrite split_slash_cons by (cbv; intuition discriminate). rewrite split_slash_cons by apply uuid_no_slash.
  cbn [filter]. change (nonempty []) with false. change (nonempty (L "RESQML")) with true. cbv iota.
  destruct (uuid_str u) as [|c s] eqn:E; [pose proof (uuid_str_length u) as X; rewrite E in X; discriminate|]. reflexivity.
Qed.

(** * Copying *)
Lemma fget_below f g p : fget (below f g) p = if is_prefix g p then fget f p else None.
Proof.
  unfold fget, below. induction f as [|[q d] f IH]; cbn [filter fst dget]; [destruct (is_prefix g p); reflexivity|].
  destruct (is_prefix g q) eqn:Q; cbn [dget].
  - destruct (ipath_eqb q p) eqn:E; [apply ipath_eqb_iff in E; subst; now rewrite Q|]. exact IH.
  - destruct (ipath_eqb q p) eqn:E; [apply ipath_eqb_iff in E; subst; rewrite Q in *; exact IH|]. exact IH.
Qed.
Lemma children_spec f g : forall seen c, In c (children f g seen) <-> ~ In c seen /\ exists p d r, In (p, d) f /\ p = g ++ c :: r.
Proof.
  induction f as [|[p d] f IH]; intros seen c; cbn [children].
  - split; [intros []|intros (_ & p & d & r & [] & _)].
  - destruct (if is_prefix g p then nth_error p (List.length g) else None) as [x|] eqn:E.
    + destruct (is_prefix g p) eqn:P; [|discriminate]. apply is_prefix_iff in P as [r ->].
      rewrite nth_error_app2, Nat.sub_diag in E by lia. destruct r as [|y r]; [discriminate|]. cbn in E. injection E as ->.
      destruct (existsb (str_eqb x) seen) eqn:S.
      * apply existsb_exists in S as (z & S1 & S2). apply str_eqb_eq in S2. subst z. rewrite IH. split.
        -- intros (N & q & e & r' & I & ->). split; [exact N|]. exists (g ++ c :: r'), e, r'. split; [now right|reflexivity].
        -- intros (N & q & e & r' & [I|I] & ->); [injection I as I _; apply app_inv_head in I; congruence|]. split; [exact N|]. eauto 10.
      * assert (~ In x seen) as NS. { intros X. apply not_true_iff_false in S. apply S, existsb_exists. exists x. split; [exact X|apply str_eqb_refl]. }
        cbn [In]. rewrite IH. split.
        -- intros [-> |(N & q & e & r' & I & ->)].
           ++ split; [exact NS|]. exists (g ++ c :: r), d, r. split; [now left|reflexivity].
           ++ split; [intros X; apply N; now right|]. exists (g ++ c :: r'), e, r'. split; [now right|reflexivity].
        -- intros (N & q & e & r' & I & ->). destruct (list_eq_dec Ascii.ascii_dec x c) as [->|NX]; [now left|right].
           split; [cbn; tauto|]. destruct I as [I|I]; [injection I as I _; apply app_inv_head in I; congruence|]. eauto 10.
    + rewrite IH. split.
      * intros (N & q & e & r & I & ->). split; [exact N|]. exists (g ++ c :: r), e, r. split; [now right|reflexivity].
      * intros (N & q & e & r & [I|I] & ->); [|eauto 10]. exfalso. injection I as -> _.
        assert (is_prefix g (g ++ c :: r) = true) as X by (apply is_prefix_iff; now exists (c :: r)). rewrite X in E.
        rewrite nth_error_app2, Nat.sub_diag in E by lia. discriminate.
Qed.
Lemma children_nodup f g : forall seen, NoDup (children f g seen).
Proof.
  induction f as [|[p d] f IH]; intros seen; cbn [children]; [constructor|]. destruct (if is_prefix g p then _ else _) as [x|]; [|apply IH].
  destruct (existsb _ _); [apply IH|]. constructor; [|apply IH]. rewrite children_spec. intros [N _]. apply N. now left.
Qed.

(** whether copying reaches a path, and how many groups it copies *)
Definition takes (incl excl : option (list Z)) (out : h5file) (g : str) : bool := negb (skip_group incl excl g) && negb (fhas out [RESQML; g]).
Lemma fhas_below f g g' : g <> g' -> fhas (below f [RESQML; g]) [RESQML; g'] = false.
Proof.
  intros N. apply not_true_iff_false. rewrite fhas_iff. intros (q & d & I & [r ->]). unfold below in I. apply filter_In in I as [_ I]. cbn [fst] in I.
  apply is_prefix_iff in I as [r' E]. cbn in E. congruence.
Qed.
Lemma copy_groups_spec f incl excl : forall gs out o n, NoDup gs -> copy_groups f incl excl gs out = (o, n) ->
  n = Z.of_nat (List.length (filter (takes incl excl out) gs)) /\
  forall p, fget o p = match p with
                       | a :: g :: _ => if str_eqb a RESQML && existsb (str_eqb g) gs && takes incl excl out g then fget f p else fget out p
                       | _ => fget out p
                       end.
Proof.
  induction gs as [|g gs IH]; intros out o n ND E; cbn [copy_groups] in E.
  - injection E as <- <-. split; [reflexivity|]. intros [|a [|b p]]; try reflexivity. rewrite andb_comm, andb_assoc. cbn [existsb]. rewrite !andb_false_r. reflexivity.
  - inversion ND as [|? ? N1 N2]; subst.
    assert (forall x, x = g -> existsb (str_eqb x) gs = false) as NG.
    { intros x ->. apply not_true_iff_false. rewrite existsb_exists. intros (y & Y1 & Y2). apply str_eqb_eq in Y2. subst. contradiction. }
    cbn [filter]. destruct (takes incl excl out g) eqn:T.
    + unfold takes in T. apply andb_true_iff in T as [T1 T2]. apply negb_true_iff in T1, T2. rewrite T1, T2 in E.
      destruct (copy_groups _ _ _ _ _) as [o1 n1] eqn:C. injection E as <- <-. destruct (IH _ _ _ N2 C) as [-> F].
      assert (forall x, x <> g -> takes incl excl (out ++ below f [RESQML; g]) x = takes incl excl out x) as TX.
      { intros x X. unfold takes. rewrite fhas_app, fhas_below by congruence. now rewrite orb_false_r. }
      split.
      * cbn [List.length]. rewrite (filter_ext_in (takes incl excl (out ++ below f [RESQML; g])) (takes incl excl out)); [lia|].
        intros x X. apply TX. congruence.
      * intros p. rewrite F. destruct p as [|a [|b p]].
        -- rewrite fget_app, fget_below. cbn [is_prefix]. destruct (fget out []); reflexivity.
        -- rewrite fget_app, fget_below. cbn [is_prefix]. rewrite andb_false_r. destruct (fget out [a]); reflexivity.
        -- cbn [existsb]. destruct (str_eqb_spec b g) as [->|NB].
           ++ rewrite (NG g eq_refl), ?str_eqb_refl, ?andb_false_r. cbn [andb orb]. unfold takes. rewrite T1, T2. cbn [negb andb]. rewrite ?andb_true_r, ?andb_false_r. cbn [andb].
              rewrite fget_app, fget_below. cbn [is_prefix]. rewrite ?str_eqb_refl, ?andb_true_r. cbn [andb].
              destruct (str_eqb_spec a RESQML) as [->|NA].
              ** rewrite str_eqb_refl. assert (fget out (RESQML :: g :: p) = None) as ->; [|reflexivity]. apply fget_none. intros d D.
                 apply not_true_iff_false in T2. apply T2, fhas_iff. exists (RESQML :: g :: p), d. split; [exact D|]. exists p. reflexivity.
              ** destruct (str_eqb_spec RESQML a) as [X|_]; [congruence|]. destruct (fget out _); reflexivity.
           ++ cbn [orb]. rewrite TX by exact NB. rewrite fget_app, fget_below. cbn [is_prefix].
              assert (str_eqb g b = false) as -> by (destruct (str_eqb_spec g b); congruence). rewrite andb_false_l, andb_false_r.
              destruct (fget out _); reflexivity.
    + assert (copy_groups f incl excl gs out = (o, n)) as E'.
      { unfold takes in T. destruct (skip_group incl excl g); [exact E|]. destruct (fhas out [RESQML; g]); [exact E|discriminate]. }
      destruct (IH _ _ _ N2 E') as [-> F]. split; [reflexivity|]. intros p. rewrite F. destruct p as [|a [|b p]]; try reflexivity. cbn [existsb].
      destruct (str_eqb_spec b g) as [->|NB]; [|reflexivity]. rewrite T, !andb_false_r. reflexivity.
Qed.
