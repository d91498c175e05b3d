(** StrProofs.v: facts about the string operations of StrModel. *)
From Verif Require Import Base TextModel StrModel.

Lemma chr_eqb_spec a b : Bool.reflect (a = b) (chr_eqb a b).
Proof. apply Ascii.eqb_spec. Qed.
Lemma chr_eqb_refl a : chr_eqb a a = true.
Proof. apply Ascii.eqb_refl. Qed.

Lemma str_eqb_spec a b : Bool.reflect (a = b) (str_eqb a b).
Proof.
  revert b. induction a as [|x a IH]; intros [|y b]; cbn; try (constructor; congruence).
  destruct (chr_eqb_spec x y) as [->|N]; cbn; [|constructor; congruence].
  destruct (IH b) as [->|N]; constructor; congruence.
Qed.
Lemma str_eqb_eq a b : str_eqb a b = true <-> a = b.
Proof. destruct (str_eqb_spec a b); split; congruence. Qed.
Lemma str_eqb_refl a : str_eqb a a = true.
Proof. now apply str_eqb_eq. Qed.

Lemma startswith_iff s p : startswith s p = true <-> exists t, s = p ++ t.
Proof.
  revert s. induction p as [|x p IH]; intros s; cbn.
  - split; eauto.
  - destruct s as [|y s]; [split; [discriminate|intros [t E]; discriminate]|].
    rewrite andb_true_iff, IH. destruct (chr_eqb_spec x y) as [->|N].
    + split; [intros [_ [t ->]]; eauto|]. intros [t E]. injection E as ->. eauto.
    + split; [intros [E _]; discriminate|]. intros [t E]. injection E as -> _. contradiction.
Qed.
Lemma startswith_app p t : startswith (p ++ t) p = true.
Proof. apply startswith_iff. eauto. Qed.
Lemma endswith_iff s p : endswith s p = true <-> exists t, s = t ++ p.
Proof.
  unfold endswith. rewrite startswith_iff. split; intros [t E].
  - exists (rev t). apply (f_equal (@rev ascii)) in E. now rewrite rev_app_distr, !rev_involutive in E.
  - exists (rev t). rewrite E. apply rev_app_distr.
Qed.

Lemma find_chr_none c s : find_chr c s = None <-> ~ In c s.
Proof.
  induction s as [|x s IH]; cbn; [tauto|]. destruct (chr_eqb_spec x c) as [->|N].
  - split; [discriminate|]. intros H. exfalso. auto.
  - destruct (find_chr c s); cbn; split.
    + discriminate.
    + intros H. exfalso. assert (~ In c s) by auto. apply IH in H0. discriminate.
    + intros _ [E|E]; [contradiction|]. now apply IH in E.
    + reflexivity.
Qed.

Lemma find_chr_app c s t : ~ In c s -> find_chr c (s ++ c :: t) = Some (List.length s).
Proof.
  induction s as [|x s IH]; intros H; cbn; [now rewrite chr_eqb_refl|].
  destruct (chr_eqb_spec x c) as [->|N]; [exfalso; apply H; now left|].
  rewrite IH by (intros E; apply H; now right). reflexivity.
Qed.
Lemma find_chr_some c s k : find_chr c s = Some k -> exists a b, s = a ++ c :: b /\ List.length a = k /\ ~ In c a.
Proof.
  revert k. induction s as [|x s IH]; intros k; cbn; [discriminate|].
  destruct (chr_eqb_spec x c) as [->|N].
  - intros [= <-]. exists [], s. auto.
  - destruct (find_chr c s) as [k'|]; cbn; [|discriminate]. intros [= <-].
    destruct (IH k' eq_refl) as (a & b & -> & <- & H). exists (x :: a), b. cbn. repeat split; auto.
    intros [E|E]; auto.
Qed.
Lemma rfind_chr_none c s : rfind_chr c s = None <-> ~ In c s.
Proof.
  unfold rfind_chr. rewrite (in_rev s c). rewrite <- find_chr_none.
  destruct (find_chr c (rev s)); split; congruence.
Qed.
Lemma rfind_chr_some c s k : rfind_chr c s = Some k -> exists a b, s = a ++ c :: b /\ List.length a = k /\ ~ In c b.
Proof.
  unfold rfind_chr. destruct (find_chr c (rev s)) as [j|] eqn:E; [|discriminate].
  intros [= <-]. apply find_chr_some in E. destruct E as (a & b & E & <- & H).
  exists (rev b), (rev a).
  apply (f_equal (@rev ascii)) in E. rewrite rev_involutive, rev_app_distr in E. cbn in E. rewrite <- app_assoc in E. cbn in E.
  split; [exact E|]. split.
  - rewrite E, app_length. cbn. rewrite !rev_length. lia.
  - now rewrite <- in_rev.
Qed.
Lemma rfind_chr_app c a b : ~ In c b -> rfind_chr c (a ++ c :: b) = Some (List.length a).
Proof.
  intros H. unfold rfind_chr. rewrite rev_app_distr. cbn. rewrite <- app_assoc. cbn.
  rewrite find_chr_app by (now rewrite <- in_rev). rewrite rev_length, app_length. cbn. f_equal. lia.
Qed.

Lemma replace_aux_skip pat rep s k : (k <= List.length s)%nat -> replace_aux pat rep s k = replace_aux pat rep (skipn k s) 0.
Proof.
  revert s. induction k as [|k IH]; intros s H; [reflexivity|].
  destruct s as [|c s]; [cbn in H; lia|]. cbn [replace_aux skipn]. cbn in H. apply IH. lia.
Qed.
(** Replacing a single character. *)
Lemma replace_chr_app c rep s t : replace (s ++ t) [c] rep = replace s [c] rep ++ replace t [c] rep.
Proof.
  unfold replace. induction s as [|x s IH]; [reflexivity|]. cbn [app replace_aux startswith List.length Nat.sub].
  rewrite IH. destruct (chr_eqb c x && true); [now rewrite app_assoc|reflexivity].
Qed.
Lemma replace_chr_absent c rep s : ~ In c s -> replace s [c] rep = s.
Proof.
  unfold replace. induction s as [|x s IH]; intros H; [reflexivity|]. cbn [replace_aux startswith].
  destruct (chr_eqb_spec c x) as [->|N]; [exfalso; apply H; now left|]. cbn. f_equal. apply IH. intros E. apply H. now right.
Qed.
(** A pattern whose first character does not occur is never found. *)
Lemma replace_absent_head c p rep s : ~ In c s -> replace s (c :: p) rep = s.
Proof.
  unfold replace. induction s as [|x s IH]; intros H; [reflexivity|]. cbn [replace_aux startswith].
  destruct (chr_eqb_spec c x) as [->|N]; [exfalso; apply H; now left|]. cbn. f_equal. apply IH. intros E. apply H. now right.
Qed.

Lemma lstrip_id p s : (forall c t, s = c :: t -> p c = false) -> lstrip p s = s.
Proof. destruct s as [|c s]; intros H; [reflexivity|]. cbn. now rewrite (H c s eq_refl). Qed.
Lemma strip_id p s : (forall c, In c s -> p c = false) -> strip p s = s.
Proof.
  intros H. unfold strip, rstrip.
  rewrite (lstrip_id p s). 2:{ intros c t ->. apply H. now left. }
  rewrite lstrip_id; [apply rev_involutive|]. intros c t E. apply H. apply in_rev. rewrite E. now left.
Qed.

Lemma skipn_app_exact {A} (a b : list A) n : n = List.length a -> skipn n (a ++ b) = b.
Proof. intros ->. rewrite skipn_app, skipn_all, Nat.sub_diag. reflexivity. Qed.
Lemma firstn_app_exact {A} (a b : list A) n : n = List.length a -> firstn n (a ++ b) = a.
Proof. intros ->. rewrite firstn_app, Nat.sub_diag, firstn_all. cbn. apply app_nil_r. Qed.
Lemma last_n_app s t n : n = List.length t -> last_n (s ++ t) n = t.
Proof. intros ->. unfold last_n. apply skipn_app_exact. rewrite app_length. lia. Qed.
Lemma last_n_m_app s t u n m : m = List.length u -> n = (List.length t + m)%nat -> last_n_m (s ++ t ++ u) n m = t.
Proof.
  intros -> ->. unfold last_n_m. rewrite last_n_app by (rewrite app_length; lia). apply firstn_app_exact. lia.
Qed.
Lemma skipn_skipn {A} a b (l : list A) : skipn a (skipn b l) = skipn (b + a) l.
Proof. revert l. induction b as [|b IH]; intros l; [reflexivity|]. destruct l; [now rewrite !skipn_nil|]. apply IH. Qed.
