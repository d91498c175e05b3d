(** CatalogueProps.v: property theorems about part queries (C20, C21). *)
From Verif Require Import Base TextModel StrModel StrProofs UuidModel UuidProofs PyDict PySort ForestModel ForestProofs ForestProps CatalogueModel CatalogueProofs.
From Coq Require Import Permutation Sorted.

(** * uuid strings sort as the uuids do *)
Lemma str_le_app x y s t : List.length x = List.length y ->
  (str_le (x ++ s) (y ++ t) = true <-> str_le x y = true /\ (x = y -> str_le s t = true)).
Proof.
  revert y. induction x as [|a x IH]; intros [|b y] Hl; cbn in Hl; try discriminate.
  - cbn. split; [auto|]. intros [_ H]. auto.
  - cbn. destruct (N.ltb_spec (N_of_ascii a) (N_of_ascii b)).
    + split; [intros _; split; [reflexivity|]|reflexivity]. intros E. injection E as -> _. lia.
    + destruct (N.ltb_spec (N_of_ascii b) (N_of_ascii a)).
      * split; [discriminate|intros [E _]; discriminate].
      * rewrite IH by lia. assert (a = b). { rewrite <- (ascii_N_embedding a), <- (ascii_N_embedding b). f_equal. lia. }
        subst b. split; intros [H1 H2]; (split; [assumption|]); intros E; apply H2; congruence.
Qed.
Lemma hex_digit_le a b : 0 <= a -> a <= b -> b < 16 -> str_le [hex_digit a] [hex_digit b] = true.
Proof.
  intros H1 H2 H3. assert (Ha : In a (zrange 16)) by (apply in_zrange; lia). assert (Hb : In b (zrange 16)) by (apply in_zrange; lia).
  vm_compute in Ha, Hb.
  repeat (destruct Ha as [<-|Ha]; [repeat (destruct Hb as [<-|Hb]; [first [vm_compute; reflexivity|lia]|]); contradiction|]). contradiction.
Qed.
Lemma hex_fixed_inj k a b : 0 <= a < 16 ^ Z.of_nat k -> 0 <= b < 16 ^ Z.of_nat k -> hex_fixed k a = hex_fixed k b -> a = b.
Proof.
  intros Ha Hb E. pose proof (hex_fixed_value k a 0 ltac:(lia)) as Va. pose proof (hex_fixed_value k b 0 ltac:(lia)) as Vb.
  rewrite E, Vb in Va. rewrite !Z.mod_small in Va by lia. lia.
Qed.
Lemma hex_fixed_le k : forall a b, 0 <= a -> a <= b -> b < 16 ^ Z.of_nat k -> str_le (hex_fixed k a) (hex_fixed k b) = true.
Proof.
  induction k as [|k IH]; intros a b H1 H2 H3; [reflexivity|]. cbn [hex_fixed].
  rewrite Nat2Z.inj_succ, Z.pow_succ_r in H3 by lia.
  assert (Hd : a / 16 <= b / 16) by (apply Z.div_le_mono; lia).
  assert (Hb : b / 16 < 16 ^ Z.of_nat k) by (apply Z.div_lt_upper_bound; lia).
  assert (Ha : 0 <= a / 16) by (apply Z.div_pos; lia).
  apply str_le_app; [now rewrite !hex_fixed_length|]. split; [apply IH; lia|].
  intros E. apply hex_fixed_inj in E; [|lia|lia].
  pose proof (Z.mod_pos_bound a 16). pose proof (Z.mod_pos_bound b 16). pose proof (Z.div_mod a 16). pose proof (Z.div_mod b 16).
  apply hex_digit_le; lia.
Qed.
Lemma str_le_refl x : str_le x x = true.
Proof. destruct (o_total _ str_le_order x x); assumption. Qed.
Lemma str_le_dash n (f : str -> str) s t : List.length s = List.length t -> str_le s t = true ->
  (str_le (skipn n s) (skipn n t) = true -> str_le (f (skipn n s)) (f (skipn n t)) = true) ->
  str_le (firstn n s ++ L "-" ++ f (skipn n s)) (firstn n t ++ L "-" ++ f (skipn n t)) = true.
Proof.
  intros Hl H Hf. rewrite <- (firstn_skipn n s), <- (firstn_skipn n t) in H.
  assert (Hn : List.length (firstn n s) = List.length (firstn n t)) by (rewrite !firstn_length; lia).
  apply str_le_app in H; [|assumption]. destruct H as [H1 H2]. apply str_le_app; [assumption|]. split; [assumption|].
  intros E. apply str_le_app; [reflexivity|]. split; [apply str_le_refl|]. auto.
Qed.
Lemma uuid_str_mono a b : IsUuid a -> IsUuid b -> a <= b -> str_le (uuid_str a) (uuid_str b) = true.
Proof.
  intros Ha Hb Hab. unfold uuid_str.
  assert (H : str_le (hex_fixed 32 a) (hex_fixed 32 b) = true).
  { apply hex_fixed_le; [apply Ha|assumption|]. change (16 ^ Z.of_nat 32) with uuid_bound. apply Hb. }
  assert (Hl : List.length (hex_fixed 32 a) = List.length (hex_fixed 32 b)) by now rewrite !hex_fixed_length.
  set (s := hex_fixed 32 a) in *. set (t := hex_fixed 32 b) in *. clearbody s t.
  change 20%nat with (16 + 4)%nat. change 16%nat with (12 + 4)%nat. change 12%nat with (8 + 4)%nat.
  rewrite <- !skipn_skipn.
  apply (str_le_dash 8 (fun x => firstn 4 x ++ L "-" ++ firstn 4 (skipn 4 x) ++ L "-" ++ firstn 4 (skipn 4 (skipn 4 x)) ++ L "-" ++ skipn 4 (skipn 4 (skipn 4 x)))); [assumption|assumption|].
  intros H1. apply (str_le_dash 4 (fun x => firstn 4 x ++ L "-" ++ firstn 4 (skipn 4 x) ++ L "-" ++ skipn 4 (skipn 4 x))); [rewrite !skipn_length; lia|assumption|].
  intros H2. apply (str_le_dash 4 (fun x => firstn 4 x ++ L "-" ++ skipn 4 x)); [rewrite !skipn_length; lia|assumption|].
  intros H3. apply (str_le_dash 4 (fun x => x)); [rewrite !skipn_length; lia|assumption|]. auto.
Qed.
Lemma uuid_str_inj a b : IsUuid a -> IsUuid b -> uuid_str a = uuid_str b -> a = b.
Proof. intros Ha Hb E. pose proof (UUID_of_hex_str a Ha) as H1. rewrite E, (UUID_of_hex_str b Hb) in H1. congruence. Qed.
Lemma uuid_str_le a b : IsUuid a -> IsUuid b -> (str_le (uuid_str a) (uuid_str b) = true <-> a <= b).
Proof.
  intros Ha Hb. split; [|now apply uuid_str_mono]. intros H. destruct (Z.le_gt_cases a b) as [|G]; [assumption|].
  assert (a = b); [|lia]. apply uuid_str_inj; [assumption|assumption|]. apply (o_antisym _ str_le_order); [assumption|]. apply uuid_str_mono; [assumption|assumption|lia].
Qed.

Lemma uuid_in_part_name_bound p u : uuid_in_part_name p = Ok (Some u) -> IsUuid u.
Proof.
  assert (G : forall s v, UUID_of_hex s = Ok v -> IsUuid v).
  { intros s v. unfold UUID_of_hex, UUID_of_int, IsUuid. destruct (negb _); [discriminate|]. destruct (int16 _) as [n|]; [|discriminate].
    destruct ((0 <=? n) && (n <? uuid_bound)) eqn:E; [|discriminate]. intros H. injection H as <-. lia. }
  unfold uuid_in_part_name. intros H.
  repeat match type of H with context[if ?b then _ else _] => destruct b end; try discriminate.
  all: match type of H with bind ?r _ = _ => destruct r eqn:E; [|discriminate] end; injection H as <-; eauto.
Qed.

Lemma SSorted_impl {A} (R S : A -> A -> Prop) l : (forall a b, R a b -> S a b) -> StronglySorted R l -> StronglySorted S l.
Proof. intros H. induction 1; constructor; [assumption|]. eapply Forall_impl; [|eassumption]. auto. Qed.

(** * C20 *)
(** [base m q] is the parts list passed, or all the object parts when none (or an empty
    one) is passed; [ValidQ] asks for a documented title mode, for relationships to be
    present if they are queried, and for no epc_subdir.  The result is the base list
    restricted, in order, to exactly the parts that satisfy every criterion. *)
Theorem C20_parts_are_exactly_the_matches : forall rp os m q, Run FreshOp (new_model rp) os m ->
  ValidQ m q -> Sortless q -> NoDup (base m q) -> incl (base m q) (dkeys (parts m)) ->
  exists f, parts_q m q = Ok (Some (filter f (base m q))) /\ forall p, In p (base m q) -> (f p = true <-> Satisfies m q p).
Proof.
  intros rp os m q H V S Hn Hi. apply run_cat in H; [|apply cat_new].
  destruct (parts_q_ok m q H V Hn Hi) as (l' & E & f & -> & Hf). exists f. split; [|exact Hf].
  rewrite E. unfold sort_step. destruct S as [-> | ->]; reflexivity.
Qed.
Print Assumptions C20_parts_are_exactly_the_matches.
(** Which names are listed as object parts: the file name, after any directory, starts with
    obj_ but not with obj_Epc (the hdf5 proxies). *)
Lemma upto_startswith s p : str_eqb (upto s (List.length p)) p = true <-> exists r, s = p ++ r.
Proof.
  rewrite str_eqb_eq. split.
  - intros E. exists (skipn (List.length p) s). unfold upto in E. rewrite <- E at 1. now rewrite firstn_skipn.
  - intros [r ->]. unfold upto. rewrite firstn_app, firstn_all, Nat.sub_diag, firstn_O. apply app_nil_r.
Qed.
Lemma find_chr_none c s : find_chr c s = None <-> ~ In c s.
Proof.
  induction s as [|x s IH]; cbn; [tauto|]. unfold chr_eqb. destruct (Ascii.eqb x c) eqn:E.
  - apply Ascii.eqb_eq in E. subst. split; [discriminate|]. intros H. exfalso. apply H. now left.
  - apply Ascii.eqb_neq in E. destruct (find_chr c s); cbn; (split; [intros; try discriminate|intros H]).
    + exfalso. apply H. right. destruct IH as [_ IH2]. destruct (in_dec ascii_dec c s) as [|N]; [assumption|]. specialize (IH2 N). discriminate.
    + intros [->|Hi]; [congruence|]. now apply IH.
    + reflexivity.
Qed.
Lemma find_chr_some c s k : find_chr c s = Some k -> exists a b, s = a ++ c :: b /\ List.length a = k /\ ~ In c a.
Proof.
  revert k. induction s as [|x s IH]; cbn; intros k H; [discriminate|]. unfold chr_eqb in H. destruct (Ascii.eqb x c) eqn:E.
  - apply Ascii.eqb_eq in E. injection H as <-. subst. exists [], s. auto.
  - destruct (find_chr c s) as [j|]; [|discriminate]. injection H as <-. destruct (IH j eq_refl) as (a & b & -> & <- & N).
    exists (x :: a), b. repeat split. intros [->|Hi]; [rewrite Ascii.eqb_refl in E; discriminate|auto].
Qed.
Lemma rfind_split c s : match rfind_chr c s with
  | None => ~ In c s
  | Some k => exists a b, s = a ++ c :: b /\ List.length a = k /\ ~ In c b end.
Proof.
  unfold rfind_chr. destruct (find_chr c (rev s)) as [k|] eqn:E.
  - apply find_chr_some in E. destruct E as (a & b & E & <- & N). exists (rev b), (rev a).
    assert (Es : s = rev b ++ c :: rev a). { rewrite <- (rev_involutive s), E, rev_app_distr. cbn. now rewrite <- app_assoc. }
    split; [exact Es|]. split; [|now rewrite <- in_rev]. rewrite Es at 1. rewrite app_length, !rev_length. cbn. rewrite rev_length. lia.
  - apply find_chr_none in E. now rewrite <- in_rev in E.
Qed.
Definition Listed (p : str) : Prop := exists dir rest, p = dir ++ L "obj_" ++ rest /\
  (dir = [] \/ exists d, dir = d ++ L "/") /\ ~ In "/"%char rest /\ ~ exists e, rest = L "Epc" ++ e.
Lemma is_obj_part_iff p : is_obj_part p = true <-> Listed p.
Proof.
  unfold is_obj_part. pose proof (rfind_split "/"%char p) as Hs.
  assert (Core : forall f, str_eqb (upto f 4) (L "obj_") && negb (str_eqb (upto f 7) (L "obj_Epc")) = true <->
     exists r, f = L "obj_" ++ r /\ ~ exists e, r = L "Epc" ++ e).
  { intros f. rewrite andb_true_iff, negb_true_iff. change 7%nat with (List.length (L "obj_Epc")). change 4%nat with (List.length (L "obj_")).
    rewrite upto_startswith, <- not_true_iff_false, upto_startswith. split.
    - intros [[r ->] N]. exists r. split; [reflexivity|]. intros [e ->]. apply N. exists e. reflexivity.
    - intros (r & -> & N). split; [eauto|]. intros [e E]. apply N. exists e. change (L "obj_Epc") with (L "obj_" ++ L "Epc") in E.
      rewrite <- app_assoc in E. now apply app_inv_head in E. }
  cbv zeta. rewrite Core. clear Core. unfold Listed. split.
  - intros (r & Ef & N). destruct (rfind_chr "/"%char p) as [k|].
    + destruct Hs as (a & b & -> & <- & Nb). assert (Eb : from (a ++ "/"%char :: b) (List.length a + 1) = b).
      { unfold from. rewrite skipn_app. rewrite skipn_all2 by lia. replace (List.length a + 1 - List.length a)%nat with 1%nat by lia. reflexivity. }
      rewrite Eb in Ef. subst b. exists (a ++ L "/"), r. split; [now rewrite <- app_assoc|]. split; [right; eauto|].
      split; [|exact N]. intros Hi. apply Nb. apply in_or_app. now right.
    + subst p. exists [], r. split; [reflexivity|]. split; [now left|]. split; [|exact N]. intros Hi. apply Hs. apply in_or_app. now right.
  - intros (dir & rest & -> & Hd & Nr & N). exists rest. split; [|exact N].
    assert (No : ~ In "/"%char (L "obj_" ++ rest)).
    { intros Hi. apply in_app_or in Hi. destruct Hi as [Hi|Hi]; [|auto]. cbn in Hi. intuition discriminate. }
    destruct (rfind_chr "/"%char (dir ++ L "obj_" ++ rest)) as [k|].
    + destruct Hs as (a & b & E & <- & Nb). destruct Hd as [->|[d ->]].
      * exfalso. apply No. cbn [app] in E. rewrite E. apply in_or_app. right. now left.
      * rewrite <- app_assoc in E. cbn [app L list_ascii_of_string] in E.
        assert (X : d = a /\ L "obj_" ++ rest = b).
        { clear -E Nb No. cbn [L list_ascii_of_string app] in *. revert a E. induction d as [|x d IH]; intros [|y a] E; cbn in E.
          - injection E as E. auto.
          - injection E as <- E. exfalso. apply No. rewrite E. apply in_or_app. right. now left.
          - injection E as -> E. exfalso. apply Nb. rewrite <- E. apply in_or_app. right. now left.
          - injection E as -> E. destruct (IH a E) as [-> ->]. auto. }
        destruct X as [<- Eb]. clear Eb. unfold from. cbn [L list_ascii_of_string app] in *.
        rewrite <- app_assoc. cbn [app]. rewrite skipn_app, skipn_all2 by lia.
        replace (List.length d + 1 - List.length d)%nat with 1%nat by lia. reflexivity.
    + destruct Hd as [->|[d ->]]; [reflexivity|]. exfalso. apply Hs. apply in_or_app. left. apply in_or_app. right. now left.
Qed.
(** The default list of parts always meets the two hypotheses on the base list. *)
Theorem C20_default_list_is_valid : forall rp os m q, Run FreshOp (new_model rp) os m -> q_list q = None ->
  NoDup (base m q) /\ incl (base m q) (dkeys (parts m)) /\
  (forall p, In p (base m q) <-> exists ct u t, sget (parts m) p = Some (ct, u, t) /\ Listed p).
Proof.
  intros rp os m q H Hl. apply run_cat in H; [|apply cat_new]. unfold base, list_of_parts. rewrite Hl, (c_objs m H).
  split; [apply NoDup_filter, H|]. split; [apply incl_filter|]. intros p. rewrite filter_In, is_obj_part_iff, (dkeys_dget str_eqb str_eqb_iff). split.
  - intros [[[[ct u] t] E] Ho]. eauto.
  - intros (ct & u & t & E & Ho). eauto.
Qed.
Print Assumptions C20_default_list_is_valid.

(** q' asks for everything q asks for, and perhaps more. *)
Definition Narrower (q q' : query) : Prop :=
  q_list q' = q_list q /\ (q_uuid q = None \/ q_uuid q' = q_uuid q) /\ (q_type q = None \/ q_type q' = q_type q) /\
  (q_title q = None \/ (q_title q' = q_title q /\ q_title_mode q' = q_title_mode q /\ q_case q' = q_case q)) /\
  incl (q_meta q) (q_meta q') /\ incl (q_extra q) (q_extra q') /\
  (q_related q = None \/ (q_related q' = q_related q /\ (q_rmode q = None \/ q_rmode q' = q_rmode q))).
Lemma satisfies_narrower m q q' p : Narrower q q' -> Satisfies m q' p -> Satisfies m q p.
Proof.
  intros (_ & N2 & N3 & N4 & N5 & N6 & N7) (ct & u & t & E & H1 & H2 & H3 & H4 & H5 & H6). exists ct, u, t. split; [exact E|].
  split; [intros v Hv; destruct N2 as [N2|N2]; [congruence|]; apply H1; congruence|].
  split; [destruct N3 as [-> |N3]; [exact Logic.I|]; now rewrite <- N3|].
  split; [destruct N4 as [-> |(N4 & N4' & N4'')]; [exact Logic.I|]; now rewrite <- N4, <- N4', <- N4''|].
  split; [intros k v Hk; apply H4; auto|]. split; [intros k v Hk; apply H5; auto|].
  intros v Hv. destruct N7 as [N7|[N7 N7']]; [congruence|]. assert (Hr := H6 v). rewrite N7 in Hr. specialize (Hr Hv).
  destruct N7' as [-> |N7']; [|now rewrite <- N7']. unfold Related in Hr. destruct (q_rmode q') as [[]|]; cbn; auto.
Qed.
(** Adding a criterion never adds a part. *)
Theorem C20_narrowing_never_adds : forall rp os m q q' l l', Run FreshOp (new_model rp) os m ->
  ValidQ m q -> ValidQ m q' -> Sortless q -> Sortless q' -> NoDup (base m q) -> incl (base m q) (dkeys (parts m)) ->
  Narrower q q' -> parts_q m q = Ok (Some l) -> parts_q m q' = Ok (Some l') -> incl l' l.
Proof.
  intros rp os m q q' l l' H V V' S S' Hn Hi N E E' p Hp.
  destruct (C20_parts_are_exactly_the_matches rp os m q H V S Hn Hi) as (f & Ef & Hf).
  assert (Eb : base m q' = base m q) by (unfold base; now rewrite (proj1 N)).
  destruct (C20_parts_are_exactly_the_matches rp os m q' H V' S') as (g & Eg & Hg); [now rewrite Eb|now rewrite Eb|].
  rewrite Ef in E. rewrite Eg in E'. injection E as <-. injection E' as <-. rewrite Eb in *. apply filter_In in Hp. destruct Hp as [Hb Hp].
  apply filter_In. split; [assumption|]. apply Hf; [assumption|]. eapply satisfies_narrower; [exact N|]. now apply Hg.
Qed.
Print Assumptions C20_narrowing_never_adds.
(** Applying two criteria in turn, by passing the first result on, gives the same list
    as applying them together, so their order is irrelevant. *)
Definition with_list (q : query) (l : list str) : query :=
  Query (Some l) (q_type q) (q_uuid q) (q_title q) (q_title_mode q) (q_case q) (q_meta q) (q_extra q) (q_related q) (q_rmode q) (q_subdir q) (q_sort q).
Lemma filter_ext_in' {A} (f g : A -> bool) l : (forall x, In x l -> f x = g x) -> filter f l = filter g l.
Proof. apply filter_ext_in. Qed.
Theorem C20_criteria_compose : forall rp os m q1 q2 q12 l1, Run FreshOp (new_model rp) os m ->
  ValidQ m q1 -> ValidQ m q2 -> ValidQ m q12 -> Sortless q1 -> Sortless q2 -> Sortless q12 ->
  q_list q12 = q_list q1 -> NoDup (base m q1) -> incl (base m q1) (dkeys (parts m)) ->
  (forall p, Satisfies m q12 p <-> Satisfies m q1 p /\ Satisfies m q2 p) ->
  parts_q m q1 = Ok (Some l1) -> l1 <> [] -> parts_q m (with_list q2 l1) = parts_q m q12.
Proof.
  intros rp os m q1 q2 q12 l1 H V1 V2 V12 S1 S2 S12 Hl Hn Hi Hs E Hne.
  destruct (C20_parts_are_exactly_the_matches rp os m q1 H V1 S1 Hn Hi) as (f & Ef & Hf). rewrite Ef in E. injection E as El.
  assert (Eb : base m q12 = base m q1) by (unfold base; now rewrite Hl).
  destruct (C20_parts_are_exactly_the_matches rp os m q12 H V12 S12) as (g & Eg & Hg); [now rewrite Eb|now rewrite Eb|].
  assert (Eb2 : base m (with_list q2 l1) = l1) by (unfold base, with_list; cbn; destruct l1; [contradiction|reflexivity]).
  assert (V2' : ValidQ m (with_list q2 l1)) by exact V2. assert (S2' : Sortless (with_list q2 l1)) by exact S2.
  destruct (C20_parts_are_exactly_the_matches rp os m (with_list q2 l1) H V2' S2') as (k & Ek & Hk).
  { rewrite Eb2, <- El. now apply NoDup_filter. }
  { rewrite Eb2, <- El. intros x Hx. apply Hi. eapply incl_filter; eassumption. }
  rewrite Eg, Ek, Eb, Eb2. do 2 f_equal. rewrite Eb2 in Hk. rewrite Eb in Hg. rewrite <- El in *.
  rewrite filter_filter. apply filter_ext_in. intros p Hp. specialize (Hf p Hp). specialize (Hg p Hp). rewrite Hs in Hg.
  change (Satisfies m (with_list q2 (filter f (base m q1))) p) with (Satisfies m q2 p) in Hk.
  destruct (f p) eqn:Efp; cbn.
  - specialize (Hk p (proj2 (filter_In _ _ _) (conj Hp Efp))). change (Satisfies m (with_list q2 (filter f (base m q1))) p) with (Satisfies m q2 p) in Hk.
    destruct (g p), (k p); try reflexivity.
    + apply Hk. tauto.
    + symmetry. apply Hg. tauto.
  - destruct (g p); [|reflexivity]. assert (true = true) by reflexivity. apply Hg in H0. destruct H0 as [H0 _]. now apply Hf in H0.
Qed.
Print Assumptions C20_criteria_compose.

(** A sorted query returns the same parts, in the order of the requested key. *)
Definition created_at (m : mdl) (p : str) (c : str) : Prop := exists ct u t, sget (parts m) p = Some (ct, u, t) /\ t_created t = c.
Theorem C20_sorting_keeps_the_parts : forall rp os m q s, Run FreshOp (new_model rp) os m ->
  ValidQ m q -> NoDup (base m q) -> incl (base m q) (dkeys (parts m)) -> q_sort q = Some (L s) ->
  In s ["type"; "newest"; "oldest"; "uuid"; "title"]%string ->
  exists l l', parts_q m (unsorted q) = Ok (Some l) /\ parts_q m q = Ok (Some l') /\ Permutation l l' /\
    (s = "type"%string -> StronglySorted (fun a b => str_le a b = true) l') /\
    (s = "newest"%string -> StronglySorted (fun a b => str_le (created_of m b) (created_of m a) = true) l') /\
    (s = "oldest"%string -> StronglySorted (fun a b => str_le (created_of m a) (created_of m b) = true) l') /\
    (s = "title"%string -> StronglySorted (fun a b => str_le (citation_title_for_part m a) (citation_title_for_part m b) = true) l') /\
    (s = "uuid"%string -> StronglySorted (fun a b => forall u v, uuid_for_part m a = Ok u -> uuid_for_part m b = Ok v -> u <= v) l').
Proof.
  intros rp os m q s H V Hn Hi Hs Hin. pose proof (run_cat _ _ _ H (cat_new rp)) as C.
  destruct (parts_q_ok m q C V Hn Hi) as (l & E & S). destruct (parts_q_ok m (unsorted q) C V Hn Hi) as (l2 & E2 & S2).
  assert (l2 = l).
  { destruct S as (f & -> & Hf), S2 as (g & -> & Hg). change (base m (unsorted q)) with (base m q) in *. apply filter_ext_in.
    intros p Hp. specialize (Hf p Hp). specialize (Hg p Hp). change (Satisfies m (unsorted q) p) with (Satisfies m q p) in Hg.
    apply eq_true_iff_eq. tauto. }
  subst l2. assert (Il : incl l (dkeys (parts m))) by (intros x Hx; apply Hi; eapply stage_incl; eassumption).
  exists l. unfold sort_step in E. rewrite Hs in E.
  assert (G : exists l', sorted_parts_list m l (L s) = Ok l' /\ Permutation l l' /\
    (s = "type"%string -> StronglySorted (fun a b => str_le a b = true) l') /\
    (s = "newest"%string -> StronglySorted (fun a b => str_le (created_of m b) (created_of m a) = true) l') /\
    (s = "oldest"%string -> StronglySorted (fun a b => str_le (created_of m a) (created_of m b) = true) l') /\
    (s = "title"%string -> StronglySorted (fun a b => str_le (citation_title_for_part m a) (citation_title_for_part m b) = true) l') /\
    (s = "uuid"%string -> StronglySorted (fun a b => forall u v, uuid_for_part m a = Ok u -> uuid_for_part m b = Ok v -> u <= v) l')).
  { unfold sorted_parts_list.
    destruct Hin as [<-|[<-|[<-|[<-|[<-|[]]]]]]; cbn [str_eqb L list_ascii_of_string]; unfold chr_eqb; cbn [Ascii.eqb Bool.eqb andb].
    - eexists. split; [reflexivity|]. split; [apply isort_perm|]. split; [intros _; apply isort_sorted, str_le_order|]. repeat split; discriminate.
    - destruct (timestamp_sort_ok m l Il) as (l' & -> & P & T). exists l'. split; [reflexivity|]. split; [exact P|].
      split; [discriminate|]. split; [intros _; exact T|]. repeat split; discriminate.
    - destruct (timestamp_sort_ok m l Il) as (l' & -> & P & T). exists (rev l'). split; [reflexivity|].
      split; [rewrite <- Permutation_rev; exact P|]. split; [discriminate|]. split; [discriminate|].
      split; [intros _; apply StronglySorted_rev in T; exact T|]. repeat split; discriminate.
    - rewrite (all_known_ok m l Il). cbn [bind]. eexists. split; [reflexivity|]. split; [apply sorted_by_key_perm|].
      do 4 (split; [discriminate|]). intros _. pose proof (sorted_by_key_sorted (uuid_key m) l) as T.
      eapply SSorted_impl; [|exact T]. intros a b Hab u v Hu Hv. unfold uuid_key in Hab. rewrite Hu, Hv in Hab.
      assert (U : forall p w, uuid_for_part m p = Ok w -> IsUuid w).
      { intros p w Hw. unfold uuid_for_part in Hw. destruct (sget (parts m) p) as [[[ct z] t]|] eqn:Ez; [|discriminate]. injection Hw as <-.
        apply (c_part_uuid m C) in Ez. destruct Ez as [_ Ez]. eapply uuid_in_part_name_bound. exact Ez. }
      apply uuid_str_le; eauto.
    - eexists. split; [reflexivity|]. split; [apply sorted_by_key_perm|]. do 3 (split; [discriminate|]).
      split; [intros _; apply sorted_by_key_sorted|discriminate]. }
  destruct G as (l' & Es & P & G). exists l'.
  split; [exact E2|]. split; [|split; [exact P|exact G]].
  rewrite E. assert (Ne : L s <> []) by (destruct Hin as [<-|[<-|[<-|[<-|[<-|[]]]]]]; discriminate).
  destruct (L s) as [|c cs]; [contradiction|]. destruct l as [|p l]; [apply Permutation_nil in P; subst; reflexivity|]. rewrite Es. reflexivity.
Qed.
Print Assumptions C20_sorting_keeps_the_parts.

(** part() with several matches: the newest is one of the matches, created no earlier
    than any other; the oldest no later. *)
Theorem C20_part_picks_newest_or_oldest : forall rp os m q l, Run FreshOp (new_model rp) os m ->
  ValidQ m q -> Sortless q -> NoDup (base m q) -> incl (base m q) (dkeys (parts m)) -> parts_q m q = Ok (Some l) -> l <> [] ->
  (exists p, part_q m q (L "newest") = Ok (Some p) /\ In p l /\ forall p', In p' l -> str_le (created_of m p') (created_of m p) = true) /\
  (exists p, part_q m q (L "oldest") = Ok (Some p) /\ In p l /\ forall p', In p' l -> str_le (created_of m p) (created_of m p') = true).
Proof.
  intros rp os m q l H V S Hn Hi E Hne. destruct (C20_parts_are_exactly_the_matches rp os m q H V S Hn Hi) as (f & Ef & _).
  rewrite Ef in E. injection E as El. assert (Il : incl l (dkeys (parts m))). { rewrite <- El. intros x Hx. apply Hi. eapply incl_filter; eassumption. }
  unfold part_q. rewrite Ef. cbn [bind]. rewrite El. destruct l as [|p l]; [contradiction|]. clear Hne El.
  destruct (timestamp_sort_ok m (p :: l) Il) as (s & Es & P & T).
  assert (One : forall X, (l = [] -> X) -> (l <> [] -> X) -> X) by (intros; destruct l; auto; apply X1; discriminate).
  assert (Rf : forall x, str_le x x = true) by apply str_le_refl.
  destruct l as [|p2 l].
  - cbn [orb]. split; exists p; (split; [reflexivity|split; [now left|]]); intros p' [<-|[]]; apply Rf.
  - set (l2 := p :: p2 :: l) in *. cbn [orb].
    change (str_eqb (L "newest") (L "first")) with false. change (str_eqb (L "newest") (L "none")) with false. change (str_eqb (L "newest") (L "newest")) with true.
    change (str_eqb (L "oldest") (L "first")) with false. change (str_eqb (L "oldest") (L "none")) with false. change (str_eqb (L "oldest") (L "newest")) with false.
    change (str_eqb (L "oldest") (L "oldest")) with true. cbv iota. rewrite Es. cbn [bind].
    assert (PI : forall x, In x s <-> In x l2) by (intros x; split; apply Permutation_in; [symmetry|]; exact P).
    split.
    + destruct s as [|a s]; [symmetry in P; apply Permutation_nil in P; discriminate|]. exists a. split; [reflexivity|]. split; [apply PI; now left|].
      intros p' Hp'. apply PI in Hp'. inversion T as [|? ? _ F]; subst. destruct Hp' as [->|Hp']; [apply Rf|]. rewrite Forall_forall in F. now apply F.
    + apply StronglySorted_rev in T. assert (PR : forall x, In x (rev s) <-> In x l2) by (intros x; rewrite <- in_rev; apply PI).
      destruct (rev s) as [|a r]; [exfalso; apply (PR p); now left|]. exists a. split; [reflexivity|]. split; [apply PR; now left|].
      intros p' Hp'. apply PR in Hp'. inversion T as [|? ? _ F]; subst. destruct Hp' as [->|Hp']; [apply Rf|]. rewrite Forall_forall in F. now apply F.
Qed.
Print Assumptions C20_part_picks_newest_or_oldest.
(** part() with a single match gives it and with none gives None, however several matches
    are to be handled; several matches raise an exception by default, give None or the
    first on request, and any undocumented request is refused. *)
Theorem C20_part_default_is_unique : forall m q l how, parts_q m q = Ok (Some l) ->
  match l with
  | [] => part_q m q how = Ok None
  | [p] => part_q m q how = Ok (Some p)
  | p :: _ => part_q m q (L "exception") = Err ValueError /\ part_q m q (L "none") = Ok None /\
              part_q m q (L "first") = Ok (Some p) /\
              (~ In how [L "none"; L "first"; L "newest"; L "oldest"] -> part_q m q how = Err ValueError)
  end.
Proof.
  intros m q l how E. unfold part_q. rewrite E. cbn [bind]. destruct l as [|p [|p2 l]]; try reflexivity.
  repeat split. intros N. cbn [orb].
  destruct (str_eqb how (L "first")) eqn:E1; [apply str_eqb_eq in E1; exfalso; apply N; subst; cbn [In]; auto|].
  destruct (str_eqb how (L "none")) eqn:E2; [apply str_eqb_eq in E2; exfalso; apply N; subst; cbn [In]; auto|].
  destruct (str_eqb how (L "newest")) eqn:E3; [apply str_eqb_eq in E3; exfalso; apply N; subst; cbn [In]; auto|].
  destruct (str_eqb how (L "oldest")) eqn:E4; [apply str_eqb_eq in E4; exfalso; apply N; subst; cbn [In]; auto|].
  reflexivity.
Qed.
Print Assumptions C20_part_default_is_unique.
(** uuids() lists the uuids of parts(), in the same order; sorted, in numerical order. *)
Lemma map_uuid_ok m l : incl l (dkeys (parts m)) -> exists us, map_res (uuid_for_part m) l = Ok us /\
  Forall2 (fun p u => exists ct t, sget (parts m) p = Some (ct, u, t)) l us.
Proof.
  intros Hi. induction l as [|p l IH]; [exists []; split; [reflexivity|constructor]|].
  destruct IH as (us & E & F); [intros x Hx; apply Hi; now right|].
  destruct (known_get m _ p Hi (or_introl eq_refl)) as (ct & u & t & Ep). exists (u :: us).
  cbn. unfold uuid_for_part at 1. rewrite Ep. cbn. rewrite E. split; [reflexivity|]. constructor; [eauto|assumption].
Qed.
Theorem C20_uuids_match_parts : forall rp os m q, Run FreshOp (new_model rp) os m ->
  ValidQ m q -> NoDup (base m q) -> incl (base m q) (dkeys (parts m)) -> Sortless q \/ q_sort q = Some (L "uuid") ->
  exists l us, parts_q m q = Ok (Some l) /\ uuids_q m q = Ok us /\
    Forall2 (fun p u => exists ct t, sget (parts m) p = Some (ct, u, t)) l us.
Proof.
  intros rp os m q H V Hn Hi [S|S].
  - destruct (C20_parts_are_exactly_the_matches rp os m q H V S Hn Hi) as (f & E & _).
    destruct (map_uuid_ok m (filter f (base m q))) as (us & Eu & F). { intros x Hx. apply Hi. eapply incl_filter; eassumption. }
    exists (filter f (base m q)), us. split; [assumption|]. split; [|assumption]. unfold uuids_q.
    replace (match q_sort q with Some s => str_eqb s (L "uuid") | None => false end) with false by (destruct S as [-> | ->]; reflexivity).
    rewrite E. cbn [bind]. rewrite Eu. reflexivity.
  - destruct (C20_sorting_keeps_the_parts rp os m q "uuid" H V Hn Hi S ltac:(cbn; tauto)) as (l & l' & E & E' & P & _ & _ & _ & _ & T).
    specialize (T eq_refl).
    assert (Il : incl l (dkeys (parts m))).
    { destruct (parts_q_ok m (unsorted q) (run_cat _ _ _ H (cat_new rp)) V Hn Hi) as (l2 & E2 & S2).
      rewrite E in E2. cbn in E2. injection E2 as <-. intros x Hx. apply Hi. eapply (stage_incl _ _ _ _ S2). exact Hx. }
    assert (Il' : incl l' (dkeys (parts m))). { intros x Hx. apply Il. eapply Permutation_in; [symmetry; exact P|exact Hx]. }
    destruct (map_uuid_ok m l Il) as (us & Eu & F). destruct (map_uuid_ok m l' Il') as (us' & Eu' & F').
    exists l', us'. split; [assumption|]. split; [|assumption]. unfold uuids_q. rewrite S.
    change (str_eqb (L "uuid") (L "uuid")) with true. cbv iota. fold (unsorted q). rewrite E. cbn [bind]. rewrite Eu. cbn [bind]. f_equal.
    assert (Ps : Permutation us us').
    { assert (M : forall l us, Forall2 (fun p u => exists ct t, sget (parts m) p = Some (ct, u, t)) l us ->
        us = map (fun p => match sget (parts m) p with Some (_, u, _) => u | None => 0 end) l).
      { clear. induction 1 as [|p u l us (ct & t & E) _ IH]; [reflexivity|]. cbn. rewrite E, <- IH. reflexivity. }
      rewrite (M _ _ F), (M _ _ F'). now apply Permutation_map. }
    apply (sorted_unique Z.leb); [apply zle_order|apply isort_sorted, zle_order| |rewrite <- isort_perm; exact Ps].
    clear -T F'. induction F' as [|p u l us (ct & t & E) F IH]; [constructor|]. inversion T as [|? ? T1 T2]; subst.
    constructor; [now apply IH|]. rewrite Forall_forall in *. intros v Hv.
    assert (exists p', In p' l /\ exists ct t, sget (parts m) p' = Some (ct, v, t)) as (p' & Hp' & ct' & t' & E').
    { clear -F Hv. induction F as [|a b l us H F IH]; [destruct Hv|]. destruct Hv as [->|Hv]; [exists a; split; [now left|exact H]|].
      destruct (IH Hv) as (p' & Hp' & H'). exists p'. split; [now right|exact H']. }
    unfold leP. apply Z.leb_le. apply (T2 p' Hp'); unfold uuid_for_part; [now rewrite E|now rewrite E'].
Qed.
Print Assumptions C20_uuids_match_parts.

(** Finding: an epc_subdir criterion never works: it raises unless there is nothing to test. *)
Theorem C20_epc_subdir_refuted : forall m q c s, q_subdir q = Some (c :: s) -> (c <> "/"%char \/ s <> []) -> q_uuid q = None ->
  base m q <> [] -> parts_q m q = Err TypeError.
Proof.
  intros m q c s Hs Hc Hu Hb. unfold parts_q. rewrite Hu. fold (base m q). unfold parts_typed. rewrite Hs. unfold filtered_by_epc_subdir.
  destruct (base m q) as [|p l]; [contradiction|]. destruct (chr_eqb_spec c "/"%char) as [->|].
  - destruct s; [destruct Hc; contradiction|reflexivity].
  - reflexivity.
Qed.
Print Assumptions C20_epc_subdir_refuted.
(** Finding: when relationships were not loaded a related query gives None, not a list. *)
Theorem C20_related_without_rels_refuted : exists m q, Run FreshOp (new_model false) [] m /\ q_related q <> None /\ parts_q m q = Ok None.
Proof.
  exists (new_model false), (Query None None None None (L "is") false [] [] (Some 1) None None None).
  split; [constructor|]. split; [discriminate|reflexivity].
Qed.
Print Assumptions C20_related_without_rels_refuted.

(** parts_count_by_type: each class in use is listed once with the number of its parts. *)
Definition count_of (t : str) (l : list str) : Z := Z.of_nat (count_occ str_dec l t).
Lemma count_scan_spec l : forall cur n, StronglySorted (leP str_le) (cur :: l) -> 0 <= n -> (n = 0 -> cur = []) -> cur <> L "END" -> ~ In (L "END") l ->
  forall t c, In (t, c) (count_scan (l ++ [L "END"]) cur n) <->
    0 < c /\ c = (if str_dec t cur then n else 0) + count_of t l.
Proof.
  unfold count_of. induction l as [|x l IH]; intros cur n Hs Hn H0 He Hl t c.
  - cbn [app count_scan]. destruct (str_eqb (L "END") cur) eqn:E; [apply str_eqb_eq in E; congruence|]. cbn [count_scan count_occ].
    rewrite app_nil_r. destruct (Z.eqb_spec n 0) as [->|Nn].
    + split; [intros []|]. intros [H1 H2]. destruct (str_dec t cur); lia.
    + split.
      * intros [Q|[]]. injection Q as <- <-. destruct (str_dec cur cur); [lia|congruence].
      * intros [H1 H2]. destruct (str_dec t cur) as [->|]; [|lia]. left. f_equal. lia.
  - cbn [app count_scan count_occ]. inversion Hs as [|? ? Hs1 Hc]; subst. inversion Hs1 as [|? ? Hs2 Hx]; subst. inversion Hc as [|? ? Hcx Hcl]; subst.
    destruct (str_eqb x cur) eqn:E.
    + apply str_eqb_eq in E. subst x. rewrite IH; [|constructor; assumption|lia|lia|assumption|intros Hin; apply Hl; now right].
      destruct (str_dec t cur) as [->|N]; destruct (str_dec cur cur); try congruence; [lia|]. destruct (str_dec cur t); [congruence|tauto].
    + assert (Nx : x <> cur) by (intros ->; rewrite str_eqb_refl in E; discriminate).
      rewrite in_app_iff. rewrite IH; [|assumption|lia|lia|intros ->; apply Hl; now left|intros Hin; apply Hl; now right].
      assert (NC : count_occ str_dec l cur = 0%nat).
      { apply count_occ_not_In. intros Hin. apply Nx. rewrite Forall_forall in Hx. apply (o_antisym _ str_le_order); [apply Hx; assumption|exact Hcx]. }
      destruct (str_dec t cur) as [->|N].
      * rewrite NC. destruct (str_dec cur x); [congruence|]. destruct (str_dec x cur); [congruence|]. destruct (Z.eqb_spec n 0) as [->|Nn].
        -- cbn. split; [intros [[]|Q]; exact Q|tauto].
        -- cbn. split; [intros [[Q|[]]|Q]; [injection Q as <-; lia|lia]|]. intros Q. left. left. f_equal. lia.
      * split.
        -- intros [Q|Q].
           ++ destruct (n =? 0); [destruct Q|]. destruct Q as [Q|[]]. congruence.
           ++ destruct (str_dec t x) as [->|], (str_dec x x); try congruence; try lia. destruct (str_dec x t); [congruence|lia].
        -- intros Q. right. destruct (str_dec t x) as [->|], (str_dec x x); try congruence; try lia. destruct (str_dec x t); [congruence|lia].
Qed.
Lemma str_le_nil x : str_le [] x = true. Proof. reflexivity. Qed.
Lemma map_filter_comm {A B} (f : B -> bool) (g : A -> B) l : filter f (map g l) = map g (filter (fun x => f (g x)) l).
Proof. induction l as [|x l IH]; [reflexivity|]. cbn. rewrite IH. now destruct (f (g x)). Qed.
Theorem C20_count_by_type : forall m, (forall p ct u t, In (p, (ct, u, t)) (parts m) -> strip_obj ct <> L "END") ->
  forall t c, In (t, c) (parts_count_by_type m None) <->
    0 < c /\ c = Z.of_nat (List.length (filter (fun e => str_eqb (strip_obj (fst (fst (snd e)))) t) (parts m))).
Proof.
  intros m Hm t c. unfold parts_count_by_type. cbn [filter].
  set (ts := map (fun v => strip_obj (fst (fst v))) (dvals (parts m))).
  replace (filter (fun _ => true) ts) with ts by (symmetry; clear; induction ts as [|x l IH]; [reflexivity|cbn; now rewrite IH]).
  rewrite count_scan_spec.
  - unfold count_of. rewrite <- (proj1 (Permutation_count_occ str_dec _ _) (isort_perm str_le ts) t).
    assert (Q : count_occ str_dec ts t = List.length (filter (fun e => str_eqb (strip_obj (fst (fst (snd e)))) t) (parts m))).
    { unfold ts, dvals. clear. induction (parts m) as [|e l IH]; [reflexivity|]. cbn [map count_occ filter].
      destruct (str_dec (strip_obj (fst (fst (snd e)))) t) as [E|N].
      - rewrite E, str_eqb_refl. cbn. now rewrite IH.
      - destruct (str_eqb _ t) eqn:E; [apply str_eqb_eq in E; contradiction|]. exact IH. }
    rewrite Q. destruct (str_dec t []); lia.
  - constructor; [apply isort_sorted, str_le_order|]. apply Forall_forall. intros x _. reflexivity.
  - lia.
  - reflexivity.
  - discriminate.
  - intros Hin. apply (Permutation_in _ (Permutation_sym (isort_perm str_le ts))) in Hin. unfold ts, dvals in Hin. rewrite map_map in Hin.
    apply in_map_iff in Hin. destruct Hin as ([p [[ct u] t']] & E & Hin). cbn in E. eapply Hm; eassumption.
Qed.
Print Assumptions C20_count_by_type.

Definition ex_q : query := Query None (Some (L "IjkGridRepresentation")) None (Some (L " T")) (L "starts") false [] [] (Some 1) (Some Refd) None None.
Example C20_example : exists m, Run FreshOp (new_model true) ex_ops m /\ ValidQ m ex_q /\ Sortless ex_q /\ NoDup (base m ex_q) /\
  parts_q m ex_q = Ok (Some [L "obj_IjkGridRepresentation_00000000-0000-0000-0000-000000000002.xml"]).
Proof.
  exists (run_or fgb ex_ops). assert (H : Run FreshOp (new_model true) ex_ops (run_or fgb ex_ops)).
  { eapply run_impl; [|apply (run_or_ok fgb FGOp); [exact fgb_ok|vm_compute; reflexivity]]. intros a o [Ha _]. exact Ha. }
  split; [exact H|]. split; [|split; [left; reflexivity|split; [eapply C20_default_list_is_valid; [exact H|reflexivity]|vm_compute; reflexivity]]].
  split; [cbn; auto 10|]. split; [reflexivity|left; reflexivity].
Qed.

(** * C21 *)
(** An explicit list containing something is respected ... *)
Theorem C21_result_within_list_partial : forall rp os m q l r, Run FreshOp (new_model rp) os m -> ValidQ m q -> Sortless q ->
  q_list q = Some l -> l <> [] -> NoDup l -> incl l (dkeys (parts m)) -> parts_q m q = Ok (Some r) -> incl r l.
Proof.
  intros rp os m q l r H V S Hl Hne Hn Hi E. assert (Eb : base m q = l) by (unfold base; rewrite Hl; destruct l; [contradiction|reflexivity]).
  destruct (C20_parts_are_exactly_the_matches rp os m q H V S) as (f & Ef & _); [now rewrite Eb|now rewrite Eb|].
  rewrite Ef in E. injection E as <-. rewrite Eb. apply incl_filter.
Qed.
Print Assumptions C21_result_within_list_partial.
(** ... but an explicit empty list means all parts, for every query. *)
Theorem C21_empty_list_means_all : forall m q, q_list q = Some [] -> parts_q m q =
  parts_q m (Query None (q_type q) (q_uuid q) (q_title q) (q_title_mode q) (q_case q) (q_meta q) (q_extra q) (q_related q) (q_rmode q) (q_subdir q) (q_sort q)).
Proof. intros m q H. unfold parts_q. rewrite H. reflexivity. Qed.
Print Assumptions C21_empty_list_means_all.
Theorem C21_empty_list_stays_empty_refuted : exists os m q p, Run FreshOp (new_model true) os m /\ q_list q = Some [] /\ parts_q m q = Ok (Some [p]).
Proof.
  exists (firstn 1 ex_ops), (run_or fgb (firstn 1 ex_ops)), (Query (Some []) None None None (L "is") false [] [] None None None None),
    (L "obj_LocalDepth3dCrs_00000000-0000-0000-0000-000000000001.xml").
  split; [|split; [reflexivity|vm_compute; reflexivity]].
  eapply run_impl; [|apply (run_or_ok fgb FGOp); [exact fgb_ok|vm_compute; reflexivity]]. intros a o [Ha _]. exact Ha.
Qed.
Print Assumptions C21_empty_list_stays_empty_refuted.
