(** GcsNexusProps.v: connection sets written for the Nexus simulator and read back (C73). *)
From Coq Require Import Permutation Qabs Lqa.
From Verif Require Import QBase TextModel TextProofs StrModel StrProofs AsciiModel AsciiProofs AsciiProofs2 BisectModel BisectProofs GcsModel GcsProofs GcsProofs2 GcsProofs3
  GcsFaceProofs GcsSubProps GcsNexusModel GcsNexusProofs.
Open Scope Z_scope.

(** ** Specification *)
(** the connection through the face of cell c on side p along axis a, seen from c: the cell, the
    cell on the other side, and the two face numbers *)
Definition through (n : trip Z) (c : cell) (a : axis) (p : bool) : link :=
  let d := set c a (if p then get c a + 1 else get c a - 1) in
  Lk (natural n c) (natural n d) (face_index_map a p) (face_index_map a (negb p)).
(** a connection of two cells of the grid that are next to each other in i, j or k *)
Definition between_neighbours (n : trip Z) (l : link) : Prop :=
  exists c a p, within n c /\ within n (set c a (if p : bool then get c a + 1 else get c a - 1)) /\ l = through n c a p.
Definition swapped (l : link) : link := Lk (cb l) (ca l) (fb l) (fa l).
(** the name that a feature with the given title has in a Nexus file *)
Definition fault_name (title : str) : str := upper (hd [] (words title)).
Definition nameable (title : str) : Prop := words title <> [] /\ ~ In "!"%char (hd [] (words title)).
(** the connections of a set, with the names of their faults *)
Definition named (g : gcs) : list (link * option str) := map (fun '(l, o) => (l, option_map (fun f => fault_name (snd f)) o)) (entries g).
Definition titles (g : gcs) : list str := match feature_list g with Some fl => map snd fl | None => [] end.
(** the same connections as the file states them: seen from the first cell, the second, or both *)
Definition stated (both minus : bool) (l : list (link * option str)) : list (link * option str) :=
  let first := l in let second := map (fun '(l, t) => (swapped l, t)) l in
  if both then first ++ second else if minus then second else first.
Definition as_long_as (g : gcs) (tmult : option (list Q)) : Prop := match tmult with Some v => List.length v = List.length (links g) | None => True end.
(** the multiplier is m for all connections *)
Definition uniform (tmult : option (list Q)) (m : Q) : Prop := match tmult with Some v => Forall (fun x => (x == m)%Q) v | None => (m == 1)%Q end.

(** ** letters *)
Lemma upper_ws c : is_ws (upper_chr c) = is_ws c.
Proof. destruct c as [[] [] [] [] [] [] [] []]; reflexivity. Qed.
Lemma upper_bang c : upper_chr c = "!"%char -> c = "!"%char.
Proof. destruct c as [[] [] [] [] [] [] [] []]; vm_compute; congruence. Qed.
Lemma upper_lower_chr c : upper_chr (lower_chr c) = upper_chr c.
Proof. destruct c as [[] [] [] [] [] [] [] []]; reflexivity. Qed.
Lemma upper_upper_chr c : upper_chr (upper_chr c) = upper_chr c.
Proof. destruct c as [[] [] [] [] [] [] [] []]; reflexivity. Qed.
Lemma upper_lower s : upper (lower s) = upper s.
Proof. unfold upper, lower. rewrite map_map. apply map_ext, upper_lower_chr. Qed.
Lemma upper_upper s : upper (upper s) = upper s.
Proof. unfold upper. rewrite map_map. apply map_ext, upper_upper_chr. Qed.
Lemma split_aux_words s : forall cur, no_ws (rev cur) -> forall w, In w (split_aux s cur) -> no_ws w /\ w <> [].
Proof.
  assert (X : forall (cur : list ascii) c, (match c :: cur with [] => [] | _ => [rev (c :: cur)] end) = [rev (c :: cur)]) by reflexivity.
  induction s as [|c s IH]; intros cur N w H; cbn [split_aux] in H.
  - destruct cur as [|x cur]; [easy|]. destruct H as [<-|[]]. split; [assumption|]. cbn. intros K. apply app_eq_nil in K. now destruct K.
  - destruct (is_ws c) eqn:E.
    + destruct cur as [|x cur]; [eapply IH; [|exact H]; reflexivity|]. destruct H as [<-|H]; [|eapply IH; [|exact H]; reflexivity].
      split; [assumption|]. cbn. intros K. apply app_eq_nil in K. now destruct K.
    + eapply IH; [|exact H]. cbn [rev]. apply no_ws_app; [assumption|]. unfold no_ws. cbn. now rewrite E.
Qed.
Lemma nameable_plain t : nameable t -> nexus_name t = Ok (fault_name t) /\ plain_name (fault_name t).
Proof.
  intros [H1 H2]. unfold nexus_name, fault_name, plain_name. destruct (words t) as [|w ws] eqn:E; [congruence|]. cbn [hd] in *. split; [reflexivity|].
  destruct (split_aux_words t [] eq_refl w) as [A B]; [change (split_aux t []) with (words t); rewrite E; now left|].
  unfold upper. split; [|split].
  - unfold no_ws in *. rewrite forallb_forall in *. intros c Hc. apply in_map_iff in Hc. destruct Hc as (x & <- & Hx). rewrite upper_ws. now apply A.
  - destruct w; [congruence|discriminate].
  - intros K. apply in_map_iff in K. destruct K as (x & K & Hx). apply upper_bang in K. now subst.
Qed.

(** ** the connections of the rows *)
Lemma standard_face_text f : standard_face (face_text f) = Ok f.
Proof. destruct f as [[] []]; reflexivity. Qed.
Lemma through_face n c f : face_link n c f = through n c (fst f) (snd f).
Proof. destruct f; reflexivity. Qed.
Lemma face_inverse a p : face_index_inverse_map (face_index_map a p) = Ok (a, p).
Proof. destruct a, p; reflexivity. Qed.
Lemma set_back c a p : set (set c a (if p : bool then get c a + 1 else get c a - 1)) a
  (if negb p then get (set c a (if p : bool then get c a + 1 else get c a - 1)) a + 1 else get (set c a (if p then get c a + 1 else get c a - 1)) a - 1) = c.
Proof. destruct c as [k j i], a, p; cbn; f_equal; lia. Qed.
Definition inner (n : trip Z) (sd : side) : Prop := let '(c, (a, p)) := sd in within n c /\ within n (set c a (if p then get c a + 1 else get c a - 1)).
Definition orient (s : bool) (l : link) : link := if s then swapped l else l.
Definition pick {A} (s : bool) : A * A -> A := if s then snd else fst.
Lemma neighbours_decode n l : between_neighbours n l -> exists p, decode_link n l = Ok p /\
  forall s, inner n (pick s p) /\ face_link n (fst (pick s p)) (snd (pick s p)) = orient s l.
Proof.
  intros (c & a & p & H1 & H2 & ->). unfold decode_link, through. cbn [ca cb fa fb]. rewrite !face_inverse. cbn [bind].
  eexists. split; [reflexivity|]. intros [|]; cbn [pick fst snd orient swapped ca cb fa fb]; rewrite !denatural_natural by assumption.
  - split; [cbn [inner]; split; [assumption|]; now rewrite set_back|]. unfold face_link. rewrite set_back, negb_involutive. reflexivity.
  - split; [cbn [inner]; split; assumption|]. reflexivity.
Qed.
Lemma external_inner n nm r : w_k1 r <= w_k2 r -> Forall (inner n) (row_sides r) -> external n (zero_base (frow_of nm r), w_face r) = false.
Proof.
  intros Hk F. rewrite Forall_forall in F.
  assert (A : inner n (T (w_k1 r) (w_j r) (w_i r), w_face r)) by (apply F, in_map_iff; exists (w_k1 r); split; [reflexivity|apply in_zrange2; lia]).
  assert (B : inner n (T (w_k2 r) (w_j r) (w_i r), w_face r)) by (apply F, in_map_iff; exists (w_k2 r); split; [reflexivity|apply in_zrange2; lia]).
  unfold external, zero_base, frow_of. cbn [i1 i2 j1 j2 k1 k2]. destruct (w_face r) as [a p]. destruct A as [A1 A2], B as [B1 B2].
  destruct a, p; apply Z.leb_gt; (specialize (A2 K) as A2K || idtac); pose proof (A2 K); pose proof (A2 J); pose proof (A2 I); pose proof (B2 K); pose proof (B2 J); pose proof (B2 I);
    cbn in *; lia.
Qed.
Lemma expand_row n dm nm r : expand n dm (zero_base (frow_of nm r), w_face r) =
  map (fun sd => (face_link n (fst sd) (snd sd), Some nm, (rounded 4 (w_mult r) * dict_mult dm nm)%Q)) (row_sides r).
Proof.
  unfold expand, row_cells, row_sides, zero_base, frow_of. cbn [i1 i2 j1 j2 k1 k2 name mult]. rewrite map_map.
  replace (w_i r + 1 - 1 + 1) with (w_i r + 1) by lia. replace (w_j r + 1 - 1 + 1) with (w_j r + 1) by lia. replace (w_k2 r + 1 - 1 + 1) with (w_k2 r + 1) by lia.
  replace (w_i r + 1 - 1) with (w_i r) by lia. replace (w_j r + 1 - 1) with (w_j r) by lia. replace (w_k1 r + 1 - 1) with (w_k1 r) by lia.
  rewrite !zrange2_one. cbn [flat_map map app]. induction (zrange2 (w_k1 r) (w_k2 r + 1)) as [|k l IH]; [reflexivity|]. cbn [flat_map map app]. rewrite IH. reflexivity.
Qed.
Lemma flat_map_map {A B C} (f : B -> list C) (g : A -> B) l : flat_map f (map g l) = flat_map (fun x => f (g x)) l.
Proof. induction l as [|x l IH]; [reflexivity|]. cbn. now rewrite IH. Qed.
Lemma map_flat_map {A B C} (f : B -> C) (g : A -> list B) l : map f (flat_map g l) = flat_map (fun x => map f (g x)) l.
Proof. induction l as [|x l IH]; [reflexivity|]. cbn. now rewrite map_app, IH. Qed.
Lemma flat_map_flat_map {A B C} (f : B -> list C) (g : A -> list B) l : flat_map f (flat_map g l) = flat_map (fun x => flat_map f (g x)) l.
Proof. induction l as [|x l IH]; [reflexivity|]. cbn. now rewrite flat_map_app, IH. Qed.
Lemma Permutation_refl' {A} (l m : list A) : l = m -> Permutation l m.
Proof. intros ->. reflexivity. Qed.
Lemma flat_map_ext_in {A B} (f g : A -> list B) l : (forall x, In x l -> f x = g x) -> flat_map f l = flat_map g l.
Proof. intros H. induction l as [|x l IH]; [reflexivity|]. cbn. rewrite H by (now left). rewrite IH; [reflexivity|]. intros; apply H; now right. Qed.
Lemma flat_map_perm_in {A B} (f g : A -> list B) l : (forall x, In x l -> Permutation (f x) (g x)) -> Permutation (flat_map f l) (flat_map g l).
Proof. intros H. induction l as [|x l IH]; [constructor|]. cbn. apply Permutation_app; [apply H; now left|]. apply IH. intros; apply H; now right. Qed.
Lemma flat_map_perm_app {A B} (f g : A -> list B) l : Permutation (flat_map (fun x => f x ++ g x) l) (flat_map f l ++ flat_map g l).
Proof.
  induction l as [|x l IH]; [constructor|]. cbn [flat_map]. rewrite <- !app_assoc. apply Permutation_app_head. etransitivity; [apply Permutation_app_head, IH|].
  rewrite !app_assoc. apply Permutation_app_tail, Permutation_app_comm.
Qed.
Lemma flat_map_swap {A B C} (f : A -> B -> list C) l m : Permutation (flat_map (fun x => flat_map (f x) m) l) (flat_map (fun y => flat_map (fun x => f x y) l) m).
Proof.
  induction m as [|y m IH]; cbn [flat_map]; [induction l; [constructor|assumption]|]. etransitivity; [apply flat_map_perm_app|]. now apply Permutation_app_head.
Qed.

(** all rows written, with the names of their faults *)
Fixpoint number (f : Z) (names : list str) : list (Z * str) := match names with [] => [] | nm :: r => (f, nm) :: number (f + 1) r end.
Lemma in_number names : forall f x nm, In (x, nm) (number f names) -> f <= x < f + Z.of_nat (List.length names) /\ nth_error names (Z.to_nat (x - f)) = Some nm.
Proof.
  induction names as [|y r IH]; intros f x nm; [easy|]. cbn [number]. intros [[= <- <-]|H].
  - rewrite Z.sub_diag. cbn [List.length]. split; [lia|reflexivity].
  - apply IH in H. destruct H as [H1 H2]. cbn [List.length]. split; [lia|]. replace (Z.to_nat (x - f)) with (S (Z.to_nat (x - (f + 1)))) by lia. exact H2.
Qed.
Lemma map_fst_number names : forall f, map fst (number f names) = zrange2 f (f + Z.of_nat (List.length names)).
Proof.
  induction names as [|y r IH]; intros f.
  - cbn. unfold zrange2. now replace (f + 0 - f) with 0 by lia.
  - cbn [number map fst List.length]. rewrite IH. unfold zrange2.
    replace (Z.to_nat (f + Z.of_nat (S (List.length r)) - f)) with (S (List.length r)) by lia. replace (Z.to_nat (f + 1 + Z.of_nat (List.length r) - (f + 1))) with (List.length r) by lia.
    cbn [seq map]. f_equal; [lia|]. rewrite <- seq_shift, map_map. apply map_ext. lia.
Qed.
Definition pairs_of (psf : Z -> list (side * side)) (msf : Z -> list Q) (ss : list bool) (x : Z * str) : list (str * wrow) :=
  map (pair (snd x)) (flat_map (side_rows (psf (fst x)) (msf (fst x))) ss).
Lemma all_rows_pairs psf msf ss names : forall f, all_rows psf msf ss f names = map (fun x => frow_of (fst x) (snd x)) (flat_map (pairs_of psf msf ss) (number f names)).
Proof.
  induction names as [|nm r IH]; intros f; [reflexivity|]. cbn [all_rows number flat_map]. rewrite map_app, IH. f_equal.
  unfold pairs_of. cbn [fst snd]. rewrite map_map. reflexivity.
Qed.
Lemma rows_read n interps dm prs : (forall x, In x prs -> w_k1 (snd x) <= w_k2 (snd x) /\ Forall (inner n) (row_sides (snd x)) /\ upper (fst x) = fst x) ->
  (forall t, In t interps -> words t <> []) -> (forall x t, In x prs -> In t interps -> fault_name t <> fst x) ->
  exists g ms, set_pairs_from_faces_df n interps true dm true (map (fun x => frow_of (fst x) (snd x)) prs) = Ok (g, ms) /\
    (List.length ms = List.length (links g) /\ List.length ms = List.length (titled g)) /\
    Permutation (combine (titled g) ms)
      (flat_map (fun x => map (fun sd => (face_link n (fst sd) (snd sd), Some (fst x), (rounded 4 (w_mult (snd x)) * dict_mult dm (fst x))%Q)) (row_sides (snd x))) prs).
Proof.
  intros H1 H2 H3.
  assert (Ef : map_res (fun r => standard_face (face r)) (map (fun x => frow_of (fst x) (snd x)) prs) = Ok (map (fun x => w_face (snd x)) prs)).
  { clear. induction prs as [|x l IH]; [reflexivity|]. cbn [map map_res]. unfold frow_of at 1. cbn [face]. rewrite standard_face_text. cbn [bind]. rewrite IH. reflexivity. }
  set (rows := map (fun x => frow_of (fst x) (snd x)) prs) in *.
  assert (Er : filter (fun d => negb (external n d)) (combine (map zero_base rows) (map (fun x => w_face (snd x)) prs)) = map (fun x => (zero_base (frow_of (fst x) (snd x)), w_face (snd x))) prs).
  { unfold rows. clear - H1. induction prs as [|x l IH]; [reflexivity|]. cbn [map combine filter]. destruct (H1 x (or_introl eq_refl)) as (A & B & _).
    rewrite external_inner by assumption. cbn [negb]. rewrite IH; [reflexivity|]. intros; apply H1; now right. }
  assert (Ok_ : exists g ms, set_pairs_from_faces_df n interps true dm true rows = Ok (g, ms)).
  { unfold set_pairs_from_faces_df. rewrite Ef. cbn [bind]. rewrite Er.
    assert (Ed : exists dict, map_res (fun t => match words t with [] => Err IndexError | w :: _ => Ok (lower w) end) interps = Ok dict /\
      forall d, In d dict -> exists t, In t interps /\ d = lower (hd [] (words t))).
    { clear - H2. induction interps as [|t l IH]; [exists []; split; [reflexivity|easy]|]. destruct IH as (dict & E & K); [intros; apply H2; now right|].
      cbn [map_res]. specialize (H2 t (or_introl eq_refl)). destruct (words t) as [|w ws] eqn:Ew; [congruence|]. cbn [bind]. rewrite E. cbn [bind].
      eexists. split; [reflexivity|]. intros d [<-|Hd]; [exists t; split; [now left|now rewrite Ew]|]. destruct (K d Hd) as (t' & A & B). exists t'. split; [now right|assumption]. }
    destruct Ed as (dict & -> & Kd). cbn [bind]. set (rs := map _ prs).
    destruct (unique_names_spec (map (fun d : drow => name (fst d)) rs) []) as [U1 U2]. set (names := unique_names [] _) in *.
    assert (Hn : forall nm, In nm names -> exists x, In x prs /\ nm = fst x).
    { intros nm Hm. apply U2 in Hm. destruct Hm as [Hm _]. unfold rs in Hm. rewrite map_map in Hm. apply in_map_iff in Hm. destruct Hm as (x & <- & Hx). exists x. now split. }
    destruct (fault_loop_ok n dm rs names dict 0) as (ls & fl & E).
    - apply NoDup_map_inj_in; [|exact U1]. intros a b Ha Hb E. destruct (Hn a Ha) as (x & Hx & ->), (Hn b Hb) as (y & Hy & ->).
      destruct (H1 x Hx) as (_ & _ & Ux), (H1 y Hy) as (_ & _ & Uy). apply (f_equal upper) in E. rewrite !upper_lower in E. congruence.
    - intros nm Hm K. destruct (Hn nm Hm) as (x & Hx & ->). destruct (Kd _ K) as (t & Ht & E). apply (H3 x t Hx Ht). unfold fault_name.
      apply (f_equal upper) in E. rewrite !upper_lower in E. destruct (H1 x Hx) as (_ & _ & Hu). congruence.
    - destruct names; rewrite E; cbn [bind]; eauto. }
  destruct Ok_ as (g & ms & E). exists g, ms. split; [exact E|]. destruct (set_pairs_spec _ _ _ _ _ _ _ _ E) as (fs & Ef' & Lm & P). split; [exact Lm|].
  rewrite Ef in Ef'. injection Ef' as <-. rewrite Er in P. rewrite flat_map_map in P. etransitivity; [exact P|].
  apply flat_map_perm_in. intros x _. rewrite expand_row. reflexivity.
Qed.

(** ** the round trip *)
Lemma keep_flagged_filter {A} f (l : list A) : forall fi, keep_flagged (map (fun x => x =? f) fi) l = map fst (filter (fun x => snd x =? f) (combine l fi)).
Proof.
  unfold keep_flagged. induction l as [|x l IH]; intros [|y fi]; try reflexivity. cbn [map combine filter fst snd]. destruct (y =? f); cbn [map fst snd]; now rewrite IH.
Qed.
Lemma map_fst_combine {A B} (l : list A) (m : list B) : List.length l = List.length m -> map fst (combine l m) = l.
Proof. revert m. induction l as [|x l IH]; intros [|y m]; cbn; intros [=]; [reflexivity|]. f_equal. auto. Qed.
Lemma map_snd_combine {A B} (l : list A) (m : list B) : List.length l = List.length m -> map snd (combine l m) = m.
Proof. revert m. induction l as [|x l IH]; intros [|y m]; cbn; intros [=]; [reflexivity|]. f_equal. auto. Qed.
Lemma length_keep {A B} (m : list bool) (a : list A) (b : list B) : List.length a = List.length b -> List.length (keep_flagged m a) = List.length (keep_flagged m b).
Proof.
  unfold keep_flagged. revert a b. induction m as [|x m IH]; intros [|y a] [|z b]; cbn [combine filter map List.length]; intros [=]; try reflexivity.
  destruct x; cbn [fst map List.length]; auto.
Qed.
Lemma in_keep {A} (m : list bool) (a : list A) x : In x (keep_flagged m a) -> In x a.
Proof. unfold keep_flagged. rewrite in_map_iff. intros ([b y] & <- & H). apply filter_In in H. destruct H as [H _]. now apply in_combine_r in H. Qed.

Section Trip.
Variables (n : trip Z) (g : gcs) (tmult : option (list Q)) (both minus : bool) (interps : list str) (dm : str -> option Q) (fi : list Z) (fl : list feature).
Hypothesis Efi : feature_indices g = Some fi.
Hypothesis Efl : feature_list g = Some fl.
Hypothesis Elen : List.length fi = List.length (links g).
Hypothesis Hfi : forall f, In f fi -> 0 <= f < Z.of_nat (List.length fl).
Hypothesis Hnb : forall l, In l (links g) -> between_neighbours n l.
Hypothesis Hnm : forall t, In t (titles g) -> nameable t.
Hypothesis Hlen : as_long_as g tmult.
Hypothesis Hin : forall t, In t interps -> words t <> [].
Hypothesis Hnew : forall t u, In t (titles g) -> In u interps -> fault_name u <> fault_name t.

Let dec (l : link) : side * side := match decode_link n l with Ok p => p | Err _ => ((T 0 0 0, (K, false)), (T 0 0 0, (K, false))) end.
Let keep (f : Z) : list link := keep_flagged (map (fun x => x =? f) fi) (links g).
Let psf (f : Z) : list (side * side) := map dec (keep f).
Let msf (f : Z) : list Q := mults_of g tmult f (psf f).
Let names := map (fun x : feature => fault_name (snd x)) fl.
Let ss := sides_written both minus.
Let prs := flat_map (pairs_of psf msf ss) (number 0 names).

Lemma dec_ok l : In l (links g) -> decode_link n l = Ok (dec l) /\ forall s, inner n (pick s (dec l)) /\ face_link n (fst (pick s (dec l))) (snd (pick s (dec l))) = orient s l.
Proof. intros H. destruct (neighbours_decode n l (Hnb l H)) as (p & E & P). unfold dec. rewrite E. auto. Qed.
Lemma psf_ok f : list_of_cell_face_pairs n g (Some f) = Ok (Some (psf f)).
Proof.
  unfold list_of_cell_face_pairs, raw_list_for_feature, indices_for_feature_index. rewrite Efi. rewrite take_positions by assumption. cbn [bind]. fold (keep f).
  assert (map_res (decode_link n) (keep f) = Ok (psf f)) as ->; [|reflexivity]. unfold psf.
  assert (H : forall l, In l (keep f) -> In l (links g)) by (intros l; apply in_keep). induction (keep f) as [|l r IH]; [reflexivity|]. cbn [map_res map].
  destruct (dec_ok l) as [-> _]; [apply H; now left|]. cbn [bind]. rewrite IH by (intros; apply H; now right). reflexivity.
Qed.
Lemma msf_length f : List.length (msf f) = List.length (psf f).
Proof.
  unfold msf, mults_of. rewrite Efi. destruct tmult as [v|]; [|now rewrite map_length]. unfold psf. rewrite map_length. apply length_keep. exact Hlen.
Qed.
Lemma side_rows_sides f s : Permutation (flat_map row_sides (side_rows (psf f) (msf f) s)) (map (pick s) (psf f)).
Proof.
  unfold side_rows. rewrite rows_of_sides. etransitivity; [apply Permutation_map; symmetry; apply sort_sides_perm|].
  rewrite map_fst_combine; [destruct s; reflexivity|]. rewrite map_length. symmetry. apply msf_length.
Qed.
Lemma prs_ok x : In x prs -> w_k1 (snd x) <= w_k2 (snd x) /\ Forall (inner n) (row_sides (snd x)) /\ exists t, In t (titles g) /\ fst x = fault_name t.
Proof.
  unfold prs. rewrite in_flat_map. intros ([f nm] & H1 & H2). unfold pairs_of in H2. apply in_map_iff in H2. destruct H2 as (r & <- & H2). cbn [fst snd] in *.
  apply in_flat_map in H2. destruct H2 as (s & Hs & H2). split; [|split].
  - pose proof (rows_of_ordered (sort_sides (combine (map (if s : bool then snd else fst) (psf f)) (msf f)))) as F. rewrite Forall_forall in F. now apply F.
  - apply Forall_forall. intros sd Hsd.
    assert (K : In sd (map (pick s) (psf f))).
    { eapply Permutation_in; [apply side_rows_sides|]. apply in_flat_map. eauto. }
    apply in_map_iff in K. destruct K as (p & <- & K). unfold psf in K. apply in_map_iff in K. destruct K as (l & <- & K). apply dec_ok. now apply in_keep in K.
  - apply in_number in H1. destruct H1 as [_ H1]. apply nth_error_In in H1. unfold names in H1. apply in_map_iff in H1. destruct H1 as (y & <- & Hy).
    exists (snd y). split; [|reflexivity]. unfold titles. rewrite Efl. now apply in_map.
Qed.
Lemma trip_file : exists text, write_simulator n g tmult both minus = Ok text /\ load_table_file text = Ok (map (fun x => frow_of (fst x) (snd x)) prs).
Proof.
  assert (F : Forall2 (fun (x : feature) nm => nexus_name (snd x) = Ok nm /\ plain_name nm) fl names).
  { unfold names. assert (H : forall x, In x fl -> nameable (snd x)) by (intros x Hx; apply Hnm; unfold titles; rewrite Efl; now apply in_map).
    clear - H. induction fl as [|x l IH]; cbn [map]; constructor; [apply nameable_plain, H; now left|]. apply IH. intros; apply H; now right. }
  destruct (write_features_seen n g tmult ss psf fl psf_ok names F None _ _ 0 seen_none) as (t & h & s & E1 & E2 & E3).
  exists t. unfold write_simulator. rewrite Efl. split; [exact E1|]. unfold load_table_file, load_table. rewrite E2. cbn [bind].
  rewrite (load_seen _ _ _ E3). cbn [app]. now rewrite all_rows_pairs.
Qed.
Lemma trip_read : exists g' ms, set_pairs_from_faces_df n interps true dm true (map (fun x => frow_of (fst x) (snd x)) prs) = Ok (g', ms) /\
    (List.length ms = List.length (links g') /\ List.length ms = List.length (titled g')) /\
    Permutation (combine (titled g') ms)
      (flat_map (fun x => map (fun sd => (face_link n (fst sd) (snd sd), Some (fst x), (rounded 4 (w_mult (snd x)) * dict_mult dm (fst x))%Q)) (row_sides (snd x))) prs).
Proof.
  apply rows_read; [|exact Hin|].
  - intros x Hx. destruct (prs_ok x Hx) as (A & B & t & _ & E). split; [assumption|]. split; [assumption|]. rewrite E. apply upper_upper.
  - intros x t Hx Ht. destruct (prs_ok x Hx) as (_ & _ & u & Hu & ->). now apply Hnew.
Qed.
Lemma over_sides (A : Type) (h : bool -> list A) : flat_map h ss = if both then h false ++ h true else if minus then h true else h false.
Proof. unfold ss, sides_written. destruct both, minus; cbn; now rewrite ?app_nil_r. Qed.
Lemma feature_sides y : Permutation (flat_map (fun x => map (fun sd => (face_link n (fst sd) (snd sd), Some (fst x))) (row_sides (snd x))) (pairs_of psf msf ss y))
  (flat_map (fun s => map (fun l => (orient s l, Some (snd y))) (keep (fst y))) ss).
Proof.
  unfold pairs_of. rewrite flat_map_map. cbn [fst snd]. generalize (snd y) as nm. intros nm. generalize (fst y) as f. intros f. clear y.
  induction ss as [|s r IH]; [constructor|]. cbn [flat_map]. rewrite flat_map_app. apply Permutation_app; [|exact IH]. clear IH.
  etransitivity; [|apply Permutation_refl']. 
  - rewrite <- map_flat_map. apply Permutation_map. apply side_rows_sides.
  - unfold psf. rewrite !map_map. apply map_ext_in. intros l Hl. destruct (dec_ok l (in_keep _ _ _ Hl)) as [_ D]. destruct (D s) as [_ <-]. reflexivity.
Qed.
Lemma trip_links : Permutation (flat_map (fun x => map (fun sd => (face_link n (fst sd) (snd sd), Some (fst x))) (row_sides (snd x))) prs) (stated both minus (named g)).
Proof.
  set (h := fun s => map (fun '(l, t) => (orient s l, t)) (named g)).
  assert (Es : stated both minus (named g) = flat_map h ss).
  { rewrite over_sides. unfold stated, h. assert (map (fun '(l, t) => (orient false l, t)) (named g) = named g) as ->.
    { cbn [orient]. rewrite <- map_id. apply map_ext. now intros []. } reflexivity. }
  rewrite Es. unfold prs. rewrite flat_map_flat_map.
  etransitivity; [apply flat_map_perm_in; intros y _; apply feature_sides|].
  etransitivity; [apply flat_map_swap|]. apply flat_map_perm_in. intros s _. unfold h.
  set (pairs := combine (links g) fi). set (F := fun x : link * Z => (orient s (fst x), nth_error names (Z.to_nat (snd x)))).
  assert (E1 : map (fun '(l, t) => (orient s l, t)) (named g) = map F pairs).
  { unfold named, entries. rewrite Efi, Efl. fold pairs. rewrite !map_map. apply map_ext. intros [l f]. unfold F. cbn [fst snd]. unfold names. rewrite nth_error_map. reflexivity. }
  assert (E2 : flat_map (fun y => map (fun l => (orient s l, Some (snd y))) (keep (fst y))) (number 0 names) =
    map F (flat_map (fun f => filter (fun x => snd x =? f) pairs) (map fst (number 0 names)))).
  { rewrite flat_map_map, map_flat_map. apply flat_map_ext_in. intros [f nm] H. cbn [fst snd]. apply in_number in H. destruct H as [_ H]. rewrite Z.sub_0_r in H.
    unfold keep. rewrite keep_flagged_filter. fold pairs. rewrite map_map. apply map_ext_in. intros [l f'] K. apply filter_In in K. destruct K as [_ K]. cbn [snd] in K.
    apply Z.eqb_eq in K. subst f'. unfold F. cbn [fst snd]. now rewrite H. }
  rewrite E1, E2. apply Permutation_map. apply (group_perm (fun x : link * Z => snd x) Z.eqb Z.eqb_eq).
  - rewrite map_fst_number. apply NoDup_zrange2.
  - intros [l f] X. cbn [snd]. rewrite map_fst_number. apply in_zrange2. apply in_combine_r in X. apply Hfi in X. unfold names. rewrite map_length. lia.
Qed.
Lemma trip_mults m x : uniform tmult m -> In x prs -> (w_mult (snd x) == m)%Q.
Proof.
  intros U. unfold prs. rewrite in_flat_map. intros ([f nm] & _ & H2). unfold pairs_of in H2. apply in_map_iff in H2. destruct H2 as (r & <- & H2). cbn [fst snd] in *.
  apply in_flat_map in H2. destruct H2 as (s & _ & H2).
  assert (F : Forall (fun r => (w_mult r == m)%Q) (side_rows (psf f) (msf f) s)).
  { unfold side_rows. apply (rows_of_mult _ (fun q => (q == m)%Q)). apply Forall_forall. intros [sd q] H. eapply Permutation_in in H; [|symmetry; apply sort_sides_perm].
    apply in_combine_r in H. cbn [snd]. unfold msf, mults_of in H. rewrite Efi in H. unfold uniform in U. destruct tmult as [v|].
    - apply in_keep in H. rewrite Forall_forall in U. now apply U.
    - apply in_map_iff in H. destruct H as (_ & <- & _). now symmetry. }
  rewrite Forall_forall in F. now apply F.
Qed.
End Trip.

(** ** C73 *)
(** A set whose connections are between neighbouring cells is written, read and made into a set
    again with the same connections, as seen from the sides asked for, under the same fault names *)
Theorem C73_connections_survive_nexus_files : forall n g tmult both minus interps dm,
  well_formed g -> (forall l, In l (links g) -> between_neighbours n l) -> (forall t, In t (titles g) -> nameable t) -> as_long_as g tmult ->
  (forall t, In t interps -> words t <> []) -> (forall t u, In t (titles g) -> In u interps -> fault_name u <> fault_name t) ->
  exists text rows g' ms, write_simulator n g tmult both minus = Ok text /\ load_table_file text = Ok rows /\
    set_pairs_from_faces_df n interps true dm true rows = Ok (g', ms) /\ List.length ms = List.length (links g') /\
    Permutation (titled g') (stated both minus (named g)).
Proof.
  intros n g tmult both minus interps dm (fi & fl & E1 & E2 & E3 & E4) H1 H2 H3 H4 H5.
  destruct (trip_file n g tmult both minus fi fl E1 E2 E3 H1 H2) as (text & W1 & W2).
  destruct (trip_read n g tmult both minus interps dm fi fl E1 E2 H1 H3 H4 H5) as (g' & ms & W3 & [L1 L2] & P).
  eexists text, _, g', ms. split; [exact W1|]. split; [exact W2|]. split; [exact W3|]. split; [exact L1|].
  rewrite <- (map_fst_combine (titled g') ms) by congruence. etransitivity; [apply Permutation_map, P|].
  etransitivity; [|apply (trip_links n g tmult both minus fi fl E1 E2 E3 E4 H1 H3)].
  rewrite map_flat_map. apply flat_map_perm_in. intros x _. rewrite map_map. reflexivity.
Qed.
Print Assumptions C73_connections_survive_nexus_files.

(** A multiplier that is the same for all connections is read back to 4 decimal places.  Missing:
    multipliers that differ, see the next theorem. *)
Theorem C73_multipliers_survive_partial : forall n g tmult both minus interps m,
  well_formed g -> (forall l, In l (links g) -> between_neighbours n l) -> (forall t, In t (titles g) -> nameable t) -> as_long_as g tmult ->
  (forall t, In t interps -> words t <> []) -> (forall t u, In t (titles g) -> In u interps -> fault_name u <> fault_name t) ->
  uniform tmult m ->
  exists text rows g' ms, write_simulator n g tmult both minus = Ok text /\ load_table_file text = Ok rows /\
    set_pairs_from_faces_df n interps true (fun _ => None) true rows = Ok (g', ms) /\ List.length ms = List.length (links g') /\
    Forall (fun x => (Qabs (x - m) <= 1 # 20000)%Q) ms.
Proof.
  intros n g tmult both minus interps m (fi & fl & E1 & E2 & E3 & E4) H1 H2 H3 H4 H5 U.
  destruct (trip_file n g tmult both minus fi fl E1 E2 E3 H1 H2) as (text & W1 & W2).
  destruct (trip_read n g tmult both minus interps (fun _ => None) fi fl E1 E2 H1 H3 H4 H5) as (g' & ms & W3 & [L1 L2] & P).
  eexists text, _, g', ms. split; [exact W1|]. split; [exact W2|]. split; [exact W3|]. split; [exact L1|].
  rewrite <- (map_snd_combine (titled g') ms) by congruence. apply Forall_forall. intros q Hq. apply in_map_iff in Hq. destruct Hq as (y & <- & Hy).
  eapply Permutation_in in Hy; [|exact P]. apply in_flat_map in Hy. destruct Hy as (x & Hx & Hy). apply in_map_iff in Hy. destruct Hy as (sd & <- & _). cbn [snd].
  apply (trip_mults n g tmult both minus fi fl E1 H3 m x U) in Hx. change (dict_mult (fun _ => None) (fst x)) with 1%Q.
  pose proof (rounded_close 4 (w_mult (snd x))) as C. rewrite <- Hx. setoid_replace (rounded 4 (w_mult (snd x)) * 1 - w_mult (snd x))%Q with (rounded 4 (w_mult (snd x)) - w_mult (snd x))%Q by ring.
  eapply Qle_trans; [exact C|]. vm_compute. discriminate.
Qed.
Print Assumptions C73_multipliers_survive_partial.

Definition grid22 : trip Z := T 2 1 3.
(** two faces in the i direction, in columns 0 and 1, and a second fault with a face below cell (0, 0, 2) *)
Definition two_faults : gcs := Gcs [through grid22 (T 0 0 0) I true; through grid22 (T 1 0 1) I true; through grid22 (T 0 0 2) K true; through grid22 (T 1 0 0) I true]
  (Some [0; 0; 1; 0]) (Some [(7, L "north fault"); (8, L "Low")]).
Example two_faults_meets_hypotheses : well_formed two_faults /\ (forall l, In l (links two_faults) -> between_neighbours grid22 l) /\
  (forall t, In t (titles two_faults) -> nameable t) /\ (forall t u, In t (titles two_faults) -> In u [L "southern"] -> fault_name u <> fault_name t).
Proof.
  split; [|split; [|split]].
  - exists [0; 0; 1; 0], [(7, L "north fault"); (8, L "Low")]. split; [reflexivity|]. split; [reflexivity|]. split; [reflexivity|]. cbn. lia.
  - assert (B : forall c a p, within grid22 c -> within grid22 (set c a (if p : bool then get c a + 1 else get c a - 1)) -> between_neighbours grid22 (through grid22 c a p)) by (intros c a p; exists c, a, p; auto).
    intros l [<-|[<-|[<-|[<-|[]]]]]; apply B; intros []; cbn; lia.
  - intros t [<-|[<-|[]]]; (split; [discriminate|]); cbn; intuition discriminate.
  - intros t u [<-|[<-|[]]] [<-|[]]; discriminate.
Qed.
Example two_faults_text : exists rows, write_simulator grid22 two_faults None false false = Ok
  ([nl] ++ L "MULT" ++ [tab] ++ L "TX" ++ [tab] ++ L "ALL" ++ [tab] ++ L "PLUS" ++ [tab] ++ L "MULT" ++ [nl] ++ [tab] ++ L "GRID" ++ [tab] ++ L "ROOT" ++ [nl] ++
   [tab] ++ L "FNAME" ++ [tab] ++ L "NORTH" ++ [nl] ++ rows).
Proof. eexists. vm_compute. reflexivity. Qed.

(** Multipliers that differ are not read back: a row is written with the multiplier of the row that
    comes after it (here 1/5 instead of 1/10 for the first face) *)
Theorem C73_multipliers_survive_refuted : exists n g v text rows g' ms,
  well_formed g /\ (forall l, In l (links g) -> between_neighbours n l) /\ (forall t, In t (titles g) -> nameable t) /\ as_long_as g (Some v) /\
  write_simulator n g (Some v) false false = Ok text /\ load_table_file text = Ok rows /\
  set_pairs_from_faces_df n [] true (fun _ => None) true rows = Ok (g', ms) /\ links g' = links g /\
  v = [1 # 10; 1 # 5]%Q /\ Forall (fun x => (x == 1 # 5)%Q) ms.
Proof.
  exists grid22, (Gcs [through grid22 (T 0 0 0) I true; through grid22 (T 1 0 1) I true] (Some [0; 0]) (Some [(7, L "north")])), [1 # 10; 1 # 5]%Q.
  eexists _, _, _, _. split; [|split; [|split; [|split; [reflexivity|]]]].
  - exists [0; 0], [(7, L "north")]. split; [reflexivity|]. split; [reflexivity|]. split; [reflexivity|]. cbn. lia.
  - assert (B : forall c a p, within grid22 c -> within grid22 (set c a (if p : bool then get c a + 1 else get c a - 1)) -> between_neighbours grid22 (through grid22 c a p)) by (intros c a p; exists c, a, p; auto).
    intros l [<-|[<-|[]]]; apply B; intros []; cbn; lia.
  - intros t [<-|[]]; (split; [discriminate|]); cbn; intuition discriminate.
  - split; [vm_compute; reflexivity|]. split; [vm_compute; reflexivity|]. split; [vm_compute; reflexivity|]. split; [reflexivity|]. split; [reflexivity|].
    repeat constructor.
Qed.
Print Assumptions C73_multipliers_survive_refuted.

(** A name is cut at the first '!' when it is read *)
Theorem C73_name_with_comment_mark_refuted : exists n g text rows,
  well_formed g /\ (forall l, In l (links g) -> between_neighbours n l) /\ titles g = [L "F!1"] /\
  write_simulator n g None false false = Ok text /\ load_table_file text = Ok rows /\ map name rows = [L "F"].
Proof.
  exists grid22, (Gcs [through grid22 (T 0 0 0) I true] (Some [0]) (Some [(7, L "F!1")])). eexists _, _. split; [|split; [|split; [reflexivity|]]].
  - exists [0], [(7, L "F!1")]. split; [reflexivity|]. split; [reflexivity|]. split; [reflexivity|]. cbn. lia.
  - intros l [<-|[]]. exists (T 0 0 0), I, true. split; [|split; [|reflexivity]]; intros []; cbn; lia.
  - split; [vm_compute; reflexivity|]. split; vm_compute; reflexivity.
Qed.
Print Assumptions C73_name_with_comment_mark_refuted.

(** Connections made from any table: for each row that is not on the outside of the grid, one
    connection for each cell in the ranges of the row, to the neighbour on the side of the face,
    with the multiplier of the row times that of the dictionary for the fault *)
Definition in_ranges (r : frow) (c : cell) : Prop := i1 r <= ti c <= i2 r /\ j1 r <= tj c <= j2 r /\ k1 r <= tk c <= k2 r.
Definition less_one (r : frow) : frow := F (i1 r - 1) (i2 r - 1) (j1 r - 1) (j2 r - 1) (k1 r - 1) (k2 r - 1) (mult r) (name r) (face r).
Definition letter (a : axis) : ascii := match a with K => "K" | J => "J" | I => "I" end%char.
(** a face indicator: a capital letter, or a letter and a sign *)
Definition face_means (s : str) (f : axis * bool) : Prop :=
  (s = [letter (fst f)] /\ snd f = true) \/ (exists c, s = [c; if snd f then "+" else "-"]%char /\ upper_chr c = letter (fst f)).
Lemma standard_face_means s f : standard_face s = Ok f <-> face_means s f.
Proof.
  unfold standard_face, face_means. destruct f as [a p]. cbn [fst snd].
  assert (A : forall c, (if chr_eqb c "I" then Ok I else if chr_eqb c "J" then Ok J else if chr_eqb c "K" then Ok K else Err AssertionError) = Ok a <-> c = letter a).
  { intros c. destruct (chr_eqb_spec c "I") as [->|N1]; [destruct a; cbn; split; congruence|]. destruct (chr_eqb_spec c "J") as [->|N2]; [destruct a; cbn; split; congruence|].
    destruct (chr_eqb_spec c "K") as [->|N3]; destruct a; cbn; split; congruence. }
  assert (B : forall c, (if chr_eqb c "+" then Ok true else if chr_eqb c "-" then Ok false else Err AssertionError) = Ok p <-> c = if p then "+"%char else "-"%char).
  { intros c. destruct (chr_eqb_spec c "+") as [->|N1]; [destruct p; split; congruence|]. destruct (chr_eqb_spec c "-") as [->|N2]; destruct p; split; congruence. }
  assert (U : forall c, upper_chr c = (if p then "+"%char else "-"%char) <-> c = if p then "+"%char else "-"%char).
  { clear. intros c. destruct p, c as [[] [] [] [] [] [] [] []]; vm_compute; split; congruence. }
  set (la := fun c : ascii => if chr_eqb c "I" then Ok I else if chr_eqb c "J" then Ok J else if chr_eqb c "K" then Ok K else Err AssertionError) in *.
  set (lp := fun c : ascii => if chr_eqb c "+" then Ok true else if chr_eqb c "-" then Ok false else Err AssertionError) in *.
  assert (D : forall c d, (do x <- la c; do y <- lp d; Ok (x, y)) = Ok (a, p) <-> c = letter a /\ d = if p then "+"%char else "-"%char).
  { intros c d. rewrite <- A, <- B. fold (la c) (lp d). destruct (la c) as [x|], (lp d) as [y|]; cbn [bind]; split; try (intros [=]; subst; auto; fail); try (intros [[=] [=]]; subst; reflexivity); intros [? ?]; discriminate. }
  destruct s as [|c [|d [|e r]]]; cbn [upper map].
  - split; [discriminate|]. intros [[H _]|(c & H & _)]; discriminate.
  - fold (la c) (lp "+"%char). rewrite D. split.
    + intros [-> H]. left. split; [reflexivity|]. destruct p; congruence.
    + intros [[[= ->] ->]|(x & H & _)]; [auto|discriminate].
  - fold (la (upper_chr c)) (lp (upper_chr d)). rewrite D, U. split.
    + intros [H ->]. right. eauto.
    + intros [[H _]|(x & [= -> ->] & H)]; [discriminate|auto].
  - split; [discriminate|]. intros [[H _]|(x & H & _)]; discriminate.
Qed.
(** the factor for a fault in the dictionary of multipliers, by its name in lower case or as it is *)
Definition factor (dm : str -> option Q) (nm : str) : Q := match dm (lower nm), dm nm with Some m, _ => m | None, Some m => m | None, None => 1%Q end.
(** the row reaches the outside of the grid *)
Definition outside (n : trip Z) (r : frow) (f : axis * bool) : Prop :=
  match f with
  | (I, true) => ti n - 1 <= i2 r | (J, true) => tj n - 1 <= j2 r | (K, true) => tk n - 1 <= k2 r
  | (I, false) => i1 r <= 0 | (J, false) => j1 r <= 0 | (K, false) => k1 r <= 0
  end.
Theorem C73_connections_of_a_table : forall n interps create dm one_based rows g ms,
  set_pairs_from_faces_df n interps create dm one_based rows = Ok (g, ms) ->
  exists fs cells, Forall2 (fun r f => face_means (face r) f) rows fs /\
    Forall2 (fun rf cs => let r := if one_based then less_one (fst rf) else fst rf in
      (outside n r (snd rf) -> cs = []) /\ (~ outside n r (snd rf) -> NoDup cs /\ forall c, In c cs <-> in_ranges r c)) (combine rows fs) cells /\
    List.length ms = List.length (links g) /\
    Permutation (combine (titled g) ms)
      (flat_map (fun x => let '(r, (a, p), cs) := x in map (fun c => (through n c a p, Some (name r), (mult r * factor dm (name r))%Q)) cs) (combine (combine rows fs) cells)).
Proof.
  intros n interps create dm ob rows g ms E. destruct (set_pairs_spec _ _ _ _ _ _ _ _ E) as (fs & Ef & [Lm _] & P).
  assert (F : Forall2 (fun r f => face_means (face r) f) rows fs).
  { clear - Ef. revert fs Ef. induction rows as [|r l IH]; intros fs Ef; cbn [map_res] in Ef; [injection Ef as <-; constructor|].
    destruct (standard_face (face r)) as [f|] eqn:Es; [|discriminate]. cbn [bind] in Ef. destruct (map_res _ l) as [fs'|]; [|discriminate]. injection Ef as <-. constructor; [now apply standard_face_means|]. now apply IH. }
  set (base := fun r => if ob then less_one r else r).
  exists fs, (map (fun rf => if external n (base (fst rf), snd rf) then [] else row_cells (base (fst rf))) (combine rows fs)).
  split; [exact F|]. split; [|split; [exact Lm|]].
  - induction (combine rows fs) as [|[r [a p]] l IH]; cbn [map]; constructor; [|exact IH]. cbn [fst snd]. fold (base r).
    assert (X : external n (base r, (a, p)) = true <-> outside n (base r) (a, p)) by (cbn [external outside]; destruct a, p; apply Z.leb_le).
    destruct (external n (base r, (a, p))) eqn:Ee; (split; [intros H|intros H]).
    + reflexivity.
    + exfalso. apply H, X. reflexivity.
    + apply X in H. discriminate.
    + split; [apply NoDup_row_cells|apply in_row_cells].
  - etransitivity; [exact P|]. clear - F. apply Permutation_refl'.
    assert (X : combine (if ob then map zero_base rows else rows) fs = map (fun rf => (base (fst rf), snd rf)) (combine rows fs)).
    { unfold base. clear. revert fs. destruct ob; induction rows as [|r l IH]; intros [|f fs]; cbn [map combine fst snd]; try reflexivity; try (rewrite IH; reflexivity).
      rewrite <- IH. reflexivity. }
    rewrite X. clear X. induction (combine rows fs) as [|[r [a p]] l IH]; [reflexivity|]. cbn [map filter combine flat_map fst snd].
    destruct (external n (base r, (a, p))); cbn [negb]; [rewrite IH; reflexivity|]. cbn [flat_map]. rewrite IH. f_equal.
    unfold expand. assert (name (base r) = name r /\ mult (base r) = mult r) as [-> ->] by (unfold base; destruct ob; split; reflexivity).
    apply map_ext. intros c. unfold dict_mult, factor, face_link, through. destruct (dm (lower (name r))), (dm (name r)); reflexivity.
Qed.
Print Assumptions C73_connections_of_a_table.
Example C73_connections_of_a_table_case : exists g ms, set_pairs_from_faces_df (T 3 3 3) [] true (fun _ => Some (1 # 2)%Q) true
  [F 1 1 1 2 1 3 (1 # 10) (L "A") (L "I"); F 3 3 1 2 1 3 (1 # 10) (L "A") (L "I"); F 2 2 1 1 1 2 1 (L "B") (L "i-")] = Ok (g, ms) /\ List.length ms = 8%nat.
Proof. eexists _, _. split; vm_compute; reflexivity. Qed.

(** Unless asked to make interpretations, the method makes no connections: it fails if there are any *)
Theorem C73_nothing_without_create : forall n interps dm one_based rows g ms,
  set_pairs_from_faces_df n interps false dm one_based rows = Ok (g, ms) -> links g = [].
Proof.
  intros n interps dm ob rows g ms. unfold set_pairs_from_faces_df. destruct (map_res _ rows) as [fs|]; [|discriminate]. cbn [bind].
  set (rs := filter _ _). destruct (map_res _ interps) as [dict|]; [|discriminate]. cbn [bind]. destruct (unique_names [] _); [|discriminate].
  cbn [fault_loop bind]. intros [= <- <-]. reflexivity.
Qed.
Print Assumptions C73_nothing_without_create.
(** nor does it work for a fault whose interpretation the model has *)
Theorem C73_existing_interpretation_refuted : exists n rows,
  (exists g ms, set_pairs_from_faces_df n [] true (fun _ => None) true rows = Ok (g, ms) /\ links g <> []) /\
  (forall create, set_pairs_from_faces_df n [L "north"] create (fun _ => None) true rows = Err NameError).
Proof.
  exists grid22, [F 1 1 1 1 1 1 1 (L "NORTH") (L "I")]. split; [eexists _, _; split; [vm_compute; reflexivity|discriminate]|]. intros []; vm_compute; reflexivity.
Qed.
Print Assumptions C73_existing_interpretation_refuted.

(** Blank lines and lines that start with '!' or 'C' make no difference, nor does what follows a '!' *)
Theorem C73_comments_are_ignored : forall before line after,
  (words line = [] \/ exists c w ws, words line = (c :: w) :: ws /\ (c = "!"%char \/ c = "C"%char)) -> load_table (before ++ line :: after) = load_table (before ++ after).
Proof.
  intros a l b H. unfold load_table. rewrite !read_lines_app. destruct (read_lines _ a) as [s|]; [|reflexivity]. cbn [bind read_lines].
  assert (read_line s l = Ok s) as ->; [|reflexivity]. unfold read_line. destruct H as [->|(c & w & ws & -> & [->| ->])]; reflexivity.
Qed.
Print Assumptions C73_comments_are_ignored.
