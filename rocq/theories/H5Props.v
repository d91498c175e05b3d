(** H5Props.v: C35 the hdf5 file held open, C52 which file a request means. *)
From Verif Require Import Base StrModel StrProofs UuidModel PyDict NArray PackModel H5FileModel H5Model.

(** * Histories *)
Inductive op :=
  | Access (u : option Z) (m : hmode) (o : override) (file_path : option str) (ok : bool)
  | Release
  | ClearNames
  | SetDefault (o : str)
  | Write (r : register) (file : option str) (m : hmode) (release_after use_int32 ok : bool)
  | Outside (fs : filesys). (* other programs create, change and delete files *)
Definition step (nm : naming) (s : hst) (a : op) : hst :=
  match a with
  | Access u m o p ok => fst (h5_access nm s u m o p ok)
  | Release => h5_release s
  | ClearNames => clear_filename_cache s
  | SetDefault o => fst (set_default_override s o)
  | Write r f m ra i32 ok => fst (h5_write nm s r f m ra i32 ok)
  | Outside fs => HST fs (h_open s) (h_root s) (h_path s) (h_mode s) (h_dict s) (h_default s) (h_next s)
  end.
Definition run (nm : naming) (s : hst) (l : list op) : hst := fold_left (step nm) l s.
(** a new Model: nothing open (resqpy/model/_model.py:141-152) *)
Definition new_state (fs : filesys) (default : str) : hst := HST fs [] None None None [] default 0%nat.
Definition Reachable (nm : naming) (s : hst) : Prop := exists fs d l, s = run nm (new_state fs d) l.

(** Spec: the file a request means.  An explicit path is subject to the override; otherwise a
    name already found for the uuid is kept, and failing that the override decides. *)
Definition Wanted (nm : naming) (s : hst) (u : option Z) (o : override) (fp : option str) (p : str) : Prop :=
  match fp with
  | Some (c :: q) => apply_override nm (h_default s) o (Some (c :: q)) u = Ok (Some p)
  | _ => let u := match u with None => nm_main nm | Some _ => u end in
         match match u with Some n => dget Z.eqb (h_dict s) n | None => None end with
         | Some q => q = p
         | None => apply_override nm (h_default s) o None u = Ok (Some p)
         end
  end.

(** * Invariant *)
Definition Inv (s : hst) : Prop :=
  match h_root s with
  | Some h => h_open s = [h] /\ h_path s = Some (hd_path h) /\ h_mode s = Some (hd_mode h) /\ (hd_id h < h_next s)%nat
  | None => h_open s = []
  end.
Lemma hmode_eqb_iff a b : hmode_eqb a b = true <-> a = b.
Proof. destruct a, b; cbn; split; congruence. Qed.
Lemma release_open s : Inv s -> h_open (h5_release s) = [] /\ h_root (h5_release s) = None.
Proof.
  unfold Inv, h5_release. destruct (h_root s) as [h|]; cbn; [|auto]. intros (-> & _). cbn. rewrite Nat.eqb_refl. auto.
Qed.
Lemma release_inv s : Inv s -> Inv (h5_release s).
Proof. intros H. unfold Inv. destruct (release_open s H) as [-> ->]. reflexivity. Qed.

(** what name resolution does to the state *)
Lemma file_name_state nm s u o e s' r : h5_file_name nm s u o e = (s', r) ->
  h_fs s' = h_fs s /\ h_open s' = h_open s /\ h_root s' = h_root s /\ h_path s' = h_path s /\ h_mode s' = h_mode s /\ h_next s' = h_next s.
Proof.
  unfold h5_file_name. intros E. repeat (match type of E with context [match ?x with _ => _ end] => destruct x end; try (injection E as <- _; auto 10; fail)).
  all: injection E as <- _; cbn; auto 10.
Qed.
Lemma file_name_wanted nm s u o e s' p : h5_file_name nm s u o e = (s', Ok (Some p)) -> Wanted nm s u o None p.
Proof.
  unfold h5_file_name, Wanted. cbv zeta. set (u' := match u with None => _ | Some _ => u end).
  destruct (match u' with Some n => dget Z.eqb (h_dict s) n | None => None end) as [q|] eqn:C; [congruence|].
  destruct (apply_override nm (h_default s) o None u') as [[q|]|] eqn:D; [|destruct e; discriminate|discriminate].
  destruct (e && _); [discriminate|congruence].
Qed.

(** the tail of an access, once the name and mode are settled *)
Definition open_step (name : option str) (mode : hmode) (ok : bool) (s : hst) : hst * res handle :=
  let s := set_open s name (Some mode) (h_root s) in
  match name with
  | None => (s, Err TypeError)
  | Some p => let '(s, r) := h5py_open s p mode ok in
              match r with Err e => (s, Err e) | Ok h => (set_open s (h_path s) (h_mode s) (Some h), Ok h) end
  end.
Definition OpenedFile (fs fs' : filesys) (p : str) (m : hmode) : Prop :=
  (forall q, q <> p -> fs' q = fs q) /\
  match m with
  | MR => fs' p = fs p /\ fs p <> None
  | MA => fs' p = match fs p with None => Some [] | c => c end
  | MW => fs' p = Some []
  end.
Lemma fs_set_eq fs p f : fs_set fs p f p = Some f.
Proof. unfold fs_set. rewrite (proj2 (str_eqb_eq _ _) eq_refl). reflexivity. Qed.
Lemma fs_set_neq fs p f q : q <> p -> fs_set fs p f q = fs q.
Proof. intros N. unfold fs_set. destruct (str_eqb p q) eqn:E; [apply str_eqb_eq in E; congruence|reflexivity]. Qed.
Lemma open_step_spec name mode ok s s' r : h_root s = None -> h_open s = [] -> open_step name mode ok s = (s', r) ->
  h_dict s' = h_dict s /\ h_default s' = h_default s /\
  match r with
  | Ok h => ok = true /\ name = Some (hd_path h) /\ hd_mode h = mode /\ h_open s' = [h] /\ h_root s' = Some h /\
            h_path s' = Some (hd_path h) /\ h_mode s' = Some (hd_mode h) /\ OpenedFile (h_fs s) (h_fs s') (hd_path h) mode /\
            hd_id h = h_next s /\ h_next s' = S (h_next s)
  | Err e => h_open s' = [] /\ h_root s' = None /\ h_fs s' = h_fs s
  end.
Proof.
  intros R O. unfold open_step. destruct name as [p|]; [|intros [= <- <-]; cbn; auto].
  unfold h5py_open. cbn [set_open h_open h_fs h_root h_path h_mode h_dict h_default h_next]. rewrite O. cbn [existsb].
  destruct ok; cbn [negb]; [|intros [= <- <-]; cbn; auto 10].
  destruct mode.
  - destruct (h_fs s p) as [c|] eqn:F; intros [= <- <-]; cbn; [|auto 10]. unfold OpenedFile. rewrite F. repeat split; auto; congruence.
  - intros [= <- <-]. cbn. unfold OpenedFile. destruct (h_fs s p) as [c|] eqn:F.
    + repeat split; auto.
    + repeat split; auto; [intros; now apply fs_set_neq|]. rewrite fs_set_eq. reflexivity.
  - intros [= <- <-]. cbn. unfold OpenedFile. repeat split; auto; [intros; now apply fs_set_neq|]. apply fs_set_eq.
Qed.

Definition pre_release (s : hst) (mode : hmode) : hst :=
  match h_mode s with Some m => if hmode_eqb m mode then s else h5_release s | None => s end.
Lemma pre_release_spec s mode : Inv s -> let s' := pre_release s mode in
  Inv s' /\ h_fs s' = h_fs s /\ h_dict s' = h_dict s /\ h_default s' = h_default s /\
  (forall h, h_root s' = Some h -> s' = s /\ hd_mode h = mode) /\ h_next s' = h_next s.
Proof.
  intros H. unfold pre_release. destruct (h_mode s) as [m|] eqn:M.
  - destruct (hmode_eqb m mode) eqn:E.
    + apply hmode_eqb_iff in E. subst. repeat split; auto. unfold Inv in H. rewrite H0 in H. destruct H as (_ & _ & H & _). congruence.
    + repeat split; auto; [now apply release_inv|..]; destruct (release_open s H) as [_ X]; congruence.
  - repeat split; auto. unfold Inv in H. rewrite H0 in H. destruct H as (_ & _ & H & _). congruence.
Qed.

(** everything about an access *)
Lemma access_spec nm s u mode o fp ok s' r : Inv s -> h5_access nm s u mode o fp ok = (s', r) ->
  Inv s' /\ h_default s' = h_default s /\
  match r with
  | Ok h => Wanted nm s u o fp (hd_path h) /\ h_open s' = [h] /\ h_root s' = Some h /\
      hd_mode h = match mode with MA => if exists_ (h_fs s) (hd_path h) then MA else MW | m => m end /\
      ((h_root s = Some h /\ hd_mode h = mode /\ h_fs s (hd_path h) <> None /\ h_fs s' = h_fs s) \/
       (h_root s <> Some h /\ ok = true /\ OpenedFile (h_fs s) (h_fs s') (hd_path h) (hd_mode h)))
  | Err e => h_fs s' = h_fs s
  end.
Proof.
  intros H. unfold h5_access. fold (pre_release s mode). destruct (pre_release_spec s mode H) as (H0 & F0 & D0 & T0 & R0 & N0). cbv zeta.
  set (s0 := pre_release s mode) in *. clearbody s0.
  destruct (match fp with Some (c :: p) => _ | _ => _ end) as [s1 name] eqn:EN.
  assert (h_fs s1 = h_fs s0 /\ h_open s1 = h_open s0 /\ h_root s1 = h_root s0 /\ h_path s1 = h_path s0 /\ h_mode s1 = h_mode s0 /\ h_default s1 = h_default s0 /\ h_next s1 = h_next s0 /\
          (forall p, name = Ok (Some p) -> Wanted nm s u o fp p)) as (F1 & O1 & R1 & P1 & M1 & T1 & N1 & W1).
  { assert (forall o0 e s1 name, h5_file_name nm s0 u o0 e = (s1, name) -> h_default s1 = h_default s0) as DF.
    { intros o0 e s2 n0 E. unfold h5_file_name in E. repeat (match type of E with context [match ?x with _ => _ end] => destruct x end; try (injection E as <- _; auto 10; fail)).
      all: injection E as <- _; cbn; auto 10. }
    destruct fp as [[|c p]|].
    - pose proof (DF _ _ _ _ EN). pose proof (file_name_state _ _ _ _ _ _ _ EN) as (? & ? & ? & ? & ? & ?). repeat split; auto. intros p ->.
      apply file_name_wanted in EN. unfold Wanted in *. rewrite D0, T0 in EN. exact EN.
    - injection EN as <- <-. repeat split; auto. intros p0 E. unfold Wanted. rewrite <- T0. exact E.
    - pose proof (DF _ _ _ _ EN). pose proof (file_name_state _ _ _ _ _ _ _ EN) as (? & ? & ? & ? & ? & ?). repeat split; auto. intros p ->.
      apply file_name_wanted in EN. unfold Wanted in *. rewrite D0, T0 in EN. exact EN. }
  assert (Inv s1) as I1 by (unfold Inv in *; rewrite O1, R1, P1, M1, N1; exact H0).
  destruct name as [name|e]; [|intros [= <- <-]; repeat split; congruence].
  set (mm := match mode with MA => _ | _ => _ end).
  destruct mm as [md|e] eqn:EM; subst mm; [|intros [= <- <-]; repeat split; congruence].
  assert (forall p, name = Some p -> md = match mode with MA => if exists_ (h_fs s) p then MA else MW | m => m end) as MD.
  { intros p ->. rewrite F1, F0 in EM. destruct mode; congruence. }
  assert (forall s2 s' r, h_root s2 = None -> h_open s2 = [] -> h_fs s2 = h_fs s -> h_default s2 = h_default s -> h_next s2 = h_next s -> open_step name md ok s2 = (s', r) ->
     Inv s' /\ h_default s' = h_default s /\
     match r with
     | Ok h => Wanted nm s u o fp (hd_path h) /\ h_open s' = [h] /\ h_root s' = Some h /\
         hd_mode h = match mode with MA => if exists_ (h_fs s) (hd_path h) then MA else MW | m => m end /\
         ((h_root s = Some h /\ hd_mode h = mode /\ h_fs s (hd_path h) <> None /\ h_fs s' = h_fs s) \/ (h_root s <> Some h /\ ok = true /\ OpenedFile (h_fs s) (h_fs s') (hd_path h) (hd_mode h)))
     | Err e => h_fs s' = h_fs s
     end) as OS.
  { intros s2 s3 r0 A B C D N2 E. pose proof (open_step_spec _ _ _ _ _ _ A B E) as (X1 & X2 & X3). split; [|split; [congruence|]].
    - unfold Inv. destruct r0 as [h|e]; [destruct X3 as (_ & _ & _ & -> & -> & -> & -> & _ & -> & ->); auto with arith|destruct X3 as (-> & -> & _); reflexivity].
    - destruct r0 as [h|e]; [|destruct X3 as (_ & _ & X); congruence]. destruct X3 as (K1 & K2 & K3 & K4 & K5 & K6 & K7 & K8 & K9 & K10).
      split; [apply W1; congruence|]. split; [exact K4|]. split; [exact K5|]. split; [rewrite K3; apply MD, K2|]. right. split; [|split; [exact K1|]].
      { intros X. unfold Inv in H. rewrite X in H. lia. }
      rewrite <- C, K3. exact K8. }
  destruct (h_root s1) as [h|] eqn:RT.
  - destruct (h_path s1) as [q|] eqn:PT; [|intros [= <- <-]; repeat split; congruence].
    destruct name as [p|]; [|intros [= <- <-]; repeat split; congruence].
    destruct (negb (exists_ (h_fs s1) q && exists_ (h_fs s1) p)) eqn:X; [intros [= <- <-]; repeat split; congruence|].
    apply negb_false_iff, andb_true_iff in X as [X1 X2]. destruct (R0 h) as [Y1 Y2]; [congruence|].
    destruct (str_eqb q p) eqn:QP.
    + apply str_eqb_eq in QP. subst q. intros [= <- <-]. pose proof I1 as I2. unfold Inv in I2. rewrite RT in I2. destruct I2 as (Z1 & Z2 & Z3 & _).
      assert (hd_path h = p) as HP by congruence. rewrite HP. split; [exact I1|]. split; [congruence|]. split; [apply W1; reflexivity|].
      split; [exact Z1|]. split; [exact RT|]. split; [rewrite Y2; rewrite F1, F0 in X2; rewrite X2; destruct mode; reflexivity|]. left. split; [congruence|]. split; [exact Y2|].
      split; [|congruence]. unfold exists_ in X2. rewrite F1, F0 in X2. destruct (h_fs s p); [discriminate|discriminate X2].
    + intros E. destruct (release_open s1 I1) as [Z1 Z2]. apply (OS (h5_release s1)); [exact Z2|exact Z1|cbn; congruence..|exact E].
  - intros E. unfold Inv in I1. rewrite RT in I1. apply (OS s1); [exact RT|exact I1|congruence..|unfold open_step; rewrite RT; exact E].
Qed.

Lemma write_inv nm s r f m ra i32 ok : Inv s -> Inv (fst (h5_write nm s r f m ra i32 ok)).
Proof.
  intros H. unfold h5_write. destruct (r_sets r); [exact H|]. destruct (h5_access _ _ _ _ _ _ _) as [s1 [h|e]] eqn:E; pose proof (access_spec _ _ _ _ _ _ _ _ _ H E) as (H1 & _); [|exact H1].
  destruct (hd_mode h); [exact H1|..]; destruct (write_fp _ _ _) as [f' [[]|e]]; cbn [fst]; try exact H1.
  all: destruct ra; [apply release_inv|]; exact H1.
Qed.
Lemma step_inv nm s a : Inv s -> Inv (step nm s a).
Proof.
  intros H. destruct a; cbn [step].
  - destruct (h5_access _ _ _ _ _ _ _) as [s' r] eqn:E. apply (access_spec _ _ _ _ _ _ _ _ _ H E).
  - now apply release_inv.
  - apply release_inv in H. exact H.
  - unfold set_default_override. destruct (_ || _); exact H.
  - now apply write_inv.
  - exact H.
Qed.
Lemma reachable_inv nm s : Reachable nm s -> Inv s.
Proof.
  intros (fs & d & l & ->). unfold run. assert (Inv (new_state fs d)) as H by reflexivity. revert H. generalize (new_state fs d).
  induction l as [|a l IH]; cbn; [auto|]. intros s H. apply IH, step_inv, H.
Qed.

(** * C35 *)
(** After any history, including opens that fail and files that other programs delete, the
    model holds at most one file open, and it is the one it knows of. *)
Theorem C35_at_most_one_open nm s : Reachable nm s ->
  match h_root s with None => h_open s = [] | Some h => h_open s = [h] end.
Proof. intros H. apply reachable_inv in H. unfold Inv in H. destruct (h_root s); tauto. Qed.
Print Assumptions C35_at_most_one_open.

(** A successful access returns a handle that is open, for the file asked for, in the mode asked
    for (append to a file that does not exist counting as write). *)
Theorem C35_access_returns_what_was_asked nm s u mode o fp ok s' h : Reachable nm s -> h5_access nm s u mode o fp ok = (s', Ok h) ->
  In h (h_open s') /\ Wanted nm s u o fp (hd_path h) /\
  hd_mode h = match mode with MA => if exists_ (h_fs s) (hd_path h) then MA else MW | m => m end.
Proof.
  intros H E. apply reachable_inv in H. destruct (access_spec _ _ _ _ _ _ _ _ _ H E) as (_ & _ & W & O & _ & M & _).
  rewrite O. cbn. auto.
Qed.
Print Assumptions C35_access_returns_what_was_asked.

(** Whatever the outcome, no file but the requested one changes.  A failed access changes none,
    reading changes none, appending never loses what a file holds, and writing empties the file
    unless the model was already writing to it. *)
Theorem C35_access_and_file_contents nm s u mode o fp ok s' r : Reachable nm s -> h5_access nm s u mode o fp ok = (s', r) ->
  match r with
  | Err _ => h_fs s' = h_fs s
  | Ok h => (forall q, q <> hd_path h -> h_fs s' q = h_fs s q) /\
      match mode with
      | MR => h_fs s' (hd_path h) = h_fs s (hd_path h)
      | MA => h_fs s' (hd_path h) = match h_fs s (hd_path h) with None => Some [] | c => c end
      | MW => h_root s = Some h /\ h_fs s' (hd_path h) = h_fs s (hd_path h) \/ h_root s <> Some h /\ h_fs s' (hd_path h) = Some []
      end
  end.
Proof.
  intros H E. apply reachable_inv in H. pose proof (access_spec _ _ _ _ _ _ _ _ _ H E) as (IS & _ & A).
  destruct r as [h|e]; [|exact A]. destruct A as (_ & O & R & M & A).
  destruct A as [(A1 & A2 & A3 & A4)|(A1 & A2 & A3 & A4)].
  - rewrite A4. split; [reflexivity|]. destruct mode; auto. destruct (h_fs s (hd_path h)); [reflexivity|congruence].
  - split; [exact A3|]. rewrite M in A4. unfold exists_ in A4. destruct mode.
    + apply A4.
    + destruct (h_fs s (hd_path h)); exact A4.
    + right. auto.
Qed.
Print Assumptions C35_access_and_file_contents.

(** Releasing closes the file, after any history, and touches no contents. *)
Theorem C35_release_leaves_none_open nm s : Reachable nm s -> h_open (h5_release s) = [] /\ h_root (h5_release s) = None /\ h_path (h5_release s) = None /\
  h_mode (h5_release s) = None /\ h_fs (h5_release s) = h_fs s.
Proof. intros H. apply reachable_inv in H. destruct (release_open s H). auto. Qed.
Print Assumptions C35_release_leaves_none_open.

(** An existing file can always be read, whatever happened before (as long as the file currently
    held open, if any, has not been deleted by another program): in particular a file being
    written is closed and reopened rather than refused. *)
Theorem C35_existing_file_can_be_read nm s u o fp p : Reachable nm s -> Wanted nm s u o fp p -> h_fs s p <> None ->
  (forall h, In h (h_open s) -> h_fs s (hd_path h) <> None) ->
  exists s' h, h5_access nm s u MR o fp true = (s', Ok h) /\ hd_path h = p /\ hd_mode h = MR /\ h_fs s' p = h_fs s p.
Proof.
  intros RC W F A. pose proof (reachable_inv _ _ RC) as H. destruct (h5_access nm s u MR o fp true) as [s' r] eqn:E. pose proof E as E'.
  pose proof (access_spec _ _ _ _ _ _ _ _ _ H E) as (_ & _ & S).
  destruct r as [h|e].
  - exists s', h. pose proof (C35_access_and_file_contents _ _ _ _ _ _ _ _ _ RC E) as (_ & C). destruct S as (W' & _ & _ & M & _).
    assert (hd_path h = p) as X.
    { unfold Wanted in *. destruct fp as [[|]|]; try congruence.
      - destruct (match _ with Some n => _ | None => _ end); congruence.
      - destruct (match _ with Some n => _ | None => _ end); congruence. }
    subst p. auto.
  - exfalso. clear S. revert E. unfold h5_access. fold (pre_release s MR). destruct (pre_release_spec s MR H) as (H0 & F0 & D0 & T0 & R0 & N0). cbv zeta.
    set (s0 := pre_release s MR) in *. clearbody s0.
    destruct (match fp with Some (c :: p) => _ | _ => _ end) as [s1 name] eqn:EN.
    assert (name = Ok (Some p) /\ h_fs s1 = h_fs s0 /\ h_open s1 = h_open s0 /\ h_root s1 = h_root s0 /\ h_path s1 = h_path s0 /\ h_mode s1 = h_mode s0 /\ h_next s1 = h_next s0) as (-> & F1 & O1 & R1 & P1 & M1 & N1).
    { assert (forall s1 name, Wanted nm s u o None p -> h5_file_name nm s0 u o true = (s1, name) -> name = Ok (Some p)) as G.
      { clear - F F0 D0 T0. intros s1 name W. unfold h5_file_name, Wanted in *. cbv zeta in W. rewrite D0, T0.
        destruct (match _ with Some n => _ | None => _ end) as [q|]; [congruence|]. rewrite W. unfold exists_. rewrite F0. destruct (h_fs s p); [|congruence]. cbn. congruence. }
      destruct fp as [[|c q]|].
      - pose proof (file_name_state _ _ _ _ _ _ _ EN) as (? & ? & ? & ? & ? & ?). rewrite (G _ _ W EN). auto 10.
      - unfold Wanted in W. rewrite T0 in EN. injection EN as <- <-. auto 10.
      - pose proof (file_name_state _ _ _ _ _ _ _ EN) as (? & ? & ? & ? & ? & ?). rewrite (G _ _ W EN). auto 10. }
    assert (Inv s1) as I1 by (unfold Inv in *; rewrite O1, R1, P1, M1, N1; exact H0).
    assert (forall s2, h_root s2 = None -> h_open s2 = [] -> h_fs s2 = h_fs s -> open_step (Some p) MR true s2 <> (s', Err e)) as OS.
    { intros s2 B1 B2 B3. unfold open_step, h5py_open. cbn. rewrite B2, B3. cbn. destruct (h_fs s p); [discriminate|congruence]. }
    destruct (h_root s1) as [h|] eqn:RT.
    + pose proof I1 as I2. unfold Inv in I2. rewrite RT in I2. destruct I2 as (Z1 & Z2 & Z3 & _). rewrite Z2.
      assert (exists_ (h_fs s1) p = true) as -> by (unfold exists_; rewrite F1, F0; destruct (h_fs s p); congruence).
      destruct (R0 h) as [Y1 Y2]; [congruence|].
      assert (exists_ (h_fs s1) (hd_path h) = true) as ->.
      { unfold exists_. rewrite F1, F0. destruct (h_fs s (hd_path h)) eqn:Q; [reflexivity|]. exfalso. apply (A h); [|exact Q]. rewrite <- Y1, <- O1, Z1. now left. }
      cbn [andb negb]. destruct (str_eqb (hd_path h) p); [discriminate|]. apply OS; [|apply release_open, I1|cbn; congruence]. apply release_open, I1.
    + unfold Inv in I1. rewrite RT in I1. pose proof (OS s1 RT I1 ltac:(congruence)) as G. unfold open_step in G. rewrite RT in G. exact G.
Qed.
Print Assumptions C35_existing_file_can_be_read.

(** Not so for writing: while one file is open for writing, asking for a second, new file in the
    same mode raises FileNotFoundError, although nothing prevents its creation, and the first
    file stays open. *)
Definition nm0 : naming := Naming (Some (L "/d/m.epc")) (Some (L "/d")) [] None.
Theorem C35_second_new_file_refused_refuted : exists nm s s' h p, Reachable nm s /\ Wanted nm s None (OStr (L "none")) (Some p) p /\ h_fs s p = None /\
  h5_access nm s None MW (OStr (L "none")) (Some p) true = (s', Err FileNotFoundError) /\ h_open s' = [h] /\ hd_path h <> p /\
  (* while it would succeed after a release *)
  is_ok (snd (h5_access nm (h5_release s) None MW (OStr (L "none")) (Some p) true)) = true.
Proof.
  exists nm0, (run nm0 (new_state (fun _ => None) (L "none")) [Access None MW (OStr (L "none")) (Some (L "/d/a.h5")) true]).
  eexists. eexists. exists (L "/d/b.h5"). split; [eexists; eexists; eexists; reflexivity|].
  split; [reflexivity|]. split; [reflexivity|]. split; [reflexivity|]. split; [reflexivity|]. split; [discriminate|reflexivity].
Qed.
Print Assumptions C35_second_new_file_refused_refuted.

(** A history exercising the theorems: write, append to the same file, read another, fail. *)
Example C35_ex :
  let fs := fs_set (fun _ => None) (L "/d/b.h5") [] in
  let s := run nm0 (new_state fs (L "none"))
             [Access None MA (OStr (L "none")) (Some (L "/d/a.h5")) true; Access None MA (OStr (L "none")) (Some (L "/d/a.h5")) true;
              Access None MR (OStr (L "none")) (Some (L "/d/b.h5")) true] in
  h_open s = [Handle 2 (L "/d/b.h5") MR] /\ h_fs s (L "/d/a.h5") = Some [] /\
  h_open (run nm0 s [Access None MW (OStr (L "none")) (Some (L "/d/b.h5")) false]) = [].
Proof. vm_compute. auto. Qed.

(** * C52 which file a request means *)
Definition NoSlash (s : str) : Prop := ~ In "/"%char s.
(** Spec: the final component of a path: what follows its last slash *)
Definition IsBasename (s b : str) : Prop := NoSlash b /\ (s = b \/ exists d, s = d ++ L "/" ++ b).
Lemma basename_spec s : IsBasename s (basename s).
Proof.
  unfold basename, IsBasename, NoSlash. destruct (rfind_chr "/" s) as [k|] eqn:E.
  - apply rfind_chr_some in E as (a & b & -> & <- & N). unfold from. replace (skipn (List.length a + 1) (a ++ "/"%char :: b)) with b.
    + split; [exact N|]. right. exists a. reflexivity.
    + rewrite skipn_app, skipn_all2 by lia. replace (List.length a + 1 - List.length a)%nat with 1%nat by lia. reflexivity.
  - apply rfind_chr_none in E. auto.
Qed.
Lemma path_join_plain a b : NoSlash b -> a <> [] -> exists sep, path_join a b = a ++ sep ++ b /\ (sep = [] /\ (exists a', a = a' ++ L "/") \/ sep = L "/").
Proof.
  intros N A. unfold path_join. destruct b as [|c b].
  - destruct (rev a) as [|z r] eqn:R; [apply (f_equal (@rev _)) in R; rewrite rev_involutive in R; contradiction|].
    destruct (chr_eqb z "/") eqn:Z.
    + exists []. rewrite app_nil_r. split; [reflexivity|]. left. split; [reflexivity|]. exists (rev r). apply Ascii.eqb_eq in Z. subst. rewrite <- (rev_involutive a), R. reflexivity.
    + exists (L "/"). split; [reflexivity|auto].
  - destruct (chr_eqb c "/") eqn:C; [apply Ascii.eqb_eq in C; subst; exfalso; apply N; now left|].
    destruct (rev a) as [|z r] eqn:R; [apply (f_equal (@rev _)) in R; rewrite rev_involutive in R; contradiction|].
    destruct (chr_eqb z "/") eqn:Z.
    + exists []. split; [reflexivity|]. left. split; [reflexivity|]. exists (rev r). apply Ascii.eqb_eq in Z. subst. rewrite <- (rev_involutive a), R. reflexivity.
    + exists (L "/"). split; [reflexivity|auto].
Qed.

(** With 'full' override (or True) the file beside the epc, of the same name but for the
    extension, is meant, whatever the relationships or the caller say. *)
Theorem C52_full_override nm default o supplied u base : nm_epc_file nm = Some (base ++ L ".epc") ->
  o = OBool true \/ o = OStr (L "full") \/ (o = OStr (L "default") /\ default = L "full") ->
  apply_override nm default o supplied u = Ok (Some (base ++ L ".h5")).
Proof.
  intros E O. unfold apply_override. assert (okind_of default o = Ok OFull) as ->.
  { destruct O as [-> |[-> |[-> ->]]]; reflexivity. }
  cbn [bind]. rewrite E. assert (nonempty (base ++ L ".epc") = true) as -> by (destruct base; reflexivity).
  assert (endswith (base ++ L ".epc") (L ".epc") = true) as -> by (unfold endswith; rewrite rev_app_distr; reflexivity).
  cbn [andb]. unfold upto. rewrite app_length. change (List.length (L ".epc")) with 4%nat.
  replace (List.length base + 4 - 4)%nat with (List.length base) by lia. rewrite firstn_app, Nat.sub_diag, firstn_all. cbn [firstn]. rewrite app_nil_r. reflexivity.
Qed.
Print Assumptions C52_full_override.

(** With 'dir' override a file in the epc's directory is meant, with the final component of the
    name given (by the caller or by the relationships). *)
Theorem C52_dir_override nm default o supplied u d r : nm_epc_dir nm = Some d -> d <> [] ->
  o = OBool false \/ o = OStr (L "dir") \/ (o = OStr (L "default") /\ default = L "dir") ->
  apply_override nm default o supplied u = Ok (Some r) ->
  exists name b sep, (supplied = Some name \/ (supplied = None \/ supplied = Some []) /\ target_path (nm_rels nm) u = Ok (Some name)) /\
    IsBasename name b /\ r = d ++ sep ++ b /\ (sep = L "/" \/ sep = [] /\ exists d', d = d' ++ L "/").
Proof.
  intros E D O. unfold apply_override. assert (okind_of default o = Ok ODir) as ->.
  { destruct O as [-> |[-> |[-> ->]]]; reflexivity. }
  assert (forall name, exists sep, place nm ODir name = d ++ sep ++ basename name /\ (sep = L "/" \/ sep = [] /\ exists d', d = d' ++ L "/")) as PL.
  { intros name. unfold place. rewrite E. destruct d as [|c d]; [congruence|]. cbn [orb].
    destruct (path_join_plain (c :: d) (basename name)) as (sep & X & Y); [apply basename_spec|discriminate|]. exists sep. split; [exact X|]. tauto. }
  cbn [bind]. destruct supplied as [[|c s]|].
  2: { intros [= <-]. destruct (PL (c :: s)) as (sep & X & Y). exists (c :: s), (basename (c :: s)), sep. repeat split; auto; apply basename_spec. }
  all: destruct (target_path _ _) as [[[|c s]|]|] eqn:T; cbn [bind]; try discriminate; intros [= <-]; destruct (PL (c :: s)) as (sep & X & Y);
    exists (c :: s), (basename (c :: s)), sep; repeat split; auto; apply basename_spec.
Qed.
Print Assumptions C52_dir_override.
Example C52_ex : apply_override (Naming (Some (L "/d/m.epc")) (Some (L "/d")) [(Some 5, [RC (L "Hdf5File") (Some (L "External")) (L "x/y.h5")])] None)
  (L "dir") (OStr (L "default")) None (Some 5) = Ok (Some (L "/d/y.h5")).
Proof. reflexivity. Qed.

(** With 'none' override a name with a directory is used as given, and a bare file name is
    looked for in the epc's directory. *)
Theorem C52_no_override nm default u name : name <> [] ->
  apply_override nm default (OStr (L "none")) (Some name) u =
    Ok (Some (if existsb (chr_eqb "/") name then name
              else match nm_epc_dir nm with Some (c :: d) => path_join (c :: d) name | _ => name end)).
Proof.
  intros N. unfold apply_override. change (okind_of default (OStr (L "none"))) with (Ok ONone). cbn [bind]. destruct name as [|c s]; [congruence|].
  unfold place. cbn [orb]. do 2 f_equal. destruct (existsb (chr_eqb "/") (c :: s)) eqn:X; cbn [negb].
  - destruct (nm_epc_dir nm) as [[|]|]; reflexivity.
  - destruct (nm_epc_dir nm) as [[|e d]|]; try reflexivity. f_equal. unfold basename.
    assert (rfind_chr "/" (c :: s) = None) as ->; [|reflexivity]. apply rfind_chr_none. intros H. apply not_true_iff_false in X. apply X.
    apply existsb_exists. exists "/"%char. split; [exact H|reflexivity].
Qed.
Print Assumptions C52_no_override.

(** A name found for a uuid is kept, through any history without a clearing of the names: every
    later request for that uuid means the same file. *)
Definition keeps (a : op) : Prop := a <> ClearNames.
Lemma dict_kept_file nm s u o e s' r n p : h5_file_name nm s u o e = (s', r) -> dget Z.eqb (h_dict s) n = Some p -> dget Z.eqb (h_dict s') n = Some p.
Proof.
  intros E D. unfold h5_file_name in E. cbv zeta in E. set (u' := match u with None => _ | Some _ => u end) in E.
  destruct (match u' with Some n => dget Z.eqb (h_dict s) n | None => None end) as [q|] eqn:C; [injection E as <- _; exact D|].
  destruct (apply_override _ _ _ _ _) as [[q|]|]; [|destruct e; injection E as <- _; exact D|injection E as <- _; exact D].
  destruct (e && _); [injection E as <- _; exact D|]. injection E as <- _. destruct u' as [m|]; [|exact D]. cbn [h_dict].
  rewrite (dget_dset_neq Z.eqb Z.eqb_eq); [exact D|]. intros ->. congruence.
Qed.
Lemma dict_kept_access nm s u m o fp ok n p : dget Z.eqb (h_dict s) n = Some p -> dget Z.eqb (h_dict (fst (h5_access nm s u m o fp ok))) n = Some p.
Proof.
  intros D. unfold h5_access. fold (pre_release s m).
  assert (h_dict (pre_release s m) = h_dict s) as P by (unfold pre_release; destruct (h_mode s) as [x|]; [destruct (hmode_eqb x m)|]; reflexivity).
  destruct (match fp with Some (c :: p) => _ | _ => _ end) as [s1 name] eqn:EN.
  assert (dget Z.eqb (h_dict s1) n = Some p) as D1.
  { destruct fp as [[|c q]|]; try (eapply dict_kept_file; [exact EN|congruence]). injection EN as <- _. congruence. }
  assert (forall s2 nm0 md, h_dict s2 = h_dict s1 -> dget Z.eqb (h_dict (fst (open_step nm0 md ok s2))) n = Some p) as OS.
  { intros s2 nm0 md X. unfold open_step. destruct nm0 as [q|]; [|cbn; congruence]. unfold h5py_open. cbn.
    destruct ok; cbn; [|congruence]. destruct (existsb _ _); cbn; [congruence|]. destruct md; cbn; [|congruence..]. destruct (h_fs s2 q); cbn; congruence. }
  destruct name as [name|]; [|exact D1]. destruct (match m with MA => _ | _ => _ end) as [md|]; [|exact D1].
  destruct (h_root s1) eqn:RT.
  - destruct (h_path s1), name; try exact D1. destruct (negb _); [exact D1|]. destruct (str_eqb _ _); [exact D1|]. match goal with |- context [set_open _ (Some ?q) _ _] => exact (OS (h5_release s1) (Some q) md eq_refl) end.
  - pose proof (OS s1 name md eq_refl) as X. unfold open_step in X. rewrite RT in X. exact X.
Qed.
Theorem C52_name_kept_for_uuid nm s n p l : dget Z.eqb (h_dict s) n = Some p -> Forall keeps l ->
  forall o, Wanted nm (run nm s l) (Some n) o None p.
Proof.
  intros D K o. assert (dget Z.eqb (h_dict (run nm s l)) n = Some p) as X.
  { unfold run. revert s D. induction K as [|a l Ka _ IH]; [auto|]. intros s D. cbn [fold_left]. apply IH. destruct a; cbn [step]; try exact D.
    - apply dict_kept_access, D.
    - exfalso. now apply Ka.
    - unfold set_default_override. destruct (_ || _); exact D.
    - unfold h5_write. destruct (r_sets r); [exact D|]. pose proof (dict_kept_access nm s None m (OStr (L "default")) file ok n p D) as D1.
      destruct (h5_access _ _ _ _ _ _ _) as [s1 [h|e]]; cbn [fst] in D1; [|exact D1]. destruct (hd_mode h); [exact D1|..]; destruct (write_fp _ _ _) as [f' [[]|e]]; cbn [fst]; try exact D1.
      all: destruct release_after; exact D1. }
  unfold Wanted. cbv zeta. rewrite X. reflexivity.
Qed.
Print Assumptions C52_name_kept_for_uuid.
(** So an override given on a later request is ignored. *)
Theorem C52_override_honoured_refuted : exists nm fs u s1 s2 h1 h2,
  h5_access nm (new_state fs (L "none")) (Some u) MR (OStr (L "none")) None true = (s1, Ok h1) /\
  h5_access nm s1 (Some u) MR (OStr (L "full")) None true = (s2, Ok h2) /\
  apply_override nm (L "none") (OStr (L "full")) None (Some u) = Ok (Some (L "/d/m.h5")) /\ fs (L "/d/m.h5") <> None /\
  hd_path h2 = L "/e/y.h5".
Proof.
  exists (Naming (Some (L "/d/m.epc")) (Some (L "/d")) [(Some 5, [RC (L "Hdf5File") (Some (L "External")) (L "/e/y.h5")])] None).
  exists (fs_set (fs_set (fun _ => None) (L "/d/m.h5") []) (L "/e/y.h5") []), 5. eexists. eexists. eexists. eexists.
  split; [reflexivity|]. split; [reflexivity|]. split; [reflexivity|]. split; [discriminate|reflexivity].
Qed.
Print Assumptions C52_override_honoured_refuted.

(** The relationships say which file is meant: the first external one marked Hdf5File, among the
    relationships of the uuid (of any part when no uuid is given). *)
Definition Meant (u v : option Z) : bool := match u with None => true | Some n => match v with Some m => n =? m | None => false end end.
Definition is_hdf5 (c : rel_child) : bool := str_eqb (rc_id c) (L "Hdf5File") && match rc_mode c with Some m => str_eqb m (L "External") | None => false end.
Theorem C52_file_from_relationships rels u :
  (forall v cs c, In (v, cs) rels -> In c cs -> rc_mode c <> None) ->
  target_path rels u = Ok (hd_error (map rc_target (filter is_hdf5 (flat_map snd (filter (fun e => Meant u (fst e)) rels))))).
Proof.
  assert (forall cs, (forall c, In c cs -> rc_mode c <> None) -> target_in_rels cs = Ok (hd_error (map rc_target (filter is_hdf5 cs)))) as G.
  { induction cs as [|c cs IH]; intros H; [reflexivity|]. cbn [target_in_rels filter]. unfold is_hdf5 at 1. specialize (IH ltac:(intros; apply H; now right)).
    destruct (str_eqb (rc_id c) (L "Hdf5File")); cbn [andb]; [|exact IH]. destruct (rc_mode c) as [m|] eqn:M; [|exfalso; apply (H c); [now left|exact M]].
    destruct (str_eqb m (L "External")); [reflexivity|exact IH]. }
  induction rels as [|[v cs] rels IH]; intros H; [reflexivity|]. cbn [target_path filter fst]. fold (Meant u v). specialize (IH ltac:(intros; eapply H; [right; eassumption|eassumption])).
  destruct (Meant u v); [|exact IH]. rewrite G by (intros c C; eapply H; [now left|exact C]). cbn [bind flat_map snd]. rewrite filter_app, map_app.
  destruct (map rc_target (filter is_hdf5 cs)); [exact IH|reflexivity].
Qed.
Print Assumptions C52_file_from_relationships.
(** A request by uuid that succeeds has the name remembered, so C52_name_kept_for_uuid applies. *)
Theorem C52_found_name_is_remembered nm s n m o ok s' h : h5_access nm s (Some n) m o None ok = (s', Ok h) -> Reachable nm s ->
  dget Z.eqb (h_dict s') n = Some (hd_path h).
Proof.
  intros E RC. pose proof (access_spec _ _ _ _ _ _ _ _ _ (reachable_inv _ _ RC) E) as (_ & _ & W & _).
  unfold h5_access in E. fold (pre_release s m) in E.
  assert (h_dict (pre_release s m) = h_dict s /\ h_default (pre_release s m) = h_default s) as [P P'] by (unfold pre_release; destruct (h_mode s) as [x|]; [destruct (hmode_eqb x m)|]; split; reflexivity).
  destruct (h5_file_name nm (pre_release s m) (Some n) o (hmode_eqb m MR)) as [s1 name] eqn:EN.
  assert (forall p, name = Ok (Some p) -> dget Z.eqb (h_dict s1) n = Some p) as D1.
  { intros p ->. unfold h5_file_name in EN. destruct (dget Z.eqb (h_dict (pre_release s m)) n) as [q|] eqn:Q; [injection EN as <- <-; exact Q|].
    destruct (apply_override _ _ _ _ _) as [[q|]|]; [|destruct (hmode_eqb m MR); discriminate|discriminate]. destruct (hmode_eqb m MR && _); [discriminate|].
    injection EN as <- <-. cbn [h_dict]. apply dget_dset_eq, Z.eqb_eq. }
  destruct name as [[p|]|]; [| |discriminate].
  2: { destruct m; try discriminate. all: cbv zeta in E; destruct (h_root s1); [destruct (h_path s1); discriminate|cbn in E; discriminate]. }
  specialize (D1 p eq_refl).
  assert (p = hd_path h) as X.
  { clear E. unfold h5_file_name in EN. unfold Wanted in W. cbv zeta in W. rewrite P, P' in EN. destruct (dget Z.eqb (h_dict s) n) as [q|] eqn:Q; [congruence|].
    rewrite W in EN. destruct (hmode_eqb m MR && _); congruence. }
  subst p.
  assert (forall s2 md s' h0, h_dict s2 = h_dict s1 -> open_step (Some (hd_path h)) md ok s2 = (s', Ok h0) -> h_dict s' = h_dict s1) as OS.
  { intros s2 md s3 h0 X. unfold open_step, h5py_open. cbn. destruct ok; cbn; [|discriminate]. destruct (existsb _ _); cbn; [discriminate|].
    destruct md; cbn; [|intros [= <- _]; exact X..]. destruct (h_fs s2 (hd_path h)); [intros [= <- _]; exact X|discriminate]. }
  cbv zeta in E. destruct (match m with MA => _ | _ => _ end) as [md|]; [|discriminate]. destruct (h_root s1) as [h1|] eqn:RT.
  - destruct (h_path s1) as [q|]; [|discriminate]. destruct (negb _); [discriminate|]. destruct (str_eqb q _); [injection E as <- _; exact D1|].
    rewrite (OS (h5_release s1) md s' h eq_refl E). exact D1.
  - rewrite (OS s1 md s' h eq_refl); [exact D1|]. unfold open_step. rewrite RT. exact E.
Qed.
Print Assumptions C52_found_name_is_remembered.
