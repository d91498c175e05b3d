(** H5FileProps.v: C50 registered arrays are written, C51 copying hdf5 files, C53 changing a uuid
    within an hdf5 file. *)
From Verif Require Import Base StrModel StrProofs UuidModel UuidProofs PyDict NArray PackModel PackProps H5FileModel H5FileProofs H5Model H5Props.

(** * C50 *)
(** Spec: a value an element type can hold *)
Definition Fits (t : dt) (z : Z) : Prop :=
  match t with
  | Int64 => - 2 ^ 63 <= z < 2 ^ 63
  | Int32 => - 2 ^ 31 <= z < 2 ^ 31
  | UInt8 => 0 <= z < 256
  | Bool_ => z = 0 \/ z = 1
  | Float64 => True
  end.
(** A request to register an array *)
Record request := Rq { q_uuid : Z; q_tail : str; q_arr : dset; q_type : dtarg; q_path : option str }.
Definition register_all (l : list request) : res register :=
  fold_left (fun acc q => do r <- acc; register_dataset r (q_uuid q) (q_tail q) (q_arr q) (q_type q) (q_path q)) l (Ok new_register).
(** the name within the object's group: one slash dropped at either end *)
Definition Names (tail g : str) : Prop :=
  exists a b, (a = [] /\ (forall t, tail <> "/"%char :: t) \/ a = L "/") /\ (b = [] /\ (forall t, g <> t ++ L "/") \/ b = L "/") /\ tail = a ++ g ++ b /\ (g ++ b <> []).
Lemma norm_tail_names tail g : norm_tail tail = Ok g -> Names tail g.
Proof.
  unfold norm_tail, Names. destruct tail as [|c t]; [discriminate|].
  assert (forall g0, match rev g0 with [] => Err IndexError | z :: r => Ok (if chr_eqb z "/" then rev r else g0) end = Ok g ->
     exists b, (b = [] /\ (forall t, g <> t ++ L "/") \/ b = L "/") /\ g0 = g ++ b /\ g ++ b <> []) as G.
  { intros g0. destruct (rev g0) as [|z r] eqn:R; [discriminate|]. apply (f_equal (@rev _)) in R. rewrite rev_involutive in R. cbn [rev] in R.
    destruct (chr_eqb z "/") eqn:Z; intros [= <-].
    - apply Ascii.eqb_eq in Z. subst z. exists (L "/"). split; [now right|]. split; [exact R|]. destruct (rev r); discriminate.
    - exists []. rewrite app_nil_r. split; [left; split; [reflexivity|]|]; [|split; [reflexivity|destruct g0; [destruct (rev r); discriminate|discriminate]]].
      intros t0 E. rewrite R in E. apply app_inj_tail in E as [_ E]. subst z. vm_compute in Z. discriminate. }
  destruct (chr_eqb c "/") eqn:C; intros E; apply G in E as (b & H1 & H2 & H3).
  - apply Ascii.eqb_eq in C. subst c. exists (L "/"), b. split; [now right|]. split; [exact H1|]. split; [rewrite <- H2; reflexivity|exact H3].
  - exists [], b. split; [left; split; [reflexivity|]|]. { intros t0 [= -> ->]. vm_compute in C. discriminate. } split; [exact H1|]. split; [exact H2|exact H3].
Qed.
(** what is put in the register for a request *)
Definition prepared (a : dset) (t : dtarg) : res (dset * option dt) :=
  match t with
  | DTPack => do b <- packbits (amap (fun z => negb (z =? 0)) (ds_arr a)); Ok (DSet UInt8 b, Some UInt8)
  | DT t => do b <- astype a t; Ok (b, Some t)
  | DTNone => Ok (a, None)
  end.
Lemma register_inv r u tail a t i r' : register_dataset r u tail a t i = Ok r' ->
  exists g p, norm_tail tail = Ok g /\ prepared a t = Ok p /\ r_sets r' = PyDict.dset rkey_eqb (r_sets r) (u, g) p /\
    r_paths r' = match i with Some (c :: s) => PyDict.dset rkey_eqb (r_paths r) (u, g) (c :: s) | _ => r_paths r end.
Proof.
  unfold register_dataset, assert_. destruct (nonempty tail); [|discriminate]. cbn [bind]. fold (prepared a t). destruct (prepared a t) as [p|]; [|discriminate]. cbn [bind].
  destruct (norm_tail tail) as [g|]; [|discriminate]. cbn [bind]. intros [= <-]. exists g, p. auto.
Qed.
Lemma fold_err l e : fold_left (fun acc q => do r <- acc; register_dataset r (q_uuid q) (q_tail q) (q_arr q) (q_type q) (q_path q)) l (Err e) = Err e.
Proof. induction l; cbn; auto. Qed.
(** the last request for a name wins *)
Lemma register_last l1 x l2 r g : register_all (l1 ++ x :: l2) = Ok r -> norm_tail (q_tail x) = Ok g ->
  (forall y, In y l2 -> q_uuid y = q_uuid x -> norm_tail (q_tail y) <> Ok g) ->
  exists p, prepared (q_arr x) (q_type x) = Ok p /\ dget rkey_eqb (r_sets r) (q_uuid x, g) = Some p.
Proof.
  intros E N H. unfold register_all in E. rewrite fold_left_app in E. cbn [fold_left] in E.
  destruct (fold_left _ l1 (Ok new_register)) as [r1|e]; cbn [bind] in E; [|rewrite fold_err in E; discriminate].
  destruct (register_dataset r1 _ _ _ _ _) as [r2|e] eqn:R; [|rewrite fold_err in E; discriminate].
  apply register_inv in R as (g' & p & N' & P & S & _). assert (g' = g) as -> by congruence. exists p. split; [exact P|].
  assert (dget rkey_eqb (r_sets r2) (q_uuid x, g) = Some p) as D by (rewrite S; apply dget_dset_eq, rkey_eqb_iff).
  clear S P N'. revert r2 E D. induction l2 as [|y l2 IH]; cbn [fold_left]; intros r2 E D; [congruence|]. cbn [bind] in E.
  destruct (register_dataset r2 _ _ _ _ _) as [r3|e] eqn:R; [|rewrite fold_err in E; discriminate]. apply (IH ltac:(intros; apply H; [now right|assumption]) r3 E).
  apply register_inv in R as (g' & p' & N' & _ & S & _). rewrite S. rewrite (dget_dset_neq rkey_eqb rkey_eqb_iff); [exact D|].
  intros [= U G]. subst g'. apply (H y); [now left|congruence|exact N'].
Qed.
Lemma register_paths l r u g : register_all l = Ok r -> (forall y, In y l -> q_uuid y = u -> norm_tail (q_tail y) = Ok g -> q_path y = None) ->
  dget rkey_eqb (r_paths r) (u, g) = None.
Proof.
  intros E H. unfold register_all in E. assert (dget rkey_eqb (r_paths new_register) (u, g) = None) as D by reflexivity.
  revert E D. generalize new_register. induction l as [|y l IH]; cbn [fold_left]; intros r0 E D; [congruence|]. cbn [bind] in E.
  destruct (register_dataset r0 _ _ _ _ _) as [r1|e] eqn:R; [|rewrite fold_err in E; discriminate]. apply (IH ltac:(intros; apply H; [now right|assumption..]) r1 E).
  apply register_inv in R as (g' & p & N & _ & _ & P). rewrite P. destruct (q_path y) as [[|c s]|] eqn:Q; try exact D.
  rewrite (dget_dset_neq rkey_eqb rkey_eqb_iff); [exact D|]. intros [= U G]. subst. rewrite (H y) in Q; [discriminate|now left|reflexivity|exact N].
Qed.

Lemma amap_fix (f : Z -> Z) (a : narr Z) : (forall z, In z (a_data a) -> f z = z) -> amap f a = a.
Proof. intros H. destruct a as [s d]. unfold amap. cbn in *. f_equal. rewrite <- (map_id d) at 2. apply map_ext_in, H. Qed.
Lemma wrap_fits z t : Fits t z -> (t = Int64 -> wrap 64 true z = z) /\ (t = Int32 -> wrap 32 true z = z) /\ (t = UInt8 -> wrap 8 false z = z).
Proof.
  intros F. unfold wrap. repeat split; intros ->; cbn [Fits] in F; cbn [andb]; cbv zeta;
    change (2 ^ 64) with 18446744073709551616 in *; change (2 ^ (64 - 1)) with 9223372036854775808 in *; change (2 ^ 63) with 9223372036854775808 in *;
    change (2 ^ 32) with 4294967296 in *; change (2 ^ (32 - 1)) with 2147483648 in *; change (2 ^ 31) with 2147483648 in *; change (2 ^ 8) with 256 in *.
  - destruct (Z.leb_spec 9223372036854775808 (z mod 18446744073709551616)); Z.to_euclidean_division_equations; lia.
  - destruct (Z.leb_spec 2147483648 (z mod 4294967296)); Z.to_euclidean_division_equations; lia.
  - apply Z.mod_small. lia.
Qed.
Lemma astype_fits a t b : astype a t = Ok b -> (forall z, In z (a_data (ds_arr a)) -> Fits t z) -> ds_arr b = ds_arr a /\ ds_type b = t.
Proof.
  unfold astype. destruct (dt_eqb (ds_type a) t) eqn:T.
  - intros [= <-] _. destruct (ds_type a), t; try discriminate; auto.
  - intros E F. destruct (ds_type a), t; try discriminate; injection E as <-; cbn [ds_arr ds_type]; (split; [|reflexivity]); apply amap_fix; intros z Z; specialize (F z Z).
    all: try (now apply (wrap_fits z) in F as (F1 & F2 & F3); auto).
    all: cbn in F; destruct F as [-> | ->]; reflexivity.
Qed.

(** After a write that succeeds, every array last registered for an object and name is found at
    /RESQML/<uuid>/<name>, with its shape, and with its values when the element type stored can
    hold them; a packed array reads back as the booleans registered. *)
Theorem C50_registered_arrays_are_written l1 x l2 r f f' use_int32 g :
  register_all (l1 ++ x :: l2) = Ok r -> norm_tail (q_tail x) = Ok g ->
  (forall y, In y l2 -> q_uuid y = q_uuid x -> norm_tail (q_tail y) <> Ok g) ->
  (forall y, In y (l1 ++ x :: l2) -> q_uuid y = q_uuid x -> norm_tail (q_tail y) = Ok g -> q_path y = None) ->
  write_fp r use_int32 f = (f', Ok tt) ->
  let a := ds_arr (q_arr x) in
  exists d, fget f' (RESQML :: uuid_str (q_uuid x) :: components g) = Some d /\
    match q_type x with
    | DTNone => let t := match ds_type (q_arr x) with Int64 => if use_int32 then Int32 else Int64 | t => t end in
                ds_type d = match t with Bool_ => UInt8 | _ => t end /\
                a_shape (ds_arr d) = a_shape a /\ ((forall z, In z (a_data a) -> Fits t z) -> ds_arr d = a)
    | DT t => ds_type d = match t with Bool_ => UInt8 | _ => t end /\
              a_shape (ds_arr d) = a_shape a /\ ((forall z, In z (a_data a) -> Fits t z) -> ds_arr d = a)
    | DTPack => wf a -> load_array nonzero (fun z => z) (Some (fun b : bool => b)) (ds_arr d) (Some (a_shape a)) = Ok (amap nonzero a)
    end.
Proof.
  intros R N LW NP W a. destruct (register_last _ _ _ _ _ R N LW) as (p & P & D). destruct p as [b t].
  pose proof (write_sets_stored r use_int32 (r_sets r) f f' (q_uuid x, g) b t W (dget_in rkey_eqb rkey_eqb_iff _ _ _ D)) as S.
  unfold internal_path in S. rewrite (register_paths _ _ _ _ R NP), default_path in S. cbn [fst snd] in S. eexists. split; [exact S|]. clear S D LW NP W R N.
  subst a. unfold prepared in P. destruct (q_type x) as [| |ty].
  - injection P as <- <-. cbv zeta. unfold stored_form. destruct (ds_type (q_arr x)) eqn:TY; try (split; [try exact TY; reflexivity|split; [reflexivity|intros; reflexivity]]).
    destruct use_int32; [|split; [exact TY|split; [reflexivity|intros; reflexivity]]]. cbn [ds_arr amap a_shape ds_type]. split; [reflexivity|]. split; [reflexivity|]. intros F. apply amap_fix. intros z Z. specialize (F z Z). cbn [Fits] in F.
    unfold to_int32, clip. lia.
  - destruct (packbits _) as [c|] eqn:E; [|discriminate]. injection P as <- <-. cbn [stored_form ds_arr]. intros W.
    assert (wf (amap nonzero (ds_arr (q_arr x)))) as W' by (unfold wf, amap in *; cbn; now rewrite map_length).
    exact (C36_packed_round_trip _ _ W' E).
  - destruct (astype (q_arr x) ty) as [c|] eqn:E; [|discriminate]. injection P as <- <-.
    assert (ds_type c = ty) as TC.
    { unfold astype in E. destruct (dt_eqb (ds_type (q_arr x)) ty) eqn:TE; [injection E as <-; destruct (ds_type (q_arr x)), ty; try discriminate; reflexivity|].
      destruct (ds_type (q_arr x)), ty; try discriminate; injection E as <-; reflexivity. }
    split; [destruct ty; (exact TC || reflexivity)|].
    assert (ds_arr (stored_form use_int32 c (Some ty)) = ds_arr c) as -> by (destruct ty; reflexivity). split.
    + unfold astype in E. destruct (dt_eqb _ _); [congruence|]. destruct (ds_type (q_arr x)), ty; try discriminate; injection E as <-; reflexivity.
    + intros F. apply (astype_fits _ _ _ E F).
Qed.
Print Assumptions C50_registered_arrays_are_written.
Example C50_ex :
  let x := Rq 5 (L "/points") (DSet Int64 (NArr [2]%nat [7; -3])) DTNone None in
  let y := Rq 5 (L "mask/") (DSet Bool_ (NArr [3]%nat [1; 0; 1])) DTPack None in
  exists r f', register_all [x; y] = Ok r /\ write_fp r true [] = (f', Ok tt) /\
    fget f' (components (L "/RESQML/00000000-0000-0000-0000-000000000005/mask")) = Some (DSet UInt8 (NArr [1]%nat [160])).
Proof. eexists. eexists. split; [vm_compute; reflexivity|]. split; [vm_compute; reflexivity|reflexivity]. Qed.

(** Nothing else in the file changes, and nothing in it is lost even when the write fails. *)
Theorem C50_other_datasets_unchanged r use_int32 f f' x : write_fp r use_int32 f = (f', x) ->
  (forall q, (forall k, In k (dkeys (r_sets r)) -> internal_path r k <> q) -> fget f' q = fget f q) /\
  (forall q d, fget f q = Some d -> fget f' q = Some d).
Proof.
  intros E. split; [intros q H; eapply write_sets_others; eassumption|intros q d H; eapply write_sets_keeps; eassumption].
Qed.
Print Assumptions C50_other_datasets_unchanged.

(** Arrays of different objects never clash; so a write to a fresh file succeeds as soon as, for
    each object, no name is another's or lies within another's. *)
Theorem C50_objects_never_clash r u v g h : IsUuid u -> IsUuid v -> u <> v ->
  dget rkey_eqb (r_paths r) (u, g) = None -> dget rkey_eqb (r_paths r) (v, h) = None ->
  ~ Clash (internal_path r (u, g)) (internal_path r (v, h)).
Proof.
  intros U V N A B. unfold internal_path. rewrite A, B, !default_path. cbn [fst snd]. intros [[s E]|[s E]]; apply (f_equal (fun l => nth 1 l [])) in E; cbn [nth app] in E; apply N, uuid_str_injective; auto.
Qed.
Print Assumptions C50_objects_never_clash.
Theorem C50_fresh_file_write_succeeds r use_int32 : r_paths r = [] -> (forall k, In k (dkeys (r_sets r)) -> IsUuid (fst k)) -> NoDup (dkeys (r_sets r)) ->
  (forall u g h, In (u, g) (dkeys (r_sets r)) -> In (u, h) (dkeys (r_sets r)) -> g <> h -> ~ Clash (components g) (components h)) ->
  exists f', write_fp r use_int32 [] = (f', Ok tt).
Proof.
  intros P U ND C. apply write_sets_succeeds.
  - intros k _. unfold internal_path. rewrite P. cbn [dget]. rewrite default_path. discriminate.
  - intros k q e _ [].
  - assert (forall k k', In k (dkeys (r_sets r)) -> In k' (dkeys (r_sets r)) -> k <> k' -> ~ Clash (internal_path r k) (internal_path r k')) as G.
    { intros [u g] [v h] K K' N. destruct (Z.eq_dec u v) as [->|D].
      - unfold internal_path. rewrite P. cbn [dget fst snd]. rewrite !default_path. intros X. apply (C v g h K K'); [congruence|].
        destruct X as [[s X]|[s X]]; cbn in X; injection X as X; [left|right]; exists s; exact X.
      - apply C50_objects_never_clash; auto; [apply (U _ K)|apply (U _ K')|rewrite P; reflexivity|rewrite P; reflexivity]. }
    clear C U. induction ND as [|k l H ND IH]; constructor.
    + apply Forall_forall. intros k' K'. apply G; [now left|now right|congruence].
    + apply IH. intros; apply G; [now right|now right|assumption].
Qed.
Print Assumptions C50_fresh_file_write_succeeds.

(** 64 bit integers registered without a dtype are stored in 32 bits: values outside that range
    are silently changed. *)
Theorem C50_large_integers_refuted : exists a r f', register_all [Rq 5 (L "x") a DTNone None] = Ok r /\ (forall z, In z (a_data (ds_arr a)) -> Fits (ds_type a) z) /\
  write_fp r true [] = (f', Ok tt) /\ exists d, fget f' [RESQML; uuid_str 5; L "x"] = Some d /\ a_data (ds_arr d) <> a_data (ds_arr a).
Proof.
  exists (DSet Int64 (NArr [1]%nat [2147483648])). eexists. eexists. split; [vm_compute; reflexivity|]. split; [intros z [<-|[]]; vm_compute; split; congruence|].
  split; [vm_compute; reflexivity|]. eexists. split; [vm_compute; reflexivity|]. vm_compute. discriminate.
Qed.
Print Assumptions C50_large_integers_refuted.
(** An internal path given at one registration sticks to the name: registering the name again
    without a path does not return to the default path. *)
Theorem C50_internal_path_not_forgotten_refuted : exists a b r f', register_all [Rq 5 (L "x") a DTNone (Some (L "/OTHER/x")); Rq 5 (L "x") b DTNone None] = Ok r /\
  write_fp r true [] = (f', Ok tt) /\ fget f' [RESQML; uuid_str 5; L "x"] = None /\ fget f' [L "OTHER"; L "x"] = Some b.
Proof.
  exists (DSet Int32 (NArr [1]%nat [1])), (DSet Int32 (NArr [1]%nat [2])). eexists. eexists. repeat (split; [vm_compute; reflexivity|]). vm_compute. reflexivity.
Qed.
Print Assumptions C50_internal_path_not_forgotten_refuted.
(** A failed write leaves the file open, so writing again in mode 'w', which should start from an
    empty file, finds the half written datasets and fails as well; after a release it succeeds. *)
Theorem C50_retry_after_failure_refuted : exists nm s bad good s1 s2,
  h5_write nm s bad (Some (L "/d/a.h5")) MW true true true = (s1, Err ValueError) /\
  h5_write nm s1 good (Some (L "/d/a.h5")) MW true true true = (s2, Err ValueError) /\
  snd (h5_write nm (h5_release s1) good (Some (L "/d/a.h5")) MW true true true) = Ok tt.
Proof.
  pose (a := DSet Int32 (NArr [1]%nat [1])).
  exists nm0, (new_state (fun _ => None) (L "none")), (Reg [((5, L "x"), (a, None)); ((5, L "x/y"), (a, None))] []), (Reg [((5, L "x"), (a, None))] []).
  eexists. eexists. split; [vm_compute; reflexivity|]. split; [vm_compute; reflexivity|]. vm_compute. reflexivity.
Qed.
Print Assumptions C50_retry_after_failure_refuted.

(** A successful write of a non-empty register closes the file if so asked, and otherwise leaves
    the file written to open. *)
Theorem C50_write_releases_as_asked nm s r file mode release_after use_int32 ok s' : Reachable nm s -> r_sets r <> [] ->
  h5_write nm s r file mode release_after use_int32 ok = (s', Ok tt) ->
  if release_after then h_open s' = [] else exists h, h_open s' = [h] /\ hd_mode h <> MR /\ Wanted nm s None (OStr (L "default")) file (hd_path h).
Proof.
  intros RC NE. unfold h5_write. destruct (r_sets r) as [|x l]; [congruence|]. destruct (h5_access _ _ _ _ _ _ _) as [s1 [h|e]] eqn:E; [|discriminate].
  destruct (access_spec _ _ _ _ _ _ _ _ _ (reachable_inv _ _ RC) E) as (I1 & _ & W & O & R & _).
  assert (hd_mode h <> MR -> (let '(f', r') := write_fp r use_int32 match h_fs s1 (hd_path h) with Some f => f | None => [] end in
    let s2 := put s1 (hd_path h) f' in match r' with Ok _ => (if release_after then h5_release s2 else s2, Ok tt) | Err e => (s2, Err e) end) = (s', Ok tt) ->
    if release_after then h_open s' = [] else exists h, h_open s' = [h] /\ hd_mode h <> MR /\ Wanted nm s None (OStr (L "default")) file (hd_path h)) as G.
  { intros M. destruct (write_fp _ _ _) as [f' [[]|e]]; [|discriminate]. intros [= <-]. destruct release_after.
    - apply release_open. exact I1.
    - exists h. auto. }
  destruct (hd_mode h); [discriminate|..]; apply G; discriminate.
Qed.
Print Assumptions C50_write_releases_as_asked.
(** and what it wrote is in the file system, at the path asked for *)
Theorem C50_write_reaches_the_file nm s r file mode release_after use_int32 ok s' : Reachable nm s -> r_sets r <> [] ->
  h5_write nm s r file mode release_after use_int32 ok = (s', Ok tt) ->
  exists p f f', Wanted nm s None (OStr (L "default")) file p /\ write_fp r use_int32 f = (f', Ok tt) /\ h_fs s' p = Some f' /\
    (forall q, q <> p -> h_fs s' q = h_fs s q) /\
    match mode with MA => f = match h_fs s p with Some c => c | None => [] end | _ => f = [] \/ h_fs s p = Some f /\ exists h, h_open s = [h] /\ hd_path h = p end.
Proof.
  intros RC NE. unfold h5_write. destruct (r_sets r) as [|x l]; [congruence|]. destruct (h5_access _ _ _ _ _ _ _) as [s1 [h|e]] eqn:E; [|discriminate].
  destruct (access_spec _ _ _ _ _ _ _ _ _ (reachable_inv _ _ RC) E) as (I1 & _ & W & O & R & M & A).
  pose proof (C35_access_and_file_contents _ _ _ _ _ _ _ _ _ RC E) as [FO FM].
  assert (exists c, h_fs s1 (hd_path h) = Some c) as [c F].
  { destruct A as [(_ & _ & A1 & ->)|(_ & _ & _ & A1)].
    - destruct (h_fs s (hd_path h)); [eauto|congruence].
    - destruct (hd_mode h); [destruct A1 as [-> A1]; destruct (h_fs s (hd_path h)); [eauto|congruence]|rewrite A1; destruct (h_fs s (hd_path h)); eauto|eauto]. }
  assert (hd_mode h <> MR -> (let '(f', r') := write_fp r use_int32 match h_fs s1 (hd_path h) with Some f => f | None => [] end in
    let s2 := put s1 (hd_path h) f' in match r' with Ok _ => (if release_after then h5_release s2 else s2, Ok tt) | Err e => (s2, Err e) end) = (s', Ok tt) ->
    exists p f f', Wanted nm s None (OStr (L "default")) file p /\ write_fp r use_int32 f = (f', Ok tt) /\ h_fs s' p = Some f' /\
    (forall q, q <> p -> h_fs s' q = h_fs s q) /\
    match mode with MA => f = match h_fs s p with Some c => c | None => [] end | _ => f = [] \/ h_fs s p = Some f /\ exists h, h_open s = [h] /\ hd_path h = p end) as G.
  { intros MR'. rewrite F. destruct (write_fp _ _ _) as [f' [[]|e]] eqn:WF; [|discriminate]. intros [= <-].
    exists (hd_path h), c, f'. split; [exact W|]. split; [exact WF|].
    assert (h_fs (if release_after then h5_release (put s1 (hd_path h) f') else put s1 (hd_path h) f') = fs_set (h_fs s1) (hd_path h) f') as -> by (destruct release_after; cbn; rewrite F; reflexivity).
    split; [apply fs_set_eq|]. split; [intros q Q; rewrite fs_set_neq by exact Q; now apply FO|].
    destruct mode.
    - congruence.
    - rewrite F in FM. destruct (h_fs s (hd_path h)); congruence.
    - destruct FM as [[F1 F2]|[F1 F2]]; [right|left; congruence]. split; [congruence|]. exists h. split; [|reflexivity].
      pose proof (C35_at_most_one_open _ _ RC) as X. rewrite F1 in X. exact X. }
  destruct (hd_mode h); [discriminate|..]; apply G; discriminate.
Qed.
Print Assumptions C50_write_reaches_the_file.

(** * C51 *)
(** Spec: the groups a copy is meant to take *)
Definition Selected (incl excl : option (list Z)) (g : str) : Prop :=
  match incl, excl with
  | None, None => True
  | Some l, _ => exists n, uuid_from_str g = Some n /\ In n l
  | None, Some l => forall n, uuid_from_str g = Some n -> ~ In n l
  end.
Lemma selected_iff incl excl g : skip_group incl excl g = false <-> Selected incl excl g.
Proof.
  assert (forall l, negb (omem (uuid_from_str g) l) = false <-> exists n, uuid_from_str g = Some n /\ In n l) as A.
  { intros l. unfold omem. destruct (uuid_from_str g) as [n|]; rewrite negb_false_iff.
    - rewrite zmem_iff. split; [eauto|]. intros (k & [= <-] & H). exact H.
    - split; [discriminate|]. intros (k & H & _). discriminate. }
  unfold skip_group, Selected. destruct incl as [l|], excl as [m|].
  - apply A.
  - apply A.
  - unfold omem. destruct (uuid_from_str g) as [n|].
    + rewrite zmem_false. split; [intros H k [= <-]; exact H|intros H; now apply H].
    + split; [discriminate|reflexivity].
  - tauto.
Qed.
Lemma fhas_of_get f p d : fget f p = Some d -> fhas f p = true.
Proof. intros H. apply fget_in in H. apply fhas_iff. exists p, d. split; [exact H|apply below_refl]. Qed.

(** A copy that succeeds gives a file in which every dataset of a selected group not already in
    the output is that of the input, and every other dataset is as it was in the output (absent,
    in mode 'w'); no other file changes, and the count returned is the number of groups taken. *)
Theorem C51_copy_takes_selected_groups fs file_in file_out incl excl mode fs' n : copy_h5 fs file_in file_out incl excl mode = (fs', Ok n) ->
  exists f out o gs, fs file_in = Some f /\ fs' file_out = Some o /\ (forall q, q <> file_out -> fs' q = fs q) /\
    out = match mode with MA => match fs file_out with Some c => c | None => [] end | _ => [] end /\
    n = Z.of_nat (List.length gs) /\ NoDup gs /\
    (forall g, In g gs <-> fhas f [RESQML; g] = true /\ Selected incl excl g /\ fhas out [RESQML; g] = false) /\
    (forall g rest, In g gs -> fget o (RESQML :: g :: rest) = fget f (RESQML :: g :: rest)) /\
    (forall p, (forall g rest, In g gs -> p <> RESQML :: g :: rest) -> fget o p = fget out p).
Proof.
  unfold copy_h5. destruct (str_eqb_spec file_out file_in) as [->|NF]; [discriminate|].
  destruct (match incl, excl with Some _, Some _ => true | _, _ => false end) eqn:IE; [destruct incl, excl; discriminate|].
  assert (forall X : filesys * res Z, (match incl, excl with Some _, Some _ => (fs, Err AssertionError) | _, _ => X end) = X) as -> by (intros; destruct incl, excl; congruence).
  set (out := match mode with MA => match fs file_out with Some f => f | None => [] end | _ => [] end).
  assert (forall X : filesys * res Z, (match mode with MR => (fs, Err AssertionError) | _ => X end) = (fs', Ok n) -> X = (fs', Ok n)) as MX by (intros; destruct mode; [discriminate|assumption..]).
  intros E. apply MX in E. clear MX. rewrite (fs_set_neq fs file_out out file_in) in E by congruence.
  destruct (fs file_in) as [f|] eqn:F; [|discriminate]. destruct (fhas f [RESQML]) eqn:HR; [|discriminate]. cbn [negb] in E.
  destruct (copy_groups _ _ _ _ _) as [o k] eqn:C. injection E as <- <-. destruct (copy_groups_spec _ _ _ _ _ _ _ (children_nodup f [RESQML] []) C) as [-> G].
  exists f, out, o, (filter (takes incl excl out) (children f [RESQML] [])).
  assert (forall g, In g (children f [RESQML] []) <-> fhas f [RESQML; g] = true) as CH.
  { intros g. rewrite children_spec, fhas_iff. split.
    - intros (_ & p & d & r & I & ->). exists ([RESQML] ++ g :: r), d. split; [exact I|]. exists r. reflexivity.
    - intros (q & d & I & [r ->]). split; [intros []|]. exists ([RESQML; g] ++ r), d, r. auto. }
  assert (forall g, In g (filter (takes incl excl out) (children f [RESQML] [])) <-> fhas f [RESQML; g] = true /\ Selected incl excl g /\ fhas out [RESQML; g] = false) as GS.
  { intros g. rewrite filter_In, CH. unfold takes. rewrite andb_true_iff, !negb_true_iff, selected_iff. tauto. }
  split; [reflexivity|]. split; [apply fs_set_eq|]. split; [intros q Q; rewrite !fs_set_neq by exact Q; reflexivity|]. split; [reflexivity|].
  split; [reflexivity|]. split; [apply NoDup_filter, children_nodup|]. split; [exact GS|].
  assert (forall g, existsb (str_eqb g) (children f [RESQML] []) && takes incl excl out g = true <-> In g (filter (takes incl excl out) (children f [RESQML] []))) as EX.
  { intros g. rewrite andb_true_iff, filter_In, existsb_exists. split; intros [A B]; (split; [|exact B]).
    - destruct A as (y & Y1 & Y2). apply str_eqb_eq in Y2. now subst.
    - exists g. split; [exact A|apply str_eqb_refl]. }
  split.
  - intros g rest I. rewrite G. rewrite str_eqb_refl. cbn [andb]. rewrite (proj2 (EX g) I). reflexivity.
  - intros p H. rewrite G. destruct p as [|a [|g p]]; try reflexivity. destruct (str_eqb_spec a RESQML) as [->|]; [|reflexivity]. cbn [andb].
    destruct (existsb (str_eqb g) (children f [RESQML] []) && takes incl excl out g) eqn:X; [|reflexivity]. apply EX in X. exfalso. now apply (H g p).
Qed.
Print Assumptions C51_copy_takes_selected_groups.
(** A group named as the library names them is selected by exactly its uuid. *)
Theorem C51_selection_by_uuid n l : IsUuid n -> (Selected (Some l) None (uuid_str n) <-> In n l) /\ (Selected None (Some l) (uuid_str n) <-> ~ In n l).
Proof.
  intros U. unfold Selected. pose proof (from_str_plain n [] U) as E. rewrite app_nil_r in E. rewrite E. split; split.
  - intros (k & [= <-] & H). exact H.
  - eauto.
  - intros H. now apply H.
  - intros H k [= <-]. exact H.
Qed.
Print Assumptions C51_selection_by_uuid.
Definition fs_ex : filesys := fs_set (fs_set (fun _ => None) (L "a") [([RESQML; uuid_str 5; L "x"], DSet Int32 (NArr [1]%nat [1])); ([RESQML; uuid_str 6; L "x"], DSet Int32 (NArr [1]%nat [2])); ([L "OTHER"; L "x"], DSet Int32 (NArr [1]%nat [3]))])
   (L "b") [([RESQML; uuid_str 7; L "x"], DSet Int32 (NArr [1]%nat [4]))].
Example C51_ex : exists fs', copy_h5 fs_ex (L "a") (L "b") (Some [6; 8]) None MA = (fs', Ok 1) /\
  fs' (L "b") = Some [([RESQML; uuid_str 7; L "x"], DSet Int32 (NArr [1]%nat [4])); ([RESQML; uuid_str 6; L "x"], DSet Int32 (NArr [1]%nat [2]))].
Proof. eexists. split; [vm_compute; reflexivity|vm_compute; reflexivity]. Qed.
(** "If neither list is passed, all the datasets in the input file are copied": only those in the
    RESQML group are. *)
Theorem C51_all_datasets_copied_refuted : exists fs fs' n f o p, copy_h5 fs (L "a") (L "c") None None MW = (fs', Ok n) /\ fs (L "a") = Some f /\ fs' (L "c") = Some o /\
  fget f p <> None /\ fget o p = None.
Proof.
  exists fs_ex. eexists. eexists. eexists. eexists. exists [L "OTHER"; L "x"]. split; [vm_compute; reflexivity|]. split; [vm_compute; reflexivity|]. split; [vm_compute; reflexivity|].
  split; [vm_compute; discriminate|vm_compute; reflexivity].
Qed.
Print Assumptions C51_all_datasets_copied_refuted.
(** A copy from a missing file fails only after the output file has been emptied. *)
Theorem C51_failed_copy_keeps_output_refuted : exists fs fs' e, copy_h5 fs (L "missing") (L "b") None None MW = (fs', Err e) /\ fs (L "b") <> Some [] /\ fs' (L "b") = Some [].
Proof. exists fs_ex. eexists. eexists. split; [vm_compute; reflexivity|]. split; [vm_compute; discriminate|vm_compute; reflexivity]. Qed.
Print Assumptions C51_failed_copy_keeps_output_refuted.

(** Copying by internal path: datasets listed are found in the output as in the input unless
    something was there already, everything already in the output stays, and nothing else
    appears. *)
Lemma copy_paths_spec f : forall paths out n o r, copy_paths f paths out n = (o, r) ->
  (forall p d, fget out p = Some d -> fget o p = Some d) /\
  (forall p d, fget o p = Some d -> fget out p = Some d \/ (fget f p = Some d /\ exists s, In s paths /\ components s = p)) /\
  (forall m, r = Ok m -> forall s, In s paths -> fhas out (components s) = false -> fget f (components s) = fget o (components s) /\ fget f (components s) <> None \/ exists s' t, In s' paths /\ components s' = components s ++ t /\ t <> []).
Proof.
  induction paths as [|s paths IH]; intros out n o r E; cbn [copy_paths] in E.
  - injection E as <- <-. repeat split; auto. intros m _ s [].
  - destruct (fhas out (components s)) eqn:H.
    + destruct (IH _ _ _ _ E) as (A & B & C). repeat split; [exact A| |].
      * intros p d D. destruct (B p d D) as [X|(X & s' & Y1 & Y2)]; [now left|]. right. split; [exact X|]. exists s'. split; [now right|exact Y2].
      * intros m M s' [<-|I] H'; [congruence|]. destruct (C m M s' I H') as [X|(s2 & t & Y1 & Y2 & Y3)]; [now left|]. right. exists s2, t. split; [now right|auto].
    + destruct (fhas f (components s)) eqn:HF; cbn [negb] in E; [|injection E as <- <-; repeat split; auto; intros m; discriminate].
      destruct (existsb (chr_eqb "/") s); cbn [negb] in E; [|injection E as <- <-; repeat split; auto; intros m; discriminate].
      destruct (fget f (components s)) as [d|] eqn:G; [|injection E as <- <-; repeat split; auto; intros m; discriminate].
      destruct (create_dataset _ _ _) as [o1|e] eqn:CR; [|injection E as <- <-; repeat split; auto; intros m; discriminate].
      destruct (IH _ _ _ _ E) as (A & B & C). repeat split.
      * intros p d' D. apply A. destruct (create_fget _ _ _ _ p CR) as [-> N]. destruct (ipath_eqb (components s) p) eqn:Q; [apply ipath_eqb_iff in Q; congruence|exact D].
      * intros p d' D. destruct (B p d' D) as [X|(X & s' & Y1 & Y2)].
        -- destruct (create_fget _ _ _ _ p CR) as [Z N]. rewrite Z in X. destruct (ipath_eqb (components s) p) eqn:Q; [|now left].
           apply ipath_eqb_iff in Q. subst p. right. split; [congruence|]. exists s. split; [now left|reflexivity].
        -- right. split; [exact X|]. exists s'. split; [now right|exact Y2].
      * intros m M s' I H'. assert (fget o (components s) = Some d) as OD.
        { apply A. destruct (create_fget _ _ _ _ (components s) CR) as [-> _]. now rewrite (proj2 (ipath_eqb_iff _ _) eq_refl). }
        destruct I as [<-|I]; [left; rewrite G, OD; split; [reflexivity|discriminate]|].
        destruct (fhas o1 (components s')) eqn:H1.
        -- apply create_inv in CR as (-> & _ & _). rewrite fhas_app, H' in H1. cbn [orb] in H1. apply fhas_iff in H1 as (q & e & [Q|[]] & [t T]). injection Q as <- _.
           destruct t as [|a t]; [rewrite app_nil_r in T; rewrite <- T; left; rewrite G, OD; split; [reflexivity|discriminate]|].
           right. exists s, (a :: t). split; [now left|]. split; [exact T|discriminate].
        -- destruct (C m M s' I H1) as [X|(s2 & t & Y1 & Y2 & Y3)]; [now left|]. right. exists s2, t. split; [now right|auto].
Qed.
Theorem C51_copy_by_path fs file_in file_out paths mode fs' n : copy_h5_path_list fs file_in file_out paths mode = (fs', Ok n) ->
  exists f out o, fs file_in = Some f /\ fs' file_out = Some o /\ (forall q, q <> file_out -> fs' q = fs q) /\
    out = match mode with MA => match fs file_out with Some c => c | None => [] end | _ => [] end /\
    (forall p d, fget out p = Some d -> fget o p = Some d) /\
    (forall p d, fget o p = Some d -> fget out p = Some d \/ (fget f p = Some d /\ exists s, In s paths /\ components s = p)) /\
    (forall s, In s paths -> fhas out (components s) = false -> (forall s' t, In s' paths -> components s' = components s ++ t -> t = []) ->
       exists d, fget f (components s) = Some d /\ fget o (components s) = Some d).
Proof.
  unfold copy_h5_path_list. destruct (str_eqb_spec file_out file_in) as [->|NF]; [discriminate|].
  set (out := match mode with MA => match fs file_out with Some f => f | None => [] end | _ => [] end).
  assert (forall X : filesys * res Z, (match mode with MR => (fs, Err AssertionError) | _ => X end) = (fs', Ok n) -> X = (fs', Ok n)) as MX by (intros; destruct mode; [discriminate|assumption..]).
  intros E. apply MX in E. clear MX. rewrite (fs_set_neq fs file_out out file_in) in E by congruence.
  destruct (fs file_in) as [f|] eqn:F; [|discriminate]. destruct (copy_paths _ _ _ _) as [o r] eqn:C. injection E as <- ->. destruct (copy_paths_spec _ _ _ _ _ _ C) as (A & B & D).
  exists f, out, o. split; [reflexivity|]. split; [apply fs_set_eq|]. split; [intros q Q; rewrite !fs_set_neq by exact Q; reflexivity|]. split; [reflexivity|]. split; [exact A|]. split; [exact B|].
  intros s I H X. destruct (D n eq_refl s I H) as [[Y1 Y2]|(s' & t & Y1 & Y2 & Y3)]; [|exfalso; apply Y3, (X s' t Y1 Y2)].
  destruct (fget f (components s)) as [d|] eqn:G; [|congruence]. exists d. split; congruence.
Qed.
Print Assumptions C51_copy_by_path.
Example C51_ex2 : exists fs', copy_h5_path_list fs_ex (L "a") (L "b") [L "/OTHER/x"] MA = (fs', Ok 1) /\
  fs' (L "b") = Some [([RESQML; uuid_str 7; L "x"], DSet Int32 (NArr [1]%nat [4])); ([L "OTHER"; L "x"], DSet Int32 (NArr [1]%nat [3]))].
Proof. eexists. split; [vm_compute; reflexivity|vm_compute; reflexivity]. Qed.

(** * C53 *)
Lemma fget_map (h : ipath -> ipath) f p : (forall q d, In (q, d) f -> h q = h p -> q = p) -> fget (map (fun e => (h (fst e), snd e)) f) (h p) = fget f p.
Proof.
  unfold fget. induction f as [|[q d] f IH]; intros H; cbn; [reflexivity|]. destruct (ipath_eqb q p) eqn:E.
  - apply ipath_eqb_iff in E. subst. now rewrite (proj2 (ipath_eqb_iff _ _) eq_refl).
  - destruct (ipath_eqb (h q) (h p)) eqn:E2.
    + apply ipath_eqb_iff in E2. rewrite (H q d (or_introl eq_refl) E2), (proj2 (ipath_eqb_iff _ _) eq_refl) in E. discriminate.
    + apply IH. intros; eapply H; [right|]; eassumption.
Qed.
(** Changing a uuid moves every array of the object, unchanged, to the new uuid's group, leaves
    none behind and touches nothing else. *)
Theorem C53_change_uuid_moves_arrays f old new f' : IsUuid old -> IsUuid new -> change_uuid f old new = Ok f' ->
  old <> new /\
  (forall rest, fget f' (RESQML :: uuid_str new :: rest) = fget f (RESQML :: uuid_str old :: rest)) /\
  (forall rest, fget f' (RESQML :: uuid_str old :: rest) = None) /\
  (forall p, (forall rest, p <> RESQML :: uuid_str new :: rest) -> (forall rest, p <> RESQML :: uuid_str old :: rest) -> fget f' p = fget f p).
Proof.
  intros U V. unfold change_uuid. set (o := [RESQML; uuid_str old]). set (n := [RESQML; uuid_str new]).
  destruct (fhas f o) eqn:HO; [|discriminate]. destruct (fhas f n) eqn:HN; [discriminate|]. cbn [negb]. intros [= <-].
  assert (old <> new) as NE. { intros ->. subst o n. congruence. }
  assert (uuid_str old <> uuid_str new) as NS by (intros X; apply NE, uuid_str_injective; assumption).
  assert (forall q d, In (q, d) f -> ~ Below n q) as FN. { intros q d I B. apply not_true_iff_false in HN. apply HN, fhas_iff. eauto. }
  assert (forall r, rename_prefix o n (o ++ r) = n ++ r) as RO.
  { intros r. unfold rename_prefix. rewrite (proj2 (is_prefix_iff o (o ++ r))) by (now exists r). rewrite skipn_app, skipn_all, Nat.sub_diag. reflexivity. }
  assert (forall q, ~ Below o q -> rename_prefix o n q = q) as RN.
  { intros q B. unfold rename_prefix. destruct (is_prefix o q) eqn:X; [apply is_prefix_iff in X; contradiction|reflexivity]. }
  assert (forall q d r, In (q, d) f -> rename_prefix o n q = n ++ r -> q = o ++ r) as INJ.
  { intros q d r I E. destruct (is_prefix o q) eqn:X.
    - apply is_prefix_iff in X as [r' ->]. rewrite RO in E. apply app_inv_head in E. now subst.
    - rewrite RN in E by (rewrite <- is_prefix_iff; congruence). exfalso. apply (FN q d I). exists r. exact E. }
  split; [exact NE|]. split; [|split].
  - intros rest. change (RESQML :: uuid_str new :: rest) with (n ++ rest). change (RESQML :: uuid_str old :: rest) with (o ++ rest). rewrite <- RO. apply fget_map.
    intros q d I E. rewrite RO in E. eapply INJ; eassumption.
  - intros rest. apply fget_none. intros d I. apply in_map_iff in I as ([q d'] & E & I). cbn [fst snd] in E. injection E as E _.
    destruct (is_prefix o q) eqn:X.
    + apply is_prefix_iff in X as [r' ->]. rewrite RO in E. apply (f_equal (fun l => nth 1 l [])) in E. subst n o. cbn [nth app] in E. congruence.
    + rewrite RN in E by (rewrite <- is_prefix_iff; congruence). subst q. apply not_true_iff_false in X. apply X, is_prefix_iff. now exists rest.
  - intros p P1 P2. assert (~ Below o p) as B. { intros [r ->]. now apply (P2 r). } rewrite <- (RN p B) at 1. apply fget_map.
    intros q d I E. rewrite (RN p B) in E. destruct (is_prefix o q) eqn:X.
    + apply is_prefix_iff in X as [r' ->]. rewrite RO in E. exfalso. apply (P1 r'). symmetry. exact E.
    + rewrite RN in E by (rewrite <- is_prefix_iff; congruence). exact E.
Qed.
Print Assumptions C53_change_uuid_moves_arrays.
(** It fails, changing nothing, exactly when the object has no arrays or the new uuid has some. *)
Theorem C53_change_uuid_fails_iff f old new : is_ok (change_uuid f old new) = fhas f [RESQML; uuid_str old] && negb (fhas f [RESQML; uuid_str new]).
Proof. unfold change_uuid. destruct (fhas f [RESQML; uuid_str old]), (fhas f [RESQML; uuid_str new]); reflexivity. Qed.
Print Assumptions C53_change_uuid_fails_iff.
(** Changing there and back restores every array. *)
Theorem C53_change_uuid_inverse f old new f' : IsUuid old -> IsUuid new -> change_uuid f old new = Ok f' ->
  exists f'', change_uuid f' new old = Ok f'' /\ forall p, fget f'' p = fget f p.
Proof.
  intros U V E. destruct (C53_change_uuid_moves_arrays _ _ _ _ U V E) as (NE & A & B & C).
  pose proof (C53_change_uuid_fails_iff f old new) as OK. rewrite E in OK. cbn [is_ok] in OK. symmetry in OK. apply andb_true_iff in OK as [OK1 OK2]. apply negb_true_iff in OK2.
  assert (NoneO : fhas f' [RESQML; uuid_str old] = false).
  { apply not_true_iff_false. rewrite fhas_iff. intros (q & d & I & [r ->]). pose proof (B r) as X. cbn [app] in *. apply (proj1 (fget_none _ _)) with (d := d) in X. contradiction. }
  assert (SomeN : fhas f' [RESQML; uuid_str new] = true).
  { apply fhas_iff in OK1 as (q & d & I & [r ->]). destruct (fget f' (RESQML :: uuid_str new :: r)) as [d'|] eqn:F.
    - apply fget_in in F. apply fhas_iff. exists (RESQML :: uuid_str new :: r), d'. split; [exact F|]. exists r. reflexivity.
    - rewrite A in F. apply (proj1 (fget_none _ _)) with (d := d) in F. contradiction. }
  pose proof (C53_change_uuid_fails_iff f' new old) as OK'. rewrite NoneO, SomeN in OK'. destruct (change_uuid f' new old) as [f''|] eqn:E'; [|discriminate].
  exists f''. split; [reflexivity|]. destruct (C53_change_uuid_moves_arrays _ _ _ _ V U E') as (_ & A' & B' & C').
  assert (forall r, fget f (RESQML :: uuid_str new :: r) = None) as FN.
  { intros r. apply fget_none. intros d D. apply not_true_iff_false in OK2. apply OK2, fhas_iff. exists (RESQML :: uuid_str new :: r), d. split; [exact D|]. now exists r. }
  intros p. destruct (is_prefix [RESQML; uuid_str old] p) eqn:P.
  - apply is_prefix_iff in P as [r ->]. cbn [app]. rewrite A', A. reflexivity.
  - destruct (is_prefix [RESQML; uuid_str new] p) eqn:Q.
    + apply is_prefix_iff in Q as [r ->]. cbn [app]. rewrite B', FN. reflexivity.
    + assert (forall x, is_prefix [RESQML; x] p = false -> forall r, p <> RESQML :: x :: r) as G.
      { intros x X r ->. apply not_true_iff_false in X. apply X, is_prefix_iff. now exists r. }
      rewrite C', C; auto.
Qed.
Print Assumptions C53_change_uuid_inverse.
Example C53_ex : match fs_ex (L "a") with Some f => match change_uuid f 5 9 with Ok f' => fget f' [RESQML; uuid_str 9; L "x"] = Some (DSet Int32 (NArr [1]%nat [1])) | Err _ => False end | None => False end.
Proof. vm_compute. reflexivity. Qed.
