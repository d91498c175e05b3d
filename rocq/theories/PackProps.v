(** PackProps.v: C36 packed booleans round trip, C37 reshaped element access. *)
From Verif Require Import Base NArray PackModel.

(** * Bits *)
Lemma bits_byte a b c d e f g h : bits_of (byte_of [a; b; c; d; e; f; g; h]) = [a; b; c; d; e; f; g; h].
Proof. destruct a, b, c, d, e, f, g, h; reflexivity. Qed.
Lemma unpack_pack_row : forall n l, (List.length l <= n)%nat -> exists k, unpack_row (pack_row l) = l ++ repeat false k /\ (k < 8)%nat.
Proof.
  induction n as [|n IH]; intros l H.
  - destruct l; [exists 0%nat; cbn; auto with arith|cbn in H; lia].
  - destruct l as [|a [|b [|c [|d [|e [|f [|g [|h l]]]]]]]].
    1: exists 0%nat; cbn; auto with arith.
    1-7: cbn [pack_row unpack_row flat_map app List.length repeat Nat.sub]; rewrite ?bits_byte; cbn [app].
    + exists 7%nat. split; [reflexivity|lia].
    + exists 6%nat. split; [reflexivity|lia].
    + exists 5%nat. split; [reflexivity|lia].
    + exists 4%nat. split; [reflexivity|lia].
    + exists 3%nat. split; [reflexivity|lia].
    + exists 2%nat. split; [reflexivity|lia].
    + exists 1%nat. split; [reflexivity|lia].
    + cbn [pack_row]. unfold unpack_row. cbn [flat_map]. rewrite bits_byte. cbn [List.length] in H.
      destruct (IH l) as (k & E & K); [lia|]. unfold unpack_row in E. rewrite E. exists k. split; [reflexivity|exact K].
Qed.
Lemma unpack_pack l : firstn (List.length l) (unpack_row (pack_row l)) = l.
Proof.
  destruct (unpack_pack_row (List.length l) l (le_n _)) as (z & E & _). rewrite E, firstn_app, Nat.sub_diag, firstn_all. cbn. apply app_nil_r.
Qed.
Lemma length_pack_row l : List.length (pack_row l) = packed_extent (List.length l).
Proof.
  unfold packed_extent. assert (forall n l, (List.length l <= n)%nat -> List.length (pack_row l) = ((List.length l + 7) / 8)%nat) as G; [|apply (G (List.length l)); lia].
  clear. induction n as [|n IH]; intros l H; [destruct l; [reflexivity|cbn in H; lia]|].
  destruct l as [|a [|b [|c [|d [|e [|f [|g [|h l]]]]]]]]; try reflexivity.
  cbn [pack_row List.length] in *. rewrite IH by lia.
  replace (S (S (S (S (S (S (S (S (List.length l)))))))) + 7)%nat with ((List.length l + 7) + 1 * 8)%nat by lia.
  rewrite Nat.div_add by lia. lia.
Qed.

(** * Rows *)
Lemma length_rows {A} k n (l : list A) : List.length (rows k n l) = k.
Proof. unfold rows. rewrite map_length, seq_length. reflexivity. Qed.
Lemma rows_S {A} k n (l : list A) : rows (S k) n l = firstn n l :: rows k n (skipn n l).
Proof.
  unfold rows. cbn [seq map]. f_equal. rewrite <- seq_shift, map_map. apply map_ext. intros i.
  f_equal. cbn [Nat.mul]. clear. generalize (i * n)%nat as m. intros m. revert l. induction n as [|n IH]; intros l; [reflexivity|].
  destruct l; [cbn; destruct m; reflexivity|]. cbn. apply IH.
Qed.
Lemma rows_concat {A} k n : forall (l : list A), List.length l = (k * n)%nat -> List.concat (rows k n l) = l.
Proof.
  induction k as [|k IH]; intros l H; [destruct l; [reflexivity|discriminate]|]. rewrite rows_S. cbn [List.concat].
  rewrite IH; [apply firstn_skipn|]. rewrite skipn_length. lia.
Qed.
Lemma rows_length {A} k n : forall (l : list A) r, List.length l = (k * n)%nat -> In r (rows k n l) -> List.length r = n.
Proof.
  induction k as [|k IH]; intros l r H; [intros []|]. rewrite rows_S. intros [<-|Hr].
  - rewrite firstn_length. lia.
  - apply (IH (skipn n l)); [rewrite skipn_length; lia|exact Hr].
Qed.
(** rows of a concatenation of rows of equal length *)
Lemma rows_of_rows {A} n : forall (rs : list (list A)), (forall r, In r rs -> List.length r = n) -> rows (List.length rs) n (List.concat rs) = rs.
Proof.
  induction rs as [|r rs IH]; intros H; [reflexivity|]. cbn [List.length List.concat]. rewrite rows_S.
  pose proof (H r (or_introl eq_refl)) as E. rewrite <- E at 1 3.
  rewrite firstn_app, Nat.sub_diag, firstn_all, skipn_app, Nat.sub_diag, skipn_all. cbn [firstn skipn]. rewrite app_nil_r. cbn [app].
  f_equal. apply IH. intros; apply H; right; assumption.
Qed.
Lemma shape_split s : s <> [] -> s = lead s ++ [tail_extent s].
Proof. intros H. unfold lead, tail_extent. apply app_removelast_last, H. Qed.
Lemma lead_app s n : lead (s ++ [n]) = s.
Proof. apply removelast_last. Qed.
Lemma tail_app s n : tail_extent (s ++ [n]) = n.
Proof. apply last_last. Qed.

Lemma packbits_shape a p : wf a -> packbits a = Ok p ->
  a_shape a <> [] /\
  p = NArr (lead (a_shape a) ++ [packed_extent (tail_extent (a_shape a))])
           (flat_map pack_row (rows (prod (lead (a_shape a))) (tail_extent (a_shape a)) (a_data a))).
Proof.
  intros W. unfold packbits. destruct (a_shape a) as [|x s0] eqn:E; [discriminate|]. intros [= <-]. split; [discriminate|reflexivity].
Qed.
Lemma rows_packed s n (l : list bool) : List.length l = (prod s * n)%nat ->
  rows (prod s) (packed_extent n) (flat_map pack_row (rows (prod s) n l)) = map pack_row (rows (prod s) n l).
Proof.
  intros H. rewrite flat_map_concat_map. pose proof (rows_of_rows (packed_extent n) (map pack_row (rows (prod s) n l))) as R.
  rewrite map_length, length_rows in R. apply R. intros r Hr. apply in_map_iff in Hr as (q & <- & Hq).
  rewrite length_pack_row. f_equal. apply (rows_length (prod s) n l); assumption.
Qed.
Lemma wf_rows {A} (a : narr A) : wf a -> a_shape a <> [] -> List.length (a_data a) = (prod (lead (a_shape a)) * tail_extent (a_shape a))%nat.
Proof. unfold wf. intros W H. rewrite W. rewrite (shape_split _ H) at 1. rewrite prod_app. cbn. lia. Qed.
Lemma unpack_packbits a p : wf a -> packbits a = Ok p -> unpackbits p (tail_extent (a_shape a)) = a.
Proof.
  intros W E. apply packbits_shape in E as [H ->]; [|exact W]. pose proof (wf_rows a W H) as R. pose proof (shape_split _ H) as SS.
  destruct a as [s d]. cbn [a_shape a_data] in *. unfold unpackbits. cbn [a_shape a_data]. rewrite lead_app, tail_app.
  set (n := tail_extent s) in *. set (ls := lead s) in *. f_equal.
  - rewrite SS. f_equal. f_equal. unfold packed_extent. pose proof (Nat.div_mod (n + 7) 8 ltac:(lia)). pose proof (Nat.mod_upper_bound (n + 7) 8 ltac:(lia)). lia.
  - rewrite rows_packed by exact R. rewrite flat_map_concat_map, map_map. rewrite (map_ext_in _ (fun r => r)).
    + rewrite map_id. apply rows_concat, R.
    + intros r Hr. rewrite <- (rows_length _ _ _ _ R Hr). apply unpack_pack.
Qed.

(** * C36 *)
Definition nonzero (z : Z) : bool := negb (z =? 0).
Lemma amap_id {A} (f : A -> A) a : (forall x, f x = x) -> amap f a = a.
Proof. intros H. destruct a as [s d]. unfold amap. cbn. f_equal. rewrite (map_ext f (fun x => x)) by exact H. apply map_id. Qed.
Lemma packed_fits n : (n <> packed_extent n)%nat -> 8 * (Z.of_nat (packed_extent n) - 1) < Z.of_nat n <= 8 * Z.of_nat (packed_extent n).
Proof.
  unfold packed_extent. intros H. pose proof (Nat.div_mod (n + 7) 8 ltac:(lia)). pose proof (Nat.mod_upper_bound (n + 7) 8 ltac:(lia)). lia.
Qed.
Lemma packed_same n : (n = packed_extent n)%nat -> n = 0%nat \/ n = 1%nat.
Proof. unfold packed_extent. intros H. pose proof (Nat.div_mod (n + 7) 8 ltac:(lia)). pose proof (Nat.mod_upper_bound (n + 7) 8 ltac:(lia)). lia. Qed.
Lemma nonzero_unit r : List.length r = 1%nat -> map nonzero (pack_row r) = r.
Proof. destruct r as [|[] [|]]; try discriminate; reflexivity. Qed.
Lemma map_flat_map {A B C} (f : B -> C) (g : A -> list B) l : map f (flat_map g l) = flat_map (fun x => map f (g x)) l.
Proof. induction l as [|x l IH]; cbn; [reflexivity|]. rewrite map_app, IH. reflexivity. Qed.

(** Any boolean array registered with dtype 'pack' and read with its own shape and dtype bool
    comes back unchanged, whatever its shape (arrays without axes are refused). *)
Theorem C36_packed_round_trip a p : wf a -> packbits a = Ok p ->
  load_array nonzero (fun z => z) (Some (fun b : bool => b)) p (Some (a_shape a)) = Ok a.
Proof.
  intros W E. pose proof (unpack_packbits a p W E) as U. apply packbits_shape in E as [H ->]; [|exact W].
  pose proof (wf_rows a W H) as R. pose proof (shape_split _ H) as SS. unfold load_array. cbn [a_shape].
  destruct (shape_eqb _ _) eqn:Q.
  - apply shape_eqb_iff in Q. f_equal. destruct a as [s d]. cbn [a_shape a_data] in *. unfold amap. cbn [a_shape a_data].
    rewrite SS in Q at 3. apply app_inj_tail in Q as [_ Q].
    rewrite <- Q in SS at 1. rewrite <- SS at 1. f_equal.
    destruct (packed_same _ (eq_sym Q)) as [Z|Z]; rewrite Z in *.
    + rewrite Nat.mul_0_r in R. apply length_zero_iff_nil in R as ->.
      unfold rows. rewrite map_flat_map. generalize (seq 0 (prod (lead s))). intros l. induction l as [|x l IH]; [reflexivity|]. cbn [map flat_map firstn].
      exact IH.
    + rewrite map_flat_map. rewrite flat_map_concat_map, (map_ext_in _ (fun r => r)).
      * rewrite map_id. apply rows_concat, R.
      * intros r Hr. apply nonzero_unit. apply (rows_length _ _ _ _ R Hr).
  - assert (tail_extent (a_shape a) <> packed_extent (tail_extent (a_shape a))) as N.
    { intros N. rewrite <- N, <- SS in Q. rewrite (proj2 (shape_eqb_iff _ _) eq_refl) in Q. discriminate. }
    apply packed_fits in N. unfold looks_packed. rewrite tail_app.
    assert (List.length (lead (a_shape a) ++ [packed_extent (tail_extent (a_shape a))]) = List.length (a_shape a)) as ->
      by (apply (f_equal (@List.length nat)) in SS; rewrite app_length in *; exact (eq_sym SS)).
    rewrite Nat.eqb_refl. destruct (Z.ltb_spec (8 * (Z.of_nat (packed_extent (tail_extent (a_shape a))) - 1)) (Z.of_nat (tail_extent (a_shape a)))); [|lia].
    destruct (Z.leb_spec (Z.of_nat (tail_extent (a_shape a))) (8 * Z.of_nat (packed_extent (tail_extent (a_shape a))))); [|lia].
    cbn [andb]. rewrite amap_id, U by reflexivity. rewrite (proj2 (shape_eqb_iff _ _) eq_refl), amap_id by reflexivity. reflexivity.
Qed.
Print Assumptions C36_packed_round_trip.
Example C36_ex : let a := NArr [2; 11]%nat [true; false; true; true; false; false; true; true; true; false; true;
                                             false; false; true; false; false; false; true; true; false; true; true] in
  wf a /\ packbits a = Ok (NArr [2; 2]%nat [179; 160; 35; 96]).
Proof. vm_compute. split; reflexivity. Qed.

(** The layout: element [j] of a row is bit [7 - j mod 8] of byte [j / 8] of that row (so a
    reader that only knows the packing convention finds it), bytes are in 0..255 and padding
    bits are zero. *)
Lemma nth_unpack : forall bs j, (j < 8 * List.length bs)%nat -> nth j (unpack_row bs) false = Z.testbit (nth (j / 8) bs 0) (7 - Z.of_nat (j mod 8)).
Proof.
  induction bs as [|b bs IH]; intros j H; [cbn in H; lia|]. unfold unpack_row. cbn [flat_map]. fold (unpack_row bs).
  destruct (lt_dec j 8) as [J|J].
  - rewrite app_nth1 by (cbn; lia). rewrite Nat.div_small, Nat.mod_small by lia. cbn [nth].
    destruct j as [|[|[|[|[|[|[|[|]]]]]]]]; try reflexivity. lia.
  - rewrite app_nth2 by (cbn; lia). change (List.length (bits_of b)) with 8%nat. cbn [List.length] in H. rewrite IH by lia.
    replace j with ((j - 8) + 1 * 8)%nat at 3 4 by lia. rewrite Nat.div_add, Nat.mod_add by lia. rewrite Nat.add_1_r. reflexivity.
Qed.
Lemma byte_range : forall n l b, (List.length l <= n)%nat -> In b (pack_row l) -> 0 <= b < 256.
Proof.
  induction n as [|n IH]; intros l b0 H; [destruct l; [intros []|cbn in H; lia]|].
  destruct l as [|a [|b [|c [|d [|e [|f [|g [|h l]]]]]]]].
  1-8: cbn [pack_row In app List.length repeat Nat.sub]; intros X; repeat (destruct X as [X|X]; [subst b0; repeat match goal with x : bool |- _ => destruct x end; cbn; lia|]); destruct X.
  cbn [pack_row]. intros [<-|X]; [destruct a, b, c, d, e, f, g, h; cbn; lia|]. cbn [List.length] in H. apply (IH l); [lia|exact X].
Qed.
Theorem C36_packed_layout row : let bs := pack_row row in
  (List.length row <= 8 * List.length bs < List.length row + 8)%nat /\
  (forall b, In b bs -> 0 <= b < 256) /\
  (forall j, (j < 8 * List.length bs)%nat -> Z.testbit (nth (j / 8) bs 0) (7 - Z.of_nat (j mod 8)) = nth j row false).
Proof.
  intros bs. subst bs. split; [|split].
  - rewrite length_pack_row. unfold packed_extent. set (n := List.length row).
    pose proof (Nat.div_mod (n + 7) 8 ltac:(lia)). pose proof (Nat.mod_upper_bound (n + 7) 8 ltac:(lia)). lia.
  - intros b; apply (byte_range (List.length row)); lia.
  - intros j J. rewrite <- nth_unpack by exact J. destruct (unpack_pack_row (List.length row) row (le_n _)) as (z & E & Z).
    rewrite E. destruct (lt_dec j (List.length row)) as [K|K].
    + rewrite app_nth1 by exact K. reflexivity.
    + rewrite app_nth2, (nth_overflow row) by lia. apply nth_repeat.
Qed.
Print Assumptions C36_packed_layout.

(** Booleans registered without packing are written as bytes 0 and 1 and come back unchanged
    when read with their own shape or with no required shape. *)
Theorem C36_plain_booleans_round_trip (a : narr bool) required : required = None \/ required = Some (a_shape a) ->
  load_array nonzero (fun z => z) (Some (fun b : bool => b)) (amap Z.b2z a) required = Ok a.
Proof.
  intros H. unfold load_array. replace (match required with None => _ | Some r => r end) with (a_shape a) by (destruct H as [-> | ->]; reflexivity).
  cbn [amap a_shape]. rewrite (proj2 (shape_eqb_iff _ _) eq_refl). destruct a as [s d]. unfold amap. cbn. rewrite map_map.
  rewrite (map_ext _ (fun b => b)) by (intros []; reflexivity). rewrite map_id. reflexivity.
Qed.
Print Assumptions C36_plain_booleans_round_trip.

(** But when a plain boolean array is read with another shape of the same size it can be taken
    for a packed one: four booleans stored as (4, 1) cannot be read as (2, 2), although four
    integers can. *)
Theorem C36_plain_booleans_reshaped_refuted : exists (a : narr bool) (s : list nat),
  wf a /\ prod s = prod (a_shape a) /\
  load_array nonzero (fun z => z) (Some (fun b : bool => b)) (amap Z.b2z a) (Some s) = Err ValueError /\
  load_array (fun z : Z => z) (fun z => z) None (amap Z.b2z a) (Some s) = Ok (NArr s (map Z.b2z (a_data a))).
Proof. exists (NArr [4; 1]%nat [true; false; false; true]), [2; 2]%nat. vm_compute. repeat split. Qed.
Print Assumptions C36_plain_booleans_reshaped_refuted.
(** A packed array with last extent one, read with dtype uint8, gives 128 for True. *)
Theorem C36_packed_byte_dtype_refuted : exists (a : narr bool) p,
  wf a /\ packbits a = Ok p /\
  load_array (fun z : Z => z) (fun z => z) (Some Z.b2z) p (Some (a_shape a)) = Ok (NArr [1; 1]%nat [128]) /\ a_data a = [true].
Proof. exists (NArr [1; 1]%nat [true]), (NArr [1; 1]%nat [128]). vm_compute. repeat split. Qed.
Print Assumptions C36_packed_byte_dtype_refuted.
(** The byte dtype does return 0 and 1 whenever the last extent is not one. *)
Theorem C36_packed_byte_dtype a p : wf a -> packbits a = Ok p -> tail_extent (a_shape a) <> 1%nat ->
  load_array (fun z : Z => z) (fun z => z) (Some Z.b2z) p (Some (a_shape a)) = Ok (amap Z.b2z a).
Proof.
  intros W E N1. pose proof (unpack_packbits a p W E) as U. apply packbits_shape in E as [H ->]; [|exact W].
  pose proof (wf_rows a W H) as R. pose proof (shape_split _ H) as SS. unfold load_array. cbn [a_shape].
  destruct (shape_eqb _ _) eqn:Q.
  - apply shape_eqb_iff in Q. f_equal. destruct a as [s d]. cbn [a_shape a_data] in *. unfold amap. cbn [a_shape a_data].
    rewrite SS in Q at 3. apply app_inj_tail in Q as [_ Q].
    rewrite <- Q in SS at 1. rewrite <- SS at 1. f_equal.
    destruct (packed_same _ (eq_sym Q)) as [Z|Z]; rewrite Z in *; [|congruence].
    rewrite Nat.mul_0_r in R. apply length_zero_iff_nil in R as ->.
    unfold rows. rewrite map_flat_map. generalize (seq 0 (prod (lead s))). intros l. induction l as [|x l IH]; [reflexivity|]. cbn [map flat_map firstn].
    exact IH.
  - assert (tail_extent (a_shape a) <> packed_extent (tail_extent (a_shape a))) as N.
    { intros N. rewrite <- N, <- SS in Q. rewrite (proj2 (shape_eqb_iff _ _) eq_refl) in Q. discriminate. }
    apply packed_fits in N. unfold looks_packed. rewrite tail_app.
    assert (List.length (lead (a_shape a) ++ [packed_extent (tail_extent (a_shape a))]) = List.length (a_shape a)) as ->
      by (apply (f_equal (@List.length nat)) in SS; rewrite app_length in *; exact (eq_sym SS)).
    rewrite Nat.eqb_refl. destruct (Z.ltb_spec (8 * (Z.of_nat (packed_extent (tail_extent (a_shape a))) - 1)) (Z.of_nat (tail_extent (a_shape a)))); [|lia].
    destruct (Z.leb_spec (Z.of_nat (tail_extent (a_shape a))) (8 * Z.of_nat (packed_extent (tail_extent (a_shape a))))); [|lia].
    cbn [andb]. rewrite amap_id, U by reflexivity. rewrite (proj2 (shape_eqb_iff _ _) eq_refl). reflexivity.
Qed.
Print Assumptions C36_packed_byte_dtype.

(** * C37 *)
Lemma natural_flat : forall ix s, Index s ix -> natural ix s = flat s ix.
Proof.
  intros ix s H. unfold natural.
  assert (fold_left (fun acc p => let '(nat_, ext) := acc in let '(i, n) := p in ((nat_ + i * ext)%nat, (ext * n)%nat))
                 (rev (combine ix s)) (0%nat, 1%nat) = (flat s ix, prod s)) as ->; [|reflexivity].
  induction H as [|i n ix s _ H IH]; [reflexivity|]. cbn [combine rev]. rewrite fold_left_app, IH. cbn. f_equal; unfold prod; cbn; lia.
Qed.
Lemma r_extents_spec s : s <> [] -> exists es, r_extents s = prod s :: es /\ forall k, (k < prod s)%nat -> split_natural es k = unflat s k.
Proof.
  induction s as [|n s IH]; intros H; [congruence|]. destruct s as [|m s].
  - exists []. split; [cbn; f_equal; lia|]. intros k K. cbn [split_natural unflat]. change (prod []) with 1%nat. rewrite Nat.div_1_r. reflexivity.
  - destruct IH as (es & E & IH); [discriminate|]. change (r_extents (n :: m :: s)) with (match r_extents (m :: s) with e :: es => (n * e)%nat :: e :: es | [] => [n] end).
    rewrite E. eexists. split; [reflexivity|]. intros k K. cbn [split_natural unflat]. f_equal.
    apply IH. apply Nat.mod_upper_bound. cbn in K. cbn. intros Z. rewrite Z in K. lia.
Qed.
Lemma last_app {A} (s t : list A) : last_ (List.length t) (s ++ t) = t.
Proof. unfold last_. rewrite app_length. replace (List.length s + List.length t - List.length t)%nat with (List.length s) by lia. rewrite skipn_app, skipn_all, Nat.sub_diag. reflexivity. Qed.

(** The index computed for the stored array is in range and denotes the same row-major
    position as the given index does in the required shape. *)
Theorem C37_reshaped_index s r t ix : Index s ix -> prod s = prod r -> r <> [] ->
  exists iy, reshaped_index ix (s ++ t) (r ++ t) = Ok iy /\ Index r iy /\ flat r iy = flat s ix.
Proof.
  intros H P N. pose proof (index_length _ _ H) as L. unfold reshaped_index. rewrite !app_length, L.
  destruct (Nat.ltb_spec (List.length s + List.length t) (List.length s)); [lia|].
  replace (List.length s + List.length t - List.length s)%nat with (List.length t) by lia.
  rewrite !last_app, (proj2 (shape_eqb_iff _ _) eq_refl).
  replace (if (0 <? List.length t)%nat then assert_ true else Ok tt) with (Ok tt : res unit) by (destruct (0 <? List.length t)%nat; reflexivity).
  cbn [bind]. destruct (Nat.leb_spec (List.length r + List.length t) (List.length t)); [destruct r; [congruence|cbn in *; lia]|].
  replace (List.length s + List.length t - List.length t)%nat with (List.length s) by lia.
  replace (List.length r + List.length t - List.length t)%nat with (List.length r) by lia.
  rewrite !firstn_app, !firstn_all, !Nat.sub_diag. cbn [firstn]. rewrite !app_nil_r, natural_flat by exact H.
  pose proof (flat_lt _ _ H) as F. rewrite P in F. destruct (r_extents_spec r N) as (es & -> & S). cbn [tl].
  rewrite S by exact F. destruct (unflat_index r _ F) as [A B]. eexists. repeat split; assumption.
Qed.
Print Assumptions C37_reshaped_index.
Example C37_ex : reshaped_index [1; 2]%nat [3; 4; 2]%nat [2; 6; 2]%nat = Ok [1; 0]%nat. Proof. reflexivity. Qed.

(** Reading one element (or sub-array) directly from the file, and loading the whole array with
    the required shape and indexing that, give the same result: for every stored array, required
    shape of the same size with the same trailing extents, and index tuple in range. *)
Theorem C37_direct_and_cached_reads_agree {V B} (conv : V -> B) (as_byte : V -> Z) (stored : narr V) s r t ix :
  wf stored -> a_shape stored = r ++ t -> r <> [] -> prod s = prod r -> Index s ix ->
  exists whole e e', load_array conv as_byte None stored (Some (s ++ t)) = Ok whole /\
    sub whole ix = Ok e' /\ read_element stored ix (Some (s ++ t)) = Ok e /\
    a_shape e = t /\ e' = amap conv e /\
    (forall iy, Index t iy -> get_ e' iy = get_ whole (ix ++ iy)).
Proof.
  intros W E N P H.
  assert (exists whole, load_array conv as_byte None stored (Some (s ++ t)) = Ok whole /\ wf whole /\ a_shape whole = s ++ t /\ a_data whole = map conv (a_data stored)) as (whole & E1 & W1 & S1 & D1).
  { unfold load_array. destruct (shape_eqb (a_shape stored) (s ++ t)) eqn:Q.
    - apply shape_eqb_iff in Q. eexists. split; [reflexivity|]. unfold wf, amap in *. cbn. rewrite map_length, W, Q. auto.
    - unfold reshape, amap. cbn [a_data]. unfold wf in *. rewrite map_length, W, E, !prod_app, P, Nat.eqb_refl. eexists. split; [reflexivity|].
      cbn. rewrite map_length, W, E, !prod_app, P. auto. }
  destruct (sub_get whole s t ix W1 S1 H) as (e' & E2 & W2 & S2 & G2).
  destruct (C37_reshaped_index s r t ix H P N) as (iy & R1 & R2 & R3).
  assert (exists e, read_element stored ix (Some (s ++ t)) = Ok e /\ a_shape e = t /\ e' = amap conv e) as (e & E3 & S3 & M3).
  { unfold sub in E2. rewrite S1 in E2. pose proof (index_length _ _ H) as L. rewrite L in E2.
    rewrite firstn_app, Nat.sub_diag, firstn_all, skipn_app, Nat.sub_diag, skipn_all in E2. cbn [firstn skipn app] in E2. rewrite app_nil_r in E2.
    rewrite (proj2 (in_bounds_iff _ _) H) in E2. injection E2 as <-. rewrite D1.
    unfold read_element. destruct (shape_eqb (a_shape stored) (s ++ t)) eqn:Q.
    - apply shape_eqb_iff in Q. unfold sub. rewrite Q, L.
      rewrite firstn_app, Nat.sub_diag, firstn_all, skipn_app, Nat.sub_diag, skipn_all. cbn [firstn skipn app]. rewrite app_nil_r.
      rewrite (proj2 (in_bounds_iff _ _) H). eexists. split; [reflexivity|]. unfold amap. cbn. rewrite <- firstn_map, <- skipn_map. auto.
    - rewrite E, R1. cbn [bind]. unfold sub. rewrite E, (index_length _ _ R2).
      rewrite firstn_app, Nat.sub_diag, firstn_all, skipn_app, Nat.sub_diag, skipn_all. cbn [firstn skipn app]. rewrite app_nil_r.
      rewrite (proj2 (in_bounds_iff _ _) R2), R3. eexists. split; [reflexivity|]. unfold amap. cbn. rewrite <- firstn_map, <- skipn_map. auto. }
  exists whole, e, e'. auto 10.
Qed.
Print Assumptions C37_direct_and_cached_reads_agree.
Example C37_ex2 : let stored := NArr [2; 6; 2]%nat (map Z.of_nat (seq 0 24)) in
  read_element stored [1; 2]%nat (Some [3; 4; 2]%nat) = Ok (NArr [2]%nat [12; 13]).
Proof. reflexivity. Qed.

(** When the index leaves trailing axes whose extents differ between the two shapes, the direct
    read is refused rather than answered wrongly. *)
Theorem C37_incompatible_trailing_axes_refused {V} (stored : narr V) ix s : (List.length ix < List.length s)%nat ->
  a_shape stored <> s -> (forall r t, s = r ++ t -> List.length r = List.length ix -> forall q, a_shape stored <> q ++ t) ->
  read_element stored ix (Some s) = Err AssertionError.
Proof.
  intros H N D. unfold read_element. destruct (shape_eqb (a_shape stored) s) eqn:Q; [apply shape_eqb_iff in Q; contradiction|].
  unfold reshaped_index. destruct (Nat.ltb_spec (List.length s) (List.length ix)); [lia|].
  destruct (Nat.ltb_spec 0 (List.length s - List.length ix)); [|lia].
  destruct (shape_eqb (last_ _ s) _) eqn:Q2; [|reflexivity]. apply shape_eqb_iff in Q2. exfalso.
  set (n := (List.length s - List.length ix)%nat) in *.
  apply (D (firstn (List.length s - n) s) (last_ n s)) with (q := firstn (List.length (a_shape stored) - n) (a_shape stored)).
  - unfold last_. symmetry. apply firstn_skipn.
  - rewrite firstn_length. lia.
  - rewrite Q2. unfold last_. symmetry. apply firstn_skipn.
Qed.
Print Assumptions C37_incompatible_trailing_axes_refused.
Example C37_ex3 : read_element (NArr [4; 3]%nat (seq 0 12)) [1]%nat (Some [6; 2]%nat) = Err AssertionError. Proof. reflexivity. Qed.

(** An index out of range for the required shape is not always noticed by the direct read:
    another element is returned where the loaded array raises IndexError. *)
Theorem C37_out_of_range_index_refuted : exists (stored : narr nat) s ix e whole, wf stored /\ ~ Index s ix /\ prod s = prod (a_shape stored) /\
  read_element stored ix (Some s) = Ok (NArr [] [e]) /\
  load_array (fun x : nat => x) Z.of_nat None stored (Some s) = Ok whole /\ sub whole ix = Err IndexError.
Proof.
  exists (NArr [6]%nat [10; 11; 12; 13; 14; 15]%nat), [2; 3]%nat, [0; 5]%nat, 15%nat, (NArr [2; 3]%nat [10; 11; 12; 13; 14; 15]%nat).
  repeat split; try reflexivity. intros H. inversion H as [|? ? ? ? _ H1]; subst. inversion H1 as [|? ? ? ? H2 _]; subst. lia.
Qed.
Print Assumptions C37_out_of_range_index_refuted.
