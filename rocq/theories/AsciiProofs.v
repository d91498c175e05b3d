(** AsciiProofs.v: lemmas about text arrays and keyword searching. *)
From Verif Require Import QBase TextModel TextProofs StrModel StrProofs NArray AsciiModel.
Open Scope Z_scope.

(** ** lines *)
Lemma concat_lines_aux s : forall cur, List.concat (lines_aux s cur) = rev cur ++ s.
Proof.
  induction s as [|c s IH]; intros cur; cbn [lines_aux].
  - destruct cur; cbn [List.concat]; [reflexivity|]. now rewrite app_nil_r.
  - destruct (chr_eqb c nl); cbn [List.concat]; rewrite IH; cbn [rev app]; now rewrite <- app_assoc.
Qed.
Lemma concat_lines s : List.concat (lines s) = s.
Proof. apply concat_lines_aux. Qed.
Lemma lines_aux_nl a b : forall cur, lines_aux (a ++ nl :: b) cur = lines_aux (a ++ [nl]) cur ++ lines b.
Proof.
  induction a as [|c a IH]; intros cur; cbn [app lines_aux].
  - rewrite chr_eqb_refl. reflexivity.
  - destruct (chr_eqb c nl); cbn [app]; now rewrite IH.
Qed.
Lemma lines_app a b : a = [] \/ (exists a', a = a' ++ [nl]) -> lines (a ++ b) = lines a ++ lines b.
Proof.
  intros [->|[a' ->]]; [reflexivity|]. rewrite <- app_assoc. cbn [app]. apply lines_aux_nl.
Qed.
Lemma lines_aux_line a : forall cur, ~ In nl a -> lines_aux (a ++ [nl]) cur = [rev cur ++ a ++ [nl]].
Proof.
  induction a as [|c a IH]; intros cur H; cbn [app lines_aux].
  - rewrite chr_eqb_refl. reflexivity.
  - destruct (chr_eqb_spec c nl) as [->|N]; [exfalso; apply H; now left|].
    rewrite IH by (intros K; apply H; now right). cbn [rev]. now rewrite <- app_assoc.
Qed.
Lemma lines_line a b : ~ In nl a -> lines (a ++ nl :: b) = (a ++ [nl]) :: lines b.
Proof. intros H. unfold lines at 1. rewrite lines_aux_nl, lines_aux_line by assumption. reflexivity. Qed.
Lemma lines_aux_first w s : forall cur, ~ In nl w -> (cur <> [] \/ w <> []) ->
  exists x f, lines_aux (w ++ s) cur = (rev cur ++ w ++ x) :: f /\ (s = [] -> x = []) /\ (forall c s', s = c :: s' -> exists x', x = c :: x').
Proof.
  induction w as [|c w IH]; intros cur H N.
  - destruct N as [N|N]; [|congruence]. cbn [app].
    assert (G : forall s cur, cur <> [] -> exists x f, lines_aux s cur = (rev cur ++ x) :: f /\ (s = [] -> x = []) /\ (forall c s', s = c :: s' -> exists x', x = c :: x')).
    { clear. induction s as [|c s IH]; intros cur N; cbn [lines_aux].
      - destruct cur; [congruence|]. exists [], []. rewrite app_nil_r. split; [reflexivity|]. split; [reflexivity|discriminate].
      - destruct (chr_eqb c nl).
        + exists [c], (lines_aux s []). cbn [rev]. split; [reflexivity|]. split; [discriminate|]. intros ? ? [= <- <-]. now exists [].
        + destruct (IH (c :: cur) ltac:(discriminate)) as (x & f & E & _ & _). exists (c :: x), f. rewrite E. cbn [rev]. rewrite <- app_assoc.
          split; [reflexivity|]. split; [discriminate|]. intros ? ? [= <- <-]. now exists x. }
    apply G. assumption.
  - cbn [app lines_aux]. destruct (chr_eqb_spec c nl) as [->|Nc]; [exfalso; apply H; now left|].
    destruct (IH (c :: cur) ltac:(intros K; apply H; now right) ltac:(left; discriminate)) as (x & f & E & E1 & E2).
    exists x, f. rewrite E. cbn [rev]. rewrite <- app_assoc. auto.
Qed.

(** ** tokens *)
Definition numch (c : ascii) : bool := let n := N_of_ascii c in ((48 <=? n) && (n <=? 57) || (n =? 46))%N.
Definition good (w : str) : Prop := match w with [] => False | c :: w' => (numch c = true \/ c = "-"%char) /\ forallb numch w' = true end.
(** a comment mark that cannot be mistaken for part of a number *)
Definition comment_ok (cc : str) : Prop := cc = L "--" \/ exists c, cc = [c] /\ numch c = false /\ c <> "-"%char /\ is_ws c = false.
Definition wstart (s : str) : Prop := s = [] \/ exists c s', s = c :: s' /\ is_ws c = true.

Lemma ws_num c : is_ws c = true -> numch c = false.
Proof. destruct c as [[] [] [] [] [] [] [] []]; vm_compute; congruence. Qed.
Lemma num_ws c : numch c = true -> is_ws c = false.
Proof. destruct (is_ws c) eqn:E; [|reflexivity]. rewrite (ws_num c E). congruence. Qed.
Lemma ws_dash c : is_ws c = true -> c <> "-"%char.
Proof. intros H ->. discriminate. Qed.
Lemma good_no_ws w : good w -> no_ws w.
Proof.
  destruct w as [|c w]; [easy|]. intros [Hc Hw]. unfold no_ws. cbn [forallb]. apply andb_true_iff. split.
  - destruct Hc as [Hc| ->]; [now rewrite num_ws|reflexivity].
  - rewrite forallb_forall in *. intros x Hx. rewrite num_ws; auto.
Qed.
Lemma no_ws_nl w : no_ws w -> ~ In nl w.
Proof. unfold no_ws. rewrite forallb_forall. intros H K. specialize (H _ K). discriminate. Qed.
Lemma num_nl c : numch c = true -> chr_eqb c nl = false.
Proof. destruct (chr_eqb_spec c nl) as [->|]; [discriminate|reflexivity]. Qed.

Lemma comment_head cc c s : comment_ok cc -> (numch c = true \/ is_ws c = true) -> startswith (c :: s) cc = false.
Proof.
  intros [->|(d & -> & H1 & H2 & H3)] Hc.
  - cbn [startswith L list_ascii_of_string]. destruct (chr_eqb_spec "-" c) as [<-|]; [destruct Hc; discriminate|reflexivity].
  - cbn [startswith]. destruct (chr_eqb_spec d c) as [<-|]; [destruct Hc; congruence|reflexivity].
Qed.
Lemma blank_ws cc c s : comment_ok cc -> is_ws c = true -> blank_out cc (c :: s) false = c :: blank_out cc s false.
Proof.
  intros K Hc. cbn [blank_out]. destruct (chr_eqb c nl); [reflexivity|]. cbn [orb].
  now rewrite comment_head by auto.
Qed.
Lemma blank_num cc w s : comment_ok cc -> forallb numch w = true -> blank_out cc (w ++ s) false = w ++ blank_out cc s false.
Proof.
  intros K. induction w as [|c w IH]; intros H; [reflexivity|]. cbn [forallb] in H. apply andb_true_iff in H. destruct H as [Hc Hw].
  cbn [app blank_out]. rewrite num_nl by assumption. cbn [orb].
  rewrite comment_head by auto. now rewrite IH.
Qed.
Lemma dash_head cc w s : comment_ok cc -> forallb numch w = true -> wstart s -> startswith ("-"%char :: w ++ s) cc = false.
Proof.
  intros [->|(d & -> & H1 & H2 & H3)] Hw Hs.
  - cbn [startswith L list_ascii_of_string]. rewrite chr_eqb_refl. cbn [andb].
    destruct w as [|x w]; cbn [app].
    + destruct Hs as [->|(c & s' & -> & Hc)]; [reflexivity|]. destruct (chr_eqb_spec "-" c) as [<-|]; [discriminate|reflexivity].
    + cbn [forallb] in Hw. apply andb_true_iff in Hw. destruct (chr_eqb_spec "-" x) as [<-|]; [destruct Hw; discriminate|reflexivity].
  - cbn [startswith]. destruct (chr_eqb_spec d "-") as [->|]; [congruence|reflexivity].
Qed.
Lemma blank_good cc w s : comment_ok cc -> good w -> wstart s -> blank_out cc (w ++ s) false = w ++ blank_out cc s false.
Proof.
  intros K. destruct w as [|c w]; [easy|]. intros [Hc Hw] Hs. destruct Hc as [Hc| ->].
  - apply blank_num; [assumption|]. cbn [forallb]. now rewrite Hc, Hw.
  - cbn [app blank_out]. change (chr_eqb "-" nl) with false. cbn [orb].
    rewrite dash_head by assumption. rewrite blank_num by assumption. reflexivity.
Qed.

Lemma words_ws c s : is_ws c = true -> words (c :: s) = words s.
Proof. apply split_skip_blank. Qed.
Lemma words_word w s : no_ws w -> w <> [] -> wstart s -> words (w ++ s) = w :: words s.
Proof.
  intros H N [->|(c & s' & -> & Hc)].
  - rewrite app_nil_r. unfold words. now rewrite split_word_end.
  - rewrite words_ws by assumption. unfold words. now apply split_word_blank.
Qed.
Lemma good_nonempty w : good w -> w <> [].
Proof. destruct w; [easy|discriminate]. Qed.
Lemma wstart_blank cc s : comment_ok cc -> wstart s -> wstart (blank_out cc s false).
Proof. intros K [->|(c & s' & -> & Hc)]; [now left|]. right. rewrite blank_ws by assumption. eauto. Qed.

(** text that consists of separators and tokens, each token after a separator *)
Inductive Lead : str -> list str -> Prop :=
| lead_nil : Lead [] []
| lead_ws c T l : is_ws c = true -> Lead T l -> Lead (c :: T) l
| lead_tok c w T l : is_ws c = true -> good w -> Lead T l -> Lead (c :: w ++ T) (w :: l).
Lemma lead_wstart T l : Lead T l -> wstart T.
Proof. intros [|c T' l' H|c w T' l' H]; [now left|right; eauto|right; eauto]. Qed.
Lemma lead_app T1 l1 T2 l2 : Lead T1 l1 -> Lead T2 l2 -> Lead (T1 ++ T2) (l1 ++ l2).
Proof. intros H1 H2. induction H1; cbn [app]; [assumption|now constructor|]. rewrite <- app_assoc. now constructor. Qed.
Lemma lead_flat_map {B} (f : B -> str) (g : B -> list str) l : (forall x, In x l -> Lead (f x) (g x)) -> Lead (flat_map f l) (flat_map g l).
Proof.
  induction l as [|x l IH]; intros H; cbn [flat_map]; [constructor|]. apply lead_app; [apply H; now left|]. apply IH. intros. apply H. now right.
Qed.
Lemma lead_words cc T l : comment_ok cc -> Lead T l -> forall s, (wstart s \/ exists T' c, T = T' ++ [c] /\ is_ws c = true) ->
  words (blank_out cc (T ++ s) false) = l ++ words (blank_out cc s false).
Proof.
  intros K H. induction H as [|c T l Hc H IH|c w T l Hc Hw H IH]; intros s Hs; cbn [app]; [reflexivity| |].
  - rewrite blank_ws, words_ws by assumption.
    destruct T as [|x T]; [inversion H; subst; reflexivity|]. apply IH.
    destruct Hs as [Hs|(T' & d & E & Hd)]; [now left|right].
    destruct T' as [|y T']; [discriminate E|]. injection E as _ E. eauto.
  - rewrite blank_ws, words_ws by assumption. rewrite <- app_assoc.
    assert (W : wstart (T ++ s)).
    { destruct (lead_wstart _ _ H) as [->|(d & T' & -> & Hd)]; [|right; cbn; eauto]. cbn [app].
      destruct Hs as [Hs|(T' & d & E & Hd)]; [assumption|]. exfalso. rewrite app_nil_r in E.
      destruct T' as [|y T']; [injection E as _ E; subst; destruct Hw|].
      injection E as _ E. pose proof (good_no_ws _ Hw) as G. rewrite E in G. unfold no_ws in G. rewrite forallb_app in G. cbn in G.
      rewrite Hd in G. rewrite andb_comm in G. discriminate. }
    rewrite blank_good by assumption.
    rewrite words_word; [|now apply good_no_ws|now apply good_nonempty|now apply wstart_blank]. f_equal.
    destruct Hs as [Hs|(T' & d & E & Hd)]; [apply IH; now left|].
    destruct T as [|x T]; [inversion H; subst; reflexivity|]. apply IH. right.
    assert (E' : c :: w ++ x :: T = T' ++ [d]) by exact E.
    destruct (exists_last (l := x :: T) ltac:(discriminate)) as (T2 & d2 & E2). rewrite E2 in E'.
    replace (c :: w ++ T2 ++ [d2]) with ((c :: w ++ T2) ++ [d2]) in E' by (cbn; now rewrite <- app_assoc).
    apply app_inj_tail in E'. destruct E' as [_ ->]. exists T2, d. rewrite E2. auto.
Qed.

(** ** lists *)
Lemma nth_flat_map {A} (f : nat -> list A) m n : (forall k, (k < n)%nat -> List.length (f k) = m) ->
  forall k r, (k < n)%nat -> (r < m)%nat -> nth_error (flat_map f (seq 0 n)) (k * m + r) = nth_error (f k) r.
Proof.
  intros H k r Hk Hr.
  assert (G : forall a c, (a + c <= n)%nat -> forall k, (k < c)%nat -> nth_error (flat_map f (seq a c)) (k * m + r) = nth_error (f (a + k)%nat) r).
  { intros a c. revert a. induction c as [|c IH]; intros a Hn k' Hk'; [lia|]. cbn [seq flat_map].
    pose proof (H a ltac:(lia)) as La. destruct k' as [|k'].
    - cbn. rewrite nth_error_app1 by lia. now rewrite Nat.add_0_r.
    - cbn [Nat.mul]. rewrite nth_error_app2 by lia. replace (m + k' * m + r - List.length (f a))%nat with (k' * m + r)%nat by lia.
      rewrite IH by lia. f_equal. f_equal. lia. }
  specialize (G 0%nat n ltac:(lia) k Hk). exact G.
Qed.
Lemma length_flat_seq {A} (f : nat -> list A) m n : (forall k, (k < n)%nat -> List.length (f k) = m) -> List.length (flat_map f (seq 0 n)) = (n * m)%nat.
Proof.
  intros H. assert (G : forall c a, (a + c <= n)%nat -> List.length (flat_map f (seq a c)) = (c * m)%nat).
  { induction c as [|c IH]; intros a Hn; [reflexivity|]. cbn [seq flat_map]. rewrite app_length, IH, H by lia. lia. }
  apply G. lia.
Qed.
(** the cells in the order of writing *)
Definition cells {A} (nk nj ni : nat) (a : nat -> nat -> nat -> A) : list A :=
  flat_map (fun k => flat_map (fun j => map (fun i => a k j i) (seq 0 ni)) (seq 0 nj)) (seq 0 nk).
Lemma cells_length {A} nk nj ni (a : nat -> nat -> nat -> A) : List.length (cells nk nj ni a) = (nk * (nj * ni))%nat.
Proof.
  unfold cells. apply length_flat_seq. intros k _. apply length_flat_seq. intros j _. now rewrite map_length, seq_length.
Qed.
Lemma cells_nth {A} nk nj ni (a : nat -> nat -> nat -> A) k j i : (k < nk)%nat -> (j < nj)%nat -> (i < ni)%nat ->
  nth_error (cells nk nj ni a) (k * (nj * ni) + (j * ni + i)) = Some (a k j i).
Proof.
  intros Hk Hj Hi. unfold cells. rewrite (nth_flat_map _ (nj * ni)); [|intros k' _; apply length_flat_seq; intros; now rewrite map_length, seq_length|assumption|nia].
  rewrite (nth_flat_map _ ni); [|intros; now rewrite map_length, seq_length|assumption|assumption].
  rewrite nth_error_map. rewrite (nth_error_nth' _ 0%nat) by (now rewrite seq_length). rewrite seq_nth by assumption. reflexivity.
Qed.
Lemma cells_map {A B} (g : A -> B) nk nj ni a : cells nk nj ni (fun k j i => g (a k j i)) = map g (cells nk nj ni a).
Proof.
  unfold cells. assert (MF : forall {X Y} (h : X -> list Y) (g' : Y -> B) l, map g' (flat_map h l) = flat_map (fun x => map g' (h x)) l).
  { intros X Y h g' l. induction l; cbn; [reflexivity|]. now rewrite map_app, IHl. }
  rewrite MF. apply flat_map_ext. intros k. rewrite MF. apply flat_map_ext. intros j. now rewrite map_map.
Qed.

(** ** the written text *)
Section Written.
Context {A : Type} (fmt : A -> str) (Hfmt : forall v, good (fmt v)).
Lemma lead_cell o i v : Lead (cell_text fmt o i v) [fmt v].
Proof.
  unfold cell_text. assert (G : forall c, is_ws c = true -> Lead ([c] ++ fmt v) [fmt v]).
  { intros c Hc. rewrite <- (app_nil_r ([c] ++ fmt v)). rewrite <- app_assoc. cbn [app]. apply lead_tok; [assumption|apply Hfmt|constructor]. }
  destruct (_ =? 0)%nat; [apply G; reflexivity|]. destruct (w_space o); apply G; reflexivity.
Qed.
Lemma lead_nls b : Lead (if b : bool then [nl] else []) [].
Proof. destruct b; repeat constructor. Qed.
Lemma flat_map_single {X Y} (f : X -> Y) l : flat_map (fun x => [f x]) l = map f l.
Proof. induction l; cbn; congruence. Qed.
Lemma lead_row o ni row : Lead (row_text fmt o ni row) (map (fun i => fmt (row i)) (seq 0 ni)).
Proof.
  unfold row_text. rewrite <- (app_nil_r (map _ _)). apply lead_app; [|apply lead_nls].
  rewrite <- flat_map_single. apply lead_flat_map. intros. apply lead_cell.
Qed.
Lemma lead_layer o nj ni layer : Lead (layer_text fmt o nj ni layer) (flat_map (fun j => map (fun i => fmt (layer j i)) (seq 0 ni)) (seq 0 nj)).
Proof.
  unfold layer_text. rewrite <- (app_nil_r (flat_map (fun j => map _ _) _)). apply lead_app; [|apply lead_nls].
  apply lead_flat_map. intros. apply lead_row.
Qed.
Lemma lead_body o nk nj ni a : Lead (body_text fmt o nk nj ni a) (map fmt (cells nk nj ni a)).
Proof.
  rewrite <- cells_map. unfold body_text. rewrite <- (app_nil_r (cells _ _ _ _)). apply lead_app.
  - unfold cells. apply lead_flat_map. intros. apply lead_layer.
  - destruct (w_i_block o || w_j_block o); repeat constructor.
Qed.
Lemma flat_seq_last {X} (f : nat -> list X) n : flat_map f (seq 0 (S n)) = flat_map f (seq 0 n) ++ f n.
Proof. rewrite seq_S, flat_map_app. cbn. now rewrite app_nil_r. Qed.
Lemma body_ends o nk nj ni a : (0 < nk)%nat -> (0 < nj)%nat -> exists T, body_text fmt o nk nj ni a = T ++ [nl].
Proof.
  intros Hk Hj. destruct nk as [|nk]; [lia|]. destruct nj as [|nj]; [lia|]. unfold body_text.
  destruct (w_i_block o) eqn:Ei, (w_j_block o) eqn:Ej; cbn [orb]; try (eexists; reflexivity).
  - rewrite app_nil_r, flat_seq_last. unfold layer_text at 2. rewrite Ej. eexists. rewrite app_assoc. reflexivity.
  - rewrite app_nil_r, flat_seq_last. unfold layer_text at 2. rewrite Ej, app_nil_r, flat_seq_last.
    unfold row_text at 2. rewrite Ei. eexists. rewrite !app_assoc. reflexivity.
  - rewrite app_nil_r, flat_seq_last. unfold layer_text at 2. rewrite Ej. eexists. rewrite app_assoc. reflexivity.
Qed.
Lemma lead_first T l : Lead T l -> forall v s m, T = nl :: v ++ s -> l = v :: m -> good v -> wstart s.
Proof.
  intros H v s m. destruct H as [|c T l Hc H|c w T l Hc Hw H]; intros E1 E2 Gv.
  - discriminate.
  - exfalso. injection E1 as -> ->. destruct (lead_wstart _ _ H) as [E|(c & s' & E & Hc')].
    + destruct v; [destruct Gv|discriminate].
    + destruct v as [|x v]; [destruct Gv|]. injection E as -> _. pose proof (good_no_ws _ Gv) as G. unfold no_ws in G. cbn in G. rewrite Hc' in G. discriminate.
  - injection E2 as -> _. injection E1 as -> E1. apply app_inv_head in E1. subst. eapply lead_wstart; eassumption.
Qed.
Lemma body_starts o nk nj ni a : (0 < nk)%nat -> (0 < nj)%nat -> (0 < ni)%nat ->
  exists s, body_text fmt o nk nj ni a = nl :: fmt (a 0 0 0)%nat ++ s /\ wstart s.
Proof.
  intros Hk Hj Hi. pose proof (lead_body o nk nj ni a) as H.
  destruct nk as [|nk]; [lia|]. destruct nj as [|nj]; [lia|]. destruct ni as [|ni]; [lia|].
  assert (E : exists s, body_text fmt o (S nk) (S nj) (S ni) a = nl :: fmt (a 0 0 0)%nat ++ s).
  { unfold body_text, layer_text, row_text, cell_text. cbn [seq flat_map].
    destruct (w_columns o) as [|c]; [cbn [Nat.modulo]|rewrite Nat.mod_0_l by discriminate]; cbn [Nat.eqb]; eexists; cbn [app]; rewrite <- !app_assoc; reflexivity. }
  destruct E as [s E]. exists s. split; [assumption|]. rewrite E in H.
  assert (M : map fmt (cells (S nk) (S nj) (S ni) a) = fmt (a 0 0 0)%nat :: tl (map fmt (cells (S nk) (S nj) (S ni) a))) by reflexivity.
  exact (lead_first _ _ H _ _ _ eq_refl M (Hfmt _)).
Qed.
Lemma map_res_fmt {B} (parse : str -> res B) (g : A -> B) l : (forall v, parse (fmt v) = Ok (g v)) -> map_res parse (map fmt l) = Ok (map g l).
Proof. intros H. induction l as [|v l IH]; cbn [map map_res]; [reflexivity|]. rewrite H. cbn. rewrite IH. reflexivity. Qed.

(** what the reader makes of a body *)
Lemma fromstring_body {B} (parse : str -> res B) (g : A -> B) cc o nk nj ni a post : comment_ok cc -> (forall v, parse (fmt v) = Ok (g v)) ->
  (0 < nk)%nat -> (0 < nj)%nat ->
  fromstring parse (Z.of_nat (prod [nk; nj; ni])) (blank_out cc (body_text fmt o nk nj ni a ++ post) false) = Ok (map g (cells nk nj ni a)).
Proof.
  intros K Hp Hk Hj. unfold fromstring.
  rewrite (lead_words cc _ _ K (lead_body o nk nj ni a)) by (right; destruct (body_ends o nk nj ni a Hk Hj) as [T E]; exists T, nl; split; [exact E|reflexivity]).
  replace (Z.of_nat _ <? 0) with false by (symmetry; apply Z.ltb_ge; lia). rewrite Nat2Z.id.
  assert (E : prod [nk; nj; ni] = List.length (map fmt (cells nk nj ni a))) by (rewrite map_length, cells_length; cbn; lia).
  rewrite E, app_length. replace (_ <? _)%nat with false by (symmetry; apply Nat.ltb_ge; lia).
  rewrite firstn_app, Nat.sub_diag, firstn_all, app_nil_r. now apply map_res_fmt.
Qed.
Lemma blank_cons_ws cc s : comment_ok cc -> words (blank_out cc (nl :: s) false) = words (blank_out cc s false).
Proof. intros K. rewrite blank_ws by (assumption || reflexivity). now apply words_ws. Qed.
Lemma skip_body cc skip_c o nk nj ni a post : comment_ok cc -> (0 < nk)%nat -> (0 < nj)%nat -> (0 < ni)%nat ->
  nl :: List.concat (skip_blank_lines_and_comments (lines (body_text fmt o nk nj ni a ++ post)) cc skip_c) = body_text fmt o nk nj ni a ++ post.
Proof.
  intros K Hk Hj Hi. destruct (body_starts o nk nj ni a Hk Hj Hi) as (s & E & Hs).
  destruct (body_ends o nk nj ni a Hk Hj) as (T & E').
  assert (Hs' : wstart (s ++ post)).
  { destruct Hs as [->|(c & s' & -> & Hc)]; [|right; cbn; eauto]. exfalso. rewrite app_nil_r in E. rewrite E in E'.
    destruct T as [|y T]; [injection E' as E'; pose proof (Hfmt (a 0 0 0)%nat) as G; rewrite E' in G; destruct G|].
    injection E' as _ E'. pose proof (good_no_ws _ (Hfmt (a 0 0 0)%nat)) as G. rewrite E' in G. unfold no_ws in G. rewrite forallb_app in G.
    rewrite andb_comm in G. discriminate. }
  rewrite E. cbn [app]. rewrite <- app_assoc. set (v := fmt (a 0 0 0)%nat) in *. assert (Gv : good v) by apply Hfmt. set (r := s ++ post) in *. clearbody v r.
  change (nl :: v ++ r) with ([] ++ nl :: v ++ r) at 1. rewrite lines_line by easy. cbn [app skip_blank_lines_and_comments].
  change (blank [nl]) with true. cbn [orb].
  unfold lines at 1. destruct (lines_aux_first v r [] (no_ws_nl _ (good_no_ws _ Gv)) (or_intror (good_nonempty _ Gv))) as (x & f & El & X1 & X2).
  pose proof (concat_lines_aux (v ++ r) []) as C. rewrite El in C. cbn [rev app List.concat] in *. rewrite El. cbn [skip_blank_lines_and_comments].
  assert (Wx : wstart x).
  { destruct Hs' as [->|(c & s' & -> & Hc)]; [left; auto|]. right. destruct (X2 _ _ eq_refl) as [x' ->]. eauto. }
  assert (Wd : words (v ++ x) = v :: words x) by (apply words_word; [now apply good_no_ws|now apply good_nonempty|assumption]).
  unfold blank, comment_line. rewrite Wd. destruct v as [|c v]; [destruct Gv|]. cbn [orb].
  replace (str_eqb [c] cc) with false.
  2:{ symmetry. destruct (str_eqb_spec [c] cc) as [Ec|]; [|reflexivity]. exfalso. destruct K as [->|(d & -> & K1 & K2 & K3)]; [discriminate|].
      injection Ec as ->. destruct Gv as [[G|G] _]; congruence. }
  cbn [orb]. replace (skip_c && _) with false.
  2:{ symmetry. apply andb_false_iff. right. destruct v; [|reflexivity]. destruct Gv as [[G| ->] _]; [|reflexivity].
      destruct (chr_eqb_spec c "C") as [->|]; [discriminate|]. destruct (chr_eqb_spec c "c") as [->|]; [discriminate|]. reflexivity. }
  cbn [List.concat]. f_equal. exact C.
Qed.
End Written.
