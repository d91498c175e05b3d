(** GcsNexusProofs.v: lemmas about Nexus fault files. *)
From Verif Require Import QBase TextModel TextProofs StrModel StrProofs AsciiModel AsciiProofs AsciiProofs2 BisectModel BisectProofs GcsModel GcsProofs GcsProofs2 GcsProofs3
  GcsFaceProofs GcsSubProps GcsNexusModel.
From Verif Require TriProofs3.
From Coq Require Import Permutation.
Open Scope Z_scope.

(** ** runs *)
(** the cell faces that a row stands for *)
Definition row_sides (r : wrow) : list side := map (fun k => (T k (w_j r) (w_i r), w_face r)) (zrange2 (w_k1 r) (w_k2 r + 1)).
Lemma axis_eqb_true a b : axis_eqb a b = true <-> a = b.
Proof. destruct a, b; cbn; split; congruence. Qed.
Lemma zrange2_one k : zrange2 k (k + 1) = [k].
Proof. unfold zrange2. replace (Z.to_nat (k + 1 - k)) with 1%nat by lia. cbn [seq map]. f_equal. lia. Qed.
Lemma zrange2_snoc a b : a <= b -> zrange2 a (b + 1) = zrange2 a b ++ [b].
Proof.
  intros H. unfold zrange2. replace (Z.to_nat (b + 1 - a)) with (Z.to_nat (b - a) + 1)%nat by lia.
  rewrite seq_app, map_app. cbn [seq map]. do 2 f_equal. lia.
Qed.
Lemma runs_sides l : forall i j k k2 f tm, k <= k2 ->
  flat_map row_sides (runs i j k k2 f tm l) = row_sides (W i j k k2 f tm) ++ map fst l.
Proof.
  induction l as [|[[c fp] tmp] r IH]; intros i j k k2 f tm H.
  - cbn [runs flat_map map]. reflexivity.
  - cbn [runs]. destruct (_ || _) eqn:E.
    + cbn [flat_map]. rewrite IH by lia. unfold row_sides at 2. cbn [w_j w_i w_face w_k1 w_k2]. rewrite zrange2_one. cbn [map fst app].
      destruct c; reflexivity.
    + apply orb_false_iff in E. destruct E as [E E5]. apply orb_false_iff in E. destruct E as [E E4]. apply orb_false_iff in E. destruct E as [E E3].
      apply orb_false_iff in E. destruct E as [E1 E2]. apply negb_false_iff in E1, E2, E3, E4, E5.
      apply axis_eqb_true in E1. apply Bool.eqb_prop in E2. apply Z.eqb_eq in E3, E4, E5.
      rewrite IH by lia. unfold row_sides. cbn [w_j w_i w_face w_k1 w_k2 map fst]. rewrite zrange2_snoc by lia. rewrite map_app, <- app_assoc.
      rewrite E5. cbn [map app]. destruct c as [ck cj ci], f, fp. cbn in *. subst. reflexivity.
Qed.
Lemma rows_of_sides l : flat_map row_sides (rows_of l) = map fst l.
Proof.
  destruct l as [|[[c f] tm] r]; [reflexivity|]. cbn [rows_of]. rewrite runs_sides by lia.
  unfold row_sides. cbn [w_j w_i w_face w_k1 w_k2]. rewrite zrange2_one. cbn. destruct c; reflexivity.
Qed.
Lemma runs_ordered l : forall i j k k2 f tm, k <= k2 -> Forall (fun r => w_k1 r <= w_k2 r) (runs i j k k2 f tm l).
Proof.
  induction l as [|[[c fp] tmp] r IH]; intros i j k k2 f tm H; cbn [runs].
  - repeat constructor. assumption.
  - destruct (_ || _) eqn:E; [constructor; [assumption|]; apply IH; lia|]. apply IH. apply orb_false_iff in E. destruct E as [_ E].
    apply negb_false_iff, Z.eqb_eq in E. lia.
Qed.
Lemma rows_of_ordered l : Forall (fun r => w_k1 r <= w_k2 r) (rows_of l).
Proof. destruct l as [|[[c f] tm] r]; [constructor|]. apply runs_ordered. lia. Qed.
Lemma runs_mult l (P : Q -> Prop) : forall i j k k2 f tm, P tm -> Forall (fun x => P (snd x)) l -> Forall (fun r => P (w_mult r)) (runs i j k k2 f tm l).
Proof.
  induction l as [|[[c fp] tmp] r IH]; intros i j k k2 f tm H F; cbn [runs].
  - repeat constructor. assumption.
  - inversion F; subst. destruct (_ || _); [constructor; [assumption|]|]; apply IH; assumption.
Qed.
Lemma rows_of_mult l (P : Q -> Prop) : Forall (fun x => P (snd x)) l -> Forall (fun r => P (w_mult r)) (rows_of l).
Proof. destruct l as [|[[c f] tm] r]; intros F; [constructor|]. inversion F; subst. apply runs_mult; assumption. Qed.
Lemma sort_sides_perm l : Permutation l (sort_sides l).
Proof.
  unfold sort_sides. etransitivity; [|apply sort_by_perm]. etransitivity; [|apply sort_by_perm]. etransitivity; [|apply sort_by_perm].
  etransitivity; [|apply sort_by_perm]. apply sort_by_perm.
Qed.

(** ** text *)
Definition line (s : str) : Prop := ~ In nl s.
Definition face_text (f : axis * bool) : str := match fst f with K => L "K" | J => L "J" | I => L "I" end ++ (if snd f then [] else L "-").
(** the row of the dataframe for a row of the table *)
Definition frow_of (nm : str) (r : wrow) : frow :=
  F (w_i r + 1) (w_i r + 1) (w_j r + 1) (w_j r + 1) (w_k1 r + 1) (w_k2 r + 1) (rounded 4 (w_mult r)) nm (face_text (w_face r)).

Definition row_words (r : wrow) : list str :=
  [fmt_int (w_i r + 1); fmt_int (w_i r + 1); fmt_int (w_j r + 1); fmt_int (w_j r + 1); fmt_int (w_k1 r + 1); fmt_int (w_k2 r + 1); fmt_real 4 (w_mult r)].
Lemma words_tab w s : no_ws w -> w <> [] -> wstart s -> words ([tab] ++ w ++ s) = w :: words s.
Proof. intros. cbn [app]. rewrite words_ws by reflexivity. now apply words_word. Qed.
Lemma wstart_cons c s : is_ws c = true -> wstart (c :: s).
Proof. intros. right. eauto. Qed.
Definition row_line (r : wrow) : str := List.concat (map (fun w => [tab] ++ w) (row_words r)).
Lemma row_text_line r : row_text r = row_line r ++ [nl].
Proof. unfold row_text, row_line, row_words. cbn [map List.concat]. rewrite app_nil_r. rewrite <- !app_assoc. reflexivity. Qed.
Lemma words_row ws t : (t = [] \/ t = [nl]) -> Forall good ws -> words (List.concat (map (fun w => [tab] ++ w) ws) ++ t) = ws.
Proof.
  intros Ht F. induction F as [|w ws Hw F IH]; [destruct Ht as [->| ->]; reflexivity|].
  cbn [map List.concat]. rewrite <- !app_assoc. rewrite words_tab; [now rewrite IH|now apply good_no_ws|now apply good_nonempty|].
  destruct ws; cbn; [destruct Ht as [->| ->]; [now left|now apply wstart_cons]|now apply wstart_cons].
Qed.
Lemma row_good r : Forall good (row_words r).
Proof. unfold row_words. repeat constructor; try apply good_int; apply good_real. Qed.
Lemma good_chars w c : good w -> In c w -> c <> "!"%char /\ c <> nl.
Proof.
  destruct w as [|x w]; [easy|]. intros [Hx Hw] [<-|Hc].
  - destruct Hx as [Hx| ->]; [|split; discriminate]. split; intros ->; discriminate.
  - rewrite forallb_forall in Hw. apply Hw in Hc. split; intros ->; discriminate.
Qed.
Lemma row_chars ws c : Forall good ws -> In c (List.concat (map (fun w => [tab] ++ w) ws)) -> c <> "!"%char /\ c <> nl.
Proof.
  intros F. induction F as [|w ws Hw F IH]; [easy|]. cbn [map List.concat]. intros H. apply in_app_or in H. destruct H as [[<-|H]|H].
  - split; discriminate.
  - eapply good_chars; eassumption.
  - now apply IH.
Qed.
Lemma find_chr_no c s : ~ In c s -> find_chr c s = None.
Proof. apply find_chr_none. Qed.
Lemma before_comment_id s : ~ In "!"%char s -> before_comment s = s.
Proof. intros H. unfold before_comment. now rewrite find_chr_no. Qed.

Lemma to_int_fmt z : to_int (fmt_int z) = Ok z.
Proof.
  unfold to_int. assert (E : parse_real (fmt_int z) = Ok (inject_Z z)).
  { unfold fmt_int, str_of_int. destruct z as [|p|p]; [reflexivity| |].
    - pose proof (parse_fmt_int (Z.pos p)) as P. pose proof (nonneg_num (Z.pos p) ltac:(lia)) as (_ & N2 & N3 & N4).
      unfold fmt_int, str_of_int in *. destruct (L _) as [|c t] eqn:Et; [congruence|]. unfold parse_real.
      destruct (chr_eqb_spec c "-") as [->|_]; [exfalso; now eapply N4|]. unfold parse_unsigned.
      rewrite find_chr_no by assumption. rewrite P. reflexivity.
    - pose proof (parse_fmt_int (Z.pos p)) as P. pose proof (nonneg_num (Z.pos p) ltac:(lia)) as (_ & N2 & N3 & N4).
      unfold fmt_int, str_of_int in *. cbn [Z.to_int] in *. cbn [DecimalString.NilZero.string_of_int] in *.
      change (L (String "-" ?x)) with ("-"%char :: L x).
      unfold parse_real. rewrite chr_eqb_refl. unfold parse_unsigned. change (Z.to_int (Z.pos p)) with (Decimal.Pos (Pos.to_uint p)) in *.
      rewrite find_chr_no by assumption. rewrite P. cbn [bind]. reflexivity. }
  rewrite E. cbn [bind]. unfold trunc, inject_Z. cbn. now rewrite Z.quot_1_r.
Qed.
Lemma table_row_words nm fc r : fc = face_text (w_face r) -> table_row nm fc (row_words r) = Ok (frow_of nm r).
Proof. intros ->. unfold table_row, row_words. rewrite !to_int_fmt. cbn [bind]. rewrite parse_fmt_real. reflexivity. Qed.
Lemma is_number_int z : is_number (fmt_int z) = true.
Proof.
  pose proof (to_int_fmt z) as H. unfold to_int in H. unfold is_number. destruct (parse_real (fmt_int z)); [reflexivity|discriminate].
Qed.
Lemma good_head_not w c : good w -> c <> "-"%char -> numch c = false -> hd_error w <> Some c.
Proof. destruct w as [|x w]; [easy|]. intros [[H|H] _] N1 N2 [= ->]; congruence. Qed.
Lemma contains_head (p s : str) : (forall c, In c s -> ~ In c p) -> p <> [] -> contains s p = false.
Proof.
  intros H N. induction s as [|x s IH]; cbn [contains].
  - destruct p; [congruence|reflexivity].
  - destruct p as [|y p]; [congruence|]. cbn [startswith]. destruct (chr_eqb_spec y x) as [<-|].
    + exfalso. apply (H y); now left.
    + cbn. apply IH. intros c Hc. apply H. now right.
Qed.

(** *** reading a row *)
Lemma num_not_alpha w p : good w -> (forall c, In c p -> numch c = false /\ c <> "-"%char) -> p <> [] -> contains w p = false.
Proof.
  intros G H N. apply contains_head; [|assumption]. intros c Hc Hp. destruct (H c Hp) as [H1 H2].
  destruct w as [|x w]; [easy|]. destruct G as [Hx Hw]. destruct Hc as [->|Hc]; [destruct Hx; congruence|].
  rewrite forallb_forall in Hw. rewrite (Hw c Hc) in H1. discriminate.
Qed.
Lemma letters_GRID : forall c, In c (L "GRID") -> numch c = false /\ c <> "-"%char.
Proof. intros x [<-|[<-|[<-|[<-|[]]]]]; (split; [reflexivity|discriminate]). Qed.
Lemma letters_FNAME : forall c, In c (L "FNAME") -> numch c = false /\ c <> "-"%char.
Proof. intros x [<-|[<-|[<-|[<-|[<-|[]]]]]]; (split; [reflexivity|discriminate]). Qed.
Lemma read_row s r : is_table s = true ->
  read_line s (row_line r ++ [nl]) = Ok (R true true (r_name s) (r_face s) (chunks s ++ [row_words r]) (dfs s)).
Proof.
  intros Ht. unfold read_line. unfold row_line at 1. rewrite words_row by (auto using row_good).
  rewrite before_comment_id. 2:{ intros H. apply in_app_or in H. destruct H as [H|[H|[]]]; [|discriminate].
    eapply row_chars in H; [|apply row_good]. now destruct H. }
  unfold row_line. rewrite words_row by (auto using row_good). unfold row_words at 1 2.
  pose proof (good_int (w_i r + 1)) as G. destruct (fmt_int (w_i r + 1)) as [|c w] eqn:Ec; [easy|].
  assert (chr_eqb c "!" || chr_eqb c "C" = false) as ->.
  { apply orb_false_iff. split; match goal with |- chr_eqb ?a ?b = false => destruct (chr_eqb_spec a b) as [->|]; [destruct G as [[G|G] _]; discriminate|reflexivity] end. }
  rewrite <- Ec in *. rewrite Ht, is_number_int. cbn [andb is_table is_record negb bind r_name r_face chunks dfs].
  rewrite (num_not_alpha _ (L "GRID") G letters_GRID), (num_not_alpha _ (L "FNAME") G letters_FNAME) by discriminate.
  assert (str_eqb (fmt_int (w_i r + 1)) (L "MULT") = false) as ->.
  { destruct (str_eqb_spec (fmt_int (w_i r + 1)) (L "MULT")) as [E|]; [|reflexivity]. rewrite E in G. destruct G as [[G|G] _]; discriminate. }
  cbn [bind]. reflexivity.
Qed.

(** *** reading a heading *)
Lemma read_lines_app a : forall s b, read_lines s (a ++ b) = do s' <- read_lines s a; read_lines s' b.
Proof. induction a as [|x a IH]; intros s b; [reflexivity|]. cbn [app read_lines]. destruct (read_line s x); cbn [bind]; [apply IH|reflexivity]. Qed.
Definition mult_line (f : axis * bool) : str := L "MULT" ++ [tab] ++ T_text (fst f) ++ [tab] ++ L "ALL" ++ [tab] ++ sign_text (snd f) ++ [tab] ++ L "MULT" ++ [nl].
Definition grid_line : str := [tab] ++ L "GRID" ++ [tab] ++ L "ROOT" ++ [nl].
Definition fname_line (nm : str) : str := [tab] ++ L "FNAME" ++ [tab] ++ nm ++ [nl].
Lemma header_lines f nm t : no_ws nm -> lines (header_text f nm ++ t) = [[nl]; mult_line f; grid_line; fname_line nm] ++ lines t.
Proof.
  intros Hn. destruct f as [a p].
  assert (E : header_text (a, p) nm ++ t = [] ++ nl :: (removelast (mult_line (a, p)) ++ nl :: (removelast grid_line ++ nl :: (([tab] ++ L "FNAME" ++ [tab] ++ nm) ++ nl :: t)))).
  { unfold header_text. destruct a, p; cbn [fst snd]; rewrite <- ?app_assoc; reflexivity. }
  rewrite E. rewrite lines_line by easy. rewrite lines_line. 2:{ destruct a, p; cbn; intuition discriminate. }
  rewrite lines_line. 2:{ cbn. intuition discriminate. } rewrite lines_line.
  2:{ intros H. apply in_app_or in H. destruct H as [[H|[]]|H]; [discriminate|]. apply in_app_or in H. destruct H as [H|H]; [cbn in H; intuition discriminate|].
      apply in_app_or in H. destruct H as [[H|[]]|H]; [discriminate|]. now apply no_ws_nl in Hn. }
  destruct a, p; cbn [app removelast]; unfold fname_line; rewrite <- ?app_assoc; reflexivity.
Qed.
(** a name that a heading can carry *)
Definition plain_name (nm : str) : Prop := no_ws nm /\ nm <> [] /\ ~ In "!"%char nm.
Lemma read_mult s f rs : (is_table s = true -> is_record s = true) -> (if is_table s then flush s else Ok s) = Ok (R false false (r_name s) (r_face s) [] rs) ->
  exists nm fc, read_line s (mult_line f) = Ok (R true false nm fc [] rs) /\ fc = face_text f.
Proof.
  intros Hr Hf. exists (L "NONE"), (face_text f). split; [|reflexivity]. destruct f as [a p]. unfold read_line.
  assert (W : words (mult_line (a, p)) = [L "MULT"; T_text a; L "ALL"; sign_text p; L "MULT"]) by (destruct a, p; reflexivity).
  rewrite W. change (L "MULT") with ("M"%char :: L "ULT") at 1. cbn [chr_eqb]. change (chr_eqb "M" "!" || chr_eqb "M" "C") with false. cbn match.
  rewrite before_comment_id. 2:{ destruct a, p; cbn; intuition discriminate. } rewrite W.
  change (is_number (L "MULT")) with false. rewrite andb_false_r. cbn [negb]. rewrite andb_true_r.
  destruct (is_table s) eqn:Et.
  - rewrite (Hr eq_refl). cbn [andb]. rewrite Hf. cbn [bind is_table is_record]. change (str_eqb (L "MULT") (L "MULT")) with true. cbn match.
    cbn [second bind]. destruct a, p; reflexivity.
  - destruct s as [it ir rn rf ch ds]. cbn [is_table is_record r_name r_face chunks dfs] in *. injection Hf as -> -> -> ->. cbn [andb bind is_table is_record]. change (str_eqb (L "MULT") (L "MULT")) with true. cbn match.
    cbn [second bind]. destruct a, p; reflexivity.
Qed.
Lemma read_grid s : is_table s = true -> is_record s = false -> read_line s grid_line = Ok s.
Proof.
  intros Ht Hr. unfold read_line. change (words grid_line) with [L "GRID"; L "ROOT"]. change (words (before_comment grid_line)) with [L "GRID"; L "ROOT"].
  change (L "GRID") with ("G"%char :: L "RID") at 1. change (chr_eqb "G" "!" || chr_eqb "G" "C") with false. cbn match.
  change (is_number (L "GRID")) with false. rewrite andb_false_r, Ht, Hr. cbn [andb bind]. rewrite Ht. reflexivity.
Qed.
Lemma read_fname s nm : is_table s = true -> is_record s = false -> plain_name nm ->
  read_line s (fname_line nm) = Ok (R true false nm (r_face s) (chunks s) (dfs s)).
Proof.
  intros Ht Hr (N1 & N2 & N3). unfold read_line.
  assert (W : words (fname_line nm) = [L "FNAME"; nm]).
  { unfold fname_line. rewrite words_tab; [|reflexivity|discriminate|now apply wstart_cons]. f_equal. rewrite words_tab; [reflexivity|assumption|assumption|now apply wstart_cons]. }
  rewrite before_comment_id. 2:{ unfold fname_line. intros H. apply in_app_or in H. destruct H as [[H|[]]|H]; [discriminate|]. apply in_app_or in H.
    destruct H as [H|H]; [cbn in H; intuition discriminate|]. apply in_app_or in H. destruct H as [[H|[]]|H]; [discriminate|]. apply in_app_or in H.
    destruct H as [H|[H|[]]]; [contradiction|discriminate]. }
  rewrite W.
  change (L "FNAME") with ("F"%char :: L "NAME") at 1. change (chr_eqb "F" "!" || chr_eqb "F" "C") with false. cbn match.
  change (is_number (L "FNAME")) with false. rewrite andb_false_r, Ht, Hr. cbn [andb bind]. rewrite Ht.
  change (contains (L "FNAME") (L "GRID")) with false. change (contains (L "FNAME") (L "FNAME")) with true. cbn [second bind]. rewrite Hr. reflexivity.
Qed.
(** ** what has been read when a part of the text has been read *)
Inductive seen : head -> rstate -> list frow -> Prop :=
| seen_none : seen None (R false false [] [] [] []) []
| seen_some f nm cs ds rs : map_res (table_row nm (face_text f)) cs = Ok rs ->
    seen (Some (f, nm)) (R true true nm (face_text f) cs ds) (ds ++ rs).
Lemma same_head_eq h f nm : same_head h f nm = true -> h = Some (f, nm).
Proof.
  destruct h as [[[a p] m]|]; [|discriminate]. cbn. intros H. apply andb_true_iff in H. destruct H as [H H3]. apply andb_true_iff in H. destruct H as [H1 H2].
  apply axis_eqb_true in H1. apply Bool.eqb_prop in H2. destruct (str_eqb_spec m nm); [|discriminate]. destruct f. cbn in *. now subst.
Qed.
Lemma read_data f nm cs ds rs r : w_face r = f -> map_res (table_row nm (face_text f)) cs = Ok rs ->
  exists s', read_line (R true true nm (face_text f) cs ds) (row_line r ++ [nl]) = Ok s' /\ seen (Some (f, nm)) s' ((ds ++ rs) ++ [frow_of nm r]).
Proof.
  intros Ef E. rewrite read_row by reflexivity. cbn [r_name r_face chunks dfs]. eexists. split; [reflexivity|]. rewrite <- app_assoc. constructor.
  apply map_res_app; [exact E|]. cbn [map_res]. rewrite table_row_words by congruence. reflexivity.
Qed.
Lemma read_head h s rs f nm : seen h s rs -> plain_name nm ->
  read_lines s [[nl]; mult_line f; grid_line; fname_line nm] = Ok (R true false nm (face_text f) [] rs).
Proof.
  intros S0 N. cbn [read_lines]. change (read_line s [nl]) with (Ok s : res rstate). cbn [bind].
  assert (X : exists nm0 fc, read_line s (mult_line f) = Ok (R true false nm0 fc [] rs) /\ fc = face_text f).
  { apply read_mult; destruct S0 as [|f0 nm0 cs ds rs E]; cbn [is_table is_record]; try congruence; [reflexivity|]. unfold flush. cbn [r_name r_face chunks dfs]. rewrite E. reflexivity. }
  destruct X as (nm0 & fc & -> & ->). cbn [bind]. rewrite read_grid by reflexivity. cbn [bind]. rewrite read_fname by (assumption || reflexivity). reflexivity.
Qed.
Lemma row_line_nl r : ~ In nl (row_line r).
Proof. intros H. eapply row_chars in H; [|apply row_good]. now destruct H. Qed.
Lemma lines_row r t : lines (row_text r ++ t) = (row_line r ++ [nl]) :: lines t.
Proof. rewrite row_text_line, <- app_assoc. cbn [app]. apply lines_line, row_line_nl. Qed.
Lemma write_rows_seen nm l : plain_name nm -> forall h s rs t t' h', seen h s rs -> write_rows h nm l = (t, h') ->
  exists ls s', lines (t ++ t') = ls ++ lines t' /\ read_lines s ls = Ok s' /\ seen h' s' (rs ++ map (frow_of nm) l).
Proof.
  intros N. induction l as [|r l IH]; intros h s rs t t' h' S0 E; cbn [write_rows] in E.
  - injection E as <- <-. exists [], s. rewrite app_nil_r. auto.
  - destruct (write_rows (Some (w_face r, nm)) nm l) as [t1 h1] eqn:E1. injection E as <- <-.
    assert (X : exists ls s', lines (((if same_head h (w_face r) nm then [] else header_text (w_face r) nm) ++ row_text r) ++ t1 ++ t') = ls ++ lines (t1 ++ t') /\
      read_lines s ls = Ok s' /\ seen (Some (w_face r, nm)) s' (rs ++ [frow_of nm r])).
    { destruct (same_head h (w_face r) nm) eqn:Eh.
      - apply same_head_eq in Eh. subst h. inversion S0 as [|f0 nm0 cs ds rs0 HM]; subst. cbn [app]. rewrite lines_row.
        destruct (read_data (w_face r) nm cs ds rs0 r eq_refl HM) as (s' & E' & S').
        exists [row_line r ++ [nl]], s'. cbn [read_lines app]. rewrite E'. auto.
      - rewrite <- app_assoc. rewrite header_lines by apply N. rewrite lines_row.
        destruct (read_data (w_face r) nm [] rs [] r eq_refl eq_refl) as (s' & E' & S'). rewrite app_nil_r in S'.
        exists ([[nl]; mult_line (w_face r); grid_line; fname_line nm] ++ [row_line r ++ [nl]]), s'.
        split; [rewrite <- app_assoc; reflexivity|]. split; [|exact S']. rewrite read_lines_app, (read_head h s rs) by assumption. cbn [bind read_lines].
        rewrite read_row in * by reflexivity. cbn [r_name r_face chunks dfs bind] in *. exact E'. }
    destruct X as (ls & s1 & X1 & X2 & X3). destruct (IH _ _ _ _ t' _ X3 E1) as (ls2 & s2 & Y1 & Y2 & Y3).
    exists (ls ++ ls2), s2. rewrite <- app_assoc. split; [rewrite X1, Y1; now rewrite app_assoc|]. split.
    + rewrite read_lines_app, X2. exact Y2.
    + cbn [map]. rewrite <- app_assoc in Y3. exact Y3.
Qed.

(** ** a whole file *)
Lemma write_sides_seen nm ps ms ss : plain_name nm -> forall h s rs t t' h', seen h s rs -> write_sides h nm ps ms ss = (t, h') ->
  exists ls s', lines (t ++ t') = ls ++ lines t' /\ read_lines s ls = Ok s' /\ seen h' s' (rs ++ map (frow_of nm) (flat_map (side_rows ps ms) ss)).
Proof.
  intros N. induction ss as [|x ss IH]; intros h s rs t t' h' S0 E; cbn [write_sides] in E.
  - injection E as <- <-. exists [], s. cbn. rewrite app_nil_r. auto.
  - destruct (write_rows h nm (side_rows ps ms x)) as [t1 h1] eqn:E1. destruct (write_sides h1 nm ps ms ss) as [t2 h2] eqn:E2. injection E as <- <-.
    destruct (write_rows_seen nm _ N _ _ _ _ (t2 ++ t') _ S0 E1) as (l1 & s1 & A1 & A2 & A3).
    destruct (IH _ _ _ _ t' _ A3 E2) as (l2 & s2 & B1 & B2 & B3).
    exists (l1 ++ l2), s2. rewrite <- app_assoc, A1, B1, app_assoc. split; [reflexivity|]. split; [rewrite read_lines_app, A2; exact B2|].
    cbn [flat_map]. rewrite map_app, app_assoc. exact B3.
Qed.
Fixpoint all_rows (psf : Z -> list (side * side)) (msf : Z -> list Q) (ss : list bool) (f : Z) (names : list str) : list frow :=
  match names with
  | [] => []
  | nm :: r => map (frow_of nm) (flat_map (side_rows (psf f) (msf f)) ss) ++ all_rows psf msf ss (f + 1) r
  end.
Definition mults_of (g : gcs) (tmult : option (list Q)) (f : Z) (ps : list (side * side)) : list Q :=
  match tmult, feature_indices g with
  | Some m, Some fi => keep_flagged (map (fun x => x =? f) fi) m
  | _, _ => map (fun _ => 1%Q) ps
  end.
Lemma write_features_seen n g tmult ss psf fl : (forall f, list_of_cell_face_pairs n g (Some f) = Ok (Some (psf f))) ->
  forall names, Forall2 (fun (x : feature) nm => nexus_name (snd x) = Ok nm /\ plain_name nm) fl names ->
  forall h s rs f, seen h s rs -> exists t h' s', write_features n g tmult ss h f fl = Ok t /\ read_lines s (lines t) = Ok s' /\
    seen h' s' (rs ++ all_rows psf (fun f => mults_of g tmult f (psf f)) ss f names).
Proof.
  intros HP names F. induction F as [|[u title] nm fl names [E1 E2] F IH]; intros h s rs f S0.
  - exists [], h, s. cbn. rewrite app_nil_r. auto.
  - cbn [write_features snd] in *. rewrite E1, HP. cbn [bind].
    destruct (write_sides h nm (psf f) _ ss) as [t1 h1] eqn:Ew.
    destruct (write_sides_seen nm _ _ _ E2 _ _ _ _ [] _ S0 Ew) as (l1 & s1 & A1 & A2 & A3).
    destruct (IH h1 s1 _ (f + 1) A3) as (t2 & h2 & s2 & B1 & B2 & B3). rewrite B1. cbn [bind].
    destruct (write_sides_seen nm _ _ _ E2 _ _ _ _ t2 _ S0 Ew) as (l1' & s1' & A1' & A2' & A3').
    rewrite app_nil_r in A1. assert (l1 = lines t1) as -> by (cbn in A1; rewrite app_nil_r in A1; congruence).
    exists (t1 ++ t2), h2, s2. split; [reflexivity|]. split.
    + assert (Hl : t1 = [] \/ exists a', t1 = a' ++ [nl]).
      { clear - Ew. revert h t1 h1 Ew. induction ss as [|x ss IH]; intros h t1 h1 Ew; cbn [write_sides] in Ew; [injection Ew as <- <-; now left|].
        destruct (write_rows h nm _) as [ta ha] eqn:Ea. destruct (write_sides ha nm _ _ ss) as [tb hb] eqn:Eb. injection Ew as <- <-.
        destruct (IH _ _ _ Eb) as [->|[b' ->]]; [|right; eexists; now rewrite app_assoc]. rewrite app_nil_r. clear - Ea.
        revert h ta ha Ea. induction (side_rows _ _ x) as [|r l IHl]; intros h ta ha Ea; cbn [write_rows] in Ea; [injection Ea as <- <-; now left|].
        destruct (write_rows (Some (w_face r, nm)) nm l) as [tb hb] eqn:Eb. injection Ea as <- <-. right.
        destruct (IHl _ _ _ Eb) as [->|[b' ->]]; [|eexists; now rewrite app_assoc]. rewrite app_nil_r, row_text_line, app_assoc. eauto. }
      rewrite lines_app by assumption. rewrite read_lines_app, A2. exact B2.
    + cbn [all_rows]. rewrite app_assoc. exact B3.
Qed.
Lemma load_seen h s rs : seen h s rs -> (do s' <- (if is_table s && is_record s then flush s else Ok s); Ok (dfs s')) = Ok rs.
Proof.
  intros [|f nm cs ds rs0 E]; [reflexivity|]. cbn [is_table is_record andb]. unfold flush. cbn [r_name r_face chunks dfs]. rewrite E. reflexivity.
Qed.

(** ** making connections *)
Lemma str_eqb_iff (a b : str) : str_eqb a b = true <-> a = b.
Proof. destruct (str_eqb_spec a b); split; congruence. Qed.
Lemma mem_str_iff x l : mem_str x l = true <-> In x l.
Proof.
  unfold mem_str. rewrite existsb_exists. split; [intros (y & H & E); apply str_eqb_iff in E; now subst|]. intros H. exists x. split; [assumption|]. now apply str_eqb_iff.
Qed.
Lemma unique_names_spec l : forall seen0, NoDup (unique_names seen0 l) /\ forall x, In x (unique_names seen0 l) <-> In x l /\ ~ In x seen0.
Proof.
  induction l as [|y l IH]; intros sn; cbn [unique_names].
  - split; [constructor|]. cbn. tauto.
  - destruct (mem_str y sn) eqn:E.
    + apply mem_str_iff in E. destruct (IH sn) as [H1 H2]. split; [assumption|]. intros x. rewrite H2. cbn [In]. split; [tauto|]. intros [[->|H] N]; [contradiction|tauto].
    + assert (N : ~ In y sn) by (rewrite <- mem_str_iff, E; discriminate). destruct (IH (sn ++ [y])) as [H1 H2]. split.
      * constructor; [|assumption]. rewrite H2. intros [_ K]. apply K, in_or_app. right. now left.
      * intros x. cbn [In]. rewrite H2, in_app_iff. cbn [In]. destruct (str_eqb_spec y x) as [<-|Nx]; [tauto|]. split; [|tauto]. intros [H|[H K]]; [congruence|tauto].
Qed.
Lemma group_perm {A B} (key : A -> B) (eqb : B -> B -> bool) (Heq : forall a b, eqb a b = true <-> a = b) (ks : list B) (l : list A) :
  NoDup ks -> (forall x, In x l -> In (key x) ks) -> Permutation (flat_map (fun k => filter (fun x => eqb (key x) k) l) ks) l.
Proof.
  intros ND. induction l as [|x l IH]; intros H.
  - cbn [filter]. induction ks as [|k ks IHk]; cbn; [constructor|]. inversion ND; subst. now apply IHk.
  - destruct (in_split (key x) ks (H x (or_introl eq_refl))) as (k1 & k2 & ->).
    apply NoDup_remove in ND. destruct ND as [_ NI].
    assert (G : forall k, ~ In (key x) k -> flat_map (fun k => filter (fun y => eqb (key y) k) (x :: l)) k = flat_map (fun k => filter (fun y => eqb (key y) k) l) k).
    { intros k. clear - Heq. induction k as [|k ks IHk]; intros N; [reflexivity|]. cbn [flat_map]. rewrite IHk by (intros K; apply N; now right). f_equal. cbn [filter].
      destruct (eqb (key x) k) eqn:E; [apply Heq in E; exfalso; apply N; now left|]. reflexivity. }
    rewrite flat_map_app in *. cbn [flat_map] in *. rewrite !G by (intros K; apply NI, in_or_app; tauto).
    cbn [filter]. destruct (eqb (key x) (key x)) eqn:E; [|pose proof (proj2 (Heq (key x) (key x)) eq_refl); congruence].
    cbn [app]. rewrite <- Permutation_middle. constructor. apply IH. intros y Hy. apply H. now right.
Qed.

Definition expand (n : trip Z) (dm : str -> option Q) (d : drow) : list (link * option str * Q) :=
  let '(r, f) := d in map (fun c => (face_link n c f, Some (name r), (mult r * dict_mult dm (name r))%Q)) (row_cells r).
Lemma fault_loop_spec n dm rs names : forall dict f ls fl, 0 <= f -> fault_loop n dm rs dict f names = Ok (ls, fl) ->
  List.length fl = List.length names /\ Forall (fun x => f <= snd x < f + Z.of_nat (List.length fl)) ls /\
  map (fun '(l, m, i) => (l, option_map snd (nth_error fl (Z.to_nat (i - f))), m)) ls =
  flat_map (expand n dm) (flat_map (fun nm => filter (fun d => str_eqb (name (fst d)) nm) rs) names).
Proof.
  induction names as [|nm names IH]; intros dict f ls fl Hf E; cbn [fault_loop] in E.
  - injection E as <- <-. cbn. auto.
  - destruct (mem_str (lower nm) dict); [discriminate|].
    destruct (fault_loop n dm rs (dict ++ [lower nm]) (f + 1) names) as [[rest fl']|] eqn:E1; [|discriminate].
    cbn [bind] in E. injection E as <- <-. assert (Hf1 : 0 <= f + 1) by lia. destruct (IH _ _ _ _ Hf1 E1) as (A1 & A2 & A3). split; [cbn; congruence|]. split.
    + apply Forall_app. split.
      * apply Forall_forall. intros x Hx. apply in_map_iff in Hx. destruct Hx as ([l m] & <- & _). cbn [snd List.length]. lia.
      * eapply Forall_impl; [|exact A2]. intros [[l m] i]. cbn [snd List.length]. lia.
    + rewrite map_app. cbn [flat_map]. rewrite flat_map_app. f_equal.
      * rewrite map_map. unfold fault_links. clear.
        assert (G : forall l0, Forall (fun d => name (fst d) = nm) l0 ->
          map (fun x : link * Q => let '(l, m, i) := let '(l, m) := x in (l, m, f) in (l, option_map snd (nth_error ((f, nm) :: fl') (Z.to_nat (i - f))), m))
            (flat_map (fun '(r, f) => map (fun c => (face_link n c f, (mult r * dict_mult dm nm)%Q)) (row_cells r)) l0) = flat_map (expand n dm) l0).
        { induction l0 as [|[r0 f0] l0 IH0]; intros F; [reflexivity|]. inversion F as [|? ? F1 F2]; subst. cbn [flat_map]. rewrite map_app, IH0 by assumption. f_equal.
          unfold expand. rewrite map_map. apply map_ext. intros c. rewrite Z.sub_diag. cbn [Z.to_nat nth_error option_map snd fst] in *. reflexivity. }
        apply G. apply Forall_forall. intros d Hd. apply filter_In in Hd. now apply str_eqb_iff.
      * etransitivity; [|exact A3]. apply map_ext_in. intros [[l m] i] Hi. rewrite Forall_forall in A2. specialize (A2 _ Hi). cbn [snd] in A2.
        replace (Z.to_nat (i - f)) with (S (Z.to_nat (i - (f + 1)))) by lia. reflexivity.
Qed.

Lemma fault_loop_ok n dm rs names : forall dict f, NoDup (map lower names) -> (forall nm, In nm names -> ~ In (lower nm) dict) ->
  exists ls fl, fault_loop n dm rs dict f names = Ok (ls, fl).
Proof.
  induction names as [|nm names IH]; intros dict f ND H; cbn [fault_loop]; [eauto|].
  destruct (mem_str (lower nm) dict) eqn:E; [apply mem_str_iff in E; exfalso; apply (H nm); [now left|assumption]|].
  cbn [map] in ND. inversion ND as [|? ? N1 N2]; subst. destruct (IH (dict ++ [lower nm]) (f + 1) N2) as (ls & fl & E1).
  - intros m Hm K. apply in_app_or in K. destruct K as [K|[K|[]]]; [apply (H m); [now right|assumption]|]. apply N1. rewrite K. now apply in_map.
  - rewrite E1. cbn [bind]. eauto.
Qed.
(** the connections of a set, each with the title of its feature *)
Definition titled (g : gcs) : list (link * option str) := map (fun '(l, o) => (l, option_map snd o)) (entries g).
Lemma set_pairs_spec n interps create dm ob rows g ms : set_pairs_from_faces_df n interps create dm ob rows = Ok (g, ms) ->
  exists fs, map_res (fun r => standard_face (face r)) rows = Ok fs /\ (List.length ms = List.length (links g) /\ List.length ms = List.length (titled g)) /\
  Permutation (combine (titled g) ms) (flat_map (expand n dm) (filter (fun d => negb (external n d)) (combine (if ob then map zero_base rows else rows) fs))).
Proof.
  unfold set_pairs_from_faces_df. destruct (map_res (fun r => standard_face (face r)) rows) as [fs|] eqn:Ef; [|discriminate]. cbn [bind].
  set (rs := filter _ _). set (names := unique_names _ _).
  destruct (map_res _ interps) as [dict|]; [|discriminate]. cbn [bind].
  intros E. exists fs. split; [reflexivity|].
  assert (X : exists ls fl, fault_loop n dm rs dict 0 names = Ok (ls, fl) /\ g = Gcs (map (fun x => fst (fst x)) ls) (Some (map snd ls)) (Some fl) /\ ms = map (fun x => snd (fst x)) ls).
  { destruct names, create; try discriminate; destruct (fault_loop n dm rs dict 0 _) as [[ls fl]|] eqn:El; try discriminate; injection E as <- <-; eauto. }
  destruct X as (ls & fl & El & -> & ->). cbn [links]. split; [split; [now rewrite !map_length|]; unfold titled, entries; cbn [links feature_indices feature_list];
    rewrite !map_length, combine_length, !map_length; lia|].
  destruct (fault_loop_spec n dm rs names dict 0 ls fl ltac:(lia) El) as (A1 & A2 & A3).
  assert (G : combine (titled (Gcs (map (fun x => fst (fst x)) ls) (Some (map snd ls)) (Some fl))) (map (fun x => snd (fst x)) ls) =
    map (fun '(l, m, i) => (l, option_map snd (nth_error fl (Z.to_nat (i - 0))), m)) ls).
  { unfold titled, entries. cbn [links feature_indices feature_list]. clear. induction ls as [|[[l m] i] ls IH]; [reflexivity|]. cbn [map combine fst snd]. rewrite IH, Z.sub_0_r. reflexivity. }
  rewrite G, A3. apply Permutation_flat_map. destruct (unique_names_spec (map (fun d : drow => name (fst d)) rs) []) as [U1 U2].
  apply (group_perm (fun d : drow => name (fst d)) str_eqb str_eqb_iff names rs U1).
  intros d Hd. apply U2. split; [|intros []]. now apply (in_map (fun d : drow => name (fst d))).
Qed.
Lemma in_row_cells r c : In c (row_cells r) <-> i1 r <= ti c <= i2 r /\ j1 r <= tj c <= j2 r /\ k1 r <= tk c <= k2 r.
Proof.
  unfold row_cells. rewrite in_flat_map. split.
  - intros (k & Hk & H). apply in_flat_map in H. destruct H as (j & Hj & H). apply in_map_iff in H. destruct H as (i & <- & Hi).
    apply in_zrange2 in Hk, Hj, Hi. cbn [tk tj ti]. lia.
  - intros (Hi & Hj & Hk). exists (tk c). split; [apply in_zrange2; lia|]. apply in_flat_map. exists (tj c). split; [apply in_zrange2; lia|].
    apply in_map_iff. exists (ti c). split; [now destruct c|]. apply in_zrange2. lia.
Qed.
Lemma NoDup_flat_map {A B} (f : A -> list B) l : NoDup l -> (forall x, In x l -> NoDup (f x)) ->
  (forall x y z, In x l -> In y l -> In z (f x) -> In z (f y) -> x = y) -> NoDup (flat_map f l).
Proof.
  intros N. induction N as [|x l Nx N IH]; intros H1 H2; cbn [flat_map]; [constructor|]. apply TriProofs3.NoDup_app2.
  - apply H1. now left.
  - apply IH; intros; [apply H1; now right|]. eapply H2; [right|right| |]; eassumption.
  - intros z Hz K. apply in_flat_map in K. destruct K as (y & Hy & K). apply Nx.
    rewrite (H2 x y z); [assumption|now left|now right|assumption|assumption].
Qed.
Lemma NoDup_row_cells r : NoDup (row_cells r).
Proof.
  unfold row_cells. apply NoDup_flat_map; [apply NoDup_zrange2| |].
  - intros k _. apply NoDup_flat_map; [apply NoDup_zrange2| |].
    + intros j _. apply NoDup_map_inj_in; [|apply NoDup_zrange2]. intros a b _ _ [= ->]. reflexivity.
    + intros a b c _ _ Ha Hb. apply in_map_iff in Ha, Hb. destruct Ha as (x & <- & _), Hb as (y & [=] & _). congruence.
  - intros a b c _ _ Ha Hb. apply in_flat_map in Ha, Hb. destruct Ha as (x & _ & Ha), Hb as (y & _ & Hb). apply in_map_iff in Ha, Hb.
    destruct Ha as (u & <- & _), Hb as (v & [=] & _). congruence.
Qed.
