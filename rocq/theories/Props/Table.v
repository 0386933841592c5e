(** C45: delimited data and tables *)
From Coq Require Import List Bool Arith NArith Lia.
From Verif.Base Require Import Str StrFacts Dict DictFacts Result.
From Verif.Model Require Import ListUtils Table.
From Verif.Spec Require Import ListUtils Table.
From Verif.Proof Require Import ListUtils Table.
From Verif.Props Require Import ListUtils.
Import ListNotations.

(** The reader gives the cells of a text, however they are written; *)
Theorem C45_reader d rows x : usable d -> written_table d rows x -> csv_reader d x = Ok rows.
Proof. intros U W. rewrite csv_run. now apply table_run. Qed.
(** and every table of rows that are not empty can be written. *)
Theorem C45_writable d rows : usable d -> Forall (fun row => row <> []) rows -> (forall row c, In row rows -> In c row -> ~ In 0%N c) -> exists x, written_table d rows x.
Proof.
  intros U Ne Hz. induction rows as [|row rows IH]; [exists []; constructor|]. inversion Ne; subst.
  destruct IH as [x W]; [auto|intros r c Hr; apply (Hz r c); now right|].
  set (q := fun c : str => quote :: doubled c ++ [quote]).
  exists (join [d] (map q row) ++ 10%N :: x). constructor; auto. exists (map q row). split; [|split; auto].
  - assert (H : forall c, In c row -> ~ In 0%N c) by (intros c Hc; apply (Hz row c); auto; now left). clear - H. induction row as [|c row IHr]; constructor; [apply w_quoted; apply H; now left|apply IHr; intros; apply H; now right].
  - destruct row as [|c [|c2 row]]; [congruence|cbn; discriminate|]. cbn [map]. rewrite join_cons by discriminate. discriminate.
Qed.

Lemma combine_fst {A B} (a : list A) (b : list B) : length a = length b -> map fst (combine a b) = a /\ map snd (combine a b) = b.
Proof. revert b. induction a as [|x a IH]; intros [|y b] H; try discriminate; auto. cbn. destruct (IH b ltac:(cbn in H; lia)) as [-> ->]. auto. Qed.

(** A table with different headers and at least one row keeps its headers and its
    cells, in their rows and columns.  Missing: tables with equal headers or without
    rows, and texts with empty lines. *)
Theorem C45_cells_partial d hdr rows x n m : usable d -> written_table d (hdr :: rows) x ->
  rectangular n m rows -> 0 < n -> 0 < m -> length hdr = m -> NoDup hdr ->
  exists t, load d false x = Ok t /\ headers t = map Named hdr /\ data_rows t = rows /\ html_table false t = (Some (map Named hdr), rows).
Proof.
  intros U W R Hn Hm Hl Nd. unfold load. rewrite (C45_reader d _ x U W). cbn [bind].
  destruct (transpose_rect n m rows R Hn) as [R1 _]. destruct R1 as [L1 _].
  destruct (combine_fst hdr (transpose rows) ltac:(congruence)) as [F1 F2].
  rewrite from_columns_named by (rewrite ?F1; auto). cbn [app]. eexists. split; [reflexivity|].
  assert (H1 : headers (map (fun p : str * list str => (Named (fst p), snd p)) (combine hdr (transpose rows))) = map Named hdr).
  { unfold headers, keys. rewrite map_map. cbn [fst]. rewrite <- (map_map fst Named). now rewrite F1. }
  assert (H2 : data_rows (map (fun p : str * list str => (Named (fst p), snd p)) (combine hdr (transpose rows))) = rows).
  { unfold data_rows. rewrite map_map. cbn [snd]. change (map (fun x0 : str * list str => snd x0)) with (map (@snd str (list str))). rewrite F2. now apply (C05_transpose_involutive str n m). }
  split; auto. split; auto. unfold html_table. now rewrite H1, H2.
Qed.

(** Without headers: a table with at least two rows keeps its cells, the first row
    included.  Missing: tables of one row. *)
Theorem C45_noheader_partial d first rows x n m : usable d -> written_table d (first :: rows) x ->
  rectangular n m rows -> 0 < n -> 0 < m -> length first = m ->
  exists t, load d true x = Ok t /\ headers t = map Numbered (seq 0 m) /\ data_rows t = first :: rows /\ html_table true t = (None, first :: rows).
Proof.
  intros U W R Hn Hm Hl. unfold load. rewrite (C45_reader d _ x U W). cbn [bind].
  destruct (transpose_rect n m rows R Hn) as [[L1 R1] C1].
  destruct (combine_fst first (transpose rows) ltac:(congruence)) as [F1 F2].
  rewrite from_columns_numbered by (intros; reflexivity). cbn [app]. eexists. split; [reflexivity|].
  set (cols := map (fun p : str * list str => fst p :: snd p) (combine first (transpose rows))).
  assert (Lc : length (combine first (transpose rows)) = m) by (rewrite combine_length; lia).
  assert (Lc2 : length cols = m) by (unfold cols; now rewrite map_length).
  destruct (combine_fst (seq 0 m) cols ltac:(rewrite seq_length; congruence)) as [G1 G2]. rewrite Lc.
  assert (Ec : cols = transpose (first :: rows)).
  { destruct R as [Rl Rf]. assert (R2 : rectangular (S n) m (first :: rows)) by (split; [cbn; now rewrite Rl|constructor; auto]).
    destruct (transpose_rect (S n) m (first :: rows) R2 ltac:(lia)) as [R3 C3].
    apply (rect_ext m (S n)); auto.
    - split; auto. unfold cols. apply Forall_forall. intros c Hc. apply in_map_iff in Hc. destruct Hc as (p & <- & Hp). cbn [length]. f_equal. rewrite Forall_forall in R1. apply R1. rewrite <- F2. now apply in_map.
    - intros j i. rewrite C3. unfold cell. unfold cols. rewrite nth_error_map.
      assert (N1 : nth_error (combine first (transpose rows)) j = match nth_error first j, nth_error (transpose rows) j with Some a, Some b => Some (a, b) | _, _ => None end).
      { clear. revert j. generalize (transpose rows) as l. induction first as [|a f IH]; intros [|b l] [|j]; cbn; auto. now destruct (nth_error f j). }
      rewrite N1. destruct i as [|i]; cbn [nth_error].
      + destruct (nth_error first j) as [a|] eqn:E; [|reflexivity]. destruct (nth_error (transpose rows) j) as [b|] eqn:E2; [reflexivity|].
        exfalso. apply nth_error_None in E2. assert (j < length first) by (apply nth_error_Some; congruence). lia.
      + specialize (C1 i j). unfold cell in C1. destruct (nth_error (transpose rows) j) as [b|] eqn:E2.
        * destruct (nth_error first j) as [a|] eqn:E; cbn [option_map fst snd nth_error]; [exact C1|]. exfalso. apply nth_error_None in E. assert (j < length (transpose rows)) by (apply nth_error_Some; congruence). lia.
        * destruct (nth_error first j); cbn [option_map]; exact C1. }
  assert (H1 : headers (map (fun q : nat * list str => (Numbered (fst q), snd q)) (combine (seq 0 m) cols)) = map Numbered (seq 0 m)).
  { unfold headers, keys. rewrite map_map. cbn [fst]. rewrite <- (map_map fst Numbered). now rewrite G1. }
  assert (H2 : data_rows (map (fun q : nat * list str => (Numbered (fst q), snd q)) (combine (seq 0 m) cols)) = first :: rows).
  { unfold data_rows. rewrite map_map. cbn [snd]. change (map (fun x0 : nat * list str => snd x0)) with (map (@snd nat (list str))). rewrite G2, Ec.
    apply (C05_transpose_involutive str (S n) m); try lia. destruct R as [Rl Rf]. split; [cbn; now rewrite Rl|constructor; auto]. }
  split; auto. split; auto. unfold html_table. now rewrite H2.
Qed.

(** Found: columns with equal headers are lost; *)
Definition comma : char := 44%N.
Lemma comma_usable : usable comma. Proof. repeat split; discriminate. Qed.
Lemma plain_ok c : forallb (fun x => negb (N.eqb x comma || N.eqb x 10 || N.eqb x 13 || N.eqb x 0)) c = true -> match c with x :: _ => negb (N.eqb x 34 || N.eqb x 32) = true | [] => True end -> written comma c c.
Proof.
  intros H1 H2. apply w_plain. split.
  - intros x Hx. rewrite forallb_forall in H1. specialize (H1 x Hx). apply negb_true_iff in H1. apply orb_false_iff in H1 as [H1 A]. apply orb_false_iff in H1 as [H1 B]. apply orb_false_iff in H1 as [D C].
    apply N.eqb_neq in A, B, C, D. auto.
  - intros x r ->. apply negb_true_iff, orb_false_iff in H2 as [A B]. apply N.eqb_neq in A, B. auto.
Qed.
Definition nice (c : str) : bool := forallb (fun x => negb (N.eqb x comma || N.eqb x 10 || N.eqb x 13 || N.eqb x 0)) c && match c with x :: _ => negb (N.eqb x 34 || N.eqb x 32) | [] => false end.
Lemma nice_row row : row <> [] -> forallb nice row = true -> written_row comma row (join [comma] row).
Proof.
  intros N H. exists row. split; [|split; auto].
  - clear N. induction row as [|c row IH]; constructor; cbn [forallb] in H; apply andb_true_iff in H as [H1 H2]; auto. unfold nice in H1. apply andb_true_iff in H1 as [H1 H3]. apply plain_ok; auto. destruct c; auto.
  - destruct row as [|c row]; [congruence|]. cbn [forallb] in H. apply andb_true_iff in H as [H _]. unfold nice in H. apply andb_true_iff in H as [_ H]. destruct c as [|x c]; [discriminate|]. destruct row; [discriminate|]. rewrite join_cons by discriminate. discriminate.
Qed.
Lemma nice_table rows : forallb (fun row => match row with [] => false | _ => forallb nice row end) rows = true -> written_table comma rows (flat_map (fun row => join [comma] row ++ [10%N]) rows).
Proof.
  induction rows as [|row rows IH]; intros H; [constructor|]. cbn [forallb] in H. apply andb_true_iff in H as [H1 H2]. cbn [flat_map]. rewrite <- app_assoc. cbn [app]. constructor; auto.
  destruct row as [|c row]; [discriminate|]. apply nice_row; auto. discriminate.
Qed.
Theorem C45_equal_refuted : ~ forall d hdr rows x n m, usable d -> written_table d (hdr :: rows) x ->
  rectangular n m rows -> 0 < n -> 0 < m -> length hdr = m -> exists t, load d false x = Ok t /\ data_rows t = rows.
Proof.
  intros H. destruct (H comma [lit "x"; lit "x"] [[lit "1"; lit "2"]] _ 1 2 comma_usable (nice_table [[lit "x"; lit "x"]; [lit "1"; lit "2"]] eq_refl)) as (t & E & D).
  - split; auto.
  - lia.
  - lia.
  - reflexivity.
  - vm_compute in E. injection E as <-. vm_compute in D. discriminate D.
Qed.
(** the headers are lost if there are no rows; *)
Theorem C45_empty_refuted : ~ forall d hdr x, usable d -> written_table d [hdr] x -> NoDup hdr -> exists t, load d false x = Ok t /\ headers t = map Named hdr.
Proof.
  intros H. destruct (H comma [lit "x"; lit "y"] _ comma_usable (nice_table [[lit "x"; lit "y"]] eq_refl)) as (t & E & D).
  - apply NoDup_cons; [intros [C|[]]; discriminate C|]. apply NoDup_cons; [intros []|constructor].
  - vm_compute in E. injection E as <-. vm_compute in D. discriminate D.
Qed.
(** without headers, a single row is lost; *)
Theorem C45_single_refuted : ~ forall d row x, usable d -> written_table d [row] x -> exists t, load d true x = Ok t /\ data_rows t = [row].
Proof.
  intros H. destruct (H comma [lit "x"; lit "y"] _ comma_usable (nice_table [[lit "x"; lit "y"]] eq_refl)) as (t & E & D).
  vm_compute in E. injection E as <-. vm_compute in D. discriminate D.
Qed.
(** and an empty line, as in the example of the documentation, loses all cells. *)
Definition docs_example : str :=
  10%N :: lit "      First Name, Last Name" ++ 10%N :: lit "      John, Smith" ++ 10%N :: lit "      Betty, Sue" ++ 10%N :: lit "      Derek, Johnson" ++ 10%N :: lit "    ".
Theorem C45_lines_refuted : ~ forall d x t, usable d -> load d false x = Ok t -> (exists l, In l (split_c 10%N x) /\ strip l <> []) -> headers t <> [].
Proof.
  intros H. apply (H comma docs_example [] comma_usable); [vm_compute; reflexivity| |reflexivity].
  exists (lit "      John, Smith"). split; [vm_compute; auto|vm_compute; discriminate].
Qed.
(** At the end it does, too. *)
Example C45_last_line : load comma false (lit "a,b" ++ 10%N :: lit "1,2" ++ [10%N; 10%N]) = Ok [].
Proof. vm_compute. reflexivity. Qed.

(** In tex the columns of a row are its cells.  Missing: cells with an escaped
    ampersand. *)
Theorem C45_tex_partial cells : cells <> [] -> (forall c, In c cells -> no_escaped_amp c) ->
  map strip (tex_columns false [] (join (lit " & ") (map cell_tex cells) ++ [32%N])) = map (fun c => strip (cell_tex c)) cells.
Proof.
  intros N H. assert (S1 : forall x, strip (x ++ [32%N]) = strip x).
  { intros x. destruct (strip_p_decomp is_space x) as (p & q & E & Hp & Hq & Hs). unfold strip. rewrite E at 1. rewrite <- !app_assoc. apply strip_p_unique; auto. rewrite forallb_app, Hq. reflexivity. }
  assert (S2 : forall x, strip (32%N :: x) = strip x) by (intros x; unfold strip, strip_p; reflexivity).
  assert (X : forall cells pre, cells <> [] -> (forall c, In c cells -> no_escaped_amp c) -> pre = [] \/ pre = [32%N] ->
    map strip (tex_columns false pre (join (lit " & ") (map cell_tex cells) ++ [32%N])) = map (fun c => strip (cell_tex c)) cells).
  { clear N H cells. induction cells as [|c cells IH]; intros pre N H Hp; [congruence|].
    assert (Hc : no_escaped_amp c) by (apply H; now left). destruct cells as [|c2 cells].
    - cbn [map join]. rewrite cell_tex_run by (auto; discriminate). cbn [tex_columns map]. f_equal. destruct Hp as [-> | ->]; cbn [app]; rewrite ?S2; apply S1.
    - change (map cell_tex (c :: c2 :: cells)) with (cell_tex c :: map cell_tex (c2 :: cells)). rewrite join_cons by (cbn; discriminate). rewrite <- !app_assoc.
      change (lit " & " ++ ?r) with (32%N :: 38%N :: 32%N :: r). cbn [app]. rewrite cell_tex_run by (auto; discriminate). cbn [tex_columns]. change (N.eqb 38 38 && negb false) with true. change (N.eqb 32 38 && negb false) with false. change (N.eqb 32 92 && negb false) with false. cbv iota.
      cbn [map]. f_equal; [destruct Hp as [-> | ->]; cbn [app]; rewrite ?S2; apply S1|]. cbn [app]. apply IH; [discriminate|intros; apply H; now right|now right]. }
  apply X; auto.
Qed.
(** Found: an ampersand that is escaped already gives a further column. *)
Theorem C45_tex_refuted : ~ forall cells, cells <> [] -> length (tex_columns false [] (join (lit " & ") (map cell_tex cells) ++ [32%N])) = length cells.
Proof. intros H. specialize (H [lit "A \& B"; lit "C"] ltac:(discriminate)). vm_compute in H. discriminate H. Qed.

(** The text of a table in tex *)
Example C45_ex : load comma false (lit "h 1, h 2" ++ 10%N :: lit "a & b, 2" ++ 10%N :: 34%N :: lit "3,4" ++ 34%N :: lit ",") = Ok [(Named (lit "h 1"), [lit "a & b"; lit "3,4"]); (Named (lit "h 2"), [lit "2"; []])] /\
  row_tex [lit "a & b"; lit "2"] = lit "a \& b & 2 \\" ++ [10%N] /\ no_escaped_amp (lit "a & b").
Proof.
  split; [vm_compute; reflexivity|]. split; [vm_compute; reflexivity|]. intros a b E. assert (I : In 92%N (lit "a & b")) by (rewrite E; apply in_or_app; right; now left).
  vm_compute in I. repeat (destruct I as [I|I]; [discriminate I|]). contradiction.
Qed.

(** The lines of a table in tex: the rules, the headers and the rows *)
Lemma cell_tex_nl c : ~ In 10%N c -> ~ In 10%N (cell_tex c).
Proof. intros H C. apply in_flat_map in C. destruct C as (x & Hx & C). destruct (N.eqb x 38); [destruct C as [C|[C|[]]]; discriminate|]. destruct C as [->|[]]. auto. Qed.
Definition tex_line (cells : list str) : str := join (lit " & ") (map cell_tex cells) ++ lit " \\".
Lemma tex_line_nl cells : (forall c, In c cells -> ~ In 10%N c) -> ~ In 10%N (tex_line cells).
Proof.
  intros H C. unfold tex_line in C. apply in_app_or in C. destruct C as [C|C]; [|vm_compute in C; repeat (destruct C as [C|C]; [discriminate C|]); contradiction].
  induction cells as [|c cells IH]; [contradiction|]. destruct cells as [|c2 cells].
  - cbn [map join] in C. apply (cell_tex_nl c); auto. apply H. now left.
  - change (map cell_tex (c :: c2 :: cells)) with (cell_tex c :: map cell_tex (c2 :: cells)) in C. rewrite join_cons in C by (cbn; discriminate).
    apply in_app_or in C. destruct C as [C|C]; [apply (cell_tex_nl c); auto; apply H; now left|].
    apply in_app_or in C. destruct C as [C|C]; [vm_compute in C; repeat (destruct C as [C|C]; [discriminate C|]); contradiction|]. apply IH; auto. intros; apply H; now right.
Qed.
Theorem C45_tex_lines h rows : (forall r c, In r (h :: rows) -> In c r -> ~ In 10%N c) ->
  split_c 10%N (tex_table (Some h) rows) = [lit "\toprule"; tex_line h; lit "\midrule"] ++ map tex_line rows ++ [lit "\bottomrule"] /\
  split_c 10%N (tex_table None rows) = [lit "\toprule"] ++ map tex_line rows ++ [lit "\bottomrule"].
Proof.
  intros H. assert (E : forall ls, ls <> [] -> (forall l, In l ls -> ~ In 10%N l) -> split_c 10%N (join [10%N] ls) = ls) by (intros; now apply split_c_join).
  assert (F : forall rows, flat_map row_tex rows ++ lit "\bottomrule" = join [10%N] (map tex_line rows ++ [lit "\bottomrule"])).
  { induction rows0 as [|r rs IH]; [reflexivity|]. cbn [flat_map map app]. rewrite join_cons by (destruct rs; discriminate). rewrite <- IH. unfold row_tex at 1, tex_line. rewrite <- !app_assoc. reflexivity. }
  assert (P : forall l, In l (map tex_line rows ++ [lit "\bottomrule"]) -> ~ In 10%N l).
  { intros l Hl. apply in_app_or in Hl. destruct Hl as [Hl|[<-|[]]].
    - apply in_map_iff in Hl. destruct Hl as (r & <- & Hr). apply tex_line_nl. intros c Hc. apply (H r c); auto. now right.
    - intros C. vm_compute in C. repeat (destruct C as [C|C]; [discriminate C|]). contradiction. }
  assert (K : forall x, In x [lit "\toprule"; lit "\midrule"] -> ~ In 10%N x).
  { intros x [<-|[<-|[]]] C; vm_compute in C; repeat (destruct C as [C|C]; [discriminate C|]); contradiction. }
  unfold tex_table. rewrite F. split.
  - rewrite <- (E ([lit "\toprule"; tex_line h; lit "\midrule"] ++ map tex_line rows ++ [lit "\bottomrule"])).
    + f_equal. cbn [app]. rewrite !join_cons by (try discriminate; destruct rows; discriminate). unfold row_tex, tex_line. rewrite <- !app_assoc. reflexivity.
    + discriminate.
    + intros l Hl. cbn [app] in Hl. destruct Hl as [<-|[<-|[<-|Hl]]]; [apply K; now left|apply tex_line_nl; intros c Hc; apply (H h c); auto; now left|apply K; right; now left|auto].
  - rewrite <- (E ([lit "\toprule"] ++ map tex_line rows ++ [lit "\bottomrule"])).
    + f_equal. cbn [app]. rewrite join_cons by (destruct rows; discriminate). reflexivity.
    + discriminate.
    + intros l Hl. cbn [app] in Hl. destruct Hl as [<-|Hl]; [apply K; now left|auto].
Qed.
(** There is a column type for each column. *)
Theorem C45_types t : length (col_types t) = length (headers t) /\ forall c, In c (col_types t) -> c = 108%N.
Proof. unfold col_types, headers, keys. rewrite repeat_length, map_length. split; auto. intros c Hc. now apply repeat_spec in Hc. Qed.

(** every row of the body has one cell for each column letter *)
Theorem C45_row_cells t row : In row (data_rows t) -> length row = length (col_types t).
Proof.
  unfold data_rows, col_types. rewrite repeat_length, <- (map_length snd t).
  generalize (map snd t); intros rs. unfold transpose. destruct rs as [|r0 rs0]; [intros []|].
  generalize (length r0); intros n. generalize (r0 :: rs0); clear r0 rs0.
  induction n as [|n IH]; simpl; intros rs; [intros []|].
  destruct (existsb _ rs) eqn:He; [intros []|]. intros [<-|H].
  - clear IH. induction rs as [|[|x r] rs IHr]; simpl in *; try reflexivity; try discriminate. now rewrite IHr.
  - apply IH in H. now rewrite map_length in H.
Qed.
Example C45_row_cells_ex : let t := [(Named (lit "a"), [lit "1"; lit "2"]); (Named (lit "b"), [lit "3"; lit "4"])] in In [lit "2"; lit "4"] (data_rows t) /\ length (col_types t) = 2.
Proof. split; [right; now left|reflexivity]. Qed.

(** The text of a cell is kept: only backslashes are added. *)
Theorem C45_tex_cell c : unescaped (cell_tex c) = c.
Proof.
  induction c as [|x c IH]; [reflexivity|]. cbn [cell_tex flat_map]. fold (cell_tex c). destruct (N.eqb_spec x 38) as [->|N]; cbn [app].
  - assert (E : unescaped (38%N :: cell_tex c) = 38%N :: unescaped (cell_tex c)) by (cbn [unescaped]; destruct (cell_tex c) as [|y r]; reflexivity).
    transitivity (unescaped (38%N :: cell_tex c)); [reflexivity|]. now rewrite E, IH.
  - cbn [unescaped]. destruct (cell_tex c) as [|y r] eqn:E; [cbn in IH; congruence|]. assert (Y : y <> 38%N).
    { destruct c as [|z c]; [discriminate|]. cbn [cell_tex flat_map] in E. destruct (N.eqb_spec z 38); cbn [app] in E; injection E as <- _; [discriminate|auto]. }
    rewrite (proj2 (N.eqb_neq y 38) Y), andb_false_r. now rewrite IH.
Qed.
