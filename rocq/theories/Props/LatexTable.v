(** C130: tables exported in latex. *)
From Coq Require Import Bool Arith List String Ascii Lia.
From Verif Require Import Model.Prelude Model.LatexTable Spec.LatexTable Proofs.LatexTable.
Import ListNotations.
Open Scope nat_scope.
Open Scope list_scope.

(** C130: a cell shows the part of the given text before its first parenthesis, without underscores, and nothing else: this
    is what one reads once the escapes of percents are dropped *)
Theorem C130_cell before after :
  ~ In "("%char before ->
  unescaped (cell_text (before ++ "("%char :: after)) = filter (fun c => negb (Ascii.eqb c "_")) before /\
  unescaped (cell_text before) = filter (fun c => negb (Ascii.eqb c "_")) before.
Proof. intros H. rewrite cell_cut, cell_whole by assumption. split; apply unescape_clean. Qed.
Print Assumptions C130_cell.

(** C130: no cell contains a parenthesis opening or an underscore, and each percent has a backslash before it *)
Theorem C130_safe d :
  ~ In "("%char (cell_text d) /\ ~ In "_"%char (cell_text d) /\ percents_escaped (cell_text d).
Proof.
  destruct (cell_form d) as (a & -> & N & _). split; [now apply no_paren|]. split.
  - intros I. apply in_unscore in I. now destruct I.
  - apply clean_percents.
Qed.
Print Assumptions C130_safe.

(** C130: with as many rows of data as names of rows, and no line break in the names and cells, the file has one line per row
    between 22 lines of header and 3 lines of closing, and ends with a line break *)
Lemma lines_ok width rows cols data :
  ~ In nl (width (List.length cols)) ->
  (forall a, In a cols -> ~ In nl a) -> (forall a, In a rows -> ~ In nl a) ->
  (forall cs a, In cs data -> In a cs -> ~ In nl a) ->
  forall l, In l (pre_lines ++ head_lines width cols ++ row_lines rows data ++ end_lines) -> ~ In nl l.
Proof.
  intros Hw Hc Hr Hd l I. rewrite !in_app_iff in I. destruct I as [I|[I|[I|I]]].
  - unfold pre_lines in I. apply in_map_iff in I. destruct I as (s & <- & I). apply literal_nl.
    cbn [In] in I. repeat (destruct I as [<-|I]; [reflexivity|]). destruct I.
  - unfold head_lines in I. cbn [In] in I. destruct I as [<-|[<-|[<-|[<-|[]]]]].
    + rewrite !in_app_iff. intros [J|[J|[J|[J|J]]]]; try (revert J; now apply literal_nl); [now apply Hw in J|].
      apply in_concat_repeat in J. rewrite !in_app_iff in J.
      destruct J as [J|[J|J]]; try (revert J; now apply literal_nl). now apply Hw in J.
    + now apply literal_nl.
    + rewrite !in_app_iff. intros [J|[J|J]]; try (revert J; now apply literal_nl).
      apply in_join in J. destruct J as [J|(a & Ia & J)]; [discriminate|]. now apply (Hc a Ia).
    + now apply literal_nl.
  - unfold row_lines in I. apply in_map_iff in I. destruct I as ([r cs] & <- & I). cbn [fst snd]. unfold row_line.
    rewrite !in_app_iff. intros [[J|[J|J]]|J]; [|discriminate| |revert J; now apply literal_nl].
    + apply in_combine_l in I. now apply (Hr r I).
    + apply in_join in J. destruct J as [J|(a & Ia & J)]; [discriminate|].
      apply in_map_iff in Ia. destruct Ia as (a0 & <- & Ia). apply in_cell in J. destruct J as [J|J]; [discriminate|].
      apply in_combine_r in I. now apply (Hd cs a0 I Ia).
  - unfold end_lines in I. apply in_map_iff in I. destruct I as (s & <- & I). apply literal_nl.
    cbn [In] in I. repeat (destruct I as [<-|I]; [reflexivity|]). destruct I.
Qed.

Theorem C130_rows width rows cols data :
  List.length rows <= List.length data ->
  ~ In nl (width (List.length cols)) ->
  (forall a, In a cols -> ~ In nl a /\ ~ In "&"%char a) -> (forall a, In a rows -> ~ In nl a /\ ~ In "&"%char a) ->
  (forall cs a, In cs data -> In a cs -> ~ In nl a /\ ~ In "&"%char a) ->
  exists file, export_table width rows cols data = (file, Ok tt) /\
  List.length (split nl file) = 22 + List.length rows + 4 /\
  (cols <> [] -> exists line first, nth_error (split nl file) 20 = Some (line ++ ["\"; "\"]%char) /\
     nth_error cols 0 = Some first /\ split "&" line = [" "%char] :: (" "%char :: first) :: skipn 1 cols) /\
  forall i name cells, nth_error rows i = Some name -> nth_error data i = Some cells -> cells <> [] ->
    exists line, nth_error (split nl file) (22 + i) = Some (line ++ ["\"; "\"]%char) /\
      split "&" line = name :: map cell_text cells.
Proof.
  intros Hl Hw Hc Hr Hd. eexists. split; [now apply export_ok|].
  rewrite split_lines.
  2:{ apply (lines_ok width rows cols data); [assumption| | |].
      - intros a I; now apply Hc. - intros a I; now apply Hr. - intros cs a I J; now apply (Hd cs a). }
  split; [|split].
  - rewrite !app_length. unfold row_lines. rewrite map_length, combine_length. unfold text. rewrite Nat.min_l by exact Hl.
    change (List.length pre_lines) with 18. change (List.length (head_lines width cols)) with 4.
    change (List.length end_lines) with 3. cbn [List.length]. lia.
  - intros NE. destruct cols as [|c cols]; [easy|]. exists (t " & " ++ join "&" (c :: cols)), c.
    split; [|split; [reflexivity|]].
    + rewrite <- !app_assoc. rewrite nth_error_app2 by (cbn; lia). reflexivity.
    + change (t " & ") with ([" "; "&"; " "]%char). cbn [app].
      change (" "%char :: "&"%char :: " "%char :: join "&" (c :: cols)) with ([" "%char] ++ "&"%char :: (" "%char :: join "&" (c :: cols))).
      rewrite split_app by (cbn; intros [H|[]]; discriminate). f_equal. cbn [skipn split].
      change (Ascii.eqb " " "&") with false. cbn iota.
      rewrite split_join; [reflexivity|easy|]. intros a I; now apply Hc.
  - intros i name cells Hn Hdat NE. exists (name ++ "&"%char :: join "&" (map cell_text cells)). split.
    + rewrite <- !app_assoc. rewrite nth_error_app2 by (cbn; lia).
      rewrite nth_error_app2 by (cbn; lia).
      replace (22 + i - List.length pre_lines - List.length (head_lines width cols)) with i by (cbn; lia).
      rewrite nth_error_app1.
      2:{ unfold row_lines. rewrite map_length, combine_length. unfold text. rewrite Nat.min_l by exact Hl. apply nth_error_Some. congruence. }
      unfold row_lines. rewrite nth_error_map.
      assert (E : nth_error (combine rows data) i = Some (name, cells)).
      { clear -Hn Hdat. revert data i Hn Hdat. induction rows as [|r rows IH]; intros [|d data] [|i] Hn Hdat; cbn in *; try congruence.
        now apply IH. }
      unfold text in *. rewrite E. cbn [option_map fst snd]. unfold row_line. now rewrite <- !app_assoc.
    + rewrite split_app; [|apply Hr; now apply nth_error_In in Hn]. f_equal. apply split_join.
      * destruct cells; easy.
      * intros a I. apply in_map_iff in I. destruct I as (a0 & <- & I). intros J. apply in_cell in J.
        destruct J as [J|J]; [discriminate|]. apply nth_error_In in Hdat. now apply (Hd cells a0 Hdat I).
Qed.
Print Assumptions C130_rows.

(** C130: rows of data without a name are not exported *)
Theorem C130_extra width rows cols data more :
  List.length rows <= List.length data ->
  export_table width rows cols (data ++ more) = export_table width rows cols data.
Proof.
  intros H. rewrite !export_ok by (try rewrite app_length; lia).
  assert (E : row_lines rows (data ++ more) = row_lines rows data).
  { unfold row_lines. f_equal. revert data H. induction rows as [|r rows IH]; intros [|d data] H; cbn in *; try lia; try reflexivity.
    f_equal. apply IH. lia. }
  now rewrite E.
Qed.
Print Assumptions C130_extra.

(** C130: with a missing row of data the call raises IndexError, and leaves a truncated file: what the export of the rows which
    have data starts with *)
Theorem C130_missing width rows cols data :
  List.length data < List.length rows ->
  exists file rest,
    export_table width rows cols data = (file, Err IndexError) /\
    export_table width (firstn (List.length data) rows) cols data = (file ++ rest, Ok tt) /\
    rest = t "\hline" ++ [nl] ++ t "\end{tabular}" ++ [nl] ++ t "\end{document}" ++ [nl].
Proof.
  intros H. eexists. eexists. split; [now apply export_short|]. split; [|reflexivity].
  rewrite export_ok by (rewrite firstn_length; lia). f_equal.
  assert (E : row_lines (firstn (List.length data) rows) data = row_lines rows data).
  { unfold row_lines. f_equal. clear. revert rows. induction data as [|d data IH]; intros [|r rows]; cbn; try reflexivity. f_equal. apply IH. }
  rewrite E, !map_app, !concat_app, <- !app_assoc. reflexivity.
Qed.
Print Assumptions C130_missing.

(** C130: the table declares one column for the names and one for each of the columns: its declaration, at line 18, has one
    vertical bar more than that *)
Theorem C130_columns width rows cols data :
  ~ In "|"%char (width (List.length cols)) ->
  exists p decl q, fst (export_table width rows cols data) = p ++ decl ++ nl :: q /\
    (exists u, decl = t "\begin{tabular}{" ++ u ++ t "}") /\
    count_occ ascii_dec decl "|"%char = 1 + (1 + List.length cols).
Proof.
  intros H. exists (List.concat (map addnl pre_lines)).
  set (w := width (List.length cols)) in *.
  exists (t "\begin{tabular}{|P{" ++ w ++ t "\textwidth}|" ++ List.concat (repeat (t "P{" ++ w ++ t "\textwidth}|") (List.length cols)) ++ t "}").
  assert (E : exists q, fst (export_table width rows cols data) = List.concat (map addnl pre_lines) ++ addnl
    (t "\begin{tabular}{|P{" ++ w ++ t "\textwidth}|" ++ List.concat (repeat (t "P{" ++ w ++ t "\textwidth}|") (List.length cols)) ++ t "}") ++ q).
  { destruct (le_lt_dec (List.length rows) (List.length data)) as [L|L].
    - rewrite export_ok by assumption. cbn [fst]. rewrite map_app, concat_app. unfold head_lines. fold w. cbv zeta. cbn [app map].
      rewrite concat_cons. now eexists.
    - rewrite export_short by assumption. cbn [fst]. rewrite map_app, concat_app. unfold head_lines. fold w. cbv zeta. cbn [app map].
      rewrite concat_cons. now eexists. }
  destruct E as [q E]. exists q. split; [|split].
  - rewrite E. unfold addnl. rewrite <- !app_assoc. reflexivity.
  - exists (t "|P{" ++ w ++ t "\textwidth}|" ++ List.concat (repeat (t "P{" ++ w ++ t "\textwidth}|") (List.length cols))).
    rewrite <- !app_assoc. reflexivity.
  - rewrite !count_occ_app, (proj1 (count_occ_not_In ascii_dec w "|"%char) H).
    assert (C : forall n, count_occ ascii_dec (List.concat (repeat (t "P{" ++ w ++ t "\textwidth}|") n)) "|"%char = n).
    { induction n as [|n IH]; [reflexivity|]. cbn [repeat]. rewrite concat_cons, !count_occ_app, IH, (proj1 (count_occ_not_In ascii_dec w "|"%char) H).
      reflexivity. }
    rewrite C. change (count_occ ascii_dec (t "\begin{tabular}{|P{") "|"%char) with 1.
    change (count_occ ascii_dec (t "\textwidth}|") "|"%char) with 1. change (count_occ ascii_dec (t "}") "|"%char) with 0. lia.
Qed.
Print Assumptions C130_columns.

(** C130, refuted: two different optimizers may have the same text in the table *)
Theorem C130_distinct_refuted :
  t "DE(crossover=1)" <> t "DE(crossover=2)" /\ cell_text (t "DE(crossover=1)") = cell_text (t "DE(crossover=2)") /\
  t "a_b" <> t "ab" /\ cell_text (t "a_b") = cell_text (t "ab").
Proof. repeat split; try discriminate. Qed.
Print Assumptions C130_distinct_refuted.

(** C130, refuted: a percent after a backslash is escaped into a latex comment, which removes the end of the row; ampersands of
    cells are kept, and add columns *)
Theorem C130_escape_refuted :
  has_comment (t "\%") = false /\ has_comment (cell_text (t "\%")) = true /\
  cell_text (t "a&b") = t "a&b" /\
  forall width, exists file line, export_table width [t "r"] [t "c"] [[t "a&b"]] = (file, Ok tt) /\
    line ++ t "\\" = t "r&a&b\\" /\ List.length (split "&" line) = 3 /\
    exists p q, file = p ++ nl :: line ++ t "\\" ++ nl :: q.
Proof.
  do 3 (split; [reflexivity|]). intros width. eexists. exists (t "r&a&b"). split; [apply export_ok; cbn; lia|].
  split; [reflexivity|]. split; [reflexivity|].
  exists (List.concat (map addnl pre_lines) ++ List.concat (map addnl (firstn 3 (head_lines width [t "c"]))) ++ t "\hline"),
    (List.concat (map addnl end_lines)).
  rewrite !map_app, !concat_app, <- !app_assoc. f_equal.
  change (head_lines width [t "c"]) with (firstn 3 (head_lines width [t "c"]) ++ [t "\hline"]) at 1.
  rewrite map_app, concat_app, <- !app_assoc. reflexivity.
Qed.
Print Assumptions C130_escape_refuted.

(** C130, refuted: the names of rows and columns are not treated like the cells: their percents start comments *)
Theorem C130_names_refuted :
  forall width, exists file, export_table width [t "5%"] [t "c"] [[t "5%"]] = (file, Ok tt) /\
    exists p q, file = p ++ t "5%&5\%\\" ++ q.
Proof.
  intros width. eexists. split; [apply export_ok; cbn; lia|].
  exists (List.concat (map addnl pre_lines) ++ List.concat (map addnl (head_lines width [t "c"]))), (nl :: List.concat (map addnl end_lines)).
  rewrite !map_app, !concat_app, <- !app_assoc. reflexivity.
Qed.
Print Assumptions C130_names_refuted.

Example C130_example :
  cell_text (t "Two_Points(90%)") = t "TwoPoints" /\ cell_text (t "top_5%") = t "top5\%" /\
  exists file, export_table (fun _ => t "0.25") [t "10"; t "20"] [t "0.5"; t "1"]
      [[t "NG_Opt"; t "DE"]; [t "CMA(x)"; t "50%"]] = (file, Ok tt) /\
    nth_error (split nl file) 22 = Some (t "10&NGOpt&DE\\") /\ nth_error (split nl file) 23 = Some (t "20&CMA&50\%\\") /\
    nth_error (split nl file) 20 = Some (t " & 0.5&1\\").
Proof. split; [reflexivity|]. split; [reflexivity|]. eexists. split; [reflexivity|]. now repeat split. Qed.
