From Coq Require Import Bool Arith List String Ascii Lia.
From Verif Require Import Model.Prelude Model.LatexTable Spec.LatexTable.
Import ListNotations.
Open Scope nat_scope.
Open Scope list_scope.

Lemma split_none x l : ~ In x l -> split x l = [l].
Proof.
  induction l as [|c l IH]; intros H; [reflexivity|]. cbn [split].
  destruct (Ascii.eqb_spec c x) as [->|ne]; [exfalso; apply H; now left|].
  rewrite IH; [reflexivity|]. intros I; apply H; now right.
Qed.
Lemma split_app x a b : ~ In x a -> split x (a ++ x :: b) = a :: split x b.
Proof.
  induction a as [|c a IH]; intros H; cbn [app split].
  - now rewrite Ascii.eqb_refl.
  - destruct (Ascii.eqb_spec c x) as [->|ne]; [exfalso; apply H; now left|].
    rewrite IH; [reflexivity|]. intros I; apply H; now right.
Qed.
Lemma split_join x l : l <> [] -> (forall a, In a l -> ~ In x a) -> split x (join x l) = l.
Proof.
  induction l as [|a l IH]; intros NE H; [easy|].
  destruct l as [|b l]; [apply split_none, H; now left|].
  change (join x (a :: b :: l)) with (a ++ x :: join x (b :: l)).
  rewrite split_app; [|apply H; now left]. f_equal. apply IH; [easy|]. intros c I. apply H. now right.
Qed.
Lemma split_lines x ls : (forall a, In a ls -> ~ In x a) ->
  split x (List.concat (map (fun a => a ++ [x]) ls)) = ls ++ [[]].
Proof.
  induction ls as [|a ls IH]; intros H; [reflexivity|]. cbn [map List.concat app].
  rewrite <- app_assoc. cbn [app]. rewrite split_app; [|apply H; now left]. f_equal. apply IH. intros b I. apply H. now right.
Qed.

Lemma in_escape c d : In c (escape d) -> c = "\"%char \/ In c d.
Proof.
  induction d as [|e d IH]; cbn [escape]; [easy|].
  destruct (Ascii.eqb_spec e "%") as [->|ne].
  - intros [<-|[<-|I]]; [now left|right; now left|]. destruct (IH I); [now left|right; now right].
  - intros [<-|I]; [right; now left|]. destruct (IH I); [now left|right; now right].
Qed.
Lemma in_unscore c d : In c (unscore d) <-> In c d /\ c <> "_"%char.
Proof.
  induction d as [|e d IH]; cbn [unscore In]; [tauto|].
  destruct (Ascii.eqb_spec e "_") as [->|ne].
  - rewrite IH. split; [tauto|]. intros [[<-|I] N]; [easy|tauto].
  - cbn [In]. rewrite IH. split; [|tauto]. intros [<-|I]; tauto.
Qed.
Lemma index_of_none x d : index_of x d = None <-> ~ In x d.
Proof.
  induction d as [|c d IH]; cbn [index_of In]; [tauto|].
  destruct (Ascii.eqb_spec c x) as [->|ne]; [split; [easy|]; intros H; exfalso; apply H; now left|].
  destruct (index_of x d); cbn [option_map].
  - split; [easy|]. intros H. exfalso. assert (Hn : ~ In x d) by tauto. apply IH in Hn. discriminate.
  - assert (Hn : ~ In x d) by now apply IH. tauto.
Qed.
Lemma index_of_app x a b : ~ In x a -> index_of x (a ++ x :: b) = Some (List.length a).
Proof.
  induction a as [|c a IH]; intros H; cbn [app index_of List.length].
  - now rewrite Ascii.eqb_refl.
  - destruct (Ascii.eqb_spec c x) as [->|ne]; [exfalso; apply H; now left|].
    rewrite IH; [reflexivity|]. intros I; apply H; now right.
Qed.
Lemma remove_paren_app a b : ~ In "("%char a -> remove_paren (a ++ "("%char :: b) = a.
Proof.
  intros H. unfold remove_paren. rewrite index_of_app by assumption.
  rewrite firstn_app, Nat.sub_diag, firstn_all. cbn [firstn]. apply app_nil_r.
Qed.
Lemma remove_paren_id d : ~ In "("%char d -> remove_paren d = d.
Proof. intros H. unfold remove_paren. apply index_of_none in H. now rewrite H. Qed.
Lemma split_first x (d : text) : In x d -> exists a b, d = a ++ x :: b /\ ~ In x a.
Proof.
  induction d as [|c d IH]; [easy|]. intros H.
  destruct (Ascii.eqb_spec c x) as [->|ne]; [exists [], d; now split|].
  destruct H as [->|H]; [easy|]. destruct (IH H) as (a & b & -> & N). exists (c :: a), b. split; [reflexivity|].
  intros [E|I]; [easy|tauto].
Qed.
Lemma escape_app a b : escape (a ++ b) = escape a ++ escape b.
Proof. induction a as [|c a IH]; [reflexivity|]. cbn [app escape]. rewrite IH. now destruct (Ascii.eqb c "%"). Qed.
Lemma unscore_app a b : unscore (a ++ b) = unscore a ++ unscore b.
Proof. induction a as [|c a IH]; [reflexivity|]. cbn [app unscore]. rewrite IH. now destruct (Ascii.eqb c "_"). Qed.
Lemma no_paren a : ~ In "("%char a -> ~ In "("%char (unscore (escape a)).
Proof. intros H I. apply in_unscore in I. destruct I as [I _]. apply in_escape in I. destruct I; [discriminate|tauto]. Qed.

(** the text of a cell: that of the part before its first parenthesis *)
Lemma cell_cut a b : ~ In "("%char a -> cell_text (a ++ "("%char :: b) = unscore (escape a).
Proof.
  intros H. unfold cell_text. rewrite escape_app, unscore_app. cbn [escape unscore]. cbn.
  apply (remove_paren_app _ (unscore (escape b))). now apply no_paren.
Qed.
Lemma cell_whole a : ~ In "("%char a -> cell_text a = unscore (escape a).
Proof. intros H. unfold cell_text. now apply remove_paren_id, no_paren. Qed.
Lemma cell_form d : exists a, cell_text d = unscore (escape a) /\ ~ In "("%char a /\ exists b, d = a ++ b.
Proof.
  destruct (in_dec ascii_dec "("%char d) as [I|N].
  - destruct (split_first _ _ I) as (a & b & -> & N). exists a. split; [now apply cell_cut|]. split; [assumption|]. now eexists.
  - exists d. split; [now apply cell_whole|]. split; [assumption|]. exists []. now rewrite app_nil_r.
Qed.

Lemma unescape_clean a : unescaped (unscore (escape a)) = filter (fun c => negb (Ascii.eqb c "_")) a.
Proof.
  assert (Hd : forall a0, match unscore (escape a0) with d :: _ => Ascii.eqb d "%" = false | [] => True end).
  { induction a0 as [|c a0 IH]; [exact I|]. cbn [escape].
    destruct (Ascii.eqb_spec c "%") as [->|ne]; [reflexivity|]. cbn [unscore].
    destruct (Ascii.eqb_spec c "_"); [exact IH|]. now apply Ascii.eqb_neq. }
  induction a as [|c a IH]; [reflexivity|]. cbn [escape filter].
  destruct (Ascii.eqb_spec c "%") as [->|ne].
  - cbn [unscore]. change (Ascii.eqb "\" "_") with false. change (Ascii.eqb "%" "_") with false. cbn iota.
    cbn [negb]. cbn [unescaped]. change (Ascii.eqb "\" "\" && Ascii.eqb "%" "%") with true. cbn iota.
    rewrite <- IH. destruct (unscore (escape a)); [reflexivity|]. reflexivity.
  - cbn [unscore]. destruct (Ascii.eqb_spec c "_") as [->|nu]; [exact IH|]. cbn [negb].
    specialize (Hd a). rewrite <- IH. cbn [unescaped].
    destruct (unscore (escape a)) as [|d l]; [reflexivity|]. now rewrite Hd, andb_false_r.
Qed.

Lemma clean_percents a : percents_escaped (unscore (escape a)).
Proof.
  induction a as [|c a IH].
  - intros p q E. destruct p; discriminate.
  - assert (Hskip : forall x l, x <> "%"%char -> percents_escaped l -> percents_escaped (x :: l)).
    { intros x l nx Hl p q E. destruct p as [|y p]; [injection E; congruence|]. injection E as -> E.
      destruct (Hl _ _ E) as [p' ->]. now exists (y :: p'). }
    cbn [escape]. destruct (Ascii.eqb_spec c "%") as [->|ne].
    + cbn [unscore]. change (Ascii.eqb "\" "_") with false. change (Ascii.eqb "%" "_") with false. cbn iota.
      intros p q E. destruct p as [|y p]; [discriminate|]. injection E as <- E.
      destruct p as [|z p]; [now exists []|]. injection E as <- E.
      destruct (IH _ _ E) as [p' ->]. now exists ("\"%char :: "%"%char :: p').
    + cbn [unscore]. destruct (Ascii.eqb_spec c "_"); [exact IH|]. now apply Hskip.
Qed.

(** the file as lines *)
Definition pre_lines : list text :=
  map t ["\documentclass{article}"; "\usepackage{lscape}"; "\usepackage{array}"; "\lccode`0=`0"; "\lccode`1=`1";
    "\lccode`2=`2"; "\lccode`3=`3"; "\lccode`4=`4"; "\lccode`5=`5"; "\lccode`6=`6"; "\lccode`7=`7"; "\lccode`8=`8";
    "\lccode`9=`9"; "\newcolumntype{P}[1]{>{\hspace{0pt}}p{#1}}"; "\begin{document}"; "\scriptsize";
    "\renewcommand{\arraystretch}{1.5}"; "\sloppy"]%string.
Definition head_lines width (cols : list text) : list text :=
  let p := width (List.length cols) in
  [ t "\begin{tabular}{|P{" ++ p ++ t "\textwidth}|"
      ++ List.concat (repeat (t "P{" ++ p ++ t "\textwidth}|") (List.length cols)) ++ t "}";
    t "\hline"; t " & " ++ join "&" cols ++ t "\\"; t "\hline" ].
Definition row_line (r : text) (cells : list text) : text := (r ++ "&"%char :: join "&" cells) ++ t "\\".
Definition end_lines : list text := map t ["\hline"; "\end{tabular}"; "\end{document}"]%string.
Definition addnl (a : text) : text := a ++ [nl].

Lemma pre_concat : List.concat preamble = List.concat (map addnl pre_lines).
Proof. reflexivity. Qed.
Lemma head_map width cols : header width cols = map addnl (head_lines width cols).
Proof.
  unfold header, head_lines, addnl. cbn [map]. cbv zeta.
  rewrite <- !app_assoc. reflexivity.
Qed.
Lemma row_map r cells : row_text r cells = addnl (row_line r cells).
Proof. unfold row_text, row_line, addnl. rewrite <- !app_assoc. reflexivity. Qed.
Lemma end_map : closing = map addnl end_lines.
Proof. reflexivity. Qed.

Lemma write_rows_ok rows : forall done data rest, List.length data = List.length rows ->
  write_rows (List.length done) rows (done ++ data ++ rest) =
  (map (fun rc => addnl (row_line (fst rc) (snd rc))) (combine rows data), Ok tt).
Proof.
  induction rows as [|r rows IH]; intros done data rest H; [reflexivity|].
  destruct data as [|d data]; [discriminate|]. cbn [write_rows combine map].
  rewrite nth_error_app2 by lia. rewrite Nat.sub_diag. cbn [app nth_error].
  specialize (IH (done ++ [d]) data rest ltac:(cbn in H; lia)).
  rewrite app_length in IH. cbn [List.length] in IH. rewrite Nat.add_1_r, <- app_assoc in IH. cbn [app] in IH.
  rewrite IH. cbn [fst snd]. now rewrite row_map.
Qed.
Lemma write_rows_short rows : forall done data, List.length data < List.length rows ->
  write_rows (List.length done) rows (done ++ data) =
  (map (fun rc => addnl (row_line (fst rc) (snd rc))) (combine rows data), Err IndexError).
Proof.
  induction rows as [|r rows IH]; intros done data H; [cbn in H; lia|].
  cbn [write_rows]. destruct data as [|d data].
  - rewrite app_nil_r. rewrite (proj2 (nth_error_None done (List.length done))) by lia. reflexivity.
  - rewrite nth_error_app2 by lia. rewrite Nat.sub_diag. cbn [nth_error combine map].
    specialize (IH (done ++ [d]) data ltac:(cbn in H; lia)).
    rewrite app_length in IH. cbn [List.length] in IH. rewrite Nat.add_1_r, <- app_assoc in IH. cbn [app] in IH.
    rewrite IH. cbn [fst snd]. now rewrite row_map.
Qed.

Definition row_lines (rows : list text) (data : list (list text)) : list text :=
  map (fun rc => row_line (fst rc) (map cell_text (snd rc))) (combine rows data).
Lemma combine_clean rows (data : list (list text)) :
  map (fun rc => addnl (row_line (fst rc) (snd rc))) (combine rows (map (map cell_text) data)) =
  map addnl (row_lines rows data).
Proof.
  unfold row_lines. rewrite map_map. revert data. induction rows as [|r rows IH]; intros [|d data]; cbn; [easy..|]. f_equal. apply IH.
Qed.

Lemma export_ok width rows cols data : List.length rows <= List.length data ->
  export_table width rows cols data =
  (List.concat (map addnl (pre_lines ++ head_lines width cols ++ row_lines rows data ++ end_lines)), Ok tt).
Proof.
  intros H. unfold export_table. cbv zeta.
  assert (E : map (map cell_text) data =
    [] ++ map (map cell_text) (firstn (List.length rows) data) ++ map (map cell_text) (skipn (List.length rows) data)).
  { cbn [app]. now rewrite <- map_app, firstn_skipn. }
  rewrite E. change 0 with (List.length (@nil (list text))) at 1. rewrite write_rows_ok.
  2:{ rewrite map_length, firstn_length. lia. }
  assert (E2 : row_lines rows (firstn (List.length rows) data) = row_lines rows data).
  { unfold row_lines. f_equal. clear. revert data. induction rows as [|r rows IH]; intros [|d data]; cbn; [easy..|]. f_equal. apply IH. }
  rewrite combine_clean, E2. now rewrite !concat_app, pre_concat, head_map, end_map, !map_app, !concat_app.
Qed.
Lemma export_short width rows cols data : List.length data < List.length rows ->
  export_table width rows cols data =
  (List.concat (map addnl (pre_lines ++ head_lines width cols ++ row_lines rows data)), Err IndexError).
Proof.
  intros H. unfold export_table. cbv zeta.
  change 0 with (List.length (@nil (list text))) at 1.
  change (map (map cell_text) data) with ([] ++ map (map cell_text) data).
  rewrite write_rows_short by now rewrite map_length.
  rewrite combine_clean. rewrite !concat_app, pre_concat, head_map, !map_app, !concat_app. cbn [List.concat].
  now rewrite app_nil_r.
Qed.

Lemma in_concat_repeat (c : ascii) a n : In c (List.concat (repeat a n)) -> In c a.
Proof. induction n as [|n IH]; cbn [repeat List.concat]; [easy|]. rewrite in_app_iff. tauto. Qed.
Lemma in_join c x l : In c (join x l) -> c = x \/ exists a, In a l /\ In c a.
Proof.
  induction l as [|a l IH]; [easy|]. destruct l as [|b l].
  - cbn [join]. intros I. right. exists a. split; [now left|assumption].
  - change (join x (a :: b :: l)) with (a ++ x :: join x (b :: l)). rewrite in_app_iff. intros [I|[<-|I]].
    + right. exists a. split; [now left|assumption].
    + now left.
    + destruct (IH I) as [->|(d & Id & Ic)]; [now left|]. right. exists d. split; [now right|assumption].
Qed.
Lemma in_cell c d : In c (cell_text d) -> c = "\"%char \/ In c d.
Proof.
  destruct (cell_form d) as (a & -> & _ & b & ->). intros I. apply in_unscore in I. destruct I as [I _].
  apply in_escape in I. rewrite in_app_iff. tauto.
Qed.
Lemma literal_nl (s : string) : existsb (Ascii.eqb nl) (t s) = false -> ~ In nl (t s).
Proof.
  intros H I. assert (E : existsb (Ascii.eqb nl) (t s) = true).
  { apply existsb_exists. exists nl. split; [assumption|apply Ascii.eqb_refl]. }
  congruence.
Qed.
