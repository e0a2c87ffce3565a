(* Csv_props.v -- C69 *)
From Verif Require Import Base PyText PyFmt Csv_model Csv_spec Csv_proofs.

(** C69.  Missing: fields beginning with a quotation mark, with NUL, or longer
    than the limit of the csv module; the empty row and the row of one empty field. *)
Theorem C69_rows_partial rows : Forall (fun row => row <> [] /\ row <> [[]] /\ Forall text_field row) rows ->
  load_file (mksource (file_lines (flat_map line_of rows)) None) = (rows, Ok tt).
Proof. exact (load_text rows). Qed.
Print Assumptions C69_rows_partial.
(** lines written with quoted cells, then the end of the source *)
Theorem C69_cells ls rows f : Forall2 row_line ls rows ->
  load_file (mksource ls f) = (rows, match f with Some e => Raise e | None => Ok tt end).
Proof. exact (load_rows ls rows f). Qed.
Print Assumptions C69_cells.
Theorem C69_quotes_refuted : ~ forall rows, Forall (fun row => row <> [] /\ row <> [[]] /\ Forall claim_field row) rows ->
  fst (load_file (mksource (map line_of rows) None)) = rows.
Proof. exact quotes_lost. Qed.
Print Assumptions C69_quotes_refuted.

Example C69_case : load_file (mksource (file_lines (flat_map line_of [[u "1"; u "eng"; u "He said ""hi""."]; [u "2"; []; u "x"]; [[]; []]])) None) =
  ([[u "1"; u "eng"; u "He said ""hi""."]; [u "2"; []; u "x"]; [[]; []]], Ok tt).
Proof. vm_compute; reflexivity. Qed.
Example C69_quoted_case : row_line (u """a""""b"" c" ++ [9] ++ u "d" ++ [13; 10]) [u "a""b c"; u "d"].
Proof.
  apply (Row_line [u """a""""b"" c"; u "d"] [u "a""b c"; u "d"] [13; 10]); [|discriminate|discriminate|].
  - constructor; [|constructor; [|constructor]].
    + apply (Cell_quoted (u "a""b") (u " c")); [repeat constructor; discriminate|repeat constructor; discriminate|discriminate|vm_compute; discriminate].
    + apply Cell_plain; [repeat constructor; discriminate|discriminate|vm_compute; discriminate].
  - constructor; [right; reflexivity|constructor; [left; reflexivity|constructor]].
Qed.
Example C69_swallow : load_file (mksource (map line_of [[u "1"; u """a"; u "x"]; [u "2"; u "b"; u "y"]]) None) =
  ([[u "1"; u "a" ++ [9] ++ u "x" ++ [10] ++ u "2" ++ [9] ++ u "b" ++ [9] ++ u "y" ++ [10]]], Ok tt).
Proof. exact rows_swallowed. Qed.
