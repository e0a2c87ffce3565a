From Verif Require Import Base PyStr PyText PyFmt Maps_model Common_model Csv_model Tatoeba_model Kanjidic_model Radk_model Pinyin_model Rose Place_model Place_spec Files_model Files_spec Files_proofs.

(** C103: the lines of a text, however they end *)
Theorem C103_text c : exists ps, cut newline c ps /\ (forall ps', cut newline c ps' -> ps' = ps) /\ file_lines c = map fed ps.
Proof. exact (text_cut c). Qed.
Print Assumptions C103_text.
Theorem C103_codec c : exists ps, cut any_break c ps /\ (forall ps', cut any_break c ps' -> ps' = ps) /\ codec_lines c = map kept ps.
Proof. exact (codec_cut c). Qed.
Print Assumptions C103_codec.
(** the readers of whole lines see only the bodies *)
Theorem C103_kanjidic dv stdin content content' names : Forall ordinary names ->
  Forall (fun n => match content n, content' n with Some c, Some c' => same_lines c c' | None, None => True | _, _ => False end) names ->
  kanjidic_files dv content stdin names = kanjidic_files dv content' stdin names.
Proof. exact (kanjidic_same dv stdin content content' names). Qed.
Print Assumptions C103_kanjidic.
Theorem C103_readers dv stdin content content' name c c' h : content name = Some c -> content' name = Some c' -> same_lines c c' ->
  radk_path dv content name = radk_path dv content' name /\
  zhuyin_path content name = zhuyin_path content' name /\
  pinyin_path content name = pinyin_path content' name /\
  all_pinyin_path content name = all_pinyin_path content' name /\
  (ordinary name -> place_path dv content stdin h name = place_path dv content' stdin h name).
Proof. exact (readers_same dv stdin content content' name c c' h). Qed.
Print Assumptions C103_readers.
(** the csv reader also sees whether the last line has an end *)
Theorem C103_corpus stdin content content' name c c' : ordinary name -> content name = Some c -> content' name = Some c' -> same_fed c c' ->
  load_path content stdin name = load_path content' stdin name.
Proof. exact (load_same stdin content content' name c c'). Qed.
Print Assumptions C103_corpus.
(** the table of pinyin readings is cut at ten characters: a body never holds
    one of them, and two tables with the same bodies are the same *)
Theorem C103_table content content' name c c' ps ps' : content name = Some c -> content' name = Some c' ->
  cut any_break c ps -> cut any_break c' ps' -> map fst ps = map fst ps' ->
  table_path content name = load_table (map fst ps) [] /\ table_path content' name = table_path content name.
Proof. exact (table_same content content' name c c' ps ps'). Qed.
Print Assumptions C103_table.
(** which is the same as in text mode for texts without the eight others *)
Theorem C103_table_text content name c ps : content name = Some c -> Forall (fun x => ~ exotic x) c -> cut newline c ps ->
  table_path content name = load_table (map fst ps) [].
Proof. exact (table_text content name c ps). Qed.
Print Assumptions C103_table_text.
(** a dumped tree is read back, whatever the platform's line separator, and no
    other file changes *)
Theorem C103_place dv repr sep stdin h t fuel h0 disk name : ascii_digits dv -> line_separator sep -> ordinary name ->
  tree_at h t -> keyed h t -> (forall a, In a (nodes t) -> storable (at_ h a)) -> (rsize t < fuel)%nat ->
  exists disk' h' t', dump_path repr sep fuel h (root t) disk name = (disk', [], Ok tt) /\
    (forall n, n <> name -> dget n disk' = dget n disk) /\
    place_path dv (fun n => dget n disk') stdin h0 name = Ok (h', root t') /\
    tree_at h' t' /\ keyed h' t' /\ rosemap (details h') t' = rosemap (details h) t.
Proof. exact (place_round dv repr sep stdin h t fuel h0 disk name). Qed.
Print Assumptions C103_place.

(** a file that is not there *)
Theorem C103_missing dv stdin content h name : content name = None ->
  radk_path dv content name = Raise OSError /\ zhuyin_path content name = Raise OSError /\ pinyin_path content name = Raise OSError /\
  all_pinyin_path content name = Raise OSError /\ table_path content name = Raise OSError /\
  (name <> u "-" -> load_path content stdin name = ([], Raise OSError) /\ place_path dv content stdin h name = Raise OSError /\
     forall a b, Forall (fun n => n <> u "-") a -> Forall (fun n => content n <> None) a -> kanjidic_files dv content stdin (a ++ name :: b) = Raise OSError).
Proof. exact (readers_missing dv stdin content h name). Qed.
Print Assumptions C103_missing.
(** the standard output gets what a file would *)
Theorem C103_stdout repr sep fuel h t disk name : ordinary name -> tree_at h t -> (rsize t < fuel)%nat ->
  exists out, dump_path repr sep fuel h (root t) disk name = (dset name out disk, [], Ok tt) /\
              dump_path repr sep fuel h (root t) disk (u "-") = (disk, out, Ok tt).
Proof. exact (dump_stdout repr sep fuel h t disk name). Qed.
Print Assumptions C103_stdout.

(** C104: a compressed file of any contents is refused *)
Theorem C104_kanjidic_refuted dv stdin content names n c : In n names -> compressed n -> content n = Some c -> c <> [] ->
  (exists e, kanjidic_files dv content stdin names = Raise e) /\ kanjidic_files dv content stdin [n] = Raise TypeError.
Proof. exact (fun I C E N => conj (kanjidic_compressed dv stdin content names n c I C E N) (kanjidic_one dv stdin content n c C E N)). Qed.
Print Assumptions C104_kanjidic_refuted.
Theorem C104_corpus_refuted stdin content name c : compressed name -> content name = Some c -> c <> [] ->
  load_path content stdin name = ([], Raise CsvError).
Proof. exact (load_compressed content stdin name c). Qed.
Print Assumptions C104_corpus_refuted.
Theorem C104_place_refuted dv stdin content h name : compressed name -> exists e, place_path dv content stdin h name = Raise e.
Proof. exact (place_compressed dv content stdin h name). Qed.
Print Assumptions C104_place_refuted.
(** how it is refused, and what an empty one gives *)
Theorem C104_place_words_refuted dv stdin content h name ws r : compressed name -> Forall byte_word ws -> content name = Some (join [32] ws ++ 10 :: r) ->
  place_path dv content stdin h name =
    match ws with
    | [d; _; _] | [d; _; _; _] => match py_int ascii_dv 10 d with Some _ => Raise TypeError | None => Raise ValueError end
    | _ => Raise ValueError
    end.
Proof. exact (place_words dv stdin content h name ws r). Qed.
Print Assumptions C104_place_words_refuted.
Theorem C104_empty_partial dv stdin content h name : compressed name -> content name = Some [] ->
  kanjidic_files dv content stdin [name] = Ok [] /\ load_path content stdin name = ([], Ok tt) /\ place_path dv content stdin h name = Raise StopIteration.
Proof. exact (empty_compressed dv stdin content h name). Qed.
Print Assumptions C104_empty_partial.
(** and writing one loses what the file held *)
Theorem C104_dump_refuted repr sep fuel h t disk name : compressed name -> tree_at h t -> (rsize t < fuel)%nat ->
  dump_path repr sep fuel h (root t) disk name = (dset name [] disk, [], Raise TypeError).
Proof. exact (dump_compressed repr sep fuel h t disk name). Qed.
Print Assumptions C104_dump_refuted.
(** files of any other name are read as texts *)
Theorem C104_ordinary_partial dv stdin content name c h : ordinary name -> content name = Some c ->
  kanjidic_files dv content stdin [name] = init dv [file_lines c] /\
  load_path content stdin name = load_file (mksource (file_lines c) None) /\
  place_path dv content stdin h name = from_file dv h (file_lines c).
Proof. exact (ordinary_read dv stdin content name c h). Qed.
Print Assumptions C104_ordinary_partial.
(** the standard input reads like a text file *)
Theorem C104_standard_input dv stdin content name h : ordinary name -> content name = Some stdin ->
  kanjidic_files dv content stdin [u "-"] = kanjidic_files dv content stdin [name] /\ load_path content stdin (u "-") = load_path content stdin name /\
  place_path dv content stdin h (u "-") = place_path dv content stdin h name.
Proof.
  intros O C. assert (X : open_read content stdin (u "-") = open_read content stdin name) by (rewrite (open_ordinary content stdin name O), C; reflexivity).
  unfold kanjidic_files, load_path, place_path. cbn [mapM]. rewrite X. repeat split; reflexivity.
Qed.
Print Assumptions C104_standard_input.
Theorem C104_kanjidic_partial dv stdin content names cs : Forall ordinary names -> Forall2 (fun n c => content n = Some c) names cs ->
  kanjidic_files dv content stdin names = init dv (map file_lines cs).
Proof. exact (kanjidic_ordinary dv stdin content names cs). Qed.
Print Assumptions C104_kanjidic_partial.

(** C105: a with block on the name "-" closes the standard stream, and the next
    one fails *)
Theorem C105_closed_refuted A B mode (body : nat -> streams -> streams * res A) (body' : nat -> streams -> streams * res B) w :
  ~ (In (u1 "r") mode /\ In (u1 "w") mode) ->
  let i := if mem (u1 "r") mode then 0%nat else 1%nat in
  is_open w i = true ->
  let w' := fst (with_sopen (u "-") mode body w) in
  is_open w' i = false /\ with_sopen (u "-") mode body' w' = (w', Raise ValueError).
Proof. exact (std_twice mode body body' w). Qed.
Print Assumptions C105_closed_refuted.
(** any other name leaves the streams already open as the body leaves them *)
Theorem C105_others_partial A name mode (body : nat -> streams -> streams * res A) w j : name <> u "-" -> (j < next_id w)%nat ->
  is_open (fst (with_sopen name mode body w)) j = is_open (fst (body (next_id w) (fst (open_new w)))) j.
Proof. exact (std_kept name mode body w j). Qed.
Print Assumptions C105_others_partial.

(** cases *)
Definition ex_mixed : str := u "a" ++ [13; 10] ++ u "b" ++ [13] ++ u "c" ++ [8232] ++ u "d".
Example C103_case : file_lines ex_mixed = [u "a" ++ [10]; u "b" ++ [10]; u "c" ++ [8232] ++ u "d"] /\
  codec_lines ex_mixed = [u "a" ++ [13; 10]; u "b" ++ [13]; u "c" ++ [8232]; u "d"] /\
  same_lines (u "a" ++ [10] ++ u "b") (u "a" ++ [13; 10] ++ u "b" ++ [13]).
Proof.
  split; [vm_compute; reflexivity|split; [vm_compute; reflexivity|]].
  assert (F : forall x, x <> 10 -> x <> 13 -> Forall (fun c => ~ newline c) [x]) by (intros x A B; repeat constructor; intros [H|H]; contradiction).
  exists [(u "a", [10]); (u "b", [])], [(u "a", [13; 10]); (u "b", [13])]; split; [|split; [|reflexivity]].
  - apply (Cut_line newline (u "a") [10] (u "b")); [apply F; discriminate|constructor; [left; reflexivity|discriminate]|].
    apply Cut_last; [discriminate|apply F; discriminate].
  - apply (Cut_line newline (u "a") [13; 10] (u "b" ++ [13])); [apply F; discriminate|constructor|].
    apply (Cut_line newline (u "b") [13] []); [apply F; discriminate| |constructor].
    constructor; [right; reflexivity|intros _ q; discriminate].
Qed.
Definition ex_place : list place := 
  [{| label := u "Australia"; reading := None; aliases := None; kids := [(u "Melbourne", 1%nat)] |};
   {| label := u "Melbourne"; reading := Some (u "メルボルン"); aliases := None; kids := [] |}].
Example C103_place_case repr : exists disk, dump_path repr [13; 10] 9 ex_place 0%nat [] (u "p.txt") = (disk, [], Ok tt) /\
  dget (u "p.txt") disk = Some (u "0 Australia None" ++ [13; 10] ++ u "1 Melbourne メルボルン" ++ [13; 10]) /\
  exists h, place_path ascii_dv (fun n => dget n disk) [] [] (u "p.txt") = Ok (h, 0%nat) /\ map label h = [u "Australia"; u "Melbourne"].
Proof.
  eexists; split; [vm_compute; reflexivity|split; [vm_compute; reflexivity|]].
  eexists; split; [vm_compute; reflexivity|vm_compute; reflexivity].
Qed.
Example C104_case : ordinary (u "kanjidic") /\ compressed (u "kanjidic.gz") /\
  kanjidic_files ascii_dv (fun _ => Some (u "#")) [] [u "kanjidic.gz"] = Raise TypeError /\
  kanjidic_files ascii_dv (fun _ => Some (u "#")) [] [u "kanjidic"] = Ok [] /\
  place_path ascii_dv (fun _ => Some (u "0 Tokyo とうきょう" ++ [10])) [] [] (u "p.gz") = Raise TypeError /\
  place_path ascii_dv (fun _ => Some (u "x Tokyo とうきょう" ++ [10])) [] [] (u "p.gz") = Raise ValueError.
Proof.
  split; [|split; [left; exists (u "kanjidic"); reflexivity|repeat split; vm_compute; reflexivity]].
  split; [|discriminate]; intros C; destruct C as [C|C]; [apply ends_gz in C|apply ends_bz2 in C]; vm_compute in C; discriminate C.
Qed.
Example C105_case : let w := {| opened := [0; 1]; next_id := 2 |}%nat in
  is_open w 0 = true /\ is_open (fst (with_sopen (u "-") (u "r") (fun i w => (w, Ok i)) w)) 0 = false /\
  is_open (fst (with_sopen (u "f") (u "r") (fun i w => (w, Ok i)) w)) 0 = true.
Proof. repeat split; vm_compute; reflexivity. Qed.
Example C103_case_same : same_fed (u "a" ++ [10] ++ u "b") (u "a" ++ [13] ++ u "b") /\
  cut any_break (u "c" ++ [8232] ++ u "d") [(u "c", [8232]); (u "d", [])].
Proof.
  assert (F : forall x, x <> 10 -> x <> 13 -> Forall (fun c => ~ newline c) [x]) by (intros x A B; repeat constructor; intros [H|H]; contradiction).
  assert (G : forall x, 97 <= x <= 122 -> Forall (fun c => ~ any_break c) [x]).
  { intros x B; repeat constructor; intros [[H|H]|H]; try lia; vm_compute in H; lia. }
  split.
  - exists [(u "a", [10]); (u "b", [])], [(u "a", [13]); (u "b", [])]; split; [|split; [|split; [reflexivity|]]].
    + apply (Cut_line newline (u "a") [10] (u "b")); [apply F; discriminate|constructor; [left; reflexivity|discriminate]|].
      apply Cut_last; [discriminate|apply F; discriminate].
    + apply (Cut_line newline (u "a") [13] (u "b")); [apply F; discriminate|constructor; [right; reflexivity|intros _ q; discriminate]|].
      apply Cut_last; [discriminate|apply F; discriminate].
    + apply Forall2_cons; [split; discriminate|apply Forall2_cons; [split; reflexivity|constructor]].
  - apply (Cut_line any_break (u "c") [8232] (u "d")); [apply G; vm_compute; split; discriminate| |].
    + constructor; [right; vm_compute; tauto|discriminate].
    + apply Cut_last; [discriminate|apply G; vm_compute; split; discriminate].
Qed.
