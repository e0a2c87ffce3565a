(* LineLife_props.v -- C131: readers take a line at a time and close their files *)
From Verif Require Import Base PyStr PyText Maps_model Csv_model Tanaka_model Tatoeba_model Files_model Encoding_model FileLife_model FileLife_spec FileLife_proofs.
From Verif Require Import Radk_model Pinyin_model Bilingual_model DictFormat_model SplitCodes_model Place_model LineLife_model LineLife_spec LineLife_proofs.

(** RadkDict: a stream of the caller is read down to the first line that cannot
    be accepted, and no further; it stays open, and its other lines are there for
    the caller.  A file of its own is opened once and closed, whatever happens. *)
Theorem C131_radkfile disk dv :
  (forall i s w, In i (live w) -> nth_error (rest w) i = Some (TextIn s) -> reads (parse_radkfile dv) i s w (radk_life disk dv (Buffer i) w)) /\
  (forall i ls w, In i (live w) -> nth_error (rest w) i = Some (BytesIn ls) -> refuses (parse_radkfile dv) (fun _ => TypeError) i ls w (radk_life disk dv (Buffer i) w)) /\
  (forall name w, bounded w -> reads_file (parse_radkfile dv) (fun _ => TypeError) disk name w (radk_life disk dv (FileLife_model.Path name) w)).
Proof. exact (source_reader _ _ _ disk (radk_reader dv)). Qed.
Print Assumptions C131_radkfile.

(** and so do the readers of the zhuyin table, *)
Theorem C131_zhuyin disk :
  let good {A} (R : list str -> res A) run :=
    (forall i s w, In i (live w) -> nth_error (rest w) i = Some (TextIn s) -> reads R i s w (run (Buffer i) w)) /\
    (forall i ls w, In i (live w) -> nth_error (rest w) i = Some (BytesIn ls) -> refuses R (fun _ => TypeError) i ls w (run (Buffer i) w)) /\
    (forall name w, bounded w -> reads_file R (fun _ => TypeError) disk name w (run (FileLife_model.Path name) w)) in
  good zhuyin_to_pinyin_table (zhuyin_life disk) /\ good pinyin_to_zhuyin_table (pinyin_life disk) /\ good get_all_pinyin (all_pinyin_life disk).
Proof. split; [|split]; exact (source_reader _ _ _ disk (pairs_reader _ _)). Qed.
Print Assumptions C131_zhuyin.

(** of the patterns made of it, *)
Theorem C131_patterns disk :
  let good (R : list str -> res str) run :=
    (forall i s w, In i (live w) -> nth_error (rest w) i = Some (TextIn s) -> reads R i s w (run (Buffer i) w)) /\
    (forall i ls w, In i (live w) -> nth_error (rest w) i = Some (BytesIn ls) -> refuses R (fun _ => TypeError) i ls w (run (Buffer i) w)) /\
    (forall name w, bounded w -> reads_file R (fun _ => TypeError) disk name w (run (FileLife_model.Path name) w)) in
  good pinyin_regex_pattern (pinyin_pattern_life disk) /\ good zhuyin_regex_pattern (zhuyin_pattern_life disk).
Proof.
  split.
  - destruct (source_reader _ _ _ disk (pairs_reader (fun all_pinyin zhuyin pinyin => all_pinyin ++ [pinyin]) [u "r"])) as [A [B C]]; split; [|split].
    + intros i s w L N; specialize (A i s w L N); unfold pinyin_pattern_life, all_pinyin_life, pairs_life; destruct (with_source _ _ _ _ _) as [w' r]; exact (reads_map _ _ _ _ _ _ _ A).
    + intros i ls w L N; specialize (B i ls w L N); unfold pinyin_pattern_life, all_pinyin_life, pairs_life; destruct (with_source _ _ _ _ _) as [w' r]; exact (refuses_map _ _ _ _ _ _ _ _ B).
    + intros name w L; specialize (C name w L); unfold pinyin_pattern_life, all_pinyin_life, pairs_life; destruct (with_source _ _ _ _ _) as [w' r]; exact (file_map _ _ _ _ _ _ _ _ C).
  - destruct (source_reader _ _ _ disk (pairs_reader (fun all_pinyin zhuyin pinyin => all_pinyin ++ [pinyin]) [])) as [A [B C]]; split; [|split].
    + intros i s w L N; specialize (A i s w L N); unfold zhuyin_pattern_life, pairs_life; destruct (with_source _ _ _ _ _) as [w' r]; exact (reads_map _ _ _ _ _ _ _ A).
    + intros i ls w L N; specialize (B i ls w L N); unfold zhuyin_pattern_life, pairs_life; destruct (with_source _ _ _ _ _) as [w' r]; exact (refuses_map _ _ _ _ _ _ _ _ B).
    + intros name w L; specialize (C name w L); unfold zhuyin_pattern_life, pairs_life; destruct (with_source _ _ _ _ _) as [w' r]; exact (file_map _ _ _ _ _ _ _ _ C).
Qed.
Print Assumptions C131_patterns.

(** of the table of hanzi, *)
Theorem C131_hanzi disk name w : bounded w ->
  reads_file (fun ls => load_table ls []) (fun _ => TypeError) disk name w (table_life disk name w).
Proof. exact (proj2 (proj2 (source_reader _ _ _ disk table_reader)) name w). Qed.
Print Assumptions C131_hanzi.

(** of dictionaries, which make the entries of the lines read, *)
Theorem C131_dictionary h i w : In i (live w) ->
  let '(w', h', r) := dictionary_life h i w in
  (forall s, nth_error (rest w) i = Some (TextIn s) -> reads (fun ls => snd (load_dictionary h ls)) i s w (w', r) /\ h' = fst (load_dictionary h (lines s))) /\
  (forall ls, nth_error (rest w) i = Some (BytesIn ls) -> refuses (fun ls => snd (load_dictionary h ls)) (fun _ => TypeError) i ls w (w', r)).
Proof.
  intros L; pose proof (dict_split h i w) as E; pose proof (fun s => dict_heap h i s w L) as H.
  destruct (dictionary_life h i w) as [[w' h'] r]; cbn [fst snd] in *; split.
  - intros s N; split; [rewrite E; apply (dict_reader h); assumption|exact (H s N)].
  - intros ls N; rewrite E; apply (dict_reader h); assumption.
Qed.
Print Assumptions C131_dictionary.
Theorem C131_coded disk h :
  let run src w := (fst (coded_life disk h src w), snd (snd (coded_life disk h src w))) in
  let R := fun ls => snd (load_coded_dictionary h ls) in
  (forall i s w, In i (live w) -> nth_error (rest w) i = Some (TextIn s) -> reads R i s w (run (Buffer i) w) /\ fst (snd (coded_life disk h (Buffer i) w)) = fst (load_coded_dictionary h (lines s))) /\
  (forall i ls w, In i (live w) -> nth_error (rest w) i = Some (BytesIn ls) -> refuses R (fun _ => TypeError) i ls w (run (Buffer i) w)) /\
  (forall name w, bounded w -> reads_file R (fun _ => TypeError) disk name w (run (FileLife_model.Path name) w)).
Proof.
  cbv zeta; destruct (source_reader _ _ _ disk (coded_reader h)) as [A [B C]]; split; [|split].
  - intros i s w L N; split; [rewrite coded_split; apply A; assumption|].
    rewrite <- (coded_heap_at h i s w L N); unfold coded_life, with_source; destruct (head_then _ _ _ _ _) as [[w2 [[h1 b1] c1]] o]; reflexivity.
  - intros i ls w L N; rewrite coded_split; apply B; assumption.
  - intros name w W; rewrite coded_split; apply C, W.
Qed.
Print Assumptions C131_coded.

(** and of places. *)
Theorem C131_place disk dv h name w : bounded w -> name <> u "-" ->
  reads_file (from_file dv h) from_line_bytes disk name w (place_life disk dv h name w).
Proof. exact (place_file disk dv h name w). Qed.
Print Assumptions C131_place.

(** Where a reader stops is determined by what it makes of whole files. *)
Theorem C131_where {A} (R : list str -> res A) ls left left' : stops R ls left -> stops R ls left' -> left = left'.
Proof. exact (stops_unique R ls left left'). Qed.
Print Assumptions C131_where.

(** iter_entries takes a line for an entry, when the entry is asked for: the
    caller can take lines of the same stream in between, each line going to
    whoever asks; the entries are those of the lines that fall to the generator, *)
Theorem C131_entries i fm f turns ls h w h' es : In i (live w) -> nth_error (rest w) i = Some (TextIn (mksource ls f)) -> (length turns <= length ls)%nat ->
  iter_lines (parse_line fm) h (falls is_entry turns ls) = (h', (es, Ok tt)) ->
  exists w' outs, run_entries turns i (Some fm) h w = (w', Some fm, h', outs) /\
    flat_map entry_taken outs = map (fun e => Ok (Some e)) es /\
    flat_map line_taken outs = map (fun l => Ok (Some (TextLine l))) (falls is_mine turns ls) /\
    advanced i (mksource ls f) (skipn (length turns) ls) w w'.
Proof. exact (turns_run i fm f turns ls h w h' es). Qed.
Print Assumptions C131_entries.
(** and after a line it has refused the generator takes no more. *)
Theorem C131_entries_over i fm h w w' g h' e : entries_next i (Some fm) h w = (w', g, h', Raise e) ->
  forall turns, exists outs,
    run_entries turns i g h' w' = (fst (fst (fst (run_entries (filter is_mine turns) i g h' w'))), None, h', outs) /\
    flat_map line_taken outs = flat_map line_taken (snd (run_entries (filter is_mine turns) i g h' w')) /\
    Forall (fun o => o = Ok None) (flat_map entry_taken outs).
Proof. intros E turns; rewrite (entry_raises _ _ _ _ _ _ _ _ E); apply turns_over. Qed.
Print Assumptions C131_entries_over.
(** At the end of the stream the generator ends, or fails as the stream does; bytes
    it refuses, and a stream that is closed. *)
Theorem C131_entries_end i fm h w :
  (forall f, In i (live w) -> nth_error (rest w) i = Some (TextIn (mksource [] f)) ->
     entries_next i (Some fm) h w = (w, None, h, match f with Some e => Raise e | None => Ok None end)) /\
  (forall l ls, In i (live w) -> nth_error (rest w) i = Some (BytesIn (l :: ls)) ->
     exists w', entries_next i (Some fm) h w = (w', None, h, Raise TypeError) /\
       nth_error (rest w') i = Some (BytesIn ls) /\ live w' = live w /\ (forall j, j <> i -> nth_error (rest w') j = nth_error (rest w) j)) /\
  (~ In i (live w) -> entries_next i (Some fm) h w = (w, None, h, Raise ValueError)).
Proof.
  unfold entries_next, next_line, is_live; split; [|split].
  - intros f L N; rewrite (proj2 (mem_In _ _) L), N; destruct f; reflexivity.
  - intros l ls L N; rewrite (proj2 (mem_In _ _) L), N; eexists; split; [reflexivity|]; cbn [rest live gave].
    assert (LT : (i < length (rest w))%nat) by (apply nth_error_Some; congruence).
    split; [apply FileLife_proofs.put_same, LT|split; [reflexivity|]].
    intros j J; apply FileLife_proofs.put_other; [congruence|exact LT].
  - intros L; destruct (mem i (live w)) eqn:M; [apply mem_In in M; contradiction|reflexivity].
Qed.
Print Assumptions C131_entries_end.

Definition std : list stream_in := [TextIn (mksource [] None); TextIn (mksource [] None)].
(** a table with a line of three words: the lines after it are left to the caller *)
Example C131_case :
  let w := mkworld [0; 1; 2]%nat (std ++ [TextIn (mksource [u "ㄅㄚ ba"; u "ㄅ ㄆ ㄇ"; u "ㄆㄚ pa"] None)]) [] in
  zhuyin_life (fun _ => Raise OSError) (Buffer 2) w =
  (mkworld [0; 1; 2]%nat (std ++ [TextIn (mksource [u "ㄆㄚ pa"] None)]) [Gave 2; Gave 2], Raise ValueError).
Proof. vm_compute; reflexivity. Qed.
(** a radkfile of its own is closed after a bad header *)
Example C131_case_file :
  let '(w, r) := radk_life (fun _ => Ok (TextIn (mksource [u "$ 一 1"; u "亜唖"; u "$ x"; u "娃"] None))) ascii_dv (FileLife_model.Path (u "radkfile")) (mkworld [0; 1]%nat std []) in
  live w = [0; 1]%nat /\ log w = [Opened 2 (u "radkfile"); Gave 2; Gave 2; Gave 2; Closed 2] /\ r = Raise PlainException.
Proof. vm_compute; repeat split. Qed.
(** a place file whose second line is too deep *)
Example C131_case_place :
  let '(w, r) := place_life (fun _ => Ok (TextIn (mksource [u "0 a None"; u "2 b None"; u "1 c None"] None))) ascii_dv [] (u "p") (mkworld [0; 1]%nat std []) in
  live w = [0; 1]%nat /\ log w = [Opened 2 (u "p"); Gave 2; Gave 2; Closed 2] /\ r = Raise PlainException.
Proof. vm_compute; repeat split. Qed.
(** every other line is the caller's *)
Example C131_case_turns :
  let w := mkworld [0; 1; 2]%nat (std ++ [TextIn (mksource [u "猫 [ねこ] /cat/"; u "mine"; u "犬 [いぬ] /dog/"; u "rest"] None)]) [] in
  let '(w', g, h, outs) := run_entries [Entry; Mine; Entry] 2 (Some edict) {| Bilingual_model.lists := []; Bilingual_model.entries := [] |} w in
  flat_map line_taken outs = [Ok (Some (TextLine (u "mine")))] /\ flat_map entry_taken outs = [Ok (Some 0%nat); Ok (Some 1%nat)] /\
  map word (Bilingual_model.entries h) = [u "猫"; u "犬"] /\ rest w' = std ++ [TextIn (mksource [u "rest"] None)].
Proof. vm_compute; repeat split. Qed.
Example C131_case_stops : stops zhuyin_to_pinyin_table [u "ㄅㄚ ba"; u "ㄅ ㄆ ㄇ"; u "ㄆㄚ pa"] [u "ㄆㄚ pa"].
Proof.
  exists [u "ㄅㄚ ba"; u "ㄅ ㄆ ㄇ"]; split; [reflexivity|right].
  exists [u "ㄅㄚ ba"], (u "ㄅ ㄆ ㄇ"), ValueError; split; [reflexivity|split; [right; eexists; vm_compute; reflexivity|]].
  intros more; vm_compute; reflexivity.
Qed.
