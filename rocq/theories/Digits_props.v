(* Digits_props.v -- C140: numbers of more digits than int() takes since Python 3.11 *)
From Verif Require Import Base PyStr PyText PyFmt Scripts_model Regex Csv_model Tanaka_model Tanaka_spec Tanaka_proofs Tatoeba_model Kanjidic_model Kanjidic_spec Kanjidic_proofs
  Maps_model Radk_model Rose Place_model Digits_model Digits_spec Digits_proofs.

(** With the int() of before these are the functions of the other files. *)
Theorem C140_before : forall dv,
  (forall lines d, kanjidic_by dv (py_int dv 10) lines d = parse_kanjidic dv lines d) /\
  (forall lines, radk_by (py_int dv 10) lines = parse_radkfile dv lines) /\
  (forall h lines, from_file_by (py_int dv 10) h lines = from_file dv h lines) /\
  (forall date strptime filter_row langs src, sentences_by (py_int dv 10) date strptime filter_row langs src = read_sentences dv strptime filter_row langs src) /\
  (forall s fs ft rows st, links_by (py_int dv 10) s fs ft rows st = read_links dv s fs ft rows st) /\
  (forall s ed rows d, indices_by dv (py_int dv 10) s ed rows d = index_rows dv s ed rows d) /\
  (forall s, int_limited dv 0 s = py_int dv 10 s).
Proof. intro dv. repeat apply conj; intros; reflexivity. Qed.
Print Assumptions C140_before.

(** int() of a text is what it was, unless the text has more digits than the limit;
    those are refused, also zeros in front. *)
Theorem C140_int : forall dv limit s,
  (short dv limit s -> int_limited dv limit s = py_int dv 10 s) /\
  (too_long dv limit s -> int_limited dv limit s = None) /\
  (too_long dv limit s \/ short dv limit s).
Proof. intros dv limit s. split; [apply int_short|split; [apply int_long|apply long_dec]]. Qed.
Print Assumptions C140_int.

(** A radical file is refused exactly when a line of a radical has a stroke count of too
    many digits. *)
Theorem C140_radk : forall dv limit lines,
  limited ValueError dv limit (fun t => exists l, In l lines /\ strokes_in l t) (parse_radkfile dv lines) (radk_by (int_limited dv limit) lines).
Proof. exact radk_limited. Qed.
Print Assumptions C140_radk.

(** A tree of places: exactly when a depth has. *)
Theorem C140_places : forall dv limit h lines,
  limited ValueError dv limit (fun t => exists l, In l lines /\ depth_in l t) (from_file dv h lines) (from_file_by (int_limited dv limit) h lines).
Proof. exact file_limited. Qed.
Print Assumptions C140_places.

(** Sentences: exactly when the id of a sentence in a wanted language has. *)
Theorem C140_sentences : forall dv limit date (strptime : str -> res date) filter_row langs src,
  limited ValueError dv limit (fun t => exists row, In row (fst src) /\ sentence_id_in filter_row langs row t)
    (read_sentences dv strptime filter_row langs src) (sentences_by (int_limited dv limit) date strptime filter_row langs src).
Proof. exact sentences_limited. Qed.
Print Assumptions C140_sentences.

(** Links: exactly when either id has; then the file is called invalid. *)
Theorem C140_links : forall dv limit s fs ft rows st,
  limited InvalidFileError dv limit (fun t => exists row, In row rows /\ link_id_in row t)
    (read_links dv s fs ft rows st) (links_by (int_limited dv limit) s fs ft rows st).
Proof. exact links_limited. Qed.
Print Assumptions C140_links.

(** Indices: exactly when an id has, or the sense of a word of a wanted sentence. *)
Theorem C140_indices : forall dv limit s ed rows d, unicode_digits dv ->
  limited ValueError dv limit (fun t => exists row, In row rows /\ index_number_in dv s row t)
    (index_rows dv s ed rows d) (indices_by dv (int_limited dv limit) s ed rows d).
Proof. exact indices_limited. Qed.
Print Assumptions C140_indices.
Theorem C140_word : forall dv limit p, unicode_digits dv ->
  limited ValueError dv limit (sense_in dv p) (from_text dv p) (from_text_by dv (int_limited dv limit) p).
Proof. exact text_limited. Qed.
Print Assumptions C140_word.

(** A kanjidic is read as before if no line has that many digits. *)
Theorem C140_kanjidic_short : forall dv limit lines d, Forall (short dv limit) lines ->
  kanjidic_by dv (int_limited dv limit) lines d = parse_kanjidic dv lines d.
Proof. intros dv limit lines d F. rewrite <- kanjidic_before. apply kanjidic_short, F. Qed.
Print Assumptions C140_kanjidic_short.
(** Otherwise it is either refused, or has the same kanji, each with the same fields in
    the same order, and numbers of too many digits are texts now. *)
Theorem C140_kanjidic : forall dv limit lines, ascii_digits dv ->
  match parse_kanjidic dv lines [], kanjidic_by dv (int_limited dv limit) lines [] with
  | Ok before, Ok now => aged_dict dv limit before now
  | Ok _, Raise e => e = ValueError
  | Raise e, Raise e' => e' = e \/ e' = ValueError
  | Raise _, Ok _ => False
  end.
Proof.
  intros dv limit lines A. pose proof (kanjidic_aged dv A limit lines [] [] (Forall2_nil _)) as B. rewrite kanjidic_before in B. unfold both in B.
  destruct (parse_kanjidic dv lines []), (kanjidic_by dv (int_limited dv limit) lines []); exact B.
Qed.
Print Assumptions C140_kanjidic.

(** That a kanjidic, too, is refused for a number of too many digits is not so: it
    becomes a text, and nothing is said. *)
Theorem C140_kanjidic_refused_refuted : exists line before now,
  parse_kanjidic ascii_dv [line] [] = Ok before /\ kanjidic_by ascii_dv (int_limited ascii_dv 640) [line] [] = Ok now /\ before <> now.
Proof.
  exists (u "亜 3021 S7 P4-7-1 N" ++ repeat 57 641).
  destruct (parse_kanjidic ascii_dv [u "亜 3021 S7 P4-7-1 N" ++ repeat 57 641] []) as [before|] eqn:B.
  2: { exfalso. revert B. vm_compute. discriminate. }
  destruct (kanjidic_by ascii_dv (int_limited ascii_dv 640) [u "亜 3021 S7 P4-7-1 N" ++ repeat 57 641] []) as [now|] eqn:Nw.
  2: { exfalso. revert Nw. vm_compute. discriminate. }
  exists before, now. split; [reflexivity|split; [reflexivity|]]. intros ->.
  assert (X : rmap (fun d => match dget (u "亜") d with Some e => match dget (u "nelson_index") e with Some (VList [VInt _]) => 0 | _ => 1 end | None => 2 end) (Ok now) = Ok 0).
  { rewrite <- B. vm_compute. reflexivity. }
  rewrite <- Nw in X. revert X. vm_compute. discriminate.
Qed.
Print Assumptions C140_kanjidic_refused_refuted.

(** A word can be written exactly when its sense has no more digits than the limit, and
    is written as before. *)
Theorem C140_written : forall limit w, 0 <= limit ->
  (word_str_limited limit w = Raise ValueError <-> huge_sense limit w) /\
  (word_str_limited limit w = Ok (word_str w) <-> ~ huge_sense limit w).
Proof.
  intros limit w L. destruct (word_str_cases limit w L) as [[H ->]|[H ->]]; split; split; intro X; try assumption; try reflexivity; try discriminate X; contradiction.
Qed.
Print Assumptions C140_written.
(** What can be written can be read, with the same limit. *)
Theorem C140_reread : forall dv limit w s, unicode_digits dv -> limit = 0 \/ 2 <= limit -> well_formed w ->
  word_str_limited limit w = Ok s -> from_text_by dv (int_limited dv limit) s = Ok w.
Proof. exact word_reread. Qed.
Print Assumptions C140_reread.
(** What can be read can be written: zeros in front are not kept. *)
Theorem C140_rewritten : forall dv limit p w, unicode_digits dv -> 0 <= limit ->
  from_text_by dv (int_limited dv limit) p = Ok w -> word_str_limited limit w = Ok (word_str w).
Proof. exact word_rewritten. Qed.
Print Assumptions C140_rewritten.

(** One digit too many, after the zeros; the least limit that can be set. *)
Definition just : str := repeat 48 639 ++ u "7".
Definition over : str := repeat 48 640 ++ u "7".
Definition now_int := int_limited ascii_dv 640.
Example C140_case_int : now_int just = Some 7 /\ now_int over = None /\ now_int (u "+" ++ just) = Some 7 /\ py_int ascii_dv 10 over = Some 7.
Proof. vm_compute; repeat split. Qed.
Example C140_case_too_long : too_long ascii_dv 640 over /\ short ascii_dv 640 just /\ strokes_in (u "$ 一 " ++ over) over /\ depth_in (over ++ u " a b") over.
Proof.
  split; [apply too_long_iff; vm_compute; reflexivity|]. split; [apply short_count; intros _; vm_compute; discriminate|].
  split.
  - split; [exists (tl (rstrip (u "$ 一 " ++ over))); vm_compute; reflexivity|]. exists (u "$"), (u "一"), []. split; [|cbn; lia].
    replace [u "$"; u "一"; over] with (split_ws (rstrip (u "$ 一 " ++ over))) by (vm_compute; reflexivity). apply words_split_ws.
  - exists (u "a"), (u "b"), []. split; [|cbn; lia].
    replace [over; u "a"; u "b"] with (split_ws (rstrip (over ++ u " a b"))) by (vm_compute; reflexivity). apply words_split_ws.
Qed.
Example C140_case_files :
  rmap radical_to_stroke_count (radk_by now_int [u "$ 一 " ++ just; u "亜"]) = Ok [(Some (u "一"), 7)] /\
  rmap radical_to_stroke_count (radk_by now_int [u "$ 一 " ++ over; u "亜"]) = Raise ValueError /\
  rmap radical_to_stroke_count (parse_radkfile ascii_dv [u "$ 一 " ++ over; u "亜"]) = Ok [(Some (u "一"), 7)] /\
  links_by now_int None false false [[u "1"; over]] (mklstate [] [] 0) = Raise InvalidFileError /\
  from_text_by ascii_dv now_int (u "x[" ++ over ++ u "]") = Raise ValueError /\
  from_text_by ascii_dv now_int (u "x[" ++ just ++ u "]") = Ok (mkword (u "x") None (Some 7) None false) /\
  kanjidic_by ascii_dv now_int [u "亜 3021 S7 P4-7-" ++ over] [] = Raise ValueError.
Proof. vm_compute; repeat split. Qed.
Example C140_case_written : word_str_limited 640 (mkword (u "x") None (Some (10 ^ 640 - 1)) None false) = Ok (u "x[" ++ repeat 57 640 ++ u "]") /\
  word_str_limited 640 (mkword (u "x") None (Some (10 ^ 640)) None false) = Raise ValueError.
Proof. vm_compute; repeat split. Qed.
