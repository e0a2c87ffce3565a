(* Patterns_props.v -- C93, C94, C95. *)
From Verif Require Import Base PyStr PyText Regex RegexSyntax RegexSyntax_proofs RegexSem RegexSem_proofs.
From Verif Require Import DictFormat_model Kanjidic_model Scripts_model SplitCodes_model Tanaka_model Pinyin_model Alternations_model.
From Verif Require Import Patterns_model Patterns_spec Patterns_proofs.

(** C93: the expressions of the model are what the pattern texts of the source say *)
Theorem C93_syntax text t : parse text = Some t <-> ok t = true /\ show t = text.
Proof. exact (parse_iff text t). Qed.
Print Assumptions C93_syntax.
Theorem C93_dictionaries isd :
  (stands_for isd key named edict_header (header_pattern edict) /\
   stands_for isd key named edict_line (line_pattern edict) /\
   stands_for isd key named edict_sense (sense_pattern edict)) /\
  (stands_for isd key named jc_header (header_pattern jc_kdic) /\
   stands_for isd key named jc_line (line_pattern jc_kdic) /\
   stands_for isd key named jc_sense (sense_pattern jc_kdic)) /\
  (stands_for isd key named cj_header (header_pattern cj_kdic) /\
   stands_for isd key named cj_line (line_pattern cj_kdic) /\
   stands_for isd key named cj_sense (sense_pattern cj_kdic)) /\
  (stands_for isd key named cedict_header (header_pattern cedict) /\
   stands_for isd key named cedict_line (line_pattern cedict) /\
   stands_for isd key named cedict_sense (sense_pattern cedict)).
Proof. exact (dict_patterns isd). Qed.
Print Assumptions C93_dictionaries.
Theorem C93_segments isd : stands_for isd key all segment_text segment_pattern.
Proof. exact (segment_stands isd). Qed.
Print Assumptions C93_segments.
Theorem C93_codes isd : stands_for isd (fun n => 48 + Z.of_nat n :: []) all code_text code_pattern.
Proof. exact (code_stands isd). Qed.
Print Assumptions C93_codes.
Theorem C93_words dv : stands_for (is_d dv) key named word_text (word_re dv).
Proof. exact (word_stands dv). Qed.
Print Assumptions C93_words.
Theorem C93_long_vowels isd l : stands_for isd key all long_finder_text long_re /\
  map (fun m => length (before (fst m))) (finditer long_re l) = long_finder 0 None l.
Proof. exact (conj (long_stands isd) (long_finder_scan l)). Qed.
Print Assumptions C93_long_vowels.
Theorem C93_pinyin isd istream seg : new_segmenter istream = Ok seg ->
  exists p, pinyin_regex_pattern istream = Ok p /\
    stands_for isd key all (single_text p) seg /\ stands_for isd key (fun _ => false) (string_text p) (Plus seg).
Proof. exact (segmenter_stands isd istream seg). Qed.
Print Assumptions C93_pinyin.
(* the tree of the code pattern *)
Example C93_case : parse code_text = Some
  (Last (Cons (ACh (Bs 40)) Once
   (Cons (AGrp Cap (Last (Cons (ASet false [Rng (Pl 97) (Pl 122); Rng (Pl 65) (Pl 90); Rng (Pl 48) (Pl 57); It (Pl 44); It (Pl 45)]) QPlus Nil))) Once
   (Cons (ACh (Bs 41)) Once Nil)))).
Proof. vm_compute; reflexivity. Qed.
Example C93_rejected : parse (u "a**") = None /\ parse (u "(a") = None /\ parse (u "[]") = None /\ parse (u "a{2}") = None /\
  parse (u "\w") = None /\ parse (u "[z-a]") = None /\ parse (u "a)") = None.
Proof. repeat split; vm_compute; reflexivity. Qed.
Example C93_segmenter : exists seg, new_segmenter [u "ㄇㄚ ma"; u "ㄕㄨㄤ shuang"] = Ok seg.
Proof. eexists; vm_compute; reflexivity. Qed.

(** C94: matching finds a match whenever there is one, and the preferred one *)
Theorem C94_match r l : solid r = true ->
  (forall m, match_ r l = Some m -> Matches r (start l) m) /\
  (match_ r l = None <-> forall m, ~ Matches r (start l) m).
Proof. intros K; split; [intros m; exact (match_sound r l m K)|exact (match_complete r l K)]. Qed.
Print Assumptions C94_match.
Theorem C94_preferred r l : solid r = true ->
  match_ r l = hd_error (runs r (start l)) /\ forall s t, In t (runs r s) <-> Matches r s t.
Proof. intros K; split; [exact (match_best r l)|exact (runs_iff r K)]. Qed.
Print Assumptions C94_preferred.
Theorem C94_text r s t : Matches r s t -> exists w, rest s = w ++ rest t /\ before t = rev w ++ before s /\ text s t = w.
Proof.
  intros M; destruct (Matches_text r s t M) as (w & A & B); exists w; repeat split; [exact A|exact B|].
  destruct s as [b l cs], t as [b' l' cs']; cbn [rest] in A; subst l; apply text_app.
Qed.
Print Assumptions C94_text.
Theorem C94_patterns dv istream seg : new_segmenter istream = Ok seg ->
  Forall (fun r => solid r = true)
    (map header_pattern known_formats ++ map line_pattern known_formats ++ map sense_pattern known_formats ++
     [segment_pattern; code_pattern; word_re dv; long_re; seg; Plus seg]).
Proof.
  intros H; destruct (segmenter_solid _ _ H) as (A & B & _).
  cbn [map known_formats app]; repeat (apply Forall_cons; [first [exact A|exact B|reflexivity]|]); apply Forall_nil.
Qed.
Print Assumptions C94_patterns.
Example C94_case : hd_error (runs (line_pattern edict) (start (u "犬 [いぬ] /dog/"))) <> None /\
  length (runs (line_pattern edict) (start (u "犬 [いぬ] /dog/"))) = 2%nat.
Proof. split; vm_compute; congruence. Qed.

(** C95: a scan finds the leftmost preferred matches, one after the other *)
Theorem C95_scan r l ms : solid r = true -> nullable r = false -> finditer r l = ms <-> Finds r [] l ms.
Proof. intros K N; symmetry; exact (finditer_iff r l ms K N). Qed.
Print Assumptions C95_scan.
Theorem C95_patterns istream seg : new_segmenter istream = Ok seg ->
  Forall (fun r => nullable r = false) (map sense_pattern known_formats ++ [segment_pattern; code_pattern; long_re; seg]).
Proof.
  intros H; destruct (segmenter_solid _ _ H) as (_ & _ & C).
  cbn [map known_formats app]; repeat (apply Forall_cons; [first [exact C|reflexivity]|]); apply Forall_nil.
Qed.
Print Assumptions C95_patterns.
Theorem C95_nonempty r s t : nullable r = false -> Matches r s t -> text s t <> [].
Proof.
  intros N M E; pose proof (nullable_shorter _ _ _ N M) as Sh; unfold shorter in Sh; apply Nat.ltb_lt in Sh.
  destruct (C94_text r s t M) as (w & A & _ & T); rewrite T in E; subst w; rewrite A in Sh; cbn [app] in Sh; lia.
Qed.
Print Assumptions C95_nonempty.
Example C95_case : map (fun m => text (fst m) (snd m)) (finditer segment_pattern (u "亜 {Asia} {rank next}")) = [u "亜"; u "{Asia}"; u "{rank next}"].
Proof. vm_compute; reflexivity. Qed.
Example C94_case_matches : let r := Seq (Grp (u "a") (Plus (Chr (fun c => c =? 97)))) (Chr (fun c => c =? 98)) in
  solid r = true /\ Matches r (start (u "aab!")) (mkpos (u "baa") (u "!") [(u "a", u "aa")]).
Proof.
  cbn zeta; split; [vm_compute; reflexivity|]; vm_compute (u "aab!"); vm_compute (u "baa").
  eapply M_seq; [apply M_grp; eapply M_seq; [apply M_chr; reflexivity|eapply M_more; [apply M_chr; reflexivity|apply M_stop]]|].
  apply M_chr; reflexivity.
Qed.
