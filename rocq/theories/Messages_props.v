(* Messages_props.v -- C123: what the exceptions say *)
From Verif Require Import Base PyStr PyText PyFmt Scripts_model Regex Maps_model Bilingual_model Bilingual_spec DictFormat_model DictFormat_spec
  FormatLang_spec Kanjidic_model Kanjidic_spec KanjidicLang_spec Radk_model Radk_spec Radk_proofs
  Rose Place_model Csv_model Tanaka_model Tanaka_spec Tanaka_proofs Tatoeba_model Tatoeba_spec Tatoeba_proofs Messages_model Messages_spec Messages_proofs.

(** The functions with texts are those of the other files: dropping the texts gives
    the same results, store and exceptions. *)
Theorem C123_same : forall dv repr lower,
  (forall file h ls, forget (from_file_told dv file h ls) = from_file dv h ls) /\
  (forall h ls, (fst (load_dictionary_told repr h ls), forget (snd (load_dictionary_told repr h ls))) = load_dictionary h ls) /\
  (forall ls d, forget (kanjidic_told dv ls d) = parse_kanjidic dv ls d) /\
  (forall ls, forget (radk_told dv ls) = parse_radkfile dv ls) /\
  (forall text, forget (sentence_told dv text) = parse_sentence dv text) /\
  (forall s ed rows d, forget (index_rows_told dv s ed rows d) = index_rows dv s ed rows d) /\
  (forall s fs ft rows, forget (links_told dv s fs ft rows) = read_links dv s fs ft rows (mklstate [] [] 0)) /\
  (forall s v, forget (filter_told lower s v) = ids_filter lower s v) /\
  (forall date (strptime : list Z -> res date) fr langs src, forget (sentences_told dv strptime fr langs src) = read_sentences dv strptime fr langs src) /\
  (forall date (r : reader date) i, forget (language_told r i) = language r i /\ forget (sentence_of_told r i) = Tatoeba_model.sentence r i /\ forget (details_told r i) = details r i) /\
  (forall r i, forget (group_told r i) = Tatoeba_model.group r i) /\ (forall r i, forget (link_told r i) = link r i).
Proof.
  intros dv repr lower. repeat split; intros.
  - apply forget_from_file.
  - apply forget_dictionary.
  - apply forget_kanjidic.
  - apply forget_radk.
  - exact (forget_words dv text (sentence_splitter text)).
  - apply forget_index_rows.
  - apply forget_links.
  - apply forget_filter.
  - apply forget_sentences.
  - apply forget_language.
  - apply forget_sentence_of.
  - apply forget_details.
  - apply forget_group.
  - apply forget_link.
Qed.
(** A place file is complained about exactly for its first line that cannot follow
    the lines before it; *)
Theorem C123_place : forall dv file h ls e m,
  from_file_told dv file h ls = Fail e (Some m) <->
  exists pre l post, ls = pre ++ l :: post /\ (pre = [] \/ exists r, from_file dv h pre = Ok r) /\ place_culprit dv file pre l e m.
Proof. exact place_said. Qed.
(** the line number it gives, counted from one, is that line's. *)
Theorem C123_place_line : forall dv file h ls e n,
  from_file_told dv file h ls = Fail e (Some (u "Strange depth found " ++ file ++ u " (line " ++ dec n ++ u ")")) ->
  exists k l0 l d0 d, n = Z.of_nat k + 2 /\ nth_error ls k = Some l0 /\ nth_error ls (S k) = Some l /\ depth_of dv l0 d0 /\ depth_of dv l d /\ d0 + 1 < d.
Proof. exact strange_line. Qed.
(** A dictionary is complained about exactly for its header or its first bad line,
    with the text of it, or its word if only the senses are missing; *)
Theorem C123_dictionary : forall repr h hd ls e m, wf h ->
  (snd (load_dictionary_told repr h (hd :: ls)) = Fail e (Some m) <->
   (e = UnknownFormatError /\ m = u "unknown header line: " ++ repr hd /\ forall f, ~ header f hd) \/
   (e = FormatError /\ exists f pre l post ps, ls = pre ++ l :: post /\ header f hd /\ Forall2 (entry_line f) pre ps /\ entry_culprit f l m)).
Proof. exact dictionary_said. Qed.
(** and never fails without saying why. *)
Theorem C123_dictionary_explained : forall repr h hd ls e, wf h -> snd (load_dictionary h (hd :: ls)) = Raise e ->
  exists m, snd (load_dictionary_told repr h (hd :: ls)) = Fail e (Some m).
Proof. exact dictionary_explained. Qed.
(** Of kanjidic lines only a segment of no known kind is explained. *)
Theorem C123_kanjidic : forall dv ls d e m, kanjidic_told dv ls d = Fail e (Some m) <->
  e = PlainException /\ exists pre l post, ls = pre ++ l :: post /\
    (forall x, In x pre -> ~ comment x -> exists ts en, segments (strip x) ts /\ accepted dv ts en) /\ kanjidic_culprit dv l m.
Proof. intros dv ls d e m. exact (kanjidic_said dv ls e m d). Qed.
(** A sentence is complained about exactly for its first piece that is no word; *)
Theorem C123_sentence : forall dv text e m, unicode_digits dv ->
  (sentence_told dv text = Fail e (Some m) <-> e = InvalidEntryError /\ word_culprit dv text m).
Proof. exact sentence_said. Qed.
(** the text alone tells the sentence and the piece; *)
Theorem C123_sentence_named : forall dv t t' m, word_culprit dv t m -> word_culprit dv t' m -> t = t' /\
  exists p, m = u "Failed to interpret word " ++ p ++ u " in sentence " ++ t /\ forall ps, pieces t ps -> In p ps.
Proof. exact culprit_names. Qed.
(** and so it is for the rows of the indices that are kept. *)
Theorem C123_indices : forall dv s ed rows d e m, unicode_digits dv ->
  (index_rows_told dv s ed rows d = Fail e (Some m) <->
   e = InvalidEntryError /\ exists pre a b t post d' i j, rows = pre ++ [a; b; t] :: post /\ index_rows dv s ed pre d = Ok d' /\
     py_int dv 10 a = Some i /\ py_int dv 10 b = Some j /\ (forall ids, s = Some ids -> In i ids) /\ word_culprit dv t m).
Proof. intros dv s ed rows d e m A. exact (index_said dv s ed rows e m A d). Qed.
(** A lookup that fails for want of the number says so and names the number: *)
Theorem C123_lookups : forall date (r r' : reader date) (l l' : lreader) (x x' : ireader) i j e e' m,
  (language_told r i = Fail e (Some m) -> language_told r' j = Fail e' (Some m) -> i = j) /\
  (sentence_of_told r i = Fail e (Some m) -> sentence_of_told r' j = Fail e' (Some m) -> i = j) /\
  (details_told r i = Fail e (Some m) -> details_told r' j = Fail e' (Some m) -> e = InvalidIDError -> i = j) /\
  (group_told l i = Fail e (Some m) -> group_told l' j = Fail e' (Some m) -> i = j) /\
  (link_told x i = Fail e (Some m) -> link_told x' j = Fail e' (Some m) -> i = j).
Proof.
  intros date r r' l l' x x' i j e e' m. repeat split.
  - unfold language_told. destruct (tables_of r) as [t|]; [|discriminate]. destruct (tables_of r') as [t'|]; [|discriminate]. cbn [silent tbind].
    destruct (find_lang i _); [discriminate|]. destruct (find_lang j _); [discriminate|]. intros A B. injection A as _ <-. injection B as _ B.
    symmetry. apply dec_inj. exact B.
  - unfold sentence_of_told. destruct (getitem r i) as [|[]]; try discriminate. destruct (getitem r' j) as [|[]]; try discriminate. intros A B. injection A as _ <-. injection B as _ B. symmetry. apply dec_inj. exact B.
  - unfold details_told. destruct (tables_of r) as [t|]; [|discriminate]. destruct (tables_of r') as [t'|]; [|discriminate]. cbn [silent tbind].
    destruct (detailed_info_dict t) as [dd|]; [|intros A _ ->; discriminate]. destruct (dget i dd); [discriminate|]. intros A. injection A as <- <-.
    destruct (detailed_info_dict t') as [dd'|]; [|discriminate]. destruct (dget j dd'); [discriminate|]. intros B _. injection B as _ B. symmetry. apply dec_inj. exact B.
  - unfold group_told. destruct (lgetitem l i) as [|[]]; try discriminate. destruct (lgetitem l' j) as [|[]]; try discriminate. intros A B. injection A as _ <-. injection B as _ B.
    symmetry. refine (after_dec _ _ _ _ _ _ B); intros c t E; injection E as <- _; intros [D|D]; [red in D; lia | discriminate | red in D; lia | discriminate].
  - unfold link_told. destruct (idicts x) as [d|]; [|discriminate]. destruct (idicts x') as [d'|]; [|discriminate]. cbn [of_option silent tbind].
    destruct (dget i (snd d)); [discriminate|]. destruct (dget j (snd d')); [discriminate|]. intros A B. injection A as _ <-. injection B as _ B.
    symmetry. refine (after_dec _ _ _ _ _ _ B); intros c t E; injection E as <- _; intros [D|D]; [red in D; lia | discriminate | red in D; lia | discriminate].
Qed.
(** exactly when, and in these words. *)
Theorem C123_lookups_said : forall date (r : reader date) (l : lreader) (x : ireader) i e m,
  (language_told r i = Fail e (Some m) <->
   e = InvalidIDError /\ m = u "No language found for sentence id " ++ dec i /\
   exists t, loaded r = Some t /\ forall lang ids, In (lang, ids) (language_dict t) -> ~ In i ids) /\
  (sentence_of_told r i = Fail e (Some m) <->
   e = InvalidIDError /\ m = u "Could not find sentence with ID " ++ dec i /\ exists t, loaded r = Some t /\ ~ In i (dkeys (sentence_dict t))) /\
  (details_told r i = Fail e (Some m) <-> exists t, loaded r = Some t /\
   ((detailed_info_dict t = None /\ e = MissingDataError /\ m = u "Detailed information not loaded.") \/
    (exists dd, detailed_info_dict t = Some dd /\ ~ In i (dkeys dd) /\ e = InvalidIDError /\ m = u "Detailed information not found for sentence ID " ++ dec i))) /\
  (group_told l i = Fail e (Some m) <->
   e = InvalidIDError /\ m = u "Could not find sentence ID " ++ dec i ++ u " in any groups" /\
   exists d, ldicts l = Some d /\ forall n, dget i (fst d) = Some n -> ~ In n (dkeys (snd d))) /\
  (link_told x i = Fail e (Some m) <->
   e = InvalidIDError /\ m = u "Sentence ID " ++ dec i ++ u " not found" /\ exists d, idicts x = Some d /\ ~ In i (dkeys (snd d))).
Proof.
  intros date r l x i e m. split; [|split; [|split; [|split]]].
  - unfold language_told, tables_of. destruct (loaded r) as [t|]; cbn [of_option silent tbind]; [|split; [discriminate|intros (_ & _ & t & T & _); discriminate]].
    assert (G : forall d : dict str (list Z), (find_lang i d = Raise InvalidIDError /\ forall lang ids, In (lang, ids) d -> ~ In i ids) \/
      (exists y, find_lang i d = Ok y) /\ exists lang ids, In (lang, ids) d /\ In i ids).
    { induction d as [|[k ids] d IH]; cbn [find_lang]; [left; split; [reflexivity|intros ? ? []]|].
      destruct (mem i ids) eqn:M; [right; split; [eexists; reflexivity|]; exists k, ids; split; [left; reflexivity|apply mem_In; exact M]|].
      destruct IH as [[-> N] | [E (k' & ids' & I & J)]]; [left|right].
      - split; [reflexivity|]. intros k' ids' [X|X]; [injection X as <- <-; intros J; apply mem_In in J; congruence|exact (N k' ids' X)].
      - split; [exact E|]. exists k', ids'. split; [right|]; assumption. }
    destruct (G (language_dict t)) as [[-> N] | [[y ->] (k & ids & I & J)]].
    + split; [intros E; injection E as <- <-; split; [reflexivity|split; [reflexivity|]]; exists t; split; [reflexivity|exact N]|intros (-> & -> & _); reflexivity].
    + split; [discriminate|]. intros (_ & _ & t' & T & N). injection T as <-. destruct (N k ids I J).
  - unfold sentence_of_told, getitem, tables_of. destruct (loaded r) as [t|]; cbn [of_option bind]; [|split; [discriminate|intros (_ & _ & t & T & _); discriminate]].
    unfold dgetitem. destruct (dget i (sentence_dict t)) as [y|] eqn:D; cbn [of_option].
    + split; [discriminate|]. intros (_ & _ & t' & T & N). injection T as <-. apply dget_None in N. congruence.
    + split; [intros E; injection E as <- <-; split; [reflexivity|split; [reflexivity|]]; exists t; split; [reflexivity|apply dget_None; exact D]|intros (-> & -> & _); reflexivity].
  - unfold details_told, tables_of. destruct (loaded r) as [t|]; cbn [of_option silent tbind]; [|split; [discriminate|intros (t & T & _); discriminate]].
    destruct (detailed_info_dict t) as [dd|] eqn:DD.
    + destruct (dget i dd) as [y|] eqn:D.
      * split; [discriminate|]. intros (t' & T & [[X _] | (dd' & X & N & _)]); injection T as <-; [congruence|]. apply dget_None in N. congruence.
      * split; [intros E; injection E as <- <-; exists t; split; [reflexivity|]; right; exists dd; repeat split; [exact DD|apply dget_None; exact D]|].
        intros (t' & T & [[X _] | (dd' & X & N & -> & ->)]); injection T as <-; [congruence|reflexivity].
    + split; [intros E; injection E as <- <-; exists t; split; [reflexivity|]; left; repeat split; exact DD|].
      intros (t' & T & [[X [-> ->]] | (dd' & X & _)]); injection T as <-; [reflexivity|congruence].
  - unfold group_told, lgetitem. destruct (ldicts l) as [d|]; cbn [of_option bind]; [|split; [discriminate|intros (_ & _ & t & T & _); discriminate]].
    unfold dgetitem. destruct (dget i (fst d)) as [n|] eqn:D; cbn [of_option bind]; [destruct (dget n (snd d)) as [y|] eqn:D2; cbn [of_option]|].
    + split; [discriminate|]. intros (_ & _ & d' & T & N). injection T as <-. specialize (N n D). apply dget_None in N. congruence.
    + split; [intros E; injection E as <- <-; split; [reflexivity|split; [reflexivity|]]; exists d; split; [reflexivity|]; intros n' E; rewrite D in E; injection E as <-; apply dget_None; exact D2|].
      intros (-> & -> & _); reflexivity.
    + split; [intros E; injection E as <- <-; split; [reflexivity|split; [reflexivity|]]; exists d; split; [reflexivity|]; intros n' E; congruence|].
      intros (-> & -> & _); reflexivity.
  - unfold link_told. destruct (idicts x) as [d|]; cbn [of_option silent tbind]; [|split; [discriminate|intros (_ & _ & t & T & _); discriminate]].
    destruct (dget i (snd d)) as [y|] eqn:D.
    + split; [discriminate|]. intros (_ & _ & d' & T & N). injection T as <-. apply dget_None in N. congruence.
    + split; [intros E; injection E as <- <-; split; [reflexivity|split; [reflexivity|]]; exists d; split; [reflexivity|apply dget_None; exact D]|].
      intros (-> & -> & _); reflexivity.
Qed.
(** The kind of filtering is refused, and shown in lower case, exactly when it is none
    of the three; a text exactly when it is no word; merging exactly when the words
    differ. *)
Theorem C123_arguments_said : forall dv lower,
  (forall s v e m, filter_told lower s v = Fail e (Some m) <->
     e = ValueError /\ m = u "Invalid sentence_ids_filter: " ++ lower v /\
     lower v <> u "sent_id" /\ lower v <> u "trans_id" /\ lower v <> u "both") /\
  (forall text e m, unicode_digits dv -> (from_text_told dv text = Fail e (Some m) <->
     e = InvalidEntryError /\ m = u "Could not interpret word " ++ text /\ forall w, ~ written dv text w)) /\
  (forall h old entry e m, wf h -> (old < length (Bilingual_model.entries h))%nat -> (entry < length (Bilingual_model.entries h))%nat ->
     (snd (update_told h old entry) = Fail e (Some m) <->
      e = PlainException /\ m = u "Can only merge homographs" /\ wd h old <> wd h entry)).
Proof.
  intros dv lower. split; [|split].
  - intros s v e m. unfold filter_told, ids_filter, filter_values. cbn [dget].
    destruct (eqb_spec (lower v) (u "sent_id")) as [E|N1]; [split; [discriminate|intros (_ & _ & N & _); contradiction]|].
    destruct (eqb_spec (lower v) (u "trans_id")) as [E|N2]; [split; [discriminate|intros (_ & _ & _ & N & _); contradiction]|].
    destruct (eqb_spec (lower v) (u "both")) as [E|N3]; [split; [discriminate|intros (_ & _ & _ & _ & N); contradiction]|].
    split; [intros E; injection E as <- <-; repeat split; assumption|intros (-> & -> & _); reflexivity].
  - intros text e m A. unfold from_text_told. destruct (from_text dv text) as [w|x] eqn:F.
    + split; [discriminate|]. intros (_ & _ & N). exfalso. apply (N w). apply Tanaka_proofs.from_text_iff; assumption.
    + pose proof (from_text_only' dv text x A F) as ->. split; [|intros (-> & -> & _); reflexivity].
      intros E. injection E as <- <-. split; [reflexivity|split; [reflexivity|]]. intros w W. apply Tanaka_proofs.from_text_iff in W; [congruence|exact A].
  - intros h old entry e m W O R. unfold update_told. destruct (eqb_spec (wd h old) (wd h entry)) as [E|N].
    + destruct (Bilingual_proofs.entry_update_ok h old entry W O R E) as [X _]. destruct (entry_update h old entry) as [h' [y|y]]; [|discriminate].
      split; [discriminate|]. intros (_ & _ & N). contradiction.
    + rewrite (Bilingual_proofs.entry_update_reject h old entry N). cbn [snd]. split; [|intros (-> & -> & _); reflexivity].
      intros X. injection X as <- <-. repeat split. exact N.
Qed.
(** A sentences file is complained about for the columns of its first row only. *)
Theorem C123_sentences : forall date dv (strptime : list Z -> res date) fr langs src e m,
  sentences_told dv strptime fr langs src = Fail e (Some m) <->
  e = InvalidFileError /\ m = u "Invalid sentences file, filesmust have either 3 or 6 columns." /\
  exists row rows, fst src = row :: rows /\ length row <> 3%nat /\ length row <> 6%nat.
Proof. intros date. exact (@sentences_said date). Qed.
(** What is said is not always so: a links file is said to need two columns when it
    has them, but no number in one; *)
Theorem C123_links_refuted : ~ forall dv s fs ft rows e m, unicode_digits dv ->
  links_told dv s fs ft rows = Fail e (Some m) -> m = u "Invalid links file - files must have 2 columns" -> exists row, In row rows /\ length row <> 2%nat.
Proof.
  intro H. destruct (H ascii_dv None false false [[u "1"; u "two"]] InvalidFileError (u "Invalid links file - files must have 2 columns")) as (row & [<-|[]] & N).
  - split; [exact ascii_dv_ok|]. intros c S. destruct (ascii_dv c) as [d|] eqn:D; [|reflexivity]. exfalso. unfold ascii_dv in D. destruct ((48 <=? c) && (c <=? 57)) eqn:R; [|discriminate].
    apply andb_prop in R. destruct R as [R1 R2]. apply Z.leb_le in R1, R2. assert (K : forall x, In x (map Z.of_nat (seq 48 10)) -> is_space x = false) by (intros x X; repeat (destruct X as [<-|X]; [reflexivity|]); destruct X).
    rewrite K in S; [discriminate|]. replace c with (Z.of_nat (Z.to_nat c)) by lia. apply in_map, in_seq. lia.
  - vm_compute. reflexivity.
  - reflexivity.
  - apply N. reflexivity.
Qed.
(** and of a radkfile only one fault is explained, and where is never said. *)
Theorem C123_radkfile : forall dv ls e m, radk_told dv ls = Fail e (Some m) <->
  e = PlainException /\ m = u "format error parsing radkfile" /\
  exists a l b, ls = a ++ l :: b /\ bad_line dv l PlainException /\ forall l', In l' a -> radical_line l' -> exists r n, header_of dv l' r n.
Proof. intros dv ls e m. rewrite radk_said. rewrite (parse_raise dv ls PlainException). reflexivity. Qed.

Example C123_case :
  from_file_told ascii_dv (u "p.txt") [] [u "0 a None"; u "1 b None"; u "3 c None"] = Fail PlainException (Some (u "Strange depth found p.txt (line 3)")) /\
  from_file_told ascii_dv (u "p.txt") [] [u "1 a None"] = Fail PlainException (Some (u "file p.txt should start with a root node")) /\
  from_file_told ascii_dv (u "p.txt") [] [u "0 a None"; u "x"] = Fail ValueError (Some (u "Can't parse line x")) /\
  from_file_told ascii_dv (u "p.txt") [] [u "x a None"] = Fail ValueError None.
Proof. vm_compute. repeat split. Qed.
Example C123_case_dictionary :
  let h := {| Bilingual_model.lists := []; Bilingual_model.entries := [] |} in
  snd (load_dictionary_told (fun s => s) h [u "　？？？ /x/"; u "猫 [ねこ] /cat/"; u "犬 [いぬ] none"]) = Fail FormatError (Some (u "No senses for word: 犬")) /\
  snd (load_dictionary_told (fun s => s) h [u "　？？？ /x/"; u "猫 [ねこ] /cat/"; u "犬"]) = Fail FormatError (Some (u "Bad line: 犬")) /\
  snd (load_dictionary_told (fun s => s) h [u "x"]) = Fail UnknownFormatError (Some (u "unknown header line: x")).
Proof. vm_compute. repeat split. Qed.
Example C123_case_more :
  kanjidic_told ascii_dv [u "# x"; u "亜 3021 U4e9c 亞"] [] = Fail PlainException (Some (u "Unknown segment 亞")) /\
  kanjidic_told ascii_dv [u "亜 3021 U4e9c"] [] = Fail KeyError None /\
  sentence_told ascii_dv (u "私(わたし) は{ ") = Fail InvalidEntryError (Some (u "Failed to interpret word は{ in sentence 私(わたし) は{ ")) /\
  radk_told ascii_dv [u "$ 一"] = Fail PlainException (Some (u "format error parsing radkfile")).
Proof. vm_compute. repeat split. Qed.
Example C123_case_lookups :
  let r := mkreader None (u "s.csv") (Some (mktables [(u "jpn", [1])] [(1, u "猫")] (Some []))) : reader unit in
  let bare := mkreader None (u "s.csv") (Some (mktables [] [] None)) : reader unit in
  language_told r 1 = Fine (u "jpn") /\ language_told r 2 = Fail InvalidIDError (Some (u "No language found for sentence id 2")) /\
  sentence_of_told r (-7) = Fail InvalidIDError (Some (u "Could not find sentence with ID -7")) /\
  details_told r 1 = Fail InvalidIDError (Some (u "Detailed information not found for sentence ID 1")) /\
  details_told bare 1 = Fail MissingDataError (Some (u "Detailed information not loaded.")) /\
  group_told (mklreader None false false [] [] (Some ([(1, 0%nat)], [(0%nat, [1])]))) 2 = Fail InvalidIDError (Some (u "Could not find sentence ID 2 in any groups")) /\
  link_told (mkireader None None [] (Some ([], []))) 10 = Fail InvalidIDError (Some (u "Sentence ID 10 not found")) /\
  filter_told (fun s => s) None (u "none") = Fail ValueError (Some (u "Invalid sentence_ids_filter: none")) /\
  from_text_told ascii_dv (u "は{") = Fail InvalidEntryError (Some (u "Could not interpret word は{")).
Proof. vm_compute. repeat split. Qed.
Print Assumptions C123_same.
Print Assumptions C123_place.
Print Assumptions C123_place_line.
Print Assumptions C123_dictionary.
Print Assumptions C123_dictionary_explained.
Print Assumptions C123_kanjidic.
Print Assumptions C123_sentence.
Print Assumptions C123_sentence_named.
Print Assumptions C123_indices.
Print Assumptions C123_lookups.
Print Assumptions C123_lookups_said.
Print Assumptions C123_arguments_said.
Print Assumptions C123_sentences.
Print Assumptions C123_links_refuted.
Print Assumptions C123_radkfile.
