(* DictBytes_props.v -- C118: dictionary files, from their bytes to lookups,
   under both Pythons. *)
From Verif Require Import Base PyStr PyText PyFmt Maps_model Common_model Csv_model Bilingual_model Bilingual_spec DictFormat_model DictFormat_spec DictFormat_proofs Bilingual_props FormatLang_spec FormatLang_proofs SplitCodes_model SplitCodes_spec SplitFiles_model SplitFiles_proofs Files_model Encoding_model Encoding_spec Python2_model Python2_spec Python2_proofs Written_spec Written_proofs Files_spec DictBytes_model DictBytes_spec DictBytes_proofs.

(** Python 3 where the locale's encoding is UTF-8: a dictionary file read by
    name gives what its lines give, however they end *)
Theorem C118_python3_partial disk stdin given h name lines : lines_in disk name lines ->
  dict_open disk utf8 given h name = load_dictionary h lines /\
  coded_open disk utf8 given h name = load_coded_dictionary h lines /\
  (ordinary name -> dict_sopen disk stdin utf8 given h name = load_dictionary h lines).
Proof.
  intros L; destruct (open_lines disk given h name lines L) as [A B]; split; [exact A|split; [exact B|]].
  intros O; rewrite (sopen_default disk stdin given utf8 h name O); exact A.
Qed.
Print Assumptions C118_python3_partial.

(** from the bytes to every answer *)
Theorem C118_lookups disk given h name hd lines f ps : wf h -> lines_in disk name (hd :: lines) -> header f hd -> Forall2 (entry_line f) lines ps ->
  (exists h' b, dict_open disk utf8 given h name = (h', Ok b) /\ dkeys b = distinct (map fst ps) /\
     forall w e, dget w b = Some e -> wd h' e = w /\ pairs h' e = pairs_for w ps) /\
  (exists h' cd, coded_open disk utf8 given h name = (h', Ok cd) /\
     forall c w, (exists e, dget w (words_of cd c) = Some e) <-> carried ps w c).
Proof.
  intros W L H F; destruct (open_lines disk given h name _ L) as [-> ->].
  pose proof (proj2 (file_exact f lines ps (header_known f hd H)) F) as M; split.
  - pose proof (load_spec h hd lines f W H) as P; rewrite M in P; destruct P as [h' [b [E [_ [K [G _]]]]]]; exists h', b; split; [exact E|split; [exact K|]].
    intros w e B; exact (proj2 (G w e B)).
  - destruct (coded_answers h hd lines f ps W H M) as [h' [cd [E A]]]; exists h', cd; split; [exact E|]; destruct (A []) as [cd' [_ [X _]]]; exact X.
Qed.
Print Assumptions C118_lookups.

(** in any locale a dictionary loads exactly when the whole file is decoded and
    the text loads; a malformed or a missing file is an error *)
Theorem C118_loads disk locale given h name h' b :
  dict_open disk locale given h name = (h', Ok b) <->
  exists bs t, disk name = Some bs /\ locale bs = (t, true) /\ load_dictionary h (file_lines t) = (h', Ok b).
Proof. exact (open_loads disk given locale h load_dictionary name h' b). Qed.
Print Assumptions C118_loads.
Theorem C118_coded_loads disk locale given h name h' cd :
  coded_open disk locale given h name = (h', Ok cd) <->
  exists bs t, disk name = Some bs /\ locale bs = (t, true) /\ load_coded_dictionary h (file_lines t) = (h', Ok cd).
Proof. exact (open_loads disk given locale h load_coded_dictionary name h' cd). Qed.
Print Assumptions C118_coded_loads.
Theorem C118_missing disk locale given stdin h name : disk name = None ->
  dict_open disk locale given h name = (h, Raise OSError) /\ coded_open disk locale given h name = (h, Raise OSError) /\
  (ordinary name -> dict_sopen disk stdin locale given h name = (h, Raise OSError)) /\
  dict_open2 disk h name = (h, Raise OSError) /\ coded_open2 disk h name = (h, Raise OSError).
Proof.
  intros D; assert (A : dict_open disk locale given h name = (h, Raise OSError)) by (unfold dict_open, open_default; rewrite D; reflexivity).
  split; [exact A|]; split; [unfold coded_open, open_default; rewrite D; reflexivity|]; split.
  - intros O; rewrite (sopen_default disk stdin given locale h name O); exact A.
  - unfold dict_open2, coded_open2, open_plain2; rewrite D; split; reflexivity.
Qed.
Print Assumptions C118_missing.

(** an EDICT file is not recognised where the locale's encoding is Latin-1 or
    ASCII *)
Theorem C118_locale_refuted disk given h name hd lines : lines_in disk name (hd :: lines) -> header edict hd ->
  dict_open disk latin1 given h name = (h, Raise UnknownFormatError) /\ coded_open disk latin1 given h name = (h, Raise UnknownFormatError) /\
  dict_open disk ascii given h name = (h, Raise UnicodeError) /\ coded_open disk ascii given h name = (h, Raise UnicodeError).
Proof. exact (edict_latin1 disk given h name hd lines). Qed.
Print Assumptions C118_locale_refuted.

(** Python 2, decoding: files whose lines end in line feeds are read alike,
    compressed or not, which Python 3 refuses *)
Theorem C118_python2_decoded_partial disk stdin given h name lines : name <> u "-" -> fed_in disk name lines ->
  dict_sopen2 disk stdin given h name = load_dictionary h lines.
Proof. exact (sopen2_fed disk stdin given h name lines). Qed.
Print Assumptions C118_python2_decoded_partial.
Theorem C118_compressed_refuted disk stdin locale given h name b c : compressed name -> disk name = Some (c :: b) ->
  dict_sopen disk stdin locale given h name = (h, Raise TypeError).
Proof. exact (sopen_compressed disk stdin given locale h name b c). Qed.
Print Assumptions C118_compressed_refuted.
(** an empty file has no line to look at, compressed or not *)
Theorem C118_empty disk stdin locale given h name : disk name = Some [] -> locale [] = ([], true) ->
  dict_open disk locale given h name = (h, Raise StopIteration) /\ coded_open disk locale given h name = (h, Raise StopIteration) /\
  (ordinary name \/ compressed name -> dict_sopen disk stdin locale given h name = (h, Raise StopIteration)).
Proof.
  intros D L.
  assert (O : dict_open disk locale given h name = (h, Raise StopIteration)) by (unfold dict_open; rewrite (open_text disk given locale h _ name _ [] D L); reflexivity).
  split; [exact O|split; [unfold coded_open; rewrite (open_text disk given locale h _ name _ [] D L); reflexivity|]].
  intros [N | C].
  - rewrite (sopen_default disk stdin given locale h name N). exact O.
  - unfold dict_sopen. rewrite (Python2_proofs.open_bytes_compressed disk stdin locale given name _ C D). reflexivity.
Qed.
Print Assumptions C118_empty.

(** Python 2, the builtin open: an EDICT file is never recognised, whatever
    follows the header; nor can any dictionary with a word outside ASCII be
    loaded *)
Theorem C118_edict_python2_refuted disk h name hd lines : lines_in disk name (hd :: lines) -> header edict hd ->
  dict_open2 disk h name = (h, Raise UnknownFormatError) /\ coded_open2 disk h name = (h, Raise UnknownFormatError).
Proof. exact (edict2 disk h name hd lines). Qed.
Print Assumptions C118_edict_python2_refuted.
Theorem C118_foreign_python2_refuted disk h name hd a l b f p : wf h -> fed_in disk name (hd :: a ++ l :: b) -> header f hd ->
  entry_line f l p -> ~ ASCII (fst p) ->
  (exists h' e, dict_open2 disk h name = (h', Raise e)) /\ (exists h' e, coded_open2 disk h name = (h', Raise e)).
Proof. exact (foreign2 disk h name hd a l b f p). Qed.
Print Assumptions C118_foreign_python2_refuted.
(** a line of bytes that is an entry: its word and its reading must be ASCII, or it is a UnicodeError *)
Theorem C118_line_python2 f hd l w r ss : header f hd -> entry_line f l (w, ([r], ss)) ->
  (ASCII w -> ASCII r -> parse_line2 f l = Ok (w, ([r], ss))) /\ (~ (ASCII w /\ ASCII r) -> parse_line2 f l = Raise UnicodeError).
Proof.
  intros H E. apply header_known in H. apply format_exact in E; [|exact H]. rewrite (parse2_ok f l w r ss E). split.
  - intros A B. rewrite (proj2 (ascii_true w) A), (proj2 (ascii_true r) B). reflexivity.
  - intro N. destruct (all_ascii w) eqn:A; [|reflexivity]. destruct (all_ascii r) eqn:B; [|reflexivity]. elim N. split; apply ascii_true; assumption.
Qed.
Print Assumptions C118_line_python2.
Theorem C118_words_python2 disk h name h' b : wf h -> dict_open2 disk h name = (h', Ok b) -> forall w, In w (dkeys b) -> ASCII w.
Proof. exact (open2_words disk h name h' b). Qed.
Print Assumptions C118_words_python2.
(** what is ASCII throughout is read alike *)
Theorem C118_ascii_python2 disk h name lines : fed_in disk name lines -> Forall ASCII lines ->
  dict_open2 disk h name = load_dictionary h lines /\ coded_open2 disk h name = load_coded_dictionary h lines.
Proof. exact (open2_ascii disk h name lines). Qed.
Print Assumptions C118_ascii_python2.

(** Python 2 keeps carriage returns: every entry of an EDICT or CEDICT file
    gains a sense, and the other formats are not recognised *)
Theorem C118_crlf_python2_refuted disk stdin given h name hd lines f : name <> u "-" -> crlf_in disk name (hd :: lines) -> header f hd ->
  (wf h -> f = edict \/ f = cedict -> forall ps, Forall2 (entry_line f) lines ps -> Forall (closed_by (u1 "/")) lines ->
   exists h' b, dict_sopen2 disk stdin given h name = (h', Ok b) /\ dkeys b = distinct (map fst ps) /\
     forall w e, dget w b = Some e -> wd h' e = w /\ pairs h' e = pairs_for w (map (with_sense [13]) ps)) /\
  (f = jc_kdic \/ f = cj_kdic -> dict_sopen2 disk stdin given h name = (h, Raise UnknownFormatError)).
Proof.
  intros N C H; split.
  - intros W K ps E L; exact (crlf_load disk stdin given h name hd lines f ps W N C H K E L).
  - exact (crlf_kdic disk stdin given h name hd lines f N C H).
Qed.
Print Assumptions C118_crlf_python2_refuted.

(** a byte order mark in front of the header hides it, unless the header is one
    that begins with three question marks *)
Theorem C118_bom_refuted disk stdin given stdin2 h name hd lines f : lines_in disk name ((bom :: hd) :: lines) -> header f hd ->
  ((exists q, hd = u "？？？" ++ q) ->
     dict_open disk utf8 given h name = load_dictionary h (hd :: lines) /\ coded_open disk utf8 given h name = load_coded_dictionary h (hd :: lines)) /\
  (~ (exists q, hd = u "？？？" ++ q) ->
     dict_open disk utf8 given h name = (h, Raise UnknownFormatError) /\ coded_open disk utf8 given h name = (h, Raise UnknownFormatError) /\
     (ordinary name -> dict_sopen disk stdin utf8 given h name = (h, Raise UnknownFormatError)) /\
     (name <> u "-" -> fed_in disk name ((bom :: hd) :: lines) -> dict_sopen2 disk stdin2 given h name = (h, Raise UnknownFormatError))).
Proof.
  intros L H; destruct (open_lines disk given h name _ L) as [A B]; destruct (bom_load h hd lines f H) as [X Y]; split; intros Q.
  - destruct (X Q) as [<- <-]; split; assumption.
  - destruct (Y Q) as [E1 E2]; rewrite E1 in A; rewrite E2 in B; split; [exact A|split; [exact B|split]].
    + intros O; rewrite (sopen_default disk stdin given utf8 h name O); exact A.
    + intros N F; rewrite (sopen2_fed disk stdin2 given h name _ N F); exact E1.
Qed.
Print Assumptions C118_bom_refuted.

(** three small files, and what becomes of them *)
Definition edict_lines : list (list Z) := [u "　？？？ /EDICT/"; u "山 [やま] /(n) mountain/"; u "山 [さん] /(suf) Mt/"].
Definition cedict_lines : list (list Z) := [u "# CEDICT 1"; u "a a /letter/"].
Definition dict_disk (n : list Z) : option (list Z) :=
  if eqb n (u "je") then Some (encoded (flat_map (fun l => l ++ [10]) edict_lines))
  else if eqb n (u "ce") then Some (encoded (flat_map (fun l => l ++ [10]) cedict_lines))
  else if eqb n (u "win") then Some (encoded (flat_map (fun l => l ++ [13; 10]) edict_lines)) else None.
Lemma case_chars l : forallb (fun c => ((0 <=? c) && (c <? 55296) || (57343 <? c) && (c <? 65536)) && negb (mem c [10; 13; 11; 12; 28; 29; 30; 133; 8232; 8233])) l = true -> Forall line_char l.
Proof.
  intros H; apply Forall_forall; intros c I; pose proof (proj1 (forallb_forall _ _) H c I) as X; apply andb_prop in X; destruct X as [X Y]; apply negb_true_iff in Y.
  split; [unfold scalar; lia|]; apply mem_false in Y; intros [[-> | ->]|E]; apply Y; [left; reflexivity|right; left; reflexivity|right; right; exact E].
Qed.
Lemma case_fed : fed_in dict_disk (u "je") edict_lines /\ fed_in dict_disk (u "ce") cedict_lines /\ crlf_in dict_disk (u "win") edict_lines.
Proof.
  assert (A : Forall (Forall line_char) edict_lines). { unfold edict_lines. apply Forall_cons; [apply case_chars; reflexivity|]. apply Forall_cons; [apply case_chars; reflexivity|]. apply Forall_cons; [apply case_chars; reflexivity|]. constructor. }
  assert (B : Forall (Forall line_char) cedict_lines) by (unfold cedict_lines; repeat (apply Forall_cons; [apply case_chars; reflexivity|]); constructor).
  assert (G : forall n ls, dict_disk n = Some (encoded (flat_map (fun l => l ++ [10]) ls)) -> Forall (Forall line_char) ls -> fed_in dict_disk n ls).
  { intros n ls D L; destruct (lines_fed ls L) as [S [R [ps [C E]]]]; eexists _, ps; split; [exact D|split; [exact S|split; [exact R|split; [|split; [exact C|exact E]]]]].
    clear - L; induction L as [|l ls L F IH]; [intros []|]; cbn [flat_map]; intros I; apply in_app_or in I; destruct I as [I|I]; [|exact (IH I)].
    apply in_app_or in I; destruct I as [I|[I|[]]]; [|discriminate I]; destruct (proj1 (Forall_forall _ _) L 13 I) as [_ X]; apply X; left; right; reflexivity. }
  split; [apply G; [reflexivity|exact A]|split; [apply G; [reflexivity|exact B]|split; [reflexivity|exact A]]].
Qed.
Example C118_case :
  lines_in dict_disk (u "je") edict_lines /\ header edict (u "　？？？ /EDICT/") /\
  (exists h b e, dict_open dict_disk utf8 (fun _ => 0%nat) ex_heap (u "je") = (h, Ok b) /\ dget (u "山") b = Some e /\
     pairs h e = [(u "やま", u "(n) mountain"); (u "さん", u "(suf) Mt")]) /\
  (exists h cd, coded_open dict_disk utf8 (fun _ => 0%nat) ex_heap (u "je") = (h, Ok cd) /\ dkeys cd = [u "n"; u "suf"]) /\
  dict_open2 dict_disk ex_heap (u "je") = (ex_heap, Raise UnknownFormatError) /\
  dict_open dict_disk latin1 (fun _ => 0%nat) ex_heap (u "je") = (ex_heap, Raise UnknownFormatError) /\
  (exists h b, dict_open2 dict_disk ex_heap (u "ce") = (h, Ok b) /\ dkeys b = [u "a"]) /\
  (exists h b e, dict_sopen2 dict_disk [] (fun _ => 0%nat) ex_heap (u "win") = (h, Ok b) /\ dget (u "山") b = Some e /\
     pairs h e = [(u "やま", u "(n) mountain"); (u "やま", [13]); (u "さん", u "(suf) Mt"); (u "さん", [13])]).
Proof.
  split; [apply fed_lines_in, case_fed|]; split; [exact (H_edict (u1 "　") (u " /EDICT/") false ltac:(discriminate) ltac:(apply mem_false; reflexivity))|].
  split; [eexists _, _, _; split; [vm_compute; reflexivity|split; vm_compute; reflexivity]|].
  split; [eexists _, _; split; vm_compute; reflexivity|].
  split; [vm_compute; reflexivity|split; [vm_compute; reflexivity|]].
  split; [eexists _, _; split; vm_compute; reflexivity|].
  eexists _, _, _; split; [vm_compute; reflexivity|split; vm_compute; reflexivity].
Qed.
Example C118_case_line_python2 :
  (exists w r ss, entry_line edict (u "山 [yama] /(n) mountain/") (w, ([r], ss)) /\ ~ ASCII w) /\
  parse_line2 edict (u "山 [yama] /(n) mountain/") = Raise UnicodeError /\ (exists q, parse_line2 edict (u "yama [yama] /(n) mountain/") = Ok q).
Proof.
  split; [|split; [vm_compute; reflexivity|eexists; vm_compute; reflexivity]].
  do 3 eexists. split; [apply format_exact; [left; reflexivity|]; vm_compute; reflexivity|].
  intro A. apply ascii_true in A. vm_compute in A. discriminate.
Qed.
