(* Reload_props.v -- property C136: corpus readers reloaded while in use *)
From Verif Require Import Base PyText PyFmt Csv_model Tanaka_model Tatoeba_model Tatoeba_spec Reload_model Reload_spec Reload_proofs.

(** ** C136.  Any number of calls of any threads, in any interleaving, any of
    them cut short.  What language(), sentence() and the ids tell is what one
    reader tells: the one there was, or one loaded with one of the files alone. *)
Theorem C136_one_file : forall dv date (strptime : str -> res date) filter_row (r0 : reader date) calls schedule j q r,
  existsb sets_languages calls = false -> nth_error calls j = Some (Ask q) ->
  (match q with Language _ | Sentence _ | Ids => True | _ => False end) ->
  nth_error (snd (prun (attrs_of r0, map (call_prog dv strptime filter_row) calls) schedule)) j = Some (Ret r) ->
  exists r', one_of dv strptime filter_row r0 calls r' /\ r = ask r' q.
Proof. intros dv date strptime filter_row; exact (one_file dv strptime filter_row). Qed.
Print Assumptions C136_one_file.

(** so do details(), save for a TypeError when a basic file takes the place of a
    detailed one between its two looks *)
Theorem C136_details : forall dv date (strptime : str -> res date) filter_row (r0 : reader date) calls schedule j i r,
  existsb sets_languages calls = false -> nth_error calls j = Some (Ask (Details i)) ->
  nth_error (snd (prun (attrs_of r0, map (call_prog dv strptime filter_row) calls) schedule)) j = Some (Ret r) ->
  (exists r', one_of dv strptime filter_row r0 calls r' /\ r = ask r' (Details i)) \/
  (r = Raise TypeError /\
   (exists r1, one_of dv strptime filter_row r0 calls r1 /\ ask r1 (Details i) <> Raise MissingDataError) /\
   exists r2, one_of dv strptime filter_row r0 calls r2 /\ ask r2 (Details i) = Raise MissingDataError).
Proof. intros dv date strptime filter_row; exact (details_answer dv strptime filter_row). Qed.
Print Assumptions C136_details.

(** the source named is one that has been given, loaded or not *)
Theorem C136_source : forall dv date (strptime : str -> res date) filter_row (r0 : reader date) calls schedule j r,
  nth_error calls j = Some (Ask Source) ->
  nth_error (snd (prun (attrs_of r0, map (call_prog dv strptime filter_row) calls) schedule)) j = Some (Ret r) ->
  r = Ok (Text (sentences_src r0)) \/ exists name src, In (Reload name src) calls /\ r = Ok (Text name).
Proof. intros dv date strptime filter_row; exact (source_answer dv strptime filter_row). Qed.
Print Assumptions C136_source.

(** what is asked once a reload has returned is answered from its file *)
Theorem C136_fresh : forall dv date (strptime : str -> res date) filter_row (r0 : reader date) calls j name src before after r1 k q r,
  nth_error calls j = Some (Reload name src) -> (forall i c, i <> j -> nth_error calls i = Some c -> exists q, c = Ask q) ->
  set_sentences dv strptime filter_row r0 name src = (r1, Ok tt) ->
  let w := (attrs_of r0, map (call_prog dv strptime filter_row) calls) in
  nth_error (snd (prun w before)) j = Some (Ret (Ok Done)) ->
  nth_error calls k = Some (Ask q) -> ~ In k before ->
  nth_error (snd (prun w (before ++ after))) k = Some (Ret r) -> r = ask r1 q.
Proof. intros dv date strptime filter_row; exact (fresh dv strptime filter_row). Qed.
Print Assumptions C136_fresh.

(** a call on its own does what the sequential model of C70-C72 does, and a
    reload puts right whatever interrupted ones have left *)
Theorem C136_alone : forall dv date (strptime : str -> res date) filter_row (r : reader date),
  (forall q, alone (call_prog dv strptime filter_row (Ask q)) (attrs_of r) = (attrs_of r, ask r q)) /\
  (forall name src, alone (call_prog dv strptime filter_row (Reload name src)) (attrs_of r) =
    let (r', o) := set_sentences dv strptime filter_row r name src in (attrs_of r', rmap (fun _ => Done) o)).
Proof.
  intros dv date strptime filter_row r; split; [intros q; exact (ask_alone r q)|intros name src; exact (reload_alone dv strptime filter_row r name src)].
Qed.
Print Assumptions C136_alone.
Theorem C136_repairs : forall dv date (strptime : str -> res date) filter_row (r : reader date) s name src r',
  languages r = a_languages s -> set_sentences dv strptime filter_row r name src = (r', Ok tt) ->
  alone (call_prog dv strptime filter_row (Reload name src)) s = (attrs_of r', Ok Done).
Proof. intros dv date strptime filter_row; exact (reload_repairs dv strptime filter_row). Qed.
Print Assumptions C136_repairs.

(** even if the languages wanted are changed meanwhile, every text and language
    told is that of a row of a file, of a language wanted at some time *)
Theorem C136_text : forall dv date (strptime : str -> res date) filter_row (r0 : reader date) calls schedule j i x,
  nth_error calls j = Some (Ask (Sentence i)) ->
  nth_error (snd (prun (attrs_of r0, map (call_prog dv strptime filter_row) calls) schedule)) j = Some (Ret (Ok (Text x))) ->
  sentence r0 i = Ok x \/ exists lang, let_in dv filter_row r0 calls i lang x.
Proof. intros dv date strptime filter_row; exact (text_from dv strptime filter_row). Qed.
Print Assumptions C136_text.
Theorem C136_language : forall dv date (strptime : str -> res date) filter_row (r0 : reader date) calls schedule j i lang,
  nth_error calls j = Some (Ask (Language i)) ->
  nth_error (snd (prun (attrs_of r0, map (call_prog dv strptime filter_row) calls) schedule)) j = Some (Ret (Ok (Text lang))) ->
  language r0 i = Ok lang \/ exists x, let_in dv filter_row r0 calls i lang x.
Proof. intros dv date strptime filter_row; exact (lang_from dv strptime filter_row). Qed.
Print Assumptions C136_language.

(** links: the list of groups and the ids are those of one file *)
Theorem C136_links_one_file : forall dv (r0 : lreader) calls schedule j c r,
  nth_error calls j = Some c -> (c = Groups \/ c = Known) ->
  nth_error (snd (prun (lattrs_of r0, map (lcall_prog dv (subset r0) (filter_sent r0) (filter_trans r0)) calls) schedule)) j = Some (Ret r) ->
  exists r', lone_of dv r0 calls r' /\ r = lask r' c.
Proof. exact lone_file. Qed.
Print Assumptions C136_links_one_file.
(** group() looks an id up in one file and the group in another *)
Theorem C136_group : forall dv (r0 : lreader) calls schedule j i r,
  nth_error calls j = Some (Group i) ->
  nth_error (snd (prun (lattrs_of r0, map (lcall_prog dv (subset r0) (filter_sent r0) (filter_trans r0)) calls) schedule)) j = Some (Ret r) ->
  exists old new, lone_of dv r0 calls old /\ lone_of dv r0 calls new /\
    (r = lask (mixed old new) (Group i) \/ r = Raise AttributeError /\ ldicts r0 = None).
Proof. exact group_answer. Qed.
Print Assumptions C136_group.
(** during one reload: as before it, as after it, or the new ids with the old groups *)
Theorem C136_group_once : forall dv (r0 : lreader) calls j name src r1 o,
  nth_error calls j = Some (ReloadLinks name src) -> (forall i c, i <> j -> nth_error calls i = Some c -> is_lreload c = false) ->
  set_links dv r0 name src = (r1, o) -> forall schedule k i r, nth_error calls k = Some (Group i) ->
  nth_error (snd (prun (lattrs_of r0, map (lcall_prog dv (subset r0) (filter_sent r0) (filter_trans r0)) calls) schedule)) k = Some (Ret r) ->
  ldicts r0 <> None ->
  r = lask r0 (Group i) \/ r = lask r1 (Group i) \/ r = lask (mixed r0 r1) (Group i).
Proof. exact group_once. Qed.
Print Assumptions C136_group_once.
Theorem C136_links_fresh : forall dv (r0 : lreader) calls j name src r1,
  nth_error calls j = Some (ReloadLinks name src) -> (forall i c, i <> j -> nth_error calls i = Some c -> is_lreload c = false) ->
  set_links dv r0 name src = (r1, Ok tt) -> forall before after k c r,
  let w := (lattrs_of r0, map (lcall_prog dv (subset r0) (filter_sent r0) (filter_trans r0)) calls) in
  nth_error (snd (prun w before)) j = Some (Ret (Ok LDone)) ->
  nth_error calls k = Some c -> is_lreload c = false -> ~ In k before ->
  nth_error (snd (prun w (before ++ after))) k = Some (Ret r) -> r = lask r1 c.
Proof. intros dv r0 calls j name src r1 E O S before after k c r; exact (lfresh dv r0 calls j name src r1 (Ok tt) E O S before after k c r eq_refl). Qed.
Print Assumptions C136_links_fresh.
Theorem C136_links_alone : forall dv (r0 : lreader),
  (forall c, is_lreload c = false -> alone (lcall_prog dv (subset r0) (filter_sent r0) (filter_trans r0) c) (lattrs_of r0) = (lattrs_of r0, lask r0 c)) /\
  (forall name src, alone (lcall_prog dv (subset r0) (filter_sent r0) (filter_trans r0) (ReloadLinks name src)) (lattrs_of r0) =
    let (r', o) := set_links dv r0 name src in (lattrs_of r', rmap (fun _ => LDone) o)) /\
  (forall s name src r', set_links dv r0 name src = (r', Ok tt) ->
    alone (lcall_prog dv (subset r0) (filter_sent r0) (filter_trans r0) (ReloadLinks name src)) s = (lattrs_of r', Ok LDone)).
Proof.
  intros dv r0; split; [intros c; exact (lask_alone dv r0 r0 c)|]; split; [exact (links_alone dv r0)|exact (links_repairs dv r0)].
Qed.
Print Assumptions C136_links_alone.

(** indices *)
Theorem C136_indices_one_file : forall dv (r0 : ireader) calls schedule j c r,
  nth_error calls j = Some c -> is_ireload c = false ->
  nth_error (snd (prun (iattrs_of r0, map (icall_prog dv (isubset r0) (iedict r0)) calls) schedule)) j = Some (Ret r) ->
  exists r', ione_of dv r0 calls r' /\ r = iask r' c.
Proof. exact ione_file. Qed.
Print Assumptions C136_indices_one_file.
Theorem C136_indices_alone : forall dv (r0 : ireader),
  (forall name src, alone (icall_prog dv (isubset r0) (iedict r0) (ReloadIndices name src)) (iattrs_of r0) =
    let (r', o) := set_indices dv r0 name src in (iattrs_of r', rmap (fun _ => IDone) o)) /\
  (forall s name src r', set_indices dv r0 name src = (r', Ok tt) ->
    alone (icall_prog dv (isubset r0) (iedict r0) (ReloadIndices name src)) s = (iattrs_of r', Ok IDone)).
Proof. intros dv r0; split; [exact (indices_alone dv r0)|exact (indices_repairs dv r0)]. Qed.
Print Assumptions C136_indices_alone.

(* ------------------------------------------------------------------ *)
(** ** Answers that do not belong together *)
Definition rows3 (l : list (str * str * str)) : rows_of := (map (fun '(a, b, c) => [a; b; c]) l, Ok tt).
Definition loaded_with (src : rows_of) : reader str := fst (set_sentences ascii_dv (fun s => Ok s) (fun _ => false) (mkreader None [] None) (u "old") src).
Definition links_of (ps : list (str * str)) : rows_of := (map (fun '(a, b) => [a; b]) ps, Ok tt).
Definition linked (src : rows_of) : lreader := fst (set_links ascii_dv (mklreader None false false (u "both") [] None) (u "old") src).

(** the two files have the same links, in another order; while the second is
    being loaded, or after its loading has been interrupted, group(3) is a group
    without 3 *)
Theorem C136_group_refuted :
  let r0 := linked (links_of [(u "1", u "2"); (u "3", u "4")]) in
  let src := links_of [(u "3", u "4"); (u "1", u "2")] in
  let calls := [ReloadLinks (u "new") src; Group 3] in
  let r1 := fst (set_links ascii_dv r0 (u "new") src) in
  lask r0 (Group 3) = Ok (Members [4; 3]) /\ lask r1 (Group 3) = Ok (Members [4; 3]) /\
  nth_error (snd (prun (lattrs_of r0, map (lcall_prog ascii_dv None false false) calls) [0; 0; 1; 1]%nat)) 1 = Some (Ret (Ok (Members [2; 1]))).
Proof. vm_compute; repeat split. Qed.
Print Assumptions C136_group_refuted.
(** a reload that is interrupted leaves the languages of one file and the texts of the other *)
Theorem C136_together_refuted :
  let r0 := loaded_with (rows3 [(u "1", u "jpn", u "犬")]) in
  let calls := [Reload (u "new") (rows3 [(u "1", u "eng", u "cat")]); Ask (Language 1); Ask (Sentence 1)] in
  snd (prun (attrs_of r0, map (call_prog ascii_dv (fun s => Ok s) (fun _ => false)) calls) [0; 0; 0; 1; 2]%nat) =
  [snd (steps 3 (attrs_of r0) (reload_prog ascii_dv (fun s => Ok s) (fun _ => false) (u "new") (rows3 [(u "1", u "eng", u "cat")])));
   Ret (Ok (Text (u "eng"))); Ret (Ok (Text (u "犬")))].
Proof. vm_compute; reflexivity. Qed.
Print Assumptions C136_together_refuted.
(** details() finds no details between its two looks; a reload finds the
    languages set to None between two looks of its own *)
Theorem C136_type_error_refuted :
  let r0 := loaded_with ([[u "1"; u "jpn"; u "犬"; u "me"; u "\N"; u "\N"]], Ok tt) in
  let src := rows3 [(u "1", u "jpn", u "犬")] in
  let run r0 calls schedule := snd (prun (attrs_of r0, map (call_prog ascii_dv (fun s => Ok s) (fun _ => false)) calls) schedule) in
  run r0 [Reload (u "new") src; Ask (Details 1)] [1; 0; 0; 0; 0; 0; 1]%nat = [Ret (Ok Done); Ret (Raise TypeError)] /\
  run (mkreader (Some [u "jpn"]) (u "old") (loaded r0)) [Reload (u "new") src; SetLanguages None] [0; 0; 1; 0]%nat = [Ret (Raise TypeError); Ret (Ok Done)].
Proof. vm_compute; repeat split. Qed.
Print Assumptions C136_type_error_refuted.

Example C136_case :
  let r0 := loaded_with (rows3 [(u "1", u "jpn", u "犬")]) in
  let src := rows3 [(u "1", u "eng", u "cat"); (u "2", u "eng", u "dog")] in
  let calls := [Reload (u "new") src; Ask (Sentence 1); Ask Ids; Ask (Language 2); Ask (Details 1); Ask Source] in
  existsb sets_languages calls = false /\
  snd (prun (attrs_of r0, map (call_prog ascii_dv (fun s => Ok s) (fun _ => false)) calls) [0; 5; 0; 1; 0; 0; 3; 0; 2; 4; 0]%nat) =
  [Ret (Ok Done); Ret (Ok (Text (u "犬"))); Ret (Ok (IdList [1; 2])); Ret (Ok (Text (u "eng"))); Ret (Raise MissingDataError); Ret (Ok (Text (u "new")))].
Proof. vm_compute; repeat split. Qed.
Example C136_case_fresh :
  let r0 := loaded_with (rows3 [(u "1", u "jpn", u "犬")]) in
  let src := rows3 [(u "1", u "eng", u "cat")] in
  let calls := [Ask (Language 1); Reload (u "new") src; Ask (Sentence 1)] in
  let w := (attrs_of r0, map (call_prog ascii_dv (fun s => Ok s) (fun _ => false)) calls) in
  (forall i c, i <> 1%nat -> nth_error calls i = Some c -> exists q, c = Ask q) /\
  snd (set_sentences ascii_dv (fun s => Ok s) (fun _ => false) r0 (u "new") src) = Ok tt /\
  nth_error (snd (prun w [1; 0; 1; 1; 1; 1]%nat)) 1 = Some (Ret (Ok Done)) /\
  nth_error (snd (prun w ([1; 0; 1; 1; 1; 1] ++ [2])%nat)) 2 = Some (Ret (Ok (Text (u "cat")))).
Proof.
  split; [|vm_compute; repeat split].
  intros [|[|[|i]]] c N E; cbn in E; try congruence; try (injection E as <-; eauto); destruct i; discriminate.
Qed.
Example C136_case_languages :
  let r0 := loaded_with (rows3 [(u "1", u "jpn", u "犬")]) in
  let src := rows3 [(u "1", u "eng", u "cat"); (u "2", u "deu", u "Hund"); (u "3", u "jpn", u "猫")] in
  let calls := [SetLanguages (Some [u "eng"]); Reload (u "new") src; SetLanguages (Some [u "jpn"]); Ask Ids; Ask (Sentence 3)] in
  snd (prun (attrs_of r0, map (call_prog ascii_dv (fun s => Ok s) (fun _ => false)) calls) [0; 1; 1; 1; 2; 1; 1; 1; 1; 1; 1; 1; 3; 4]%nat) =
  [Ret (Ok Done); Ret (Ok Done); Ret (Ok Done); Ret (Ok (IdList [1; 3])); Ret (Ok (Text (u "猫")))].
Proof. vm_compute; reflexivity. Qed.
Example C136_case_repairs :
  let src := rows3 [(u "1", u "eng", u "cat")] in
  let s := mkattrs None (u "new") (Some [(u "eng", [1])]) (Some [(1, u "犬")]) (Some None) : @attrs str in
  let r := mkreader None (u "old") None : reader str in
  languages r = a_languages s /\ snd (set_sentences ascii_dv (fun s => Ok s) (fun _ => false) r (u "again") src) = Ok tt /\
  a_sentence_dict (fst (alone (reload_prog ascii_dv (fun s => Ok s) (fun _ => false) (u "again") src) s)) = Some [(1, u "cat")].
Proof. vm_compute; repeat split. Qed.
Example C136_case_links :
  let r0 := linked (links_of [(u "1", u "2"); (u "3", u "4")]) in
  let calls := [Group 1; ReloadLinks (u "new") (links_of [(u "1", u "5")]); Groups; Known; Group 5] in
  ldicts r0 <> None /\
  snd (prun (lattrs_of r0, map (lcall_prog ascii_dv None false false) calls) [0; 1; 0; 1; 2; 3; 1; 4; 4]%nat) =
  [Ret (Ok (Members [2; 1])); Ret (Ok LDone); Ret (Ok (AllGroups [[2; 1]; [4; 3]])); Ret (Ok (Keys [5; 1])); Ret (Ok (Members [5; 1]))].
Proof. vm_compute; split; [discriminate|reflexivity]. Qed.
Example C136_case_indices :
  let r0 := mkireader None None (u "old") (Some ([(1, [])], [(1, 7)])) in
  let calls := [ReloadIndices (u "new") ([[u "1"; u "8"; u "犬"]], Ok tt); Words 1; Link 1] in
  snd (prun (iattrs_of r0, map (icall_prog ascii_dv None None) calls) [0; 0; 1; 2; 0]%nat) =
  [Ret (Ok IDone); Ret (Ok (WordList [mkword (u "犬") None None None false])); Ret (Ok (Number 7))].
Proof. vm_compute; reflexivity. Qed.
