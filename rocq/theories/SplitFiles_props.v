(* SplitFiles_props.v -- C106, C107 *)
From Verif Require Import Base PyFmt Maps_model Common_model Bilingual_model Bilingual_spec Bilingual_props DictFormat_model DictFormat_spec
  SplitCodes_model SplitCodes_spec SplitFiles_model SplitFiles_proofs.
From Verif Require Files_spec.

(* ---------------- C106 ---------------- *)
(** a file name: the same as a stream of its lines; whatever happens, the
    streams that are open are those that were *)
Theorem C106_path content h name w c : content name = Some c -> (forall j, is_open w j = true -> (j < next_id w)%nat) ->
  exists w', load_coded_source content h (Path name) w = (w', Ok (load_coded_dictionary h (file_lines c))) /\
    forall j, is_open w' j = is_open w j.
Proof. exact (path_source content h name w c). Qed.
Print Assumptions C106_path.
Theorem C106_missing content h name w : content name = None -> load_coded_source content h (Path name) w = (w, Raise OSError).
Proof. exact (missing_source content h name w). Qed.
Print Assumptions C106_missing.
Theorem C106_stream content h i lines w : load_coded_source content h (Stream i lines) w = (w, Ok (load_coded_dictionary h lines)).
Proof. exact (stream_source content h i lines w). Qed.
Print Assumptions C106_stream.

(** line ends make no difference to any of the dictionary readers *)
Theorem C106_line_ends h c c' : Files_spec.same_lines c c' ->
  load_dictionary h (file_lines c) = load_dictionary h (file_lines c') /\
  iter_entries h (file_lines c) = iter_entries h (file_lines c') /\
  load_coded_dictionary h (file_lines c) = load_coded_dictionary h (file_lines c') /\
  iter_coded_entries h (file_lines c) = iter_coded_entries h (file_lines c').
Proof. exact (dictionary_same h c c'). Qed.
Print Assumptions C106_line_ends.

(** every lookup, in any sequence of lookups, answers with the words that carry
    the code; the codes looked up become keys *)
Theorem C106_lookups h hd lines f ps : wf h -> header f hd -> mapM (parse_line f) lines = Ok ps ->
  exists h' cd, load_coded_dictionary h (hd :: lines) = (h', Ok cd) /\
    forall cs, exists cd', dd_getitems cs cd = (cd', map (words_of cd) cs) /\
      (forall c w, (exists e, dget w (words_of cd c) = Some e) <-> carried ps w c) /\
      (forall c w e, dget w (words_of cd c) = Some e -> wd h' e = w /\ pairs h' e = pairs_for w ps) /\
      (forall c, words_of cd' c = words_of cd c) /\
      forall c, In c (dkeys cd') <-> In c (dkeys cd) \/ In c cs.
Proof. exact (coded_answers h hd lines f ps). Qed.
Print Assumptions C106_lookups.
Example C106_case :
  let text := u "　？？？？ /EDICT/" ++ [13; 10] ++ u "生 [なま] /(n) a/b (vs)/" ++ [13] ++ u "山 [やま] /(n) c/" in
  let w := {| opened := [0]; next_id := 1 |}%nat in
  exists h d, load_coded_source (fun _ => Some text) ex_heap (Path (u "f")) w = ({| opened := [0]; next_id := 2 |}%nat, Ok (h, Ok d)) /\
    exists d', dd_getitems [u "vs"; u "adj"; u "adj"; u "n"] d = (d', [[(u "生", 3%nat)]; []; []; [(u "生", 3%nat); (u "山", 4%nat)]]) /\
    dkeys d = [u "n"; u "vs"] /\ dkeys d' = [u "n"; u "vs"; u "adj"].
Proof. eexists _, _; split; [vm_compute; reflexivity|]; eexists; vm_compute; repeat split. Qed.

(* ---------------- C107 ---------------- *)
(** a file name is taken for the lines themselves, one character each *)
Theorem C107_names_refuted h name :
  iter_coded_name h name = (h, ([], Raise (match name with [] => RuntimeError | _ => UnknownFormatError end))).
Proof. exact (name_source h name). Qed.
Print Assumptions C107_names_refuted.
(** the lines of the file do give its entries *)
Theorem C107_lines_partial h hd lines f ps : wf h -> header f hd -> mapM (parse_line f) lines = Ok ps ->
  exists h', iter_coded_entries h (hd :: lines) =
      (h', (map (fun e => (e, codes_of (sn h' e))) (seq (length (entries h)) (length ps)), Ok tt)) /\
    forall i p, nth_error ps i = Some p -> let e := (length (entries h) + i)%nat in
      (wd h' e, (rd h' e, sn h' e)) = p /\ forall c, In c (codes_of (sn h' e)) <-> exists s, In s (snd (snd p)) /\ carries s c.
Proof. exact (coded_lines_ok h hd lines f ps). Qed.
Print Assumptions C107_lines_partial.
Example C107_case : snd (iter_coded_name ex_heap (u "edict")) = ([], Raise UnknownFormatError) /\
  exists e, snd (iter_coded_entries ex_heap [u "　？？？？ /EDICT/"; u "生 [なま] /(n) a/b (vs)/"]) = ([(e, [u "n"; u "vs"])], Ok tt).
Proof. split; [vm_compute; reflexivity|eexists; vm_compute; reflexivity]. Qed.
