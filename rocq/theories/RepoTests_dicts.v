(* RepoTests_dicts.v -- test_auto_format.py, test_bilingual_dict.py and test_split_by_codes.py of
   /repo/cjktools/tests/resources run on the model: checks on single inputs; no
   property rests on them. *)
From Verif Require Import Base PyText Maps_model DictFormat_model Bilingual_model SplitCodes_model RepoTests_core.

(** a line with its end *)
Definition ln (s : str) : str := s ++ [10].
Definition no_objects : heap := {| lists := []; entries := [] |}.
Definition edict_sample : list str := 
[ln (u "　？？？ /EDICT, EDICT_SUB(P), EDICT2 Japanese-English Electronic Dictionary Files/Copyright Electronic Dictionary Research & Development Group - 2011/Created: 2011-07-03/");
  ln (u "齧歯目 [げっしもく] /(n) (1) Rodentia/(adj-no) (2) rat-like/rodential/");
  ln (u "齲歯 [うし] /(n,adj-no) cavity/tooth decay/decayed tooth/caries/");
  ln (u "齲歯 [むしば] /(n,adj-no) cavity/tooth decay/decayed tooth/caries/")].
Definition jplaces_sample : list str := 
[ln (u "？？？？ /J_PLACES  A file of Japanese place names compiled from the files from the www.postal.mpt.go.jp site, Dec 1998 version/");
  ln (u "秋葉原 [あきはばら] /Akihabara (loc)/");
  ln (u "上野 [うえの] /Ueno (loc)/")].
(* test_auto_format.py:46-59 *)
Example test_formats :
  rmap name (detect_format (hd [] edict_sample)) = Ok (u "edict") /\ rmap name (detect_format (hd [] jplaces_sample)) = Ok (u "edict") /\
  detect_format (u "BAD HEADER は BAD HEADER") = Raise UnknownFormatError.
Proof. vm_compute; repeat split. Qed.
Definition lookup (out : heap * res (dict str addr)) (key : str) : option (list str * list str) :=
  match out with
  | (h, Ok d) => option_map (fun a => (list_at h (readings (entry_at h a)), list_at h (senses (entry_at h a)))) (dget key d)
  | _ => None
  end.
(* test_auto_format.py:61-83 *)
Example test_edict :
  let d := load_dictionary no_objects edict_sample in
  rmap (@length (str * addr)) (snd d) = Ok 2%nat /\
  lookup d (u "齧歯目") = Some ([u "げっしもく"], [u "(n) (1) Rodentia"; u "(adj-no) (2) rat-like"; u "rodential"]) /\
  lookup d (u "齲歯") = Some (repeat (u "うし") 4 ++ repeat (u "むしば") 4,
    let s := [u "(n,adj-no) cavity"; u "tooth decay"; u "decayed tooth"; u "caries"] in s ++ s).
Proof. vm_compute; repeat split. Qed.
(* test_auto_format.py:85-98 *)
Example test_edict_senses :
  let d := load_dictionary no_objects edict_sample in
  (do t <- snd d; do a <- dgetitem t (u "齧歯目"); entry_senses_by_reading (fst d) a) =
  Ok [(u "げっしもく", [u "(n) (1) Rodentia"; u "(adj-no) (2) rat-like"; u "rodential"])].
Proof. vm_compute; reflexivity. Qed.

(* ---------------- test_bilingual_dict.py ---------------- *)
(* test_bilingual_dict.py:24-56 *)
Example test_update :
  let d1 := dset (u "a") 2 [] in let d2 := [(u "a", 4); (u "b", 1)] in
  (let d := bd_update d1 d2 Overwrite in snd d = Ok tt /\ dget (u "a") (fst d) = Some 4 /\ dget (u "b") (fst d) = Some 1) /\
  snd (bd_update d1 d2 Merge) = Raise NotYetImplementedError.
Proof. vm_compute; repeat split. Qed.

(* ---------------- test_split_by_codes.py ---------------- *)
Definition enamdict_sample : list str := 
[ln (u "？？？？ /ENAMDICT - Japanese Proper Name Dictionary File/Copyright Electronic Dictionary Research & Development Group, Monash University, 2007/Created: 2011-07-03/");
  ln (u "秋葉橋 [あきはばし] /Akihabashi (p)/");
  ln (u "秋葉橋 [あきばばし] /Akibabashi (p)/")].
Definition edict_sample2 : list str := 
[ln (u "　？？？ /EDICT, EDICT_SUB(P), EDICT2 Japanese-English Electronic Dictionary Files/Copyright Electronic Dictionary Research & Development Group - 2011/Created: 2011-07-03/");
  ln (u "素晴らしい [すばらしい] /(adj-i) wonderful/splendid/magnificent/(P)/");
  ln (u "素晴らしい [すんばらしい] /(adj-i) wonderful/splendid/magnificent/")].
(* test_split_by_codes.py:37-44; the result is a defaultdict: a missing code reads as an empty dictionary *)
Example test_enamdict :
  let coded := load_coded_dictionary no_objects enamdict_sample in
  ok_and (fun d => dmem (u "p") d && match dget (u "p") d with Some p => dmem (u "秋葉橋") p | None => false end &&
    negb (dmem (u "秋葉橋") (match dget (u "s") d with Some s => s | None => [] end))) (snd coded) = true.
Proof. vm_compute; reflexivity. Qed.
(* test_split_by_codes.py:46-58 *)
Example test_edict_coded :
  let coded := load_coded_dictionary no_objects edict_sample2 in
  exists d adjectives a, snd coded = Ok d /\ dget (u "adj-i") d = Some adjectives /\ dget (u "素晴らしい") adjectives = Some a /\
  let rs := list_at (fst coded) (readings (entry_at (fst coded) a)) in
  hd [] rs = u "すばらしい" /\ last rs [] = u "すんばらしい".
Proof. do 3 eexists; split; [vm_compute; reflexivity|split; [vm_compute; reflexivity|split; [vm_compute; reflexivity|vm_compute; split; reflexivity]]]. Qed.
