From Verif Require Import Base PyText Csv_model Csv_spec Csv_proofs CsvLang_spec CsvLang_proofs.
From Verif Require Import Tatoeba_model.
#[local] Notation field := CsvLang_spec.field.

(** C101: for every source, the rows and the outcome are those of the grammar, and no others *)
Theorem C101_exact ls f rows o : load_file (mksource ls f) = (rows, o) <-> reads f (toks ls) rows o.
Proof. exact (load_reads ls f rows o). Qed.
Print Assumptions C101_exact.
(** ... so a text has one reading *)
Theorem C101_unique ls f rows o rows' o' : reads f (toks ls) rows o -> reads f (toks ls) rows' o' -> rows = rows' /\ o = o'.
Proof. intros A B; apply load_reads in A, B; rewrite A in B; injection B as <- <-; split; reflexivity. Qed.
Print Assumptions C101_unique.
(** lines without NUL, with line breaks only at their ends, are never refused
    while the whole text is within the limit for one field *)
Theorem C101_accepts ls f : Forall tidy ls -> Z.of_nat (length (concat ls)) <= 131072 ->
  snd (load_file (mksource ls f)) = match f with Some e => Raise e | None => Ok tt end.
Proof. exact (load_tidy ls f). Qed.
Print Assumptions C101_accepts.
(** no cell begins with a quote: each line is split at its tabs, a blank line is an empty row *)
Theorem C101_plain bes f : Forall (fun be => Forall text_field (split_on 9 (fst be)) /\ Forall line_break (snd be)) bes ->
  load_file (mksource (map (fun be => fst be ++ snd be) bes) f) =
  (map (fun be => match fst be with [] => [] | _ :: _ => split_on 9 (fst be) end) bes, match f with Some e => Raise e | None => Ok tt end).
Proof.
  intros F; rewrite load_plain by exact F; f_equal; apply map_ext; intros [[|c b] e]; reflexivity.
Qed.
Print Assumptions C101_plain.
(** a cell that begins with a quote which is the last one of the file takes all the rest of the file *)
Theorem C101_swallows fs w ls : Forall text_field fs -> Forall (fun c => c <> quote /\ c <> 0) (w ++ concat ls) -> short (w ++ concat ls) ->
  load_file (mksource ((flat_map (fun v => v ++ [9]) fs ++ quote :: w) :: ls) None) = ([fs ++ [w ++ concat ls]], Ok tt).
Proof. exact (load_swallow fs w ls). Qed.
Print Assumptions C101_swallows.
(** one blank line makes each of the readers refuse the file *)
Theorem C101_blank bes f : Forall (fun be => Forall text_field (split_on 9 (fst be)) /\ Forall line_break (snd be)) bes ->
  In [] (map fst bes) -> let src := load_file (mksource (map (fun be => fst be ++ snd be) bes) f) in
  (forall date dv (strptime : str -> res date) filter_row langs name, filter_row [] = false ->
     exists e, new_sentences dv strptime filter_row langs name src = Raise e) /\
  (forall dv lower name ids flt, exists e, snd (new_links dv lower name src ids flt) = Raise e) /\
  (forall dv name edict ids, exists e, new_indices dv name src edict ids = Raise e).
Proof.
  intros F I; cbv zeta; rewrite load_plain by exact F.
  assert (J : In [] (map (fun be => cells (fst be)) bes)).
  { apply in_map_iff in I; destruct I as [be [E I]]; apply in_map_iff; exists be; split; [rewrite E; reflexivity|exact I]. }
  set (rows := map (fun be => cells (fst be)) bes) in *; clearbody rows; repeat split.
  - intros date dv strptime filter_row langs name N; unfold new_sentences, set_sentences, read_sentences; cbn [languages].
    destruct rows as [|first rows]; [destruct J|].
    destruct (if Nat.eqb (length first) 3 then Ok false else if Nat.eqb (length first) 6 then Ok true else Raise InvalidFileError) as [d|e]; cbn [bind]; [|exists e; reflexivity].
    destruct (blank_sentences date dv strptime filter_row langs (first :: rows) N J (mktables [] [] (if d then Some [] else None))) as [e E].
    rewrite E; cbn [bind]; exists e; reflexivity.
  - intros dv lower name ids flt; unfold new_links; destruct (ids_filter lower (option_map (fun l => set_of l) ids) flt) as [[[fs ft] v]|e]; [|exists e; reflexivity].
    unfold set_links; cbn [fst snd subset filter_sent filter_trans]; rewrite blank_links by exact J; cbn [bind snd]; eexists; reflexivity.
  - intros dv name edict ids; unfold new_indices, set_indices; cbn [fst snd isubset iedict].
    destruct (blank_indices dv (option_map (fun l => set_of l) ids) edict rows J ([], [])) as [e E]; rewrite E; cbn [bind]; exists e; reflexivity.
Qed.
Print Assumptions C101_blank.

(** a quoted field over two lines, then a blank line, then an open quote *)
Example C101_case : let ls := [u "1" ++ [9] ++ u """a""""b" ++ [10]; u "c""d" ++ [9; 13; 10]; [10]; u "2" ++ [9] ++ u """x" ++ [10]; u "y"] in
  load_file (mksource ls None) = ([[u "1"; u "a""b" ++ [10] ++ u "cd"; []]; []; [u "2"; u "x" ++ [10] ++ u "y"]], Ok tt) /\
  reads None (toks ls) [[u "1"; u "a""b" ++ [10] ++ u "cd"; []]; []; [u "2"; u "x" ++ [10] ++ u "y"]] (Ok tt).
Proof. cbv zeta; rewrite <- C101_exact; split; vm_compute; reflexivity. Qed.
Example C101_stuck_case : load_file (mksource [u "1" ++ [9; 10]; u "a" ++ [13] ++ u "b"] None) = ([[u "1"; []]], Raise CsvError) /\
  stuck (toks [u "a" ++ [13] ++ u "b"]).
Proof.
  split; [vm_compute; reflexivity|]; apply (Stuck_after [] [] (map Some (u "a")) (u "a") [13] (u1 "b") [None]).
  - constructor.
  - apply Field_plain; [repeat constructor; discriminate|discriminate|vm_compute; discriminate].
  - constructor; [right; reflexivity|constructor].
  - discriminate.
  - unfold line_break; change (u1 "b") with 98; lia.
Qed.
Example C101_tidy_case : Forall tidy [u "1" ++ [9] ++ u """x" ++ [10]; u "y"].
Proof.
  constructor; [exists (u "1" ++ [9] ++ u """x"), [10]; split; [reflexivity|split; [|repeat constructor]]|constructor; [exists (u "y"), []; split; [reflexivity|split; [|constructor]]|constructor]];
    repeat constructor; try discriminate; intros [X|X]; vm_compute in X; discriminate X.
Qed.
Example C101_plain_case : load_file (mksource [u "1" ++ [9] ++ u "a ""b""" ++ [10]; [13; 10]; u "2" ++ [9]] None) = ([[u "1"; u "a ""b"""]; []; [u "2"; []]], Ok tt).
Proof. vm_compute; reflexivity. Qed.
Example C101_swallows_case : load_file (mksource [u "7" ++ [9] ++ u "eng" ++ [9] ++ u """Hi" ++ [10]; u "8" ++ [9] ++ u "eng" ++ [9] ++ u "Ho"] None) =
  ([[u "7"; u "eng"; u "Hi" ++ [10] ++ u "8" ++ [9] ++ u "eng" ++ [9] ++ u "Ho"]], Ok tt).
Proof. vm_compute; reflexivity. Qed.
Example C101_blank_case : Forall (fun be : str * str => Forall text_field (split_on 9 (fst be)) /\ Forall line_break (snd be)) [(u "1" ++ [9] ++ u "2", [10]); ([], [10])].
Proof.
  constructor; [|constructor; [|constructor]]; (split; [|repeat constructor]).
  - vm_compute; repeat constructor; try discriminate; intros X; discriminate X.
  - vm_compute; repeat constructor; try discriminate; intros X; discriminate X.
Qed.
