(* FileLife_props.v -- properties C129-C130: the files of the readers *)
From Verif Require Import Base PyFmt PyText Csv_model Tanaka_model Tatoeba_model Kanjidic_model Files_model Encoding_model FileLife_model FileLife_spec FileLife_proofs.

(** ** C129: Kanjidic(files) *)
(** whatever happens, the streams open afterwards are those open before *)
Theorem C129_closed disk dv names w : sound w -> ~ In (u "-") names -> live (fst (kanjidic_init disk dv names w)) = live w.
Proof. exact (kanji_closed disk dv names w). Qed.
Print Assumptions C129_closed.
(** the events: the files are opened one after the other, up to the first that
    cannot be; only if all could is any line taken, those of each file before
    those of the next; then they are closed, the last one first.  If the
    constructor returns, every line has been taken. *)
Theorem C129_events disk dv names w w' r : sound w -> NoDup (live w) -> ~ In (u "-") names -> kanjidic_init disk dv names w = (w', r) ->
  let k := length (rest w) in
  exists ns later ss ms, names = ns ++ later /\ Forall2 (fun n s => disk n = Ok s) ns ss /\ length ms = length ns /\
    log w' = log w ++ opens k ns ++ gives k ms ++ closes k (length ns) /\
    match later with
    | [] => r = match names with [] => Raise TypeError | _ => chain_bytes dv ss [] end /\ (forall d, r = Ok d -> ms = map lines_of ss)
    | n :: _ => (exists e, disk n = Raise e /\ r = Raise e) /\ ms = repeat O (length ns)
    end.
Proof. exact (kanji_trace disk dv names w w' r). Qed.
Print Assumptions C129_events.
Theorem C129_result disk dv names w : sound w -> ~ In (u "-") names -> snd (kanjidic_init disk dv names w) =
  match names with [] => Raise TypeError | _ => do ss <- mapM disk names; chain_bytes dv ss [] end.
Proof. exact (kanji_result disk dv names w). Qed.
Print Assumptions C129_result.
(** the other streams are not read *)
Theorem C129_others disk dv names w j : sound w -> (j < length (rest w))%nat -> j <> 0%nat \/ ~ In (u "-") names ->
  nth_error (rest (fst (kanjidic_init disk dv names w))) j = nth_error (rest w) j.
Proof. exact (kanji_others disk dv names w j). Qed.
Print Assumptions C129_others.
(** "-" is the standard input: it is closed with the files, and once it is the
    constructor fails; naming it twice is naming it once *)
Theorem C129_stdin disk dv names w : sound w -> In (u "-") names -> Forall (fun n => n <> u "-" -> exists s, disk n = Ok s) names ->
  let '(w', r) := kanjidic_init disk dv names w in
  (In 0%nat (live w) -> live w' = filter (fun j => negb (Nat.eqb j 0)) (live w)) /\
  (~ In 0%nat (live w) -> live w' = live w /\ r = Raise ValueError).
Proof. exact (kanji_dash disk dv names w). Qed.
Print Assumptions C129_stdin.
Theorem C129_stdin_twice disk dv a b c w : sound w ->
  snd (kanjidic_init disk dv (a ++ u "-" :: b ++ u "-" :: c) w) = snd (kanjidic_init disk dv (a ++ u "-" :: b ++ c) w).
Proof. exact (kanji_twice disk dv a b c w). Qed.
Print Assumptions C129_stdin_twice.

(** cases *)
Definition ex_w : world := mkworld [0; 1]%nat [TextIn (mksource [] None); TextIn (mksource [] None)] [].
Definition ex_disk (n : str) : res stream_in :=
  if eqb n (u "a") then Ok (TextIn (mksource [u "# comment"; u "亜 3021 S7 P4-7-1 ア つぐ {Asia}"] None))
  else if eqb n (u "b") then Ok (TextIn (mksource [u "唖 3022 S10 P1-3-7 ア"; u "bad"; u "娃 3023 S9 P1-3-6 ア"] None))
  else if eqb n (u "c") then Ok (TextIn (mksource [u "1" ++ [9] ++ u "jpn" ++ [9] ++ u "x"; u "2" ++ [9] ++ u "jpn" ++ [9] ++ u "y"] None))
  else if eqb n (u "d") then Ok (TextIn (mksource [u "1" ++ [9] ++ u "jpn" ++ [9] ++ u "x"; u "q" ++ [9] ++ u "jpn" ++ [9] ++ u "y"] None))
  else Raise OSError.
Example C129_case_fails :
  let '(w, r) := kanjidic_init ex_disk ascii_dv [u "a"; u "b"] ex_w in
  r = Raise IndexError /\ live w = [0; 1]%nat /\
  log w = [Opened 2 (u "a"); Opened 3 (u "b"); Gave 2; Gave 2; Gave 3; Gave 3; Closed 3; Closed 2].
Proof. vm_compute; repeat split. Qed.
Example C129_case_missing :
  let '(w, r) := kanjidic_init ex_disk ascii_dv [u "a"; u "nowhere"; u "b"] ex_w in
  r = Raise OSError /\ live w = [0; 1]%nat /\ log w = [Opened 2 (u "a"); Closed 2].
Proof. vm_compute; repeat split. Qed.
Example C129_case_ok :
  let '(w, r) := kanjidic_init ex_disk ascii_dv [u "a"; u "-"; u "-"] ex_w in
  rmap (map fst) r = Ok [u "亜"] /\ live w = [1]%nat.
Proof. vm_compute; repeat split. Qed.

(** ** C130: the generator load_file *)
(** any number of generators over files, run in any order: each answers as if it
    were alone; the files open are those of the generators in the middle of their
    rows, one each; the others are not touched; and once every generator is
    exhausted, has failed or is closed, the streams open are those open before *)
Theorem C130_generators disk names ops w : bounded w -> Forall (fun n => n <> u "-") names ->
  let '(w', gs', outs) := run_gens disk ops (map (fun n => Fresh (Path n)) names) w in
  (forall k n, nth_error names k = Some n -> answers_of k outs = play (ops_of k ops) (Some (path_rows disk n))) /\
  (forall j, (j < length (rest w))%nat -> nth_error (rest w') j = nth_error (rest w) j) /\
  filter (fun j => Nat.ltb j (length (rest w))) (live w') = live w /\
  (forall j, In j (live w') -> In j (live w) \/ exists k, nth_error gs' k = Some (Paused (Owned j))) /\
  (forall k j, nth_error gs' k = Some (Paused (Owned j)) -> In j (live w') /\ ~ In j (live w)) /\
  (forall k k' j, nth_error gs' k = Some (Paused (Owned j)) -> nth_error gs' k' = Some (Paused (Owned j)) -> k = k') /\
  (forall k n, nth_error names k = Some n -> nth_error gs' k = Some Finished <-> after (ops_of k ops) (Some (path_rows disk n)) = None) /\
  ((forall k n, nth_error names k = Some n -> after (ops_of k ops) (Some (path_rows disk n)) = None) -> live w' = live w).
Proof. exact (gens_rows disk names ops w). Qed.
Print Assumptions C130_generators.
(** generators over streams of the caller neither open nor close anything *)
Theorem C130_buffers disk ids ops w :
  let '(w', gs', _) := run_gens disk ops (map (fun i => Fresh (Buffer i)) ids) w in live w' = live w.
Proof.
  apply borrows_run; apply Forall_forall; intros g H; apply in_map_iff in H; destruct H as [i [<- _]]; exact I.
Qed.
Print Assumptions C130_buffers.
(** generators over one and the same buffer share its rows: each row goes to
    whichever asks next *)
Theorem C130_buffers_shared disk i m ks w s : In i (live w) -> nth_error (rest w) i = Some s ->
  Forall (fun k => (k < m)%nat) ks -> (length ks <= length (fst (stream_rows s)))%nat ->
  map snd (snd (run_gens disk (map (fun k => (k, Next)) ks) (repeat (Fresh (Buffer i)) m) w)) =
  map (fun row => Ok (Some row)) (firstn (length ks) (fst (stream_rows s))).
Proof.
  intros L N K B; apply (shared_run disk i); [| |exact L|exact N|exact B].
  - apply Forall_forall; intros g H; left; apply repeat_spec in H; exact H.
  - rewrite repeat_length; exact K.
Qed.
Print Assumptions C130_buffers_shared.
(** and a buffer that is closed gives none: every reader fails and touches nothing *)
Theorem C130_buffers_closed disk i w : ~ In i (live w) ->
  (forall dv date (strptime : str -> res date) fr langs, let '(w', r, _) := sentences_life disk dv strptime fr langs (Buffer i) w in w' = w /\ r = Raise ValueError) /\
  (forall dv s fs ft, let '(w', r, _) := links_life disk dv s fs ft (Buffer i) w in w' = w /\ r = Raise ValueError) /\
  (forall dv s ed, let '(w', r, _) := indices_life disk dv s ed (Buffer i) w in w' = w /\ r = Raise ValueError).
Proof.
  intros L; pose proof (closed_next disk i w L) as E; repeat split; intros.
  - unfold sentences_life; rewrite E; split; reflexivity.
  - unfold links_life; destruct (gen_bound _ _ _); cbn [for_rows]; rewrite E; split; reflexivity.
  - unfold indices_life; destruct (gen_bound _ _ _); cbn [for_rows]; rewrite E; split; reflexivity.
Qed.
Print Assumptions C130_buffers_closed.
(** the links reader leaves no file open, whatever happens *)
Theorem C130_links disk dv s fs ft name w : bounded w -> name <> u "-" ->
  let '(w', r, kept) := links_life disk dv s fs ft (Path name) w in
  live w' = live w /\ kept = None /\
  r = (do st <- read_links dv s fs ft (fst (path_rows disk name)) (mklstate [] [] 0); do _ <- snd (path_rows disk name); Ok st).
Proof. exact (links_main disk dv s fs ft name w). Qed.
Print Assumptions C130_links.
(** the sentences and the indices readers leave none open if no row is refused *)
Theorem C130_sentences_partial disk dv date (strptime : str -> res date) filter_row langs name w : bounded w -> name <> u "-" ->
  let '(w', r, _) := sentences_life disk dv strptime filter_row langs (Path name) w in
  r = read_sentences dv strptime filter_row langs (path_rows disk name) /\
  (all_taken dv strptime filter_row langs (fst (path_rows disk name)) = true -> live w' = live w).
Proof.
  intros B N; pose proof (sentences_main disk dv date strptime filter_row langs name w B N) as H.
  destruct (sentences_life _ _ _ _ _ _ _) as [[w' r] kept]; destruct H as [A [C _]]; split; assumption.
Qed.
Print Assumptions C130_sentences_partial.
Theorem C130_indices_partial disk dv s edict name w : bounded w -> name <> u "-" ->
  let '(w', r, _) := indices_life disk dv s edict (Path name) w in
  r = (do d <- index_rows dv s edict (fst (path_rows disk name)) ([], []); do _ <- snd (path_rows disk name); Ok d) /\
  ((exists d, index_rows dv s edict (fst (path_rows disk name)) ([], []) = Ok d) -> live w' = live w).
Proof.
  intros B N; pose proof (indices_main disk dv s edict name w B N) as H.
  destruct (indices_life _ _ _ _ _ _) as [[w' r] kept]; destruct H as [A [C _]]; split; assumption.
Qed.
Print Assumptions C130_indices_partial.
(** if a row is refused the file stays open for as long as the exception is kept *)
Theorem C130_sentences_refuted disk dv date (strptime : str -> res date) filter_row langs name w : bounded w -> name <> u "-" ->
  all_taken dv strptime filter_row langs (fst (path_rows disk name)) = false ->
  let '(w', r, kept) := sentences_life disk dv strptime filter_row langs (Path name) w in held_open w w' kept.
Proof.
  intros B N T; pose proof (sentences_main disk dv date strptime filter_row langs name w B N) as H.
  destruct (sentences_life _ _ _ _ _ _ _) as [[w' r] kept]; destruct H as [_ [_ C]]; exact (C T).
Qed.
Print Assumptions C130_sentences_refuted.
Theorem C130_indices_refuted disk dv s edict name w : bounded w -> name <> u "-" ->
  (exists e, index_rows dv s edict (fst (path_rows disk name)) ([], []) = Raise e) ->
  let '(w', r, kept) := indices_life disk dv s edict (Path name) w in held_open w w' kept.
Proof.
  intros B N T; pose proof (indices_main disk dv s edict name w B N) as H.
  destruct (indices_life _ _ _ _ _ _) as [[w' r] kept]; destruct H as [_ [_ C]]; exact (C T).
Qed.
Print Assumptions C130_indices_refuted.

Example C130_case :
  let '(w, gs, outs) := run_gens ex_disk [(0, Next); (1, Next); (0, Next); (0, Next); (1, Close); (2, Next)]%nat
                          (map (fun n => Fresh (Path n)) [u "c"; u "c"; u "nowhere"]) ex_w in
  map snd outs = [Ok (Some [u "1"; u "jpn"; u "x"]); Ok (Some [u "1"; u "jpn"; u "x"]); Ok (Some [u "2"; u "jpn"; u "y"]); Ok None; Ok None; Raise OSError] /\
  live w = [0; 1]%nat /\ gs = [Finished; Finished; Finished].
Proof. vm_compute; repeat split. Qed.
Example C130_case_refused :
  let '(w, r, kept) := sentences_life ex_disk ascii_dv (fun s => Ok s) (fun _ => false) None (Path (u "d")) ex_w in
  r = Raise ValueError /\ live w = [2; 0; 1]%nat /\ kept = Some (Paused (Owned 2)) /\
  let '(w, r, kept) := links_life ex_disk ascii_dv None false false (Path (u "d")) ex_w in r = Raise InvalidFileError /\ live w = [0; 1]%nat.
Proof. vm_compute; repeat split. Qed.
Example C130_case_shared :
  let w := mkworld [0; 1; 2]%nat [TextIn (mksource [] None); TextIn (mksource [] None); TextIn (mksource [u "1"; u "2"; u "3"] None)] [] in
  map snd (snd (run_gens (fun _ => Raise ValueError) [(0, Next); (1, Next); (0, Next)]%nat (repeat (Fresh (Buffer 2)) 2) w)) = [Ok (Some [u "1"]); Ok (Some [u "2"]); Ok (Some [u "3"])].
Proof. vm_compute; reflexivity. Qed.
