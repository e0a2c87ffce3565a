From Verif Require Import Base PyStr PyText PyFmt Maps_model Common_model Csv_spec Csv_model Csv_proofs Bilingual_spec Tanaka_model Tanaka_spec Tatoeba_model Tatoeba_spec Kanjidic_model Kanjidic_spec Kanjidic_proofs Kanjidic_props Radk_model Radk_spec Radk_proofs Pinyin_model Pinyin_spec Pinyin_proofs Files_model Files_spec Files_proofs Encoding_model Encoding_spec Utf8_proofs Encoding_proofs Python2_model Python2_spec Python2_proofs Python2_props Corpus_model Corpus_spec Corpus_proofs Corpus_props Written_spec Written_proofs.

(** C117: what is written in the files is what queries answer, in both Pythons.
    All lines can be written *)
Theorem C117_files disk name lines : Forall (Forall line_char) lines -> disk name = Some (encoded (flat_map (fun l => l ++ [10]) lines)) -> lines_in disk name lines.
Proof.
  intros F D. destruct (lines_fed lines F) as (S & R & ps & C & E). exists (flat_map (fun l => l ++ [10]) lines), ps. auto.
Qed.
Print Assumptions C117_files.

Theorem C117_kanjidic dv disk stdin sin given names itemss : names <> [] -> Forall ordinary names ->
  Forall2 (fun n is => exists lines, lines_in disk n lines /\ Forall2 writes is lines) names itemss ->
  (forall k hex fs, In (Entry k hex fs) (concat itemss) -> exists jis sc codes, sound dv hex fs jis sc codes) ->
  exists d, kanjidic_bytes dv disk sin utf8 given names = Ok d /\ kanjidic2 dv disk stdin given names = Ok d /\
    (forall k, In k (dkeys d) <-> exists hex fs, In (Entry k hex fs) (concat itemss)) /\
    forall a k hex fs b jis sc codes, concat itemss = a ++ Entry k hex fs :: b -> (forall hex' fs', ~ In (Entry k hex' fs') b) -> sound dv hex fs jis sc codes ->
      exists e, dget k d = Some e /\ shows dv k fs jis sc codes e.
Proof.
  intros N O F W. destruct (items_concat names disk itemss F) as (liness & L & Fw).
  destruct (lines_names disk names liness L) as (ts & T & Ta).
  destruct (C116_kanjidic_partial dv disk stdin sin given names ts N O T) as [E1 E2].
  assert (NL : liness <> []) by (destruct L; [contradiction|discriminate]).
  destruct (items_init dv liness (concat itemss) NL Fw W) as (d & I & K & Q).
  rewrite (init_tailed dv _ _ Ta), I in E2. rewrite E2 in E1. exists d. split; [congruence|]. split; [exact E2|]. split; [exact K|exact Q].
Qed.
Print Assumptions C117_kanjidic.

Theorem C117_radicals dv disk given name lines is : lines_in disk name lines -> Forall2 (rwrites dv) is lines ->
  exists d, radk_bytes dv disk utf8 given name = Ok d /\ radk2 dv disk given name = Ok d /\
    (forall k r, In (Some r) (dlist k (items d)) <-> under is r k) /\
    (forall k, In None (dlist k (items d)) <-> before_radicals is k) /\
    forall r n, dget (Some r) (radical_to_stroke_count d) = Some n <-> last_strokes is r n.
Proof.
  intros L F. destruct (loads_items dv is lines F) as [d P]. destruct (lines_readers dv disk given name lines L) as (E1 & E2 & _).
  exists d. rewrite E1, E2. split; [exact P|]. split; [exact P|]. split; [|split].
  - intros k r. exact (member_items dv is lines d k (Some r) F P).
  - intros k. exact (member_items dv is lines d k None F P).
  - intros r n. destruct (loaded dv lines d P) as (bs & _ & _ & _ & _ & _ & _ & _ & S). rewrite S. apply strokes_items, F.
Qed.
Print Assumptions C117_radicals.

Theorem C117_zhuyin disk given name lines rs ps : lines_in disk name lines -> rows lines rs -> two_columns rs ps ->
  exists d d', zhuyin_bytes disk utf8 given name = Ok d /\ zhuyin2 disk given name = Ok d /\
    pinyin_bytes disk utf8 given name = Ok d' /\ pinyin2 disk given name = Ok d' /\
    all_pinyin_bytes disk utf8 given name = Ok (u "r" :: map snd ps) /\ all_pinyin2 disk given name = Ok (u "r" :: map snd ps) /\
    (forall z p, dget z d = Some p <-> last_for ps z p) /\
    (forall p z, dget p d' = Some z <-> last_for (map (fun p => (snd p, fst p)) ps) p z).
Proof.
  intros L R T. destruct (lines_readers ascii_dv disk given name lines L) as (_ & _ & -> & -> & -> & -> & -> & -> & _).
  destruct (to_pinyin_ok lines rs ps R T) as (d & -> & D). destruct (to_zhuyin_ok lines rs ps R T) as (d' & -> & D').
  rewrite (all_pinyin_ok lines rs ps R T). exists d, d'. repeat split; try apply D; try apply D'.
Qed.
Print Assumptions C117_zhuyin.

(** hanzi to pinyin with tone numbers; the file is read by codecs.open in both *)
Theorem C117_hanzi disk given name lines rs es lower seg : lines_in disk name lines -> rows lines rs -> entries_of rs es ->
  exists d, table_bytes disk given name = Ok d /\ (forall h r, dget h d = Some r <-> last_for es h r) /\
    forall s readings, Forall2 (reading es) s readings -> from_hanzi lower seg d s false true = Ok (concat readings).
Proof.
  intros L R T. destruct (lines_readers ascii_dv disk given name lines L) as (_ & _ & _ & _ & _ & _ & _ & _ & ->).
  destruct (load_last lines rs es R T) as (d & D & Q). exists d. split; [exact D|]. split; [exact Q|].
  intros s readings F. exact (hanzi_raw lower seg lines rs es d s readings R T D F).
Qed.
Print Assumptions C117_hanzi.

(** corpora *)
Definition loaded_by disk sin stdin given name (rows : rows_of) : Prop :=
  rows = load_bytes disk sin utf8 given name \/ rows = load2 disk stdin given name.
Theorem C117_sentences date dv (strptime : str -> res date) langs disk sin stdin given name (es : list (Z * str * str)) rows : ascii_digits dv -> es <> [] -> ordinary name ->
  Forall (fun e => cell_ok (dec (fst (fst e))) /\ cell_ok (snd (fst e)) /\ cell_ok (snd e)) es ->
  disk name = Some (encoded (file_of (map sentence_row es))) -> loaded_by disk sin stdin given name rows ->
  exists r, new_sentences dv strptime (fun _ => false) langs name rows = Ok r /\
    (forall a b i l t, filter (fun e => wanted langs (snd (fst e))) es = a ++ (i, l, t) :: b -> Forall (fun e => fst (fst e) <> i) b -> sentence r i = Ok t) /\
    (forall i, Forall (fun e => fst (fst e) <> i \/ ~ wants langs (snd (fst e))) es -> sentence r i = Raise InvalidIDError).
Proof.
  intros A N O F D L.
  assert (R : rows = load_text_file (file_of (map sentence_row es))).
  { destruct (rows_readers disk given stdin sin name (map sentence_row es) O) with (2 := D) as (E1 & E2 & _).
    - apply Forall_forall. intros row I. apply in_map_iff in I. destruct I as (((i, l), t) & <- & I). rewrite Forall_forall in F. destruct (F _ I) as (X & Y & Z).
      split; [discriminate|]. split; [discriminate|]. repeat constructor; try apply X; try apply Y; apply Z.
    - destruct L as [-> | ->]; assumption. }
  rewrite R. apply C92_sentences; [exact A|exact N|]. revert F. apply Forall_impl. intros e (X & Y & Z). split; [apply X|]. split; [apply Y|apply Z].
Qed.
Print Assumptions C117_sentences.
Theorem C117_links dv lower disk sin stdin given name ids flt (ps : list (Z * Z)) rows : ascii_digits dv -> filter_name (lower flt) -> ordinary name ->
  Forall (fun p => cell_ok (dec (fst p)) /\ cell_ok (dec (snd p))) ps ->
  disk name = Some (encoded (file_of (map link_row_of ps))) -> loaded_by disk sin stdin given name rows ->
  exists r, new_links dv lower name rows ids flt = (true, Ok r) /\
    (forall i, (exists g, group r i = Ok g) <-> endpoint (used (lower flt) ids ps) i) /\
    (~ bridge (used (lower flt) ids ps) -> forall i g, group r i = Ok g -> forall y, In y g <-> connected (used (lower flt) ids ps) i y).
Proof.
  intros A N O F D L.
  assert (R : rows = load_text_file (file_of (map link_row_of ps))).
  { destruct (rows_readers disk given stdin sin name (map link_row_of ps) O) with (2 := D) as (E1 & E2 & _).
    - apply Forall_forall. intros row I. apply in_map_iff in I. destruct I as (p & <- & I). rewrite Forall_forall in F. destruct (F _ I) as (X & Y).
      split; [discriminate|]. split; [discriminate|]. repeat constructor; try apply X; apply Y.
    - destruct L as [-> | ->]; assumption. }
  rewrite R. apply C92_links; [exact A|exact N|]. revert F. apply Forall_impl. intros e (X & Y). split; [apply X|apply Y].
Qed.
Print Assumptions C117_links.
Theorem C117_indices dv disk sin stdin given name (es : list (Z * Z * list word)) rows : unicode_digits dv -> ordinary name ->
  Forall (fun e => let '(i, m, ws) := e in cell_ok (dec i) /\ cell_ok (dec m) /\ cell_ok (join (u " ") (map word_str ws)) /\ Forall (fun w => well_formed w /\ no_space w) ws) es ->
  disk name = Some (encoded (file_of (map index_row_of es))) -> loaded_by disk sin stdin given name rows ->
  exists r, new_indices dv name rows None None = Ok r /\
    (forall a b i m ws, es = a ++ (i, m, ws) :: b -> Forall (fun e => fst (fst e) <> i) b -> igetitem r i = Ok ws /\ link r i = Ok m) /\
    (forall i, Forall (fun e => fst (fst e) <> i) es -> igetitem r i = Raise KeyError /\ link r i = Raise InvalidIDError).
Proof.
  intros A O F D L.
  assert (R : rows = load_text_file (file_of (map index_row_of es))).
  { destruct (rows_readers disk given stdin sin name (map index_row_of es) O) with (2 := D) as (E1 & E2 & _).
    - apply Forall_forall. intros row I. apply in_map_iff in I. destruct I as (((i, m), ws) & <- & I). rewrite Forall_forall in F. destruct (F _ I) as (X & Y & Z & _).
      split; [discriminate|]. split; [discriminate|]. repeat constructor; try apply X; try apply Y; apply Z.
    - destruct L as [-> | ->]; assumption. }
  rewrite R. apply C92_indices; [exact A|]. revert F. apply Forall_impl. intros ((i, m), ws) (X & Y & Z & W). split; [apply X|]. split; [apply Y|]. split; [apply Z|exact W].
Qed.
Print Assumptions C117_indices.

(** cases *)
Definition ex_disk (names : list (str * list Z)) : str -> option (list Z) := fun n => dget n names.
Definition ex_body : str := u "亜" ++ u " " ++ u "3021" ++ u " " ++ u "S7" ++ u " " ++ u "P4-7-1" ++ u " " ++ u "ア" ++ u " " ++ u "-つ" ++ [] ++ u "{a b}".
Definition ex_lines : list str := [u "# KANJIDIC"; u " " ++ ex_body ++ u "  "].
Definition ex_kanjidic := ex_disk [(u "kanjidic", encoded (flat_map (fun l => l ++ [10]) ex_lines))].
Lemma line_chars l : forallb (fun c => (0 <=? c) && (c <? 55296) && negb (linebreak c)) l = true -> Forall line_char l.
Proof.
  intros H. apply Forall_forall. intros c I. pose proof (proj1 (forallb_forall _ _) H c I) as X. apply andb_prop in X. destruct X as [X Y]. apply andb_prop in X. destruct X as [X Z].
  apply Z.leb_le in X. apply Z.ltb_lt in Z. apply negb_true_iff, linebreak_false in Y. split; [left; lia|exact Y].
Qed.
Example C117_kanjidic_case : exists d e, kanjidic_bytes ascii_dv ex_kanjidic (mksource [] None) utf8 (fun _ => 0%nat) [u "kanjidic"] = Ok d /\
  dget (u "亜") d = Some e /\ shows ascii_dv (u "亜") ex_fields 12321 (VInt 7) [4; 7; 1] e /\
  kanjidic2 ascii_dv ex_kanjidic [] (fun _ => 0%nat) [u "kanjidic"] = Ok d.
Proof.
  destruct C43_case_hyps as (Fo & Pl & La & Vs & Vk).
  assert (S : sound ascii_dv (u "3021") ex_fields 12321 (VInt 7) [4; 7; 1]).
  { apply (Sound ascii_dv (u "3021") ex_fields 12321 (VInt 7) [] (u "4-7-1") [] [u "4"; u "7"; u "1"] [4; 7; 1]); [reflexivity|exact Vs|exact Vk|reflexivity|discriminate| |].
    - repeat constructor; apply mem_false; reflexivity.
    - repeat constructor; reflexivity. }
  destruct (C117_kanjidic ascii_dv ex_kanjidic [] (mksource [] None) (fun _ => 0%nat) [u "kanjidic"] [[Remark (u " KANJIDIC"); Entry (u "亜") (u "3021") ex_fields]])
    as (d & E & E2 & _ & Q).
  - discriminate.
  - constructor; [|constructor]. split; [|discriminate]. intros C. destruct C as [C|C]; [apply ends_gz in C|apply ends_bz2 in C]; vm_compute in C; discriminate C.
  - constructor; [|constructor]. exists ex_lines. split.
    + apply C117_files; [|reflexivity]. constructor; [apply line_chars; reflexivity|]. constructor; [apply line_chars; reflexivity|constructor].
    + constructor; [exact (W_remark (u " KANJIDIC"))|]. constructor; [|constructor].
      apply (W_entry (u "亜") (u "3021") ex_fields (u " ") ex_body (u "  ")); [reflexivity|reflexivity|exact Pl| |discriminate|exact Fo|exact La].
      split; [discriminate|]. intros c I. cbn in I. repeat (destruct I as [<-|I]; [split; [reflexivity|discriminate]|]). destruct I.
  - intros k hex fs [X|[X|[]]]; [discriminate X|]. injection X as <- <- <-. eauto.
  - destruct (Q [Remark (u " KANJIDIC")] (u "亜") (u "3021") ex_fields [] 12321 (VInt 7) [4; 7; 1] eq_refl (fun _ _ I => I) S) as (e & G & Sh).
    exists d, e. auto.
Qed.
Definition ex_radk : list str := [u "# r"; u "$ 一 1"; u "亜"; u "$ 口 3 x"; u "唖亜"].
Example C117_radicals_case : exists d, radk_bytes ascii_dv (ex_disk [(u "radkfile", encoded (flat_map (fun l => l ++ [10]) ex_radk))]) utf8 (fun _ => 0%nat) (u "radkfile") = Ok d /\
  In (Some (u "口")) (dlist (u1 "亜") (items d)) /\ ~ In (Some (u "一")) (dlist (u1 "唖") (items d)) /\ dget (Some (u "口")) (radical_to_stroke_count d) = Some 3.
Proof.
  assert (B : forall c r t, rstrip (c :: r) = c :: t -> begins c (c :: r)) by (intros c r t E; exists t; exact E).
  assert (K : forall c r t, rstrip (c :: r) = c :: t -> c <> u1 "#" -> c <> u1 "$" -> kanji_line (c :: r)).
  { intros c r t E N M. split; intros [q F]; rewrite E in F; injection F as F _; congruence. }
  destruct (C117_radicals ascii_dv (ex_disk [(u "radkfile", encoded (flat_map (fun l => l ++ [10]) ex_radk))]) (fun _ => 0%nat) (u "radkfile") ex_radk
    [Aside; Radical (u "一") 1; Kanji (strip (u "亜")); Radical (u "口") 3; Kanji (strip (u "唖亜"))]) as (d & E & _ & U & _ & St).
  - apply C117_files; [|reflexivity]. repeat (apply Forall_cons; [apply line_chars; reflexivity|]). constructor.
  - apply Forall2_cons; [apply RW_aside; eapply B; reflexivity|].
    apply Forall2_cons; [apply RW_radical; apply strokes_of_header; reflexivity|].
    apply Forall2_cons; [apply RW_kanji; eapply K; [reflexivity|discriminate|discriminate]|].
    apply Forall2_cons; [apply RW_radical; apply strokes_of_header; reflexivity|].
    apply Forall2_cons; [apply RW_kanji; eapply K; [reflexivity|discriminate|discriminate]|constructor].
  - exists d. split; [exact E|]. split; [|split].
    + apply U. exists [Aside; Radical (u "一") 1; Kanji (strip (u "亜"))], 3, [], (strip (u "唖亜")), []. split; [reflexivity|]. split; [constructor|]. right; left; reflexivity.
    + revert E. vm_compute. intros [= <-]. vm_compute. intros [X|[]]. discriminate X.
    + apply St. exists [Aside; Radical (u "一") 1; Kanji (strip (u "亜"))], [Kanji (strip (u "唖亜"))]. split; [reflexivity|]. intros m [X|[]]; discriminate X.
Qed.
Example C117_corpus_case : exists r, new_sentences ascii_dv (fun s => Ok s) (fun _ => false) None (u "s.csv")
    (load2 (ex_disk [(u "s.csv", encoded (file_of (map sentence_row [(1, u "jpn", u "山")])))]) [] (fun _ => 0%nat) (u "s.csv")) = Ok r /\
  sentence r 1 = Ok (u "山") /\ sentence r 2 = Raise InvalidIDError.
Proof.
  assert (Ck : forall v, forallb (fun c => (0 <=? c) && (c <? 55296) && negb (mem c [9; 10; 13; 0; 34])) v = true -> (length (encoded v) <= 100)%nat -> (length v <= 100)%nat -> cell_ok v).
  { intros v H L L'. split; [|split]; [|apply Forall_forall|unfold fits; lia].
    - split; [|split; [|unfold short; lia]].
      + apply Forall_forall. intros c I. pose proof (proj1 (forallb_forall _ _) H c I) as X. apply andb_prop in X. destruct X as [_ X]. apply negb_true_iff in X.
        unfold mem in X. cbn in X. repeat (apply orb_false_iff in X; destruct X as [? X]). unfold plain_char. repeat split; intros ->; discriminate.
      + destruct v as [|c v]; [discriminate|]. cbn [hd]. cbn [forallb] in H. apply andb_prop in H. destruct H as [H _]. apply andb_prop in H. destruct H as [_ H]. intros ->. discriminate H.
    - intros c I. pose proof (proj1 (forallb_forall _ _) H c I) as X. apply andb_prop in X. destruct X as [X _]. apply andb_prop in X. destruct X as [X Y]. left. apply Z.leb_le in X. apply Z.ltb_lt in Y. lia. }
  destruct (C117_sentences str ascii_dv (fun s => Ok s) None (ex_disk [(u "s.csv", encoded (file_of (map sentence_row [(1, u "jpn", u "山")])))]) (mksource [] None) [] (fun _ => 0%nat) (u "s.csv") [(1, u "jpn", u "山")]
    (load2 (ex_disk [(u "s.csv", encoded (file_of (map sentence_row [(1, u "jpn", u "山")])))]) [] (fun _ => 0%nat) (u "s.csv"))) as (r & E & Q & M).
  - exact ascii_dv_ok.
  - discriminate.
  - split; [|discriminate]. intros C. destruct C as [C|C]; [apply ends_gz in C|apply ends_bz2 in C]; vm_compute in C; discriminate C.
  - constructor; [|constructor]. cbn [fst snd]. split; [|split]; apply Ck; try reflexivity; cbn; lia.
  - reflexivity.
  - right; reflexivity.
  - exists r. split; [exact E|]. split; [apply (Q [] [] 1 (u "jpn") (u "山")); [reflexivity|constructor]|]. apply M. constructor; [left; discriminate|constructor].
Qed.
