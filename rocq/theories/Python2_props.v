From Verif Require Import Base PyStr PyText PyFmt Maps_model Scripts_model Common_model Csv_model Tatoeba_model Kanjidic_model Radk_model Pinyin_model Rose Place_model Place_spec Files_model Files_spec Files_proofs Encoding_model Encoding_spec Encoding_proofs Python2_model Python2_spec Python2_proofs.

(** C116.  Python 2 reads what Python 3 reads, in UTF-8 files whose lines end in
    a line feed, a carriage return or both; missing: other files *)
Theorem C116_kanjidic_partial dv disk stdin sin given names ts : names <> [] -> Forall ordinary names ->
  Forall2 (fun n t => disk n = Some (encoded t) /\ Forall scalar t /\ regular t) names ts ->
  kanjidic2 dv disk stdin given names = kanjidic_bytes dv disk sin utf8 given names /\
  kanjidic2 dv disk stdin given names = init dv (map file_lines ts).
Proof.
  intros _ O F.
  assert (N : Forall (fun n => n <> u "-") names) by (revert O; apply Forall_impl; intros n X; apply X).
  pose proof (kanjidic2_texts dv disk stdin given names ts N F) as E. split; [|exact E]. rewrite E. symmetry.
  set (content := fun n => match disk n with Some b => Some (fst (utf8 b)) | None => None end).
  assert (U : forall t, Forall scalar t -> utf8 (encoded t) = (t, true)) by (intros t S; rewrite <- (app_nil_r (encoded t)), Utf8_proofs.utf8_encoded by exact S; cbn; rewrite app_nil_r; reflexivity).
  rewrite (kanjidic_decoded dv disk sin [] utf8 given content names O).
  - apply kanjidic_ordinary; [exact O|]. clear -F U. induction F as [|n t names ts (D & S & R) F IH]; constructor; [|exact IH]. unfold content. rewrite D, U by exact S. reflexivity.
  - clear -F U. induction F as [|n t names ts (D & S & R) F IH]; constructor; [|exact IH]. unfold holds, content. rewrite D, U by exact S. reflexivity.
Qed.
Print Assumptions C116_kanjidic_partial.
Theorem C116_tables_partial dv disk given content name : stored disk content name -> (forall t, content name = Some t -> regular t) ->
  radk2 dv disk given name = radk_bytes dv disk utf8 given name /\
  zhuyin2 disk given name = zhuyin_bytes disk utf8 given name /\
  pinyin2 disk given name = pinyin_bytes disk utf8 given name /\
  all_pinyin2 disk given name = all_pinyin_bytes disk utf8 given name.
Proof.
  intros S R. destruct (tables2 dv disk given content name S R) as (-> & -> & -> & ->).
  destruct (readers_decoded dv disk (mksource [] None) [] utf8 given content [] name (stored_holds disk content name S)) as (-> & -> & -> & -> & _). repeat split.
Qed.
Print Assumptions C116_tables_partial.
Theorem C116_place_partial dv disk stdin sin given h name t : ordinary name -> disk name = Some (encoded t) -> Forall scalar t -> regular t ->
  place2 dv disk stdin given h name = place_bytes dv disk sin utf8 given h name /\
  place2 dv disk stdin given h name = from_file dv h (file_lines t).
Proof.
  intros O D S R. rewrite (place2_text dv disk stdin given h name t (proj2 O) D S R). split; [|reflexivity].
  unfold place_bytes. rewrite open_bytes_ordinary, D by exact O. cbn [bind].
  rewrite (source_ok utf8 given name _ t) by (rewrite <- (app_nil_r (encoded t)), Utf8_proofs.utf8_encoded by exact S; cbn; rewrite app_nil_r; reflexivity).
  cbn [lines failure]. rewrite over_ok. destruct (file_lines t); reflexivity.
Qed.
Print Assumptions C116_place_partial.
(** the rows of a corpus that Python 3 reads to the end are those that Python 2
    reads when no column is too long for it, and otherwise it gives those before
    the first row with such a column and raises csv.Error *)
Theorem C116_corpus_partial disk stdin sin given name t rows : ordinary name -> disk name = Some (encoded t) -> Forall scalar t -> fed_lines t ->
  load_bytes disk sin utf8 given name = (rows, Ok tt) ->
  (Forall (Forall fits) rows -> load2 disk stdin given name = (rows, Ok tt)) /\
  (~ Forall (Forall fits) rows -> exists k row, nth_error rows k = Some row /\ ~ Forall fits row /\ Forall (Forall fits) (firstn k rows) /\
                                    load2 disk stdin given name = (firstn k rows, Raise CsvError)).
Proof.
  intros O D S F L.
  assert (E : load_file (mksource (file_lines t) None) = (rows, Ok tt)).
  { rewrite <- L. unfold load_bytes. rewrite open_bytes_ordinary, D by exact O.
    rewrite (source_ok utf8 given name _ t) by (rewrite <- (app_nil_r (encoded t)), Utf8_proofs.utf8_encoded by exact S; cbn; rewrite app_nil_r; reflexivity). reflexivity. }
  pose proof (load2_text disk stdin given name t (proj2 O) D S F) as X. rewrite E in X. split; intro A; destruct X as [[X B] | (k & X & B & C)]; try exact X; try contradiction;
    destruct (C eq_refl) as (row & N & G).
  - exfalso. apply G. exact (proj1 (Forall_forall _ _) A row (nth_error_In rows k N)).
  - exists k, row. auto.
Qed.
Print Assumptions C116_corpus_partial.
(** ... and Python 3 reads what Python 2 reads *)
Theorem C116_corpus_back_partial disk stdin sin given name t rows : ordinary name -> disk name = Some (encoded t) -> Forall scalar t -> fed_lines t ->
  load2 disk stdin given name = (rows, Ok tt) -> load_bytes disk sin utf8 given name = (rows, Ok tt) /\ Forall (Forall fits) rows.
Proof.
  intros O D S F L.
  pose proof (load2_text disk stdin given name t (proj2 O) D S F) as X. unfold load_bytes. rewrite open_bytes_ordinary, D by exact O.
  rewrite (source_ok utf8 given name _ t) by (rewrite <- (app_nil_r (encoded t)), Utf8_proofs.utf8_encoded by exact S; cbn; rewrite app_nil_r; reflexivity).
  destruct (load_file (mksource (file_lines t) None)) as [r o]. destruct X as [[X B] | (k & X & _)]; rewrite L in X; [|discriminate]. injection X as -> ->. split; [reflexivity | exact B].
Qed.
Print Assumptions C116_corpus_back_partial.
(** the rows before the first column that is not UTF-8 are given, then reading fails *)
Theorem C116_corpus_malformed disk stdin given name b good row rest o col : ordinary name -> disk name = Some b ->
  load_file (mksource (byte_lines b) None) = (map (map encoded) good ++ row :: rest, o) -> Forall (Forall (Forall scalar)) good ->
  Forall bytes row -> In col row -> (forall t, Forall scalar t -> col <> encoded t) ->
  load2 disk stdin given name = (good, Raise UnicodeError).
Proof.
  intros [N Std] D L G B I M. unfold load2. rewrite (open2_spec disk stdin given name None Std (or_intror eq_refl)), D, L. clear L D.
  assert (R : mapM decode_col row = Raise UnicodeError).
  { revert B I. induction row as [|c row IH]; intros B I; [destruct I|]. inversion B as [|? ? Bc Br]; subst. cbn [mapM]. unfold decode_col at 1.
    destruct (utf8 c) as [t [|]] eqn:E; [|reflexivity]. destruct (proj1 (Utf8_proofs.utf8_exact c t Bc) E) as [F X]. cbn [bind].
    destruct I as [-> | I]; [elim (M t F X)|]. rewrite (IH Br I). reflexivity. }
  induction G as [|r good Fr G IH]; cbn [map app decode_rows]; [rewrite R; reflexivity|]. rewrite decode_row by exact Fr. rewrite IH. reflexivity.
Qed.
Print Assumptions C116_corpus_malformed.
(** a tree dumped by either is the same file, and both read it back *)
Theorem C116_dump dv repr sep encode torn given sin stdin h t fuel h0 disk name :
  ascii_digits dv -> line_separator sep -> name <> u "-" -> (forall s, Forall scalar s -> encode s = Some (encoded s)) ->
  tree_at h t -> keyed h t -> (forall a, In a (nodes t) -> storable (at_ h a) /\ written h a) -> (rsize t < fuel)%nat ->
  exists b h' t', dump2 repr sep fuel h (root t) disk name = (dset name b disk, [], Ok tt) /\
    place2 dv (fun n => dget n (dset name b disk)) sin given h0 name = Ok (h', root t') /\
    tree_at h' t' /\ keyed h' t' /\ rosemap (details h') t' = rosemap (details h) t /\
    (ordinary name -> dump_bytes repr sep encode torn fuel h (root t) disk name = (dset name b disk, Ok tt) /\
                      place_bytes dv (fun n => dget n (dset name b disk)) stdin utf8 given h0 name = Ok (h', root t')).
Proof. exact (dump2_round dv repr sep encode torn given sin stdin h t fuel h0 disk name). Qed.
Print Assumptions C116_dump.
(** the standard output gets what a file would, there too *)
Theorem C116_stdout repr sep fuel h t disk name : ordinary name -> tree_at h t -> (rsize t < fuel)%nat ->
  exists out, dump2 repr sep fuel h (root t) disk name = (dset name out disk, [], Ok tt) /\
              dump2 repr sep fuel h (root t) disk (u "-") = (disk, out, Ok tt).
Proof.
  intros [C N] T B. destruct (dump repr fuel h (root t)) as [text|e] eqn:E.
  - exists (utf8_encode (out_text sep text)). destruct (sopen_write2 name N) as (s & Q & W). unfold dump2. rewrite Q, E. split; [|reflexivity].
    destruct W as [-> | [X _]]; [reflexivity|contradiction].
  - unfold dump in E. rewrite (Place_proofs.walk_ok h fuel t T B) in E. discriminate E.
Qed.
Print Assumptions C116_stdout.
Theorem C116_encoder t : Forall scalar t -> utf8_encode t = encoded t.
Proof. exact (encode_encoded t). Qed.
Print Assumptions C116_encoder.
(** compressed files, which only Python 2 can read *)
Theorem C116_compressed_refuted dv disk stdin sin locale given h name t : compressed name -> disk name = Some (encoded t) -> t <> [] -> Forall scalar t -> regular t ->
  kanjidic2 dv disk stdin given [name] = init dv [file_lines t] /\
  place2 dv disk stdin given h name = from_file dv h (file_lines t) /\
  kanjidic_bytes dv disk sin locale given [name] = Raise TypeError /\
  (exists e, place_bytes dv disk sin locale given h name = Raise e) /\
  load_bytes disk sin locale given name = ([], Raise CsvError) /\
  (fed_lines t -> forall rows, load_file (mksource (file_lines t) None) = (rows, Ok tt) -> Forall (Forall fits) rows -> load2 disk stdin given name = (rows, Ok tt)).
Proof.
  intros C D N S R. assert (M : name <> u "-").
  { intros ->. destruct C as [[p C] | [p C]]; apply (f_equal (@length Z)) in C; rewrite app_length in C; cbn in C; lia. }
  assert (B : encoded t <> []) by (intro X; apply N; apply (proj1 (encoded_nil t)); exact X).
  destruct (compressed3 dv disk sin locale given h name _ C D B) as (K & L & P).
  split; [apply (kanjidic2_texts dv disk stdin given [name] [t]); constructor; auto|]. split; [exact (place2_text dv disk stdin given h name t M D S R)|].
  split; [exact K|]. split; [exact P|]. split; [exact L|]. intros F rows E A.
  pose proof (load2_text disk stdin given name t M D S F) as X. rewrite E in X. destruct X as [[X _] | (k & _ & _ & X)]; [exact X|].
  destruct (X eq_refl) as (row & I & G). exfalso. apply G. exact (proj1 (Forall_forall _ _) A row (nth_error_In rows k I)).
Qed.
Print Assumptions C116_compressed_refuted.
(** other line breaks end lines in Python 2 only *)
Definition ex_break (c : Z) : str := u "$ 一 1" ++ [10] ++ u "亜" ++ [c] ++ u "$ 二 2" ++ [10] ++ u "唖" ++ [10].
Theorem C116_breaks_refuted c : exotic c ->
  let disk := fun _ => Some (encoded (ex_break c)) in
  rmap (fun d => dget (u1 "唖") (items d)) (radk2 ascii_dv disk (fun _ => 0%nat) (u "radkfile")) = Ok (Some [Some (u "二")]) /\
  rmap (fun d => dget (u1 "唖") (items d)) (radk_bytes ascii_dv disk utf8 (fun _ => 0%nat) (u "radkfile")) = Ok (Some [Some (u "一")]).
Proof.
  cbn [exotic In]. intros H.
  repeat match goal with H : _ \/ _ |- _ => destruct H as [<- | H] end; try contradiction; split; vm_compute; reflexivity.
Qed.
Print Assumptions C116_breaks_refuted.
(** a line break inside a quoted column, and a carriage return alone *)
Theorem C116_quoted_refuted disk stdin sin given name name' : ordinary name -> ordinary name' ->
  disk name = Some (u """a" ++ [13; 10] ++ u "b""" ++ [10]) -> disk name' = Some (u "a" ++ [13] ++ u "b" ++ [10]) ->
  load_bytes disk sin utf8 given name = ([[u "a" ++ [10] ++ u "b"]], Ok tt) /\
  load2 disk stdin given name = ([[u "a" ++ [13; 10] ++ u "b"]], Ok tt) /\
  load_bytes disk sin utf8 given name' = ([[u "a"]; [u "b"]], Ok tt) /\
  load2 disk stdin given name' = ([], Raise CsvError).
Proof.
  intros O O' D D'. unfold load_bytes, load2. rewrite !open_bytes_ordinary, D, D' by assumption.
  rewrite (open2_spec disk stdin given name None (proj2 O) (or_intror eq_refl)), (open2_spec disk stdin given name' None (proj2 O') (or_intror eq_refl)), D, D'.
  unfold text_source. repeat split; vm_compute; reflexivity.
Qed.
Print Assumptions C116_quoted_refuted.
(** a column of kanji that Python 3 reads and Python 2 does not *)
Theorem C116_limit_refuted disk stdin sin given name c n : ordinary name -> 2048 <= c < 55296 -> Z.of_nat n <= 131072 < 3 * Z.of_nat n ->
  disk name = Some (encoded (repeat c n)) ->
  load_bytes disk sin utf8 given name = ([[repeat c n]], Ok tt) /\ load2 disk stdin given name = ([], Raise CsvError).
Proof. exact (limit_row disk stdin sin given name c n). Qed.
Print Assumptions C116_limit_refuted.

(** cases *)
Definition ex_text : str := u "# KANJIDIC" ++ [13; 10] ++ u "亜 3021 S7 P4-7-1 ア つ.ぐ {Asia}" ++ [13; 10].
Definition ex_rows : str := u "1" ++ [9] ++ u "jpn" ++ [9] ++ u "あい" ++ [13; 10] ++ u "2" ++ [9] ++ u "jpn" ++ [9] ++ u "う" ++ [13; 10].
Definition ex_disk : str -> option (list Z) := fun n =>
  if eqb n (u "kanjidic") then Some (encoded ex_text) else if eqb n (u "kanjidic.gz") then Some (encoded ex_text)
  else if eqb n (u "jpn.csv") then Some (encoded ex_rows) else None.
Definition ex_given : str -> nat := fun _ => 0%nat.
Lemma scalars s : forallb (fun c => (0 <=? c) && (c <? 55296)) s = true -> Forall scalar s.
Proof. intro H. rewrite forallb_forall in H. apply Forall_forall. intros c I. specialize (H c I). apply andb_true_iff in H. unfold scalar. lia. Qed.
Lemma regulars s : forallb (fun c => negb (mem c [11; 12; 28; 29; 30; 133; 8232; 8233])) s = true -> regular s.
Proof. intro H. rewrite forallb_forall in H. apply Forall_forall. intros c I X. specialize (H c I). apply negb_true_iff in H. apply mem_In in X. congruence. Qed.
Fixpoint crlf (t : str) : bool :=
  match t with [] => true | c :: r => (negb (c =? 13) || match r with d :: _ => d =? 10 | [] => false end) && crlf r end.
Lemma crlf_fed t : crlf t = true -> forall a b, t = a ++ 13 :: b -> exists q, b = 10 :: q.
Proof.
  intros H a. revert t H. induction a as [|c a IH]; intros t H b ->; cbn [app crlf] in H; apply andb_true_iff in H; destruct H as [H G].
  - cbn in H. destruct b as [|d q]; [discriminate|]. apply Z.eqb_eq in H. subst d. exists q. reflexivity.
  - exact (IH _ G b eq_refl).
Qed.
Example C116_case : Forall scalar ex_text /\ regular ex_text /\ ex_text <> [] /\ Forall scalar ex_rows /\ fed_lines ex_rows /\
  (exists d e, kanjidic2 ascii_dv ex_disk [] ex_given [u "kanjidic"] = Ok d /\ dget (u "亜") d = Some e) /\
  (exists d e, kanjidic2 ascii_dv ex_disk [] ex_given [u "kanjidic.gz"] = Ok d /\ dget (u "亜") d = Some e) /\
  kanjidic_bytes ascii_dv ex_disk (mksource [] None) utf8 ex_given [u "kanjidic.gz"] = Raise TypeError /\
  load2 ex_disk [] ex_given (u "jpn.csv") = ([[u "1"; u "jpn"; u "あい"]; [u "2"; u "jpn"; u "う"]], Ok tt) /\
  utf8_encode (u "aé亜𠂊") = encoded (u "aé亜𠂊").
Proof.
  split; [apply scalars; vm_compute; reflexivity|]. split; [apply regulars; vm_compute; reflexivity|]. split; [discriminate|].
  split; [apply scalars; vm_compute; reflexivity|]. split.
  - right. split; [intro X; vm_compute in X; intuition discriminate|]. intros a b E.
    exact (crlf_fed ex_rows eq_refl a b E).
  - split; [eexists _, _; split; vm_compute; reflexivity|]. split; [eexists _, _; split; vm_compute; reflexivity|].
    split; [vm_compute; reflexivity|]. split; [vm_compute; reflexivity|]. vm_compute. reflexivity.
Qed.
