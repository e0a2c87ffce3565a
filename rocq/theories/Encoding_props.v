From Verif Require Import Base PyStr PyText PyFmt Maps_model Scripts_model Common_model Csv_model Tatoeba_model Kanjidic_model Radk_model Pinyin_model Rose Place_model Place_spec Misc_model Files_model Files_spec Encoding_model Encoding_spec Utf8_proofs Encoding_proofs.

Lemma no_words s : split_ws (rstrip s) = [] -> blank s.
Proof.
  intro H. destruct (rstrip_split s) as (g & B & E & _). destruct (words_exist (length (rstrip s)) (rstrip s) (le_n _)) as (ws & W).
  rewrite (split_ws_words _ _ W) in H. subst ws. inversion W as [r R|]; subst. rewrite E. unfold blank in *. rewrite forallb_app, R, B. reflexivity.
Qed.
Lemma load_table_error ls : forall d e, load_table ls d = Raise e -> e = IndexError /\ exists line, In line ls /\ blank line.
Proof.
  induction ls as [|l ls IH]; intros d e; cbn [load_table]; [discriminate|].
  assert (R : forall d, load_table ls d = Raise e -> e = IndexError /\ exists line, In line (l :: ls) /\ blank line).
  { intros d' E. destruct (IH d' e E) as (X & line & I & B). split; [exact X|]. exists line. split; [right; exact I|exact B]. }
  destruct (starts_hash l); [apply R|]. destruct (split_ws (rstrip l)) as [|w ws] eqn:S; [|apply R].
  intros [= <-]. split; [reflexivity|]. exists l. split; [left; reflexivity|apply no_words, S].
Qed.

(** C113.  The decoder: it accepts the encodings of scalar values and no other
    bytes, and stops where no encoding begins *)
Theorem C113_utf8 b s : bytes b -> (utf8 b = (s, true) <-> Forall scalar s /\ b = encoded s).
Proof. exact (utf8_exact b s). Qed.
Print Assumptions C113_utf8.
Theorem C113_utf8_malformed b s : bytes b ->
  (utf8 b = (s, false) <-> Forall scalar s /\ exists r, b = encoded s ++ r /\ r <> [] /\ forall c q, scalar c -> r <> units c ++ q).
Proof. exact (utf8_bad b s). Qed.
Print Assumptions C113_utf8_malformed.
(** files that decode are read as their texts; missing: other locales *)
Theorem C113_text_partial dv disk stdin sin given content h name : stored disk content name ->
  radk_bytes dv disk utf8 given name = radk_path dv content name /\
  zhuyin_bytes disk utf8 given name = zhuyin_path content name /\
  pinyin_bytes disk utf8 given name = pinyin_path content name /\
  all_pinyin_bytes disk utf8 given name = all_pinyin_path content name /\
  (ordinary name -> load_bytes disk stdin utf8 given name = load_path content sin name /\
                    place_bytes dv disk stdin utf8 given h name = place_path dv content sin h name).
Proof. exact (fun S => readers_decoded dv disk stdin sin utf8 given content h name (stored_holds disk content name S)). Qed.
Print Assumptions C113_text_partial.
Theorem C113_kanjidic_partial dv disk stdin sin given content names : Forall ordinary names -> Forall (stored disk content) names ->
  kanjidic_bytes dv disk stdin utf8 given names = kanjidic_files dv content sin names.
Proof.
  exact (fun O S => kanjidic_decoded dv disk stdin sin utf8 given content names O (Forall_impl _ (stored_holds disk content) S)).
Qed.
Print Assumptions C113_kanjidic_partial.
(** these two do not depend on the locale *)
Theorem C113_table disk given content name : stored disk content name -> table_bytes disk given name = table_path content name.
Proof. exact (fun S => table_decoded disk given content name (stored_holds disk content name S)). Qed.
Print Assumptions C113_table.
Theorem C113_list environ own user isdir disk disk' name f t : Forall scalar t ->
  get_resource environ own user isdir (u "lists/char/" ++ name) = Ok f ->
  disk f = Some (encoded t) -> disk' f = Some (encoded (bom :: t)) ->
  exists l', get_list environ own user isdir (utf8_contents disk) name = Ok (unique_kanji t) /\
    get_list environ own user isdir (utf8_contents disk') name = Ok l' /\ forall c, In c l' <-> In c (unique_kanji t).
Proof. exact (list_bom environ own user isdir disk disk' name f t). Qed.
Print Assumptions C113_list.
(** a list that is not UTF-8 is refused, and so is one that is not there *)
Theorem C113_list_refused environ own user isdir disk name f : get_resource environ own user isdir (u "lists/char/" ++ name) = Ok f ->
  (forall b, bytes b -> disk f = Some b -> (forall t, Forall scalar t -> b <> encoded t) -> get_list environ own user isdir (utf8_contents disk) name = Raise UnicodeError) /\
  (disk f = None -> get_list environ own user isdir (utf8_contents disk) name = Raise OSError).
Proof.
  intro G. unfold get_list. rewrite G. cbn [bind]. unfold utf8_contents. split; [intros b B D N | intro D]; rewrite D; [|reflexivity].
  destruct (utf8 b) as [t [|]] eqn:E; [|reflexivity]. exfalso. destruct (proj1 (Utf8_proofs.utf8_exact b t B) E) as [F X]. exact (N t F X).
Qed.
Print Assumptions C113_list_refused.
(** what loads has been decoded to the end, in any locale and however the
    stream is buffered *)
Theorem C113_loads dv disk stdin sin locale given names d : Forall ordinary names ->
  (kanjidic_bytes dv disk stdin locale given names = Ok d <->
   exists content, Forall (holds locale disk content) names /\ kanjidic_files dv content sin names = Ok d).
Proof. exact (kanjidic_loads dv disk stdin sin locale given names d). Qed.
Print Assumptions C113_loads.
Theorem C113_malformed dv disk stdin locale given h name b t : disk name = Some b -> locale b = (t, false) ->
  (exists e, radk_bytes dv disk locale given name = Raise e) /\
  (exists e, zhuyin_bytes disk locale given name = Raise e) /\
  (exists e, pinyin_bytes disk locale given name = Raise e) /\
  (exists e, all_pinyin_bytes disk locale given name = Raise e) /\
  (ordinary name -> (exists rows e, load_bytes disk stdin locale given name = (rows, Raise e)) /\
                    (exists e, place_bytes dv disk stdin locale given h name = Raise e)).
Proof. exact (readers_malformed dv disk stdin locale given h name b t). Qed.
Print Assumptions C113_malformed.
Theorem C113_table_malformed disk given name b t : disk name = Some b -> utf8 b = (t, false) -> exists e, table_bytes disk given name = Raise e.
Proof. exact (table_malformed disk given name b t). Qed.
Print Assumptions C113_table_malformed.
(** it is a UnicodeError, unless a line that was decoded before is blank *)
Theorem C113_table_error disk given name b t e : disk name = Some b -> utf8 b = (t, false) -> table_bytes disk given name = Raise e ->
  e = UnicodeError \/ e = IndexError /\ exists line, In line (codec_lines t) /\ blank line.
Proof.
  intros D L. unfold table_bytes, utf8_source. rewrite D, L. unfold over. cbn [lines failure ended].
  destruct (load_table (firstn (given name) (codec_lines t)) []) as [d|x] eqn:T; cbn [bind]; intros [= <-]; [left; reflexivity|right].
  destruct (load_table_error _ _ _ T) as (-> & line & I & B). split; [reflexivity|]. exists line. split; [|exact B].
  rewrite <- (firstn_skipn (given name)). apply in_or_app. left. exact I.
Qed.
Print Assumptions C113_table_error.
(** the standard input reads like a file *)
Theorem C113_standard_input dv disk stdin locale given name b h : ordinary name -> disk name = Some b -> stdin = text_source locale given name b ->
  kanjidic_bytes dv disk stdin locale given [u "-"] = kanjidic_bytes dv disk stdin locale given [name] /\
  load_bytes disk stdin locale given (u "-") = load_bytes disk stdin locale given name /\
  place_bytes dv disk stdin locale given h (u "-") = place_bytes dv disk stdin locale given h name.
Proof.
  intros O D ->. set (sin := text_source locale given name b).
  assert (X : open_bytes disk sin locale given (u "-") = open_bytes disk sin locale given name) by (rewrite (open_bytes_ordinary disk sin locale given name O), D; reflexivity).
  unfold kanjidic_bytes, load_bytes, place_bytes. cbn [mapM]. rewrite X. repeat split; reflexivity.
Qed.
Print Assumptions C113_standard_input.
(** an empty compressed file *)
Theorem C113_empty dv disk stdin locale given name h : compressed name -> disk name = Some [] ->
  kanjidic_bytes dv disk stdin locale given [name] = Ok [] /\ load_bytes disk stdin locale given name = ([], Ok tt) /\ place_bytes dv disk stdin locale given h name = Raise StopIteration.
Proof.
  intros C D. assert (X : open_bytes disk stdin locale given name = Ok (BytesIn [])) by
    (unfold open_bytes; rewrite Files_proofs.sopen_compressed by (exact C || reflexivity); unfold Files_proofs.zipped;
     destruct (endswith (u ".bz2") name); cbn [os_read]; rewrite D; cbn [bind snd]; unfold bytes_in; rewrite D; reflexivity).
  unfold kanjidic_bytes, load_bytes, place_bytes. cbn [mapM]. rewrite X. repeat split; reflexivity.
Qed.
Print Assumptions C113_empty.
(** a dumped tree that the locale can write is read back in that locale *)
Theorem C113_dump dv repr sep stdin given encode torn locale h t fuel h0 disk name :
  (forall s b, encode s = Some b -> locale b = (s, true)) ->
  ascii_digits dv -> line_separator sep -> ordinary name ->
  tree_at h t -> keyed h t -> (forall a, In a (nodes t) -> storable (at_ h a)) -> (rsize t < fuel)%nat ->
  exists text, dump_bytes repr sep encode torn fuel h (root t) disk name =
      match encode text with Some b => (dset name b disk, Ok tt) | None => (dset name torn disk, Raise UnicodeError) end /\
    forall b, encode text = Some b -> exists h' t',
      place_bytes dv (fun n => dget n (dset name b disk)) stdin locale given h0 name = Ok (h', root t') /\
      tree_at h' t' /\ keyed h' t' /\ rosemap (details h') t' = rosemap (details h) t.
Proof. exact (dump_round dv repr sep stdin given encode torn locale h t fuel h0 disk name). Qed.
Print Assumptions C113_dump.
(** in an eight-bit locale no kanji, and no zhuyin, can be looked up, whatever
    the files hold *)
Theorem C113_locale_refuted dv disk stdin locale given name b c : narrow locale -> ordinary name -> disk name = Some b -> bytes b -> 256 <= c ->
  (forall d, kanjidic_bytes dv disk stdin locale given [name] = Ok d -> dget [c] d = None) /\
  (forall d, radk_bytes dv disk locale given name = Ok d -> dget c (items d) = None) /\
  (forall d, zhuyin_bytes disk locale given name = Ok d -> dget [c] d = None).
Proof.
  intros N O D B C.
  assert (X : ~ small [c]) by (intros S; inversion S; lia).
  split; [|split]; intros d E; apply dget_None; intros I.
  - apply X; refine (kanjidic_narrow dv disk stdin locale given N [name] d _ _ E _ I); [constructor; [exact O|constructor]|].
    intros n b' [<-|[]] D'; congruence.
  - pose proof (radk_narrow dv disk locale given N name b d D B E c I); lia.
  - apply X; exact (zhuyin_narrow disk locale given N name b d D B E _ I).
Qed.
Print Assumptions C113_locale_refuted.
(** what comes through before the error are whole lines, the first of those that
    do decode, and the error follows them *)
Theorem C113_given locale given name b t : locale b = (t, false) ->
  failure (text_source locale given name b) = Some UnicodeError /\
  (exists rest, file_lines t = lines (text_source locale given name b) ++ rest /\ ((exists x, In (x ++ [10]) rest) -> length (lines (text_source locale given name b)) = given name)) /\
  Forall (fun l => exists x, l = x ++ [10]) (lines (text_source locale given name b)).
Proof. exact (whole_lines locale given name b t). Qed.
Print Assumptions C113_given.
Theorem C113_ascii b : Forall (fun c => c < 128) b <-> ascii b = (b, true).
Proof. exact (ascii_exact b). Qed.
Print Assumptions C113_ascii.
Theorem C113_narrow : narrow latin1 /\ narrow ascii /\
  forall b, Exists (fun c => 128 <= c) b -> exists t, ascii b = (t, false).
Proof.
  exact (conj latin1_narrow (conj ascii_narrow (fun b E => ex_intro _ (fst (ascii b)) (eq_trans (surjective_pairing _) (f_equal (pair _) (ascii_high b E)))))).
Qed.
Print Assumptions C113_narrow.
(** a byte order mark is part of the text: a spurious entry or an error *)
Theorem C113_bom_refuted dv disk stdin given name t : dv bom = None -> ordinary name -> Forall scalar t -> disk name = Some (encoded (bom :: t)) ->
  (forall d, kanjidic_bytes dv disk stdin utf8 given [name] = Ok d -> exists k, In (bom :: k) (dkeys d)) /\
  (forall d, radk_bytes dv disk utf8 given name = Ok d -> In bom (dkeys (items d))) /\
  (forall d, zhuyin_bytes disk utf8 given name = Ok d -> exists k, In (bom :: k) (dkeys d)) /\
  (forall d, table_bytes disk given name = Ok d -> exists k, In (bom :: k) (dkeys d)) /\
  (forall lower src ids flt, exists e, snd (new_links dv lower src (load_bytes disk stdin utf8 given name) ids flt) = Raise e) /\
  (forall src edict ids, exists e, new_indices dv src (load_bytes disk stdin utf8 given name) edict ids = Raise e) /\
  (forall h, place_bytes dv disk stdin utf8 given h name = Raise ValueError).
Proof.
  intros D O S E; split; [|split; [|split; [|split; [|split; [|split]]]]].
  - exact (fun d => bom_kanjidic dv disk stdin given name t S E d O).
  - exact (fun d => bom_radk dv disk stdin given name t S E d O).
  - exact (fun d => bom_zhuyin dv disk stdin given name t S E d O).
  - exact (fun d => bom_table disk given name t S E d).
  - exact (fun lower src ids flt => bom_links dv disk stdin given name t S E lower src ids flt D O).
  - exact (fun src edict ids => bom_indices dv disk stdin given name t S E src edict ids D O).
  - exact (fun h => bom_place dv disk stdin given name t S E h D O).
Qed.
Print Assumptions C113_bom_refuted.

(** cases *)
Definition ex_text : str := u "# KANJIDIC" ++ [10] ++ u "亜 3021 S7 P4-7-1 ア つ.ぐ {Asia}" ++ [10].
Definition ex_disk (b : list Z) : str -> option (list Z) := fun n => if eqb n (u "kanjidic") then Some b else None.
Definition ex_none : source := mksource [] None.
Example C113_case : encoded (u "aア𠂊") = [97; 227; 130; 162; 240; 160; 130; 138] /\ utf8 [97; 227; 130; 162; 240; 160; 130; 138] = (u "aア𠂊", true) /\
  utf8 [97; 192; 128] = (u "a", false) /\ utf8 [97; 237; 160; 128] = (u "a", false) /\
  (exists d e, kanjidic_bytes ascii_dv (ex_disk (encoded ex_text)) ex_none utf8 (fun _ => 0%nat) [u "kanjidic"] = Ok d /\ dget (u "亜") d = Some e) /\
  rmap dkeys (kanjidic_bytes ascii_dv (ex_disk (encoded ex_text)) ex_none latin1 (fun _ => 0%nat) [u "kanjidic"]) = Ok [[228; 186; 156]] /\
  kanjidic_bytes ascii_dv (ex_disk (encoded ex_text)) ex_none ascii (fun _ => 1%nat) [u "kanjidic"] = Raise UnicodeError /\
  kanjidic_bytes ascii_dv (ex_disk (encoded (bom :: ex_text))) ex_none utf8 (fun _ => 0%nat) [u "kanjidic"] = Raise ValueError /\
  ordinary (u "kanjidic").
Proof.
  do 4 (split; [vm_compute; reflexivity|]); split; [eexists _, _; split; vm_compute; reflexivity|].
  do 3 (split; [vm_compute; reflexivity|]); split; [|discriminate].
  intros C; destruct C as [C|C]; [apply Files_proofs.ends_gz in C|apply Files_proofs.ends_bz2 in C]; vm_compute in C; discriminate C.
Qed.
Definition ex_radk : list Z := encoded (u "# radkfile" ++ [10] ++ u "$ 一 1" ++ [10] ++ u "亜唖" ++ [10]).
Example C113_radk_case :
  rmap (fun d => dkeys (items d)) (radk_bytes ascii_dv (ex_disk ex_radk) utf8 (fun _ => 0%nat) (u "kanjidic")) = Ok (u "亜唖") /\
  rmap (fun d => dkeys (items d)) (radk_bytes ascii_dv (ex_disk (encoded [bom] ++ ex_radk)) utf8 (fun _ => 0%nat) (u "kanjidic")) = Ok (bom :: u "# radkfile亜唖") /\
  rmap (fun d => dkeys (items d)) (radk_bytes ascii_dv (ex_disk ex_radk) latin1 (fun _ => 0%nat) (u "kanjidic")) = Ok [228; 186; 156; 229; 148; 150].
Proof. repeat split; vm_compute; reflexivity. Qed.
Example C113_case_table_error : utf8 [97; 32; 98; 10; 255] = (u "a b" ++ [10], false) /\
  table_bytes (fun _ => Some [97; 32; 98; 10; 255]) (fun _ => 1%nat) (u "t") = Raise UnicodeError /\
  table_bytes (fun _ => Some [97; 32; 98; 10; 10; 255]) (fun _ => 2%nat) (u "t") = Raise IndexError.
Proof. vm_compute. repeat split. Qed.
