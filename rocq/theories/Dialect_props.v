(* Dialect_props.v -- C141: corpus files read with settings for the csv module *)
From Verif Require Import Base PyText PyFmt Csv_model Csv_spec Csv_proofs Dialect_model Dialect_spec Dialect_proofs.

(** Without settings the files are read as in C69 and C101. *)
Theorem C141_default : forall src, load_file_with no_settings None src = load_file src.
Proof. exact load_plainly. Qed.
Print Assumptions C141_default.

(** Which settings apply: those given, else those of the dialect, else the defaults;
    but the delimiter is a tab unless it is given, whatever the dialect says. *)
Theorem C141_settings : forall kw dia src,
  (forall d, settled kw dia d -> load_file_with kw (Some (Ok dia)) src = d_rows_from d d_reset (lines src) (failure src)) /\
  ((exists d, settled kw dia d) \/ load_file_with kw (Some (Ok dia)) src = ([], Raise TypeError)) /\
  (forall d d', settled kw dia d -> settled kw dia d' -> d = d') /\
  load_file_with kw None src = load_file_with kw (Some (Ok no_settings)) src /\
  (forall e, load_file_with kw (Some (Raise e)) src = ([], Raise e)).
Proof.
  intros kw dia src. split; [intros d S; apply load_settled, S|].
  split. { destruct (dialect_or (merge (with_tab kw) dia)) as [[d E]|E]; [left; exists d; apply dialect_settled, E|right]. unfold load_file_with. cbn [bind]. rewrite E. reflexivity. }
  split; [intros d d' S S'; apply dialect_settled in S, S'; congruence|]. split; reflexivity.
Qed.
Print Assumptions C141_settings.

(** Rows written under settings that can tell them apart, plain, with escapes or in
    quotation marks, with line breaks inside, are read back from the text of the file. *)
Theorem C141_rows : forall kw dia d ts rows, settled kw dia d -> sane d ->
  Forall2 (row_text d) ts rows -> Forall (Forall short) rows -> ~ In 13 (concat ts) ->
  load_file_with kw (Some (Ok dia)) (mksource (file_lines (concat ts)) None) = (rows, Ok tt).
Proof. intros kw dia d ts rows S Sn F H N. rewrite (load_settled kw dia d _ S). exact (text_rows d Sn ts rows None F H N). Qed.
Print Assumptions C141_rows.

(** Without quotation marks and escapes each line is split at the delimiters, and a
    blank line is an empty row. *)
Theorem C141_split : forall kw dia d bes f, settled kw dia d -> quoting d = QUOTE_NONE -> escapec d = None -> ~ ends_line (delim d) ->
  (skipspace d = true -> delim d <> u1 " ") ->
  Forall (fun be => Forall (fun c => ~ ends_line c /\ c <> 0) (fst be) /\ Forall ends_line (snd be) /\ Forall short (map (lead d) (split_on (delim d) (fst be)))) bes ->
  load_file_with kw (Some (Ok dia)) (mksource (map (fun be => fst be ++ snd be) bes) f) =
  (map (fun be => match fst be with [] => [] | _ :: _ => map (lead d) (split_on (delim d) (fst be)) end) bes, match f with Some e => Raise e | None => Ok tt end).
Proof.
  intros kw dia d bes f S K E L Sp F. rewrite (load_settled kw dia d _ S). apply plain_rows; try assumption. split; [exact L|].
  destruct S as ((t & _ & C) & _). inversion C; subst; assumption.
Qed.
Print Assumptions C141_split.

(** With quoting=csv.QUOTE_NONE the corpus files are read back whatever their fields
    begin with, which fails without (C69_quotes_refuted). *)
Definition unquoted : settings := mksettings None None None None None None (Some QUOTE_NONE).
Theorem C141_unquoted : forall rows, Forall (fun row => row <> [] /\ row <> [[]] /\ Forall (fun v => Forall plain_char v /\ short v) row) rows ->
  load_file_with unquoted None (mksource (file_lines (flat_map line_of rows)) None) = (rows, Ok tt).
Proof.
  intros rows F. rewrite load_none.
  assert (S : settled unquoted no_settings (mkdialect 9 (Some 34) None true false false QUOTE_NONE)) by (apply dialect_settled; reflexivity).
  assert (L : forall c, plain_char c -> inner (mkdialect 9 (Some 34) None true false false QUOTE_NONE) c).
  { intros c (A & B & C & D). split; [exact A|split; [intros [X|X]; contradiction|exact D]]. }
  rewrite flat_map_concat_map.
  apply (C141_rows unquoted no_settings _ (map line_of rows) rows S).
  - apply plain_sane; try reflexivity; try discriminate. split; [intros [X|X]; discriminate X|discriminate].
  - induction F as [|row rows (N & N1 & T) F IH]; [constructor|]. cbn [map]. constructor; [|exact IH]. exists row. split; [|split; [exact N|split; [exact N1|reflexivity]]].
    clear -T L. induction T as [|v row [P H] T IH]; constructor; [|exact IH].
    apply (plain_written (mkdialect 9 (Some 34) None true false false QUOTE_NONE)); try reflexivity; try discriminate. eapply Forall_impl; [exact L|exact P].
  - eapply Forall_impl; [|exact F]. intros row (_ & _ & T). eapply Forall_impl; [|exact T]. intros v [_ H]. exact H.
  - intro I. apply in_concat in I. destruct I as (l & Il & Ic). apply in_map_iff in Il. destruct Il as (row & <- & Ir). rewrite Forall_forall in F. destruct (F row Ir) as (_ & _ & T).
    unfold line_of in Ic. apply in_app_iff in Ic. destruct Ic as [Ic|[X|[]]]; [|discriminate X]. clear -T Ic. induction T as [|v row [P H] T IH]; [destruct Ic|]. destruct row as [|w row].
    + cbn [join] in Ic. rewrite Forall_forall in P. destruct (P 13 Ic) as (_ & _ & X & _). apply X. reflexivity.
    + rewrite join_cons in Ic by discriminate. rewrite !in_app_iff in Ic. destruct Ic as [Ic|[[X|[]]|Ic]]; [|discriminate X|exact (IH Ic)]. rewrite Forall_forall in P. destruct (P 13 Ic) as (_ & _ & X & _). apply X. reflexivity.
Qed.
Print Assumptions C141_unquoted.

(** strict=True changes nothing but that the rows may be cut short by a csv.Error, and
    QUOTE_ALL reads as QUOTE_MINIMAL does. *)
Theorem C141_strict : forall d ls f, cut_short (d_rows_from (with_strict false d) d_reset ls f) (d_rows_from (with_strict true d) d_reset ls f).
Proof. exact strict_rows. Qed.
Print Assumptions C141_strict.
(** A quotation that is not closed takes the rest of the file as its field, or is an error
    if strict; and so is, then, text after the closing quotation mark. *)
Theorem C141_not_closed : forall kw dia d ts rows cells row q t v, settled kw dia d -> sane d ->
  Forall2 (row_text d) ts rows -> Forall (Forall short) rows -> Forall2 (written d) cells row -> Forall short row ->
  is_quote d q -> quoted_text d t v -> short v -> ~ In 13 (concat ts ++ flat_map (fun t => t ++ [delim d]) cells ++ q :: t) ->
  load_file_with kw (Some (Ok dia)) (mksource (file_lines (concat ts ++ flat_map (fun t => t ++ [delim d]) cells ++ q :: t)) None) =
  if strict d then (rows, Raise CsvError) else (rows ++ [row ++ [v]], Ok tt).
Proof. intros kw dia d ts rows cells row q t v S Sn F H W Hr Q T Sv N. rewrite (load_settled kw dia d _ S). apply not_closed; assumption. Qed.
Print Assumptions C141_not_closed.
Theorem C141_goes_on : forall kw dia d ts rows cells row q t v c rest, settled kw dia d -> sane d ->
  Forall2 (row_text d) ts rows -> Forall (Forall short) rows -> Forall2 (written d) cells row -> Forall short row ->
  is_quote d q -> escapec d <> Some q -> quoted_text d t v -> short v -> doublequote d = true -> strict d = true ->
  ~ is_quote d c -> c <> delim d -> ~ ends_line c -> ~ In 13 (concat ts ++ flat_map (fun t => t ++ [delim d]) cells ++ q :: t ++ q :: c :: rest) ->
  load_file_with kw (Some (Ok dia)) (mksource (file_lines (concat ts ++ flat_map (fun t => t ++ [delim d]) cells ++ q :: t ++ q :: c :: rest)) None) = (rows, Raise CsvError).
Proof. intros. rewrite (load_settled kw dia d) by assumption. eapply goes_on; eassumption. Qed.
Print Assumptions C141_goes_on.
Theorem C141_quote_all : forall d ls f, d_rows_from (with_quoting QUOTE_ALL d) d_reset ls f = d_rows_from (with_quoting QUOTE_MINIMAL d) d_reset ls f.
Proof. exact all_rows. Qed.
Print Assumptions C141_quote_all.

(** A dialect does not bring its delimiter, not even csv.excel or csv.unix_dialect:
    that rows are read in the dialect given is refuted. *)
Definition excel : settings := mksettings (Some (Some (u ","))) (Some (Some (u """"))) None (Some true) (Some false) None (Some QUOTE_MINIMAL).
Theorem C141_dialect_refuted : ~ forall dia d ts rows, dialect_new dia = Ok d -> sane d -> Forall2 (row_text d) ts rows -> Forall (Forall short) rows -> ~ In 13 (concat ts) ->
  load_file_with no_settings (Some (Ok dia)) (mksource (file_lines (concat ts)) None) = (rows, Ok tt).
Proof.
  intro H. specialize (H excel (mkdialect 44 (Some 34) None true false false QUOTE_MINIMAL) [u "1,2" ++ [10]] [[u "1"; u "2"]] eq_refl).
  assert (X : load_file_with no_settings (Some (Ok excel)) (mksource (file_lines (concat [u "1,2" ++ [10]])) None) = ([[u "1"; u "2"]], Ok tt)).
  { apply H.
    - repeat split; cbn; try discriminate; try (intros [Y|Y]; discriminate Y).
      + intros [Y _]. discriminate Y.
      + destruct H0 as [Y _]. injection Y as <-. intros [Z|Z]; discriminate Z.
      + destruct H0 as [Y _]. injection Y as <-. discriminate.
    - constructor; [|constructor]. exists [u "1"; u "2"]. split; [|split; [discriminate|split; [discriminate|reflexivity]]].
      assert (W : forall c, c = 49 \/ c = 50 -> written (mkdialect 44 (Some 34) None true false false QUOTE_MINIMAL) [c] [c]).
      { intros c C. apply W_open; [|intros [Y _]; cbn in Y; injection Y as Y; lia|discriminate].
        constructor; [|constructor]. intros [Y|[Y|[[Y|Y]|Y]]]; cbn in Y; try discriminate Y; lia. }
      constructor; [apply (W 49); left; reflexivity|constructor; [apply (W 50); right; reflexivity|constructor]].
    - repeat constructor; vm_compute; discriminate.
    - intro I. cbn in I. repeat (destruct I as [I|I]; [discriminate I|]). exact I. }
  vm_compute in X. discriminate X.
Qed.
Print Assumptions C141_dialect_refuted.

(** ** cases *)
Definition semicolons : settings := mksettings (Some (Some (u ";"))) None (Some (Some (u "\"))) (Some false) (Some true) None None.
Example C141_case_settled : settled semicolons excel (mkdialect (u1 ";") (Some 34) (Some (u1 "\")) false true false QUOTE_MINIMAL).
Proof. apply dialect_settled. reflexivity. Qed.
Example C141_case_sane : sane (mkdialect (u1 ";") (Some 34) (Some (u1 "\")) false true false QUOTE_MINIMAL).
Proof.
  repeat split; cbn; try discriminate; try (intros [Y|Y]; discriminate Y).
  - intros [Y _]. discriminate Y.
  - injection H as <-. intros [Z|Z]; discriminate Z.
  - injection H as <-. discriminate.
  - destruct H as [Y _]. injection Y as <-. intros [Z|Z]; discriminate Z.
  - destruct H as [Y _]. injection Y as <-. discriminate.
Qed.
Example C141_case_rows :
  load_file_with semicolons (Some (Ok excel)) (mksource (file_lines (u "1; ""a\""b""; c\;d" ++ [10] ++ u "2;x\" ++ [10] ++ u "y;" ++ [10])) None) =
    ([[u "1"; u "a""b"; u "c;d"]; [u "2"; u "x" ++ [10] ++ u "y"; []]], Ok tt) /\
  load_file_with no_settings (Some (Ok excel)) (mksource (file_lines (u "1,2" ++ [10])) None) = ([[u "1,2"]], Ok tt) /\
  load_file_with unquoted None (mksource (file_lines (u "1	""a" ++ [10] ++ u "2	b")) None) = ([[u "1"; u """a"]; [u "2"; u "b"]], Ok tt) /\
  load_file_with (mksettings None None None None None (Some true) None) None (mksource (file_lines (u "1	b" ++ [10] ++ u "2	""a""b" ++ [10])) None) = ([[u "1"; u "b"]], Raise CsvError) /\
  load_file_with (mksettings None None None None None (Some true) None) None (mksource (file_lines (u "1	""b" ++ [10])) None) = ([], Raise CsvError) /\
  load_file_with (mksettings (Some (Some (u "::"))) None None None None None None) None (mksource [u "a"] None) = ([], Raise TypeError) /\
  load_file_with (mksettings (Some None) None None None None None None) None (mksource [u "a"] None) = ([], Raise TypeError) /\
  load_file_with (mksettings None (Some None) None None None None None) None (mksource [u """a"] None) = ([[u """a"]], Ok tt) /\
  load_file_with (mksettings None (Some (Some [])) None None None None None) None (mksource [u """a"] None) = ([], Raise TypeError).
Proof. vm_compute; repeat split. Qed.
(** a row, then [1;"a"] without the last mark, and [1;"a"b] *)
Definition tabs : dialect := mkdialect 9 (Some 34) None true false true QUOTE_MINIMAL.
Example C141_case_open : settled (mksettings None None None None None (Some true) None) no_settings tabs /\ sane tabs /\
  Forall2 (written tabs) [u "1"] [u "1"] /\ is_quote tabs 34 /\ quoted_text tabs (u "a") (u "a") /\ ~ is_quote tabs (u1 "b") /\ u1 "b" <> delim tabs /\ ~ ends_line (u1 "b").
Proof.
  split; [apply dialect_settled; reflexivity|]. split.
  { repeat split; cbn; try discriminate; try (intros [Y|Y]; discriminate Y).
    - intros [Y _]. discriminate Y.
    - destruct H as [Y _]. injection Y as <-. intros [Z|Z]; discriminate Z.
    - destruct H as [Y _]. injection Y as <-. discriminate. }
  split.
  { constructor; [|constructor]. apply (W_open tabs [49] [49]); [|intros [Y _]; discriminate Y|discriminate].
    constructor; [|constructor]. intros [Y|[Y|[[Y|Y]|Y]]]; discriminate Y. }
  split; [split; [reflexivity|discriminate]|]. split.
  { constructor; [discriminate|discriminate|intros [Y _]; discriminate Y|constructor]. }
  split; [intros [Y _]; discriminate Y|]. split; [discriminate|intros [Y|Y]; discriminate Y].
Qed.
