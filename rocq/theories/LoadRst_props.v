(* LoadRst_props.v -- property C99 *)
From Verif Require Import Base LoadRst_model LoadRst_spec LoadRst_proofs.

(** ** C99.  Without an output file nothing is written; the text returned is the
    preamble, a line end and the source's text, and there is one exactly when
    there is a source text. *)
Theorem C99_text : forall pandoc can_open encodable st f preamble strict t, (exists n, dget f st = Some n) ->
  exists r, convert pandoc can_open encodable st (Some f) None preamble strict = (st, r) /\
    (r = Ok (Some t) <-> exists s, source_text pandoc st f strict s /\ t = heading preamble ++ [10] ++ s).
Proof. exact convert_text. Qed.
Print Assumptions C99_text.
(** with one, that file holds the text and a line end, and only that file changes *)
Theorem C99_writes : forall pandoc can_open encodable st f o preamble strict s n,
  dget f st = Some n -> source_text pandoc st f strict s -> can_open st o = true ->
  let t := heading preamble ++ [10] ++ s ++ [10] in encodable t = true ->
  exists st', convert pandoc can_open encodable st (Some f) (Some o) preamble strict = (st', Ok None) /\
    dget o st' = Some (File (Ok t)) /\ forall q, q <> o -> dget q st' = dget q st.
Proof.
  intros pandoc c e st f o preamble strict s n D S C t E. eexists. split; [exact (convert_writes pandoc c e st f o preamble strict s n D S C E)|].
  split; [apply dget_dset_same | intros q N; apply dget_dset_other; congruence].
Qed.
Print Assumptions C99_writes.
(** a failure leaves all files alone, unless the text cannot be encoded *)
Theorem C99_failure : forall pandoc can_open encodable st i o preamble strict st' e,
  convert pandoc can_open encodable st i o preamble strict = (st', Raise e) ->
  st' = st \/ (e = UnicodeError /\ exists q, o = Some q /\ st' = dset q (File (Ok [])) st).
Proof. exact convert_fails. Qed.
Print Assumptions C99_failure.
Theorem C99_strict : forall pandoc can_open encodable st f o preamble, pandoc = None -> (exists n, dget f st = Some n) ->
  convert pandoc can_open encodable st (Some f) o preamble true = (st, Raise ImportError).
Proof. exact convert_strict. Qed.
Print Assumptions C99_strict.
Theorem C99_input : forall pandoc can_open encodable st o preamble strict,
  convert pandoc can_open encodable st None o preamble strict = (st, Raise ValueError) /\
  forall f, dget f st = None -> convert pandoc can_open encodable st (Some f) o preamble strict = (st, Raise OSError).
Proof. intros; split; [apply convert_no_input | intros f; apply convert_missing]. Qed.
Print Assumptions C99_input.
(** a directory cannot stand in for a file when pandoc is not there *)
Theorem C99_directory : forall can_open encodable st f o preamble, dget f st = Some Directory ->
  convert None can_open encodable st (Some f) o preamble false = (st, Raise OSError).
Proof. intros can_open encodable st f o preamble D. unfold convert, load_text, fallback_load, read_file. rewrite D. reflexivity. Qed.
Print Assumptions C99_directory.
(** nor does an undecodable file: the error is the one of reading it *)
Theorem C99_unreadable : forall pandoc can_open encodable st f o preamble e, dget f st = Some (File (Raise e)) ->
  pandoc = None \/ (exists p x, pandoc = Some p /\ p st f = Raise x /\ (x = ImportError \/ x = OSError)) ->
  convert pandoc can_open encodable st (Some f) o preamble false = (st, Raise e).
Proof.
  intros pandoc can_open encodable st f o preamble e D [-> | (p & x & -> & P & [-> | ->])];
    unfold convert, load_text, fallback_load, read_file; rewrite D; try rewrite P; cbn; try rewrite D; reflexivity.
Qed.
Print Assumptions C99_unreadable.

Example C99_case :
  let st := [(u "README.md", File (Ok (u "# hi"))); (u "d", Directory)] in
  convert None (fun _ _ => true) (fun _ => true) st (Some (u "README.md")) None None false = (st, Ok (Some (10 :: u "# hi"))) /\
  convert None (fun _ _ => true) (fun _ => true) st (Some (u "d")) None None false = (st, Raise OSError) /\
  convert (Some (fun _ _ => Raise OSError)) (fun _ _ => true) (fun _ => true) st (Some (u "README.md")) (Some (u "out")) (Some (u "p")) false =
    (st ++ [(u "out", File (Ok (u "p" ++ 10 :: u "# hi" ++ [10])))], Ok None) /\
  source_text None st (u "README.md") false (u "# hi").
Proof. repeat split; try (vm_compute; reflexivity). apply st_absent; reflexivity. Qed.
