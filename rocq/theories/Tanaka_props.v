(* Tanaka_props.v -- C76-C79 *)
From Verif Require Import Base PyText PyFmt Tanaka_model Tanaka_spec Tanaka_proofs.

(** C76.  Missing: senses below 1 (0 is not written), empty readings and displays. *)
Theorem C76_round_trip_partial dv w : unicode_digits dv -> well_formed w -> from_text dv (word_str w) = Ok w.
Proof. exact (word_round_trip dv w). Qed.
Print Assumptions C76_round_trip_partial.
(** a sense number 0 can be read but is not written *)
Theorem C76_sense_zero_refuted : ~ forall dv t w, unicode_digits dv -> from_text dv t = Ok w -> from_text dv (word_str w) = Ok w.
Proof.
  intros H; specialize (H ascii_dv (u "x[00]") (mkword (u "x") None (Some 0) None false) (conj ascii_dv_ok ascii_space) ltac:(vm_compute; reflexivity)).
  vm_compute in H; discriminate.
Qed.
Print Assumptions C76_sense_zero_refuted.
(** and that is the only exception among the words that can be read *)
Theorem C76_reread dv t w : unicode_digits dv -> from_text dv t = Ok w -> sense w <> Some 0 -> from_text dv (word_str w) = Ok w.
Proof. intros A E S; apply word_round_trip; [exact A|]; apply (written_well_formed dv t); [exact A|apply from_text_iff; assumption|exact S]. Qed.
Print Assumptions C76_reread.
(** what texts are words, and which words *)
Theorem C76_grammar dv t w : unicode_digits dv -> from_text dv t = Ok w <-> written dv t w.
Proof. intros A; exact (from_text_iff dv A t w). Qed.
Print Assumptions C76_grammar.
Theorem C76_reject dv t : unicode_digits dv -> (forall w, ~ written dv t w) -> from_text dv t = Raise InvalidEntryError.
Proof. intros A; exact (from_text_error dv A t). Qed.
Print Assumptions C76_reject.
Example C76_case : let w := mkword (u "彼") (Some (u "かれ")) (Some 1) (Some (u "彼は")) true in
  well_formed w /\ word_str w = u "彼(かれ)[01]{彼は}~" /\ from_text ascii_dv (word_str w) = Ok w.
Proof.
  split; [|split; vm_compute; reflexivity].
  split; [discriminate|split; [repeat constructor; vm_compute; intuition discriminate|split; [|split]]].
  - split; [discriminate|vm_compute; intuition discriminate].
  - split; [discriminate|vm_compute; intuition discriminate].
  - discriminate.
Qed.
Example C76_legacy : from_text ascii_dv (u "は|1") = Ok (mkword (u "は") None None None false) /\
  from_text ascii_dv (u "は[1](x)") = Raise InvalidEntryError.
Proof. split; vm_compute; reflexivity. Qed.

(** C77 *)
Theorem C77_equivalence : (forall a, word_eq a a = true) /\ (forall a b, word_eq a b = word_eq b a) /\
  (forall a b c, word_eq a b = true -> word_eq b c = true -> word_eq a c = true).
Proof.
  split; [|split].
  - intros a; apply word_eq_iff; repeat split.
  - intros a b; destruct (word_eq a b) eqn:E, (word_eq b a) eqn:F; try reflexivity.
    + apply word_eq_iff in E; rewrite <- F; symmetry; apply word_eq_iff; unfold same_word in *; intuition congruence.
    + apply word_eq_iff in F; rewrite <- E; apply word_eq_iff; unfold same_word in *; intuition congruence.
  - intros a b c E F; apply word_eq_iff in E, F; apply word_eq_iff; unfold same_word in *; intuition congruence.
Qed.
Print Assumptions C77_equivalence.
Theorem C77_exact a b : word_eq a b = true <-> same_word a b.
Proof. exact (word_eq_iff a b). Qed.
Print Assumptions C77_exact.
Theorem C77_display h r s e d : word_eq (mkword h r s None e) (mkword h r s (Some d) e) = true <-> d = h.
Proof. rewrite word_eq_iff; unfold same_word, shown; cbn; intuition congruence. Qed.
Print Assumptions C77_display.
Theorem C77_ne a b : word_ne a b = negb (word_eq a b) /\ (word_ne a b = true <-> ~ same_word a b).
Proof. split; [reflexivity|]; unfold word_ne; rewrite negb_true_iff, <- word_eq_iff; destruct (word_eq a b); intuition congruence. Qed.
Print Assumptions C77_ne.
Example C77_case : word_eq (mkword (u "為る") (Some (u "する")) None None false) (mkword (u "為る") (Some (u "する")) None (Some (u "為る")) false) = true /\
  word_eq (mkword (u "為る") None None None false) (mkword (u "為る") None None (Some (u "した")) false) = false.
Proof. split; vm_compute; reflexivity. Qed.

(** C78 *)
Theorem C78_round_trip dv ws : unicode_digits dv -> Forall (fun w => well_formed w /\ no_space w) ws ->
  parse_sentence dv (join (u " ") (map word_str ws)) = Ok ws.
Proof. exact (sentence_round_trip dv ws). Qed.
Print Assumptions C78_round_trip.
Theorem C78_pieces t : exists ps, pieces t ps /\ forall qs, pieces t qs -> qs = ps.
Proof.
  destruct (pieces_exist t) as [ps P]; exists ps; split; [exact P|].
  intros qs Q; rewrite (pieces_unique t ps P), (pieces_unique t qs Q); reflexivity.
Qed.
Print Assumptions C78_pieces.
Theorem C78_words dv t ps ws : unicode_digits dv -> pieces t ps -> parse_sentence dv t = Ok ws <-> Forall2 (written dv) ps ws.
Proof. exact (parse_sentence_iff dv t ps ws). Qed.
Print Assumptions C78_words.
Theorem C78_reject dv t ps : unicode_digits dv -> pieces t ps ->
  parse_sentence dv t = Raise InvalidEntryError <-> exists p, In p ps /\ forall w, ~ written dv p w.
Proof. exact (parse_sentence_reject dv t ps). Qed.
Print Assumptions C78_reject.
Theorem C78_total dv t : unicode_digits dv -> (exists ws, parse_sentence dv t = Ok ws) \/ parse_sentence dv t = Raise InvalidEntryError.
Proof. exact (parse_sentence_total dv t). Qed.
Print Assumptions C78_total.
Example C78_case : parse_sentence ascii_dv (u " 彼(かれ)[01]  は|1 ") =
  Ok [mkword (u "彼") (Some (u "かれ")) (Some 1) None false; mkword (u "は") None None None false] /\
  parse_sentence ascii_dv (u "彼 (かれ)") = Raise InvalidEntryError.
Proof. split; vm_compute; reflexivity. Qed.

(** C79 *)
Theorem C79_filled edict ws : Forall2 (filled edict) ws (fst (adjust_details (Some edict) ws)).
Proof. exact (adjust_filled edict ws). Qed.
Print Assumptions C79_filled.
Theorem C79_idempotent edict ws ws' : adjust_details edict ws = (ws', Ok tt) -> adjust_details edict ws' = (ws', Ok tt).
Proof. exact (adjust_idem edict ws ws'). Qed.
Print Assumptions C79_idempotent.
Theorem C79_no_dictionary ws : adjust_details None ws = (ws, Ok tt).
Proof. exact (eq_refl _). Qed.
Print Assumptions C79_no_dictionary.
(** exactly which reading *)
Theorem C79_kept edict w : dget (headword w) edict = None \/ reading w <> None -> adjust_word edict w = Ok w.
Proof. exact (adjust_word_same edict w). Qed.
Print Assumptions C79_kept.
Theorem C79_chosen edict w rs : dget (headword w) edict = Some rs -> reading w = None ->
  (forall o, chosen rs (sense w) o -> adjust_word edict w =
     Ok (match o with Some r => if eqb r (headword w) then w else with_reading w r | None => w end)) /\
  ((forall o, ~ chosen rs (sense w) o) -> adjust_word edict w = Raise IndexError).
Proof. exact (adjust_word_lookup edict w rs). Qed.
Print Assumptions C79_chosen.
Theorem C79_each edict ws ws' : adjust_details (Some edict) ws = (ws', Ok tt) <-> Forall2 (fun w w' => adjust_word edict w = Ok w') ws ws'.
Proof. exact (adjust_Ok edict ws ws'). Qed.
Print Assumptions C79_each.
Theorem C79_error edict ws e ws' : adjust_details (Some edict) ws = (ws', Raise e) ->
  e = IndexError /\ exists a w b a', ws = a ++ w :: b /\ ws' = a' ++ w :: b /\ Forall2 (fun w w' => adjust_word edict w = Ok w') a a' /\ adjust_word edict w = Raise IndexError.
Proof. exact (adjust_error edict ws e ws'). Qed.
Print Assumptions C79_error.
Example C79_case : let edict := [(u "今日", [u "きょう"; u "こんにち"]); (u "は", [u "は"]); (u "彼", [u "かれ"; u "かれ"])] in
  adjust_details (Some edict) [mkword (u "今日") None (Some 2) None false; mkword (u "は") None None None false; mkword (u "彼") None None None false; mkword (u "今日") None None None true] =
  ([mkword (u "今日") (Some (u "こんにち")) (Some 2) None false; mkword (u "は") None None None false; mkword (u "彼") (Some (u "かれ")) None None false; mkword (u "今日") None None None true], Ok tt).
Proof. vm_compute; reflexivity. Qed.
Example C79_zero : adjust_details (Some [(u "今日", [u "きょう"; u "こんにち"]); (u "x", [])]) [mkword (u "今日") None (Some 0) None false; mkword (u "x") None (Some 0) None false] =
  ([mkword (u "今日") (Some (u "こんにち")) (Some 0) None false; mkword (u "x") None (Some 0) None false], Raise IndexError).
Proof. vm_compute; reflexivity. Qed.
