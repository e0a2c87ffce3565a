From Verif Require Import Base PyText Scripts_model Scripts_spec Regex Kanjidic_model Kanjidic_spec Kanjidic_proofs KanjidicLang_spec KanjidicLang_proofs.

(** C102: every line at all, not only the well-formed ones of C43.  A line has
    segments (C43_segments); they decide its fate *)
Theorem C102_refused dv line ts x : segments (strip line) ts -> (parse_line dv line = Raise x <-> refused dv ts x).
Proof. exact (line_refused dv line ts x). Qed.
Print Assumptions C102_refused.
Theorem C102_accepted dv line ts : segments (strip line) ts ->
  (forall e, parse_line dv line = Ok e -> accepted dv ts e) /\
  ((exists e, accepted dv ts e) -> exists e, parse_line dv line = Ok e).
Proof.
  exact (fun S => conj (fun e => line_accepted dv line ts e S)
    (fun H => match H with ex_intro _ e A => match accepted_ok dv ts e A with
       ex_intro _ e' (conj E _) => ex_intro _ e' (eq_trans (proj1 (line_outcome dv line ts S)) E) end end)).
Qed.
Print Assumptions C102_accepted.
(** the entry is determined, and no line is both *)
Theorem C102_unique dv ts e : accepted dv ts e ->
  (forall e', accepted dv ts e' -> forall name, dget name e = dget name e') /\ (forall x, ~ refused dv ts x).
Proof. exact (fun A => conj (fun e' B => accepted_unique dv ts e e' A B) (fun x => accepted_not_refused dv ts e x A)). Qed.
Print Assumptions C102_unique.
(** the files that load *)
Theorem C102_files dv files : files <> [] -> ((exists d, init dv files = Ok d) <->
  forall line, In line (concat files) -> ~ comment line -> exists ts e, segments (strip line) ts /\ accepted dv ts e).
Proof. exact (files_loaded dv files). Qed.
Print Assumptions C102_files.
(** so a blank line, the last one included, refuses the whole dictionary *)
Theorem C102_blank_line dv line files : blank line -> In line (concat files) -> exists x, init dv files = Raise x.
Proof.
  exact (fun B I => match init dv files as r return init dv files = r -> exists x, r = Raise x with
    | Raise x => fun _ => ex_intro _ x eq_refl
    | Ok d => fun E => False_ind _ (blank_refuses dv line files d B I E)
    end eq_refl).
Qed.
Print Assumptions C102_blank_line.

(** an accepted line outside C43: a tab inside a segment, an unclosed brace, an undocumented code *)
Definition odd_line := u "亜 3021 S7	x P4-7-1 {S9 J2 S8".
Example C102_case : parse_line ascii_dv odd_line = Ok
  [(u "kanji", VStr (u "亜")); (u "gloss", VList []); (u "on_readings", VList []); (u "kun_readings", VList []);
   (u "jis_code", VInt 12321); (u "stroke_count", VStr (u "7	x")); (u "skip_code", VTuple [4; 7; 1]); (u "J", VList [VInt 2])].
Proof. vm_compute; reflexivity. Qed.
Example C102_refused_cases :
  map (parse_line ascii_dv) [u "亜"; u "亜 30g1"; u "亜 3021 - S7 P1"; u "亜 3021 漢 S7 P1-1"; u "亜 3021 -x"; u "亜 3021 P1-2"; u "亜 3021 S1"; u "亜 3021 S1 P1"; u "亜 3021 S1 P1-x"] =
  [Raise IndexError; Raise ValueError; Raise IndexError; Raise PlainException; Raise PlainException; Raise KeyError; Raise KeyError; Raise AttributeError; Raise ValueError].
Proof. vm_compute; reflexivity. Qed.
Example C102_blank_case : init ascii_dv [[u "亜 3021 S7 P1-2-3"; u ""]] = Raise IndexError.
Proof. vm_compute; reflexivity. Qed.
Example C102_case_accepted : exists e, segments (strip odd_line) [u "亜"; u "3021"; u "S7	x"; u "P4-7-1"; u "S9"; u "J2"; u "S8"] /\
  accepted ascii_dv [u "亜"; u "3021"; u "S7	x"; u "P4-7-1"; u "S9"; u "J2"; u "S8"] e.
Proof.
  assert (S : segments (strip odd_line) [u "亜"; u "3021"; u "S7	x"; u "P4-7-1"; u "S9"; u "J2"; u "S8"]).
  { apply findall_spec; vm_compute; reflexivity. }
  eexists; split; [exact S|]; apply (C102_accepted ascii_dv odd_line _ S); vm_compute; reflexivity.
Qed.
