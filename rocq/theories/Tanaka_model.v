(* Tanaka_model.v -- model of TanakaWord and of the text side of
   TatoebaIndexReader, /repo/cjktools/resources/tatoeba.py:414-511, 521, 592-659.
   [dv] gives the value of a Unicode decimal digit (what \d matches).  The
   dictionary passed as edict is a dict from headwords to the readings of their
   entries.  Comparison of a word with an object of another class is in
   Compare_model.v.  The text of error messages is in Messages_model.v. *)
From Verif Require Import Base PyText PyFmt Regex.

(* tatoeba.py:419, 428-433 *)
Record word := mkword { headword : str; reading : option str; sense : option Z; display : option str; example : bool }.

Section Tanaka.
  Variable dv : Z -> option Z.
  Definition is_d (c : char) : bool := match dv c with Some _ => true | None => false end.

  (* tatoeba.py:421-426  word_re *)
  Definition delims : str := u "([{|~".
  Definition n_headword := u "headword".
  Definition n_reading := u "reading".
  Definition n_sense := u "sense".
  Definition n_display := u "display".
  Definition n_example := u "example".
  Definition re_headword : re := Grp n_headword (Plus (Chr (fun c => negb (mem c delims)))).
  Definition re_reading : re := Opt (Seq (Lit (u "(")) (Seq (Grp n_reading (Plus (Chr (notc (u1 ")"))))) (Lit (u ")")))).
  Definition re_legacy : re := Opt (Seq (Lit (u "|")) (Plus (Chr is_d))).
  Definition re_sense : re := Opt (Seq (Lit (u "[")) (Seq (Grp n_sense (Plus (Chr is_d))) (Lit (u "]")))).
  Definition re_display : re := Opt (Seq (Lit (u "{")) (Seq (Grp n_display (Plus (Chr (notc (u1 "}"))))) (Lit (u "}")))).
  Definition re_example : re := Opt (Grp n_example (Lit (u "~"))).
  Definition word_re : re := Seqs [re_headword; re_reading; re_legacy; re_sense; re_display; re_example; Eol].

  (* tatoeba.py:435-462  from_text *)
  Definition from_text (text : str) : res word :=
    match match_ word_re text with
    | None => Raise InvalidEntryError
    | Some m =>
        do sense <- (match group n_sense m with
                     | Some t => do z <- of_option ValueError (py_int dv 10 t); Ok (Some z)
                     | None => Ok None
                     end);
        Ok {| headword := match group n_headword m with Some h => h | None => [] end;
              reading := group n_reading m; sense := sense; display := group n_display m;
              example := match group n_example m with Some _ => true | None => false end |}
    end.

  (* tatoeba.py:464-471  resolve_display *)
  Definition resolve_display (w : word) : str := match display w with Some d => d | None => headword w end.

  (* tatoeba.py:473-484  __str__ *)
  Definition fmt02 (n : Z) : str := let s := dec n in if (length s <? 2)%nat then u "0" ++ s else s.
  Definition word_str (w : word) : str :=
    let base := headword w in
    let base := match reading w with Some (c :: r) => base ++ u "(" ++ (c :: r) ++ u ")" | _ => base end in
    let base := match sense w with Some n => if n =? 0 then base else base ++ u "[" ++ fmt02 n ++ u "]" | None => base end in
    let base := match display w with Some (c :: r) => base ++ u "{" ++ (c :: r) ++ u "}" | _ => base end in
    if example w then base ++ u "~" else base.

  (* tatoeba.py:489-511  __eq__, __ne__ *)
  Definition word_eq (a b : word) : bool :=
    eqb (headword a) (headword b) && eqb (sense a) (sense b) && Bool.eqb (example a) (example b) &&
    eqb (reading a) (reading b) && eqb (resolve_display a) (resolve_display b).
  Definition word_ne (a b : word) : bool := negb (word_eq a b).

  (* tatoeba.py:592-620  parse_sentence; sentence_splitter, line 521 *)
  Definition sentence_splitter (text : str) : list str := split_on (u1 " ") text.
  Fixpoint parse_words (ws : list str) : res (list word) :=
    match ws with
    | [] => Ok []
    | w :: r =>
        match w with
        | [] => parse_words r
        | _ => do wobj <- from_text w; do sentence <- parse_words r; Ok (wobj :: sentence)
        end
    end.
  Definition parse_sentence (text : str) : res (list word) := parse_words (sentence_splitter text).

  (* tatoeba.py:622-658  adjust_details: the words afterwards, and how it ends *)
  Definition py_index {A} (l : list A) (i : Z) : res A :=
    of_option IndexError
      (if 0 <=? i then nth_error l (Z.to_nat i)
       else if 0 <=? i + Z.of_nat (length l) then nth_error l (Z.to_nat (i + Z.of_nat (length l))) else None).
  Definition set_reading (w : word) (r : option str) : word :=
    {| headword := headword w; reading := r; sense := sense w; display := display w; example := example w |}.
  Definition only_reading (readings : list str) : option str :=
    if Nat.eqb (length (set_of readings)) 1 then nth_error readings 0 else None.
  Definition adjust_word (edict : dict str (list str)) (w : word) : res word :=
    match dget (headword w) edict with
    | None => Ok w
    | Some readings =>
        match reading w with
        | Some _ => Ok w
        | None =>
            do r <- (match sense w with
                     | Some s => if s <=? Z.of_nat (length readings) then rmap Some (py_index readings (s - 1)) else Ok (only_reading readings)
                     | None => Ok (only_reading readings)
                     end);
            Ok (if eqb r (Some (headword w)) then w else set_reading w r)
        end
    end.
  Fixpoint adjust_loop (edict : dict str (list str)) (sentence : list word) : list word * res unit :=
    match sentence with
    | [] => ([], Ok tt)
    | w :: r =>
        match adjust_word edict w with
        | Raise e => (w :: r, Raise e)
        | Ok w' => let (r', o) := adjust_loop edict r in (w' :: r', o)
        end
    end.
  Definition adjust_details (edict : option (dict str (list str))) (sentence : list word) : list word * res unit :=
    match edict with None => (sentence, Ok tt) | Some e => adjust_loop e sentence end.
End Tanaka.
