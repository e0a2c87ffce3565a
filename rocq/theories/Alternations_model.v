(* Alternations_model.v -- model of /repo/cjktools/alternations.py *)
From Verif Require Import Base PyStr Scripts_model KanaTable_model Maps_model.

(* alternations.py:24-25  _sokuon_map *)
Definition sokuon_map : dict Script char := Eval compute in
  [(Hiragana, u1 "っ"); (Katakana, u1 "ッ")].
(* alternations.py:27-28  _onbin_map *)
Definition onbin_map : dict Script str := Eval compute in
  [(Hiragana, u "いちりきつく"); (Katakana, u "イチリキツク")].

(* ---------------- voicing maps ---------------- *)
(* alternations.py:121-138  the hiragana part of _create_voicing_map.
   [x in string] with a one-character [x] is membership. *)
Definition voicing_of (voiced_line double_voiced_line : str) (kana : char) : list char :=
  if mem kana voiced_line then [kana + 1]
  else if mem kana double_voiced_line then [kana + 1; kana + 2]
  else [].
Definition hira_voicing (table : dict str str) : res (dict char (list char)) :=
  do ka <- dgetitem table (u "か");
  do sa <- dgetitem table (u "さ");
  do ta <- dgetitem table (u "た");
  do ha <- dgetitem table (u "は");
  do hira <- get_script Hiragana;
  Ok (dict_of (map (fun kana => (kana, voicing_of (ka ++ sa ++ ta) ha kana)) hira)).

(* scripts.to_katakana on one character *)
Definition kata_char (c : char) : char := hd c (to_katakana [c]).

(* alternations.py:140-142  the katakana copy, built in the iteration order of
   the hiragana map *)
Definition kata_voicing (vm : dict char (list char)) : dict char (list char) :=
  dict_of (map (fun kv => (kata_char (fst kv), map kata_char (snd kv))) vm).
(* alternations.py:144-146 *)
Definition join_voicing (vm : dict char (list char)) : dict char (list char) := dupdate vm (kata_voicing vm).

(* alternations.py:148  to_voiced, in insertion order.  [vm_or_empty] only
   discards the impossible exception (proved in Alternations_proofs.v). *)
Definition vm_or_empty (r : res (dict char (list char))) : dict char (list char) :=
  match r with Ok d => d | Raise _ => [] end.
Definition to_voiced : dict char (list char) := Eval vm_compute in
  join_voicing (vm_or_empty (hira_voicing kana_rows)).
(* alternations.py:149-150  from_voiced: inverted map, first element of each
   list ([v[0]] raises IndexError on an empty list) *)
Definition from_voiced_of (tv : dict char (list char)) : res (dict char char) :=
  rmap dict_of (mapM (fun kv => do x <- sitem (snd kv) 0; Ok (fst kv, x)) (invert_mapping tv)).
Definition from_voiced : dict char char := Eval vm_compute in
  match from_voiced_of to_voiced with Ok d => d | Raise _ => [] end.

(* itertools.product of several iterables *)
Fixpoint product {A} (ls : list (list A)) : list (list A) :=
  match ls with
  | [] => [[]]
  | l :: r => flat_map (fun x => map (cons x) (product r)) l
  end.

Section Alternations.
  Variable U : UCD.    (* unicodedata, used by KanaTable.is_voiced *)

  (* alternations.py:79  from_voiced[v[0]] + v[1:] *)
  Definition devoice (v : str) : res str :=
    match v with
    | [] => Raise IndexError
    | c :: r => do b <- dgetitem from_voiced c; Ok (b :: r)
    end.

  (* alternations.py:56-81  canonical_segment_forms *)
  Definition canonical_segment_forms (segment : str) (left_context right_context : bool) : res (list str) :=
    let stype := script_type segment in
    match dget stype sokuon_map, dget stype onbin_map with
    | Some sokuon, Some onbin =>
        let variants := [segment] in
        let variants :=
          if right_context && (1 <? Z.of_nat (length segment)) && endswith [sokuon] segment
          then supdate variants (map (fun c => removelast segment ++ [c]) onbin)
          else variants in
        do voiced <- (if left_context then do c <- sitem segment 0; Ok (is_voiced U [c]) else Ok false);
        if voiced
        then do devoiced <- mapM devoice variants; Ok (supdate variants devoiced)
        else Ok variants
    | _, _ => Raise ValueError
    end.

  (* alternations.py:31-53  canonical_forms *)
  Fixpoint candidate_sets (i n : nat) (segs : list str) : res (list (list str)) :=
    match segs with
    | [] => Ok []
    | seg :: r =>
        do v <- canonical_segment_forms seg (0 <? i)%nat (i <? n - 1)%nat;
        do vs <- candidate_sets (S i) n r;
        Ok (v :: vs)
    end.
  Definition canonical_forms (kana_segments : list str) : res (list (list str)) :=
    do sets <- candidate_sets 0 (length kana_segments) kana_segments;
    Ok (product sets).
End Alternations.

(* alternations.py:109-118  onbin_variants *)
Definition onbin_variants (kana_segment : str) : res (list str) :=
  if 1 <? Z.of_nat (length kana_segment) then
    do sokuon <- dgetitem sokuon_map (script_type kana_segment);
    Ok (sadd (removelast kana_segment ++ [sokuon]) [kana_segment])
  else Ok [kana_segment].

(* alternations.py:99-106  rendaku_variants *)
Definition rendaku_variants (kana_segment : str) : res (list str) :=
  do c <- sitem kana_segment 0;
  do vs <- dgetitem to_voiced c;
  Ok (fold_left (fun acc kana => sadd (kana :: tl kana_segment) acc) vs [kana_segment]).

(* alternations.py:84-96  surface_forms *)
Definition surface_forms (reading_segments : list str) : res (list (list str)) :=
  do first <- sitem reading_segments 0;
  do s0 <- onbin_variants first;
  do rest <- mapM rendaku_variants (tl reading_segments);
  Ok (product (s0 :: rest)).

(* ---------------- insert_duplicate_kanji ---------------- *)
Definition dup_mark : char := Eval compute in u1 "々".

(* alternations.py:153-168  insert_duplicate_kanji; the while loop with fuel *)
Fixpoint dup_loop (fuel : nat) (kanji_string : str) : res str :=
  match fuel with
  | O => Raise OutOfFuel
  | S f =>
      match find [dup_mark] kanji_string with
      | Some (S p) =>                                       (* loc > 0, loc - 1 = p *)
          do dup <- sitem kanji_string p;
          dup_loop f (firstn (S p) kanji_string ++ [dup] ++ skipn (S (S p)) kanji_string)
      | _ => Ok kanji_string                                (* loc <= 0 *)
      end
  end.
Definition insert_duplicate_kanji (kanji_string : str) : res str :=
  dup_loop (S (length kanji_string)) kanji_string.

(* ---------------- expand_long_vowels ---------------- *)
(* alternations.py:171  _long_finder: start positions of the non-overlapping
   matches of the long vowel mark with a hiragana character before it; each
   match is one character long, so no match hides another.  [i] is the index
   of the head of [s], [prev] the character before it. *)
Fixpoint long_finder (i : nat) (prev : option char) (s : str) : list nat :=
  match s with
  | [] => []
  | c :: r =>
      let hit := match prev with
                 | Some p => (0x3041 <=? p) && (p <=? 0x3096) && (c =? long_vowel_mark)
                 | None => false end in
      (if hit then [i] else []) ++ long_finder (S i) (Some c) r
  end.

(* alternations.py:202-205  the replacement loop; [segment] is rebound, the
   matches are those of the original segment; str + None raises TypeError.
   A match at 0 would read segment[-1]; there is none (lookbehind). *)
Fixpoint replace_loop (matches : list nat) (segment : str) : res str :=
  match matches with
  | [] => Ok segment
  | i :: r =>
      do prev <- match i with O => of_option IndexError (lastZ segment) | S p => sitem segment p end;
      do vowel <- to_vowel_line kana_rows [prev];
      match vowel with
      | None => Raise TypeError
      | Some v => replace_loop r (firstn i segment ++ v ++ skipn (S i) segment)
      end
  end.

(* alternations.py:189-207  one iteration of the loop over segments *)
Definition expand_segment (segment : str) : res str :=
  match segment with
  | [] => Ok []
  | _ =>
      let run (reverse_operation : str -> str) :=
        let h := to_hiragana segment in
        rmap reverse_operation (replace_loop (long_finder 0 None h) h) in
      match script_type segment with
      | Hiragana => run (fun x => x)
      | Katakana => run to_katakana
      | _ => Ok segment
      end
  end.

(* alternations.py:174-209  expand_long_vowels *)
Definition expand_long_vowels (kana_string : str) : res str :=
  rmap (@concat char) (mapM expand_segment (script_boundaries kana_string)).
