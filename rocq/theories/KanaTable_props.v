(* KanaTable_props.v -- property theorems C08-C09 (kana_table.py).
   [table] is the dictionary of rows in an arbitrary iteration order. *)
From Verif Require Import Base PyStr KanaTable_model KanaTable_spec KanaTable_proofs.

(** ** C08 *)
Theorem C08_get_coords_exact : forall table, Permutation table kana_rows -> forall s c v,
  get_coords table s = Ok (c, v) <->
  exists k c' v', s = [k] /\ c = [c'] /\ v = [v'] /\ coords k c' v'.
Proof. exact get_coords_spec. Qed.
Print Assumptions C08_get_coords_exact.

Theorem C08_get_coords_key_error : forall table, Permutation table kana_rows -> forall s e,
  get_coords table s = Raise e <-> e = KeyError /\ ~ exists k c v, s = [k] /\ coords k c v.
Proof. exact get_coords_fail. Qed.
Print Assumptions C08_get_coords_key_error.

Theorem C08_from_coords_exact : forall table, Permutation table kana_rows -> forall c v k,
  from_coords table [c] [v] = Ok [k] <-> coords k c v.
Proof. exact from_coords_spec. Qed.
Print Assumptions C08_from_coords_exact.

Theorem C08_from_get : forall table, Permutation table kana_rows -> forall s c v,
  get_coords table s = Ok (c, v) -> from_coords table c v = Ok s.
Proof. exact from_get_coords. Qed.
Print Assumptions C08_from_get.

Theorem C08_get_from : forall table, Permutation table kana_rows -> forall c v row i,
  In (c, row) kana_rows -> nth_error (u "あいうえお") i = Some v ->
  exists k, from_coords table c [v] = Ok [k] /\ get_coords table [k] = Ok (c, [v]).
Proof. exact get_from_coords. Qed.
Print Assumptions C08_get_from.

Theorem C08_to_consonant_line : forall table, Permutation table kana_rows -> forall s r,
  to_consonant_line table s = r <->
    (exists k c v, s = [k] /\ r = Some [c] /\ coords k c v) \/
    (r = None /\ ~ exists k c v, s = [k] /\ coords k c v).
Proof. exact to_consonant_line_spec. Qed.
Print Assumptions C08_to_consonant_line.

Theorem C08_to_vowel_line : forall table, Permutation table kana_rows -> forall s r,
  to_vowel_line table s = Ok r <->
    (exists k c v, s = [k] /\ r = Some [v] /\ coords k c v) \/
    (s = u "わ" /\ r = Some (u "あ")) \/
    (r = None /\ s <> u "わ" /\ ~ exists k c v, s = [k] /\ coords k c v).
Proof. exact to_vowel_line_spec. Qed.
Print Assumptions C08_to_vowel_line.

Example C08_example : get_coords (rev kana_rows) (u "す") = Ok (u "さ", u "う") /\
  from_coords kana_rows (u "さ") (u "う") = Ok (u "す") /\ get_coords kana_rows (u "ん") = Raise KeyError.
Proof. repeat split; vm_compute; reflexivity. Qed.

(** ** C09: [U] is any Unicode character database agreeing with [ucd_ok]
    (the decompositions of kana; no other character decomposes to a voicing mark) *)
Theorem C09_single_character : forall U, ucd_ok U -> forall c,
  (is_voiced U [c] = true <-> (exists b, In (c, b) dakuten_pairs) \/ (exists b, In (c, b) handakuten_pairs)) /\
  (is_semivoiced U [c] = true <-> exists b, In (c, b) handakuten_pairs).
Proof. exact voiced_char. Qed.
Print Assumptions C09_single_character.

Theorem C09_base_and_mark : forall U, ucd_ok U -> forall b m, decomp U b = [b] -> ccc U b = 0 ->
  (is_voiced U [b; m] = true <-> (m = 0x3099 \/ m = 0x309a)) /\
  (is_semivoiced U [b; m] = true <-> m = 0x309a).
Proof. exact voiced_pair. Qed.
Print Assumptions C09_base_and_mark.

Theorem C09_other_lengths : forall U, ucd_ok U -> forall s, (length s = 0 \/ 3 <= length s)%nat ->
  is_voiced U s = false /\ is_semivoiced U s = false.
Proof.
  exact (fun U ok s H => match H with
         | or_introl E => match s as s0 return (length s0 = 0)%nat -> is_voiced U s0 = false /\ is_semivoiced U s0 = false with
                          | [] => fun _ => empty_not_voiced U | _ :: _ => fun E => ltac:(discriminate E) end E
         | or_intror L => long_not_voiced U ok s L end).
Qed.
Print Assumptions C09_other_lengths.

Theorem C09_semivoiced_is_voiced : forall U s, is_semivoiced U s = true -> is_voiced U s = true.
Proof. exact semi_implies_voiced. Qed.
Print Assumptions C09_semivoiced_is_voiced.

Example C09_premise : ucd_ok kana_ucd.
Proof. exact kana_ucd_ok. Qed.
Example C09_example :
  is_voiced kana_ucd (u "が") = true /\ is_semivoiced kana_ucd (u "が") = false /\
  is_semivoiced kana_ucd (u "ぱ") = true /\ is_voiced kana_ucd (u "か") = false /\
  is_voiced kana_ucd [0x304b; 0x3099] = true.
Proof. repeat split; vm_compute; reflexivity. Qed.
