(* Scripts_props.v -- property theorems C01-C07 (scripts.py) *)
From Verif Require Import Base Scripts_model Scripts_spec Scripts_proofs.

(** ** C01 *)
Theorem C01_to_katakana_pointwise : forall s, pointwise hira_to_kata s (to_katakana s).
Proof. exact to_katakana_spec. Qed.
Print Assumptions C01_to_katakana_pointwise.

Theorem C01_to_hiragana_pointwise : forall s, pointwise kata_to_hira s (to_hiragana s).
Proof. exact to_hiragana_spec. Qed.
Print Assumptions C01_to_hiragana_pointwise.

Theorem C01_conversion_idempotent : forall s,
  to_katakana (to_katakana s) = to_katakana s /\ to_hiragana (to_hiragana s) = to_hiragana s.
Proof. exact (fun s => conj (to_katakana_idem s) (to_hiragana_idem s)). Qed.
Print Assumptions C01_conversion_idempotent.

Theorem C01_round_trip : forall s,
  (Forall (fun c => ~ in_script Katakana c) s -> to_hiragana (to_katakana s) = s) /\
  (Forall (fun c => ~ in_script Hiragana c) s -> to_katakana (to_hiragana s) = s).
Proof. exact kana_roundtrip. Qed.
Print Assumptions C01_round_trip.

Theorem C01_concatenation : forall s t,
  to_katakana (s ++ t) = to_katakana s ++ to_katakana t /\
  to_hiragana (s ++ t) = to_hiragana s ++ to_hiragana t.
Proof. exact kana_app. Qed.
Print Assumptions C01_concatenation.

Theorem C01_mappings_are_constructed :
  make_mapping Katakana Hiragana = Ok (the_mapping (make_mapping Katakana Hiragana)) /\
  make_mapping Hiragana Katakana = Ok (the_mapping (make_mapping Hiragana Katakana)) /\
  make_mapping FullAscii Ascii = Ok (the_mapping (make_mapping FullAscii Ascii)).
Proof. exact mappings_constructed. Qed.
Print Assumptions C01_mappings_are_constructed.

Example C01_example : to_katakana (u "Aひらガ漢ー") = u "Aヒラガ漢ー" /\ to_hiragana (u "Aヒラが漢ヷ") = u "Aひらが漢ヷ".
Proof. split; reflexivity. Qed.
Example C01_round_trip_premise : Forall (fun c => ~ in_script Katakana c) (u "Aひら漢ー").
Proof. repeat constructor; cbn; unfold between; lia. Qed.

(** ** C02 *)
Theorem C02_script_type_exact : forall bands, Permutation bands known_bands ->
  script_type_in bands [] = Unknown /\
  forall c s sc, script_type_in bands (c :: s) = sc <-> in_script sc c.
Proof. exact script_type_in_spec. Qed.
Print Assumptions C02_script_type_exact.

Theorem C02_bands_disjoint : forall a b c, in_script a c -> in_script b c -> a = b.
Proof. exact in_script_fun. Qed.
Print Assumptions C02_bands_disjoint.

Theorem C02_order_irrelevant : forall bands s,
  Permutation bands known_bands -> script_type_in bands s = script_type s.
Proof. exact script_type_perm. Qed.
Print Assumptions C02_order_irrelevant.

Example C02_other_order : Permutation (rev known_bands) known_bands /\ rev known_bands <> known_bands.
Proof. split; [apply Permutation_sym, Permutation_rev|discriminate]. Qed.
Example C02_example : map (fun c => script_type [c]) (u "aあア漢Ａｱー") =
  [Ascii; Hiragana; Katakana; Kanji; FullAscii; HalfKatakana; Unknown].
Proof. reflexivity. Qed.

(** ** C03 *)
Theorem C03_lossless_maximal : forall s, s <> [] -> segmentation s (script_boundaries s).
Proof. exact script_boundaries_seg. Qed.
Print Assumptions C03_lossless_maximal.

Theorem C03_unique : forall s l1 l2, segmentation s l1 -> segmentation s l2 -> l1 = l2.
Proof. exact segmentation_unique. Qed.
Print Assumptions C03_unique.

Theorem C03_empty : script_boundaries [] = [[]].
Proof. exact eq_refl. Qed.
Print Assumptions C03_empty.

Example C03_example : script_boundaries (u "食べるラーメンab") = [u "食"; u "べる"; u "ラーメン"; u "ab"].
Proof. reflexivity. Qed.

Example C03_case_segmentation : segmentation (u "ラーメンab") [u "ラーメン"; u "ab"].
Proof.
  split; [reflexivity|split].
  - repeat apply Forall_cons; [|..|apply Forall_nil];
      [exists Katakana, (u1 "ラ"), (u "ーメン")|exists Ascii, (u1 "a"), (u "b")]; (split; [reflexivity|split; [vm_compute; split; discriminate|]]);
      repeat apply Forall_cons; try apply Forall_nil; try (right; reflexivity); left; vm_compute; split; discriminate.
  - apply chain_cons; [|apply chain_one].
    exists Katakana, (u1 "ラ"), (u "ーメン"), (u1 "a"), (u "b"); repeat split; try (vm_compute; discriminate).
    intros I; vm_compute in I; destruct I as [I _]; apply I; reflexivity.
Qed.
(** ** C04: the full statement

      forall s, pointwise full_to_ascii s (normalize_ascii s)

    is false of the code: the FullAscii band ends at U+FF5F, one past the last
    character with an ASCII counterpart, so U+FF5F becomes DEL (U+007F). *)
Theorem C04_normalize_ascii_refuted : exists s, ~ pointwise full_to_ascii s (normalize_ascii s).
Proof.
  exists [0xff5f]; intros P; change (normalize_ascii [0xff5f]) with [0x7f] in P.
  inversion P as [|a b c d Hab Hr]; subst; unfold full_to_ascii, between in Hab; lia.
Qed.
Print Assumptions C04_normalize_ascii_refuted.

(** true for every string without U+FF5F ... *)
Theorem C04_normalize_ascii_partial : forall s, ~ In 0xff5f s -> pointwise full_to_ascii s (normalize_ascii s).
Proof. exact normalize_ascii_good. Qed.
Print Assumptions C04_normalize_ascii_partial.

(** ... and U+FF5F -> U+007F is the only deviation for any string. *)
Theorem C04_only_deviation : forall s,
  pointwise (fun c d => (c <> 0xff5f /\ full_to_ascii c d) \/ (c = 0xff5f /\ d = 0x7f)) s (normalize_ascii s).
Proof. exact normalize_ascii_observed. Qed.
Print Assumptions C04_only_deviation.

Theorem C04_idempotent : forall s, normalize_ascii (normalize_ascii s) = normalize_ascii s.
Proof. exact normalize_ascii_idem. Qed.
Print Assumptions C04_idempotent.

Theorem C04_length : forall s, length (normalize_ascii s) = length s.
Proof. exact normalize_ascii_length. Qed.
Print Assumptions C04_length.

Example C04_example : normalize_ascii (u "Ａｂ！　。、あｱ～") = u "Ab! .,あｱ~".
Proof. reflexivity. Qed.
Example C04_premise : ~ In 0xff5f (u "Ａｂ！　。、あｱ～").
Proof. cbn; intuition discriminate. Qed.

(** ** C05 *)
Theorem C05_normalize_kana_total_pointwise : forall s,
  exists t, normalize_kana s = Ok t /\ pointwise half_to_full s t.
Proof. exact normalize_kana_spec. Qed.
Print Assumptions C05_normalize_kana_total_pointwise.

Theorem C05_normalize_kana_idempotent : forall s t, normalize_kana s = Ok t -> normalize_kana t = Ok t.
Proof. exact normalize_kana_idem. Qed.
Print Assumptions C05_normalize_kana_idempotent.

Theorem C05_normalize_normal_form : forall s, exists t,
  normalize s = Ok t /\ normalize t = Ok t /\ length t = length s /\
  Forall (fun c => ~ in_script HalfKatakana c /\ ~ in_script FullAscii c /\ ~ (0x3000 <= c <= 0x3002)) t.
Proof. exact normalize_total_idem. Qed.
Print Assumptions C05_normalize_normal_form.

Theorem C05_normalize_is_both : forall s k, normalize_kana s = Ok k -> normalize s = Ok (normalize_ascii k).
Proof. exact normalize_compose. Qed.
Print Assumptions C05_normalize_is_both.

Example C05_example : normalize (u "Aあア阿ｱＡﾟ｡") = Ok (u "Aあア阿アA゜.").
Proof. reflexivity. Qed.

(** ** C06 *)
Theorem C06_three_way : forall a b,
  (compare_kana a b = -1 /\ lex_lt (to_katakana a) (to_katakana b)) \/
  (compare_kana a b = 0 /\ to_katakana a = to_katakana b) \/
  (compare_kana a b = 1 /\ lex_lt (to_katakana b) (to_katakana a)).
Proof. exact compare_kana_cases. Qed.
Print Assumptions C06_three_way.

Theorem C06_antisymmetric : forall a b, compare_kana b a = - compare_kana a b.
Proof. exact compare_kana_antisym. Qed.
Print Assumptions C06_antisymmetric.

Theorem C06_transitive : forall a b c, compare_kana a b <= 0 -> compare_kana b c <= 0 -> compare_kana a c <= 0.
Proof. exact compare_kana_trans. Qed.
Print Assumptions C06_transitive.

Theorem C06_zero_iff_same_hiragana : forall a b, compare_kana a b = 0 <-> to_hiragana a = to_hiragana b.
Proof. exact compare_kana_eq. Qed.
Print Assumptions C06_zero_iff_same_hiragana.

Theorem C06_script_independent : forall a b,
  compare_kana (to_hiragana a) b = compare_kana a b /\ compare_kana (to_katakana a) b = compare_kana a b /\
  compare_kana a (to_hiragana b) = compare_kana a b /\ compare_kana a (to_katakana b) = compare_kana a b.
Proof. exact compare_kana_script. Qed.
Print Assumptions C06_script_independent.

(** on pure kana the order is also the hiragana order (the docstring's claim) *)
Theorem C06_pure_kana_hiragana_order : forall a b,
  Forall (fun c => in_script Hiragana c \/ in_script Katakana c) a ->
  Forall (fun c => in_script Hiragana c \/ in_script Katakana c) b ->
  (compare_kana a b = -1 <-> lex_lt (to_hiragana a) (to_hiragana b)).
Proof. exact compare_kana_pure. Qed.
Print Assumptions C06_pure_kana_hiragana_order.

Example C06_example : compare_kana (u "る") (u "カ") = 1 /\ compare_kana (u "かな") (u "カナ") = 0 /\
  compare_kana (u "あい") (u "アウ") = -1.
Proof. repeat split; reflexivity. Qed.
Example C06_premise : Forall (fun c => in_script Hiragana c \/ in_script Katakana c) (u "かカ").
Proof. apply Forall_forall; intros c [<-|[<-|[]]]; cbn; unfold between; lia. Qed.

(** ** C07 *)
Theorem C07_contains_script : forall s sc, contains_script sc s = true <-> exists c, In c s /\ in_script sc c.
Proof. exact contains_script_spec. Qed.
Print Assumptions C07_contains_script.

Theorem C07_script_types : forall s sc, In sc (script_types s) <-> exists c, In c s /\ in_script sc c.
Proof. exact script_types_spec. Qed.
Print Assumptions C07_script_types.

Theorem C07_unique_kanji : forall s, NoDup (unique_kanji s) /\
  forall c, In c (unique_kanji s) <-> In c s /\ in_script Kanji c.
Proof. exact unique_kanji_spec. Qed.
Print Assumptions C07_unique_kanji.

Theorem C07_get_script : forall sc,
  (sc = Unknown /\ get_script sc = Raise KeyError) \/
  (sc <> Unknown /\ exists s, get_script sc = Ok s /\ (forall c, In c s <-> in_script sc c) /\
     (forall i x y, nth_error s i = Some x -> nth_error s (S i) = Some y -> y = x + 1) /\ NoDup s).
Proof. exact get_script_spec. Qed.
Print Assumptions C07_get_script.

Example C07_example : unique_kanji (u "食べる食事") = u "食事" /\ script_types (u "食べる") = [Kanji; Hiragana] /\
  contains_script Kanji (u "woof") = false.
Proof. repeat split; reflexivity. Qed.
