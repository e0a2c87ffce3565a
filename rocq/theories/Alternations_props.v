(* Alternations_props.v -- properties C10-C15 of alternations.py *)
From Verif Require Import Base PyStr Scripts_model Scripts_spec KanaTable_model KanaTable_spec KanaTable_proofs
  Alternations_model Alternations_spec Alternations_proofs.

(** ** C10.  [table] is the kana table, [vm'] the hiragana part of the map and
    [tv] the complete map, each in an arbitrary iteration order. *)
Theorem C10_voicing_maps : forall table vm vm' tv,
  Permutation table kana_rows -> hira_voicing table = Ok vm ->
  Permutation vm' vm -> Permutation tv (join_voicing vm') ->
  (forall c l, dget c tv = Some l <-> is_kana c /\ l = voiced_forms c) /\
  exists fv, from_voiced_of tv = Ok fv /\ forall v c, dget v fv = Some c <-> In v (voiced_forms c).
Proof. intros table vm vm' tv P E; exact (voicing_order_independent table vm tv P E vm'). Qed.
Print Assumptions C10_voicing_maps.

Theorem C10_construction_succeeds : forall table, Permutation table kana_rows -> exists vm, hira_voicing table = Ok vm.
Proof. intros table P; exact (ex_intro _ hv (hira_voicing_perm table P)). Qed.
Print Assumptions C10_construction_succeeds.

(** the maps used by the functions below *)
Theorem C10_to_voiced : forall c l, dget c to_voiced = Some l <-> is_kana c /\ l = voiced_forms c.
Proof. exact to_voiced_spec. Qed.
Print Assumptions C10_to_voiced.

Theorem C10_from_voiced : forall v c, dget v from_voiced = Some c <-> In v (voiced_forms c).
Proof. exact from_voiced_spec. Qed.
Print Assumptions C10_from_voiced.

Theorem C10_unique_source : forall v c c', In v (voiced_forms c) -> In v (voiced_forms c') -> c = c'.
Proof. exact voiced_forms_unique. Qed.
Print Assumptions C10_unique_source.

Theorem C10_commutes_with_script_conversion : forall c, in_script Hiragana c ->
  voiced_forms (c + 96) = map (fun v => v + 96) (voiced_forms c).
Proof. exact voiced_forms_scripts. Qed.
Print Assumptions C10_commutes_with_script_conversion.

Example C10_case : dget (u1 "ひ") to_voiced = Some (u "びぴ") /\ dget (u1 "ピ") from_voiced = Some (u1 "ヒ") /\
  dget (u1 "あ") to_voiced = Some [] /\ dget (u1 "字") to_voiced = None.
Proof. vm_compute; repeat split. Qed.

(** ** C11.  Full claim fails: see [C11_vu_refuted].  [ucd_ok U]: the Unicode
    database has the canonical decompositions of the voiced kana. *)
Theorem C11_segment_candidates_partial : forall U, ucd_ok U -> forall c r left right,
  is_kana c -> (left = true -> ~ vu c) ->
  exists vs, canonical_segment_forms U (c :: r) left right = Ok vs /\ NoDup vs /\
             forall x, In x vs <-> candidate left right (c :: r) x.
Proof. exact csf_kana. Qed.
Print Assumptions C11_segment_candidates_partial.

Theorem C11_vu_refuted : forall U, ucd_ok U -> forall c r right, vu c ->
  is_kana c /\ canonical_segment_forms U (c :: r) true right = Raise KeyError.
Proof. exact csf_vu_kana. Qed.
Print Assumptions C11_vu_refuted.

Theorem C11_not_kana : forall U seg left right,
  ~ (exists c r, seg = c :: r /\ is_kana c) -> canonical_segment_forms U seg left right = Raise ValueError.
Proof. exact csf_not_kana. Qed.
Print Assumptions C11_not_kana.

Theorem C11_same_length : forall left right seg x, candidate left right seg x -> length x = length seg.
Proof. exact candidate_length. Qed.
Print Assumptions C11_same_length.

Example C11_case : ucd_ok kana_ucd /\ is_kana (u1 "が") /\ ~ vu (u1 "が") /\
  canonical_segment_forms kana_ucd (u "がっ") true true =
    Ok [u "がっ"; u "がい"; u "がち"; u "がり"; u "がき"; u "がつ"; u "がく";
        u "かっ"; u "かい"; u "かち"; u "かり"; u "かき"; u "かつ"; u "かく"] /\
  vu (u1 "ヴ").
Proof.
  split; [exact kana_ucd_ok|split; [left; vm_compute; split; discriminate|split; [vm_compute; intros [E|E]; discriminate|]]].
  split; [vm_compute; reflexivity|right; reflexivity].
Qed.

Example C11_case_candidate : candidate true true (u "ガッ") (u "カク").
Proof.
  exists (u1 "ガ"), (u "ッ"), Katakana; split; [vm_compute; reflexivity|].
  split; [vm_compute; split; discriminate|split; [right; reflexivity|]].
  exists (u "ガク"); split; right; (split; [reflexivity|]).
  - exists (u1 "ガ"), [], (u1 "ッ"), (u1 "ク"); vm_compute; repeat split; tauto.
  - exists (u1 "ガ"), (u1 "カ"), (u "ク"); vm_compute; repeat split; tauto.
Qed.

(** ** C12 *)
Theorem C12_product_of_candidates : forall U segs out, canonical_forms U segs = Ok out ->
  (forall t, In t out <-> length t = length segs /\
     forall i seg x, nth_error segs i = Some seg -> nth_error t i = Some x ->
       exists vs, canonical_segment_forms U seg (0 <? i)%nat (i <? length segs - 1)%nat = Ok vs /\ In x vs) /\
  (exists vss, length vss = length segs /\
     (forall i seg, nth_error segs i = Some seg -> exists vs, nth_error vss i = Some vs /\
        canonical_segment_forms U seg (0 <? i)%nat (i <? length segs - 1)%nat = Ok vs) /\
     length out = fold_right Nat.mul 1%nat (map (@length str) vss)).
Proof. exact canonical_forms_ok. Qed.
Print Assumptions C12_product_of_candidates.

Theorem C12_fails_only_if_a_segment_fails : forall U segs e, canonical_forms U segs = Raise e ->
  exists i seg, nth_error segs i = Some seg /\
    canonical_segment_forms U seg (0 <? i)%nat (i <? length segs - 1)%nat = Raise e.
Proof. exact canonical_forms_raise. Qed.
Print Assumptions C12_fails_only_if_a_segment_fails.

(** in terms of the specification of candidates (C11) *)
Theorem C12_kana_segments : forall U, ucd_ok U -> forall segs,
  (forall i c r, nth_error segs i = Some (c :: r) -> (0 < i)%nat -> ~ vu c) ->
  Forall kana_segment segs ->
  exists out, canonical_forms U segs = Ok out /\ NoDup out /\ forall t, In t out <-> canonical_sequence segs t.
Proof. exact canonical_forms_total. Qed.
Print Assumptions C12_kana_segments.

Example C12_case : canonical_forms kana_ucd [u "かっ"; u "ごう"] =
  Ok (flat_map (fun a => [[a; u "ごう"]; [a; u "こう"]]) [u "かっ"; u "かい"; u "かち"; u "かり"; u "かき"; u "かつ"; u "かく"]).
Proof. vm_compute; reflexivity. Qed.

(** ** C13 *)
Theorem C13_surface_forms : forall r, r <> [] -> Forall kana_segment r ->
  exists out, surface_forms r = Ok out /\ NoDup out /\ forall t, In t out <-> surface_sequence r t.
Proof. exact surface_forms_spec. Qed.
Print Assumptions C13_surface_forms.

(** Exactly which readings are recovered: the first segment is unchanged, or
    there is a following segment and the replaced kana is one of the six that
    canonical_forms restores. *)
Theorem C13_recovery_partial : forall U, ucd_ok U -> forall r t, Forall kana_segment r ->
  (forall i c s, nth_error r i = Some (c :: s) -> (0 < i)%nat -> ~ vu c) ->
  surface_sequence r t ->
  ((exists cs, canonical_forms U t = Ok cs /\ In r cs) <->
   (nth_error t 0 = nth_error r 0 \/
    ((2 <= length r)%nat /\ exists seg c pre k sc, nth_error r 0 = Some seg /\ seg = (c :: pre) ++ [k] /\
       in_script sc c /\ In k (geminable sc)))).
Proof. intros U ok r t; exact (surface_canonical U r t ok). Qed.
Print Assumptions C13_recovery_partial.

(** a single segment is never restored; neither is a kana outside the list *)
Theorem C13_recovery_refuted : exists r t forms cs,
  Forall kana_segment r /\ surface_forms r = Ok forms /\ In t forms /\
  canonical_forms kana_ucd t = Ok cs /\ ~ In r cs.
Proof. exact recovery_fails. Qed.
Print Assumptions C13_recovery_refuted.

Example C13_case : let r := [u "がく"; u "こう"] in let t := [u "がっ"; u "ごう"] in
  Forall kana_segment r /\ (exists out, surface_forms r = Ok out /\ In t out) /\
  (exists cs, canonical_forms kana_ucd t = Ok cs /\ In r cs).
Proof.
  cbn zeta; split.
  - repeat constructor; eexists; eexists; (split; [vm_compute; reflexivity|left; vm_compute; split; discriminate]).
  - split; eexists; (split; [vm_compute; reflexivity|apply mem_In; vm_compute; reflexivity]).
Qed.

Example C13_case_surface : surface_sequence [u "がく"; u "こう"] [u "がっ"; u "ごう"].
Proof.
  split; [reflexivity|]; intros [|[|[|i]]] seg x E F; try discriminate E;
    injection E as <-; injection F as <-; right; [left|right].
  - split; [reflexivity|]; exists (u1 "が"), [], (u1 "く"), Hiragana, (u1 "っ"); vm_compute; repeat split; discriminate.
  - split; [discriminate|]; exists (u1 "こ"), (u "う"), (u1 "ご"); vm_compute; repeat split; tauto.
Qed.
(** ** C14.  Full claim fails when the string starts with the mark. *)
Theorem C14_expands_partial : forall s, hd_error s <> Some (u1 "々") ->
  exists out, insert_duplicate_kanji s = Ok out /\ expands (u1 "々") s out.
Proof. exact insert_dup_expands. Qed.
Print Assumptions C14_expands_partial.

Theorem C14_total_length_idempotent : forall s, exists out, insert_duplicate_kanji s = Ok out /\
  length out = length s /\ insert_duplicate_kanji out = Ok out /\
  (forall i c, nth_error s i = Some c -> c <> u1 "々" -> nth_error out i = Some c).
Proof. exact insert_dup_total. Qed.
Print Assumptions C14_total_length_idempotent.

Theorem C14_leading_mark_refuted :
  (forall r, insert_duplicate_kanji (u1 "々" :: r) = Ok (u1 "々" :: r)) /\
  insert_duplicate_kanji (u "々人々") <> Ok (u "々人人").
Proof. exact (conj insert_dup_leading insert_dup_leading_bad). Qed.
Print Assumptions C14_leading_mark_refuted.

Example C14_case : hd_error (u "日々人々々") <> Some (u1 "々") /\
  insert_duplicate_kanji (u "日々人々々") = Ok (u "日日人人人").
Proof. split; vm_compute; [discriminate|reflexivity]. Qed.

(** ** C15.  "It never fails" is false: it fails exactly when a mark follows a
    kana without a vowel line. *)
Theorem C15_expands_partial : forall s out, expand_long_vowels s = Ok out ->
  length out = length s /\
  forall i c, nth_error s i = Some c ->
    (exists p d, mark_after s i p /\ kana_vowel p d /\ nth_error out i = Some d) \/
    ((~ exists p, mark_after s i p) /\ nth_error out i = Some c).
Proof. exact expand_long_vowels_ok. Qed.
Print Assumptions C15_expands_partial.

Theorem C15_fails_exactly : forall s e, expand_long_vowels s = Raise e <->
  e = TypeError /\ exists i p, mark_after s i p /\ ~ exists v, kana_vowel p v.
Proof. exact expand_long_vowels_raise. Qed.
Print Assumptions C15_fails_exactly.

Theorem C15_never_fails_refuted :
  expand_long_vowels (u "ミュージック") = Raise TypeError /\ expand_long_vowels (u "やー") = Raise TypeError.
Proof. exact expand_fails. Qed.
Print Assumptions C15_never_fails_refuted.

Example C15_case : expand_long_vowels (u "すーーカー大ーワーx") = Ok (u "すうーカア大ーワアx") /\
  mark_after (u "すー") 1 (u1 "す") /\ kana_vowel (u1 "す") (u1 "う").
Proof.
  split; [vm_compute; reflexivity|split].
  - exists O; split; [reflexivity|split; [reflexivity|split; [left; vm_compute; split; discriminate|reflexivity]]].
  - left; split; [vm_compute; split; discriminate|left]; exists (u1 "さ"), (u "さしすせそ"), 2%nat.
    split; [apply mem_In; vm_compute; reflexivity|vm_compute; repeat split].
Qed.
