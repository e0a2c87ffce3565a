(* Pinyin_props.v -- C63 to C68 *)
From Coq Require Import Sorted.
From Verif Require Import Base PyText Regex Pinyin_model Pinyin_spec Pinyin_proofs.

(** C63.  Every file has rows; they have two columns each or something raises. *)
Theorem C63_to_pinyin lines rs ps : rows lines rs -> two_columns rs ps ->
  exists d, zhuyin_to_pinyin_table lines = Ok d /\ forall k v, dget k d = Some v <-> last_for ps k v.
Proof. exact (to_pinyin_ok lines rs ps). Qed.
Print Assumptions C63_to_pinyin.
Theorem C63_to_zhuyin lines rs ps : rows lines rs -> two_columns rs ps ->
  exists d, pinyin_to_zhuyin_table lines = Ok d /\ forall k v, dget k d = Some v <-> last_for (map (fun p => (snd p, fst p)) ps) k v.
Proof. exact (to_zhuyin_ok lines rs ps). Qed.
Print Assumptions C63_to_zhuyin.
Theorem C63_all_pinyin lines rs ps : rows lines rs -> two_columns rs ps -> get_all_pinyin lines = Ok (u "r" :: map snd ps).
Proof. exact (all_pinyin_ok lines rs ps). Qed.
Print Assumptions C63_all_pinyin.
Theorem C63_bad_columns lines rs : rows lines rs -> (forall ps, ~ two_columns rs ps) ->
  zhuyin_to_pinyin_table lines = Raise ValueError /\ pinyin_to_zhuyin_table lines = Raise ValueError /\
  get_all_pinyin lines = Raise ValueError /\ pinyin_regex_pattern lines = Raise ValueError /\ zhuyin_regex_pattern lines = Raise ValueError.
Proof. exact (columns_bad lines rs). Qed.
Print Assumptions C63_bad_columns.
Theorem C63_rows_total lines : exists rs, rows lines rs /\ forall rs', rows lines rs' -> rs' = rs.
Proof. exact (ex_intro _ (parse_lines lines) (conj (parse_rows lines) (fun rs' R => rows_unique lines rs' _ R (parse_rows lines)))). Qed.
Print Assumptions C63_rows_total.

(** C64.  The segmentation is the leftmost-longest one, in which '#' also
    counts as an (empty) syllable. *)
Theorem C64_leftmost_longest_partial lower lines seg rs ps s l : new_segmenter lines = Ok seg -> rows lines rs -> two_columns rs ps ->
  (segment_pinyin lower seg s = Ok l <-> segments (u "r" :: map snd ps) (standard lower s) l).
Proof. exact (segment_iff lower lines seg rs ps s l). Qed.
Print Assumptions C64_leftmost_longest_partial.
Theorem C64_total lower lines seg rs ps s : new_segmenter lines = Ok seg -> rows lines rs -> two_columns rs ps ->
  exists l, segment_pinyin lower seg s = Ok l /\ segments (u "r" :: map snd ps) (standard lower s) l.
Proof. exact (segment_ok lower lines seg rs ps s). Qed.
Print Assumptions C64_total.
(** as claimed when there is no '#' *)
Theorem C64_no_hash syls s l : ~ In (u1 "#") s -> segments syls s l -> claimed syls s l.
Proof. exact (segments_claimed syls s l). Qed.
Print Assumptions C64_no_hash.
Theorem C64_hash_refuted : ~ forall lower lines seg rs ps s l, new_segmenter lines = Ok seg -> rows lines rs -> two_columns rs ps ->
  segment_pinyin lower seg s = Ok l -> claimed (u "r" :: map snd ps) (standard lower s) l.
Proof. exact hash_counts. Qed.
Print Assumptions C64_hash_refuted.
(** only the set of syllables matters *)
Theorem C64_order_irrelevant lower lines lines' seg seg' syls syls' s :
  new_segmenter lines = Ok seg -> new_segmenter lines' = Ok seg' ->
  get_all_pinyin lines = Ok syls -> get_all_pinyin lines' = Ok syls' -> (forall w, In w syls <-> In w syls') ->
  segment_pinyin lower seg s = segment_pinyin lower seg' s.
Proof. exact (segment_set lower lines lines' seg seg' syls syls' s). Qed.
Print Assumptions C64_order_irrelevant.
(** the text of the pattern, longest syllables first *)
Theorem C64_pattern_text lines rs ps : rows lines rs -> two_columns rs ps -> exists l,
  pinyin_regex_pattern lines = Ok (u "(" ++ join (u "|") l ++ u ")([0-5]?)") /\
  Permutation l (u "r" :: map snd ps) /\ StronglySorted (fun v w => (length w <= length v)%nat) l.
Proof. exact (pattern_text lines rs ps). Qed.
Print Assumptions C64_pattern_text.

(** C65 *)
Theorem C65_round_trip lower lines seg rs ps s l : new_segmenter lines = Ok seg -> rows lines rs -> two_columns rs ps ->
  Forall no_digit (map snd ps) -> Forall (fun p => In (fst p) (u "r" :: map snd ps) /\ 0 <= snd p <= 5) l ->
  standard lower s = numbered l -> segment_pinyin lower seg s = Ok (map (fun p => (spoken (fst p), snd p)) l).
Proof. exact (segment_numbered lower lines seg rs ps s l). Qed.
Print Assumptions C65_round_trip.
Theorem C65_strip_tones lower lines seg rs ps s l : steady lower -> new_segmenter lines = Ok seg -> rows lines rs -> two_columns rs ps ->
  Forall no_digit (map snd ps) -> Forall (fun p => In (fst p) (u "r" :: map snd ps) /\ 0 <= snd p <= 5) l ->
  standard lower s = numbered l -> strip_tones lower seg s = Ok (concat (map (fun p => spoken (fst p)) l)).
Proof. exact (strip_numbered lower lines seg rs ps s l). Qed.
Print Assumptions C65_strip_tones.

(** C66.  Missing: the mark of a syllable whose only vowel is its first letter. *)
Theorem C66_from_ascii_partial lower lines seg rs ps s w z : steady lower -> new_segmenter lines = Ok seg -> rows lines rs -> two_columns rs ps ->
  Forall no_digit (map snd ps) -> In w (u "r" :: map snd ps) -> flat w -> 0 <= z <= 5 -> standard lower s = w ++ [48 + z] ->
  exists o, from_ascii lower seg s = Ok o /\ toned z (spoken w) o /\ one_change (spoken w) o /\ map unmark o = spoken w /\
    (1 <= z <= 4 -> length (filter marked o) = if existsb (fun c => mem c (map fst marks)) (tl (spoken w)) then 1%nat else 0%nat).
Proof. exact (from_ascii_syllable lower lines seg rs ps s w z). Qed.
Print Assumptions C66_from_ascii_partial.
Theorem C66_apply_tone z w o : 0 <= z <= 5 -> (apply_tone w z = Ok o <-> toned z w o).
Proof. exact (apply_iff z w o). Qed.
Print Assumptions C66_apply_tone.
Theorem C66_tones_distinct_partial z w o z' o' : 1 <= z <= 4 -> 1 <= z' <= 4 -> toned z w o -> toned z' w o' ->
  (exists v, In v (tl w) /\ vowel v) -> o = o' -> z = z'.
Proof. exact (toned_vowel z w o z' o'). Qed.
Print Assumptions C66_tones_distinct_partial.
(** 'a1' gives 'a' *)
Theorem C66_mark_refuted : ~ forall lower lines seg rs ps w z s o, steady lower -> new_segmenter lines = Ok seg -> rows lines rs -> two_columns rs ps ->
  In w (map snd ps) -> (exists v, In v w /\ vowel v) -> 1 <= z <= 4 -> standard lower s = w ++ [48 + z] ->
  from_ascii lower seg s = Ok o -> length (filter marked o) = 1%nat.
Proof. exact tone_lost. Qed.
Print Assumptions C66_mark_refuted.
(** whole texts *)
Theorem C66_text lower lines seg rs ps s l outs : steady lower -> new_segmenter lines = Ok seg -> rows lines rs -> two_columns rs ps ->
  segments (u "r" :: map snd ps) (standard lower s) l -> Forall2 (fun p o => toned (snd p) (fst p) o) l outs ->
  from_ascii lower seg s = Ok (concat outs).
Proof. exact (from_ascii_ok lower lines seg rs ps s l outs). Qed.
Print Assumptions C66_text.

(** C67.  Missing: rejecting texts that only start with a syllable. *)
Theorem C67_prefix lower lines seg rs ps s : new_segmenter lines = Ok seg -> rows lines rs -> two_columns rs ps ->
  (is_pinyin lower seg s = true <-> exists w, In w (u "#" :: u "r" :: map snd ps) /\ prefix w (standard lower s)).
Proof. exact (is_pinyin_iff lower lines seg rs ps s). Qed.
Print Assumptions C67_prefix.
Theorem C67_accepts_partial lower lines seg rs ps s : new_segmenter lines = Ok seg -> rows lines rs -> two_columns rs ps ->
  pinyin_text (u "r" :: map snd ps) (standard lower s) -> standard lower s <> [] -> is_pinyin lower seg s = true.
Proof. exact (is_pinyin_text lower lines seg rs ps s). Qed.
Print Assumptions C67_accepts_partial.
Theorem C67_exactly_refuted : ~ forall lower lines seg rs ps s, new_segmenter lines = Ok seg -> rows lines rs -> two_columns rs ps ->
  is_pinyin lower seg s = true -> pinyin_text (u "r" :: map snd ps) (standard lower s).
Proof. exact prefix_only. Qed.
Print Assumptions C67_exactly_refuted.

(** C68.  Without inline marks the claim holds as it stands; missing: other
    text when the reading goes through the segmenter, which drops it. *)
Theorem C68_numeric_partial lower seg lines rs es d s readings : rows lines rs -> entries_of rs es -> load_table lines [] = Ok d ->
  Forall2 (reading es) s readings -> from_hanzi lower seg d s false true = Ok (concat readings).
Proof. exact (hanzi_raw lower seg lines rs es d s readings). Qed.
Print Assumptions C68_numeric_partial.
Theorem C68_inline_partial lower seg tlines trs ps lines rs es d s ls outs : steady lower ->
  new_segmenter tlines = Ok seg -> rows tlines trs -> two_columns trs ps ->
  rows lines rs -> entries_of rs es -> load_table lines [] = Ok d ->
  Forall2 (fun c l => exists r, reading es c r /\ segments (u "r" :: map snd ps) (standard lower r) l) s ls ->
  Forall2 (fun p o => toned (snd p) (fst p) o) (concat ls) outs ->
  from_hanzi lower seg d s true true = Ok (concat outs).
Proof. exact (hanzi_inline lower seg tlines trs ps lines rs es d s ls outs). Qed.
Print Assumptions C68_inline_partial.
Theorem C68_toneless_partial lower seg tlines trs ps lines rs es d s ls inline : steady lower ->
  new_segmenter tlines = Ok seg -> rows tlines trs -> two_columns trs ps ->
  rows lines rs -> entries_of rs es -> load_table lines [] = Ok d ->
  Forall2 (fun c l => exists r, reading es c r /\ segments (u "r" :: map snd ps) (standard lower r) l) s ls ->
  from_hanzi lower seg d s inline false = Ok (concat (map fst (concat ls))).
Proof. exact (hanzi_plain lower seg tlines trs ps lines rs es d s ls inline). Qed.
Print Assumptions C68_toneless_partial.
Theorem C68_other_text_refuted : ~ forall lower lines seg tlines d s c o, steady lower -> new_segmenter lines = Ok seg -> load_table tlines [] = Ok d ->
  dget [c] d = None -> In c s -> from_hanzi lower seg d s true true = Ok o -> In c o.
Proof. exact text_lost. Qed.
Print Assumptions C68_other_text_refuted.
(** and '#' makes it fail *)
Theorem C68_hash_refuted : exists lower lines seg tlines d, steady lower /\ new_segmenter lines = Ok seg /\ load_table tlines [] = Ok d /\
  from_hanzi lower seg d (u "吗#") true true = Raise IndexError.
Proof. exact hash_fails. Qed.
Print Assumptions C68_hash_refuted.
(** the table itself *)
Theorem C68_table lines rs es : rows lines rs -> entries_of rs es -> exists d, load_table lines [] = Ok d /\
  forall h r, dget h d = Some r <-> last_for es h r.
Proof. exact (load_last lines rs es). Qed.
Print Assumptions C68_table.
Theorem C68_blank_row lines rs : rows lines rs -> (forall es, ~ entries_of rs es) -> load_table lines [] = Raise IndexError.
Proof. exact (load_fails lines rs). Qed.
Print Assumptions C68_blank_row.

(* ------------------------------------------------------------------ *)
(** ** Cases *)
(** C90.  The pattern lists the pinyin column, not the zhuyin one. *)
Theorem C90_column_partial lines rs ps : rows lines rs -> two_columns rs ps ->
  zhuyin_regex_pattern lines = Ok (u "(" ++ join (u "|") (map snd ps) ++ u ")[0-4]?").
Proof. exact (zhuyin_pattern_ok lines rs ps). Qed.
Print Assumptions C90_column_partial.
Theorem C90_zhuyin_refuted : ~ forall lines rs ps, rows lines rs -> two_columns rs ps ->
  zhuyin_regex_pattern lines = Ok (u "(" ++ join (u "|") (map fst ps) ++ u ")[0-4]?").
Proof.
  intros H; specialize (H [u "ㄅㄚ ba"] _ [(u "ㄅㄚ", u "ba")] (parse_rows _)); unfold two_columns in H.
  assert (E : zhuyin_regex_pattern [u "ㄅㄚ ba"] = Ok (u "(ba)[0-4]?")) by (vm_compute; reflexivity).
  rewrite H in E; [vm_compute in E; discriminate|vm_compute; reflexivity].
Qed.
Print Assumptions C90_zhuyin_refuted.

Definition ex_lines := [u "# zhuyin pinyin"; u "ㄅㄚ ba"; u "ㄒㄧ xi "; u "ㄢ an"; u " ㄒㄧㄢ	xian"; u "ㄅㄚ nü"].
Example C63_case : zhuyin_to_pinyin_table ex_lines = Ok [(u "ㄅㄚ", u "nü"); (u "ㄒㄧ", u "xi"); (u "ㄢ", u "an"); (u "ㄒㄧㄢ", u "xian")]
  /\ get_all_pinyin ex_lines = Ok [u "r"; u "ba"; u "xi"; u "an"; u "xian"; u "nü"].
Proof. split; vm_compute; reflexivity. Qed.
Example C63_rows : exists rs ps, rows ex_lines rs /\ two_columns rs ps /\ length ps = 5%nat.
Proof.
  exists (parse_lines ex_lines), [(u "ㄅㄚ", u "ba"); (u "ㄒㄧ", u "xi"); (u "ㄢ", u "an"); (u "ㄒㄧㄢ", u "xian"); (u "ㄅㄚ", u "nü")].
  split; [apply parse_rows|split; vm_compute; reflexivity].
Qed.
Example C63_blank_line : get_all_pinyin [u "ㄅㄚ ba"; []] = Raise ValueError.
Proof. vm_compute; reflexivity. Qed.
Example C63_pattern : pinyin_regex_pattern ex_lines = Ok (u "(xian|ba|xi|an|nü|r)([0-5]?)").
Proof. vm_compute; reflexivity. Qed.
Definition ex_seg := base_pattern [u "r"; u "ba"; u "xi"; u "an"; u "xian"; u "nü"].
Example C64_seg : new_segmenter ex_lines = Ok ex_seg.
Proof. vm_compute; reflexivity. Qed.
Example C64_case : segment_pinyin ascii_lower ex_seg (u "Xi an4xian?R nV3 7#") =
  Ok [(u "xian", 4); (u "xian", 0); (u "er", 0); (u "nü", 3); ([], 0)].
Proof. vm_compute; reflexivity. Qed.
Example C65_case : standard ascii_lower (u "xi1an1BA5r2") = numbered [(u "xi", 1); (u "an", 1); (u "ba", 5); (u "r", 2)] /\
  segment_pinyin ascii_lower ex_seg (u "xi1an1BA5r2") = Ok [(u "xi", 1); (u "an", 1); (u "ba", 5); (u "er", 2)] /\
  strip_tones ascii_lower ex_seg (u "xi1an1BA5r2") = Ok (u "xianbaer").
Proof. repeat split; vm_compute; reflexivity. Qed.
Example C66_case : from_ascii ascii_lower ex_seg (u "xian4nv3an1xi5r2") = Ok (u "xìannǚanxier").
Proof. vm_compute; reflexivity. Qed.
Example C66_steady : steady ascii_lower.
Proof. exact ascii_lower_steady. Qed.
Example C67_case : is_pinyin ascii_lower ex_seg (u " Ba1xian") = true /\ is_pinyin ascii_lower ex_seg (u "!ba") = false /\
  is_pinyin ascii_lower ex_seg (u "ba!") = true /\ is_pinyin ascii_lower ex_seg [] = false.
Proof. repeat split; vm_compute; reflexivity. Qed.
Definition ex_readings := [u "# c"; u "八 ba1 ba2"; u "女 nv3"; u "西 xx"; u "西 xi1"].
Definition ex_table : dict str (list str) := [(u "八", [u "ba1"; u "ba2"]); (u "女", [u "nv3"]); (u "西", [u "xi1"])].
Example C68_case : load_table ex_readings [] = Ok ex_table /\
  from_hanzi ascii_lower ex_seg ex_table (u "八女!西") false true = Ok (u "ba1nv3!xi1") /\
  from_hanzi ascii_lower ex_seg ex_table (u "八女!西") true true = Ok (u "bānǚxī") /\
  from_hanzi ascii_lower ex_seg ex_table (u "八女!西") true false = Ok (u "banüxi").
Proof. repeat split; vm_compute; reflexivity. Qed.
Example C90_case : zhuyin_regex_pattern ex_lines = Ok (u "(ba|xi|an|xian|nü)[0-4]?").
Proof. vm_compute; reflexivity. Qed.
Example C65_case_syllables : Forall no_digit [u "ba"; u "xi"; u "an"; u "xian"; u "nü"] /\ flat (u "xian").
Proof.
  split; [|repeat apply Forall_cons; try apply Forall_nil; vm_compute; reflexivity].
  repeat apply Forall_cons; try apply Forall_nil; intros c I [A B]; vm_compute in I;
    repeat (destruct I as [<-|I]; [vm_compute in A, B; congruence|]); exact I.
Qed.
Example C66_case_toned : toned 4 (u "xian") (u "xìan") /\ toned 3 (u "nü") (u "nǚ") /\ toned 2 (u "r") (u "r").
Proof.
  split; [|split].
  - apply (Toned_one 4 (u1 "x") [] (u1 "i") (u "an")); [constructor|]. vm_compute; tauto.
  - apply (Toned_one 3 (u1 "n") [] (u1 "ü") []); [constructor|]; vm_compute; tauto.
  - apply Toned_none; constructor.
Qed.
Example C68_case_entries : rows ex_readings (parse_lines ex_readings) /\
  entries_of (parse_lines ex_readings) [(u "八", [u "ba1"; u "ba2"]); (u "女", [u "nv3"]); (u "西", [u "xx"]); (u "西", [u "xi1"])].
Proof. split; [apply parse_rows|vm_compute; reflexivity]. Qed.
