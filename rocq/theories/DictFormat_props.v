(* DictFormat_props.v -- C35-C40 *)
From Verif Require Import Base Maps_model Bilingual_model Bilingual_spec Bilingual_proofs Bilingual_props
  DictFormat_model DictFormat_spec DictFormat_proofs.

(* ---------------- C35 ---------------- *)
Theorem C35_edict_roundtrip w reading ss closed nl :
  item (u " ") w -> (forall r, reading = Some r -> item (u "]") r) ->
  ss <> [] -> Forall (item (u "/" ++ [10])) ss ->
  parse_line edict (edict_line w reading ss closed nl) = Ok (w, ([reading_or w reading], ss)).
Proof. exact (edict_parse w reading ss closed nl). Qed.
Print Assumptions C35_edict_roundtrip.
Example C35_case_line : edict_line (u "山") (Some (u "や ま")) [u "(n) mountain"; u "hill"] true true =
  u "山 [や ま] /(n) mountain/hill/" ++ [10].
Proof. vm_compute; reflexivity. Qed.
Example C35_case : parse_line edict (u "山 [や ま] /(n) mountain/hill/" ++ [10]) =
  Ok (u "山", ([u "やま"], [u "(n) mountain"; u "hill"])).
Proof. vm_compute; reflexivity. Qed.

(* ---------------- C36 ---------------- *)
Theorem C36_jc_kdic_roundtrip w r ss closed nl :
  item (u " ") w -> item (u "]") r -> ss <> [] -> Forall (item (u "，" ++ [10])) ss ->
  parse_line jc_kdic (jc_line w r ss closed nl) = Ok (w, ([spaceless r], ss)).
Proof. exact (jc_parse w r ss closed nl). Qed.
Print Assumptions C36_jc_kdic_roundtrip.
Example C36_case : parse_line jc_kdic (jc_line (u "山") (u "やま") [u "shan"; u "mount"] false true) =
  Ok (u "山", ([u "やま"], [u "shan"; u "mount"])).
Proof. vm_compute; reflexivity. Qed.

(* ---------------- C37 ---------------- *)
(** for numberings without the digit six *)
Theorem C37_cj_kdic_roundtrip_partial w r xs closed nl :
  item [9] w -> item (u "\") r -> xs <> [] ->
  (forall n s, In (n, s) xs -> item (u "\" ++ [10]) s /\
     match n with Some n => n <> [] /\ forall c, In c n -> In c digits /\ c <> u1 "６" | None => plain s end) ->
  parse_line cj_kdic (cj_line w r (map numbered xs) closed nl) = Ok (spaceless w, ([spaceless r], map snd xs)).
Proof. exact (cj_parse_spec w r xs closed nl). Qed.
Print Assumptions C37_cj_kdic_roundtrip_partial.

(** numbers with a six in them are not removed *)
Theorem C37_six_refuted w r n s closed nl :
  item [9] w -> item (u "\") r -> item (u "\" ++ [10]) s ->
  (forall c, In c n -> In c digits) -> In (u1 "６") n ->
  parse_line cj_kdic (cj_line w r [numbered (Some n, s)] closed nl) =
    Ok (spaceless w, ([spaceless r], [n ++ u "．" ++ s])).
Proof. exact (six_kept w r n s closed nl). Qed.
Print Assumptions C37_six_refuted.
Example C37_case : parse_line cj_kdic (cj_line (u "山") (u "shan") (map numbered [(Some (u "１０"), u "yama"); (None, u "mount"); (Some (u "６"), u "x")]) false true) =
  Ok (u "山", ([u "shan"], [u "yama"; u "mount"; u "６．x"])).
Proof. vm_compute; reflexivity. Qed.

(* ---------------- C38 ---------------- *)
Theorem C38_cedict_roundtrip trad w reading gap ss closed nl :
  item (u " ") trad -> item (u " ") w -> (forall r, reading = Some r -> item (u "]") r) ->
  ss <> [] -> Forall (item (u "/" ++ [10])) ss ->
  parse_line cedict (cedict_line trad w reading gap ss closed nl) = Ok (w, ([reading_or w reading], ss)).
Proof. exact (cedict_parse trad w reading gap ss closed nl). Qed.
Print Assumptions C38_cedict_roundtrip.
Example C38_case_line : cedict_line (u "中國") (u "中国") (Some (u "Zhong1 guo2")) true [u "China"; u "Middle Kingdom"] true false =
  u "中國 中国 [Zhong1 guo2] /China/Middle Kingdom/".
Proof. vm_compute; reflexivity. Qed.
Example C38_case : parse_line cedict (u "中國 中国 [Zhong1 guo2] /China/Middle Kingdom/") =
  Ok (u "中国", ([u "Zhong1guo2"], [u "China"; u "Middle Kingdom"])).
Proof. vm_compute; reflexivity. Qed.

(* ---------------- C39 ---------------- *)
Theorem C39_header_exact f h : In f known_formats -> match_header f h = true <-> header f h.
Proof. exact (header_match f h). Qed.
Print Assumptions C39_header_exact.
Theorem C39_disjoint f g h : header f h -> header g h -> f = g.
Proof. exact (header_unique f g h). Qed.
Print Assumptions C39_disjoint.
Theorem C39_any_order fs h : (forall f, In f fs <-> In f known_formats) ->
  (forall f, detect_format_in fs h = Ok f <-> header f h) /\
  (detect_format_in fs h = Raise UnknownFormatError <-> forall f, ~ header f h).
Proof. exact (detect_in fs h). Qed.
Print Assumptions C39_any_order.
Example C39_case : detect_format (u "　？？？？ /EDICT/") = Ok edict /\ detect_format (u "FORMAT cj_kdic" ++ [10]) = Ok cj_kdic /\
  detect_format (u "# CEDICT") = Ok cedict /\ detect_format (u "FORMAT") = Raise UnknownFormatError.
Proof. vm_compute; repeat split. Qed.

(* ---------------- C40 ---------------- *)
Theorem C40_load h hd lines f : wf h -> header f hd ->
  match mapM (parse_line f) lines with
  | Ok ps => exists h' b, load_dictionary h (hd :: lines) = (h', Ok b) /\ wf h' /\
      dkeys b = distinct (map fst ps) /\
      (forall w e, dget w b = Some e ->
         (length (entries h) <= e < length (entries h'))%nat /\ wd h' e = w /\ pairs h' e = pairs_for w ps) /\
      forall g, (g < length (entries h))%nat -> wd h' g = wd h g /\ pairs h' g = pairs h g
  | Raise e => exists h', load_dictionary h (hd :: lines) = (h', Raise e)
  end.
Proof. exact (load_spec h hd lines f). Qed.
Print Assumptions C40_load.

(** the error above is that of the first unparsable line *)
Theorem C40_first_error f lines e : mapM (parse_line f) lines = Raise e <->
  exists a x b ys, lines = a ++ x :: b /\ mapM (parse_line f) a = Ok ys /\ parse_line f x = Raise e.
Proof. exact (mapM_first (parse_line f) lines e). Qed.
Print Assumptions C40_first_error.

(** and it is always a FormatError *)
Theorem C40_only_format_error f line e : In f known_formats -> parse_line f line = Raise e -> e = FormatError.
Proof. exact (parse_line_error f line e). Qed.
Print Assumptions C40_only_format_error.
Example C40_error_case : parse_line edict (u "山") = Raise FormatError /\ parse_line edict (u "山 /") = Raise FormatError.
Proof. split; vm_compute; reflexivity. Qed.

Theorem C40_bad_header h hd lines : (forall f, ~ header f hd) ->
  load_dictionary h (hd :: lines) = (h, Raise UnknownFormatError).
Proof. exact (load_bad_header h hd lines). Qed.
Print Assumptions C40_bad_header.

Theorem C40_empty h : load_dictionary h [] = (h, Raise StopIteration).
Proof. exact eq_refl. Qed.
Print Assumptions C40_empty.

(** iter_entries gives one fresh entry per line, up to the first bad line *)
Theorem C40_iter f lines h : wf h ->
  exists h' es o ps, iter_lines (parse_line f) h lines = (h', (es, o)) /\ wf h' /\
    es = seq (length (entries h)) (length ps) /\ length (entries h') = (length (entries h) + length ps)%nat /\
    (forall i p, nth_error ps i = Some p ->
       let e := (length (entries h) + i)%nat in (wd h' e, (rd h' e, sn h' e)) = p) /\
    (forall g, (g < length (entries h))%nat -> wd h' g = wd h g /\ rd h' g = rd h g /\ sn h' g = sn h g) /\
    match o with
    | Ok _ => mapM (parse_line f) lines = Ok ps
    | Raise e => exists a x b, lines = a ++ x :: b /\ mapM (parse_line f) a = Ok ps /\ parse_line f x = Raise e
    end.
Proof. exact (iter_lines_spec (parse_line f) (parse_line_sound f) lines h). Qed.
Print Assumptions C40_iter.

Example C40_case :
  let '(h, r) := load_dictionary ex_heap
    [u "　？？？？ /EDICT/"; u "生 [なま] /a/b/"; u "山 [やま] /c/"; u "生 [せい] /d/"; u "生 /e/"] in
  r = Ok [(u "生", 3%nat); (u "山", 4%nat)] /\
  pairs h 3 = [(u "なま", u "a"); (u "なま", u "b"); (u "せい", u "d"); (u "生", u "e")] /\
  pairs h 4 = [(u "やま", u "c")].
Proof. vm_compute; repeat split. Qed.
