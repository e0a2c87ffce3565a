(* Messages_proofs.v *)
From Verif Require Import Base PyStr PyText PyFmt Scripts_model Scripts_spec Regex Maps_model Bilingual_model Bilingual_spec DictFormat_model DictFormat_spec DictFormat_proofs
  FormatLang_spec FormatLang_proofs Kanjidic_model Kanjidic_spec Kanjidic_proofs KanjidicLang_spec KanjidicLang_proofs Radk_model
  Rose Place_model Csv_model Tanaka_model Tanaka_spec Tanaka_proofs Tatoeba_model Messages_model Messages_spec.
From Verif Require Pinyin_proofs Place_proofs.

(* ---------------- dropping the texts ---------------- *)
Lemma forget_bind {A B} (m : told A) (k : A -> told B) : forget (tbind m k) = bind (forget m) (fun a => forget (k a)).
Proof. destruct m; reflexivity. Qed.
Lemma forget_silent {A} (r : res A) : forget (silent r) = r.
Proof. destruct r; reflexivity. Qed.
Lemma bind_ext {A B} (m : res A) (k k' : A -> res B) : (forall a, k a = k' a) -> bind m k = bind m k'.
Proof. intro H. destruct m; [apply H | reflexivity]. Qed.
Lemma forget_place l r al : forget (place_told l r al) = place_new l r al.
Proof. unfold place_told. destruct (place_new l r al); reflexivity. Qed.
Lemma forget_from_line dv l : forget (from_line_told dv l) = from_line dv l.
Proof.
  unfold from_line_told, from_line.
  destruct (split_ws (rstrip l)) as [|a [|b [|c [|d [|e ws]]]]]; try reflexivity;
    rewrite forget_bind, forget_silent; apply bind_ext; intro z; rewrite forget_bind, forget_place; reflexivity.
Qed.
Lemma forget_load dv f ls : forall n h p d a, forget (load_told dv f n h p d a ls) = load_loop dv h p d a ls.
Proof.
  induction ls as [|l ls IH]; intros n h p d a; [reflexivity|]. cbn [load_told load_loop]. rewrite forget_bind, forget_from_line. apply bind_ext. intros [z q].
  rewrite forget_bind.
  replace (forget _) with (if z =? d + 1 then Ok (p ++ [a]) else if z =? d then Ok p else if z <? d then Ok (but_last (d - z) p) else Raise PlainException)
    by (destruct (z =? d + 1); [reflexivity|]; destruct (z =? d); [reflexivity|]; destruct (z <? d); reflexivity).
  apply bind_ext. intro p'. destruct (pop_last p') as [[par x]|]; [apply IH | reflexivity].
Qed.
Lemma forget_from_file dv f h ls : forget (from_file_told dv f h ls) = from_file dv h ls.
Proof.
  destruct ls as [|l ls]; [reflexivity|]. cbn [from_file_told from_file]. rewrite forget_bind, forget_from_line. apply bind_ext. intros [z q].
  destruct (negb (z =? 0)); [reflexivity|]. rewrite forget_bind, forget_load. reflexivity.
Qed.
Lemma forget_entry f l : forget (entry_told f l) = DictFormat_model.parse_line f l.
Proof.
  unfold entry_told, DictFormat_model.parse_line. destruct (match_ _ _) as [m|]; [|reflexivity]. destruct (Regex.group (u "word") m); [|reflexivity].
  destruct (Regex.group (u "senses") m); [|reflexivity]. destruct (map DictFormat_model.sense_of _); reflexivity.
Qed.
Definition forget2 {S A} (x : S * told A) : S * res A := (fst x, forget (snd x)).
Lemma forget_lines parse parse' : (forall l, forget (parse l) = parse' l) -> forall ls h b, forget2 (lines_told parse h b ls) = parse_lines parse' h b ls.
Proof.
  intro P. induction ls as [|l ls IH]; intros h b; [reflexivity|]. cbn [lines_told parse_lines]. rewrite <- P. destruct (parse l) as [p|e s]; cbn [forget]; [|reflexivity].
  destruct (build_entry h p) as [h1 [e|e]]; [|reflexivity]. destruct (dget _ b) as [old|]; [|apply IH].
  unfold update_told. destruct (entry_update h1 old e) as [h2 [x|x]]; [apply IH | reflexivity].
Qed.
Lemma forget_dictionary repr h ls : forget2 (load_dictionary_told repr h ls) = load_dictionary h ls.
Proof.
  destruct ls as [|hd ls]; [reflexivity|]. cbn [load_dictionary_told load_dictionary]. unfold detect_told. destruct (detect_format hd) as [f|]; [|reflexivity].
  apply forget_lines, forget_entry.
Qed.
Lemma forget_segment dv s info : forget (segment_told dv s info) = parse_segment dv s info.
Proof.
  unfold segment_told. destruct (startswith (u "{") s) eqn:B; [unfold parse_segment; rewrite B; apply forget_silent|].
  destruct (negb (script_eqb (script_type s) Ascii) || startswith (u "-") s) eqn:R; [|apply forget_silent].
  unfold parse_segment. rewrite B, R. destruct s as [|c r]; [reflexivity|]. rewrite forget_bind.
  replace (forget (if c =? u1 "-" then match r with d :: _ => Fine d | [] => Fail IndexError None end else Fine c))
    with (if c =? u1 "-" then match r with d :: _ => Ok d | [] => Raise IndexError end else Ok c) by (destruct (c =? u1 "-"); [destruct r|]; reflexivity).
  apply bind_ext. intro ch. destruct (script_eqb _ Katakana); [apply forget_silent|]. destruct (script_eqb _ Hiragana); [apply forget_silent | reflexivity].
Qed.
Lemma forget_segments dv ss : forall info, forget (segments_told dv ss info) = parse_segments dv ss info.
Proof.
  induction ss as [|s ss IH]; intro info; [reflexivity|]. cbn [segments_told parse_segments]. rewrite forget_bind, forget_segment. apply bind_ext. exact IH.
Qed.
Lemma forget_segs dv ss : forget (segs_told dv ss) = parse_segs dv ss.
Proof.
  destruct ss as [|k [|j ss]]; try reflexivity. cbn [segs_told parse_segs]. rewrite forget_bind, forget_silent. apply bind_ext. intro z.
  rewrite forget_bind, forget_segments. apply bind_ext. intro i. rewrite forget_bind, forget_silent. apply bind_ext. intro i'. apply forget_silent.
Qed.
Lemma forget_kanjidic dv ls : forall d, forget (kanjidic_told dv ls d) = parse_kanjidic dv ls d.
Proof.
  induction ls as [|l ls IH]; intro d; [reflexivity|]. cbn [kanjidic_told parse_kanjidic]. destruct (startswith (u "#") l); [apply IH|].
  rewrite forget_bind. unfold line_told, Kanjidic_model.parse_line. rewrite forget_segs. apply bind_ext. intro e. destruct (dget (u "kanji") e) as [[| | |]|]; try reflexivity. apply IH.
Qed.
Lemma forget_text dv t : forget (from_text_told dv t) = from_text dv t.
Proof. unfold from_text_told. destruct (from_text dv t) as [|[]]; reflexivity. Qed.
Lemma forget_words dv t ws : forget (words_told dv t ws) = parse_words dv ws.
Proof.
  induction ws as [|w ws IH]; [reflexivity|]. destruct w as [|c w]; [exact IH|]. cbn [words_told parse_words]. rewrite forget_bind, <- forget_text.
  destruct (from_text_told dv (c :: w)) as [x|e s]; cbn [forget bind]; [rewrite forget_bind, IH; reflexivity | destruct e; reflexivity].
Qed.
Lemma forget_index_row dv s ed row d : forget (index_row_told dv s ed row d) = index_row dv s ed row d.
Proof.
  destruct row as [|a [|b [|t [|x row]]]]; try reflexivity. cbn [index_row_told index_row]. rewrite forget_bind, forget_silent. apply bind_ext. intro i.
  rewrite forget_bind, forget_silent. apply bind_ext. intro j. destruct (match s with Some ids => _ | None => false end); [reflexivity|].
  rewrite forget_bind. unfold sentence_told. rewrite forget_words. apply bind_ext. intro ws. destruct (adjust_details ed ws) as [ws' o]. rewrite forget_bind, forget_silent. reflexivity.
Qed.
Lemma forget_index_rows dv s ed rows : forall d, forget (index_rows_told dv s ed rows d) = index_rows dv s ed rows d.
Proof. induction rows as [|r rows IH]; intro d; [reflexivity|]. cbn [index_rows_told index_rows]. rewrite forget_bind, forget_index_row. apply bind_ext. exact IH. Qed.

(* ---------------- places ---------------- *)
Lemma split_rstrip line : words line (split_ws (rstrip line)).
Proof. exact (Pinyin_proofs.split_rstrip line). Qed.
Lemma words_fun l a b : words l a -> words l b -> a = b.
Proof. intros A B. apply split_ws_words in A, B. congruence. Qed.
Lemma words_solid l ws : words l ws -> Forall solid ws.
Proof. induction 1; constructor; assumption. Qed.
Lemma solid_concat ls : Forall solid ls -> solid (concat ls).
Proof. induction 1 as [|l ls S F IH]; [reflexivity|]. unfold solid in *. cbn [concat]. rewrite forallb_app, S, IH. reflexivity. Qed.
Lemma solid_pieces c s : solid s -> Forall solid (PyText.split_on c s).
Proof.
  intro S. apply Forall_forall. intros p I. apply forallb_forall. intros x X. unfold solid in S. rewrite forallb_forall in S. apply S.
  clear S. rewrite <- (join_split c s). revert p I X. generalize (PyText.split_on c s) as ps. induction ps as [|q ps IH]; intros p I X; [destruct I|].
  destruct ps as [|r ps]; cbn [join]; destruct I as [->|I]; [exact X | destruct I | apply in_or_app; left; exact X | apply in_or_app; right; apply in_or_app; right; exact (IH p I X)].
Qed.
Lemma place_solid l r al : solid l -> (forall x, r = Some x -> solid x) -> (forall xs, al = Some xs -> Forall solid xs) -> exists p, place_told l r al = Fine p.
Proof.
  intros L R A. unfold place_told, place_new. rewrite (Place_proofs.mem_solid l L).
  replace (match r with Some r => mem 32 r | None => false end) with false by (destruct r as [x|]; [symmetry; apply Place_proofs.mem_solid, R|]; reflexivity).
  replace (match al with Some l => mem 32 (concat l) | None => false end) with false by (destruct al as [xs|]; [symmetry; apply Place_proofs.mem_solid, solid_concat, A|]; reflexivity).
  eexists. reflexivity.
Qed.
(** the three fates of a line *)
Lemma line_cases dv l :
  (exists d p, depth_of dv l d /\ from_line_told dv l = Fine (d, p)) \/
  (exists ws, words l ws /\ length ws <> 3%nat /\ length ws <> 4%nat /\ from_line_told dv l = Fail ValueError (Some (u "Can't parse line " ++ l))) \/
  ((forall d, ~ depth_of dv l d) /\ from_line_told dv l = Fail ValueError None /\ forall ws, words l ws -> length ws = 3%nat \/ length ws = 4%nat).
Proof.
  pose proof (split_rstrip l) as W. unfold from_line_told.
  assert (K : forall w a b rest, split_ws (rstrip l) = w :: a :: b :: rest -> (length rest <= 1)%nat -> forall d, depth_of dv l d <-> py_int dv 10 w = Some d).
  { intros w a b rest E L d. rewrite E in W. split.
    - intros (w' & a' & b' & rest' & W' & _ & P). pose proof (words_fun _ _ _ W W') as X. congruence.
    - intro P. exists w, a, b, rest. auto. }
  assert (S := words_solid _ _ W).
  destruct (split_ws (rstrip l)) as [|w [|a [|b [|c [|d ws]]]]] eqn:E;
    try (right; left; eexists; split; [exact W|]; cbn [length]; repeat split; lia).
  all: specialize (K _ _ _ _ eq_refl ltac:(cbn [length]; lia)).
  all: destruct (py_int dv 10 w) as [z|] eqn:P; cbn [of_option silent tbind].
  - left. inversion_clear S as [|? ? _ S1]. inversion_clear S1 as [|? ? Sa S2]. inversion_clear S2 as [|? ? Sb _].
    destruct (place_solid a (if eqb b (u "None") then None else Some b) None) as [p ->]; [exact Sa | | discriminate | cbn [tbind]; exists z, p; split; [apply K; reflexivity | reflexivity]].
    intros x X. destruct (eqb b (u "None")); [discriminate|]. injection X as <-. exact Sb.
  - right. right. split; [intros d D; apply K in D; discriminate|]. split; [reflexivity|]. intros ws' W'. rewrite <- (words_fun _ _ _ W W'). left. reflexivity.
  - left. inversion_clear S as [|? ? _ S1]. inversion_clear S1 as [|? ? Sa S2]. inversion_clear S2 as [|? ? Sb S3]. inversion_clear S3 as [|? ? Sc _].
    destruct (place_solid a (if eqb b (u "None") then None else Some b) (Some (PyText.split_on (u1 ":") c))) as [p ->]; [exact Sa | | | cbn [tbind]; exists z, p; split; [apply K; reflexivity | reflexivity]].
    + intros x X. destruct (eqb b (u "None")); [discriminate|]. injection X as <-. exact Sb.
    + intros xs X. injection X as <-. apply solid_pieces, Sc.
  - right. right. split; [intros d D; apply K in D; discriminate|]. split; [reflexivity|]. intros ws' W'. rewrite <- (words_fun _ _ _ W W'). right. reflexivity.
Qed.
Lemma depth_fun dv l a b : depth_of dv l a -> depth_of dv l b -> a = b.
Proof.
  intros (w & x & y & r & W & _ & P) (w' & x' & y' & r' & W' & _ & P'). pose proof (words_fun _ _ _ W W') as X. congruence.
Qed.
Lemma depth_words dv l d ws : depth_of dv l d -> words l ws -> length ws = 3%nat \/ length ws = 4%nat.
Proof.
  intros (w & x & y & r & W & L & P) W'. rewrite <- (words_fun _ _ _ W W'). cbn [length]. lia.
Qed.
(** the depth before the line at hand *)
Inductive depth_before (dv : Z -> option Z) (d0 : Z) : list str -> Z -> Prop :=
| Db_none : depth_before dv d0 [] d0
| Db_some pre l d : depth_of dv l d -> depth_before dv d0 (pre ++ [l]) d.
Lemma before_cons dv d0 l d pre d' : depth_of dv l d -> (depth_before dv d pre d' <-> depth_before dv d0 (l :: pre) d').
Proof.
  intro D. split; intro B.
  - destruct B as [|pre x d' X]; [exact (Db_some dv d0 [] l d D) | exact (Db_some dv d0 (l :: pre) x d' X)].
  - inversion B as [|pre' x d'' X E1 E2]. subst d''. destruct pre' as [|y pre']; cbn [app] in E1.
    + injection E1 as <- <-. rewrite (depth_fun _ _ _ _ X D). constructor.
    + injection E1 as <- <-. constructor. exact X.
Qed.
Inductive loop_culprit (dv : Z -> option Z) (file : str) (no d0 : Z) (pre : list str) (l : str) : exn -> str -> Prop :=
| Lc_words ws : words l ws -> length ws <> 3%nat -> length ws <> 4%nat -> loop_culprit dv file no d0 pre l ValueError (u "Can't parse line " ++ l)
| Lc_depth d1 d n : depth_before dv d0 pre d1 -> depth_of dv l d -> d1 + 1 < d -> n = no + Z.of_nat (length pre) + 1 ->
    loop_culprit dv file no d0 pre l PlainException (u "Strange depth found " ++ file ++ u " (line " ++ dec n ++ u ")").
Lemma loop_said dv file ls : forall no h path d0 a e m,
  load_told dv file no h path d0 a ls = Fail e (Some m) <->
  exists pre l post h', ls = pre ++ l :: post /\ load_loop dv h path d0 a pre = Ok h' /\ loop_culprit dv file no d0 pre l e m.
Proof.
  induction ls as [|l ls IH]; intros no h path d0 a e m.
  { cbn [load_told]. split; [discriminate|]. intros (pre & x & post & h' & E & _). destruct pre; discriminate. }
  cbn [load_told]. destruct (line_cases dv l) as [(d & p & D & F)|[(ws & W & N3 & N4 & F)|(N & F & K)]]; rewrite F; cbn [tbind].
  - assert (R : forall pre, load_loop dv h path d0 a (l :: pre) =
      do path <- (if d =? d0 + 1 then Ok (path ++ [a]) else if d =? d0 then Ok path else if d <? d0 then Ok (but_last (d0 - d) path) else Raise PlainException);
      match pop_last path with None => Raise IndexError | Some (parent, _) => load_loop dv (append (h ++ [p]) parent (length h)) path d (length h) pre end).
    { intro pre. cbn [load_loop]. rewrite <- forget_from_line, F. reflexivity. }
    assert (G : forall path', (if d =? d0 + 1 then Ok (path ++ [a]) else if d =? d0 then Ok path else if d <? d0 then Ok (but_last (d0 - d) path) else Raise PlainException) = Ok path' -> d <= d0 + 1 ->
      match pop_last path' with None => Fail IndexError None | Some (parent, _) => load_told dv file (no + 1) (append (h ++ [p]) parent (length h)) path' d (length h) ls end = Fail e (Some m) <->
      exists pre l0 post h', l :: ls = pre ++ l0 :: post /\ load_loop dv h path d0 a pre = Ok h' /\ loop_culprit dv file no d0 pre l0 e m).
    { intros path' P L.
      assert (Z0 : forall q, loop_culprit dv file no d0 [] l e q -> False).
      { intros q C. inversion C as [ws W N3 N4|d1 d' n B D' Lt En]; [destruct (depth_words _ _ _ _ D W); contradiction|].
        inversion B as [E1 E2|? ? ? ? E1]; [|destruct pre; discriminate]. subst d1. rewrite (depth_fun _ _ _ _ D' D) in Lt. lia. }
      assert (ZC : forall pre x, loop_culprit dv file (no + 1) d pre x e m <-> loop_culprit dv file no d0 (l :: pre) x e m).
      { intros pre x. split; intro C; inversion C as [ws W N3 N4|d1 d' n B D' Lt En]; try (econstructor; eassumption).
        - eapply Lc_depth; [apply (before_cons _ _ _ _ _ _ D), B | exact D' | exact Lt | cbn [length]; lia].
        - eapply Lc_depth; [apply (before_cons _ d0 l _ _ _ D), B | exact D' | exact Lt | cbn [length] in En; lia]. }
      destruct (pop_last path') as [[parent z]|] eqn:PL.
      - rewrite IH. split.
        + intros (pre & x & post & h' & -> & Lo & C). exists (l :: pre), x, post, h'. split; [reflexivity|]. rewrite R, P. cbn [bind]. rewrite PL. split; [exact Lo|]. apply ZC, C.
        + intros (pre & x & post & h' & E & Lo & C). destruct pre as [|y pre]; cbn [app] in E; injection E as -> ->; [exfalso; eapply Z0, C|].
          rewrite R, P in Lo. cbn [bind] in Lo. rewrite PL in Lo. exists pre, x, post, h'. split; [reflexivity|]. split; [exact Lo|]. apply ZC, C.
      - split; [discriminate|]. intros (pre & x & post & h' & E & Lo & C). destruct pre as [|y pre]; cbn [app] in E; injection E as -> ->; [exfalso; eapply Z0, C|].
        rewrite R, P in Lo. cbn [bind] in Lo. rewrite PL in Lo. discriminate. }
    destruct (Z.eqb_spec d (d0 + 1)) as [E1|E1]; [cbn [tbind]; apply (G (path ++ [a])); [reflexivity | lia]|].
    destruct (Z.eqb_spec d d0) as [E2|E2]; [cbn [tbind]; apply (G path); [reflexivity | lia]|].
    destruct (Z.ltb_spec d d0) as [E3|E3]; [cbn [tbind]; apply (G (but_last (d0 - d) path)); [reflexivity | lia]|].
    cbn [tbind]. split.
    + intro X. injection X as <- <-. exists [], l, ls, h. split; [reflexivity|]. split; [reflexivity|]. apply (Lc_depth _ _ _ _ _ _ d0 d); [constructor | exact D | lia | cbn [length]; lia].
    + intros (pre & x & post & h' & E & Lo & C). destruct pre as [|y pre]; cbn [app] in E; injection E as -> ->.
      * inversion C as [ws W N3 N4|d1 d' n B D' Lt En]; [destruct (depth_words _ _ _ _ D W); contradiction|]. rewrite En. cbn [length]. repeat f_equal. lia.
      * rewrite R in Lo. destruct (Z.eqb_spec d (d0 + 1)); [lia|]. destruct (Z.eqb_spec d d0); [lia|]. destruct (Z.ltb_spec d d0); [lia|]. discriminate.
  - split.
    + intro X. injection X as <- <-. exists [], l, ls, h. repeat split; econstructor; eassumption.
    + intros (pre & x & post & h' & E & Lo & C). destruct pre as [|y pre]; cbn [app] in E; injection E as -> ->.
      * inversion C as [ws' W' M3 M4|d1 d' n B D' Lt En]; [reflexivity|]. destruct (depth_words _ _ _ _ D' W); contradiction.
      * cbn [load_loop] in Lo. rewrite <- forget_from_line, F in Lo. discriminate.
  - split; [discriminate|]. intros (pre & x & post & h' & E & Lo & C). destruct pre as [|y pre]; cbn [app] in E; injection E as -> ->.
    + inversion C as [ws' W' M3 M4|d1 d' n B D' Lt En]; [destruct (K _ W'); contradiction | exfalso; exact (N _ D')].
    + cbn [load_loop] in Lo. rewrite <- forget_from_line, F in Lo. discriminate.
Qed.
Lemma place_said dv file h ls e m :
  from_file_told dv file h ls = Fail e (Some m) <->
  exists pre l post, ls = pre ++ l :: post /\ (pre = [] \/ exists r, from_file dv h pre = Ok r) /\ place_culprit dv file pre l e m.
Proof.
  destruct ls as [|l ls]; [cbn [from_file_told]; split; [discriminate|]; intros (pre & x & post & E & _); destruct pre; discriminate|].
  cbn [from_file_told]. destruct (line_cases dv l) as [(d & p & D & F)|[(ws & W & N3 & N4 & F)|(N & F & K)]]; rewrite F; cbn [tbind].
  - destruct (Z.eqb_spec d 0) as [Z0|Z0]; cbn [negb].
    + assert (R : forall pre, from_file dv h (l :: pre) = do h' <- load_loop dv (h ++ [p]) [length h] 0 (length h) pre; Ok (h', length h)).
      { intro pre. cbn [from_file]. rewrite <- forget_from_line, F. cbn [forget bind]. rewrite Z0. reflexivity. }
      rewrite Z0 in *. transitivity (load_told dv file 1 (h ++ [p]) [length h] 0 (length h) ls = Fail e (Some m)).
      { destruct (load_told _ _ _ _ _ _ _ _); cbn [tbind]; split; try discriminate; intro X; injection X as -> ->; reflexivity. }
      rewrite loop_said. split.
      * intros (pre & x & post & h' & -> & Lo & C). exists (l :: pre), x, post. split; [reflexivity|]. split; [right; rewrite R, Lo; eexists; reflexivity|].
        inversion C as [ws W N3 N4|d1 d' n B D' Lt En]; [econstructor; eassumption|].
        apply (before_cons _ 0 _ _ _ _ D) in B. inversion B as [|pre' y d'' Y E1 E2]. eapply Pc_depth; [exact Y | exact D' | exact Lt|].
        apply (f_equal (@length (list Z))) in E1. rewrite app_length in E1. cbn [length] in E1. lia.
      * intros (pre & x & post & E & Lo & C). destruct pre as [|y pre]; cbn [app] in E; injection E as -> ->.
        -- exfalso. inversion C as [? ? ws W N3 N4 E1|? d' D' N E1|? ? ? ? ? ? ? ? ? ? E1]; [destruct (depth_words _ _ _ _ D W); contradiction | apply N; exact (depth_fun _ _ _ _ D' D) | destruct pre; discriminate].
        -- destruct Lo as [X|[r X]]; [discriminate|]. rewrite R in X. destruct (load_loop _ _ _ _ _ pre) as [h'|] eqn:Y; [|discriminate].
           exists pre, x, post, h'. split; [reflexivity|]. split; [exact Y|].
           inversion C as [? ? ws W N3 N4 E1|? d' D' N E1|pre' l0 ? d0 d' n D0 D' Lt En E1]; [econstructor; eassumption|].
           eapply Lc_depth; [apply (before_cons _ 0 _ _ _ _ D); rewrite <- E1; constructor; exact D0 | exact D' | exact Lt|].
           apply (f_equal (@length (list Z))) in E1. rewrite app_length in E1. cbn [length] in E1. lia.
    + split.
      * intro X. injection X as <- <-. exists [], l, ls. split; [reflexivity|]. split; [left; reflexivity|]. econstructor; eassumption.
      * intros (pre & x & post & E & Lo & C). destruct pre as [|y pre]; cbn [app] in E; injection E as -> ->.
        -- inversion C as [? ? ws W N3 N4 E1|? d' D' N E1|? ? ? ? ? ? ? ? ? ? E1]; [destruct (depth_words _ _ _ _ D W); contradiction | reflexivity | destruct pre; discriminate].
        -- destruct Lo as [X|[r X]]; [discriminate|]. cbn [from_file] in X. rewrite <- forget_from_line, F in X. cbn [forget bind] in X. destruct (Z.eqb_spec d 0); [contradiction | discriminate].
  - split.
    + intro X. injection X as <- <-. exists [], l, ls. split; [reflexivity|]. split; [left; reflexivity|]. econstructor; eassumption.
    + intros (pre & x & post & E & Lo & C). destruct pre as [|y pre]; cbn [app] in E; injection E as -> ->.
      * inversion C as [? ? ws' W' M3 M4 E1|? d' D' N E1|? ? ? ? ? ? ? ? ? ? E1]; [reflexivity | destruct (depth_words _ _ _ _ D' W); contradiction | destruct pre; discriminate].
      * destruct Lo as [X|[r X]]; [discriminate|]. cbn [from_file] in X. rewrite <- forget_from_line, F in X. discriminate.
  - split; [discriminate|]. intros (pre & x & post & E & Lo & C). destruct pre as [|y pre]; cbn [app] in E; injection E as -> ->.
    + inversion C as [? ? ws' W' M3 M4 E1|? d' D' M E1|? ? ? ? ? ? ? ? ? ? E1]; [destruct (K _ W'); contradiction | exfalso; exact (N _ D') | destruct pre; discriminate].
    + destruct Lo as [X|[r X]]; [discriminate|]. cbn [from_file] in X. rewrite <- forget_from_line, F in X. discriminate.
Qed.

(* ---------------- dictionary lines ---------------- *)
Definition shows (f : format) (line w s : list Z) : Prop := exists m, match_ (line_pattern f) line = Some m /\ Regex.group (u "word") m = Some w /\ Regex.group (u "senses") m = Some s.
Lemma edict_shape line w0 s0 : shows edict line w0 s0 <-> shaped edict line w0 s0.
Proof.
  split.
  - intros (m & M & Gw & Gs).
    pose proof M as M0; rewrite edict_start in M; apply grp_plus_inv in M; [|apply fails_isc]; destruct M as [w [q [-> [N [F M]]]]].
    apply isc_inv in M; destruct M as [q' [-> M]]; rewrite mtch_opt in M.
    assert (Iw : item (u " ") w) by (apply notc_item; assumption).
    destruct (mtch edict_bracket _ _) as [x|] eqn:B.
    + injection M as <-; apply (bracket_inv (u " ")) in B; destruct B as [b [r [t [Ir [-> B]]]]].
      apply senses_inv in B; destruct B as [s [nl [-> [Ns ->]]]].
      cbn in Gw, Gs; injection Gw as <-; injection Gs as <-.
      change (u1 " " :: bracket (u1 "]" :: u " ") r (s ++ DictFormat_spec.newline nl)) with (u " " ++ bracket (u "] ") r (s ++ DictFormat_spec.newline nl)).
      replace (bracket (u "] ") r (s ++ DictFormat_spec.newline nl)) with (bracket (u "] ") r s ++ DictFormat_spec.newline nl) by (unfold bracket; rewrite <- !app_assoc; reflexivity).
      exact (Sh_edict_reading w r s nl Iw Ir Ns).
    + apply senses_inv in M; destruct M as [s [nl [-> [Ns ->]]]].
      cbn in Gw, Gs; injection Gw as <-; injection Gs as <-.
      apply Sh_edict_plain; try assumption.
      intros [r [t [Ir ->]]].
      assert (Nt : ~ In 10 t) by (intros I; apply Ns; unfold bracket; rewrite !in_app_iff; tauto).
      replace (bracket (u "] ") r t ++ DictFormat_spec.newline nl) with (bracket (u "] ") r (t ++ DictFormat_spec.newline nl)) in B by (unfold bracket; rewrite <- !app_assoc; reflexivity).
      destruct (bracket_ok (u " ") (mtch senses_eol Some) (u1 " " :: rev w ++ []) r (t ++ DictFormat_spec.newline nl) [(u "word", w)] Ir) as [b' B'].
      unfold edict_bracket in B; change (u "] ") with (u1 "]" :: u " ") in B; rewrite B' in B; unfold senses_eol in B; rewrite mtch_seq, senses_tail in B by exact Nt.
      discriminate B.
  - intros H; inversion H as [w r s nl Iw Ir Ns E1 E2 E3 E4|w s nl Iw NB Ns E1 E2 E3 E4| | | |]; clear H; subst w0 s0.
    + assert (M : exists b, match_ (line_pattern edict) (w ++ u " " ++ bracket (u "] ") r s ++ DictFormat_spec.newline nl) =
        Some (mkpos b (DictFormat_spec.newline nl) [(u "senses", s); (u "reading", r); (u "word", w)])).
      { pose proof Iw as Iw'; apply item_notc in Iw'; destruct Iw' as [N F]; rewrite edict_start.
        rewrite mtch_grp_plus; [|exact N|exact F|reflexivity|apply fails_isc].
        change (u " " ++ ?x) with (u1 " " :: x); rewrite mtch_isc, mtch_opt.
        replace (bracket (u "] ") r s ++ DictFormat_spec.newline nl) with (bracket (u "] ") r (s ++ DictFormat_spec.newline nl)) by (unfold bracket; rewrite <- !app_assoc; reflexivity).
        destruct (bracket_ok (u " ") (mtch senses_eol Some) (u1 " " :: rev w ++ []) r (s ++ DictFormat_spec.newline nl) [(u "word", w)] Ir) as [b' B'].
        unfold edict_bracket; change (u "] ") with (u1 "]" :: u " "); rewrite B'; unfold senses_eol; rewrite mtch_seq, senses_tail by exact Ns.
        eexists; reflexivity. }
      destruct M as [b M]; eexists; split; [exact M | split; reflexivity].
    + assert (M : exists b, match_ (line_pattern edict) (w ++ u " " ++ s ++ DictFormat_spec.newline nl) =
        Some (mkpos b (DictFormat_spec.newline nl) [(u "senses", s); (u "word", w)])).
      { pose proof Iw as Iw'; apply item_notc in Iw'; destruct Iw' as [N F]; rewrite edict_start.
        rewrite mtch_grp_plus; [|exact N|exact F|reflexivity|apply fails_isc].
        change (u " " ++ ?x) with (u1 " " :: x); rewrite mtch_isc, mtch_opt.
        destruct (mtch edict_bracket _ _) as [x|] eqn:B.
        - exfalso; apply (bracket_inv (u " ")) in B; destruct B as [b [r [t [Ir [E _]]]]]; apply NB, (bracketed_nl s nl); exists r, t; split; assumption.
        - unfold senses_eol; rewrite mtch_seq, senses_tail by exact Ns; eexists; reflexivity. }
      destruct M as [b M]; eexists; split; [exact M | split; reflexivity].
Qed.
Lemma cedict_shape line w0 s0 : shows cedict line w0 s0 <-> shaped cedict line w0 s0.
Proof.
  split.
  - intros (m & M & Gw & Gs).
    pose proof M as M0; rewrite cedict_start in M; apply plus_inv in M; [|apply fails_isc]; destruct M as [v [q0 [-> [Nv [Fv M]]]]].
    apply isc_inv in M; destruct M as [q1 [-> M]]; apply grp_plus_inv in M; [|apply fails_isc]; destruct M as [w [q [-> [N [F M]]]]].
    apply isc_inv in M; destruct M as [q' [-> M]]; rewrite mtch_opt, cedict_bracket_lit in M.
    assert (Iw : item (u " ") w) by (apply notc_item; assumption).
    assert (Iv : item (u " ") v) by (apply notc_item; assumption).
    match type of M with match ?m with _ => _ end = _ => destruct m as [x|] eqn:B end.
    + injection M as <-; apply (bracket_inv []) in B; destruct B as [b [r [t [Ir [-> B]]]]].
      destruct (fits dot t) as [s [tl [-> [Fs Qs]]]]; assert (Ns : ~ In 10 s) by (apply forallb_notc, Fs).
      rewrite senses_last in B by assumption; injection B as <-.
      cbn in Gw, Gs; injection Gw as <-; injection Gs as <-.
      apply stop_nl in Qs.
      replace (bracket [u1 "]"] r (s ++ tl)) with (bracket (u "]") r s ++ tl) by (unfold bracket; rewrite <- !app_assoc; reflexivity).
      exact (Sh_cedict_reading v w r s tl Iv Iw Ir Ns Qs).
    + destruct (fits dot q') as [s [tl [-> [Fs Qs]]]]; assert (Ns : ~ In 10 s) by (apply forallb_notc, Fs).
      rewrite senses_last in M by assumption; injection M as <-.
      cbn in Gw, Gs; injection Gw as <-; injection Gs as <-.
      apply Sh_cedict_plain; try assumption; [|apply stop_nl, Qs].
      intros [r [t [Ir E]]]; rewrite E in B.
      match type of B with mtch _ ?k (mkpos ?b _ ?cs) = _ => destruct (bracket_ok [] k b r t cs Ir) as [b' B'] end.
      change (u "]") with (u1 "]" :: []) in B; rewrite B' in B.
      destruct (fits dot t) as [s' [tl' [-> [Fs' Qs']]]]; rewrite senses_last in B; [discriminate B|apply forallb_notc, Fs'|exact Qs'].
  - intros H; inversion H as [| | | |v w r s tl Iv Iw Ir Ns Qs E1 E2 E3 E4|v w s tl Iv Iw NB Ns Qs E1 E2 E3 E4]; clear H; subst w0 s0; apply stop_nl in Qs.
    + assert (M : exists b, match_ (line_pattern cedict) (v ++ u " " ++ w ++ u " " ++ bracket (u "]") r s ++ tl) =
        Some (mkpos b tl [(u "senses", s); (u "reading", r); (u "word", w)])).
      { pose proof Iw as Iw'; apply item_notc in Iw'; destruct Iw' as [N F]; pose proof Iv as Iv'; apply item_notc in Iv'; destruct Iv' as [Nv Fv]; rewrite cedict_start.
        rewrite mtch_plus_app; [|exact Nv|exact Fv|reflexivity|apply fails_isc].
        change (u " " ++ w ++ ?x) with (u1 " " :: w ++ x); rewrite mtch_isc.
        rewrite mtch_grp_plus; [|exact N|exact F|reflexivity|apply fails_isc].
        change (u " " ++ ?x) with (u1 " " :: x); rewrite mtch_isc, mtch_opt, cedict_bracket_lit.
        replace (bracket (u "]") r s ++ tl) with (bracket (u1 "]" :: []) r (s ++ tl)) by (unfold bracket; rewrite <- !app_assoc; reflexivity).
        match goal with |- exists b, match mtch _ ?k (mkpos ?b0 _ ?cs) with _ => _ end = _ => destruct (bracket_ok [] k b0 r (s ++ tl) cs Ir) as [b' ->] end.
        rewrite senses_last by assumption; eexists; reflexivity. }
      destruct M as [b M]; eexists; split; [exact M | split; reflexivity].
    + assert (M : exists b, match_ (line_pattern cedict) (v ++ u " " ++ w ++ u " " ++ s ++ tl) =
        Some (mkpos b tl [(u "senses", s); (u "word", w)])).
      { pose proof Iw as Iw'; apply item_notc in Iw'; destruct Iw' as [N F]; pose proof Iv as Iv'; apply item_notc in Iv'; destruct Iv' as [Nv Fv]; rewrite cedict_start.
        rewrite mtch_plus_app; [|exact Nv|exact Fv|reflexivity|apply fails_isc].
        change (u " " ++ w ++ ?x) with (u1 " " :: w ++ x); rewrite mtch_isc.
        rewrite mtch_grp_plus; [|exact N|exact F|reflexivity|apply fails_isc].
        change (u " " ++ ?x) with (u1 " " :: x); rewrite mtch_isc, mtch_opt, cedict_bracket_lit.
        match goal with |- exists b, match ?m with _ => _ end = _ => destruct m as [x|] eqn:B end.
        - exfalso; apply (bracket_inv []) in B; destruct B as [b [r [t [Ir [E _]]]]]; apply NB; exists r, t; split; assumption.
        - rewrite senses_last by assumption; eexists; reflexivity. }
      destruct M as [b M]; eexists; split; [exact M | split; reflexivity].
Qed.
Lemma jc_shape line w0 s0 : shows jc_kdic line w0 s0 <-> shaped jc_kdic line w0 s0.
Proof.
  split.
  - intros (m & M & Gw & Gs).
    pose proof M as M0; rewrite jc_start in M; apply grp_plus_inv in M; [|apply fails_lit]; destruct M as [w [q [-> [N [F M]]]]].
    apply mtch_lit_inv in M; destruct M as [q0 [-> M]]; apply grp_plus_inv in M; [|apply fails_isc]; destruct M as [r [q1 [-> [Nr [Fr M]]]]].
    apply isc_inv in M; destruct M as [q2 [-> M]]; apply isc_inv in M; destruct M as [q3 [-> M]].
    apply senses_inv in M; destruct M as [s [nl [-> [Ns ->]]]].
    cbn in Gw, Gs; injection Gw as <-; injection Gs as <-.
    assert (Iw : item (u " ") w) by (apply notc_item; assumption).
    assert (Ir : item (u "]") r) by (apply notc_item; assumption).
    exact (Sh_jc w r s nl Iw Ir Ns).
  - intros H; inversion H as [| |w r s nl Iw Ir Ns E1 E2 E3 E4| | |]; clear H; subst w0 s0.
    assert (M : exists b, match_ (line_pattern jc_kdic) (w ++ u " [" ++ r ++ u "]" ++ [9] ++ s ++ DictFormat_spec.newline nl) =
      Some (mkpos b (DictFormat_spec.newline nl) [(u "senses", s); (u "reading", r); (u "word", w)])).
    { pose proof Iw as Iw'; apply item_notc in Iw'; destruct Iw' as [N F]; pose proof Ir as Ir'; apply item_notc in Ir'; destruct Ir' as [Nr Fr]; rewrite jc_start.
      rewrite mtch_grp_plus; [|exact N|exact F|reflexivity|apply fails_lit].
      rewrite mtch_lit, mtch_grp_plus; [|exact Nr|exact Fr|reflexivity|apply fails_isc].
      change (u "]" ++ ?x) with (u1 "]" :: x); rewrite mtch_isc; change ([9] ++ ?x) with (9 :: x); rewrite mtch_isc.
      unfold senses_eol; rewrite mtch_seq, senses_tail by exact Ns; eexists; reflexivity. }
    destruct M as [b M]; eexists; split; [exact M | split; reflexivity].
Qed.
Lemma cj_shape line w0 s0 : shows cj_kdic line w0 s0 <-> shaped cj_kdic line w0 s0.
Proof.
  split.
  - intros (m & M & Gw & Gs).
    pose proof M as M0; rewrite cj_start in M; apply grp_plus_inv in M; [|apply fails_isc]; destruct M as [w [q [-> [N [F M]]]]].
    apply isc_inv in M; destruct M as [q0 [-> M]]; apply grp_plus_inv in M; [|apply fails_lit]; destruct M as [r [q1 [-> [Nr [Fr M]]]]].
    apply mtch_lit_inv in M; destruct M as [q2 [-> M]].
    apply senses_inv in M; destruct M as [s [nl [-> [Ns ->]]]].
    cbn in Gw, Gs; injection Gw as <-; injection Gs as <-.
    assert (Iw : item [9] w) by (apply notc_item; assumption).
    assert (Ir : item (u "\") r) by (apply notc_item; assumption).
    exact (Sh_cj w r s nl Iw Ir Ns ).
  - intros H; inversion H as [| | |w r s nl Iw Ir Ns E1 E2 E3 E4| |]; clear H; subst w0 s0.
    assert (M : exists b, match_ (line_pattern cj_kdic) (w ++ [9] ++ r ++ u "\n" ++ s ++ DictFormat_spec.newline nl) =
      Some (mkpos b (DictFormat_spec.newline nl) [(u "senses", s); (u "reading", r); (u "word", w)])).
    { pose proof Iw as Iw'; apply item_notc in Iw'; destruct Iw' as [N F]; pose proof Ir as Ir'; apply item_notc in Ir'; destruct Ir' as [Nr Fr]; rewrite cj_start.
      rewrite mtch_grp_plus; [|exact N|exact F|reflexivity|apply fails_isc].
      change ([9] ++ ?x) with (9 :: x); rewrite mtch_isc; rewrite mtch_grp_plus; [|exact Nr|exact Fr|reflexivity|apply fails_lit].
      rewrite mtch_lit; unfold senses_eol; rewrite mtch_seq, senses_tail by exact Ns; eexists; reflexivity. }
    destruct M as [b M]; eexists; split; [exact M | split; reflexivity].
Qed.

Lemma shape f line w s : In f known_formats -> (shows f line w s <-> shaped f line w s).
Proof. intros [<-|[<-|[<-|[<-|[]]]]]; [apply edict_shape | apply jc_shape | apply cj_shape | apply cedict_shape]. Qed.
Lemma senseless_find f s : In f known_formats -> (map DictFormat_model.sense_of (finditer (sense_pattern f) s) = [] <-> senseless f s).
Proof.
  intros [<-|[<-|[<-|[<-|[]]]]]; [rewrite slash_senses_find | rewrite comma_senses_find | rewrite bs_find |
    change (sense_pattern cedict) with (sense_pattern edict); rewrite slash_senses_find]; split; intro H; try (constructor; exact H); inversion H; assumption.
Qed.
Lemma entry_said f l e m : In f known_formats -> (entry_told f l = Fail e m <-> e = FormatError /\ exists t, m = Some t /\ entry_culprit f l t).
Proof.
  intro K. destruct (known_bind f K) as [B1 B2].
  assert (ST : (exists x, match_ (line_pattern f) l = Some x) -> exists w s, shows f l w s).
  { intros [x M]. assert (G : forall n, binds n (line_pattern f) = true -> exists t, Regex.group n x = Some t).
    { intros n B; destruct (mtch_binds n _ _ _ _ M) as [t [E [_ H]]]; injection E as ->.
      specialize (H B); unfold Regex.group, dmem in *; destruct (dget n (caps x)); [eexists; reflexivity|discriminate]. }
    destruct (G _ B1) as [w W], (G _ B2) as [s S]. exists w, s, x. auto. }
  assert (SF : forall w s w' s', shows f l w s -> shows f l w' s' -> w = w' /\ s = s').
  { intros w s w' s' (x & A & B & C) (y & A' & B' & C'). rewrite A in A'. injection A' as <-. split; congruence. }
  unfold entry_told. destruct (match_ (line_pattern f) l) as [x|] eqn:M.
  - destruct (ST ltac:(eauto)) as (w & s & H). pose proof H as (y & Y & W & S). rewrite M in Y. injection Y as <-. rewrite W, S.
    pose proof (senseless_find f s K) as SL. destruct (map DictFormat_model.sense_of _) as [|z zs].
    + split.
      * intro E. injection E as <- <-. split; [reflexivity|]. eexists. split; [reflexivity|]. rewrite no_spaces_spaceless. eapply Ec_senses; [apply shape; eassumption | apply SL; reflexivity].
      * intros (-> & t & -> & C). destruct C as [N|w' s' S' L].
        -- exfalso. apply (N w s), shape; assumption.
        -- apply shape in S'; [|exact K]. destruct (SF _ _ _ _ H S') as [<- <-]. reflexivity.
    + split; [discriminate|]. intros (_ & t & _ & C). exfalso. destruct C as [N|w' s' S' L].
      * apply (N w s), shape; assumption.
      * apply shape in S'; [|exact K]. destruct (SF _ _ _ _ H S') as [<- <-]. apply SL in L. discriminate.
  - split.
    + intro E. injection E as <- <-. split; [reflexivity|]. eexists. split; [reflexivity|]. apply Ec_bad. intros w s H. apply shape in H; [|exact K]. destruct H as (x & X & _). congruence.
    + intros (-> & t & -> & C). destruct C as [N|w s H L]; [reflexivity|]. apply shape in H; [|exact K]. destruct H as (x & X & _). congruence.
Qed.
(** the first bad line is the one complained about *)
Lemma lines_fail parse parse' n0 : (forall l, forget (parse l) = parse' l) -> (forall l p, parse' l = Ok p -> sound p) ->
  forall pre ps l post h b e m qs, (n0 <= length (entries h))%nat -> DictFormat_proofs.loaded n0 h b ps -> mapM parse' pre = Ok qs -> parse l = Fail e m ->
  snd (lines_told parse h b (pre ++ l :: post)) = Fail e m.
Proof.
  intros P SD. induction pre as [|x pre IH]; intros ps l post h b e m qs Hn L M F.
  - cbn [app lines_told]. rewrite F. reflexivity.
  - cbn [app lines_told mapM] in *. rewrite <- P in M. destruct (parse x) as [p|] eqn:X; [|discriminate]. cbn [forget bind] in M. destruct (mapM parse' pre) as [qs'|] eqn:M'; [|discriminate].
    assert (X' : parse' x = Ok p) by (rewrite <- P, X; reflexivity).
    pose proof (parse_lines_ok parse' n0 SD [x] ps h b Hn L) as S. cbn [mapM parse_lines] in S. rewrite X' in S. cbn [bind] in S.
    destruct (build_entry h p) as [h1 [en|]]; [|destruct S as (? & ? & S & _); discriminate].
    destruct S as (h' & b' & S & L' & Hl & _).
    destruct (dget _ b) as [old|].
    + unfold update_told. destruct (entry_update h1 old en) as [h2 [[]|]]; [|discriminate]. injection S as -> ->. eapply IH; [|exact L'|reflexivity|exact F]. lia.
    + injection S as -> ->. eapply IH; [|exact L'|reflexivity|exact F]. lia.
Qed.
Lemma dictionary_said repr h hd ls e m : wf h ->
  (snd (load_dictionary_told repr h (hd :: ls)) = Fail e (Some m) <->
   (e = UnknownFormatError /\ m = u "unknown header line: " ++ repr hd /\ forall f, ~ header f hd) \/
   (e = FormatError /\ exists f pre l post ps, ls = pre ++ l :: post /\ header f hd /\ Forall2 (entry_line f) pre ps /\ entry_culprit f l m)).
Proof.
  intro W. cbn [load_dictionary_told]. unfold detect_told. pose proof (detect_in known_formats hd (fun g => iff_refl _)) as [D1 D2]. fold (detect_format hd) in D1, D2.
  destruct (detect_format hd) as [f|x] eqn:D.
  - pose proof (proj1 (D1 f) eq_refl) as H. pose proof (header_known _ _ H) as K.
    assert (L0 : DictFormat_proofs.loaded (length (entries h)) h [] []) by (split; [exact W | split; [reflexivity | intros w y; discriminate]]).
    pose proof (forget_lines (entry_told f) (DictFormat_model.parse_line f) (forget_entry f) ls h []) as FL.
    pose proof (parse_lines_ok (DictFormat_model.parse_line f) (length (entries h)) (parse_line_sound f) ls [] h [] ltac:(lia) L0) as PL.
    split.
    + intro S. right. destruct (mapM (DictFormat_model.parse_line f) ls) as [qs|x] eqn:M.
      * exfalso. destruct PL as (h' & b' & PL & _). rewrite PL in FL. unfold forget2 in FL. rewrite S in FL. discriminate.
      * apply mapM_first in M. destruct M as (pre & l & post & ys & -> & M & F). rewrite <- forget_entry in F. destruct (entry_told f l) as [|x' m'] eqn:T; [discriminate|].
        rewrite (lines_fail _ _ _ (forget_entry f) (parse_line_sound f) pre [] l post h [] x' m' ys (le_n _) L0 M T) in S. injection S as -> ->.
        apply entry_said in T; [|exact K]. destruct T as (-> & t & E & C). injection E as <-. split; [reflexivity|].
        exists f, pre, l, post, ys. split; [reflexivity|]. split; [exact H|]. split; [apply file_exact; assumption | exact C].
    + intros [(_ & _ & N)|(-> & f' & pre & l & post & ps & -> & H' & F & C)]; [exfalso; exact (N f H)|].
      rewrite (header_unique _ _ _ H' H) in *. apply file_exact in F; [|exact K].
      eapply (lines_fail _ _ _ (forget_entry f) (parse_line_sound f) pre [] l post h []); [apply le_n | exact L0 | exact F|]. apply entry_said; [exact K|]. eauto.
  - assert (N : forall f, ~ header f hd). { intros f H. apply D1 in H. discriminate. }
    pose proof (proj2 D2 N) as X. injection X as ->. cbn [snd]. split.
    + intro E. injection E as <- <-. left. auto.
    + intros [(-> & -> & _)|(_ & f & pre & l & post & ps & _ & H & _)]; [reflexivity | exfalso; exact (N f H)].
Qed.
(** a dictionary with a known header: every failure is explained *)
Lemma dictionary_explained repr h hd ls e : wf h -> snd (load_dictionary h (hd :: ls)) = Raise e -> exists m, snd (load_dictionary_told repr h (hd :: ls)) = Fail e (Some m).
Proof.
  intros W R. cbn [load_dictionary load_dictionary_told] in *. unfold detect_told. pose proof (detect_in known_formats hd (fun g => iff_refl _)) as [D1 D2]. fold (detect_format hd) in D1, D2.
  destruct (detect_format hd) as [f|x] eqn:D; [|cbn [snd] in *; injection R as ->; eexists; reflexivity].
  pose proof (proj1 (D1 f) eq_refl) as H. pose proof (header_known _ _ H) as K.
  assert (L0 : DictFormat_proofs.loaded (length (entries h)) h [] []) by (split; [exact W | split; [reflexivity | intros w y; discriminate]]).
  pose proof (parse_lines_ok (DictFormat_model.parse_line f) (length (entries h)) (parse_line_sound f) ls [] h [] ltac:(lia) L0) as PL. unfold parse_dictionary in R.
  destruct (mapM (DictFormat_model.parse_line f) ls) as [qs|x] eqn:M; [destruct PL as (h' & b' & PL & _); rewrite PL in R; discriminate|].
  destruct PL as [h' PL]. rewrite PL in R. injection R as ->.
  apply mapM_first in M. destruct M as (pre & l & post & ys & -> & M & F). rewrite <- forget_entry in F. destruct (entry_told f l) as [|x' m'] eqn:T; [discriminate|]. injection F as ->.
  pose proof T as T'. apply entry_said in T'; [|exact K]. destruct T' as (_ & t & -> & _). exists t.
  exact (lines_fail _ _ _ (forget_entry f) (parse_line_sound f) pre [] l post h [] e (Some t) ys (le_n _) L0 M T).
Qed.

(* ---------------- kanjidic ---------------- *)
Lemma forget_ok {A} (t : told A) a : forget t = Ok a <-> t = Fine a.
Proof. destruct t; split; cbn [forget]; intro H; congruence. Qed.
Lemma silent_said {A} (r : res A) e m : silent r <> Fail e (Some m).
Proof. destruct r; discriminate. Qed.
Lemma segment_said dv t info e m : segment_told dv t info = Fail e (Some m) -> e = PlainException /\ m = u "Unknown segment " ++ t.
Proof.
  unfold segment_told. intro H. destruct (startswith (u "{") t); [apply silent_said in H; contradiction|].
  destruct (negb _ || _); [|apply silent_said in H; contradiction]. destruct t as [|c r]; [discriminate|].
  destruct (if c =? u1 "-" then _ else _) as [d|x y] eqn:D; cbn [tbind] in H.
  - destruct (script_eqb _ Katakana); [apply silent_said in H; contradiction|]. destruct (script_eqb _ Hiragana); [apply silent_said in H; contradiction|]. injection H as <- <-. auto.
  - exfalso. destruct (c =? u1 "-"); [destruct r|]; congruence.
Qed.
Lemma bad_said dv t info : bad t PlainException -> segment_told dv t info = Fail PlainException (Some (u "Unknown segment " ++ t)).
Proof.
  intro B. pose proof (bad_raises dv t PlainException info B) as R. rewrite <- forget_segment in R. destruct (segment_told dv t info) as [|e s] eqn:T; [discriminate|]. injection R as ->.
  destruct s as [m|]; [destruct (segment_said _ _ _ _ _ T) as [_ ->]; reflexivity|]. exfalso. revert T. unfold segment_told.
  assert (S : forall r : res (dict str Kanjidic_model.value), silent r = Fail PlainException None -> r = Raise PlainException) by (intros [|]; cbn; congruence).
  assert (AP : forall k v, append_at k v info <> Raise PlainException).
  { intros k v. unfold append_at. destruct (dget k info) as [[| | |]|]; discriminate. }
  inversion B as [|c r K E1|c r N K E1]; subst t.
  - change (startswith (u "{") (u1 "-" :: c :: r)) with false. change (startswith (u "-") (u1 "-" :: c :: r)) with true. rewrite orb_true_r, Z.eqb_refl. cbn [tbind].
    destruct (not_kana_scripts c K) as [-> ->]. discriminate.
  - intro T. destruct (startswith (u "{") (c :: r)); [apply S, AP in T; contradiction|].
    rewrite (script_eqb_false (script_type (c :: r)) Ascii) in T by (intro E; apply N, (script_of c r), E). cbn [negb orb] in T.
    destruct (c =? u1 "-") eqn:D; [apply Z.eqb_eq in D; subst c; exfalso; apply N, (script_of _ []); vm_compute; reflexivity|]. cbn [tbind] in T.
    destruct (not_kana_scripts c K) as [X Y]. rewrite X, Y in T. discriminate.
Qed.
Lemma segments_app dv a b : forall info, segments_told dv (a ++ b) info = tbind (segments_told dv a info) (segments_told dv b).
Proof.
  induction a as [|s a IH]; intro info; [reflexivity|]. cbn [app segments_told]. destruct (segment_told dv s info) as [i|]; cbn [tbind]; [apply IH | reflexivity].
Qed.
Lemma segs_said dv ts e m : Forall seg_shape (tl (tl ts)) -> segs_told dv ts = Fail e (Some m) <->
  exists kanji hex jis fs t ts', ts = kanji :: hex :: map token fs ++ t :: ts' /\ py_int dv 16 hex = Some jis /\ Forall field_like fs /\ bad t PlainException /\
    e = PlainException /\ m = u "Unknown segment " ++ t.
Proof.
  intro F. split.
  - destruct ts as [|k [|h ts]]; [discriminate | discriminate |]. cbn [segs_told tl] in *. unfold int_of. destruct (py_int dv 16 h) as [jis|] eqn:J; [|discriminate]. cbn [of_option silent tbind].
    destruct (classify_all ts F) as [[fs [L ->]]|[fs [t [ts' [x [L [B ->]]]]]]].
    + destruct (segments_inv dv k jis fs [] _ L (inv_new dv k jis)) as [info [E V]]. rewrite <- forget_segments in E. apply forget_ok in E. rewrite E. cbn [tbind].
      destruct (finish dv info) as [i|y]; cbn [silent tbind]; [|discriminate]. intro H. apply silent_said in H. contradiction.
    + rewrite segments_app. destruct (segments_inv dv k jis fs [] _ L (inv_new dv k jis)) as [info [E V]]. rewrite <- forget_segments in E. apply forget_ok in E. rewrite E. cbn [tbind segments_told].
      intro H. destruct (segment_told dv t info) as [i|y o] eqn:T; [exfalso; pose proof (bad_raises dv t x info B) as R; rewrite <- forget_segment, T in R; discriminate|].
      cbn [tbind] in H. injection H as -> ->. destruct (segment_said _ _ _ _ _ T) as [-> ->].
      assert (x = PlainException) as -> by (pose proof (bad_raises dv t x info B) as R; rewrite <- forget_segment, T in R; injection R as <-; reflexivity).
      exists k, h, jis, fs, t, ts'. auto 8.
  - intros (k & h & jis & fs & t & ts' & -> & J & L & B & -> & ->). cbn [segs_told]. unfold int_of. rewrite J. cbn [of_option silent tbind].
    rewrite segments_app. destruct (segments_inv dv k jis fs [] _ L (inv_new dv k jis)) as [info [E V]]. rewrite <- forget_segments in E. apply forget_ok in E. rewrite E. cbn [tbind segments_told].
    rewrite (bad_said dv t info B). reflexivity.
Qed.
Lemma forall_tl {A} (P : A -> Prop) l : Forall P l -> Forall P (tl l).
Proof. destruct 1; [constructor | assumption]. Qed.
Lemma line_said dv l e m : ~ comment l -> (line_told dv l = Fail e (Some m) <-> e = PlainException /\ kanjidic_culprit dv l m).
Proof.
  intro NC. unfold line_told. destruct (segments_total (length (strip l)) (strip l)) as [ts S]; [lia|]. rewrite (findall_segments _ _ S).
  rewrite segs_said by (apply forall_tl, forall_tl, (segments_shape _ _ S)). split.
  - intros (k & h & jis & fs & t & ts' & -> & J & L & B & -> & ->). split; [reflexivity|]. eapply Kc_segment; eassumption.
  - intros [-> C]. destruct C as [k h jis fs t ts' _ S' J L B]. exists k, h, jis, fs, t, ts'. split; [|auto 6].
    rewrite <- (findall_segments _ _ S). apply findall_segments, S'.
Qed.
Lemma kanjidic_said dv ls e m : forall d, kanjidic_told dv ls d = Fail e (Some m) <->
  e = PlainException /\ exists pre l post, ls = pre ++ l :: post /\ (forall x, In x pre -> ~ comment x -> exists ts en, segments (strip x) ts /\ accepted dv ts en) /\ kanjidic_culprit dv l m.
Proof.
  induction ls as [|l ls IH]; intro d.
  { split; [discriminate|]. intros (_ & pre & x & post & E & _). destruct pre; discriminate. }
  cbn [kanjidic_told]. destruct (startswith (u "#") l) eqn:C.
  - apply comment_spec in C. rewrite IH. split.
    + intros (-> & pre & x & post & -> & A & K). split; [reflexivity|]. exists (l :: pre), x, post. split; [reflexivity|]. split; [|exact K]. intros y [<-|I] N; [contradiction | exact (A y I N)].
    + intros (-> & pre & x & post & E & A & K). split; [reflexivity|]. destruct pre as [|y pre]; cbn [app] in E; injection E as -> ->; [destruct K; contradiction|].
      exists pre, x, post. split; [reflexivity|]. split; [|exact K]. intros z I. apply A. right. exact I.
  - assert (N : ~ comment l) by (rewrite <- comment_spec; congruence). pose proof (line_said dv l e m N) as LS.
    destruct (line_told dv l) as [en|x s] eqn:T; cbn [tbind].
    + assert (P : Kanjidic_model.parse_line dv l = Ok en) by (unfold Kanjidic_model.parse_line; rewrite <- forget_segs; apply forget_ok, T).
      destruct (segments_total (length (strip l)) (strip l)) as [ts S]; [lia|]. pose proof (line_accepted dv l ts en S P) as A.
      assert (D : exists k, dget (u "kanji") en = Some (VStr k)) by (inversion A; eauto). destruct D as [k ->]. rewrite IH. split.
      * intros (-> & pre & y & post & -> & A' & K). split; [reflexivity|]. exists (l :: pre), y, post. split; [reflexivity|]. split; [|exact K]. intros z [<-|I] N'; [eauto | exact (A' z I N')].
      * intros (-> & pre & y & post & E & A' & K). split; [reflexivity|]. destruct pre as [|z pre]; cbn [app] in E; injection E as -> ->.
        -- exfalso. destruct LS as [_ LS]. specialize (LS (conj eq_refl K)). discriminate.
        -- exists pre, y, post. split; [reflexivity|]. split; [|exact K]. intros w I. apply A'. right. exact I.
    + transitivity (e = PlainException /\ kanjidic_culprit dv l m); [rewrite <- LS; split; intro X; injection X as -> ->; reflexivity|]. split.
      * intros (-> & K). split; [reflexivity|]. exists [], l, ls. split; [reflexivity|]. split; [intros y [] | exact K].
      * intros (-> & pre & y & post & E & A' & K). split; [reflexivity|]. destruct pre as [|z pre]; cbn [app] in E; injection E as -> ->; [exact K|].
        exfalso. destruct (A' z (or_introl eq_refl) N) as (ts & en & S & A). assert (P : Kanjidic_model.parse_line dv z = Raise x) by (unfold Kanjidic_model.parse_line; rewrite <- forget_segs; unfold line_told in T; rewrite T; reflexivity).
        apply (line_refused dv z ts) in P; [|exact S]. exact (accepted_not_refused dv ts en x A P).
Qed.

(* ---------------- sentences ---------------- *)
Lemma from_text_only' dv x e : unicode_digits dv -> from_text dv x = Raise e -> e = InvalidEntryError.
Proof. intros A H. exact (from_text_only dv x e A H). Qed.
Lemma words_said dv text e m : unicode_digits dv -> forall ps, (forall p, In p ps -> p <> []) ->
  (words_told dv text ps = Fail e (Some m) <->
   e = InvalidEntryError /\ exists qs p rs ws, ps = qs ++ p :: rs /\ Forall2 (written dv) qs ws /\ (forall w, ~ written dv p w) /\ m = u "Failed to interpret word " ++ p ++ u " in sentence " ++ text).
Proof.
  intros A. induction ps as [|p ps IH]; intro NE.
  { split; [discriminate|]. intros (_ & qs & p & rs & ws & E & _). destruct qs; discriminate. }
  destruct p as [|c p]; [exfalso; exact (NE [] (or_introl eq_refl) eq_refl)|]. specialize (IH (fun q I => NE q (or_intror I))).
  cbn [words_told]. unfold from_text_told. destruct (from_text dv (c :: p)) as [w|x] eqn:F.
  - apply from_text_iff in F; [|exact A]. cbn [tbind]. transitivity (words_told dv text ps = Fail e (Some m)).
    { destruct (words_told dv text ps); cbn [tbind]; split; try discriminate; intro X; injection X as -> ->; reflexivity. }
    rewrite IH. split.
    + intros (-> & qs & q & rs & ws & -> & W & N & ->). split; [reflexivity|]. exists ((c :: p) :: qs), q, rs, (w :: ws). split; [reflexivity|]. split; [constructor; assumption | auto].
    + intros (-> & qs & q & rs & ws & E & W & N & ->). split; [reflexivity|]. destruct qs as [|y qs]; cbn [app] in E; injection E as Ey Er; subst.
      * exfalso. exact (N w F).
      * inversion W; subst. eexists qs, q, rs, _. split; [reflexivity|]. split; [eassumption | auto].
  - pose proof (from_text_only' _ _ _ A F) as ->. cbn [tbind]. split.
    + intro X. injection X as <- <-. split; [reflexivity|]. exists [], (c :: p), ps, []. split; [reflexivity|]. split; [constructor|]. split; [|reflexivity].
      intros w W. apply from_text_iff in W; [congruence | exact A].
    + intros (-> & qs & q & rs & ws & E & W & N & ->). destruct qs as [|y qs]; cbn [app] in E; injection E as Ey Er; subst; [reflexivity|].
      exfalso. inversion W; subst. match goal with H : written dv (c :: p) _ |- _ => apply from_text_iff in H; [congruence | exact A] end.
Qed.
Lemma words_filter dv text ps : words_told dv text ps = words_told dv text (filter full ps).
Proof. induction ps as [|[|c p] ps IH]; [reflexivity | exact IH |]. cbn [filter full words_told]. rewrite IH. reflexivity. Qed.
Lemma sentence_said dv text e m : unicode_digits dv -> (sentence_told dv text = Fail e (Some m) <-> e = InvalidEntryError /\ word_culprit dv text m).
Proof.
  intro A. unfold sentence_told, sentence_splitter. rewrite words_filter. change (u1 " ") with 32. rewrite words_said; [|exact A|intros p I; apply filter_In in I; destruct I as [_ I]; destruct p; [discriminate | congruence]].
  destruct (pieces_exist text) as [ps P]. rewrite <- (pieces_unique text ps P). split.
  - intros (-> & qs & p & rs & ws & -> & W & N & ->). split; [reflexivity|]. econstructor; eassumption.
  - intros (-> & C). split; [reflexivity|]. destruct C as [qs p rs ws P' W N]. exists qs, p, rs, ws. split; [|auto].
    rewrite (pieces_unique text ps P), (pieces_unique text _ P'). reflexivity.
Qed.
(** the rows of the indices *)
Lemma index_said dv s ed rows e m : unicode_digits dv -> forall d, index_rows_told dv s ed rows d = Fail e (Some m) <->
  e = InvalidEntryError /\ exists pre a b t post d' i j, rows = pre ++ [a; b; t] :: post /\ index_rows dv s ed pre d = Ok d' /\
    py_int dv 10 a = Some i /\ py_int dv 10 b = Some j /\ (forall ids, s = Some ids -> In i ids) /\ word_culprit dv t m.
Proof.
  intro A. assert (ROW : forall row d, index_row_told dv s ed row d = Fail e (Some m) <->
    e = InvalidEntryError /\ exists a b t i j, row = [a; b; t] /\ py_int dv 10 a = Some i /\ py_int dv 10 b = Some j /\ (forall ids, s = Some ids -> In i ids) /\ word_culprit dv t m).
  { intros row d. split.
    - destruct row as [|a [|b [|t [|x row]]]]; try discriminate. cbn [index_row_told]. unfold int_. destruct (py_int dv 10 a) as [i|] eqn:I; [|discriminate]. destruct (py_int dv 10 b) as [j|] eqn:J; [|discriminate].
      cbn [of_option silent tbind]. destruct (match s with Some ids => negb (mem i ids) | None => false end) eqn:K; [discriminate|].
      destruct (sentence_told dv t) as [ws|y o] eqn:T; cbn [tbind].
      + destruct (adjust_details ed ws) as [ws' o]. destruct o; cbn [silent tbind]; discriminate.
      + intro X. injection X as -> ->. apply sentence_said in T; [|exact A]. destruct T as [-> C]. split; [reflexivity|]. exists a, b, t, i, j. split; [reflexivity|]. split; [exact I|]. split; [exact J|]. split; [|exact C].
        intros ids ->. apply mem_In. apply negb_false_iff in K. exact K.
    - intros (-> & a & b & t & i & j & -> & I & J & K & C). cbn [index_row_told]. unfold int_. rewrite I, J. cbn [of_option silent tbind].
      replace (match s with Some ids => negb (mem i ids) | None => false end) with false by (destruct s as [ids|]; [symmetry; apply negb_false_iff, mem_In, K|]; reflexivity).
      assert (T : sentence_told dv t = Fail InvalidEntryError (Some m)) by (apply sentence_said; auto). rewrite T. reflexivity. }
  induction rows as [|row rows IH]; intro d.
  { split; [discriminate|]. intros (_ & pre & a & b & t & post & d' & i & j & E & _). destruct pre; discriminate. }
  cbn [index_rows_told]. pose proof (forget_index_row dv s ed row d) as F. destruct (index_row_told dv s ed row d) as [d1|x o] eqn:R; cbn [tbind forget] in *.
  - rewrite IH. split.
    + intros (-> & pre & a & b & t & post & d' & i & j & -> & P & H). split; [reflexivity|]. exists (row :: pre), a, b, t, post, d', i, j. split; [reflexivity|]. cbn [index_rows]. rewrite <- F. auto.
    + intros (-> & pre & a & b & t & post & d' & i & j & E & P & H). split; [reflexivity|]. destruct pre as [|r pre]; cbn [app] in E; injection E as -> ->.
      * exfalso. assert (X : index_row_told dv s ed [a; b; t] d = Fail InvalidEntryError (Some m)) by (apply ROW; split; [reflexivity|]; exists a, b, t, i, j; tauto). congruence.
      * exists pre, a, b, t, post, d', i, j. split; [reflexivity|]. cbn [index_rows] in P. rewrite <- F in P. auto.
  - specialize (ROW row d). rewrite R in ROW. rewrite ROW. split.
    + intros (-> & a & b & t & i & j & -> & H). split; [reflexivity|]. exists [], a, b, t, rows, d, i, j. split; [reflexivity|]. split; [reflexivity | exact H].
    + intros (-> & pre & a & b & t & post & d' & i & j & E & P & H). split; [reflexivity|]. destruct pre as [|r pre]; cbn [app] in E; injection E as -> ->.
      * exists a, b, t, i, j. tauto.
      * exfalso. cbn [index_rows] in P. rewrite <- F in P. discriminate.
Qed.

(* ---------------- what the texts tell ---------------- *)
Lemma first_space (a b x y : str) : ~ In 32 a -> ~ In 32 b -> a ++ 32 :: x = b ++ 32 :: y -> a = b /\ x = y.
Proof.
  revert b. induction a as [|c a IH]; intros [|d b] Na Nb E; cbn [app] in E.
  - injection E as ->. auto.
  - injection E as <- _. exfalso. apply Nb. left. reflexivity.
  - injection E as -> _. exfalso. apply Na. left. reflexivity.
  - injection E as -> E. destruct (IH b) as [-> ->]; [intro I; apply Na; right; exact I | intro I; apply Nb; right; exact I | exact E | auto].
Qed.
Lemma pieces_no_space t ps p : pieces t ps -> In p ps -> ~ In 32 p.
Proof. induction 1 as [|g w s ws G NE N S P IH]; intro I; [destruct I|]. destruct I as [<-|I]; [exact N | exact (IH I)]. Qed.
Lemma culprit_names dv t t' m : word_culprit dv t m -> word_culprit dv t' m -> t = t' /\
  exists p, m = u "Failed to interpret word " ++ p ++ u " in sentence " ++ t /\ forall ps, pieces t ps -> In p ps.
Proof.
  intros [ps p qs ws P W N] C'. remember (u "Failed to interpret word " ++ p ++ u " in sentence " ++ t) as m0 eqn:E. destruct C' as [ps' p' qs' ws' P' W' N'].
  apply app_inv_head in E. change (u " in sentence ") with (32 :: u "in sentence ") in E. cbn [app] in E.
  apply first_space in E; [|apply (pieces_no_space _ _ _ P'), in_or_app; right; left; reflexivity | apply (pieces_no_space _ _ _ P), in_or_app; right; left; reflexivity].
  destruct E as [-> E]. apply app_inv_head in E. subst t'. split; [reflexivity|]. exists p. split; [reflexivity|].
  intros xs X. rewrite (pieces_unique _ _ X), <- (pieces_unique _ _ P). apply in_or_app. right. left. reflexivity.
Qed.
Lemma strange_line dv file h ls e n :
  from_file_told dv file h ls = Fail e (Some (u "Strange depth found " ++ file ++ u " (line " ++ dec n ++ u ")")) ->
  exists k l0 l d0 d, n = Z.of_nat k + 2 /\ nth_error ls k = Some l0 /\ nth_error ls (S k) = Some l /\ depth_of dv l0 d0 /\ depth_of dv l d /\ d0 + 1 < d.
Proof.
  intro F. apply place_said in F. destruct F as (pre & l & post & -> & _ & C). inversion C as [? ? ws W N3 N4 E1 E2 E3 E4|? d' D' N E1 E2 E3 E4|pre' l0 ? d0 d' n' D0 D' Lt En E1 E2 E3 E4].
  apply app_inv_head in E4. injection E4 as E4. apply app_inv_tail, dec_inj in E4. subst n'. exists (length pre'), l0, l, d0, d'. split; [lia|]. rewrite <- !app_assoc. split.
  - rewrite nth_error_app2, Nat.sub_diag by lia. reflexivity.
  - split; [|auto]. rewrite nth_error_app2 by lia. replace (S (length pre') - length pre')%nat with 1%nat by lia. reflexivity.
Qed.

(* ---------------- the corpora ---------------- *)
Lemma forget_sentences {date} dv (strptime : str -> res date) fr langs src : forget (sentences_told dv strptime fr langs src) = read_sentences dv strptime fr langs src.
Proof.
  destruct src as [[|row rows] o]; cbn [sentences_told read_sentences]; [destruct o; reflexivity|]. rewrite forget_bind.
  destruct (Nat.eqb (length row) 3); [|destruct (Nat.eqb (length row) 6); [|reflexivity]]; cbn [forget bind]; rewrite forget_bind, forget_silent; apply bind_ext; intro t; rewrite forget_bind, forget_silent; reflexivity.
Qed.
Lemma sentences_said {date} dv (strptime : str -> res date) fr langs src e m :
  sentences_told dv strptime fr langs src = Fail e (Some m) <->
  e = InvalidFileError /\ m = u "Invalid sentences file, filesmust have either 3 or 6 columns." /\
  exists row rows, fst src = row :: rows /\ length row <> 3%nat /\ length row <> 6%nat.
Proof.
  destruct src as [[|row rows] o]; cbn [sentences_told fst].
  { split; [destruct o; discriminate|]. intros (_ & _ & r & rs & E & _). discriminate. }
  assert (S : forall b : bool, (try t <- silent (read_rows dv strptime fr langs (row :: rows) (mktables [] [] (if b then Some [] else None))); try _ <- silent o; Fine t) <> Fail e (Some m)).
  { intros b H. destruct (read_rows _ _ _ _ _ _) as [t|x]; cbn [silent tbind] in H; [|discriminate]. destruct o; discriminate. }
  destruct (Nat.eqb_spec (length row) 3) as [L|L]; [|destruct (Nat.eqb_spec (length row) 6) as [L'|L']]; cbn [tbind].
  - split; [intro H; exfalso; exact (S false H)|]. intros (_ & _ & r & rs & E & N & _). injection E as <- <-. contradiction.
  - split; [intro H; exfalso; exact (S true H)|]. intros (_ & _ & r & rs & E & _ & N). injection E as <- <-. contradiction.
  - split; [intro H; injection H as <- <-; eauto 8|]. intros (-> & -> & _). reflexivity.
Qed.
Lemma forget_links dv s fs ft rows : forget (links_told dv s fs ft rows) = read_links dv s fs ft rows (mklstate [] [] 0).
Proof. unfold links_told. destruct (read_links _ _ _ _ _ _); reflexivity. Qed.
Lemma forget_filter lower s v : forget (filter_told lower s v) = ids_filter lower s v.
Proof. unfold filter_told. destruct (ids_filter _ _ _); reflexivity. Qed.
Lemma forget_radk dv ls : forget (radk_told dv ls) = parse_radkfile dv ls.
Proof. unfold radk_told. destruct (parse_radkfile dv ls) as [|[]]; reflexivity. Qed.
Lemma radk_said dv ls e m : radk_told dv ls = Fail e (Some m) <->
  e = PlainException /\ m = u "format error parsing radkfile" /\ parse_radkfile dv ls = Raise PlainException.
Proof.
  unfold radk_told. destruct (parse_radkfile dv ls) as [|[]]; split; intro H; try discriminate; try (destruct H as (_ & _ & H); discriminate).
  - injection H as <- <-. auto.
  - destruct H as (-> & -> & _). reflexivity.
Qed.
Lemma forget_language {date} (r : reader date) i : forget (language_told r i) = language r i.
Proof. unfold language_told, language. rewrite forget_bind, forget_silent. apply bind_ext. intro t. destruct (find_lang i (language_dict t)); reflexivity. Qed.
Lemma forget_sentence_of {date} (r : reader date) i : forget (sentence_of_told r i) = Tatoeba_model.sentence r i.
Proof. unfold sentence_of_told, Tatoeba_model.sentence. destruct (getitem r i) as [|[]]; reflexivity. Qed.
Lemma forget_details {date} (r : reader date) i : forget (details_told r i) = details r i.
Proof.
  unfold details_told, details. rewrite forget_bind, forget_silent. apply bind_ext. intro t. destruct (detailed_info_dict t) as [dd|]; [|reflexivity]. destruct (dget i dd); reflexivity.
Qed.
Lemma forget_group r i : forget (group_told r i) = Tatoeba_model.group r i.
Proof. unfold group_told, Tatoeba_model.group. destruct (lgetitem r i) as [|[]]; reflexivity. Qed.
Lemma forget_link r i : forget (link_told r i) = link r i.
Proof. unfold link_told, link. rewrite forget_bind, forget_silent. apply bind_ext. intro d. destruct (dget i (snd d)); reflexivity. Qed.
(** a failed lookup names the number looked up *)
Lemma after_dec (a b : Z) (x y : str) : (forall c t, x = c :: t -> ~ (digit_char c \/ c = 45)) -> (forall c t, y = c :: t -> ~ (digit_char c \/ c = 45)) ->
  dec a ++ x = dec b ++ y -> a = b.
Proof.
  intros X Y E. apply dec_inj. pose proof (proj1 (dec_chars a)) as A. pose proof (proj1 (dec_chars b)) as B. revert A B E. generalize (dec a) (dec b).
  intros p. induction p as [|c p IH]; intros [|d q] A B E; cbn [app] in E.
  - reflexivity.
  - inversion B; subst. exfalso. eapply X; [reflexivity|]; assumption.
  - inversion A; subst. exfalso. eapply Y; [reflexivity|]; assumption.
  - injection E as -> E. f_equal. inversion A; inversion B; subst. apply IH; assumption.
Qed.
