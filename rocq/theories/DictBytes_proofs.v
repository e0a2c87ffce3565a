From Verif Require Import Base PyStr PyText PyFmt Maps_model Regex RegexSem RegexSem_proofs Common_model Csv_model Bilingual_model Bilingual_spec DictFormat_model DictFormat_spec DictFormat_proofs FormatLang_spec FormatLang_proofs SplitCodes_model SplitCodes_proofs SplitFiles_proofs Files_model Files_proofs Encoding_model Encoding_spec Encoding_proofs Utf8_proofs Python2_model Python2_spec Python2_proofs Written_spec Files_spec DictBytes_model DictBytes_spec.

(** ** streams *)
Lemma run_ok {A} h (run : heap -> list str -> heap * res A) ls : run_lines h run (mksource ls None) = run h ls.
Proof. unfold run_lines; cbn [lines failure]; destruct ls as [|l ls]; destruct (run h _) as [h' [a|e]]; reflexivity. Qed.
Lemma run_bad {A} h (run : heap -> list str -> heap * res A) ls e : exists h' e', run_lines h run (mksource ls (Some e)) = (h', Raise e').
Proof.
  unfold run_lines; cbn [lines failure]; destruct ls as [|l ls]; [eexists _, _; reflexivity|]; destruct (run h (l :: ls)) as [h' [a|e']]; eexists _, _; reflexivity.
Qed.
Lemma utf8_whole t : Forall scalar t -> utf8 (encoded t) = (t, true).
Proof. intros S; apply utf8_exact; [apply encoded_bytes, S|split; [exact S|reflexivity]]. Qed.

(** ** groups hold characters of the subject *)
Section Within.
  Variable P : Z -> Prop.
  Definition within (s : pos) : Prop := Forall P (rest s) /\ Forall (fun c => Forall P (snd c)) (caps s).
  Lemma stars_within f lazy : (forall s t, within s -> In t (f s) -> within t) -> forall n s t, within s -> In t (stars f lazy n s) -> within t.
  Proof.
    intros F; induction n as [|n IH]; intros s t W I; [destruct I|]; cbn [stars] in I; cbv zeta in I.
    assert (X : In t (flat_map (fun t => if shorter t s then stars f lazy n t else []) (f s)) -> within t).
    { intros J; apply in_flat_map in J; destruct J as [m [Im It]]; destruct (shorter m s); [|destruct It]; apply (IH m); [apply (F s), Im; exact W|exact It]. }
    destruct lazy; [destruct I as [<-|I]; [exact W|apply X, I]|apply in_app_or in I; destruct I as [I|[<-|[]]]; [apply X, I|exact W]].
  Qed.
  Lemma runs_within r : forall s t, within s -> In t (runs r s) -> within t.
  Proof.
    induction r as [|p|a IHa b IHb|a IHa b IHb|r IH|r IH|m r IH| | |p]; intros s t W; cbn [runs].
    - intros [<-|[]]; exact W.
    - destruct W as [W1 W2]; destruct (rest s) as [|c q] eqn:E; [intros []|]; destruct (p c); [|intros []]; intros [<-|[]]; split; cbn [rest caps]; [inversion W1; assumption|exact W2].
    - intros I; apply in_flat_map in I; destruct I as [x [Ix It]]; apply (IHb x); [apply (IHa s); assumption|exact It].
    - intros I; apply in_app_or in I; destruct I as [I|I]; [apply (IHa s)|apply (IHb s)]; assumption.
    - apply stars_within; [exact IH|exact W].
    - apply stars_within; [exact IH|exact W].
    - intros I; apply in_map_iff in I; destruct I as [x [<- Ix]]; pose proof (IH s x W Ix) as [X1 X2]; split; cbn [capture rest caps]; [exact X1|].
      constructor; [|exact X2]; cbn [snd]; unfold text; apply Forall_forall; intros c Ic; apply (proj1 (Forall_forall _ _) (proj1 W)).
      rewrite <- (firstn_skipn (length (rest s) - length (rest x)) (rest s)); apply in_or_app; left; exact Ic.
    - destruct (before s); intros []; [subst; exact W|contradiction].
    - destruct (rest s) as [|c [|]]; [|destruct (c =? 10)|]; intros []; try contradiction; subst; exact W.
    - destruct (before s) as [|c q]; [intros []|]; destruct (p c); intros []; [subst; exact W|contradiction].
  Qed.
  Lemma group_within r l m n g : match_ r l = Some m -> Forall P l -> group n m = Some g -> Forall P g.
  Proof.
    intros M F G; rewrite match_best in M; assert (I : In m (runs r (start l))) by (destruct (runs r (start l)); [discriminate M|injection M as ->; left; reflexivity]).
    assert (W : within (start l)) by (split; [exact F|constructor]).
    destruct (runs_within r (start l) m W I) as [_ C]; unfold group in G; apply dget_In in G; apply (proj1 (Forall_forall _ _) C) in G; exact G.
  Qed.
End Within.

(** ** lines of bytes *)
Lemma ascii_true s : all_ascii s = true <-> ASCII s.
Proof. unfold all_ascii, ASCII; rewrite forallb_forall, Forall_forall; split; intros H c I; specialize (H c I); lia. Qed.
Lemma ascii_spaces s : all_ascii (no_spaces s) = all_ascii s.
Proof.
  unfold all_ascii, no_spaces; induction s as [|c s IH]; [reflexivity|]; cbn [filter].
  destruct (notc (u1 " ") c) eqn:N; cbn [forallb]; rewrite IH; [reflexivity|].
  apply notc_false in N; subst c; reflexivity.
Qed.
Lemma no_spaces_idem s : no_spaces (no_spaces s) = no_spaces s.
Proof. rewrite !no_spaces_spaceless; apply spaceless_idem. Qed.
Lemma parse2_ok f l w r ss : parse_line f l = Ok (w, ([r], ss)) ->
  parse_line2 f l = if all_ascii w && all_ascii r then Ok (w, ([r], ss)) else Raise UnicodeError.
Proof.
  unfold parse_line, parse_line2, replace2; destruct (match_ (line_pattern f) l) as [m|]; [|discriminate].
  destruct (group (u "word") m) as [w0|]; [|discriminate]; cbv zeta; destruct (group (u "senses") m) as [s0|]; [|discriminate].
  destruct (map sense_of _) as [|s1 ss1]; [discriminate|]; intros [= <- <- <-]; rewrite !ascii_spaces.
  destruct (all_ascii w0) eqn:A; cbn [bind andb]; [|reflexivity].
  destruct (all_ascii match group (u "reading") m with Some (c :: r) => _ | _ => _ end); reflexivity.
Qed.
Lemma parse2_inv f l p : parse_line2 f l = Ok p -> parse_line f l = Ok p /\ ASCII (fst p) /\ Forall ASCII (fst (snd p)).
Proof.
  unfold parse_line2, replace2; destruct (match_ (line_pattern f) l) as [m|] eqn:M; [|discriminate].
  destruct (group (u "word") m) as [w0|] eqn:G; [|discriminate]; destruct (all_ascii w0) eqn:A; cbn [bind]; [|discriminate].
  destruct (all_ascii match group (u "reading") m with Some (c :: r) => _ | _ => _ end) eqn:B; cbn [bind]; [|discriminate].
  destruct (group (u "senses") m) as [s0|] eqn:S; [|discriminate]; destruct (map sense_of _) as [|s1 ss1] eqn:SS; [discriminate|]; intros [= <-].
  split; [unfold parse_line; rewrite M, G, S; cbv zeta; rewrite SS; reflexivity|]; cbn [fst snd]; split; [|constructor; [|constructor]].
  - apply ascii_true; rewrite ascii_spaces; exact A.
  - apply ascii_true; rewrite ascii_spaces; exact B.
Qed.
Lemma parse2_sound f l p : parse_line2 f l = Ok p -> DictFormat_spec.sound p.
Proof. intros E; apply parse2_inv in E; exact (parse_line_sound f l p (proj1 E)). Qed.
Lemma parse2_ascii f l : ASCII l -> parse_line2 f l = parse_line f l.
Proof.
  intros A; unfold parse_line2, parse_line, replace2; destruct (match_ (line_pattern f) l) as [m|] eqn:M; [|rewrite (proj2 (ascii_true l) A); reflexivity].
  destruct (group (u "word") m) as [w0|] eqn:G; [|reflexivity]; cbv zeta.
  rewrite (proj2 (ascii_true w0) (group_within _ _ _ _ _ _ M A G)); cbn [bind].
  replace (all_ascii match group (u "reading") m with Some (c :: r) => _ | _ => _ end) with true; [reflexivity|].
  symmetry; destruct (group (u "reading") m) as [[|c r]|] eqn:R; try (rewrite ascii_spaces; apply ascii_true, (group_within _ _ _ _ _ _ M A G)).
  apply ascii_true, (group_within _ _ _ _ _ _ M A R).
Qed.
Lemma mapM2 f ls ps : mapM (parse_line2 f) ls = Ok ps -> mapM (parse_line f) ls = Ok ps /\ Forall (fun p => ASCII (fst p)) ps.
Proof.
  revert ps; induction ls as [|l ls IH]; intros ps; cbn [mapM]; [intros [= <-]; split; [reflexivity|constructor]|].
  destruct (parse_line2 f l) as [p|] eqn:E; cbn [bind]; [|discriminate]; destruct (mapM (parse_line2 f) ls) as [qs|]; cbn [bind]; [|discriminate]; intros [= <-].
  apply parse2_inv in E; destruct E as [-> [A _]]; destruct (IH qs eq_refl) as [-> F]; split; [reflexivity|constructor; [exact A|exact F]].
Qed.

(** ** Python 3 *)
Section Three.
  Variables (disk : str -> option (list Z)) (stdin : source) (given : str -> nat).
  Lemma default_ok locale name b t : disk name = Some b -> locale b = (t, true) -> open_default disk locale given name = Ok (mksource (file_lines t) None).
  Proof. intros D L; unfold open_default; rewrite D, (source_ok locale given name b t L); reflexivity. Qed.
  Lemma open_text {A} locale h (run : heap -> list str -> heap * res A) name b t : disk name = Some b -> locale b = (t, true) ->
    opened h run (open_default disk locale given name) = run h (file_lines t).
  Proof. intros D L; rewrite (default_ok locale name b t D L); apply run_ok. Qed.
  Lemma open_broken {A} locale h (run : heap -> list str -> heap * res A) name b t : disk name = Some b -> locale b = (t, false) ->
    exists h' e, opened h run (open_default disk locale given name) = (h', Raise e).
  Proof. intros D L; unfold open_default; rewrite D; destruct (source_bad locale given name b t L) as [ls ->]; apply run_bad. Qed.
  Lemma open_loads {A} locale h (run : heap -> list str -> heap * res A) name h' a :
    opened h run (open_default disk locale given name) = (h', Ok a) <->
    exists b t, disk name = Some b /\ locale b = (t, true) /\ run h (file_lines t) = (h', Ok a).
  Proof.
    split.
    - intros E; destruct (disk name) as [b|] eqn:D.
      + destruct (locale b) as [t [|]] eqn:L.
        * rewrite (open_text locale h run name b t D L) in E; exists b, t; repeat split; assumption.
        * destruct (open_broken locale h run name b t D L) as [h1 [e X]]; rewrite X in E; discriminate E.
      + unfold open_default in E; rewrite D in E; discriminate E.
    - intros [b [t [D [L R]]]]; rewrite (open_text locale h run name b t D L); exact R.
  Qed.
  Lemma sopen_default locale h name : ordinary name -> dict_sopen disk stdin locale given h name = dict_open disk locale given h name.
  Proof.
    intros O; unfold dict_sopen, dict_open, open_default; rewrite (open_bytes_ordinary disk stdin locale given name O); destruct (disk name); reflexivity.
  Qed.
  Lemma sopen_compressed locale h name b c : compressed name -> disk name = Some (c :: b) -> dict_sopen disk stdin locale given h name = (h, Raise TypeError).
  Proof.
    intros C D; unfold dict_sopen; rewrite (open_bytes_compressed disk stdin locale given name _ C D).
    destruct (byte_lines (c :: b)) eqn:E; [|reflexivity]; exfalso.
    assert (X : forall b cur, cur <> [] -> bytes_from cur b <> []).
    { clear; induction b as [|x b IH]; intros cur N; cbn [bytes_from]; [destruct cur; [contradiction|discriminate]|].
      destruct (x =? 10); [discriminate|apply IH; discriminate]. }
    unfold byte_lines in E; cbn [bytes_from] in E; destruct (c =? 10); [discriminate E|apply X in E; [exact E|discriminate]].
  Qed.
  Lemma open_lines h name ls : lines_in disk name ls ->
    dict_open disk utf8 given h name = load_dictionary h ls /\ coded_open disk utf8 given h name = load_coded_dictionary h ls.
  Proof.
    intros [t [ps [D [S [R [C <-]]]]]]; unfold dict_open, coded_open; rewrite !(open_text utf8 h _ name _ t D (utf8_whole t S)).
    destruct (dictionary_feeds h _ _ (cut_feeds t ps C)) as [A [_ [B _]]]; split; assumption.
  Qed.
End Three.

(** ** Python 2 *)
Lemma fed_lines_in disk name ls : fed_in disk name ls -> lines_in disk name ls.
Proof. intros [t [ps [D [S [R [_ [C E]]]]]]]; exists t, ps; auto. Qed.
Lemma fed_bytes disk name ls : fed_in disk name ls -> exists b fs, disk name = Some b /\ byte_lines b = map encoded fs /\ feeds fs ls /\ Forall (Forall scalar) fs.
Proof.
  intros [t [ps [D [S [R [N [C <-]]]]]]]; exists (encoded t), (byte_lines t); split; [exact D|split; [apply byte_lines_encoded, S|split]].
  - unfold byte_lines; rewrite bytes_fed by exact N; apply (cut_feeds t ps C).
  - apply byte_lines_scalar; [exact S|constructor].
Qed.
Lemma cut_breaks t ps : cut newline t ps -> regular t -> cut any_break t ps.
Proof.
  assert (X : forall l, Forall (fun c => ~ newline c) l -> regular l -> Forall (fun c => ~ any_break c) l).
  { intros l F R; apply Forall_forall; intros c I [B|B]; [exact (proj1 (Forall_forall _ _) F c I B)|exact (proj1 (Forall_forall _ _) R c I B)]. }
  induction 1 as [|l N F|l e r ps F E C IH]; intros R; [constructor|constructor; [exact N|apply X; assumption]|].
  unfold regular in R; apply Forall_app in R; destruct R as [R1 R2]; apply Forall_app in R2; destruct R2 as [R2 R3].
  constructor; [apply X; assumption| |apply IH, R3]; destruct E; constructor; [left; assumption|assumption].
Qed.
Lemma kept_fed t ps : cut newline t ps -> ~ In 13 t -> map kept ps = map fed ps.
Proof.
  induction 1 as [|l N F|l e r ps F E C IH]; intros H; [reflexivity|reflexivity|]; cbn [map]; rewrite IH by (intros I; apply H, in_or_app; right; apply in_or_app; right; exact I); f_equal.
  unfold kept, fed; cbn [fst snd]; destruct E as [|c r B X]; [exfalso; apply H, in_or_app; right; left; reflexivity|].
  destruct B as [-> | ->]; [reflexivity|exfalso; apply H, in_or_app; right; left; reflexivity].
Qed.
Lemma parse_lines_ext p q ls : (forall l, In l ls -> p l = q l) -> forall h d, parse_lines p h d ls = parse_lines q h d ls.
Proof.
  induction ls as [|a ls IH]; intros E h d; [reflexivity|]; cbn [parse_lines]; rewrite (E a) by (left; reflexivity); destruct (q a) as [x|]; [|reflexivity].
  assert (E' : forall l, In l ls -> p l = q l) by (intros l I; apply E; right; exact I).
  destruct (build_entry h x) as [h1 [e|]]; [|reflexivity]; destruct (dget (word (entry_at h1 e)) d) as [old|]; [|apply IH, E'].
  destruct (entry_update h1 old e) as [h2 [|]]; [apply IH, E'|reflexivity].
Qed.
Lemma load_lines_ext p q ls : (forall l, In l ls -> p l = q l) -> forall h we cd, load_lines p h we cd ls = load_lines q h we cd ls.
Proof.
  induction ls as [|a ls IH]; intros E h we cd; [reflexivity|]; cbn [load_lines]; rewrite (E a) by (left; reflexivity); destruct (q a) as [x|]; [|reflexivity].
  assert (E' : forall l, In l ls -> p l = q l) by (intros l I; apply E; right; exact I).
  destruct (build_entry h x) as [h1 [e|]]; [|reflexivity]; cbv zeta.
  destruct (match dget (word (entry_at h1 e)) we with Some e0 => _ | None => _ end) as [[[h2 o] e2] we2]; destruct o; [apply IH, E'|reflexivity].
Qed.
Section Two.
  Variables (disk : str -> option (list Z)) (stdin : list Z) (given : str -> nat).
  Lemma sopen2_codec h name t : disk name = Some (encoded t) -> Forall scalar t -> name <> u "-" ->
    dict_sopen2 disk stdin given h name = load_dictionary h (codec_lines t).
  Proof.
    intros D S N; unfold dict_sopen2; rewrite (open2_spec disk stdin given name utf8_name N (or_introl eq_refl)), D; cbn [utf8_name].
    unfold opened, utf8_name; rewrite (source_stored given name t S); apply run_ok.
  Qed.
  Lemma sopen2_fed h name ls : name <> u "-" -> fed_in disk name ls -> dict_sopen2 disk stdin given h name = load_dictionary h ls.
  Proof.
    intros N [t [ps [D [S [R [NC [C <-]]]]]]]; rewrite (sopen2_codec h name t D S N), (coded_lines t ps (cut_breaks t ps C R)), (kept_fed t ps C NC), <- (text_lines t ps C).
    apply (dictionary_feeds h _ _ (cut_feeds t ps C)).
  Qed.
  Lemma open2_bytes {A} h (run : heap -> list str -> heap * res A) name b : disk name = Some b -> opened h run (open_plain2 disk name) = run h (byte_lines b).
  Proof. intros D; unfold open_plain2; rewrite D; apply run_ok. Qed.

  Lemma ascii_encoded s : ASCII s -> encoded s = s.
  Proof. induction 1 as [|c s C F IH]; [reflexivity|]; unfold encoded in *; cbn [flat_map]; rewrite units_low, IH by exact C; reflexivity. Qed.
  Lemma open2_ascii h name ls : fed_in disk name ls -> Forall ASCII ls ->
    dict_open2 disk h name = load_dictionary h ls /\ coded_open2 disk h name = load_coded_dictionary h ls.
  Proof.
    intros F A; destruct (fed_bytes disk name ls F) as [b [fs [D [B [E _]]]]]; unfold dict_open2, coded_open2; rewrite !(open2_bytes h _ name b D), B.
    assert (AF : Forall ASCII fs).
    { clear - E A; induction E as [|x l fs ls [N [-> | ->]] E IH]; [constructor|constructor; [inversion A; assumption|apply IH; inversion A; assumption]|].
      inversion A; subst; constructor; [apply Forall_app; split; [assumption|repeat constructor; lia]|apply IH; assumption]. }
    assert (I : map encoded fs = fs) by (clear - AF; induction AF as [|x l X F IH]; [reflexivity|]; cbn [map]; rewrite ascii_encoded, IH by exact X; reflexivity).
    rewrite I; destruct (dictionary_feeds h fs ls E) as [L1 [_ [L2 _]]]; rewrite <- L1, <- L2; clear - AF.
    unfold load_dictionary2, load_coded2, load_dictionary, load_coded_dictionary, parse_dictionary; destruct fs as [|hd fs]; [split; reflexivity|].
    destruct (detect_format hd) as [f|e]; [|split; reflexivity]; inversion AF as [|? ? _ G]; subst.
    assert (X : forall l, In l fs -> parse_line2 f l = parse_line f l) by (intros l I; apply parse2_ascii, (proj1 (Forall_forall _ _) G l I)).
    split; [apply parse_lines_ext, X|apply load_lines_ext, X].
  Qed.
End Two.

(** ** what Python 2 cannot load *)
Lemma load2_words h hd lines h' b : wf h -> load_dictionary2 h (hd :: lines) = (h', Ok b) ->
  exists f ps, header f hd /\ mapM (parse_line2 f) lines = Ok ps /\ dkeys b = distinct (map fst ps) /\ Forall (fun p => ASCII (fst p)) ps.
Proof.
  intros W; unfold load_dictionary2; destruct (detect_in known_formats hd (fun g => iff_refl _)) as [DT _].
  unfold detect_format; destruct (detect_format_in known_formats hd) as [f|] eqn:D; [|discriminate].
  pose proof (proj1 (DT f) eq_refl) as H; intros E; exists f.
  pose proof (parse_lines_ok (parse_line2 f) (length (entries h)) (parse2_sound f) lines [] h []) as P.
  assert (L0 : loaded (length (entries h)) h [] []) by (split; [exact W|split; [reflexivity|intros w e; discriminate]]).
  specialize (P (le_n _) L0); destruct (mapM (parse_line2 f) lines) as [ps|e] eqn:M; [|destruct P as [h1 P]; rewrite P in E; discriminate E].
  destruct P as [h1 [b1 [P [[_ [K _]] _]]]]; rewrite P in E; injection E as -> ->; exists ps; split; [exact H|split; [reflexivity|split; [exact K|]]].
  apply (mapM2 f lines ps M).
Qed.
Lemma coded2_words h hd lines h' cd : wf h -> load_coded2 h (hd :: lines) = (h', Ok cd) ->
  exists f ps, header f hd /\ mapM (parse_line2 f) lines = Ok ps /\ Forall (fun p => ASCII (fst p)) ps.
Proof.
  intros W; unfold load_coded2; destruct (detect_in known_formats hd (fun g => iff_refl _)) as [DT _].
  unfold detect_format; destruct (detect_format_in known_formats hd) as [f|] eqn:D; [|discriminate].
  pose proof (proj1 (DT f) eq_refl) as H; intros E; exists f.
  pose proof (load_lines_ok (parse_line2 f) (length (entries h)) (parse2_sound f) lines [] h [] []) as P.
  assert (L0 : loaded (length (entries h)) h [] []) by (split; [exact W|split; [reflexivity|intros w e; discriminate]]).
  assert (C0 : coded_ok [] [] []) by (intros c w e; split; [discriminate|intros [X _]; discriminate X]).
  specialize (P (le_n _) L0 (Forall_nil _) C0); destruct (mapM (parse_line2 f) lines) as [ps|e] eqn:M; [|destruct P as [h1 P]; rewrite P in E; discriminate E].
  exists ps; split; [exact H|split; [reflexivity|]]; apply (mapM2 f lines ps M).
Qed.

(* the first line begins as the text does *)
Lemma lines_start q : forall cur, cur <> [] -> exists r ls, lines_from cur q = (rev cur ++ r) :: ls.
Proof.
  induction q as [|d q IH]; intros cur M; cbn [lines_from].
  - destruct cur as [|x cur]; [contradiction|]; exists [], []; rewrite app_nil_r; reflexivity.
  - destruct (d =? 10); [eexists [10], _; reflexivity|]; destruct (d =? 13).
    + destruct q as [|e q]; [eexists [10], _; reflexivity|]; destruct (e =? 10); eexists [10], _; reflexivity.
    + destruct (IH (d :: cur)) as [r [ls ->]]; [discriminate|]; exists (d :: r), ls; cbn [rev]; rewrite <- app_assoc; reflexivity.
Qed.
Lemma lines_first p q : Forall (fun c => ~ newline c) p -> p <> [] -> exists r ls, file_lines (p ++ q) = (p ++ r) :: ls.
Proof.
  intros F M; unfold file_lines; assert (G : forall p cur, Forall (fun c => ~ newline c) p -> lines_from cur (p ++ q) = lines_from (rev p ++ cur) q).
  { clear; induction p as [|c p IH]; intros cur F; [reflexivity|]; inversion F as [|? ? N F']; subst; cbn [app lines_from rev].
    unfold newline in N; destruct (Z.eqb_spec c 10); [lia|]; destruct (Z.eqb_spec c 13); [lia|]; rewrite IH, <- app_assoc by exact F'; reflexivity. }
  rewrite G by exact F; destruct (lines_start q (rev p ++ [])) as [r [ls ->]].
  - destruct p as [|c p]; [contradiction|]; cbn [rev]; destruct (rev p); discriminate.
  - exists r, ls; rewrite app_nil_r, rev_involutive; reflexivity.
Qed.
Lemma bytes_start q : forall cur, cur <> [] -> exists r ls, bytes_from cur q = (rev cur ++ r) :: ls.
Proof.
  induction q as [|d q IH]; intros cur M; cbn [bytes_from].
  - destruct cur as [|x cur]; [contradiction|]; exists [], []; rewrite app_nil_r; reflexivity.
  - destruct (d =? 10); [eexists [d], _; reflexivity|].
    destruct (IH (d :: cur)) as [r [ls ->]]; [discriminate|]; exists (d :: r), ls; cbn [rev]; rewrite <- app_assoc; reflexivity.
Qed.
Lemma bytes_first p q : Forall (fun c => ~ newline c) p -> p <> [] -> exists r ls, byte_lines (p ++ q) = (p ++ r) :: ls.
Proof.
  intros F M; unfold byte_lines; rewrite bytes_skip by (eapply Forall_impl; [|exact F]; intros c N X; apply N; left; exact X).
  destruct (bytes_start q (rev p ++ [])) as [r [ls ->]].
  - destruct p as [|c p]; [contradiction|]; cbn [rev]; destruct (rev p); discriminate.
  - exists r, ls; rewrite app_nil_r, rev_involutive; reflexivity.
Qed.
(* an EDICT header, as bytes *)
Lemma no_header c q : c <> 10 -> scalar c -> forall f, ~ header f (units c ++ encoded (u "？？？") ++ q).
Proof.
  intros N S f H; change (encoded (u "？？？")) with [239; 188; 159; 239; 188; 159; 239; 188; 159] in H.
  assert (B : Forall (fun x => 0 <= x < 256) (units c)) by (pose proof (encoded_bytes [c] (Forall_cons _ S (Forall_nil _))) as X; unfold encoded in X; cbn [flat_map] in X; rewrite app_nil_r in X; exact X).
  destruct (Z.ltb_spec c 128) as [L|G].
  - rewrite units_low in H by exact L; inversion H; subst; discriminate.
  - destruct (units_high c G S) as [M K]; destruct (units c) as [|x [|y r]]; [contradiction| |]; inversion K as [|? ? X K']; subst; inversion B as [|? ? _ B']; subst.
    + inversion H; subst; try discriminate; lia.
    + inversion B'; inversion H; subst; try (cbn in *; lia); discriminate.
Qed.
Lemma edict_lines disk name hd ls : lines_in disk name (hd :: ls) -> header edict hd ->
  exists c q, disk name = Some ((units c ++ encoded (u "？？？")) ++ q) /\ c <> 10 /\ scalar c /\ Forall (fun x => ~ newline x) (units c ++ encoded (u "？？？")).
Proof.
  intros [t [ps [D [S [_ [C E]]]]]] H; destruct ps as [|[l e] ps]; [discriminate E|]; cbn [map fst] in E; injection E as -> _.
  assert (X : exists r, t = hd ++ r /\ Forall (fun c => ~ newline c) hd).
  { inversion C; subst; [exists []; rewrite app_nil_r; split; [reflexivity|assumption]|eexists; split; [reflexivity|assumption]]. }
  destruct X as [r [-> F]]; inversion H as [c q nl N M| | |]; subst.
  cbn [app] in *; assert (SC : scalar c) by (inversion S; assumption); assert (NC : ~ newline c) by (inversion F; assumption).
  exists c, (encoded ((q ++ DictFormat_spec.newline nl) ++ r)); split; [|split; [exact N|split; [exact SC|]]].
  - rewrite D; f_equal; unfold encoded; cbn [flat_map]; rewrite <- !app_assoc; f_equal; rewrite flat_map_app; rewrite !flat_map_app, <- !app_assoc; reflexivity.
  - apply Forall_app; split; [|vm_compute encoded; repeat constructor; unfold newline; lia].
    destruct (Z.ltb_spec c 128) as [L|G]; [rewrite units_low by exact L; constructor; [exact NC|constructor]|].
    eapply Forall_impl; [|apply (units_high c G SC)]; unfold newline; intros; lia.
Qed.
Lemma detect_none hd : (forall f, ~ header f hd) -> detect_format hd = Raise UnknownFormatError.
Proof.
  intros H; destruct (detect_in known_formats hd (fun g => iff_refl _)) as [_ D]; apply D, H.
Qed.
Lemma edict_bytes disk name hd ls : lines_in disk name (hd :: ls) -> header edict hd ->
  exists b l ms l' ms', disk name = Some b /\ byte_lines b = l :: ms /\ (forall f, ~ header f l) /\
    file_lines b = l' :: ms' /\ (forall f, ~ header f l') /\ exists t, ascii b = (t, false) /\ filter finished (file_lines t) = [].
Proof.
  intros L H; destruct (edict_lines disk name hd ls L H) as [c [q [D [N [S F]]]]].
  assert (NE : units c ++ encoded (u "？？？") <> []) by (destruct (units c); discriminate).
  destruct (bytes_first _ q F NE) as [r1 [m1 E1]]; destruct (lines_first _ q F NE) as [r2 [m2 E2]].
  eexists _, _, m1, _, m2; split; [exact D|split; [exact E1|split; [|split; [exact E2|split]]]].
  - intros f; rewrite <- app_assoc; apply no_header; assumption.
  - intros f; rewrite <- app_assoc; apply no_header; assumption.
  - rewrite <- app_assoc; change (encoded (u "？？？")) with [239; 188; 159; 239; 188; 159; 239; 188; 159].
    apply Forall_app in F; destruct F as [F _].
    destruct (Z.ltb_spec c 128) as [Lt|G].
    + rewrite units_low in * by exact Lt; exists [c]; cbn [app ascii]; rewrite (proj2 (Z.ltb_lt c 128) Lt); split; [reflexivity|].
      inversion F as [|? ? NC _]; subst; unfold newline in NC; unfold file_lines; cbn [lines_from].
      destruct (Z.eqb_spec c 10); [lia|]; destruct (Z.eqb_spec c 13); [lia|]; cbn [filter]; unfold finished; cbn [rev app].
      destruct (Z.eqb_spec c 10); [lia|reflexivity].
    + exists []; destruct (units_high c G S) as [M K]; destruct (units c) as [|x r]; [contradiction|]; cbn [app ascii].
      inversion K as [|? ? X _]; subst; destruct (Z.ltb_spec x 128); [lia|]; split; reflexivity.
Qed.
Lemma edict2 disk h name hd ls : lines_in disk name (hd :: ls) -> header edict hd ->
  dict_open2 disk h name = (h, Raise UnknownFormatError) /\ coded_open2 disk h name = (h, Raise UnknownFormatError).
Proof.
  intros L H; destruct (edict_bytes disk name hd ls L H) as [b [l [ms [l' [ms' [D [B [N _]]]]]]]].
  unfold dict_open2, coded_open2; rewrite !(open2_bytes disk h _ name b D), B; unfold load_dictionary2, load_coded2; rewrite (detect_none l N); split; reflexivity.
Qed.
Lemma edict_latin1 disk given h name hd ls : lines_in disk name (hd :: ls) -> header edict hd ->
  dict_open disk latin1 given h name = (h, Raise UnknownFormatError) /\ coded_open disk latin1 given h name = (h, Raise UnknownFormatError) /\
  dict_open disk ascii given h name = (h, Raise UnicodeError) /\ coded_open disk ascii given h name = (h, Raise UnicodeError).
Proof.
  intros L H; destruct (edict_bytes disk name hd ls L H) as [b [l [ms [l' [ms' [D [_ [_ [B [N [t [A E]]]]]]]]]]]].
  unfold dict_open, coded_open; rewrite !(open_text disk given latin1 h _ name b b D eq_refl), B; unfold load_dictionary, load_coded_dictionary; rewrite (detect_none l' N).
  unfold open_default, text_source; rewrite D, A, E, firstn_nil; repeat split.
Qed.

(** the word of an entry, as bytes *)
Definition tabbed (f : format) : bool := eqb (name f) (u "cj_kdic").
Definition led (f : format) : bool := eqb (name f) (u "cedict").
Definition sep (f : format) : Z := if tabbed f then 9 else 32.
Definition raw (f : format) (l w : str) : Prop :=
  exists t q, l = (if led f then t ++ [32] else []) ++ w ++ sep f :: q /\ ~ In 32 t /\ ~ In (sep f) w.
Lemma item_no c w : DictFormat_spec.item [c] w -> ~ In c w.
Proof. intros [_ F]; apply F; left; reflexivity. Qed.
Lemma entry_raw f l p : entry_line f l p -> exists w, raw f l w /\ fst p = (if tabbed f then spaceless w else w).
Proof.
  unfold raw; destruct 1 as [w r s nl I _ _ _|w s nl I _ _ _|w r s nl I _ _ _|w r s xs nl I _ _ _ _|t w r s q It I _ _ _ _|t w s q It I _ _ _ _];
    [change (sep edict) with 32; change (led edict) with false; change (tabbed edict) with false
    |change (sep edict) with 32; change (led edict) with false; change (tabbed edict) with false
    |change (sep jc_kdic) with 32; change (led jc_kdic) with false; change (tabbed jc_kdic) with false
    |change (sep cj_kdic) with 9; change (led cj_kdic) with false; change (tabbed cj_kdic) with true
    |change (sep cedict) with 32; change (led cedict) with true; change (tabbed cedict) with false
    |change (sep cedict) with 32; change (led cedict) with true; change (tabbed cedict) with false];
    exists w; (split; [|reflexivity]);
    try (eexists [], _; split; [reflexivity|split; [intros []|apply item_no, I]]).
  - eexists t, _; split; [rewrite <- app_assoc; reflexivity|split; apply item_no; assumption].
  - eexists t, _; split; [rewrite <- app_assoc; reflexivity|split; apply item_no; assumption].
Qed.
Lemma split_at (x : Z) a : forall a' r r', ~ In x a -> ~ In x a' -> a ++ x :: r = a' ++ x :: r' -> a = a' /\ r = r'.
Proof.
  induction a as [|c a IH]; intros [|c' a'] r r' N N' E; cbn [app] in E.
  - injection E as ->; split; reflexivity.
  - injection E as -> _; exfalso; apply N'; left; reflexivity.
  - injection E as -> _; exfalso; apply N; left; reflexivity.
  - injection E as -> E; destruct (IH a' r r') as [-> ->]; [intros I; apply N; right; exact I|intros I; apply N'; right; exact I|exact E|split; reflexivity].
Qed.
Lemma encoded_no x s : x < 128 -> Forall scalar s -> ~ In x s -> ~ In x (encoded s).
Proof.
  intros X F N I; unfold encoded in I; apply in_flat_map in I; destruct I as [c [Ic Iu]].
  destruct (Z.ltb_spec c 128) as [L|G]; [rewrite units_low in Iu by exact L; destruct Iu as [->|[]]; exact (N Ic)|].
  pose proof (proj1 (Forall_forall _ _) (proj2 (units_high c G (proj1 (Forall_forall _ _) F c Ic))) x Iu) as Y; cbn in Y; lia.
Qed.
Lemma raw_encoded f l w w' : raw f l w -> Forall scalar l -> raw f (encoded l) w' -> w' = encoded w.
Proof.
  intros [t [q [-> [Nt Nw]]]] S [t' [q' [E [Nt' Nw']]]].
  assert (Z1 : sep f < 128) by (unfold sep; destruct (tabbed f); lia).
  assert (U : units (sep f) = [sep f]) by (apply units_low, Z1).
  apply Forall_app in S; destruct S as [S1 S2]; apply Forall_app in S2; destruct S2 as [S2 _].
  assert (K : encoded ((if led f then t ++ [32] else []) ++ w ++ sep f :: q) = encoded (if led f then t ++ [32] else []) ++ encoded w ++ sep f :: encoded q).
  { rewrite !encoded_app; unfold encoded at 3; cbn [flat_map]; rewrite U; reflexivity. }
  rewrite K in E; clear K; destruct (led f).
  - rewrite encoded_app in E; change (encoded [32]) with [32] in E; rewrite <- !app_assoc in E; cbn [app] in E.
    apply Forall_app in S1; destruct S1 as [St _].
    apply split_at in E; [|apply encoded_no; [lia|exact St|exact Nt]|exact Nt']; destruct E as [_ E].
    apply split_at in E; [symmetry; apply E|apply encoded_no; [exact Z1|exact S2|exact Nw]|exact Nw'].
  - cbn [encoded flat_map app] in E; apply split_at in E; [symmetry; apply E|apply encoded_no; [exact Z1|exact S2|exact Nw]|exact Nw'].
Qed.
Lemma encoded_ASCII s : Forall scalar s -> ASCII (encoded s) -> ASCII s.
Proof.
  intros S A; apply Forall_forall; intros c I; destruct (Z.ltb_spec c 128) as [L|G]; [exact L|].
  pose proof (proj1 (Forall_forall _ _) S c I) as Sc; destruct (units_high c G Sc) as [M K]; destruct (units c) as [|x r] eqn:U; [contradiction|].
  inversion K; subst; assert (J : In x (encoded s)) by (unfold encoded; apply in_flat_map; exists c; split; [exact I|rewrite U; left; reflexivity]).
  pose proof (proj1 (Forall_forall _ _) A x J); cbn in *; lia.
Qed.
Lemma spaceless_ASCII s : ASCII (spaceless s) <-> ASCII s.
Proof. rewrite <- no_spaces_spaceless, <- !ascii_true, ascii_spaces; reflexivity. Qed.
Lemma word_ASCII f l p p' : entry_line f l p -> Forall scalar l -> entry_line f (encoded l) p' -> ASCII (fst p') -> ASCII (fst p).
Proof.
  intros E S E' A; destruct (entry_raw f l p E) as [w [R ->]]; destruct (entry_raw f _ p' E') as [w' [R' X]]; rewrite X in A.
  rewrite (raw_encoded f l w w' R S R') in A.
  assert (Sw : Forall scalar w) by (destruct R as [t [q [-> _]]]; apply Forall_app in S; destruct S as [_ S]; apply Forall_app in S; apply S).
  revert A; destruct (tabbed f); rewrite ?spaceless_ASCII; apply encoded_ASCII, Sw.
Qed.
Lemma feeds_cut ls : forall fs a l b, feeds fs ls -> ls = a ++ l :: b -> exists fa x fb, fs = fa ++ x :: fb /\ ~ In 10 l /\ (x = l \/ x = l ++ [10]).
Proof.
  intros fs a; revert ls fs; induction a as [|y a IH]; intros ls fs l b F ->; inversion F as [|x ? fs' ? H G]; subst.
  - exists [], x, fs'; split; [reflexivity|exact H].
  - destruct (IH _ _ l b G eq_refl) as [fa [z [fb [-> H']]]]; exists (x :: fa), z, fb; split; [reflexivity|exact H'].
Qed.
Lemma encoded_newline nl : encoded (DictFormat_spec.newline nl) = DictFormat_spec.newline nl.
Proof. destruct nl; reflexivity. Qed.
Lemma header_encoded f g hd : header f hd -> Forall scalar hd -> header g (encoded hd) -> g = f.
Proof.
  intros H S Hg; eapply header_unique; [exact Hg|]; destruct H as [c t nl Nc Nt|nl|nl|t nl Nt].
  - exfalso; assert (E : encoded (c :: u "？？？" ++ t ++ DictFormat_spec.newline nl) = units c ++ encoded (u "？？？") ++ encoded (t ++ DictFormat_spec.newline nl)).
    { rewrite <- encoded_app; reflexivity. }
    rewrite E in Hg; apply no_header in Hg; [exact Hg|exact Nc|exact (Forall_inv S)].
  - rewrite encoded_app, encoded_newline; apply (H_jc nl).
  - rewrite encoded_app, encoded_newline; apply (H_cj nl).
  - rewrite !encoded_app, encoded_newline; apply (H_cedict (encoded t) nl), encoded_no; [lia| |exact Nt].
    apply Forall_app in S; destruct S as [_ S]; apply Forall_app in S; apply S.
Qed.
Lemma foreign2 disk h name hd a l b f p : wf h -> fed_in disk name (hd :: a ++ l :: b) -> header f hd -> entry_line f l p -> ~ ASCII (fst p) ->
  (exists h' e, dict_open2 disk h name = (h', Raise e)) /\ (exists h' e, coded_open2 disk h name = (h', Raise e)).
Proof.
  intros W F H E NA.
  destruct (fed_bytes disk name _ F) as [bs [fs [D [B [G SC]]]]].
  inversion G as [|hx ? fs' ? [Nh Xh] G']; subst; inversion SC as [|? ? Sh Sf]; subst; cbn [map] in B.
  destruct (feeds_cut _ fs' a l b G' eq_refl) as [fa [x [fb [-> [Nl Xl]]]]].
  assert (K : forall g ps, header g (encoded hx) -> mapM (parse_line2 g) (map encoded (fa ++ x :: fb)) = Ok ps -> False).
  { intros g ps Hg M.
    assert (Hf : header f hx) by (destruct Xh as [-> | ->]; [exact H|apply header_feed; assumption]).
    pose proof (header_encoded f g hx Hf Sh Hg); subst g; pose proof (header_known f hd H) as Kf.
    assert (P : exists p', parse_line2 f (encoded x) = Ok p').
    { revert M; clear; revert ps; induction fa as [|y fa IH]; intros ps; cbn [app map mapM]; [destruct (parse_line2 f (encoded x)); [eexists; reflexivity|discriminate]|].
      destruct (parse_line2 f (encoded y)); cbn [bind]; [|discriminate]; destruct (mapM (parse_line2 f) _) as [qs|]; [|discriminate]; intros _; exact (IH qs eq_refl). }
    destruct P as [p' P]; apply parse2_inv in P; destruct P as [P [A _]].
    assert (Ex : entry_line f x p) by (destruct Xl as [-> | ->]; [exact E|apply entry_line_feed; assumption]).
    apply NA, (word_ASCII f x p p' Ex); [|apply format_exact; assumption|exact A].
    apply Forall_app in Sf; destruct Sf as [_ Sf]; inversion Sf; assumption. }
  unfold dict_open2, coded_open2; rewrite !(open2_bytes disk h _ name bs D), B; split.
  - destruct (load_dictionary2 h (encoded hx :: map encoded (fa ++ x :: fb))) as [h' [d|e]] eqn:Q; [|eexists _, _; reflexivity].
    exfalso; destruct (load2_words _ _ _ _ _ W Q) as [g [ps [Hg [M _]]]]; exact (K g ps Hg M).
  - destruct (load_coded2 h (encoded hx :: map encoded (fa ++ x :: fb))) as [h' [d|e]] eqn:Q; [|eexists _, _; reflexivity].
    exfalso; destruct (coded2_words _ _ _ _ _ W Q) as [g [ps [Hg [M _]]]]; exact (K g ps Hg M).
Qed.
Lemma distinct_in (l : list str) x : In x (distinct l) -> In x l.
Proof. induction l as [|y l IH]; cbn [distinct]; [intros []|]; intros [->|I]; [left; reflexivity|right; apply IH; apply filter_In in I; apply I]. Qed.
Lemma open2_words disk h name h' b : wf h -> dict_open2 disk h name = (h', Ok b) -> forall w, In w (dkeys b) -> ASCII w.
Proof.
  intros W; unfold dict_open2, open_plain2; destruct (disk name) as [bs|]; [|discriminate]; unfold opened; rewrite run_ok.
  destruct (byte_lines bs) as [|hd ls]; [discriminate|]; intros Q w I; destruct (load2_words _ _ _ _ _ W Q) as [f [ps [_ [_ [K F]]]]].
  rewrite K in I; apply distinct_in in I; apply in_map_iff in I; destruct I as [p [<- Ip]]; exact (proj1 (Forall_forall _ _) F p Ip).
Qed.

(** ** carriage returns under Python 2 *)
Definition crlf (l : str) : str := l ++ [13; 10].
Lemma crlf_cut ls : Forall (Forall (fun c => scalar c /\ ~ any_break c)) ls ->
  Forall scalar (flat_map crlf ls) /\ codec_lines (flat_map crlf ls) = map crlf ls.
Proof.
  intros F; split.
  - induction F as [|l ls L F IH]; [constructor|]; cbn [flat_map]; apply Forall_app; split; [|exact IH]; apply Forall_app; split.
    + eapply Forall_impl; [|exact L]; intros c [S _]; exact S.
    + repeat constructor; unfold scalar; lia.
  - assert (C : cut any_break (flat_map crlf ls) (map (fun l => (l, [13; 10])) ls)).
    { induction F as [|l ls L F IH]; [constructor|]; cbn [flat_map map]; unfold crlf at 1; rewrite <- app_assoc; constructor; [|constructor|exact IH].
      eapply Forall_impl; [|exact L]; intros c [_ N]; exact N. }
    rewrite (coded_lines _ _ C), map_map; reflexivity.
Qed.
Lemma split_on_app c a : forall b, FormatLang_spec.split_on c (a ++ c :: b) = FormatLang_spec.split_on c a ++ FormatLang_spec.split_on c b.
Proof.
  induction a as [|d a IH]; intros b; [apply split_sep|]; cbn [app FormatLang_spec.split_on]; rewrite IH.
  destruct (split_cons c a) as [p [ps ->]]; cbn [app]; destruct (d =? c); reflexivity.
Qed.
Lemma slash_crlf s : slash_senses ((s ++ u "/") ++ [13]) = slash_senses (s ++ u "/") ++ [[13]].
Proof.
  unfold slash_senses; rewrite <- app_assoc; change (u "/" ++ [13]) with (u1 "/" :: [13]); change (u "/") with (u1 "/" :: []); rewrite !split_on_app.
  destruct (split_cons (u1 "/") s) as [p [ps ->]]; cbn [app tl]; rewrite !filter_app; change (FormatLang_spec.split_on (u1 "/") [13]) with [[13]]; cbn [FormatLang_spec.split_on filter nonempty].
  rewrite app_nil_r; reflexivity.
Qed.
Lemma bracketed_crlf close s : closed_by 32 close \/ closed_by 93 close -> bracketed close (s ++ [13]) -> bracketed close s.
Proof.
  intros C [r [t [I E]]]; unfold bracket in E; destruct (@exists_last _ (u "[" ++ r ++ close ++ t)) as [a [x X]]; [discriminate|].
  destruct t as [|y t].
  - exfalso; rewrite app_nil_r in E; destruct C as [[q ->]|[q ->]]; rewrite !app_assoc in E; apply app_inj_tail in E; destruct E as [_ E]; discriminate E.
  - destruct (@exists_last _ (y :: t)) as [t' [z Z]]; [discriminate|]; rewrite Z in E; rewrite !app_assoc in E; apply app_inj_tail in E; destruct E as [-> _].
    exists r, t'; split; [exact I|unfold bracket; rewrite <- !app_assoc; reflexivity].
Qed.
Lemma closed_tail (a s : str) c nl : closed_by c (a ++ s ++ DictFormat_spec.newline nl) -> ~ In 10 (a ++ s ++ DictFormat_spec.newline nl) -> s <> [] -> nl = false /\ closed_by c s.
Proof.
  intros [q E] N M; destruct nl; [exfalso; apply N, in_or_app; right; apply in_or_app; right; left; reflexivity|]; split; [reflexivity|].
  cbn [DictFormat_spec.newline] in E; rewrite app_nil_r in E; destruct (exists_last M) as [b [x ->]]; rewrite app_assoc in E; apply app_inj_tail in E; destruct E as [_ ->]; exists b; reflexivity.
Qed.
Lemma slash_tail_crlf s : closed_by (u1 "/") s -> slash_senses (s ++ [13]) = slash_senses s ++ [[13]].
Proof. intros [q ->]; apply (slash_crlf q). Qed.
Lemma slash_not_nil s : closed_by (u1 "/") s -> slash_senses (s ++ [13]) <> [].
Proof. intros C; rewrite (slash_tail_crlf s C); destruct (slash_senses s); discriminate. Qed.
Lemma no_feed s : ~ In 10 s -> ~ In 10 (s ++ [13]).
Proof. intros N I; apply in_app_or in I; destruct I as [I|[I|[]]]; [exact (N I)|discriminate I]. Qed.
Lemma rest_nil (a q : str) : ~ In 10 (a ++ q) -> q = [] \/ (exists t, q = 10 :: t) -> q = [].
Proof. intros N [->|[t ->]]; [reflexivity|]; exfalso; apply N, in_or_app; right; left; reflexivity. Qed.
Lemma crlf_entry f l p : f = edict \/ f = cedict -> entry_line f l p -> ~ In 10 l -> closed_by (u1 "/") l -> entry_line f (crlf l) (with_sense [13] p).
Proof.
  intros K E N C; unfold crlf, with_sense; destruct E as [w r s nl I Ir F S|w s nl I B F S|w r s nl I Ir F S|w r s xs nl I Ir F S X|t w r s q It I Ir F S Q|t w s q It I B F S Q]; cbn [fst snd].
  - pose proof (slash_nonempty s S) as M.
    assert (Y : w ++ u " " ++ bracket (u "] ") r s ++ DictFormat_spec.newline nl = (w ++ u " " ++ u "[" ++ r ++ u "] ") ++ s ++ DictFormat_spec.newline nl) by (unfold bracket; rewrite <- !app_assoc; reflexivity).
    rewrite Y in *; destruct (closed_tail _ s _ nl C N M) as [-> Cs]; rewrite <- (slash_tail_crlf s Cs).
    replace (((w ++ u " " ++ u "[" ++ r ++ u "] ") ++ s ++ DictFormat_spec.newline false) ++ [13; 10]) with (w ++ u " " ++ bracket (u "] ") r (s ++ [13]) ++ DictFormat_spec.newline true) by (unfold bracket; cbn [DictFormat_spec.newline]; rewrite app_nil_r, <- !app_assoc; reflexivity).
    apply L_edict_reading; [exact I|exact Ir|apply no_feed, F|apply slash_not_nil, Cs].
  - pose proof (slash_nonempty s S) as M; rewrite (app_assoc w) in *; destruct (closed_tail _ s _ nl C N M) as [-> Cs]; rewrite <- (slash_tail_crlf s Cs).
    replace (((w ++ u " ") ++ s ++ DictFormat_spec.newline false) ++ [13; 10]) with (w ++ u " " ++ (s ++ [13]) ++ DictFormat_spec.newline true) by (cbn [DictFormat_spec.newline]; rewrite app_nil_r, <- !app_assoc; reflexivity).
    apply L_edict_plain; [exact I| |apply no_feed, F|apply slash_not_nil, Cs].
    intros X; apply B, (bracketed_crlf (u "] ") s); [left; exists (u "]"); reflexivity|exact X].
  - exfalso; destruct K as [K|K]; apply (f_equal name) in K; discriminate K.
  - exfalso; destruct K as [K|K]; apply (f_equal name) in K; discriminate K.
  - pose proof (slash_nonempty s S) as M.
    assert (Y : t ++ u " " ++ w ++ u " " ++ bracket (u "]") r s ++ q = (t ++ u " " ++ w ++ u " " ++ u "[" ++ r ++ u "]") ++ s ++ q) by (unfold bracket; rewrite <- !app_assoc; reflexivity).
    rewrite Y in *; assert (q = []) by (rewrite app_assoc in N; exact (rest_nil _ q N Q)); subst q.
    destruct (closed_tail _ s _ false C N M) as [_ Cs]; rewrite <- (slash_tail_crlf s Cs).
    replace (((t ++ u " " ++ w ++ u " " ++ u "[" ++ r ++ u "]") ++ s ++ []) ++ [13; 10]) with (t ++ u " " ++ w ++ u " " ++ bracket (u "]") r (s ++ [13]) ++ [10]) by (unfold bracket; rewrite app_nil_r, <- !app_assoc; reflexivity).
    apply L_cedict_reading; [exact It|exact I|exact Ir|apply no_feed, F|apply slash_not_nil, Cs|right; exists []; reflexivity].
  - pose proof (slash_nonempty s S) as M.
    assert (Y : t ++ u " " ++ w ++ u " " ++ s ++ q = (t ++ u " " ++ w ++ u " ") ++ s ++ q) by (rewrite <- !app_assoc; reflexivity).
    rewrite Y in *; assert (q = []) by (rewrite app_assoc in N; exact (rest_nil _ q N Q)); subst q.
    destruct (closed_tail _ s _ false C N M) as [_ Cs]; rewrite <- (slash_tail_crlf s Cs).
    replace (((t ++ u " " ++ w ++ u " ") ++ s ++ []) ++ [13; 10]) with (t ++ u " " ++ w ++ u " " ++ (s ++ [13]) ++ [10]) by (rewrite app_nil_r, <- !app_assoc; reflexivity).
    apply L_cedict_plain; [exact It|exact I| |apply no_feed, F|apply slash_not_nil, Cs|right; exists []; reflexivity].
    intros X; apply (proj1 (bracketed_tail (s ++ [13]))), bracketed_crlf in X; [apply B; rewrite app_nil_r; exact X|right; exists []; reflexivity].
Qed.
Lemma header_crlf f hd : header f hd -> ~ In 10 hd -> (f = edict \/ f = cedict -> header f (crlf hd)) /\ (f = jc_kdic \/ f = cj_kdic -> forall g, ~ header g (crlf hd)).
Proof.
  assert (X : forall a nl, ~ In 10 (a ++ DictFormat_spec.newline nl) -> nl = false) by (intros a [|] N; [exfalso; apply N, in_or_app; right; left; reflexivity|reflexivity]).
  intros H N; split; intros K; unfold crlf; destruct H as [c t nl Nc Nt|nl|nl|t nl Nt]; try (exfalso; destruct K as [K|K]; apply (f_equal name) in K; discriminate K).
  - rewrite (app_assoc (u "？？？")), app_comm_cons in N; rewrite (X _ nl N).
    replace ((c :: u "？？？" ++ t ++ DictFormat_spec.newline false) ++ [13; 10]) with (c :: u "？？？" ++ (t ++ [13]) ++ DictFormat_spec.newline true) by (cbn [DictFormat_spec.newline]; rewrite app_nil_r; cbn [app]; rewrite <- !app_assoc; reflexivity).
    apply H_edict; [exact Nc|apply no_feed, Nt].
  - rewrite (app_assoc (u "# CEDICT")) in N; rewrite (X _ nl N).
    replace ((u "# CEDICT" ++ t ++ DictFormat_spec.newline false) ++ [13; 10]) with (u "# CEDICT" ++ (t ++ [13]) ++ DictFormat_spec.newline true) by (cbn [DictFormat_spec.newline]; rewrite app_nil_r, <- !app_assoc; reflexivity).
    apply H_cedict, no_feed, Nt.
  - rewrite (X _ nl N); intros g H; inversion H as [| [|]| [|]|]; subst; discriminate.
  - rewrite (X _ nl N); intros g H; inversion H as [| [|]| [|]|]; subst; discriminate.
Qed.
Lemma crlf_clean ls : Forall (Forall (fun c => scalar c /\ ~ any_break c)) ls -> Forall (fun l => ~ In 10 l) ls.
Proof.
  intros F; eapply Forall_impl; [|exact F]; intros l L I; pose proof (proj1 (Forall_forall _ _) L 10 I) as [_ B]; apply B; left; left; reflexivity.
Qed.
Lemma crlf_load disk stdin given h name hd ls f ps : wf h -> name <> u "-" -> crlf_in disk name (hd :: ls) -> header f hd -> f = edict \/ f = cedict ->
  Forall2 (entry_line f) ls ps -> Forall (closed_by (u1 "/")) ls ->
  exists h' b, dict_sopen2 disk stdin given h name = (h', Ok b) /\ dkeys b = distinct (map fst ps) /\
    forall w e, dget w b = Some e -> wd h' e = w /\ pairs h' e = pairs_for w (map (with_sense [13]) ps).
Proof.
  intros W NN [D L] H K E C; destruct (crlf_cut _ L) as [S X]; rewrite (sopen2_codec disk stdin given h name _ D S NN); unfold crlf in X at 1; rewrite X; cbn [map].
  pose proof (crlf_clean _ L) as N; inversion N as [|? ? Nh Nl]; subst.
  pose proof (load_spec h (crlf hd) (map crlf ls) f W (proj1 (header_crlf f hd H Nh) K)) as P.
  assert (M : mapM (parse_line f) (map crlf ls) = Ok (map (with_sense [13]) ps)).
  { apply file_exact; [apply (header_known f hd H)|]; clear - E C K Nl; induction E as [|l p ls ps E F IH]; [constructor|].
    inversion C; inversion Nl; subst; cbn [map]; constructor; [apply crlf_entry; assumption|apply IH; assumption]. }
  rewrite M in P; destruct P as [h' [b [Q [_ [Kb [G _]]]]]]; exists h', b; split; [exact Q|split; [rewrite Kb, map_map; reflexivity|]].
  intros w e B; destruct (G w e B) as [_ R]; exact R.
Qed.
Lemma crlf_kdic disk stdin given h name hd ls f : name <> u "-" -> crlf_in disk name (hd :: ls) -> header f hd -> f = jc_kdic \/ f = cj_kdic ->
  dict_sopen2 disk stdin given h name = (h, Raise UnknownFormatError).
Proof.
  intros NN [D L] H K; destruct (crlf_cut _ L) as [S X]; rewrite (sopen2_codec disk stdin given h name _ D S NN); unfold crlf in X at 1; rewrite X; cbn [map].
  pose proof (crlf_clean _ L) as N; inversion N as [|? ? Nh Nl]; subst; apply load_bad_header, (proj2 (header_crlf f hd H Nh) K).
Qed.

(** ** byte order marks *)
Lemma bom_edict hd : header edict (bom :: hd) <-> exists t nl, hd = u "？？？" ++ t ++ DictFormat_spec.newline nl /\ ~ In 10 t.
Proof.
  split.
  - intros H; inversion H; subst; eexists _, _; split; [reflexivity|assumption].
  - intros [t [nl [-> N]]]; apply H_edict; [discriminate|exact N].
Qed.
Lemma bom_only g hd : header g (bom :: hd) -> g = edict.
Proof. intros H; inversion H; reflexivity. Qed.
Lemma bom_header f hd : header f hd ->
  ((exists q, hd = u "？？？" ++ q) -> f = edict /\ header edict (bom :: hd)) /\ (~ (exists q, hd = u "？？？" ++ q) -> forall g, ~ header g (bom :: hd)).
Proof.
  intros H; split.
  - intros [q E]; destruct H as [c t nl Nc Nt|nl|nl|t nl Nt]; [|discriminate E|discriminate E|discriminate E]; split; [reflexivity|].
    injection E as -> E; apply bom_edict; exists (u "？" ++ t), nl; split; [reflexivity|].
    intros I; apply in_app_or in I; destruct I as [[I|[]]|I]; [discriminate I|exact (Nt I)].
  - intros N g Hg; pose proof (bom_only g hd Hg); subst g; apply bom_edict in Hg; destruct Hg as [t [nl [-> _]]]; apply N; eexists; reflexivity.
Qed.
Lemma detect_some f hd : header f hd -> detect_format hd = Ok f.
Proof. intros H; destruct (detect_in known_formats hd (fun g => iff_refl _)) as [D _]; apply D, H. Qed.
Lemma bom_load h hd ls f : header f hd ->
  ((exists q, hd = u "？？？" ++ q) -> load_dictionary h ((bom :: hd) :: ls) = load_dictionary h (hd :: ls) /\ load_coded_dictionary h ((bom :: hd) :: ls) = load_coded_dictionary h (hd :: ls)) /\
  (~ (exists q, hd = u "？？？" ++ q) -> load_dictionary h ((bom :: hd) :: ls) = (h, Raise UnknownFormatError) /\ load_coded_dictionary h ((bom :: hd) :: ls) = (h, Raise UnknownFormatError)).
Proof.
  intros H; destruct (bom_header f hd H) as [A B]; unfold load_dictionary, load_coded_dictionary; split; intros X.
  - destruct (A X) as [-> Hb]; rewrite (detect_some edict hd H), (detect_some edict _ Hb); split; reflexivity.
  - rewrite (detect_none _ (B X)); split; reflexivity.
Qed.
