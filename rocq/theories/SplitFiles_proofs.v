From Verif Require Import Base PyText PyFmt Maps_model Common_model Bilingual_model Bilingual_spec Regex DictFormat_model DictFormat_spec DictFormat_proofs FormatLang_spec FormatLang_proofs SplitCodes_model SplitCodes_spec SplitCodes_proofs SplitFiles_model.
From Verif Require Files_spec Files_proofs.

(** ** a final line feed makes no difference *)
Lemma last_app (a b c : str) x y : a ++ x :: b = c ++ [y] -> (b = [] /\ x = y /\ a = c) \/ exists b', b = b' ++ [y] /\ c = a ++ x :: b'.
Proof.
  destruct b as [|z b] using rev_ind; intros E.
  - left; apply app_inj_tail in E; destruct E as [-> ->]; repeat split.
  - right; exists b; rewrite app_comm_cons, app_assoc in E; apply app_inj_tail in E; destruct E as [<- <-]; split; reflexivity.
Qed.
Lemma newline_cases nl : newline nl = [] \/ newline nl = [10].
Proof. destruct nl; [right|left]; reflexivity. Qed.
Lemma tail_cases (x s l : str) nl : x ++ s ++ newline nl = l ++ [10] -> ~ In 10 s -> s <> [] -> nl = true /\ l = x ++ s.
Proof.
  intros E N S; destruct nl; cbn [newline] in E.
  - rewrite app_assoc in E; apply app_inj_tail in E; destruct E as [E _]; split; [reflexivity|symmetry; exact E].
  - exfalso; rewrite app_nil_r in E; destruct s as [|c s] using rev_ind; [apply S; reflexivity|].
    rewrite app_assoc in E; apply app_inj_tail in E; destruct E as [_ ->]; apply N; rewrite in_app_iff; right; left; reflexivity.
Qed.
Lemma tail_rest (x s l rest : str) : x ++ s ++ rest = l ++ [10] -> ~ In 10 s -> s <> [] -> ~ In 10 l -> (rest = [] \/ exists t, rest = 10 :: t) ->
  rest = [10] /\ l = x ++ s.
Proof.
  intros E N S L [-> |[t ->]].
  - exfalso; rewrite app_nil_r in E; destruct s as [|c s] using rev_ind; [apply S; reflexivity|].
    rewrite app_assoc in E; apply app_inj_tail in E; destruct E as [_ ->]; apply N; rewrite in_app_iff; right; left; reflexivity.
  - rewrite app_assoc in E; apply last_app in E; destruct E as [[-> [_ E]]|[b [-> E]]]; [split; [reflexivity|symmetry; exact E]|].
    exfalso; apply L; rewrite E, in_app_iff; right; left; reflexivity.
Qed.
Lemma slash_nonempty s : slash_senses s <> [] -> s <> [].
Proof. intros H ->; apply H; reflexivity. Qed.
Lemma comma_nonempty s : comma_senses s <> [] -> s <> [].
Proof. intros H ->; apply H; reflexivity. Qed.
Lemma bs_nonempty s xs : bs_senses s xs -> xs <> [] -> s <> [].
Proof.
  intros B X ->; remember [] as t eqn:T; destruct B as [|s xs B|p x I U|p x s xs I U B|p x s xs I U B N]; [congruence| | | |].
  - discriminate T.
  - destruct I as [I _]; contradiction.
  - apply app_eq_nil in T; destruct T as [_ T]; discriminate T.
  - apply app_eq_nil in T; destruct T as [_ T]; discriminate T.
Qed.
Lemma bracketed_tail s : bracketed (u "]") (s ++ [10]) <-> bracketed (u "]") s.
Proof.
  split; intros [r [t [I E]]].
  - unfold bracket in E; change (u "]") with [u1 "]"] in E; cbn [app] in E; symmetry in E.
    rewrite app_assoc in E; apply last_app in E; destruct E as [[_ [E _]]|[b [-> ->]]]; [discriminate E|].
    exists r, b; split; [exact I|]; rewrite <- app_assoc; reflexivity.
  - exists r, (t ++ [10]); split; [exact I|]; rewrite E; unfold bracket; rewrite <- !app_assoc; reflexivity.
Qed.
Lemma entry_line_feed f l p : ~ In 10 l -> entry_line f (l ++ [10]) p <-> entry_line f l p.
Proof.
  intros L; split; intros H.
  - remember (l ++ [10]) as line eqn:E; destruct H as [w r s nl Iw Ir N S|w s nl Iw B N S|w r s nl Iw Ir N S|w r s xs nl Iw Ir N B X|t w r s rest It Iw Ir N S R|t w s rest It Iw B N S R].
    + replace (w ++ u " " ++ bracket (u "] ") r s ++ newline nl) with ((w ++ u " " ++ bracket (u "] ") r []) ++ s ++ newline nl) in E
        by (unfold bracket; rewrite <- !app_assoc; cbn [app]; rewrite <- ?app_assoc; reflexivity).
      apply tail_cases in E; [|exact N|apply slash_nonempty, S]; destruct E as [_ ->].
      pose proof (L_edict_reading w r s false Iw Ir N S) as H; cbn [newline] in H; rewrite app_nil_r in H.
      unfold bracket in *; rewrite <- !app_assoc; cbn [app] in *; rewrite <- ?app_assoc; exact H.
    + rewrite app_assoc in E; apply tail_cases in E; [|exact N|apply slash_nonempty, S]; destruct E as [_ ->].
      pose proof (L_edict_plain w s false Iw B N S) as H; cbn [newline] in H; rewrite app_nil_r in H; rewrite <- app_assoc; exact H.
    + replace (w ++ u " [" ++ r ++ u "]" ++ [9] ++ s ++ newline nl) with ((w ++ u " [" ++ r ++ u "]" ++ [9]) ++ s ++ newline nl) in E
        by (rewrite <- !app_assoc; reflexivity).
      apply tail_cases in E; [|exact N|apply comma_nonempty, S]; destruct E as [_ ->].
      pose proof (L_jc w r s false Iw Ir N S) as H; cbn [newline] in H; rewrite app_nil_r in H; rewrite <- !app_assoc; exact H.
    + replace (w ++ [9] ++ r ++ u "\n" ++ s ++ newline nl) with ((w ++ [9] ++ r ++ u "\n") ++ s ++ newline nl) in E
        by (rewrite <- !app_assoc; reflexivity).
      apply tail_cases in E; [|exact N|apply (bs_nonempty s xs B X)]; destruct E as [_ ->].
      pose proof (L_cj w r s xs false Iw Ir N B X) as H; cbn [newline] in H; rewrite app_nil_r in H; rewrite <- !app_assoc; exact H.
    + replace (t ++ u " " ++ w ++ u " " ++ bracket (u "]") r s ++ rest) with ((t ++ u " " ++ w ++ u " " ++ bracket (u "]") r []) ++ s ++ rest) in E
        by (unfold bracket; rewrite <- !app_assoc; cbn [app]; rewrite <- ?app_assoc; reflexivity).
      apply tail_rest in E; [|exact N|apply slash_nonempty, S|exact L|exact R]; destruct E as [_ ->].
      pose proof (L_cedict_reading t w r s [] It Iw Ir N S (or_introl eq_refl)) as H; rewrite app_nil_r in H.
      unfold bracket in *; rewrite <- !app_assoc; cbn [app] in *; rewrite <- ?app_assoc; exact H.
    + replace (t ++ u " " ++ w ++ u " " ++ s ++ rest) with ((t ++ u " " ++ w ++ u " ") ++ s ++ rest) in E by (rewrite <- !app_assoc; reflexivity).
      apply tail_rest in E; [|exact N|apply slash_nonempty, S|exact L|exact R]; destruct E as [-> ->].
      rewrite bracketed_tail in B.
      assert (B' : ~ bracketed (u "]") (s ++ [])) by (rewrite app_nil_r; exact B).
      pose proof (L_cedict_plain t w s [] It Iw B' N S (or_introl eq_refl)) as H; rewrite app_nil_r in H; rewrite <- !app_assoc; exact H.
  - destruct H as [w r s nl Iw Ir N S|w s nl Iw B N S|w r s nl Iw Ir N S|w r s xs nl Iw Ir N B X|t w r s rest It Iw Ir N S R|t w s rest It Iw B N S R].
    + destruct nl; [elim L; rewrite !in_app_iff; cbn [newline In]; tauto|]; cbn [newline]; rewrite app_nil_r.
      pose proof (L_edict_reading w r s true Iw Ir N S) as H; cbn [newline] in H; rewrite <- !app_assoc; exact H.
    + destruct nl; [elim L; rewrite !in_app_iff; cbn [newline In]; tauto|]; cbn [newline]; rewrite app_nil_r.
      pose proof (L_edict_plain w s true Iw B N S) as H; cbn [newline] in H; rewrite <- !app_assoc; exact H.
    + destruct nl; [elim L; rewrite !in_app_iff; cbn [newline In]; tauto|]; cbn [newline]; rewrite app_nil_r.
      pose proof (L_jc w r s true Iw Ir N S) as H; cbn [newline] in H; rewrite <- !app_assoc; exact H.
    + destruct nl; [elim L; rewrite !in_app_iff; cbn [newline In]; tauto|]; cbn [newline]; rewrite app_nil_r.
      pose proof (L_cj w r s xs true Iw Ir N B X) as H; cbn [newline] in H; rewrite <- !app_assoc; exact H.
    + destruct R as [-> |[q ->]]; [|elim L; rewrite !in_app_iff; cbn [In]; tauto]; rewrite app_nil_r.
      pose proof (L_cedict_reading t w r s [10] It Iw Ir N S (or_intror (ex_intro _ [] eq_refl))) as H; rewrite <- !app_assoc; exact H.
    + destruct R as [-> |[q ->]]; [|elim L; rewrite !in_app_iff; cbn [In]; tauto]; rewrite app_nil_r.
      rewrite app_nil_r, <- bracketed_tail in B.
      pose proof (L_cedict_plain t w s [10] It Iw B N S (or_intror (ex_intro _ [] eq_refl))) as H; rewrite <- !app_assoc; exact H.
Qed.
Lemma parse_line_feed f l : In f known_formats -> ~ In 10 l -> parse_line f (l ++ [10]) = parse_line f l.
Proof.
  intros K N; destruct (parse_line f l) as [p|e] eqn:E.
  - apply format_exact; [exact K|]; apply entry_line_feed; [exact N|]; apply format_exact; assumption.
  - pose proof (parse_line_error f l e K E) as X; subst e; apply rejects; [exact K|]; intros p H; apply (proj1 (rejects f l K) E p).
    apply entry_line_feed; assumption.
Qed.
Lemma header_feed f l : ~ In 10 l -> header f (l ++ [10]) <-> header f l.
Proof.
  intros L; split; intros H.
  - remember (l ++ [10]) as line eqn:E; destruct H as [c t nl C T|nl|nl|t nl T].
    + destruct nl; cbn [newline] in E.
      * rewrite app_assoc, app_comm_cons in E; apply app_inj_tail in E; destruct E as [<- _].
        pose proof (H_edict c t false C T) as H; cbn [newline] in H; rewrite app_nil_r in H; exact H.
      * exfalso; rewrite app_nil_r in E; assert (I : In 10 (c :: u "？？？" ++ t)) by (rewrite E, in_app_iff; right; left; reflexivity).
        destruct I as [I|I]; [congruence|]; apply in_app_or in I; destruct I as [I|I]; [vm_compute in I; intuition discriminate|contradiction].
    + destruct nl; cbn [newline] in E; [apply app_inj_tail in E; destruct E as [<- _]; exact (H_jc false)|].
      exfalso; assert (I : In 10 (u "FORMAT jc_kdic" ++ [])) by (rewrite E, in_app_iff; right; left; reflexivity).
      vm_compute in I; intuition discriminate.
    + destruct nl; cbn [newline] in E; [apply app_inj_tail in E; destruct E as [<- _]; exact (H_cj false)|].
      exfalso; assert (I : In 10 (u "FORMAT cj_kdic" ++ [])) by (rewrite E, in_app_iff; right; left; reflexivity).
      vm_compute in I; intuition discriminate.
    + destruct nl; cbn [newline] in E.
      * rewrite app_assoc in E; apply app_inj_tail in E; destruct E as [<- _].
        pose proof (H_cedict t false T) as H; cbn [newline] in H; rewrite app_nil_r in H; exact H.
      * exfalso; rewrite app_nil_r in E; assert (I : In 10 (u "# CEDICT" ++ t)) by (rewrite E, in_app_iff; right; left; reflexivity).
        apply in_app_or in I; destruct I as [I|I]; [vm_compute in I; intuition discriminate|contradiction].
  - destruct H as [c t nl C T|nl|nl|t nl T]; (destruct nl; [elim L; cbn [newline]; rewrite ?in_app_iff; cbn [In]; rewrite ?in_app_iff; cbn [In]; tauto|]; cbn [newline]; rewrite ?app_nil_r).
    + pose proof (H_edict c t true C T) as H; cbn [newline] in H; cbn [app]; rewrite <- app_assoc; exact H.
    + exact (H_jc true).
    + exact (H_cj true).
    + pose proof (H_cedict t true T) as H; cbn [newline] in H; rewrite <- app_assoc; exact H.
Qed.
Lemma detect_feed l : ~ In 10 l -> detect_format (l ++ [10]) = detect_format l.
Proof.
  intros N; unfold detect_format.
  destruct (detect_in known_formats l (fun g => iff_refl _)) as [D U].
  destruct (detect_in known_formats (l ++ [10]) (fun g => iff_refl _)) as [D' U'].
  destruct (detect_format_in known_formats (l ++ [10])) as [f|e] eqn:E.
  - symmetry; apply D, header_feed; [exact N|]; apply D', eq_refl.
  - destruct (detect_format_in known_formats l) as [f|e'] eqn:E'.
    + assert (H : header f (l ++ [10])) by (apply header_feed; [exact N|]; apply D, eq_refl); apply D' in H; discriminate H.
    + assert (X : forall fs x e, detect_format_in fs x = Raise e -> e = UnknownFormatError).
      { induction fs as [|g fs IH]; intros x e0; cbn [detect_format_in]; [congruence|]; destruct (match_header g x); [discriminate|apply IH]. }
      rewrite (X _ _ _ E), (X _ _ _ E'); reflexivity.
Qed.

(** ** whole files *)
Definition feeds (ls bs : list str) : Prop := Forall2 (fun a l => ~ In 10 l /\ (a = l \/ a = l ++ [10])) ls bs.
Lemma cut_feeds c ps : Files_spec.cut Files_spec.newline c ps -> feeds (file_lines c) (map fst ps).
Proof.
  intros C; rewrite (Files_proofs.text_lines c ps C); induction C as [|l N F|l e r ps F E C IH]; cbn [map]; [constructor| |].
  - constructor; [|constructor]; unfold Files_spec.fed; cbn [fst snd]; split; [|left; apply app_nil_r].
    intros I; rewrite Forall_forall in F; apply (F 10 I); left; reflexivity.
  - constructor; [|exact IH]; unfold Files_spec.fed; cbn [fst snd]; split.
    + intros I; rewrite Forall_forall in F; apply (F 10 I); left; reflexivity.
    + right; destruct E; reflexivity.
Qed.
Lemma feeds_parse f ls bs : In f known_formats -> feeds ls bs -> Forall2 (fun a b => parse_line f a = parse_line f b) ls bs.
Proof.
  intros K; induction 1 as [|a l ls bs [N [-> | ->]] F IH]; constructor; try exact IH; [reflexivity|apply parse_line_feed; assumption].
Qed.
Lemma load_lines_same parse ls bs : Forall2 (fun a b => parse a = parse b) ls bs -> forall h we cd, load_lines parse h we cd ls = load_lines parse h we cd bs.
Proof.
  induction 1 as [|a b ls bs E F IH]; intros h we cd; [reflexivity|]; cbn [load_lines]; rewrite E; destruct (parse b) as [p|]; [|reflexivity].
  destruct (build_entry h p) as [h1 [e|]]; [|reflexivity]; cbv zeta.
  destruct (match dget (word (entry_at h1 e)) we with Some e0 => _ | None => _ end) as [[[h2 o] e2] we2]; destruct o; [apply IH|reflexivity].
Qed.
Lemma parse_lines_same parse ls bs : Forall2 (fun a b => parse a = parse b) ls bs -> forall h d, parse_lines parse h d ls = parse_lines parse h d bs.
Proof.
  induction 1 as [|a b ls bs E F IH]; intros h d; [reflexivity|]; cbn [parse_lines]; rewrite E; destruct (parse b) as [p|]; [|reflexivity].
  destruct (build_entry h p) as [h1 [e|]]; [|reflexivity]; destruct (dget (word (entry_at h1 e)) d) as [old|]; [|apply IH].
  destruct (entry_update h1 old e) as [h2 [|]]; [apply IH|reflexivity].
Qed.
Lemma iter_lines_same parse ls bs : Forall2 (fun a b => parse a = parse b) ls bs -> forall h, iter_lines parse h ls = iter_lines parse h bs.
Proof.
  induction 1 as [|a b ls bs E F IH]; intros h; [reflexivity|]; cbn [iter_lines]; rewrite E; destruct (parse b) as [p|]; [|reflexivity].
  destruct (build_entry h p) as [h1 [e|]]; [|reflexivity]; rewrite IH; reflexivity.
Qed.
Lemma detect_known hd f : detect_format hd = Ok f -> In f known_formats.
Proof.
  unfold detect_format; generalize known_formats as fs; induction fs as [|g fs IH]; cbn [detect_format_in]; [discriminate|].
  destruct (match_header g hd); [intros [= <-]; left; reflexivity|intros H; right; apply IH, H].
Qed.
Lemma dictionary_feeds h ls bs : feeds ls bs ->
  load_dictionary h ls = load_dictionary h bs /\ iter_entries h ls = iter_entries h bs /\
  load_coded_dictionary h ls = load_coded_dictionary h bs /\ iter_coded_entries h ls = iter_coded_entries h bs.
Proof.
  assert (G : load_dictionary h ls = load_dictionary h bs /\ iter_entries h ls = iter_entries h bs /\ load_coded_dictionary h ls = load_coded_dictionary h bs ->
    load_dictionary h ls = load_dictionary h bs /\ iter_entries h ls = iter_entries h bs /\
    load_coded_dictionary h ls = load_coded_dictionary h bs /\ iter_coded_entries h ls = iter_coded_entries h bs).
  { intros [A [B C]]; split; [exact A|split; [exact B|split; [exact C|]]]; unfold iter_coded_entries; rewrite B; reflexivity. }
  intros F; apply G; clear G; destruct F as [|a l ls bs [N X] F]; [repeat split|].
  assert (E : detect_format a = detect_format l) by (destruct X as [-> | ->]; [reflexivity|apply detect_feed, N]).
  unfold load_dictionary, iter_entries, load_coded_dictionary; rewrite E; destruct (detect_format l) as [f|] eqn:D; [|repeat split].
  pose proof (feeds_parse f ls bs (detect_known l f D) F) as P.
  split; [apply parse_lines_same, P|split; [apply iter_lines_same, P|apply load_lines_same, P]].
Qed.
Lemma dictionary_same h c c' : Files_spec.same_lines c c' ->
  load_dictionary h (file_lines c) = load_dictionary h (file_lines c') /\
  iter_entries h (file_lines c) = iter_entries h (file_lines c') /\
  load_coded_dictionary h (file_lines c) = load_coded_dictionary h (file_lines c') /\
  iter_coded_entries h (file_lines c) = iter_coded_entries h (file_lines c').
Proof.
  intros [ps [ps' [C [C' E]]]]; apply cut_feeds in C; apply cut_feeds in C'; rewrite <- E in C'.
  destruct (dictionary_feeds h _ _ C) as [A1 [A2 [A3 A4]]]; destruct (dictionary_feeds h _ _ C') as [B1 [B2 [B3 B4]]].
  split; [|split; [|split]]; congruence.
Qed.

(** ** sources *)
Lemma path_source content h name w c : content name = Some c -> (forall j, is_open w j = true -> (j < next_id w)%nat) ->
  exists w', load_coded_source content h (Path name) w = (w', Ok (load_coded_dictionary h (file_lines c))) /\
    forall j, is_open w' j = is_open w j.
Proof.
  intros E W; unfold load_coded_source; rewrite E; unfold open_new; cbn [fst]; unfold with_stmt; cbn [enter].
  unfold is_open at 1; cbn [opened]; rewrite (proj2 (mem_In _ _)) by (left; reflexivity).
  eexists; split; [reflexivity|]; intros j; cbn [exit]; unfold close, is_open; cbn [opened filter].
  rewrite Nat.eqb_refl; cbn [negb]; destruct (mem j (opened w)) eqn:M.
  - apply mem_In, filter_In; split; [apply mem_In, M|]; apply W in M; apply negb_true_iff, Nat.eqb_neq; lia.
  - apply mem_false in M; apply mem_false; intros H; apply filter_In in H; apply M, H.
Qed.
Lemma missing_source content h name w : content name = None -> load_coded_source content h (Path name) w = (w, Raise OSError).
Proof. intros E; unfold load_coded_source; rewrite E; reflexivity. Qed.
Lemma stream_source content h i lines w : load_coded_source content h (Stream i lines) w = (w, Ok (load_coded_dictionary h lines)).
Proof. reflexivity. Qed.

(** ** file names *)
Lemma one_char f c : ~ header f [c].
Proof.
  intros H; remember [c] as l eqn:E; destruct H as [d t nl D T|nl|nl|t nl T]; try discriminate E.
Qed.
Lemma name_source h name : iter_coded_name h name = (h, ([], Raise (match name with [] => RuntimeError | _ => UnknownFormatError end))).
Proof.
  unfold iter_coded_name; destruct name as [|c name]; [reflexivity|]; cbn [map]; unfold iter_coded_entries, iter_entries.
  destruct (detect_in known_formats [c] (fun g => iff_refl _)) as [_ U]; unfold detect_format.
  rewrite (proj2 U) by (intros f; apply one_char); reflexivity.
Qed.

(** ** lookups *)
Lemma dd_getitem_spec c d : fst (dd_getitem c d) = match dget c d with Some _ => d | None => dset c [] d end /\ snd (dd_getitem c d) = words_of d c.
Proof. unfold dd_getitem, words_of; destruct (dget c d); split; reflexivity. Qed.
Lemma dd_getitem_words c d x : words_of (fst (dd_getitem c d)) x = words_of d x.
Proof.
  unfold dd_getitem; destruct (dget c d) eqn:E; [reflexivity|]; cbn [fst]; unfold words_of; rewrite dget_dset.
  destruct (eqb_spec x c) as [->|_]; [rewrite E; reflexivity|reflexivity].
Qed.
Lemma dd_getitem_keys c d x : In x (dkeys (fst (dd_getitem c d))) <-> In x (dkeys d) \/ x = c.
Proof.
  unfold dd_getitem; destruct (dget c d) eqn:E; cbn [fst].
  - split; [left; assumption|intros [H| ->]; [exact H|]]; apply dget_In in E; apply in_map_iff; eexists; split; [|exact E]; reflexivity.
  - rewrite In_dkeys_dset; tauto.
Qed.
Lemma dd_getitems_spec cs : forall d, exists d', dd_getitems cs d = (d', map (words_of d) cs) /\
  (forall c, words_of d' c = words_of d c) /\ forall c, In c (dkeys d') <-> In c (dkeys d) \/ In c cs.
Proof.
  induction cs as [|c cs IH]; intros d; [exists d; cbn [In dd_getitems map]; split; [reflexivity|split; [reflexivity|tauto]]|]; cbn [dd_getitems map].
  pose proof (dd_getitem_words c d) as W; pose proof (dd_getitem_keys c d) as K; destruct (dd_getitem_spec c d) as [_ S].
  destruct (dd_getitem c d) as [d1 m]; cbn [fst snd] in *; subst m; destruct (IH d1) as [d' [E [W' K']]]; rewrite E.
  exists d'; split; [f_equal; f_equal; apply map_ext, W|split].
  - intros x; rewrite W'; apply W.
  - intros x; rewrite K', K; cbn [In]; intuition congruence.
Qed.
Lemma coded_answers h hd lines f ps : wf h -> header f hd -> mapM (parse_line f) lines = Ok ps ->
  exists h' cd, load_coded_dictionary h (hd :: lines) = (h', Ok cd) /\
    forall cs, exists cd', dd_getitems cs cd = (cd', map (words_of cd) cs) /\
      (forall c w, (exists e, dget w (words_of cd c) = Some e) <-> carried ps w c) /\
      (forall c w e, dget w (words_of cd c) = Some e -> wd h' e = w /\ pairs h' e = pairs_for w ps) /\
      (forall c, words_of cd' c = words_of cd c) /\
      forall c, In c (dkeys cd') <-> In c (dkeys cd) \/ In c cs.
Proof.
  intros W H M; pose proof (load_coded_spec h hd lines f W H) as L; rewrite M in L.
  destruct L as [h' [b [cd [E [W' [K [D S]]]]]]]; exists h', cd; split; [exact E|]; intros cs.
  destruct (dd_getitems_spec cs cd) as [cd' [G [A B]]]; exists cd'; split; [exact G|].
  assert (X : forall c w, dget w (words_of cd c) = lookup2 c w cd) by (intros c w; unfold words_of, lookup2; destruct (dget c cd); reflexivity).
  split; [|split; [|split; [exact A|exact B]]].
  - intros c w; rewrite X; split.
    + intros [e G']; apply S in G'; apply G'.
    + intros C; destruct (dget w b) as [e|] eqn:F; [exists e; apply S; split; assumption|exfalso].
      assert (I : In w (dkeys b)) by (rewrite K; destruct C as [p [s [I [<- _]]]]; rewrite <- Bilingual_proofs.set_of_distinct, Base.In_set_of; apply in_map, I).
      apply dget_None in F; contradiction.
  - intros c w e G'; rewrite X in G'; apply S in G'; destruct G' as [G' _]; destruct (D w e G') as [_ Y]; exact Y.
Qed.
Lemma coded_lines_ok h hd lines f ps : wf h -> header f hd -> mapM (parse_line f) lines = Ok ps ->
  exists h', iter_coded_entries h (hd :: lines) =
      (h', (map (fun e => (e, codes_of (sn h' e))) (seq (length (entries h)) (length ps)), Ok tt)) /\
    forall i p, nth_error ps i = Some p -> let e := (length (entries h) + i)%nat in
      (wd h' e, (rd h' e, sn h' e)) = p /\ forall c, In c (codes_of (sn h' e)) <-> exists s, In s (snd (snd p)) /\ carries s c.
Proof.
  intros W H M; destruct (iter_coded h hd lines f W H) as [h' [o [qs [E [V R]]]]]; destruct o as [[]|e].
  - rewrite M in R; injection R as <-; exists h'; split; [exact E|exact V].
  - destruct R as [a [x [b [-> [A X]]]]]; exfalso; clear -M X; revert ps M; induction a as [|y a IH]; intros ps M; cbn [app mapM] in M.
    + rewrite X in M; discriminate M.
    + destruct (parse_line f y); cbn [bind] in M; [|discriminate M]; destruct (mapM (parse_line f) (a ++ x :: b)) as [zs|]; [apply (IH zs eq_refl)|discriminate M].
Qed.
