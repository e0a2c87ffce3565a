From Verif Require Import Base PyStr PyText PyFmt Maps_model Common_model Csv_model Tatoeba_model Kanjidic_model Kanjidic_proofs Radk_model Pinyin_model Rose Place_model Place_spec Place_proofs Files_model Files_spec.

(** ** Cutting *)
Lemma fed_from l : forall cur s, Forall (fun c => ~ newline c) l -> lines_from cur (l ++ s) = lines_from (rev l ++ cur) s.
Proof.
  induction l as [|c l IH]; intros cur s F; [reflexivity|]; inversion F as [|? ? N F']; subst; cbn [app lines_from rev].
  destruct (Z.eqb_spec c 10); [elim N; left; assumption|]; destruct (Z.eqb_spec c 13); [elim N; right; assumption|].
  rewrite IH by exact F'; rewrite <- app_assoc; reflexivity.
Qed.
Lemma text_lines c ps : cut newline c ps -> file_lines c = map fed ps.
Proof.
  unfold file_lines; induction 1 as [|l N F|l e r ps F E H IH]; [reflexivity| |].
  - rewrite <- (app_nil_r l) at 1; rewrite fed_from by exact F; cbn [lines_from map]; unfold fed; cbn [fst snd]; rewrite !app_nil_r.
    destruct (rev l) eqn:R; [apply (f_equal (@rev Z)) in R; rewrite rev_involutive in R; contradiction|].
    rewrite <- R, rev_involutive; reflexivity.
  - rewrite fed_from by exact F; rewrite app_nil_r; cbn [map]; rewrite <- IH; unfold fed; cbn [fst snd].
    destruct E as [r|c r B N].
    + cbn [app lines_from Z.eqb Pos.eqb rev]; rewrite rev_involutive; reflexivity.
    + cbn [app]; destruct B as [-> | ->]; cbn [lines_from Z.eqb Pos.eqb].
      * cbn [rev]; rewrite rev_involutive; reflexivity.
      * destruct r as [|d r]; [cbn [rev]; rewrite rev_involutive; reflexivity|].
        destruct (Z.eqb_spec d 10) as [->|_]; [elim (N eq_refl r eq_refl)|]; cbn [rev]; rewrite rev_involutive; reflexivity.
Qed.
Lemma linebreak_spec c : linebreak c = true <-> any_break c.
Proof.
  unfold linebreak, line_breaks; rewrite mem_In; unfold any_break, newline, exotic; cbn [In]; intuition congruence.
Qed.
Lemma linebreak_false c : linebreak c = false <-> ~ any_break c.
Proof. rewrite <- linebreak_spec; destruct (linebreak c); split; congruence. Qed.
Lemma kept_from l : forall cur s, Forall (fun c => ~ any_break c) l -> codec_from cur (l ++ s) = codec_from (rev l ++ cur) s.
Proof.
  induction l as [|c l IH]; intros cur s F; [reflexivity|]; inversion F as [|? ? N F']; subst; cbn [app codec_from rev].
  rewrite (proj2 (linebreak_false c) N), IH by exact F'; rewrite <- app_assoc; reflexivity.
Qed.
Lemma coded_lines c ps : cut any_break c ps -> codec_lines c = map kept ps.
Proof.
  unfold codec_lines; induction 1 as [|l N F|l e r ps F E H IH]; [reflexivity| |].
  - rewrite <- (app_nil_r l) at 1; rewrite kept_from by exact F; cbn [codec_from map]; unfold kept; cbn [fst snd]; rewrite !app_nil_r.
    destruct (rev l) eqn:R; [apply (f_equal (@rev Z)) in R; rewrite rev_involutive in R; contradiction|].
    rewrite <- R, rev_involutive; reflexivity.
  - rewrite kept_from by exact F; rewrite app_nil_r; cbn [map]; rewrite <- IH; unfold kept; cbn [fst snd].
    destruct E as [r|c r B N].
    + cbn [app codec_from]; change (linebreak 13) with true; cbn [Z.eqb Pos.eqb andb rev]; rewrite rev_involutive, <- app_assoc; reflexivity.
    + cbn [app codec_from]; rewrite (proj2 (linebreak_spec c) B); destruct r as [|d r]; [cbn [rev]; rewrite rev_involutive; reflexivity|].
      replace ((c =? 13) && (d =? 10)) with false; [cbn [rev]; rewrite rev_involutive; reflexivity|].
      symmetry; apply andb_false_iff; destruct (Z.eqb_spec c 13) as [->|]; [right|left; reflexivity].
      apply Z.eqb_neq; intros ->; exact (N eq_refl r eq_refl).
Qed.

(** every text has exactly one cut *)
Section Cut.
  Variable brk : Z -> Prop.
  Hypothesis brk_dec : forall c, {brk c} + {~ brk c}.
  Hypothesis brk13 : brk 13.
  Lemma body_split s : exists l r, s = l ++ r /\ Forall (fun c => ~ brk c) l /\ match r with c :: _ => brk c | [] => True end.
  Proof.
    induction s as [|c s [l [r [-> [F R]]]]]; [exists [], []; repeat split; constructor|].
    destruct (brk_dec c) as [B|B].
    - exists [], (c :: l ++ r); split; [reflexivity|split; [constructor|exact B]].
    - exists (c :: l), r; split; [reflexivity|split; [constructor; assumption|exact R]].
  Qed.
  Lemma cut_total : forall n s, (length s <= n)%nat -> exists ps, cut brk s ps.
  Proof.
    induction n as [|n IH]; intros s L.
    - destruct s; [exists []; constructor|cbn [length] in L; lia].
    - destruct (body_split s) as [l [r [-> [F R]]]]; rewrite app_length in L; destruct r as [|c r].
      + rewrite app_nil_r; destruct l as [|d l]; [exists []; constructor|exists [(d :: l, [])]; constructor; [discriminate|exact F]].
      + cbn [length] in L.
        assert (X : {q | c = 13 /\ r = 10 :: q} + {c = 13 -> forall q, r <> 10 :: q}).
        { destruct (Z.eq_dec c 13) as [->|]; [|right; intros; contradiction].
          destruct r as [|d q]; [right; intros _ q; discriminate|].
          destruct (Z.eq_dec d 10) as [->|]; [left; exists q; split; reflexivity|right; intros _ q' E; congruence]. }
        destruct X as [[q [-> ->]]|X].
        * destruct (IH q) as [ps H]; [cbn [length] in L; lia|]; exists ((l, [13; 10]) :: ps).
          apply (Cut_line brk l [13; 10] q ps F); [constructor|exact H].
        * destruct (IH r) as [ps H]; [lia|]; exists ((l, [c]) :: ps).
          apply (Cut_line brk l [c] r ps F); [constructor; assumption|exact H].
  Qed.
  Lemma body_unique l : forall l' r r', Forall (fun c => ~ brk c) l -> Forall (fun c => ~ brk c) l' ->
    match r with c :: _ => brk c | [] => True end -> match r' with c :: _ => brk c | [] => True end ->
    l ++ r = l' ++ r' -> l = l' /\ r = r'.
  Proof.
    induction l as [|c l IH]; intros [|c' l'] r r' F F' R R' E; cbn [app] in E.
    - split; [reflexivity|exact E].
    - subst r; inversion F'; contradiction.
    - subst r'; inversion F; contradiction.
    - injection E as -> E; inversion F; inversion F'; subst.
      destruct (IH l' r r') as [-> ->]; try assumption; split; reflexivity.
  Qed.
  Lemma ends_head e r : ends brk e r -> match e ++ r with c :: _ => brk c | [] => True end.
  Proof. destruct 1; [exact brk13|assumption]. Qed.
  Lemma ends_unique e r e' r' : ends brk e r -> ends brk e' r' -> e ++ r = e' ++ r' -> e = e' /\ r = r'.
  Proof.
    intros E E' X; destruct E as [r|c r B N], E' as [r'|c' r' B' N']; cbn [app] in X.
    - injection X as ->; split; reflexivity.
    - injection X as <- <-; elim (N' eq_refl r eq_refl).
    - injection X as -> ->; elim (N eq_refl r' eq_refl).
    - injection X as -> ->; split; reflexivity.
  Qed.
  Lemma ends_nonempty e r : ends brk e r -> e <> [].
  Proof. destruct 1; discriminate. Qed.
  Lemma cut_unique s ps : cut brk s ps -> forall ps', cut brk s ps' -> ps = ps'.
  Proof.
    assert (Z : forall l e r : list Z, e <> [] -> [] = l ++ e ++ r -> False) by (intros [|] [|] r N X; (congruence || discriminate X)).
    induction 1 as [|l N F|l e r ps F E H IH]; intros ps' H'.
    - inversion H' as [|? N' _|l e r ps F E H X]; [reflexivity|congruence|]; elim (Z _ _ _ (ends_nonempty _ _ E) (eq_sym X)).
    - inversion H' as [X|l' N' F' X|l' e' r' ps'' F' E' H'' X].
      + congruence.
      + reflexivity.
      + exfalso; rewrite <- (app_nil_r l) in X; apply body_unique in X; [|assumption|assumption|apply ends_head, E'|exact I].
        destruct X as [_ X]; apply app_eq_nil in X; exact (ends_nonempty _ _ E' (proj1 X)).
    - remember (l ++ e ++ r) as s eqn:S; destruct H' as [|l' N' F'|l' e' r' ps'' F' E' H'].
      + elim (Z _ _ _ (ends_nonempty _ _ E) S).
      + exfalso; rewrite <- (app_nil_r l') in S; apply body_unique in S; [|assumption|assumption|exact I|apply ends_head, E].
        destruct S as [_ S]; symmetry in S; apply app_eq_nil in S; exact (ends_nonempty _ _ E (proj1 S)).
      + apply body_unique in S; [|assumption|assumption|apply ends_head, E'|apply ends_head, E]; destruct S as [-> S].
        apply ends_unique in S; [|assumption|assumption]; destruct S as [-> ->]; f_equal; apply IH; exact H'.
  Qed.
End Cut.
Lemma newline_dec c : {newline c} + {~ newline c}.
Proof.
  unfold newline; destruct (Z.eq_dec c 10); [left; left; assumption|]; destruct (Z.eq_dec c 13); [left; right; assumption|right; tauto].
Qed.
Lemma any_break_dec c : {any_break c} + {~ any_break c}.
Proof. destruct (linebreak c) eqn:E; [left; apply linebreak_spec, E|right; apply linebreak_false, E]. Qed.
Lemma newline13 : newline 13.
Proof. right; reflexivity. Qed.
Lemma any13 : any_break 13.
Proof. left; exact newline13. Qed.
Lemma cut_exists_unique (brk : Z -> Prop) : brk = newline \/ brk = any_break -> forall s, exists ps, cut brk s ps /\ forall ps', cut brk s ps' -> ps' = ps.
Proof.
  assert (G : forall b : Z -> Prop, (forall c, {b c} + {~ b c}) -> b 13 -> forall s, exists ps, cut b s ps /\ forall ps', cut b s ps' -> ps' = ps).
  { intros b D B s; destruct (cut_total b D (length s) s) as [ps H]; [lia|]; exists ps; split; [exact H|].
    intros ps' H'; symmetry; apply (cut_unique b B s); assumption. }
  intros [-> | ->]; apply G; [exact newline_dec|exact newline13|exact any_break_dec|exact any13].
Qed.

(** ** Readers do not see the ends of lines *)
Definition tailed (ls bs : list str) : Prop := Forall2 (fun a l => exists e, blank e /\ a = l ++ e) ls bs.
Lemma fed_tailed ps : tailed (map fed ps) (map fst ps).
Proof.
  induction ps as [|p ps IH]; constructor; [|exact IH].
  exists (match snd p with [] => [] | _ => [10] end); split; [destruct (snd p); reflexivity|reflexivity].
Qed.
Lemma any_break_space c : any_break c -> is_space c = true.
Proof.
  unfold any_break, newline, exotic; cbn [In]; intros H.
  assert (E : c = 10 \/ c = 13 \/ c = 11 \/ c = 12 \/ c = 28 \/ c = 29 \/ c = 30 \/ c = 133 \/ c = 8232 \/ c = 8233) by intuition congruence.
  repeat (destruct E as [->|E]; [reflexivity|]); rewrite E; reflexivity.
Qed.
Lemma kept_tailed c ps : cut any_break c ps -> tailed (map kept ps) (map fst ps).
Proof.
  induction 1 as [|l N F|l e r ps F E H IH]; cbn [map]; [constructor| |].
  - constructor; [exists []; split; reflexivity|constructor].
  - constructor; [|exact IH]; exists e; split; [|reflexivity].
    destruct E as [r|c r B _]; [reflexivity|]; unfold blank; cbn [forallb]; rewrite any_break_space by exact B; reflexivity.
Qed.
Lemma starts_tail c l e : blank e -> is_space c = false -> startswith [c] (l ++ e) = startswith [c] l.
Proof.
  intros B S; destruct l as [|d l]; [|reflexivity]; cbn [app]; destruct e as [|d e]; [reflexivity|].
  cbn [startswith]; destruct (Z.eqb_spec c d) as [->|]; [|reflexivity].
  unfold blank in B; cbn [forallb] in B; rewrite S in B; discriminate B.
Qed.
Lemma hash_starts l : starts_hash l = startswith [u1 "#"] l.
Proof. destruct l as [|c l]; [reflexivity|]; cbn [starts_hash startswith]; rewrite Z.eqb_sym; destruct (u1 "#" =? c); reflexivity. Qed.
Lemma strip_tail l e : blank e -> strip (l ++ e) = strip l.
Proof.
  intros B; unfold strip; destruct (lstrip_split l) as [g [G [E H]]].
  destruct (lstrip l) as [|c q] eqn:Q.
  - rewrite app_nil_r in E; subst l.
    assert (BE : blank (g ++ e)) by (unfold blank in *; rewrite forallb_app, G, B; reflexivity).
    rewrite <- (app_nil_r (g ++ e)), lstrip_app by exact BE; reflexivity.
  - rewrite E, <- app_assoc, lstrip_app by exact G; cbn [app]; rewrite lstrip_id by exact H; apply (rstrip_app (c :: q)), B.
Qed.
Lemma kanjidic_tailed dv ls bs : tailed ls bs -> forall self, parse_kanjidic dv ls self = parse_kanjidic dv bs self.
Proof.
  induction 1 as [|a l ls bs [e [B ->]] H IH]; intros self; [reflexivity|]; cbn [parse_kanjidic].
  change (u "#") with [u1 "#"]; rewrite starts_tail by (assumption || reflexivity).
  destruct (startswith [u1 "#"] l); [apply IH|].
  replace (Kanjidic_model.parse_line dv (l ++ e)) with (Kanjidic_model.parse_line dv l) by (unfold Kanjidic_model.parse_line; rewrite strip_tail by exact B; reflexivity).
  destruct (Kanjidic_model.parse_line dv l) as [x|]; cbn [bind]; [|reflexivity].
  destruct (dget (u "kanji") x) as [[]|]; try reflexivity; apply IH.
Qed.
Lemma radk_tailed dv ls bs : tailed ls bs -> forall r k s, radk_loop dv ls r k s = radk_loop dv bs r k s.
Proof.
  induction 1 as [|a l ls bs [e [B ->]] H IH]; intros r k s; [reflexivity|]; cbn [radk_loop]; cbv zeta.
  rewrite (rstrip_app l e B); destruct (startswith (u "#") (rstrip l)); [apply IH|].
  destruct (startswith (u "$") (rstrip l)); [|apply IH].
  destruct (mem (length (split_ws (rstrip l))) [3%nat; 4%nat]); [|reflexivity].
  destruct (split_ws (rstrip l)) as [|d [|c [|n q]]]; try reflexivity; destruct (py_int dv 10 n); [apply IH|reflexivity].
Qed.
Lemma radkfile_tailed dv ls bs : tailed ls bs -> parse_radkfile dv ls = parse_radkfile dv bs.
Proof. intros T; unfold parse_radkfile; rewrite (radk_tailed dv ls bs T); reflexivity. Qed.
Lemma rows_tailed ls bs : tailed ls bs -> Pinyin_model.parse_lines ls = Pinyin_model.parse_lines bs.
Proof.
  unfold Pinyin_model.parse_lines; induction 1 as [|a l ls bs [e [B ->]] H IH]; [reflexivity|]; cbn [filter].
  rewrite !hash_starts, starts_tail by (assumption || reflexivity).
  destruct (startswith [u1 "#"] l); cbn [negb]; [exact IH|]; cbn [map]; rewrite rstrip_app by exact B; f_equal; exact IH.
Qed.
Lemma table_tailed ls bs : tailed ls bs -> forall t, load_table ls t = load_table bs t.
Proof.
  induction 1 as [|a l ls bs [e [B ->]] H IH]; intros t; [reflexivity|]; cbn [load_table].
  rewrite !hash_starts, starts_tail by (assumption || reflexivity).
  destruct (startswith [u1 "#"] l); [apply IH|]; rewrite rstrip_app by exact B; destruct (split_ws (rstrip l)); [reflexivity|apply IH].
Qed.
Lemma from_line_tail dv l e : blank e -> from_line dv (l ++ e) = from_line dv l.
Proof. intros B; unfold from_line; rewrite rstrip_app by exact B; reflexivity. Qed.
Lemma load_loop_tailed dv ls bs : tailed ls bs -> forall h path d n, load_loop dv h path d n ls = load_loop dv h path d n bs.
Proof.
  induction 1 as [|a l ls bs [e [B ->]] H IH]; intros h path d n; [reflexivity|]; cbn [load_loop].
  rewrite from_line_tail by exact B; destruct (from_line dv l) as [[d' p]|]; cbn [bind]; [|reflexivity]; cbv zeta.
  match goal with |- bind ?x _ = _ => destruct x as [path'|]; cbn [bind]; [|reflexivity] end.
  destruct (pop_last path') as [[q w]|]; [apply IH|reflexivity].
Qed.
Lemma from_file_tailed dv ls bs : tailed ls bs -> forall h, from_file dv h ls = from_file dv h bs.
Proof.
  destruct 1 as [|a l ls bs [e [B ->]] H]; intros h; [reflexivity|]; unfold from_file.
  rewrite from_line_tail by exact B; destruct (from_line dv l) as [[d p]|]; cbn [bind]; [|reflexivity].
  destruct (negb (d =? 0)); [reflexivity|]; cbv zeta; rewrite (load_loop_tailed dv ls bs H); reflexivity.
Qed.

Lemma bodies_tailed c : exists bs, tailed (file_lines c) bs /\ forall ps, cut newline c ps -> map fst ps = bs.
Proof.
  destruct (cut_exists_unique newline (or_introl eq_refl) c) as [ps [H U]]; exists (map fst ps); split.
  - rewrite (text_lines c ps H); apply fed_tailed.
  - intros ps' H'; rewrite (U ps' H'); reflexivity.
Qed.
Lemma same_tailed c c' : same_lines c c' -> exists bs, tailed (file_lines c) bs /\ tailed (file_lines c') bs.
Proof.
  intros [ps [ps' [H [H' E]]]]; exists (map fst ps); split; [rewrite (text_lines c ps H)|rewrite (text_lines c' ps' H'), E]; apply fed_tailed.
Qed.
Lemma same_fed_lines c c' : same_fed c c' -> file_lines c = file_lines c'.
Proof.
  intros [ps [ps' [H [H' [E F]]]]]; rewrite (text_lines c ps H), (text_lines c' ps' H'); clear H H'.
  induction F as [|p p' ps ps' S F IH]; [reflexivity|]; cbn [map] in *; injection E as E1 E2; rewrite (IH E2); f_equal.
  unfold fed; rewrite E1; f_equal; destruct (snd p), (snd p'); try reflexivity; [destruct S as [S _]; specialize (S eq_refl)|destruct S as [_ S]; specialize (S eq_refl)]; discriminate S.
Qed.

(** ** Names *)
Lemma ends_gz name : endswith (u ".gz") name = true <-> exists p, name = p ++ u ".gz".
Proof. apply endswith_true. Qed.
Lemma ends_bz2 name : endswith (u ".bz2") name = true <-> exists p, name = p ++ u ".bz2".
Proof. apply endswith_true. Qed.
Lemma ordinary_tests name : ordinary name ->
  endswith (u ".bz2") name = false /\ endswith (u ".gz") name = false /\ eqb name (u "-") = false.
Proof.
  intros [C N]; split; [|split; [|apply eqb_neq, N]].
  - destruct (endswith (u ".bz2") name) eqn:E; [elim C; right; apply ends_bz2, E|reflexivity].
  - destruct (endswith (u ".gz") name) eqn:E; [elim C; left; apply ends_gz, E|reflexivity].
Qed.
Definition zipped (name mode : str) : stream := if endswith (u ".bz2") name then BZ2File name mode else GzipFile name mode.
Lemma compressed_test name (A : Type) (a b c : A) : compressed name ->
  (if endswith (u ".bz2") name then a else if endswith (u ".gz") name then b else c) = (if endswith (u ".bz2") name then a else b).
Proof.
  intros C; destruct (endswith (u ".bz2") name) eqn:E; [reflexivity|]; destruct C as [C|C].
  - rewrite (proj2 (ends_gz name) C); reflexivity.
  - apply ends_bz2 in C; congruence.
Qed.
Lemma sopen_ordinary os name mode : ordinary name -> mem (u1 "r") mode && mem (u1 "w") mode = false ->
  snd (sopen false (fun _ => true) os name mode (Some (u "utf8"))) =
  match os (PlainFile name mode) with Some e => Raise e | None => Ok (Identity, PlainFile name mode) end.
Proof.
  intros O M; destruct (ordinary_tests name O) as [E1 [E2 E3]]; unfold sopen; cbv zeta; rewrite M, E1, E2, E3.
  change (eqb (u "utf8") (u "byte")) with false; cbv iota; destruct (os (PlainFile name mode)); reflexivity.
Qed.
Lemma sopen_compressed os name mode : compressed name -> mem (u1 "r") mode && mem (u1 "w") mode = false ->
  snd (sopen false (fun _ => true) os name mode (Some (u "utf8"))) =
  match os (zipped name mode) with Some e => Raise e | None => Ok (Identity, zipped name mode) end.
Proof.
  intros C M; unfold sopen; cbv zeta; rewrite M, compressed_test by exact C.
  change (eqb (u "utf8") (u "byte")) with false; cbv iota; fold (zipped name mode); destruct (os (zipped name mode)); reflexivity.
Qed.
Section Read.
  Variables (content : str -> option str) (stdin : str).
  Lemma open_ordinary name : ordinary name ->
    open_read content stdin name = match content name with Some c => Ok (TextLines (file_lines c)) | None => Raise OSError end.
  Proof.
    intros O; unfold open_read; rewrite sopen_ordinary by (exact O || reflexivity); cbn [os_read].
    destruct (content name) eqn:E; [|reflexivity]; cbn [bind snd stream_lines]; change (mem (u1 "b") (u "r")) with false; cbv iota; unfold text_in; rewrite E; reflexivity.
  Qed.
  Lemma open_compressed name : compressed name ->
    open_read content stdin name = match content name with Some c => Ok (ByteLines (byte_lines c)) | None => Raise OSError end.
  Proof.
    intros C; unfold open_read; rewrite sopen_compressed by (exact C || reflexivity).
    assert (R : os_read content (zipped name (u "r")) = match content name with Some _ => None | None => Some OSError end)
      by (unfold zipped; destruct (endswith (u ".bz2") name); reflexivity).
    rewrite R; destruct (content name) eqn:E; [|reflexivity]; cbn [bind snd].
    unfold zipped; destruct (endswith (u ".bz2") name); cbn [stream_lines]; unfold text_in; rewrite E; reflexivity.
  Qed.
End Read.
Lemma bytes_nonempty cur : forall s, (cur <> [] \/ s <> []) -> bytes_from cur s <> [].
Proof.
  intros s; revert cur; induction s as [|c s IH]; intros cur H; cbn [bytes_from].
  - destruct cur; [destruct H; congruence|discriminate].
  - destruct (c =? 10); [discriminate|apply IH; left; discriminate].
Qed.
Lemma byte_lines_cons c : c <> [] -> exists l ls, byte_lines c = l :: ls.
Proof.
  intros N; destruct (byte_lines c) as [|l ls] eqn:E; [elim (bytes_nonempty [] c (or_intror N) E)|exists l, ls; reflexivity].
Qed.

(** ** kanjidic *)
Section Kanjidic.
  Variables (dv : Z -> option Z) (stdin : str).
  Lemma parse_kanjidic_app a : forall b self, parse_kanjidic dv (a ++ b) self = do self <- parse_kanjidic dv a self; parse_kanjidic dv b self.
  Proof.
    induction a as [|line a IH]; intros b self; [reflexivity|]; cbn [app parse_kanjidic].
    destruct (startswith (u "#") line); [apply IH|]; destruct (Kanjidic_model.parse_line dv line) as [e|]; cbn [bind]; [|reflexivity].
    destruct (dget (u "kanji") e) as [[]|]; try reflexivity; apply IH.
  Qed.
  Lemma chain_texts tss : forall self, parse_chain dv (map TextLines tss) self = parse_kanjidic dv (concat tss) self.
  Proof.
    induction tss as [|ts tss IH]; intros self; [reflexivity|]; cbn [map parse_chain concat]; rewrite parse_kanjidic_app.
    destruct (parse_kanjidic dv ts self); cbn [bind]; [apply IH|reflexivity].
  Qed.
  Lemma kanjidic_ordinary content names cs : Forall ordinary names -> Forall2 (fun n c => content n = Some c) names cs ->
    kanjidic_files dv content stdin names = init dv (map file_lines cs).
  Proof.
    intros O F; destruct names as [|n names]; [inversion F; reflexivity|]; destruct cs as [|c cs]; [inversion F|].
    unfold kanjidic_files.
    assert (M : mapM (open_read content stdin) (n :: names) = Ok (map TextLines (map file_lines (c :: cs)))).
    { clear -O F; revert O; induction F as [|a b ns bs E F IH]; intros O; [reflexivity|]; inversion O; subst; cbn [mapM map].
      rewrite open_ordinary, E by assumption; cbn [bind]; rewrite IH by assumption; reflexivity. }
    rewrite M; cbn [bind]; rewrite chain_texts; unfold init; cbn [map]; rewrite fold_app_concat; reflexivity.
  Qed.
  Lemma chain_bytes a l ls b : forall self, exists e, parse_chain dv (a ++ ByteLines (l :: ls) :: b) self = Raise e.
  Proof.
    induction a as [|x a IH]; intros self; cbn [app parse_chain]; [eexists; reflexivity|].
    destruct x as [ts|[|y ys]]; [destruct (parse_kanjidic dv ts self); cbn [bind]; [apply IH|eexists; reflexivity]|apply IH|eexists; reflexivity].
  Qed.
  Lemma kanjidic_compressed content names n c : In n names -> compressed n -> content n = Some c -> c <> [] ->
    exists e, kanjidic_files dv content stdin names = Raise e.
  Proof.
    intros I C E N; unfold kanjidic_files; destruct names as [|m names]; [destruct I|].
    destruct (mapM (open_read content stdin) (m :: names)) as [ss|e] eqn:M; cbn [bind]; [|eexists; reflexivity].
    apply in_split in I; destruct I as [a [b I]]; rewrite I in M; apply mapM_inv in M.
    apply Forall2_app_inv_l in M; destruct M as [sa [sb [_ [M ->]]]]; inversion M as [|? s ? sb' H _]; subst.
    rewrite open_compressed, E in H by exact C; injection H as <-.
    destruct (byte_lines_cons c N) as [l [ls ->]]; apply chain_bytes.
  Qed.
  Lemma kanjidic_one content n c : compressed n -> content n = Some c -> c <> [] ->
    kanjidic_files dv content stdin [n] = Raise TypeError.
  Proof.
    intros C E N; unfold kanjidic_files; cbn [mapM]; rewrite open_compressed, E by exact C; cbn [bind].
    destruct (byte_lines_cons c N) as [l [ls ->]]; reflexivity.
  Qed.
  Lemma kanjidic_same content content' names : Forall ordinary names ->
    Forall (fun n => match content n, content' n with Some c, Some c' => same_lines c c' | None, None => True | _, _ => False end) names ->
    kanjidic_files dv content stdin names = kanjidic_files dv content' stdin names.
  Proof.
    intros O F; unfold kanjidic_files; destruct names as [|n names]; [reflexivity|]; generalize dependent (n :: names); clear n names; intros names O F.
    assert (X : (exists e, mapM (open_read content stdin) names = Raise e /\ mapM (open_read content' stdin) names = Raise e) \/
      exists tss tss', mapM (open_read content stdin) names = Ok (map TextLines tss) /\ mapM (open_read content' stdin) names = Ok (map TextLines tss') /\
        exists bs, tailed (concat tss) bs /\ tailed (concat tss') bs).
    { revert O; induction F as [|n names S F IH]; intros O; [right; exists [], []; repeat split; exists []; split; constructor|].
      inversion O as [|? ? On O']; subst; cbn [mapM]; rewrite !open_ordinary by exact On.
      destruct (content n) as [c|], (content' n) as [c'|]; try contradiction; [|left; eexists; split; reflexivity].
      destruct (same_tailed c c' S) as [b [T T']]; cbn [bind].
      destruct (IH O') as [[e [E E']]|[tss [tss' [E [E' [bs [U U']]]]]]].
      - left; exists e; rewrite E, E'; split; reflexivity.
      - right; exists (file_lines c :: tss), (file_lines c' :: tss'); rewrite E, E'; split; [reflexivity|split; [reflexivity|]].
        exists (b ++ bs); cbn [concat]; split; apply Forall2_app; assumption. }
    destruct X as [[e [-> ->]]|[tss [tss' [-> [-> [bs [T T']]]]]]]; [reflexivity|]; cbn [bind].
    rewrite !chain_texts, (kanjidic_tailed dv _ _ T), (kanjidic_tailed dv _ _ T'); reflexivity.
  Qed.
End Kanjidic.

(** ** tatoeba and place *)
Lemma load_ordinary content stdin name : ordinary name ->
  load_path content stdin name = match content name with Some c => load_file (mksource (file_lines c) None) | None => ([], Raise OSError) end.
Proof. intros O; unfold load_path; rewrite open_ordinary by exact O; destruct (content name); reflexivity. Qed.
Lemma load_compressed content stdin name c : compressed name -> content name = Some c -> c <> [] ->
  load_path content stdin name = ([], Raise CsvError).
Proof.
  intros C E N; unfold load_path; rewrite open_compressed, E by exact C; destruct (byte_lines_cons c N) as [l [ls ->]]; reflexivity.
Qed.
Lemma place_ordinary dv content stdin h name : ordinary name ->
  place_path dv content stdin h name = match content name with Some c => from_file dv h (file_lines c) | None => Raise OSError end.
Proof. intros O; unfold place_path; rewrite open_ordinary by exact O; destruct (content name); reflexivity. Qed.
Lemma place_compressed dv content stdin h name : compressed name -> exists e, place_path dv content stdin h name = Raise e.
Proof.
  intros C; unfold place_path; rewrite open_compressed by exact C; destruct (content name) as [c|]; cbn [bind]; [|eexists; reflexivity].
  destruct (byte_lines c); eexists; reflexivity.
Qed.

(** ** writing *)
Lemma out_lines sep : line_separator sep -> forall text cur, ~ In 13 text -> lines_from cur (out_text sep text) = lines_from cur text.
Proof.
  intros L; induction text as [|c text IH]; intros cur N; [reflexivity|]; cbn [out_text flat_map].
  fold (out_text sep text); assert (N' : ~ In 13 text) by (intros I; apply N; right; exact I).
  assert (C : c <> 13) by (intros ->; apply N; left; reflexivity).
  destruct (Z.eqb_spec c 10) as [->|D].
  - cbn [lines_from Z.eqb Pos.eqb]; destruct L as [-> |[-> | ->]]; cbn [app lines_from Z.eqb Pos.eqb].
    + rewrite IH by exact N'; reflexivity.
    + rewrite IH by exact N'; reflexivity.
    + assert (X : match out_text [13] text with d :: _ => d <> 10 | [] => True end).
      { destruct text as [|d text]; [exact I|]; cbn [out_text flat_map]; destruct (Z.eqb_spec d 10); cbn [app]; [discriminate|assumption]. }
      rewrite <- (IH [] N'); destruct (out_text [13] text) as [|d q]; [reflexivity|].
      destruct (Z.eqb_spec d 10); [contradiction|reflexivity].
  - cbn [app lines_from]; destruct (Z.eqb_spec c 10); [contradiction|]; destruct (Z.eqb_spec c 13); [contradiction|]; apply IH, N'.
Qed.
Lemma place_round dv repr sep stdin h t fuel h0 disk name : ascii_digits dv -> line_separator sep -> ordinary name ->
  tree_at h t -> keyed h t -> (forall a, In a (nodes t) -> storable (at_ h a)) -> (rsize t < fuel)%nat ->
  exists disk' h' t', dump_path repr sep fuel h (root t) disk name = (disk', [], Ok tt) /\
    (forall n, n <> name -> dget n disk' = dget n disk) /\
    place_path dv (fun n => dget n disk') stdin h0 name = Ok (h', root t') /\
    tree_at h' t' /\ keyed h' t' /\ rosemap (details h') t' = rosemap (details h) t.
Proof.
  intros D L O T K S B; destruct (roundtrip repr dv D h t fuel h0 T K S B) as [text [h' [t' [E [F [T' [K' [R _]]]]]]]].
  assert (N : ~ In 13 text).
  { clear -E T S B; unfold dump in E; rewrite (walk_ok h fuel t T B) in E; cbn [rmap] in E; injection E as <-.
    intros I; apply in_flat_map in I; destruct I as [[d a] [I J]]; apply in_app_or in J; destruct J as [J|[J|[]]]; [|discriminate J].
    assert (NB : no_break (to_line repr (at_ h a) d)).
    { apply line_no_break, S; rewrite <- (pre_nodes t 0); apply in_map_iff; exists (d, a); split; [reflexivity|exact I]. }
    destruct (NB 13 J) as [_ X]; congruence. }
  exists (dset name (out_text sep text) disk), h', t'; split; [|split; [|split]].
  - unfold dump_path; rewrite sopen_ordinary by (exact O || reflexivity); rewrite E; reflexivity.
  - intros n M; apply dget_dset_other; congruence.
  - rewrite place_ordinary by exact O; rewrite dget_dset_same; unfold file_lines; rewrite (out_lines sep L text [] N); exact F.
  - split; [exact T'|split; [exact K'|exact R]].
Qed.
Lemma dump_compressed repr sep fuel h t disk name : compressed name -> tree_at h t -> (rsize t < fuel)%nat ->
  dump_path repr sep fuel h (root t) disk name = (dset name [] disk, [], Raise TypeError).
Proof.
  intros C T B; unfold dump_path; rewrite sopen_compressed by (exact C || reflexivity).
  rewrite (walk_ok h fuel t T B); destruct t as [a ks]; cbn [pre].
  unfold zipped; destruct (endswith (u ".bz2") name); reflexivity.
Qed.

(** ** the standard streams *)
Lemma std_closed {A} mode (body : nat -> streams -> streams * res A) w : ~ (In (u1 "r") mode /\ In (u1 "w") mode) ->
  let i := if mem (u1 "r") mode then 0%nat else 1%nat in
  is_open w i = true -> is_open (fst (with_sopen (u "-") mode body w)) i = false.
Proof.
  intros M i O; unfold with_sopen, sopen_id, sopen; cbv zeta.
  assert (X : mem (u1 "r") mode && mem (u1 "w") mode = false).
  { destruct (mem (u1 "r") mode) eqn:R; [|reflexivity]; destruct (mem (u1 "w") mode) eqn:W; [|reflexivity].
    elim M; split; apply mem_In; assumption. }
  rewrite X; change (eqb (u "utf8") (u "byte")) with false; cbv iota.
  change (endswith (u ".bz2") (u "-")) with false; change (endswith (u ".gz") (u "-")) with false; change (eqb (u "-") (u "-")) with true; cbv iota.
  assert (Y : forall j, is_open w j = true -> is_open (fst (with_stmt (StreamContext j) body w)) j = false).
  { intros j J; unfold with_stmt; cbn [enter]; rewrite J; destruct (body j w) as [w' r]; cbn [fst exit]; unfold is_open, close; cbn [opened].
    apply mem_false; intros H; apply filter_In in H; rewrite Nat.eqb_refl in H; destruct H; discriminate. }
  unfold i in *; destruct (mem (u1 "r") mode); cbn [snd]; apply Y, O.
Qed.
Lemma std_again {A} mode (body : nat -> streams -> streams * res A) w : ~ (In (u1 "r") mode /\ In (u1 "w") mode) ->
  is_open w (if mem (u1 "r") mode then 0%nat else 1%nat) = false -> with_sopen (u "-") mode body w = (w, Raise ValueError).
Proof.
  intros M O; unfold with_sopen, sopen_id, sopen; cbv zeta.
  assert (X : mem (u1 "r") mode && mem (u1 "w") mode = false).
  { destruct (mem (u1 "r") mode) eqn:R; [|reflexivity]; destruct (mem (u1 "w") mode) eqn:W; [|reflexivity].
    elim M; split; apply mem_In; assumption. }
  rewrite X; change (eqb (u "utf8") (u "byte")) with false; cbv iota.
  change (endswith (u ".bz2") (u "-")) with false; change (endswith (u ".gz") (u "-")) with false; change (eqb (u "-") (u "-")) with true; cbv iota.
  destruct (mem (u1 "r") mode); cbn [snd]; unfold with_stmt; cbn [enter]; rewrite O; reflexivity.
Qed.
Lemma std_kept {A} name mode (body : nat -> streams -> streams * res A) w j : name <> u "-" -> (j < next_id w)%nat ->
  is_open (fst (with_sopen name mode body w)) j =
  is_open (fst (body (next_id w) (fst (open_new w)))) j.
Proof.
  intros N J; unfold with_sopen.
  assert (X : sopen_id name mode w = open_new w).
  { unfold sopen_id, sopen; cbv zeta; destruct (_ && _); [reflexivity|]; change (eqb (u "utf8") (u "byte")) with false; cbv iota.
    rewrite (eqb_neq name (u "-")) by exact N; destruct (endswith (u ".bz2") name); [reflexivity|]; destruct (endswith (u ".gz") name); reflexivity. }
  rewrite X; unfold open_new; cbn [fst]; unfold with_stmt; cbn [enter].
  replace (is_open _ (next_id w)) with true by (symmetry; apply mem_In; left; reflexivity).
  destruct (body (next_id w) _) as [w' r]; cbn [fst exit]; unfold is_open, close; cbn [opened].
  destruct (mem j (opened w')) eqn:E.
  - apply mem_In in E; apply mem_In, filter_In; split; [exact E|]; apply negb_true_iff, Nat.eqb_neq; lia.
  - apply mem_false in E; apply mem_false; intros H; apply filter_In in H; apply E, H.
Qed.

(** ** the statements *)
Lemma text_cut c : exists ps, cut newline c ps /\ (forall ps', cut newline c ps' -> ps' = ps) /\ file_lines c = map fed ps.
Proof.
  destruct (cut_exists_unique newline (or_introl eq_refl) c) as [ps [H U]]; exists ps; split; [exact H|split; [exact U|apply text_lines, H]].
Qed.
Lemma codec_cut c : exists ps, cut any_break c ps /\ (forall ps', cut any_break c ps' -> ps' = ps) /\ codec_lines c = map kept ps.
Proof.
  destruct (cut_exists_unique any_break (or_intror eq_refl) c) as [ps [H U]]; exists ps; split; [exact H|split; [exact U|apply coded_lines, H]].
Qed.
Lemma readers_same dv stdin content content' name c c' h : content name = Some c -> content' name = Some c' -> same_lines c c' ->
  radk_path dv content name = radk_path dv content' name /\
  zhuyin_path content name = zhuyin_path content' name /\
  pinyin_path content name = pinyin_path content' name /\
  all_pinyin_path content name = all_pinyin_path content' name /\
  (ordinary name -> place_path dv content stdin h name = place_path dv content' stdin h name).
Proof.
  intros E E' S; destruct (same_tailed c c' S) as [bs [T T']].
  unfold radk_path, zhuyin_path, pinyin_path, all_pinyin_path, open_text; rewrite E, E'; cbn [bind].
  unfold zhuyin_to_pinyin_table, pinyin_to_zhuyin_table, get_all_pinyin.
  rewrite (radkfile_tailed dv _ _ T), (radkfile_tailed dv _ _ T'), (rows_tailed _ _ T), (rows_tailed _ _ T').
  repeat split; intros O; rewrite !place_ordinary by exact O; rewrite E, E', (from_file_tailed dv _ _ T), (from_file_tailed dv _ _ T'); reflexivity.
Qed.
Lemma load_same stdin content content' name c c' : ordinary name -> content name = Some c -> content' name = Some c' -> same_fed c c' ->
  load_path content stdin name = load_path content' stdin name.
Proof. intros O E E' S; rewrite !load_ordinary by exact O; rewrite E, E', (same_fed_lines c c' S); reflexivity. Qed.
Lemma table_cut content name c ps : content name = Some c -> cut any_break c ps -> table_path content name = load_table (map fst ps) [].
Proof. intros E C; unfold table_path; rewrite E, (coded_lines c ps C); apply table_tailed, (kept_tailed c), C. Qed.
Lemma table_same content content' name c c' ps ps' : content name = Some c -> content' name = Some c' ->
  cut any_break c ps -> cut any_break c' ps' -> map fst ps = map fst ps' ->
  table_path content name = load_table (map fst ps) [] /\ table_path content' name = table_path content name.
Proof.
  intros E E' C C' M; rewrite (table_cut content name c ps E C), (table_cut content' name c' ps' E' C'), M; split; reflexivity.
Qed.
Lemma plain_cut c ps : cut newline c ps -> Forall (fun x => ~ exotic x) c -> cut any_break c ps.
Proof.
  induction 1 as [|l N F|l e r ps F E H IH]; intros X; [constructor| |].
  - apply Cut_last; [exact N|]; rewrite Forall_forall in *; intros x I [Y|Y]; [exact (F x I Y)|exact (X x I Y)].
  - apply Forall_app in X; destruct X as [X1 X2]; apply Forall_app in X2; destruct X2 as [_ X2].
    apply Cut_line; [|destruct E; constructor; [left; assumption|assumption]|apply IH, X2].
    rewrite Forall_forall in *; intros x I [Y|Y]; [exact (F x I Y)|exact (X1 x I Y)].
Qed.
Lemma table_text content name c ps : content name = Some c -> Forall (fun x => ~ exotic x) c -> cut newline c ps ->
  table_path content name = load_table (map fst ps) [].
Proof. intros E X C; apply (table_cut content name c ps E), plain_cut; assumption. Qed.
Lemma ordinary_read dv stdin content name c h : ordinary name -> content name = Some c ->
  kanjidic_files dv content stdin [name] = init dv [file_lines c] /\
  load_path content stdin name = load_file (mksource (file_lines c) None) /\
  place_path dv content stdin h name = from_file dv h (file_lines c).
Proof.
  intros O E; split; [|split].
  - apply (kanjidic_ordinary dv stdin content [name] [c]); (constructor; [assumption|constructor]).
  - rewrite load_ordinary, E by exact O; reflexivity.
  - rewrite place_ordinary, E by exact O; reflexivity.
Qed.
Lemma std_twice {A B} mode (body : nat -> streams -> streams * res A) (body' : nat -> streams -> streams * res B) w :
  ~ (In (u1 "r") mode /\ In (u1 "w") mode) ->
  let i := if mem (u1 "r") mode then 0%nat else 1%nat in
  is_open w i = true ->
  let w' := fst (with_sopen (u "-") mode body w) in
  is_open w' i = false /\ with_sopen (u "-") mode body' w' = (w', Raise ValueError).
Proof.
  intros M i O w'; pose proof (std_closed mode body w M O) as C; split; [exact C|]; apply std_again; assumption.
Qed.

(** ** missing and empty files, and the words of a compressed one *)
Lemma sopen_other os name : name <> u "-" ->
  exists s, (s = PlainFile name (u "r") \/ s = BZ2File name (u "r") \/ s = GzipFile name (u "r")) /\
  snd (sopen false (fun _ => true) os name (u "r") (Some (u "utf8"))) = match os s with Some e => Raise e | None => Ok (Identity, s) end.
Proof.
  intros N; unfold sopen; change (mem (u1 "r") (u "r")) with true; change (mem (u1 "w") (u "r")) with false; change (eqb (u "utf8") (u "byte")) with false; cbn [andb]; cbv iota zeta.
  assert (Q : eqb name (u "-") = false) by (destruct (eqb_spec name (u "-")); [contradiction|reflexivity]); rewrite Q.
  destruct (endswith (u ".bz2") name); [|destruct (endswith (u ".gz") name)];
    [exists (BZ2File name (u "r"))|exists (GzipFile name (u "r"))|exists (PlainFile name (u "r"))]; (split; [auto|]); destruct (os _); reflexivity.
Qed.
Lemma open_missing content stdin name : name <> u "-" -> content name = None -> open_read content stdin name = Raise OSError.
Proof.
  intros N E; unfold open_read; destruct (sopen_other (os_read content) name N) as [s [K ->]].
  destruct K as [-> |[-> | ->]]; cbn [os_read]; rewrite E; reflexivity.
Qed.
Lemma readers_missing dv stdin content h name : content name = None ->
  radk_path dv content name = Raise OSError /\ zhuyin_path content name = Raise OSError /\ pinyin_path content name = Raise OSError /\
  all_pinyin_path content name = Raise OSError /\ table_path content name = Raise OSError /\
  (name <> u "-" -> load_path content stdin name = ([], Raise OSError) /\ place_path dv content stdin h name = Raise OSError /\
     forall a b, Forall (fun n => n <> u "-") a -> Forall (fun n => content n <> None) a -> kanjidic_files dv content stdin (a ++ name :: b) = Raise OSError).
Proof.
  intros E; unfold radk_path, zhuyin_path, pinyin_path, all_pinyin_path, table_path, open_text; rewrite E; do 5 (split; [reflexivity|]); intros N.
  unfold load_path, place_path; rewrite (open_missing content stdin name N E); split; [reflexivity|split; [reflexivity|]].
  intros a b Na Ca; unfold kanjidic_files.
  assert (M : mapM (open_read content stdin) (a ++ name :: b) = Raise OSError).
  { induction Na as [|m a Nm Na IH]; cbn [app mapM]; [rewrite open_missing by assumption; reflexivity|].
    inversion Ca as [|? ? Cm Ca']; subst; assert (X : exists l, open_read content stdin m = Ok l).
    { unfold open_read; destruct (sopen_other (os_read content) m Nm) as [s [K ->]].
      destruct (content m) as [c|] eqn:D; [|contradiction]; destruct K as [-> |[-> | ->]]; cbn [os_read]; rewrite D; eexists; reflexivity. }
    destruct X as [l ->]; cbn [bind]; rewrite IH by exact Ca'; reflexivity. }
  rewrite M; destruct a; reflexivity.
Qed.
Lemma empty_compressed dv stdin content h name : compressed name -> content name = Some [] ->
  kanjidic_files dv content stdin [name] = Ok [] /\ load_path content stdin name = ([], Ok tt) /\ place_path dv content stdin h name = Raise StopIteration.
Proof.
  intros C E; unfold kanjidic_files, load_path, place_path; cbn [mapM]; rewrite (open_compressed content stdin name C), E; repeat split.
Qed.
Lemma byte_space_spec c : byte_space c = true <-> byte_blank c.
Proof.
  unfold byte_space, byte_blank; rewrite orb_true_iff, andb_true_iff, !Z.leb_le, Z.eqb_eq; cbn [In]; lia.
Qed.
Lemma words_of_bytes ws : Forall byte_word ws -> byte_words (join [32] ws ++ [10]) = ws.
Proof.
  intros F; unfold byte_words; rewrite map_app; cbn [map]; change (if byte_space 10 then 32 else 10) with 32.
  assert (M : map (fun c => if byte_space c then 32 else c) (join [32] ws) = join [32] ws).
  { rewrite <- (map_id (join [32] ws)) at 2; apply map_ext_in; intros c I; destruct (byte_space c) eqn:B; [|reflexivity].
    apply byte_space_spec in B; clear -F I B; induction F as [|w ws [_ W] F IH]; [destruct I|]; destruct ws as [|v ws].
    - cbn [join] in I; rewrite Forall_forall in W; exfalso; exact (W c I B).
    - rewrite join_cons in I by discriminate; apply in_app_or in I; destruct I as [I|I]; [rewrite Forall_forall in W; exfalso; exact (W c I B)|].
      apply in_app_or in I; destruct I as [[<-|[]]|I]; [reflexivity|exact (IH I)]. }
  rewrite M; clear M; induction F as [|w ws [N W] F IH]; [reflexivity|].
  assert (Nw : ~ In 32 w) by (intros I; rewrite Forall_forall in W; apply (W 32 I); cbn; tauto).
  destruct ws as [|v ws].
  - cbn [join]; rewrite split_on_app by exact Nw; cbn [split_on filter]; destruct w; [contradiction|reflexivity].
  - rewrite join_cons by discriminate; rewrite <- !app_assoc; cbn [app]; rewrite split_on_app by exact Nw; cbn [filter].
    destruct w; [contradiction|]; rewrite IH; reflexivity.
Qed.
Lemma first_byte_line ws r : Forall byte_word ws -> byte_lines (join [32] ws ++ 10 :: r) = (join [32] ws ++ [10]) :: byte_lines r.
Proof.
  intros F; assert (N : ~ In 10 (join [32] ws)).
  { induction F as [|w ws [_ W] F IH]; [intros []|]; assert (Nw : ~ In 10 w) by (intros I; rewrite Forall_forall in W; apply (W 10 I); cbn; tauto).
    destruct ws as [|v ws]; [exact Nw|]; rewrite join_cons by discriminate; intros I; apply in_app_or in I; destruct I as [I|I]; [exact (Nw I)|].
    apply in_app_or in I; destruct I as [[X|[]]|I]; [discriminate X|exact (IH I)]. }
  unfold byte_lines; clear F; assert (G : forall l cur, ~ In 10 l -> bytes_from cur (l ++ 10 :: r) = (rev cur ++ l ++ [10]) :: bytes_from [] r).
  { induction l as [|c l IH]; intros cur M; cbn [app bytes_from].
    - change (10 =? 10) with true; cbv iota; cbn [rev]; reflexivity.
    - destruct (Z.eqb_spec c 10) as [-> |_]; [exfalso; apply M; left; reflexivity|]; rewrite IH by (intros I; apply M; right; exact I).
      cbn [rev]; rewrite <- app_assoc; reflexivity. }
  rewrite G by exact N; reflexivity.
Qed.
Lemma place_words dv stdin content h name ws r : compressed name -> Forall byte_word ws -> content name = Some (join [32] ws ++ 10 :: r) ->
  place_path dv content stdin h name =
    match ws with
    | [d; _; _] | [d; _; _; _] => match py_int ascii_dv 10 d with Some _ => Raise TypeError | None => Raise ValueError end
    | _ => Raise ValueError
    end.
Proof.
  intros C F E; unfold place_path; rewrite (open_compressed content stdin name C), E; cbn [bind]; rewrite first_byte_line by exact F.
  unfold from_line_bytes; rewrite words_of_bytes by exact F.
  destruct ws as [|d [|x [|y [|z [|q ws]]]]]; try reflexivity; destruct (py_int ascii_dv 10 d); reflexivity.
Qed.
(* the same text goes to the standard output and to a file *)
Lemma dump_stdout repr sep fuel h t disk name : ordinary name -> tree_at h t -> (rsize t < fuel)%nat ->
  exists out, dump_path repr sep fuel h (root t) disk name = (dset name out disk, [], Ok tt) /\
              dump_path repr sep fuel h (root t) disk (u "-") = (disk, out, Ok tt).
Proof.
  intros O T B; destruct (dump repr fuel h (root t)) as [text|e] eqn:E.
  - exists (out_text sep text); unfold dump_path; rewrite sopen_ordinary by (exact O || reflexivity); rewrite E; split; reflexivity.
  - unfold dump in E; rewrite (walk_ok h fuel t T B) in E; discriminate E.
Qed.
