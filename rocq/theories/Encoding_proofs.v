From Verif Require Import Base PyStr PyText PyFmt Maps_model Scripts_model Scripts_spec Scripts_proofs Common_model Csv_model Tatoeba_model Kanjidic_model Kanjidic_spec Kanjidic_proofs KanjidicLang_spec KanjidicLang_proofs Bilingual_spec Radk_model Radk_spec Radk_proofs Pinyin_model Pinyin_spec Pinyin_proofs Place_model Misc_model Files_model Files_spec Files_proofs Encoding_model Encoding_spec Utf8_proofs Csv_model.

Lemma over_ok {A} (parse : list str -> res A) ls : over parse (mksource ls None) = parse ls.
Proof. unfold over; cbn; destruct (parse ls); reflexivity. Qed.
Lemma over_bad {A} (parse : list str -> res A) ls e : exists e', over parse (mksource ls (Some e)) = Raise e'.
Proof. unfold over; cbn; destruct (parse ls); cbn; eexists; reflexivity. Qed.

Section Read.
  Variables (dv : Z -> option Z) (disk : str -> option (list Z)) (stdin : source) (sin : str) (locale : list Z -> str * bool) (given : str -> nat).
  Lemma open_bytes_ordinary name : ordinary name ->
    open_bytes disk stdin locale given name = match disk name with Some b => Ok (TextIn (text_source locale given name b)) | None => Raise OSError end.
  Proof.
    intros O; unfold open_bytes; rewrite sopen_ordinary by (exact O || reflexivity); cbn [os_read].
    destruct (disk name) eqn:E; [|reflexivity]; cbn [bind snd]; change (mem (u1 "b") (u "r")) with false; cbv iota; unfold bytes_in; rewrite E; reflexivity.
  Qed.
  Lemma source_ok name b t : locale b = (t, true) -> text_source locale given name b = mksource (file_lines t) None.
  Proof. intros E; unfold text_source; rewrite E; reflexivity. Qed.
  Lemma source_bad name b t : locale b = (t, false) -> exists ls, text_source locale given name b = mksource ls (Some UnicodeError).
  Proof. intros E; unfold text_source; rewrite E; eexists; reflexivity. Qed.

  (** ** kanjidic *)
  Lemma chain_sources tss : forall self, chain_bytes dv (map (fun ls => TextIn (mksource ls None)) tss) self = parse_kanjidic dv (concat tss) self.
  Proof.
    induction tss as [|ts tss IH]; intros self; [reflexivity|]; cbn [map chain_bytes concat]; rewrite parse_kanjidic_app, over_ok.
    destruct (parse_kanjidic dv ts self); cbn [bind]; [apply IH|reflexivity].
  Qed.
  Lemma kanjidic_decoded content names : Forall ordinary names -> Forall (holds locale disk content) names ->
    kanjidic_bytes dv disk stdin locale given names = kanjidic_files dv content sin names.
  Proof.
    intros O F; unfold kanjidic_bytes, kanjidic_files; destruct names as [|n names]; [reflexivity|].
    generalize dependent (n :: names); clear n names; intros names O F.
    assert (X : (exists e, mapM (open_bytes disk stdin locale given) names = Raise e /\ mapM (open_read content sin) names = Raise e) \/
      exists tss, mapM (open_bytes disk stdin locale given) names = Ok (map (fun ls => TextIn (mksource ls None)) tss) /\
        mapM (open_read content sin) names = Ok (map TextLines tss)).
    { revert O; induction F as [|n names H F IH]; intros O; [right; exists []; split; reflexivity|].
      inversion O as [|? ? On O']; subst; cbn [mapM]; rewrite open_bytes_ordinary, open_ordinary by exact On; unfold holds in H.
      destruct (disk n) as [b|], (content n) as [c|]; try contradiction; [|left; eexists; split; reflexivity].
      rewrite (source_ok n b c H); cbn [bind].
      destruct (IH O') as [[e [E E']]|[tss [E E']]]; rewrite E, E'; cbn [bind]; [left; eexists; split; reflexivity|].
      right; exists (file_lines c :: tss); split; reflexivity. }
    destruct X as [[e [-> ->]]|[tss [-> ->]]]; [reflexivity|]; cbn [bind]; rewrite chain_sources, chain_texts; reflexivity.
  Qed.
  Lemma chain_fails a ls e r : forall self, exists e', chain_bytes dv (a ++ TextIn (mksource ls (Some e)) :: r) self = Raise e'.
  Proof.
    induction a as [|[s|[|x xs]] a IH]; intros self; cbn [app chain_bytes].
    - destruct (over_bad (fun ls => parse_kanjidic dv ls self) ls e) as [e' ->]; eexists; reflexivity.
    - destruct (over _ s); cbn [bind]; [apply IH|eexists; reflexivity].
    - apply IH.
    - eexists; reflexivity.
  Qed.
  Lemma kanjidic_malformed names n b t : In n names -> ordinary n -> disk n = Some b -> locale b = (t, false) ->
    exists e, kanjidic_bytes dv disk stdin locale given names = Raise e.
  Proof.
    intros I O E L; unfold kanjidic_bytes; destruct names as [|m names]; [destruct I|].
    destruct (mapM (open_bytes disk stdin locale given) (m :: names)) as [ss|e] eqn:M; cbn [bind]; [|eexists; reflexivity].
    apply in_split in I; destruct I as [a [q I]]; rewrite I in M; apply mapM_inv in M.
    apply Forall2_app_inv_l in M; destruct M as [sa [sb [_ [M ->]]]]; inversion M as [|? s ? sb' H _]; subst.
    rewrite open_bytes_ordinary, E in H by exact O; injection H as <-.
    destruct (source_bad n b t L) as [ls ->]; apply chain_fails.
  Qed.
  Lemma kanjidic_missing names n : In n names -> ordinary n -> disk n = None -> exists e, kanjidic_bytes dv disk stdin locale given names = Raise e.
  Proof.
    intros I O E; unfold kanjidic_bytes; destruct names as [|m names]; [destruct I|].
    destruct (mapM (open_bytes disk stdin locale given) (m :: names)) as [ss|e] eqn:M; cbn [bind]; [|eexists; reflexivity].
    apply in_split in I; destruct I as [a [q I]]; rewrite I in M; apply mapM_inv in M.
    apply Forall2_app_inv_l in M; destruct M as [sa [sb [_ [M ->]]]]; inversion M as [|? s ? sb' H _]; subst.
    rewrite open_bytes_ordinary, E in H by exact O; discriminate H.
  Qed.
  Lemma kanjidic_loads names d : Forall ordinary names -> (kanjidic_bytes dv disk stdin locale given names = Ok d <->
    exists content, Forall (holds locale disk content) names /\ kanjidic_files dv content sin names = Ok d).
  Proof.
    intros O; split.
    - intros E; exists (fun n => match disk n with Some b => Some (fst (locale b)) | None => None end).
      assert (H : Forall (holds locale disk (fun n => match disk n with Some b => Some (fst (locale b)) | None => None end)) names).
      { apply Forall_forall; intros n I; pose proof (proj1 (Forall_forall _ _) O n I) as On; unfold holds.
        destruct (disk n) as [b|] eqn:D; [|exact Logic.I]; destruct (locale b) as [t [|]] eqn:L; [reflexivity|exfalso].
        destruct (kanjidic_malformed names n b t I On D L) as [e E']; congruence. }
      split; [exact H|rewrite <- (kanjidic_decoded _ names O H); exact E].
    - intros [content [H E]]; rewrite (kanjidic_decoded content names O H); exact E.
  Qed.

  (** ** the others *)
  Lemma readers_decoded content h name : holds locale disk content name ->
    radk_bytes dv disk locale given name = radk_path dv content name /\
    zhuyin_bytes disk locale given name = zhuyin_path content name /\
    pinyin_bytes disk locale given name = pinyin_path content name /\
    all_pinyin_bytes disk locale given name = all_pinyin_path content name /\
    (ordinary name -> load_bytes disk stdin locale given name = load_path content sin name /\
                      place_bytes dv disk stdin locale given h name = place_path dv content sin h name).
  Proof.
    unfold radk_bytes, zhuyin_bytes, pinyin_bytes, all_pinyin_bytes, radk_path, zhuyin_path, pinyin_path, all_pinyin_path, open_default, open_text, holds; intros H.
    destruct (disk name) as [b|] eqn:D, (content name) as [c|] eqn:C; try contradiction.
    - rewrite (source_ok name b c H); cbn [bind]; rewrite !over_ok; repeat (split; [reflexivity|]); intros O.
      unfold load_bytes, load_path, place_bytes, place_path; rewrite open_bytes_ordinary, open_ordinary, C, D by exact O.
      rewrite (source_ok name b c H); cbn [bind csv_source]; split; [reflexivity|].
      cbn [lines failure]; rewrite over_ok; destruct (file_lines c); reflexivity.
    - repeat (split; [reflexivity|]); intros O.
      unfold load_bytes, load_path, place_bytes, place_path; rewrite open_bytes_ordinary, open_ordinary, C, D by exact O; split; reflexivity.
  Qed.
  Lemma rows_fail ls e : forall s, exists rows e', rows_from s ls (Some e) = (rows, Raise e').
  Proof.
    induction ls as [|l ls IH]; intros s; cbn [rows_from]; [eexists _, _; reflexivity|].
    destruct (feed_line s l) as [s'|x]; [|eexists _, _; reflexivity].
    destruct (is_start (state s')); [|apply IH].
    destruct (IH reset) as [rows [e' ->]]; eexists _, _; reflexivity.
  Qed.
  Lemma readers_malformed h name b t : disk name = Some b -> locale b = (t, false) ->
    (exists e, radk_bytes dv disk locale given name = Raise e) /\
    (exists e, zhuyin_bytes disk locale given name = Raise e) /\
    (exists e, pinyin_bytes disk locale given name = Raise e) /\
    (exists e, all_pinyin_bytes disk locale given name = Raise e) /\
    (ordinary name -> (exists rows e, load_bytes disk stdin locale given name = (rows, Raise e)) /\
                      (exists e, place_bytes dv disk stdin locale given h name = Raise e)).
  Proof.
    intros D L; destruct (source_bad name b t L) as [ls S].
    unfold radk_bytes, zhuyin_bytes, pinyin_bytes, all_pinyin_bytes, open_default; rewrite D, S; cbn [bind].
    do 4 (split; [apply over_bad|]); intros O.
    unfold load_bytes, place_bytes; rewrite open_bytes_ordinary, D, S by exact O; cbn [bind lines failure]; split.
    - apply rows_fail.
    - destruct ls; [eexists; reflexivity|apply over_bad].
  Qed.
  Lemma table_decoded content name : holds utf8 disk content name -> table_bytes disk given name = table_path content name.
  Proof.
    unfold holds, table_bytes, table_path, utf8_source; destruct (disk name) as [b|], (content name) as [c|]; try contradiction; [|reflexivity].
    intros ->; apply (over_ok (fun ls => load_table ls [])).
  Qed.
  Lemma table_malformed name b t : disk name = Some b -> utf8 b = (t, false) -> exists e, table_bytes disk given name = Raise e.
  Proof. intros D L; unfold table_bytes, utf8_source; rewrite D, L; apply over_bad. Qed.
End Read.

(** ** Eight-bit locales *)
Lemma small_incl s t : incl s t -> small t -> small s.
Proof. unfold small; rewrite !Forall_forall; intros I F c Ic; apply F, I, Ic. Qed.
Lemma rstrip_incl s : incl (rstrip s) s.
Proof. destruct (rstrip_split s) as [g [_ [E _]]]; rewrite E at 2; apply incl_appl, incl_refl. Qed.
Lemma lstrip_incl s : incl (lstrip s) s.
Proof. destruct (lstrip_split s) as [g [_ [E _]]]; rewrite E at 2; apply incl_appr, incl_refl. Qed.
Lemma strip_incl s : incl (strip s) s.
Proof. unfold strip; eapply incl_tran; [apply rstrip_incl|apply lstrip_incl]. Qed.
Lemma split_ws_small s : forall cur, small cur -> small s -> Forall small (split_ws_from cur s).
Proof.
  induction s as [|c s IH]; intros cur C S; cbn [split_ws_from].
  - destruct cur; [constructor|repeat constructor; apply Forall_rev, C].
  - inversion S; subst; destruct (is_space c).
    + destruct cur; [apply IH; [constructor|assumption]|constructor; [apply Forall_rev, C|apply IH; [constructor|assumption]]].
    + apply IH; [constructor; assumption|assumption].
Qed.
Lemma lines_small n : forall cur s, (length s <= n)%nat -> small cur -> small s -> Forall small (lines_from cur s).
Proof.
  induction n as [|n IH]; intros cur s L C S; destruct s as [|c s]; cbn [length] in L; try lia; cbn [lines_from];
    try (destruct cur; [constructor|repeat constructor; apply Forall_rev, C]).
  inversion S as [|? ? Sc Ss]; subst; assert (T : small (rev (10 :: cur))) by (apply Forall_rev; constructor; [lia|exact C]).
  assert (N : small []) by constructor.
  destruct (c =? 10); [constructor; [exact T|apply IH; [lia|exact N|exact Ss]]|].
  destruct (c =? 13); [|apply IH; [lia|constructor; assumption|exact Ss]].
  destruct s as [|d s]; [constructor; [exact T|constructor]|].
  cbn [length] in L; destruct (d =? 10); constructor; try exact T; apply IH; try exact N; try exact Ss; cbn [length]; try lia.
  inversion Ss; assumption.
Qed.
Lemma file_lines_small t : small t -> Forall small (file_lines t).
Proof. intros S; apply (lines_small (length t)); [lia|constructor|exact S]. Qed.
Lemma segments_incl s ts : Kanjidic_spec.segments s ts -> Forall (fun t => incl t s) ts.
Proof.
  assert (X : forall a b ts, incl a b -> Forall (fun t : str => incl t a) ts -> Forall (fun t => incl t b) ts).
  { intros a b l I; apply Forall_impl; intros t J; eapply incl_tran; eassumption. }
  induction 1; [constructor| | | |].
  - eapply X; [|eassumption]; apply incl_tl, incl_refl.
  - constructor; [apply incl_appl, incl_refl|]; eapply X; [|eassumption]; apply incl_appr, incl_refl.
  - constructor.
    + intros c [<-|I]; [left; reflexivity|right]; apply in_app_iff in I; apply in_app_iff; destruct I as [I|[<-|[]]]; [left; exact I|right; left; reflexivity].
    + eapply X; [|eassumption]; intros c I; right; apply in_app_iff; right; right; exact I.
  - eapply X; [|eassumption]; apply incl_tl, incl_refl.
Qed.
Lemma parse_line_kanji dv line e : Kanjidic_model.parse_line dv line = Ok e ->
  exists k hex ts, Kanjidic_spec.segments (strip line) (k :: hex :: ts) /\ dget (u "kanji") e = Some (VStr k).
Proof.
  intros E; destruct (segments_total (length (strip line)) (strip line) (Nat.le_refl _)) as [ts S].
  pose proof (line_accepted dv line ts e S E) as A; inversion A; subst; eexists _, _, _; split; [exact S|assumption].
Qed.
Lemma parse_kanjidic_small dv ls : forall self d, Forall small ls -> (forall k, In k (dkeys self) -> small k) ->
  parse_kanjidic dv ls self = Ok d -> forall k, In k (dkeys d) -> small k.
Proof.
  induction ls as [|line ls IH]; intros self d F K E; cbn [parse_kanjidic] in E; [injection E as <-; exact K|].
  inversion F as [|? ? Fl F']; subst.
  destruct (startswith (u "#") line); [eapply IH; eassumption|].
  destruct (Kanjidic_model.parse_line dv line) as [e|] eqn:P; cbn [bind] in E; [|discriminate E].
  destruct (parse_line_kanji dv line e P) as [k [hex [ts [S D]]]]; rewrite D in E.
  refine (IH _ _ F' _ E); intros k' I'; apply In_dkeys_dset in I'; destruct I' as [->|I']; [|apply K, I'].
  apply segments_incl in S; inversion S as [|? ? I _]; subst; eapply small_incl; [|exact Fl]; eapply incl_tran; [exact I|apply strip_incl].
Qed.

Lemma for_pairs_keys rows : forall (body : dict str str -> str -> str -> dict str str) s d (P : str -> Prop),
  (forall s z p, (forall k, In k (dkeys s) -> P k) -> P z -> P p -> forall k, In k (dkeys (body s z p)) -> P k) ->
  Forall (Forall P) rows -> (forall k, In k (dkeys s) -> P k) -> for_pairs body rows s = Ok d -> forall k, In k (dkeys d) -> P k.
Proof.
  induction rows as [|row rows IH]; intros body s d P B F K E; cbn [for_pairs] in E; [injection E as <-; exact K|].
  inversion F as [|? ? Fr F']; subst; destruct row as [|z [|p [|]]]; try discriminate E.
  inversion Fr as [|? ? Fz Fr']; subst; inversion Fr' as [|? ? Fp _]; subst.
  refine (IH body _ d P B F' _ E); apply B; assumption.
Qed.
Lemma parse_lines_small ls : Forall small ls -> Forall (Forall small) (parse_lines ls).
Proof.
  intros F; unfold parse_lines; apply Forall_map, Forall_forall; intros l I; apply filter_In in I; destruct I as [I _].
  pose proof (proj1 (Forall_forall _ _) F l I) as S; apply split_ws_small; [constructor|eapply small_incl; [apply rstrip_incl|exact S]].
Qed.
Lemma zhuyin_small ls d : Forall small ls -> zhuyin_to_pinyin_table ls = Ok d -> forall k, In k (dkeys d) -> small k.
Proof.
  intros F; apply for_pairs_keys; [|apply parse_lines_small, F|intros k []].
  intros s z p K Pz Pp k I; apply In_dkeys_dset in I; destruct I as [-> |I]; [exact Pz|apply K, I].
Qed.
Lemma blocks_small dv seen ls bs : blocks dv seen ls bs -> Forall small ls -> Forall (fun b => small (snd b)) bs.
Proof.
  induction 1; intros F; [constructor| |]; inversion F; subst; [constructor; [cbn [snd]; eapply small_incl; [apply strip_incl|assumption]|auto]|auto].
Qed.
Lemma radk_small dv ls d : Forall small ls -> parse_radkfile dv ls = Ok d -> forall k, In k (dkeys (items d)) -> k < 256.
Proof.
  intros F E k I; destruct (Radk_proofs.loaded dv ls d E) as [bs [B [_ [_ [K _]]]]]; apply K in I; destruct I as [b [Ib Ik]].
  pose proof (proj1 (Forall_forall _ _) (blocks_small dv [] ls bs B F) b Ib) as S; exact (proj1 (Forall_forall _ _) S k Ik).
Qed.
Lemma latin1_narrow : narrow latin1.
Proof. intros b B; eapply Forall_impl; [|exact B]; cbn; lia. Qed.
Lemma ascii_narrow : narrow ascii.
Proof.
  intros b B; induction B as [|c b C B IH]; cbn [ascii]; [constructor|]; destruct (c <? 128); [constructor; [lia|exact IH]|constructor].
Qed.
Lemma ascii_high b : Exists (fun c => 128 <= c) b -> snd (ascii b) = false.
Proof.
  induction 1 as [c b C|c b C IH]; cbn [ascii]; destruct (Z.ltb_spec c 128); try lia; try reflexivity; exact IH.
Qed.
Lemma ascii_exact b : Forall (fun c => c < 128) b <-> ascii b = (b, true).
Proof.
  split.
  - induction 1 as [|c b C F IH]; cbn [ascii]; [reflexivity|]. destruct (Z.ltb_spec c 128); [|lia]. rewrite IH. reflexivity.
  - intro E. apply Forall_forall. intros c I. destruct (Z.ltb_spec c 128) as [L|L]; [exact L|]. exfalso.
    assert (X : Exists (fun c => 128 <= c) b) by (apply Exists_exists; eauto). apply ascii_high in X. rewrite E in X. discriminate.
Qed.
Lemma finished_iff l : finished l = true <-> exists x, l = x ++ [10].
Proof.
  unfold finished. split.
  - destruct (rev l) as [|c r] eqn:R; [discriminate|]. intro E. apply Z.eqb_eq in E. subst c. exists (rev r). rewrite <- (rev_involutive l), R. reflexivity.
  - intros [x ->]. rewrite rev_unit. reflexivity.
Qed.
Lemma whole_from s : forall cur, exists rest, lines_from cur s = filter finished (lines_from cur s) ++ rest /\ Forall (fun l => finished l = false) rest.
Proof.
  induction s as [s IH] using (induction_ltof1 _ (@length Z)). unfold ltof in IH. intro cur.
  assert (K : forall r, (length r < length s)%nat -> exists rest, rev (10 :: cur) :: lines_from [] r = filter finished (rev (10 :: cur) :: lines_from [] r) ++ rest /\ Forall (fun l => finished l = false) rest).
  { intros r L. destruct (IH r L []) as (rest & E & F). exists rest. split; [|exact F]. cbn [filter]. rewrite (proj2 (finished_iff _)) by (exists (rev cur); reflexivity).
    cbn [app]. f_equal. exact E. }
  destruct s as [|c r]; cbn [lines_from].
  - destruct cur as [|c cur]; [exists []; split; [reflexivity | constructor]|]. cbn [filter]. destruct (finished (rev (c :: cur))) eqn:X.
    + exists []. split; [reflexivity | constructor].
    + exists [rev (c :: cur)]. split; [reflexivity | repeat constructor; exact X].
  - destruct (c =? 10); [apply K; cbn; lia|]. destruct (c =? 13); [|apply IH; cbn; lia].
    destruct r as [|d r']; [apply K; cbn; lia|]. destruct (d =? 10); apply K; cbn; lia.
Qed.
Lemma whole_lines locale given name b t : locale b = (t, false) ->
  failure (text_source locale given name b) = Some UnicodeError /\
  (exists rest, file_lines t = lines (text_source locale given name b) ++ rest /\ ((exists x, In (x ++ [10]) rest) -> length (lines (text_source locale given name b)) = given name)) /\
  Forall (fun l => exists x, l = x ++ [10]) (lines (text_source locale given name b)).
Proof.
  intro E. unfold text_source. rewrite E. cbn [failure lines]. split; [reflexivity|]. destruct (whole_from t []) as (rest & W & F). fold (file_lines t) in W. split.
  - exists (skipn (given name) (filter finished (file_lines t)) ++ rest). split; [rewrite app_assoc, firstn_skipn; exact W|].
    intros (x & I). apply in_app_iff in I. destruct I as [I|I].
    + apply firstn_length_le. destruct (le_lt_dec (given name) (length (filter finished (file_lines t)))) as [L|L]; [exact L|].
      rewrite skipn_all2 in I by lia. destruct I.
    + rewrite Forall_forall in F. apply F in I. rewrite (proj2 (finished_iff _)) in I by eauto. discriminate.
  - apply Forall_forall. intros l I. apply finished_iff. apply (fun H => proj2 (proj1 (filter_In finished l (file_lines t)) H)).
    rewrite <- (firstn_skipn (given name)). apply in_app_iff. left. exact I.
Qed.
Section Narrow.
  Variables (dv : Z -> option Z) (disk : str -> option (list Z)) (stdin : source) (locale : list Z -> str * bool) (given : str -> nat).
  Hypothesis N : narrow locale.
  Lemma source_small name b : bytes b -> Forall small (lines (text_source locale given name b)).
  Proof.
    intros B; unfold text_source; pose proof (N b B) as S; destruct (locale b) as [t [|]]; cbn [fst lines] in *; [apply file_lines_small, S|].
    apply file_lines_small in S; rewrite Forall_forall in *; intros l I; apply S.
    apply (fun H => proj1 (filter_In finished l _) H); rewrite <- (firstn_skipn (given name)); apply in_app_iff; left; exact I.
  Qed.
  Lemma kanjidic_narrow names d : Forall ordinary names -> (forall n b, In n names -> disk n = Some b -> bytes b) ->
    kanjidic_bytes dv disk stdin locale given names = Ok d -> forall k, In k (dkeys d) -> small k.
  Proof.
    intros O B; unfold kanjidic_bytes; destruct names as [|n names]; [discriminate|].
    generalize dependent (n :: names); clear n names; intros names O B E.
    destruct (mapM (open_bytes disk stdin locale given) names) as [ss|] eqn:M; cbn [bind] in E; [|discriminate E]; apply mapM_inv in M.
    assert (K : forall k, In k (dkeys (@nil (str * dict str value))) -> small k) by (intros k []).
    revert O B K E; generalize (@nil (str * dict str value)) as self.
    induction M as [|n s names ss H M IH]; intros self O B K E; cbn [chain_bytes] in E; [injection E as <-; exact K|].
    inversion O as [|? ? On O']; subst; rewrite open_bytes_ordinary in H by exact On.
    destruct (disk n) as [b|] eqn:D; [|discriminate H]; injection H as <-.
    unfold over in E; destruct (parse_kanjidic dv _ self) as [self'|] eqn:P; cbn [bind] in E; [|discriminate E].
    destruct (failure (text_source locale given n b)); cbn [ended bind] in E; [discriminate E|].
    refine (IH self' O' _ _ E); [intros n' b' I' D'; apply (B n' b'); [right; exact I'|exact D']|].
    refine (parse_kanjidic_small dv _ self self' _ K P); apply source_small; apply (B n b); [left; reflexivity|exact D].
  Qed.
  Lemma over_lines {A} (parse : list str -> res A) s r : over parse s = Ok r -> parse (lines s) = Ok r.
  Proof. unfold over; destruct (parse (lines s)); cbn [bind]; [destruct (failure s); cbn; congruence|discriminate]. Qed.
  Lemma radk_narrow name b d : disk name = Some b -> bytes b -> radk_bytes dv disk locale given name = Ok d ->
    forall k, In k (dkeys (items d)) -> k < 256.
  Proof.
    intros D B; unfold radk_bytes, open_default; rewrite D; cbn [bind]; intros E; apply over_lines in E.
    apply (radk_small dv _ d (source_small name b B) E).
  Qed.
  Lemma zhuyin_narrow name b d : disk name = Some b -> bytes b -> zhuyin_bytes disk locale given name = Ok d ->
    forall k, In k (dkeys d) -> small k.
  Proof.
    intros D B; unfold zhuyin_bytes, open_default; rewrite D; cbn [bind]; intros E; apply over_lines in E.
    apply (zhuyin_small _ d (source_small name b B) E).
  Qed.
End Narrow.

(** ** The byte order mark *)
Definition marked (ls : list str) : list str := match ls with [] => [[bom]] | l :: r => (bom :: l) :: r end.
Lemma lines_marked s : forall cur, lines_from (cur ++ [bom]) s = marked (lines_from cur s).
Proof.
  assert (X : forall cur c, rev (c :: cur ++ [bom]) = bom :: rev (c :: cur)) by (intros cur c; cbn [rev]; rewrite rev_app_distr; reflexivity).
  assert (Y : forall cur : str, match cur ++ [bom] with [] => [] | _ => [rev (cur ++ [bom])] end = marked match cur with [] => [] | _ => [rev cur] end).
  { intros [|c cur]; [reflexivity|]; cbn [app]; rewrite X; reflexivity. }
  induction s as [|c s IH]; intros cur; cbn [lines_from]; [apply Y|].
  destruct (c =? 10); [rewrite X; reflexivity|]; destruct (c =? 13); [destruct s as [|d s]; [|destruct (d =? 10)]; rewrite X; reflexivity|].
  apply (IH (c :: cur)).
Qed.
Lemma file_lines_marked t : file_lines (bom :: t) = marked (file_lines t).
Proof. unfold file_lines; cbn [lines_from]; apply (lines_marked t []). Qed.
Lemma codec_marked s : forall cur, codec_from (cur ++ [bom]) s = marked (codec_from cur s).
Proof.
  assert (X : forall cur c, rev (c :: cur ++ [bom]) = bom :: rev (c :: cur)) by (intros cur c; cbn [rev]; rewrite rev_app_distr; reflexivity).
  assert (Y : forall cur : str, match cur ++ [bom] with [] => [] | _ => [rev (cur ++ [bom])] end = marked match cur with [] => [] | _ => [rev cur] end).
  { intros [|c cur]; [reflexivity|]; cbn [app]; rewrite X; reflexivity. }
  induction s as [|c s IH]; intros cur; cbn [codec_from]; [apply Y|].
  destruct (linebreak c); [|apply (IH (c :: cur))].
  destruct s as [|d s]; [rewrite X; reflexivity|]; destruct ((c =? 13) && (d =? 10)); [|rewrite X; reflexivity].
  change (10 :: 13 :: cur ++ [bom]) with (10 :: (13 :: cur) ++ [bom]); rewrite X; reflexivity.
Qed.
Lemma codec_lines_marked t : codec_lines (bom :: t) = marked (codec_lines t).
Proof. unfold codec_lines; cbn [codec_from]; change (linebreak bom) with false; cbv iota; apply (codec_marked t []). Qed.
Lemma marked_cons ls : exists l r, marked ls = (bom :: l) :: r.
Proof. destruct ls as [|l r]; [exists [], []|exists l, r]; reflexivity. Qed.

Lemma rstrip_bom l : exists q, rstrip (bom :: l) = bom :: q.
Proof.
  destruct (rstrip_split (bom :: l)) as [g [B [E H]]]; destruct (rstrip (bom :: l)) as [|c q]; [|injection E as <- _; exists q; reflexivity].
  exfalso; cbn [app] in E; subst g; unfold blank in B; discriminate B.
Qed.
Lemma strip_bom l : exists q, strip (bom :: l) = bom :: q.
Proof. unfold strip; rewrite lstrip_id by reflexivity; apply rstrip_bom. Qed.
Lemma split_ws_bom q : forall cur, exists w ws, split_ws_from (cur ++ [bom]) q = (bom :: w) :: ws.
Proof.
  induction q as [|c q IH]; intros cur; cbn [split_ws_from].
  - destruct (cur ++ [bom]) as [|x y] eqn:E; [destruct cur; discriminate E|rewrite <- E, rev_app_distr]; eexists _, _; reflexivity.
  - destruct (is_space c); [|apply (IH (c :: cur))].
    destruct (cur ++ [bom]) as [|x y] eqn:E; [destruct cur; discriminate E|rewrite <- E, rev_app_distr]; eexists _, _; reflexivity.
Qed.
Lemma words_bom l : exists w ws, split_ws (rstrip (bom :: l)) = (bom :: w) :: ws.
Proof. destruct (rstrip_bom l) as [q ->]; unfold split_ws; cbn [split_ws_from]; change (is_space bom) with false; apply (split_ws_bom q []). Qed.

Lemma segments_bom s ts : Kanjidic_spec.segments (bom :: s) ts -> exists w r, ts = (bom :: w) :: r.
Proof.
  inversion 1 as [| |w s' ts' N F T S E| |]; subst.
  destruct w as [|c w]; [contradiction|]; injection E as -> _; eexists _, _; reflexivity.
Qed.
Lemma kanjidic_kept dv ls : forall self d k, parse_kanjidic dv ls self = Ok d -> In k (dkeys self) -> In k (dkeys d).
Proof.
  induction ls as [|line ls IH]; intros self d k E I; cbn [parse_kanjidic] in E; [injection E as <-; exact I|].
  destruct (startswith (u "#") line); [eapply IH; eassumption|].
  destruct (Kanjidic_model.parse_line dv line) as [e|]; cbn [bind] in E; [|discriminate E].
  destruct (dget (u "kanji") e) as [[]|]; try discriminate E; apply (IH _ _ k E), In_dkeys_dset; right; exact I.
Qed.
Lemma kanjidic_bom dv l ls self d : parse_kanjidic dv ((bom :: l) :: ls) self = Ok d -> exists k, In (bom :: k) (dkeys d).
Proof.
  cbn [parse_kanjidic]; change (startswith (u "#") (bom :: l)) with false; cbv iota; intros E.
  destruct (Kanjidic_model.parse_line dv (bom :: l)) as [e|] eqn:P; cbn [bind] in E; [|discriminate E].
  destruct (parse_line_kanji dv _ e P) as [k [hex [ts [S D]]]]; rewrite D in E.
  destruct (strip_bom l) as [q Q]; rewrite Q in S; apply segments_bom in S; destruct S as [w [r S]]; injection S as -> _.
  exists w; apply (kanjidic_kept dv ls _ d _ E), In_dkeys_dset; left; reflexivity.
Qed.
Lemma radk_bom dv l ls d : parse_radkfile dv ((bom :: l) :: ls) = Ok d -> In bom (dkeys (items d)).
Proof.
  intros E; destruct (Radk_proofs.loaded dv _ d E) as [bs [B [_ [_ [K _]]]]]; apply K.
  assert (L : kanji_line (bom :: l)).
  { split; intros [r R]; destruct (rstrip_bom l) as [q Q]; rewrite Q in R; discriminate R. }
  inversion B as [|? ? ? r bs' L' F B'|? ? ? ? NL B']; subst; [|contradiction].
  eexists; split; [left; reflexivity|]; cbn [snd]; destruct (strip_bom l) as [q ->]; left; reflexivity.
Qed.
Lemma pairs_kept rows : forall (s d : dict str str) k, for_pairs (fun t z p => dset z p t) rows s = Ok d -> In k (dkeys s) -> In k (dkeys d).
Proof.
  induction rows as [|row rows IH]; intros s d k E I; cbn [for_pairs] in E; [injection E as <-; exact I|].
  destruct row as [|z [|p [|]]]; try discriminate E; apply (IH _ _ k E), In_dkeys_dset; right; exact I.
Qed.
Lemma zhuyin_bom l ls d : zhuyin_to_pinyin_table ((bom :: l) :: ls) = Ok d -> exists k, In (bom :: k) (dkeys d).
Proof.
  unfold zhuyin_to_pinyin_table, parse_lines; cbn [filter]; change (negb (starts_hash (bom :: l))) with true; cbv iota; cbn [map].
  destruct (words_bom l) as [w [ws ->]]; destruct ws as [|p [|]]; cbn [for_pairs]; try discriminate.
  intros E; exists w; apply (pairs_kept _ _ d _ E), In_dkeys_dset; left; reflexivity.
Qed.
Lemma table_kept ls : forall t d k, load_table ls t = Ok d -> In k (dkeys t) -> In k (dkeys d).
Proof.
  induction ls as [|line ls IH]; intros t d k E I; cbn [load_table] in E; [injection E as <-; exact I|].
  destruct (starts_hash line); [eapply IH; eassumption|]; destruct (split_ws (rstrip line)) as [|h r]; [discriminate E|].
  apply (IH _ _ k E), In_dkeys_dset; right; exact I.
Qed.
Lemma table_bom l ls t d : load_table ((bom :: l) :: ls) t = Ok d -> exists k, In (bom :: k) (dkeys d).
Proof.
  cbn [load_table]; change (starts_hash (bom :: l)) with false; cbv iota; destruct (words_bom l) as [w [ws ->]].
  intros E; exists w; apply (table_kept _ _ d _ E), In_dkeys_dset; left; reflexivity.
Qed.
Lemma int_bom dv w : dv bom = None -> py_int dv 10 (bom :: w) = None.
Proof.
  intros D; unfold py_int; set (p := int_space).
  assert (P : p bom = false) by (reflexivity).
  cbn [lstrip_by]; rewrite P.
  assert (X : exists q, rev (lstrip_by p (rev (bom :: w))) = bom :: q).
  { clearbody p; cbn [rev]; generalize (rev w) as v; induction v as [|c v [q IH]]; cbn [app lstrip_by]; [rewrite P; exists []; reflexivity|].
    destruct (p c); [exists q; exact IH|]; change (c :: v ++ [bom]) with ((c :: v) ++ [bom]); rewrite rev_app_distr; eexists; reflexivity. }
  destruct X as [q ->]; cbn [Z.eqb bom Pos.eqb digits_val]; unfold digit_val; fold bom; rewrite D; reflexivity.
Qed.
Lemma place_bom dv h l ls : dv bom = None -> from_file dv h ((bom :: l) :: ls) = Raise ValueError.
Proof.
  intros D; cbn [from_file]; unfold from_line; destruct (words_bom l) as [w [ws ->]].
  destruct ws as [|a [|b [|c [|]]]]; try reflexivity; rewrite (int_bom dv w D); reflexivity.
Qed.

(* the first field of the first row begins with the mark *)
Definition opened (s : rd) : Prop :=
  match fields s with [] => state s = IN_FIELD /\ exists w, field s = bom :: w | f :: _ => exists w, f = bom :: w end.
Lemma opened_save s st : opened s -> opened (save_field s st).
Proof.
  unfold opened, save_field; cbn [fields field state]; destruct (fields s) as [|f fs]; cbn [app]; [intros [_ [w ->]]|intros [w ->]]; eexists; reflexivity.
Qed.
Lemma opened_later s st f : fields s <> [] -> opened s -> opened (mkrd st f (fields s)).
Proof. unfold opened; cbn [fields]; destruct (fields s); [contradiction|auto]. Qed.
Lemma opened_add s st c s' : opened s -> (fields s = [] -> st = IN_FIELD) -> add_char s st c = Ok s' -> opened s'.
Proof.
  unfold add_char; destruct (_ <=? _); [discriminate|]; intros O H E; injection E as <-; unfold opened in *; cbn [fields field state].
  destruct (fields s); [destruct O as [_ [w ->]]; split; [apply H; reflexivity|eexists; reflexivity]|exact O].
Qed.
Lemma opened_step s c s' : opened s -> process_char s c = Ok s' -> opened s'.
Proof.
  intros O E; assert (H : fields s = [] -> state s = IN_FIELD) by (unfold opened in O; destruct (fields s); [intros _; apply O|discriminate]).
  assert (L : state s <> IN_FIELD -> fields s <> []) by (intros N F; apply N, H, F).
  unfold process_char, start_field in E; destruct (state s) eqn:St;
    try (specialize (L ltac:(discriminate)));
    repeat match type of E with
      | Ok s = Ok _ => injection E as <-; exact O
      | Ok (save_field _ _) = Ok _ => injection E as <-; apply opened_save, O
      | Ok (mkrd _ _ _) = Ok _ => injection E as <-; apply opened_later; assumption
      | add_char _ _ _ = Ok _ => eapply opened_add; [exact O| |exact E]; intros F; first [reflexivity|contradiction]
      | Raise _ = Ok _ => discriminate E
      | context[if ?b then _ else _] => destruct b
      | context[match ?c with Some _ => _ | None => _ end] => destruct c
      end.
Qed.
Lemma opened_feed l : forall s s', opened s -> feed s l = Ok s' -> opened s'.
Proof.
  induction l as [|c l IH]; intros s s' O E; cbn [feed] in E; [injection E as <-; exact O|].
  destruct (c =? 0); [discriminate E|]; destruct (process_char s (Some c)) as [s1|] eqn:P; cbn [bind] in E; [|discriminate E].
  eapply IH; [|exact E]; eapply opened_step; [exact O|exact P].
Qed.
Lemma line_end s s' : process_char s None = Ok s' -> opened s -> opened s' /\ (state s' = START_RECORD /\ fields s' <> [] \/ state s' = IN_QUOTED_FIELD).
Proof.
  intros E O; split; [eapply opened_step; eassumption|].
  assert (F : state s <> IN_FIELD -> fields s <> []).
  { intros N F; unfold opened in O; rewrite F in O; destruct O; contradiction. }
  assert (A : forall st, fields (save_field s st) <> []) by (intros st; unfold save_field; cbn [fields]; destruct (fields s); discriminate).
  unfold process_char, start_field in E; cbn [newline after_line] in E; destruct (state s) eqn:St; injection E as <-; cbn [state fields];
    try (left; split; [reflexivity|apply A]); try (left; split; [assumption || reflexivity|apply F; discriminate]); right; exact St.
Qed.
Lemma opened_row s : opened s -> fields s <> [] -> exists w r, fields s = (bom :: w) :: r.
Proof. unfold opened; destruct (fields s); [contradiction|]; intros [w ->] _; eexists _, _; reflexivity. Qed.
Lemma rows_quoted ls f : forall s, opened s -> state s = IN_QUOTED_FIELD ->
  (exists w r rows o, rows_from s ls f = (((bom :: w) :: r) :: rows, o)) \/ exists e, rows_from s ls f = ([], Raise e).
Proof.
  induction ls as [|l ls IH]; intros s O Q; cbn [rows_from].
  - destruct f as [e|]; [right; eexists; reflexivity|]; rewrite Q; cbn [is_quoted]; rewrite orb_true_r; left.
    assert (F : fields s <> []) by (intros F; unfold opened in O; rewrite F, Q in O; destruct O; discriminate).
    destruct (opened_row s O F) as [w [r ->]]; eexists _, _, _, _; reflexivity.
  - unfold feed_line; destruct (feed s l) as [s1|] eqn:E; cbn [bind]; [|right; eexists; reflexivity].
    apply (opened_feed l s s1 O) in E; destruct (process_char s1 None) as [s2|] eqn:P; [|right; eexists; reflexivity].
    destruct (line_end s1 s2 P E) as [O2 [[S2 F2]|S2]]; rewrite S2; cbn [is_start]; [|apply IH; assumption].
    destruct (rows_from reset ls f) as [rows o]; left; destruct (opened_row s2 O2 F2) as [w [r ->]]; eexists _, _, _, _; reflexivity.
Qed.
Lemma rows_bom l ls f : (exists w r rows o, load_file (mksource ((bom :: l) :: ls) f) = (((bom :: w) :: r) :: rows, o)) \/
  exists e, load_file (mksource ((bom :: l) :: ls) f) = ([], Raise e).
Proof.
  unfold load_file; cbn [lines failure rows_from]; unfold feed_line; cbn [feed]; change (bom =? 0) with false; cbv iota.
  change (process_char reset (Some bom)) with (Ok (mkrd IN_FIELD [bom] [])); cbn [bind].
  assert (O : opened (mkrd IN_FIELD [bom] [])) by (split; [reflexivity|exists []; reflexivity]).
  destruct (feed _ l) as [s1|] eqn:E; cbn [bind]; [|right; eexists; reflexivity].
  apply (opened_feed l _ s1 O) in E; destruct (process_char s1 None) as [s2|] eqn:P; [|right; eexists; reflexivity].
  destruct (line_end s1 s2 P E) as [O2 [[S2 F2]|S2]]; rewrite S2; cbn [is_start]; [|apply rows_quoted; assumption].
  destruct (rows_from reset ls f) as [rows o]; left; destruct (opened_row s2 O2 F2) as [w [r ->]]; eexists _, _, _, _; reflexivity.
Qed.
Lemma link_bom dv w r : dv bom = None -> link_row dv ((bom :: w) :: r) = Raise InvalidFileError.
Proof.
  intros D; unfold link_row, int_; destruct r as [|b [|]]; try reflexivity; rewrite (int_bom dv w D); reflexivity.
Qed.
Lemma links_bom dv lower name l ls f ids flt : dv bom = None ->
  exists e, snd (new_links dv lower name (load_file (mksource ((bom :: l) :: ls) f)) ids flt) = Raise e.
Proof.
  intros D; unfold new_links; destruct (ids_filter lower _ flt) as [[[fs ft] v]|e]; [|eexists; reflexivity].
  unfold set_links; destruct (rows_bom l ls f) as [[w [r [rows [o ->]]]]|[e ->]]; cbn [fst snd read_links].
  - rewrite (link_bom dv w r D); eexists; reflexivity.
  - eexists; reflexivity.
Qed.
Lemma indices_bom dv name l ls f edict ids : dv bom = None ->
  exists e, new_indices dv name (load_file (mksource ((bom :: l) :: ls) f)) edict ids = Raise e.
Proof.
  intros D; unfold new_indices, set_indices; destruct (rows_bom l ls f) as [[w [r [rows [o ->]]]]|[e ->]]; cbn [fst snd index_rows].
  - unfold index_row; destruct r as [|b [|c [|]]]; cbn [bind]; try (eexists; reflexivity); unfold int_; rewrite (int_bom dv w D); eexists; reflexivity.
  - eexists; reflexivity.
Qed.

(** ** Files that hold an encoded text *)
Lemma stored_holds disk content n : stored disk content n -> holds utf8 disk content n.
Proof.
  intros [E S]; unfold holds; rewrite E; destruct (content n) as [t|]; cbn [option_map]; [|exact I].
  apply utf8_exact; [apply encoded_bytes, S; reflexivity|split; [apply S; reflexivity|reflexivity]].
Qed.
Lemma bom_stored disk n t : Forall scalar t -> disk n = Some (encoded (bom :: t)) -> holds utf8 disk (fun _ => Some (bom :: t)) n.
Proof.
  intros S E; unfold holds; rewrite E; assert (S' : Forall scalar (bom :: t)) by (constructor; [unfold scalar, bom; lia|exact S]).
  apply utf8_exact; [apply encoded_bytes, S'|split; [exact S'|reflexivity]].
Qed.
Section Bom.
  Variables (dv : Z -> option Z) (disk : str -> option (list Z)) (stdin : source) (given : str -> nat) (n t : str).
  Hypothesis S : Forall scalar t.
  Hypothesis E : disk n = Some (encoded (bom :: t)).
  Lemma bom_read : ordinary n -> exists l ls,
    kanjidic_bytes dv disk stdin utf8 given [n] = parse_kanjidic dv ((bom :: l) :: ls) [] /\
    radk_bytes dv disk utf8 given n = parse_radkfile dv ((bom :: l) :: ls) /\
    zhuyin_bytes disk utf8 given n = zhuyin_to_pinyin_table ((bom :: l) :: ls) /\
    load_bytes disk stdin utf8 given n = load_file (mksource ((bom :: l) :: ls) None) /\
    (forall h, place_bytes dv disk stdin utf8 given h n = from_file dv h ((bom :: l) :: ls)).
  Proof.
    intros O; pose proof (bom_stored disk n t S E) as H; destruct (marked_cons (file_lines t)) as [l [ls M]]; rewrite <- file_lines_marked in M; exists l, ls.
    destruct (readers_decoded dv disk stdin [] utf8 given _ [] n H) as [R [Z [_ [_ P]]]]; destruct (P O) as [L _].
    split; [|split; [|split; [|split]]].
    - rewrite (kanjidic_decoded dv disk stdin [] utf8 given _ [n] (Forall_cons _ O (Forall_nil _)) (Forall_cons _ H (Forall_nil _))).
      unfold kanjidic_files; cbn [mapM]; rewrite open_ordinary by exact O; cbn [bind parse_chain]; rewrite M.
      destruct (parse_kanjidic dv _ []); reflexivity.
    - rewrite R; unfold radk_path, open_text; cbn [bind]; rewrite M; reflexivity.
    - rewrite Z; unfold zhuyin_path, open_text; cbn [bind]; rewrite M; reflexivity.
    - rewrite L, load_ordinary by exact O; rewrite M; reflexivity.
    - intros h; destruct (readers_decoded dv disk stdin [] utf8 given _ h n H) as [_ [_ [_ [_ P']]]]; destruct (P' O) as [_ Q].
      rewrite Q, place_ordinary by exact O; rewrite M; reflexivity.
  Qed.
  Lemma bom_kanjidic d : ordinary n -> kanjidic_bytes dv disk stdin utf8 given [n] = Ok d -> exists k, In (bom :: k) (dkeys d).
  Proof. intros O; destruct (bom_read O) as [l [ls [-> _]]]; apply kanjidic_bom. Qed.
  Lemma bom_radk d : ordinary n -> radk_bytes dv disk utf8 given n = Ok d -> In bom (dkeys (items d)).
  Proof. intros O; destruct (bom_read O) as [l [ls [_ [-> _]]]]; apply radk_bom. Qed.
  Lemma bom_zhuyin d : ordinary n -> zhuyin_bytes disk utf8 given n = Ok d -> exists k, In (bom :: k) (dkeys d).
  Proof. intros O; destruct (bom_read O) as [l [ls [_ [_ [-> _]]]]]; apply zhuyin_bom. Qed.
  Lemma bom_links lower name ids flt : dv bom = None -> ordinary n ->
    exists e, snd (new_links dv lower name (load_bytes disk stdin utf8 given n) ids flt) = Raise e.
  Proof. intros D O; destruct (bom_read O) as [l [ls [_ [_ [_ [-> _]]]]]]; apply links_bom, D. Qed.
  Lemma bom_indices name edict ids : dv bom = None -> ordinary n ->
    exists e, new_indices dv name (load_bytes disk stdin utf8 given n) edict ids = Raise e.
  Proof. intros D O; destruct (bom_read O) as [l [ls [_ [_ [_ [-> _]]]]]]; apply indices_bom, D. Qed.
  Lemma bom_place h : dv bom = None -> ordinary n -> place_bytes dv disk stdin utf8 given h n = Raise ValueError.
  Proof. intros D O; destruct (bom_read O) as [l [ls [_ [_ [_ [_ ->]]]]]]; apply place_bom, D. Qed.
  Lemma bom_table d : table_bytes disk given n = Ok d -> exists k, In (bom :: k) (dkeys d).
  Proof.
    rewrite (table_decoded disk given _ n (bom_stored disk n t S E)); unfold table_path; rewrite codec_lines_marked.
    destruct (marked_cons (codec_lines t)) as [l [ls ->]]; apply table_bom.
  Qed.
End Bom.

(** ** Writing *)
Lemma dump_round dv repr sep stdin given encode torn locale h t fuel h0 disk name :
  (forall s b, encode s = Some b -> locale b = (s, true)) ->
  ascii_digits dv -> line_separator sep -> ordinary name ->
  Place_spec.tree_at h t -> Place_spec.keyed h t -> (forall a, In a (Rose.nodes t) -> Place_spec.storable (at_ h a)) -> (Rose.rsize t < fuel)%nat ->
  exists text, dump_bytes repr sep encode torn fuel h (Rose.root t) disk name =
      match encode text with Some b => (dset name b disk, Ok tt) | None => (dset name torn disk, Raise UnicodeError) end /\
    forall b, encode text = Some b -> exists h' t',
      place_bytes dv (fun n => dget n (dset name b disk)) stdin locale given h0 name = Ok (h', Rose.root t') /\
      Place_spec.tree_at h' t' /\ Place_spec.keyed h' t' /\ Rose.rosemap (Place_spec.details h') t' = Rose.rosemap (Place_spec.details h) t.
Proof.
  intros P A L O T K St F; destruct (place_round dv repr sep [] h t fuel h0 [] name A L O T K St F) as [files [h' [t' [D [_ [R [T' [K' M]]]]]]]].
  pose proof R as R'; rewrite place_ordinary in R' by exact O; destruct (dget name files) as [text|] eqn:G; [|discriminate R'].
  exists text; split.
  - unfold dump_bytes; rewrite D, G; reflexivity.
  - intros b E; exists h', t'; split; [|auto].
    assert (H : holds locale (fun n => dget n (dset name b disk)) (fun n => dget n files) name).
    { unfold holds; rewrite dget_dset_same, G; apply P, E. }
    destruct (readers_decoded dv _ stdin [] locale given _ h0 name H) as [_ [_ [_ [_ Q]]]]; destruct (Q O) as [_ ->]; exact R.
Qed.

Lemma list_bom environ own user isdir disk disk' name f t : Forall scalar t ->
  get_resource environ own user isdir (u "lists/char/" ++ name) = Ok f ->
  disk f = Some (encoded t) -> disk' f = Some (encoded (bom :: t)) ->
  exists l', get_list environ own user isdir (utf8_contents disk) name = Ok (unique_kanji t) /\
    get_list environ own user isdir (utf8_contents disk') name = Ok l' /\ forall c, In c l' <-> In c (unique_kanji t).
Proof.
  intros S G D D'; unfold get_list; rewrite G; cbn [bind]; unfold utf8_contents; rewrite D, D'.
  assert (X : utf8 (encoded t) = (t, true)) by (apply utf8_exact; [apply encoded_bytes, S|auto]).
  assert (S' : Forall scalar (bom :: t)) by (constructor; [unfold scalar, bom; lia|exact S]).
  assert (Y : utf8 (encoded (bom :: t)) = (bom :: t, true)) by (apply utf8_exact; [apply encoded_bytes, S'|auto]).
  exists (unique_kanji (bom :: t)); rewrite X, Y; split; [reflexivity|split; [reflexivity|]].
  intros c; rewrite (proj2 (unique_kanji_spec (bom :: t))), (proj2 (unique_kanji_spec t)); cbn [In].
  split; [intros [[<-|I] K]; [|auto]|tauto].
  exfalso; apply (script_of bom [] Kanji) in K; vm_compute in K; discriminate K.
Qed.
