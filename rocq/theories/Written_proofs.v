From Verif Require Import Base PyStr PyText PyFmt Maps_model Common_model Csv_spec Csv_model Csv_proofs Bilingual_spec Tatoeba_model Kanjidic_model Kanjidic_spec Kanjidic_proofs Radk_model Radk_spec Radk_proofs Pinyin_model Pinyin_spec Files_model Files_spec Files_proofs Encoding_model Encoding_spec Utf8_proofs Encoding_proofs Python2_model Python2_spec Python2_proofs Python2_props Corpus_model Corpus_spec Corpus_proofs Written_spec.

(** ** Files *)
Lemma lines_fed lines : Forall (Forall line_char) lines -> let t := flat_map (fun l => l ++ [10]) lines in
  Forall scalar t /\ regular t /\ exists ps, cut newline t ps /\ map fst ps = lines.
Proof.
  cbv zeta. induction 1 as [|l lines L F (S & R & ps & C & E)]; cbn [flat_map]; [repeat split; [constructor|constructor|exists []; split; [constructor|reflexivity]]|].
  assert (N : Forall (fun c => ~ newline c) l) by (revert L; apply Forall_impl; intros c [_ X] Y; apply X; left; exact Y).
  split; [|split].
  - apply Forall_app; split; [apply Forall_app; split|exact S]; [revert L; apply Forall_impl; intros c X; apply X|]. constructor; [left; lia|constructor].
  - apply Forall_app; split; [apply Forall_app; split|exact R].
    + revert L; apply Forall_impl; intros c [_ X] Y; apply X; right; exact Y.
    + constructor; [|constructor]. unfold exotic; cbn [In]; intuition discriminate.
  - exists ((l, [10]) :: ps). split; [|cbn [map fst]; rewrite E; reflexivity]. rewrite <- app_assoc. constructor; [exact N| |exact C].
    constructor; [left; reflexivity|discriminate].
Qed.

Lemma lines_names disk names liness : Forall2 (lines_in disk) names liness ->
  exists ts, Forall2 (fun n t => disk n = Some (encoded t) /\ Forall scalar t /\ regular t) names ts /\
    Forall2 tailed (map file_lines ts) liness.
Proof.
  induction 1 as [|n ls names liness (t & ps & D & S & R & C & E) F (ts & A & B)]; [exists []; split; constructor|].
  exists (t :: ts). split; [constructor; [auto|exact A]|]. cbn [map]. constructor; [|exact B].
  rewrite (text_lines t ps C), <- E. apply fed_tailed.
Qed.
Lemma tailed_concat lss bss : Forall2 tailed lss bss -> tailed (concat lss) (concat bss).
Proof. induction 1 as [|a b lss bss H F IH]; [constructor|]; cbn [concat]. apply Forall2_app; assumption. Qed.

Section Kanjidic.
  Variable dv : Z -> option Z.
  Lemma laid_head body t ts : laid_out body (t :: ts) -> exists r, body = t ++ r.
  Proof. intros H. inversion H; subst; [exists []; rewrite app_nil_r|eexists]; reflexivity. Qed.
  Lemma writes_line i l : writes i l ->
    match i with
    | Remark _ => comment l
    | Entry k hex fs => ~ comment l /\ forall jis sc codes, sound dv hex fs jis sc codes ->
        exists e, parse_line dv l = Ok e /\ shows dv k fs jis sc codes e
    end.
  Proof.
    destruct 1 as [r|k hex fs g0 body g1 B0 B1 Pk Ph Hk Ff L]; [exists r; reflexivity|]. split.
    - intros [r E]. destruct (laid_head _ _ _ L) as [q ->]. destruct g0 as [|c g0].
      + destruct Pk as [N _]. destruct k as [|c k]; [contradiction|]. cbn in E, Hk. congruence.
      + cbn [app] in E. injection E as -> _. unfold blank in B0; cbn [forallb] in B0. discriminate B0.
    - intros jis sc codes S. inversion S as [? ? ? ? scs p ps parts ? J Sc Sk P N F C]; subst.
      exact (line_ok dv k hex body g0 g1 fs jis B0 B1 Pk Ph Ff L J sc scs _ parts codes ps Sc Sk eq_refl N F C).
  Qed.

  Lemma init_tailed lss bss : Forall2 tailed lss bss -> init dv lss = init dv bss.
  Proof.
    intros F. destruct F as [|a b lss bss H F]; [reflexivity|].
    rewrite !init_lines by discriminate. apply kanjidic_tailed, tailed_concat. constructor; assumption.
  Qed.

  Definition wanted_sound (is : list item) : Prop :=
    forall k hex fs, In (Entry k hex fs) is -> exists jis sc codes, sound dv hex fs jis sc codes.

  Lemma items_init liness is : liness <> [] -> Forall2 writes is (concat liness) -> wanted_sound is ->
    exists d, init dv liness = Ok d /\
      (forall k, In k (dkeys d) <-> exists hex fs, In (Entry k hex fs) is) /\
      forall a k hex fs b jis sc codes, is = a ++ Entry k hex fs :: b -> (forall hex' fs', ~ In (Entry k hex' fs') b) -> sound dv hex fs jis sc codes ->
        exists e, dget k d = Some e /\ shows dv k fs jis sc codes e.
  Proof.
    intros N F W.
    assert (Ln : forall l is ls, Forall2 writes is ls -> wanted_sound is -> In l ls -> ~ comment l ->
      exists k hex fs jis sc codes e, In (Entry k hex fs) is /\ sound dv hex fs jis sc codes /\ parse_line dv l = Ok e /\ shows dv k fs jis sc codes e).
    { clear. intros l is ls F W I NC. apply In_nth_error in I. destruct I as [n E].
      revert n E. induction F as [|i l' is ls H F IH]; intros n E; [destruct n; discriminate E|].
      destruct n as [|n]; cbn [nth_error] in E.
      - injection E as ->. pose proof (writes_line i l H) as X. destruct i as [r|k hex fs]; [contradiction|]. destruct X as [_ X].
        destruct (W k hex fs (or_introl eq_refl)) as (jis & sc & codes & S). destruct (X _ _ _ S) as (e & P & Sh).
        exists k, hex, fs, jis, sc, codes, e. split; [left; reflexivity|auto].
      - destruct (IH (fun k hex fs I => W k hex fs (or_intror I)) n E) as (k & hex & fs & jis & sc & codes & e & I & X).
        exists k, hex, fs, jis, sc, codes, e. split; [right; exact I|exact X]. }
    destruct (init dv liness) as [d|x] eqn:E.
    2:{ apply init_raise in E; [|exact N]. destruct E as (a & l & b & C & NC & P & _).
        destruct (Ln l is _ F W) as (k & hex & fs & jis & sc & codes & e & _ & _ & P' & _); [rewrite C; apply in_or_app; right; left; reflexivity|exact NC|congruence]. }
    pose proof (init_ok dv liness d E) as G.
    assert (Last : forall a k hex fs b jis sc codes, is = a ++ Entry k hex fs :: b -> (forall hex' fs', ~ In (Entry k hex' fs') b) -> sound dv hex fs jis sc codes ->
        exists e, dget k d = Some e /\ shows dv k fs jis sc codes e).
    { intros a k hex fs b jis sc codes -> NI S. apply Forall2_app_inv_l in F. destruct F as (la & lb & Fa & Fb & C).
      inversion Fb as [|? l ? lb' Hl Fb' E1 E2]; subst. pose proof (writes_line _ _ Hl) as [NC X]. destruct (X _ _ _ S) as (e & P & Sh).
      exists e. split; [|exact Sh]. apply G. exists la, l, lb'. split; [exact C|]. split; [exact NC|]. split; [exact P|]. split; [apply Sh|].
      intros l' e' I' NC' P' HK.
      destruct (Ln l' b lb' Fb') as (k2 & hex2 & fs2 & j2 & s2 & c2 & e2 & I2 & _ & P2 & Sh2); [|exact I'|exact NC'|].
      - intros k3 h3 f3 I3. apply (W k3 h3 f3). apply in_or_app; right; right; exact I3.
      - rewrite P' in P2; injection P2 as <-. destruct Sh2 as [K2 _]. unfold has_kanji in HK. rewrite HK in K2. injection K2 as <-. exact (NI _ _ I2). }
    exists d. split; [reflexivity|]. split; [|exact Last]. intros k; split.
    - intros I. destruct (dget k d) as [e|] eqn:D; [|apply dget_None in D; contradiction]. apply G in D.
      destruct D as (a & l & b & C & NC & P & HK & _).
      destruct (Ln l is _ F W) as (k' & hex & fs & jis & sc & codes & e' & Ie & _ & P' & Sh); [rewrite C; apply in_or_app; right; left; reflexivity|exact NC|].
      rewrite P in P'; injection P' as <-. destruct Sh as [K _]. unfold has_kanji in HK. rewrite HK in K. injection K as <-. exists hex, fs; exact Ie.
    - intros (hex & fs & I).
      assert (Sp : exists a hex fs b, is = a ++ Entry k hex fs :: b /\ forall hex' fs', ~ In (Entry k hex' fs') b).
      { clear -I. revert hex fs I. induction is as [|i is IH]; intros hex fs I; [destruct I|].
        destruct (in_dec (fun x y : str => list_eq_dec Z.eq_dec x y) k (map (fun i => match i with Entry k _ _ => k | Remark _ => [] end) (filter (fun i => match i with Entry _ _ _ => true | _ => false end) is))) as [Y|Y].
        - apply in_map_iff in Y. destruct Y as ([r|k' h' f'] & E & Y); apply filter_In in Y; destruct Y as [Y Q]; [discriminate Q|]. subst k'.
          destruct (IH h' f' Y) as (a & h2 & f2 & b & -> & X). exists (i :: a), h2, f2, b. split; [reflexivity|exact X].
        - assert (X : forall h f, ~ In (Entry k h f) is).
          { intros h f J; apply Y. apply in_map_iff. exists (Entry k h f). split; [reflexivity|]. apply filter_In; split; [exact J|reflexivity]. }
          destruct I as [->|I]; [|destruct (X _ _ I)]. exists [], hex, fs, is. split; [reflexivity|exact X]. }
      destruct Sp as (a & h' & f' & b & Eq & X). destruct (W k h' f') as (jis & sc & codes & S); [rewrite Eq; apply in_or_app; right; left; reflexivity|].
      destruct (Last a k h' f' b jis sc codes Eq X S) as (e & D & _). apply dget_In in D. apply (in_map fst) in D. exact D.
  Qed.

  Lemma items_concat names disk itemss : Forall2 (fun n is => exists lines, lines_in disk n lines /\ Forall2 writes is lines) names itemss ->
    exists liness, Forall2 (lines_in disk) names liness /\ Forall2 writes (concat itemss) (concat liness).
  Proof.
    induction 1 as [|n is names itemss (ls & L & W) F (lss & A & B)]; [exists []; split; constructor|].
    exists (ls :: lss). split; [constructor; assumption|]. cbn [concat]. apply Forall2_app; assumption.
  Qed.
End Kanjidic.

Section Radicals.
  Variable dv : Z -> option Z.
  Lemma not_both l : comment_line l -> ~ radical_line l.
  Proof. intros [r E] [q F]. rewrite E in F. discriminate F. Qed.
  Lemma rwrites_radical i l : rwrites dv i l -> (radical_line l <-> exists r n, i = Radical r n).
  Proof.
    destruct 1 as [l C|r n l H|l K]; split; try (intros (r' & n' & X); discriminate X).
    - intros R; destruct (not_both l C R).
    - intros _; eauto.
    - intros _; exact (header_radical dv l r n H).
    - intros R; destruct K as [_ K]; contradiction.
  Qed.
  Lemma rwrites_header i l r n : rwrites dv i l -> (header_of dv l r n <-> i = Radical r n).
  Proof.
    intros H; split.
    - intros X. destruct (proj1 (rwrites_radical i l H) (header_radical dv l r n X)) as (r' & n' & ->). inversion H; subst.
      destruct (header_fun dv l r n r' n') as [-> ->]; [exact X|assumption|reflexivity].
    - intros ->. inversion H; subst; assumption.
  Qed.
  Lemma rwrites_kanji i l : rwrites dv i l -> (kanji_line l <-> i = Kanji (strip l)).
  Proof.
    intros H; split.
    - intros [NC NR]. destruct H as [l C|r n l H|l K]; [contradiction|destruct (NR (header_radical dv l r n H))|reflexivity].
    - intros E. inversion H; subst; try discriminate; assumption.
  Qed.
  Lemma plain_lines is ls : Forall2 (rwrites dv) is ls -> (Forall no_radical is <-> forall l, In l ls -> ~ radical_line l).
  Proof.
    induction 1 as [|i l is ls H F IH]; [split; [intros _ l []|constructor]|]. split.
    - intros N. inversion N as [|? ? Ni Ns]; subst. intros x [->|I]; [|exact (proj1 IH Ns x I)].
      intros R. apply (rwrites_radical _ _ H) in R. destruct R as (r & n & ->). exact Ni.
    - intros N. constructor; [|apply IH; intros x I; apply N; right; exact I].
      destruct i; try exact I. exfalso. apply (N l (or_introl eq_refl)). apply (rwrites_radical _ _ H). eauto.
  Qed.
  Lemma force_items is ls : Forall2 (rwrites dv) is ls ->
    (in_force dv ls None <-> Forall no_radical is) /\
    forall r, in_force dv ls (Some r) <-> exists a n b, is = a ++ Radical r n :: b /\ Forall no_radical b.
  Proof.
    intros F; split.
    - rewrite (plain_lines is ls F). split; [intros X; inversion X; subst; assumption|intros X; constructor; exact X].
    - intros r; split.
      + intros X. inversion X as [|a l r' n b H N E1 E2]; subst. apply Forall2_app_inv_r in F. destruct F as (ia & ib & Fa & Fb & ->).
        inversion Fb as [|i ? ib' ? Hi Fb']; subst. apply (rwrites_header _ _ r n Hi) in H. subst i.
        exists ia, n, ib'. split; [reflexivity|]. apply (plain_lines ib' b Fb'). exact N.
      + intros (a & n & b & -> & N). apply Forall2_app_inv_l in F. destruct F as (la & lb & Fa & Fb & ->).
        inversion Fb as [|? l ? lb' Hi Fb']; subst. apply (IF_some dv la l r n lb').
        * apply (rwrites_header _ _ r n Hi). reflexivity.
        * apply (plain_lines b lb' Fb'). exact N.
  Qed.
  Lemma member_items is ls d k r : Forall2 (rwrites dv) is ls -> parse_radkfile dv ls = Ok d ->
    (In r (dlist k (items d)) <-> match r with Some r => under is r k | None => before_radicals is k end).
  Proof.
    intros F P. rewrite (loaded_member dv ls d k r P). split.
    - intros (a & l & b & -> & K & IF & I). apply Forall2_app_inv_r in F. destruct F as (ia & ib & Fa & Fb & ->).
      inversion Fb as [|i ? ib' ? Hi Fb']; subst. apply (rwrites_kanji _ _ Hi) in K. subst i.
      destruct (force_items ia a Fa) as [FN FS]. destruct r as [r|].
      + apply FS in IF. destruct IF as (x & n & y & -> & N). exists x, n, y, (strip l), ib'. split; [rewrite <- app_assoc; reflexivity|split; assumption].
      + apply FN in IF. exists ia, (strip l), ib'. split; [reflexivity|split; assumption].
    - intros H. assert (G : exists x ks c, is = x ++ Kanji ks :: c /\ In k ks /\ forall lx, Forall2 (rwrites dv) x lx -> in_force dv lx r).
      { destruct r as [r|].
        - destruct H as (a & n & b & ks & c & -> & N & I). exists (a ++ Radical r n :: b), ks, c. split; [rewrite <- app_assoc; reflexivity|]. split; [exact I|].
          intros lx Fx. apply (force_items _ lx Fx). exists a, n, b. split; [reflexivity|exact N].
        - destruct H as (b & ks & c & -> & N & I). exists b, ks, c. split; [reflexivity|]. split; [exact I|]. intros lx Fx. apply (force_items _ lx Fx). exact N. }
      destruct G as (x & ks & c & -> & I & G). apply Forall2_app_inv_l in F. destruct F as (lx & lc & Fx & Fc & ->).
      inversion Fc as [|? l ? lc' Hi Fc']; subst. exists lx, l, lc'. split; [reflexivity|]. inversion Hi; subst. split; [assumption|]. split; [apply G, Fx|exact I].
  Qed.
  Lemma strokes_items is ls r n : Forall2 (rwrites dv) is ls -> (strokes dv ls (Some r) n <-> last_strokes is r n).
  Proof.
    intros F; split.
    - intros (a & l & b & q & E & -> & H & N). injection E as <-. apply Forall2_app_inv_r in F. destruct F as (ia & ib & Fa & Fb & ->).
      inversion Fb as [|i ? ib' ? Hi Fb']; subst. apply (rwrites_header _ _ r n Hi) in H. subst i. exists ia, ib'. split; [reflexivity|].
      intros m I. destruct (in_split _ _ I) as (x & y & ->). apply Forall2_app_inv_l in Fb'. destruct Fb' as (lx & ly & _ & Fy & ->).
      inversion Fy as [|? l' ? ly' Hl _]; subst. apply (N l' m); [apply in_or_app; right; left; reflexivity|]. apply (rwrites_header _ _ r m Hl). reflexivity.
    - intros (a & b & -> & N). apply Forall2_app_inv_l in F. destruct F as (la & lb & Fa & Fb & ->).
      inversion Fb as [|? l ? lb' Hi Fb']; subst. exists la, l, lb', r. split; [reflexivity|]. split; [reflexivity|]. split; [apply (rwrites_header _ _ r n Hi); reflexivity|].
      intros l' m I H. destruct (in_split _ _ I) as (x & y & ->). apply Forall2_app_inv_r in Fb'. destruct Fb' as (ix & iy & _ & Fy & ->).
      inversion Fy as [|i ? iy' ? Hl _]; subst. apply (rwrites_header _ _ r m Hl) in H. subst i. apply (N m). apply in_or_app; right; left; reflexivity.
  Qed.
  Lemma loads_items is ls : Forall2 (rwrites dv) is ls -> exists d, parse_radkfile dv ls = Ok d.
  Proof.
    intros F. apply parse_total. intros l I R. destruct (in_split _ _ I) as (x & y & ->). apply Forall2_app_inv_r in F. destruct F as (ix & iy & _ & Fy & ->).
    inversion Fy as [|i ? iy' ? Hl _]; subst. pose proof (proj1 (rwrites_radical i l Hl) R) as (r & n & ->). exists r, n. apply (rwrites_header _ _ r n Hl). reflexivity.
  Qed.
End Radicals.

Lemma file_chars (P : Z -> Prop) rows : P 9 -> P 10 -> Forall (Forall (Forall P)) rows -> Forall P (file_of rows).
Proof.
  intros P9 P10 G. unfold file_of. induction G as [|row rs G Gs IH]; [constructor|]. cbn [flat_map]. apply Forall_app; split; [|exact IH].
  unfold line_of. apply Forall_app; split; [|repeat constructor; exact P10].
  clear -G P9. induction row as [|v row IH]; [constructor|]. inversion G as [|? ? Gv Gr]; subst. destruct row as [|w row]; [exact Gv|].
  rewrite join_cons by discriminate. apply Forall_app; split; [exact Gv|]. apply Forall_app; split; [repeat constructor; exact P9|apply IH, Gr].
Qed.

(** ** Readers of one file, in both Pythons *)
Section One.
  Variable dv : Z -> option Z.
  Variable disk : str -> option (list Z).
  Variable given : str -> nat.
  Lemma lines_readers name lines : lines_in disk name lines ->
    radk_bytes dv disk utf8 given name = parse_radkfile dv lines /\ radk2 dv disk given name = parse_radkfile dv lines /\
    zhuyin_bytes disk utf8 given name = zhuyin_to_pinyin_table lines /\ zhuyin2 disk given name = zhuyin_to_pinyin_table lines /\
    pinyin_bytes disk utf8 given name = pinyin_to_zhuyin_table lines /\ pinyin2 disk given name = pinyin_to_zhuyin_table lines /\
    all_pinyin_bytes disk utf8 given name = get_all_pinyin lines /\ all_pinyin2 disk given name = get_all_pinyin lines /\
    table_bytes disk given name = load_table lines [].
  Proof.
    intros (t & ps & D & S & R & C & <-).
    set (content := fun n : str => if eqb n name then Some t else None : option str).
    assert (Cn : content name = Some t) by (unfold content; rewrite eqb_refl; reflexivity).
    assert (St : stored disk content name) by (split; [rewrite D, Cn; reflexivity|intros t'; rewrite Cn; intros [= <-]; exact S]).
    assert (Rg : forall t', content name = Some t' -> regular t') by (intros t'; rewrite Cn; intros [= <-]; exact R).
    destruct (tables2 dv disk given content name St Rg) as (E1 & E2 & E3 & E4).
    destruct (readers_decoded dv disk (mksource [] None) [] utf8 given content [] name (stored_holds disk content name St)) as (F1 & F2 & F3 & F4 & _).
    assert (T : tailed (file_lines t) (map fst ps)) by (rewrite (text_lines t ps C); apply fed_tailed).
    rewrite E1, E2, E3, E4, F1, F2, F3, F4, (table_decoded disk given content name (stored_holds disk content name St)).
    rewrite (table_text content name t ps Cn R C).
    unfold radk_path, zhuyin_path, pinyin_path, all_pinyin_path, open_text. rewrite Cn. cbn [bind].
    rewrite (radkfile_tailed dv _ _ T). unfold zhuyin_to_pinyin_table, pinyin_to_zhuyin_table, get_all_pinyin.
    rewrite (rows_tailed _ _ T). repeat split.
  Qed.

  Lemma rows_readers stdin sin name rows : ordinary name ->
    Forall (fun row => row <> [] /\ row <> [[]] /\ Forall cell_ok row) rows -> disk name = Some (encoded (file_of rows)) ->
    load_bytes disk sin utf8 given name = load_text_file (file_of rows) /\ load2 disk stdin given name = load_text_file (file_of rows) /\
    load_text_file (file_of rows) = (rows, Ok tt).
  Proof.
    intros O F D.
    assert (L : load_text_file (file_of rows) = (rows, Ok tt)).
    { apply load_file_of. revert F. apply Forall_impl. intros row (N & M & X). split; [exact N|]. split; [exact M|]. revert X. apply Forall_impl. intros v X; apply X. }
    assert (S : Forall scalar (file_of rows)).
    { apply file_chars; [left; lia|left; lia|]. revert F. apply Forall_impl. intros row (_ & _ & X). revert X. apply Forall_impl. intros v X; apply X. }
    assert (N : ~ In 13 (file_of rows)).
    { intros I. assert (G : Forall (fun c => c <> 13) (file_of rows)); [|rewrite Forall_forall in G; exact (G 13 I eq_refl)].
      apply file_chars; [lia|lia|]. revert F. apply Forall_impl. intros row (_ & _ & X). revert X. apply Forall_impl. intros v ((X & _) & _). revert X. apply Forall_impl. intros c X; apply X. }
    assert (E : load_bytes disk sin utf8 given name = load_text_file (file_of rows)).
    { unfold load_bytes. rewrite open_bytes_ordinary, D by exact O.
      rewrite (source_ok utf8 given name _ (file_of rows)); [reflexivity|]. apply utf8_exact; [apply encoded_bytes, S|split; [exact S|reflexivity]]. }
    split; [exact E|]. split; [|exact L]. rewrite L.
    pose proof (load2_text disk stdin given name (file_of rows) (proj2 O) D S (or_introl N)) as X.
    unfold load_text_file in L. rewrite L in X. destruct X as [[X _]|(k & _ & _ & X)]; [exact X|].
    destruct (X eq_refl) as (row & I & B). exfalso; apply B. apply nth_error_In in I. rewrite Forall_forall in F. destruct (F row I) as (_ & _ & Y). revert Y. apply Forall_impl. intros v Y; apply Y.
  Qed.
End One.
