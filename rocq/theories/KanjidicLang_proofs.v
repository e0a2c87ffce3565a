From Verif Require Import Base PyStr PyText Scripts_model Scripts_spec Scripts_proofs Regex Kanjidic_model Kanjidic_spec DictFormat_proofs Kanjidic_proofs KanjidicLang_spec.

(** ** Segments *)
Definition seg_shape (t : str) : Prop :=
  (exists g, t = u1 "{" :: g ++ [u1 "}"] /\ ~ In (u1 "}") g /\ ~ In 10 g) \/ (t <> [] /\ Forall word_char t).
Lemma segments_shape s ts : segments s ts -> Forall seg_shape ts.
Proof.
  induction 1 as [|s ts H IH|w s ts N F Q H IH|g s ts G1 G2 H IH|s ts U H IH]; try assumption; [constructor| |].
  - constructor; [right; split; assumption|exact IH].
  - constructor; [left; exists g; repeat split; assumption|exact IH].
Qed.
Lemma script_dec sc c : {in_script sc c} + {~ in_script sc c}.
Proof.
  destruct (script_eqb (script_type [c]) sc) eqn:E.
  - left; apply (script_of c []), script_eqb_true, E.
  - right; intros I; apply (script_of c []) in I; apply (proj2 (script_eqb_true _ _)) in I; congruence.
Qed.
Lemma kana_dec c : in_script Katakana c \/ in_script Hiragana c \/ ~ kana c.
Proof.
  destruct (script_dec Katakana c); [left; assumption|]; destruct (script_dec Hiragana c); [right; left; assumption|].
  right; right; intros [K|K]; contradiction.
Qed.
Lemma classify t : seg_shape t -> (exists f, field_like f /\ token f = t) \/ (exists x, bad t x).
Proof.
  intros [[g [-> G]]|[N F]]; [left; exists (Gloss g); split; [exact G|reflexivity]|].
  destruct t as [|c t]; [congruence|]; inversion F as [|? ? [_ B] _]; subst; clear N F.
  destruct (Z.eq_dec c (u1 "-")) as [->|H].
  { destruct t as [|d t]; [right; exists IndexError; constructor|].
    destruct (kana_dec d) as [K|[K|K]].
    - left; exists (On (u1 "-" :: d :: t)); split; [|reflexivity]; exists d, t; split; [right; reflexivity|exact K].
    - left; exists (Kun (u1 "-" :: d :: t)); split; [|reflexivity]; exists d, t; split; [right; reflexivity|exact K].
    - right; exists PlainException; constructor; exact K. }
  destruct (script_dec Ascii c) as [A|A].
  - left; destruct (list_eq_dec Z.eq_dec (c :: t) (u "T1")) as [->|T1]; [exists (Marker true); split; [exact I|reflexivity]|].
    destruct (list_eq_dec Z.eq_dec (c :: t) (u "T2")) as [->|T2]; [exists (Marker false); split; [exact I|reflexivity]|].
    exists (Code c t); split; [|reflexivity]; cbn [field_like]; tauto.
  - destruct (kana_dec c) as [K|[K|K]].
    + left; exists (On (c :: t)); split; [|reflexivity]; exists c, t; split; [left; reflexivity|exact K].
    + left; exists (Kun (c :: t)); split; [|reflexivity]; exists c, t; split; [left; reflexivity|exact K].
    + right; exists PlainException; constructor; assumption.
Qed.
Lemma not_kana_scripts c : ~ kana c -> script_eqb (script_type [c]) Katakana = false /\ script_eqb (script_type [c]) Hiragana = false.
Proof.
  intros K; split; apply script_eqb_false; intros E; apply K; [left|right]; apply (script_of c []), E.
Qed.
Lemma bad_raises dv t x info : bad t x -> parse_segment dv t info = Raise x.
Proof.
  intros B; destruct B as [|c t K|c t A K]; unfold parse_segment.
  - reflexivity.
  - change (startswith (u "{") (u1 "-" :: c :: t)) with false; change (startswith (u "-") (u1 "-" :: c :: t)) with true.
    rewrite orb_true_r, Z.eqb_refl; cbn [bind]; destruct (not_kana_scripts c K) as [-> ->]; reflexivity.
  - assert (N : forall d, in_script Ascii d -> (d =? c) = false) by (intros d D; apply Z.eqb_neq; intros <-; contradiction).
    change (u "{") with [u1 "{"]; change (u "-") with [u1 "-"]; rewrite !startswith1.
    rewrite (N (u1 "{")), (N (u1 "-")) by (apply (script_of _ []); vm_compute; reflexivity).
    rewrite (script_eqb_false (script_type (c :: t)) Ascii) by (intros E; apply A, (script_of c t), E); cbn [negb orb].
    rewrite Z.eqb_sym, (N (u1 "-")) by (apply (script_of _ []); vm_compute; reflexivity); cbn [bind].
    destruct (not_kana_scripts c K) as [-> ->]; reflexivity.
Qed.
Lemma classify_all ts : Forall seg_shape ts ->
  (exists fs, Forall field_like fs /\ ts = map token fs) \/
  (exists fs t ts' x, Forall field_like fs /\ bad t x /\ ts = map token fs ++ t :: ts').
Proof.
  induction 1 as [|t ts S F IH]; [left; exists []; split; [constructor|reflexivity]|].
  destruct (classify t S) as [[f [L <-]]|[x B]].
  - destruct IH as [[fs [Lf ->]]|[fs [t' [ts' [x [Lf [B ->]]]]]]].
    + left; exists (f :: fs); split; [constructor; assumption|reflexivity].
    + right; exists (f :: fs), t', ts', x; split; [constructor; assumption|split; [exact B|reflexivity]].
  - right; exists [], t, ts, x; split; [constructor|split; [exact B|reflexivity]].
Qed.
Lemma parse_segments_app dv a b info : parse_segments dv (a ++ b) info = do i <- parse_segments dv a info; parse_segments dv b i.
Proof.
  revert info; induction a as [|s a IH]; intros info; cbn [app parse_segments bind]; [reflexivity|].
  destruct (parse_segment dv s info) as [i|]; cbn [bind]; [apply IH|reflexivity].
Qed.

(** ** Lines *)
Section L.
  Variable dv : Z -> option Z.
  Lemma segs_info kanji hex jis fs rest : py_int dv 16 hex = Some jis -> Forall field_like fs ->
    exists info, Inv dv kanji jis fs info /\
      parse_segs dv (kanji :: hex :: map token fs ++ rest) =
        do info <- parse_segments dv rest info; do info <- finish dv info; new_entry info.
  Proof.
    intros J F; unfold parse_segs, int_of; rewrite J; cbn [bind]; rewrite parse_segments_app.
    destruct (segments_inv dv kanji jis fs [] _ F (inv_new dv kanji jis)) as [info [-> V]]; exists info; split; [exact V|reflexivity].
  Qed.
  Lemma segs_info0 kanji hex jis fs : py_int dv 16 hex = Some jis -> Forall field_like fs ->
    exists info, Inv dv kanji jis fs info /\
      parse_segs dv (kanji :: hex :: map token fs) = do info <- finish dv info; new_entry info.
  Proof. intros J F; destruct (segs_info kanji hex jis fs [] J F) as [i [V E]]; rewrite app_nil_r in E; exists i; split; assumption. Qed.

  Lemma refused_raises ts x : refused dv ts x -> parse_segs dv ts = Raise x.
  Proof.
    intros R; destruct R as [ts L|k h ts H|k h jis fs t ts x J F B|k h jis fs J F S|k h jis fs sc scs J F S P|k h jis fs sc scs z zs J F S P|k h jis fs sc scs p ps parts J F S P [-> [N D]] X].
    - destruct ts as [|a [|b ts]]; [reflexivity|reflexivity|cbn [length] in L; lia].
    - unfold parse_segs, int_of; rewrite H; reflexivity.
    - destruct (segs_info k h jis fs (t :: ts) J F) as [i [_ ->]]; cbn [parse_segments]; rewrite (bad_raises dv t x i B); reflexivity.
    - destruct (segs_info0 k h jis fs J F) as [i [V ->]]; apply values_vals in S.
      destruct names_apart as [A1 [A2 [A3 [C1 [C2 C3]]]]].
      unfold finish; rewrite (inv_codes _ _ _ _ _ V _ C1), <- S; reflexivity.
    - destruct (segs_info0 k h jis fs J F) as [i [V ->]]; apply values_vals in S, P.
      destruct (finish_skip dv k fs jis i sc scs V (eq_sym S)) as [i' ->]; rewrite <- P; reflexivity.
    - destruct (segs_info0 k h jis fs J F) as [i [V ->]]; apply values_vals in S, P.
      destruct (finish_skip dv k fs jis i sc scs V (eq_sym S)) as [i' ->]; rewrite <- P; reflexivity.
    - destruct (segs_info0 k h jis fs J F) as [i [V ->]]; apply values_vals in S, P.
      destruct (finish_skip dv k fs jis i sc scs V (eq_sym S)) as [i' ->]; rewrite <- P; cbn [opt_list].
      change (first_of (Some (VList (VStr (join (u "-") parts) :: ps)))) with (Ok (VStr (join (u "-") parts)) : res value).
      cbn [bind]; change (u "-") with [u1 "-"]; rewrite split_join by assumption; rewrite int_parts_fail by exact X; reflexivity.
  Qed.
  Lemma accepted_entry kanji hex fs jis sc scs p ps parts codes :
    Forall field_like fs -> py_int dv 16 hex = Some jis ->
    values dv (u "stroke_count") fs (sc :: scs) -> values dv (u "skip_code") fs (VStr p :: ps) ->
    parted p parts -> Forall2 (fun q z => py_int dv 10 q = Some z) parts codes ->
    exists e, parse_segs dv (kanji :: hex :: map token fs) = Ok e /\ accepted dv (kanji :: hex :: map token fs) e.
  Proof.
    intros F J S P PT C; destruct (segs_info0 kanji hex jis fs J F) as [i [V ->]].
    pose proof PT as [-> [N D]]; pose proof (proj1 (values_vals _ _ _ _) S) as S'; pose proof (proj1 (values_vals _ _ _ _) P) as P'.
    destruct (finish_ok dv kanji jis fs i sc scs (join (u "-") parts) ps codes V (eq_sym S') (eq_sym P')) as [e H].
    { change (u "-") with [u1 "-"]; rewrite split_join by assumption; apply int_parts, C. }
    destruct H as [H0 [H1 [H2 [H3 [H4 [H5 [H6 [H7 [H8 H9]]]]]]]]].
    exists e; split; [exact H0|].
    apply (Accepted dv kanji hex fs jis sc scs (join (u "-") parts) ps parts codes e); try assumption.
    - intros vs X; apply values_vals in X; subst vs; exact H8.
    - intros name vs X Y; apply values_vals in Y; subst vs; rewrite H9 by exact X; reflexivity.
  Qed.
  Lemma vals_kind name fs v : In v (vals dv name fs) -> (exists z, v = VInt z) \/ (exists s, v = VStr s).
  Proof.
    unfold vals; intros I; apply in_flat_map in I; destruct I as [f [_ I]]; destruct f as [g|r|r|c t|b]; try contradiction.
    destruct (eqb (key_of c) name); [|contradiction]; destruct I as [<-|[]]; unfold val; destruct (py_int dv 10 t); [left|right]; eexists; reflexivity.
  Qed.
  Lemma parts_exist p : exists parts, parted p parts.
  Proof.
    exists (split_on (u1 "-") p); split; [symmetry; change (u "-") with [u1 "-"]; apply join_split|split; [|apply split_on_free]].
    intros E; pose proof (split_on_count (u1 "-") p) as C; rewrite E in C; discriminate C.
  Qed.
  Lemma ints_or_not parts : (exists codes, Forall2 (fun q z => py_int dv 10 q = Some z) parts codes) \/ Exists (fun q => py_int dv 10 q = None) parts.
  Proof.
    induction parts as [|q parts [[codes IH]|IH]]; [left; exists []; constructor| |right; right; exact IH].
    destruct (py_int dv 10 q) as [z|] eqn:E; [left; exists (z :: codes); constructor; assumption|right; left; exact E].
  Qed.
  Lemma outcome ts : Forall seg_shape ts ->
    (exists e, parse_segs dv ts = Ok e /\ accepted dv ts e) \/ (exists x, parse_segs dv ts = Raise x /\ refused dv ts x).
  Proof.
    intros F; cut ((exists e, parse_segs dv ts = Ok e /\ accepted dv ts e) \/ (exists x, refused dv ts x)).
    { intros [H|[x R]]; [left; exact H|right; exists x; split; [apply refused_raises, R|exact R]]. }
    destruct ts as [|k ts]; [right; exists IndexError; constructor; cbn [length]; lia|].
    destruct ts as [|h ts]; [right; exists IndexError; constructor; cbn [length]; lia|].
    destruct (py_int dv 16 h) as [jis|] eqn:J; [|right; exists ValueError; constructor; exact J].
    inversion F as [|? ? _ F']; subst; inversion F' as [|? ? _ F'']; subst.
    destruct (classify_all ts F'') as [[fs [L ->]]|[fs [t [ts' [x [L [B ->]]]]]]]; [|right; exists x; apply (Ref_segment dv k h jis); assumption].
    pose proof (proj2 (values_vals dv (u "stroke_count") fs _) eq_refl) as S.
    pose proof (proj2 (values_vals dv (u "skip_code") fs _) eq_refl) as P.
    destruct (vals dv (u "stroke_count") fs) as [|sc scs]; [right; exists KeyError; apply (Ref_strokes dv k h jis); assumption|].
    pose proof (vals_kind (u "skip_code") fs) as K.
    destruct (vals dv (u "skip_code") fs) as [|v ps]; [right; exists KeyError; apply (Ref_no_skip dv k h jis fs sc scs); assumption|].
    destruct (K v (or_introl eq_refl)) as [[z ->]|[p ->]]; [right; exists AttributeError; apply (Ref_number dv k h jis fs sc scs z ps); assumption|].
    destruct (parts_exist p) as [parts Q]; destruct (ints_or_not parts) as [[codes C]|X].
    - left; apply (accepted_entry k h fs jis sc scs p ps parts codes); assumption.
    - right; exists ValueError; apply (Ref_part dv k h jis fs sc scs p ps parts); assumption.
  Qed.
  Lemma accepted_ok ts e : accepted dv ts e -> exists e', parse_segs dv ts = Ok e' /\ accepted dv ts e'.
  Proof. intros A; destruct A; eapply accepted_entry; eassumption. Qed.

  Lemma line_outcome line ts : segments (strip line) ts -> parse_line dv line = parse_segs dv ts /\ Forall seg_shape ts.
  Proof.
    intros S; split; [apply parse_segs_findall, findall_segments, S|exact (segments_shape _ _ S)].
  Qed.
  Lemma line_refused line ts x : segments (strip line) ts -> (parse_line dv line = Raise x <-> refused dv ts x).
  Proof.
    intros S; destruct (line_outcome line ts S) as [-> F]; split; [|apply refused_raises]; intros E.
    destruct (outcome ts F) as [[e [E' _]]|[y [E' R]]]; rewrite E' in E; [discriminate|injection E as <-; exact R].
  Qed.
  Lemma line_accepted line ts e : segments (strip line) ts -> parse_line dv line = Ok e -> accepted dv ts e.
  Proof.
    intros S; destruct (line_outcome line ts S) as [-> F]; intros E.
    destruct (outcome ts F) as [[e' [E' A]]|[y [E' R]]]; rewrite E' in E; [injection E as <-; exact A|discriminate].
  Qed.

  (** the fields of a line are unique *)
  Lemma token_inj f g : field_like f -> field_like g -> token f = token g -> f = g.
  Proof.
    intros F G E.
    assert (X : forall info, parse_segment dv (token f) info = parse_segment dv (token g) info) by (intros; rewrite E; reflexivity).
    destruct (step_segment dv [] 0 f [] _ F (inv_new dv [] 0)) as [i [Ei Vi]]; destruct (step_segment dv [] 0 g [] _ G (inv_new dv [] 0)) as [j [Ej Vj]].
    rewrite X, Ej in Ei; injection Ei as ->.
    destruct Vi as [_ _ Gi Oi Ki _], Vj as [_ _ Gj Oj Kj _]; rewrite Gi in Gj; rewrite Oi in Oj; rewrite Ki in Kj; clear Gi Oi Ki Ej X.
    destruct f as [a|a|a|a v|a], g as [b|b|b|b w|b]; cbn in Gj, Oj, Kj; try discriminate; try (cbn [token] in E; congruence).
    - cbn [token] in E; destruct b; destruct F as [_ [_ [_ [T1 T2]]]]; [elim (T1 E)|elim (T2 E)].
    - cbn [token] in E; destruct a; destruct G as [_ [_ [_ [T1 T2]]]]; [elim (T1 (eq_sym E))|elim (T2 (eq_sym E))].
    - destruct a, b; try reflexivity; discriminate E.
  Qed.
  Lemma tokens_inj fs : forall gs, Forall field_like fs -> Forall field_like gs -> map token fs = map token gs -> fs = gs.
  Proof.
    induction fs as [|f fs IH]; intros [|g gs] F G E; try discriminate E; [reflexivity|].
    inversion F; inversion G; subst; cbn [map] in E; injection E as E1 E2; f_equal; [apply token_inj; assumption|apply IH; assumption].
  Qed.
  Lemma accepted_unique ts e e' : accepted dv ts e -> accepted dv ts e' -> forall name, dget name e = dget name e'.
  Proof.
    intros A B; destruct A as [k h fs jis sc scs p ps parts codes e F J S P [-> [N D]] C E1 E2 E3 E4 E5 E6 E7 E8 E9].
    remember (k :: h :: map token fs) as ts eqn:T; destruct B as [k' h' fs' jis' sc' scs' p' ps' parts' codes' e' F' J' S' P' [-> [N' D']] C' E1' E2' E3' E4' E5' E6' E7' E8' E9'].
    injection T as -> -> T; apply tokens_inj in T; [subst fs'|assumption|assumption].
    apply values_vals in S, S', P, P'; rewrite <- S' in S; rewrite <- P' in P; injection S as -> ->; injection P as P ->.
    assert (PE : parts = parts').
    { change (u "-") with [u1 "-"] in P; apply (f_equal (split_on (u1 "-"))) in P; rewrite !split_join in P by assumption; exact P. }
    subst parts'; assert (CE : codes = codes') by (apply int_parts in C, C'; congruence); subst codes'.
    assert (JE : jis = jis') by congruence; subst jis'.
    intros name; destruct (in_dec (list_eq_dec Z.eq_dec) name reserved) as [R|R].
    - unfold reserved in R; cbn [In] in R.
      repeat (destruct R as [<-|R]; [first [congruence|rewrite (E8 _ (proj2 (values_vals dv _ fs _) eq_refl)), (E8' _ (proj2 (values_vals dv _ fs _) eq_refl)); reflexivity]|]); contradiction.
    - rewrite (E9 name _ R (proj2 (values_vals dv _ fs _) eq_refl)), (E9' name _ R (proj2 (values_vals dv _ fs _) eq_refl)); reflexivity.
  Qed.
  Lemma accepted_not_refused ts e x : accepted dv ts e -> refused dv ts x -> False.
  Proof. intros A R; destruct (accepted_ok _ _ A) as [e' [E _]]; apply refused_raises in R; congruence. Qed.
End L.

(** ** Files: see Kanjidic_proofs, init_ok and init_raise *)
Lemma strip_blank s : blank s -> strip s = [].
Proof. intros B; unfold strip; rewrite <- (app_nil_r s), lstrip_app by exact B; reflexivity. Qed.
Lemma blank_line dv line : blank line -> parse_line dv line = Raise IndexError.
Proof. intros B; apply (line_refused dv line []); [rewrite strip_blank by exact B; constructor|constructor; cbn [length]; lia]. Qed.
Lemma readable_dec dv lines :
  (forall l, In l lines -> ~ comment l -> exists e, parse_line dv l = Ok e) \/
  (exists a line b x, lines = a ++ line :: b /\ ~ comment line /\ parse_line dv line = Raise x /\
     forall l, In l a -> ~ comment l -> exists e, parse_line dv l = Ok e).
Proof.
  induction lines as [|line r IH]; [left; intros l []|].
  assert (X : comment line \/ (~ comment line /\ exists x, parse_line dv line = Raise x) \/ (~ comment line /\ exists e, parse_line dv line = Ok e)).
  { destruct (comment_dec line); [left; assumption|right]; destruct (parse_line dv line) as [e|x]; [right|left]; (split; [assumption|eexists; reflexivity]). }
  destruct X as [C|[[C [x E]]|[C H]]].
  - destruct IH as [A|[a [l [b [x [-> [N [E A]]]]]]]].
    + left; intros l [<-|I]; [contradiction|apply A, I].
    + right; exists (line :: a), l, b, x; split; [reflexivity|split; [exact N|split; [exact E|]]]; intros l' [<-|I]; [contradiction|apply A, I].
  - right; exists [], line, r, x; split; [reflexivity|split; [exact C|split; [exact E|intros l []]]].
  - destruct IH as [A|[a [l [b [x [-> [N [E A]]]]]]]].
    + left; intros l [<-|I]; [intros _; exact H|apply A, I].
    + right; exists (line :: a), l, b, x; split; [reflexivity|split; [exact N|split; [exact E|]]]; intros l' [<-|I]; [intros _; exact H|apply A, I].
Qed.
Lemma files_loaded dv files : files <> [] -> ((exists d, init dv files = Ok d) <->
  forall line, In line (concat files) -> ~ comment line -> exists ts e, segments (strip line) ts /\ accepted dv ts e).
Proof.
  intros N; split.
  - intros [d D] line I C; destruct (readable_dec dv (concat files)) as [A|[a [l [b [x H]]]]].
    + destruct (A line I C) as [e E]; destruct (segments_total (length (strip line)) (strip line)) as [ts S]; [lia|].
      exists ts, e; split; [exact S|apply (line_accepted dv line); assumption].
    + assert (X : init dv files = Raise x) by (apply init_raise; [exact N|exists a, l, b; exact H]); congruence.
  - intros H; destruct (init dv files) as [d|x] eqn:D; [exists d; reflexivity|].
    apply init_raise in D; [|exact N]; destruct D as [a [line [b [E [C [R _]]]]]].
    destruct (H line) as [ts [e [S A]]]; [rewrite E; apply in_or_app; right; left; reflexivity|exact C|].
    apply (line_refused dv line ts) in R; [|exact S]; elim (accepted_not_refused dv ts e x A R).
Qed.
Lemma blank_refuses dv line files d : blank line -> In line (concat files) -> init dv files = Ok d -> False.
Proof.
  intros B I D; assert (N : files <> []) by (intros ->; discriminate D).
  assert (C : ~ comment line).
  { intros [r ->]; vm_compute in B; discriminate B. }
  destruct (proj1 (files_loaded dv files N) (ex_intro _ d D) line I C) as [ts [e [S A]]].
  apply (line_refused dv line ts IndexError) in S; apply (accepted_not_refused dv ts e IndexError A), S, blank_line, B.
Qed.
