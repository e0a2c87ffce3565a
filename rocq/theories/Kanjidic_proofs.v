From Verif Require Import Base PyStr PyText Scripts_model Scripts_spec Scripts_proofs Regex Kanjidic_model Kanjidic_spec DictFormat_proofs.

(* ------------------------------------------------------------------ *)
(** ** Segmentation *)

Fixpoint lazy_try (p : Z -> bool) (k : pos -> option pos) (b l : list Z) (cs : list (list Z * list Z)) : option pos :=
  match k (mkpos b l cs) with
  | Some x => Some x
  | None => match l with c :: q => if p c then lazy_try p k (c :: b) q cs else None | [] => None end
  end.
Lemma star_lazy p k : forall l n b cs, (length l < n)%nat ->
  star (mtch (Chr p)) true n k (mkpos b l cs) = lazy_try p k b l cs.
Proof.
  induction l as [|c l IH]; intros n b cs Hn; (destruct n as [|n]; [cbn [length] in Hn; lia|]); cbn [star mtch rest lazy_try before caps].
  - reflexivity.
  - destruct (k (mkpos b (c :: l) cs)); [reflexivity|]; destruct (p c) eqn:P; [|reflexivity]; cbn [rest length].
    replace (length l <? S (length l))%nat with true by (symmetry; apply Nat.ltb_lt; lia).
    apply IH; cbn [length] in Hn; lia.
Qed.
Lemma mtch_lazy p k b l cs : mtch (Lazy (Chr p)) k (mkpos b l cs) = lazy_try p k b l cs.
Proof. cbn [mtch rest]; apply star_lazy; lia. Qed.

Lemma seg_char_spec c : seg_char c = true <-> word_char c.
Proof.
  unfold seg_char, word_char; rewrite negb_true_iff, orb_false_iff, !Z.eqb_neq; reflexivity.
Qed.
Lemma seg_char_false c : seg_char c = false <-> ~ word_char c.
Proof. rewrite <- seg_char_spec; destruct (seg_char c); split; congruence. Qed.
Lemma forallb_seg w : Forall word_char w -> forallb seg_char w = true.
Proof. intros F; apply forallb_forall; intros x I; apply seg_char_spec; exact (proj1 (Forall_forall _ _) F x I). Qed.

Definition close : pos -> option pos := mtch (Chr (isc (u1 "}"))) Some.
Lemma close_hit b q cs : close (mkpos b (u1 "}" :: q) cs) = Some (mkpos (u1 "}" :: b) q cs).
Proof. reflexivity. Qed.
Lemma close_miss b c q cs : c <> u1 "}" -> close (mkpos b (c :: q) cs) = None.
Proof. intros N; unfold close; cbn [mtch rest]; unfold isc; rewrite (proj2 (Z.eqb_neq c (u1 "}")) N); reflexivity. Qed.

Lemma lazy_gloss g : forall b q cs, ~ In (u1 "}") g -> ~ In 10 g ->
  lazy_try dot close b (g ++ u1 "}" :: q) cs = Some (mkpos (u1 "}" :: rev g ++ b) q cs).
Proof.
  induction g as [|c g IH]; intros b q cs N M; cbn [app lazy_try].
  - rewrite close_hit; reflexivity.
  - rewrite close_miss by (intros E; apply N; left; exact E).
    unfold dot, notc; rewrite (proj2 (Z.eqb_neq c 10)) by (intros E; apply M; left; exact E); cbn [negb].
    rewrite IH; [cbn [rev]; rewrite <- app_assoc; reflexivity|intros I; apply N; right; exact I|intros I; apply M; right; exact I].
Qed.
Lemma lazy_unclosed s : forall b cs, unclosed s -> lazy_try dot close b s cs = None.
Proof.
  induction s as [|c s IH]; intros b cs U; cbn [lazy_try]; [reflexivity|].
  destruct (Z.eq_dec c (u1 "}")) as [->|N]; [elim (U [] s eq_refl)|]; rewrite close_miss by exact N.
  unfold dot, notc; destruct (Z.eqb_spec c 10) as [_|Nn]; cbn [negb]; [reflexivity|].
  apply IH; intros g q E; destruct (U (c :: g) q) as [E'|I]; [rewrite E; reflexivity|congruence|exact I].
Qed.

Lemma seg_word b w q : w <> [] -> Forall word_char w -> (match q with c :: _ => ~ word_char c | [] => True end) ->
  mtch segment_pattern Some (mkpos b (w ++ q) []) = Some (mkpos (rev w ++ b) q []).
Proof.
  intros N F Q; unfold segment_pattern.
  cut (mtch (Plus (Chr seg_char)) Some (mkpos b (w ++ q) []) = Some (mkpos (rev w ++ b) q [])); [intros E; cbn [mtch]; cbn [mtch] in E; rewrite E; reflexivity|].
  destruct w as [|c w]; [congruence|]; pose proof (forallb_seg _ F) as Fb; pose proof Fb as Fb'; apply andb_prop in Fb'; destruct Fb' as [Pc _].
  apply (mtch_plus_longest seg_char _ _ c (w ++ q)); [reflexivity|exact Pc|].
  rewrite (skip_app seg_char b (c :: w) q []); [reflexivity|exact Fb|destruct q; [exact I|apply seg_char_false, Q]].
Qed.
Lemma seg_first_fails b c q : ~ word_char c -> mtch (Plus (Chr seg_char)) Some (mkpos b (c :: q) []) = None.
Proof. intros N; apply seg_char_false in N; cbn [Plus mtch rest]; rewrite N; reflexivity. Qed.
Lemma seg_at b c q : ~ word_char c -> c <> u1 "{" -> mtch segment_pattern Some (mkpos b (c :: q) []) = None.
Proof.
  intros N M; unfold segment_pattern; change (match mtch (Plus (Chr seg_char)) Some (mkpos b (c :: q) []) with Some x => Some x | None => mtch (Seqs [Chr (isc (u1 "{")); Lazy (Chr dot); Chr (isc (u1 "}"))]) Some (mkpos b (c :: q) []) end = None).
  rewrite seg_first_fails by exact N; cbn [Seqs mtch rest]; unfold isc; rewrite (proj2 (Z.eqb_neq c (u1 "{")) M); reflexivity.
Qed.
Lemma seg_brace b q : mtch segment_pattern Some (mkpos b (u1 "{" :: q) []) = lazy_try dot close (u1 "{" :: b) q [].
Proof.
  unfold segment_pattern; change (match mtch (Plus (Chr seg_char)) Some (mkpos b (u1 "{" :: q) []) with Some x => Some x | None => mtch (Lazy (Chr dot)) close (mkpos (u1 "{" :: b) q []) end = lazy_try dot close (u1 "{" :: b) q []).
  rewrite seg_first_fails by (unfold word_char; intros [_ E]; congruence); apply mtch_lazy.
Qed.

Lemma scan_segments s ts : segments s ts -> forall n b, (length s < n)%nat ->
  map (fun m => text (fst m) (snd m)) (scan n segment_pattern b s) = ts.
Proof.
  induction 1 as [|s ts H IH|w s ts N F Q H IH|g s ts G1 G2 H IH|s ts U H IH]; intros n b L; (destruct n as [|n]; [lia|]).
  - reflexivity.
  - cbn [scan]; rewrite seg_at by ((unfold word_char; intros [E _]; congruence) || discriminate).
    apply IH; cbn [length] in L; lia.
  - cbn [scan]; rewrite seg_word by assumption; cbn [rest before].
    rewrite app_length in *; assert (length w > 0)%nat by (destruct w; [congruence|cbn [length]; lia]).
    rewrite (proj2 (Nat.ltb_lt _ _)) by lia; cbn [map fst snd]; rewrite text_app, IH by lia; reflexivity.
  - cbn [scan]; rewrite seg_brace, lazy_gloss by assumption; cbn [rest before].
    cbn [length] in *; rewrite app_length in *; cbn [length] in *.
    rewrite (proj2 (Nat.ltb_lt _ _)) by lia; cbn [map fst snd].
    rewrite IH by lia; f_equal.
    replace (u1 "{" :: g ++ u1 "}" :: s) with ((u1 "{" :: g ++ [u1 "}"]) ++ s) by (cbn [app]; rewrite <- app_assoc; reflexivity).
    apply text_app.
  - cbn [scan]; rewrite seg_brace, lazy_unclosed by assumption; apply IH; cbn [length] in L; lia.
Qed.
Lemma findall_segments s ts : segments s ts -> findall0 segment_pattern s = ts.
Proof. intros H; unfold findall0, finditer; apply scan_segments; [exact H|lia]. Qed.

(** every text has segments *)
Lemma word_char_dec c : {word_char c} + {~ word_char c}.
Proof. destruct (seg_char c) eqn:E; [left; apply seg_char_spec, E|right; apply seg_char_false, E]. Qed.
Lemma word_split s : exists w q, s = w ++ q /\ Forall word_char w /\ match q with c :: _ => ~ word_char c | [] => True end.
Proof.
  induction s as [|c s [w [q [-> [F Q]]]]]; [exists [], []; repeat split; constructor|].
  destruct (word_char_dec c) as [W|W].
  - exists (c :: w), q; split; [reflexivity|split; [constructor; assumption|exact Q]].
  - exists [], (c :: w ++ q); split; [reflexivity|split; [constructor|exact W]].
Qed.
Lemma closed_dec s : (exists g q, s = g ++ u1 "}" :: q /\ ~ In (u1 "}") g /\ ~ In 10 g) \/ unclosed s.
Proof.
  induction s as [|c s IH]; [right; intros g q E; destruct g; discriminate|].
  destruct (Z.eq_dec c (u1 "}")) as [->|N]; [left; exists [], s; split; [reflexivity|split; intros []]|].
  destruct (Z.eq_dec c 10) as [->|M].
  - right; intros g q E; destruct g as [|d g]; [discriminate E|]; injection E as <- _; left; reflexivity.
  - destruct IH as [[g [q [-> [G1 G2]]]]|U].
    + left; exists (c :: g), q; split; [reflexivity|split; intros [E|I]; congruence||contradiction].
    + right; intros g q E; destruct g as [|d g]; [injection E as E _; congruence|]; injection E as _ E; right; exact (U g q E).
Qed.
Lemma segments_total : forall n s, (length s <= n)%nat -> exists ts, segments s ts.
Proof.
  induction n as [|n IH]; intros s L.
  - destruct s; [exists []; constructor|cbn [length] in L; lia].
  - destruct s as [|c s]; [exists []; constructor|]; cbn [length] in L.
    destruct (word_char_dec c) as [W|W].
    + destruct (word_split (c :: s)) as [w [q [E [F Q]]]].
      destruct w as [|d w]; [cbn [app] in E; subst q; contradiction|].
      destruct (IH q) as [ts H]; [apply (f_equal (@length Z)) in E; rewrite app_length in E; cbn [length] in E; lia|].
      exists ((d :: w) :: ts); rewrite E; apply Sg_word; [discriminate|assumption|assumption|assumption].
    + destruct (Z.eq_dec c (u1 "{")) as [->|M].
      * destruct (closed_dec s) as [[g [q [-> [G1 G2]]]]|U].
        -- destruct (IH q) as [ts H]; [rewrite app_length in L; cbn [length] in L; lia|].
           exists ((u1 "{" :: g ++ [u1 "}"]) :: ts); apply Sg_gloss; assumption.
        -- destruct (IH s) as [ts H]; [lia|]; exists ts; apply Sg_open; assumption.
      * assert (E : c = u1 " ") by (destruct (Z.eq_dec c (u1 " ")); [assumption|elim W; split; assumption]).
        subst c; destruct (IH s) as [ts H]; [lia|]; exists ts; apply Sg_blank, H.
Qed.
Lemma findall_spec s ts : findall0 segment_pattern s = ts <-> segments s ts.
Proof.
  split; [intros <-|apply findall_segments].
  destruct (segments_total (length s) s) as [ts H]; [lia|]; rewrite (findall_segments s ts H); exact H.
Qed.

(** laid out tokens *)
Definition token_ok (t : str) : Prop :=
  plain t \/ exists g, t = u "{" ++ g ++ u "}" /\ ~ In (u1 "}") g /\ ~ In 10 g.
Lemma field_token f : field_ok f -> token_ok (token f).
Proof.
  destruct f as [g|r|r|c v|b]; cbn [field_ok token]; intros H.
  - right; exists g; split; [reflexivity|exact H].
  - left; apply H.
  - left; apply H.
  - left; apply H.
  - left; split; [destruct b; discriminate|]; intros c I.
    destruct b; cbn in I; destruct I as [<-|[<-|[]]]; split; (reflexivity || discriminate).
Qed.
Lemma plain_words t : plain t -> Forall word_char t.
Proof.
  intros [_ P]; apply Forall_forall; intros c I; destruct (P c I) as [S B]; split; [|exact B].
  intros ->; discriminate S.
Qed.
Lemma blanks_segments gap s ts : (forall c, In c gap -> c = u1 " ") -> segments s ts -> segments (gap ++ s) ts.
Proof.
  induction gap as [|c gap IH]; intros G H; [exact H|]; rewrite (G c (or_introl eq_refl)); apply Sg_blank, IH; [|exact H].
  intros d I; apply G; right; exact I.
Qed.
Lemma laid_head s t ts : laid_out s (t :: ts) -> exists q, s = t ++ q.
Proof. inversion 1; subst; [exists []; rewrite app_nil_r; reflexivity|eexists; reflexivity]. Qed.
Lemma laid_segments s ts : laid_out s ts -> Forall token_ok ts -> segments s ts.
Proof.
  induction 1 as [t|t gap s t' ts G H IH N]; intros F.
  - inversion F as [|? ? [P|[g [-> [G1 G2]]]] _]; subst.
    + rewrite <- (app_nil_r t) at 1; apply Sg_word; [apply P|apply plain_words, P|exact I|constructor].
    + apply (Sg_gloss g [] []); [assumption|assumption|constructor].
  - inversion F as [|? ? T F']; subst; specialize (IH F'); destruct T as [P|[g [-> [G1 G2]]]].
    + apply Sg_word; [apply P|apply plain_words, P| |apply blanks_segments; assumption].
      destruct gap as [|c gap]; [|cbn [app]; rewrite (G c (or_introl eq_refl)); intros [E _]; congruence].
      cbn [app]; destruct N as [N|[[q E]|[q E]]]; [congruence| |].
      * destruct P as [_ P]; destruct (P (u1 "{")) as [_ X]; [rewrite E; left; reflexivity|congruence].
      * destruct (laid_head _ _ _ H) as [q' ->]; rewrite E; cbn [app]; intros [_ X]; congruence.
    + change (u "{" ++ g ++ u "}") with (u1 "{" :: g ++ [u1 "}"]).
      replace ((u1 "{" :: g ++ [u1 "}"]) ++ gap ++ s) with (u1 "{" :: g ++ u1 "}" :: gap ++ s) by (cbn [app]; rewrite <- app_assoc; reflexivity).
      apply Sg_gloss; [assumption|assumption|apply blanks_segments; assumption].
Qed.
(** token texts start and end with something solid *)
Lemma token_first t : token_ok t -> exists c q, t = c :: q /\ is_space c = false.
Proof.
  intros [[N P]|[g [-> _]]]; [destruct t as [|c q]; [congruence|exists c, q; split; [reflexivity|apply P; left; reflexivity]]|].
  exists (u1 "{"), (g ++ u "}"); split; reflexivity.
Qed.
Lemma token_last t : token_ok t -> exists q c, t = q ++ [c] /\ is_space c = false.
Proof.
  intros [[N P]|[g [-> _]]].
  - destruct (exists_last N) as [q [c ->]]; exists q, c; split; [reflexivity|apply P, in_or_app; right; left; reflexivity].
  - exists (u "{" ++ g), (u1 "}"); split; [rewrite <- app_assoc; reflexivity|reflexivity].
Qed.
Lemma laid_last s ts : laid_out s ts -> Forall token_ok ts -> exists q c, s = q ++ [c] /\ is_space c = false.
Proof.
  induction 1 as [t|t gap s t' ts G H IH N]; intros F; inversion F as [|? ? T F']; subst.
  - apply token_last, T.
  - destruct (IH F') as [q [c [-> S]]]; exists (t ++ gap ++ q), c; split; [rewrite !app_assoc; reflexivity|exact S].
Qed.
Lemma laid_nonempty s ts : laid_out s ts -> ts <> [].
Proof. destruct 1; discriminate. Qed.
Lemma strip_laid g0 s g1 ts : blank g0 -> blank g1 -> laid_out s ts -> Forall token_ok ts -> strip (g0 ++ s ++ g1) = s.
Proof.
  intros B0 B1 H F; unfold strip; rewrite lstrip_app by exact B0.
  destruct (laid_last s ts H F) as [q [c [E S]]].
  rewrite lstrip_id.
  - rewrite rstrip_app by exact B1; rewrite E; apply rstrip_id, S.
  - destruct ts as [|t ts]; [elim (laid_nonempty _ _ H eq_refl)|]; destruct (laid_head _ _ _ H) as [q' ->].
    inversion F as [|? ? T _]; subst; destruct (token_first t T) as [d [q'' [-> S']]]; exact S'.
Qed.
Lemma laid_findall g0 s g1 ts : blank g0 -> blank g1 -> laid_out s ts -> Forall token_ok ts ->
  findall0 segment_pattern (strip (g0 ++ s ++ g1)) = ts.
Proof. intros B0 B1 H F; rewrite (strip_laid g0 s g1 ts B0 B1 H F); apply findall_segments, laid_segments; assumption. Qed.

(* ------------------------------------------------------------------ *)
(** ** Fields *)

Lemma documented_remap : forallb (fun p => match dget (fst p) remappings with Some n => eqb n (snd p) | None => false end) documented = true.
Proof. vm_compute; reflexivity. Qed.
Lemma remap_documented : forallb (fun p : Z * list Z => mem p documented) remappings = true.
Proof. vm_compute; reflexivity. Qed.
Definition key_of (c : char) : str := match dget c remappings with Some k => k | None => [c] end.
Lemma key_of_filed c name : filed c name <-> key_of c = name.
Proof.
  unfold filed, key_of; split.
  - intros [D|[-> N]].
    + pose proof (proj1 (forallb_forall _ _) documented_remap _ D) as E; cbn [fst snd] in E.
      destruct (dget c remappings) as [n|]; [apply eqb_eq in E; exact E|discriminate].
    + destruct (dget c remappings) as [n|] eqn:E; [|reflexivity].
      apply dget_In in E; pose proof (proj1 (forallb_forall _ _) remap_documented _ E) as M.
      apply mem_In in M; elim (N n M).
  - intros <-; destruct (dget c remappings) as [n|] eqn:E.
    + left; apply dget_In in E; pose proof (proj1 (forallb_forall _ _) remap_documented _ E) as M; apply mem_In in M; exact M.
    + right; split; [reflexivity|]; intros n D.
      pose proof (proj1 (forallb_forall _ _) documented_remap _ D) as X; cbn [fst snd] in X; rewrite E in X; discriminate.
Qed.
Definition basic : list str := [u "kanji"; u "gloss"; u "on_readings"; u "kun_readings"; u "jis_code"].
Lemma remap_not_basic : forallb (fun p : Z * list Z => negb (mem (snd p) basic)) remappings = true.
Proof. vm_compute; reflexivity. Qed.
Lemma key_not_basic c : ~ In (key_of c) basic.
Proof.
  unfold key_of; destruct (dget c remappings) as [n|] eqn:E.
  - apply dget_In in E; pose proof (proj1 (forallb_forall _ _) remap_not_basic _ E) as X; cbn [snd] in X.
    apply negb_true_iff in X; apply mem_false in X; exact X.
  - intros I; cbn in I; repeat (destruct I as [I|I]; [apply (f_equal (@length Z)) in I; discriminate I|]); exact I.
Qed.

Definition val (dv : Z -> option Z) (t : str) : value := match py_int dv 10 t with Some z => VInt z | None => VStr t end.
Definition vals (dv : Z -> option Z) (name : str) (fs : list field) : list value :=
  flat_map (fun f => match f with Code c t => if eqb (key_of c) name then [val dv t] else [] | _ => [] end) fs.
Lemma reads_as_val dv t v : reads_as dv t v <-> v = val dv t.
Proof. unfold reads_as, val; destruct (py_int dv 10 t); reflexivity. Qed.
Lemma values_vals dv name fs vs : values dv name fs vs <-> vs = vals dv name fs.
Proof.
  split.
  - induction 1 as [|c t v fs vs F R H IH|f fs vs F H IH]; [reflexivity| |].
    + apply key_of_filed in F; apply reads_as_val in R; subst v vs; unfold vals; cbn [flat_map]; rewrite F, eqb_refl; reflexivity.
    + subst vs; unfold vals; cbn [flat_map]; destruct f as [g|r|r|c t|b]; try reflexivity.
      rewrite eqb_neq; [reflexivity|]; intros E; apply (F c t eq_refl), key_of_filed, E.
  - intros ->; induction fs as [|f fs IH]; [constructor|].
    unfold vals; cbn [flat_map]; destruct f as [g|r|r|c t|b]; cbn [app];
      try (apply V_other; [intros; discriminate|exact IH]).
    destruct (eqb_spec (key_of c) name) as [E|E]; cbn [app].
    + apply V_here; [apply key_of_filed, E|apply reads_as_val; reflexivity|exact IH].
    + apply V_other; [|exact IH]; intros c' t' X; injection X as <- <-; intros F; apply E, key_of_filed, F.
Qed.
Lemma vals_app dv name a b : vals dv name (a ++ b) = vals dv name a ++ vals dv name b.
Proof. apply flat_map_app. Qed.
Lemma glosses_app a b : glosses (a ++ b) = glosses a ++ glosses b.
Proof. induction a as [|[] a IH]; cbn; congruence. Qed.
Lemma ons_app a b : ons (a ++ b) = ons a ++ ons b.
Proof. induction a as [|[] a IH]; cbn; congruence. Qed.
Lemma kuns_app a b : kuns (a ++ b) = kuns a ++ kuns b.
Proof. induction a as [|[] a IH]; cbn; congruence. Qed.

Definition opt_list (l : list value) : option value := match l with [] => None | _ => Some (VList l) end.
Record Inv (dv : Z -> option Z) (kanji : str) (jis : Z) (fs : list field) (info : dict str value) : Prop := {
  inv_kanji : dget (u "kanji") info = Some (VStr kanji);
  inv_jis : dget (u "jis_code") info = Some (VInt jis);
  inv_gloss : dget (u "gloss") info = Some (VList (map VStr (glosses fs)));
  inv_on : dget (u "on_readings") info = Some (VList (map VStr (ons fs)));
  inv_kun : dget (u "kun_readings") info = Some (VList (map VStr (kuns fs)));
  inv_codes : forall name, ~ In name basic -> dget name info = opt_list (vals dv name fs) }.

Lemma script_of c s sc : script_type (c :: s) = sc <-> in_script sc c.
Proof. apply (proj2 (script_type_in_spec known_bands (Permutation_refl _))). Qed.
Lemma startswith1 a c v : startswith [a] (c :: v) = (a =? c).
Proof. cbn [startswith]; destruct (a =? c); reflexivity. Qed.
Lemma script_eqb_true a b : script_eqb a b = true <-> a = b.
Proof. destruct a, b; cbn; split; (reflexivity || discriminate). Qed.
Lemma script_eqb_false a b : a <> b -> script_eqb a b = false.
Proof. destruct a, b; cbn; congruence. Qed.

Lemma append_ok k x l info : dget k info = Some (VList l) -> append_at k x info = Ok (dset k (VList (l ++ [x])) info).
Proof. unfold append_at; intros ->; reflexivity. Qed.
Lemma inner_gloss g : inner (u "{" ++ g ++ u "}") = g.
Proof. unfold inner; cbn [app tl]; apply removelast_last. Qed.
Lemma ok_like f : field_ok f -> field_like f.
Proof.
  destruct f as [g|r|r|c v|b]; cbn [field_ok field_like]; try (intros [_ H]; exact H); [auto| |auto].
  intros [[_ P] H]; split; [apply H|split; [|apply H]]; exact (proj2 (P c (or_introl eq_refl))).
Qed.
Lemma not_brace sc r : sc = Katakana \/ sc = Hiragana -> begins_in sc r -> startswith (u "{") r = false.
Proof.
  intros S [c [t [[-> | ->] I]]]; [|reflexivity]; change (u "{") with [u1 "{"]; rewrite startswith1; apply Z.eqb_neq; intros <-.
  apply (script_of _ t) in I; change (script_type (u1 "{" :: t)) with Ascii in I; destruct S as [-> | ->]; discriminate I.
Qed.
Lemma reading_shape sc r : sc = Katakana \/ sc = Hiragana -> begins_in sc r ->
  negb (script_eqb (script_type r) Ascii) || startswith (u "-") r = true /\
  exists c q d, r = c :: q /\ (if c =? u1 "-" then match q with d :: _ => Ok d | [] => Raise IndexError end else Ok c) = Ok d /\ in_script sc d.
Proof.
  intros S [c [t [[-> | ->] I]]].
  - assert (X : script_type (c :: t) = sc) by (apply script_of, I).
    split; [rewrite X; destruct S as [-> | ->]; reflexivity|].
    exists c, t, c; split; [reflexivity|]; split; [|exact I].
    destruct (Z.eqb_spec c (u1 "-")) as [->|_]; [|reflexivity].
    exfalso; cbn in X; destruct S as [-> | ->]; discriminate X.
  - split; [apply orb_true_r|]; exists (u1 "-"), (c :: t), c; split; [reflexivity|split; [reflexivity|exact I]].
Qed.

Ltac keys := repeat (rewrite dget_dset_other by (intros X; vm_compute in X; discriminate X)).
Ltac not_basic H := intros X; apply H; first [rewrite <- X|rewrite X]; unfold basic; cbn [In]; tauto.

Section Seg.
  Variables (dv : Z -> option Z) (kanji : str) (jis : Z).
  Lemma step_segment f fs info : field_like f -> Inv dv kanji jis fs info ->
    exists info', parse_segment dv (token f) info = Ok info' /\ Inv dv kanji jis (fs ++ [f]) info'.
  Proof.
    intros K V; destruct V as [V1 V2 V3 V4 V5 V6]; destruct f as [g|r|r|c v|b]; cbn [field_like token] in *; unfold parse_segment.
    - change (startswith (u "{") (u "{" ++ g ++ u "}")) with true; cbv iota.
      rewrite (append_ok _ _ _ _ V3); eexists; split; [reflexivity|]; rewrite inner_gloss.
      constructor; keys; rewrite ?vals_app, ?glosses_app, ?ons_app, ?kuns_app, ?map_app, ?app_nil_r; cbn [glosses ons kuns map]; rewrite ?app_nil_r; try assumption.
      + apply dget_dset_same.
      + intros name N; rewrite dget_dset_other by (not_basic N); rewrite vals_app; cbn [vals flat_map app]; rewrite app_nil_r; apply V6, N.
    - pose proof (not_brace Katakana r (or_introl eq_refl) K) as P; destruct (reading_shape Katakana r (or_introl eq_refl) K) as [C [c [q [d [-> [E I]]]]]].
      rewrite P, C, E; cbn [bind].
      rewrite (proj2 (script_eqb_true _ _)) by (apply script_of, I).
      rewrite (append_ok _ _ _ _ V4); eexists; split; [reflexivity|].
      constructor; keys; rewrite ?vals_app, ?glosses_app, ?ons_app, ?kuns_app, ?map_app, ?app_nil_r; cbn [glosses ons kuns map]; rewrite ?app_nil_r; try assumption.
      + apply dget_dset_same.
      + intros name N; rewrite dget_dset_other by (not_basic N); rewrite vals_app; cbn [vals flat_map app]; rewrite app_nil_r; apply V6, N.
    - pose proof (not_brace Hiragana r (or_intror eq_refl) K) as P; destruct (reading_shape Hiragana r (or_intror eq_refl) K) as [C [c [q [d [-> [E I]]]]]].
      rewrite P, C, E; cbn [bind].
      assert (H : script_type [d] = Hiragana) by (apply script_of, I); rewrite H; cbn [script_eqb].
      rewrite (append_ok _ _ _ _ V5); eexists; split; [reflexivity|].
      constructor; keys; rewrite ?vals_app, ?glosses_app, ?ons_app, ?kuns_app, ?map_app, ?app_nil_r; cbn [glosses ons kuns map]; rewrite ?app_nil_r; try assumption.
      + apply dget_dset_same.
      + intros name N; rewrite dget_dset_other by (not_basic N); rewrite vals_app; cbn [vals flat_map app]; rewrite app_nil_r; apply V6, N.
    - destruct K as [A [P [Nh [N1 N2]]]].
      replace (startswith (u "{") (c :: v)) with false.
      2:{ symmetry; change (u "{") with [u1 "{"]; rewrite startswith1; apply Z.eqb_neq; congruence. }
      rewrite (proj2 (script_of c v Ascii) A); cbn [script_eqb negb orb].
      replace (startswith (u "-") (c :: v)) with false.
      2:{ symmetry; change (u "-") with [u1 "-"]; rewrite startswith1; apply Z.eqb_neq; congruence. }
      replace (in_T12 (c :: v)) with false.
      2:{ symmetry; apply mem_false; intros [E|[E|[]]]; congruence. }
      change (match dget c remappings with Some k => k | None => [c] end) with (key_of c).
      change (match py_int dv 10 v with Some z => VInt z | None => VStr v end) with (val dv v); cbv zeta.
      pose proof (key_not_basic c) as NB.
      assert (X : exists info0, setdefault_list (key_of c) info = info0 /\ dget (key_of c) info0 = Some (VList (vals dv (key_of c) fs)) /\
                   forall k, k <> key_of c -> dget k info0 = dget k info).
      { unfold setdefault_list; rewrite (V6 _ NB); destruct (vals dv (key_of c) fs) eqn:E; cbn [opt_list].
        - eexists; split; [reflexivity|split; [apply dget_dset_same|]]; intros k D; apply dget_dset_other; congruence.
        - exists info; split; [reflexivity|split; [rewrite (V6 _ NB), E; reflexivity|reflexivity]]. }
      destruct X as [info0 [-> [G O]]]; rewrite (append_ok _ _ _ _ G); eexists; split; [reflexivity|].
      assert (Y : forall k, In k basic -> dget k (dset (key_of c) (VList (vals dv (key_of c) fs ++ [val dv v])) info0) = dget k info).
      { intros k I; rewrite dget_dset_other by (intros E; apply NB; congruence); apply O; intros E; apply NB; congruence. }
      constructor; rewrite ?glosses_app, ?ons_app, ?kuns_app, ?map_app; cbn [glosses ons kuns map]; rewrite ?app_nil_r;
        try (rewrite Y by (unfold basic; cbn [In]; tauto); assumption).
      intros name N; rewrite vals_app; cbn [vals flat_map app]; rewrite app_nil_r.
      destruct (eqb_spec (key_of c) name) as [<-|D].
      + rewrite dget_dset_same; change (flat_map _ fs) with (vals dv (key_of c) fs); destruct (vals dv (key_of c) fs); reflexivity.
      + rewrite app_nil_r, dget_dset_other by congruence; rewrite O by congruence; apply V6, N.
    - exists info; split.
      + destruct b; reflexivity.
      + constructor; rewrite ?glosses_app, ?ons_app, ?kuns_app; cbn [glosses ons kuns]; rewrite ?app_nil_r; try assumption.
        intros name N; rewrite vals_app; cbn [vals flat_map app]; rewrite app_nil_r; apply V6, N.
  Qed.
  Lemma segments_inv : forall gs fs info, Forall field_like gs -> Inv dv kanji jis fs info ->
    exists info', parse_segments dv (map token gs) info = Ok info' /\ Inv dv kanji jis (fs ++ gs) info'.
  Proof.
    induction gs as [|f gs IH]; intros fs info F V; cbn [map parse_segments].
    - exists info; rewrite app_nil_r; split; [reflexivity|exact V].
    - inversion F as [|? ? K F']; subst; destruct (step_segment f fs info K V) as [info1 [E V1]]; rewrite E; cbn [bind].
      destruct (IH (fs ++ [f]) info1 F' V1) as [info2 [E2 V2]]; rewrite <- app_assoc in V2; exists info2; split; assumption.
  Qed.
  Lemma inv_new : Inv dv kanji jis [] (new_info kanji jis).
  Proof.
    constructor; try reflexivity; intros name N; cbn [opt_list vals flat_map].
    apply dget_None; intros I; apply N; unfold basic; cbn in I |- *; tauto.
  Qed.

  Lemma names_apart : u "stroke_count" <> u "frequency" /\ u "stroke_count" <> u "skip_code" /\ u "frequency" <> u "skip_code" /\
    ~ In (u "stroke_count") basic /\ ~ In (u "frequency") basic /\ ~ In (u "skip_code") basic.
  Proof. 
    split; [discriminate|split; [discriminate|split; [discriminate|]]].
    split; [|split]; apply mem_false; vm_compute; reflexivity.
  Qed.
  Lemma finish_ok fs info sc scs p ps codes : Inv dv kanji jis fs info ->
    vals dv (u "stroke_count") fs = sc :: scs -> vals dv (u "skip_code") fs = VStr p :: ps ->
    mapM (int_of dv 10) (split_on (u1 "-") p) = Ok codes ->
    exists e, (do info <- finish dv info; new_entry info) = Ok e /\
      dget (u "kanji") e = Some (VStr kanji) /\ dget (u "jis_code") e = Some (VInt jis) /\
      dget (u "gloss") e = Some (VList (map VStr (glosses fs))) /\
      dget (u "on_readings") e = Some (VList (map VStr (ons fs))) /\
      dget (u "kun_readings") e = Some (VList (map VStr (kuns fs))) /\
      dget (u "stroke_count") e = Some sc /\ dget (u "skip_code") e = Some (VTuple codes) /\
      dget (u "frequency") e = hd_error (vals dv (u "frequency") fs) /\
      forall name, ~ In name reserved -> dget name e = opt_list (vals dv name fs).
  Proof.
    intros [V1 V2 V3 V4 V5 V6] S P M; destruct names_apart as [A1 [A2 [A3 [B1 [B2 B3]]]]]; unfold finish; cbv zeta.
    rewrite (V6 _ B1), S; cbn [opt_list]; change (first_of (Some (VList (sc :: scs)))) with (Ok sc : res value); cbn [bind].
    rewrite (dget_dset_other (u "frequency") (u "stroke_count")) by congruence; rewrite (V6 _ B2).
    set (I1 := dset (u "stroke_count") sc info).
    assert (X : exists I2, (match opt_list (vals dv (u "frequency") fs) with
                | Some v => do f <- first_of (Some v); Ok (dset (u "frequency") f I1)
                | None => Ok I1 end) = Ok I2 /\ dget (u "frequency") I2 = hd_error (vals dv (u "frequency") fs) /\
                forall k, k <> u "frequency" -> dget k I2 = dget k I1).
    { destruct (vals dv (u "frequency") fs) as [|f l] eqn:E; cbn [opt_list first_of bind hd_error].
      - exists I1; split; [reflexivity|split; [|reflexivity]]; unfold I1; rewrite dget_dset_other by congruence; rewrite (V6 _ B2), E; reflexivity.
      - eexists; split; [reflexivity|split; [apply dget_dset_same|]]; intros k D; apply dget_dset_other; congruence. }
    destruct X as [I2 [-> [F O]]]; cbn [bind]; rewrite O by congruence; unfold I1; rewrite dget_dset_other by congruence.
    rewrite (V6 _ B3), P; cbn [opt_list first_of bind]; rewrite M; cbn [bind].
    set (I3 := dset (u "skip_code") (VTuple codes) I2).
    assert (Y : forall k, k <> u "skip_code" -> k <> u "frequency" -> k <> u "stroke_count" -> dget k I3 = dget k info).
    { intros k D1 D2 D3; unfold I3; rewrite dget_dset_other by congruence; rewrite O by congruence; apply dget_dset_other; congruence. }
    assert (Z : forall k, In k basic -> dget k I3 = dget k info).
    { intros k I; apply Y; intros ->; contradiction. }
    exists I3; split.
    { unfold new_entry, dmem; rewrite !Z by (unfold basic; cbn [In]; tauto); rewrite V4, V5; reflexivity. }
    rewrite !Z by (unfold basic; cbn [In]; tauto).
    split; [exact V1|split; [exact V2|split; [exact V3|split; [exact V4|split; [exact V5|]]]]].
    split; [unfold I3; rewrite dget_dset_other by congruence; rewrite O by congruence; apply dget_dset_same|].
    split; [apply dget_dset_same|].
    split; [unfold I3; rewrite dget_dset_other by congruence; exact F|].
    intros name N; rewrite Y by (intros ->; apply N; unfold reserved; cbn [In]; tauto); apply V6.
    intros I; apply N; unfold reserved, basic in *; cbn [In] in *; tauto.
  Qed.
End Seg.

Lemma parse_segs_findall dv line ts : findall0 segment_pattern (strip line) = ts -> parse_line dv line = parse_segs dv ts.
Proof. unfold parse_line; intros ->; reflexivity. Qed.

Lemma int_parts dv parts codes : mapM (int_of dv 10) parts = Ok codes <-> Forall2 (fun p z => py_int dv 10 p = Some z) parts codes.
Proof.
  split.
  - intros M; apply mapM_inv in M; induction M as [|p z ps zs E M IH]; constructor; [|exact IH].
    unfold int_of in E; destruct (py_int dv 10 p); congruence.
  - induction 1 as [|p z ps zs E M IH]; [reflexivity|]; cbn [mapM]; unfold int_of at 1; rewrite E; cbn [bind]; rewrite IH; reflexivity.
Qed.
Lemma int_parts_fail dv parts : Exists (fun p => py_int dv 10 p = None) parts -> mapM (int_of dv 10) parts = Raise ValueError.
Proof.
  induction parts as [|p ps IH]; intros X; [inversion X|]; cbn [mapM]; unfold int_of at 1.
  destruct (py_int dv 10 p) as [z|] eqn:E; cbn [bind]; [|reflexivity].
  inversion X as [? ? E'|? ? X']; subst; [congruence|]; rewrite IH by exact X'; reflexivity.
Qed.

Section Lines.
  Variable dv : Z -> option Z.
  Variables (kanji hex body g0 g1 : str) (fs : list field) (jis : Z).
  Hypothesis (B0 : blank g0) (B1 : blank g1) (P1 : plain kanji) (P2 : plain hex) (F : Forall field_ok fs).
  Hypothesis L : laid_out body (kanji :: hex :: map token fs).

  Lemma tokens_ok : Forall token_ok (kanji :: hex :: map token fs).
  Proof.
    constructor; [left; exact P1|constructor; [left; exact P2|]].
    apply Forall_forall; intros t I; apply in_map_iff in I; destruct I as [f [<- I]]; apply field_token.
    exact (proj1 (Forall_forall _ _) F f I).
  Qed.
  Lemma line_segs : parse_line dv (g0 ++ body ++ g1) = parse_segs dv (kanji :: hex :: map token fs).
  Proof. apply parse_segs_findall, laid_findall; try assumption; apply tokens_ok. Qed.

  Lemma line_bad_code : py_int dv 16 hex = None -> parse_line dv (g0 ++ body ++ g1) = Raise ValueError.
  Proof. intros E; rewrite line_segs; unfold parse_segs, int_of; rewrite E; reflexivity. Qed.

  Hypothesis J : py_int dv 16 hex = Some jis.
  Lemma line_info : exists info, Inv dv kanji jis fs info /\
    parse_line dv (g0 ++ body ++ g1) = do info <- finish dv info; new_entry info.
  Proof.
    rewrite line_segs; unfold parse_segs, int_of; rewrite J; cbn [bind].
    destruct (segments_inv dv kanji jis fs [] _ (Forall_impl _ ok_like F) (inv_new dv kanji jis)) as [info [-> V]]; exists info; split; [exact V|reflexivity].
  Qed.
  Lemma line_ok sc scs p parts codes ps :
    values dv (u "stroke_count") fs (sc :: scs) -> values dv (u "skip_code") fs (VStr p :: ps) ->
    p = join (u "-") parts -> parts <> [] -> Forall (fun q => ~ In (u1 "-") q) parts -> Forall2 (fun q z => py_int dv 10 q = Some z) parts codes ->
    exists e, parse_line dv (g0 ++ body ++ g1) = Ok e /\
      dget (u "kanji") e = Some (VStr kanji) /\ dget (u "jis_code") e = Some (VInt jis) /\
      dget (u "gloss") e = Some (VList (map VStr (glosses fs))) /\
      dget (u "on_readings") e = Some (VList (map VStr (ons fs))) /\
      dget (u "kun_readings") e = Some (VList (map VStr (kuns fs))) /\
      dget (u "stroke_count") e = Some sc /\ dget (u "skip_code") e = Some (VTuple codes) /\
      (forall vs, values dv (u "frequency") fs vs -> dget (u "frequency") e = hd_error vs) /\
      (forall name vs, ~ In name reserved -> values dv name fs vs ->
         dget name e = match vs with [] => None | _ => Some (VList vs) end).
  Proof.
    intros VS VP -> N FP FC; apply values_vals in VS, VP.
    destruct line_info as [info [V ->]].
    destruct (finish_ok dv kanji jis fs info sc scs (join (u "-") parts) ps codes V) as [e H];
      [congruence|congruence|change (u "-") with [u1 "-"]; rewrite split_join by assumption; apply int_parts, FC|].
    exists e; destruct H as [H0 [H1 [H2 [H3 [H4 [H5 [H6 [H7 [H8 H9]]]]]]]]].
    split; [exact H0|split; [exact H1|split; [exact H2|split; [exact H3|split; [exact H4|split; [exact H5|split; [exact H6|split; [exact H7|]]]]]]]].
    split; [intros vs X; apply values_vals in X; subst vs; exact H8|].
    intros name vs X Y; apply values_vals in Y; subst vs; rewrite H9 by exact X; reflexivity.
  Qed.
  Lemma line_no_stroke : values dv (u "stroke_count") fs [] -> parse_line dv (g0 ++ body ++ g1) = Raise KeyError.
  Proof.
    intros VS; apply values_vals in VS; destruct line_info as [info [V ->]]; destruct names_apart as [A1 [A2 [A3 [C1 [C2 C3]]]]].
    unfold finish; rewrite (inv_codes _ _ _ _ _ V _ C1), <- VS; reflexivity.
  Qed.
  Lemma finish_skip info sc scs : Inv dv kanji jis fs info -> vals dv (u "stroke_count") fs = sc :: scs ->
    exists info', (do info <- finish dv info; new_entry info) =
      do info <- (do p <- first_of (opt_list (vals dv (u "skip_code") fs));
        do parts <- (match p with VStr s => Ok (split_on (u1 "-") s) | _ => Raise AttributeError end);
        do t <- mapM (int_of dv 10) parts;
        Ok (dset (u "skip_code") (VTuple t) info')); new_entry info.
  Proof.
    intros V S; destruct names_apart as [A1 [A2 [A3 [C1 [C2 C3]]]]]; unfold finish; cbv zeta.
    rewrite (inv_codes _ _ _ _ _ V _ C1), S; cbn [opt_list]; change (first_of (Some (VList (sc :: scs)))) with (Ok sc : res value); cbn [bind].
    rewrite (dget_dset_other (u "frequency") (u "stroke_count")) by congruence; rewrite (inv_codes _ _ _ _ _ V _ C2).
    destruct (vals dv (u "frequency") fs) as [|f l]; cbn [opt_list].
    - cbn [bind]; rewrite dget_dset_other by congruence; rewrite (inv_codes _ _ _ _ _ V _ C3); eexists; reflexivity.
    - change (first_of (Some (VList (f :: l)))) with (Ok f : res value); cbn [bind].
      rewrite !dget_dset_other by congruence; rewrite (inv_codes _ _ _ _ _ V _ C3); eexists; reflexivity.
  Qed.
  Lemma line_bad_skip sc scs vs : values dv (u "stroke_count") fs (sc :: scs) -> values dv (u "skip_code") fs vs ->
    match vs with
    | [] => parse_line dv (g0 ++ body ++ g1) = Raise KeyError
    | VStr p :: _ => forall parts, p = join (u "-") parts -> parts <> [] -> Forall (fun q => ~ In (u1 "-") q) parts ->
        Exists (fun q => py_int dv 10 q = None) parts -> parse_line dv (g0 ++ body ++ g1) = Raise ValueError
    | _ => parse_line dv (g0 ++ body ++ g1) = Raise AttributeError
    end.
  Proof.
    intros VS VP; apply values_vals in VS, VP; destruct line_info as [info [V ->]].
    destruct (finish_skip info sc scs V) as [info' ->]; [congruence|]; rewrite <- VP.
    destruct vs as [|[z|p|l|l] vs]; cbn [opt_list]; try reflexivity.
    intros parts -> N FP X; change (first_of (Some (VList (VStr (join (u "-") parts) :: vs)))) with (Ok (VStr (join (u "-") parts)) : res value).
    cbn [bind]; change (u "-") with [u1 "-"]; rewrite split_join by assumption; rewrite int_parts_fail by exact X; reflexivity.
  Qed.
End Lines.

(* ------------------------------------------------------------------ *)
(** ** Readings *)

Lemma split_on_count c s : length (split_on c s) = S (count_occ Z.eq_dec s c).
Proof.
  induction s as [|d s IH]; [reflexivity|]; cbn [split_on count_occ].
  destruct (Z.eqb_spec d c) as [->|N].
  - destruct (Z.eq_dec c c); [|congruence]; cbn [length]; rewrite IH; reflexivity.
  - destruct (Z.eq_dec d c); [congruence|]; destruct (split_on c s) as [|p ps]; [discriminate IH|exact IH].
Qed.
Lemma dots_filter r : dots (filter (notc (u1 "-")) r) = dots r.
Proof.
  unfold dots; induction r as [|c r IH]; [reflexivity|]; cbn [filter].
  destruct (notc (u1 "-") c) eqn:N; cbn [count_occ]; [rewrite IH; reflexivity|].
  apply notc_false in N; subst c; rewrite IH; destruct (Z.eq_dec (u1 "-") (u1 ".")) as [E|_]; [discriminate E|reflexivity].
Qed.
Lemma filter_absent r : mem (u1 "-") r = false -> filter (notc (u1 "-")) r = r.
Proof.
  intros M; apply mem_false in M; induction r as [|c r IH]; [reflexivity|]; cbn [filter].
  rewrite (proj2 (notc_true (u1 "-") c)) by (intros ->; apply M; left; reflexivity).
  rewrite IH; [reflexivity|intros I; apply M; right; exact I].
Qed.
Lemma stem_of_unfold r : let h := filter (notc (u1 "-")) r in
  stem_of r = match split_on (u1 ".") h with [t] => Ok t | [t; _] => Ok t | _ => Raise ValueError end.
Proof.
  intros h; unfold stem_of; cbv zeta.
  replace (if mem (u1 "-") r then filter (notc (u1 "-")) r else r) with h.
  2:{ destruct (mem (u1 "-") r) eqn:M; [reflexivity|unfold h; apply filter_absent, M]. }
  clearbody h; destruct (mem (u1 ".") h) eqn:M.
  - apply mem_In in M; destruct (split_on (u1 ".") h) as [|a [|b l]] eqn:E; try reflexivity.
    pose proof (split_on_count (u1 ".") h) as C; rewrite E in C; injection C as C; symmetry in C.
    apply (proj2 (count_occ_not_In Z.eq_dec _ _)) in C; contradiction.
  - apply mem_false in M; rewrite split_on_one by exact M; reflexivity.
Qed.
Lemma stem_of_ok r t : stem_of r = Ok t <-> (dots r <= 1)%nat /\ stem r t.
Proof.
  pose proof (stem_of_unfold r) as U; cbv zeta in U; rewrite U; clear U; unfold stem.
  change (filter (fun c => negb (c =? u1 "-")) r) with (filter (notc (u1 "-")) r).
  rewrite <- (dots_filter r); set (h := filter (notc (u1 "-")) r); clearbody h; unfold dots.
  pose proof (split_on_count (u1 ".") h) as C; pose proof (join_split (u1 ".") h) as J; pose proof (split_on_free (u1 ".") h) as F.
  split.
  - intros E; destruct (split_on (u1 ".") h) as [|a [|b [|c l]]]; try discriminate E; injection E as ->; cbn [length join] in *;
      (split; [lia|exists h; split; [reflexivity|]]); inversion F; subst; (split; [assumption|]).
    + left; reflexivity.
    + right; exists b; reflexivity.
  - intros [D [h' [-> [N [-> |[x ->]]]]]].
    + rewrite split_on_one by exact N; reflexivity.
    + rewrite split_on_app in * by exact N; rewrite split_on_one; [reflexivity|].
      intros I; apply (count_occ_In Z.eq_dec) in I; rewrite count_occ_app in D; cbn [count_occ] in D.
      destruct (Z.eq_dec (u1 ".") (u1 ".")); [lia|congruence].
Qed.
Lemma stem_of_raise r e : stem_of r = Raise e <-> e = ValueError /\ (dots r >= 2)%nat.
Proof.
  pose proof (stem_of_unfold r) as U; cbv zeta in U; rewrite U; clear U; rewrite <- (dots_filter r); set (h := filter (notc (u1 "-")) r); clearbody h; unfold dots.
  pose proof (split_on_count (u1 ".") h) as C; destruct (split_on (u1 ".") h) as [|a [|b [|c l]]]; cbn [length] in C.
  - discriminate.
  - split; [discriminate|intros [_ D]; lia].
  - split; [discriminate|intros [_ D]; lia].
  - split; [intros E; injection E as <-; split; [reflexivity|lia]|intros [-> _]; reflexivity].
Qed.
Lemma reading_loop_mapM rs : forall acc, reading_loop rs acc = do l <- mapM stem_of rs; Ok (supdate acc l).
Proof.
  induction rs as [|r rs IH]; intros acc; cbn [reading_loop mapM]; [reflexivity|].
  destruct (stem_of r) as [s|e]; cbn [bind]; [|reflexivity]; rewrite IH; destruct (mapM stem_of rs); reflexivity.
Qed.
Lemma dots_hiragana r : dots (to_hiragana r) = dots r.
Proof.
  rewrite to_hiragana_map; unfold dots; induction r as [|c r IH]; [reflexivity|]; cbn [map count_occ]; rewrite IH.
  pose proof (to_hiragana_spec [c]) as P; rewrite to_hiragana_map in P; cbn [map] in P; inversion P as [|? ? ? ? H _]; subst.
  unfold kata_to_hira, in_script, between in H; change (u1 ".") with 46 in *.
  destruct (Z.eq_dec c 46) as [->|N].
  - destruct H as [[H _]|[_ E]]; [lia|]; rewrite E; reflexivity.
  - destruct (Z.eq_dec (hiraf c) 46) as [E|_]; [|reflexivity]; exfalso; destruct H as [[H E']|[_ E']]; [|congruence].
    lia.
Qed.
Lemma pointwise_hiragana r t : pointwise kata_to_hira r t <-> t = to_hiragana r.
Proof.
  split; [|intros ->; apply to_hiragana_spec].
  intros P; pose proof (to_hiragana_spec r) as Q; revert Q; generalize (to_hiragana r) as q.
  induction P as [|c d r t H P IH]; intros q Q; inversion Q as [|? e ? q' H' Q']; subst; [reflexivity|].
  rewrite <- (IH q' Q'); f_equal; unfold kata_to_hira, in_script, between in *; lia.
Qed.
Lemma all_readings_ok kun on : (forall r, In r (kun ++ on) -> (dots r <= 1)%nat) ->
  exists s, all_readings kun on = Ok s /\ NoDup s /\
    forall t, In t s <-> (exists r, In r kun /\ stem r t) \/ (exists r h, In r on /\ pointwise kata_to_hira r h /\ stem h t).
Proof.
  intros D; unfold all_readings; rewrite reading_loop_mapM.
  assert (D' : forall r, In r (kun ++ map to_hiragana on) -> (dots r <= 1)%nat).
  { intros r I; apply in_app_or in I; destruct I as [I|I]; [apply D, in_or_app; left; exact I|].
    apply in_map_iff in I; destruct I as [q [<- I]]; rewrite dots_hiragana; apply D, in_or_app; right; exact I. }
  destruct (mapM stem_of (kun ++ map to_hiragana on)) as [l|e] eqn:M.
  - cbn [bind]; exists (supdate [] l); split; [reflexivity|split; [apply NoDup_supdate; constructor|]].
    intros t; rewrite In_supdate; cbn [In]; apply mapM_inv in M.
    transitivity (exists r, In r (kun ++ map to_hiragana on) /\ stem r t).
    + clear -M D'; induction M as [|r s rs l E M IH]; [split; [intros [[]|[]]|intros [r [[] _]]]|].
      assert (IH' := IH (fun r I => D' r (or_intror I))); clear IH; split.
      * intros [[]|[<-|I]]; [exists r; split; [left; reflexivity|apply stem_of_ok in E; apply E]|].
        destruct (proj1 IH' (or_intror I)) as [q [Iq Sq]]; exists q; split; [right; exact Iq|exact Sq].
      * intros [q [[<-|I] S]]; right; [left|right].
        -- rewrite (proj2 (stem_of_ok r t)) in E by (split; [apply D'; left; reflexivity|exact S]); congruence.
        -- destruct IH' as [_ IH']; destruct IH' as [[]|H]; [exists q; split; assumption|exact H].
    + split.
      * intros [r [I S]]; apply in_app_or in I; destruct I as [I|I]; [left; exists r; split; assumption|right].
        apply in_map_iff in I; destruct I as [q [<- I]]; exists q, (to_hiragana q); split; [exact I|split; [apply to_hiragana_spec|exact S]].
      * intros [[r [I S]]|[r [h [I [P S]]]]].
        -- exists r; split; [apply in_or_app; left; exact I|exact S].
        -- apply pointwise_hiragana in P; subst h; exists (to_hiragana r); split; [apply in_or_app; right; apply in_map, I|exact S].
  - exfalso; apply mapM_first in M; destruct M as [a [x [b [ys [E [_ R]]]]]]; apply stem_of_raise in R.
    destruct R as [_ R]; assert (dots x <= 1)%nat; [apply D'; rewrite E; apply in_or_app; right; left; reflexivity|lia].
Qed.
Lemma all_readings_bad kun on : (exists r, In r (kun ++ on) /\ (dots r >= 2)%nat) -> all_readings kun on = Raise ValueError.
Proof.
  intros [r [I D]]; unfold all_readings; rewrite reading_loop_mapM.
  destruct (mapM stem_of (kun ++ map to_hiragana on)) as [l|e] eqn:M; cbn [bind].
  - exfalso; apply mapM_inv in M.
    assert (X : forall q, In q (kun ++ map to_hiragana on) -> (dots q <= 1)%nat).
    { intros q Iq; clear -M Iq; induction M as [|x s xs l E M IH]; [destruct Iq|]; destruct Iq as [<-|Iq]; [apply stem_of_ok in E; apply E|apply IH, Iq]. }
    apply in_app_or in I; destruct I as [I|I].
    + specialize (X r (in_or_app _ _ _ (or_introl I))); lia.
    + specialize (X (to_hiragana r) (in_or_app _ _ _ (or_intror (in_map _ _ _ I)))); rewrite dots_hiragana in X; lia.
  - apply mapM_first in M; destruct M as [a [x [b [ys [_ [_ R]]]]]]; apply stem_of_raise in R; destruct R as [-> _]; reflexivity.
Qed.

(* ------------------------------------------------------------------ *)
(** ** Files *)

Section Files.
  Variable dv : Z -> option Z.

  Lemma append_kanji k n x info info' : dget (u "kanji") info = Some (VStr k) -> append_at n x info = Ok info' ->
    dget (u "kanji") info' = Some (VStr k).
  Proof.
    unfold append_at; intros K; destruct (eqb_spec n (u "kanji")) as [->|N]; [rewrite K; discriminate|].
    destruct (dget n info) as [[z|s|l|l]|]; try discriminate; intros E; injection E as <-; rewrite dget_dset_other by congruence; exact K.
  Qed.
  Lemma segment_kanji k s info info' : dget (u "kanji") info = Some (VStr k) -> parse_segment dv s info = Ok info' ->
    dget (u "kanji") info' = Some (VStr k).
  Proof.
    intros K; unfold parse_segment; destruct (startswith (u "{") s); [apply append_kanji, K|].
    destruct (_ || _).
    - destruct s as [|c r]; [discriminate|]; destruct (if c =? u1 "-" then _ else _) as [d|]; cbn [bind]; [|discriminate].
      destruct (script_eqb (script_type [d]) Katakana); [apply append_kanji, K|].
      destruct (script_eqb (script_type [d]) Hiragana); [apply append_kanji, K|discriminate].
    - destruct (in_T12 s); [intros E; injection E as <-; exact K|]; destruct s as [|c r]; [discriminate|]; cbv zeta.
      apply append_kanji; unfold setdefault_list; generalize (match dget c remappings with Some k => k | None => [c] end) as n; intros n.
      destruct (dget n info) eqn:G; [exact K|].
      rewrite dget_dset_other; [exact K|]; intros E; rewrite <- E in G; congruence.
  Qed.
  Lemma segments_kanji k : forall segs info info', dget (u "kanji") info = Some (VStr k) -> parse_segments dv segs info = Ok info' ->
    dget (u "kanji") info' = Some (VStr k).
  Proof.
    induction segs as [|s segs IH]; intros info info' K; cbn [parse_segments]; [intros E; injection E as <-; exact K|].
    destruct (parse_segment dv s info) as [i|] eqn:E; cbn [bind]; [|discriminate]; apply IH, (segment_kanji k s info i K E).
  Qed.
  Lemma finish_kanji k info info' : dget (u "kanji") info = Some (VStr k) -> finish dv info = Ok info' ->
    dget (u "kanji") info' = Some (VStr k).
  Proof.
    intros K; unfold finish; cbv zeta; destruct (first_of (dget (u "stroke_count") info)) as [sc|]; cbn [bind]; [|discriminate].
    assert (K1 : dget (u "kanji") (dset (u "stroke_count") sc info) = Some (VStr k)) by (rewrite dget_dset_other by discriminate; exact K).
    set (i1 := dset (u "stroke_count") sc info) in *; clearbody i1.
    destruct (match dget (u "frequency") i1 with Some v => _ | None => _ end) as [i2|] eqn:E; cbn [bind]; [|discriminate].
    assert (K2 : dget (u "kanji") i2 = Some (VStr k)).
    { destruct (dget (u "frequency") i1) as [v|]; [|injection E as <-; exact K1].
      destruct (first_of (Some v)); cbn [bind] in E; [|discriminate]; injection E as <-; rewrite dget_dset_other by discriminate; exact K1. }
    destruct (first_of (dget (u "skip_code") i2)) as [p|]; cbn [bind]; [|discriminate].
    destruct p; try discriminate; cbn [bind]; destruct (mapM (int_of dv 10) _); cbn [bind]; [|discriminate].
    intros X; injection X as <-; rewrite dget_dset_other by discriminate; exact K2.
  Qed.
  Lemma parse_line_kanji line e : parse_line dv line = Ok e ->
    exists k ts, segments (strip line) (k :: ts) /\ has_kanji e k.
  Proof.
    unfold parse_line; intros E.
    destruct (findall0 segment_pattern (strip line)) as [|k [|h ts]] eqn:Fa; try discriminate E.
    apply findall_spec in Fa; exists k, (h :: ts); split; [exact Fa|]; unfold parse_segs in E.
    destruct (int_of dv 16 h) as [j|]; cbn [bind] in E; [|discriminate].
    destruct (parse_segments dv ts (new_info k j)) as [i|] eqn:E1; cbn [bind] in E; [|discriminate].
    destruct (finish dv i) as [i'|] eqn:E2; cbn [bind] in E; [|discriminate].
    apply (segments_kanji k) in E1; [|reflexivity]; apply (finish_kanji k) in E2; [|exact E1].
    unfold new_entry in E; destruct (_ && _); [|discriminate]; injection E as <-; exact E2.
  Qed.

  Definition later_free (lines : list str) (k : str) : Prop :=
    forall line e, In line lines -> ~ comment line -> parse_line dv line = Ok e -> ~ has_kanji e k.
  Lemma comment_spec line : startswith (u "#") line = true <-> comment line.
  Proof. rewrite startswith_true; reflexivity. Qed.
  Lemma comment_dec line : comment line \/ ~ comment line.
  Proof. destruct (startswith (u "#") line) eqn:E; [left; apply comment_spec, E|right; rewrite <- comment_spec; congruence]. Qed.

  Lemma pk_step line r self d : ~ comment line -> parse_kanjidic dv (line :: r) self = Ok d ->
    exists e k, parse_line dv line = Ok e /\ has_kanji e k /\ parse_kanjidic dv r (dset k e self) = Ok d.
  Proof.
    intros N; cbn [parse_kanjidic]; destruct (startswith (u "#") line) eqn:C; [apply comment_spec in C; contradiction|].
    destruct (parse_line dv line) as [e|] eqn:E; cbn [bind]; [|discriminate].
    destruct (parse_line_kanji line e E) as [k [ts [_ K]]]; pose proof K as K'; unfold has_kanji in K'; rewrite K'.
    intros H; exists e, k; split; [reflexivity|split; assumption].
  Qed.
  Lemma has_kanji_fun e k k' : has_kanji e k -> has_kanji e k' -> k = k'.
  Proof. unfold has_kanji; congruence. Qed.
  Lemma pk_ok lines : forall self d, parse_kanjidic dv lines self = Ok d -> forall k e, dget k d = Some e <->
    (exists a line b, lines = a ++ line :: b /\ ~ comment line /\ parse_line dv line = Ok e /\ has_kanji e k /\ later_free b k) \/
    (dget k self = Some e /\ later_free lines k).
  Proof.
    induction lines as [|line r IH]; intros self d H k e.
    - injection H as <-; split.
      + intros G; right; split; [exact G|intros l e' []].
      + intros [[a [l [b [E _]]]]|[G _]]; [destruct a; discriminate|exact G].
    - destruct (comment_dec line) as [C|C].
      + assert (H' : parse_kanjidic dv r self = Ok d) by (cbn [parse_kanjidic] in H; rewrite (proj2 (comment_spec line) C) in H; exact H).
        rewrite (IH self d H' k e); split.
        * intros [[a [l [b [-> X]]]]|[G X]]; [left; exists (line :: a), l, b; split; [reflexivity|exact X]|right; split; [exact G|]].
          intros l e' [<-|I]; [intros N; contradiction|apply X, I].
        * intros [[a [l [b [E X]]]]|[G X]]; [left|right; split; [exact G|intros l e' I; apply X; right; exact I]].
          destruct a as [|l0 a]; injection E as -> E; [destruct X as [N _]; contradiction|]; exists a, l, b; split; assumption.
      + destruct (pk_step line r self d C H) as [e0 [k0 [P [K0 H']]]]; rewrite (IH _ d H' k e); split.
        * intros [[a [l [b [-> X]]]]|[G X]]; [left; exists (line :: a), l, b; split; [reflexivity|exact X]|].
          destruct (eqb_spec k0 k) as [->|N].
          -- rewrite dget_dset_same in G; injection G as ->; left; exists [], line, r; split; [reflexivity|split; [exact C|split; [exact P|split; [exact K0|exact X]]]].
          -- rewrite dget_dset_other in G by congruence; right; split; [exact G|].
             intros l e' [<-|I]; [|apply X, I]; intros _ P' K'; rewrite P in P'; injection P' as <-; apply N, (has_kanji_fun e0); assumption.
        * intros [[a [l [b [E X]]]]|[G X]].
          -- destruct a as [|l0 a]; injection E as -> E; [|left; exists a, l, b; split; assumption].
             subst b; destruct X as [_ [P' [K' X]]]; rewrite P in P'; injection P' as ->.
             right; rewrite (has_kanji_fun e k0 k K0 K'), dget_dset_same; split; [reflexivity|exact X].
          -- right; rewrite dget_dset_other; [split; [exact G|intros l e' I; apply X; right; exact I]|].
             intros E; apply (X line e0 (or_introl eq_refl) C P); first [rewrite E; exact K0|rewrite <- E; exact K0].
  Qed.
  Lemma pk_raise lines : forall self x, parse_kanjidic dv lines self = Raise x <->
    exists a line b, lines = a ++ line :: b /\ ~ comment line /\ parse_line dv line = Raise x /\
      forall l, In l a -> ~ comment l -> exists e, parse_line dv l = Ok e.
  Proof.
    induction lines as [|line r IH]; intros self x.
    - split; [discriminate|intros [a [l [b [E _]]]]; destruct a; discriminate].
    - destruct (comment_dec line) as [C|C].
      + cbn [parse_kanjidic]; rewrite (proj2 (comment_spec line) C), IH; split.
        * intros [a [l [b [-> [N [P A]]]]]]; exists (line :: a), l, b; split; [reflexivity|split; [exact N|split; [exact P|]]].
          intros l' [<-|I]; [contradiction|apply A, I].
        * intros [a [l [b [E [N [P A]]]]]]; destruct a as [|l0 a]; injection E as -> E; [contradiction|].
          exists a, l, b; split; [exact E|split; [exact N|split; [exact P|intros l' I; apply A; right; exact I]]].
      + cbn [parse_kanjidic]; destruct (startswith (u "#") line) eqn:S; [apply comment_spec in S; contradiction|].
        destruct (parse_line dv line) as [e|x'] eqn:E; cbn [bind].
        * destruct (parse_line_kanji line e E) as [k [ts [_ K]]]; unfold has_kanji in K; rewrite K, IH; split.
          -- intros [a [l [b [-> [N [P A]]]]]]; exists (line :: a), l, b; split; [reflexivity|split; [exact N|split; [exact P|]]].
             intros l' [<-|I]; [intros _; exists e; exact E|apply A, I].
          -- intros [a [l [b [X [N [P A]]]]]]; destruct a as [|l0 a]; injection X as -> X; [congruence|].
             exists a, l, b; split; [exact X|split; [exact N|split; [exact P|intros l' I; apply A; right; exact I]]].
        * split.
          -- intros X; injection X as ->; exists [], line, r; split; [reflexivity|split; [exact C|split; [exact E|intros l []]]].
          -- intros [a [l [b [X [N [P A]]]]]]; destruct a as [|l0 a]; injection X as -> X; [congruence|].
             destruct (A l0 (or_introl eq_refl) C) as [e' E']; congruence.
  Qed.
  Lemma fold_app_concat (r : list (list str)) : forall f, fold_left (@app (list Z)) r f = f ++ concat r.
  Proof. induction r as [|x r IH]; intros f; cbn [fold_left concat]; [rewrite app_nil_r; reflexivity|rewrite IH, <- app_assoc; reflexivity]. Qed.
  Lemma init_lines files : files <> [] -> init dv files = parse_kanjidic dv (concat files) [].
  Proof. destruct files as [|f r]; [congruence|]; intros _; unfold init; rewrite fold_app_concat; reflexivity. Qed.
  Lemma init_ok files d : init dv files = Ok d -> forall k e, dget k d = Some e <->
    exists a line b, concat files = a ++ line :: b /\ ~ comment line /\ parse_line dv line = Ok e /\ has_kanji e k /\
      forall line' e', In line' b -> ~ comment line' -> parse_line dv line' = Ok e' -> ~ has_kanji e' k.
  Proof.
    intros H; assert (N : files <> []) by (intros ->; discriminate H); rewrite init_lines in H by exact N.
    intros k e; rewrite (pk_ok _ _ _ H k e); split; [intros [X|[G _]]; [exact X|discriminate G]|intros X; left; exact X].
  Qed.
  Lemma init_raise files x : files <> [] -> (init dv files = Raise x <->
    exists a line b, concat files = a ++ line :: b /\ ~ comment line /\ parse_line dv line = Raise x /\
      forall l, In l a -> ~ comment l -> exists e, parse_line dv l = Ok e).
  Proof. intros N; rewrite init_lines by exact N; apply pk_raise. Qed.
End Files.

(* ------------------------------------------------------------------ *)
(** ** Caching *)

Section CachedProofs.
  Context {S A : Type}.
  Variable construct : S -> S * res A.
  Lemma hasattr_hit n : forall s a, calls (get_cached_hasattr construct) n (s, Some a) = ((s, Some a), repeat (Ok a) n).
  Proof. induction n as [|n IH]; intros s a; [reflexivity|]; cbn [calls get_cached_hasattr repeat]; rewrite IH; reflexivity. Qed.
  Lemma hasattr_once n s s' a : construct s = (s', Ok a) ->
    calls (get_cached_hasattr construct) (Datatypes.S n) (s, None) = ((s', Some a), repeat (Ok a) (Datatypes.S n)).
  Proof. intros E; cbn [calls get_cached_hasattr]; rewrite E, hasattr_hit; reflexivity. Qed.
  (** states after each of n successful constructions *)
  Fixpoint constructed (n : nat) (s s' : S) : Prop :=
    match n with
    | O => s' = s
    | Datatypes.S n => exists s1 a, construct s = (s1, Ok a) /\ constructed n s1 s'
    end.
  Lemma getattr_hit n : forall s s' a, constructed n s s' ->
    calls (get_cached_getattr construct) n (s, Some a) = ((s', Some a), repeat (Ok a) n).
  Proof.
    induction n as [|n IH]; intros s s' a C; cbn [constructed] in C; [subst; reflexivity|].
    destruct C as [s1 [b [E C]]]; cbn [calls get_cached_getattr repeat]; rewrite E, (IH s1 s' a C); reflexivity.
  Qed.
  Lemma getattr_each n s s1 s' a : construct s = (s1, Ok a) -> constructed n s1 s' ->
    calls (get_cached_getattr construct) (Datatypes.S n) (s, None) = ((s', Some a), repeat (Ok a) (Datatypes.S n)).
  Proof. intros E C; cbn [calls get_cached_getattr]; rewrite E, (getattr_hit n s1 s' a C); reflexivity. Qed.
  Lemma getattr_fails s s' e c : construct s = (s', Raise e) -> get_cached_getattr construct (s, c) = ((s', c), Raise e).
  Proof. intros E; unfold get_cached_getattr; rewrite E; reflexivity. Qed.
End CachedProofs.
