(* Scripts_proofs.v -- lemmas about the model of scripts.py *)
From Verif Require Import Base Scripts_model Scripts_spec.
From Coq Require Import ZifyBool.

Ltac unb := unfold between in *.
Ltac zcase :=
  match goal with
  | |- context [Z.leb ?a ?b] => destruct (Z.leb_spec a b)
  | |- context [Z.ltb ?a ?b] => destruct (Z.ltb_spec a b)
  | |- context [Z.eqb ?a ?b] => destruct (Z.eqb_spec a b)
  end.

Lemma mappings_constructed :
  make_mapping Katakana Hiragana = Ok (the_mapping (make_mapping Katakana Hiragana)) /\
  make_mapping Hiragana Katakana = Ok (the_mapping (make_mapping Hiragana Katakana)) /\
  make_mapping FullAscii Ascii = Ok (the_mapping (make_mapping FullAscii Ascii)).
Proof. repeat split. Qed.

(** The explicit one-character functions. *)
Definition kataf (c : char) : char := if (0x3041 <=? c) && (c <=? 0x3096) then c + 96 else c.
Definition hiraf (c : char) : char := if (0x30a1 <=? c) && (c <=? 0x30f6) then c + (-96) else c.
Definition asciif (c : char) : char := if (0xff01 <=? c) && (c <=? 0xff5f) then c + (0x21 - 0xff01) else c.
Definition punctf (c : char) : char :=
  if c =? 0x3000 then 0x20 else if c =? 0x3001 then 0x2c else if c =? 0x3002 then 0x2e else c.

Lemma to_katakana_map s : to_katakana s = map kataf s.
Proof. reflexivity. Qed.
Lemma to_hiragana_map s : to_hiragana s = map hiraf s.
Proof. reflexivity. Qed.
Lemma normalize_ascii_map s : normalize_ascii s = map (fun c => asciif (punctf c)) s.
Proof.
  unfold normalize_ascii, to_ascii_, apply_mapping; rewrite map_map; apply map_ext; intros c.
  change (asciif (match dget c mapped_chars with Some d => d | None => c end) = asciif (punctf c)).
  f_equal; unfold punctf, mapped_chars; cbn [dget eqb EqB_Z]; repeat zcase; reflexivity.
Qed.

Ltac kmap :=
  repeat match goal with
  | |- context [to_katakana ?x] => rewrite (to_katakana_map x)
  | |- context [to_hiragana ?x] => rewrite (to_hiragana_map x)
  | |- context [normalize_ascii ?x] => rewrite (normalize_ascii_map x)
  end.

Lemma pointwise_map (R : char -> char -> Prop) f s :
  (forall c, In c s -> R c (f c)) -> pointwise R s (map f s).
Proof.
  induction s as [|c s IH]; intros E; cbn [map]; constructor; [apply E; left; reflexivity|].
  apply IH; intros d Hd; apply E; right; exact Hd.
Qed.

Lemma pointwise_fun (R : char -> char -> Prop) f s t :
  (forall c d, R c d -> d = f c) -> pointwise R s t -> t = map f s.
Proof. intros E P; induction P as [|c d s t Hcd P IH]; cbn [map]; [reflexivity|rewrite IH, (E _ _ Hcd); reflexivity]. Qed.

(** *** C01 *)
Lemma to_katakana_spec s : pointwise hira_to_kata s (to_katakana s).
Proof.
  kmap; apply pointwise_map; intros c _.
  unfold hira_to_kata, in_script, kataf; unb; repeat zcase; cbn [andb]; lia.
Qed.
Lemma to_hiragana_spec s : pointwise kata_to_hira s (to_hiragana s).
Proof.
  kmap; apply pointwise_map; intros c _.
  unfold kata_to_hira, in_script, hiraf; unb; repeat zcase; cbn [andb]; lia.
Qed.
Lemma kataf_cases c : (0x3041 <= c <= 0x3096 /\ kataf c = c + 96) \/ (~ 0x3041 <= c <= 0x3096 /\ kataf c = c).
Proof. unfold kataf; repeat (zcase; cbn [andb]); lia. Qed.
Lemma hiraf_cases c : (0x30a1 <= c <= 0x30f6 /\ hiraf c = c - 96) \/ (~ 0x30a1 <= c <= 0x30f6 /\ hiraf c = c).
Proof. unfold hiraf; repeat (zcase; cbn [andb]); lia. Qed.
Lemma asciif_cases c : (0xff01 <= c <= 0xff5f /\ asciif c = c - 0xfee0) \/ (~ 0xff01 <= c <= 0xff5f /\ asciif c = c).
Proof. unfold asciif; repeat (zcase; cbn [andb]); lia. Qed.
Lemma punctf_cases c : (c = 0x3000 /\ punctf c = 0x20) \/ (c = 0x3001 /\ punctf c = 0x2c) \/
  (c = 0x3002 /\ punctf c = 0x2e) \/ (~ 0x3000 <= c <= 0x3002 /\ punctf c = c).
Proof. unfold punctf; repeat (zcase; cbn [andb]); lia. Qed.
Ltac cf :=
  repeat match goal with
  | |- context [kataf ?x] => lazymatch x with context [kataf _] => fail | context [hiraf _] => fail | _ =>
        pose proof (kataf_cases x); let y := fresh "y" in set (y := kataf x) in *; clearbody y end
  | |- context [hiraf ?x] => lazymatch x with context [kataf _] => fail | context [hiraf _] => fail | _ =>
        pose proof (hiraf_cases x); let y := fresh "y" in set (y := hiraf x) in *; clearbody y end
  | |- context [punctf ?x] => lazymatch x with context [asciif _] => fail | context [punctf _] => fail | _ =>
        pose proof (punctf_cases x); let y := fresh "y" in set (y := punctf x) in *; clearbody y end
  | |- context [asciif ?x] => lazymatch x with context [asciif _] => fail | context [punctf _] => fail | _ =>
        pose proof (asciif_cases x); let y := fresh "y" in set (y := asciif x) in *; clearbody y end
  end; lia.
Lemma kataf_idem c : kataf (kataf c) = kataf c.
Proof. cf. Qed.
Lemma hiraf_idem c : hiraf (hiraf c) = hiraf c.
Proof. cf. Qed.
Lemma kata_hira c : kataf (hiraf c) = kataf c.
Proof. cf. Qed.
Lemma hira_kata c : hiraf (kataf c) = hiraf c.
Proof. cf. Qed.
Lemma hiraf_id c : ~ in_script Katakana c -> hiraf c = c.
Proof. unfold in_script, hiraf; unb; repeat (zcase; cbn [andb]); lia. Qed.
Lemma kataf_id c : ~ in_script Hiragana c -> kataf c = c.
Proof. unfold in_script, kataf; unb; repeat (zcase; cbn [andb]); lia. Qed.

Lemma map_id_in (f : char -> char) s : (forall c, In c s -> f c = c) -> map f s = s.
Proof.
  induction s as [|c s IH]; intros E; cbn [map]; [reflexivity|].
  rewrite (E c (or_introl eq_refl)), IH; [reflexivity|intros d Hd; apply E; right; exact Hd].
Qed.

Lemma to_katakana_idem s : to_katakana (to_katakana s) = to_katakana s.
Proof. kmap; rewrite map_map; apply map_ext, kataf_idem. Qed.
Lemma to_hiragana_idem s : to_hiragana (to_hiragana s) = to_hiragana s.
Proof. kmap; rewrite map_map; apply map_ext, hiraf_idem. Qed.
Lemma kata_of_hira s : to_katakana (to_hiragana s) = to_katakana s.
Proof. kmap; rewrite map_map; apply map_ext, kata_hira. Qed.
Lemma hira_of_kata s : to_hiragana (to_katakana s) = to_hiragana s.
Proof. kmap; rewrite map_map; apply map_ext, hira_kata. Qed.
Lemma to_hiragana_id s : Forall (fun c => ~ in_script Katakana c) s -> to_hiragana s = s.
Proof. rewrite Forall_forall; intros E; kmap; apply map_id_in; intros c Hc; apply hiraf_id, E, Hc. Qed.
Lemma to_katakana_id s : Forall (fun c => ~ in_script Hiragana c) s -> to_katakana s = s.
Proof. rewrite Forall_forall; intros E; kmap; apply map_id_in; intros c Hc; apply kataf_id, E, Hc. Qed.
Lemma kana_roundtrip s :
  (Forall (fun c => ~ in_script Katakana c) s -> to_hiragana (to_katakana s) = s) /\
  (Forall (fun c => ~ in_script Hiragana c) s -> to_katakana (to_hiragana s) = s).
Proof.
  split; intros E.
  - rewrite hira_of_kata; apply to_hiragana_id, E.
  - rewrite kata_of_hira; apply to_katakana_id, E.
Qed.
Lemma kana_app s t :
  to_katakana (s ++ t) = to_katakana s ++ to_katakana t /\
  to_hiragana (s ++ t) = to_hiragana s ++ to_hiragana t.
Proof. split; kmap; apply map_app. Qed.

(** *** C02 *)
Lemma in_script_fun a b c : in_script a c -> in_script b c -> a = b.
Proof. destruct a, b; cbn [in_script]; unb; intros H1 H2; try reflexivity; exfalso; lia. Qed.

Lemma band_of_known c : in_script (band_of known_bands c) c.
Proof.
  unfold known_bands; cbn [band_of].
  repeat (zcase; cbn [andb in_script]); unb; try lia.
Qed.

Lemma band_of_perm bands c :
  Permutation bands known_bands -> in_script (band_of bands c) c.
Proof.
  intros P.
  assert (A : forall sc s e, In (sc, (s, e)) bands -> (s <= c <= e <-> in_script sc c) /\ sc <> Unknown).
  { intros sc s e Hin; apply (Permutation_in _ P) in Hin; unfold known_bands in Hin; cbn [In] in Hin.
    repeat (destruct Hin as [Hin|Hin]; [injection Hin as <- <- <-; cbn [in_script]; unb; split; [lia|congruence]|]).
    contradiction. }
  assert (B : forall sc, sc <> Unknown -> exists s e, In (sc, (s, e)) bands).
  { intros sc n.
    assert (F : exists s e, In (sc, (s, e)) known_bands).
    { destruct sc; try contradiction; unfold known_bands; cbn [In];
      eexists; eexists; repeat (try (left; reflexivity); right). }
    destruct F as [s [e F]]; exists s, e; apply (Permutation_in _ (Permutation_sym P)), F. }
  assert (C : forall l, (forall x, In x l -> In x bands) ->
     in_script (band_of l c) c \/
     (band_of l c = Unknown /\ forall sc s e, In (sc, (s, e)) l -> ~ in_script sc c)).
  { induction l as [|[sc [s e]] l IH]; intros Hl; cbn [band_of].
    - right; split; [reflexivity|intros ? ? ? []].
    - destruct (A sc s e (Hl _ (or_introl eq_refl))) as [A1 _].
      destruct ((s <=? c) && (c <=? e)) eqn:E.
      + left; apply A1; lia.
      + destruct (IH (fun x Hx => Hl x (or_intror Hx))) as [D|[D1 D2]]; [left; exact D|].
        right; split; [exact D1|]; intros sc' s' e' [F|F]; [|apply (D2 _ _ _ F)].
        injection F as <- <- <-; rewrite <- A1; lia. }
  destruct (C bands (fun _ h => h)) as [D|[D1 D2]]; [exact D|].
  rewrite D1; cbn [in_script].
  assert (N : forall sc, sc <> Unknown -> ~ in_script sc c).
  { intros sc n; destruct (B sc n) as [s [e F]]; exact (D2 _ _ _ F). }
  repeat split; [exact (N Ascii ltac:(congruence))|exact (N Hiragana ltac:(congruence))
   |exact (N Katakana ltac:(congruence))|exact (N Kanji ltac:(congruence))
   |exact (N FullAscii ltac:(congruence))|exact (N HalfKatakana ltac:(congruence))].
Qed.

Lemma script_type_in_spec bands :
  Permutation bands known_bands ->
  script_type_in bands [] = Unknown /\
  forall c s sc, script_type_in bands (c :: s) = sc <-> in_script sc c.
Proof.
  intros P; split; [reflexivity|intros c s sc; cbn [script_type_in]].
  pose proof (band_of_perm bands c P) as B.
  split; [intros <-; exact B|intros Hsc; exact (in_script_fun _ _ _ B Hsc)].
Qed.

Lemma script_type_char c s sc : script_type (c :: s) = sc <-> in_script sc c.
Proof. apply (script_type_in_spec known_bands (Permutation_refl _)). Qed.

Lemma script_type_perm bands s :
  Permutation bands known_bands -> script_type_in bands s = script_type s.
Proof.
  intros P; destruct s as [|c s]; [reflexivity|].
  symmetry; apply script_type_char, (proj2 (script_type_in_spec bands P) c s); reflexivity.
Qed.

(** *** C03 *)
Lemma script_type_first c s : script_type (c :: s) = script_type [c].
Proof. reflexivity. Qed.

Lemma in_own_script c : in_script (script_type [c]) c.
Proof. apply (script_type_char c [] _); reflexivity. Qed.

(** a segmentation-preserving extension lemma for the loop *)
Lemma chain_split_snoc l s t :
  chain_split (l ++ [s]) -> must_split s t -> chain_split ((l ++ [s]) ++ [t]).
Proof.
  induction l as [|a l IH]; intros C M; cbn [app] in *.
  - constructor; [exact M|constructor].
  - destruct l as [|b l]; cbn [app] in *.
    + inversion C; subst; constructor; [assumption|]; constructor; [exact M|constructor].
    + inversion C; subst; constructor; [assumption|]; apply IH; assumption.
Qed.
Lemma chain_split_last l s s' :
  (forall x, must_split x s -> must_split x s') ->
  chain_split (l ++ [s]) -> chain_split (l ++ [s']).
Proof.
  intros E; induction l as [|a l IH]; intros C; cbn [app] in *.
  - constructor.
  - destruct l as [|b l]; cbn [app] in *.
    + inversion C; subst; constructor; [apply E; assumption|constructor].
    + inversion C; subst; constructor; [assumption|apply IH; assumption].
Qed.

Lemma sb_loop_seg rest : forall segs c r,
  Forall segment_ok segs ->
  Forall (fun x => in_script (script_type [c]) x \/ x = 0x30FC) r ->
  chain_split (segs ++ [c :: r]) ->
  segmentation (concat segs ++ (c :: r) ++ rest) (sb_loop segs (script_type [c]) (c :: r) rest).
Proof.
  induction rest as [|d rest IH]; intros segs c r F1 F2 C; cbn [sb_loop].
  - split; [rewrite concat_app; cbn [concat]; rewrite !app_nil_r; reflexivity|split; [|exact C]].
    apply Forall_app; split; [exact F1|constructor; [|constructor]].
    exists (script_type [c]), c, r; split; [reflexivity|split; [apply in_own_script|exact F2]].
  - destruct (eqb (script_type [d]) (script_type [c]) || (d =? long_vowel_mark)) eqn:E.
    + replace (concat segs ++ (c :: r) ++ d :: rest) with (concat segs ++ (c :: (r ++ [d])) ++ rest)
        by (cbn [app]; rewrite <- app_assoc; reflexivity).
      change ((c :: r) ++ [d]) with (c :: (r ++ [d])).
      apply IH; [exact F1| |].
      * apply Forall_app; split; [exact F2|constructor; [|constructor]].
        apply orb_true_iff in E; destruct E as [E|E].
        -- apply eqb_eq in E; left; rewrite <- E; apply in_own_script.
        -- right; unfold long_vowel_mark in E; lia.
      * refine (chain_split_last _ _ _ _ C).
        intros x [sc [a [b [a' [b' [-> [E1 [I1 [I2 I3]]]]]]]]]; injection E1 as <- <-.
        exists sc, a, b, c, (r ++ [d]); repeat split; assumption.
    + apply orb_false_iff in E; destruct E as [E1 E2].
      replace (concat segs ++ (c :: r) ++ d :: rest) with (concat (segs ++ [c :: r]) ++ [d] ++ rest)
        by (rewrite concat_app; cbn [concat app]; rewrite app_nil_r, <- app_assoc; reflexivity).
      apply IH.
      * apply Forall_app; split; [exact F1|constructor; [|constructor]].
        exists (script_type [c]), c, r; split; [reflexivity|split; [apply in_own_script|exact F2]].
      * constructor.
      * apply chain_split_snoc; [exact C|].
        exists (script_type [c]), c, r, d, []; repeat split; [apply in_own_script| |].
        -- intros I; apply eqb_ne in E1; apply E1; apply script_type_char; exact I.
        -- unfold long_vowel_mark in E2; lia.
Qed.

Lemma script_boundaries_seg s : s <> [] -> segmentation s (script_boundaries s).
Proof.
  destruct s as [|c s]; [congruence|intros _].
  unfold script_boundaries; rewrite script_type_first.
  apply (sb_loop_seg s [] c []); constructor.
Qed.

Lemma segment_ok_nonempty seg : segment_ok seg -> seg <> [].
Proof. intros [sc [c [r [-> _]]]]; discriminate. Qed.

(** uniqueness of segmentations *)
Lemma segmentation_unique s l1 l2 : segmentation s l1 -> segmentation s l2 -> l1 = l2.
Proof.
  revert s l2; induction l1 as [|a l1 IH]; intros s l2 [Ea [Fa Ca]] [Eb [Fb Cb]].
  - cbn [concat] in Ea; subst s; destruct l2 as [|b l2]; [reflexivity|].
    inversion Fb as [|x l Hx _]; subst; apply segment_ok_nonempty in Hx.
    cbn [concat] in Eb; destruct b; [congruence|discriminate].
  - destruct l2 as [|b l2].
    + cbn [concat] in Eb; rewrite <- Eb in Ea; inversion Fa as [|x l Hx Hl]; apply segment_ok_nonempty in Hx.
      cbn [concat] in Ea; destruct a; [congruence|discriminate].
    + inversion Fa as [|xa la Ha Fa']; subst; inversion Fb as [|xb lb Hb Fb']; subst.
      cbn [concat] in Eb.
      assert (ab : a = b).
      { (* the common prefix argument: neither can be a proper prefix of the other *)
        assert (G : forall p p' m m', segment_ok p -> segment_ok p' ->
                    chain_split (p :: m) -> Forall segment_ok m ->
                    concat (p :: m) = concat (p' :: m') ->
                    forall x q, p' = p ++ x :: q -> False).
        { clear; intros p p' m m' Hp Hp' C Fm E x q ->.
          cbn [concat] in E; rewrite <- app_assoc in E; apply app_inv_head in E.
          destruct m as [|t m]; [discriminate|].
          inversion C as [| |s' t' l' M C']; subst.
          destruct M as [sc [c [r [d [q' [-> [-> [I1 [I2 I3]]]]]]]]].
          cbn [concat app] in E; injection E as <- E.
          destruct Hp' as [sc' [c' [r' [E' [I4 I5]]]]]; cbn [app] in E'; injection E' as <- E'.
          assert (sc' = sc) by (exact (in_script_fun _ _ _ I4 I1)); subst sc'.
          rewrite <- E' in I5; apply Forall_app in I5; destruct I5 as [_ I5].
          inversion I5 as [|y l Hy _]; subst; destruct Hy as [Hy|Hy]; contradiction. }
        destruct (Nat.lt_trichotomy (length a) (length b)) as [L|[L|L]].
        - assert (P : exists x q, b = a ++ x :: q).
          { clear - Eb L. revert b Eb L; induction a as [|y a IHa]; intros b Eb L.
            - destruct b as [|x q]; [cbn in L; lia|exists x, q; reflexivity].
            - destruct b as [|z b]; [cbn in L; lia|]. cbn [app] in Eb; injection Eb as -> Eb.
              destruct (IHa b Eb) as [x [q ->]]; [cbn in L; lia|exists x, q; reflexivity]. }
          destruct P as [x [q P]]; exfalso.
          apply (G a b l1 l2 Ha Hb Ca Fa' (eq_sym Eb) x q P).
        - clear - Eb L; revert b Eb L; induction a as [|y a IHa]; intros [|z b] Eb L; cbn in *; try lia; [reflexivity|].
          injection Eb as -> Eb; rewrite (IHa b Eb); [reflexivity|lia].
        - assert (P : exists x q, a = b ++ x :: q).
          { clear - Eb L. revert a Eb L; induction b as [|y b IHb]; intros a Eb L.
            - destruct a as [|x q]; [cbn in L; lia|exists x, q; reflexivity].
            - destruct a as [|z a]; [cbn in L; lia|]. cbn [app] in Eb; injection Eb as -> Eb.
              destruct (IHb a Eb) as [x [q ->]]; [cbn in L; lia|exists x, q; reflexivity]. }
          destruct P as [x [q P]]; exfalso.
          apply (G b a l2 l1 Hb Ha Cb Fb' Eb x q P). }
      subst b; f_equal.
      apply app_inv_head in Eb.
      apply (IH (concat l1) l2).
      * split; [reflexivity|split; [exact Fa'|]]; inversion Ca; subst; [constructor|assumption].
      * split; [exact Eb|split; [exact Fb'|]]; inversion Cb; subst; [constructor|assumption].
Qed.

(** *** C04 *)
Lemma normalize_ascii_observed s :
  pointwise (fun c d => (c <> 0xff5f /\ full_to_ascii c d) \/ (c = 0xff5f /\ d = 0x7f)) s (normalize_ascii s).
Proof.
  rewrite normalize_ascii_map; apply pointwise_map; intros c _; unfold full_to_ascii; unb; cf.
Qed.
Lemma normalize_ascii_good s : ~ In 0xff5f s -> pointwise full_to_ascii s (normalize_ascii s).
Proof.
  intros n; rewrite normalize_ascii_map; apply pointwise_map; intros c Hc.
  assert (c <> 0xff5f) by (intros ->; contradiction).
  unfold full_to_ascii; unb; cf.
Qed.
Lemma normalize_ascii_idem s : normalize_ascii (normalize_ascii s) = normalize_ascii s.
Proof.
  kmap; rewrite map_map; apply map_ext; intros c.
  cf.
Qed.
Lemma normalize_ascii_length s : length (normalize_ascii s) = length s.
Proof. rewrite normalize_ascii_map; apply map_length. Qed.

(** *** C05 *)
Definition kanaf (c : char) : char :=
  if (0xff61 <=? c) && (c <=? 0xff9f) then nth (Z.to_nat (c - 0xff61)) half_width_counterparts 0 else c.

Lemma full_width_table : full_width_kana = half_width_counterparts.
Proof. reflexivity. Qed.
Lemma table_len : length half_width_counterparts = 63%nat.
Proof. reflexivity. Qed.

Lemma normalize_kana_map s : normalize_kana s = Ok (map kanaf s).
Proof.
  unfold normalize_kana; cbn [dgetitem known_bands dget eqb EqB_Script script_eqb of_option bind].
  apply mapM_Ok; intros c _; unfold kanaf.
  destruct ((0xff61 <=? c) && (c <=? 0xff9f)) eqn:E; [|reflexivity].
  rewrite full_width_table.
  rewrite (nth_error_nth' half_width_counterparts 0); [reflexivity|rewrite table_len; lia].
Qed.

Lemma half_table_range : forallb (fun d => negb ((0xff01 <=? d) && (d <=? 0xff9f)) && negb (d =? 0x3000)) half_width_counterparts = true.
Proof. reflexivity. Qed.
Lemma kanaf_range c : ~ (0xff61 <= kanaf c <= 0xff9f).
Proof.
  unfold kanaf; destruct ((0xff61 <=? c) && (c <=? 0xff9f)) eqn:E; [|lia].
  pose proof half_table_range as T; rewrite forallb_forall in T.
  assert (L : (Z.to_nat (c - 0xff61) < length half_width_counterparts)%nat) by (rewrite table_len; lia).
  specialize (T _ (nth_In half_width_counterparts 0 L)); lia.
Qed.

Lemma normalize_kana_spec s : exists t, normalize_kana s = Ok t /\ pointwise half_to_full s t.
Proof.
  exists (map kanaf s); split; [apply normalize_kana_map|].
  apply pointwise_map; intros c _; unfold half_to_full, in_script, kanaf; unb.
  destruct ((0xff61 <=? c) && (c <=? 0xff9f)) eqn:E; [left|right; lia].
  split; [lia|apply nth_error_nth'; rewrite table_len; lia].
Qed.
Lemma kanaf_idem c : kanaf (kanaf c) = kanaf c.
Proof.
  pose proof (kanaf_range c) as R; set (d := kanaf c) in *; unfold kanaf.
  destruct ((0xff61 <=? d) && (d <=? 0xff9f)) eqn:E; [lia|reflexivity].
Qed.
Lemma normalize_kana_idem s t : normalize_kana s = Ok t -> normalize_kana t = Ok t.
Proof.
  rewrite normalize_kana_map; intros E; injection E as <-.
  rewrite normalize_kana_map, map_map; f_equal; apply map_ext, kanaf_idem.
Qed.

Lemma normalize_map s : normalize s = Ok (map (fun c => asciif (punctf (kanaf c))) s).
Proof.
  unfold normalize; rewrite normalize_kana_map; cbn [bind]; rewrite normalize_ascii_map, map_map; reflexivity.
Qed.
Lemma ap_range c : ~ (0xff61 <= c <= 0xff9f) ->
  let d := asciif (punctf c) in ~ (0xff01 <= d <= 0xff5f) /\ ~ (0xff61 <= d <= 0xff9f) /\ ~ (0x3000 <= d <= 0x3002).
Proof. intros R; cbv zeta; cf. Qed.
Lemma ap_fix d : ~ (0xff01 <= d <= 0xff5f) -> ~ (0x3000 <= d <= 0x3002) -> asciif (punctf d) = d.
Proof. intros R1 R2; cf. Qed.
Lemma kanaf_fix d : ~ (0xff61 <= d <= 0xff9f) -> kanaf d = d.
Proof. intros R; unfold kanaf; destruct ((0xff61 <=? d) && (d <=? 0xff9f)) eqn:E; [lia|reflexivity]. Qed.

Lemma normalize_total_idem s : exists t, normalize s = Ok t /\ normalize t = Ok t /\ length t = length s /\
  Forall (fun c => ~ in_script HalfKatakana c /\ ~ in_script FullAscii c /\ ~ (0x3000 <= c <= 0x3002)) t.
Proof.
  exists (map (fun c => asciif (punctf (kanaf c))) s); split; [apply normalize_map|].
  split; [|split; [apply map_length|]].
  - rewrite normalize_map, map_map; f_equal; apply map_ext; intros c.
    destruct (ap_range _ (kanaf_range c)) as [R1 [R2 R3]].
    rewrite (kanaf_fix _ R2); apply ap_fix; assumption.
  - apply Forall_forall; intros d Hd; apply in_map_iff in Hd; destruct Hd as [c [<- _]].
    destruct (ap_range _ (kanaf_range c)) as [R1 [R2 R3]]; cbn [in_script]; unb; tauto.
Qed.

Lemma normalize_compose s k : normalize_kana s = Ok k -> normalize s = Ok (normalize_ascii k).
Proof. intros E; unfold normalize; rewrite E; reflexivity. Qed.

(** *** C06 *)
Lemma str_ltb_lex a b : str_ltb a b = true <-> lex_lt a b.
Proof.
  revert b; induction a as [|x a IH]; intros [|y b]; cbn [str_ltb].
  - split; [discriminate|intros L; inversion L].
  - split; [intros _; constructor|reflexivity].
  - split; [discriminate|intros L; inversion L].
  - destruct (Z.ltb_spec x y) as [L|L].
    + split; [intros _; apply lex_head; exact L|reflexivity].
    + destruct (Z.eqb_spec x y) as [->|n].
      * rewrite IH; split; [apply lex_tail|intros K; inversion K; subst; [lia|assumption]].
      * split; [discriminate|intros K; inversion K; subst; lia].
Qed.
Lemma lex_irrefl a : ~ lex_lt a a.
Proof. induction a as [|x a IH]; intros L; inversion L; subst; [lia|contradiction]. Qed.
Lemma lex_trans a b c : lex_lt a b -> lex_lt b c -> lex_lt a c.
Proof.
  intros H; revert c; induction H as [y b|x y a b L|x a b L IH]; intros c H2; inversion H2; subst.
  - constructor.
  - constructor.
  - apply lex_head; lia.
  - apply lex_head; assumption.
  - apply lex_head; assumption.
  - apply lex_tail, IH; assumption.
Qed.
Lemma lex_total a b : lex_lt a b \/ a = b \/ lex_lt b a.
Proof.
  revert b; induction a as [|x a IH]; intros [|y b].
  - right; left; reflexivity.
  - left; constructor.
  - right; right; constructor.
  - destruct (Z.lt_trichotomy x y) as [L|[->|L]].
    + left; apply lex_head; exact L.
    + destruct (IH b) as [L|[->|L]]; [left; apply lex_tail|right; left|right; right; apply lex_tail]; auto.
    + right; right; apply lex_head; exact L.
Qed.
Lemma str_ltb_false a b : str_ltb a b = false <-> ~ lex_lt a b.
Proof. rewrite <- str_ltb_lex; destruct (str_ltb a b); split; congruence. Qed.

Lemma kata_hira_eq a b : to_katakana a = to_katakana b <-> to_hiragana a = to_hiragana b.
Proof.
  split; intros E.
  - rewrite <- (hira_of_kata a), <- (hira_of_kata b), E; reflexivity.
  - rewrite <- (kata_of_hira a), <- (kata_of_hira b), E; reflexivity.
Qed.

Lemma compare_kana_cases a b :
  (compare_kana a b = -1 /\ lex_lt (to_katakana a) (to_katakana b)) \/
  (compare_kana a b = 0 /\ to_katakana a = to_katakana b) \/
  (compare_kana a b = 1 /\ lex_lt (to_katakana b) (to_katakana a)).
Proof.
  unfold compare_kana.
  set (p := to_katakana a); set (q := to_katakana b).
  destruct (lex_total p q) as [L|[E|L]].
  - left; split; [|exact L].
    destruct (str_ltb q p) eqn:E1; [apply str_ltb_lex in E1; exfalso; exact (lex_irrefl _ (lex_trans _ _ _ L E1))|].
    rewrite (proj2 (str_ltb_lex _ _) L); reflexivity.
  - right; left; split; [|exact E]; rewrite E.
    rewrite (proj2 (str_ltb_false _ _) (lex_irrefl q)); reflexivity.
  - right; right; split; [|exact L].
    destruct (str_ltb p q) eqn:E1; [apply str_ltb_lex in E1; exfalso; exact (lex_irrefl _ (lex_trans _ _ _ L E1))|].
    rewrite (proj2 (str_ltb_lex _ _) L); reflexivity.
Qed.
Lemma compare_kana_lt a b : compare_kana a b = -1 <-> lex_lt (to_katakana a) (to_katakana b).
Proof.
  destruct (compare_kana_cases a b) as [[E L]|[[E L]|[E L]]]; split; intros F; try lia; try assumption.
  - exfalso; rewrite L in F; exact (lex_irrefl _ F).
  - exfalso; exact (lex_irrefl _ (lex_trans _ _ _ L F)).
Qed.
Lemma compare_kana_eq a b : compare_kana a b = 0 <-> to_hiragana a = to_hiragana b.
Proof.
  rewrite <- kata_hira_eq.
  destruct (compare_kana_cases a b) as [[E L]|[[E L]|[E L]]]; split; intros F; try lia; try assumption.
  - exfalso; rewrite F in L; exact (lex_irrefl _ L).
  - exfalso; rewrite F in L; exact (lex_irrefl _ L).
Qed.
Lemma compare_kana_antisym a b : compare_kana b a = - compare_kana a b.
Proof. unfold compare_kana; destruct (str_ltb (to_katakana a) (to_katakana b)), (str_ltb (to_katakana b) (to_katakana a)); reflexivity. Qed.
Lemma compare_kana_trans a b c : compare_kana a b <= 0 -> compare_kana b c <= 0 -> compare_kana a c <= 0.
Proof.
  intros H1 H2.
  destruct (compare_kana_cases a b) as [[E1 L1]|[[E1 L1]|[E1 L1]]]; try lia;
  destruct (compare_kana_cases b c) as [[E2 L2]|[[E2 L2]|[E2 L2]]]; try lia;
  destruct (compare_kana_cases a c) as [[E3 L3]|[[E3 L3]|[E3 L3]]]; try lia; exfalso.
  - exact (lex_irrefl _ (lex_trans _ _ _ L3 (lex_trans _ _ _ L1 L2))).
  - rewrite <- L2 in L3; exact (lex_irrefl _ (lex_trans _ _ _ L3 L1)).
  - rewrite L1 in L3; exact (lex_irrefl _ (lex_trans _ _ _ L3 L2)).
  - rewrite L1, L2 in L3; exact (lex_irrefl _ L3).
Qed.
Lemma compare_kana_script a b :
  compare_kana (to_hiragana a) b = compare_kana a b /\ compare_kana (to_katakana a) b = compare_kana a b /\
  compare_kana a (to_hiragana b) = compare_kana a b /\ compare_kana a (to_katakana b) = compare_kana a b.
Proof. unfold compare_kana; rewrite !kata_of_hira, !to_katakana_idem; repeat split. Qed.

(** pure kana: comparing the hiragana forms gives the same order (docstring) *)
Definition pure_kana (s : str) : Prop := Forall (fun c => in_script Hiragana c \/ in_script Katakana c) s.
Lemma lex_lt_shift a b : pure_kana a -> pure_kana b ->
  (lex_lt (to_katakana a) (to_katakana b) <-> lex_lt (to_hiragana a) (to_hiragana b)).
Proof.
  unfold pure_kana; revert b; induction a as [|x a IH]; intros b Ha Hb.
  - destruct b as [|y b]; cbn [to_katakana to_hiragana map]; [split; intros L; inversion L|].
    kmap; cbn [map]; split; intros _; constructor.
  - destruct b as [|y b]; kmap; cbn [map]; [split; intros L; inversion L|].
    inversion Ha as [|x' a' Hx Ha']; subst; inversion Hb as [|y' b' Hy Hb']; subst.
    specialize (IH b Ha' Hb'); rewrite (to_katakana_map a), (to_katakana_map b), (to_hiragana_map a), (to_hiragana_map b) in IH.
    assert (S : kataf x - kataf y = hiraf x - hiraf y).
    { clear - Hx Hy; cbn [in_script] in *; unb; cf. }
    split; intros L; inversion L; subst.
    + apply lex_head; lia.
    + replace (hiraf y) with (hiraf x) by lia; apply lex_tail, IH; assumption.
    + apply lex_head; lia.
    + replace (kataf y) with (kataf x) by lia; apply lex_tail, IH; assumption.
Qed.

Lemma compare_kana_pure a b : pure_kana a -> pure_kana b ->
  (compare_kana a b = -1 <-> lex_lt (to_hiragana a) (to_hiragana b)).
Proof. intros Ha Hb; rewrite compare_kana_lt; apply lex_lt_shift; assumption. Qed.

(** *** C07 *)
Lemma script_types_spec s sc : In sc (script_types s) <-> exists c, In c s /\ in_script sc c.
Proof.
  unfold script_types; rewrite In_set_of, in_map_iff; split.
  - intros [c [<- Hc]]; exists c; split; [exact Hc|apply in_own_script].
  - intros [c [Hc I]]; exists c; split; [apply script_type_char; exact I|exact Hc].
Qed.
Lemma contains_script_spec s sc : contains_script sc s = true <-> exists c, In c s /\ in_script sc c.
Proof. unfold contains_script; rewrite mem_In; apply script_types_spec. Qed.

Lemma fold_remove_In {A} `{EqB A} (p : A -> bool) l : forall acc x,
  In x (fold_left (fun acc c => if p c then sremove c acc else acc) l acc) <->
  In x acc /\ (In x l -> p x = false).
Proof.
  induction l as [|y l IH]; intros acc x; cbn [fold_left]; [cbn [In]; tauto|].
  rewrite IH; cbn [In]; destruct (p y) eqn:E; [unfold sremove; rewrite filter_In|];
  split; intros F.
  - destruct F as [[F1 F2] F3]; split; [exact F1|intros [<-|G]; [rewrite eqb_refl in F2; discriminate|apply F3, G]].
  - destruct F as [F1 F2]; split; [split; [exact F1|]|intros G; apply F2; right; exact G].
    destruct (eqb_spec y x) as [->|n]; [|reflexivity].
    rewrite F2 in E by (left; reflexivity); discriminate.
  - destruct F as [F1 F2]; split; [exact F1|intros [<-|G]; [exact E|apply F2, G]].
  - destruct F as [F1 F2]; split; [exact F1|intros G; apply F2; right; exact G].
Qed.
Lemma NoDup_fold_remove {A} `{EqB A} (p : A -> bool) l : forall acc,
  NoDup acc -> NoDup (fold_left (fun acc c => if p c then sremove c acc else acc) l acc).
Proof.
  induction l as [|y l IH]; intros acc ND; cbn [fold_left]; [exact ND|].
  apply IH; destruct (p y); [apply NoDup_filter, ND|exact ND].
Qed.

Lemma unique_kanji_spec s : NoDup (unique_kanji s) /\
  forall c, In c (unique_kanji s) <-> In c s /\ in_script Kanji c.
Proof.
  unfold unique_kanji; split; [apply NoDup_fold_remove, NoDup_set_of|intros c].
  rewrite (fold_remove_In (fun c => negb (eqb (script_type [c]) Kanji))), !In_set_of.
  split.
  - intros [F1 F2]; split; [exact F1|specialize (F2 F1); apply negb_false_iff, eqb_eq in F2; apply (script_type_char c []); exact F2].
  - intros [F1 F2]; split; [exact F1|intros _; apply negb_false_iff, eqb_true, (script_type_char c []); exact F2].
Qed.

Lemma In_zrange a b x : In x (zrange a b) <-> a <= x < b.
Proof.
  unfold zrange; rewrite in_map_iff; split.
  - intros [i [<- Hi]]; apply in_seq in Hi; lia.
  - intros L; exists (Z.to_nat (x - a)); split; [lia|apply in_seq; lia].
Qed.
Definition consecutive (l : list Z) : Prop :=
  forall i x y, nth_error l i = Some x -> nth_error l (S i) = Some y -> y = x + 1.
Lemma zrange_consecutive a b : consecutive (zrange a b).
Proof.
  unfold consecutive, zrange; intros i x y Hx Hy.
  rewrite nth_error_map in Hx, Hy.
  destruct (nth_error (seq 0 (Z.to_nat (b - a))) i) as [n|] eqn:E1; [|discriminate].
  destruct (nth_error (seq 0 (Z.to_nat (b - a))) (S i)) as [m|] eqn:E2; [|discriminate].
  cbn [option_map] in *; injection Hx as <-; injection Hy as <-.
  assert (B1 : (S i < Z.to_nat (b - a))%nat).
  { rewrite <- (seq_length (Z.to_nat (b - a)) 0); apply nth_error_Some; congruence. }
  rewrite (nth_error_nth' _ 0%nat) in E1 by (rewrite seq_length; lia).
  rewrite (nth_error_nth' _ 0%nat) in E2 by (rewrite seq_length; lia).
  rewrite seq_nth in E1 by lia; rewrite seq_nth in E2 by lia.
  injection E1 as <-; injection E2 as <-; lia.
Qed.
Lemma consecutive_sorted l : consecutive l -> forall i j x y,
  (i < j)%nat -> nth_error l i = Some x -> nth_error l j = Some y -> y = x + Z.of_nat (j - i).
Proof.
  intros C i j x y L; revert y; induction L as [|j L IH]; intros y Hx Hy.
  - rewrite (C _ _ _ Hx Hy); lia.
  - destruct (nth_error l j) as [z|] eqn:E.
    + specialize (IH z Hx eq_refl); rewrite (C _ _ _ E Hy), IH; lia.
    + exfalso; apply nth_error_None in E. assert (S j < length l)%nat by (apply nth_error_Some; congruence). lia.
Qed.
Lemma consecutive_NoDup l : consecutive l -> NoDup l.
Proof.
  intros C; rewrite NoDup_nth_error; intros i j Li E.
  destruct (nth_error l i) as [x|] eqn:Ex; [|apply nth_error_None in Ex; lia].
  symmetry in E.
  destruct (Nat.lt_trichotomy i j) as [L|[L|L]]; [|exact L|].
  - pose proof (consecutive_sorted l C i j x x L Ex E); lia.
  - pose proof (consecutive_sorted l C j i x x L E Ex); lia.
Qed.

Lemma get_script_spec sc :
  (sc = Unknown /\ get_script sc = Raise KeyError) \/
  (sc <> Unknown /\ exists s, get_script sc = Ok s /\ (forall c, In c s <-> in_script sc c) /\
                    consecutive s /\ NoDup s).
Proof.
  destruct sc; [right|right|right|right|right|right|left; split; reflexivity];
  (split; [congruence|]; eexists; split; [reflexivity|split; [intros c; rewrite In_zrange; cbn [in_script]; unb; lia|split; [apply zrange_consecutive|apply consecutive_NoDup, zrange_consecutive]]]).
Qed.
