(* Digits_proofs.v -- proofs for C140 *)
From Verif Require Import Base PyStr PyText PyFmt Scripts_model Regex Csv_model Tanaka_model Tanaka_spec Tanaka_proofs Tatoeba_model Kanjidic_model Kanjidic_spec Kanjidic_proofs
  Maps_model Radk_model Rose Place_model Digits_model Digits_spec.

(** ** digits *)
Lemma exists_last_or_nil {X} (l : list X) : l = [] \/ exists r x, l = r ++ [x].
Proof. destruct l as [|a l]; [left; reflexivity|right]. destruct (exists_last (l := a :: l)) as (r & x & E); [discriminate|]. exists r, x. exact E. Qed.
Lemma digit_count_nonneg dv s : 0 <= digit_count dv s.
Proof. unfold digit_count. lia. Qed.
Lemma digit_count_cons dv c s : digit_count dv (c :: s) = (if is_digit dv c then 1 else 0) + digit_count dv s.
Proof. unfold digit_count. cbn [filter]. destruct (is_digit dv c); cbn [length]; lia. Qed.
Lemma digit_count_app dv s t : digit_count dv (s ++ t) = digit_count dv s + digit_count dv t.
Proof. unfold digit_count. rewrite filter_app, app_length. lia. Qed.
Lemma has_digits_count dv s : has_digits dv s (digit_count dv s).
Proof.
  induction s as [|c s IH]; [constructor|]. rewrite digit_count_cons. unfold is_digit. destruct (dv c) as [d|] eqn:E.
  - rewrite Z.add_comm. constructor; [exists d; exact E|exact IH].
  - apply Hd_other; assumption.
Qed.
Lemma has_digits_is dv s n : has_digits dv s n -> n = digit_count dv s.
Proof.
  induction 1 as [|c s n [d E] _ IH|c s n E _ IH]; [reflexivity| |]; rewrite digit_count_cons; unfold is_digit; rewrite E; lia.
Qed.
Lemma too_long_iff dv limit s : too_long dv limit s <-> (0 <? limit) && (limit <? digit_count dv s) = true.
Proof.
  rewrite andb_true_iff, !Z.ltb_lt. unfold too_long. split.
  - intros [L (n & H & N)]. apply has_digits_is in H. lia.
  - intros [L N]. split; [exact L|]. exists (digit_count dv s). split; [apply has_digits_count|exact N].
Qed.
Lemma short_count dv limit s : short dv limit s <-> (0 < limit -> digit_count dv s <= limit).
Proof. unfold short. rewrite too_long_iff, andb_true_iff, !Z.ltb_lt. lia. Qed.
Lemma int_long dv limit s : too_long dv limit s -> int_limited dv limit s = None.
Proof. intro T. unfold int_limited. apply too_long_iff in T. rewrite T. reflexivity. Qed.
Lemma int_short dv limit s : short dv limit s -> int_limited dv limit s = py_int dv 10 s.
Proof. intro T. unfold int_limited. unfold short in T. rewrite too_long_iff in T. apply Bool.not_true_iff_false in T. rewrite T. reflexivity. Qed.
Lemma long_dec dv limit s : too_long dv limit s \/ short dv limit s.
Proof. unfold short. rewrite too_long_iff. destruct (_ && _); [left; reflexivity|right; discriminate]. Qed.
Lemma int_narrow dv limit s : int_limited dv limit s = py_int dv 10 s \/ int_limited dv limit s = None.
Proof. destruct (long_dec dv limit s) as [L|L]; [right; apply int_long|left; apply int_short]; exact L. Qed.
Lemma int_none dv limit s : int_limited dv limit s = None <-> too_long dv limit s \/ py_int dv 10 s = None.
Proof.
  destruct (long_dec dv limit s) as [L|L].
  - rewrite (int_long _ _ _ L). tauto.
  - rewrite (int_short _ _ _ L). unfold short in L. tauto.
Qed.
Lemma short_part dv limit s a t b : short dv limit s -> s = a ++ t ++ b -> short dv limit t.
Proof.
  rewrite !short_count. intros S -> L. specialize (S L). rewrite !digit_count_app in S. pose proof (digit_count_nonneg dv a). pose proof (digit_count_nonneg dv b). lia.
Qed.

(** ** parts of texts *)
Lemma words_infix s ws : words s ws -> forall w, In w ws -> exists a b, s = a ++ w ++ b.
Proof.
  induction 1 as [g B|g w s ws B N F H W IH]; intros x I; [destruct I|]. destruct I as [<- | I].
  - exists g, s. reflexivity.
  - destruct (IH x I) as (a & b & ->). exists (g ++ w ++ a), b. rewrite <- !app_assoc. reflexivity.
Qed.
Lemma rstrip_infix s : exists b, s = rstrip s ++ b.
Proof. destruct (rstrip_split s) as (g & _ & E & _). exists g. exact E. Qed.
Lemma strip_infix s : exists a b, s = a ++ strip s ++ b.
Proof.
  unfold strip. destruct (lstrip_split s) as (g & _ & E & _). destruct (rstrip_infix (lstrip s)) as [b E']. exists g, b. rewrite <- E'. exact E.
Qed.
Lemma split_on_infix c s : forall p, In p (split_on c s) -> exists a b, s = a ++ p ++ b.
Proof.
  assert (H : forall s, match split_on c s with [] => True | p :: ps => (exists b, s = p ++ b) /\ forall q, In q ps -> exists a b, s = a ++ q ++ b end).
  { clear s. induction s as [|d r IH]; cbn [split_on]; [split; [exists []; reflexivity|intros q []]|].
    destruct (split_on c r) as [|p ps] eqn:E; [exfalso; exact (split_on_nonempty c r E)|]. destruct IH as [[b Eb] IH]. destruct (d =? c).
    - split; [exists (d :: r); reflexivity|]. intros q [<- | I]; [exists [d], b; rewrite Eb; reflexivity|].
      destruct (IH q I) as (a & b' & ->). exists (d :: a), b'. reflexivity.
    - split; [exists b; rewrite Eb; reflexivity|]. intros q I. destruct (IH q I) as (a & b' & Eq). exists (d :: a), b'. rewrite Eq. reflexivity. }
  specialize (H s). destruct (split_on c s) as [|p ps]; [intros q []|]. destruct H as [[b Eb] H]. intros q [<- | I]; [exists [], b; exact Eb|exact (H q I)].
Qed.
Lemma segments_infix s ts : segments s ts -> forall t, In t ts -> exists a b, s = a ++ t ++ b.
Proof.
  induction 1 as [|s ts S IH|w s ts N F H S IH|g s ts N F S IH|s ts O S IH]; intros x I.
  - destruct I.
  - destruct (IH x I) as (a & b & ->). exists (u1 " " :: a), b. reflexivity.
  - destruct I as [<- | I]; [exists [], s; reflexivity|]. destruct (IH x I) as (a & b & ->). exists (w ++ a), b. rewrite <- !app_assoc. reflexivity.
  - destruct I as [<- | I]; [exists [], s; cbn [app]; rewrite <- app_assoc; reflexivity|].
    destruct (IH x I) as (a & b & ->). exists ((u1 "{" :: g ++ [u1 "}"]) ++ a), b. cbn [app]. rewrite <- !app_assoc. reflexivity.
  - destruct (IH x I) as (a & b & ->). exists (u1 "{" :: a), b. reflexivity.
Qed.

(** ** one int() for another *)
Section Two.
  Variable dv : Z -> option Z.
  Variables i i' : str -> option Z.

  (* radkdict *)
  Lemma radk_cong lines : (forall l t, In l lines -> strokes_in l t -> i' t = i t) ->
    forall c k n, radk_loop_by i' lines c k n = radk_loop_by i lines c k n.
  Proof.
    induction lines as [|l lines IH]; intros H c k n; [reflexivity|]. cbn [radk_loop_by]. cbv zeta.
    assert (H' : forall l0 t, In l0 lines -> strokes_in l0 t -> i' t = i t) by (intros l0 t I; apply H; right; exact I).
    destruct (startswith (u "#") (rstrip l)); [apply IH, H'|]. destruct (startswith (u "$") (rstrip l)) eqn:D; [|apply IH, H'].
    pose proof (words_split_ws (rstrip l)) as W. destruct (mem (length (split_ws (rstrip l))) [3%nat; 4%nat]) eqn:M; [|reflexivity].
    destruct (split_ws (rstrip l)) as [|d [|r [|t more]]]; try reflexivity.
    rewrite (H l t (or_introl eq_refl)); [destruct (i t); [apply IH, H'|reflexivity]|].
    split; [apply startswith_true in D; exact D|].
    exists d, r, more. split; [exact W|]. cbn [length] in M. destruct more as [|a [|b more]]; cbn [length]; try lia. cbn in M. discriminate M.
  Qed.
  Lemma radk_fine lines : forall c k n x, radk_loop_by i' lines c k n = Ok x -> forall l t, In l lines -> strokes_in l t -> i' t <> None.
  Proof.
    induction lines as [|l lines IH]; intros c k n x E l0 t I S; [destruct I|]. cbn [radk_loop_by] in E. cbv zeta in E.
    destruct I as [<- | I].
    - destruct S as [[s B] (d & r & more & W & L)]. rewrite B in E at 1. rewrite B in E at 1.
      change (startswith (u "#") (u1 "$" :: s)) with false in E. change (startswith (u "$") (u1 "$" :: s)) with true in E. cbn iota in E.
      rewrite (split_ws_words _ _ W) in E. destruct more as [|a [|b more]]; cbn [length] in L; try lia; cbn [length] in E.
      + change (mem 3%nat [3%nat; 4%nat]) with true in E. cbn iota in E. intro N. rewrite N in E. discriminate E.
      + change (mem 4%nat [3%nat; 4%nat]) with true in E. cbn iota in E. intro N. rewrite N in E. discriminate E.
    - destruct (startswith (u "#") (rstrip l)); [eapply IH; eassumption|]. destruct (startswith (u "$") (rstrip l)); [|eapply IH; eassumption].
      destruct (mem _ _); [|discriminate E]. destruct (split_ws (rstrip l)) as [|d [|r [|t0 more]]]; try discriminate E.
      destruct (i' t0); [eapply IH; eassumption|discriminate E].
  Qed.

  (* places *)
  Lemma line_cong l : (forall t, depth_in l t -> i' t = i t) -> from_line_by i' l = from_line_by i l.
  Proof.
    intro H. unfold from_line_by. pose proof (words_split_ws (rstrip l)) as W.
    destruct (split_ws (rstrip l)) as [|d [|r [|t [|a [|b more]]]]]; try reflexivity; rewrite (H d); try reflexivity; do 3 eexists; (split; [exact W|cbn; lia]).
  Qed.
  Lemma line_fine l x : from_line_by i' l = Ok x -> forall t, depth_in l t -> i' t <> None.
  Proof.
    intros E t (a & b & more & W & L). unfold from_line_by in E. rewrite (split_ws_words _ _ W) in E. intro N.
    destruct more as [|c [|d more]]; cbn [length] in L; try lia; rewrite N in E; discriminate E.
  Qed.
  Lemma load_cong lines : (forall l t, In l lines -> depth_in l t -> i' t = i t) ->
    forall h p d n, load_loop_by i' h p d n lines = load_loop_by i h p d n lines.
  Proof.
    induction lines as [|l lines IH]; intros H h p d n; [reflexivity|]. cbn [load_loop_by]. rewrite (line_cong l) by (intros t D; exact (H l t (or_introl eq_refl) D)).
    destruct (from_line_by i l) as [[dep pl]|e]; [|reflexivity]. cbn [bind]. cbv zeta.
    match goal with |- bind ?x _ = _ => destruct x as [path|e] end; [|reflexivity]. cbn [bind].
    destruct (pop_last path) as [[parent q]|]; [|reflexivity]. apply IH. intros l0 t I. apply H. right. exact I.
  Qed.
  Lemma load_fine lines : forall h p d n x, load_loop_by i' h p d n lines = Ok x -> forall l t, In l lines -> depth_in l t -> i' t <> None.
  Proof.
    induction lines as [|l lines IH]; intros h p d n x E l0 t I D; [destruct I|]. cbn [load_loop_by] in E.
    destruct (from_line_by i' l) as [[dep pl]|e] eqn:F; [|discriminate E]. cbn [bind] in E. cbv zeta in E.
    match type of E with bind ?x _ = _ => destruct x as [path|e] end; [|discriminate E]. cbn [bind] in E.
    destruct (pop_last path) as [[parent q]|]; [|discriminate E]. destruct I as [<- | I]; [exact (line_fine l _ F t D)|eapply IH; eassumption].
  Qed.
  Lemma file_cong lines h : (forall l t, In l lines -> depth_in l t -> i' t = i t) -> from_file_by i' h lines = from_file_by i h lines.
  Proof.
    intro H. destruct lines as [|l lines]; [reflexivity|]. unfold from_file_by. rewrite (line_cong l) by (intros t D; exact (H l t (or_introl eq_refl) D)).
    destruct (from_line_by i l) as [[dep pl]|e]; [|reflexivity]. cbn [bind]. destruct (negb (dep =? 0)); [reflexivity|]. cbv zeta.
    rewrite load_cong; [reflexivity|]. intros l0 t I. apply H. right. exact I.
  Qed.
  Lemma file_fine lines h x : from_file_by i' h lines = Ok x -> forall l t, In l lines -> depth_in l t -> i' t <> None.
  Proof.
    destruct lines as [|l lines]; intros E l0 t I D; [destruct I|]. unfold from_file_by in E.
    destruct (from_line_by i' l) as [[dep pl]|e] eqn:F; [|discriminate E]. cbn [bind] in E. destruct (negb (dep =? 0)); [discriminate E|]. cbv zeta in E.
    destruct (load_loop_by _ _ _ _ _ _) as [h'|e] eqn:L; [|discriminate E]. destruct I as [<- | I]; [exact (line_fine l _ F t D)|eapply load_fine; eassumption].
  Qed.

  (* sentences *)
  Section Sentences.
    Variable date : Type.
    Variable strptime : str -> res date.
    Variable filter_row : list str -> bool.
    Lemma row_cong langs row t : (forall x, sentence_id_in filter_row langs row x -> i' x = i x) ->
      read_row_by i' date strptime filter_row langs row t = read_row_by i date strptime filter_row langs row t.
    Proof.
      intro H. unfold read_row_by. destruct (filter_row row) eqn:F; [reflexivity|]. destruct row as [|a [|lang [|text more]]]; try reflexivity. cbn [firstn].
      destruct (match langs with Some ls => negb (mem lang ls) | None => false end) eqn:L; [reflexivity|]. unfold id_by. rewrite (H a); [reflexivity|].
      split; [exact F|]. exists lang, text, more. split; [reflexivity|]. intros ls ->. apply negb_false_iff, mem_In in L. exact L.
    Qed.
    Lemma row_fine langs row t x : read_row_by i' date strptime filter_row langs row t = Ok x -> forall a, sentence_id_in filter_row langs row a -> i' a <> None.
    Proof.
      intros E a (F & lang & text & more & -> & L) N. unfold read_row_by in E. rewrite F in E. cbn [firstn] in E.
      replace (match langs with Some ls => negb (mem lang ls) | None => false end) with false in E.
      - unfold id_by in E. rewrite N in E. discriminate E.
      - destruct langs as [ls|]; [|reflexivity]. symmetry. apply negb_false_iff, mem_In, L. reflexivity.
    Qed.
    Lemma rows_cong langs rows : (forall row x, In row rows -> sentence_id_in filter_row langs row x -> i' x = i x) -> forall t,
      read_rows_by i' date strptime filter_row langs rows t = read_rows_by i date strptime filter_row langs rows t.
    Proof.
      induction rows as [|row rows IH]; intros H t; [reflexivity|]. cbn [read_rows_by]. rewrite row_cong by (intros x S; exact (H row x (or_introl eq_refl) S)).
      destruct (read_row_by i date strptime filter_row langs row t); [|reflexivity]. cbn [bind]. apply IH. intros r x I. apply H. right. exact I.
    Qed.
    Lemma rows_fine langs rows : forall t x, read_rows_by i' date strptime filter_row langs rows t = Ok x -> forall row a, In row rows -> sentence_id_in filter_row langs row a -> i' a <> None.
    Proof.
      induction rows as [|row rows IH]; intros t x E r a I S; [destruct I|]. cbn [read_rows_by] in E.
      destruct (read_row_by i' date strptime filter_row langs row t) as [t'|] eqn:R; [|discriminate E]. cbn [bind] in E.
      destruct I as [<- | I]; [eapply row_fine; eassumption|eapply IH; eassumption].
    Qed.
    Lemma sentences_cong langs src : (forall row x, In row (fst src) -> sentence_id_in filter_row langs row x -> i' x = i x) ->
      sentences_by i' date strptime filter_row langs src = sentences_by i date strptime filter_row langs src.
    Proof.
      destruct src as [[|row rows] o]; intro H; [reflexivity|]. unfold sentences_by. match goal with |- bind ?x _ = _ => destruct x end; [|reflexivity]. cbn [bind].
      rewrite rows_cong by exact H. reflexivity.
    Qed.
    Lemma sentences_fine langs src x : sentences_by i' date strptime filter_row langs src = Ok x ->
      forall row a, In row (fst src) -> sentence_id_in filter_row langs row a -> i' a <> None.
    Proof.
      destruct src as [[|row rows] o]; intros E r a I S; [destruct I|]. unfold sentences_by in E. match type of E with bind ?x _ = _ => destruct x end; [|discriminate E]. cbn [bind] in E.
      match type of E with bind ?x _ = _ => destruct x eqn:R end; [|discriminate E]. eapply rows_fine; eassumption.
    Qed.
  End Sentences.

  (* links *)
  Lemma link_cong row : (forall x, link_id_in row x -> i' x = i x) -> link_row_by i' row = link_row_by i row.
  Proof.
    intro H. destruct row as [|a [|b [|c r]]]; try reflexivity. unfold link_row_by, id_by. rewrite (H a), (H b); [reflexivity| |]; exists a, b; tauto.
  Qed.
  Lemma link_fine row x : link_row_by i' row = Ok x -> forall a, link_id_in row a -> i' a <> None.
  Proof.
    intros E t (a & b & -> & [-> | ->]) N; unfold link_row_by, id_by in E; rewrite N in E; cbn [of_option] in E; [discriminate E|]. destruct (i' a); discriminate E.
  Qed.
  Lemma links_cong s fs ft rows : (forall row x, In row rows -> link_id_in row x -> i' x = i x) -> forall st, links_by i' s fs ft rows st = links_by i s fs ft rows st.
  Proof.
    induction rows as [|row rows IH]; intros H st; [reflexivity|]. cbn [links_by]. rewrite link_cong by (intros x L; exact (H row x (or_introl eq_refl) L)).
    destruct (link_row_by i row); [|reflexivity]. cbn [bind]. apply IH. intros r x I. apply H. right. exact I.
  Qed.
  Lemma links_fine s fs ft rows : forall st x, links_by i' s fs ft rows st = Ok x -> forall row a, In row rows -> link_id_in row a -> i' a <> None.
  Proof.
    induction rows as [|row rows IH]; intros st x E r a I L; [destruct I|]. cbn [links_by] in E. destruct (link_row_by i' row) eqn:R; [|discriminate E]. cbn [bind] in E.
    destruct I as [<- | I]; [eapply link_fine; eassumption|eapply IH; eassumption].
  Qed.
End Two.

(** ** a stricter int() *)
Section Narrow.
  Variable dv : Z -> option Z.
  Variables i i' : str -> option Z.
  Hypothesis N : forall s, i' s = i s \/ i' s = None.
  Lemma radk_narrow lines : forall c k n, same_or ValueError (radk_loop_by i lines c k n) (radk_loop_by i' lines c k n).
  Proof.
    induction lines as [|l lines IH]; intros c k n; [left; reflexivity|]. cbn [radk_loop_by]. cbv zeta.
    destruct (startswith (u "#") (rstrip l)); [apply IH|]. destruct (startswith (u "$") (rstrip l)); [|apply IH]. destruct (mem _ _); [|left; reflexivity].
    destruct (split_ws (rstrip l)) as [|d [|r [|t more]]]; try (left; reflexivity).
    destruct (N t) as [-> | ->]; [|right; reflexivity]. destruct (i t); [apply IH|left; reflexivity].
  Qed.
  Lemma line_narrow l : same_or ValueError (from_line_by i l) (from_line_by i' l).
  Proof.
    unfold from_line_by. destruct (split_ws (rstrip l)) as [|d [|r [|t [|a [|b more]]]]]; try (left; reflexivity); (destruct (N d) as [-> | ->]; [left|right]; reflexivity).
  Qed.
  Lemma load_narrow lines : forall h p d n, same_or ValueError (load_loop_by i h p d n lines) (load_loop_by i' h p d n lines).
  Proof.
    induction lines as [|l lines IH]; intros h p d n; [left; reflexivity|]. cbn [load_loop_by]. destruct (line_narrow l) as [-> | ->]; [|right; reflexivity].
    destruct (from_line_by i l) as [[dep pl]|e]; [|left; reflexivity]. cbn [bind]. cbv zeta.
    match goal with |- same_or _ (bind ?x _) _ => destruct x as [path|e] end; [|left; reflexivity]. cbn [bind].
    destruct (pop_last path) as [[parent q]|]; [apply IH|left; reflexivity].
  Qed.
  Lemma file_narrow lines h : same_or ValueError (from_file_by i h lines) (from_file_by i' h lines).
  Proof.
    destruct lines as [|l lines]; [left; reflexivity|]. unfold from_file_by. destruct (line_narrow l) as [-> | ->]; [|right; reflexivity].
    destruct (from_line_by i l) as [[dep pl]|e]; [|left; reflexivity]. cbn [bind]. destruct (negb (dep =? 0)); [left; reflexivity|]. cbv zeta.
    destruct (load_narrow lines (h ++ [pl]) [length h] dep (length h)) as [-> | ->]; [left|right]; reflexivity.
  Qed.
  Lemma id_narrow s : same_or ValueError (id_by i s) (id_by i' s).
  Proof. unfold id_by. destruct (N s) as [-> | ->]; [left|right]; reflexivity. Qed.
  Section Sentences.
    Variable date : Type.
    Variable strptime : str -> res date.
    Variable filter_row : list str -> bool.
    Lemma row_narrow langs row t : same_or ValueError (read_row_by i date strptime filter_row langs row t) (read_row_by i' date strptime filter_row langs row t).
    Proof.
      unfold read_row_by. destruct (filter_row row); [left; reflexivity|]. destruct row as [|a [|lang [|text more]]]; try (left; reflexivity). cbn [firstn].
      destruct (match langs with Some ls => negb (mem lang ls) | None => false end); [left; reflexivity|].
      destruct (id_narrow a) as [-> | ->]; [left|right]; reflexivity.
    Qed.
    Lemma rows_narrow langs rows : forall t, same_or ValueError (read_rows_by i date strptime filter_row langs rows t) (read_rows_by i' date strptime filter_row langs rows t).
    Proof.
      induction rows as [|row rows IH]; intro t; [left; reflexivity|]. cbn [read_rows_by]. destruct (row_narrow langs row t) as [-> | ->]; [|right; reflexivity].
      destruct (read_row_by i date strptime filter_row langs row t); [apply IH|left; reflexivity].
    Qed.
    Lemma sentences_narrow langs src : same_or ValueError (sentences_by i date strptime filter_row langs src) (sentences_by i' date strptime filter_row langs src).
    Proof.
      destruct src as [[|row rows] o]; [left; reflexivity|]. unfold sentences_by. match goal with |- same_or _ (bind ?x _) _ => destruct x as [b|] end; [|left; reflexivity]. cbn [bind].
      destruct (rows_narrow langs (row :: rows) (mktables [] [] (if b then Some [] else None))) as [-> | ->]; [left|right]; reflexivity.
    Qed.
  End Sentences.
  Lemma link_narrow row : same_or InvalidFileError (link_row_by i row) (link_row_by i' row).
  Proof.
    destruct row as [|a [|b [|c r]]]; try (left; reflexivity). unfold link_row_by, id_by.
    destruct (N a) as [-> | ->]; [|right; reflexivity]. destruct (N b) as [-> | ->]; [left; reflexivity|]. right. destruct (i a); reflexivity.
  Qed.
  Lemma links_narrow s fs ft rows : forall st, same_or InvalidFileError (links_by i s fs ft rows st) (links_by i' s fs ft rows st).
  Proof.
    induction rows as [|row rows IH]; intro st; [left; reflexivity|]. cbn [links_by]. destruct (link_narrow row) as [-> | ->]; [|right; reflexivity].
    destruct (link_row_by i row); [apply IH|left; reflexivity].
  Qed.
  Lemma text_narrow t : same_or ValueError (from_text_by dv i t) (from_text_by dv i' t).
  Proof.
    unfold from_text_by. destruct (match_ (word_re dv) t) as [m|]; [|left; reflexivity]. destruct (Regex.group n_sense m) as [x|]; [|left; reflexivity].
    destruct (N x) as [-> | ->]; [left|right]; reflexivity.
  Qed.
  Lemma words_narrow ws : same_or ValueError (words_by dv i ws) (words_by dv i' ws).
  Proof.
    induction ws as [|[|c w] ws IH]; [left; reflexivity|exact IH|]. cbn [words_by]. destruct (text_narrow (c :: w)) as [-> | ->]; [|right; reflexivity].
    destruct (from_text_by dv i (c :: w)); [|left; reflexivity]. cbn [bind]. destruct IH as [-> | ->]; [left|right]; reflexivity.
  Qed.
  Lemma index_row_narrow s ed row d : same_or ValueError (index_row_by dv i s ed row d) (index_row_by dv i' s ed row d).
  Proof.
    destruct row as [|a [|b [|t [|x r]]]]; try (left; reflexivity). unfold index_row_by.
    destruct (id_narrow a) as [-> | ->]; [|right; reflexivity]. destruct (id_by i a) as [z|]; [|left; reflexivity]. cbn [bind].
    destruct (id_narrow b) as [-> | ->]; [|right; reflexivity]. destruct (id_by i b) as [z'|]; [|left; reflexivity]. cbn [bind].
    match goal with |- same_or _ (if ?x then _ else _) _ => destruct x end; [left; reflexivity|].
    destruct (words_narrow (sentence_splitter t)) as [-> | ->]; [left|right]; reflexivity.
  Qed.
  Lemma indices_narrow s ed rows : forall d, same_or ValueError (indices_by dv i s ed rows d) (indices_by dv i' s ed rows d).
  Proof.
    induction rows as [|row rows IH]; intro d; [left; reflexivity|]. cbn [indices_by]. destruct (index_row_narrow s ed row d) as [-> | ->]; [|right; reflexivity].
    destruct (index_row_by dv i s ed row d); [apply IH|left; reflexivity].
  Qed.
End Narrow.

(** ** the words of an index *)
Lemma sense_group dv p m t : unicode_digits dv -> match_ (word_re dv) p = Some m -> Regex.group n_sense m = Some t -> sense_in dv p t.
Proof.
  intros A M G. destruct (den_word dv A [] p []) as [_ K]. destruct (K m M) as (cs & G0 & E). rewrite app_nil_r in E. apply g0_raw in G0.
  destruct G0 as [h r tr l s ts d td e n Nh F Pr L Ps Pd En ->].
  unfold Regex.group in G. rewrite E in G. fold (caps_of e d s r h) in G. rewrite (proj1 (proj2 (proj2 (caps_groups e d s r h)))) in G. subst s.
  inversion Ps as [|s' D]; subst. exists h, tr, r, l, td, d, e, n.
  split; [exact Nh|split; [exact F|split; [exact Pr|split; [exact L|split; [exact D|split; [exact Pd|split; [tauto|reflexivity]]]]]]].
Qed.
Lemma sense_match dv p t : unicode_digits dv -> sense_in dv p t -> exists m, match_ (word_re dv) p = Some m /\ Regex.group n_sense m = Some t.
Proof.
  intros A (h & tr & r & l & td & d & e & n & Nh & F & Pr & L & D & Pd & En & ->).
  assert (R : raw dv (h ++ tr ++ l ++ (u1 "[" :: t ++ u "]") ++ td ++ tilde e ++ n) (caps_of e d (Some t) r h)).
  { eapply Raw with (ts := u1 "[" :: t ++ u "]"); [exact Nh|exact F|exact Pr|exact L|apply Raw_some; exact D|exact Pd| |reflexivity].
    destruct En as [-> | ->]; [left; reflexivity|right; split; [reflexivity|]]. intro Z. apply app_eq_nil in Z. destruct Z as [_ Z]. apply app_eq_nil in Z. destruct Z as [_ Z]. discriminate Z. }
  apply g0_raw in R. destruct (den_word dv A [] (h ++ tr ++ l ++ (u1 "[" :: t ++ u "]") ++ td ++ tilde e ++ n) []) as [K _].
  destruct (K _ R) as (m & M & C). rewrite app_nil_r in C. exists m. split; [exact M|]. unfold Regex.group. rewrite C. apply caps_groups.
Qed.
Section Index.
  Variable dv : Z -> option Z.
  Hypothesis A : unicode_digits dv.
  Variable i' : str -> option Z.
  Let i := py_int dv 10.
  Lemma text_cong p : (forall t, sense_in dv p t -> i' t = i t) -> from_text_by dv i' p = from_text_by dv i p.
  Proof.
    intro H. unfold from_text_by. destruct (match_ (word_re dv) p) as [m|] eqn:M; [|reflexivity]. destruct (Regex.group n_sense m) as [t|] eqn:G; [|reflexivity].
    rewrite (H t (sense_group dv p m t A M G)). reflexivity.
  Qed.
  Lemma text_fine p x t : from_text_by dv i' p = Ok x -> sense_in dv p t -> i' t <> None.
  Proof.
    intros E S Nn. destruct (sense_match dv p t A S) as (m & M & G). unfold from_text_by in E. rewrite M, G, Nn in E. discriminate E.
  Qed.
  Lemma words_cong ws : (forall p t, In p (filter full ws) -> sense_in dv p t -> i' t = i t) -> words_by dv i' ws = words_by dv i ws.
  Proof.
    induction ws as [|[|c w] ws IH]; intro H; [reflexivity|apply IH; exact H|]. cbn [words_by]. rewrite (text_cong (c :: w)) by (intros t; apply H; left; reflexivity).
    destruct (from_text_by dv i (c :: w)); [|reflexivity]. cbn [bind]. rewrite IH; [reflexivity|]. intros p t I. apply H. right. exact I.
  Qed.
  Lemma words_fine ws : forall x, words_by dv i' ws = Ok x -> forall p t, In p (filter full ws) -> sense_in dv p t -> i' t <> None.
  Proof.
    induction ws as [|[|c w] ws IH]; intros x E p t I S; [destruct I|exact (IH x E p t I S)|]. cbn [words_by] in E.
    destruct (from_text_by dv i' (c :: w)) eqn:F; [|discriminate E]. cbn [bind] in E. destruct (words_by dv i' ws) eqn:W; [|discriminate E].
    destruct I as [<- | I]; [exact (text_fine _ _ t F S)|exact (IH _ eq_refl p t I S)].
  Qed.
  Lemma index_row_cong s ed row d : (forall t, index_number_in dv s row t -> i' t = i t) -> index_row_by dv i' s ed row d = index_row_by dv i s ed row d.
  Proof.
    intro H. destruct row as [|a [|b [|text [|x r]]]]; try reflexivity. unfold index_row_by, id_by.
    rewrite (H a) by (exists a, b, text; tauto). rewrite (H b) by (exists a, b, text; tauto).
    destruct (i a) as [z|] eqn:Ea; [|reflexivity]. cbn [of_option bind]. destruct (i b) as [z'|]; [|reflexivity]. cbn [of_option bind].
    destruct (match s with Some ids => negb (mem z ids) | None => false end) eqn:W; [reflexivity|]. rewrite words_cong; [reflexivity|].
    intros p t I S. destruct (pieces_exist text) as [ps P]. apply H. exists a, b, text. split; [reflexivity|]. right. right. split.
    - exists z. split; [exact Ea|]. intros ids ->. apply negb_false_iff, mem_In in W. exact W.
    - exists ps, p. split; [exact P|]. split; [|exact S]. rewrite (pieces_unique text ps P). exact I.
  Qed.
  Lemma index_row_fine s ed row d x : (forall t, i' t = i t \/ i' t = None) -> index_row_by dv i' s ed row d = Ok x -> forall t, index_number_in dv s row t -> i' t <> None.
  Proof.
    intros Nr E t (a & b & text & -> & C). unfold index_row_by, id_by in E.
    destruct (i' a) as [z|] eqn:Ea; [|discriminate E]. cbn [of_option bind] in E. destruct (i' b) as [z'|] eqn:Eb; [|discriminate E]. cbn [of_option bind] in E.
    destruct C as [-> | [-> | [(y & Ey & Wy) (ps & p & P & I & S)]]]; [congruence|congruence|].
    assert (z = y) by (destruct (Nr a) as [X|X]; [|congruence]; unfold i in X; congruence). subst y.
    replace (match s with Some ids => negb (mem z ids) | None => false end) with false in E
      by (destruct s as [ids|]; [|reflexivity]; symmetry; apply negb_false_iff, mem_In, Wy; reflexivity).
    destruct (words_by dv i' (sentence_splitter text)) as [ws|] eqn:W; [|discriminate E]. apply (words_fine _ _ W p t); [|exact S].
    rewrite (pieces_unique text ps P) in I. exact I.
  Qed.
  Lemma indices_cong s ed rows : (forall row t, In row rows -> index_number_in dv s row t -> i' t = i t) -> forall d, indices_by dv i' s ed rows d = indices_by dv i s ed rows d.
  Proof.
    induction rows as [|row rows IH]; intros H d; [reflexivity|]. cbn [indices_by]. rewrite index_row_cong by (intros t; apply H; left; reflexivity).
    destruct (index_row_by dv i s ed row d); [|reflexivity]. cbn [bind]. apply IH. intros r t I. apply H. right. exact I.
  Qed.
  Lemma indices_fine s ed rows : (forall t, i' t = i t \/ i' t = None) -> forall d x, indices_by dv i' s ed rows d = Ok x ->
    forall row t, In row rows -> index_number_in dv s row t -> i' t <> None.
  Proof.
    intro Nr. induction rows as [|row rows IH]; intros d x E r t I S; [destruct I|]. cbn [indices_by] in E.
    destruct (index_row_by dv i' s ed row d) eqn:R; [|discriminate E]. cbn [bind] in E. destruct I as [<- | I]; [exact (index_row_fine _ _ _ _ _ Nr R t S)|eapply IH; eassumption].
  Qed.
End Index.

(** ** exactly when *)
Lemma exactly {T} dv limit (e : exn) (consulted : str -> Prop) (f : (str -> option Z) -> res T) :
  ((forall t, consulted t -> int_limited dv limit t = py_int dv 10 t) -> f (int_limited dv limit) = f (py_int dv 10)) ->
  (forall x, f (int_limited dv limit) = Ok x -> forall t, consulted t -> int_limited dv limit t <> None) ->
  same_or e (f (py_int dv 10)) (f (int_limited dv limit)) ->
  ((forall t, consulted t -> short dv limit t) -> f (int_limited dv limit) = f (py_int dv 10)) /\
  (forall x, f (py_int dv 10) = Ok x ->
     (f (int_limited dv limit) = Ok x <-> forall t, consulted t -> short dv limit t) /\
     (f (int_limited dv limit) = Raise e <-> ~ forall t, consulted t -> short dv limit t)).
Proof.
  intros C F B. assert (C' : (forall t, consulted t -> short dv limit t) -> f (int_limited dv limit) = f (py_int dv 10)).
  { intro S. apply C. intros t Ct. apply int_short, S, Ct. }
  split; [exact C'|]. intros x E.
  assert (S : f (int_limited dv limit) = Ok x -> forall t, consulted t -> short dv limit t).
  { intros E' t Ct L. exact (F x E' t Ct (int_long dv limit t L)). }
  split; split.
  - exact S.
  - intro H. rewrite (C' H). exact E.
  - intros R H. rewrite (C' H), E in R. discriminate R.
  - intro H. destruct B as [B|B]; [|exact B]. exfalso. apply H, S. rewrite B. exact E.
Qed.

(** ** kanjidic *)
Section Aged.
  Variable dv : Z -> option Z.
  Hypothesis A : ascii_digits dv.
  Variable limit : Z.
  Let i := py_int dv 10.
  Let i' := int_limited dv limit.
  Notation R := (aged1 dv limit).
  Lemma aged_value t : R (match i t with Some z => VInt z | None => VStr t end) (match i' t with Some z => VInt z | None => VStr t end).
  Proof.
    unfold i, i'. destruct (long_dec dv limit t) as [L|L].
    - rewrite (int_long _ _ _ L). destruct (py_int dv 10 t) as [z|] eqn:E; [constructor; assumption|constructor].
    - rewrite (int_short _ _ _ L). constructor.
  Qed.
  (** before the codes are finished: only what is in lists has aged *)
  Inductive aged0 : Kanjidic_model.value -> Kanjidic_model.value -> Prop :=
  | Z_same v : aged0 v v
  | Z_list l l' : Forall2 R l l' -> aged0 (VList l) (VList l').
  Definition aged_info (e e' : dict str Kanjidic_model.value) : Prop := Forall2 (fun kv kv' => fst kv = fst kv' /\ aged0 (snd kv) (snd kv')) e e'.
  Lemma R_refl l : Forall2 R l l.
  Proof. induction l; constructor; [constructor|assumption]. Qed.
  Lemma info_get {X} (P : X -> X -> Prop) (e e' : dict str X) k : Forall2 (fun kv kv' => fst kv = fst kv' /\ P (snd kv) (snd kv')) e e' ->
    match dget k e, dget k e' with Some v, Some v' => P v v' | None, None => True | _, _ => False end.
  Proof.
    induction 1 as [|[a v] [a' v'] e e' [E H] F IH]; cbn [dget]; [exact I|]. cbn [fst snd] in *. subst a'. destruct (eqb k a); [exact H|exact IH].
  Qed.
  Lemma info_set {X} (P : X -> X -> Prop) (e e' : dict str X) k v v' : Forall2 (fun kv kv' => fst kv = fst kv' /\ P (snd kv) (snd kv')) e e' -> P v v' ->
    Forall2 (fun kv kv' => fst kv = fst kv' /\ P (snd kv) (snd kv')) (dset k v e) (dset k v' e').
  Proof.
    induction 1 as [|[a w] [a' w'] e e' [E H] F IH]; intro V; cbn [dset]; [constructor; [split; [reflexivity|exact V]|constructor]|].
    cbn [fst snd] in *. subst a'. destruct (eqb k a); constructor; try (split; [reflexivity|assumption]); [exact F|apply IH, V].
  Qed.
  Definition both {X Y} (P : X -> Y -> Prop) (e : exn) (r : res X) (r' : res Y) : Prop :=
    match r, r' with
    | Ok x, Ok y => P x y
    | Ok _, Raise y => y = e
    | Raise x, Raise y => y = x \/ y = e
    | Raise _, Ok _ => False
    end.
  Lemma append_aged k x x' e e' : aged_info e e' -> R x x' -> both aged_info ValueError (append_at k x e) (append_at k x' e').
  Proof.
    intros F H. unfold append_at. pose proof (info_get _ _ _ k F) as G. destruct (dget k e) as [v|], (dget k e') as [v'|]; try contradiction; [|left; reflexivity].
    destruct G as [v|l l' G].
    - destruct v as [l|?|?|?]; cbn [both]; try (left; reflexivity). apply info_set; [exact F|]. constructor. apply Forall2_app; [apply R_refl|constructor; [exact H|constructor]].
    - cbn [both]. apply info_set; [exact F|]. constructor. apply Forall2_app; [exact G|constructor; [exact H|constructor]].
  Qed.
  Lemma default_aged k e e' : aged_info e e' -> aged_info (setdefault_list k e) (setdefault_list k e').
  Proof.
    intro F. unfold setdefault_list. pose proof (info_get _ _ _ k F) as G. destruct (dget k e), (dget k e'); try contradiction; [exact F|]. apply info_set; [exact F|constructor].
  Qed.
  Lemma both_refl {X} (P : X -> X -> Prop) e r : (forall x, P x x) -> both P e r r.
  Proof. intro H. destruct r; cbn [both]; [apply H|left; reflexivity]. Qed.
  Lemma segment_aged s e e' : aged_info e e' -> both aged_info ValueError (segment_by i s e) (segment_by i' s e').
  Proof.
    intro F. unfold segment_by. destruct (startswith (u "{") s); [apply append_aged; [exact F|constructor]|]. destruct (_ || _).
    - destruct s as [|c r]; [left; reflexivity|]. match goal with |- both _ _ (bind ?x _) _ => destruct x as [ch|x0] end; [|left; reflexivity]. cbn [bind].
      destruct (script_eqb (script_type [ch]) Katakana); [apply append_aged; [exact F|constructor]|].
      destruct (script_eqb (script_type [ch]) Hiragana); [apply append_aged; [exact F|constructor]|left; reflexivity].
    - destruct (in_T12 s); [exact F|]. destruct s as [|c r]; [left; reflexivity|]. cbv zeta. apply append_aged; [apply default_aged, F|apply aged_value].
  Qed.
  Lemma both_raise {X Y} (P : X -> Y -> Prop) e (r : res X) : both P e r (Raise e).
  Proof. destruct r; cbn [both]; [reflexivity|right; reflexivity]. Qed.
  Lemma both_bind {X X' Y Y'} (P : X -> X' -> Prop) (Q : Y -> Y' -> Prop) e r r' f f' : both P e r r' -> (forall x x', P x x' -> both Q e (f x) (f' x')) ->
    both Q e (bind r f) (bind r' f').
  Proof.
    intros H G. destruct r as [x|a], r' as [x'|a']; cbn [both bind] in *; [apply G, H| |contradiction|exact H]. subst a'. destruct (f x); [reflexivity|right; reflexivity].
  Qed.
  Lemma segments_aged ss : forall e e', aged_info e e' -> both aged_info ValueError (segments_by i ss e) (segments_by i' ss e').
  Proof.
    induction ss as [|s ss IH]; intros e e' F; [exact F|]. cbn [segments_by]. eapply both_bind; [apply segment_aged, F|]. intros x x'. apply IH.
  Qed.
  Lemma first_aged e e' k : aged_info e e' -> both R ValueError (first_of (dget k e)) (first_of (dget k e')).
  Proof.
    intro F. pose proof (info_get _ _ _ k F) as G. destruct (dget k e) as [v|], (dget k e') as [v'|]; try contradiction; [|left; reflexivity].
    destruct G as [v|l l' G]; [apply both_refl; constructor|]. destruct G as [|x x' l l' H G]; [left; reflexivity|exact H].
  Qed.
  Lemma mapM_narrow qs : same_or ValueError (mapM (fun q => of_option ValueError (i q)) qs) (mapM (fun q => of_option ValueError (i' q)) qs).
  Proof.
    induction qs as [|q qs IH]; [left; reflexivity|]. cbn [mapM]. destruct (int_narrow dv limit q) as [E|E]; fold i' in E; rewrite E; [|right; reflexivity]. fold i.
    destruct (i q); [|left; reflexivity]. cbn [of_option bind]. destruct IH as [-> | ->]; [left|right]; reflexivity.
  Qed.
  (** a number with a hyphen has it in front *)
  Lemma lstrip_by_app p a b : forallb p a = true -> lstrip_by p (a ++ b) = lstrip_by p b.
  Proof. induction a as [|c a IH]; intro F; [reflexivity|]. cbn [forallb] in F. apply andb_true_iff in F. destruct F as [F1 F2]. cbn [app lstrip_by]. rewrite F1. apply IH, F2. Qed.
  Lemma lstrip_by_split p s : exists a b, s = a ++ b /\ forallb p a = true /\ lstrip_by p s = b /\ (match b with c :: _ => p c = false | [] => True end).
  Proof.
    induction s as [|c s (a & b & -> & F & E & H)]; [exists [], []; repeat split|]. cbn [lstrip_by]. destruct (p c) eqn:Pc.
    - exists (c :: a), b. cbn [forallb app]. rewrite Pc. repeat split; assumption.
    - exists [], (c :: a ++ b). cbn [app]. repeat split. exact Pc.
  Qed.
  Lemma digits_val_hyphen : forall a b acc need, digits_val dv 10 acc need (a ++ 45 :: b) = None.
  Proof.
    assert (H : digit_val dv 10 45 = None) by (unfold digit_val; rewrite (proj1 (proj2 A)) by lia; reflexivity).
    induction a as [|c a IH]; intros b acc need; cbn [app digits_val].
    - rewrite H. reflexivity.
    - destruct (digit_val dv 10 c); [apply IH|]. destruct ((c =? 95) && negb need); [apply IH|reflexivity].
  Qed.
  Lemma hyphen_first p q z : py_int dv 10 (p ++ 45 :: q) = Some z -> py_int dv 10 p = None.
  Proof.
    unfold py_int. destruct (lstrip_by_split int_space p) as (a & b & -> & F & E & H). rewrite <- app_assoc, lstrip_by_app by exact F. rewrite E.
    destruct b as [|c b]; [intros _; reflexivity|]. cbn [app lstrip_by]. rewrite H.
    intro X. exfalso.
    assert (Y : exists q', rev (lstrip_by int_space (rev (c :: b ++ 45 :: q))) = c :: b ++ 45 :: q').
    { change (c :: b ++ 45 :: q) with ((c :: b) ++ [45] ++ q). rewrite !rev_app_distr. destruct (lstrip_by_split int_space (rev q)) as (a1 & b1 & E1 & F1 & E2 & H1).
      assert (Z0 : lstrip_by int_space ((rev q ++ rev [45]) ++ rev (c :: b)) = b1 ++ rev [45] ++ rev (c :: b)).
      { rewrite E1, <- !app_assoc, lstrip_by_app by exact F1. destruct b1 as [|x b1]; [reflexivity|]. cbn [app lstrip_by]. rewrite H1. reflexivity. }
      rewrite Z0, !rev_app_distr, !rev_involutive. exists (rev b1). cbn [app]. rewrite <- app_assoc. reflexivity. }
    destruct Y as [q' Y]. rewrite Y in X. clear Y. change (10 =? 16) with false in X. cbv beta iota zeta in X.
    destruct (c =? 43); [rewrite digits_val_hyphen in X; discriminate X|]. destruct (c =? 45); [rewrite digits_val_hyphen in X; discriminate X|].
    change (c :: b ++ 45 :: q') with ((c :: b) ++ 45 :: q') in X. rewrite digits_val_hyphen in X. discriminate X.
  Qed.
  Lemma long_parts t z : py_int dv 10 t = Some z -> too_long dv limit t -> mapM (fun q => of_option ValueError (i' q)) (split_on (u1 "-") t) = Raise ValueError.
  Proof.
    intros E L. change (u1 "-") with 45. pose proof (split_on_nonempty 45 t) as Ne. pose proof (join_split 45 t) as J. destruct (split_on 45 t) as [|p [|q ps]] eqn:S; [contradiction| |].
    - cbn [join] in J. subst t. cbn [mapM]. unfold i'. rewrite (int_long _ _ _ L). reflexivity.
    - assert (Jq : exists r, t = p ++ 45 :: r) by (exists (join [45] (q :: ps)); rewrite <- J; reflexivity). destruct Jq as [r ->].
      cbn [mapM]. replace (i' p) with (@None Z); [reflexivity|]. symmetry. apply int_none. right. exact (hyphen_first p r z E).
  Qed.
  Lemma info_entry e e' : aged_info e e' -> aged_entry dv limit e e'.
  Proof.
    induction 1 as [|kv kv' e e' [E H] F IH]; constructor; [|exact IH]. split; [exact E|]. destruct H as [v|l l' H]; [constructor; constructor|apply A_list, H].
  Qed.
  Lemma finish_aged e e' : aged_info e e' -> both (aged_entry dv limit) ValueError (finish_by i e) (finish_by i' e').
  Proof.
    intro F. unfold finish_by. eapply both_bind; [apply first_aged, F|]. intros sc sc' Sc.
    pose proof (info_set _ _ _ (u "stroke_count") _ _ (info_entry _ _ F) (A_one _ _ _ _ Sc)) as F1.
    assert (G : both R ValueError (first_of (dget (u "skip_code") e)) (first_of (dget (u "skip_code") e'))) by apply first_aged, F.
    assert (Gf : match dget (u "frequency") e, dget (u "frequency") e' with Some v, Some v' => both R ValueError (first_of (Some v)) (first_of (Some v')) | None, None => True | _, _ => False end).
    { pose proof (first_aged e e' (u "frequency") F) as G1. pose proof (info_get _ _ _ (u "frequency") F) as G2. destruct (dget (u "frequency") e), (dget (u "frequency") e'); try contradiction; [exact G1|exact I]. }
    cbv zeta. rewrite !(dget_dset_other (u "frequency")) by discriminate.
    assert (Rest : forall e1 e1', aged_entry dv limit e1 e1' -> dget (u "skip_code") e1 = dget (u "skip_code") e -> dget (u "skip_code") e1' = dget (u "skip_code") e' ->
      both (aged_entry dv limit) ValueError
        (do p <- first_of (dget (u "skip_code") e1); do parts <- (match p with VStr s => Ok (split_on (u1 "-") s) | _ => Raise AttributeError end);
         do t <- mapM (fun q => of_option ValueError (i q)) parts; Ok (dset (u "skip_code") (VTuple t) e1))
        (do p <- first_of (dget (u "skip_code") e1'); do parts <- (match p with VStr s => Ok (split_on (u1 "-") s) | _ => Raise AttributeError end);
         do t <- mapM (fun q => of_option ValueError (i' q)) parts; Ok (dset (u "skip_code") (VTuple t) e1'))).
    { intros e1 e1' F2 -> ->. eapply both_bind; [exact G|]. intros p p' [v|t z E L].
      - destruct v as [z|s|l|l]; try (left; reflexivity). cbn [bind]. destruct (mapM_narrow (split_on (u1 "-") s)) as [-> | ->].
        + destruct (mapM _ _); cbn [bind both]; [apply info_set; [exact F2|constructor; constructor]|left; reflexivity].
        + cbn [bind]. destruct (mapM _ _); cbn [bind both]; [reflexivity|right; reflexivity].
      - cbn [bind]. rewrite (long_parts t z E L). cbn [bind both]. right. reflexivity. }
    destruct (dget (u "frequency") e) as [v|], (dget (u "frequency") e') as [v'|]; try contradiction.
    - destruct (first_of (Some v)) as [f|a], (first_of (Some v')) as [f'|a']; cbn [both bind] in Gf |- *; try contradiction.
      + apply Rest; [apply info_set; [exact F1|apply A_one, Gf]| |]; rewrite !dget_dset_other by discriminate; reflexivity.
      + subst a'. apply both_raise.
      + exact Gf.
    - cbn [bind]. apply Rest; [exact F1| |]; rewrite !dget_dset_other by discriminate; reflexivity.
  Qed.
  Lemma entry_aged e e' : aged_entry dv limit e e' -> both (aged_entry dv limit) ValueError (new_entry e) (new_entry e').
  Proof.
    intro F. unfold new_entry, dmem. pose proof (info_get _ _ _ (u "on_readings") F) as G1. pose proof (info_get _ _ _ (u "kun_readings") F) as G2.
    destruct (dget (u "on_readings") e), (dget (u "on_readings") e'); try contradiction; destruct (dget (u "kun_readings") e), (dget (u "kun_readings") e'); try contradiction;
      cbn [andb both]; try (left; reflexivity). exact F.
  Qed.
  Lemma info_refl e : aged_info e e.
  Proof. induction e as [|kv e IH]; constructor; [split; constructor|exact IH]. Qed.
  Lemma kline_aged line : both (aged_entry dv limit) ValueError (line_by dv i line) (line_by dv i' line).
  Proof.
    unfold line_by. destruct (findall0 segment_pattern (strip line)) as [|k [|j ss]]; try (left; reflexivity).
    destruct (int_of dv 16 j) as [jis|]; [|left; reflexivity]. cbn [bind]. eapply both_bind; [apply segments_aged, info_refl|]. intros e e' F.
    eapply both_bind; [apply finish_aged, F|]. exact entry_aged.
  Qed.
End Aged.

(** ** as before *)
Lemma kline_before dv line : line_by dv (py_int dv 10) line = parse_line dv line.
Proof. reflexivity. Qed.
Lemma kanjidic_before dv lines d : kanjidic_by dv (py_int dv 10) lines d = parse_kanjidic dv lines d.
Proof. reflexivity. Qed.
Lemma radk_before dv lines : radk_by (py_int dv 10) lines = parse_radkfile dv lines.
Proof. reflexivity. Qed.
Lemma file_before dv h lines : from_file_by (py_int dv 10) h lines = from_file dv h lines.
Proof. reflexivity. Qed.
Lemma sentences_before dv date strptime filter_row langs src :
  sentences_by (py_int dv 10) date strptime filter_row langs src = read_sentences dv strptime filter_row langs src.
Proof. reflexivity. Qed.
Lemma links_before dv s fs ft rows st : links_by (py_int dv 10) s fs ft rows st = read_links dv s fs ft rows st.
Proof. reflexivity. Qed.
Lemma indices_before dv s ed rows d : indices_by dv (py_int dv 10) s ed rows d = index_rows dv s ed rows d.
Proof. reflexivity. Qed.

Section AgedFile.
  Variable dv : Z -> option Z.
  Hypothesis A : ascii_digits dv.
  Variable limit : Z.
  Lemma kanjidic_aged lines : forall d d', aged_dict dv limit d d' ->
    both (aged_dict dv limit) ValueError (kanjidic_by dv (py_int dv 10) lines d) (kanjidic_by dv (int_limited dv limit) lines d').
  Proof.
    induction lines as [|l lines IH]; intros d d' D; [exact D|]. cbn [kanjidic_by]. destruct (startswith (u "#") l); [apply IH, D|].
    pose proof (kline_aged dv A limit l) as L. pose proof (parse_line_kanji dv l) as K. rewrite <- kline_before in K.
    destruct (line_by dv (py_int dv 10) l) as [e|x], (line_by dv (int_limited dv limit) l) as [e'|x']; cbn [both] in L; try contradiction.
    - destruct (K e eq_refl) as (k & ts & _ & Hk). unfold has_kanji in Hk. cbn [bind]. pose proof (info_get _ _ _ (u "kanji") L) as G. rewrite Hk in *.
      destruct (dget (u "kanji") e') as [v'|]; [|contradiction].
      assert (Ev : v' = VStr k) by (inversion G as [v v0 G1|]; subst; inversion G1; reflexivity). subst v'.
      apply IH, info_set; assumption.
    - subst x'. cbn [bind]. apply both_raise.
    - cbn [bind both]. exact L.
  Qed.

  (** short lines *)
  Definition ok1 (v : Kanjidic_model.value) : Prop := match v with VStr s => short dv limit s | _ => True end.
  Definition okv (v : Kanjidic_model.value) : Prop := match v with VStr s => short dv limit s | VList l => Forall ok1 l | _ => True end.
  Definition oki (e : dict str Kanjidic_model.value) : Prop := Forall (fun kv => okv (snd kv)) e.
  Lemma oki_get e k v : oki e -> dget k e = Some v -> okv v.
  Proof. intros O G. apply dget_In in G. unfold oki in O. rewrite Forall_forall in O. exact (O _ G). Qed.
  Lemma oki_set e k v : oki e -> okv v -> oki (dset k v e).
  Proof.
    intros O V. induction O as [|[a w] e H O IH]; cbn [dset]; [constructor; [exact V|constructor]|]. destruct (eqb k a); constructor; assumption.
  Qed.
  Lemma append_ok k x e e' : oki e -> ok1 x -> append_at k x e = Ok e' -> oki e'.
  Proof.
    intros O X E. unfold append_at in E. destruct (dget k e) as [v|] eqn:G; [|discriminate E]. pose proof (oki_get _ _ _ O G) as V. destruct v as [z|s|l|l]; try discriminate E.
    injection E as <-. apply oki_set; [exact O|]. cbn [okv] in *. apply Forall_app. split; [exact V|constructor; [exact X|constructor]].
  Qed.
  Lemma default_ok k e : oki e -> oki (setdefault_list k e).
  Proof. intro O. unfold setdefault_list. destruct (dget k e); [exact O|]. apply oki_set; [exact O|constructor]. Qed.
  Lemma short_sub s t a b : short dv limit s -> s = a ++ t ++ b -> short dv limit t.
  Proof. apply short_part. Qed.
  Lemma short_tail c s : short dv limit (c :: s) -> short dv limit s.
  Proof. intro S. apply (short_sub (c :: s) s [c] []); [exact S|]. rewrite app_nil_r. reflexivity. Qed.
  Lemma segment_ok s e : short dv limit s -> oki e -> segment_by (int_limited dv limit) s e = segment_by (py_int dv 10) s e /\
    forall e', segment_by (py_int dv 10) s e = Ok e' -> oki e'.
  Proof.
    intros S O. unfold segment_by. destruct (startswith (u "{") s).
    { split; [reflexivity|]. intros e' E. refine (append_ok _ _ _ _ O _ E). cbn [ok1]. unfold inner. destruct s as [|c s]; [exact S|]. cbn [tl]. apply short_tail in S.
      destruct (exists_last_or_nil s) as [-> | (r & x & ->)]; [exact S|]. rewrite removelast_last. apply (short_sub _ r [] [x] S). reflexivity. }
    destruct (_ || _).
    { split; [reflexivity|]. intros e' E. destruct s as [|c r]; [discriminate E|].
      match type of E with bind ?x _ = _ => destruct x as [ch|x0] end; [|discriminate E]. cbn [bind] in E.
      destruct (script_eqb (script_type [ch]) Katakana); [exact (append_ok _ (VStr (c :: r)) _ _ O S E)|]. destruct (script_eqb (script_type [ch]) Hiragana); [exact (append_ok _ (VStr (c :: r)) _ _ O S E)|discriminate E]. }
    destruct (in_T12 s); [split; [reflexivity|intros e' E; injection E as <-; exact O]|]. destruct s as [|c r]; [split; [reflexivity|discriminate]|]. cbv zeta.
    apply short_tail in S. rewrite (int_short _ _ _ S). split; [reflexivity|]. intros e' E. refine (append_ok _ _ _ _ (default_ok _ _ O) _ E).
    destruct (py_int dv 10 r); [exact I|exact S].
  Qed.
  Lemma segments_ok ss : forall e, Forall (short dv limit) ss -> oki e -> segments_by (int_limited dv limit) ss e = segments_by (py_int dv 10) ss e /\
    forall e', segments_by (py_int dv 10) ss e = Ok e' -> oki e'.
  Proof.
    induction ss as [|s ss IH]; intros e S O; cbn [segments_by]; [split; [reflexivity|intros e' E; injection E as <-; exact O]|].
    inversion S as [|? ? S1 S2]; subst. destruct (segment_ok s e S1 O) as [-> H]. destruct (segment_by (py_int dv 10) s e) as [e1|]; [|split; [reflexivity|discriminate]].
    cbn [bind]. apply IH; [exact S2|apply H; reflexivity].
  Qed.
  Lemma first_ok e k v : oki e -> first_of (dget k e) = Ok v -> ok1 v.
  Proof.
    intros O E. destruct (dget k e) as [w|] eqn:G; [|discriminate E]. pose proof (oki_get _ _ _ O G) as V. destruct w as [z|s|l|l]; cbn [first_of] in E; try discriminate E.
    - destruct s as [|c s]; [discriminate E|]. injection E as <-. apply (short_sub (c :: s) [c] [] s V). reflexivity.
    - destruct l as [|x l]; [discriminate E|]. injection E as <-. inversion V; assumption.
    - destruct l as [|x l]; [discriminate E|]. injection E as <-. exact I.
  Qed.
  Lemma mapM_ext_in {X Y} (f g : X -> res Y) l : (forall x, In x l -> f x = g x) -> mapM f l = mapM g l.
  Proof. induction l as [|x l IH]; intro H; [reflexivity|]. cbn [mapM]. rewrite (H x (or_introl eq_refl)), IH; [reflexivity|]. intros y I. apply H. right. exact I. Qed.
  Lemma ok1_v v : ok1 v -> (forall l, v <> VList l) -> okv v.
  Proof. destruct v; cbn; intros H N; try exact H. exfalso. eapply N. reflexivity. Qed.
  Lemma skip_same e1 e : oki e -> dget (u "skip_code") e1 = dget (u "skip_code") e ->
    (do p <- first_of (dget (u "skip_code") e1); do parts <- (match p with VStr s => Ok (split_on (u1 "-") s) | _ => Raise AttributeError end);
     do t <- mapM (fun q => of_option ValueError (int_limited dv limit q)) parts; Ok (dset (u "skip_code") (VTuple t) e1)) =
    (do p <- first_of (dget (u "skip_code") e1); do parts <- (match p with VStr s => Ok (split_on (u1 "-") s) | _ => Raise AttributeError end);
     do t <- mapM (fun q => of_option ValueError (py_int dv 10 q)) parts; Ok (dset (u "skip_code") (VTuple t) e1)).
  Proof.
    intros O ->. pose proof (first_ok e (u "skip_code")) as F. destruct (first_of (dget (u "skip_code") e)) as [p|]; [|reflexivity]. specialize (F p O eq_refl). cbn [bind].
    destruct p as [z|s|l|l]; try reflexivity. cbn [bind]. rewrite (mapM_ext_in _ (fun q => of_option ValueError (py_int dv 10 q))); [reflexivity|].
    intros q I. destruct (split_on_infix _ _ _ I) as (a & b & E). rewrite (int_short _ _ _ (short_sub _ _ _ _ F E)). reflexivity.
  Qed.
  Lemma finish_ok e : oki e -> finish_by (int_limited dv limit) e = finish_by (py_int dv 10) e.
  Proof.
    intro O. unfold finish_by. destruct (first_of (dget (u "stroke_count") e)) as [sc|]; [|reflexivity]. cbn [bind]. cbv zeta.
    rewrite (dget_dset_other (u "frequency")) by discriminate. destruct (dget (u "frequency") e) as [v|].
    - destruct (first_of (Some v)) as [f|]; [|reflexivity]. cbn [bind]. apply (skip_same _ e O). rewrite !dget_dset_other by discriminate. reflexivity.
    - cbn [bind]. apply (skip_same _ e O). rewrite !dget_dset_other by discriminate. reflexivity.
  Qed.
  Lemma kline_short line : short dv limit line -> line_by dv (int_limited dv limit) line = line_by dv (py_int dv 10) line.
  Proof.
    intro S. unfold line_by. pose proof (proj1 (findall_spec (strip line) _) eq_refl) as Sg.
    destruct (findall0 segment_pattern (strip line)) as [|k [|j ss]]; try reflexivity.
    assert (F : Forall (short dv limit) (k :: j :: ss)).
    { apply Forall_forall. intros t I. destruct (segments_infix _ _ Sg t I) as (a & b & E). destruct (strip_infix line) as (a' & b' & E').
      apply (short_sub line t (a' ++ a) (b ++ b') S). rewrite E' at 1. rewrite E. rewrite <- !app_assoc. reflexivity. }
    inversion F as [|? ? Fk F1]; subst. inversion F1 as [|? ? _ Fs]; subst.
    destruct (int_of dv 16 j) as [jis|]; [|reflexivity]. cbn [bind]. destruct (segments_ok ss (new_info k jis) Fs) as [-> H].
    { unfold new_info, oki. repeat constructor. exact Fk. }
    destruct (segments_by (py_int dv 10) ss (new_info k jis)) as [e|]; [|reflexivity]. cbn [bind]. rewrite (finish_ok e); [reflexivity|]. apply H. reflexivity.
  Qed.
  Lemma kanjidic_short lines : Forall (short dv limit) lines -> forall d, kanjidic_by dv (int_limited dv limit) lines d = kanjidic_by dv (py_int dv 10) lines d.
  Proof.
    induction 1 as [|l lines S F IH]; intro d; [reflexivity|]. cbn [kanjidic_by]. destruct (startswith (u "#") l); [apply IH|]. rewrite (kline_short l S).
    destruct (line_by dv (py_int dv 10) l) as [e|]; [|reflexivity]. cbn [bind]. destruct (dget (u "kanji") e) as [[z|s|x|x]|]; try reflexivity. apply IH.
  Qed.
End AgedFile.

(** ** writing *)
Lemma dec_digits_length fuel : forall n acc k, 0 <= n -> n < 2 ^ Z.of_nat fuel -> (0 < fuel)%nat -> 1 <= k ->
  (Z.of_nat (length (dec_digits fuel n acc)) <= k + Z.of_nat (length acc) <-> n < 10 ^ k).
Proof.
  induction fuel as [|f IH]; intros n acc k N B F K; [lia|]. cbn [dec_digits]. destruct (Z.ltb_spec n 10) as [L|L].
  - cbn [length]. split; [|lia]. intros _. apply Z.lt_le_trans with (10 ^ 1); [lia|]. apply Z.pow_le_mono_r; lia.
  - assert (F' : (0 < f)%nat) by (destruct f; [cbn in B; lia|lia]).
    pose proof (Z.div_mod n 10 ltac:(lia)) as DM. pose proof (Z.mod_pos_bound n 10 ltac:(lia)) as MB.
    assert (B' : n / 10 < 2 ^ Z.of_nat f) by (rewrite Nat2Z.inj_succ, Z.pow_succ_r in B by lia; apply Z.div_lt_upper_bound; lia).
    assert (P : 0 <= n / 10) by (apply Z.div_pos; lia).
    destruct (Z.eq_dec k 1) as [->|K1].
    + destruct (dec_digits_spec f (n / 10) ((48 + n mod 10) :: acc) P B' F') as (ds & -> & Ne & _). rewrite app_length. cbn [length].
      destruct ds as [|x ds]; [contradiction|]. cbn [length]. change (10 ^ 1) with 10. lia.
    + specialize (IH (n / 10) ((48 + n mod 10) :: acc) (k - 1) P B' F' ltac:(lia)). cbn [length] in IH.
      replace (10 ^ k) with (10 * 10 ^ (k - 1)) by (rewrite <- Z.pow_succ_r by lia; f_equal; lia).
      split; intro H; [assert (n / 10 < 10 ^ (k - 1)) by (apply IH; lia); lia|]. assert (n / 10 < 10 ^ (k - 1)) as H1 by (apply Z.div_lt_upper_bound; lia). apply IH in H1. lia.
Qed.
Lemma dec_length n k : 0 <= n -> 1 <= k -> (Z.of_nat (length (dec n)) <= k <-> n < 10 ^ k).
Proof.
  intros N K. unfold dec. destruct (Z.ltb_spec n 0); [lia|]. pose proof (dec_digits_length (S (Z.to_nat (Z.log2 n))) n [] k N (log2_fuel n N) ltac:(lia) K) as H1.
  cbn [length] in H1. rewrite Z.add_0_r in H1. exact H1.
Qed.
Lemma dec_limited_spec limit n : 0 <= limit -> dec_limited limit n = (if (0 <? limit) && (10 ^ limit <=? Z.abs n) then None else Some (dec n)).
Proof.
  intro L. unfold dec_limited. destruct (Z.ltb_spec 0 limit) as [P|P]; [|reflexivity]. cbn [andb]. pose proof (dec_length (Z.abs n) limit (Z.abs_nonneg n) ltac:(lia)) as D.
  destruct (Z.ltb_spec limit (Z.of_nat (length (dec (Z.abs n))))), (Z.leb_spec (10 ^ limit) (Z.abs n)); try reflexivity; lia.
Qed.
Lemma word_str_cases limit w : 0 <= limit ->
  (huge_sense limit w /\ word_str_limited limit w = Raise ValueError) \/ (~ huge_sense limit w /\ word_str_limited limit w = Ok (word_str w)).
Proof.
  intro L. unfold word_str_limited, huge_sense, word_str. destruct (sense w) as [n|] eqn:E.
  - rewrite dec_limited_spec by exact L. destruct (Z.eqb_spec n 0) as [->|Nz].
    + right. split.
      * intros [P (m & M & H)]. injection M as <-. change (Z.abs 0) with 0 in H. pose proof (Z.pow_pos_nonneg 10 limit ltac:(lia) ltac:(lia)). lia.
      * cbn [bind]. destruct (Tanaka_model.reading w) as [[|c r]|]; rewrite ?app_nil_r; reflexivity.
    + destruct (Z.ltb_spec 0 limit) as [P|P]; cbn [andb].
      * destruct (Z.leb_spec (10 ^ limit) (Z.abs n)) as [H|H].
        -- left. split; [split; [exact P|exists n; split; [reflexivity|exact H]]|reflexivity].
        -- right. split; [intros [_ (m & M & H')]; injection M as <-; lia|]. cbn [of_option bind]. destruct (Tanaka_model.reading w) as [[|c r]|]; reflexivity.
      * right. split; [intros [P' _]; lia|]. cbn [of_option bind]. destruct (Tanaka_model.reading w) as [[|c r]|]; reflexivity.
  - right. split; [intros [_ (m & M & _)]; discriminate M|]. cbn [bind]. destruct (Tanaka_model.reading w) as [[|c r]|]; rewrite ?app_nil_r; reflexivity.
Qed.
Lemma sense_unique dv p t t' : unicode_digits dv -> sense_in dv p t -> sense_in dv p t' -> t = t'.
Proof.
  intros A S S'. destruct (sense_match dv p t A S) as (m & M & G). destruct (sense_match dv p t' A S') as (m' & M' & G'). congruence.
Qed.
Lemma word_sense_in dv w n : unicode_digits dv -> well_formed w -> sense w = Some n -> sense_in dv (word_str w) (fmt02 n).
Proof.
  intros A (Wh & Wn & Wr & Wd & Ws) E. rewrite E in Ws. destruct (fmt02_number dv n A Ws) as [D _]. unfold word_str. rewrite E. destruct (Z.eqb_spec n 0) as [->|_]; [lia|].
  destruct w as [h r s d e]. cbn [headword Tanaka_model.reading sense display example] in *.
  exists h, (match r with Some x => u1 "(" :: x ++ [u1 ")"] | None => [] end), r, [], (match d with Some x => u1 "{" :: x ++ [u1 "}"] | None => [] end), d, e, [].
  split; [exact Wh|split; [exact Wn|split; [destruct r as [x|]; [destruct Wr; constructor; assumption|constructor]|split; [constructor|split; [exact D|]]]]].
  split; [destruct d as [x|]; [destruct Wd; constructor; assumption|constructor]|split; [left; reflexivity|]].
  rewrite !app_nil_r. destruct r as [[|cr r]|]; [destruct Wr; contradiction| |]; (destruct d as [[|cd d]|]; [destruct Wd; contradiction| |]); destruct e; cbn [app]; rewrite <- ?app_assoc; cbn [app]; rewrite <- ?app_assoc; reflexivity.
Qed.
Lemma digit_count_le dv s : digit_count dv s <= Z.of_nat (length s).
Proof. unfold digit_count. induction s as [|c s IH]; cbn [filter length]; [lia|]. destruct (is_digit dv c); cbn [length]; lia. Qed.
Lemma word_reread dv limit w s : unicode_digits dv -> limit = 0 \/ 2 <= limit -> well_formed w -> word_str_limited limit w = Ok s -> from_text_by dv (int_limited dv limit) s = Ok w.
Proof.
  intros A L W E. destruct (word_str_cases limit w ltac:(lia)) as [[_ X]|[Nh X]]; rewrite X in E; [discriminate E|]. injection E as <-.
  rewrite <- (word_round_trip dv w A W). change (from_text dv (word_str w)) with (from_text_by dv (py_int dv 10) (word_str w)).
  apply text_cong; [exact A|]. intros t S. apply int_short, short_count. intro P.
  destruct (sense w) as [n|] eqn:Es.
  - pose proof (sense_unique dv _ _ _ A S (word_sense_in dv w n A W Es)) as ->. pose proof (digit_count_le dv (fmt02 n)) as B.
    assert (Wn : 1 <= n) by (destruct W as (_ & _ & _ & _ & Ws); rewrite Es in Ws; exact Ws).
    assert (Z.of_nat (length (dec n)) <= limit).
    { apply dec_length; [lia|lia|]. destruct (Z_lt_le_dec n (10 ^ limit)) as [H|H]; [exact H|]. exfalso. apply Nh. split; [exact P|]. exists n. split; [exact Es|]. rewrite Z.abs_eq by lia. exact H. }
    unfold fmt02 in *. destruct (length (dec n) <? 2)%nat eqn:Lt; [|lia]. apply Nat.ltb_lt in Lt. rewrite app_length in B. cbn [length u] in B. change (length (u "0")) with 1%nat in B. lia.
  - exfalso. destruct (sense_match dv _ _ A S) as (m & M & G). pose proof (word_round_trip dv w A W) as R. unfold from_text in R. rewrite M, G in R.
    destruct (py_int dv 10 t); cbn [of_option bind] in R; [|discriminate R]. injection R as R. rewrite <- R in Es. discriminate Es.
Qed.

(** ** all of it *)
Lemma limited_by {T} dv limit (e : exn) (consulted : str -> Prop) (f : (str -> option Z) -> res T) :
  ((forall t, consulted t -> int_limited dv limit t = py_int dv 10 t) -> f (int_limited dv limit) = f (py_int dv 10)) ->
  (forall x, f (int_limited dv limit) = Ok x -> forall t, consulted t -> int_limited dv limit t <> None) ->
  same_or e (f (py_int dv 10)) (f (int_limited dv limit)) ->
  limited e dv limit consulted (f (py_int dv 10)) (f (int_limited dv limit)).
Proof. intros C F B. split; [exact B|]. exact (exactly dv limit e consulted f C F B). Qed.
Lemma radk_limited dv limit lines : limited ValueError dv limit (fun t => exists l, In l lines /\ strokes_in l t) (parse_radkfile dv lines) (radk_by (int_limited dv limit) lines).
Proof.
  rewrite <- radk_before. apply (limited_by dv limit ValueError _ (fun i => radk_by i lines)).
  - intro H. unfold radk_by. rewrite (radk_cong (py_int dv 10)); [reflexivity|]. intros l t I S. apply H. exists l. split; assumption.
  - intros x E t (l & I & S). unfold radk_by in E. destruct (radk_loop_by (int_limited dv limit) lines None [] []) eqn:R; [|discriminate E]. eapply radk_fine; eassumption.
  - unfold radk_by. destruct (radk_narrow (py_int dv 10) (int_limited dv limit) (int_narrow dv limit) lines None [] []) as [-> | ->]; [left|right]; reflexivity.
Qed.
Lemma file_limited dv limit h lines : limited ValueError dv limit (fun t => exists l, In l lines /\ depth_in l t) (from_file dv h lines) (from_file_by (int_limited dv limit) h lines).
Proof.
  rewrite <- file_before. apply (limited_by dv limit ValueError _ (fun i => from_file_by i h lines)).
  - intro H. apply file_cong. intros l t I S. apply H. exists l. split; assumption.
  - intros x E t (l & I & S). eapply file_fine; eassumption.
  - apply file_narrow. apply int_narrow.
Qed.
Lemma sentences_limited dv limit date strptime filter_row langs src :
  limited ValueError dv limit (fun t => exists row, In row (fst src) /\ sentence_id_in filter_row langs row t)
    (read_sentences dv strptime filter_row langs src) (sentences_by (int_limited dv limit) date strptime filter_row langs src).
Proof.
  rewrite <- sentences_before. apply (limited_by dv limit ValueError _ (fun i => sentences_by i date strptime filter_row langs src)).
  - intro H. apply sentences_cong. intros l t I S. apply H. exists l. split; assumption.
  - intros x E t (l & I & S). eapply sentences_fine; eassumption.
  - apply sentences_narrow. apply int_narrow.
Qed.
Lemma links_limited dv limit s fs ft rows st : limited InvalidFileError dv limit (fun t => exists row, In row rows /\ link_id_in row t)
  (read_links dv s fs ft rows st) (links_by (int_limited dv limit) s fs ft rows st).
Proof.
  rewrite <- links_before. apply (limited_by dv limit InvalidFileError _ (fun i => links_by i s fs ft rows st)).
  - intro H. apply links_cong. intros l t I S. apply H. exists l. split; assumption.
  - intros x E t (l & I & S). eapply links_fine; eassumption.
  - apply links_narrow. apply int_narrow.
Qed.
Lemma indices_limited dv limit s ed rows d : unicode_digits dv -> limited ValueError dv limit (fun t => exists row, In row rows /\ index_number_in dv s row t)
  (index_rows dv s ed rows d) (indices_by dv (int_limited dv limit) s ed rows d).
Proof.
  intro A. rewrite <- indices_before. apply (limited_by dv limit ValueError _ (fun i => indices_by dv i s ed rows d)).
  - intro H. apply indices_cong; [exact A|]. intros l t I S. apply H. exists l. split; assumption.
  - intros x E t (l & I & S). eapply indices_fine; try eassumption. apply int_narrow.
  - apply indices_narrow. apply int_narrow.
Qed.
Lemma text_limited dv limit p : unicode_digits dv -> limited ValueError dv limit (sense_in dv p) (from_text dv p) (from_text_by dv (int_limited dv limit) p).
Proof.
  intro A. change (from_text dv p) with (from_text_by dv (py_int dv 10) p). apply (limited_by dv limit ValueError _ (fun i => from_text_by dv i p)).
  - intro H. apply text_cong; [exact A|exact H].
  - intros x E t S. eapply text_fine; eassumption.
  - apply text_narrow. apply int_narrow.
Qed.

Lemma value_bound dv s : (forall c d, dv c = Some d -> 0 <= d <= 9) -> forall acc, 0 <= acc -> 0 <= Tanaka_spec.value dv acc s < (acc + 1) * 10 ^ Z.of_nat (length s).
Proof.
  intro B. induction s as [|c s IH]; intros acc A; cbn [Tanaka_spec.value length]; [rewrite Z.mul_1_r; lia|].
  assert (D : 0 <= match dv c with Some d => d | None => 0 end <= 9) by (destruct (dv c) eqn:E; [exact (B _ _ E)|lia]).
  pose proof (IH (acc * 10 + match dv c with Some d => d | None => 0 end) ltac:(lia)) as H1. rewrite Nat2Z.inj_succ, Z.pow_succ_r by lia.
  pose proof (Z.pow_pos_nonneg 10 (Z.of_nat (length s)) ltac:(lia) ltac:(lia)). nia.
Qed.
Lemma digits_count dv t : Tanaka_spec.digits dv t -> digit_count dv t = Z.of_nat (length t).
Proof.
  intros [_ F]. induction F as [|c t [d D] F IH]; [reflexivity|]. rewrite digit_count_cons, IH. unfold is_digit. rewrite D. cbn [length]. lia.
Qed.
Lemma word_rewritten dv limit p w : unicode_digits dv -> 0 <= limit ->
  from_text_by dv (int_limited dv limit) p = Ok w -> word_str_limited limit w = Ok (word_str w).
Proof.
  intros A L E. pose proof (proj2 (proj2 (proj1 A))) as B. destruct (word_str_cases limit w L) as [[[P (n & S & H)] _]|[_ X]]; [exfalso|exact X].
  unfold from_text_by in E. destruct (match_ (word_re dv) p) as [m|] eqn:M; [|discriminate E]. destruct (Regex.group n_sense m) as [t|] eqn:G.
  - pose proof (sense_group dv p m t A M G) as (_ & _ & _ & _ & _ & _ & _ & _ & _ & _ & _ & _ & D & _).
    destruct (long_dec dv limit t) as [Lg|Sh]; [rewrite (int_long _ _ _ Lg) in E; discriminate E|]. rewrite (int_short _ _ _ Sh), (py_int_value dv A t D) in E.
    cbn [of_option bind] in E. injection E as <-. cbn [sense] in S. injection S as <-. apply short_count in Sh; [|exact P]. rewrite (digits_count dv t D) in Sh.
    pose proof (value_bound dv t B 0 ltac:(lia)) as V. rewrite Z.abs_eq in H by lia. pose proof (Z.pow_le_mono_r 10 (Z.of_nat (length t)) limit ltac:(lia) Sh). lia.
  - cbn [bind] in E. injection E as <-. discriminate S.
Qed.
