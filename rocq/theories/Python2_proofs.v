(* Python2_proofs.v *)
From Verif Require Import Base PyStr PyText PyFmt Maps_model Common_model Csv_model Csv_proofs Tatoeba_model Kanjidic_model Kanjidic_proofs Radk_model Pinyin_model Rose Place_model Place_spec Place_proofs Files_model Files_spec Files_proofs Encoding_model Encoding_spec Utf8_proofs Encoding_proofs Python2_model Python2_spec.

(** ** the csv machine over the bytes of UTF-8 *)
Definition enc (s : rd) : rd := mkrd (state s) (encoded (field s)) (map encoded (fields s)).
Definition special (c : Z) : bool := (c =? 0) || (c =? 10) || (c =? 13) || (c =? quotechar) || (c =? delimiter).
Lemma special_false c : special c = false -> c <> 0 /\ c <> 10 /\ c <> 13 /\ c <> quotechar /\ c <> delimiter.
Proof. unfold special. rewrite !orb_false_iff, !Z.eqb_neq. tauto. Qed.
Lemma high_plain c : 128 <= c -> special c = false.
Proof.
  intro H. unfold special, quotechar, delimiter. repeat (apply orb_false_iff; split); apply Z.eqb_neq; lia.
Qed.
Lemma units_low c : c < 128 -> units c = [c].
Proof. intro H. unfold units. destruct (Z.ltb_spec c 128); [reflexivity | lia]. Qed.
Lemma units_high c : 128 <= c -> scalar c -> units c <> [] /\ Forall (fun b => 128 <= b) (units c).
Proof.
  intros H S. assert (X : c < 1114112) by (unfold scalar in S; lia). unfold units. destruct (Z.ltb_spec c 128); [lia|].
  assert (M : forall x, 0 <= x mod 64 < 64) by (intro x; apply Z.mod_pos_bound; lia).
  assert (D : forall k, 0 < k -> 0 <= c / k) by (intros k K; apply Z.div_pos; lia).
  pose proof (M c). pose proof (M (c / 64)). pose proof (M (c / 4096)). pose proof (D 64). pose proof (D 4096). pose proof (D 262144).
  destruct (Z.ltb_spec c 2048); [|destruct (Z.ltb_spec c 65536)]; (split; [discriminate | repeat constructor; lia]).
Qed.
Lemma units_len c : (1 <= length (units c))%nat.
Proof. unfold units. destruct (c <? 128); [|destruct (c <? 2048); [|destruct (c <? 65536)]]; cbn; lia. Qed.
Lemma encoded_app a b : encoded (a ++ b) = encoded a ++ encoded b.
Proof. unfold encoded. apply flat_map_app. Qed.
Lemma encoded_len s : (length s <= length (encoded s))%nat.
Proof. induction s as [|c s IH]; cbn; [lia|]. rewrite app_length. pose proof (units_len c). fold (encoded s). lia. Qed.
Lemma encoded_nil s : encoded s = [] <-> s = [].
Proof. split; [|intros ->; reflexivity]. destruct s as [|c s]; [reflexivity|]. intro E. apply (f_equal (@length _)) in E. pose proof (encoded_len (c :: s)). cbn [length] in *. lia. Qed.

(* what a run of ordinary characters does *)
Definition goes (st : cstate) : cstate := match st with IN_QUOTED_FIELD => IN_QUOTED_FIELD | _ => IN_FIELD end.
Lemma step_plain s c : special c = false ->
  process_char s (Some c) = match state s with EAT_CRNL => Raise CsvError | st => add_char s (goes st) c end.
Proof.
  intro P. apply special_false in P. destruct P as (_ & N1 & N2 & N3 & N4).
  unfold process_char, start_field. cbn [Csv_model.newline]. rewrite (proj2 (Z.eqb_neq c 10) N1), (proj2 (Z.eqb_neq c 13) N2), (proj2 (Z.eqb_neq c quotechar) N3), (proj2 (Z.eqb_neq c delimiter) N4).
  destruct (state s); reflexivity.
Qed.
Lemma feed_plain l : forall s, l <> [] -> Forall (fun c => special c = false) l ->
  feed s l = match state s with
             | EAT_CRNL => Raise CsvError
             | st => if Z.of_nat (length (field s) + length l) <=? field_limit then Ok (mkrd (goes st) (field s ++ l) (fields s)) else Raise CsvError
             end.
Proof.
  induction l as [|c l IH]; intros s N F; [contradiction|]. inversion F as [|? ? Pc Pl]; subst. cbn [feed].
  destruct (special_false c Pc) as (Z0 & _). rewrite (proj2 (Z.eqb_neq c 0) Z0). rewrite (step_plain s c Pc).
  destruct l as [|d l].
  - assert (G : (do s0 <- add_char s (goes (state s)) c; feed s0 []) =
      (if Z.of_nat (length (field s) + 1) <=? field_limit then Ok (mkrd (goes (state s)) (field s ++ [c]) (fields s)) else Raise CsvError)).
    { unfold add_char. destruct (Z.leb_spec field_limit (Z.of_nat (length (field s)))), (Z.leb_spec (Z.of_nat (length (field s) + 1)) field_limit); try lia; reflexivity. }
    destruct (state s); try exact G; reflexivity.
  - assert (G : (do s0 <- add_char s (goes (state s)) c; feed s0 (d :: l)) =
      (if Z.of_nat (length (field s) + length (c :: d :: l)) <=? field_limit then Ok (mkrd (goes (state s)) (field s ++ c :: d :: l) (fields s)) else Raise CsvError)).
    { unfold add_char. destruct (Z.leb_spec field_limit (Z.of_nat (length (field s)))).
      - cbn [bind]. destruct (Z.leb_spec (Z.of_nat (length (field s) + length (c :: d :: l))) field_limit) as [X|]; [cbn [length] in X; lia | reflexivity].
      - cbn [bind]. rewrite (IH _ ltac:(discriminate) Pl). cbn [state field fields]. rewrite app_length. cbn [length]. rewrite <- app_assoc.
        replace (length (field s) + 1 + S (length l))%nat with (length (field s) + S (S (length l)))%nat by lia.
        destruct (state s); reflexivity. }
    destruct (state s); try exact G; reflexivity.
Qed.
(* the cells grow, and none is ever dropped *)
Definition long (c : str) : Prop := field_limit < Z.of_nat (length (encoded c)).
Definition big (s : rd) : Prop := long (field s) \/ Exists long (fields s).
Lemma long_app a b : long a -> long (a ++ b).
Proof. unfold long. rewrite encoded_app, app_length. lia. Qed.
Lemma big_save s st : big s -> big (save_field s st).
Proof. intros [B|B]; right; cbn [save_field fields]; apply Exists_app; [right; constructor; exact B | left; exact B]. Qed.
Lemma big_step s c s' : process_char s c = Ok s' -> big s -> big s'.
Proof.
  assert (K : forall st, big s -> big (mkrd st (field s) (fields s))) by (intros st B; exact B).
  assert (A : forall st x s', add_char s st x = Ok s' -> big s -> big s').
  { intros st x s0. unfold add_char. destruct (_ <=? _); [discriminate|]. intro E; injection E as <-. intros [B|B]; [left; apply long_app, B | right; exact B]. }
  unfold process_char, start_field. intros E B.
  destruct (state s), c as [c|]; repeat match type of E with context [if ?x then _ else _] => destruct x end;
    first [ discriminate | (injection E as <-; first [exact B | exact (K _ B) | apply big_save; exact B]) | exact (A _ _ _ E B) ].
Qed.
Lemma big_feed l : forall s s', feed s l = Ok s' -> big s -> big s'.
Proof.
  induction l as [|c l IH]; intros s s' E B; cbn [feed] in E; [injection E as <-; exact B|]. destruct (c =? 0); [discriminate|].
  destruct (process_char s (Some c)) as [s1|] eqn:P; [|discriminate]. cbn [bind] in E. exact (IH _ _ E (big_step _ _ _ P B)).
Qed.
(* one character *)
Lemma errors s c : (exists s', process_char s c = Ok s') \/ process_char s c = Raise CsvError.
Proof.
  unfold process_char, start_field, add_char. destruct (state s), c as [c|]; repeat match goal with |- context [if ?x then _ else _] => destruct x end; eauto.
Qed.
Lemma enc_low s c : c < 128 -> process_char (enc s) (Some c) = rmap enc (process_char s (Some c)) \/
  process_char (enc s) (Some c) = Raise CsvError /\ forall s', process_char s (Some c) = Ok s' -> big s'.
Proof.
  intro L.
  assert (A : forall st, add_char (enc s) st c = rmap enc (add_char s st c) \/ add_char (enc s) st c = Raise CsvError /\ forall s', add_char s st c = Ok s' -> big s').
  { intro st. unfold add_char. cbn [enc field fields]. pose proof (encoded_len (field s)).
    destruct (Z.leb_spec field_limit (Z.of_nat (length (encoded (field s))))), (Z.leb_spec field_limit (Z.of_nat (length (field s)))); try lia.
    - left. reflexivity.
    - right. split; [reflexivity|]. intros s' E. injection E as <-. left. cbn [field]. unfold long. rewrite encoded_app, app_length. cbn [encoded flat_map]. rewrite units_low by exact L. cbn [length app]. lia.
    - left. cbn [rmap]. unfold enc. cbn [state field fields]. rewrite encoded_app. cbn [encoded flat_map]. rewrite units_low by exact L. reflexivity. }
  assert (Sv : forall st, save_field (enc s) st = enc (save_field s st)).
  { intro st. unfold save_field, enc. cbn [state field fields]. rewrite map_app. reflexivity. }
  unfold process_char, start_field. change (state (enc s)) with (state s).
  destruct (state s); repeat match goal with |- context [if ?x then _ else _] => destruct x end; try exact (A _);
    left; cbn [rmap]; first [reflexivity | rewrite Sv; reflexivity].
Qed.
Lemma enc_char s c : scalar c -> feed (enc s) (units c) = rmap enc (feed s [c]) \/
  feed (enc s) (units c) = Raise CsvError /\ forall s', feed s [c] = Ok s' -> big s'.
Proof.
  intro S. destruct (Z.ltb_spec c 128) as [L|H].
  - rewrite units_low by exact L. cbn [feed]. destruct (c =? 0); [left; reflexivity|].
    assert (Q : forall r : res rd, (do x <- r; Ok x) = r) by (intros [|]; reflexivity). rewrite !Q. apply enc_low; exact L.
  - destruct (units_high c H S) as [N F].
    rewrite (feed_plain (units c) (enc s) N) by (eapply Forall_impl; [|exact F]; apply high_plain).
    rewrite (feed_plain [c] s ltac:(discriminate)) by (constructor; [apply high_plain; exact H | constructor]).
    change (state (enc s)) with (state s). cbn [enc field fields length].
    pose proof (encoded_len (field s)). pose proof (units_len c).
    assert (G : (if Z.of_nat (length (encoded (field s)) + length (units c)) <=? field_limit then Ok (mkrd (goes (state s)) (encoded (field s) ++ units c) (map encoded (fields s))) else Raise CsvError) =
        rmap enc (if Z.of_nat (length (field s) + 1) <=? field_limit then Ok (mkrd (goes (state s)) (field s ++ [c]) (fields s)) else Raise CsvError) \/
        (if Z.of_nat (length (encoded (field s)) + length (units c)) <=? field_limit then Ok (mkrd (goes (state s)) (encoded (field s) ++ units c) (map encoded (fields s))) else Raise CsvError) = Raise CsvError /\
        forall s', (if Z.of_nat (length (field s) + 1) <=? field_limit then Ok (mkrd (goes (state s)) (field s ++ [c]) (fields s)) else Raise CsvError) = Ok s' -> big s').
    { destruct (Z.leb_spec (Z.of_nat (length (encoded (field s)) + length (units c))) field_limit), (Z.leb_spec (Z.of_nat (length (field s) + 1)) field_limit); try lia.
      - left. cbn [rmap]. unfold enc. cbn [state field fields]. rewrite encoded_app. cbn [encoded flat_map]. rewrite app_nil_r. reflexivity.
      - right. split; [reflexivity|]. intros s' E; injection E as <-. left. cbn [field]. unfold long. rewrite encoded_app, app_length. cbn [encoded flat_map]. rewrite app_nil_r. lia.
      - left. reflexivity. }
    destruct (state s); try exact G; left; reflexivity.
Qed.
Lemma feed_err l : forall s, (exists s', feed s l = Ok s') \/ feed s l = Raise CsvError.
Proof.
  induction l as [|c l IH]; intro s; [left; exists s; reflexivity|]. cbn [feed]. destruct (c =? 0); [right; reflexivity|].
  destruct (errors s (Some c)) as [[s1 ->] | ->]; [apply IH | right; reflexivity].
Qed.
Lemma enc_feed l : forall s, Forall scalar l -> feed (enc s) (encoded l) = rmap enc (feed s l) \/
  feed (enc s) (encoded l) = Raise CsvError /\ forall s', feed s l = Ok s' -> big s'.
Proof.
  induction l as [|c l IH]; intros s F; [left; reflexivity|]. inversion F as [|? ? Sc Sl]; subst.
  change (encoded (c :: l)) with (units c ++ encoded l). change (c :: l) with ([c] ++ l). rewrite !feed_app.
  destruct (enc_char s c Sc) as [E | [E B]]; rewrite E.
  - destruct (feed s [c]) as [s1|e]; cbn [rmap bind]; [apply IH; exact Sl | left; reflexivity].
  - right. split; [reflexivity|]. intros s' X. destruct (feed s [c]) as [s1|e]; [|discriminate]. cbn [bind] in X. exact (big_feed _ _ _ X (B s1 eq_refl)).
Qed.
Lemma enc_end s : process_char (enc s) None = rmap enc (process_char s None).
Proof.
  assert (Sv : forall st, save_field (enc s) st = enc (save_field s st)).
  { intro st. unfold save_field, enc. cbn [state field fields]. rewrite map_app. reflexivity. }
  unfold process_char, start_field. change (state (enc s)) with (state s). destruct (state s); cbn [Csv_model.newline rmap]; try rewrite Sv; reflexivity.
Qed.
Lemma enc_line s l : Forall scalar l -> feed_line (enc s) (encoded l) = rmap enc (feed_line s l) \/
  feed_line (enc s) (encoded l) = Raise CsvError /\ forall s', feed_line s l = Ok s' -> big s'.
Proof.
  intro F. unfold feed_line. destruct (enc_feed l s F) as [-> | [-> B]].
  - left. destruct (feed s l) as [s1|e]; cbn [rmap bind]; [apply enc_end | reflexivity].
  - right. split; [reflexivity|]. intros s' X. destruct (feed s l) as [s1|e]; [|discriminate]. cbn [bind] in X. exact (big_step _ _ _ X (B s1 eq_refl)).
Qed.
(* between records nothing is pending *)
Definition clear (s : rd) : Prop := match state s with START_RECORD | START_FIELD | EAT_CRNL => field s = [] | _ => True end.
Lemma clear_step s c s' : clear s -> process_char s c = Ok s' -> clear s'.
Proof.
  destruct s as [st f fs]. unfold clear at 1, process_char, start_field, add_char, save_field. cbn [state field fields]. intros C E.
  destruct st, c as [c|]; repeat match type of E with context [if ?x then _ else _] => destruct x end; try discriminate;
    injection E as <-; unfold clear, after_line; cbn [state field]; auto.
Qed.
Lemma clear_feed l : forall s s', clear s -> feed s l = Ok s' -> clear s'.
Proof.
  induction l as [|c l IH]; intros s s' C E; cbn [feed] in E; [injection E as <-; exact C|]. destruct (c =? 0); [discriminate|].
  destruct (process_char s (Some c)) as [s1|] eqn:P; [|discriminate]. cbn [bind] in E. exact (IH _ _ (clear_step _ _ _ C P) E).
Qed.
Lemma clear_line s l s' : clear s -> feed_line s l = Ok s' -> clear s' /\ (state s' = START_RECORD \/ state s' = IN_QUOTED_FIELD).
Proof.
  intros C. unfold feed_line. destruct (feed s l) as [s1|] eqn:F; [|discriminate]. cbn [bind]. intro P.
  split; [exact (clear_step _ _ _ (clear_feed _ _ _ C F) P)|]. destruct s1 as [st f fs]. unfold process_char, start_field, save_field in P. cbn [state field fields Csv_model.newline after_line] in P.
  destruct st; injection P as <-; auto.
Qed.
Lemma rows_err ls : forall s, snd (rows_from s ls None) = Ok tt \/ snd (rows_from s ls None) = Raise CsvError.
Proof.
  induction ls as [|l ls IH]; intro s; cbn [rows_from]; [destruct (_ || _); left; reflexivity|].
  assert (E : (exists s', feed_line s l = Ok s') \/ feed_line s l = Raise CsvError).
  { unfold feed_line. destruct (feed_err l s) as [[s1 ->] | ->]; [apply errors | right; reflexivity]. }
  destruct E as [[s1 ->] | ->]; [|right; reflexivity]. destruct (is_start (state s1)); [|apply IH]. specialize (IH reset). destruct (rows_from reset ls None). exact IH.
Qed.
(* too long a cell comes out in a row, if the rest can be read *)
Lemma big_rows ls : forall s rows, clear s -> state s = IN_QUOTED_FIELD -> big s -> rows_from s ls None = (rows, Ok tt) -> exists row r, rows = row :: r /\ Exists long row.
Proof.
  induction ls as [|l ls IH]; intros s rows C Q B E; cbn [rows_from] in E.
  - rewrite Q in E. cbn [is_quoted] in E. rewrite orb_true_r in E. injection E as <-. eexists _, _. split; [reflexivity|].
    apply Exists_app. destruct B as [B|B]; [right; constructor; exact B | left; exact B].
  - destruct (feed_line s l) as [s1|] eqn:F; [|discriminate]. destruct (clear_line _ _ _ C F) as [C1 St].
    assert (B1 : big s1). { unfold feed_line in F. destruct (feed s l) as [s2|] eqn:F2; [|discriminate]. exact (big_step _ _ _ F (big_feed _ _ _ F2 B)). }
    destruct St as [St|St]; rewrite St in E; cbn [is_start] in E.
    + destruct (rows_from reset ls None) as [rs o]. injection E as <- _. exists (fields s1), rs. split; [reflexivity|].
      destruct B1 as [B1|B1]; [|exact B1]. unfold clear in C1. rewrite St in C1. rewrite C1 in B1. unfold long in B1. cbn in B1. unfold field_limit in B1. lia.
    + exact (IH s1 rows C1 St B1 E).
Qed.
Definition cells (rows : list (list str)) : list (list str) := map (map encoded) rows.
Lemma enc_rows ls : forall s, clear s -> state s = START_RECORD \/ state s = IN_QUOTED_FIELD -> Forall (Forall scalar) ls ->
  let '(rows, o) := rows_from s ls None in let '(rows', o') := rows_from (enc s) (map encoded ls) None in
  (rows' = cells rows /\ o' = o) \/
  (o' = Raise CsvError /\ exists k, rows' = cells (firstn k rows) /\ (o = Ok tt -> exists row, nth_error rows k = Some row /\ Exists long row)).
Proof.
  induction ls as [|l ls IH]; intros s C St F; cbn [map rows_from].
  - change (state (enc s)) with (state s). cbn [enc field fields].
    assert (X : (match encoded (field s) with [] => false | _ => true end) = (match field s with [] => false | _ => true end)).
    { destruct (field s) as [|c q]; [reflexivity|]. destruct (encoded (c :: q)) eqn:E; [apply (proj1 (encoded_nil _)) in E; discriminate | reflexivity]. }
    rewrite X. destruct (_ || _); left; cbn; [rewrite map_app; split; reflexivity | split; reflexivity].
  - inversion F as [|? ? Fl Fr]; subst. destruct (enc_line s l Fl) as [-> | [-> B]].
    + destruct (feed_line s l) as [s1|e] eqn:L; cbn [rmap]; [|left; split; reflexivity]. destruct (clear_line _ _ _ C L) as [C1 St1].
      change (state (enc s1)) with (state s1). destruct (is_start (state s1)) eqn:I.
      * specialize (IH reset). change (enc reset) with reset in IH. destruct (rows_from reset ls None) as [rs o]. destruct (rows_from reset (map encoded ls) None) as [rs' o'].
        destruct (IH eq_refl (or_introl eq_refl) Fr) as [[-> ->] | [-> [k [-> H]]]].
        -- left. split; reflexivity.
        -- right. split; [reflexivity|]. exists (S k). split; [reflexivity | exact H].
      * apply IH; [exact C1 | | exact Fr]. destruct St1 as [-> | ->]; auto.
    + destruct (feed_line s l) as [s1|e] eqn:L.
      * destruct (clear_line _ _ _ C L) as [C1 St1]. specialize (B s1 eq_refl).
        destruct St1 as [St1|St1]; rewrite St1; cbn [is_start].
        -- destruct (rows_from reset ls None) as [rs o]. right. split; [reflexivity|]. exists 0%nat. split; [reflexivity|]. intro O. exists (fields s1). split; [reflexivity|].
           destruct B as [B|B]; [|exact B]. unfold clear in C1. rewrite St1 in C1. rewrite C1 in B. unfold long in B. cbn in B. unfold field_limit in B. lia.
        -- destruct (rows_from s1 ls None) as [rs o] eqn:R. right. split; [reflexivity|]. exists 0%nat. split; [reflexivity|]. intros ->.
           destruct (big_rows ls s1 rs C1 St1 B R) as (row & r & -> & X). exists row. split; [reflexivity | exact X].
      * right. split; [reflexivity|]. exists 0%nat. split; [reflexivity|]. discriminate.
Qed.

(** ** lines of bytes *)
Lemma bytes_skip l : forall cur s, Forall (fun b => b <> 10) l -> bytes_from cur (l ++ s) = bytes_from (rev l ++ cur) s.
Proof.
  induction l as [|b l IH]; intros cur s F; [reflexivity|]. inversion F as [|? ? N Fl]; subst. cbn [app bytes_from]. rewrite (proj2 (Z.eqb_neq b 10) N).
  rewrite IH by exact Fl. cbn [rev]. rewrite <- app_assoc. reflexivity.
Qed.
Lemma units_no_feed c : scalar c -> c <> 10 -> Forall (fun b => b <> 10) (units c).
Proof.
  intros S N. destruct (Z.ltb_spec c 128) as [L|H]; [rewrite units_low by exact L; repeat constructor; exact N|].
  eapply Forall_impl; [|exact (proj2 (units_high c H S))]. intros b B. cbn in B. lia.
Qed.
Lemma encoded_rev cur : forall c, rev (units c) ++ rev (encoded (rev cur)) = rev (encoded (rev (c :: cur))).
Proof. intro c. cbn [rev]. rewrite encoded_app, rev_app_distr. cbn [encoded flat_map]. rewrite app_nil_r. reflexivity. Qed.
Lemma byte_lines_from t : forall cur, Forall scalar t -> bytes_from (rev (encoded (rev cur))) (encoded t) = map encoded (bytes_from cur t).
Proof.
  induction t as [|c t IH]; intros cur F.
  - cbn [encoded flat_map bytes_from]. destruct cur as [|d cur]; [reflexivity|]. cbn [map].
    destruct (rev (encoded (rev (d :: cur)))) as [|x y] eqn:E; [|rewrite <- E, rev_involutive; reflexivity].
    apply (f_equal (@rev _)) in E. rewrite rev_involutive in E. apply (proj1 (encoded_nil _)) in E. apply (f_equal (@length _)) in E. rewrite rev_length in E. discriminate.
  - inversion F as [|? ? Sc St]; subst. change (encoded (c :: t)) with (units c ++ encoded t). cbn [bytes_from].
    destruct (Z.eqb_spec c 10) as [-> | N].
    + change (units 10) with [10]. cbn [app bytes_from]. change (10 =? 10) with true. cbv iota. cbn [map rev]. rewrite encoded_app, rev_involutive. rewrite <- (IH [] St). reflexivity.
    + rewrite bytes_skip by (apply units_no_feed; assumption). rewrite encoded_rev. apply IH. exact St.
Qed.
Lemma byte_lines_encoded t : Forall scalar t -> byte_lines (encoded t) = map encoded (byte_lines t).
Proof. apply (byte_lines_from t []). Qed.
Lemma bytes_fed t : forall cur, ~ In 13 t -> bytes_from cur t = lines_from cur t.
Proof.
  induction t as [|c t IH]; intros cur N; [reflexivity|]. assert (C : c <> 13) by (intro X; apply N; left; exact X).
  assert (N' : ~ In 13 t) by (intro X; apply N; right; exact X). cbn [bytes_from lines_from]. rewrite (proj2 (Z.eqb_neq c 13) C).
  destruct (Z.eqb_spec c 10) as [-> |]; rewrite IH by exact N'; reflexivity.
Qed.
Lemma byte_lines_scalar t : forall cur, Forall scalar t -> Forall scalar cur -> Forall (Forall scalar) (bytes_from cur t).
Proof.
  induction t as [|c t IH]; intros cur F G; cbn [bytes_from].
  - destruct cur; constructor; [|constructor]. apply Forall_rev. exact G.
  - inversion F; subst. destruct (c =? 10); [constructor; [apply Forall_rev; constructor; assumption|]|]; apply IH; auto.
Qed.
(** ** decoding the columns *)
Lemma decode_encoded c : Forall scalar c -> decode_col (encoded c) = Ok c.
Proof. intro F. unfold decode_col. rewrite <- (app_nil_r (encoded c)), utf8_encoded by exact F. cbn. rewrite app_nil_r. reflexivity. Qed.
Lemma decode_row row : Forall (Forall scalar) row -> mapM decode_col (map encoded row) = Ok row.
Proof. intro F. induction F as [|c row Fc F IH]; [reflexivity|]. cbn [map mapM]. rewrite decode_encoded by exact Fc. cbn [bind]. rewrite IH. reflexivity. Qed.
Lemma decode_cells rows o : Forall (Forall (Forall scalar)) rows -> decode_rows (cells rows) o = (rows, o).
Proof. intro F. induction F as [|row rows Fr F IH]; [reflexivity|]. cbn [cells map decode_rows]. rewrite decode_row by exact Fr. fold (cells rows). rewrite IH. reflexivity. Qed.
(* the cells hold characters of the text *)
Definition within (P : Z -> Prop) (s : rd) : Prop := Forall P (field s) /\ Forall (Forall P) (fields s).
Lemma within_step P s c s' : within P s -> (match c with Some c => P c | None => True end) -> process_char s c = Ok s' -> within P s'.
Proof.
  destruct s as [st f fs]. unfold within, process_char, start_field, add_char, save_field. cbn [state field fields]. intros [W1 W2] Pc E.
  destruct st, c as [c|]; repeat match type of E with context [if ?x then _ else _] => destruct x end; try discriminate;
    injection E as <-; cbn [field fields]; split; auto; try (apply Forall_app; split; auto).
Qed.
Lemma within_feed P l : forall s s', within P s -> Forall P l -> feed s l = Ok s' -> within P s'.
Proof.
  induction l as [|c l IH]; intros s s' W F E; cbn [feed] in E; [injection E as <-; exact W|]. inversion F; subst. destruct (c =? 0); [discriminate|].
  destruct (process_char s (Some c)) as [s1|] eqn:Q; [|discriminate]. cbn [bind] in E. apply (IH s1); auto. apply (within_step P s (Some c)); auto.
Qed.
Lemma within_rows P ls : forall s f, within P s -> Forall (Forall P) ls -> Forall (Forall (Forall P)) (fst (rows_from s ls f)).
Proof.
  induction ls as [|l ls IH]; intros s f W F; cbn [rows_from].
  - destruct f; [constructor|]. destruct (_ || _); [|constructor]. constructor; [|constructor]. apply Forall_app. split; [apply W | constructor; [apply W | constructor]].
  - inversion F as [|? ? Fl Fr]; subst. unfold feed_line. destruct (feed s l) as [s1|] eqn:E; cbn [bind]; [|constructor].
    pose proof (within_feed P l s s1 W Fl E) as W1. destruct (process_char s1 None) as [s2|] eqn:E2; [|constructor].
    pose proof (within_step P s1 None s2 W1 I E2) as W2. destruct (is_start (state s2)); [|apply IH; assumption].
    specialize (IH reset f). destruct (rows_from reset ls f). cbn [fst] in *. constructor; [apply W2 | apply IH; [split; constructor | exact Fr]].
Qed.
(** ** a carriage return before the line feed *)
Definition unquoted (s : rd) : Prop := state s <> IN_QUOTED_FIELD /\ state s <> QUOTE_IN_QUOTED_FIELD.
Lemma unquoted_step s c s' : unquoted s -> c <> Some 34 -> process_char s c = Ok s' -> unquoted s'.
Proof.
  destruct s as [st f fs]. unfold unquoted, process_char, start_field, add_char, save_field, after_line. cbn [state field fields]. intros [U1 U2] N E.
  destruct st, c as [c|]; try congruence; repeat match type of E with context [if ?x then _ else _] => destruct x eqn:? end; try discriminate;
    injection E as <-; cbn [state]; try (split; discriminate).
  all: exfalso; apply N; f_equal; match goal with H : (_ =? quotechar) = true |- _ => apply Z.eqb_eq in H; exact H end.
Qed.
Lemma unquoted_feed l : forall s s', unquoted s -> ~ In 34 l -> feed s l = Ok s' -> unquoted s'.
Proof.
  induction l as [|c l IH]; intros s s' U N E; cbn [feed] in E; [injection E as <-; exact U|]. destruct (c =? 0); [discriminate|].
  destruct (process_char s (Some c)) as [s1|] eqn:Q; [|discriminate]. cbn [bind] in E. apply (IH s1); auto; [|intro X; apply N; right; exact X].
  apply (unquoted_step s (Some c)); auto. intro X. apply N. left. congruence.
Qed.
Lemma feed_crlf s l : unquoted s -> ~ In 34 l -> feed_line s (l ++ [13; 10]) = feed_line s (l ++ [10]).
Proof.
  intros U N. unfold feed_line. rewrite !feed_app. destruct (feed s l) as [s1|] eqn:E; [|reflexivity]. cbn [bind].
  destruct (unquoted_feed l s s1 U N E) as [A B]. destruct s1 as [st f fs]. cbn [state] in A, B. destruct st; try congruence; reflexivity.
Qed.
Lemma feed_unquoted s l s' : unquoted s -> ~ In 34 l -> feed_line s l = Ok s' -> unquoted s'.
Proof.
  intros U N. unfold feed_line. destruct (feed s l) as [s1|] eqn:E; [|discriminate]. cbn [bind]. intro P.
  apply (unquoted_step s1 None s'); [exact (unquoted_feed l s s1 U N E) | discriminate | exact P].
Qed.
Definition eol (l l' : str) : Prop := l = l' \/ exists b, l = b ++ [13; 10] /\ l' = b ++ [10].
Lemma crlf_rows ls ls' f : Forall2 eol ls ls' -> forall s, unquoted s -> Forall (fun l => ~ In 34 l) ls -> rows_from s ls f = rows_from s ls' f.
Proof.
  intro F. induction F as [|l l' ls ls' E F IH]; intros s U N; [reflexivity|]. inversion N as [|? ? Nl Nr]; subst. cbn [rows_from].
  assert (X : feed_line s l = feed_line s l').
  { destruct E as [-> | [b [-> ->]]]; [reflexivity|]. apply feed_crlf; [exact U|]. intro I. apply Nl. apply in_or_app. left. exact I. }
  rewrite X. destruct (feed_line s l') as [s1|] eqn:L; [|reflexivity]. rewrite <- X in *.
  destruct (is_start (state s1)); [rewrite (IH reset); [reflexivity | split; discriminate | exact Nr]|]. apply IH; [|exact Nr].
  apply (feed_unquoted s l s1 U Nl). rewrite X. reflexivity.
Qed.
Lemma crlf_from n : forall t cur, (length t <= n)%nat -> (forall a b, t = a ++ 13 :: b -> exists q, b = 10 :: q) -> Forall2 eol (bytes_from cur t) (lines_from cur t).
Proof.
  induction n as [|n IH]; intros t cur L C.
  - destruct t; [|cbn in L; lia]. cbn. destruct cur; constructor; [left; reflexivity | constructor].
  - destruct t as [|c t]; [cbn; destruct cur; constructor; [left; reflexivity | constructor]|]. cbn [length] in L. cbn [bytes_from lines_from].
    assert (C' : forall a b, t = a ++ 13 :: b -> exists q, b = 10 :: q) by (intros a b ->; exact (C (c :: a) b eq_refl)).
    destruct (Z.eqb_spec c 10) as [-> | N].
    + constructor; [left; reflexivity|]. apply IH; [lia | exact C'].
    + destruct (Z.eqb_spec c 13) as [-> | M]; [|apply IH; [lia | exact C']].
      destruct (C [] t eq_refl) as [q ->]. cbn [bytes_from]. change (10 =? 10) with true. cbv iota. cbn [length] in L. constructor.
      * right. exists (rev cur). cbn [rev]. rewrite <- app_assoc. split; reflexivity.
      * apply IH; [lia|]. intros a b ->. exact (C' (10 :: a) b eq_refl).
Qed.
Lemma eol_refl ls : Forall2 eol ls ls.
Proof. induction ls; constructor; [left; reflexivity | assumption]. Qed.
Lemma lines_no q t : forall cur, ~ In q t -> ~ In q cur -> q <> 10 -> Forall (fun l => ~ In q l) (bytes_from cur t).
Proof.
  induction t as [|c t IH]; intros cur N M D; cbn [bytes_from].
  - destruct cur; constructor; [|constructor]. rewrite <- in_rev. exact M.
  - assert (N' : ~ In q t) by (intro X; apply N; right; exact X). assert (Q : c <> q) by (intro X; apply N; left; exact X).
    destruct (c =? 10); [constructor|]; [rewrite <- in_rev; intros [X|X]; [exact (Q X) | exact (M X)] | |]; apply IH; auto; intros [X|X]; auto.
Qed.
(* the rows of a text, cut as Python 2 and as Python 3 do *)
Lemma rows_cut t f : fed_lines t -> load_file (mksource (byte_lines t) f) = load_file (mksource (file_lines t) f).
Proof.
  unfold load_file. cbn [lines failure]. intros [N | [Q C]].
  - unfold byte_lines, file_lines. rewrite bytes_fed by exact N. reflexivity.
  - apply crlf_rows; [apply (crlf_from (length t)); [lia | exact C] | split; discriminate | apply lines_no; [exact Q | intros [] | lia]].
Qed.
Lemma rows_scalar t ls : Forall scalar t -> Forall (Forall scalar) ls -> Forall (Forall (Forall scalar)) (fst (load_file (mksource ls None))).
Proof. intros F G. apply within_rows; [split; constructor | exact G]. Qed.

(* no cell is longer than the limit *)
Definition held (s : rd) : Prop := Z.of_nat (length (field s)) <= field_limit /\ Forall (fun c => Z.of_nat (length c) <= field_limit) (fields s).
Lemma held_step s c s' : held s -> process_char s c = Ok s' -> held s'.
Proof.
  destruct s as [st f fs]. unfold held, process_char, start_field, add_char, save_field. cbn [state field fields]. intros [W1 W2] E.
  destruct st, c as [c|]; repeat match type of E with context [if ?x then _ else _] => destruct x eqn:? end; try discriminate;
    injection E as <-; cbn [field fields]; split; auto; try (apply Forall_app; split; auto); try (unfold field_limit; cbn; lia);
    match goal with H : (field_limit <=? _) = false |- _ => apply Z.leb_gt in H; rewrite app_length; cbn [length]; lia end.
Qed.
Lemma held_feed l : forall s s', held s -> feed s l = Ok s' -> held s'.
Proof.
  induction l as [|c l IH]; intros s s' W E; cbn [feed] in E; [injection E as <-; exact W|]. destruct (c =? 0); [discriminate|].
  destruct (process_char s (Some c)) as [s1|] eqn:Q; [|discriminate]. cbn [bind] in E. apply (IH s1); [apply (held_step s (Some c)); assumption | exact E].
Qed.
Lemma held_reset : held reset.
Proof. split; [cbn; unfold field_limit; lia | constructor]. Qed.
Lemma held_rows ls f : forall s, held s -> Forall (Forall (fun c => Z.of_nat (length c) <= field_limit)) (fst (rows_from s ls f)).
Proof.
  induction ls as [|l ls IH]; intros s W; cbn [rows_from].
  - destruct f; [constructor|]. destruct (_ || _); [|constructor]. constructor; [|constructor]. apply Forall_app. split; [apply W | constructor; [apply W | constructor]].
  - unfold feed_line. destruct (feed s l) as [s1|] eqn:E; cbn [bind]; [|constructor].
    pose proof (held_feed l s s1 W E) as W1. destruct (process_char s1 None) as [s2|] eqn:E2; [|constructor].
    pose proof (held_step s1 None s2 W1 E2) as W2. destruct (is_start (state s2)); [|apply IH; assumption].
    specialize (IH reset held_reset). destruct (rows_from reset ls f). cbn [fst] in *. constructor; [apply W2 | exact IH].
Qed.
Lemma cells_fit rows : Forall (Forall (fun c => Z.of_nat (length c) <= field_limit)) (cells rows) -> Forall (Forall fits) rows.
Proof.
  intro H. apply Forall_forall. intros row I. apply Forall_forall. intros c J. unfold fits. change 131072 with field_limit.
  apply (proj1 (Forall_forall _ _) (proj1 (Forall_forall _ _) H (map encoded row) (in_map _ _ _ I)) (encoded c) (in_map _ _ _ J)).
Qed.
(** ** files *)
Section Open.
  Variable dv : Z -> option Z.
  Variable disk : str -> option (list Z).
  Variable stdin : list Z.
  Variable given : str -> nat.
  Lemma open2_spec name encoding : name <> u "-" -> encoding = Some (u "utf8") \/ encoding = None ->
    open2 disk stdin given name encoding =
      match disk name with
      | Some b => Ok (match encoding with Some _ => utf8_source given name b | None => mksource (byte_lines b) None end)
      | None => Raise OSError
      end.
  Proof.
    intros N E. unfold open2, sopen. change (mem (u1 "r") (u "r")) with true. change (mem (u1 "w") (u "r")) with false. cbn [andb].
    assert (Q : eqb name (u "-") = false) by (destruct (eqb_spec name (u "-")); [contradiction | reflexivity]). rewrite Q.
    assert (O : forall st, (match st with PlainFile n _ | BZ2File n _ | GzipFile n _ => n = name | _ => False end) ->
      os_read disk st = match disk name with Some _ => None | None => Some OSError end) by (intros st X; destruct st; try contradiction; subst; reflexivity).
    destruct E as [-> | ->]; [change (eqb (u "utf8") (u "byte")) with false; cbv iota|];
      (destruct (endswith (u ".bz2") name); [|destruct (endswith (u ".gz") name)]); rewrite O by reflexivity; destruct (disk name) as [b|] eqn:D;
      cbn [stream_bytes handled snd fst bind]; unfold bytes_in; rewrite ?D; reflexivity.
  Qed.
  Lemma source_stored name t : Forall scalar t -> utf8_source given name (encoded t) = mksource (codec_lines t) None.
  Proof. intro F. unfold utf8_source. rewrite <- (app_nil_r (encoded t)), utf8_encoded by exact F. cbn. rewrite app_nil_r. reflexivity. Qed.
  (* both ways of cutting give the same lines up to white space at their ends *)
  Lemma cut_both t : regular t -> exists bs, tailed (codec_lines t) bs /\ tailed (file_lines t) bs.
  Proof.
    intro R. destruct (text_cut t) as (ps & C & _ & E). exists (map fst ps). rewrite E. split; [|apply fed_tailed].
    pose proof (plain_cut t ps C R) as C'. rewrite (coded_lines t ps C'). exact (kept_tailed t ps C').
  Qed.
  Lemma kanjidic_cut t self : regular t -> parse_kanjidic dv (codec_lines t) self = parse_kanjidic dv (file_lines t) self.
  Proof. intro R. destruct (cut_both t R) as (bs & A & B). rewrite (kanjidic_tailed dv _ _ A), (kanjidic_tailed dv _ _ B). reflexivity. Qed.
  Lemma kanjidic2_texts names ts : Forall (fun n => n <> u "-") names -> Forall2 (fun n t => disk n = Some (encoded t) /\ Forall scalar t /\ regular t) names ts ->
    kanjidic2 dv disk stdin given names = init dv (map file_lines ts).
  Proof.
    intros O F. unfold kanjidic2. destruct F as [|n t names ts S F]; [reflexivity|].
    assert (M : mapM (fun n => open2 disk stdin given n utf8_name) (n :: names) = Ok (map (fun t => mksource (codec_lines t) None) (t :: ts))).
    { assert (F' := Forall2_cons n t S F). clear S F. induction F' as [|m x ms xs (D & Sc & R) F' IH]; [reflexivity|]. inversion O as [|? ? Om Os]; subst.
      cbn [mapM map]. rewrite (open2_spec m utf8_name Om (or_introl eq_refl)), D. cbn [utf8_name bind]. rewrite source_stored by exact Sc. rewrite (IH Os). reflexivity. }
    rewrite M. cbn [bind]. assert (F' := Forall2_cons n t S F). clear M S F.
    assert (G : forall self, chain2 dv (map (fun t => mksource (codec_lines t) None) (t :: ts)) self = parse_kanjidic dv (concat (map file_lines (t :: ts))) self).
    { clear O. induction F' as [|m x ms xs (D & Sc & R) F' IH]; intro self; [reflexivity|]. cbn [map chain2 concat]. rewrite over_ok, parse_kanjidic_app, kanjidic_cut by exact R.
      destruct (parse_kanjidic dv (file_lines x) self); cbn [bind]; [apply IH | reflexivity]. }
    rewrite G. unfold init. cbn [map]. rewrite fold_app_concat. reflexivity.
  Qed.
  Lemma place2_text h name t : name <> u "-" -> disk name = Some (encoded t) -> Forall scalar t -> regular t ->
    place2 dv disk stdin given h name = from_file dv h (file_lines t).
  Proof.
    intros N D F R. unfold place2. rewrite (open2_spec name utf8_name N (or_introl eq_refl)), D. cbn [utf8_name bind]. rewrite source_stored by exact F. cbn [lines failure].
    rewrite over_ok. destruct (cut_both t R) as (bs & A & B). rewrite (from_file_tailed dv _ _ B), <- (from_file_tailed dv _ _ A). destruct (codec_lines t); reflexivity.
  Qed.
  Lemma coded2_text name t : disk name = Some (encoded t) -> Forall scalar t -> coded2 disk given name = Ok (mksource (codec_lines t) None).
  Proof. intros D F. unfold coded2. rewrite D. cbn [stream_codec fst handled]. rewrite source_stored by exact F. reflexivity. Qed.
  Lemma tables2 content name : stored disk content name -> (forall t, content name = Some t -> regular t) ->
    radk2 dv disk given name = radk_path dv content name /\ zhuyin2 disk given name = zhuyin_path content name /\
    pinyin2 disk given name = pinyin_path content name /\ all_pinyin2 disk given name = all_pinyin_path content name.
  Proof.
    intros [D S] R. unfold radk2, zhuyin2, pinyin2, all_pinyin2, radk_path, zhuyin_path, pinyin_path, all_pinyin_path, open_text.
    destruct (content name) as [t|] eqn:C; cbn [option_map] in D.
    - rewrite (coded2_text name t D (S t eq_refl)). cbn [bind]. rewrite !over_ok. destruct (cut_both t (R t eq_refl)) as (bs & A & B).
      unfold zhuyin_to_pinyin_table, pinyin_to_zhuyin_table, get_all_pinyin.
      rewrite (radkfile_tailed dv _ _ A), (radkfile_tailed dv _ _ B), (rows_tailed _ _ A), (rows_tailed _ _ B). repeat split.
    - unfold coded2. rewrite D. repeat split.
  Qed.
  Lemma load2_text name t : name <> u "-" -> disk name = Some (encoded t) -> Forall scalar t -> fed_lines t ->
    let '(rows, o) := load_file (mksource (file_lines t) None) in
    load2 disk stdin given name = (rows, o) /\ Forall (Forall fits) rows \/
    exists k, load2 disk stdin given name = (firstn k rows, Raise CsvError) /\ Forall (Forall fits) (firstn k rows) /\
      (o = Ok tt -> exists row, nth_error rows k = Some row /\ ~ Forall fits row).
  Proof.
    intros N D F L. rewrite <- (rows_cut t None L). unfold load2. rewrite (open2_spec name None N (or_intror eq_refl)), D. rewrite byte_lines_encoded by exact F.
    assert (G : Forall (Forall scalar) (byte_lines t)) by (apply byte_lines_scalar; [exact F | constructor]).
    pose proof (rows_scalar t (byte_lines t) F G) as W. pose proof (enc_rows (byte_lines t) reset eq_refl (or_introl eq_refl) G) as E. change (enc reset) with reset in E.
    pose proof (held_rows (map encoded (byte_lines t)) None reset held_reset) as V.
    unfold load_file in *. cbn [lines failure] in *. destruct (rows_from reset (byte_lines t) None) as [rows o]. destruct (rows_from reset (map encoded (byte_lines t)) None) as [rows' o'].
    cbn [fst] in W, V. destruct E as [[-> ->] | [-> [k [-> H]]]].
    - left. split; [apply decode_cells; exact W | apply cells_fit; exact V].
    - right. exists k. split; [apply decode_cells; apply Forall_forall; intros r I; apply (proj1 (Forall_forall _ _) W); rewrite <- (firstn_skipn k rows); apply in_or_app; left; exact I|].
      split; [apply cells_fit; exact V|]. intros O. destruct (H O) as (row & I & X). exists row. split; [exact I|]. intro A. apply Exists_exists in X. destruct X as (c & J & X).
      pose proof (proj1 (Forall_forall _ _) A c J) as Y. unfold fits in Y. unfold long, field_limit in X. lia.
  Qed.
End Open.

(** ** the encoder *)
Lemma low_bits k n x : (forallb (fun i => Z.lor k (Z.of_nat i) =? k + Z.of_nat i) (seq 0 n)) = true -> 0 <= x < Z.of_nat n -> Z.lor k x = k + x.
Proof.
  intros H R. rewrite forallb_forall in H. specialize (H (Z.to_nat x)). rewrite in_seq in H. assert (I : (0 <= Z.to_nat x < 0 + n)%nat) by lia.
  specialize (H I). apply Z.eqb_eq in H. rewrite Z2Nat.id in H by lia. exact H.
Qed.
Lemma code_units c : scalar c -> code_bytes c = units c.
Proof.
  intro S. assert (X : 0 <= c < 1114112) by (unfold scalar in S; lia). unfold code_bytes, units.
  rewrite !Z.shiftr_div_pow2 by lia. change 63 with (Z.ones 6). rewrite !Z.land_ones by lia. change (2 ^ 6) with 64. change (2 ^ 12) with 4096. change (2 ^ 18) with 262144.
  assert (M : forall x, Z.lor 128 (x mod 64) = 128 + x mod 64) by (intro x; apply (low_bits 128 64); [vm_compute; reflexivity | apply Z.mod_pos_bound; lia]).
  rewrite !M. destruct (Z.ltb_spec c 128); [reflexivity|]. destruct (Z.ltb_spec c 2048); [|destruct (Z.ltb_spec c 65536)]; f_equal.
  - apply (low_bits 192 32); [vm_compute; reflexivity|]. split; [apply Z.div_pos; lia | apply Z.div_lt_upper_bound; lia].
  - apply (low_bits 224 16); [vm_compute; reflexivity|]. split; [apply Z.div_pos; lia | apply Z.div_lt_upper_bound; lia].
  - apply (low_bits 240 8); [vm_compute; reflexivity|]. split; [apply Z.div_pos; lia | apply Z.div_lt_upper_bound; lia].
Qed.
Lemma encode_encoded t : Forall scalar t -> utf8_encode t = encoded t.
Proof. unfold utf8_encode, encoded. induction 1 as [|c t S F IH]; [reflexivity|]. cbn [flat_map]. rewrite code_units, IH by exact S. reflexivity. Qed.

(** ** writing a tree *)
Definition tame (c : Z) : Prop := scalar c /\ ~ exotic c /\ c <> 13.
Lemma solid_tame s : solid s -> Forall scalar s -> Forall tame s.
Proof.
  unfold solid. intros W S. rewrite forallb_forall in W. apply Forall_forall. intros c I. split; [exact (proj1 (Forall_forall _ _) S c I)|].
  assert (X : ~ any_break c). { intro B. specialize (W c I). rewrite (any_break_space c B) in W. discriminate. }
  split; [intro E; apply X; right; exact E | intro E; apply X; left; right; exact E].
Qed.
Lemma ascii_scalar s : forallb (fun c => (0 <=? c) && (c <? 128)) s = true -> Forall scalar s.
Proof. intro H. rewrite forallb_forall in H. apply Forall_forall. intros c I. specialize (H c I). apply andb_true_iff in H. unfold scalar. lia. Qed.
Lemma dec_scalar d : Forall scalar (dec d).
Proof. destruct (dec_chars d) as [F _]. revert F. apply Forall_impl. intros c [H | ->]; unfold scalar; [unfold digit_char in H |]; lia. Qed.
Lemma line_tame repr h a d : storable (at_ h a) -> written h a -> Forall tame (to_line repr (at_ h a) d).
Proof.
  intros ((_ & Wl) & R & A) [L Rd]. unfold to_line. rewrite A. change (u " ") with [32].
  assert (B : Forall tame [32]) by (constructor; [|constructor]; split; [unfold scalar; lia|split; [cbn; intuition lia | lia]]).
  repeat (apply Forall_app; split); try exact B; [apply solid_tame; [apply dec_solid | apply dec_scalar] | apply solid_tame; assumption|].
  destruct (reading (at_ h a)) as [r|]; cbn [show_reading]; [destruct R as [[_ Wr] _]; apply solid_tame; assumption|].
  apply solid_tame; [vm_compute; reflexivity | apply ascii_scalar; vm_compute; reflexivity].
Qed.
Lemma dump_tame repr h t fuel text : tree_at h t -> (forall a, In a (nodes t) -> storable (at_ h a) /\ written h a) -> (rsize t < fuel)%nat ->
  dump repr fuel h (root t) = Ok text -> Forall tame text.
Proof.
  intros T S B E. unfold dump in E. rewrite (walk_ok h fuel t T B) in E. cbn [rmap] in E. injection E as <-.
  apply Forall_forall. intros c I. apply in_flat_map in I. destruct I as [[d a] [I J]]. cbn [fst snd] in J.
  assert (K : In a (nodes t)) by (rewrite <- (pre_nodes t 0); apply in_map_iff; exists (d, a); split; [reflexivity | exact I]).
  apply in_app_or in J. destruct J as [J | [<- | []]]; [|split; [unfold scalar; lia | split; [cbn; intuition lia | lia]]].
  destruct (S a K) as [S1 S2]. exact (proj1 (Forall_forall _ _) (line_tame repr h a d S1 S2) c J).
Qed.
Lemma sopen_write2 name : name <> u "-" ->
  exists s, snd (sopen true (fun _ => true) (fun _ => None) name (u "w") (Some (u "utf8"))) = Ok (Writer (u "utf8"), s) /\
    (s = PlainFile name (u "w") \/ compressed name /\ (s = BZ2File name (u "w") \/ s = GzipFile name (u "w"))).
Proof.
  intro N. unfold sopen. change (mem (u1 "r") (u "w")) with false. change (eqb (u "utf8") (u "byte")) with false. cbn [andb]. cbv iota zeta.
  assert (Q : eqb name (u "-") = false) by (destruct (eqb_spec name (u "-")); [contradiction | reflexivity]). rewrite Q.
  destruct (endswith (u ".bz2") name) eqn:E; [|destruct (endswith (u ".gz") name) eqn:G]; eexists; (split; [reflexivity|]); auto.
  - right. split; [right; apply ends_bz2; exact E | auto].
  - right. split; [left; apply ends_gz; exact G | auto].
Qed.
Lemma out_tame sep text : line_separator sep -> Forall tame text -> Forall scalar (out_text sep text) /\ regular (out_text sep text).
Proof.
  intros L F. assert (X : Forall (fun c => scalar c /\ ~ exotic c) (out_text sep text)).
  { induction F as [|c text (S & E & _) F IH]; [constructor|]. cbn [out_text flat_map]. apply Forall_app. split; [|exact IH].
    destruct (c =? 10); [|constructor; [split; assumption | constructor]].
    destruct L as [-> | [-> | ->]]; repeat constructor; (unfold scalar; lia) || (cbn; intuition lia). }
  split; revert X; apply Forall_impl; tauto.
Qed.
Lemma dump2_round dv repr sep encode torn given sin stdin h t fuel h0 disk name :
  ascii_digits dv -> line_separator sep -> name <> u "-" -> (forall s, Forall scalar s -> encode s = Some (encoded s)) ->
  tree_at h t -> keyed h t -> (forall a, In a (nodes t) -> storable (at_ h a) /\ written h a) -> (rsize t < fuel)%nat ->
  exists b h' t', dump2 repr sep fuel h (root t) disk name = (dset name b disk, [], Ok tt) /\
    place2 dv (fun n => dget n (dset name b disk)) sin given h0 name = Ok (h', root t') /\
    tree_at h' t' /\ keyed h' t' /\ rosemap (details h') t' = rosemap (details h) t /\
    (ordinary name -> dump_bytes repr sep encode torn fuel h (root t) disk name = (dset name b disk, Ok tt) /\
                      place_bytes dv (fun n => dget n (dset name b disk)) stdin utf8 given h0 name = Ok (h', root t')).
Proof.
  intros D L N En T K S B.
  destruct (roundtrip repr dv D h t fuel h0 T K (fun a I => proj1 (S a I)) B) as (text & h' & t' & E & F & T' & K' & R & _).
  pose proof (dump_tame repr h t fuel text T S B E) as Tm.
  assert (N13 : ~ In 13 text) by (intro I; destruct (proj1 (Forall_forall _ _) Tm 13 I) as (_ & _ & X); congruence).
  destruct (out_tame sep text L Tm) as [So Ro].
  assert (S1 : Forall scalar text) by (revert Tm; apply Forall_impl; intros c X; apply X).
  assert (R1 : regular text) by (revert Tm; apply Forall_impl; intros c X; apply X).
  assert (Fo : from_file dv h0 (file_lines (out_text sep text)) = Ok (h', root t')) by (unfold file_lines; rewrite (out_lines sep L text [] N13); exact F).
  destruct (sopen_write2 name N) as (s & Q & W).
  assert (X : exists x, dump2 repr sep fuel h (root t) disk name = (dset name (encoded x) disk, [], Ok tt) /\ Forall scalar x /\ regular x /\
    from_file dv h0 (file_lines x) = Ok (h', root t') /\ (ordinary name -> x = out_text sep text)).
  { unfold dump2. rewrite Q, E. destruct W as [-> | [C W]].
    - exists (out_text sep text). rewrite encode_encoded by exact So. repeat split; auto.
    - exists text. destruct W as [-> | ->]; rewrite encode_encoded by exact S1; repeat split; auto; intros [O _]; contradiction. }
  destruct X as (x & Dx & Sx & Rx & Fx & Ox). exists (encoded x), h', t'. split; [exact Dx|]. split.
  - rewrite (place2_text dv _ sin given h0 name x N); [exact Fx | apply dget_dset_same | exact Sx | exact Rx].
  - repeat (split; [assumption|]). intro O. specialize (Ox O). subst x. split.
    + unfold dump_bytes, dump_path. rewrite sopen_ordinary by (exact O || reflexivity). rewrite E. rewrite dget_dset_same, En by exact So. reflexivity.
    + unfold place_bytes. rewrite open_bytes_ordinary, dget_dset_same by exact O. cbn [bind].
      rewrite (source_ok utf8 given name _ (out_text sep text)) by (rewrite <- (app_nil_r (encoded _)), utf8_encoded by exact So; cbn; rewrite app_nil_r; reflexivity).
      cbn [lines failure]. rewrite over_ok, Fo. destruct (file_lines (out_text sep text)); reflexivity.
Qed.

(** ** compressed files *)
Lemma open_bytes_compressed disk stdin locale given name b : compressed name -> disk name = Some b ->
  open_bytes disk stdin locale given name = Ok (BytesIn (byte_lines b)).
Proof.
  intros C D. unfold open_bytes. rewrite sopen_compressed by (exact C || reflexivity). unfold zipped.
  destruct (endswith (u ".bz2") name); cbn [os_read]; rewrite D; cbn [bind snd]; unfold bytes_in; rewrite D; reflexivity.
Qed.
Lemma compressed3 dv disk stdin locale given h name b : compressed name -> disk name = Some b -> b <> [] ->
  kanjidic_bytes dv disk stdin locale given [name] = Raise TypeError /\ load_bytes disk stdin locale given name = ([], Raise CsvError) /\
  exists e, place_bytes dv disk stdin locale given h name = Raise e.
Proof.
  intros C D N. pose proof (open_bytes_compressed disk stdin locale given name b C D) as O. destruct (byte_lines_cons b N) as (l & ls & E). rewrite E in O.
  unfold kanjidic_bytes, load_bytes, place_bytes. cbn [mapM]. rewrite O. cbn [bind chain_bytes csv_source]. repeat split. eexists. reflexivity.
Qed.

(** ** a long column *)
Lemma limit_row disk stdin sin given name c n : ordinary name -> 2048 <= c < 55296 -> Z.of_nat n <= 131072 < 3 * Z.of_nat n ->
  disk name = Some (encoded (repeat c n)) ->
  load_bytes disk sin utf8 given name = ([[repeat c n]], Ok tt) /\ load2 disk stdin given name = ([], Raise CsvError).
Proof.
  intros O C N D.
  assert (R : forall P : Z -> Prop, P c -> Forall P (repeat c n)) by (intros P X; apply Forall_forall; intros x I; apply repeat_spec in I; subst; exact X).
  assert (S : Forall scalar (repeat c n)) by (apply R; unfold scalar; lia).
  assert (F : fed_lines (repeat c n)) by (left; intro I; apply repeat_spec in I; lia).
  assert (M : repeat c n <> []) by (destruct n; [lia | discriminate]).
  assert (L : file_lines (repeat c n) = [repeat c n]) by (rewrite (text_lines (repeat c n) [(repeat c n, [])]); [unfold fed; cbn [map fst snd]; rewrite app_nil_r; reflexivity | constructor; [exact M | apply R; unfold Files_spec.newline; lia]]).
  assert (E : load_file (mksource (file_lines (repeat c n)) None) = ([[repeat c n]], Ok tt)).
  { rewrite L. apply (load_rows [repeat c n] [[repeat c n]] None). constructor; [|constructor].
    assert (X : Csv_spec.row_line (join [9] [repeat c n] ++ []) [repeat c n]).
    { constructor; [|discriminate | intro Z; injection Z as Z; exact (M Z) | constructor].
      constructor; [|constructor]. constructor; [apply R; unfold Csv_spec.plain_char; lia | destruct n; [lia | cbn [repeat hd]; change (u1 """") with 34; lia] | unfold Csv_spec.short; rewrite repeat_length; lia]. }
    rewrite app_nil_r in X. exact X. }
  assert (U : ~ fits (repeat c n)).
  { unfold fits. assert (X : forall k, Z.of_nat (length (encoded (repeat c k))) = 3 * Z.of_nat k).
    { induction k as [|k IH]; [reflexivity|]. cbn [repeat encoded flat_map]. rewrite app_length. fold (encoded (repeat c k)). rewrite Nat2Z.inj_add, IH.
      assert (Y : length (units c) = 3%nat) by (unfold units; destruct (Z.ltb_spec c 128); [lia|]; destruct (Z.ltb_spec c 2048); [lia|]; destruct (Z.ltb_spec c 65536); [reflexivity | lia]). rewrite Y. lia. }
    rewrite X. lia. }
  split.
  - unfold load_bytes. rewrite open_bytes_ordinary, D by exact O.
    rewrite (source_ok utf8 given name _ (repeat c n)) by (rewrite <- (app_nil_r (encoded _)), utf8_encoded by exact S; cbn; rewrite app_nil_r; reflexivity). exact E.
  - pose proof (load2_text disk stdin given name (repeat c n) (proj2 O) D S F) as X. rewrite E in X. destruct X as [[_ X] | (k & X & Y & _)].
    + exfalso. inversion X as [|? ? X1 _]; subst. inversion X1; subst. contradiction.
    + destruct k as [|k]; [exact X|]. exfalso. cbn [firstn] in Y. inversion Y as [|? ? X1 _]; subst. inversion X1; subst. contradiction.
Qed.
