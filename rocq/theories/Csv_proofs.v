From Verif Require Import Base PyText PyFmt Csv_model Csv_spec.

Definition closable (st : cstate) : Prop := st = START_FIELD \/ st = IN_FIELD \/ st = QUOTE_IN_QUOTED_FIELD.
Lemma feed_app s a b : feed s (a ++ b) = do s <- feed s a; feed s b.
Proof.
  revert s; induction a as [|c a IH]; intros s; [reflexivity|]; cbn [app feed].
  destruct (c =? 0); [reflexivity|]; destruct (process_char s (Some c)); cbn [bind]; [apply IH|reflexivity].
Qed.
Lemma add_ok v c st fs st' : short (v ++ [c]) -> add_char (mkrd st v fs) st' c = Ok (mkrd st' (v ++ [c]) fs).
Proof.
  unfold short, add_char, field_limit; cbn [field fields]; rewrite app_length; cbn [length]; intros L.
  destruct (Z.leb_spec 131072 (Z.of_nat (length v))); [lia|reflexivity].
Qed.
Lemma short_app v w : short (v ++ w) -> short v.
Proof. unfold short; rewrite app_length; lia. Qed.
Lemma plain_eqb c : plain_char c -> (c =? 0) = false /\ newline (Some c) = false /\ (c =? delimiter) = false.
Proof.
  unfold delimiter, newline; intros [A [B [C D]]]; destruct (Z.eqb_spec c 0), (Z.eqb_spec c 10), (Z.eqb_spec c 13), (Z.eqb_spec c 9); try contradiction; repeat split.
Qed.
(** inside a field *)
Lemma feed_in_field t : forall v fs, Forall plain_char t -> short (v ++ t) -> feed (mkrd IN_FIELD v fs) t = Ok (mkrd IN_FIELD (v ++ t) fs).
Proof.
  induction t as [|c t IH]; intros v fs P S; [rewrite app_nil_r; reflexivity|]; inversion P as [|? ? Pc Pt]; subst.
  destruct (plain_eqb c Pc) as [E0 [E1 E2]]; cbn [feed]; rewrite E0; unfold process_char; cbn [state]; rewrite E1, E2.
  change (c :: t) with ([c] ++ t) in S |- *; rewrite app_assoc in S |- *; rewrite add_ok by (apply (short_app _ t), S); cbn [bind]; apply IH; assumption.
Qed.
Lemma feed_quoted v : forall w fs r, Forall (fun c => c <> 0) v -> short (w ++ v) ->
  feed (mkrd IN_QUOTED_FIELD w fs) (doubled v ++ r) = feed (mkrd IN_QUOTED_FIELD (w ++ v) fs) r.
Proof.
  induction v as [|c v IH]; intros w fs r N S; [rewrite app_nil_r; reflexivity|]; inversion N as [|? ? Nc Nv]; subst.
  change (c :: v) with ([c] ++ v) in S; rewrite app_assoc in S; pose proof (short_app _ _ S) as S1.
  replace (w ++ c :: v) with ((w ++ [c]) ++ v) by (rewrite <- app_assoc; reflexivity).
  cbn [doubled flat_map]; destruct (Z.eqb_spec c (u1 """")) as [->|Nq]; cbn [app feed].
  - change (u1 """" =? 0) with false; cbv iota; unfold process_char; cbn [state]; change (u1 """" =? quotechar) with true; cbv iota; cbn [bind state].
    cbn [field fields]; rewrite add_ok by exact S1; cbn [bind]; apply IH; assumption.
  - destruct (Z.eqb_spec c 0) as [->|_]; [contradiction|]; unfold process_char; cbn [state].
    replace (c =? quotechar) with false by (symmetry; apply Z.eqb_neq; exact Nq); rewrite add_ok by exact S1; cbn [bind]; apply IH; assumption.
Qed.
Definition ready (st : cstate) (fs : list str) : Prop := st = START_FIELD \/ (st = START_RECORD /\ fs = []).
Lemma start_char st fs c : ready st fs -> newline (Some c) = false -> process_char (mkrd st [] fs) (Some c) = start_field (mkrd st [] fs) (Some c).
Proof. intros R N; unfold process_char; cbn [state]; destruct R as [->|[-> _]]; [reflexivity|]; rewrite N; reflexivity. Qed.
Lemma feed_cell text v st fs : cell text v -> ready st fs ->
  exists st', feed (mkrd st [] fs) text = Ok (mkrd st' v fs) /\ (closable st' \/ (text = [] /\ st' = st)).
Proof.
  intros C R; destruct C as [v P H S|v t N P H S].
  - destruct v as [|c v]; [exists st; split; [reflexivity|right; split; reflexivity]|].
    inversion P as [|? ? Pc Pv]; subst; destruct (plain_eqb c Pc) as [E0 [E1 E2]]; cbn [hd] in H.
    exists IN_FIELD; split; [|left; right; left; reflexivity]; cbn [feed]; rewrite E0, start_char by assumption.
    unfold start_field; rewrite E1, E2; replace (c =? quotechar) with false by (symmetry; apply Z.eqb_neq; exact H).
    change (c :: v) with ([c] ++ v) in S |- *; rewrite (add_ok []) by (apply (short_app _ v), S); cbn [bind app]; apply (feed_in_field v [c]); assumption.
  - change (u """") with [quotechar]; cbn [app feed]; change (quotechar =? 0) with false; cbv iota; rewrite start_char by (assumption || reflexivity).
    unfold start_field; change (newline (Some quotechar)) with false; change (quotechar =? quotechar) with true; cbv iota; cbn [bind field fields].
    rewrite feed_quoted by (try assumption; apply (short_app _ t), S); cbn [app feed]; change (quotechar =? 0) with false; cbv iota.
    unfold process_char; cbn [state]; change (quotechar =? quotechar) with true; cbv iota; cbn [bind field fields].
    destruct t as [|c t]; [exists QUOTE_IN_QUOTED_FIELD; rewrite app_nil_r; split; [reflexivity|left; right; right; reflexivity]|].
    inversion P as [|? ? Pc Pv]; subst; destruct (plain_eqb c Pc) as [E0 [E1 E2]]; cbn [hd] in H.
    exists IN_FIELD; split; [|left; right; left; reflexivity]; cbn [feed]; rewrite E0; unfold process_char; cbn [state]; rewrite E1, E2.
    replace (c =? quotechar) with false by (symmetry; apply Z.eqb_neq; exact H).
    change (c :: t) with ([c] ++ t) in S |- *; rewrite app_assoc in S |- *; rewrite add_ok by (apply (short_app _ t), S); cbn [bind]; apply feed_in_field; assumption.
Qed.
Lemma close_tab st v fs : closable st \/ ready st fs /\ v = [] -> process_char (mkrd st v fs) (Some 9) = Ok (mkrd START_FIELD [] (fs ++ [v])).
Proof. intros [[-> |[-> | ->]]|[[-> |[-> _]] ->]]; reflexivity. Qed.

Lemma feed_cells cells row : Forall2 cell cells row -> cells <> [] -> forall st fs, ready st fs ->
  exists st' v fs', feed (mkrd st [] fs) (join [9] cells) = Ok (mkrd st' v fs') /\ fs ++ row = fs' ++ [v] /\
    (closable st' \/ (cells = [[]] /\ st' = st)).
Proof.
  intros F; induction F as [|c v cells row C F IH]; [congruence|]; intros _ st fs R.
  destruct (feed_cell c v st fs C R) as [st' [E K]]; destruct cells as [|c2 cells].
  - inversion F; subst; cbn [join]; exists st', v, fs; split; [exact E|split; [reflexivity|]]; destruct K as [K|[-> ->]]; [left; exact K|right; split; reflexivity].
  - rewrite join_cons by discriminate; cbn [app]; rewrite feed_app, E; cbn [bind feed]; change (9 =? 0) with false; cbv iota.
    rewrite close_tab; [|destruct K as [K|[-> ->]]; [left; exact K|right; split; [exact R|inversion C; subst; reflexivity]]]; cbn [bind].
    destruct (IH ltac:(discriminate) START_FIELD (fs ++ [v]) (or_introl eq_refl)) as [st'' [w [fs' [E' [A K']]]]].
    exists st'', w, fs'; split; [exact E'|split; [rewrite <- A, <- app_assoc; reflexivity|]].
    destruct K' as [K'|[_ ->]]; left; [exact K'|left; reflexivity].
Qed.
Lemma feed_eat e : forall v fs, Forall (fun c => c = 10 \/ c = 13) e -> feed (mkrd EAT_CRNL v fs) e = Ok (mkrd EAT_CRNL v fs).
Proof. intros v fs F; induction F as [|c e [-> | ->] F IH]; [reflexivity| |]; cbn [feed]; exact IH. Qed.
Lemma close_line st v fs e : closable st -> Forall (fun c => c = 10 \/ c = 13) e ->
  feed_line (mkrd st v fs) e = Ok (mkrd START_RECORD [] (fs ++ [v])).
Proof.
  intros K F; unfold feed_line; destruct F as [|c e Hc F]; cbn [feed].
  - destruct K as [-> |[-> | ->]]; reflexivity.
  - replace (c =? 0) with false by (symmetry; apply Z.eqb_neq; lia).
    assert (P : process_char (mkrd st v fs) (Some c) = Ok (mkrd EAT_CRNL [] (fs ++ [v]))) by (destruct K as [-> |[-> | ->]], Hc as [-> | ->]; reflexivity).
    rewrite P; cbn [bind]; rewrite feed_eat by exact F; reflexivity.
Qed.
Lemma feed_row line row : row_line line row -> feed_line reset line = Ok (mkrd START_RECORD [] row).
Proof.
  intros [cells r e F N N1 E]; unfold feed_line; rewrite feed_app.
  destruct (feed_cells cells r F N START_RECORD [] (or_intror (conj eq_refl eq_refl))) as [st [v [fs [X [A K]]]]].
  unfold reset; rewrite X; cbn [bind]; destruct K as [K|[C _]]; [|contradiction].
  change (do s <- feed (mkrd st v fs) e; process_char s None) with (feed_line (mkrd st v fs) e).
  rewrite close_line by assumption; rewrite <- A; reflexivity.
Qed.
Lemma load_rows ls rows f : Forall2 row_line ls rows ->
  load_file (mksource ls f) = (rows, match f with Some e => Raise e | None => Ok tt end).
Proof.
  unfold load_file; cbn [Csv_model.lines failure]; intros F; induction F as [|l r ls rows R F IH]; cbn [rows_from].
  - destruct f; reflexivity.
  - rewrite (feed_row l r R); cbn [state is_start fields]; rewrite IH; reflexivity.
Qed.
Lemma row_line_of row : row <> [] -> row <> [[]] -> Forall text_field row -> row_line (line_of row) row.
Proof.
  intros N N1 F; apply Row_line; try assumption; [|constructor; [left; reflexivity|constructor]].
  clear N N1; induction F as [|v row [P [H S]] F IH]; constructor; [apply Cell_plain; assumption|exact IH].
Qed.
Lemma load_text_rows rows : Forall (fun row => row <> [] /\ row <> [[]] /\ Forall text_field row) rows ->
  load_file (mksource (map line_of rows) None) = (rows, Ok tt).
Proof.
  intros F; apply (load_rows (map line_of rows) rows None); induction F as [|r rows [N [N1 T]] F IH]; constructor; [apply row_line_of; assumption|exact IH].
Qed.
(** from the text of the file *)
Lemma load_text rows : Forall (fun row => row <> [] /\ row <> [[]] /\ Forall text_field row) rows ->
  load_file (mksource (file_lines (flat_map line_of rows)) None) = (rows, Ok tt).
Proof.
  intros F; unfold line_of at 1; replace (flat_map (fun row => join [9] row ++ [10]) rows) with (flat_map (fun l => l ++ [10]) (map (join [9]) rows)).
  2: { clear; induction rows as [|r rows IH]; [reflexivity|]; cbn [map flat_map]; rewrite IH; reflexivity. }
  rewrite file_lines_all, map_map; [apply load_text_rows, F|]; apply Forall_forall; intros l I; apply in_map_iff in I; destruct I as [row [<- I]].
  rewrite Forall_forall in F; destruct (F row I) as [_ [_ T]]; clear -T.
  induction T as [|v row [P _] T IH]; [intros c []|]; destruct row as [|w row].
  - cbn [join]; intros c I; rewrite Forall_forall in P; destruct (P c I) as [_ [A [B _]]]; split; assumption.
  - rewrite join_cons by discriminate; intros c I; rewrite !in_app_iff in I; destruct I as [I|[[<-|[]]|I]]; [|split; discriminate|apply IH, I].
    rewrite Forall_forall in P; destruct (P c I) as [_ [A [B _]]]; split; assumption.
Qed.
(** the exception of the source comes last *)
Lemma load_failure ls rows e : Forall2 row_line ls rows -> load_file (mksource ls (Some e)) = (rows, Raise e).
Proof. intros F; exact (load_rows ls rows (Some e) F). Qed.

(** quotes *)
Lemma quotes_lost : ~ forall rows, Forall (fun row => row <> [] /\ row <> [[]] /\ Forall claim_field row) rows ->
  fst (load_file (mksource (map line_of rows) None)) = rows.
Proof.
  intros H; specialize (H [[u "1"; u """a"; u "x"]; [u "2"; u "b"; u "y"]]).
  assert (F : Forall (fun row => row <> [] /\ row <> [[]] /\ Forall claim_field row) [[u "1"; u """a"; u "x"]; [u "2"; u "b"; u "y"]]).
  { repeat constructor; discriminate. }
  apply H in F; vm_compute in F; discriminate F.
Qed.
Lemma rows_swallowed : load_file (mksource (map line_of [[u "1"; u """a"; u "x"]; [u "2"; u "b"; u "y"]]) None) =
  ([[u "1"; u "a" ++ [9] ++ u "x" ++ [10] ++ u "2" ++ [9] ++ u "b" ++ [9] ++ u "y" ++ [10]]], Ok tt).
Proof. vm_compute; reflexivity. Qed.
