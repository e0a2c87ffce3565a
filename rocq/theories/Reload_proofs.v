(* Reload_proofs.v -- proofs about readers that are reloaded while in use *)
From Verif Require Import Base PyText PyFmt Csv_model Tanaka_model Tatoeba_model Tatoeba_spec Tatoeba_proofs Reload_model Reload_spec.

(* ------------------------------------------------------------------ *)
(** ** Interleavings *)
Section Calls.
  Context {St A : Type}.
  Local Notation prog := (prog St A).
  Implicit Types (p : prog) (ps : list prog) (s : St) (w : St * list prog) (sch : list nat).

  Lemma pput_same i p ps : (i < length ps)%nat -> nth_error (pput i p ps) i = Some p.
  Proof. revert i; induction ps as [|q ps IH]; intros [|i] L; cbn in *; try lia; [reflexivity|apply IH; lia]. Qed.
  Lemma pput_other i j p ps : i <> j -> nth_error (pput i p ps) j = nth_error ps j.
  Proof. revert i j; induction ps as [|q ps IH]; intros [|i] [|j] N; cbn; try reflexivity; [congruence|apply IH; congruence]. Qed.
  Lemma pput_Forall (P : prog -> Prop) i p ps : P p -> Forall P ps -> Forall P (pput i p ps).
  Proof. intros Hp F; revert i; induction F as [|q ps Hq F IH]; intros [|i]; cbn; constructor; auto. Qed.
  Lemma pturn_at w i p : nth_error (snd w) i = Some p ->
    fst (pturn w i) = fst (pstep (fst w) p) /\ nth_error (snd (pturn w i)) i = Some (snd (pstep (fst w) p)).
  Proof.
    intros E; unfold pturn; rewrite E; destruct (pstep (fst w) p) as [s q]; cbn [fst snd]; split; [reflexivity|].
    apply pput_same; apply nth_error_Some; rewrite E; discriminate.
  Qed.
  Lemma pturn_other w i j : i <> j -> nth_error (snd (pturn w i)) j = nth_error (snd w) j.
  Proof.
    intros N; unfold pturn; destruct (nth_error (snd w) i) as [p|]; [|reflexivity].
    destruct (pstep (fst w) p) as [s q]; cbn [snd]; apply pput_other, N.
  Qed.
  Lemma prun_app w a b : prun w (a ++ b) = prun (prun w a) b.
  Proof. unfold prun; apply fold_left_app. Qed.
  Lemma prun_cons w i b : prun w (i :: b) = prun (pturn w i) b.
  Proof. reflexivity. Qed.

  Lemma unmoved k sch : forall w, ~ In k sch -> nth_error (snd (prun w sch)) k = nth_error (snd w) k.
  Proof.
    induction sch as [|i sch IH]; intros w N; [reflexivity|]; rewrite prun_cons, IH by (intros X; apply N; right; exact X).
    apply pturn_other; intros ->; apply N; left; reflexivity.
  Qed.

  (** a call that has returned stays so *)
  Lemma ret_stays sch : forall w j r, nth_error (snd w) j = Some (Ret r) -> nth_error (snd (prun w sch)) j = Some (Ret r).
  Proof.
    induction sch as [|i sch IH]; intros w j r E; [exact E|]; rewrite prun_cons; apply IH.
    destruct (Nat.eq_dec i j) as [->|N]; [|rewrite pturn_other by exact N; exact E].
    rewrite (proj2 (pturn_at _ _ _ E)); reflexivity.
  Qed.
  (** a call that returns has taken its first step at some moment *)
  Lemma first_step sch : forall w j p r, nth_error (snd w) j = Some p -> (forall r, p <> Ret r) ->
    nth_error (snd (prun w sch)) j = Some (Ret r) ->
    exists pre post, sch = pre ++ j :: post /\ nth_error (snd (prun w pre)) j = Some p.
  Proof.
    induction sch as [|i sch IH]; intros w j p r E N F.
    - cbn [prun fold_left] in F; rewrite E in F; injection F as ->; elim (N r eq_refl).
    - destruct (Nat.eq_dec i j) as [->|Nj]; [exists [], sch; split; [reflexivity|exact E]|].
      rewrite prun_cons in F; destruct (IH (pturn w i) j p r) as [pre [post [-> X]]];
        [rewrite pturn_other by exact Nj; exact E|exact N|exact F|].
      exists (i :: pre), post; split; [reflexivity|exact X].
  Qed.
  Lemma one_look w sch j (f : St -> res A) r : nth_error (snd w) j = Some (Get (fun s => Ret (f s))) ->
    nth_error (snd (prun w sch)) j = Some (Ret r) ->
    exists pre post, sch = pre ++ j :: post /\ r = f (fst (prun w pre)).
  Proof.
    intros E F; destruct (first_step sch w j _ r E) as [pre [post [-> X]]]; [discriminate|exact F|].
    exists pre, post; split; [reflexivity|].
    rewrite prun_app, prun_cons in F; rewrite (ret_stays post _ j (f (fst (prun w pre)))) in F; [injection F as ->; reflexivity|].
    rewrite (proj2 (pturn_at _ _ _ X)); reflexivity.
  Qed.
  Lemma look w sch j (k : St -> prog) r : nth_error (snd w) j = Some (Get k) ->
    nth_error (snd (prun w sch)) j = Some (Ret r) ->
    exists pre post, sch = pre ++ j :: post /\ nth_error (snd (prun w (pre ++ [j]))) j = Some (k (fst (prun w pre))) /\
      fst (prun w (pre ++ [j])) = fst (prun w pre).
  Proof.
    intros E F; destruct (first_step sch w j _ r E) as [pre [post [-> X]]]; [discriminate|exact F|].
    exists pre, post; split; [reflexivity|]; rewrite prun_app; cbn [prun fold_left] in *.
    destruct (pturn_at _ _ _ X) as [Y Z]; split; [exact Z|exact Y].
  Qed.

  (** invariants *)
  Inductive safe (P : St -> Prop) : prog -> Prop :=
  | Safe_ret r : safe P (Ret r)
  | Safe_get k : (forall s, P s -> safe P (k s)) -> safe P (Get k)
  | Safe_set f k : (forall s, P s -> P (f s)) -> safe P k -> safe P (Set_ f k).
  Lemma safe_run (P : St -> Prop) sch : forall w, P (fst w) -> Forall (safe P) (snd w) -> P (fst (prun w sch)).
  Proof.
    induction sch as [|i sch IH]; intros w Hs F; [exact Hs|]; rewrite prun_cons.
    unfold pturn; destruct (nth_error (snd w) i) as [p|] eqn:E; [|apply IH; assumption].
    assert (Sp : safe P p) by (rewrite Forall_forall in F; apply F, nth_error_In with i, E).
    destruct (pstep (fst w) p) as [s q] eqn:T; apply IH; cbn [fst snd].
    - destruct Sp as [r|k Sk|f k Pf Sk]; cbn in T; injection T as <- <-; auto.
    - apply pput_Forall; [|exact F]; destruct Sp as [r|k Sk|f k Pf Sk]; cbn in T; injection T as <- <-; [constructor|auto|auto].
  Qed.

  (** calls that assign nothing *)
  Inductive reading : prog -> Prop :=
  | Reading_ret r : reading (Ret r)
  | Reading_get k : (forall s, reading (k s)) -> reading (Get k).
  (** the first steps of a call on its own *)
  Fixpoint steps (n : nat) (s : St) (p : prog) : St * prog :=
    match n with 0%nat => (s, p) | Datatypes.S n => let (s, p) := pstep s p in steps n s p end.
  Lemma steps_alone n : forall s p, alone (snd (steps n s p)) (fst (steps n s p)) = alone p s.
  Proof. induction n as [|n IH]; intros s p; [reflexivity|]; destruct p as [r|k|f k]; cbn [steps pstep]; rewrite IH; reflexivity. Qed.
  Lemma steps_ret n s p r : snd (steps n s p) = Ret r -> alone p s = (fst (steps n s p), r).
  Proof. intros E; rewrite <- (steps_alone n s p), E; reflexivity. Qed.
  (** where only one call assigns, the state is the one that call has reached *)
  Lemma solo sch : forall w j p, nth_error (snd w) j = Some p ->
    (forall i q, i <> j -> nth_error (snd w) i = Some q -> reading q) ->
    fst (prun w sch) = fst (steps (count_occ Nat.eq_dec sch j) (fst w) p) /\
    nth_error (snd (prun w sch)) j = Some (snd (steps (count_occ Nat.eq_dec sch j) (fst w) p)) /\
    (forall i q, i <> j -> nth_error (snd (prun w sch)) i = Some q -> reading q).
  Proof.
    induction sch as [|i sch IH]; intros w j p E R; [cbn; auto|]; rewrite prun_cons; cbn [count_occ].
    destruct (Nat.eq_dec i j) as [->|N].
    - destruct (pturn_at _ _ _ E) as [Es Ep]; cbn [steps].
      destruct (IH (pturn w j) j _ Ep) as [X [Y Z]].
      { intros i q Ni Hq; rewrite pturn_other in Hq by congruence; apply (R i q Ni Hq). }
      rewrite Es in X, Y; destruct (pstep (fst w) p) as [s q]; auto.
    - destruct (nth_error (snd w) i) as [q|] eqn:Eq.
      + assert (Rq := R i q N Eq).
        assert (Es : fst (pturn w i) = fst w) by (rewrite (proj1 (pturn_at _ _ _ Eq)); destruct Rq; reflexivity).
        destruct (IH (pturn w i) j p) as [X [Y Z]].
        * rewrite pturn_other by exact N; exact E.
        * intros i' q' Ni Hq; destruct (Nat.eq_dec i i') as [<-|Ni']; [|rewrite pturn_other in Hq by exact Ni'; apply (R i' q' Ni Hq)].
          rewrite (proj2 (pturn_at _ _ _ Eq)) in Hq; injection Hq as <-; destruct Rq as [r|k Rk]; [constructor|apply Rk].
        * rewrite Es in X, Y; auto.
      + assert (T : pturn w i = w) by (unfold pturn; rewrite Eq; reflexivity); rewrite T; apply IH; assumption.
  Qed.
End Calls.

(* ------------------------------------------------------------------ *)
(** ** Sentences *)
Section Sentences.
  Variable dv : Z -> option Z.
  Context {date : Type}.
  Variable strptime : str -> res date.
  Variable filter_row : list str -> bool.
  Local Notation tables := (tables date).
  Local Notation prog := (prog (@attrs date) (@answer date)).
  Local Notation row_prog := (row_prog dv strptime filter_row).
  Local Notation rows_prog := (rows_prog dv strptime filter_row).
  Local Notation read_row := (read_row dv strptime filter_row).
  Local Notation read_rows := (read_rows dv strptime filter_row).
  Local Notation reload_prog := (reload_prog dv strptime filter_row).
  Local Notation call_prog := (call_prog dv strptime filter_row).

  Definition keep_prog (row : list str) (t : tables) (next : tables -> prog) : prog :=
    match read_row None row t with Ok t' => next t' | Raise e => Ret (Raise e) end.
  Lemma row_prog_eq row t next : filter_row row = false -> row_prog row t next =
    match firstn 3 row with
    | [sent_id; lang; text] =>
        Get (fun s => match a_languages s with
          | None => keep_prog row t next
          | Some _ => Get (fun s => match a_languages s with
              | None => Ret (Raise TypeError)
              | Some ls => if mem lang ls then keep_prog row t next else next t
              end)
          end)
    | _ => Ret (Raise ValueError)
    end.
  Proof.
    intros F; unfold Reload_model.row_prog, keep_prog, Tatoeba_model.read_row; rewrite F.
    destruct (firstn 3 row) as [|i [|l [|x [|]]]]; try reflexivity.
    destruct (int_ dv i) as [n|e]; cbn [bind]; [|reflexivity].
    destruct (detailed_info_dict t) as [dd|]; [|reflexivity].
    destruct (firstn 3 (skipn 3 row)) as [|a [|b [|c [|]]]]; try reflexivity.
    destruct (parse_date strptime b) as [b'|]; cbn [bind]; [|reflexivity].
    destruct (parse_date strptime c) as [c'|]; reflexivity.
  Qed.
  Lemma read_row_some ls i lang x row t : filter_row row = false -> firstn 3 row = [i; lang; x] ->
    read_row (Some ls) row t = if mem lang ls then read_row None row t else Ok t.
  Proof. intros F E; unfold Tatoeba_model.read_row; rewrite F, E; destruct (mem lang ls); reflexivity. Qed.
  Lemma read_row_bad l row t : filter_row row = false -> (forall i lang x, firstn 3 row <> [i; lang; x]) -> read_row l row t = Raise ValueError.
  Proof.
    intros F N; unfold Tatoeba_model.read_row; rewrite F; destruct (firstn 3 row) as [|i [|lang [|x [|]]]]; try reflexivity.
    elim (N _ _ _ eq_refl).
  Qed.
  Lemma three_dec (row : list str) : (exists i lang x, firstn 3 row = [i; lang; x]) \/ (forall i lang x, firstn 3 row <> [i; lang; x]).
  Proof. destruct (firstn 3 row) as [|i [|lang [|x [|]]]]; [right; intros; discriminate..|left; eauto|right; intros; discriminate]. Qed.
  Lemma row_prog_bad row t next : filter_row row = false -> (forall i lang x, firstn 3 row <> [i; lang; x]) -> row_prog row t next = Ret (Raise ValueError).
  Proof.
    intros F N; rewrite row_prog_eq by exact F; destruct (firstn 3 row) as [|i [|lang [|x [|]]]]; try reflexivity.
    elim (N _ _ _ eq_refl).
  Qed.

  (** nothing in between: the sequential model *)
  Lemma row_alone row t next s : alone (row_prog row t next) s =
    match read_row (a_languages s) row t with Ok t' => alone (next t') s | Raise e => (s, Raise e) end.
  Proof.
    destruct (filter_row row) eqn:F; [unfold Reload_model.row_prog, Tatoeba_model.read_row; rewrite F; reflexivity|].
    destruct (three_dec row) as [[i [lang [x E]]]|N].
    - rewrite row_prog_eq by exact F; rewrite E; cbn [alone].
      destruct (a_languages s) as [ls|] eqn:L; cbn [alone].
      + rewrite L, (read_row_some _ _ _ _ _ _ F E); destruct (mem lang ls); [|reflexivity].
        unfold keep_prog; destruct (read_row None row t); reflexivity.
      + unfold keep_prog; destruct (read_row None row t); reflexivity.
    - rewrite row_prog_bad, read_row_bad by assumption; reflexivity.
  Qed.
  Lemma rows_alone rows : forall t next s, alone (rows_prog rows t next) s =
    match read_rows (a_languages s) rows t with Ok t' => alone (next t') s | Raise e => (s, Raise e) end.
  Proof.
    induction rows as [|row rows IH]; intros t next s; [reflexivity|]; cbn [Reload_model.rows_prog Tatoeba_model.read_rows].
    rewrite row_alone; destruct (read_row (a_languages s) row t) as [t'|e]; cbn [bind]; [apply IH|reflexivity].
  Qed.
  Definition done {B} (o : res B) : res (@answer date) := rmap (fun _ => Done) o.
  Lemma reload_alone (r : reader date) name src : alone (reload_prog name src) (attrs_of r) =
    let (r', o) := set_sentences dv strptime filter_row r name src in (attrs_of r', done o).
  Proof.
    unfold Reload_model.reload_prog, set_sentences, read_sentences; cbn [alone].
    destruct src as [[|row rows] [[]|e]]; try reflexivity.
    - destruct (Nat.eqb (length row) 3); [|destruct (Nat.eqb (length row) 6)]; cbn [bind]; [| |reflexivity];
        rewrite rows_alone; change (a_languages (set_a_src name (attrs_of r))) with (languages r);
        destruct (read_rows (languages r) (row :: rows) _) as [t|e]; reflexivity.
    - destruct (Nat.eqb (length row) 3); [|destruct (Nat.eqb (length row) 6)]; cbn [bind]; [| |reflexivity];
        rewrite rows_alone; change (a_languages (set_a_src name (attrs_of r))) with (languages r);
        destruct (read_rows (languages r) (row :: rows) _) as [t|e']; reflexivity.
  Qed.
  (** whatever there was before *)
  Lemma reload_repairs (r : reader date) s name src r' : languages r = a_languages s ->
    set_sentences dv strptime filter_row r name src = (r', Ok tt) -> alone (reload_prog name src) s = (attrs_of r', Ok Done).
  Proof.
    intros El; unfold Reload_model.reload_prog, set_sentences, read_sentences; cbn [alone].
    destruct src as [[|row rows] [[]|e]]; try discriminate.
    - destruct (Nat.eqb (length row) 3); [|destruct (Nat.eqb (length row) 6)]; cbn [bind]; [| |discriminate];
        rewrite rows_alone; change (a_languages (set_a_src name s)) with (a_languages s); rewrite <- El;
        destruct (read_rows (languages r) (row :: rows) _) as [t|e]; intros E; try discriminate; injection E as <-;
        unfold publish, attrs_of; cbn; rewrite El; reflexivity.
    - destruct (Nat.eqb (length row) 3); [|destruct (Nat.eqb (length row) 6)]; cbn [bind]; [| |discriminate];
        destruct (read_rows (languages r) (row :: rows) _) as [t|e']; discriminate.
  Qed.
  Lemma ask_alone (r : reader date) q : alone (question_prog q) (attrs_of r) = (attrs_of r, ask r q).
  Proof.
    destruct q as [i|i|i| |]; cbn [question_prog alone ask attrs_of a_language_dict a_sentence_dict a_detailed_info_dict a_src];
      unfold attribute, language, sentence, getitem, details, sentence_ids, tables_of; destruct (loaded r) as [t|] eqn:Lr; cbn [option_map of_option bind rmap];
      try reflexivity.
    - unfold dgetitem; destruct (dget i (sentence_dict t)) as [x|]; reflexivity.
    - destruct (detailed_info_dict t) as [dd|] eqn:D; cbn [alone a_detailed_info_dict attrs_of option_map]; [|reflexivity].
      rewrite Lr; cbn [option_map of_option bind]; rewrite ?D; cbn [of_option bind]; destruct (dget i dd); reflexivity.
  Qed.

  (** what reloads may read *)
  Inductive reads (L : option (list str) -> Prop) : list (list str) -> tables -> tables -> Prop :=
  | Reads_nil t : reads L [] t t
  | Reads_cons l row rows t t' t'' : L l -> read_row l row t = Ok t' -> reads L rows t' t'' -> reads L (row :: rows) t t''.
  Lemma reads_one l0 rows t t' : reads (eq l0) rows t t' -> read_rows l0 rows t = Ok t'.
  Proof. induction 1 as [t|l row rows t t' t'' <- E R IH]; [reflexivity|]; cbn [Tatoeba_model.read_rows]; rewrite E; exact IH. Qed.
  Definition loads (L : option (list str) -> Prop) (src : rows_of) (t : tables) : Prop :=
    exists row rows, src = (row :: rows, Ok tt) /\
      ((length row = 3%nat /\ reads L (row :: rows) (mktables [] [] None) t) \/
       (length row = 6%nat /\ reads L (row :: rows) (mktables [] [] (Some [])) t)).
  Lemma loads_one l0 src t : loads (eq l0) src t -> read_sentences dv strptime filter_row l0 src = Ok t.
  Proof.
    intros [row [rows [-> [[E R]|[E R]]]]]; unfold read_sentences; rewrite E; apply reads_one in R; cbn [Nat.eqb bind]; rewrite R; reflexivity.
  Qed.

  Section Invariant.
    Variable L : option (list str) -> Prop.
    Variable good : option tables -> Prop.
    Definition inv (s : @attrs date) : Prop := L (a_languages s) /\
      (exists o, good o /\ a_language_dict s = option_map language_dict o) /\
      (exists o, good o /\ a_sentence_dict s = option_map sentence_dict o) /\
      (exists o, good o /\ a_detailed_info_dict s = option_map detailed_info_dict o).
    Lemma row_safe row t next : (forall l t', L l -> read_row l row t = Ok t' -> safe inv (next t')) ->
      (exists l, L l) -> safe inv (row_prog row t next).
    Proof.
      intros N [l0 L0]; destruct (filter_row row) eqn:F.
      { assert (E : read_row l0 row t = Ok t) by (unfold Tatoeba_model.read_row; rewrite F; reflexivity).
        unfold Reload_model.row_prog; rewrite F; exact (N _ _ L0 E). }
      destruct (three_dec row) as [[i [lang [x E]]]|B]; [|rewrite row_prog_bad by assumption; constructor].
      rewrite row_prog_eq by exact F; rewrite E; constructor; intros s [Ls _].
      destruct (a_languages s) as [ls|].
      - constructor; intros s' [Ls' _]; destruct (a_languages s') as [ls'|]; [|constructor].
        assert (R := read_row_some ls' i lang x row t F E); destruct (mem lang ls'); [|exact (N _ _ Ls' R)].
        unfold keep_prog; destruct (read_row None row t) as [t'|]; [|constructor]; exact (N _ _ Ls' R).
      - unfold keep_prog; destruct (read_row None row t) as [t'|] eqn:R; [|constructor]; exact (N _ _ Ls R).
    Qed.
    Lemma rows_safe rows : forall t next, (forall t', reads L rows t t' -> safe inv (next t')) -> (exists l, L l) -> safe inv (rows_prog rows t next).
    Proof.
      induction rows as [|row rows IH]; intros t next N X; [apply N; constructor|]; cbn [Reload_model.rows_prog].
      apply row_safe; [|exact X]; intros l t' Ll E; apply IH; [|exact X]; intros t'' R; apply N; econstructor; eassumption.
    Qed.
    Lemma reload_safe name src : (forall t, loads L src t -> good (Some t)) -> (exists l, L l) -> safe inv (reload_prog name src).
    Proof.
      intros G X; unfold Reload_model.reload_prog; constructor; [intros s H; exact H|].
      destruct src as [[|row rows] [[]|e]]; try constructor.
      - assert (Pub : forall t, good (Some t) -> safe inv (publish t)).
        { intros t Gt; unfold publish; repeat constructor; destruct H as [A [B [C D]]]; eauto. }
        destruct (Nat.eqb_spec (length row) 3) as [E3|N3]; [|destruct (Nat.eqb_spec (length row) 6) as [E6|N6]; [|constructor]].
        + apply (rows_safe (row :: rows)); [|exact X]; intros t R; apply Pub, G; exists row, rows; auto.
        + apply (rows_safe (row :: rows)); [|exact X]; intros t R; apply Pub, G; exists row, rows; auto.
      - destruct (Nat.eqb (length row) 3); [|destruct (Nat.eqb (length row) 6); [|constructor]];
          (apply (rows_safe (row :: rows)); [|exact X]; intros; constructor).
    Qed.
  End Invariant.
  Lemma question_reading q : reading (question_prog q : prog).
  Proof.
    destruct q; cbn [question_prog]; repeat (constructor; intros); try constructor.
    destruct (a_detailed_info_dict s) as [[d|]|]; repeat (constructor; intros).
  Qed.
  Lemma reading_safe {St A} (P : St -> Prop) (p : Reload_model.prog St A) : reading p -> safe P p.
  Proof. induction 1; constructor; auto. Qed.

  (** all calls *)
  Definition goods (r0 : reader date) (calls : list call) (o : option tables) : Prop :=
    o = loaded r0 \/ exists name src t, In (Reload name src) calls /\ loads (held r0 calls) src t /\ o = Some t.
  Lemma calls_inv (r0 : reader date) calls sch : inv (held r0 calls) (goods r0 calls) (fst (prun (attrs_of r0, map call_prog calls) sch)).
  Proof.
    apply safe_run; cbn [fst snd].
    - split; [left; reflexivity|]; repeat split; exists (loaded r0); (split; [left; reflexivity|reflexivity]).
    - apply Forall_forall; intros p I; apply in_map_iff in I; destruct I as [c [<- I]]; destruct c as [q|l|name src]; cbn [Reload_model.call_prog].
      + apply reading_safe, question_reading.
      + constructor; [|constructor]; intros s [A B]; split; [right; exact I|exact B].
      + apply reload_safe; [|exists (languages r0); left; reflexivity]; intros t Lt; right; eauto 6.
  Qed.
  Lemma nth_call calls j c (s : @attrs date) : nth_error calls j = Some c -> nth_error (snd (s, map call_prog calls)) j = Some (call_prog c).
  Proof. intros E; cbn [snd]; rewrite nth_error_map, E; reflexivity. Qed.

  (** without assignments to languages *)
  Lemma held_one (r0 : reader date) calls l : existsb sets_languages calls = false -> held r0 calls l -> languages r0 = l.
  Proof.
    intros N [->|I]; [reflexivity|]; assert (X : existsb sets_languages calls = true) by (apply existsb_exists; eexists; split; [exact I|reflexivity]); congruence.
  Qed.
  Lemma reads_mono (L L' : option (list str) -> Prop) rows t t' : (forall l, L l -> L' l) -> reads L rows t t' -> reads L' rows t t'.
  Proof. intros M; induction 1; econstructor; eauto. Qed.
  Lemma loads_mono (L L' : option (list str) -> Prop) src t : (forall l, L l -> L' l) -> loads L src t -> loads L' src t.
  Proof. intros M [row [rows [E [[A B]|[A B]]]]]; exists row, rows; (split; [exact E|]); [left|right]; (split; [exact A|eapply reads_mono; eassumption]). Qed.
  Lemma goods_one (r0 : reader date) calls o : existsb sets_languages calls = false -> goods r0 calls o ->
    exists r, one_of dv strptime filter_row r0 calls r /\ loaded r = o.
  Proof.
    intros N [->|[name [src [t [I [Lt ->]]]]]]; [exists r0; split; [left; reflexivity|reflexivity]|].
    exists (mkreader (languages r0) name (Some t)); split; [|reflexivity]; right; exists name, src; split; [exact I|].
    assert (E : read_sentences dv strptime filter_row (languages r0) src = Ok t) by (apply loads_one; eapply loads_mono; [intros l; apply held_one, N|exact Lt]).
    unfold set_sentences; rewrite E; reflexivity.
  Qed.

  Local Notation world r0 calls := (attrs_of r0, map call_prog calls).
  Lemma one_file (r0 : reader date) calls sch j q r : existsb sets_languages calls = false ->
    nth_error calls j = Some (Ask q) -> (match q with Language _ | Sentence _ | Ids => True | _ => False end) ->
    nth_error (snd (prun (world r0 calls) sch)) j = Some (Ret r) ->
    exists r', one_of dv strptime filter_row r0 calls r' /\ r = ask r' q.
  Proof.
    intros N E Q F; apply (nth_call calls j _ (attrs_of r0)) in E.
    destruct q as [i|i|i| |]; try contradiction; cbn [Reload_model.call_prog question_prog] in E;
      destruct (one_look _ sch j _ r E F) as [pre [post [-> ->]]];
      destruct (calls_inv r0 calls pre) as [_ [[o1 [G1 E1]] [[o2 [G2 E2]] _]]].
    - destruct (goods_one r0 calls o1 N G1) as [r' [O <-]]; exists r'; split; [exact O|]; rewrite E1; cbn [ask].
      unfold attribute, language, tables_of; destruct (loaded r'); reflexivity.
    - destruct (goods_one r0 calls o2 N G2) as [r' [O <-]]; exists r'; split; [exact O|]; rewrite E2; cbn [ask].
      unfold attribute, sentence, getitem, tables_of; destruct (loaded r') as [t|]; [|reflexivity]; cbn [option_map of_option bind].
      unfold dgetitem; destruct (dget i (sentence_dict t)); reflexivity.
    - destruct (goods_one r0 calls o2 N G2) as [r' [O <-]]; exists r'; split; [exact O|]; rewrite E2; cbn [ask].
      unfold attribute, sentence_ids, tables_of; destruct (loaded r'); reflexivity.
  Qed.
  Lemma details_answer (r0 : reader date) calls sch j i r : existsb sets_languages calls = false ->
    nth_error calls j = Some (Ask (Details i)) ->
    nth_error (snd (prun (world r0 calls) sch)) j = Some (Ret r) ->
    (exists r', one_of dv strptime filter_row r0 calls r' /\ r = ask r' (Details i)) \/
    (r = Raise TypeError /\
     (exists r1, one_of dv strptime filter_row r0 calls r1 /\ ask r1 (Details i) <> Raise MissingDataError) /\
     exists r2, one_of dv strptime filter_row r0 calls r2 /\ ask r2 (Details i) = Raise MissingDataError).
  Proof.
    intros N E F; apply (nth_call calls j _ (attrs_of r0)) in E; cbn [Reload_model.call_prog question_prog] in E.
    destruct (look _ sch j _ r E F) as [pre [post [-> [X Y]]]].
    destruct (calls_inv r0 calls pre) as [_ [_ [_ [o [G D]]]]]; destruct (goods_one r0 calls o N G) as [r1 [O1 <-]].
    replace (pre ++ j :: post) with ((pre ++ [j]) ++ post) in F by (rewrite <- app_assoc; reflexivity).
    rewrite prun_app in F.
    assert (A1 : forall t, loaded r1 = Some t -> ask r1 (Details i) = match detailed_info_dict t with None => Raise MissingDataError
      | Some dd => match dget i dd with Some x => Ok (Info x) | None => Raise InvalidIDError end end).
    { intros t Lt; cbn [ask]; unfold details, tables_of; rewrite Lt; cbn [of_option bind]; destruct (detailed_info_dict t) as [dd|]; [|reflexivity]; destruct (dget i dd); reflexivity. }
    destruct (loaded r1) as [t1|] eqn:L1; cbn [option_map] in D; rewrite D in X.
    2:{ rewrite (ret_stays post _ _ _ X) in F; injection F as <-; left; exists r1; split; [exact O1|]; cbn [ask]; unfold details, tables_of; rewrite L1; reflexivity. }
    specialize (A1 t1 eq_refl); destruct (detailed_info_dict t1) as [d1|].
    2:{ rewrite (ret_stays post _ _ _ X) in F; injection F as <-; left; exists r1; split; [exact O1|]; rewrite A1; reflexivity. }
    destruct (one_look _ post j _ r X F) as [pre2 [post2 [-> ->]]].
    rewrite <- prun_app; destruct (calls_inv r0 calls ((pre ++ [j]) ++ pre2)) as [_ [_ [_ [o2 [G2 D2]]]]].
    destruct (goods_one r0 calls o2 N G2) as [r2 [O2 <-]]; rewrite D2; cbn [option_map].
    destruct (loaded r2) as [t2|] eqn:L2; cbn [option_map attribute of_option bind].
    2:{ left; exists r2; split; [exact O2|]; cbn [ask]; unfold details, tables_of; rewrite L2; reflexivity. }
    destruct (detailed_info_dict t2) as [d2|] eqn:Dt2; cbn [of_option bind].
    - left; exists r2; split; [exact O2|]; cbn [ask]; unfold details, tables_of; rewrite L2; cbn [of_option bind]; rewrite Dt2; destruct (dget i d2); reflexivity.
    - right; split; [reflexivity|]; split.
      + exists r1; split; [exact O1|]; rewrite A1; destruct (dget i d1); discriminate.
      + exists r2; split; [exact O2|]; cbn [ask]; unfold details, tables_of; rewrite L2; cbn [of_option bind]; rewrite Dt2; reflexivity.
  Qed.
  Lemma source_answer (r0 : reader date) calls sch j r : nth_error calls j = Some (Ask Source) ->
    nth_error (snd (prun (world r0 calls) sch)) j = Some (Ret r) ->
    r = Ok (Text (sentences_src r0)) \/ exists name src, In (Reload name src) calls /\ r = Ok (Text name).
  Proof.
    intros E F; apply (nth_call calls j _ (attrs_of r0)) in E; destruct (one_look _ sch j _ r E F) as [pre [post [-> ->]]].
    set (P := fun s : @attrs date => a_src s = sentences_src r0 \/ exists name src, In (Reload name src) calls /\ a_src s = name).
    assert (H : P (fst (prun (world r0 calls) pre))).
    { apply safe_run; cbn [fst snd]; [left; reflexivity|].
      apply Forall_forall; intros p I; apply in_map_iff in I; destruct I as [c [<- I]]; destruct c as [q|l|name src]; cbn [Reload_model.call_prog].
      - apply reading_safe, question_reading.
      - constructor; [|constructor]; intros s H; exact H.
      - unfold Reload_model.reload_prog; constructor; [intros s _; right; exists name, src; split; [exact I|reflexivity]|].
        assert (Pub : forall t, safe P (publish t)) by (intros t; unfold publish; repeat (constructor; [intros s H; exact H|]); constructor).
        assert (Row : forall row next t, (forall t', safe P (next t')) -> safe P (row_prog row t next)).
        { intros row next t Nx; destruct (filter_row row) eqn:Fr; [unfold Reload_model.row_prog; rewrite Fr; apply Nx|].
          assert (K : safe P (keep_prog row t next)) by (unfold keep_prog; destruct (read_row None row t); [apply Nx|constructor]).
          rewrite row_prog_eq by exact Fr; destruct (firstn 3 row) as [|a [|b [|c [|]]]]; try constructor.
          intros s _; destruct (a_languages s); [|exact K]; constructor; intros s' _; destruct (a_languages s') as [ls|]; [|constructor].
          destruct (mem b ls); [exact K|apply Nx]. }
        assert (Rows : forall rows next t, (forall t', safe P (next t')) -> safe P (rows_prog rows t next)).
        { induction rows as [|row rows IH]; intros next t Nx; [apply Nx|]; cbn [Reload_model.rows_prog]; apply Row; intros t'; apply IH, Nx. }
        destruct src as [[|row rows] [[]|e]]; try constructor;
          (destruct (Nat.eqb (length row) 3); [|destruct (Nat.eqb (length row) 6); [|constructor]]);
          (apply (Rows (row :: rows)); intros t'; (apply Pub || constructor)). }
    destruct H as [->|[name [src [I ->]]]]; [left; reflexivity|right; eauto].
  Qed.

  (** after a reload *)
  Lemma fresh (r0 : reader date) calls j name src before after r1 k q r :
    nth_error calls j = Some (Reload name src) -> (forall i c, i <> j -> nth_error calls i = Some c -> exists q, c = Ask q) ->
    set_sentences dv strptime filter_row r0 name src = (r1, Ok tt) ->
    nth_error (snd (prun (world r0 calls) before)) j = Some (Ret (Ok Done)) ->
    nth_error calls k = Some (Ask q) -> ~ In k before ->
    nth_error (snd (prun (world r0 calls) (before ++ after))) k = Some (Ret r) -> r = ask r1 q.
  Proof.
    intros Ej O Set1 Ret1 Ek Nk F.
    assert (Rd : forall i q, i <> j -> nth_error (snd (world r0 calls)) i = Some q -> reading q).
    { intros i p Ni Ep; cbn [snd] in Ep; rewrite nth_error_map in Ep; destruct (nth_error calls i) as [c|] eqn:Ec; [|discriminate].
      destruct (O i c Ni Ec) as [q' ->]; injection Ep as <-; apply question_reading. }
    destruct (solo before (world r0 calls) j _ (nth_call calls j _ _ Ej) Rd) as [Sb [Pb Rb]].
    rewrite Ret1 in Pb; injection Pb as Pb; symmetry in Pb; apply steps_ret in Pb.
    cbn [fst Reload_model.call_prog] in Pb, Sb; rewrite reload_alone, Set1 in Pb; injection Pb as Pb; rewrite <- Pb in Sb.
    assert (Kb : nth_error (snd (prun (world r0 calls) before)) k = Some (question_prog q : prog)).
    { rewrite unmoved by exact Nk; apply (nth_call calls k _ (attrs_of r0) Ek). }
    rewrite prun_app in F; revert F Sb Ret1 Rb Kb; generalize (prun (world r0 calls) before) as w; intros w F Sb Ret1 Rb Kb.
    assert (Rw : forall i p, nth_error (snd w) i = Some p -> reading p).
    { intros i p Ep; destruct (Nat.eq_dec i j) as [->|Ni]; [rewrite Ret1 in Ep; injection Ep as <-; constructor|exact (Rb i p Ni Ep)]. }
    (* nothing changes any more; the question is answered as if alone *)
    destruct (solo after w k _ Kb (fun i p _ E => Rw i p E)) as [_ [Pk _]].
    rewrite F in Pk; injection Pk as Pk; symmetry in Pk; apply steps_ret in Pk; rewrite Sb, ask_alone in Pk; injection Pk as _ ->; reflexivity.
  Qed.

  (** with assignments to languages *)
  Lemma reads_text L rows t t' : reads L rows t t' -> forall i x, dget i (sentence_dict t') = Some x ->
    dget i (sentence_dict t) = Some x \/
    exists a lang cols l, In (a :: lang :: x :: cols) rows /\ filter_row (a :: lang :: x :: cols) = false /\ py_int dv 10 a = Some i /\ L l /\ wants l lang.
  Proof.
    induction 1 as [t|l row rows t t' t'' Ll E R IH]; intros i x D; [left; exact D|].
    destruct (IH i x D) as [D'|[a [lang [cols [l' [I Rest]]]]]]; [|right; exists a, lang, cols, l'; split; [right; exact I|exact Rest]].
    apply read_row_iff in E; destruct E as [es [En ->]]; rewrite fold_sentences in D'.
    inversion En as [|row' rows' es' Fr En'|a lang tx cols rows' es' Fr W En'|a lang tx cols rows' es' n o Fr W Pi In' En']; subst; inversion En'; subst; cbn [fold_left] in D'.
    - left; exact D'.
    - left; exact D'.
    - cbn [e_id e_text] in D'; destruct (Z.eq_dec n i) as [->|Ni].
      + rewrite dget_dset_same in D'; injection D' as ->; right; exists a, lang, cols, l; split; [left; reflexivity|auto].
      + rewrite dget_dset_other in D' by congruence; left; exact D'.
  Qed.
  Lemma find_lang_In i d l : find_lang i d = Ok l -> exists ids, In (l, ids) d /\ In i ids.
  Proof.
    induction d as [|[l' ids] d IH]; cbn; [discriminate|]; destruct (mem i ids) eqn:M.
    - intros E; injection E as <-; apply mem_In in M; eauto.
    - intros E; destruct (IH E) as [ids' [A B]]; eauto.
  Qed.
  Lemma add_id_In lang n (d : list (str * list Z)) l ids i : In (l, ids) (add_id lang n d) -> In i ids ->
    (exists ids', In (l, ids') d /\ In i ids') \/ (l = lang /\ i = n).
  Proof.
    unfold add_id; intros H I.
    assert (X : forall (v : list Z), (forall ids', dget lang d = Some ids' -> forall y, In y v -> In y ids' \/ y = n) ->
        (dget lang d = None -> forall y, In y v -> y = n) ->
        In (l, ids) (dset lang v d) -> (exists ids', In (l, ids') d /\ In i ids') \/ (l = lang /\ i = n)).
    { clear H; induction d as [|[l' ids'] d IH]; intros v Hs Hn H.
      - destruct H as [H|[]]; injection H as <- <-; right; split; [reflexivity|apply Hn; [reflexivity|exact I]].
      - cbn [dset] in H; cbn [dget] in Hs, Hn; destruct (eqb_spec lang l') as [->|Nl].
        + destruct H as [H|H]; [injection H as <- <-|left; exists ids; split; [right; exact H|exact I]].
          destruct (Hs _ eq_refl i I) as [Y| ->]; [left; exists ids'; split; [left; reflexivity|exact Y]|right; auto].
        + destruct H as [H|H]; [injection H as -> ->; left; exists ids; split; [left; reflexivity|exact I]|].
          destruct (IH v Hs Hn H) as [[ids2 [A B]]|Y]; [left; exists ids2; split; [right; exact A|exact B]|right; exact Y]. }
    apply (X _) in H; [exact H| |]; clear X H.
    - intros ids' -> y Hy; apply In_sadd in Hy; tauto.
    - intros -> y Hy; apply In_sadd in Hy; cbn in Hy; tauto.
  Qed.
  Lemma reads_lang L rows t t' : reads L rows t t' -> forall i lang ids, In (lang, ids) (language_dict t') -> In i ids ->
    (exists ids, In (lang, ids) (language_dict t) /\ In i ids) \/
    exists a x cols l, In (a :: lang :: x :: cols) rows /\ filter_row (a :: lang :: x :: cols) = false /\ py_int dv 10 a = Some i /\ L l /\ wants l lang.
  Proof.
    induction 1 as [t|l row rows t t' t'' Ll E R IH]; intros i lang ids D I; [left; eauto|].
    destruct (IH i lang ids D I) as [[ids' [D' I']]|[a [x [cols [l' [J Rest]]]]]]; [|right; exists a, x, cols, l'; split; [right; exact J|exact Rest]].
    apply read_row_iff in E; destruct E as [es [En ->]]; rewrite fold_languages in D'.
    inversion En as [|row' rows' es' Fr En'|a lg tx cols rows' es' Fr W En'|a lg tx cols rows' es' n o Fr W Pi In' En']; subst; inversion En'; subst; cbn [fold_left] in D'.
    - left; eauto.
    - left; eauto.
    - cbn [e_id e_lang] in D'; destruct (add_id_In _ _ _ _ _ _ D' I') as [Y|[-> ->]]; [left; exact Y|].
      right; exists a, tx, cols, l; split; [left; reflexivity|auto].
  Qed.
  Lemma text_from (r0 : reader date) calls sch j i x : nth_error calls j = Some (Ask (Sentence i)) ->
    nth_error (snd (prun (world r0 calls) sch)) j = Some (Ret (Ok (Text x))) ->
    sentence r0 i = Ok x \/ exists lang, let_in dv filter_row r0 calls i lang x.
  Proof.
    intros E F; apply (nth_call calls j _ (attrs_of r0)) in E; destruct (one_look _ sch j _ _ E F) as [pre [post [-> Q]]].
    destruct (calls_inv r0 calls pre) as [_ [_ [[o [G D]] _]]]; rewrite D in Q.
    destruct o as [t|]; [|discriminate]; cbn [option_map attribute of_option bind] in Q.
    destruct (dget i (sentence_dict t)) as [y|] eqn:Dg; [|discriminate]; injection Q as <-.
    destruct G as [G|[name [[rows o] [t' [I [Lt G]]]]]].
    - left; unfold sentence, getitem, tables_of; rewrite <- G; cbn [of_option bind]; unfold dgetitem; rewrite Dg; reflexivity.
    - injection G as <-; right; destruct Lt as [row [rest [Eq [[_ R]|[_ R]]]]]; injection Eq as -> ->;
        destruct (reads_text _ _ _ _ R i x Dg) as [X|[a [lang [cols [l [A [B [C [H W]]]]]]]]]; try discriminate;
        exists lang, name, (row :: rest), (Ok tt), a, cols, l; auto 8.
  Qed.
  Lemma lang_from (r0 : reader date) calls sch j i lang : nth_error calls j = Some (Ask (Language i)) ->
    nth_error (snd (prun (world r0 calls) sch)) j = Some (Ret (Ok (Text lang))) ->
    language r0 i = Ok lang \/ exists x, let_in dv filter_row r0 calls i lang x.
  Proof.
    intros E F; apply (nth_call calls j _ (attrs_of r0)) in E; destruct (one_look _ sch j _ _ E F) as [pre [post [-> Q]]].
    destruct (calls_inv r0 calls pre) as [_ [[o [G D]] _]]; rewrite D in Q.
    destruct o as [t|]; [|discriminate]; cbn [option_map attribute of_option bind] in Q.
    destruct (find_lang i (language_dict t)) as [y|] eqn:Dg; [|discriminate]; injection Q as <-.
    destruct G as [G|[name [[rows o] [t' [I [Lt G]]]]]].
    - left; unfold language, tables_of; rewrite <- G; cbn [of_option bind]; exact Dg.
    - injection G as <-; right; apply find_lang_In in Dg; destruct Dg as [ids [Di Ii]].
      destruct Lt as [row [rest [Eq [[_ R]|[_ R]]]]]; injection Eq as -> ->;
        destruct (reads_lang _ _ _ _ R i lang ids Di Ii) as [[ids' [[] _]]|[a [x [cols [l [A [B [C [H W]]]]]]]]];
        exists x, name, (row :: rest), (Ok tt), a, cols, l; auto 8.
  Qed.
End Sentences.

(* ------------------------------------------------------------------ *)
(** ** Links *)
Section Links.
  Variable dv : Z -> option Z.
  Variable r0 : lreader.
  Local Notation lprog := (lcall_prog dv (subset r0) (filter_sent r0) (filter_trans r0)).
  Local Notation world calls := (lattrs_of r0, map lprog calls).
  Local Notation lone_of := (lone_of dv r0).

  Lemma links_alone name src : alone (lprog (ReloadLinks name src)) (lattrs_of r0) =
    let (r', o) := set_links dv r0 name src in (lattrs_of r', rmap (fun _ => LDone) o).
  Proof.
    cbn [lcall_prog]; unfold links_prog, set_links; cbn [alone].
    destruct (do st <- read_links dv (subset r0) (filter_sent r0) (filter_trans r0) (fst src) (mklstate [] [] 0); do _ <- snd src; Ok st); reflexivity.
  Qed.
  Lemma lask_alone r c : is_lreload c = false -> alone (lprog c) (lattrs_of r) = (lattrs_of r, lask r c).
  Proof.
    intros Q; destruct c as [i| | |name src]; [| | |discriminate]; cbn [lcall_prog alone lask lattrs_of l_group_dict l_link_dict];
      unfold group, groups, lgetitem; destruct (ldicts r) as [[d g]|] eqn:E; cbn [option_map fst snd of_option bind rmap alone l_link_dict]; rewrite ?E; cbn [option_map fst alone];
      try reflexivity.
    replace (l_link_dict (lattrs_of r)) with (Some d) by (cbn; rewrite E; reflexivity); cbn [alone].
    unfold dgetitem; destruct (dget i d) as [n|]; cbn [of_option bind]; [|reflexivity]; destruct (dget n g); reflexivity.
  Qed.
  Definition linv (good : option (dict Z nat * dict nat (list Z)) -> Prop) (s : lattrs) : Prop :=
    (exists o, good o /\ l_link_dict s = option_map fst o) /\ (exists o, good o /\ l_group_dict s = option_map snd o).
  Lemma lreading c : is_lreload c = false -> reading (lprog c).
  Proof.
    intros Q; destruct c as [i| | |name src]; [| | |discriminate]; cbn [lcall_prog]; constructor; intros s; try constructor.
    destruct (l_group_dict s); [|constructor]; constructor; intros s'; destruct (l_link_dict s'); constructor.
  Qed.
  Lemma lcalls_inv calls sch : linv (fun o => exists r, lone_of calls r /\ ldicts r = o) (fst (prun (world calls) sch)).
  Proof.
    apply safe_run; cbn [fst snd].
    - split; exists (ldicts r0); (split; [exists r0; split; [left; reflexivity|reflexivity]|reflexivity]).
    - apply Forall_forall; intros p I; apply in_map_iff in I; destruct I as [c [<- I]].
      destruct (is_lreload c) eqn:Q; [|apply reading_safe, lreading, Q].
      destruct c as [i| | |name src]; try discriminate; cbn [lcall_prog]; unfold links_prog; constructor; [intros s H; exact H|].
      destruct (do st <- read_links dv (subset r0) (filter_sent r0) (filter_trans r0) (fst src) (mklstate [] [] 0); do _ <- snd src; Ok st) as [st|e] eqn:R; [|constructor].
      assert (G : exists r, lone_of calls r /\ ldicts r = Some (link_dict st, group_dict st)).
      { eexists; split; [right; exists name, src; split; [exact I|]; unfold set_links; rewrite R; reflexivity|reflexivity]. }
      constructor; [intros s [A B]; split; [eexists; split; [exact G|reflexivity]|exact B]|].
      constructor; [intros s [A B]; split; [exact A|eexists; split; [exact G|reflexivity]]|constructor].
  Qed.
  Lemma nth_lcall calls j c s : nth_error calls j = Some c -> nth_error (snd (s : lattrs, map lprog calls)) j = Some (lprog c).
  Proof. intros E; cbn [snd]; rewrite nth_error_map, E; reflexivity. Qed.

  Lemma lone_file calls sch j c r : nth_error calls j = Some c -> (c = Groups \/ c = Known) ->
    nth_error (snd (prun (world calls) sch)) j = Some (Ret r) ->
    exists r', lone_of calls r' /\ r = lask r' c.
  Proof.
    intros E Q F; apply (nth_lcall calls j _ (lattrs_of r0)) in E; destruct Q as [-> | ->]; cbn [lcall_prog] in E;
      destruct (one_look _ sch j _ r E F) as [pre [post [-> ->]]];
      destruct (lcalls_inv calls pre) as [[o1 [[r1 [O1 <-]] E1]] [o2 [[r2 [O2 <-]] E2]]].
    - exists r2; split; [exact O2|]; rewrite E2; cbn [lask]; unfold groups; destruct (ldicts r2) as [[d g]|]; reflexivity.
    - exists r1; split; [exact O1|]; rewrite E1; cbn [lask]; destruct (ldicts r1) as [[d g]|]; reflexivity.
  Qed.
  (** the groups of one file, the node numbers of one *)
  Lemma group_answer calls sch j i r : nth_error calls j = Some (Group i) ->
    nth_error (snd (prun (world calls) sch)) j = Some (Ret r) ->
    exists old new, lone_of calls old /\ lone_of calls new /\ (r = lask (mixed old new) (Group i) \/ r = Raise AttributeError /\ ldicts r0 = None).
  Proof.
    intros E F; apply (nth_lcall calls j _ (lattrs_of r0)) in E; cbn [lcall_prog] in E.
    destruct (look _ sch j _ r E F) as [pre [post [-> [X Y]]]].
    destruct (lcalls_inv calls pre) as [_ [o [[r1 [O1 <-]] E1]]].
    replace (pre ++ j :: post) with ((pre ++ [j]) ++ post) in F by (rewrite <- app_assoc; reflexivity).
    rewrite prun_app in F.
    assert (None0 : forall r', lone_of calls r' -> ldicts r' = None -> ldicts r0 = None).
    { intros r' [->|[name [src [_ S]]]] N; [exact N|]; unfold set_links in S;
      destruct (do st <- read_links dv (subset r0) (filter_sent r0) (filter_trans r0) (fst src) (mklstate [] [] 0); do _ <- snd src; Ok st); [injection S as <-; discriminate|discriminate]. }
    destruct (ldicts r1) as [[d1 g1]|] eqn:L1; cbn [option_map] in E1; rewrite E1 in X.
    2:{ rewrite (ret_stays post _ _ _ X) in F; injection F as <-; exists r1, r1; split; [exact O1|split; [exact O1|]]; right; split; [reflexivity|exact (None0 r1 O1 L1)]. }
    destruct (look _ post j _ r X F) as [pre2 [post2 [-> [X2 _]]]].
    replace (pre2 ++ j :: post2) with ((pre2 ++ [j]) ++ post2) in F by (rewrite <- app_assoc; reflexivity).
    rewrite (prun_app _ (pre2 ++ [j])) in F.
    destruct (lcalls_inv calls ((pre ++ [j]) ++ pre2)) as [[o2 [[r2 [O2 <-]] E2]] _]; rewrite prun_app in E2; rewrite E2 in X2.
    exists r1, r2; split; [exact O1|split; [exact O2|]].
    destruct (ldicts r2) as [[d2 g2]|] eqn:L2; cbn [option_map fst] in X2; rewrite (ret_stays post2 _ _ _ X2) in F; injection F as <-.
    - left; cbn [lask]; unfold group, lgetitem, mixed; rewrite L1, L2; cbn [ldicts of_option bind fst snd].
      unfold dgetitem; destruct (dget i d2) as [n|]; cbn [of_option bind]; [|reflexivity]; destruct (dget n g1); reflexivity.
    - right; split; [reflexivity|exact (None0 r2 O2 L2)].
  Qed.
  (** one reload *)
  Section Once.
    Variables (calls : list lcall) (j : nat) (name : str) (src : rows_of) (r1 : lreader) (o : res unit).
    Hypothesis Ej : nth_error calls j = Some (ReloadLinks name src).
    Hypothesis others : forall i c, i <> j -> nth_error calls i = Some c -> is_lreload c = false.
    Hypothesis Set1 : set_links dv r0 name src = (r1, o).
    Lemma lreaders i q : i <> j -> nth_error (snd (world calls)) i = Some q -> reading q.
    Proof.
      intros Ni Ep; cbn [snd] in Ep; rewrite nth_error_map in Ep; destruct (nth_error calls i) as [c|] eqn:Ec; [|discriminate].
      injection Ep as <-; apply lreading, (others i c Ni Ec).
    Qed.
    Lemma steps_fix {St A} n (s : St) (r : res A) : steps n s (Ret r) = (s, Ret r).
    Proof. induction n as [|n IH]; [reflexivity|exact IH]. Qed.
    (** the two dictionaries after each number of steps *)
    Lemma after_steps n : let s := fst (steps n (lattrs_of r0) (lprog (ReloadLinks name src))) in
      l_link_dict s = option_map fst (ldicts (if Nat.ltb n 2 then r0 else r1)) /\
      l_group_dict s = option_map snd (ldicts (if Nat.ltb n 3 then r0 else r1)).
    Proof.
      cbn [lcall_prog]; unfold links_prog, set_links in *.
      destruct (do st <- read_links dv (subset r0) (filter_sent r0) (filter_trans r0) (fst src) (mklstate [] [] 0); do _ <- snd src; Ok st) as [st|e];
        injection Set1 as <- <-; destruct n as [|[|[|n]]]; cbn [steps pstep fst]; rewrite ?steps_fix; split; reflexivity.
    Qed.
    Lemma group_once sch k i r : nth_error calls k = Some (Group i) ->
      nth_error (snd (prun (world calls) sch)) k = Some (Ret r) -> ldicts r0 <> None ->
      r = lask r0 (Group i) \/ r = lask r1 (Group i) \/ r = lask (mixed r0 r1) (Group i).
    Proof.
      intros E F N0; assert (Ek := E); apply (nth_lcall calls k _ (lattrs_of r0)) in E; cbn [lcall_prog] in E.
      assert (Nd : forall b : bool, exists d g, ldicts (if b then r0 else r1) = Some (d, g)).
      { assert (X : exists d g, ldicts r0 = Some (d, g)) by (destruct (ldicts r0) as [[d g]|]; [eauto|congruence]).
        intros [|]; [exact X|]; unfold set_links in Set1.
        destruct (do st <- read_links dv (subset r0) (filter_sent r0) (filter_trans r0) (fst src) (mklstate [] [] 0); do _ <- snd src; Ok st) as [st|e];
          injection Set1 as <- <-; [eexists; eexists; reflexivity|exact X]. }
      assert (At : forall pre, l_link_dict (fst (prun (world calls) pre)) = option_map fst (ldicts (if Nat.ltb (count_occ Nat.eq_dec pre j) 2 then r0 else r1)) /\
        l_group_dict (fst (prun (world calls) pre)) = option_map snd (ldicts (if Nat.ltb (count_occ Nat.eq_dec pre j) 3 then r0 else r1))).
      { intros pre; destruct (solo pre (world calls) j _ (nth_lcall calls j _ _ Ej) lreaders) as [-> _]; apply after_steps. }
      destruct (look _ sch k _ r E F) as [pre [post [-> [X Y]]]].
      replace (pre ++ k :: post) with ((pre ++ [k]) ++ post) in F by (rewrite <- app_assoc; reflexivity).
      rewrite prun_app in F; rewrite (proj2 (At pre)) in X.
      destruct (Nd (Nat.ltb (count_occ Nat.eq_dec pre j) 3)) as [d1 [g1 L1]]; rewrite L1 in X; cbn [option_map snd] in X.
      destruct (look _ post k _ r X F) as [pre2 [post2 [-> [X2 _]]]].
      replace (pre2 ++ k :: post2) with ((pre2 ++ [k]) ++ post2) in F by (rewrite <- app_assoc; reflexivity).
      rewrite (prun_app _ (pre2 ++ [k])) in F; rewrite <- (prun_app _ _ pre2), (proj1 (At _)) in X2.
      destruct (Nd (Nat.ltb (count_occ Nat.eq_dec ((pre ++ [k]) ++ pre2) j) 2)) as [d2 [g2 L2]]; rewrite L2 in X2; cbn [option_map fst] in X2.
      rewrite (ret_stays post2 _ _ _ X2) in F; injection F as <-.
      assert (Le : (count_occ Nat.eq_dec pre j <= count_occ Nat.eq_dec ((pre ++ [k]) ++ pre2) j)%nat) by (rewrite !count_occ_app; lia).
      assert (Ans : forall r' d g, ldicts r' = Some (d, g) -> lask r' (Group i) =
        match dget i d with Some n => match dget n g with Some l => Ok (Members l) | None => Raise InvalidIDError end | None => Raise InvalidIDError end).
      { intros r' d g L; cbn [lask]; unfold group, lgetitem; rewrite L; cbn [of_option bind fst snd]; unfold dgetitem.
        destruct (dget i d) as [n|]; cbn [of_option bind]; [|reflexivity]; destruct (dget n g); reflexivity. }
      destruct (Nat.ltb_spec (count_occ Nat.eq_dec pre j) 3) as [H3|H3];
        destruct (Nat.ltb_spec (count_occ Nat.eq_dec ((pre ++ [k]) ++ pre2) j) 2) as [H2|H2]; try lia.
      - left; rewrite L2 in L1; injection L1 as <- <-; rewrite (Ans r0 _ _ L2); reflexivity.
      - right; right; rewrite (Ans (mixed r0 r1) d2 g1); [reflexivity|unfold mixed; rewrite L1, L2; reflexivity].
      - right; left; rewrite L2 in L1; injection L1 as <- <-; rewrite (Ans r1 _ _ L2); reflexivity.
    Qed.
    (** after it *)
    Lemma lfresh before after k c r : o = Ok tt ->
      nth_error (snd (prun (world calls) before)) j = Some (Ret (Ok LDone)) ->
      nth_error calls k = Some c -> is_lreload c = false -> ~ In k before ->
      nth_error (snd (prun (world calls) (before ++ after))) k = Some (Ret r) -> r = lask r1 c.
    Proof.
      intros -> Ret1 Ek Nc Nk F.
      destruct (solo before (world calls) j _ (nth_lcall calls j _ _ Ej) lreaders) as [Sb [Pb Rb]].
      rewrite Ret1 in Pb; injection Pb as Pb; symmetry in Pb; apply steps_ret in Pb.
      change (fst (world calls)) with (lattrs_of r0) in Pb, Sb; cbn [lcall_prog] in Sb; assert (La := links_alone name src); cbn [lcall_prog] in La; rewrite La, Set1 in Pb; injection Pb as Pb; rewrite <- Pb in Sb.
      assert (Kb : nth_error (snd (prun (world calls) before)) k = Some (lprog c)) by (rewrite unmoved by exact Nk; apply (nth_lcall calls k _ _ Ek)).
      rewrite prun_app in F; revert F Sb Ret1 Rb Kb; generalize (prun (world calls) before) as w; intros w F Sb Ret1 Rb Kb.
      assert (Rw : forall i p, nth_error (snd w) i = Some p -> reading p).
      { intros i p Ep; destruct (Nat.eq_dec i j) as [->|Ni]; [rewrite Ret1 in Ep; injection Ep as <-; constructor|exact (Rb i p Ni Ep)]. }
      destruct (solo after w k _ Kb (fun i p _ E => Rw i p E)) as [_ [Pk _]].
      rewrite F in Pk; injection Pk as Pk; symmetry in Pk; apply steps_ret in Pk; rewrite Sb, lask_alone in Pk by exact Nc; injection Pk as _ ->; reflexivity.
    Qed.
  End Once.
  Lemma links_repairs s name src r' : set_links dv r0 name src = (r', Ok tt) ->
    alone (lprog (ReloadLinks name src)) s = (lattrs_of r', Ok LDone).
  Proof.
    cbn [lcall_prog]; unfold links_prog, set_links; cbn [alone].
    destruct (do st <- read_links dv (subset r0) (filter_sent r0) (filter_trans r0) (fst src) (mklstate [] [] 0); do _ <- snd src; Ok st) as [st|e];
      intros E; [|discriminate]; injection E as <-; reflexivity.
  Qed.
End Links.

(* ------------------------------------------------------------------ *)
(** ** Indices *)
Section Indices.
  Variable dv : Z -> option Z.
  Variable r0 : ireader.
  Local Notation iprog := (icall_prog dv (isubset r0) (iedict r0)).
  Local Notation world calls := (iattrs_of r0, map iprog calls).
  Local Notation ione_of := (ione_of dv r0).
  Local Notation load src := (do d <- index_rows dv (isubset r0) (iedict r0) (fst src) ([], []); do _ <- snd src; Ok d).

  Lemma indices_alone name src : alone (iprog (ReloadIndices name src)) (iattrs_of r0) =
    let (r', o) := set_indices dv r0 name src in (iattrs_of r', rmap (fun _ => IDone) o).
  Proof. cbn [icall_prog]; unfold indices_prog, set_indices; cbn [alone]; destruct (load src) as [[]|]; reflexivity. Qed.
  Lemma indices_repairs s name src r' : set_indices dv r0 name src = (r', Ok tt) ->
    alone (iprog (ReloadIndices name src)) s = (iattrs_of r', Ok IDone).
  Proof.
    cbn [icall_prog]; unfold indices_prog, set_indices; cbn [alone]; destruct (load src) as [[]|]; intros E; [|discriminate];
      injection E as <-; reflexivity.
  Qed.
  Definition iinv (good : option (dict Z (list word) * dict Z Z) -> Prop) (s : iattrs) : Prop :=
    (exists o, good o /\ x_sentence_dict s = option_map fst o) /\ (exists o, good o /\ x_link_dict s = option_map snd o).
  Lemma icalls_inv calls sch : iinv (fun o => exists r, ione_of calls r /\ idicts r = o) (fst (prun (world calls) sch)).
  Proof.
    apply safe_run; cbn [fst snd].
    - split; exists (idicts r0); (split; [exists r0; split; [left; reflexivity|reflexivity]|reflexivity]).
    - apply Forall_forall; intros p I; apply in_map_iff in I; destruct I as [c [<- I]].
      destruct c as [i|i|name src]; cbn [icall_prog]; [constructor; intros; constructor..|]; unfold indices_prog; constructor; [intros s H; exact H|].
      destruct (load src) as [d|e] eqn:R; [|constructor].
      assert (G : exists r, ione_of calls r /\ idicts r = Some d).
      { eexists; split; [right; exists name, src; split; [exact I|]; unfold set_indices; rewrite R; reflexivity|reflexivity]. }
      constructor; [intros s [A B]; split; [eexists; split; [exact G|reflexivity]|exact B]|].
      constructor; [intros s [A B]; split; [exact A|eexists; split; [exact G|reflexivity]]|constructor].
  Qed.
  Lemma ione_file calls sch j c r : nth_error calls j = Some c -> is_ireload c = false ->
    nth_error (snd (prun (world calls) sch)) j = Some (Ret r) ->
    exists r', ione_of calls r' /\ r = iask r' c.
  Proof.
    intros E Q F; assert (E' : nth_error (snd (world calls)) j = Some (iprog c)) by (cbn [snd]; rewrite nth_error_map, E; reflexivity).
    destruct c as [i|i|name src]; [| |discriminate]; cbn [icall_prog] in E';
      destruct (one_look _ sch j _ r E' F) as [pre [post [-> ->]]];
      destruct (icalls_inv calls pre) as [[o1 [[r1 [O1 <-]] E1]] [o2 [[r2 [O2 <-]] E2]]].
    - exists r1; split; [exact O1|]; rewrite E1; cbn [iask]; unfold igetitem; destruct (idicts r1) as [[d g]|]; reflexivity.
    - exists r2; split; [exact O2|]; rewrite E2; cbn [iask]; unfold link; destruct (idicts r2) as [[d g]|]; [|reflexivity]; cbn [option_map of_option bind snd].
      destruct (dget i g); reflexivity.
  Qed.
End Indices.
