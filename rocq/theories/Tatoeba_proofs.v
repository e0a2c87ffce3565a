(* Tatoeba_proofs.v *)
From Verif Require Import Base PyText PyFmt Tanaka_model Tanaka_spec Tanaka_proofs Tatoeba_model Tatoeba_spec.

(* ------------------------------------------------------------------ *)
(** ** Folds of assignments *)
Definition last_by {A K} (f : A -> K) (es : list A) (i : K) (e : A) : Prop :=
  exists a b, es = a ++ e :: b /\ f e = i /\ Forall (fun x => f x <> i) b.
Lemma last_by_dec {A K} `{EqB K} (f : A -> K) es i : (exists e, last_by f es i e) \/ Forall (fun x => f x <> i) es.
Proof.
  induction es as [|x es IH] using rev_ind; [right; constructor|].
  destruct (eqb_spec (f x) i) as [E|N].
  - left; exists x, es, []; repeat split; [exact E|constructor].
  - destruct IH as [[e [a [b [-> [E F]]]]]|F].
    + left; exists e, a, (b ++ [x]); rewrite <- app_assoc; cbn [app]; repeat split; [exact E|apply Forall_app; split; [exact F|repeat constructor; exact N]].
    + right; apply Forall_app; split; [exact F|repeat constructor; exact N].
Qed.
Lemma last_by_In {A K} (f : A -> K) es i e : last_by f es i e -> In e es /\ f e = i.
Proof. intros [a [b [-> [E _]]]]; split; [apply in_or_app; right; left; reflexivity|exact E]. Qed.
Lemma fold_other {A K V} `{EqB K} (f : A -> K) (g : A -> V) es i : Forall (fun x => f x <> i) es -> forall d,
  dget i (fold_left (fun d e => dset (f e) (g e) d) es d) = dget i d.
Proof.
  induction 1 as [|x es N F IH]; intros d; [reflexivity|]; cbn [fold_left]; rewrite IH, dget_dset_other by congruence; reflexivity.
Qed.
Lemma fold_last {A K V} `{EqB K} (f : A -> K) (g : A -> V) es i e d : last_by f es i e ->
  dget i (fold_left (fun d e => dset (f e) (g e) d) es d) = Some (g e).
Proof.
  intros [a [b [-> [<- F]]]]; rewrite fold_left_app; cbn [fold_left]; rewrite fold_other by exact F; apply dget_dset_same.
Qed.
Lemma dkeys_sadd {K V} `{EqB K} k (v : V) d : dkeys (dset k v d) = sadd k (dkeys d).
Proof.
  rewrite dkeys_dset; unfold sadd; destruct (dmem k d) eqn:E.
  - apply dmem_In, mem_In in E; rewrite E; reflexivity.
  - destruct (mem k (dkeys d)) eqn:M; [|reflexivity]; apply mem_In, dmem_In in M; congruence.
Qed.
Lemma fold_keys {A K V} `{EqB K} (f : A -> K) (g : dict K V -> A -> V) es : forall d,
  dkeys (fold_left (fun d e => dset (f e) (g d e) d) es d) = supdate (dkeys d) (map f es).
Proof.
  unfold supdate; induction es as [|x es IH]; intros d; [reflexivity|]; cbn [fold_left map]; rewrite IH, dkeys_sadd; reflexivity.
Qed.
Lemma find_sadd {A} `{EqB A} (P : A -> bool) x s : find P (sadd x s) = match find P s with Some y => Some y | None => find P [x] end.
Proof.
  unfold sadd; destruct (mem x s) eqn:M.
  - destruct (find P s) as [y|] eqn:F; [reflexivity|]; cbn [find]; apply mem_In in M; rewrite (find_none P s F x M); reflexivity.
  - clear M; induction s as [|a s IH]; [reflexivity|]; cbn [app find]; destruct (P a); [reflexivity|exact IH].
Qed.
Lemma find_supdate {A} `{EqB A} (P : A -> bool) l : forall s, find P (supdate s l) = match find P s with Some y => Some y | None => find P l end.
Proof.
  unfold supdate; induction l as [|x l IH]; intros s; cbn [fold_left]; [destruct (find P s); reflexivity|].
  rewrite IH, find_sadd; cbn [find]; destruct (find P s); [reflexivity|]; destruct (P x); reflexivity.
Qed.

(* ------------------------------------------------------------------ *)
(** ** Sentences *)
Section Sentences.
  Variable dv : Z -> option Z.
  Context {date : Type}.
  Variable strptime : str -> res date.
  Variable filter_row : list str -> bool.
  Local Notation tables := (tables date).
  Local Notation entry := (entry date).
  Local Notation entries := (entries dv strptime filter_row).
  Local Notation read_rows := (read_rows dv strptime filter_row).
  Local Notation read_row := (read_row dv strptime filter_row).

  Definition apply_entry (t : tables) (e : entry) : tables :=
    mktables (add_id (e_lang e) (e_id e) (language_dict t)) (dset (e_id e) (e_text e) (sentence_dict t))
      (match detailed_info_dict t, e_info e with Some dd, Some x => Some (dset (e_id e) x dd) | _, _ => None end).
  Definition is_detailed (t : tables) : bool := match detailed_info_dict t with Some _ => true | None => false end.

  Lemma parse_date_iff s o : parse_date strptime s = Ok o <-> is_date strptime s o.
  Proof.
    unfold parse_date, is_date; destruct (eqb_spec s (u "\N")) as [E1|N1]; cbn [orb].
    - split; [intros X; injection X as <-; tauto|intros [[_ ->]|[X _]]; [reflexivity|contradiction]].
    - destruct (eqb_spec s (u "0000-00-00 00:00:00")) as [E2|N2].
      + split; [intros X; injection X as <-; tauto|intros [[_ ->]|[_ [X _]]]; [reflexivity|contradiction]].
      + destruct (strptime s) as [x|e]; cbn [rmap bind]; split.
        * intros X; injection X as <-; right; eauto.
        * intros [[[X|X] _]|[_ [_ [y [X ->]]]]]; [contradiction|contradiction|injection X as ->; reflexivity].
        * discriminate.
        * intros [[[X|X] _]|[_ [_ [y [X ->]]]]]; [contradiction|contradiction|discriminate].
  Qed.
  Lemma name_iff s o : (if eqb s (u "\N") then None else Some s) = o <-> is_name s o.
  Proof.
    unfold is_name; destruct (eqb_spec s (u "\N")) as [->|N]; split.
    - intros <-; left; auto.
    - intros [[_ ->]|[X _]]; [reflexivity|contradiction].
    - intros <-; right; auto.
    - intros [[X _]|[_ ->]]; [contradiction|reflexivity].
  Qed.
  Lemma wants_iff langs l : (match langs with Some ls => negb (mem l ls) | None => false end) = false <-> wants langs l.
  Proof.
    destruct langs as [ls|]; cbn [wants]; [|tauto]; rewrite negb_false_iff; apply mem_In.
  Qed.
  Lemma apply_detailed t e : is_detailed (apply_entry t e) = is_detailed t \/ e_info e = None.
  Proof. unfold is_detailed, apply_entry; cbn; destruct (detailed_info_dict t), (e_info e); auto. Qed.
  (** one row *)
  Lemma read_row_iff langs row t t' : read_row langs row t = Ok t' <->
    exists es, entries langs (is_detailed t) [row] es /\ t' = fold_left apply_entry es t.
  Proof.
    unfold Tatoeba_model.read_row; split.
    - destruct (filter_row row) eqn:FR; [intros E; injection E as <-; exists []; split; [constructor; [exact FR|constructor]|reflexivity]|].
      destruct row as [|i [|l [|tx cols]]]; try discriminate; cbn [firstn skipn].
      destruct (match langs with Some ls => negb (mem l ls) | None => false end) eqn:W.
      { intros E; injection E as <-; exists []; split; [|reflexivity]; apply Entries_other_language; [exact FR| |constructor].
        intros X; apply wants_iff in X; congruence. }
      apply wants_iff in W; unfold int_; destruct (py_int dv 10 i) as [n|] eqn:I; [|discriminate]; cbn [of_option bind].
      unfold is_detailed; destruct (detailed_info_dict t) as [dd|] eqn:Dt.
      + destruct cols as [|a [|b [|c cols]]]; try discriminate; cbn [firstn].
        destruct (parse_date strptime b) as [b'|] eqn:Pb; [|discriminate]; destruct (parse_date strptime c) as [c'|] eqn:Pc; [|discriminate].
        cbn [bind]; intros E; injection E as <-.
        exists [mkentry n l tx (Some (if eqb a (u "\N") then None else Some a, b', c'))]; split.
        * apply Entries_row; [exact FR|exact W|exact I| |constructor].
          exists a, b, c, cols; do 3 eexists; split; [reflexivity|split; [reflexivity|]].
          split; [apply name_iff; reflexivity|split; apply parse_date_iff; assumption].
        * cbn [fold_left]; unfold apply_entry; rewrite Dt; reflexivity.
      + intros E; injection E as <-; exists [mkentry n l tx None]; split.
        * apply Entries_row; [exact FR|exact W|exact I|reflexivity|constructor].
        * cbn [fold_left]; unfold apply_entry; rewrite Dt; reflexivity.
    - intros [es [E ->]]; inversion E as [|row' rows es' FR E'|i l tx cols rows es' FR W E'|i l tx cols rows es' n o FR W I F E']; subst; inversion E'; subst; clear E E'; rewrite FR.
      + reflexivity.
      + cbn [firstn]; destruct (match langs with Some ls => negb (mem l ls) | None => false end) eqn:X; [reflexivity|apply wants_iff in X; contradiction].
      + cbn [firstn skipn]; apply wants_iff in W; rewrite W; unfold int_; rewrite I; cbn [of_option bind fold_left].
        unfold apply_entry; cbn [e_id e_lang e_text e_info]; unfold is_info, is_detailed in F; destruct (detailed_info_dict t) as [dd|].
        * destruct F as [a [b [c [rest [a' [b' [c' [-> [-> [Fa [Fb Fc]]]]]]]]]]]; cbn [firstn].
          apply parse_date_iff in Fb, Fc; apply name_iff in Fa; rewrite Fb, Fc; cbn [bind]; rewrite Fa; reflexivity.
        * reflexivity.
  Qed.
  Lemma entries_info langs detailed rows es : entries langs detailed rows es -> Forall (fun e => if detailed then exists x, e_info e = Some x else e_info e = None) es.
  Proof.
    induction 1 as [| |i l t cols rows es FR W E IH|i l t cols rows es n o FR W I F E IH]; try assumption; [constructor|].
    constructor; [|exact IH]; cbn [e_info]; destruct detailed; [|exact F].
    destruct F as [a [b [c [rest [a' [b' [c' [-> [-> _]]]]]]]]]; eauto.
  Qed.
  Lemma detailed_fold es : forall t, Forall (fun e : entry => if is_detailed t then exists x, e_info e = Some x else e_info e = None) es ->
    is_detailed (fold_left apply_entry es t) = is_detailed t.
  Proof.
    induction es as [|e es IH]; intros t F; cbn [fold_left]; [reflexivity|]; inversion F as [|? ? Fe F']; subst.
    assert (X : is_detailed (apply_entry t e) = is_detailed t).
    { unfold is_detailed, apply_entry in *; cbn [detailed_info_dict]; destruct (detailed_info_dict t); [destruct Fe as [x ->]|]; reflexivity. }
    rewrite IH, X; [reflexivity|rewrite X; exact F'].
  Qed.
  Lemma entries_app langs detailed row rows es1 es2 : entries langs detailed [row] es1 -> entries langs detailed rows es2 -> entries langs detailed (row :: rows) (es1 ++ es2).
  Proof.
    intros E F; inversion E as [|row' rows' es' FR E'|i l tx cols rows' es' FR W E'|i l tx cols rows' es' n o FR W I G E']; subst; inversion E'; subst; cbn [app].
    - apply Entries_filtered; assumption.
    - apply Entries_other_language; assumption.
    - apply Entries_row; assumption.
  Qed.
  Lemma entries_cons langs detailed row rows es : entries langs detailed (row :: rows) es ->
    exists es1 es2, es = es1 ++ es2 /\ entries langs detailed [row] es1 /\ entries langs detailed rows es2.
  Proof.
    intros E; inversion E as [|row' rows' es' FR E'|i l tx cols rows' es' FR W E'|i l tx cols rows' es' n o FR W I G E']; subst.
    - exists [], es; repeat split; [apply Entries_filtered; [exact FR|constructor]|exact E'].
    - exists [], es; repeat split; [apply Entries_other_language; [exact FR|exact W|constructor]|exact E'].
    - exists [mkentry n l tx o], es'; repeat split; [apply Entries_row; try assumption; constructor|exact E'].
  Qed.
  Lemma read_rows_iff langs rows : forall t t', read_rows langs rows t = Ok t' <->
    exists es, entries langs (is_detailed t) rows es /\ t' = fold_left apply_entry es t.
  Proof.
    induction rows as [|row rows IH]; intros t t'; cbn [Tatoeba_model.read_rows].
    - split; [intros E; injection E as <-; exists []; split; [constructor|reflexivity]|].
      intros [es [E ->]]; inversion E; reflexivity.
    - split.
      + destruct (read_row langs row t) as [t1|] eqn:R; [|discriminate]; cbn [bind]; intros E.
        apply read_row_iff in R; destruct R as [es1 [E1 ->]]; apply IH in E; destruct E as [es2 [E2 ->]].
        rewrite detailed_fold in E2 by (apply (entries_info langs _ _ _ E1)).
        exists (es1 ++ es2); split; [apply entries_app; assumption|rewrite fold_left_app; reflexivity].
      + intros [es [E ->]]; apply entries_cons in E; destruct E as [es1 [es2 [-> [E1 E2]]]].
        assert (R : read_row langs row t = Ok (fold_left apply_entry es1 t)) by (apply read_row_iff; eauto).
        rewrite R; cbn [bind]; apply IH; exists es2; rewrite detailed_fold by (apply (entries_info langs _ _ _ E1)).
        split; [exact E2|rewrite fold_left_app; reflexivity].
  Qed.

  (** the tables after all entries *)
  Lemma fold_sentences es : forall t, sentence_dict (fold_left apply_entry es t) = fold_left (fun d e => dset (e_id e) (e_text e) d) es (sentence_dict t).
  Proof. induction es as [|e es IH]; intros t; [reflexivity|]; cbn [fold_left]; rewrite IH; reflexivity. Qed.
  Lemma fold_languages es : forall t, language_dict (fold_left apply_entry es t) = fold_left (fun d e => add_id (e_lang e) (e_id e) d) es (language_dict t).
  Proof. induction es as [|e es IH]; intros t; [reflexivity|]; cbn [fold_left]; rewrite IH; reflexivity. Qed.
  Definition info_of (e : entry) : info date := match e_info e with Some x => x | None => (None, None, None) end.
  Lemma fold_details es : Forall (fun e : entry => exists x, e_info e = Some x) es -> forall t dd, detailed_info_dict t = Some dd ->
    detailed_info_dict (fold_left apply_entry es t) = Some (fold_left (fun d e => dset (e_id e) (info_of e) d) es dd).
  Proof.
    induction 1 as [|e es [x X] F IH]; intros t dd D; [exact D|]; cbn [fold_left]; apply IH.
    unfold apply_entry, info_of; cbn [detailed_info_dict]; rewrite D, X; reflexivity.
  Qed.
  Lemma fold_no_details es : forall t, detailed_info_dict t = None -> detailed_info_dict (fold_left apply_entry es t) = None.
  Proof. induction es as [|e es IH]; intros t D; [exact D|]; cbn [fold_left]; apply IH; unfold apply_entry; cbn [detailed_info_dict]; rewrite D; reflexivity. Qed.

  Definition the_tables (es : list entry) (detailed : bool) : tables := fold_left apply_entry es (mktables [] [] (if detailed then Some [] else None)).
  Definition decided (rows : list (list str)) (detailed : bool) : Prop := columns rows (if detailed then 6%nat else 3%nat).
  Lemma decided_cases row rows : (exists b, decided (row :: rows) b /\ (if Nat.eqb (length row) 3 then Ok false else if Nat.eqb (length row) 6 then Ok true else Raise InvalidFileError) = Ok b) \/
    ((forall b, ~ decided (row :: rows) b) /\ (if Nat.eqb (length row) 3 then Ok false else if Nat.eqb (length row) 6 then Ok true else Raise InvalidFileError) = Raise InvalidFileError).
  Proof.
    destruct (Nat.eqb_spec (length row) 3) as [E|N]; [left; exists false; split; [exists row, rows; auto|reflexivity]|].
    destruct (Nat.eqb_spec (length row) 6) as [E|N']; [left; exists true; split; [exists row, rows; auto|reflexivity]|].
    right; split; [|reflexivity]; intros b [r [rs [X L]]]; injection X as <- <-; destruct b; contradiction.
  Qed.
  Lemma read_sentences_iff langs rows o t : read_sentences dv strptime filter_row langs (rows, o) = Ok t <->
    o = Ok tt /\ exists detailed es, decided rows detailed /\ entries langs detailed rows es /\ t = the_tables es detailed.
  Proof.
    assert (IsD : forall b : bool, is_detailed (mktables [] [] (if b then Some [] else None)) = b) by (intros [|]; reflexivity).
    unfold read_sentences; destruct rows as [|row rows].
    { destruct o; (split; [discriminate|intros [_ [d [es [[r [rs [X _]]] _]]]]; discriminate]). }
    destruct (decided_cases row rows) as [[b [B ->]]|[B ->]]; cbn [bind].
    - split.
      + destruct (read_rows langs (row :: rows) _) as [t1|] eqn:R; [|discriminate]; cbn [bind].
        destruct o as [[]|]; [|discriminate]; cbn [bind]; intros E; injection E as <-.
        apply read_rows_iff in R; rewrite IsD in R; destruct R as [es [E ->]]; split; [reflexivity|]; exists b, es; auto.
      + intros [-> [d [es [D [E ->]]]]].
        assert (d = b) by (destruct D as [r [rs [X L]]], B as [r' [rs' [X' L']]]; injection X as <- <-; injection X' as <- <-; destruct d, b; congruence); subst d.
        assert (R : read_rows langs (row :: rows) (mktables [] [] (if b then Some [] else None)) = Ok (the_tables es b)) by (apply read_rows_iff; rewrite IsD; eauto).
        rewrite R; reflexivity.
    - split; [discriminate|]; intros [_ [d [es [D _]]]]; elim (B d D).
  Qed.
  Lemma new_iff langs name rows o r : new_sentences dv strptime filter_row langs name (rows, o) = Ok r <->
    o = Ok tt /\ exists detailed es, decided rows detailed /\ entries langs detailed rows es /\ r = mkreader langs name (Some (the_tables es detailed)).
  Proof.
    unfold new_sentences, set_sentences; cbn [languages loaded]; split.
    - destruct (read_sentences _ _ _ langs (rows, o)) as [t|e] eqn:R; [|discriminate]; cbn [bind]; intros E; injection E as <-.
      apply read_sentences_iff in R; destruct R as [-> [d [es [D [E ->]]]]]; split; [reflexivity|]; exists d, es; auto.
    - intros [-> [d [es [D [E ->]]]]].
      assert (R : read_sentences dv strptime filter_row langs (rows, Ok tt) = Ok (the_tables es d)) by (apply read_sentences_iff; split; [reflexivity|eauto]).
      rewrite R; reflexivity.
  Qed.

  (** looking up *)
  Section Loaded.
    Variable langs : option (list str).
    Variable name : str.
    Variable rows : list (list str).
    Variable detailed : bool.
    Variable es : list entry.
    Hypothesis E : entries langs detailed rows es.
    Let r := mkreader langs name (Some (the_tables es detailed)).
    Lemma not_known i : ~ known es i -> Forall (fun e => e_id e <> i) es.
    Proof. intros N; apply Forall_forall; intros e I X; apply N; exists e; auto. Qed.
    Lemma get_last i e : last_entry es i e -> getitem r i = Ok (e_text e) /\ sentence r i = Ok (e_text e).
    Proof.
      intros L; assert (G : dget i (sentence_dict (the_tables es detailed)) = Some (e_text e)) by (unfold the_tables; rewrite fold_sentences; apply fold_last; exact L).
      unfold sentence, getitem, tables_of, dgetitem; cbn [loaded r of_option bind]; rewrite G; auto.
    Qed.
    Lemma get_unknown i : ~ known es i -> getitem r i = Raise KeyError /\ sentence r i = Raise InvalidIDError.
    Proof.
      intros N; assert (G : dget i (sentence_dict (the_tables es detailed)) = None) by (unfold the_tables; rewrite fold_sentences, (fold_other e_id e_text es i (not_known i N)); reflexivity).
      unfold sentence, getitem, tables_of, dgetitem; cbn [loaded r of_option bind]; rewrite G; auto.
    Qed.
    Lemma ids_known : exists ids, sentence_ids r = Ok ids /\ NoDup ids /\ forall i, In i ids <-> known es i.
    Proof.
      eexists; split; [reflexivity|]; unfold the_tables; rewrite fold_sentences, (fold_keys e_id (fun _ e => e_text e)).
      change (supdate (dkeys _) (map (@e_id date) es)) with (set_of (map (@e_id date) es)).
      split; [apply NoDup_set_of|]; intros i; rewrite In_set_of, in_map_iff; unfold known.
      split; intros [e [A B]]; eauto.
    Qed.
    Lemma details_last i e : detailed = true -> last_entry es i e -> details r i = of_option InvalidIDError (e_info e) /\ e_info e <> None.
    Proof.
      intros D L; pose proof (entries_info _ _ _ _ E) as F; rewrite D in F.
      assert (X : exists x, e_info e = Some x) by (rewrite Forall_forall in F; apply F, (last_by_In e_id es i e L)).
      destruct X as [x X]; split; [|congruence].
      unfold details, tables_of; cbn [loaded r of_option bind]; unfold the_tables; rewrite D, (fold_details es F (mktables [] [] (Some [])) [] eq_refl).
      rewrite (fold_last e_id info_of es i e [] L); unfold info_of; rewrite X; reflexivity.
    Qed.
    Lemma details_unknown i : detailed = true -> ~ known es i -> details r i = Raise InvalidIDError.
    Proof.
      intros D N; pose proof (entries_info _ _ _ _ E) as F; rewrite D in F.
      unfold details, tables_of; cbn [loaded r of_option bind]; unfold the_tables; rewrite D, (fold_details es F (mktables [] [] (Some [])) [] eq_refl).
      rewrite (fold_other e_id info_of es i (not_known i N)); reflexivity.
    Qed.
    Lemma details_missing i : detailed = false -> details r i = Raise MissingDataError.
    Proof.
      intros D; unfold details, tables_of; cbn [loaded r of_option bind]; unfold the_tables; rewrite D, fold_no_details by reflexivity; reflexivity.
    Qed.

    (** languages *)
    Lemma find_lang_find i d : NoDup (dkeys d) -> find_lang i d = of_option InvalidIDError (find (fun l => mem i (match dget l d with Some s => s | None => [] end)) (dkeys d)).
    Proof.
      induction d as [|[l s] d IH]; intros N; [reflexivity|]; cbn [find_lang dkeys map fst find dget]; inversion N as [|? ? Nl N']; subst; rewrite eqb_refl.
      destruct (mem i s); [reflexivity|]; rewrite IH by exact N'; f_equal.
      unfold dkeys; assert (X : forall l', In l' (map fst d) -> eqb l' l = false) by (intros l' I; apply eqb_neq; intros ->; contradiction).
      revert X; generalize (map fst d) as ls; induction ls as [|a ls IHl]; intros X; [reflexivity|]; cbn [find].
      rewrite (X a) by (left; reflexivity); destruct (mem i _); [reflexivity|apply IHl; intros l' I; apply X; right; exact I].
    Qed.
    Definition has (i : Z) (l : str) : bool := existsb (fun e : entry => eqb (e_lang e) l && (e_id e =? i)) es.
    Lemma has_iff i l : has i l = true <-> exists e, In e es /\ e_lang e = l /\ e_id e = i.
    Proof.
      unfold has; rewrite existsb_exists; split; intros [e [I H]]; exists e; split; try exact I.
      - apply andb_prop in H; destruct H as [A B]; apply eqb_eq in A; apply Z.eqb_eq in B; auto.
      - destruct H as [<- <-]; rewrite eqb_refl, Z.eqb_refl; reflexivity.
    Qed.
    Lemma add_id_mem es' : forall d l i, mem i (match dget l (fold_left (fun d (e : entry) => add_id (e_lang e) (e_id e) d) es' d) with Some s => s | None => [] end) =
      existsb (fun e : entry => eqb (e_lang e) l && (e_id e =? i)) es' || mem i (match dget l d with Some s => s | None => [] end).
    Proof.
      induction es' as [|e es' IH]; intros d l i; [reflexivity|]; cbn [fold_left existsb]; rewrite IH; unfold add_id; rewrite dget_dset.
      rewrite (eqb_sym l (e_lang e)); destruct (eqb_spec (e_lang e) l) as [<-|]; cbn [andb].
      - destruct (e_id e =? i) eqn:Ei.
        + apply Z.eqb_eq in Ei; subst i; rewrite (proj2 (mem_In (e_id e) _)) by (apply In_sadd; left; reflexivity).
          rewrite orb_true_r; reflexivity.
        + cbn [orb]; f_equal; generalize (match dget (e_lang e) d with Some s => s | None => [] end) as s; intros s.
          apply Z.eqb_neq in Ei; destruct (mem i s) eqn:M.
          * apply mem_In, In_sadd; right; apply mem_In, M.
          * apply mem_false; intros X; apply In_sadd in X; destruct X as [->|X]; [contradiction|apply mem_false in M; contradiction].
      - reflexivity.
    Qed.
    Lemma language_find i : language r i = of_option InvalidIDError (find (has i) (map (@e_lang date) es)).
    Proof.
      unfold language, tables_of; cbn [loaded r of_option bind]; unfold the_tables; rewrite fold_languages; cbn [language_dict].
      set (d := fold_left _ es []).
      assert (K : dkeys d = set_of (map (@e_lang date) es)) by (unfold d, add_id; exact (fold_keys e_lang (fun d e => sadd (e_id e) (match dget (e_lang e) d with Some s => s | None => [] end)) es [])).
      rewrite find_lang_find by (rewrite K; apply NoDup_set_of).
      rewrite K; f_equal; transitivity (find (has i) (supdate [] (map (@e_lang date) es))); [|exact (find_supdate (has i) (map (@e_lang date) es) [])]; unfold set_of.
      generalize (supdate [] (map (@e_lang date) es)) as ls; induction ls as [|l ls IH]; [reflexivity|]; cbn [find].
      unfold d at 1; rewrite add_id_mem; cbn [dget mem]; rewrite orb_false_r; fold (has i l); rewrite IH; reflexivity.
    Qed.
    Lemma find_map_iff {A B} (P : B -> bool) (f : A -> B) l y : find P (map f l) = Some y <->
      exists a e b, l = a ++ e :: b /\ f e = y /\ P y = true /\ forall x, In x a -> P (f x) = false.
    Proof.
      split.
      - induction l as [|x l IH]; cbn [map find]; [discriminate|]; destruct (P (f x)) eqn:Px.
        + intros X; injection X as <-; exists [], x, l; repeat split; [exact Px|intros ? []].
        + intros X; destruct (IH X) as [a [e [b [-> [F [Py N]]]]]]; exists (x :: a), e, b; repeat split; try assumption.
          intros x' [<-|I]; [exact Px|apply N, I].
      - intros [a [e [b [-> [<- [Py N]]]]]]; induction a as [|x a IH]; cbn [app map find]; [rewrite Py; reflexivity|].
        rewrite N by (left; reflexivity); apply IH; intros x' I; apply N; right; exact I.
    Qed.
    Lemma language_first i l : language r i = Ok l <-> first_language es i l.
    Proof.
      rewrite language_find; destruct (find (has i) (map (@e_lang date) es)) as [l'|] eqn:F; cbn [of_option].
      - split.
        + intros X; injection X as <-; apply find_map_iff in F; destruct F as [a [e [b [Es [El [Py N]]]]]].
          exists a, e, b; split; [exact Es|split; [exact El|split; [apply has_iff, Py|]]].
          intros x I H; apply has_iff in H; rewrite (N x I) in H; discriminate.
        + intros [a [e [b [Es [El [H N]]]]]].
          assert (X : find (has i) (map (@e_lang date) es) = Some l); [|congruence].
          apply find_map_iff; exists a, e, b; split; [exact Es|split; [exact El|split; [apply has_iff, H|]]].
          intros x I; destruct (has i (e_lang x)) eqn:Hx; [|reflexivity]; apply has_iff in Hx; elim (N x I Hx).
      - split; [discriminate|]; intros [a [e [b [Es [El [H N]]]]]].
        apply has_iff in H; assert (I : In l (map (@e_lang date) es)) by (rewrite Es, <- El; apply in_map, in_or_app; right; left; reflexivity).
        rewrite (find_none _ _ F l I) in H; discriminate.
    Qed.
    Lemma language_unknown i : language r i = Raise InvalidIDError <-> ~ known es i.
    Proof.
      rewrite language_find; destruct (find (has i) (map (@e_lang date) es)) as [l'|] eqn:F; cbn [of_option].
      - split; [discriminate|]; intros N; apply find_some in F; destruct F as [_ H]; apply has_iff in H; destruct H as [e [I [_ X]]]; elim N; exists e; auto.
      - split; [|reflexivity]; intros _ [e [I X]].
        assert (H : has i (e_lang e) = true) by (apply has_iff; exists e; auto).
        rewrite (find_none _ _ F (e_lang e) (in_map _ _ _ I)) in H; discriminate.
    Qed.
    Lemma language_unique i e : (forall e1 e2, In e1 es -> In e2 es -> e_id e1 = e_id e2 -> e_lang e1 = e_lang e2) -> In e es -> e_id e = i -> language r i = Ok (e_lang e).
    Proof.
      intros U I X; destruct (language r i) as [l|x] eqn:L.
      - apply language_first in L; destruct L as [_ [_ [_ [_ [_ [[e' [I' [<- X']]] _]]]]]]; rewrite (U e' e I' I) by congruence; reflexivity.
      - assert (N : x = InvalidIDError) by (rewrite language_find in L; destruct (find _ _); cbn [of_option] in L; congruence).
        subst x; apply language_unknown in L; elim L; exists e; auto.
    Qed.
  End Loaded.
End Sentences.

(* ------------------------------------------------------------------ *)
(** ** Links *)
Lemma connected_mono ps qs x y : incl ps qs -> connected ps x y -> connected qs x y.
Proof.
  intros H; induction 1 as [x [p [I E]]|x y I| |]; [apply Conn_refl; exists p; auto|apply Conn_step, H, I|apply Conn_sym; assumption|eapply Conn_trans; eassumption].
Qed.
Lemma endpoint_app ps qs x : endpoint (ps ++ qs) x <-> endpoint ps x \/ endpoint qs x.
Proof.
  unfold endpoint; split.
  - intros [p [I E]]; apply in_app_or in I; destruct I; [left|right]; eauto.
  - intros [[p [I E]]|[p [I E]]]; exists p; (split; [apply in_or_app; auto|exact E]).
Qed.
Lemma endpoint_one p x : endpoint [p] x <-> fst p = x \/ snd p = x.
Proof. unfold endpoint; split; [intros [q [[<-|[]] E]]; exact E|intros E; exists p; split; [left; reflexivity|exact E]]. Qed.
Lemma connected_endpoint ps x y : connected ps x y -> endpoint ps x /\ endpoint ps y.
Proof.
  induction 1 as [x E|x y I|x y _ [A B]|x y z _ [A B] _ [C D]]; auto.
  split; exists (x, y); auto.
Qed.

Record inv (ps : list (Z * Z)) (st : lstate) : Prop := {
  inv_keys : forall x, (exists n, dget x (link_dict st) = Some n) <-> endpoint ps x;
  inv_own : forall x n, dget x (link_dict st) = Some n -> exists g, dget n (group_dict st) = Some g /\ In x g;
  inv_conn : forall n g x y, dget n (group_dict st) = Some g -> In x g -> In y g -> connected ps x y;
  inv_bound : forall n g, dget n (group_dict st) = Some g -> (n < nodes st)%nat /\ g <> [];
  inv_nodup : NoDup (dkeys (group_dict st)) }.

Definition init := mklstate [] [] 0.
Lemma inv_init : inv [] init.
Proof.
  split; cbn; try discriminate; [|constructor].
  intros x; split; [intros [n X]; discriminate|intros [p [[] _]]].
Qed.
(** one link, by cases *)
Lemma add_link_cases s t st :
  (exists n, dget s (link_dict st) = Some n /\ add_link (s, t) st =
     mklstate (dset t n (link_dict st)) (dset n (sadd t (match dget n (group_dict st) with Some g => g | None => [] end)) (group_dict st)) (nodes st)) \/
  (dget s (link_dict st) = None /\ exists n, dget t (link_dict st) = Some n /\ add_link (s, t) st =
     mklstate (dset s n (link_dict st)) (dset n (sadd s (match dget n (group_dict st) with Some g => g | None => [] end)) (group_dict st)) (nodes st)) \/
  (dget s (link_dict st) = None /\ dget t (link_dict st) = None /\ exists d g,
     add_link (s, t) st = mklstate d (dset (nodes st) g (group_dict st)) (S (nodes st)) /\
     (forall x, dget x d = if eqb x s || eqb x t then Some (nodes st) else dget x (link_dict st)) /\
     (forall x, In x g <-> In x (match dget (nodes st) (group_dict st) with Some g => g | None => [] end) \/ x = s \/ x = t)).
Proof.
  unfold add_link; destruct (dget s (link_dict st)) as [n|] eqn:Es; [left; exists n; auto|right].
  destruct (dget t (link_dict st)) as [n|] eqn:Et; [left; split; [reflexivity|exists n; auto]|right].
  split; [reflexivity|split; [reflexivity|]]; do 2 eexists; split; [reflexivity|split].
  - intros x; unfold set_of, supdate; cbn [fold_left]; unfold sadd at 1 2; cbn [mem app]; destruct (eqb_spec s t) as [->|N].
    + cbn [fold_left]; rewrite dget_dset; destruct (eqb x t); reflexivity.
    + cbn [fold_left app]; rewrite !dget_dset; destruct (eqb x s), (eqb x t); reflexivity.
  - intros x; rewrite In_supdate, In_set_of; cbn [In]; intuition congruence.
Qed.
Lemma inv_step ps st s t : inv ps st -> inv (ps ++ [(s, t)]) (add_link (s, t) st).
Proof.
  intros [IK IO IC IB IN].
  assert (Inc : incl ps (ps ++ [(s, t)])) by (intros x I; apply in_or_app; auto).
  assert (ST : connected (ps ++ [(s, t)]) s t) by (apply Conn_step, in_or_app; right; left; reflexivity).
  destruct (add_link_cases s t st) as [[n [Es ->]]|[[Es [n [Et ->]]]|[Es [Et [d [g [-> [D G]]]]]]]].
  - destruct (IO s n Es) as [g [Eg Ig]]; rewrite Eg; destruct (IB n g Eg) as [Bn Ng]; split; cbn [link_dict group_dict nodes].
    + intros x; rewrite endpoint_app, endpoint_one; cbn [fst snd]; rewrite dget_dset; destruct (eqb_spec x t) as [->|N].
      * split; [auto|intros _; eauto].
      * rewrite IK; split; [auto|intros [X|[<-|<-]]; [exact X|apply IK; eauto|contradiction]].
    + intros x m; rewrite dget_dset; destruct (eqb_spec x t) as [->|N]; intros X.
      * injection X as <-; rewrite dget_dset_same; eexists; split; [reflexivity|apply In_sadd; auto].
      * destruct (IO x m X) as [h [Eh Ih]]; rewrite dget_dset; destruct (eqb_spec m n) as [->|N'].
        -- eexists; split; [reflexivity|apply In_sadd; right; congruence].
        -- eauto.
    + intros m h x y; rewrite dget_dset; destruct (eqb_spec m n) as [->|N'].
      * intros X; injection X as <-; rewrite !In_sadd.
        assert (Y : forall z, z = t \/ In z g -> connected (ps ++ [(s, t)]) s z).
        { intros z [->|Iz]; [exact ST|apply (connected_mono ps); [exact Inc|]; eapply IC; eassumption]. }
        intros X1 X2; apply (Conn_trans _ _ s); [apply Conn_sym, Y, X1|apply Y, X2].
      * intros X1 X2 X3; apply (connected_mono ps); [exact Inc|]; eapply IC; eassumption.
    + intros m h; rewrite dget_dset; destruct (eqb_spec m n) as [->|N']; [|apply IB].
      intros X; injection X as <-; split; [exact Bn|]; intros X; assert (I : In t (sadd t g)) by (apply In_sadd; auto); rewrite X in I; destruct I.
    + rewrite dkeys_sadd; apply NoDup_sadd, IN.
  - destruct (IO t n Et) as [g [Eg Ig]]; rewrite Eg; destruct (IB n g Eg) as [Bn Ng]; split; cbn [link_dict group_dict nodes].
    + intros x; rewrite endpoint_app, endpoint_one; cbn [fst snd]; rewrite dget_dset; destruct (eqb_spec x s) as [->|N].
      * split; [auto|intros _; eauto].
      * rewrite IK; split; [auto|intros [X|[<-|<-]]; [exact X|contradiction|apply IK; eauto]].
    + intros x m; rewrite dget_dset; destruct (eqb_spec x s) as [->|N]; intros X.
      * injection X as <-; rewrite dget_dset_same; eexists; split; [reflexivity|apply In_sadd; auto].
      * destruct (IO x m X) as [h [Eh Ih]]; rewrite dget_dset; destruct (eqb_spec m n) as [->|N'].
        -- eexists; split; [reflexivity|apply In_sadd; right; congruence].
        -- eauto.
    + intros m h x y; rewrite dget_dset; destruct (eqb_spec m n) as [->|N'].
      * intros X; injection X as <-; rewrite !In_sadd.
        assert (Y : forall z, z = s \/ In z g -> connected (ps ++ [(s, t)]) t z).
        { intros z [->|Iz]; [apply Conn_sym, ST|apply (connected_mono ps); [exact Inc|]; eapply IC; eassumption]. }
        intros X1 X2; apply (Conn_trans _ _ t); [apply Conn_sym, Y, X1|apply Y, X2].
      * intros X1 X2 X3; apply (connected_mono ps); [exact Inc|]; eapply IC; eassumption.
    + intros m h; rewrite dget_dset; destruct (eqb_spec m n) as [->|N']; [|apply IB].
      intros X; injection X as <-; split; [exact Bn|]; intros X; assert (I : In s (sadd s g)) by (apply In_sadd; auto); rewrite X in I; destruct I.
    + rewrite dkeys_sadd; apply NoDup_sadd, IN.
  - assert (NoG : dget (nodes st) (group_dict st) = None).
    { destruct (dget (nodes st) (group_dict st)) as [h|] eqn:X; [apply IB in X; lia|reflexivity]. }
    rewrite NoG in G; cbn [In] in G; split; cbn [link_dict group_dict nodes].
    + intros x; rewrite endpoint_app, endpoint_one; cbn [fst snd]; rewrite D.
      destruct (eqb_spec x s) as [->|N]; cbn [orb]; [split; [auto|eauto]|]; destruct (eqb_spec x t) as [->|N']; [split; [auto|eauto]|].
      rewrite IK; split; [auto|intros [X|[<-|<-]]; [exact X|contradiction|contradiction]].
    + intros x m; rewrite D; destruct (eqb_spec x s) as [->|N]; cbn [orb]; [|destruct (eqb_spec x t) as [->|N']]; intros X.
      * injection X as <-; rewrite dget_dset_same; eexists; split; [reflexivity|apply G; auto].
      * injection X as <-; rewrite dget_dset_same; eexists; split; [reflexivity|apply G; auto].
      * destruct (IO x m X) as [h [Eh Ih]]; exists h; split; [|exact Ih]; rewrite dget_dset_other; [exact Eh|apply IB in Eh; lia].
    + intros m h x y; rewrite dget_dset; destruct (eqb_spec m (nodes st)) as [->|N'].
      * intros X; injection X as <-; rewrite !G.
        assert (Y : forall z, False \/ z = s \/ z = t -> connected (ps ++ [(s, t)]) s z).
        { intros z [[]|[->| ->]]; [|exact ST]; apply Conn_refl, endpoint_app; right; apply endpoint_one; auto. }
        intros X1 X2; apply (Conn_trans _ _ s); [apply Conn_sym, Y, X1|apply Y, X2].
      * intros X1 X2 X3; apply (connected_mono ps); [exact Inc|]; eapply IC; eassumption.
    + intros m h; rewrite dget_dset; destruct (eqb_spec m (nodes st)) as [->|N']; [|intros X; apply IB in X; split; [lia|tauto]].
      intros X; injection X as <-; split; [lia|]; intros X; assert (I : In s g) by (apply G; auto); rewrite X in I; destruct I.
    + rewrite dkeys_sadd; apply NoDup_sadd, IN.
Qed.
Definition links_state (ps : list (Z * Z)) : lstate := fold_left (fun st p => add_link p st) ps init.
Lemma links_snoc ps p : links_state (ps ++ [p]) = add_link p (links_state ps).
Proof. unfold links_state; rewrite fold_left_app; reflexivity. Qed.
Lemma links_inv ps : inv ps (links_state ps).
Proof.
  induction ps as [|[s t] ps IH] using rev_ind; [exact inv_init|]; rewrite links_snoc; apply inv_step, IH.
Qed.

(** groups only grow *)
Lemma grow_step p st n g x : dget n (group_dict st) = Some g -> In x g ->
  (forall m h, dget m (group_dict st) = Some h -> (m < nodes st)%nat) ->
  exists g', dget n (group_dict (add_link p st)) = Some g' /\ In x g'.
Proof.
  destruct p as [s t]; intros E I B; destruct (add_link_cases s t st) as [[m [Es ->]]|[[Es [m [Et ->]]]|[Es [Et [d [h [-> [D G]]]]]]]];
    cbn [group_dict]; rewrite dget_dset.
  - destruct (eqb_spec n m) as [->|N]; [rewrite E; eexists; split; [reflexivity|apply In_sadd; auto]|eauto].
  - destruct (eqb_spec n m) as [->|N]; [rewrite E; eexists; split; [reflexivity|apply In_sadd; auto]|eauto].
  - destruct (eqb_spec n (nodes st)) as [->|N]; [apply B in E; lia|eauto].
Qed.
Lemma grow ps qs n g x : dget n (group_dict (links_state ps)) = Some g -> In x g ->
  exists g', dget n (group_dict (links_state (ps ++ qs))) = Some g' /\ In x g'.
Proof.
  intros E I; induction qs as [|q qs IH] using rev_ind; [rewrite app_nil_r; eauto|].
  destruct IH as [g' [E' I']]; rewrite app_assoc, links_snoc; apply (grow_step q _ n g'); [exact E'|exact I'|].
  intros m h X; apply (inv_bound _ _ (links_inv (ps ++ qs)) _ _ X).
Qed.

(** without bridges *)
Definition exact_ (ps : list (Z * Z)) (st : lstate) : Prop :=
  (forall n g x, dget n (group_dict st) = Some g -> In x g -> dget x (link_dict st) = Some n) /\
  (forall x y, In (x, y) ps -> dget x (link_dict st) = dget y (link_dict st)).
Lemma exact_same ps st x y : exact_ ps st -> connected ps x y -> dget x (link_dict st) = dget y (link_dict st).
Proof. intros [_ P]; induction 1; [reflexivity|apply P; assumption|congruence|congruence]. Qed.
Lemma bridge_app ps qs : bridge ps -> bridge (ps ++ qs).
Proof. intros [a [x [y [b [-> H]]]]]; exists a, x, y, (b ++ qs); rewrite <- app_assoc; auto. Qed.
Lemma exact_step ps st s t : inv ps st -> exact_ ps st -> ~ bridge (ps ++ [(s, t)]) -> exact_ (ps ++ [(s, t)]) (add_link (s, t) st).
Proof.
  intros [IK IO IC IB IN] X NB; pose proof X as [XG XP].
  assert (Known : forall x y, In (x, y) ps -> endpoint ps x /\ endpoint ps y) by (intros x y I; split; exists (x, y); auto).
  assert (NoLink : forall x, dget x (link_dict st) = None -> ~ endpoint ps x) by (intros x E K; apply IK in K; destruct K; congruence).
  destruct (add_link_cases s t st) as [[n [Es ->]]|[[Es [n [Et ->]]]|[Es [Et [d [g [-> [D G]]]]]]]].
  - destruct (IO s n Es) as [g [Eg Ig]]; rewrite Eg.
    assert (Tn : dget t (link_dict st) = Some n \/ dget t (link_dict st) = None).
    { destruct (dget t (link_dict st)) as [m|] eqn:Et; [left|auto]; destruct (Nat.eq_dec m n) as [->|N]; [reflexivity|].
      elim NB; exists ps, s, t, []; split; [reflexivity|split; [apply IK; eauto|split; [apply IK; eauto|]]].
      intros C; apply (exact_same ps st) in C; [congruence|exact X]. }
    assert (TG : forall m h, dget m (group_dict st) = Some h -> In t h -> m = n).
    { intros m h Em Im; apply XG with (x := t) in Em; [|exact Im]; destruct Tn; congruence. }
    split; cbn [link_dict group_dict].
    + intros m h x; rewrite !dget_dset; destruct (eqb_spec m n) as [->|N].
      * intros Y; injection Y as <-; rewrite In_sadd; destruct (eqb_spec x t) as [->|N]; [reflexivity|].
        intros [->|I]; [contradiction|apply (XG n g); assumption].
      * intros Y I; destruct (eqb_spec x t) as [->|N']; [elim N; eapply TG; eassumption|apply (XG m h); assumption].
    + intros x y I; rewrite !dget_dset; apply in_app_or in I; destruct I as [I|[I|[]]].
      * destruct Tn as [Tn|Tn].
        -- destruct (eqb_spec x t) as [->|Nx], (eqb_spec y t) as [->|Ny]; try reflexivity.
           ++ rewrite <- (XP _ _ I), Tn; reflexivity.
           ++ rewrite (XP _ _ I), Tn; reflexivity.
           ++ apply XP, I.
        -- destruct (Known x y I) as [Kx Ky].
           destruct (eqb_spec x t) as [->|Nx]; [elim (NoLink t Tn Kx)|]; destruct (eqb_spec y t) as [->|Ny]; [elim (NoLink t Tn Ky)|]; apply XP, I.
      * injection I as <- <-; rewrite eqb_refl; destruct (eqb s t); [reflexivity|exact Es].
  - destruct (IO t n Et) as [g [Eg Ig]]; rewrite Eg.
    assert (TG : forall m h, dget m (group_dict st) = Some h -> ~ In s h).
    { intros m h Em Im; apply XG with (x := s) in Em; [|exact Im]; congruence. }
    split; cbn [link_dict group_dict].
    + intros m h x; rewrite !dget_dset; destruct (eqb_spec m n) as [->|N].
      * intros Y; injection Y as <-; rewrite In_sadd; destruct (eqb_spec x s) as [->|N]; [reflexivity|].
        intros [->|I]; [contradiction|apply (XG n g); assumption].
      * intros Y I; destruct (eqb_spec x s) as [->|N']; [elim (TG _ _ Y I)|apply (XG m h); assumption].
    + intros x y I; rewrite !dget_dset; apply in_app_or in I; destruct I as [I|[I|[]]].
      * destruct (Known x y I) as [Kx Ky].
        destruct (eqb_spec x s) as [->|Nx]; [elim (NoLink s Es Kx)|]; destruct (eqb_spec y s) as [->|Ny]; [elim (NoLink s Es Ky)|]; apply XP, I.
      * injection I as <- <-; rewrite eqb_refl; destruct (eqb_spec t s) as [->|]; [reflexivity|symmetry; exact Et].
  - assert (NoG : dget (nodes st) (group_dict st) = None).
    { destruct (dget (nodes st) (group_dict st)) as [h|] eqn:Y; [apply IB in Y; lia|reflexivity]. }
    rewrite NoG in G; cbn [In] in G; split; cbn [link_dict group_dict].
    + intros m h x; rewrite dget_dset, D; destruct (eqb_spec m (nodes st)) as [->|N].
      * intros Y; injection Y as <-; rewrite G; intros [[]|[->| ->]]; rewrite eqb_refl; [|rewrite orb_true_r]; reflexivity.
      * intros Y I; pose proof (XG m h x Y I) as L.
        destruct (eqb_spec x s) as [->|]; [congruence|]; destruct (eqb_spec x t) as [->|]; [congruence|exact L].
    + intros x y I; rewrite !D; apply in_app_or in I; destruct I as [I|[I|[]]].
      * destruct (Known x y I) as [Kx Ky].
        destruct (eqb_spec x s) as [->|]; [elim (NoLink s Es Kx)|]; destruct (eqb_spec x t) as [->|]; [elim (NoLink t Et Kx)|].
        destruct (eqb_spec y s) as [->|]; [elim (NoLink s Es Ky)|]; destruct (eqb_spec y t) as [->|]; [elim (NoLink t Et Ky)|].
        apply XP, I.
      * injection I as <- <-; rewrite !eqb_refl, orb_true_r; reflexivity.
Qed.
Lemma links_exact ps : ~ bridge ps -> exact_ ps (links_state ps).
Proof.
  induction ps as [|[s t] ps IH] using rev_ind; intros NB; [split; [discriminate|intros x y []]|].
  rewrite links_snoc; apply exact_step; [apply links_inv|apply IH; intros B; apply NB, bridge_app, B|exact NB].
Qed.
Lemma vals_nth {K V} `{EqB K} (d : dict K V) n g : NoDup (dkeys d) -> nth_error (map snd d) n = Some g ->
  exists k, nth_error (dkeys d) n = Some k /\ dget k d = Some g.
Proof.
  intros ND E; rewrite nth_error_map in E; destruct (nth_error d n) as [[k v]|] eqn:X; [|discriminate]; injection E as ->.
  exists k; split; [unfold dkeys; rewrite nth_error_map, X; reflexivity|]; apply In_dget; [exact ND|apply nth_error_In in X; exact X].
Qed.
Lemma groups_partition ps : ~ bridge ps -> partition (map snd (group_dict (links_state ps))).
Proof.
  intros NB; destruct (links_exact ps NB) as [XG _]; destruct (links_inv ps) as [_ _ _ IB IN]; split.
  - apply Forall_forall; intros g I; apply in_map_iff in I; destruct I as [[n h] [<- I]]; apply (IB n), In_dget; assumption.
  - intros n m g h x En Em Ig Ih; apply vals_nth in En, Em; try exact IN; destruct En as [k [Kn Dn]], Em as [k' [Km Dm]].
    assert (E : k = k') by (pose proof (XG k g x Dn Ig); pose proof (XG k' h x Dm Ih); congruence); subst k'.
    apply (NoDup_nth_error (dkeys (group_dict (links_state ps)))); [exact IN| |congruence].
    apply nth_error_Some; congruence.
Qed.
Lemma partition_no_bridge ps : partition (map snd (group_dict (links_state ps))) -> ~ bridge ps.
Proof.
  intros [_ P] [a [x [y [b [-> [Ex [Ey NC]]]]]]].
  destruct (links_inv a) as [IK IO IC IB IN].
  apply IK in Ex, Ey; destruct Ex as [n En], Ey as [m Em]; destruct (IO x n En) as [g [Eg Ig]], (IO y m Em) as [h [Eh Ih]].
  assert (N : n <> m) by (intros ->; apply NC, (IC m g); congruence).
  assert (Y : exists g', dget n (group_dict (links_state (a ++ [(x, y)]))) = Some g' /\ In y g').
  { rewrite links_snoc; destruct (add_link_cases x y (links_state a)) as [[k [Es ->]]|[[Es _]|[Es _]]]; [|congruence|congruence].
    assert (k = n) by congruence; subst k; cbn [group_dict]; rewrite dget_dset_same; eexists; split; [reflexivity|apply In_sadd; auto]. }
  destruct Y as [g1 [Eg1 Ig1]].
  destruct (grow (a ++ [(x, y)]) b n g1 y Eg1 Ig1) as [g2 [Eg2 Ig2]]; rewrite <- app_assoc in Eg2; cbn [app] in Eg2.
  destruct (grow a ((x, y) :: b) m h y Eh Ih) as [h2 [Eh2 Ih2]].
  apply dget_In in Eg2, Eh2; apply In_nth_error in Eg2, Eh2; destruct Eg2 as [i Ei], Eh2 as [j Ej].
  assert (i = j) by (apply (P i j g2 h2 y); [rewrite nth_error_map, Ei; reflexivity|rewrite nth_error_map, Ej; reflexivity|exact Ig2|exact Ih2]).
  subst j; congruence.
Qed.

(** reading rows of links *)
Section LinkRows.
  Variable dv : Z -> option Z.
  Lemma link_row_iff row p : link_row dv row = Ok p <-> exists a b, row = [a; b] /\ py_int dv 10 a = Some (fst p) /\ py_int dv 10 b = Some (snd p).
  Proof.
    unfold link_row, int_; split.
    - destruct row as [|a [|b [|c row]]]; try discriminate; destruct (py_int dv 10 a) as [x|] eqn:A; cbn [of_option]; [|discriminate].
      destruct (py_int dv 10 b) as [y|] eqn:B; cbn [of_option]; [|discriminate]; intros X; injection X as <-; exists a, b; auto.
    - intros [a [b [-> [A B]]]]; rewrite A, B; destruct p; reflexivity.
  Qed.
  Lemma link_row_error row e : link_row dv row = Raise e -> e = InvalidFileError.
  Proof.
    unfold link_row; destruct row as [|a [|b [|c row]]]; try (intros X; injection X as <-; reflexivity).
    destruct (int_ dv a), (int_ dv b); congruence.
  Qed.
  Lemma read_links_iff s fs ft rows : forall st st', read_links dv s fs ft rows st = Ok st' <->
    exists ps, link_rows dv rows ps /\ st' = fold_left (fun st p => add_link p st) (filter (fun p => negb (skipped s fs ft p)) ps) st.
  Proof.
    induction rows as [|row rows IH]; intros st st'; cbn [read_links].
    - split; [intros X; injection X as <-; exists []; split; [constructor|reflexivity]|intros [ps [L ->]]; inversion L; reflexivity].
    - split.
      + destruct (link_row dv row) as [p|] eqn:R; [|discriminate]; cbn [bind]; intros X; apply IH in X; destruct X as [ps [L ->]].
        exists (p :: ps); split; [constructor; [apply link_row_iff, R|exact L]|]; cbn [filter]; destruct (skipped s fs ft p); reflexivity.
      + intros [ps [L ->]]; inversion L as [|? p ? ps' R L']; subst; apply link_row_iff in R; rewrite R; cbn [bind]; apply IH.
        exists ps'; split; [exact L'|]; cbn [filter]; destruct (skipped s fs ft p); reflexivity.
  Qed.
  Lemma read_links_error s fs ft rows : forall st e, read_links dv s fs ft rows st = Raise e -> e = InvalidFileError /\ forall ps, ~ link_rows dv rows ps.
  Proof.
    intros st e X; split.
    - revert st X; induction rows as [|row rows IH]; intros st; cbn [read_links]; [discriminate|].
      destruct (link_row dv row) as [p|] eqn:R; cbn [bind]; [apply IH|intros X; injection X as <-; apply (link_row_error row), R].
    - intros ps L; assert (Y : read_links dv s fs ft rows st = Ok (fold_left (fun st p => add_link p st) (filter (fun p => negb (skipped s fs ft p)) ps) st)) by (apply read_links_iff; eauto).
      congruence.
  Qed.
  Variable lower : str -> str.
  Lemma filter_value v : dget v filter_values = if eqb v (u "sent_id") then Some (true, false) else if eqb v (u "trans_id") then Some (false, true) else if eqb v (u "both") then Some (true, true) else None.
  Proof. reflexivity. Qed.
  Lemma filter_known v : (exists x, dget v filter_values = Some x) <-> filter_name v.
  Proof.
    rewrite filter_value; unfold filter_name; destruct (eqb_spec v (u "sent_id")) as [->|N1]; [split; eauto|].
    destruct (eqb_spec v (u "trans_id")) as [->|N2]; [split; eauto|].
    destruct (eqb_spec v (u "both")) as [->|N3]; [split; eauto|].
    split; [intros [x X]; discriminate|tauto].
  Qed.
  Definition flags (ids : option (list Z)) (v : str) : bool * bool :=
    match ids with None => (false, false) | Some _ => match dget v filter_values with Some x => x | None => (false, false) end end.
  Lemma mem_set_of x (l : list Z) : mem x (set_of l) = mem x l.
  Proof.
    destruct (mem x l) eqn:E; [apply mem_In, In_set_of, mem_In, E|].
    apply mem_false; intros I; apply (proj1 (mem_false x l) E), (proj1 (In_set_of x l) I).
  Qed.
  Lemma used_filter ids v ps : filter_name v ->
    filter (fun p => negb (skipped (option_map (fun l => set_of l) ids) (fst (flags ids v)) (snd (flags ids v)) p)) ps = used v ids ps.
  Proof.
    intros F; destruct ids as [l|]; cbn [used flags option_map].
    - apply filter_ext; intros [a b]; unfold skipped, keeps; cbn [fst snd]; rewrite !mem_set_of, filter_value.
      destruct F as [->|[->| ->]].
      + change (eqb (u "sent_id") (u "sent_id")) with true; cbv iota; cbn [fst snd andb]; rewrite orb_false_r, negb_involutive; reflexivity.
      + change (eqb (u "trans_id") (u "sent_id")) with false; change (eqb (u "trans_id") (u "trans_id")) with true; cbv iota; cbn [fst snd andb orb]; apply negb_involutive.
      + change (eqb (u "both") (u "sent_id")) with false; change (eqb (u "both") (u "trans_id")) with false; change (eqb (u "both") (u "both")) with true; cbv iota; cbn [fst snd andb].
        rewrite negb_orb, !negb_involutive; reflexivity.
    - induction ps as [|p ps IH]; [reflexivity|]; cbn [filter]; rewrite IH; reflexivity.
  Qed.
  Definition the_lreader (ids : option (list Z)) (v name : str) (ps : list (Z * Z)) : lreader :=
    mklreader (option_map (fun l => set_of l) ids) (fst (flags ids v)) (snd (flags ids v)) v name
      (Some (link_dict (links_state (used v ids ps)), group_dict (links_state (used v ids ps)))).
  Lemma new_links_ok name rows ids flt ps : filter_name (lower flt) -> link_rows dv rows ps ->
    new_links dv lower name (rows, Ok tt) ids flt = (true, Ok (the_lreader ids (lower flt) name ps)).
  Proof.
    intros F L; unfold new_links, ids_filter; pose proof (proj2 (filter_known (lower flt)) F) as [x X]; rewrite X.
    assert (Y : forall A (k : bool -> bool -> A), (let (fs, ft) := match option_map (fun l : list Z => set_of l) ids with None => (false, false) | Some _ => x end in k fs ft) = k (fst (flags ids (lower flt))) (snd (flags ids (lower flt)))).
    { intros A k; unfold flags; rewrite X; destruct ids; cbn [option_map]; [destruct x|]; reflexivity. }
    rewrite (Y _ (fun fs ft => _)); unfold set_links; cbn [subset filter_sent filter_trans filter_str ldicts fst snd].
    assert (R : read_links dv (option_map (fun l => set_of l) ids) (fst (flags ids (lower flt))) (snd (flags ids (lower flt))) rows (mklstate [] [] 0) = Ok (links_state (used (lower flt) ids ps))).
    { apply read_links_iff; exists ps; split; [exact L|]; rewrite used_filter by exact F; reflexivity. }
    rewrite R; reflexivity.
  Qed.
  Lemma new_links_unknown name src ids flt : ~ filter_name (lower flt) -> new_links dv lower name src ids flt = (false, Raise ValueError).
  Proof.
    intros N; unfold new_links, ids_filter; destruct (dget (lower flt) filter_values) as [x|] eqn:X; [elim N; apply filter_known; eauto|reflexivity].
  Qed.
  Lemma new_links_bad name rows o ids flt : filter_name (lower flt) -> (forall ps, ~ link_rows dv rows ps) ->
    new_links dv lower name (rows, o) ids flt = (true, Raise InvalidFileError).
  Proof.
    intros F N; unfold new_links, ids_filter; pose proof (proj2 (filter_known (lower flt)) F) as [x X]; rewrite X.
    destruct (match option_map (fun l : list Z => set_of l) ids with None => (false, false) | Some _ => x end) as [fs ft].
    unfold set_links; cbn [subset filter_sent filter_trans filter_str ldicts fst snd].
    destruct (read_links dv (option_map (fun l => set_of l) ids) fs ft rows (mklstate [] [] 0)) as [st|e] eqn:R.
    - apply read_links_iff in R; destruct R as [ps [L _]]; elim (N ps L).
    - apply read_links_error in R; destruct R as [-> _]; reflexivity.
  Qed.
  Lemma new_links_failed name rows e ids flt ps : filter_name (lower flt) -> link_rows dv rows ps ->
    new_links dv lower name (rows, Raise e) ids flt = (true, Raise e).
  Proof.
    intros F L; unfold new_links, ids_filter; pose proof (proj2 (filter_known (lower flt)) F) as [x X]; rewrite X.
    destruct (match option_map (fun l : list Z => set_of l) ids with None => (false, false) | Some _ => x end) as [fs ft].
    unfold set_links; cbn [subset filter_sent filter_trans filter_str ldicts fst snd].
    destruct (read_links dv (option_map (fun l => set_of l) ids) fs ft rows (mklstate [] [] 0)) as [st|e'] eqn:R; [reflexivity|].
    apply read_links_error in R; destruct R as [_ N]; elim (N ps L).
  Qed.

  Lemma link_rows_dec rows : (exists ps, link_rows dv rows ps) \/ forall ps, ~ link_rows dv rows ps.
  Proof.
    destruct (read_links dv None false false rows init) as [st|e] eqn:R.
    - apply read_links_iff in R; destruct R as [ps [L _]]; eauto.
    - right; apply (read_links_error _ _ _ _ _ _ R).
  Qed.
  (** groups of the reader *)
  Lemma groups_cover ps x : (exists g, In g (map snd (group_dict (links_state ps))) /\ In x g) <-> endpoint ps x.
  Proof.
    destruct (links_inv ps) as [IK IO IC IB IN]; split.
    - intros [g [Ig Ix]]; apply in_map_iff in Ig; destruct Ig as [[n g'] [X In_]]; cbn [snd] in X; subst g'.
      apply In_dget in In_; [|exact IN]; apply (connected_endpoint ps x x), (IC n g); assumption.
    - intros E; apply IK in E; destruct E as [n En]; destruct (IO x n En) as [g [Eg Ix]]; exists g; split; [|exact Ix].
      apply dget_In in Eg; apply in_map_iff; exists (n, g); auto.
  Qed.
  Lemma group_get ids v name ps i : let st := links_state (used v ids ps) in
    group (the_lreader ids v name ps) i =
    match dget i (link_dict st) with
    | Some n => match dget n (group_dict st) with Some g => Ok g | None => Raise InvalidIDError end
    | None => Raise InvalidIDError
    end.
  Proof.
    unfold group, lgetitem, dgetitem; cbn [ldicts the_lreader of_option bind fst snd].
    destruct (dget i _) as [n|]; cbn [of_option bind]; [|reflexivity]; destruct (dget n _); reflexivity.
  Qed.
  Lemma group_known ids v name ps i : endpoint (used v ids ps) i ->
    exists g, group (the_lreader ids v name ps) i = Ok g /\ In i g /\ forall y, In y g -> connected (used v ids ps) i y.
  Proof.
    intros E; rewrite group_get; cbv zeta; destruct (links_inv (used v ids ps)) as [IK IO IC IB IN].
    apply IK in E; destruct E as [n En]; rewrite En; destruct (IO i n En) as [g [Eg Ig]]; rewrite Eg; exists g.
    split; [reflexivity|split; [exact Ig|]]; intros y Iy; apply (IC n g); assumption.
  Qed.
  Lemma group_unknown ids v name ps i : ~ endpoint (used v ids ps) i -> group (the_lreader ids v name ps) i = Raise InvalidIDError.
  Proof.
    intros N; rewrite group_get; cbv zeta; destruct (dget i _) as [n|] eqn:E; [|reflexivity].
    elim N; apply (inv_keys _ _ (links_inv (used v ids ps))); eauto.
  Qed.
  Lemma group_component ids v name ps i g : ~ bridge (used v ids ps) -> group (the_lreader ids v name ps) i = Ok g ->
    forall y, In y g <-> connected (used v ids ps) i y.
  Proof.
    intros NB E; rewrite group_get in E; cbv zeta in E; destruct (links_exact _ NB) as [XG XP]; destruct (links_inv (used v ids ps)) as [IK IO IC IB IN].
    destruct (dget i _) as [n|] eqn:En; [|discriminate]; destruct (dget n _) as [h|] eqn:Eh; [|discriminate]; injection E as ->.
    destruct (IO i n En) as [g' [Eg Ig]]; assert (g' = g) by congruence; subst g'.
    intros y; split; [intros Iy; apply (IC n g); assumption|].
    intros C; pose proof (exact_same _ _ _ _ (conj XG XP) C) as S; rewrite En in S; symmetry in S.
    destruct (IO y n S) as [g' [Eg' Iy]]; congruence.
  Qed.
  Lemma group_iff ids v name ps i : (exists g, group (the_lreader ids v name ps) i = Ok g) <-> endpoint (used v ids ps) i.
  Proof.
    split; [|intros E; apply (group_known ids v name ps) in E; destruct E as [g [G _]]; eauto].
    intros [g G]; rewrite group_get in G; cbv zeta in G; destruct (dget i _) as [n|] eqn:E; [|discriminate].
    apply (inv_keys _ _ (links_inv (used v ids ps))); eauto.
  Qed.
End LinkRows.

(* ------------------------------------------------------------------ *)
(** ** Indices *)
Section Indices.
  Variable dv : Z -> option Z.
  Hypothesis A : unicode_digits dv.
  Definition apply_ientry (d : dict Z (list word) * dict Z Z) (e : ientry) : dict Z (list word) * dict Z Z :=
    (dset (i_id e) (i_words e) (fst d), dset (i_id e) (i_link e) (snd d)).
  Lemma index_row_iff s edict row d d' : index_row dv s edict row d = Ok d' <->
    exists es, ientries dv s edict [row] es /\ d' = fold_left apply_ientry es d.
  Proof.
    unfold index_row, int_; split.
    - destruct row as [|a [|b [|t [|x row]]]]; try discriminate; destruct (py_int dv 10 a) as [n|] eqn:Ia; cbn [of_option bind]; [|discriminate].
      destruct (py_int dv 10 b) as [m|] eqn:Ib; cbn [of_option bind]; [|discriminate].
      destruct (match s with Some ids => negb (mem n ids) | None => false end) eqn:S.
      + intros E; injection E as <-; exists []; split; [|reflexivity]; destruct s as [ids|]; [|discriminate].
        apply negb_true_iff, mem_false in S; eapply Ientries_out; eauto; constructor.
      + destruct (parse_sentence dv t) as [ws|] eqn:P; cbn [bind]; [|discriminate].
        destruct (adjust_details edict ws) as [ws' o] eqn:Ad; destruct o as [[]|]; cbn [bind]; [|discriminate].
        intros E; injection E as <-; exists [mkientry n m ws']; split; [|reflexivity].
        destruct (pieces_exist t) as [ps Pp]; eapply Ientries_in; eauto.
        * intros l ->; apply negb_false_iff, mem_In in S; exact S.
        * apply (parse_sentence_iff dv t ps ws A Pp), P.
        * constructor.
    - intros [es [E ->]]; inversion E as [|a b t rows es' n m Ia Ib [l [-> N]] E'|a b t rows es' n m ps ws ws' Ia Ib W Pp F Ad E']; subst; inversion E'; subst;
        rewrite Ia, Ib; cbn [of_option bind].
      + rewrite (proj2 (mem_false n l) N); reflexivity.
      + assert (X : (match s with Some ids => negb (mem n ids) | None => false end) = false).
        { destruct s as [l|]; [|reflexivity]; apply negb_false_iff, mem_In, W; reflexivity. }
        rewrite X, (proj2 (parse_sentence_iff dv t ps ws A Pp) F); cbn [bind]; rewrite Ad; reflexivity.
  Qed.
  Lemma ientries_app s edict row rows es1 es2 : ientries dv s edict [row] es1 -> ientries dv s edict rows es2 -> ientries dv s edict (row :: rows) (es1 ++ es2).
  Proof.
    intros E F; inversion E as [|a b t rows' es' n m Ia Ib N E'|a b t rows' es' n m ps ws ws' Ia Ib W Pp G Ad E']; subst; inversion E'; subst; cbn [app].
    - eapply Ientries_out; eassumption.
    - eapply Ientries_in; eassumption.
  Qed.
  Lemma ientries_cons s edict row rows es : ientries dv s edict (row :: rows) es ->
    exists es1 es2, es = es1 ++ es2 /\ ientries dv s edict [row] es1 /\ ientries dv s edict rows es2.
  Proof.
    intros E; inversion E as [|a b t rows' es' n m Ia Ib N E'|a b t rows' es' n m ps ws ws' Ia Ib W Pp G Ad E']; subst.
    - exists [], es; repeat split; [eapply Ientries_out; try eassumption; constructor|exact E'].
    - exists [mkientry n m ws'], es'; repeat split; [eapply Ientries_in; try eassumption; constructor|exact E'].
  Qed.
  Lemma index_rows_iff s edict rows : forall d d', index_rows dv s edict rows d = Ok d' <->
    exists es, ientries dv s edict rows es /\ d' = fold_left apply_ientry es d.
  Proof.
    induction rows as [|row rows IH]; intros d d'; cbn [index_rows].
    - split; [intros X; injection X as <-; exists []; split; [constructor|reflexivity]|intros [es [E ->]]; inversion E; reflexivity].
    - split.
      + destruct (index_row dv s edict row d) as [d1|] eqn:R; [|discriminate]; cbn [bind]; intros X; apply IH in X; destruct X as [es2 [E2 ->]].
        apply index_row_iff in R; destruct R as [es1 [E1 ->]]; exists (es1 ++ es2); split; [apply ientries_app; assumption|rewrite fold_left_app; reflexivity].
      + intros [es [E ->]]; apply ientries_cons in E; destruct E as [es1 [es2 [-> [E1 E2]]]].
        assert (R : index_row dv s edict row d = Ok (fold_left apply_ientry es1 d)) by (apply index_row_iff; eauto).
        rewrite R; cbn [bind]; apply IH; exists es2; split; [exact E2|rewrite fold_left_app; reflexivity].
  Qed.
  Lemma ientries_set_of ids edict rows es : ientries dv (option_map (fun l => set_of l) ids) edict rows es <-> ientries dv ids edict rows es.
  Proof.
    split; (induction 1 as [|a b t rows es n m Ia Ib [l [El N]] E IH|a b t rows es n m ps ws ws' Ia Ib W Pp F Ad E IH]; [constructor| |]).
    - destruct ids as [l'|]; [|discriminate]; injection El as <-; eapply Ientries_out; eauto; exists l'; split; [reflexivity|]; intros I; apply N, In_set_of, I.
    - eapply Ientries_in; eauto; intros l ->; apply In_set_of, W; reflexivity.
    - subst ids; eapply Ientries_out; eauto; exists (set_of l); split; [reflexivity|]; intros I; apply N, In_set_of, I.
    - eapply Ientries_in; eauto; intros l El; destruct ids as [l'|]; [|discriminate]; injection El as <-; apply In_set_of, W; reflexivity.
  Qed.
  Definition the_ireader name edict ids (es : list ientry) : ireader :=
    mkireader (option_map (fun l => set_of l) ids) edict name (Some (fold_left apply_ientry es ([], []))).
  Lemma new_indices_iff name rows o edict ids r : new_indices dv name (rows, o) edict ids = Ok r <->
    o = Ok tt /\ exists es, ientries dv ids edict rows es /\ r = the_ireader name edict ids es.
  Proof.
    unfold new_indices, set_indices; cbn [isubset iedict idicts fst snd]; split.
    - destruct (index_rows dv (option_map (fun l => set_of l) ids) edict rows ([], [])) as [d|] eqn:R; cbn [bind]; [|discriminate].
      destruct o as [[]|]; cbn [bind]; [|discriminate]; intros E; injection E as <-; split; [reflexivity|].
      apply index_rows_iff in R; destruct R as [es [E ->]]; exists es; split; [apply ientries_set_of, E|reflexivity].
    - intros [-> [es [E ->]]].
      assert (R : index_rows dv (option_map (fun l => set_of l) ids) edict rows ([], []) = Ok (fold_left apply_ientry es ([], []))) by (apply index_rows_iff; exists es; split; [apply ientries_set_of, E|reflexivity]).
      rewrite R; reflexivity.
  Qed.
  Lemma fold_iwords es : forall d, fst (fold_left apply_ientry es d) = fold_left (fun d e => dset (i_id e) (i_words e) d) es (fst d).
  Proof. induction es as [|e es IH]; intros d; [reflexivity|]; cbn [fold_left]; rewrite IH; reflexivity. Qed.
  Lemma fold_ilinks es : forall d, snd (fold_left apply_ientry es d) = fold_left (fun d e => dset (i_id e) (i_link e) d) es (snd d).
  Proof. induction es as [|e es IH]; intros d; [reflexivity|]; cbn [fold_left]; rewrite IH; reflexivity. Qed.
  Lemma index_last name edict ids es i e : last_ientry es i e ->
    igetitem (the_ireader name edict ids es) i = Ok (i_words e) /\ link (the_ireader name edict ids es) i = Ok (i_link e).
  Proof.
    intros L; unfold igetitem, link, dgetitem; cbn [idicts the_ireader of_option bind]; rewrite fold_iwords, fold_ilinks.
    rewrite (fold_last i_id i_words es i e _ L), (fold_last i_id i_link es i e _ L); auto.
  Qed.
  Lemma index_unknown name edict ids es i : Forall (fun e => i_id e <> i) es ->
    igetitem (the_ireader name edict ids es) i = Raise KeyError /\ link (the_ireader name edict ids es) i = Raise InvalidIDError.
  Proof.
    intros N; unfold igetitem, link, dgetitem; cbn [idicts the_ireader of_option bind]; rewrite fold_iwords, fold_ilinks.
    rewrite (fold_other i_id i_words es i N), (fold_other i_id i_link es i N); auto.
  Qed.
  Lemma index_keys name edict ids es : exists d, idicts (the_ireader name edict ids es) = Some d /\ NoDup (dkeys (fst d)) /\ dkeys (fst d) = dkeys (snd d) /\
    forall i, In i (dkeys (fst d)) <-> exists e, In e es /\ i_id e = i.
  Proof.
    eexists; split; [reflexivity|]; rewrite fold_iwords, fold_ilinks, (fold_keys i_id (fun _ e => i_words e)), (fold_keys i_id (fun _ e => i_link e)).
    change (supdate (dkeys (fst ([], []))) (map i_id es)) with (set_of (map i_id es)).
    change (supdate (dkeys (snd ([], []))) (map i_id es)) with (set_of (map i_id es)).
    split; [apply NoDup_set_of|split; [reflexivity|]]; intros i; rewrite In_set_of, in_map_iff; split; intros [e [X Y]]; eauto.
  Qed.
End Indices.
