From Verif Require Import Base PyText Csv_model Csv_spec Csv_proofs CsvLang_spec.
From Verif Require Tatoeba_model.
#[local] Notation field := CsvLang_spec.field.

(** the machine on marked characters *)
Definition step (s : rd) (t : tok) : res rd := match t with Some 0 => Raise CsvError | _ => process_char s t end.
Definition last_row (s : rd) (f : option exn) : list (list str) * res unit :=
  match f with
  | Some e => ([], Raise e)
  | None => if (match Csv_model.field s with [] => false | _ => true end) || is_quoted (state s) then ([fields s ++ [Csv_model.field s]], Ok tt) else ([], Ok tt)
  end.
Fixpoint rows_toks (s : rd) (ts : list tok) (f : option exn) : list (list str) * res unit :=
  match ts with
  | [] => last_row s f
  | t :: ts =>
      match step s t with
      | Raise e => ([], Raise e)
      | Ok s' => if (match t with None => is_start (state s') | Some _ => false end)
                 then let (rows, o) := rows_toks reset ts f in (fields s' :: rows, o) else rows_toks s' ts f
      end
  end.
Lemma step_some s c : step s (Some c) = if c =? 0 then Raise CsvError else process_char s (Some c).
Proof. destruct c; reflexivity. Qed.
Lemma rows_from_toks ls : forall s f, rows_from s ls f = rows_toks s (toks ls) f.
Proof.
  induction ls as [|l ls IH]; intros s f; [reflexivity|]; cbn [rows_from toks flat_map]; fold (toks ls).
  revert s; induction l as [|c l IHl]; intros s.
  - unfold feed_line; cbn [feed bind map app rows_toks step]; destruct (process_char s None) as [s'|e]; [|reflexivity].
    rewrite <- !IH; reflexivity.
  - unfold feed_line in *; cbn [feed map app rows_toks]; rewrite step_some; destruct (c =? 0); [reflexivity|].
    destruct (process_char s (Some c)) as [s'|e]; cbn [bind]; [apply IHl|reflexivity].
Qed.

(* ------------------------------------------------------------------ *)
(** ** from the machine to the grammar *)
Lemma inside_app b v b' v' : inside b v -> inside b' v' -> inside (b ++ b') (v ++ v').
Proof. intros H H'; induction H; cbn [app]; [exact H'|apply In_char|apply In_quote|apply In_end]; assumption. Qed.
Lemma tabbed_app a b : tabbed (a ++ b) = tabbed a ++ tabbed b.
Proof. apply flat_map_app. Qed.
Lemma tabbed_snoc fs f : tabbed (fs ++ [f]) = tabbed fs ++ f ++ [Some 9].
Proof. rewrite tabbed_app; cbn [tabbed flat_map]; rewrite app_nil_r; reflexivity. Qed.

(** a field that has begun and is not between its quotes *)
Inductive infield : list tok -> str -> Prop :=
| If_plain v : Forall plain_char v -> hd 0 v <> quote -> v <> [] -> infield (map Some v) v
| If_after b v t : inside b v -> Forall plain_char t -> hd 0 t <> quote -> t <> [] -> infield (Some quote :: b ++ Some quote :: map Some t) (v ++ t).
Inductive at_state : list tok -> rd -> Prop :=
| At_start : at_state [] (mkrd START_RECORD [] [])
| At_field fs row : Forall2 field fs row -> fs <> [] -> at_state (tabbed fs) (mkrd START_FIELD [] row)
| At_in fs row g v : Forall2 field fs row -> infield g v -> short v -> at_state (tabbed fs ++ g) (mkrd IN_FIELD v row)
| At_quoted fs row b v : Forall2 field fs row -> inside b v -> short v -> at_state (tabbed fs ++ Some quote :: b) (mkrd IN_QUOTED_FIELD v row)
| At_quote fs row b v : Forall2 field fs row -> inside b v -> short v ->
    at_state (tabbed fs ++ Some quote :: b ++ [Some quote]) (mkrd QUOTE_IN_QUOTED_FIELD v row)
| At_eat e : Forall line_break e -> e <> [] -> at_state (map Some e) (mkrd EAT_CRNL [] [])
| At_break fs row f v e : Forall2 field fs row -> field f v -> tabbed fs ++ f <> [] -> Forall line_break e -> e <> [] ->
    at_state (tabbed fs ++ f ++ map Some e) (mkrd EAT_CRNL [] (row ++ [v])).

Lemma field_growing f v : field f v -> growing f v.
Proof. intros [w P H S|b w t I P H S]; constructor; assumption. Qed.
Lemma field_short f v : field f v -> short v.
Proof. intros [w P H S|b w t I P H S]; assumption. Qed.
Lemma hd_snoc (t : str) c : hd 0 t <> quote -> c <> quote -> hd 0 (t ++ [c]) <> quote.
Proof. destruct t; cbn [hd app]; auto. Qed.
Lemma empty_field : field [] [].
Proof. apply (Field_plain []); [constructor|discriminate|unfold short; cbn; lia]. Qed.
Lemma quoted_field b v : inside b v -> short v -> field (Some quote :: b ++ [Some quote]) v.
Proof. intros I S; rewrite <- (app_nil_r v); apply (Field_quoted b v []); [exact I|constructor|discriminate|rewrite app_nil_r; exact S]. Qed.


Definition finished (p : list tok) (s : rd) : Prop := state s = START_RECORD /\ Csv_model.field s = [] /\ record p (fields s).
Definition sound (p : list tok) (t : tok) (r : res rd) : Prop :=
  match r with
  | Ok s' => (t = None /\ finished (p ++ [t]) s') \/ (at_state (p ++ [t]) s' /\ (t = None -> is_quoted (state s') = true))
  | Raise e => e = CsvError /\ forall r, stuck (p ++ t :: r)
  end.
Lemma classify c : c = 0 \/ line_break c \/ c = 9 \/ c = quote \/ (plain_char c /\ c <> quote).
Proof.
  unfold line_break, plain_char; destruct (Z.eq_dec c 0), (Z.eq_dec c 10), (Z.eq_dec c 13), (Z.eq_dec c 9), (Z.eq_dec c quote); intuition (auto; congruence).
Qed.
Lemma add_case v c st fs st' : (short (v ++ [c]) /\ add_char (mkrd st v fs) st' c = Ok (mkrd st' (v ++ [c]) fs)) \/
  (~ short (v ++ [c]) /\ add_char (mkrd st v fs) st' c = Raise CsvError).
Proof.
  unfold short, add_char, field_limit; cbn [Csv_model.field fields]; rewrite app_length; cbn [length].
  destruct (Z.leb_spec 131072 (Z.of_nat (length v))); [right|left]; split; try reflexivity; lia.
Qed.
Lemma short_one c : short [c].
Proof. unfold short; cbn; lia. Qed.
Lemma infield_growing g v : infield g v -> growing g v.
Proof. intros [w P H N|b w t I P H N]; constructor; assumption. Qed.
Lemma infield_field g v : infield g v -> short v -> field g v.
Proof. intros [w P H N|b w t I P H N] S; constructor; assumption. Qed.
Lemma infield_nonempty g v : infield g v -> g <> [].
Proof. intros [w P H N|b w t I P H N]; [destruct w; [contradiction|]|]; discriminate. Qed.
Lemma plain_snoc v c : Forall plain_char v -> plain_char c -> Forall plain_char (v ++ [c]).
Proof. intros P C; apply Forall_app; split; [exact P|constructor; [exact C|constructor]]. Qed.
Lemma infield_snoc g v c : infield g v -> plain_char c -> infield (g ++ [Some c]) (v ++ [c]).
Proof.
  intros [w P H N|b w t I P H N] C.
  - change [Some c] with (map Some [c]); rewrite <- map_app; apply If_plain; [apply plain_snoc; assumption|destruct w; [contradiction|exact H]|destruct w; discriminate].
  - cbn [app]; rewrite <- !app_assoc; cbn [app]; change [Some c] with (map Some [c]); rewrite <- map_app.
    apply If_after; [exact I|apply plain_snoc; assumption|destruct t; [contradiction|exact H]|destruct t; discriminate].
Qed.
Lemma viable_at p s : at_state p s -> viable p.
Proof.
  intros [|fs row F N|fs row g v F G S|fs row b v F I S|fs row b v F I S|e E N|fs row f v e F G N E NE].
  - apply (Viable_field [] [] [] []); [constructor|apply (Grow_plain []); [constructor|discriminate]|unfold short; cbn; lia].
  - rewrite <- (app_nil_r (tabbed fs)); apply (Viable_field fs row [] []); [exact F|apply (Grow_plain []); [constructor|discriminate]|unfold short; cbn; lia].
  - apply (Viable_field fs row g v F (infield_growing _ _ G) S).
  - apply (Viable_field fs row _ v F (Grow_quoted b v I) S).
  - apply (Viable_field fs row _ v F); [apply field_growing, quoted_field; assumption|exact S].
  - apply (Viable_break [] [] [] [] e); [constructor|apply empty_field|exact E].
  - apply (Viable_break fs row f v e); assumption.
Qed.
Lemma snoc_in fs row g v c : Forall2 field fs row -> infield (g ++ [Some c]) (v ++ [c]) ->
  forall st, sound (tabbed fs ++ g) (Some c) (add_char (mkrd st v row) IN_FIELD c).
Proof.
  intros F W st; destruct (add_case v c st row IN_FIELD) as [[S ->]|[S ->]]; cbn [sound].
  - right; split; [|discriminate]; rewrite <- app_assoc; apply At_in; assumption.
  - split; [reflexivity|]; intros r; rewrite <- app_assoc; change (Some c :: r) with ([Some c] ++ r); rewrite (app_assoc g).
    apply (Stuck_long fs row (g ++ [Some c]) (v ++ [c]) r F (infield_growing _ _ W) S).
Qed.
Lemma start_sound p st row c : (p, st, row) = ([], START_RECORD, []) \/ (exists fs, Forall2 field fs row /\ fs <> [] /\ p = tabbed fs /\ st = START_FIELD) ->
  c <> 0 -> ~ line_break c -> sound p (Some c) (process_char (mkrd st [] row) (Some c)).
Proof.
  intros H N0 NB.
  assert (F : exists fs, Forall2 field fs row /\ p = tabbed fs /\ ready st row).
  { destruct H as [E|[fs [F [N [-> ->]]]]]; [injection E as -> -> ->; exists []; repeat split; [constructor|right; split; reflexivity]|].
    exists fs; repeat split; [exact F|left; reflexivity]. }
  clear H; destruct F as [fs [F [-> R]]].
  assert (NL : newline (Some c) = false).
  { unfold newline; destruct (Z.eqb_spec c 10), (Z.eqb_spec c 13); try reflexivity; exfalso; apply NB; unfold line_break; tauto. }
  rewrite start_char by assumption; unfold start_field; rewrite NL.
  destruct (classify c) as [X|[X|[-> |[-> |[P X]]]]]; [contradiction|contradiction| | |].
  - change (9 =? quotechar) with false; change (9 =? delimiter) with true; cbv iota; unfold save_field; cbn [Csv_model.field fields sound].
    right; split; [|discriminate]; change (tabbed fs ++ [Some 9]) with (tabbed fs ++ [] ++ [Some 9]); rewrite <- tabbed_snoc.
    apply At_field; [apply Forall2_app; [exact F|repeat constructor; apply empty_field]|destruct fs; discriminate].
  - change (quote =? quotechar) with true; cbv iota; cbn [Csv_model.field fields sound]; right; split; [|discriminate].
    apply (At_quoted fs row [] []); [exact F|constructor|unfold short; cbn; lia].
  - replace (c =? quotechar) with false by (symmetry; apply Z.eqb_neq; exact X).
    destruct (plain_eqb c P) as [_ [_ ->]]; rewrite <- (app_nil_r (tabbed fs)); apply (snoc_in fs row [] [] c F).
    apply (If_plain [c]); [constructor; [exact P|constructor]|exact X|discriminate].
Qed.
(** a field is over *)
Lemma closed_sound fs row f v t st : Forall2 field fs row -> field f v -> tabbed fs ++ f <> [] -> closable st ->
  t = None \/ t = Some 9 \/ (exists c, t = Some c /\ line_break c) -> sound (tabbed fs ++ f) t (process_char (mkrd st v row) t).
Proof.
  intros F G N K [-> |[-> |[c [-> B]]]].
  - assert (E : process_char (mkrd st v row) None = Ok (mkrd START_RECORD [] (row ++ [v]))) by (destruct K as [-> |[-> | ->]]; reflexivity).
    rewrite E; left; split; [reflexivity|]; split; [reflexivity|split; [reflexivity|]]; rewrite <- app_assoc.
    apply (Record_row fs row f v []); try assumption; constructor.
  - rewrite close_tab by (left; exact K); right; split; [|discriminate]; rewrite <- app_assoc, <- tabbed_snoc.
    apply At_field; [apply Forall2_app; [exact F|constructor; [exact G|constructor]]|destruct fs; discriminate].
  - assert (E : process_char (mkrd st v row) (Some c) = Ok (mkrd EAT_CRNL [] (row ++ [v]))) by (destruct K as [-> |[-> | ->]], B as [-> | ->]; reflexivity).
    rewrite E; right; split; [|discriminate]; rewrite <- app_assoc; apply (At_break fs row f v [c]); try assumption; [constructor; [exact B|constructor]|discriminate].
Qed.
Lemma inside_snoc b v c : inside b v -> c <> quote -> c <> 0 -> inside (b ++ [Some c]) (v ++ [c]).
Proof. intros I Q Z; apply inside_app; [exact I|apply In_char; [exact Q|exact Z|constructor]]. Qed.
Lemma step_sound p s t : at_state p s -> sound p t (step s t).
Proof.
  intros A; destruct t as [c|].
  - destruct (Z.eq_dec c 0) as [-> |N0].
    { cbn [step sound]; split; [reflexivity|]; intros r; apply Stuck_nul, viable_at with (1 := A). }
    rewrite step_some; replace (c =? 0) with false by (symmetry; apply Z.eqb_neq; exact N0).
    destruct A as [|fs row F N|fs row g v F G S|fs row b v F I S|fs row b v F I S|e E N|fs row f v e F G N E NE].
    + destruct (classify c) as [X|[X|X]]; [contradiction| |].
      * replace (process_char (mkrd START_RECORD [] []) (Some c)) with (Ok (mkrd EAT_CRNL [] [])) by (destruct X as [-> | ->]; reflexivity).
        right; split; [|discriminate]; apply (At_eat [c]); [constructor; [exact X|constructor]|discriminate].
      * apply start_sound; [left; reflexivity|exact N0|]; unfold line_break, plain_char, quote in *; change (u1 """") with 34 in *; lia.
    + destruct (classify c) as [X|[X|X]]; [contradiction| |].
      * rewrite <- (app_nil_r (tabbed fs)).
        apply closed_sound; [exact F|apply empty_field| |left; reflexivity|right; right; exists c; split; [reflexivity|exact X]].
        rewrite app_nil_r; destruct fs as [|f fs]; [contradiction|destruct f; discriminate].
      * apply start_sound; [right; exists fs; repeat split; assumption|exact N0|]; unfold line_break, plain_char, quote in *; change (u1 """") with 34 in *; lia.
    + assert (NE : tabbed fs ++ g <> []) by (intros E; apply app_eq_nil in E; destruct E as [_ E]; exact (infield_nonempty g v G E)).
      pose proof (infield_field g v G S) as GF.
      destruct (classify c) as [X|[X|[-> |X]]]; [contradiction| | |].
      * apply closed_sound; try assumption; [right; left; reflexivity|right; right; exists c; split; [reflexivity|exact X]].
      * apply closed_sound; try assumption; [right; left; reflexivity|right; left; reflexivity].
      * assert (P : plain_char c) by (destruct X as [-> |[X _]]; [unfold plain_char, quote; change (u1 """") with 34; lia|exact X]).
        destruct (plain_eqb c P) as [_ [E1 E2]]; unfold process_char; cbn [state]; rewrite E1, E2.
        apply snoc_in; [exact F|apply infield_snoc; assumption].
    + unfold process_char; cbn [state]; destruct (Z.eqb_spec c quotechar) as [-> |Q].
      * cbn [sound Csv_model.field fields]; right; split; [|discriminate]; rewrite <- app_assoc; cbn [app]; apply At_quote; assumption.
      * destruct (add_case v c IN_QUOTED_FIELD row IN_QUOTED_FIELD) as [[L ->]|[L ->]]; cbn [sound].
        -- right; split; [|discriminate]; rewrite <- app_assoc; cbn [app]; apply At_quoted; [exact F|apply inside_snoc; assumption|exact L].
        -- split; [reflexivity|]; intros r; rewrite <- app_assoc; cbn [app].
           replace (b ++ Some c :: r) with ((b ++ [Some c]) ++ r) by (rewrite <- app_assoc; reflexivity).
           apply (Stuck_long fs row (Some quote :: b ++ [Some c]) (v ++ [c]) r F); [apply Grow_quoted, inside_snoc; assumption|exact L].
    + destruct (classify c) as [X|[X|[-> |[-> |[P X]]]]]; [contradiction| | | |].
      * apply closed_sound; try assumption; [apply quoted_field; assumption|destruct (tabbed fs); discriminate|right; right; reflexivity|right; right; exists c; split; [reflexivity|exact X]].
      * apply closed_sound; try assumption; [apply quoted_field; assumption|destruct (tabbed fs); discriminate|right; right; reflexivity|right; left; reflexivity].
      * unfold process_char; cbn [state]; change (quote =? quotechar) with true; cbv iota.
        assert (I2 : inside (b ++ [Some quote; Some quote]) (v ++ [quote])) by (apply inside_app; [exact I|apply In_quote; constructor]).
        destruct (add_case v quote QUOTE_IN_QUOTED_FIELD row IN_QUOTED_FIELD) as [[L ->]|[L ->]]; cbn [sound].
        -- right; split; [|discriminate]; rewrite <- app_assoc; cbn [app]; rewrite <- app_assoc; cbn [app]; apply At_quoted; assumption.
        -- split; [reflexivity|]; intros r; rewrite <- app_assoc; cbn [app]; rewrite <- app_assoc; cbn [app].
           replace (b ++ Some quote :: Some quote :: r) with ((b ++ [Some quote; Some quote]) ++ r) by (rewrite <- app_assoc; reflexivity).
           apply (Stuck_long fs row (Some quote :: b ++ [Some quote; Some quote]) (v ++ [quote]) r F); [apply Grow_quoted, I2|exact L].
      * unfold process_char; cbn [state]; replace (c =? quotechar) with false by (symmetry; apply Z.eqb_neq; exact X).
        destruct (plain_eqb c P) as [_ [E1 E2]]; rewrite E1, E2; apply snoc_in; [exact F|].
        cbn [app]; rewrite <- app_assoc; cbn [app]; apply (If_after b v [c]); [exact I|constructor; [exact P|constructor]|exact X|discriminate].
    + unfold process_char; cbn [state]; destruct (newline (Some c)) eqn:NL; cbn [sound].
      * right; split; [|discriminate]; change [Some c] with (map Some [c]); rewrite <- map_app; apply At_eat; [|destruct e; discriminate].
        apply Forall_app; split; [exact E|]; constructor; [|constructor]; unfold newline in NL; unfold line_break; lia.
      * split; [reflexivity|]; intros r; apply (Stuck_after [] [] [] [] e c r); [constructor|apply empty_field|exact E|exact N|].
        unfold newline in NL; unfold line_break; lia.
    + unfold process_char; cbn [state]; destruct (newline (Some c)) eqn:NL; cbn [sound].
      * right; split; [|discriminate]; rewrite <- !app_assoc; change [Some c] with (map Some [c]); rewrite <- map_app; apply At_break; try assumption; [|destruct e; discriminate].
        apply Forall_app; split; [exact E|]; constructor; [|constructor]; unfold newline in NL; unfold line_break; lia.
      * split; [reflexivity|]; intros r; rewrite <- !app_assoc; apply (Stuck_after fs row f v e c r F G E NE).
        unfold newline in NL; unfold line_break; lia.
  - cbn [step].
    destruct A as [|fs row F N|fs row g v F G S|fs row b v F I S|fs row b v F I S|e E N|fs row f v e F G N E NE].
    + left; split; [reflexivity|]; split; [reflexivity|split; [reflexivity|]]; apply (Record_blank []); constructor.
    + rewrite <- (app_nil_r (tabbed fs)); apply closed_sound; [exact F|apply empty_field| |left; reflexivity|left; reflexivity].
      rewrite app_nil_r; destruct fs as [|f fs]; [contradiction|destruct f; discriminate].
    + apply closed_sound; [exact F|apply infield_field; assumption| |right; left; reflexivity|left; reflexivity].
      intros E; apply app_eq_nil in E; destruct E as [_ E]; exact (infield_nonempty g v G E).
    + right; split; [|reflexivity]; rewrite <- app_assoc; cbn [app]; apply At_quoted; try assumption; rewrite <- (app_nil_r v); apply inside_app; [exact I|apply In_end; constructor].
    + apply closed_sound; try assumption; [apply quoted_field; assumption|destruct (tabbed fs); discriminate|right; right; reflexivity|left; reflexivity].
    + left; split; [reflexivity|]; split; [reflexivity|split; [reflexivity|]]; apply Record_blank, E.
    + left; split; [reflexivity|]; split; [reflexivity|split; [reflexivity|]]; rewrite <- !app_assoc; apply Record_row; assumption.
Qed.

(** between two lines *)
Definition between (s : rd) : Prop := s = reset \/ is_quoted (state s) = true.
Lemma rows_sound f ts : forall p s, at_state p s -> (ts = [] -> between s) -> last ts None = None ->
  reads f (p ++ ts) (fst (rows_toks s ts f)) (snd (rows_toks s ts f)).
Proof.
  induction ts as [|t ts IH]; intros p s A B L.
  - rewrite app_nil_r; cbn [rows_toks]; specialize (B eq_refl); destruct B as [-> |Q].
    + inversion A; subst; destruct f; apply Reads_end.
    + inversion A; subst; cbn [is_quoted state] in Q; try discriminate.
      unfold last_row; cbn [Csv_model.field fields state is_quoted]; rewrite orb_true_r.
      pose proof (Reads_unclosed f _ _ (Unclosed fs row b v H H0 H1)) as R; destruct f; exact R.
  - pose proof (step_sound p s t A) as S; cbn [rows_toks]; destruct (step s t) as [s'|e]; cbn [sound] in S.
    + assert (L' : last ts None = None) by (destruct ts; [reflexivity|exact L]).
      destruct S as [[-> [S1 [S2 S3]]]|[A' Q]].
      * rewrite S1; cbn [is_start]; pose proof (IH [] reset At_start (fun _ => or_introl eq_refl) L') as R; cbn [app] in R.
        destruct (rows_toks reset ts f) as [rows o]; cbn [fst snd] in *; change (None :: ts) with ([None] ++ ts); rewrite app_assoc; apply Reads_record; assumption.
      * replace (p ++ t :: ts) with ((p ++ [t]) ++ ts) by (rewrite <- app_assoc; reflexivity).
        assert (X : (match t with None => is_start (state s') | Some _ => false end) = false).
        { destruct t; [reflexivity|]; specialize (Q eq_refl); destruct (state s'); try discriminate; reflexivity. }
        rewrite X; apply IH; [exact A'| |exact L']; intros ->; cbn [last] in L; right; apply Q; exact L.
    + destruct S as [-> S]; apply Reads_stuck, S.
Qed.

(* ------------------------------------------------------------------ *)
(** ** from the grammar to the machine *)
Lemma not_short_app v w : ~ short v -> ~ short (v ++ w).
Proof. intros N S; exact (N (short_app v w S)). Qed.
Lemma short_dec v : short v \/ ~ short v.
Proof. unfold short; lia. Qed.
Lemma snoc_app {A} (w : list A) c t : w ++ c :: t = (w ++ [c]) ++ t.
Proof. rewrite <- app_assoc; reflexivity. Qed.
(** one more character of a field *)
Lemma toks_step s s' c r f : c <> 0 -> process_char s (Some c) = Ok s' -> rows_toks s (Some c :: r) f = rows_toks s' r f.
Proof. intros N E; cbn [rows_toks]; rewrite step_some; replace (c =? 0) with false by (symmetry; apply Z.eqb_neq; exact N); rewrite E; reflexivity. Qed.
Lemma toks_stop s c r f : process_char s (Some c) = Raise CsvError -> rows_toks s (Some c :: r) f = ([], Raise CsvError).
Proof. intros E; cbn [rows_toks]; rewrite step_some; destruct (c =? 0); [|rewrite E]; reflexivity. Qed.
Lemma run_infield t : forall w fs r f, Forall plain_char t -> short w ->
  (short (w ++ t) -> rows_toks (mkrd IN_FIELD w fs) (map Some t ++ r) f = rows_toks (mkrd IN_FIELD (w ++ t) fs) r f) /\
  (~ short (w ++ t) -> rows_toks (mkrd IN_FIELD w fs) (map Some t ++ r) f = ([], Raise CsvError)).
Proof.
  induction t as [|c t IH]; intros w fs r f P SW; [rewrite app_nil_r; split; [reflexivity|contradiction]|]; inversion P as [|? ? Pc Pt]; subst.
  destruct (plain_eqb c Pc) as [_ [E1 E2]]; assert (N0 : c <> 0) by apply Pc; rewrite (snoc_app w c t); cbn [map app].
  assert (E : process_char (mkrd IN_FIELD w fs) (Some c) = add_char (mkrd IN_FIELD w fs) IN_FIELD c) by (unfold process_char; cbn [state]; rewrite E1, E2; reflexivity).
  destruct (add_case w c IN_FIELD fs IN_FIELD) as [[S A]|[S A]]; rewrite A in E.
  - rewrite (toks_step _ _ _ _ _ N0 E); apply IH; assumption.
  - rewrite (toks_stop _ _ _ _ E); split; [intros X; exfalso; exact (not_short_app _ t S X)|reflexivity].
Qed.
Lemma run_inside b v : inside b v -> forall w fs r f, short w ->
  (short (w ++ v) -> rows_toks (mkrd IN_QUOTED_FIELD w fs) (b ++ r) f = rows_toks (mkrd IN_QUOTED_FIELD (w ++ v) fs) r f) /\
  (~ short (w ++ v) -> rows_toks (mkrd IN_QUOTED_FIELD w fs) (b ++ r) f = ([], Raise CsvError)).
Proof.
  intros I; induction I as [|c b v NQ N0 I IH|b v I IH|b v I IH]; intros w fs r f SW.
  - rewrite app_nil_r; split; [reflexivity|contradiction].
  - rewrite (snoc_app w c v); cbn [app].
    assert (E : process_char (mkrd IN_QUOTED_FIELD w fs) (Some c) = add_char (mkrd IN_QUOTED_FIELD w fs) IN_QUOTED_FIELD c).
    { unfold process_char; cbn [state]; replace (c =? quotechar) with false by (symmetry; apply Z.eqb_neq; exact NQ); reflexivity. }
    destruct (add_case w c IN_QUOTED_FIELD fs IN_QUOTED_FIELD) as [[S A]|[S A]]; rewrite A in E.
    + rewrite (toks_step _ _ _ _ _ N0 E); apply IH; exact S.
    + rewrite (toks_stop _ _ _ _ E); split; [intros X; exfalso; exact (not_short_app _ v S X)|reflexivity].
  - rewrite (snoc_app w quote v); cbn [app].
    rewrite (toks_step (mkrd IN_QUOTED_FIELD w fs) (mkrd QUOTE_IN_QUOTED_FIELD w fs) quote) by (discriminate || reflexivity).
    assert (E : process_char (mkrd QUOTE_IN_QUOTED_FIELD w fs) (Some quote) = add_char (mkrd QUOTE_IN_QUOTED_FIELD w fs) IN_QUOTED_FIELD quote) by reflexivity.
    destruct (add_case w quote QUOTE_IN_QUOTED_FIELD fs IN_QUOTED_FIELD) as [[S A]|[S A]]; rewrite A in E.
    + rewrite (toks_step _ _ _ _ _ (ltac:(discriminate) : quote <> 0) E); apply IH; exact S.
    + rewrite (toks_stop _ _ _ _ E); split; [intros X; exfalso; exact (not_short_app _ v S X)|reflexivity].
  - cbn [app rows_toks step]; unfold process_char; cbn [state is_start]; apply IH; exact SW.
Qed.
Lemma run_open st0 fs r f : ready st0 fs -> rows_toks (mkrd st0 [] fs) (Some quote :: r) f = rows_toks (mkrd IN_QUOTED_FIELD [] fs) r f.
Proof. intros R; apply toks_step; [discriminate|]; rewrite start_char by (assumption || reflexivity); reflexivity. Qed.
Lemma run_plain v st0 fs r f : Forall plain_char v -> hd 0 v <> quote -> ready st0 fs ->
  (short v -> rows_toks (mkrd st0 [] fs) (map Some v ++ r) f = rows_toks (mkrd (match v with [] => st0 | _ => IN_FIELD end) v fs) r f) /\
  (~ short v -> rows_toks (mkrd st0 [] fs) (map Some v ++ r) f = ([], Raise CsvError)).
Proof.
  intros P H R; destruct v as [|c v].
  { split; [reflexivity|intros X; exfalso; apply X; unfold short; cbn; lia]. }
  inversion P as [|? ? Pc Pv]; subst; destruct (plain_eqb c Pc) as [E0 [E1 E2]]; cbn [hd] in H; cbn [map app].
  assert (E : process_char (mkrd st0 [] fs) (Some c) = Ok (mkrd IN_FIELD [c] fs)).
  { rewrite start_char by assumption; unfold start_field; rewrite E1, E2; replace (c =? quotechar) with false by (symmetry; apply Z.eqb_neq; exact H); reflexivity. }
  rewrite (toks_step _ _ _ _ _ (proj2 (proj2 (proj2 Pc))) E); exact (run_infield v [c] fs r f Pv (short_one c)).
Qed.
Lemma run_after b v t st0 fs r f : inside b v -> Forall plain_char t -> hd 0 t <> quote -> ready st0 fs ->
  (short (v ++ t) -> rows_toks (mkrd st0 [] fs) ((Some quote :: b ++ Some quote :: map Some t) ++ r) f =
     rows_toks (mkrd (match t with [] => QUOTE_IN_QUOTED_FIELD | _ => IN_FIELD end) (v ++ t) fs) r f) /\
  (~ short (v ++ t) -> rows_toks (mkrd st0 [] fs) ((Some quote :: b ++ Some quote :: map Some t) ++ r) f = ([], Raise CsvError)).
Proof.
  intros I P H R; cbn [app]; rewrite run_open by exact R; rewrite <- app_assoc; cbn [app].
  destruct (run_inside b v I [] fs (Some quote :: map Some t ++ r) f ltac:(unfold short; cbn; lia)) as [A B]; cbn [app] in A, B.
  destruct (short_dec v) as [S|S]; [|rewrite (B S); split; [intros X; exfalso; exact (not_short_app v t S X)|reflexivity]].
  rewrite (A S), (toks_step _ (mkrd QUOTE_IN_QUOTED_FIELD v fs) quote) by (discriminate || reflexivity).
  destruct t as [|c t]; [rewrite app_nil_r; split; [reflexivity|contradiction]|].
  inversion P as [|? ? Pc Pt]; subst; destruct (plain_eqb c Pc) as [_ [E1 E2]]; cbn [hd] in H; cbn [map app]; rewrite (snoc_app v c t).
  assert (E : process_char (mkrd QUOTE_IN_QUOTED_FIELD v fs) (Some c) = add_char (mkrd QUOTE_IN_QUOTED_FIELD v fs) IN_FIELD c).
  { unfold process_char; cbn [state]; replace (c =? quotechar) with false by (symmetry; apply Z.eqb_neq; exact H); rewrite E1, E2; reflexivity. }
  destruct (add_case v c QUOTE_IN_QUOTED_FIELD fs IN_FIELD) as [[L X]|[L X]]; rewrite X in E.
  - rewrite (toks_step _ _ _ _ _ (proj2 (proj2 (proj2 Pc))) E); apply run_infield; assumption.
  - rewrite (toks_stop _ _ _ _ E); split; [intros Y; exfalso; exact (not_short_app _ t L Y)|reflexivity].
Qed.
Lemma run_growing g v st0 fs r f : growing g v -> ready st0 fs ->
  (short v -> exists s, rows_toks (mkrd st0 [] fs) (g ++ r) f = rows_toks s r f) /\
  (~ short v -> rows_toks (mkrd st0 [] fs) (g ++ r) f = ([], Raise CsvError)).
Proof.
  intros G R; destruct G as [v P H|b v I|b v t I P H].
  - destruct (run_plain v st0 fs r f P H R) as [A B]; split; [intros S; eexists; apply A, S|exact B].
  - cbn [app]; rewrite run_open by exact R; destruct (run_inside b v I [] fs r f ltac:(unfold short; cbn; lia)) as [A B].
    split; [intros S; eexists; apply A, S|exact B].
  - destruct (run_after b v t st0 fs r f I P H R) as [A B]; split; [intros S; eexists; apply A, S|exact B].
Qed.
Lemma run_field g v st0 fs r f : field g v -> ready st0 fs ->
  exists st, rows_toks (mkrd st0 [] fs) (g ++ r) f = rows_toks (mkrd st v fs) r f /\ (closable st \/ (g = [] /\ v = [] /\ st = st0)).
Proof.
  intros [w P H S|b w t I P H S] R.
  - destruct (run_plain w st0 fs r f P H R) as [A _]; eexists; split; [apply A, S|]; destruct w; [right; repeat split|left; right; left; reflexivity].
  - destruct (run_after b w t st0 fs r f I P H R) as [A _]; eexists; split; [apply A, S|]; left; destruct t; [right; right|right; left]; reflexivity.
Qed.
Lemma run_tabbed fs row r f : Forall2 field fs row -> forall st0 done, ready st0 done ->
  exists st, rows_toks (mkrd st0 [] done) (tabbed fs ++ r) f = rows_toks (mkrd st [] (done ++ row)) r f /\ ready st (done ++ row) /\
    (fs = [] -> st = st0) /\ (fs <> [] -> st = START_FIELD).
Proof.
  intros F; induction F as [|g v fs row G F IH]; intros st0 done R.
  - exists st0; rewrite app_nil_r; repeat split; [exact R|congruence].
  - cbn [tabbed flat_map]; fold (tabbed fs); rewrite <- !app_assoc.
    destruct (run_field g v st0 done ([Some 9] ++ tabbed fs ++ r) f G R) as [st [E K]]; rewrite E; cbn [app].
    rewrite (toks_step _ (mkrd START_FIELD [] (done ++ [v]))); [|discriminate|apply close_tab; destruct K as [K|[_ [-> ->]]]; [left; exact K|right; split; [exact R|reflexivity]]].
    destruct (IH START_FIELD (done ++ [v]) (or_introl eq_refl)) as [st' [E' [R' [X Y]]]].
    exists st'; rewrite (snoc_app done v row); repeat split; [exact E'|exact R'|discriminate|].
    intros _; destruct fs; [apply X; reflexivity|apply Y; discriminate].
Qed.
Lemma ready_reset : ready START_RECORD [].
Proof. right; split; reflexivity. Qed.
(** line breaks, after which nothing but the end of the line may follow *)
Lemma run_breaks e : forall v fs r f, Forall line_break e -> rows_toks (mkrd EAT_CRNL v fs) (map Some e ++ r) f = rows_toks (mkrd EAT_CRNL v fs) r f.
Proof.
  intros v fs r f F; induction F as [|c e B F IH]; [reflexivity|]; cbn [map app].
  rewrite (toks_step _ (mkrd EAT_CRNL v fs)); [exact IH|destruct B as [-> | ->]; discriminate|destruct B as [-> | ->]; reflexivity].
Qed.
Lemma run_row_breaks fs row g v e c r f : Forall2 field fs row -> field g v -> Forall line_break (c :: e) ->
  exists row', rows_toks reset (tabbed fs ++ g ++ map Some (c :: e) ++ r) f = rows_toks (mkrd EAT_CRNL [] row') r f /\
    (tabbed fs ++ g <> [] -> row' = row ++ [v]).
Proof.
  intros F G B; inversion B as [|? ? Bc Be]; subst; unfold reset.
  destruct (run_tabbed fs row (g ++ map Some (c :: e) ++ r) f F START_RECORD [] ready_reset) as [st [E [R [X Y]]]]; rewrite E; cbn [app] in R |- *.
  destruct (run_field g v st row (map Some (c :: e) ++ r) f G R) as [st' [E' K]]; rewrite E'; cbn [map app].
  destruct K as [K|[-> [-> ->]]].
  - exists (row ++ [v]); split; [|reflexivity]; rewrite (toks_step _ (mkrd EAT_CRNL [] (row ++ [v]))); [apply run_breaks, Be| |];
      destruct Bc as [-> | ->]; try discriminate; destruct K as [-> |[-> | ->]]; reflexivity.
  - destruct fs as [|h fs].
    + inversion F; subst; rewrite (X eq_refl); exists []; split; [|intros N; contradiction].
      rewrite (toks_step _ (mkrd EAT_CRNL [] [])); [apply run_breaks, Be| |]; destruct Bc as [-> | ->]; try discriminate; reflexivity.
    + rewrite (Y ltac:(discriminate)); exists (row ++ [[]]); split; [|reflexivity].
      rewrite (toks_step _ (mkrd EAT_CRNL [] (row ++ [[]]))); [apply run_breaks, Be| |]; destruct Bc as [-> | ->]; try discriminate; reflexivity.
Qed.
Lemma run_record t row ts f : record t row ->
  rows_toks reset (t ++ ts) f = (row :: fst (rows_toks reset ts f), snd (rows_toks reset ts f)).
Proof.
  assert (P : forall row, (let (rows, o) := rows_toks reset ts f in (row :: rows, o)) = (row :: fst (rows_toks reset ts f), snd (rows_toks reset ts f))).
  { intros r; destruct (rows_toks reset ts f); reflexivity. }
  intros [e B|fs row' g v e F G N B].
  - rewrite <- app_assoc; destruct e as [|c e]; [cbn [map app rows_toks step]; unfold reset at 1, process_char; cbn [state is_start fields]; apply P|].
    destruct (run_row_breaks [] [] [] [] e c ([None] ++ ts) f (Forall2_nil _) empty_field B) as [row' [E _]]; cbn [tabbed flat_map app] in E.
    inversion B as [|? ? Bc Be]; subst; cbn [map app]; unfold reset at 1.
    rewrite (toks_step _ (mkrd EAT_CRNL [] [])); [|destruct Bc as [-> | ->]; discriminate|destruct Bc as [-> | ->]; reflexivity].
    rewrite run_breaks by exact Be; cbn [rows_toks step]; unfold process_char; cbn [state is_start fields Csv_model.field]; apply P.
  - rewrite <- !app_assoc; destruct e as [|c e].
    + cbn [map app]; unfold reset at 1; destruct (run_tabbed fs row' (g ++ None :: ts) f F START_RECORD [] ready_reset) as [st [E [R [X Y]]]]; rewrite E; cbn [app] in R |- *.
      destruct (run_field g v st row' (None :: ts) f G R) as [st' [E' K]]; rewrite E'; cbn [rows_toks step].
      assert (Z : process_char (mkrd st' v row') None = Ok (mkrd START_RECORD [] (row' ++ [v]))).
      { destruct K as [[-> |[-> | ->]]|[-> [-> ->]]]; try reflexivity; destruct fs; [contradiction|rewrite (Y ltac:(discriminate)); reflexivity]. }
      rewrite Z; cbn [state is_start fields]; apply P.
    + destruct (run_row_breaks fs row' g v e c ([None] ++ ts) f F G B) as [r [E X]]; rewrite E, (X N); cbn [app rows_toks step].
      unfold process_char; cbn [state is_start fields Csv_model.field]; apply P.
Qed.
Lemma run_unclosed t row f : unclosed t row -> rows_toks reset t f = ((match f with None => [row] | Some _ => [] end), ending f).
Proof.
  intros [fs row' b v F I S]; unfold reset; destruct (run_tabbed fs row' (Some quote :: b) f F START_RECORD [] ready_reset) as [st [E [R _]]]; rewrite E; cbn [app] in R |- *.
  rewrite run_open by exact R; rewrite <- (app_nil_r b); destruct (run_inside b v I [] row' [] f ltac:(unfold short; cbn; lia)) as [A _]; rewrite (A S).
  cbn [app rows_toks]; unfold last_row; cbn [Csv_model.field state fields is_quoted]; rewrite orb_true_r; destruct f; reflexivity.
Qed.
Lemma run_stuck t f : stuck t -> rows_toks reset t f = ([], Raise CsvError).
Proof.
  intros [p r V|fs row g v e c r F G B NE NB|fs row g v r F G S]; unfold reset.
  - assert (X : exists s, rows_toks reset (p ++ Some 0 :: r) f = rows_toks s (Some 0 :: r) f).
    { destruct V as [fs row g v F G S|fs row g v e F G B]; unfold reset; rewrite <- !app_assoc.
      - destruct (run_tabbed fs row (g ++ Some 0 :: r) f F START_RECORD [] ready_reset) as [st [E [R _]]]; rewrite E.
        destruct (run_growing g v st ([] ++ row) (Some 0 :: r) f G R) as [A _]; destruct (A S) as [s Es]; exists s; exact Es.
      - destruct e as [|c e].
        + cbn [map app]; destruct (run_tabbed fs row (g ++ Some 0 :: r) f F START_RECORD [] ready_reset) as [st [E [R _]]]; rewrite E.
          destruct (run_field g v st ([] ++ row) (Some 0 :: r) f G R) as [st' [Es _]]; eexists; exact Es.
        + destruct (run_row_breaks fs row g v e c (Some 0 :: r) f F G B) as [r' [E _]]; eexists; exact E. }
    destruct X as [s X]; unfold reset in X; rewrite X; reflexivity.
  - destruct e as [|d e]; [contradiction|]; destruct (run_row_breaks fs row g v e d (Some c :: r) f F G B) as [r' [E _]]; unfold reset in E; rewrite E.
    apply toks_stop; unfold process_char; cbn [state]; replace (newline (Some c)) with false; [reflexivity|].
    symmetry; unfold newline; unfold line_break in NB; lia.
  - destruct (run_tabbed fs row (g ++ r) f F START_RECORD [] ready_reset) as [st [E [R _]]]; rewrite E; apply (proj2 (run_growing g v st ([] ++ row) r f G R) S).
Qed.
Lemma rows_complete f ts rows o : reads f ts rows o -> rows_toks reset ts f = (rows, o).
Proof.
  intros R; induction R as [|t row ts rows o H R IH|t row H|t H].
  - destruct f; reflexivity.
  - rewrite run_record with (1 := H), IH; reflexivity.
  - apply run_unclosed, H.
  - apply run_stuck, H.
Qed.
Lemma last_toks ls : last (toks ls) None = None.
Proof.
  induction ls as [|l ls IH]; [reflexivity|]; cbn [toks flat_map]; fold (toks ls); destruct (toks ls) eqn:E.
  - rewrite app_nil_r; apply last_last.
  - rewrite <- E in IH |- *; clear -IH E; destruct (toks ls) as [|t ts] eqn:X; [discriminate|].
    induction (map Some l ++ [None]) as [|a m IHm]; [exact IH|]; cbn [app]; destruct (m ++ t :: ts) eqn:Y; [destruct m; discriminate|exact IHm].
Qed.
Lemma load_reads ls f rows o : load_file (mksource ls f) = (rows, o) <-> reads f (toks ls) rows o.
Proof.
  unfold load_file; cbn [Csv_model.lines failure]; rewrite rows_from_toks; split.
  - intros E; pose proof (rows_sound f (toks ls) [] reset At_start (fun _ => or_introl eq_refl) (last_toks ls)) as R; rewrite E in R; exact R.
  - apply rows_complete.
Qed.

(* ------------------------------------------------------------------ *)
(** ** consequences *)
Definition is_lb (c : char) : bool := (c =? 10) || (c =? 13).
Lemma is_lb_true c : is_lb c = true <-> line_break c.
Proof. unfold is_lb, line_break; lia. Qed.
Fixpoint calm (after : bool) (ts : list tok) : Prop :=
  match ts with
  | [] => True
  | None :: r => calm false r
  | Some c :: r => c <> 0 /\ (after = true -> line_break c) /\ calm (is_lb c) r
  end.
Fixpoint somes (ts : list tok) : nat := match ts with [] => O | None :: r => somes r | Some _ :: r => S (somes r) end.
Lemma somes_app a b : somes (a ++ b) = (somes a + somes b)%nat.
Proof. induction a as [|[c|] a IH]; cbn [app somes]; rewrite ?IH; reflexivity. Qed.
Lemma somes_map v : somes (map Some v) = length v.
Proof. induction v as [|c v IH]; cbn [map somes length]; rewrite ?IH; reflexivity. Qed.
Lemma somes_toks ls : somes (toks ls) = length (concat ls).
Proof.
  induction ls as [|l ls IH]; [reflexivity|]; cbn [toks flat_map concat]; fold (toks ls); rewrite !somes_app, somes_map, app_length, IH; cbn [somes]; lia.
Qed.
Lemma somes_inside b v : inside b v -> (length v <= somes b)%nat.
Proof. induction 1; cbn [length somes]; lia. Qed.
Lemma somes_growing g v : growing g v -> (length v <= somes g)%nat.
Proof.
  intros [w P H|b w I|b w t I P H]; [rewrite somes_map; lia| |]; pose proof (somes_inside _ _ I); cbn [somes]; [lia|].
  rewrite somes_app; cbn [somes]; rewrite somes_map, app_length; lia.
Qed.
Lemma calm_app_tail a t r : forall b, calm b (a ++ t :: r) -> exists b', calm b' (t :: r).
Proof.
  induction a as [|[c|] a IH]; intros b C; cbn [app calm] in C; [exists b; exact C|exact (IH _ (proj2 (proj2 C)))|exact (IH _ C)].
Qed.
Lemma calm_stuck b t : calm b t -> stuck t -> ~ Z.of_nat (somes t) <= 131072.
Proof.
  intros C H; revert C; destruct H as [p r V|fs row g v e c r F G B NE NB|fs row g v r F G S]; intros C L.
  - destruct (calm_app_tail _ _ _ _ C) as [b' X]; cbn [calm] in X; apply (proj1 X); reflexivity.
  - destruct (exists_last NE) as [e' [d ->]]; rewrite map_app in C; cbn [map] in C; rewrite <- app_assoc in C; cbn [app] in C; rewrite !app_assoc in C.
    destruct (calm_app_tail _ _ _ _ C) as [b' X]; cbn [calm] in X; destruct X as [_ [_ [_ [X _]]]].
    apply NB, X, is_lb_true; rewrite Forall_app in B; destruct B as [_ B]; inversion B; assumption.
  - apply S; unfold short; rewrite !somes_app in L; pose proof (somes_growing _ _ G); lia.
Qed.
Lemma calm_record b t row ts : record t row -> calm b (t ++ ts) -> calm false ts.
Proof.
  intros R C; assert (X : exists p, t = p ++ [None]).
  { destruct R as [e B|fs row' g v e F G N B]; [exists (map Some e); reflexivity|exists (tabbed fs ++ g ++ map Some e); rewrite <- !app_assoc; reflexivity]. }
  destruct X as [p ->]; rewrite <- app_assoc in C; destruct (calm_app_tail _ _ _ _ C) as [b' X]; exact X.
Qed.
Lemma calm_reads f ts rows o b : reads f ts rows o -> calm b ts -> Z.of_nat (somes ts) <= 131072 -> o = ending f.
Proof.
  intros R; revert b; induction R as [|t row ts rows o H R IH|t row H|t H]; intros b C L; try reflexivity.
  - apply (IH false); [exact (calm_record b t row ts H C)|rewrite somes_app in L; lia].
  - exfalso; exact (calm_stuck b t C H L).
Qed.
(** a line as text files have them: line breaks only at its end *)
Definition tidy (l : str) : Prop := exists b e, l = b ++ e /\ Forall (fun c => c <> 0 /\ ~ line_break c) b /\ Forall line_break e.
Lemma calm_tidy ls : Forall tidy ls -> calm false (toks ls).
Proof.
  induction 1 as [|l ls T F IH]; [exact I|]; cbn [toks flat_map]; fold (toks ls); destruct T as [b [e [-> [B E]]]].
  rewrite map_app, <- !app_assoc; cbn [app].
  assert (X : forall a, calm a (map Some e ++ None :: toks ls)).
  { clear b B; induction E as [|c e Hc E IHe]; intros a; [exact IH|]; cbn [map app calm]; split; [destruct Hc as [-> | ->]; discriminate|split; [intros _; exact Hc|apply IHe]]. }
  enough (Y : calm false (map Some b ++ map Some e ++ None :: toks ls)) by exact Y.
  clear E; induction B as [|c b [N0 NB] B IHb]; [apply X|]; cbn [map app calm]; split; [exact N0|split; [discriminate|]].
  replace (is_lb c) with false; [exact IHb|]; symmetry; destruct (is_lb c) eqn:Q; [|reflexivity]; apply is_lb_true in Q; contradiction.
Qed.
Lemma load_tidy ls f : Forall tidy ls -> Z.of_nat (length (concat ls)) <= 131072 -> snd (load_file (mksource ls f)) = ending f.
Proof.
  intros T L; destruct (load_file (mksource ls f)) as [rows o] eqn:E; apply load_reads in E; apply (calm_reads f _ rows o false E); [apply calm_tidy, T|].
  rewrite somes_toks; exact L.
Qed.

(** lines none of whose cells begins with a quote *)
Definition cells (b : str) : list str := match b with [] => [] | _ => split_on 9 b end.
Lemma tabbed_join fs f : tabbed (map (map Some) fs) ++ map Some f = map Some (join [9] (fs ++ [f])).
Proof.
  induction fs as [|g fs IH]; [reflexivity|]; cbn [map tabbed flat_map app]; fold (tabbed (map (map Some) fs)).
  rewrite <- !app_assoc, IH, join_cons by (destruct fs; discriminate); rewrite !map_app; reflexivity.
Qed.
Lemma fields_plain fs : Forall text_field fs -> Forall2 field (map (map Some) fs) fs.
Proof. induction 1 as [|v fs [P [H S]] F IH]; constructor; [apply Field_plain; assumption|exact IH]. Qed.
Lemma record_plain b e : Forall text_field (split_on 9 b) -> Forall line_break e -> record (map Some (b ++ e) ++ [None]) (cells b).
Proof.
  intros F E; destruct b as [|c b]; [apply Record_blank, E|]; unfold cells.
  destruct (exists_last (split_on_nonempty 9 (c :: b))) as [fs [f X]]; pose proof (join_split 9 (c :: b)) as J; rewrite X in *.
  apply Forall_app in F; destruct F as [F Ff]; inversion Ff as [|? ? [P [H S]] _]; subst.
  rewrite <- J, map_app, <- tabbed_join, <- !app_assoc; apply Record_row; [apply fields_plain, F|apply Field_plain; assumption| |exact E].
  rewrite tabbed_join, J; discriminate.
Qed.
Lemma load_plain bes f : Forall (fun be => Forall text_field (split_on 9 (fst be)) /\ Forall line_break (snd be)) bes ->
  load_file (mksource (map (fun be => fst be ++ snd be) bes) f) = (map (fun be => cells (fst be)) bes, ending f).
Proof.
  intros F; apply load_reads; induction F as [|[b e] bes [B E] F IH]; cbn [fst snd] in *; [apply Reads_end|].
  cbn [map toks flat_map fst snd]; apply Reads_record; [apply record_plain; assumption|exact IH].
Qed.
(** an opening quote takes everything to the next quote, or to the end *)
Lemma inside_free w ls : Forall (fun c => c <> quote /\ c <> 0) (w ++ concat ls) -> inside (map Some w ++ None :: toks ls) (w ++ concat ls).
Proof.
  revert w; induction ls as [|l ls IH]; intros w F.
  - cbn [concat toks flat_map] in *; rewrite app_nil_r in *; induction F as [|c w [Q N] F IHw]; [apply In_end; constructor|apply In_char; assumption].
  - induction w as [|c w IHw]; [|inversion F as [|? ? [Q N] F']; subst; cbn [map app]; apply In_char; [exact Q|exact N|apply IHw, F']].
    cbn [map app]; apply In_end; cbn [toks flat_map concat app] in *; fold (toks ls); rewrite <- app_assoc; apply IH, F.
Qed.
Lemma load_swallow fs w ls : Forall text_field fs -> Forall (fun c => c <> quote /\ c <> 0) (w ++ concat ls) -> short (w ++ concat ls) ->
  load_file (mksource ((flat_map (fun v => v ++ [9]) fs ++ quote :: w) :: ls) None) = ([fs ++ [w ++ concat ls]], Ok tt).
Proof.
  intros F Q S; apply load_reads; apply (Reads_unclosed None); cbn [toks flat_map]; fold (toks ls); rewrite map_app, <- app_assoc.
  replace (map Some (flat_map (fun v => v ++ [9]) fs)) with (tabbed (map (map Some) fs)).
  2: { clear; induction fs as [|v fs IH]; [reflexivity|]; cbn [map tabbed flat_map]; fold (tabbed (map (map Some) fs)); rewrite IH, !map_app; reflexivity. }
  cbn [map app]; rewrite <- app_assoc; cbn [app]; apply Unclosed; [apply fields_plain, F|apply inside_free, Q|exact S].
Qed.

(** blank lines and the three readers *)
Lemma blank_links dv s fs ft rows : In [] rows -> forall st, Tatoeba_model.read_links dv s fs ft rows st = Raise InvalidFileError.
Proof.
  induction rows as [|row rows IH]; intros I st; [destruct I|]; cbn [Tatoeba_model.read_links]; destruct I as [-> |I]; [reflexivity|].
  unfold Tatoeba_model.link_row; destruct row as [|a [|b [|c row]]]; try reflexivity.
  destruct (Tatoeba_model.int_ dv a), (Tatoeba_model.int_ dv b); try reflexivity; cbn [bind]; apply IH, I.
Qed.
Lemma blank_sentences date dv (strptime : str -> res date) filter_row langs rows : filter_row [] = false -> In [] rows ->
  forall t, exists e, Tatoeba_model.read_rows dv strptime filter_row langs rows t = Raise e.
Proof.
  intros N; induction rows as [|row rows IH]; intros I t; [destruct I|]; cbn [Tatoeba_model.read_rows].
  destruct (Tatoeba_model.read_row dv strptime filter_row langs row t) as [t'|e] eqn:E; cbn [bind]; [|exists e; reflexivity].
  destruct I as [-> |I]; [|apply IH, I]; unfold Tatoeba_model.read_row in E; rewrite N in E; cbn [firstn] in E; discriminate E.
Qed.
Lemma blank_indices dv s edict rows : In [] rows -> forall d, exists e, Tatoeba_model.index_rows dv s edict rows d = Raise e.
Proof.
  induction rows as [|row rows IH]; intros I d; [destruct I|]; cbn [Tatoeba_model.index_rows].
  destruct (Tatoeba_model.index_row dv s edict row d) as [d'|e] eqn:E; cbn [bind]; [|exists e; reflexivity].
  destruct I as [-> |I]; [discriminate E|apply IH, I].
Qed.
