(* Dialect_proofs.v -- proofs for C141 *)
From Verif Require Import Base PyText PyFmt Csv_model Csv_spec Csv_proofs Dialect_model Dialect_spec.

(** ** settings *)
Lemma char_text_fun t o o' : char_text t o -> char_text t o' -> o = o'.
Proof. intros C C'. destruct C; inversion C'; subst; try reflexivity; contradiction. Qed.
Lemma chosen_fun {A} (a b : option A) x y y' : chosen a b x y -> chosen a b x y' -> y = y'.
Proof. intros C C'. destruct C; inversion C'; subst; reflexivity. Qed.
Lemma chosen_pick {A} (a b : option A) x : chosen a b x (match pick a b with Some y => y | None => x end).
Proof. destruct a as [a|]; [constructor|]. destruct b as [b|]; constructor. Qed.
Lemma set_char_ok a b dt dc o : char_text dt dc -> (set_char (pick a b) dc = Ok o <-> exists t, chosen a b dt t /\ char_text t o).
Proof.
  intro D. pose proof (chosen_pick a b dt) as C. split.
  - intro E. exists (match pick a b with Some y => y | None => dt end). split; [exact C|]. destruct (pick a b) as [[[|c [|c' s]]|]|]; cbn [set_char] in E; try discriminate E; try (injection E as <-).
    + constructor.
    + destruct (Z.eqb_spec c 0) as [->|N]; constructor; exact N.
    + constructor.
    + exact D.
  - intros (t & C' & T). rewrite (chosen_fun _ _ _ _ _ C' C) in T. destruct (pick a b) as [[[|c [|c' s]]|]|]; cbn [set_char]; inversion T; subst; try reflexivity.
    all: try (destruct (Z.eqb_spec c 0); [contradiction|reflexivity]).
    all: rewrite (char_text_fun _ _ _ D T); reflexivity.
Qed.
Lemma set_char_or src dc : (exists o, set_char src dc = Ok o) \/ set_char src dc = Raise TypeError.
Proof. destruct src as [[[|c [|c' s]]|]|]; cbn [set_char]; eauto. Qed.
Lemma set_bool_ok a b x y : chosen a b x y <-> set_bool (pick a b) x = y.
Proof.
  pose proof (chosen_pick a b x) as C. assert (E : set_bool (pick a b) x = match pick a b with Some y => y | None => x end) by (destruct (pick a b); reflexivity).
  rewrite E. split; [intro C'; exact (chosen_fun _ _ _ _ _ C C')|intros <-; exact C].
Qed.
Lemma dialect_or s : (exists d, dialect_new s = Ok d) \/ dialect_new s = Raise TypeError.
Proof.
  unfold dialect_new. destruct (set_char_or (g_delimiter s) (Some (u1 ","))) as [[o ->]| ->]; [|right; reflexivity]. cbn [bind].
  destruct (set_char_or (g_escapechar s) None) as [[e ->]| ->]; [|right; reflexivity]. cbn [bind].
  destruct (set_char_or (g_quotechar s) (Some (u1 """"))) as [[q ->]| ->]; [|right; reflexivity]. cbn [bind].
  destruct o as [c|]; [|right; reflexivity]. cbn [bind]. cbv zeta.
  destruct (match g_quoting s with Some k => k | None => match g_quotechar s with Some None => QUOTE_NONE | _ => QUOTE_MINIMAL end end), q; eauto.
Qed.
Lemma dialect_settled kw dia d : dialect_new (merge (with_tab kw) dia) = Ok d <-> settled kw dia d.
Proof.
  unfold dialect_new, merge, settled. cbn [g_delimiter g_quotechar g_escapechar g_doublequote g_skipinitialspace g_strict g_quoting with_tab].
  assert (Dd : pick (match g_delimiter kw with Some x => Some x | None => Some (Some (u "	")) end) (g_delimiter dia) =
               pick (g_delimiter kw) (Some (Some (u "	")))) by (destruct (g_delimiter kw); reflexivity). rewrite Dd. clear Dd.
  assert (Dc : forall t, chosen (g_delimiter kw) (Some (Some (u "	"))) (Some (u "	")) t <-> chosen (g_delimiter kw) None (Some (u "	")) t).
  { intro t. destruct (g_delimiter kw); split; intro C; inversion C; subst; constructor. }
  assert (T : char_text (Some (u "	")) (Some 9)) by (apply (Ct_char 9); discriminate).
  assert (Tq : char_text (Some (u """")) (Some (u1 """"))) by (apply (Ct_char 34); discriminate).
  pose proof (fun o => set_char_ok (g_delimiter kw) (Some (Some (u "	"))) (Some (u "	")) (Some 9) o T) as Hd.
  assert (Ed : set_char (pick (g_delimiter kw) (Some (Some (u "	")))) (Some (u1 ",")) = set_char (pick (g_delimiter kw) (Some (Some (u "	")))) (Some 9)) by (destruct (g_delimiter kw); reflexivity).
  rewrite Ed. clear Ed.
  pose proof (fun o => set_char_ok (g_escapechar kw) (g_escapechar dia) None None o Ct_none) as He.
  pose proof (fun o => set_char_ok (g_quotechar kw) (g_quotechar dia) (Some (u """")) (Some (u1 """")) o Tq) as Hq.
  assert (Hk : forall k, (exists x, chosen (g_quotechar kw) (g_quotechar dia) (Some (u """")) x /\
     chosen (g_quoting kw) (g_quoting dia) (match x with None => QUOTE_NONE | Some _ => QUOTE_MINIMAL end) k) <->
     match pick (g_quoting kw) (g_quoting dia) with Some k => k | None => match pick (g_quotechar kw) (g_quotechar dia) with Some None => QUOTE_NONE | _ => QUOTE_MINIMAL end end = k).
  { intro k. pose proof (chosen_pick (g_quotechar kw) (g_quotechar dia) (Some (u """"))) as Cq. split.
    - intros (x & Cx & Ck). rewrite (chosen_fun _ _ _ _ _ Cx Cq) in Ck.
      rewrite <- (chosen_fun _ _ _ _ _ (chosen_pick (g_quoting kw) (g_quoting dia) _) Ck).
      destruct (pick (g_quoting kw) (g_quoting dia)); [reflexivity|]. destruct (pick (g_quotechar kw) (g_quotechar dia)) as [[|]|]; reflexivity.
    - intros <-. eexists. split; [exact Cq|].
      pose proof (chosen_pick (g_quoting kw) (g_quoting dia) (match (match pick (g_quotechar kw) (g_quotechar dia) with Some y => y | None => Some (u """") end) with None => QUOTE_NONE | Some _ => QUOTE_MINIMAL end)) as P.
      destruct (pick (g_quoting kw) (g_quoting dia)); [exact P|]. destruct (pick (g_quotechar kw) (g_quotechar dia)) as [[|]|]; exact P. }
  cbv zeta. remember (match pick (g_quoting kw) (g_quoting dia) with Some k => k | None => match pick (g_quotechar kw) (g_quotechar dia) with Some None => QUOTE_NONE | _ => QUOTE_MINIMAL end end) as k eqn:Ek.
  destruct d as [dl q e dq sk st ks]. cbn [delim quotec escapec doublequote skipspace strict quoting]. rewrite !set_bool_ok. split.
  - intro E.
    destruct (set_char (pick (g_delimiter kw) (Some (Some (u "	")))) (Some 9)) as [od|] eqn:E1; [|discriminate E]. cbn [bind] in E.
    destruct (set_char (pick (g_escapechar kw) (g_escapechar dia)) None) as [oe|] eqn:E2; [|discriminate E]. cbn [bind] in E.
    destruct (set_char (pick (g_quotechar kw) (g_quotechar dia)) (Some (u1 """"))) as [oq|] eqn:E3; [|discriminate E]. cbn [bind] in E.
    destruct od as [cd|]; [|discriminate E]. cbn [bind] in E.
    assert (X : k = ks /\ cd = dl /\ oq = q /\ oe = e /\ set_bool (pick (g_doublequote kw) (g_doublequote dia)) true = dq /\
      set_bool (pick (g_skipinitialspace kw) (g_skipinitialspace dia)) false = sk /\ set_bool (pick (g_strict kw) (g_strict dia)) false = st /\ (k = QUOTE_NONE \/ oq <> None)).
    { clear -E. destruct k, oq; try discriminate E; injection E; intros; subst; repeat split; try (left; reflexivity); right; discriminate. }
    destruct X as (<- & <- & <- & <- & <- & <- & <- & N).
    split; [destruct (proj1 (Hd _) eq_refl) as (t & C & Ht); exists t; split; [apply Dc, C|exact Ht]|].
    split; [exact (proj1 (Hq _) eq_refl)|]. split; [exact (proj1 (He _) eq_refl)|]. do 3 (split; [reflexivity|]). split; [apply Hk; reflexivity|exact N].
  - intros ((t & Ct & Tt) & Q & Es & <- & <- & <- & K & N).
    rewrite (proj2 (Hd (Some dl))) by (exists t; split; [apply Dc, Ct|exact Tt]). cbn [bind]. rewrite (proj2 (He e) Es). cbn [bind]. rewrite (proj2 (Hq q) Q). cbn [bind].
    apply Hk in K. subst ks. destruct k, q; try reflexivity; destruct N as [N|N]; try discriminate N; contradiction.
Qed.
Lemma load_settled kw dia d src : settled kw dia d -> load_file_with kw (Some (Ok dia)) src = d_rows_from d d_reset (lines src) (failure src).
Proof. intro S. apply dialect_settled in S. unfold load_file_with. cbn [bind]. rewrite S. reflexivity. Qed.
Lemma load_none kw src : load_file_with kw None src = load_file_with kw (Some (Ok no_settings)) src.
Proof. reflexivity. Qed.

(** ** without settings *)
Definition emb (s : cstate) : dstate :=
  match s with
  | START_RECORD => D_START_RECORD | START_FIELD => D_START_FIELD | IN_FIELD => D_IN_FIELD | IN_QUOTED_FIELD => D_IN_QUOTED_FIELD
  | QUOTE_IN_QUOTED_FIELD => D_QUOTE_IN_QUOTED_FIELD | EAT_CRNL => D_EAT_CRNL
  end.
Definition em (s : rd) : drd := mkdrd (emb (state s)) (field s) (fields s).
Definition d0 : dialect := mkdialect 9 (Some 34) None true false false QUOTE_MINIMAL.
Lemma d0_settled : dialect_new (merge (with_tab no_settings) no_settings) = Ok d0.
Proof. reflexivity. Qed.
Lemma em_add s st c : d_add (em s) (emb st) c = rmap em (add_char s st c).
Proof. unfold d_add, add_char. cbn [em dfield dfields]. destruct (field_limit <=? _); reflexivity. Qed.
Lemma em_start s c : c <> None -> d_start_field d0 (em s) c = rmap em (start_field s c).
Proof.
  intro N. destruct c as [c|]; [|contradiction]. unfold d_start_field, start_field. destruct (newline (Some c)); [reflexivity|].
  unfold quotes. cbn [d0 quotec quoting escapec isc skipspace delim]. unfold quotechar, delimiter. rewrite andb_true_r, andb_false_r.
  destruct (c =? 34); [reflexivity|]. destruct (c =? 9); [reflexivity|]. apply (em_add s IN_FIELD c).
Qed.
Lemma em_process s c : d_process d0 (em s) c = rmap em (process_char s c).
Proof.
  destruct s as [st f fs]. destruct st; unfold d_process, process_char; cbn [em dst emb state].
  - destruct c as [c|]; [|reflexivity]. destruct (newline (Some c)); [reflexivity|]. apply (em_start (mkrd START_RECORD f fs)). discriminate.
  - destruct c as [c|]; [apply (em_start (mkrd START_FIELD f fs)); discriminate|reflexivity].
  - unfold d_in_field. destruct (newline c) eqn:Nl; [destruct c; reflexivity|]. destruct c as [c|]; [|reflexivity]. cbn [d0 escapec isc delim]. unfold delimiter.
    destruct (c =? 9); [reflexivity|]. apply (em_add (mkrd IN_FIELD f fs) IN_FIELD c).
  - destruct c as [c|]; [|reflexivity]. unfold quotes. cbn [d0 escapec isc quotec quoting doublequote]. rewrite andb_true_r. unfold quotechar. destruct (c =? 34); [reflexivity|].
    apply (em_add (mkrd IN_QUOTED_FIELD f fs) IN_QUOTED_FIELD c).
  - destruct c as [c|]; [|reflexivity]. unfold quotes. cbn [d0 isc quotec quoting delim strict]. rewrite andb_true_r. unfold quotechar, delimiter.
    destruct (c =? 34); [apply (em_add (mkrd QUOTE_IN_QUOTED_FIELD f fs) IN_QUOTED_FIELD c)|]. destruct (c =? 9); [reflexivity|].
    destruct (newline (Some c)); [reflexivity|]. apply (em_add (mkrd QUOTE_IN_QUOTED_FIELD f fs) IN_FIELD c).
  - destruct c as [c|]; [|reflexivity]. destruct (newline (Some c)); reflexivity.
Qed.
Lemma em_feed line : forall s, d_feed d0 (em s) line = rmap em (feed s line).
Proof.
  induction line as [|c line IH]; intro s; [reflexivity|]. cbn [d_feed feed]. destruct (c =? 0); [reflexivity|]. rewrite em_process. destruct (process_char s (Some c)); [|reflexivity].
  cbn [rmap bind]. apply IH.
Qed.
Lemma em_rows ls f : forall s, d_rows_from d0 (em s) ls f = rows_from s ls f.
Proof.
  induction ls as [|l ls IH]; intro s.
  - cbn [d_rows_from rows_from]. unfold d_end. destruct f; [reflexivity|]. cbn [em dfield dfields dst d0 strict]. destruct s as [[] v fs]; reflexivity.
  - cbn [d_rows_from rows_from]. unfold d_feed_line, feed_line. rewrite em_feed. destruct (feed s l) as [s1|]; [|reflexivity]. cbn [rmap bind]. rewrite em_process.
    destruct (process_char s1 None) as [s2|]; [|reflexivity]. cbn [rmap bind em dst dfields]. change d_reset with (em reset).
    replace (d_is_start (emb (state s2))) with (is_start (state s2)) by (destruct (state s2); reflexivity).
    destruct (is_start (state s2)); [rewrite IH; reflexivity|]. apply (IH s2).
Qed.
Lemma load_plainly src : load_file_with no_settings None src = load_file src.
Proof. unfold load_file_with. cbn [bind]. rewrite d0_settled. apply (em_rows (lines src) (failure src) reset). Qed.

(** ** characters and line ends one by one *)
Section Toks.
  Variable d : dialect.
  Definition d_step (s : drd) (t : option char) : res drd := match t with Some c => if c =? 0 then Raise CsvError else d_process d s t | None => d_process d s t end.
  Fixpoint d_toks (s : drd) (ts : list (option char)) (f : option exn) : list (list str) * res unit :=
    match ts with
    | [] => d_end d s f
    | t :: r =>
        match d_step s t with
        | Raise e => ([], Raise e)
        | Ok s => match t with
                  | None => if d_is_start (dst s) then let (rows, o) := d_toks d_reset r f in (dfields s :: rows, o) else d_toks s r f
                  | Some _ => d_toks s r f
                  end
        end
    end.
  Lemma toks_feed l r f : forall s, d_toks s (map Some l ++ r) f = match d_feed d s l with Ok s => d_toks s r f | Raise e => ([], Raise e) end.
  Proof.
    induction l as [|c l IH]; intro s; [reflexivity|]. cbn [map app d_toks d_feed d_step]. destruct (c =? 0); [reflexivity|]. destruct (d_process d s (Some c)); [|reflexivity]. apply IH.
  Qed.
  Lemma rows_toks ls f : forall s, d_rows_from d s ls f = d_toks s (flat_map (fun l => map Some l ++ [None]) ls) f.
  Proof.
    induction ls as [|l ls IH]; intro s; [reflexivity|]. cbn [flat_map d_rows_from]. rewrite <- app_assoc, toks_feed. unfold d_feed_line. destruct (d_feed d s l) as [s1|]; [|reflexivity].
    cbn [bind app d_toks d_step]. destruct (d_process d s1 None) as [s2|]; [|reflexivity]. rewrite !IH. reflexivity.
  Qed.
  Fixpoint quiet (s : drd) (ts : list (option char)) : option drd :=
    match ts with
    | [] => Some s
    | t :: r =>
        match d_step s t with
        | Raise _ => None
        | Ok s => match t with None => if d_is_start (dst s) then None else quiet s r | Some _ => quiet s r end
        end
    end.
  Lemma quiet_app a b : forall s, quiet s (a ++ b) = match quiet s a with Some s => quiet s b | None => None end.
  Proof.
    induction a as [|t a IH]; intro s; [reflexivity|]. cbn [app quiet]. destruct (d_step s t) as [s1|]; [|reflexivity]. destruct t; [apply IH|]. destruct (d_is_start (dst s1)); [reflexivity|apply IH].
  Qed.
  Lemma quiet_toks a b f : forall s s', quiet s a = Some s' -> d_toks s (a ++ b) f = d_toks s' b f.
  Proof.
    induction a as [|t a IH]; intros s s' E; [injection E as <-; reflexivity|]. cbn [app quiet d_toks] in *. destruct (d_step s t) as [s1|]; [|discriminate E].
    destruct t; [exact (IH _ _ E)|]. destruct (d_is_start (dst s1)); [discriminate E|exact (IH _ _ E)].
  Qed.
End Toks.
Definition brk (c : char) : list (option char) := if c =? 10 then [Some c; None] else [Some c].
Lemma lines_toks s : ~ In 13 s -> forall cur, s <> [] -> last s 0 = 10 ->
  flat_map (fun l => map Some l ++ [None]) (lines_from cur s) = map Some (rev cur) ++ flat_map brk s.
Proof.
  induction s as [|c s IH]; intros N cur Ne L; [contradiction|]. cbn [lines_from flat_map]. unfold brk at 1.
  destruct (Z.eqb_spec c 10) as [->|N10].
  - cbn [flat_map rev]. rewrite map_app, <- !app_assoc. f_equal. cbn [map app]. do 2 f_equal. destruct s as [|x s]; [reflexivity|]. rewrite IH; [reflexivity| |discriminate|exact L].
    intro I. apply N. right. exact I.
  - destruct (Z.eqb_spec c 13) as [->|N13]; [exfalso; apply N; left; reflexivity|]. destruct s as [|x s]; [cbn in L; contradiction|].
    rewrite IH; [|intro I; apply N; right; exact I|discriminate|exact L]. cbn [rev]. rewrite map_app, <- app_assoc. reflexivity.
Qed.

(** ** cells *)
Section Cells.
  Variable d : dialect.
  Hypothesis Sane : sane d.
  Lemma step_char c s : c <> 0 -> d_step d s (Some c) = d_process d s (Some c).
  Proof. intro N. cbn [d_step]. destruct (Z.eqb_spec c 0); [contradiction|reflexivity]. Qed.
  Lemma nl_false c : ~ ends_line c -> newline (Some c) = false.
  Proof. unfold ends_line. cbn [newline]. destruct (Z.eqb_spec c 10), (Z.eqb_spec c 13); tauto. Qed.
  Lemma nl_true c : ends_line c -> newline (Some c) = true.
  Proof. intros [-> | ->]; reflexivity. Qed.
  Lemma esc_true c : escapec d = Some c -> isc (escapec d) c = true.
  Proof. intros ->. apply Z.eqb_refl. Qed.
  Lemma esc_false c : escapec d <> Some c -> isc (escapec d) c = false.
  Proof. intro N. unfold isc. destruct (escapec d) as [x|]; [|reflexivity]. destruct (Z.eqb_spec c x); [subst; contradiction|reflexivity]. Qed.
  Lemma quote_true c : is_quote d c -> quotes d c = true.
  Proof. intros [Q K]. unfold quotes. rewrite Q. cbn [isc]. rewrite Z.eqb_refl. destruct (quoting d); try reflexivity. contradiction. Qed.
  Lemma quote_false c : ~ is_quote d c -> quotes d c = false.
  Proof.
    intro N. unfold quotes. destruct (quotec d) as [x|] eqn:Q; [|reflexivity]. cbn [isc]. destruct (Z.eqb_spec c x) as [->|]; [|reflexivity].
    destruct (quoting d) eqn:K; try reflexivity; exfalso; apply N; (split; [exact Q|rewrite K; discriminate]).
  Qed.
  Lemma add_short st w fs st' c : short (w ++ [c]) -> d_add (mkdrd st w fs) st' c = Ok (mkdrd st' (w ++ [c]) fs).
  Proof.
    intro H. unfold d_add. cbn [dfield dfields]. unfold short in H. rewrite app_length in H. cbn [length] in H. unfold field_limit. destruct (Z.leb_spec 131072 (Z.of_nat (length w))); [lia|reflexivity].
  Qed.
  Lemma brk_other c : c <> 10 -> brk c = [Some c].
  Proof. intro N. unfold brk. destruct (Z.eqb_spec c 10); [contradiction|reflexivity]. Qed.
  Lemma nq_quiet s c s' r : c <> 0 -> c <> 10 -> d_process d s (Some c) = Ok s' -> quiet d s (brk c ++ r) = quiet d s' r.
  Proof. intros N N10 E. rewrite (brk_other c N10). cbn [app quiet]. rewrite step_char by exact N. rewrite E. reflexivity. Qed.
  Definition infield (st : dstate) : Prop := st = D_IN_FIELD \/ st = D_AFTER_ESCAPED_CRNL /\ escapec d <> None.
  Lemma in_process st w fs c : infield st -> d_process d (mkdrd st w fs) (Some c) = d_in_field d (mkdrd st w fs) (Some c).
  Proof. intros [-> | [-> _]]; reflexivity. Qed.
  Lemma special_not c : ~ special d c -> c <> delim d /\ escapec d <> Some c /\ ~ ends_line c /\ c <> 0 /\ c <> 10.
  Proof. unfold special, ends_line. tauto. Qed.
  Lemma escape_ok e : escapec d = Some e -> ~ ends_line e /\ e <> 0 /\ e <> 10.
  Proof. intro E. destruct Sane as (_ & _ & _ & _ & _ & X & _). destruct (X e E) as [A B]. split; [exact A|split; [exact B|]]. intros ->. apply A. left. reflexivity. Qed.
  Lemma some_esc e : escapec d = Some e -> escapec d <> None.
  Proof. intros ->. discriminate. Qed.
  Lemma after_escape c st w fs r : escapec d <> None -> c <> 0 -> short (w ++ [c]) -> st = D_ESCAPED_CHAR ->
    exists st', infield st' /\ quiet d (mkdrd st w fs) (brk c ++ r) = quiet d (mkdrd st' (w ++ [c]) fs) r.
  Proof.
    intros Es N H ->. destruct (Z.eq_dec c 10) as [->|N10].
    - exists D_AFTER_ESCAPED_CRNL. split; [right; split; [reflexivity|exact Es]|]. cbn [brk Z.eqb Pos.eqb app quiet]. rewrite step_char by discriminate. cbn [d_process dst newline Z.eqb Pos.eqb orb].
      rewrite add_short by exact H. cbn [quiet d_step d_process dst d_is_start]. reflexivity.
    - destruct (newline (Some c)) eqn:Nl.
      + exists D_AFTER_ESCAPED_CRNL. split; [right; split; [reflexivity|exact Es]|]. apply nq_quiet; [exact N|exact N10|]. cbn [d_process dst]. rewrite Nl. apply add_short, H.
      + exists D_IN_FIELD. split; [left; reflexivity|]. apply nq_quiet; [exact N|exact N10|]. cbn [d_process dst]. rewrite Nl. apply add_short, H.
  Qed.
  Lemma short_left w c v : short (w ++ c :: v) -> short (w ++ [c]).
  Proof. unfold short. rewrite !app_length. cbn [length]. lia. Qed.
  Lemma open_in t v : open_text d t v -> forall st w fs, infield st -> short (w ++ v) -> exists st', infield st' /\ quiet d (mkdrd st w fs) (flat_map brk t) = Some (mkdrd st' (w ++ v) fs).
  Proof.
    induction 1 as [|c t v S O IH|e c t v E N O IH]; intros st w fs I H.
    - exists st. split; [exact I|]. rewrite app_nil_r. reflexivity.
    - destruct (special_not c S) as (A & B & C & N & N10). cbn [flat_map].
      destruct (IH D_IN_FIELD (w ++ [c]) fs (or_introl eq_refl)) as (st' & I' & Q); [rewrite <- app_assoc; exact H|]. exists st'. split; [exact I'|].
      rewrite (nq_quiet _ c (mkdrd D_IN_FIELD (w ++ [c]) fs)); [rewrite Q, <- app_assoc; reflexivity|exact N|exact N10|]. rewrite in_process by exact I. unfold d_in_field.
      rewrite (nl_false c C), (esc_false c B). destruct (Z.eqb_spec c (delim d)); [contradiction|]. apply add_short. eapply short_left, H.
    - destruct (escape_ok e E) as (A & B & C). cbn [flat_map].
      rewrite (nq_quiet _ e (mkdrd D_ESCAPED_CHAR w fs)); [|exact B|exact C|rewrite in_process by exact I; unfold d_in_field; rewrite (nl_false e A), (esc_true e E); reflexivity].
      destruct (after_escape c D_ESCAPED_CHAR w fs (flat_map brk t) (some_esc e E) N (short_left _ _ _ H) eq_refl) as (st1 & I1 & ->).
      destruct (IH st1 (w ++ [c]) fs I1) as (st' & I' & Q); [rewrite <- app_assoc; exact H|]. exists st'. split; [exact I'|]. rewrite Q, <- app_assoc. reflexivity.
  Qed.
  Lemma quoted_step c w fs r : c <> 0 -> short (w ++ [c]) -> d_process d (mkdrd D_IN_QUOTED_FIELD w fs) (Some c) = d_add (mkdrd D_IN_QUOTED_FIELD w fs) D_IN_QUOTED_FIELD c ->
    quiet d (mkdrd D_IN_QUOTED_FIELD w fs) (brk c ++ r) = quiet d (mkdrd D_IN_QUOTED_FIELD (w ++ [c]) fs) r.
  Proof.
    intros N H E. destruct (Z.eq_dec c 10) as [->|N10].
    - cbn [brk Z.eqb Pos.eqb app quiet]. rewrite step_char by discriminate. rewrite E, add_short by exact H. reflexivity.
    - apply nq_quiet; [exact N|exact N10|]. rewrite E. apply add_short, H.
  Qed.
  Lemma escquoted_step c w fs r : c <> 0 -> short (w ++ [c]) ->
    quiet d (mkdrd D_ESCAPE_IN_QUOTED_FIELD w fs) (brk c ++ r) = quiet d (mkdrd D_IN_QUOTED_FIELD (w ++ [c]) fs) r.
  Proof.
    intros N H. destruct (Z.eq_dec c 10) as [->|N10].
    - cbn [brk Z.eqb Pos.eqb app quiet]. rewrite step_char by discriminate. cbn [d_process dst]. rewrite add_short by exact H. reflexivity.
    - apply nq_quiet; [exact N|exact N10|]. cbn [d_process dst]. apply add_short, H.
  Qed.
  Lemma quote_ok q : is_quote d q -> ~ ends_line q /\ q <> 0 /\ q <> 10.
  Proof. intro Q. destruct Sane as (_ & _ & _ & _ & _ & _ & X). destruct (X q Q) as [A B]. split; [exact A|split; [exact B|]]. intros ->. apply A. left. reflexivity. Qed.
  Lemma quoted_in t v : quoted_text d t v -> forall w fs, short (w ++ v) -> quiet d (mkdrd D_IN_QUOTED_FIELD w fs) (flat_map brk t) = Some (mkdrd D_IN_QUOTED_FIELD (w ++ v) fs).
  Proof.
    induction 1 as [|c t v N E Q T IH|q t v Q E D T IH|e c t v E N T IH]; intros w fs H.
    - rewrite app_nil_r. reflexivity.
    - cbn [flat_map]. rewrite quoted_step; [rewrite IH, <- app_assoc; [reflexivity|rewrite <- app_assoc; exact H]|exact N|eapply short_left, H|].
      cbn [d_process dst]. rewrite (esc_false c E), (quote_false c Q). reflexivity.
    - destruct (quote_ok q Q) as (A & B & C). cbn [flat_map].
      rewrite (nq_quiet _ q (mkdrd D_QUOTE_IN_QUOTED_FIELD w fs)); [|exact B|exact C|cbn [d_process dst]; rewrite (esc_false q E), (quote_true q Q), D; reflexivity].
      rewrite (nq_quiet _ q (mkdrd D_IN_QUOTED_FIELD (w ++ [q]) fs)); [|exact B|exact C|cbn [d_process dst]; rewrite (quote_true q Q); apply add_short; eapply short_left, H].
      rewrite IH, <- app_assoc; [reflexivity|rewrite <- app_assoc; exact H].
    - destruct (escape_ok e E) as (A & B & C). cbn [flat_map].
      rewrite (nq_quiet _ e (mkdrd D_ESCAPE_IN_QUOTED_FIELD w fs)); [|exact B|exact C|cbn [d_process dst]; rewrite (esc_true e E); reflexivity].
      rewrite escquoted_step; [|exact N|eapply short_left, H]. rewrite IH, <- app_assoc; [reflexivity|rewrite <- app_assoc; exact H].
  Qed.
  Definition dready (st : dstate) : Prop := st = D_START_RECORD \/ st = D_START_FIELD.
  Inductive filled (t v : str) : dstate -> Prop :=
  | F_in st : infield st -> filled t v st
  | F_quote : filled t v D_QUOTE_IN_QUOTED_FIELD
  | F_field : v = [] -> filled t v D_START_FIELD
  | F_record : t = [] -> v = [] -> filled t v D_START_RECORD.
  Lemma ready_process st fs c : dready st -> newline (Some c) = false -> d_process d (mkdrd st [] fs) (Some c) = d_start_field d (mkdrd st [] fs) (Some c).
  Proof. intros [-> | ->] N; cbn [d_process dst]; [rewrite N|]; reflexivity. Qed.
  Lemma cell_in t v : written d t v -> forall st fs, dready st -> short v -> exists st', filled t v st' /\ quiet d (mkdrd st [] fs) (flat_map brk t) = Some (mkdrd st' v fs).
  Proof.
    induction 1 as [t v O Nq Sp|q t v Q E T|t v Sk Nq Ne W IH]; intros st fs R H.
    - destruct O as [|c t v S O|e c t v E N O].
      + exists st. split; [|reflexivity]. destruct R as [-> | ->]; [apply F_record|apply F_field]; reflexivity.
      + destruct (special_not c S) as (A & B & C & N & N10). cbn [flat_map hd] in *.
        destruct (open_in t v O D_IN_FIELD [c] fs (or_introl eq_refl) H) as (st' & I' & Q'). exists st'. split; [apply F_in, I'|].
        rewrite (nq_quiet _ c (mkdrd D_IN_FIELD [c] fs)); [exact Q'|exact N|exact N10|]. rewrite ready_process by (try exact R; apply nl_false, C). unfold d_start_field.
        rewrite (nl_false c C), (quote_false c Nq), (esc_false c B).
        replace ((c =? u1 " ") && skipspace d) with false.
        2: { destruct (Z.eqb_spec c (u1 " ")) as [->|]; [|reflexivity]. destruct (skipspace d); [|reflexivity]. destruct (Sp eq_refl) as [X|X]; contradiction. }
        destruct (Z.eqb_spec c (delim d)); [contradiction|]. apply (add_short st [] fs). eapply (short_left [] c v), H.
      + destruct (escape_ok e E) as (A & B & C). cbn [flat_map hd] in *.
        rewrite (nq_quiet _ e (mkdrd D_ESCAPED_CHAR [] fs)).
        2: exact B. 2: exact C.
        2: { rewrite ready_process by (try exact R; apply nl_false, A). unfold d_start_field. rewrite (nl_false e A), (quote_false e Nq), (esc_true e E). reflexivity. }
        destruct (after_escape c D_ESCAPED_CHAR [] fs (flat_map brk t) (some_esc e E) N (short_left [] c v H) eq_refl) as (st1 & I1 & ->).
        destruct (open_in t v O st1 [c] fs I1 H) as (st' & I' & Q'). exists st'. split; [apply F_in, I'|]. exact Q'.
    - destruct (quote_ok q Q) as (A & B & C). cbn [flat_map].
      rewrite (nq_quiet _ q (mkdrd D_IN_QUOTED_FIELD [] fs)).
      2: exact B. 2: exact C.
      2: { rewrite ready_process by (try exact R; apply nl_false, A). unfold d_start_field. rewrite (nl_false q A), (quote_true q Q). reflexivity. }
      rewrite flat_map_app, quiet_app, (quoted_in t v T [] fs H). cbn [flat_map app].
      exists (if doublequote d then D_QUOTE_IN_QUOTED_FIELD else D_IN_FIELD). split; [destruct (doublequote d); [apply F_quote|apply F_in; left; reflexivity]|].
      rewrite (nq_quiet _ q (mkdrd (if doublequote d then D_QUOTE_IN_QUOTED_FIELD else D_IN_FIELD) v fs) []); [reflexivity|exact B|exact C|].
      cbn [d_process dst]. rewrite (esc_false q E), (quote_true q Q). reflexivity.
    - destruct (IH D_START_FIELD fs (or_intror eq_refl) H) as (st' & F & Q). exists st'. split.
      + destruct F as [st1 I|  |V|T V]; [apply F_in, I|apply F_quote|apply F_field, V|]. exfalso. clear -T Q. subst t. cbn in Q. discriminate Q.
      + cbn [flat_map]. rewrite (nq_quiet _ (u1 " ") (mkdrd D_START_FIELD [] fs)); [exact Q|discriminate|discriminate|].
        rewrite ready_process by (try exact R; reflexivity). unfold d_start_field. replace (newline (Some (u1 " "))) with false by reflexivity.
        rewrite quote_false by exact Nq. rewrite (esc_false _ Ne), Z.eqb_refl, Sk. reflexivity.
  Qed.
  Lemma close_delim t v st fs r : filled t v st -> quiet d (mkdrd st v fs) (brk (delim d) ++ r) = quiet d (mkdrd D_START_FIELD [] (fs ++ [v])) r.
  Proof.
    intro F. destruct Sane as (S1 & S2 & S3 & S4 & S5 & _). assert (N10 : delim d <> 10) by (intro X; apply S1; left; exact X).
    apply nq_quiet; [exact S2|exact N10|].
    assert (St : forall st0, d_start_field d (mkdrd st0 v fs) (Some (delim d)) = Ok (mkdrd D_START_FIELD [] (fs ++ [v]))).
    { intro st0. unfold d_start_field. rewrite (nl_false _ S1), (quote_false _ S4), (esc_false _ S3).
      replace ((delim d =? u1 " ") && skipspace d) with false by (destruct (Z.eqb_spec (delim d) (u1 " ")) as [X|]; [|reflexivity]; destruct (skipspace d); [exfalso; exact (S5 eq_refl X)|reflexivity]).
      rewrite Z.eqb_refl. reflexivity. }
    destruct F as [st0 I| |V|T V].
    - rewrite in_process by exact I. unfold d_in_field. rewrite (nl_false _ S1), (esc_false _ S3), Z.eqb_refl. reflexivity.
    - cbn [d_process dst]. rewrite (quote_false _ S4), Z.eqb_refl. reflexivity.
    - apply St.
    - cbn [d_process dst]. rewrite (nl_false _ S1). apply St.
  Qed.
  Lemma close_row t v st fs r f : filled t v st -> st <> D_START_RECORD ->
    d_toks d (mkdrd st v fs) (brk 10 ++ r) f = let (rows, o) := d_toks d d_reset r f in ((fs ++ [v]) :: rows, o).
  Proof.
    intros F Ns. cbn [brk Z.eqb Pos.eqb app d_toks]. rewrite step_char by discriminate.
    assert (E : d_process d (mkdrd st v fs) (Some 10) = Ok (mkdrd D_EAT_CRNL [] (fs ++ [v]))).
    { destruct F as [st0 I| |V|T V].
      - rewrite in_process by exact I. reflexivity.
      - cbn [d_process dst]. rewrite quote_false by (intro Q; destruct (quote_ok 10 Q) as (A & _); apply A; left; reflexivity).
        destruct (Z.eqb_spec 10 (delim d)) as [X|]; [exfalso; destruct Sane as (S1 & _); apply S1; left; symmetry; exact X|]. reflexivity.
      - reflexivity.
      - contradiction. }
    rewrite E. reflexivity.
  Qed.
  Lemma cells_in cells row : Forall2 (written d) cells row -> cells <> [] -> Forall short row -> forall st fs, dready st -> (st = D_START_RECORD -> cells <> [[]]) ->
    forall r f, d_toks d (mkdrd st [] fs) (flat_map brk (join [delim d] cells ++ [10]) ++ r) f = let (rows, o) := d_toks d d_reset r f in ((fs ++ row) :: rows, o).
  Proof.
    induction 1 as [|t v cells row W F IH]; intros Ne H st fs R B r f; [contradiction|]. inversion H as [|? ? H1 H2]; subst.
    destruct (cell_in t v W st fs R H1) as (st' & Fi & Q). destruct cells as [|t2 cells].
    - inversion F; subst. cbn [join]. rewrite flat_map_app, <- app_assoc, (quiet_toks d _ _ f _ _ Q). cbn [flat_map]. rewrite app_nil_r. apply (close_row t v); [exact Fi|].
      intros ->. inversion Fi as [st0 [I|[I _]]| |V|T V]; try discriminate. subst t. cbn in Q. injection Q as Q _. apply (B Q). reflexivity.
    - rewrite join_cons by discriminate. rewrite <- !app_assoc, flat_map_app, <- app_assoc, (quiet_toks d _ _ f _ _ Q). cbn [app flat_map]. rewrite <- app_assoc.
      pose proof (close_delim t v st' fs [] Fi) as Cd. rewrite app_nil_r in Cd. cbn [quiet] in Cd. rewrite (quiet_toks d _ _ f _ _ Cd).
      rewrite (IH ltac:(discriminate) H2 D_START_FIELD (fs ++ [v]) (or_intror eq_refl) ltac:(discriminate) r f). rewrite <- app_assoc. reflexivity.
  Qed.
  Lemma rows_in ts rows : Forall2 (row_text d) ts rows -> Forall (Forall short) rows -> forall f, d_toks d d_reset (flat_map brk (concat ts)) f =
    (rows, match f with Some e => Raise e | None => Ok tt end).
  Proof.
    induction 1 as [|t row ts rows (cells & W & Ne & B & ->) F IH]; intros H f.
    - cbn [concat flat_map d_toks]. unfold d_end. destruct f; reflexivity.
    - inversion H; subst. cbn [concat]. rewrite flat_map_app. unfold d_reset at 1. rewrite (cells_in cells row W Ne ltac:(assumption) D_START_RECORD [] (or_introl eq_refl) (fun _ => B)). rewrite IH by assumption. reflexivity.
  Qed.
  Lemma cells_open cells row : Forall2 (written d) cells row -> cells <> [] -> Forall short row -> forall st fs, dready st -> (st = D_START_RECORD -> cells <> [[]]) ->
    exists st' t v init, filled t v st' /\ st' <> D_START_RECORD /\ row = init ++ [v] /\ quiet d (mkdrd st [] fs) (flat_map brk (join [delim d] cells)) = Some (mkdrd st' v (fs ++ init)).
  Proof.
    induction 1 as [|t v cells row W F IH]; intros Ne H st fs R B; [contradiction|]. inversion H as [|? ? H1 H2]; subst.
    destruct (cell_in t v W st fs R H1) as (st' & Fi & Q). destruct cells as [|t2 cells].
    - inversion F; subst. cbn [join]. exists st', t, v, []. split; [exact Fi|]. rewrite app_nil_r. split; [|split; [reflexivity|exact Q]].
      intros ->. inversion Fi as [st0 [I|[I _]]| |V|T V]; try discriminate. subst t. cbn in Q. injection Q as Q _. apply (B Q). reflexivity.
    - destruct (IH ltac:(discriminate) H2 D_START_FIELD (fs ++ [v]) (or_intror eq_refl) ltac:(discriminate)) as (st1 & t1 & v1 & init & F1 & N1 & E1 & Q1).
      exists st1, t1, v1, (v :: init). split; [exact F1|split; [exact N1|split; [rewrite E1; reflexivity|]]].
      rewrite join_cons by discriminate. rewrite flat_map_app, quiet_app, Q. cbn [app flat_map]. rewrite (close_delim t v st' fs _ Fi), Q1, <- app_assoc. reflexivity.
  Qed.
  Lemma text_rows ts rows f : Forall2 (row_text d) ts rows -> Forall (Forall short) rows -> ~ In 13 (concat ts) ->
    d_rows_from d d_reset (file_lines (concat ts)) f = (rows, match f with Some e => Raise e | None => Ok tt end).
  Proof.
    intros F H N. rewrite rows_toks. destruct ts as [|t ts].
    - inversion F; subst. cbn. unfold d_end. destruct f; reflexivity.
    - unfold file_lines. rewrite lines_toks.
      + cbn [rev map app]. apply rows_in; assumption.
      + exact N.
      + inversion F as [|? ? ? ? (cells & _ & _ & _ & ->) _]; subst. cbn [concat]. rewrite <- app_assoc. destruct (join [delim d] cells); discriminate.
      + clear N H. assert (X : exists a, concat (t :: ts) = a ++ [10]).
        { revert t rows F. induction ts as [|t2 ts IH]; intros t rows F; inversion F as [|? ? ? ? (cells & _ & _ & _ & ->) F']; subst.
          - exists (join [delim d] cells). cbn [concat]. apply app_nil_r.
          - destruct (IH t2 _ F') as [a E]. exists ((join [delim d] cells ++ [10]) ++ a). cbn [concat] in *. rewrite E, app_assoc. reflexivity. }
        destruct X as [a ->]. apply last_last.
  Qed.
End Cells.

(** ** no quotation marks and no escapes *)
Section Plain.
  Variable d : dialect.
  Hypothesis K : quoting d = QUOTE_NONE.
  Hypothesis E : escapec d = None.
  Hypothesis L : ~ ends_line (delim d) /\ delim d <> 0.
  Hypothesis Sp : skipspace d = true -> delim d <> u1 " ".
  Lemma no_quote c : ~ is_quote d c.
  Proof. intros [_ X]. contradiction. Qed.
  Lemma plain_sane : sane d.
  Proof.
    split; [apply L|split; [apply L|split; [rewrite E; discriminate|split; [apply no_quote|split; [exact Sp|split]]]]]; intros c X; [rewrite E in X; discriminate X|].
    exfalso. exact (no_quote c X).
  Qed.
  Definition inner (c : char) : Prop := c <> delim d /\ ~ ends_line c /\ c <> 0.
  Lemma plain_open t : Forall inner t -> open_text d t t.
  Proof.
    induction 1 as [|c t (A & B & C) F IH]; constructor; [|exact IH]. unfold special. rewrite E. intros [X|[X|[X|X]]]; [contradiction|discriminate X|contradiction|contradiction].
  Qed.
  Lemma plain_written t : Forall inner t -> written d t (lead d t).
  Proof.
    intro F. unfold lead. destruct (skipspace d) eqn:Sk.
    - induction F as [|c t I F IH]; cbn [unspaced]; [apply W_open; [constructor|apply no_quote|intros _; left; discriminate]|].
      destruct (Z.eqb_spec c (u1 " ")) as [->|N]; [apply W_spaces; [exact Sk|apply no_quote|rewrite E; discriminate|exact IH]|].
      apply W_open; [apply plain_open; constructor; assumption|apply no_quote|]. intros _. left. exact N.
    - apply W_open; [apply plain_open, F|apply no_quote|]. rewrite Sk. discriminate.
  Qed.
  Lemma eat_line e fs r f : Forall ends_line e -> d_toks d (mkdrd D_EAT_CRNL [] fs) (map Some e ++ None :: r) f = let (rows, o) := d_toks d d_reset r f in (fs :: rows, o).
  Proof.
    induction 1 as [|c e C F IH]; [reflexivity|]. cbn [map app d_toks]. rewrite step_char by (destruct C as [-> | ->]; discriminate). cbn [d_process dst]. rewrite (nl_true c C). exact IH.
  Qed.
  Lemma end_line t v st fs e r f : filled d t v st -> st <> D_START_RECORD -> Forall ends_line e ->
    d_toks d (mkdrd st v fs) (map Some e ++ None :: r) f = let (rows, o) := d_toks d d_reset r f in ((fs ++ [v]) :: rows, o).
  Proof.
    intros F N H.
    assert (X : forall c, ends_line c -> d_process d (mkdrd st v fs) (Some c) = Ok (mkdrd D_EAT_CRNL [] (fs ++ [v]))).
    { intros c C. pose proof (nl_true c C) as Nl. destruct F as [st0 [-> |[-> I]]| |V|T V]; try contradiction; cbn [d_process dst].
      - unfold d_in_field. rewrite Nl. reflexivity.
      - rewrite (quote_false d c (no_quote c)). destruct (Z.eqb_spec c (delim d)) as [->|]; [exfalso; apply (proj1 L), C|]. rewrite Nl. reflexivity.
      - unfold d_start_field. rewrite Nl. reflexivity. }
    destruct H as [|c e C H].
    - cbn [map app d_toks d_step]. destruct F as [st0 [-> |[-> I]]| |V|T V]; try contradiction; reflexivity.
    - cbn [map app d_toks]. rewrite step_char by (destruct C as [-> | ->]; discriminate). rewrite (X c C). apply eat_line, H.
  Qed.
  Lemma blank_line e r f : Forall ends_line e -> d_toks d d_reset (map Some e ++ None :: r) f = let (rows, o) := d_toks d d_reset r f in ([] :: rows, o).
  Proof.
    intro H. destruct H as [|c e C H]; [reflexivity|]. cbn [map app d_toks]. rewrite step_char by (destruct C as [-> | ->]; discriminate). cbn [d_reset d_process dst]. rewrite (nl_true c C). apply eat_line, H.
  Qed.
  Lemma inner_brk t : Forall (fun c => ~ ends_line c) t -> flat_map brk t = map Some t.
  Proof. induction 1 as [|c t N F IH]; [reflexivity|]. cbn [flat_map map]. rewrite (brk_other c) by (intros ->; apply N; left; reflexivity). rewrite IH. reflexivity. Qed.
  Lemma split_inner b : Forall (fun c => ~ ends_line c /\ c <> 0) b -> Forall (Forall inner) (split_on (delim d) b).
  Proof.
    intro F. rewrite Forall_forall in F. pose proof (join_split (delim d) b) as J. apply Forall_forall. intros p I. apply Forall_forall. intros c Ic.
    split; [intros ->; pose proof (split_on_free (delim d) b) as Fr; rewrite Forall_forall in Fr; exact (Fr p I Ic)|]. apply F. rewrite <- J. clear J F.
    revert I. induction (split_on (delim d) b) as [|q [|q' ps] IH]; intro I; [destruct I| |].
    - destruct I as [<- |[]]. exact Ic.
    - rewrite join_cons by discriminate. apply in_app_iff. destruct I as [<- | I]; [left; exact Ic|]. right. apply in_app_iff. right. apply IH, I.
  Qed.
  Lemma plain_rows bes f : Forall (fun be => Forall (fun c => ~ ends_line c /\ c <> 0) (fst be) /\ Forall ends_line (snd be) /\ Forall short (map (lead d) (split_on (delim d) (fst be)))) bes ->
    d_rows_from d d_reset (map (fun be => fst be ++ snd be) bes) f =
    (map (fun be => match fst be with [] => [] | _ :: _ => map (lead d) (split_on (delim d) (fst be)) end) bes, match f with Some e => Raise e | None => Ok tt end).
  Proof.
    intro F. rewrite rows_toks. induction F as [|[b e] bes (N & H & S) F IH]; cbn [map flat_map fst snd] in *.
    - cbn [d_toks]. unfold d_end. destruct f; reflexivity.
    - rewrite map_app, <- !app_assoc. cbn [app]. destruct b as [|c b].
      + cbn [map app]. rewrite (blank_line e _ f H), IH. reflexivity.
      + pose proof (split_inner _ N) as I. pose proof (join_split (delim d) (c :: b)) as J.
        assert (W : Forall2 (written d) (split_on (delim d) (c :: b)) (map (lead d) (split_on (delim d) (c :: b)))).
        { clear -I K E L Sp. induction I as [|p ps P I IH]; constructor; [apply plain_written; assumption|exact IH]. }
        destruct (cells_open d plain_sane _ _ W (split_on_nonempty _ _) S D_START_RECORD [] (or_introl eq_refl)) as (st & t & v & init & Fi & Ns & Er & Q).
        { intros _ X. rewrite X in J. discriminate J. }
        rewrite J, inner_brk in Q by (eapply Forall_impl; [|exact N]; intros x [X _]; exact X). cbn [app] in Q.
        unfold d_reset at 1. rewrite (quiet_toks d _ _ f _ _ Q), (end_line t v st init e _ f Fi Ns H), IH, <- Er. reflexivity.
  Qed.
End Plain.

(** ** strict, and the other kinds of quoting *)
Lemma strict_process b d s c : d_process (with_strict true d) s c = d_process (with_strict b d) s c \/ d_process (with_strict true d) s c = Raise CsvError.
Proof.
  destruct s as [[] v fs]; try (left; reflexivity). destruct c as [c|]; [|left; reflexivity]. cbn [d_process dst].
  replace (quotes (with_strict true d) c) with (quotes (with_strict b d) c) by reflexivity. destruct (quotes (with_strict b d) c); [left; reflexivity|]. cbn [with_strict delim strict].
  destruct (c =? delim d); [left; reflexivity|]. destruct (newline (Some c)); [left; reflexivity|right; reflexivity].
Qed.
Lemma strict_toks d ts f : forall s, cut_short (d_toks (with_strict false d) s ts f) (d_toks (with_strict true d) s ts f).
Proof.
  induction ts as [|t ts IH]; intro s.
  - cbn [d_toks]. unfold d_end. destruct f; [left; reflexivity|]. destruct (_ || _); [|left; reflexivity]. right. split; [reflexivity|]. eexists. reflexivity.
  - cbn [d_toks]. assert (S : d_step (with_strict true d) s t = d_step (with_strict false d) s t \/ d_step (with_strict true d) s t = Raise CsvError).
    { destruct t as [c|]; cbn [d_step]; [destruct (c =? 0); [left; reflexivity|]|]; apply strict_process. }
    destruct S as [-> | ->].
    + destruct (d_step (with_strict false d) s t) as [s1|]; [|left; reflexivity]. destruct t; [apply IH|]. destruct (d_is_start (dst s1)); [|apply IH].
      specialize (IH d_reset). destruct (d_toks (with_strict false d) d_reset ts f) as [rows o], (d_toks (with_strict true d) d_reset ts f) as [rows' o'].
      destruct IH as [E|[E [more M]]]; [left; injection E as -> ->; reflexivity|]. right. cbn [fst snd] in *. split; [exact E|]. exists more. rewrite M. reflexivity.
    + right. split; [reflexivity|]. eexists. reflexivity.
Qed.
Lemma strict_rows d ls f : cut_short (d_rows_from (with_strict false d) d_reset ls f) (d_rows_from (with_strict true d) d_reset ls f).
Proof. rewrite !rows_toks. apply strict_toks. Qed.
Lemma all_quotes d c : quotes (with_quoting QUOTE_ALL d) c = quotes (with_quoting QUOTE_MINIMAL d) c.
Proof. reflexivity. Qed.
Lemma all_rows d ls f : d_rows_from (with_quoting QUOTE_ALL d) d_reset ls f = d_rows_from (with_quoting QUOTE_MINIMAL d) d_reset ls f.
Proof.
  rewrite !rows_toks. generalize (flat_map (fun l => map Some l ++ [None]) ls). intro ts0. generalize d_reset as s0. induction ts0 as [|t ts IH]; intro s; [reflexivity|]. cbn [d_toks].
  replace (d_step (with_quoting QUOTE_ALL d) s t) with (d_step (with_quoting QUOTE_MINIMAL d) s t) by (destruct t; reflexivity).
  destruct (d_step (with_quoting QUOTE_MINIMAL d) s t) as [s1|]; [|reflexivity]. destruct t; [apply IH|]. destruct (d_is_start (dst s1)); [rewrite IH; reflexivity|apply IH].
Qed.

(** ** quotations that are not closed, or go on *)
Lemma lines_toks_any s : ~ In 13 s -> forall cur, exists r, (r = [] \/ r = [None]) /\
  flat_map (fun l => map Some l ++ [None]) (lines_from cur s) = map Some (rev cur) ++ flat_map brk s ++ r.
Proof.
  induction s as [|c s IH]; intros N cur.
  - cbn [lines_from]. destruct cur as [|x cur]; [exists []; split; [left|]; reflexivity|]. exists [None]. split; [right; reflexivity|]. cbn [flat_map]. rewrite app_nil_r. reflexivity.
  - assert (N' : ~ In 13 s) by (intro I; apply N; right; exact I). cbn [lines_from flat_map]. unfold brk at 1. destruct (Z.eqb_spec c 10) as [->|N10].
    + destruct (IH N' []) as (r & R & E). exists r. split; [exact R|]. cbn [flat_map rev]. rewrite E, map_app, <- !app_assoc. reflexivity.
    + destruct (Z.eqb_spec c 13) as [->|N13]; [exfalso; apply N; left; reflexivity|]. destruct (IH N' (c :: cur)) as (r & R & E). exists r. split; [exact R|]. rewrite E. cbn [rev].
      rewrite map_app, <- app_assoc. reflexivity.
Qed.
Section Open.
  Variable d : dialect.
  Hypothesis Sane : sane d.
  Lemma rows_then ts rows : Forall2 (row_text d) ts rows -> Forall (Forall short) rows -> forall r f, d_toks d d_reset (flat_map brk (concat ts) ++ r) f =
    let (rows', o) := d_toks d d_reset r f in (rows ++ rows', o).
  Proof.
    induction 1 as [|t row ts rows (cells & W & Ne & B & ->) F IH]; intros H r f.
    - cbn [concat flat_map app]. destruct (d_toks d d_reset r f). reflexivity.
    - inversion H; subst. cbn [concat]. rewrite flat_map_app, <- app_assoc. unfold d_reset at 1.
      rewrite (cells_in d Sane cells row W Ne ltac:(assumption) D_START_RECORD [] (or_introl eq_refl) (fun _ => B)). rewrite IH by assumption. destruct (d_toks d d_reset r f). reflexivity.
  Qed.
  Lemma cells_then cells row : Forall2 (written d) cells row -> Forall short row -> forall st fs, dready st -> exists st', dready st' /\
    quiet d (mkdrd st [] fs) (flat_map brk (flat_map (fun t => t ++ [delim d]) cells)) = Some (mkdrd st' [] (fs ++ row)).
  Proof.
    induction 1 as [|t v cells row W F IH]; intros H st fs R; [exists st; split; [exact R|rewrite app_nil_r; reflexivity]|]. inversion H as [|? ? H1 H2]; subst.
    destruct (cell_in d Sane t v W st fs R H1) as (st1 & Fi & Q). destruct (IH H2 D_START_FIELD (fs ++ [v]) (or_intror eq_refl)) as (st' & R' & Q'). exists st'. split; [exact R'|].
    cbn [flat_map]. rewrite <- app_assoc, flat_map_app, quiet_app, Q. cbn [app flat_map]. rewrite (close_delim d Sane t v st1 fs _ Fi), Q', <- app_assoc. reflexivity.
  Qed.
  Lemma open_quote q st fs r : is_quote d q -> dready st -> quiet d (mkdrd st [] fs) (brk q ++ r) = quiet d (mkdrd D_IN_QUOTED_FIELD [] fs) r.
  Proof.
    intros Q R. destruct (quote_ok d Sane q Q) as (A & B & C). apply nq_quiet; [exact B|exact C|].
    rewrite ready_process by (try exact R; apply nl_false, A). unfold d_start_field. rewrite (nl_false q A), (quote_true d q Q). reflexivity.
  Qed.
  Lemma to_quoted cells row q t v : Forall2 (written d) cells row -> Forall short row -> is_quote d q -> quoted_text d t v -> short v ->
    quiet d d_reset (flat_map brk (flat_map (fun t => t ++ [delim d]) cells ++ q :: t)) = Some (mkdrd D_IN_QUOTED_FIELD v row).
  Proof.
    intros W H Q T S. destruct (cells_then cells row W H D_START_RECORD [] (or_introl eq_refl)) as (st & R & E). rewrite flat_map_app, quiet_app. unfold d_reset. rewrite E. cbn [flat_map app].
    rewrite (open_quote q st row _ Q R). apply (quoted_in d Sane t v T [] row S).
  Qed.
  Lemma not_closed ts rows cells row q t v : Forall2 (row_text d) ts rows -> Forall (Forall short) rows -> Forall2 (written d) cells row -> Forall short row ->
    is_quote d q -> quoted_text d t v -> short v -> ~ In 13 (concat ts ++ flat_map (fun t => t ++ [delim d]) cells ++ q :: t) ->
    d_rows_from d d_reset (file_lines (concat ts ++ flat_map (fun t => t ++ [delim d]) cells ++ q :: t)) None =
    if strict d then (rows, Raise CsvError) else (rows ++ [row ++ [v]], Ok tt).
  Proof.
    intros F H W Hr Q T S N. rewrite rows_toks. unfold file_lines. destruct (lines_toks_any _ N []) as (r & R & ->). cbn [rev map app]. rewrite flat_map_app, <- app_assoc.
    rewrite (rows_then ts rows F H), (quiet_toks d _ _ None _ _ (to_quoted cells row q t v W Hr Q T S)).
    assert (X : d_toks d (mkdrd D_IN_QUOTED_FIELD v row) r None = if strict d then ([], Raise CsvError) else ([row ++ [v]], Ok tt)).
    { destruct R as [-> | ->]; cbn [d_toks d_step d_process dst d_is_start]; unfold d_end; cbn [dfield dfields dst d_is_quoted]; rewrite orb_true_r; reflexivity. }
    rewrite X. destruct (strict d); [rewrite app_nil_r|]; reflexivity.
  Qed.
  Lemma goes_on ts rows cells row q t v c rest : Forall2 (row_text d) ts rows -> Forall (Forall short) rows -> Forall2 (written d) cells row -> Forall short row ->
    is_quote d q -> escapec d <> Some q -> quoted_text d t v -> short v -> doublequote d = true -> strict d = true ->
    ~ is_quote d c -> c <> delim d -> ~ ends_line c -> 
    ~ In 13 (concat ts ++ flat_map (fun t => t ++ [delim d]) cells ++ q :: t ++ q :: c :: rest) ->
    d_rows_from d d_reset (file_lines (concat ts ++ flat_map (fun t => t ++ [delim d]) cells ++ q :: t ++ q :: c :: rest)) None = (rows, Raise CsvError).
  Proof.
    intros F H W Hr Q Eq T S D St Nc Nd Nl N. rewrite rows_toks. unfold file_lines. destruct (lines_toks_any _ N []) as (r & R & ->). cbn [rev map app]. rewrite flat_map_app, <- app_assoc.
    rewrite (rows_then ts rows F H). replace (flat_map (fun t => t ++ [delim d]) cells ++ q :: t ++ q :: c :: rest) with ((flat_map (fun t => t ++ [delim d]) cells ++ q :: t) ++ q :: c :: rest) by (rewrite <- app_assoc; reflexivity).
    rewrite flat_map_app, <- app_assoc, (quiet_toks d _ _ None _ _ (to_quoted cells row q t v W Hr Q T S)). cbn [flat_map]. rewrite <- !app_assoc.
    destruct (quote_ok d Sane q Q) as (A & B & C).
    assert (X : quiet d (mkdrd D_IN_QUOTED_FIELD v row) (brk q) = Some (mkdrd D_QUOTE_IN_QUOTED_FIELD v row)).
    { rewrite <- (app_nil_r (brk q)). rewrite (nq_quiet d _ q (mkdrd D_QUOTE_IN_QUOTED_FIELD v row)); [reflexivity|exact B|exact C|]. cbn [d_process dst]. rewrite (esc_false d q Eq), (quote_true d q Q), D. reflexivity. }
    rewrite (quiet_toks d _ _ None _ _ X). rewrite (brk_other c) by (intros ->; apply Nl; left; reflexivity). cbn [app d_toks].
    replace (d_step d (mkdrd D_QUOTE_IN_QUOTED_FIELD v row) (Some c)) with (@Raise drd CsvError); [rewrite app_nil_r; reflexivity|].
    cbn [d_step]. destruct (c =? 0); [reflexivity|]. cbn [d_process dst]. rewrite (quote_false d c Nc), (nl_false c Nl), St. destruct (Z.eqb_spec c (delim d)); [contradiction|reflexivity].
  Qed.
End Open.
