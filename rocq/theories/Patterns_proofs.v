(* Patterns_proofs.v -- the pattern texts stand for the model's expressions. *)
From Verif Require Import Base PyStr PyText Regex RegexSyntax RegexSyntax_proofs RegexSem RegexSem_proofs.
From Verif Require Import DictFormat_model Kanjidic_model Scripts_model SplitCodes_model Tanaka_model Pinyin_model Alternations_model.
From Verif Require Import Pinyin_spec Pinyin_proofs Patterns_model Patterns_spec.

Lemma same_stands isd number keep text t r : parse text = Some t -> same_re keep (compile isd number t) r -> stands_for isd number keep text r.
Proof.
  intros P S; apply parse_iff in P; destruct P as [K E]; exists t; split; [split; assumption|]; split; [|split].
  - intros t' K' E'; assert (Some t' = Some t) by (rewrite <- (parse_show t' K'), <- (parse_show t K), E, E'; reflexivity); congruence.
  - intros l; pose proof (same_match keep _ _ l S) as M; destruct (match_ _ l), (match_ r l); cbn in M; try exact M.
    pose proof M as (A & B & _); repeat split; [exact A|exact B|]; intros n; apply same_group, M.
  - intros l; pose proof (same_finditer keep _ _ l S) as M; revert M; generalize (finditer (compile isd number t) l), (finditer r l).
    induction 1 as [|x y xs ys [A M] Ms IH]; constructor; [|exact IH].
    split; [exact A|]; pose proof M as (B & C & _); repeat split; [exact B|exact C|]; intros n; apply same_group, M.
Qed.

(** ** a normal form: nested to the right, without the groups not kept *)
Section Norm.
  Variable keep : list Z -> bool.
  Fixpoint norm (r tail : re) : re :=
    match r with
    | Eps => tail
    | Seq a b => norm a (norm b tail)
    | Alt a b => Seq (Alt (norm a Eps) (norm b Eps)) tail
    | Star r => Seq (Star (norm r Eps)) tail
    | Lazy r => Seq (Lazy (norm r Eps)) tail
    | Grp n r => if keep n then Seq (Grp n (norm r Eps)) tail else norm r tail
    | _ => Seq r tail
    end.
  Lemma same_sym a b : same_re keep a b -> same_re keep b a.
  Proof.
    intros H k k' K s t S.
    assert (P : forall x y, same_pos keep x y -> same_pos keep y x) by (intros x y (A & B & C); repeat split; congruence).
    assert (O : forall x y, same_opt keep x y -> same_opt keep y x) by (intros [x|] [y|]; cbn; auto).
    apply O, H; [|apply P, S]; intros x y X; apply O, K, P, X.
  Qed.
  Lemma seq_eps_r a : same_re keep (Seq a Eps) a.
  Proof. apply same_eps_r, same_refl. Qed.
  Lemma norm_same r : forall tail, same_re keep (Seq r tail) (norm r tail).
  Proof.
    assert (E : forall r, (forall tail, same_re keep (Seq r tail) (norm r tail)) -> same_re keep r (norm r Eps)).
    { intros a H; apply (same_trans keep _ (Seq a Eps)); [apply same_sym, seq_eps_r|apply H]. }
    induction r; intros tail; cbn [norm]; try exact (same_refl keep _).
    - apply same_seq_assoc; apply (same_trans keep _ (Seq r1 (norm r2 tail))); [|apply IHr1].
      apply same_seq; [apply same_refl|apply IHr2].
    - apply same_seq; [|apply same_refl]; apply same_alt; apply E; assumption.
    - apply same_seq; [|apply same_refl]; apply same_stars, E; assumption.
    - apply same_seq; [|apply same_refl]; apply same_lazy, E; assumption.
    - destruct (keep name) eqn:K; [apply same_seq; [|apply same_refl]; apply same_grp, E; assumption|].
      apply (same_trans keep _ (Seq r tail)); [|apply IHr]; apply same_seq; [|apply same_refl]; apply same_drop; [exact K|apply same_refl].
  Qed.
  Lemma by_norm a b : same_re keep (norm a Eps) (norm b Eps) -> same_re keep a b.
  Proof.
    intros H; apply (same_trans keep _ (norm a Eps)); [apply (same_trans keep _ (Seq a Eps)); [apply same_sym, seq_eps_r|apply norm_same]|].
    apply (same_trans keep _ (norm b Eps)); [exact H|].
    apply (same_trans keep _ (Seq b Eps)); [apply same_sym, norm_same|apply seq_eps_r].
  Qed.
End Norm.

(** ** the fixed patterns *)

Ltac literals := repeat match goal with
  | |- context [u ?s] => let x := eval vm_compute in (u s) in replace (u s) with x by (vm_compute; reflexivity)
  | |- context [u1 ?s] => let x := eval vm_compute in (u1 s) in replace (u1 s) with x by (vm_compute; reflexivity)
  end.
Ltac classes := intros ?;
  unfold sense_digit, sense_digits, seg_char, code_char, delims, digit05, set_has, isc, notc, oneof; literals;
  cbn [existsb item_has ch_is ch_code]; rewrite ?xorb_true_l, ?xorb_false_l;
  repeat match goal with |- context [hexnum ?a ?b ?c ?d] => let x := eval vm_compute in (hexnum a b c d) in change (hexnum a b c d) with x end;
  unfold between; cbn [mem];
  first [reflexivity | rewrite ?orb_false_r, ?orb_assoc; reflexivity].
Ltac walk :=
  repeat first [ apply same_seq | apply same_alt | apply same_stars | apply same_lazy | apply same_grp
               | apply same_eps | apply same_bol | apply same_eol | apply same_chr; classes | apply same_behind; classes ].
Ltac pattern_ := eapply same_stands; [vm_compute; reflexivity|];
  apply by_norm; unfold compile; cbn [c_rx c_br c_atom repeat_ fst];
  repeat match goal with |- context [header_pattern ?f] => unfold f | |- context [line_pattern ?f] => unfold f | |- context [sense_pattern ?f] => unfold f end;
  cbn [header_pattern line_pattern sense_pattern]; literals;
  cbn [Seqs Lit Plus Opt norm key named length Nat.eqb negb Z.of_nat Pos.of_succ_nat]; unfold Plus, Opt; cbn [norm key named length Nat.eqb negb]; walk.

Lemma dict_patterns isd :
  (stands_for isd key named edict_header (header_pattern edict) /\
   stands_for isd key named edict_line (line_pattern edict) /\
   stands_for isd key named edict_sense (sense_pattern edict)) /\
  (stands_for isd key named jc_header (header_pattern jc_kdic) /\
   stands_for isd key named jc_line (line_pattern jc_kdic) /\
   stands_for isd key named jc_sense (sense_pattern jc_kdic)) /\
  (stands_for isd key named cj_header (header_pattern cj_kdic) /\
   stands_for isd key named cj_line (line_pattern cj_kdic) /\
   stands_for isd key named cj_sense (sense_pattern cj_kdic)) /\
  (stands_for isd key named cedict_header (header_pattern cedict) /\
   stands_for isd key named cedict_line (line_pattern cedict) /\
   stands_for isd key named cedict_sense (sense_pattern cedict)).
Proof. repeat split; pattern_. Qed.

Lemma segment_stands isd : stands_for isd key all segment_text segment_pattern.
Proof. unfold segment_pattern; pattern_. Qed.
Lemma code_stands isd : stands_for isd (fun n => 48 + Z.of_nat n :: []) all code_text code_pattern.
Proof. unfold code_pattern; pattern_. Qed.
Lemma word_stands dv : stands_for (is_d dv) key named word_text (word_re dv).
Proof.
  unfold word_re, re_headword, re_reading, re_legacy, re_sense, re_display, re_example, n_headword, n_reading, n_sense, n_display, n_example; pattern_.
Qed.

(** ** the long vowel finder *)
Lemma long_stands isd : stands_for isd key all long_finder_text long_re.
Proof. unfold long_re, long_vowel_mark; pattern_. Qed.
Lemma long_scan n : forall b l, (length l < n)%nat ->
  map (fun m => length (before (fst m))) (scan n long_re b l) = long_finder (length b) (hd_error b) l.
Proof.
  induction n as [|n IH]; intros b l Hn; [lia|]; cbn [scan].
  destruct l as [|c q].
  - unfold long_re; cbn [mtch rest before]; destruct b as [|p b]; [reflexivity|]; destruct (_ && _); reflexivity.
  - cbn [length] in Hn; specialize (IH (c :: b) q ltac:(lia)); cbn [length hd_error] in IH; cbn [long_finder].
    rewrite <- IH; destruct b as [|p b]; [reflexivity|].
    unfold long_re at 1; cbn [mtch rest before caps hd_error]; unfold isc at 1.
    destruct (0x3041 <=? p); [|reflexivity]; destruct (p <=? 0x3096); [|reflexivity]; cbn [andb].
    destruct (c =? long_vowel_mark); [|reflexivity]; cbn [rest length].
    replace (length q <? S (length q))%nat with true by (symmetry; apply Nat.ltb_lt; lia); reflexivity.
Qed.
Theorem long_finder_scan l : map (fun m => length (before (fst m))) (finditer long_re l) = long_finder 0 None l.
Proof. apply (long_scan _ [] l); lia. Qed.

(** ** the pinyin patterns *)
Fixpoint word_tree (w : str) : br := match w with [] => Nil | c :: r => Cons (ACh (Pl c)) Once (word_tree r) end.
Fixpoint alts_tree (l : list str) : rx :=
  match l with [] => Last Nil | [w] => Last (word_tree w) | w :: r => Or (word_tree w) (alts_tree r) end.
Definition single_tree (l : list str) : rx :=
  Last (Cons (AGrp Cap (Or (Cons (AGrp Cap (alts_tree l)) Once
                             (Cons (AGrp Cap (Last (Cons (ASet false [Rng (Pl 48) (Pl 53)]) QOpt Nil))) Once Nil))
                           (Last (Cons (ACh (Pl 35)) Once Nil)))) Once Nil).
Definition string_tree (l : list str) : rx := Last (Cons (AGrp Cap (single_tree l)) QPlus Nil).

Lemma show_word w : show_br (word_tree w) = w.
Proof. induction w as [|c w IH]; [reflexivity|]; cbn [word_tree show_br show_atom show_ch show_quant app]; rewrite IH; reflexivity. Qed.
Lemma plain_special c : plain c = true -> special c = false.
Proof.
  unfold plain, special; intros H; apply negb_true_iff, mem_false in H; apply mem_false; intros I; apply H.
  replace (u ".^$*+?{}[]\|()") with [46; 94; 36; 42; 43; 63; 123; 125; 91; 93; 92; 124; 40; 41] by (vm_compute; reflexivity).
  cbn [In] in *; tauto.
Qed.
Lemma plain_brace c : plain c = true -> c <> 123.
Proof. intros H ->; vm_compute in H; discriminate. Qed.
Lemma ok_word w : forallb plain w = true -> ok_br (word_tree w) = true.
Proof.
  induction w as [|c w IH]; intros H; [reflexivity|]; cbn [forallb] in H; apply andb_prop in H; destruct H as [P H].
  cbn [word_tree ok_br ok_atom ch_ok once orb]; rewrite (plain_special c P), (IH H); cbn [negb andb]; rewrite andb_true_r.
  pose proof (plain_brace c P); destruct c as [|c|c]; try reflexivity.
  do 7 (try destruct c as [c|c|]; try reflexivity); congruence.
Qed.
Lemma show_alts l : show (alts_tree l) = join (u "|") l.
Proof.
  induction l as [|w l IH]; [reflexivity|]; destruct l as [|v l].
  - cbn [alts_tree show join]; apply show_word.
  - change (show_br (word_tree w) ++ 124 :: show (alts_tree (v :: l)) = join (u "|") (w :: v :: l)).
    rewrite IH, show_word; reflexivity.
Qed.
Lemma ok_alts l : forallb (forallb plain) l = true -> ok (alts_tree l) = true.
Proof.
  induction l as [|w l IH]; intros H; [reflexivity|]; cbn [forallb] in H; apply andb_prop in H; destruct H as [P H]; destruct l as [|v l].
  - apply ok_word, P.
  - change (ok_br (word_tree w) && ok (alts_tree (v :: l)) = true); rewrite (ok_word w P), (IH H); reflexivity.
Qed.
Section Unfold.
  Variables (isd : Z -> bool) (number : nat -> list Z) (n : nat).
  Lemma c_last b : c_rx isd number n (Last b) = c_br isd number n b. Proof. reflexivity. Qed.
  Lemma c_or b r : c_rx isd number n (Or b r) =
    let '(x, n) := c_br isd number n b in let '(y, n) := c_rx isd number n r in (Alt x y, n). Proof. reflexivity. Qed.
  Lemma c_nil : c_br isd number n Nil = (Eps, n). Proof. reflexivity. Qed.
  Lemma c_cons a q b : c_br isd number n (Cons a q b) =
    let '(x, n) := c_atom isd number n a in let '(y, n) := c_br isd number n b in (Seq (repeat_ q x) y, n). Proof. reflexivity. Qed.
  Lemma c_cap r : c_atom isd number n (AGrp Cap r) = let '(x, m) := c_rx isd number (S n) r in (Grp (number (S n)) x, m). Proof. reflexivity. Qed.
  Lemma c_set neg l : c_atom isd number n (ASet neg l) = (Chr (set_has isd neg l), n). Proof. reflexivity. Qed.
  Lemma c_ch x : c_atom isd number n (ACh x) = (Chr (ch_is isd x), n). Proof. reflexivity. Qed.
End Unfold.
Lemma compile_word isd number n w : exists r, c_br isd number n (word_tree w) = (r, n) /\ forall keep, same_re keep r (Lit w).
Proof.
  induction w as [|c w (r & E & S)]; [exists Eps; split; [reflexivity|intros; apply same_refl]|].
  cbn [word_tree c_br c_atom]; rewrite E; eexists; split; [reflexivity|]; intros keep; cbn [repeat_ Lit]; apply same_seq; [|apply S].
  apply same_chr; reflexivity.
Qed.
Lemma compile_alts isd number n l : exists r, c_rx isd number n (alts_tree l) = (r, n) /\ forall keep, same_re keep r (alts l).
Proof.
  induction l as [|w l (r & E & S)]; [exists Eps; split; [reflexivity|intros; apply same_refl]|].
  destruct (compile_word isd number n w) as (r' & E' & S'); destruct l as [|v l].
  - exists r'; split; [exact E'|exact S'].
  - exists (Alt r' r); split; [|intros keep; apply same_alt; [apply S'|apply S]].
    change (c_rx isd number n (alts_tree (w :: v :: l))) with
      (let '(x, n1) := c_br isd number n (word_tree w) in let '(y, n2) := c_rx isd number n1 (alts_tree (v :: l)) in (Alt x y, n2)).
    rewrite E', E; reflexivity.
Qed.
Lemma ok_single l : forallb (forallb plain) l = true -> ok (single_tree l) = true.
Proof. intros H; unfold single_tree; cbn [ok ok_br ok_atom kind_ok]; rewrite (ok_alts l H); reflexivity. Qed.
Lemma show_single l : show (single_tree l) = single_text (u "(" ++ join (u "|") l ++ u ")([0-5]?)").
Proof.
  unfold single_tree, single_text; literals; cbn [show show_br show_atom show_kind show_quant app]; rewrite show_alts; literals.
  cbn [app]; rewrite <- !app_assoc; reflexivity.
Qed.
Lemma sorted_len_In l x : In x (sorted_len l) -> In x l.
Proof.
  assert (I : forall w m, In x (insert_len w m) -> x = w \/ In x m).
  { intros w; induction m as [|y m IH]; cbn [insert_len In]; [intros [->|[]]; left; reflexivity|].
    destruct (_ <=? _)%nat; cbn [In]; [intros [->|H]; tauto|intros [->|H]; [tauto|destruct (IH H); tauto]]. }
  induction l as [|w l IH]; [trivial|]; cbn [sorted_len fold_right]; intros H; destruct (I _ _ H) as [->|H']; [left; reflexivity|right; apply IH, H'].
Qed.
Lemma sorted_plain l : forallb (forallb plain) l = true -> forallb (forallb plain) (sorted_len l) = true.
Proof. rewrite !forallb_forall; intros H x I; apply H, sorted_len_In, I. Qed.
Lemma single_same isd keep l m : exists r, c_rx isd key m (single_tree l) = (r, (m + 3)%nat) /\
  (keep = all -> m = O -> same_re keep r (Grp g1 (Alt (Seq (Grp g2 (alts l)) (Grp g3 (Opt (Chr digit05)))) (Lit (u "#"))))) /\
  ((forall n, keep n = false) -> same_re keep r (Grp g1 (Alt (Seq (Grp g2 (alts l)) (Grp g3 (Opt (Chr digit05)))) (Lit (u "#"))))).
Proof.
  unfold single_tree.
  destruct (compile_alts isd key (S (S m)) l) as (r & E & S0).
  rewrite c_last, c_cons, c_cap, c_or, c_cons, c_cap, E, c_cons, c_cap, c_last, c_cons, c_set, !c_nil, c_last, c_cons, c_ch, !c_nil; eexists; split; [f_equal; lia|]; literals.
  assert (D : same_re keep (Seq (repeat_ QOpt (Chr (set_has isd false [Rng (Pl 48) (Pl 53)]))) Eps) (Opt (Chr digit05))).
  { apply same_eps_r, same_opt_, same_chr; classes. }
  assert (Sharp : same_re keep (Seq (repeat_ Once (Chr (ch_is isd (Pl 35)))) Eps) (Lit [35])) by (cbn [Lit repeat_]; apply same_seq; [apply same_chr; reflexivity|apply same_eps]).
  split.
  - intros -> ->; apply same_eps_r; cbn [repeat_]; apply same_grp, same_alt; [|exact Sharp].
    apply same_seq; [apply same_grp, S0|]; apply same_eps_r; cbn [repeat_]; apply same_grp, D.
  - intros K; apply same_eps_r; cbn [repeat_]; apply same_drop; [apply K|]; apply same_sym, same_drop; [apply K|]; apply same_sym, same_alt; [|exact Sharp].
    apply same_seq; [apply same_drop; [apply K|]; apply same_sym, same_drop; [apply K|]; apply same_sym, S0|].
    apply same_eps_r; cbn [repeat_]; apply same_drop; [apply K|]; apply same_sym, same_drop; [apply K|]; apply same_sym, D.
Qed.
Lemma single_stands isd l : forallb (forallb plain) l = true ->
  stands_for isd key all (single_text (u "(" ++ join (u "|") (sorted_len l) ++ u ")([0-5]?)")) (base_pattern l).
Proof.
  intros H; apply (same_stands isd key all _ (single_tree (sorted_len l))).
  - apply parse_iff; split; [apply ok_single, sorted_plain, H|apply show_single].
  - unfold compile; destruct (single_same isd all (sorted_len l) 0) as (r & E & S & _); rewrite E; apply S; reflexivity.
Qed.
Lemma string_stands isd l : forallb (forallb plain) l = true ->
  stands_for isd key (fun _ => false) (string_text (u "(" ++ join (u "|") (sorted_len l) ++ u ")([0-5]?)")) (Plus (base_pattern l)).
Proof.
  intros H; apply (same_stands isd key _ _ (string_tree (sorted_len l))).
  - apply parse_iff; split.
    + unfold string_tree; cbn [ok ok_br ok_atom kind_ok]; rewrite (ok_single _ (sorted_plain _ H)); reflexivity.
    + unfold string_tree, string_text; cbn [show show_br show_atom show_kind show_quant app]; fold (show (single_tree (sorted_len l))).
      rewrite show_single; literals; cbn [app]; rewrite <- ?app_assoc; reflexivity.
  - unfold compile, string_tree; rewrite c_last, c_cons, c_cap.
    destruct (single_same isd (fun _ => false) (sorted_len l) 1) as (r & E & _ & S); rewrite E; cbn [fst].
    apply same_eps_r; cbn [repeat_]; apply same_plus; apply same_drop; [reflexivity|]; apply S; reflexivity.
Qed.
(** the segmenter of the model is made of the two patterns of the source *)
Theorem segmenter_stands isd istream seg : new_segmenter istream = Ok seg ->
  exists p, pinyin_regex_pattern istream = Ok p /\
    stands_for isd key all (single_text p) seg /\ stands_for isd key (fun _ => false) (string_text p) (Plus seg).
Proof.
  unfold new_segmenter, pinyin_regex_pattern; destruct (get_all_pinyin istream) as [l|e]; cbn [bind]; [|discriminate].
  destruct (forallb (forallb plain) l) eqn:P; [|discriminate]; intros [= <-].
  eexists; split; [reflexivity|]; split; [apply single_stands, P|apply string_stands, P].
Qed.

(** ** none of the patterns repeats the empty text, and none of those used for
    scanning matches it *)
Lemma lit_solid w : solid (Lit w) = true.
Proof. induction w as [|c w IH]; [reflexivity|exact IH]. Qed.
Lemma alts_solid l : solid (alts l) = true.
Proof.
  induction l as [|w l IH]; [reflexivity|]; destruct l as [|v l]; [apply lit_solid|].
  change (solid (Lit w) && solid (alts (v :: l)) = true); rewrite lit_solid, IH; reflexivity.
Qed.
Lemma lit_nullable w : w <> [] -> nullable (Lit w) = false.
Proof. destruct w; [congruence|reflexivity]. Qed.
Lemma alts_nullable l : l <> [] -> (forall w, In w l -> w <> []) -> nullable (alts l) = false.
Proof.
  induction l as [|w l IH]; intros N H; [congruence|]; destruct l as [|v l]; [apply lit_nullable, H; left; reflexivity|].
  change (nullable (Lit w) || nullable (alts (v :: l)) = false).
  rewrite lit_nullable by (apply H; left; reflexivity); apply IH; [discriminate|intros x I; apply H; right; exact I].
Qed.
Lemma segmenter_syllables istream seg : new_segmenter istream = Ok seg -> exists l, get_all_pinyin istream = Ok l /\ seg = base_pattern l /\ l <> [].
Proof.
  unfold new_segmenter; destruct (get_all_pinyin istream) as [l|e] eqn:G; cbn [bind]; [|discriminate].
  destruct (forallb (forallb plain) l); [|discriminate]; intros [= <-]; exists l; repeat split.
  intros ->; unfold get_all_pinyin in G; revert G.
  assert (A : forall rows acc, acc <> [] -> for_pairs (fun all_pinyin zhuyin pinyin => all_pinyin ++ [pinyin]) rows acc <> Ok []).
  { induction rows as [|r rows IH]; intros acc N; [cbn [for_pairs]; congruence|].
    destruct r as [|x [|y [|z r]]]; cbn [for_pairs]; try discriminate; apply IH; destruct acc; discriminate. }
  apply A; discriminate.
Qed.
Lemma insert_len_nonempty w l : insert_len w l <> [].
Proof. destruct l as [|x l]; cbn [insert_len]; [discriminate|]; destruct (_ <=? _)%nat; discriminate. Qed.
Lemma segmenter_solid istream seg : new_segmenter istream = Ok seg -> solid (Plus seg) = true /\ solid seg = true /\ nullable seg = false.
Proof.
  intros H; destruct (segmenter_syllables _ _ H) as (l & G & -> & N).
  assert (A : nullable (alts (sorted_len l)) = false).
  { apply alts_nullable.
    - destruct l as [|w l]; [congruence|]; cbn [sorted_len fold_right]; apply insert_len_nonempty.
    - intros w I; eapply all_pinyin_nonempty; [exact G|apply sorted_len_In, I]. }
  assert (S : solid (base_pattern l) = true) by (unfold base_pattern; cbn [solid]; rewrite alts_solid; reflexivity).
  assert (B : nullable (base_pattern l) = false) by (unfold base_pattern; cbn [nullable]; rewrite A; reflexivity).
  repeat split; [|exact S|exact B]; unfold Plus; cbn [solid]; rewrite S, B; reflexivity.
Qed.
