(* Wild_props.v -- C143 *)
From Verif Require Import Base PyStr PyText Regex RegexSyntax RegexSyntax_proofs RegexSem RegexSem_proofs.
From Verif Require Import Pinyin_model Pinyin_spec Pinyin_proofs Patterns_model Patterns_spec Patterns_proofs Wild_model Wild_spec Wild_proofs.

(** [ts] are the trees of the syllables, the longest texts first, in the order of the file *)
Definition trees (istream : list str) (syls : list str) (ts : list rx) : Prop :=
  get_all_pinyin istream = Ok syls /\ exists n, Forall (fun w => (length w <= n)%nat) syls /\ Forall2 written ts (longest_first n syls).
Lemma trees_sorted istream syls ts : trees istream syls ts -> get_all_pinyin istream = Ok syls /\ Forall2 written ts (sorted_len syls) /\ ts <> [].
Proof.
  intros (G & n & L & W). rewrite <- (sorted_longest n syls L) in W. split; [exact G|]. split; [exact W|]. eapply some_tree; [exact (some_syllable _ _ G)|exact W].
Qed.
Notation meanings isd := (map (compile isd key_)).
Definition steadily (isd : Z -> bool) (ts : list rx) : Prop := Forall (fun r => solid r = true) (meanings isd ts).

(** Syllables that are patterns one by one make a pattern, unless a group name occurs
    twice among them *)
Theorem C143_made isd istream syls ts : trees istream syls ts -> steadily isd ts ->
  (names_differ ts -> exists seg, new_segmenter_any isd istream = Ok seg) /\
  (~ names_differ ts -> new_segmenter_any isd istream = Raise re_error).
Proof.
  intros T S. destruct (trees_sorted _ _ _ T) as (G & W & N). rewrite (made isd istream syls ts G W). assert (F : forallb solid (meanings isd ts) = true) by (apply forallb_forall, Forall_forall, S).
  rewrite F, <- names_once, <- repeated_NoDup. destruct (repeated (flat_map names ts)); split; intro H; try congruence; eexists; reflexivity.
Qed.
Print Assumptions C143_made.
(** If they have no groups, a text is segmented from left to right by the first of them
    that can be matched, in the text which that one prefers; a # that none matches and
    places where a syllable matches nothing give an empty syllable *)
Theorem C143_segments isd int_ lower istream syls ts seg s l : (forall z, 0 <= z <= 5 -> int_ [48 + z] = Some z) ->
  trees istream syls ts -> new_segmenter_any isd istream = Ok seg -> counts ts = O ->
  (segment_any int_ lower seg s = Ok l <-> spelled (meanings isd ts) [] (standard lower s) l).
Proof.
  intros D T M C. destruct (trees_sorted _ _ _ T) as (G & W & N). rewrite (made isd istream syls ts G W) in M. destruct (repeated _); [discriminate|]. destruct (forallb solid (meanings isd ts)) eqn:F; [|discriminate].
  injection M as <-. assert (S : Forall (fun r => solid r = true) (meanings isd ts)) by (apply Forall_forall, forallb_forall, F).
  unfold segment_any. rewrite findall_items, standard_normalize. cbn [single_pattern]. unfold sing. cbn [fst snd]. rewrite C. cbn [Nat.add]. unfold finditer. split.
  - intro H. destruct (scan_spelled isd ts N S int_ D 2 Logic.eq_refl (Datatypes.S (length (standard lower s))) [] (standard lower s) ltac:(lia)) as (o & E & Sp). cbn [Nat.add] in *. rewrite E in H. injection H as <-. exact Sp.
  - intro H. apply (spelled_scan isd ts N S int_ D _ _ _ H). lia.
Qed.
Print Assumptions C143_segments.
(** segmenting then never fails *)
Theorem C143_total isd int_ lower istream syls ts seg s : (forall z, 0 <= z <= 5 -> int_ [48 + z] = Some z) ->
  trees istream syls ts -> new_segmenter_any isd istream = Ok seg -> counts ts = O ->
  exists l, segment_any int_ lower seg s = Ok l.
Proof.
  intros D T M C. destruct (trees_sorted _ _ _ T) as (G & W & N). pose proof M as M'. rewrite (made isd istream syls ts G W) in M'. destruct (repeated _); [discriminate|]. destruct (forallb solid (meanings isd ts)) eqn:F; [|discriminate].
  assert (S : Forall (fun r => solid r = true) (meanings isd ts)) by (apply Forall_forall, forallb_forall, F).
  destruct (scan_spelled isd ts N S int_ D 2 Logic.eq_refl (Datatypes.S (length (standard lower s))) [] (standard lower s) ltac:(lia)) as (o & _ & Sp). exists o. apply (C143_segments isd int_ lower istream syls ts seg s o D T M C). exact Sp.
Qed.
Print Assumptions C143_total.
(** If one of them has a group, every text in which anything is found is refused *)
Theorem C143_groups isd int_ lower istream syls ts seg s :
  trees istream syls ts -> new_segmenter_any isd istream = Ok seg -> counts ts <> O ->
  ((exists p q, standard lower s = p ++ q /\ begins (meanings isd ts) (rev p) q) -> segment_any int_ lower seg s = Raise ValueError) /\
  ((forall p q, standard lower s = p ++ q -> ~ begins (meanings isd ts) (rev p) q) -> segment_any int_ lower seg s = Ok []).
Proof.
  intros T M C. destruct (trees_sorted _ _ _ T) as (G & W & N). rewrite (made isd istream syls ts G W) in M. destruct (repeated _); [discriminate|]. destruct (forallb solid (meanings isd ts)) eqn:F; [|discriminate].
  injection M as <-. assert (S : Forall (fun r => solid r = true) (meanings isd ts)) by (apply Forall_forall, forallb_forall, F).
  unfold segment_any. rewrite findall_items, standard_normalize. cbn [single_pattern]. unfold sing. cbn [fst snd]. unfold finditer.
  pose proof (scan_none isd ts N S (2 + counts ts) (Datatypes.S (length (standard lower s))) [] (standard lower s) ltac:(lia)) as Sn.
  destruct (scan _ _ _ _) as [|x o]; split; intro H.
  - exfalso. destruct H as (p & q & E & B). apply (proj1 Sn Logic.eq_refl p q E). rewrite app_nil_r. exact B.
  - reflexivity.
  - cbn [map mapM]. rewrite (many_groups int_ (counts ts)) by lia. reflexivity.
  - assert (E : x :: o = []) by (apply Sn; intros p q E; rewrite app_nil_r; exact (H p q E)). discriminate.
Qed.
Print Assumptions C143_groups.
(** is_pinyin, with groups or without: one of them matches at the start, or # *)
Theorem C143_is_pinyin isd lower istream syls ts seg s :
  trees istream syls ts -> new_segmenter_any isd istream = Ok seg ->
  (is_pinyin_any lower seg s = true <-> begins (meanings isd ts) [] (standard lower s)).
Proof.
  intros T M. destruct (trees_sorted _ _ _ T) as (G & W & N). rewrite (made isd istream syls ts G W) in M. destruct (repeated _); [discriminate|]. destruct (forallb solid (meanings isd ts)) eqn:F; [|discriminate].
  injection M as <-. assert (S : Forall (fun r => solid r = true) (meanings isd ts)) by (apply Forall_forall, forallb_forall, F).
  rewrite <- (string_begins isd ts _ N S). unfold is_pinyin_any. rewrite standard_normalize. cbn [string_pattern]. destruct (match_ _ _) as [m|]; [split; [intros _; exists m; reflexivity|reflexivity]|split; [discriminate|intros [m H]; discriminate]].
Qed.
Print Assumptions C143_is_pinyin.
(** With syllables of plain characters this is the segmenter of C64 and C67 *)
Theorem C143_plain isd int_ lower istream seg : (forall z, 0 <= z <= 5 -> int_ [48 + z] = Some z) -> new_segmenter istream = Ok seg ->
  exists seg', new_segmenter_any isd istream = Ok seg' /\ (forall s, segment_any int_ lower seg' s = segment_pinyin lower seg s) /\
    forall s, is_pinyin_any lower seg' s = is_pinyin lower seg s.
Proof.
  intros D E. unfold new_segmenter in E. destruct (get_all_pinyin istream) as [syls|e] eqn:G; [|discriminate]. cbn [bind] in E. destruct (forallb (forallb plain) syls) eqn:P; [|discriminate]. injection E as <-.
  set (ts := map word_rx (sorted_len syls)).
  assert (T : trees istream syls ts).
  { split; [exact G|]. exists (fold_right Nat.max O (map (@length Z) syls)).
    assert (L : Forall (fun w => (length w <= fold_right Nat.max O (map (@length Z) syls))%nat) syls).
    { clear. induction syls as [|w l IH]; constructor; cbn [map fold_right]; [lia|]. eapply Forall_impl; [|exact IH]. cbn beta. intros. lia. }
    split; [exact L|]. rewrite <- (sorted_longest _ _ L). apply words_written, P. }
  assert (S : steadily isd ts) by apply words_solid.
  assert (NE : forall w, In w syls -> w <> []) by (intros w I; exact (all_pinyin_nonempty _ _ _ G I)).
  pose proof (some_syllable _ _ G) as N.
  destruct (C143_made isd istream syls ts T S) as [Mk _]. destruct Mk as [seg' Mk]; [apply names_once; unfold ts; rewrite words_names; constructor|].
  exists seg'. split; [exact Mk|]. split; intro s.
  - destruct (C143_total isd int_ lower istream syls ts seg' s D T Mk (words_count _)) as [l E]. rewrite E. apply (C143_segments isd int_ lower istream syls ts seg' s l D T Mk (words_count _)) in E.
    apply (spelled_segments isd syls NE) in E. unfold segment_pinyin, finditer. rewrite standard_normalize. 
    destruct (scan_segments syls N NE (Datatypes.S (length (standard lower s))) [] (standard lower s) ltac:(lia)) as (l' & E' & Sg). rewrite E'. f_equal. exact (segments_unique syls syls _ _ _ (fun x => iff_refl _) NE E Sg).
  - pose proof (C143_is_pinyin isd lower istream syls ts seg' s T Mk) as A. pose proof (begins_plain isd syls (standard lower s) N) as B. fold ts in B. rewrite B in A.
    unfold is_pinyin. rewrite standard_normalize. destruct (match_ (Plus (base_pattern syls)) (standard lower s)) as [m|].
    + apply A. exists m. reflexivity.
    + destruct (is_pinyin_any lower seg' s); [|reflexivity]. destruct (proj1 A Logic.eq_refl) as [m H]. discriminate.
Qed.
Print Assumptions C143_plain.

(** ** what is false *)
Definition isd0 (c : Z) : bool := (48 <=? c) && (c <=? 57).
Definition int0 (s : str) : option Z := py_int ascii_dv 10 s.
Definition low0 (s : str) : str := s.
(** The longest text need not be the longest match: ma is a syllable of the table, and
    is cut in two *)
Theorem C143_longest_refuted : exists istream syls seg, get_all_pinyin istream = Ok syls /\ In (u "ma") syls /\ new_segmenter_any isd0 istream = Ok seg /\
  segment_any int0 low0 seg (u "ma1") = Ok [(u "m", 0); (u "a", 1)].
Proof. exists [u "ㄇㄚ ma"; u "ㄚ [a-z]"], [u "r"; u "ma"; u "[a-z]"]. eexists. split; [vm_compute; reflexivity|]. split; [right; left; reflexivity|]. split; vm_compute; reflexivity. Qed.
Print Assumptions C143_longest_refuted.
(** The order of the rows matters among texts of one length *)
Theorem C143_order_refuted : exists a b seg seg', new_segmenter_any isd0 [a; b] = Ok seg /\ new_segmenter_any isd0 [b; a] = Ok seg' /\
  segment_any int0 low0 seg (u "ab2") <> segment_any int0 low0 seg' (u "ab2").
Proof. exists (u "ㄚ a+"), (u "ㄅ ab"). eexists. eexists. split; [vm_compute; reflexivity|]. split; [vm_compute; reflexivity|]. vm_compute. discriminate. Qed.
Print Assumptions C143_order_refuted.

(** ** cases *)
Definition table1 : list str := [u "ㄇ m.ng"; u "ㄋ n[aeo]+"; u "ㄚ a\.?"].
Definition tree_of (w : str) : rx := match parse w with Some t => t | None => Last Nil end.
Definition trees1 : list rx := map tree_of [u "n[aeo]+"; u "m.ng"; u "a\.?"; u "r"].
Example C143_case : trees table1 [u "r"; u "m.ng"; u "n[aeo]+"; u "a\.?"] trees1 /\ steadily isd0 trees1 /\ names_differ trees1 /\ counts trees1 = O /\
  exists seg, new_segmenter_any isd0 table1 = Ok seg /\ segment_any int0 low0 seg (u "Mxnoa4 ming2#ra.5") = Ok [(u "noa", 4); (u "ming", 2); ([], 0); (u "er", 0); (u "a.", 5)] /\
    is_pinyin_any low0 seg (u "m*ng!") = true /\ is_pinyin_any low0 seg (u "mang") = true /\ is_pinyin_any low0 seg (u "!a") = false.
Proof.
  split; [split; [vm_compute; reflexivity|exists 7%nat; split; [repeat (apply Forall_cons; [vm_compute; lia|]); apply Forall_nil|repeat (apply Forall2_cons; [split; vm_compute; reflexivity|]); apply Forall2_nil]]|].
  split; [repeat constructor|]. split; [apply names_once; vm_compute; constructor|]. split; [vm_compute; reflexivity|]. eexists. split; [vm_compute; reflexivity|]. repeat split; vm_compute; reflexivity.
Qed.
(** a syllable that may be empty, and syllables with groups *)
Example C143_case_empty : exists seg, new_segmenter_any isd0 [u "ㄚ a*"] = Ok seg /\ segment_any int0 low0 seg (u "ba3!") = Ok [([], 0); (u "a", 3); ([], 0); ([], 0)].
Proof. eexists. split; [vm_compute; reflexivity|vm_compute; reflexivity]. Qed.
Definition trees2 : list rx := map tree_of [u "(?P<x>b)"; u "(a)c"; u "r"].
Example C143_case_groups : trees [u "ㄚ (a)c"; u "ㄅ (?P<x>b)"] [u "r"; u "(a)c"; u "(?P<x>b)"] trees2 /\ steadily isd0 trees2 /\ names_differ trees2 /\ counts trees2 = 2%nat /\
  exists seg, new_segmenter_any isd0 [u "ㄚ (a)c"; u "ㄅ (?P<x>b)"] = Ok seg /\ segment_any int0 low0 seg (u "xr") = Raise ValueError /\ segment_any int0 low0 seg (u "a1") = Ok [] /\ is_pinyin_any low0 seg (u "b") = true.
Proof.
  split; [split; [vm_compute; reflexivity|exists 8%nat; split; [repeat (apply Forall_cons; [vm_compute; lia|]); apply Forall_nil|repeat (apply Forall2_cons; [split; vm_compute; reflexivity|]); apply Forall2_nil]]|].
  split; [repeat constructor|]. split; [apply names_once; vm_compute; constructor; [intros []|constructor]|]. split; [vm_compute; reflexivity|]. eexists. split; [vm_compute; reflexivity|]. repeat split; vm_compute; reflexivity.
Qed.
(** a name given twice, and two syllables that are patterns only together *)
Example C143_case_other : new_segmenter_any isd0 [u "ㄚ (?P<x>a)"; u "ㄅ (?P<x>b)"] = Raise re_error /\
  parse (u "(a") = None /\ exists seg, new_segmenter_any isd0 [u "ㄚ (a"; u "ㄅ b)"] = Ok seg /\ segment_any int0 low0 seg (u "a") = Raise ValueError.
Proof. split; [vm_compute; reflexivity|]. split; [vm_compute; reflexivity|]. eexists. split; vm_compute; reflexivity. Qed.
