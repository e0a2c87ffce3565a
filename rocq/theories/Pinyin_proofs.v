From Coq Require Import Sorted.
From Verif Require Import Base PyText Regex Pinyin_model Pinyin_spec.

(* ------------------------------------------------------------------ *)
(** ** Rows *)
Lemma words_app_blank s ws g : words s ws -> blank g -> words (s ++ g) ws.
Proof.
  intros W B; induction W as [g1 B1|g1 w s ws B1 N S Hs W IH].
  - apply W_nil; unfold blank in *; rewrite forallb_app, B1; exact B.
  - rewrite <- !app_assoc; apply W_cons; [exact B1|exact N|exact S| |exact IH].
    destruct s as [|c s]; [|exact Hs]; destruct g as [|c g]; [exact I|]; cbn [app]; unfold blank in B; cbn [forallb] in B; apply andb_prop in B; apply B.
Qed.
Lemma split_rstrip line : words line (split_ws (rstrip line)).
Proof.
  destruct (rstrip_split line) as [g [B [E _]]]; rewrite E at 1; apply words_app_blank; [apply words_split_ws|exact B].
Qed.
Lemma words_unique s a b : words s a -> words s b -> a = b.
Proof. intros A B; rewrite <- (split_ws_words _ _ A), <- (split_ws_words _ _ B); reflexivity. Qed.
Lemma starts_hash_spec line : starts_hash line = true <-> comment_row line.
Proof.
  unfold starts_hash, comment_row; destruct line as [|c r]; [split; [discriminate|intros [r E]; discriminate]|].
  rewrite Z.eqb_eq; split; [intros ->; exists r; reflexivity|intros [r' E]; injection E as -> _; reflexivity].
Qed.
Lemma parse_rows lines : rows lines (parse_lines lines).
Proof.
  induction lines as [|line lines IH]; [constructor|]; unfold parse_lines in *; cbn [filter].
  destruct (starts_hash line) eqn:H; cbn [negb].
  - apply Rows_comment; [apply starts_hash_spec, H|exact IH].
  - cbn [map]; apply Rows_row; [rewrite <- starts_hash_spec, H; discriminate|apply split_rstrip|exact IH].
Qed.
Lemma rows_unique lines a b : rows lines a -> rows lines b -> a = b.
Proof.
  intros A; revert b; induction A as [|line lines rs C A IH|line lines ws rs C W A IH]; intros b B; inversion B; subst; try contradiction.
  - reflexivity.
  - auto.
  - f_equal; [eapply words_unique; eassumption|auto].
Qed.
Lemma rows_parse lines rs : rows lines rs -> parse_lines lines = rs.
Proof. intros R; eapply rows_unique; [apply parse_rows|exact R]. Qed.

Lemma for_pairs_two {S} (body : S -> str -> str -> S) ps s :
  for_pairs body (map (fun p => [fst p; snd p]) ps) s = Ok (fold_left (fun s p => body s (fst p) (snd p)) ps s).
Proof. revert s; induction ps as [|[a b] ps IH]; intros s; [reflexivity|]; cbn [map for_pairs fst snd fold_left]; apply IH. Qed.
Lemma for_pairs_bad {S} (body : S -> str -> str -> S) rs s :
  (forall ps, ~ two_columns rs ps) -> for_pairs body rs s = Raise ValueError.
Proof.
  revert s; induction rs as [|r rs IH]; intros s N; [elim (N []); reflexivity|].
  destruct r as [|a [|b [|c r]]]; try reflexivity; cbn [for_pairs]; apply IH; intros ps E.
  apply (N ((a, b) :: ps)); unfold two_columns in *; cbn [map fst snd]; congruence.
Qed.
Lemma two_columns_dec rs : (exists ps, two_columns rs ps) \/ (forall ps, ~ two_columns rs ps).
Proof.
  unfold two_columns; induction rs as [|r rs [[ps ->]|N]]; [left; exists []; reflexivity| |].
  - destruct r as [|a [|b [|c r]]]; try (right; intros [|[x y] q] E; discriminate E); left; exists ((a, b) :: ps); reflexivity.
  - right; intros [|p q] E; [discriminate|]; injection E as _ E; exact (N _ E).
Qed.

Lemma fold_dset_get {A V} (f : A -> str) (g : A -> V) ps : forall d k,
  dget k (fold_left (fun d p => dset (f p) (g p) d) ps d) =
  match dget k (rev (map (fun p => (f p, g p)) ps)) with Some v => Some v | None => dget k d end.
Proof.
  induction ps as [|p ps IH]; intros d k; [reflexivity|]; cbn [fold_left map rev].
  rewrite IH, dget_app, dget_dset; destruct (dget k (rev _)); [reflexivity|].
  cbn [dget]; destruct (eqb k (f p)); reflexivity.
Qed.
Lemma dget_rev_last {V} (l : list (str * V)) k v : dget k (rev l) = Some v <-> last_for l k v.
Proof.
  split.
  - revert v; induction l as [|[a b] l IH] using rev_ind; intros v; [discriminate|]; rewrite rev_app_distr; cbn [rev app dget].
    destruct (eqb k a) eqn:E.
    + apply eqb_eq in E; subst a; intros X; injection X as ->; exists l, []; split; [reflexivity|intros []].
    + intros D; destruct (IH v D) as [p [q [-> N]]]; exists p, (q ++ [(a, b)]); split; [rewrite <- app_assoc; reflexivity|].
      rewrite map_app, in_app_iff; intros [I|[I|[]]]; [exact (N I)|cbn [fst] in I; subst a; rewrite eqb_refl in E; discriminate].
  - intros [p [q [-> N]]]; rewrite rev_app_distr; cbn [rev]; rewrite <- app_assoc, dget_app.
    replace (dget k (rev q)) with (@None V) by (symmetry; apply dget_None; unfold dkeys; rewrite map_rev, <- in_rev; exact N).
    cbn [app dget]; rewrite eqb_refl; reflexivity.
Qed.
Lemma dget_rev_none {V} (l : list (str * V)) k : dget k (rev l) = None <-> ~ In k (map fst l).
Proof. rewrite dget_None; unfold dkeys; rewrite map_rev, <- in_rev; reflexivity. Qed.

Lemma to_pinyin_ok lines rs ps : rows lines rs -> two_columns rs ps ->
  exists d, zhuyin_to_pinyin_table lines = Ok d /\ forall k v, dget k d = Some v <-> last_for ps k v.
Proof.
  intros R T; unfold zhuyin_to_pinyin_table; rewrite (rows_parse _ _ R), T, for_pairs_two; eexists; split; [reflexivity|].
  intros k v; rewrite (fold_dset_get fst snd); cbn [dget].
  replace (map (fun p : str * str => (fst p, snd p)) ps) with ps by (clear; induction ps as [|[a b] ps IH]; cbn [map fst snd]; congruence).
  rewrite <- dget_rev_last; destruct (dget k (rev ps)); split; congruence.
Qed.
Lemma to_zhuyin_ok lines rs ps : rows lines rs -> two_columns rs ps ->
  exists d, pinyin_to_zhuyin_table lines = Ok d /\ forall k v, dget k d = Some v <-> last_for (map (fun p => (snd p, fst p)) ps) k v.
Proof.
  intros R T; unfold pinyin_to_zhuyin_table; rewrite (rows_parse _ _ R), T, for_pairs_two; eexists; split; [reflexivity|].
  intros k v; rewrite (fold_dset_get snd fst); cbn [dget].
  rewrite <- dget_rev_last; destruct (dget k (rev _)); split; congruence.
Qed.
Lemma fold_append {A B} (f : A -> B) l acc : fold_left (fun acc x => acc ++ [f x]) l acc = acc ++ map f l.
Proof.
  revert acc; induction l as [|x l IH]; intros acc; cbn [fold_left map]; [rewrite app_nil_r; reflexivity|].
  rewrite IH, <- app_assoc; reflexivity.
Qed.
Lemma all_pinyin_ok lines rs ps : rows lines rs -> two_columns rs ps -> get_all_pinyin lines = Ok (u "r" :: map snd ps).
Proof. intros R T; unfold get_all_pinyin; rewrite (rows_parse _ _ R), T, for_pairs_two, (fold_append snd); reflexivity. Qed.
Lemma zhuyin_pattern_ok lines rs ps : rows lines rs -> two_columns rs ps ->
  zhuyin_regex_pattern lines = Ok (u "(" ++ join (u "|") (map snd ps) ++ u ")[0-4]?").
Proof. intros R T; unfold zhuyin_regex_pattern; rewrite (rows_parse _ _ R), T, for_pairs_two, (fold_append snd); reflexivity. Qed.
Lemma columns_bad lines rs : rows lines rs -> (forall ps, ~ two_columns rs ps) ->
  zhuyin_to_pinyin_table lines = Raise ValueError /\ pinyin_to_zhuyin_table lines = Raise ValueError /\
  get_all_pinyin lines = Raise ValueError /\ pinyin_regex_pattern lines = Raise ValueError /\ zhuyin_regex_pattern lines = Raise ValueError.
Proof.
  intros R N; unfold zhuyin_regex_pattern, pinyin_regex_pattern, zhuyin_to_pinyin_table, pinyin_to_zhuyin_table, get_all_pinyin; rewrite (rows_parse _ _ R).
  rewrite !for_pairs_bad by exact N; repeat split.
Qed.
Lemma words_nonempty s ws w : words s ws -> In w ws -> w <> [].
Proof. intros W; induction W as [|g v s ws B N S Hs W IH]; [intros []|]; intros [<-|I]; auto. Qed.
Lemma rows_nonempty lines rs r w : rows lines rs -> In r rs -> In w r -> w <> [].
Proof. intros R; induction R as [|line lines rs C R IH|line lines ws rs C W R IH]; [intros []|exact IH|]; intros [<-|I]; [eapply words_nonempty; eassumption|auto]. Qed.
Lemma all_pinyin_rows lines syls : get_all_pinyin lines = Ok syls ->
  exists rs ps, rows lines rs /\ two_columns rs ps /\ syls = u "r" :: map snd ps.
Proof.
  intros G; pose proof (parse_rows lines) as R; destruct (two_columns_dec (parse_lines lines)) as [[ps T]|N].
  - exists (parse_lines lines), ps; split; [exact R|split; [exact T|]]; rewrite (all_pinyin_ok _ _ _ R T) in G; congruence.
  - destruct (columns_bad _ _ R N) as [_ [_ [E _]]]; congruence.
Qed.
Lemma all_pinyin_nonempty lines syls w : get_all_pinyin lines = Ok syls -> In w syls -> w <> [].
Proof.
  intros G I; destruct (all_pinyin_rows _ _ G) as [rs [ps [R [T ->]]]]; destruct I as [<-|I]; [discriminate|].
  apply in_map_iff in I; destruct I as [[a b] [<- I]]; cbn [snd].
  apply (rows_nonempty lines rs [a; b]); [exact R|rewrite T; apply (in_map (fun p => [fst p; snd p])) in I; exact I|right; left; reflexivity].
Qed.

(* ------------------------------------------------------------------ *)
(** ** Sorting by length *)
Inductive desc : list str -> Prop :=
| D_nil : desc []
| D_cons w l : Forall (fun v => (length v <= length w)%nat) l -> desc l -> desc (w :: l).
Lemma insert_len_In x w l : In x (insert_len w l) <-> x = w \/ In x l.
Proof.
  induction l as [|y l IH]; cbn [insert_len].
  - cbn [In]; intuition congruence.
  - destruct (_ <=? _)%nat; cbn [In]; rewrite ?IH; cbn [In]; intuition congruence.
Qed.
Lemma sorted_In x l : In x (sorted_len l) <-> In x l.
Proof. unfold sorted_len; induction l as [|y l IH]; [reflexivity|]; cbn [fold_right In]; rewrite insert_len_In, IH; intuition congruence. Qed.
Lemma insert_desc w l : desc l -> desc (insert_len w l).
Proof.
  intros D; induction D as [|x l F D IH]; cbn [insert_len]; [constructor; constructor|].
  destruct (Nat.leb_spec (length x) (length w)) as [L|L].
  - constructor; [|constructor; assumption]; constructor; [exact L|]; eapply Forall_impl; [|exact F]; cbn beta; intros; lia.
  - constructor; [|exact IH]; apply Forall_forall; intros v I; apply insert_len_In in I; destruct I as [->|I]; [lia|].
    rewrite Forall_forall in F; apply F, I.
Qed.
Lemma sorted_desc l : desc (sorted_len l).
Proof. unfold sorted_len; induction l; [constructor|]; apply insert_desc; assumption. Qed.

(* ------------------------------------------------------------------ *)
(** ** Literal alternatives *)
Fixpoint chop (w s : str) : option str :=
  match w, s with
  | [], _ => Some s
  | c :: w, d :: s => if d =? c then chop w s else None
  | _ :: _, [] => None
  end.
Lemma chop_Some w s r : chop w s = Some r <-> s = w ++ r.
Proof.
  revert s; induction w as [|c w IH]; intros s; cbn [chop app]; [split; congruence|].
  destruct s as [|d s]; [split; discriminate|]; destruct (Z.eqb_spec d c) as [->|N].
  - rewrite IH; split; congruence.
  - split; [discriminate|intros E; injection E; congruence].
Qed.
Lemma chop_None w s : chop w s = None <-> ~ prefix w s.
Proof.
  split.
  - intros E [r P]; apply chop_Some in P; congruence.
  - intros N; destruct (chop w s) as [r|] eqn:E; [|reflexivity]; elim N; exists r; apply chop_Some, E.
Qed.
Lemma mtch_lit_chop w k b s cs : mtch (Lit w) k (mkpos b s cs) =
  match chop w s with Some r => k (mkpos (rev w ++ b) r cs) | None => None end.
Proof.
  revert b s; induction w as [|c w IH]; intros b s; [reflexivity|]; cbn [Lit mtch chop rest before caps rev].
  destruct s as [|d s]; [reflexivity|]; destruct (Z.eqb_spec d c) as [->|N]; [|reflexivity].
  rewrite IH; destruct (chop w s); [rewrite <- app_assoc; reflexivity|reflexivity].
Qed.
Fixpoint first_in (l : list str) (s : str) : option (str * str) :=
  match l with [] => None | w :: l => match chop w s with Some r => Some (w, r) | None => first_in l s end end.
Lemma mtch_alts l k b s cs : l <> [] -> (forall t, k t <> None) -> mtch (alts l) k (mkpos b s cs) =
  match first_in l s with Some (w, r) => k (mkpos (rev w ++ b) r cs) | None => None end.
Proof.
  intros N K; induction l as [|w l IH]; [congruence|]; destruct l as [|x l].
  - cbn [alts first_in]; rewrite mtch_lit_chop; destruct (chop w s); reflexivity.
  - change (alts (w :: x :: l)) with (Alt (Lit w) (alts (x :: l))).
    change (mtch (Alt (Lit w) (alts (x :: l))) k (mkpos b s cs))
      with (match mtch (Lit w) k (mkpos b s cs) with Some m => Some m | None => mtch (alts (x :: l)) k (mkpos b s cs) end).
    rewrite mtch_lit_chop; change (first_in (w :: x :: l) s) with (match chop w s with Some r => Some (w, r) | None => first_in (x :: l) s end).
    destruct (chop w s) as [r|] eqn:C.
    + destruct (k _) eqn:E; [reflexivity|elim (K _ E)].
    + apply IH; discriminate.
Qed.
Lemma first_in_None l s : first_in l s = None <-> no_syllable l s.
Proof.
  unfold no_syllable; induction l as [|w l IH]; cbn [first_in]; [split; [intros _ w []|reflexivity]|].
  destruct (chop w s) as [r|] eqn:C.
  - split; [discriminate|intros N; elim (N w); [left; reflexivity|exists r; apply chop_Some, C]].
  - rewrite IH; split; [intros N v [<-|I]; [apply chop_None, C|apply N, I]|intros N v I; apply N; right; exact I].
Qed.
Lemma first_in_longest l s w r : desc l -> first_in l s = Some (w, r) -> longest l s w /\ s = w ++ r.
Proof.
  intros D; induction D as [|x l F D IH]; [discriminate|]; cbn [first_in]; destruct (chop x s) as [q|] eqn:C.
  - intros E; injection E as <- <-; apply chop_Some in C; split; [|exact C]; split; [left; reflexivity|split; [exists q; exact C|]].
    intros v [<-|I] _; [lia|]; rewrite Forall_forall in F; apply F, I.
  - intros E; destruct (IH E) as [[I [P M]] S]; split; [|exact S]; split; [right; exact I|split; [exact P|]].
    intros v [<-|J] Pv; [elim (proj1 (chop_None _ _) C Pv)|exact (M v J Pv)].
Qed.

Lemma longest_same l l' s w : (forall x, In x l <-> In x l') -> longest l s w -> longest l' s w.
Proof. intros E [I [P M]]; split; [apply E, I|split; [exact P|]]; intros v J; apply M, E, J. Qed.
Lemma no_syllable_same l l' s : (forall x, In x l <-> In x l') -> no_syllable l s -> no_syllable l' s.
Proof. intros E N w I; apply N, E, I. Qed.

(* ------------------------------------------------------------------ *)
(** ** One match *)
Definition take_tone (s : str) : str * str := match s with c :: r => if digit05 c then ([c], r) else ([], s) | [] => ([], []) end.
Lemma mtch_tone n k b s cs : (forall t, k t <> None) -> mtch (Grp n (Opt (Chr digit05))) k (mkpos b s cs) =
  k (mkpos (rev (fst (take_tone s)) ++ b) (snd (take_tone s)) ((n, fst (take_tone s)) :: cs)).
Proof.
  intros K; unfold Opt; cbn [mtch rest before caps].
  destruct s as [|c s]; cbn [take_tone fst snd rev app].
  - unfold capture, text; cbn [rest length Nat.sub firstn before caps]; reflexivity.
  - destruct (digit05 c) eqn:D; cbn [fst snd rev app].
    + match goal with |- match ?x with _ => _ end = _ => destruct x eqn:E end.
      * rewrite <- E; unfold capture; cbn [before rest caps].
        pose proof (text_app b [c] s cs (c :: b) cs) as X; cbn [app] in X; rewrite X; reflexivity.
      * elim (K _ E).
    + unfold capture; cbn [before rest caps].
      pose proof (text_app b [] (c :: s) cs b cs) as X; cbn [app] in X; rewrite X; reflexivity.
Qed.
Lemma take_tone_app s : s = fst (take_tone s) ++ snd (take_tone s).
Proof. destruct s as [|c s]; cbn [take_tone]; [reflexivity|]; destruct (digit05 c); reflexivity. Qed.

Lemma mtch_base syls k b s cs : syls <> [] -> (forall t, k t <> None) -> mtch (base_pattern syls) k (mkpos b s cs) =
  match first_in (sorted_len syls) s with
  | Some (w, r) =>
      let (t, q) := take_tone r in
      k (mkpos (rev t ++ rev w ++ b) q ((g1, w ++ t) :: (g3, t) :: (g2, w) :: cs))
  | None => match s with
            | c :: q => if c =? u1 "#" then k (mkpos (c :: b) q ((g1, [c]) :: cs)) else None
            | [] => None end
  end.
Proof.
  intros N K; set (s0 := mkpos b s cs).
  assert (NS : sorted_len syls <> []).
  { destruct syls as [|x syls]; [congruence|]; intros E; pose proof (proj2 (sorted_In x (x :: syls)) (or_introl eq_refl)) as I; rewrite E in I; exact I. }
  assert (L : mtch (Seq (Grp g2 (alts (sorted_len syls))) (Grp g3 (Opt (Chr digit05)))) (fun t => k (capture g1 s0 t)) s0 =
    match first_in (sorted_len syls) s with
    | Some (w, r) => k (mkpos (rev (fst (take_tone r)) ++ rev w ++ b) (snd (take_tone r)) ((g1, w ++ fst (take_tone r)) :: (g3, fst (take_tone r)) :: (g2, w) :: cs))
    | None => None end).
  { change (mtch (alts (sorted_len syls)) (fun t => mtch (Grp g3 (Opt (Chr digit05))) (fun t => k (capture g1 s0 t)) (capture g2 s0 t)) (mkpos b s cs) =
      match first_in (sorted_len syls) s with
      | Some (w, r) => k (mkpos (rev (fst (take_tone r)) ++ rev w ++ b) (snd (take_tone r)) ((g1, w ++ fst (take_tone r)) :: (g3, fst (take_tone r)) :: (g2, w) :: cs))
      | None => None end).
    rewrite mtch_alts; [|exact NS|].
    - destruct (first_in (sorted_len syls) s) as [[w r]|] eqn:F; [|reflexivity].
      destruct (first_in_longest _ _ _ _ (sorted_desc syls) F) as [_ ->].
      unfold capture at 2; rewrite mtch_tone by (intros t; apply K); f_equal.
      unfold capture at 1; cbn [before rest caps]; unfold s0; rewrite text_app; cbn [before rest caps].
      do 3 f_equal; pose proof (take_tone_app r) as T; set (t := fst (take_tone r)) in *; set (q := snd (take_tone r)) in *.
      rewrite T, app_assoc; apply text_app.
    - intros t; destruct (capture g2 s0 t) as [b' l' c']; rewrite mtch_tone by (intros t'; apply K); apply K. }
  change (mtch (base_pattern syls) k s0) with
    (match mtch (Seq (Grp g2 (alts (sorted_len syls))) (Grp g3 (Opt (Chr digit05)))) (fun t => k (capture g1 s0 t)) s0 with
     | Some m => Some m | None => mtch (Lit (u "#")) (fun t => k (capture g1 s0 t)) s0 end).
  rewrite L; destruct (first_in (sorted_len syls) s) as [[w r]|].
  - destruct (take_tone r) as [t q]; cbn [fst snd]; destruct (k _) eqn:E; [reflexivity|elim (K _ E)].
  - unfold s0; rewrite mtch_lit_chop; change (u "#") with [u1 "#"]; cbn [chop]; destruct s as [|c q]; [reflexivity|].
    destruct (Z.eqb_spec c (u1 "#")) as [->|_]; [|reflexivity]; unfold capture; cbn [before rest caps rev app].
    pose proof (text_app b [u1 "#"] q cs (u1 "#" :: b) cs) as X; cbn [app] in X; rewrite X; reflexivity.
Qed.

(* ------------------------------------------------------------------ *)
(** ** The segmentation *)
Lemma take_tone_spec s : exists z, tone s z (snd (take_tone s)) /\
  (match fst (take_tone s) with [] => Ok 0 | t => of_option ValueError (py_int ascii_dv 10 t) end) = Ok z.
Proof.
  destruct s as [|c s]; cbn [take_tone fst snd].
  - exists 0; split; [apply Tone_none; cbn [hd]; lia|reflexivity].
  - destruct (digit05 c) eqn:D; cbn [fst snd]; unfold digit05 in D.
    + apply andb_prop in D; destruct D as [D1 D2]; apply Z.leb_le in D1, D2; exists (c - 48); split.
      * replace c with (48 + (c - 48)) at 1 by lia; apply Tone_digit; lia.
      * assert (In c [48; 49; 50; 51; 52; 53]) as I by (cbn [In]; lia).
        cbn [In] in I; intuition subst; vm_compute; reflexivity.
    + exists 0; split; [|reflexivity]; apply Tone_none; cbn [hd]; intros H; apply andb_false_iff in D; destruct D as [D|D]; apply Z.leb_gt in D; lia.
Qed.

Lemma scan_segments syls : syls <> [] -> (forall w, In w syls -> w <> []) ->
  forall fuel b s, (length s < fuel)%nat -> exists l, mapM correct (scan fuel (base_pattern syls) b s) = Ok l /\ segments syls s l.
Proof.
  intros N NE; induction fuel as [|n IH]; intros b s L; [lia|]; cbn [scan].
  rewrite mtch_base by (congruence || discriminate).
  destruct (first_in (sorted_len syls) s) as [[w r]|] eqn:F.
  - destruct (first_in_longest _ _ _ _ (sorted_desc syls) F) as [LG ->].
    assert (LG' : longest syls (w ++ r) w) by (eapply longest_same; [intros x; apply sorted_In|exact LG]).
    assert (W : w <> []) by (apply NE, LG').
    destruct (take_tone_spec r) as [z [T C]]; pose proof (take_tone_app r) as A.
    destruct (take_tone r) as [t q]; cbn [fst snd] in *; cbn [rest before].
    assert (LQ : (length q < length (w ++ r))%nat).
    { rewrite A, !app_length; destruct w; [congruence|]; cbn [length]; lia. }
    replace (length q <? length (w ++ r))%nat with true by (symmetry; apply Nat.ltb_lt, LQ).
    destruct (IH (rev t ++ rev w ++ b) q) as [l [M S]]; [lia|].
    exists ((spoken w, z) :: l); split; [|apply (Seg_syl syls w r z q l LG' T S)].
    change (scan n (base_pattern syls) (rev t ++ rev w ++ b) q) with (scan n (base_pattern syls) (rev t ++ rev w ++ b) q) in M.
    cbn [mapM]; rewrite M; unfold correct, text_of, group; cbn [snd caps dget].
    change (eqb g3 g1) with false; change (eqb g3 g3) with true; change (eqb g2 g1) with false; change (eqb g2 g3) with false; change (eqb g2 g2) with true.
    cbv iota; rewrite C; cbn [bind]; reflexivity.
  - assert (NS : no_syllable syls s).
    { apply first_in_None in F; eapply no_syllable_same; [intros x; apply sorted_In|exact F]. }
    destruct s as [|c q]; [exists []; split; [reflexivity|constructor]|]; cbn [length] in L.
    destruct (Z.eqb_spec c (u1 "#")) as [->|Nc].
    + cbn [rest before length]; replace (length q <? S (length q))%nat with true by (symmetry; apply Nat.ltb_lt; lia).
      destruct (IH (u1 "#" :: b) q) as [l [M S]]; [lia|]; exists (([], 0) :: l); split; [|apply Seg_hash; assumption].
      cbn [mapM]; rewrite M; reflexivity.
    + destruct (IH (c :: b) q) as [l [M S]]; [lia|]; exists l; split; [exact M|apply Seg_skip; assumption].
Qed.

Lemma standard_normalize lower s : normalize lower s = standard lower s.
Proof.
  unfold normalize, standard; induction (lower s) as [|c l IH]; [reflexivity|]; cbn [filter flat_map].
  destruct (c =? u1 " "); cbn [negb]; [exact IH|]; cbn [map]; rewrite IH; destruct (c =? u1 "v"); reflexivity.
Qed.

Lemma new_segmenter_inv lines seg : new_segmenter lines = Ok seg ->
  exists syls, get_all_pinyin lines = Ok syls /\ seg = base_pattern syls.
Proof.
  unfold new_segmenter; destruct (get_all_pinyin lines) as [syls|e]; cbn [bind]; [|discriminate].
  destruct (forallb _ syls); [|discriminate]; intros E; injection E as <-; exists syls; split; reflexivity.
Qed.
Lemma segment_ok lower lines seg rs ps s : new_segmenter lines = Ok seg -> rows lines rs -> two_columns rs ps ->
  exists l, segment_pinyin lower seg s = Ok l /\ segments (u "r" :: map snd ps) (standard lower s) l.
Proof.
  intros E R T; destruct (new_segmenter_inv _ _ E) as [syls [G ->]].
  pose proof (all_pinyin_ok _ _ _ R T) as G'; rewrite G in G'; injection G' as ->.
  unfold segment_pinyin, finditer; rewrite standard_normalize; apply scan_segments; [discriminate| |lia].
  intros w I; eapply all_pinyin_nonempty; eassumption.
Qed.

Lemma app_same_length {A} (a b c d : list A) : a ++ b = c ++ d -> length a = length c -> a = c /\ b = d.
Proof.
  revert c; induction a as [|x a IH]; intros [|y c] E L; try discriminate L; [split; [reflexivity|exact E]|].
  injection E as -> E; destruct (IH c E) as [-> ->]; [injection L as L; exact L|split; reflexivity].
Qed.
Lemma longest_unique syls syls' w t w' t' : (forall x, In x syls <-> In x syls') -> w ++ t = w' ++ t' ->
  longest syls (w ++ t) w -> longest syls' (w' ++ t') w' -> w = w' /\ t = t'.
Proof.
  intros S E [I [P M]] [I' [P' M']]; apply app_same_length; [exact E|].
  apply Nat.le_antisymm; [apply M'; [apply S, I|rewrite <- E; exact P]|apply M; [apply S, I'|rewrite E; exact P']].
Qed.
Lemma tone_unique t z r z' r' : tone t z r -> tone t z' r' -> z = z' /\ r = r'.
Proof.
  intros A B; destruct A as [z r Hz|r N].
  - remember (48 + z) as c eqn:E; remember (c :: r) as t eqn:ET; destruct B as [z' r' Hz'|r' N'].
    + pose proof (f_equal (hd 0) ET) as H1; pose proof (f_equal (@tl Z) ET) as H2; cbn [hd tl] in H1, H2; split; [lia|congruence].
    + rewrite ET in N'; cbn [hd] in N'; lia.
  - destruct B as [z' r' Hz'|r' N']; [cbn [hd] in N; lia|split; reflexivity].
Qed.
Lemma longest_no syls syls' s w : (forall x, In x syls <-> In x syls') -> longest syls s w -> no_syllable syls' s -> False.
Proof. intros S [I [P _]] N; apply (N w); [apply S, I|exact P]. Qed.
Lemma segments_nil syls l : (forall w, In w syls -> w <> []) -> segments syls [] l -> l = [].
Proof.
  intros NE; remember [] as s eqn:E; intros S; destruct S as [|w t z r l LG T S| |]; try discriminate E; [reflexivity|].
  apply app_eq_nil in E; destruct E as [-> ->]; elim (NE []); [apply LG|reflexivity].
Qed.
Lemma segments_unique syls syls' s l l' : (forall x, In x syls <-> In x syls') -> (forall w, In w syls -> w <> []) ->
  segments syls s l -> segments syls' s l' -> l = l'.
Proof.
  intros Sm NE A; revert l'; induction A as [|w t z r l LG T A IH|s l N A IH|c s l Nc N A IH]; intros l' B.
  - symmetry; eapply segments_nil; [|exact B]; intros w I; apply NE, Sm, I.
  - remember (w ++ t) as s eqn:E; destruct B as [|w' t' z' r' l' LG' T' B|s l' N' B|c s l' Nc' N' B].
    + symmetry in E; apply app_eq_nil in E; destruct E as [-> ->]; elim (NE []); [apply LG|reflexivity].
    + rewrite E in LG; destruct (longest_unique syls syls' w t w' t') as [<- <-]; try assumption; [symmetry; exact E|].
      destruct (tone_unique _ _ _ _ _ T T') as [<- <-]; rewrite (IH _ B); reflexivity.
    + elim (longest_no _ _ _ _ Sm LG N').
    + elim (longest_no _ _ _ _ Sm LG N').
  - remember (u1 "#" :: s) as s0 eqn:E; destruct B as [|w' t' z' r' l' LG' T' B|s' l' N' B|c s' l' Nc' N' B].
    + discriminate E.
    + elim (longest_no _ _ _ _ (fun x => iff_sym (Sm x)) LG' N).
    + injection E as ->; rewrite (IH _ B); reflexivity.
    + injection E as -> ->; congruence.
  - remember (c :: s) as s0 eqn:E; destruct B as [|w' t' z' r' l' LG' T' B|s' l' N' B|c' s' l' Nc' N' B].
    + discriminate E.
    + elim (longest_no _ _ _ _ (fun x => iff_sym (Sm x)) LG' N).
    + injection E as <- ->; congruence.
    + injection E as -> ->; exact (IH _ B).
Qed.

Lemma segment_iff lower lines seg rs ps s l : new_segmenter lines = Ok seg -> rows lines rs -> two_columns rs ps ->
  (segment_pinyin lower seg s = Ok l <-> segments (u "r" :: map snd ps) (standard lower s) l).
Proof.
  intros E R T; destruct (segment_ok lower _ _ _ _ s E R T) as [l0 [S G]]; split.
  - intros X; congruence.
  - intros G'; rewrite S; f_equal; eapply segments_unique; [| |exact G|exact G']; [reflexivity|].
    intros w I; eapply all_pinyin_nonempty; [eapply all_pinyin_ok; eassumption|exact I].
Qed.
Lemma segment_set lower lines lines' seg seg' syls syls' s :
  new_segmenter lines = Ok seg -> new_segmenter lines' = Ok seg' ->
  get_all_pinyin lines = Ok syls -> get_all_pinyin lines' = Ok syls' -> (forall w, In w syls <-> In w syls') ->
  segment_pinyin lower seg s = segment_pinyin lower seg' s.
Proof.
  intros E E' G G' Sm.
  destruct (all_pinyin_rows _ _ G) as [rs [ps [R [T ->]]]]; destruct (all_pinyin_rows _ _ G') as [rs' [ps' [R' [T' ->]]]].
  destruct (segment_ok lower _ _ _ _ s E R T) as [l [-> A]]; destruct (segment_ok lower _ _ _ _ s E' R' T') as [l' [-> B]].
  f_equal; eapply segments_unique; [exact Sm| |exact A|exact B]; intros w I; eapply all_pinyin_nonempty; [exact G|exact I].
Qed.
(** without '#' *)
Lemma segments_claimed syls s l : ~ In (u1 "#") s -> segments syls s l -> claimed syls s l.
Proof.
  intros N A; induction A as [|w t z r l LG T A IH|s l Nn A IH|c s l Nc Nn A IH].
  - constructor.
  - apply (Cl_syl syls w t z r); [exact LG|exact T|]; apply IH; intros I; apply N, in_or_app; right.
    destruct T as [z r Hz|r Hr]; [right|]; exact I.
  - elim N; left; reflexivity.
  - constructor; [exact Nn|]; apply IH; intros I; apply N; right; exact I.
Qed.

(* ------------------------------------------------------------------ *)
(** ** Numbered pinyin *)
Lemma no_digit_prefix w z r v : no_digit v -> 0 <= z <= 5 -> prefix v (w ++ (48 + z) :: r) -> (length v <= length w)%nat.
Proof.
  intros N Z [q E]; revert w E; induction v as [|c v IH]; intros w E; [cbn [length]; lia|].
  destruct w as [|d w]; cbn [app] in E; pose proof (f_equal (hd 0) E) as E1; pose proof (f_equal (@tl _) E) as E2; cbn [hd tl] in E1, E2.
  - elim (N c); [left; reflexivity|lia].
  - cbn [length]; apply le_n_S; apply IH; [intros x I; apply N; right; exact I|exact E2].
Qed.
Lemma numbered_segments syls l : Forall no_digit syls -> Forall (fun p => In (fst p) syls /\ 0 <= snd p <= 5) l ->
  segments syls (numbered l) (map (fun p => (spoken (fst p), snd p)) l).
Proof.
  intros N F; rewrite Forall_forall in N; induction F as [|[w z] l [I Z] F IH]; [constructor|].
  cbn [numbered flat_map fst snd map] in *; rewrite <- app_assoc; cbn [app].
  apply (Seg_syl syls w _ z (numbered l)); [|apply Tone_digit, Z|exact IH].
  split; [exact I|split; [eexists; reflexivity|]]; intros v J P; eapply no_digit_prefix; [apply N, J|exact Z|exact P].
Qed.
Lemma segment_numbered lower lines seg rs ps s l : new_segmenter lines = Ok seg -> rows lines rs -> two_columns rs ps ->
  Forall no_digit (map snd ps) -> Forall (fun p => In (fst p) (u "r" :: map snd ps) /\ 0 <= snd p <= 5) l ->
  standard lower s = numbered l -> segment_pinyin lower seg s = Ok (map (fun p => (spoken (fst p), snd p)) l).
Proof.
  intros E R T N F S; apply (segment_iff lower _ _ _ _ s _ E R T); rewrite S; apply numbered_segments; [|exact F].
  constructor; [|exact N]; intros c [<-|[]]; vm_compute; intros [_ H]; apply H; reflexivity.
Qed.
Lemma join_nil l : join [] l = concat l.
Proof.
  induction l as [|x l IH]; [reflexivity|]; destruct l as [|y l]; [cbn [join concat]; rewrite app_nil_r; reflexivity|].
  rewrite join_cons by discriminate; rewrite IH; reflexivity.
Qed.
Lemma standard_twice lower s : steady lower -> standard lower (standard lower s) = standard lower s.
Proof.
  intros St; unfold standard at 1; rewrite St; unfold standard; induction (lower s) as [|c l IH]; [reflexivity|]; cbn [flat_map].
  destruct (c =? u1 " ") eqn:E1; [exact IH|]; rewrite flat_map_app, IH; f_equal.
  destruct (c =? u1 "v") eqn:E2; [vm_compute; reflexivity|]; cbn [flat_map]; rewrite E1, E2; reflexivity.
Qed.
Lemma strip_ok lower lines seg rs ps s l : steady lower -> new_segmenter lines = Ok seg -> rows lines rs -> two_columns rs ps ->
  segments (u "r" :: map snd ps) (standard lower s) l -> strip_tones lower seg s = Ok (concat (map fst l)).
Proof.
  intros St E R T S; unfold strip_tones; rewrite standard_normalize.
  rewrite (proj2 (segment_iff lower _ _ _ _ (standard lower s) l E R T)); [cbn [bind]; rewrite join_nil; reflexivity|].
  rewrite standard_twice by exact St; exact S.
Qed.

(* ------------------------------------------------------------------ *)
(** ** Tones *)
Lemma mem_vowel c : mem c vowels = true <-> vowel c.
Proof. unfold vowel; rewrite mem_In; change (map fst marks) with vowels; reflexivity. Qed.
Lemma vowel_cases c (P : char -> Prop) : vowel c -> Forall P vowels -> P c.
Proof. intros V F; rewrite Forall_forall in F; apply F; change vowels with (map fst marks); exact V. Qed.
Definition fix5 (z : Z) : Z := if z =? 5 then 0 else z.
Lemma tone_row z c : 0 <= z <= 5 -> vowel c -> exists row i,
  dget (fix5 z) tone_to_vowels = Some row /\ index_of c vowels = Some i /\ nth_error row i = Some (mark z c).
Proof.
  intros Z V.
  assert (Iz : In z [0; 1; 2; 3; 4; 5]) by (cbn [In]; lia).
  apply (vowel_cases c (fun c => exists row i, dget (fix5 z) tone_to_vowels = Some row /\ index_of c vowels = Some i /\ nth_error row i = Some (mark z c)) V).
  cbn [In] in Iz; change vowels with [97; 101; 105; 111; 117; 252] at 1.
  repeat (destruct Iz as [<-|Iz]; [repeat constructor; do 2 eexists; (split; [vm_compute; reflexivity|split; vm_compute; reflexivity])|]); destruct Iz.
Qed.
Lemma tone_loop_used z acc s : tone_loop z true acc s = Ok (acc ++ s).
Proof.
  revert acc; induction s as [|c s IH]; intros acc; cbn [tone_loop negb andb]; [rewrite app_nil_r; reflexivity|].
  rewrite IH, <- app_assoc; reflexivity.
Qed.
Lemma tone_loop_none z acc s : Forall (fun d => ~ vowel d) s -> tone_loop z false acc s = Ok (acc ++ s).
Proof.
  intros F; revert acc; induction F as [|c s N F IH]; intros acc; cbn [tone_loop negb andb]; [rewrite app_nil_r; reflexivity|].
  rewrite <- mem_vowel in N; destruct (mem c vowels); [congruence|]; rewrite IH, <- app_assoc; reflexivity.
Qed.
Lemma tone_loop_one z acc p v q : 0 <= z <= 5 -> Forall (fun d => ~ vowel d) p -> vowel v ->
  tone_loop (fix5 z) false acc (p ++ v :: q) = Ok (acc ++ p ++ mark z v :: q).
Proof.
  intros Z F V; revert acc; induction F as [|c p N F IH]; intros acc; cbn [app tone_loop negb andb].
  - rewrite (proj2 (mem_vowel v) V); destruct (tone_row z v Z V) as [row [i [D [I E]]]].
    unfold dgetitem; rewrite D; cbn [of_option bind]; rewrite I; cbn [of_option bind]; rewrite E; cbn [of_option bind].
    rewrite tone_loop_used, <- app_assoc; reflexivity.
  - rewrite <- mem_vowel in N; destruct (mem c vowels); [congruence|]; rewrite IH, <- app_assoc; reflexivity.
Qed.
Lemma first_vowel s : Forall (fun d => ~ vowel d) s \/ exists p v q, s = p ++ v :: q /\ Forall (fun d => ~ vowel d) p /\ vowel v.
Proof.
  induction s as [|c s IH]; [left; constructor|]; destruct (mem c vowels) eqn:M.
  - right; exists [], c, s; split; [reflexivity|split; [constructor|apply mem_vowel, M]].
  - assert (N : ~ vowel c) by (rewrite <- mem_vowel, M; discriminate).
    destruct IH as [F|[p [v [q [-> [F V]]]]]]; [left; constructor; assumption|].
    right; exists (c :: p), v, q; split; [reflexivity|split; [constructor; assumption|exact V]].
Qed.
Lemma apply_toned z w o : 0 <= z <= 5 -> toned z w o -> apply_tone w z = Ok o.
Proof.
  intros Z T; destruct T as [c r F|c p v q F V]; unfold apply_tone; change (if z =? 5 then 0 else z) with (fix5 z).
  - rewrite tone_loop_none by exact F; reflexivity.
  - rewrite tone_loop_one by assumption; reflexivity.
Qed.
Lemma toned_exists z w : w <> [] -> exists o, toned z w o.
Proof.
  destruct w as [|c r]; [congruence|]; intros _; destruct (first_vowel r) as [F|[p [v [q [-> [F V]]]]]].
  - exists (c :: r); constructor; exact F.
  - eexists; apply Toned_one; assumption.
Qed.
Lemma apply_iff z w o : 0 <= z <= 5 -> (apply_tone w z = Ok o <-> toned z w o).
Proof.
  intros Z; split; [|apply apply_toned, Z]; intros A.
  destruct w as [|c r]; [discriminate A|]; destruct (toned_exists z (c :: r)) as [o' T]; [discriminate|].
  rewrite (apply_toned z _ _ Z T) in A; congruence.
Qed.
Lemma mapM_toned l outs : Forall (fun p => 0 <= snd p <= 5) l -> Forall2 (fun p o => toned (snd p) (fst p) o) l outs ->
  mapM (fun pt => apply_tone (fst pt) (snd pt)) l = Ok outs.
Proof.
  intros F T; induction T as [|p o l outs T1 T IH]; [reflexivity|]; inversion F; subst; cbn [mapM].
  rewrite (apply_toned (snd p) (fst p) o) by assumption; cbn [bind]; rewrite IH by assumption; reflexivity.
Qed.
Lemma segments_tones syls s l : segments syls s l -> Forall (fun p => 0 <= snd p <= 5) l.
Proof.
  intros A; induction A as [|w t z r l LG T A IH| |]; try (constructor; fail); try exact IHA.
  - constructor; [|exact IH]; cbn [snd]; destruct T; lia.
  - constructor; [cbn [snd]; lia|exact IHA].
Qed.
Lemma from_ascii_ok lower lines seg rs ps s l outs : steady lower -> new_segmenter lines = Ok seg -> rows lines rs -> two_columns rs ps ->
  segments (u "r" :: map snd ps) (standard lower s) l -> Forall2 (fun p o => toned (snd p) (fst p) o) l outs ->
  from_ascii lower seg s = Ok (concat outs).
Proof.
  intros St E R T S F; unfold from_ascii; rewrite standard_normalize.
  rewrite (proj2 (segment_iff lower _ _ _ _ (standard lower s) l E R T)) by (rewrite standard_twice by exact St; exact S).
  cbn [bind]; rewrite (mapM_toned l outs); [cbn [bind]; rewrite join_nil; reflexivity|eapply segments_tones; exact S|exact F].
Qed.

(** marks *)
Lemma unmark_mark z v : 0 <= z <= 5 -> vowel v -> unmark (mark z v) = v /\ unmark v = v /\ marked v = false /\
  (1 <= z <= 4 -> marked (mark z v) = true).
Proof.
  intros Z V; assert (Iz : In z [0; 1; 2; 3; 4; 5]) by (cbn [In]; lia).
  apply (vowel_cases v (fun v => unmark (mark z v) = v /\ unmark v = v /\ marked v = false /\ (1 <= z <= 4 -> marked (mark z v) = true)) V).
  cbn [In] in Iz; change vowels with [97; 101; 105; 111; 117; 252].
  repeat (destruct Iz as [<-|Iz]; [repeat constructor; repeat split; try (vm_compute; reflexivity); intros [H1 H2]; try lia; vm_compute; reflexivity|]); destruct Iz.
Qed.
Lemma mark_inj z z' v : 1 <= z <= 4 -> 1 <= z' <= 4 -> vowel v -> mark z v = mark z' v -> z = z'.
Proof.
  intros Z Z' V; assert (Iz : In z [1; 2; 3; 4]) by (cbn [In]; lia); assert (Iz' : In z' [1; 2; 3; 4]) by (cbn [In]; lia).
  apply (vowel_cases v (fun v => mark z v = mark z' v -> z = z') V).
  cbn [In] in Iz, Iz'; change vowels with [97; 101; 105; 111; 117; 252].
  repeat (destruct Iz as [<-|Iz]; [repeat (destruct Iz' as [<-|Iz']; [repeat constructor; vm_compute; congruence|]); destruct Iz'|]); destruct Iz.
Qed.
Lemma unmark_flat w : flat w -> map unmark w = w.
Proof.
  intros F; induction F as [|c w M F IH]; [reflexivity|]; cbn [map]; rewrite IH; f_equal.
  unfold marked, unmark in *; destruct (find _ marks) as [e|] eqn:E; [|reflexivity].
  apply find_some in E; destruct E as [I X]; assert (existsb (fun e => mem c (snd e)) marks = true) by (apply existsb_exists; exists e; split; assumption); congruence.
Qed.
Lemma filter_flat w : flat w -> filter marked w = [].
Proof. intros F; induction F as [|c w M F IH]; [reflexivity|]; cbn [filter]; rewrite M; exact IH. Qed.
Lemma toned_facts z w o : 0 <= z <= 5 -> toned z w o -> flat w ->
  one_change w o /\ map unmark o = w /\
  (1 <= z <= 4 -> length (filter marked o) = if existsb (fun c => mem c (map fst marks)) (tl w) then 1%nat else 0%nat).
Proof.
  intros Z T F; destruct T as [c r N|c p v q N V].
  - split; [left; reflexivity|split; [apply unmark_flat, F|]]; intros _; rewrite filter_flat by exact F; cbn [tl length].
    destruct (existsb _ r) eqn:E; [|reflexivity]; apply existsb_exists in E; destruct E as [x [I M]]; rewrite Forall_forall in N.
    elim (N x I); apply mem_In, M.
  - destruct (unmark_mark z v Z V) as [U [U' [M MM]]]; split; [|split].
    + right; exists (c :: p), v, (mark z v), q; split; reflexivity.
    + transitivity (map unmark (c :: p ++ v :: q)); [|apply unmark_flat, F]; cbn [map]; rewrite !map_app; cbn [map]; rewrite U, U'; reflexivity.
    + intros Z'; cbn [tl]; rewrite existsb_app; cbn [existsb].
      replace (mem v (map fst marks)) with true by (symmetry; apply mem_In, V); rewrite orb_true_l, orb_true_r.
      inversion F as [|? ? Fc Fr]; subst; unfold flat in *; apply Forall_app in Fr; destruct Fr as [Fp Fq]; inversion Fq; subst.
      cbn [filter]; rewrite Fc, filter_app; cbn [filter]; rewrite (MM Z'), !filter_flat by assumption; reflexivity.
Qed.
Lemma toned_vowel z w o z' o' : 1 <= z <= 4 -> 1 <= z' <= 4 -> toned z w o -> toned z' w o' ->
  (exists v, In v (tl w) /\ vowel v) -> o = o' -> z = z'.
Proof.
  intros Z Z' T T' [v [I V]] E; destruct T as [c r N|c p x q N X].
  - cbn [tl] in I; rewrite Forall_forall in N; elim (N v I V).
  - remember (c :: p ++ x :: q) as w eqn:W; destruct T' as [c' r' N'|c' p' x' q' N' X'].
    + injection W as -> ->; rewrite Forall_forall in N'; elim (N' x); [apply in_or_app; right; left; reflexivity|exact X].
    + injection W as -> W.
      assert (L : length p = length p').
      { clear -W N N' X X'; revert p' N' W; induction N as [|d p Nd N IH]; intros p' N' W; destruct N' as [|d' p' Nd' N']; cbn [app] in W; injection W as W1 W2; subst.
        - reflexivity.
        - contradiction.
        - contradiction.
        - cbn [length]; f_equal; exact (IH p' N' W2). }
      symmetry in W; destruct (app_same_length _ _ _ _ W L) as [-> W']; injection W' as -> ->.
      injection E as E; apply app_inv_head in E; injection E as E; exact (mark_inj z z' x' Z Z' X E).
Qed.

(* ------------------------------------------------------------------ *)
(** ** is_pinyin *)
Lemma star_never f n k s : (forall t, k t <> None) -> star f false (S n) k s <> None.
Proof. intros K; cbn [star]; match goal with |- match ?x with _ => _ end <> _ => destruct x end; [discriminate|apply K]. Qed.
Lemma is_pinyin_iff lower lines seg rs ps s : new_segmenter lines = Ok seg -> rows lines rs -> two_columns rs ps ->
  (is_pinyin lower seg s = true <-> exists w, In w (u "#" :: u "r" :: map snd ps) /\ prefix w (standard lower s)).
Proof.
  intros E R T; destruct (new_segmenter_inv _ _ E) as [syls [G ->]].
  pose proof (all_pinyin_ok _ _ _ R T) as G'; rewrite G in G'; injection G' as ->.
  set (syls := u "r" :: map snd ps) in *; unfold is_pinyin, match_; rewrite standard_normalize; set (n := standard lower s).
  change (mtch (Plus (base_pattern syls)) Some (start n)) with (mtch (base_pattern syls) (mtch (Star (base_pattern syls)) Some) (mkpos [] n [])).
  assert (K : forall t, mtch (Star (base_pattern syls)) Some t <> None) by (intros t; apply star_never; discriminate).
  rewrite mtch_base; [|discriminate|exact K].
  destruct (first_in (sorted_len syls) n) as [[w r]|] eqn:F.
  - destruct (first_in_longest _ _ _ _ (sorted_desc syls) F) as [[I [P _]] _]; destruct (take_tone r) as [t q].
    destruct (mtch _ _ _) eqn:M; [|elim (K _ M)]; split; [intros _|reflexivity]; exists w; split; [right; apply sorted_In, I|exact P].
  - apply first_in_None in F.
    assert (NS : forall w, In w syls -> ~ prefix w n) by (intros w I; apply F, sorted_In, I).
    destruct n as [|c q].
    + split; [discriminate|]; intros [w [[<-|I] P]]; [destruct P as [r X]; discriminate X|elim (NS w I P)].
    + destruct (Z.eqb_spec c (u1 "#")) as [->|Nc].
      * destruct (mtch _ _ _) eqn:M; [|elim (K _ M)]; split; [intros _|reflexivity]; exists (u "#"); split; [left; reflexivity|exists q; reflexivity].
      * split; [discriminate|]; intros [w [[<-|I] P]]; [destruct P as [r X]; injection X as X _; elim (Nc X)|elim (NS w I P)].
Qed.
Lemma pinyin_text_prefix syls s : pinyin_text syls s -> s <> [] -> exists w, In w syls /\ prefix w s.
Proof. intros P N; destruct P as [|w s I P|w z s I Z P]; [congruence| |]; (exists w; split; [exact I|eexists; reflexivity]). Qed.
Lemma is_pinyin_text lower lines seg rs ps s : new_segmenter lines = Ok seg -> rows lines rs -> two_columns rs ps ->
  pinyin_text (u "r" :: map snd ps) (standard lower s) -> standard lower s <> [] -> is_pinyin lower seg s = true.
Proof.
  intros E R T P N; apply (is_pinyin_iff lower _ _ _ _ s E R T); destruct (pinyin_text_prefix _ _ P N) as [w [I Q]].
  exists w; split; [right; exact I|exact Q].
Qed.

(* ------------------------------------------------------------------ *)
(** ** The table of readings *)
Lemma load_ok lines rs es t : rows lines rs -> entries_of rs es ->
  load_table lines t = Ok (fold_left (fun d e => dset (fst e) (snd e) d) es t).
Proof.
  intros R; revert es t; induction R as [|line lines rs C R IH|line lines ws rs C W R IH]; intros es t E; cbn [load_table].
  - destruct es; [reflexivity|discriminate E].
  - apply starts_hash_spec in C; rewrite C; apply IH, E.
  - rewrite <- starts_hash_spec in C; destruct (starts_hash line); [congruence|].
    rewrite (words_unique _ _ _ (split_rstrip line) W); destruct es as [|[h r] es]; [discriminate E|].
    unfold entries_of in E; cbn [map fst snd] in E; injection E as -> E; cbn [fold_left fst snd]; apply IH, E.
Qed.
Lemma load_blank lines rs t : rows lines rs -> In [] rs -> load_table lines t = Raise IndexError.
Proof.
  intros R; revert t; induction R as [|line lines rs C R IH|line lines ws rs C W R IH]; intros t I; cbn [load_table].
  - destruct I.
  - apply starts_hash_spec in C; rewrite C; apply IH, I.
  - rewrite <- starts_hash_spec in C; destruct (starts_hash line); [congruence|].
    rewrite (words_unique _ _ _ (split_rstrip line) W); destruct ws as [|h r]; [reflexivity|]; destruct I as [X|I]; [discriminate X|apply IH, I].
Qed.
Lemma entries_dec rs : (exists es, entries_of rs es) \/ In [] rs.
Proof.
  unfold entries_of; induction rs as [|r rs [[es ->]|I]]; [left; exists []; reflexivity| |right; right; exact I].
  destruct r as [|h r]; [right; left; reflexivity|left; exists ((h, r) :: es); reflexivity].
Qed.
Lemma load_get lines rs es d : rows lines rs -> entries_of rs es -> load_table lines [] = Ok d ->
  forall k, dget k d = dget k (rev es).
Proof.
  intros R E L k; rewrite (load_ok _ _ _ _ R E) in L; injection L as <-.
  rewrite (fold_dset_get fst snd).
  replace (map (fun p : str * list str => (fst p, snd p)) es) with es by (clear; induction es as [|[a b] es IH]; cbn [map fst snd]; congruence).
  destruct (dget k (rev es)); reflexivity.
Qed.
Lemma reading_get es d c r : (forall k, dget k d = dget k (rev es)) -> reading es c r ->
  nth_error (match dget [c] d with Some r => r | None => [[c]] end) 0 = Some r.
Proof.
  intros G R; rewrite G; destruct R as [r rs L|N].
  - apply dget_rev_last in L; rewrite L; reflexivity.
  - apply dget_rev_none in N; rewrite N; reflexivity.
Qed.
Lemma hanzi_raw lower seg lines rs es d s readings : rows lines rs -> entries_of rs es -> load_table lines [] = Ok d ->
  Forall2 (reading es) s readings -> from_hanzi lower seg d s false true = Ok (concat readings).
Proof.
  intros R E L F; pose proof (load_get _ _ _ _ R E L) as G; unfold from_hanzi; cbn [negb].
  assert (M : mapM (fun c => do r <- of_option IndexError (nth_error (match dget [c] d with Some r => r | None => [[c]] end) 0); Ok r) s = Ok readings).
  { induction F as [|c r s readings H F IH]; [reflexivity|]; cbn [mapM]; rewrite (reading_get _ _ _ _ G H); cbn [of_option bind]; rewrite IH; reflexivity. }
  cbn [mapM] in *; rewrite M; cbn [bind]; rewrite join_nil; reflexivity.
Qed.
Lemma hanzi_inline lower seg tlines trs ps lines rs es d s ls outs : steady lower ->
  new_segmenter tlines = Ok seg -> rows tlines trs -> two_columns trs ps ->
  rows lines rs -> entries_of rs es -> load_table lines [] = Ok d ->
  Forall2 (fun c l => exists r, reading es c r /\ segments (u "r" :: map snd ps) (standard lower r) l) s ls ->
  Forall2 (fun p o => toned (snd p) (fst p) o) (concat ls) outs ->
  from_hanzi lower seg d s true true = Ok (concat outs).
Proof.
  intros St E TR T R Es L F; pose proof (load_get _ _ _ _ R Es L) as G; revert outs; unfold from_hanzi.
  assert (M : forall outs, Forall2 (fun p o => toned (snd p) (fst p) o) (concat ls) outs -> exists os,
    mapM (fun c => do r <- of_option IndexError (nth_error (match dget [c] d with Some r => r | None => [[c]] end) 0); from_ascii lower seg r) s = Ok os /\ concat os = concat outs).
  { induction F as [|c l s ls [r [H S]] F IH]; intros outs O; cbn [concat] in O.
    - inversion O; subst; exists []; split; reflexivity.
    - apply Forall2_app_inv_l in O; destruct O as [o1 [o2 [O1 [O2 ->]]]]; destruct (IH o2 O2) as [os [M C]].
      exists (concat o1 :: os); split; [|cbn [concat]; rewrite C, concat_app; reflexivity].
      cbn [mapM]; rewrite (reading_get _ _ _ _ G H); cbn [of_option bind].
      rewrite (from_ascii_ok lower _ _ _ _ r l o1 St E TR T S O1); cbn [bind]; rewrite M; reflexivity. }
  intros outs O; destruct (M outs O) as [os [M1 C]]; rewrite M1; cbn [bind]; rewrite join_nil, C; reflexivity.
Qed.
Lemma hanzi_plain lower seg tlines trs ps lines rs es d s ls inline : steady lower ->
  new_segmenter tlines = Ok seg -> rows tlines trs -> two_columns trs ps ->
  rows lines rs -> entries_of rs es -> load_table lines [] = Ok d ->
  Forall2 (fun c l => exists r, reading es c r /\ segments (u "r" :: map snd ps) (standard lower r) l) s ls ->
  from_hanzi lower seg d s inline false = Ok (concat (map fst (concat ls))).
Proof.
  intros St E TR T R Es L F; pose proof (load_get _ _ _ _ R Es L) as G; unfold from_hanzi; cbn [negb].
  assert (M : mapM (fun c => do r <- of_option IndexError (nth_error (match dget [c] d with Some r => r | None => [[c]] end) 0); strip_tones lower seg r) s = Ok (map (fun l => concat (map fst l)) ls)).
  { induction F as [|c l s ls [r [H S]] F IH]; [reflexivity|].
    cbn [mapM map]; rewrite (reading_get _ _ _ _ G H); cbn [of_option bind].
    rewrite (strip_ok lower _ _ _ _ r l St E TR T S); cbn [bind]; rewrite IH; reflexivity. }
  rewrite M; cbn [bind]; rewrite join_nil; f_equal; clear.
  induction ls as [|l ls IH]; [reflexivity|]; cbn [map concat]; rewrite map_app, concat_app, IH; reflexivity.
Qed.

(* ------------------------------------------------------------------ *)
(** ** The text of the pattern *)
Lemma insert_perm w l : Permutation (insert_len w l) (w :: l).
Proof.
  induction l as [|x l IH]; cbn [insert_len]; [reflexivity|]; destruct (_ <=? _)%nat; [reflexivity|].
  rewrite IH; constructor.
Qed.
Lemma sorted_perm l : Permutation (sorted_len l) l.
Proof. unfold sorted_len; induction l as [|w l IH]; [reflexivity|]; cbn [fold_right]; rewrite insert_perm, IH; reflexivity. Qed.
Lemma desc_sorted l : desc l -> StronglySorted (fun v w => (length w <= length v)%nat) l.
Proof. intros D; induction D; constructor; assumption. Qed.
Lemma pattern_text lines rs ps : rows lines rs -> two_columns rs ps -> exists l,
  pinyin_regex_pattern lines = Ok (u "(" ++ join (u "|") l ++ u ")([0-5]?)") /\ Permutation l (u "r" :: map snd ps) /\ StronglySorted (fun v w => (length w <= length v)%nat) l.
Proof.
  intros R T; unfold pinyin_regex_pattern; rewrite (all_pinyin_ok _ _ _ R T); cbn [bind]; eexists; split; [reflexivity|].
  split; [apply sorted_perm|apply desc_sorted, sorted_desc].
Qed.

(* ------------------------------------------------------------------ *)
(** ** Refutations and corollaries *)
Definition ascii_lower (s : str) : str := map (fun c => if (65 <=? c) && (c <=? 90) then c + 32 else c) s.
Lemma ascii_lower_steady : steady ascii_lower.
Proof.
  intros s; unfold standard; induction (ascii_lower s) as [|c l IH] eqn:E in s |- *; [reflexivity|].
  destruct s as [|d s]; [discriminate|]; cbn [ascii_lower map] in E; injection E as E1 E2; fold (ascii_lower s) in E2; specialize (IH s E2).
  cbn [flat_map]; destruct (c =? u1 " "); [exact IH|]; unfold ascii_lower; rewrite map_app; fold ascii_lower.
  change (map (fun c0 => if (65 <=? c0) && (c0 <=? 90) then c0 + 32 else c0)) with ascii_lower; rewrite IH; f_equal.
  destruct (c =? u1 "v"); [vm_compute; reflexivity|]; cbn [ascii_lower map]; f_equal.
  assert (~ (65 <= c <= 90)) as N.
  { destruct ((65 <=? d) && (d <=? 90)) eqn:D; [apply andb_prop in D; destruct D as [D1 D2]; apply Z.leb_le in D1, D2; lia|].
    apply andb_false_iff in D; destruct D as [D|D]; apply Z.leb_gt in D; lia. }
  destruct ((65 <=? c) && (c <=? 90)) eqn:D; [|reflexivity]; apply andb_prop in D; destruct D as [D1 D2]; apply Z.leb_le in D1, D2; lia.
Qed.
Lemma from_ascii_syllable lower lines seg rs ps s w z : steady lower -> new_segmenter lines = Ok seg -> rows lines rs -> two_columns rs ps ->
  Forall no_digit (map snd ps) -> In w (u "r" :: map snd ps) -> flat w -> 0 <= z <= 5 -> standard lower s = w ++ [48 + z] ->
  exists o, from_ascii lower seg s = Ok o /\ toned z (spoken w) o /\ one_change (spoken w) o /\ map unmark o = spoken w /\
    (1 <= z <= 4 -> length (filter marked o) = if existsb (fun c => mem c (map fst marks)) (tl (spoken w)) then 1%nat else 0%nat).
Proof.
  intros St E R T N I F Z S.
  assert (W : w <> []) by (eapply all_pinyin_nonempty; [eapply all_pinyin_ok; eassumption|exact I]).
  assert (WS : spoken w <> [] /\ flat (spoken w)).
  { unfold spoken; destruct (eqb w (u "r")); [split; [discriminate|repeat constructor]|split; assumption]. }
  destruct WS as [WS FS]; destruct (toned_exists z (spoken w) WS) as [o To]; exists o.
  destruct (toned_facts z _ _ Z To FS) as [A [B C]]; split; [|split; [exact To|split; [exact A|split; [exact B|exact C]]]].
  rewrite (from_ascii_ok lower _ _ _ _ s [(spoken w, z)] [o] St E R T); [cbn [concat]; rewrite app_nil_r; reflexivity| |constructor; [exact To|constructor]].
  rewrite S; replace (w ++ [48 + z]) with (numbered [(w, z)]) by (cbn [numbered flat_map fst snd]; rewrite app_nil_r; reflexivity).
  apply (numbered_segments _ [(w, z)]).
  - constructor; [|exact N]; intros c [<-|[]]; vm_compute; intros [_ H]; apply H; reflexivity.
  - constructor; [split; assumption|constructor].
Qed.

Definition tab (l : list str) : list str := map (fun p => u "ㄅ " ++ p) l.
Definition seg_of (l : list str) : re := base_pattern (u "r" :: l).
Lemma ma_table : new_segmenter (tab [u "ma"; u "a"]) = Ok (seg_of [u "ma"; u "a"]).
Proof. vm_compute; reflexivity. Qed.
Lemma claimed_nonempty syls s l : (forall w, In w syls -> w <> []) -> claimed syls s l -> Forall (fun p => fst p <> []) l.
Proof.
  intros NE C; induction C as [|w t z r l LG T C IH|c s l N C IH]; [constructor| |exact IH].
  constructor; [|exact IH]; cbn [fst]; unfold spoken; destruct (eqb w (u "r")); [discriminate|apply NE, LG].
Qed.
Lemma hash_counts : ~ forall lower lines seg rs ps s l, new_segmenter lines = Ok seg -> rows lines rs -> two_columns rs ps ->
  segment_pinyin lower seg s = Ok l -> claimed (u "r" :: map snd ps) (standard lower s) l.
Proof.
  intros H; specialize (H (fun s => s) (tab [u "ma"; u "a"]) _ _ [(u "ㄅ", u "ma"); (u "ㄅ", u "a")] (u "#") [([], 0)] ma_table (parse_rows _)).
  assert (C : claimed (u "r" :: map snd [(u "ㄅ", u "ma"); (u "ㄅ", u "a")]) (standard (fun s => s) (u "#")) [([], 0)]).
  { apply H; [vm_compute; reflexivity|vm_compute; reflexivity]. }
  apply claimed_nonempty in C; [inversion C as [|? ? X ?]; elim X; reflexivity|].
  intros w [<-|[<-|[<-|[]]]]; discriminate.
Qed.
Lemma tone_lost : ~ forall lower lines seg rs ps w z s o, steady lower -> new_segmenter lines = Ok seg -> rows lines rs -> two_columns rs ps ->
  In w (map snd ps) -> (exists v, In v w /\ vowel v) -> 1 <= z <= 4 -> standard lower s = w ++ [48 + z] ->
  from_ascii lower seg s = Ok o -> length (filter marked o) = 1%nat.
Proof.
  intros H; specialize (H ascii_lower (tab [u "ma"; u "a"]) _ _ [(u "ㄅ", u "ma"); (u "ㄅ", u "a")] (u "a") 1 (u "a1") (u "a") ascii_lower_steady ma_table (parse_rows _)).
  cut (length (filter marked (u "a")) = 1%nat); [vm_compute; discriminate|].
  apply H; [vm_compute; reflexivity|right; left; reflexivity|exists (u1 "a"); split; left; reflexivity|lia|vm_compute; reflexivity|vm_compute; reflexivity].
Qed.
Lemma prefix_only : ~ forall lower lines seg rs ps s, new_segmenter lines = Ok seg -> rows lines rs -> two_columns rs ps ->
  is_pinyin lower seg s = true -> pinyin_text (u "r" :: map snd ps) (standard lower s).
Proof.
  intros H; specialize (H (fun s => s) (tab [u "ma"; u "a"]) _ _ [(u "ㄅ", u "ma"); (u "ㄅ", u "a")] (u "ma1!") ma_table (parse_rows _)).
  assert (C : pinyin_text (u "r" :: map snd [(u "ㄅ", u "ma"); (u "ㄅ", u "a")]) (u "ma1!")).
  { apply H; [vm_compute; reflexivity|vm_compute; reflexivity]. }
  assert (L : forall s, pinyin_text (u "r" :: map snd [(u "ㄅ", u "ma"); (u "ㄅ", u "a")]) s -> ~ In (u1 "!") s).
  { intros s P; induction P as [|w s I P IH|w z s I Z P IH]; [intros []| |]; rewrite in_app_iff; (intros [J|J]; [|try exact (IH J)]).
    - destruct I as [<-|[<-|[<-|[]]]]; cbn [map snd] in J; vm_compute in J; intuition discriminate.
    - destruct I as [<-|[<-|[<-|[]]]]; cbn [map snd] in J; vm_compute in J; intuition discriminate.
    - destruct J as [J|J]; [change (u1 "!") with 33 in J; lia|exact (IH J)]. }
  apply (L _ C); vm_compute; tauto.
Qed.
Lemma empty_not_pinyin lower lines seg : new_segmenter lines = Ok seg -> is_pinyin lower seg [] = true -> lower [] <> [].
Proof.
  intros E H; destruct (new_segmenter_inv _ _ E) as [syls [G ->]]; destruct (all_pinyin_rows _ _ G) as [rs [ps [R [T ->]]]].
  apply (is_pinyin_iff lower _ _ _ _ [] E R T) in H; destruct H as [w [I P]]; intros X; unfold standard in P; rewrite X in P; cbn [flat_map] in P.
  destruct P as [r P]; symmetry in P; apply app_eq_nil in P; destruct P as [-> _]; destruct I as [I|I]; [discriminate I|].
  elim (all_pinyin_nonempty _ _ [] G I); reflexivity.
Qed.
Definition ni_table : dict str (list str) := [(u "吗", [u "ma1"])].
Lemma ni_load : load_table [u "吗 ma1"] [] = Ok ni_table.
Proof. vm_compute; reflexivity. Qed.
Lemma text_lost : ~ forall lower lines seg tlines d s c o, steady lower -> new_segmenter lines = Ok seg -> load_table tlines [] = Ok d ->
  dget [c] d = None -> In c s -> from_hanzi lower seg d s true true = Ok o -> In c o.
Proof.
  intros H; specialize (H ascii_lower (tab [u "ma"; u "a"]) _ [u "吗 ma1"] ni_table (u "吗!") (u1 "!") (u "mā") ascii_lower_steady ma_table ni_load).
  cut (In (u1 "!") (u "mā")); [vm_compute; intuition discriminate|].
  apply H; [vm_compute; reflexivity|right; left; reflexivity|vm_compute; reflexivity].
Qed.
Lemma hash_fails : exists lower lines seg tlines d, steady lower /\ new_segmenter lines = Ok seg /\ load_table tlines [] = Ok d /\
    from_hanzi lower seg d (u "吗#") true true = Raise IndexError.
Proof.
  exists ascii_lower, (tab [u "ma"; u "a"]), (seg_of [u "ma"; u "a"]), [u "吗 ma1"], ni_table.
  split; [exact ascii_lower_steady|split; [exact ma_table|split; [exact ni_load|vm_compute; reflexivity]]].
Qed.
Lemma strip_numbered lower lines seg rs ps s l : steady lower -> new_segmenter lines = Ok seg -> rows lines rs -> two_columns rs ps ->
  Forall no_digit (map snd ps) -> Forall (fun p => In (fst p) (u "r" :: map snd ps) /\ 0 <= snd p <= 5) l ->
  standard lower s = numbered l -> strip_tones lower seg s = Ok (concat (map (fun p => spoken (fst p)) l)).
Proof.
  intros St E R T N F S; rewrite (strip_ok lower _ _ _ _ s (map (fun p => (spoken (fst p), snd p)) l) St E R T).
  - rewrite map_map; reflexivity.
  - apply (segment_iff lower _ _ _ _ s _ E R T), (segment_numbered lower lines seg rs ps s l); assumption.
Qed.
Lemma load_last lines rs es : rows lines rs -> entries_of rs es -> exists d, load_table lines [] = Ok d /\
  forall h r, dget h d = Some r <-> last_for es h r.
Proof.
  intros R E; pose proof (load_ok _ _ _ [] R E) as L; eexists; split; [exact L|]; intros h r.
  rewrite (load_get _ _ _ _ R E L); apply dget_rev_last.
Qed.
Lemma load_fails lines rs : rows lines rs -> (forall es, ~ entries_of rs es) -> load_table lines [] = Raise IndexError.
Proof.
  intros R N; apply (load_blank lines rs); [exact R|]; destruct (entries_dec rs) as [[es E]|I]; [elim (N es E)|exact I].
Qed.
