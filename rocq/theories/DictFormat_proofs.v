(* DictFormat_proofs.v *)
From Verif Require Import Base PyStr Maps_model Maps_proofs Bilingual_model Bilingual_spec Bilingual_proofs Regex DictFormat_model DictFormat_spec.

(* ---------------- small facts ---------------- *)
Lemma no_spaces_spaceless s : no_spaces s = spaceless s. Proof. reflexivity. Qed.
Lemma spaceless_id s : ~ In 32 s -> spaceless s = s.
Proof.
  induction s as [|c s IH]; intros N; cbn [spaceless filter]; [reflexivity|].
  destruct (Z.eqb_spec c 32) as [->|M]; [exfalso; apply N; left; reflexivity|]; cbn [negb].
  f_equal; apply IH; intros I; apply N; right; exact I.
Qed.
Lemma spaceless_idem s : spaceless (spaceless s) = spaceless s.
Proof. apply spaceless_id; intros I; apply filter_In in I; destruct I as [_ I]; discriminate I. Qed.
Lemma free_notc cs s c : free cs s -> In c cs -> forallb (notc c) s = true.
Proof. intros F I; apply forallb_notc, F, I. Qed.
Lemma free_in cs s c : free cs s -> In c cs -> ~ In c s. Proof. intros F I; apply F, I. Qed.

Lemma mtch_seq a b k s : mtch (Seq a b) k s = mtch a (mtch b k) s. Proof. reflexivity. Qed.
Lemma mtch_bol k l cs : mtch Bol k (mkpos [] l cs) = k (mkpos [] l cs). Proof. reflexivity. Qed.
Lemma mtch_isc c k b q cs : mtch (Chr (isc c)) k (mkpos b (c :: q) cs) = k (mkpos (c :: b) q cs).
Proof. cbn [mtch rest before caps]; unfold isc; rewrite Z.eqb_refl; reflexivity. Qed.
Lemma mtch_opt r k s : mtch (Opt r) k s = match mtch r k s with Some x => Some x | None => k s end.
Proof. reflexivity. Qed.
Lemma mtch_eol_nl k b nl cs : mtch Eol k (mkpos b (newline nl) cs) = k (mkpos b (newline nl) cs).
Proof. destruct nl; reflexivity. Qed.
Lemma isc_notc c d : notc c d = true -> isc c d = false.
Proof. unfold notc, isc; rewrite negb_true_iff; exact (fun H => H). Qed.
Lemma fails_isc c k : fails_on (notc c) (mtch (Chr (isc c)) k).
Proof. apply fails_chr, isc_notc. Qed.
Lemma fails_lit c w k : fails_on (notc c) (mtch (Lit (c :: w)) k).
Proof. intros t d q R P; cbn [Lit mtch]; rewrite R; apply notc_true in P; replace (d =? c) with false by (symmetry; apply Z.eqb_neq; exact P); reflexivity. Qed.
Lemma fails_dot_eol k : fails_on dot (mtch Eol k).
Proof. apply fails_eol; intros c H; apply notc_true in H; exact H. Qed.

(* ---------------- finditer ---------------- *)
Lemma scan_hit n r b l m : mtch r Some (mkpos b l []) = Some m -> (length (rest m) < length l)%nat ->
  scan (S n) r b l = (mkpos b l [], m) :: scan n r (before m) (rest m).
Proof. intros M L; cbn [scan]; rewrite M; apply Nat.ltb_lt in L; rewrite L; reflexivity. Qed.
Lemma scan_nil n r b : mtch r Some (mkpos b [] []) = None -> scan (S n) r b [] = [].
Proof. intros M; cbn [scan]; rewrite M; reflexivity. Qed.

Lemma slash_head ss closed : match slashes ss closed with c :: _ => notc (u1 "/") c = false | [] => True end.
Proof. destruct ss as [|s ss]; [destruct closed; [reflexivity|exact I]|reflexivity]. Qed.
Lemma slash_scan ss closed : Forall (item (u "/")) ss -> forall n b, (length (slashes ss closed) < n)%nat ->
  map sense_of (scan n (sense_pattern edict) b (slashes ss closed)) = ss.
Proof.
  intros F; induction F as [|s ss [N Fs] F IH]; intros n b L; (destruct n as [|n]; [lia|]).
  - destruct closed; [|reflexivity]; destruct n as [|n]; [cbn in L; lia|reflexivity].
  - change (slashes (s :: ss) closed) with (u1 "/" :: (s ++ concat (map (fun s => u "/" ++ s) ss)) ++ (if closed then u "/" else [])) in *.
    rewrite <- app_assoc in *; fold (slashes ss closed) in *.
    assert (M : mtch (sense_pattern edict) Some (mkpos b (u1 "/" :: s ++ slashes ss closed) []) =
      Some (mkpos (rev s ++ u1 "/" :: b) (slashes ss closed) [(u "sense", s)])).
    { cbn [sense_pattern edict Seqs]; rewrite mtch_seq, mtch_isc; apply mtch_grp_plus_longest.
      - exact N.
      - apply (free_notc (u "/")); [exact Fs|left; reflexivity].
      - apply slash_head.
      - reflexivity. }
    rewrite (scan_hit _ _ _ _ _ M) by (cbn [rest length]; rewrite app_length; lia).
    cbn [map before rest]; f_equal; apply IH; cbn [length] in L; rewrite app_length in L; lia.
Qed.
Lemma slash_find ss closed : Forall (item (u "/")) ss ->
  map sense_of (finditer (sense_pattern edict) (slashes ss closed)) = ss.
Proof. intros F; apply slash_scan; [exact F|lia]. Qed.
Lemma free_slashes ss closed cs c : Forall (item cs) ss -> In c cs -> c <> u1 "/" -> ~ In c (slashes ss closed).
Proof.
  intros F Ic Nc I; unfold slashes in I; apply in_app_iff in I; destruct I as [I|I].
  - apply in_concat in I; destruct I as [x [Ix I]]; apply in_map_iff in Ix; destruct Ix as [s [<- Is]].
    rewrite Forall_forall in F; destruct (F s Is) as [_ Fs]; destruct I as [I|I]; [apply Nc; symmetry; exact I|exact (Fs c Ic I)].
  - destruct closed; [destruct I as [I|[]]; apply Nc; symmetry; exact I|destruct I].
Qed.
Lemma item_sub cs cs' s : item cs s -> (forall c, In c cs' -> In c cs) -> item cs' s.
Proof. intros [N F] S; split; [exact N|intros c Ic; apply F, S, Ic]. Qed.
Lemma items_sub cs cs' ss : Forall (item cs) ss -> (forall c, In c cs' -> In c cs) -> Forall (item cs') ss.
Proof. intros F S; revert F; apply Forall_impl; intros s I; exact (item_sub cs cs' s I S). Qed.

(* ---------------- edict ---------------- *)
Ltac pat_step := rewrite mtch_seq.

Lemma senses_tail k b t nl cs : ~ In 10 t ->
  mtch (Grp (u "senses") (Star (Chr dot))) (mtch Eol k) (mkpos b (t ++ newline nl) cs) =
  k (mkpos (rev t ++ b) (newline nl) ((u "senses", t) :: cs)).
Proof.
  intros N; rewrite mtch_grp_star; [apply mtch_eol_nl| | |apply fails_dot_eol].
  - apply forallb_notc, N.
  - destruct nl; [reflexivity|exact I].
Qed.

Lemma edict_parse w reading ss closed nl :
  item (u " ") w -> (forall r, reading = Some r -> item (u "]") r) ->
  ss <> [] -> Forall (item (u "/" ++ [10])) ss ->
  parse_line edict (edict_line w reading ss closed nl) = Ok (w, ([reading_or w reading], ss)).
Proof.
  intros [Nw Fw] Hr Ns Fs; unfold parse_line, match_, start, edict_line.
  assert (T : ~ In 10 (slashes ss closed)) by (apply (free_slashes ss closed (u "/" ++ [10])); [exact Fs|right; left; reflexivity|discriminate]).
  assert (G : exists b, mtch (line_pattern edict) Some (mkpos []
     (w ++ u " " ++ match reading with Some r => u "[" ++ r ++ u "] " | None => [] end ++ slashes ss closed ++ newline nl) []) =
     Some (mkpos b (newline nl) ((u "senses", slashes ss closed) :: match reading with Some r => [(u "reading", r)] | None => [] end ++ [(u "word", w)]))).
  { cbn [line_pattern edict Seqs]; pat_step; rewrite mtch_bol; pat_step.
    rewrite mtch_grp_plus; [|exact Nw|apply (free_notc (u " ")); [exact Fw|left; reflexivity]|reflexivity|apply fails_isc].
    pat_step; change (u " " ++ ?x) with (u1 " " :: x); rewrite mtch_isc; pat_step; rewrite mtch_opt.
    destruct reading as [r|].
    - destruct (Hr r eq_refl) as [Nr Fr].
      change ((u "[" ++ r ++ u "] ") ++ ?x) with (u1 "[" :: (r ++ u "] ") ++ x); rewrite <- app_assoc.
      pat_step; rewrite mtch_isc; pat_step.
      rewrite mtch_grp_plus; [|exact Nr|apply (free_notc (u "]")); [exact Fr|left; reflexivity]|reflexivity|apply fails_lit].
      rewrite mtch_lit; pat_step; rewrite senses_tail by exact T; eexists; reflexivity.
    - destruct ss as [|s ss]; [congruence|].
      match goal with |- context [match ?m with Some x => Some x | None => _ end] => replace m with (@None pos) by reflexivity end.
      cbn [app]; pat_step; rewrite senses_tail by exact T; eexists; reflexivity. }
  destruct G as [b ->].
  replace (group (u "word") _) with (Some w) by (destruct reading; reflexivity).
  replace (group (u "senses") _) with (Some (slashes ss closed)) by (destruct reading; reflexivity).
  replace (group (u "reading") _) with reading by (destruct reading; reflexivity).
  rewrite slash_find by (apply (items_sub (u "/" ++ [10])); [exact Fs|intros c [<-|[]]; left; reflexivity]).
  rewrite !no_spaces_spaceless, (spaceless_id w) by (apply (free_in (u " ")); [exact Fw|left; reflexivity]).
  destruct ss as [|s ss]; [congruence|]; do 4 f_equal; destruct reading as [[|c r]|]; cbn [reading_or]; [|reflexivity|].
  - destruct (Hr [] eq_refl); congruence.
  - apply spaceless_id, (free_in (u " ")); [exact Fw|left; reflexivity].
Qed.

(* ---------------- cedict ---------------- *)
Lemma mtch_dot_last b t nl cs : ~ In 10 t ->
  mtch (Grp (u "senses") (Star (Chr dot))) Some (mkpos b (t ++ newline nl) cs) =
  Some (mkpos (rev t ++ b) (newline nl) ((u "senses", t) :: cs)).
Proof.
  intros N; apply mtch_grp_star_longest; [apply forallb_notc, N| |reflexivity]; destruct nl; [reflexivity|exact I].
Qed.
(** characters before the first slash are passed over *)
Lemma scan_miss n b c q : c <> u1 "/" -> scan (S n) (sense_pattern edict) b (c :: q) = scan n (sense_pattern edict) (c :: b) q.
Proof.
  intros N; cbn [scan]; cbn [sense_pattern edict Seqs]; rewrite mtch_seq; cbn [mtch rest].
  unfold isc at 1; replace (c =? u1 "/") with false by (symmetry; apply Z.eqb_neq; exact N); reflexivity.
Qed.
Lemma cedict_parse trad w reading gap ss closed nl :
  item (u " ") trad -> item (u " ") w -> (forall r, reading = Some r -> item (u "]") r) ->
  ss <> [] -> Forall (item (u "/" ++ [10])) ss ->
  parse_line cedict (cedict_line trad w reading gap ss closed nl) = Ok (w, ([reading_or w reading], ss)).
Proof.
  intros [Nt Ft] [Nw Fw] Hr Ns Fs; unfold parse_line, match_, start, cedict_line.
  set (g := if gap then u " " else []).
  assert (T : ~ In 10 (g ++ slashes ss closed)).
  { intros I; apply in_app_iff in I; destruct I as [I|I]; [subst g; destruct gap; [destruct I as [I|[]]; discriminate I|destruct I]|].
    revert I; apply (free_slashes ss closed (u "/" ++ [10])); [exact Fs|right; left; reflexivity|discriminate]. }
  assert (G : exists b, mtch (line_pattern cedict) Some (mkpos []
     (trad ++ u " " ++ w ++ u " " ++ match reading with Some r => u "[" ++ r ++ u "]" | None => [] end ++ g ++ slashes ss closed ++ newline nl) []) =
     Some (mkpos b (newline nl) ((u "senses", g ++ slashes ss closed) :: match reading with Some r => [(u "reading", r)] | None => [] end ++ [(u "word", w)]))).
  { cbn [line_pattern cedict Seqs]; pat_step; rewrite mtch_bol; pat_step.
    rewrite mtch_plus_app; [|exact Nt|apply (free_notc (u " ")); [exact Ft|left; reflexivity]|reflexivity|apply fails_isc].
    pat_step; change (u " " ++ ?x) with (u1 " " :: x); rewrite mtch_isc; pat_step.
    rewrite mtch_grp_plus; [|exact Nw|apply (free_notc (u " ")); [exact Fw|left; reflexivity]|reflexivity|apply fails_isc].
    pat_step; change (u " " ++ ?x) with (u1 " " :: x); rewrite mtch_isc; pat_step; rewrite mtch_opt.
    destruct reading as [r|].
    - destruct (Hr r eq_refl) as [Nr Fr].
      change ((u "[" ++ r ++ u "]") ++ ?x) with (u1 "[" :: (r ++ u "]") ++ x); rewrite <- app_assoc.
      pat_step; rewrite mtch_isc; pat_step.
      rewrite mtch_grp_plus; [|exact Nr|apply (free_notc (u "]")); [exact Fr|left; reflexivity]|reflexivity|apply fails_isc].
      change (u "]" ++ ?x) with (u1 "]" :: x); rewrite mtch_isc, (app_assoc g), mtch_dot_last by exact T; eexists; reflexivity.
    - cbn [app]; destruct ss as [|s ss]; [congruence|].
      match goal with |- context [match ?m with Some x => Some x | None => _ end] => replace m with (@None pos) by (subst g; destruct gap; reflexivity) end.
      rewrite (app_assoc g), mtch_dot_last by exact T; eexists; reflexivity. }
  destruct G as [b ->].
  replace (group (u "word") _) with (Some w) by (destruct reading; reflexivity).
  replace (group (u "senses") _) with (Some (g ++ slashes ss closed)) by (destruct reading; reflexivity).
  replace (group (u "reading") _) with reading by (destruct reading; reflexivity).
  replace (map sense_of (finditer (sense_pattern cedict) (g ++ slashes ss closed))) with ss.
  2:{ symmetry; change (sense_pattern cedict) with (sense_pattern edict); unfold finditer; subst g.
      assert (Fs' : Forall (item (u "/")) ss) by (apply (items_sub (u "/" ++ [10])); [exact Fs|intros c [<-|[]]; left; reflexivity]).
      destruct gap; [|apply slash_find, Fs'].
      cbn [app length]; change (u " " ++ ?x) with (u1 " " :: x); rewrite scan_miss by discriminate; apply slash_scan; [exact Fs'|cbn [length]; lia]. }
  rewrite !no_spaces_spaceless, (spaceless_id w) by (apply (free_in (u " ")); [exact Fw|left; reflexivity]).
  destruct ss as [|s ss]; [congruence|]; do 4 f_equal; destruct reading as [[|c r]|]; cbn [reading_or]; [|reflexivity|].
  - destruct (Hr [] eq_refl); congruence.
  - apply spaceless_id, (free_in (u " ")); [exact Fw|left; reflexivity].
Qed.

(* ---------------- jc_kdic ---------------- *)
Lemma separated_cons sep s ss closed : ss <> [] -> separated sep (s :: ss) closed = s ++ sep ++ separated sep ss closed.
Proof. destruct ss; [congruence|reflexivity]. Qed.
Lemma in_separated sep ss closed c : In c (separated sep ss closed) -> In c sep \/ exists s, In s ss /\ In c s.
Proof.
  induction ss as [|s ss IH]; [intros []|]; destruct ss as [|s' ss].
  - cbn [separated]; intros I; apply in_app_iff in I; destruct I as [I|I]; [right; exists s; split; [left; reflexivity|exact I]|].
    destruct closed; [left; exact I|destruct I].
  - rewrite separated_cons by discriminate; intros I; rewrite !in_app_iff in I; destruct I as [I|[I|I]]; [right; exists s; split; [left; reflexivity|exact I]|left; exact I|].
    destruct (IH I) as [J|[x [J1 J2]]]; [left; exact J|right; exists x; split; [right; exact J1|exact J2]].
Qed.

(** one sense and its separator; the last one may have none *)
Lemma sep_scan {A} pat sep (good : A -> Prop) (wr ca : A -> list Z) : forall xs closed,
  (forall b x q, good x -> (q = [] \/ exists q', q = sep ++ q') ->
     exists b', mtch pat Some (mkpos b (wr x ++ q) []) = Some (mkpos b' (match q with [] => [] | _ => skipn (length sep) q end) [(u "sense", ca x)])) ->
  (forall b, mtch pat Some (mkpos b [] []) = None) -> sep <> [] ->
  Forall (fun x => good x /\ wr x <> []) xs -> forall n b, (length (separated sep (map wr xs) closed) < n)%nat ->
  map sense_of (scan n pat b (separated sep (map wr xs) closed)) = map ca xs.
Proof.
  intros xs closed M E Ns F; induction F as [|x xs [G N] F IH]; intros n b L; (destruct n as [|n]; [lia|]).
  - cbn [map separated]; rewrite scan_nil by apply E; reflexivity.
  - assert (SK : forall q, skipn (length sep) (sep ++ q) = q) by (intros q; rewrite skipn_app, skipn_all, Nat.sub_diag; reflexivity).
    assert (LS : (0 < length (wr x))%nat) by (destruct (wr x); [congruence|cbn [length]; lia]).
    destruct xs as [|x' xs].
    + cbn [map separated] in *.
      destruct (M b x (if closed then sep else []) G) as [b' M'].
      { destruct closed; [right; exists []; rewrite app_nil_r; reflexivity|left; reflexivity]. }
      rewrite (scan_hit _ _ _ _ _ M'); cbn [rest before].
      * assert (X : match (if closed then sep else []) with [] => [] | _ :: _ => skipn (length sep) (if closed then sep else []) end = []).
        { destruct closed; [|reflexivity]; rewrite skipn_all; destruct sep; reflexivity. }
        rewrite X; cbn [map]; f_equal; destruct n as [|n]; [reflexivity|rewrite scan_nil by apply E; reflexivity].
      * rewrite app_length; destruct closed; cbn [length]; [|lia]; rewrite skipn_all; destruct sep; cbn [length]; lia.
    + set (xs' := x' :: xs) in *; change (map wr (x :: xs')) with (wr x :: map wr xs') in *.
      assert (Nm : map wr xs' <> []) by (subst xs'; discriminate).
      rewrite separated_cons in * by exact Nm.
      destruct (M b x (sep ++ separated sep (map wr xs') closed) G) as [b' M']; [right; eexists; reflexivity|].
      assert (X : match sep ++ separated sep (map wr xs') closed with [] => [] | _ :: _ => skipn (length sep) (sep ++ separated sep (map wr xs') closed) end
                  = separated sep (map wr xs') closed).
      { rewrite SK; destruct sep; [congruence|reflexivity]. }
      rewrite X in M'; rewrite (scan_hit _ _ _ _ _ M'); cbn [rest before].
      * change (ca x :: map sense_of (scan n pat b' (separated sep (map wr xs') closed)) = ca x :: map ca xs').
        f_equal; apply IH; rewrite !app_length in L; lia.
      * rewrite !app_length; lia.
Qed.

Lemma jc_sense b s q : item (u "，") s -> (q = [] \/ exists q', q = u "，" ++ q') ->
  exists b', mtch (sense_pattern jc_kdic) Some (mkpos b (s ++ q) []) =
    Some (mkpos b' (match q with [] => [] | _ => skipn (length (u "，")) q end) [(u "sense", s)]).
Proof.
  intros [N F] Q; cbn [sense_pattern jc_kdic Seqs]; rewrite mtch_seq.
  destruct Q as [->|[q' ->]]; eexists; (apply mtch_grp_plus_longest; [exact N|apply (free_notc (u "，")); [exact F|left; reflexivity]| |]).
  - exact I.
  - reflexivity.
  - reflexivity.
  - rewrite mtch_opt; change (u "，" ++ q') with (u1 "，" :: q'); rewrite mtch_isc; reflexivity.
Qed.
Lemma jc_parse w r ss closed nl :
  item (u " ") w -> item (u "]") r -> ss <> [] -> Forall (item (u "，" ++ [10])) ss ->
  parse_line jc_kdic (jc_line w r ss closed nl) = Ok (w, ([spaceless r], ss)).
Proof.
  intros [Nw Fw] [Nr Fr] Ns Fs; unfold parse_line, match_, start, jc_line.
  assert (T : ~ In 10 (separated (u "，") ss closed)).
  { intros I; apply in_separated in I; destruct I as [[I|[]]|[s [Is I]]]; [discriminate I|].
    rewrite Forall_forall in Fs; destruct (Fs s Is) as [_ F]; apply (F 10); [right; left; reflexivity|exact I]. }
  assert (G : exists b, mtch (line_pattern jc_kdic) Some (mkpos []
     (w ++ u " [" ++ r ++ u "]" ++ [9] ++ separated (u "，") ss closed ++ newline nl) []) =
     Some (mkpos b (newline nl) [(u "senses", separated (u "，") ss closed); (u "reading", r); (u "word", w)])).
  { cbn [line_pattern jc_kdic Seqs]; pat_step; rewrite mtch_bol; pat_step.
    rewrite mtch_grp_plus; [|exact Nw|apply (free_notc (u " ")); [exact Fw|left; reflexivity]|reflexivity|apply fails_lit].
    pat_step; rewrite mtch_lit; pat_step.
    rewrite mtch_grp_plus; [|exact Nr|apply (free_notc (u "]")); [exact Fr|left; reflexivity]|reflexivity|apply fails_isc].
    pat_step; change (u "]" ++ ?x) with (u1 "]" :: x); rewrite mtch_isc; pat_step.
    change ([9] ++ ?x) with (9 :: x); rewrite mtch_isc; pat_step; rewrite senses_tail by exact T; eexists; reflexivity. }
  destruct G as [b ->].
  replace (group (u "word") _) with (Some w) by reflexivity.
  replace (group (u "senses") _) with (Some (separated (u "，") ss closed)) by reflexivity.
  replace (group (u "reading") _) with (Some r) by reflexivity.
  replace (map sense_of (finditer (sense_pattern jc_kdic) (separated (u "，") ss closed))) with ss.
  2:{ symmetry; rewrite <- (map_id ss) at 2; rewrite <- (map_id ss) at 1.
      apply (sep_scan _ _ (item (u "，")) (fun s => s) (fun s => s)); [intros; apply jc_sense; assumption|reflexivity|discriminate| |lia].
      apply (items_sub _ (u "，")) in Fs; [|intros c [<-|[]]; left; reflexivity]; revert Fs; apply Forall_impl; intros s H; split; [exact H|apply H]. }
  rewrite !no_spaces_spaceless, (spaceless_id w) by (apply (free_in (u " ")); [exact Fw|left; reflexivity]).
  destruct ss as [|s ss]; [congruence|]; destruct r as [|c r]; [congruence|reflexivity].
Qed.

(* ---------------- cj_kdic ---------------- *)
Lemma skip_split p b l cs : exists w q, l = w ++ q /\ forallb p w = true /\
  (match q with c :: _ => p c = false | [] => True end) /\ skip p (mkpos b l cs) = mkpos (rev w ++ b) q cs.
Proof.
  assert (S : exists w q, l = w ++ q /\ forallb p w = true /\ match q with c :: _ => p c = false | [] => True end).
  { induction l as [|c l [w [q [-> [F Q]]]]]; [exists [], []; repeat split|].
    destruct (p c) eqn:P.
    - exists (c :: w), q; split; [reflexivity|split; [cbn [forallb]; rewrite P; exact F|exact Q]].
    - exists [], (c :: w ++ q); split; [reflexivity|split; [reflexivity|exact P]]. }
  destruct S as [w [q [-> [F Q]]]]; exists w, q; repeat split; try assumption; apply skip_app; assumption.
Qed.

(** not numbered with the digits of the pattern's class *)
Definition unnum (s : str) : Prop :=
  forall n t, s = n ++ u1 "．" :: t -> n <> [] -> exists c, In c n /\ sense_digit c = false.
Lemma sense_digit_stop c : sense_digit c = true -> isc (u1 "．") c = false.
Proof.
  unfold sense_digit, oneof, isc; intros H; apply mem_In in H; apply Z.eqb_neq; intros ->.
  apply mem_In in H; discriminate H.
Qed.
Lemma sense_digit_bs : sense_digit (u1 "\") = false. Proof. reflexivity. Qed.
Lemma no_number k b s q cs : s <> [] -> unnum s -> (q = [] \/ exists q', q = u "\n" ++ q') ->
  mtch (Seqs [Plus (Chr sense_digit); Chr (isc (u1 "．"))]) k (mkpos b (s ++ q) cs) = None.
Proof.
  intros N U Q; cbn [Seqs]; rewrite mtch_seq, mtch_plus by (apply fails_chr, sense_digit_stop).
  cbn [rest]; destruct (s ++ q) as [|c l] eqn:E; [reflexivity|]; destruct (sense_digit c) eqn:D; [|reflexivity].
  rewrite <- E; destruct (skip_split sense_digit b (s ++ q) cs) as [w [q1 [El [F [_ ->]]]]].
  cbn [mtch rest]; destruct q1 as [|d q1]; [reflexivity|]; unfold isc; destruct (Z.eqb_spec d (u1 "．")) as [->|_]; [exfalso|reflexivity].
  assert (Nw : w <> []).
  { intros ->; cbn [app] in El; rewrite El in E; injection E as <- _; discriminate D. }
  assert (Dw : forall x, In x w -> sense_digit x = true) by (apply forallb_forall; exact F).
  apply app_eq_app in El; destruct El as [m [[E1 E2]|[E1 E2]]].
  - destruct m as [|y m].
    + rewrite app_nil_r in E1; subst w; cbn [app] in E2; destruct Q as [->|[q' ->]]; discriminate E2.
    + injection E2 as <- E2; destruct (U w m E1 Nw) as [x [Ix Dx]]; rewrite (Dw x Ix) in Dx; discriminate Dx.
  - destruct Q as [->|[q' ->]]; [destruct m; discriminate E2|].
    destruct m as [|y m]; [discriminate E2|]; injection E2 as <- E2.
    assert (X : sense_digit (u1 "\") = true) by (apply Dw; rewrite E1; apply in_app_iff; right; left; reflexivity); discriminate X.
Qed.

Definition cj_good (x : option str * str) : Prop :=
  item (u "\") (snd x) /\
  match fst x with Some n => n <> [] /\ forallb sense_digit n = true | None => unnum (snd x) end.
Lemma numbered_nonempty x : snd x <> [] -> numbered x <> [].
Proof. destruct x as [[[|c n]|] s]; cbn; congruence. Qed.
Lemma cj_sense b x q : cj_good x -> (q = [] \/ exists q', q = u "\n" ++ q') ->
  exists b', mtch (sense_pattern cj_kdic) Some (mkpos b (numbered x ++ q) []) =
    Some (mkpos b' (match q with [] => [] | _ => skipn (length (u "\n")) q end) [(u "sense", snd x)]).
Proof.
  intros [[N F] G] Q; destruct x as [num s]; cbn [fst snd] in *; cbn [sense_pattern cj_kdic Seqs].
  assert (K : forall b, exists b', mtch (Seq (Grp (u "sense") (Plus (Chr (notc (u1 "\"))))) (Opt (Lit (u "\n")))) Some (mkpos b (s ++ q) []) =
    Some (mkpos b' (match q with [] => [] | _ => skipn (length (u "\n")) q end) [(u "sense", s)])).
  { intros b1; rewrite mtch_seq; destruct Q as [->|[q' ->]]; eexists;
      (apply mtch_grp_plus_longest; [exact N|apply (free_notc (u "\")); [exact F|left; reflexivity]| |]).
    - exact I.
    - reflexivity.
    - reflexivity.
    - rewrite mtch_opt, mtch_lit; reflexivity. }
  rewrite mtch_seq, mtch_opt; destruct num as [n|]; cbn [numbered fst snd].
  - destruct G as [Nn Fn]; rewrite <- !app_assoc, mtch_seq.
    rewrite mtch_plus_app; [|exact Nn|exact Fn|reflexivity|apply fails_chr, sense_digit_stop].
    change (u "．" ++ s ++ q) with (u1 "．" :: s ++ q); rewrite mtch_isc.
    destruct (K (u1 "．" :: rev n ++ b)) as [b' ->]; exists b'; reflexivity.
  - pose proof (no_number (mtch (Seq (Grp (u "sense") (Plus (Chr (notc (u1 "\"))))) (Opt (Lit (u "\n")))) Some) b s q [] N G Q) as X.
    cbn [Seqs] in X; rewrite X; apply K.
Qed.

Lemma cj_parse w r xs closed nl :
  item [9] w -> item (u "\") r -> xs <> [] -> Forall cj_good xs -> Forall (fun x => ~ In 10 (snd x)) xs ->
  parse_line cj_kdic (cj_line w r (map numbered xs) closed nl) = Ok (spaceless w, ([spaceless r], map snd xs)).
Proof.
  intros [Nw Fw] [Nr Fr] Ns Fs Fn; unfold parse_line, match_, start, cj_line.
  set (t := separated (u "\n") (map numbered xs) closed).
  assert (T : ~ In 10 t).
  { intros I; apply in_separated in I; destruct I as [[I|[I|[]]]|[s [Is I]]]; [discriminate I|discriminate I|].
    apply in_map_iff in Is; destruct Is as [x [<- Ix]].
    rewrite Forall_forall in Fs, Fn; destruct (Fs x Ix) as [_ G]; specialize (Fn x Ix).
    destruct x as [[n|] s]; cbn [numbered fst snd] in *; [|contradiction].
    rewrite !in_app_iff in I; destruct I as [I|[[I|[]]|I]]; [|discriminate I|contradiction].
    destruct G as [_ G]; rewrite forallb_forall in G; specialize (G 10 I); discriminate G. }
  assert (G : exists b, mtch (line_pattern cj_kdic) Some (mkpos [] (w ++ [9] ++ r ++ u "\n" ++ t ++ newline nl) []) =
     Some (mkpos b (newline nl) [(u "senses", t); (u "reading", r); (u "word", w)])).
  { cbn [line_pattern cj_kdic Seqs]; pat_step; rewrite mtch_bol; pat_step.
    rewrite mtch_grp_plus; [|exact Nw|apply (free_notc [9]); [exact Fw|left; reflexivity]|reflexivity|apply fails_isc].
    pat_step; change ([9] ++ ?x) with (9 :: x); rewrite mtch_isc; pat_step.
    rewrite mtch_grp_plus; [|exact Nr|apply (free_notc (u "\")); [exact Fr|left; reflexivity]|reflexivity|apply fails_lit].
    pat_step; rewrite mtch_lit; pat_step; rewrite senses_tail by exact T; eexists; reflexivity. }
  destruct G as [b ->].
  replace (group (u "word") _) with (Some w) by reflexivity.
  replace (group (u "senses") _) with (Some t) by reflexivity.
  replace (group (u "reading") _) with (Some r) by reflexivity.
  replace (map sense_of (finditer (sense_pattern cj_kdic) t)) with (map snd xs).
  2:{ symmetry; apply (sep_scan _ _ cj_good numbered snd); [intros; apply cj_sense; assumption|reflexivity|discriminate| |subst t; lia].
      revert Fs; apply Forall_impl; intros x H; split; [exact H|apply numbered_nonempty, H]. }
  rewrite !no_spaces_spaceless; destruct xs as [|x xs]; [congruence|]; destruct r as [|c r]; [congruence|reflexivity].
Qed.

(** in the terms of the specification *)
Lemma sense_digit_digits c : sense_digit c = true <-> In c digits /\ c <> u1 "６".
Proof.
  unfold sense_digit, oneof; rewrite mem_In.
  assert (X : forall c, In c sense_digits -> In c digits /\ c <> u1 "６").
  { intros d I; assert (E : mem d digits && negb (d =? u1 "６") = true) by (revert d I; apply forallb_forall; vm_compute; reflexivity).
    apply andb_prop in E; destruct E as [E1 E2]; split; [apply mem_In, E1|apply negb_true_iff, Z.eqb_neq in E2; exact E2]. }
  assert (Y : forall c, In c digits -> In c sense_digits \/ c = u1 "６").
  { intros d I; assert (E : mem d sense_digits || (d =? u1 "６") = true) by (revert d I; apply forallb_forall; vm_compute; reflexivity).
    apply orb_prop in E; destruct E as [E|E]; [left; apply mem_In, E|right; apply Z.eqb_eq, E]. }
  split; [apply X|intros [I N]; destruct (Y c I) as [J|J]; [exact J|contradiction]].
Qed.
Lemma plain_unnum s : plain s -> unnum s.
Proof.
  intros P n t E N; destruct (P n t E N) as [c [I D]]; exists c; split; [exact I|].
  destruct (sense_digit c) eqn:X; [|reflexivity]; apply sense_digit_digits in X; destruct X; contradiction.
Qed.
Lemma cj_parse_spec w r xs closed nl :
  item [9] w -> item (u "\") r -> xs <> [] ->
  (forall n s, In (n, s) xs -> item (u "\" ++ [10]) s /\
     match n with Some n => n <> [] /\ forall c, In c n -> In c digits /\ c <> u1 "６" | None => plain s end) ->
  parse_line cj_kdic (cj_line w r (map numbered xs) closed nl) = Ok (spaceless w, ([spaceless r], map snd xs)).
Proof.
  intros Hw Hr N H; apply cj_parse; [exact Hw|exact Hr|exact N| |].
  - apply Forall_forall; intros [n s] I; destruct (H n s I) as [[Ns Fs] G]; split; cbn [fst snd].
    + split; [exact Ns|intros c [<-|[]]; apply Fs; left; reflexivity].
    + destruct n as [n|]; [|apply plain_unnum, G]; destruct G as [Nn G]; split; [exact Nn|].
      apply forallb_forall; intros c Ic; apply sense_digit_digits, G, Ic.
  - apply Forall_forall; intros [n s] I; destruct (H n s I) as [[Ns Fs] G]; cbn [snd]; apply Fs; right; left; reflexivity.
Qed.
(** a numbering with a six in it stays in the sense *)
Lemma six_kept w r n s closed nl :
  item [9] w -> item (u "\") r -> item (u "\" ++ [10]) s ->
  (forall c, In c n -> In c digits) -> In (u1 "６") n ->
  parse_line cj_kdic (cj_line w r [numbered (Some n, s)] closed nl) = Ok (spaceless w, ([spaceless r], [n ++ u "．" ++ s])).
Proof.
  intros Hw Hr [Ns Fs] Hn H6.
  change [numbered (Some n, s)] with (map numbered [(@None str, n ++ u "．" ++ s)]).
  change [n ++ u "．" ++ s] with (map snd [(@None str, n ++ u "．" ++ s)]).
  assert (Dg : forall c, In c digits -> c <> u1 "\" /\ c <> 10 /\ c <> u1 "．").
  { intros d I; assert (E : negb (d =? u1 "\") && negb (d =? 10) && negb (d =? u1 "．") = true) by (revert d I; apply forallb_forall; vm_compute; reflexivity).
    apply andb_prop in E; destruct E as [E E3]; apply andb_prop in E; destruct E as [E1 E2].
    apply negb_true_iff, Z.eqb_neq in E1, E2, E3; repeat split; assumption. }
  apply cj_parse; [exact Hw|exact Hr|discriminate| |]; constructor; try constructor; cbn [fst snd].
  - split; [destruct n; discriminate|]; intros c [<-|[]] I; rewrite !in_app_iff in I; destruct I as [I|[[I|[]]|I]].
    + apply Hn, Dg in I; destruct I as [I _]; apply I; reflexivity.
    + discriminate I.
    + revert I; apply Fs; left; reflexivity.
  - intros m t E Nm; exists (u1 "６"); split; [|reflexivity].
    apply app_eq_app in E; destruct E as [l [[E1 E2]|[E1 E2]]].
    + destruct l as [|y l]; [rewrite app_nil_r in E1; subst m; exact H6|].
      injection E2 as <- E2; exfalso; assert (I : In (u1 "．") n) by (rewrite E1; apply in_app_iff; right; left; reflexivity).
      apply Hn, Dg in I; destruct I as [_ [_ I]]; apply I; reflexivity.
    + rewrite E1; apply in_app_iff; left; exact H6.
  - intros I; rewrite !in_app_iff in I; destruct I as [I|[[I|[]]|I]].
    + apply Hn, Dg in I; destruct I as [_ [I _]]; apply I; reflexivity.
    + discriminate I.
    + revert I; apply Fs; right; left; reflexivity.
Qed.

(* ---------------- headers ---------------- *)
Definition some {A} (o : option A) : bool := match o with Some _ => true | None => false end.
Lemma mtch_lit_inv w : forall k b l cs x, mtch (Lit w) k (mkpos b l cs) = Some x ->
  exists q, l = w ++ q /\ k (mkpos (rev w ++ b) q cs) = Some x.
Proof.
  induction w as [|c w IH]; intros k b l cs x M; [exists l; split; [reflexivity|exact M]|].
  cbn [Lit] in M; rewrite mtch_seq in M; cbn [mtch rest before caps] in M; destruct l as [|d l]; [discriminate M|].
  destruct (Z.eqb_spec d c) as [->|]; [|discriminate M].
  destruct (IH _ _ _ _ _ M) as [q [-> K]]; exists q; split; [reflexivity|].
  cbn [rev]; rewrite <- app_assoc; exact K.
Qed.
Lemma eol_inv b l cs x : mtch Eol Some (mkpos b l cs) = Some x -> exists nl, l = newline nl.
Proof.
  cbn [mtch rest]; destruct l as [|c [|]]; [exists false; reflexivity| |discriminate].
  destruct (Z.eqb_spec c 10) as [->|]; [exists true; reflexivity|discriminate].
Qed.
Lemma dot_eol b l cs : some (mtch (Seq (Star (Chr dot)) Eol) Some (mkpos b l cs)) = true <->
  exists t nl, l = t ++ newline nl /\ ~ In 10 t.
Proof.
  rewrite mtch_seq, mtch_star by apply fails_dot_eol; split.
  - destruct (skip_split dot b l cs) as [w [q [-> [F [_ ->]]]]].
    destruct (mtch Eol Some (mkpos (rev w ++ b) q cs)) eqn:M; [|discriminate]; intros _.
    apply eol_inv in M; destruct M as [nl ->]; exists w, nl; split; [reflexivity|apply forallb_notc, F].
  - intros [t [nl [-> N]]]; rewrite skip_app; [rewrite mtch_eol_nl; reflexivity|apply forallb_notc, N|destruct nl; [reflexivity|exact I]].
Qed.
Lemma match_header_some f h : match_header f h = some (match_ (header_pattern f) h). Proof. reflexivity. Qed.
Lemma some_true {A} (o : option A) : some o = true -> exists x, o = Some x.
Proof. destruct o as [x|]; [exists x; reflexivity|discriminate]. Qed.

Lemma edict_header h : match_header edict h = true <-> header edict h.
Proof.
  rewrite match_header_some; unfold match_, start; cbn [header_pattern edict Seqs]; rewrite mtch_seq, mtch_bol, mtch_seq.
  split.
  - cbn [mtch rest before caps]; fold (mtch (Seq (Star (Chr dot)) Eol)); destruct h as [|c h]; [discriminate|].
    destruct (dot c) eqn:D; [|discriminate]; intros M; apply some_true in M; destruct M as [x M].
    change (mtch (Lit (u "？？？")) (mtch (Seq (Star (Chr dot)) Eol) Some) (mkpos [c] h []) = Some x) in M.
    apply mtch_lit_inv in M; destruct M as [q [-> M]].
    destruct (proj1 (dot_eol (rev (u "？？？") ++ [c]) q [])) as [t [nl [-> N]]]; [rewrite M; reflexivity|].
    constructor; [apply notc_true in D; exact D|exact N].
  - intros H; inversion H as [c t nl Nc Nt E| | |]; subst; cbn [mtch rest before caps].
    replace (dot c) with true by (symmetry; apply notc_true; exact Nc).
    change (some (mtch (Lit (u "？？？")) (mtch (Seq (Star (Chr dot)) Eol) Some) (mkpos [c] (u "？？？" ++ t ++ newline nl) [])) = true).
    rewrite mtch_lit; apply dot_eol; exists t, nl; split; [reflexivity|exact Nt].
Qed.
Lemma cedict_header h : match_header cedict h = true <-> header cedict h.
Proof.
  rewrite match_header_some; unfold match_, start; cbn [header_pattern cedict Seqs]; rewrite mtch_seq, mtch_bol, mtch_seq.
  split.
  - intros M; apply some_true in M; destruct M as [x M].
    apply mtch_lit_inv in M; destruct M as [q [-> M]].
    destruct (proj1 (dot_eol (rev (u "# CEDICT") ++ []) q [])) as [t [nl [-> N]]]; [rewrite M; reflexivity|].
    constructor; exact N.
  - intros H; inversion H as [| | |t nl Nt E]; subst; rewrite mtch_lit; apply dot_eol; exists t, nl; split; [reflexivity|exact Nt].
Qed.
Lemma kdic_header w h : some (mtch (Seq Bol (Seq (Lit w) Eol)) Some (mkpos [] h [])) = true <-> exists nl, h = w ++ newline nl.
Proof.
  rewrite mtch_seq, mtch_bol, mtch_seq; split.
  - intros M; apply some_true in M; destruct M as [x M].
    apply mtch_lit_inv in M; destruct M as [q [-> M]]; apply eol_inv in M; destruct M as [nl ->]; exists nl; reflexivity.
  - intros [nl ->]; rewrite mtch_lit, mtch_eol_nl; reflexivity.
Qed.
Lemma jc_header h : match_header jc_kdic h = true <-> header jc_kdic h.
Proof.
  unfold match_header; change (some (mtch (Seq Bol (Seq (Lit (u "FORMAT jc_kdic")) Eol)) Some (mkpos [] h [])) = true <-> header jc_kdic h).
  rewrite kdic_header; split; [intros [nl ->]; constructor|intros H; inversion H as [|nl E| |]; exists nl; reflexivity].
Qed.
Lemma cj_header h : match_header cj_kdic h = true <-> header cj_kdic h.
Proof.
  unfold match_header; change (some (mtch (Seq Bol (Seq (Lit (u "FORMAT cj_kdic")) Eol)) Some (mkpos [] h [])) = true <-> header cj_kdic h).
  rewrite kdic_header; split; [intros [nl ->]; constructor|intros H; inversion H as [| |nl E|]; exists nl; reflexivity].
Qed.
Lemma header_match f h : In f known_formats -> match_header f h = true <-> header f h.
Proof.
  intros [<-|[<-|[<-|[<-|[]]]]]; [apply edict_header|apply jc_header|apply cj_header|apply cedict_header].
Qed.
Lemma header_known f h : header f h -> In f known_formats.
Proof. intros []; cbn [In known_formats]; tauto. Qed.
Lemma header_unique f g h : header f h -> header g h -> f = g.
Proof.
  intros H G; destruct H; inversion G; subst; try reflexivity; exfalso;
    match goal with E : _ = _ |- _ => revert E; vm_compute; intros E; discriminate E end.
Qed.
Lemma detect_in fs h : (forall f, In f fs <-> In f known_formats) ->
  (forall f, detect_format_in fs h = Ok f <-> header f h) /\
  (detect_format_in fs h = Raise UnknownFormatError <-> forall f, ~ header f h).
Proof.
  intros P.
  assert (G : forall gs, (forall f, In f gs -> In f known_formats) ->
    match detect_format_in gs h with
    | Ok f => In f gs /\ header f h
    | Raise e => e = UnknownFormatError /\ forall f, In f gs -> ~ header f h
    end).
  { induction gs as [|g gs IH]; intros K; cbn [detect_format_in]; [split; [reflexivity|intros f []]|].
    destruct (match_header g h) eqn:M.
    - split; [left; reflexivity|apply header_match; [apply K; left; reflexivity|exact M]].
    - specialize (IH (fun f I => K f (or_intror I))); destruct (detect_format_in gs h) as [f|e].
      + destruct IH as [I H]; split; [right; exact I|exact H].
      + destruct IH as [-> N]; split; [reflexivity|]; intros f [<-|I]; [|apply N, I].
        intros H; apply header_match in H; [congruence|apply K; left; reflexivity]. }
  specialize (G fs (fun f => proj1 (P f))); destruct (detect_format_in fs h) as [f|e].
  - destruct G as [I H]; split; [|split; [discriminate|intros N; elim (N f H)]].
    intros g; split; [intros E; injection E as <-; exact H|intros H'; rewrite (header_unique f g h H H'); reflexivity].
  - destruct G as [-> N]; split; [|split; [intros _ f H|reflexivity]].
    + intros f; split; [discriminate|intros H; elim (N f); [apply P, (header_known f h H)|exact H]].
    + elim (N f); [apply P, (header_known f h H)|exact H].
Qed.

(* ---------------- loading ---------------- *)
Lemma build_entry_ok h p : wf h -> sound p ->
  exists h', build_entry h p = (h', Ok (length (entries h))) /\ wf h' /\ length (entries h') = S (length (entries h)) /\
    wd h' (length (entries h)) = fst p /\ rd h' (length (entries h)) = fst (snd p) /\ sn h' (length (entries h)) = snd (snd p) /\
    forall f, (f < length (entries h))%nat -> wd h' f = wd h f /\ rd h' f = rd h f /\ sn h' f = sn h f.
Proof.
  intros W S; destruct p as [w [rs ss]]; unfold sound in S; cbn [fst snd] in *.
  pose proof (new_entry_wf h w rs ss W S) as X; unfold build_entry.
  destruct (new_list h rs) as [h1 r]; destruct (new_list h1 ss) as [h2 s]; destruct X as [h3 X]; exists h3; exact X.
Qed.

(** the dictionary after reading [ps], started on a heap with [n0] entries *)
Definition loaded (n0 : nat) (h : heap) (b : dict str addr) (ps : list parsed) : Prop :=
  wf h /\ dkeys b = distinct (map fst ps) /\
  (forall w e, dget w b = Some e -> (n0 <= e < length (entries h))%nat /\ wd h e = w /\ pairs h e = pairs_for w ps).
Lemma pairs_for_app w ps qs : pairs_for w (ps ++ qs) = pairs_for w ps ++ pairs_for w qs.
Proof. unfold pairs_for; apply flat_map_app. Qed.
Lemma pairs_for_none w ps : ~ In w (map fst ps) -> pairs_for w ps = [].
Proof.
  induction ps as [|p ps IH]; intros N; [reflexivity|]; cbn [pairs_for flat_map].
  rewrite (eqb_neq (fst p) w) by (intros E; apply N; left; exact E); apply IH; intros I; apply N; right; exact I.
Qed.
Lemma distinct_snoc {A} `{EqB A} (l : list A) x : distinct (l ++ [x]) = if mem x l then distinct l else distinct l ++ [x].
Proof.
  rewrite <- !set_of_distinct; unfold set_of, supdate; rewrite fold_left_app; cbn [fold_left].
  change (sadd x (set_of l) = if mem x l then set_of l else set_of l ++ [x]); unfold sadd.
  destruct (mem_spec x (set_of l)) as [I|I], (mem_spec x l) as [J|J]; try reflexivity; exfalso.
  - apply J, In_set_of, I.
  - apply I, In_set_of, J.
Qed.

Lemma parse_lines_ok parse n0 : (forall l p, parse l = Ok p -> sound p) ->
  forall lines ps h b, (n0 <= length (entries h))%nat -> loaded n0 h b ps ->
  match mapM parse lines with
  | Ok qs => exists h' b', parse_lines parse h b lines = (h', Ok b') /\ loaded n0 h' b' (ps ++ qs) /\
      (length (entries h) <= length (entries h'))%nat /\
      forall f, (f < n0)%nat -> wd h' f = wd h f /\ pairs h' f = pairs h f
  | Raise e => exists h', parse_lines parse h b lines = (h', Raise e)
  end.
Proof.
  intros SD; induction lines as [|l lines IH]; intros ps h b Hn L.
  - cbn [mapM parse_lines]; exists h, b; rewrite app_nil_r; split; [reflexivity|split; [exact L|split; [lia|split; reflexivity]]].
  - cbn [mapM parse_lines]; destruct (parse l) as [p|e] eqn:P; cbn [bind]; [|exists h; reflexivity].
    destruct L as [W [K D]].
    destruct (build_entry_ok h p W (SD l p P)) as [h1 [-> [W1 [L1 [Ew [Er [Es O1]]]]]]].
    set (e := length (entries h)) in *.
    assert (PO : forall f, (f < e)%nat -> wd h1 f = wd h f /\ pairs h1 f = pairs h f).
    { intros f Hf; destruct (O1 f Hf) as [A [B C]]; split; [exact A|unfold pairs; rewrite B, C; reflexivity]. }
    assert (PE : pairs h1 e = pairs_of (fst (snd p)) (snd (snd p))) by (unfold pairs; rewrite Er, Es; reflexivity).
    change (word (entry_at h1 e)) with (wd h1 e); rewrite Ew.
    assert (NEXT : forall h2 b2, loaded n0 h2 b2 (ps ++ [p]) -> (e < length (entries h2))%nat ->
      (forall f, (f < n0)%nat -> wd h2 f = wd h f /\ pairs h2 f = pairs h f) ->
      match (do ys <- mapM parse lines; Ok (p :: ys)) with
      | Ok qs => exists h' b', parse_lines parse h2 b2 lines = (h', Ok b') /\ loaded n0 h' b' (ps ++ qs) /\
          (e <= length (entries h'))%nat /\ forall f, (f < n0)%nat -> wd h' f = wd h f /\ pairs h' f = pairs h f
      | Raise e => exists h', parse_lines parse h2 b2 lines = (h', Raise e)
      end).
    { intros h2 b2 L2 Le O2; assert (Hn2 : (n0 <= length (entries h2))%nat) by lia.
      specialize (IH (ps ++ [p]) h2 b2 Hn2 L2); destruct (mapM parse lines) as [qs|x]; cbn [bind]; [|exact IH].
      destruct IH as [h' [b' [E [L' [Len O']]]]]; exists h', b'; rewrite <- app_assoc in L'; split; [exact E|split; [exact L'|split; [lia|]]].
      intros f Hf; destruct (O2 f Hf) as [<- <-]; apply O', Hf. }
    destruct (dget (fst p) b) as [old|] eqn:G.
    + destruct (D _ _ G) as [Ho [Wo Po]].
      assert (Ho1 : (old < length (entries h1))%nat) by lia.
      assert (He1 : (e < length (entries h1))%nat) by lia.
      assert (EW : wd h1 old = wd h1 e) by (rewrite Ew; destruct (PO old) as [-> _]; [lia|exact Wo]).
      destruct (entry_update_ok h1 old e W1 Ho1 He1 EW) as [U [W2 [L2 [_ [P2 V2]]]]].
      destruct (entry_update h1 old e) as [h2 o]; cbn [fst snd] in *; subst o.
      apply NEXT; [|lia|].
      * split; [exact W2|split].
        -- rewrite K, map_app; cbn [map]; rewrite distinct_snoc.
           replace (mem (fst p) (map fst ps)) with true; [reflexivity|].
           symmetry; apply mem_In, In_set_of; rewrite set_of_distinct, <- K; apply (dget_Some_key _ _ _ G).
        -- intros w f Gf; destruct (D _ _ Gf) as [Hf [Wf Pf]]; destruct (V2 f) as [V2a V2b]; [lia|].
           split; [lia|]; destruct (PO f) as [Q1 Q2]; [lia|]; split; [congruence|].
           rewrite pairs_for_app; cbn [pairs_for flat_map]; rewrite app_nil_r.
           destruct (Nat.eq_dec f old) as [->|Nf].
           ++ rewrite P2, Q2, PE, Pf; replace w with (fst p) by congruence; rewrite eqb_refl; reflexivity.
           ++ destruct (V2b Nf) as [-> _]; rewrite Q2, Pf, (eqb_neq (fst p) w), app_nil_r; [reflexivity|congruence].
      * intros f Hf; destruct (V2 f) as [A B]; [lia|]; destruct (PO f) as [Q1 Q2]; [lia|]; destruct B as [B _]; [lia|]; split; congruence.
    + assert (NK : ~ In (fst p) (map fst ps)).
      { intros I; apply dget_None in G; apply G; rewrite K, <- set_of_distinct; apply In_set_of, I. }
      apply NEXT; [|lia|].
      * split; [exact W1|split].
        -- rewrite dkeys_dset, map_app; cbn [map]; rewrite distinct_snoc.
           replace (dmem (fst p) b) with false by (symmetry; apply dmem_false; apply dget_None in G; exact G).
           replace (mem (fst p) (map fst ps)) with false by (symmetry; apply mem_false; exact NK); rewrite K; reflexivity.
        -- intros w f Gf; rewrite dget_dset in Gf; rewrite pairs_for_app; cbn [pairs_for flat_map]; rewrite app_nil_r.
           destruct (eqb_spec w (fst p)) as [->|Nw].
           ++ injection Gf as <-; split; [lia|split; [exact Ew|]]; rewrite PE, eqb_refl, (pairs_for_none (fst p) ps NK); reflexivity.
           ++ destruct (D _ _ Gf) as [Hf [Wf Pf]]; destruct (PO f) as [Q1 Q2]; [lia|]; split; [lia|split; [congruence|]].
              rewrite (eqb_neq (fst p) w), app_nil_r by congruence; congruence.
      * intros f Hf; apply PO; lia.
Qed.

Lemma parse_line_sound f l p : parse_line f l = Ok p -> sound p.
Proof.
  unfold parse_line; destruct (match_ (line_pattern f) l); [|discriminate]; destruct (group (u "word") p0); [|discriminate].
  destruct (group (u "senses") p0); [|discriminate]; destruct (map sense_of _); [discriminate|].
  intros E; injection E as <-; left; reflexivity.
Qed.

(** groups that take part in every match *)
Fixpoint binds (n : str) (r : re) : bool :=
  match r with
  | Grp m r => eqb m n || binds n r
  | Seq a b => binds n a || binds n b
  | Alt a b => binds n a && binds n b
  | _ => false
  end.
Definition keeps (n : str) (s t : pos) : Prop := dmem n (caps s) = true -> dmem n (caps t) = true.
Lemma mtch_binds n r : forall k s x, mtch r k s = Some x ->
  exists t, k t = Some x /\ keeps n s t /\ (binds n r = true -> dmem n (caps t) = true).
Proof.
  assert (ST : forall r lz, (forall k s x, mtch r k s = Some x -> exists t, k t = Some x /\ keeps n s t /\ (binds n r = true -> dmem n (caps t) = true)) ->
    forall fuel k s x, star (mtch r) lz fuel k s = Some x -> exists t, k t = Some x /\ keeps n s t).
  { clear r; intros r lz IH; induction fuel as [|fuel IHf]; intros k s x; cbn [star]; [discriminate|].
    assert (M : mtch r (fun t => if (length (rest t) <? length (rest s))%nat then star (mtch r) lz fuel k t else None) s = Some x ->
                exists t, k t = Some x /\ keeps n s t).
    { intros E; destruct (IH _ _ _ E) as [t [Et [Kt _]]]; destruct (_ <? _)%nat; [|discriminate].
      destruct (IHf k t x Et) as [t' [Et' Kt']]; exists t'; split; [exact Et'|intros H; apply Kt', Kt, H]. }
    assert (H : k s = Some x -> exists t, k t = Some x /\ keeps n s t) by (intros E; exists s; split; [exact E|intros X; exact X]).
    destruct lz.
    - destruct (k s) as [y|] eqn:E; [intros X; apply H; congruence|exact M].
    - destruct (mtch r _ s) as [y|] eqn:E; [intros X; apply M; congruence|exact H]. }
  induction r as [|p|a IHa b IHb|a IHa b IHb|r IH|r IH|m r IH| | |p]; intros k s x; cbn [mtch binds].
  - intros E; exists s; split; [exact E|split; [intros X; exact X|discriminate]].
  - destruct (rest s) as [|c q]; [discriminate|]; destruct (p c); [|discriminate]; intros E.
    eexists; split; [exact E|split; [intros X; exact X|discriminate]].
  - intros E; destruct (IHa _ _ _ E) as [t [Et [Kt Bt]]]; destruct (IHb _ _ _ Et) as [t' [Et' [Kt' Bt']]].
    exists t'; split; [exact Et'|split; [intros H; apply Kt', Kt, H|]].
    intros B; apply orb_prop in B; destruct B as [B|B]; [apply Kt', Bt, B|apply Bt', B].
  - destruct (mtch a k s) as [y|] eqn:E; intros X.
    + injection X as ->; destruct (IHa _ _ _ E) as [t [Et [Kt Bt]]]; exists t; split; [exact Et|split; [exact Kt|]].
      intros B; apply andb_prop in B; apply Bt, B.
    + destruct (IHb _ _ _ X) as [t [Et [Kt Bt]]]; exists t; split; [exact Et|split; [exact Kt|]].
      intros B; apply andb_prop in B; apply Bt, B.
  - intros E; destruct (ST r false IH _ _ _ _ E) as [t [Et Kt]]; exists t; split; [exact Et|split; [exact Kt|discriminate]].
  - intros E; destruct (ST r true IH _ _ _ _ E) as [t [Et Kt]]; exists t; split; [exact Et|split; [exact Kt|discriminate]].
  - intros E; destruct (IH _ _ _ E) as [t [Et [Kt Bt]]]; exists (capture m s t); split; [exact Et|].
    assert (D : forall v, dmem n ((m, v) :: caps t) = eqb n m || dmem n (caps t)) by (intros v; unfold dmem; cbn [dget]; destruct (eqb n m); reflexivity).
    unfold keeps, capture in *; cbn [caps]; rewrite D; split; [intros H; rewrite (Kt H); apply orb_true_r|].
    rewrite (eqb_sym m n); intros B; apply orb_prop in B; destruct B as [-> |B]; [reflexivity|rewrite (Bt B); apply orb_true_r].
  - destruct (before s); [|discriminate]; intros E; exists s; split; [exact E|split; [intros X; exact X|discriminate]].
  - destruct (rest s) as [|c [|d q]]; [|destruct (c =? 10); [|discriminate]|discriminate]; intros E; exists s; (split; [exact E|split; [intros X; exact X|discriminate]]).
  - destruct (before s) as [|c q]; [discriminate|]; destruct (p c); [|discriminate]; intros E; exists s; split; [exact E|split; [intros X; exact X|discriminate]].
Qed.
Lemma known_bind f : In f known_formats -> binds (u "word") (line_pattern f) = true /\ binds (u "senses") (line_pattern f) = true.
Proof. intros I; repeat (destruct I as [<-|I]; [split; vm_compute; reflexivity|]); destruct I. Qed.
Lemma parse_line_error f l e : In f known_formats -> parse_line f l = Raise e -> e = FormatError.
Proof.
  intros I; destruct (known_bind f I) as [B1 B2]; unfold parse_line; destruct (match_ (line_pattern f) l) as [m|] eqn:M; [|congruence].
  assert (G : forall n, binds n (line_pattern f) = true -> exists t, group n m = Some t).
  { intros n B; destruct (mtch_binds n _ _ _ _ M) as [t [E [_ H]]]; injection E as ->.
    specialize (H B); unfold group, dmem in *; destruct (dget n (caps m)); [eexists; reflexivity|discriminate]. }
  destruct (G _ B1) as [w ->]; destruct (G _ B2) as [s ->]; destruct (map sense_of _); congruence.
Qed.

Lemma load_spec h hd lines f : wf h -> header f hd ->
  match mapM (parse_line f) lines with
  | Ok ps => exists h' b, load_dictionary h (hd :: lines) = (h', Ok b) /\ wf h' /\
      dkeys b = distinct (map fst ps) /\
      (forall w e, dget w b = Some e -> (length (entries h) <= e < length (entries h'))%nat /\ wd h' e = w /\ pairs h' e = pairs_for w ps) /\
      forall g, (g < length (entries h))%nat -> wd h' g = wd h g /\ pairs h' g = pairs h g
  | Raise e => exists h', load_dictionary h (hd :: lines) = (h', Raise e)
  end.
Proof.
  intros W H; unfold load_dictionary.
  destruct (detect_in known_formats hd (fun g => iff_refl _)) as [DT _].
  unfold detect_format; rewrite (proj2 (DT f) H).
  pose proof (parse_lines_ok (parse_line f) (length (entries h)) (parse_line_sound f) lines [] h []) as P.
  destruct (mapM (parse_line f) lines) as [ps|e].
  - destruct P as [h' [b [E [[W' [K D]] [_ O]]]]]; [lia|split; [exact W|split; [reflexivity|intros w e; discriminate]]|].
    exists h', b; split; [exact E|split; [exact W'|split; [exact K|split; [exact D|exact O]]]].
  - apply P; [lia|split; [exact W|split; [reflexivity|intros w x; discriminate]]].
Qed.
Lemma load_bad_header h hd lines : (forall f, ~ header f hd) -> load_dictionary h (hd :: lines) = (h, Raise UnknownFormatError).
Proof.
  intros N; unfold load_dictionary, detect_format.
  destruct (detect_in known_formats hd (fun g => iff_refl _)) as [_ D]; rewrite (proj2 D N); reflexivity.
Qed.

(** mapM stops at the first failing line *)
Lemma mapM_first {A B} (f : A -> res B) l e : mapM f l = Raise e <->
  exists a x b ys, l = a ++ x :: b /\ mapM f a = Ok ys /\ f x = Raise e.
Proof.
  split.
  - revert e; induction l as [|x l IH]; intros e; cbn [mapM]; [discriminate|].
    destruct (f x) as [y|e'] eqn:F; cbn [bind].
    + destruct (mapM f l) as [ys|e'] eqn:M; cbn [bind]; [discriminate|]; intros E.
      destruct (IH e) as [a [z [b [zs [-> [Ma Fz]]]]]]; [congruence|].
      exists (x :: a), z, b, (y :: zs); split; [reflexivity|split; [|exact Fz]]; cbn [mapM]; rewrite F; cbn [bind]; rewrite Ma; reflexivity.
    + intros E; injection E as ->; exists [], x, l, []; split; [reflexivity|split; [reflexivity|exact F]].
  - intros [a [x [b [ys [-> [M F]]]]]]; revert ys M; induction a as [|z a IH]; intros ys M; cbn [app mapM] in *.
    + rewrite F; reflexivity.
    + destruct (f z) as [y|]; [|discriminate M]; cbn [bind] in *; destruct (mapM f a) as [zs|]; [|discriminate M].
      rewrite (IH zs eq_refl); reflexivity.
Qed.

(** iter_entries: one entry per line up to the first bad one *)
Lemma iter_lines_spec parse : (forall l p, parse l = Ok p -> sound p) -> forall lines h, wf h ->
  exists h' es o ps, iter_lines parse h lines = (h', (es, o)) /\ wf h' /\
    es = seq (length (entries h)) (length ps) /\ length (entries h') = (length (entries h) + length ps)%nat /\
    (forall i p, nth_error ps i = Some p ->
       let e := (length (entries h) + i)%nat in (wd h' e, (rd h' e, sn h' e)) = p) /\
    (forall f, (f < length (entries h))%nat -> wd h' f = wd h f /\ rd h' f = rd h f /\ sn h' f = sn h f) /\
    match o with
    | Ok _ => mapM parse lines = Ok ps
    | Raise e => exists a x b, lines = a ++ x :: b /\ mapM parse a = Ok ps /\ parse x = Raise e
    end.
Proof.
  intros SD; induction lines as [|l lines IH]; intros h W.
  - exists h, [], (Ok tt), []; cbn [iter_lines length seq mapM].
    split; [reflexivity|split; [exact W|split; [reflexivity|split; [lia|split; [intros [|i] p E; discriminate E|split; [repeat split|reflexivity]]]]]].
  - cbn [iter_lines]; destruct (parse l) as [p|e] eqn:P.
    2:{ exists h, [], (Raise e), []; cbn [length seq].
        split; [reflexivity|split; [exact W|split; [reflexivity|split; [lia|split; [intros [|i] p E; discriminate E|split; [repeat split|]]]]]].
        exists [], l, lines; split; [reflexivity|split; [reflexivity|exact P]]. }
    destruct (build_entry_ok h p W (SD l p P)) as [h1 [-> [W1 [L1 [Ew [Er [Es O1]]]]]]].
    destruct (IH h1 W1) as [h' [es [o [ps [-> [W' [-> [L' [V [O' R]]]]]]]]]].
    exists h', (length (entries h) :: seq (length (entries h1)) (length ps)), o, (p :: ps); split; [reflexivity|].
    split; [exact W'|split; [rewrite L1; reflexivity|split; [cbn [length]; lia|split; [|split]]]].
    + intros [|i] q E; cbn [nth_error] in E; cbv zeta.
      * injection E as <-; rewrite Nat.add_0_r; destruct (O' (length (entries h))) as [-> [-> ->]]; [lia|].
        rewrite Ew, Er, Es; destruct p as [? [? ?]]; reflexivity.
      * specialize (V i q E); cbv zeta in V; replace (length (entries h) + S i)%nat with (length (entries h1) + i)%nat by lia; exact V.
    + intros f Hf; destruct (O' f) as [-> [-> ->]]; [lia|]; apply O1, Hf.
    + destruct o as [[]|e].
      * cbn [mapM]; rewrite P; cbn [bind]; rewrite R; reflexivity.
      * destruct R as [a [x [b [-> [M F]]]]]; exists (l :: a), x, b; split; [reflexivity|split; [|exact F]].
        cbn [mapM]; rewrite P; cbn [bind]; rewrite M; reflexivity.
Qed.
