(* FormatLang_proofs.v *)
From Verif Require Import Base PyStr Regex DictFormat_model DictFormat_spec DictFormat_proofs FormatLang_spec.

(* ---------------- reading a match backwards ---------------- *)
Definition stops (p : Z -> bool) (q : list Z) : Prop := match q with c :: _ => p c = false | [] => True end.
Lemma fits p l : exists w q, l = w ++ q /\ forallb p w = true /\ stops p q.
Proof.
  destruct (skip_split p [] l []) as [w [q [E [F [Q _]]]]]; exists w, q; repeat split; assumption.
Qed.
Lemma grp_plus_inv n p k b l cs x : fails_on p k -> mtch (Grp n (Plus (Chr p))) k (mkpos b l cs) = Some x ->
  exists w q, l = w ++ q /\ w <> [] /\ forallb p w = true /\ k (mkpos (rev w ++ b) q ((n, w) :: cs)) = Some x.
Proof.
  intros K M; destruct (fits p l) as [w [q [-> [F Q]]]]; destruct w as [|c w].
  - exfalso; change (mtch (Plus (Chr p)) (fun t => k (capture n (mkpos b q cs) t)) (mkpos b q cs) = Some x) in M.
    rewrite mtch_plus in M by (apply fails_capture, K); cbn [rest] in M; destruct q as [|d q]; [discriminate M|].
    cbn [stops] in Q; rewrite Q in M; discriminate M.
  - exists (c :: w), q; rewrite mtch_grp_plus in M; [|discriminate|exact F|exact Q|exact K].
    split; [reflexivity|split; [discriminate|split; [exact F|exact M]]].
Qed.
(** a nonempty run starts with a character of its class *)
Lemma grp_plus_head n p k b l cs x : mtch (Grp n (Plus (Chr p))) k (mkpos b l cs) = Some x ->
  exists c q, l = c :: q /\ p c = true.
Proof.
  unfold Plus; cbn [mtch rest]; destruct l as [|c q]; [discriminate|]; destruct (p c) eqn:P; [|discriminate].
  intros _; exists c, q; split; [reflexivity|exact P].
Qed.
Lemma grp_plus_none n p k b q cs : stops p q -> mtch (Grp n (Plus (Chr p))) k (mkpos b q cs) = None.
Proof.
  intros Q; destruct (mtch _ _ _) as [x|] eqn:M; [|reflexivity].
  apply grp_plus_head in M; destruct M as [c [r [-> P]]]; cbn [stops] in Q; congruence.
Qed.
Lemma plus_inv p k b l cs x : fails_on p k -> mtch (Plus (Chr p)) k (mkpos b l cs) = Some x ->
  exists w q, l = w ++ q /\ w <> [] /\ forallb p w = true /\ k (mkpos (rev w ++ b) q cs) = Some x.
Proof.
  intros K M; destruct (fits p l) as [w [q [-> [F Q]]]]; destruct w as [|c w].
  - exfalso; rewrite mtch_plus in M by exact K; cbn [rest app] in M; destruct q as [|d q]; [discriminate M|].
    cbn [stops] in Q; rewrite Q in M; discriminate M.
  - exists (c :: w), q; rewrite mtch_plus_app in M; [|discriminate|exact F|exact Q|exact K].
    split; [reflexivity|split; [discriminate|split; [exact F|exact M]]].
Qed.
Lemma isc_inv c k b l cs x : mtch (Chr (isc c)) k (mkpos b l cs) = Some x ->
  exists q, l = c :: q /\ k (mkpos (c :: b) q cs) = Some x.
Proof.
  cbn [mtch rest before caps]; destruct l as [|d q]; [discriminate|]; unfold isc.
  destruct (Z.eqb_spec d c) as [->|]; [|discriminate]; intros M; exists q; split; [reflexivity|exact M].
Qed.
Lemma senses_inv b l cs x : mtch (Grp (u "senses") (Star (Chr dot))) (mtch Eol Some) (mkpos b l cs) = Some x ->
  exists t nl, l = t ++ newline nl /\ ~ In 10 t /\ x = mkpos (rev t ++ b) (newline nl) ((u "senses", t) :: cs).
Proof.
  intros M; destruct (fits dot l) as [t [q [-> [F Q]]]].
  rewrite mtch_grp_star in M; [|exact F|exact Q|apply fails_dot_eol].
  destruct (eol_inv _ _ _ _ M) as [nl ->]; rewrite mtch_eol_nl in M; injection M as <-.
  exists t, nl; split; [reflexivity|split; [apply forallb_notc, F|reflexivity]].
Qed.
Lemma notc_item c w : w <> [] -> forallb (notc c) w = true -> item [c] w.
Proof. intros N F; split; [exact N|]; intros d [<-|[]]; apply forallb_notc, F. Qed.
Lemma item_notc c w : item [c] w -> w <> [] /\ forallb (notc c) w = true.
Proof. intros [N F]; split; [exact N|]; apply (free_notc [c]); [exact F|left; reflexivity]. Qed.

(* ---------------- splitting ---------------- *)
Lemma split_cons c s : exists p ps, split_on c s = p :: ps.
Proof.
  induction s as [|d s [p [ps E]]]; [exists [], []; reflexivity|]; cbn [split_on]; rewrite E.
  destruct (d =? c); eexists; eexists; reflexivity.
Qed.
Lemma split_sep c s : split_on c (c :: s) = [] :: split_on c s.
Proof. cbn [split_on]; destruct (split_cons c s) as [p [ps ->]]; rewrite Z.eqb_refl; reflexivity. Qed.
Lemma split_other c d s : d <> c -> exists p ps, split_on c s = p :: ps /\ split_on c (d :: s) = (d :: p) :: ps.
Proof.
  intros N; cbn [split_on]; destruct (split_cons c s) as [p [ps ->]]; exists p, ps.
  replace (d =? c) with false by (symmetry; apply Z.eqb_neq; exact N); split; reflexivity.
Qed.
Lemma split_run c w q : forallb (notc c) w = true ->
  exists p ps, split_on c q = p :: ps /\ split_on c (w ++ q) = (w ++ p) :: ps.
Proof.
  intros F; destruct (split_cons c q) as [p [ps E]]; exists p, ps; split; [exact E|].
  induction w as [|d w IH]; [exact E|]; cbn [forallb] in F; apply andb_prop in F; destruct F as [Nd F].
  apply notc_true in Nd; cbn [app]; destruct (split_other c d (w ++ q) Nd) as [p' [ps' [E1 E2]]].
  rewrite (IH F) in E1; injection E1 as <- <-; exact E2.
Qed.
Lemma split_stop c w q : forallb (notc c) w = true -> stops (notc c) q ->
  split_on c (w ++ q) = w :: tl (split_on c q).
Proof.
  intros F Q; destruct (split_run c w q F) as [p [ps [E ->]]]; rewrite E; cbn [tl].
  replace p with (@nil Z); [rewrite app_nil_r; reflexivity|].
  destruct q as [|d q]; [injection E as <- _; reflexivity|]; cbn [stops] in Q.
  apply notc_false in Q; subst d; rewrite split_sep in E; injection E as <- _; reflexivity.
Qed.

(* ---------------- senses after slashes ---------------- *)
Lemma slash_tail c q : c <> u1 "/" -> tl (split_on (u1 "/") (c :: q)) = tl (split_on (u1 "/") q).
Proof. intros N; destruct (split_other (u1 "/") c q N) as [p [ps [-> ->]]]; reflexivity. Qed.
Lemma slash_senses_scan : forall n l b, (length l < n)%nat ->
  map sense_of (scan n (sense_pattern edict) b l) = slash_senses l.
Proof.
  induction n as [|n IH]; intros l b L; [lia|]; destruct l as [|c q]; [reflexivity|]; cbn [length] in L.
  destruct (Z.eq_dec c (u1 "/")) as [->|N].
  2:{ rewrite scan_miss by exact N; rewrite IH by lia; unfold slash_senses; rewrite slash_tail by exact N; reflexivity. }
  unfold slash_senses; rewrite split_sep; cbn [tl].
  destruct (fits (notc (u1 "/")) q) as [w [q' [-> [F Q]]]]; rewrite (split_stop _ _ _ F Q).
  destruct w as [|d w].
  - cbn [app] in *; cbn [scan]; replace (mtch (sense_pattern edict) Some (mkpos b (u1 "/" :: q') [])) with (@None pos); [apply IH; lia|].
    cbn [sense_pattern edict Seqs]; rewrite mtch_seq, mtch_isc; symmetry.
    apply grp_plus_none, Q.
  - assert (M : mtch (sense_pattern edict) Some (mkpos b (u1 "/" :: (d :: w) ++ q') []) =
      Some (mkpos (rev (d :: w) ++ u1 "/" :: b) q' [(u "sense", d :: w)])).
    { cbn [sense_pattern edict Seqs]; rewrite mtch_seq, mtch_isc; apply mtch_grp_plus_longest; [discriminate|exact F|exact Q|reflexivity]. }
    rewrite app_length in L; cbn [length] in L.
    rewrite (scan_hit _ _ _ _ _ M) by (cbn [rest length]; rewrite app_length; lia).
    cbn [map before rest filter nonempty]; f_equal; apply IH; lia.
Qed.
Lemma slash_senses_find l : map sense_of (finditer (sense_pattern edict) l) = slash_senses l.
Proof. apply slash_senses_scan; lia. Qed.

(* ---------------- senses between commas ---------------- *)
Lemma scan_none n r b c q : mtch r Some (mkpos b (c :: q) []) = None -> scan (S n) r b (c :: q) = scan n r (c :: b) q.
Proof. intros M; cbn [scan]; rewrite M; reflexivity. Qed.
Lemma comma_senses_scan : forall n l b, (length l < n)%nat ->
  map sense_of (scan n (sense_pattern jc_kdic) b l) = comma_senses l.
Proof.
  induction n as [|n IH]; intros l b L; [lia|]; destruct (fits (notc (u1 "，")) l) as [w [q [-> [F Q]]]].
  unfold comma_senses; rewrite (split_stop _ _ _ F Q); destruct w as [|d w].
  - cbn [app] in *; destruct q as [|c q]; [reflexivity|]; cbn [stops] in Q; apply notc_false in Q; subst c; cbn [length] in L.
    rewrite scan_none; [rewrite IH by lia; rewrite split_sep; reflexivity|].
    cbn [sense_pattern jc_kdic Seqs]; rewrite mtch_seq; apply grp_plus_none; reflexivity.
  - cbn [filter nonempty]; rewrite app_length in L; cbn [length] in L; destruct q as [|c q].
    + assert (M : mtch (sense_pattern jc_kdic) Some (mkpos b ((d :: w) ++ []) []) = Some (mkpos (rev (d :: w) ++ b) [] [(u "sense", d :: w)])).
      { cbn [sense_pattern jc_kdic Seqs]; rewrite mtch_seq; apply mtch_grp_plus_longest; [discriminate|exact F|exact I|reflexivity]. }
      rewrite (scan_hit _ _ _ _ _ M) by (cbn [rest length]; rewrite app_length; cbn [length]; lia).
      cbn [map before rest]; f_equal; rewrite IH by (cbn [length]; lia); reflexivity.
    + cbn [stops] in Q; apply notc_false in Q; subst c; cbn [length] in L.
      assert (M : mtch (sense_pattern jc_kdic) Some (mkpos b ((d :: w) ++ u1 "，" :: q) []) =
        Some (mkpos (u1 "，" :: rev (d :: w) ++ b) q [(u "sense", d :: w)])).
      { cbn [sense_pattern jc_kdic Seqs]; rewrite mtch_seq; apply mtch_grp_plus_longest; [discriminate|exact F|reflexivity|].
        rewrite mtch_opt, mtch_isc; reflexivity. }
      rewrite (scan_hit _ _ _ _ _ M) by (cbn [rest length]; rewrite app_length; cbn [length]; lia).
      cbn [map before rest]; rewrite split_sep; f_equal; apply IH; lia.
Qed.
Lemma comma_senses_find l : map sense_of (finditer (sense_pattern jc_kdic) l) = comma_senses l.
Proof. apply comma_senses_scan; lia. Qed.

(* ---------------- senses between backslash-n ---------------- *)
Lemma prefix_run p : forall v a q r, forallb p v = true -> stops p q -> a ++ q = v ++ r -> exists a', a = v ++ a'.
Proof.
  induction v as [|c v IH]; intros a q r F Q E; [exists a; reflexivity|].
  cbn [forallb] in F; apply andb_prop in F; destruct F as [Pc F].
  destruct a as [|d a]; [cbn [app] in E; subst q; cbn [stops app] in Q; congruence|].
  injection E as -> E; destruct (IH a q r F Q E) as [a' ->]; exists a'; reflexivity.
Qed.
Definition cj_rest := Seq (Grp (u "sense") (Plus (Chr (notc (u1 "\"))))) (Opt (Lit (u "\n"))).
Definition cj_number := Seq (Plus (Chr sense_digit)) (Chr (isc (u1 "．"))).
Lemma cj_pattern : sense_pattern cj_kdic = Seq (Opt cj_number) cj_rest. Proof. reflexivity. Qed.
Lemma digit_not_bs c : sense_digit c = true -> notc (u1 "\") c = true.
Proof. intros D; apply notc_true; intros ->; discriminate D. Qed.
(** the position after one sense *)
Definition after_sense (q : list Z) : list Z := match q with c :: d :: q' => if (c =? u1 "\") && (d =? u1 "n") then q' else q | _ => q end.
Lemma cj_rest_ok b p q cs : p <> [] -> forallb (notc (u1 "\")) p = true -> stops (notc (u1 "\")) q ->
  exists b', mtch cj_rest Some (mkpos b (p ++ q) cs) = Some (mkpos b' (after_sense q) ((u "sense", p) :: cs)).
Proof.
  intros N F Q; unfold cj_rest; rewrite mtch_seq.
  destruct q as [|c q]; [eexists; apply mtch_grp_plus_longest; [exact N|exact F|exact Q|reflexivity]|].
  cbn [stops] in Q; pose proof Q as Qc; apply notc_false in Qc; subst c.
  destruct q as [|d q]; [eexists; apply mtch_grp_plus_longest; [exact N|exact F|exact Q|reflexivity]|].
  cbn [after_sense]; rewrite Z.eqb_refl; destruct (Z.eqb_spec d (u1 "n")) as [->|Nd]; eexists; (apply mtch_grp_plus_longest; [exact N|exact F|exact Q|]).
  - rewrite mtch_opt; change (u1 "\" :: u1 "n" :: q) with (u "\n" ++ q); rewrite mtch_lit; reflexivity.
  - rewrite mtch_opt.
    match goal with |- match ?m with _ => _ end = _ => destruct m as [x|] eqn:M end; [|reflexivity].
    apply mtch_lit_inv in M; destruct M as [q' [E _]]; injection E as E _; contradiction.
Qed.
Lemma has_number_digits p n q : has_number p n q -> forallb sense_digit n = true.
Proof. intros [_ [_ [D _]]]; apply forallb_forall; intros c I; apply sense_digit_digits, D, I. Qed.
Lemma number_ok b p n t q : has_number p n t -> forallb (notc (u1 "\")) p = true -> stops (notc (u1 "\")) q ->
  exists b', mtch (sense_pattern cj_kdic) Some (mkpos b (p ++ q) []) = Some (mkpos b' (after_sense q) [(u "sense", t)]).
Proof.
  intros H F Q; pose proof (has_number_digits _ _ _ H) as D; destruct H as [-> [N [_ Nt]]].
  rewrite !forallb_app in F; apply andb_prop in F; destruct F as [_ F]; apply andb_prop in F; destruct F as [_ F].
  rewrite cj_pattern, mtch_seq, mtch_opt; unfold cj_number; rewrite mtch_seq.
  rewrite <- !app_assoc, mtch_plus_app; [|exact N|exact D|reflexivity|apply fails_chr, sense_digit_stop].
  change (u "．" ++ t ++ q) with (u1 "．" :: t ++ q); rewrite mtch_isc.
  destruct (cj_rest_ok (u1 "．" :: rev n ++ b) t q [] Nt F Q) as [b' ->]; exists b'; reflexivity.
Qed.
Lemma plain_ok b p q : (forall n t, ~ has_number p n t) -> p <> [] -> forallb (notc (u1 "\")) p = true -> stops (notc (u1 "\")) q ->
  exists b', mtch (sense_pattern cj_kdic) Some (mkpos b (p ++ q) []) = Some (mkpos b' (after_sense q) [(u "sense", p)]).
Proof.
  intros H N F Q; rewrite cj_pattern, mtch_seq, mtch_opt.
  destruct (mtch cj_number (mtch cj_rest Some) (mkpos b (p ++ q) [])) as [x|] eqn:M; [exfalso|apply cj_rest_ok; assumption].
  unfold cj_number in M; rewrite mtch_seq in M; apply plus_inv in M; [|apply fails_chr, sense_digit_stop].
  destruct M as [w [q1 [E [Nw [D M]]]]]; apply isc_inv in M; destruct M as [q2 [-> M]].
  unfold cj_rest in M; rewrite mtch_seq in M; apply grp_plus_head in M; destruct M as [c [q3 [-> Nc]]].
  change (w ++ u1 "．" :: c :: q3) with (w ++ [u1 "．"; c] ++ q3) in E; rewrite app_assoc in E.
  apply (prefix_run (notc (u1 "\"))) in E; [|rewrite forallb_app; cbn [forallb]; rewrite Nc|exact Q].
  - destruct E as [a ->]; apply (H w (c :: a)); split; [rewrite <- app_assoc; reflexivity|split; [exact Nw|split; [|discriminate]]].
    intros d I; rewrite forallb_forall in D; apply sense_digit_digits, D, I.
  - replace (forallb (notc (u1 "\")) w) with true; [reflexivity|].
    symmetry; apply forallb_forall; intros d I; rewrite forallb_forall in D; apply digit_not_bs, D, I.
Qed.
Lemma number_dec p : (exists n t, has_number p n t) \/ (forall n t, ~ has_number p n t).
Proof.
  destruct (fits sense_digit p) as [n [q [-> [D Q]]]].
  assert (U : forall m t, has_number (n ++ q) m t -> m = n /\ q = u1 "．" :: t).
  { intros m t H; pose proof (has_number_digits _ _ _ H) as Dm; destruct H as [E _].
    apply app_eq_app in E; destruct E as [l [[E1 E2]|[E1 E2]]].
    - destruct l as [|c l]; [rewrite app_nil_r in E1; split; [exact (eq_sym E1)|exact (eq_sym E2)]|].
      injection E2 as <- _; rewrite E1, forallb_app in D; apply andb_prop in D; destruct D as [_ D]; discriminate D.
    - destruct l as [|c l]; [rewrite app_nil_r in E1; split; [exact E1|exact E2]|].
      rewrite E2 in Q; cbn [stops app] in Q; rewrite E1, forallb_app in Dm; apply andb_prop in Dm; destruct Dm as [_ Dm].
      cbn [forallb] in Dm; rewrite Q in Dm; discriminate Dm. }
  destruct n as [|d n]; [right; intros m t H; destruct (U m t H) as [-> _]; destruct H as [_ [H _]]; congruence|].
  destruct q as [|c q]; [right; intros m t H; destruct (U m t H) as [_ X]; discriminate X|].
  destruct (Z.eq_dec c (u1 "．")) as [->|Nc]; [|right; intros m t H; destruct (U m t H) as [_ X]; congruence].
  destruct q as [|c q]; [right; intros m t H; destruct (U m t H) as [_ X]; injection X as <-; destruct H as [_ [_ [_ H]]]; congruence|].
  left; exists (d :: n), (c :: q); split; [reflexivity|split; [discriminate|split; [|discriminate]]].
  intros x I; rewrite forallb_forall in D; apply sense_digit_digits, D, I.
Qed.
Lemma sense_ok b p x q : item (u "\") p -> unnumbered p x -> stops (notc (u1 "\")) q ->
  exists b', mtch (sense_pattern cj_kdic) Some (mkpos b (p ++ q) []) = Some (mkpos b' (after_sense q) [(u "sense", x)]).
Proof.
  intros I U Q; apply item_notc in I; destruct I as [N F]; destruct U as [p n x H|p H].
  - apply (number_ok b p n); assumption.
  - apply plain_ok; assumption.
Qed.
Lemma unnumbered_total p : exists x, unnumbered p x.
Proof.
  destruct (number_dec p) as [[n [t H]]|H]; [exists t; exact (Un_cut p n t H)|exists p; exact (Un_all p H)].
Qed.

Lemma bs_stray_scan n b q : scan (S n) (sense_pattern cj_kdic) b (u1 "\" :: q) = scan n (sense_pattern cj_kdic) (u1 "\" :: b) q.
Proof.
  apply scan_none; rewrite cj_pattern, mtch_seq, mtch_opt.
  replace (mtch cj_number (mtch cj_rest Some) (mkpos b (u1 "\" :: q) [])) with (@None pos).
  - unfold cj_rest; rewrite mtch_seq; apply grp_plus_none; reflexivity.
  - unfold cj_number; rewrite mtch_seq, mtch_plus by (apply fails_chr, sense_digit_stop); reflexivity.
Qed.
Lemma bs_scan s xs : bs_senses s xs -> forall n b, (length s < n)%nat -> map sense_of (scan n (sense_pattern cj_kdic) b s) = xs.
Proof.
  intros H; induction H as [|s xs H IH|p x I U|p x s xs I U H IH|p x s xs I U H IH Nn]; intros n b L; (destruct n as [|n]; [lia|]).
  - reflexivity.
  - change (u "\" ++ s) with (u1 "\" :: s) in *; cbn [length] in L; rewrite bs_stray_scan; apply IH; lia.
  - destruct (sense_ok b p x [] I U Logic.I) as [b' M]; rewrite app_nil_r in M.
    rewrite (scan_hit _ _ _ _ _ M); cbn [rest after_sense]; [|destruct I as [I _]; destruct p; [congruence|cbn [length]; lia]].
    cbn [map before]; f_equal; destruct n; reflexivity.
  - destruct (sense_ok b p x (u "\n" ++ s) I U eq_refl) as [b' M].
    change (after_sense (u "\n" ++ s)) with s in M; rewrite !app_length in L; change (length (u "\n")) with 2%nat in L.
    rewrite (scan_hit _ _ _ _ _ M); cbn [rest before map]; [|rewrite !app_length; change (length (u "\n")) with 2%nat; lia].
    f_equal; apply IH; lia.
  - destruct (sense_ok b p x (u "\" ++ s) I U eq_refl) as [b' M].
    replace (after_sense (u "\" ++ s)) with (u1 "\" :: s) in M.
    2:{ change (u "\" ++ s) with (u1 "\" :: s); destruct s as [|d s]; [reflexivity|]; cbn [after_sense]; rewrite Z.eqb_refl.
        destruct (Z.eqb_spec d (u1 "n")) as [->|]; [elim (Nn s eq_refl)|reflexivity]. }
    rewrite !app_length in L; change (length (u "\")) with 1%nat in L; destruct p as [|c p]; [destruct I; congruence|]; cbn [length] in L.
    rewrite (scan_hit _ _ _ _ _ M); cbn [rest before map]; [|rewrite !app_length; change (length (u "\")) with 1%nat; cbn [length]; lia].
    destruct n as [|n]; [lia|]; rewrite bs_stray_scan; f_equal; apply IH; lia.
Qed.
Lemma bs_total : forall n s, (length s < n)%nat -> exists xs, bs_senses s xs.
Proof.
  induction n as [|n IH]; intros s L; [lia|]; destruct (fits (notc (u1 "\")) s) as [p [q [-> [F Q]]]].
  rewrite app_length in L; destruct p as [|c p].
  - cbn [app length] in *; destruct q as [|c q]; [exists []; constructor|]; cbn [stops] in Q; apply notc_false in Q; subst c; cbn [length] in L.
    destruct (IH q) as [xs H]; [lia|]; exists xs; exact (Bs_stray q xs H).
  - assert (I : item (u "\") (c :: p)) by (apply (notc_item (u1 "\")); [discriminate|exact F]).
    destruct (unnumbered_total (c :: p)) as [x U]; destruct q as [|d q].
    + rewrite app_nil_r; exists [x]; constructor; assumption.
    + cbn [stops] in Q; apply notc_false in Q; subst d; cbn [length] in L.
      assert (X : (exists t, q = u "n" ++ t) \/ forall t, q <> u "n" ++ t).
      { destruct q as [|d q]; [right; discriminate|]; destruct (Z.eq_dec d (u1 "n")) as [->|Nd]; [left; exists q; reflexivity|].
        right; intros t E; injection E as E _; contradiction. }
      destruct X as [[t ->]|X].
      * destruct (IH t) as [xs H]; [cbn [length app] in L; change (length (u "n" ++ t)) with (S (length t)) in L; lia|].
        exists (x :: xs); exact (Bs_sep _ _ _ _ I U H).
      * destruct (IH q) as [xs H]; [lia|]; exists (x :: xs); exact (Bs_odd _ _ _ _ I U H X).
Qed.
Lemma bs_find s xs : map sense_of (finditer (sense_pattern cj_kdic) s) = xs <-> bs_senses s xs.
Proof.
  unfold finditer; split.
  - intros E; destruct (bs_total (S (length s)) s) as [ys H]; [lia|]; rewrite (bs_scan s ys H) in E by lia; subst; exact H.
  - intros H; apply (bs_scan s xs H); lia.
Qed.

(* ---------------- lines ---------------- *)
(** what parse_line makes of a match *)
Definition of_groups (f : format) (w : list Z) (reading : option (list Z)) (s : list Z) : res parsed :=
  match map sense_of (finditer (sense_pattern f) s) with
  | [] => Raise FormatError
  | senses => Ok (spaceless w, ([match reading with Some r => spaceless r | None => spaceless w end], senses))
  end.
Lemma parse_groups f line m w reading s :
  match_ (line_pattern f) line = Some m ->
  caps m = (u "senses", s) :: match reading with Some r => [(u "reading", r)] | None => [] end ++ [(u "word", w)] ->
  reading <> Some [] -> parse_line f line = of_groups f w reading s.
Proof.
  intros M C N; unfold parse_line; rewrite M; unfold group; rewrite C.
  replace (dget (u "word") _) with (Some w) by (destruct reading; reflexivity).
  replace (dget (u "senses") _) with (Some s) by (destruct reading; reflexivity).
  replace (dget (u "reading") _) with reading by (destruct reading; reflexivity).
  unfold of_groups; rewrite !no_spaces_spaceless.
  destruct (map sense_of _); [reflexivity|]; destruct reading as [[|c r]|]; [congruence|reflexivity|].
  rewrite spaceless_idem; reflexivity.
Qed.
Lemma parse_no_match f line : match_ (line_pattern f) line = None -> parse_line f line = Raise FormatError.
Proof. intros M; unfold parse_line; rewrite M; reflexivity. Qed.
Lemma of_groups_ok f w reading s p : of_groups f w reading s = Ok p <->
  map sense_of (finditer (sense_pattern f) s) <> [] /\
  p = (spaceless w, ([match reading with Some r => spaceless r | None => spaceless w end], map sense_of (finditer (sense_pattern f) s))).
Proof.
  unfold of_groups; destruct (map sense_of _) as [|x xs]; split.
  - discriminate.
  - intros [N _]; congruence.
  - intros E; injection E as <-; split; [discriminate|reflexivity].
  - intros [_ ->]; reflexivity.
Qed.
Lemma item_spaceless w : item (u " ") w -> spaceless w = w.
Proof. intros [_ F]; apply spaceless_id, F; left; reflexivity. Qed.

(** the optional reading in brackets *)
Lemma bracket_inv close k b l cs x :
  mtch (Seqs [Chr (isc (u1 "[")); Grp (u "reading") (Plus (Chr (notc (u1 "]")))); Lit (u1 "]" :: close)]) k (mkpos b l cs) = Some x ->
  exists b' r t, item (u "]") r /\ l = bracket (u1 "]" :: close) r t /\ k (mkpos b' t ((u "reading", r) :: cs)) = Some x.
Proof.
  cbn [Seqs]; rewrite mtch_seq; intros M; apply isc_inv in M; destruct M as [q [-> M]].
  rewrite mtch_seq in M; apply grp_plus_inv in M; [|apply fails_lit]; destruct M as [r [q' [-> [N [F M]]]]].
  apply mtch_lit_inv in M; destruct M as [t [-> M]].
  eexists; exists r, t; split; [apply notc_item; assumption|split; [reflexivity|exact M]].
Qed.
Lemma bracket_ok close k b r t cs : item (u "]") r -> exists b',
  mtch (Seqs [Chr (isc (u1 "[")); Grp (u "reading") (Plus (Chr (notc (u1 "]")))); Lit (u1 "]" :: close)]) k (mkpos b (bracket (u1 "]" :: close) r t) cs) =
  k (mkpos b' t ((u "reading", r) :: cs)).
Proof.
  intros I; apply item_notc in I; destruct I as [N F]; unfold bracket; cbn [Seqs]; rewrite mtch_seq.
  change (u "[" ++ ?x) with (u1 "[" :: x); rewrite mtch_isc, mtch_seq.
  rewrite mtch_grp_plus; [|exact N|exact F|reflexivity|apply fails_lit].
  rewrite mtch_lit; eexists; reflexivity.
Qed.
Lemma bracketed_nl s nl : bracketed (u "] ") (s ++ newline nl) -> bracketed (u "] ") s.
Proof.
  intros [r [t [I E]]]; destruct nl; cbn [newline] in E; [|rewrite app_nil_r in E; exists r, t; split; assumption].
  destruct t as [|c t] using rev_ind.
  - exfalso; unfold bracket in E; rewrite app_nil_r in E.
    change (u "[" ++ r ++ u "] ") with (u "[" ++ r ++ u "]" ++ u " ") in E; rewrite !app_assoc in E.
    apply app_inj_tail in E; destruct E as [_ E]; discriminate E.
  - unfold bracket in E; rewrite !app_assoc in E; apply app_inj_tail in E; destruct E as [E _].
    exists r, t; split; [exact I|unfold bracket; rewrite E, <- !app_assoc; reflexivity].
Qed.

Definition edict_bracket := Seqs [Chr (isc (u1 "[")); Grp (u "reading") (Plus (Chr (notc (u1 "]")))); Lit (u "] ")].
Definition cedict_bracket := Seqs [Chr (isc (u1 "[")); Grp (u "reading") (Plus (Chr (notc (u1 "]")))); Chr (isc (u1 "]"))].
Definition senses_eol := Seq (Grp (u "senses") (Star (Chr dot))) Eol.

(* edict *)
Lemma edict_start line : match_ (line_pattern edict) line =
  mtch (Grp (u "word") (Plus (Chr (notc (u1 " "))))) (mtch (Chr (isc (u1 " "))) (mtch (Opt edict_bracket) (mtch senses_eol Some))) (mkpos [] line []).
Proof. reflexivity. Qed.
Lemma edict_exact line p : parse_line edict line = Ok p <-> entry_line edict line p.
Proof.
  split.
  - intros P; destruct (match_ (line_pattern edict) line) as [m|] eqn:M; [|rewrite (parse_no_match _ _ M) in P; discriminate P].
    pose proof M as M0; rewrite edict_start in M; apply grp_plus_inv in M; [|apply fails_isc]; destruct M as [w [q [-> [N [F M]]]]].
    apply isc_inv in M; destruct M as [q' [-> M]]; rewrite mtch_opt in M.
    assert (Iw : item (u " ") w) by (apply notc_item; assumption).
    destruct (mtch edict_bracket _ _) as [x|] eqn:B.
    + injection M as <-; apply (bracket_inv (u " ")) in B; destruct B as [b [r [t [Ir [-> B]]]]].
      apply senses_inv in B; destruct B as [s [nl [-> [Ns ->]]]].
      rewrite (parse_groups edict _ _ w (Some r) s M0 eq_refl) in P by (destruct Ir as [Ir _]; congruence).
      apply of_groups_ok in P; rewrite slash_senses_find in P; destruct P as [Ne ->].
      rewrite (item_spaceless w) by exact Iw.
      change (u1 " " :: bracket (u1 "]" :: u " ") r (s ++ newline nl)) with (u " " ++ bracket (u "] ") r (s ++ newline nl)).
      replace (bracket (u "] ") r (s ++ newline nl)) with (bracket (u "] ") r s ++ newline nl) by (unfold bracket; rewrite <- !app_assoc; reflexivity).
      exact (L_edict_reading w r s nl Iw Ir Ns Ne).
    + apply senses_inv in M; destruct M as [s [nl [-> [Ns ->]]]].
      rewrite (parse_groups edict _ _ w None s M0 eq_refl) in P by discriminate.
      apply of_groups_ok in P; rewrite slash_senses_find in P; destruct P as [Ne ->].
      rewrite (item_spaceless w) by exact Iw; apply L_edict_plain; try assumption.
      intros [r [t [Ir ->]]].
      assert (Nt : ~ In 10 t) by (intros I; apply Ns; unfold bracket; rewrite !in_app_iff; tauto).
      replace (bracket (u "] ") r t ++ newline nl) with (bracket (u "] ") r (t ++ newline nl)) in B by (unfold bracket; rewrite <- !app_assoc; reflexivity).
      destruct (bracket_ok (u " ") (mtch senses_eol Some) (u1 " " :: rev w ++ []) r (t ++ newline nl) [(u "word", w)] Ir) as [b' B'].
      unfold edict_bracket in B; change (u "] ") with (u1 "]" :: u " ") in B; rewrite B' in B; unfold senses_eol in B; rewrite mtch_seq, senses_tail in B by exact Nt.
      discriminate B.
  - intros H; inversion H as [w r s nl Iw Ir Ns Ne E1 E2 E3|w s nl Iw NB Ns Ne E1 E2 E3| | | |]; clear H.
    + assert (M : exists b, match_ (line_pattern edict) (w ++ u " " ++ bracket (u "] ") r s ++ newline nl) =
        Some (mkpos b (newline nl) [(u "senses", s); (u "reading", r); (u "word", w)])).
      { pose proof Iw as Iw'; apply item_notc in Iw'; destruct Iw' as [N F]; rewrite edict_start.
        rewrite mtch_grp_plus; [|exact N|exact F|reflexivity|apply fails_isc].
        change (u " " ++ ?x) with (u1 " " :: x); rewrite mtch_isc, mtch_opt.
        replace (bracket (u "] ") r s ++ newline nl) with (bracket (u "] ") r (s ++ newline nl)) by (unfold bracket; rewrite <- !app_assoc; reflexivity).
        destruct (bracket_ok (u " ") (mtch senses_eol Some) (u1 " " :: rev w ++ []) r (s ++ newline nl) [(u "word", w)] Ir) as [b' B'].
        unfold edict_bracket; change (u "] ") with (u1 "]" :: u " "); rewrite B'; unfold senses_eol; rewrite mtch_seq, senses_tail by exact Ns.
        eexists; reflexivity. }
      destruct M as [b M]; rewrite (parse_groups edict _ _ w (Some r) s M eq_refl) by (destruct Ir as [Ir _]; congruence).
      apply of_groups_ok; rewrite slash_senses_find, (item_spaceless w) by exact Iw; split; [exact Ne|reflexivity].
    + assert (M : exists b, match_ (line_pattern edict) (w ++ u " " ++ s ++ newline nl) =
        Some (mkpos b (newline nl) [(u "senses", s); (u "word", w)])).
      { pose proof Iw as Iw'; apply item_notc in Iw'; destruct Iw' as [N F]; rewrite edict_start.
        rewrite mtch_grp_plus; [|exact N|exact F|reflexivity|apply fails_isc].
        change (u " " ++ ?x) with (u1 " " :: x); rewrite mtch_isc, mtch_opt.
        destruct (mtch edict_bracket _ _) as [x|] eqn:B.
        - exfalso; apply (bracket_inv (u " ")) in B; destruct B as [b [r [t [Ir [E _]]]]]; apply NB, (bracketed_nl s nl); exists r, t; split; assumption.
        - unfold senses_eol; rewrite mtch_seq, senses_tail by exact Ns; eexists; reflexivity. }
      destruct M as [b M]; rewrite (parse_groups edict _ _ w None s M eq_refl) by discriminate.
      apply of_groups_ok; rewrite slash_senses_find, (item_spaceless w) by exact Iw; split; [exact Ne|reflexivity].
Qed.

(* cedict *)
Lemma cedict_start line : match_ (line_pattern cedict) line =
  mtch (Plus (Chr (notc (u1 " ")))) (mtch (Chr (isc (u1 " "))) (mtch (Grp (u "word") (Plus (Chr (notc (u1 " "))))) (mtch (Chr (isc (u1 " ")))
    (mtch (Opt cedict_bracket) (mtch (Grp (u "senses") (Star (Chr dot))) Some))))) (mkpos [] line []).
Proof. reflexivity. Qed.
Lemma cedict_bracket_lit k s : mtch cedict_bracket k s =
  mtch (Seqs [Chr (isc (u1 "[")); Grp (u "reading") (Plus (Chr (notc (u1 "]")))); Lit (u1 "]" :: [])]) k s.
Proof. reflexivity. Qed.
Lemma stop_nl rest : stops dot rest <-> rest = [] \/ exists t, rest = 10 :: t.
Proof.
  destruct rest as [|c t]; cbn [stops]; split; [left; reflexivity|intros _; exact I| |].
  - intros D; apply notc_false in D; subst c; right; exists t; reflexivity.
  - intros [E|[t' E]]; [discriminate E|injection E as -> _; reflexivity].
Qed.
Lemma senses_last b s rest cs : ~ In 10 s -> stops dot rest ->
  mtch (Grp (u "senses") (Star (Chr dot))) Some (mkpos b (s ++ rest) cs) = Some (mkpos (rev s ++ b) rest ((u "senses", s) :: cs)).
Proof. intros N Q; apply mtch_grp_star_longest; [apply forallb_notc, N|exact Q|reflexivity]. Qed.
Lemma cedict_exact line p : parse_line cedict line = Ok p <-> entry_line cedict line p.
Proof.
  split.
  - intros P; destruct (match_ (line_pattern cedict) line) as [m|] eqn:M; [|rewrite (parse_no_match _ _ M) in P; discriminate P].
    pose proof M as M0; rewrite cedict_start in M; apply plus_inv in M; [|apply fails_isc]; destruct M as [v [q0 [-> [Nv [Fv M]]]]].
    apply isc_inv in M; destruct M as [q1 [-> M]]; apply grp_plus_inv in M; [|apply fails_isc]; destruct M as [w [q [-> [N [F M]]]]].
    apply isc_inv in M; destruct M as [q' [-> M]]; rewrite mtch_opt, cedict_bracket_lit in M.
    assert (Iw : item (u " ") w) by (apply notc_item; assumption).
    assert (Iv : item (u " ") v) by (apply notc_item; assumption).
    match type of M with match ?m with _ => _ end = _ => destruct m as [x|] eqn:B end.
    + injection M as <-; apply (bracket_inv []) in B; destruct B as [b [r [t [Ir [-> B]]]]].
      destruct (fits dot t) as [s [tl [-> [Fs Qs]]]]; assert (Ns : ~ In 10 s) by (apply forallb_notc, Fs).
      rewrite senses_last in B by assumption; injection B as <-.
      rewrite (parse_groups cedict _ _ w (Some r) s M0 eq_refl) in P by (destruct Ir as [Ir _]; congruence).
      apply of_groups_ok in P; change (sense_pattern cedict) with (sense_pattern edict) in P; rewrite slash_senses_find in P; destruct P as [Ne ->].
      rewrite (item_spaceless w) by exact Iw; apply stop_nl in Qs.
      replace (bracket [u1 "]"] r (s ++ tl)) with (bracket (u "]") r s ++ tl) by (unfold bracket; rewrite <- !app_assoc; reflexivity).
      exact (L_cedict_reading v w r s tl Iv Iw Ir Ns Ne Qs).
    + destruct (fits dot q') as [s [tl [-> [Fs Qs]]]]; assert (Ns : ~ In 10 s) by (apply forallb_notc, Fs).
      rewrite senses_last in M by assumption; injection M as <-.
      rewrite (parse_groups cedict _ _ w None s M0 eq_refl) in P by discriminate.
      apply of_groups_ok in P; change (sense_pattern cedict) with (sense_pattern edict) in P; rewrite slash_senses_find in P; destruct P as [Ne ->].
      rewrite (item_spaceless w) by exact Iw; apply L_cedict_plain; try assumption; [|apply stop_nl, Qs].
      intros [r [t [Ir E]]]; rewrite E in B.
      match type of B with mtch _ ?k (mkpos ?b _ ?cs) = _ => destruct (bracket_ok [] k b r t cs Ir) as [b' B'] end.
      change (u "]") with (u1 "]" :: []) in B; rewrite B' in B.
      destruct (fits dot t) as [s' [tl' [-> [Fs' Qs']]]]; rewrite senses_last in B; [discriminate B|apply forallb_notc, Fs'|exact Qs'].
  - intros H; inversion H as [| | | |v w r s tl Iv Iw Ir Ns Ne Qs E1 E2 E3|v w s tl Iv Iw NB Ns Ne Qs E1 E2 E3]; clear H; apply stop_nl in Qs.
    + assert (M : exists b, match_ (line_pattern cedict) (v ++ u " " ++ w ++ u " " ++ bracket (u "]") r s ++ tl) =
        Some (mkpos b tl [(u "senses", s); (u "reading", r); (u "word", w)])).
      { pose proof Iw as Iw'; apply item_notc in Iw'; destruct Iw' as [N F]; pose proof Iv as Iv'; apply item_notc in Iv'; destruct Iv' as [Nv Fv]; rewrite cedict_start.
        rewrite mtch_plus_app; [|exact Nv|exact Fv|reflexivity|apply fails_isc].
        change (u " " ++ w ++ ?x) with (u1 " " :: w ++ x); rewrite mtch_isc.
        rewrite mtch_grp_plus; [|exact N|exact F|reflexivity|apply fails_isc].
        change (u " " ++ ?x) with (u1 " " :: x); rewrite mtch_isc, mtch_opt, cedict_bracket_lit.
        replace (bracket (u "]") r s ++ tl) with (bracket (u1 "]" :: []) r (s ++ tl)) by (unfold bracket; rewrite <- !app_assoc; reflexivity).
        match goal with |- exists b, match mtch _ ?k (mkpos ?b0 _ ?cs) with _ => _ end = _ => destruct (bracket_ok [] k b0 r (s ++ tl) cs Ir) as [b' ->] end.
        rewrite senses_last by assumption; eexists; reflexivity. }
      destruct M as [b M]; rewrite (parse_groups cedict _ _ w (Some r) s M eq_refl) by (destruct Ir as [Ir _]; congruence).
      apply of_groups_ok; change (sense_pattern cedict) with (sense_pattern edict); rewrite slash_senses_find, (item_spaceless w) by exact Iw; split; [exact Ne|reflexivity].
    + assert (M : exists b, match_ (line_pattern cedict) (v ++ u " " ++ w ++ u " " ++ s ++ tl) =
        Some (mkpos b tl [(u "senses", s); (u "word", w)])).
      { pose proof Iw as Iw'; apply item_notc in Iw'; destruct Iw' as [N F]; pose proof Iv as Iv'; apply item_notc in Iv'; destruct Iv' as [Nv Fv]; rewrite cedict_start.
        rewrite mtch_plus_app; [|exact Nv|exact Fv|reflexivity|apply fails_isc].
        change (u " " ++ w ++ ?x) with (u1 " " :: w ++ x); rewrite mtch_isc.
        rewrite mtch_grp_plus; [|exact N|exact F|reflexivity|apply fails_isc].
        change (u " " ++ ?x) with (u1 " " :: x); rewrite mtch_isc, mtch_opt, cedict_bracket_lit.
        match goal with |- exists b, match ?m with _ => _ end = _ => destruct m as [x|] eqn:B end.
        - exfalso; apply (bracket_inv []) in B; destruct B as [b [r [t [Ir [E _]]]]]; apply NB; exists r, t; split; assumption.
        - rewrite senses_last by assumption; eexists; reflexivity. }
      destruct M as [b M]; rewrite (parse_groups cedict _ _ w None s M eq_refl) by discriminate.
      apply of_groups_ok; change (sense_pattern cedict) with (sense_pattern edict); rewrite slash_senses_find, (item_spaceless w) by exact Iw; split; [exact Ne|reflexivity].
Qed.

(* jc_kdic *)
Lemma jc_start line : match_ (line_pattern jc_kdic) line =
  mtch (Grp (u "word") (Plus (Chr (notc (u1 " "))))) (mtch (Lit (u " [")) (mtch (Grp (u "reading") (Plus (Chr (notc (u1 "]")))))
    (mtch (Chr (isc (u1 "]"))) (mtch (Chr (isc 9)) (mtch senses_eol Some))))) (mkpos [] line []).
Proof. reflexivity. Qed.
Lemma jc_exact line p : parse_line jc_kdic line = Ok p <-> entry_line jc_kdic line p.
Proof.
  split.
  - intros P; destruct (match_ (line_pattern jc_kdic) line) as [m|] eqn:M; [|rewrite (parse_no_match _ _ M) in P; discriminate P].
    pose proof M as M0; rewrite jc_start in M; apply grp_plus_inv in M; [|apply fails_lit]; destruct M as [w [q [-> [N [F M]]]]].
    apply mtch_lit_inv in M; destruct M as [q0 [-> M]]; apply grp_plus_inv in M; [|apply fails_isc]; destruct M as [r [q1 [-> [Nr [Fr M]]]]].
    apply isc_inv in M; destruct M as [q2 [-> M]]; apply isc_inv in M; destruct M as [q3 [-> M]].
    apply senses_inv in M; destruct M as [s [nl [-> [Ns ->]]]].
    rewrite (parse_groups jc_kdic _ _ w (Some r) s M0 eq_refl) in P by congruence.
    apply of_groups_ok in P; rewrite comma_senses_find in P; destruct P as [Ne ->].
    assert (Iw : item (u " ") w) by (apply notc_item; assumption).
    assert (Ir : item (u "]") r) by (apply notc_item; assumption).
    rewrite (item_spaceless w) by exact Iw; exact (L_jc w r s nl Iw Ir Ns Ne).
  - intros H; inversion H as [| |w r s nl Iw Ir Ns Ne E1 E2 E3| | |]; clear H.
    assert (M : exists b, match_ (line_pattern jc_kdic) (w ++ u " [" ++ r ++ u "]" ++ [9] ++ s ++ newline nl) =
      Some (mkpos b (newline nl) [(u "senses", s); (u "reading", r); (u "word", w)])).
    { pose proof Iw as Iw'; apply item_notc in Iw'; destruct Iw' as [N F]; pose proof Ir as Ir'; apply item_notc in Ir'; destruct Ir' as [Nr Fr]; rewrite jc_start.
      rewrite mtch_grp_plus; [|exact N|exact F|reflexivity|apply fails_lit].
      rewrite mtch_lit, mtch_grp_plus; [|exact Nr|exact Fr|reflexivity|apply fails_isc].
      change (u "]" ++ ?x) with (u1 "]" :: x); rewrite mtch_isc; change ([9] ++ ?x) with (9 :: x); rewrite mtch_isc.
      unfold senses_eol; rewrite mtch_seq, senses_tail by exact Ns; eexists; reflexivity. }
    destruct M as [b M]; rewrite (parse_groups jc_kdic _ _ w (Some r) s M eq_refl) by (destruct Ir as [Ir _]; congruence).
    apply of_groups_ok; rewrite comma_senses_find, (item_spaceless w) by exact Iw; split; [exact Ne|reflexivity].
Qed.

(* cj_kdic *)
Lemma cj_start line : match_ (line_pattern cj_kdic) line =
  mtch (Grp (u "word") (Plus (Chr (notc 9)))) (mtch (Chr (isc 9)) (mtch (Grp (u "reading") (Plus (Chr (notc (u1 "\")))))
    (mtch (Lit (u "\n")) (mtch senses_eol Some)))) (mkpos [] line []).
Proof. reflexivity. Qed.
Lemma cj_exact line p : parse_line cj_kdic line = Ok p <-> entry_line cj_kdic line p.
Proof.
  split.
  - intros P; destruct (match_ (line_pattern cj_kdic) line) as [m|] eqn:M; [|rewrite (parse_no_match _ _ M) in P; discriminate P].
    pose proof M as M0; rewrite cj_start in M; apply grp_plus_inv in M; [|apply fails_isc]; destruct M as [w [q [-> [N [F M]]]]].
    apply isc_inv in M; destruct M as [q0 [-> M]]; apply grp_plus_inv in M; [|apply fails_lit]; destruct M as [r [q1 [-> [Nr [Fr M]]]]].
    apply mtch_lit_inv in M; destruct M as [q2 [-> M]].
    apply senses_inv in M; destruct M as [s [nl [-> [Ns ->]]]].
    rewrite (parse_groups cj_kdic _ _ w (Some r) s M0 eq_refl) in P by congruence.
    apply of_groups_ok in P; destruct P as [Ne ->].
    assert (Iw : item [9] w) by (apply notc_item; assumption).
    assert (Ir : item (u "\") r) by (apply notc_item; assumption).
    exact (L_cj w r s _ nl Iw Ir Ns (proj1 (bs_find s _) eq_refl) Ne).
  - intros H; inversion H as [| | |w r s xs nl Iw Ir Ns B Ne E1 E2 E3| |]; clear H.
    assert (M : exists b, match_ (line_pattern cj_kdic) (w ++ [9] ++ r ++ u "\n" ++ s ++ newline nl) =
      Some (mkpos b (newline nl) [(u "senses", s); (u "reading", r); (u "word", w)])).
    { pose proof Iw as Iw'; apply item_notc in Iw'; destruct Iw' as [N F]; pose proof Ir as Ir'; apply item_notc in Ir'; destruct Ir' as [Nr Fr]; rewrite cj_start.
      rewrite mtch_grp_plus; [|exact N|exact F|reflexivity|apply fails_isc].
      change ([9] ++ ?x) with (9 :: x); rewrite mtch_isc; rewrite mtch_grp_plus; [|exact Nr|exact Fr|reflexivity|apply fails_lit].
      rewrite mtch_lit; unfold senses_eol; rewrite mtch_seq, senses_tail by exact Ns; eexists; reflexivity. }
    destruct M as [b M]; rewrite (parse_groups cj_kdic _ _ w (Some r) s M eq_refl) by (destruct Ir as [Ir _]; congruence).
    apply of_groups_ok; apply bs_find in B; rewrite B; split; [exact Ne|reflexivity].
Qed.
Lemma format_exact f line p : In f known_formats -> parse_line f line = Ok p <-> entry_line f line p.
Proof. intros [<-|[<-|[<-|[<-|[]]]]]; [apply edict_exact|apply jc_exact|apply cj_exact|apply cedict_exact]. Qed.

Lemma rejects f line : In f known_formats -> (parse_line f line = Raise FormatError <-> forall p, ~ entry_line f line p).
Proof.
  intros K; split.
  - intros E p H; apply (format_exact f line p K) in H; congruence.
  - intros N; destruct (parse_line f line) as [p|e] eqn:P; [exfalso; apply (N p), (format_exact f line p K), P|].
    rewrite (parse_line_error f line e K P); reflexivity.
Qed.
Lemma file_exact f lines ps : In f known_formats -> (mapM (parse_line f) lines = Ok ps <-> Forall2 (entry_line f) lines ps).
Proof.
  intros K; split.
  - intros M; apply mapM_inv in M; induction M as [|x y l ys E M IH]; constructor; [apply (format_exact f x y K), E|exact IH].
  - intros F; induction F as [|x y l ys E F IH]; [reflexivity|]; cbn [mapM].
    apply (format_exact f x y K) in E; rewrite E; cbn [bind]; rewrite IH; reflexivity.
Qed.
(** an empty sense leaves its "n" behind *)
Lemma bs_fun s xs ys : bs_senses s xs -> bs_senses s ys -> xs = ys.
Proof. intros H G; apply bs_find in H, G; congruence. Qed.
Lemma unnumbered_n q : unnumbered (u "n" ++ q) (u "n" ++ q).
Proof.
  apply Un_all; intros n t [E [N [D _]]]; destruct n as [|c n]; [congruence|]; injection E as <- _.
  destruct (D (u1 "n")) as [X _]; [left; reflexivity|]; apply mem_In in X; discriminate X.
Qed.
Lemma empty_sense p x q s ys : item (u "\") p -> unnumbered p x -> free (u "\") q -> bs_senses s ys ->
  bs_senses (p ++ u "\n" ++ u "\n" ++ q ++ u "\n" ++ s) (x :: (u "n" ++ q) :: ys).
Proof.
  intros Ip U Fq H; apply Bs_sep; [exact Ip|exact U|].
  change (u "\n" ++ q ++ u "\n" ++ s) with (u "\" ++ (u "n" ++ q) ++ u "\n" ++ s); apply Bs_stray, Bs_sep; [|apply unnumbered_n|exact H].
  split; [discriminate|]; intros c [<-|[]] I; apply in_app_iff in I; destruct I as [I|I]; [destruct I as [I|[]]; discriminate I|].
  revert I; apply Fq; left; reflexivity.
Qed.
