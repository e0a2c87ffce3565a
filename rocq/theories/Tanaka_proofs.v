(* Tanaka_proofs.v *)
From Verif Require Import Base PyText PyFmt Regex Tanaka_model Tanaka_spec.

(* ------------------------------------------------------------------ *)
(** ** The texts a continuation accepts, with the captures it adds *)
Definition lang := str -> list (str * str) -> Prop.
Definition denotes (k : pos -> option pos) (G : lang) : Prop := forall b l cs,
  (forall cs', G l cs' -> exists m, k (mkpos b l cs) = Some m /\ caps m = cs' ++ cs) /\
  (forall m, k (mkpos b l cs) = Some m -> exists cs', G l cs' /\ caps m = cs' ++ cs).

Definition g_eol : lang := fun l cs => cs = [] /\ (l = [] \/ l = [10]).
Definition g_opt (c : char) (P G : lang) : lang := fun l cs => G l cs \/ exists q, l = c :: q /\ P q cs.
Definition g_group (n : str) (e : char) (p : char -> bool) (G : lang) : lang := fun l cs =>
  exists w q cs1, l = w ++ e :: q /\ w <> [] /\ forallb p w = true /\ G q cs1 /\ cs = cs1 ++ [(n, w)].
Definition g_run (p : char -> bool) (G : lang) : lang := fun l cs =>
  exists w q, l = w ++ q /\ w <> [] /\ forallb p w = true /\ G q cs.
Definition stops (p : char -> bool) (G : lang) : Prop := forall c q cs, G (c :: q) cs -> p c = false.

Lemma denotes_none k G b l cs : denotes k G -> (forall cs', ~ G l cs') -> k (mkpos b l cs) = None.
Proof.
  intros D N; destruct (k (mkpos b l cs)) as [m|] eqn:E; [|reflexivity].
  apply D in E; destruct E as [cs' [X _]]; elim (N cs' X).
Qed.
Lemma denotes_fails k G p : denotes k G -> stops p G -> fails_on p k.
Proof.
  intros D S t c q R P; destruct t as [b l cs]; cbn [rest] in R; subst l.
  apply (denotes_none k G); [exact D|]; intros cs' X; apply S in X; congruence.
Qed.
Lemma denotes_ext k k' G : (forall t, k t = k' t) -> denotes k G -> denotes k' G.
Proof. intros E D b l cs; rewrite <- E; apply D. Qed.

Lemma den_eol : denotes (mtch Eol Some) g_eol.
Proof.
  intros b l cs; cbn [mtch rest]; split.
  - intros cs' [-> [-> | ->]]; cbn [Z.eqb Pos.eqb].
    + eexists; split; reflexivity.
    + eexists; split; reflexivity.
  - intros m E; exists []; unfold g_eol.
    destruct l as [|c [|d l]]; [injection E as <-; auto| |discriminate].
    destruct (Z.eqb_spec c 10) as [->|]; [injection E as <-; auto|discriminate].
Qed.
Lemma den_opt c r k P G : denotes k G -> denotes (mtch r k) P -> (forall q cs, ~ G (c :: q) cs) ->
  denotes (mtch (Opt (Seq (Lit [c]) r)) k) (g_opt c P G).
Proof.
  intros DG DP N b l cs; unfold Opt; cbn [mtch Lit rest before caps].
  assert (E : (match (match l with [] => None | c0 :: q => if c0 =? c then mtch r k (mkpos (c0 :: b) q cs) else None end) with
               | Some x => Some x | None => k (mkpos b l cs) end) =
              match l with
              | [] => k (mkpos b l cs)
              | c0 :: q => if c0 =? c then mtch r k (mkpos (c0 :: b) q cs) else k (mkpos b l cs)
              end).
  { destruct l as [|c0 q]; [reflexivity|]; destruct (Z.eqb_spec c0 c) as [->|]; [|reflexivity].
    rewrite (denotes_none k G b (c :: q) cs DG (N q)); destruct (mtch r k _); reflexivity. }
  cbn [mtch] in *; rewrite E; clear E; split.
  - intros cs' [X|[q [-> X]]].
    + destruct l as [|c0 q]; [apply DG, X|].
      destruct (Z.eqb_spec c0 c) as [->|]; [elim (N _ _ X)|apply DG, X].
    + rewrite Z.eqb_refl; apply DP, X.
  - intros m E; destruct l as [|c0 q]; [apply DG in E; destruct E as [cs' [X Y]]; exists cs'; split; [left; exact X|exact Y]|].
    destruct (Z.eqb_spec c0 c) as [->|].
    + apply DP in E; destruct E as [cs' [X Y]]; exists cs'; split; [right; exists q; auto|exact Y].
    + apply DG in E; destruct E as [cs' [X Y]]; exists cs'; split; [left; exact X|exact Y].
Qed.

(** the longest run of a class *)
Lemma longest_run (p : char -> bool) l : exists w q, l = w ++ q /\ forallb p w = true /\ (match q with c :: _ => p c = false | [] => True end).
Proof.
  induction l as [|c l [w [q [-> [F Q]]]]]; [exists [], []; auto|].
  destruct (p c) eqn:P; [exists (c :: w), q; cbn [forallb app]; rewrite P, F; auto|exists [], (c :: w ++ q); auto].
Qed.
Lemma run_unique (p : char -> bool) w w' q q' : w ++ q = w' ++ q' -> forallb p w = true -> forallb p w' = true ->
  (match q with c :: _ => p c = false | [] => True end) -> (match q' with c :: _ => p c = false | [] => True end) -> w = w' /\ q = q'.
Proof.
  revert w'; induction w as [|c w IH]; intros [|d w'] E F F' Q Q'; cbn [app forallb] in *.
  - auto.
  - subst q; apply andb_prop in F'; destruct F' as [X _]; congruence.
  - subst q'; apply andb_prop in F; destruct F as [X _]; congruence.
  - injection E as -> E; apply andb_prop in F, F'; destruct F as [_ F], F' as [_ F'].
    destruct (IH w' E F F' Q Q') as [-> ->]; auto.
Qed.

Lemma den_lit1 c k G : denotes k G -> denotes (mtch (Lit [c]) k) (fun l cs => exists q, l = c :: q /\ G q cs).
Proof.
  intros D b l cs; cbn [Lit mtch rest before caps]; split.
  - intros cs' [q [-> X]]; rewrite Z.eqb_refl; apply D, X.
  - intros m E; destruct l as [|d q]; [discriminate|]; destruct (Z.eqb_spec d c) as [->|]; [|discriminate].
    apply D in E; destruct E as [cs' [X Y]]; exists cs'; eauto.
Qed.
Lemma den_run p k G : denotes k G -> stops p G -> denotes (mtch (Plus (Chr p)) k) (g_run p G).
Proof.
  intros D S b l cs.
  destruct (longest_run p l) as [w [q [-> [F Q]]]].
  destruct w as [|c w].
  - cbn [app]; assert (X : mtch (Plus (Chr p)) k (mkpos b q cs) = None).
    { rewrite mtch_plus by (apply (denotes_fails k G); assumption); cbn [rest]; destruct q as [|c q]; [reflexivity|rewrite Q; reflexivity]. }
    rewrite X; split; [|discriminate].
    intros cs' [w [q' [E [N [F' _]]]]]; destruct w as [|c w]; [contradiction|].
    subst q; cbn [app] in Q; apply andb_prop in F'; destruct F' as [Y _]; congruence.
  - rewrite mtch_plus_app by (try discriminate; try assumption; apply (denotes_fails k G); assumption); split.
    + intros cs' [w' [q' [E [N [F' X]]]]].
      destruct (run_unique p (c :: w) w' q q' E F F' Q) as [<- <-]; [destruct q'; [exact I|apply S in X; exact X]|].
      apply D, X.
    + intros m E; apply D in E; destruct E as [cs' [X Y]]; exists cs'; split; [|exact Y].
      exists (c :: w), q; repeat split; [discriminate|exact F|exact X].
Qed.
Lemma den_group n e p k G : denotes k G -> p e = false -> denotes (mtch (Seq (Grp n (Plus (Chr p))) (Lit [e])) k) (g_group n e p G).
Proof.
  intros D Pe b l cs; cbn [mtch].
  assert (FO : fails_on p (mtch (Lit [e]) k)).
  { cbn [Lit]; apply fails_seq; cbn [mtch]; intros t c q R P; rewrite R.
    destruct (Z.eqb_spec c e); [congruence|reflexivity]. }
  change (denotes (mtch (Grp n (Plus (Chr p))) (mtch (Lit [e]) k)) (g_group n e p G)) || idtac.
  destruct (longest_run p l) as [w [q [-> [F Q]]]].
  destruct w as [|c w].
  - cbn [app]; assert (X : mtch (Grp n (Plus (Chr p))) (mtch (Lit [e]) k) (mkpos b q cs) = None).
    { change (mtch (Plus (Chr p)) (fun t => mtch (Lit [e]) k (capture n (mkpos b q cs) t)) (mkpos b q cs) = None).
      rewrite mtch_plus by (apply fails_capture, FO); cbn [rest]; destruct q as [|c q]; [reflexivity|rewrite Q; reflexivity]. }
    cbn [mtch] in X; rewrite X; split; [|discriminate].
    intros cs' [w [q' [cs1 [E [N [F' _]]]]]]; destruct w as [|c w]; [contradiction|].
    subst q; cbn [app] in Q; apply andb_prop in F'; destruct F' as [Y _]; congruence.
  - pose proof (mtch_grp_plus n p (mtch (Lit [e]) k) b (c :: w) q cs ltac:(discriminate) F Q FO) as X; cbn [mtch] in X; rewrite X; clear X.
    change (mtch (Lit [e]) k) with (mtch (Lit [e]) k) in *; split.
    + intros cs' [w' [q' [cs1 [E [N [F' [X ->]]]]]]].
      destruct (run_unique p (c :: w) w' q (e :: q') E F F' Q Pe) as [<- ->].
      destruct (den_lit1 e k G D (rev (c :: w) ++ b) (e :: q') ((n, c :: w) :: cs)) as [L _].
      destruct (L cs1 (ex_intro _ q' (conj eq_refl X))) as [m [M1 M2]]; exists m; split; [exact M1|].
      rewrite <- app_assoc; exact M2.
    + intros m E; apply (den_lit1 e k G D) in E; destruct E as [cs' [[q' [-> X]] Y]].
      exists (cs' ++ [(n, c :: w)]); split; [|rewrite <- app_assoc; exact Y].
      exists (c :: w), q', cs'; repeat split; [discriminate|exact F|exact X].
Qed.

(** repetition in general: some run of the class, then the continuation *)
Lemma star_some p k x : forall n b l cs, star (mtch (Chr p)) false n k (mkpos b l cs) = Some x ->
  exists w q, l = w ++ q /\ forallb p w = true /\ k (mkpos (rev w ++ b) q cs) = Some x.
Proof.
  induction n as [|n IH]; intros b l cs E; cbn [star] in E; [discriminate|]; cbn [mtch rest before caps] in E.
  destruct l as [|c l]; [exists [], []; auto|].
  destruct (p c) eqn:P; [|exists [], (c :: l); auto]; cbn [rest length] in E.
  replace (length l <? S (length l))%nat with true in E by (symmetry; apply Nat.ltb_lt; lia).
  destruct (star _ false n k (mkpos (c :: b) l cs)) as [y|] eqn:S.
  - injection E as ->; apply IH in S; destruct S as [w [q [-> [F K]]]].
    exists (c :: w), q; cbn [app forallb rev]; rewrite P, F, <- app_assoc; auto.
  - exists [], (c :: l); auto.
Qed.
Lemma plus_some p k x b l cs : mtch (Plus (Chr p)) k (mkpos b l cs) = Some x ->
  exists w q, l = w ++ q /\ w <> [] /\ forallb p w = true /\ k (mkpos (rev w ++ b) q cs) = Some x.
Proof.
  unfold Plus; cbn [mtch rest before caps]; destruct l as [|c l]; [discriminate|].
  destruct (p c) eqn:P; [|discriminate]; intros E; apply (star_some p k x) in E; destruct E as [w [q [-> [F K]]]].
  exists (c :: w), q; cbn [app forallb rev]; rewrite P, F, <- app_assoc; repeat split; [discriminate|exact K].
Qed.
Definition g_head (n : str) (p : char -> bool) (G : lang) : lang := fun l cs =>
  exists w q cs1, l = w ++ q /\ w <> [] /\ forallb p w = true /\ (match q with c :: _ => p c = false | [] => True end) /\
    G q cs1 /\ cs = cs1 ++ [(n, w)].
Lemma den_head n p k G : denotes k G -> p 10 = true -> G [] [] -> (forall c q cs, G (c :: q) cs -> c :: q = [10] \/ p c = false) ->
  denotes (mtch (Grp n (Plus (Chr p))) k) (g_head n p G).
Proof.
  intros D P10 G0 S b l cs; split.
  - intros cs' [w [q [cs1 [-> [N [F [Q [X ->]]]]]]]].
    destruct (D (rev w ++ b) q ((n, w) :: cs)) as [K _]; destruct (K cs1 X) as [m [M1 M2]].
    exists m; split; [apply mtch_grp_plus_longest; assumption|rewrite <- app_assoc; exact M2].
  - intros m E; pose proof E as E0.
    change (mtch (Plus (Chr p)) (fun t => k (capture n (mkpos b l cs) t)) (mkpos b l cs) = Some m) in E.
    apply plus_some in E; destruct E as [w [q [-> [N [F K]]]]].
    unfold capture in K; rewrite text_app in K; cbn [before rest caps] in K.
    destruct q as [|c q].
    + apply D in K; destruct K as [cs1 [X Y]]; exists (cs1 ++ [(n, w)]); split; [|rewrite <- app_assoc; exact Y].
      exists w, [], cs1; repeat split; assumption.
    + pose proof K as K'; apply D in K'; destruct K' as [cs1 [X Y]]; destruct (S _ _ _ X) as [T|Q].
      * injection T as -> ->.
        assert (F' : forallb p (w ++ [10]) = true) by (rewrite forallb_app, F; cbn [forallb]; rewrite P10; reflexivity).
        destruct (D (rev (w ++ [10]) ++ b) [] ((n, w ++ [10]) :: cs)) as [L _]; destruct (L [] G0) as [m' [M1 M2]].
        pose proof (mtch_grp_plus_longest n p k b (w ++ [10]) [] cs m' ltac:(destruct w; discriminate) F' I M1) as M.
        rewrite app_nil_r, E0 in M; injection M as <-.
        exists [(n, w ++ [10])]; split; [|exact M2].
        exists (w ++ [10]), [], []; rewrite app_nil_r; repeat split; [destruct w; discriminate|exact F'|exact G0].
      * exists (cs1 ++ [(n, w)]); split; [|rewrite <- app_assoc; exact Y].
        exists w, (c :: q), cs1; repeat split; assumption.
Qed.

(** the ~ at the end *)
Definition g_flag (n : str) (c : char) (G : lang) : lang := fun l cs =>
  G l cs \/ exists q cs1, l = c :: q /\ G q cs1 /\ cs = cs1 ++ [(n, [c])].
Lemma den_flag n c k G : denotes k G -> (forall q cs, ~ G (c :: q) cs) -> denotes (mtch (Opt (Grp n (Lit [c]))) k) (g_flag n c G).
Proof.
  intros D N b l cs.
  assert (E : mtch (Opt (Grp n (Lit [c]))) k (mkpos b l cs) =
              match l with
              | [] => k (mkpos b l cs)
              | c0 :: q => if c0 =? c then k (mkpos (c0 :: b) q ((n, [c]) :: cs)) else k (mkpos b l cs)
              end).
  { unfold Opt; cbn [mtch Lit rest before caps]; destruct l as [|c0 q]; [reflexivity|].
    destruct (Z.eqb_spec c0 c) as [->|]; [|reflexivity].
    unfold capture; cbn [before rest caps]; pose proof (text_app b [c] q cs (c :: b) cs) as T; cbn [app] in T; rewrite T; clear T.
    rewrite (denotes_none k G b (c :: q) cs D (N q)); destruct (k _); reflexivity. }
  rewrite E; clear E; split.
  - intros cs' [X|[q [cs1 [-> [X ->]]]]].
    + destruct l as [|c0 q]; [apply D, X|]; destruct (Z.eqb_spec c0 c) as [->|]; [elim (N _ _ X)|apply D, X].
    + rewrite Z.eqb_refl; destruct (D (c :: b) q ((n, [c]) :: cs)) as [K _]; destruct (K cs1 X) as [m [M1 M2]].
      exists m; split; [exact M1|rewrite <- app_assoc; exact M2].
  - intros m E; destruct l as [|c0 q]; [apply D in E; destruct E as [cs' [X Y]]; exists cs'; split; [left; exact X|exact Y]|].
    destruct (Z.eqb_spec c0 c) as [->|].
    + apply D in E; destruct E as [cs1 [X Y]]; exists (cs1 ++ [(n, [c])]); split; [|rewrite <- app_assoc; exact Y].
      right; exists q, cs1; auto.
    + apply D in E; destruct E as [cs' [X Y]]; exists cs'; split; [left; exact X|exact Y].
Qed.

(* ------------------------------------------------------------------ *)
(** ** The pattern *)
Definition first (G : lang) (L : list char) : Prop := forall c q cs, G (c :: q) cs -> c :: q = [10] \/ In c L.
Lemma first_opt c P G L : first G L -> first (g_opt c P G) (c :: L).
Proof.
  intros F d q cs [X|[q' [E _]]]; [destruct (F d q cs X) as [Y|Y]; [left; exact Y|right; right; exact Y]|].
  injection E as -> _; right; left; reflexivity.
Qed.
Lemma first_flag n c G L : first G L -> first (g_flag n c G) (c :: L).
Proof.
  intros F d q cs [X|[q' [cs1 [E _]]]]; [destruct (F d q cs X) as [Y|Y]; [left; exact Y|right; right; exact Y]|].
  injection E as -> _; right; left; reflexivity.
Qed.
Lemma first_eol : first g_eol [].
Proof. intros c q cs [_ [E|E]]; [discriminate|left; exact E]. Qed.
Lemma first_no G L c : first G L -> c <> 10 -> mem c L = false -> forall q cs, ~ G (c :: q) cs.
Proof. intros F N M q cs X; apply F in X; destruct X as [X|X]; [injection X as -> _; contradiction|apply mem_false in M; contradiction]. Qed.

Section Dv.
  Variable dv : Z -> option Z.
  Hypothesis A : unicode_digits dv.
  Local Notation isd := (is_d dv).

  Definition g5 := g_flag n_example 126 g_eol.
  Definition g4 := g_opt 123 (g_group n_display 125 (notc 125) g5) g5.
  Definition g3 := g_opt 91 (g_group n_sense 93 isd g4) g4.
  Definition g2 := g_opt 124 (g_run isd g3) g3.
  Definition g1 := g_opt 40 (g_group n_reading 41 (notc 41) g2) g2.
  Definition g0 := g_head n_headword (fun c => negb (mem c delims)) g1.

  Lemma f5 : first g5 [126]. Proof. apply first_flag, first_eol. Qed.
  Lemma f4 : first g4 [123; 126]. Proof. apply first_opt, f5. Qed.
  Lemma f3 : first g3 [91; 123; 126]. Proof. apply first_opt, f4. Qed.
  Lemma f2 : first g2 [124; 91; 123; 126]. Proof. apply first_opt, f3. Qed.
  Lemma f1 : first g1 [40; 124; 91; 123; 126]. Proof. apply first_opt, f2. Qed.
  Lemma ascii_no c : 0 <= c < 128 -> ~ 48 <= c <= 57 -> isd c = false.
  Proof. intros R N; unfold is_d; destruct A as [[_ [X _]] _]; rewrite (X c R N); reflexivity. Qed.
  Lemma stops3 : stops isd g3.
  Proof.
    intros c q cs X; apply f3 in X; destruct X as [X|[<-|[<-|[<-|[]]]]]; [injection X as -> _| | |]; apply ascii_no; lia.
  Qed.
  Lemma den_word : denotes (mtch (word_re dv) Some) g0.
  Proof.
    change (denotes (mtch re_headword (mtch re_reading (mtch (re_legacy dv) (mtch (re_sense dv) (mtch re_display (mtch re_example (mtch Eol Some))))))) g0).
    assert (D5 : denotes (mtch re_example (mtch Eol Some)) g5) by (apply den_flag; [apply den_eol|apply (first_no _ [] _ first_eol); [discriminate|reflexivity]]).
    assert (D4 : denotes (mtch re_display (mtch re_example (mtch Eol Some))) g4).
    { apply den_opt; [exact D5|apply den_group; [exact D5|reflexivity]|apply (first_no _ _ _ f5); [discriminate|reflexivity]]. }
    assert (D3 : denotes (mtch (re_sense dv) (mtch re_display (mtch re_example (mtch Eol Some)))) g3).
    { apply den_opt; [exact D4|apply den_group; [exact D4|apply ascii_no; lia]|apply (first_no _ _ _ f4); [discriminate|reflexivity]]. }
    assert (D2 : denotes (mtch (re_legacy dv) (mtch (re_sense dv) (mtch re_display (mtch re_example (mtch Eol Some))))) g2).
    { apply den_opt; [exact D3|apply den_run; [exact D3|exact stops3]|apply (first_no _ _ _ f3); [discriminate|reflexivity]]. }
    apply den_head; [|reflexivity| |].
    - apply den_opt; [exact D2|apply den_group; [exact D2|reflexivity]|apply (first_no _ _ _ f2); [discriminate|reflexivity]].
    - left; left; left; left; left; split; [reflexivity|left; reflexivity].
    - intros c q cs X; apply f1 in X; destruct X as [X|X]; [left; exact X|right].
      apply negb_false_iff, mem_In; unfold delims; change (In c [40; 91; 123; 124; 126]).
      cbn [In] in *; tauto.
  Qed.

  (** numbers *)
  Lemma isd_digit c : isd c = true <-> digit dv c.
  Proof. unfold is_d, digit; destruct (dv c) as [d|]; split; [eauto|reflexivity|discriminate|intros [d X]; discriminate]. Qed.
  Lemma isd_digits s : forallb isd s = true <-> Forall (digit dv) s.
  Proof. rewrite forallb_forall, Forall_forall; split; intros H c I; apply isd_digit, H, I. Qed.
  Lemma digits_val_value s : Forall (digit dv) s -> forall acc need, s <> [] \/ need = false ->
    digits_val dv 10 acc need s = Some (value dv acc s).
  Proof.
    induction s as [|c s IH]; intros F acc need N; cbn [digits_val value].
    - destruct N as [N| ->]; [contradiction|reflexivity].
    - inversion F as [|? ? [d Ed] F']; subst; unfold digit_val; rewrite Ed.
      destruct A as [[_ [_ B]] _]; specialize (B c d Ed); destruct (Z.ltb_spec d 10); [|lia].
      apply IH; [exact F'|right; reflexivity].
  Qed.
  Lemma digit_not_blank c : digit dv c -> int_space c = false.
  Proof.
    intros [d E]; unfold int_space; destruct A as [[_ [B _]] B'].
    destruct (is_space c) eqn:S; [rewrite B' in E by exact S; discriminate|]; rewrite andb_false_r, orb_false_r.
    destruct (Z.leb_spec 9 c), (Z.leb_spec c 13), (Z.eqb_spec c 32); try reflexivity; exfalso;
      (rewrite B in E by lia); discriminate.
  Qed.
  Lemma py_int_value s : digits dv s -> py_int dv 10 s = Some (value dv 0 s).
  Proof.
    intros [N F]; unfold py_int.
    assert (P : forall c, In c s -> int_space c = false) by (intros c I; rewrite Forall_forall in F; apply digit_not_blank, F, I).
    rewrite (lstrip_by_id _ s P), lstrip_by_id, rev_involutive by (intros c I; apply P, in_rev, I).
    destruct s as [|c s]; [contradiction|]; inversion F as [|? ? [d Ed] F']; subst.
    destruct A as [[_ [B _]] _].
    destruct (Z.eqb_spec c 43) as [->|]; [rewrite B in Ed by lia; discriminate|].
    destruct (Z.eqb_spec c 45) as [->|]; [rewrite B in Ed by lia; discriminate|].
    cbn [Z.eqb Pos.eqb]; rewrite (digits_val_value (c :: s) F 0 true (or_introl N)); cbn [option_map]; f_equal; lia.
  Qed.

  (** the parts of an accepted text *)
  Definition cap (n : str) (o : option str) : list (str * str) := match o with Some s => [(n, s)] | None => [] end.
  Definition tilde (e : bool) : str := if e then u "~" else [].
  Inductive raw_number : str -> option str -> Prop :=
  | Raw_none : raw_number [] None
  | Raw_some s : digits dv s -> raw_number (u1 "[" :: s ++ u "]") (Some s).
  Lemma g5_parts l cs : g5 l cs <-> exists e n, l = tilde e ++ n /\ (n = [] \/ n = [10]) /\ cs = cap n_example (if e then Some (u "~") else None).
  Proof.
    split.
    - intros [[-> N]|[q [cs1 [-> [[-> N] ->]]]]]; [exists false, l|exists true, q]; auto.
    - intros [[|] [n [-> [N ->]]]]; [right; exists n, []; repeat split; exact N|left; split; [reflexivity|exact N]].
  Qed.
  Lemma opt_group n o c p G l cs (Q : str -> Prop) : (forall w, forallb p w = true <-> Q w) ->
    g_opt o (g_group n c p G) G l cs <->
    exists t q x cs1, l = t ++ q /\ G q cs1 /\ cs = cs1 ++ cap n x /\
      match x with None => t = [] | Some s => t = o :: s ++ [c] /\ s <> [] /\ Q s end.
  Proof.
    intros PQ; split.
    - intros [X|[q [-> [w [q' [cs1 [-> [N [F [X ->]]]]]]]]]].
      + exists [], l, None, cs; cbn [cap]; rewrite app_nil_r; auto.
      + exists (o :: w ++ [c]), q', (Some w), cs1; cbn [app cap]; rewrite <- app_assoc; cbn [app].
        repeat split; [exact X|exact N|apply PQ, F].
    - intros [t [q [x [cs1 [-> [X [-> T]]]]]]]; destruct x as [s|].
      + destruct T as [-> [N F]]; right; exists (s ++ c :: q); cbn [app]; rewrite <- app_assoc; split; [reflexivity|].
        exists s, q, cs1; repeat split; [exact N|apply PQ, F|exact X].
      + subst t; left; cbn [cap app]; rewrite app_nil_r; exact X.
  Qed.
  Lemma part_cases o c t x : part o c t x <-> match x with None => t = [] | Some s => t = o :: s ++ [c] /\ s <> [] /\ ~ In c s end.
  Proof.
    split; [intros [|s N F]; auto|].
    destruct x as [s|]; [intros [-> [N F]]; constructor; assumption|intros ->; constructor].
  Qed.
  Lemma raw_cases t x : raw_number t x <-> match x with None => t = [] | Some s => t = 91 :: s ++ [93] /\ s <> [] /\ Forall (digit dv) s end.
  Proof.
    split; [intros [|s [N F]]; auto|].
    destruct x as [s|]; [intros [-> [N F]]; apply Raw_some; split; assumption|intros ->; constructor].
  Qed.
  Lemma g4_parts l cs : g4 l cs <-> exists t q x cs1, l = t ++ q /\ g5 q cs1 /\ cs = cs1 ++ cap n_display x /\ part 123 125 t x.
  Proof. unfold g4; rewrite (opt_group _ _ _ _ _ _ _ _ (forallb_notc 125)); setoid_rewrite part_cases; reflexivity. Qed.
  Lemma g3_parts l cs : g3 l cs <-> exists t q x cs1, l = t ++ q /\ g4 q cs1 /\ cs = cs1 ++ cap n_sense x /\ raw_number t x.
  Proof. unfold g3; rewrite (opt_group _ _ _ _ _ _ _ _ isd_digits); setoid_rewrite raw_cases; reflexivity. Qed.
  Lemma g2_parts l cs : g2 l cs <-> exists t q, l = t ++ q /\ g3 q cs /\ legacy dv t.
  Proof.
    split.
    - intros [X|[q [-> [w [q' [-> [N [F X]]]]]]]].
      + exists [], l; repeat split; [exact X|constructor].
      + exists (124 :: w), q'; repeat split; [exact X|apply (Legacy_some dv w); split; [exact N|apply isd_digits, F]].
    - intros [t [q [-> [X L]]]]; destruct L as [|s [N F]]; [left; exact X|right].
      exists (s ++ q); split; [reflexivity|]; exists s, q; repeat split; [exact N|apply isd_digits, F|exact X].
  Qed.
  Lemma g1_parts l cs : g1 l cs <-> exists t q x cs1, l = t ++ q /\ g2 q cs1 /\ cs = cs1 ++ cap n_reading x /\ part 40 41 t x.
  Proof. unfold g1; rewrite (opt_group _ _ _ _ _ _ _ _ (forallb_notc 41)); setoid_rewrite part_cases; reflexivity. Qed.

  Lemma no_delim_class s : forallb (fun c => negb (mem c delims)) s = true <-> no_delim s.
  Proof.
    unfold no_delim; rewrite forallb_forall, Forall_forall; split; intros H c I; specialize (H c I).
    - apply negb_true_iff, mem_false in H; exact H.
    - apply negb_true_iff, mem_false; exact H.
  Qed.
  (** every part after the headword starts with a delimiter *)
  Lemma parts_start tr r l ts s td d e n : part 40 41 tr r -> legacy dv l -> raw_number ts s -> part 123 125 td d ->
    (match tr ++ l ++ ts ++ td ++ tilde e ++ n with c :: _ => negb (mem c delims) = false | [] => True end) \/
    tr ++ l ++ ts ++ td ++ tilde e = [].
  Proof.
    intros [|x _ _]; [|left; reflexivity].
    intros [|x _]; [|left; reflexivity].
    intros [|x _]; [|left; reflexivity].
    intros [|x _ _]; [|left; reflexivity].
    destruct e; [left; reflexivity|right; reflexivity].
  Qed.
  Inductive raw (t : str) : list (str * str) -> Prop :=
  | Raw h r tr l s ts d td (e : bool) n : h <> [] -> no_delim h -> part 40 41 tr r -> legacy dv l -> raw_number ts s -> part 123 125 td d ->
      (n = [] \/ n = [10] /\ tr ++ l ++ ts ++ td ++ tilde e <> []) ->
      t = h ++ tr ++ l ++ ts ++ td ++ tilde e ++ n ->
      raw t (cap n_example (if e then Some (u "~") else None) ++ cap n_display d ++ cap n_sense s ++ cap n_reading r ++ [(n_headword, h)]).
  Lemma g0_raw t cs : g0 t cs <-> raw t cs.
  Proof.
    split.
    - intros [h [q [cs1 [-> [N [F [Q [X ->]]]]]]]].
      apply g1_parts in X; destruct X as [tr [q2 [r [cs2 [-> [X [-> Pr]]]]]]].
      apply g2_parts in X; destruct X as [l [q3 [-> [X L]]]].
      apply g3_parts in X; destruct X as [ts [q4 [s [cs4 [-> [X [-> Ps]]]]]]].
      apply g4_parts in X; destruct X as [td [q5 [d [cs5 [-> [X [-> Pd]]]]]]].
      apply g5_parts in X; destruct X as [e [n [-> [En ->]]]].
      rewrite <- !app_assoc; eapply Raw; try eassumption; [apply no_delim_class, F| |reflexivity].
      destruct En as [-> | ->]; [left; reflexivity|right; split; [reflexivity|]].
      destruct Pr; [|discriminate]; destruct L; [|discriminate]; destruct Ps; [|discriminate]; destruct Pd; [|discriminate].
      destruct e; [discriminate|]; cbn [app tilde] in Q; discriminate Q.
    - intros [h r tr l s ts d td e n N F Pr L Ps Pd En ->].
      exists h, (tr ++ l ++ ts ++ td ++ tilde e ++ n), (cap n_example (if e then Some (u "~") else None) ++ cap n_display d ++ cap n_sense s ++ cap n_reading r).
      split; [reflexivity|split; [exact N|split; [apply no_delim_class, F|split; [|split]]]].
      + destruct (parts_start tr r l ts s td d e n Pr L Ps Pd) as [Y|Y]; [exact Y|].
        destruct En as [-> |[-> Z0]]; [|contradiction].
        rewrite app_nil_r, Y; exact I.
      + apply g1_parts; do 4 eexists; split; [reflexivity|split; [|split; [rewrite !app_assoc; reflexivity|exact Pr]]].
        apply g2_parts; do 2 eexists; split; [reflexivity|split; [|exact L]].
        apply g3_parts; do 4 eexists; split; [reflexivity|split; [|split; [reflexivity|exact Ps]]].
        apply g4_parts; do 4 eexists; split; [reflexivity|split; [|split; [reflexivity|exact Pd]]].
        apply g5_parts; exists e, n; repeat split; tauto.
      + rewrite <- !app_assoc; reflexivity.
  Qed.

  Definition caps_of (e : bool) (d s r : option str) (h : str) : list (str * str) :=
    cap n_example (if e then Some (u "~") else None) ++ cap n_display d ++ cap n_sense s ++ cap n_reading r ++ [(n_headword, h)].
  Lemma caps_groups e d s r h :
    dget n_headword (caps_of e d s r h) = Some h /\ dget n_reading (caps_of e d s r h) = r /\
    dget n_sense (caps_of e d s r h) = s /\ dget n_display (caps_of e d s r h) = d /\
    dget n_example (caps_of e d s r h) = (if e then Some (u "~") else None).
  Proof. destruct e, d, s, r; repeat split; reflexivity. Qed.

  Definition sense_of (o : option str) : option Z := option_map (value dv 0) o.
  Lemma number_raw ts x : number dv ts x <-> exists s, raw_number ts s /\ x = sense_of s.
  Proof.
    split.
    - intros [|s D]; [exists None|exists (Some s)]; split; try reflexivity; constructor; exact D.
    - intros [s [[|s' D] ->]]; constructor; exact D.
  Qed.
  Lemma from_text_raw t cs : raw t cs -> exists e d s r h, cs = caps_of e d s r h /\
    from_text dv t = Ok {| headword := h; reading := r; sense := sense_of s; display := d; example := e |} /\
    written dv t {| headword := h; reading := r; sense := sense_of s; display := d; example := e |}.
  Proof.
    intros R; pose proof R as R0; destruct R as [h r tr l s ts d td e n N F Pr L Ps Pd En ->].
    exists e, d, s, r, h; split; [reflexivity|split].
    - destruct (den_word [] (h ++ tr ++ l ++ ts ++ td ++ tilde e ++ n) []) as [K _].
      destruct (K _ (proj2 (g0_raw _ _) R0)) as [m [M1 M2]]; rewrite app_nil_r in M2.
      unfold from_text, match_, start; rewrite M1; unfold group; rewrite M2.
      fold (caps_of e d s r h); destruct (caps_groups e d s r h) as [-> [-> [-> [-> ->]]]].
      destruct Ps as [|s' D]; cbn [bind].
      + destruct e; reflexivity.
      + rewrite (py_int_value s' D); cbn [of_option bind]; destruct e; reflexivity.
    - apply Written; try assumption; apply number_raw; exists s; auto.
  Qed.
  Theorem from_text_iff t w : from_text dv t = Ok w <-> written dv t w.
  Proof.
    split.
    - intros E; destruct (match_ (word_re dv) t) as [m|] eqn:M; [|unfold from_text in E; rewrite M in E; discriminate].
      destruct (den_word [] t []) as [_ K]; destruct (K m M) as [cs [G _]]; apply g0_raw in G.
      destruct (from_text_raw t cs G) as [e [d [s [r [h [-> [X Y]]]]]]]; rewrite X in E; injection E as <-; exact Y.
    - intros [h r tr l s ts d td e n N F Pr L Ps Pd En]; apply number_raw in Ps; destruct Ps as [s' [Ps ->]].
      pose proof (Raw (h ++ tr ++ l ++ ts ++ td ++ tilde e ++ n) h r tr l s' ts d td e n N F Pr L Ps Pd En eq_refl) as R.
      apply from_text_raw in R; destruct R as [e' [d' [s2 [r' [h' [C [X _]]]]]]].
      destruct (caps_groups e d s' r h) as [G1 [G2 [G3 [G4 G5]]]]; unfold caps_of in G1, G2, G3, G4, G5; rewrite C in G1, G2, G3, G4, G5.
      destruct (caps_groups e' d' s2 r' h') as [H1 [H2 [H3 [H4 H5]]]].
      rewrite H1 in G1; rewrite H2 in G2; rewrite H3 in G3; rewrite H4 in G4; rewrite H5 in G5; subst d' s2 r'; injection G1 as ->.
      fold (tilde e); rewrite X; destruct e, e'; try discriminate G5; reflexivity.
  Qed.
  Theorem from_text_error t : (forall w, ~ written dv t w) -> from_text dv t = Raise InvalidEntryError.
  Proof.
    intros N; destruct (match_ (word_re dv) t) as [m|] eqn:M; [|unfold from_text; rewrite M; reflexivity].
    destruct (den_word [] t []) as [_ K]; destruct (K m M) as [cs [G _]]; apply g0_raw in G.
    destruct (from_text_raw t cs G) as [e [d [s [r [h [_ [_ Y]]]]]]]; elim (N _ Y).
  Qed.
End Dv.

(* ------------------------------------------------------------------ *)
(** ** Writing a word *)
Lemma value_dvalue dv s : unicode_digits dv -> Forall digit_char s -> forall acc, value dv acc s = dvalue acc s.
Proof.
  intros [[A _] _]; induction s as [|c s IH]; intros F acc; cbn [value dvalue]; [reflexivity|].
  inversion F as [|? ? Dc F']; subst; unfold digit_char in Dc.
  assert (E : dv c = Some (c - 48)) by (rewrite <- (A (c - 48)) by lia; f_equal; lia).
  rewrite E; apply IH, F'.
Qed.
Lemma fmt02_number dv n : unicode_digits dv -> 1 <= n -> digits dv (fmt02 n) /\ value dv 0 (fmt02 n) = n.
Proof.
  intros A N; unfold fmt02; destruct (dec_spec n) as [ds [E [NE [D V]]]].
  destruct (Z.ltb_spec n 0); [lia|]; cbn [app] in E; rewrite E.
  assert (Dg : forall c, digit_char c -> digit dv c).
  { intros c Dc; unfold digit_char in Dc; destruct A as [[A _] _]; exists (c - 48); rewrite <- (A (c - 48)) by lia; f_equal; lia. }
  destruct (length ds <? 2)%nat.
  - split; [split; [discriminate|constructor; [apply Dg; unfold digit_char; cbn; lia|eapply Forall_impl; [exact Dg|exact D]]]|].
    rewrite (value_dvalue dv _ A); [|constructor; [unfold digit_char; cbn; lia|exact D]].
    change (dvalue 0 ds = n); lia.
  - split; [split; [exact NE|eapply Forall_impl; [exact Dg|exact D]]|].
    rewrite (value_dvalue dv _ A) by exact D; lia.
Qed.
Theorem word_str_written dv w : unicode_digits dv -> well_formed w -> written dv (word_str w) w.
Proof.
  intros A [Nh [Fh [Fr [Fd Fs]]]]; destruct w as [h r s d e]; cbn [headword reading sense display example fine_part] in *.
  assert (E : exists tr ts td, word_str (mkword h r s d e) = h ++ tr ++ [] ++ ts ++ td ++ (if e then u "~" else []) ++ [] /\
    part (u1 "(") (u1 ")") tr r /\ number dv ts s /\ part (u1 "{") (u1 "}") td d).
  { unfold word_str; cbn [headword reading sense display example].
    destruct r as [[|cr r]|]; [destruct Fr as [X _]; contradiction| |];
    (destruct d as [[|cd d]|]; [destruct Fd as [X _]; contradiction| |]);
    (destruct s as [n|]; [destruct (Z.eqb_spec n 0); [lia|]; destruct (fmt02_number dv n A Fs) as [D V]|]);
    [ exists (u "(" ++ (cr :: r) ++ u ")"), (u "[" ++ fmt02 n ++ u "]"), (u "{" ++ (cd :: d) ++ u "}")
    | exists (u "(" ++ (cr :: r) ++ u ")"), [], (u "{" ++ (cd :: d) ++ u "}")
    | exists (u "(" ++ (cr :: r) ++ u ")"), (u "[" ++ fmt02 n ++ u "]"), []
    | exists (u "(" ++ (cr :: r) ++ u ")"), [], []
    | exists [], (u "[" ++ fmt02 n ++ u "]"), (u "{" ++ (cd :: d) ++ u "}")
    | exists [], [], (u "{" ++ (cd :: d) ++ u "}")
    | exists [], (u "[" ++ fmt02 n ++ u "]"), []
    | exists [], [], [] ];
    (split; [destruct e; cbv iota; cbn [app]; repeat rewrite <- app_assoc; repeat rewrite app_nil_r; reflexivity|]);
    (split; [first [apply Part_none|apply (Part_some (u1 "(") (u1 ")") (cr :: r)); apply Fr]|]);
    (split; [first [apply Number_none|replace (Some n) with (Some (value dv 0 (fmt02 n))) by (rewrite V; reflexivity); apply (Number_some dv (fmt02 n)); exact D]|]);
    first [apply Part_none|apply (Part_some (u1 "{") (u1 "}") (cd :: d)); apply Fd]. }
  destruct E as [tr [ts [td [-> [Pr [Ps Pd]]]]]]; apply Written; try assumption; [constructor|left; reflexivity].
Qed.
Theorem word_round_trip dv w : unicode_digits dv -> well_formed w -> from_text dv (word_str w) = Ok w.
Proof. intros A W; apply from_text_iff; [exact A|]; apply word_str_written; assumption. Qed.
(** what is read is well formed, except for a sense number 0 *)
Theorem written_well_formed dv t w : unicode_digits dv -> written dv t w -> sense w <> Some 0 -> well_formed w.
Proof.
  intros A [h r tr l s ts d td e n N F Pr _ Ps Pd _] S; cbn [sense] in S.
  unfold well_formed; cbn [headword reading sense display].
  split; [exact N|split; [exact F|split; [destruct Pr; cbn [fine_part]; auto|split; [destruct Pd; cbn [fine_part]; auto|]]]].
  destruct Ps as [|s [Ns Ds]]; [exact I|].
  assert (V : forall acc, 0 <= acc -> 0 <= value dv acc s).
  { clear -A; induction s as [|c s IH]; intros acc P; cbn [value]; [exact P|]; apply IH.
    destruct (dv c) as [d|] eqn:E; [|lia]; destruct A as [[_ [_ B]] _]; specialize (B c d E); lia. }
  specialize (V 0 ltac:(lia)); destruct (Z.eq_dec (value dv 0 s) 0) as [E|E]; [rewrite E in S; congruence|lia].
Qed.

(* ------------------------------------------------------------------ *)
(** ** Equality *)
Theorem word_eq_iff a b : word_eq a b = true <-> same_word a b.
Proof.
  unfold word_eq, same_word; change (resolve_display a) with (shown a); change (resolve_display b) with (shown b).
  rewrite !andb_true_iff, !eqb_true, Bool.eqb_true_iff; tauto.
Qed.

(* ------------------------------------------------------------------ *)
(** ** Sentences *)
Definition full (w : str) : bool := match w with [] => false | _ => true end.
Lemma parse_words_filter dv ws : parse_words dv ws = mapM (from_text dv) (filter full ws).
Proof.
  induction ws as [|[|c w] ws IH]; cbn [parse_words filter full mapM]; [reflexivity|exact IH|rewrite IH; reflexivity].
Qed.
Lemma filter_spaces g s : spaces g -> filter full (split_on 32 (g ++ s)) = filter full (split_on 32 s).
Proof. induction g as [|c g IH]; intros S; [reflexivity|]; inversion S as [|? ? -> S']; subst; cbn [app split_on Z.eqb Pos.eqb filter full]; apply IH, S'. Qed.
Lemma pieces_unique t ps : pieces t ps -> ps = filter full (split_on 32 t).
Proof.
  induction 1 as [g G|g w s ws G N F H P IH].
  - rewrite <- (app_nil_r g), filter_spaces by exact G; reflexivity.
  - rewrite filter_spaces by exact G; destruct s as [|c s].
    + rewrite app_nil_r, split_on_one by exact F; cbn in IH; rewrite IH; destruct w; [contradiction|reflexivity].
    + cbn in H; subst c; change (u1 " ") with 32 in *; rewrite split_on_app by exact F.
      cbn [split_on Z.eqb Pos.eqb filter full] in IH; rewrite IH; destruct w; [contradiction|reflexivity].
Qed.
Lemma pieces_exist t : exists ps, pieces t ps.
Proof.
  assert (X : (exists ps, pieces t ps) /\ (exists w s ws, t = w ++ s /\ ~ In 32 w /\ (match s with c :: _ => c = 32 | [] => True end) /\ pieces s ws)).
  { induction t as [|c t [[ps P] [w [s [ws [-> [F [H Q]]]]]]]].
    - split; [exists []; apply Pieces_nil; constructor|exists [], [], []; repeat split; [intros []|apply Pieces_nil; constructor]].
    - destruct (Z.eq_dec c 32) as [->|N].
      + assert (P' : pieces (32 :: w ++ s) ps).
        { inversion P as [g G|g w' s' ws' G N' F' H' P'' E]; subst.
          - apply Pieces_nil; constructor; [reflexivity|exact G].
          - apply (Pieces_cons (32 :: g) w' s' ws'); try assumption; constructor; [reflexivity|exact G]. }
        split; [exists ps; exact P'|exists [], (32 :: w ++ s), ps; repeat split; [intros []|exact P']].
      + split; [exists ((c :: w) :: ws); apply (Pieces_cons [] (c :: w) s ws); [constructor|discriminate| |exact H|exact Q]|exists (c :: w), s, ws; repeat split; [|exact H|exact Q]];
          intros [E|E]; congruence || contradiction. }
  exact (proj1 X).
Qed.
Lemma mapM_forall2 {A B} (f : A -> res B) l l' : mapM f l = Ok l' <-> Forall2 (fun x y => f x = Ok y) l l'.
Proof.
  revert l'; induction l as [|x l IH]; intros l'; cbn [mapM].
  - split; [intros E; injection E as <-; constructor|inversion 1; reflexivity].
  - destruct (f x) as [y|e] eqn:E; cbn [bind]; [|split; [discriminate|inversion 1; congruence]].
    destruct (mapM f l) as [ys|e] eqn:M; cbn [bind].
    + split; [intros X; injection X as <-; constructor; [exact E|apply IH; reflexivity]|].
      inversion 1 as [|? y' ? l2 E' F]; subst; apply IH in F; congruence.
    + split; [discriminate|]; inversion 1 as [|? y' ? l2 E' F]; subst; apply IH in F; discriminate.
Qed.
Lemma mapM_error {A B} (f : A -> res B) l e : (forall x y, f x = Raise y -> y = e) -> forall x, In x l -> f x = Raise e -> mapM f l = Raise e.
Proof.
  intros H; induction l as [|a l IH]; intros x I E; [destruct I|]; destruct I as [->|I]; [cbn [mapM]; rewrite E; reflexivity|].
  cbn [mapM]; destruct (f a) as [b|y] eqn:Fa; cbn [bind]; [rewrite (IH x) by assumption; reflexivity|rewrite (H _ _ Fa); reflexivity].
Qed.
Lemma from_text_only dv t e : unicode_digits dv -> from_text dv t = Raise e -> e = InvalidEntryError.
Proof.
  intros A E; unfold from_text in E; destruct (match_ (word_re dv) t) as [m|] eqn:M; [|injection E as <-; reflexivity].
  destruct (den_word dv A [] t []) as [_ K]; destruct (K m M) as [cs [G _]]; apply g0_raw in G.
  destruct (from_text_raw dv A t cs G) as [e' [d [s [r [h [_ [X _]]]]]]]; unfold from_text in X; rewrite M in X; congruence.
Qed.
Theorem parse_sentence_iff dv t ps ws : unicode_digits dv -> pieces t ps -> parse_sentence dv t = Ok ws <-> Forall2 (written dv) ps ws.
Proof.
  intros A P; unfold parse_sentence, sentence_splitter; rewrite parse_words_filter; change (u1 " ") with 32; rewrite <- (pieces_unique t ps P), mapM_forall2.
  clear P; split; (induction 1; constructor; [apply from_text_iff; assumption|assumption]).
Qed.
Theorem parse_sentence_error dv t ps p : unicode_digits dv -> pieces t ps -> In p ps -> (forall w, ~ written dv p w) ->
  parse_sentence dv t = Raise InvalidEntryError.
Proof.
  intros A P I N; unfold parse_sentence, sentence_splitter; rewrite parse_words_filter; change (u1 " ") with 32; rewrite <- (pieces_unique t ps P).
  apply (mapM_error _ _ _ (fun x y => from_text_only dv x y A) p); [exact I|apply from_text_error; assumption].
Qed.
Theorem parse_sentence_total dv t : unicode_digits dv ->
  (exists ws, parse_sentence dv t = Ok ws) \/ parse_sentence dv t = Raise InvalidEntryError.
Proof.
  intros A; unfold parse_sentence; rewrite parse_words_filter; generalize (filter full (sentence_splitter t)) as l.
  induction l as [|x l IH]; cbn [mapM]; [left; eauto|].
  destruct (from_text dv x) as [w|e] eqn:E; [|right; apply from_text_only in E; [rewrite E; reflexivity|exact A]].
  cbn [bind]; destruct IH as [[ws ->]| ->]; cbn [bind]; eauto.
Qed.

Theorem parse_sentence_reject dv t ps : unicode_digits dv -> pieces t ps ->
  parse_sentence dv t = Raise InvalidEntryError <-> exists p, In p ps /\ forall w, ~ written dv p w.
Proof.
  intros A P; split; [|intros [p [I N]]; apply (parse_sentence_error dv t ps p); assumption].
  unfold parse_sentence, sentence_splitter; rewrite parse_words_filter; change (u1 " ") with 32; rewrite <- (pieces_unique t ps P); clear P.
  induction ps as [|p ps IH]; cbn [mapM]; [discriminate|].
  destruct (from_text dv p) as [w|e] eqn:E; cbn [bind].
  - intros X; destruct (mapM (from_text dv) ps) as [ws|e] eqn:M; [discriminate|]; cbn [bind] in X.
    destruct (IH X) as [q [I N]]; exists q; split; [right; exact I|exact N].
  - intros _; exists p; split; [left; reflexivity|]; intros w W; apply from_text_iff in W; [congruence|exact A].
Qed.
Lemma not_in_app {A} (x : A) l m : ~ In x l -> ~ In x m -> ~ In x (l ++ m).
Proof. intros H K I; apply in_app_or in I; tauto. Qed.
Lemma fmt02_no_space n : ~ In 32 (fmt02 n).
Proof.
  assert (D : ~ In 32 (dec n)).
  { intros I; destruct (dec_chars n) as [F _]; rewrite Forall_forall in F; specialize (F 32 I); unfold digit_char in F; lia. }
  unfold fmt02; destruct (_ <? _)%nat; [|exact D]; apply not_in_app; [intros [X|[]]; discriminate|exact D].
Qed.
Lemma word_str_no_space w : no_space w -> ~ In 32 (word_str w).
Proof.
  intros [Nh [Nr Nd]]; change (u1 " ") with 32 in *.
  assert (L1 : forall s, u1 s <> 32 -> ~ In 32 [u1 s]) by (intros s N [X|[]]; contradiction).
  unfold word_str.
  assert (X1 : ~ In 32 (match reading w with Some (c :: r) => headword w ++ u "(" ++ (c :: r) ++ u ")" | _ => headword w end)).
  { destruct (reading w) as [[|c r]|] eqn:E; try exact Nh; specialize (Nr _ eq_refl).
    repeat apply not_in_app; try assumption; intros [X|[]]; discriminate. }
  set (b1 := match reading w with Some _ => _ | None => _ end) in *; clearbody b1.
  assert (X2 : ~ In 32 (match sense w with Some n => if n =? 0 then b1 else b1 ++ u "[" ++ fmt02 n ++ u "]" | None => b1 end)).
  { destruct (sense w) as [n|]; [destruct (n =? 0)|]; try exact X1.
    repeat apply not_in_app; try assumption; try apply fmt02_no_space; intros [X|[]]; discriminate. }
  set (b2 := match sense w with Some _ => _ | None => _ end) in *; clearbody b2.
  assert (X3 : ~ In 32 (match display w with Some (c :: r) => b2 ++ u "{" ++ (c :: r) ++ u "}" | _ => b2 end)).
  { destruct (display w) as [[|c r]|] eqn:E; try exact X2; specialize (Nd _ eq_refl).
    repeat apply not_in_app; try assumption; intros [X|[]]; discriminate. }
  destruct (example w); [|exact X3]; apply not_in_app; [exact X3|intros [X|[]]; discriminate].
Qed.
Lemma ascii_space c : is_space c = true -> ascii_dv c = None.
Proof.
  intros S; unfold ascii_dv; destruct (Z.leb_spec 48 c), (Z.leb_spec c 57); try reflexivity.
  exfalso; rewrite (digit_not_space c) in S by (left; unfold digit_char; lia); discriminate.
Qed.
Lemma word_str_full w : well_formed w -> full (word_str w) = true.
Proof.
  intros W; pose proof (word_str_written ascii_dv w (conj ascii_dv_ok ascii_space) W) as X.
  remember (word_str w) as t eqn:T; destruct X as [h r tr l s ts d td e n N]; destruct h; [contradiction|reflexivity].
Qed.
Theorem sentence_round_trip dv ws : unicode_digits dv -> Forall (fun w => well_formed w /\ no_space w) ws ->
  parse_sentence dv (join (u " ") (map word_str ws)) = Ok ws.
Proof.
  intros A F; unfold parse_sentence, sentence_splitter; rewrite parse_words_filter.
  change (u " ") with [32]; change (u1 " ") with 32.
  assert (E : filter full (split_on 32 (join [32] (map word_str ws))) = map word_str ws).
  { destruct ws as [|w ws]; [reflexivity|]; rewrite split_join; [|discriminate|].
    - induction F as [|x l [W _] F IH]; [reflexivity|]; cbn [map filter]; rewrite (word_str_full x W), IH; reflexivity.
    - apply Forall_map; eapply Forall_impl; [|exact F]; intros x [_ S]; apply word_str_no_space, S. }
  rewrite E, mapM_forall2; clear E.
  induction F as [|x l [W _] F IH]; constructor; [apply word_round_trip; assumption|exact IH].
Qed.

(* ------------------------------------------------------------------ *)
(** ** Filling in readings *)
Lemma only_reading_spec rs r : only_reading rs = Some r <-> rs <> [] /\ Forall (fun x => x = r) rs.
Proof.
  unfold only_reading; split.
  - destruct (Nat.eqb_spec (length (set_of rs)) 1) as [L|]; [|discriminate]; intros E.
    destruct rs as [|a rs]; [discriminate|]; injection E as ->; split; [discriminate|].
    apply Forall_forall; intros x I; destruct (set_of (r :: rs)) as [|y [|z l]] eqn:S; try discriminate L.
    assert (I1 : In x [y]) by (rewrite <- S; apply In_set_of, I).
    assert (I2 : In r [y]) by (rewrite <- S; apply In_set_of; left; reflexivity).
    destruct I1 as [<-|[]], I2 as [<-|[]]; reflexivity.
  - intros [N F]; destruct rs as [|a rs]; [contradiction|].
    assert (E : set_of (a :: rs) = [r]).
    { pose proof (NoDup_set_of (a :: rs)) as D; assert (X : forall x, In x (set_of (a :: rs)) -> x = r) by (intros x I; apply (proj1 (In_set_of x (a :: rs))) in I; rewrite Forall_forall in F; apply F, I).
      assert (I : In a (set_of (a :: rs))) by (apply In_set_of; left; reflexivity).
      destruct (set_of (a :: rs)) as [|y [|z l]]; [destruct I| |].
      - rewrite (X y) by (left; reflexivity); reflexivity.
      - inversion D as [|? ? N1 _]; subst; elim N1; rewrite (X y), (X z) by (cbn [In]; tauto); left; reflexivity. }
    rewrite E; cbn [length Nat.eqb nth_error]; inversion F; subst; reflexivity.
Qed.
Lemma only_reading_none rs : only_reading rs = None -> rs = [] \/ exists a b, In a rs /\ In b rs /\ a <> b.
Proof.
  intros E; destruct rs as [|a rs]; [left; reflexivity|right].
  destruct (forallb (eqb a) rs) eqn:F.
  - assert (X : only_reading (a :: rs) = Some a); [|congruence].
    apply only_reading_spec; split; [discriminate|]; constructor; [reflexivity|]; apply Forall_forall; intros x I.
    rewrite forallb_forall in F; specialize (F x I); symmetry; apply eqb_true; exact F.
  - assert (X : exists b, In b rs /\ a <> b).
    { clear E; induction rs as [|b rs IH]; [discriminate|]; cbn [forallb] in F; destruct (eqb a b) eqn:Eb; cbn [andb] in F.
      - destruct (IH F) as [x [I N]]; exists x; split; [right; exact I|exact N].
      - apply eqb_false in Eb; exists b; split; [left; reflexivity|exact Eb]. }
    destruct X as [b [I N]]; exists a, b; repeat split; [left; reflexivity|right; exact I|exact N].
Qed.
Definition lookup (rs : list str) (s : option Z) : res (option str) :=
  match s with
  | Some s => if s <=? Z.of_nat (length rs) then rmap Some (py_index rs (s - 1)) else Ok (only_reading rs)
  | None => Ok (only_reading rs)
  end.
Lemma chosen_only rs s : (match s with Some k => Z.of_nat (length rs) < k | None => True end) -> chosen rs s (only_reading rs).
Proof.
  intros B; destruct (only_reading rs) as [r|] eqn:E.
  - apply only_reading_spec in E; apply Chosen_only; tauto.
  - apply Chosen_none; [exact B|apply only_reading_none, E].
Qed.
Lemma lookup_chosen rs s o : lookup rs s = Ok o <-> chosen rs s o.
Proof.
  split.
  - unfold lookup; destruct s as [k|]; [|intros E; injection E as <-; apply chosen_only; exact I].
    destruct (Z.leb_spec k (Z.of_nat (length rs))) as [L|L]; [|intros E; injection E as <-; apply chosen_only; exact L].
    unfold py_index; intros E; destruct (Z.leb_spec 0 (k - 1)).
    + destruct (nth_error rs _) as [r|] eqn:N; cbn [of_option rmap bind] in E; [injection E as <-|discriminate].
      apply Chosen_sense; [lia|exact N].
    + destruct (Z.leb_spec 0 (k - 1 + Z.of_nat (length rs))); [|discriminate].
      destruct (nth_error rs _) as [r|] eqn:N; cbn [of_option rmap bind] in E; [injection E as <-|discriminate].
      apply Chosen_backwards; [lia|lia|exact N].
  - intros [k r B N|k r B B' N|s' r B N F|s' B F]; unfold lookup.
    + destruct (Z.leb_spec k (Z.of_nat (length rs))); [|lia]; unfold py_index; destruct (Z.leb_spec 0 (k - 1)); [|lia]; rewrite N; reflexivity.
    + destruct (Z.leb_spec k (Z.of_nat (length rs))); [|lia]; unfold py_index; destruct (Z.leb_spec 0 (k - 1)); [lia|].
      destruct (Z.leb_spec 0 (k - 1 + Z.of_nat (length rs))); [|lia]; rewrite N; reflexivity.
    + assert (E : only_reading rs = Some r) by (apply only_reading_spec; auto).
      destruct s' as [k|]; [destruct (Z.leb_spec k (Z.of_nat (length rs))); [lia|]|]; rewrite E; reflexivity.
    + assert (E : only_reading rs = None).
      { destruct (only_reading rs) as [r|] eqn:E; [|reflexivity]; apply only_reading_spec in E; destruct E as [N A].
        destruct F as [->|[a [b [Ia [Ib D]]]]]; [contradiction|]; rewrite Forall_forall in A; elim D; rewrite (A a Ia), (A b Ib); reflexivity. }
      destruct s' as [k|]; [destruct (Z.leb_spec k (Z.of_nat (length rs))); [lia|]|]; rewrite E; reflexivity.
Qed.
Lemma lookup_error rs s e : lookup rs s = Raise e -> e = IndexError.
Proof.
  unfold lookup; destruct s as [k|]; [|discriminate]; destruct (k <=? _); [|discriminate].
  unfold py_index; destruct (if 0 <=? k - 1 then _ else _); cbn [of_option rmap bind]; congruence.
Qed.
Lemma adjust_word_unfold edict w : adjust_word edict w =
  match dget (headword w) edict, reading w with
  | Some rs, None => do r <- lookup rs (sense w); Ok (if eqb r (Some (headword w)) then w else set_reading w r)
  | _, _ => Ok w
  end.
Proof. unfold adjust_word; destruct (dget _ edict); [destruct (reading w)|]; reflexivity. Qed.
Lemma set_reading_None w : reading w = None -> set_reading w None = w.
Proof. destruct w as [h r s d e]; cbn [reading]; intros ->; reflexivity. Qed.
Theorem adjust_word_same edict w : dget (headword w) edict = None \/ reading w <> None -> adjust_word edict w = Ok w.
Proof.
  intros H; rewrite adjust_word_unfold; destruct (dget _ edict); [|reflexivity]; destruct (reading w); [reflexivity|].
  destruct H; [discriminate|contradiction].
Qed.
Theorem adjust_word_lookup edict w rs : dget (headword w) edict = Some rs -> reading w = None ->
  (forall o, chosen rs (sense w) o -> adjust_word edict w =
     Ok (match o with Some r => if eqb r (headword w) then w else with_reading w r | None => w end)) /\
  ((forall o, ~ chosen rs (sense w) o) -> adjust_word edict w = Raise IndexError).
Proof.
  intros E R; rewrite adjust_word_unfold, E, R; split.
  - intros o C; apply lookup_chosen in C; rewrite C; cbn [bind]; f_equal; destruct o as [r|].
    + change (eqb (Some r) (Some (headword w))) with (eqb r (headword w)); reflexivity.
    + change (eqb (@None str) (Some (headword w))) with false; cbv iota; apply set_reading_None, R.
  - intros N; destruct (lookup rs (sense w)) as [o|e] eqn:L; [apply lookup_chosen in L; elim (N o L)|].
    apply lookup_error in L; rewrite L; reflexivity.
Qed.
Lemma chosen_In rs s r : chosen rs s (Some r) -> In r rs.
Proof.
  intros C; remember (Some r) as o eqn:O; destruct C as [k r' _ N|k r' _ _ N|s' r' _ N F|]; try discriminate O; injection O as ->.
  - apply nth_error_In in N; exact N.
  - apply nth_error_In in N; exact N.
  - destruct rs as [|a rs]; [contradiction|]; inversion F; subst; left; reflexivity.
Qed.
Lemma adjust_word_filled edict w w' : adjust_word edict w = Ok w' -> filled edict w w'.
Proof.
  rewrite adjust_word_unfold; destruct (dget (headword w) edict) as [rs|] eqn:E; [|intros X; injection X as <-; constructor].
  destruct (reading w) as [x|] eqn:R; [intros X; injection X as <-; constructor|].
  destruct (lookup rs (sense w)) as [o|] eqn:L; cbn [bind]; [|discriminate].
  apply lookup_chosen in L; destruct (eqb o (Some (headword w))) eqn:Q; intros X; injection X as <-; [constructor|].
  apply eqb_false in Q; destruct o as [r|]; [|rewrite set_reading_None by exact R; constructor].
  apply (Filled_in edict w rs r); [exact R|exact E|apply (chosen_In rs (sense w)), L|congruence].
Qed.
Theorem adjust_filled edict ws : Forall2 (filled edict) ws (fst (adjust_details (Some edict) ws)).
Proof.
  cbn [adjust_details]; induction ws as [|w ws IH]; cbn [adjust_loop fst]; [constructor|].
  destruct (adjust_word edict w) as [w'|] eqn:E.
  - destruct (adjust_loop edict ws) as [r o]; cbn [fst] in *; constructor; [apply adjust_word_filled, E|exact IH].
  - cbn [fst]; constructor; [constructor|]; clear; induction ws; constructor; [constructor|assumption].
Qed.
Theorem adjust_Ok edict ws ws' : adjust_details (Some edict) ws = (ws', Ok tt) <-> Forall2 (fun w w' => adjust_word edict w = Ok w') ws ws'.
Proof.
  cbn [adjust_details]; revert ws'; induction ws as [|w ws IH]; intros ws'; cbn [adjust_loop].
  - split; [intros E; injection E as <-; constructor|inversion 1; reflexivity].
  - destruct (adjust_word edict w) as [w'|] eqn:E; [|split; [discriminate|inversion 1; congruence]].
    destruct (adjust_loop edict ws) as [r o]; split.
    + intros X; injection X as <- ->; constructor; [exact E|apply IH; reflexivity].
    + inversion 1 as [|? y ? l E' F]; subst; apply IH in F; injection F as -> ->; congruence.
Qed.
Theorem adjust_error edict ws e ws' : adjust_details (Some edict) ws = (ws', Raise e) ->
  e = IndexError /\ exists a w b a', ws = a ++ w :: b /\ ws' = a' ++ w :: b /\ Forall2 (fun w w' => adjust_word edict w = Ok w') a a' /\ adjust_word edict w = Raise IndexError.
Proof.
  cbn [adjust_details]; revert ws'; induction ws as [|w ws IH]; intros ws'; cbn [adjust_loop]; [discriminate|].
  destruct (adjust_word edict w) as [w'|x] eqn:E.
  - destruct (adjust_loop edict ws) as [r o]; intros X; injection X as <- ->.
    destruct (IH r eq_refl) as [-> [a [v [b [a' [-> [-> [F G]]]]]]]]; split; [reflexivity|].
    exists (w :: a), v, b, (w' :: a'); repeat split; [constructor; assumption|exact G].
  - intros X; injection X as <- ->.
    assert (Y : e = IndexError).
    { rewrite adjust_word_unfold in E; destruct (dget (headword w) edict) as [rs|]; [|discriminate]; destruct (reading w); [discriminate|].
      destruct (lookup rs (sense w)) as [o|y] eqn:L; cbn [bind] in E; [discriminate|]; injection E as <-; apply (lookup_error _ _ _ L). }
    subst e; split; [reflexivity|]; exists [], w, ws, []; repeat split; [constructor|exact E].
Qed.
Theorem adjust_idem edict ws ws' : adjust_details edict ws = (ws', Ok tt) -> adjust_details edict ws' = (ws', Ok tt).
Proof.
  destruct edict as [edict|]; [|intros _; reflexivity]; rewrite !adjust_Ok; intros F.
  induction F as [|w w' ws ws' E F IH]; constructor; [|exact IH].
  pose proof (adjust_word_filled _ _ _ E) as G; destruct G as [|rs r R D Ir N]; [exact E|].
  apply adjust_word_same; right; discriminate.
Qed.
