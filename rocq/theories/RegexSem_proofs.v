(* RegexSem_proofs.v -- the engine of Regex.v against RegexSem.v. *)
From Verif Require Import Base PyStr Regex RegexSem.

Fixpoint first (k : pos -> option pos) (l : list pos) : option pos :=
  match l with [] => None | x :: r => match k x with Some y => Some y | None => first k r end end.
Lemma first_app k l m : first k (l ++ m) = match first k l with Some y => Some y | None => first k m end.
Proof. induction l as [|x l IH]; [reflexivity|]; cbn [app first]; destruct (k x); [reflexivity|exact IH]. Qed.
Lemma first_flat k f l : first k (flat_map f l) = first (fun x => first k (f x)) l.
Proof. induction l as [|x l IH]; [reflexivity|]; cbn [flat_map first]; rewrite first_app, IH; reflexivity. Qed.
Lemma first_map k f l : first k (map f l) = first (fun x => k (f x)) l.
Proof. induction l as [|x l IH]; [reflexivity|]; cbn [map first]; rewrite IH; reflexivity. Qed.
Lemma first_ext k k' l : (forall x, k x = k' x) -> first k l = first k' l.
Proof. intros E; induction l as [|x l IH]; [reflexivity|]; cbn [first]; rewrite E, IH; reflexivity. Qed.
Lemma first_Some l : first Some l = hd_error l. Proof. destruct l; reflexivity. Qed.

Lemma star_runs f g lazy : (forall k s, f k s = first k (g s)) -> forall n k s, star f lazy n k s = first k (stars g lazy n s).
Proof.
  intros E; induction n as [|n IH]; intros k s; [reflexivity|]; cbn [star stars].
  rewrite E.
  assert (X : first (fun t => if (length (rest t) <? length (rest s))%nat then star f lazy n k t else None) (g s) =
              first k (flat_map (fun t => if shorter t s then stars g lazy n t else []) (g s))).
  { rewrite first_flat; apply first_ext; intros t; unfold shorter; destruct (_ <? _)%nat; [apply IH|reflexivity]. }
  rewrite X; destruct lazy; [reflexivity|]; rewrite first_app; cbn [first].
  destruct (first k _); [reflexivity|]; destruct (k s); reflexivity.
Qed.
(** the engine tries the ways of matching in the order of preference *)
Theorem mtch_runs r : forall k s, mtch r k s = first k (runs r s).
Proof.
  induction r; intros k s; cbn [mtch runs].
  - cbn [first]; destruct (k s); reflexivity.
  - destruct (rest s) as [|c q]; [reflexivity|]; destruct (p c); [cbn [first]; destruct (k _); reflexivity|reflexivity].
  - rewrite first_flat, IHr1; apply first_ext; intros x; apply IHr2.
  - rewrite first_app, IHr1, IHr2; reflexivity.
  - apply star_runs, IHr.
  - apply star_runs, IHr.
  - rewrite first_map, IHr; reflexivity.
  - destruct (before s); [cbn [first]; destruct (k s)|]; reflexivity.
  - destruct (rest s) as [|c [|d q]]; [cbn [first]; destruct (k s); reflexivity| |reflexivity].
    destruct (c =? 10); [cbn [first]; destruct (k s)|]; reflexivity.
  - destruct (before s) as [|c b]; [reflexivity|]; destruct (p c); [cbn [first]; destruct (k s)|]; reflexivity.
Qed.

(** a match does not change the text, and moves forward only *)
Lemma Matches_text r s t : Matches r s t -> exists w, rest s = w ++ rest t /\ before t = rev w ++ before s.
Proof.
  induction 1; try (exists []; split; reflexivity).
  - exists [c]; split; reflexivity.
  - destruct IHMatches1 as (w1 & A & B), IHMatches2 as (w2 & C & D); exists (w1 ++ w2).
    rewrite A, C, D, B, rev_app_distr, <- !app_assoc; split; reflexivity.
  - exact IHMatches.
  - exact IHMatches.
  - destruct IHMatches1 as (w1 & A & B), IHMatches2 as (w2 & C & D); exists (w1 ++ w2).
    rewrite A, C, D, B, rev_app_distr, <- !app_assoc; split; reflexivity.
  - destruct IHMatches1 as (w1 & A & B), IHMatches2 as (w2 & C & D); exists (w1 ++ w2).
    rewrite A, C, D, B, rev_app_distr, <- !app_assoc; split; reflexivity.
  - exact IHMatches.
Qed.
Lemma Matches_len r s t : Matches r s t -> (length (rest t) <= length (rest s))%nat.
Proof. intros M; destruct (Matches_text _ _ _ M) as (w & E & _); rewrite E, app_length; lia. Qed.
Lemma nullable_spec r s t : Matches r s t -> length (rest t) = length (rest s) -> nullable r = true.
Proof.
  induction 1; intros E; cbn [nullable]; try reflexivity.
  - cbn [rest length] in E; lia.
  - pose proof (Matches_len _ _ _ H); pose proof (Matches_len _ _ _ H0); rewrite IHMatches1, IHMatches2 by lia; reflexivity.
  - rewrite IHMatches by exact E; reflexivity.
  - rewrite IHMatches by exact E; apply orb_true_r.
  - apply IHMatches, E.
Qed.
Lemma nullable_shorter r s t : nullable r = false -> Matches r s t -> shorter t s = true.
Proof.
  intros N M; unfold shorter; apply Nat.ltb_lt; pose proof (Matches_len _ _ _ M).
  destruct (Nat.eq_dec (length (rest t)) (length (rest s))) as [E|]; [|lia].
  rewrite (nullable_spec _ _ _ M E) in N; discriminate.
Qed.

Lemma stars_In r lazy S0 : nullable r = false -> (forall s t, In t (runs r s) <-> Matches r s t) ->
  (forall s, Matches (S0 r) s s) -> (forall s t w, Matches r s t -> Matches (S0 r) t w -> Matches (S0 r) s w) ->
  (forall s w, Matches (S0 r) s w -> s = w \/ exists t, Matches r s t /\ Matches (S0 r) t w) ->
  forall n s t, (length (rest s) < n)%nat -> In t (stars (runs r) lazy n s) <-> Matches (S0 r) s t.
Proof.
  intros N IH Stop More Inv; induction n as [|n IHn]; intros s w Hn; [lia|].
  assert (X : In w (stars (runs r) lazy (S n) s) <->
              In w (flat_map (fun t => if shorter t s then stars (runs r) lazy n t else []) (runs r s)) \/ w = s).
  { cbn [stars]; destruct lazy; [cbn [In]|rewrite in_app_iff; cbn [In]]; intuition congruence. }
  rewrite X, in_flat_map; split.
  - intros [(t & I & J)| ->]; [|apply Stop].
    destruct (shorter t s) eqn:Sh; [|destruct J]; apply IH in I.
    unfold shorter in Sh; apply Nat.ltb_lt in Sh; apply IHn in J; [|lia]; exact (More _ _ _ I J).
  - intros M; destruct (Inv _ _ M) as [->|(t & M1 & M2)]; [right; reflexivity|left].
    pose proof (nullable_shorter _ _ _ N M1) as Sh; exists t; split; [apply IH, M1|].
    rewrite Sh; apply IHn; [unfold shorter in Sh; apply Nat.ltb_lt in Sh; lia|exact M2].
Qed.
Lemma star_inv r s w : Matches (Star r) s w -> s = w \/ exists t, Matches r s t /\ Matches (Star r) t w.
Proof. intros M; inversion M; subst; [left; reflexivity|right; eexists; split; eassumption]. Qed.
Lemma lazy_inv r s w : Matches (Lazy r) s w -> s = w \/ exists t, Matches r s t /\ Matches (Lazy r) t w.
Proof. intros M; inversion M; subst; [left; reflexivity|right; eexists; split; eassumption]. Qed.

(** the candidates are exactly the matches *)
Theorem runs_iff r : solid r = true -> forall s t, In t (runs r s) <-> Matches r s t.
Proof.
  induction r; cbn [solid]; intros K s t; cbn [runs]; try (apply andb_prop in K; destruct K as [K1 K2]).
  - split; [intros [->|[]]; constructor|intros M; inversion M; subst; left; reflexivity].
  - destruct s as [b [|c q] cs]; cbn [rest before caps].
    + split; [intros []|intros M; inversion M].
    + destruct (p c) eqn:P.
      * split; [intros [<-|[]]; constructor; exact P|intros M; inversion M; subst; left; reflexivity].
      * split; [intros []|intros M; inversion M; subst; congruence].
  - rewrite in_flat_map; split.
    + intros (x & A & B); apply IHr1 in A; [|exact K1]; apply IHr2 in B; [|exact K2]; exact (M_seq _ _ _ _ _ A B).
    + intros M; inversion M; subst; eexists; split; [apply IHr1; eassumption|apply IHr2; assumption].
  - rewrite in_app_iff, (IHr1 K1), (IHr2 K2); split.
    + intros [M|M]; [apply M_left, M|apply M_right, M].
    + intros M; inversion M; subst; [left|right]; assumption.
  - apply (stars_In r false Star); [apply negb_true_iff, K1|exact (IHr K2)|apply M_stop|apply M_more|apply star_inv|lia].
  - apply (stars_In r true Lazy); [apply negb_true_iff, K1|exact (IHr K2)|apply M_lstop|apply M_lmore|apply lazy_inv|lia].
  - rewrite in_map_iff; split.
    + intros (x & <- & I); apply IHr in I; [|exact K]; apply M_grp, I.
    + intros M; inversion M; subst; eexists; split; [reflexivity|apply IHr; assumption].
  - destruct s as [[|c b] q cs]; cbn [before].
    + split; [intros [<-|[]]; constructor|intros M; inversion M; subst; left; reflexivity].
    + split; [intros []|intros M; inversion M].
  - destruct s as [b [|c [|d q]] cs]; cbn [rest].
    + split; [intros [<-|[]]; constructor|intros M; inversion M; subst; left; reflexivity].
    + destruct (Z.eqb_spec c 10) as [->|N].
      * split; [intros [<-|[]]; constructor|intros M; inversion M; subst; left; reflexivity].
      * split; [intros []|intros M; inversion M; subst; congruence].
    + split; [intros []|intros M; inversion M].
  - destruct s as [[|c b] q cs]; cbn [before].
    + split; [intros []|intros M; inversion M].
    + destruct (p c) eqn:P.
      * split; [intros [<-|[]]; constructor; exact P|intros M; inversion M; subst; left; reflexivity].
      * split; [intros []|intros M; inversion M; subst; congruence].
Qed.
Theorem match_sound r l m : solid r = true -> match_ r l = Some m -> Matches r (start l) m.
Proof.
  intros K H; unfold match_ in H; rewrite mtch_runs, first_Some in H; apply runs_iff; [exact K|].
  destruct (runs r (start l)); [discriminate|]; injection H as ->; left; reflexivity.
Qed.
Theorem match_complete r l : solid r = true -> match_ r l = None <-> (forall t, ~ Matches r (start l) t).
Proof.
  intros K; unfold match_; rewrite mtch_runs, first_Some; split.
  - intros H t M; apply runs_iff in M; [|exact K]; destruct (runs r (start l)); [exact M|discriminate].
  - intros N; destruct (runs r (start l)) as [|t q] eqn:E; [reflexivity|].
    elim (N t); apply runs_iff; [exact K|]; rewrite E; left; reflexivity.
Qed.
Theorem match_best r l : match_ r l = hd_error (runs r (start l)).
Proof. unfold match_; rewrite mtch_runs; apply first_Some. Qed.

(** scanning *)
Lemma scan_Finds r : solid r = true -> nullable r = false -> forall n b l, (length l < n)%nat -> Finds r b l (scan n r b l).
Proof.
  intros K N; induction n as [|n IH]; intros b l Hn; [lia|]; cbn [scan]; rewrite mtch_runs, first_Some.
  destruct (runs r (mkpos b l [])) as [|m q] eqn:R; cbn [hd_error].
  - destruct l as [|c l]; [constructor|]; apply F_skip; [|apply IH; cbn [length] in Hn; lia].
    intros t M; apply runs_iff in M; [|exact K]; rewrite R in M; destruct M.
  - assert (M : Matches r (mkpos b l []) m) by (apply runs_iff; [exact K|rewrite R; left; reflexivity]).
    pose proof (nullable_shorter _ _ _ N M) as Sh; unfold shorter in Sh; cbn [rest] in Sh; rewrite Sh; apply Nat.ltb_lt in Sh.
    apply F_take; [rewrite R; reflexivity|apply IH; lia].
Qed.
Theorem finditer_Finds r l : solid r = true -> nullable r = false -> Finds r [] l (finditer r l).
Proof. intros K N; apply scan_Finds; [exact K|exact N|lia]. Qed.
Lemma Finds_unique r : solid r = true -> nullable r = false -> forall b l ms, Finds r b l ms -> forall ms', Finds r b l ms' -> ms = ms'.
Proof.
  intros K N; induction 1 as [b|b c q ms H F IH|b l m ms H F IH]; intros ms' F'.
  - inversion F' as [| |b0 l0 m0 ms0 H0 F0]; subst; [reflexivity|].
    destruct (runs r (mkpos b [] [])) as [|x y] eqn:R; [discriminate|]; injection H0 as ->.
    assert (M : Matches r (mkpos b [] []) m0) by (apply runs_iff; [exact K|rewrite R; left; reflexivity]).
    apply nullable_shorter in M; [|exact N]; unfold shorter in M; cbn in M; discriminate.
  - inversion F' as [|b0 c0 q0 ms0 H0 F0|b0 l0 m0 ms0 H0 F0]; subst; [apply IH, F0|].
    destruct (runs r (mkpos b (c :: q) [])) as [|x y] eqn:R; [discriminate|].
    elim (H x); apply runs_iff; [exact K|rewrite R; left; reflexivity].
  - inversion F' as [b0|b0 c0 q0 ms0 H0 F0|b0 l0 m0 ms0 H0 F0]; subst.
    + destruct (runs r (mkpos b [] [])) as [|x y] eqn:R; [discriminate|]; injection H as ->.
      assert (M : Matches r (mkpos b [] []) m) by (apply runs_iff; [exact K|rewrite R; left; reflexivity]).
      apply nullable_shorter in M; [|exact N]; unfold shorter in M; cbn in M; discriminate.
    + destruct (runs r (mkpos b (c0 :: q0) [])) as [|x y] eqn:R; [discriminate|].
      elim (H0 x); apply runs_iff; [exact K|rewrite R; left; reflexivity].
    + assert (m0 = m) by congruence; subst m0; rewrite (IH _ F0); reflexivity.
Qed.
Theorem finditer_iff r l ms : solid r = true -> nullable r = false -> Finds r [] l ms <-> finditer r l = ms.
Proof.
  intros K N; split; [intros F; exact (Finds_unique r K N _ _ _ (finditer_Finds r l K N) _ F)|intros <-; apply finditer_Finds; assumption].
Qed.

(** ** similar patterns *)
Section Similar.
  Variable keep : list Z -> bool.
  Notation "a ~ b" := (same_re keep a b) (at level 70).

  Lemma same_star f g lazy :
    (forall k k', (forall s t, same_pos keep s t -> same_opt keep (k s) (k' t)) ->
       forall s t, same_pos keep s t -> same_opt keep (f k s) (g k' t)) ->
    forall n k k', (forall s t, same_pos keep s t -> same_opt keep (k s) (k' t)) ->
    forall s t, same_pos keep s t -> same_opt keep (star f lazy n k s) (star g lazy n k' t).
  Proof.
    intros F; induction n as [|n IH]; intros k k' K s t S; [exact I|]; cbn [star].
    assert (M : same_opt keep (f (fun x => if (length (rest x) <? length (rest s))%nat then star f lazy n k x else None) s)
                              (g (fun x => if (length (rest x) <? length (rest t))%nat then star g lazy n k' x else None) t)).
    { apply F; [|exact S]; intros x y X; destruct S as (_ & -> & _); pose proof X as (_ & -> & _).
      destruct (_ <? _)%nat; [apply IH; assumption|exact I]. }
    pose proof (K s t S) as Kst; destruct lazy.
    - destruct (k s), (k' t); cbn in Kst; try contradiction; [exact Kst|exact M].
    - destruct (f _ s), (g _ t); cbn in M; try contradiction; [exact M|exact Kst].
  Qed.
  Lemma same_alt a a' b b' : a ~ a' -> b ~ b' -> Alt a b ~ Alt a' b'.
  Proof.
    intros A B k k' K s t S; cbn [mtch]; pose proof (A k k' K s t S) as M.
    destruct (mtch a k s), (mtch a' k' t); cbn in M; try contradiction; [exact M|apply B; assumption].
  Qed.
  Lemma same_seq a a' b b' : a ~ a' -> b ~ b' -> Seq a b ~ Seq a' b'.
  Proof. intros A B k k' K s t S; cbn [mtch]; apply A; [|exact S]; intros; apply B; assumption. Qed.
  Lemma same_eps : Eps ~ Eps.
  Proof. intros k k' K s t S; apply K, S. Qed.
  Lemma same_chr p p' : (forall c, p c = p' c) -> Chr p ~ Chr p'.
  Proof.
    intros E k k' K s t S; pose proof S as (A & B & C); cbn [mtch]; rewrite B; destruct (rest t) as [|c q]; [exact I|]; rewrite E.
    destruct (p' c); [|exact I]; apply K; repeat split; cbn [before rest caps]; [rewrite A; reflexivity|exact C].
  Qed.
  Lemma same_stars a b : a ~ b -> Star a ~ Star b.
  Proof. intros A k k' K s t S; cbn [mtch]; replace (rest s) with (rest t) by (symmetry; exact (proj1 (proj2 S))); apply same_star; assumption. Qed.
  Lemma same_lazy a b : a ~ b -> Lazy a ~ Lazy b.
  Proof. intros A k k' K s t S; cbn [mtch]; replace (rest s) with (rest t) by (symmetry; exact (proj1 (proj2 S))); apply same_star; assumption. Qed.
  Lemma same_plus a b : a ~ b -> Plus a ~ Plus b.
  Proof. intros A; apply same_seq; [exact A|apply same_stars, A]. Qed.
  Lemma same_opt_ a b : a ~ b -> Opt a ~ Opt b.
  Proof. intros A; apply same_alt; [exact A|apply same_eps]. Qed.
  Lemma same_grp n a b : a ~ b -> Grp n a ~ Grp n b.
  Proof.
    intros A k k' K s t S; cbn [mtch]; apply A; [|exact S]; intros x y X; apply K.
    unfold capture; destruct X as (X1 & X2 & X3), S as (S1 & S2 & S3); repeat split; cbn [before rest caps]; [exact X1|exact X2|].
    unfold text; rewrite X2, S2; unfold kept in *; cbn [filter fst]; destruct (keep n); [rewrite X3; reflexivity|exact X3].
  Qed.
  (** a group that is not kept may be left out *)
  Lemma same_drop n a b : keep n = false -> a ~ b -> Grp n a ~ b.
  Proof.
    intros N A k k' K s t S; cbn [mtch]; apply A; [|exact S]; intros x y X; apply K.
    unfold capture; destruct X as (X1 & X2 & X3); repeat split; cbn [before rest caps]; [exact X1|exact X2|].
    unfold kept in *; cbn [filter fst]; rewrite N; exact X3.
  Qed.
  Lemma same_bol : Bol ~ Bol.
  Proof. intros k k' K s t S; pose proof S as (A & _ & _); cbn [mtch]; rewrite A; destruct (before t); [apply K, S|exact I]. Qed.
  Lemma same_eol : Eol ~ Eol.
  Proof.
    intros k k' K s t S; pose proof S as (_ & A & _); cbn [mtch]; rewrite A; destruct (rest t) as [|c [|d q]]; [apply K, S| |exact I].
    destruct (c =? 10); [apply K, S|exact I].
  Qed.
  Lemma same_behind p p' : (forall c, p c = p' c) -> Behind p ~ Behind p'.
  Proof.
    intros E k k' K s t S; pose proof S as (A & _ & _); cbn [mtch]; rewrite A; destruct (before t) as [|c q]; [exact I|]; rewrite E.
    destruct (p' c); [apply K, S|exact I].
  Qed.
  (** concatenation is associative and Eps is neutral, by computation *)
  Lemma same_conv a a' b b' : (forall k s, mtch a k s = mtch a' k s) -> (forall k s, mtch b k s = mtch b' k s) -> a' ~ b' -> a ~ b.
  Proof. intros A B H k k' K s t S; rewrite A, B; apply H; assumption. Qed.
  Lemma same_seq_assoc a b c r : Seq a (Seq b c) ~ r -> Seq (Seq a b) c ~ r.
  Proof. intros H; exact H. Qed.
  Lemma same_seq_eps a r : a ~ r -> Seq Eps a ~ r.
  Proof. intros H; exact H. Qed.
  Lemma same_eps_r a r : a ~ r -> Seq a Eps ~ r.
  Proof.
    intros H; refine (same_conv _ a _ r _ (fun _ _ => eq_refl) H); intros k s; cbn [mtch]; apply mtch_ext; reflexivity.
  Qed.
  Lemma same_refl a : a ~ a.
  Proof.
    induction a; [apply same_eps|apply same_chr; reflexivity|apply same_seq; assumption|apply same_alt; assumption|apply same_stars; assumption
      |apply same_lazy; assumption|apply same_grp; assumption|apply same_bol|apply same_eol|apply same_behind; reflexivity].
  Qed.
  Lemma same_trans a b c : a ~ b -> b ~ c -> a ~ c.
  Proof.
    intros A B k k' K s t S.
    assert (Kk : forall s t, same_pos keep s t -> same_opt keep (k' s) (k' t)).
    { intros x y X.
      assert (Y : same_pos keep y y) by (repeat split).
      pose proof (K y y Y) as H1.
      assert (Z0 : same_pos keep y x) by (destruct X as (? & ? & ?); repeat split; congruence).
      pose proof (K y x Z0) as H2.
      destruct (k y), (k' x), (k' y); cbn in *; try contradiction; try exact I.
      destruct H1 as (? & ? & ?), H2 as (? & ? & ?); repeat split; congruence. }
    pose proof (A k k' K s t S) as H1; assert (T : same_pos keep t t) by (repeat split).
    pose proof (B k' k' Kk t t T) as H2.
    destruct (mtch a k s), (mtch b k' t), (mtch c k' t); cbn in *; try contradiction; try exact I.
    destruct H1 as (? & ? & ?), H2 as (? & ? & ?); repeat split; congruence.
  Qed.

  Lemma dget_kept n cs : keep n = true -> dget n (kept keep cs) = dget n cs.
  Proof.
    intros K; induction cs as [|[m v] cs IH]; [reflexivity|]; unfold kept in *; cbn [filter fst].
    destruct (keep m) eqn:M; cbn [dget].
    - destruct (eqb n m); [reflexivity|exact IH].
    - destruct (eqb_spec n m) as [->|_]; [congruence|exact IH].
  Qed.
  Lemma same_group s t n : same_pos keep s t -> keep n = true -> group n s = group n t.
  Proof. intros (_ & _ & C) K; unfold group; rewrite <- (dget_kept n (caps s) K), <- (dget_kept n (caps t) K), C; reflexivity. Qed.
  Lemma same_match a b l : a ~ b -> same_opt keep (match_ a l) (match_ b l).
  Proof. intros H; apply H; [intros s t S; exact S|repeat split]. Qed.
  Lemma same_scan a b : a ~ b -> forall n bf l,
    Forall2 (fun x y => fst x = fst y /\ same_pos keep (snd x) (snd y)) (scan n a bf l) (scan n b bf l).
  Proof.
    intros H; induction n as [|n IH]; intros bf l; cbn [scan]; [constructor|].
    pose proof (H Some Some ltac:(intros ? ? X; exact X) (mkpos bf l []) (mkpos bf l []) ltac:(repeat split)) as M.
    destruct (mtch a _ _) as [x|], (mtch b _ _) as [y|]; cbn in M; try contradiction.
    - pose proof M as (M1 & M2 & _); rewrite M1, M2; destruct (_ <? _)%nat.
      + constructor; [split; [reflexivity|exact M]|apply IH].
      + constructor; [split; [reflexivity|exact M]|]; destruct l; [constructor|apply IH].
    - destruct l; [constructor|apply IH].
  Qed.
  Lemma same_finditer a b l : a ~ b ->
    Forall2 (fun x y => fst x = fst y /\ same_pos keep (snd x) (snd y)) (finditer a l) (finditer b l).
  Proof. intros H; apply same_scan, H. Qed.
End Similar.
