(* Compare_proofs.v *)
From Verif Require Import Base Tanaka_model Tanaka_spec Tanaka_proofs SmartCache_model Compare_model Compare_spec.

Section Compare.
  Context {F : Type}.
  Variable same_object : F -> F -> bool.
  Variable word_field : word -> F -> field -> res bool.
  Variable node_field : nat -> F -> field -> res bool.
  Variable node_same : nat -> nat -> res bool.
  Variable foreign_eq : F -> obj F -> answer.
  Variable derived : F -> obj F -> bool.
  Notation py_eq := (py_eq same_object word_field node_field node_same foreign_eq derived).
  Notation py_ne := (py_ne same_object word_field node_field node_same foreign_eq derived).
  Notation py_in := (py_in same_object word_field node_field node_same foreign_eq derived).
  Notation word_dunder_eq := (word_dunder_eq word_field).
  Notation node_dunder_eq := (node_dunder_eq node_field node_same).

  Lemma decides_fun {A} (out : A -> res bool) l r : decides out l r -> forall r', decides out l r' -> r = r'.
  Proof.
    assert (S : forall l x m l' x' m', Forall (fun x => out x = Ok true) l -> Forall (fun x => out x = Ok true) l' ->
              out x <> Ok true -> out x' <> Ok true -> l ++ x :: m = l' ++ x' :: m' -> x = x').
    { induction l0 as [|y l0 IH]; intros x m [|y' l'] x' m' F1 F2 N1 N2 E; cbn in E; injection E as E1 E2.
      - exact E1.
      - subst; inversion F2; contradiction.
      - subst; inversion F1; contradiction.
      - inversion F1; inversion F2; subst; eapply IH; eassumption. }
    intros [l0 H0|l0 x m r0 H0 E0 N0] r' D; inversion D as [l1 H1 E1|l1 x1 m1 r1 H1 E1 N1 E2]; subst.
    - reflexivity.
    - rewrite Forall_app in H0; destruct H0 as [_ H0]; inversion H0; contradiction.
    - rewrite Forall_app in H1; destruct H1 as [_ H1]; inversion H1; contradiction.
    - rewrite (S _ _ _ _ _ _ H0 H1 N0 N1 (eq_sym E2)); reflexivity.
  Qed.

  Lemma and_decides {A} (out : A -> res bool) x l r : decides out l r -> decides out (x :: l) (and_then (out x) r).
  Proof.
    intros D; unfold and_then; destruct (out x) as [[|]|e] eqn:E; cbn [bind].
    - destruct D as [l H|l y m r H E1 N]; [constructor; constructor; assumption|].
      change (x :: l ++ y :: m) with ((x :: l) ++ y :: m); constructor; [constructor; assumption|assumption|assumption].
    - apply (dec_at out [] x l); [constructor|exact E|discriminate].
    - apply (dec_at out [] x l); [constructor|exact E|discriminate].
  Qed.
  Lemma one_decides {A} (out : A -> res bool) x : decides out [x] (out x).
  Proof.
    destruct (out x) as [[|]|e] eqn:E.
    - constructor; constructor; [exact E|constructor].
    - apply (dec_at out [] x []); [constructor|exact E|discriminate].
    - apply (dec_at out [] x []); [constructor|exact E|discriminate].
  Qed.

  Lemma word_eq_decides w o r : decides (word_cmp word_field w o) word_fields r ->
    word_dunder_eq w o = match r with Ok b => Says b | Raise AttributeError => NotImpl | Raise e => Throws e end.
  Proof.
    intros D; unfold Compare_model.word_dunder_eq, of_try.
    rewrite (decides_fun _ _ _ D (and_then (word_cmp word_field w o Fheadword) (and_then (word_cmp word_field w o Fsense)
       (and_then (word_cmp word_field w o Fexample) (and_then (word_cmp word_field w o Freading) (word_cmp word_field w o Fdisplay)))))).
    2:{ unfold word_fields; repeat apply and_decides; apply one_decides. }
    destruct (and_then (word_cmp word_field w o Fheadword) _) as [b|[]]; reflexivity.
  Qed.
  Lemma word_decided w o : exists r, decides (word_cmp word_field w o) word_fields r.
  Proof. eexists; unfold word_fields; do 4 apply and_decides; apply one_decides. Qed.
  Lemma node_eq_decides a f r : decides (node_field a f) node_fields r ->
    node_dunder_eq a (Foreign f) = match r with Ok b => Says b | Raise e => Throws e end.
  Proof.
    intros D; unfold Compare_model.node_dunder_eq, of_try.
    rewrite (decides_fun _ _ _ D (and_then (node_field a f Flabel) (and_then (node_field a f Fattrib) (node_field a f Fchildren)))).
    2:{ unfold node_fields; repeat apply and_decides; apply one_decides. }
    destruct (and_then (node_field a f Flabel) _) as [b|e]; reflexivity.
  Qed.

  Lemma word_word i j v w : py_eq (Word i v) (Word j w) = Ok (word_eq v w).
  Proof.
    unfold Compare_model.py_eq, rich, right_first; cbn [dunder_eq]; unfold Compare_model.word_dunder_eq, word_cmp, and_then, of_try, word_eq.
    destruct (eqb (headword v) (headword w)); cbn [bind andb]; [|reflexivity].
    destruct (eqb (sense v) (sense w)); cbn [bind andb]; [|reflexivity].
    destruct (Bool.eqb (example v) (example w)); cbn [bind andb]; [|reflexivity].
    destruct (eqb (reading v) (reading w)); reflexivity.
  Qed.

  Lemma ne_negates x y : py_ne x y = rmap negb (py_eq x y).
  Proof.
    assert (W : forall i w z, dunder_ne same_object word_field node_field node_same foreign_eq derived (Word i w) z =
              match py_eq (Word i w) z with Ok b => Says (negb b) | Raise e => Throws e end)
      by (intros i w z; cbn [dunder_ne]; destruct (py_eq (Word i w) z); reflexivity).
    assert (O : forall a, inverted a = match a with Says b => Says (negb b) | Throws e => Throws e | NotImpl => NotImpl end)
      by (intros []; reflexivity).
    destruct x as [i w|a|f], y as [j v|b|g]; unfold Compare_model.py_ne; rewrite ?W; cbn [dunder_ne]; rewrite ?O.
    - rewrite word_word; reflexivity.
    - unfold Compare_model.py_eq, rich, right_first; cbn [dunder_eq]; destruct (word_dunder_eq w (Node b)); [reflexivity| |reflexivity].
      destruct (node_dunder_eq b (Word i w)); reflexivity.
    - unfold Compare_model.py_eq, rich, right_first; cbn [dunder_eq identical].
      destruct (derived g (Word i w)), (word_dunder_eq w (Foreign g)), (foreign_eq g (Word i w)); reflexivity.
    - unfold Compare_model.py_eq, rich, right_first; cbn [dunder_eq identical]; reflexivity.
    - unfold Compare_model.py_eq, rich, right_first; cbn [dunder_eq identical].
      destruct (node_dunder_eq a (Node b)), (node_dunder_eq b (Node a)); reflexivity.
    - unfold Compare_model.py_eq, rich, right_first; cbn [dunder_eq identical].
      destruct (derived g (Node a)), (node_dunder_eq a (Foreign g)), (foreign_eq g (Node a)); reflexivity.
    - unfold Compare_model.py_eq, rich, right_first; cbn [dunder_eq identical].
      destruct (derived f (Word j v)), (word_dunder_eq v (Foreign f)), (foreign_eq f (Word j v)); reflexivity.
    - unfold Compare_model.py_eq, rich, right_first; cbn [dunder_eq identical].
      destruct (node_dunder_eq b (Foreign f)), (foreign_eq f (Node b)); reflexivity.
    - unfold Compare_model.py_eq, rich, right_first; cbn [dunder_eq identical].
      destruct (derived g (Foreign f)), (foreign_eq f (Foreign g)), (foreign_eq g (Foreign f)); reflexivity.
  Qed.

  Lemma word_lacks i w f : decides (word_cmp word_field w (Foreign f)) word_fields (Raise AttributeError) ->
    py_eq (Word i w) (Foreign f) = left_to_other (foreign_eq f (Word i w)) /\
    py_eq (Foreign f) (Word i w) = left_to_other (foreign_eq f (Word i w)).
  Proof.
    intros D; unfold Compare_model.py_eq, rich; cbn [dunder_eq identical right_first]; rewrite (word_eq_decides _ _ _ D).
    split; [destruct (derived f (Word i w))|]; destruct (foreign_eq f (Word i w)); reflexivity.
  Qed.

  Lemma lacks_first w f : word_field w f Fheadword = Raise AttributeError ->
    decides (word_cmp word_field w (Foreign f)) word_fields (Raise AttributeError).
  Proof. intros E; apply (dec_at _ [] Fheadword); [constructor|exact E|discriminate]. Qed.

  Lemma node_lacks a f e : decides (node_field a f) node_fields (Raise e) -> foreign_eq f (Node a) = NotImpl ->
    py_eq (Node a) (Foreign f) = Raise e /\ py_eq (Foreign f) (Node a) = Raise e /\
    py_ne (Node a) (Foreign f) = Raise e /\ py_ne (Foreign f) (Node a) = Raise e.
  Proof.
    intros D N.
    assert (H : py_eq (Node a) (Foreign f) = Raise e /\ py_eq (Foreign f) (Node a) = Raise e).
    { unfold Compare_model.py_eq, rich; cbn [dunder_eq identical right_first]; rewrite (node_eq_decides _ _ _ D), N.
      split; [destruct (derived f (Node a))|]; reflexivity. }
    rewrite !ne_negates; destruct H as [-> ->]; repeat split.
  Qed.

  Lemma node_word a i w : py_eq (Node a) (Word i w) = Raise AttributeError /\ py_eq (Word i w) (Node a) = Raise AttributeError.
  Proof. split; reflexivity. Qed.

  (* lists of words and of objects that are nothing like a word *)
  Definition plain (o : obj F) : Prop :=
    match o with
    | Word _ _ => True
    | Node _ => False
    | Foreign f => forall i w, word_field w f Fheadword = Raise AttributeError /\ foreign_eq f (Word i w) = NotImpl
    end.
  Lemma word_in i w l : Forall plain l -> 
    (forall j v, In (Word j v) l -> j = i -> v = w) ->
    exists b, py_in (Word i w) l = Ok b /\ (b = true <-> exists j v, In (Word j v) l /\ same_word v w).
  Proof.
    induction l as [|y l IH]; intros P Id.
    - exists false; split; [reflexivity|]; split; [discriminate|intros [j [v [[] _]]]].
    - inversion P as [|y' l' Py Pl]; subst; destruct IH as [b [E B]]; [exact Pl|intros j v I; apply Id; right; exact I|].
      destruct y as [j v|a|f]; cbn [plain] in Py; [|contradiction|]; cbn [Compare_model.py_in identical].
      + destruct (Nat.eqb_spec j i) as [->|N].
        * exists true; split; [reflexivity|]; split; [|reflexivity]; intros _; exists i, v; split; [left; reflexivity|].
          rewrite (Id i v (or_introl eq_refl) eq_refl); apply word_eq_iff.
          unfold word_eq; rewrite !eqb_refl, Bool.eqb_reflx; reflexivity.
        * rewrite word_word; cbn [bind]; destruct (word_eq v w) eqn:Q.
          -- exists true; split; [reflexivity|]; split; [|reflexivity]; intros _; exists j, v; split; [left; reflexivity|apply word_eq_iff, Q].
          -- exists b; split; [exact E|]; rewrite B; split.
             ++ intros [k [x [I S]]]; exists k, x; split; [right; exact I|exact S].
             ++ intros [k [x [[X|I] S]]]; [|exists k, x; split; assumption].
                injection X as <- <-; apply word_eq_iff in S; congruence.
      + destruct (Py i w) as [L N]; destruct (word_lacks i w f (lacks_first w f L)) as [_ ->]; rewrite N; cbn [left_to_other bind].
        exists b; split; [exact E|]; rewrite B; split.
        * intros [k [x [I S]]]; exists k, x; split; [right; exact I|exact S].
        * intros [k [x [[X|I] S]]]; [discriminate|exists k, x; split; assumption].
  Qed.
End Compare.
