From Verif Require Import Base LoadRst_model LoadRst_spec.

Section P.
  Variable pandoc : option (dict (list Z) fnode -> str -> res str).
  Variable can_open : dict (list Z) fnode -> str -> bool.
  Variable encodable : str -> bool.
  Notation cv := (convert pandoc can_open encodable).
  Notation src := (source_text pandoc).

  Lemma read_file_ok st f t : read_file st f = Ok t <-> dget f st = Some (File (Ok t)).
  Proof.
    unfold read_file. destruct (dget f st) as [[r|]|]; split; intro H; try discriminate; congruence.
  Qed.
  Lemma load_text_ok st f strict t : load_text pandoc st f strict = Ok t <-> src st f strict t.
  Proof.
    unfold load_text, fallback_load. destruct pandoc as [p|] eqn:Ep.
    - destruct (p st f) as [t0|e] eqn:Ec.
      + split.
        * intro H; injection H as ->. eapply st_converted; [reflexivity | exact Ec].
        * intro H; inversion H as [p' ? E' C | ? E' | p' e ? E' C]; subst; try discriminate; injection E' as <-; congruence.
      + assert (X : (e = ImportError \/ e = OSError) \/ (e <> ImportError /\ e <> OSError)).
        { destruct e; try (right; split; discriminate); left; auto. }
        destruct X as [X | [N1 N2]].
        * transitivity ((if strict then Raise ImportError else read_file st f) = Ok t).
          { destruct X as [-> | ->]; destruct strict; reflexivity. }
          destruct strict.
          -- split; [discriminate|]. intro H; inversion H as [p' ? E' C | ? E' | p' e' ? E' C ? S]; subst; try discriminate. injection E' as <-; congruence.
          -- rewrite read_file_ok. split.
             ++ intro H. eapply st_failed; eauto.
             ++ intro H; inversion H as [p' ? E' C | ? E' | p' e' ? E' C ? S D]; subst; try discriminate; [injection E' as <-; congruence | exact D].
        * transitivity (@Raise str e = Ok t).
          { destruct e; try reflexivity; congruence. }
          split; [discriminate|]. intro H; inversion H as [p' ? E' C | ? E' | p' e' ? E' C I]; subst; try discriminate; injection E' as <-; rewrite Ec in C; [discriminate|].
          injection C as ->. destruct I; contradiction.
    - destruct strict.
      + split; [discriminate|]. intro H; inversion H; discriminate.
      + rewrite read_file_ok. split; [intro H; apply st_absent; auto | intro H; inversion H; [discriminate | assumption | discriminate]].
  Qed.
  Lemma convert_text st f preamble strict t : (exists n, dget f st = Some n) ->
    (exists r, cv st (Some f) None preamble strict = (st, r) /\
      (r = Ok (Some t) <-> exists s, src st f strict s /\ t = heading preamble ++ [10] ++ s)).
  Proof.
    intros [n D]. unfold convert. rewrite D. destruct (load_text pandoc st f strict) as [s|e] eqn:L.
    - eexists; split; [reflexivity|]. apply load_text_ok in L. split.
      + intro H; injection H as <-. exists s. auto.
      + intros (s' & S' & ->). apply load_text_ok in L, S'. rewrite L in S'. injection S' as ->. reflexivity.
    - eexists; split; [reflexivity|]. split; [discriminate|]. intros (s' & S' & _). apply load_text_ok in S'. congruence.
  Qed.
  Lemma convert_writes st f o preamble strict s n : dget f st = Some n -> src st f strict s -> can_open st o = true ->
    let t := heading preamble ++ [10] ++ s ++ [10] in encodable t = true ->
    cv st (Some f) (Some o) preamble strict = (dset o (File (Ok t)) st, Ok None).
  Proof.
    intros D S C t E. unfold convert. rewrite D. apply load_text_ok in S. rewrite S. cbn [app]. rewrite C.
    fold (heading preamble).
    replace ((heading preamble ++ 10 :: s) ++ [10]) with t by (unfold t; rewrite <- app_assoc; reflexivity).
    rewrite E. reflexivity.
  Qed.
  Lemma convert_fails st i o preamble strict st' e : cv st i o preamble strict = (st', Raise e) ->
    st' = st \/ (e = UnicodeError /\ exists q, o = Some q /\ st' = dset q (File (Ok [])) st).
  Proof.
    unfold convert. destruct i as [f|]; [|intro H; injection H as <- _; auto].
    destruct (dget f st); [|intro H; injection H as <- _; auto].
    destruct (load_text pandoc st f strict) as [s|e']; [|intro H; injection H as <- _; auto].
    destruct o as [q|]; [|intro H; injection H as <- _; auto].
    destruct (can_open st q); [|intro H; injection H as <- _; auto].
    destruct (encodable _); [discriminate|]. intro H; injection H as <- <-. right. split; [reflexivity|]. eauto.
  Qed.
  Lemma convert_strict st f o preamble : pandoc = None -> (exists n, dget f st = Some n) ->
    cv st (Some f) o preamble true = (st, Raise ImportError).
  Proof. intros P [n D]. unfold convert, load_text. rewrite D, P. reflexivity. Qed.
  Lemma convert_no_input st o preamble strict : cv st None o preamble strict = (st, Raise ValueError).
  Proof. reflexivity. Qed.
  Lemma convert_missing st f o preamble strict : dget f st = None -> cv st (Some f) o preamble strict = (st, Raise OSError).
  Proof. intro D. unfold convert. rewrite D. reflexivity. Qed.
End P.
