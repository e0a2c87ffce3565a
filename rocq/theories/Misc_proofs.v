(* Misc_proofs.v *)
From Verif Require Import Base PyText Scripts_model Scripts_spec Scripts_proofs Maps_model Maps_proofs Misc_model Misc_spec.

Lemma strip_bare s : bare s (rstrip_slash s).
Proof.
  induction s as [|c s IH] using rev_ind.
  - apply Bare_end; intros [|d t]; discriminate.
  - unfold rstrip_slash; rewrite rev_app_distr; cbn [rev app lstrip_by]; destruct (slash c) eqn:E.
    + apply Z.eqb_eq in E; subst c; apply (Bare_slash s); exact IH.
    + cbn [rev]; rewrite rev_involutive; apply Bare_end; intros t X; apply app_inj_tail in X; destruct X as [_ ->]; discriminate.
Qed.
Lemma bare_unique s t : bare s t -> t = rstrip_slash s.
Proof.
  induction 1 as [s N|s t B ->].
  - destruct s as [|c s _] using rev_ind; [reflexivity|]; unfold rstrip_slash; rewrite rev_app_distr; cbn [rev app lstrip_by].
    destruct (slash c) eqn:E; [apply Z.eqb_eq in E; subst c; elim (N s eq_refl)|cbn [rev]; rewrite rev_involutive; reflexivity].
  - unfold rstrip_slash; rewrite rev_app_distr; reflexivity.
Qed.
Section CjkData.
  Variable environ : dict str str.
  Variable own_dir : option str.
  Variable user_dir : str -> option str.
  Variable isdir : str -> bool.
  Notation expanduser := (expanduser environ own_dir user_dir).
  Notation find_path := (find_path environ own_dir user_dir isdir).

  Lemma expand_home : first_default environ own_dir (expanduser (u "~/.cjkdata")).
  Proof.
    change (expanduser (u "~/.cjkdata")) with
      (match (match dget (u "HOME") environ with Some h => Some h | None => own_dir end) with
       | None => u "~/.cjkdata"
       | Some userhome => match rstrip_slash userhome ++ u "/.cjkdata" with [] => u "/" | q => q end
       end).
    assert (X : forall s, match rstrip_slash s ++ u "/.cjkdata" with [] => u "/" | q => q end = rstrip_slash s ++ u "/.cjkdata").
    { intros s; destruct (rstrip_slash s); reflexivity. }
    destruct (dget (u "HOME") environ) as [h|] eqn:H.
    - rewrite X; apply (Default_home _ _ h); [left; exact H|apply strip_bare].
    - destruct own_dir as [h|] eqn:O; [|apply Default_no_home; [exact H|reflexivity]].
      rewrite X; apply (Default_home _ _ h); [right; auto|apply strip_bare].
  Qed.
  Lemma home_unique h h' : home environ own_dir h -> home environ own_dir h' -> h = h'.
  Proof. intros [H|[H O]] [H'|[H' O']]; congruence. Qed.
  Lemma default_same p q : first_default environ own_dir p -> first_default environ own_dir q -> p = q.
  Proof.
    intros [h b H B|H O] [h' b' H' B'|H' O'].
    - rewrite (home_unique _ _ H H') in B; rewrite (bare_unique _ _ B), (bare_unique _ _ B'); reflexivity.
    - destruct H as [H|[_ O]]; congruence.
    - destruct H' as [H'|[_ O']]; congruence.
    - reflexivity.
  Qed.
  Lemma default_unique p : first_default environ own_dir p -> p = expanduser (u "~/.cjkdata").
  Proof. intros D; exact (default_same _ _ D expand_home). Qed.
  Lemma find_env p : dget (u "CJKDATA") environ = Some p -> find_path = Ok p.
  Proof. intros E; unfold Misc_model.find_path; rewrite E; reflexivity. Qed.
  Lemma find_default d : dget (u "CJKDATA") environ = None -> first_default environ own_dir d ->
    find_path = (if isdir d then Ok d else if isdir (u "/usr/share/data/cjkdata") then Ok (u "/usr/share/data/cjkdata")
                 else if isdir (u "/usr/local/share/data/cjkdata") then Ok (u "/usr/local/share/data/cjkdata") else Raise MissingCJKDataError).
  Proof. 
    intros E D; apply default_unique in D; rewrite D; unfold Misc_model.find_path; rewrite E; unfold SEARCH_PATHS; cbn [search].
    replace (expanduser (u "/usr/share/data/cjkdata")) with (u "/usr/share/data/cjkdata") by (vm_compute; reflexivity).
    replace (expanduser (u "/usr/local/share/data/cjkdata")) with (u "/usr/local/share/data/cjkdata") by (vm_compute; reflexivity).
    reflexivity.
  Qed.

  Lemma join_relative a b : (forall t, b <> u "/" ++ t) -> inside a b (path_join a b).
  Proof.
    intros N.
    assert (J : path_join a b = match rev a with [] => b | d :: _ => if slash d then a ++ b else a ++ u "/" ++ b end).
    { destruct b as [|c b]; [reflexivity|]; cbn [path_join]; destruct (slash c) eqn:E; [|reflexivity].
      apply Z.eqb_eq in E; subst c; elim (N b eq_refl). }
    rewrite J; destruct a as [|d a _] using rev_ind; [apply Inside_empty; reflexivity|].
    rewrite rev_app_distr; cbn [rev app]; destruct (slash d) eqn:E.
    - apply Z.eqb_eq in E; subst d; apply (Inside_slash _ _ a); reflexivity.
    - apply Inside_plain; [destruct a; discriminate|]; intros t X; apply app_inj_tail in X; destruct X as [_ ->]; discriminate.
  Qed.
  Lemma inside_unique a b p q : inside a b p -> inside a b q -> p = q.
  Proof.
    intros [N M|t Et|Z_] [N' M'|t' Et'|Z']; try reflexivity; try contradiction.
    - elim (M t' Et').
    - elim (M' t Et).
    - subst a; destruct t; discriminate.
    - subst a; destruct t'; discriminate.
  Qed.
End CjkData.

Lemma from_codes (t : dict str str) : nodupb (dkeys t) = true -> nodupb (dvals t) = true ->
  exists f, invert_injective_mapping t = Ok f /\ forall l c, dget c f = Some l <-> dget l t = Some c.
Proof.
  intros K V; apply nodupb_NoDup in K, V.
  assert (I : is_injective t = true) by (apply is_injective_spec, V).
  pose proof (invert_injective_total t) as T; rewrite I in T; destruct T as [f F]; exists f; split; [exact F|].
  intros l c; apply (invert_injective_get t f K F).
Qed.
