(* PyStr.v -- the str methods used by cjktools, as functions on code point
   lists.  Library functions of Python, not of /repo. *)
From Verif Require Import Base.

(* ------------------------------------------------------------------ *)
(** ** Prefixes, suffixes, search *)

(** [s.startswith(p)] *)
Fixpoint startswith (p s : str) : bool :=
  match p, s with
  | [], _ => true
  | _ :: _, [] => false
  | a :: p', b :: s' => if a =? b then startswith p' s' else false
  end.
(** [s.endswith(p)] *)
Definition endswith (p s : str) : bool := startswith (rev p) (rev s).

Lemma startswith_true p s : startswith p s = true <-> exists r, s = p ++ r.
Proof.
  revert s; induction p as [|a p IH]; intros s; cbn [startswith app].
  - split; [intros _; exists s; reflexivity|reflexivity].
  - destruct s as [|b s]; [split; [discriminate|intros [r E]; discriminate]|].
    destruct (Z.eqb_spec a b) as [->|n].
    + rewrite IH; split; intros [r E]; exists r; [rewrite E; reflexivity|injection E as ->; reflexivity].
    + split; [discriminate|intros [r E]; injection E as E _; congruence].
Qed.
Lemma endswith_true p s : endswith p s = true <-> exists r, s = r ++ p.
Proof.
  unfold endswith; rewrite startswith_true; split; intros [r E].
  - exists (rev r); rewrite <- (rev_involutive s), E, rev_app_distr, rev_involutive; reflexivity.
  - exists (rev r); rewrite E, rev_app_distr; reflexivity.
Qed.

(** [s.find(sub)], [None] for -1 *)
Fixpoint find (sub s : str) : option nat :=
  if startswith sub s then Some O
  else match s with [] => None | _ :: s' => option_map S (find sub s') end.
(** [s.index(sub)] *)
Definition sindex (sub s : str) : res nat := of_option ValueError (find sub s).

Lemma find_Some sub s i : find sub s = Some i ->
  (exists a b, s = a ++ sub ++ b /\ length a = i) /\
  forall j, (j < i)%nat -> startswith sub (skipn j s) = false.
Proof.
  revert i; induction s as [|c s IH]; intros i; cbn [find].
  - destruct (startswith sub []) eqn:E; [|discriminate].
    intros F; injection F as <-; apply startswith_true in E; destruct E as [r E].
    split; [exists [], r; split; [exact E|reflexivity]|intros j L; lia].
  - destruct (startswith sub (c :: s)) eqn:E.
    + intros F; injection F as <-; apply startswith_true in E; destruct E as [r E].
      split; [exists [], r; split; [exact E|reflexivity]|intros j L; lia].
    + destruct (find sub s) as [i'|]; cbn [option_map]; [|discriminate].
      intros F; injection F as <-; destruct (IH i' eq_refl) as [[a [b [-> L]]] M]; split.
      * exists (c :: a), b; split; [reflexivity|cbn [length]; lia].
      * intros [|j] Lj; cbn [skipn]; [exact E|apply M; lia].
Qed.
Lemma find_None sub s : find sub s = None <-> ~ exists a b, s = a ++ sub ++ b.
Proof.
  induction s as [|c s IH]; cbn [find].
  - destruct (startswith sub []) eqn:E.
    + split; [discriminate|intros n; exfalso; apply n].
      apply startswith_true in E; destruct E as [r E]; exists [], r; exact E.
    + split; [|reflexivity]; intros _ [a [b F]].
      destruct a; [|discriminate]; rewrite (proj2 (startswith_true sub [])) in E; [discriminate|exists b; exact F].
  - destruct (startswith sub (c :: s)) eqn:E.
    + split; [discriminate|intros n; exfalso; apply n].
      apply startswith_true in E; destruct E as [r E]; exists [], r; exact E.
    + assert (G : (exists a b, c :: s = a ++ sub ++ b) <-> (exists a b, s = a ++ sub ++ b)).
      { split; intros [a [b F]].
        - destruct a as [|x a]; [|injection F as -> ->; exists a, b; reflexivity].
          rewrite (proj2 (startswith_true sub (c :: s))) in E; [discriminate|exists b; exact F].
        - exists (c :: a), b; rewrite F; reflexivity. }
      rewrite G, <- IH; destruct (find sub s); cbn [option_map]; split; congruence.
Qed.
Lemma find_char_Some c s i : find [c] s = Some i ->
  exists a b, s = a ++ c :: b /\ length a = i /\ ~ In c a.
Proof.
  revert i; induction s as [|d s IH]; intros i; cbn [find startswith]; [discriminate|].
  destruct (Z.eqb_spec c d) as [->|n].
  - intros F; injection F as <-; exists [], s; split; [reflexivity|split; [reflexivity|intros []]].
  - destruct (find [c] s) as [i'|]; cbn [option_map]; [|discriminate].
    intros F; injection F as <-; destruct (IH i' eq_refl) as [a [b [-> [L N]]]].
    exists (d :: a), b; split; [reflexivity|split; [cbn [length]; lia|intros [E|E]; [congruence|exact (N E)]]].
Qed.
Lemma find_char_None c s : find [c] s = None <-> ~ In c s.
Proof.
  rewrite find_None; split; intros n F; apply n.
  - apply in_split in F; destruct F as [a [b ->]]; exists a, b; reflexivity.
  - destruct F as [a [b ->]]; apply in_app_iff; right; left; reflexivity.
Qed.

(** [s[i]] for [i >= 0] *)
Definition sitem {A} (s : list A) (i : nat) : res A := of_option IndexError (nth_error s i).
