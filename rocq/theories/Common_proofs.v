(* Common_proofs.v *)
From Verif Require Import Base PyStr Common_model Common_spec.

Lemma filter_comments_keeps lines :
  keeps (fun line => ~ exists r, line = u1 "#" :: r) lines (filter_comments lines).
Proof.
  induction lines as [|l r IH]; cbn [filter_comments]; [constructor|].
  destruct (startswith (u "#") l) eqn:E.
  - apply keeps_no; [|exact IH].
    intros n; apply n; apply startswith_true in E; exact E.
  - apply keeps_yes; [|exact IH].
    intros n; rewrite (proj2 (startswith_true (u "#") l)) in E; [discriminate|exact n].
Qed.

Lemma keeps_unique {A} (P : A -> Prop) l a b : keeps P l a -> keeps P l b -> a = b.
Proof.
  intros Ha; revert b; induction Ha as [|x l sub p K IH|x l sub p K IH]; intros b Hb; inversion Hb; subst.
  - reflexivity.
  - rewrite (IH _ ltac:(eassumption)); reflexivity.
  - contradiction.
  - contradiction.
  - apply IH; assumption.
Qed.

Lemma keeps_filter {A} (P : A -> Prop) l a : keeps P l a ->
  (forall x, In x a <-> In x l /\ P x) /\ (length a <= length l)%nat.
Proof.
  induction 1 as [|x l sub p K [IH L]|x l sub p K [IH L]]; cbn [In length].
  - split; [tauto|lia].
  - split; [|lia]; intros y; rewrite IH; split; [intros [->|[H1 H2]]; tauto|tauto].
  - split; [|lia]; intros y; rewrite IH; split; [tauto|intros [[->|H1] H2]; [contradiction|tauto]].
Qed.

Lemma ext_exclusive name : has_ext (u ".bz2") name -> has_ext (u ".gz") name -> False.
Proof.
  intros [a ->] [b E]; apply (f_equal (@rev Z)) in E; rewrite !rev_app_distr in E; cbn in E; discriminate.
Qed.
Lemma ext_dash e : (2 <= length e)%nat -> ~ has_ext e (u "-").
Proof. intros L [a E]; apply (f_equal (@length Z)) in E; rewrite app_length in E; cbn in E; lia. Qed.

Lemma chosen_unique name mode s t : chosen name mode s -> chosen name mode t -> s = t.
Proof.
  assert (D2 : ~ has_ext (u ".bz2") (u "-")) by (apply ext_dash; cbn; lia).
  assert (D3 : ~ has_ext (u ".gz") (u "-")) by (apply ext_dash; cbn; lia).
  pose proof (ext_exclusive name) as X.
  intros [H|H|H H'|H H'|H H' H''] [G|G|G G'|G G'|G G' G'']; try reflexivity; subst; exfalso; tauto.
Qed.

Section Sopen.
  Variable py2 : bool.
  Variable codec : str -> bool.
  Variable os_open : stream -> option exn.
  Notation sopen := (sopen py2 codec os_open).

  Lemma sopen_both filename mode encoding : In (u1 "r") mode -> In (u1 "w") mode ->
    sopen filename mode encoding = ([], Raise PlainException).
  Proof. intros R W; apply mem_In in R; apply mem_In in W; unfold sopen; cbv zeta; rewrite R, W; reflexivity. Qed.

  Definition codec_fails (encoding : option str) :=
    exists e, encoding = Some e /\ e <> u "byte" /\ py2 = true /\ codec e = false.

  Lemma sopen_codec filename mode encoding : ~ (In (u1 "r") mode /\ In (u1 "w") mode) ->
    codec_fails encoding -> sopen filename mode encoding = ([], Raise LookupError).
  Proof.
    intros N [e [-> [Ne [P C]]]]; unfold sopen; cbv zeta.
    rewrite (eqb_neq _ _ Ne), P, C.
    destruct (mem_spec (u1 "r") mode), (mem_spec (u1 "w") mode); cbn [andb]; tauto.
  Qed.

  Lemma sopen_one filename mode encoding : ~ (In (u1 "r") mode /\ In (u1 "w") mode) ->
    ~ codec_fails encoding ->
    exists h s, chosen filename mode s /\
      sopen filename mode encoding = ([s], match os_open s with Some e => Raise e | None => Ok (h, s) end) /\
      (py2 = false \/ encoding = None -> h = Identity).
  Proof.
    intros N C.
    set (s := if endswith (u ".bz2") filename then BZ2File filename mode
              else if endswith (u ".gz") filename then GzipFile filename mode
              else if eqb filename (u "-") then if mem (u1 "r") mode then Stdin else Stdout
              else PlainFile filename mode).
    assert (Cs : chosen filename mode s).
    { subst s; destruct (endswith (u ".bz2") filename) eqn:E2.
      { apply ch_bz2, endswith_true, E2. }
      destruct (endswith (u ".gz") filename) eqn:E3.
      { apply ch_gz, endswith_true, E3. }
      destruct (eqb_spec filename (u "-")) as [E|n].
      - destruct (mem_spec (u1 "r") mode); [apply ch_in|apply ch_out]; assumption.
      - apply ch_plain; [| |exact n]; intros X; apply endswith_true in X; congruence. }
    assert (EX : exists h, match encoding with
        | None => Ok Identity
        | Some e =>
            if eqb e (u "byte") then Ok Identity
            else if py2 then
              if codec e then Ok (if mem (u1 "r") mode then Reader e else Writer e) else Raise LookupError
            else Ok Identity
        end = Ok h /\ (py2 = false \/ encoding = None -> h = Identity)).
    { destruct encoding as [e|]; [|exists Identity; split; reflexivity].
      destruct (eqb_spec e (u "byte")); [exists Identity; split; reflexivity|].
      destruct py2 eqn:P; [|exists Identity; split; reflexivity].
      destruct (codec e) eqn:Ce; [eexists; split; [reflexivity|intros [X|X]; discriminate]|].
      exfalso; apply C; exists e; repeat split; assumption. }
    destruct EX as [h [Eh Hh]]; exists h, s; split; [exact Cs|split; [|exact Hh]].
    unfold sopen; cbv zeta; rewrite Eh; fold s.
    destruct (mem_spec (u1 "r") mode), (mem_spec (u1 "w") mode); cbn [andb];
      try (exfalso; tauto); destruct (os_open s); reflexivity.
  Qed.
End Sopen.

(* ---------------- contexts ---------------- *)
Lemma close_open w i j : is_open (close i w) j = negb (Nat.eqb i j) && is_open w j.
Proof.
  unfold is_open, close; cbn [opened]; induction (opened w) as [|k l IH]; cbn [filter mem].
  - rewrite andb_false_r; reflexivity.
  - destruct (Nat.eqb_spec i k) as [->|n]; cbn [negb mem].
    + rewrite IH; destruct (eqb_spec j k) as [->|m]; [rewrite Nat.eqb_refl; reflexivity|reflexivity].
    + destruct (eqb_spec j k) as [->|m]; [apply Nat.eqb_neq in n; rewrite n; reflexivity|exact IH].
Qed.

Lemma reader_given {A} dflt i (body : nat -> streams -> streams * res A) w :
  reader dflt (Some i) body w = body i w.
Proof. unfold reader, get_stream_context, with_stmt; cbn [enter]; destruct (body i w); reflexivity. Qed.

Lemma reader_default {A} dflt (body : nat -> streams -> streams * res A) w w1 i :
  dflt w = (w1, Ok i) -> is_open w1 i = true ->
  exists w', fst (reader dflt None body w) = w' /\ snd (reader dflt None body w) = snd (body i w1) /\
    is_open w' i = false /\ forall j, j <> i -> is_open w' j = is_open (fst (body i w1)) j.
Proof.
  intros E O; unfold reader, get_stream_context, with_stmt; rewrite E; cbn [enter]; rewrite O.
  destruct (body i w1) as [w2 r]; cbn [fst snd exit]; eexists; split; [reflexivity|split; [reflexivity|split]].
  - rewrite close_open, Nat.eqb_refl; reflexivity.
  - intros j n; rewrite close_open; destruct (Nat.eqb_spec i j); [congruence|reflexivity].
Qed.

Lemma reader_default_fails {A} dflt (body : nat -> streams -> streams * res A) w w1 e :
  dflt w = (w1, Raise e) -> reader dflt None body w = (w1, Raise e).
Proof. intros E; unfold reader, get_stream_context; rewrite E; reflexivity. Qed.
