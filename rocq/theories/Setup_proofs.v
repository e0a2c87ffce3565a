(* Setup_proofs.v -- running setup.py *)
From Verif Require Import Base LoadRst_model LoadRst_spec LoadRst_proofs Imports_model Setup_model Setup_spec.

Section Run.
  Variable pandoc : option (dict (list Z) fnode -> str -> res str).
  Variable can_open : dict (list Z) fnode -> str -> bool.
  Variable encodable : str -> bool.
  Variable scm : option (res str).
  Variable pv : version.
  Notation run := (run pandoc can_open encodable scm pv).
  Notation record_version := (record_version can_open encodable scm).

  Lemma run_record : forall st st1 e, record_version st = (st1, Raise e) -> run st = (st1, Raise e).
  Proof. intros st st1 e H. unfold Setup_model.run. rewrite H. reflexivity. Qed.
  Lemma run_after : forall st st1 s, record_version st = (st1, Ok tt) -> source_text pandoc st1 (u "README.md") false s ->
    (exists n, dget (u "README.md") st1 = Some n) ->
    run st = (st1, Ok {| long_description := 10 :: s; install_requires := requires pv;
                         listed := [[u "cjktools"]; [u "cjktools"; u "resources"]] |}).
  Proof.
    intros st st1 s H S D. unfold Setup_model.run. rewrite H.
    destruct (convert_text pandoc can_open encodable st1 (u "README.md") None false (10 :: s) D) as (r & E & I).
    rewrite E. assert (R : r = Ok (Some (10 :: s))) by (apply I; exists s; split; [exact S | reflexivity]). rewrite R. reflexivity.
  Qed.
  Lemma run_result : forall st st' a, run st = (st', Ok a) ->
    record_version st = (st', Ok tt) /\ install_requires a = requires pv /\ listed a = [[u "cjktools"]; [u "cjktools"; u "resources"]] /\
    exists s, source_text pandoc st' (u "README.md") false s /\ long_description a = 10 :: s.
  Proof.
    intros st st' a. unfold Setup_model.run. destruct (record_version st) as [st1 [[]|e]]; [|discriminate].
    destruct (dget (u "README.md") st1) as [n|] eqn:D.
    2:{ rewrite convert_missing by exact D. discriminate. }
    destruct (convert_text pandoc can_open encodable st1 (u "README.md") None false [] (ex_intro _ n D)) as (r & E & _). rewrite E.
    destruct r as [[t|]|e]; try discriminate. intros [= <- <-].
    destruct (convert_text pandoc can_open encodable st1 (u "README.md") None false t (ex_intro _ n D)) as (r & E2 & I).
    rewrite E in E2. injection E2 as <-. destruct (proj1 I eq_refl) as (s & S & T). split; [reflexivity|]. cbn. repeat split.
    exists s. split; [exact S | exact T].
  Qed.
  Lemma run_files : forall st st' r, run st = (st', r) -> st' = fst (record_version st).
  Proof.
    intros st st' r. unfold Setup_model.run. destruct (record_version st) as [st1 [[]|e]]; [|intros [= <- <-]; reflexivity].
    destruct (dget (u "README.md") st1) as [n|] eqn:D.
    2:{ rewrite convert_missing by exact D. intros [= <- <-]. reflexivity. }
    destruct (convert_text pandoc can_open encodable st1 (u "README.md") None false [] (ex_intro _ n D)) as (o & E & _). rewrite E.
    destruct o as [[t|]|e]; intros [= <- <-]; reflexivity.
  Qed.
  Lemma record_only : forall st q, q <> version_file -> dget q (fst (record_version st)) = dget q st.
  Proof.
    intros st q N. unfold Setup_model.record_version, write_version.
    destruct scm as [[v|[]]|]; try reflexivity. destruct (can_open st version_file); [|reflexivity].
    destruct (encodable first_line); [destruct (encodable (second_line v))|]; cbn [fst]; apply dget_dset_other; congruence.
  Qed.
  Lemma record_none : no_scm scm -> forall st, record_version st = (st, Ok tt).
  Proof. intros [-> | ->] st; reflexivity. Qed.
  Lemma record_some : forall v st, scm = Some (Ok v) -> can_open st version_file = true -> encodable first_line = true ->
    encodable (second_line v) = true -> record_version st = (dset version_file (File (Ok (first_line ++ second_line v))) st, Ok tt).
  Proof. intros v st -> C E1 E2. unfold Setup_model.record_version, write_version. rewrite C, E1, E2. reflexivity. Qed.
  Lemma record_ok : forall st st', record_version st = (st', Ok tt) ->
    (no_scm scm /\ st' = st) \/ (exists v, scm = Some (Ok v) /\ st' = dset version_file (File (Ok (first_line ++ second_line v))) st).
  Proof.
    intros st st'. unfold Setup_model.record_version, write_version.
    destruct scm as [[v|e]|]; [|destruct e; try discriminate; intros [= <-]; left; split; [right|]; reflexivity | intros [= <-]; left; split; [left|]; reflexivity].
    destruct (can_open st version_file); [|discriminate]. destruct (encodable first_line); [|discriminate].
    destruct (encodable (second_line v)); [|discriminate]. intros [= <-]. right. exists v. split; reflexivity.
  Qed.
End Run.

(** ** Reading the version file *)
Lemma string_body_plain : forall v rest acc, quotable v -> string_body (v ++ 34 :: rest) acc = Some (acc ++ v, rest).
Proof.
  induction v as [|c v IH]; intros rest acc Q; cbn [app].
  - cbn. rewrite app_nil_r. reflexivity.
  - destruct (Q c (or_introl eq_refl)) as (N1 & N2 & N3 & N4 & N5).
    assert (R : string_body (c :: v ++ 34 :: rest) acc = string_body (v ++ 34 :: rest) (acc ++ [c])).
    { cbn [string_body]. destruct c as [|p|p]; try congruence.
      do 7 (destruct p as [p|p|]; try reflexivity; try congruence). }
    rewrite R, IH by (intros x I; apply Q; right; exact I). rewrite <- app_assoc. reflexivity.
Qed.
Lemma strings_one : forall v rest fuel, quotable v -> strings (S fuel) (34 :: v ++ 34 :: 10 :: rest) [] = Some (v, rest).
Proof.
  intros v rest fuel Q.
  assert (R : strings (S fuel) (34 :: v ++ 34 :: 10 :: rest) [] =
    match string_body (v ++ 34 :: 10 :: rest) [] with
    | None => None
    | Some (w, rest) => match skip_blanks rest with [] => Some ([] ++ w, []) | 10 :: rest => Some ([] ++ w, rest) | 35 :: rest => None
                        | rest => strings fuel rest ([] ++ w) end
    end).
  { cbn [strings]. destruct v as [|c v]; [reflexivity|]. cbn [app].
    destruct (Q c (or_introl eq_refl)) as (N1 & _).
    destruct c as [|p|p]; try reflexivity. do 6 (destruct p as [p|p|]; try reflexivity; try congruence). }
  rewrite R, string_body_plain by exact Q. reflexivity.
Qed.
Lemma version_read : forall v, quotable v -> imported_value (u "version") (first_line ++ second_line v) = Some v.
Proof.
  intros v Q. unfold imported_value.
  assert (L : exists k, length (first_line ++ second_line v) = S (S k)).
  { rewrite app_length. exists (length (u "# Autogenerated by setup.p") + length (second_line v))%nat. reflexivity. }
  destruct L as [k ->].
  assert (E : module_value (S (S (S k))) (u "version") (first_line ++ second_line v) None =
    match strings (S (length (34 :: v ++ 34 :: 10 :: []))) (34 :: v ++ 34 :: 10 :: []) [] with
    | Some (w, rest) => module_value (S k) (u "version") rest (Some w) | None => None end) by reflexivity.
  rewrite E, strings_one by exact Q. reflexivity.
Qed.
Lemma version_quotable : forall v, Forall version_char v -> quotable v.
Proof. intros v F c I. rewrite Forall_forall in F. specialize (F c I). unfold version_char in F. lia. Qed.

(** ** The packages *)
Definition local_ok (l : list (list (list Z))) (m : list (list Z)) (x : list (list Z)) : bool :=
  negb (inside x) || (dmem x source && (mem x l || mem (removelast x) l)).
Lemma packages_computed : let l := [[u "cjktools"]; [u "cjktools"; u "resources"]] in
  forallb (fun mb => (mem (fst mb) l || mem (removelast (fst mb)) l) && forallb (fun s => forallb (local_ok l (fst mb)) (asks (fst mb) s)) (snd mb)) source = true.
Proof. vm_compute. reflexivity. Qed.
Lemma mem_installed : forall l x, mem x l || mem (removelast x) l = true -> installed l x.
Proof. intros l x H. apply orb_true_iff in H. destruct H as [H|H]; apply mem_In in H; [left | right]; exact H. Qed.
Lemma packages_closed : forall l, l = [[u "cjktools"]; [u "cjktools"; u "resources"]] ->
  forall m body, In (m, body) source -> installed l m /\
    forall s x, In s body -> In x (asks m s) -> hd_error x = Some (u "cjktools") -> dmem x source = true /\ installed l x.
Proof.
  intros l -> m body I. pose proof packages_computed as P. cbn beta zeta in P. rewrite forallb_forall in P. specialize (P _ I).
  cbn [fst snd] in P. apply andb_true_iff in P. destruct P as [P1 P2]. split; [apply mem_installed; exact P1|].
  intros s x Is Ix H. rewrite forallb_forall in P2. specialize (P2 s Is). rewrite forallb_forall in P2. specialize (P2 x Ix).
  unfold local_ok in P2. destruct x as [|h t]; [discriminate|]. cbn [hd_error] in H.
  assert (inside (h :: t) = true) as R by (injection H as ->; reflexivity). rewrite R in P2. cbn [negb orb] in P2.
  apply andb_true_iff in P2. destruct P2 as [A B]. split; [exact A | apply mem_installed; exact B].
Qed.
