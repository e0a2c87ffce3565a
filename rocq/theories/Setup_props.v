(* Setup_props.v -- property C128 *)
From Verif Require Import Base LoadRst_model LoadRst_spec LoadRst_proofs Imports_model Setup_model Setup_spec Setup_proofs.

(** ** C128.  When setup.py gets as far as setup(), the long description is the
    README's text after a line end, the requirements are those of this Python,
    both packages are listed, and the version file holds the version, or is left
    alone when setuptools_scm is not there; no other file changes. *)
Theorem C128_arguments : forall pandoc can_open encodable scm pv st st' a,
  run pandoc can_open encodable scm pv st = (st', Ok a) ->
  install_requires a = requires pv /\ (forall m, In m (listed a) <-> In m packages) /\
  (exists s, source_text pandoc st' (u "README.md") false s /\ long_description a = 10 :: s) /\
  ((no_scm scm /\ st' = st) \/
   (exists v, scm = Some (Ok v) /\ dget (version_file) st' = Some (File (Ok (first_line ++ second_line v))))) /\
  forall q, q <> version_file -> dget q st' = dget q st.
Proof.
  intros pandoc co en scm pv st st' a R. destruct (run_result _ _ _ _ _ _ _ _ R) as (W & I & L & S).
  split; [exact I|]. split; [intros m; rewrite L; reflexivity|]. split; [exact S|]. split.
  - destruct (record_ok _ _ _ _ _ W) as [H | (v & E & ->)]; [left; exact H | right; exists v; split; [exact E | apply dget_dset_same]].
  - intros q N. pose proof (record_only co en scm st q N) as H. rewrite W in H. exact H.
Qed.
Print Assumptions C128_arguments.
(** It gets there when the README can be read and the version, if there is one, can be written. *)
Theorem C128_gets_there : forall pandoc can_open encodable scm pv st s,
  no_scm scm \/ (exists v, scm = Some (Ok v) /\ can_open st version_file = true /\ encodable first_line = true /\ encodable (second_line v) = true) ->
  (exists n, dget (u "README.md") st = Some n) ->
  (forall st', (forall q, q <> version_file -> dget q st' = dget q st) -> source_text pandoc st' (u "README.md") false s) ->
  exists st' a, run pandoc can_open encodable scm pv st = (st', Ok a) /\ long_description a = 10 :: s.
Proof.
  intros pandoc co en scm pv st s V [n D] S.
  assert (exists st1, record_version co en scm st = (st1, Ok tt)) as [st1 W]
    by (destruct V as [N | (v & E & C & E1 & E2)]; eexists; [exact (record_none co en scm N st) | exact (record_some co en scm v st E C E1 E2)]).
  assert (O : forall q, q <> version_file -> dget q st1 = dget q st) by (intros q N; pose proof (record_only co en scm st q N) as H; rewrite W in H; exact H).
  eexists. eexists. split; [eapply run_after; [exact W | exact (S st1 O) | exists n; rewrite O by discriminate; exact D]|]. reflexivity.
Qed.
Print Assumptions C128_gets_there.
(** Whatever happens, only the version file can change. *)
Theorem C128_files : forall pandoc can_open encodable scm pv st st' r,
  run pandoc can_open encodable scm pv st = (st', r) ->
  forall q, q <> version_file -> dget q st' = dget q st.
Proof. intros pandoc co en scm pv st st' r R q N. rewrite (run_files _ _ _ _ _ _ _ _ R). apply record_only. exact N. Qed.
Print Assumptions C128_files.
(** The version file is Python: importing it gives the version that was written, *)
Theorem C128_version : forall pandoc can_open encodable v pv st st' a, Forall version_char v ->
  run pandoc can_open encodable (Some (Ok v)) pv st = (st', Ok a) ->
  exists text, dget (version_file) st' = Some (File (Ok text)) /\ imported_value (u "version") text = Some v.
Proof.
  intros pandoc co en v pv st st' a Q R. destruct (run_result _ _ _ _ _ _ _ _ R) as (W & _).
  destruct (record_ok _ _ _ _ _ W) as [[[H | H] _] | (v' & [= <-] & ->)]; try discriminate.
  eexists. split; [apply dget_dset_same | apply version_read, version_quotable, Q].
Qed.
Print Assumptions C128_version.
(** and so for every text without a double quote, a backslash, a line end or a null character, *)
Theorem C128_version_any : forall v, quotable v -> imported_value (u "version") (first_line ++ second_line v) = Some v.
Proof. exact version_read. Qed.
Print Assumptions C128_version_any.
(** but not for every text: quotes in it are lost. *)
Theorem C128_version_quotes_refuted : exists v w, imported_value (u "version") (first_line ++ second_line v) = Some w /\ w <> v.
Proof. exists (u "1" ++ [34; 34] ++ u "2"), (u "12"). split; [vm_compute; reflexivity | discriminate]. Qed.
Print Assumptions C128_version_quotes_refuted.
(** Running setup.py again changes nothing more. *)
Theorem C128_again : forall pandoc can_open encodable scm pv st st' a,
  run pandoc can_open encodable scm pv st = (st', Ok a) -> (forall st1 st2 q, can_open st1 q = can_open st2 q) ->
  exists st2, run pandoc can_open encodable scm pv st' = (st2, Ok a) /\ forall q, dget q st2 = dget q st'.
Proof.
  intros pandoc co en scm pv st st' a R C. destruct (run_result _ _ _ _ _ _ _ _ R) as (W & _).
  destruct (record_ok _ _ _ _ _ W) as [[N ->] | (v & E & H)]; [exists st; split; [exact R | reflexivity]|].
  assert (X : record_version co en scm st' = (dset version_file (File (Ok (first_line ++ second_line v))) st', Ok tt)).
  { revert W. unfold record_version, write_version. rewrite E, (C st' st version_file).
    destruct (co st version_file); [|discriminate]. destruct (en first_line); [|discriminate]. destruct (en (second_line v)); [reflexivity | discriminate]. }
  assert (Y : dset version_file (File (Ok (first_line ++ second_line v))) st' = st').
  { subst st'. clear. induction st as [|[k y] st IH]; cbn [dset]; [rewrite eqb_refl; reflexivity|].
    destruct (eqb version_file k) eqn:K; cbn [dset]; rewrite K; [reflexivity | rewrite IH; reflexivity]. }
  exists st'. split; [|reflexivity]. revert R. unfold run. rewrite W, X, Y. exact (fun x => x).
Qed.
Print Assumptions C128_again.
(** Without setuptools_scm a version file of an earlier run stays, so the file need not tell this version. *)
Theorem C128_stale_refuted : exists pandoc can_open encodable scm pv st st' a v,
  run pandoc can_open encodable (Some (Ok v)) pv [(u "README.md", File (Ok (u "x")))] = (st, Ok a) /\
  run pandoc can_open encodable scm pv st = (st', Ok a) /\ scm = None /\
  exists text, dget version_file st' = Some (File (Ok text)) /\ imported_value (u "version") text = Some v.
Proof.
  exists None, (fun _ _ => true), (fun _ => true), None, {| major := 3; minor := 5; micro := 2 |}. eexists. eexists. eexists. exists (u "1.5").
  split; [vm_compute; reflexivity|]. split; [vm_compute; reflexivity|]. split; [reflexivity|]. eexists. split; [vm_compute; reflexivity|]. vm_compute; reflexivity.
Qed.
Print Assumptions C128_stale_refuted.
(** An error of setuptools_scm other than ImportError, such as its LookupError when there is no repository, stops setup.py before it touches a file. *)
Theorem C128_scm_error : forall pandoc can_open encodable e pv st, e <> ImportError ->
  run pandoc can_open encodable (Some (Raise e)) pv st = (st, Raise e).
Proof. intros pandoc co en e pv st N. apply run_record. unfold record_version. destruct e; congruence. Qed.
Print Assumptions C128_scm_error.
(** A version that cannot be encoded stops it and leaves a file without a version. *)
Theorem C128_unencodable : forall pandoc can_open encodable v pv st, can_open st version_file = true -> encodable first_line = true ->
  encodable (second_line v) = false ->
  exists st', run pandoc can_open encodable (Some (Ok v)) pv st = (st', Raise UnicodeError) /\
    dget version_file st' = Some (File (Ok first_line)) /\ imported_value (u "version") first_line = None.
Proof.
  intros pandoc co en v pv st C E1 E2. eexists. split; [apply run_record; unfold record_version, write_version; rewrite C, E1, E2; reflexivity|].
  split; [apply dget_dset_same | vm_compute; reflexivity].
Qed.
Print Assumptions C128_unencodable.
(** One that cannot be written stops it before any file has changed. *)
Theorem C128_unwritable : forall pandoc can_open encodable v pv st, can_open st version_file = false ->
  run pandoc can_open encodable (Some (Ok v)) pv st = (st, Raise OSError).
Proof. intros pandoc co en v pv st C. apply run_record. unfold record_version, write_version. rewrite C. reflexivity. Qed.
Print Assumptions C128_unwritable.
(** A missing README stops it after the version file was written. *)
Theorem C128_no_readme : forall pandoc can_open encodable scm pv st st1, dget (u "README.md") st = None ->
  record_version can_open encodable scm st = (st1, Ok tt) -> run pandoc can_open encodable scm pv st = (st1, Raise OSError).
Proof.
  intros pandoc co en scm pv st st1 D W. unfold run. rewrite W. rewrite convert_missing; [reflexivity|].
  pose proof (record_only co en scm st (u "README.md") ltac:(discriminate)) as H. rewrite W in H. cbn [fst] in H. rewrite H. exact D.
Qed.
Print Assumptions C128_no_readme.
(** The listed packages contain every module of the library, and every module of
    the library that one of them imports. *)
Theorem C128_packages : forall pandoc can_open encodable scm pv st st' a,
  run pandoc can_open encodable scm pv st = (st', Ok a) ->
  forall m body, In (m, body) source -> installed (listed a) m /\
    forall s x, In s body -> In x (asks m s) -> hd_error x = Some (u "cjktools") -> (exists b, dget x source = Some b) /\ installed (listed a) x.
Proof.
  intros pandoc co en scm pv st st' a R m body I. destruct (run_result _ _ _ _ _ _ _ _ R) as (_ & _ & L & _).
  destruct (packages_closed (listed a) L m body I) as [P Q]. split; [exact P|]. intros s x Is Ix H. destruct (Q s x Is Ix H) as [A B]. split; [|exact B].
  unfold dmem in A. destruct (dget x source) as [b|]; [exists b; reflexivity | discriminate].
Qed.
Print Assumptions C128_packages.

Example C128_case :
  let st := [(u "README.md", File (Ok (u "# hi")))] in
  let r := run None (fun _ _ => true) (fun _ => true) (Some (Ok (u "1.6.dev2+g12ab"))) {| major := 2; minor := 7; micro := 12 |} st in
  snd r = Ok {| long_description := 10 :: u "# hi"; install_requires := [u "six"; u "enum34"; u "contextlib2>=0.5.3"];
                listed := [[u "cjktools"]; [u "cjktools"; u "resources"]] |} /\
  (exists text, dget version_file (fst r) = Some (File (Ok text)) /\ imported_value (u "version") text = Some (u "1.6.dev2+g12ab")) /\
  version_file = u "cjktools/__version__.py" /\
  In (u "cjktools" :: [u "common"]) (flat_map (asks [u "cjktools"; u "smart_cache"]) [From 1 [u "common"] []]).
Proof. split; [vm_compute; reflexivity|]. split; [eexists; split; [vm_compute; reflexivity|]; vm_compute; reflexivity|]. split; [reflexivity | left; vm_compute; reflexivity]. Qed.
Example C128_case_version : Forall version_char (u "1.6.dev2+g12ab") /\ quotable (u "1.6 (ü)") /\ no_scm (Some (Raise ImportError)).
Proof.
  split; [unfold version_char; repeat apply Forall_cons; try apply Forall_nil; vm_compute; intuition discriminate|split].
  - intros c I; vm_compute in I; repeat (destruct I as [<-|I]; [repeat split; discriminate|]); destruct I.
  - right; reflexivity.
Qed.
