(* Misc_props.v -- C81 to C83 *)
From Verif Require Import Base PyText Scripts_model Scripts_spec Scripts_proofs Maps_model Misc_model Misc_spec Misc_proofs.

(** C81 *)
Theorem C81_variable environ own_dir user_dir isdir p : dget (u "CJKDATA") environ = Some p -> find_path environ own_dir user_dir isdir = Ok p.
Proof. exact (find_env environ own_dir user_dir isdir p). Qed.
Print Assumptions C81_variable.
Theorem C81_default environ own_dir user_dir isdir d : dget (u "CJKDATA") environ = None -> first_default environ own_dir d ->
  find_path environ own_dir user_dir isdir =
    (if isdir d then Ok d else if isdir (u "/usr/share/data/cjkdata") then Ok (u "/usr/share/data/cjkdata")
     else if isdir (u "/usr/local/share/data/cjkdata") then Ok (u "/usr/local/share/data/cjkdata") else Raise MissingCJKDataError).
Proof. exact (find_default environ own_dir user_dir isdir d). Qed.
Print Assumptions C81_default.
(** there is always exactly one first default *)
Theorem C81_first_default environ own_dir : exists d, first_default environ own_dir d /\ forall d', first_default environ own_dir d' -> d' = d.
Proof. eexists; split; [exact (expand_home environ own_dir (fun _ => None))|exact (default_unique environ own_dir (fun _ => None))]. Qed.
Print Assumptions C81_first_default.
Theorem C81_resource environ own_dir user_dir isdir name : (forall t, name <> u "/" ++ t) ->
  match find_path environ own_dir user_dir isdir with
  | Ok base => exists f, get_resource environ own_dir user_dir isdir name = Ok f /\ inside base name f /\ forall g, inside base name g -> g = f
  | Raise e => get_resource environ own_dir user_dir isdir name = Raise e
  end.
Proof.
  intros N; unfold get_resource; destruct (find_path environ own_dir user_dir isdir) as [base|e]; [|reflexivity].
  eexists; split; [reflexivity|split; [apply join_relative, N|]]; intros g G; exact (inside_unique _ _ _ _ G (join_relative base name N)).
Qed.
Print Assumptions C81_resource.
(** an absolute name leaves the data directory *)
Theorem C81_absolute environ own_dir user_dir isdir t :
  get_resource environ own_dir user_dir isdir (u "/" ++ t) = rmap (fun _ => u "/" ++ t) (find_path environ own_dir user_dir isdir).
Proof. unfold get_resource; destruct (find_path environ own_dir user_dir isdir); reflexivity. Qed.
Print Assumptions C81_absolute.
Example C81_absolute_case : get_resource [(u "CJKDATA", u "data")] None (fun _ => None) (fun _ => true) (u "/etc/passwd") = Ok (u "/etc/passwd").
Proof. vm_compute; reflexivity. Qed.
Example C81_case : let isdir d := eqb d (u "/home/me/.cjkdata") || eqb d (u "/usr/share/data/cjkdata") in
  find_path [(u "HOME", u "/home/me//")] None (fun _ => None) isdir = Ok (u "/home/me/.cjkdata") /\
  find_path [(u "HOME", u "/home/you")] None (fun _ => None) isdir = Ok (u "/usr/share/data/cjkdata") /\
  find_path [] (Some (u "/home/me")) (fun _ => None) isdir = Ok (u "/home/me/.cjkdata") /\
  find_path [] None (fun _ => None) (fun _ => false) = Raise MissingCJKDataError /\
  get_resource [(u "CJKDATA", u "data")] None (fun _ => None) isdir (u "radkfile") = Ok (u "data/radkfile") /\
  first_default [(u "HOME", u "/home/me//")] None (u "/home/me/.cjkdata").
Proof.
  repeat split; try (vm_compute; reflexivity).
  apply (Default_home _ _ (u "/home/me//") (u "/home/me")); [left; reflexivity|].
  apply (Bare_slash (u "/home/me/")), (Bare_slash (u "/home/me")), Bare_end; intros t X.
  apply (f_equal (@rev Z)) in X; rewrite rev_app_distr in X; discriminate.
Qed.

(** C82 *)
Theorem C82_one_char : exists f, from_one_char_code = Ok f /\ forall l c, dget c f = Some l <-> dget l to_one_char_code = Some c.
Proof. exact (from_codes to_one_char_code eq_refl eq_refl). Qed.
Print Assumptions C82_one_char.
Theorem C82_two_char : exists f, from_two_char_code = Ok f /\ forall l c, dget c f = Some l <-> dget l to_two_char_code = Some c.
Proof. exact (from_codes to_two_char_code eq_refl eq_refl). Qed.
Print Assumptions C82_two_char.
(** the codes, one by one *)
Theorem C82_codes l c :
  (dget l to_one_char_code = Some c <->
   (l = u "English" /\ c = u "e") \/ (l = u "Chinese" /\ c = u "c") \/ (l = u "Japanese" /\ c = u "j") \/ (l = u "German" /\ c = u "g") \/
   (l = u "French" /\ c = u "f") \/ (l = u "Spanish" /\ c = u "s") \/ (l = u "Portugese" /\ c = u "p")) /\
  (dget l to_two_char_code = Some c <-> (l = u "English" /\ c = u "en") \/ (l = u "Chinese" /\ c = u "cn") \/ (l = u "Japanese" /\ c = u "jp")).
Proof.
  split; (split; [intro D; apply dget_In in D; cbn [In to_one_char_code to_two_char_code] in D|
                  intro D; repeat match goal with H : _ \/ _ |- _ => destruct H as [H|H] end; destruct D as [-> ->]; vm_compute; reflexivity]);
  repeat match goal with H : _ \/ _ |- _ => destruct H as [H|H] | H : False |- _ => destruct H end; injection D as <- <-; auto 10.
Qed.
Print Assumptions C82_codes.
Example C82_case : (do f <- from_one_char_code; Ok (dget (u "j") f)) = Ok (Some (u "Japanese")) /\ (do f <- from_two_char_code; Ok (dget (u "xx") f)) = Ok None.
Proof. split; vm_compute; reflexivity. Qed.

(** C83 *)
Theorem C83_get_list environ own_dir user_dir isdir contents name ks :
  get_list environ own_dir user_dir isdir contents name = Ok ks ->
  exists base f text, find_path environ own_dir user_dir isdir = Ok base /\ inside base (u "lists/char/" ++ name) f /\ contents f = Ok text /\
    NoDup ks /\ forall c, In c ks <-> In c text /\ in_script Kanji c.
Proof.
  unfold get_list, get_resource; destruct (find_path environ own_dir user_dir isdir) as [base|e]; cbn [bind]; [|discriminate].
  destruct (contents (path_join base (u "lists/char/" ++ name))) as [text|e] eqn:C; cbn [bind]; [|discriminate]; intros E; injection E as <-.
  exists base, (path_join base (u "lists/char/" ++ name)), text; split; [reflexivity|split; [|split; [exact C|apply unique_kanji_spec]]].
  apply join_relative; intros t X; discriminate.
Qed.
Print Assumptions C83_get_list.
Theorem C83_fails environ own_dir user_dir isdir contents name e :
  get_list environ own_dir user_dir isdir contents name = Raise e <->
  find_path environ own_dir user_dir isdir = Raise e \/
  (exists base f, find_path environ own_dir user_dir isdir = Ok base /\ inside base (u "lists/char/" ++ name) f /\ contents f = Raise e).
Proof.
  unfold get_list, get_resource; destruct (find_path environ own_dir user_dir isdir) as [base|e'] eqn:F; cbn [bind].
  - assert (I : inside base (u "lists/char/" ++ name) (path_join base (u "lists/char/" ++ name))) by (apply join_relative; intros t X; discriminate).
    split.
    + destruct (contents _) as [text|e'] eqn:C; cbn [bind]; [discriminate|]; intros E; injection E as ->; right; eauto.
    + intros [X|[b [f [X [Y C]]]]]; [discriminate|]; injection X as <-; rewrite (inside_unique _ _ _ _ Y I) in C; rewrite C; reflexivity.
  - split; [intros E; left; exact E|]; intros [X|[b [f [X _]]]]; [exact X|discriminate].
Qed.
Print Assumptions C83_fails.
Theorem C83_get_lists environ own_dir user_dir isdir listdir base : find_path environ own_dir user_dir isdir = Ok base ->
  exists f, inside base (u "lists/char") f /\ get_lists environ own_dir user_dir isdir listdir = listdir f.
Proof.
  intros F; unfold get_lists, get_resource; rewrite F; cbn [bind]; eexists; split; [apply join_relative; intros t X; discriminate|reflexivity].
Qed.
Print Assumptions C83_get_lists.
Example C83_case : get_list [(u "CJKDATA", u "d/")] None (fun _ => None) (fun _ => false)
    (fun f => if eqb f (u "d/lists/char/jp_jyouyou") then Ok (u "亜 哀 亜" ++ [10]) else Raise OSError) (u "jp_jyouyou") = Ok (u "亜哀").
Proof. vm_compute; reflexivity. Qed.
