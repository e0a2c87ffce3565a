(* Command_props.v -- C121: the command line of scripts/load_as_rst.py *)
From Verif Require Import Base LoadRst_model LoadRst_spec Command_model Command_spec Command_proofs.

(** The parser answers exactly on the lines of the grammar, with their input and
    their last output. *)
Theorem C121_line : forall late digit args i o,
  parse_args late digit args = Parsed i o <-> exists os, reads digit args (Some i) os /\ o = the_output late os.
Proof. exact parse_iff. Qed.
(** So a line says at most one thing; *)
Theorem C121_one_meaning : forall late digit args i i' os os', reads digit args (Some i) os -> reads digit args (Some i') os' -> i = i' /\ the_output late os = the_output late os'.
Proof.
  intros late digit args i i' os os' R R'. pose proof (proj2 (parse_iff late digit args i _) (ex_intro _ os (conj R eq_refl))) as P.
  pose proof (proj2 (parse_iff late digit args i' _) (ex_intro _ os' (conj R' eq_refl))) as P'. rewrite P in P'. injection P' as -> ->. split; reflexivity.
Qed.
(** any two names can be said, but, before 3.11.10, two dashes for the output. *)
Theorem C121_any_names : forall late digit i o, late = true \/ o <> u "--" ->
  parse_args late digit [u "--output=" ++ o; u "--"; i] = Parsed i (Some (Text o)) /\ parse_args late digit [u "--"; i] = Parsed i None.
Proof.
  intros late digit i o N. split; apply C121_line.
  - exists [o]. split; [|symmetry; exact (the_text late [] o N)].
    apply (r_output digit [u "--output=" ++ o] o [u "--"; i] (Some i) []); [|apply r_dashes_input].
    apply (g_equal digit (u "--output") o). right. split; [exists []; reflexivity | cbn; lia].
  - exists []. split; [apply r_dashes_input | reflexivity].
Qed.
(** Otherwise the program exits: with 2, or with 0 when help is asked for. *)
Theorem C121_exit : forall late digit args c, parse_args late digit args = Exit c -> (c = 0 \/ c = 2) /\ (c = 0 -> exists s, In s args /\ asks_help s).
Proof. exact parse_exit. Qed.
(** The run prints the input's text between two newlines, or writes just that to
    the output; *)
Theorem C121_run : forall late digit pandoc can_open encodable printable st args i os s,
  reads digit args (Some i) os -> (exists n, dget i st = Some n) -> source_text pandoc st i false s ->
  encodable ([10] ++ s ++ [10]) = true -> printable ([10] ++ s ++ [10]) = true ->
  (os = [] -> main late digit pandoc can_open encodable printable st args = (st, [10] ++ s ++ [10], Ended (Ok tt))) /\
  (forall os' o, os = os' ++ [o] -> late = true \/ o <> u "--" -> can_open st o = true ->
     main late digit pandoc can_open encodable printable st args = (dset o (File (Ok ([10] ++ s ++ [10]))) st, [], Ended (Ok tt))) /\
  (forall os', late = false -> os = os' ++ [u "--"] -> main late digit pandoc can_open encodable printable st args = (st, [], Ended (Raise TypeError))).
Proof.
  intros late digit pandoc can_open encodable printable st args i os s R D S E P.
  assert (L : parse_args late digit args = Parsed i (the_output late os)) by (apply parse_iff; exists os; split; [exact R | reflexivity]).
  split; [|split].
  - intros ->. apply run_printed with (i := i); assumption.
  - intros os' o -> N C. apply run_written with (i := i); try assumption. rewrite L, (the_text late os' o N). reflexivity.
  - intros os' E0 ->. apply run_dashes with (i := i) (s := s); try assumption. rewrite L. unfold the_output. rewrite rev_app_distr, E0. reflexivity.
Qed.
(** and a line that says nothing leaves everything as it was. *)
Theorem C121_nothing : forall late digit pandoc can_open encodable printable st args, (forall i os, ~ reads digit args (Some i) os) ->
  exists c, main late digit pandoc can_open encodable printable st args = (st, [], Exited c).
Proof.
  intros late digit pandoc can_open encodable printable st args N. unfold main. destruct (parse_args late digit args) as [i o|c] eqn:E; [|exists c; reflexivity].
  apply parse_iff in E. destruct E as (os & R & _). destruct (N i os R).
Qed.

Example C121_case :
  let digit c := (48 <=? c) && (c <=? 57) in let late := false in
  parse_args true digit [u "--output=--"; u "a.md"] = Parsed (u "a.md") (Some (Text (u "--"))) /\
  parse_args true digit [u "-hx"] = Exit 0 /\ parse_args late digit [u "-hx"] = Exit 2 /\
  parse_args true digit [u "-h=h"] = Exit 2 /\ parse_args late digit [u "-h=h"] = Exit 0 /\
  parse_args late digit [u "a.md"; u "-o"; u "-1"; u "--out=b.rst"] = Parsed (u "a.md") (Some (Text (u "b.rst"))) /\
  reads digit [u "a.md"; u "--out=b.rst"] (Some (u "a.md")) [u "b.rst"] /\
  parse_args late digit [u "-oc"; u "-x y"] = Parsed (u "-x y") (Some (Text (u "c"))) /\
  parse_args late digit [u "-x"] = Exit 2 /\ parse_args late digit [u "--=a"; u "-h"] = Exit 2 /\ parse_args late digit [u "-h"; u "-x"] = Exit 0 /\
  parse_args late digit [u "--output=--"; u "a.md"] = Parsed (u "a.md") (Some EmptyList) /\
  main late digit None (fun _ _ => true) (fun _ => true) (fun _ => true) [(u "a.md", File (Ok (u "hi")))] [u "a.md"; u "-ob"] =
    ([(u "a.md", File (Ok (u "hi"))); (u "b", File (Ok ([10] ++ u "hi" ++ [10])))], [], Ended (Ok tt)).
Proof.
  cbv zeta. do 5 (split; [vm_compute; reflexivity|]). split; [reflexivity|]. split.
  { apply r_input; [right; left; exists 97, (u ".md"); split; [reflexivity | lia]|].
    apply (r_output _ [u "--out=b.rst"] (u "b.rst") [] None []); [|constructor]. apply (g_equal _ (u "--out") (u "b.rst")). right. split; [exists (u "put"); reflexivity | cbn; lia]. }
  repeat (split; [vm_compute; reflexivity|]). vm_compute. reflexivity.
Qed.
Print Assumptions C121_line.
Print Assumptions C121_one_meaning.
Print Assumptions C121_any_names.
Print Assumptions C121_exit.
Print Assumptions C121_run.
Print Assumptions C121_nothing.
