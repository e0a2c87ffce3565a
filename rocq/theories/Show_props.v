(* Show_props.v -- C86 to C88 *)
From Verif Require Import Base PyText PyFmt Maps_model Place_model Bilingual_model Radk_model Show_model Show_spec Show_proofs.
From Coq Require Import Permutation Sorted.

(** C86 *)
Theorem C86_place l r al p l' r' al' q ks ks' : place_new l r al = Ok p -> place_new l' r' al' = Ok q ->
  place_str (set_kids p ks) = place_str (set_kids q ks') ->
  l = l' /\ shown_reading r = shown_reading r' /\ length ks = length ks'.
Proof.
  unfold place_new; intros P Q E.
  destruct (_ || _ || _) eqn:B in P; [discriminate|]; destruct (_ || _ || _) eqn:C in Q; [discriminate|].
  injection P as <-; injection Q as <-; apply orb_false_iff in B, C; destruct B as [B _], C as [C _]; apply orb_false_iff in B, C; destruct B as [B1 B2], C as [C1 C2].
  apply mem_false in B1, C1; apply place_str_inj in E; try assumption.
  - intros x X; cbn in X; subst r; apply mem_false, B2.
  - intros x X; cbn in X; subst r'; apply mem_false, C2.
Qed.
Print Assumptions C86_place.
Theorem C86_entry h e h' e' : entry_str h e = entry_str h' e' ->
  word (entry_at h e) = word (entry_at h' e') /\
  length (set_of (list_at h (readings (entry_at h e)))) = length (set_of (list_at h' (readings (entry_at h' e')))) /\
  length (list_at h (senses (entry_at h e))) = length (list_at h' (senses (entry_at h' e'))).
Proof. exact (entry_str_inj h e h' e'). Qed.
Print Assumptions C86_entry.
(** the whole texts: the counts are of distinct readings and of all senses *)
Theorem C86_place_text p : exists shown, place_str p = u "<Place: " ++ label p ++ shown ++ u " " ++ dec (Z.of_nat (length (kids p))) ++ u " children>" /\
  match shown_reading (reading p) with None => shown = [] | Some r => shown = u " /" ++ r ++ u "/" end.
Proof. unfold place_str. destruct (reading p) as [[|c r]|]; eexists; split; reflexivity. Qed.
Print Assumptions C86_place_text.
Theorem C86_entry_text h e : exists distinct,
  NoDup distinct /\ (forall r, In r distinct <-> In r (list_at h (readings (entry_at h e)))) /\
  entry_str h e = u "<DictionaryEntry: " ++ word (entry_at h e) ++ u " (" ++ dec (Z.of_nat (length distinct)) ++ u " readings, " ++
    dec (Z.of_nat (length (list_at h (senses (entry_at h e))))) ++ u " senses)>".
Proof.
  exists (set_of (list_at h (readings (entry_at h e)))). split; [apply NoDup_set_of|split; [intros r; apply In_set_of|reflexivity]].
Qed.
Print Assumptions C86_entry_text.
Example C86_case : place_str {| label := u "東京"; reading := Some (u "とうきょう"); aliases := None; kids := [(u "a", 1%nat); (u "b", 2%nat)] |} = u "<Place: 東京 /とうきょう/ 2 children>" /\
  place_str {| label := u "x"; reading := Some []; aliases := None; kids := [] |} = u "<Place: x 0 children>" /\
  entry_str {| lists := [[u "a"; u "b"; u "a"]; [u "1"; u "2"; u "3"]]; entries := [{| word := u "w"; readings := 0%nat; senses := 1%nat |}] |} 0 =
    u "<DictionaryEntry: w (2 readings, 3 senses)>".
Proof. repeat split; vm_compute; reflexivity. Qed.

(** C87: entries have no attribute [name] *)
Theorem C87_hash_refuted : forall h e, entry_hash h e = Raise AttributeError.
Proof. reflexivity. Qed.
Print Assumptions C87_hash_refuted.

(** C88 *)
Theorem C88_lines dv file d ks ls o : parse_radkfile dv file = Ok d -> print_radicals dv file ks = (ls, o) ->
  exists done rest, ks = done ++ rest /\ Forall2 (radicals_printed d) done ls /\
    match o with
    | Ok _ => rest = []
    | Raise e => exists k r, rest = k :: r /\
        ((e = KeyError /\ forall c, k = [c] -> dget c (items d) = None) \/ (e = TypeError /\ exists c rs, k = [c] /\ dget c (items d) = Some rs /\ In None rs))
    end.
Proof.
  intros D P; unfold print_radicals in P; rewrite D in P; destruct (print_each_spec d ks ls o P) as [a [b [-> [F M]]]]; exists a, b; split; [reflexivity|split].
  - clear -F; induction F as [|k l ks ls H F IH]; constructor; [apply radicals_line_ok, H|exact IH].
  - destruct o as [x|e]; [exact M|]; destruct M as [k [r [-> R]]]; exists k, r; split; [reflexivity|]; apply radicals_line_fails, R.
Qed.
Print Assumptions C88_lines.
Theorem C88_no_file dv file e ks : parse_radkfile dv file = Raise e -> print_radicals dv file ks = ([], Raise e).
Proof. intros D; unfold print_radicals; rewrite D; reflexivity. Qed.
Print Assumptions C88_no_file.
Example C88_case : print_radicals ascii_dv [u "$ 口 3"; u "唖吸"; u "$ 一 1"; u "唖"] [u "唖"; u "吸"; u "x"; u "唖"] = ([u "唖:  一 口"; u "吸:  口"], Raise KeyError).
Proof. vm_compute; reflexivity. Qed.
