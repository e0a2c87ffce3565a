(* FormatLang_props.v *)
From Verif Require Import Base Maps_model Bilingual_model Bilingual_spec Bilingual_proofs Regex DictFormat_model DictFormat_spec DictFormat_proofs FormatLang_spec FormatLang_proofs.

(* ---------------- C100 ---------------- *)
(** what is read from a line, for every line *)
Theorem C100_exact f line p : In f known_formats -> (parse_line f line = Ok p <-> entry_line f line p).
Proof. exact (format_exact f line p). Qed.
Print Assumptions C100_exact.
Example C100_edict_case :
  entry_line edict (u "山 [やま] /mountain//hill/") (u "山", ([u "やま"], [u "mountain"; u "hill"])) /\
  entry_line edict (u "山 [やま] [さん] x/hill") (u "山", ([u "やま"], [u "hill"])) /\
  entry_line edict (u "山 [やま]/hill") (u "山", ([u "山"], [u "hill"])).
Proof.
  split; [|split]; (apply C100_exact; [left; reflexivity|vm_compute; reflexivity]).
Qed.
Example C100_other_case :
  entry_line jc_kdic (u "山 [や ま]" ++ 9 :: u "，a，，b") (u "山", ([u "やま"], [u "a"; u "b"])) /\
  entry_line cj_kdic (u "a b" ++ 9 :: u "r\n１．x\n２．\ny\z") (u "ab", ([u "r"], [u "x"; u "２．"; u "y"; u "z"])) /\
  entry_line cedict (u "T S [a b] /x/" ++ 10 :: u "/y/") (u "S", ([u "ab"], [u "x"])).
Proof.
  split; [|split]; (apply C100_exact; [cbn [In known_formats]; tauto|vm_compute; reflexivity]).
Qed.

(** every other line is refused with a FormatError *)
Theorem C100_rejects f line : In f known_formats -> (parse_line f line = Raise FormatError <-> forall p, ~ entry_line f line p).
Proof. exact (rejects f line). Qed.
Print Assumptions C100_rejects.
Example C100_rejects_case : forall p, ~ entry_line jc_kdic (u "山 /mountain/") p.
Proof. apply C100_rejects; [right; left; reflexivity|vm_compute; reflexivity]. Qed.

(** a file loads exactly when every line is in the language, and gives the
    entries of the lines *)
Theorem C100_file h hd lines f : wf h -> header f hd ->
  (forall ps, Forall2 (entry_line f) lines ps -> exists h' b, load_dictionary h (hd :: lines) = (h', Ok b) /\
      dkeys b = distinct (map fst ps) /\
      (forall w e, dget w b = Some e -> wd h' e = w /\ pairs h' e = pairs_for w ps)) /\
  ((forall ps, ~ Forall2 (entry_line f) lines ps) -> exists h', load_dictionary h (hd :: lines) = (h', Raise FormatError)).
Proof.
  intros W H; pose proof (header_known f hd H) as K; pose proof (load_spec h hd lines f W H) as L; split.
  - intros ps F; apply (file_exact f lines ps K) in F; rewrite F in L.
    destruct L as [h' [b [E [_ [D [G _]]]]]]; exists h', b; split; [exact E|split; [exact D|]].
    intros w e X; destruct (G w e X) as [_ Y]; exact Y.
  - intros N; destruct (mapM (parse_line f) lines) as [ps|e] eqn:M; [exfalso; apply (N ps), (file_exact f lines ps K), M|].
    apply mapM_first in M; destruct M as [a [x [b [ys [_ [_ P]]]]]]; rewrite (parse_line_error f x e K P) in L; exact L.
Qed.
Print Assumptions C100_file.
Example C100_file_case : Forall2 (entry_line edict) [u "山 [やま] /mountain/"; u "川 /river/"]
  [(u "山", ([u "やま"], [u "mountain"])); (u "川", ([u "川"], [u "river"]))].
Proof. repeat constructor; (apply C100_exact; [left; reflexivity|vm_compute; reflexivity]). Qed.

(** in the cj_kdic format an empty sense is not dropped: the "n" of its
    separator becomes the start of a sense *)
Theorem C100_empty_sense w r p x q s ys nl :
  item [9] w -> item (u "\") r -> item (u "\") p -> unnumbered p x -> free (u "\") q -> bs_senses s ys ->
  ~ In 10 (p ++ q ++ s) ->
  parse_line cj_kdic (w ++ [9] ++ r ++ u "\n" ++ (p ++ u "\n" ++ u "\n" ++ q ++ u "\n" ++ s) ++ newline nl) =
  Ok (spaceless w, ([spaceless r], x :: (u "n" ++ q) :: ys)).
Proof.
  intros Iw Ir Ip U Fq H N; apply cj_exact, L_cj; [exact Iw|exact Ir| |apply empty_sense; assumption|discriminate].
  intros I; apply N; rewrite !in_app_iff in I; rewrite !in_app_iff.
  destruct I as [I|[I|[I|[I|[I|I]]]]]; try tauto; destruct I as [I|[I|[]]]; discriminate I.
Qed.
Print Assumptions C100_empty_sense.
Example C100_empty_case :
  parse_line cj_kdic (u "山" ++ 9 :: u "shan\na\n\nb\nc") = Ok (u "山", ([u "shan"], [u "a"; u "nb"; u "c"])).
Proof. vm_compute; reflexivity. Qed.
Example C100_case_parts : item (u "\") (u "a") /\ unnumbered (u "１２．x") (u "x") /\ free (u "\") (u "b") /\
  bs_senses (u "c\nd\e") [u "c"; u "d"; u "e"].
Proof.
  assert (N : forall p, (forall c, In c p -> c <> u1 "．") -> unnumbered p p).
  { intros p H; apply Un_all; intros n q [E _]; apply (H (u1 "．")); [|reflexivity].
    rewrite E; apply in_or_app; right; left; reflexivity. }
  assert (I : forall c, c <> 92 -> item (u "\") [c]).
  { intros c D; split; [discriminate|]; intros d [<-|[]] [E|[]]; apply D; exact E. }
  assert (M : forall c, c <> u1 "．" -> unnumbered [c] [c]) by (intros c D; apply N; intros d [<-|[]]; exact D).
  split; [apply I; discriminate|split; [|split]].
  - apply Un_cut with (n := u "１２"); split; [reflexivity|split; [discriminate|split; [|discriminate]]].
    intros c H; vm_compute in H; destruct H as [<-|[<-|[]]]; (split; [vm_compute; tauto|discriminate]).
  - intros c [<-|[]] [E|[]]; discriminate E.
  - apply (Bs_sep (u "c") (u "c") (u "d\e") [u "d"; u "e"]); [apply I; discriminate|apply M; discriminate|].
    apply (Bs_odd (u "d") (u "d") (u "e") [u "e"]); [apply I; discriminate|apply M; discriminate| |intros t E; discriminate E].
    apply Bs_last; [apply I; discriminate|apply M; discriminate].
Qed.
