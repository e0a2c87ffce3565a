From Verif Require Import Base PyText Bilingual_spec Radk_model Radk_spec Radk_proofs.

(** C47: everything that loads is the inversion of the file's kanji lines *)
Theorem C47_inverts dv lines d : parse_radkfile dv lines = Ok d ->
  exists bs, blocks dv [] lines bs /\ (forall bs', blocks dv [] lines bs' -> bs' = bs) /\
    NoDup (dkeys (items d)) /\
    (forall k, In k (dkeys (items d)) <-> exists b, In b bs /\ In k (snd b)) /\
    (forall k, dlist k (items d) = flat_map (fun r => repeat r (count k (written bs r))) (distinct (map fst bs))) /\
    dkeys (radical_to_kanji d) = distinct (map fst bs) /\
    (forall r, dlist r (radical_to_kanji d) = written bs r) /\
    (forall r n, dget r (radical_to_stroke_count d) = Some n <-> strokes dv lines r n).
Proof. exact (loaded dv lines d). Qed.
Print Assumptions C47_inverts.

(** membership, without the order *)
Theorem C47_membership dv lines d k r : parse_radkfile dv lines = Ok d ->
  (In r (dlist k (items d)) <-> exists a line b, lines = a ++ line :: b /\ kanji_line line /\ in_force dv a r /\ In k (strip line)).
Proof. exact (loaded_member dv lines d k r). Qed.
Print Assumptions C47_membership.

(** comments may be dropped *)
Theorem C47_comments dv a c b : comment_line c -> parse_radkfile dv (a ++ c :: b) = parse_radkfile dv (a ++ b).
Proof. exact (parse_comment dv a c b). Qed.
Print Assumptions C47_comments.

(** trailing white space never matters; around the text of kanji lines neither
    does leading white space.  Missing: leading white space before '#' or '$'. *)
Theorem C47_space_partial dv lines lines' :
  Forall2 (fun l l' => rstrip l = rstrip l' \/ (kanji_line l /\ kanji_line l' /\ strip l = strip l')) lines lines' ->
  parse_radkfile dv lines = parse_radkfile dv lines'.
Proof. exact (parse_space dv lines lines'). Qed.
Print Assumptions C47_space_partial.

(** an indented comment or radical line is read as kanji *)
Theorem C47_space_refuted : ~ forall dv lines lines', Forall2 (fun l l' => strip l = strip l') lines lines' ->
  parse_radkfile dv lines = parse_radkfile dv lines'.
Proof. exact space_matters. Qed.
Print Assumptions C47_space_refuted.

(** C48 *)
Theorem C48_loads dv lines : (exists d, parse_radkfile dv lines = Ok d) <->
  forall l, In l lines -> radical_line l -> exists r n, header_of dv l r n.
Proof. exact (parse_total dv lines). Qed.
Print Assumptions C48_loads.
Theorem C48_fails dv lines e : parse_radkfile dv lines = Raise e <->
  exists a l b, lines = a ++ l :: b /\ bad_line dv l e /\
    forall l', In l' a -> radical_line l' -> exists r n, header_of dv l' r n.
Proof. exact (parse_raise dv lines e). Qed.
Print Assumptions C48_fails.

Definition ex_radk := [u "# comment"; u "$ 一 1 "; u "亜唖"; u "  亜 "; u "$ ｜ 1 3"; u "唖"; u "$ 一 9"; u "$ 一 2"; u "丁"].
Example C47_case : parse_radkfile ascii_dv ex_radk = Ok
  {| items := [(u1 "亜", [Some (u "一"); Some (u "一")]); (u1 "唖", [Some (u "一"); Some (u "｜")]); (u1 "丁", [Some (u "一")])];
     radical_to_kanji := [(Some (u "一"), u "亜唖亜丁"); (Some (u "｜"), u "唖")];
     radical_to_stroke_count := [(Some (u "一"), 2); (Some (u "｜"), 1)] |}.
Proof. vm_compute; reflexivity. Qed.
Example C48_case1 : parse_radkfile ascii_dv [u "亜"; u "$ 一"] = Raise PlainException.
Proof. vm_compute; reflexivity. Qed.
Example C48_case2 : parse_radkfile ascii_dv [u "亜"; u "$ 一 x"; u "$"] = Raise ValueError.
Proof. vm_compute; reflexivity. Qed.
Example C48_case3 : parse_radkfile ascii_dv [u "$ 一 1 a b"] = Raise PlainException.
Proof. vm_compute; reflexivity. Qed.
Example C47_case_lines : comment_line (u "# radkfile") /\ ~ comment_line (u "$ 一 1") /\ kanji_line (u "亜唖") /\
  radical_line (u "$ 一 1").
Proof.
  unfold kanji_line, comment_line, radical_line, begins; repeat split; try (eexists; reflexivity); intros [r E]; discriminate E.
Qed.
