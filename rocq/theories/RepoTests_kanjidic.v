(* RepoTests_kanjidic.v -- test_kanjidic.py of
   /repo/cjktools/tests/resources run on the model: checks on single inputs; no
   property rests on them.  The rows stand for the files of the separate data package. *)
From Verif Require Import Base PyText Kanjidic_model RepoTests_core.

(** a line with its end *)
Definition ln (s : str) : str := s ++ [10].
Definition kanji_rows : list str := map ln
  [u "# KANJIDIC";
   u "冊 3A7D U518a B13 G6 S5 F1155 N88 V128 H3433 P4-5-1 サツ サク ふみ {tome} {counter for books} {volume} ";
   u "悪 302D U60aa B61 G3 S11 F530 N1691 P2-7-4 アク オ わる.い わる- あ.し にく.い -にく.い ああ いずくに いずくんぞ にく.む {bad} {vice} ";
   u "粉 4A34 U7c89 B119 G4 S10 F1484 P1-6-4 フン デシメートル こ こな {flour} {powder} {dust} "].
(* test_kanjidic.py:38-52 *)
Example test_lookup :
  let get kd k f := match dget k kd with Some e => dget f e | None => None end in
  ok_and (fun kd =>
    match get kd (u "冊") (u "stroke_count"), get kd (u "冊") (u "skip_code"), get kd (u "悪") (u "frequency"),
          get kd (u "粉") (u "kun_readings"), get kd (u "粉") (u "on_readings") with
    | Some (VInt 5), Some (VTuple [4; 5; 1]), Some (VInt 530), Some (VList kun), Some (VList on) =>
        ok_and (fun rs => mem (u "こ") rs)
          (all_readings (flat_map (fun v => match v with VStr s => [s] | _ => [] end) kun)
                        (flat_map (fun v => match v with VStr s => [s] | _ => [] end) on))
    | _, _, _, _, _ => false
    end) (init ascii_dv [kanji_rows]) = true.
Proof. vm_compute; reflexivity. Qed.
