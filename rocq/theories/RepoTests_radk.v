(* RepoTests_radk.v -- test_radkdict.py of
   /repo/cjktools/tests/resources run on the model: checks on single inputs; no
   property rests on them. *)
From Verif Require Import Base PyText Radk_model RepoTests_core.

(** a line with its end *)
Definition ln (s : str) : str := s ++ [10].
Definition sample : list str := 
[ln (u "");
  ln (u "$ 一 1");
  ln (u "偏");
  ln (u "$ ｜ 1");
  ln (u "偏");
  ln (u "$ 化 2 js01");
  ln (u "偏");
  ln (u "$ 冂 2");
  ln (u "偏");
  ln (u "$ 尸 3");
  ln (u "偏");
  ln (u "$ 戸 4");
  ln (u "偏");
  ln (u "$ 冊 5");
  ln (u "偏")].
(* test_radkdict.py:37-44 *)
Example test_fetch_radicals :
  ok_and (fun d => match dget (u1 "偏") (items d) with
    | Some rs => same_set rs (map Some [u "一"; u "｜"; u "化"; u "冂"; u "尸"; u "戸"; u "冊"])
    | None => false end) (parse_radkfile ascii_dv sample) = true.
Proof. vm_compute; reflexivity. Qed.
