(* RepoTests_place.v -- test_place.py of
   /repo/cjktools/tests/resources run on the model: checks on single inputs; no
   property rests on them. *)
From Verif Require Import Base PyText Maps_model Place_model RepoTests_core.

(** a line with its end *)
Definition ln (s : str) : str := s ++ [10].
Definition made (p : res place) : place := match p with Ok p => p | Raise _ => no_place end.
(* test_place.py:21-33 *)
Example test_basics :
  let melb := place_new (u "Melbourne") (Some (u "メルボルン")) None in
  let aust := place_new (u "Australia") (Some (u "オーストラリア")) None in
  rmap label melb = Ok (u "Melbourne") /\ rmap reading melb = Ok (Some (u "メルボルン")) /\
  dmem (u "Melbourne") (kids (at_ (append [made aust; made melb] 0 1) 0)) = true.
Proof. vm_compute; repeat split. Qed.
(* test_place.py:35-51: written to a file and read back.  The places are
   compared as trees; repr is not used, no place has aliases *)
Fixpoint shape (fuel : nat) (h : list place) (a : addr) : list (nat * str * option str) :=
  match fuel with
  | O => []
  | S f => (fuel, label (at_ h a), reading (at_ h a)) :: flat_map (fun kv => shape f h (snd kv)) (kids (at_ h a))
  end.
Definition atlas : list place :=
  let h := map made [place_new (u "Australia") (Some (u "オーストラリア")) None; place_new (u "Melbourne") (Some (u "メルボルン")) None;
    place_new (u "St_Kilda") (Some (u "セーントキルダ")) None; place_new (u "Collingwood") (Some (u "コーリングウード")) None;
    place_new (u "Sydney") (Some (u "シドニー")) None; place_new (u "Anja's_place") None None] in
  let h := append h 1 2 in let h := append h 1 3 in let h := append h 0 1 in let h := append h 4 5 in append h 0 4.
Fixpoint split_lines (line s : str) : list str :=
  match s with [] => match line with [] => [] | _ => [line] end | c :: r => if c =? 10 then ln line :: split_lines [] r else split_lines (line ++ [c]) r end.
Example test_formatting :
  place_new (u "Anja's place") None None = Raise ValueError /\
  (do text <- dump (fun s => s) 20 atlas 0; do r <- from_file ascii_dv [] (split_lines [] text);
   Ok (shape 10 (fst r) (snd r))) = Ok (shape 10 atlas 0) /\ length (shape 10 atlas 0) = 6%nat.
Proof. vm_compute; repeat split. Qed.
