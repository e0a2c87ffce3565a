(* DictBytes_spec.v -- dictionary files as both Pythons see them *)
From Verif Require Import Base PyText DictFormat_model Files_spec Encoding_spec Python2_spec.

Definition ASCII (s : str) : Prop := Forall (fun c => c < 128) s.
(** the file holds these lines in UTF-8, each ended by a line feed; the last one
    may lack it *)
Definition fed_in (disk : str -> option (list Z)) (name : str) (lines : list str) : Prop :=
  exists t ps, disk name = Some (encoded t) /\ Forall scalar t /\ regular t /\ ~ In 13 t /\ cut newline t ps /\ map fst ps = lines.
(** ... by a carriage return and a line feed *)
Definition crlf_in (disk : str -> option (list Z)) (name : str) (lines : list str) : Prop :=
  disk name = Some (encoded (flat_map (fun l => l ++ [13; 10]) lines)) /\
  Forall (Forall (fun c => scalar c /\ ~ any_break c)) lines.
(** the last character *)
Definition closed_by (c : Z) (s : str) : Prop := exists q, s = q ++ [c].
(** one more sense *)
Definition with_sense (x : str) (p : parsed) : parsed := (fst p, (fst (snd p), snd (snd p) ++ [x])).
