(* Encoding_spec.v -- UTF-8 as the Unicode standard defines it, and files that
   hold texts *)
From Verif Require Import Base PyText Files_spec.

(** ** Encoding forms *)
Definition scalar (c : Z) : Prop := 0 <= c < 55296 \/ 57343 < c < 1114112.
Definition units (c : Z) : list Z :=
  if c <? 128 then [c]
  else if c <? 2048 then [192 + c / 64; 128 + c mod 64]
  else if c <? 65536 then [224 + c / 4096; 128 + (c / 64) mod 64; 128 + c mod 64]
  else [240 + c / 262144; 128 + (c / 4096) mod 64; 128 + (c / 64) mod 64; 128 + c mod 64].
Definition encoded (s : str) : list Z := flat_map units s.
Definition bytes (b : list Z) : Prop := Forall (fun x => 0 <= x < 256) b.
Definition bom : Z := 65279.

(** ** A file system of bytes that holds these texts, by some decoder *)
Definition holds (decode : list Z -> str * bool) (disk : str -> option (list Z)) (content : str -> option str) (name : str) : Prop :=
  match disk name, content name with
  | Some b, Some t => decode b = (t, true)
  | None, None => True
  | _, _ => False
  end.
(** in UTF-8 *)
Definition stored (disk : str -> option (list Z)) (content : str -> option str) (n : str) : Prop :=
  disk n = option_map encoded (content n) /\ forall t, content n = Some t -> Forall scalar t.

(** ** Characters below 256, and decoders that give no others *)
Definition small (s : str) : Prop := Forall (fun c => c < 256) s.
Definition narrow (locale : list Z -> str * bool) : Prop := forall b, bytes b -> small (fst (locale b)).
