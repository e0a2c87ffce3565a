(* PlaceTorn_model.v -- Place.dump (/repo/cjktools/resources/place.py:63-66) failing
   midway: a line the encoding of the stream cannot write, an exception from outside,
   a disk that is full.  The line separator is "\n". *)
From Verif Require Import Base PyText PyFmt Rose Maps_model Place_model.

Section Torn.
  Variable repr : str -> str.
  Variable able : str -> bool.               (* the texts the encoding can write *)
  Variable strike : nat -> option exn.       (* what strikes before the n-th write *)
  Variable room : option nat.                (* how much of the text the disk has room for *)

  (* place.py:65-66  print() writes the line, then the line end; a text that cannot
     be encoded reaches the stream not even in part.  What the stream was given, and
     the outcome *)
  Fixpoint print_lines (n : nat) (given : str) (lines : list str) : str * res unit :=
    match lines with
    | [] => (given, match strike n with Some e => Raise e | None => Ok tt end)
    | l :: r =>
        match strike n with
        | Some e => (given, Raise e)
        | None =>
            if able l then
              match strike (S n) with
              | Some e => (given ++ l, Raise e)
              | None => print_lines (S (S n)) ((given ++ l) ++ [10]) r
              end
            else (given, Raise UnicodeError)
        end
    end.
  (* place.py:63-66  dump on the name of a file that is not compressed: opening it
     empties it, leaving the with statement writes what the stream was given *)
  Definition dump_torn (fuel : nat) (h : list place) (self : addr) (disk : dict str str) (name : str) : dict str str * res unit :=
    match walk fuel h self with
    | Raise e => (dset name [] disk, Raise e)
    | Ok ps =>
        let '(given, r) := print_lines 0 [] (map (fun dp => to_line repr (at_ h (snd dp)) (fst dp)) ps) in
        match room with
        | Some k => if (k <? length given)%nat then (dset name (firstn k given) disk, Raise OSError) else (dset name given disk, r)
        | None => (dset name given disk, r)
        end
    end.
End Torn.
