(* Radk_model.v -- model of /repo/cjktools/resources/radkdict.py.
   The stream is given by its decoded lines; opening and decoding are not
   modelled.  Tuples and lists of radicals are not distinguished.  The radical
   of the lines before the first '$' line is None. *)
From Verif Require Import Base PyStr PyText Maps_model.

Notation radical := (option (list Z)) (only parsing).

Section Radk.
  Variable dv : Z -> option Z.

  (* radkdict.py:50-75  the loop *)
  Fixpoint radk_loop (line_stream : list str) (current_radical : radical)
      (radical_to_kanji : dict radical (list char)) (radical_to_stroke_count : dict radical Z)
      : res (dict radical (list char) * dict radical Z) :=
    match line_stream with
    | [] => Ok (radical_to_kanji, radical_to_stroke_count)
    | line :: rest =>
        let line := rstrip line in
        if startswith (u "#") line then radk_loop rest current_radical radical_to_kanji radical_to_stroke_count
        else if startswith (u "$") line then
          let parts := split_ws line in
          if mem (length parts) [3%nat; 4%nat] then
            match parts with
            | dollar :: current_radical :: stroke_count :: _ =>
                match py_int dv 10 stroke_count with
                | Some z => radk_loop rest (Some current_radical) radical_to_kanji
                              (dset (Some current_radical) z radical_to_stroke_count)
                | None => Raise ValueError
                end
            | _ => Raise ValueError
            end
          else Raise PlainException
        else
          let kanji := strip line in
          radk_loop rest current_radical (dextend current_radical kanji radical_to_kanji) radical_to_stroke_count
    end.

  Record radkdict := {
    items : dict char (list radical);
    radical_to_kanji : dict radical (list char);
    radical_to_stroke_count : dict radical Z }.

  (* radkdict.py:42-79  _parse_radkfile on a fresh object; the object is the
     only dictionary of the store given to map_dict *)
  Definition parse_radkfile (line_stream : list str) : res radkdict :=
    do r <- radk_loop line_stream None [] [];
    let '(rtk, rts) := r in
    let self := dupdate [] (invert_mapping rtk) in
    match map_dict (fun (s : unit) v => (s, Ok v)) tt [self] 0%nat true with
    | (_, st, Ok a) => Ok {| items := fetch [] st a; radical_to_kanji := rtk; radical_to_stroke_count := rts |}
    | (_, _, Raise e) => Raise e
    end.
End Radk.
