(* LoadRst_spec.v -- what load_as_rst.convert should do *)
From Verif Require Import Base LoadRst_model.

(** the text that stands for the input: pandoc's conversion, or the file's own
    text when pandoc is not there or cannot do it and that is acceptable *)
Inductive source_text (pandoc : option (dict (list Z) fnode -> str -> res str)) (st : dict (list Z) fnode) (f : str) (strict : bool) : str -> Prop :=
| st_converted p t : pandoc = Some p -> p st f = Ok t -> source_text pandoc st f strict t
| st_absent t : pandoc = None -> strict = false -> dget f st = Some (File (Ok t)) -> source_text pandoc st f strict t
| st_failed p e t : pandoc = Some p -> p st f = Raise e -> e = ImportError \/ e = OSError -> strict = false ->
    dget f st = Some (File (Ok t)) -> source_text pandoc st f strict t.
Definition heading (preamble : option str) : str := match preamble with Some p => p | None => [] end.
