(* SplitCodes_props.v -- C41, C42 *)
From Verif Require Import Base PyText Maps_model Bilingual_model Bilingual_spec Bilingual_props DictFormat_model DictFormat_spec
  SplitCodes_model SplitCodes_spec SplitCodes_proofs.

(* ---------------- C41 ---------------- *)
Theorem C41_get_codes s c : In c (get_codes s) <-> carries s c.
Proof. exact (get_codes_spec s c). Qed.
Print Assumptions C41_get_codes.
Theorem C41_no_duplicates s : NoDup (get_codes s).
Proof. exact (get_codes_nodup s). Qed.
Print Assumptions C41_no_duplicates.
Example C41_case : get_codes (u "((n,vs)) to (do) x (adj-na,n (P) (uk") = [u "n"; u "vs"].
Proof. vm_compute; reflexivity. Qed.

(* ---------------- C42 ---------------- *)
Theorem C42_load_coded h hd lines f : wf h -> header f hd ->
  match mapM (parse_line f) lines with
  | Ok ps => exists h' b cd, load_coded_dictionary h (hd :: lines) = (h', Ok cd) /\ wf h' /\
      dkeys b = distinct (map fst ps) /\
      (forall w e, dget w b = Some e ->
         (length (entries h) <= e < length (entries h'))%nat /\ wd h' e = w /\ pairs h' e = pairs_for w ps) /\
      (forall c w e, lookup2 c w cd = Some e <-> dget w b = Some e /\ carried ps w c)
  | Raise e => exists h', load_coded_dictionary h (hd :: lines) = (h', Raise e)
  end.
Proof. exact (load_coded_spec h hd lines f). Qed.
Print Assumptions C42_load_coded.

Theorem C42_iter_coded h hd lines f : wf h -> header f hd ->
  exists h' o ps, iter_coded_entries h (hd :: lines) =
    (h', (map (fun e => (e, codes_of (sn h' e))) (seq (length (entries h)) (length ps)), o)) /\
    (forall i p, nth_error ps i = Some p -> let e := (length (entries h) + i)%nat in
       (wd h' e, (rd h' e, sn h' e)) = p /\
       forall c, In c (codes_of (sn h' e)) <-> exists s, In s (snd (snd p)) /\ carries s c) /\
    match o with
    | Ok _ => mapM (parse_line f) lines = Ok ps
    | Raise e => exists a x b, lines = a ++ x :: b /\ mapM (parse_line f) a = Ok ps /\ parse_line f x = Raise e
    end.
Proof. exact (iter_coded h hd lines f). Qed.
Print Assumptions C42_iter_coded.

(** an empty stream: the loader ends with StopIteration, the generator cannot *)
Theorem C42_empty h :
  load_coded_dictionary h [] = (h, Raise StopIteration) /\ iter_coded_entries h [] = (h, ([], Raise RuntimeError)).
Proof. exact (conj eq_refl eq_refl). Qed.
Print Assumptions C42_empty.

Example C42_case :
  let '(h, r) := load_coded_dictionary ex_heap
    [u "　？？？？ /EDICT/"; u "生 [なま] /(n) a/b (vs)/"; u "山 [やま] /(n) c/"; u "生 [せい] /(adj,n) d/"] in
  r = Ok [(u "n", [(u "生", 3%nat); (u "山", 4%nat)]); (u "vs", [(u "生", 3%nat)]); (u "adj", [(u "生", 3%nat)])] /\
  pairs h 3 = [(u "なま", u "(n) a"); (u "なま", u "b (vs)"); (u "せい", u "(adj,n) d")].
Proof. vm_compute; repeat split. Qed.
