(* Objects_props.v -- C85 and C87 again: no attributes that others add help *)
From Verif Require Import Base PyText Objects_model Objects_spec Objects_proofs.

(** C85: whatever the two objects and their classes hold, with or without python -O,
    combine does not return: it ends before anything that follows line 320 *)
Theorem C85_combine_objects_refuted {V R} getattr (text : str -> V) show same call (optimized : bool) self rhs label (rest : V -> res R) :
  text_lacks getattr text (u "copy") -> exists e, combine_objects V getattr text show same call optimized self rhs label rest = Raise e.
Proof.
  intros T; unfold combine_objects.
  match goal with |- context [bind (if optimized then _ else ?X) _] => destruct (if optimized then Ok tt else X) as [x|e] end; cbn [bind]; [|eexists; reflexivity].
  destruct (attribute V self (u "label")) as [a|e]; cbn [bind]; [|eexists; reflexivity].
  destruct (attribute V rhs (u "label")) as [b|e]; cbn [bind]; [|eexists; reflexivity].
  destruct (show a) as [s|e]; cbn [bind]; [|eexists; reflexivity].
  destruct (show b) as [t|e]; cbn [bind]; [|eexists; reflexivity].
  unfold new_dist; rewrite T; eexists; reflexivity.
Qed.
Print Assumptions C85_combine_objects_refuted.
(** distributions as they are made, with whatever attributes were set but [tree] and
    [label]: the error is that there is no such attribute *)
Theorem C85_combine_missing {V R} getattr (text : str -> V) show same call (optimized : bool) self rhs label (rest : V -> res R) l :
  lacks (own V self) (if optimized then u "label" else u "tree") -> lacks (of_class V self) (if optimized then u "label" else u "tree") ->
  lacks l (if optimized then u "label" else u "tree") ->
  combine_objects V getattr text show same call optimized (set_all V None self l) rhs label rest = Raise AttributeError.
Proof.
  intros A B N; assert (L : attribute V (set_all V None self l) (if optimized then u "label" else u "tree") = Raise AttributeError).
  { apply attribute_lacks; [|rewrite set_all_class; exact B]; apply set_all_lacks; [discriminate|intros _; exact N|exact A]. }
  unfold combine_objects; destruct optimized; cbn [bind]; rewrite L; reflexivity.
Qed.
Print Assumptions C85_combine_missing.
(** and where [tree] and [label] were set on both, and the labels agree, the text
    made the root has no [copy] *)
Theorem C85_combine_given {V R} getattr (text : str -> V) show same call (optimized : bool) self rhs label (rest : V -> res R) a b x y s t c d :
  text_lacks getattr text (u "copy") ->
  attribute V self (u "tree") = Ok a -> getattr a (u "label") = Ok x -> attribute V rhs (u "tree") = Ok b -> getattr b (u "label") = Ok y ->
  attribute V self (u "label") = Ok c -> show c = Ok s -> attribute V rhs (u "label") = Ok d -> show d = Ok t ->
  combine_objects V getattr text show same call optimized self rhs label rest =
  match (if optimized then Ok true else same x y) with Ok true => Raise AttributeError | Ok false => Raise AssertionError | Raise e => Raise e end.
Proof.
  intros T A X B Y C S D U; unfold combine_objects, new_dist; rewrite A, B, C, D; cbn [bind]; rewrite X, Y, S, U; cbn [bind]; rewrite T.
  destruct optimized; cbn [bind]; [reflexivity|]; destruct (same x y) as [[|]|e]; reflexivity.
Qed.
Print Assumptions C85_combine_given.

(** C87: whatever an entry and its class hold, it has no hash *)
Theorem C87_hash_objects_refuted {V} tuple hash (o : object V) : exists e, hash_object V tuple hash o = Raise e.
Proof.
  unfold hash_object; destruct (attribute V o (u "name")) as [n|e]; cbn [bind]; [|eexists; reflexivity].
  destruct (attribute V o (u "readings")) as [r|e]; cbn [bind]; [|eexists; reflexivity].
  destruct (tuple r) as [r'|e]; cbn [bind]; [|eexists; reflexivity].
  destruct (attribute V o (u "senses")) as [s|e]; cbn [bind]; [|eexists; reflexivity].
  destruct (tuple s) as [s'|e]; cbn [bind]; eexists; reflexivity.
Qed.
Print Assumptions C87_hash_objects_refuted.
(** nothing set on an entry gives it a name: the slots do not let it *)
Theorem C87_no_name {V} tuple hash cls (w r s : V) l : lacks cls (u "name") ->
  hash_object V tuple hash (set_all V (Some entry_slots) (new_entry V cls w r s) l) = Raise AttributeError.
Proof.
  intros N; unfold hash_object; rewrite attribute_lacks; [reflexivity| |rewrite set_all_class; exact N].
  apply set_all_lacks; [intros z [= <-]; vm_compute; intuition discriminate|discriminate|].
  intros v I; vm_compute in I; intuition discriminate.
Qed.
Print Assumptions C87_no_name.
(** with a name from a class below, it is the number of arguments that is wrong *)
Theorem C87_named {V} tuple hash (o : object V) n r s r' s' : attribute V o (u "name") = Ok n ->
  attribute V o (u "readings") = Ok r -> tuple r = Ok r' -> attribute V o (u "senses") = Ok s -> tuple s = Ok s' ->
  hash_object V tuple hash o = Raise TypeError.
Proof. intros N R R' S S'; unfold hash_object; rewrite N, R; cbn [bind]; rewrite R'; cbn [bind]; rewrite S; cbn [bind]; rewrite S'; reflexivity. Qed.
Print Assumptions C87_named.

(** values that are texts, lists of texts, or nodes with a label *)
Inductive pv := PText (s : str) | PList (l : list str) | PNode (label : str).
Definition pget (v : pv) (name : str) : res pv :=
  match v with PNode l => if eqb name (u "label") then Ok (PText l) else if eqb name (u "copy") then Ok v else Raise AttributeError | _ => Raise AttributeError end.
Definition pshow (v : pv) : res str := match v with PText s => Ok s | PNode l => Ok l | PList _ => Ok (u "[]") end.
Definition psame (a b : pv) : res bool := match a, b with PText s, PText t => Ok (eqb s t) | _, _ => Ok false end.
Definition ptuple (a : pv) : res pv := match a with PNode _ => Raise TypeError | _ => Ok a end.
Definition phash (a : pv) : res Z := match a with PList _ => Raise TypeError | _ => Ok 0 end.
Definition pdist (l : list (str * pv)) : object pv := set_all pv None (mkobject pv [(u "union", PText (u "m"))] [(u "root", PNode (u "a"))]) l.
Example C85_case : text_lacks pget PText (u "copy") /\
  let run o a b := combine_objects pv pget PText pshow psame Ok o a b (u "union") (fun v => Ok v) in
  let given l := pdist [(u "tree", PNode l); (u "label", PText (u "x"))] in
  run false (pdist []) (pdist []) = Raise AttributeError /\ run true (pdist [(u "tree", PNode (u "a"))]) (pdist []) = Raise AttributeError /\
  run false (given (u "a")) (given (u "b")) = Raise AssertionError /\ run false (given (u "a")) (given (u "a")) = Raise AttributeError /\
  run true (given (u "a")) (given (u "b")) = Raise AttributeError.
Proof. split; [intros s; reflexivity|]; vm_compute; repeat split. Qed.
(** a hash of one argument there would be *)
Example C87_case : let e cls l := set_all pv (Some entry_slots) (new_entry pv cls (PText (u "犬")) (PList [u "いぬ"]) (PList [u "dog"])) l in
  let run cls l := hash_object pv ptuple phash (e cls l) in
  run [] [(u "name", PText (u "犬")); (u "word", PText (u "猫"))] = Raise AttributeError /\
  attribute pv (e [] [(u "name", PText (u "犬")); (u "word", PText (u "猫"))]) (u "word") = Ok (PText (u "猫")) /\
  run [(u "name", PText (u "犬"))] [] = Raise TypeError /\ builtin1 pv phash [PText (u "犬")] = Ok 0.
Proof. vm_compute; repeat split. Qed.
