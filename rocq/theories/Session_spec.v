(* Session_spec.v -- texts in the data pack, and who asks for what *)
From Verif Require Import Base Misc_spec Encoding_spec Session_model.

(** the pack found now has this text under this name, in UTF-8 *)
Definition pack_text (own_dir : option str) (user_dir : str -> option str) (s : session) (name t : str) : Prop :=
  exists dir f, base own_dir user_dir s = Ok dir /\ inside dir name f /\ disk s f = Some (encoded t) /\ Forall scalar t.
(** ... or nothing under this name *)
Definition pack_lacks (own_dir : option str) (user_dir : str -> option str) (s : session) (name : str) : Prop :=
  exists dir f, base own_dir user_dir s = Ok dir /\ inside dir name f /\ disk s f = None.
(** calls that need the segmenter of the module *)
Definition asks (o : event) : Prop := o = Call GetSegmenter \/ o = Call NewTable \/ o = Call GetTable.
(** nothing but calls: the environment and the files stay as they are *)
Definition is_call (o : event) : Prop := exists c, o = Call c.
(** a program that has just started *)
Definition started (s : session) : Prop := seg s = None /\ tab s = None /\ kdic s = None /\ rdic s = None.

(** the latest word on a variable, a directory, a file; calls say nothing about them *)
Definition latest {A} (says : event -> option A) (l : list event) (before : A) : A :=
  fold_left (fun a o => match says o with Some x => x | None => a end) l before.
Definition says_variable (k : str) (o : event) : option (option str) :=
  match o with
  | SetEnv k' v => if eqb k k' then Some (Some v) else None
  | DelEnv k' => if eqb k k' then Some None else None
  | _ => None
  end.
Definition says_directory (d : str) (o : event) : option bool :=
  match o with
  | MakeDir d' => if eqb d d' then Some true else None
  | RemoveDir d' => if eqb d d' then Some false else None
  | _ => None
  end.
Definition says_file (n : str) (o : event) : option (option (list Z)) :=
  match o with
  | Write n' b => if eqb n n' then Some (Some b) else None
  | Remove n' => if eqb n n' then Some None else None
  | _ => None
  end.
(** every variable and every file has one value *)
Definition orderly (s : session) : Prop := NoDup (dkeys (environ s)) /\ NoDup (dkeys (files s)).
