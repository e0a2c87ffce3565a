(* Command_spec.v -- what a command line of load_as_rst.py says *)
From Verif Require Import Base Command_model.

(** p is the beginning of s *)
Definition begins (p s : str) : Prop := exists t, s = p ++ t.
(** a name of the option: -o, or --output or an abbreviation of it *)
Definition long (full p : str) : Prop := begins p full /\ (2 < length p)%nat.
Definition output_name (p : str) : Prop := p = u "-o" \/ long (u "--output") p.

Section Words.
  Variable digit : Z -> bool.
  Definition all_digits (s : str) : Prop := s <> [] /\ forall c, In c s -> digit c = true.
  (** -12, -1.5, -.5, possibly with a newline after it *)
  Definition negative_number (s : str) : Prop :=
    exists d t, s = [45] ++ d ++ t /\ (t = [] \/ t = [10]) /\
      (all_digits d \/ exists a b, d = a ++ [46] ++ b /\ (forall c, In c a -> digit c = true) /\ all_digits b).
  (** looks like one of the options *)
  Definition optionlike (s : str) : Prop :=
    begins (u "-h") s \/ begins (u "-o") s \/
    exists p t, begins (u "--") p /\ (begins p (u "--help") \/ begins p (u "--output")) /\ s = p ++ t /\ (t = [] \/ begins (u "=") t).
  (** a word: no dash in front, or only a dash, or a negative number, or
      something with a space that no option looks like *)
  Definition word (s : str) : Prop :=
    s = [] \/ (exists c r, s = c :: r /\ c <> 45) \/ s = u "-" \/
    (begins (u "-") s /\ ~ optionlike s /\ (negative_number s \/ In 32 s)).

  (** the ways to say the output *)
  Inductive gives : list str -> str -> Prop :=
  | g_next n v : output_name n -> word v -> gives [n; v] v
  | g_attached v : v <> [] -> ~ begins (u "=") v -> gives [u "-o" ++ v] v
  | g_equal n v : output_name n -> gives [n ++ u "=" ++ v] v.
  (** a command line: outputs, in any place one input, and -- before or after an
      input that is last *)
  Inductive reads : list str -> option str -> list str -> Prop :=
  | r_end : reads [] None []
  | r_output ws v args i os : gives ws v -> reads args i os -> reads (ws ++ args) i (v :: os)
  | r_input i args os : word i -> reads args None os -> reads (i :: args) (Some i) os
  | r_dashes_input i : reads [u "--"; i] (Some i) []
  | r_input_dashes i : word i -> reads [i; u "--"] (Some i) [].
  (** the last output counts; two dashes could not be one before 3.11.10 *)
  Definition the_output (late : bool) (os : list str) : option value :=
    match rev os with [] => None | v :: _ => Some (if negb late && eqb v (u "--") then EmptyList else Text v) end.
  Definition asks_help (s : str) : Prop := begins (u "-h") s \/ long (u "--help") s.
End Words.
