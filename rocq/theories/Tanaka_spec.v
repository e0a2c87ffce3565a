(* Tanaka_spec.v -- how words and sentences are written *)
From Verif Require Import Base PyText Tanaka_model.

(** digits as in Unicode: ASCII ones as usual, no space is a digit *)
Definition unicode_digits (dv : Z -> option Z) : Prop := ascii_digits dv /\ forall c, is_space c = true -> dv c = None.

Definition no_delim (s : str) : Prop := Forall (fun c => ~ In c (u "([{|~")) s.
(** an optional part between two characters *)
Inductive part (o c : char) : str -> option str -> Prop :=
| Part_none : part o c [] None
| Part_some s : s <> [] -> ~ In c s -> part o c (o :: s ++ [c]) (Some s).
(** a run of decimal digits and its value *)
Definition digit (dv : Z -> option Z) (c : char) : Prop := exists d, dv c = Some d.
Definition digits (dv : Z -> option Z) (s : str) : Prop := s <> [] /\ Forall (digit dv) s.
Fixpoint value (dv : Z -> option Z) (acc : Z) (s : str) : Z :=
  match s with [] => acc | c :: r => value dv (acc * 10 + match dv c with Some d => d | None => 0 end) r end.
Inductive legacy (dv : Z -> option Z) : str -> Prop :=
| Legacy_none : legacy dv []
| Legacy_some s : digits dv s -> legacy dv (u1 "|" :: s).
Inductive number (dv : Z -> option Z) : str -> option Z -> Prop :=
| Number_none : number dv [] None
| Number_some s : digits dv s -> number dv (u1 "[" :: s ++ u "]") (Some (value dv 0 s)).
Inductive written (dv : Z -> option Z) : str -> word -> Prop :=
| Written h r tr l s ts d td (e : bool) n : h <> [] -> no_delim h -> part (u1 "(") (u1 ")") tr r -> legacy dv l -> number dv ts s ->
    part (u1 "{") (u1 "}") td d ->
    (n = [] \/ n = [10] /\ tr ++ l ++ ts ++ td ++ (if e then u "~" else []) <> []) ->
    written dv (h ++ tr ++ l ++ ts ++ td ++ (if e then u "~" else []) ++ n)
      {| headword := h; reading := r; sense := s; display := d; example := e |}.
(** words that can be written and read back *)
Definition fine_part (c : char) (o : option str) : Prop := match o with Some s => s <> [] /\ ~ In c s | None => True end.
Definition well_formed (w : word) : Prop :=
  headword w <> [] /\ no_delim (headword w) /\ fine_part (u1 ")") (reading w) /\ fine_part (u1 "}") (display w) /\
  (match sense w with Some n => 1 <= n | None => True end).

(** the pieces between spaces *)
Definition spaces (s : str) : Prop := Forall (fun c => c = u1 " ") s.
Inductive pieces : str -> list str -> Prop :=
| Pieces_nil g : spaces g -> pieces g []
| Pieces_cons g w s ws : spaces g -> w <> [] -> ~ In (u1 " ") w -> (match s with c :: _ => c = u1 " " | [] => True end) ->
    pieces s ws -> pieces (g ++ w ++ s) (w :: ws).
Definition no_space (w : word) : Prop :=
  ~ In (u1 " ") (headword w) /\ (forall r, reading w = Some r -> ~ In (u1 " ") r) /\ (forall d, display w = Some d -> ~ In (u1 " ") d).

(** equal words *)
Definition shown (w : word) : str := match display w with Some d => d | None => headword w end.
Definition same_word (a b : word) : Prop :=
  headword a = headword b /\ reading a = reading b /\ sense a = sense b /\ example a = example b /\ shown a = shown b.

(** the reading looked up for a word without one *)
Inductive chosen (readings : list str) : option Z -> option str -> Prop :=
| Chosen_sense k r : 1 <= k <= Z.of_nat (length readings) -> nth_error readings (Z.to_nat (k - 1)) = Some r -> chosen readings (Some k) (Some r)
| Chosen_backwards k r : k <= 0 -> 0 <= k - 1 + Z.of_nat (length readings) ->
    nth_error readings (Z.to_nat (k - 1 + Z.of_nat (length readings))) = Some r -> chosen readings (Some k) (Some r)
| Chosen_only s r : (match s with Some k => Z.of_nat (length readings) < k | None => True end) ->
    readings <> [] -> Forall (fun x => x = r) readings -> chosen readings s (Some r)
| Chosen_none s : (match s with Some k => Z.of_nat (length readings) < k | None => True end) ->
    (readings = [] \/ exists a b, In a readings /\ In b readings /\ a <> b) -> chosen readings s None.
Definition with_reading (w : word) (r : str) : word :=
  {| headword := headword w; reading := Some r; sense := sense w; display := display w; example := example w |}.
(** at most a missing reading is filled in *)
Inductive filled (edict : dict str (list str)) (w : word) : word -> Prop :=
| Filled_same : filled edict w w
| Filled_in rs r : reading w = None -> dget (headword w) edict = Some rs -> In r rs -> r <> headword w -> filled edict w (with_reading w r).
