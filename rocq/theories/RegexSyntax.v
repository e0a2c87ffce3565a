(* RegexSyntax.v -- the part of Python's regular expression syntax that the
   repository's patterns use, as a syntax tree, the text of a tree, a parser
   and the translation to Regex.re.

   The tree keeps how every character is written (plain, behind a backslash,
   as \uXXXX), so that a pattern has at most one tree; the parser is proved to
   be the inverse of writing a tree down.  Not covered, and rejected by the
   parser: counted repetition {m,n}, possessive and lazy quantifiers other than
   the lazy star, \w \s \b and the other letter escapes, lookahead, negative
   lookbehind, backreferences, inline flags and comments. *)
From Verif Require Import Base PyStr Regex.

(** one character: itself, behind a backslash, four hexadecimal digits after
    \u, or the class \d *)
Inductive ch := Pl (c : Z) | Bs (c : Z) | U4 (a b c d : Z) | Dg.
Inductive item := It (x : ch) | Rng (x y : ch).
Inductive quant := Once | QStar | QLazy | QPlus | QOpt.
Inductive kind := Cap | Named (name : list Z) | NonCap.
Inductive rx := Last (b : br) | Or (b : br) (r : rx)
with br := Nil | Cons (a : atom) (q : quant) (b : br)
with atom :=
| ACh (x : ch) | ADot | ASet (neg : bool) (l : list item) | ABol | AEol
| AGrp (k : kind) (r : rx)
| ABehind (neg : bool) (l : list item).

(* ------------------------------------------------------------------ *)
(** ** The text of a tree *)
Definition show_ch (x : ch) : list Z :=
  match x with
  | Pl c => [c] | Bs c => [92; c] | U4 a b c d => [92; 117; a; b; c; d] | Dg => [92; 100]
  end.
Definition show_item (i : item) : list Z :=
  match i with It x => show_ch x | Rng x y => show_ch x ++ 45 :: show_ch y end.
Definition show_set (neg : bool) (l : list item) : list Z :=
  91 :: (if neg then [94] else []) ++ flat_map show_item l ++ [93].
Definition show_quant (q : quant) : list Z :=
  match q with Once => [] | QStar => [42] | QLazy => [42; 63] | QPlus => [43] | QOpt => [63] end.
Definition show_kind (k : kind) : list Z :=
  match k with Cap => [] | Named n => [63; 80; 60] ++ n ++ [62] | NonCap => [63; 58] end.
Fixpoint show (r : rx) : list Z :=
  match r with Last b => show_br b | Or b r => show_br b ++ 124 :: show r end
with show_br (b : br) : list Z :=
  match b with Nil => [] | Cons a q b => show_atom a ++ show_quant q ++ show_br b end
with show_atom (a : atom) : list Z :=
  match a with
  | ACh x => show_ch x
  | ADot => [46]
  | ASet neg l => show_set neg l
  | ABol => [94]
  | AEol => [36]
  | AGrp k r => 40 :: show_kind k ++ show r ++ [41]
  | ABehind neg l => [40; 63; 60; 61] ++ show_set neg l ++ [41]
  end.

(* ------------------------------------------------------------------ *)
(** ** The trees that stand for patterns *)
Definition between (a b c : Z) : bool := (a <=? c) && (c <=? b).
Definition ascii_alnum (c : Z) : bool := between 48 57 c || between 65 90 c || between 97 122 c.
Definition hexval (c : Z) : option Z :=
  if between 48 57 c then Some (c - 48)
  else if between 97 102 c then Some (c - 87)
  else if between 65 70 c then Some (c - 55) else None.
Definition hex_ok (c : Z) : bool := match hexval c with Some _ => true | None => false end.
(** characters with a meaning of their own: . ^ $ * + ? [ \ | ( ) and { *)
Definition special (c : Z) : bool := mem c [46; 94; 36; 42; 43; 63; 91; 92; 124; 40; 41].
Definition ch_ok (x : ch) : bool :=
  match x with
  | Pl c => negb (special c)
  | Bs c => negb (ascii_alnum c)
  | U4 a b c d => hex_ok a && hex_ok b && hex_ok c && hex_ok d
  | Dg => true
  end.
(** inside brackets *)
Definition cch_ok (x : ch) : bool :=
  match x with
  | Pl c => negb (mem c [92; 93])
  | _ => ch_ok x
  end.
Definition hexnum (a b c d : Z) : Z :=
  let v x := match hexval x with Some n => n | None => 0 end in
  ((v a * 16 + v b) * 16 + v c) * 16 + v d.
(** the character meant, for a range *)
Definition ch_code (x : ch) : option Z :=
  match x with Pl c | Bs c => Some c | U4 a b c d => Some (hexnum a b c d) | Dg => None end.
Definition range_ok (x y : ch) : bool :=
  match ch_code x, ch_code y with Some a, Some b => a <=? b | _, _ => false end.
Definition is_pl (c : Z) (x : ch) : bool := match x with Pl d => d =? c | _ => false end.
(** an unescaped - is a member of a class at its end only *)
Fixpoint items_ok (l : list item) : bool :=
  match l with
  | [] => true
  | It x :: r => cch_ok x && (negb (is_pl 45 x) || match r with [] => true | _ => false end) && items_ok r
  | Rng x y :: r => cch_ok x && negb (is_pl 45 x) && cch_ok y && negb (is_pl 45 y) && range_ok x y && items_ok r
  end.
Definition first_ch (i : item) : ch := match i with It x => x | Rng x _ => x end.
Definition set_ok (neg : bool) (l : list item) : bool :=
  items_ok l && match l with [] => false | i :: _ => neg || negb (is_pl 94 (first_ch i)) end.
Definition name_char (c : Z) : bool := ascii_alnum c || (c =? 95).
Definition name_ok (n : list Z) : bool :=
  forallb name_char n && match n with [] => false | c :: _ => negb (between 48 57 c) end.
Definition kind_ok (k : kind) : bool := match k with Named n => name_ok n | _ => true end.
Definition once (q : quant) : bool := match q with Once => true | _ => false end.
(** ^, $ and lookbehind are not repeated *)
Definition repeats (a : atom) : bool := match a with ABol | AEol | ABehind _ _ => false | _ => true end.
(** a plain { stands for itself unless it might start a counted repetition *)
Definition brace_ok (a : atom) (next : list Z) : bool :=
  match a with
  | ACh (Pl 123) => match next with c :: _ => negb (between 48 57 c || (c =? 44)) | [] => true end
  | _ => true
  end.
Fixpoint ok (r : rx) : bool :=
  match r with Last b => ok_br b | Or b r => ok_br b && ok r end
with ok_br (b : br) : bool :=
  match b with
  | Nil => true
  | Cons a q b => ok_atom a && (once q || repeats a) && brace_ok a (show_quant q ++ show_br b) && ok_br b
  end
with ok_atom (a : atom) : bool :=
  match a with
  | ACh x => ch_ok x
  | ASet neg l | ABehind neg l => set_ok neg l
  | AGrp k r => kind_ok k && ok r
  | _ => true
  end.

(* ------------------------------------------------------------------ *)
(** ** The parser *)
(** after a backslash *)
Definition p_escape (s : list Z) : option (ch * list Z) :=
  match s with
  | c :: q =>
      if c =? 100 then Some (Dg, q)
      else if c =? 117 then
        match q with
        | a :: b :: c :: d :: q' => if ch_ok (U4 a b c d) then Some (U4 a b c d, q') else None
        | _ => None
        end
      else if ascii_alnum c then None else Some (Bs c, q)
  | [] => None
  end.
(** one member of a class *)
Definition p_cch (s : list Z) : option (ch * list Z) :=
  match s with
  | c :: q => if c =? 92 then p_escape q else if c =? 93 then None else Some (Pl c, q)
  | [] => None
  end.
Fixpoint p_items (n : nat) (s : list Z) : option (list item * list Z) :=
  match n with
  | O => None
  | S n =>
      match s with
      | [] => None
      | c :: q =>
          if c =? 93 then Some ([], q)
          else match p_cch s with
               | None => None
               | Some (x, 45 :: 93 :: q') => if is_pl 45 x then None else Some ([It x; It (Pl 45)], q')
               | Some (x, 45 :: q') =>
                   match p_cch q' with
                   | Some (y, q'') =>
                       if is_pl 45 x || is_pl 45 y || negb (range_ok x y) then None
                       else match p_items n q'' with Some (l, t) => Some (Rng x y :: l, t) | None => None end
                   | None => None
                   end
               | Some (x, q') =>
                   match p_items n q' with
                   | Some (l, t) => if is_pl 45 x && negb (match l with [] => true | _ => false end) then None else Some (It x :: l, t)
                   | None => None
                   end
               end
      end
  end.
(** after the opening bracket *)
Definition p_set (s : list Z) : option (bool * list item * list Z) :=
  let '(neg, s) := match s with 94 :: q => (true, q) | _ => (false, s) end in
  match p_items (S (length s)) s with
  | Some ([], _) => None
  | Some (l, t) => Some (neg, l, t)
  | None => None
  end.
Definition p_quant (s : list Z) : quant * list Z :=
  match s with
  | 42 :: 63 :: q => (QLazy, q)
  | 42 :: q => (QStar, q)
  | 43 :: q => (QPlus, q)
  | 63 :: q => (QOpt, q)
  | _ => (Once, s)
  end.
Fixpoint p_name (s : list Z) : option (list Z * list Z) :=
  match s with
  | [] => None
  | c :: q =>
      if c =? 62 then Some ([], q)
      else if name_char c then match p_name q with Some (n, t) => Some (c :: n, t) | None => None end
      else None
  end.
(** after the opening parenthesis: what kind of group, None for a lookbehind *)
Definition p_kind (s : list Z) : option (option kind * list Z) :=
  match s with
  | 63 :: 58 :: q => Some (Some NonCap, q)
  | 63 :: 80 :: 60 :: q => match p_name q with Some (n, t) => if name_ok n then Some (Some (Named n), t) else None | None => None end
  | 63 :: 60 :: 61 :: q => Some (None, q)
  | 63 :: _ => None
  | _ => Some (Some Cap, s)
  end.
Definition ends (c : Z) : bool := (c =? 124) || (c =? 41).
Fixpoint p_rx (n : nat) (s : list Z) : option (rx * list Z) :=
  match n with
  | O => None
  | S n =>
      match p_br n s with
      | Some (b, c :: q) =>
          if c =? 124 then match p_rx n q with Some (r, t) => Some (Or b r, t) | None => None end
          else Some (Last b, c :: q)
      | Some (b, []) => Some (Last b, [])
      | None => None
      end
  end
with p_br (n : nat) (s : list Z) : option (br * list Z) :=
  match n with
  | O => None
  | S n =>
      match s with
      | [] => Some (Nil, [])
      | c :: _ =>
          if ends c then Some (Nil, s)
          else match p_atom n s with
               | Some (a, t) =>
                   let '(q, t') := p_quant t in
                   if (once q || repeats a) && brace_ok a t then
                     match p_br n t' with Some (b, t'') => Some (Cons a q b, t'') | None => None end
                   else None
               | None => None
               end
      end
  end
with p_atom (n : nat) (s : list Z) : option (atom * list Z) :=
  match n with
  | O => None
  | S n =>
      match s with
      | [] => None
      | c :: q =>
          if c =? 46 then Some (ADot, q)
          else if c =? 94 then Some (ABol, q)
          else if c =? 36 then Some (AEol, q)
          else if c =? 92 then match p_escape q with Some (x, t) => Some (ACh x, t) | None => None end
          else if c =? 91 then match p_set q with Some (neg, l, t) => if set_ok neg l then Some (ASet neg l, t) else None | None => None end
          else if c =? 40 then
            match p_kind q with
            | Some (Some k, t) =>
                match p_rx n t with
                | Some (r, 41 :: t') => Some (AGrp k r, t')
                | _ => None
                end
            | Some (None, 91 :: t) =>
                match p_set t with
                | Some (neg, l, 41 :: t') => if set_ok neg l then Some (ABehind neg l, t') else None
                | _ => None
                end
            | _ => None
            end
          else if special c then None
          else Some (ACh (Pl c), q)
      end
  end.
Definition parse (s : list Z) : option rx :=
  match p_rx (3 * length s + 3) s with Some (r, []) => Some r | _ => None end.

(* ------------------------------------------------------------------ *)
(** ** What a tree means.  [isd] tells the characters matched by \d, [number]
    the key under which the group of that number is kept. *)
Section Compile.
  Variable isd : Z -> bool.
  Variable number : nat -> list Z.

  Definition ch_is (x : ch) (c : Z) : bool :=
    match x with Pl d | Bs d => c =? d | U4 a b d e => c =? hexnum a b d e | Dg => isd c end.
  Definition item_has (i : item) (c : Z) : bool :=
    match i with
    | It x => ch_is x c
    | Rng x y => match ch_code x, ch_code y with Some a, Some b => between a b c | _, _ => false end
    end.
  Definition set_has (neg : bool) (l : list item) (c : Z) : bool := xorb neg (existsb (fun i => item_has i c) l).
  Definition repeat_ (q : quant) (r : re) : re :=
    match q with Once => r | QStar => Star r | QLazy => Lazy r | QPlus => Plus r | QOpt => Opt r end.
  (** groups are numbered from left to right by their opening parenthesis *)
  Fixpoint c_rx (n : nat) (r : rx) : re * nat :=
    match r with
    | Last b => c_br n b
    | Or b r => let '(x, n) := c_br n b in let '(y, n) := c_rx n r in (Alt x y, n)
    end
  with c_br (n : nat) (b : br) : re * nat :=
    match b with
    | Nil => (Eps, n)
    | Cons a q b => let '(x, n) := c_atom n a in let '(y, n) := c_br n b in (Seq (repeat_ q x) y, n)
    end
  with c_atom (n : nat) (a : atom) : re * nat :=
    match a with
    | ACh x => (Chr (ch_is x), n)
    | ADot => (Chr dot, n)
    | ASet neg l => (Chr (set_has neg l), n)
    | ABol => (Bol, n)
    | AEol => (Eol, n)
    | AGrp NonCap r => c_rx n r
    | AGrp Cap r => let '(x, m) := c_rx (S n) r in (Grp (number (S n)) x, m)
    | AGrp (Named name) r => let '(x, m) := c_rx (S n) r in (Grp name x, m)
    | ABehind neg l => (Behind (set_has neg l), n)
    end.
  Definition compile (r : rx) : re := fst (c_rx 0 r).
End Compile.
