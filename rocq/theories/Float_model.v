(* Float_model.v -- the frequencies of a tree distribution as the numbers
   Python computes: IEEE 754 binary64, rounding to nearest, ties to even
   (/repo/cjktools/resources/tree.py:300-302), and as the text '%.04f' gives
   (tree.py:313).  A non-negative rational is a pair of numerator and
   denominator; signs are handled at the end. *)
From Verif Require Import Base PyText PyFmt Maps_model Tree_model.

(** n / d to the nearest integer, ties to even *)
Definition rne (n d : Z) : Z :=
  let q := n / d in
  let r := n mod d in
  if 2 * r <? d then q else if d <? 2 * r then q + 1 else if Z.even q then q else q + 1.
(** 2^e is [down e / up e] *)
Definition up (e : Z) : Z := 2 ^ Z.max 0 (- e).
Definition down (e : Z) : Z := 2 ^ Z.max 0 e.
(** the exponent of the double nearest to n / d: 53 bits, but no less than -1074 *)
Definition exponent (n d : Z) : Z :=
  let e := Z.log2 n - Z.log2 d - 52 in
  Z.max (-1074) (if n * up e <? 2 ^ 52 * (d * down e) then e - 1 else e).
(** the double nearest to n / d, were there no largest one *)
Definition nearest (n d : Z) : Z * Z :=
  if n =? 0 then (0, 1)
  else let e := exponent n d in (rne (n * up e) (d * down e) * down e, up e).
(* tree.py:300  float(n), of an integer's magnitude; None for OverflowError *)
Definition float_of (n : Z) : option (Z * Z) :=
  let x := nearest n 1 in
  if 2 ^ 1024 * snd x <=? fst x then None else Some x.

(** the four decimals *)
Definition four (r : Z) : str := [48 + r / 1000; 48 + r / 100 mod 10; 48 + r / 10 mod 10; 48 + r mod 10].
(* tree.py:313  '%.04f': the exact value of the double to the nearest
   ten-thousandth, ties to even *)
Definition fixed4 (negative : bool) (x : Z * Z) : str :=
  let k := rne (10000 * fst x) (snd x) in
  (if negative then u "-" else []) ++ dec (k / 10000) ++ u "." ++ four (k mod 10000).
(* tree.py:300-302, 313  '%.04f' % (a / float(b)): both operands become floats;
   the quotient of two floats is too large only when divided by a float below
   one, and float(b) is at least one *)
Definition shown (a b : Z) : option str :=
  match float_of (Z.abs a), float_of (Z.abs b) with
  | Some (an, ad), Some (bn, bd) => Some (fixed4 (xorb (a <? 0) (b <? 0)) (nearest (an * bd) (ad * bn)))
  | _, _ => None
  end.
(* tree.py:313  '%.04f' of what a node holds: an integer is made a float first *)
Definition fixed_value (v : value) : res str :=
  match v with
  | VQuot a b => of_option OverflowError (shown a b)
  | VNum a => of_option OverflowError (shown a 1)
  | VNone | VOther _ => Raise TypeError
  end.
