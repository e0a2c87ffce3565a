(* Float_spec.v -- doubles, nearest doubles, numbers with four decimals *)
From Verif Require Import Base Rose Maps_model Tree_model Tree_spec.

(** the values m * 2^e of at most 53 bits, of any size but no finer than 2^-1074 *)
Definition is_double (x : Z * Z) : Prop :=
  0 < snd x /\ exists m e, 0 <= m <= 2 ^ 53 /\ -1074 <= e /\
    (0 <= e /\ fst x = m * 2 ^ e * snd x \/ e < 0 /\ fst x * 2 ^ (- e) = m * snd x).
(** x is as near to n / d as y *)
Definition as_near (n d : Z) (x y : Z * Z) : Prop :=
  Z.abs (fst x * d - n * snd x) * snd y <= Z.abs (fst y * d - n * snd y) * snd x.
(** m * 2^e with an even m, where m has all the 53 bits there are *)
Definition even_last (x : Z * Z) : Prop :=
  exists m e, (2 ^ 52 <= m <= 2 ^ 53 /\ -1074 <= e \/ 0 <= m <= 2 ^ 53 /\ e = -1074) /\ Z.even m = true /\
    (0 <= e /\ fst x = m * 2 ^ e * snd x \/ e < 0 /\ fst x * 2 ^ (- e) = m * snd x).
(** the same number *)
Definition same (x y : Z * Z) : Prop := fst x * snd y = fst y * snd x.
Definition at_most (x y : Z * Z) : Prop := fst x * snd y <= fst y * snd x.
(** x is the double nearest to n / d, the even one if there are two *)
Definition rounds (n d : Z) (x : Z * Z) : Prop :=
  is_double x /\ (forall y, is_double y -> as_near n d x y) /\
  (forall y, is_double y -> as_near n d y x -> same y x \/ even_last x).

(** k ten-thousandths, written with a point and four decimals: the digits, the
    point left out, are k's *)
Definition writes (s : str) (k : Z) : Prop :=
  exists a b, s = a ++ 46 :: b /\ a <> [] /\ length b = 4%nat /\
    Forall (fun c => 48 <= c <= 57) (a ++ b) /\ fold_left (fun v c => 10 * v + (c - 48)) (a ++ b) 0 = k.
(** no number of ten-thousandths is nearer to a / b than k *)
Definition closest (a b k : Z) : Prop := forall j, Z.abs (k * b - 10000 * a) <= Z.abs (j * b - 10000 * a).
(** k is the number of ten-thousandths nearest to the double x, the even one if there are two *)
Definition decimals (x : Z * Z) (k : Z) : Prop :=
  forall j, Z.abs (k * snd x - 10000 * fst x) <= Z.abs (j * snd x - 10000 * fst x) /\
    (Z.abs (k * snd x - 10000 * fst x) = Z.abs (j * snd x - 10000 * fst x) -> j = k \/ Z.even k = true).
(** counts a float can hold *)
Definition fits (n : Z) : Prop := Z.abs n < 2 ^ 1024 - 2 ^ 970.

(** every part of a tree, and the tree with a text for each part in place of its top *)
Fixpoint parts {A} (t : rose A) : list (rose A) := match t with Rose x ks => Rose x ks :: flat_map parts ks end.
Fixpoint captioned {A B} (f : rose A -> B) (t : rose A) : rose B := match t with Rose x ks => Rose (f (Rose x ks)) (map (captioned f) ks) end.
