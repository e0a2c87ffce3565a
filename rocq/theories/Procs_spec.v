(* Procs_spec.v -- what may be relied on when processes share a cache file *)
From Verif Require Import Base PyStr Common_model SmartCache_model SmartCache_spec Procs_model.

(** a buffered writer: everything is handed over in order, in non-empty
    pieces, and in one piece if it fits in the buffer *)
Record buffered (bufsize : nat) (cut : list Z -> list (list Z)) : Prop := {
  b_concat : forall b, concat (cut b) = b;
  b_nonempty : forall b c, In c (cut b) -> c <> [];
  b_small : forall b, b <> [] -> (length b <= bufsize)%nat -> cut b = [b]
}.

(** the method's outcome depends on its arguments up to [==] only *)
Definition respects {O} (oeq : O -> O -> bool) (method : O -> O -> res O) : Prop :=
  forall a a' p p', oeq a a' = true -> oeq p p' = true -> res_eq oeq (method a p) (method a' p').

(** the complete contents of a cache file holding the method's value for one of
    the calls *)
Definition right_bytes {O} (dump : O -> list Z * option exn) (method : O -> O -> res O) (calls : list (O * O)) (D : list Z) : Prop :=
  exists a p v, In (a, p) calls /\ method a p = Ok v /\ dump3 dump a p v = (D, None).

(** no process writes after another one has opened the file for writing;
    [owner] is the last one that opened it *)
Definition is_writing {O} (q : option (proc O)) : bool := match q with Some (Writing _ _ _ _ _ _) => true | _ => false end.
Fixpoint exclusive {O} (step : fs * list (proc O) -> nat * Z -> fs * list (proc O))
  (owner : option nat) (s : fs * list (proc O)) (schedule : list (nat * Z)) : Prop :=
  match schedule with
  | [] => True
  | e :: r =>
      let before := nth_error (snd s) (fst e) in
      let after := nth_error (snd (step s e)) (fst e) in
      (match before with Some (Writing _ _ _ _ (_ :: _) _) => owner = Some (fst e) | _ => True end) /\
      exclusive step (if negb (is_writing before) && is_writing after then Some (fst e) else owner) (step s e) r
  end.

(** how often the scheduler picks process [i] *)
Definition turns (i : nat) (schedule : list (nat * Z)) : nat := length (filter (fun e => Nat.eqb (fst e) i) schedule).
