(* Interrupt_spec.v -- interrupted calls, independently of the proxies *)
From Verif Require Import Base PyStr Common_model SmartCache_model SmartCache_spec Interrupt_model.

(** the points passed between two worlds *)
Definition since {W} (w w' : @world W) : list (nat * option exn) := skipn (length (passed w)) (passed w').
(** the exceptions that struck there, with their lines *)
Definition struck (new : list (nat * option exn)) : list (nat * exn) :=
  flat_map (fun x => match snd x with Some e => [(fst x, e)] | None => [] end) new.
(** the lines where the cache file is read, inside the try block *)
Definition reading (line : nat) : bool := ((116 <=? line) && (line <=? 122))%nat.
(** the last exception that struck anywhere else *)
Definition last_strike (new : list (nat * option exn)) : option exn :=
  match rev (filter (fun x => negb (reading (fst x))) (struck new)) with [] => None | (_, e) :: _ => Some e end.
(** the streams open are numbered below those still to be made *)
Definition sound {W} (w : @world W) : Prop := NoDup (dkeys (open w)) /\ Forall (fun h => (h < made w)%nat) (dkeys (open w)).
(** no exception from outside *)
Definition quiet (strike : nat -> option (exn * nat)) : Prop := forall n, strike n = None.
(** the method struck leaves the files alone *)
Definition leaves_files {O W} (halted : exn -> W * fs -> O -> O -> W * fs) : Prop := forall e w a p, snd (halted e w a p) = snd w.
(** [b] is a beginning of the three pickles of a store *)
Definition begins {O} (dump : O -> list Z * option exn) (b : list Z) (a p v : O) : Prop :=
  exists t, fst (dump3 dump a p v) = b ++ t.
(** the exceptions that may strike in a call of memory_proxy *)
Definition strikes_of (x : strikes) : list exn :=
  flat_map (fun o => match o with Some e => [e] | None => [] end) [at_key x; in_method x; before_insert x; after_insert x].
(** the answer to a call of a method that computes [r], struck by [es] *)
Definition answers {V} (r : res V) (es : list exn) (out : res V) : Prop :=
  (es = [] -> out = r) /\ (forall v, out = Ok v -> r = Ok v) /\ (forall e, out = Raise e -> r = Raise e \/ In e es).
