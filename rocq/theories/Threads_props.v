(* Threads_props.v -- property C111: threads sharing a memory_proxy *)
From Verif Require Import Base SmartCache_model SmartCache_spec SmartCache_proofs Threads_model Threads_spec Threads_proofs.

(** ** C111.  Any number of threads, any interleaving.  For a deterministic
    method every call that ends has the method's own outcome. *)
Theorem C111_transparent : forall (O V S : Type) oeq hashable (method : S -> list O * list (str * O) -> S * res V),
  equivalence oeq -> forall g, (forall s k, snd (method s k) = g k) -> (forall k k', key_eq oeq k k' = true -> g k = g k') ->
  forall calls s schedule i k r,
  nth_error (snd (trun oeq hashable (recorded method) (s, [], [], map (fun k => AtTest k) calls) schedule)) i = Some (Finished k r) ->
  nth_error calls i = Some k /\ r = if key_hashable hashable k then g k else Raise TypeError.
Proof. intros O V S oeq h m E; exact (transparent oeq h m E). Qed.
Print Assumptions C111_transparent.

(** for any method: every outcome is that of an invocation on an equal key *)
Theorem C111_outcomes : forall (O V S : Type) oeq hashable (method : S -> list O * list (str * O) -> S * res V),
  equivalence oeq -> forall calls s schedule s' log d ts i k r,
  trun oeq hashable (recorded method) (s, [], [], map (fun k => AtTest k) calls) schedule = (s', log, d, ts) ->
  nth_error ts i = Some (Finished k r) -> nth_error calls i = Some k /\
  ((key_hashable hashable k = false /\ r = Raise TypeError) \/
   (key_hashable hashable k = true /\ exists k', In (k', r) log /\ key_eq oeq k k' = true)).
Proof. intros O V S oeq h m E; exact (outcomes oeq h m E). Qed.
Print Assumptions C111_outcomes.

(** a call that starts after an equal one has returned never invokes the method *)
Theorem C111_later_calls : forall (O V S : Type) oeq hashable (method : S -> list O * list (str * O) -> S * res V),
  equivalence oeq -> forall calls s before after s1 log d ts i j ki kj v,
  trun oeq hashable (recorded method) (s, [], [], map (fun k => AtTest k) calls) before = (s1, log, d, ts) ->
  nth_error ts i = Some (Finished ki (Ok v)) -> nth_error ts j = Some (AtTest kj) -> key_eq oeq kj ki = true ->
  key_hashable hashable kj = true ->
  exists t, nth_error (snd (trun oeq hashable (recorded method) (s1, log, d, ts) after)) j = Some t /\ served kj t.
Proof. intros O V S oeq h m E; exact (later_served oeq h m E). Qed.
Print Assumptions C111_later_calls.

(** three steps of its own finish a call *)
Theorem C111_no_waiting : forall (O V S : Type) oeq hashable (method : S -> list O * list (str * O) -> S * res V),
  equivalence oeq -> forall calls s schedule i k, nth_error calls i = Some k -> (3 <= count_occ Nat.eq_dec schedule i)%nat ->
  exists r, nth_error (snd (trun oeq hashable (recorded method) (s, [], [], map (fun k => AtTest k) calls) schedule)) i = Some (Finished k r).
Proof. intros O V S oeq h m E; exact (all_finish oeq h m E). Qed.
Print Assumptions C111_no_waiting.

(** a thread on its own does what the sequential model of C23 does *)
Theorem C111_alone : forall (O V S : Type) oeq hashable (method : S -> list O * list (str * O) -> S * res V) s d k,
  trun oeq hashable method (s, d, [AtTest k]) [0; 0; 0]%nat =
  let '(s', d', r) := memory_call oeq hashable method s d k in (s', d', [Finished k r]).
Proof. intros O V S; exact thread_alone. Qed.
Print Assumptions C111_alone.

(** two calls at the same time: the method runs twice for one key, and if its
    value changes, so does the value later calls are given *)
Theorem C111_once_refuted :
  let method := fun (n : nat) (k : list Z * list (str * Z)) => (S n, Ok n : res nat) in
  let k := ([7], []) : list Z * list (str * Z) in
  let run := trun Z.eqb (fun _ => true) (recorded method) in
  let '(_, log, _, ts) := run (0%nat, [], [], map (fun k => AtTest k) [k; k; k; k]) [0; 1; 0; 1; 0; 2; 2; 1; 3; 3]%nat in
  log = [(k, Ok 0%nat); (k, Ok 1%nat)] /\
  ts = [Finished k (Ok 0%nat); Finished k (Ok 1%nat); Finished k (Ok 0%nat); Finished k (Ok 1%nat)].
Proof. vm_compute; split; reflexivity. Qed.
Print Assumptions C111_once_refuted.

Example C111_case :
  let method := fun (n : nat) (k : list Z * list (str * Z)) =>
    (S n, match fst k with [0] => Raise ZeroDivisionError | a :: _ => Ok (a * 2) | [] => Ok 7 end) in
  let k a := ([a], []) : list Z * list (str * Z) in
  snd (trun Z.eqb (fun x => x <? 9) (recorded method) (0%nat, [], [], map (fun k => AtTest k) [k 4; k 4; k 0; k 9; k 5])
         [0; 1; 2; 2; 1; 0; 3; 1; 0; 4; 4; 4]%nat) =
  [Finished (k 4) (Ok 8); Finished (k 4) (Ok 8); Finished (k 0) (Raise ZeroDivisionError); Finished (k 9) (Raise TypeError);
   Finished (k 5) (Ok 10)].
Proof. vm_compute; reflexivity. Qed.
Example C111_later_case :
  let method := fun (n : nat) (k : list Z * list (str * Z)) => (S n, Ok n : res nat) in
  let k := ([7], []) : list Z * list (str * Z) in
  let '(s1, log, d, ts) := trun Z.eqb (fun _ => true) (recorded method) (0%nat, [], [], map (fun k => AtTest k) [k; k; k]) [0; 1; 0; 0]%nat in
  nth_error ts 0 = Some (Finished k (Ok 0%nat)) /\ nth_error ts 2 = Some (AtTest k) /\
  nth_error (snd (trun Z.eqb (fun _ => true) (recorded method) (s1, log, d, ts) [2; 1; 1; 2]%nat)) 2 = Some (Finished k (Ok 1%nat)).
Proof. vm_compute; repeat split. Qed.
