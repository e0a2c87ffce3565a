(* MemoRec_props.v -- property C97 *)
From Verif Require Import Base PyStr SmartCache_model SmartCache_spec SmartCache_proofs MemoRec_model MemoRec_spec MemoRec_proofs.

(** ** C97.  A recursive method decorated with memory_proxy: for every history of
    outside calls on hashable keys, the outcomes are those of the undecorated
    method, and whenever the undecorated method ends on all of them the decorated
    one does too.  [P] holds of the keys in play: the outside calls and the inner
    calls they lead to. *)
Theorem C97_values : forall (O V : Type) oeq hashable (method : list O * list (str * O) -> body O V),
  equivalence oeq -> forall P, closed method P ->
  (forall k, P k -> key_hashable hashable k = true) ->
  (forall k k' r, P k -> P k' -> key_eq oeq k k' = true -> yields method k r -> yields method k' r) ->
  forall n calls d t outs, Forall P calls ->
  rec_run oeq hashable method n [] calls = Some (d, t, outs) -> Forall2 (yields method) calls outs.
Proof.
  intros O V oeq h m E P PC PH PR n calls d t outs F R.
  refine (proj1 (run_sound oeq h E m P PC PH PR n calls [] d t outs F _ R)). intros k v _; discriminate.
Qed.
Print Assumptions C97_values.

Theorem C97_terminates : forall (O V : Type) oeq hashable (method : list O * list (str * O) -> body O V),
  equivalence oeq -> forall P, closed method P ->
  (forall k, P k -> key_hashable hashable k = true) ->
  (forall k k' r, P k -> P k' -> key_eq oeq k k' = true -> yields method k r -> yields method k' r) ->
  forall calls outs, Forall P calls -> Forall2 (yields method) calls outs ->
  exists n d t, rec_run oeq hashable method n [] calls = Some (d, t, outs).
Proof. intros O V oeq h m E P PC PH PR calls outs; exact (run_complete oeq h E m P PC PH PR calls outs). Qed.
Print Assumptions C97_terminates.

(** no deeper recursion than without the proxy *)
Theorem C97_depth : forall (O V : Type) oeq hashable (method : list O * list (str * O) -> body O V),
  equivalence oeq -> forall P, closed method P ->
  (forall k, P k -> key_hashable hashable k = true) ->
  (forall k k' r, P k -> P k' -> key_eq oeq k k' = true -> yields method k r -> yields method k' r) ->
  forall m calls d t outs n k r, Forall P calls -> rec_run oeq hashable method m [] calls = Some (d, t, outs) ->
  P k -> direct method n k = Some r -> exists d' t', rec_call oeq hashable method n d k = Some (d', t', r).
Proof.
  intros O V oeq h m E P PC PH PR m0 calls d t outs n k r F R Pk.
  apply (call_complete oeq h E m P PC PH PR n d k r Pk).
  refine (proj2 (run_sound oeq h E m P PC PH PR m0 calls [] d t outs F _ R)). intros k' v _; discriminate.
Qed.
Print Assumptions C97_depth.

(** of two starts of the method on equal keys, in the whole history, the earlier
    one raised; here equal keys must also need the same recursion depth *)
Theorem C97_once : forall (O V : Type) oeq hashable (method : list O * list (str * O) -> body O V),
  equivalence oeq -> forall P, closed method P ->
  (forall k, P k -> key_hashable hashable k = true) ->
  (forall k k' n, P k -> P k' -> key_eq oeq k k' = true -> direct method n k = direct method n k') ->
  forall n calls d t outs, Forall P calls -> rec_run oeq hashable method n [] calls = Some (d, t, outs) ->
  forall i j ki kj, (i < j)%nat -> nth_error t i = Some ki -> nth_error t j = Some kj -> key_eq oeq ki kj = true ->
  exists e, yields method ki (Raise e).
Proof.
  intros O V oeq h m E P PC PH PD. apply (run_once oeq h E m P PC PH); [|exact PD].
  intros k k' r Pk Pk' K. rewrite !(yields_iff m). intros [n D]. exists n. rewrite <- (PD k k' n Pk Pk' K). exact D.
Qed.
Print Assumptions C97_once.

(** a method without inner calls: this is memory_call of SmartCache_model *)
Theorem C97_flat : forall (O V : Type) oeq hashable (g : list O * list (str * O) -> res V),
  forall n (s : unit) d k,
  option_map (fun x => (fst (fst x), snd x)) (rec_call oeq hashable (fun k => Done (g k)) (S n) d k) =
  Some (let '(_, d', r) := memory_call oeq hashable (fun s k => (s, g k)) s d k in (d', r)).
Proof. exact @flat_call. Qed.
Print Assumptions C97_flat.

Definition int_key (z : Z) : list Z * list (str * Z) := ([z], []).
(* def fib(n): return n if n < 2 else fib(n - 1) + fib(n - 2) *)
Definition fib_body (k : list Z * list (str * Z)) : body Z Z :=
  match fst k with
  | [n] => if n <? 2 then Done (Ok n)
           else Call (int_key (n - 1)) (fun r => match r with
                | Ok a => Call (int_key (n - 2)) (fun r => match r with Ok b => Done (Ok (a + b)) | Raise e => Done (Raise e) end)
                | Raise e => Done (Raise e) end)
  | _ => Done (Raise TypeError)
  end.
Example C97_case :
  option_map (fun x => (map (fun k => fst k) (snd (fst x)), snd x))
    (rec_run Z.eqb (fun _ => true) fib_body 60 [] [int_key 50; int_key 6]) =
  Some (map (fun z => [z]) (map (fun i => 50 - Z.of_nat i) (seq 0 51)), [Ok 12586269025; Ok 8]).
Proof. vm_compute; reflexivity. Qed.
Example C97_case_closed : closed fib_body (fun _ => True) /\ (forall k : list Z * list (str * Z), True -> key_hashable (fun _ => true) k = true).
Proof. split; [intros k k' _ _; exact I|]. intros [a p] _. unfold key_hashable; cbn. apply andb_true_iff; split; apply forallb_forall; auto. Qed.

(** when equal keys differ in depth the method can be started twice: f(1) returns
    f(1.0), which returns 5 (objects: integers, compared by absolute value) *)
Example C97_depth_needed :
  let oeq a b := Z.abs a =? Z.abs b in
  let m := fun k : list Z * list (str * Z) => match fst k with [1] => Call (int_key (-1)) (fun r => Done r) | _ => Done (Ok 5) end in
  rec_run oeq (fun _ => true) m 3 [] [int_key 1] = Some ([(int_key (-1), 5)], [int_key 1; int_key (-1)], [Ok 5]).
Proof. vm_compute; reflexivity. Qed.
