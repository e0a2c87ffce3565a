(* Live_props.v -- C138: methods that change the list or dictionary they are
   being mapped over. *)
From Verif Require Import Base Maps_model Maps_spec Maps_proofs Live_model Live_spec Live_proofs.

(** ** lists.  A method that leaves the list alone: as in C22 *)
Theorem C138_unchanged {S A B} (f : S -> list A -> A -> S * list A * res B) (g : S -> A -> S * res B) truthy fuel s l :
  (forall s l x, f s l x = (fst (g s x), l, snd (g s x))) -> (length l < fuel)%nat ->
  live_procmap f fuel 0 s l = (fst (procmap g s l), l, snd (procmap g s l)) /\
  live_partial_map f truthy fuel 0 s l [] [] = (fst (partial_map g truthy s l), l, snd (partial_map g truthy s l)) /\
  live_filtered_map f truthy fuel 0 s l [] = (fst (filtered_map g truthy s l), l, snd (filtered_map g truthy s l)).
Proof.
  intros Q L; destruct (unchanged_trace f g Q fuel O s l ltac:(lia)) as [xs [bs [s' [o [E C]]]]]; cbn [skipn] in C.
  pose proof (procmap_trace f fuel O s l) as P1; pose proof (partial_trace f truthy fuel O s l [] []) as P2; pose proof (filtered_trace f truthy fuel O s l []) as P3.
  rewrite E in P1, P2, P3; rewrite P1, P2, P3, (answers_procmap g s l xs bs s' o C), (answers_partial truthy g s l xs bs s' o C), (answers_filtered truthy g s l xs bs s' o C).
  repeat split.
Qed.
Print Assumptions C138_unchanged.

(** a method that appends to the list: called once for each item of the list
    as it is in the end, in order, or up to the first exception *)
Theorem C138_appending_procmap {S A B} (f : S -> list A -> A -> S * list A * res B) fuel s l s' l' r :
  (forall s l x, exists e, snd (fst (f s l x)) = l ++ e) -> live_procmap f fuel 0 s l = (s', l', r) -> r <> Raise OutOfFuel ->
  (exists e, l' = l ++ e) /\
  ((exists bs, calls (on_list f) (s, l) l' bs (s', l') /\ r = Ok tt) \/
   (exists e pre bs, first_raise (on_list f) (s, l) l' pre bs e (s', l') /\ r = Raise e)).
Proof.
  intros Ap E N; pose proof (procmap_trace f fuel O s l) as T; rewrite E in T.
  exact (appending_result f (fun _ _ => tt) (s', l', r) fuel s l Ap T N).
Qed.
Print Assumptions C138_appending_procmap.
Theorem C138_appending_partial_map {S A B} (f : S -> list A -> A -> S * list A * res B) truthy fuel s l s' l' r :
  (forall s l x, exists e, snd (fst (f s l x)) = l ++ e) -> live_partial_map f truthy fuel 0 s l [] [] = (s', l', r) -> r <> Raise OutOfFuel ->
  (exists e, l' = l ++ e) /\
  ((exists bs, calls (on_list f) (s, l) l' bs (s', l') /\
      r = Ok (filter truthy bs, map fst (filter (fun xb => negb (truthy (snd xb))) (combine l' bs)))) \/
   (exists e pre bs, first_raise (on_list f) (s, l) l' pre bs e (s', l') /\ r = Raise e)).
Proof.
  intros Ap E N; pose proof (partial_trace f truthy fuel O s l [] []) as T; rewrite E in T.
  exact (appending_result f (fun xs bs => (filter truthy bs, kept truthy xs bs)) (s', l', r) fuel s l Ap T N).
Qed.
Print Assumptions C138_appending_partial_map.
Theorem C138_appending_filtered_map {S A B} (f : S -> list A -> A -> S * list A * res B) truthy fuel s l s' l' r :
  (forall s l x, exists e, snd (fst (f s l x)) = l ++ e) -> live_filtered_map f truthy fuel 0 s l [] = (s', l', r) -> r <> Raise OutOfFuel ->
  (exists e, l' = l ++ e) /\
  ((exists bs, calls (on_list f) (s, l) l' bs (s', l') /\ r = Ok (filter truthy bs)) \/
   (exists e pre bs, first_raise (on_list f) (s, l) l' pre bs e (s', l') /\ r = Raise e)).
Proof.
  intros Ap E N; pose proof (filtered_trace f truthy fuel O s l []) as T; rewrite E in T.
  exact (appending_result f (fun _ bs => filter truthy bs) (s', l', r) fuel s l Ap T N).
Qed.
Print Assumptions C138_appending_filtered_map.

(** the loops end, whatever the method does to the list, if it keeps it within a bound *)
Theorem C138_ends {S A B} (f : S -> list A -> A -> S * list A * res B) truthy fuel s l N :
  (forall s l x, snd (f s l x) <> Raise OutOfFuel) ->
  (forall s l x, (length l <= N)%nat -> (length (snd (fst (f s l x))) <= N)%nat) -> (length l <= N < fuel)%nat ->
  snd (live_procmap f fuel 0 s l) <> Raise OutOfFuel /\ snd (live_partial_map f truthy fuel 0 s l [] []) <> Raise OutOfFuel /\
  snd (live_filtered_map f truthy fuel 0 s l []) <> Raise OutOfFuel.
Proof.
  intros Q Sm L; split; [|split].
  - exact (bounded_result f (fun _ _ => tt) _ fuel s l N Q Sm L (procmap_trace f fuel O s l)).
  - exact (bounded_result f (fun xs bs => ([] ++ filter truthy bs, [] ++ kept truthy xs bs)) _ fuel s l N Q Sm L (partial_trace f truthy fuel O s l [] [])).
  - exact (bounded_result f (fun _ bs => [] ++ filter truthy bs) _ fuel s l N Q Sm L (filtered_trace f truthy fuel O s l [])).
Qed.
Print Assumptions C138_ends.
(** and never, if each call appends one more item *)
Theorem C138_endless_refuted {S A B} (f : S -> list A -> A -> S * list A * res B) truthy fuel s l :
  (forall s l x, exists s' y b, f s l x = (s', l ++ [y], Ok b)) -> l <> [] ->
  snd (live_procmap f fuel 0 s l) = Raise OutOfFuel /\ snd (live_partial_map f truthy fuel 0 s l [] []) = Raise OutOfFuel /\
  snd (live_filtered_map f truthy fuel 0 s l []) = Raise OutOfFuel.
Proof.
  intros M N; assert (L : (0 < length l)%nat) by (destruct l; [congruence|cbn [length]; lia]).
  pose proof (endless_trace f M fuel O s l L) as E.
  pose proof (procmap_trace f fuel O s l) as P1; pose proof (partial_trace f truthy fuel O s l [] []) as P2; pose proof (filtered_trace f truthy fuel O s l []) as P3.
  rewrite E in P1, P2, P3; exact (conj P1 (conj P2 P3)).
Qed.
Print Assumptions C138_endless_refuted.

(** a method that removes the item it is called for, as procmap(l.remove, l):
    it is called for every other item only, and the others stay *)
Theorem C138_removing_refuted {S A B} `{EqB A} (f : S -> list A -> A -> S * list A * res B) (g : S -> A -> S * res B) fuel s l :
  (forall s l x, f s l x = (fst (g s x), remove_first x l, snd (g s x))) -> NoDup l -> (length l < fuel)%nat ->
  let '(s', l', r) := live_procmap f fuel 0 s l in
  procmap g s (evens l) = (s', r) /\ (r = Ok tt -> l' = odds l).
Proof.
  intros R ND L; destruct (removing_trace f g R (length l) l [] fuel s (le_n _) ND L) as [xs [bs [s' [l' [o [E [C D]]]]]]]; cbn [app length] in E, D.
  pose proof (procmap_trace f fuel O s l) as P; rewrite E in P; rewrite P; split.
  - exact (answers_procmap g s (evens l) xs bs s' o C).
  - intros Q; apply D, (ended_ok _ _ _ Q).
Qed.
Print Assumptions C138_removing_refuted.

Example C138_case_lists :
  (* a work list: each number adds its half *)
  let f := fun (s : unit) l x => (s, if 1 <? x then l ++ [x / 2] else l, Ok (x mod 2)) in
  live_procmap f 20 0 tt [5; 4] = (tt, [5; 4; 2; 2; 1; 1], Ok tt) /\
  live_partial_map f (fun b => negb (b =? 0)) 20 0 tt [5; 4] [] [] = (tt, [5; 4; 2; 2; 1; 1], Ok ([1; 1; 1], [4; 2; 2])) /\
  live_filtered_map f (fun b => negb (b =? 0)) 20 0 tt [5; 4] [] = (tt, [5; 4; 2; 2; 1; 1], Ok [1; 1; 1]) /\
  (forall s l x, exists e, snd (fst (f s l x)) = l ++ e) /\
  live_procmap (fun (s : list Z) l x => (s ++ [x], remove_first x l, Ok tt)) 20 0 [] [1; 2; 3; 4; 5] = ([1; 3; 5], [2; 4], Ok tt).
Proof.
  cbn zeta; repeat (split; [vm_compute; reflexivity|]); split; [|vm_compute; reflexivity].
  intros s l x; cbn [fst snd]; destruct (1 <? x); eexists; [reflexivity|symmetry; apply app_nil_r].
Qed.

(** ** dictionaries: tables of slots.  A method that leaves the dictionary alone: as in C19 *)
Theorem C138_untouched {K W S} `{EqB K} grows (f : S -> list (option (K * W)) -> W -> S * list (option (K * W)) * res W) (g : S -> W -> S * res W) s d :
  (forall s d v, f s d v = (fst (g s v), d, snd (g s v))) -> NoDup (dkeys (entries d)) ->
  (let '(s', d', r) := live_map_dict grows f s d in map_dict_loop g s (entries d) (entries d) = (s', entries d', r)) /\
  live_map_dict_copy f s d = (fst (map_dict_gen g s (entries d) []), d, snd (map_dict_gen g s (entries d) [])).
Proof. intros Q ND; split; [exact (loop_same grows f g Q (used d) O s d ND eq_refl)|exact (gen_same f g Q (used d) O s d [] eq_refl)]. Qed.
Print Assumptions C138_untouched.
(** an assignment is an assignment, whatever the table looks like *)
Theorem C138_assignment {K W} `{EqB K} grows k w (d : list (option (K * W))) : entries (store grows k w d) = dset k w (entries d).
Proof. exact (store_entries grows k w d). Qed.
Print Assumptions C138_assignment.

(** a method that changes values but keeps the keys where they are: each key
    once, in order, with the value it has by then; keys stay *)
Theorem C138_keys_kept {K W S} `{EqB K} grows (f : S -> list (option (K * W)) -> W -> S * list (option (K * W)) * res W) s d s' d' r :
  (forall s d v, slot_keys (snd (fst (f s d v))) = slot_keys d) -> NoDup (dkeys (entries d)) -> live_map_dict grows f s d = (s', d', r) ->
  slot_keys d' = slot_keys d /\
  ((exists ws, calls (step_in_place f grows) (s, d) (dkeys (entries d)) ws (s', d') /\ r = Ok tt) \/
   (exists e pre ws, first_raise (step_in_place f grows) (s, d) (dkeys (entries d)) pre ws e (s', d') /\ r = Raise e)).
Proof. exact (fun Q ND => loop_keeps grows f Q (used d) O s d s' d' r ND eq_refl). Qed.
Print Assumptions C138_keys_kept.
Theorem C138_keys_kept_copy {K W S} `{EqB K} (f : S -> list (option (K * W)) -> W -> S * list (option (K * W)) * res W) s d s' d' r :
  (forall s d v, slot_keys (snd (fst (f s d v))) = slot_keys d) -> NoDup (dkeys (entries d)) -> live_map_dict_copy f s d = (s', d', r) ->
  slot_keys d' = slot_keys d /\
  ((exists ws, calls (step_copy f) (s, d) (dkeys (entries d)) ws (s', d') /\ r = Ok (combine (dkeys (entries d)) ws)) \/
   (exists e pre ws, first_raise (step_copy f) (s, d) (dkeys (entries d)) pre ws e (s', d') /\ r = Raise e)).
Proof. exact (fun Q ND => gen_keeps f Q (used d) O s d [] s' d' r ND ND eq_refl). Qed.
Print Assumptions C138_keys_kept_copy.

(** whatever the method does: it is called at most once for each entry there was ... *)
Theorem C138_calls {K W S} `{EqB K} grows (f : S -> list (option (K * W)) -> W -> S * list (option (K * W)) * res W) s d :
  (length (snd (fst (fst (live_map_dict grows (logged f) (s, []) d)))) <= length (entries d))%nat /\
  (length (snd (fst (fst (live_map_dict_copy (logged f) (s, []) d)))) <= length (entries d))%nat.
Proof.
  split.
  - destruct (live_map_dict grows (logged f) (s, []) d) as [[[s' log'] d'] r] eqn:E; exact (loop_calls grows f (used d) _ _ _ _ _ _ _ _ _ E).
  - destruct (live_map_dict_copy (logged f) (s, []) d) as [[[s' log'] d'] r] eqn:E; exact (gen_calls f (used d) _ _ _ _ _ _ _ _ _ _ E).
Qed.
Print Assumptions C138_calls.
(** ... and if map_dict returns, the dictionary has as many entries as before *)
Theorem C138_size {K W S} `{EqB K} grows (f : S -> list (option (K * W)) -> W -> S * list (option (K * W)) * res W) s d s' d' e :
  (live_map_dict grows f s d = (s', d', Ok tt) -> length (entries d') = length (entries d)) /\
  (live_map_dict_copy f s d = (s', d', Ok e) -> length (entries d') = length (entries d)).
Proof. exact (conj (loop_size grows f (used d) O (used d) s d s' d') (gen_size f (used d) O (used d) s d [] s' d' e)). Qed.
Print Assumptions C138_size.
(** a first call that leaves more or fewer entries is the last one, and its changes stay *)
Theorem C138_changed_size {K W S} `{EqB K} grows (f : S -> list (option (K * W)) -> W -> S * list (option (K * W)) * res W) s d k v r s1 d1 w :
  entries d = (k, v) :: r -> f s d v = (s1, d1, Ok w) ->
  (length (entries (store grows k w d1)) <> length (entries d) -> live_map_dict grows f s d = (s1, store grows k w d1, Raise RuntimeError)) /\
  (length (entries d1) <> length (entries d) -> live_map_dict_copy f s d = (s1, d1, Raise RuntimeError)).
Proof. exact (fun E Ef => conj (loop_grown grows f s d k v r s1 d1 w E Ef) (gen_grown f s d k v r s1 d1 w E Ef)). Qed.
Print Assumptions C138_changed_size.

(** with the number of entries kept, an entry can be passed over and another
    one mapped without notice, ... *)
Theorem C138_replaced_refuted : exists (f : list Z -> list (option (Z * Z)) -> Z -> list Z * list (option (Z * Z)) * res Z) d d',
  live_map_dict_copy f [] d = ([10; 30], d', Ok [(1, 11); (3, 31)]) /\ entries d = [(1, 10); (2, 20)] /\ entries d' = [(1, 10); (3, 30)].
Proof.
  (* del d[2]; d[3] = 30 *)
  exists (fun s d v => (s ++ [v], if v =? 10 then [Some (1, 10); None; Some (3, 30)] else d, Ok (v + 1))),
    [Some (1, 10); Some (2, 20)], [Some (1, 10); None; Some (3, 30)]; vm_compute; repeat split.
Qed.
Print Assumptions C138_replaced_refuted.
(** ... and taking an entry out and putting it back makes map_dict fail after
    all calls have been made *)
Theorem C138_put_back_refuted : exists (f : list Z -> list (option (Z * Z)) -> Z -> list Z * list (option (Z * Z)) * res Z) d d',
  live_map_dict_copy f [] d = ([10; 20], d', Raise RuntimeError) /\ entries d = [(1, 10); (2, 20)] /\ entries d' = [(2, 20); (1, 10)].
Proof.
  (* d[1] = d.pop(1) *)
  exists (fun s d v => (s ++ [v], if v =? 10 then [None; Some (2, 20); Some (1, 10)] else d, Ok (v + 1))),
    [Some (1, 10); Some (2, 20)], [None; Some (2, 20); Some (1, 10)]; vm_compute; repeat split.
Qed.
Print Assumptions C138_put_back_refuted.

Example C138_case_dicts :
  (* the method doubles what is stored under 3 *)
  let f := fun (s : list Z) (d : list (option (Z * Z))) v =>
    (s ++ [v], map (option_map (fun kv => if fst kv =? 3 then (3, snd kv * 2) else kv)) d, Ok (v + 1)) in
  let d := [Some (1, 10); None; Some (2, 20); Some (3, 30)] in
  live_map_dict (fun _ => false) f [] d = ([10; 20; 120], [Some (1, 11); None; Some (2, 21); Some (3, 121)], Ok tt) /\
  live_map_dict_copy f [] d = ([10; 20; 120], [Some (1, 10); None; Some (2, 20); Some (3, 240)], Ok [(1, 11); (2, 21); (3, 121)]) /\
  (forall s d v, slot_keys (snd (fst (f s d v))) = slot_keys d) /\ NoDup (dkeys (entries d)) /\
  store (fun _ => true) 4 40 d = [Some (1, 10); Some (2, 20); Some (3, 30); Some (4, 40)] /\
  live_map_dict (fun _ => false) (fun (s : unit) d v => (s, d ++ [Some (v, v)], Ok v)) tt d =
    (tt, d ++ [Some (10, 10)], Raise RuntimeError).
Proof.
  cbn zeta; split; [vm_compute; reflexivity|split; [vm_compute; reflexivity|split]].
  - intros s d v; cbn [fst snd]; unfold slot_keys; rewrite map_map; apply map_ext; intros [[k w]|]; [|reflexivity]; cbn [option_map fst snd].
    destruct (Z.eqb_spec k 3) as [->|n]; reflexivity.
  - split; [apply nodupb_NoDup; reflexivity|vm_compute; repeat split].
Qed.
