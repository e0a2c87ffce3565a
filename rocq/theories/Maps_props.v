(* Maps_props.v -- the properties C16-C22 of maps.py *)
From Verif Require Import Base Maps_model Maps_spec Maps_proofs.

(** C16.  [st] is the store of all dictionary objects, [a0 :: rest] the
    arguments. *)
Theorem C16_chain_mapping_composes {V} `{EqB V} (st : list (dict V V)) a0 rest :
  Forall (fun a => (a < length st)%nat) (a0 :: rest) ->
  NoDup (dkeys (fetch [] st a0)) ->
  let d := fetch [] st a0 in
  let ds := map (fetch [] st) rest in
  let '(st', r) := chain_mapping st (a0 :: rest) in
  (forall x, (x < length st)%nat -> fetch [] st' x = fetch [] st x) /\
  ((r = Ok (length st) /\
    Forall2 (fun kv kw => fst kv = fst kw /\ follow ds (snd kv) = Some (snd kw)) d (fetch [] st' (length st)))
   \/ (r = Raise KeyError /\ exists kv, In kv d /\ follow ds (snd kv) = None)).
Proof. exact (chain_mapping_spec st a0 rest). Qed.
Print Assumptions C16_chain_mapping_composes.

Theorem C16_chain_mapping_no_arguments {V} `{EqB V} (st : list (dict V V)) :
  chain_mapping st [] = (st, Raise IndexError).
Proof. exact (chain_mapping_empty st). Qed.
Print Assumptions C16_chain_mapping_no_arguments.

Example C16_case :
  let st := [[(1, 10); (2, 20)]; [(10, 7); (20, 8)]; [(7, 70)]] in
  Forall (fun a => (a < length st)%nat) [0%nat; 1%nat] /\ NoDup (dkeys (fetch [] st 0%nat)) /\
  chain_mapping st [0%nat; 1%nat] = (st ++ [[(1, 7); (2, 8)]], Ok 3%nat) /\
  snd (chain_mapping st [0%nat; 1%nat; 2%nat]) = Raise KeyError.
Proof. cbn zeta; repeat split; [repeat constructor|apply nodupb_NoDup; reflexivity|vm_compute; reflexivity..]. Qed.

(** C17 *)
Theorem C17_invert_mapping_multiplicity {K V} `{EqB K} `{EqB V} (d : dict K (list V)) (k : K) (v : V) :
  NoDup (dkeys d) ->
  count k (dlist v (invert_mapping d)) = count v (dlist k d).
Proof. exact (invert_count v k d). Qed.
Print Assumptions C17_invert_mapping_multiplicity.

Theorem C17_invert_mapping_keys {K V} `{EqB K} `{EqB V} (d : dict K (list V)) (v : V) :
  NoDup (dkeys (invert_mapping d)) /\
  (In v (dkeys (invert_mapping d)) <-> exists k vs, In (k, vs) d /\ In v vs).
Proof. exact (conj (invert_nodup d) (invert_keys v d)). Qed.
Print Assumptions C17_invert_mapping_keys.

Theorem C17_invert_mapping_order {K V} `{EqB K} `{EqB V} (d : dict K (list V)) (v : V) :
  dlist v (invert_mapping d) = flat_map (fun kvs => repeat (fst kvs) (count v (snd kvs))) d.
Proof. exact (invert_dlist v d). Qed.
Print Assumptions C17_invert_mapping_order.

Theorem C17_invert_twice {K V} `{EqB K} `{EqB V} (d : dict K (list V)) : NoDup (dkeys d) ->
  forall k v, count v (dlist k (invert_mapping (invert_mapping d))) = count v (dlist k d).
Proof. exact (invert_twice d). Qed.
Print Assumptions C17_invert_twice.

Example C17_case :
  let d := [(1, [5; 6; 5]); (2, [6])] in
  NoDup (dkeys d) /\ invert_mapping d = [(5, [1; 1]); (6, [1; 2])].
Proof. cbn zeta; split; [apply nodupb_NoDup; reflexivity|vm_compute; reflexivity]. Qed.

(** C18 *)
Theorem C18_is_injective {K V} `{EqB K} `{EqB V} (d : dict K V) : NoDup (dkeys d) ->
  (is_injective d = true <-> forall k k' v, dget k d = Some v -> dget k' d = Some v -> k = k').
Proof. intros ND; exact (iff_trans (is_injective_spec d) (nodup_vals_inj d ND)). Qed.
Print Assumptions C18_is_injective.

Theorem C18_invert_injective_total {K V} `{EqB K} `{EqB V} (d : dict K V) :
  if is_injective d then exists e, invert_injective_mapping d = Ok e
  else invert_injective_mapping d = Raise AssertionError.
Proof. exact (invert_injective_total d). Qed.
Print Assumptions C18_invert_injective_total.

Theorem C18_invert_injective_inverts {K V} `{EqB K} `{EqB V} (d : dict K V) e : NoDup (dkeys d) ->
  invert_injective_mapping d = Ok e ->
  (forall k v, dget v e = Some k <-> dget k d = Some v) /\ invert_injective_mapping e = Ok d.
Proof. intros ND E; exact (conj (invert_injective_get d e ND E) (invert_injective_twice d e ND E)). Qed.
Print Assumptions C18_invert_injective_inverts.

Example C18_case :
  let d := [(1, 5); (2, 6)] in
  NoDup (dkeys d) /\ is_injective d = true /\ invert_injective_mapping d = Ok [(5, 1); (6, 2)] /\
  invert_injective_mapping [(1, 5); (2, 5)] = Raise AssertionError.
Proof. cbn zeta; repeat split; apply nodupb_NoDup; reflexivity. Qed.

(** C19.  [calls f s xs ws s']: one call per item, in order, returning [ws]. *)
Theorem C19_map_dict_in_place {K W S} `{EqB K} (f : S -> W -> S * res W) (st : list (dict K W)) (a : addr) s s' st' r :
  let d := fetch [] st a in
  (a < length st)%nat -> NoDup (dkeys d) ->
  map_dict f s st a true = (s', st', r) <->
  (exists ws, calls f s (dvals d) ws s' /\ r = Ok a /\ st' = put st a (combine (dkeys d) ws)) \/
  (exists e pre ws, first_raise f s (dvals d) pre ws e s' /\ r = Raise e /\
     st' = put st a (combine (firstn (length ws) (dkeys d)) ws ++ skipn (length ws) d)).
Proof. intros d _ ND; exact (map_dict_in_place f st a ND s st' s' r). Qed.
Print Assumptions C19_map_dict_in_place.

Theorem C19_map_dict_copy {K W S} `{EqB K} (f : S -> W -> S * res W) (st : list (dict K W)) (a : addr) s s' st' r :
  let d := fetch [] st a in
  (a < length st)%nat -> NoDup (dkeys d) ->
  map_dict f s st a false = (s', st', r) <->
  (exists ws, calls f s (dvals d) ws s' /\ r = Ok (length st) /\ st' = st ++ [combine (dkeys d) ws]) \/
  (exists e pre ws, first_raise f s (dvals d) pre ws e s' /\ r = Raise e /\ st' = st).
Proof. intros d _ ND; exact (map_dict_copy f st a ND s st' s' r). Qed.
Print Assumptions C19_map_dict_copy.

(** the store operations mean what their names say *)
Theorem C19_put_changes_one_object {D} (d0 : D) (st : list D) (a b : addr) x : (a < length st)%nat ->
  fetch d0 (put st a x) b = (if Nat.eqb a b then x else fetch d0 st b) /\ length (put st a x) = length st.
Proof. exact (put_spec d0 st a b x). Qed.
Print Assumptions C19_put_changes_one_object.

(* a method with state (a call counter) that fails on its third call *)
Example C19_case :
  let f := fun (n : Z) (v : Z) => if Z.ltb n 2 then (n + 1, Ok (v * 10 + n)) else (n, Raise ValueError) in
  map_dict f 0 [[(1, 5); (2, 6)]] 0%nat true = (2, [[(1, 50); (2, 61)]], Ok 0%nat) /\
  map_dict f 0 [[(1, 5); (2, 6)]] 0%nat false = (2, [[(1, 5); (2, 6)]; [(1, 50); (2, 61)]], Ok 1%nat) /\
  map_dict f 0 [[(1, 5); (2, 6); (3, 7); (4, 8)]] 0%nat true = (2, [[(1, 50); (2, 61); (3, 7); (4, 8)]], Raise ValueError).
Proof. vm_compute; repeat split. Qed.

(** C20 *)
Theorem C20_multi_dict {K V} `{EqB K} (pairs : list (K * V)) :
  dkeys (multi_dict pairs) = firsts (map fst pairs) /\
  forall k, dget k (multi_dict pairs) = if mem k (map fst pairs) then Some (values_for k pairs) else None.
Proof. exact (multi_dict_spec pairs). Qed.
Print Assumptions C20_multi_dict.

Theorem C20_firsts_is_the_set_of_keys {K} `{EqB K} (l : list K) :
  NoDup (firsts l) /\ forall x, In x (firsts l) <-> In x l.
Proof. exact (conj (firsts_NoDup l) (In_firsts l)). Qed.
Print Assumptions C20_firsts_is_the_set_of_keys.

Example C20_case : multi_dict [(1, 1); (2, 2); (1, 3)] = [(1, [1; 3]); (2, [2])].
Proof. vm_compute; reflexivity. Qed.

(** C21.  [heap0] holds the contents of every collection object before the
    call; the dictionaries map keys to references, possibly shared. *)
Theorem C21_merge_dicts {K V} `{EqB K} `{EqB V} (heap0 : list (list V)) (args : list (dict K addr)) :
  Forall (fun d => Forall (fun it => (snd it < length heap0)%nat) d) args ->
  let '(hp, un) := merge_dicts heap0 args in
  (forall r, (r < length heap0)%nat -> fetch [] hp r = fetch [] heap0 r) /\
  NoDup (dkeys un) /\
  (forall k, In k (dkeys un) <-> exists d, In d args /\ In k (dkeys d)) /\
  (forall k r, dget k un = Some r -> (length heap0 <= r)%nat /\ NoDup (fetch [] hp r) /\
     forall x, In x (fetch [] hp r) <->
       exists d items, In d args /\ In (k, items) d /\ In x (fetch [] heap0 items)) /\
  (forall k k' r, dget k un = Some r -> dget k' un = Some r -> k = k').
Proof. exact (merge_dicts_spec heap0 args). Qed.
Print Assumptions C21_merge_dicts.

(* one set object shared by two keys and two arguments *)
Example C21_case :
  let heap := [[1; 2]; [2; 3]] in
  let args := [[(7, 0%nat); (8, 0%nat)]; [(7, 1%nat); (9, 0%nat)]] in
  Forall (fun d => Forall (fun it : Z * nat => (snd it < length heap)%nat) d) args /\
  merge_dicts heap args = ([[1; 2]; [2; 3]; [1; 2; 3]; [1; 2]; [1; 2]], [(7, 2%nat); (8, 3%nat); (9, 4%nat)]).
Proof. cbn zeta; split; [repeat constructor|vm_compute; reflexivity]. Qed.

(** C22 *)
Theorem C22_procmap {S A B} (f : S -> A -> S * res B) s xs s' r :
  procmap f s xs = (s', r) <->
  (r = Ok tt /\ exists bs, calls f s xs bs s') \/
  (exists e pre bs, r = Raise e /\ first_raise f s xs pre bs e s').
Proof. exact (procmap_spec f s xs s' r). Qed.
Print Assumptions C22_procmap.

Theorem C22_partial_map {S A B} (f : S -> A -> S * res B) truthy s xs s' r :
  partial_map f truthy s xs = (s', r) <->
  (exists bs, calls f s xs bs s' /\
     r = Ok (filter truthy bs, map fst (filter (fun xb => negb (truthy (snd xb))) (combine xs bs)))) \/
  (exists e pre bs, r = Raise e /\ first_raise f s xs pre bs e s').
Proof. exact (partial_map_spec f truthy s xs s' r). Qed.
Print Assumptions C22_partial_map.

Theorem C22_partial_map_lengths {S A B} (f : S -> A -> S * res B) truthy s xs s' mapped rejected :
  partial_map f truthy s xs = (s', Ok (mapped, rejected)) ->
  (length mapped + length rejected = length xs)%nat.
Proof. exact (partial_map_total f truthy s xs s' mapped rejected). Qed.
Print Assumptions C22_partial_map_lengths.

Theorem C22_filtered_map {S A B} (f : S -> A -> S * res B) truthy s xs s' r :
  filtered_map f truthy s xs = (s', r) <->
  (exists bs, calls f s xs bs s' /\ r = Ok (filter truthy bs)) \/
  (exists e pre bs, r = Raise e /\ first_raise f s xs pre bs e s').
Proof. exact (filtered_map_spec f truthy s xs s' r). Qed.
Print Assumptions C22_filtered_map.

Theorem C22_filtered_first {S A B} (f : S -> A -> S * res B) truthy s xs :
  filtered_map f truthy s xs = (fst (partial_map f truthy s xs), rmap fst (snd (partial_map f truthy s xs))).
Proof. exact (filtered_partial f truthy s xs). Qed.
Print Assumptions C22_filtered_first.

Example C22_case :
  let f := fun (log : list Z) (v : Z) => (log ++ [v], if Z.ltb v 0 then Raise ValueError else Ok (v / 2)) in
  partial_map f (fun b => negb (Z.eqb b 0)) [] [4; 1; 6; 0] = ([4; 1; 6; 0], Ok ([2; 3], [1; 0])) /\
  partial_map f (fun b => negb (Z.eqb b 0)) [] [4; -1; 6; 0] = ([4; -1], Raise ValueError) /\
  calls f [] [4; 1] [2; 0] [4; 1].
Proof. cbn zeta; split; [reflexivity|split; [reflexivity|econstructor; [reflexivity|econstructor; [reflexivity|constructor]]]]. Qed.
