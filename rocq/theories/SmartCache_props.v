(* SmartCache_props.v -- properties C23-C28 of smart_cache.py *)
From Verif Require Import Base PyStr Common_model SmartCache_model SmartCache_spec SmartCache_proofs.

(** ** C23.  After every history of calls, for every method (even one with
    state): an equal key that returned before is answered with the first such
    value without invoking the method; otherwise the method is invoked once and
    its outcome passed on.  Unhashable arguments raise TypeError. *)
Theorem C23_memory_proxy_call : forall (O V S : Type) oeq hashable (method : S -> list O * list (str * O) -> S * res V),
  equivalence oeq -> forall s0 calls s d outs k,
  memory_run oeq hashable method s0 [] calls = (s, d, outs) ->
  let call := memory_call oeq hashable method s d k in
  (key_hashable hashable k = false -> call = (s, d, Raise TypeError)) /\
  (key_hashable hashable k = true ->
    (forall v, first_value (key_eq oeq) calls outs k v -> call = (s, d, Ok v)) /\
    ((forall v, ~ first_value (key_eq oeq) calls outs k v) ->
       fst (fst call) = fst (method s k) /\ snd call = snd (method s k) /\
       snd (fst call) = match snd (method s k) with Ok v => d ++ [(k, v)] | Raise _ => d end)).
Proof. intros O V S oeq h m E s0 calls s d outs k; exact (memory_call_spec oeq h m E s0 calls s d outs k). Qed.
Print Assumptions C23_memory_proxy_call.

(** a deterministic method: the proxy is transparent *)
Theorem C23_transparent : forall (O V S : Type) oeq hashable (method : S -> list O * list (str * O) -> S * res V),
  equivalence oeq -> forall g, (forall s k, snd (method s k) = g k) ->
  (forall k k', key_eq oeq k k' = true -> g k = g k') ->
  forall s0 calls, Forall (fun k => key_hashable hashable k = true) calls ->
  snd (memory_run oeq hashable method s0 [] calls) = map g calls.
Proof. intros O V S oeq h m E g; exact (memory_transparent oeq h m E g). Qed.
Print Assumptions C23_transparent.

(** of two invocations on equal keys, the earlier one raised *)
Theorem C23_at_most_once : forall (O V S : Type) oeq hashable (method : S -> list O * list (str * O) -> S * res V),
  equivalence oeq -> forall g, (forall s k, snd (method s k) = g k) ->
  forall s0 calls i j ki kj,
  let trace := snd (fst (fst (memory_run oeq hashable (traced method) (s0, []) [] calls))) in
  (i < j)%nat -> nth_error trace i = Some ki -> nth_error trace j = Some kj -> key_eq oeq ki kj = true ->
  exists e, g ki = Raise e.
Proof. intros O V S oeq h m E g D s0 calls; exact (memory_once oeq h m E g D s0 calls). Qed.
Print Assumptions C23_at_most_once.

Example C23_case :
  let m := fun (s : nat) (k : list Z * list (str * Z)) =>
             (Datatypes.S s, match fst k with [0] => Raise ZeroDivisionError | a :: _ => Ok (a * 2) | [] => Ok 7 end) in
  let k a := ([a], []) : list Z * list (str * Z) in
  memory_run Z.eqb (fun _ => true) m 0%nat [] [k 4; k 0; k 4; k 0; k 5; k 4] =
    (4%nat, [(k 4, 8); (k 5, 10)],
     [Ok 8; Raise ZeroDivisionError; Ok 8; Raise ZeroDivisionError; Ok 10; Ok 8]).
Proof. vm_compute; reflexivity. Qed.

(** ** C24.  [set_order] is the (unknown) iteration order of a set. *)
Theorem C24_missing_target : forall set_order st target deps,
  dget target st = None -> needs_update set_order st target deps = Ok true.
Proof. exact needs_update_missing. Qed.
Print Assumptions C24_missing_target.

Theorem C24_needs_update : forall set_order, (forall l, Permutation (set_order l) l) ->
  forall st target deps f, dget target st = Some f ->
  exists l, looks deps l /\ verdict st (mtime f) l (needs_update set_order st target deps).
Proof. exact needs_update_spec. Qed.
Print Assumptions C24_needs_update.

Theorem C24_verdict_unique : forall st t l r r', verdict st t l r -> verdict st t l r' -> r = r'.
Proof. exact verdict_unique. Qed.
Print Assumptions C24_verdict_unique.

(** with valid, existing dependencies the order does not matter *)
Theorem C24_newer_iff : forall set_order, (forall l, Permutation (set_order l) l) ->
  forall st target deps f, dget target st = Some f ->
  (forall d, In d deps -> valid_dep d) -> (forall q, watched deps q -> exists g, dget q st = Some g) ->
  exists b, needs_update set_order st target deps = Ok b /\
    (b = true <-> exists q g, watched deps q /\ dget q st = Some g /\ mtime f < mtime g).
Proof. exact needs_update_iff. Qed.
Print Assumptions C24_newer_iff.

Example C24_case :
  let st := [(u "t", {| content := []; mtime := 5 |}); (u "a", {| content := []; mtime := 5 |});
             (u "m", {| content := []; mtime := 4 |}); (u "n", {| content := []; mtime := 6 |})] in
  let m := {| m_file := FileIs (Some (u "m")); m_dict := [OtherItem; ModuleItem (FileIs (Some (u "n"))); ModuleItem NoFile] |} in
  needs_update (fun l => l) st (u "t") [DepPath (u "a")] = Ok false /\
  needs_update (fun l => l) st (u "t") [DepPath (u "a"); DepModule m; DepOther] = Ok true /\
  needs_update (fun l => l) st (u "t") [DepPath (u "x"); DepModule m] = Raise OSError /\
  needs_update (fun l => l) st (u "t") [DepPath (u "a"); DepOther] = Raise TypeError /\
  valid_dep (DepModule m).
Proof.
  cbn zeta; split; [vm_compute; reflexivity|]; split; [vm_compute; reflexivity|]; split; [vm_compute; reflexivity|].
  split; [vm_compute; reflexivity|]; split; [discriminate|]; intros [X|X]; [discriminate|].
  repeat destruct X as [X|X]; try discriminate; exact X.
Qed.

Example C24_case_verdict : let st := [(u "a", {| content := []; mtime := 5 |}); (u "n", {| content := []; mtime := 6 |})] in
  verdict st 5 [LFile (Some (u "a")); LFile (Some (u "n")); LBadType] (Ok true) /\
  verdict st 5 [LFile (Some (u "a")); LNoFile; LFile (Some (u "n"))] (Raise AttributeError) /\
  verdict st 5 [LFile (Some (u "x"))] (Raise OSError) /\ verdict st 6 [LFile (Some (u "a")); LFile (Some (u "n"))] (Ok false).
Proof.
  cbn zeta.
  assert (Fa : forall t, 5 <= t -> fresh [(u "a", {| content := []; mtime := 5 |}); (u "n", {| content := []; mtime := 6 |})] t (LFile (Some (u "a"))))
    by (intros t T; exists (u "a"); eexists; split; [reflexivity|split; [vm_compute; reflexivity|exact T]]).
  split; [|split; [|split]].
  - apply (v_newer _ _ [_] _ [_]); [constructor; [apply Fa; lia|constructor]|].
    exists (u "n"); eexists; split; [reflexivity|split; [vm_compute; reflexivity|vm_compute; reflexivity]].
  - apply (v_fails _ _ [_] _ [_]); [constructor; [apply Fa; lia|constructor]|apply f_nofile].
  - apply (v_fails _ _ [] _ []); [constructor|apply f_missing; vm_compute; reflexivity].
  - apply v_fresh; constructor; [apply Fa; lia|constructor; [|constructor]].
    exists (u "n"); eexists; split; [reflexivity|split; [vm_compute; reflexivity|vm_compute; discriminate]].
Qed.

(** ** C25 *)
Theorem C25_store_then_try : forall set_order O oeq none is_none dump load encode decode readable writable,
  @pickle_ok O oeq none is_none dump load encode decode ->
  forall st now obj f a p st',
  store_cache_object dump encode writable st now obj f a p = (st', Ok tt) -> readable f = true ->
  (forall q, q <> f -> dget q st' = dget q st) /\
  exists obj', oeq obj' obj = true /\ forall a' p' deps,
    try_cache set_order oeq none load decode readable st' f a' p' deps =
    match needs_update set_order st' f deps with
    | Raise e => Raise e
    | Ok true => Ok none
    | Ok false => Ok (if oeq a a' && oeq p p' then obj' else none)
    end.
Proof. intros so O oeq none is_none dump load encode decode readable writable K; exact (store_try so oeq none is_none dump load encode decode readable writable K). Qed.
Print Assumptions C25_store_then_try.

Example C25_case : pickle_ok Z.eqb (-1) znone zdump zload zid zid /\
  exists st', store_cache_object zdump zid any (zfs 5 1) 10 8 cache_f 3 0 = (st', Ok tt) /\
  try_cache (fun l => l) Z.eqb (-1) zload zid any st' cache_f 3 0 [DepPath dep_f] = Ok 8 /\
  try_cache (fun l => l) Z.eqb (-1) zload zid any st' cache_f 4 0 [DepPath dep_f] = Ok (-1) /\
  needs_update (fun l => l) st' cache_f [DepPath dep_f] = Ok false.
Proof. split; [exact zpickle_ok|]; eexists; split; [vm_compute; reflexivity|]; vm_compute; repeat split. Qed.

(** ** C26.  After every history of calls, crashed calls, file writes and
    removals in which dependency writes get a later time stamp than the earlier
    calls: a call that returns, returns the method's value for the current
    dependency contents. *)
Theorem C26_never_stale_partial : forall set_order, (forall l, Permutation (set_order l) l) ->
  forall O oeq none is_none dump load encode decode readable writable,
  @pickle_ok O oeq none is_none dump load encode decode ->
  forall W method cache_file deps g, @depends_on O W oeq deps method g -> ~ watched deps cache_file ->
  forall w h, NoDup (dkeys (snd w)) -> dget cache_file (snd w) = None -> late_writes cache_file deps [] h ->
  forall now a p,
  let call := disk_call set_order oeq none is_none dump load encode decode readable writable method cache_file deps now in
  let w1 := fst (run set_order oeq none is_none dump load encode decode readable writable method cache_file deps w h) in
  forall v, snd (call w1 a p) = Ok v -> exists v', g a p (contents (snd w1)) = Ok v' /\ oeq v v' = true.
Proof.
  intros so sok O oeq none is_none dump load encode decode readable writable K W method f deps g D N w h ND E L now a p.
  exact (history_right so sok oeq none is_none dump load encode decode readable writable K method f deps g D N w h ND E L now a p).
Qed.
Print Assumptions C26_never_stale_partial.

(** the only ways to fail *)
Theorem C26_failures : forall set_order O oeq none is_none dump load encode decode readable writable,
  @pickle_ok O oeq none is_none dump load encode decode ->
  forall W method cache_file deps g, @depends_on O W oeq deps method g ->
  forall now w a p e,
  snd (disk_call set_order oeq none is_none dump load encode decode readable writable method cache_file deps now w a p) = Raise e ->
  needs_update set_order (snd w) cache_file deps = Raise e \/ g a p (contents (snd w)) = Raise e \/
  exists v, g a p (contents (snd w)) = Ok v /\
            snd (store_cache_object dump encode writable (snd w) now v cache_file a p) = Raise e.
Proof.
  intros so O oeq none is_none dump load encode decode readable writable K W method f deps g D.
  exact (disk_call_total so oeq none is_none dump load encode decode readable writable K method f deps g D).
Qed.
Print Assumptions C26_failures.

(** stale values: a dependency written in the tick of the store, and a
    dependency written by another process while the method runs *)
Theorem C26_same_tick_refuted : depends_on Z.eqb [DepPath dep_f] zmethod zg /\
  exists h, snd (zrun (0%nat, zfs 5 1) h) = [Ok 8; Ok 8] /\
  zg 3 0 (contents (snd (fst (zrun (0%nat, zfs 5 1) h)))) = Ok 10 /\
  h = [ECall 10 3 0; EWrite dep_f {| content := [7]; mtime := 10 |}; ECall 11 3 0].
Proof. exact (conj zdepends same_tick). Qed.
Print Assumptions C26_same_tick_refuted.

Theorem C26_race_refuted : let h := [ECall 10 3 0; ECall 11 3 0] in
  let out := run (fun l => l) Z.eqb (-1) znone zdump zload zid zid any any raced cache_f [DepPath dep_f] (0%nat, zfs 5 1) h in
  snd out = [Ok 8; Ok 8] /\ zg 3 0 (contents (snd (fst out))) = Ok 10.
Proof. exact race. Qed.
Print Assumptions C26_race_refuted.

Example C26_case : let h := [ECall 10 3 0; EWrite dep_f {| content := [7]; mtime := 11 |}; ECrash 12 3 0 3; ECall 13 3 0; ECall 14 3 0] in
  late_writes cache_f [DepPath dep_f] [] h /\ ~ watched [DepPath dep_f] cache_f /\
  snd (zrun (0%nat, zfs 5 1) h) = [Ok 8; Ok 10; Ok 10].
Proof.
  cbn zeta; split; [|split].
  - cbn [late_writes]; split; [discriminate|split; [|exact I]].
    intros _; constructor; [cbn [mtime]; lia|constructor].
  - intros [[X|[]]|[m [[X|[]] _]]]; discriminate.
  - vm_compute; reflexivity.
Qed.

(** ** C27 *)
Theorem C27_torn_cache_file : forall set_order O oeq none is_none dump load encode decode readable,
  @pickle_ok O oeq none is_none dump load encode decode ->
  forall st f a p obj n m,
  dget f st = Some {| content := firstn n (encode f (fst (dump3 dump a p obj))); mtime := m |} ->
  forall a' p' deps r, try_cache set_order oeq none load decode readable st f a' p' deps = Ok r ->
  r = none \/ (oeq r obj = true /\ oeq a a' = true /\ oeq p p' = true).
Proof.
  intros so O oeq none is_none dump load encode decode readable K.
  exact (torn_try so oeq none is_none dump load encode decode readable K).
Qed.
Print Assumptions C27_torn_cache_file.

(** the following proxied call is right: C26 with a history ending in a crash *)
Theorem C27_call_after_crash : forall set_order, (forall l, Permutation (set_order l) l) ->
  forall O oeq none is_none dump load encode decode readable writable,
  @pickle_ok O oeq none is_none dump load encode decode ->
  forall W method cache_file deps g, @depends_on O W oeq deps method g -> ~ watched deps cache_file ->
  forall w h now a p n, NoDup (dkeys (snd w)) -> dget cache_file (snd w) = None ->
  late_writes cache_file deps [] (h ++ [ECrash now a p n]) ->
  forall now' a' p',
  let call := disk_call set_order oeq none is_none dump load encode decode readable writable method cache_file deps now' in
  let w1 := fst (run set_order oeq none is_none dump load encode decode readable writable method cache_file deps w
                   (h ++ [ECrash now a p n])) in
  forall v, snd (call w1 a' p') = Ok v -> exists v', g a' p' (contents (snd w1)) = Ok v' /\ oeq v v' = true.
Proof.
  intros so sok O oeq none is_none dump load encode decode readable writable K W method f deps g D N w h now a p n ND E L now' a' p'.
  exact (history_right so sok oeq none is_none dump load encode decode readable writable K method f deps g D N w
           (h ++ [ECrash now a p n]) ND E L now' a' p').
Qed.
Print Assumptions C27_call_after_crash.

Example C27_case : forall n, In n [0; 1; 2; 3; 4; 5]%nat ->
  snd (zrun (0%nat, zfs 5 1) [ECrash 10 3 0 n; ECall 11 3 0]) = [Ok 8] /\
  try_cache (fun l => l) Z.eqb (-1) zload zid any (snd (fst (zrun (0%nat, zfs 5 1) [ECrash 10 3 0 n]))) cache_f 3 0 [] = Ok (-1).
Proof. intros n H; repeat (destruct H as [<-|H]; [vm_compute; split; reflexivity|]); destruct H. Qed.

(** the cache file is a standard stream when it is called '-', and only then *)
Theorem C27_standard_streams name : (sopen_std name (u "rb") = true <-> name = [45]) /\ (sopen_std name (u "wb") = true <-> name = [45]).
Proof.
  change [45] with (u "-"). split; unfold sopen_std, sopen; (split; [|intros ->; reflexivity]); cbn zeta;
  destruct (endswith (u ".bz2") name); try discriminate; destruct (endswith (u ".gz") name); try discriminate;
  destruct (eqb_spec name (u "-")) as [-> | N]; try discriminate; reflexivity.
Qed.
Print Assumptions C27_standard_streams.
(** ** C28.  Holds for results other than None. *)
Theorem C28_no_recomputation_partial : forall set_order O oeq none is_none dump load encode decode readable writable,
  @pickle_ok O oeq none is_none dump load encode decode ->
  forall W (method : W * list (str * file) -> O -> O -> (W * list (str * file)) * res O) f deps now w a p w1 v,
  let call := disk_call set_order oeq none is_none dump load encode decode readable writable method f deps in
  call now w a p = (w1, Ok v) ->
  is_none v = false -> readable f = true -> needs_update set_order (snd w1) f deps = Ok false ->
  exists v', oeq v' v = true /\
  forall now' a' p', oeq a a' = true -> oeq p p' = true -> call now' w1 a' p' = (w1, Ok v').
Proof.
  intros so O oeq none is_none dump load encode decode readable writable K W method.
  exact (disk_call_repeat so oeq none is_none dump load encode decode readable writable K method).
Qed.
Print Assumptions C28_no_recomputation_partial.

Theorem C28_none_refuted : let out := zrun (0%nat, zfs 5 1) [ECall 10 (-6) 0; ECall 11 (-6) 0; ECall 12 (-6) 0] in
  snd out = [Ok (-1); Ok (-1); Ok (-1)] /\ fst (fst out) = 3%nat.
Proof. exact none_recomputed. Qed.
Print Assumptions C28_none_refuted.

Example C28_case : let out := zrun (0%nat, zfs 5 1) [ECall 10 3 0; ECall 11 3 0; ECall 12 3 0] in
  snd out = [Ok 8; Ok 8; Ok 8] /\ fst (fst out) = 1%nat /\
  needs_update (fun l => l) (snd (fst out)) cache_f [DepPath dep_f] = Ok false.
Proof. vm_compute; repeat split. Qed.
