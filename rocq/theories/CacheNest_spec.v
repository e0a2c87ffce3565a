(* CacheNest_spec.v -- what cached methods that call one another should return,
   and the histories of files and calls *)
From Verif Require Import Base PyStr SmartCache_model SmartCache_spec CacheNest_model.

Section Nest.
  Context {F O : Type}.
  Variable the : F -> cached F O.
  Variable oeq : O -> O -> bool.
  Notation prog := (prog F O).

  (** what a program returns without any cache, [c] being the contents of the files *)
  Inductive evals (c : path -> option (list Z)) : prog -> res O -> Prop :=
  | ev_ret r : evals c (Ret r) r
  | ev_read q k r : evals c (k (c q)) r -> evals c (ReadFile q k) r
  | ev_call f a p k v r : evals c (method (the f) a p) (Ok v) -> evals c (k v) r -> evals c (Call f a p k) r
  | ev_fail f a p k e : evals c (method (the f) a p) (Raise e) -> evals c (Call f a p k) (Raise e).

  (** the program reads files of [W] only, and calls methods whose dependencies are all in [W] *)
  Inductive within (W : path -> Prop) : prog -> Prop :=
  | wi_ret r : within W (Ret r)
  | wi_read q k : W q -> (forall x, within W (k x)) -> within W (ReadFile q k)
  | wi_call f a p k : (forall q, watched (dependencies (the f)) q -> W q) -> (forall v, within W (k v)) -> within W (Call f a p k).
  (** the other habit: the dependencies of a method are the files it reads itself and the
      cache files of the methods it calls *)
  Inductive direct (W : path -> Prop) : prog -> Prop :=
  | di_ret r : direct W (Ret r)
  | di_read q k : W q -> (forall x, direct W (k x)) -> direct W (ReadFile q k)
  | di_call f a p k : W (cache_file (the f)) -> (forall v, direct W (k v)) -> direct W (Call f a p k).

  (** the programs do the same with equal objects *)
  Inductive alike : prog -> prog -> Prop :=
  | al_ret r r' : res_eq oeq r r' -> alike (Ret r) (Ret r')
  | al_read q k k' : (forall x, alike (k x) (k' x)) -> alike (ReadFile q k) (ReadFile q k')
  | al_call f a a' p p' k k' : oeq a a' = true -> oeq p p' = true -> (forall v v', oeq v v' = true -> alike (k v) (k' v')) ->
      alike (Call f a p k) (Call f a' p' k').

  Definition is_cache (q : path) : Prop := exists f, q = cache_file (the f).
  Record proper : Prop := {
    (** every method has its own cache file, which no method depends on *)
    own_file : forall f g, cache_file (the f) = cache_file (the g) -> f = g;
    no_source : forall f g, ~ watched (dependencies (the f)) (cache_file (the g));
    same_for_equal : forall f a a' p p', oeq a a' = true -> oeq p p' = true -> alike (method (the f) a p) (method (the f) a' p')
  }.
  (** all that the result depends on is among the dependencies, at whatever depth it is read *)
  Definition complete : Prop := forall f a p, within (watched (dependencies (the f))) (method (the f) a p).

  (** a write that the caches can notice: of no cache file, and with a time later than those of
      the caches that depend on the file *)
  Definition noticed (st : fs) (q : path) (x : file) : Prop :=
    ~ is_cache q /\ forall f y, watched (dependencies (the f)) q -> dget (cache_file (the f)) st = Some y -> mtime y < mtime x.
  (** nothing can go wrong but the methods themselves *)
  Variable writable : path -> bool.
  Variable dump : O -> list Z * option exn.
  Variable debug : bool.
  Variable show : str -> option exn.
  Record reliable (st : fs) : Prop := {
    rl_quiet : debug = true -> forall l, show l = None;
    rl_files : forall f, writable (cache_file (the f)) = true /\ cache_file (the f) <> u "-";
    rl_dump : forall o, snd (dump o) = None;
    rl_deps : forall f d, In d (dependencies (the f)) -> valid_dep d;
    rl_there : forall f q, watched (dependencies (the f)) q -> dget q st <> None
  }.

  (** [step w w'] says that a call, whatever its end, may lead from [w] to [w'] *)
  Variable step : world -> world -> Prop.
  Inductive reached : world -> Prop :=
  | re_start w : NoDup (dkeys (files w)) -> (forall q, is_cache q -> dget q (files w) = None) -> reached w
  | re_call w w' : reached w -> step w w' -> reached w'
  | re_write w q x : reached w -> noticed (files w) q x -> reached (World (stores w) (dset q x (files w)) (printed w))
  | re_remove w q : reached w -> reached (World (stores w) (ddel q (files w)) (printed w)).

  (** the lines for the calls made one after the other, [n] of which were stored: a miss
      comes before the lines of the method, the store after them *)
  Inductive told_lines : nat -> list str -> Prop :=
  | tl_nil : told_lines 0 []
  | tl_hit f n rest : told_lines n rest -> told_lines n ((u "[cache hit: " ++ basename (cache_file (the f)) ++ u "]") :: rest)
  | tl_miss f n inner m rest : told_lines n inner -> told_lines m rest ->
      told_lines (n + S m) ((u "[cache miss: " ++ basename (cache_file (the f)) ++ u "]") :: inner ++
                            (u "[storing: " ++ basename (cache_file (the f)) ++ u "]") :: rest).
End Nest.
(** the step from [w] to [w'] is a call from outside, whatever its end *)
Definition some_call {F O} (call : nat -> world -> F -> O -> O -> option (world * outcome O)) (w w' : world) : Prop :=
  exists n f a p o, call n w f a p = Some (w', o).
(** but for what is printed *)
Definition same_state (w w' : world) : Prop := stores w = stores w' /\ files w = files w'.
