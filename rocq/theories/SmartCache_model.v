(* SmartCache_model.v -- model of /repo/cjktools/smart_cache.py

   Python objects are an arbitrary type [O] with a boolean [==].  pickle is a
   pair of functions on byte lists, compression (.gz/.bz2, chosen by
   common.sopen) a pair of functions on byte lists per file name.  The
   CACHE_DEBUG prints are in CacheNest_model.v; the copied __doc__ is not
   modelled. *)
From Verif Require Import Base PyStr Common_model.

(* ------------------------------------------------------------------ *)
(** ** memory_proxy *)
Section Memory.
  Context {O V S : Type}.
  Variable oeq : O -> O -> bool.          (* a == b *)
  Variable hashable : O -> bool.          (* hash(a) succeeds *)
  Notation key := (list O * list (str * O))%type (only parsing).
  Variable method : S -> key -> S * res V.    (* method( *args, **params ) *)

  (* == of two keys (args, tuple(params.items())) *)
  Definition args_eq (a b : list O) : bool := list_eqb oeq a b.
  Definition items_eq (p q : list (str * O)) : bool := list_eqb (fun x y => eqb (fst x) (fst y) && oeq (snd x) (snd y)) p q.
  Definition key_eq (k k' : key) : bool := args_eq (fst k) (fst k') && items_eq (snd k) (snd k').
  Definition key_hashable (k : key) : bool := forallb hashable (fst k) && forallb (fun x => hashable (snd x)) (snd k).

  (* lookup in method_dict; the keys stored are hashable *)
  Fixpoint mget (k : key) (d : list (key * V)) : option V :=
    match d with [] => None | (k', v) :: r => if key_eq k k' then Some v else mget k r end.

  (* smart_cache.py:79-88  proxy_method of memory_proxy: the method's state and
     method_dict before and after.  [method_dict[key] = result] only runs when
     the key is absent. *)
  Definition memory_call (s : S) (method_dict : list (key * V)) (k : key) : S * list (key * V) * res V :=
    if key_hashable k then
      match mget k method_dict with
      | Some v => (s, method_dict, Ok v)
      | None =>
          match method s k with
          | (s', Ok result) => (s', method_dict ++ [(k, result)], Ok result)
          | (s', Raise e) => (s', method_dict, Raise e)
          end
      end
    else (s, method_dict, Raise TypeError).

  (* a sequence of calls; an exception is seen by the caller, who may go on *)
  Fixpoint memory_run (s : S) (d : list (key * V)) (calls : list key) : S * list (key * V) * list (res V) :=
    match calls with
    | [] => (s, d, [])
    | k :: r =>
        let '(s', d', v) := memory_call s d k in
        let '(s'', d'', vs) := memory_run s' d' r in
        (s'', d'', v :: vs)
    end.
End Memory.

(* ------------------------------------------------------------------ *)
(** ** Files *)
Notation path := (list Z) (only parsing).
Record file := { content : list Z; mtime : Z }.
Notation fs := (dict (list Z) file) (only parsing).

(* a module object: its __file__ attribute, which may be missing (built-in
   modules) or None (namespace packages), and its namespace *)
Inductive file_attr := NoFile | FileIs (f : option path).
Inductive module_item := ModuleItem (f : file_attr) | OtherItem.
Record pymodule := { m_file : file_attr; m_dict : list module_item }.
Inductive dependency := DepPath (p : path) | DepModule (m : pymodule) | DepOther.

Section Disk.
  (* iteration order of a set of file names *)
  Variable set_order : list (option path) -> list (option path).

  (* path.getmtime *)
  Definition getmtime (st : fs) (p : option path) : res Z :=
    match p with
    | None => Raise TypeError
    | Some p => match dget p st with Some f => Ok (mtime f) | None => Raise OSError end
    end.

  (* smart_cache.py:184-196  _get_module_dependencies *)
  Definition get_module_dependencies (m : pymodule) : res (list (option path)) :=
    match m_file m with
    | NoFile => Raise AttributeError
    | FileIs f =>
        Ok (set_order (fold_left (fun acc item =>
                         match item with ModuleItem (FileIs g) => sadd g acc | _ => acc end) (m_dict m) [f]))
    end.

  (* smart_cache.py:177-179  the inner loop *)
  Fixpoint any_newer (st : fs) (target_time : Z) (filenames : list (option path)) : res bool :=
    match filenames with
    | [] => Ok false
    | f :: r => do t <- getmtime st f; if target_time <? t then Ok true else any_newer st target_time r
    end.

  (* smart_cache.py:169-181  the outer loop *)
  Fixpoint check_dependencies (st : fs) (target_time : Z) (dependencies : list dependency) : res bool :=
    match dependencies with
    | [] => Ok false
    | d :: r =>
        do filenames <- match d with
                        | DepPath p => Ok [Some p]
                        | DepModule m => get_module_dependencies m
                        | DepOther => Raise TypeError
                        end;
        do newer <- any_newer st target_time filenames;
        if newer then Ok true else check_dependencies st target_time r
    end.

  (* smart_cache.py:155-181  needs_update *)
  Definition needs_update (st : fs) (target : path) (dependencies : list dependency) : res bool :=
    match dget target st with
    | None => Ok true
    | Some f => check_dependencies st (mtime f) dependencies
    end.

  Context {O : Type}.
  Variable oeq : O -> O -> bool.                 (* a == b *)
  Variable none : O.                             (* None *)
  Variable is_none : O -> bool.                  (* a is None *)
  Variable dump : O -> list Z * option exn.      (* pickle.dump: bytes written, exception *)
  Variable load : list Z -> option (O * list Z). (* pickle.load: object and rest of the stream; None if it raises *)
  Variable encode decode : path -> list Z -> list Z.   (* by file name; plain files: identity *)
  Variable readable writable : path -> bool.     (* opening succeeds *)

  (* sopen(filename, 'rb', encoding=None) / (.., 'wb', ..): '-' is standard
     input/output, a text stream that cannot hold a pickle *)
  Definition sopen_std (filename : path) (mode : str) : bool :=
    match sopen false (fun _ => true) (fun _ => None) filename mode None with
    | (_, Ok (_, Stdin)) | (_, Ok (_, Stdout)) => true
    | _ => false
    end.

  (* smart_cache.py:115-130  the try block; [None] stands for an exception,
     [Some none] for falling through *)
  Definition read_cache (st : fs) (filename : path) (args params : O) : option O :=
    if sopen_std filename (u "rb") then None
    else if readable filename then
      match dget filename st with
      | None => None
      | Some f =>
          match load (decode filename (content f)) with
          | None => None
          | Some (stored_args, r1) =>
              match load r1 with
              | None => None
              | Some (stored_params, r2) =>
                  if oeq stored_args args && oeq stored_params params then
                    match load r2 with Some (obj, _) => Some obj | None => None end
                  else Some none
              end
          end
      end
    else None.

  (* smart_cache.py:95-130  try_cache *)
  Definition try_cache (st : fs) (filename : path) (args params : O) (dependencies : list dependency) : res O :=
    do stale <- needs_update st filename dependencies;
    if stale then Ok none
    else match read_cache st filename args params with Some obj => Ok obj | None => Ok none end.

  (* three consecutive pickle.dump calls: bytes written until the first exception *)
  Definition dump3 (args params obj : O) : list Z * option exn :=
    match dump args with
    | (b1, Some e) => (b1, Some e)
    | (b1, None) =>
        match dump params with
        | (b2, Some e) => (b1 ++ b2, Some e)
        | (b2, None) => let '(b3, e) := dump obj in (b1 ++ b2 ++ b3, e)
        end
    end.

  (* smart_cache.py:133-152  store_cache_object at time [now]; opening with 'wb'
     truncates, closing flushes what was written *)
  Definition store_cache_object (st : fs) (now : Z) (obj : O) (filename : path) (args params : O) : fs * res unit :=
    if sopen_std filename (u "wb") then (st, Raise TypeError)
    else if writable filename then
      let '(bytes, e) := dump3 args params obj in
      (dset filename {| content := encode filename bytes; mtime := now |} st,
       match e with Some e => Raise e | None => Ok tt end)
    else (st, Raise OSError).

  (* smart_cache.py:37-53  the proxy of disk_proxy_direct.  [W] is the state of
     the world outside the file system; the method sees and may change both. *)
  Context {W : Type}.
  Variable method : W * fs -> O -> O -> (W * fs) * res O.

  Definition disk_call (cache_file : path) (dependencies : list dependency)
             (now : Z) (w : W * fs) (args params : O) : (W * fs) * res O :=
    match try_cache (snd w) cache_file args params dependencies with
    | Raise e => (w, Raise e)
    | Ok cached_val =>
        if is_none cached_val then
          match method w args params with
          | (w', Raise e) => (w', Raise e)
          | ((x, st'), Ok result) =>
              let '(st'', r) := store_cache_object st' now result cache_file args params in
              ((x, st''), match r with Ok _ => Ok result | Raise e => Raise e end)
          end
        else (w, Ok cached_val)
    end.

  (* smart_cache.py:60-64  disk_proxy(cache_file, dependencies)(method) is the
     same proxy *)

  (* a proxied call whose process dies while store_cache_object is writing,
     leaving [n] bytes in the file *)
  Definition disk_call_crash (cache_file : path) (dependencies : list dependency)
             (now : Z) (w : W * fs) (args params : O) (n : nat) : W * fs :=
    match try_cache (snd w) cache_file args params dependencies with
    | Raise _ => w
    | Ok cached_val =>
        if is_none cached_val then
          match method w args params with
          | (w', Raise _) => w'
          | ((x, st'), Ok result) =>
              if sopen_std cache_file (u "wb") then (x, st')
              else if writable cache_file then
                (x, dset cache_file {| content := firstn n (encode cache_file (fst (dump3 args params result)));
                                       mtime := now |} st')
              else (x, st')
          end
        else w
    end.

  (* histories: proxied calls interleaved with other processes writing and
     removing files *)
  Inductive event :=
  | ECall (now : Z) (args params : O)
  | ECrash (now : Z) (args params : O) (n : nat)
  | EWrite (p : path) (f : file)
  | ERemove (p : path).

  Fixpoint run (cache_file : path) (deps : list dependency) (w : W * fs) (h : list event)
    : (W * fs) * list (res O) :=
    match h with
    | [] => (w, [])
    | ECall now a p :: r =>
        let '(w', v) := disk_call cache_file deps now w a p in
        let '(w'', vs) := run cache_file deps w' r in
        (w'', v :: vs)
    | ECrash now a p n :: r => run cache_file deps (disk_call_crash cache_file deps now w a p n) r
    | EWrite p f :: r => run cache_file deps (fst w, dset p f (snd w)) r
    | ERemove p :: r => run cache_file deps (fst w, ddel p (snd w)) r
    end.
End Disk.
