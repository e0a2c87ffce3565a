(* CacheNest_model.v -- several methods behind disk_proxy or disk_proxy_direct of
   /repo/cjktools/smart_cache.py, which may call one another, with the lines
   printed when CACHE_DEBUG is set.

   A method is a program that reads files and calls cached methods; an exception
   it does not raise itself goes on to its caller.  What it does besides is not
   modelled.  The process may die in any store, leaving a part of the file. *)
From Verif Require Import Base PyStr Common_model SmartCache_model.

(* os.path.basename *)
Fixpoint basename_ (name found : str) : str :=
  match name with [] => found | c :: r => basename_ r (if c =? u1 "/" then r else found) end.
Definition basename (name : str) : str := basename_ name name.

Section Nest.
  (** the names of the methods, and the objects *)
  Context {F O : Type}.
  Inductive prog :=
  | Ret (r : res O)
  | ReadFile (q : path) (k : option (list Z) -> prog)
  | Call (f : F) (args params : O) (k : O -> prog).
  (** the arguments of the decorator and the method *)
  Record cached := { cache_file : path; dependencies : list dependency; method : O -> O -> prog }.
  Variable the : F -> cached.

  Variable set_order : list (option path) -> list (option path).
  Variable oeq : O -> O -> bool.
  Variable none : O.
  Variable is_none : O -> bool.
  Variable dump : O -> list Z * option exn.
  Variable load : list Z -> option (O * list Z).
  Variable encode decode : path -> list Z -> list Z.
  Variable readable writable : path -> bool.
  (** the time of the store that comes after [n] others, and the bytes left if the process dies in it *)
  Variable now : nat -> Z.
  Variable fate : nat -> option nat.
  (** 'CACHE_DEBUG' in os.environ, and what printing a line raises *)
  Variable debug : bool.
  Variable show : str -> option exn.

  Record world := World { stores : nat; files : fs; printed : list str }.
  Inductive outcome := Returned (r : res O) | Died.

  Definition say (w : world) (line : str) : world * res unit :=
    if debug then
      match show line with
      | None => (World (stores w) (files w) (printed w ++ [line]), Ok tt)
      | Some e => (w, Raise e)
      end
    else (w, Ok tt).
  (* smart_cache.py:146-152; [None] if the process dies *)
  Definition store (w : world) (obj : O) (filename : path) (args params : O) : world * option (res unit) :=
    let t := now (stores w) in
    match fate (stores w) with
    | None =>
        let '(st, r) := store_cache_object dump encode writable (files w) t obj filename args params in
        (World (S (stores w)) st (printed w), Some r)
    | Some n =>
        (World (S (stores w))
           (if sopen_std filename (u "wb") then files w
            else if writable filename then
              dset filename {| content := firstn n (encode filename (fst (dump3 dump args params obj))); mtime := t |} (files w)
            else files w) (printed w), None)
    end.

  (* smart_cache.py:37-54  proxy_method, in the program [Call] *)
  Fixpoint exec (fuel : nat) (w : world) (p : prog) : option (world * outcome) :=
    match fuel with
    | 0%nat => None
    | S n =>
        match p with
        | Ret r => Some (w, Returned r)
        | ReadFile q k => exec n w (k (option_map content (dget q (files w))))
        | Call f args params k =>
            let file := cache_file (the f) in
            match try_cache set_order oeq none load decode readable (files w) file args params (dependencies (the f)) with
            | Raise e => Some (w, Returned (Raise e))
            | Ok cached_val =>
                if is_none cached_val then
                  match say w (u "[cache miss: " ++ basename file ++ u "]") with
                  | (w, Raise e) => Some (w, Returned (Raise e))
                  | (w, Ok _) =>
                      match exec n w (method (the f) args params) with
                      | Some (w, Returned (Ok result)) =>
                          match say w (u "[storing: " ++ basename file ++ u "]") with
                          | (w, Raise e) => Some (w, Returned (Raise e))
                          | (w, Ok _) =>
                              match store w result file args params with
                              | (w, None) => Some (w, Died)
                              | (w, Some (Raise e)) => Some (w, Returned (Raise e))
                              | (w, Some (Ok _)) => exec n w (k result)
                              end
                          end
                      | out => out
                      end
                  end
                else
                  match say w (u "[cache hit: " ++ basename file ++ u "]") with
                  | (w, Raise e) => Some (w, Returned (Raise e))
                  | (w, Ok _) => exec n w (k cached_val)
                  end
            end
        end
    end.
  (** a call from outside *)
  Definition call (fuel : nat) (w : world) (f : F) (args params : O) : option (world * outcome) :=
    exec fuel w (Call f args params (fun v => Ret (Ok v))).
End Nest.
Arguments prog : clear implicits. Arguments cached : clear implicits. Arguments outcome : clear implicits.
