(* Procs_model.v -- several processes calling one disk-cached method of
   /repo/cjktools/smart_cache.py at the same time.

   The processes share the file system and are interleaved step by step by an
   arbitrary scheduler; a process that is never scheduled again has been
   killed.  The method is a function of its arguments, the dependencies stay as
   they are, nobody removes the cache file, and its name asks for no
   compression.  Python's buffered streams are modelled by their system calls:
   a reader asks for [bufsize] bytes at its offset, a writer hands over the
   pieces [cut] makes of the data, each at its own offset. *)
From Verif Require Import Base PyStr Common_model SmartCache_model.

(* write(2) of [b] at offset [off]: a hole reads as zeros *)
Definition overlay (off : nat) (b c : list Z) : list Z :=
  match b with
  | [] => c
  | _ => firstn off (c ++ repeat 0 (off - length c)) ++ b ++ skipn (off + length b) c
  end.

(* what is left to a call of the proxy, smart_cache.py:37-53 *)
Inductive proc {O : Type} :=
| Start (args params : O)                                     (* at try_cache *)
| Reading (args params : O) (off : nat) (seen : list Z)       (* line 116, the stream is open *)
| Computing (args params : O)                                 (* at method( *args, **params ) *)
| Writing (args params result : O) (off : nat) (pending : list (list Z)) (failed : option exn)  (* line 149 *)
| Done (args params : O) (result : res O).
Arguments proc : clear implicits.

Section Procs.
  Variable set_order : list (option path) -> list (option path).
  Context {O : Type}.
  Variable oeq : O -> O -> bool.
  Variable none : O.
  Variable is_none : O -> bool.
  Variable dump : O -> list Z * option exn.
  Variable load : list Z -> option (O * list Z).
  Variable readable writable : path -> bool.
  Variable bufsize : nat.
  Variable cut : list Z -> list (list Z).
  Variable method : O -> O -> res O.
  Variable cache_file : path.
  Variable dependencies : list dependency.

  Definition bytes_of (st : fs) : list Z :=
    match dget cache_file st with Some f => content f | None => [] end.

  (* smart_cache.py:117-130  the three loads and the comparison, on the bytes
     the stream delivered; every exception ends in None.  Bytes after the third
     object, which a real reader may not ask for, change nothing. *)
  Definition parse_cache (seen : list Z) (args params : O) : O :=
    match load seen with
    | None => none
    | Some (stored_args, r1) =>
        match load r1 with
        | None => none
        | Some (stored_params, r2) =>
            if oeq stored_args args && oeq stored_params params then
              match load r2 with Some (obj, _) => obj | None => none end
            else none
        end
    end.

  (* one step of a process at time [now] *)
  Definition pstep (st : fs) (now : Z) (q : proc O) : fs * proc O :=
    match q with
    (* smart_cache.py:112-116  try_cache up to the opened stream *)
    | Start a p =>
        (st, match needs_update set_order st cache_file dependencies with
             | Raise e => Done a p (Raise e)
             | Ok true => Computing a p
             | Ok false =>
                 if sopen_std cache_file (u "rb") then Computing a p
                 else if readable cache_file then Reading a p 0 [] else Computing a p
             end)
    (* one read(2); at the end of the file the bytes seen are unpickled *)
    | Reading a p off seen =>
        match firstn bufsize (skipn off (bytes_of st)) with
        | [] => let cached_val := parse_cache seen a p in
                (st, if is_none cached_val then Computing a p else Done a p (Ok cached_val))
        | chunk => (st, Reading a p (off + length chunk) (seen ++ chunk))
        end
    (* smart_cache.py:44, 149  the method, then opening with 'wb' *)
    | Computing a p =>
        match method a p with
        | Raise e => (st, Done a p (Raise e))
        | Ok result =>
            if sopen_std cache_file (u "wb") then (st, Done a p (Raise TypeError))
            else if writable cache_file then
              let '(bytes, e) := dump3 dump a p result in
              (dset cache_file {| content := []; mtime := now |} st, Writing a p result 0 (cut bytes) e)
            else (st, Done a p (Raise OSError))
        end
    (* smart_cache.py:150-152  one write(2); closing when nothing is left *)
    | Writing a p result off (b :: pending) e =>
        (dset cache_file {| content := overlay off b (bytes_of st); mtime := now |} st,
         Writing a p result (off + length b) pending e)
    | Writing a p result off [] e => (st, Done a p (match e with Some e => Raise e | None => Ok result end))
    | Done _ _ _ => (st, q)
    end.

  Fixpoint update (i : nat) (q : proc O) (l : list (proc O)) : list (proc O) :=
    match l, i with
    | [], _ => []
    | _ :: r, Datatypes.O => q :: r
    | x :: r, Datatypes.S i => x :: update i q r
    end.

  (* the scheduler lets process [i] make a step at time [now] *)
  Definition cstep (s : fs * list (proc O)) (e : nat * Z) : fs * list (proc O) :=
    match nth_error (snd s) (fst e) with
    | Some q => let '(st', q') := pstep (fst s) (snd e) q in (st', update (fst e) q' (snd s))
    | None => s
    end.

  Definition crun (s : fs * list (proc O)) (schedule : list (nat * Z)) : fs * list (proc O) :=
    fold_left cstep schedule s.

  (* processes about to call the proxy *)
  Definition starting (calls : list (O * O)) : list (proc O) := map (fun c => Start (fst c) (snd c)) calls.
End Procs.
