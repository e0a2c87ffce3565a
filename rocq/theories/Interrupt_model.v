(* Interrupt_model.v -- calls through the proxies of /repo/cjktools/smart_cache.py
   struck by exceptions from outside: the KeyboardInterrupt of a Ctrl-C, what a
   signal handler raises, a MemoryError.

   Python looks for such exceptions between its instructions.  Here a call passes
   points, each at a line of the source, and an exception may strike at any of
   them.  needs_update, which changes nothing, is one step.  As CPython runs it, an
   exception refers, through its traceback, to the streams of the frames it has
   left, and a stream nobody refers to any more is closed at once. *)
From Verif Require Import Base PyStr Common_model SmartCache_model.

(** ** memory_proxy *)
Section Memory.
  Context {O V S : Type}.
  Variable oeq : O -> O -> bool.
  Variable hashable : O -> bool.
  Notation key := (list O * list (str * O))%type (only parsing).
  Variable method : S -> key -> S * res V.
  (* the method struck by an exception it does not catch: the state it leaves *)
  Variable halted : exn -> S -> key -> S.
  (* what strikes at line 80-81, in the method, at line 87 before and after the
     insertion *)
  Record strikes := { at_key : option exn; in_method : option exn; before_insert : option exn; after_insert : option exn }.

  (* smart_cache.py:79-88 *)
  Definition memory_call_struck (x : strikes) (s : S) (method_dict : list (key * V)) (k : key) : S * list (key * V) * res V :=
    match at_key x with
    | Some e => (s, method_dict, Raise e)
    | None =>
        if key_hashable hashable k then
          match mget oeq k method_dict with
          | Some v => (s, method_dict, Ok v)
          | None =>
              match in_method x with
              | Some e => (halted e s k, method_dict, Raise e)
              | None =>
                  match method s k with
                  | (s', Raise e) => (s', method_dict, Raise e)
                  | (s', Ok result) =>
                      match before_insert x with
                      | Some e => (s', method_dict, Raise e)
                      | None => (s', method_dict ++ [(k, result)], match after_insert x with Some e => Raise e | None => Ok result end)
                      end
                  end
              end
          end
        else (s, method_dict, Raise TypeError)
    end.
  Fixpoint memory_run_struck (s : S) (d : list (key * V)) (calls : list (strikes * key)) : S * list (key * V) * list (res V) :=
    match calls with
    | [] => (s, d, [])
    | (x, k) :: r =>
        let '(s', d', v) := memory_call_struck x s d k in
        let '(s'', d'', vs) := memory_run_struck s' d' r in
        (s'', d'', v :: vs)
    end.
End Memory.

(** ** disk_proxy_direct *)
Section Interrupt.
  Variable set_order : list (option path) -> list (option path).
  Context {O W : Type}.
  Variable oeq : O -> O -> bool.
  Variable none : O.
  Variable is_none : O -> bool.
  Variable dump : O -> list Z * option exn.
  Variable load : list Z -> option (O * list Z).
  Variable encode decode : path -> list Z -> list Z.
  Variable readable writable : path -> bool.
  Variable method : W * fs -> O -> O -> (W * fs) * res O.
  (* the method struck by an exception it does not catch: what it leaves *)
  Variable halted : exn -> W * fs -> O -> O -> W * fs.
  (* what strikes at the n-th point; if a pickle is being written there, how many
     of its bytes have reached the stream *)
  Variable strike : nat -> option (exn * nat).

  (* a stream to read, a stream to write with what it was given so far *)
  Inductive stream := Reader | Writer (name : path) (given : list Z) (now : Z).
  (* the points passed with what struck there, the streams made and those open *)
  Record world := mkworld { outside : W; files : fs; made : nat; open : dict nat stream; passed : list (nat * option exn) }.
  Definition M (A : Type) : Type := world -> world * res A.
  Definition ret {A} (a : A) : M A := fun w => (w, Ok a).
  Definition fail {A} (e : exn) : M A := fun w => (w, Raise e).
  Definition seq {A B} (m : M A) (k : A -> M B) : M B :=
    fun w => match m w with (w, Ok a) => k a w | (w, Raise e) => (w, Raise e) end.
  Notation "'get' x <~ m ; k" := (seq m (fun x => k)) (at level 200, x name, m at level 100, k at level 200, right associativity).
  Notation "'go' m ; k" := (seq m (fun _ => k)) (at level 200, m at level 100, k at level 200, right associativity).

  Definition clock (w : world) : nat := length (passed w).
  Definition pass (line : nat) (w : world) : world :=
    mkworld (outside w) (files w) (made w) (open w) (passed w ++ [(line, option_map fst (strike (clock w)))]).
  Definition point (line : nat) : M unit :=
    fun w => (pass line w, match strike (clock w) with Some (e, _) => Raise e | None => Ok tt end).

  (* closing; a stream to write puts what it was given into the file *)
  Definition close (h : nat) (w : world) : world :=
    mkworld (outside w)
      match dget h (open w) with Some (Writer f b t) => dset f {| content := encode f b; mtime := t |} (files w) | _ => files w end
      (made w) (ddel h (open w)) (passed w).
  (* nobody refers to the streams from the [n]-th on any more *)
  Definition release (n : nat) (w : world) : world :=
    fold_left (fun w h => close h w) (filter (fun h => (n <=? h)%nat) (dkeys (open w))) w.
  Definition enter (s : stream) (w : world) : world :=
    mkworld (outside w) (files w) (S (made w)) (dset (made w) s (open w)) (passed w).
  (* with opening as h: body *)
  Definition with_stream {A} (line : nat) (opening : M (nat * A)) {B} (body : nat -> A -> M B) : M B :=
    fun w =>
      match opening w with
      | (w, Raise e) => (w, Raise e)
      | (w, Ok (h, a)) =>
          match point line w with
          | (w, Raise e) => (w, Raise e)        (* the with statement has not begun *)
          | (w, Ok _) =>
              let '(w, r) := body h a w in
              match point line w with
              | (w, Raise e) => (w, Raise e)    (* __exit__ has not been called *)
              | (w, Ok _) =>
                  match point line (close h w) with (w, Raise e) => (w, Raise e) | (w, Ok _) => (w, r) end
              end
          end
      end.

  (* common.sopen(filename, 'rb', encoding=None); the bytes the stream delivers *)
  Definition open_read (filename : path) : M (nat * list Z) :=
    go point 116;
    fun w =>
      if sopen_std filename (u "rb") then (w, Raise TypeError)
      else if readable filename then
        match dget filename (files w) with
        | None => (w, Raise OSError)
        | Some f => (enter Reader w, Ok (made w, decode filename (content f)))
        end
      else (w, Raise OSError).
  Definition load_one (line : nat) (b : list Z) : M (O * list Z) :=
    go point line; match load b with Some x => ret x | None => fail EOFError end.
  (* smart_cache.py:116-122; None for falling through *)
  Definition read_block (filename : path) (args params : O) : M (option O) :=
    with_stream 116 (open_read filename) (fun _ b =>
      get x <~ load_one 117 b;
      get y <~ load_one 118 (snd x);
      go point 120;
      if oeq (fst x) args && oeq (fst y) params then
        get z <~ load_one 121 (snd y); go point 122; ret (Some (fst z))
      else ret None).
  (* smart_cache.py:95-130; the exception caught goes when its handler is left *)
  Definition try_cache_struck (filename : path) (args params : O) (dependencies : list dependency) : M O :=
    go point 112;
    fun w =>
      match needs_update set_order (files w) filename dependencies with
      | Raise e => (w, Raise e)
      | Ok true => (go point 113; ret none) w
      | Ok false =>
          match read_block filename args params w with
          | (w', Ok (Some obj)) => (w', Ok obj)
          | (w', Ok None) => (go point 130; ret none) w'
          | (w', Raise _) =>
              match point 128 w' with
              | (w', Raise e) => (w', Raise e)
              | (w', Ok _) => (go point 130; ret none) (release (made w) w')
              end
          end
      end.

  (* common.sopen(filename, 'wb', encoding=None) truncates the file *)
  Definition open_write (now : Z) (filename : path) : M (nat * unit) :=
    go point 149;
    fun w =>
      if sopen_std filename (u "wb") then (w, Raise TypeError)
      else if writable filename then
        (enter (Writer filename [] now)
           (mkworld (outside w) (dset filename {| content := []; mtime := now |} (files w)) (made w) (open w) (passed w)),
         Ok (made w, tt))
      else (w, Raise OSError).
  Definition give (h : nat) (b : list Z) (w : world) : world :=
    mkworld (outside w) (files w) (made w)
      match dget h (open w) with Some (Writer f b0 t) => dset h (Writer f (b0 ++ b) t) (open w) | _ => open w end (passed w).
  (* pickle.dump(v, stream) *)
  Definition dump_one (line : nat) (h : nat) (v : O) : M unit :=
    fun w =>
      let '(b, failed) := dump v in
      match strike (clock w) with
      | Some (e, n) => (give h (firstn n b) (pass line w), Raise e)
      | None => (give h b (pass line w), match failed with Some e => Raise e | None => Ok tt end)
      end.
  (* smart_cache.py:133-152 *)
  Definition store_struck (now : Z) (obj : O) (filename : path) (args params : O) : M unit :=
    with_stream 149 (open_write now filename) (fun h _ => go dump_one 150 h args; go dump_one 151 h params; dump_one 152 h obj).

  (* smart_cache.py:44 *)
  Definition run_method (args params : O) : M O :=
    fun w =>
      let '(w1, r) := match strike (clock w) with
                      | Some (e, _) => (halted e (outside w, files w) args params, Raise e)
                      | None => method (outside w, files w) args params
                      end in
      let w := pass 44 w in
      (mkworld (fst w1) (snd w1) (made w) (open w) (passed w), r).
  (* smart_cache.py:37-53 *)
  Definition call_struck (cache_file : path) (dependencies : list dependency) (now : Z) (args params : O) : M O :=
    go point 38;
    get cached_val <~ try_cache_struck cache_file args params dependencies;
    go point 40;
    if is_none cached_val then
      get result <~ run_method args params;
      go point 47;
      go store_struck now result cache_file args params;
      go point 48;
      ret result
    else (go point 53; ret cached_val).

  (* histories: calls, whose caller lets go of the exception; crashes; files
     written and removed by others *)
  Fixpoint run_struck (cache_file : path) (deps : list dependency) (w : world) (h : list (@event O)) : world * list (res O) :=
    match h with
    | [] => (w, [])
    | ECall now a p :: r =>
        let '(w', v) := call_struck cache_file deps now a p w in
        let '(w'', vs) := run_struck cache_file deps (release (made w) w') r in
        (w'', v :: vs)
    | ECrash now a p n :: r =>
        let '(x, st) := disk_call_crash set_order oeq none is_none dump load encode decode readable writable method cache_file deps
                          now (outside w, files w) a p n in
        run_struck cache_file deps (mkworld x st (made w) (open w) (passed w)) r
    | EWrite p f :: r => run_struck cache_file deps (mkworld (outside w) (dset p f (files w)) (made w) (open w) (passed w)) r
    | ERemove p :: r => run_struck cache_file deps (mkworld (outside w) (ddel p (files w)) (made w) (open w) (passed w)) r
    end.
End Interrupt.
