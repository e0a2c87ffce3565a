(* Common_model.v -- model of /repo/cjktools/common.py *)
From Verif Require Import Base PyStr.

(* common.py:19-27  filter_comments, as the list of yielded lines *)
Fixpoint filter_comments (file_stream : list str) : list str :=
  match file_stream with
  | [] => []
  | line :: r => if startswith (u "#") line then filter_comments r else line :: filter_comments r
  end.

(* the streams sopen chooses between *)
Inductive stream :=
| BZ2File (name mode : str) | GzipFile (name mode : str) | Stdin | Stdout | PlainFile (name mode : str).

Inductive handler := Identity | Reader (encoding : str) | Writer (encoding : str).

Section Sopen.
  Variable py2 : bool.                       (* six.PY2 *)
  Variable codec : str -> bool.              (* codecs.lookup(encoding) succeeds *)
  Variable os_open : stream -> option exn.   (* the exception raised by opening, if any *)

  (* common.py:30-72  sopen: the streams opened (or attempted), the result *)
  Definition sopen (filename mode : str) (encoding : option str) : list stream * res (handler * stream) :=
    let read_mode := mem (u1 "r") mode in
    if read_mode && mem (u1 "w") mode then ([], Raise PlainException)
    else
      match
        match encoding with
        | None => Ok Identity
        | Some e =>
            if eqb e (u "byte") then Ok Identity
            else if py2 then
              if codec e then Ok (if read_mode then Reader e else Writer e) else Raise LookupError
            else Ok Identity
        end
      with
      | Raise e => ([], Raise e)
      | Ok streamhandler =>
          let stream :=
            if endswith (u ".bz2") filename then BZ2File filename mode
            else if endswith (u ".gz") filename then GzipFile filename mode
            else if eqb filename (u "-") then if read_mode then Stdin else Stdout
            else PlainFile filename mode in
          match os_open stream with
          | Some e => ([stream], Raise e)
          | None => ([stream], Ok (streamhandler, stream))
          end
      end.

  (* common.py:75-85  stream_codec *)
  Definition stream_codec (istream : stream) : handler * stream :=
    (if py2 then Reader (u "utf8") else Identity, istream).
End Sopen.

(* ---------------- contexts ---------------- *)
(* open streams of the process: an identifier is in [opened] from the moment it
   is opened until it is closed *)
Record streams := { opened : list nat; next_id : nat }.
Definition open_new (w : streams) : streams * nat :=
  ({| opened := next_id w :: opened w; next_id := S (next_id w) |}, next_id w).
Definition close (i : nat) (w : streams) : streams :=
  {| opened := filter (fun j => negb (Nat.eqb i j)) (opened w); next_id := next_id w |}.
Definition is_open (w : streams) (i : nat) : bool := mem i (opened w).

(* a context manager is a stream (closed on exit; entering a closed stream
   raises ValueError) or a _NullContextWrapper (common.py:94-106) *)
Inductive context := StreamContext (i : nat) | NullContext (i : nat).
Definition enter (c : context) (w : streams) : res nat :=
  match c with
  | StreamContext i => if is_open w i then Ok i else Raise ValueError
  | NullContext i => Ok i
  end.
Definition exit (c : context) (w : streams) : streams :=
  match c with StreamContext i => close i w | NullContext _ => w end.

(* the with statement: neither kind of __exit__ returns a true value, so an
   exception of the body propagates after __exit__ *)
Definition with_stmt {A} (c : context) (body : nat -> streams -> streams * res A) (w : streams)
  : streams * res A :=
  match enter c w with
  | Raise e => (w, Raise e)
  | Ok i => let '(w', r) := body i w in (exit c w', r)
  end.

(* common.py:87-91  get_stream_context *)
Definition get_stream_context (default_stream_func : streams -> streams * res nat) (istream : option nat)
  (w : streams) : streams * res context :=
  match istream with
  | None => match default_stream_func w with
            | (w', Ok i) => (w', Ok (StreamContext i))
            | (w', Raise e) => (w', Raise e)
            end
  | Some i => (w, Ok (NullContext i))
  end.

(* the readers' idiom  with get_stream_context(_default_stream, istream) as s: body
   (radkdict.py:22-23, 39-40, zhuyin_table.py:17-20, 33, 43, 53, 78; the same is
   written out in split_by_codes.py:18-23 and tatoeba.py:73-84) *)
Definition reader {A} (default_stream_func : streams -> streams * res nat) (istream : option nat)
  (body : nat -> streams -> streams * res A) (w : streams) : streams * res A :=
  match get_stream_context default_stream_func istream w with
  | (w', Raise e) => (w', Raise e)
  | (w', Ok c) => with_stmt c body w'
  end.
