(* CacheThreads_model.v -- threads that share a cached object: the get_cached of
   /repo/cjktools/resources/kanjidic.py, resources/radkdict.py and kana_table.py,
   and get_pinyin_table and get_pinyin_segmenter of resources/pinyin_table.py.

   The threads are interleaved by an arbitrary scheduler between the steps of the
   functions.  Reading and setting the attribute or global is atomic; a
   constructor runs in one step, on the shared state [S] (files, say), and may
   depend on the thread.  One class is asked, and its bases have no attribute
   of that name (for several classes see ClassCache_model.v). *)
From Verif Require Import Base.

Section CacheThreads.
  Context {A S : Type}.
  Variable build : nat -> S -> S * res A.
  (* kanjidic.py:112-117, radkdict.py:81-87, and kana_table.py:112-118,
     pinyin_table.py:151-158, 161-169 *)
  Inductive kind := EagerLocal | EagerAgain | Lazy.
  Variable how : kind.

  (** an object: the number of objects made before it, and its contents *)
  Record obj := Obj { oid : nat; content : A }.
  (** where a thread is *)
  Inductive thread :=
  | AtStart                (* kanjidic.py:114, radkdict.py:84: cls() comes first; kana_table.py:115, pinyin_table.py:155, 165: the test *)
  | AtBuild                (* kana_table.py:116, pinyin_table.py:156, 167: the right-hand side *)
  | AtGet (fresh : obj)    (* kanjidic.py:114, radkdict.py:84: getattr with its default *)
  | AtSet (x : obj)        (* the assignment *)
  | AtReturn               (* radkdict.py:87, kana_table.py:118, pinyin_table.py:158, 169 *)
  | Done (r : res obj).
  Record world := World { state : S; made : nat; cached : option obj; threads : list thread }.

  (** the constructor called by thread [i], and what follows *)
  Definition construct (i : nat) (w : world) (next : obj -> thread) : world * thread :=
    match build i (state w) with
    | (s, Ok a) => (World s (1 + made w) (cached w) (threads w), next (Obj (made w) a))
    | (s, Raise e) => (World s (made w) (cached w) (threads w), Done (Raise e))
    end.
  Definition step (i : nat) (w : world) (t : thread) : world * thread :=
    match t with
    | AtStart =>
        match how with
        | Lazy => (w, match cached w with Some _ => AtReturn | None => AtBuild end)
        | EagerLocal | EagerAgain => construct i w AtGet
        end
    | AtBuild => construct i w AtSet
    | AtGet fresh => (w, AtSet (match cached w with Some x => x | None => fresh end))
    | AtSet x =>
        (World (state w) (made w) (Some x) (threads w), match how with EagerLocal => Done (Ok x) | EagerAgain | Lazy => AtReturn end)
    | AtReturn => (w, Done (of_option AttributeError (cached w)))
    | Done _ => (w, t)
    end.
  Fixpoint put (i : nat) (t : thread) (l : list thread) : list thread :=
    match l, i with
    | [], _ => []
    | _ :: r, 0%nat => t :: r
    | x :: r, Datatypes.S i => x :: put i t r
    end.
  Definition turn (w : world) (i : nat) : world :=
    match nth_error (threads w) i with
    | Some t => let '(w', t') := step i w t in World (state w') (made w') (cached w') (put i t' (threads w'))
    | None => w
    end.
  Definition run (w : world) (schedule : list nat) : world := fold_left turn schedule w.
  (** [n] threads that call the function, before the first has *)
  Definition started (s : S) (n : nat) : world := World s 0 None (repeat AtStart n).
End CacheThreads.
Arguments obj : clear implicits. Arguments thread : clear implicits. Arguments world : clear implicits.
