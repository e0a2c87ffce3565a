(* FileLife_model.v -- when the readers of /repo/cjktools/resources open, read
   and close their files: Kanjidic.__init__ (kanjidic.py:96-110), the generator
   TatoebaReader.load_file (tatoeba.py:53-84) and the three setters that iterate
   over it.  Python 3, as CPython runs it: a generator nobody refers to any more
   is closed at once, and an exception refers, through its traceback, to the
   local variables of the frames it has left. *)
From Verif Require Import Base PyStr Common_model Csv_model Tanaka_model Tatoeba_model Kanjidic_model Files_model Encoding_model.

(** ** Streams *)
Inductive event := Opened (i : nat) (name : str) | Gave (i : nat) | Closed (i : nat).
(* the streams open, what each stream made so far has still to give, and what
   happened.  The standard input and output are the streams 0 and 1. *)
Record world := mkworld { live : list nat; rest : list stream_in; log : list event }.
Definition is_live (i : nat) (w : world) : bool := mem i (live w).
Definition shut (i : nat) (w : world) : world :=
  if is_live i w then mkworld (filter (fun j => negb (Nat.eqb i j)) (live w)) (rest w) (log w ++ [Closed i]) else w.
Definition put (i : nat) (s : stream_in) (ss : list stream_in) : list stream_in := firstn i ss ++ s :: skipn (S i) ss.
Inductive line_in := TextLine (s : str) | BytesLine (s : str).
Definition gave (i : nat) (s : stream_in) (w : world) : world := mkworld (live w) (put i s (rest w)) (log w ++ [Gave i]).
(* next(stream); None is StopIteration *)
Definition next_line (i : nat) (w : world) : world * res (option line_in) :=
  if is_live i w then
    match nth_error (rest w) i with
    | Some (TextIn (mksource (l :: ls) f)) => (gave i (TextIn (mksource ls f)) w, Ok (Some (TextLine l)))
    | Some (TextIn (mksource [] (Some e))) => (w, Raise e)
    | Some (BytesIn (l :: ls)) => (gave i (BytesIn ls) w, Ok (Some (BytesLine l)))
    | _ => (w, Ok None)
    end
  else (w, Raise ValueError).
Definition lines_of (s : stream_in) : nat := match s with TextIn s => length (lines s) | BytesIn ls => length ls end.
Definition left_in (i : nat) (w : world) : nat := match nth_error (rest w) i with Some s => lines_of s | None => 0 end.

Section FileLife.
  Variable disk : str -> res stream_in.      (* opening a name other than "-" to read *)

  (* common.py:30-72  sopen(name, mode='r') *)
  Definition open_file (name : str) (w : world) : world * res nat :=
    match snd (sopen false (fun _ => true) (fun _ => None) name (u "r") (Some (u "utf8"))) with
    | Raise e => (w, Raise e)
    | Ok (_, Stdin) => (w, Ok 0%nat)
    | Ok (_, Stdout) => (w, Ok 1%nat)
    | Ok (_, _) =>
        match disk name with
        | Raise e => (w, Raise e)
        | Ok s => let i := length (rest w) in (mkworld (i :: live w) (rest w ++ [s]) (log w ++ [Opened i name]), Ok i)
        end
    end.

  (** ** Kanjidic *)
  (* for line in stream: body; [n] is at least the number of lines left *)
  Fixpoint for_lines {S} (n : nat) (i : nat) (body : line_in -> S -> res S) (s : S) (w : world) : world * res S :=
    match next_line i w with
    | (w, Raise e) => (w, Raise e)
    | (w, Ok None) => (w, Ok s)
    | (w, Ok (Some l)) =>
        match n with
        | O => (w, Raise RecursionError)
        | S n => match body l s with Ok s => for_lines n i body s w | Raise e => (w, Raise e) end
        end
    end.
  (* itertools.chain *)
  Fixpoint for_chain {S} (ids : list nat) (body : line_in -> S -> res S) (s : S) (w : world) : world * res S :=
    match ids with
    | [] => (w, Ok s)
    | i :: r =>
        match for_lines (left_in i w) i body s w with
        | (w, Ok s) => for_chain r body s w
        | (w, Raise e) => (w, Raise e)
        end
    end.
  (* kanjidic.py:106-107  the streams entered so far, the last one first *)
  Fixpoint enter_files (names : list str) (stack : list nat) (w : world) : world * list nat * res unit :=
    match names with
    | [] => (w, stack, Ok tt)
    | f :: r =>
        match open_file f w with
        | (w, Raise e) => (w, stack, Raise e)
        | (w, Ok i) => if is_live i w then enter_files r (i :: stack) w else (w, stack, Raise ValueError)
        end
    end.
  Section Kanjidic.
    Variable dv : Z -> option Z.
    (* kanjidic.py:127-133, one line; bytes.startswith('#') raises TypeError *)
    Definition kanji_line (l : line_in) (self : dict str (dict str value)) : res (dict str (dict str value)) :=
      match l with TextLine s => parse_kanjidic dv [s] self | BytesLine _ => Raise TypeError end.
    (* kanjidic.py:105-110: reduce() asks for all the files; leaving the with
       block exits the streams entered, the last one first *)
    Definition kanjidic_init (names : list str) (w : world) : world * res (dict str (dict str value)) :=
      let '(w, stack, o) := enter_files names [] w in
      let '(w, r) :=
        match o with
        | Raise e => (w, Raise e)
        | Ok _ => match rev stack with [] => (w, Raise TypeError) | ids => for_chain ids kanji_line [] w end
        end in
      (fold_left (fun w i => shut i w) stack w, r).
  End Kanjidic.

  (** ** The generator load_file *)
  Inductive source_of := Path (name : str) | Buffer (i : nat).
  (* common.py:94-106, tatoeba.py:75-78: a buffer is wrapped *)
  Inductive holder := Owned (i : nat) | Wrapped (i : nat).
  Definition id_of (h : holder) : nat := match h with Owned i | Wrapped i => i end.
  Definition leave (h : holder) (w : world) : world := match h with Owned i => shut i w | Wrapped _ => w end.
  Inductive gen := Fresh (src : source_of) | Paused (h : holder) | Finished.
  (* next(reader) of csv.reader, see Csv_model.rows_from; a line that is not a
     text raises csv.Error *)
  Fixpoint next_row (n : nat) (s : rd) (i : nat) (w : world) : world * res (option (list str)) :=
    match next_line i w with
    | (w, Raise e) => (w, Raise e)
    | (w, Ok None) =>
        (w, Ok (if (match field s with [] => false | _ => true end) || is_quoted (state s) then Some (fields s ++ [field s]) else None))
    | (w, Ok (Some (BytesLine _))) => (w, Raise CsvError)
    | (w, Ok (Some (TextLine l))) =>
        match feed_line s l with
        | Raise e => (w, Raise e)
        | Ok s => if is_start (state s) then (w, Ok (Some (fields s)))
                  else match n with O => (w, Raise RecursionError) | S n => next_row n s i w end
        end
    end.
  (* tatoeba.py:80-84 *)
  Definition resume (h : holder) (w : world) : world * gen * res (option (list str)) :=
    match next_row (left_in (id_of h) w) reset (id_of h) w with
    | (w, Ok (Some row)) => (w, Paused h, Ok (Some row))
    | (w, o) => (leave h w, Finished, o)
    end.
  (* tatoeba.py:53-84, one next() *)
  Definition gen_next (g : gen) (w : world) : world * gen * res (option (list str)) :=
    match g with
    | Fresh (Path name) =>
        match open_file name w with
        | (w, Raise e) => (w, Finished, Raise e)
        | (w, Ok i) => if is_live i w then resume (Owned i) w else (w, Finished, Raise ValueError)
        end
    | Fresh (Buffer i) => resume (Wrapped i) w
    | Paused h => resume h w
    | Finished => (w, Finished, Ok None)
    end.
  (* generator.close(), which the collector calls *)
  Definition gen_close (g : gen) (w : world) : world * gen :=
    match g with Paused h => (leave h w, Finished) | _ => (w, Finished) end.
  Definition gen_bound (g : gen) (w : world) : nat :=
    match g with
    | Fresh (Path name) => if eqb name (u "-") then left_in 0 w else match disk name with Ok s => lines_of s | Raise _ => 0 end
    | Fresh (Buffer i) => left_in i w
    | Paused h => left_in (id_of h) w
    | Finished => 0
    end.
  (* for row in gen: body *)
  Fixpoint for_rows {S} (n : nat) (body : list str -> S -> res S) (g : gen) (s : S) (w : world) : world * gen * res S :=
    match gen_next g w with
    | (w, g, Raise e) => (w, g, Raise e)
    | (w, g, Ok None) => (w, g, Ok s)
    | (w, g, Ok (Some row)) =>
        match n with
        | O => (w, g, Raise RecursionError)
        | S n => match body row s with Ok s => for_rows n body g s w | Raise e => (w, g, Raise e) end
        end
    end.

  (** ** The setters.  The last component is the generator the exception keeps
      alive, if any. *)
  Section Setters.
    Variable dv : Z -> option Z.
    Definition kept_by {A} (g : gen) (o : res A) : option gen := match o with Raise _ => Some g | Ok _ => None end.

    (* tatoeba.py:189-241  sentences: the generator is a local variable *)
    Section Sentences.
      Variable date : Type.
      Variable strptime : str -> res date.
      Variable filter_row : list str -> bool.
      Definition sentences_life (langs : option (list str)) (src : source_of) (w : world) : world * res (tables date) * option gen :=
        let g := Fresh src in
        let '(w, g, o) :=
          match gen_next g w with
          | (w, g, Raise e) => (w, g, Raise e)
          | (w, g, Ok None) => (w, g, Raise StopIteration)
          | (w, g, Ok (Some first_row)) =>
              match (if Nat.eqb (length first_row) 3 then Ok false
                     else if Nat.eqb (length first_row) 6 then Ok true else Raise InvalidFileError) with
              | Raise e => (w, g, Raise e)
              | Ok detailed =>
                  match read_row dv strptime filter_row langs first_row (mktables [] [] (if detailed then Some [] else None)) with
                  | Raise e => (w, g, Raise e)
                  | Ok t => for_rows (gen_bound g w) (read_row dv strptime filter_row langs) g t w
                  end
              end
          end in
        (w, o, kept_by g o).
    End Sentences.

    (* tatoeba.py:332-374  links: the generator is only on the stack of the
       loop, which the exception clears on its way out *)
    Definition link_step (s : option (list Z)) (fs ft : bool) (row : list str) (st : lstate) : res lstate :=
      do p <- link_row dv row; Ok (if skipped s fs ft p then st else add_link p st).
    Definition links_life (s : option (list Z)) (fs ft : bool) (src : source_of) (w : world) : world * res lstate * option gen :=
      let g := Fresh src in
      let '(w, g, o) := for_rows (gen_bound g w) (link_step s fs ft) g (mklstate [] [] 0) w in
      let (w, _) := gen_close g w in
      (w, o, None).

    (* tatoeba.py:565-590  jpn_indices: the generator is a local variable *)
    Definition indices_life (s : option (list Z)) (edict : option (dict str (list str))) (src : source_of) (w : world)
        : world * res (dict Z (list word) * dict Z Z) * option gen :=
      let g := Fresh src in
      let '(w, g, o) := for_rows (gen_bound g w) (index_row dv s edict) g ([], []) w in
      (w, o, kept_by g o).
  End Setters.

  (** ** Several generators *)
  Inductive op := Next | Close.
  Fixpoint set_nth {A} (k : nat) (x : A) (l : list A) : list A :=
    match l, k with [], _ => [] | _ :: r, O => x :: r | y :: r, S k => y :: set_nth k x r end.
  Definition gen_op (o : op) (g : gen) (w : world) : world * gen * res (option (list str)) :=
    match o with Next => gen_next g w | Close => let (w, g) := gen_close g w in (w, g, Ok None) end.
  Fixpoint run_gens (ops : list (nat * op)) (gs : list gen) (w : world)
      : world * list gen * list (nat * op * res (option (list str))) :=
    match ops with
    | [] => (w, gs, [])
    | (k, o) :: r =>
        match nth_error gs k with
        | None => run_gens r gs w
        | Some g =>
            let '(w, g, a) := gen_op o g w in
            let '(w, gs, outs) := run_gens r (set_nth k g gs) w in
            (w, gs, (k, o, a) :: outs)
        end
    end.
End FileLife.
Arguments sentences_life disk dv {date}.
