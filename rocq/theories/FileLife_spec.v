(* FileLife_spec.v -- the life of files, independently of the readers *)
From Verif Require Import Base Csv_model Tatoeba_model Files_model Encoding_model FileLife_model.

(** the streams open are among those made, the standard ones included *)
Definition sound (w : world) : Prop := (2 <= length (rest w))%nat /\ Forall (fun i => (i < length (rest w))%nat) (live w).

(** the events of files opened one after the other from the number [k] on *)
Fixpoint opens (k : nat) (names : list str) : list event :=
  match names with [] => [] | n :: r => Opened k n :: opens (S k) r end.
Fixpoint gives (k : nat) (counts : list nat) : list event :=
  match counts with [] => [] | c :: r => repeat (Gave k) c ++ gives (S k) r end.
Fixpoint closes (k : nat) (n : nat) : list event :=
  match n with O => [] | S n => closes (S k) n ++ [Closed k] end.

(** an ideal generator: the rows it has still to give and how it ends, None
    once it is over *)
Fixpoint play (ops : list op) (st : option rows_of) : list (res (option (list str))) :=
  match ops with
  | [] => []
  | Close :: r => Ok None :: play r None
  | Next :: r =>
      match st with
      | None => Ok None :: play r None
      | Some ([], o) => match o with Ok _ => Ok None | Raise e => Raise e end :: play r None
      | Some (row :: rows, o) => Ok (Some row) :: play r (Some (rows, o))
      end
  end.
(** what is left to it *)
Fixpoint after (ops : list op) (st : option rows_of) : option rows_of :=
  match ops with
  | [] => st
  | Close :: r => after r None
  | Next :: r => after r match st with Some (row :: rows, o) => Some (rows, o) | _ => None end
  end.
(** the rows a stream, a file gives *)
Definition stream_rows (s : stream_in) : rows_of :=
  match s with TextIn s => load_file s | BytesIn ls => load_file (csv_source (ByteLines ls)) end.
Definition path_rows (disk : str -> res stream_in) (name : str) : rows_of :=
  match disk name with Ok s => stream_rows s | Raise e => ([], Raise e) end.
(** the operations on the [k]-th generator, and its answers *)
Definition ops_of (k : nat) (ops : list (nat * op)) : list op := map snd (filter (fun p => Nat.eqb (fst p) k) ops).
Definition answers_of {A} (k : nat) (outs : list (nat * op * A)) : list A :=
  map snd (filter (fun p => Nat.eqb (fst (fst p)) k) outs).

Definition bounded (w : world) : Prop := Forall (fun i => (i < length (rest w))%nat) (live w).
(** one more stream is open than before, held by a generator, and closing that
    generator closes it *)
Definition held_open (w w' : world) (kept : option gen) : Prop :=
  exists i g, kept = Some g /\ (length (rest w) <= i)%nat /\ (forall j, In j (live w') <-> In j (live w) \/ j = i) /\
    live (fst (gen_close g w')) = live w.
(** every row of a sentences file is accepted, the first one telling the number
    of columns *)
Definition all_taken {date} (dv : Z -> option Z) (strptime : str -> res date) (filter_row : list str -> bool) (langs : option (list str))
    (rows : list (list str)) : bool :=
  match rows with
  | [] => true
  | first :: _ =>
      match (if Nat.eqb (length first) 3 then Some None else if Nat.eqb (length first) 6 then Some (Some []) else None) with
      | None => false
      | Some d => match read_rows dv strptime filter_row langs rows (mktables [] [] d) with Ok _ => true | Raise _ => false end
      end
  end.
