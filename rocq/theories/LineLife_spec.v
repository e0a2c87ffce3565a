(* LineLife_spec.v -- how far a reader of lines has to read *)
From Verif Require Import Base Maps_model Csv_model Files_model Encoding_model FileLife_model LineLife_model.

(** what a reader makes of a stream, given what it makes of the lines of a file
    read to the end; a stream may fail after its last line *)
Definition over1 {A} (R : list str -> res A) (s : source) : res A :=
  match lines s, failure s with [], Some e => Raise e | _, _ => over R s end.
(** [pre] may begin a file the reader accepts *)
Definition sure {A} (R : list str -> res A) (pre : list str) : Prop := pre = [] \/ exists a, R pre = Ok a.
(** it stops at the first line after which nothing could help, or at the end *)
Definition stops {A} (R : list str -> res A) (ls left : list str) : Prop :=
  exists pre, ls = pre ++ left /\
    ((left = [] /\ sure R pre) \/
     (exists pre0 l e, pre = pre0 ++ [l] /\ sure R pre0 /\ forall more, R (pre ++ more) = Raise e)).
(** the stream [i] has been read down to [left], and nothing else was done *)
Definition advanced (i : nat) (s : source) (left : list str) (w w' : world) : Prop :=
  nth_error (rest w') i = Some (TextIn (mksource left (failure s))) /\ live w' = live w /\ length (rest w') = length (rest w) /\
  (forall j, j <> i -> nth_error (rest w') j = nth_error (rest w) j) /\
  log w' = log w ++ repeat (Gave i) (length (lines s) - length left).
Definition reads {A} (R : list str -> res A) (i : nat) (s : source) (w : world) (p : world * res A) : Prop :=
  exists left, stops R (lines s) left /\ advanced i s left w (fst p) /\ snd p = over1 R s.
(** bytes are refused at their first line *)
Definition refuses {A} (R : list str -> res A) (bytes : str -> exn) (i : nat) (ls : list str) (w : world) (p : world * res A) : Prop :=
  match ls with
  | [] => p = (w, R [])
  | l :: r => live (fst p) = live w /\ (forall j, j <> i -> nth_error (rest (fst p)) j = nth_error (rest w) j) /\
              nth_error (rest (fst p)) i = Some (BytesIn r) /\ log (fst p) = log w ++ [Gave i] /\ snd p = Raise (bytes l)
  end.
(** a file is opened once, read as far, and closed, whatever happens *)
Definition reads_file {A} (R : list str -> res A) (bytes : str -> exn) (disk : str -> res stream_in) (name : str) (w : world) (p : world * res A) : Prop :=
  match disk name with
  | Raise e => p = (w, Raise e)
  | Ok st =>
      live (fst p) = live w /\ (forall j, (j < length (rest w))%nat -> nth_error (rest (fst p)) j = nth_error (rest w) j) /\
      exists m, log (fst p) = log w ++ Opened (length (rest w)) name :: repeat (Gave (length (rest w))) m ++ [Closed (length (rest w))] /\
      match st with
      | TextIn s => (exists left, stops R (lines s) left /\ m = (length (lines s) - length left)%nat) /\ snd p = over1 R s
      | BytesIn [] => m = O /\ snd p = R []
      | BytesIn (l :: _) => m = 1%nat /\ snd p = Raise (bytes l)
      end
  end.

(** the lines that fall to one of two who take turns *)
Fixpoint falls {T} (mine : T -> bool) (turns : list T) (ls : list str) : list str :=
  match turns, ls with t :: ts, l :: r => (if mine t then [l] else []) ++ falls mine ts r | _, _ => [] end.
Definition is_mine (t : turn) : bool := match t with Mine => true | Entry => false end.
Definition is_entry (t : turn) : bool := match t with Mine => false | Entry => true end.
Definition line_taken (o : taken) : list (res (option line_in)) := match o with Line r => [r] | Got _ => [] end.
Definition entry_taken (o : taken) : list (res (option addr)) := match o with Line _ => [] | Got r => [r] end.
