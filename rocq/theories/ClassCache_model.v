(* ClassCache_model.v -- the class method get_cached of /repo/cjktools called on
   the classes of a program: Kanjidic, RadkDict, KanaTable and the classes that
   a program derives from them.  A class attribute is found along the method
   resolution order and set on the class itself. *)
From Verif Require Import Base.

Section Classes.
  Context {C A : Type} {EC : EqB C}.
  Variable mro : C -> list C.          (* C.__mro__ *)
  Variable lazy : C -> bool.           (* get_cached found on the class is that of KanaTable *)
  Variable kana : C.                   (* KanaTable *)
  Variable table : A.                  (* what KanaTable() holds *)

  (** an object: the number of objects made before it, its class, its contents *)
  Record inst := Inst { oid : nat; klass : C; content : A }.
  Record world := World { attrs : dict C inst; made : nat }.   (* vars(C)['_cached'] *)

  (** getattr(C, '_cached') *)
  Fixpoint look (l : list C) (d : dict C inst) : option inst :=
    match l with
    | [] => None
    | c :: l => match dget c d with Some x => Some x | None => look l d end
    end.
  Definition get_attr (w : world) (c : C) : option inst := look (mro c) (attrs w).
  Definition set_attr (w : world) (c : C) (x : inst) : world := World (dset c x (attrs w)) (made w).
  (** c(); [r] is what the constructor makes of the files it finds *)
  Definition construct (w : world) (c : C) (r : res A) : world * res inst :=
    match r with
    | Ok a => (World (attrs w) (S (made w)), Ok (Inst (made w) c a))
    | Raise e => (w, Raise e)
    end.
  (* radkdict.py:81-87, kanjidic.py:112-117  get_cached: cls() is evaluated first *)
  Definition eager_cached (w : world) (cls : C) (r : res A) : world * res inst :=
    match construct w cls r with
    | (w, Raise e) => (w, Raise e)
    | (w, Ok fresh) =>
        let cached := match get_attr w cls with Some x => x | None => fresh end in
        let w := set_attr w cls cached in
        (w, of_option AttributeError (get_attr w cls))
    end.
  (* kana_table.py:112-118  KanaTable.get_cached *)
  Definition lazy_cached (w : world) (cls : C) : world * res inst :=
    let w := match get_attr w cls with
             | Some _ => w
             | None => match construct w kana (Ok table) with
                       | (w, Ok x) => set_attr w cls x
                       | (w, Raise _) => w
                       end
             end in
    (w, of_option AttributeError (get_attr w cls)).
  Definition get_cached (w : world) (c : C) (r : res A) : world * res inst :=
    if lazy c then lazy_cached w c else eager_cached w c r.

  (** a history of calls *)
  Definition start : world := World [] 0.
  Definition after (h : list (C * res A)) : world := fold_left (fun w e => fst (get_cached w (fst e) (snd e))) h start.
  Definition answer (h : list (C * res A)) (c : C) (r : res A) : res inst := snd (get_cached (after h) c r).
End Classes.
Arguments Inst {C A}. Arguments oid {C A}. Arguments klass {C A}. Arguments content {C A}. Arguments inst : clear implicits. Arguments world : clear implicits.
Arguments World {C A}. Arguments attrs {C A}. Arguments made {C A}.
