(* Session_model.v -- a running program that loads resources from the installed
   data pack: cjkdata.py, the default streams and constructors of
   /repo/cjktools/resources, and the objects kept in module and class variables.
   Between calls the environment variables, the directories and the files may
   change.  Objects carry the number of objects made before them. *)
From Verif Require Import Base PyText Regex Maps_model Common_model Csv_model Tatoeba_model Kanjidic_model Radk_model Pinyin_model Misc_model Files_model Encoding_model.

Record obj (A : Type) := Obj { oid : nat; what : A }.
Arguments Obj {A}. Arguments oid {A}. Arguments what {A}.
Notation kanjidic_items := (dict str (dict str Kanjidic_model.value)) (only parsing).
Notation table_items := (dict str (list str)) (only parsing).

Record session := {
  environ : dict str str; directories : list str; files : dict str (list Z); made : nat;
  seg : option (obj re);                          (* pinyin_table.py:30 *)
  tab : option (obj (obj re * table_items));      (* pinyin_table.py:29 *)
  kdic : option (obj kanjidic_items);             (* Kanjidic._cached *)
  rdic : option (obj radkdict) }.                 (* RadkDict._cached *)

Section Session.
  Variable dv : Z -> option Z.
  Variable stdin : source.
  Variable locale : list Z -> str * bool.
  Variable given : str -> nat.
  Variable own_dir : option str.
  Variable user_dir : str -> option str.
  Variable compile : list str -> res re.          (* pinyin_table.py:109-116 *)

  Definition disk (s : session) (n : str) : option (list Z) := dget n (files s).
  Definition base (s : session) : res str := find_path (environ s) own_dir user_dir (fun d => mem d (directories s)).
  (* cjkdata.py:32-34 *)
  Definition resource (s : session) (name : str) : res str :=
    get_resource (environ s) own_dir user_dir (fun d => mem d (directories s)) name.

  (* kanjidic.py:96-110  Kanjidic() *)
  Definition load_kanjidic (s : session) : res kanjidic_items :=
    do a <- resource s (u "kanjidic"); do b <- resource s (u "kanjd212");
    kanjidic_bytes dv (disk s) stdin locale given [a; b].
  (* radkdict.py:22-23, 34-40  RadkDict() *)
  Definition load_radk (s : session) : res radkdict :=
    do f <- resource s (u "radkfile"); radk_bytes dv (disk s) locale given f.
  (* zhuyin_table.py:17-20, 31-59 *)
  Definition zhuyin_file : str := u "tables/zhuyin_pinyin_conv_table".
  Definition load_zhuyin (s : session) : res (dict str str) :=
    do f <- resource s zhuyin_file; zhuyin_bytes (disk s) locale given f.
  Definition load_pinyin (s : session) : res (dict str str) :=
    do f <- resource s zhuyin_file; pinyin_bytes (disk s) locale given f.
  (* pinyin_table.py:107-116  PinyinSegmenter() *)
  Definition load_segmenter (s : session) : res re :=
    do f <- resource s zhuyin_file; do syllables <- all_pinyin_bytes (disk s) locale given f; compile syllables.
  (* pinyin_table.py:42-51  the table of PinyinTable() *)
  Definition load_hanzi (s : session) : res table_items :=
    do f <- resource s (u "tables/gbk_pinyin_table"); table_bytes (disk s) given f.
  (* kanji_list.py:24-28 *)
  Definition load_list (s : session) (name : str) : res (list char) :=
    get_list (environ s) own_dir user_dir (fun d => mem d (directories s)) (utf8_contents (disk s)) name.

  Definition count (s : session) : session :=
    {| environ := environ s; directories := directories s; files := files s; made := S (made s);
       seg := seg s; tab := tab s; kdic := kdic s; rdic := rdic s |}.
  Definition construct {A} (load : session -> res A) (s : session) : session * res (obj A) :=
    match load s with Ok x => (count s, Ok (Obj (made s) x)) | Raise e => (s, Raise e) end.

  Definition keep_seg (s : session) (x : obj re) : session :=
    {| environ := environ s; directories := directories s; files := files s; made := made s;
       seg := Some x; tab := tab s; kdic := kdic s; rdic := rdic s |}.
  Definition keep_tab (s : session) (x : obj (obj re * table_items)) : session :=
    {| environ := environ s; directories := directories s; files := files s; made := made s;
       seg := seg s; tab := Some x; kdic := kdic s; rdic := rdic s |}.
  Definition keep_kdic (s : session) (x : obj kanjidic_items) : session :=
    {| environ := environ s; directories := directories s; files := files s; made := made s;
       seg := seg s; tab := tab s; kdic := Some x; rdic := rdic s |}.
  Definition keep_rdic (s : session) (x : obj radkdict) : session :=
    {| environ := environ s; directories := directories s; files := files s; made := made s;
       seg := seg s; tab := tab s; kdic := kdic s; rdic := Some x |}.

  (* pinyin_table.py:161-169  get_pinyin_segmenter *)
  Definition get_segmenter (s : session) : session * res (obj re) :=
    match seg s with
    | Some x => (s, Ok x)
    | None => match construct load_segmenter s with
              | (s, Ok x) => (keep_seg s x, Ok x)
              | (s, Raise e) => (s, Raise e)
              end
    end.
  (* pinyin_table.py:39-51  PinyinTable() *)
  Definition new_table (s : session) : session * res (obj (obj re * table_items)) :=
    match get_segmenter s with
    | (s, Raise e) => (s, Raise e)
    | (s, Ok x) => construct (fun s => do t <- load_hanzi s; Ok (x, t)) s
    end.
  (* pinyin_table.py:151-158  get_pinyin_table *)
  Definition get_table (s : session) : session * res (obj (obj re * table_items)) :=
    match tab s with
    | Some x => (s, Ok x)
    | None => match new_table s with
              | (s, Ok x) => (keep_tab s x, Ok x)
              | (s, Raise e) => (s, Raise e)
              end
    end.
  (* kanjidic.py:112-117  Kanjidic.get_cached: cls() is evaluated first *)
  Definition cached_kanjidic (s : session) : session * res (obj kanjidic_items) :=
    match construct load_kanjidic s with
    | (s, Raise e) => (s, Raise e)
    | (s, Ok fresh) => let x := match kdic s with Some x => x | None => fresh end in (keep_kdic s x, Ok x)
    end.
  (* radkdict.py:81-87  RadkDict.get_cached *)
  Definition cached_radk (s : session) : session * res (obj radkdict) :=
    match construct load_radk s with
    | (s, Raise e) => (s, Raise e)
    | (s, Ok fresh) => let x := match rdic s with Some x => x | None => fresh end in (keep_rdic s x, Ok x)
    end.

  (** what can happen *)
  Inductive call :=
  | NewKanjidic | CachedKanjidic | NewRadk | CachedRadk | ZhuyinTable | PinyinToZhuyin | NewSegmenter | GetSegmenter | NewTable | GetTable
  | GetList (name : str).
  Inductive event :=
  | SetEnv (k v : str) | DelEnv (k : str) | MakeDir (d : str) | RemoveDir (d : str) | Write (n : str) (b : list Z) | Remove (n : str)
  | Call (c : call).
  Definition move (s : session) (e : dict str str) (d : list str) (f : dict str (list Z)) : session :=
    {| environ := e; directories := d; files := f; made := made s; seg := seg s; tab := tab s; kdic := kdic s; rdic := rdic s |}.
  Definition happen (s : session) (o : event) : session :=
    match o with
    | SetEnv k v => move s (dset k v (environ s)) (directories s) (files s)
    | DelEnv k => move s (ddel k (environ s)) (directories s) (files s)
    | MakeDir d => move s (environ s) (sadd d (directories s)) (files s)
    | RemoveDir d => move s (environ s) (filter (fun x => negb (eqb x d)) (directories s)) (files s)
    | Write n b => move s (environ s) (directories s) (dset n b (files s))
    | Remove n => move s (environ s) (directories s) (ddel n (files s))
    | Call NewKanjidic => fst (construct load_kanjidic s)
    | Call CachedKanjidic => fst (cached_kanjidic s)
    | Call NewRadk => fst (construct load_radk s)
    | Call CachedRadk => fst (cached_radk s)
    | Call ZhuyinTable => fst (construct load_zhuyin s)
    | Call PinyinToZhuyin => fst (construct load_pinyin s)
    | Call NewSegmenter => fst (construct load_segmenter s)
    | Call GetSegmenter => fst (get_segmenter s)
    | Call NewTable => fst (new_table s)
    | Call GetTable => fst (get_table s)
    | Call (GetList n) => fst (construct (fun s => load_list s n) s)
    end.
  Definition run (s : session) (l : list event) : session := fold_left happen l s.
End Session.
