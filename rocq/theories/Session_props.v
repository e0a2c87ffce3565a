(* Session_props.v -- C115: what the loaders and the module caches give while the data pack comes, goes and changes *)
From Verif Require Import Base PyStr PyText PyFmt Regex Maps_model Common_model Csv_model Kanjidic_model Radk_model Pinyin_model Misc_model Misc_spec Files_model Encoding_model Encoding_spec Session_model Session_spec Session_proofs.

(** texts in the pack, read in a UTF-8 locale: every loader gives what its parser makes of the text the pack has now *)
Theorem C115_texts dv stdin given own_dir user_dir compile s : let text := pack_text own_dir user_dir s in
  (forall t1 t2, text (u "kanjidic") t1 -> text (u "kanjd212") t2 ->
     load_kanjidic dv stdin utf8 given own_dir user_dir s = init dv [file_lines t1; file_lines t2]) /\
  (forall t, text (u "radkfile") t -> load_radk dv utf8 given own_dir user_dir s = parse_radkfile dv (file_lines t)) /\
  (forall t, text (u "tables/zhuyin_pinyin_conv_table") t ->
     load_zhuyin utf8 given own_dir user_dir s = zhuyin_to_pinyin_table (file_lines t) /\
     load_pinyin utf8 given own_dir user_dir s = pinyin_to_zhuyin_table (file_lines t) /\
     load_segmenter utf8 given own_dir user_dir compile s = (do l <- get_all_pinyin (file_lines t); compile l)) /\
  (forall t, text (u "tables/gbk_pinyin_table") t -> load_hanzi given own_dir user_dir s = load_table (codec_lines t) []) /\
  (forall name t, text (u "lists/char/" ++ name) t -> load_list own_dir user_dir s name = Ok (Scripts_model.unique_kanji t)).
Proof.
  cbn zeta. split; [|split; [|split; [|split]]].
  - intros t1 t2 H1 H2. apply texts_kanjidic; [reflexivity | assumption | assumption].
  - intros t H. exact (texts_radk dv stdin utf8 given own_dir user_dir eq_refl s t H).
  - intros t H. exact (texts_zhuyin dv stdin utf8 given own_dir user_dir compile eq_refl s t H).
  - intro t. apply texts_hanzi.
  - intros name t. apply texts_list.
Qed.
Print Assumptions C115_texts.

(** without a pack they all fail with the error of the search; without their file they fail to open it *)
Theorem C115_missing dv stdin locale given own_dir user_dir compile s : let lacks := pack_lacks own_dir user_dir s in
  (forall e, base own_dir user_dir s = Raise e ->
     e = MissingCJKDataError /\
     load_kanjidic dv stdin locale given own_dir user_dir s = Raise e /\ load_radk dv locale given own_dir user_dir s = Raise e /\
     load_zhuyin locale given own_dir user_dir s = Raise e /\ load_pinyin locale given own_dir user_dir s = Raise e /\
     load_segmenter locale given own_dir user_dir compile s = Raise e /\ load_hanzi given own_dir user_dir s = Raise e /\
     forall name, load_list own_dir user_dir s name = Raise e) /\
  (lacks (u "kanjidic") \/ lacks (u "kanjd212") -> load_kanjidic dv stdin locale given own_dir user_dir s = Raise OSError) /\
  (lacks (u "radkfile") -> load_radk dv locale given own_dir user_dir s = Raise OSError) /\
  (lacks (u "tables/zhuyin_pinyin_conv_table") ->
     load_zhuyin locale given own_dir user_dir s = Raise OSError /\ load_pinyin locale given own_dir user_dir s = Raise OSError /\
     load_segmenter locale given own_dir user_dir compile s = Raise OSError) /\
  (lacks (u "tables/gbk_pinyin_table") -> load_hanzi given own_dir user_dir s = Raise OSError) /\
  (forall name, lacks (u "lists/char/" ++ name) -> load_list own_dir user_dir s name = Raise OSError).
Proof.
  cbn zeta. destruct (lacks dv stdin locale given own_dir user_dir compile s) as (A & B & C & D & E & F).
  split; [|split; [intros [H|H]; auto|repeat split; auto; apply B; assumption]].
  intros e H. split; [|apply no_pack; exact H]. unfold base, find_path in H. destruct (dget _ _); [discriminate|].
  revert H. induction SEARCH_PATHS as [|p l IH]; cbn [search]; [congruence|]. destruct (mem _ _); [discriminate | exact IH].
Qed.
Print Assumptions C115_missing.

(** at every moment the variables, the directories and the files are as they were last left from outside: calls change none of them *)
Theorem C115_world dv stdin locale given own_dir user_dir compile s l : orderly s ->
  let s' := run dv stdin locale given own_dir user_dir compile s l in
  (forall k, dget k (environ s') = latest (says_variable k) l (dget k (environ s))) /\
  (forall d, mem d (directories s') = latest (says_directory d) l (mem d (directories s))) /\
  (forall n, disk s' n = latest (says_file n) l (disk s n)).
Proof. exact (world dv stdin locale given own_dir user_dir compile l s). Qed.
Print Assumptions C115_world.

(** what is once kept by the module or the classes stays, whatever happens to the pack *)
Theorem C115_kept dv stdin locale given own_dir user_dir compile s0 l0 l : started s0 ->
  let run := run dv stdin locale given own_dir user_dir compile in let s := run s0 l0 in
  (forall x, seg s = Some x -> get_segmenter locale given own_dir user_dir compile (run s l) = (run s l, Ok x)) /\
  (forall x, tab s = Some x -> get_table locale given own_dir user_dir compile (run s l) = (run s l, Ok x)) /\
  (forall x, kdic s = Some x -> kdic (run s l) = Some x) /\ (forall x, rdic s = Some x -> rdic (run s l) = Some x).
Proof.
  intro St. cbn zeta. set (s := run _ _ _ _ _ _ _ s0 l0). assert (W : whole s) by (apply run_whole, started_whole, St). split; [|split; [|split]].
  - intros x E. apply segmenter_kept. apply run_seg; assumption.
  - intros x E. unfold get_table. rewrite (run_tab dv stdin locale given own_dir user_dir compile l s x E). reflexivity.
  - intros x E. apply run_kdic. exact E.
  - intros x E. apply run_rdic. exact E.
Qed.
Print Assumptions C115_kept.

(** the segmenter of the module is the one of the first request whose files could be read at that moment, if any;
    a request that fails leaves the next one to try again *)
Theorem C115_first dv stdin locale given own_dir user_dir compile s l : started s ->
  let run := run dv stdin locale given own_dir user_dir compile in let load := load_segmenter locale given own_dir user_dir compile in
  forall x, seg (run s l) = Some x <->
    exists before o after, l = before ++ o :: after /\ asks o /\ load (run s before) = Ok (what x) /\ oid x = made (run s before) /\
      forall b o' a, before = b ++ o' :: a -> asks o' -> exists e, load (run s b) = Raise e.
Proof. intros St. cbn zeta. apply first_segmenter; [apply started_whole; exact St | apply St]. Qed.
Print Assumptions C115_first.

(** every PinyinTable of the program has one and the same segmenter object, and the characters of the pack found when it was made *)
Theorem C115_tables dv stdin locale given own_dir user_dir compile s l1 l2 s1 t1 s2 t2 : started s ->
  let run := run dv stdin locale given own_dir user_dir compile in let new := new_table locale given own_dir user_dir compile in
  new (run s l1) = (s1, Ok t1) -> new (run s (l1 ++ Call NewTable :: l2)) = (s2, Ok t2) ->
  fst (what t1) = fst (what t2) /\ get_segmenter locale given own_dir user_dir compile s2 = (s2, Ok (fst (what t1))) /\
  load_hanzi given own_dir user_dir (run s l1) = Ok (snd (what t1)) /\
  load_hanzi given own_dir user_dir (run s (l1 ++ Call NewTable :: l2)) = Ok (snd (what t2)).
Proof.
  intro St. cbn zeta. intros N1 N2. destruct (whole_tab _ _ _ _ _ _ _ _ N1) as [A1 B1]. destruct (whole_tab _ _ _ _ _ _ _ _ N2) as [A2 B2].
  assert (E : seg (run dv stdin locale given own_dir user_dir compile s (l1 ++ Call NewTable :: l2)) = Some (fst (what t1))).
  { rewrite run_app. change (seg (run dv stdin locale given own_dir user_dir compile (fst (new_table locale given own_dir user_dir compile (run dv stdin locale given own_dir user_dir compile s l1))) l2) = Some (fst (what t1))).
    rewrite N1. cbn [fst]. apply run_seg; [|exact A1]. change s1 with (fst (s1, Ok t1)). rewrite <- N1.
    apply (happen_whole dv stdin locale given own_dir user_dir compile _ (Call NewTable)). apply run_whole, started_whole, St. }
  assert (Q : fst (what t1) = fst (what t2)).
  { pose proof (proj1 (table_fst locale given own_dir user_dir compile (run dv stdin locale given own_dir user_dir compile s (l1 ++ Call NewTable :: l2)))) as T. rewrite N2 in T. cbn [fst] in T.
    rewrite (segmenter_kept _ _ _ _ _ _ _ E) in T. cbn [fst] in T. congruence. }
  split; [exact Q|]. split; [apply segmenter_kept; rewrite Q; exact A2 | split; assumption].
Qed.
Print Assumptions C115_tables.

(** while the program only calls the library, the segmenter and the characters of a table are both those of the pack found now *)
Theorem C115_one_pack_partial dv stdin locale given own_dir user_dir compile s l s' t : started s -> Forall is_call l ->
  let now := run dv stdin locale given own_dir user_dir compile s l in
  new_table locale given own_dir user_dir compile now = (s', Ok t) \/ get_table locale given own_dir user_dir compile now = (s', Ok t) ->
  load_segmenter locale given own_dir user_dir compile now = Ok (what (fst (what t))) /\ load_hanzi given own_dir user_dir now = Ok (snd (what t)).
Proof.
  intros St F. cbn zeta. apply one_pack; assumption.
Qed.
Print Assumptions C115_one_pack_partial.

(** the class methods get_cached read the files every time: they fail when the files of the moment do, and otherwise give the first object *)
Theorem C115_get_cached dv stdin locale given own_dir user_dir compile s l : let run := run dv stdin locale given own_dir user_dir compile in
  let kanjidic := cached_kanjidic dv stdin locale given own_dir user_dir in let radk := cached_radk dv locale given own_dir user_dir in
  (forall s1 x, kanjidic s = (s1, Ok x) ->
     match load_kanjidic dv stdin locale given own_dir user_dir (run s1 l) with
     | Ok _ => exists s2, kanjidic (run s1 l) = (s2, Ok x)
     | Raise e => kanjidic (run s1 l) = (run s1 l, Raise e)
     end) /\
  (forall s1 x, radk s = (s1, Ok x) ->
     match load_radk dv locale given own_dir user_dir (run s1 l) with
     | Ok _ => exists s2, radk (run s1 l) = (s2, Ok x)
     | Raise e => radk (run s1 l) = (run s1 l, Raise e)
     end) /\
  (kdic s = None -> forall r, load_kanjidic dv stdin locale given own_dir user_dir s = Ok r -> exists s1, kanjidic s = (s1, Ok (Obj (made s) r))) /\
  (rdic s = None -> forall r, load_radk dv locale given own_dir user_dir s = Ok r -> exists s1, radk s = (s1, Ok (Obj (made s) r))).
Proof.
  cbn zeta. split; [|split; [|split]].
  - intros s1 x. rewrite (proj1 (cached_exact dv stdin locale given own_dir user_dir s)). destruct (load_kanjidic _ _ _ _ _ _ s) as [r|e]; [|discriminate]. cbn zeta.
    intro X. assert (K : kdic s1 = Some x) by (injection X as <- <-; reflexivity).
    rewrite (proj1 (cached_exact dv stdin locale given own_dir user_dir _)). destruct (load_kanjidic _ _ _ _ _ _ _) as [r'|e]; [|reflexivity].
    rewrite (run_kdic dv stdin locale given own_dir user_dir compile l s1 x K). eexists. reflexivity.
  - intros s1 x. rewrite (proj2 (cached_exact dv stdin locale given own_dir user_dir s)). destruct (load_radk _ _ _ _ _ s) as [r|e]; [|discriminate]. cbn zeta.
    intro X. assert (K : rdic s1 = Some x) by (injection X as <- <-; reflexivity).
    rewrite (proj2 (cached_exact dv stdin locale given own_dir user_dir _)). destruct (load_radk _ _ _ _ _ _) as [r'|e]; [|reflexivity].
    rewrite (run_rdic dv stdin locale given own_dir user_dir compile l s1 x K). eexists. reflexivity.
  - intros E r L. rewrite (proj1 (cached_exact dv stdin locale given own_dir user_dir s)), L, E. eexists. reflexivity.
  - intros E r L. rewrite (proj2 (cached_exact dv stdin locale given own_dir user_dir s)), L, E. eexists. reflexivity.
Qed.
Print Assumptions C115_get_cached.

(* ------------------------------------------------------------------ *)
Definition ex_compile (l : list str) : res re := if forallb (forallb plain) l then Ok (base_pattern l) else Raise outside_model.
Definition ex_user : str -> option str := fun _ => None.
Definition ex_stdin : source := mksource [] None.
Definition ex_files : dict str (list Z) :=
  [(u "/a/tables/zhuyin_pinyin_conv_table", encoded (u "ㄅㄚ	ba" ++ [10])); (u "/a/tables/gbk_pinyin_table", encoded (u "八 ba1" ++ [10]));
   (u "/b/tables/zhuyin_pinyin_conv_table", encoded (u "ㄇㄚ	ma" ++ [10])); (u "/b/tables/gbk_pinyin_table", encoded (u "馬 ma3" ++ [10]))].
Definition ex_start : session :=
  {| environ := [(u "CJKDATA", u "/a")]; directories := [u "/a"; u "/b"]; files := ex_files; made := 0; seg := None; tab := None; kdic := None; rdic := None |}.
Definition ex_run := run (fun _ => None) ex_stdin utf8 (fun _ => 0%nat) None ex_user ex_compile ex_start.
Definition ex_new := new_table utf8 (fun _ => 0%nat) None ex_user ex_compile.
Definition ex_seg := load_segmenter utf8 (fun _ => 0%nat) None ex_user ex_compile.
Definition ex_moves : list event := [Call GetSegmenter; SetEnv (u "CJKDATA") (u "/b")].

(** when another pack has come into view, PinyinTable() joins the new characters to the old syllables,
    and cannot read characters which it can read in a program that starts now *)
Theorem C115_one_pack_refuted : exists dv stdin locale given own_dir user_dir compile lower s l s1 t1 s2 t2,
  started s /\ new_table locale given own_dir user_dir compile (run dv stdin locale given own_dir user_dir compile s l) = (s1, Ok t1) /\
  new_table locale given own_dir user_dir compile (move s (environ s1) (directories s1) (files s1)) = (s2, Ok t2) /\
  load_segmenter locale given own_dir user_dir compile s1 <> Ok (what (fst (what t1))) /\
  from_hanzi lower (what (fst (what t1))) (snd (what t1)) (u "馬") true true = Ok [] /\
  from_hanzi lower (what (fst (what t2))) (snd (what t2)) (u "馬") true true = Ok (u "mǎ").
Proof.
  exists (fun _ => None), ex_stdin, utf8, (fun _ => 0%nat), None, ex_user, ex_compile, (fun s => s), ex_start, ex_moves.
  do 4 eexists. split; [repeat split|]. split; [vm_compute; reflexivity|]. split; [vm_compute; reflexivity|].
  split; [|split; vm_compute; reflexivity].
  intro X. apply (f_equal (fun r => do r <- r; from_hanzi (fun s => s) r [(u "馬", [u "ma3"])] (u "馬") true true)) in X. vm_compute in X. discriminate.
Qed.
Print Assumptions C115_one_pack_refuted.

(** the tables of the two packs in one program: they share the segmenter object number 0 *)
Example C115_case : let s1 := ex_run [Call NewTable] in let s2 := ex_run [Call NewTable; SetEnv (u "CJKDATA") (u "/b")] in
  started ex_start /\ rmap (fun t => (oid (fst (what t)), snd (what t))) (snd (ex_new ex_start)) = Ok (0%nat, [(u "八", [u "ba1"])]) /\
  rmap (fun t => (oid (fst (what t)), snd (what t))) (snd (ex_new s2)) = Ok (0%nat, [(u "馬", [u "ma3"])]) /\
  made s1 = 2%nat /\ option_map oid (seg s2) = Some 0%nat.
Proof. cbn zeta. split; [unfold started; auto|]. vm_compute. auto. Qed.
(** no pack, no variable: the first requests fail, the first one after the pack has come is kept, and outlives the pack *)
Example C115_history :
  let gone := [DelEnv (u "CJKDATA"); Call GetSegmenter; Call GetTable] in
  let back := gone ++ [SetEnv (u "CJKDATA") (u "/a"); Remove (u "/a/tables/gbk_pinyin_table"); Call NewTable] in
  let after := back ++ [RemoveDir (u "/a"); Remove (u "/a/tables/zhuyin_pinyin_conv_table")] in
  base None ex_user (ex_run gone) = Raise MissingCJKDataError /\ seg (ex_run gone) = None /\
  snd (ex_new (ex_run (firstn 5 back))) = Raise OSError /\ option_map oid (seg (ex_run back)) = Some 0%nat /\
  seg (ex_run after) = seg (ex_run back) /\ ex_seg (ex_run after) = Raise OSError.
Proof. vm_compute. auto 10. Qed.
(** texts of the pack, and what is missing from it *)
Example C115_texts_case : pack_text None ex_user ex_start (u "tables/gbk_pinyin_table") (u "八 ba1" ++ [10]) /\
  pack_lacks None ex_user ex_start (u "radkfile") /\ load_hanzi (fun _ => 0%nat) None ex_user ex_start = Ok [(u "八", [u "ba1"])].
Proof.
  assert (B : base None ex_user ex_start = Ok (u "/a")) by reflexivity.
  split; [|split; [|vm_compute; reflexivity]].
  - exists (u "/a"), (path_join (u "/a") (u "tables/gbk_pinyin_table")). split; [exact B|]. split; [apply Misc_proofs.join_relative; intros t X; discriminate|].
    split; [vm_compute; reflexivity|]. apply Forall_forall. intros c I. vm_compute in I. unfold scalar. repeat (destruct I as [<- | I]; [lia|]). destruct I.
  - exists (u "/a"), (path_join (u "/a") (u "radkfile")). split; [exact B|]. split; [apply Misc_proofs.join_relative; intros t X; discriminate | vm_compute; reflexivity].
Qed.
Example C115_case_orderly : orderly ex_start /\ Forall is_call [Call NewTable; Call GetSegmenter].
Proof.
  split; [split; vm_compute; repeat constructor; cbn [In]; intuition discriminate|].
  repeat constructor; eexists; reflexivity.
Qed.
