(* Session_proofs.v *)
From Verif Require Import Base PyStr PyText PyFmt Regex Maps_model Common_model Csv_model Tatoeba_model Kanjidic_model Radk_model Pinyin_model Misc_model Misc_spec Misc_proofs Files_model Files_spec Files_proofs Encoding_model Encoding_spec Utf8_proofs Encoding_proofs Session_model Session_spec.

Section Session.
  Variable dv : Z -> option Z.
  Variable stdin : source.
  Variable locale : list Z -> str * bool.
  Variable given : str -> nat.
  Variable own_dir : option str.
  Variable user_dir : str -> option str.
  Variable compile : list str -> res re.
  Notation base := (base own_dir user_dir).
  Notation resource := (resource own_dir user_dir).
  Notation load_kanjidic := (load_kanjidic dv stdin locale given own_dir user_dir).
  Notation load_radk := (load_radk dv locale given own_dir user_dir).
  Notation load_zhuyin := (load_zhuyin locale given own_dir user_dir).
  Notation load_pinyin := (load_pinyin locale given own_dir user_dir).
  Notation load_segmenter := (load_segmenter locale given own_dir user_dir compile).
  Notation load_hanzi := (load_hanzi given own_dir user_dir).
  Notation load_list := (load_list own_dir user_dir).
  Notation get_segmenter := (get_segmenter locale given own_dir user_dir compile).
  Notation new_table := (new_table locale given own_dir user_dir compile).
  Notation get_table := (get_table locale given own_dir user_dir compile).
  Notation cached_kanjidic := (cached_kanjidic dv stdin locale given own_dir user_dir).
  Notation cached_radk := (cached_radk dv locale given own_dir user_dir).
  Notation happen := (happen dv stdin locale given own_dir user_dir compile).
  Notation run := (run dv stdin locale given own_dir user_dir compile).

  (* ---- where things are ---- *)
  Lemma resource_in s name dir f : (forall t, name <> u "/" ++ t) -> base s = Ok dir -> inside dir name f -> resource s name = Ok f.
  Proof.
    intros N B I. unfold Session_model.resource, get_resource. unfold Session_model.base in B. rewrite B. cbn [bind].
    f_equal. exact (inside_unique _ _ _ _ (join_relative dir name N) I).
  Qed.
  Lemma resource_at s name dir f : base s = Ok dir -> inside dir name f -> hd 0 name <> u1 "/" -> resource s name = Ok f.
  Proof. intros B I N. apply (resource_in s name dir f); [|exact B | exact I]. intros t ->. apply N. reflexivity. Qed.
  Lemma inside_tail dir name f : inside dir name f -> exists p, f = p ++ name.
  Proof. intros [H1 H2 | t H | H]; [exists (dir ++ u "/"); rewrite <- app_assoc; reflexivity | exists dir; reflexivity | exists []; reflexivity]. Qed.
  Lemma not_compressed p name : (3 < length name)%nat ->
    (forall q, name <> q ++ u ".gz") -> (forall q, name <> q ++ u ".bz2") -> ordinary (p ++ name).
  Proof.
    intros L G B. split.
    - intros [[q E] | [q E]].
      + assert (X : exists x, name = x ++ u ".gz").
        { apply (f_equal (@rev _)) in E. rewrite !rev_app_distr in E. assert (Q : exists r, rev name = rev (u ".gz") ++ r).
          { destruct (rev name) as [|a [|b [|c r]]] eqn:R; try (apply (f_equal (@length _)) in R; rewrite rev_length in R; cbn [length] in R; lia).
            cbn in E. injection E as -> -> -> E. exists r. reflexivity. }
          destruct Q as [r Q]. exists (rev r). rewrite <- (rev_involutive name), Q, rev_app_distr, rev_involutive. reflexivity. }
        destruct X as [x X]. exact (G x X).
      + assert (X : exists x, name = x ++ u ".bz2").
        { apply (f_equal (@rev _)) in E. rewrite !rev_app_distr in E. assert (Q : exists r, rev name = rev (u ".bz2") ++ r).
          { destruct (rev name) as [|a [|b [|c [|d r]]]] eqn:R; try (apply (f_equal (@length _)) in R; rewrite rev_length in R; cbn [length] in R; lia).
            cbn in E. injection E as -> -> -> -> E. exists r. reflexivity. }
          destruct Q as [r Q]. exists (rev r). rewrite <- (rev_involutive name), Q, rev_app_distr, rev_involutive. reflexivity. }
        destruct X as [x X]. exact (B x X).
    - intro E. apply (f_equal (@length _)) in E. rewrite app_length in E. cbn [length u] in E. change (length (u "-")) with 1%nat in E. lia.
  Qed.
  Lemma ends_not (name suffix : str) : firstn (length suffix) (rev name) <> rev suffix -> forall q, name <> q ++ suffix.
  Proof.
    intros N q ->. apply N. rewrite rev_app_distr. rewrite firstn_app, rev_length, Nat.sub_diag, firstn_O, app_nil_r.
    rewrite <- (rev_length suffix). apply firstn_all.
  Qed.
  Lemma kanjidic_ordinary_names p : ordinary (p ++ u "kanjidic") /\ ordinary (p ++ u "kanjd212").
  Proof.
    split; (apply not_compressed; [vm_compute; lia | apply ends_not; vm_compute; discriminate | apply ends_not; vm_compute; discriminate]).
  Qed.

  (* ---- the texts of the pack, in a UTF-8 locale ---- *)
  Lemma stored_at s f t : disk s f = Some (encoded t) -> Forall scalar t -> stored (disk s) (fun n => if eqb n f then Some t else None) f.
  Proof. intros D F. split; [rewrite eqb_refl; exact D|]. rewrite eqb_refl. intros t' X. congruence. Qed.
  Section Utf8.
    Hypothesis L : locale = utf8.
    Lemma texts_kanjidic s t1 t2 : pack_text own_dir user_dir s (u "kanjidic") t1 -> pack_text own_dir user_dir s (u "kanjd212") t2 ->
      load_kanjidic s = init dv [file_lines t1; file_lines t2].
    Proof.
      intros (d & f1 & B1 & I1 & D1 & F1) (d' & f2 & B2 & I2 & D2 & F2). rewrite B1 in B2. injection B2 as <-.
      unfold Session_model.load_kanjidic. rewrite (resource_at s _ d f1 B1 I1 ltac:(vm_compute; discriminate)), (resource_at s _ d f2 B1 I2 ltac:(vm_compute; discriminate)).
      cbn [bind]. rewrite L.
      pose (content := fun n => if eqb n f1 then Some t1 else if eqb n f2 then Some t2 else None).
      assert (Ne : f1 <> f2).
      { destruct (inside_tail _ _ _ I1) as [p1 E1]. destruct (inside_tail _ _ _ I2) as [p2 E2]. intro X. rewrite E1, E2 in X.
        apply (f_equal (fun s => hd 0 (rev s))) in X. rewrite !rev_app_distr in X. vm_compute in X. discriminate. }
      assert (C1 : content f1 = Some t1) by (unfold content; rewrite eqb_refl; reflexivity).
      assert (C2 : content f2 = Some t2).
      { unfold content. destruct (eqb_spec f2 f1) as [X | _]; [congruence|]. rewrite eqb_refl. reflexivity. }
      assert (O : Forall ordinary [f1; f2]).
      { destruct (inside_tail _ _ _ I1) as [p1 E1]. destruct (inside_tail _ _ _ I2) as [p2 E2]. subst.
        constructor; [apply kanjidic_ordinary_names|]. constructor; [apply kanjidic_ordinary_names | constructor]. }
      rewrite (kanjidic_decoded dv (disk s) stdin [] utf8 given content [f1; f2] O).
      - change [file_lines t1; file_lines t2] with (map file_lines [t1; t2]). apply kanjidic_ordinary; [exact O|]. repeat constructor; assumption.
      - constructor; [|constructor; [|constructor]]; apply stored_holds.
        + split; [rewrite C1; exact D1 | intros t X; congruence].
        + split; [rewrite C2; exact D2 | intros t X; congruence].
    Qed.
    Lemma texts_readers s f t : disk s f = Some (encoded t) -> Forall scalar t ->
      radk_bytes dv (disk s) locale given f = parse_radkfile dv (file_lines t) /\
      zhuyin_bytes (disk s) locale given f = zhuyin_to_pinyin_table (file_lines t) /\
      pinyin_bytes (disk s) locale given f = pinyin_to_zhuyin_table (file_lines t) /\
      all_pinyin_bytes (disk s) locale given f = get_all_pinyin (file_lines t) /\
      table_bytes (disk s) given f = load_table (codec_lines t) [].
    Proof.
      intros D F. rewrite L. set (content := fun n => if eqb n f then Some t else None).
      pose proof (stored_holds _ _ _ (stored_at s f t D F)) as H. fold content in H.
      assert (C : content f = Some t) by (unfold content; rewrite eqb_refl; reflexivity).
      destruct (readers_decoded dv (disk s) stdin [] utf8 given content [] f H) as (A1 & A2 & A3 & A4 & _).
      rewrite A1, A2, A3, A4, (table_decoded (disk s) given content f H).
      unfold radk_path, zhuyin_path, pinyin_path, all_pinyin_path, table_path, open_text. rewrite C. cbn [bind]. repeat split; reflexivity.
    Qed.
    Lemma texts_radk s t : pack_text own_dir user_dir s (u "radkfile") t -> load_radk s = parse_radkfile dv (file_lines t).
    Proof.
      intros (d & f & B & I & D & F). unfold Session_model.load_radk. rewrite (resource_at s _ d f B I ltac:(vm_compute; discriminate)). cbn [bind].
      apply (texts_readers s f t D F).
    Qed.
    Lemma texts_zhuyin s t : pack_text own_dir user_dir s (u "tables/zhuyin_pinyin_conv_table") t ->
      load_zhuyin s = zhuyin_to_pinyin_table (file_lines t) /\ load_pinyin s = pinyin_to_zhuyin_table (file_lines t) /\
      load_segmenter s = (do l <- get_all_pinyin (file_lines t); compile l).
    Proof.
      intros (d & f & B & I & D & F). unfold Session_model.load_zhuyin, Session_model.load_pinyin, Session_model.load_segmenter, zhuyin_file.
      rewrite (resource_at s _ d f B I ltac:(vm_compute; discriminate)). cbn [bind].
      destruct (texts_readers s f t D F) as (_ & A & C & G & _). rewrite A, C, G. auto.
    Qed.
  End Utf8.
  (* in any locale *)
  Lemma texts_hanzi s t : pack_text own_dir user_dir s (u "tables/gbk_pinyin_table") t -> load_hanzi s = load_table (codec_lines t) [].
  Proof.
    intros (d & f & B & I & D & F). unfold Session_model.load_hanzi. rewrite (resource_at s _ d f B I ltac:(vm_compute; discriminate)). cbn [bind].
    rewrite (table_decoded (disk s) given _ f (stored_holds _ _ _ (stored_at s f t D F))). unfold table_path. rewrite eqb_refl. reflexivity.
  Qed.
  Lemma texts_list s name t : pack_text own_dir user_dir s (u "lists/char/" ++ name) t -> load_list s name = Ok (Scripts_model.unique_kanji t).
  Proof.
    intros (d & f & B & I & D & F). unfold Session_model.load_list, get_list. fold (resource s (u "lists/char/" ++ name)).
    rewrite (resource_at s _ d f B I ltac:(vm_compute; discriminate)). cbn [bind]. unfold utf8_contents. rewrite D. rewrite <- (app_nil_r (encoded t)), utf8_encoded by exact F. cbn [utf8 fst snd]. rewrite app_nil_r. reflexivity.
  Qed.
  (* no pack at all, or a file that is not in it *)
  Lemma no_pack s e : base s = Raise e -> load_kanjidic s = Raise e /\ load_radk s = Raise e /\ load_zhuyin s = Raise e /\ load_pinyin s = Raise e /\
    load_segmenter s = Raise e /\ load_hanzi s = Raise e /\ forall name, load_list s name = Raise e.
  Proof.
    intro B.
    assert (R : forall name, resource s name = Raise e) by (intro name; unfold Session_model.resource, get_resource; unfold Session_model.base in B; rewrite B; reflexivity).
    unfold Session_model.load_kanjidic, Session_model.load_radk, Session_model.load_zhuyin, Session_model.load_pinyin, Session_model.load_segmenter, Session_model.load_hanzi, Session_model.load_list, get_list.
    rewrite !R. do 6 (split; [reflexivity|]). intro name. fold (resource s (u "lists/char/" ++ name)). rewrite R. reflexivity.
  Qed.
  Lemma lacks_readers s f : disk s f = None ->
    radk_bytes dv (disk s) locale given f = Raise OSError /\ zhuyin_bytes (disk s) locale given f = Raise OSError /\
    pinyin_bytes (disk s) locale given f = Raise OSError /\ all_pinyin_bytes (disk s) locale given f = Raise OSError /\
    table_bytes (disk s) given f = Raise OSError /\ utf8_contents (disk s) f = Raise OSError.
  Proof.
    intro D. unfold radk_bytes, zhuyin_bytes, pinyin_bytes, all_pinyin_bytes, table_bytes, utf8_contents, open_default. rewrite D. repeat split; reflexivity.
  Qed.
  Lemma lacks s : (pack_lacks own_dir user_dir s (u "radkfile") -> load_radk s = Raise OSError) /\
    (pack_lacks own_dir user_dir s (u "tables/zhuyin_pinyin_conv_table") -> load_zhuyin s = Raise OSError /\ load_pinyin s = Raise OSError /\ load_segmenter s = Raise OSError) /\
    (pack_lacks own_dir user_dir s (u "tables/gbk_pinyin_table") -> load_hanzi s = Raise OSError) /\
    (forall name, pack_lacks own_dir user_dir s (u "lists/char/" ++ name) -> load_list s name = Raise OSError) /\
    (pack_lacks own_dir user_dir s (u "kanjidic") -> load_kanjidic s = Raise OSError) /\
    (pack_lacks own_dir user_dir s (u "kanjd212") -> load_kanjidic s = Raise OSError).
  Proof.
    assert (K : forall names, Forall ordinary names -> (exists f, In f names /\ disk s f = None) -> kanjidic_bytes dv (disk s) stdin locale given names = Raise OSError).
    { intros names O (f & I & D). unfold kanjidic_bytes. destruct names as [|n names]; [destruct I|].
      assert (M : mapM (open_bytes (disk s) stdin locale given) (n :: names) = Raise OSError); [|rewrite M; reflexivity].
      generalize dependent (n :: names). clear n names. intros names O I. induction O as [|n names On O IH]; [destruct I|].
      cbn [mapM]. rewrite open_bytes_ordinary by exact On. destruct I as [-> | I].
      - rewrite D. reflexivity.
      - destruct (disk s n); cbn [bind]; [rewrite (IH I); reflexivity | reflexivity]. }
    split; [|split; [|split; [|split; [|split]]]].
    - intros (d & f & B & I & D). unfold Session_model.load_radk. rewrite (resource_at s _ d f B I ltac:(vm_compute; discriminate)). cbn [bind]. apply (lacks_readers s f D).
    - intros (d & f & B & I & D). unfold Session_model.load_zhuyin, Session_model.load_pinyin, Session_model.load_segmenter, zhuyin_file.
      rewrite (resource_at s _ d f B I ltac:(vm_compute; discriminate)). cbn [bind]. destruct (lacks_readers s f D) as (_ & A & C & G & _). rewrite A, C, G. auto.
    - intros (d & f & B & I & D). unfold Session_model.load_hanzi. rewrite (resource_at s _ d f B I ltac:(vm_compute; discriminate)). cbn [bind]. apply (lacks_readers s f D).
    - intros name (d & f & B & I & D). unfold Session_model.load_list, get_list. fold (resource s (u "lists/char/" ++ name)).
      rewrite (resource_at s _ d f B I ltac:(vm_compute; discriminate)). cbn [bind]. destruct (lacks_readers s f D) as (_ & _ & _ & _ & _ & A). rewrite A. reflexivity.
    - intros (d & f & B & I & D). unfold Session_model.load_kanjidic. rewrite (resource_at s _ d f B I ltac:(vm_compute; discriminate)). cbn [bind].
      rewrite (resource_in s (u "kanjd212") d (path_join d (u "kanjd212")) ltac:(intros x X; discriminate) B (join_relative d (u "kanjd212") ltac:(intros x X; discriminate))). cbn [bind].
      destruct (inside_tail _ _ _ I) as [p E]. destruct (inside_tail _ _ _ (join_relative d (u "kanjd212") ltac:(intros x X; discriminate))) as [p2 E2].
      apply K; [|exists f; split; [left; reflexivity | exact D]]. rewrite E, E2. constructor; [apply kanjidic_ordinary_names|]. constructor; [apply kanjidic_ordinary_names | constructor].
    - intros (d & f & B & I & D). unfold Session_model.load_kanjidic. 
      rewrite (resource_in s (u "kanjidic") d (path_join d (u "kanjidic")) ltac:(intros x X; discriminate) B (join_relative d (u "kanjidic") ltac:(intros x X; discriminate))). cbn [bind].
      rewrite (resource_at s _ d f B I ltac:(vm_compute; discriminate)). cbn [bind].
      destruct (inside_tail _ _ _ I) as [p E]. destruct (inside_tail _ _ _ (join_relative d (u "kanjidic") ltac:(intros x X; discriminate))) as [p2 E2].
      apply K; [|exists f; split; [right; left; reflexivity | exact D]]. rewrite E, E2. constructor; [apply kanjidic_ordinary_names|]. constructor; [apply kanjidic_ordinary_names | constructor].
  Qed.

  (* ---- histories ---- *)
  Lemma construct_fst {A} (load : session -> res A) s : fst (construct load s) = s \/ fst (construct load s) = count s.
  Proof. unfold construct. destruct (load s); [right | left]; reflexivity. Qed.
  Lemma segmenter_kept s x : seg s = Some x -> get_segmenter s = (s, Ok x).
  Proof. intro E. unfold Session_model.get_segmenter. rewrite E. reflexivity. Qed.
  Lemma segmenter_first s : seg s = None ->
    get_segmenter s = match load_segmenter s with
                      | Ok r => (keep_seg (count s) (Obj (made s) r), Ok (Obj (made s) r))
                      | Raise e => (s, Raise e)
                      end.
  Proof.
    intro E. unfold Session_model.get_segmenter, construct. rewrite E. destruct (load_segmenter s); reflexivity.
  Qed.
  Lemma segmenter_rest s : let s' := fst (get_segmenter s) in
    tab s' = tab s /\ kdic s' = kdic s /\ rdic s' = rdic s /\ environ s' = environ s /\ directories s' = directories s /\ files s' = files s.
  Proof.
    cbn zeta. unfold Session_model.get_segmenter, construct. destruct (seg s); [repeat split|]. destruct (load_segmenter s); repeat split.
  Qed.
  Lemma table_fst s : let s' := fst (new_table s) in
    seg s' = seg (fst (get_segmenter s)) /\ tab s' = tab s /\ kdic s' = kdic s /\ rdic s' = rdic s /\
    environ s' = environ s /\ directories s' = directories s /\ files s' = files s.
  Proof.
    cbn zeta. unfold Session_model.new_table. pose proof (segmenter_rest s) as G. cbn zeta in G.
    destruct (get_segmenter s) as [s1 [x|e]]; cbn [fst] in *; [|split; [reflexivity | exact G]].
    destruct (construct_fst (fun s => do t <- load_hanzi s; Ok (x, t)) s1) as [-> | ->]; (split; [reflexivity | exact G]).
  Qed.
  Lemma gets_table s : let s' := fst (get_table s) in
    seg s' = match tab s with Some _ => seg s | None => seg (fst (get_segmenter s)) end /\
    tab s' = match tab s with Some x => Some x | None => match snd (new_table s) with Ok x => Some x | Raise _ => None end end /\
    kdic s' = kdic s /\ rdic s' = rdic s /\ environ s' = environ s /\ directories s' = directories s /\ files s' = files s.
  Proof.
    cbn zeta. destruct (table_fst s) as (Sg & T & R). unfold Session_model.get_table. destruct (tab s) as [x|] eqn:E; [cbn [fst]; repeat split; exact E|].
    destruct (new_table s) as [s1 [x|e]]; cbn [fst snd] in *; (split; [exact Sg|]); (split; [first [exact T | reflexivity] | exact R]).
  Qed.
  Lemma caches s : (let s' := fst (cached_kanjidic s) in
      seg s' = seg s /\ tab s' = tab s /\ rdic s' = rdic s /\ environ s' = environ s /\ directories s' = directories s /\ files s' = files s) /\
    (let s' := fst (cached_radk s) in
      seg s' = seg s /\ tab s' = tab s /\ kdic s' = kdic s /\ environ s' = environ s /\ directories s' = directories s /\ files s' = files s).
  Proof.
    cbn zeta. unfold Session_model.cached_kanjidic, Session_model.cached_radk, construct.
    split; [destruct (load_kanjidic s) | destruct (load_radk s)]; repeat split.
  Qed.
  (* every table of this session carries the segmenter of the session *)
  Definition whole (s : session) : Prop := forall t, tab s = Some t -> seg s = Some (fst (what t)).
  Lemma new_table_result s : 
    match snd (get_segmenter s) with
    | Raise e => new_table s = (s, Raise e) /\ seg s = None /\ load_segmenter s = Raise e
    | Ok x => seg (fst (get_segmenter s)) = Some x /\
        match load_hanzi s with
        | Raise e => new_table s = (fst (get_segmenter s), Raise e)
        | Ok t => new_table s = (count (fst (get_segmenter s)), Ok (Obj (made (fst (get_segmenter s))) (x, t)))
        end
    end.
  Proof.
    pose proof (segmenter_rest s) as (_ & _ & _ & Q1 & Q2 & Q3).
    assert (H : load_hanzi (fst (get_segmenter s)) = load_hanzi s).
    { unfold Session_model.load_hanzi, Session_model.resource, disk. rewrite Q1, Q2, Q3. reflexivity. }
    unfold Session_model.new_table, construct.
    assert (K : match snd (get_segmenter s) with Ok x => seg (fst (get_segmenter s)) = Some x | Raise e => get_segmenter s = (s, Raise e) /\ seg s = None /\ load_segmenter s = Raise e end).
    { unfold Session_model.get_segmenter, construct. destruct (seg s) eqn:E; [exact E|]. destruct (load_segmenter s); [reflexivity | repeat split]. }
    destruct (get_segmenter s) as [s1 [x|e]]; cbn [fst snd] in *.
    - split; [exact K|]. rewrite H. destruct (load_hanzi s); reflexivity.
    - destruct K as (K1 & K2). split; [congruence | exact K2].
  Qed.
  Lemma whole_tab s t s' : new_table s = (s', Ok t) -> seg s' = Some (fst (what t)) /\ load_hanzi s = Ok (snd (what t)).
  Proof.
    intro N. pose proof (new_table_result s) as R. destruct (snd (get_segmenter s)) as [x|e]; [|destruct R as (R & _); congruence].
    destruct R as (R1 & R2). destruct (load_hanzi s) as [h|e]; rewrite N in R2; [|discriminate]. injection R2 as -> ->. split; [exact R1 | reflexivity].
  Qed.
  Lemma segmenter_of s : seg (fst (get_segmenter s)) =
    match seg s with Some x => Some x | None => match load_segmenter s with Ok r => Some (Obj (made s) r) | Raise _ => None end end.
  Proof.
    destruct (seg s) as [x|] eqn:E; [rewrite (segmenter_kept s x E); exact E|]. rewrite (segmenter_first s E). destruct (load_segmenter s); [reflexivity | exact E].
  Qed.
  Lemma happen_move s o : (forall c, o <> Call c) -> let s' := happen s o in
    seg s' = seg s /\ tab s' = tab s /\ kdic s' = kdic s /\ rdic s' = rdic s.
  Proof. intro N. destruct o; try (repeat split; reflexivity). destruct (N c eq_refl). Qed.
  (* what one event does to the segmenter *)
  Lemma happen_seg s o : whole s -> seg (happen s o) =
    match seg s with
    | Some x => Some x
    | None => if match o with Call GetSegmenter | Call NewTable | Call GetTable => true | _ => false end
              then match load_segmenter s with Ok r => Some (Obj (made s) r) | Raise _ => None end
              else None
    end.
  Proof.
    intro W.
    assert (Q : forall x y : option (obj re), x = y -> x = match y with Some z => Some z | None => None end) by (intros x [y|] ->; reflexivity).
    destruct o as [| | | | | | c]; try (apply Q; reflexivity).
    destruct c as [| | | | | | | | | |n]; cbn [Session_model.happen];
      try (apply Q; match goal with |- seg (fst (construct ?l s)) = _ => destruct (construct_fst l s) as [-> | ->]; reflexivity end).
    - apply Q. apply (proj1 (caches s)).
    - apply Q. apply (proj2 (caches s)).
    - apply segmenter_of.
    - rewrite (proj1 (table_fst s)). apply segmenter_of.
    - rewrite (proj1 (gets_table s)). destruct (tab s) as [t|] eqn:T; [|apply segmenter_of]. rewrite (W t T). reflexivity.
  Qed.
  Lemma happen_tab s o : tab (happen s o) =
    match tab s with
    | Some x => Some x
    | None => match o with Call GetTable => match snd (new_table s) with Ok x => Some x | Raise _ => None end | _ => None end
    end.
  Proof.
    assert (Q : forall x y : option (obj (obj re * table_items)), x = y -> x = match y with Some z => Some z | None => None end) by (intros x [y|] ->; reflexivity).
    destruct o as [| | | | | | c]; try (apply Q; reflexivity).
    destruct c as [| | | | | | | | | |n]; cbn [Session_model.happen];
      try (apply Q; match goal with |- tab (fst (construct ?l s)) = _ => destruct (construct_fst l s) as [-> | ->]; reflexivity end).
    - apply Q. apply (proj1 (caches s)).
    - apply Q. apply (proj2 (caches s)).
    - apply Q. apply (segmenter_rest s).
    - apply Q. apply (table_fst s).
    - apply (gets_table s).
  Qed.
  Lemma happen_whole s o : whole s -> whole (happen s o).
  Proof.
    intros W t T. rewrite (happen_seg s o W). rewrite happen_tab in T. destruct (tab s) as [t0|] eqn:E.
    - injection T as ->. rewrite (W t E). reflexivity.
    - destruct o as [| | | | | | []]; try discriminate. destruct (new_table s) as [s' [x|e]] eqn:N; cbn [snd] in T; [|discriminate]. injection T as ->.
      pose proof (proj1 (whole_tab _ _ _ N)) as S'. rewrite <- S'. change s' with (fst (s', Ok t)). rewrite <- N, (proj1 (table_fst s)), segmenter_of. reflexivity.
  Qed.
  Lemma run_whole l : forall s, whole s -> whole (run s l).
  Proof. induction l as [|o l IH]; intros s W; [exact W|]. apply (IH (happen s o)), happen_whole, W. Qed.
  Lemma started_whole s : started s -> whole s.
  Proof. intros (_ & T & _) t E. congruence. Qed.
  Lemma run_app l l' s : run s (l ++ l') = run (run s l) l'.
  Proof. apply fold_left_app. Qed.
  (* what is kept, is kept for good *)
  Lemma run_seg l : forall s x, whole s -> seg s = Some x -> seg (run s l) = Some x.
  Proof. induction l as [|o l IH]; intros s x W E; [exact E|]. apply (IH (happen s o)); [apply happen_whole, W|]. rewrite happen_seg by exact W. rewrite E. reflexivity. Qed.
  Lemma run_tab l : forall s x, tab s = Some x -> tab (run s l) = Some x.
  Proof. induction l as [|o l IH]; intros s x E; [exact E|]. apply (IH (happen s o)). rewrite happen_tab, E. reflexivity. Qed.
  Lemma happen_kdic s o x : kdic s = Some x -> kdic (happen s o) = Some x.
  Proof.
    intro E. destruct o as [| | | | | | c]; try exact E. destruct c as [| | | | | | | | | |n]; cbn [Session_model.happen];
      try (match goal with |- kdic (fst (construct ?l s)) = _ => destruct (construct_fst l s) as [-> | ->]; exact E end).
    - unfold Session_model.cached_kanjidic, construct. destruct (load_kanjidic s); [|exact E]. cbn [count kdic]. rewrite E. reflexivity.
    - destruct (proj2 (caches s)) as (_ & _ & K & _). rewrite K. exact E.
    - destruct (segmenter_rest s) as (_ & K & _). rewrite K. exact E.
    - destruct (table_fst s) as (_ & _ & K & _). rewrite K. exact E.
    - destruct (gets_table s) as (_ & _ & K & _). rewrite K. exact E.
  Qed.
  Lemma happen_rdic s o x : rdic s = Some x -> rdic (happen s o) = Some x.
  Proof.
    intro E. destruct o as [| | | | | | c]; try exact E. destruct c as [| | | | | | | | | |n]; cbn [Session_model.happen];
      try (match goal with |- rdic (fst (construct ?l s)) = _ => destruct (construct_fst l s) as [-> | ->]; exact E end).
    - destruct (proj1 (caches s)) as (_ & _ & K & _). rewrite K. exact E.
    - unfold Session_model.cached_radk, construct. destruct (load_radk s); [|exact E]. cbn [count rdic]. rewrite E. reflexivity.
    - destruct (segmenter_rest s) as (_ & _ & K & _). rewrite K. exact E.
    - destruct (table_fst s) as (_ & _ & _ & K & _). rewrite K. exact E.
    - destruct (gets_table s) as (_ & _ & _ & K & _). rewrite K. exact E.
  Qed.
  Lemma run_kdic l : forall s x, kdic s = Some x -> kdic (run s l) = Some x.
  Proof. induction l as [|o l IH]; intros s x E; [exact E|]. apply (IH (happen s o)), happen_kdic, E. Qed.
  Lemma run_rdic l : forall s x, rdic s = Some x -> rdic (run s l) = Some x.
  Proof. induction l as [|o l IH]; intros s x E; [exact E|]. apply (IH (happen s o)), happen_rdic, E. Qed.
  (* the segmenter of the module is that of the first request that could be met *)
  Lemma asking o : match o with Call GetSegmenter | Call NewTable | Call GetTable => true | _ => false end = true <-> asks o.
  Proof.
    unfold asks. destruct o as [| | | | | | []]; split; intro H; try discriminate; try (destruct H as [H|[H|H]]; discriminate); auto.
  Qed.
  Lemma first_segmenter l : forall s, whole s -> seg s = None -> forall x, seg (run s l) = Some x <->
    exists before o after, l = before ++ o :: after /\ asks o /\ load_segmenter (run s before) = Ok (what x) /\ oid x = made (run s before) /\
      forall b o' a, before = b ++ o' :: a -> asks o' -> exists e, load_segmenter (run s b) = Raise e.
  Proof.
    induction l as [|o l IH]; intros s W E x.
    - split; [cbn; congruence|]. intros ([|] & o & a & X & _); discriminate.
    - change (run s (o :: l)) with (run (happen s o) l). pose proof (happen_seg s o W) as H. rewrite E in H. pose proof (asking o) as A.
      assert (Nope : seg (happen s o) = None -> (asks o -> exists e, load_segmenter s = Raise e) ->
        (seg (run (happen s o) l) = Some x <-> exists before o0 after, o :: l = before ++ o0 :: after /\ asks o0 /\ load_segmenter (run s before) = Ok (what x) /\
          oid x = made (run s before) /\ forall b o' a, before = b ++ o' :: a -> asks o' -> exists e, load_segmenter (run s b) = Raise e)).
      { intros N F. rewrite (IH _ (happen_whole s o W) N x). split.
        - intros (b & o1 & a & -> & A1 & L1 & M1 & B1). exists (o :: b), o1, a. repeat split; try assumption.
          intros [|q b'] o' a' X A'; injection X as <- X; [exact (F A') | exact (B1 b' o' a' X A')].
        - intros ([|q b] & o1 & a & X & A1 & L1 & M1 & B1); injection X as <- X.
          + destruct (F A1) as [e F']. cbn in L1. congruence.
          + exists b, o1, a. repeat split; try assumption. intros b' o' a' -> A'. exact (B1 (o :: b') o' a' eq_refl A'). }
      destruct (match o with Call GetSegmenter | Call NewTable | Call GetTable => true | _ => false end).
      + destruct (load_segmenter s) as [r|e] eqn:L.
        * rewrite (run_seg l _ _ (happen_whole s o W) H). split.
          -- intro X; injection X as <-. exists [], o, l. repeat split; [apply A; reflexivity | exact L |]. intros [|] o' a' X; discriminate.
          -- intros ([|q b] & o1 & a & X & A1 & L1 & M1 & B1); injection X as <- X.
             ++ cbn in L1, M1. rewrite L in L1. injection L1 as ->. rewrite <- M1. destruct x; reflexivity.
             ++ destruct (B1 [] o b eq_refl ltac:(apply A; reflexivity)) as [e F]. cbn in F. congruence.
        * apply Nope; [exact H|]. intros _. exists e. reflexivity.
      + apply Nope; [exact H|]. intro X. apply A in X. discriminate.
  Qed.
  (* calls leave the pack as it is *)
  Definition same_pack (s s' : session) : Prop := environ s' = environ s /\ directories s' = directories s /\ files s' = files s.
  Lemma call_pack s c : same_pack s (happen s (Call c)).
  Proof.
    destruct c as [| | | | | | | | | |n]; cbn [Session_model.happen];
      try (match goal with |- same_pack s (fst (construct ?l s)) => destruct (construct_fst l s) as [-> | ->]; repeat split end).
    - apply (proj1 (caches s)).
    - apply (proj2 (caches s)).
    - apply (segmenter_rest s).
    - apply (table_fst s).
    - apply (gets_table s).
  Qed.
  Lemma calls_pack l : Forall is_call l -> forall s, same_pack s (run s l).
  Proof.
    intro F. induction F as [|o l [c ->] F IH]; intro s; [repeat split|]. destruct (call_pack s c) as (A & B & C).
    destruct (IH (happen s (Call c))) as (A' & B' & C'). unfold same_pack. change (run s (Call c :: l)) with (run (happen s (Call c)) l). rewrite A', B', C'. auto.
  Qed.
  Lemma pack_loads s s' : same_pack s s' -> load_segmenter s' = load_segmenter s /\ load_hanzi s' = load_hanzi s /\
    load_kanjidic s' = load_kanjidic s /\ load_radk s' = load_radk s.
  Proof.
    intros (A & B & C). unfold Session_model.load_segmenter, Session_model.load_hanzi, Session_model.load_kanjidic, Session_model.load_radk, Session_model.resource, disk.
    rewrite A, B, C. auto.
  Qed.
  (* as long as the pack stays as it was at the start, segmenter and table are its own *)
  Lemma same_pack_seg l s : Forall is_call l -> started s -> forall x, seg (run s l) = Some x -> load_segmenter (run s l) = Ok (what x).
  Proof.
    intros F St x E. apply (first_segmenter l s (started_whole s St) (proj1 St)) in E. destruct E as (b & o & a & -> & _ & L & _).
    apply Forall_app in F. destruct F as [Fb F]. rewrite (proj1 (pack_loads _ _ (calls_pack b Fb s))) in L.
    rewrite (proj1 (pack_loads _ _ (calls_pack (b ++ o :: a) ltac:(apply Forall_app; split; assumption) s))). exact L.
  Qed.
  Lemma same_pack_tab l s : Forall is_call l -> started s -> forall t, tab (run s l) = Some t -> load_hanzi (run s l) = Ok (snd (what t)).
  Proof.
    intros F St. assert (P : forall l, Forall is_call l -> load_hanzi (run s l) = load_hanzi s).
    { intros l' F'. apply (pack_loads _ _ (calls_pack l' F' s)). }
    rewrite (P l F). induction l as [|o l IH] using rev_ind; intros t T.
    - destruct St as (_ & T' & _). cbn in T. congruence.
    - apply Forall_app in F. destruct F as [F _]. rewrite run_app in T. change (run (run s l) [o]) with (happen (run s l) o) in T. rewrite happen_tab in T.
      destruct (tab (run s l)) as [t0|]; [apply (IH F); exact T|]. destruct o as [| | | | | | []]; try discriminate.
      destruct (new_table (run s l)) as [s' [x|e]] eqn:N; cbn [snd] in T; [|discriminate]. injection T as ->.
      rewrite <- (P l F). apply (whole_tab _ _ _ N).
  Qed.
  Lemma one_pack l s s' t : Forall is_call l -> started s ->
    new_table (run s l) = (s', Ok t) \/ get_table (run s l) = (s', Ok t) ->
    load_segmenter (run s l) = Ok (what (fst (what t))) /\ load_hanzi (run s l) = Ok (snd (what t)).
  Proof.
    intros F St H.
    assert (C : exists c, happen (run s l) (Call c) = s' /\ seg s' = Some (fst (what t)) /\ load_hanzi (run s l) = Ok (snd (what t))).
    { destruct H as [N | G].
      - exists NewTable. cbn [Session_model.happen]. rewrite N. split; [reflexivity | apply (whole_tab _ _ _ N)].
      - exists GetTable. cbn [Session_model.happen]. rewrite G. split; [reflexivity|]. unfold Session_model.get_table in G. destruct (tab (run s l)) as [t0|] eqn:T.
        + injection G as <- ->. split; [apply (run_whole l s (started_whole s St) _ T) | apply same_pack_tab; assumption].
        + destruct (new_table (run s l)) as [s1 [x|e]] eqn:N; [|discriminate]. injection G as <- ->. apply (whole_tab _ _ _ N). }
    destruct C as (c & E & S' & Hz). split; [|exact Hz].
    assert (F' : Forall is_call (l ++ [Call c])) by (apply Forall_app; split; [exact F | repeat constructor; exists c; reflexivity]).
    assert (E' : run s (l ++ [Call c]) = s') by (rewrite run_app; exact E).
    pose proof (same_pack_seg _ s F' St (fst (what t))) as L. rewrite E' in L. specialize (L S'). rewrite <- E in L.
    rewrite <- (proj1 (pack_loads _ _ (call_pack (run s l) c))). exact L.
  Qed.
  (* the class caches: the object is built anew every time, and thrown away when there is one already *)
  Lemma cached_exact s :
    cached_kanjidic s = match load_kanjidic s with
                        | Raise e => (s, Raise e)
                        | Ok r => let x := match kdic s with Some x => x | None => Obj (made s) r end in (keep_kdic (count s) x, Ok x)
                        end /\
    cached_radk s = match load_radk s with
                    | Raise e => (s, Raise e)
                    | Ok r => let x := match rdic s with Some x => x | None => Obj (made s) r end in (keep_rdic (count s) x, Ok x)
                    end.
  Proof. unfold Session_model.cached_kanjidic, Session_model.cached_radk, construct. split; [destruct (load_kanjidic s) | destruct (load_radk s)]; reflexivity. Qed.
  (* the world outside *)
  Lemma world_step o s : orderly s -> orderly (happen s o) /\
    (forall k, dget k (environ (happen s o)) = match says_variable k o with Some x => x | None => dget k (environ s) end) /\
    (forall d, mem d (directories (happen s o)) = match says_directory d o with Some x => x | None => mem d (directories s) end) /\
    (forall n, disk (happen s o) n = match says_file n o with Some x => x | None => disk s n end).
  Proof.
    intros [NE NF]. destruct o as [k v | k | d | d | n b | n | c].
    - cbn -[eqb dset ddel dget mem sadd filter disk]. split; [split; [apply NoDup_dset; exact NE | exact NF]|]. split; [|split; intros; reflexivity].
      intro k'. rewrite dget_dset. destruct (eqb k' k); reflexivity.
    - cbn -[eqb dset ddel dget mem sadd filter disk]. split; [split; [apply NoDup_ddel; exact NE | exact NF]|]. split; [|split; intros; reflexivity].
      intro k'. rewrite dget_ddel by exact NE. destruct (eqb k' k); reflexivity.
    - cbn -[eqb dset ddel dget mem sadd filter disk]. split; [split; assumption|]. split; [intros; reflexivity | split; [|intros; reflexivity]].
      intro d'. apply Bool.eq_iff_eq_true. rewrite mem_In, In_sadd. destruct (eqb_spec d' d) as [-> | N]; [tauto|]. rewrite mem_In. tauto.
    - cbn -[eqb dset ddel dget mem sadd filter disk]. split; [split; assumption|]. split; [intros; reflexivity | split; [|intros; reflexivity]].
      intro d'. apply Bool.eq_iff_eq_true. rewrite mem_In, filter_In. destruct (eqb_spec d' d) as [-> | N]; [cbn; split; [intros [_ X] | intro X]; discriminate|].
      rewrite mem_In. cbn. tauto.
    - cbn -[eqb dset ddel dget mem sadd filter disk]. split; [split; [exact NE | apply NoDup_dset; exact NF]|]. split; [intros; reflexivity | split; [intros; reflexivity|]].
      intro n'. unfold disk. cbn -[eqb dset ddel dget]. rewrite dget_dset. destruct (eqb n' n); reflexivity.
    - cbn -[eqb dset ddel dget mem sadd filter disk]. split; [split; [exact NE | apply NoDup_ddel; exact NF]|]. split; [intros; reflexivity | split; [intros; reflexivity|]].
      intro n'. unfold disk. cbn -[eqb dset ddel dget]. rewrite dget_ddel by exact NF. destruct (eqb n' n); reflexivity.
    - destruct (call_pack s c) as (E & D & F). unfold orderly, disk. rewrite E, D, F. repeat split; assumption.
  Qed.
  Lemma world l : forall s, orderly s ->
    (forall k, dget k (environ (run s l)) = latest (says_variable k) l (dget k (environ s))) /\
    (forall d, mem d (directories (run s l)) = latest (says_directory d) l (mem d (directories s))) /\
    (forall n, disk (run s l) n = latest (says_file n) l (disk s n)).
  Proof.
    induction l as [|o l IH]; intros s O; [repeat split; reflexivity|].
    destruct (world_step o s O) as (O' & E & D & F). destruct (IH (happen s o) O') as (E' & D' & F').
    unfold latest. cbn [fold_left Session_model.run]. split; [|split]; intro k.
    - rewrite <- E. apply E'.
    - rewrite <- D. apply D'.
    - rewrite <- F. apply F'.
  Qed.
End Session.
