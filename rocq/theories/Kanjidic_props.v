From Verif Require Import Base PyText Scripts_model Scripts_spec Regex Kanjidic_model Kanjidic_spec Kanjidic_proofs.

(** C43: segmentation of any text at all ... *)
Theorem C43_segments s ts : findall0 segment_pattern s = ts <-> segments s ts.
Proof. exact (findall_spec s ts). Qed.
Print Assumptions C43_segments.
Example C43_segments_case : findall0 segment_pattern (u "a b{c d}{}{x") = [u "a"; u "b"; u "{c d}"; u "{}"; u "x"].
Proof. vm_compute; reflexivity. Qed.

(** ... and the entry of every well-formed line *)
Theorem C43_fields dv kanji hex body g0 g1 fs jis sc scs p parts codes ps :
  blank g0 -> blank g1 -> plain kanji -> plain hex -> Forall field_ok fs ->
  laid_out body (kanji :: hex :: map token fs) -> py_int dv 16 hex = Some jis ->
  values dv (u "stroke_count") fs (sc :: scs) -> values dv (u "skip_code") fs (VStr p :: ps) ->
  p = join (u "-") parts -> parts <> [] -> Forall (fun q => ~ In (u1 "-") q) parts ->
  Forall2 (fun q z => py_int dv 10 q = Some z) parts codes ->
  exists e, parse_line dv (g0 ++ body ++ g1) = Ok e /\
    dget (u "kanji") e = Some (VStr kanji) /\ dget (u "jis_code") e = Some (VInt jis) /\
    dget (u "gloss") e = Some (VList (map VStr (glosses fs))) /\
    dget (u "on_readings") e = Some (VList (map VStr (ons fs))) /\
    dget (u "kun_readings") e = Some (VList (map VStr (kuns fs))) /\
    dget (u "stroke_count") e = Some sc /\ dget (u "skip_code") e = Some (VTuple codes) /\
    (forall vs, values dv (u "frequency") fs vs -> dget (u "frequency") e = hd_error vs) /\
    (forall name vs, ~ In name reserved -> values dv name fs vs ->
       dget name e = match vs with [] => None | _ => Some (VList vs) end).
Proof. exact (fun a b c d e f g => line_ok dv kanji hex body g0 g1 fs jis a b c d e f g sc scs p parts codes ps). Qed.
Print Assumptions C43_fields.

(** the values filed under a name exist and are unique *)
Theorem C43_values_function dv name fs : exists vs, values dv name fs vs /\ forall vs', values dv name fs vs' -> vs' = vs.
Proof. exact (ex_intro _ _ (conj (proj2 (values_vals dv name fs _) eq_refl) (fun vs' H => proj1 (values_vals dv name fs vs') H))). Qed.
Print Assumptions C43_values_function.

(** lines whose code, stroke count or skip code is missing or malformed *)
Theorem C43_bad_code dv kanji hex body g0 g1 fs :
  blank g0 -> blank g1 -> plain kanji -> plain hex -> Forall field_ok fs ->
  laid_out body (kanji :: hex :: map token fs) -> py_int dv 16 hex = None ->
  parse_line dv (g0 ++ body ++ g1) = Raise ValueError.
Proof. exact (fun a b c d e f => line_bad_code dv kanji hex body g0 g1 fs a b c d e f). Qed.
Print Assumptions C43_bad_code.
Theorem C43_no_stroke_count dv kanji hex body g0 g1 fs jis :
  blank g0 -> blank g1 -> plain kanji -> plain hex -> Forall field_ok fs ->
  laid_out body (kanji :: hex :: map token fs) -> py_int dv 16 hex = Some jis ->
  values dv (u "stroke_count") fs [] -> parse_line dv (g0 ++ body ++ g1) = Raise KeyError.
Proof. exact (fun a b c d e f g => line_no_stroke dv kanji hex body g0 g1 fs jis a b c d e f g). Qed.
Print Assumptions C43_no_stroke_count.
Theorem C43_bad_skip_code dv kanji hex body g0 g1 fs jis sc scs vs :
  blank g0 -> blank g1 -> plain kanji -> plain hex -> Forall field_ok fs ->
  laid_out body (kanji :: hex :: map token fs) -> py_int dv 16 hex = Some jis ->
  values dv (u "stroke_count") fs (sc :: scs) -> values dv (u "skip_code") fs vs ->
  match vs with
  | [] => parse_line dv (g0 ++ body ++ g1) = Raise KeyError
  | VStr p :: _ => forall parts, p = join (u "-") parts -> parts <> [] -> Forall (fun q => ~ In (u1 "-") q) parts ->
      Exists (fun q => py_int dv 10 q = None) parts -> parse_line dv (g0 ++ body ++ g1) = Raise ValueError
  | _ => parse_line dv (g0 ++ body ++ g1) = Raise AttributeError
  end.
Proof. exact (fun a b c d e f g => line_bad_skip dv kanji hex body g0 g1 fs jis a b c d e f g sc scs vs). Qed.
Print Assumptions C43_bad_skip_code.

Definition ex_line := u " 亜 3021 U4e9c S7 XJ35033 S8 F1509 P4-7-1 ア つ.ぐ{Asia} T1 や -ど {rank next}{x} ".
Example C43_case : parse_line ascii_dv ex_line = Ok
  [(u "kanji", VStr (u "亜")); (u "gloss", VList [VStr (u "Asia"); VStr (u "rank next"); VStr (u "x")]);
   (u "on_readings", VList [VStr (u "ア")]); (u "kun_readings", VList [VStr (u "つ.ぐ"); VStr (u "や"); VStr (u "-ど")]);
   (u "jis_code", VInt 12321); (u "unicode", VList [VStr (u "4e9c")]); (u "stroke_count", VInt 7);
   (u "cross_references", VList [VStr (u "J35033")]); (u "frequency", VInt 1509); (u "skip_code", VTuple [4; 7; 1])].
Proof. vm_compute; reflexivity. Qed.
(** a line meeting all the hypotheses *)
Definition ex_fields := [Code (u1 "S") (u "7"); Code (u1 "P") (u "4-7-1"); On (u "ア"); Kun (u "-つ"); Gloss (u "a b")].
Example C43_case_hyps : Forall field_ok ex_fields /\ plain (u "亜") /\
  laid_out (u "亜" ++ u " " ++ u "3021" ++ u " " ++ u "S7" ++ u " " ++ u "P4-7-1" ++ u " " ++ u "ア" ++ u " " ++ u "-つ" ++ [] ++ u "{a b}") (u "亜" :: u "3021" :: map token ex_fields) /\
  values ascii_dv (u "stroke_count") ex_fields [VInt 7] /\ values ascii_dv (u "skip_code") ex_fields [VStr (u "4-7-1")].
Proof.
  assert (B : forall l : list Z, l = u " " -> forall c, In c l -> c = u1 " ") by (intros l -> c [<-|[]]; reflexivity).
  assert (Pl : forall s, s <> [] -> forallb (fun c => negb (is_space c) && negb (c =? u1 "{")) s = true -> plain s).
  { intros s N F; split; [exact N|]; intros c I; apply (proj1 (forallb_forall _ _) F) in I; apply andb_prop in I; destruct I as [I1 I2].
    apply negb_true_iff in I1, I2; split; [exact I1|apply Z.eqb_neq, I2]. }
  split; [|split; [apply Pl; [discriminate|reflexivity]|split; [|split; apply values_vals; vm_compute; reflexivity]]].
  - apply Forall_cons; [|apply Forall_cons; [|apply Forall_cons; [|apply Forall_cons; [|apply Forall_cons; [|constructor]]]]]; cbn [field_ok].
    + split; [apply Pl; [discriminate|reflexivity]|split; [cbn; unfold between; lia|split; [discriminate|split; discriminate]]].
    + split; [apply Pl; [discriminate|reflexivity]|split; [cbn; unfold between; lia|split; [discriminate|split; discriminate]]].
    + split; [apply Pl; [discriminate|reflexivity]|]; exists (u1 "ア"), []; split; [left; reflexivity|cbn; unfold between; lia].
    + split; [apply Pl; [discriminate|reflexivity]|]; exists (u1 "つ"), []; split; [right; reflexivity|cbn; unfold between; lia].
    + split; apply mem_false; reflexivity.
  - change (map token ex_fields) with [u "S7"; u "P4-7-1"; u "ア"; u "-つ"; u "{a b}"].
    apply (L_cons (u "亜") (u " ")); [apply B; reflexivity| |left; discriminate].
    apply (L_cons (u "3021") (u " ")); [apply B; reflexivity| |left; discriminate].
    apply (L_cons (u "S7") (u " ")); [apply B; reflexivity| |left; discriminate].
    apply (L_cons (u "P4-7-1") (u " ")); [apply B; reflexivity| |left; discriminate].
    apply (L_cons (u "ア") (u " ")); [apply B; reflexivity| |left; discriminate].
    apply (L_cons (u "-つ") []); [intros c []| |right; right; eexists; reflexivity].
    apply L_one.
Qed.

(** C44 *)
Theorem C44_all_readings kun on : (forall r, In r (kun ++ on) -> (dots r <= 1)%nat) ->
  exists s, all_readings kun on = Ok s /\ NoDup s /\
    forall t, In t s <-> (exists r, In r kun /\ stem r t) \/ (exists r h, In r on /\ pointwise kata_to_hira r h /\ stem h t).
Proof. exact (all_readings_ok kun on). Qed.
Print Assumptions C44_all_readings.
Theorem C44_two_dots kun on : (exists r, In r (kun ++ on) /\ (dots r >= 2)%nat) -> all_readings kun on = Raise ValueError.
Proof. exact (all_readings_bad kun on). Qed.
Print Assumptions C44_two_dots.
Example C44_case : all_readings [u "つ.ぐ"; u "-ど"; u "つ"] [u "ア"; u "ド-"] = Ok [u "つ"; u "ど"; u "あ"].
Proof. vm_compute; reflexivity. Qed.

(** C45 *)
Theorem C45_last_entry_wins dv files d : init dv files = Ok d -> forall k e, dget k d = Some e <->
  exists a line b, concat files = a ++ line :: b /\ ~ comment line /\ parse_line dv line = Ok e /\ has_kanji e k /\
    forall line' e', In line' b -> ~ comment line' -> parse_line dv line' = Ok e' -> ~ has_kanji e' k.
Proof. exact (init_ok dv files d). Qed.
Print Assumptions C45_last_entry_wins.
Theorem C45_kanji_is_first_segment dv line e : parse_line dv line = Ok e ->
  exists k ts, segments (strip line) (k :: ts) /\ has_kanji e k.
Proof. exact (parse_line_kanji dv line e). Qed.
Print Assumptions C45_kanji_is_first_segment.
Theorem C45_first_bad_line dv files x : files <> [] -> (init dv files = Raise x <->
  exists a line b, concat files = a ++ line :: b /\ ~ comment line /\ parse_line dv line = Raise x /\
    forall l, In l a -> ~ comment l -> exists e, parse_line dv l = Ok e).
Proof. exact (init_raise dv files x). Qed.
Print Assumptions C45_first_bad_line.
Theorem C45_no_files dv : init dv [] = Raise TypeError.
Proof. exact eq_refl. Qed.
Print Assumptions C45_no_files.
Example C45_case :
  match init ascii_dv [[u "# x"; u "亜 3021 S7 P1-2-3"; u "唖 3022 S1 P1-1-1"]; [u "亜 3021 S9 P1-2-4"]] with
  | Ok d => (dkeys d, match dget (u "亜") d with Some e => dget (u "stroke_count") e | None => None end) = ([u "亜"; u "唖"], Some (VInt 9))
  | Raise _ => False
  end.
Proof. vm_compute; reflexivity. Qed.

(** C46.  KanaTable (and the pinyin tables): built by the first call only *)
Theorem C46_hasattr_builds_once {S A} (construct : S -> S * res A) n s s' a : construct s = (s', Ok a) ->
  calls (get_cached_hasattr construct) (Datatypes.S n) (s, None) = ((s', Some a), repeat (Ok a) (Datatypes.S n)).
Proof. exact (hasattr_once construct n s s' a). Qed.
Print Assumptions C46_hasattr_builds_once.
(** Kanjidic and RadkDict: every call returns the first object ... but builds
    another one: n+1 calls perform n+1 constructions *)
Theorem C46_getattr_same_object_partial {S A} (construct : S -> S * res A) n s s1 s' a :
  construct s = (s1, Ok a) -> constructed construct n s1 s' ->
  calls (get_cached_getattr construct) (Datatypes.S n) (s, None) = ((s', Some a), repeat (Ok a) (Datatypes.S n)).
Proof. exact (getattr_each construct n s s1 s' a). Qed.
Print Assumptions C46_getattr_same_object_partial.
Definition counting (s : nat) : nat * res nat := (Datatypes.S s, Ok s).
Theorem C46_getattr_builds_once_refuted : forall n,
  calls (get_cached_getattr counting) (Datatypes.S n) (0%nat, None) = ((Datatypes.S n, Some 0%nat), repeat (Ok 0%nat) (Datatypes.S n)).
Proof.
  assert (C : forall n s, constructed counting n s (n + s)%nat).
  { induction n as [|n IH]; intros s; cbn [constructed]; [reflexivity|]; exists (Datatypes.S s), s; split; [reflexivity|].
    replace (Datatypes.S n + s)%nat with (n + Datatypes.S s)%nat by lia; apply IH. }
  intros n; specialize (C n 1%nat); replace (n + 1)%nat with (Datatypes.S n) in C by lia.
  exact (getattr_each counting n 0%nat 1%nat (Datatypes.S n) 0%nat eq_refl C).
Qed.
Print Assumptions C46_getattr_builds_once_refuted.
(** so a cached class still fails when its files have become unreadable *)
Theorem C46_getattr_fails_when_cached {S A} (construct : S -> S * res A) s s' e c :
  construct s = (s', Raise e) -> get_cached_getattr construct (s, c) = ((s', c), Raise e).
Proof. exact (getattr_fails construct s s' e c). Qed.
Print Assumptions C46_getattr_fails_when_cached.
Example C46_case : calls (get_cached_hasattr counting) 3 (0%nat, None) = ((1%nat, Some 0%nat), repeat (Ok 0%nat) 3) /\
  calls (get_cached_getattr counting) 3 (0%nat, None) = ((3%nat, Some 0%nat), repeat (Ok 0%nat) 3) /\
  let failing (s : nat) : nat * res nat := (S s, if (s =? 0)%nat then Ok 7%nat else Raise OSError) in
  calls (get_cached_hasattr failing) 2 (0%nat, None) = ((1%nat, Some 7%nat), [Ok 7%nat; Ok 7%nat]) /\
  calls (get_cached_getattr failing) 2 (0%nat, None) = ((2%nat, Some 7%nat), [Ok 7%nat; Raise OSError]).
Proof. vm_compute; repeat split. Qed.
