(* KanaTable_proofs.v -- lemmas about the model of kana_table.py *)
From Verif Require Import Base PyStr KanaTable_model KanaTable_spec.

(** *** order independence of the derived dictionaries *)
Definition cpairs (table : dict str str) : list (str * str) :=
  flat_map (fun row => map (fun e => ([e], fst row)) (snd row)) table.

Lemma consonant_dict_flat table : consonant_dict table = dict_of (cpairs table).
Proof.
  unfold consonant_dict, cpairs, dict_of.
  assert (G : forall acc, fold_left (fun acc row => dupdate acc (map (fun e => ([e], fst row)) (snd row))) table acc
              = dupdate acc (flat_map (fun row => map (fun e => ([e], fst row)) (snd row)) table)).
  { induction table as [|row t IH]; intros acc; cbn [fold_left flat_map]; [reflexivity|].
    rewrite IH, dupdate_app; reflexivity. }
  apply G.
Qed.

Lemma cpairs_nodup : NoDup (dkeys (cpairs kana_rows)).
Proof. apply nodupb_NoDup; vm_compute; reflexivity. Qed.

Lemma consonant_dict_perm table k : Permutation table kana_rows ->
  dget k (consonant_dict table) = dget k (cpairs kana_rows).
Proof.
  intros P; rewrite consonant_dict_flat.
  assert (P' : Permutation (cpairs kana_rows) (cpairs table)).
  { apply Permutation_flat_map, Permutation_sym, P. }
  rewrite dget_dict_of; [symmetry; apply dget_perm; [exact P'|apply cpairs_nodup]|].
  apply (Permutation_NoDup (Permutation_map fst P')), cpairs_nodup.
Qed.

Lemma heads_tails_total {A} (d : A) (rows : list (list A)) :
  (forall r, In r rows -> r <> []) ->
  heads_tails rows = Some (map (hd d) rows, map (@tl A) rows).
Proof.
  induction rows as [|r rows IH]; intros E; cbn [heads_tails map]; [reflexivity|].
  destruct r as [|a r]; [exfalso; apply (E [] (or_introl eq_refl)); reflexivity|].
  rewrite IH; [reflexivity|intros r' Hr'; apply E; right; exact Hr'].
Qed.

Lemma nth_tl {A} (r : list A) i d : nth i (tl r) d = nth (S i) r d.
Proof. destruct r; [destruct i; reflexivity|reflexivity]. Qed.
Lemma nth_0_hd {A} (r : list A) d : nth 0 r d = hd d r.
Proof. destruct r; reflexivity. Qed.

Lemma zip_with_first_nth {A} (d : A) n : forall first (rows : list (list A)),
  length first = n -> (forall r, In r rows -> length r = n) ->
  zip_with_first first rows = map (fun j => map (fun r => nth j r d) (first :: rows)) (seq 0 n).
Proof.
  induction n as [|n IH]; intros first rows L1 L2.
  - destruct first; [reflexivity|discriminate].
  - destruct first as [|a first]; [discriminate|]; cbn [zip_with_first].
    rewrite (heads_tails_total d); [|intros r Hr E; specialize (L2 r Hr); rewrite E in L2; discriminate].
    rewrite IH; [|injection L1 as L1; exact L1|].
    + cbn [seq map]; f_equal.
      * cbn [nth]; f_equal; apply map_ext; intros r; rewrite nth_0_hd; reflexivity.
      * rewrite <- seq_shift, map_map; apply map_ext; intros j; cbn [map nth]; f_equal.
        rewrite map_map; apply map_ext; intros r; apply nth_tl.
    + intros r Hr; apply in_map_iff in Hr; destruct Hr as [r' [<- Hr']].
      specialize (L2 r' Hr'); destruct r'; [discriminate|injection L2 as L2; exact L2].
Qed.

Lemma zip_star_nth {A} (d : A) n (rows : list (list A)) :
  rows <> [] -> (forall r, In r rows -> length r = n) ->
  zip_star rows = map (fun j => map (fun r => nth j r d) rows) (seq 0 n).
Proof.
  destruct rows as [|r rows]; [congruence|]; intros _ L; cbn [zip_star].
  apply zip_with_first_nth; [apply L; left; reflexivity|intros r' Hr'; apply L; right; exact Hr'].
Qed.

Lemma insert_char_comm a b l : insert_char a (insert_char b l) = insert_char b (insert_char a l).
Proof.
  induction l as [|c l IH]; cbn [insert_char].
  - destruct (Z.leb_spec a b), (Z.leb_spec b a); try reflexivity; try lia.
    assert (a = b) by lia; subst; reflexivity.
  - destruct (Z.leb_spec b c) as [B|B], (Z.leb_spec a c) as [A|A]; cbn [insert_char].
    + destruct (Z.leb_spec a b) as [C|C], (Z.leb_spec b a) as [D|D]; try lia.
      * assert (a = b) by lia; subst; reflexivity.
      * destruct (Z.leb_spec b c); [reflexivity|lia].
      * destruct (Z.leb_spec a c); [reflexivity|lia].
    + destruct (Z.leb_spec a b); [lia|]. destruct (Z.leb_spec a c); [lia|].
      destruct (Z.leb_spec b c); [reflexivity|lia].
    + destruct (Z.leb_spec a c); [|lia]. destruct (Z.leb_spec b a); [lia|].
      destruct (Z.leb_spec b c); [lia|reflexivity].
    + destruct (Z.leb_spec a c); [lia|]. destruct (Z.leb_spec b c); [lia|]. rewrite IH; reflexivity.
Qed.
Lemma sorted_chars_perm l m : Permutation l m -> sorted_chars l = sorted_chars m.
Proof.
  unfold sorted_chars; induction 1 as [|x l m P IH|x y l|l m k P1 IH1 P2 IH2]; cbn [fold_right].
  - reflexivity.
  - rewrite IH; reflexivity.
  - apply insert_char_comm.
  - rewrite IH1; exact IH2.
Qed.

Lemma kana_rows_len : forall r, In r (dvals kana_rows) -> length r = 5%nat.
Proof.
  assert (E : forallb (fun r => Nat.eqb (length r) 5) (dvals kana_rows) = true) by (vm_compute; reflexivity).
  rewrite forallb_forall in E; intros r Hr; apply Nat.eqb_eq, E, Hr.
Qed.

Lemma vowel_dict_perm table : Permutation table kana_rows -> vowel_dict table = vowel_dict kana_rows.
Proof.
  intros P; unfold vowel_dict.
  assert (PV : Permutation (dvals table) (dvals kana_rows)) by (apply Permutation_map, P).
  assert (N1 : dvals table <> []).
  { intros E; rewrite E in PV; apply Permutation_nil in PV; discriminate. }
  rewrite (zip_star_nth (0 : char) 5 (dvals table)); [|exact N1|intros r Hr; apply kana_rows_len, (Permutation_in _ PV), Hr].
  rewrite (zip_star_nth (0 : char) 5 (dvals kana_rows)); [|discriminate|exact kana_rows_len].
  assert (G : forall js acc,
    fold_left vowel_step (map (fun j => map (fun r => nth j r 0) (dvals table)) js) acc =
    fold_left vowel_step (map (fun j => map (fun r => nth j r 0) (dvals kana_rows)) js) acc).
  { induction js as [|j js IH]; intros acc; cbn [map fold_left]; [reflexivity|].
    assert (S : vowel_step acc (map (fun r => nth j r 0) (dvals table)) =
                vowel_step acc (map (fun r => nth j r 0) (dvals kana_rows))).
    { unfold vowel_step; rewrite (sorted_chars_perm _ _ (Permutation_map (fun r => nth j r 0) PV)); reflexivity. }
    rewrite S; apply IH. }
  apply G.
Qed.

(** *** finite tables *)
Definition vlist : dict str str := Eval vm_compute in
  match vowel_dict kana_rows with Ok d => d | Raise _ => [] end.
Definition clist : dict str str := Eval vm_compute in cpairs kana_rows.

Lemma vowel_dict_val : vowel_dict kana_rows = Ok vlist.
Proof. vm_compute; reflexivity. Qed.
Lemma cpairs_val : cpairs kana_rows = clist.
Proof. vm_compute; reflexivity. Qed.

Definition coordsb (k c v : char) : bool :=
  existsb (fun row => match row with
                      | c' :: _ => (c' =? c) && existsb (fun kv => (fst kv =? k) && (snd kv =? v)) (combine row (u "あいうえお"))
                      | [] => false end) syllabary.

Lemma nth_combine_In {A B} (l : list A) (m : list B) i a b :
  nth_error l i = Some a -> nth_error m i = Some b -> In (a, b) (combine l m).
Proof.
  revert m i; induction l as [|x l IH]; intros m i; [destruct i; discriminate|].
  destruct m as [|y m]; [destruct i; discriminate|].
  destruct i as [|i]; cbn [nth_error combine In].
  - intros E1 E2; injection E1 as ->; injection E2 as ->; left; reflexivity.
  - intros E1 E2; right; apply (IH m i); assumption.
Qed.
Lemma In_combine_nth {A B} (l : list A) (m : list B) a b :
  In (a, b) (combine l m) -> exists i, nth_error l i = Some a /\ nth_error m i = Some b.
Proof.
  revert m; induction l as [|x l IH]; intros m; [intros []|].
  destruct m as [|y m]; [intros []|]; cbn [combine In]; intros [E|E].
  - injection E as -> ->; exists 0%nat; split; reflexivity.
  - destruct (IH m E) as [i [E1 E2]]; exists (S i); split; assumption.
Qed.

Lemma coordsb_spec k c v : coordsb k c v = true <-> coords k c v.
Proof.
  unfold coordsb, coords; rewrite existsb_exists; split.
  - intros [row [Hr E]]; destruct row as [|c' row]; [discriminate|].
    apply andb_true_iff in E; destruct E as [E1 E2]; apply Z.eqb_eq in E1; subst c'.
    apply existsb_exists in E2; destruct E2 as [[a b] [Hin E2]]; cbn [fst snd] in E2.
    apply andb_true_iff in E2; destruct E2 as [E2 E3]; apply Z.eqb_eq in E2, E3; subst a b.
    apply In_combine_nth in Hin; destruct Hin as [i [E1 E2]].
    exists (c :: row), i; repeat split; assumption.
  - intros [row [i [Hr [E1 [E2 E3]]]]]; exists row; split; [exact Hr|].
    destruct row as [|c' row]; [discriminate|]; cbn [nth_error] in E1; injection E1 as ->.
    rewrite Z.eqb_refl; cbn [andb]; apply existsb_exists; exists (k, v); split.
    + apply (nth_combine_In _ _ i); assumption.
    + cbn [fst snd]; rewrite !Z.eqb_refl; reflexivity.
Qed.

(** every pair of the syllabary, as (kana, consonant, vowel) *)
Definition all_coords : list (char * char * char) := Eval vm_compute in
  flat_map (fun row => map (fun kv => (fst kv, hd 0 row, snd kv)) (combine row (u "あいうえお"))) syllabary.
Lemma coords_all k c v : coords k c v <-> In (k, c, v) all_coords.
Proof.
  assert (E : all_coords = flat_map (fun row => map (fun kv => (fst kv, hd 0 row, snd kv)) (combine row (u "あいうえお"))) syllabary)
    by (vm_compute; reflexivity).
  rewrite E; unfold coords; rewrite in_flat_map; split.
  - intros [row [i [Hr [E1 [E2 E3]]]]]; exists row; split; [exact Hr|].
    apply in_map_iff; exists (k, v); split; [|apply (nth_combine_In _ _ i); assumption].
    cbn [fst snd]; destruct row; [discriminate|injection E1 as ->; reflexivity].
  - intros [row [Hr Hin]]; apply in_map_iff in Hin; destruct Hin as [[a b] [Eq Hin]].
    cbn [fst snd] in Eq; injection Eq as -> <- ->.
    apply In_combine_nth in Hin; destruct Hin as [i [E1 E2]].
    exists row, i; repeat split; try assumption.
    destruct row; [destruct i; discriminate|reflexivity].
Qed.

Lemma check_all : forallb (fun t => match t with (k, c, v) =>
    eqb (dget [k] clist) (Some [c]) && eqb (dget [k] vlist) (Some [v]) &&
    match dget [c] kana_rows, find [v] vowels with
    | Some row, Some i => eqb (nth_error row i) (Some k)
    | _, _ => false end end) all_coords = true.
Proof. vm_compute; reflexivity. Qed.
Lemma check_clist : forallb (fun kc => match kc with
    | ([k], [c]) => match dget [k] vlist with Some [v] => mem (k, c, v) all_coords | _ => false end
    | _ => false end) clist = true.
Proof. vm_compute; reflexivity. Qed.
Lemma check_vlist : forallb (fun kv => match kv with
    | ([k], [v]) => match dget [k] clist with Some [c] => mem (k, c, v) all_coords | _ => false end
    | _ => false end) vlist = true.
Proof. vm_compute; reflexivity. Qed.
Lemma check_rows : forallb (fun cr => match cr with
    | ([c], row) => mem row syllabary && eqb (nth_error row 0) (Some c)
    | _ => false end) kana_rows = true.
Proof. vm_compute; reflexivity. Qed.

Lemma coords_lookup k c v : coords k c v -> dget [k] clist = Some [c] /\ dget [k] vlist = Some [v].
Proof.
  intros C; apply coords_all in C; pose proof check_all as F; rewrite forallb_forall in F.
  specialize (F _ C); cbn beta iota in F; rewrite !andb_true_iff in F; destruct F as [[F1 F2] _].
  apply eqb_eq in F1, F2; split; assumption.
Qed.
Lemma clist_coords s c : dget s clist = Some c ->
  exists k c' v, s = [k] /\ c = [c'] /\ dget s vlist = Some [v] /\ coords k c' v.
Proof.
  intros E; apply dget_In in E; pose proof check_clist as F; rewrite forallb_forall in F; specialize (F _ E).
  cbn beta iota in F.
  destruct s as [|k [|]]; try discriminate; destruct c as [|c' [|]]; try discriminate.
  destruct (dget [k] vlist) as [[|v [|]]|] eqn:Ev; try discriminate.
  apply mem_In in F; exists k, c', v; split; [reflexivity|split; [reflexivity|split; [first [exact Ev|reflexivity]|apply coords_all, F]]].
Qed.
Lemma vlist_coords s v : dget s vlist = Some v ->
  exists k c v', s = [k] /\ v = [v'] /\ dget s clist = Some [c] /\ coords k c v'.
Proof.
  intros E; apply dget_In in E; pose proof check_vlist as F; rewrite forallb_forall in F; specialize (F _ E).
  cbn beta iota in F.
  destruct s as [|k [|]]; try discriminate; destruct v as [|v' [|]]; try discriminate.
  destruct (dget [k] clist) as [[|c [|]]|] eqn:Ec; try discriminate.
  apply mem_In in F; exists k, c, v'; split; [reflexivity|split; [reflexivity|split; [first [exact Ec|reflexivity]|apply coords_all, F]]].
Qed.

Section WithOrder.
  Variable table : dict str str.
  Hypothesis order : Permutation table kana_rows.

  Lemma get_coords_eq s : get_coords table s =
    match dget s clist, dget s vlist with
    | Some c, Some v => Ok (c, v) | _, _ => Raise KeyError end.
  Proof.
    unfold get_coords; rewrite (vowel_dict_perm _ order), vowel_dict_val; cbn [bind].
    unfold dgetitem; rewrite (consonant_dict_perm _ s order), cpairs_val.
    destruct (dget s clist); cbn [of_option bind]; [|reflexivity].
    destruct (dget s vlist); reflexivity.
  Qed.

  Lemma get_coords_spec s c v : get_coords table s = Ok (c, v) <->
    exists k c' v', s = [k] /\ c = [c'] /\ v = [v'] /\ coords k c' v'.
  Proof.
    rewrite get_coords_eq; split.
    - destruct (dget s clist) as [c1|] eqn:E; [|discriminate].
      destruct (clist_coords s c1 E) as [k [c' [v' [-> [-> [Ev C]]]]]]; rewrite Ev.
      intros F; injection F as <- <-; exists k, c', v'; repeat split; exact C.
    - intros [k [c' [v' [-> [-> [-> C]]]]]]; destruct (coords_lookup _ _ _ C) as [-> ->]; reflexivity.
  Qed.
  Lemma get_coords_fail s e : get_coords table s = Raise e <->
    e = KeyError /\ ~ exists k c v, s = [k] /\ coords k c v.
  Proof.
    split.
    - intros E; assert (N : ~ exists k c v, s = [k] /\ coords k c v).
      { intros [k [c [v [-> C]]]].
        assert (F : get_coords table [k] = Ok ([c], [v])) by (apply get_coords_spec; exists k, c, v; auto).
        congruence. }
      split; [|exact N]; rewrite get_coords_eq in E.
      destruct (dget s clist), (dget s vlist); congruence.
    - intros [-> N]; destruct (get_coords table s) as [[c v]|e] eqn:E.
      + apply get_coords_spec in E; destruct E as [k [c' [v' [-> [-> [-> C]]]]]].
        exfalso; apply N; exists k, c', v'; auto.
      + rewrite get_coords_eq in E; destruct (dget s clist), (dget s vlist); congruence.
  Qed.

  Lemma table_get k : dget k table = dget k kana_rows.
  Proof.
    symmetry; apply dget_perm; [apply Permutation_sym, order|apply nodupb_NoDup; vm_compute; reflexivity].
  Qed.

  Lemma from_coords_spec c v k : from_coords table [c] [v] = Ok [k] <-> coords k c v.
  Proof.
    unfold from_coords, dgetitem, sindex; rewrite table_get; split.
    - destruct (dget [c] kana_rows) as [row|] eqn:E; cbn [of_option bind]; [|discriminate].
      destruct (find [v] vowels) as [i|] eqn:Ei; cbn [of_option bind]; [|discriminate].
      unfold sitem; destruct (nth_error row i) as [k'|] eqn:Ek; cbn [of_option bind]; [|discriminate].
      intros F; injection F as ->.
      apply dget_In in E; pose proof check_rows as F; rewrite forallb_forall in F; specialize (F _ E).
      cbn beta iota in F; apply andb_true_iff in F; destruct F as [F1 F2].
      apply mem_In in F1; apply eqb_eq in F2.
      exists row, i; repeat split; try assumption.
      apply find_char_Some in Ei; destruct Ei as [a [b [Ei [L _]]]].
      change (u "あいうえお") with vowels; rewrite Ei, nth_error_app2, L, Nat.sub_diag by lia; reflexivity.
    - intros C; apply coords_all in C; pose proof check_all as F; rewrite forallb_forall in F.
      specialize (F _ C); cbn beta iota in F; rewrite !andb_true_iff in F; destruct F as [_ F].
      destruct (dget [c] kana_rows) as [row|]; [|discriminate].
      destruct (find [v] vowels) as [i|]; [|discriminate]; apply eqb_eq in F.
      cbn [of_option bind]; unfold sitem; rewrite F; reflexivity.
  Qed.

  Lemma from_get_coords s c v : get_coords table s = Ok (c, v) -> from_coords table c v = Ok s.
  Proof.
    rewrite get_coords_spec; intros [k [c' [v' [-> [-> [-> C]]]]]]; apply from_coords_spec, C.
  Qed.
  Lemma get_from_coords c v row i :
    In (c, row) kana_rows -> nth_error (u "あいうえお") i = Some v ->
    exists k, from_coords table c [v] = Ok [k] /\ get_coords table [k] = Ok (c, [v]).
  Proof.
    intros Hr Hi; pose proof check_rows as F; rewrite forallb_forall in F; specialize (F _ Hr).
    destruct c as [|c [|]]; try discriminate; cbn beta iota in F.
    apply andb_true_iff in F; destruct F as [F1 F2]; apply mem_In in F1; apply eqb_eq in F2.
    assert (L : (i < length row)%nat).
    { assert (length row = 5%nat) as -> by (apply kana_rows_len; apply (in_map snd) in Hr; exact Hr).
      change 5%nat with (length (u "あいうえお")); apply nth_error_Some; congruence. }
    destruct (nth_error row i) as [k|] eqn:E; [|apply nth_error_Some in L; contradiction].
    assert (C : coords k c v) by (exists row, i; auto).
    exists k; split; [apply from_coords_spec, C|apply get_coords_spec; exists k, c, v; auto].
  Qed.

  Lemma to_consonant_line_spec s r : to_consonant_line table s = r <->
    (exists k c v, s = [k] /\ r = Some [c] /\ coords k c v) \/
    (r = None /\ ~ exists k c v, s = [k] /\ coords k c v).
  Proof.
    unfold to_consonant_line; rewrite (consonant_dict_perm _ s order), cpairs_val.
    destruct (dget s clist) as [c|] eqn:E.
    - destruct (clist_coords s c E) as [k [c' [v [-> [-> [Ev C]]]]]]; split.
      + intros <-; left; exists k, c', v; auto.
      + intros [[k1 [c1 [v1 [E1 [-> C1]]]]]|[_ N]].
        * injection E1 as <-; destruct (coords_lookup _ _ _ C1) as [E2 _]; rewrite E in E2; exact E2.
        * exfalso; apply N; exists k, c', v; auto.
    - split.
      + intros <-; right; split; [reflexivity|]; intros [k [c [v [-> C]]]].
        destruct (coords_lookup _ _ _ C) as [E2 _]; congruence.
      + intros [[k1 [c1 [v1 [-> [-> C1]]]]]|[-> _]]; [|reflexivity].
        destruct (coords_lookup _ _ _ C1) as [E2 _]; congruence.
  Qed.

  Lemma to_vowel_line_eq s : to_vowel_line table s =
    Ok (if eqb s (u "わ") then Some (u "あ") else dget s vlist).
  Proof.
    unfold to_vowel_line; rewrite (vowel_dict_perm _ order), vowel_dict_val; cbn [bind].
    destruct (eqb s (u "わ")); reflexivity.
  Qed.
  Lemma to_vowel_line_spec s r : to_vowel_line table s = Ok r <->
    (exists k c v, s = [k] /\ r = Some [v] /\ coords k c v) \/
    (s = u "わ" /\ r = Some (u "あ")) \/
    (r = None /\ s <> u "わ" /\ ~ exists k c v, s = [k] /\ coords k c v).
  Proof.
    rewrite to_vowel_line_eq.
    assert (W : dget (u "わ") vlist = None) by (vm_compute; reflexivity).
    destruct (eqb_spec s (u "わ")) as [->|n].
    - split.
      + intros F; injection F as <-; right; left; auto.
      + intros [[k [c [v [E [-> C]]]]]|[[_ ->]|[-> [N _]]]]; [|reflexivity|contradiction].
        destruct (coords_lookup _ _ _ C) as [_ E2]; rewrite <- E in E2; congruence.
    - destruct (dget s vlist) as [v|] eqn:E.
      + destruct (vlist_coords s v E) as [k [c [v' [-> [-> [Ec C]]]]]]; split.
        * intros F; injection F as <-; left; exists k, c, v'; auto.
        * intros [[k1 [c1 [v1 [E1 [-> C1]]]]]|[[E1 _]|[_ [_ N]]]].
          -- injection E1 as <-; destruct (coords_lookup _ _ _ C1) as [_ E2]; congruence.
          -- contradiction.
          -- exfalso; apply N; exists k, c, v'; auto.
      + split.
        * intros F; injection F as <-; right; right; split; [reflexivity|split; [exact n|]].
          intros [k [c [v [-> C]]]]; destruct (coords_lookup _ _ _ C) as [_ E2]; congruence.
        * intros [[k1 [c1 [v1 [-> [-> C1]]]]]|[[E1 _]|[-> _]]]; [|contradiction|reflexivity].
          destruct (coords_lookup _ _ _ C1) as [_ E2]; congruence.
  Qed.
End WithOrder.

(** *** C09 *)
Section Voiced.
  Variable U : UCD.
  Hypothesis ok : ucd_ok U.

  Lemma place_mark_perm c l : Permutation (place_mark U c l) (c :: l).
  Proof.
    induction l as [|d l IH]; cbn [place_mark]; [apply Permutation_refl|].
    destruct ((0 <? ccc U c) && (ccc U c <? ccc U d)); [|apply Permutation_refl].
    eapply Permutation_trans; [apply perm_skip, IH|apply perm_swap].
  Qed.
  Lemma canonical_order_perm s : Permutation (canonical_order U s) s.
  Proof.
    unfold canonical_order.
    assert (G : forall l acc, Permutation (fold_left (fun acc c => place_mark U c acc) l acc) (l ++ acc)).
    { induction l as [|c l IH]; intros acc; cbn [fold_left app]; [apply Permutation_refl|].
      eapply Permutation_trans; [apply IH|].
      eapply Permutation_trans; [apply Permutation_app_head, place_mark_perm|].
      apply Permutation_sym, Permutation_middle. }
    eapply Permutation_trans; [apply Permutation_sym, Permutation_rev|].
    specialize (G s []); rewrite app_nil_r in G; exact G.
  Qed.
  Lemma nfd_perm s : Permutation (nfd U s) (flat_map (decomp U) s).
  Proof. apply canonical_order_perm. Qed.
  Lemma flat_decomp_length s : (length s <= length (flat_map (decomp U) s))%nat.
  Proof.
    induction s as [|c s IH]; cbn [flat_map length]; [lia|].
    rewrite app_length; pose proof (ucd_nonempty U ok c); destruct (decomp U c); [congruence|cbn [length]; lia].
  Qed.
  Lemma nfd_length s : (length s <= length (nfd U s))%nat.
  Proof. rewrite (Permutation_length (nfd_perm s)); apply flat_decomp_length. Qed.

  Lemma long_not_voiced s : (3 <= length s)%nat -> is_voiced U s = false /\ is_semivoiced U s = false.
  Proof.
    intros L; pose proof (nfd_length s) as L'; unfold is_voiced, is_semivoiced.
    destruct (nfd U s) as [|a [|b [|c l]]]; cbn [length] in L'; try lia; split; reflexivity.
  Qed.
  Lemma empty_not_voiced : is_voiced U [] = false /\ is_semivoiced U [] = false.
  Proof. split; reflexivity. Qed.

  Lemma order_two a m : ccc U a = 0 -> canonical_order U [a; m] = [a; m].
  Proof.
    intros Z; unfold canonical_order; cbn [fold_left place_mark].
    rewrite Z; destruct (Z.ltb_spec 0 (ccc U m)), (Z.ltb_spec (ccc U m) 0); try lia; reflexivity.
  Qed.

  Lemma dakuten_not_handakuten c b b' : In (c, b) dakuten_pairs -> In (c, b') handakuten_pairs -> False.
  Proof.
    intros H1 H2.
    destruct (ucd_dakuten U ok _ _ H1) as [E1 _], (ucd_handakuten U ok _ _ H2) as [E2 _]; congruence.
  Qed.

  Lemma voiced_char c :
    (is_voiced U [c] = true <-> (exists b, In (c, b) dakuten_pairs) \/ (exists b, In (c, b) handakuten_pairs)) /\
    (is_semivoiced U [c] = true <-> exists b, In (c, b) handakuten_pairs).
  Proof.
    destruct (mem_spec c (map fst dakuten_pairs)) as [D|D].
    - apply in_map_iff in D; destruct D as [[c' b] [E D]]; cbn [fst] in E; subst c'.
      destruct (ucd_dakuten U ok _ _ D) as [E Z].
      unfold is_voiced, is_semivoiced, nfd; cbn [flat_map]; rewrite app_nil_r, E, (order_two _ _ Z).
      cbn; split; split; try discriminate; try reflexivity.
      + intros _; left; exists b; exact D.
      + intros [b' H2]; exfalso; exact (dakuten_not_handakuten _ _ _ D H2).
    - destruct (mem_spec c (map fst handakuten_pairs)) as [H|H].
      + apply in_map_iff in H; destruct H as [[c' b] [E H]]; cbn [fst] in E; subst c'.
        destruct (ucd_handakuten U ok _ _ H) as [E Z].
        unfold is_voiced, is_semivoiced, nfd; cbn [flat_map]; rewrite app_nil_r, E, (order_two _ _ Z).
        cbn; split; split; try reflexivity.
        * intros _; right; exists b; exact H.
        * intros _; exists b; exact H.
      + assert (N : forall m, (m = 0x3099 \/ m = 0x309a) -> forall x, nfd U [c] = [x; m] -> False).
        { intros m Hm x E.
          assert (I : In m (decomp U c)).
          { pose proof (nfd_perm [c]) as P; rewrite E in P; cbn [flat_map] in P; rewrite app_nil_r in P.
            apply (Permutation_in m P); right; left; reflexivity. }
          destruct (Z.eq_dec c 0x3099) as [Ec|n1].
          { pose proof (nfd_perm [c]) as P; apply Permutation_length in P; rewrite E in P.
            cbn [flat_map] in P; subst c; rewrite (proj1 (ucd_marks U ok)) in P; discriminate. }
          destruct (Z.eq_dec c 0x309a) as [Ec|n2].
          { pose proof (nfd_perm [c]) as P; apply Permutation_length in P; rewrite E in P.
            cbn [flat_map] in P; subst c; rewrite (proj1 (proj2 (ucd_marks U ok))) in P; discriminate. }
          destruct (ucd_other U ok c D H n1 n2) as [O1 O2]; destruct Hm as [->| ->]; contradiction. }
        unfold is_voiced, is_semivoiced.
        split; split.
        * destruct (nfd U [c]) as [|x [|m [|y l]]] eqn:E; try discriminate.
          intros F; exfalso; apply (N m) with (x := x); [|reflexivity].
          apply orb_true_iff in F; rewrite !Z.eqb_eq in F; exact F.
        * intros [[b F]|[b F]]; exfalso; apply (in_map fst) in F; contradiction.
        * destruct (nfd U [c]) as [|x [|m [|y l]]] eqn:E; try discriminate.
          intros F; exfalso; apply (N m) with (x := x); [|reflexivity]; right; apply Z.eqb_eq, F.
        * intros [b F]; exfalso; apply (in_map fst) in F; contradiction.
  Qed.

  (** an undecomposable base followed by a mark *)
  Lemma voiced_pair b m : decomp U b = [b] -> ccc U b = 0 ->
    (is_voiced U [b; m] = true <-> (m = 0x3099 \/ m = 0x309a)) /\
    (is_semivoiced U [b; m] = true <-> m = 0x309a).
  Proof.
    intros Eb Zb; destruct (ucd_marks U ok) as [M1 [M2 _]].
    assert (G : forall x y, nfd U [b; m] = [x; y] -> decomp U m = [y]).
    { intros x y E.
      assert (L : length (decomp U m) = 1%nat).
      { pose proof (nfd_perm [b; m]) as P; apply Permutation_length in P; rewrite E in P.
        cbn [flat_map] in P; rewrite Eb, app_nil_r, app_length in P; cbn [length] in P; lia. }
      destruct (decomp U m) as [|d [|]] eqn:Em; try discriminate.
      unfold nfd in E; cbn [flat_map] in E; rewrite Eb, Em in E; cbn [app] in E.
      rewrite order_two in E by exact Zb; injection E as _ ->; reflexivity. }
    assert (K : forall y, (y = 0x3099 \/ y = 0x309a) -> decomp U m = [y] -> m = y).
    { intros y Hy E.
      destruct (mem_spec m (map fst dakuten_pairs)) as [D|D].
      { apply in_map_iff in D; destruct D as [[c' b'] [Ec D]]; cbn [fst] in Ec; subst c'.
        destruct (ucd_dakuten U ok _ _ D) as [E2 _]; congruence. }
      destruct (mem_spec m (map fst handakuten_pairs)) as [H|H].
      { apply in_map_iff in H; destruct H as [[c' b'] [Ec H]]; cbn [fst] in Ec; subst c'.
        destruct (ucd_handakuten U ok _ _ H) as [E2 _]; congruence. }
      destruct (Z.eq_dec m 0x3099) as [->|n1]; [congruence|].
      destruct (Z.eq_dec m 0x309a) as [->|n2]; [congruence|].
      destruct (ucd_other U ok m D H n1 n2) as [O1 O2]; rewrite E in O1, O2; cbn [In] in *.
      destruct Hy; subst; exfalso; tauto. }
    assert (B : (m = 0x3099 \/ m = 0x309a) -> nfd U [b; m] = [b; m]).
    { intros Hm; unfold nfd; cbn [flat_map]; rewrite Eb.
      destruct Hm as [->| ->]; [rewrite M1|rewrite M2]; cbn [app]; apply order_two, Zb. }
    unfold is_voiced, is_semivoiced; split; split.
    - destruct (nfd U [b; m]) as [|x [|y [|z l]]] eqn:E; try discriminate.
      intros F; apply orb_true_iff in F; rewrite !Z.eqb_eq in F.
      rewrite (K y F (G x y eq_refl)); exact F.
    - intros Hm; rewrite (B Hm); apply orb_true_iff; rewrite !Z.eqb_eq; exact Hm.
    - destruct (nfd U [b; m]) as [|x [|y [|z l]]] eqn:E; try discriminate.
      intros F; apply Z.eqb_eq in F; rewrite (K y (or_intror F) (G x y eq_refl)); exact F.
    - intros Hm; rewrite (B (or_intror Hm)); apply Z.eqb_eq, Hm.
  Qed.
  Lemma semi_implies_voiced s : is_semivoiced U s = true -> is_voiced U s = true.
  Proof.
    unfold is_semivoiced, is_voiced; destruct (nfd U s) as [|a [|m [|]]]; try discriminate.
    intros ->; apply orb_true_r.
  Qed.
End Voiced.

Lemma kana_ucd_ok : ucd_ok kana_ucd.
Proof.
  constructor.
  - intros c; cbn [kana_ucd decomp]; destruct (dget c dakuten_pairs); [discriminate|].
    destruct (dget c handakuten_pairs); discriminate.
  - intros c b H.
    assert (F : forallb (fun cb => eqb (decomp kana_ucd (fst cb)) [snd cb; 0x3099] && eqb (ccc kana_ucd (snd cb)) 0) dakuten_pairs = true)
      by (vm_compute; reflexivity).
    rewrite forallb_forall in F; specialize (F _ H); cbn [fst snd] in F; apply andb_true_iff in F; destruct F as [F1 F2].
    apply eqb_eq in F1, F2; split; assumption.
  - intros c b H.
    assert (F : forallb (fun cb => eqb (decomp kana_ucd (fst cb)) [snd cb; 0x309a] && eqb (ccc kana_ucd (snd cb)) 0) handakuten_pairs = true)
      by (vm_compute; reflexivity).
    rewrite forallb_forall in F; specialize (F _ H); cbn [fst snd] in F; apply andb_true_iff in F; destruct F as [F1 F2].
    apply eqb_eq in F1, F2; split; assumption.
  - intros c N1 N2 n1 n2; cbn [kana_ucd decomp].
    rewrite (proj2 (dget_None c dakuten_pairs) N1), (proj2 (dget_None c handakuten_pairs) N2); cbn [In]; intuition.
  - repeat split.
Qed.
