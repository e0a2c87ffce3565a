(* WildTable_props.v -- C145 *)
From Verif Require Import Base PyStr PyText Regex RegexSyntax RegexSyntax_proofs RegexSem RegexSem_proofs.
From Verif Require Import Pinyin_model Pinyin_spec Pinyin_proofs Patterns_model Patterns_spec Patterns_proofs Wild_model Wild_spec Wild_proofs Wild_props WildTable_model WildTable_spec.

Lemma spelled_tones rs b s l : spelled rs b s l -> Forall (fun p => 0 <= snd p <= 5) l.
Proof.
  induction 1 as [b w t z d r l _ T _ _ _ IH|b c q l _ _ _ IH| |b q l _ _ IH| |]; try (constructor; fail); try (constructor; [cbn [snd]; lia|exact IH || constructor]); try assumption.
  constructor; [|exact IH]. cbn [snd]. destruct T; lia.
Qed.
Lemma one_by_one_mapM {A} (f : A -> res str) l : one_by_one f l (do r <- mapM f l; Ok (join [] r)).
Proof.
  induction l as [|x l IH]; [constructor|]. cbn [mapM]. destruct (f x) as [o|e] eqn:E; cbn [bind]; [|apply One_fails, E].
  destruct (mapM f l) as [r|e]; cbn [bind] in *.
  - rewrite join_nil in *. cbn [concat]. apply One_more; assumption.
  - apply (One_later f x l o); assumption.
Qed.
Lemma one_by_one_fun {A} (f : A -> res str) l : forall r r', one_by_one f l r -> one_by_one f l r' -> r = r'.
Proof.
  induction l as [|x l IH]; intros r r' H H'; inversion H; subst; inversion H'; subst; try congruence.
  - match goal with A : one_by_one f l (Ok ?a), B : one_by_one f l (Ok ?b) |- _ => pose proof (IH _ _ A B) as Q; injection Q as -> end. congruence.
  - match goal with A : one_by_one f l (Ok ?a), B : one_by_one f l (Raise ?b) |- _ => pose proof (IH _ _ A B) as Q; discriminate Q end.
  - match goal with A : one_by_one f l (Raise ?a), B : one_by_one f l (Ok ?b) |- _ => pose proof (IH _ _ A B) as Q; discriminate Q end.
  - match goal with A : one_by_one f l (Raise ?a), B : one_by_one f l (Raise ?b) |- _ => pose proof (IH _ _ A B) as Q; injection Q as -> end. reflexivity.
Qed.

(** C145: if no syllable has a group, a text in numbers is written with marks unless an
    empty syllable is found in it (# or a place where a syllable matches nothing); texts
    are normalized twice *)
Theorem C145_from_ascii isd int_ lower istream syls ts seg s : (forall z, 0 <= z <= 5 -> int_ [48 + z] = Some z) ->
  trees istream syls ts -> new_segmenter_any isd istream = Ok seg -> counts ts = O ->
  exists l, spelled (meanings isd ts) [] (standard lower (standard lower s)) l /\
    ((exists z, In ([], z) l) -> from_ascii_any int_ lower seg s = Raise IndexError) /\
    ((forall z, ~ In ([], z) l) -> exists outs, Forall2 (fun p o => toned (snd p) (fst p) o) l outs /\ from_ascii_any int_ lower seg s = Ok (concat outs)).
Proof.
  intros D T M C. destruct (C143_total isd int_ lower istream syls ts seg (standard lower s) D T M C) as [l E]. exists l.
  pose proof (proj1 (C143_segments isd int_ lower istream syls ts seg (standard lower s) l D T M C) E) as Sp. split; [exact Sp|].
  unfold from_ascii_any. cbv zeta. rewrite standard_normalize, E. cbn [bind]. apply spelled_tones in Sp. clear E. split.
  - intros [z I]. assert (X : mapM (fun pt => apply_tone (fst pt) (snd pt)) l = Raise IndexError); [|rewrite X; reflexivity].
    induction Sp as [|[w y] l R Sp IH]; [destruct I|]. cbn [mapM fst snd]. destruct w as [|c w]; [reflexivity|].
    destruct (toned_exists y (c :: w)) as [o O]; [discriminate|]. rewrite (apply_toned y _ o R O). cbn [bind].
    destruct I as [I|I]; [discriminate|]. rewrite IH by exact I. reflexivity.
  - intros N. assert (X : exists outs, Forall2 (fun p o => toned (snd p) (fst p) o) l outs).
    { clear Sp. induction l as [|[w y] l IH]; [exists []; constructor|]. destruct IH as [outs O]; [intros z I; apply (N z); right; exact I|].
      destruct (toned_exists y w) as [o P]; [intros ->; apply (N y); left; reflexivity|]. exists (o :: outs). constructor; assumption. }
    destruct X as [outs O]. exists outs. split; [exact O|]. rewrite (mapM_toned l outs Sp O). cbn [bind]. rewrite join_nil. reflexivity.
Qed.
Print Assumptions C145_from_ascii.
(** without the tones it never fails *)
Theorem C145_strip_tones isd int_ lower istream syls ts seg s : (forall z, 0 <= z <= 5 -> int_ [48 + z] = Some z) ->
  trees istream syls ts -> new_segmenter_any isd istream = Ok seg -> counts ts = O ->
  exists l, spelled (meanings isd ts) [] (standard lower (standard lower s)) l /\ strip_tones_any int_ lower seg s = Ok (concat (map fst l)).
Proof.
  intros D T M C. destruct (C143_total isd int_ lower istream syls ts seg (standard lower s) D T M C) as [l E]. exists l.
  split; [exact (proj1 (C143_segments isd int_ lower istream syls ts seg (standard lower s) l D T M C) E)|].
  unfold strip_tones_any. cbv zeta. rewrite standard_normalize, E. cbn [bind]. rewrite join_nil. reflexivity.
Qed.
Print Assumptions C145_strip_tones.
(** If one of them has a group, only texts in which nothing is found are converted, to nothing *)
Theorem C145_groups isd int_ lower istream syls ts seg s :
  trees istream syls ts -> new_segmenter_any isd istream = Ok seg -> counts ts <> O ->
  ((exists p q, standard lower (standard lower s) = p ++ q /\ begins (meanings isd ts) (rev p) q) ->
    from_ascii_any int_ lower seg s = Raise ValueError /\ strip_tones_any int_ lower seg s = Raise ValueError) /\
  ((forall p q, standard lower (standard lower s) = p ++ q -> ~ begins (meanings isd ts) (rev p) q) ->
    from_ascii_any int_ lower seg s = Ok [] /\ strip_tones_any int_ lower seg s = Ok []).
Proof.
  intros T M C. destruct (C143_groups isd int_ lower istream syls ts seg (standard lower s) T M C) as [A B].
  unfold from_ascii_any, strip_tones_any. cbv zeta. rewrite !standard_normalize. split; intro H.
  - rewrite (A H). split; reflexivity.
  - rewrite (B H). split; reflexivity.
Qed.
Print Assumptions C145_groups.
(** Characters are converted one after the other by their first readings, by themselves
    without a row; a row without readings is an IndexError *)
Theorem C145_from_hanzi int_ lower seg table s inline use_tones r :
  from_hanzi_any int_ lower seg table s inline use_tones = r <->
  one_by_one (fun c => match read_as table c with
                       | None => Raise IndexError
                       | Some t => if use_tones then (if inline then from_ascii_any int_ lower seg t else Ok t) else strip_tones_any int_ lower seg t
                       end) s r.
Proof.
  assert (X : one_by_one (fun c => match read_as table c with
                       | None => Raise IndexError
                       | Some t => if use_tones then (if inline then from_ascii_any int_ lower seg t else Ok t) else strip_tones_any int_ lower seg t
                       end) s (from_hanzi_any int_ lower seg table s inline use_tones)).
  { unfold from_hanzi_any. cbv zeta. match goal with |- one_by_one ?f s (bind (mapM ?g s) _) => assert (E : mapM g s = mapM f s) end; [|rewrite E; apply one_by_one_mapM].
    induction s as [|c s IH]; [reflexivity|]. cbn [mapM]. rewrite IH. f_equal. unfold read_as.
    destruct (dget [c] table) as [[|t rs]|]; cbn [nth_error hd_error of_option bind]; try reflexivity; destruct use_tones, inline; reflexivity. }
  split; [intros <-; exact X|]. intro H. exact (one_by_one_fun _ _ _ _ X H).
Qed.
Print Assumptions C145_from_hanzi.
(** With syllables of plain characters these are the conversions of C65, C66 and C68 *)
Theorem C145_plain isd int_ lower istream seg : (forall z, 0 <= z <= 5 -> int_ [48 + z] = Some z) -> new_segmenter istream = Ok seg ->
  exists seg', new_segmenter_any isd istream = Ok seg' /\ (forall s, from_ascii_any int_ lower seg' s = from_ascii lower seg s) /\
    (forall s, strip_tones_any int_ lower seg' s = strip_tones lower seg s) /\
    forall table s inline use_tones, from_hanzi_any int_ lower seg' table s inline use_tones = from_hanzi lower seg table s inline use_tones.
Proof.
  intros D E. destruct (C143_plain isd int_ lower istream seg D E) as (seg' & E' & S & _). exists seg'. split; [exact E'|].
  assert (A : forall s, from_ascii_any int_ lower seg' s = from_ascii lower seg s) by (intro s; unfold from_ascii_any, from_ascii; cbv zeta; rewrite S; reflexivity).
  assert (B : forall s, strip_tones_any int_ lower seg' s = strip_tones lower seg s) by (intro s; unfold strip_tones_any, strip_tones; cbv zeta; rewrite S; reflexivity).
  split; [exact A|]. split; [exact B|]. intros table s inline use_tones. unfold from_hanzi_any, from_hanzi. cbv zeta.
  match goal with |- bind (mapM ?f s) _ = bind (mapM ?g s) _ => assert (X : mapM f s = mapM g s) end; [|rewrite X; reflexivity].
  induction s as [|c s IH]; [reflexivity|]. cbn [mapM]. rewrite IH. f_equal. destruct (of_option _ _) as [t|e]; [|reflexivity]. cbn [bind].
  destruct use_tones, inline; cbn [negb]; rewrite ?A, ?B; reflexivity.
Qed.
Print Assumptions C145_plain.
(** the second normalization does nothing if lower-casing leaves normal forms alone *)
Theorem C145_twice lower s : steady lower -> standard lower (standard lower s) = standard lower s.
Proof.
  intro H. unfold standard at 1. rewrite H. unfold standard. generalize (lower s) as l. induction l as [|c l IH]; [reflexivity|]. cbn [flat_map]. rewrite flat_map_app, IH. f_equal.
  destruct (c =? u1 " ") eqn:A; [reflexivity|]. destruct (c =? u1 "v") eqn:B; [reflexivity|]. cbn [flat_map]. rewrite A, B. reflexivity.
Qed.
Print Assumptions C145_twice.

(** ** what is false *)
(** A text made of syllables of the table can be converted *)
Theorem C145_syllables_refuted : exists istream syls seg w, get_all_pinyin istream = Ok syls /\ In w syls /\ new_segmenter_any isd0 istream = Ok seg /\
  from_ascii_any int0 low0 seg w = Raise IndexError /\ strip_tones_any int0 low0 seg w = Ok [].
Proof. exists [u "ㄚ x*"; u "ㄅ a"], [u "r"; u "x*"; u "a"]. eexists. exists (u "a"). split; [vm_compute; reflexivity|]. split; [right; right; left; reflexivity|]. split; [vm_compute; reflexivity|]. split; vm_compute; reflexivity. Qed.
Print Assumptions C145_syllables_refuted.
(** ** cases *)
Definition hanzi1 : dict str (list str) := [(u "明", [u "ming2"]); (u "好", [u "nao3"; u "nao4"]); (u "空", [])].
Example C145_case : exists seg, new_segmenter_any isd0 table1 = Ok seg /\ from_ascii_any int0 low0 seg (u "ming2 noa4r") = Ok (u "míngnòaer") /\
  from_ascii_any int0 low0 seg (u "ming2#") = Raise IndexError /\ strip_tones_any int0 low0 seg (u "ming2#r5") = Ok (u "minger") /\
  from_hanzi_any int0 low0 seg hanzi1 (u "明好!") true true = Ok (u "míngnǎo") /\ from_hanzi_any int0 low0 seg hanzi1 (u "明好!") false true = Ok (u "ming2nao3!") /\
  from_hanzi_any int0 low0 seg hanzi1 (u "明好!") true false = Ok (u "mingnao") /\ from_hanzi_any int0 low0 seg hanzi1 (u "明空") false true = Raise IndexError.
Proof. eexists. split; [vm_compute; reflexivity|]. repeat split; vm_compute; reflexivity. Qed.
Example C145_case_groups : exists seg, new_segmenter_any isd0 [u "ㄚ (a)c"; u "ㄅ (?P<x>b)"] = Ok seg /\
  from_hanzi_any int0 low0 seg [(u "阿", [u "ac1"])] (u "阿") true true = Raise ValueError /\ from_hanzi_any int0 low0 seg [(u "阿", [u "zz"])] (u "阿") true true = Ok [].
Proof. eexists. split; [vm_compute; reflexivity|]. split; vm_compute; reflexivity. Qed.
