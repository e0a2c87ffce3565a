(* Wild_proofs.v *)
From Verif Require Import Base PyStr PyText Regex RegexSyntax RegexSyntax_proofs RegexSem RegexSem_proofs.
From Verif Require Import Pinyin_model Pinyin_spec Pinyin_proofs Patterns_model Patterns_spec Patterns_proofs Wild_model Wild_spec.
From Coq Require Import Permutation.

(** ** sorting *)
Lemma longest_first_len n l : Forall (fun w => (length w <= n)%nat) (longest_first n l).
Proof.
  induction n as [|n IH]; cbn [longest_first]; apply Forall_app; split.
  1, 3: apply Forall_forall; intros w I; apply filter_In in I; destruct I as [_ E]; apply Nat.eqb_eq in E; lia.
  - constructor.
  - eapply Forall_impl; [|exact IH]; cbn beta; intros; lia.
Qed.
Lemma longest_first_skip n w l : (n < length w)%nat -> longest_first n (w :: l) = longest_first n l.
Proof.
  induction n as [|n IH]; intro L; cbn [longest_first filter]; rewrite (proj2 (Nat.eqb_neq _ _)) by lia; [reflexivity|]. rewrite IH by lia. reflexivity.
Qed.
Lemma insert_front w l : Forall (fun v => (length v <= length w)%nat) l -> insert_len w l = w :: l.
Proof. intros F; destruct F as [|x l L F]; [reflexivity|]. cbn [insert_len]. rewrite (proj2 (Nat.leb_le _ _) L). reflexivity. Qed.
Lemma insert_after w a l : Forall (fun v => (length w < length v)%nat) a -> insert_len w (a ++ l) = a ++ insert_len w l.
Proof. intros F; induction F as [|x a L F IH]; [reflexivity|]. cbn [insert_len app]. rewrite (proj2 (Nat.leb_gt _ _) L), IH. reflexivity. Qed.
Lemma insert_longest n w l : (length w <= n)%nat -> insert_len w (longest_first n l) = longest_first n (w :: l).
Proof.
  induction n as [|n IH]; intro L.
  - cbn [longest_first filter]. rewrite (proj2 (Nat.eqb_eq _ _)) by lia. rewrite !app_nil_r. apply insert_front.
    apply Forall_forall; intros v I; apply filter_In in I; destruct I as [_ E]; apply Nat.eqb_eq in E; lia.
  - destruct (Nat.eq_dec (length w) (S n)) as [E|N].
    + change (longest_first (S n) (w :: l)) with (filter (fun v => (length v =? S n)%nat) (w :: l) ++ longest_first n (w :: l)).
      rewrite longest_first_skip by lia. cbn [filter]. rewrite (proj2 (Nat.eqb_eq _ _) E).
      change (filter (fun v => (length v =? S n)%nat) l ++ longest_first n l) with (longest_first (S n) l).
      apply insert_front. rewrite E. apply longest_first_len.
    + cbn [longest_first filter]. rewrite (proj2 (Nat.eqb_neq _ _) N), insert_after.
      * rewrite IH by lia. reflexivity.
      * apply Forall_forall; intros v I; apply filter_In in I; destruct I as [_ E]; apply Nat.eqb_eq in E; lia.
Qed.
Lemma sorted_longest n l : Forall (fun w => (length w <= n)%nat) l -> sorted_len l = longest_first n l.
Proof.
  intros F; induction F as [|w l L F IH].
  - induction n; [reflexivity|]. exact IHn.
  - change (insert_len w (sorted_len l) = longest_first n (w :: l)). rewrite IH. apply insert_longest, L.
Qed.
Lemma insert_perm w l : Permutation (insert_len w l) (w :: l).
Proof. induction l as [|x l IH]; [reflexivity|]. cbn [insert_len]. destruct (_ <=? _)%nat; [reflexivity|]. rewrite IH. apply perm_swap. Qed.
Lemma sorted_perm l : Permutation (sorted_len l) l.
Proof. induction l as [|w l IH]; [reflexivity|]. change (Permutation (insert_len w (sorted_len l)) (w :: l)). rewrite insert_perm, IH. reflexivity. Qed.

(** ** expressions without their groups *)
Definition erase (s : pos) := (before s, rest s).
Fixpoint strip (r : re) : re :=
  match r with
  | Seq a b => Seq (strip a) (strip b) | Alt a b => Alt (strip a) (strip b)
  | Star r => Star (strip r) | Lazy r => Lazy (strip r) | Grp _ r => strip r | r => r
  end.
Lemma erase_flat (F G : pos -> list pos) l l' : map erase l = map erase l' ->
  (forall x y, erase x = erase y -> map erase (F x) = map erase (G y)) -> map erase (flat_map F l) = map erase (flat_map G l').
Proof.
  intros E H; revert l' E; induction l as [|x l IH]; intros [|y l'] E; try discriminate; [reflexivity|].
  cbn [map] in E. assert (Ex : erase x = erase y) by congruence. assert (El : map erase l = map erase l') by congruence.
  cbn [flat_map]. rewrite !map_app, (H x y Ex), (IH l' El). reflexivity.
Qed.
Lemma erase_shorter s s' t t' : erase s = erase s' -> erase t = erase t' -> shorter t s = shorter t' s'.
Proof. intros A B. injection A as _ A. injection B as _ B. unfold shorter. rewrite A, B. reflexivity. Qed.
Lemma erase_stars (f g : pos -> list pos) lz : (forall s s', erase s = erase s' -> map erase (f s) = map erase (g s')) ->
  forall n s s', erase s = erase s' -> map erase (stars f lz n s) = map erase (stars g lz n s').
Proof.
  intros H; induction n as [|n IH]; intros s s' E; [reflexivity|]. cbn [stars].
  assert (M : map erase (flat_map (fun t => if shorter t s then stars f lz n t else []) (f s)) =
              map erase (flat_map (fun t => if shorter t s' then stars g lz n t else []) (g s'))).
  { apply erase_flat; [apply H, E|]. intros x y X. rewrite (erase_shorter s s' x y E X). destruct (shorter y s'); [apply IH, X|reflexivity]. }
  destruct lz; cbn [map]; rewrite ?map_app; cbn [map]; rewrite M, E; reflexivity.
Qed.
Lemma erase_runs r : forall s s', erase s = erase s' -> map erase (runs r s) = map erase (runs (strip r) s').
Proof.
  induction r as [|p|a IHa b IHb|a IHa b IHb|r IH|r IH|nm r IH| | |p]; intros s s' E; pose proof E as E'; unfold erase in E'; injection E' as Eb Er; cbn [strip runs].
  - cbn [map]. rewrite E. reflexivity.
  - rewrite Er, Eb. destruct (rest s') as [|c q]; [reflexivity|]. destruct (p c); reflexivity.
  - apply erase_flat; [apply IHa, E|]. intros x y X. apply IHb, X.
  - rewrite !map_app, (IHa s s' E), (IHb s s' E). reflexivity.
  - rewrite Er. apply erase_stars; [exact IH|exact E].
  - rewrite Er. apply erase_stars; [exact IH|exact E].
  - rewrite map_map. rewrite <- (IH s s' E). apply map_ext. reflexivity.
  - rewrite Eb. destruct (before s'); cbn [map]; [rewrite E|]; reflexivity.
  - rewrite Er. destruct (rest s') as [|c [|d q]]; cbn [map]; [rewrite E; reflexivity| |reflexivity]. destruct (c =? 10); cbn [map]; [rewrite E|]; reflexivity.
  - rewrite Eb. destruct (before s') as [|c q]; [reflexivity|]. destruct (p c); cbn [map]; [rewrite E|]; reflexivity.
Qed.
Lemma erase_same a b s s' : strip a = strip b -> erase s = erase s' -> map erase (runs a s) = map erase (runs b s').
Proof. intros E Es. rewrite (erase_runs a s s' Es), E. symmetry. apply erase_runs. reflexivity. Qed.
Lemma strip_nullable r : nullable (strip r) = nullable r.
Proof. induction r; cbn [strip nullable]; congruence. Qed.
Lemma strip_solid r : solid (strip r) = solid r.
Proof. induction r; cbn [strip solid]; rewrite ?strip_nullable; congruence. Qed.

(** ** compiled trees *)
Section Trees.
  Variable isd : Z -> bool.
  Notation c_rx := (c_rx isd key_). Notation c_br := (c_br isd key_). Notation c_atom := (c_atom isd key_).
  Lemma count_all :
    (forall t n, snd (c_rx n (unnamed t)) = (n + group_count t)%nat) /\
    (forall t n, snd (c_br n (unnamed_br t)) = (n + group_count_br t)%nat) /\
    (forall t n, snd (c_atom n (unnamed_atom t)) = (n + group_count_atom t)%nat).
  Proof.
    apply tree_ind.
    - intros b IH n. exact (IH n).
    - intros b IHb r IHr n. cbn [unnamed group_count]. rewrite c_or. specialize (IHb n). destruct (c_br n (unnamed_br b)) as [x m]. cbn [snd] in IHb. subst m.
      specialize (IHr (n + group_count_br b)%nat). destruct (c_rx _ (unnamed r)) as [y m]. cbn [snd] in *. lia.
    - intro n. cbn. lia.
    - intros a IHa q b IHb n. cbn [unnamed_br group_count_br]. rewrite c_cons. specialize (IHa n). destruct (c_atom n (unnamed_atom a)) as [x m]. cbn [snd] in IHa. subst m.
      specialize (IHb (n + group_count_atom a)%nat). destruct (c_br _ (unnamed_br b)) as [y m]. cbn [snd] in *. lia.
    - intros x n. cbn. lia.
    - intro n. cbn. lia.
    - intros neg l n. cbn. lia.
    - intro n. cbn. lia.
    - intro n. cbn. lia.
    - intros k r IH n. destruct k; cbn [unnamed_atom group_count_atom].
      + rewrite c_cap. specialize (IH (S n)). destruct (c_rx (S n) (unnamed r)) as [x m]. cbn [snd] in *. lia.
      + rewrite c_cap. specialize (IH (S n)). destruct (c_rx (S n) (unnamed r)) as [x m]. cbn [snd] in *. lia.
      + exact (IH n).
    - intros neg l n. cbn. lia.
  Qed.
  Lemma strip_all :
    (forall t n m, strip (fst (c_rx n (unnamed t))) = strip (fst (c_rx m t))) /\
    (forall t n m, strip (fst (c_br n (unnamed_br t))) = strip (fst (c_br m t))) /\
    (forall t n m, strip (fst (c_atom n (unnamed_atom t))) = strip (fst (c_atom m t))).
  Proof.
    apply tree_ind.
    - intros b IH n m. exact (IH n m).
    - intros b IHb r IHr n m. cbn [unnamed]. rewrite !c_or. specialize (IHb n m). destruct (c_br n (unnamed_br b)) as [x n1], (c_br m b) as [x' m1].
      specialize (IHr n1 m1). destruct (c_rx n1 (unnamed r)) as [y n2], (c_rx m1 r) as [y' m2]. cbn [fst strip] in *. congruence.
    - reflexivity.
    - intros a IHa q b IHb n m. cbn [unnamed_br]. rewrite !c_cons. specialize (IHa n m). destruct (c_atom n (unnamed_atom a)) as [x n1], (c_atom m a) as [x' m1].
      specialize (IHb n1 m1). destruct (c_br n1 (unnamed_br b)) as [y n2], (c_br m1 b) as [y' m2]. cbn [fst] in *. destruct q; cbn [repeat_ strip Opt Plus]; unfold Opt, Plus; cbn [strip]; congruence.
    - reflexivity. - reflexivity. - reflexivity. - reflexivity. - reflexivity.
    - intros k r IH n m. destruct k as [|nm|]; cbn [unnamed_atom].
      + rewrite !c_cap. specialize (IH (S n) (S m)). destruct (c_rx (S n) (unnamed r)) as [x n1], (c_rx (S m) r) as [x' m1]. exact IH.
      + rewrite c_cap. change (c_atom m (AGrp (Named nm) r)) with (let '(x, m1) := c_rx (S m) r in (Grp nm x, m1)). specialize (IH (S n) (S m)). destruct (c_rx (S n) (unnamed r)) as [x n1], (c_rx (S m) r) as [x' m1]. exact IH.
      + exact (IH n m).
    - reflexivity.
  Qed.

  (** alternatives one after the other *)
  Lemma rx_alts (P : rx -> Prop) : (forall b, P (Last b)) -> (forall b r, P r -> P (Or b r)) -> forall r, P r.
  Proof. intros H1 H2. fix F 1. intros [b|b r]; [apply H1|apply H2, F]. Qed.
  Fixpoint or_app (r t : rx) : rx := match r with Last b => Or b t | Or b r => Or b (or_app r t) end.
  Fixpoint ors (l : list rx) : rx := match l with [] => Last Nil | [t] => t | t :: r => or_app t (ors r) end.
  Lemma show_or_app r t : show (or_app r t) = show r ++ 124 :: show t.
  Proof.
    induction r as [b|b r IH] using rx_alts; [reflexivity|].
    change (show_br b ++ 124 :: show (or_app r t) = (show_br b ++ 124 :: show r) ++ 124 :: show t). rewrite IH, <- app_assoc. reflexivity.
  Qed.
  Lemma ok_or_app r t : ok (or_app r t) = ok r && ok t.
  Proof.
    induction r as [b|b r IH] using rx_alts; [reflexivity|].
    change (ok_br b && ok (or_app r t) = ok_br b && ok r && ok t). rewrite IH, andb_assoc. reflexivity.
  Qed.
  Lemma names_or_app r t : names (or_app r t) = names r ++ names t.
  Proof.
    induction r as [b|b r IH] using rx_alts; [reflexivity|].
    change (names_br b ++ names (or_app r t) = (names_br b ++ names r) ++ names t). rewrite IH, app_assoc. reflexivity.
  Qed.
  Lemma count_or_app r t : group_count (or_app r t) = (group_count r + group_count t)%nat.
  Proof.
    induction r as [b|b r IH] using rx_alts; [reflexivity|].
    change ((group_count_br b + group_count (or_app r t))%nat = (group_count_br b + group_count r + group_count t)%nat). rewrite IH. lia.
  Qed.
  Lemma runs_or_app r t : forall n s, exists m, runs (fst (c_rx n (or_app r t))) s = runs (fst (c_rx n r)) s ++ runs (fst (c_rx m t)) s.
  Proof.
    induction r as [b|b r IH] using rx_alts; intros n s; cbn [or_app]; rewrite !c_or.
    - rewrite c_last. destruct (c_br n b) as [x m]. exists m. destruct (c_rx m t) as [y m']. reflexivity.
    - destruct (c_br n b) as [x m]. destruct (IH m s) as [m' E]. exists m'. destruct (c_rx m (or_app r t)) as [y m2], (c_rx m r) as [z m3]. cbn [fst runs] in *. rewrite E, app_assoc. reflexivity.
  Qed.
  Lemma solid_or_app r t n : exists m, solid (fst (c_rx n (or_app r t))) = solid (fst (c_rx n r)) && solid (fst (c_rx m t)).
  Proof.
    revert n. induction r as [b|b r IH] using rx_alts; intros n; cbn [or_app]; rewrite !c_or.
    - rewrite c_last. destruct (c_br n b) as [x m]. exists m. destruct (c_rx m t) as [y m']. reflexivity.
    - destruct (c_br n b) as [x m]. destruct (IH m) as [m' E]. exists m'. destruct (c_rx m (or_app r t)) as [y m2], (c_rx m r) as [z m3]. cbn [fst solid] in *. rewrite E, andb_assoc. reflexivity.
  Qed.
  Lemma unnamed_or_app r t : unnamed (or_app r t) = or_app (unnamed r) (unnamed t).
  Proof.
    induction r as [b|b r IH] using rx_alts; [reflexivity|].
    change (Or (unnamed_br b) (unnamed (or_app r t)) = Or (unnamed_br b) (or_app (unnamed r) (unnamed t))). rewrite IH. reflexivity.
  Qed.
  (** the runs of all the alternatives are those of each in turn *)
  Lemma runs_ors ts n s s' : ts <> [] -> erase s = erase s' -> map erase (runs (fst (c_rx n (unnamed (ors ts)))) s) =
    map erase (flat_map (fun r => runs r s') (map (compile isd key_) ts)).
  Proof.
    intros N E. revert n. induction ts as [|t ts IH]; [congruence|]. intro n. destruct ts as [|t' ts].
    - cbn [ors map flat_map]. rewrite app_nil_r. apply erase_same; [|exact E]. apply strip_all.
    - change (ors (t :: t' :: ts)) with (or_app t (ors (t' :: ts))). rewrite unnamed_or_app. destruct (runs_or_app (unnamed t) (unnamed (ors (t' :: ts))) n s) as [m ->].
      change (flat_map (fun r => runs r s') (map (compile isd key_) (t :: t' :: ts))) with (runs (compile isd key_ t) s' ++ flat_map (fun r => runs r s') (map (compile isd key_) (t' :: ts))).
      rewrite !map_app, (IH ltac:(discriminate) m). f_equal. apply erase_same; [|exact E]. apply strip_all.
  Qed.
  Lemma solid_ors ts n : solid (fst (c_rx n (unnamed (ors ts)))) = forallb solid (map (compile isd key_) ts).
  Proof.
    assert (A : forall t n, solid (fst (c_rx n (unnamed t))) = solid (compile isd key_ t)).
    { intros t k. rewrite <- strip_solid, (proj1 strip_all t k O), strip_solid. reflexivity. }
    revert n. induction ts as [|t ts IH]; intro n; [reflexivity|]. destruct ts as [|t' ts].
    - cbn [ors map forallb]. rewrite andb_true_r. apply A.
    - change (ors (t :: t' :: ts)) with (or_app t (ors (t' :: ts))). rewrite unnamed_or_app. destruct (solid_or_app (unnamed t) (unnamed (ors (t' :: ts))) n) as [m ->].
      rewrite IH, A. reflexivity.
  Qed.
  Lemma count_ors ts : group_count (ors ts) = counts ts.
  Proof.
    induction ts as [|t ts IH]; [reflexivity|]. destruct ts as [|t' ts]; [cbn; lia|].
    change (ors (t :: t' :: ts)) with (or_app t (ors (t' :: ts))). rewrite count_or_app, IH. reflexivity.
  Qed.
  Lemma names_ors ts : names (ors ts) = flat_map names ts.
  Proof.
    induction ts as [|t ts IH]; [reflexivity|]. destruct ts as [|t' ts]; [cbn [ors flat_map]; rewrite app_nil_r; reflexivity|].
    change (ors (t :: t' :: ts)) with (or_app t (ors (t' :: ts))). rewrite names_or_app, IH. reflexivity.
  Qed.
  Lemma written_ors ts ws : Forall2 written ts ws -> written (ors ts) (join (u "|") ws).
  Proof.
    intro F. induction F as [|t w ts ws [K S] F [IK IS]]; [split; reflexivity|]. destruct F as [|t' w' ts ws W' F]; [split; [exact K|exact S]|].
    change (ors (t :: t' :: ts)) with (or_app t (ors (t' :: ts))). split; [rewrite ok_or_app, K, IK; reflexivity|]. rewrite show_or_app, S, IS. reflexivity.
  Qed.
  (** the pattern of a table *)
  Definition wild_tree (t : rx) : rx :=
    Last (Cons (AGrp Cap (Or (Cons (AGrp Cap t) Once
                               (Cons (AGrp Cap (Last (Cons (ASet false [Rng (Pl 48) (Pl 53)]) QOpt Nil))) Once Nil))
                             (Last (Cons (ACh (Pl 35)) Once Nil)))) Once Nil).
  Definition wild_string (t : rx) : rx := Last (Cons (AGrp Cap (wild_tree t)) QPlus Nil).
  Lemma written_wild t w : written t w -> written (wild_tree t) (single_text (u "(" ++ w ++ u ")([0-5]?)")) /\
    written (wild_string t) (string_text (u "(" ++ w ++ u ")([0-5]?)")).
  Proof.
    intros [K S].
    assert (A : ok (wild_tree t) = true) by (unfold wild_tree; cbn [ok ok_br ok_atom kind_ok]; rewrite K; reflexivity).
    assert (B : show (wild_tree t) = single_text (u "(" ++ w ++ u ")([0-5]?)")).
    { unfold wild_tree, single_text; literals; cbn [show show_br show_atom show_kind show_quant app]; rewrite S; literals. cbn [app]; rewrite <- !app_assoc; reflexivity. }
    split; split; [exact A|exact B| |].
    - unfold wild_string; cbn [ok ok_br ok_atom kind_ok]; rewrite A; reflexivity.
    - unfold wild_string, string_text; cbn [show show_br show_atom show_kind show_quant app]. fold (show (wild_tree t)). rewrite B; literals; cbn [app]; rewrite <- ?app_assoc; reflexivity.
  Qed.
  Definition digit_set := set_has isd false [Rng (Pl 48) (Pl 53)].
  Definition wild_re (n m : nat) (A : re) : re :=
    Seq (Grp (key_ (S n)) (Alt (Seq (Grp (key_ (S (S n))) A) (Seq (Grp (key_ (S m)) (Seq (Opt (Chr digit_set)) Eps)) Eps))
                               (Seq (Chr (ch_is isd (Pl 35))) Eps))) Eps.
  Lemma compile_wild t n : c_rx n (unnamed (wild_tree t)) =
    (wild_re n (S (S n) + group_count t) (fst (c_rx (S (S n)) (unnamed t))), (n + 3 + group_count t)%nat).
  Proof.
    unfold wild_tree. cbn [unnamed unnamed_br unnamed_atom].
    pose proof (proj1 count_all t (S (S n))) as C. destruct (c_rx (S (S n)) (unnamed t)) as [A m] eqn:E. cbn [snd] in C. subst m.
    rewrite c_last, c_cons, c_cap, c_or, c_cons, c_cap, E, c_cons, c_cap, c_last, c_cons, c_set, !c_nil, c_last, c_cons, c_ch, !c_nil. cbn [fst]. unfold wild_re, digit_set. cbn [repeat_]. f_equal. lia.
  Qed.
End Trees.

(** ** one match *)
Lemma digit_set_05 isd c : digit_set isd c = digit05 c.
Proof. unfold digit_set, set_has, digit05. cbn [existsb item_has ch_code xorb]. unfold between. rewrite orb_false_r. destruct (_ && _); reflexivity. Qed.
Lemma mtch_tone_set isd n k s : (forall t, k t <> None) -> mtch (Grp n (Seq (Opt (Chr (digit_set isd))) Eps)) k s =
  k (mkpos (rev (fst (take_tone (rest s))) ++ before s) (snd (take_tone (rest s))) ((n, fst (take_tone (rest s))) :: caps s)).
Proof.
  intros K. destruct s as [b s cs]. cbn [rest before caps]. rewrite <- mtch_tone by exact K. unfold Opt. cbn [mtch rest before caps].
  destruct s as [|c s]; [reflexivity|]. rewrite digit_set_05. reflexivity.
Qed.
Definition ending (isd : Z -> bool) (n m : nat) (s x : pos) : pos :=
  let e := mkpos (rev (fst (take_tone (rest x))) ++ before x) (snd (take_tone (rest x))) ((key_ (S m), fst (take_tone (rest x))) :: (key_ (S (S n)), text s x) :: caps x) in
  capture (key_ (S n)) s e.
Lemma mtch_wild isd n m A s : mtch (wild_re isd n m A) Some s =
  match runs A s with
  | x :: _ => Some (ending isd n m s x)
  | [] => match rest s with
          | c :: q => if c =? 35 then Some (capture (key_ (S n)) s (mkpos (c :: before s) q (caps s))) else None
          | [] => None
          end
  end.
Proof.
  unfold wild_re.
  change (mtch (Seq (Grp (key_ (S n)) (Alt (Seq (Grp (key_ (S (S n))) A) (Seq (Grp (key_ (S m)) (Seq (Opt (Chr (digit_set isd))) Eps)) Eps)) (Seq (Chr (ch_is isd (Pl 35))) Eps))) Eps) Some s)
    with (match mtch A (fun x => mtch (Grp (key_ (S m)) (Seq (Opt (Chr (digit_set isd))) Eps)) (fun t => Some (capture (key_ (S n)) s t)) (capture (key_ (S (S n))) s x)) s with
          | Some y => Some y
          | None => mtch (Seq (Chr (ch_is isd (Pl 35))) Eps) (fun t => Some (capture (key_ (S n)) s t)) s end).
  rewrite mtch_runs.
  assert (F : forall l, first (fun x => mtch (Grp (key_ (S m)) (Seq (Opt (Chr (digit_set isd))) Eps)) (fun t => Some (capture (key_ (S n)) s t)) (capture (key_ (S (S n))) s x)) l =
    match l with x :: _ => Some (ending isd n m s x) | [] => None end).
  { intros [|x l]; [reflexivity|]. cbn [first]. rewrite mtch_tone_set by discriminate. reflexivity. }
  rewrite F. destruct (runs A s) as [|x l]; [|reflexivity]. cbn [mtch]. destruct (rest s) as [|c q]; [reflexivity|]. cbn [ch_is]. destruct (c =? 35); reflexivity.
Qed.

Section Found.
  Variables (isd : Z -> bool) (ts : list rx).
  Hypothesis Nts : ts <> [].
  Let rs := map (compile isd key_) ts.
  Hypothesis So : Forall (fun r => solid r = true) rs.
  Notation A n := (fst (c_rx isd key_ n (unnamed (ors ts)))).
  Lemma So' : forallb solid rs = true. Proof. apply forallb_forall, Forall_forall, So. Qed.
  Lemma A_solid n : solid (A n) = true. Proof. rewrite solid_ors. exact So'. Qed.
  Lemma no_way_runs b l : no_way rs b l <-> flat_map (fun r => runs r (mkpos b l [])) rs = [].
  Proof.
    unfold no_way. clear Nts. pose proof So as S0. revert S0. generalize rs. intro rs0. induction rs0 as [|r rs0 IH]; intro S0; [split; [reflexivity|intros _ x []]|].
    inversion S0 as [|? ? Sr S1]; subst x l0. cbn [flat_map]. split.
    - intro H. rewrite (proj1 (IH S1)) by (intros x I; apply H; right; exact I). rewrite app_nil_r. destruct (runs r (mkpos b l [])) as [|t l'] eqn:E; [reflexivity|].
      elim (H r (or_introl Logic.eq_refl) t). apply (runs_iff r Sr). rewrite E. left. reflexivity.
    - intros H. apply app_eq_nil in H. destruct H as [H1 H2]. intros x [<-|I] t M; [apply (runs_iff r Sr) in M; rewrite H1 in M; exact M|exact (proj2 (IH S1) H2 x I t M)].
  Qed.
  Lemma first_way_runs b l w : first_way rs b l w <-> exists m, hd_error (flat_map (fun r => runs r (mkpos b l [])) rs) = Some m /\ l = w ++ rest m.
  Proof.
    split.
    - intros (p & r & q & m & E & N & H & L). exists m. split; [|exact L]. rewrite E, flat_map_app. cbn [flat_map].
      pose proof So as S0. rewrite E in S0. apply Forall_app in S0. destruct S0 as [Sp _].
      assert (Z0 : flat_map (fun r => runs r (mkpos b l [])) p = []).
      { clear E. induction Sp as [|x p Sx Sp IH]; [reflexivity|]. cbn [flat_map]. rewrite IH by (intros y I; apply N; right; exact I). rewrite app_nil_r.
        destruct (runs x (mkpos b l [])) as [|t l'] eqn:Ex; [reflexivity|]. elim (N x (or_introl Logic.eq_refl) t). apply (runs_iff x Sx). rewrite Ex. left. reflexivity. }
      rewrite Z0. cbn [app]. destruct (runs r (mkpos b l [])); [discriminate|exact H].
    - intros (m & H & L). unfold first_way. revert H. pose proof So as S0. revert S0. generalize rs. subst l. intros rs0. induction rs0 as [|r rs0 IH]; intros S0 H; [discriminate|].
      inversion S0 as [|? ? Sr S1]; subst x l. cbn [flat_map] in H. destruct (runs r (mkpos b (w ++ rest m) [])) as [|t l'] eqn:E.
      + destruct (IH S1 H) as (p & r' & q & m' & -> & N & R). exists (r :: p), r', q, m'. split; [reflexivity|]. split; [|exact R].
        intros x [<-|I] t M; [apply (runs_iff r Sr) in M; rewrite E in M; exact M|exact (N x I t M)].
      + exists [], r, rs0, m. split; [reflexivity|]. split; [intros x []|]. split; [|reflexivity]. rewrite E. exact H.
  Qed.
  Lemma A_none n b l cs : runs (A n) (mkpos b l cs) = [] <-> no_way rs b l.
  Proof.
    rewrite no_way_runs. pose proof (runs_ors isd ts n (mkpos b l cs) (mkpos b l []) Nts Logic.eq_refl) as E. fold rs in E. split; intro H; rewrite H in E.
    - destruct (flat_map (fun r => runs r (mkpos b l [])) rs); [reflexivity|discriminate].
    - destruct (runs (A n) (mkpos b l cs)); [reflexivity|discriminate].
  Qed.
  Lemma A_some n b l cs x o : runs (A n) (mkpos b l cs) = x :: o ->
    exists w, l = w ++ rest x /\ before x = rev w ++ b /\ text (mkpos b l cs) x = w /\ first_way rs b l w.
  Proof.
    intro R. assert (M : Matches (A n) (mkpos b l cs) x) by (apply (runs_iff _ (A_solid n)); rewrite R; left; reflexivity).
    destruct (Matches_text _ _ _ M) as (w & L & B). cbn [rest before] in L, B. exists w. split; [exact L|]. split; [exact B|]. split.
    - destruct x as [xb xl xc]. cbn [rest before] in *. subst l. apply text_app.
    - apply first_way_runs. pose proof (runs_ors isd ts n (mkpos b l cs) (mkpos b l []) Nts Logic.eq_refl) as E. fold rs in E. rewrite R in E.
      destruct (flat_map (fun r => runs r (mkpos b l [])) rs) as [|y o']; [discriminate|]. cbn [map] in E. assert (Ey : erase x = erase y) by congruence. exists y. split; [reflexivity|].
      unfold erase in Ey. injection Ey as _ Er. rewrite <- Er. exact L.
  Qed.

  (** *** a scan *)
  Variable int_ : str -> option Z.
  Hypothesis digits : forall z, 0 <= z <= 5 -> int_ [48 + z] = Some z.
  Lemma tone_text s : exists z, tone s z (snd (take_tone s)) /\
    (match fst (take_tone s) with [] => Ok 0 | _ => of_option ValueError (int_ (fst (take_tone s))) end) = Ok z /\ (fst (take_tone s) = [] -> z = 0).
  Proof.
    destruct s as [|c s]; cbn [take_tone fst snd].
    - exists 0; split; [apply Tone_none; cbn [hd]; lia|split; reflexivity].
    - destruct (digit05 c) eqn:D; cbn [fst snd]; unfold digit05 in D.
      + apply andb_prop in D; destruct D as [D1 D2]; apply Z.leb_le in D1, D2; exists (c - 48). split; [|split; [|discriminate]].
        * replace c with (48 + (c - 48)) at 1 by lia; apply Tone_digit; lia.
        * pose proof (digits (c - 48) ltac:(lia)) as X. replace (48 + (c - 48)) with c in X by lia. rewrite X. reflexivity.
      + exists 0; split; [|split; reflexivity]; apply Tone_none; cbn [hd]; intros H; apply andb_false_iff in D; destruct D as [D|D]; apply Z.leb_gt in D; lia.
  Qed.
  Definition item3 (n : nat) (st : pos * pos) : found :=
    match n with
    | O => Text (text (fst st) (snd st))
    | 1%nat => Text (text_of (key_ 1) (snd st))
    | n => Tuple (map (fun i => text_of (key_ i) (snd st)) (seq 1 n))
    end.
  Lemma scan_spelled m : m = 2%nat -> forall fuel b l, (length l < fuel)%nat ->
    exists o, mapM (corrected int_) (map (item3 3) (scan fuel (wild_re isd 0 m (A 2)) b l)) = Ok o /\ spelled rs b l o.
  Proof.
    intros ->. induction fuel as [|f IH]; intros b l L; [lia|]. cbn [scan]. rewrite mtch_wild. destruct (runs (A 2) (mkpos b l [])) as [|x o] eqn:R.
    - apply A_none in R. cbn [rest before caps]. destruct l as [|c q]; [exists []; split; [reflexivity|constructor; exact R]|]. cbn [length] in L.
      destruct (Z.eqb_spec c 35) as [->|N].
      + cbn [capture rest before]. rewrite (proj2 (Nat.ltb_lt _ _)) by (cbn [length]; lia). destruct (IH (35 :: b) q ltac:(lia)) as (o & M & S0).
        exists (([], 0) :: o). split; [|exact (Sp_hash rs b q o R S0)]. cbn [map mapM]. rewrite M. reflexivity.
      + destruct (IH (c :: b) q ltac:(lia)) as (o & M & S0). exists o. split; [exact M|]. apply Sp_skip; assumption.
    - destruct (A_some _ _ _ _ _ _ R) as (w & Lw & Bw & Tw & Fw). destruct (tone_text (rest x)) as (z & T & C & Z0). pose proof (take_tone_app (rest x)) as TA.
      set (d := fst (take_tone (rest x))) in *. set (r := snd (take_tone (rest x))) in *.
      assert (Co : corrected int_ (item3 3 (mkpos b l [], ending isd 0 2 (mkpos b l []) x)) = Ok (spoken w, z)).
      { unfold item3, ending, capture. cbn [snd caps seq map]. fold d. fold r. rewrite Tw. unfold text_of, group. cbn [caps dget]. 
        change (eqb (key_ 1) (key_ 1)) with true. change (eqb (key_ 2) (key_ 1)) with false. change (eqb (key_ 2) (key_ 3)) with false. change (eqb (key_ 2) (key_ 2)) with true. change (eqb (key_ 3) (key_ 1)) with false. change (eqb (key_ 3) (key_ 3)) with true.
        cbv iota. unfold corrected. cbn [unpack3 bind]. rewrite C. reflexivity. }
      assert (Er : rest (ending isd 0 2 (mkpos b l []) x) = r) by reflexivity.
      assert (Eb : before (ending isd 0 2 (mkpos b l []) x) = rev d ++ rev w ++ b) by (unfold ending, capture; cbn [before]; rewrite Bw; reflexivity).
      rewrite Er, Eb. destruct (Nat.ltb_spec (length r) (length l)) as [Lt|Ge].
      + destruct (IH (rev d ++ rev w ++ b) r ltac:(lia)) as (o' & M & S0). exists ((spoken w, z) :: o'). split.
        * cbn [map mapM]. rewrite Co, M. reflexivity.
        * rewrite Lw. apply (Sp_take rs b w (rest x) z d r o'); [rewrite <- Lw; exact Fw|exact T|exact TA| |exact S0].
          intro E. apply app_eq_nil in E. destruct E as [-> E]. rewrite E in TA. rewrite Lw, TA in Lt. cbn [app] in Lt. lia.
      + assert (W0 : w = [] /\ d = []).
        { rewrite Lw, TA, !app_length in Ge. destruct w, d; cbn [length] in Ge; try lia. split; reflexivity. }
        destruct W0 as [-> D0]. rewrite (Z0 D0) in *. rewrite D0 in *. cbn [app] in Lw, TA. 
        destruct l as [|c q].
        * exists [([], 0)]. split; [cbn [map mapM]; rewrite Co; reflexivity|]. apply Sp_empty_end, Fw.
        * destruct (IH (c :: b) q ltac:(cbn [length] in L; lia)) as (o' & M & S0). exists (([], 0) :: o'). split; [cbn [map mapM]; rewrite Co, M; reflexivity|].
          apply Sp_empty; [exact Fw| |exact S0]. rewrite (eq_sym TA : r = rest x), <- Lw in T. clear - T. remember (c :: q) as t eqn:Et in T at 2. inversion T as [z' s' Hz Es|s' H Es]; subst.
          -- exfalso. match goal with H : ?a = ?b :> list Z |- _ => apply (f_equal (@length Z)) in H; cbn [length] in H; lia end.
          -- exact H.
  Qed.

  Lemma first_way_unique b l w w' : first_way rs b l w -> first_way rs b l w' -> w = w'.
  Proof.
    intros H H'. apply first_way_runs in H. apply first_way_runs in H'. destruct H as (m & E & L), H' as (m' & E' & L'). assert (m = m') by congruence. subst m'.
    apply (app_inv_tail (rest m)). congruence.
  Qed.
  Lemma way_runs n b l cs w : first_way rs b l w -> exists x o, runs (A n) (mkpos b l cs) = x :: o /\ l = w ++ rest x /\ before x = rev w ++ b /\ text (mkpos b l cs) x = w.
  Proof.
    intro F. destruct (runs (A n) (mkpos b l cs)) as [|x o] eqn:R.
    - apply A_none in R. apply no_way_runs in R. apply first_way_runs in F. destruct F as (m & H & _). rewrite R in H. discriminate.
    - exists x, o. split; [reflexivity|]. destruct (A_some _ _ _ _ _ _ R) as (w' & L & B & T & F'). rewrite (first_way_unique _ _ _ _ F F'). auto.
  Qed.
  Lemma ending_corrected b l x w d z r : text (mkpos b l []) x = w -> take_tone (rest x) = (d, r) ->
    (match d with [] => Ok 0 | _ => of_option ValueError (int_ d) end) = Ok z ->
    corrected int_ (item3 3 (mkpos b l [], ending isd 0 2 (mkpos b l []) x)) = Ok (spoken w, z).
  Proof.
    intros Tw E C. unfold item3, ending, capture. rewrite E. cbn [fst snd caps seq map]. rewrite Tw. unfold text_of, group. cbn [caps dget].
    change (eqb (key_ 1) (key_ 1)) with true. change (eqb (key_ 2) (key_ 1)) with false. change (eqb (key_ 2) (key_ 3)) with false. change (eqb (key_ 2) (key_ 2)) with true. change (eqb (key_ 3) (key_ 1)) with false. change (eqb (key_ 3) (key_ 3)) with true.
    cbv iota. unfold corrected. cbn [unpack3 bind]. rewrite C. reflexivity.
  Qed.
  Lemma spelled_scan b l o : spelled rs b l o -> forall fuel, (length l < fuel)%nat ->
    mapM (corrected int_) (map (item3 3) (scan fuel (wild_re isd 0 2 (A 2)) b l)) = Ok o.
  Proof.
    intro H. induction H as [b w t z d r o F T Et N S0 IH|b c q o F D S0 IH|b F|b q o W S0 IH|b c q o N W S0 IH|b W]; intros [|f] L; try lia; cbn [scan]; rewrite mtch_wild.
    - destruct (way_runs 2 _ _ [] _ F) as (x & o' & R & Lx & B & Tx). apply app_inv_head in Lx. revert Et T F N L R Tx. rewrite Lx. intros Et T F N L R Tx. rewrite R. destruct (tone_text (rest x)) as (z' & T' & C & _).
      destruct (tone_unique _ _ _ _ _ T T') as [<- Er]. pose proof (take_tone_app (rest x)) as TA. destruct (take_tone (rest x)) as [d' r'] eqn:Ta. cbn [fst snd] in *. subst r'.
      assert (d' = d) by (apply (app_inv_tail r); congruence). subst d'.
      assert (E1 : rest (ending isd 0 2 (mkpos b (w ++ rest x) []) x) = r) by (unfold ending; rewrite Ta; reflexivity).
      assert (E2 : before (ending isd 0 2 (mkpos b (w ++ rest x) []) x) = rev d ++ rev w ++ b) by (unfold ending; rewrite Ta; unfold capture; cbn [before fst]; rewrite B; reflexivity).
      rewrite E1, E2. 
      assert (Lt : (length r < length (w ++ rest x))%nat). { rewrite Et, app_assoc, app_length. destruct (w ++ d); [congruence|]. cbn [length]. lia. }
      rewrite (proj2 (Nat.ltb_lt _ _) Lt). cbn [map mapM]. rewrite (ending_corrected b (w ++ rest x) x w d z r Tx Ta C), IH by lia. reflexivity.
    - destruct (way_runs 2 _ _ [] _ F) as (x & o' & R & Lx & B & Tx). rewrite R. cbn [app] in Lx. cbn [length] in L.
      assert (Ta : take_tone (rest x) = ([], c :: q)).
      { rewrite <- Lx. cbn [take_tone]. destruct (digit05 c) eqn:E; [|reflexivity]. unfold digit05 in E. apply andb_prop in E. destruct E as [E1 E2]. apply Z.leb_le in E1, E2. lia. }
      assert (E1 : rest (ending isd 0 2 (mkpos b (c :: q) []) x) = c :: q) by (unfold ending; rewrite Ta; reflexivity).
      rewrite E1, Nat.ltb_irrefl. cbn [map mapM]. rewrite (ending_corrected b (c :: q) x [] [] 0 (c :: q) Tx Ta Logic.eq_refl), IH by lia. reflexivity.
    - destruct (way_runs 2 _ _ [] _ F) as (x & o' & R & Lx & B & Tx). rewrite R. cbn [app] in Lx.
      assert (Ta : take_tone (rest x) = ([], [])) by (rewrite <- Lx; reflexivity).
      assert (E1 : rest (ending isd 0 2 (mkpos b [] []) x) = []) by (unfold ending; rewrite Ta; reflexivity).
      rewrite E1. cbn [length Nat.ltb Nat.leb map mapM]. rewrite (ending_corrected b [] x [] [] 0 [] Tx Ta Logic.eq_refl). reflexivity.
    - rewrite (proj2 (A_none 2 b _ []) W). cbn [rest before caps]. change (u1 "#") with 35 in *. cbn [Z.eqb Pos.eqb capture rest before length] in *.
      rewrite (proj2 (Nat.ltb_lt _ _)) by lia. cbn [map mapM]. rewrite IH by lia. reflexivity.
    - rewrite (proj2 (A_none 2 b _ []) W). cbn [rest before caps]. change (u1 "#") with 35 in *. rewrite (proj2 (Z.eqb_neq _ _) N). cbn [length] in L. apply IH. lia.
    - rewrite (proj2 (A_none 2 b _ []) W). reflexivity.
  Qed.
  Lemma begins_mtch n m b l : (exists x, mtch (wild_re isd n m (A (S (S n)))) Some (mkpos b l []) = Some x) <-> begins rs b l.
  Proof.
    rewrite mtch_wild. cbn [rest before caps]. unfold begins. change (u1 "#") with 35. destruct (runs (A (S (S n))) (mkpos b l [])) as [|x o] eqn:R.
    - apply A_none in R. split.
      + intros [x H]. right. destruct l as [|c q]; [discriminate|]. destruct (Z.eqb_spec c 35) as [->|]; [exists q; reflexivity|discriminate].
      + intros [(r & t & I & M)|[q ->]]; [elim (R r I t M)|]. cbn. eexists. reflexivity.
    - split; [intros _|intros _; eexists; reflexivity]. left. destruct (A_some _ _ _ _ _ _ R) as (w & _ & _ & _ & p & r & q & y & E & _ & H & _).
      assert (I : In r rs) by (rewrite E; apply in_or_app; right; left; reflexivity).
      exists r, y. split; [exact I|]. apply (runs_iff r). 1: exact (proj1 (Forall_forall _ _) So r I). destruct (runs r (mkpos b l [])); [discriminate|]. injection H as ->. left. reflexivity.
  Qed.
  Lemma scan_none m : forall fuel b l, (length l < fuel)%nat ->
    scan fuel (wild_re isd 0 m (A 2)) b l = [] <-> forall p q, l = p ++ q -> ~ begins rs (rev p ++ b) q.
  Proof.
    induction fuel as [|f IH]; intros b l L; [lia|]. cbn [scan]. pose proof (begins_mtch 0 m b l) as B. destruct (mtch _ _ _) as [x|] eqn:M.
    - split; [destruct (_ <? _)%nat; discriminate|]. intro H. elim (H [] l Logic.eq_refl). cbn [rev app]. apply B. eexists. reflexivity.
    - assert (NB : ~ begins rs b l) by (intro H; apply B in H; destruct H as [x H]; discriminate).
      destruct l as [|c l]; cbn [length] in L.
      + split; [|reflexivity]. intros _ p q E. symmetry in E. apply app_eq_nil in E. destruct E as [-> ->]. exact NB.
      + rewrite IH by lia. split; intros H p q E.
        * destruct p as [|c' p]; [cbn [app] in E; subst q; exact NB|]. injection E as <- E. cbn [rev]. rewrite <- app_assoc. exact (H p q E).
        * specialize (H (c :: p) q). cbn [rev] in H. rewrite <- app_assoc in H. apply H. rewrite E. reflexivity.
  Qed.
  Lemma many_groups k : (0 < k)%nat -> forall st, corrected int_ (item3 (3 + k) (st : pos * pos)) = Raise ValueError.
  Proof. intros K st. destruct k as [|k]; [lia|]. cbn. reflexivity. Qed.
End Found.

(** ** the segmenter of a table *)
Lemma repeated_NoDup l : repeated l = false <-> NoDup l.
Proof.
  induction l as [|n l IH]; cbn [repeated]; [split; [constructor|reflexivity]|]. rewrite orb_false_iff, IH. split.
  - intros [M N]. constructor; [apply mem_false, M|exact N].
  - intro N. inversion N; subst. split; [apply mem_false; assumption|assumption].
Qed.
Definition sing isd ts := (wild_re isd 0 (2 + counts ts) (fst (c_rx isd key_ 2 (unnamed (ors ts)))), (3 + counts ts)%nat).
Definition stri isd ts := (Seq (Plus (Grp (key_ 1) (wild_re isd 1 (3 + counts ts) (fst (c_rx isd key_ 3 (unnamed (ors ts))))))) Eps, (4 + counts ts)%nat).
Lemma made isd istream syls ts : get_all_pinyin istream = Ok syls -> Forall2 written ts (sorted_len syls) ->
  new_segmenter_any isd istream = if repeated (flat_map names ts) then Raise re_error
    else if forallb solid (map (compile isd key_) ts) then Ok (mkseg (sing isd ts) (stri isd ts)) else Raise outside_model.
Proof.
  intros G W. apply written_ors in W. destruct (written_wild _ _ W) as [W1 W2]. unfold new_segmenter_any, pinyin_regex_pattern. rewrite G. cbn [bind]. unfold re_compile.
  rewrite (proj2 (parse_iff _ _) W1), (proj2 (parse_iff _ _) W2).
  assert (N1 : names (wild_tree (ors ts)) = flat_map names ts) by (unfold wild_tree; cbn [names names_br names_atom]; rewrite names_ors, !app_nil_r; reflexivity).
  assert (N2 : names (wild_string (ors ts)) = flat_map names ts) by (unfold wild_string; cbn [names names_br names_atom]; rewrite N1, app_nil_r; reflexivity).
  rewrite N1, N2. destruct (repeated (flat_map names ts)); [reflexivity|]. cbn [bind].
  assert (E2 : c_rx isd key_ 0 (unnamed (wild_string (ors ts))) = stri isd ts).
  { unfold wild_string. change (unnamed (Last (Cons (AGrp Cap (wild_tree (ors ts))) QPlus Nil))) with (Last (Cons (AGrp Cap (unnamed (wild_tree (ors ts)))) QPlus Nil)).
    rewrite c_last, c_cons, c_cap, compile_wild, c_nil, count_ors. reflexivity. }
  rewrite E2, compile_wild, count_ors. cbn [fst].
  assert (E3 : solid (wild_re isd 0 (2 + counts ts) (fst (c_rx isd key_ 2 (unnamed (ors ts))))) = forallb solid (map (compile isd key_) ts)).
  { unfold wild_re. cbn [solid]. unfold Opt. cbn [solid]. rewrite solid_ors. rewrite !andb_true_r. reflexivity. }
  rewrite E3. reflexivity.
Qed.
Lemma some_syllable istream syls : get_all_pinyin istream = Ok syls -> syls <> [].
Proof. intro G. destruct (all_pinyin_rows _ _ G) as (rs & ps & _ & _ & ->). discriminate. Qed.
Lemma some_tree syls ts : syls <> [] -> Forall2 written ts (sorted_len syls) -> ts <> [].
Proof.
  intros N F ->. assert (E : sorted_len syls = []) by (inversion F; congruence). destruct syls as [|w l]; [congruence|]. pose proof (sorted_perm (w :: l)) as P. rewrite E in P. apply Permutation_nil in P. discriminate.
Qed.
Lemma findall_items p s : findall p s = map (item3 (snd p)) (finditer (fst p) s).
Proof. unfold findall. apply map_ext. intros [a m]. unfold item3. destruct (snd p) as [|[|k]]; reflexivity. Qed.
Lemma star_some r t : exists y q, runs (Star r) t = y :: q.
Proof. cbn [runs stars]. match goal with |- context [?a ++ [t]] => generalize a end. intros [|x l]; eexists; eexists; reflexivity. Qed.
Lemma string_begins isd ts l : ts <> [] -> Forall (fun r => solid r = true) (map (compile isd key_) ts) ->
  (exists m, match_ (fst (stri isd ts)) l = Some m) <-> begins (map (compile isd key_) ts) [] l.
Proof.
  intros N So. rewrite <- (begins_mtch isd ts N So 1 (3 + counts ts) [] l). unfold match_, stri, start. cbn [fst].
  set (g := wild_re isd 1 (3 + counts ts) (fst (c_rx isd key_ 3 (unnamed (ors ts))))). rewrite !mtch_runs, !first_Some.
  assert (E : runs (Seq (Plus (Grp (key_ 1) g)) Eps) (mkpos [] l []) = flat_map (runs Eps) (flat_map (runs (Star (Grp (key_ 1) g))) (map (capture (key_ 1) (mkpos [] l [])) (runs g (mkpos [] l []))))) by reflexivity.
  rewrite E. destruct (runs g (mkpos [] l [])) as [|x o]; [split; intros [y H]; discriminate|].
  split; intros _; [eexists; reflexivity|]. cbn [map flat_map]. 
  assert (Ne : forall t, exists y q, runs (Star (Grp (key_ 1) g)) t = y :: q).
  { intro t. apply star_some. }
  destruct (Ne (capture (key_ 1) (mkpos [] l []) x)) as (y & q & ->). eexists. reflexivity.
Qed.

(** ** plain tables *)
Definition word_rx (w : str) : rx := Last (word_tree w).
Lemma word_run isd w : forall b l n, runs (fst (c_br isd key_ n (word_tree w))) (mkpos b l []) =
  match chop w l with Some r => [mkpos (rev w ++ b) r []] | None => [] end.
Proof.
  induction w as [|c w IH]; intros b l n; [reflexivity|]. cbn [word_tree]. rewrite c_cons, c_ch. specialize (IH (c :: b)). destruct (c_br isd key_ n (word_tree w)) as [y m] eqn:E. cbn [fst repeat_ runs rest before caps chop].
  destruct l as [|d l]; [reflexivity|]. cbn [ch_is]. destruct (Z.eqb_spec d c) as [->|]; [|reflexivity]. cbn [flat_map]. rewrite app_nil_r. specialize (IH l n). rewrite E in IH. cbn [fst] in IH. rewrite IH.
  destruct (chop w l); [|reflexivity]. cbn [rev]. rewrite <- app_assoc. reflexivity.
Qed.
Lemma word_solid isd w n : solid (fst (c_br isd key_ n (word_tree w))) = true.
Proof. induction w as [|c w IH]; [reflexivity|]. cbn [word_tree]. rewrite c_cons, c_ch. destruct (c_br isd key_ n (word_tree w)) as [y m]. cbn [fst repeat_ solid] in *. exact IH. Qed.
Lemma words_run isd ws b l : hd_error (flat_map (fun r => runs r (mkpos b l [])) (map (compile isd key_) (map word_rx ws))) =
  match first_in ws l with Some (w, r) => Some (mkpos (rev w ++ b) r []) | None => None end.
Proof.
  induction ws as [|w ws IH]; [reflexivity|]. cbn [map flat_map first_in]. change (compile isd key_ (word_rx w)) with (fst (c_br isd key_ 0 (word_tree w))). rewrite word_run.
  destruct (chop w l); [reflexivity|]. exact IH.
Qed.
Lemma words_solid isd ws : Forall (fun r => solid r = true) (map (compile isd key_) (map word_rx ws)).
Proof. induction ws as [|w ws IH]; constructor; [exact (word_solid isd w 0)|exact IH]. Qed.
Lemma words_written syls : forallb (forallb plain) syls = true -> Forall2 written (map word_rx (sorted_len syls)) (sorted_len syls).
Proof.
  intro P. apply sorted_plain in P. induction (sorted_len syls) as [|w l IH]; [constructor|]. cbn [forallb] in P. apply andb_prop in P. destruct P as [Pw P].
  constructor; [split; [exact (ok_word w Pw)|exact (show_word w)]|exact (IH P)].
Qed.
Lemma words_names ws : flat_map names (map word_rx ws) = [].
Proof.
  induction ws as [|w ws IH]; [reflexivity|]. cbn [map flat_map]. rewrite IH, app_nil_r. change (names (word_rx w)) with (names_br (word_tree w)). induction w as [|c w IHw]; [reflexivity|exact IHw].
Qed.
Lemma words_count ws : counts (map word_rx ws) = O.
Proof.
  induction ws as [|w ws IH]; [reflexivity|]. change (counts (map word_rx (w :: ws))) with (group_count_br (word_tree w) + counts (map word_rx ws))%nat. rewrite IH. 
  assert (E : group_count_br (word_tree w) = O) by (induction w as [|c w IHw]; [reflexivity|exact IHw]). rewrite E. reflexivity.
Qed.
Section Plain.
  Variables (isd : Z -> bool) (syls : list str).
  Hypothesis NE : forall w, In w syls -> w <> [].
  Let rs := map (compile isd key_) (map word_rx (sorted_len syls)).
  Lemma way_longest b l w : first_way rs b l w -> longest syls l w.
  Proof.
    intro H. apply (first_way_runs isd _ (words_solid isd _)) in H. destruct H as (m & H & L). rewrite words_run in H. destruct (first_in (sorted_len syls) l) as [[w' r]|] eqn:F; [|discriminate].
    injection H as <-. cbn [rest] in L. destruct (first_in_longest _ _ _ _ (sorted_desc syls) F) as [LG E]. assert (w = w') by (apply (app_inv_tail r); congruence). subst w'.
    eapply longest_same; [intros x; apply sorted_In|exact LG].
  Qed.
  Lemma no_way_no b l : no_way rs b l <-> no_syllable syls l.
  Proof.
    unfold rs. rewrite (no_way_runs isd _ (words_solid isd _)).
    assert (E : no_syllable syls l <-> first_in (sorted_len syls) l = None).
    { rewrite first_in_None. split; apply no_syllable_same; intro x; rewrite sorted_In; reflexivity. }
    rewrite E. pose proof (words_run isd (sorted_len syls) b l) as W. split; intro H.
    - rewrite H in W. destruct (first_in _ _) as [[w r]|]; [discriminate|reflexivity].
    - rewrite H in W. destruct (flat_map _ _); [reflexivity|discriminate].
  Qed.
  Lemma spelled_segments b l o : spelled rs b l o -> segments syls l o.
  Proof.
    intro H. induction H as [b w t z d r o F T Et N S0 IH|b c q o F D S0 IH|b F|b q o W S0 IH|b c q o N W S0 IH|b W].
    - apply (Seg_syl syls w t z r o); [exact (way_longest _ _ _ F)|exact T|exact IH].
    - elim (NE [] (proj1 (way_longest _ _ _ F)) Logic.eq_refl).
    - elim (NE [] (proj1 (way_longest _ _ _ F)) Logic.eq_refl).
    - apply Seg_hash; [exact (proj1 (no_way_no _ _) W)|exact IH].
    - apply Seg_skip; [exact N|exact (proj1 (no_way_no _ _) W)|exact IH].
    - constructor.
  Qed.
  Lemma begins_plain l : syls <> [] -> begins rs [] l <-> exists m, match_ (Plus (base_pattern syls)) l = Some m.
  Proof.
    intro N. unfold match_. rewrite mtch_runs, first_Some.
    assert (E : runs (Plus (base_pattern syls)) (start l) = flat_map (runs (Star (base_pattern syls))) (runs (base_pattern syls) (start l))) by reflexivity. rewrite E.
    assert (Ne : forall t, exists y q, runs (Star (base_pattern syls)) t = y :: q).
    { intro t. apply star_some. }
    pose proof (mtch_runs (base_pattern syls) Some (start l)) as M. rewrite first_Some in M. unfold start in M at 1. rewrite mtch_base in M by (congruence || discriminate).
    assert (B : begins rs [] l <-> runs (base_pattern syls) (start l) <> []).
    { assert (NW : no_way rs [] l <-> first_in (sorted_len syls) l = None).
      { rewrite no_way_no, first_in_None. split; apply no_syllable_same; intro x; rewrite sorted_In; reflexivity. }
      unfold begins. split.
      - intros [(r & t & I & Mt)|[q ->]] R; rewrite R in M.
        + destruct (first_in (sorted_len syls) l) as [[w r']|] eqn:F; [destruct (take_tone r'); discriminate|]. exact (proj2 NW Logic.eq_refl r I t Mt).
        + destruct (first_in _ _) as [[w r']|]; [destruct (take_tone r'); discriminate|]. rewrite Z.eqb_refl in M. discriminate.
      - intro R. destruct (first_in (sorted_len syls) l) as [[w r']|] eqn:F.
        + left. destruct (flat_map (fun r => runs r (mkpos [] l [])) rs) as [|x o] eqn:Fl.
          * pose proof (words_run isd (sorted_len syls) [] l) as W. fold rs in W. rewrite Fl, F in W. discriminate.
          * assert (I : In x (flat_map (fun r => runs r (mkpos [] l [])) rs)) by (rewrite Fl; left; reflexivity). apply in_flat_map in I. destruct I as (r & I & J). exists r, x. split; [exact I|].
            apply (runs_iff r); [exact (proj1 (Forall_forall _ _) (words_solid isd (sorted_len syls)) r I)|exact J].
        + right. destruct l as [|c q]; [|destruct (Z.eqb_spec c (u1 "#")) as [->|]; [exists q; reflexivity|]]; elim R; destruct (runs (base_pattern syls) _); [reflexivity|discriminate|reflexivity|discriminate]. }
    rewrite B. destruct (runs (base_pattern syls) (start l)) as [|x o]; [split; [congruence|intros [m H]; discriminate]|].
    split; [intros _|discriminate]. cbn [flat_map]. destruct (Ne x) as (y & q & ->). eexists. reflexivity.
  Qed.
End Plain.

(** names *)
Definition given (o : option (list Z)) : list (list Z) := match o with Some n => [n] | None => [] end.
Lemma names_brackets : (forall r, names r = flat_map given (brackets r)) /\ (forall b, names_br b = flat_map given (brackets_br b)) /\
  (forall a, names_atom a = flat_map given (brackets_atom a)).
Proof.
  apply tree_ind; try reflexivity.
  - intros b H. exact H.
  - intros b H r H'. cbn [names brackets]. rewrite flat_map_app, H, H'. reflexivity.
  - intros a H q b H'. cbn [names_br brackets_br]. rewrite flat_map_app, H, H'. reflexivity.
  - intros k r H. destruct k; cbn [names_atom brackets_atom flat_map given app]; rewrite H; reflexivity.
Qed.
Lemma names_trees ts : flat_map names ts = flat_map given (flat_map brackets ts).
Proof. induction ts as [|t ts IH]; [reflexivity|]. cbn [flat_map]. rewrite flat_map_app, (proj1 names_brackets t), IH. reflexivity. Qed.
Lemma given_once l : NoDup (flat_map given l) <-> forall i j n, nth_error l i = Some (Some n) -> nth_error l j = Some (Some n) -> i = j.
Proof.
  assert (M : forall l n, In n (flat_map given l) <-> exists i, nth_error l i = Some (Some n)).
  { clear. intros l n. rewrite in_flat_map. split.
    - intros ([m|] & I & J); [|destruct J]. destruct J as [->|[]]. apply In_nth_error in I. exact I.
    - intros [i E]. exists (Some n). split; [exact (nth_error_In _ _ E)|left; reflexivity]. }
  induction l as [|o l IH]; [split; [intros _ [|i] j n E; discriminate|constructor]|]. cbn [flat_map]. destruct o as [m|]; cbn [given app].
  - split.
    + intros N i j n. inversion N as [|? ? A B]; subst. destruct i as [|i], j as [|j]; cbn [nth_error]; intros E E'; [reflexivity| | |f_equal; exact (proj1 IH B i j n E E')].
      * injection E as ->. elim A. apply M. eauto.
      * injection E' as ->. elim A. apply M. eauto.
    + intro H. constructor.
      * intro A. apply M in A. destruct A as [i E]. pose proof (H O (S i) m Logic.eq_refl E). discriminate.
      * apply IH. intros i j n E E'. pose proof (H (S i) (S j) n E E') as X. injection X as X. exact X.
  - rewrite IH. split; intros H i j n.
    + destruct i as [|i], j as [|j]; cbn [nth_error]; try discriminate. intros E E'. f_equal. exact (H i j n E E').
    + intros E E'. pose proof (H (S i) (S j) n E E') as X. injection X as X. exact X.
Qed.
Lemma names_once ts : NoDup (flat_map names ts) <-> names_differ ts.
Proof. rewrite names_trees. apply given_once. Qed.
