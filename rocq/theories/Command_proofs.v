(* Command_proofs.v -- proofs about the command line of load_as_rst.py *)
From Verif Require Import Base LoadRst_model Command_model Command_spec.

Lemma starts_iff p s : starts p s = true <-> begins p s.
Proof.
  revert s. induction p as [|c p IH]; intros s; cbn [starts].
  - split; [intros _; exists s; reflexivity | reflexivity].
  - destruct s as [|d s]; [split; [discriminate | intros [t E]; discriminate]|]. rewrite andb_true_iff, Z.eqb_eq, IH. split.
    + intros [-> [t ->]]. exists t. reflexivity.
    + intros [t E]. injection E as -> ->. split; [reflexivity | exists t; reflexivity].
Qed.
Lemma starts_false p s : starts p s = false <-> ~ begins p s.
Proof. rewrite <- starts_iff. destruct (starts p s); split; intros; congruence. Qed.
Lemma split_eq_some s a b : split_eq s = Some (a, b) -> s = a ++ [61] ++ b /\ ~ In 61 a.
Proof.
  revert a b. induction s as [|c s IH]; intros a b; cbn [split_eq]; [discriminate|]. destruct (Z.eqb_spec c 61) as [-> | N].
  - intro E. injection E as <- <-. split; [reflexivity | intros []].
  - destruct (split_eq s) as [[a' b']|]; [|discriminate]. intro E. injection E as <- <-. destruct (IH a' b' eq_refl) as [-> F]. split; [reflexivity|]. intros [E|E]; [congruence | exact (F E)].
Qed.
Lemma split_eq_none s : split_eq s = None -> ~ In 61 s.
Proof.
  induction s as [|c s IH]; cbn [split_eq]; [intros _ [] |]. destruct (Z.eqb_spec c 61) as [-> | N]; [discriminate|].
  destruct (split_eq s) as [[a' b']|]; [discriminate|]. intros _ [E|E]; [congruence | exact (IH eq_refl E)].
Qed.
Lemma split_eq_app a b : ~ In 61 a -> split_eq (a ++ [61] ++ b) = Some (a, b).
Proof.
  induction a as [|c a IH]; intro N; [reflexivity|]. cbn [app split_eq]. destruct (Z.eqb_spec c 61) as [-> | E]; [exfalso; apply N; left; reflexivity|].
  cbn [app] in IH. rewrite IH; [reflexivity|]. intro I. apply N. right. exact I.
Qed.
Lemma split_eq_out s : ~ In 61 s -> split_eq s = None.
Proof. intro N. destruct (split_eq s) as [[a b]|] eqn:E; [|reflexivity]. exfalso. apply N. destruct (split_eq_some s a b E) as [-> _]. apply in_or_app. right. left. reflexivity. Qed.

(** ** negative numbers *)
Section Numbers.
  Variable digit : Z -> bool.
  Lemma digits_iff s : digits digit s = true <-> all_digits digit s.
  Proof.
    unfold all_digits, digits. destruct s as [|c s]; [split; [discriminate | intros [N _]; congruence]|]. rewrite forallb_forall. split; [intro H; split; [discriminate | exact H] | intros [_ H]; exact H].
  Qed.
  Lemma decimal_iff s : decimal digit s = true <-> exists a b, s = a ++ [46] ++ b /\ (forall c, In c a -> digit c = true) /\ all_digits digit b.
  Proof.
    induction s as [|c s IH]; cbn [decimal].
    - split; [discriminate|]. intros (a & b & E & _). destruct a; discriminate.
    - rewrite orb_true_iff, !andb_true_iff, Z.eqb_eq, digits_iff, IH. split.
      + intros [[-> D] | [D (a & b & -> & H & B)]]; [exists [], s; split; [reflexivity|]; split; [intros c [] | exact D]|].
        exists (c :: a), b. split; [reflexivity|]. split; [|exact B]. intros e [<- | I]; [exact D | exact (H e I)].
      + intros ([|e a] & b & E & H & B); injection E as -> ->; [left; split; [reflexivity | exact B]|]. right. split; [apply H; left; reflexivity|]. exists a, b. split; [reflexivity|]. split; [|exact B]. intros x I. apply H. right. exact I.
  Qed.
  Lemma number_iff s : number digit s = true <-> all_digits digit s \/ exists a b, s = a ++ [46] ++ b /\ (forall c, In c a -> digit c = true) /\ all_digits digit b.
  Proof. unfold number. rewrite orb_true_iff, digits_iff, decimal_iff. reflexivity. Qed.
  Lemma number_nil : number digit [] = false.
  Proof. reflexivity. Qed.
  Lemma negative_iff s : negative digit s = true <-> negative_number digit s.
  Proof.
    unfold negative, negative_number. destruct s as [|c s]; [split; [discriminate | intros (d & t & E & _); discriminate]|].
    rewrite andb_true_iff, orb_true_iff, andb_true_iff, !Z.eqb_eq. split.
    - intros [-> [H | [L H]]].
      + exists s, []. split; [cbn [app]; rewrite app_nil_r; reflexivity|]. split; [left; reflexivity | apply number_iff; exact H].
      + exists (removelast s), [10]. split; [|split; [right; reflexivity | apply number_iff; exact H]].
        cbn [app]. f_equal. rewrite <- L. apply app_removelast_last. intros ->. discriminate.
    - intros (d & t & E & T & H). apply number_iff in H. injection E as -> ->. split; [reflexivity|]. destruct T as [-> | ->]; [left; rewrite app_nil_r; exact H | right; rewrite last_last, removelast_last; split; [reflexivity | exact H]].
  Qed.
End Numbers.

Ltac uinv E := vm_compute in E; inversion E; subst; try congruence.

(** ** what an argument is taken for *)
Section Classify.
  Variable digit : Z -> bool.
  Definition fallback (s : str) : option tag := Some (if negative digit s then A else if mem 32 s then A else O None s None).
  Lemma eqb_second (a : Z) x y (l : str) : eqb (a :: x :: l) [a; y] = true -> x = y /\ l = [].
  Proof. intro E. destruct (eqb_spec (a :: x :: l) [a; y]) as [F|F]; [injection F as -> ->; split; reflexivity | discriminate]. Qed.
  Lemma dget_option s a : dget s option_strings = Some a -> (s = u "-h" /\ a = Help) \/ (s = u "--help" /\ a = Help) \/ (s = u "-o" /\ a = Output) \/ (s = u "--output" /\ a = Output).
  Proof.
    unfold option_strings. cbn [dget].
    repeat match goal with |- context [if eqb s ?x then _ else _] => destruct (eqb_spec s x); [intro E; injection E as <-; tauto|] end. discriminate.
  Qed.
  Lemma single_other c t : c <> 45 -> c <> 104 -> c <> 111 -> classify digit (45 :: c :: t) = fallback (45 :: c :: t).
  Proof.
    intros N1 N2 N3. unfold classify. change (negb (45 =? 45)) with false. cbv iota.
    destruct (dget (45 :: c :: t) option_strings) as [a|] eqn:D.
    { exfalso. destruct (dget_option _ _ D) as [[E _] | [[E _] | [[E _] | [E _]]]]; uinv E. }
    assert (G : guess digit (45 :: c :: t) = fallback (45 :: c :: t)).
    { unfold guess, option_tuples. replace (starts dashes (45 :: c :: t)) with false by (symmetry; apply starts_false; intros [x E]; uinv E).
      unfold option_strings. cbn [flat_map fst snd firstn].
      assert (F : forall n : str, In n [u "-h"; u "--help"; u "-o"; u "--output"] -> eqb n [45; c] = false /\ starts (45 :: c :: t) n = false).
      { intros n I. split; [apply eqb_neq; intros -> | apply starts_false; intros [x ->]]; repeat destruct I as [I|I]; uinv I. }
      repeat match goal with |- context [eqb ?n [45; c]] => rewrite (proj1 (F n ltac:(cbn; tauto))), (proj2 (F n ltac:(cbn; tauto))) end. reflexivity. }
    destruct (split_eq (45 :: c :: t)) as [[n e]|] eqn:S; [|exact G].
    destruct (dget n option_strings) as [a|] eqn:D'; [|exact G]. exfalso. destruct (split_eq_some _ _ _ S) as [E _].
    destruct (dget_option _ _ D') as [[-> _] | [[-> _] | [[-> _] | [-> _]]]]; uinv E.
  Qed.
  (** -h... and -o... *)
  Lemma single_flag c a t : (c = 104 /\ a = Help) \/ (c = 111 /\ a = Output) ->
    classify digit (45 :: c :: t) = Some (O (Some a) [45; c] (match t with [] => None | 61 :: e => Some e | _ => Some t end)).
  Proof.
    intro C. unfold classify. change (negb (45 =? 45)) with false. cbv iota.
    destruct t as [|d t]; [destruct C as [[-> ->] | [-> ->]]; reflexivity|].
    replace (dget (45 :: c :: d :: t) option_strings) with (@None action).
    2: { symmetry. destruct (dget (45 :: c :: d :: t) option_strings) as [b|] eqn:D; [|reflexivity]. exfalso.
         destruct (dget_option _ _ D) as [[E _] | [[E _] | [[E _] | [E _]]]]; destruct C as [[-> _] | [-> _]]; discriminate. }
    assert (G : guess digit (45 :: c :: d :: t) = Some (O (Some a) [45; c] (Some (d :: t)))).
    { unfold guess, option_tuples. destruct C as [[-> ->] | [-> ->]]; reflexivity. }
    destruct (Z.eq_dec d 61) as [-> | N].
    - replace (split_eq (45 :: c :: 61 :: t)) with (Some ([45; c], t)) by (destruct C as [[-> _] | [-> _]]; reflexivity).
      destruct C as [[-> ->] | [-> ->]]; reflexivity.
    - replace (match d with 61 => Some t | _ => Some (d :: t) end) with (Some (d :: t)) by (destruct d as [|q|q]; try reflexivity; do 6 (destruct q as [q|q|]; try reflexivity); congruence).
      destruct (split_eq (45 :: c :: d :: t)) as [[n e]|] eqn:S; [|exact G].
      destruct (dget n option_strings) as [b|] eqn:D; [|exact G]. exfalso. destruct (split_eq_some _ _ _ S) as [E _].
      destruct (dget_option _ _ D) as [[-> _] | [[-> _] | [[-> _] | [-> _]]]]; destruct C as [[-> _] | [-> _]]; uinv E.
  Qed.
  (** --... *)
  Definition cut (s : str) : str * option str := match split_eq s with Some (a, b) => (a, Some b) | None => (s, None) end.
  Lemma double t : classify digit (45 :: 45 :: t) =
    let (p, e) := cut (45 :: 45 :: t) in
    match starts p (u "--help"), starts p (u "--output") with
    | true, true => None
    | true, false => Some (O (Some Help) (u "--help") e)
    | false, true => Some (O (Some Output) (u "--output") e)
    | false, false => fallback (45 :: 45 :: t)
    end.
  Proof.
    unfold classify. change (negb (45 =? 45)) with false. cbv iota.
    destruct (dget (45 :: 45 :: t) option_strings) as [a|] eqn:D.
    { destruct (dget_option _ _ D) as [[E ->] | [[E ->] | [[E ->] | [E ->]]]]; try discriminate E; rewrite E; reflexivity. }
    assert (G : guess digit (45 :: 45 :: t) =
      let (p, e) := cut (45 :: 45 :: t) in
      match starts p (u "--help"), starts p (u "--output") with
      | true, true => None
      | true, false => Some (O (Some Help) (u "--help") e)
      | false, true => Some (O (Some Output) (u "--output") e)
      | false, false => fallback (45 :: 45 :: t)
      end).
    { unfold guess, option_tuples. change (starts dashes (45 :: 45 :: t)) with true. cbv iota. fold (cut (45 :: 45 :: t)).
      destruct (cut (45 :: 45 :: t)) as [p e] eqn:C. unfold option_strings. cbn [flat_map fst snd].
      assert (P : exists q, p = 45 :: 45 :: q).
      { unfold cut in C. destruct (split_eq (45 :: 45 :: t)) as [[a b]|] eqn:S; injection C as <- <-; [|eexists; reflexivity].
        cbn [split_eq] in S. change (45 =? 61) with false in S. cbv iota in S. destruct (split_eq t) as [[a' b']|]; [|discriminate]. injection S as <- <-. eexists. reflexivity. }
      destruct P as [q ->]. change (starts (45 :: 45 :: q) (u "-h")) with false. change (starts (45 :: 45 :: q) (u "-o")) with false. cbn [app].
      destruct (starts (45 :: 45 :: q) (u "--help")), (starts (45 :: 45 :: q) (u "--output")); reflexivity. }
    destruct (split_eq (45 :: 45 :: t)) as [[n e]|] eqn:S; [|exact G].
    destruct (dget n option_strings) as [a|] eqn:D'; [|exact G]. unfold cut. rewrite S.
    destruct (split_eq_some _ _ _ S) as [E _].
    destruct (dget_option _ _ D') as [[-> ->] | [[-> ->] | [[-> ->] | [-> ->]]]]; try discriminate E; reflexivity.
  Qed.
End Classify.

Section Words.
  Variable digit : Z -> bool.
  Definition attach (e : option str) : str := match e with Some v => u "=" ++ v | None => [] end.
  Lemma cut_split s p e : cut s = (p, e) -> s = p ++ attach e /\ ~ In 61 p.
  Proof.
    unfold cut. destruct (split_eq s) as [[a b]|] eqn:S; intro E; injection E as <- <-; [destruct (split_eq_some _ _ _ S) as [-> N]; split; [reflexivity | exact N]|].
    split; [symmetry; apply app_nil_r | apply split_eq_none; exact S].
  Qed.
  Lemma cut_join p e : ~ In 61 p -> cut (p ++ attach e) = (p, e).
  Proof. intro N. unfold cut. destruct e as [v|]; cbn [attach]; [change (u "=") with [61]; rewrite split_eq_app by exact N; reflexivity | rewrite app_nil_r, split_eq_out by exact N; reflexivity]. Qed.
  Lemma begins_In p s c : begins p s -> In c p -> In c s.
  Proof. intros [t ->] I. apply in_or_app. left. exact I. Qed.
  Lemma no_equals p : begins p (u "--help") \/ begins p (u "--output") -> ~ In 61 p.
  Proof. intros [B|B] I; apply (begins_In _ _ _ B) in I; apply mem_In in I; vm_compute in I; discriminate. Qed.
  Lemma dd_begins p : begins (u "--") p -> exists q, p = 45 :: 45 :: q.
  Proof. intros [q ->]. exists q. reflexivity. Qed.
  Lemma cut_dd t p e : cut (45 :: 45 :: t) = (p, e) -> exists q, p = 45 :: 45 :: q.
  Proof.
    intro C. destruct (cut_split _ _ _ C) as [E N]. destruct p as [|a [|b q]]; [| |injection E as -> -> _; exists q; reflexivity]; exfalso.
    - destruct e as [v|]; cbn in E; discriminate.
    - destruct e as [v|]; cbn in E; injection E as _ E; discriminate.
  Qed.
  Lemma ol_double t p e : cut (45 :: 45 :: t) = (p, e) -> optionlike (45 :: 45 :: t) <-> starts p (u "--help") = true \/ starts p (u "--output") = true.
  Proof.
    intro C. rewrite !starts_iff. split.
    - intros [[x E] | [[x E] | (p' & t' & Bd & B & E & T)]]; [discriminate E | discriminate E |].
      assert (X : exists e', t' = attach e') by (destruct T as [-> | [v ->]]; [exists None; reflexivity | exists (Some v); reflexivity]).
      destruct X as [e' ->]. rewrite E, cut_join in C by (apply no_equals; exact B). injection C as -> ->. exact B.
    - intro B. right. right. destruct (cut_split _ _ _ C) as [E _]. destruct (cut_dd _ _ _ C) as [q Q]. exists p, (attach e). split; [rewrite Q; exists q; reflexivity|]. split; [exact B|]. split; [exact E|].
      destruct e as [v|]; [right; exists v; reflexivity | left; reflexivity].
  Qed.
  Lemma ol_single c t : c <> 45 -> optionlike (45 :: c :: t) -> c = 104 \/ c = 111.
  Proof.
    intros N [[x E] | [[x E] | (p & t' & Bd & _ & E & _)]]; [vm_compute in E; injection E as -> _; left; reflexivity | vm_compute in E; injection E as -> _; right; reflexivity |].
    destruct (dd_begins p Bd) as [q ->]. injection E as -> _. contradiction.
  Qed.
  Lemma fallback_A s : fallback digit s = Some A <-> negative_number digit s \/ In 32 s.
  Proof.
    unfold fallback. rewrite <- negative_iff, <- mem_In. destruct (negative digit s); [split; [left; reflexivity | reflexivity]|]. destruct (mem 32 s); [split; [right; reflexivity | reflexivity]|].
    split; [discriminate | intros [H|H]; discriminate].
  Qed.
  Lemma fallback_cases s t : fallback digit s = Some t -> t = A \/ t = O None s None.
  Proof. unfold fallback. destruct (negative digit s); [|destruct (mem 32 s)]; intro E; injection E as <-; tauto. Qed.
  Lemma classify_word s : classify digit s = Some A <-> word digit s.
  Proof.
    destruct s as [|c s]; [split; [left; reflexivity | reflexivity]|].
    destruct (Z.eq_dec c 45) as [-> | N].
    2: { split; [intros _; right; left; exists c, s; split; [reflexivity | exact N] | intros _]. unfold classify. apply Z.eqb_neq in N. rewrite N. reflexivity. }
    destruct s as [|c s]; [split; [right; right; left; reflexivity | reflexivity]|].
    assert (W : word digit (45 :: c :: s) <-> ~ optionlike (45 :: c :: s) /\ (negative_number digit (45 :: c :: s) \/ In 32 (45 :: c :: s))).
    { unfold word. split.
      - intros [E | [(d & r & E & N) | [E | (_ & O & H)]]]; [discriminate E | injection E as <- _; congruence | discriminate E | split; assumption].
      - intros [O H]. right. right. right. split; [exists (c :: s); reflexivity | split; assumption]. }
    rewrite W. clear W. destruct (Z.eq_dec c 45) as [-> | N].
    - rewrite double. destruct (cut (45 :: 45 :: s)) as [p e] eqn:C. pose proof (ol_double s p e C) as OL.
      destruct (starts p (u "--help")), (starts p (u "--output")); try (split; [discriminate | intros [X _]; exfalso; apply X, OL; tauto]).
      rewrite fallback_A. split; [intro H; split; [intro X; apply OL in X; destruct X; discriminate | exact H] | intros [_ H]; exact H].
    - destruct (Z.eq_dec c 104) as [-> | N1]; [|destruct (Z.eq_dec c 111) as [-> | N2]].
      + rewrite (single_flag digit 104 Help) by (left; split; reflexivity). split; [discriminate|]. intros [X _]. exfalso. apply X. left. exists s. reflexivity.
      + rewrite (single_flag digit 111 Output) by (right; split; reflexivity). split; [discriminate|]. intros [X _]. exfalso. apply X. right. left. exists s. reflexivity.
      + rewrite single_other by assumption. rewrite fallback_A. split; [|intros [_ H]; exact H]. intro H. split; [|exact H]. intro X. destruct (ol_single c s N X); contradiction.
  Qed.
  Lemma long_shape full p : full = u "--help" \/ full = u "--output" -> long full p -> exists c q, p = 45 :: 45 :: c :: q.
  Proof.
    intros F [[t E] L]. destruct p as [|a [|b [|c q]]]; [cbn in L; lia | cbn in L; lia | cbn in L; lia|].
    destruct F as [-> | ->]; vm_compute in E; injection E as <- <- _; exists c, q; reflexivity.
  Qed.
  Lemma long_not_help p : long (u "--output") p -> starts p (u "--help") = false.
  Proof.
    intro L. pose proof L as [[t E] _]. destruct (long_shape _ p (or_intror eq_refl) L) as (c & q & ->). vm_compute in E. injection E as <- _.
    apply starts_false. intros [x X]. vm_compute in X. discriminate.
  Qed.
  Lemma begins_both q : starts (45 :: 45 :: q) (u "--help") = false -> q <> [].
  Proof. intros H ->. vm_compute in H. discriminate. Qed.
  Lemma eq_or_not d t : (d = 61 /\ (match d with 61 => Some t | _ => Some (d :: t) end = Some t)) \/ (d <> 61 /\ match d with 61 => Some t | _ => Some (d :: t) end = Some (d :: t)).
  Proof.
    destruct (Z.eq_dec d 61) as [-> | N]; [left; split; reflexivity | right; split; [exact N|]].
    destruct d as [|q|q]; try reflexivity; do 6 (destruct q as [q|q|]; try reflexivity); congruence.
  Qed.
  Lemma classify_output s e : (exists n, classify digit s = Some (O (Some Output) n e)) <-> match e with None => output_name s | Some v => gives digit [s] v end.
  Proof.
    split.
    - intros [n H]. destruct s as [|c s]; [discriminate|]. destruct (Z.eq_dec c 45) as [-> | N].
      2: { exfalso. unfold classify in H. apply Z.eqb_neq in N. rewrite N in H. discriminate. }
      destruct s as [|c s]; [discriminate|]. destruct (Z.eq_dec c 45) as [-> | N].
      + rewrite double in H. destruct (cut (45 :: 45 :: s)) as [p e'] eqn:C. destruct (starts p (u "--help")) eqn:S1, (starts p (u "--output")) eqn:S2; try discriminate H.
        * injection H as _ ->. destruct (cut_dd _ _ _ C) as [q ->]. assert (L : long (u "--output") (45 :: 45 :: q)).
          { split; [apply starts_iff; exact S2|]. apply begins_both in S1. destruct q; [congruence | cbn; lia]. }
          destruct (cut_split _ _ _ C) as [E _]. rewrite E. destruct e as [v|]; cbn [attach]; [apply g_equal; right; exact L | rewrite app_nil_r; right; exact L].
        * destruct (fallback_cases _ _ H) as [X|X]; discriminate.
      + destruct (Z.eq_dec c 104) as [-> | N1]; [|destruct (Z.eq_dec c 111) as [-> | N2]].
        * rewrite (single_flag digit 104 Help) in H by (left; split; reflexivity). discriminate.
        * rewrite (single_flag digit 111 Output) in H by (right; split; reflexivity). injection H as _ <-. destruct s as [|d s]; [left; reflexivity|].
          destruct (eq_or_not d s) as [[Ed _] | [Nd Em]]; [subst d; exact (g_equal digit (u "-o") s (or_introl eq_refl)) | rewrite Em; apply (g_attached digit (d :: s)); [discriminate|]].
          intros [x E]. vm_compute in E. injection E as E _. contradiction.
        * rewrite single_other in H by assumption. destruct (fallback_cases _ _ H) as [X|X]; discriminate.
    - assert (J : forall n e', output_name n -> exists m, classify digit (n ++ attach e') = Some (O (Some Output) m e')).
      { intros n e' [-> | L].
        - exists [45; 111]. change (u "-o" ++ attach e') with (45 :: 111 :: attach e'). rewrite (single_flag digit 111 Output) by (right; split; reflexivity).
          destruct e' as [v|]; reflexivity.
        - pose proof (no_equals n (or_intror (proj1 L))) as NE. pose proof (long_not_help n L) as NH. pose proof (cut_join n e' NE) as C.
          destruct (long_shape _ n (or_intror eq_refl) L) as (c & q & ->). cbn [app] in C |- *. rewrite double, C, NH, (proj2 (starts_iff _ _) (proj1 L)). eexists. reflexivity. }
      destruct e as [v|].
      + intro G. inversion G as [n v' O W E1 E2 | v' Nv Ne E1 E2 | n v' O E1 E2]; subst; clear G.
        * exists [45; 111]. change (u "-o" ++ v) with (45 :: 111 :: v). rewrite (single_flag digit 111 Output) by (right; split; reflexivity).
          destruct v as [|d t]; [congruence|]. destruct (eq_or_not d t) as [[-> _] | [Nd ->]]; [exfalso; apply Ne; exists t; reflexivity | reflexivity].
        * exact (J n (Some v) O).
      + intro O. destruct (J s None O) as [m H]. cbn [attach] in H. rewrite app_nil_r in H. exists m. exact H.
  Qed.
  Lemma dashes_out s e n : classify digit s = Some (O (Some Output) n e) -> eqb s dashes = false.
  Proof. intro H. apply eqb_neq. intros ->. vm_compute in H. discriminate. Qed.
  Lemma word_out s : word digit s -> eqb s dashes = false.
  Proof. intro W. apply classify_word in W. apply eqb_neq. intros ->. vm_compute in W. discriminate. Qed.
End Words.

(** ** the whole line *)
Section Line.
  Variable late : bool.
  Variable digit : Z -> bool.
  Definition final (os : list str) (out : option value) : option value := fold_left (fun _ v => Some (get_values late v)) os out.
  Lemma final_the os : final os None = the_output late os.
  Proof.
    unfold final, the_output. rewrite <- fold_left_rev_right. destruct (rev os) as [|v r]; reflexivity.
  Qed.
  Lemma classify_dash s : classify digit s <> Some Dash.
  Proof.
    destruct s as [|c s]; [discriminate|]. destruct (Z.eq_dec c 45) as [-> | N].
    2: { unfold classify. apply Z.eqb_neq in N. rewrite N. discriminate. }
    destruct s as [|c s]; [discriminate|]. destruct (Z.eq_dec c 45) as [-> | N].
    - rewrite double. destruct (cut (45 :: 45 :: s)) as [p e]. destruct (starts p (u "--help")), (starts p (u "--output")); try discriminate. intro H. destruct (fallback_cases _ _ _ H); discriminate.
    - destruct (Z.eq_dec c 104) as [-> | N1]; [|destruct (Z.eq_dec c 111) as [-> | N2]].
      + rewrite (single_flag digit 104 Help) by (left; split; reflexivity). discriminate.
      + rewrite (single_flag digit 111 Output) by (right; split; reflexivity). discriminate.
      + rewrite single_other by assumption. intro H. destruct (fallback_cases _ _ _ H); discriminate.
  Qed.
  Lemma map_words l : existsb is_option (map (fun a : str => (a, A)) l) = false.
  Proof. induction l as [|a l IH]; [reflexivity | exact IH]. Qed.
  Lemma loop_extra fuel : forall inp out l i o, loop late fuel inp out true l <> Parsed i o.
  Proof.
    induction fuel as [|fuel IH]; intros inp out l i o; cbn [loop]; [discriminate|]. destruct (existsb is_option l).
    - destruct l as [|[s t] l]; [destruct inp; apply IH|]. destruct t as [| |a n e].
      + destruct inp; [apply IH|]. destruct (take_input ((s, A) :: l)) as [[v r]|]; apply IH.
      + destruct inp; [apply IH|]. destruct (take_input ((s, Dash) :: l)) as [[v r]|]; apply IH.
      + destruct a as [[|]|]; [destruct e as [e|]; [destruct (starts dashes n); discriminate | discriminate] | | apply IH].
        destruct e as [e|]; [apply IH|]. destruct l as [|[v []] l]; try discriminate. apply IH.
    - destruct inp; [discriminate|]. destruct (take_input l) as [[v r]|]; discriminate.
  Qed.
  Lemma tag_cons s args l : tag_all digit (s :: args) = Some l ->
    (s = dashes /\ l = (s, Dash) :: map (fun a => (a, A)) args) \/
    (s <> dashes /\ exists t l', classify digit s = Some t /\ tag_all digit args = Some l' /\ l = (s, t) :: l').
  Proof.
    cbn [tag_all]. destruct (eqb_spec s dashes) as [-> | N]; [intro E; injection E as <-; left; split; reflexivity|].
    destruct (classify digit s) as [t|]; [|discriminate]. destruct (tag_all digit args) as [l'|]; [|discriminate]. intro E. injection E as <-. right. split; [exact N|]. exists t, l'. repeat split; reflexivity.
  Qed.
  Lemma loop_sound fuel : forall args l inp out i o, tag_all digit args = Some l -> loop late fuel inp out false l = Parsed i o ->
    exists os, o = final os out /\ match inp with None => reads digit args (Some i) os | Some x => i = x /\ reads digit args None os end.
  Proof.
    induction fuel as [|fuel IH]; intros args l inp out i o T; [discriminate|]. cbn [loop]. destruct args as [|s args].
    { injection T as <-. cbn [existsb take_input]. destruct inp as [x|]; [|discriminate]. intro E. injection E as <- <-. exists []. split; [reflexivity|]. split; [reflexivity | constructor]. }
    destruct (tag_cons _ _ _ T) as [[-> ->] | (N & t & l' & C & T' & ->)].
    - cbn [existsb]. change (is_option (dashes, Dash)) with false. rewrite map_words. cbn [orb]. destruct inp as [x|]; [discriminate|].
      destruct args as [|a [|b args]]; cbn [map take_input]; try discriminate. intro E. injection E as <- <-. exists []. split; [reflexivity | apply r_dashes_input].
    - destruct t as [| |a n e].
      + apply classify_word in C. change (existsb is_option ((s, A) :: l')) with (existsb is_option l'). destruct (existsb is_option l') eqn:X.
        * destruct inp as [x|]; [intro E; exfalso; exact (loop_extra _ _ _ _ _ _ E)|].
          assert (TI : take_input ((s, A) :: l') = Some (s, l')).
          { destruct l' as [|[v []] l']; try reflexivity. exfalso. destruct args as [|b args]; [discriminate|]. destruct (tag_cons _ _ _ T') as [[-> E] | (_ & t & l2 & Cb & _ & E)]; injection E as E1 E2; subst.
            - cbn [existsb] in X. rewrite map_words in X. discriminate.
            - exact (classify_dash _ Cb). }
          rewrite TI. intro E. destruct (IH args l' (Some s) out i o T' E) as (os & Eo & -> & R). exists os. split; [exact Eo|]. apply r_input; assumption.
        * destruct inp as [x|]; [discriminate|]. destruct l' as [|[v t] l'].
          -- cbn [take_input]. intro E. injection E as <- <-. destruct args as [|b args]; [|destruct (tag_cons _ _ _ T') as [[_ E] | (_ & t & l2 & _ & _ & E)]; discriminate].
             exists []. split; [reflexivity|]. apply r_input; [exact C | constructor].
          -- destruct t; cbn [take_input]; [discriminate | | discriminate]. destruct l'; [|discriminate]. intro E. injection E as <- <-.
             destruct args as [|b args]; [discriminate|]. destruct (tag_cons _ _ _ T') as [[-> E] | (_ & t & l2 & Cb & _ & E)]; injection E as E1 E2; subst.
             ++ destruct args; [|discriminate]. exists []. split; [reflexivity | apply r_input_dashes; exact C].
             ++ exfalso. exact (classify_dash _ Cb).
      + exfalso. exact (classify_dash _ C).
      + change (existsb is_option ((s, O a n e) :: l')) with true. cbv iota. destruct a as [[|]|].
        * destruct e as [e|]; [destruct (starts dashes n); discriminate | discriminate].
        * destruct e as [e|].
          -- intro E. destruct (IH args l' inp _ i o T' E) as (os & Eo & R). exists (e :: os). split; [exact Eo|].
             assert (G : gives digit [s] e) by (apply (classify_output digit s (Some e)); exists n; exact C).
             destruct inp as [x|]; [destruct R as [-> R]; split; [reflexivity|] |]; exact (r_output digit [s] e args _ os G R).
          -- destruct l' as [|[v []] l']; try discriminate. intro E. destruct args as [|b args]; [discriminate|].
             destruct (tag_cons _ _ _ T') as [[_ X] | (_ & t & l2 & Cb & T2 & X)]; injection X; intros; subst; [discriminate|].
             destruct (IH args l2 inp _ i o T2 E) as (os & Eo & R). exists (b :: os). split; [exact Eo|].
             assert (G : gives digit [s; b] b) by (apply g_next; [apply (classify_output digit s None); exists n; exact C | apply classify_word; exact Cb]).
             destruct inp as [x|]; [destruct R as [-> R]; split; [reflexivity|] |]; exact (r_output digit [s; b] b args _ os G R).
        * intro E. exfalso. exact (loop_extra _ _ _ _ _ _ E).
  Qed.
  (** a line that takes no input is empty or starts with an option *)
  Lemma reads_none args os : reads digit args None os -> forall l, tag_all digit args = Some l -> l = [] \/ exists s a n e l', l = (s, O a n e) :: l'.
  Proof.
    intros R l T. inversion R as [E1 E2 E3 | ws v rest i os' G R' E1 E2 E3 | | |]; subst; [injection T as <-; left; reflexivity|]. right.
    inversion G as [n v' On W E1 E2 | v' Nv Ne E1 E2 | n v' On E1 E2]; subst; cbn [app] in T.
    - destruct (tag_cons _ _ _ T) as [[E _] | (_ & t & l' & C & _ & ->)].
      + exfalso. subst. apply (classify_output digit _ None) in On. destruct On as [m C]. vm_compute in C. discriminate.
      + apply (classify_output digit _ None) in On. destruct On as [m C']. rewrite C in C'. injection C' as ->. repeat eexists.
    - destruct (proj2 (classify_output digit (u "-o" ++ v) (Some v)) G) as [m C']. destruct (tag_cons _ _ _ T) as [[E _] | (_ & t & l' & C & _ & ->)]; [discriminate E|].
      rewrite C in C'. injection C' as ->. repeat eexists.
    - destruct (proj2 (classify_output digit _ (Some v)) G) as [m C']. destruct (tag_cons _ _ _ T) as [[E _] | (_ & t & l' & C & _ & ->)]; [apply dashes_out in C'; rewrite E, eqb_refl in C'; discriminate|].
      rewrite C in C'. injection C' as ->. repeat eexists.
  Qed.
  Lemma tag_option s args t l' : classify digit s = Some t -> eqb s dashes = false -> tag_all digit args = Some l' -> tag_all digit (s :: args) = Some ((s, t) :: l').
  Proof. intros C N T. cbn [tag_all]. rewrite N, C, T. reflexivity. Qed.
  Lemma loop_complete args io os : reads digit args io os -> exists l, tag_all digit args = Some l /\
    forall fuel inp out, (length l < fuel)%nat -> match io, inp with Some _, None => True | None, Some _ => True | _, _ => False end ->
      loop late fuel inp out false l = Parsed (match io, inp with Some i, _ => i | None, Some i => i | None, None => [] end) (final os out).
  Proof.
    induction 1 as [|ws v args i os G R (l & T & IH) | i args os W R (l & T & IH) | i | i W].
    - exists []. split; [reflexivity|]. intros [|fuel] inp out L; [cbn in L; lia|]. destruct inp as [x|]; [|intros []]. reflexivity.
    - pose proof G as G'. inversion G as [n v' On Wv E1 E2 | v' Nv Ne E1 E2 | n v' On E1 E2]; subst; cbn [app].
      + destruct (proj2 (classify_output digit n None) On) as [m C]. pose proof (dashes_out _ _ _ _ C) as Nd. pose proof (word_out _ _ Wv) as Nv. apply classify_word in Wv.
        eexists. split; [apply tag_option; [exact C | exact Nd |]; apply tag_option; [exact Wv | exact Nv | exact T]|].
        intros [|fuel] inp out L X; [lia|]. cbn [loop existsb is_option snd orb]. rewrite (IH fuel inp (Some (get_values late v))); [reflexivity | cbn in L; lia | exact X].
      + destruct (proj2 (classify_output digit _ (Some v)) G') as [m C]. pose proof (dashes_out _ _ _ _ C) as Nd.
        eexists. split; [apply tag_option; [exact C | exact Nd | exact T]|].
        intros [|fuel] inp out L X; [lia|]. cbn [loop existsb is_option snd orb]. rewrite (IH fuel inp (Some (get_values late v))); [reflexivity | cbn in L; lia | exact X].
      + destruct (proj2 (classify_output digit _ (Some v)) G') as [m C]. pose proof (dashes_out _ _ _ _ C) as Nd.
        eexists. split; [apply tag_option; [exact C | exact Nd | exact T]|].
        intros [|fuel] inp out L X; [lia|]. cbn [loop existsb is_option snd orb]. rewrite (IH fuel inp (Some (get_values late v))); [reflexivity | cbn in L; lia | exact X].
    - pose proof (word_out _ _ W) as Nd. apply classify_word in W. exists ((i, A) :: l). split; [apply tag_option; assumption|].
      intros [|fuel] inp out L X; [lia|]. destruct inp as [x|]; [destruct X|]. cbn [loop].
      change (existsb is_option ((i, A) :: l)) with (existsb is_option l). destruct (reads_none args os R l T) as [-> | (s & a & n & e & l' & ->)].
      + cbn [existsb take_input]. specialize (IH 1%nat (Some i) out ltac:(cbn; lia) I). cbn in IH. exact IH.
      + change (existsb is_option ((s, O a n e) :: l')) with true. cbv iota. cbn [take_input]. rewrite (IH fuel (Some i) out); [reflexivity | cbn in L |- *; lia | exact I].
    - exists [(dashes, Dash); (i, A)]. split; [reflexivity|]. intros [|fuel] inp out L X; [lia|]. destruct inp as [x|]; [destruct X | reflexivity].
    - pose proof (word_out _ _ W) as Nd. apply classify_word in W. exists [(i, A); (dashes, Dash)]. split; [apply tag_option; [exact W | exact Nd | reflexivity]|].
      intros [|fuel] inp out L X; [lia|]. destruct inp as [x|]; [destruct X | reflexivity].
  Qed.
  Lemma parse_iff args i o : parse_args late digit args = Parsed i o <-> exists os, reads digit args (Some i) os /\ o = the_output late os.
  Proof.
    unfold parse_args. split.
    - destruct (tag_all digit args) as [l|] eqn:T; [|discriminate]. intro E. destruct (loop_sound _ _ _ _ _ _ _ T E) as (os & -> & R). exists os. split; [exact R | apply final_the].
    - intros (os & R & ->). destruct (loop_complete args (Some i) os R) as (l & -> & H). rewrite (H (S (length l)) None None); [rewrite final_the; reflexivity | lia | exact I].
  Qed.
  (** help *)
  Lemma late_chain_codes e l : late_chain e l = 0 \/ late_chain e l = 2.
  Proof.
    induction e as [|c e IH]; cbn [late_chain]; [right; reflexivity|]. destruct (c =? 45); [right; reflexivity|].
    destruct (dget [45; c] option_strings) as [[|]|]; [destruct e as [|d e]; [left; reflexivity|destruct (d =? 61); [right; reflexivity|exact IH]] | | left; reflexivity].
    destruct e; [|left; reflexivity]. destruct l as [|[? [| |]] l]; tauto.
  Qed.
  Lemma help_chain_codes e l : help_chain e l = 0 \/ help_chain e l = 2.
  Proof.
    induction e as [|c e IH]; cbn [help_chain]; [right; reflexivity|]. destruct (dget [45; c] option_strings) as [[|]|]; [destruct e; [left; reflexivity | exact IH] | | right; reflexivity].
    destruct e; [destruct l as [|[s []] l]; tauto | left; reflexivity].
  Qed.
  Lemma flags_codes s e l : flags late s e l = 0 \/ flags late s e l = 2.
  Proof. unfold flags. destruct late; [destruct (nth 2 s 0 =? 61); [right; reflexivity|apply late_chain_codes]|apply help_chain_codes]. Qed.
  Lemma classify_help s n e : classify digit s = Some (O (Some Help) n e) -> begins (u "-h") s \/ (exists p, long (u "--help") p /\ s = p ++ attach e /\ n = u "--help").
  Proof.
    destruct s as [|c s]; [discriminate|]. destruct (Z.eq_dec c 45) as [-> | N].
    2: { unfold classify. apply Z.eqb_neq in N. rewrite N. discriminate. }
    destruct s as [|c s]; [discriminate|]. destruct (Z.eq_dec c 45) as [-> | N].
    - rewrite double. destruct (cut (45 :: 45 :: s)) as [p e'] eqn:C. destruct (starts p (u "--help")) eqn:S1, (starts p (u "--output")) eqn:S2; try discriminate.
      + intro E. injection E as <- ->. right. exists p. destruct (cut_split _ _ _ C) as [-> _]. split; [|split; reflexivity]. destruct (cut_dd _ _ _ C) as [q ->]. split; [apply starts_iff; exact S1|].
        destruct q; [vm_compute in S2; discriminate | cbn; lia].
      + intro H. destruct (fallback_cases _ _ _ H); discriminate.
    - destruct (Z.eq_dec c 104) as [-> | N1]; [intros _; left; exists s; reflexivity|]. destruct (Z.eq_dec c 111) as [-> | N2].
      + rewrite (single_flag digit 111 Output) by (right; split; reflexivity). discriminate.
      + rewrite single_other by assumption. intro H. destruct (fallback_cases _ _ _ H); discriminate.
  Qed.
  Lemma drop_words_In l x : In x (drop_words l) -> In x l.
  Proof. induction l as [|t l IH]; cbn [drop_words]; [intros [] |]. destruct (is_option t); [trivial|]. intro I. right. exact (IH I). Qed.
  Lemma take_input_In l v r x : take_input l = Some (v, r) -> In x r -> In x l.
  Proof.
    destruct l as [|[s []] [|[s' []] l]]; cbn [take_input]; try discriminate; intro E; injection E as <- <-; cbn; tauto.
  Qed.
  Lemma loop_exit fuel : forall inp out extra l c, loop late fuel inp out extra l = Exit c ->
    (c = 0 \/ c = 2) /\ (c = 0 -> exists s n e, In (s, O (Some Help) n e) l /\ (e = None \/ starts dashes n = false)).
  Proof.
    assert (T : forall c, Exit 2 = Exit c -> forall P : Prop, (c = 0 \/ c = 2) /\ (c = 0 -> P)) by (intros c E P; injection E as <-; split; [right; reflexivity | discriminate]).
    induction fuel as [|fuel IH]; intros inp out extra l c; cbn [loop]; [intro E; exact (T c E _)|].
    assert (W : forall inp out extra l', incl l' l -> loop late fuel inp out extra l' = Exit c -> (c = 0 \/ c = 2) /\ (c = 0 -> exists s n e, In (s, O (Some Help) n e) l /\ (e = None \/ starts dashes n = false))).
    { intros inp' out' extra' l' Hl E. destruct (IH _ _ _ _ _ E) as [H1 H2]. split; [exact H1|]. intro Z. destruct (H2 Z) as (s & n & e & I & J). exists s, n, e. split; [apply Hl; exact I | exact J]. }
    assert (Tl : forall x : str * tag, forall r, l = x :: r -> incl r l) by (intros x r -> y I; right; exact I).
    destruct (existsb is_option l).
    - assert (K : match inp, take_input l with None, Some (v, rest) => loop late fuel (Some v) out extra rest | _, _ => loop late fuel inp out true (drop_words l) end = Exit c ->
        (c = 0 \/ c = 2) /\ (c = 0 -> exists s n e, In (s, O (Some Help) n e) l /\ (e = None \/ starts dashes n = false))).
      { destruct inp as [x|]; [apply W; intros y; apply drop_words_In|]. destruct (take_input l) as [[v r]|] eqn:E; apply W; [intros y; eapply take_input_In; exact E | intros y; apply drop_words_In]. }
      destruct l as [|[s t] l]; [exact K|]. destruct t as [| |a n e]; [exact K | exact K |].
      destruct a as [[|]|]; [|destruct e as [e|]; [apply W; eapply Tl; reflexivity|]; destruct l as [|[v []] l]; try (intro E; exact (T c E _)); apply W; intros y I; right; right; exact I | apply W; eapply Tl; reflexivity].
      destruct e as [e|].
      + destruct (starts dashes n) eqn:D; [intro E; exact (T c E _)|]. intro E. injection E as <-. split; [apply flags_codes|]. intros _. exists s, n, (Some e). split; [left; reflexivity | right; exact D].
      + intro E. injection E as <-. split; [left; reflexivity|]. intros _. exists s, n, None. split; [left; reflexivity | left; reflexivity].
    - destruct inp as [x|]; [destruct extra, l; try discriminate; intro E; exact (T c E _)|]. destruct (take_input l) as [[v r]|]; [destruct extra, r; try discriminate; intro E; exact (T c E _) | intro E; exact (T c E _)].
  Qed.
  Lemma tag_In args : forall l s a n e, tag_all digit args = Some l -> In (s, O a n e) l -> In s args /\ classify digit s = Some (O a n e).
  Proof.
    induction args as [|x args IH]; intros l s a n e T I; [injection T as <-; destruct I|].
    destruct (tag_cons _ _ _ T) as [[-> ->] | (_ & t & l' & C & T' & ->)].
    - exfalso. destruct I as [E|I]; [discriminate|]. apply in_map_iff in I. destruct I as (y & E & _). discriminate.
    - destruct I as [E|I]; [injection E as -> ->; split; [left; reflexivity | exact C]|]. destruct (IH l' s a n e T' I) as [J C']. split; [right; exact J | exact C'].
  Qed.
  Lemma parse_exit args c : parse_args late digit args = Exit c -> (c = 0 \/ c = 2) /\ (c = 0 -> exists s, In s args /\ asks_help s).
  Proof.
    unfold parse_args. destruct (tag_all digit args) as [l|] eqn:T; [|intro E; injection E as <-; split; [right; reflexivity | discriminate]].
    intro E. destruct (loop_exit _ _ _ _ _ _ E) as [H1 H2]. split; [exact H1|]. intro Z. destruct (H2 Z) as (s & n & e & I & J). destruct (tag_In _ _ _ _ _ _ T I) as [K C]. exists s. split; [exact K|].
    destruct (classify_help _ _ _ C) as [B | (p & L & -> & ->)]; [left; exact B|]. destruct J as [-> | J]; [cbn [attach]; rewrite app_nil_r; right; exact L | vm_compute in J; discriminate].
  Qed.
End Line.

(** ** the run *)
From Verif Require Import LoadRst_spec LoadRst_proofs.
Section Run.
  Variable late : bool.
  Variable digit : Z -> bool.
  Variable pandoc : option (dict (list Z) fnode -> str -> res str).
  Variable can_open : dict (list Z) fnode -> str -> bool.
  Variables encodable printable : str -> bool.
  Lemma run_text st f s : (exists n, dget f st = Some n) -> source_text pandoc st f false s -> convert pandoc can_open encodable st (Some f) None None false = (st, Ok (Some ([10] ++ s))).
  Proof.
    intros D S. destruct (convert_text pandoc can_open encodable st f None false ([10] ++ s) D) as (r & -> & H). f_equal. apply H. exists s. split; [exact S | reflexivity].
  Qed.
  Lemma run_printed st args i s : parse_args late digit args = Parsed i None -> (exists n, dget i st = Some n) -> source_text pandoc st i false s ->
    printable ([10] ++ s ++ [10]) = true -> main late digit pandoc can_open encodable printable st args = (st, [10] ++ s ++ [10], Ended (Ok tt)).
  Proof. intros P D S E. unfold main. rewrite P. cbv zeta iota. rewrite (run_text st i s D S). cbn [app] in *. rewrite E. reflexivity. Qed.
  Lemma run_written st args i o s : parse_args late digit args = Parsed i (Some (Text o)) -> (exists n, dget i st = Some n) -> source_text pandoc st i false s ->
    can_open st o = true -> encodable ([10] ++ s ++ [10]) = true ->
    main late digit pandoc can_open encodable printable st args = (dset o (File (Ok ([10] ++ s ++ [10]))) st, [], Ended (Ok tt)).
  Proof. intros P [n D] S C E. unfold main. rewrite P. cbv zeta iota. rewrite (convert_writes pandoc can_open encodable st i o None false s n D S C E). reflexivity. Qed.
  Lemma run_dashes st args i s : parse_args late digit args = Parsed i (Some EmptyList) -> (exists n, dget i st = Some n) -> source_text pandoc st i false s ->
    main late digit pandoc can_open encodable printable st args = (st, [], Ended (Raise TypeError)).
  Proof. intros P D S. unfold main. rewrite P. cbv zeta iota. rewrite (run_text st i s D S). reflexivity. Qed.
End Run.

Lemma the_text late os o : late = true \/ o <> u "--" -> the_output late (os ++ [o]) = Some (Text o).
Proof. intro N. unfold the_output. rewrite rev_app_distr. cbn [rev app]. destruct late; [reflexivity|]. destruct N as [N|N]; [discriminate N|]. rewrite (eqb_neq _ _ N). reflexivity. Qed.
