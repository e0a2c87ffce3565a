(* Show_proofs.v *)
From Verif Require Import Base PyText PyFmt Maps_model Place_model Bilingual_model Radk_model Tanaka_proofs Show_model Show_spec.
From Coq Require Import Permutation Sorted.

Lemma run_eq {A} (P : A -> Prop) : forall l l' c d x y, Forall P l -> Forall P l' -> ~ P c -> ~ P d -> l ++ c :: x = l' ++ d :: y -> l = l' /\ c = d /\ x = y.
Proof.
  induction l as [|a l IH]; intros [|b l'] c d x y F F' N N' E; cbn [app] in E; injection E as E1 E2.
  - auto.
  - subst b; inversion F'; contradiction.
  - subst a; inversion F; contradiction.
  - inversion F; inversion F'; subst; apply IH in E2; try assumption; destruct E2 as [-> [-> ->]]; auto.
Qed.
Definition numeral_char (c : Z) : Prop := digit_char c \/ c = 45.
Lemma numeral_end a b c d n m : ~ numeral_char c -> ~ numeral_char d -> a ++ c :: dec n = b ++ d :: dec m -> a = b /\ c = d /\ n = m.
Proof.
  intros N N' E; apply (f_equal (@rev Z)) in E; rewrite !rev_app_distr in E; cbn [rev] in E; rewrite <- !app_assoc in E; cbn [app] in E.
  apply (run_eq numeral_char) in E; try assumption; [|apply Forall_rev, dec_chars|apply Forall_rev, dec_chars].
  destruct E as [E1 [E2 E3]]; apply (f_equal (@rev Z)) in E1, E3; rewrite !rev_involutive in E1, E3; apply dec_inj in E1; auto.
Qed.
Ltac not_numeral := intros [X|X]; [unfold digit_char in X; lia|discriminate].
Lemma shown_count pre post a b mid n m : (exists t c, mid = t ++ [c] /\ ~ numeral_char c) ->
  pre ++ a ++ mid ++ dec n ++ post = pre ++ b ++ mid ++ dec m ++ post -> a = b /\ n = m.
Proof.
  intros [t [c [-> N]]] E; apply app_inv_head in E; rewrite !app_assoc in E; apply app_inv_tail in E; rewrite <- !app_assoc in E; cbn [app] in E.
  rewrite !app_assoc in E; apply numeral_end in E; try assumption; destruct E as [E [_ ->]]; apply app_inv_tail in E; auto.
Qed.

Lemma place_str_inj p q : ~ In 32 (label p) -> ~ In 32 (label q) ->
  (forall r, reading p = Some r -> ~ In 32 r) -> (forall r, reading q = Some r -> ~ In 32 r) ->
  place_str p = place_str q -> label p = label q /\ shown_reading (reading p) = shown_reading (reading q) /\ length (kids p) = length (kids q).
Proof.
  intros Lp Lq Rp Rq E; unfold place_str in E; apply app_inv_head in E.
  assert (F : forall l, ~ In 32 l -> Forall (fun c => c <> 32) l) by (intros l N; apply Forall_forall; intros c I ->; auto).
  set (s := fun r : option str => match r with Some (c :: r) => u " /" ++ (c :: r) ++ u "/" | _ => [] end) in *.
  change (match reading p with Some (c :: r) => u " /" ++ (c :: r) ++ u "/" | _ => [] end) with (s (reading p)) in E.
  change (match reading q with Some (c :: r) => u " /" ++ (c :: r) ++ u "/" | _ => [] end) with (s (reading q)) in E.
  assert (S_ : forall r, (forall t, r = Some t -> ~ In 32 t) -> (s r = [] /\ shown_reading r = None) \/
     exists t, shown_reading r = Some t /\ s r = 32 :: 47 :: t ++ [47] /\ Forall (fun c => c <> 32) (47 :: t ++ [47])).
  { intros [[|c t]|] R; [left; auto|right|left; auto]; exists (c :: t); split; [reflexivity|split; [reflexivity|]].
    constructor; [discriminate|]; apply Forall_app; split; [apply F, R; reflexivity|constructor; [discriminate|constructor]]. }
  destruct (dec_chars (Z.of_nat (length (kids p)))) as [Dp Np], (dec_chars (Z.of_nat (length (kids q)))) as [Dq Nq].
  assert (H : forall l, Forall (fun c => digit_char c \/ c = 45) l -> forall y z, l <> [] -> l ++ y = 47 :: z -> False).
  { intros [|c l] D y z N E'; [contradiction|]; injection E' as -> _; inversion D as [|? ? [Y|Y] _]; [unfold digit_char in Y; lia|discriminate]. }
  destruct (S_ (reading p) Rp) as [[Sp Hp]|[t [Hp [Sp Tp]]]], (S_ (reading q) Rq) as [[Sq Hq]|[t' [Hq [Sq Tq]]]]; rewrite Sp, Sq in E; rewrite Hp, Hq.
  - apply (run_eq (fun c => c <> 32)) in E; [|apply F, Lp|apply F, Lq|tauto|tauto]; destruct E as [-> [_ E]].
    apply app_inv_tail, dec_inj in E; repeat split; lia.
  - exfalso; apply (run_eq (fun c => c <> 32)) in E; [|apply F, Lp|apply F, Lq|tauto|tauto]; destruct E as [_ [_ E]].
    cbn [app] in E; exact (H _ Dp _ _ Np E).
  - exfalso; symmetry in E; apply (run_eq (fun c => c <> 32)) in E; [|apply F, Lq|apply F, Lp|tauto|tauto]; destruct E as [_ [_ E]].
    cbn [app] in E; exact (H _ Dq _ _ Nq E).
  - apply (run_eq (fun c => c <> 32)) in E; [|apply F, Lp|apply F, Lq|tauto|tauto]; destruct E as [-> [_ E]].
    change ((47 :: t ++ [47]) ++ 32 :: dec (Z.of_nat (length (kids p))) ++ u " children>" = (47 :: t' ++ [47]) ++ 32 :: dec (Z.of_nat (length (kids q))) ++ u " children>") in E.
    apply (run_eq (fun c => c <> 32)) in E; [|assumption|assumption|tauto|tauto]; destruct E as [E1 [_ E]].
    injection E1 as E1; apply app_inv_tail in E1; apply app_inv_tail, dec_inj in E; subst; repeat split; lia.
Qed.
Lemma entry_str_inj h e h' e' : entry_str h e = entry_str h' e' ->
  word (entry_at h e) = word (entry_at h' e') /\
  length (set_of (list_at h (readings (entry_at h e)))) = length (set_of (list_at h' (readings (entry_at h' e')))) /\
  length (list_at h (senses (entry_at h e))) = length (list_at h' (senses (entry_at h' e'))).
Proof.
  unfold entry_str; intros E; apply app_inv_head in E; rewrite !app_assoc in E; apply app_inv_tail in E.
  rewrite <- !(app_assoc _ (u " readings, ")) in E.
  change (u " readings, ") with (u " readings," ++ [32]) in E; rewrite !app_assoc in E.
  rewrite <- (app_assoc _ [32]) in E; rewrite <- (app_assoc _ [32] (dec (Z.of_nat (length (list_at h' _))))) in E; cbn [app] in E.
  apply numeral_end in E; [|not_numeral|not_numeral]; destruct E as [E [_ E3]].
  apply app_inv_tail in E; change (u " (") with ([32] ++ [40]) in E; rewrite !app_assoc in E.
  rewrite <- (app_assoc _ [40]) in E; rewrite <- (app_assoc _ [40] (dec (Z.of_nat (length (set_of (list_at h' _)))))) in E; cbn [app] in E.
  apply numeral_end in E; [|not_numeral|not_numeral]; destruct E as [E [_ E2]]; apply app_inv_tail in E.
  split; [exact E|split; lia].
Qed.

(** sorting *)
Lemma str_leb_iff a : forall b, str_leb a b = true <-> str_le a b.
Proof.
  induction a as [|x a IH]; intros [|y b]; cbn [str_leb str_le]; [tauto|tauto|split; [discriminate|tauto]|].
  destruct (Z.ltb_spec x y); [split; auto|]; destruct (Z.ltb_spec y x); [split; [discriminate|lia]|].
  rewrite IH; split; [intros L; right; split; [lia|exact L]|intros [L|[_ L]]; [lia|exact L]].
Qed.
Lemma str_le_total a : forall b, str_le a b \/ str_le b a.
Proof.
  induction a as [|x a IH]; intros [|y b]; cbn [str_le]; auto.
  destruct (Z.lt_trichotomy x y) as [L|[->|L]]; [auto| |auto]; destruct (IH b); auto.
Qed.
Lemma str_le_trans a : forall b c, str_le a b -> str_le b c -> str_le a c.
Proof.
  induction a as [|x a IH]; intros [|y b] [|z c]; cbn [str_le]; try tauto.
  intros [L|[-> L]] [M|[-> M]]; [left; lia|left; lia|left; lia|right; split; [reflexivity|eapply IH; eassumption]].
Qed.
Lemma insert_perm w l : Permutation (insert_str w l) (w :: l).
Proof.
  induction l as [|x l IH]; [apply Permutation_refl|]; cbn [insert_str]; destruct (str_leb w x); [apply Permutation_refl|].
  etransitivity; [apply perm_skip, IH|apply perm_swap].
Qed.
Lemma insert_sorted w l : StronglySorted str_le l -> StronglySorted str_le (insert_str w l).
Proof.
  induction 1 as [|x l S IH F]; cbn [insert_str]; [repeat constructor|].
  destruct (str_leb w x) eqn:E.
  - apply str_leb_iff in E; constructor; [constructor; assumption|]; constructor; [exact E|].
    eapply Forall_impl; [|exact F]; intros y; apply str_le_trans, E.
  - constructor; [exact IH|]; assert (L : str_le x w) by (destruct (str_le_total x w) as [L|L]; [exact L|apply str_leb_iff in L; congruence]).
    eapply Permutation_Forall; [apply Permutation_sym, insert_perm|]; constructor; assumption.
Qed.
Lemma sorted_str_perm l : Permutation (sorted_str l) l.
Proof. induction l as [|x l IH]; [apply Permutation_refl|]; cbn [sorted_str fold_right]; etransitivity; [apply insert_perm|apply perm_skip, IH]. Qed.
Lemma sorted_str_sorted l : StronglySorted str_le (sorted_str l).
Proof. induction l as [|x l IH]; [constructor|apply insert_sorted, IH]. Qed.

Lemma mapM_some (l : list (option (list Z))) rs : mapM (fun r => of_option TypeError r) l = Ok rs <-> l = map Some rs.
Proof.
  revert rs; induction l as [|x l IH]; intros rs; cbn [mapM].
  - split; [intros E; injection E as <-; reflexivity|]; destruct rs; [reflexivity|discriminate].
  - destruct x as [x|]; cbn [of_option bind].
    + destruct (mapM _ l) as [ys|e] eqn:M; cbn [bind].
      * split; [intros E; injection E as <-; cbn [map]; f_equal; apply IH; reflexivity|].
        destruct rs as [|r rs]; [discriminate|]; cbn [map]; intros E; injection E as -> E; apply IH in E; congruence.
      * split; [discriminate|]; destruct rs as [|r rs]; [discriminate|]; cbn [map]; intros E; injection E as -> E; apply IH in E; discriminate.
    + split; [discriminate|]; destruct rs; discriminate.
Qed.
Lemma radicals_line_ok d k line : radicals_line d k = Ok line -> radicals_printed d k line.
Proof.
  unfold radicals_line, dgetitem; destruct k as [|c [|]]; try discriminate; destruct (dget c (items d)) as [rs|] eqn:G; cbn [of_option bind]; [|discriminate].
  destruct (mapM _ rs) as [xs|e] eqn:M; cbn [bind]; [|discriminate]; intros E; injection E as <-; apply mapM_some in M; subst rs.
  exists c, xs, (sorted_str xs); repeat split; [exact G|apply Permutation_sym, sorted_str_perm|apply sorted_str_sorted].
Qed.
Lemma radicals_line_fails d k e : radicals_line d k = Raise e <->
  (e = KeyError /\ forall c, k = [c] -> dget c (items d) = None) \/ (e = TypeError /\ exists c rs, k = [c] /\ dget c (items d) = Some rs /\ In None rs).
Proof.
  unfold radicals_line, dgetitem; destruct k as [|c [|c2 k]].
  - split; [intros E; injection E as <-; left; split; [reflexivity|discriminate]|intros [[-> _]|[_ [c [rs [X _]]]]]; [reflexivity|discriminate]].
  - destruct (dget c (items d)) as [rs|] eqn:G; cbn [of_option bind].
    + assert (T : forall l e, mapM (fun r : option (list Z) => of_option TypeError r) l = Raise e -> e = TypeError /\ In None l).
      { induction l as [|[x|] l IH]; intros e'; cbn [mapM of_option bind]; [discriminate| |].
        - destruct (mapM _ l) eqn:M; cbn [bind]; [discriminate|]; intros E; injection E as ->; destruct (IH _ eq_refl) as [-> I]; split; [reflexivity|right; exact I].
        - intros E; injection E as <-; split; [reflexivity|left; reflexivity]. }
      destruct (mapM _ rs) as [xs|e'] eqn:M; cbn [bind].
      * split; [discriminate|]; intros [[_ H]|[_ [c' [rs' [X [Y I]]]]]]; [specialize (H c eq_refl); congruence|].
        injection X as <-; assert (rs' = rs) by congruence; subst rs'; apply mapM_some in M; subst rs; apply in_map_iff in I; destruct I as [? [? _]]; discriminate.
      * destruct (T _ _ M) as [-> I]; split; [intros E; injection E as <-; right; eauto 6|].
        intros [[_ H]|[-> _]]; [specialize (H c eq_refl); congruence|reflexivity].
    + split; [intros E; injection E as <-; left; split; [reflexivity|intros c' X; injection X as <-; exact G]|].
      intros [[-> _]|[_ [c' [rs [X [Y _]]]]]]; [reflexivity|]; injection X as <-; congruence.
  - split; [intros E; injection E as <-; left; split; [reflexivity|discriminate]|intros [[-> _]|[_ [c' [rs [X _]]]]]; [reflexivity|discriminate]].
Qed.
Lemma print_each_spec d ks : forall ls o, print_each d ks = (ls, o) ->
  exists done rest, ks = done ++ rest /\ Forall2 (fun k l => radicals_line d k = Ok l) done ls /\
    match o with Ok _ => rest = [] | Raise e => exists k r, rest = k :: r /\ radicals_line d k = Raise e end.
Proof.
  induction ks as [|k ks IH]; intros ls o; cbn [print_each].
  - intros E; injection E as <- <-; exists [], []; repeat split; constructor.
  - destruct (radicals_line d k) as [l|e] eqn:L.
    + destruct (print_each d ks) as [ls' o'] eqn:P; intros E; injection E as <- <-; destruct (IH _ _ eq_refl) as [a [b [-> [F M]]]].
      exists (k :: a), b; split; [reflexivity|split; [constructor; assumption|exact M]].
    + intros E; injection E as <- <-; exists [], (k :: ks); split; [reflexivity|split; [constructor|eauto]].
Qed.
