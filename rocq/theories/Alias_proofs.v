(* Alias_proofs.v *)
From Verif Require Import Base SmartCache_model SmartCache_spec SmartCache_proofs Alias_model Alias_spec Threads_proofs.

Lemma nth_change {V} (f : V -> V) : forall heap a b, nth_error (change f heap a) b =
  if Nat.eqb b a then option_map f (nth_error heap b) else nth_error heap b.
Proof.
  induction heap as [|v heap IH]; intros [|a] [|b]; cbn; try reflexivity; [|apply IH].
  destruct (Nat.eqb b a); reflexivity.
Qed.
Lemma length_change {V} (f : V -> V) : forall heap a, length (change f heap a) = length heap.
Proof. induction heap as [|v heap IH]; intros [|a]; cbn; try reflexivity; rewrite IH; reflexivity. Qed.

Section Alias.
  Context {O V : Type}.
  Variable oeq : O -> O -> bool.
  Variable hashable : O -> bool.
  Notation key := (list O * list (str * O))%type.
  Variable build : key -> res V.
  Hypothesis eqv : equivalence oeq.
  Hypothesis bok : forall k k', key_eq oeq k k' = true -> build k = build k'.
  Notation keq := (key_eq oeq).
  Notation mget := (mget oeq).
  Notation hk := (key_hashable hashable).
  Let keqv : equivalence keq := key_eq_equiv oeq eqv.

  Definition holds (heap : list V) (d : list (key * nat)) (k : key) : option V :=
    match mget k d with Some a => nth_error heap a | None => None end.

  Record ainv (heap : list V) (d : list (key * nat)) (given : list (res nat)) (calls : list key) (now : key -> option V) : Prop := {
    ai_len : length given = length calls;
    ai_lt : forall k a, mget k d = Some a -> (a < length heap)%nat;
    ai_inj : forall k k' a, mget k d = Some a -> mget k' d = Some a -> keq k k' = true;
    ai_now : forall k, now k = holds heap d k;
    ai_ok : forall n k a, nth_error calls n = Some k -> nth_error given n = Some (Ok a) -> hk k = true /\ mget k d = Some a;
    ai_bad : forall n k e, nth_error calls n = Some k -> nth_error given n = Some (Raise e) -> hk k = false \/ exists x, build k = Raise x;
    ai_built : forall k a, mget k d = Some a -> exists v, build k = Ok v
  }.

  Lemma mget_same k k' (d : list (key * nat)) : keq k k' = true -> mget k d = mget k' d.
  Proof. apply (mget_eq oeq eqv). Qed.

  Lemma mget_snoc q k a (d : list (key * nat)) : mget q (d ++ [(k, a)]) = match mget q d with Some x => Some x | None => if keq q k then Some a else None end.
  Proof. induction d as [|[k' x] d IH]; cbn [app SmartCache_model.mget]; [reflexivity|]; destruct (keq q k'); [reflexivity|exact IH]. Qed.

  Lemma nth_snoc {A} (l : list A) x n y : nth_error (l ++ [x]) n = Some y -> nth_error l n = Some y \/ (n = length l /\ y = x).
  Proof.
    intros E; destruct (Nat.lt_ge_cases n (length l)) as [L|L]; [left; rewrite nth_error_app1 in E by exact L; exact E|].
    right; rewrite nth_error_app2 in E by exact L; destruct (n - length l)%nat as [|m] eqn:M; cbn in E; [|destruct m; discriminate].
    injection E as <-; split; [lia|reflexivity].
  Qed.

  Lemma share_ok h : forall heap d given calls now, ainv heap d given calls now ->
    share oeq hashable build heap d given h = one_each oeq hashable build now calls h.
  Proof.
    induction h as [|[k|n f] h IH]; intros heap d given calls now A; cbn [share one_each]; [reflexivity| |].
    - unfold memory_call; destruct (hk k) eqn:H.
      + destruct (mget k d) as [a|] eqn:G.
        * assert (N : exists v, nth_error heap a = Some v /\ now k = Some v).
          { pose proof (ai_lt _ _ _ _ _ A k a G) as L; apply nth_error_Some in L; destruct (nth_error heap a) as [v|] eqn:E; [|contradiction].
            exists v; split; [reflexivity|]; rewrite (ai_now _ _ _ _ _ A); unfold holds; rewrite G; exact E. }
          destruct N as [v [Nv Nk]]; rewrite Nv; unfold built at 1; rewrite Nk; cbn [of_option]; f_equal; apply IH.
          destruct A as [A1 A2 A3 A4 A5 A6 A7]; split; try assumption.
          -- rewrite !app_length, A1; reflexivity.
          -- intros q; unfold built; rewrite A4; destruct (holds heap d q) as [w|] eqn:Q; [reflexivity|].
             rewrite H; cbn [andb]; destruct (keq q k) eqn:K; [|reflexivity].
             unfold holds in Q; rewrite (mget_same _ _ _ K), G in Q; congruence.
          -- intros m q b C Gv; apply nth_snoc in C; apply nth_snoc in Gv.
             destruct C as [C|[-> ->]], Gv as [Gv|[E1 E2]].
             ++ exact (A5 _ _ _ C Gv).
             ++ subst m; rewrite A1 in C; assert (nth_error calls (length calls) = None) by (apply nth_error_None; lia); congruence.
             ++ assert (nth_error given (length calls) = None) by (apply nth_error_None; lia); congruence.
             ++ injection E2 as ->; split; assumption.
          -- intros m q e C Gv; apply nth_snoc in C; apply nth_snoc in Gv.
             destruct C as [C|[-> ->]], Gv as [Gv|[E1 E2]]; try discriminate.
             ++ exact (A6 _ _ _ C Gv).
             ++ assert (nth_error given (length calls) = None) by (apply nth_error_None; lia); congruence.
        * unfold building; pose proof (ai_now _ _ _ _ _ A k) as Nk; unfold holds in Nk; rewrite G in Nk.
          destruct (build k) as [v|e] eqn:B.
          -- rewrite nth_error_app2, Nat.sub_diag by lia; cbn [nth_error of_option].
             unfold built at 1; rewrite Nk, H, (e_refl _ keqv), B; cbn [andb]; f_equal; apply IH.
             destruct A as [A1 A2 A3 A4 A5 A6 A7]; split.
             ++ rewrite !app_length, A1; reflexivity.
             ++ intros q a; rewrite mget_snoc, app_length; cbn [length]; destruct (mget q d) as [x|] eqn:Q.
                ** intros E; injection E as <-; pose proof (A2 _ _ Q); lia.
                ** destruct (keq q k); [|discriminate]; intros E; injection E as <-; lia.
             ++ intros q q' a; rewrite !mget_snoc; destruct (mget q d) as [x|] eqn:Q, (mget q' d) as [x'|] eqn:Q'.
                ** intros E E'; injection E as <-; injection E' as ->; exact (A3 _ _ _ Q Q').
                ** destruct (keq q' k); [|discriminate]; intros E E'; injection E as ->; injection E' as <-; pose proof (A2 _ _ Q); lia.
                ** destruct (keq q k); [|discriminate]; intros E E'; injection E as <-; injection E' as ->; pose proof (A2 _ _ Q'); lia.
                ** destruct (keq q k) eqn:K; [|discriminate]; destruct (keq q' k) eqn:K'; [|discriminate]; intros _ _.
                   exact (e_trans _ keqv _ _ _ K (e_sym _ keqv _ _ K')).
             ++ intros q; unfold built; rewrite A4; unfold holds; rewrite mget_snoc; destruct (mget q d) as [x|] eqn:Q.
                ** pose proof (A2 _ _ Q) as L; rewrite nth_error_app1 by exact L.
                   apply nth_error_Some in L; destruct (nth_error heap x); [reflexivity|contradiction].
                ** rewrite H; cbn [andb]; destruct (keq q k); [|reflexivity].
                   rewrite B, nth_error_app2, Nat.sub_diag by lia; reflexivity.
             ++ intros m q b C Gv; apply nth_snoc in C; apply nth_snoc in Gv.
                destruct C as [C|[-> ->]], Gv as [Gv|[E1 E2]].
                ** destruct (A5 _ _ _ C Gv) as [X1 X2]; split; [exact X1|rewrite mget_snoc, X2; reflexivity].
                ** subst m; rewrite A1 in C; assert (nth_error calls (length calls) = None) by (apply nth_error_None; lia); congruence.
                ** assert (nth_error given (length calls) = None) by (apply nth_error_None; lia); congruence.
                ** injection E2 as ->; split; [exact H|rewrite mget_snoc, G, (e_refl _ keqv); reflexivity].
             ++ intros m q e C Gv; apply nth_snoc in C; apply nth_snoc in Gv.
                destruct C as [C|[-> ->]], Gv as [Gv|[E1 E2]]; try discriminate.
                ** exact (A6 _ _ _ C Gv).
                ** assert (nth_error given (length calls) = None) by (apply nth_error_None; lia); congruence.
             ++ intros q a; rewrite mget_snoc; destruct (mget q d) as [x|] eqn:Q; [intros _; exact (A7 _ _ Q)|].
                destruct (keq q k) eqn:K; [|discriminate]; intros _; exists v; rewrite (bok _ _ K); exact B.
          -- unfold built at 1; rewrite Nk, H, (e_refl _ keqv), B; cbn [andb]; f_equal; apply IH.
             destruct A as [A1 A2 A3 A4 A5 A6 A7]; split; try assumption.
             ++ rewrite !app_length, A1; reflexivity.
             ++ intros q; unfold built; rewrite A4, B; destruct (holds heap d q); [reflexivity|].
                destruct (hk k && keq q k); reflexivity.
             ++ intros m q b C Gv; apply nth_snoc in C; apply nth_snoc in Gv.
                destruct C as [C|[-> ->]], Gv as [Gv|[E1 E2]]; try discriminate.
                ** exact (A5 _ _ _ C Gv).
                ** assert (nth_error given (length calls) = None) by (apply nth_error_None; lia); congruence.
             ++ intros m q x C Gv; apply nth_snoc in C; apply nth_snoc in Gv.
                destruct C as [C|[-> ->]], Gv as [Gv|[E1 E2]].
                ** exact (A6 _ _ _ C Gv).
                ** subst m; rewrite A1 in C; assert (nth_error calls (length calls) = None) by (apply nth_error_None; lia); congruence.
                ** assert (nth_error given (length calls) = None) by (apply nth_error_None; lia); congruence.
                ** right; exists e; exact B.
      + f_equal; apply IH; destruct A as [A1 A2 A3 A4 A5 A6 A7]; split; try assumption.
        * rewrite !app_length, A1; reflexivity.
        * intros q; unfold built; rewrite A4, H; destruct (holds heap d q); reflexivity.
        * intros m q b C Gv; apply nth_snoc in C; apply nth_snoc in Gv.
          destruct C as [C|[-> ->]], Gv as [Gv|[E1 E2]]; try discriminate.
          -- exact (A5 _ _ _ C Gv).
          -- assert (nth_error given (length calls) = None) by (apply nth_error_None; lia); congruence.
        * intros m q x C Gv; apply nth_snoc in C; apply nth_snoc in Gv.
          destruct C as [C|[-> ->]], Gv as [Gv|[E1 E2]].
          -- exact (A6 _ _ _ C Gv).
          -- subst m; rewrite A1 in C; assert (nth_error calls (length calls) = None) by (apply nth_error_None; lia); congruence.
          -- assert (nth_error given (length calls) = None) by (apply nth_error_None; lia); congruence.
          -- left; exact H.
    - destruct (nth_error given n) as [[a|e]|] eqn:Gn.
      + assert (C : exists k, nth_error calls n = Some k).
        { destruct (nth_error calls n) as [k|] eqn:C; [exists k; reflexivity|]; apply nth_error_None in C.
          rewrite <- (ai_len _ _ _ _ _ A) in C; apply nth_error_None in C; congruence. }
        destruct C as [k C]; rewrite C; apply IH.
        destruct (ai_ok _ _ _ _ _ A n k a C Gn) as [H G]; destruct A as [A1 A2 A3 A4 A5 A6 A7]; split; try assumption.
        * intros q b Q; rewrite length_change; exact (A2 _ _ Q).
        * intros q; unfold changed; rewrite H, A4; cbn [andb]; unfold holds; destruct (keq q k) eqn:K.
          -- rewrite (mget_same _ _ _ K), G, nth_change, Nat.eqb_refl; reflexivity.
          -- destruct (mget q d) as [b|] eqn:Q; [|reflexivity]; rewrite nth_change.
             destruct (Nat.eqb_spec b a) as [->|N]; [|reflexivity]; rewrite (A3 _ _ _ Q G) in K; discriminate.
      + destruct (nth_error calls n) as [k|] eqn:C; [|apply IH, A]; apply IH.
        destruct A as [A1 A2 A3 A4 A5 A6 A7]; split; try assumption.
        intros q; unfold changed; rewrite A4; destruct (hk k && keq q k) eqn:K; [|reflexivity]; apply andb_true_iff in K; destruct K as [H K].
        destruct (A6 _ _ _ C Gn) as [X|[x X]]; [congruence|]; unfold holds; destruct (mget q d) as [b|] eqn:Q; [|reflexivity].
        destruct (A7 _ _ Q) as [v Bv]; rewrite (bok _ _ K) in Bv; congruence.
      + assert (C : nth_error calls n = None) by (apply nth_error_None; rewrite <- (ai_len _ _ _ _ _ A); apply nth_error_None; exact Gn).
        rewrite C; apply IH, A.
  Qed.

  Theorem shared_one_each h : shared oeq hashable build h = one_each oeq hashable build (fun _ => None) [] h.
  Proof.
    apply share_ok; split; try reflexivity; try (intros; discriminate).
    - intros [|n] k a E; discriminate.
    - intros [|n] k a E; discriminate.
  Qed.

  (* nobody changes anything *)
  Lemma one_each_calls ks : forall now calls, (forall k v, now k = Some v -> build k = Ok v) ->
    one_each oeq hashable build now calls (map (fun k => Call k) ks) = map (fun k => if hk k then build k else Raise TypeError) ks.
  Proof.
    induction ks as [|k ks IH]; intros now calls N; cbn [map one_each]; [reflexivity|]; f_equal.
    - destruct (hk k) eqn:H; [|reflexivity]; unfold built; rewrite H, (e_refl _ keqv); cbn [andb].
      destruct (now k) as [v|] eqn:E; [symmetry; exact (N _ _ E)|]; destruct (build k) as [v|e]; reflexivity.
    - apply IH; intros q v; unfold built; destruct (now q) as [w|] eqn:E; [intros X; injection X as <-; exact (N _ _ E)|].
      destruct (hk k && keq q k) eqn:K; [|discriminate]; apply andb_true_iff in K; destruct K as [_ K].
      destruct (build k) as [w|e] eqn:B; [|discriminate]; intros X; injection X as <-; rewrite (bok _ _ K); exact B.
  Qed.
End Alias.

Lemma keyword_order {O} (oeq : O -> O -> bool) (x y : str) a b (args : list O) : x <> y ->
  key_eq oeq (args, [(x, a); (y, b)]) (args, [(y, b); (x, a)]) = false.
Proof.
  intros N; unfold key_eq, items_eq; cbn [fst snd list_eqb]; rewrite (eqb_neq _ _ N); cbn [andb]; apply andb_false_r.
Qed.
