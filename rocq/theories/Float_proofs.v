(* Float_proofs.v *)
From Verif Require Import Base PyText PyFmt Rose Maps_model Tree_model Tree_spec Layout_spec Float_model Float_spec.
Local Open Scope Z_scope.

Lemma rne_half n d : 0 < d -> 2 * Z.abs (rne n d * d - n) <= d.
Proof.
  intro D. unfold rne. pose proof (Z.div_mod n d ltac:(lia)) as E. pose proof (Z.mod_pos_bound n d D) as B.
  set (q := n / d) in *. set (r := n mod d) in *.
  destruct (Z.ltb_spec (2 * r) d); [|destruct (Z.ltb_spec d (2 * r)); [|destruct (Z.even q)]];
  match goal with |- 2 * Z.abs ?x <= _ => assert (x = - r \/ x = d - r) by nia; lia end.
Qed.
Lemma rne_tie n d : 0 < d -> 2 * Z.abs (rne n d * d - n) = d -> Z.even (rne n d) = true.
Proof.
  intros D. unfold rne. pose proof (Z.div_mod n d ltac:(lia)) as E. pose proof (Z.mod_pos_bound n d D) as B.
  set (q := n / d) in *. set (r := n mod d) in *.
  destruct (Z.ltb_spec (2 * r) d).
  { replace (q * d - n) with (- r) by nia. lia. }
  destruct (Z.ltb_spec d (2 * r)).
  { replace ((q + 1) * d - n) with (d - r) by nia. lia. }
  destruct (Z.even q) eqn:V; [intros; exact V|]. intros _. rewrite Z.even_add, V. reflexivity.
Qed.
Lemma rne_best n d j : 0 < d -> Z.abs (rne n d * d - n) <= Z.abs (j * d - n).
Proof.
  intro D. pose proof (rne_half n d D) as H.
  destruct (Z.eq_dec j (rne n d)) as [->|N]; [lia|].
  assert (j * d - n = (rne n d * d - n) + (j - rne n d) * d) by ring.
  assert (j - rne n d <= -1 \/ 1 <= j - rne n d) as [L|L] by lia; nia.
Qed.
Lemma rne_nonneg n d : 0 <= n -> 0 < d -> 0 <= rne n d.
Proof. intros N D. pose proof (rne_half n d D) as H. destruct (Z.neg_nonneg_cases (rne n d)); [nia|assumption]. Qed.
Lemma rne_exact n d k : 0 < d -> n = k * d -> rne n d = k.
Proof. intros D ->. pose proof (rne_half (k * d) d D) as H. assert (rne (k * d) d - k = 0); [|lia]. nia. Qed.
Lemma rne_mono n d n' d' : 0 < d -> 0 < d' -> n * d' <= n' * d -> rne n d <= rne n' d'.
Proof.
  intros D D' L. destruct (Z.le_gt_cases (rne n d) (rne n' d')) as [|G]; [assumption|exfalso].
  pose proof (rne_half n d D) as H. pose proof (rne_half n' d' D') as H'.
  pose proof (rne_tie n d D) as T. pose proof (rne_tie n' d' D') as T'.
  set (k := rne n d) in *. set (k' := rne n' d') in *.
  assert (A : 2 * (k * d - n) <= d) by lia.
  assert (A' : 2 * (n' - k' * d') <= d') by lia.
  assert (P : (2 * k - 1) * d * d' <= 2 * n * d') by nia.
  assert (P' : 2 * n' * d <= (2 * k' + 1) * d' * d) by nia.
  assert (Q : (2 * k - 1) * (d * d') <= (2 * k' + 1) * (d * d')) by nia.
  assert (0 < d * d') by nia.
  assert (K : k = k' + 1) by nia.
  assert (X : 2 * (k * d - n) = d) by nia.
  assert (X' : 2 * (n' - k' * d') = d') by nia.
  specialize (T ltac:(lia)). specialize (T' ltac:(lia)). rewrite K, Z.even_add, T' in T. discriminate T.
Qed.

Lemma up_pos e : 0 < up e. Proof. apply Z.pow_pos_nonneg; lia. Qed.
Lemma down_pos e : 0 < down e. Proof. apply Z.pow_pos_nonneg; lia. Qed.
Lemma up_down e f : e <= f -> up e * down f = 2 ^ (f - e) * (up f * down e).
Proof.
  intro L. unfold up, down. rewrite <- !Z.pow_add_r by lia. f_equal. lia.
Qed.

(** before the choice of the exponent the quotient lies between 2^51 and 2^53 *)
Lemma rough n d : 0 < n -> 0 < d -> let e := Z.log2 n - Z.log2 d - 52 in
  2 ^ 51 * (d * down e) < n * up e < 2 ^ 53 * (d * down e).
Proof.
  intros N D e. pose proof (Z.log2_spec n N) as [N1 N2]. pose proof (Z.log2_spec d D) as [D1 D2].
  pose proof (Z.log2_nonneg n) as N0. pose proof (Z.log2_nonneg d) as D0.
  set (ln := Z.log2 n) in *. set (ld := Z.log2 d) in *.
  pose proof (up_pos e) as UP. pose proof (down_pos e) as DP.
  assert (A : 2 ^ 51 * (2 ^ (ld + 1) * down e) = 2 ^ ln * up e).
  { unfold up, down, e. rewrite <- !Z.pow_add_r by lia. f_equal. lia. }
  assert (B : 2 ^ 53 * (2 ^ ld * down e) = 2 ^ (ln + 1) * up e).
  { unfold up, down, e. rewrite <- !Z.pow_add_r by lia. f_equal. lia. }
  rewrite <- Z.add_1_r in N2, D2.
  split.
  - apply Z.lt_le_trans with (2 ^ 51 * (2 ^ (ld + 1) * down e)); [|rewrite A; nia].
    apply Z.mul_lt_mono_pos_l; [lia|]. nia.
  - apply Z.lt_le_trans with (2 ^ (ln + 1) * up e); [nia|]. rewrite <- B.
    apply Z.mul_le_mono_nonneg_l; [lia|]. nia.
Qed.
(** the exponent chosen *)
Lemma exponent_ok n d : 0 < n -> 0 < d -> let e := exponent n d in
  -1074 <= e /\ n * up e < 2 ^ 53 * (d * down e) /\ (2 ^ 52 * (d * down e) <= n * up e \/ e = -1074).
Proof.
  intros N D. pose proof (rough n d N D) as [R1 R2]. unfold exponent. cbv zeta in *.
  set (e := Z.log2 n - Z.log2 d - 52) in *.
  set (f := if n * up e <? 2 ^ 52 * (d * down e) then e - 1 else e).
  assert (F : n * up f < 2 ^ 53 * (d * down f) /\ 2 ^ 52 * (d * down f) <= n * up f).
  { unfold f. destruct (Z.ltb_spec (n * up e) (2 ^ 52 * (d * down e))) as [L|L]; [|split; assumption].
    pose proof (up_down (e - 1) e ltac:(lia)) as UD. replace (e - (e - 1)) with 1 in UD by lia.
    pose proof (up_pos e). pose proof (up_pos (e - 1)). pose proof (down_pos e). pose proof (down_pos (e - 1)).
    change (2 ^ 1) with 2 in UD. change (2 ^ 53) with (2 * 2 ^ 52). change (2 ^ 52) with (2 * 2 ^ 51) in *.
    set (c := 2 ^ 51) in *. assert (0 < c) by (unfold c; lia). clearbody c.
    set (U := up e) in *. set (V := down e) in *. set (U' := up (e - 1)) in *. set (V' := down (e - 1)) in *. clearbody U V U' V'.
    split.
    - apply (Z.mul_lt_mono_pos_r V); [assumption|].
      replace (n * U' * V) with (n * U * (2 * V')) by (transitivity (n * (U' * V)); [rewrite UD|]; ring).
      replace (2 * (2 * c) * (d * V') * V) with (2 * c * (d * V) * (2 * V')) by ring.
      apply Z.mul_lt_mono_pos_r; [lia|exact L].
    - apply (Z.mul_le_mono_pos_r _ _ V); [assumption|].
      replace (n * U' * V) with (n * U * (2 * V')) by (transitivity (n * (U' * V)); [rewrite UD|]; ring).
      replace (2 * c * (d * V') * V) with (c * (d * V) * (2 * V')) by ring.
      apply Z.mul_le_mono_nonneg_r; lia. }
  clearbody f. destruct F as [F1 F2].
  destruct (Z.max_spec (-1074) f) as [[L ->]|[L ->]].
  - split; [lia|split; [exact F1|left; exact F2]].
  - split; [lia|split; [|right; reflexivity]].
    pose proof (up_down f (-1074) L) as UD. pose proof (up_pos (-1074)). pose proof (up_pos f). pose proof (down_pos f). pose proof (down_pos (-1074)).
    assert (P : 1 <= 2 ^ (-1074 - f)) by (pose proof (Z.pow_pos_nonneg 2 (-1074 - f) ltac:(lia) ltac:(lia)); lia).
    set (K := 2 ^ (-1074 - f)) in *. set (U := up f) in *. set (V := down f) in *. set (U' := up (-1074)) in *. set (V' := down (-1074)) in *.
    set (c := 2 ^ 53) in *. assert (0 < c) by (unfold c; lia). clearbody K U V U' V' c.
    apply (Z.mul_lt_mono_pos_r (K * V)); [nia|].
    replace (n * U' * (K * V)) with (n * (K * (U' * V))) by ring. rewrite <- UD.
    replace (n * (U * V')) with (n * U * V') by ring.
    apply Z.lt_le_trans with (c * (d * V) * V'); [apply Z.mul_lt_mono_pos_r; assumption|].
    replace (c * (d * V) * V') with (c * (d * V' * V) * 1) by ring. replace (c * (d * V') * (K * V)) with (c * (d * V' * V) * K) by ring.
    apply Z.mul_le_mono_nonneg_l; [|exact P]. repeat apply Z.mul_nonneg_nonneg; lia.
Qed.

Lemma nearest_pos n d : 0 < snd (nearest n d).
Proof. unfold nearest. destruct (n =? 0); [reflexivity|apply up_pos]. Qed.
Lemma nearest_nonneg n d : 0 <= n -> 0 < d -> 0 <= fst (nearest n d).
Proof.
  intros N D. unfold nearest. destruct (n =? 0); [reflexivity|]. cbn [fst].
  pose proof (up_pos (exponent n d)). pose proof (down_pos (exponent n d)).
  apply Z.mul_nonneg_nonneg; [apply rne_nonneg; nia|lia].
Qed.
Lemma double_iff x : is_double x <-> 0 < snd x /\ exists m e, 0 <= m <= 2 ^ 53 /\ -1074 <= e /\ fst x * up e = m * down e * snd x.
Proof.
  unfold is_double. split; intros [S (m & e & M & E & H)]; (split; [exact S|]); exists m, e; (split; [exact M|split; [exact E|]]); unfold up, down in *.
  - destruct H as [[P ->]|[P H]].
    + rewrite (Z.max_r 0 e), (Z.max_l 0 (- e)) by lia. rewrite Z.pow_0_r. ring.
    + rewrite (Z.max_l 0 e), (Z.max_r 0 (- e)) by lia. rewrite H, Z.pow_0_r. ring.
  - destruct (Z.neg_nonneg_cases e) as [P|P].
    + right. split; [exact P|]. rewrite (Z.max_l 0 e), (Z.max_r 0 (- e)) in H by lia. rewrite H, Z.pow_0_r. ring.
    + left. split; [exact P|]. rewrite (Z.max_r 0 e), (Z.max_l 0 (- e)) in H by lia. rewrite <- H, Z.pow_0_r. ring.
Qed.
Lemma mant n d : 0 < n -> 0 < d -> let e := exponent n d in 0 <= rne (n * up e) (d * down e) <= 2 ^ 53.
Proof.
  intros N D e. pose proof (exponent_ok n d N D) as (_ & H & _). fold e in H.
  pose proof (up_pos e). pose proof (down_pos e).
  assert (P : 0 < d * down e) by nia. split; [apply rne_nonneg; nia|].
  pose proof (rne_half (n * up e) (d * down e) P). nia.
Qed.
Lemma nearest_double n d : 0 <= n -> 0 < d -> is_double (nearest n d).
Proof.
  intros N D. apply double_iff. split; [apply nearest_pos|]. unfold nearest. destruct (Z.eqb_spec n 0) as [->|Z].
  - exists 0, 0. repeat split; try lia.
  - pose proof (mant n d ltac:(lia) D) as M. pose proof (exponent_ok n d ltac:(lia) D) as (E & _).
    cbv zeta in *. exists (rne (n * up (exponent n d)) (d * down (exponent n d))), (exponent n d).
    split; [exact M|split; [exact E|]]. cbn [fst snd]. reflexivity.
Qed.
Lemma nearest_near n d y : 0 <= n -> 0 < d -> is_double y -> as_near n d (nearest n d) y.
Proof.
  intros N D Y. apply double_iff in Y. destruct Y as [S (m & f & M & F & H)]. destruct y as [yn yd]. cbn [fst snd] in *.
  unfold as_near, nearest. destruct (Z.eqb_spec n 0) as [->|Z]; cbn [fst snd]; [nia|].
  assert (N' : 0 < n) by lia. pose proof (exponent_ok n d N' D) as (E & X & C). cbv zeta in *. set (e := exponent n d) in *.
  pose proof (up_pos e) as U. pose proof (down_pos e) as V. pose proof (up_pos f) as U'. pose proof (down_pos f) as V'.
  assert (P : 0 < d * down e) by nia.
  replace (rne (n * up e) (d * down e) * down e * d - n * up e) with (rne (n * up e) (d * down e) * (d * down e) - n * up e) by ring.
  set (k := rne (n * up e) (d * down e)).
  (* it is enough to compare with m * 2^f *)
  enough (G : Z.abs (k * (d * down e) - n * up e) * up f <= Z.abs (m * down f * d - n * up f) * up e).
  { apply (Z.mul_le_mono_pos_r _ _ (up f)); [assumption|].
    replace (Z.abs (yn * d - n * yd) * up e * up f) with (Z.abs (m * down f * d - n * up f) * up e * yd).
    - replace (Z.abs (k * (d * down e) - n * up e) * yd * up f) with (Z.abs (k * (d * down e) - n * up e) * up f * yd) by ring.
      apply Z.mul_le_mono_nonneg_r; lia.
    - transitivity (Z.abs ((m * down f * d - n * up f) * yd) * up e); [rewrite Z.abs_mul, (Z.abs_eq yd) by lia; ring|].
      transitivity (Z.abs ((yn * d - n * yd) * up f) * up e); [|rewrite Z.abs_mul, (Z.abs_eq (up f)) by lia; ring].
      f_equal. f_equal. transitivity (m * down f * yd * d - n * up f * yd); [ring|]. rewrite <- H. ring. }
  destruct (Z.le_gt_cases e f) as [L|L].
  - pose proof (up_down e f L) as UD. set (K := 2 ^ (f - e)) in *.
    replace (Z.abs (m * down f * d - n * up f) * up e) with (Z.abs (m * K * (d * down e) - n * up e) * up f).
    + apply Z.mul_le_mono_nonneg_r; [lia|]. apply rne_best; exact P.
    + transitivity (Z.abs ((m * K * (d * down e) - n * up e) * up f)); [rewrite Z.abs_mul, (Z.abs_eq (up f)) by lia; ring|].
      transitivity (Z.abs ((m * down f * d - n * up f) * up e)); [|rewrite Z.abs_mul, (Z.abs_eq (up e)) by lia; ring].
      f_equal. transitivity (m * d * (K * (up f * down e)) - n * up e * up f); [ring|]. rewrite <- UD. ring.
  - destruct C as [C|C]; [|lia].
    pose proof (up_down f e ltac:(lia)) as UD. set (K := 2 ^ (e - f)) in *.
    assert (K2 : 2 <= K). { unfold K. replace (e - f) with (1 + (e - f - 1)) by ring. rewrite Z.pow_add_r by lia. pose proof (Z.pow_pos_nonneg 2 (e - f - 1) ltac:(lia) ltac:(lia)). lia. }
    pose proof (rne_best (n * up e) (d * down e) (2 ^ 52) P) as B. fold k in B.
    change (2 ^ 53) with (2 * 2 ^ 52) in M. set (c := 2 ^ 52) in *. assert (C0 : 0 < c) by (unfold c; lia). clearbody c K k.
    set (U0 := up e) in *. set (V0 := down e) in *. set (U1 := up f) in *. set (V1 := down f) in *. clearbody U0 V0 U1 V1.
    assert (A : Z.abs (k * (d * V0) - n * U0) <= n * U0 - c * (d * V0)) by lia. clear B.
    apply Z.le_trans with ((n * U0 - c * (d * V0)) * U1); [apply Z.mul_le_mono_nonneg_r; lia|].
    apply Z.le_trans with ((n * U1 - m * V1 * d) * U0); [|apply Z.mul_le_mono_nonneg_r; lia].
    assert (Q : m * (V1 * U0) <= c * (V0 * U1)).
    { apply (Z.mul_le_mono_pos_l _ _ K); [lia|].
      replace (K * (m * (V1 * U0))) with (m * (K * (U0 * V1))) by ring. rewrite <- UD.
      replace (K * (c * (V0 * U1))) with (K * c * (U1 * V0)) by ring. apply Z.mul_le_mono_nonneg_r; nia. }
    replace ((n * U0 - c * (d * V0)) * U1) with (n * U0 * U1 - d * (c * (V0 * U1))) by ring.
    replace ((n * U1 - m * V1 * d) * U0) with (n * U0 * U1 - d * (m * (V1 * U0))) by ring.
    apply Z.sub_le_mono_l. apply Z.mul_le_mono_nonneg_l; lia.
Qed.
(** a double is its own nearest *)
Lemma nearest_exact n d : 0 <= n -> 0 < d -> is_double (n, d) -> same (nearest n d) (n, d).
Proof.
  intros N D Y. pose proof (nearest_near n d (n, d) N D Y) as H. unfold as_near, same in *. cbn [fst snd] in *.
  replace (n * d - n * d) with 0 in H by ring. pose proof (nearest_pos n d). destruct (nearest n d) as [a b]; cbn [fst snd] in *. change (Z.abs 0) with 0 in H. nia.
Qed.
(** rounding keeps the order *)
Lemma nearest_mono n d n' d' : 0 <= n -> 0 < d -> 0 <= n' -> 0 < d' -> n * d' <= n' * d -> at_most (nearest n d) (nearest n' d').
Proof.
  intros N D N' D' L. unfold at_most.
  destruct (Z.eq_dec (n * d') (n' * d)) as [E|E].
  { (* the same number: the nearest doubles have even mantissas in a tie *)
    destruct (Z.eqb_spec n 0) as [->|Z].
    - assert (n' = 0) by nia. subst. unfold nearest. cbn. lia.
    - assert (n' <> 0) by nia.
      (* scale invariance *)
      assert (S : forall e, n * up e * (d' * down e) = n' * up e * (d * down e)).
      { intro e. transitivity (n * d' * (up e * down e)); [ring|]. rewrite E. ring. }
      pose proof (exponent_ok n d ltac:(lia) D) as (E1 & X1 & C1). pose proof (exponent_ok n' d' ltac:(lia) D') as (E2 & X2 & C2).
      unfold nearest. rewrite (proj2 (Z.eqb_neq n 0)), (proj2 (Z.eqb_neq n' 0)) by assumption. cbv zeta in *. cbn [fst snd].
      set (e := exponent n d) in *. set (f := exponent n' d') in *.
      assert (EF : e = f).
      { assert (W : forall n d n' d' e f, 0 < n -> 0 < d -> 0 < n' -> 0 < d' -> n * d' = n' * d -> -1074 <= e -> n * up e < 2 ^ 53 * (d * down e) ->
          (2 ^ 52 * (d' * down f) <= n' * up f \/ f = -1074) -> f <= e).
        { clear. intros n d n' d' e f N D N' D' E E1 X [C|C]; [|lia]. destruct (Z.le_gt_cases f e) as [|G]; [assumption|exfalso].
          pose proof (up_down e f ltac:(lia)) as UD.
          assert (K2 : 2 <= 2 ^ (f - e)). { replace (f - e) with (1 + (f - e - 1)) by ring. rewrite Z.pow_add_r by lia. pose proof (Z.pow_pos_nonneg 2 (f - e - 1) ltac:(lia) ltac:(lia)). lia. }
          pose proof (up_pos e) as U. pose proof (down_pos e) as V. pose proof (up_pos f) as U'. pose proof (down_pos f) as V'.
          set (K := 2 ^ (f - e)) in *. change (2 ^ 53) with (2 * 2 ^ 52) in X. set (c := 2 ^ 52) in *. assert (0 < c) by (unfold c; lia).
          set (U0 := up e) in *. set (V0 := down e) in *. set (U1 := up f) in *. set (V1 := down f) in *. clearbody c K U0 V0 U1 V1.
          (* n U0 < 2 c d V0;  c d' V1 <= n' U1;  U0 V1 = K U1 V0 *)
          assert (A : n * U0 * (d' * V1) < 2 * c * (d * V0) * (d' * V1)) by (apply Z.mul_lt_mono_pos_r; nia).
          assert (B : c * (d' * V1) * (d * V0 * 2) <= n' * U1 * (d * V0 * 2)) by (apply Z.mul_le_mono_nonneg_r; nia).
          replace (n * U0 * (d' * V1)) with (n * d' * (U0 * V1)) in A by ring. rewrite UD, E in A.
          assert (Q : 0 < n' * d * (U1 * V0)) by (repeat apply Z.mul_pos_pos; assumption).
          replace (n' * d * (K * (U1 * V0))) with (K * (n' * d * (U1 * V0))) in A by ring.
          replace (n' * U1 * (d * V0 * 2)) with (2 * (n' * d * (U1 * V0))) in B by ring.
          replace (c * (d' * V1) * (d * V0 * 2)) with (2 * c * (d * V0) * (d' * V1)) in B by ring.
          set (T := n' * d * (U1 * V0)) in *. nia. }
        apply Z.le_antisymm.
        - apply (W n' d' n d f e); try assumption; lia.
        - apply (W n d n' d' e f); try assumption; lia. }
      rewrite <- EF in *. clear EF f. pose proof (up_pos e). pose proof (down_pos e).
      assert (R : rne (n * up e) (d * down e) <= rne (n' * up e) (d' * down e)).
      { apply rne_mono; [nia|nia|]. rewrite (S e). lia. }
      apply Z.mul_le_mono_nonneg_r; [lia|]. apply Z.mul_le_mono_nonneg_r; [lia|exact R]. }
  pose proof (nearest_near n d (nearest n' d') N D (nearest_double n' d' N' D')) as H1.
  pose proof (nearest_near n' d' (nearest n d) N' D' (nearest_double n d N D)) as H2.
  pose proof (nearest_pos n d) as P. pose proof (nearest_pos n' d') as P'. unfold as_near in *.
  destruct (nearest n d) as [a b], (nearest n' d') as [a' b']; cbn [fst snd] in *.
  destruct (Z.le_gt_cases (a * b') (a' * b)) as [|G]; [assumption|exfalso].
  assert (LT : n * d' < n' * d) by lia. clear L E.
  (* x = a/b > x' = a'/b', q = n/d < q' = n'/d' *)
  assert (M1 : (a * d - n * b) * b' <= (n * b' - a' * d) * b).
  { (* |x - q| <= |x' - q|, with x' < x, so x - q <= q - x' *)
    destruct (Z.le_gt_cases 0 (n * b' - a' * d)) as [S|S].
    - rewrite (Z.abs_neq (a' * d - n * b')) in H1 by lia. nia.
    - exfalso. rewrite (Z.abs_eq (a' * d - n * b')) in H1 by lia.
      assert (Y : (a * d - n * b) * b' <= (a' * d - n * b') * b) by nia.
      assert (Y' : a' * b * d < a * b' * d) by (apply Z.mul_lt_mono_pos_r; assumption). lia. }
  assert (M2 : (n' * b - a * d') * b' + (n' * b' - a' * d') * b <= 0).
  { destruct (Z.le_gt_cases 0 (a * d' - n' * b)) as [S|S].
    - rewrite (Z.abs_eq (a * d' - n' * b)) in H2 by lia. nia.
    - exfalso. rewrite (Z.abs_neq (a * d' - n' * b)) in H2 by lia.
      assert (Y : (n' * b' - a' * d') * b <= (n' * b - a * d') * b') by nia.
      assert (Y' : a' * b * d' < a * b' * d') by (apply Z.mul_lt_mono_pos_r; assumption). lia. }
  (* twice the middle: 2 n b b' >= (a b' + a' b) d and 2 n' b b' <= (a b' + a' b) d' *)
  assert (A : (a * b' + a' * b) * d <= 2 * n * (b * b')) by lia.
  assert (B : 2 * n' * (b * b') <= (a * b' + a' * b) * d') by lia.
  assert (A' : (a * b' + a' * b) * d * d' <= 2 * n * (b * b') * d') by (apply Z.mul_le_mono_nonneg_r; lia).
  assert (B' : 2 * n' * (b * b') * d <= (a * b' + a' * b) * d' * d) by (apply Z.mul_le_mono_nonneg_r; lia).
  assert (0 < b * b') by nia.
  assert (W : n * d' * (b * b') < n' * d * (b * b')) by (apply Z.mul_lt_mono_pos_r; assumption). lia.
Qed.

Lemma int_double n : 0 <= n <= 2 ^ 53 -> is_double (n, 1).
Proof. intro N. split; [reflexivity|]. exists n, 0. split; [exact N|split; [lia|left; split; [lia|]]]. cbn [fst snd]. rewrite Z.pow_0_r. ring. Qed.
Lemma same_trans x y z : 0 < snd x -> 0 < snd y -> 0 < snd z -> same x y -> same y z -> same x z.
Proof.
  unfold same. destruct x as [a b], y as [c d], z as [e f]; cbn [fst snd]. intros B D F E1 E2.
  apply (Z.mul_reg_r _ _ d); [lia|]. transitivity (a * d * f); [ring|]. rewrite E1. transitivity (c * f * b); [ring|]. rewrite E2. ring.
Qed.
Lemma nearest_same n d n' d' : 0 <= n -> 0 < d -> 0 <= n' -> 0 < d' -> n * d' = n' * d -> same (nearest n d) (nearest n' d').
Proof. intros N D N' D' E. apply Z.le_antisymm; [apply (nearest_mono n d n' d')|apply (nearest_mono n' d' n d)]; lia. Qed.

(** ties go to the double whose last bit is even *)
Lemma nearest_even n d y : 0 <= n -> 0 < d -> is_double y -> as_near n d y (nearest n d) -> same y (nearest n d) \/ even_last (nearest n d).
Proof.
  intros N D Y T. apply double_iff in Y. destruct Y as [S (m & f & M & F & H)]. destruct y as [yn yd]. cbn [fst snd] in *.
  unfold as_near, same, nearest in *. destruct (Z.eqb_spec n 0) as [->|Z]; cbn [fst snd] in *.
  { left. assert (Z.abs (yn * d) <= 0) by lia. assert (yn * d = 0) by lia. nia. }
  assert (N' : 0 < n) by lia. pose proof (exponent_ok n d N' D) as (E & X & C). pose proof (mant n d N' D) as MB. cbv zeta in *. set (e := exponent n d) in *.
  pose proof (up_pos e) as U. pose proof (down_pos e) as V. pose proof (up_pos f) as U'. pose proof (down_pos f) as V'.
  assert (P : 0 < d * down e) by nia.
  set (k := rne (n * up e) (d * down e)) in *.
  replace (k * down e * d - n * up e) with (k * (d * down e) - n * up e) in T by ring.
  destruct (Z.even k) eqn:EV.
  { right. exists k, e. split; [|split; [exact EV|]].
    - destruct C as [C| ->]; [left|right; split; [exact MB|reflexivity]]. split; [|exact E]. split; [|exact (proj2 MB)].
      pose proof (rne_half (n * up e) (d * down e) P) as RH. fold k in RH.
      destruct (Z.le_gt_cases (2 ^ 52) k) as [|G]; [assumption|exfalso].
      set (c := 2 ^ 52) in *. clearbody c k. nia.
    - unfold up, down. cbn [fst snd]. destruct (Z.neg_nonneg_cases e).
      + right. split; [assumption|]. rewrite (Z.max_l 0 e), (Z.max_r 0 (- e)), Z.pow_0_r by lia. ring.
      + left. split; [assumption|]. rewrite (Z.max_r 0 e), (Z.max_l 0 (- e)), Z.pow_0_r by lia. ring. }
  left.
  assert (NT : 2 * Z.abs (k * (d * down e) - n * up e) < d * down e).
  { pose proof (rne_half (n * up e) (d * down e) P) as RH. fold k in RH. pose proof (rne_tie (n * up e) (d * down e) P) as RT. fold k in RT. rewrite EV in RT.
    destruct (Z.eq_dec (2 * Z.abs (k * (d * down e) - n * up e)) (d * down e)) as [Q|Q]; [discriminate (RT Q)|lia]. }
  assert (G : Z.abs (m * down f * d - n * up f) * up e <= Z.abs (k * (d * down e) - n * up e) * up f).
  { apply (Z.mul_le_mono_pos_r _ _ yd); [assumption|].
    apply (Z.mul_le_mono_nonneg_r _ _ (up f)) in T; [|lia].
    replace (Z.abs (k * (d * down e) - n * up e) * up f * yd) with (Z.abs (k * (d * down e) - n * up e) * yd * up f) by ring.
    replace (Z.abs (m * down f * d - n * up f) * up e * yd) with (Z.abs (yn * d - n * yd) * up e * up f); [exact T|].
    transitivity (Z.abs ((yn * d - n * yd) * up f) * up e); [rewrite Z.abs_mul, (Z.abs_eq (up f)) by lia; ring|].
    transitivity (Z.abs ((m * down f * d - n * up f) * yd) * up e); [|rewrite Z.abs_mul, (Z.abs_eq yd) by lia; ring].
    f_equal. f_equal. transitivity (yn * up f * d - n * yd * up f); [ring|]. rewrite H. ring. }
  clear T.
  destruct (Z.le_gt_cases e f) as [L|L].
  - pose proof (up_down e f L) as UD. set (K := 2 ^ (f - e)) in *.
    assert (G2 : Z.abs (m * K * (d * down e) - n * up e) <= Z.abs (k * (d * down e) - n * up e)).
    { apply (Z.mul_le_mono_pos_r _ _ (up f)); [assumption|].
      replace (Z.abs (m * K * (d * down e) - n * up e) * up f) with (Z.abs (m * down f * d - n * up f) * up e); [exact G|].
      transitivity (Z.abs ((m * down f * d - n * up f) * up e)); [rewrite Z.abs_mul, (Z.abs_eq (up e)) by lia; ring|].
      transitivity (Z.abs ((m * K * (d * down e) - n * up e) * up f)); [|rewrite Z.abs_mul, (Z.abs_eq (up f)) by lia; ring].
      f_equal. transitivity (m * d * (up e * down f) - n * up e * up f); [ring|]. rewrite UD. ring. }
    assert (MK : m * K = k).
    { destruct (Z.eq_dec (m * K) k) as [Q|Q]; [exact Q|exfalso].
      assert (W : (m * K - k) * (d * down e) = (m * K * (d * down e) - n * up e) - (k * (d * down e) - n * up e)) by ring.
      set (A := m * K * (d * down e) - n * up e) in *. set (B := k * (d * down e) - n * up e) in *. set (DD := d * down e) in *. set (J := m * K) in *. clearbody A B DD J.
      assert (J - k <= -1 \/ 1 <= J - k) as [Q1|Q1] by lia; nia. }
    (* yn up f = m down f yd;  want yn up e = k down e yd *)
    apply (Z.mul_reg_r _ _ (up f)); [lia|].
    transitivity (yn * up f * up e); [ring|]. rewrite H. transitivity (m * yd * (up e * down f)); [ring|]. rewrite UD, <- MK. ring.
  - destruct C as [C|C]; [|lia].
    pose proof (up_down f e ltac:(lia)) as UD. set (K := 2 ^ (e - f)) in *.
    assert (K2 : 2 <= K). { unfold K. replace (e - f) with (1 + (e - f - 1)) by ring. rewrite Z.pow_add_r by lia. pose proof (Z.pow_pos_nonneg 2 (e - f - 1) ltac:(lia) ltac:(lia)). lia. }
    pose proof (rne_best (n * up e) (d * down e) (2 ^ 52) P) as B. fold k in B.
    assert (KC : k <> 2 ^ 52) by (intros ->; discriminate EV).
    change (2 ^ 53) with (2 * 2 ^ 52) in *. set (c := 2 ^ 52) in *. assert (C0 : 0 < c) by (unfold c; lia). clearbody c K k.
    set (U0 := up e) in *. set (V0 := down e) in *. set (U1 := up f) in *. set (V1 := down f) in *. clearbody U0 V0 U1 V1. exfalso.
    assert (Q : m * (V1 * U0) <= c * (V0 * U1)).
    { apply (Z.mul_le_mono_pos_l _ _ K); [lia|].
      replace (K * (m * (V1 * U0))) with (m * (K * (U0 * V1))) by ring. rewrite <- UD.
      replace (K * (c * (V0 * U1))) with (K * c * (U1 * V0)) by ring. apply Z.mul_le_mono_nonneg_r; nia. }
    assert (A : (n * U0 - c * (d * V0)) * U1 <= Z.abs (m * V1 * d - n * U1) * U0).
    { apply Z.le_trans with ((n * U1 - m * V1 * d) * U0); [|apply Z.mul_le_mono_nonneg_r; lia].
      replace ((n * U0 - c * (d * V0)) * U1) with (n * U0 * U1 - d * (c * (V0 * U1))) by ring.
      replace ((n * U1 - m * V1 * d) * U0) with (n * U0 * U1 - d * (m * (V1 * U0))) by ring.
      apply Z.sub_le_mono_l. apply Z.mul_le_mono_nonneg_l; lia. }
    assert (A2 : n * U0 - c * (d * V0) <= Z.abs (k * (d * V0) - n * U0)).
    { apply (Z.mul_le_mono_pos_r _ _ U1); [assumption|]. lia. }
    (* k is not c, yet c is as near *)
    set (DD := d * V0) in *. set (NN := n * U0) in *. clearbody DD NN.
    assert (k - c <= -1 \/ 1 <= k - c) as [Q1|Q1] by lia; nia.
Qed.

(** the relative error of a quotient *)
Lemma nearest_error a b : 0 <= a -> 0 < b <= 2 ^ 53 -> let x := nearest a b in 2 ^ 53 * Z.abs (fst x * b - a * snd x) <= a * snd x.
Proof.
  intros A B. unfold nearest. destruct (Z.eqb_spec a 0) as [->|Z]; cbn [fst snd]; [cbn; lia|]. cbv zeta.
  pose proof (exponent_ok a b ltac:(lia) ltac:(lia)) as (E & _ & C). cbv zeta in C. set (e := exponent a b) in *.
  pose proof (up_pos e) as U. pose proof (down_pos e) as V.
  assert (C' : 2 ^ 52 * (b * down e) <= a * up e).
  { destruct C as [C|C]; [exact C|]. rewrite C. unfold up, down. rewrite (Z.max_l 0 (-1074)), (Z.max_r 0 (- -1074)) by lia.
    rewrite Z.pow_0_r, Z.mul_1_r. apply Z.le_trans with (2 ^ 52 * 2 ^ 53); [apply Z.mul_le_mono_nonneg_l; lia|].
    rewrite <- Z.pow_add_r by lia. apply Z.le_trans with (1 * 2 ^ (- -1074)); [rewrite Z.mul_1_l; apply Z.pow_le_mono_r; lia|].
    apply Z.mul_le_mono_nonneg_r; [apply Z.pow_nonneg|]; lia. }
  assert (P : 0 < b * down e) by (apply Z.mul_pos_pos; lia).
  pose proof (rne_half (a * up e) (b * down e) P) as R. set (k := rne (a * up e) (b * down e)) in *. clearbody k.
  replace (k * down e * b - a * up e) with (k * (b * down e) - a * up e) by ring.
  change (2 ^ 53) with (2 ^ 52 * 2). lia.
Qed.
Lemma closest_half a b k : 0 < b -> 2 * Z.abs (k * b - 10000 * a) <= b -> closest a b k.
Proof.
  intros B H j. destruct (Z.eq_dec j k) as [->|N]; [lia|].
  assert (j * b - 10000 * a = (k * b - 10000 * a) + (j - k) * b) by ring.
  assert (j - k <= -1 \/ 1 <= j - k) as [L|L] by lia; nia.
Qed.
(** rounding twice gives the nearest ten-thousandth of a small count's share *)
Lemma twice a b : 0 <= a -> 0 < b <= 2 ^ 53 -> 20000 * a < 2 ^ 53 -> let x := nearest a b in closest a b (rne (10000 * fst x) (snd x)).
Proof.
  intros A B S. pose proof (nearest_error a b A B) as E. pose proof (nearest_pos a b) as P. cbv zeta in *. destruct (nearest a b) as [xn xd]; cbn [fst snd] in *.
  pose proof (rne_half (10000 * xn) xd P) as R. set (k := rne (10000 * xn) xd) in *. clearbody k.
  apply closest_half; [lia|].
  set (W := 2 ^ 53) in *. assert (0 < W) by (unfold W; lia). clearbody W.
  assert (I : (k * b - 10000 * a) * xd = (k * xd - 10000 * xn) * b + 10000 * (xn * b - a * xd)) by ring.
  set (t := xn * b - a * xd) in *. set (v := k * xd - 10000 * xn) in *. set (w := k * b - 10000 * a) in *. clearbody t v w.
  assert (I2 : 2 * Z.abs w * xd <= 2 * Z.abs v * b + 20000 * Z.abs t).
  { replace (2 * Z.abs w * xd) with (2 * Z.abs (w * xd)) by (rewrite Z.abs_mul, (Z.abs_eq xd) by lia; ring).
    rewrite I. pose proof (Z.abs_triangle (v * b) (10000 * t)) as TR. rewrite !Z.abs_mul, (Z.abs_eq b), (Z.abs_eq 10000) in TR by lia. lia. }
  assert (I3 : 20000 * Z.abs t < xd).
  { apply (Z.mul_lt_mono_pos_l W); [assumption|]. apply Z.le_lt_trans with (20000 * (a * xd)); [lia|]. nia. }
  assert (I4 : 2 * Z.abs v * b <= xd * b) by (apply Z.mul_le_mono_nonneg_r; lia).
  assert (2 * Z.abs w * xd < (b + 1) * xd) by lia.
  assert (2 * Z.abs w < b + 1) by (apply (Z.mul_lt_mono_pos_r xd); assumption). lia.
Qed.

(** a double is the nearest to itself, and integers up to 2^53 are doubles *)
Lemma float_int n : 0 <= n <= 2 ^ 53 -> exists x, float_of n = Some x /\ 0 < snd x /\ fst x = n * snd x.
Proof.
  intro N. unfold float_of. pose proof (nearest_exact n 1 ltac:(lia) ltac:(lia) (int_double n N)) as S. unfold same in S. cbn [fst snd] in S. rewrite Z.mul_1_r in S.
  pose proof (nearest_pos n 1) as P. destruct (nearest n 1) as [a b]; cbn [fst snd] in *.
  destruct (Z.leb_spec (2 ^ 1024 * b) a) as [L|L]; [exfalso|exists (a, b); split; [reflexivity|split; [exact P|exact S]]].
  rewrite S in L. apply Z.mul_le_mono_pos_r in L; [|exact P].
  assert (2 ^ 53 < 2 ^ 1024) by (apply Z.pow_lt_mono_r; lia). lia.
Qed.
Lemma float_none n : 0 <= n -> float_of n = None <-> 2 ^ 1024 - 2 ^ 970 <= n.
Proof.
  intro N. unfold float_of. split.
  - intro E. destruct (Z.le_gt_cases (2 ^ 1024 - 2 ^ 970) n) as [|L]; [assumption|exfalso].
    destruct (Z.leb_spec (2 ^ 1024 * snd (nearest n 1)) (fst (nearest n 1))) as [H|H]; [|discriminate E].
    assert (R : 0 <= 2 ^ 1024 - 2 ^ 970 - 1) by (vm_compute; discriminate).
    pose proof (nearest_mono n 1 (2 ^ 1024 - 2 ^ 970 - 1) 1 N ltac:(lia) R ltac:(lia) ltac:(lia)) as M. unfold at_most in M.
    assert (V : (fst (nearest (2 ^ 1024 - 2 ^ 970 - 1) 1) <? 2 ^ 1024) && (snd (nearest (2 ^ 1024 - 2 ^ 970 - 1) 1) =? 1) = true) by (vm_compute; reflexivity).
    apply andb_true_iff in V. destruct V as [V1 V2]. apply Z.ltb_lt in V1. apply Z.eqb_eq in V2. rewrite V2 in M.
    pose proof (nearest_pos n 1) as P. set (x := nearest n 1) in *. set (W := 2 ^ 1024) in *. set (F := fst (nearest (W - 2 ^ 970 - 1) 1)) in *. clearbody W F x. nia.
  - intro L. assert (R : 0 <= 2 ^ 1024 - 2 ^ 970) by (vm_compute; discriminate).
    pose proof (nearest_mono (2 ^ 1024 - 2 ^ 970) 1 n 1 R ltac:(lia) N ltac:(lia) ltac:(lia)) as M. unfold at_most in M.
    assert (V : (fst (nearest (2 ^ 1024 - 2 ^ 970) 1) =? 2 ^ 1024) && (snd (nearest (2 ^ 1024 - 2 ^ 970) 1) =? 1) = true) by (vm_compute; reflexivity).
    apply andb_true_iff in V. destruct V as [V1 V2]. apply Z.eqb_eq in V1. apply Z.eqb_eq in V2. rewrite V1, V2 in M.
    destruct (Z.leb_spec (2 ^ 1024 * snd (nearest n 1)) (fst (nearest n 1))) as [H|H]; [reflexivity|exfalso].
    rewrite Z.mul_1_r in M. apply (Z.lt_irrefl (2 ^ 1024 * snd (nearest n 1))). eapply Z.le_lt_trans; [exact M|exact H].
Qed.
Lemma float_is n x : float_of n = Some x -> x = nearest n 1.
Proof. unfold float_of. destruct (_ <=? _); [discriminate|]. intro E; inversion E; reflexivity. Qed.

(** the text *)
Definition point4 (k : Z) : str := dec (k / 10000) ++ u "." ++ four (k mod 10000).
Lemma fold_dvalue s : forall acc, fold_left (fun v c => 10 * v + (c - 48)) s acc = dvalue acc s.
Proof. induction s as [|c s IH]; intro acc; [reflexivity|]. cbn [fold_left dvalue]. rewrite IH. f_equal. lia. Qed.
Lemma four_spec r : 0 <= r < 10000 -> length (four r) = 4%nat /\ Forall digit_char (four r) /\ forall acc, dvalue acc (four r) = acc * 10000 + r.
Proof.
  intro R. unfold four.
  pose proof (Z.div_mod r 10 ltac:(lia)) as D0. pose proof (Z.mod_pos_bound r 10 ltac:(lia)) as B0.
  pose proof (Z.div_mod (r / 10) 10 ltac:(lia)) as D1. pose proof (Z.mod_pos_bound (r / 10) 10 ltac:(lia)) as B1.
  pose proof (Z.div_mod (r / 100) 10 ltac:(lia)) as D2. pose proof (Z.mod_pos_bound (r / 100) 10 ltac:(lia)) as B2.
  rewrite Z.div_div in D1 by lia. rewrite Z.div_div in D2 by lia. change (10 * 10) with 100 in *. change (100 * 10) with 1000 in *.
  assert (B3 : 0 <= r / 1000 < 10) by (split; [apply Z.div_pos; lia|apply Z.div_lt_upper_bound; lia]).
  split; [reflexivity|split].
  - repeat constructor; unfold digit_char; lia.
  - intro acc. cbn [dvalue]. lia.
Qed.
Lemma point4_writes k : 0 <= k -> writes (point4 k) k.
Proof.
  intro K. pose proof (Z.div_mod k 10000 ltac:(lia)) as D. pose proof (Z.mod_pos_bound k 10000 ltac:(lia)) as B.
  assert (Q : 0 <= k / 10000) by (apply Z.div_pos; lia).
  destruct (dec_spec (k / 10000)) as [ds [E [NE [DG V]]]]. rewrite (proj2 (Z.ltb_ge _ _) Q) in E. cbn [app] in E.
  destruct (four_spec (k mod 10000) B) as (L & FD & FV).
  exists ds, (four (k mod 10000)). split; [unfold point4; rewrite E; reflexivity|split; [exact NE|split; [exact L|split]]].
  - apply Forall_app. split; [exact DG|exact FD].
  - rewrite fold_dvalue, dvalue_app, V, FV, Z.abs_eq by exact Q. lia.
Qed.
Lemma split_point a b a' b' : Forall digit_char (a ++ b) -> Forall digit_char (a' ++ b') -> a ++ 46 :: b = a' ++ 46 :: b' -> a = a' /\ b = b'.
Proof.
  revert a'. induction a as [|c a IH]; intros [|c' a'] F F' E; cbn [app] in *.
  - inversion E. split; reflexivity.
  - inversion E. subst. inversion F' as [|? ? D]. unfold digit_char in D. lia.
  - inversion E. subst. inversion F as [|? ? D]. unfold digit_char in D. lia.
  - inversion E. subst. inversion F; inversion F'; subst. destruct (IH a') as [-> ->]; auto.
Qed.
Lemma writes_fun s k k' : writes s k -> writes s k' -> k = k'.
Proof.
  intros (a & b & -> & _ & _ & F & V) (a' & b' & E & _ & _ & F' & V'). destruct (split_point a b a' b' F F' E) as [-> ->]. congruence.
Qed.
Lemma fixed4_point neg x : fixed4 neg x = (if neg then u "-" else []) ++ point4 (rne (10000 * fst x) (snd x)).
Proof. reflexivity. Qed.
Lemma rne_same x y : 0 < snd x -> 0 < snd y -> same x y -> rne (10000 * fst x) (snd x) = rne (10000 * fst y) (snd y).
Proof. unfold same. intros X Y S. apply Z.le_antisymm; apply rne_mono; nia. Qed.

Lemma nearest_rounds n d : 0 <= n -> 0 < d -> rounds n d (nearest n d).
Proof.
  intros N D. split; [apply nearest_double; assumption|split].
  - intros y Y. apply nearest_near; assumption.
  - intros y Y T. apply nearest_even; assumption.
Qed.
Lemma rne_decimals x : 0 < snd x -> decimals x (rne (10000 * fst x) (snd x)).
Proof.
  intros P j. split; [apply rne_best; exact P|]. intro E. pose proof (rne_half (10000 * fst x) (snd x) P) as H. pose proof (rne_tie (10000 * fst x) (snd x) P) as T.
  set (k := rne (10000 * fst x) (snd x)) in *. destruct (Z.eq_dec j k) as [Q|Q]; [left; exact Q|right]. apply T.
  assert (W : j * snd x - 10000 * fst x = (k * snd x - 10000 * fst x) + (j - k) * snd x) by ring.
  set (A := j * snd x - 10000 * fst x) in *. set (B := k * snd x - 10000 * fst x) in *. clearbody A B. clear T.
  assert (j - k <= -1 \/ 1 <= j - k) as [L|L] by lia; nia.
Qed.
Lemma nearest_one_le n : 1 <= n -> snd (nearest n 1) <= fst (nearest n 1).
Proof.
  intro N. pose proof (nearest_mono 1 1 n 1 ltac:(lia) ltac:(lia) ltac:(lia) ltac:(lia) ltac:(lia)) as M. unfold at_most in M.
  pose proof (nearest_exact 1 1 ltac:(lia) ltac:(lia) (int_double 1 ltac:(lia))) as S. unfold same in S. cbn [fst snd] in S.
  pose proof (nearest_pos 1 1). pose proof (nearest_pos n 1). destruct (nearest 1 1) as [a b], (nearest n 1) as [c d]; cbn [fst snd] in *. nia.
Qed.
Lemma float_fits n : fits n <-> float_of (Z.abs n) = Some (nearest (Z.abs n) 1).
Proof.
  pose proof (float_none (Z.abs n) ltac:(lia)) as F. unfold fits. destruct (float_of (Z.abs n)) as [x|] eqn:E.
  - rewrite (float_is _ _ E). split; [reflexivity|]. intros _.
    destruct (Z.le_gt_cases (2 ^ 1024 - 2 ^ 970) (Z.abs n)) as [L|L]; [|exact L]. discriminate (proj2 F L).
  - split; [|discriminate]. intro L. exfalso. apply (Z.lt_irrefl (Z.abs n)). eapply Z.lt_le_trans; [exact L|exact (proj1 F eq_refl)].
Qed.
(** the double printed for a / b *)
Definition share (a b : Z) : Z * Z :=
  let x := nearest (Z.abs a) 1 in let y := nearest (Z.abs b) 1 in nearest (fst x * snd y) (snd x * fst y).
Lemma shown_share a b : fits a -> fits b -> shown a b = Some (fixed4 (xorb (a <? 0) (b <? 0)) (share a b)).
Proof.
  intros A B. apply float_fits in A. apply float_fits in B. unfold shown. rewrite A, B. unfold share. destruct (nearest (Z.abs a) 1), (nearest (Z.abs b) 1). reflexivity.
Qed.
Lemma shown_none a b : shown a b = None <-> ~ (fits a /\ fits b).
Proof.
  split.
  - intros E [A B]. rewrite shown_share in E by assumption. discriminate E.
  - intro N. unfold shown. destruct (float_of (Z.abs a)) as [x|] eqn:A; [|reflexivity]. destruct (float_of (Z.abs b)) as [y|] eqn:B; [|destruct x; reflexivity].
    exfalso. apply N. split; apply float_fits; [rewrite A, (float_is _ _ A)|rewrite B, (float_is _ _ B)]; reflexivity.
Qed.
Lemma share_pos a b : 0 < snd (share a b).
Proof. apply nearest_pos. Qed.
Lemma share_args a b : b <> 0 -> let x := nearest (Z.abs a) 1 in let y := nearest (Z.abs b) 1 in
  0 <= fst x * snd y /\ 0 < snd x * fst y /\ 0 < snd x /\ 0 < snd y.
Proof.
  intros B. cbv zeta. pose proof (nearest_pos (Z.abs a) 1) as P. pose proof (nearest_pos (Z.abs b) 1) as Q.
  pose proof (nearest_nonneg (Z.abs a) 1 ltac:(lia) ltac:(lia)) as N. pose proof (nearest_one_le (Z.abs b) ltac:(lia)) as L.
  repeat split; try assumption; nia.
Qed.
Lemma share_small a b : b <> 0 -> Z.abs a <= 2 ^ 53 -> Z.abs b <= 2 ^ 53 -> same (share a b) (nearest (Z.abs a) (Z.abs b)).
Proof.
  intros B A B'. destruct (share_args a b B) as (X1 & X2 & X3 & X4). unfold share. cbv zeta in *.
  pose proof (nearest_exact (Z.abs a) 1 ltac:(lia) ltac:(lia) (int_double (Z.abs a) (conj (Z.abs_nonneg a) A))) as SA.
  pose proof (nearest_exact (Z.abs b) 1 ltac:(lia) ltac:(lia) (int_double (Z.abs b) (conj (Z.abs_nonneg b) B'))) as SB.
  unfold same in SA, SB. cbn [fst snd] in SA, SB. rewrite Z.mul_1_r in SA, SB.
  apply nearest_same; [assumption|assumption|lia|lia|]. rewrite SA, SB. ring.
Qed.
Lemma share_nonneg a b : b <> 0 -> 0 <= fst (share a b).
Proof. intro B. destruct (share_args a b B) as (X1 & X2 & X3 & X4). apply nearest_nonneg; assumption. Qed.
Lemma share_root b : b <> 0 -> same (share b b) (1, 1).
Proof.
  intro B. destruct (share_args b b B) as (X1 & X2 & X3 & X4). unfold share. cbv zeta in *.
  apply same_trans with (nearest 1 1); [apply nearest_pos|apply nearest_pos|reflexivity| |].
  - apply nearest_same; [assumption|assumption|lia|lia|ring].
  - apply nearest_exact; [lia|lia|apply int_double; lia].
Qed.
Lemma share_mono a a' b : b <> 0 -> Z.abs a <= Z.abs a' -> at_most (share a b) (share a' b).
Proof.
  intros B L. destruct (share_args a b B) as (X1 & X2 & X3 & X4). destruct (share_args a' b B) as (Y1 & Y2 & Y3 & Y4). unfold share. cbv zeta in *.
  apply nearest_mono; try assumption.
  pose proof (nearest_mono (Z.abs a) 1 (Z.abs a') 1 ltac:(lia) ltac:(lia) ltac:(lia) ltac:(lia) ltac:(lia)) as M. unfold at_most in M.
  destruct (nearest (Z.abs a) 1) as [p q], (nearest (Z.abs a') 1) as [r s], (nearest (Z.abs b) 1) as [v w]; cbn [fst snd] in *.
  assert (V : 0 < v) by nia. replace (p * w * (s * v)) with (p * s * (w * v)) by ring. replace (r * w * (q * v)) with (r * q * (w * v)) by ring.
  apply Z.mul_le_mono_nonneg_r; [nia|exact M].
Qed.
Lemma printed_mono x y : 0 < snd x -> 0 < snd y -> at_most x y -> rne (10000 * fst x) (snd x) <= rne (10000 * fst y) (snd y).
Proof. unfold at_most. intros X Y M. apply rne_mono; [exact X|exact Y|]. nia. Qed.

Lemma rosemap_comp {A B C} (f : A -> B) (g : B -> C) t : rosemap g (rosemap f t) = rosemap (fun x => g (f x)) t.
Proof. induction t as [x ks IH] using rose_rec_ind. cbn [rosemap]. f_equal. rewrite map_map. apply map_ext_in. rewrite Forall_forall in IH. exact IH. Qed.
Lemma rosemap_captioned {A B C} (f : rose A -> B) (g : B -> C) (k : rose A -> C) t : (forall s, In s (parts t) -> g (f s) = k s) -> rosemap g (captioned f t) = captioned k t.
Proof.
  induction t as [x ks IH] using rose_rec_ind. intro H. cbn [captioned rosemap]. f_equal.
  - apply H. left. reflexivity.
  - rewrite map_map. apply map_ext_in. intros s I. rewrite Forall_forall in IH. apply IH; [exact I|]. intros r J. apply H. right. apply in_flat_map. exists s. split; assumption.
Qed.
Lemma captioned_nodes {A B} (f : rose A -> B) t : nodes (captioned f t) = map f (parts t).
Proof. induction t as [x ks IH] using rose_rec_ind. cbn [captioned nodes parts map]. f_equal. rewrite flat_map_map, map_flat_map. apply flat_map_ext_Forall. exact IH. Qed.
Lemma annotated_captioned cm total t : annotated cm total t = captioned (noted cm total) t.
Proof. induction t as [x ks IH] using rose_rec_ind. cbn [annotated captioned]. f_equal. apply map_ext_in. rewrite Forall_forall in IH. exact IH. Qed.
Lemma height_rosemap {A B} (f : A -> B) t : height (rosemap f t) = height t.
Proof. induction t as [x ks IH] using rose_rec_ind. cbn [rosemap height]. f_equal. f_equal. rewrite map_map. apply map_ext_in. rewrite Forall_forall in IH. exact IH. Qed.
Lemma height_captioned {A B} (f : rose A -> B) t : height (captioned f t) = height t.
Proof. induction t as [x ks IH] using rose_rec_ind. cbn [captioned height]. f_equal. f_equal. rewrite map_map. apply map_ext_in. rewrite Forall_forall in IH. exact IH. Qed.
Lemma linked_tree h t : forall par, linked h par t -> tree_at h t.
Proof.
  induction t as [x ks IH] using rose_rec_ind. intros par L. inversion L as [p a k E N C F]; subst. constructor.
  - rewrite C. unfold dvals. rewrite map_map. reflexivity.
  - rewrite Forall_forall in *. intros k I. apply (IH k I (Some x)). apply F. exact I.
Qed.
