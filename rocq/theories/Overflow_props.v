(* Overflow_props.v -- C142 *)
From Verif Require Import Base PyText PyFmt Rose Maps_model Maps_proofs Tree_model Tree_spec Tree_proofs Tree_props Float_model Float_spec Float_proofs Float_props Overflow_model Overflow_proofs.
Local Open Scope Z_scope.

(** A distribution is built, with the counts and quotients of C62, if the total is not
    zero and every node's cumulative count has a float *)
Theorem C142_built cm h t fuel : keyed h t -> truth_opt h (parent (at_ h (root t))) = false -> (2 * rsize t < fuel)%nat ->
  let T := rosemap (details h) t in let total := cum cm T in
  total <> 0 -> (forall s, In s (parts T) -> fits (cum cm s)) ->
  exists h' t', tree_dist_float (by_node cm) fuel h (root t) = Ok (h', root t') /\ linked h' None t' /\
    rosemap (details h') t' = annotated cm total T /\
    (forall a, In a (nodes t') -> (length h <= a)%nat) /\ (forall a, (a < length h)%nat -> at_ h' a = at_ h a).
Proof.
  intros K P F T total NZ A. rewrite (proj1 (dist_float cm h t fuel K P F) (or_intror A)). pose proof (C62_counts_partial cm h t fuel K P F) as C. cbv zeta in C. fold T in C. fold total in C.
  rewrite (proj2 (Z.eqb_neq total 0) NZ) in C. exact C.
Qed.
Print Assumptions C142_built.
(** otherwise it is not: a total of zero is a ZeroDivisionError, even with counts
    without a float below the root, and a count without a float an OverflowError,
    wherever it is *)
Theorem C142_fails cm h t fuel : keyed h t -> truth_opt h (parent (at_ h (root t))) = false -> (2 * rsize t < fuel)%nat ->
  let T := rosemap (details h) t in
  (cum cm T = 0 -> tree_dist_float (by_node cm) fuel h (root t) = Raise ZeroDivisionError) /\
  (cum cm T <> 0 -> (exists s, In s (parts T) /\ ~ fits (cum cm s)) -> tree_dist_float (by_node cm) fuel h (root t) = Raise OverflowError).
Proof.
  intros K P F T. split; [|exact (proj2 (dist_float cm h t fuel K P F))].
  intro Z0. rewrite (proj1 (dist_float cm h t fuel K P F) (or_introl Z0)). pose proof (C62_counts_partial cm h t fuel K P F) as C. cbv zeta in C. fold T in C. rewrite Z0 in C. exact C.
Qed.
Print Assumptions C142_fails.
(** counts that are not negative and fit all together never overflow *)
Theorem C142_together cm h t fuel : keyed h t -> truth_opt h (parent (at_ h (root t))) = false -> (2 * rsize t < fuel)%nat ->
  (forall l a n, 0 <= cm l a n) -> fits (whole cm (rosemap (details h) t)) ->
  tree_dist_float (by_node cm) fuel h (root t) = tree_dist (by_node cm) fuel h (root t).
Proof. intros K P F NN W. apply (proj1 (dist_float cm h t fuel K P F)). right. apply whole_fits; assumption. Qed.
Print Assumptions C142_together.
(** the quotient of a count is 0.0 only if the count is 0, however large the total is *)
Theorem C142_zero a b x y q : b <> 0 -> fits b -> rounds (Z.abs a) 1 x -> rounds (Z.abs b) 1 y -> rounds (fst x * snd y) (snd x * fst y) q -> (fst q = 0 <-> a = 0).
Proof.
  intros B F (Dx & Nx & _) (Dy & Ny & _) (Dq & Nq & _).
  assert (One : is_double (1, 1)) by (split; [reflexivity|exists 1, 0; split; [lia|split; [lia|left; split; [lia|reflexivity]]]]).
  assert (Nil : is_double (0, 1)) by (split; [reflexivity|exists 0, 0; split; [lia|split; [lia|left; split; [lia|reflexivity]]]]).
  pose proof (proj1 Dx) as Sx. pose proof (proj1 Dy) as Sy. pose proof (proj1 Dq) as Sq.
  assert (Y1 : snd y <= fst y). { pose proof (Ny _ One) as X. unfold as_near in X. cbn [fst snd] in X. nia. }
  split.
  - intro Z0. destruct (Z.eq_dec a 0) as [E|N]; [exact E|exfalso].
    assert (X1 : snd x <= fst x). { pose proof (Nx _ One) as X. unfold as_near in X. cbn [fst snd] in X. nia. }
    assert (Big : is_double (2 ^ 1024, 1)). { split; [reflexivity|]. exists 1, 1024. split; [lia|split; [lia|left; split; [lia|]]]. cbn [fst snd]. rewrite Z.mul_1_l, Z.mul_1_r. reflexivity. }
    assert (Tiny : is_double (1, 2 ^ 1074)). { split; [reflexivity|]. exists 1, (-1074). split; [lia|split; [lia|right; split; [lia|reflexivity]]]. }
    assert (L : Z.abs b <= 2 ^ 1024). { unfold fits in F. apply Z.lt_le_incl, (Z.lt_le_trans _ _ _ F). vm_compute. discriminate. }
    assert (E : 2 ^ 1024 <= 2 ^ 1074) by (vm_compute; discriminate).
    pose proof (Ny _ Big) as Yb. pose proof (Nq _ Tiny) as Qt. unfold as_near in Yb, Qt. cbn [fst snd] in Yb, Qt. rewrite Z0 in Qt. 
    assert (P1 : 0 < 2 ^ 1024) by reflexivity. generalize dependent (2 ^ 1024). intros K F' L E Yb P1. clear F' F. generalize dependent (2 ^ 1074). intros J Tiny Qt E.
    assert (Y2 : fst y <= K * snd y) by nia.
    assert (G : snd x * fst y <= fst x * snd y * J). { assert (snd x * fst y <= fst x * (K * snd y)) by nia. assert (fst x * snd y * K <= fst x * snd y * J) by (apply Z.mul_le_mono_nonneg_l; nia). nia. }
    assert (0 < snd x * fst y) by nia. assert (0 <= fst x * snd y) by nia. set (d := snd x * fst y) in *. set (n := fst x * snd y) in *. clearbody d n.
    rewrite Z.mul_0_l, Z.sub_0_l, Z.abs_opp, (Z.abs_eq (n * snd q)) in Qt by nia. rewrite Z.mul_1_l, Z.abs_neq in Qt by lia. nia.
  - intros ->. pose proof (Nx _ Nil) as X. unfold as_near in X. cbn [fst snd] in X. change (Z.abs 0) with 0 in X. assert (X0 : fst x = 0) by nia. rewrite X0 in *.
    pose proof (Nq _ Nil) as Q. unfold as_near in Q. cbn [fst snd] in Q. assert (0 < snd x * fst y) by nia. nia.
Qed.
Print Assumptions C142_zero.

(** ** cases *)
(** a - (b - (d), c): one for each node but d, for which it is 2^1024 *)
Definition much (l : str) (_ : dict akey value) (_ : nat) : Z := if eqb l (u "d") then 2 ^ 1024 else 1.
Example C142_case : keyed h0 t0 /\ truth_opt h0 (parent (at_ h0 (root t0))) = false /\
  cum much (rosemap (details h0) t0) = 3 /\ (exists s, In s (parts (rosemap (details h0) t0)) /\ ~ fits (cum much s)) /\
  tree_dist_float (by_node much) 9 h0 0 = Raise OverflowError /\
  tree_dist_float (by_node (fun _ _ n => Z.of_nat n)) 9 (firstn 1 h00) 0 = Raise ZeroDivisionError /\
  (exists r, tree_dist_float (by_node (fun _ _ _ => 1)) 9 h0 0 = Ok r).
Proof.
  split; [exact C57_case|]. split; [vm_compute; reflexivity|]. split; [vm_compute; reflexivity|]. split.
  - exists (rosemap (details h0) (Rose 1%nat [Rose 3%nat []])). split; [right; left; reflexivity|]. vm_compute. discriminate.
  - split; [vm_compute; reflexivity|]. split; [vm_compute; reflexivity|]. eexists. vm_compute. reflexivity.
Qed.
Example C142_case_together : (forall l a n, 0 <= (fun (_ : str) (_ : dict akey value) (n : nat) => Z.of_nat n) l a n) /\ fits (whole (fun _ _ n => Z.of_nat n) (rosemap (details h0) t0)).
Proof. split; [intros; lia|vm_compute; reflexivity]. Qed.
Example C142_case_zero : rounds 1 1 (nearest 1 1) /\ rounds (2 ^ 1023) 1 (nearest (2 ^ 1023) 1) /\ fits (2 ^ 1023).
Proof. split; [apply nearest_rounds; lia|]. split; [apply nearest_rounds; [vm_compute; discriminate|lia]|vm_compute; reflexivity]. Qed.
