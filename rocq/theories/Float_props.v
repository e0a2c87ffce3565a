(* Float_props.v -- C122 *)
From Verif Require Import Base PyText PyFmt Rose Maps_model Maps_proofs Tree_model Tree_spec Tree_proofs Tree_props Layout_model Layout_spec Layout_proofs Layout_props Float_model Float_spec Float_proofs.
Local Open Scope Z_scope.

(** what is printed for a / float(b): both become the nearest doubles, so does
    their quotient, and this one's nearest number with four decimals is written *)
Theorem C122_shown a b : b <> 0 -> fits a -> fits b ->
  exists x y q k s, rounds (Z.abs a) 1 x /\ rounds (Z.abs b) 1 y /\ rounds (fst x * snd y) (snd x * fst y) q /\ decimals q k /\ writes s k /\
    shown a b = Some ((if xorb (a <? 0) (b <? 0) then u "-" else []) ++ s).
Proof.
  intros B A B'. destruct (share_args a b B) as (X1 & X2 & X3 & X4). cbv zeta in *.
  exists (nearest (Z.abs a) 1), (nearest (Z.abs b) 1), (share a b), (rne (10000 * fst (share a b)) (snd (share a b))), (point4 (rne (10000 * fst (share a b)) (snd (share a b)))).
  split; [apply nearest_rounds; lia|split; [apply nearest_rounds; lia|split; [apply nearest_rounds; assumption|]]].
  split; [apply rne_decimals, share_pos|split].
  - apply point4_writes. apply rne_nonneg; [|apply share_pos]. pose proof (share_nonneg a b B). lia.
  - rewrite (shown_share a b A B'), fixed4_point. reflexivity.
Qed.
Print Assumptions C122_shown.
(** numbers of 2^1024 - 2^970 and more have no float: OverflowError *)
Theorem C122_overflow a b : shown a b = None <-> ~ (fits a /\ fits b).
Proof. exact (shown_none a b). Qed.
Print Assumptions C122_overflow.
(** a value that is no quotient: a whole number is shown as the double nearest to
    it, exactly up to 2^53; what is no number is refused *)
Theorem C122_values :
  (forall a, fits a -> exists x k s, rounds (Z.abs a) 1 x /\ decimals x k /\ writes s k /\
     fixed_value (VNum a) = Ok ((if a <? 0 then u "-" else []) ++ s)) /\
  (forall a, Z.abs a <= 2 ^ 53 -> exists s, writes s (10000 * Z.abs a) /\ fixed_value (VNum a) = Ok ((if a <? 0 then u "-" else []) ++ s)) /\
  fixed_value VNone = Raise TypeError /\ forall o, fixed_value (VOther o) = Raise TypeError.
Proof.
  assert (F1 : fits 1) by (vm_compute; reflexivity).
  assert (SH : forall a, same (share a 1) (nearest (Z.abs a) 1)).
  { intro a. pose proof (nearest_exact 1 1 ltac:(lia) ltac:(lia) (int_double 1 ltac:(lia))) as ONE. unfold same in ONE. cbn [fst snd] in ONE.
    pose proof (nearest_pos (Z.abs a) 1) as P. pose proof (nearest_pos 1 1) as P1. pose proof (nearest_nonneg (Z.abs a) 1 (Z.abs_nonneg a) ltac:(lia)) as P0.
    pose proof (nearest_double (Z.abs a) 1 (Z.abs_nonneg a) ltac:(lia)) as D. unfold share. cbv zeta. change (Z.abs 1) with 1.
    set (x := nearest (Z.abs a) 1) in *. set (y := nearest 1 1) in *.
    assert (N : same (nearest (fst x * snd y) (snd x * fst y)) (nearest (fst x) (snd x))).
    { apply nearest_same; nia. }
    assert (E : same (nearest (fst x) (snd x)) x).
    { replace x with (fst x, snd x) at 3 by (destruct x; reflexivity). apply nearest_exact; [exact P0|exact P|]. destruct x; exact D. }
    unfold same in *. pose proof (nearest_pos (fst x) (snd x)) as P2. set (n := nearest (fst x * snd y) (snd x * fst y)) in *. set (m := nearest (fst x) (snd x)) in *.
    apply (Z.mul_reg_r _ _ (snd m)); [lia|]. replace (fst n * snd x * snd m) with (fst n * snd m * snd x) by ring. rewrite N.
    replace (fst m * snd n * snd x) with (fst m * snd x * snd n) by ring. rewrite E. ring. }
  assert (V : forall a, fits a -> fixed_value (VNum a) = Ok ((if a <? 0 then u "-" else []) ++ point4 (rne (10000 * fst (nearest (Z.abs a) 1)) (snd (nearest (Z.abs a) 1))))).
  { intros a A. unfold fixed_value. rewrite (shown_share a 1 A F1), fixed4_point, (rne_same _ _ (share_pos a 1) (nearest_pos (Z.abs a) 1) (SH a)).
    change (1 <? 0) with false. rewrite xorb_false_r. reflexivity. }
  split; [|split; [|split; [reflexivity|intro o; reflexivity]]]; intros a A.
  - pose proof (nearest_nonneg (Z.abs a) 1 (Z.abs_nonneg a) ltac:(lia)) as P0.
    exists (nearest (Z.abs a) 1), (rne (10000 * fst (nearest (Z.abs a) 1)) (snd (nearest (Z.abs a) 1))), (point4 (rne (10000 * fst (nearest (Z.abs a) 1)) (snd (nearest (Z.abs a) 1)))).
    split; [apply nearest_rounds; lia|split; [apply rne_decimals, nearest_pos|split; [|exact (V a A)]]].
    apply point4_writes, rne_nonneg; [lia|apply nearest_pos].
  - assert (FA : fits a) by (unfold fits; apply Z.le_lt_trans with (2 ^ 53); [exact A|vm_compute; reflexivity]).
    exists (point4 (10000 * Z.abs a)). split; [apply point4_writes; lia|]. rewrite (V a FA).
    rewrite (rne_same _ (Z.abs a, 1) (nearest_pos (Z.abs a) 1) ltac:(cbn; lia) (nearest_exact (Z.abs a) 1 (Z.abs_nonneg a) ltac:(lia) (int_double (Z.abs a) (conj (Z.abs_nonneg a) A)))).
    cbn [fst snd]. do 3 f_equal. unfold rne. rewrite Z.div_1_r, Z.mod_1_r. reflexivity.
Qed.
Print Assumptions C122_values.
Example C122_case_values : fixed_value (VNum (-12)) = Ok (u "-12.0000") /\ fixed_value (VNum (2 ^ 53 + 1)) = Ok (u "9007199254740992.0000").
Proof. vm_compute; repeat split. Qed.
(** the text can be read back *)
Theorem C122_reading s k k' : writes s k -> writes s k' -> k = k'.
Proof. exact (writes_fun s k k'). Qed.
Print Assumptions C122_reading.

(** for counts below 450359962738 the two roundings give what one would: the
    nearest number with four decimals to the exact quotient *)
Theorem C122_nearest a b : 0 <= a -> 0 < b <= 2 ^ 53 -> 20000 * a < 2 ^ 53 -> exists k s, shown a b = Some s /\ writes s k /\ closest a b k.
Proof.
  intros A B S. assert (F : forall n, 0 <= n <= 2 ^ 53 -> fits n).
  { intros n N. unfold fits. rewrite Z.abs_eq by lia. apply Z.le_lt_trans with (2 ^ 53); [lia|]. vm_compute. reflexivity. }
  rewrite (shown_share a b (F a ltac:(lia)) (F b ltac:(lia))). pose proof (share_small a b ltac:(lia) ltac:(lia) ltac:(lia)) as SS.
  rewrite !Z.abs_eq in SS by lia. pose proof (twice a b A B S) as T. cbv zeta in T.
  rewrite <- (rne_same _ _ (share_pos a b) (nearest_pos a b) SS) in T.
  exists (rne (10000 * fst (share a b)) (snd (share a b))), (point4 (rne (10000 * fst (share a b)) (snd (share a b)))).
  split; [|split; [|exact T]].
  - rewrite fixed4_point. rewrite (proj2 (Z.ltb_ge a 0)), (proj2 (Z.ltb_ge b 0)) by lia. reflexivity.
  - apply point4_writes. apply rne_nonneg; [|apply share_pos]. pose proof (share_nonneg a b ltac:(lia)). lia.
Qed.
Print Assumptions C122_nearest.
(** for larger counts not always: 0.4178 is printed although 0.4179 is nearer *)
Theorem C122_rounded_twice : exists a b s k, 0 < a < b /\ b < 2 ^ 42 /\ shown a b = Some s /\ writes s k /\ ~ closest a b k.
Proof.
  exists 1465604036091, 3507488419507, (u "0.4178"), 4178.
  split; [lia|split; [vm_compute; reflexivity|split; [vm_compute; reflexivity|split]]].
  - apply (point4_writes 4178). lia.
  - intro C. specialize (C 4179). vm_compute in C. apply C. reflexivity.
Qed.
Print Assumptions C122_rounded_twice.

(** the root of a distribution is always shown as 1.0000 *)
Theorem C122_root b : b <> 0 -> fits b -> shown b b = Some (u "1.0000").
Proof.
  intros B F. rewrite (shown_share b b F F), fixed4_point, xorb_nilpotent.
  rewrite (rne_same _ _ (share_pos b b) (eq_refl : 0 < snd (1, 1)) (share_root b B)). vm_compute. reflexivity.
Qed.
Print Assumptions C122_root.
(** a larger count never shows a smaller frequency, and none shows more than 1.0000 *)
Theorem C122_order a a' b : 0 <= a <= a' -> a' <= b -> 0 < b -> fits b ->
  exists k k' s s', shown a b = Some s /\ writes s k /\ shown a' b = Some s' /\ writes s' k' /\ 0 <= k <= k' /\ k' <= 10000.
Proof.
  intros A A' B F. assert (FA : fits a) by (unfold fits in *; lia). assert (FA' : fits a') by (unfold fits in *; lia).
  assert (NN : forall c, 0 <= rne (10000 * fst (share c b)) (snd (share c b))).
  { intro c. apply rne_nonneg; [|apply share_pos]. pose proof (share_nonneg c b ltac:(lia)). lia. }
  exists (rne (10000 * fst (share a b)) (snd (share a b))), (rne (10000 * fst (share a' b)) (snd (share a' b))).
  exists (point4 (rne (10000 * fst (share a b)) (snd (share a b)))), (point4 (rne (10000 * fst (share a' b)) (snd (share a' b)))).
  split; [rewrite (shown_share a b FA F), fixed4_point, (proj2 (Z.ltb_ge a 0)), (proj2 (Z.ltb_ge b 0)) by lia; reflexivity|].
  split; [apply point4_writes, NN|].
  split; [rewrite (shown_share a' b FA' F), fixed4_point, (proj2 (Z.ltb_ge a' 0)), (proj2 (Z.ltb_ge b 0)) by lia; reflexivity|].
  split; [apply point4_writes, NN|]. split; [split; [apply NN|]|].
  - apply printed_mono; [apply share_pos|apply share_pos|]. apply share_mono; lia.
  - pose proof (printed_mono (share a' b) (share b b) (share_pos a' b) (share_pos b b) (share_mono a' b b ltac:(lia) ltac:(lia))) as M.
    rewrite (rne_same (share b b) (1, 1) (share_pos b b) eq_refl (share_root b ltac:(lia))) in M. exact M.
Qed.
Print Assumptions C122_order.

(** TreeDist(...).layout(): the tree with each label followed by what is shown of
    the node's cumulative count over the total *)
Definition caption (cm : str -> dict akey value -> nat -> Z) (total : Z) (s : rose (str * dict akey value)) : str :=
  fst (root s) ++ u " " ++ match shown (cum cm s) total with Some x => x | None => [] end.
Theorem C122_layout cm h t fuel limit : keyed h t -> truth_opt h (parent (at_ h (root t))) = false -> (2 * rsize t < fuel)%nat -> (height t <= limit)%nat ->
  let T := rosemap (details h) t in let total := cum cm T in
  total <> 0 -> (forall s, In s (parts T) -> fits (cum cm s)) ->
  exists h' r, tree_dist (by_node cm) fuel h (root t) = Ok (h', r) /\
    dist_layout fixed_value limit h' r = (draw (captioned (caption cm total) T), Ok tt).
Proof.
  intros K P FU L T total NZ FT. pose proof (C62_counts_partial cm h t fuel K P FU) as C. cbv zeta in C. fold T in C. fold total in C.
  rewrite (proj2 (Z.eqb_neq total 0) NZ) in C. destruct C as (h' & t' & E & LK & D & _ & _).
  exists h', (root t'). split; [exact E|].
  rewrite annotated_captioned in D.
  assert (FTOT : fits total) by (apply FT; destruct T; left; reflexivity).
  pose (name := fun d : str * dict akey value => match dget (KStr (u "freq")) (snd d) with Some (VQuot a b) => match shown a b with Some x => x | None => [] end | _ => [] end).
  assert (FR : forall s, dget (KStr (u "freq")) (snd (noted cm total s)) = Some (VQuot (cum cm s) total)).
  { intro s. unfold noted. cbn [snd]. apply dget_dset_same. }
  pose proof (C84_frequencies fixed_value h' t' (fun n => name (details h' n)) limit (linked_tree h' t' None LK)) as FQ.
  rewrite FQ; clear FQ.
  - f_equal. f_equal.
    transitivity (rosemap (fun d : str * dict akey value => fst d ++ u1 " " :: name d) (rosemap (details h') t')); [rewrite rosemap_comp; reflexivity|].
    rewrite D. apply rosemap_captioned. intros s I. unfold name. rewrite FR. reflexivity.
  - intros n I.
    assert (J : In (details h' n) (nodes (rosemap (details h') t'))) by (rewrite rosemap_nodes; apply in_map; exact I).
    rewrite D, captioned_nodes in J. apply in_map_iff in J. destruct J as (s & ES & IS).
    exists (VQuot (cum cm s) total). unfold name. change (attrib (at_ h' n)) with (snd (details h' n)). rewrite <- ES, FR. split; [reflexivity|].
    cbn [fixed_value]. rewrite (shown_share (cum cm s) total (FT s IS) FTOT). reflexivity.
  - rewrite <- (height_rosemap (details h') t'), D, height_captioned. unfold T. rewrite height_rosemap. exact L.
Qed.
Print Assumptions C122_layout.

Example C122_case : shown 1 3 = Some (u "0.3333") /\ shown 2 3 = Some (u "0.6667") /\ shown 1 32 = Some (u "0.0312") /\ shown 3 32 = Some (u "0.0938") /\
  shown (-7) 2 = Some (u "-3.5000") /\ shown 0 (-2) = Some (u "-0.0000") /\ shown 123456789 7 = Some (u "17636684.1429") /\ shown (2 ^ 1024) 1 = None.
Proof. vm_compute. repeat split; reflexivity. Qed.
Print Assumptions C122_case.
(** every node of a - (b - (d), c) counted once: a stands for three, b for two of them *)
Example C122_drawn : let one (_ : str) (_ : dict akey value) (_ : nat) := 1 in let T := rosemap (details h0) t0 in
  keyed h0 t0 /\ truth_opt h0 (parent (at_ h0 (root t0))) = false /\ cum one T <> 0 /\ (forall s, In s (parts T) -> fits (cum one s)) /\
  draw (captioned (caption one (cum one T)) T) = [u "a 1.0000"; u "├─ b 0.6667"; u "│  └─ d 0.3333"; u "└─ c 0.3333"].
Proof.
  cbv zeta. split; [exact C57_case|split; [vm_compute; reflexivity|split; [vm_compute; discriminate|split; [|vm_compute; reflexivity]]]].
  intros s I. unfold t0 in I. cbn [rosemap map parts flat_map app In] in I.
  repeat (destruct I as [<-|I]; [vm_compute; reflexivity|]). destruct I.
Qed.
Print Assumptions C122_drawn.
Example C122_case_writes : writes (u "12.3450") 123450 /\ writes (u "0.0312") 312.
Proof.
  split; [exists (u "12"), (u "3450")|exists (u "0"), (u "0312")]; (split; [reflexivity|split; [discriminate|split; [reflexivity|split; [|vm_compute; reflexivity]]]]);
    repeat apply Forall_cons; try apply Forall_nil; vm_compute; split; discriminate.
Qed.
