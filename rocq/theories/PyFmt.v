(* PyFmt.v -- str(int) / "%d", and the lines of a text file *)
From Verif Require Import Base PyText.

(** the decimal digits of a number, most significant first *)
Fixpoint dec_digits (fuel : nat) (n : Z) (acc : str) : str :=
  match fuel with
  | O => acc
  | S f => if n <? 10 then (48 + n) :: acc else dec_digits f (n / 10) ((48 + n mod 10) :: acc)
  end.
(** str(n), and what "%d" writes *)
Definition dec (n : Z) : str :=
  if n <? 0 then 45 :: dec_digits (S (Z.to_nat (Z.log2 (- n)))) (- n) [] else dec_digits (S (Z.to_nat (Z.log2 n))) n [].

Definition digit_char (c : Z) : Prop := 48 <= c <= 57.
Fixpoint dvalue (acc : Z) (s : str) : Z := match s with [] => acc | c :: r => dvalue (acc * 10 + (c - 48)) r end.
Lemma dvalue_app s t : forall acc, dvalue acc (s ++ t) = dvalue (dvalue acc s) t.
Proof. induction s as [|c s IH]; intros acc; [reflexivity|apply IH]. Qed.

Lemma dec_digits_spec fuel : forall n acc, 0 <= n -> (n < 2 ^ Z.of_nat fuel) -> (0 < fuel)%nat ->
  exists ds, dec_digits fuel n acc = ds ++ acc /\ ds <> [] /\ Forall digit_char ds /\ dvalue 0 ds = n.
Proof.
  induction fuel as [|f IH]; intros n acc N B F; [lia|]; cbn [dec_digits].
  destruct (Z.ltb_spec n 10) as [L|L].
  - exists [48 + n]; split; [reflexivity|split; [discriminate|split; [constructor; [unfold digit_char; lia|constructor]|cbn [dvalue]; lia]]].
  - pose proof (Z.div_mod n 10 ltac:(lia)) as DM; pose proof (Z.mod_pos_bound n 10 ltac:(lia)) as MB.
    assert (F' : (0 < f)%nat).
    { destruct f; [|lia]; cbn in B; lia. }
    destruct (IH (n / 10) ((48 + n mod 10) :: acc)) as [ds [E [NE [D V]]]]; [lia| |exact F'|].
    { rewrite Nat2Z.inj_succ, Z.pow_succ_r in B by lia; apply Z.div_lt_upper_bound; [lia|]; nia. }
    exists (ds ++ [48 + n mod 10]); split; [rewrite E, <- app_assoc; reflexivity|].
    split; [destruct ds; discriminate|split; [apply Forall_app; split; [exact D|constructor; [unfold digit_char; lia|constructor]]|]].
    rewrite dvalue_app, V; cbn [dvalue]; lia.
Qed.
Lemma log2_fuel n : 0 <= n -> n < 2 ^ Z.of_nat (S (Z.to_nat (Z.log2 n))).
Proof.
  intros N; rewrite Nat2Z.inj_succ, Z2Nat.id by apply Z.log2_nonneg.
  destruct (Z.eq_dec n 0) as [->|NZ]; [cbn; lia|apply Z.log2_spec; lia].
Qed.
Lemma dec_spec n : exists ds, dec n = (if n <? 0 then [45] else []) ++ ds /\ ds <> [] /\ Forall digit_char ds /\ dvalue 0 ds = Z.abs n.
Proof.
  unfold dec; destruct (Z.ltb_spec n 0).
  - destruct (dec_digits_spec (S (Z.to_nat (Z.log2 (- n)))) (- n) []) as [ds [E R]]; [lia|apply log2_fuel; lia|lia|].
    exists ds; rewrite E, app_nil_r; split; [reflexivity|]; replace (Z.abs n) with (- n) by lia; exact R.
  - destruct (dec_digits_spec (S (Z.to_nat (Z.log2 n))) n []) as [ds [E R]]; [lia|apply log2_fuel; lia|lia|].
    exists ds; rewrite E, app_nil_r; split; [reflexivity|]; replace (Z.abs n) with n by lia; exact R.
Qed.
Lemma dec_chars n : Forall (fun c => digit_char c \/ c = 45) (dec n) /\ dec n <> [].
Proof.
  destruct (dec_spec n) as [ds [-> [NE [D _]]]]; split.
  - apply Forall_app; split; [destruct (n <? 0); [constructor; [right; reflexivity|constructor]|constructor]|].
    eapply Forall_impl; [|exact D]; intros c H; left; exact H.
  - destruct (n <? 0); destruct ds; try discriminate; contradiction.
Qed.
Lemma digit_not_space c : digit_char c \/ c = 45 -> is_space c = false.
Proof.
  intros H; assert (B : 45 <= c <= 57) by (unfold digit_char in H; lia); clear H.
  assert (T : forallb (fun k => negb (is_space (45 + Z.of_nat k))) (seq 0 13) = true) by (vm_compute; reflexivity).
  rewrite forallb_forall in T; specialize (T (Z.to_nat (c - 45))).
  rewrite Z2Nat.id in T by lia; replace (45 + (c - 45)) with c in T by lia.
  apply negb_true_iff, T, in_seq; lia.
Qed.
Lemma dec_solid n : solid (dec n).
Proof.
  unfold solid; apply forallb_forall; intros c I; destruct (dec_chars n) as [F _]; rewrite Forall_forall in F.
  rewrite (digit_not_space c (F c I)); reflexivity.
Qed.
Lemma digits_val_dec dv ds : ascii_digits dv -> Forall digit_char ds -> forall acc need, (ds <> [] \/ need = false) ->
  digits_val dv 10 acc need ds = Some (dvalue acc ds).
Proof.
  intros A; induction ds as [|c ds IH]; intros D acc need N; cbn [digits_val dvalue].
  - destruct N as [N| ->]; [contradiction|reflexivity].
  - inversion D as [|? ? Dc D']; subst; destruct A as [A1 A2]; unfold digit_char in Dc.
    assert (E : dv c = Some (c - 48)) by (rewrite <- (A1 (c - 48)) by lia; f_equal; lia).
    unfold digit_val; rewrite E; destruct (Z.ltb_spec (c - 48) 10); [|lia].
    apply IH; [exact D'|right; reflexivity].
Qed.
Lemma lstrip_by_id p s : (forall c, In c s -> p c = false) -> lstrip_by p s = s.
Proof. destruct s as [|c s]; intros H; cbn [lstrip_by]; [reflexivity|]; rewrite H by (left; reflexivity); reflexivity. Qed.
Theorem py_int_dec dv n : ascii_digits dv -> py_int dv 10 (dec n) = Some n.
Proof.
  intros A; destruct (dec_chars n) as [F _]; unfold py_int.
  assert (P : forall c, In c (dec n) -> int_space c = false).
  { intros c I; rewrite Forall_forall in F; specialize (F c I); unfold int_space.
    rewrite (digit_not_space c F), andb_false_r, orb_false_r.
    assert (45 <= c <= 57) by (unfold digit_char in F; lia).
    destruct (Z.leb_spec 9 c), (Z.leb_spec c 13), (Z.eqb_spec c 32); try lia; reflexivity. }
  rewrite (lstrip_by_id _ (dec n) P), lstrip_by_id, rev_involutive by (intros c I; apply P, in_rev, I).
  destruct (dec_spec n) as [ds [E [NE [D V]]]]; rewrite E; destruct (Z.ltb_spec n 0); cbn [app Z.eqb Pos.eqb].
  - rewrite (digits_val_dec dv ds A D 0 true (or_introl NE)), V; cbn [option_map]; f_equal; lia.
  - destruct ds as [|c ds]; [contradiction|]; inversion D as [|? ? Dc _]; subst; unfold digit_char in Dc.
    destruct (Z.eqb_spec c 43), (Z.eqb_spec c 45); try lia.
    rewrite (digits_val_dec dv (c :: ds) A D 0 true (or_introl NE)), V; cbn [option_map]; f_equal; lia.
Qed.
Lemma dec_inj n m : dec n = dec m -> n = m.
Proof. intros E; pose proof (py_int_dec ascii_dv n ascii_dv_ok) as X; rewrite E, (py_int_dec ascii_dv m ascii_dv_ok) in X; congruence. Qed.

(** the lines of a text read in text mode: "\r\n" and "\r" are turned into
    "\n", every line keeps its end *)
Fixpoint lines_from (cur : str) (s : str) : list str :=
  match s with
  | [] => match cur with [] => [] | _ => [rev cur] end
  | c :: r =>
      if c =? 10 then rev (10 :: cur) :: lines_from [] r
      else if c =? 13 then
        match r with
        | d :: r' => if d =? 10 then rev (10 :: cur) :: lines_from [] r' else rev (10 :: cur) :: lines_from [] r
        | [] => rev (10 :: cur) :: lines_from [] r
        end
      else lines_from (c :: cur) r
  end.
Definition file_lines (s : str) : list str := lines_from [] s.
Definition no_break (s : str) : Prop := forall c, In c s -> c <> 10 /\ c <> 13.
Lemma lines_from_line l : forall cur r, no_break l -> lines_from cur (l ++ 10 :: r) = (rev cur ++ l ++ [10]) :: file_lines r.
Proof.
  induction l as [|c l IH]; intros cur r N; cbn [app lines_from].
  - cbn [Z.eqb Pos.eqb rev]; reflexivity.
  - destruct (N c (or_introl eq_refl)) as [N1 N2]; destruct (Z.eqb_spec c 10), (Z.eqb_spec c 13); try contradiction.
    rewrite IH by (intros d I; apply N; right; exact I); cbn [rev]; rewrite <- app_assoc; reflexivity.
Qed.
Lemma file_lines_line l r : no_break l -> file_lines (l ++ 10 :: r) = (l ++ [10]) :: file_lines r.
Proof. intros N; apply (lines_from_line l [] r N). Qed.
Lemma file_lines_all ls : Forall no_break ls -> file_lines (flat_map (fun l => l ++ [10]) ls) = map (fun l => l ++ [10]) ls.
Proof.
  induction 1 as [|l ls N F IH]; [reflexivity|]; cbn [flat_map map]; rewrite <- app_assoc; cbn [app].
  rewrite file_lines_line by exact N; f_equal; exact IH.
Qed.
Lemma solid_no_break s : solid s -> no_break s.
Proof.
  intros S c I; unfold solid in S; rewrite forallb_forall in S; specialize (S c I); split; intros ->; vm_compute in S; discriminate S.
Qed.
