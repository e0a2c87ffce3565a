From Verif Require Import Base PyStr PyText PyFmt Maps_model Scripts_model Common_model Csv_model Tatoeba_model Kanjidic_model Radk_model Pinyin_model Place_model Misc_model Files_model Files_spec Files_proofs Encoding_model Encoding_spec.

(** ** UTF-8 *)
Ltac past := match goal with |- context[if ?a <? ?b then _ else _] => destruct (Z.ltb_spec a b); [lia|] end.
Ltac here := match goal with |- context[if ?a <? ?b then _ else _] => destruct (Z.ltb_spec a b); [|lia] end.
Lemma cont_ok x : 0 <= x < 64 -> cont (128 + x) = true.
Proof. unfold cont; intros X; destruct (Z.leb_spec 128 (128 + x)), (Z.leb_spec (128 + x) 191); try reflexivity; lia. Qed.
Lemma units_value2 c : 128 <= c < 2048 -> 2 <= c / 64 < 32 /\ 0 <= c mod 64 < 64 /\ c / 64 * 64 + c mod 64 = c.
Proof. intros H; Z.div_mod_to_equations; lia. Qed.
Lemma units_value3 c : 2048 <= c < 65536 -> (c < 55296 \/ 57343 < c) -> 0 <= c / 4096 < 16 /\ 0 <= (c / 64) mod 64 < 64 /\ 0 <= c mod 64 < 64 /\
  c / 4096 * 4096 + (c / 64) mod 64 * 64 + c mod 64 = c /\ (c / 4096 = 0 -> 32 <= (c / 64) mod 64) /\ (c / 4096 = 13 -> (c / 64) mod 64 < 32).
Proof. intros H S; Z.div_mod_to_equations; lia. Qed.
Lemma units_value4 c : 65536 <= c < 1114112 -> 0 <= c / 262144 < 5 /\ 0 <= (c / 4096) mod 64 < 64 /\ 0 <= (c / 64) mod 64 < 64 /\ 0 <= c mod 64 < 64 /\
  c / 262144 * 262144 + (c / 4096) mod 64 * 4096 + (c / 64) mod 64 * 64 + c mod 64 = c /\
  (c / 262144 = 0 -> 16 <= (c / 4096) mod 64) /\ (c / 262144 = 4 -> (c / 4096) mod 64 < 16).
Proof. intros H; Z.div_mod_to_equations; lia. Qed.
Lemma second3_ok x y : 0 <= x < 16 -> 0 <= y < 64 -> (x = 0 -> 32 <= y) -> (x = 13 -> y < 32) -> second3 (224 + x) (128 + y) = true.
Proof.
  intros X Y A B; unfold second3; destruct (Z.eqb_spec (224 + x) 224); [lia|]; destruct (Z.eqb_spec (224 + x) 237); [lia|apply cont_ok, Y].
Qed.
Lemma second4_ok x y : 0 <= x < 5 -> 0 <= y < 64 -> (x = 0 -> 16 <= y) -> (x = 4 -> y < 16) -> second4 (240 + x) (128 + y) = true.
Proof.
  intros X Y A B; unfold second4; destruct (Z.eqb_spec (240 + x) 240); [lia|]; destruct (Z.eqb_spec (240 + x) 244); [lia|apply cont_ok, Y].
Qed.
Lemma utf8_units c r : scalar c -> utf8 (units c ++ r) = push c (utf8 r).
Proof.
  unfold scalar, units; intros S.
  destruct (Z.ltb_spec c 128) as [L|L]; [cbn [app utf8]; here; reflexivity|].
  destruct (Z.ltb_spec c 2048) as [L2|L2].
  { destruct (units_value2 c) as [A [B V]]; [lia|]; revert A B V; generalize (c / 64), (c mod 64); intros x y A B V.
    cbn [app utf8]; do 2 past; here; rewrite cont_ok by exact B; f_equal; lia. }
  destruct (Z.ltb_spec c 65536) as [L3|L3].
  { destruct (units_value3 c) as [A [B [C [V [W1 W2]]]]]; [lia|lia|].
    revert A B C V W1 W2; generalize (c / 4096), ((c / 64) mod 64), (c mod 64); intros x y z A B C V W1 W2.
    cbn [app utf8]; do 3 past; here; rewrite second3_ok, cont_ok by assumption; cbn [andb]; f_equal; lia. }
  destruct (units_value4 c) as [A [B [C [D [V [W1 W2]]]]]]; [lia|].
  revert A B C D V W1 W2; generalize (c / 262144), ((c / 4096) mod 64), ((c / 64) mod 64), (c mod 64); intros x y z t A B C D V W1 W2.
  cbn [app utf8]; do 4 past; here; rewrite second4_ok by assumption; rewrite (cont_ok z C), (cont_ok t D); cbn [andb]; f_equal; lia.
Qed.
Lemma utf8_encoded s r : Forall scalar s -> utf8 (encoded s ++ r) = (s ++ fst (utf8 r), snd (utf8 r)).
Proof.
  induction 1 as [|c s C F IH]; cbn [encoded flat_map app]; [destruct (utf8 r); reflexivity|].
  rewrite <- app_assoc, utf8_units by exact C; unfold encoded in IH; rewrite IH; reflexivity.
Qed.
(* the first character of the bytes, or a malformed beginning *)
Lemma utf8_step b : bytes b -> b <> [] ->
  utf8 b = ([], false) \/ exists c r, scalar c /\ b = units c ++ r /\ bytes r.
Proof.
  intros B N; destruct b as [|b0 r0]; [contradiction|]; inversion B as [|? ? B0 R0]; subst.
  assert (D : forall A (x : A) (l r : list A), l = r -> x :: l = x :: r) by (intros; congruence).
  cbn [utf8]; destruct (Z.ltb_spec b0 128).
  { right; exists b0, r0; unfold scalar, units; destruct (Z.ltb_spec b0 128); [|lia]; split; [lia|split; [reflexivity|exact R0]]. }
  destruct (Z.ltb_spec b0 194); [left; reflexivity|].
  destruct (Z.ltb_spec b0 224).
  { destruct r0 as [|b1 r]; [left; reflexivity|]; inversion R0 as [|? ? B1 R1]; subst.
    destruct (cont b1) eqn:C1; [|left; reflexivity]; right.
    assert (128 <= b1 <= 191) by (unfold cont in C1; lia).
    exists ((b0 - 192) * 64 + (b1 - 128)), r; unfold scalar, units.
    destruct (Z.ltb_spec ((b0 - 192) * 64 + (b1 - 128)) 128); [lia|]; destruct (Z.ltb_spec ((b0 - 192) * 64 + (b1 - 128)) 2048); [|lia].
    split; [lia|split; [|exact R1]].
    cbn [app]; do 2 (apply f_equal2; [Z.div_mod_to_equations; lia|]); reflexivity. }
  destruct (Z.ltb_spec b0 240).
  { destruct r0 as [|b1 [|b2 r]]; [left; reflexivity..|]; inversion R0 as [|? ? B1 R1]; subst; inversion R1 as [|? ? B2 R2]; subst.
    destruct (second3 b0 b1 && cont b2) eqn:C; [|left; reflexivity]; right.
    assert (X : 128 <= b1 <= 191 /\ 128 <= b2 <= 191 /\ (b0 = 224 -> 160 <= b1) /\ (b0 = 237 -> b1 <= 159)).
    { unfold second3, cont in C; destruct (Z.eqb_spec b0 224), (Z.eqb_spec b0 237); lia. }
    set (c := (b0 - 224) * 4096 + (b1 - 128) * 64 + (b2 - 128)).
    assert (Y : 2048 <= c < 65536 /\ (c < 55296 \/ 57343 < c)) by (unfold c; lia).
    exists c, r; unfold scalar, units.
    destruct (Z.ltb_spec c 128); [lia|]; destruct (Z.ltb_spec c 2048); [lia|]; destruct (Z.ltb_spec c 65536); [|lia].
    split; [lia|split; [|exact R2]].
    cbn [app]; unfold c; do 3 (apply f_equal2; [Z.div_mod_to_equations; lia|]); reflexivity. }
  destruct (Z.ltb_spec b0 245); [|left; reflexivity].
  destruct r0 as [|b1 [|b2 [|b3 r]]]; [left; reflexivity..|]; inversion R0 as [|? ? B1 R1]; subst; inversion R1 as [|? ? B2 R2]; subst; inversion R2 as [|? ? B3 R3]; subst.
  destruct (second4 b0 b1 && cont b2 && cont b3) eqn:C; [|left; reflexivity]; right.
  assert (X : 128 <= b1 <= 191 /\ 128 <= b2 <= 191 /\ 128 <= b3 <= 191 /\ (b0 = 240 -> 144 <= b1) /\ (b0 = 244 -> b1 <= 143)).
  { unfold second4, cont in C; destruct (Z.eqb_spec b0 240), (Z.eqb_spec b0 244); lia. }
  set (c := (b0 - 240) * 262144 + (b1 - 128) * 4096 + (b2 - 128) * 64 + (b3 - 128)).
  assert (Y : 65536 <= c < 1114112) by (unfold c; lia).
  exists c, r; unfold scalar, units.
  destruct (Z.ltb_spec c 128); [lia|]; destruct (Z.ltb_spec c 2048); [lia|]; destruct (Z.ltb_spec c 65536); [lia|].
  split; [lia|split; [|exact R3]].
  cbn [app]; unfold c; do 4 (apply f_equal2; [Z.div_mod_to_equations; lia|]); reflexivity.
Qed.
Lemma utf8_split b : bytes b -> exists r, b = encoded (fst (utf8 b)) ++ r /\ Forall scalar (fst (utf8 b)) /\ utf8 r = ([], snd (utf8 b)) /\ bytes r.
Proof.
  remember (length b) as n eqn:L; assert (L' : (length b <= n)%nat) by lia; clear L; revert b L'.
  induction n as [|n IH]; intros b L B.
  - destruct b; [|cbn in L; lia]; exists []; repeat split; constructor.
  - destruct b as [|b0 b']; [exists []; repeat split; constructor|].
    destruct (utf8_step (b0 :: b') B ltac:(discriminate)) as [E|[c [r [S [E R]]]]].
    + rewrite E; exists (b0 :: b'); repeat split; [constructor|exact E|exact B].
    + rewrite E, utf8_units by exact S; cbn [fst snd push].
      assert (LU : (0 < length (units c))%nat) by (unfold units; destruct (c <? 128), (c <? 2048), (c <? 65536); cbn; lia).
      destruct (IH r) as [q [Q1 [Q2 [Q3 Q4]]]]; [apply (f_equal (@length Z)) in E; rewrite app_length in E; lia|exact R|].
      exists q; split; [|split; [constructor; [exact S|exact Q2]|split; assumption]].
      unfold encoded; cbn [flat_map]; rewrite <- app_assoc; f_equal; exact Q1.
Qed.
Lemma utf8_nil r x : utf8 r = ([], x) -> bytes r -> x = true -> r = [].
Proof.
  intros E B ->; destruct r as [|b r]; [reflexivity|exfalso].
  destruct (utf8_step (b :: r) B ltac:(discriminate)) as [F|[c [q [S [F Q]]]]]; [rewrite F in E; discriminate E|].
  rewrite F, utf8_units in E by exact S; discriminate E.
Qed.
Lemma utf8_exact b s : bytes b -> (utf8 b = (s, true) <-> Forall scalar s /\ b = encoded s).
Proof.
  intros B; split.
  - intros E; destruct (utf8_split b B) as [r [Q1 [Q2 [Q3 Q4]]]]; rewrite E in *; cbn [fst snd] in *.
    rewrite (utf8_nil r true Q3 Q4 eq_refl), app_nil_r in Q1; auto.
  - intros [S ->]; pose proof (utf8_encoded s [] S) as X; rewrite app_nil_r in X; rewrite X; cbn; rewrite app_nil_r; reflexivity.
Qed.
Lemma utf8_bad b s : bytes b -> (utf8 b = (s, false) <-> Forall scalar s /\ exists r, b = encoded s ++ r /\ r <> [] /\ forall c q, scalar c -> r <> units c ++ q).
Proof.
  intros B; split.
  - intros E; destruct (utf8_split b B) as [r [Q1 [Q2 [Q3 Q4]]]]; rewrite E in *; cbn [fst snd] in *.
    split; [exact Q2|]; exists r; split; [exact Q1|split; [intros ->; discriminate Q3|]].
    intros c q S ->; rewrite utf8_units in Q3 by exact S; discriminate Q3.
  - intros [S [r [-> [N M]]]]; rewrite utf8_encoded by exact S.
    assert (R : bytes r) by (unfold bytes in *; apply Forall_app in B; apply B).
    destruct (utf8_step r R N) as [F|[c [q [C [F _]]]]]; [rewrite F; cbn; rewrite app_nil_r; reflexivity|destruct (M c q C F)].
Qed.
Lemma encoded_bytes s : Forall scalar s -> bytes (encoded s).
Proof.
  intros F; unfold bytes, encoded; apply Forall_flat_map; eapply Forall_impl; [|exact F]; intros c S; unfold scalar, units in *.
  destruct (Z.ltb_spec c 128); [repeat constructor; lia|].
  destruct (Z.ltb_spec c 2048); [repeat constructor; Z.div_mod_to_equations; lia|].
  destruct (Z.ltb_spec c 65536); repeat constructor; Z.div_mod_to_equations; lia.
Qed.
