(* RegexSyntax_proofs.v -- the parser inverts [show]. *)
From Verif Require Import Base PyStr Regex RegexSyntax.

Scheme rx_ind2 := Induction for rx Sort Prop
with br_ind2 := Induction for br Sort Prop
with atom_ind2 := Induction for atom Sort Prop.
Combined Scheme tree_ind from rx_ind2, br_ind2, atom_ind2.

Ltac bools :=
  repeat match goal with
  | H : _ && _ = true |- _ => apply andb_prop in H; destruct H
  | H : negb _ = true |- _ => apply negb_true_iff in H
  end.

(** ** every tree that is ok is what its text parses to *)
Lemma alnum_escape c : ascii_alnum c = false -> c <> 100 /\ c <> 117.
Proof. intros H; split; intros ->; discriminate H. Qed.
Lemma p_escape_show x q : (match x with Pl _ => false | _ => ch_ok x end) = true ->
  exists s, show_ch x ++ q = 92 :: s /\ p_escape s = Some (x, q).
Proof.
  intros H; destruct x as [c|c|a b c d|]; [discriminate| | |]; cbn [show_ch app]; eexists; (split; [reflexivity|]); cbn [p_escape].
  - cbn [ch_ok] in H; apply negb_true_iff in H; destruct (alnum_escape c H) as [A B].
    rewrite (proj2 (Z.eqb_neq c 100) A), (proj2 (Z.eqb_neq c 117) B), H; reflexivity.
  - change (117 =? 100) with false; change (117 =? 117) with true; cbv iota; rewrite H; reflexivity.
  - reflexivity.
Qed.
Lemma p_cch_show x q : cch_ok x = true -> p_cch (show_ch x ++ q) = Some (x, q).
Proof.
  intros H; destruct x as [c|c|a b c d|].
  - cbn [cch_ok] in H; apply negb_true_iff in H; apply mem_false in H.
    cbn [show_ch app p_cch].
    destruct (Z.eqb_spec c 92) as [->|N]; [elim H; left; reflexivity|].
    destruct (Z.eqb_spec c 93) as [->|N']; [elim H; right; left; reflexivity|reflexivity].
  - destruct (p_escape_show (Bs c) q H) as (s & E & P); rewrite E; exact P.
  - destruct (p_escape_show (U4 a b c d) q H) as (s & E & P); rewrite E; exact P.
  - destruct (p_escape_show Dg q H) as (s & E & P); rewrite E; exact P.
Qed.
(** how the text of a member starts *)
Lemma cch_head x q : cch_ok x = true -> exists c s, show_ch x ++ q = c :: s /\ c <> 93 /\ (is_pl 45 x = false -> c <> 45) /\ (is_pl 94 x = false -> c <> 94).
Proof.
  destruct x as [c|c|a b c d|]; intros H; cbn [show_ch app]; do 2 eexists; (split; [reflexivity|]);
    try (repeat split; intros; discriminate).
  cbn [cch_ok] in H; apply negb_true_iff, mem_false in H; repeat split.
  - intros ->; apply H; right; left; reflexivity.
  - cbn [is_pl]; apply Z.eqb_neq.
  - cbn [is_pl]; apply Z.eqb_neq.
Qed.
Lemma show_ch_len x : (1 <= length (show_ch x))%nat. Proof. destruct x; cbn; lia. Qed.

Lemma items_head l q : items_ok l = true ->
  exists c s, flat_map show_item l ++ 93 :: q = c :: s /\ (c = 45 -> exists r, l = [It (Pl 45)] /\ r = 93 :: q /\ s = r) /\ (c = 93 -> l = []) .
Proof.
  destruct l as [|i l]; intros H.
  - exists 93, q; split; [reflexivity|]; split; [discriminate|reflexivity].
  - destruct i as [x|x y]; cbn [items_ok] in H; bools; cbn [flat_map show_item]; rewrite <- ?app_assoc; cbn [app].
    + destruct (cch_head x (flat_map show_item l ++ 93 :: q) H) as (c & s & E & A & B & _); rewrite E.
      exists c, s; split; [reflexivity|]; split; [|intros C; congruence].
      intros C; destruct (is_pl 45 x) eqn:X; [|elim (B eq_refl C)].
      destruct x as [d| | |]; try discriminate; cbn [is_pl] in X; apply Z.eqb_eq in X; subst d.
      destruct l; [|cbn [negb orb] in *; discriminate].
      cbn in E; exists (93 :: q); repeat split; congruence.
    + cbn [app].
      destruct (cch_head x (45 :: show_ch y ++ flat_map show_item l ++ 93 :: q) H) as (c & s & E & A & B & _); rewrite E.
      exists c, s; split; [reflexivity|]; split; [intros C; elim (B ltac:(assumption) C)|intros C; congruence].
Qed.
Lemma cch_not_close x q : cch_ok x = true -> match show_ch x ++ q with c :: _ => (c =? 93) = false | [] => False end.
Proof. intros H; destruct (cch_head x q H) as (c & s & -> & A & _); apply Z.eqb_neq, A. Qed.

(** one step of the loop over the members, as a plain case distinction *)
Lemma p_items_step n c s x q : c <> 93 -> p_cch (c :: s) = Some (x, q) ->
  p_items (S n) (c :: s) =
  match q with
  | d :: q' =>
      if d =? 45 then
        match q' with
        | e :: q'' =>
            if e =? 93 then (if is_pl 45 x then None else Some ([It x; It (Pl 45)], q''))
            else match p_cch q' with
                 | Some (y, q'') =>
                     if is_pl 45 x || is_pl 45 y || negb (range_ok x y) then None
                     else match p_items n q'' with Some (l, t) => Some (Rng x y :: l, t) | None => None end
                 | None => None
                 end
        | [] => None
        end
      else match p_items n q with
           | Some (l, t) => if is_pl 45 x && negb (match l with [] => true | _ => false end) then None else Some (It x :: l, t)
           | None => None
           end
  | [] => match p_items n q with
           | Some (l, t) => if is_pl 45 x && negb (match l with [] => true | _ => false end) then None else Some (It x :: l, t)
           | None => None
           end
  end.
Proof.
  intros N P; cbn [p_items]; rewrite (proj2 (Z.eqb_neq c 93) N), P.
  destruct q as [|d q]; [reflexivity|].
  destruct (Z.eqb_spec d 45) as [->|D].
  - destruct q as [|e q]; [reflexivity|].
    destruct (Z.eqb_spec e 93) as [->|E]; [reflexivity|].
    destruct e as [|e|e]; try reflexivity.
    do 7 (try destruct e as [e|e|]; try reflexivity); congruence.
  - destruct d as [|d|d]; try reflexivity.
    do 6 (try destruct d as [d|d|]; try reflexivity); congruence.
Qed.

Lemma p_items_show l : items_ok l = true -> forall q n, (length (flat_map show_item l) < n)%nat ->
  p_items n (flat_map show_item l ++ 93 :: q) = Some (l, q).
Proof.
  induction l as [|i l IH]; intros H q n Hn; (destruct n as [|n]; [lia|]).
  - reflexivity.
  - destruct i as [x|x y]; cbn [items_ok] in H; bools.
    + cbn [flat_map show_item] in *; rewrite <- app_assoc; rewrite app_length in Hn; pose proof (show_ch_len x) as L.
      destruct (cch_head x (flat_map show_item l ++ 93 :: q) H) as (c & s & E & A & _).
      pose proof (p_cch_show x (flat_map show_item l ++ 93 :: q) H) as P; rewrite E in P; rewrite E.
      rewrite (p_items_step n c s x _ A P).
      destruct (items_head l q ltac:(assumption)) as (d & t & E2 & D45 & D93); rewrite E2.
      destruct (Z.eqb_spec d 45) as [C|C].
      * destruct (D45 C) as (r & -> & R & ->); rewrite R; change (93 =? 93) with true; cbv iota.
        destruct (is_pl 45 x); [discriminate|reflexivity].
      * rewrite <- E2, IH by (assumption || lia).
        destruct (is_pl 45 x); [|reflexivity]; destruct l; [reflexivity|discriminate].
    + cbn [flat_map show_item] in *; rewrite <- !app_assoc; cbn [app]; rewrite !app_length in Hn; cbn [length] in Hn; pose proof (show_ch_len x) as L.
      set (T := show_ch y ++ flat_map show_item l ++ 93 :: q).
      destruct (cch_head x (45 :: T) H) as (c & s & E & A & _).
      pose proof (p_cch_show x (45 :: T) H) as P; fold T; rewrite E in P; rewrite E.
      rewrite (p_items_step n c s x _ A P); change (45 =? 45) with true; cbv iota.
      destruct (cch_head y (flat_map show_item l ++ 93 :: q) ltac:(assumption)) as (e & t & E2 & A2 & _).
      fold T in E2; rewrite E2, (proj2 (Z.eqb_neq e 93) A2), <- E2; unfold T; rewrite p_cch_show by assumption.
      rewrite IH by (assumption || lia).
      repeat match goal with H : is_pl _ _ = _ |- _ => rewrite H end; match goal with H : range_ok _ _ = _ |- _ => rewrite H end.
      reflexivity.
Qed.
Lemma p_set_show neg l q : set_ok neg l = true ->
  exists s, show_set neg l ++ q = 91 :: s /\ p_set s = Some (neg, l, q).
Proof.
  intros H; unfold set_ok in H; bools; unfold show_set; cbn [app]; eexists; split; [reflexivity|].
  unfold p_set; rewrite <- !app_assoc; cbn [app].
  destruct l as [|i l]; [discriminate|].
  assert (P : forall s, s = flat_map show_item (i :: l) ++ 93 :: q -> p_items (S (length s)) s = Some (i :: l, q)).
  { intros s ->; apply p_items_show; [assumption|]; rewrite app_length; lia. }
  destruct neg.
  - cbn [app]; rewrite P by reflexivity; reflexivity.
  - cbn [app orb] in *; bools.
    assert (N : exists c s, flat_map show_item (i :: l) ++ 93 :: q = c :: s /\ c <> 94).
    { destruct i as [x|x y]; cbn [items_ok first_ch] in *; bools; cbn [flat_map show_item]; rewrite <- ?app_assoc; cbn [app].
      - destruct (cch_head x (flat_map show_item l ++ 93 :: q) ltac:(assumption)) as (c & s & E & _ & _ & B).
        exists c, s; split; [exact E|apply B; assumption].
      - destruct (cch_head x (45 :: show_ch y ++ flat_map show_item l ++ 93 :: q) ltac:(assumption)) as (c & s & E & _ & _ & B).
        exists c, s; split; [exact E|apply B; assumption]. }
    destruct N as (c & s & E & N); rewrite E.
    assert (M : (match c :: s with 94 :: q0 => (true, q0) | _ => (false, c :: s) end) = (false, c :: s)).
    { destruct c as [|c|c]; try reflexivity; do 7 (try destruct c as [c|c|]; try reflexivity); congruence. }
    rewrite M, <- E, P by reflexivity; reflexivity.
Qed.

Definition no_quant (s : list Z) : Prop := match s with c :: _ => c <> 42 /\ c <> 43 /\ c <> 63 | [] => True end.
Lemma p_quant_once s : no_quant s -> p_quant s = (Once, s).
Proof.
  intros N; destruct s as [|c s]; [reflexivity|]; destruct N as (A & B & C).
  destruct c as [|c|c]; try reflexivity; do 6 (try destruct c as [c|c|]; try reflexivity); congruence.
Qed.
Lemma p_quant_show q s : no_quant s -> p_quant (show_quant q ++ s) = (q, s).
Proof.
  intros N; destruct q; cbn [show_quant app]; [apply p_quant_once, N| | | |]; try reflexivity.
  destruct s as [|c s]; [reflexivity|]; destruct N as (_ & _ & C); cbn [p_quant].
  destruct c as [|c|c]; try reflexivity; do 6 (try destruct c as [c|c|]; try reflexivity); congruence.
Qed.
Lemma p_name_show n q : forallb name_char n = true -> p_name (n ++ 62 :: q) = Some (n, q).
Proof.
  induction n as [|c n IH]; intros H; [reflexivity|]; cbn [forallb] in H; bools; cbn [app p_name].
  destruct (Z.eqb_spec c 62) as [->|_]; [discriminate|]; rewrite H, IH by assumption; reflexivity.
Qed.
Lemma p_kind_show k s : kind_ok k = true -> match s with c :: _ => c <> 63 | [] => True end ->
  p_kind (show_kind k ++ s) = Some (Some k, s).
Proof.
  intros H N; destruct k as [|n|]; cbn [show_kind app].
  - destruct s as [|c s]; [reflexivity|]; destruct c as [|c|c]; try reflexivity.
    do 6 (try destruct c as [c|c|]; try reflexivity); congruence.
  - cbn [kind_ok] in H; cbn [p_kind]; rewrite <- app_assoc; cbn [app].
    rewrite p_name_show by (unfold name_ok in H; bools; assumption); rewrite H; reflexivity.
  - reflexivity.
Qed.

(** how the text of an atom starts *)
Lemma special_false c : special c = false -> ~ In c [46; 94; 36; 42; 43; 63; 91; 92; 124; 40; 41].
Proof. apply mem_false. Qed.
Lemma atom_head a s : ok_atom a = true -> exists c t, show_atom a ++ s = c :: t /\ c <> 42 /\ c <> 43 /\ c <> 63 /\ c <> 124 /\ c <> 41.
Proof.
  intros H; destruct a as [x| |neg l| | |k r|neg l]; cbn [show_atom app]; unfold show_set; cbn [app];
    try (do 2 eexists; split; [reflexivity|repeat split; discriminate]).
  destruct x as [c|c|a b c d|]; cbn [show_ch app]; do 2 eexists; (split; [reflexivity|]); try (repeat split; discriminate).
  cbn [ok_atom ch_ok] in H; apply negb_true_iff, special_false in H.
  repeat split; intros ->; apply H; cbn; tauto.
Qed.
Lemma br_no_quant b tail : ok_br b = true -> no_quant tail -> no_quant (show_br b ++ tail).
Proof.
  intros H N; destruct b as [|a q b]; [exact N|]; cbn [ok_br] in H; bools; cbn [show_br]; rewrite <- app_assoc.
  destruct (atom_head a ((show_quant q ++ show_br b) ++ tail) ltac:(assumption)) as (c & t & E & A & B & C & _); rewrite E.
  cbn; tauto.
Qed.
Definition closed (s : list Z) : Prop := match s with c :: _ => c = 41 | [] => True end.
Definition closed' (s : list Z) : Prop := match s with c :: _ => ends c = true | [] => True end.
Lemma closed_closed' s : closed s -> closed' s.
Proof. destruct s as [|c s]; [trivial|]; cbn; intros ->; reflexivity. Qed.
Lemma closed'_no_quant s : closed' s -> no_quant s.
Proof.
  destruct s as [|c s]; [trivial|]; cbn; unfold ends; intros H; repeat split; intros ->; discriminate.
Qed.
Lemma closed'_not_qm s : closed' s -> match s with c :: _ => c <> 63 | [] => True end.
Proof. intros H; apply closed'_no_quant in H; destruct s; [trivial|]; cbn in H; tauto. Qed.
Lemma brace_tail a next tail : closed' tail -> brace_ok a (next ++ tail) = brace_ok a next.
Proof.
  intros C; unfold brace_ok; destruct a as [x| | | | | |]; try reflexivity; destruct x as [c| | |]; try reflexivity.
  assert (X : match next ++ tail with [] => true | c0 :: _ => negb (between 48 57 c0 || (c0 =? 44)) end =
              match next with [] => true | c0 :: _ => negb (between 48 57 c0 || (c0 =? 44)) end).
  { destruct next as [|d next]; [|reflexivity]; cbn [app]; destruct tail as [|d tail]; [reflexivity|].
    cbn [closed'] in C; unfold ends in C; apply orb_prop in C; destruct C as [C|C]; apply Z.eqb_eq in C; subst d; reflexivity. }
  rewrite X; reflexivity.
Qed.

(** the text of an alternation starts like a branch *)
Lemma rx_not_qm r tail : ok r = true -> closed tail -> match show r ++ tail with c :: _ => c <> 63 | [] => True end.
Proof.
  intros H C; destruct r as [b|b r]; cbn [ok show] in *.
  - pose proof (br_no_quant b tail H (closed'_no_quant _ (closed_closed' _ C))) as N; destruct (show_br b ++ tail); [trivial|cbn in N; tauto].
  - bools; rewrite <- app_assoc.
    pose proof (br_no_quant b ((124 :: show r) ++ tail) ltac:(assumption) ltac:(cbn; repeat split; discriminate)) as N.
    destruct (show_br b ++ _); [trivial|cbn in N; tauto].
Qed.

Lemma round_trip_all :
  (forall r, ok r = true -> forall tail n, closed tail -> (3 * length (show r) + 3 <= n)%nat -> p_rx n (show r ++ tail) = Some (r, tail)) /\
  (forall b, ok_br b = true -> forall tail n, closed' tail -> (3 * length (show_br b) + 2 <= n)%nat -> p_br n (show_br b ++ tail) = Some (b, tail)) /\
  (forall a, ok_atom a = true -> forall tail n, (3 * length (show_atom a) + 1 <= n)%nat -> p_atom n (show_atom a ++ tail) = Some (a, tail)).
Proof.
  apply tree_ind.
  - intros b IH H tail n C Hn; cbn [show ok] in *; destruct n as [|n]; [lia|]; cbn [p_rx].
    rewrite IH by (assumption || lia || apply closed_closed', C).
    destruct tail as [|c tail]; [reflexivity|]; cbn in C; subst c; reflexivity.
  - intros b IHb r IHr H tail n C Hn; cbn [show ok] in *; bools; destruct n as [|n]; [lia|]; cbn [p_rx].
    rewrite app_length in Hn; cbn [length] in Hn; rewrite <- app_assoc; cbn [app].
    rewrite IHb by (assumption || lia || reflexivity).
    change (124 =? 124) with true; cbv iota; rewrite IHr by (assumption || lia); reflexivity.
  - intros _ tail n C Hn; cbn [show_br app]; destruct n as [|n]; [lia|]; cbn [p_br].
    destruct tail as [|c tail]; [reflexivity|]; cbn in C; rewrite C; reflexivity.
  - intros a IHa q b IHb H tail n C Hn; cbn [show_br ok_br] in *; bools; destruct n as [|n]; [lia|]; cbn [p_br].
    rewrite !app_length in Hn; rewrite <- !app_assoc.
    destruct (atom_head a (show_quant q ++ show_br b ++ tail) ltac:(assumption)) as (c & t & E & _ & _ & _ & A & B).
    assert (L : (1 <= length (show_atom a))%nat).
    { clear - H; destruct a as [x| | | | | |]; cbn [show_atom]; unfold show_set; cbn [app length]; try lia; apply show_ch_len. }
    rewrite E; unfold ends; rewrite (proj2 (Z.eqb_neq c 124) A), (proj2 (Z.eqb_neq c 41) B); cbn [orb]; rewrite <- E.
    rewrite IHa by (assumption || lia).
    rewrite p_quant_show by (apply br_no_quant; [assumption|apply closed'_no_quant, C]).
    rewrite app_assoc, brace_tail by exact C.
    match goal with X : _ || _ = true |- _ => rewrite X end.
    match goal with X : brace_ok _ _ = true |- _ => rewrite X end; cbn [andb].
    rewrite IHb by (assumption || lia); reflexivity.
  - intros x H tail n Hn; cbn [show_atom ok_atom] in *; destruct n as [|n]; [lia|].
    destruct x as [c|c|a b c d|].
    + cbn [show_ch app p_atom ch_ok] in *; apply negb_true_iff in H; pose proof (special_false c H) as N; cbn [In] in N.
      rewrite (proj2 (Z.eqb_neq c 46)), (proj2 (Z.eqb_neq c 94)), (proj2 (Z.eqb_neq c 36)), (proj2 (Z.eqb_neq c 92)),
        (proj2 (Z.eqb_neq c 91)), (proj2 (Z.eqb_neq c 40)), H by (intros ->; tauto); reflexivity.
    + destruct (p_escape_show (Bs c) tail H) as (s & E & P); rewrite E; cbn [p_atom]; rewrite P; reflexivity.
    + destruct (p_escape_show (U4 a b c d) tail H) as (s & E & P); rewrite E; cbn [p_atom]; rewrite P; reflexivity.
    + reflexivity.
  - intros _ tail n Hn; destruct n as [|n]; [cbn in Hn; lia|reflexivity].
  - intros neg l H tail n Hn; cbn [ok_atom show_atom] in *; destruct n as [|n]; [lia|].
    destruct (p_set_show neg l tail H) as (s & E & P); rewrite E; cbn [p_atom]; change (91 =? 46) with false; cbn [Z.eqb Pos.eqb]; rewrite P, H; reflexivity.
  - intros _ tail n Hn; destruct n as [|n]; [cbn in Hn; lia|reflexivity].
  - intros _ tail n Hn; destruct n as [|n]; [cbn in Hn; lia|reflexivity].
  - intros k r IH H tail n Hn; cbn [ok_atom show_atom] in *; bools; destruct n as [|n]; [lia|].
    cbn [length] in Hn; rewrite !app_length in Hn; cbn [length] in Hn.
    cbn [app p_atom Z.eqb Pos.eqb]; rewrite <- !app_assoc; cbn [app].
    rewrite p_kind_show; [|assumption|apply rx_not_qm; [assumption|reflexivity]].
    rewrite IH by (assumption || lia || reflexivity); reflexivity.
  - intros neg l H tail n Hn; cbn [ok_atom show_atom] in *; destruct n as [|n]; [lia|].
    cbn [app]; rewrite <- app_assoc; cbn [app].
    destruct (p_set_show neg l (41 :: tail) H) as (s & E & P); rewrite E; cbn [p_atom Z.eqb Pos.eqb p_kind]; rewrite P, H; reflexivity.
Qed.
Theorem parse_show r : ok r = true -> parse (show r) = Some r.
Proof.
  intros H; unfold parse; rewrite <- (app_nil_r (show r)) at 2; rewrite (proj1 round_trip_all) by (exact I || exact H || lia); reflexivity.
Qed.

(** ** everything that parses is the text of the tree found, which is ok *)
Lemma p_escape_sound s x q : p_escape s = Some (x, q) -> 92 :: s = show_ch x ++ q /\ ch_ok x = true /\ (forall c, x <> Pl c).
Proof.
  destruct s as [|c s]; [discriminate|]; cbn [p_escape].
  destruct (Z.eqb_spec c 100) as [->|_]; [intros [= <- <-]; repeat split; discriminate|].
  destruct (Z.eqb_spec c 117) as [->|_].
  - destruct s as [|a [|b [|d [|e s]]]]; try discriminate.
    destruct (ch_ok (U4 a b d e)) eqn:K; [|discriminate]; intros [= <- <-]; repeat split; [exact K|discriminate].
  - destruct (ascii_alnum c) eqn:K; [discriminate|]; intros [= <- <-]; repeat split; [cbn [ch_ok]; rewrite K; reflexivity|discriminate].
Qed.
Lemma p_cch_sound s x q : p_cch s = Some (x, q) -> s = show_ch x ++ q /\ cch_ok x = true.
Proof.
  destruct s as [|c s]; [discriminate|]; cbn [p_cch].
  destruct (Z.eqb_spec c 92) as [->|N].
  - intros H; destruct (p_escape_sound _ _ _ H) as (E & K & P); split; [exact E|]; destruct x; [elim (P c eq_refl)| | |]; exact K.
  - destruct (Z.eqb_spec c 93) as [->|N']; [discriminate|]; intros [= <- <-]; split; [reflexivity|].
    cbn [cch_ok]; apply negb_true_iff, mem_false; cbn [In]; intros [E|[E|[]]]; congruence.
Qed.
Lemma p_items_sound n : forall s l t, p_items n s = Some (l, t) -> s = flat_map show_item l ++ 93 :: t /\ items_ok l = true.
Proof.
  induction n as [|n IH]; intros s l t H; [discriminate|].
  destruct s as [|c s]; [discriminate|].
  destruct (Z.eq_dec c 93) as [->|N]; [cbn in H; injection H as <- <-; split; reflexivity|].
  destruct (p_cch (c :: s)) as [[x q]|] eqn:P; [|cbn [p_items] in H; rewrite (proj2 (Z.eqb_neq c 93) N), P in H; discriminate].
  rewrite (p_items_step n c s x q N P) in H.
  destruct (p_cch_sound _ _ _ P) as [E K]; rewrite E.
  assert (Plain : match p_items n q with
           | Some (l, t) => if is_pl 45 x && negb (match l with [] => true | _ => false end) then None else Some (It x :: l, t)
           | None => None
           end = Some (l, t) -> show_ch x ++ q = flat_map show_item l ++ 93 :: t /\ items_ok l = true).
  { destruct (p_items n q) as [[l' t']|] eqn:I; [|discriminate]; destruct (IH _ _ _ I) as [E' K'].
    destruct (is_pl 45 x && _) eqn:X; [discriminate|]; intros [= <- <-]; cbn [flat_map show_item items_ok]; rewrite <- app_assoc, <- E', K, K'; split; [reflexivity|].
    destruct (is_pl 45 x); [|reflexivity]; destruct l'; [reflexivity|discriminate]. }
  destruct q as [|d q]; [exact (Plain H)|].
  destruct (Z.eqb_spec d 45) as [->|D]; [|exact (Plain H)].
  destruct q as [|e q]; [discriminate|].
  destruct (Z.eqb_spec e 93) as [->|E93].
  - destruct (is_pl 45 x) eqn:X; [discriminate|]; injection H as <- <-; cbn [flat_map show_item items_ok show_ch]; rewrite <- !app_assoc, K, X; split; reflexivity.
  - destruct (p_cch (e :: q)) as [[y q'']|] eqn:P2; [|discriminate]; destruct (p_cch_sound _ _ _ P2) as [E2 K2].
    destruct (is_pl 45 x) eqn:X; [discriminate|]; destruct (is_pl 45 y) eqn:Y; [discriminate|]; destruct (range_ok x y) eqn:R; [|discriminate]; cbn [orb negb] in H.
    destruct (p_items n q'') as [[l' t']|] eqn:I; [|discriminate]; destruct (IH _ _ _ I) as [E' K'].
    injection H as <- <-; cbn [flat_map show_item items_ok]; rewrite K, X, K2, Y, R, K', E2, E', <- !app_assoc; split; reflexivity.
Qed.
Lemma p_set_sound s neg l t : p_set s = Some (neg, l, t) -> 91 :: s = show_set neg l ++ t.
Proof.
  unfold p_set, show_set.
  assert (G : forall b s', match p_items (S (length s')) s' with
     | Some ([], _) => None | Some (l, t) => Some (b, l, t) | None => None end = Some (neg, l, t) ->
     b = neg /\ s' = flat_map show_item l ++ 93 :: t).
  { intros b s'; destruct (p_items _ s') as [[[|i l'] t']|] eqn:I; try discriminate; intros [= <- <- <-].
    split; [reflexivity|exact (proj1 (p_items_sound _ _ _ _ I))]. }
  destruct s as [|c s]; [cbn; discriminate|].
  destruct (Z.eq_dec c 94) as [->|N].
  - intros H; destruct (G _ _ H) as [<- ->]; cbn [app]; rewrite <- app_assoc; reflexivity.
  - assert (M : (match c :: s with 94 :: q0 => (true, q0) | _ => (false, c :: s) end) = (false, c :: s)).
    { destruct c as [|c|c]; try reflexivity; do 7 (try destruct c as [c|c|]; try reflexivity); congruence. }
    rewrite M; intros H; destruct (G _ _ H) as [<- E]; cbn [app]; rewrite <- app_assoc, E; reflexivity.
Qed.
Lemma p_quant_sound s q t : p_quant s = (q, t) -> s = show_quant q ++ t.
Proof.
  destruct s as [|c s]; [intros [= <- <-]; reflexivity|].
  destruct (Z.eq_dec c 42) as [->|A].
  { destruct s as [|d s]; [intros [= <- <-]; reflexivity|].
    destruct (Z.eq_dec d 63) as [->|D]; [intros [= <- <-]; reflexivity|].
    assert (M : p_quant (42 :: d :: s) = (QStar, d :: s)).
    { cbn [p_quant]; destruct d as [|d|d]; try reflexivity; do 6 (try destruct d as [d|d|]; try reflexivity); congruence. }
    rewrite M; intros [= <- <-]; reflexivity. }
  destruct (Z.eq_dec c 43) as [->|B]; [intros [= <- <-]; reflexivity|].
  destruct (Z.eq_dec c 63) as [->|C]; [intros [= <- <-]; reflexivity|].
  rewrite p_quant_once by (cbn; tauto); intros [= <- <-]; reflexivity.
Qed.
Lemma p_name_sound s n t : p_name s = Some (n, t) -> s = n ++ 62 :: t.
Proof.
  revert n t; induction s as [|c s IH]; intros n t; [discriminate|]; cbn [p_name].
  destruct (Z.eqb_spec c 62) as [->|_]; [intros [= <- <-]; reflexivity|].
  destruct (name_char c); [|discriminate]; destruct (p_name s) as [[m q]|]; [|discriminate].
  intros [= <- <-]; cbn [app]; rewrite (IH _ _ eq_refl); reflexivity.
Qed.
Lemma p_kind_sound s k t : p_kind s = Some (k, t) ->
  match k with
  | Some k => s = show_kind k ++ t /\ kind_ok k = true
  | None => s = [63; 60; 61] ++ t
  end.
Proof.
  destruct s as [|c s]; [intros [= <- <-]; split; reflexivity|].
  destruct (Z.eq_dec c 63) as [->|A].
  2:{ assert (M : p_kind (c :: s) = Some (Some Cap, c :: s)).
      { destruct c as [|c|c]; try reflexivity; do 6 (try destruct c as [c|c|]; try reflexivity); congruence. }
      rewrite M; intros [= <- <-]; split; reflexivity. }
  destruct s as [|d s]; [discriminate|].
  destruct (Z.eq_dec d 58) as [->|D]; [intros [= <- <-]; split; reflexivity|].
  destruct (Z.eq_dec d 80) as [->|E].
  { destruct s as [|e s]; [discriminate|]; destruct (Z.eq_dec e 60) as [->|F].
    - cbn [p_kind]; destruct (p_name s) as [[n q]|] eqn:P; [|discriminate]; destruct (name_ok n) eqn:K; [|discriminate].
      intros [= <- <-]; cbn [show_kind kind_ok app]; rewrite <- app_assoc, (p_name_sound _ _ _ P); split; [reflexivity|exact K].
    - intros H; exfalso; revert H; cbn [p_kind].
      destruct e as [|e|e]; try discriminate; do 6 (try destruct e as [e|e|]; try discriminate); congruence. }
  destruct (Z.eq_dec d 60) as [->|F].
  { destruct s as [|e s]; [discriminate|]; destruct (Z.eq_dec e 61) as [->|G]; [intros [= <- <-]; reflexivity|].
    intros H; exfalso; revert H; cbn [p_kind].
    destruct e as [|e|e]; try discriminate; do 6 (try destruct e as [e|e|]; try discriminate); congruence. }
  intros H; exfalso; revert H; cbn [p_kind].
  destruct d as [|d|d]; try discriminate; do 7 (try destruct d as [d|d|]; try discriminate); congruence.
Qed.

Lemma sound_all n :
  (forall s r t, p_rx n s = Some (r, t) -> s = show r ++ t /\ ok r = true /\ closed t) /\
  (forall s b t, p_br n s = Some (b, t) -> s = show_br b ++ t /\ ok_br b = true /\ closed' t) /\
  (forall s a t, p_atom n s = Some (a, t) -> s = show_atom a ++ t /\ ok_atom a = true).
Proof.
  induction n as [|n (IHr & IHb & IHa)]; [repeat split; discriminate|]; split; [|split].
  - intros s r t; cbn [p_rx]; destruct (p_br n s) as [[b q]|] eqn:B; [|discriminate]; destruct (IHb _ _ _ B) as (E & K & C).
    destruct q as [|c q]; [intros [= <- <-]; repeat split; assumption|].
    destruct (Z.eqb_spec c 124) as [->|N].
    + destruct (p_rx n q) as [[r' t']|] eqn:R; [|discriminate]; intros [= <- <-]; destruct (IHr _ _ _ R) as (E' & K' & C').
      cbn [show ok]; rewrite K, K', E, E', <- app_assoc; repeat split; exact C'.
    + intros [= <- <-]; repeat split; [exact E|exact K|]; cbn in C; unfold ends in C; apply orb_prop in C; destruct C as [C|C]; apply Z.eqb_eq in C; [contradiction|exact C].
  - intros s b t; cbn [p_br]; destruct s as [|c s]; [intros [= <- <-]; repeat split|].
    destruct (ends c) eqn:Ends; [intros [= <- <-]; repeat split; exact Ends|].
    destruct (p_atom n (c :: s)) as [[a q]|] eqn:A; [|discriminate]; destruct (IHa _ _ _ A) as (E & K).
    destruct (p_quant q) as [qu q'] eqn:Q; pose proof (p_quant_sound _ _ _ Q) as EQ.
    destruct ((once qu || repeats a) && brace_ok a q) eqn:O; [|discriminate]; apply andb_prop in O; destruct O as [O1 O2].
    destruct (p_br n q') as [[b' t']|] eqn:B; [|discriminate]; destruct (IHb _ _ _ B) as (E' & K' & C').
    intros [= <- <-]; cbn [show_br ok_br]; rewrite K, K', O1; cbn [andb]; rewrite E, EQ, E', <- !app_assoc; repeat split; [|exact C'].
    rewrite EQ, E', app_assoc, brace_tail in O2 by exact C'; rewrite O2; reflexivity.
  - intros s a t; cbn [p_atom]; destruct s as [|c s]; [discriminate|].
    destruct (Z.eqb_spec c 46) as [->|]; [intros [= <- <-]; split; reflexivity|].
    destruct (Z.eqb_spec c 94) as [->|]; [intros [= <- <-]; split; reflexivity|].
    destruct (Z.eqb_spec c 36) as [->|]; [intros [= <- <-]; split; reflexivity|].
    destruct (Z.eqb_spec c 92) as [->|].
    { destruct (p_escape s) as [[x q]|] eqn:P; [|discriminate]; intros [= <- <-]; destruct (p_escape_sound _ _ _ P) as (E & K & _); split; assumption. }
    destruct (Z.eqb_spec c 91) as [->|].
    { destruct (p_set s) as [[[neg l] q]|] eqn:P; [|discriminate]; destruct (set_ok neg l) eqn:K; [|discriminate].
      intros [= <- <-]; split; [exact (p_set_sound _ _ _ _ P)|exact K]. }
    destruct (Z.eqb_spec c 40) as [->|].
    { destruct (p_kind s) as [[[k|] q]|] eqn:P; [| |discriminate].
      - destruct (p_kind_sound _ _ _ P) as [E K].
        destruct (p_rx n q) as [[r q']|] eqn:R; [|discriminate]; destruct (IHr _ _ _ R) as (E' & K' & C).
        destruct q' as [|d q']; [discriminate|]; cbn in C; subst d; intros [= <- <-].
        cbn [show_atom ok_atom]; rewrite K, K', E, E'; split; [|reflexivity]; cbn [app]; rewrite <- !app_assoc; reflexivity.
      - pose proof (p_kind_sound _ _ _ P) as E; cbv beta iota in E.
        destruct q as [|d q]; [discriminate|].
        destruct (Z.eq_dec d 91) as [->|D].
        + destruct (p_set q) as [[[neg l] q']|] eqn:S; [|discriminate]; pose proof (p_set_sound _ _ _ _ S) as E'.
          destruct q' as [|e q']; [discriminate|]; destruct (Z.eq_dec e 41) as [->|N].
          * destruct (set_ok neg l) eqn:K; [|discriminate]; intros [= <- <-]; cbn [show_atom ok_atom]; split; [|exact K].
            rewrite E, E'; cbn [app]; rewrite <- app_assoc; reflexivity.
          * intros H; exfalso; revert H; destruct e as [|e|e]; try discriminate; do 6 (try destruct e as [e|e|]; try discriminate); congruence.
        + intros H; exfalso; revert H; destruct d as [|d|d]; try discriminate; do 7 (try destruct d as [d|d|]; try discriminate); congruence. }
    destruct (special c) eqn:S; [discriminate|]; intros [= <- <-]; split; [reflexivity|]; cbn [ok_atom ch_ok]; rewrite S; reflexivity.
Qed.
(** the parser finds a tree exactly when the text is that of an ok tree *)
Theorem parse_iff s r : parse s = Some r <-> ok r = true /\ show r = s.
Proof.
  split.
  - unfold parse; destruct (p_rx _ s) as [[r' [|c t]]|] eqn:P; try discriminate; intros [= <-].
    destruct (proj1 (sound_all _) _ _ _ P) as (E & K & _); rewrite app_nil_r in E; split; [exact K|symmetry; exact E].
  - intros [K <-]; apply parse_show, K.
Qed.
