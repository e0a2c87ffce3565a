(* Interrupt_proofs.v -- proofs for Interrupt_props.v *)
From Verif Require Import Base PyStr Common_model SmartCache_model SmartCache_spec SmartCache_proofs Interrupt_model Interrupt_spec.

Lemma struck_app a b : struck (a ++ b) = struck a ++ struck b.
Proof. apply flat_map_app. Qed.
Lemma last_strike_app a b : last_strike (a ++ b) = match last_strike b with Some e => Some e | None => last_strike a end.
Proof.
  unfold last_strike; rewrite struck_app, filter_app, rev_app_distr.
  destruct (rev (filter _ (struck b))) as [|[l e] r]; reflexivity.
Qed.
Lemma last_strike_reading a : Forall (fun x => reading (fst x) = true) a -> last_strike a = None.
Proof.
  intros F; unfold last_strike.
  assert (X : filter (fun x => negb (reading (fst x))) (struck a) = []); [|rewrite X; reflexivity].
  induction F as [|[l [e|]] a Hl F IH]; cbn [struck flat_map fst snd app filter] in *; [reflexivity| |exact IH].
  rewrite Hl; exact IH.
Qed.
Lemma last_strike_calm a : struck a = [] -> last_strike a = None.
Proof. intros E; unfold last_strike; rewrite E; reflexivity. Qed.
Lemma ddel_dset_fresh {K V} `{EqB K} (k : K) (v : V) d : ~ In k (dkeys d) -> ddel k (dset k v d) = d.
Proof.
  unfold dkeys; induction d as [|[a b] r IH]; cbn [dset map In fst ddel]; intros N.
  - rewrite eqb_refl; reflexivity.
  - rewrite (eqb_neq k a) by (intros ->; apply N; left; reflexivity); cbn [ddel].
    rewrite (eqb_neq k a) by (intros ->; apply N; left; reflexivity).
    f_equal; apply IH; intros X; apply N; right; exact X.
Qed.
Lemma dset_twice {K V} `{EqB K} (k : K) (v v' : V) d : dset k v (dset k v' d) = dset k v d.
Proof.
  induction d as [|[a b] r IH]; cbn [dset]; [rewrite eqb_refl; reflexivity|].
  destruct (eqb k a) eqn:E; cbn [dset]; rewrite E; [reflexivity|f_equal; exact IH].
Qed.

Section Interrupt.
  Variable set_order : list (option path) -> list (option path).
  Context {O W : Type}.
  Variable oeq : O -> O -> bool.
  Variable none : O.
  Variable is_none : O -> bool.
  Variable dump : O -> list Z * option exn.
  Variable load : list Z -> option (O * list Z).
  Variable encode decode : path -> list Z -> list Z.
  Variable readable writable : path -> bool.
  Variable method : W * fs -> O -> O -> (W * fs) * res O.
  Variable halted : exn -> W * fs -> O -> O -> W * fs.
  Variable strike : nat -> option (exn * nat).
  Notation world := (@world W).
  Notation read_block := (read_block oeq load encode decode readable strike).
  Notation try_struck := (try_cache_struck set_order oeq none load encode decode readable strike).
  Notation store_struck := (store_struck dump encode writable strike).
  Notation read_cache := (read_cache oeq none load decode readable).
  Notation try_cache := (try_cache set_order oeq none load decode readable).
  Notation store := (store_cache_object dump encode writable).
  Notation needs_update := (needs_update set_order).

  Lemma sound_fresh (w : world) : sound w -> ~ In (made w) (dkeys (open w)).
  Proof. intros [_ F] I; rewrite Forall_forall in F; specialize (F _ I); lia. Qed.

  Ltac points := repeat match goal with
    | |- context [strike ?n] => destruct (strike n) as [[? ?]|] eqn:?; cbn [option_map fst snd]
    end.
  Ltac loads := repeat (cbn [option_map fst snd open made files outside passed]; match goal with
    | |- context [strike ?n] => destruct (strike n) as [[? ?]|] eqn:?
    | |- context [load ?b] => destruct (load b) as [[? ?]|] eqn:?
    | |- context [oeq ?x ?y && oeq ?z ?t] => destruct (oeq x y && oeq z t) eqn:?
    end); cbn [option_map fst snd open made files outside passed].
  Ltac fin := eexists; split; [rewrite <- ?app_assoc; cbn [app]; reflexivity|];
    repeat match goal with |- _ /\ _ => split end;
    try reflexivity; try (left; reflexivity); try (right; reflexivity); try (repeat constructor; fail); try (cbn; lia);
    try (cbn; discriminate); try (intros _; eexists; reflexivity);
    try (intros Q; exfalso; match goal with H : strike _ = Some _ |- _ => rewrite (Q _) in H; discriminate end).

  (* the lines inside the with block *)
  Definition block (a p : O) (b : list Z) : @M W (option O) :=
    seq (load_one load strike 117 b) (fun x =>
    seq (load_one load strike 118 (snd x)) (fun y =>
    seq (point strike 120) (fun _ =>
    if oeq (fst x) a && oeq (fst y) p then
      seq (load_one load strike 121 (snd y)) (fun z => seq (point strike 122) (fun _ => ret (Some (fst z))))
    else ret None))).
  Lemma block_spec a p b (w w' : world) r : block a p b w = (w', r) -> exists new,
    w' = mkworld (outside w) (files w) (made w) (open w) (passed w ++ new) /\
    Forall (fun x => reading (fst x) = true) new /\
    (length (struck new) <= 1)%nat /\
    (struck new = [] -> match r with
                        | Ok x => load3 oeq none load b a p = Some (match x with Some o => o | None => none end)
                        | Raise _ => load3 oeq none load b a p = None
                        end) /\
    (struck new <> [] -> exists e, r = Raise e) /\
    (quiet strike -> struck new = []).
  Proof.
    destruct w as [o fl m op ps]; unfold block, load_one, seq, point, fail, ret, pass, clock, load3.
    loads; intros E; injection E as <- <-; cbn [open made files outside passed]; fin;
    intros X; exfalso; apply X; reflexivity.
  Qed.

  Lemma read_block_spec f a p (w : world) : sound w -> forall w' r, read_block f a p w = (w', r) -> exists new,
    passed w' = passed w ++ new /\ outside w' = outside w /\ files w' = files w /\
    (made w' = made w \/ made w' = S (made w)) /\
    Forall (fun x => reading (fst x) = true) new /\
    (open w' = open w \/ (open w' = dset (made w) Reader (open w) /\ made w' = S (made w) /\ exists e, r = Raise e)) /\
    (length (struck new) <= 2)%nat /\
    (struck new = [] -> match r with
                        | Ok x => read_cache (files w) f a p = Some (match x with Some o => o | None => none end)
                        | Raise _ => read_cache (files w) f a p = None
                        end) /\
    (struck new <> [] -> exists e, r = Raise e) /\
    (quiet strike -> struck new = []).
  Proof.
    intros SD w' r; apply sound_fresh in SD.
    change (read_block f a p) with (with_stream encode strike 116 (open_read decode readable strike f) (fun _ b => block a p b)).
    rewrite read_cache_load3; unfold with_stream, open_read, seq, point at 1.
    destruct (strike (clock w)) as [[e n]|] eqn:K0.
    { intros E; injection E as <- <-; destruct w as [o fl m op ps]; unfold pass; rewrite K0; cbn [open made files outside passed option_map fst]; fin. }
    replace (files (pass strike 116 w)) with (files w) by reflexivity.
    destruct (sopen_std f (u "rb")).
    { intros E; injection E as <- <-; destruct w as [o fl m op ps]; unfold pass; rewrite K0; cbn [open made files outside passed option_map fst]; fin. }
    destruct (readable f).
    2:{ intros E; injection E as <- <-; destruct w as [o fl m op ps]; unfold pass; rewrite K0; cbn [open made files outside passed option_map fst]; fin. }
    destruct (dget f (files w)) as [x|].
    2:{ intros E; injection E as <- <-; destruct w as [o fl m op ps]; unfold pass; rewrite K0; cbn [open made files outside passed option_map fst]; fin. }
    unfold point at 1.
    set (w1 := enter Reader (pass strike 116 w)).
    destruct (strike (clock w1)) as [[e n]|] eqn:K1.
    { intros E; injection E as <- <-; unfold pass at 1; rewrite K1; unfold w1, enter, pass; rewrite K0; cbn [open made files outside passed option_map fst]; fin.
      right; repeat split; eexists; reflexivity. }
    destruct (block a p (decode f (content x)) (pass strike 116 w1)) as [w2 r2] eqn:B.
    destruct (block_spec _ _ _ _ _ _ B) as [nb [-> [F [L [C [R Q]]]]]].
    unfold point at 1.
    set (w2 := mkworld _ _ _ _ _).
    assert (P2 : passed w2 = passed w ++ (116%nat, None) :: (116%nat, None) :: nb).
    { unfold w2; cbn [passed]; unfold pass at 1; cbn [passed]; rewrite K1; unfold w1, enter, pass; cbn [passed]; rewrite K0.
      rewrite <- !app_assoc; reflexivity. }
    assert (G : struck ((116%nat, None) :: (116%nat, None) :: nb) = struck nb) by reflexivity.
    destruct (strike (clock w2)) as [[e n]|] eqn:K2.
    { intros E; injection E as <- <-; unfold pass; rewrite K2; cbn [open made files outside passed option_map fst]; rewrite P2, <- app_assoc.
      eexists; split; [reflexivity|]; cbn [app]; change (?x :: ?y :: nb ++ ?z) with ((x :: y :: nb) ++ z); rewrite struck_app, G.
      repeat split.
      - right; reflexivity.
      - apply Forall_app; split; [repeat constructor; exact F|repeat constructor].
      - right; repeat split; eexists; reflexivity.
      - rewrite app_length; cbn; lia.
      - intros X; apply app_eq_nil in X; destruct X; discriminate.
      - intros _; eexists; reflexivity.
      - intros X; rewrite X in K2; discriminate. }
    set (w3 := close encode (made (pass strike 116 w)) (pass strike 116 w2)).
    assert (P3 : passed w3 = passed w ++ ((116%nat, None) :: (116%nat, None) :: nb) ++ [(116%nat, None)]).
    { change (passed w3) with (passed w2 ++ [(116%nat, option_map fst (strike (clock w2)))]); rewrite P2, K2, <- app_assoc; reflexivity. }
    assert (O3 : open w3 = open w).
    { unfold w3, close, pass; cbn [open]; cbn [made]; unfold w2; cbn [open]; unfold w1, pass, enter; cbn [open made]; apply ddel_dset_fresh, SD. }
    assert (F3 : files w3 = files w).
    { unfold w3, close, pass; cbn [open files]; cbn [made]; unfold w2; cbn [open files]; unfold w1, pass, enter; cbn [open made files].
      rewrite dget_dset_same; reflexivity. }
    unfold point at 1.
    destruct (strike (clock w3)) as [[e n]|] eqn:K3; intros E; injection E as <- <-; unfold pass at 1 2 3 4 5 6; rewrite K3; cbn [open made files outside passed option_map fst]; rewrite P3, O3, F3, <- !app_assoc.
    - eexists; split; [reflexivity|]; rewrite !struck_app, G.
      repeat split.
      + right; reflexivity.
      + repeat first [exact F | apply Forall_nil | apply Forall_cons; [reflexivity|] | apply Forall_app; split].
      + left; reflexivity.
      + rewrite !app_length; cbn; lia.
      + intros X; apply app_eq_nil in X; destruct X as [_ X]; discriminate.
      + intros _; eexists; reflexivity.
      + intros X; rewrite X in K3; discriminate.
    - eexists; split; [reflexivity|]; rewrite !struck_app, G; cbn [struck flat_map snd app]; rewrite app_nil_r.
      repeat split.
      + right; reflexivity.
      + repeat first [exact F | apply Forall_nil | apply Forall_cons; [reflexivity|] | apply Forall_app; split].
      + left; reflexivity.
      + lia.
      + exact C.
      + exact R.
      + exact Q.
  Qed.

  Lemma release_same n (w : world) : Forall (fun h => (h < n)%nat) (dkeys (open w)) -> release encode n w = w.
  Proof.
    unfold release; intros F.
    assert (X : filter (fun h => (n <=? h)%nat) (dkeys (open w)) = []); [|rewrite X; reflexivity].
    induction F as [|h l Hh F IH]; cbn [filter]; [reflexivity|].
    destruct (Nat.leb_spec n h); [lia|exact IH].
  Qed.
  Lemma release_one n h s op (w : world) : open w = dset h s op -> Forall (fun h => (h < n)%nat) (dkeys op) -> (n <= h)%nat ->
    release encode n w = close encode h w.
  Proof.
    unfold release; intros E F L.
    assert (N : ~ In h (dkeys op)) by (intros I; rewrite Forall_forall in F; specialize (F _ I); lia).
    rewrite E, dset_absent by exact N; unfold dkeys at 1; rewrite map_app, filter_app; cbn [map fst filter].
    fold (dkeys op).
    assert (X : filter (fun h => (n <=? h)%nat) (dkeys op) = []).
    { clear - F; induction F as [|k l Hk F IH]; cbn [filter]; [reflexivity|]; destruct (Nat.leb_spec n k); [lia|exact IH]. }
    rewrite X; cbn [app]; destruct (Nat.leb_spec n h); [reflexivity|lia].
  Qed.

  Lemma struck_reading new : Forall (fun x => reading (fst x) = true) new -> filter (fun x => reading (fst x)) (struck new) = struck new.
  Proof.
    induction 1 as [|[l [e|]] new Hl F IH]; cbn [struck flat_map fst snd app filter] in *; [reflexivity| |exact IH].
    rewrite Hl; f_equal; exact IH.
  Qed.

  Lemma try_spec f a p deps (w : world) : sound w -> forall w' r, try_struck f a p deps w = (w', r) -> exists new,
    passed w' = passed w ++ new /\ outside w' = outside w /\ files w' = files w /\ (made w <= made w')%nat /\
    (open w' = open w \/ (open w' = dset (made w) Reader (open w) /\ made w' = S (made w) /\ exists e, r = Raise e)) /\
    (length (filter (fun x => reading (fst x)) (struck new)) <= 2)%nat /\
    match last_strike new with
    | Some e => r = Raise e
    | None => open w' = open w /\
        (struck new = [] /\ r = try_cache (files w) f a p deps \/
         struck new <> [] /\ r = Ok none /\ needs_update (files w) f deps = Ok false)
    end /\
    (quiet strike -> struck new = []).
  Proof.
    intros SD w' r; unfold try_cache_struck, SmartCache_model.try_cache, seq at 1, point at 1.
    destruct (strike (clock w)) as [[e n]|] eqn:K0.
    { intros E; injection E as <- <-; unfold pass; rewrite K0; cbn [open made files outside passed option_map fst]; fin. }
    change (files (pass strike 112 w)) with (files w).
    set (w1 := pass strike 112 w).
    assert (P1 : passed w1 = passed w ++ [(112%nat, None)]) by (unfold w1, pass; rewrite K0; reflexivity).
    destruct (needs_update (files w) f deps) as [[|]|e]; cbn [bind].
    - unfold seq, point, ret; destruct (strike (clock w1)) as [[e n]|] eqn:K1; intros E; injection E as <- <-;
        unfold pass at 1 2 3 4 5 6; cbn [open made files outside passed]; rewrite P1, K1, <- app_assoc; cbn [app option_map fst]; fin.
    - destruct (read_block f a p w1) as [w2 r2] eqn:RB.
      destruct (read_block_spec f a p w1 SD w2 r2 RB) as [nb [P2 [O2 [F2 [M2 [RD [OP [LN [CA [NC QU]]]]]]]]]].
      change (outside w1) with (outside w) in O2; change (files w1) with (files w) in F2; change (made w1) with (made w) in *;
        change (open w1) with (open w) in OP; change (files w1) with (files w) in CA.
      rewrite P1, <- app_assoc in P2; cbn [app] in P2.
      assert (LS : forall x, last_strike ((112%nat, None) :: nb ++ x) = last_strike x).
      { intros x; change ((112%nat, None) :: nb ++ x) with ([(112%nat, None)] ++ nb ++ x).
        rewrite !last_strike_app, (last_strike_reading nb RD); destruct (last_strike x); reflexivity. }
      assert (LF : forall x, Forall (fun y => reading (fst y) = false) x ->
        length (filter (fun x => reading (fst x)) (struck ((112%nat, None) :: nb ++ x))) = length (struck nb)).
      { intros x FX; change ((112%nat, None) :: nb ++ x) with ([(112%nat, None)] ++ nb ++ x).
        rewrite !struck_app, !filter_app, (struck_reading nb RD), !app_length.
        assert (X : filter (fun x => reading (fst x)) (struck x) = []); [|rewrite X; cbn; lia].
        clear - FX; induction FX as [|[l [e|]] x Hl F IH]; cbn [struck flat_map fst snd app filter] in *; [reflexivity| |exact IH].
        rewrite Hl; exact IH. }
      assert (SX : forall x, struck ((112%nat, None) :: nb ++ x) = struck nb ++ struck x) by (intros x; apply (struck_app ((112%nat, None) :: nb))).
      destruct r2 as [[obj|]|e2].
      + intros E; injection E as <- <-.
        assert (OW : open w2 = open w) by (destruct OP as [OP|[_ [_ [e X]]]]; [exact OP|discriminate]).
        assert (SN : struck nb = []) by (destruct (struck nb); [reflexivity|destruct NC as [e X]; [discriminate|discriminate]]).
        exists ((112%nat, None) :: nb ++ []); rewrite LS, LF, SX, SN, app_nil_r by constructor.
        repeat split; try assumption; try (destruct M2; lia); [left; exact OW|cbn; lia|].
        left; split; [reflexivity|]; rewrite (CA SN); reflexivity.
      + assert (OW : open w2 = open w) by (destruct OP as [OP|[_ [_ [e X]]]]; [exact OP|discriminate]).
        assert (SN : struck nb = []) by (destruct (struck nb); [reflexivity|destruct NC as [e X]; [discriminate|discriminate]]).
        unfold seq, point, ret; destruct (strike (clock w2)) as [[e n]|] eqn:K2; intros E; injection E as <- <-;
          unfold pass at 1 2 3 4 5 6 7; cbn [open made files outside passed]; rewrite P2, K2, <- app_assoc; cbn [option_map fst app];
          (eexists; split; [reflexivity|]); rewrite LS, LF, SX, SN by (repeat constructor).
        * repeat split; try assumption; try (destruct M2; lia); [left; exact OW|cbn; lia|intros Q; rewrite Q in K2; discriminate].
        * repeat split; try assumption; try (destruct M2; lia); [left; exact OW|cbn; lia|].
          left; split; [reflexivity|]; rewrite (CA SN); reflexivity.
      + unfold point at 1; destruct (strike (clock w2)) as [[e n]|] eqn:K2.
        { intros E; injection E as <- <-; unfold pass at 1 2 3 4 5 6 7; cbn [open made files outside passed];
            rewrite P2, K2, <- app_assoc; cbn [option_map fst app]; (eexists; split; [reflexivity|]); rewrite LS, LF, SX by (repeat constructor).
          repeat split; try assumption; try (destruct M2; lia); [|intros Q; rewrite Q in K2; discriminate].
          destruct OP as [OP|[OP [MM _]]]; [left; exact OP|right; repeat split; [exact OP|exact MM|eexists; reflexivity]]. }
        set (w3 := release encode (made w) (pass strike 128 w2)).
        assert (P3 : passed w3 = passed w ++ (112%nat, None) :: nb ++ [(128%nat, None)] /\ open w3 = open w /\ files w3 = files w /\
          outside w3 = outside w /\ made w3 = made w2).
        { assert (PP : passed (pass strike 128 w2) = passed w ++ (112%nat, None) :: nb ++ [(128%nat, None)]).
          { unfold pass; cbn [passed]; rewrite P2, K2, <- app_assoc; reflexivity. }
          destruct OP as [OP|[OP [MM _]]].
          - unfold w3; rewrite release_same; [repeat split; assumption|].
            unfold pass; cbn [open]; rewrite OP; exact (proj2 SD).
          - unfold w3; rewrite (release_one (made w) (made w) Reader (open w)); [|exact OP|exact (proj2 SD)|lia].
            unfold close; cbn [passed open files outside made].
            change (open (pass strike 128 w2)) with (open w2); change (files (pass strike 128 w2)) with (files w2).
            rewrite OP, dget_dset_same, ddel_dset_fresh by apply sound_fresh, SD.
            repeat split; assumption. }
        destruct P3 as [P3 [O3 [F3 [U3 M3]]]].
        unfold seq, point, ret; destruct (strike (clock w3)) as [[e n]|] eqn:K3; intros E; injection E as <- <-;
          unfold pass at 1 2 3 4 5 6 7; cbn [open made files outside passed]; rewrite P3, K3, <- app_assoc; cbn [option_map fst app]; rewrite <- app_assoc; cbn [app];
          (eexists; split; [reflexivity|]); rewrite LS, LF, SX by (repeat constructor).
        * repeat split; try assumption; try (destruct M2; lia); [left; exact O3|intros Q; rewrite Q in K3; discriminate].
        * repeat split; try assumption; try (destruct M2; lia); [left; exact O3| |].
          -- cbn [struck flat_map snd fst app]; rewrite app_nil_r.
             destruct (struck nb) as [|y ys] eqn:SN; [left|right]; (split; [try reflexivity; discriminate|]).
             ++ rewrite (CA eq_refl); reflexivity.
             ++ split; reflexivity.
          -- cbn [struck flat_map snd fst app]; rewrite app_nil_r; exact QU.
    - intros E; injection E as <- <-; exists [(112%nat, None)]; rewrite P1; cbn [open made files outside passed];
        repeat split; try reflexivity; try lia; [left; reflexivity|cbn; lia|left; split; reflexivity].
  Qed.

  (* the three pickles *)
  Definition dumps (h : nat) (a p v : O) : @M W unit :=
    seq (dump_one dump strike 150 h a) (fun _ => seq (dump_one dump strike 151 h p) (fun _ => dump_one dump strike 152 h v)).
  Lemma give_writer h f b0 t op b (w : world) : open w = dset h (Writer f b0 t) op ->
    give h b w = mkworld (outside w) (files w) (made w) (dset h (Writer f (b0 ++ b) t) op) (passed w).
  Proof. intros E; unfold give; rewrite E, dget_dset_same, dset_twice; reflexivity. Qed.
  Lemma dumps_spec h f t op a p v (w w' : world) r : open w = dset h (Writer f [] t) op -> dumps h a p v w = (w', r) -> exists new b,
    w' = mkworld (outside w) (files w) (made w) (dset h (Writer f b t) op) (passed w ++ new) /\
    begins dump b a p v /\
    Forall (fun x => reading (fst x) = false) new /\
    match last_strike new with
    | Some e => r = Raise e
    | None => struck new = [] /\ dump3 dump a p v = (b, match r with Ok _ => None | Raise e => Some e end)
    end /\
    (quiet strike -> struck new = []).
  Proof.
    intros OP; unfold dumps, seq, begins, dump3.
    assert (CUT : forall n (l m : list Z), exists t, l ++ m = firstn n l ++ t).
    { intros n l m; exists (skipn n l ++ m); rewrite app_assoc, firstn_skipn; reflexivity. }
    destruct (dump a) as [b1 e1] eqn:D1; unfold dump_one at 1; rewrite D1.
    destruct (strike (clock w)) as [[x n]|] eqn:K1.
    { rewrite (give_writer h f [] t op) by exact OP; intros E; injection E as <- <-; unfold pass; rewrite K1; cbn [open made files outside passed option_map fst].
      exists [(150%nat, Some x)], (firstn n b1); repeat split; [|repeat constructor|intros Q; rewrite Q in K1; discriminate].
      destruct e1 as [e1|]; [destruct (CUT n b1 []) as [y Y]; rewrite app_nil_r in Y; exists y; exact Y|].
      destruct (dump p) as [b2 [e2|]]; [apply CUT|destruct (dump v); apply CUT]. }
    rewrite (give_writer h f [] t op) by exact OP; unfold pass; rewrite K1; cbn [open made files outside passed option_map fst].
    destruct e1 as [e1|].
    { intros E; injection E as <- <-; exists [(150%nat, None)], b1; repeat split; [exists []; rewrite app_nil_r; reflexivity|repeat constructor]. }
    set (w1 := mkworld _ _ _ _ _).
    destruct (dump p) as [b2 e2] eqn:D2; unfold dump_one at 1; rewrite D2.
    destruct (strike (clock w1)) as [[x n]|] eqn:K2.
    { rewrite (give_writer h f b1 t op) by reflexivity; intros E; injection E as <- <-; unfold pass; rewrite K2; cbn [w1 open made files outside passed option_map fst].
      exists [(150%nat, None); (151%nat, Some x)], (b1 ++ firstn n b2); rewrite <- app_assoc; repeat split; [|repeat constructor|intros Q; rewrite Q in K2; discriminate].
      destruct e2 as [e2|]; [destruct (CUT n b2 []) as [y Y]; rewrite app_nil_r in Y; exists y; cbn [fst]; rewrite <- app_assoc, <- Y; reflexivity|].
      destruct (dump v) as [b3 e3]; destruct (CUT n b2 b3) as [y Y]; exists y; cbn [fst]; rewrite <- app_assoc, <- Y; reflexivity. }
    rewrite (give_writer h f b1 t op) by reflexivity; unfold pass; rewrite K2; cbn [w1 open made files outside passed option_map fst].
    destruct e2 as [e2|].
    { intros E; injection E as <- <-; exists [(150%nat, None); (151%nat, None)], (b1 ++ b2); rewrite <- app_assoc; repeat split; [exists []; rewrite app_nil_r; reflexivity|repeat constructor]. }
    set (w2 := mkworld _ _ _ _ _).
    destruct (dump v) as [b3 e3] eqn:D3; unfold dump_one at 1; rewrite D3.
    destruct (strike (clock w2)) as [[x n]|] eqn:K3;
      rewrite (give_writer h f (b1 ++ b2) t op) by reflexivity; intros E; injection E as <- <-; unfold pass; rewrite K3; cbn [w2 open made files outside passed option_map fst].
    - exists [(150%nat, None); (151%nat, None); (152%nat, Some x)], ((b1 ++ b2) ++ firstn n b3); rewrite <- !app_assoc; repeat split; [|repeat constructor|intros Q; rewrite Q in K3; discriminate].
      destruct (CUT n b3 []) as [y Y]; rewrite app_nil_r in Y; exists y; cbn [fst]; rewrite <- !app_assoc, <- Y; reflexivity.
    - exists [(150%nat, None); (151%nat, None); (152%nat, None)], ((b1 ++ b2) ++ b3); rewrite <- !app_assoc; repeat split.
      + exists []; cbn [fst]; rewrite app_nil_r, ?app_assoc; reflexivity.
      + repeat constructor.
      + destruct e3; reflexivity.
  Qed.

  Lemma store_spec now v f a p (w : world) : sound w -> forall w' r, store_struck now v f a p w = (w', r) -> exists new,
    passed w' = passed w ++ new /\ outside w' = outside w /\ (made w <= made w')%nat /\
    Forall (fun x => reading (fst x) = false) new /\
    (open w' = open w /\ files w' = files w \/
     (exists b, begins dump b a p v /\ open w' = open w /\ files w' = dset f {| content := encode f b; mtime := now |} (files w)) \/
     (exists b e, begins dump b a p v /\ open w' = dset (made w) (Writer f b now) (open w) /\ made w' = S (made w) /\
        files w' = dset f {| content := []; mtime := now |} (files w) /\ r = Raise e)) /\
    match last_strike new with
    | Some e => r = Raise e
    | None => struck new = [] /\ open w' = open w /\ (files w', r) = store (files w) now v f a p
    end /\
    (quiet strike -> struck new = []).
  Proof.
    intros SD w' r; apply sound_fresh in SD.
    change (store_struck now v f a p) with (with_stream encode strike 149 (open_write writable strike now f) (fun h _ => dumps h a p v)).
    unfold with_stream, open_write, store_cache_object, seq, point at 1.
    destruct (strike (clock w)) as [[e n]|] eqn:K0.
    { intros E; injection E as <- <-; unfold pass; rewrite K0; cbn [open made files outside passed option_map fst].
      exists [(149%nat, Some e)]; repeat split; [lia|repeat constructor|left; split; reflexivity|intros Q; rewrite Q in K0; discriminate]. }
    destruct (sopen_std f (u "wb")).
    { intros E; injection E as <- <-; unfold pass; rewrite K0; cbn [open made files outside passed option_map fst].
      exists [(149%nat, None)]; repeat split; [lia|repeat constructor|left; split; reflexivity]. }
    destruct (writable f).
    2:{ intros E; injection E as <- <-; unfold pass; rewrite K0; cbn [open made files outside passed option_map fst].
      exists [(149%nat, None)]; repeat split; [lia|repeat constructor|left; split; reflexivity]. }
    unfold point at 1.
    set (w1 := enter (Writer f [] now) _).
    change (made (pass strike 149 w)) with (made w).
    assert (P1 : passed w1 = passed w ++ [(149%nat, None)]) by (unfold w1, enter, pass; cbn [passed]; rewrite K0; reflexivity).
    assert (O1 : open w1 = dset (made w) (Writer f [] now) (open w)) by reflexivity.
    assert (F1 : files w1 = dset f {| content := []; mtime := now |} (files w)) by reflexivity.
    assert (U1 : outside w1 = outside w) by reflexivity.
    assert (M1 : made w1 = S (made w)) by reflexivity.
    clearbody w1.
    assert (BN : begins dump [] a p v) by (exists (fst (dump3 dump a p v)); reflexivity).
    destruct (strike (clock w1)) as [[e n]|] eqn:K1.
    { intros E; injection E as <- <-; unfold pass; rewrite K1; cbn [open made files outside passed option_map fst]; rewrite P1, <- app_assoc.
      exists [(149%nat, None); (149%nat, Some e)]; repeat split; [exact U1|lia|repeat constructor| |intros Q; rewrite Q in K1; discriminate].
      right; right; exists [], e; repeat split; assumption. }
    destruct (dumps (made w) a p v (pass strike 149 w1)) as [w2 r2] eqn:B.
    destruct (dumps_spec (made w) f now (open w) a p v (pass strike 149 w1) _ _ O1 B) as [nb [b [-> [BG [NR [LS QU]]]]]].
    set (w2 := mkworld _ _ _ _ _).
    assert (P2 : passed w2 = passed w ++ (149%nat, None) :: (149%nat, None) :: nb).
    { unfold w2; cbn [passed]; unfold pass at 1; cbn [passed]; rewrite K1, P1, <- !app_assoc; reflexivity. }
    assert (O2 : open w2 = dset (made w) (Writer f b now) (open w)) by reflexivity.
    assert (F2 : files w2 = dset f {| content := []; mtime := now |} (files w)) by exact F1.
    assert (U2 : outside w2 = outside w) by exact U1.
    assert (M2 : made w2 = S (made w)) by exact M1.
    clearbody w2; clear B w1 P1 O1 F1 U1 M1 K1.
    unfold point at 1.
    assert (LSX : forall x, last_strike ((149%nat, None) :: (149%nat, None) :: nb ++ x) = match last_strike x with Some e => Some e | None => last_strike nb end).
    { intros x; change (last_strike ([(149%nat, None); (149%nat, None)] ++ nb ++ x) = match last_strike x with Some e => Some e | None => last_strike nb end).
      rewrite !last_strike_app; destruct (last_strike x); [reflexivity|destruct (last_strike nb); reflexivity]. }
    assert (SX : forall x, struck ((149%nat, None) :: (149%nat, None) :: nb ++ x) = struck nb ++ struck x).
    { intros x; exact (struck_app ((149%nat, None) :: (149%nat, None) :: nb) x). }
    destruct (strike (clock w2)) as [[e n]|] eqn:K2.
    { intros E; injection E as <- <-; unfold pass; rewrite K2; cbn [open made files outside passed option_map fst]; rewrite P2, <- app_assoc.
      eexists; split; [reflexivity|]; cbn [app]; rewrite LSX, SX; repeat split.
      - exact U2.
      - lia.
      - repeat first [exact NR | apply Forall_nil | apply Forall_cons; [reflexivity|] | apply Forall_app; split].
      - right; right; exists b, e; repeat split; assumption.
      - intros Q; rewrite Q in K2; discriminate. }
    set (w3 := close encode (made w) (pass strike 149 w2)).
    assert (P3 : passed w3 = passed w ++ (149%nat, None) :: (149%nat, None) :: nb ++ [(149%nat, None)]).
    { change (passed w3) with (passed w2 ++ [(149%nat, option_map fst (strike (clock w2)))]); rewrite P2, K2, <- app_assoc; reflexivity. }
    assert (O3 : open w3 = open w).
    { unfold w3, close, pass; cbn [open]; rewrite O2; apply ddel_dset_fresh, SD. }
    assert (F3 : files w3 = dset f {| content := encode f b; mtime := now |} (files w)).
    { unfold w3, close, pass; cbn [open files]; rewrite O2, dget_dset_same, F2; apply dset_twice. }
    assert (U3 : outside w3 = outside w) by exact U2.
    assert (M3 : made w3 = S (made w)) by exact M2.
    clearbody w3; unfold point at 1.
    destruct (strike (clock w3)) as [[e n]|] eqn:K3; intros E; injection E as <- <-; unfold pass; rewrite K3; cbn [open made files outside passed option_map fst];
      rewrite P3, <- app_assoc; (eexists; split; [reflexivity|]); cbn [app]; rewrite <- app_assoc, LSX, SX; cbn [app]; repeat split.
    - exact U3.
    - lia.
    - repeat first [exact NR | apply Forall_nil | apply Forall_cons; [reflexivity|] | apply Forall_app; split].
    - right; left; exists b; repeat split; assumption.
    - intros Q; rewrite Q in K3; discriminate.
    - exact U3.
    - lia.
    - repeat first [exact NR | apply Forall_nil | apply Forall_cons; [reflexivity|] | apply Forall_app; split].
    - right; left; exists b; repeat split; assumption.
    - change (last_strike [(149%nat, None); (149%nat, None)]) with (@None exn); cbv iota.
      destruct (last_strike nb) as [e|]; [exact LS|]; destruct LS as [LS D3]; rewrite LS; repeat split; [exact O3|].
      rewrite D3, F3; destruct r2 as [[]|]; reflexivity.
    - intros Q; rewrite (QU Q); reflexivity.
  Qed.

  Notation call := (call_struck set_order oeq none is_none dump load encode decode readable writable method halted strike).
  Notation disk_call_of rd := (disk_call set_order oeq none is_none dump load encode decode rd writable method).
  Hypothesis none_is : is_none none = true.

  Definition files_after (f : path) (now : Z) (a p : O) (w : world) (st : fs) : Prop :=
    st = files w \/
    (exists e, st = snd (halted e (outside w, files w) a p)) \/
    (exists o1 st1 r1, method (outside w, files w) a p = ((o1, st1), r1) /\
       (st = st1 \/ exists v b, r1 = Ok v /\ begins dump b a p v /\ st = dset f {| content := encode f b; mtime := now |} st1)).

  Lemma release_files n w1 (w : world) : open w = w1 -> Forall (fun h => (h < n)%nat) (dkeys w1) -> files (release encode n w) = files w.
  Proof. intros E F; rewrite release_same; [reflexivity|rewrite E; exact F]. Qed.

  Lemma run_method_spec a p (w w' : world) r : run_method method halted strike a p w = (w', r) ->
    exists x, passed w' = passed w ++ [(44%nat, x)] /\ made w' = made w /\ open w' = open w /\
    match x with
    | Some e => r = Raise e /\ files w' = snd (halted e (outside w, files w) a p)
    | None => method (outside w, files w) a p = ((outside w', files w'), r)
    end /\ (quiet strike -> x = None).
  Proof.
    unfold run_method; destruct (strike (clock w)) as [[e n]|] eqn:K.
    - intros E; injection E as <- <-; unfold pass; rewrite K; cbn [passed made open outside files option_map fst].
      exists (Some e); repeat split; intros Q; rewrite Q in K; discriminate.
    - destruct (method (outside w, files w) a p) as [[o1 st1] r1]; cbn [fst snd].
      intros E; injection E as <- <-; unfold pass; rewrite K; cbn [passed made open outside files option_map fst].
      exists None; repeat split.
  Qed.

  Lemma point_spec line (w w' : world) r : point strike line w = (w', r) ->
    exists x, w' = mkworld (outside w) (files w) (made w) (open w) (passed w ++ [(line, x)]) /\
    match x with Some e => r = Raise e | None => r = Ok tt end /\ (quiet strike -> x = None).
  Proof.
    unfold point; intros E; injection E as <- <-; unfold pass; destruct (strike (clock w)) as [[e n]|] eqn:K; eexists; repeat split; cbn [option_map fst].
    intros Q; rewrite Q in K; discriminate.
  Qed.

  Definition call_facts (f : path) deps now a p (w w' : world) (r : res O) (new : list (nat * option exn)) : Prop :=
    passed w' = passed w ++ new /\ (made w <= made w')%nat /\
    (open w' = open w \/ exists h s e, (made w <= h < made w')%nat /\ open w' = dset h s (open w) /\ r = Raise e) /\
    (length (filter (fun x => reading (fst x)) (struck new)) <= 2)%nat /\
    match last_strike new with
    | Some e => r = Raise e
    | None => open w' = open w /\
        ((outside w', files w'), r) = disk_call_of (match struck new with [] => readable | _ => fun _ => false end) f deps now (outside w, files w) a p /\
        (struck new <> [] -> In (44%nat, None) new)
    end /\
    files_after f now a p w (files (release encode (made w) w')) /\
    (quiet strike -> struck new = []).

  Lemma nonreading_struck x : Forall (fun y => reading (fst y) = false) x -> filter (fun y => reading (fst y)) (struck x) = [].
  Proof.
    induction 1 as [|[l [e|]] x Hl F IH]; cbn [struck flat_map fst snd app filter] in *; [reflexivity| |exact IH].
    rewrite Hl; exact IH.
  Qed.
  Lemma nonreading_calm x : Forall (fun y => reading (fst y) = false) x -> last_strike x = None -> struck x = [].
  Proof.
    intros F; unfold last_strike.
    assert (E : filter (fun y => negb (reading (fst y))) (struck x) = struck x).
    { induction F as [|[l [e|]] x Hl F IH]; cbn [struck flat_map fst snd app filter] in *; [reflexivity| |exact IH].
      rewrite Hl; cbn [negb]; f_equal; exact IH. }
    rewrite E; destruct (struck x) as [|y l] using rev_ind; [reflexivity|].
    rewrite rev_app_distr; cbn [rev app]; destruct y; discriminate.
  Qed.

  Lemma call_spec f deps now a p (w : world) : sound w -> forall w' r, call f deps now a p w = (w', r) ->
    exists new, call_facts f deps now a p w w' r new.
  Proof.
    intros SD w' r; unfold call_struck, seq at 1.
    destruct (point strike 38 w) as [w1 r1] eqn:K1; destruct (point_spec _ _ _ _ K1) as [x1 [-> [R1 Q1]]]; clear K1.
    set (w1 := mkworld _ _ _ _ _).
    destruct x1 as [e|]; rewrite R1; clear R1.
    { intros E; injection E as <- <-; exists [(38%nat, Some e)]; repeat split; [cbn; lia|left; reflexivity|cbn; lia| |intros Q; specialize (Q1 Q); discriminate].
      left; exact (release_files (made w) (open w) w1 eq_refl (proj2 SD)). }
    unfold seq at 1.
    destruct (try_struck f a p deps w1) as [w2 r2] eqn:K2.
    destruct (try_spec f a p deps w1 SD w2 r2 K2) as [n2 [P2 [U2 [F2 [M2 [O2 [L2 [S2 Q2]]]]]]]].
    change (outside w1) with (outside w) in *; change (files w1) with (files w) in *; change (made w1) with (made w) in *;
      change (open w1) with (open w) in *; change (passed w1) with (passed w ++ [(38%nat, None)]) in P2; rewrite <- app_assoc in P2; cbn [app] in P2.
    clear w1 K2 Q1.
    assert (LS : forall x, last_strike ((38%nat, None) :: n2 ++ x) = match last_strike x with Some e => Some e | None => last_strike n2 end).
    { intros x; change (last_strike ([(38%nat, None)] ++ n2 ++ x) = match last_strike x with Some e => Some e | None => last_strike n2 end).
      rewrite !last_strike_app; destruct (last_strike x); [reflexivity|destruct (last_strike n2); reflexivity]. }
    assert (SX : forall x, struck ((38%nat, None) :: n2 ++ x) = struck n2 ++ struck x) by (intros x; exact (struck_app ((38%nat, None) :: n2) x)).
    assert (LX : forall x, Forall (fun y => reading (fst y) = false) x ->
       (length (filter (fun x => reading (fst x)) (struck ((38%nat, None) :: n2 ++ x))) <= 2)%nat).
    { intros x X; rewrite SX, filter_app, (nonreading_struck x X), app_nil_r; exact L2. }
    destruct r2 as [c|e].
    2:{ intros E; injection E as <- <-; exists ((38%nat, None) :: n2 ++ []); unfold call_facts; rewrite LS, SX, app_nil_r.
      split; [exact P2|]; split; [exact M2|].
      split. { destruct O2 as [O2|[O2 [MM [e' _]]]]; [left; exact O2|right; exists (made w), Reader, e; repeat split; [lia|lia|exact O2]]. }
      split. { specialize (LX []); rewrite SX in LX; apply LX; constructor. }
      change (last_strike []) with (@None exn); cbv iota.
      split.
      { destruct (last_strike n2) as [e'|]; [exact S2|]; destruct S2 as [OW [[SN TC]|[_ [X _]]]]; [|discriminate].
        split; [exact OW|split; [|intros X; exfalso; apply X; cbn; rewrite app_nil_r; exact SN]].
        cbn [struck flat_map]; rewrite app_nil_r, SN, U2, F2; unfold disk_call; cbn [snd]; rewrite <- TC; reflexivity. }
      split; [|intros Q; cbn; rewrite app_nil_r; apply Q2, Q].
      left; destruct O2 as [O2|[O2 [MM _]]].
      - rewrite (release_files _ (open w)); [exact F2|exact O2|exact (proj2 SD)].
      - rewrite (release_one (made w) (made w) Reader (open w)); [|exact O2|exact (proj2 SD)|lia].
        unfold close; cbn [files]; rewrite O2, dget_dset_same; exact F2. }
    assert (LN : last_strike n2 = None) by (destruct (last_strike n2); [discriminate|reflexivity]).
    rewrite LN in S2; destruct S2 as [OW S2]; clear O2.
    assert (SD2 : sound w2) by (split; rewrite OW; [exact (proj1 SD)|eapply Forall_impl; [|exact (proj2 SD)]; cbn; intros; lia]).
    (* what the undisturbed call sees *)
    set (rd := match struck n2 with [] => readable | _ => fun _ => false end).
    assert (TC : SmartCache_model.try_cache set_order oeq none load decode rd (files w) f a p deps = Ok c).
    { unfold rd; destruct S2 as [[SN TC]|[SN [TC NU]]]; [rewrite SN; symmetry; exact TC|].
      destruct (struck n2) as [|y ys]; [contradiction|]; injection TC as ->.
      unfold SmartCache_model.try_cache; rewrite NU; cbn [bind]; unfold SmartCache_model.read_cache.
      destruct (sopen_std f (u "rb")); reflexivity. }
    assert (NO : struck n2 <> [] -> is_none c = true).
    { intros X; destruct S2 as [[SN _]|[_ [E _]]]; [contradiction|]; injection E as ->; exact none_is. }
    (* building the conclusion *)
    assert (END : forall x w' r,
      passed w' = passed w2 ++ x -> (made w <= made w')%nat -> Forall (fun y => reading (fst y) = false) x ->
      (open w' = open w \/ exists h s e, (made w <= h < made w')%nat /\ open w' = dset h s (open w) /\ r = Raise e) ->
      match last_strike x with
      | Some e => r = Raise e
      | None => open w' = open w /\ ((outside w', files w'), r) = disk_call_of rd f deps now (outside w, files w) a p /\ (struck n2 <> [] -> In (44%nat, None) x)
      end ->
      files_after f now a p w (files (release encode (made w) w')) ->
      (quiet strike -> struck x = []) ->
      exists new, call_facts f deps now a p w w' r new).
    { clear w' r; intros x w' r PX MX NX OX LXX FX QX; exists ((38%nat, None) :: n2 ++ x).
      unfold call_facts; rewrite LS, SX, LN.
      split; [rewrite PX, P2, <- app_assoc; reflexivity|].
      split; [exact MX|]; split; [exact OX|].
      split; [specialize (LX x NX); rewrite SX in LX; exact LX|].
      split; [|split; [exact FX|intros Q; rewrite (Q2 Q), (QX Q); reflexivity]].
      destruct (last_strike x) as [e|] eqn:LE; [exact LXX|].
      rewrite (nonreading_calm x NX LE), app_nil_r; destruct LXX as [A [B C]].
      split; [exact A|split; [exact B|]]; intros X; right; apply in_or_app; right; exact (C X). }
    assert (KEEP : forall w3 : world, open w3 = open w -> files_after f now a p w (files w3) -> files_after f now a p w (files (release encode (made w) w3))).
    { intros w3 E3 X; rewrite (release_files _ (open w)); [exact X|exact E3|exact (proj2 SD)]. }
    unfold seq at 1.
    destruct (point strike 40 w2) as [w3 r3] eqn:K3; destruct (point_spec _ _ _ _ K3) as [x3 [E3 [R3 Q3]]]; clear K3.
    assert (P3 : passed w3 = passed w2 ++ [(40%nat, x3)]) by (subst w3; reflexivity).
    assert (O3 : open w3 = open w) by (subst w3; exact OW).
    assert (F3 : files w3 = files w) by (subst w3; exact F2).
    assert (U3 : outside w3 = outside w) by (subst w3; exact U2).
    assert (M3 : made w3 = made w2) by (subst w3; reflexivity).
    clear E3; destruct x3 as [e|]; rewrite R3; clear R3.
    { intros E; injection E as <- <-; apply (END [(40%nat, Some e)]); [exact P3|lia|repeat constructor|left; exact O3|reflexivity| |intros Q; specialize (Q3 Q); discriminate].
      apply KEEP; [exact O3|left; exact F3]. }
    assert (SD3 : sound w3) by (split; rewrite O3; [exact (proj1 SD)|eapply Forall_impl; [|exact (proj2 SD)]; cbn; intros; lia]).
    assert (DC : disk_call_of rd f deps now (outside w, files w) a p =
      if is_none c then
        match method (outside w, files w) a p with
        | (w', Raise e) => (w', Raise e)
        | ((x, st'), Ok result) =>
            let '(st'', r) := store st' now result f a p in
            ((x, st''), match r with Ok _ => Ok result | Raise e => Raise e end)
        end
      else ((outside w, files w), Ok c)).
    { unfold disk_call; cbn [snd]; rewrite TC; reflexivity. }
    destruct (is_none c) eqn:NC.
    2:{ unfold seq; destruct (point strike 53 w3) as [w4 r4] eqn:K4; destruct (point_spec _ _ _ _ K4) as [x4 [E4 [R4 Q4]]]; clear K4.
      assert (SN : struck n2 = []) by (destruct (struck n2); [reflexivity|discriminate NO; discriminate]).
      subst w4; destruct x4 as [e|]; rewrite R4; intros E; injection E as <- <-.
      - apply (END [(40%nat, None); (53%nat, Some e)]); cbn [passed made open outside files].
        + rewrite P3, <- app_assoc; reflexivity.
        + lia.
        + repeat constructor.
        + left; exact O3.
        + reflexivity.
        + apply KEEP; [exact O3|left; exact F3].
        + intros Q; specialize (Q4 Q); discriminate.
      - apply (END [(40%nat, None); (53%nat, None)]); cbn [passed made open outside files].
        + rewrite P3, <- app_assoc; reflexivity.
        + lia.
        + repeat constructor.
        + left; exact O3.
        + cbn; rewrite DC, U3, F3; repeat split; [exact O3|intros X; contradiction].
        + apply KEEP; [exact O3|left; exact F3].
        + reflexivity. }
    unfold seq at 1.
    destruct (run_method method halted strike a p w3) as [w4 r4] eqn:K4.
    destruct (run_method_spec _ _ _ _ _ K4) as [x4 [P4 [M4 [O4 [R4 Q4]]]]]; clear K4.
    rewrite U3, F3 in R4; rewrite O3 in O4.
    assert (SD4 : sound w4) by (split; rewrite O4; [exact (proj1 SD)|eapply Forall_impl; [|exact (proj2 SD)]; cbn; intros; lia]).
    destruct x4 as [e|].
    { destruct R4 as [-> F4]; intros E; injection E as <- <-; apply (END [(40%nat, None); (44%nat, Some e)]).
      - rewrite P4, P3, <- app_assoc; reflexivity.
      - lia.
      - repeat constructor.
      - left; exact O4.
      - reflexivity.
      - apply KEEP; [exact O4|right; left; exists e; exact F4].
      - intros Q; specialize (Q4 Q); discriminate. }
    rewrite R4 in DC.
    assert (FM : forall st, st = files w4 \/ (exists v b, r4 = Ok v /\ begins dump b a p v /\ st = dset f {| content := encode f b; mtime := now |} (files w4)) ->
      files_after f now a p w st).
    { intros st X; right; right; exists (outside w4), (files w4), r4; split; [exact R4|exact X]. }
    destruct r4 as [v|e].
    2:{ intros E; injection E as <- <-; apply (END [(40%nat, None); (44%nat, None)]).
      - rewrite P4, P3, <- app_assoc; reflexivity.
      - lia.
      - repeat constructor.
      - left; exact O4.
      - cbn; rewrite DC; repeat split; [exact O4|intros _; right; left; reflexivity].
      - apply KEEP; [exact O4|apply FM; left; reflexivity].
      - reflexivity. }
    unfold seq at 1.
    destruct (point strike 47 w4) as [w5 r5] eqn:K5; destruct (point_spec _ _ _ _ K5) as [x5 [E5 [R5 Q5]]]; clear K5.
    assert (P5 : passed w5 = passed w2 ++ [(40%nat, None); (44%nat, None); (47%nat, x5)]) by (subst w5; cbn [passed]; rewrite P4, P3, <- !app_assoc; reflexivity).
    assert (O5 : open w5 = open w) by (subst w5; exact O4).
    assert (F5 : files w5 = files w4) by (subst w5; reflexivity).
    assert (U5 : outside w5 = outside w4) by (subst w5; reflexivity).
    assert (M5 : made w5 = made w4) by (subst w5; reflexivity).
    clear E5; destruct x5 as [e|]; rewrite R5; clear R5.
    { intros E; injection E as <- <-; eapply END; [exact P5|lia|repeat constructor|left; exact O5|reflexivity| |intros Q; specialize (Q5 Q); discriminate].
      apply KEEP; [exact O5|apply FM; left; exact F5]. }
    assert (SD5 : sound w5) by (split; rewrite O5; [exact (proj1 SD)|eapply Forall_impl; [|exact (proj2 SD)]; cbn; intros; lia]).
    unfold seq at 1.
    destruct (store_struck now v f a p w5) as [w6 r6] eqn:K6.
    destruct (store_spec now v f a p w5 SD5 w6 r6 K6) as [n6 [P6 [U6 [M6 [N6 [X6 [L6 Q6]]]]]]]; clear K6.
    rewrite P5, <- app_assoc in P6; cbn [app] in P6; rewrite O5, F5 in X6; rewrite O5, F5 in L6.
    assert (FA : files_after f now a p w (files (release encode (made w) w6)) /\
      (open w6 = open w \/ exists h s e, (made w <= h < made w6)%nat /\ open w6 = dset h s (open w) /\ r6 = Raise e)).
    { destruct X6 as [[O6 F6]|[[b [BG [O6 F6]]]|[b [e [BG [O6 [MM [F6 RE]]]]]]]].
      - split; [apply KEEP; [exact O6|apply FM; left; exact F6]|left; exact O6].
      - split; [apply KEEP; [exact O6|apply FM; right; exists v, b; repeat split; assumption]|left; exact O6].
      - split; [|right; exists (made w5), (Writer f b now), e; repeat split; [lia|lia|exact O6|exact RE]].
        rewrite (release_one (made w) (made w5) (Writer f b now) (open w)); [|exact O6|exact (proj2 SD)|lia].
        apply FM; right; exists v, b; repeat split; [exact BG|].
        unfold close; cbn [files]; rewrite O6, dget_dset_same, F6; apply dset_twice. }
    destruct FA as [FA OA].
    assert (LQ : forall x, last_strike ((40%nat, None) :: (44%nat, None) :: (47%nat, None) :: n6 ++ x) = match last_strike x with Some e => Some e | None => last_strike n6 end).
    { intros x; change (last_strike ([(40%nat, None); (44%nat, None); (47%nat, None)] ++ n6 ++ x) = match last_strike x with Some e => Some e | None => last_strike n6 end).
      rewrite !last_strike_app; destruct (last_strike x); [reflexivity|destruct (last_strike n6); reflexivity]. }
    destruct r6 as [[]|e].
    2:{ intros E; injection E as <- <-; apply (END ((40%nat, None) :: (44%nat, None) :: (47%nat, None) :: n6 ++ [])).
      - rewrite app_nil_r; exact P6.
      - lia.
      - rewrite app_nil_r; repeat (constructor; [reflexivity|]); exact N6.
      - destruct OA as [OA|[h [s [e' [OA [OB OC]]]]]]; [left; exact OA|right; exists h, s, e; repeat split; [lia|lia|exact OB]].
      - rewrite LQ; change (last_strike []) with (@None exn); cbv iota.
        destruct (last_strike n6) as [e'|]; [injection L6 as ->; reflexivity|]; destruct L6 as [_ [O6 L6]]; rewrite DC, <- L6, U6, U5; repeat split; [exact O6|].
        intros _; right; left; reflexivity.
      - exact FA.
      - rewrite app_nil_r; exact Q6. }
    assert (L6' : last_strike n6 = None) by (destruct (last_strike n6); [discriminate|reflexivity]).
    rewrite L6' in L6, LQ; destruct L6 as [_ [O6 L6]].
    unfold seq; destruct (point strike 48 w6) as [w7 r7] eqn:K7; destruct (point_spec _ _ _ _ K7) as [x7 [E7 [R7 Q7]]]; clear K7.
    assert (F7 : files_after f now a p w (files (release encode (made w) w7))).
    { rewrite (release_files _ (open w)); [|subst w7; exact O6|exact (proj2 SD)].
      rewrite (release_files _ (open w)) in FA; [|exact O6|exact (proj2 SD)].
      subst w7; exact FA. }
    assert (P7 : passed w7 = passed w2 ++ (40%nat, None) :: (44%nat, None) :: (47%nat, None) :: n6 ++ [(48%nat, x7)]).
    { subst w7; cbn [passed]; rewrite P6, <- app_assoc; reflexivity. }
    assert (N7 : Forall (fun y => reading (fst y) = false) ((40%nat, None) :: (44%nat, None) :: (47%nat, None) :: n6 ++ [(48%nat, x7)])).
    { repeat first [exact N6 | apply Forall_nil | apply Forall_cons; [reflexivity|] | apply Forall_app; split]. }
    destruct x7 as [e|]; rewrite R7; intros E; injection E as <- <-; (eapply END; [exact P7|subst w7; cbn [made]; lia|exact N7|left; subst w7; exact O6| |exact F7|]).
    - rewrite LQ; reflexivity.
    - intros Q; specialize (Q7 Q); discriminate.
    - rewrite LQ; change (last_strike [(48%nat, None)]) with (@None exn); cbv iota.
      rewrite DC, <- L6; subst w7; cbn [outside files open]; rewrite U6, U5; repeat split; [exact O6|].
      intros _; right; left; reflexivity.
    - intros Q; change (struck ([(40%nat, None); (44%nat, None); (47%nat, None)] ++ n6 ++ [(48%nat, None)]) = []).
      rewrite !struck_app, (Q6 Q); reflexivity.
  Qed.
End Interrupt.

Section Right.
  Variable set_order : list (option path) -> list (option path).
  Hypothesis order_ok : forall l, Permutation (set_order l) l.
  Context {O W : Type}.
  Variable oeq : O -> O -> bool.
  Variable none : O.
  Variable is_none : O -> bool.
  Variable dump : O -> list Z * option exn.
  Variable load : list Z -> option (O * list Z).
  Variable encode decode : path -> list Z -> list Z.
  Variable readable writable : path -> bool.
  Hypothesis pok : pickle_ok oeq none is_none dump load encode decode.
  Variable method : W * fs -> O -> O -> (W * fs) * res O.
  Variable halted : exn -> W * fs -> O -> O -> W * fs.
  Variable strike : nat -> option (exn * nat).
  Variable cache_file : path.
  Variable deps : list dependency.
  Variable g : O -> O -> (path -> option (list Z)) -> res O.
  Hypothesis dok : depends_on oeq deps method g.
  Hypothesis not_self : ~ watched deps cache_file.
  Hypothesis calm_files : leaves_files halted.
  Notation call := (call_struck set_order oeq none is_none dump load encode decode readable writable method halted strike cache_file deps).
  Notation run := (run_struck set_order oeq none is_none dump load encode decode readable writable method halted strike cache_file deps).
  Notation inv_of rd := (inv oeq none is_none load decode rd cache_file deps g).
  Notation right := (right oeq g).

  Lemma inv_unread T st : inv_of readable T st -> inv_of (fun _ => false) T st.
  Proof.
    intros [N I]; split; [exact N|]; intros f D; destruct (I f D) as [I1 _]; split; [exact I1|].
    intros _ a p obj RC; exfalso; unfold read_cache in RC; destruct (sopen_std cache_file (u "rb")); discriminate.
  Qed.

  Lemma release_open (w w' : @world W) : sound w ->
    (open w' = open w \/ exists h s e, (made w <= h < made w')%nat /\ open w' = dset h s (open w) /\ @Raise O e = Raise e) ->
    open (release encode (made w) w') = open w /\ made (release encode (made w) w') = made w' /\ passed (release encode (made w) w') = passed w'.
  Proof.
    intros [SN SF] [E|[h [s [e [L [E _]]]]]].
    - rewrite release_same; [repeat split; exact E|rewrite E; exact SF].
    - rewrite (release_one encode (made w) h s (open w)); [|exact E|exact SF|lia].
      unfold close; cbn [open made passed]; rewrite E, ddel_dset_fresh; [repeat split|].
      intros X; rewrite Forall_forall in SF; specialize (SF _ X); lia.
  Qed.

  Lemma call_right T now w a p w' r : sound w -> inv_of readable T (files w) -> call now a p w = (w', r) ->
    right (contents (files w)) a p r /\ inv_of readable (now :: T) (files (release encode (made w) w')) /\
    sound (release encode (made w) w').
  Proof.
    intros SD I E.
    destruct (call_spec set_order oeq none is_none dump load encode decode readable writable method halted strike
                (ok_none _ _ _ _ _ _ _ pok) cache_file deps now a p w SD w' r E) as [new [P [M [OP [_ [L [F _]]]]]]].
    split; [|split].
    - intros v ->; destruct (last_strike new); [discriminate|]; destruct L as [_ [L _]].
      destruct (struck new).
      + refine (proj1 (disk_call_right set_order order_ok oeq none is_none dump load encode decode readable writable pok method cache_file deps g dok not_self
                  T now (outside w, files w) a p I) v _).
        rewrite <- L; reflexivity.
      + refine (proj1 (disk_call_right set_order order_ok oeq none is_none dump load encode decode (fun _ => false) writable pok method cache_file deps g dok not_self
                  T now (outside w, files w) a p (inv_unread _ _ I)) v _).
        rewrite <- L; reflexivity.
    - destruct F as [->|[[e ->]|[o1 [st1 [r1 [MD F]]]]]].
      + apply inv_mono, I.
      + rewrite calm_files; apply inv_mono, I.
      + destruct (d_method _ _ _ _ dok (outside w, files w) a p) as [x MM]; rewrite MM in MD; cbn [snd] in MD; injection MD as <- <- <-.
        destruct F as [->|[v [b [G [[t BG] ->]]]]]; [apply inv_mono, I|].
        refine (inv_store oeq none is_none dump load encode decode readable pok method cache_file deps g dok not_self T (files w) now a p v (encode cache_file b) t I G _).
        rewrite (ok_decode _ _ _ _ _ _ _ pok); exact BG.
    - destruct (release_open w w' SD) as [E1 [E2 E3]].
      { destruct OP as [OP|[h [s [e [L1 [L2 _]]]]]]; [left; exact OP|right; exists h, s, e; repeat split; [lia|lia|exact L2]]. }
      split; rewrite E1; [exact (proj1 SD)|rewrite E2; eapply Forall_impl; [|exact (proj2 SD)]; cbn; intros; lia].
  Qed.

  Lemma run_right h : forall T w, sound w -> inv_of readable T (files w) -> late_writes cache_file deps T h ->
    exists T', inv_of readable T' (files (fst (run w h))) /\ sound (fst (run w h)).
  Proof.
    induction h as [|[now a p|now a p n|q f|q] h IH]; intros T w SD I L; cbn [run_struck late_writes] in *.
    - exists T; split; assumption.
    - destruct (call now a p w) as [w' r] eqn:C; destruct (call_right T now w a p w' r SD I C) as [_ [I' SD']].
      destruct (IH _ _ SD' I' L) as [T' X]; exists T'.
      destruct (run (release encode (made w) w') h); exact X.
    - pose proof (disk_crash_inv set_order oeq none is_none dump load encode decode readable writable pok method cache_file deps g dok not_self
                    T now (outside w, files w) a p n I) as I'.
      destruct (disk_call_crash set_order oeq none is_none dump load encode decode readable writable method cache_file deps now (outside w, files w) a p n) as [x st].
      exact (IH _ (mkworld x st (made w) (open w) (passed w)) SD I' L).
    - destruct L as [NE [L1 L2]].
      refine (IH T (mkworld (outside w) (dset q f (files w)) (made w) (open w) (passed w)) SD _ L2).
      exact (inv_write oeq none is_none load decode readable method cache_file deps g dok T (files w) q f I NE L1).
    - refine (IH T (mkworld (outside w) (ddel q (files w)) (made w) (open w) (passed w)) SD _ L).
      exact (inv_remove oeq none is_none load decode readable method cache_file deps g dok not_self T (files w) q I).
  Qed.

  Lemma history_struck w h : sound w -> NoDup (dkeys (files w)) -> dget cache_file (files w) = None -> late_writes cache_file deps [] h ->
    forall now a p, let w1 := fst (run w h) in right (contents (files w1)) a p (snd (call now a p w1)) /\ sound w1.
  Proof.
    intros SD N D L now a p; cbv zeta.
    assert (I0 : inv_of readable [] (files w)) by (split; [exact N|intros f X; congruence]).
    destruct (run_right h [] w SD I0 L) as [T' [I SD']].
    destruct (call now a p (fst (run w h))) as [w' r] eqn:C; split; [|exact SD'].
    exact (proj1 (call_right T' now _ a p w' r SD' I C)).
  Qed.
End Right.

Section Memory.
  Context {O V S : Type}.
  Variable oeq : O -> O -> bool.
  Variable hashable : O -> bool.
  Notation key := (list O * list (str * O))%type (only parsing).
  Variable method : S -> key -> S * res V.
  Variable halted : exn -> S -> key -> S.
  Variable g : key -> res V.
  Hypothesis det : forall s k, snd (method s k) = g k.
  Hypothesis resp : forall k k', key_eq oeq k k' = true -> g k = g k'.
  Notation mcall := (memory_call_struck oeq hashable method halted).
  Notation mrun := (memory_run_struck oeq hashable method halted).

  Lemma mget_right d : Forall (fun kv => g (fst kv) = Ok (snd kv)) d -> forall k v, mget oeq k d = Some v -> g k = Ok v.
  Proof.
    induction 1 as [|[k' v'] d H F IH]; intros k v; cbn [mget]; [discriminate|].
    destruct (key_eq oeq k k') eqn:E; [|apply IH]; intros X; injection X as <-; rewrite (resp k k' E); exact H.
  Qed.
  Lemma mcall_right x s d k : Forall (fun kv => g (fst kv) = Ok (snd kv)) d -> key_hashable hashable k = true ->
    let '(s', d', r) := mcall x s d k in
    Forall (fun kv => g (fst kv) = Ok (snd kv)) d' /\ answers (g k) (strikes_of x) r.
  Proof.
    intros F H; unfold memory_call_struck, answers, strikes_of; rewrite H; cbn [flat_map].
    destruct (at_key x) as [e0|]; cbn [app].
    { split; [exact F|]; split; [discriminate|split; [discriminate|intros e E; injection E as ->; right; left; reflexivity]]. }
    destruct (mget oeq k d) as [v|] eqn:MG.
    { pose proof (mget_right d F k v MG) as G; split; [exact F|]; rewrite G; repeat split; [intros v' E; exact E|intros e E; discriminate]. }
    destruct (in_method x) as [e1|]; cbn [app].
    { split; [exact F|]; split; [discriminate|split; [discriminate|intros e E; injection E as ->; right; left; reflexivity]]. }
    pose proof (det s k) as D; destruct (method s k) as [s' [v|e]]; cbn [snd] in D; rewrite <- D.
    2:{ split; [exact F|]; repeat split; [intros v' E; discriminate|intros e' E; left; exact E]. }
    destruct (before_insert x) as [e2|]; cbn [app].
    { split; [exact F|]; split; [discriminate|split; [discriminate|intros e E; injection E as ->; right; left; reflexivity]]. }
    split; [apply Forall_app; split; [exact F|repeat constructor; symmetry; exact D]|].
    destruct (after_insert x) as [e3|]; cbn [app]; repeat split; try discriminate.
    - intros e E; injection E as ->; right; left; reflexivity.
    - intros v' E; exact E.
  Qed.
  Lemma mrun_right calls : forall s d, Forall (fun kv => g (fst kv) = Ok (snd kv)) d ->
    Forall (fun c => key_hashable hashable (snd c) = true) calls ->
    Forall2 (fun c r => answers (g (snd c)) (strikes_of (fst c)) r) calls (snd (mrun s d calls)).
  Proof.
    induction calls as [|[x k] calls IH]; intros s d F H; cbn [memory_run_struck snd]; [constructor|].
    inversion H as [|? ? Hk H']; subst.
    pose proof (mcall_right x s d k F Hk) as C; destruct (mcall x s d k) as [[s' d'] r]; destruct C as [F' A].
    specialize (IH s' d' F' H'); destruct (mrun s' d' calls) as [[s'' d''] vs]; cbn [snd] in *; constructor; assumption.
  Qed.
End Memory.
