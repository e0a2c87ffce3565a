From Verif Require Import Base PyStr Common_model Common_proofs Csv_model Tanaka_model Tatoeba_model Kanjidic_model Files_model Files_spec Files_proofs Encoding_model FileLife_model FileLife_spec.

(** ** Streams *)
Lemma is_live_In i w : is_live i w = true <-> In i (live w).
Proof. unfold is_live; apply mem_In. Qed.
Lemma put_length i s ss : (i < length ss)%nat -> length (put i s ss) = length ss.
Proof. intros L; unfold put; rewrite app_length, firstn_length; cbn [length]; rewrite skipn_length; lia. Qed.
Lemma put_same i s ss : (i < length ss)%nat -> nth_error (put i s ss) i = Some s.
Proof.
  intros L; unfold put; rewrite nth_error_app2 by (rewrite firstn_length; lia).
  rewrite firstn_length; replace (i - Nat.min i (length ss))%nat with O by lia; reflexivity.
Qed.
Lemma put_other i j s : forall ss, i <> j -> (i < length ss)%nat -> nth_error (put i s ss) j = nth_error ss j.
Proof.
  revert j; unfold put; induction i as [|i IH]; intros j ss N L; destruct ss as [|x ss]; cbn [length] in L; try lia.
  - destruct j; [contradiction|]; reflexivity.
  - destruct j as [|j]; [reflexivity|]; cbn [firstn skipn app nth_error]; apply IH; [congruence|lia].
Qed.

(** only the stream [i] was read *)
Definition only_read (i : nat) (w w' : world) : Prop :=
  live w' = live w /\ length (rest w') = length (rest w) /\ (forall j, j <> i -> nth_error (rest w') j = nth_error (rest w) j) /\
  exists m, log w' = log w ++ repeat (Gave i) m.
Lemma only_refl i w : only_read i w w.
Proof. repeat split; exists O; cbn [repeat]; rewrite app_nil_r; reflexivity. Qed.
Lemma only_trans i w1 w2 w3 : only_read i w1 w2 -> only_read i w2 w3 -> only_read i w1 w3.
Proof.
  intros [A [B [C [m D]]]] [A' [B' [C' [m' D']]]]; split; [congruence|split; [congruence|split]].
  - intros j N; rewrite (C' j N); apply C, N.
  - exists (m + m')%nat; rewrite D', D, <- app_assoc, repeat_app; reflexivity.
Qed.
Lemma gave_only i s w : (i < length (rest w))%nat -> only_read i w (gave i s w).
Proof.
  intros L; split; [reflexivity|split; [apply put_length, L|split]].
  - intros j N; apply put_other; [congruence|exact L].
  - exists 1%nat; reflexivity.
Qed.
Lemma nth_lt {A} (l : list A) i x : nth_error l i = Some x -> (i < length l)%nat.
Proof. intros H; apply nth_error_Some; congruence. Qed.
Lemma left_at i w s : nth_error (rest w) i = Some s -> left_in i w = lines_of s.
Proof. unfold left_in; intros ->; reflexivity. Qed.

(** ** Rows *)
Lemma row_step : forall ls n s i w f, In i (live w) -> nth_error (rest w) i = Some (TextIn (mksource ls f)) -> (length ls <= n)%nat ->
  match rows_from s ls f with
  | (row :: rows, o) => exists w' ls', next_row n s i w = (w', Ok (Some row)) /\ only_read i w w' /\
      nth_error (rest w') i = Some (TextIn (mksource ls' f)) /\ rows_from reset ls' f = (rows, o) /\
      (length ls' <= length ls)%nat /\ (length ls' = length ls -> s <> reset)
  | ([], Ok _) => exists w', next_row n s i w = (w', Ok None) /\ only_read i w w'
  | ([], Raise e) => exists w', next_row n s i w = (w', Raise e) /\ only_read i w w'
  end.
Proof.
  induction ls as [|l ls IH]; intros n s i w f L N B.
  - assert (X : next_row n s i w = match f with Some e => (w, Raise e) | None =>
       (w, Ok (if (match field s with [] => false | _ => true end) || is_quoted (state s) then Some (fields s ++ [field s]) else None)) end).
    { assert (Y : next_line i w = (w, match f with Some e => Raise e | None => Ok None end)).
      { unfold next_line; rewrite (proj2 (is_live_In i w) L), N; destruct f; reflexivity. }
      destruct n; cbn [next_row]; rewrite Y; destruct f; reflexivity. }
    rewrite X; cbn [rows_from]; destruct f as [e|]; [exists w; split; [reflexivity|apply only_refl]|].
    destruct (_ || is_quoted (state s)) eqn:Q; [|exists w; split; [reflexivity|apply only_refl]].
    exists w, []; split; [reflexivity|split; [apply only_refl|split; [exact N|split; [reflexivity|split; [apply Nat.le_refl|]]]]].
    intros _ ->; cbn in Q; discriminate.
  - assert (Y : next_line i w = (gave i (TextIn (mksource ls f)) w, Ok (Some (TextLine l)))).
    { unfold next_line; rewrite (proj2 (is_live_In i w) L), N; reflexivity. }
    pose proof (nth_lt _ _ _ N) as LT; pose proof (gave_only i (TextIn (mksource ls f)) w LT) as G.
    cbn [length] in B; destruct n as [|n]; [lia|]; cbn [next_row rows_from]; rewrite Y.
    destruct (feed_line s l) as [s'|e]; [|eexists; split; [reflexivity|exact G]].
    assert (N' : nth_error (rest (gave i (TextIn (mksource ls f)) w)) i = Some (TextIn (mksource ls f))) by (apply put_same, LT).
    destruct (is_start (state s')).
    + destruct (rows_from reset ls f) as [rows o] eqn:R; eexists; exists ls.
      split; [reflexivity|split; [exact G|split; [exact N'|split; [exact R|]]]]; cbn [length]; split; lia.
    + specialize (IH n s' i (gave i (TextIn (mksource ls f)) w) f L N' ltac:(lia)).
      destruct (rows_from s' ls f) as [[|row rows] [[]|e]].
      1,2: destruct IH as [w' [E O]]; exists w'; split; [exact E|exact (only_trans _ _ _ _ G O)].
      all: destruct IH as [w' [ls' [E [O [M [R [B' _]]]]]]]; exists w', ls'; split; [exact E|split; [exact (only_trans _ _ _ _ G O)|]];
        split; [exact M|split; [exact R|cbn [length]; split; lia]].
Qed.
Lemma resume_step h w s : In (id_of h) (live w) -> nth_error (rest w) (id_of h) = Some s ->
  match stream_rows s with
  | (row :: rows, o) => exists w' s', resume h w = (w', Paused h, Ok (Some row)) /\ only_read (id_of h) w w' /\
      nth_error (rest w') (id_of h) = Some s' /\ stream_rows s' = (rows, o) /\ (lines_of s' < lines_of s)%nat
  | ([], o) => exists w', resume h w = (leave h w', Finished, match o with Ok _ => Ok None | Raise e => Raise e end) /\ only_read (id_of h) w w'
  end.
Proof.
  intros L N; unfold resume; rewrite (left_at _ _ _ N); destruct s as [[ls f]|ls]; cbn [stream_rows lines_of lines].
  - pose proof (row_step ls (length ls) reset (id_of h) w f L N (Nat.le_refl _)) as H.
    unfold load_file; cbn [lines failure]; destruct (rows_from reset ls f) as [[|row rows] [[]|e]].
    1,2: destruct H as [w' [E O]]; rewrite E; exists w'; split; [reflexivity|exact O].
    all: destruct H as [w' [ls' [E [O [M [R [B S]]]]]]]; rewrite E; exists w', (TextIn (mksource ls' f)).
    all: split; [reflexivity|split; [exact O|split; [exact M|split; [exact R|]]]]; cbn [lines_of lines].
    all: destruct (Nat.eq_dec (length ls') (length ls)) as [X|X]; [elim (S X eq_refl)|lia].
  - destruct ls as [|l ls]; cbn [csv_source].
    + cbn [load_file lines failure rows_from reset field state is_quoted orb length].
      exists w; split; [|apply only_refl]; cbn [next_row]; unfold next_line; rewrite (proj2 (is_live_In _ w) L), N; reflexivity.
    + cbn [load_file lines failure rows_from length]; exists (gave (id_of h) (BytesIn ls) w).
      split; [|apply gave_only, (nth_lt _ _ _ N)]; cbn [next_row]; unfold next_line; rewrite (proj2 (is_live_In _ w) L), N; reflexivity.
Qed.

(** ** Opening *)
Lemma sopen_dash (name : str) : name = u "-" -> snd (sopen false (fun _ => true) (fun _ => None) name (u "r") (Some (u "utf8"))) = Ok (Identity, Stdin).
Proof. intros ->; reflexivity. Qed.
Lemma open_dash disk w : open_file disk (u "-") w = (w, Ok 0%nat).
Proof. reflexivity. Qed.
Lemma open_other disk name w : name <> u "-" -> open_file disk name w =
  match disk name with
  | Raise e => (w, Raise e)
  | Ok s => (mkworld (length (rest w) :: live w) (rest w ++ [s]) (log w ++ [Opened (length (rest w)) name]), Ok (length (rest w)))
  end.
Proof.
  intros N; unfold open_file, sopen; cbv zeta.
  change (mem (u1 "r") (u "r") && mem (u1 "w") (u "r")) with false; cbn iota.
  change (eqb (u "utf8") (u "byte")) with false; cbn iota.
  change (mem (u1 "r") (u "r")) with true; cbn iota.
  rewrite (eqb_neq name (u "-")) by exact N.
  destruct (endswith (u ".bz2") name); [reflexivity|destruct (endswith (u ".gz") name); reflexivity].
Qed.

(** ** Kanjidic *)
Definition emptied (s : stream_in) : stream_in := match s with TextIn s => TextIn (mksource [] (failure s)) | BytesIn _ => BytesIn [] end.
(* what a body makes of the lines of a stream *)
Fixpoint fold_lines {S} (body : line_in -> S -> res S) (ls : list line_in) (s : S) : res S :=
  match ls with [] => Ok s | l :: r => do s <- body l s; fold_lines body r s end.
Definition line_list (s : stream_in) : list line_in := match s with TextIn s => map TextLine (lines s) | BytesIn ls => map BytesLine ls end.
Definition fails (s : stream_in) : option exn := match s with TextIn s => failure s | BytesIn _ => None end.
Definition fold_stream {S} (body : line_in -> S -> res S) (st : stream_in) (s : S) : res S :=
  do s <- fold_lines body (line_list st) s; do _ <- ended (fails st); Ok s.

Lemma for_lines_spec {S} (body : line_in -> S -> res S) i : forall k st n s w, lines_of st = k -> In i (live w) -> nth_error (rest w) i = Some st -> (k <= n)%nat ->
  exists w', for_lines n i body s w = (w', fold_stream body st s) /\ live w' = live w /\ length (rest w') = length (rest w) /\
    (forall j, j <> i -> nth_error (rest w') j = nth_error (rest w) j) /\
    (exists m, (m <= k)%nat /\ log w' = log w ++ repeat (Gave i) m /\ forall s', fold_stream body st s = Ok s' -> m = k) /\
    (forall s', fold_stream body st s = Ok s' -> nth_error (rest w') i = Some (emptied st)).
Proof.
  assert (E0 : forall (w : world), exists m, (m <= 0)%nat /\ log w = log w ++ repeat (Gave i) m /\ (m = 0)%nat).
  { intros w; exists O; cbn [repeat]; rewrite app_nil_r; repeat split; lia. }
  induction k as [|k IH]; intros st n s w K L N B.
  - assert (Y : next_line i w = (w, match fails st with Some e => Raise e | None => Ok None end)).
    { unfold next_line; rewrite (proj2 (is_live_In i w) L), N; destruct st as [[[|] [|]]|[|]]; cbn in K; (reflexivity || discriminate). }
    assert (Z : line_list st = []) by (destruct st as [[[|] f]|[|]]; cbn in K; (reflexivity || discriminate)).
    exists w; split; [|repeat split].
    + destruct n; cbn [for_lines]; rewrite Y; unfold fold_stream; rewrite Z; cbn [fold_lines bind]; destruct (fails st); reflexivity.
    + destruct (E0 w) as [m [A [C D]]]; exists m; split; [exact A|split; [exact C|intros; exact D]].
    + intros s' _; rewrite N; f_equal; destruct st as [[[|] f]|[|]]; cbn in K; (reflexivity || discriminate).
  - destruct n as [|n]; [lia|].
    assert (Y : exists l st', next_line i w = (gave i st' w, Ok (Some l)) /\ line_list st = l :: line_list st' /\ fails st' = fails st /\
               lines_of st' = k /\ emptied st' = emptied st).
    { unfold next_line; rewrite (proj2 (is_live_In i w) L), N; destruct st as [[[|l ls] f]|[|l ls]]; cbn in K; try discriminate.
      - exists (TextLine l), (TextIn (mksource ls f)); repeat split; injection K as K; exact K.
      - exists (BytesLine l), (BytesIn ls); repeat split; injection K as K; exact K. }
    destruct Y as [l [st' [Y [Z [F [K' EM]]]]]].
    pose proof (nth_lt _ _ _ N) as LT; cbn [for_lines]; rewrite Y; unfold fold_stream; rewrite Z; cbn [fold_lines].
    destruct (body l s) as [s1|e].
    + destruct (IH st' n s1 (gave i st' w) K' L (put_same _ _ _ LT) ltac:(lia)) as [w' [E [A [C [D [[m [M1 [M2 M3]]] G]]]]]].
      unfold fold_stream in E, M3, G; rewrite F in E, M3, G; cbn [bind] in *.
      exists w'; split; [exact E|split; [exact A|split; [rewrite C; apply put_length, LT|split; [|split]]]].
      * intros j J; rewrite (D j J); apply put_other; [congruence|exact LT].
      * exists (Datatypes.S m); split; [lia|split; [|intros s' H; rewrite (M3 s' H); reflexivity]].
        rewrite M2; cbn [gave log]; rewrite <- app_assoc; reflexivity.
      * intros s' H; rewrite (G s' H), EM; reflexivity.
    + cbn [bind]; exists (gave i st' w); split; [reflexivity|split; [reflexivity|split; [apply put_length, LT|split; [|split]]]].
      * intros j J; apply put_other; [congruence|exact LT].
      * exists 1%nat; split; [lia|split; [reflexivity|discriminate]].
      * discriminate.
Qed.

(* the streams as the chain meets them: a stream met again is empty *)
Fixpoint met (ids : list nat) (ss : list stream_in) : list stream_in :=
  match ids with
  | [] => []
  | i :: r => match nth_error ss i with Some s => s :: met r (put i (emptied s) ss) | None => [] end
  end.
Fixpoint fold_streams {S} (body : line_in -> S -> res S) (sts : list stream_in) (s : S) : res S :=
  match sts with [] => Ok s | st :: r => do s <- fold_stream body st s; fold_streams body r s end.
Lemma met_ext ids : forall ss ss', (forall j, nth_error ss j = nth_error ss' j) -> met ids ss = met ids ss'.
Proof.
  intros ss ss' H; replace ss' with ss; [reflexivity|].
  revert ss' H; induction ss as [|x ss IH]; intros ss' H.
  - destruct ss' as [|y ss']; [reflexivity|specialize (H O); discriminate].
  - destruct ss' as [|y ss']; [specialize (H O); discriminate|].
    pose proof (H O) as X; cbn in X; injection X as ->; f_equal; apply IH; intros j; exact (H (Datatypes.S j)).
Qed.
Lemma for_chain_spec {S} (body : line_in -> S -> res S) : forall ids s w, Forall (fun i => In i (live w)) ids -> Forall (fun i => (i < length (rest w))%nat) (live w) ->
  exists w', for_chain ids body s w = (w', fold_streams body (met ids (rest w)) s) /\ live w' = live w /\ length (rest w') = length (rest w) /\
    (forall j, ~ In j ids -> nth_error (rest w') j = nth_error (rest w) j) /\
    exists ms, length ms = length ids /\ log w' = log w ++ flat_map (fun p => repeat (Gave (fst p)) (snd p)) (combine ids ms) /\
      forall s', fold_streams body (met ids (rest w)) s = Ok s' -> ms = map lines_of (met ids (rest w)).
Proof.
  induction ids as [|i ids IH]; intros s w F B.
  - exists w; split; [reflexivity|split; [reflexivity|split; [reflexivity|split; [reflexivity|]]]].
    exists []; split; [reflexivity|split; [cbn; rewrite app_nil_r; reflexivity|reflexivity]].
  - inversion F as [|? ? L F']; subst.
    pose proof (proj1 (Forall_forall _ _) B i L) as LT; cbn beta in LT.
    destruct (nth_error (rest w) i) as [st|] eqn:N; [|apply nth_error_None in N; lia].
    destruct (for_lines_spec body i (lines_of st) st (lines_of st) s w eq_refl L N (Nat.le_refl _)) as [w1 [E [A [C [D [[m [M1 [M2 M3]]] G]]]]]].
    cbn [for_chain met]; rewrite (left_at _ _ _ N), E, N; cbn [fold_streams].
    destruct (fold_stream body st s) as [s1|e] eqn:FS; cbn [bind].
    + assert (X : forall j, nth_error (rest w1) j = nth_error (put i (emptied st) (rest w)) j).
      { intros j; destruct (Nat.eq_dec j i) as [->|J]; [rewrite (G s1 eq_refl); symmetry; apply put_same, LT|].
        rewrite (D j J); symmetry; apply put_other; [congruence|exact LT]. }
      destruct (IH s1 w1) as [w' [E' [A' [C' [D' [ms [K1 [K2 K3]]]]]]]].
      { rewrite A; exact F'. }
      { rewrite A, C; exact B. }
      rewrite (met_ext ids _ _ X) in E', K3; exists w'; split; [exact E'|split; [congruence|split; [congruence|split]]].
      * intros j J; rewrite D'; [apply D; intros ->; apply J; left; reflexivity|intros J'; apply J; right; exact J'].
      * exists (m :: ms); split; [cbn [length]; congruence|split].
        -- rewrite K2, M2, <- app_assoc; reflexivity.
        -- intros s' H; cbn [map]; rewrite (M3 s1 eq_refl); f_equal; exact (K3 s' H).
    + exists w1; split; [reflexivity|split; [exact A|split; [exact C|split]]].
      * intros j J; apply D; intros ->; apply J; left; reflexivity.
      * exists (m :: repeat O (length ids)); split; [cbn [length]; rewrite repeat_length; reflexivity|split; [|discriminate]].
        rewrite M2; f_equal; cbn [combine flat_map fst snd]; rewrite <- (app_nil_r (repeat _ m)) at 1; f_equal.
        clear; induction ids as [|j ids IH]; [reflexivity|exact IH].
Qed.

(* kanjidic's body over a stream *)
Lemma kanji_lines dv ls : forall self, fold_lines (kanji_line dv) (map TextLine ls) self = parse_kanjidic dv ls self.
Proof.
  induction ls as [|l ls IH]; intros self; [reflexivity|]; cbn [map fold_lines kanji_line parse_kanjidic].
  destruct (startswith (u "#") l); [cbn [bind]; apply IH|].
  destruct (parse_line dv l) as [e|e]; cbn [bind]; [|reflexivity].
  destruct (dget (u "kanji") e) as [[]|]; cbn [bind]; try reflexivity; apply IH.
Qed.
Lemma kanji_streams dv sts : forall self, fold_streams (kanji_line dv) sts self = chain_bytes dv sts self.
Proof.
  induction sts as [|st sts IH]; intros self; [reflexivity|]; destruct st as [[ls f]|[|l ls]]; cbn [fold_streams chain_bytes].
  - unfold fold_stream, over; cbn [line_list lines fails failure]; rewrite kanji_lines.
    destruct (parse_kanjidic dv ls self); cbn [bind]; [|reflexivity]; destruct (ended f); cbn [bind]; [apply IH|reflexivity].
  - cbn; apply IH.
  - reflexivity.
Qed.

(** leaving *)
Lemma shut_live i w : live (shut i w) = filter (fun j => negb (Nat.eqb i j)) (live w).
Proof.
  unfold shut; destruct (is_live i w) eqn:L; [reflexivity|].
  assert (H : ~ In i (live w)) by (rewrite <- is_live_In; congruence).
  induction (live w) as [|j l IH]; [reflexivity|]; cbn [filter].
  destruct (Nat.eqb_spec i j) as [->|]; [elim H; left; reflexivity|]; cbn [negb]; f_equal; apply IH; intros X; apply H; right; exact X.
Qed.
Lemma shut_rest i w : rest (shut i w) = rest w.
Proof. unfold shut; destruct (is_live i w); reflexivity. Qed.
Lemma filter_filter {A} (f g : A -> bool) l : filter f (filter g l) = filter (fun x => g x && f x) l.
Proof. induction l as [|x l IH]; [reflexivity|]; cbn [filter]; destruct (g x); cbn [filter andb]; [destruct (f x)|]; rewrite IH; reflexivity. Qed.
Lemma shut_all st : forall w, live (fold_left (fun w i => shut i w) st w) = filter (fun j => negb (mem j st)) (live w) /\
  rest (fold_left (fun w i => shut i w) st w) = rest w.
Proof.
  induction st as [|i st IH]; intros w; cbn [fold_left].
  - split; [|reflexivity]; induction (live w) as [|j l H]; [reflexivity|]; cbn [filter mem negb]; f_equal; exact H.
  - destruct (IH (shut i w)) as [A B]; rewrite A, B, shut_live, shut_rest, filter_filter; split; [|reflexivity].
    apply filter_ext; intros j; cbn [mem]; destruct (eqb_spec j i) as [->|N]; [rewrite Nat.eqb_refl; reflexivity|].
    destruct (Nat.eqb_spec i j); [congruence|reflexivity].
Qed.
Lemma shut_log st : forall L r l, NoDup (st ++ L) ->
  fold_left (fun w i => shut i w) st (mkworld (st ++ L) r l) = mkworld L r (l ++ map Closed st).
Proof.
  induction st as [|i st IH]; intros L r l N; cbn [fold_left app map]; [rewrite app_nil_r; reflexivity|].
  cbn [app] in N; inversion N as [|? ? NI N']; subst.
  unfold shut at 2; unfold is_live; cbn [live mem]; rewrite eqb_refl.
  cbn [filter]; rewrite Nat.eqb_refl; cbn [negb rest log].
  replace (filter (fun j => negb (Nat.eqb i j)) (st ++ L)) with (st ++ L).
  - rewrite IH by exact N'; rewrite <- app_assoc; reflexivity.
  - symmetry; clear -NI; induction (st ++ L) as [|j q IH]; [reflexivity|]; cbn [filter].
    destruct (Nat.eqb_spec i j) as [->|]; [elim NI; left; reflexivity|]; cbn [negb]; f_equal; apply IH; intros X; apply NI; right; exact X.
Qed.

(** entering *)
Section Enter.
  Variable disk : str -> res stream_in.
  (* the names entered, their streams, and the numbers of these *)
  Inductive entered : nat -> list str -> list nat -> list stream_in -> Prop :=
  | Ent_nil k : entered k [] [] []
  | Ent_dash k ns ids ss : entered k ns ids ss -> entered k (u "-" :: ns) (0%nat :: ids) ss
  | Ent_file k n s ns ids ss : n <> u "-" -> disk n = Ok s -> entered (S k) ns ids ss -> entered k (n :: ns) (k :: ids) (s :: ss).
  Definition fresh (k : nat) (ids : list nat) : list nat := filter (fun i => Nat.leb k i) ids.
  Lemma enter_spec : forall names stack w w' stack' o, (1 <= length (rest w))%nat ->
    enter_files disk names stack w = (w', stack', o) ->
    exists ns later ids ss, names = ns ++ later /\ entered (length (rest w)) ns ids ss /\ stack' = rev ids ++ stack /\
      rest w' = rest w ++ ss /\ live w' = rev (fresh (length (rest w)) ids) ++ live w /\
      (~ In (u "-") ns -> log w' = log w ++ opens (length (rest w)) ns /\ ids = seq (length (rest w)) (length ns) /\ length ss = length ns) /\
      (In (u "-") ns -> In 0%nat (live w)) /\
      match later with
      | [] => o = Ok tt
      | n :: _ => n <> u "-" /\ (exists e, disk n = Raise e /\ o = Raise e) \/ n = u "-" /\ ~ In 0%nat (live w) /\ o = Raise ValueError
      end.
  Proof.
    induction names as [|n names IH]; intros stack w w' stack' o L E.
    - cbn [enter_files] in E; injection E as <- <- <-; exists [], [], [], []; (split; [reflexivity|split; [constructor|split; [reflexivity|split; [rewrite app_nil_r; reflexivity|split; [reflexivity|split; [intros _; cbn; rewrite app_nil_r; repeat split|split; [intros []|reflexivity]]]]]]]).
    - cbn [enter_files] in E; destruct (list_eq_dec Z.eq_dec n (u "-")) as [->|N].
      + rewrite open_dash in E; destruct (is_live 0 w) eqn:LV.
        * destruct (IH _ _ _ _ _ L E) as [ns [later [ids [ss [-> [EN [-> [R [LL [LG [IN LT]]]]]]]]]]].
          exists (u "-" :: ns), later, (0%nat :: ids), ss; split; [reflexivity|split; [constructor; exact EN|]].
          split; [cbn [rev]; rewrite <- app_assoc; reflexivity|split; [exact R|split; [|split; [|split]]]].
          -- rewrite LL; f_equal; f_equal; unfold fresh; cbn [filter]; destruct (Nat.leb_spec (length (rest w)) 0); [lia|reflexivity].
          -- intros H; elim H; left; reflexivity.
          -- intros _; apply is_live_In; exact LV.
          -- exact LT.
        * injection E as <- <- <-; exists [], (u "-" :: names), [], []; (split; [reflexivity|split; [constructor|split; [reflexivity|split; [rewrite app_nil_r; reflexivity|split; [reflexivity|split; [intros _; cbn; rewrite app_nil_r; repeat split|split; [intros []|]]]]]]]).
          -- right; split; [reflexivity|split; [|reflexivity]]; rewrite <- is_live_In; congruence.
      + rewrite (open_other disk n w N) in E; destruct (disk n) as [s|e] eqn:D.
        * set (w1 := mkworld (length (rest w) :: live w) (rest w ++ [s]) (log w ++ [Opened (length (rest w)) n])) in E.
          assert (LV : is_live (length (rest w)) w1 = true) by (apply is_live_In; left; reflexivity).
          rewrite LV in E.
          assert (LW : length (rest w1) = S (length (rest w))) by (cbn [rest w1]; rewrite app_length; cbn; lia).
          destruct (IH _ _ _ _ _ ltac:(rewrite LW; lia) E) as [ns [later [ids [ss [-> [EN [-> [R [LL [LG [IN LT]]]]]]]]]]].
          rewrite LW in EN, LL, LG.
          exists (n :: ns), later, (length (rest w) :: ids), (s :: ss); split; [reflexivity|split; [constructor; assumption|]].
          assert (FR : fresh (S (length (rest w))) ids = fresh (length (rest w)) ids).
          { assert (G : forall k ns ids ss, entered k ns ids ss -> (1 <= k)%nat -> forall i, In i ids -> i = 0%nat \/ (k <= i)%nat).
            { clear; induction 1 as [k|k ns ids ss H IH|k n s ns ids ss N D H IH]; intros K i I; [destruct I| |].
              - destruct I as [<-|I]; [left; reflexivity|exact (IH K i I)].
              - destruct I as [<-|I]; [right; lia|]; destruct (IH ltac:(lia) i I); [left; assumption|right; lia]. }
            unfold fresh; apply filter_ext_in; intros i I; destruct (G _ _ _ _ EN ltac:(lia) i I) as [->|H].
            - destruct (Nat.leb_spec (S (length (rest w))) 0), (Nat.leb_spec (length (rest w)) 0); (reflexivity || lia).
            - destruct (Nat.leb_spec (S (length (rest w))) i), (Nat.leb_spec (length (rest w)) i); (reflexivity || lia). }
          split; [cbn [rev]; rewrite <- app_assoc; reflexivity|split; [rewrite R; cbn [rest w1]; rewrite <- app_assoc; reflexivity|split; [|split; [|split]]]].
          -- rewrite LL, FR; cbn [live w1]; unfold fresh at 2; cbn [filter]; rewrite Nat.leb_refl; cbn [rev]; rewrite <- app_assoc; reflexivity.
          -- intros H; destruct LG as [LG [IDS LN]]; [intros X; apply H; right; exact X|].
             split; [rewrite LG; cbn [log w1 opens]; rewrite <- app_assoc; reflexivity|split; [rewrite IDS; reflexivity|cbn [length]; congruence]].
          -- intros [H|H]; [contradiction|]; destruct (IN H) as [X|X]; [lia|exact X].
          -- destruct later as [|x later]; [exact LT|]; destruct LT as [[X Y]|[X [Y Z]]]; [left; split; assumption|right].
             split; [exact X|split; [|exact Z]]; intros Q; apply Y; right; exact Q.
        * injection E as <- <- <-; exists [], (n :: names), [], []; (split; [reflexivity|split; [constructor|split; [reflexivity|split; [rewrite app_nil_r; reflexivity|split; [reflexivity|split; [intros _; cbn; rewrite app_nil_r; repeat split|split; [intros []|]]]]]]]).
          -- left; split; [exact N|]; exists e; split; [exact D|reflexivity].
  Qed.
  Lemma entered_ids k ns ids ss : entered k ns ids ss -> (1 <= k)%nat -> forall i, In i ids -> i = 0%nat /\ In (u "-") ns \/ (k <= i < k + length ss)%nat.
  Proof.
    induction 1 as [k|k ns ids ss H IH|k n s ns ids ss N D H IH]; intros K i I; [destruct I| |]; cbn [length].
    - destruct I as [<-|I]; [left; split; [reflexivity|left; reflexivity]|].
      destruct (IH K i I) as [[A B]|A]; [left; split; [exact A|right; exact B]|right; lia].
    - destruct I as [<-|I]; [right; lia|]; destruct (IH ltac:(lia) i I) as [[A B]|A]; [left; split; [exact A|right; exact B]|right; lia].
  Qed.
  Lemma entered_dash k ns ids ss : entered k ns ids ss -> (1 <= k)%nat -> In (u "-") ns -> In 0%nat ids.
  Proof.
    induction 1 as [k|k ns ids ss H IH|k n s ns ids ss N D H IH]; intros K I; [destruct I|left; reflexivity|].
    destruct I as [->|I]; [contradiction|right; apply IH; [lia|exact I]].
  Qed.
End Enter.

Lemma met_seq ss : forall a, met (seq (length a) (length ss)) (a ++ ss) = ss.
Proof.
  induction ss as [|s ss IH]; intros a; [reflexivity|]; cbn [length seq met].
  rewrite nth_error_app2, Nat.sub_diag by lia; cbn [nth_error]; f_equal.
  specialize (IH (a ++ [emptied s])); rewrite app_length in IH; cbn [length] in IH; rewrite Nat.add_1_r in IH.
  refine (eq_trans _ IH); f_equal; unfold put.
  rewrite firstn_app, Nat.sub_diag, firstn_all; cbn [firstn]; rewrite app_nil_r, <- app_assoc; f_equal; cbn [app]; f_equal.
  rewrite skipn_app, skipn_all2 by lia; replace (S (length a) - length a)%nat with 1%nat by lia; reflexivity.
Qed.
Lemma gives_seq ms : forall k, flat_map (fun p => repeat (Gave (fst p)) (snd p)) (combine (seq k (length ms)) ms) = gives k ms.
Proof. induction ms as [|m ms IH]; intros k; [reflexivity|]; cbn [length seq combine flat_map fst snd gives]; rewrite IH; reflexivity. Qed.
Lemma closes_seq n : forall k, map Closed (rev (seq k n)) = closes k n.
Proof. induction n as [|n IH]; intros k; [reflexivity|]; cbn [seq rev closes]; rewrite map_app, IH; reflexivity. Qed.
Lemma gives_zero n : forall k, gives k (repeat O n) = [].
Proof. induction n as [|n IH]; intros k; [reflexivity|]; cbn [repeat gives app]; apply IH. Qed.
Lemma seq_nodup_app k n L : Forall (fun i => (i < k)%nat) L -> NoDup L -> NoDup (rev (seq k n) ++ L).
Proof.
  intros F N; assert (D : NoDup (rev (seq k n))) by (apply NoDup_rev, seq_NoDup).
  assert (X : forall i, In i (rev (seq k n)) -> ~ In i L).
  { intros i I J; rewrite <- in_rev, in_seq in I; pose proof (proj1 (Forall_forall _ _) F i J) as Q; cbn beta in Q; lia. }
  induction (rev (seq k n)) as [|i l IH]; [exact N|]; inversion D; subst; cbn [app]; constructor.
  - rewrite in_app_iff; intros [I|I]; [contradiction|exact (X i (or_introl eq_refl) I)].
  - apply IH; [assumption|]; intros j J; apply X; right; exact J.
Qed.
Lemma filter_none {A} (f : A -> bool) l : (forall x, In x l -> f x = false) -> filter f l = [].
Proof. induction l as [|x l IH]; intros H; [reflexivity|]; cbn [filter]; rewrite (H x (or_introl eq_refl)); apply IH; intros y Y; apply H; right; exact Y. Qed.
Lemma filter_all {A} (f : A -> bool) l : (forall x, In x l -> f x = true) -> filter f l = l.
Proof. induction l as [|x l IH]; intros H; [reflexivity|]; cbn [filter]; rewrite (H x (or_introl eq_refl)); f_equal; apply IH; intros y Y; apply H; right; exact Y. Qed.
Lemma mem_false {A} `{EqB A} (x : A) l : mem x l = false <-> ~ In x l.
Proof. rewrite <- mem_In; destruct (mem x l); split; congruence. Qed.

Section KanjiLife.
  Variable disk : str -> res stream_in.
  Variable dv : Z -> option Z.
  Lemma kanji_main names w w' r : sound w -> kanjidic_init disk dv names w = (w', r) ->
    exists ns later ids ss, names = ns ++ later /\ entered disk (length (rest w)) ns ids ss /\
      live w' = filter (fun j => negb (mem j ids)) (live w) /\
      length (rest w') = (length (rest w) + length ss)%nat /\
      (forall j, ~ In j ids -> nth_error (rest w') j = nth_error (rest w ++ ss) j) /\
      (In (u "-") ns -> In 0%nat (live w)) /\
      (match later with
       | [] => r = match ids with [] => Raise TypeError | _ => chain_bytes dv (met ids (rest w ++ ss)) [] end
       | n :: _ => n <> u "-" /\ (exists e, disk n = Raise e /\ r = Raise e) \/ n = u "-" /\ ~ In 0%nat (live w) /\ r = Raise ValueError
       end) /\
      (~ In (u "-") ns -> ids = seq (length (rest w)) (length ns) /\ length ss = length ns /\
       (NoDup (live w) -> exists ms, length ms = length ns /\
         log w' = log w ++ opens (length (rest w)) ns ++ gives (length (rest w)) ms ++ closes (length (rest w)) (length ns) /\
         (later <> [] -> ms = repeat O (length ns)) /\ (forall d, r = Ok d -> ms = map lines_of ss))).
  Proof.
    intros [TWO B] E; unfold kanjidic_init in E.
    destruct (enter_files disk names [] w) as [[w1 stack] o] eqn:EN.
    destruct (enter_spec disk names [] w w1 stack o ltac:(lia) EN) as [ns [later [ids [ss [-> [ENT [-> [R [LL [LG [IN LT]]]]]]]]]]].
    rewrite app_nil_r in E; rewrite rev_involutive in E.
    exists ns, later, ids, ss; split; [reflexivity|split; [exact ENT|]].
    assert (RNG := entered_ids disk _ _ _ _ ENT ltac:(lia)).
    assert (LEN1 : length (rest w1) = (length (rest w) + length ss)%nat) by (rewrite R, app_length; reflexivity).
    assert (B1 : Forall (fun i => (i < length (rest w1))%nat) (live w1)).
    { rewrite LL, LEN1; apply Forall_app; split.
      - apply Forall_forall; intros i I; rewrite <- in_rev in I; unfold fresh in I; apply filter_In in I; destruct I as [I K].
        destruct (RNG i I) as [[-> _]|X]; [lia|lia].
      - eapply Forall_impl; [|exact B]; cbn beta; intros i I; lia. }
    assert (ALIVE : forall i, In i ids -> In i (live w1)).
    { intros i I; rewrite LL, in_app_iff, <- in_rev; unfold fresh; destruct (RNG i I) as [[-> D]|X].
      - right; apply IN, D.
      - left; apply filter_In; split; [exact I|apply Nat.leb_le; lia]. }
    (* the loop *)
    assert (LOOP : exists w2 ms, fold_left (fun w i => shut i w) (rev ids) w2 = w' /\ live w2 = live w1 /\ length (rest w2) = length (rest w1) /\
        (forall j, ~ In j ids -> nth_error (rest w2) j = nth_error (rest w1) j) /\ length ms = length ids /\
        log w2 = log w1 ++ flat_map (fun p => repeat (Gave (fst p)) (snd p)) (combine ids ms) /\
        (later <> [] -> ms = repeat O (length ids)) /\
        match later with
        | [] => r = match ids with [] => Raise TypeError | _ => chain_bytes dv (met ids (rest w ++ ss)) [] end
        | _ => match o with Raise e => r = Raise e | Ok _ => False end
        end /\ (forall d, r = Ok d -> ms = map lines_of (met ids (rest w ++ ss)))).
    { assert (Z : forall l : list nat, flat_map (fun p => repeat (Gave (fst p)) (snd p)) (combine l (repeat O (length l))) = []) by (clear; intros l; induction l as [|x l IH]; [reflexivity|exact IH]).
      destruct later as [|n later].
      - subst o; destruct ids as [|i ids].
        + injection E as <- <-; exists w1, []; repeat split; try discriminate; cbn; rewrite ?app_nil_r; reflexivity.
        + destruct (for_chain (i :: ids) (kanji_line dv) [] w1) as [w2 r2] eqn:FC; injection E as <- <-.
          destruct (for_chain_spec (kanji_line dv) (i :: ids) [] w1) as [w3 [E3 [A3 [C3 [D3 [ms [M1 [M2 M3]]]]]]]]; [apply Forall_forall; exact ALIVE|exact B1|].
          rewrite FC, kanji_streams, R in E3; injection E3 as <- ->.
          rewrite kanji_streams, R in M3.
          exists w2, ms; split; [reflexivity|split; [exact A3|split; [exact C3|split; [exact D3|split; [exact M1|split; [exact M2|split; [congruence|split; [reflexivity|exact M3]]]]]]]].
      - assert (X : exists e, o = Raise e) by (destruct LT as [[_ [e [_ ->]]]|[_ [_ ->]]]; eexists; reflexivity).
        destruct X as [e ->]; injection E as <- <-; exists w1, (repeat O (length ids)).
        split; [reflexivity|split; [reflexivity|split; [reflexivity|split; [reflexivity|split; [apply repeat_length|split; [rewrite Z, app_nil_r; reflexivity|split; [reflexivity|split; [reflexivity|discriminate]]]]]]]]. }
    destruct LOOP as [w2 [ms [EX [A2 [C2 [D2 [M1 [M2 [M3 [RES M4]]]]]]]]]].
    destruct (shut_all (rev ids) w2) as [SL SR]; rewrite EX in SL, SR.
    split.
    { rewrite SL, A2, LL, filter_app; rewrite filter_none.
      - cbn [app]; apply filter_ext; intros j; f_equal; destruct (mem j (rev ids)) eqn:M.
        + apply mem_In in M; rewrite <- in_rev in M; symmetry; apply mem_In; exact M.
        + symmetry; apply mem_false; apply mem_false in M; rewrite <- in_rev in M; exact M.
      - intros x X; rewrite <- in_rev in X; unfold fresh in X; apply filter_In in X; destruct X as [X _].
        replace (mem x (rev ids)) with true; [reflexivity|]; symmetry; apply mem_In; rewrite <- in_rev; exact X. }
    split; [rewrite SR, C2; exact LEN1|].
    split; [intros j J; rewrite SR, (D2 j J), R; reflexivity|].
    split; [exact IN|]; split.
    { destruct later as [|n later]; [exact RES|]; destruct LT as [[N [e [D O]]]|[N [D O]]]; subst o; [left|right].
      - split; [exact N|]; exists e; split; [exact D|exact RES].
      - split; [exact N|split; [exact D|exact RES]]. }
    intros ND; destruct (LG ND) as [LG1 [IDS LS]]; split; [exact IDS|split; [exact LS|]]; intros NL.
    assert (LI : length ids = length ns) by (rewrite IDS, seq_length; reflexivity).
    exists ms; split; [congruence|split; [|split]].
    - assert (W2 : w2 = mkworld (rev ids ++ live w) (rest w2) (log w2)).
      { destruct w2 as [l2 r2 g2]; cbn [live rest log] in *; f_equal; rewrite A2, LL; f_equal; f_equal.
        unfold fresh; apply filter_all; intros x X; rewrite IDS, in_seq in X; apply Nat.leb_le; lia. }
      rewrite W2, shut_log in EX.
      + rewrite <- EX; cbn [log]; rewrite M2, LG1, IDS, closes_seq; rewrite <- LI, <- M1, gives_seq, M1, LI, <- !app_assoc; reflexivity.
      + rewrite IDS; apply seq_nodup_app; assumption.
    - intros X; rewrite (M3 X), LI; reflexivity.
    - intros d X; rewrite (M4 d X), IDS, <- LS, met_seq; reflexivity.
  Qed.
End KanjiLife.

(** ** Generators *)
Definition answer (o : op) (st : option rows_of) : res (option (list str)) :=
  match o, st with
  | Close, _ | Next, None => Ok None
  | Next, Some ([], o) => match o with Ok _ => Ok None | Raise e => Raise e end
  | Next, Some (row :: _, _) => Ok (Some row)
  end.
Definition owned (g : gen) : list nat := match g with Paused (Owned i) => [i] | _ => [] end.
Section Gens.
  Variable disk : str -> res stream_in.
  Definition stands (w : world) (g : gen) (st : option rows_of) : Prop :=
    match g with
    | Fresh (Path n) => n <> u "-" /\ st = Some (path_rows disk n)
    | Paused (Owned i) => In i (live w) /\ exists s, nth_error (rest w) i = Some s /\ st = Some (stream_rows s)
    | Finished => st = None
    | _ => False
    end.
  (* what one operation on a generator does to the rest *)
  Record moved (g g' : gen) (w w' : world) : Prop := {
    m_more : (length (rest w) <= length (rest w'))%nat;
    m_bounded : bounded w';
    m_rest : forall j, ~ In j (owned g) -> (j < length (rest w))%nat -> nth_error (rest w') j = nth_error (rest w) j;
    m_live : forall k, (k <= length (rest w))%nat -> Forall (fun i => (k <= i)%nat) (owned g) ->
               filter (fun j => Nat.ltb j k) (live w') = filter (fun j => Nat.ltb j k) (live w);
    m_in : forall j, In j (live w') -> In j (live w) /\ ~ In j (owned g) \/ In j (owned g');
    m_in' : forall j, In j (live w) -> ~ In j (owned g) -> In j (live w');
    m_owned : forall j, In j (owned g') -> (In j (owned g) \/ j = length (rest w)) /\ In j (live w') }.

  Lemma filter_shut k i l : (k <= i)%nat -> filter (fun j => Nat.ltb j k) (filter (fun j => negb (Nat.eqb i j)) l) = filter (fun j => Nat.ltb j k) l.
  Proof.
    intros K; rewrite filter_filter; apply filter_ext; intros j.
    destruct (Nat.eqb_spec i j) as [->|]; cbn [negb andb]; [symmetry; apply Nat.ltb_ge; exact K|reflexivity].
  Qed.
  Lemma in_shut i j l : In j (filter (fun j => negb (Nat.eqb i j)) l) <-> In j l /\ j <> i.
  Proof. rewrite filter_In; destruct (Nat.eqb_spec i j) as [->|N]; cbn [negb]; split; intros [A B]; (split; [exact A|congruence]). Qed.

  (* resuming an owned stream, seen from a world [w0] where it may not be there yet *)
  Lemma resume_owned i w s : In i (live w) -> bounded w -> nth_error (rest w) i = Some s ->
    exists w' g' , resume (Owned i) w = (w', g', answer Next (Some (stream_rows s))) /\
      stands w' g' (after [Next] (Some (stream_rows s))) /\ moved (Paused (Owned i)) g' w w' /\ (g' = Finished \/ g' = Paused (Owned i)).
  Proof.
    intros L B N; pose proof (resume_step (Owned i) w s L N) as H; cbn [id_of] in H.
    destruct (stream_rows s) as [[|row rows] o] eqn:SR.
    - destruct H as [w1 [E [A [C [D _]]]]]; exists (leave (Owned i) w1), Finished.
      split; [rewrite E; destruct o; reflexivity|split; [reflexivity|split; [|left; reflexivity]]]; cbn [leave].
      split; cbn [owned]; rewrite ?shut_rest, ?shut_live, ?A.
      + rewrite C; apply Nat.le_refl.
      + unfold bounded; rewrite shut_rest, shut_live, A, C; apply Forall_forall; intros j J; apply in_shut in J.
        exact (proj1 (Forall_forall _ _) B j (proj1 J)).
      + intros j J _; apply D; intros ->; apply J; left; reflexivity.
      + intros k K F; inversion F; subst; apply filter_shut; assumption.
      + intros j J; apply in_shut in J; left; split; [exact (proj1 J)|]; intros [X|[]]; apply (proj2 J); congruence.
      + intros j J X; apply in_shut; split; [exact J|]; intros ->; apply X; left; reflexivity.
      + intros j [].
    - destruct H as [w1 [s1 [E [[A [C [D _]]] [M [R _]]]]]]; exists w1, (Paused (Owned i)).
      split; [exact E|split; [split; [rewrite A; exact L|exists s1; split; [exact M|rewrite R; reflexivity]]|split; [|right; reflexivity]]].
      split; cbn [owned]; rewrite ?A.
      + rewrite C; apply Nat.le_refl.
      + unfold bounded; rewrite A, C; exact B.
      + intros j J _; apply D; intros ->; apply J; left; reflexivity.
      + reflexivity.
      + intros j J; destruct (Nat.eq_dec j i) as [->|X]; [right; left; reflexivity|left; split; [exact J|]]; intros [Y|[]]; congruence.
      + intros j J _; exact J.
      + intros j [<-|[]]; split; [left; left; reflexivity|exact L].
  Qed.
  Lemma moved_refl g w : bounded w -> owned g = [] -> moved g Finished w w.
  Proof.
    intros B O; split; try rewrite O; cbn [owned].
    - apply Nat.le_refl.
    - exact B.
    - reflexivity.
    - reflexivity.
    - intros j J; left; split; [exact J|intros []].
    - intros j J _; exact J.
    - intros j [].
  Qed.
  Lemma op_step o g st w : bounded w -> stands w g st ->
    exists w' g', gen_op disk o g w = (w', g', answer o st) /\ stands w' g' (after [o] st) /\ moved g g' w w'.
  Proof.
    intros B S; destruct o.
    - destruct g as [[n|i]|[i|i]|]; cbn [stands] in S; try contradiction.
      + destruct S as [N ->]; cbn [gen_op gen_next]; rewrite (open_other disk n w N); unfold path_rows; destruct (disk n) as [s|e].
        * set (w1 := mkworld (length (rest w) :: live w) (rest w ++ [s]) (log w ++ [Opened (length (rest w)) n])).
          assert (LV : is_live (length (rest w)) w1 = true) by (apply is_live_In; left; reflexivity); rewrite LV.
          assert (LW : length (rest w1) = Datatypes.S (length (rest w))) by (cbn [rest w1]; rewrite app_length; cbn; lia).
          destruct (resume_owned (length (rest w)) w1 s) as [w' [g' [E [ST [[M1 M2 M3 M4 M5 M6 M7] GG]]]]].
          -- left; reflexivity.
          -- unfold bounded; rewrite LW; cbn [live w1]; constructor; [lia|]; eapply Forall_impl; [|exact B]; cbn beta; intros; lia.
          -- cbn [rest w1]; rewrite nth_error_app2, Nat.sub_diag by lia; reflexivity.
          -- exists w', g'; split; [exact E|split; [exact ST|]]; cbn [owned] in *; rewrite LW in *; split; cbn [owned].
             ++ lia.
             ++ exact M2.
             ++ intros j _ J; rewrite M3; [cbn [rest w1]; apply nth_error_app1; exact J| |lia]; intros [X|[]]; lia.
             ++ intros k K _; rewrite M4; [|lia|constructor; [exact K|constructor]]; cbn [live w1 filter].
                destruct (Nat.ltb_spec (length (rest w)) k); [lia|reflexivity].
             ++ intros j J; destruct (M5 j J) as [[A C]|A]; [|right; exact A]; cbn [live w1] in A; destruct A as [A|A].
                ** elim C; left; exact A.
                ** left; split; [exact A|intros []].
             ++ intros j J _; apply M6; [right; exact J|]; intros [X|[]]; pose proof (proj1 (Forall_forall _ _) B j J) as Q; cbn beta in Q; lia.
             ++ intros j J; destruct (M7 j J) as [_ C]; split; [right|exact C].
                destruct GG as [-> | ->]; cbn [owned] in J; [destruct J|destruct J as [J|[]]; symmetry; exact J].
        * exists w, Finished; split; [reflexivity|split; [reflexivity|apply moved_refl; [exact B|reflexivity]]].
      + destruct S as [L [s [N ->]]]; cbn [gen_op gen_next]; destruct (resume_owned i w s L B N) as [w' [g' [E [ST [M _]]]]]; exists w', g'; split; [exact E|split; [exact ST|exact M]].
      + subst st; exists w, Finished; split; [reflexivity|split; [reflexivity|apply moved_refl; [exact B|reflexivity]]].
    - destruct g as [[n|i]|[i|i]|]; cbn [stands] in S; try contradiction; cbn [gen_op gen_close].
      + exists w, Finished; split; [reflexivity|split; [reflexivity|apply moved_refl; [exact B|reflexivity]]].
      + exists (shut i w), Finished; split; [reflexivity|split; [reflexivity|]]; split; cbn [owned]; rewrite ?shut_rest, ?shut_live.
        * apply Nat.le_refl.
        * unfold bounded; rewrite shut_rest, shut_live; apply Forall_forall; intros j J; apply in_shut in J.
          exact (proj1 (Forall_forall _ _) B j (proj1 J)).
        * reflexivity.
        * intros k K F; inversion F; subst; apply filter_shut; assumption.
        * intros j J; apply in_shut in J; left; split; [exact (proj1 J)|]; intros [X|[]]; apply (proj2 J); congruence.
        * intros j J X; apply in_shut; split; [exact J|]; intros ->; apply X; left; reflexivity.
        * intros j [].
      + exists w, Finished; split; [reflexivity|split; [reflexivity|apply moved_refl; [exact B|reflexivity]]].
  Qed.

  (** several generators *)
  Lemma Forall2_length {A B} (P : A -> B -> Prop) l l' : Forall2 P l l' -> length l = length l'.
  Proof. induction 1; cbn [length]; congruence. Qed.
  Lemma NoDup_app_remove_l {A} (l l' : list A) : NoDup (l ++ l') -> NoDup l'.
  Proof. induction l as [|x l IH]; intros H; [exact H|]; inversion H; subst; apply IH; assumption. Qed.
  Definition owns (gs : list gen) : list nat := flat_map owned gs.
  Record going (k0 : nat) (base : list nat) (r0 : list stream_in) (gs : list gen) (sts : list (option rows_of)) (w : world) : Prop := {
    g_stands : Forall2 (stands w) gs sts;
    g_nodup : NoDup (owns gs);
    g_new : Forall (fun i => (k0 <= i)%nat) (owns gs);
    g_base : filter (fun j => Nat.ltb j k0) (live w) = base;
    g_live : forall j, In j (live w) -> (k0 <= j)%nat -> In j (owns gs);
    g_more : (k0 <= length (rest w))%nat;
    g_bounded : bounded w;
    g_rest : forall j, (j < k0)%nat -> nth_error (rest w) j = nth_error r0 j }.
  Lemma owns_split gs1 g gs2 : owns (gs1 ++ g :: gs2) = owns gs1 ++ owned g ++ owns gs2.
  Proof. unfold owns; rewrite flat_map_app; reflexivity. Qed.
  Lemma stands_owned w g st i : stands w g st -> In i (owned g) -> In i (live w) /\ (exists s, nth_error (rest w) i = Some s).
  Proof.
    destruct g as [[n|j]|[j|j]|]; cbn [stands owned In]; try (intros _ H; exact (False_ind _ H)).
    intros [L [s [N _]]] [<-|[]]; split; [exact L|exists s; exact N].
  Qed.
  Lemma stands_kept w w' g st : stands w g st -> (forall i, In i (owned g) -> In i (live w') /\ nth_error (rest w') i = nth_error (rest w) i) -> stands w' g st.
  Proof.
    destruct g as [[n|j]|[j|j]|]; cbn [stands owned]; try tauto.
    intros [L [s [N E]]] H; destruct (H j (or_introl eq_refl)) as [A B]; split; [exact A|exists s; split; [congruence|exact E]].
  Qed.
  Lemma others_kept w w' g gs sts : (forall i, In i (owns gs) -> ~ In i (owned g)) -> 
    (forall j, ~ In j (owned g) -> (j < length (rest w))%nat -> nth_error (rest w') j = nth_error (rest w) j) ->
    (forall j, In j (live w) -> ~ In j (owned g) -> In j (live w')) ->
    Forall2 (stands w) gs sts -> Forall2 (stands w') gs sts.
  Proof.
    intros D R L F; revert D; induction F as [|g1 st gs sts S F IH]; intros D; constructor.
    - apply (stands_kept w); [exact S|]; intros i I; pose proof (stands_owned _ _ _ _ S I) as [A [s B]].
      assert (NI : ~ In i (owned g)) by (apply D; unfold owns; cbn [flat_map]; apply in_or_app; left; exact I).
      split; [apply L; assumption|apply R; [exact NI|apply (nth_lt _ _ _ B)]].
    - apply IH; intros i I; apply D; unfold owns; cbn [flat_map]; apply in_or_app; right; exact I.
  Qed.
  Lemma set_nth_split {A} (l : list A) k x y : nth_error l k = Some x -> exists a b, l = a ++ x :: b /\ length a = k /\ set_nth k y l = a ++ y :: b.
  Proof.
    revert k; induction l as [|z l IH]; intros [|k] H; cbn [nth_error] in H; try discriminate.
    - injection H as ->; exists [], l; repeat split.
    - destruct (IH k H) as [a [b [-> [L E]]]]; exists (z :: a), b; cbn [set_nth app length]; rewrite E, L; repeat split.
  Qed.
  Lemma going_step k0 base r0 gs sts w k g st o : going k0 base r0 gs sts w -> nth_error gs k = Some g -> nth_error sts k = Some st ->
    exists w' g', gen_op disk o g w = (w', g', answer o st) /\ going k0 base r0 (set_nth k g' gs) (set_nth k (after [o] st) sts) w'.
  Proof.
    intros [GS ND NEW BASE LV MORE BD RS] NG NS.
    destruct (set_nth_split gs k g Finished NG) as [a [b [-> [LA _]]]].
    destruct (set_nth_split sts k st None NS) as [sa [sb [-> [LS _]]]].
    assert (F : Forall2 (stands w) a sa /\ stands w g st /\ Forall2 (stands w) b sb).
    { clear -GS LA LS; revert sa k LA LS GS; induction a as [|x a IH]; intros [|y sa] k LA LS GS; cbn [length] in *; subst k; try discriminate; cbn [app] in GS; inversion GS; subst.
      - repeat split; [constructor|assumption|assumption].
      - destruct (IH sa (length a) eq_refl ltac:(congruence) H4) as [A [B C]]; repeat split; [constructor; assumption|exact B|exact C]. }
    destruct F as [FA [SG FB]]; rewrite owns_split in ND, NEW, LV.
    destruct (op_step o g st w BD SG) as [w' [g' [E [SG' [M1 M2 M3 M4 M5 M6 M7]]]]].
    exists w', g'; split; [exact E|].
    assert (DA : forall i, In i (owns a) -> ~ In i (owned g)).
    { clear -ND; intros i I J; induction (owns a) as [|x l IH]; [destruct I|]; inversion ND; subst; destruct I as [->|I]; [|apply IH; assumption].
      apply H1; rewrite !in_app_iff; right; left; exact J. }
    assert (DB : forall i, In i (owns b) -> ~ In i (owned g)).
    { clear -ND; intros i I J; apply NoDup_app_remove_l in ND; induction (owned g) as [|x l IH]; [destruct J|]; inversion ND; subst; destruct J as [->|J]; [|apply IH; assumption].
      apply H1; rewrite in_app_iff; right; exact I. }
    assert (OLD : forall i, In i (owns a) \/ In i (owns b) -> (i < length (rest w))%nat).
    { assert (G : forall gs sts, Forall2 (stands w) gs sts -> forall i, In i (owns gs) -> (i < length (rest w))%nat).
      { clear; induction 1 as [|g st gs sts S F IH]; intros i I; [destruct I|]; unfold owns in I; cbn [flat_map] in I; apply in_app_or in I; destruct I as [I|I]; [|exact (IH i I)].
        destruct (stands_owned _ _ _ _ S I) as [_ [s N]]; exact (nth_lt _ _ _ N). }
      intros i [I|I]; [exact (G a sa FA i I)|exact (G b sb FB i I)]. }
    assert (NEWO : forall j, In j (owned g') -> ~ In j (owns a) /\ ~ In j (owns b) /\ (k0 <= j)%nat).
    { intros j J; destruct (M7 j J) as [[X | ->] _].
      - repeat split; [intros Y; exact (DA j Y X)|intros Y; exact (DB j Y X)|].
        apply Forall_app in NEW; destruct NEW as [_ NEW]; apply Forall_app in NEW; exact (proj1 (Forall_forall _ _) (proj1 NEW) j X).
      - repeat split; [| |exact MORE]; intros Y; [specialize (OLD _ (or_introl Y))|specialize (OLD _ (or_intror Y))]; lia. }
    destruct (set_nth_split (a ++ g :: b) k g g' NG) as [a' [b' [X [LA' E']]]].
    destruct (set_nth_split (sa ++ st :: sb) k st (after [o] st) NS) as [sa' [sb' [Y [LS' E'']]]].
    assert (a' = a /\ b' = b) as [-> ->].
    { clear -X LA LA'; revert a' k X LA LA'; induction a as [|x a IH]; intros [|y a'] k X LA LA'; cbn [length app] in *; subst k; try discriminate.
      - injection X as ->; split; reflexivity.
      - injection X as -> X; destruct (IH a' (length a) X eq_refl ltac:(congruence)) as [-> ->]; split; reflexivity. }
    assert (sa' = sa /\ sb' = sb) as [-> ->].
    { clear -Y LS LS'; revert sa' k Y LS LS'; induction sa as [|x a IH]; intros [|y a'] k X LA LA'; cbn [length app] in *; subst k; try discriminate.
      - injection X as ->; split; reflexivity.
      - injection X as -> X; destruct (IH a' (length a) X eq_refl ltac:(congruence)) as [-> ->]; split; reflexivity. }
    rewrite E', E''.
    apply Forall_app in NEW; destruct NEW as [NEWA NEWB]; apply Forall_app in NEWB; destruct NEWB as [NEWG NEWB].
    split.
    - apply Forall2_app; [exact (others_kept w w' g a sa DA M3 M6 FA)|constructor; [exact SG'|exact (others_kept w w' g b sb DB M3 M6 FB)]].
    - rewrite owns_split; clear -ND NEWO.
      assert (NG' : NoDup (owned g')) by (destruct g' as [|[]|]; cbn [owned]; repeat constructor; intros []).
      assert (NB : NoDup (owns b)) by (apply NoDup_app_remove_l, NoDup_app_remove_l in ND; exact ND).
      assert (N1 : NoDup (owned g' ++ owns b)).
      { assert (Z : forall j, In j (owned g') -> ~ In j (owns b)) by (intros j J; apply NEWO, J).
        clear -NG' NB Z; induction (owned g') as [|x l IH]; [exact NB|]; inversion NG'; subst; cbn [app]; constructor.
        - rewrite in_app_iff; intros [I|I]; [contradiction|exact (Z x (or_introl eq_refl) I)].
        - apply IH; [assumption|]; intros j J; apply Z; right; exact J. }
      induction (owns a) as [|x l IH]; [exact N1|]; cbn [app] in *; inversion ND; subst; constructor.
      + rewrite !in_app_iff in *; intros [I|[I|I]]; [apply H1; left; exact I|destruct (NEWO x I) as [Q _]; apply Q; left; reflexivity|apply H1; right; right; exact I].
      + apply IH; [assumption|]; intros j J; destruct (NEWO j J) as [Q R]; split; [intros I; apply Q; right; exact I|exact R].
    - rewrite owns_split; apply Forall_app; split; [exact NEWA|apply Forall_app; split; [|exact NEWB]].
      apply Forall_forall; intros j J; apply NEWO, J.
    - rewrite M4 by assumption; exact BASE.
    - intros j J K; rewrite owns_split, !in_app_iff; destruct (M5 j J) as [[A C]|A]; [|right; left; exact A].
      specialize (LV j A K); rewrite !in_app_iff in LV; destruct LV as [Q|[Q|Q]]; [left; exact Q|contradiction|right; right; exact Q].
    - lia.
    - exact M2.
    - intros j J; rewrite M3; [apply RS, J| |lia]; intros I; pose proof (proj1 (Forall_forall _ _) NEWG j I) as Q; cbn beta in Q; lia.
  Qed.
  Lemma nth_set_nth {A} (l : list A) k j x : nth_error (set_nth k x l) j = if Nat.eqb k j then match nth_error l j with Some _ => Some x | None => None end else nth_error l j.
  Proof.
    revert k j; induction l as [|y l IH]; intros [|k] [|j]; cbn [set_nth nth_error Nat.eqb]; try reflexivity.
    - destruct (Nat.eqb k j); reflexivity.
    - apply IH.
  Qed.
  Lemma play_answer o r st : play (o :: r) st = answer o st :: play r (after [o] st).
  Proof. destruct o, st as [[[|row rows] out]|]; try reflexivity; destruct out; reflexivity. Qed.
  Lemma after_answer o r st : after (o :: r) st = after r (after [o] st).
  Proof. destruct o, st as [[[|row rows] out]|]; reflexivity. Qed.
  Lemma run_going k0 base r0 ops : forall gs sts w, going k0 base r0 gs sts w ->
    exists w' gs' sts' outs, run_gens disk ops gs w = (w', gs', outs) /\ going k0 base r0 gs' sts' w' /\ length gs' = length gs /\
      forall k st, nth_error sts k = Some st -> nth_error sts' k = Some (after (ops_of k ops) st) /\ answers_of k outs = play (ops_of k ops) st.
  Proof.
    induction ops as [|[k o] ops IH]; intros gs sts w G.
    - exists w, gs, sts, []; split; [reflexivity|split; [exact G|split; [reflexivity|]]]; intros k st H; split; [exact H|reflexivity].
    - cbn [run_gens]; destruct (nth_error gs k) as [g|] eqn:NG.
      + assert (NS : exists st, nth_error sts k = Some st).
        { destruct (nth_error sts k) eqn:X; [eexists; reflexivity|]; apply nth_error_None in X.
          pose proof (Forall2_length _ _ _ (g_stands _ _ _ _ _ _ G)) as L; pose proof (nth_lt _ _ _ NG); lia. }
        destruct NS as [st NS]; destruct (going_step k0 base r0 gs sts w k g st o G NG NS) as [w1 [g1 [E G1]]].
        destruct (IH _ _ _ G1) as [w' [gs' [sts' [outs [R [G' [L H]]]]]]].
        exists w', gs', sts', ((k, o, answer o st) :: outs); rewrite E, R; split; [reflexivity|split; [exact G'|split]].
        * rewrite L; clear; revert k; induction gs as [|x gs IH]; intros [|k]; cbn [set_nth length]; [reflexivity..|rewrite IH; reflexivity].
        * intros j sj J; specialize (H j); rewrite nth_set_nth, J in H; unfold ops_of, answers_of in *; cbn [filter fst].
          destruct (Nat.eqb_spec k j) as [->|N].
          -- rewrite J in NS; injection NS as ->; destruct (H _ eq_refl) as [A B]; cbn [map snd]; rewrite after_answer, play_answer, B; split; [exact A|reflexivity].
          -- exact (H sj eq_refl).
      + destruct (IH _ _ _ G) as [w' [gs' [sts' [outs [R [G' [L H]]]]]]].
        exists w', gs', sts', outs; rewrite R; split; [reflexivity|split; [exact G'|split; [exact L|]]].
        intros j sj J; unfold ops_of in *; cbn [filter fst]; destruct (Nat.eqb_spec k j) as [->|N]; [|exact (H j sj J)].
        exfalso; apply nth_error_None in NG; pose proof (Forall2_length _ _ _ (g_stands _ _ _ _ _ _ G)); pose proof (nth_lt _ _ _ J); lia.
  Qed.
  Lemma start_going w names : bounded w -> Forall (fun n => n <> u "-") names ->
    going (length (rest w)) (live w) (rest w) (map (fun n => Fresh (Path n)) names) (map (fun n => Some (path_rows disk n)) names) w.
  Proof.
    intros B F.
    assert (O : owns (map (fun n => Fresh (Path n)) names) = []) by (clear; induction names as [|n names IH]; [reflexivity|exact IH]).
    split; rewrite ?O; try constructor.
    - induction F as [|n names N F IH]; cbn [map]; constructor; [split; [exact N|reflexivity]|].
      apply IH; exact O.
    - apply filter_all; intros j J; apply Nat.ltb_lt; exact (proj1 (Forall_forall _ _) B j J).
    - intros j J K; pose proof (proj1 (Forall_forall _ _) B j J) as Q; cbn beta in Q; lia.
    - exact B.
  Qed.
End Gens.

(** ** Loops over a generator *)
Fixpoint fold_rows {S} (body : list str -> S -> res S) (rows : list (list str)) (s : S) : res S :=
  match rows with [] => Ok s | r :: rs => do s <- body r s; fold_rows body rs s end.
(* what the loop makes of the rows, and what it leaves *)
Definition loop_result {S} (body : list str -> S -> res S) (src : rows_of) (s : S) : res S :=
  do s <- fold_rows body (fst src) s; do _ <- snd src; Ok s.
Fixpoint leftover {S} (body : list str -> S -> res S) (rows : list (list str)) (s : S) : option (list (list str)) :=
  match rows with
  | [] => None
  | r :: rs => match body r s with Ok s => leftover body rs s | Raise _ => Some rs end
  end.
Definition left_state {S} (body : list str -> S -> res S) (src : rows_of) (s : S) : option rows_of :=
  match leftover body (fst src) s with Some rs => Some (rs, snd src) | None => None end.
Lemma leftover_raises {S} (body : list str -> S -> res S) rows : forall s, (exists e, fold_rows body rows s = Raise e) <-> leftover body rows s <> None.
Proof.
  induction rows as [|r rows IH]; intros s; cbn [fold_rows leftover]; [split; [intros [e H]; discriminate|congruence]|].
  destruct (body r s) as [s'|e]; cbn [bind]; [apply IH|split; [discriminate|intros _; exists e; reflexivity]].
Qed.
Lemma rows_short : forall ls s f, (length (fst (rows_from s ls f)) <= length ls + match field s, is_quoted (state s) with [], false => 0 | _, _ => 1 end)%nat.
Proof.
  induction ls as [|l ls IH]; intros s f; cbn [rows_from length].
  - destruct f; [cbn; lia|]; destruct (field s); [destruct (is_quoted (state s)); cbn; lia|cbn; lia].
  - destruct (feed_line s l) as [s'|e]; [|cbn; lia].
    destruct (is_start (state s')).
    + specialize (IH reset f); cbn in IH; destruct (rows_from reset ls f) as [rows o]; cbn [fst] in *; cbn [length]; lia.
    + specialize (IH s' f); destruct (field s'), (is_quoted (state s')); lia.
Qed.
Lemma stream_rows_short s : (length (fst (stream_rows s)) <= lines_of s)%nat.
Proof.
  destruct s as [[ls f]|[|l ls]]; cbn [stream_rows csv_source lines_of lines]; [|cbn; lia..].
  unfold load_file; cbn [lines failure]; pose proof (rows_short ls reset f) as H; cbn in H; lia.
Qed.

Section Loops.
  Variable disk : str -> res stream_in.
  Lemma one_step k0 base r0 g st w o : going disk k0 base r0 [g] [st] w ->
    exists w' g', gen_op disk o g w = (w', g', answer o st) /\ going disk k0 base r0 [g'] [after [o] st] w'.
  Proof. intros G; exact (going_step disk k0 base r0 [g] [st] w 0 g st o G eq_refl eq_refl). Qed.
  Lemma for_rows_spec {S} (body : list str -> S -> res S) k0 base r0 o : forall rows n g s w, (length rows <= n)%nat ->
    going disk k0 base r0 [g] [Some (rows, o)] w ->
    exists w' g', for_rows disk n body g s w = (w', g', loop_result body (rows, o) s) /\
      going disk k0 base r0 [g'] [left_state body (rows, o) s] w'.
  Proof.
    induction rows as [|row rows IH]; intros n g s w L G.
    - destruct (one_step _ _ _ _ _ _ Next G) as [w' [g' [E G']]]; cbn [gen_op answer] in E; exists w', g'; split; [|exact G'].
      destruct n; cbn [for_rows]; rewrite E; unfold loop_result; cbn [fst snd fold_rows bind]; destruct o; reflexivity.
    - destruct (one_step _ _ _ _ _ _ Next G) as [w1 [g1 [E G1]]]; cbn [gen_op answer after] in E, G1.
      cbn [length] in L; destruct n as [|n]; [lia|]; cbn [for_rows]; rewrite E.
      unfold loop_result, left_state; cbn [fst snd fold_rows leftover]; destruct (body row s) as [s'|e]; cbn [bind].
      + destruct (IH n g1 s' w1 ltac:(lia) G1) as [w' [g' [E' G']]]; exists w', g'; split; [exact E'|exact G'].
      + exists w1, g1; split; [reflexivity|exact G1].
  Qed.
  Lemma going_done k0 base r0 g w : going disk k0 base r0 [g] [None] w -> g = Finished /\ live w = base.
  Proof.
    intros [GS ND NEW BASE LV MORE BD RS]; inversion GS as [|? ? ? ? S _]; subst.
    destruct g as [[n|i]|[i|i]|]; cbn [stands] in S; try contradiction.
    - destruct S as [_ S]; discriminate.
    - destruct S as [_ [s [_ S]]]; discriminate.
    - split; [reflexivity|]; symmetry; apply filter_all; intros j J; apply Nat.ltb_lt.
      destruct (Nat.lt_ge_cases j k0) as [H|H]; [exact H|]; destruct (LV j J H).
  Qed.
  (* a generator in the middle *)
  Lemma going_open k0 base r0 g w src : going disk k0 base r0 [g] [Some src] w -> (forall n, g <> Fresh (Path n)) ->
    exists i, g = Paused (Owned i) /\ (k0 <= i)%nat /\ (forall j, In j (live w) <-> In j base \/ j = i) /\ live (fst (gen_close g w)) = base.
  Proof.
    intros G NF; pose proof G as [GS ND NEW BASE LV MORE BD RS]; inversion GS as [|? ? ? ? S _]; subst.
    destruct g as [[n|i]|[i|i]|]; cbn [stands] in S; try contradiction; [elim (NF n eq_refl)| |discriminate].
    exists i; split; [reflexivity|]; destruct S as [L [s [N E]]].
    split; [inversion NEW; assumption|split].
    - intros j; split.
      + intros J; destruct (Nat.lt_ge_cases j k0) as [H|H]; [left; apply filter_In; split; [exact J|apply Nat.ltb_lt, H]|].
        right; destruct (LV j J H) as [X|[]]; symmetry; exact X.
      + intros [J | ->]; [apply filter_In in J; exact (proj1 J)|exact L].
    - destruct (one_step _ _ _ _ _ _ Close G) as [w' [g' [E' G']]]; cbn [gen_op after answer] in E', G'.
      destruct (gen_close (Paused (Owned i)) w) as [w2 g2]; injection E' as -> ->; cbn [fst]; apply (going_done _ _ _ _ _ G').
  Qed.
  Lemma start_one w n : bounded w -> n <> u "-" -> going disk (length (rest w)) (live w) (rest w) [Fresh (Path n)] [Some (path_rows disk n)] w.
  Proof. intros B N; refine (start_going disk w [n] B _); repeat constructor; exact N. Qed.
  Lemma bound_ok w n : n <> u "-" -> (length (fst (path_rows disk n)) <= gen_bound disk (Fresh (Path n)) w)%nat.
  Proof.
    intros N; unfold gen_bound, path_rows; rewrite (eqb_neq _ _ N); destruct (disk n) as [s|e]; [apply stream_rows_short|cbn; lia].
  Qed.
  Lemma going_bound k0 base r0 g w src : going disk k0 base r0 [g] [Some src] w -> (forall n, g <> Fresh (Path n)) -> (length (fst src) <= gen_bound disk g w)%nat.
  Proof.
    intros [GS _ _ _ _ _ _ _] NF; inversion GS as [|? ? ? ? S _]; subst.
    destruct g as [[n|i]|[i|i]|]; cbn [stands] in S; try contradiction; [elim (NF n eq_refl)| |discriminate].
    destruct S as [L [s [N E]]]; injection E as ->; cbn [gen_bound id_of]; rewrite (left_at _ _ _ N); apply stream_rows_short.
  Qed.
  Lemma next_not_fresh g w w' g' a : gen_next disk g w = (w', g', a) -> forall src, g' <> Fresh src.
  Proof.
    assert (R : forall h w w' g' a, resume h w = (w', g', a) -> forall src, g' <> Fresh src).
    { clear; intros h w w' g' a; unfold resume; destruct (next_row _ _ _ _) as [w1 [[row|]|e]]; intros E src; injection E as <- <- <-; discriminate. }
    destruct g as [[n|i]|h|]; cbn [gen_next]; intros E src.
    - destruct (open_file disk n w) as [w1 [i|e]]; [destruct (is_live i w1); [exact (R _ _ _ _ _ E src)|]|]; injection E as <- <- <-; discriminate.
    - exact (R _ _ _ _ _ E src).
    - exact (R _ _ _ _ _ E src).
    - injection E as <- <- <-; discriminate.
  Qed.
  Lemma loop_not_fresh {S} (body : list str -> S -> res S) n : forall g s w w' g' r, for_rows disk n body g s w = (w', g', r) -> forall src, g' <> Fresh src.
  Proof.
    induction n as [|n IH]; intros g s w w' g' r E src; cbn [for_rows] in E; destruct (gen_next disk g w) as [[w1 g1] a] eqn:X;
      pose proof (next_not_fresh _ _ _ _ _ X src) as NF.
    - destruct a as [[row|]|e]; injection E as <- <- <-; exact NF.
    - destruct a as [[row|]|e]; [destruct (body row s) as [s'|e]; [exact (IH _ _ _ _ _ _ E src)|]| |]; injection E as <- <- <-; exact NF.
  Qed.

  Variable dv : Z -> option Z.
  Lemma links_fold s fs ft rows : forall st, fold_rows (link_step dv s fs ft) rows st = read_links dv s fs ft rows st.
  Proof.
    induction rows as [|row rows IH]; intros st; cbn [fold_rows read_links link_step]; [reflexivity|].
    unfold link_step at 1; destruct (link_row dv row); cbn [bind]; [apply IH|reflexivity].
  Qed.
  Lemma links_main s fs ft name w : bounded w -> name <> u "-" ->
    let '(w', r, kept) := links_life disk dv s fs ft (Path name) w in
    live w' = live w /\ kept = None /\
    r = (do st <- read_links dv s fs ft (fst (path_rows disk name)) (mklstate [] [] 0); do _ <- snd (path_rows disk name); Ok st).
  Proof.
    intros B N; unfold links_life.
    pose proof (start_one w name B N) as G; pose proof (bound_ok w name N) as BD; destruct (path_rows disk name) as [rows o] eqn:PR; cbn [fst snd] in *.
    destruct (for_rows_spec (link_step dv s fs ft) _ _ _ o rows _ _ (mklstate [] [] 0) w BD G) as [w1 [g1 [E G1]]]; rewrite E.
    destruct (one_step _ _ _ _ _ _ Close G1) as [w2 [g2 [E2 G2]]]; cbn [gen_op after answer] in E2, G2.
    destruct (gen_close g1 w1) as [w3 g3]; injection E2 as -> ->.
    split; [apply (going_done _ _ _ _ _ G2)|split; [reflexivity|]]; unfold loop_result; cbn [fst snd]; rewrite links_fold; reflexivity.
  Qed.
  Lemma index_fold s edict rows : forall d, fold_rows (index_row dv s edict) rows d = index_rows dv s edict rows d.
  Proof. induction rows as [|row rows IH]; intros d; cbn [fold_rows index_rows]; [reflexivity|]; destruct (index_row dv s edict row d); cbn [bind]; [apply IH|reflexivity]. Qed.
  Lemma indices_main s edict name w : bounded w -> name <> u "-" ->
    let '(w', r, kept) := indices_life disk dv s edict (Path name) w in
    r = (do d <- index_rows dv s edict (fst (path_rows disk name)) ([], []); do _ <- snd (path_rows disk name); Ok d) /\
    ((exists d, index_rows dv s edict (fst (path_rows disk name)) ([], []) = Ok d) -> live w' = live w) /\
    ((exists e, index_rows dv s edict (fst (path_rows disk name)) ([], []) = Raise e) -> held_open w w' kept).
  Proof.
    intros B N; unfold indices_life.
    pose proof (start_one w name B N) as G; pose proof (bound_ok w name N) as BD; destruct (path_rows disk name) as [rows o] eqn:PR; cbn [fst snd] in *.
    destruct (for_rows_spec (index_row dv s edict) _ _ _ o rows _ _ ([], []) w BD G) as [w1 [g1 [E G1]]]; rewrite E.
    pose proof (loop_not_fresh _ _ _ _ _ _ _ _ E) as NF.
    unfold left_state in G1; unfold loop_result; cbn [fst snd] in *; rewrite index_fold.
    split; [reflexivity|split].
    - intros [d D]; pose proof (leftover_raises (index_row dv s edict) rows ([], [])) as LR.
      destruct (leftover (index_row dv s edict) rows ([], [])) as [rs|]; [|apply (going_done _ _ _ _ _ G1)].
      destruct (proj2 LR ltac:(discriminate)) as [e X]; rewrite index_fold in X; congruence.
    - intros [e D]; pose proof (leftover_raises (index_row dv s edict) rows ([], [])) as LR; rewrite index_fold in LR.
      destruct (leftover (index_row dv s edict) rows ([], [])) as [rs|]; [|elim (proj1 LR (ex_intro _ e D) eq_refl)].
      destruct (going_open _ _ _ _ _ _ G1) as [i [-> [K [J C]]]]; [intros n; apply NF|].
      exists i, (Paused (Owned i)); rewrite D; cbn [bind kept_by]; repeat split; try assumption; apply J.
  Qed.

  Section Sentences.
    Variable date : Type.
    Variable strptime : str -> res date.
    Variable filter_row : list str -> bool.
    Lemma sentences_fold langs rows : forall t, fold_rows (read_row dv strptime filter_row langs) rows t = read_rows dv strptime filter_row langs rows t.
    Proof. induction rows as [|row rows IH]; intros t; cbn [fold_rows read_rows]; [reflexivity|]; destruct (read_row dv strptime filter_row langs row t); cbn [bind]; [apply IH|reflexivity]. Qed.
    Lemma sentences_main langs name w : bounded w -> name <> u "-" ->
      let '(w', r, kept) := sentences_life disk dv strptime filter_row langs (Path name) w in
      r = read_sentences dv strptime filter_row langs (path_rows disk name) /\
      (all_taken dv strptime filter_row langs (fst (path_rows disk name)) = true -> live w' = live w) /\
      (all_taken dv strptime filter_row langs (fst (path_rows disk name)) = false -> held_open w w' kept).
    Proof.
      intros B N; unfold sentences_life.
      pose proof (start_one w name B N) as G; destruct (path_rows disk name) as [rows o] eqn:PR; cbn [fst snd] in *.
      destruct (one_step _ _ _ _ _ _ Next G) as [w1 [g1 [E G1]]]; cbn [gen_op] in E; rewrite E.
      pose proof (next_not_fresh _ _ _ _ _ E) as NF.
      destruct rows as [|first rows]; cbn [answer after] in *.
      - destruct (going_done _ _ _ _ _ G1) as [-> L]; destruct o as [[]|e]; cbn [all_taken read_sentences kept_by];
          (split; [reflexivity|split; [intros _; exact L|discriminate]]).
      - assert (OP : forall A (o : res A) e, o = Raise e -> held_open w w1 (kept_by g1 o)).
        { intros A o' e ->; destruct (going_open _ _ _ _ _ _ G1) as [i [-> [K [J C]]]]; [intros n; apply NF|].
          exists i, (Paused (Owned i)); repeat split; try assumption; apply J. }
        assert (MAIN : forall d, (if Nat.eqb (length first) 3 then Ok false else if Nat.eqb (length first) 6 then Ok true else Raise InvalidFileError) = Ok d ->
          let t0 := mktables [] [] (if d then Some [] else None) in
          let '(w', r, kept) := (let '(w, g, o) := match read_row dv strptime filter_row langs first t0 with
                  | Raise e => (w1, g1, Raise e)
                  | Ok t => for_rows disk (gen_bound disk g1 w1) (read_row dv strptime filter_row langs) g1 t w1
                  end in (w, o, kept_by g o)) in
          r = (do t <- read_rows dv strptime filter_row langs (first :: rows) t0; do _ <- o; Ok t) /\
          ((exists t, read_rows dv strptime filter_row langs (first :: rows) t0 = Ok t) -> live w' = live w) /\
          ((exists e, read_rows dv strptime filter_row langs (first :: rows) t0 = Raise e) -> held_open w w' kept)).
        { intros d D t0; cbn [read_rows]; destruct (read_row dv strptime filter_row langs first t0) as [t|e]; cbn [bind].
          - pose proof (going_bound _ _ _ _ _ _ G1 ltac:(intros n; apply NF)) as BD; cbn [fst] in BD.
            destruct (for_rows_spec (read_row dv strptime filter_row langs) _ _ _ o rows _ _ t w1 BD G1) as [w2 [g2 [E2 G2]]]; rewrite E2.
            pose proof (loop_not_fresh _ _ _ _ _ _ _ _ E2) as NF2.
            unfold left_state in G2; unfold loop_result; cbn [fst snd] in *; rewrite sentences_fold; split; [reflexivity|].
            pose proof (leftover_raises (read_row dv strptime filter_row langs) rows t) as LR; rewrite sentences_fold in LR; split.
            + intros [t' D']; destruct (leftover _ rows t) as [rs|]; [|apply (going_done _ _ _ _ _ G2)].
              destruct (proj2 LR ltac:(discriminate)) as [e X]; congruence.
            + intros [e D']; destruct (leftover _ rows t) as [rs|]; [|elim (proj1 LR (ex_intro _ e D') eq_refl)].
              destruct (going_open _ _ _ _ _ _ G2) as [i [-> [K [J C]]]]; [intros n; apply NF2|].
              exists i, (Paused (Owned i)); rewrite D'; cbn [bind kept_by]; repeat split; try assumption; apply J.
          - split; [reflexivity|split; [intros [t H]; discriminate|intros _; apply (OP _ _ e eq_refl)]]. }
        cbn [read_sentences all_taken]; destruct (Nat.eqb (length first) 3) eqn:L3; [|destruct (Nat.eqb (length first) 6) eqn:L6].
        + specialize (MAIN false eq_refl); cbn zeta in MAIN; cbn [bind] in *.
          destruct (let '(w, g, o) := match read_row dv strptime filter_row langs first _ with Raise e => (w1, g1, Raise e) | Ok t => _ end in (w, o, kept_by g o)) as [[w' r] kept].
          destruct MAIN as [R [A C]]; split; [exact R|]; destruct (read_rows _ _ _ _ _ _) as [t|e]; split; intros H; try discriminate; [apply A|apply C]; eexists; reflexivity.
        + specialize (MAIN true eq_refl); cbn zeta in MAIN; cbn [bind] in *.
          destruct (let '(w, g, o) := match read_row dv strptime filter_row langs first _ with Raise e => (w1, g1, Raise e) | Ok t => _ end in (w, o, kept_by g o)) as [[w' r] kept].
          destruct MAIN as [R [A C]]; split; [exact R|]; destruct (read_rows _ _ _ _ _ _) as [t|e]; split; intros H; try discriminate; [apply A|apply C]; eexists; reflexivity.
        + cbn [bind]; split; [reflexivity|split; [discriminate|intros _; apply (OP _ _ InvalidFileError eq_refl)]].
    Qed.
  End Sentences.

  (** ** Buffers *)
  Definition borrows (g : gen) : Prop := match g with Fresh (Buffer _) | Paused (Wrapped _) | Finished => True | _ => False end.
  Lemma next_line_live i w : live (fst (next_line i w)) = live w.
  Proof. unfold next_line; destruct (is_live i w); [|reflexivity]; destruct (nth_error (rest w) i) as [[[[|] [|]]|[|]]|]; reflexivity. Qed.
  Lemma next_row_live n : forall s i w, live (fst (next_row n s i w)) = live w.
  Proof.
    induction n as [|n IH]; intros s i w; cbn [next_row]; pose proof (next_line_live i w) as L; destruct (next_line i w) as [w1 [[[l|l]|]|e]]; cbn [fst] in *; try exact L.
    - destruct (feed_line s l) as [s'|]; [destruct (is_start (state s'))|]; exact L.
    - destruct (feed_line s l) as [s'|]; [destruct (is_start (state s')); [exact L|rewrite IH; exact L]|exact L].
  Qed.
  Lemma borrows_step o g w : borrows g -> let '(w', g', _) := gen_op disk o g w in borrows g' /\ live w' = live w.
  Proof.
    assert (R : forall i w, let '(w', g', _) := resume (Wrapped i) w in borrows g' /\ live w' = live w).
    { clear; intros i w; unfold resume; cbn [id_of]; pose proof (next_row_live (left_in i w) reset i w) as L.
      destruct (next_row _ _ _ _) as [w1 [[row|]|e]]; cbn [fst] in L; split; try exact I; exact L. }
    destruct o, g as [[n|i]|[i|i]|]; cbn [borrows]; intros H; try contradiction; cbn [gen_op gen_next gen_close leave]; try (split; [exact I|reflexivity]); apply R.
  Qed.
  Lemma borrows_run ops : forall gs w, Forall borrows gs -> let '(w', gs', _) := run_gens disk ops gs w in live w' = live w.
  Proof.
    induction ops as [|[k o] ops IH]; intros gs w F; cbn [run_gens]; [reflexivity|].
    destruct (nth_error gs k) as [g|] eqn:N; [|apply IH, F].
    pose proof (borrows_step o g w (proj1 (Forall_forall _ _) F g (nth_error_In _ _ N))) as H.
    destruct (gen_op disk o g w) as [[w1 g1] a]; destruct H as [B L].
    specialize (IH (set_nth k g1 gs) w1); destruct (run_gens disk ops (set_nth k g1 gs) w1) as [[w' gs'] outs]; rewrite IH; [exact L|].
    destruct (set_nth_split gs k g g1 N) as [a' [b' [-> [_ ->]]]]; apply Forall_app in F; destruct F as [FA FB]; inversion FB; subst.
    apply Forall_app; split; [exact FA|constructor; assumption].
  Qed.
End Loops.

(** ** The standard input named twice *)
Section Twice.
  Variable disk : str -> res stream_in.
  Variable dv : Z -> option Z.
  Lemma enter_stack names : forall st w, enter_files disk names st w = let '(w', s', o) := enter_files disk names [] w in (w', s' ++ st, o).
  Proof.
    induction names as [|n names IH]; intros st w; cbn [enter_files]; [reflexivity|].
    destruct (open_file disk n w) as [w1 [i|e]]; [|reflexivity]; destruct (is_live i w1); [|reflexivity].
    rewrite (IH (i :: st)), (IH [i]); destruct (enter_files disk names [] w1) as [[w2 s2] o]; rewrite <- app_assoc; reflexivity.
  Qed.
  Lemma enter_app a : forall b st w, enter_files disk (a ++ b) st w =
    match enter_files disk a st w with (w1, s1, Ok _) => enter_files disk b s1 w1 | x => x end.
  Proof.
    induction a as [|n a IH]; intros b st w; cbn [enter_files app]; [reflexivity|].
    destruct (open_file disk n w) as [w1 [i|e]]; [|reflexivity]; destruct (is_live i w1); [apply IH|reflexivity].
  Qed.
  Lemma put_again i s ss : (i < length ss)%nat -> nth_error ss i = Some s -> put i s ss = ss.
  Proof.
    revert ss; unfold put; induction i as [|i IH]; intros [|x ss] L N; cbn [length] in L; try lia; cbn [nth_error] in N.
    - injection N as ->; reflexivity.
    - cbn [firstn skipn app]; f_equal; apply IH; [lia|exact N].
  Qed.
  (* once the stream [i] is empty, meeting it again adds nothing *)
  Lemma chain_again i a : forall b ss self, nth_error ss i = Some (TextIn (mksource [] None)) \/ nth_error ss i = Some (BytesIn []) ->
    Forall (fun j => (j < length ss)%nat) a ->
    chain_bytes dv (met (a ++ i :: b) ss) self = chain_bytes dv (met (a ++ b) ss) self.
  Proof.
    induction a as [|j a IH]; intros b ss self E F; cbn [app met].
    - destruct E as [E|E]; rewrite E; cbn [emptied failure]; rewrite (put_again i _ ss (nth_lt _ _ _ E) E); reflexivity.
    - inversion F as [|? ? J F']; subst; destruct (nth_error ss j) as [s|] eqn:N; [|reflexivity].
      assert (X : forall self, chain_bytes dv (met (a ++ i :: b) (put j (emptied s) ss)) self = chain_bytes dv (met (a ++ b) (put j (emptied s) ss)) self).
      { intros self'; apply IH; [|rewrite put_length by exact J; exact F'].
        destruct (Nat.eq_dec j i) as [->|NE]; [|rewrite put_other by assumption; exact E].
        rewrite put_same by exact J; destruct E as [E|E]; rewrite E in N; injection N as <-; [left|right]; reflexivity. }
      destruct s as [src|[|l ls]]; cbn [chain_bytes].
      + destruct (over _ src); cbn [bind]; [apply X|reflexivity].
      + apply X.
      + reflexivity.
  Qed.
  Lemma chain_twice i a : forall b c ss self, Forall (fun j => (j < length ss)%nat) (a ++ i :: b) ->
    chain_bytes dv (met (a ++ i :: b ++ i :: c) ss) self = chain_bytes dv (met (a ++ i :: b ++ c) ss) self.
  Proof.
    induction a as [|j a IH]; intros b c ss self F; cbn [app met] in *; inversion F as [|? ? J F']; subst.
    - destruct (nth_error ss i) as [s|] eqn:N; [|reflexivity].
      assert (G : Forall (fun j => (j < length (put i (emptied s) ss))%nat) b) by (rewrite put_length by exact J; exact F').
      destruct s as [[ls [e|]]|[|l ls]]; cbn [chain_bytes].
      + unfold over; cbn [lines failure ended]; destruct (parse_kanjidic dv ls self); reflexivity.
      + destruct (over _ _); cbn [bind]; [|reflexivity]; apply chain_again; [left; apply put_same, J|exact G].
      + apply chain_again; [right; apply put_same, J|exact G].
      + reflexivity.
    - destruct (nth_error ss j) as [s|]; [|reflexivity].
      assert (X : forall self, chain_bytes dv (met (a ++ i :: b ++ i :: c) (put j (emptied s) ss)) self = chain_bytes dv (met (a ++ i :: b ++ c) (put j (emptied s) ss)) self).
      { intros self'; apply IH; rewrite put_length by exact J; exact F'. }
      destruct s as [src|[|l ls]]; cbn [chain_bytes]; [|apply X|reflexivity].
      destruct (over _ src); cbn [bind]; [apply X|reflexivity].
  Qed.
  Lemma kanji_twice a b c w : sound w ->
    snd (kanjidic_init disk dv (a ++ u "-" :: b ++ u "-" :: c) w) = snd (kanjidic_init disk dv (a ++ u "-" :: b ++ c) w).
  Proof.
    intros [TWO B]; unfold kanjidic_init.
    destruct (enter_files disk (a ++ u "-" :: b) [] w) as [[w1 s1] o1] eqn:E1.
    replace (a ++ u "-" :: b ++ u "-" :: c) with ((a ++ u "-" :: b) ++ u "-" :: c) by (rewrite <- app_assoc; reflexivity).
    replace (a ++ u "-" :: b ++ c) with ((a ++ u "-" :: b) ++ c) by (rewrite <- app_assoc; reflexivity).
    rewrite (enter_app (a ++ u "-" :: b) (u "-" :: c)), (enter_app (a ++ u "-" :: b) c), E1; destruct o1 as [[]|e]; [|reflexivity].
    destruct (enter_spec disk _ [] w w1 s1 (Ok tt) ltac:(lia) E1) as [ns [later [ids [ss [SP [ENT [-> [R [LL [_ [IN LT]]]]]]]]]]].
    rewrite app_nil_r in *.
    assert (later = []) as -> by (destruct later as [|n l]; [reflexivity|]; destruct LT as [[_ [e [_ X]]]|[_ [_ X]]]; discriminate).
    rewrite app_nil_r in SP; subst ns.
    assert (L0 : In 0%nat (live w1)) by (rewrite LL; apply in_or_app; right; apply IN; apply in_or_app; right; left; reflexivity).
    cbn [enter_files]; rewrite open_dash, (proj2 (is_live_In 0 w1) L0).
    rewrite (enter_stack c (0%nat :: rev ids)), (enter_stack c (rev ids)).
    destruct (enter_files disk c [] w1) as [[w2 s2] o2] eqn:E2.
    destruct o2 as [[]|e]; [|reflexivity].
    assert (LW1 : length (rest w1) = (length (rest w) + length ss)%nat) by (rewrite R, app_length; reflexivity).
    destruct (enter_spec disk _ [] w1 w2 s2 (Ok tt) ltac:(lia) E2) as [ns2 [later2 [ids2 [ss2 [SP2 [ENT2 [-> [R2 [LL2 [_ [IN2 LT2]]]]]]]]]]].
    rewrite app_nil_r, !rev_app_distr; cbn [rev]; rewrite !rev_involutive, <- app_assoc; cbn [app].
    assert (RNG := entered_ids disk _ _ _ _ ENT ltac:(lia)); assert (RNG2 := entered_ids disk _ _ _ _ ENT2 ltac:(lia)).
    assert (D0 : In 0%nat ids) by (apply (entered_dash disk _ _ _ _ ENT ltac:(lia)); apply in_or_app; right; left; reflexivity).
    assert (LW2 : length (rest w2) = (length (rest w1) + length ss2)%nat) by (rewrite R2, app_length; reflexivity).
    assert (B1 : Forall (fun i => (i < length (rest w1))%nat) (live w1)).
    { rewrite LL, LW1; apply Forall_app; split.
      - apply Forall_forall; intros i I; rewrite <- in_rev in I; unfold fresh in I; apply filter_In in I; destruct I as [I K].
        destruct (RNG i I) as [[-> _]|X]; lia.
      - eapply Forall_impl; [|exact B]; cbn beta; intros i I; lia. }
    assert (B2 : Forall (fun i => (i < length (rest w2))%nat) (live w2)).
    { rewrite LL2, LW2; apply Forall_app; split.
      - apply Forall_forall; intros i I; rewrite <- in_rev in I; unfold fresh in I; apply filter_In in I; destruct I as [I K].
        destruct (RNG2 i I) as [[-> _]|X]; lia.
      - eapply Forall_impl; [|exact B1]; cbn beta; intros i I; lia. }
    assert (AL : forall i, In i ids -> In i (live w2)).
    { intros i I; rewrite LL2, in_app_iff; right; rewrite LL, in_app_iff, <- in_rev; destruct (RNG i I) as [[-> D]|X].
      - right; apply IN, D.
      - left; unfold fresh; apply filter_In; split; [exact I|apply Nat.leb_le; lia]. }
    assert (AL2 : forall i, In i ids2 -> In i (live w2)).
    { intros i I; rewrite LL2, in_app_iff, <- in_rev; destruct (RNG2 i I) as [[-> D]|X].
      - right; apply IN2, D.
      - left; unfold fresh; apply filter_In; split; [exact I|apply Nat.leb_le; lia]. }
    destruct ids as [|i0 ids]; [destruct D0|].
    change ((i0 :: ids) ++ 0%nat :: ids2) with (i0 :: (ids ++ 0%nat :: ids2)); change ((i0 :: ids) ++ ids2) with (i0 :: (ids ++ ids2)).
    cbv iota; change (i0 :: (ids ++ 0%nat :: ids2)) with ((i0 :: ids) ++ 0%nat :: ids2); change (i0 :: (ids ++ ids2)) with ((i0 :: ids) ++ ids2).
    remember (i0 :: ids) as all eqn:ALL; clear ALL.
    assert (P1 : Forall (fun i => In i (live w2)) (all ++ 0%nat :: ids2)).
    { apply Forall_app; split; [apply Forall_forall; exact AL|constructor; [apply AL, D0|apply Forall_forall; exact AL2]]. }
    assert (P2 : Forall (fun i => In i (live w2)) (all ++ ids2)).
    { apply Forall_app; split; apply Forall_forall; assumption. }
    destruct (for_chain_spec (kanji_line dv) _ [] w2 P1 B2) as [x1 [X1 _]]; destruct (for_chain_spec (kanji_line dv) _ [] w2 P2 B2) as [x2 [X2 _]].
    rewrite X1, X2, !kanji_streams; cbn [snd].
    apply in_split in D0; destruct D0 as [p [q ->]].
    rewrite <- !app_assoc; cbn [app]; apply chain_twice.
    apply Forall_forall; intros j J; apply (proj1 (Forall_forall _ _) B2), AL, J.
  Qed.
End Twice.

(** ** Summary for Kanjidic *)
Section Summary.
  Variable disk : str -> res stream_in.
  Variable dv : Z -> option Z.
  Lemma kanji_closed names w : sound w -> ~ In (u "-") names -> live (fst (kanjidic_init disk dv names w)) = live w.
  Proof.
    intros S N; destruct (kanjidic_init disk dv names w) as [w' r] eqn:E.
    destruct (kanji_main disk dv names w w' r S E) as [ns [later [ids [ss [-> [ENT [LV [_ [_ [_ [_ T]]]]]]]]]]].
    destruct T as [IDS _]; [intros X; apply N, in_or_app; left; exact X|]; cbn [fst]; rewrite LV; apply filter_all.
    intros j J; pose proof (proj1 (Forall_forall _ _) (proj2 S) j J) as Q; cbn beta in Q.
    replace (mem j ids) with false; [reflexivity|]; symmetry; apply mem_false; rewrite IDS, in_seq; lia.
  Qed.
  Lemma kanji_others names w j : sound w -> (j < length (rest w))%nat -> j <> 0%nat \/ ~ In (u "-") names ->
    nth_error (rest (fst (kanjidic_init disk dv names w))) j = nth_error (rest w) j.
  Proof.
    intros S L N; destruct (kanjidic_init disk dv names w) as [w' r] eqn:E.
    destruct (kanji_main disk dv names w w' r S E) as [ns [later [ids [ss [-> [ENT [_ [_ [RS _]]]]]]]]].
    cbn [fst]; rewrite RS; [apply nth_error_app1, L|]; intros I.
    destruct (entered_ids disk _ _ _ _ ENT ltac:(destruct S; lia) j I) as [[-> D]|X]; [|lia].
    destruct N as [N|N]; [apply N; reflexivity|apply N, in_or_app; left; exact D].
  Qed.
  Lemma kanji_trace names w w' r : sound w -> NoDup (live w) -> ~ In (u "-") names -> kanjidic_init disk dv names w = (w', r) ->
    let k := length (rest w) in
    exists ns later ss ms, names = ns ++ later /\ Forall2 (fun n s => disk n = Ok s) ns ss /\ length ms = length ns /\
      log w' = log w ++ opens k ns ++ gives k ms ++ closes k (length ns) /\
      match later with
      | [] => r = match names with [] => Raise TypeError | _ => chain_bytes dv ss [] end /\ (forall d, r = Ok d -> ms = map lines_of ss)
      | n :: _ => (exists e, disk n = Raise e /\ r = Raise e) /\ ms = repeat O (length ns)
      end.
  Proof.
    intros S ND N E k; destruct (kanji_main disk dv names w w' r S E) as [ns [later [ids [ss [-> [ENT [_ [_ [_ [_ [RES T]]]]]]]]]]].
    assert (NN : ~ In (u "-") ns) by (intros X; apply N, in_or_app; left; exact X).
    destruct (T NN) as [IDS [LS T']]; destruct (T' ND) as [ms [M1 [M2 [M3 M4]]]].
    exists ns, later, ss, ms; split; [reflexivity|split; [|split; [exact M1|split; [exact M2|]]]].
    - clear -ENT NN; revert NN; induction ENT as [q|q ns ids ss H IH|q n s ns ids ss X D H IH]; intros NN.
      + constructor.
      + elim NN; left; reflexivity.
      + constructor; [exact D|apply IH; intros Y; apply NN; right; exact Y].
    - destruct later as [|n later].
      + rewrite app_nil_r; split; [|exact M4]; rewrite RES, IDS, <- LS, met_seq; destruct ns, ss; try discriminate; reflexivity.
      + split; [|apply M3; discriminate]; destruct RES as [[_ X]|[X _]]; [exact X|].
        elim N; apply in_or_app; right; left; exact X.
  Qed.
  Lemma kanji_result names w : sound w -> ~ In (u "-") names -> snd (kanjidic_init disk dv names w) =
    match names with [] => Raise TypeError | _ => do ss <- mapM disk names; chain_bytes dv ss [] end.
  Proof.
    intros S N; destruct (kanjidic_init disk dv names w) as [w' r] eqn:E.
    destruct (kanji_main disk dv names w w' r S E) as [ns [later [ids [ss [-> [ENT [_ [_ [_ [_ [RES T]]]]]]]]]]].
    assert (NN : ~ In (u "-") ns) by (intros X; apply N, in_or_app; left; exact X).
    destruct (T NN) as [IDS [LS _]]; cbn [snd].
    assert (M : forall q, mapM disk (ns ++ q) = do r <- mapM disk q; Ok (ss ++ r)).
    { clear -ENT NN; revert NN; induction ENT as [q|q ns ids ss H IH|q n s ns ids ss X D H IH]; intros NN p; cbn [app].
      - destruct (mapM disk p); reflexivity.
      - elim NN; left; reflexivity.
      - cbn [mapM]; rewrite D; cbn [bind]; rewrite IH by (intros Y; apply NN; right; exact Y); destruct (mapM disk p); reflexivity. }
    rewrite M; destruct later as [|n later].
    - cbn [mapM bind]; rewrite !app_nil_r, RES, IDS, <- LS, met_seq; destruct ns, ss; try discriminate; reflexivity.
    - assert (RN : exists e, disk n = Raise e /\ r = Raise e).
      { destruct RES as [[_ X]|[X _]]; [exact X|]; elim N; apply in_or_app; right; left; exact X. }
      destruct RN as [e [D ->]]; cbn [mapM]; rewrite D; cbn [bind]; destruct ns; reflexivity.
  Qed.
  Lemma kanji_dash names w : sound w -> In (u "-") names -> Forall (fun n => n <> u "-" -> exists s, disk n = Ok s) names ->
    let '(w', r) := kanjidic_init disk dv names w in
    (In 0%nat (live w) -> live w' = filter (fun j => negb (Nat.eqb j 0)) (live w)) /\
    (~ In 0%nat (live w) -> live w' = live w /\ r = Raise ValueError).
  Proof.
    intros S D F; destruct (kanjidic_init disk dv names w) as [w' r] eqn:E.
    destruct (kanji_main disk dv names w w' r S E) as [ns [later [ids [ss [-> [ENT [LV [_ [_ [IN [RES T]]]]]]]]]]].
    assert (K1 : (1 <= length (rest w))%nat) by (destruct S; lia).
    assert (RNG := entered_ids disk _ _ _ _ ENT K1).
    assert (FR : forall j, In j (live w) -> In j ids -> j = 0%nat /\ In (u "-") ns).
    { intros j J I; destruct (RNG j I) as [X|X]; [exact X|]; pose proof (proj1 (Forall_forall _ _) (proj2 S) j J) as Q; cbn beta in Q; lia. }
    split.
    - intros L; assert (DN : In (u "-") ns).
      { destruct later as [|n later]; [rewrite app_nil_r in D; exact D|].
        destruct RES as [[X [e [Y _]]]|[_ [X _]]]; [|contradiction].
        apply Forall_app in F; destruct F as [_ F]; inversion F as [|? ? Z _]; subst; destruct (Z X) as [s Z']; congruence. }
      rewrite LV; apply filter_ext_in; intros j J; f_equal; destruct (Nat.eqb_spec j 0) as [->|NE].
      + apply mem_In; apply (entered_dash disk _ _ _ _ ENT K1 DN).
      + apply mem_false; intros I; apply NE, (FR j J I).
    - intros L; assert (DN : ~ In (u "-") ns) by (intros X; apply L, IN, X); split.
      + rewrite LV; apply filter_all; intros j J; replace (mem j ids) with false; [reflexivity|]; symmetry; apply mem_false; intros I; apply DN, (FR j J I).
      + destruct later as [|n later]; [rewrite app_nil_r in D; contradiction|].
        destruct RES as [[X [e [Y _]]]|[_ [_ X]]]; [|exact X].
        apply Forall_app in F; destruct F as [_ F]; inversion F as [|? ? Z _]; subst; destruct (Z X) as [s Z']; congruence.
  Qed.
  (** several generators *)
  Lemma gens_rows names ops w : bounded w -> Forall (fun n => n <> u "-") names ->
    let '(w', gs', outs) := run_gens disk ops (map (fun n => Fresh (Path n)) names) w in
    (forall k n, nth_error names k = Some n -> answers_of k outs = play (ops_of k ops) (Some (path_rows disk n))) /\
    (forall j, (j < length (rest w))%nat -> nth_error (rest w') j = nth_error (rest w) j) /\
    filter (fun j => Nat.ltb j (length (rest w))) (live w') = live w /\
    (forall j, In j (live w') -> In j (live w) \/ exists k, nth_error gs' k = Some (Paused (Owned j))) /\
    (forall k j, nth_error gs' k = Some (Paused (Owned j)) -> In j (live w') /\ ~ In j (live w)) /\
    (forall k k' j, nth_error gs' k = Some (Paused (Owned j)) -> nth_error gs' k' = Some (Paused (Owned j)) -> k = k') /\
    (forall k n, nth_error names k = Some n -> nth_error gs' k = Some Finished <-> after (ops_of k ops) (Some (path_rows disk n)) = None) /\
    ((forall k n, nth_error names k = Some n -> after (ops_of k ops) (Some (path_rows disk n)) = None) -> live w' = live w).
  Proof.
    intros B F; destruct (run_going disk _ _ _ ops _ _ _ (start_going disk w names B F)) as [w' [gs' [sts' [outs [E [G [LN H]]]]]]]; rewrite E.
    pose proof G as [GS ND NEW BASE LV MORE BD RS].
    assert (OWN : forall gs, forall j, In j (owns gs) <-> exists k, nth_error gs k = Some (Paused (Owned j))).
    { clear; induction gs as [|g gs IH]; intros j; unfold owns; cbn [flat_map].
      - split; [intros []|intros [[|k] X]; discriminate].
      - rewrite in_app_iff; fold (owns gs); rewrite IH; split.
        + intros [X|[k X]]; [exists O; destruct g as [|[i|i]|]; cbn [owned] in X; try (destruct X as [->|[]]); try contradiction; reflexivity|exists (S k); exact X].
        + intros [[|k] X]; [left; cbn [nth_error] in X; injection X as ->; left; reflexivity|right; exists k; exact X]. }
    assert (H' : forall k n, nth_error names k = Some n -> nth_error sts' k = Some (after (ops_of k ops) (Some (path_rows disk n))) /\
               answers_of k outs = play (ops_of k ops) (Some (path_rows disk n))).
    { intros k n N; apply H; rewrite nth_error_map, N; reflexivity. }
    split; [intros k n N; exact (proj2 (H' k n N))|]. split; [exact RS|]. split; [exact BASE|].
    assert (IN1 : forall j, In j (live w') -> In j (live w) \/ exists k, nth_error gs' k = Some (Paused (Owned j))).
    { intros j J; destruct (Nat.lt_ge_cases j (length (rest w))) as [X|X]; [left; rewrite <- BASE; apply filter_In; split; [exact J|apply Nat.ltb_lt, X]|].
      right; apply OWN, (LV j J X). }
    split; [exact IN1|]. split.
    { intros k j X; assert (O : In j (owns gs')) by (apply OWN; exists k; exact X); split.
      - assert (Y : forall gs sts, Forall2 (stands disk w') gs sts -> In j (owns gs) -> In j (live w')).
        { clear; induction 1 as [|g st gs sts S _ IH]; intros I; [destruct I|]; unfold owns in I; cbn [flat_map] in I; apply in_app_or in I.
          destruct I as [I|I]; [exact (proj1 (stands_owned _ _ _ _ _ S I))|exact (IH I)]. }
        exact (Y _ _ GS O).
      - intros I; pose proof (proj1 (Forall_forall _ _) B j I) as Q1; pose proof (proj1 (Forall_forall _ _) NEW j O) as Q2; cbn beta in *; lia. }
    split.
    { clear -ND OWN; revert ND; induction gs' as [|g gs IH]; intros ND k k' j X X'; [destruct k; discriminate|].
      unfold owns in ND; cbn [flat_map] in ND; fold (owns gs) in ND.
      assert (Z : forall q, g = Paused (Owned j) -> nth_error gs q = Some (Paused (Owned j)) -> False).
      { intros q -> Y; cbn [owned app] in ND; inversion ND as [|? ? NI _]; subst; apply NI, OWN; exists q; exact Y. }
      destruct k as [|k], k' as [|k']; cbn [nth_error] in X, X'; [reflexivity|injection X as ->; elim (Z k' eq_refl X')|injection X' as ->; elim (Z k eq_refl X)|].
      f_equal; exact (IH (NoDup_app_remove_l _ _ ND) k k' j X X'). }
    assert (FIN : forall k n, nth_error names k = Some n -> nth_error gs' k = Some Finished <-> after (ops_of k ops) (Some (path_rows disk n)) = None).
    { intros k n N; destruct (H' k n N) as [ST _].
      assert (Y : forall gs sts, Forall2 (stands disk w') gs sts -> forall k st, nth_error sts k = Some st -> exists g, nth_error gs k = Some g /\ stands disk w' g st).
      { clear; induction 1 as [|g st gs sts S _ IH]; intros [|k] st' X; try discriminate; cbn [nth_error] in *; [injection X as <-; exists g; split; [reflexivity|exact S]|exact (IH k st' X)]. }
      destruct (Y _ _ GS _ _ ST) as [g [NG SG]]; rewrite NG; split.
      - intros X; injection X as ->; exact SG.
      - intros X; rewrite X in SG; f_equal; destruct g as [[m|i]|[i|i]|]; cbn [stands] in SG; try contradiction; [destruct SG; discriminate|destruct SG as [_ [s [_ Q]]]; discriminate|reflexivity]. }
    split; [exact FIN|]. intros ALL; refine (eq_trans _ BASE); symmetry; apply filter_all; intros j J; apply Nat.ltb_lt.
    destruct (IN1 j J) as [X|[k X]]; [exact (proj1 (Forall_forall _ _) B j X)|].
    exfalso; assert (KL : (k < length names)%nat) by (pose proof (nth_lt _ _ _ X) as Q; rewrite LN, map_length in Q; exact Q).
    destruct (nth_error names k) as [n|] eqn:N; [|apply nth_error_None in N; lia].
    pose proof (proj2 (FIN k n N) (ALL k n N)); congruence.
  Qed.
End Summary.

(** ** Buffers *)
Lemma shared_run disk i ks : forall gs w s, Forall (fun g => g = Fresh (Buffer i) \/ g = Paused (Wrapped i)) gs ->
  Forall (fun k => (k < length gs)%nat) ks -> In i (live w) -> nth_error (rest w) i = Some s ->
  (length ks <= length (fst (stream_rows s)))%nat ->
  map snd (snd (run_gens disk (map (fun k => (k, Next)) ks) gs w)) = map (fun row => Ok (Some row)) (firstn (length ks) (fst (stream_rows s))).
Proof.
  induction ks as [|k ks IH]; intros gs w s G K L N B; [reflexivity|].
  inversion K as [|? ? K1 K2]; subst; cbn [map run_gens length] in *.
  destruct (nth_error gs k) as [g|] eqn:E; [|apply nth_error_None in E; lia].
  pose proof (resume_step (Wrapped i) w s L N) as H; cbn [id_of] in H.
  destruct (stream_rows s) as [[|row rows] o] eqn:SR; cbn [fst length] in *; [lia|].
  destruct H as [w1 [s1 [R [[A _] [M [R1 _]]]]]].
  assert (Q : gen_op disk Next g w = (w1, Paused (Wrapped i), Ok (Some row))).
  { destruct (proj1 (Forall_forall _ _) G g (nth_error_In _ _ E)) as [-> | ->]; exact R. }
  rewrite Q.
  assert (LEN : length (set_nth k (Paused (Wrapped i)) gs) = length gs).
  { clear; revert k; induction gs as [|g gs IH]; intros [|k]; cbn [set_nth length]; try reflexivity; rewrite IH; reflexivity. }
  assert (G' : Forall (fun g => g = Fresh (Buffer i) \/ g = Paused (Wrapped i)) (set_nth k (Paused (Wrapped i)) gs)).
  { clear -G; revert k; induction G as [|g gs P G IH]; intros [|k]; cbn [set_nth]; constructor; auto. }
  specialize (IH (set_nth k (Paused (Wrapped i)) gs) w1 s1 G').
  rewrite LEN, A, R1 in IH; cbn [fst] in IH.
  assert (B' : (length ks <= length rows)%nat) by lia.
  specialize (IH K2 L M B').
  destruct (run_gens disk _ _ _) as [[w2 gs2] outs]; cbn [snd map firstn] in *; rewrite IH; reflexivity.
Qed.
Lemma closed_next disk i w : ~ In i (live w) -> gen_next disk (Fresh (Buffer i)) w = (w, Finished, Raise ValueError).
Proof.
  intros L; assert (E : is_live i w = false) by (unfold is_live; apply mem_false; exact L).
  cbn [gen_next]; unfold resume; cbn [id_of]; destruct (left_in i w); cbn [next_row]; unfold next_line; rewrite E; reflexivity.
Qed.
