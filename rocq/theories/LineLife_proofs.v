(* LineLife_proofs.v *)
From Verif Require Import Base PyStr PyText PyFmt Rose Maps_model Common_model Csv_model Files_model Encoding_model FileLife_model FileLife_spec FileLife_proofs.
From Verif Require Import Radk_model Pinyin_model Bilingual_model DictFormat_model SplitCodes_model Place_model LineLife_model LineLife_spec.

Lemma stops_unique {A} (R : list str -> res A) ls left left' : stops R ls left -> stops R ls left' -> left = left'.
Proof.
  assert (W : forall pre left pre0 l e pre' left', ls = pre ++ left -> ls = pre' ++ left' -> pre = pre0 ++ [l] -> (forall more, R (pre ++ more) = Raise e) ->
              sure R pre' -> (length left <= length left')%nat \/ (length left > length left' /\ False)%nat).
  { intros pre l1 pre0 l e pre' l1' E E' P Q S. destruct (Nat.le_gt_cases (length l1) (length l1')) as [H|H]; [left; exact H|exfalso].
    assert (X : exists m, pre' = pre ++ m).
    { exists (firstn (length pre' - length pre) l1).
      assert (T : firstn (length pre') ls = pre') by (rewrite E', firstn_app, Nat.sub_diag, firstn_all; cbn; apply app_nil_r).
      assert (LL : (length pre <= length pre')%nat).
      { assert (length (pre ++ l1) = length (pre' ++ l1')) by congruence; rewrite !app_length in *; lia. }
      rewrite <- T at 1; rewrite E, firstn_app, firstn_all2 by exact LL; reflexivity. }
    destruct X as [m ->]; destruct S as [S|[a S]]; [destruct pre0; subst pre; discriminate|rewrite Q in S; discriminate]. }
  assert (LEN : length left = length left' -> (exists pre, ls = pre ++ left) -> (exists pre, ls = pre ++ left') -> left = left').
  { intros L [p E] [p' E']; assert (H : p ++ left = p' ++ left') by congruence; clear -H L.
    assert (length p = length p') by (apply (f_equal (@length _)) in H; rewrite !app_length in H; lia).
    revert p' H H0; induction p as [|x p IH]; intros [|y p'] H H0; cbn in *; try discriminate; [exact H|].
    injection H as _ H; apply (IH p' H); lia. }
  intros [p [E H]] [p' [E' H']]; apply LEN; [|exists p; exact E|exists p'; exact E'].
  destruct H as [[L S]|[p0 [l [e [P [S Q]]]]]]; destruct H' as [[L' S']|[p0' [l' [e' [P' [S' Q']]]]]].
  - subst; reflexivity.
  - destruct (W _ _ _ _ _ _ _ E' E P' Q' S) as [X|[_ []]]; subst left; cbn [length] in *; lia.
  - destruct (W _ _ _ _ _ _ _ E E' P Q S') as [X|[_ []]]; subst left'; cbn [length] in *; lia.
  - assert (X : forall a b c d (x : str) ee, ls = a ++ b -> ls = (c ++ [x]) ++ d -> (forall more, R (a ++ more) = Raise ee) -> a <> [] -> sure R c -> (length b <= length d)%nat).
    { intros a b c d x ee EA EC QA NA SC; destruct (W a b (removelast a) (last a []) ee c (x :: d) EA) as [H|[_ []]].
      - rewrite EC, <- app_assoc; reflexivity.
      - apply app_removelast_last; exact NA.
      - exact QA.
      - exact SC.
      - cbn [length] in H; destruct (Nat.eq_dec (length b) (Datatypes.S (length d))) as [K|]; [exfalso|lia].
        assert (a = c) as ->.
        { apply (app_inv_tail b). rewrite <- EA, EC. rewrite <- app_assoc; cbn [app].
          assert (HB : b = x :: d).
          { assert (HH : a ++ b = c ++ x :: d) by (rewrite <- EA, EC, <- app_assoc; reflexivity).
            clear -HH K. assert (LA : length a = length c) by (apply (f_equal (@length _)) in HH; rewrite !app_length in HH; cbn [length] in HH; lia).
            revert c LA HH; induction a as [|y a IH]; intros [|z c] LA HH; cbn in *; try discriminate; [exact HH|injection HH as _ HH; apply (IH c); [lia|exact HH]]. }
          rewrite HB; reflexivity. }
        destruct SC as [SC|[v SC]]; [contradiction|]. specialize (QA []); rewrite app_nil_r, SC in QA; discriminate. }
    assert (N : p <> []) by (subst p; destruct p0; discriminate). assert (N' : p' <> []) by (subst p'; destruct p0'; discriminate).
    pose proof (X p left p0' left' l' e E ltac:(subst p'; exact E') Q N S') as X1. pose proof (X p' left' p0 left l e' E' ltac:(subst p; exact E) Q' N' S) as X2. lia.
Qed.

(** ** Loops *)
Fixpoint fold_each {S} (step : str -> S -> S * res unit) (ls : list str) (s : S) : S * res unit :=
  match ls with
  | [] => (s, Ok tt)
  | l :: r => match step l s with (s, Ok _) => fold_each step r s | x => x end
  end.
Lemma fold_each_app {S} (step : str -> S -> S * res unit) a : forall b s,
  fold_each step (a ++ b) s = match fold_each step a s with (s, Ok _) => fold_each step b s | x => x end.
Proof.
  induction a as [|l a IH]; intros b s; [reflexivity|]; cbn [app fold_each].
  destruct (step l s) as [s1 [|]]; [apply IH|reflexivity].
Qed.
Lemma advanced_refl i ls f w : nth_error (rest w) i = Some (TextIn (mksource ls f)) -> advanced i (mksource ls f) ls w w.
Proof. intros N; repeat split; [exact N|]; rewrite Nat.sub_diag; cbn [repeat]; rewrite app_nil_r; reflexivity. Qed.
Lemma advanced_step i l ls f left w w' : (length left <= length ls)%nat -> (i < length (rest w))%nat ->
  advanced i (mksource ls f) left (gave i (TextIn (mksource ls f)) w) w' -> advanced i (mksource (l :: ls) f) left w w'.
Proof.
  intros LE LT [A [B [C [D E]]]]; cbn [failure lines] in *; split; [exact A|split; [exact B|split; [rewrite C; apply put_length, LT|split]]].
  - intros j J; rewrite (D j J); apply put_other; [congruence|exact LT].
  - rewrite E; cbn [gave log lines length]; replace (Datatypes.S (length ls) - length left)%nat with (Datatypes.S (length ls - length left)) by lia.
    rewrite <- app_assoc; reflexivity.
Qed.
Lemma next_text i l ls f w : In i (live w) -> nth_error (rest w) i = Some (TextIn (mksource (l :: ls) f)) ->
  next_line i w = (gave i (TextIn (mksource ls f)) w, Ok (Some (TextLine l))).
Proof. intros L N; unfold next_line; rewrite (proj2 (is_live_In i w) L), N; reflexivity. Qed.
Lemma next_end i f w : In i (live w) -> nth_error (rest w) i = Some (TextIn (mksource [] f)) ->
  next_line i w = (w, match f with Some e => Raise e | None => Ok None end).
Proof. intros L N; unfold next_line; rewrite (proj2 (is_live_In i w) L), N; destruct f; reflexivity. Qed.

Lemma each_text {S} b (step : str -> S -> S * res unit) i f : forall ls n s w, In i (live w) ->
  nth_error (rest w) i = Some (TextIn (mksource ls f)) -> (length ls <= n)%nat ->
  exists w' left, each_line n i (on_text b step) s w = (w', fst (fold_each step ls s), do _ <- snd (fold_each step ls s); ended f) /\
    advanced i (mksource ls f) left w w' /\ (length left <= length ls)%nat /\
    match snd (fold_each step ls s) with
    | Ok _ => left = []
    | Raise e => exists pre0 l, ls = pre0 ++ l :: left /\ snd (fold_each step pre0 s) = Ok tt /\ snd (fold_each step (pre0 ++ [l]) s) = Raise e
    end.
Proof.
  induction ls as [|l ls IH]; intros n s w L N B.
  - exists w, []; split; [|split; [apply advanced_refl, N|split; [reflexivity|reflexivity]]].
    destruct n; cbn [each_line fold_each fst snd bind]; rewrite (next_end i f w L N); destruct f; reflexivity.
  - destruct n as [|n]; [cbn in B; lia|]; cbn [length] in B.
    pose proof (nth_lt _ _ _ N) as LT.
    cbn [each_line fold_each]; rewrite (next_text i l ls f w L N); cbn [on_text].
    destruct (step l s) as [s1 [t|e]] eqn:E.
    + destruct (IH n s1 (gave i (TextIn (mksource ls f)) w) L (put_same _ _ _ LT) ltac:(lia)) as [w' [left [Q [A [LE M]]]]].
      exists w', left; split; [exact Q|split; [apply advanced_step; assumption|split; [cbn; lia|]]].
      destruct (snd (fold_each step ls s1)) as [|e]; [exact M|].
      destruct M as [pre0 [l' [E1 [E2 E3]]]]; exists (l :: pre0), l'; cbn [app fold_each]; rewrite E; split; [congruence|split; assumption].
    + exists (gave i (TextIn (mksource ls f)) w), ls; split; [reflexivity|].
      assert (A : advanced i (mksource ls f) ls (gave i (TextIn (mksource ls f)) w) (gave i (TextIn (mksource ls f)) w)) by (apply advanced_refl, put_same, LT).
      split; [apply advanced_step; [apply Nat.le_refl|exact LT|exact A]|split; [cbn; lia|]].
      exists [], l; cbn [app fold_each snd]; rewrite E; repeat split.
Qed.
Lemma each_bytes {S} b (step : str -> S -> S * res unit) i l ls s w : In i (live w) -> nth_error (rest w) i = Some (BytesIn (l :: ls)) ->
  each_line (left_in i w) i (on_text b step) s w = (gave i (BytesIn ls) w, s, Raise b).
Proof.
  intros L N; rewrite (left_at i w _ N); cbn [lines_of length each_line]; unfold next_line; rewrite (proj2 (is_live_In i w) L), N; reflexivity.
Qed.
Lemma each_bytes_none {S} b (step : str -> S -> S * res unit) i s w : In i (live w) -> nth_error (rest w) i = Some (BytesIn []) ->
  each_line (left_in i w) i (on_text b step) s w = (w, s, Ok tt).
Proof.
  intros L N; rewrite (left_at i w _ N); cbn [lines_of length each_line]; unfold next_line; rewrite (proj2 (is_live_In i w) L), N; reflexivity.
Qed.

(** ** Readers *)
(* what [run] does over a stream, as a reader [R] of lines has to *)
Definition reader {A} (R : list str -> res A) (bytes : str -> exn) (run : nat -> world -> world * res A) : Prop :=
  (forall i s w, In i (live w) -> nth_error (rest w) i = Some (TextIn s) -> reads R i s w (run i w)) /\
  (forall i ls w, In i (live w) -> nth_error (rest w) i = Some (BytesIn ls) -> refuses R bytes i ls w (run i w)).

Lemma loop_reader {S A} (R : list str -> res A) b (step : str -> S -> S * res unit) s0 (fin : S -> res A) :
  (forall s, exists a, fin s = Ok a) ->
  (forall ls, R ls = do _ <- snd (fold_each step ls s0); fin (fst (fold_each step ls s0))) ->
  reader R (fun _ => b) (fun i w => let '(w, s, o) := each_line (left_in i w) i (on_text b step) s0 w in (w, do _ <- o; fin s)).
Proof.
  intros F RE; split.
  - intros i [ls f] w L N; pose proof (left_at i w _ N) as LI; cbn [lines_of lines] in LI; rewrite LI.
    destruct (each_text b step i f ls (length ls) s0 w L N (Nat.le_refl _)) as [w' [left [E [A1 [LE M]]]]]; rewrite E.
    exists left; cbn [fst snd lines]; split; [|split; [exact A1|]].
    + destruct (snd (fold_each step ls s0)) as [[]|e] eqn:O.
      * subst left; exists ls; split; [symmetry; apply app_nil_r|left; split; [reflexivity|right]].
        destruct (F (fst (fold_each step ls s0))) as [a FA]; exists a; rewrite RE, O; exact FA.
      * destruct M as [pre0 [l [E1 [E2 E3]]]]; exists (pre0 ++ [l]); split; [rewrite <- app_assoc; exact E1|right].
        exists pre0, l, e; split; [reflexivity|split].
        -- right; destruct (F (fst (fold_each step pre0 s0))) as [a FA]; exists a; rewrite RE, E2; exact FA.
        -- intros more; rewrite RE, fold_each_app; destruct (fold_each step (pre0 ++ [l]) s0) as [s1 o1]; cbn [snd] in E3; subst o1; reflexivity.
    + unfold over1, over; cbn [lines failure]. rewrite RE.
      destruct ls as [|l0 ls]; destruct f as [e|]; destruct (snd (fold_each step _ s0)) as [[]|e'] eqn:O; cbn [bind ended]; try reflexivity.
      * cbn in O; discriminate.
      * destruct (fin (fst (fold_each step [] s0))); reflexivity.
      * destruct (F (fst (fold_each step (l0 :: ls) s0))) as [a ->]; reflexivity.
      * destruct (fin (fst (fold_each step (l0 :: ls) s0))); reflexivity.
  - intros i [|l ls] w L N; cbn [refuses].
    + rewrite (each_bytes_none b step i s0 w L N); cbn [bind]; rewrite RE; reflexivity.
    + rewrite (each_bytes b step i l ls s0 w L N); pose proof (nth_lt _ _ _ N) as LT; cbn [fst snd bind].
      split; [reflexivity|split; [intros j J; apply put_other; [congruence|exact LT]|split; [apply put_same, LT|split; reflexivity]]].
Qed.

(* with a header; the heap part of the state is given back too *)
Lemma head_text {S T} b (head : line_in -> S -> S * res T) (step : T -> str -> S -> S * res unit) i l ls f s0 w : In i (live w) ->
  nth_error (rest w) i = Some (TextIn (mksource (l :: ls) f)) ->
  exists w' left, advanced i (mksource (l :: ls) f) left w w' /\ (length left <= length ls)%nat /\
    match head (TextLine l) s0 with
    | (s, Raise e) => head_then i head (fun t => on_text b (step t)) s0 w = (w', s, Raise e) /\ left = ls
    | (s, Ok t) =>
        head_then i head (fun t => on_text b (step t)) s0 w = (w', fst (fold_each (step t) ls s), do _ <- snd (fold_each (step t) ls s); ended f) /\
        match snd (fold_each (step t) ls s) with
        | Ok _ => left = []
        | Raise e => exists pre0 x, ls = pre0 ++ x :: left /\ snd (fold_each (step t) pre0 s) = Ok tt /\ snd (fold_each (step t) (pre0 ++ [x]) s) = Raise e
        end
    end.
Proof.
  intros L N; pose proof (nth_lt _ _ _ N) as LT; unfold head_then; rewrite (next_text i l ls f w L N).
  destruct (head (TextLine l) s0) as [s [t|e]].
  - assert (N' : nth_error (rest (gave i (TextIn (mksource ls f)) w)) i = Some (TextIn (mksource ls f))) by (apply put_same, LT).
    pose proof (left_at i _ _ N') as LI; cbn [lines_of lines] in LI; rewrite LI.
    destruct (each_text b (step t) i f ls (length ls) s (gave i (TextIn (mksource ls f)) w) L N' (Nat.le_refl _)) as [w' [left [E [A [LE M]]]]].
    exists w', left; split; [apply advanced_step; assumption|split; [exact LE|split; [exact E|exact M]]].
  - exists (gave i (TextIn (mksource ls f)) w), ls; split; [|split; [apply Nat.le_refl|split; reflexivity]].
    apply advanced_step; [apply Nat.le_refl|exact LT|apply advanced_refl, put_same, LT].
Qed.
Lemma head_reader {S T A} (R : list str -> res A) bytes b (head : line_in -> S -> S * res T) (step : T -> str -> S -> S * res unit) s0 (fin : S -> A) :
  R [] = Raise StopIteration ->
  (forall l ls, R (l :: ls) = match head (TextLine l) s0 with
                              | (_, Raise e) => Raise e
                              | (s, Ok t) => do _ <- snd (fold_each (step t) ls s); Ok (fin (fst (fold_each (step t) ls s)))
                              end) ->
  (forall l, snd (head (BytesLine l) s0) = Raise (bytes l)) ->
  reader R bytes (fun i w => let '(w, s, o) := head_then i head (fun t => on_text b (step t)) s0 w in (w, do _ <- o; Ok (fin s))).
Proof.
  intros R0 RE HB; split.
  - intros i [[|l ls] f] w L N.
    + unfold head_then; rewrite (next_end i f w L N); exists []; cbn [lines].
      split; [exists []; split; [reflexivity|left; split; [reflexivity|left; reflexivity]]|].
      unfold over1, over; cbn [lines failure]; rewrite R0; destruct f; cbn [fst snd bind]; (split; [apply advanced_refl, N|reflexivity]).
    + destruct (head_text b head step i l ls f s0 w L N) as [w' [left [A1 [LE M]]]].
      specialize (RE l) as RL. destruct (head (TextLine l) s0) as [s [t|e]] eqn:H.
      * destruct M as [-> M]; exists left; cbn [fst snd lines]; split; [|split; [exact A1|]].
        -- destruct (snd (fold_each (step t) ls s)) as [[]|e] eqn:O.
           ++ subst left; exists (l :: ls); split; [symmetry; apply app_nil_r|left; split; [reflexivity|right]].
              eexists; rewrite RL, O; reflexivity.
           ++ destruct M as [pre0 [x [E1 [E2 E3]]]]; exists ((l :: pre0) ++ [x]); split; [rewrite <- app_assoc; cbn [app]; rewrite E1; reflexivity|right].
              exists (l :: pre0), x, e; split; [reflexivity|split].
              ** right; eexists; rewrite RL, E2; reflexivity.
              ** intros more; cbn [app]; rewrite RL, fold_each_app; destruct (fold_each (step t) (pre0 ++ [x]) s) as [s1 o1]; cbn [snd] in E3; subst o1; reflexivity.
        -- unfold over1, over; cbn [lines failure]; rewrite RL; destruct (snd (fold_each (step t) ls s)) as [[]|e']; cbn [bind]; [|destruct f; reflexivity].
           destruct f; reflexivity.
      * destruct M as [-> ->]; exists ls; cbn [fst snd lines]; split; [|split; [exact A1|]].
        -- exists [l]; split; [reflexivity|right]; exists [], l, e; split; [reflexivity|split; [left; reflexivity|]].
           intros more; cbn [app]; apply RL.
        -- unfold over1, over; cbn [lines failure]; rewrite RL; destruct f; reflexivity.
  - intros i [|l ls] w L N; cbn [refuses]; unfold head_then, next_line; rewrite (proj2 (is_live_In i w) L), N.
    + cbn [bind]; rewrite R0; reflexivity.
    + specialize (HB l); destruct (head (BytesLine l) s0) as [s o]; cbn [snd] in HB; subst o; pose proof (nth_lt _ _ _ N) as LT; cbn [fst snd bind].
      split; [reflexivity|split; [intros j J; apply put_other; [congruence|exact LT]|split; [apply put_same, LT|split; reflexivity]]].
Qed.

(** ** Files *)
Lemma shut_new i l r g : ~ In i l -> shut i (mkworld (i :: l) r g) = mkworld l r (g ++ [Closed i]).
Proof.
  intros N; unfold shut; assert (E : is_live i (mkworld (i :: l) r g) = true) by (apply is_live_In; left; reflexivity).
  rewrite E; cbn [live rest log filter]; rewrite Nat.eqb_refl; cbn [negb]; f_equal; apply filter_all; intros j J.
  destruct (Nat.eqb_spec i j) as [->|]; [contradiction|reflexivity].
Qed.
Lemma file_reader {A} (R : list str -> res A) bytes run disk name w : bounded w -> reader R bytes run ->
  reads_file R bytes disk name w (with_source disk (@Raise A) (FileLife_model.Path name) run w).
Proof.
  intros B [RT RB]; unfold reads_file, with_source, open_plain; destruct (disk name) as [st|e]; [|reflexivity].
  set (k := length (rest w)). set (w1 := mkworld (k :: live w) (rest w ++ [st]) (log w ++ [Opened k name])).
  assert (L : In k (live w1)) by (left; reflexivity).
  assert (N : nth_error (rest w1) k = Some st) by (cbn [rest w1]; rewrite nth_error_app2, Nat.sub_diag by (unfold k; lia); reflexivity).
  assert (NI : ~ In k (live w)) by (intros I; pose proof (proj1 (Forall_forall _ _) B k I) as Q; cbn beta in Q; unfold k in Q; lia).
  assert (OLD : forall j, (j < k)%nat -> nth_error (rest w1) j = nth_error (rest w) j) by (intros j J; cbn [rest w1]; apply nth_error_app1; exact J).
  assert (GO : forall w', live w' = live w1 -> (forall j, j <> k -> nth_error (rest w') j = nth_error (rest w1) j) ->
            live (shut k w') = live w /\ (forall j, (j < k)%nat -> nth_error (rest (shut k w')) j = nth_error (rest w) j) /\ log (shut k w') = log w' ++ [Closed k]).
  { intros [l' r' g'] E D; cbn [live rest log w1] in *; subst l'; rewrite (shut_new k (live w) r' g' NI); cbn [live rest log]; repeat split.
    intros j J; rewrite D by lia; apply OLD, J. }
  destruct st as [s|[|l ls]].
  - destruct (RT k s w1 L N) as [left [ST [[A1 [A2 [A3 [A4 A5]]]] E]]]; destruct (run k w1) as [w' r]; cbn [fst snd] in *.
    destruct (GO w' A2 A4) as [G1 [G2 G3]]; split; [exact G1|split; [exact G2|]].
    exists (length (lines s) - length left)%nat; split; [|split; [exists left; split; [exact ST|reflexivity]|exact E]].
    rewrite G3, A5; cbn [log w1]; rewrite <- !app_assoc; reflexivity.
  - pose proof (RB k [] w1 L N) as E; cbn [refuses] in E; rewrite E; cbn [fst snd].
    destruct (GO w1 eq_refl (fun _ _ => eq_refl)) as [G1 [G2 G3]]; split; [exact G1|split; [exact G2|]]; exists O; split; [|split; reflexivity].
    rewrite G3; cbn [log w1 repeat app]; rewrite <- app_assoc; reflexivity.
  - pose proof (RB k (l :: ls) w1 L N) as E; cbn [refuses] in E; destruct (run k w1) as [w' r]; cbn [fst snd] in *.
    destruct E as [A2 [A4 [_ [A5 E]]]]; destruct (GO w' A2 A4) as [G1 [G2 G3]]; split; [exact G1|split; [exact G2|]]; exists 1%nat; split; [|split; [reflexivity|exact E]].
    rewrite G3, A5; cbn [log w1]; rewrite <- !app_assoc; reflexivity.
Qed.

(** ** The readers *)
Lemma source_reader {A} (R : list str -> res A) bytes run disk : reader R bytes run ->
  (forall i s w, In i (live w) -> nth_error (rest w) i = Some (TextIn s) -> reads R i s w (with_source disk (@Raise A) (Buffer i) run w)) /\
  (forall i ls w, In i (live w) -> nth_error (rest w) i = Some (BytesIn ls) -> refuses R bytes i ls w (with_source disk (@Raise A) (Buffer i) run w)) /\
  (forall name w, bounded w -> reads_file R bytes disk name w (with_source disk (@Raise A) (FileLife_model.Path name) run w)).
Proof. intros [A1 A2]; split; [exact A1|split; [exact A2|]]; intros name w B; apply file_reader; [exact B|split; assumption]. Qed.

Lemma map_dict_total {K V} `{EqB K} (d : dict K V) todo : exists d', map_dict_loop (fun (s : unit) v => (s, Ok v)) tt todo d = (tt, d', Ok tt).
Proof. revert d; induction todo as [|[k v] todo IH]; intros d; cbn [map_dict_loop]; [exists d; reflexivity|apply IH]. Qed.
Lemma radk_done_ok s : exists a, radk_done s = Ok a.
Proof.
  destruct s as [[c rtk] rts]; unfold radk_done, map_dict; cbn [fetch nth].
  destruct (map_dict_total (dupdate [] (invert_mapping rtk)) (dupdate [] (invert_mapping rtk))) as [d' ->]; eexists; reflexivity.
Qed.
Lemma radk_fold dv ls : forall c rtk rts,
  radk_loop dv ls c rtk rts = do _ <- snd (fold_each (keeping (radk_line dv)) ls (c, rtk, rts)); Ok (snd (fst (fst (fold_each (keeping (radk_line dv)) ls (c, rtk, rts)))), snd (fst (fold_each (keeping (radk_line dv)) ls (c, rtk, rts)))).
Proof.
  induction ls as [|l ls IH]; intros c rtk rts; [reflexivity|]; cbn [radk_loop fold_each]; unfold keeping at 1 3 5, radk_line; cbv zeta.
  destruct (startswith (u "#") (rstrip l)); [apply IH|]. destruct (startswith (u "$") (rstrip l)).
  - destruct (mem (length (split_ws (rstrip l))) [3%nat; 4%nat]); [|reflexivity].
    destruct (split_ws (rstrip l)) as [|a [|b [|c0 r]]]; [reflexivity..|].
    destruct (py_int dv 10 c0); [apply IH|reflexivity].
  - apply IH.
Qed.
Lemma radk_reader dv : reader (parse_radkfile dv) (fun _ => TypeError)
  (fun i w => let '(w, s, o) := each_line (left_in i w) i (on_text TypeError (keeping (radk_line dv))) (None, [], []) w in (w, do _ <- o; radk_done s)).
Proof.
  apply loop_reader; [exact radk_done_ok|]; intros ls; unfold parse_radkfile; rewrite radk_fold.
  destruct (fold_each (keeping (radk_line dv)) ls (None, [], [])) as [[[c rtk] rts] [[]|e]]; reflexivity.
Qed.

Lemma pairs_fold {S} (body : S -> str -> str -> S) ls : forall s,
  for_pairs body (Pinyin_model.parse_lines ls) s = do _ <- snd (fold_each (keeping (pair_line body)) ls s); Ok (fst (fold_each (keeping (pair_line body)) ls s)).
Proof.
  induction ls as [|l ls IH]; intros s; [reflexivity|]; cbn [fold_each]; unfold keeping at 1 3, pair_line, Pinyin_model.parse_lines; cbn [filter].
  destruct (starts_hash l) eqn:H; cbn [negb map].
  - apply IH.
  - cbn [for_pairs]; destruct (split_ws (rstrip l)) as [|z [|p [|x r]]]; [reflexivity|reflexivity|apply IH|reflexivity].
Qed.
Lemma pairs_reader {S} (body : S -> str -> str -> S) s0 : reader (fun ls => for_pairs body (Pinyin_model.parse_lines ls) s0) (fun _ => TypeError)
  (fun i w => let '(w, s, o) := each_line (left_in i w) i (on_text TypeError (keeping (pair_line body))) s0 w in (w, do _ <- o; Ok s)).
Proof. apply loop_reader; [intros s; exists s; reflexivity|]; intros ls; apply pairs_fold. Qed.

Lemma table_fold ls : forall t, load_table ls t = do _ <- snd (fold_each (keeping table_line) ls t); Ok (fst (fold_each (keeping table_line) ls t)).
Proof.
  induction ls as [|l ls IH]; intros t; [reflexivity|]; cbn [load_table fold_each]; unfold keeping at 1 3, table_line.
  destruct (starts_hash l); [apply IH|]; destruct (split_ws (rstrip l)); [reflexivity|apply IH].
Qed.
Lemma table_reader : reader (fun ls => load_table ls []) (fun _ => TypeError)
  (fun i w => let '(w, s, o) := each_line (left_in i w) i (on_text TypeError (keeping table_line)) [] w in (w, do _ <- o; Ok s)).
Proof. apply loop_reader; [intros s; exists s; reflexivity|]; intros ls; apply table_fold. Qed.

Lemma dict_fold f ls : forall h b, DictFormat_model.parse_lines (parse_line f) h b ls =
  (fst (fst (fold_each (dict_line f) ls (h, b))), do _ <- snd (fold_each (dict_line f) ls (h, b)); Ok (snd (fst (fold_each (dict_line f) ls (h, b))))).
Proof.
  induction ls as [|l ls IH]; intros h b; [reflexivity|]; cbn [DictFormat_model.parse_lines fold_each]; unfold dict_line at 1 3 5.
  destruct (parse_line f l) as [p|e]; [|reflexivity]; destruct (build_entry h p) as [h1 [en|e]]; [|reflexivity]; cbv zeta.
  destruct (dget (word (entry_at h1 en)) b) as [old|]; [|apply IH].
  destruct (entry_update h1 old en) as [h2 [[]|e]]; [apply IH|reflexivity].
Qed.
Lemma coded_fold f ls : forall h w2e cd, load_lines (parse_line f) h w2e cd ls =
  (fst (fst (fst (fold_each (coded_line f) ls (h, w2e, cd)))), do _ <- snd (fold_each (coded_line f) ls (h, w2e, cd)); Ok (snd (fst (fold_each (coded_line f) ls (h, w2e, cd))))).
Proof.
  induction ls as [|l ls IH]; intros h w2e cd; [reflexivity|]; cbn [load_lines fold_each]; unfold coded_line at 1 3 5.
  destruct (parse_line f l) as [p|e]; [|reflexivity]; destruct (build_entry h p) as [h1 [en|e]]; [|reflexivity]; cbv zeta.
  destruct (dget (word (entry_at h1 en)) w2e) as [old|]; [|apply IH].
  destruct (entry_update h1 old en) as [h2 [[]|e]]; [apply IH|reflexivity].
Qed.
Lemma dict_reader h : reader (fun ls => snd (load_dictionary h ls)) (fun _ => TypeError)
  (fun i w => let '(w, s, o) := head_then i header_line (fun f => on_text TypeError (dict_line f)) (h, []) w in (w, do _ <- o; Ok (snd s))).
Proof.
  apply head_reader; [reflexivity| |reflexivity]. intros l ls; cbn [load_dictionary header_line]; destruct (detect_format l) as [f|e]; [|reflexivity].
  unfold parse_dictionary; rewrite dict_fold; reflexivity.
Qed.
Lemma coded_reader h : reader (fun ls => snd (load_coded_dictionary h ls)) (fun _ => TypeError)
  (fun i w => let '(w, s, o) := head_then i header_line (fun f => on_text TypeError (coded_line f)) (h, [], []) w in (w, do _ <- o; Ok (snd s))).
Proof.
  apply head_reader; [reflexivity| |reflexivity]. intros l ls; cbn [load_coded_dictionary header_line]; destruct (detect_format l) as [f|e]; [|reflexivity].
  rewrite coded_fold; reflexivity.
Qed.
(* the entries made are those of the lines *)
Lemma dict_heap h i s w : In i (live w) -> nth_error (rest w) i = Some (TextIn s) ->
  snd (fst (dictionary_life h i w)) = fst (load_dictionary h (lines s)).
Proof.
  intros L N; destruct s as [[|l ls] f]; unfold dictionary_life.
  - unfold head_then; rewrite (next_end i f w L N); destruct f; reflexivity.
  - destruct (head_text TypeError header_line dict_line i l ls f (h, []) w L N) as [w' [left [_ [_ M]]]]; cbn [header_line] in M; cbn [lines load_dictionary].
    destruct (detect_format l) as [fm|e].
    + destruct M as [-> _]; unfold parse_dictionary; rewrite dict_fold; destruct (fold_each (dict_line fm) ls (h, [])) as [[h1 b1] o]; reflexivity.
    + destruct M as [-> _]; reflexivity.
Qed.
Lemma coded_heap_at h i s w : In i (live w) -> nth_error (rest w) i = Some (TextIn s) ->
  fst (fst (snd (fst (head_then i header_line (fun f => on_text TypeError (coded_line f)) (h, [], []) w)))) = fst (load_coded_dictionary h (lines s)).
Proof.
  intros L N; destruct s as [[|l ls] f].
  - unfold head_then; rewrite (next_end i f w L N); destruct f; reflexivity.
  - destruct (head_text TypeError header_line coded_line i l ls f (h, [], []) w L N) as [w' [left [_ [_ M]]]]; cbn [header_line] in M; cbn [lines load_coded_dictionary].
    destruct (detect_format l) as [fm|e].
    + destruct M as [-> _]; rewrite coded_fold; reflexivity.
    + destruct M as [-> _]; reflexivity.
Qed.
Lemma dict_split h i w : (fst (fst (dictionary_life h i w)), snd (dictionary_life h i w)) =
  (let '(w, s, o) := head_then i header_line (fun f => on_text TypeError (dict_line f)) (h, []) w in (w, do _ <- o; Ok (snd s))).
Proof. unfold dictionary_life; destruct (head_then _ _ _ _ _) as [[w1 [h1 b1]] o]; reflexivity. Qed.
Lemma coded_split disk h src w : (fst (coded_life disk h src w), snd (snd (coded_life disk h src w))) =
  with_source disk (@Raise _) src (fun i w => let '(w, s, o) := head_then i header_line (fun f => on_text TypeError (coded_line f)) (h, [], []) w in (w, do _ <- o; Ok (snd s))) w.
Proof.
  unfold coded_life, with_source; destruct src as [name|i].
  - destruct (open_plain disk name w) as [w1 [i|e]]; [|reflexivity]; destruct (head_then _ _ _ _ _) as [[w2 [[h1 b1] c1]] o]; reflexivity.
  - destruct (head_then _ _ _ _ _) as [[w2 [[h1 b1] c1]] o]; reflexivity.
Qed.

Lemma place_fold dv ls : forall h path d n,
  load_loop dv h path d n ls = do _ <- snd (fold_each (keeping (place_line dv)) ls (h, (path, d, n))); Ok (fst (fst (fold_each (keeping (place_line dv)) ls (h, (path, d, n))))).
Proof.
  induction ls as [|l ls IH]; intros h path d n; [reflexivity|]; cbn [load_loop fold_each]; unfold keeping at 1 3, place_line; cbv zeta.
  destruct (from_line dv l) as [[depth p]|e]; cbn [bind]; [|reflexivity].
  match goal with |- context [bind ?x _] => destruct x as [path'|e] end; cbn [bind]; [|reflexivity].
  destruct (pop_last path') as [[parent r]|]; [apply IH|reflexivity].
Qed.
Lemma place_reader dv h : reader (from_file dv h) from_line_bytes
  (fun i w => let '(w, s, o) := head_then i (root_line dv) (fun _ => on_text TypeError (keeping (place_line dv))) (h, ([], 0, O)) w in (w, do _ <- o; Ok (fst s, length h))).
Proof.
  apply (head_reader (from_file dv h) from_line_bytes TypeError (root_line dv) (fun _ => keeping (place_line dv)) (h, ([], 0, O)) (fun s => (fst s, length h))); [reflexivity| |reflexivity].
  intros l ls; cbn [from_file root_line]; destruct (from_line dv l) as [[d p]|e]; cbn [bind]; [|reflexivity].
  destruct (negb (d =? 0)); [reflexivity|]; cbn [fst]; rewrite place_fold.
  destruct (fold_each (keeping (place_line dv)) ls (h ++ [p], ([length h], d, length h))) as [s [[]|e]]; reflexivity.
Qed.
Lemma place_file disk dv h name w : bounded w -> name <> u "-" ->
  reads_file (from_file dv h) from_line_bytes disk name w (place_life disk dv h name w).
Proof.
  intros B N; pose proof (file_reader _ _ _ disk name w B (place_reader dv h)) as P; unfold with_source, open_plain in P; unfold place_life.
  rewrite (open_other disk name w N); destruct (disk name) as [st|e]; [|exact P].
  set (w1 := mkworld (length (rest w) :: live w) (rest w ++ [st]) (log w ++ [Opened (length (rest w)) name])) in *.
  assert (LV : is_live (length (rest w)) w1 = true) by (apply is_live_In; left; reflexivity); rewrite LV.
  destruct (head_then _ _ _ _ _) as [[w2 [h1 x]] o]; exact P.
Qed.

(** ** Turns *)
Lemma turns_run i fm f : forall turns ls h w h' es, In i (live w) -> nth_error (rest w) i = Some (TextIn (mksource ls f)) -> (length turns <= length ls)%nat ->
  iter_lines (parse_line fm) h (falls is_entry turns ls) = (h', (es, Ok tt)) ->
  exists w' outs, run_entries turns i (Some fm) h w = (w', Some fm, h', outs) /\
    flat_map entry_taken outs = map (fun e => Ok (Some e)) es /\
    flat_map line_taken outs = map (fun l => Ok (Some (TextLine l))) (falls is_mine turns ls) /\
    advanced i (mksource ls f) (skipn (length turns) ls) w w'.
Proof.
  induction turns as [|t turns IH]; intros ls h w h' es L N B E.
  - cbn in E; injection E as <- <-; exists w, []; cbn [run_entries flat_map map falls length skipn]; repeat (split; [reflexivity|]); apply advanced_refl, N.
  - destruct ls as [|l ls]; [cbn in B; lia|]; cbn [length] in B; pose proof (nth_lt _ _ _ N) as LT.
    assert (SK : (length (skipn (length turns) ls) <= length ls)%nat) by (rewrite skipn_length; lia).
    destruct t; cbn [run_entries falls is_entry is_mine app skipn length] in *.
    + rewrite (next_text i l ls f w L N).
      destruct (IH ls h (gave i (TextIn (mksource ls f)) w) h' es L (put_same _ _ _ LT) ltac:(lia) E) as [w' [outs [Q [E1 [E2 A]]]]]; rewrite Q.
      exists w', (Line (Ok (Some (TextLine l))) :: outs); cbn [flat_map entry_taken line_taken app map]; rewrite E1, E2.
      repeat (split; [reflexivity|]); apply advanced_step; assumption.
    + cbn [iter_lines] in E; unfold entries_next; rewrite (next_text i l ls f w L N).
      destruct (parse_line fm l) as [p|e]; [|discriminate]; destruct (build_entry h p) as [h1 [en|e]]; [|discriminate].
      destruct (iter_lines (parse_line fm) h1 (falls is_entry turns ls)) as [h2 [es2 o2]] eqn:IT; injection E as <- <- ->.
      destruct (IH ls h1 (gave i (TextIn (mksource ls f)) w) h2 es2 L (put_same _ _ _ LT) ltac:(lia) IT) as [w' [outs [Q [E1 [E2 A]]]]]; rewrite Q.
      exists w', (Got (Ok (Some en)) :: outs); cbn [flat_map entry_taken line_taken app map]; rewrite E1, E2.
      repeat (split; [reflexivity|]); apply advanced_step; assumption.
Qed.
Lemma turns_over i turns : forall h w, exists outs,
  run_entries turns i None h w = (fst (fst (fst (run_entries (filter is_mine turns) i None h w))), None, h, outs) /\
  flat_map line_taken outs = flat_map line_taken (snd (run_entries (filter is_mine turns) i None h w)) /\
  Forall (fun o => o = Ok None) (flat_map entry_taken outs).
Proof.
  induction turns as [|t turns IH]; intros h w; [exists []; repeat split; constructor|].
  destruct t; cbn [run_entries filter is_mine].
  - destruct (next_line i w) as [w1 o]; destruct (IH h w1) as [outs [Q [E F]]]; rewrite Q.
    destruct (run_entries (filter is_mine turns) i None h w1) as [[[w2 g2] h2] outs2]; cbn [fst snd] in *.
    exists (Line o :: outs); cbn [flat_map line_taken entry_taken app]; rewrite E; split; [reflexivity|split; [reflexivity|exact F]].
  - cbn [entries_next]; destruct (IH h w) as [outs [Q [E F]]]; rewrite Q.
    exists (Got (Ok None) :: outs); split; [reflexivity|split; [exact E|]]; constructor; [reflexivity|exact F].
Qed.
Lemma entry_raises i fm h w w' g h' e : entries_next i (Some fm) h w = (w', g, h', Raise e) -> g = None.
Proof.
  unfold entries_next; destruct (next_line i w) as [w1 [[[l|l]|]|e1]]; try congruence.
  destruct (parse_line fm l) as [p|]; [|congruence]; destruct (build_entry h p) as [h1 [|]]; congruence.
Qed.

(** ** What is made of the result afterwards *)
Lemma stops_map {A B} (g : A -> B) R ls left : stops R ls left -> stops (fun ls => do a <- R ls; Ok (g a)) ls left.
Proof.
  assert (S : forall pre, sure R pre -> sure (fun ls => do a <- R ls; Ok (g a)) pre).
  { intros pre [->|[a E]]; [left; reflexivity|right; exists (g a); rewrite E; reflexivity]. }
  intros [pre [E [[L H]|[pre0 [l [e [P [H Q]]]]]]]]; exists pre; (split; [exact E|]).
  - left; split; [exact L|apply S, H].
  - right; exists pre0, l, e; split; [exact P|split; [apply S, H|]]; intros more; rewrite Q; reflexivity.
Qed.
Lemma over1_map {A B} (g : A -> B) R s : over1 (fun ls => do a <- R ls; Ok (g a)) s = do a <- over1 R s; Ok (g a).
Proof.
  unfold over1, over; destruct (lines s) as [|l ls]; destruct (failure s) as [e|]; cbn [ended bind]; try reflexivity;
    match goal with |- context [R ?x] => destruct (R x) end; reflexivity.
Qed.
Lemma reads_map {A B} (g : A -> B) R i s w w' r : reads R i s w (w', r) -> reads (fun ls => do a <- R ls; Ok (g a)) i s w (w', do a <- r; Ok (g a)).
Proof.
  intros [left [S [D E]]]; exists left; cbn [fst snd] in *; split; [apply stops_map, S|split; [exact D|]].
  rewrite over1_map, E; reflexivity.
Qed.
Lemma refuses_map {A B} (g : A -> B) R b i ls w w' r : refuses R b i ls w (w', r) -> refuses (fun ls => do a <- R ls; Ok (g a)) b i ls w (w', do a <- r; Ok (g a)).
Proof.
  destruct ls as [|l ls]; cbn [refuses fst snd].
  - intros H; injection H as -> ->; reflexivity.
  - intros [D1 [D2 [D3 [D4 ->]]]]; repeat (split; [assumption|]); reflexivity.
Qed.
Lemma file_map {A B} (g : A -> B) R b disk name w w' r : reads_file R b disk name w (w', r) -> reads_file (fun ls => do a <- R ls; Ok (g a)) b disk name w (w', do a <- r; Ok (g a)).
Proof.
  unfold reads_file; destruct (disk name) as [st|e]; cbn [fst snd]; [|intros H; injection H as -> ->; reflexivity].
  intros [H1 [H2 [m [H3 H4]]]]; split; [exact H1|split; [exact H2|]]; exists m; split; [exact H3|].
  destruct st as [s|[|l ls]].
  - destruct H4 as [[left [S M]] ->]; split; [exists left; split; [apply stops_map, S|exact M]|]; symmetry; apply over1_map.
  - destruct H4 as [M ->]; split; [exact M|reflexivity].
  - destruct H4 as [M ->]; split; [exact M|reflexivity].
Qed.
