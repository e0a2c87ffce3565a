(* CacheThreads_proofs.v *)
From Verif Require Import Base CacheThreads_model CacheThreads_spec.
From Verif Require ClassCache_model.

(** ** lists of threads *)
Section Put.
  Context {A : Type}.
  Lemma put_same i (t t0 : thread A) l : nth_error l i = Some t0 -> nth_error (put i t l) i = Some t.
  Proof. revert i; induction l as [|x l IH]; intros [|i]; cbn; try discriminate; [reflexivity|apply IH]. Qed.
  Lemma put_other i j (t : thread A) l : i <> j -> nth_error (put i t l) j = nth_error l j.
  Proof.
    revert i j; induction l as [|x l IH]; intros [|i] [|j] N; cbn; try reflexivity; [elim N; reflexivity|].
    apply IH. congruence.
  Qed.
  Lemma put_cases i j (t t0 u : thread A) l : nth_error l i = Some t0 -> nth_error (put i t l) j = Some u -> (i = j /\ u = t) \/ (i <> j /\ nth_error l j = Some u).
  Proof.
    intros N P. destruct (Nat.eq_dec i j) as [-> | D]; [left; split; [reflexivity|]|right; split; [exact D|]].
    - rewrite (put_same j t t0) in P by exact N. congruence.
    - rewrite put_other in P by exact D. exact P.
  Qed.
  Lemma put_length i (t : thread A) l : length (put i t l) = length l.
  Proof. revert i; induction l as [|x l IH]; intros [|i]; cbn; try reflexivity. rewrite IH; reflexivity. Qed.
End Put.
Lemma nth_repeat_some {A} (a : A) n i t : nth_error (repeat a n) i = Some t -> t = a.
Proof. intros N. apply nth_error_In, repeat_spec in N. exact N. Qed.

(** ** a run as a whole: what every turn keeps *)
Section Runs.
  Context {A S : Type} (build : nat -> S -> S * res A) (how : kind).
  Lemma run_keeps (P : world A S -> Prop) : (forall w i t, P w -> nth_error (threads w) i = Some t -> P (turn build how w i)) ->
    forall schedule w, P w -> P (run build how w schedule).
  Proof.
    intros K schedule. induction schedule as [|i schedule IH]; intros w H; [exact H|]. cbn [run fold_left]. apply IH.
    destruct (nth_error (threads w) i) as [t|] eqn:N; [apply (K w i t H N)|]. unfold turn. rewrite N. exact H.
  Qed.
  Lemma run_cons w i s : run build how w (i :: s) = run build how (turn build how w i) s.
  Proof. reflexivity. Qed.
  Lemma run_nil w : run build how w [] = w.
  Proof. reflexivity. Qed.
  Lemma run_app w s s' : run build how w (s ++ s') = run build how (run build how w s) s'.
  Proof. apply fold_left_app. Qed.
  (** the five kinds of turns *)
  Lemma turn_cases w i t : nth_error (threads w) i = Some t ->
    exists w' t', turn build how w i = World (state w') (made w') (cached w') (put i t' (threads w)) /\ step build how i w t = (w', t') /\ threads w' = threads w.
  Proof.
    intros N. unfold turn. rewrite N. destruct (step build how i w t) as [w' t'] eqn:E. exists w', t'.
    assert (T : threads w' = threads w).
    { destruct t; cbn in E.
      - destruct how; unfold construct in E; destruct (build i (state w)) as [s [a|e]]; injection E as <- <-; reflexivity.
      - unfold construct in E; destruct (build i (state w)) as [s [a|e]]; injection E as <- <-; reflexivity.
      - injection E as <- <-; reflexivity.
      - injection E as <- <-; reflexivity.
      - injection E as <- <-; reflexivity.
      - injection E as <- <-; reflexivity. }
    rewrite T. auto.
  Qed.
End Runs.

(** ** the answers *)
Section Answers.
  Context {A S : Type} (build : nat -> S -> S * res A) (how : kind).
  Notation log := (list (nat * res A)).
  Definition good (l : log) (x : obj A) : Prop := nth_error (objects l) (oid x) = Some (content x).
  Definition tgood (l : log) (c : option (obj A)) (i : nat) (t : thread A) : Prop :=
    match t with
    | AtStart => calls_of i l = 0%nat
    | AtBuild => how = Lazy /\ calls_of i l = 0%nat
    | AtGet x => how <> Lazy /\ good l x /\ calls_of i l = 1%nat
    | AtSet x => good l x /\ calls_of i l = 1%nat
    | AtReturn => c <> None /\ (calls_of i l <= 1)%nat /\ (how <> Lazy -> calls_of i l = 1%nat)
    | Done (Ok x) => good l x /\ (calls_of i l <= 1)%nat /\ (how <> Lazy -> calls_of i l = 1%nat)
    | Done (Raise e) => In (i, Raise e) l /\ calls_of i l = 1%nat
    end.
  Definition inv (w : world A (S * log)) : Prop :=
    made w = length (objects (log_of w)) /\ (forall x, cached w = Some x -> good (log_of w) x) /\
    forall i t, nth_error (threads w) i = Some t -> tgood (log_of w) (cached w) i t.

  Lemma good_app l l' x : good l x -> good (l ++ l') x.
  Proof. unfold good, objects. rewrite flat_map_app. intros G. rewrite nth_error_app1; [exact G|]. apply nth_error_Some. congruence. Qed.
  Lemma good_new (l : log) i a : good (l ++ [(i, Ok a)]) (Obj (length (objects l)) a).
  Proof. unfold good, objects. rewrite flat_map_app. cbn [oid content flat_map snd app]. rewrite nth_error_app2 by lia. rewrite Nat.sub_diag. reflexivity. Qed.
  Lemma calls_app i (l l' : log) : calls_of i (l ++ l') = (calls_of i l + calls_of i l')%nat.
  Proof. unfold calls_of. rewrite filter_app, app_length. reflexivity. Qed.
  Lemma calls_one i j (r : res A) : calls_of i [(j, r)] = if Nat.eqb j i then 1%nat else 0%nat.
  Proof. unfold calls_of. cbn [filter fst]. destruct (Nat.eqb j i); reflexivity. Qed.
  Lemma tgood_mono l l' c c' j t : tgood l c j t -> calls_of j l' = 0%nat -> (c <> None -> c' <> None) -> tgood (l ++ l') c' j t.
  Proof.
    intros G C N. destruct t as [| |x|x| |[x|e]]; cbn [tgood] in *; rewrite ?calls_app, C, ?Nat.add_0_r; intuition auto using good_app.
    apply in_or_app; auto.
  Qed.
  Lemma objects_ok (l : log) i (a : A) : length (objects (l ++ [(i, Ok a)])) = Datatypes.S (length (objects l)).
  Proof. unfold objects. rewrite flat_map_app, app_length. cbn. lia. Qed.
  Lemma objects_raise (l : log) i e : objects (l ++ [(i, Raise e)]) = objects l.
  Proof. unfold objects. rewrite flat_map_app. cbn. apply app_nil_r. Qed.

  Lemma inv_started s n : inv (started (s, []) n).
  Proof. split; [reflexivity|]. split; [discriminate|]. intros i t N. apply nth_repeat_some in N. subst t. reflexivity. Qed.
  (** a constructor call *)
  Lemma inv_construct w i t next : inv w -> nth_error (threads w) i = Some t -> calls_of i (log_of w) = 0%nat ->
    (forall l c x, good l x -> calls_of i l = 1%nat -> tgood l c i (next x)) ->
    forall w' t', construct (recorded build) i w next = (w', t') -> inv (World (state w') (made w') (cached w') (put i t' (threads w))).
  Proof.
    intros (M & C & T) N Z K w' t' E. unfold construct, recorded in E. destruct (build i (fst (state w))) as [s [a|e]]; injection E as <- <-.
    - unfold inv, log_of in *. cbn [made cached threads state snd fst].
      split; [rewrite objects_ok, M; reflexivity|]. split; [intros x X; apply good_app, C, X|].
      intros j t' P. destruct (put_cases _ _ _ _ _ _ N P) as [[<- ->] | [D Q]].
      + apply K; [rewrite M; apply good_new|rewrite calls_app, calls_one, Nat.eqb_refl, Z; reflexivity].
      + apply (tgood_mono _ _ (cached w)); [apply T, Q| |auto]. rewrite calls_one. destruct (Nat.eqb_spec i j); [contradiction|reflexivity].
    - unfold inv, log_of in *. cbn [made cached threads state snd fst].
      split; [rewrite objects_raise; exact M|]. split; [intros x X; apply good_app, C, X|].
      intros j t' P. destruct (put_cases _ _ _ _ _ _ N P) as [[<- ->] | [D Q]].
      + cbn [tgood]. split; [apply in_or_app; right; left; reflexivity|rewrite calls_app, calls_one, Nat.eqb_refl, Z; reflexivity].
      + apply (tgood_mono _ _ (cached w)); [apply T, Q| |auto]. rewrite calls_one. destruct (Nat.eqb_spec i j); [contradiction|reflexivity].
  Qed.
  (** any other step: the log stays *)
  Lemma inv_quiet w i t t' c : inv w -> nth_error (threads w) i = Some t ->
    (forall x, c = Some x -> good (log_of w) x) -> (cached w <> None -> c <> None) -> tgood (log_of w) c i t' ->
    inv (World (state w) (made w) c (put i t' (threads w))).
  Proof.
    intros (M & C & T) N G K H. unfold inv, log_of in *. cbn [made cached threads state].
    split; [exact M|]. split; [exact G|]. intros j u P. destruct (put_cases _ _ _ _ _ _ N P) as [[<- ->] | [D Q]]; [exact H|].
    rewrite <- (app_nil_r (snd (state w))). apply (tgood_mono _ _ (cached w)); [apply T, Q|reflexivity|exact K].
  Qed.
  Lemma inv_turn w i t : inv w -> nth_error (threads w) i = Some t -> inv (turn (recorded build) how w i).
  Proof.
    intros I N. pose proof I as I'. destruct I' as (M & C & T). pose proof (T i t N) as G.
    destruct (turn_cases (recorded build) how w i t N) as (w' & t' & -> & E & Th).
    destruct t as [| |x|x| |r]; cbn [step] in E.
    - destruct how eqn:H.
      + refine (inv_construct w i _ AtGet I N G _ w' t' E). intros l c x X Y. cbn. rewrite H. repeat split; try assumption. discriminate.
      + refine (inv_construct w i _ AtGet I N G _ w' t' E). intros l c x X Y. cbn. rewrite H. repeat split; try assumption. discriminate.
      + injection E as <- <-. apply (inv_quiet w i AtStart); auto. cbn in G. destruct (cached w) as [x|] eqn:X; cbn [tgood]; rewrite H.
        * repeat split; [discriminate|lia|congruence].
        * auto.
    - refine (inv_construct w i _ AtSet I N (proj2 G) _ w' t' E). intros l c x X Y. cbn. auto.
    - injection E as <- <-. apply (inv_quiet w i (AtGet x)); auto. cbn in *. destruct (cached w) as [y|] eqn:Y; split; try apply G. apply C; reflexivity.
    - injection E as <- <-. cbn [state made cached]. cbn in G. apply (inv_quiet w i (AtSet x)); auto.
      + intros y [= <-]. apply G.
      + discriminate.
      + destruct how eqn:H; cbn; rewrite ?H; repeat split; try apply G; try discriminate; try lia; try congruence.
    - injection E as <- <-. apply (inv_quiet w i AtReturn); auto. cbn in G. destruct (cached w) as [x|] eqn:X; [|elim (proj1 G); reflexivity].
      cbn. split; [apply C; reflexivity|apply G].
    - injection E as <- <-. apply (inv_quiet w i (Done r)); auto.
  Qed.
  Lemma inv_run s n schedule : inv (run (recorded build) how (started (s, []) n) schedule).
  Proof. apply run_keeps; [intros w i t; apply inv_turn|apply inv_started]. Qed.
End Answers.

(** ** once settled *)
Section Settled.
  Context {A S : Type} (build : nat -> S -> S * res A) (how : kind).
  Lemma settled_run (w0 : world A S) x schedule : cached w0 = Some x -> (forall i t, nth_error (threads w0) i = Some t -> idle t) ->
    let w := run build how w0 schedule in
    cached w = Some x /\ (how = Lazy -> state w = state w0 /\ made w = made w0) /\
    forall i t, nth_error (threads w) i = Some t ->
      nth_error (threads w0) i = Some t \/
      (nth_error (threads w0) i = Some AtStart /\
       match t with
       | AtGet _ => how <> Lazy
       | AtSet y => how <> Lazy /\ y = x
       | AtReturn => True
       | Done r => answered how x r
       | AtStart | AtBuild => False
       end).
  Proof.
    intros C0 I0. cbv zeta.
    apply (run_keeps build how (fun w => cached w = Some x /\ (how = Lazy -> state w = state w0 /\ made w = made w0) /\
      forall i t, nth_error (threads w) i = Some t -> nth_error (threads w0) i = Some t \/ (nth_error (threads w0) i = Some AtStart /\ match t with AtGet _ => how <> Lazy | AtSet y => how <> Lazy /\ y = x | AtReturn => True | Done r => answered how x r | AtStart | AtBuild => False end))).
    2:{ split; [exact C0|]. split; [auto|]. auto. }
    intros w i t (C & L & T) N. destruct (turn_cases build how w i t N) as (w' & t' & -> & E & Th). cbn [cached state made threads].
    pose proof (T i t N) as G.
    assert (K : cached w' = Some x /\ (how = Lazy -> state w' = state w0 /\ made w' = made w0) /\
      (nth_error (threads w0) i = Some t' \/ (nth_error (threads w0) i = Some AtStart /\ match t' with AtGet _ => how <> Lazy | AtSet y => how <> Lazy /\ y = x | AtReturn => True | Done r => answered how x r | AtStart | AtBuild => False end))).
    { destruct t as [| |y|y| |r]; cbn [step] in E.
      - assert (S0 : nth_error (threads w0) i = Some AtStart) by (destruct G as [G | [G _]]; exact G).
        destruct how eqn:H.
        + unfold construct in E. destruct (build i (state w)) as [s [a|e]]; injection E as <- <-; cbn; (split; [exact C|]); (split; [discriminate|]); right; (split; [exact S0|]); [discriminate|right; split; [discriminate|eauto]].
        + unfold construct in E. destruct (build i (state w)) as [s [a|e]]; injection E as <- <-; cbn; (split; [exact C|]); (split; [discriminate|]); right; (split; [exact S0|]); [discriminate|right; split; [discriminate|eauto]].
        + injection E as <- <-. rewrite C. split; [reflexivity|]. split; [exact L|]. right. split; [exact S0|exact I].
      - destruct G as [G | [_ []]]. destruct (I0 i _ G) as [F | [r F]]; discriminate F.
      - injection E as <- <-. rewrite C. split; [reflexivity|]. split; [exact L|]. right. destruct G as [G | [G F]]; [destruct (I0 i _ G) as [F | [r F]]; discriminate F|].
        split; [exact G|]. split; [exact F|reflexivity].
      - destruct G as [G | [G [F ->]]]; [destruct (I0 i _ G) as [F | [r F]]; discriminate F|]. injection E as <- <-. cbn [cached state made].
        split; [reflexivity|]. split; [intros H; elim F; exact H|]. right. split; [exact G|]. destruct how; [left; reflexivity|exact I|exact I].
      - injection E as <- <-. rewrite C. split; [reflexivity|]. split; [exact L|]. right. destruct G as [G | [G _]]; [destruct (I0 i _ G) as [F | [r F]]; discriminate F|].
        split; [exact G|]. left. reflexivity.
      - injection E as <- <-. split; [exact C|]. split; [exact L|]. exact G. }
    destruct K as (K1 & K2 & K3). split; [exact K1|]. split; [exact K2|].
    intros j u P. destruct (put_cases _ _ _ _ _ _ N P) as [[<- ->] | [D Q]]; [exact K3|exact (T j u Q)].
  Qed.

  (** finished threads stay finished, the attribute stays set *)
  Lemma done_stays (w : world A S) schedule i r : nth_error (threads w) i = Some (Done r) -> nth_error (threads (run build how w schedule)) i = Some (Done r).
  Proof.
    intros D. apply (run_keeps build how (fun w => nth_error (threads w) i = Some (Done r))); [|exact D]. clear w D.
    intros w j t D N. destruct (turn_cases build how w j t N) as (w' & t' & -> & E & _). cbn [threads].
    destruct (Nat.eq_dec j i) as [-> | Di]; [|rewrite put_other by exact Di; exact D].
    rewrite D in N. injection N as <-. cbn in E. injection E as <- <-. apply (put_same i _ (Done r)), D.
  Qed.

  (** how far a thread has to go *)
  Definition rank (t : thread A) : nat := match t with AtStart => 4 | AtBuild => 3 | AtGet _ => 3 | AtSet _ => 2 | AtReturn => 1 | Done _ => 0 end.
  Lemma step_rank w i t w' t' : step build how i w t = (w', t') -> (rank t' <= rank t - 1)%nat.
  Proof.
    destruct t as [| |y|y| |r]; cbn [step]; intros E.
    - destruct how; unfold construct in E; try (destruct (build i (state w)) as [s [a|e]]; injection E as <- <-; cbn; lia). injection E as <- <-. destruct (cached w); cbn; lia.
    - unfold construct in E; destruct (build i (state w)) as [s [a|e]]; injection E as <- <-; cbn; lia.
    - injection E as <- <-; cbn; lia.
    - injection E as <- <-; destruct how; cbn; lia.
    - injection E as <- <-; cbn; lia.
    - injection E as <- <-; cbn; lia.
  Qed.
  Lemma run_rank schedule : forall (w : world A S) i t, nth_error (threads w) i = Some t ->
    exists t', nth_error (threads (run build how w schedule)) i = Some t' /\ (rank t' <= rank t - count_occ Nat.eq_dec schedule i)%nat.
  Proof.
    induction schedule as [|j schedule IH]; intros w i t N; [exists t; split; [exact N|cbn; lia]|]. cbn [run fold_left].
    destruct (nth_error (threads w) j) as [u|] eqn:Nj.
    - destruct (turn_cases build how w j u Nj) as (w' & t' & E & St & _).
      assert (X : exists t1, nth_error (threads (turn build how w j)) i = Some t1 /\ (rank t1 <= rank t - (if Nat.eq_dec j i then 1 else 0))%nat).
      { rewrite E. cbn [threads]. destruct (Nat.eq_dec j i) as [-> | D].
        - exists t'. split; [apply (put_same i _ u), Nj|]. rewrite N in Nj. injection Nj as <-. apply (step_rank _ _ _ _ _ St).
        - exists t. split; [rewrite put_other by exact D; exact N|lia]. }
      destruct X as (t1 & N1 & R1). destruct (IH _ i t1 N1) as (t2 & N2 & R2). exists t2. split; [exact N2|]. cbn [count_occ]. destruct (Nat.eq_dec j i); lia.
    - assert (E : turn build how w j = w) by (unfold turn; rewrite Nj; reflexivity). rewrite E.
      destruct (IH w i t N) as (t2 & N2 & R2). exists t2. split; [exact N2|]. cbn [count_occ]. destruct (Nat.eq_dec j i) as [-> | _]; [congruence|lia].
  Qed.
End Settled.

(** ** the lazy functions *)
Section LazyOnly.
  Context {A S : Type} (build : nat -> S -> S * res A).
  (** a call that begins when there is an object makes none *)
  Lemma late_call (w0 : world A (S * list (nat * res A))) j schedule : cached w0 <> None -> nth_error (threads w0) j = Some AtStart ->
    let w := run (recorded build) Lazy w0 schedule in
    calls_of j (log_of w) = calls_of j (log_of w0) /\
    (nth_error (threads w) j = Some AtStart \/ nth_error (threads w) j = Some AtReturn \/ exists x, nth_error (threads w) j = Some (Done (Ok x))).
  Proof.
    intros C0 N0. cbv zeta.
    apply (run_keeps (recorded build) Lazy (fun w => cached w <> None /\ calls_of j (log_of w) = calls_of j (log_of w0) /\
      (nth_error (threads w) j = Some AtStart \/ nth_error (threads w) j = Some AtReturn \/ exists x, nth_error (threads w) j = Some (Done (Ok x))))); [|auto].
    intros w i t (C & L & T) N. destruct (turn_cases (recorded build) Lazy w i t N) as (w' & t' & -> & E & _). unfold log_of in *. cbn [cached state threads].
    destruct (Nat.eq_dec i j) as [-> | D].
    - rewrite (put_same j _ t) by exact N. destruct T as [T | [T | [x T]]]; rewrite T in N; injection N as <-; cbn [step] in E; injection E as <- <-; (split; [exact C|]); (split; [exact L|]);
        destruct (cached w) as [y|] eqn:Y; try (elim C; reflexivity); cbn; eauto.
    - rewrite put_other by exact D.
      assert (K : cached w' <> None /\ calls_of j (snd (state w')) = calls_of j (snd (state w))).
      { assert (B : forall next, construct (recorded build) i w next = (w', t') -> cached w' <> None /\ calls_of j (snd (state w')) = calls_of j (snd (state w))).
        { intros next F. unfold construct, recorded in F. destruct (build i (fst (state w))) as [s [a|e]]; injection F as <- <-; cbn [cached state snd]; (split; [exact C|]);
            rewrite calls_app, calls_one; destruct (Nat.eqb_spec i j); try contradiction; lia. }
        destruct t as [| |y|y| |r]; cbn [step] in E; try (injection E as <- <-; cbn [cached state]; split; [first [exact C | discriminate]|reflexivity]).
        exact (B _ E). }
      destruct K as [K1 K2]. rewrite K2. auto.
  Qed.

  (** objects waiting to be assigned *)
  Definition pending (w : world A S) (n : nat) : Prop := exists i x, nth_error (threads w) i = Some (AtSet x) /\ oid x = n.
  Definition linv (w : world A S) : Prop :=
    (forall n, pending w n -> (n < made w)%nat) /\
    (forall i j x y, nth_error (threads w) i = Some (AtSet x) -> nth_error (threads w) j = Some (AtSet y) -> oid x = oid y -> i = j) /\
    (forall x, cached w = Some x -> (oid x < made w)%nat /\ ~ pending w (oid x)) /\
    (forall i x, nth_error (threads w) i = Some (Done (Ok x)) -> (oid x < made w)%nat /\ ~ pending w (oid x)) /\
    forall i x, nth_error (threads w) i <> Some (AtGet x).
  (** what a turn can do *)
  Inductive effect (w : world A S) (i : nat) : world A S -> Prop :=
  | E_made a s t : nth_error (threads w) i = Some t -> (forall x, t <> AtSet x) ->
      effect w i (World s (1 + made w) (cached w) (put i (AtSet (Obj (made w) a)) (threads w)))
  | E_set x t : nth_error (threads w) i = Some (AtSet x) -> t = AtReturn -> effect w i (World (state w) (made w) (Some x) (put i t (threads w)))
  | E_move s t t' : nth_error (threads w) i = Some t -> (forall x, t <> AtSet x) -> (forall x, t' <> AtSet x) -> (forall x, t' <> AtGet x) ->
      (forall x, t' = Done (Ok x) -> t = t' \/ cached w = Some x) ->
      effect w i (World s (made w) (cached w) (put i t' (threads w))).
  Lemma turn_effect w i t : linv w -> nth_error (threads w) i = Some t -> effect w i (turn build Lazy w i).
  Proof.
    intros (_ & _ & _ & _ & NG) N. destruct (turn_cases build Lazy w i t N) as (w' & t' & -> & E & _).
    destruct t as [| |y|y| |r]; cbn [step] in E.
    - injection E as <- <-. apply (E_move w i _ AtStart); [exact N|discriminate| | |]; intros x; destruct (cached w); discriminate.
    - unfold construct in E; destruct (build i (state w)) as [s [a|e]]; injection E as <- <-; cbn [state made cached].
      + apply (E_made w i a s AtBuild); [exact N|discriminate].
      + apply (E_move w i s AtBuild); [exact N|discriminate|discriminate|discriminate|discriminate].
    - elim (NG i y N).
    - injection E as <- <-. cbn [state made cached]. apply E_set; [exact N|reflexivity].
    - injection E as <- <-. apply (E_move w i _ AtReturn); [exact N|discriminate| | |]; intros x; destruct (cached w); try discriminate. cbn. intros [= <-]. auto.
    - injection E as <- <-. apply (E_move w i _ (Done r)); [exact N|discriminate|discriminate|discriminate|auto].
  Qed.
  Lemma pending_put (w : world A S) i t0 t s m c n : nth_error (threads w) i = Some t0 -> pending (World s m c (put i t (threads w))) n -> (exists x, t = AtSet x /\ oid x = n) \/ (exists j x, j <> i /\ nth_error (threads w) j = Some (AtSet x) /\ oid x = n).
  Proof.
    intros N (j & x & P & O). cbn [threads] in P. destruct (put_cases _ _ _ _ _ _ N P) as [[<- <-] | [D Q]]; [left; eauto|right; exists j, x; auto].
  Qed.
  Lemma linv_turn w i t : linv w -> nth_error (threads w) i = Some t -> linv (turn build Lazy w i).
  Proof.
    intros L N0. pose proof (turn_effect w i t L N0) as F. destruct L as (P & U & C & D & NG).
    destruct F as [a s t0 N NS | x t0 N -> | s t0 t' N NS NS' NG' DN]; unfold linv; cbn [made cached threads].
    - repeat split.
      + intros n Q. destruct (pending_put _ _ _ _ _ _ _ _ N Q) as [(x & [= <-] & <-) | (j & x & Dj & Q' & <-)]; [cbn; lia|]. assert (oid x < made w)%nat by (apply P; exists j, x; auto). lia.
      + intros j k x y Pj Pk O. destruct (put_cases _ _ _ _ _ _ N Pj) as [[<- X] | [Dj Qj]], (put_cases _ _ _ _ _ _ N Pk) as [[<- Y] | [Dk Qk]]; try reflexivity.
        * injection X as ->. assert (oid y < made w)%nat by (apply P; exists k, y; auto). cbn in O. lia.
        * injection Y as ->. assert (oid x < made w)%nat by (apply P; exists j, x; auto). cbn in O. lia.
        * apply (U j k x y Qj Qk O).
      + apply C in H. lia.
      + intros Q. destruct (C _ H) as [C1 C2]. destruct (pending_put _ _ _ _ _ _ _ _ N Q) as [(y & [= <-] & O) | (j & y & Dj & Q' & O)]; [cbn in O; lia|]. apply C2. exists j, y; auto.
      + destruct (put_cases _ _ _ _ _ _ N H) as [[<- X] | [Dj Qj]]; [discriminate X|]. apply D in Qj. lia.
      + destruct (put_cases _ _ _ _ _ _ N H) as [[<- X] | [Dj Qj]]; [discriminate X|]. destruct (D _ _ Qj) as [D1 D2].
        intros Q. destruct (pending_put _ _ _ _ _ _ _ _ N Q) as [(y & [= <-] & O) | (j & y & Dj' & Q' & O)]; [cbn in O; lia|]. apply D2. exists j, y; auto.
      + intros j x G. destruct (put_cases _ _ _ _ _ _ N G) as [[<- X] | [Dj Qj]]; [discriminate X|]. apply (NG j x Qj).
    - assert (Old : forall n, pending (World (state w) (made w) (Some x) (put i AtReturn (threads w))) n -> pending w n /\ n <> oid x).
      { intros n Q. destruct (pending_put _ _ _ _ _ _ _ _ N Q) as [(y & X & O) | (j & y & Dj & Q' & O)]; [discriminate X|]. split; [exists j, y; auto|].
        intros ->. apply Dj. apply (U j i y x Q' N O). }
      repeat split.
      + intros n Q. apply P, Old, Q.
      + intros j k y z Pj Pk O. destruct (put_cases _ _ _ _ _ _ N Pj) as [[<- X] | [Dj Qj]], (put_cases _ _ _ _ _ _ N Pk) as [[<- Y] | [Dk Qk]]; try reflexivity; try discriminate. apply (U j k y z Qj Qk O).
      + injection H as <-. apply P. exists i, x; auto.
      + injection H as <-. intros Q. apply Old in Q. destruct Q as [_ Q]. apply Q; reflexivity.
      + destruct (put_cases _ _ _ _ _ _ N H) as [[<- X] | [Dj Qj]]; [discriminate X|]. apply D in Qj. apply Qj.
      + destruct (put_cases _ _ _ _ _ _ N H) as [[<- X] | [Dj Qj]]; [discriminate X|]. intros Q. apply Old in Q. apply (D _ _ Qj), Q.
      + intros j y G. destruct (put_cases _ _ _ _ _ _ N G) as [[<- X] | [Dj Qj]]; [discriminate X|]. apply (NG j y Qj).
    - assert (Old : forall n, pending (World s (made w) (cached w) (put i t' (threads w))) n -> pending w n).
      { intros n Q. destruct (pending_put _ _ _ _ _ _ _ _ N Q) as [(y & X & O) | (j & y & Dj & Q' & O)]; [elim (NS' y X)|]. exists j, y; auto. }
      repeat split.
      + intros n Q. apply P, Old, Q.
      + intros j k y z Pj Pk O. destruct (put_cases _ _ _ _ _ _ N Pj) as [[<- X] | [Dj Qj]]; [symmetry in X; elim (NS' y X)|]. destruct (put_cases _ _ _ _ _ _ N Pk) as [[<- Y] | [Dk Qk]]; [symmetry in Y; elim (NS' z Y)|]. apply (U j k y z Qj Qk O).
      + apply C in H. apply H.
      + intros Q. apply (C _ H), Old, Q.
      + destruct (put_cases _ _ _ _ _ _ N H) as [[<- X] | [Dj Qj]]; [symmetry in X; destruct (DN _ X) as [-> | Y]; [rewrite X in N; apply (D _ _ N)|apply (C _ Y)]|apply (D _ _ Qj)].
      + intros Q. apply Old in Q. destruct (put_cases _ _ _ _ _ _ N H) as [[<- X] | [Dj Qj]]; [symmetry in X; destruct (DN _ X) as [-> | Y]; [rewrite X in N; apply (D _ _ N), Q|apply (C _ Y), Q]|apply (D _ _ Qj), Q].
      + intros j y G. destruct (put_cases _ _ _ _ _ _ N G) as [[<- X] | [Dj Qj]]; [symmetry in X; elim (NG' y X)|]. apply (NG j y Qj).
  Qed.
  Lemma linv_run schedule : forall w, linv w -> linv (run build Lazy w schedule).
  Proof. apply (run_keeps build Lazy linv). intros w i t. apply linv_turn. Qed.
  Lemma linv_started s n : linv (started s n).
  Proof.
    unfold linv. cbn [made cached threads]. assert (X : forall i t, nth_error (repeat (@AtStart A) n) i = Some t -> t = AtStart) by (intros i t; apply nth_repeat_some).
    repeat split; try discriminate.
    - intros k (i & x & P & _). apply X in P. discriminate.
    - intros i j x y P. apply X in P. discriminate.
    - intros. apply X in H. discriminate.
    - intros. apply X in H. discriminate.
    - intros i x P. apply X in P. discriminate.
  Qed.

  (** an object that has been assigned is not assigned again *)
  Definition out (n : nat) (w : world A S) : Prop := linv w /\ (n < made w)%nat /\ ~ pending w n.
  Definition gone (n : nat) (w : world A S) : Prop := out n w /\ forall x, cached w = Some x -> oid x <> n.
  Lemma out_turn n w i t : out n w -> nth_error (threads w) i = Some t -> out n (turn build Lazy w i).
  Proof.
    intros (L & M & P) N0. split; [apply (linv_turn w i t L N0)|]. destruct (turn_effect w i t L N0) as [a s t0 N NS | x t0 N -> | s t0 t' N NS NS' NG' DN]; cbn [made].
    - split; [lia|]. intros Q. destruct (pending_put _ _ _ _ _ _ _ _ N Q) as [(x & [= <-] & O) | (j & x & Dj & Q' & O)]; [cbn in O; lia|]. apply P. exists j, x; auto.
    - split; [exact M|]. intros Q. destruct (pending_put _ _ _ _ _ _ _ _ N Q) as [(y & X & O) | (j & y & Dj & Q' & O)]; [discriminate|]. apply P. exists j, y; auto.
    - split; [exact M|]. intros Q. destruct (pending_put _ _ _ _ _ _ _ _ N Q) as [(y & X & O) | (j & y & Dj & Q' & O)]; [elim (NS' y X)|]. apply P. exists j, y; auto.
  Qed.
  Lemma gone_turn n w i t : gone n w -> nth_error (threads w) i = Some t -> gone n (turn build Lazy w i).
  Proof.
    intros (O & C) N0. split; [apply (out_turn n w i t O N0)|]. destruct O as (L & M & P).
    destruct (turn_effect w i t L N0) as [a s t0 N NS | x t0 N -> | s t0 t' N NS NS' NG' DN]; cbn [cached]; [exact C| |exact C].
    intros y [= <-] E. apply P. exists i, x; auto.
  Qed.
  (** a call that begins afterwards *)
  Lemma later_answer n w0 j schedule : out n w0 -> nth_error (threads w0) j = Some AtStart ->
    let w := run build Lazy w0 schedule in
    out n w /\ forall x, nth_error (threads w) j = Some (Done (Ok x)) -> oid x = n \/ gone n w.
  Proof.
    intros O0 N0. cbv zeta. apply (run_keeps build Lazy (fun w => out n w /\ forall x, nth_error (threads w) j = Some (Done (Ok x)) -> oid x = n \/ gone n w)).
    2:{ split; [exact O0|]. intros x X. rewrite N0 in X. discriminate. }
    intros w i t (O & K) N. split; [apply (out_turn n w i t O N)|]. intros x X.
    destruct (nth_error (threads w) j) as [u|] eqn:Nj.
    - assert (Du : u = Done (Ok x) \/ (i = j /\ u <> Done (Ok x))).
      { destruct (turn_cases build Lazy w i t N) as (w' & t' & E & St & _). rewrite E in X. cbn [threads] in X. destruct (put_cases _ _ _ _ _ _ N X) as [[<- Y] | [Di Y]]; [|left; congruence].
        rewrite Nj in N. injection N as <-. destruct u as [| | | | |[y|e]]; try (right; split; [reflexivity|discriminate]). cbn in St. injection St as <- <-. left. congruence. }
      destruct Du as [-> | [<- Du]].
      + destruct (K x eq_refl) as [-> | G]; [left; reflexivity|right; apply (gone_turn n w i t G N)].
      + destruct O as (L & M & P). pose proof (turn_effect w i t L N) as F. assert (Go : forall c, (forall y, c = Some y -> oid y <> n) -> cached (turn build Lazy w i) = c -> gone n (turn build Lazy w i)).
        { intros c H E. split; [apply (out_turn n w i t (conj L (conj M P)) N)|]. rewrite E. exact H. }
        destruct F as [a s t0 N1 NS | y t0 N1 -> | s t0 t' N1 NS NS' NG' DN]; cbn [threads] in X; rewrite (put_same i _ t) in X by exact N; try discriminate X.
        injection X as ->. destruct (DN x eq_refl) as [E | C]; [rewrite E in N1; congruence|].
        destruct (Nat.eq_dec (oid x) n) as [E | E]; [left; exact E|right]. apply (Go (Some x)); [intros y [= <-]; exact E|exact C].
    - destruct (turn_cases build Lazy w i t N) as (w' & t' & E & _). rewrite E in X. cbn [threads] in X. destruct (put_cases _ _ _ _ _ _ N X) as [[<- Y] | [Di Y]]; congruence.
  Qed.
  Lemma gone_answer n w0 j schedule : gone n w0 -> nth_error (threads w0) j = Some AtStart ->
    forall x, nth_error (threads (run build Lazy w0 schedule)) j = Some (Done (Ok x)) -> oid x <> n.
  Proof.
    intros G0 N0.
    apply (run_keeps build Lazy (fun w => gone n w /\ forall x, nth_error (threads w) j = Some (Done (Ok x)) -> oid x <> n)).
    2:{ split; [exact G0|]. intros x X. rewrite N0 in X. discriminate. }
    intros w i t (G & K) N. split; [apply (gone_turn n w i t G N)|]. intros x X.
    destruct G as (O & C). pose proof (turn_effect w i t (proj1 O) N) as F.
    destruct F as [a s t0 N1 NS | y t0 N1 -> | s t0 t' N1 NS NS' NG' DN]; cbn [threads] in X; destruct (put_cases _ _ _ _ _ _ N X) as [[<- Y] | [Di Y]]; try discriminate Y; try exact (K x Y).
    symmetry in Y. destruct (DN x Y) as [-> | Cx]; [apply K; rewrite N1; congruence|apply C, Cx].
  Qed.
End LazyOnly.

(** ** alone *)
Section Alone.
  Context {A S C : Type} {EC : EqB C} (build : nat -> S -> S * res A) (how : kind).
  Definition seen (c : C) (x : obj A) : ClassCache_model.inst C A := ClassCache_model.Inst (oid x) c (content x).
  Definition cell (c : C) (x : option (obj A)) : dict C (ClassCache_model.inst C A) := match x with Some x => [(c, seen c x)] | None => [] end.
  Lemma alone mro lazy (table : A) c s m x : mro c = [c] -> lazy c = match how with Lazy => true | _ => false end ->
    (how = Lazy -> snd (build 0%nat s) = Ok table) ->
    let w := run build how (World s m x [AtStart]) [0; 0; 0; 0]%nat in
    exists r, threads w = [Done r] /\
      ClassCache_model.get_cached mro lazy c table (ClassCache_model.World (cell c x) m) c (snd (build 0%nat s)) =
        (ClassCache_model.World (cell c (cached w)) (made w), rmap (seen c) r).
  Proof.
    intros M L B. cbv zeta. unfold ClassCache_model.get_cached. rewrite L.
    unfold ClassCache_model.eager_cached, ClassCache_model.lazy_cached, ClassCache_model.construct, ClassCache_model.get_attr, ClassCache_model.set_attr. rewrite M.
    remember (run build how (World s m x [AtStart]) [0; 0; 0; 0]%nat) as w eqn:W.
    destruct (build 0%nat s) as [s' o] eqn:E.
    destruct how; [| |specialize (B eq_refl); cbn [snd] in B; subst o]; destruct x as [x|]; try destruct o as [a|e];
      do 4 (rewrite run_cons in W; unfold turn at 1 in W; cbn [threads nth_error step state made cached put of_option] in W; unfold construct in W; cbn [state] in W; rewrite ?E in W; cbn [threads nth_error state made cached put of_option] in W);
      rewrite run_nil in W; subst w; cbn [threads]; eexists; (split; [reflexivity|]);
      repeat (progress (cbn [made cached cell ClassCache_model.attrs ClassCache_model.made ClassCache_model.look dget dset snd of_option]; rewrite ?eqb_refl)); reflexivity.
  Qed.
End Alone.
