(* CacheThreads_props.v -- C124: threads that share a cached object *)
From Verif Require Import Base CacheThreads_model CacheThreads_spec CacheThreads_proofs.
From Verif Require ClassCache_model.

(** whatever the schedule, an answer is an object that some thread's constructor made, with the contents it made it
    with, or the failure of the constructor that the thread called itself; never a missing attribute *)
Theorem C124_answers {A S} (build : nat -> S -> S * res A) how s n schedule i r :
  let w := run (recorded build) how (started (s, []) n) schedule in
  nth_error (threads w) i = Some (Done r) ->
  match r with
  | Ok x => nth_error (objects (log_of w)) (oid x) = Some (content x)
  | Raise e => In (i, Raise e) (log_of w)
  end.
Proof.
  intros w N. destruct (inv_run build how s n schedule) as (_ & _ & T). specialize (T i _ N). cbn [tgood] in T. destruct r as [x|e]; apply T.
Qed.
Print Assumptions C124_answers.
(** the constructor is called once for every finished call of the eager functions, and at most once by the lazy ones *)
Theorem C124_calls {A S} (build : nat -> S -> S * res A) how s n schedule i r :
  let w := run (recorded build) how (started (s, []) n) schedule in
  nth_error (threads w) i = Some (Done r) ->
  (calls_of i (log_of w) <= 1)%nat /\ (how <> Lazy -> calls_of i (log_of w) = 1%nat).
Proof.
  intros w N. destruct (inv_run build how s n schedule) as (_ & _ & T). specialize (T i _ N). cbn [tgood] in T.
  destruct r as [x|e]; [split; apply T|]. destruct T as [_ T]. split; [fold w in T; lia|intros _; exact T].
Qed.
Print Assumptions C124_calls.
(** constructors that agree: so do all the answers *)
Theorem C124_same_contents {A S} (build : nat -> S -> S * res A) how s n schedule i r (a : res A) : (forall i s, snd (build i s) = a) ->
  nth_error (threads (run (recorded build) how (started (s, []) n) schedule)) i = Some (Done r) -> rmap content r = a.
Proof.
  intros B N. pose proof (C124_answers build how s n schedule i r N) as H. set (w := run (recorded build) how (started (s, []) n) schedule) in *.
  assert (L : forall e, In e (log_of w) -> snd e = a).
  { unfold w. apply (run_keeps (recorded build) how (fun w => forall e, In e (log_of w) -> snd e = a)); [|intros e []].
    clear -B. intros w i t K N e. destruct (turn_cases (recorded build) how w i t N) as (w' & t' & -> & E & _). unfold log_of in *. cbn [state].
    assert (Bu : forall next, construct (recorded build) i w next = (w', t') -> In e (snd (state w')) -> snd e = a).
    { intros next F. unfold construct, recorded in F. pose proof (B i (fst (state w))) as Bi. destruct (build i (fst (state w))) as [s [x|x]]; injection F as <- <-; cbn [state snd]; intros I; apply in_app_or in I; destruct I as [I | [<- | []]]; try exact (K e I); exact Bi. }
    destruct t as [| |y|y| |r]; cbn [step] in E; try (injection E as <- <-; apply K); [|exact (Bu _ E)].
    destruct how; [exact (Bu _ E)|exact (Bu _ E)|]. injection E as <- <-. apply K. }
  destruct r as [x|e]; cbn [rmap].
  - apply nth_error_In in H. unfold objects in H. apply in_flat_map in H. destruct H as ([j o] & I & J). specialize (L _ I). cbn [snd] in *. subst o. destruct a as [a|e]; [destruct J as [<- | []]; reflexivity|destruct J].
  - exact (L _ H).
Qed.
Print Assumptions C124_same_contents.

(** when an object is there and no call is under way, all calls that begin from then on find that object; the lazy
    functions make no more, and only the eager ones can fail *)
Theorem C124_settled {A S} (build : nat -> S -> S * res A) how (w0 : world A S) x schedule i r : cached w0 = Some x ->
  (forall i t, nth_error (threads w0) i = Some t -> idle t) -> nth_error (threads w0) i = Some AtStart ->
  nth_error (threads (run build how w0 schedule)) i = Some (Done r) -> answered how x r.
Proof.
  intros C I N D. destruct (settled_run build how w0 x schedule C I) as (_ & _ & T). destruct (T i _ D) as [F | [_ F]]; [rewrite N in F; discriminate|exact F].
Qed.
Print Assumptions C124_settled.
Theorem C124_settled_state {A S} (build : nat -> S -> S * res A) how (w0 : world A S) x schedule : cached w0 = Some x ->
  (forall i t, nth_error (threads w0) i = Some t -> idle t) ->
  cached (run build how w0 schedule) = Some x /\ (how = Lazy -> state (run build how w0 schedule) = state w0).
Proof. intros C I. destruct (settled_run build how w0 x schedule C I) as (C' & L & _). split; [exact C'|]. intros H. apply L, H. Qed.
Print Assumptions C124_settled_state.
(** the lazy functions: a call that begins when there is an object makes none, whatever is under way, and succeeds *)
Theorem C124_late_calls {A S} (build : nat -> S -> S * res A) s n before after j :
  let w0 := run (recorded build) Lazy (started (s, []) n) before in
  let w := run (recorded build) Lazy w0 after in
  cached w0 <> None -> nth_error (threads w0) j = Some AtStart ->
  calls_of j (log_of w) = 0%nat /\ forall r, nth_error (threads w) j = Some (Done r) -> exists x, r = Ok x.
Proof.
  intros w0 w C N. destruct (late_call build w0 j after C N) as [L T]. fold w in L, T. split.
  - rewrite L. destruct (inv_run build Lazy s n before) as (_ & _ & G). exact (G j _ N).
  - intros r D. destruct T as [T | [T | [x T]]]; rewrite D in T; try discriminate. injection T as ->. eauto.
Qed.
Print Assumptions C124_late_calls.
(** ... and an object that a later call no longer found is not found again *)
Theorem C124_no_return {A S} (build : nat -> S -> S * res A) s n s1 s2 s3 i j k x y z :
  let w1 := run build Lazy (started s n) s1 in
  let w2 := run build Lazy w1 s2 in
  let w3 := run build Lazy w2 s3 in
  nth_error (threads w1) i = Some (Done (Ok x)) -> nth_error (threads w1) j = Some AtStart ->
  nth_error (threads w2) j = Some (Done (Ok y)) -> nth_error (threads w2) k = Some AtStart ->
  nth_error (threads w3) k = Some (Done (Ok z)) -> oid y <> oid x -> oid z <> oid x.
Proof.
  intros w1 w2 w3 Ni Nj Dj Nk Dk E. pose proof (linv_run build s1 _ (linv_started s n)) as L. fold w1 in L.
  assert (O : out (oid x) w1) by (split; [exact L|]; apply L with (1 := Ni)).
  destruct (later_answer build (oid x) w1 j s2 O Nj) as [_ G]. destruct (G y Dj) as [F | F]; [contradiction|].
  exact (gone_answer build (oid x) w2 k s3 F Nk z Dk).
Qed.
Print Assumptions C124_no_return.

(** nobody waits: four turns suffice *)
Theorem C124_no_waiting {A S} (build : nat -> S -> S * res A) how s n schedule i : (i < n)%nat -> (4 <= count_occ Nat.eq_dec schedule i)%nat ->
  exists r, nth_error (threads (run build how (started s n) schedule)) i = Some (Done r).
Proof.
  intros I C. assert (N : nth_error (threads (@started A S s n)) i = Some AtStart).
  { cbn [started threads]. rewrite (nth_error_nth' _ AtStart) by (rewrite repeat_length; exact I). rewrite nth_repeat. reflexivity. }
  destruct (run_rank build how schedule _ _ _ N) as (t & T & R). exists (match t with Done r => r | _ => Raise OutOfFuel end).
  destruct t; cbn [rank] in R; try lia. exact T.
Qed.
Print Assumptions C124_no_waiting.
(** a single call is the sequential one of C119 *)
Theorem C124_alone {A S C} {EC : EqB C} (build : nat -> S -> S * res A) how mro lazy (table : A) (c : C) s m x : mro c = [c] ->
  lazy c = match how with Lazy => true | _ => false end -> (how = Lazy -> snd (build 0%nat s) = Ok table) ->
  let w := run build how (World s m x [AtStart]) [0; 0; 0; 0]%nat in
  exists r, threads w = [Done r] /\
    ClassCache_model.get_cached mro lazy c table (ClassCache_model.World (cell c x) m) c (snd (build 0%nat s)) =
      (ClassCache_model.World (cell c (cached w)) (made w), rmap (seen c) r).
Proof. exact (alone build how mro lazy table c s m x). Qed.
Print Assumptions C124_alone.

(** two calls at the same time get different objects, in each of the functions *)
Theorem C124_one_object_refuted {A S} (build : nat -> S -> S * res A) how s : (forall i s, exists s' a, build i s = (s', Ok a)) ->
  exists schedule x y, threads (run build how (started s 2) schedule) = [Done (Ok x); Done (Ok y)] /\ oid x <> oid y.
Proof.
  intros B. destruct (B 0%nat s) as (s1 & a & E1). destruct (B 1%nat s1) as (s2 & b & E2).
  exists [0; 1; 0; 1; 0; 0; 1; 1]%nat, (Obj 0 a), (Obj 1 b).
  destruct how; unfold started; cbn [repeat];
    do 8 (rewrite run_cons; unfold turn at 1; cbn [threads nth_error step state made cached put of_option]; unfold construct; cbn [state]; rewrite ?E1, ?E2; cbn [threads nth_error state made cached put of_option]); rewrite run_nil; (split; [reflexivity|discriminate]).
Qed.
Print Assumptions C124_one_object_refuted.
(** with Kanjidic and RadkDict the object even comes and goes: of three calls, each beginning after the one before has
    ended, the first and the third get one object and the second another *)
Theorem C124_comes_back_refuted {A S} (build : nat -> S -> S * res A) how s : how <> Lazy -> (forall i s, exists s' a, build i s = (s', Ok a)) ->
  exists s1 s2 s3 x y,
    let w1 := run build how (started s 5) s1 in
    let w2 := run build how w1 s2 in
    let w3 := run build how w2 s3 in
    nth_error (threads w1) 0 = Some (Done (Ok x)) /\ nth_error (threads w1) 3 = Some AtStart /\
    nth_error (threads w2) 3 = Some (Done (Ok y)) /\ nth_error (threads w2) 4 = Some AtStart /\
    nth_error (threads w3) 4 = Some (Done (Ok x)) /\ oid x <> oid y.
Proof.
  intros H B. destruct (B 0%nat s) as (t1 & a & E1). destruct (B 1%nat t1) as (t2 & b & E2). destruct (B 2%nat t2) as (t3 & c & E3).
  destruct (B 3%nat t3) as (t4 & d & E4). destruct (B 4%nat t4) as (t5 & e & E5).
  exists [0; 1; 0; 1; 0; 0]%nat, [2; 2; 1; 1; 3; 3; 3; 3]%nat, [2; 2; 4; 4; 4; 4]%nat, (Obj 0 a), (Obj 1 b). cbv zeta.
  remember (run build how (started s 5) [0; 1; 0; 1; 0; 0]%nat) as w1 eqn:W1.
  remember (run build how w1 [2; 2; 1; 1; 3; 3; 3; 3]%nat) as w2 eqn:W2.
  remember (run build how w2 [2; 2; 4; 4; 4; 4]%nat) as w3 eqn:W3.
  unfold started in W1; cbn [repeat] in W1.
  destruct how; [| |elim H; reflexivity];
    (repeat (rewrite run_cons in W1; unfold turn at 1 in W1; cbn [threads nth_error step state made cached put of_option] in W1; unfold construct in W1; cbn [state] in W1; rewrite ?E1, ?E2 in W1; cbn [threads nth_error state made cached put of_option] in W1);
     rewrite run_nil in W1; rewrite W1 in W2;
     repeat (rewrite run_cons in W2; unfold turn at 1 in W2; cbn [threads nth_error step state made cached put of_option] in W2; unfold construct in W2; cbn [state] in W2; rewrite ?E3, ?E4 in W2; cbn [threads nth_error state made cached put of_option] in W2);
     rewrite run_nil in W2; rewrite W2 in W3;
     repeat (rewrite run_cons in W3; unfold turn at 1 in W3; cbn [threads nth_error step state made cached put of_option] in W3; unfold construct in W3; cbn [state] in W3; rewrite ?E5 in W3; cbn [threads nth_error state made cached put of_option] in W3);
     rewrite run_nil in W3; subst; repeat split; discriminate).
Qed.
Print Assumptions C124_comes_back_refuted.

(** three threads of RadkDict.get_cached, one of which finds no file *)
Example C124_case :
  let build := fun i (n : nat) => (S n, if Nat.eqb i 1 then Raise OSError else Ok n) in
  let w := run (recorded build) EagerAgain (started (7%nat, []) 3) [0; 0; 0; 1; 2; 2; 0; 2; 2]%nat in
  threads w = [Done (Ok (Obj 0 7%nat)); Done (Raise OSError); Done (Ok (Obj 0 7%nat))] /\ log_of w = [(0%nat, Ok 7%nat); (1%nat, Raise OSError); (2%nat, Ok 9%nat)].
Proof. split; vm_compute; reflexivity. Qed.
(** KanaTable: three lazy calls, the last of which begins late *)
Example C124_case_lazy :
  let build := fun i (n : nat) => (S n, Ok n) in
  let w0 := run (recorded build) Lazy (started (0%nat, []) 3) [0; 1; 0; 1; 0]%nat in
  let w := run (recorded build) Lazy w0 [2; 0; 1; 2; 1]%nat in
  cached w0 <> None /\ nth_error (threads w0) 2 = Some AtStart /\
  threads w = [Done (Ok (Obj 0 0%nat)); Done (Ok (Obj 1 1%nat)); Done (Ok (Obj 1 1%nat))].
Proof. cbv zeta. repeat split; vm_compute; try reflexivity. discriminate. Qed.
