(* Procs_proofs.v -- invariants of concurrent callers *)
From Verif Require Import Base PyStr Common_model SmartCache_model SmartCache_spec SmartCache_proofs Procs_model Procs_spec.

Lemma nth_update {O} i (q : proc O) : forall l j x, nth_error (update i q l) j = Some x ->
  (j = i /\ x = q) \/ (j <> i /\ nth_error l j = Some x).
Proof.
  induction i as [|i IH]; intros [|y l] [|j] x E; cbn in E; try discriminate.
  - injection E as <-; left; split; reflexivity.
  - right; split; [discriminate|exact E].
  - injection E as <-; right; split; [discriminate|reflexivity].
  - destruct (IH l j x E) as [[-> ->]|[N H]]; [left; split; reflexivity|right; split; [congruence|exact H]].
Qed.
Lemma nth_update_same {O} i (q : proc O) : forall l, (i < length l)%nat -> nth_error (update i q l) i = Some q.
Proof. induction i as [|i IH]; intros [|y l] L; cbn in *; try lia; [reflexivity|apply IH; lia]. Qed.
Lemma length_update {O} i (q : proc O) : forall l, length (update i q l) = length l.
Proof. induction i as [|i IH]; intros [|y l]; cbn; congruence. Qed.

Lemma overlay_0 b c : overlay 0 b c = b ++ skipn (length b) c.
Proof. destruct b; reflexivity. Qed.
Lemma overlay_end b c : overlay (length c) b c = c ++ b.
Proof.
  destruct b as [|x b]; [symmetry; apply app_nil_r|]; unfold overlay.
  rewrite Nat.sub_diag; cbn [repeat]; rewrite app_nil_r, firstn_all, skipn_all2 by lia; rewrite app_nil_r; reflexivity.
Qed.
Lemma length_overlay off b c : b <> [] -> length (overlay off b c) = Nat.max (length c) (off + length b).
Proof.
  destruct b as [|x b]; [contradiction|]; intros _; unfold overlay.
  rewrite !app_length, firstn_length, app_length, repeat_length, skipn_length; lia.
Qed.

Definition pargs {O} (q : proc O) : O * O :=
  match q with Start a p | Reading a p _ _ | Computing a p | Writing a p _ _ _ _ | Done a p _ => (a, p) end.

Section Procs.
  Variable set_order : list (option path) -> list (option path).
  Context {O : Type}.
  Variable oeq : O -> O -> bool.
  Variable none : O.
  Variable is_none : O -> bool.
  Variable dump : O -> list Z * option exn.
  Variable load : list Z -> option (O * list Z).
  Variable readable writable : path -> bool.
  Variable bufsize : nat.
  Variable cut : list Z -> list (list Z).
  Variable method : O -> O -> res O.
  Variable cache_file : path.
  Variable deps : list dependency.
  Hypothesis pok : pickle_ok oeq none is_none dump load (fun _ b => b) (fun _ b => b).
  Hypothesis bok : buffered bufsize cut.
  Hypothesis mok : respects oeq method.

  Notation pstep := (pstep set_order oeq none is_none dump load readable writable bufsize cut method cache_file deps).
  Notation cstep := (cstep set_order oeq none is_none dump load readable writable bufsize cut method cache_file deps).
  Notation crun := (crun set_order oeq none is_none dump load readable writable bufsize cut method cache_file deps).
  Notation bytes_of := (bytes_of cache_file).
  Notation parse := (parse_cache oeq none load).
  Notation load3 := (load3 oeq none load).
  Notation dump3 := (dump3 dump).

  Lemma parse_load3 seen a p : parse seen a p = match load3 seen a p with Some v => v | None => none end.
  Proof.
    unfold parse_cache, SmartCache_proofs.load3; destruct (load seen) as [[sa r1]|]; [|reflexivity].
    destruct (load r1) as [[sp r2]|]; [|reflexivity]; destruct (oeq sa a && oeq sp p); [|reflexivity].
    destruct (load r2) as [[o r3]|]; reflexivity.
  Qed.

  Lemma load3_rest a p v b : dump3 a p v = (b, None) -> forall r a' p',
    exists v', oeq v' v = true /\ load3 (b ++ r) a' p' = Some (if oeq a a' && oeq p p' then v' else none).
  Proof.
    intros D r a' p'; unfold SmartCache_model.dump3 in D.
    destruct (dump a) as [b1 [ea|]] eqn:Da; [discriminate|].
    destruct (dump p) as [b2 [ep|]] eqn:Dp; [discriminate|].
    destruct (dump v) as [b3 ev] eqn:Dv; injection D as <- ->.
    destruct (ok_load _ _ _ _ _ _ _ pok a b1 Da (b2 ++ b3 ++ r)) as [sa [La Ea]].
    destruct (ok_load _ _ _ _ _ _ _ pok p b2 Dp (b3 ++ r)) as [sp [Lp Ep]].
    destruct (ok_load _ _ _ _ _ _ _ pok v b3 Dv r) as [v' [Lv Ev]].
    exists v'; split; [exact Ev|]; unfold SmartCache_proofs.load3; rewrite <- !app_assoc, La, Lp, Lv.
    rewrite (equiv_l _ _ _ a' (ok_eq _ _ _ _ _ _ _ pok) Ea), (equiv_l _ _ _ p' (ok_eq _ _ _ _ _ _ _ pok) Ep).
    destruct (oeq a a' && oeq p p'); reflexivity.
  Qed.

  Definition right (a p : O) (r : res O) : Prop := forall v, r = Ok v -> exists v', method a p = Ok v' /\ oeq v v' = true.

  Lemma right_of a p v a' p' w : method a p = Ok v -> oeq w v = true -> oeq a a' = true -> oeq p p' = true ->
    right a' p' (Ok w).
  Proof.
    intros M W A P v0 E; injection E as <-; pose proof (mok a a' p p' A P) as R; rewrite M in R.
    inversion R as [x y XY Ex Ey|]; subst; exists y; split; [reflexivity|].
    exact (e_trans _ (ok_eq _ _ _ _ _ _ _ pok) _ _ _ W XY).
  Qed.
  Lemma right_self a p v : method a p = Ok v -> right a p (Ok v).
  Proof. intros M v0 E; injection E as <-; exists v; split; [exact M|apply (e_refl _ (ok_eq _ _ _ _ _ _ _ pok))]. Qed.

  Lemma parse_nil a p : is_none (parse [] a p) = true.
  Proof.
    unfold parse_cache; destruct (dump none) as [b [e|]] eqn:D.
    - rewrite (ok_failed _ _ _ _ _ _ _ pok none b e D [] b eq_refl); apply (ok_none _ _ _ _ _ _ _ pok).
    - destruct b as [|x b].
      + destruct (ok_load _ _ _ _ _ _ _ pok none [] D []) as [v' [L E]]; cbn [app] in L; rewrite !L.
        destruct (oeq v' a && oeq v' p); [rewrite (ok_is_none _ _ _ _ _ _ _ pok v' none E)|]; apply (ok_none _ _ _ _ _ _ _ pok).
      + rewrite (ok_prefix _ _ _ _ _ _ _ pok none _ D [] x b eq_refl); apply (ok_none _ _ _ _ _ _ _ pok).
  Qed.

  Lemma pargs_step st now q : pargs (snd (pstep st now q)) = pargs q.
  Proof.
    destruct q as [a p|a p off seen|a p|a p v off [|b pend] e|a p r]; cbn [Procs_model.pstep]; try reflexivity.
    - destruct (needs_update set_order st cache_file deps) as [[|]|e]; cbn [snd]; try reflexivity.
      destruct (sopen_std cache_file (u "rb")); [reflexivity|]; destruct (readable cache_file); reflexivity.
    - destruct (firstn bufsize (skipn off (bytes_of st))); cbn [snd]; [|reflexivity].
      destruct (is_none (parse seen a p)); reflexivity.
    - destruct (method a p) as [v|e]; [|reflexivity]; destruct (sopen_std cache_file (u "wb")); [reflexivity|].
      destruct (writable cache_file); [|reflexivity]; destruct (dump3 a p v); reflexivity.
  Qed.

  Lemma bytes_dset st c t : bytes_of (dset cache_file {| content := c; mtime := t |} st) = c.
  Proof. unfold Procs_model.bytes_of; rewrite dget_dset_same; reflexivity. Qed.

  (* a generic invariant: what holds of the file's bytes and of each process *)
  Section Invariant.
    Variable calls : list (O * O).
    Variable file_ok : list Z -> Prop.
    Variable proc_ok : proc O -> Prop.
    Hypothesis start_ok : forall a p, proc_ok (Start a p).
    Hypothesis step_ok : forall st now q, In (pargs q) calls -> file_ok (bytes_of st) -> proc_ok q ->
      file_ok (bytes_of (fst (pstep st now q))) /\ proc_ok (snd (pstep st now q)).
    Definition cinv (s : fs * list (proc O)) : Prop :=
      file_ok (bytes_of (fst s)) /\ forall i q, nth_error (snd s) i = Some q -> nth_error calls i = Some (pargs q) /\ proc_ok q.

    Lemma cstep_inv s e : cinv s -> cinv (cstep s e).
    Proof.
      intros [F P]; unfold Procs_model.cstep; destruct s as [st ps]; cbn [fst snd] in *.
      destruct (nth_error ps (fst e)) as [q|] eqn:E; [|split; assumption].
      destruct (P _ _ E) as [C Q].
      destruct (step_ok st (snd e) q (nth_error_In _ _ C) F Q) as [F' Q']; pose proof (pargs_step st (snd e) q) as A.
      destruct (pstep st (snd e) q) as [st' q']; cbn [fst snd] in *; split; [exact F'|].
      cbn [snd]; intros i x X; destruct (nth_update _ _ _ _ _ X) as [[-> ->]|[N H]]; [|apply P, H].
      rewrite A; split; assumption.
    Qed.
    Lemma crun_inv schedule : forall s, cinv s -> cinv (crun s schedule).
    Proof.
      unfold Procs_model.crun; induction schedule as [|e r IH]; intros s I; cbn [fold_left]; [exact I|].
      apply IH, cstep_inv, I.
    Qed.
    Lemma starting_inv st : file_ok (bytes_of st) -> cinv (st, starting calls).
    Proof.
      intros F; split; [exact F|]; cbn [snd]; unfold starting; intros i q E.
      rewrite nth_error_map in E; destruct (nth_error calls i) as [[a p]|]; [|discriminate].
      injection E as <-; split; [reflexivity|apply start_ok].
    Qed.
  End Invariant.

  (* ---------------- small caches ---------------- *)
  Section Small.
    Variable calls : list (O * O).
    Hypothesis small : forall a p v, In (a, p) calls -> method a p = Ok v ->
      exists D, dump3 a p v = (D, None) /\ (length D <= bufsize)%nat.
    Notation rb := (right_bytes dump method calls).

    Definition good (c : list Z) : Prop := c = [] \/ exists D r, rb D /\ c = D ++ r.
    Definition small_file (c : list Z) : Prop := (length c <= bufsize)%nat /\ good c.
    Definition small_proc (q : proc O) : Prop :=
      match q with
      | Reading _ _ off seen => (off = 0%nat /\ seen = []) \/ exists D r, rb D /\ seen = D ++ r
      | Writing a p v off pend e => e = None /\ method a p = Ok v /\
          (pend = [] \/ off = 0%nat /\ exists D, rb D /\ pend = [D] /\ (length D <= bufsize)%nat)
      | Done a p r => right a p r
      | _ => True
      end.

    Lemma parse_right seen a p : good seen -> is_none (parse seen a p) = false -> right a p (Ok (parse seen a p)).
    Proof.
      intros [->|[D [r [[a0 [p0 [v0 [I [M E]]]]] ->]]]] N; [rewrite parse_nil in N; discriminate|].
      rewrite parse_load3 in *; destruct (load3_rest _ _ _ _ E r a p) as [v' [Ev L]]; rewrite L in *.
      destruct (oeq a0 a) eqn:A; cbn [andb] in *; [|rewrite (ok_none _ _ _ _ _ _ _ pok) in N; discriminate].
      destruct (oeq p0 p) eqn:P; [|rewrite (ok_none _ _ _ _ _ _ _ pok) in N; discriminate].
      exact (right_of _ _ _ _ _ _ M Ev A P).
    Qed.

    Lemma small_step st now q : In (pargs q) calls -> small_file (bytes_of st) -> small_proc q ->
      small_file (bytes_of (fst (pstep st now q))) /\ small_proc (snd (pstep st now q)).
    Proof.
      intros C F Q; destruct q as [a p|a p off seen|a p|a p v off [|b pend] e|a p r]; cbn [Procs_model.pstep].
      - cbn [fst snd]; split; [exact F|].
        destruct (needs_update set_order st cache_file deps) as [[|]|e]; cbn [small_proc]; [exact I| |intros v E; discriminate].
        destruct (sopen_std cache_file (u "rb")); [exact I|]; destruct (readable cache_file); [|exact I].
        left; split; reflexivity.
      - destruct (firstn bufsize (skipn off (bytes_of st))) as [|x chunk] eqn:E; cbn [fst snd]; (split; [exact F|]).
        + destruct (is_none (parse seen a p)) eqn:N; [exact I|]; cbn [small_proc]; apply parse_right; [|exact N].
          destruct Q as [[_ ->]|H]; [left; reflexivity|right; exact H].
        + cbn [small_proc]; right; destruct Q as [[-> ->]|[D [r [R ->]]]].
          * destruct F as [L G]; cbn [skipn] in E; rewrite firstn_all2 in E by exact L.
            destruct G as [G|G]; [rewrite G in E; discriminate|]; rewrite E in G; exact G.
          * exists D, (r ++ x :: chunk); split; [exact R|rewrite app_assoc; reflexivity].
      - cbn [pargs] in C; destruct (method a p) as [v|e] eqn:M; [|split; [exact F|intros v E; discriminate]].
        destruct (sopen_std cache_file (u "wb")); [split; [exact F|intros x E; discriminate]|].
        destruct (writable cache_file); [|split; [exact F|intros x E; discriminate]].
        destruct (small a p v C M) as [D [E L]]; rewrite E; cbn [fst snd]; rewrite bytes_dset; split.
        + split; [cbn [length]; lia|left; reflexivity].
        + cbn [small_proc]; split; [reflexivity|split; [exact M|]].
          destruct D as [|x D]; [left|right; split; [reflexivity|]].
          * pose proof (b_concat _ _ bok []) as X; destruct (cut []) as [|c l] eqn:Ec; [reflexivity|].
            destruct (b_nonempty _ _ bok [] c); [rewrite Ec; left; reflexivity|].
            cbn [concat] in X; apply app_eq_nil in X; apply X.
          * exists (x :: D); split; [exists a, p, v; split; [exact C|split; [exact M|exact E]]|].
            split; [apply (b_small _ _ bok); [discriminate|exact L]|exact L].
      - destruct Q as [-> [M _]]; split; [exact F|]; cbn [snd small_proc]; apply right_self, M.
      - destruct Q as [-> [M [H|[-> [D [R [E L]]]]]]]; [discriminate|].
        injection E as -> ->; cbn [fst snd]; rewrite bytes_dset, overlay_0; split.
        + split; [|right; exists D, (skipn (length D) (bytes_of st)); split; [exact R|reflexivity]].
          destruct F as [F _]; rewrite app_length, skipn_length; lia.
        + cbn [small_proc]; split; [reflexivity|split; [exact M|left; reflexivity]].
      - split; [exact F|exact Q].
    Qed.

    Lemma small_right st schedule i a p v : small_file (bytes_of st) ->
      nth_error (snd (crun (st, starting calls) schedule)) i = Some (Done a p (Ok v)) ->
      nth_error calls i = Some (a, p) /\ exists v', method a p = Ok v' /\ oeq v v' = true.
    Proof.
      intros F E.
      destruct (crun_inv calls small_file small_proc small_step schedule (st, starting calls)) as [_ P].
      { apply starting_inv; [intros; exact I|exact F]. }
      destruct (P _ _ E) as [C Q]; split; [exact C|]; exact (Q v eq_refl).
    Qed.
  End Small.

  (* ---------------- one writer at a time, one value ---------------- *)
  Section Exclusive.
    Variable calls : list (O * O).
    Variable D : list Z.
    Hypothesis Dright : right_bytes dump method calls D.
    Hypothesis same : forall a p v, In (a, p) calls -> method a p = Ok v -> dump3 a p v = (D, None).

    Definition excl_proc (owner : option nat) (c : list Z) (i : nat) (q : proc O) : Prop :=
      match q with
      | Reading _ _ off seen => (off <= length D)%nat /\ seen = firstn off D
      | Writing a p v off pend e => e = None /\ method a p = Ok v /\
          (owner = Some i -> (off <= length D)%nat /\ c = firstn off D /\ concat pend = skipn off D)
      | Done a p r => right a p r
      | _ => True
      end.
    Definition excl_inv (owner : option nat) (s : fs * list (proc O)) : Prop :=
      (exists k, bytes_of (fst s) = firstn k D) /\
      forall i q, nth_error (snd s) i = Some q -> nth_error calls i = Some (pargs q) /\ excl_proc owner (bytes_of (fst s)) i q.

    Lemma firstn_len {A} n (l : list A) : exists k, (k <= length l)%nat /\ firstn n l = firstn k l.
    Proof.
      destruct (Nat.le_gt_cases n (length l)) as [H|H]; [exists n; split; [exact H|reflexivity]|].
      exists (length l); split; [lia|rewrite firstn_all2 by lia; symmetry; apply firstn_all].
    Qed.
    Lemma firstn_self {A} n (l : list A) : firstn n l = firstn (length (firstn n l)) l.
    Proof.
      destruct (firstn_len n l) as [k [H ->]]; rewrite firstn_length; f_equal; lia.
    Qed.
    Lemma firstn_plus {A} n m (l : list A) : firstn (n + m) l = firstn n l ++ firstn m (skipn n l).
    Proof. revert l; induction n as [|n IH]; intros [|x l]; cbn; [reflexivity|reflexivity|destruct m; reflexivity|]; rewrite IH; reflexivity. Qed.

    Lemma skipn_plus {A} n m (l : list A) : skipn (n + m) l = skipn m (skipn n l).
    Proof. revert l; induction n as [|n IH]; intros [|x l]; cbn; [reflexivity|reflexivity|destruct m; reflexivity|apply IH]. Qed.

    Lemma prefix_right q a p : (exists t, D = q ++ t) -> is_none (parse q a p) = false -> right a p (Ok (parse q a p)).
    Proof.
      intros [t E] N; destruct Dright as [a0 [p0 [v0 [I [M E3]]]]]; rewrite parse_load3 in *.
      destruct (load3_torn oeq none is_none dump load _ _ pok _ _ _ _ _ _ _ E3 E a p) as [L|[L|[v' [L [Ev [A [P _]]]]]]]; rewrite L in *.
      - rewrite (ok_none _ _ _ _ _ _ _ pok) in N; discriminate.
      - rewrite (ok_none _ _ _ _ _ _ _ pok) in N; discriminate.
      - exact (right_of _ _ _ _ _ _ M Ev A P).
    Qed.

    (* a step that leaves the file alone, of a process that stays outside Writing *)
    Lemma excl_quiet owner st ps i q q' : excl_inv owner (st, ps) -> nth_error ps i = Some q -> pargs q' = pargs q ->
      (forall o, excl_proc o (bytes_of st) i q') -> excl_inv owner (st, update i q' ps).
    Proof.
      intros [F P] E A X; split; [exact F|]; cbn [fst snd] in *; intros j x H.
      destruct (nth_update _ _ _ _ _ H) as [[-> ->]|[N H']]; [|apply P, H'].
      destruct (P _ _ E) as [C _]; rewrite A; split; [exact C|apply X].
    Qed.

    Definition next_owner (owner : option nat) (s : fs * list (proc O)) (e : nat * Z) : option nat :=
      if negb (is_writing (nth_error (snd s) (fst e))) && is_writing (nth_error (snd (cstep s e)) (fst e))
      then Some (fst e) else owner.

    Lemma nth_some_lt {A} (l : list A) i x : nth_error l i = Some x -> (i < length l)%nat.
    Proof. intros E; apply nth_error_Some; rewrite E; discriminate. Qed.

    Lemma excl_step owner s e : excl_inv owner s ->
      (match nth_error (snd s) (fst e) with Some (Writing _ _ _ _ (_ :: _) _) => owner = Some (fst e) | _ => True end) ->
      excl_inv (next_owner owner s e) (cstep s e).
    Proof.
      destruct s as [st ps], e as [i now]; intros Inv Ex; unfold next_owner, Procs_model.cstep; cbn [fst snd] in *.
      destruct (nth_error ps i) as [q|] eqn:E; [|cbn [snd]; rewrite E; exact Inv].
      pose proof (nth_some_lt _ _ _ E) as LT; pose proof (pargs_step st now q) as PA.
      pose proof Inv as [[k F] P]; cbn [fst snd] in F, P; destruct (P _ _ E) as [C Q].
      destruct q as [a p|a p off seen|a p|a p v off [|b pend] ex|a p r]; cbn [Procs_model.pstep] in *.
      - cbn [snd] in PA; set (q' := match needs_update set_order st cache_file deps with
                          | Ok true => Computing a p | Ok false => _ | Raise e => Done a p (Raise e) end) in *.
        assert (W : is_writing (Some q') = false /\ forall o, excl_proc o (bytes_of st) i q').
        { subst q'; destruct (needs_update set_order st cache_file deps) as [[|]|e].
          - split; [reflexivity|intros; exact I].
          - destruct (sopen_std cache_file (u "rb")); [split; [reflexivity|intros; exact I]|].
            destruct (readable cache_file); [|split; [reflexivity|intros; exact I]].
            split; [reflexivity|intros o; split; [lia|reflexivity]].
          - split; [reflexivity|intros o v X; discriminate]. }
        destruct W as [W1 W2]; cbn [snd]; rewrite (nth_update_same _ _ _ LT), W1; cbn [is_writing negb andb].
        exact (excl_quiet _ _ _ _ _ _ Inv E PA W2).
      - destruct Q as [Lo ->]; destruct (firstn bufsize (skipn off (bytes_of st))) as [|x chunk] eqn:Ec; cbn [snd] in *.
        + rewrite (nth_update_same _ _ _ LT).
          assert (W : forall y, is_writing (Some (if is_none (parse (firstn off D) a p) then Computing a p else Done a p y)) = false)
            by (intros y; destruct (is_none (parse (firstn off D) a p)); reflexivity).
          rewrite W; cbn [is_writing negb andb]; refine (excl_quiet _ _ _ _ _ _ Inv E PA _); intros o.
          destruct (is_none (parse (firstn off D) a p)) eqn:N; [exact I|]; cbn [excl_proc]; apply prefix_right; [|exact N].
          exists (skipn off D); symmetry; apply firstn_skipn.
        + rewrite (nth_update_same _ _ _ LT); cbn [is_writing negb andb].
          refine (excl_quiet _ _ _ _ _ _ Inv E PA _); intros o; cbn [excl_proc].
          assert (H : x :: chunk = firstn (length (x :: chunk)) (skipn off D)).
          { rewrite F in Ec; destruct (firstn_len k D) as [k' [Lk Ek]]; rewrite Ek, skipn_firstn_comm, firstn_firstn in Ec.
            rewrite <- Ec; apply firstn_self. }
          rewrite firstn_plus, <- H; split; [|reflexivity].
          apply (f_equal (@length Z)) in H; rewrite firstn_length, skipn_length in H; lia.
      - destruct (method a p) as [v|ex] eqn:M.
        2:{ cbn [snd]; rewrite (nth_update_same _ _ _ LT); cbn [is_writing negb andb].
            refine (excl_quiet _ _ _ _ _ _ Inv E _ _); [reflexivity|]; intros o v X; discriminate. }
        destruct (sopen_std cache_file (u "wb")).
        { cbn [snd]; rewrite (nth_update_same _ _ _ LT); cbn [is_writing negb andb].
          refine (excl_quiet _ _ _ _ _ _ Inv E _ _); [reflexivity|]; intros o v' X; discriminate. }
        destruct (writable cache_file).
        2:{ cbn [snd]; rewrite (nth_update_same _ _ _ LT); cbn [is_writing negb andb].
            refine (excl_quiet _ _ _ _ _ _ Inv E _ _); [reflexivity|]; intros o v' X; discriminate. }
        rewrite (same a p v (nth_error_In _ _ C) M) in *; cbn [snd] in *.
        rewrite (nth_update_same _ _ _ LT); cbn [is_writing negb andb]; split; cbn [fst snd]; rewrite bytes_dset.
        + exists 0%nat; reflexivity.
        + intros j x H; destruct (nth_update _ _ _ _ _ H) as [[-> ->]|[N H']].
          * split; [exact C|]; cbn [excl_proc]; split; [reflexivity|split; [exact M|]]; intros _.
            split; [lia|split; [reflexivity|apply (b_concat _ _ bok)]].
          * destruct (P _ _ H') as [C' Q']; split; [exact C'|].
            destruct x; try exact Q'; cbn [excl_proc] in *; destruct Q' as [Q1 [Q2 _]].
            split; [exact Q1|split; [exact Q2|]]; intros X; injection X as X; congruence.
      - destruct Q as [-> [M Q]]; cbn [snd]; rewrite (nth_update_same _ _ _ LT); cbn [is_writing negb andb].
        refine (excl_quiet _ _ _ _ _ _ Inv E _ _); [reflexivity|]; intros o; cbn [excl_proc]; apply right_self, M.
      - destruct Q as [-> [M Q]]; subst owner; destruct (Q eq_refl) as [Lo [Ec Ep]]; cbn [snd].
        rewrite (nth_update_same _ _ _ LT); cbn [is_writing negb andb]; cbn [concat] in Ep.
        assert (B : overlay off b (bytes_of st) = firstn (off + length b) D).
        { rewrite firstn_plus, <- Ep, firstn_app, Nat.sub_diag, firstn_all; cbn [firstn]; rewrite app_nil_r, Ec.
          rewrite <- overlay_end; f_equal; rewrite firstn_length; lia. }
        assert (Lb : (off + length b <= length D)%nat)
          by (apply (f_equal (@length Z)) in Ep; rewrite app_length, skipn_length in Ep; lia).
        split; cbn [fst snd]; rewrite bytes_dset, B; [eexists; reflexivity|].
        intros j x H; destruct (nth_update _ _ _ _ _ H) as [[-> ->]|[N H']].
        + split; [exact C|]; cbn [excl_proc]; split; [reflexivity|split; [exact M|]]; intros _.
          split; [exact Lb|split; [reflexivity|]].
          rewrite skipn_plus, <- Ep, skipn_app, Nat.sub_diag, skipn_all; reflexivity.
        + destruct (P _ _ H') as [C' Q']; split; [exact C'|].
          destruct x; try exact Q'; cbn [excl_proc] in *; destruct Q' as [Q1 [Q2 _]].
          split; [exact Q1|split; [exact Q2|]]; intros X; injection X as X; congruence.
      - cbn [snd]; rewrite (nth_update_same _ _ _ LT); cbn [is_writing negb andb].
        refine (excl_quiet _ _ _ _ _ _ Inv E _ _); [reflexivity|]; intros o; exact Q.
    Qed.

    Lemma excl_run schedule : forall owner s, excl_inv owner s -> exclusive cstep owner s schedule ->
      exists owner', excl_inv owner' (crun s schedule).
    Proof.
      unfold Procs_model.crun; induction schedule as [|e r IH]; intros owner s I X; [exists owner; exact I|].
      destruct X as [X1 X2]; exact (IH _ _ (excl_step _ _ _ I X1) X2).
    Qed.

    Lemma excl_right st schedule i a p v : (exists k, bytes_of st = firstn k D) ->
      exclusive cstep None (st, starting calls) schedule ->
      nth_error (snd (crun (st, starting calls) schedule)) i = Some (Done a p (Ok v)) ->
      nth_error calls i = Some (a, p) /\ exists v', method a p = Ok v' /\ oeq v v' = true.
    Proof.
      intros F X E; destruct (excl_run schedule None (st, starting calls)) as [o [_ P]]; [|exact X|].
      - split; [exact F|]; cbn [snd]; unfold starting; intros j q H.
        rewrite nth_error_map in H; destruct (nth_error calls j) as [[a' p']|]; [|discriminate].
        injection H as <-; split; [reflexivity|exact I].
      - destruct (P _ _ E) as [C Q]; split; [exact C|]; exact (Q v eq_refl).
    Qed.
  End Exclusive.

  (* ---------------- every call ends ---------------- *)
  Section Ends.
    Variable calls : list (O * O).
    Variable L : nat.
    Hypothesis buf1 : (1 <= bufsize)%nat.
    Hypothesis bounded : forall a p v, In (a, p) calls -> method a p = Ok v -> (length (fst (dump3 a p v)) <= L)%nat.

    Definition len_file (c : list Z) : Prop := (length c <= L)%nat.
    Definition len_proc (q : proc O) : Prop :=
      match q with
      | Writing _ _ _ off pend _ => (off + length (concat pend) <= L)%nat /\ Forall (fun c => c <> []) pend
      | _ => True
      end.
    Definition left (q : proc O) : nat :=
      match q with
      | Start _ _ => L + L + 4
      | Reading _ _ off _ => (L - off) + L + 3
      | Computing _ _ => L + 2
      | Writing _ _ _ _ pend _ => length (concat pend) + 1
      | Done _ _ _ => 0
      end.

    Lemma len_step st now q : In (pargs q) calls -> len_file (bytes_of st) -> len_proc q ->
      len_file (bytes_of (fst (pstep st now q))) /\ len_proc (snd (pstep st now q)).
    Proof.
      intros C F Q; destruct q as [a p|a p off seen|a p|a p v off [|b pend] e|a p r]; cbn [Procs_model.pstep].
      - split; [exact F|]; cbn [snd].
        destruct (needs_update set_order st cache_file deps) as [[|]|e]; try exact I.
        destruct (sopen_std cache_file (u "rb")); [exact I|]; destruct (readable cache_file); exact I.
      - destruct (firstn bufsize (skipn off (bytes_of st))); (split; [exact F|]); cbn [snd]; [|exact I].
        destruct (is_none (parse seen a p)); exact I.
      - destruct (method a p) as [v|e] eqn:M; [|split; [exact F|exact I]].
        destruct (sopen_std cache_file (u "wb")); [split; [exact F|exact I]|].
        destruct (writable cache_file); [|split; [exact F|exact I]].
        pose proof (bounded a p v C M) as B; destruct (dump3 a p v) as [b e]; cbn [fst snd] in *; rewrite bytes_dset.
        split; [unfold len_file; cbn [length]; lia|]; cbn [len_proc]; rewrite (b_concat _ _ bok); split; [lia|].
        apply Forall_forall; intros c Hc; exact (b_nonempty _ _ bok b c Hc).
      - split; [exact F|exact I].
      - destruct Q as [Q N]; cbn [fst snd]; rewrite bytes_dset; cbn [concat] in Q; rewrite app_length in Q.
        inversion N as [|x y N1 N2]; subst; split.
        + unfold len_file in *; rewrite (length_overlay _ _ _ N1); lia.
        + cbn [len_proc]; split; [lia|exact N2].
      - split; [exact F|exact Q].
    Qed.

    Lemma left_step st now q : len_file (bytes_of st) -> len_proc q -> In (pargs q) calls ->
      (left (snd (pstep st now q)) <= pred (left q))%nat.
    Proof.
      intros F Q C; destruct q as [a p|a p off seen|a p|a p v off [|b pend] e|a p r]; cbn [Procs_model.pstep].
      - cbn [snd left]; destruct (needs_update set_order st cache_file deps) as [[|]|e]; cbn [left]; try lia.
        destruct (sopen_std cache_file (u "rb")); cbn [left]; [lia|]; destruct (readable cache_file); cbn [left]; lia.
      - destruct (firstn bufsize (skipn off (bytes_of st))) as [|x c] eqn:E; cbn [snd left].
        + destruct (is_none (parse seen a p)); cbn [left]; lia.
        + apply (f_equal (@length Z)) in E; rewrite firstn_length, skipn_length in E; unfold len_file in F; cbn [length] in *; lia.
      - destruct (method a p) as [v|e] eqn:M; [|cbn [snd left]; lia].
        destruct (sopen_std cache_file (u "wb")); [cbn [snd left]; lia|].
        destruct (writable cache_file); [|cbn [snd left]; lia].
        pose proof (bounded a p v C M) as B; destruct (dump3 a p v) as [b e]; cbn [fst snd left] in *.
        rewrite (b_concat _ _ bok); lia.
      - cbn [snd left concat length]; lia.
      - destruct Q as [Q N]; inversion N as [|x y N1 N2]; subst; cbn [snd left concat]; rewrite app_length.
        destruct b as [|x b]; [contradiction|cbn [length]; lia].
      - cbn [snd left]; lia.
    Qed.

    Lemma turns_left schedule i : forall s q, cinv calls len_file len_proc s -> nth_error (snd s) i = Some q ->
      exists q', nth_error (snd (crun s schedule)) i = Some q' /\ (left q' <= left q - turns i schedule)%nat.
    Proof.
      unfold Procs_model.crun; induction schedule as [|e r IH]; intros s q I E; cbn [fold_left].
      { exists q; split; [exact E|unfold turns; cbn; lia]. }
      pose proof (cstep_inv calls len_file len_proc len_step s e I) as I'.
      assert (H : exists q', nth_error (snd (cstep s e)) i = Some q' /\
                (left q' <= left q - (if Nat.eqb (fst e) i then 1 else 0))%nat).
      { unfold Procs_model.cstep; destruct (Nat.eqb_spec (fst e) i) as [->|N].
        - rewrite E; destruct I as [F P]; destruct (P _ _ E) as [C Q].
          pose proof (left_step (fst s) (snd e) q F Q (nth_error_In _ _ C)) as Ls.
          destruct (pstep (fst s) (snd e) q) as [st' q']; cbn [snd] in *; exists q'.
          split; [apply nth_update_same; exact (nth_some_lt _ _ _ E)|lia].
        - exists q; split; [|lia]; destruct (nth_error (snd s) (fst e)) as [x|]; [|exact E].
          destruct (pstep (fst s) (snd e) x) as [st' q']; cbn [snd].
          clear -E N; revert E N; generalize (snd s) (fst e) i; intros l j; revert l.
          induction j as [|j IH]; intros [|y l] [|k] E N; cbn in *; try assumption; try congruence; try discriminate.
          apply IH; [exact E|congruence]. }
      destruct H as [q1 [E1 L1]]; destruct (IH _ _ I' E1) as [q2 [E2 L2]]; exists q2; split; [exact E2|].
      unfold turns in *; cbn [filter]; destruct (Nat.eqb (fst e) i); cbn [length]; lia.
    Qed.

    Lemma call_ends st schedule i a p : (length (bytes_of st) <= L)%nat -> nth_error calls i = Some (a, p) ->
      (L + L + 4 <= turns i schedule)%nat ->
      exists r, nth_error (snd (crun (st, starting calls) schedule)) i = Some (Done a p r).
    Proof.
      intros F C T.
      assert (I0 : cinv calls len_file len_proc (st, starting calls)) by (apply starting_inv; [intros; exact I|exact F]).
      assert (E : nth_error (snd (st, starting calls)) i = Some (Start a p))
        by (cbn [snd]; unfold starting; rewrite nth_error_map, C; reflexivity).
      destruct (turns_left schedule i _ _ I0 E) as [q [E' Lq]]; cbn [left] in Lq.
      destruct (crun_inv calls len_file len_proc len_step schedule _ I0) as [_ P]; destruct (P _ _ E') as [C' _].
      rewrite C in C'; injection C' as C'.
      destruct q as [a' p'|a' p' off seen|a' p'|a' p' v off pend e|a' p' r]; cbn [left pargs] in *; try lia.
      injection C' as -> ->; exists r; exact E'.
    Qed.
  End Ends.

  (* ---------------- a process on its own ---------------- *)
  Section Alone.
    Variable now : Z.
    Notation step x := (pstep (fst x) now (snd x)).
    Inductive reaches : fs * proc O -> fs * proc O -> Prop :=
    | r_here x : reaches x x
    | r_step x y : reaches (step x) y -> reaches x y.
    Hypothesis buf1 : (1 <= bufsize)%nat.

    Lemma run_one x n : crun (fst x, [snd x]) (repeat (0%nat, now) n) =
      (fst (Nat.iter n (fun x => step x) x), [snd (Nat.iter n (fun x => step x) x)]).
    Proof.
      unfold Procs_model.crun; revert x; induction n as [|n IH]; intros x; [reflexivity|].
      cbn [repeat fold_left]; unfold Procs_model.cstep at 2; cbn [fst snd nth_error].
      destruct (pstep (fst x) now (snd x)) as [st q] eqn:E; cbn [update].
      change (st, [q]) with (fst (st, q), [snd (st, q)]); rewrite IH, <- E.
      assert (C : forall n x, Nat.iter n (fun x => step x) (step x) = step (Nat.iter n (fun x => step x) x))
        by (clear; induction n as [|n IH]; intros x; [reflexivity|]; cbn [Nat.iter nat_rect]; unfold Nat.iter in IH; rewrite IH; reflexivity).
      rewrite C; reflexivity.
    Qed.

    Lemma reaches_run x st a p r : reaches x (st, Done a p r) ->
      exists k, forall n, (k <= n)%nat -> crun (fst x, [snd x]) (repeat (0%nat, now) n) = (st, [Done a p r]).
    Proof.
      intros H; remember (st, Done a p r) as y eqn:Ey; induction H as [x|x y H IH]; subst.
      - exists 0%nat; intros n _; rewrite run_one.
        assert (X : Nat.iter n (fun x => step x) (st, Done a p r) = (st, Done a p r)).
        { induction n as [|n IH]; [reflexivity|]; cbn [Nat.iter nat_rect]; unfold Nat.iter in IH; rewrite IH; reflexivity. }
        rewrite X; reflexivity.
      - destruct (IH eq_refl) as [k K]; exists (S k); intros n L; destruct n as [|n]; [lia|].
        rewrite <- (K n ltac:(lia)); unfold Procs_model.crun; cbn [repeat fold_left]; f_equal.
        unfold Procs_model.cstep; cbn [fst snd nth_error]; destruct (pstep (fst x) now (snd x)); reflexivity.
    Qed.

    Lemma reading_reaches st a p y : let c := bytes_of st in
      reaches (st, if is_none (parse c a p) then Computing a p else Done a p (Ok (parse c a p))) y ->
      forall k off, (length c <= off + k)%nat -> (off <= length c)%nat -> reaches (st, Reading a p off (firstn off c)) y.
    Proof.
      intros c H; induction k as [|k IH]; intros off L1 L2; constructor; cbn [fst snd Procs_model.pstep]; fold c.
      - rewrite skipn_all2 by lia; rewrite firstn_nil, firstn_all2 by lia; exact H.
      - destruct (firstn bufsize (skipn off c)) as [|x chunk] eqn:E.
        + assert (skipn off c = []) by (destruct (skipn off c); [reflexivity|destruct bufsize; [lia|discriminate]]).
          assert (length c <= off)%nat by (apply (f_equal (@length Z)) in H0; rewrite skipn_length in H0; cbn in H0; lia).
          rewrite firstn_all2 by lia; exact H.
        + assert (X : x :: chunk = firstn (length (x :: chunk)) (skipn off c)) by (rewrite <- E; apply firstn_self).
          assert (Y : (length (x :: chunk) <= length c - off)%nat)
            by (apply (f_equal (@length Z)) in E; rewrite firstn_length, skipn_length in E; lia).
          replace (firstn off c ++ x :: chunk) with (firstn (off + length (x :: chunk)) c) by (rewrite firstn_plus, <- X; reflexivity).
          apply IH; cbn [length] in *; lia.
    Qed.

    Lemma dset_dset {K V} `{EqB K} (k : K) (v w : V) d : dset k w (dset k v d) = dset k w d.
    Proof.
      induction d as [|[k' x] d IH]; cbn [dset]; [rewrite eqb_refl; reflexivity|].
      destruct (eqb k k') eqn:E; cbn [dset]; rewrite E; [reflexivity|rewrite IH; reflexivity].
    Qed.

    Lemma writing_reaches a p v e pend : forall st done,
      reaches (dset cache_file {| content := done; mtime := now |} st, Writing a p v (length done) pend e)
              (dset cache_file {| content := done ++ concat pend; mtime := now |} st,
               Done a p (match e with Some e => Raise e | None => Ok v end)).
    Proof.
      induction pend as [|b pend IH]; intros st done.
      - constructor; cbn [concat]; rewrite app_nil_r; constructor.
      - constructor; cbn [fst snd Procs_model.pstep concat]; rewrite bytes_dset, overlay_end, dset_dset.
        rewrite <- app_length, app_assoc; apply IH.
    Qed.

    Lemma alone st a p :
      let call := disk_call set_order oeq none is_none dump load (fun _ b => b) (fun _ b => b) readable writable
                    (fun w a p => (w, method a p)) cache_file deps now (tt, st) a p in
      exists k, forall n, (k <= n)%nat ->
        crun (st, starting [(a, p)]) (repeat (0%nat, now) n) = (snd (fst call), [Done a p (snd call)]).
    Proof.
      intros call; assert (R : reaches (st, Start a p) (snd (fst call), Done a p (snd call))).
      2:{ destruct (reaches_run _ _ _ _ _ R) as [k K]; exists k; exact K. }
      assert (Cmp : forall c, is_none c = true -> try_cache set_order oeq none load (fun _ b => b) readable st cache_file a p deps = Ok c ->
                reaches (st, Computing a p) (snd (fst call), Done a p (snd call))).
      { intros c N T; subst call; unfold SmartCache_model.disk_call; cbn [snd]; rewrite T, N; constructor; cbn [fst snd Procs_model.pstep].
        destruct (method a p) as [v|e]; [|constructor].
        unfold SmartCache_model.store_cache_object; destruct (sopen_std cache_file (u "wb")); [constructor|].
        destruct (writable cache_file); [|constructor]; destruct (dump3 a p v) as [b e]; cbn [fst snd].
        pose proof (writing_reaches a p v e (cut b) st []) as W; cbn [length app] in W; rewrite (b_concat _ _ bok) in W.
        destruct e as [e|]; exact W. }
      constructor; cbn [fst snd Procs_model.pstep].
      destruct (needs_update set_order st cache_file deps) as [[|]|e] eqn:NU.
      - apply (Cmp none); [apply (ok_none _ _ _ _ _ _ _ pok)|]; unfold SmartCache_model.try_cache; rewrite NU; reflexivity.
      - pose proof (read_cache_load3 oeq none load (fun _ b => b) readable st cache_file a p) as RC.
        destruct (sopen_std cache_file (u "rb")).
        { apply (Cmp none); [apply (ok_none _ _ _ _ _ _ _ pok)|]; unfold SmartCache_model.try_cache; rewrite NU, RC; reflexivity. }
        destruct (readable cache_file).
        2:{ apply (Cmp none); [apply (ok_none _ _ _ _ _ _ _ pok)|]; unfold SmartCache_model.try_cache; rewrite NU, RC; reflexivity. }
        assert (T : try_cache set_order oeq none load (fun _ b => b) readable st cache_file a p deps = Ok (parse (bytes_of st) a p)).
        { unfold SmartCache_model.try_cache; rewrite NU, RC; cbn [bind]; rewrite parse_load3; unfold Procs_model.bytes_of.
          destruct (dget cache_file st) as [f|] eqn:Df; [destruct (load3 (content f) a p); reflexivity|].
          rewrite (needs_update_missing set_order st cache_file deps Df) in NU; discriminate. }
        change (@nil Z) with (firstn 0 (bytes_of st)).
        apply (reading_reaches st a p _) with (k := length (bytes_of st)); [|lia|lia].
        destruct (is_none (parse (bytes_of st) a p)) eqn:N; [exact (Cmp _ N T)|].
        subst call; unfold SmartCache_model.disk_call; cbn [snd]; rewrite T, N; constructor.
      - subst call; unfold SmartCache_model.disk_call, SmartCache_model.try_cache; cbn [snd]; rewrite NU; constructor.
    Qed.
  End Alone.
End Procs.

(* ---------------- a concrete instance ---------------- *)
(* objects are lists of integers, [-1] is None; a pickle is the length and the items *)
Definition ldump (v : list Z) : list Z * option exn := (Z.of_nat (length v) :: v, None).
Definition lload (b : list Z) : option (list Z * list Z) :=
  match b with
  | [] => None
  | n :: r => if (0 <=? n) && (Z.to_nat n <=? length r)%nat then Some (firstn (Z.to_nat n) r, skipn (Z.to_nat n) r) else None
  end.
Definition lnone (v : list Z) : bool := list_eqb Z.eqb v [-1].

Lemma lpickle_ok : pickle_ok (list_eqb Z.eqb) [-1] lnone ldump lload (fun _ b => b) (fun _ b => b).
Proof.
  assert (Q : equivalence (list_eqb Z.eqb)).
  { apply list_eqb_equiv; split; [apply Z.eqb_refl|intros x y; rewrite !Z.eqb_eq; congruence|intros x y z; rewrite !Z.eqb_eq; congruence]. }
  split.
  - exact Q.
  - reflexivity.
  - intros x y E; unfold lnone; apply (equiv_l _ _ _ _ Q E).
  - intros v b E r; injection E as <-; exists v; split; [|apply (e_refl _ Q)].
    cbn [lload app]; rewrite Nat2Z.id, app_length.
    replace (0 <=? Z.of_nat (length v)) with true by (symmetry; apply Z.leb_le; lia).
    replace (length v <=? length v + length r)%nat with true by (symmetry; apply Nat.leb_le; lia); cbn [andb].
    rewrite firstn_app, skipn_app, Nat.sub_diag, firstn_all, skipn_all; cbn [firstn skipn app]; rewrite app_nil_r; reflexivity.
  - intros v b E q x t Eq; injection E as <-; destruct q as [|n q]; [reflexivity|]; injection Eq as <- ->; cbn [lload].
    rewrite Nat2Z.id, app_length; cbn [length].
    replace (length q + S (length t) <=? length q)%nat with false by (symmetry; apply Nat.leb_gt; lia).
    rewrite andb_false_r; reflexivity.
  - intros v b e E; discriminate.
  - reflexivity.
  - intros p b q t E; exists t; exact E.
Qed.

Fixpoint chop_from (fuel n : nat) (b : list Z) : list (list Z) :=
  match fuel, b with
  | O, _ | _, [] => []
  | S fuel, _ => firstn n b :: chop_from fuel n (skipn n b)
  end.
Definition chop (n : nat) (b : list Z) : list (list Z) := chop_from (length b) n b.

Lemma chop_buffered n : (1 <= n)%nat -> buffered n (chop n).
Proof.
  intros N; split; unfold chop.
  - assert (H : forall fuel b, (length b <= fuel)%nat -> concat (chop_from fuel n b) = b).
    { induction fuel as [|fuel IH]; intros [|x b] L; cbn [length] in *; try reflexivity; [lia|].
      cbn [chop_from concat]; rewrite IH, firstn_skipn; [reflexivity|].
      rewrite skipn_length; cbn [length]; lia. }
    intros b; apply H; lia.
  - assert (H : forall fuel b c, In c (chop_from fuel n b) -> c <> []).
    { induction fuel as [|fuel IH]; intros [|x b] c I; try contradiction.
      cbn [chop_from] in I; destruct I as [<-|I]; [|exact (IH _ _ I)].
      destruct n as [|n']; [lia|discriminate]. }
    intros b; apply H.
  - intros [|x b] NE L; [contradiction|]; cbn [length chop_from].
    rewrite firstn_all2, skipn_all2 by exact L; destruct (length b); reflexivity.
Qed.

(* the value for the arguments [x] is six times x + 6 *)
Definition lmethod (a p : list Z) : res (list Z) :=
  match a with [x] => Ok (repeat (x + 6) 6) | _ => Raise TypeError end.
Lemma lrespects : respects (list_eqb Z.eqb) lmethod.
Proof.
  intros a a' p p' A P.
  assert (Q : equivalence (list_eqb Z.eqb)).
  { apply list_eqb_equiv; split; [apply Z.eqb_refl|intros x y; rewrite !Z.eqb_eq; congruence|intros x y z; rewrite !Z.eqb_eq; congruence]. }
  assert (E : forall l m, list_eqb Z.eqb l m = true -> l = m).
  { induction l as [|x l IH]; intros [|y m] H; try discriminate; [reflexivity|]; cbn [list_eqb] in H.
    apply andb_true_iff in H; destruct H as [H1 H2]; apply Z.eqb_eq in H1; subst y; rewrite (IH m H2); reflexivity. }
  apply E in A; subst a'; destruct (lmethod a p) as [v|e] eqn:M; unfold lmethod in *.
  - destruct a as [|x [|y a]]; try discriminate; injection M as <-; constructor; apply (e_refl _ Q).
  - destruct a as [|x [|y a]]; try discriminate; injection M as <-; constructor.
Qed.
Definition lrun (n : nat) := crun (fun l => l) (list_eqb Z.eqb) [-1] lnone ldump lload any any n (chop n) lmethod cache_f [DepPath dep_f].
Definition lstep (n : nat) := cstep (fun l => l) (list_eqb Z.eqb) [-1] lnone ldump lload any any n (chop n) lmethod cache_f [DepPath dep_f].
(* process [i] makes [k] steps *)
Definition by_turns (l : list (nat * nat)) : list (nat * Z) := flat_map (fun x => repeat (fst x, 10) (snd x)) l.
