(* CacheNest_props.v -- C126, C127 *)
From Verif Require Import Base PyStr Common_model SmartCache_model SmartCache_spec SmartCache_proofs CacheNest_model CacheNest_spec CacheNest_proofs.
From Coq Require Import Permutation.

(** ** C126: cached methods that call one another *)
(** If the dependencies of each method name all files read, by itself or by the methods it calls, every
    value returned is, at that moment, the one the methods would return without any cache; *)
Theorem C126_right : forall F O (the : F -> cached F O) set_order oeq none is_none dump load encode decode readable writable now fate debug show,
  (forall l, Permutation (set_order l) l) -> pickle_ok oeq none is_none dump load encode decode -> proper the oeq -> complete the ->
  let call := call the set_order oeq none is_none dump load encode decode readable writable now fate debug show in
  forall w n f a p w' v, reached the (some_call call) w -> call n w f a p = Some (w', Returned (Ok v)) ->
  exists v', evals the (contents (files w)) (method (the f) a p) (Ok v') /\ oeq v v' = true.
Proof.
  intros F O the so oeq none isn dump load enc dec re wr now fate debug show OK PK PR CO call w n f a p w' v R E.
  destruct (call_right the so OK oeq none isn dump load enc dec re wr PK now fate debug show PR CO w n f a p w' (Ok v) R E) as (r' & Ev & Eq); [left; eexists; reflexivity|].
  inversion Eq as [x y XY X Y|]; subst. exists y. split; assumption.
Qed.
Print Assumptions C126_right.
(** and if the files can be written and checked and the values pickled, so is every exception. *)
Theorem C126_exceptions : forall F O (the : F -> cached F O) set_order oeq none is_none dump load encode decode readable writable now fate debug show,
  (forall l, Permutation (set_order l) l) -> pickle_ok oeq none is_none dump load encode decode -> proper the oeq -> complete the ->
  let call := call the set_order oeq none is_none dump load encode decode readable writable now fate debug show in
  forall w n f a p w' e, reached the (some_call call) w -> reliable the writable dump debug show (files w) ->
  call n w f a p = Some (w', Returned (Raise e)) -> evals the (contents (files w)) (method (the f) a p) (Raise e).
Proof.
  intros F O the so oeq none isn dump load enc dec re wr now fate debug show OK PK PR CO call w n f a p w' e R RL E.
  destruct (call_right the so OK oeq none isn dump load enc dec re wr PK now fate debug show PR CO w n f a p w' (Raise e) R E) as (r' & Ev & Eq); [right; exact RL|].
  inversion Eq; subst. assumption.
Qed.
Print Assumptions C126_exceptions.
(** A call comes to an end if the methods do; *)
Theorem C126_ends : forall F O (the : F -> cached F O) set_order oeq none is_none dump load encode decode readable writable now fate debug show,
  (forall l, Permutation (set_order l) l) -> pickle_ok oeq none is_none dump load encode decode -> proper the oeq -> complete the ->
  let call := call the set_order oeq none is_none dump load encode decode readable writable now fate debug show in
  forall w f a p r, reached the (some_call call) w -> evals the (contents (files w)) (method (the f) a p) r ->
  exists n w' o, call n w f a p = Some (w', o) /\ forall m, (n <= m)%nat -> call m w f a p = Some (w', o).
Proof.
  intros F O the so oeq none isn dump load enc dec re wr now fate debug show OK PK PR CO call w f a p r R E.
  destruct (call_ends the so OK oeq none isn dump load enc dec re wr PK now fate debug show PR CO w f a p r R E) as (n & w' & o & X).
  exists n, w', o. split; [exact X|]. intros m L. exact (exec_le the so oeq none isn dump load enc dec re wr now fate debug show n m w _ _ L X).
Qed.
Print Assumptions C126_ends.
(** without a cache there is one result; *)
Theorem C126_one_result : forall F O (the : F -> cached F O) c p r r', evals the c p r -> evals the c p r' -> r = r'.
Proof. intros F O the c p r r' E. exact (evals_det the c p r E r'). Qed.
Print Assumptions C126_one_result.
(** and a call changes no file but the caches. *)
Theorem C126_files : forall F O (the : F -> cached F O) set_order oeq none is_none dump load encode decode readable writable now fate debug show,
  (forall l, Permutation (set_order l) l) -> pickle_ok oeq none is_none dump load encode decode -> proper the oeq -> complete the ->
  let call := call the set_order oeq none is_none dump load encode decode readable writable now fate debug show in
  forall w n f a p w' o q, reached the (some_call call) w -> call n w f a p = Some (w', o) -> ~ is_cache the q ->
  dget q (files w') = dget q (files w).
Proof.
  intros F O the so oeq none isn dump load enc dec re wr now fate debug show OK PK PR CO call w n f a p w' o q R E N.
  pose proof (reached_inv the so OK oeq none isn dump load enc dec re wr PK now fate debug show PR CO w R) as I.
  destruct (exec_right the so OK oeq none isn dump load enc dec re wr PK now fate debug show PR CO n w _ w' o _ I (within_call the f a p)
    (not_cache the oeq PR f) (alike_top oeq none isn dump load enc dec PK f a p) E) as (_ & S & _).
  exact (S q N).
Qed.
Print Assumptions C126_files.

(** What a call returned is there for the next: as long as no dependency is newer than the cache, calls with equal
    arguments return an equal value and store nothing, so no method is run. *)
Theorem C126_kept : forall F O (the : F -> cached F O) set_order oeq none is_none dump load encode decode readable writable now fate debug show,
  (forall l, Permutation (set_order l) l) -> pickle_ok oeq none is_none dump load encode decode ->
  let call := call the set_order oeq none is_none dump load encode decode readable writable now fate debug show in
  forall n w f a p w' v, call n w f a p = Some (w', Returned (Ok v)) -> is_none v = false ->
  readable (cache_file (the f)) = true -> (forall l, debug = true -> show l = None) -> (forall d, In d (dependencies (the f)) -> valid_dep d) ->
  (forall q x, watched (dependencies (the f)) q -> dget (cache_file (the f)) (files w') = Some x -> exists y, dget q (files w') = Some y /\ mtime y <= mtime x) ->
  exists v', oeq v' v = true /\ forall m a' p', (2 <= m)%nat -> oeq a a' = true -> oeq p p' = true ->
    exists w'', call m w' f a' p' = Some (w'', Returned (Ok v')) /\ same_state w'' w'.
Proof.
  intros F O the so oeq none isn dump load enc dec re wr now fate debug show OK PK call n w f a p w' v E N R Sh VD UP.
  exact (call_again the so OK oeq none isn dump load enc dec re wr PK now fate debug show n w f a p w' v E N R Sh VD UP).
Qed.
Print Assumptions C126_kept.

(** *** Cases *)
Definition inner_method (a p : Z) : prog bool Z :=
  ReadFile dep_f (fun c => match c with Some (b :: _) => Ret (Ok (a + b)) | _ => Ret (Raise ValueError) end).
Definition outer_method (a p : Z) : prog bool Z := Call false a p (fun v => Ret (Ok (2 * v))).
(** the inner method reads the file, the outer doubles what the inner returns; [d] are the dependencies of
    the outer, [f] its cache file *)
Definition two (d : list dependency) (f : list Z) (b : bool) : cached bool Z :=
  if b then {| cache_file := f; dependencies := d; method := outer_method |}
  else {| cache_file := u "cache/i"; dependencies := [DepPath dep_f]; method := inner_method |}.
Notation zcalls the debug show :=
  (call the (fun l => l) Z.eqb (-1) znone zdump zload zid zid any any (fun n => 10 + Z.of_nat n) (fun _ => None) debug show) (only parsing).
Lemma two_alike d f : forall b a a' p p', Z.eqb a a' = true -> Z.eqb p p' = true -> alike Z.eqb (method (two d f b) a p) (method (two d f b) a' p').
Proof.
  intros b a a' p p' A P. apply Z.eqb_eq in A, P. subst. destruct b; cbn [two method].
  - apply al_call; try apply Z.eqb_refl. intros v v' V. apply Z.eqb_eq in V. subst. apply al_ret. constructor. apply Z.eqb_refl.
  - apply al_read. intros [[|x r]|]; apply al_ret; constructor. apply Z.eqb_refl.
Qed.
Lemma two_proper f d : f = u "cache/o" -> (forall q, watched d q -> q = dep_f) -> proper (two d f) Z.eqb.
Proof.
  intros -> D. split.
  - intros [] [] E; try reflexivity; discriminate.
  - intros [] g W; [apply D in W|destruct W as [[W|[]]|(m & [W|[]] & _)]; [injection W as W|discriminate]]; destruct g; cbn in W; try discriminate; congruence.
  - apply two_alike.
Qed.
Lemma two_complete f d : (forall q, q = dep_f -> watched d q) -> complete (two d f).
Proof.
  intros D [] a p; cbn [two method dependencies].
  - apply wi_call; [|intros v; constructor]. intros q W. apply D. destruct W as [[W|[]]|(m & [W|[]] & _)]; [injection W as <-; reflexivity|discriminate].
  - apply wi_read; [left; left; reflexivity|]. intros [[|x r]|]; constructor.
Qed.
Definition w0 : world := World 0 (zfs 5 1) [].
Definition after (w : world) (x : option (world * outcome Z)) : world := match x with Some (w', _) => w' | None => w end.
Definition value (x : option (world * outcome Z)) : option (outcome Z) := option_map snd x.
Definition wrote (w : world) (q : list Z) (x : file) : world := World (stores w) (dset q x (files w)) (printed w).
Definition removed (w : world) (q : list Z) : world := World (stores w) (ddel q (files w)) (printed w).

Example C126_case :
  let the := two [DepPath dep_f] (u "cache/o") in
  let call := zcalls the true (fun _ => None) in
  let w1 := after w0 (call 9%nat w0 true 3 0) in
  let w2 := wrote w1 dep_f {| content := [7]; mtime := 12 |} in
  let w3 := after w2 (call 9%nat w2 true 3 0) in
  proper the Z.eqb /\ complete the /\ reached the (some_call call) w2 /\
  value (call 9%nat w0 true 3 0) = Some (Returned (Ok 16)) /\ value (call 9%nat w1 true 3 0) = Some (Returned (Ok 16)) /\
  value (call 9%nat w2 true 3 0) = Some (Returned (Ok 20)) /\ value (call 9%nat w3 false 3 0) = Some (Returned (Ok 10)) /\
  printed (after w3 (call 9%nat w3 false 3 0)) =
    [u "[cache miss: o]"; u "[cache miss: i]"; u "[storing: i]"; u "[storing: o]";
     u "[cache miss: o]"; u "[cache miss: i]"; u "[storing: i]"; u "[storing: o]"; u "[cache hit: i]"].
Proof.
  cbv zeta. split; [|split; [|split]].
  - apply two_proper; [reflexivity|]. intros q [[W|[]]|(m & [W|[]] & _)]; [injection W as <-; reflexivity|discriminate].
  - apply two_complete. intros q ->. left. left. reflexivity.
  - apply re_write; [|split].
    + apply re_call with w0; [apply re_start; [repeat constructor; intros []|]|].
      * intros q [[] ->]; reflexivity.
      * exists 9%nat, true, 3, 0. eexists. vm_compute. reflexivity.
    + intros [[] E]; discriminate.
    + intros [] y _ D; vm_compute in D; injection D as <-; reflexivity.
  - repeat split; vm_compute; reflexivity.
Qed.

(** It is not enough to name the files a method reads itself and the caches of the methods it calls: *)
Theorem C126_direct_refuted : let the := two [DepPath (u "cache/i")] (u "cache/o") in
  let call := zcalls the false (fun _ => None) in
  (forall f g, cache_file (the f) = cache_file (the g) -> f = g) /\
  (forall f a a' p p', Z.eqb a a' = true -> Z.eqb p p' = true -> alike Z.eqb (method (the f) a p) (method (the f) a' p')) /\
  (forall f a p, direct the (watched (dependencies (the f))) (method (the f) a p)) /\
  exists w w', reached the (some_call call) w /\ call 9%nat w true 3 0 = Some (w', Returned (Ok 16)) /\
    evals the (contents (files w)) (method (the true) 3 0) (Ok 20).
Proof.
  cbv zeta. split; [|split; [|split]].
  - intros [] [] E; try reflexivity; discriminate.
  - apply two_alike.
  - intros [] a p; cbn [two method dependencies].
    + apply di_call; [left; left; reflexivity|]. intros v. constructor.
    + apply di_read; [left; left; reflexivity|]. intros [[|x r]|]; constructor.
  - set (call := zcalls (two [DepPath (u "cache/i")] (u "cache/o")) false (fun _ => None)).
    set (w1 := after w0 (call 9%nat w0 true 3 0)).
    exists (wrote w1 dep_f {| content := [7]; mtime := 12 |}). eexists. split; [|split].
    + apply re_write; [|split].
      * apply re_call with w0; [apply re_start; [repeat constructor; intros []|]|].
        -- intros q [[] ->]; reflexivity.
        -- exists 9%nat, true, 3, 0. eexists. vm_compute. reflexivity.
      * intros [[] E]; discriminate.
      * intros [] y _ D; vm_compute in D; injection D as <-; reflexivity.
    + vm_compute. reflexivity.
    + apply ev_call with 10; [|apply ev_ret]. apply ev_read. apply ev_ret.
Qed.
Print Assumptions C126_direct_refuted.
(** and once the inner cache is gone, the outer call fails. *)
Theorem C126_removed_refuted : let the := two [DepPath (u "cache/i")] (u "cache/o") in
  let call := zcalls the false (fun _ => None) in
  exists w w', reached the (some_call call) w /\ call 9%nat w true 3 0 = Some (w', Returned (Raise OSError)) /\
    evals the (contents (files w)) (method (the true) 3 0) (Ok 16).
Proof.
  cbv zeta. set (call := zcalls (two [DepPath (u "cache/i")] (u "cache/o")) false (fun _ => None)).
  set (w1 := after w0 (call 9%nat w0 true 3 0)). exists (removed w1 (u "cache/i")). eexists. split; [|split].
  - apply re_remove. apply re_call with w0; [apply re_start; [repeat constructor; intros []|]|].
    + intros q [[] ->]; reflexivity.
    + exists 9%nat, true, 3, 0. eexists. vm_compute. reflexivity.
  - vm_compute. reflexivity.
  - apply ev_call with 8; [|apply ev_ret]. apply ev_read. apply ev_ret.
Qed.
Print Assumptions C126_removed_refuted.
(** Two methods with one cache file get one another's values. *)
Theorem C126_shared_file_refuted : let the := two [DepPath dep_f] (u "cache/i") in
  let call := zcalls the false (fun _ => None) in
  complete the /\ exists w w', reached the (some_call call) w /\ call 9%nat w true 3 0 = Some (w', Returned (Ok 8)) /\
    evals the (contents (files w)) (method (the true) 3 0) (Ok 16).
Proof.
  cbv zeta. split; [apply two_complete; intros q ->; left; left; reflexivity|].
  set (call := zcalls (two [DepPath dep_f] (u "cache/i")) false (fun _ => None)).
  exists (after w0 (call 9%nat w0 false 3 0)). eexists. split; [|split].
  - apply re_call with w0; [apply re_start; [repeat constructor; intros []|]|].
    + intros q [[] ->]; reflexivity.
    + exists 9%nat, false, 3, 0. eexists. vm_compute. reflexivity.
  - vm_compute. reflexivity.
  - apply ev_call with 8; [|apply ev_ret]. apply ev_read. apply ev_ret.
Qed.
Print Assumptions C126_shared_file_refuted.

(** ** C127: CACHE_DEBUG *)
(** Nothing is printed without it; *)
Theorem C127_quiet : forall F O (the : F -> cached F O) set_order oeq none is_none dump load encode decode readable writable now fate show n w p w' o,
  exec the set_order oeq none is_none dump load encode decode readable writable now fate false show n w p = Some (w', o) -> printed w' = printed w.
Proof.
  intros F O the so oeq none isn dump load enc dec re wr now fate show n w p w' o.
  exact (exec_quiet the so oeq none isn dump load enc dec re wr now fate show n w p w' o).
Qed.
Print Assumptions C127_quiet.
(** with it, all results and files are the same if the lines can be printed; *)
Theorem C127_same : forall F O (the : F -> cached F O) set_order oeq none is_none dump load encode decode readable writable now fate show show' n w w0 p,
  (forall l, show l = None) -> same_state w w0 ->
  match exec the set_order oeq none is_none dump load encode decode readable writable now fate true show n w p,
        exec the set_order oeq none is_none dump load encode decode readable writable now fate false show' n w0 p with
  | Some (w', o), Some (w0', o') => o = o' /\ same_state w' w0'
  | None, None => True
  | _, _ => False
  end.
Proof.
  intros F O the so oeq none isn dump load enc dec re wr now fate show show' n w w0 p Sh SS.
  exact (exec_same the so oeq none isn dump load enc dec re wr now fate show show' n Sh w w0 p SS).
Qed.
Print Assumptions C127_same.
(** and the lines of a call that returns a value say truly whether it was found or had to be computed, with the
    lines of the calls within between, and as many stores as were made. *)
Theorem C127_lines : forall F O (the : F -> cached F O) set_order oeq none is_none dump load encode decode readable writable now fate show n w f a p w' v,
  call the set_order oeq none is_none dump load encode decode readable writable now fate true show n w f a p = Some (w', Returned (Ok v)) ->
  (printed w' = printed w ++ [u "[cache hit: " ++ basename (cache_file (the f)) ++ u "]"] /\ same_state w' w) \/
  exists m inner, printed w' = printed w ++ (u "[cache miss: " ++ basename (cache_file (the f)) ++ u "]") :: inner ++
                                            [u "[storing: " ++ basename (cache_file (the f)) ++ u "]"] /\
    told_lines the m inner /\ stores w' = (stores w + S m)%nat.
Proof.
  intros F O the so oeq none isn dump load enc dec re wr now fate show n w f a p w' v.
  exact (call_told the so oeq none isn dump load enc dec re wr now fate show n w f a p w' v).
Qed.
Print Assumptions C127_lines.
(** Whatever the end of a call, the lines printed are the beginning of such a report. *)
Theorem C127_begun : forall F O (the : F -> cached F O) set_order oeq none is_none dump load encode decode readable writable now fate show n w f a p w' o,
  call the set_order oeq none is_none dump load encode decode readable writable now fate true show n w f a p = Some (w', o) ->
  exists ls, printed w' = printed w ++ ls /\ exists m rest, told_lines the m (ls ++ rest).
Proof.
  intros F O the so oeq none isn dump load enc dec re wr now fate show n w f a p w' o.
  exact (exec_told_any the so oeq none isn dump load enc dec re wr now fate show n w _ w' o).
Qed.
Print Assumptions C127_begun.
(** the name in the line is what follows the last slash *)
Theorem C127_basename : forall q, ~ In (u1 "/") (basename q) /\
  ((~ In (u1 "/") q /\ basename q = q) \/ exists d, q = d ++ u "/" ++ basename q).
Proof.
  assert (G : forall q found, (In (u1 "/") q -> ~ In (u1 "/") (basename_ q found) /\ exists d, q = d ++ u "/" ++ basename_ q found) /\
                              (~ In (u1 "/") q -> basename_ q found = found)).
  { induction q as [|c q IH]; intros found; cbn [basename_]; [split; [intros []|reflexivity]|].
    destruct (Z.eqb_spec c (u1 "/")) as [->|N].
    - split; [intros _|intros X; destruct X; left; reflexivity].
      destruct (in_dec Z.eq_dec (u1 "/") q) as [I|I].
      + destruct (proj1 (IH q) I) as [A [d E]]. split; [exact A|]. exists (u1 "/" :: d). cbn [app]. f_equal. exact E.
      + rewrite (proj2 (IH q) I). split; [exact I|]. exists []. reflexivity.
    - split.
      + intros [X|X]; [congruence|]. destruct (proj1 (IH found) X) as [A [d E]]. split; [exact A|]. exists (c :: d). cbn [app]. f_equal. exact E.
      + intros X. apply (proj2 (IH found)). intros Y. apply X. right. exact Y. }
  intros q. unfold basename. destruct (in_dec Z.eq_dec (u1 "/") q) as [I|I].
  - destruct (proj1 (G q q) I) as [A B]. split; [exact A|right; exact B].
  - rewrite (proj2 (G q q) I). split; [exact I|left; split; [exact I|reflexivity]].
Qed.
Print Assumptions C127_basename.
(** A line that cannot be printed makes the call fail, for a name the terminal has no letters for, say, even
    when the value was there. *)
Theorem C127_unprintable_refuted :
  let the := two [DepPath dep_f] (u "cache/o") in
  let call := zcalls the true (fun l => if forallb (fun c => c <? 128) l then None else Some UnicodeError) in
  let the' := two [DepPath dep_f] (u "cache/外") in
  let call' := fun debug => zcalls the' debug (fun l => if forallb (fun c => c <? 128) l then None else Some UnicodeError) in
  let w1 := after w0 (call' false 9%nat w0 true 3 0) in
  value (call 9%nat w0 true 3 0) = Some (Returned (Ok 16)) /\
  value (call' false 9%nat w0 true 3 0) = Some (Returned (Ok 16)) /\ value (call' true 9%nat w0 true 3 0) = Some (Returned (Raise UnicodeError)) /\
  value (call' false 9%nat w1 true 3 0) = Some (Returned (Ok 16)) /\ value (call' true 9%nat w1 true 3 0) = Some (Returned (Raise UnicodeError)).
Proof. repeat split; vm_compute; reflexivity. Qed.
Print Assumptions C127_unprintable_refuted.
Example C127_case : let the := two [DepPath dep_f] (u "cache/o") in
  exists w' v, zcalls the true (fun _ => None) 9%nat w0 true 3 0 = Some (w', Returned (Ok v)) /\
    told_lines the 1 [u "[cache miss: i]"; u "[storing: i]"] /\ basename (u "cache/o") = u "o".
Proof.
  cbv zeta. do 2 eexists. split; [vm_compute; reflexivity|]. split; [|reflexivity].
  exact (tl_miss (two [DepPath dep_f] (u "cache/o")) false 0 [] 0 [] (tl_nil _) (tl_nil _)).
Qed.
