(* Interrupt_props.v -- property C132: exceptions from outside that strike in calls
   through memory_proxy and disk_proxy *)
From Verif Require Import Base PyStr Common_model SmartCache_model SmartCache_spec SmartCache_proofs Interrupt_model Interrupt_spec Interrupt_proofs.

(** ** C132.  With nothing striking, the call is the one of C25-C28, and the
    streams open are those that were *)
Theorem C132_undisturbed : forall set_order O W oeq none is_none dump load encode decode readable writable method halted strike,
  is_none none = true -> quiet strike -> forall cache_file deps now a p w, sound w ->
  let '(w', r) := @call_struck set_order O W oeq none is_none dump load encode decode readable writable method halted strike cache_file deps now a p w in
  ((outside w', files w'), r) =
    disk_call set_order oeq none is_none dump load encode decode readable writable method cache_file deps now (outside w, files w) a p /\
  open w' = open w.
Proof.
  intros so O W oeq none is_none dump load encode decode readable writable method halted strike NI Q f deps now a p w SD.
  destruct (call_struck so oeq none is_none dump load encode decode readable writable method halted strike f deps now a p w) as [w' r] eqn:C.
  destruct (call_spec so oeq none is_none dump load encode decode readable writable method halted strike NI f deps now a p w SD w' r C)
    as [new [_ [_ [_ [_ [L [_ QN]]]]]]].
  specialize (QN Q); rewrite (last_strike_calm new QN), QN in L; destruct L as [L1 [L2 _]]; split; assumption.
Qed.
Print Assumptions C132_undisturbed.

(** the outcome is told by what struck: the last exception that struck while the
    cache file was not being read ends the call; if there is none, and something
    struck while it was being read, the call goes as if the file could not be
    opened: the method runs *)
Theorem C132_outcome_partial : forall set_order O W oeq none is_none dump load encode decode readable writable method halted strike,
  is_none none = true -> forall cache_file deps now a p w, sound w ->
  let '(w', r) := @call_struck set_order O W oeq none is_none dump load encode decode readable writable method halted strike cache_file deps now a p w in
  passed w' = passed w ++ since w w' /\
  match last_strike (since w w') with
  | Some e => r = Raise e
  | None =>
      ((outside w', files w'), r) =
        disk_call set_order oeq none is_none dump load encode decode (match struck (since w w') with [] => readable | _ => fun _ => false end)
          writable method cache_file deps now (outside w, files w) a p /\
      (struck (since w w') <> [] -> In (44%nat, None) (since w w'))
  end /\
  (length (filter (fun x => reading (fst x)) (struck (since w w'))) <= 2)%nat.
Proof.
  intros so O W oeq none is_none dump load encode decode readable writable method halted strike NI f deps now a p w SD.
  destruct (call_struck so oeq none is_none dump load encode decode readable writable method halted strike f deps now a p w) as [w' r] eqn:C.
  destruct (call_spec so oeq none is_none dump load encode decode readable writable method halted strike NI f deps now a p w SD w' r C)
    as [new [P [_ [_ [LN [L _]]]]]].
  assert (S : since w w' = new) by (unfold since; rewrite P, skipn_app, Nat.sub_diag, skipn_all; reflexivity).
  rewrite S; split; [exact P|split; [|exact LN]].
  destruct (last_strike new); [exact L|exact (proj2 L)].
Qed.
Print Assumptions C132_outcome_partial.

(** a call that returns leaves no stream open; one that raises leaves at most one,
    which is closed once nobody refers to the exception *)
Theorem C132_streams : forall set_order O W oeq none is_none dump load encode decode readable writable method halted strike,
  is_none none = true -> forall cache_file deps now a p w, sound w ->
  let '(w', r) := @call_struck set_order O W oeq none is_none dump load encode decode readable writable method halted strike cache_file deps now a p w in
  (forall v, r = Ok v -> open w' = open w) /\
  (exists l, open w' = open w ++ l /\ (length l <= 1)%nat /\ Forall (fun hs => (made w <= fst hs)%nat) l) /\
  open (release encode (made w) w') = open w.
Proof.
  intros so O W oeq none is_none dump load encode decode readable writable method halted strike NI f deps now a p w SD.
  destruct (call_struck so oeq none is_none dump load encode decode readable writable method halted strike f deps now a p w) as [w' r] eqn:C.
  destruct (call_spec so oeq none is_none dump load encode decode readable writable method halted strike NI f deps now a p w SD w' r C)
    as [new [_ [_ [OP _]]]].
  split; [|split].
  - intros v ->; destruct OP as [OP|[h [s [e [_ [_ X]]]]]]; [exact OP|discriminate].
  - destruct OP as [OP|[h [s [e [L [OP _]]]]]].
    + exists []; rewrite app_nil_r; repeat split; [exact OP|cbn; lia|constructor].
    + exists [(h, s)]; rewrite OP, dset_absent; [repeat split; [cbn; lia|repeat constructor; cbn; lia]|].
      intros X; destruct SD as [_ F]; rewrite Forall_forall in F; specialize (F _ X); lia.
  - apply (@release_open O W encode w w' SD).
    destruct OP as [OP|[h [s [e [L1 [L2 _]]]]]]; [left; exact OP|right; exists h, s, e; repeat split; [lia|lia|exact L2]].
Qed.
Print Assumptions C132_streams.

(** the cache file is left as it was, or holds a beginning of a store of the right
    value *)
Theorem C132_files : forall set_order O W oeq none is_none dump load encode decode readable writable method halted strike,
  is_none none = true -> forall deps g, @depends_on O W oeq deps method g -> leaves_files halted ->
  forall cache_file now a p w, sound w ->
  let '(w', r) := call_struck set_order oeq none is_none dump load encode decode readable writable method halted strike cache_file deps now a p w in
  let st := files (release encode (made w) w') in
  st = files w \/
  exists v b, g a p (contents (files w)) = Ok v /\ begins dump b a p v /\ st = dset cache_file {| content := encode cache_file b; mtime := now |} (files w).
Proof.
  intros so O W oeq none is_none dump load encode decode readable writable method halted strike NI deps g D LF f now a p w SD.
  destruct (call_struck so oeq none is_none dump load encode decode readable writable method halted strike f deps now a p w) as [w' r] eqn:C.
  destruct (call_spec so oeq none is_none dump load encode decode readable writable method halted strike NI f deps now a p w SD w' r C)
    as [new [_ [_ [_ [_ [_ [F _]]]]]]].
  cbv zeta; destruct F as [->|[[e ->]|[o1 [st1 [r1 [MD F]]]]]].
  - left; reflexivity.
  - left; apply LF.
  - destruct (d_method _ _ _ _ D (outside w, files w) a p) as [x MM]; rewrite MM in MD; cbn [snd] in MD; injection MD as <- <- <-.
    destruct F as [->|[v [b [G [BG ->]]]]]; [left; reflexivity|right; exists v, b; repeat split; assumption].
Qed.
Print Assumptions C132_files.

(** after every history of calls struck at any points, crashes, and files written
    and removed by others, a call that returns, struck or not, returns the right
    value *)
Theorem C132_right : forall set_order, (forall l, Permutation (set_order l) l) ->
  forall O W oeq none is_none dump load encode decode readable writable,
  @pickle_ok O oeq none is_none dump load encode decode ->
  forall method halted strike cache_file deps g, @depends_on O W oeq deps method g -> ~ watched deps cache_file -> leaves_files halted ->
  forall w h, sound w -> NoDup (dkeys (files w)) -> dget cache_file (files w) = None -> late_writes cache_file deps [] h ->
  let w1 := fst (run_struck set_order oeq none is_none dump load encode decode readable writable method halted strike cache_file deps w h) in
  forall now a p v,
  snd (call_struck set_order oeq none is_none dump load encode decode readable writable method halted strike cache_file deps now a p w1) = Ok v ->
  exists v', g a p (contents (files w1)) = Ok v' /\ oeq v v' = true.
Proof.
  intros so sok O W oeq none is_none dump load encode decode readable writable K method halted strike f deps g D NS LF w h SD N E L w1 now a p v.
  exact (proj1 (history_struck so sok oeq none is_none dump load encode decode readable writable K method halted strike f deps g D NS LF w h SD N E L now a p) v).
Qed.
Print Assumptions C132_right.

(** whoever goes on undisturbed after such a history gets an answer unless a
    dependency cannot be checked, the method fails, or its value cannot be stored *)
Theorem C132_afterwards : forall set_order, (forall l, Permutation (set_order l) l) ->
  forall O W oeq none is_none dump load encode decode readable writable,
  @pickle_ok O oeq none is_none dump load encode decode ->
  forall method halted strike strike' cache_file deps g, @depends_on O W oeq deps method g -> ~ watched deps cache_file -> leaves_files halted ->
  forall w h, sound w -> NoDup (dkeys (files w)) -> dget cache_file (files w) = None -> late_writes cache_file deps [] h -> quiet strike' ->
  let w1 := fst (run_struck set_order oeq none is_none dump load encode decode readable writable method halted strike cache_file deps w h) in
  forall now a p,
  match snd (call_struck set_order oeq none is_none dump load encode decode readable writable method halted strike' cache_file deps now a p w1) with
  | Ok v => exists v', g a p (contents (files w1)) = Ok v' /\ oeq v v' = true
  | Raise e =>
      needs_update set_order (files w1) cache_file deps = Raise e \/ g a p (contents (files w1)) = Raise e \/
      exists v, g a p (contents (files w1)) = Ok v /\ snd (store_cache_object dump encode writable (files w1) now v cache_file a p) = Raise e
  end.
Proof.
  intros so sok O W oeq none is_none dump load encode decode readable writable K method halted strike strike' f deps g D NS LF w h SD N E L Q w1 now a p.
  assert (I0 : inv oeq none is_none load decode readable f deps g [] (files w)) by (split; [exact N|intros x X; congruence]).
  destruct (run_right so sok oeq none is_none dump load encode decode readable writable K method halted strike f deps g D NS LF h [] w SD I0 L) as [T [I SD1]].
  fold w1 in I, SD1.
  pose proof (C132_undisturbed so O W oeq none is_none dump load encode decode readable writable method halted strike' (ok_none _ _ _ _ _ _ _ K) Q f deps now a p w1 SD1) as U.
  destruct (call_struck so oeq none is_none dump load encode decode readable writable method halted strike' f deps now a p w1) as [w' r] eqn:C; cbn [snd].
  destruct U as [U _].
  destruct r as [v|e].
  - exact (proj1 (call_right so sok oeq none is_none dump load encode decode readable writable K method halted strike' f deps g D NS LF T now w1 a p w' (Ok v) SD1 I C) v eq_refl).
  - apply (disk_call_total so oeq none is_none dump load encode decode readable writable K method f deps g D now (outside w1, files w1) a p e).
    rewrite <- U; reflexivity.
Qed.
Print Assumptions C132_afterwards.

(** memory_proxy: whatever strikes in whichever calls, an answer is the method's,
    and so is the exception unless it struck; a call nothing strikes in is answered
    as the method would *)
Theorem C132_memory : forall O V S oeq hashable method halted g,
  (forall (s : S) k, snd (method s k) = g k) -> (forall k k', @key_eq O oeq k k' = true -> g k = g k') ->
  forall s calls, Forall (fun c => key_hashable hashable (snd c) = true) calls ->
  Forall2 (fun c r => @answers V (g (snd c)) (strikes_of (fst c)) r) calls (snd (memory_run_struck oeq hashable method halted s [] calls)).
Proof.
  intros O V S oeq hashable method halted g D R s calls H.
  exact (mrun_right oeq hashable method halted g D R calls s [] (Forall_nil _) H).
Qed.
Print Assumptions C132_memory.

(** ** Cases *)
(* the world of C26's cases; a Ctrl-C is UserError 0 and strikes at the [n]-th
   point, with one byte of a pickle written *)
Definition ctrl_c (n m : nat) : option (exn * nat) := if Nat.eqb n m then Some (UserError 0, 1%nat) else None.
Definition w0 (st : fs) : @world nat := mkworld 0%nat st 2 [] [].
Notation zstruck n := (call_struck (fun l => l) Z.eqb (-1) znone zdump zload zid zid any any zmethod (fun _ w _ _ => w) (ctrl_c n) cache_f [DepPath dep_f] 10 3 0).
Notation zhistory s := (run_struck (fun l => l) Z.eqb (-1) znone zdump zload zid zid any any zmethod (fun _ w _ _ => w) s cache_f [DepPath dep_f]).
Definition stored : fs := zfs 5 1 ++ [(cache_f, {| content := [3; 0; 0; 0; 8; 0]; mtime := 9 |})].

(** a Ctrl-C while the cache file is read is lost: the call returns, having run the
    method although the cache was fresh *)
Theorem C132_interrupts_end_calls_refuted : forall n, (2 <= n <= 10)%nat ->
  let '(w', r) := zstruck n (w0 stored) in
  r = Ok 8 /\ outside w' = 1%nat /\ map snd (struck (passed w')) = [UserError 0] /\
  snd (zcall 10 (0%nat, stored) 3 0) = Ok 8 /\ fst (fst (zcall 10 (0%nat, stored) 3 0)) = 0%nat.
Proof.
  intros n H.
  assert (C : n = 2%nat \/ n = 3%nat \/ n = 4%nat \/ n = 5%nat \/ n = 6%nat \/ n = 7%nat \/ n = 8%nat \/ n = 9%nat \/ n = 10%nat) by lia.
  repeat destruct C as [C|C]; subst n; vm_compute; repeat split.
Qed.
Print Assumptions C132_interrupts_end_calls_refuted.

(* anywhere else it ends the call; the file keeps what was written, and the next
   call is right *)
Example C132_case_struck :
  map (fun n => let '(w', r) := zstruck n (w0 stored) in (r, map fst (struck (passed w')))) [0; 1; 11; 12]%nat =
    [(Raise (UserError 0), [38%nat]); (Raise (UserError 0), [112%nat]); (Raise (UserError 0), [40%nat]); (Raise (UserError 0), [53%nat])].
Proof. vm_compute; reflexivity. Qed.
Example C132_case_store :
  map (fun n => let '(w', r) := zstruck n (w0 (zfs 5 1)) in
       (r, map fst (struck (passed w')), length (open w'), option_map content (dget cache_f (files w')),
        option_map content (dget cache_f (files (release zid 2 w'))))) [3; 4; 5; 6; 7; 8; 9; 10; 11; 12; 13; 14]%nat =
    [(Raise (UserError 0), [40%nat], 0%nat, None, None);
     (Raise (UserError 0), [44%nat], 0%nat, None, None);
     (Raise (UserError 0), [47%nat], 0%nat, None, None);
     (Raise (UserError 0), [149%nat], 0%nat, None, None);
     (Raise (UserError 0), [149%nat], 1%nat, Some [], Some []);
     (Raise (UserError 0), [150%nat], 0%nat, Some [3], Some [3]);
     (Raise (UserError 0), [151%nat], 0%nat, Some [3; 0; 0], Some [3; 0; 0]);
     (Raise (UserError 0), [152%nat], 0%nat, Some [3; 0; 0; 0; 8], Some [3; 0; 0; 0; 8]);
     (Raise (UserError 0), [149%nat], 1%nat, Some [], Some [3; 0; 0; 0; 8; 0]);
     (Raise (UserError 0), [149%nat], 0%nat, Some [3; 0; 0; 0; 8; 0], Some [3; 0; 0; 0; 8; 0]);
     (Raise (UserError 0), [48%nat], 0%nat, Some [3; 0; 0; 0; 8; 0], Some [3; 0; 0; 0; 8; 0]);
     (Ok 8, [], 0%nat, Some [3; 0; 0; 0; 8; 0], Some [3; 0; 0; 0; 8; 0])].
Proof. vm_compute; reflexivity. Qed.
Example C132_case_history :
  let h := [ECall 10 3 0; ECall 11 3 0; EWrite dep_f {| content := [7]; mtime := 12 |}; ECall 13 3 0; ECall 14 3 0] in
  late_writes cache_f [DepPath dep_f] [] h /\ ~ watched [DepPath dep_f] cache_f /\ sound (w0 (zfs 5 1)) /\
  leaves_files (fun (_ : exn) (w : nat * fs) (_ _ : Z) => w) /\
  snd (zhistory (fun n => if Nat.eqb n 10 || Nat.eqb n 15 then Some (UserError 0, 1%nat) else None) (w0 (zfs 5 1)) h) =
    [Raise (UserError 0); Ok 8; Ok 10; Ok 10].
Proof.
  cbn zeta; split; [|split; [|split; [|split]]].
  - cbn [late_writes]; split; [discriminate|split; [|exact I]].
    intros _; repeat constructor.
  - intros [[X|[]]|[m [[X|[]] _]]]; discriminate.
  - split; constructor.
  - intros e w a p; reflexivity.
  - vm_compute; reflexivity.
Qed.
Example C132_case_memory :
  let m := fun (s : nat) (k : list Z * list (str * Z)) => (S s, match fst k with [x] => Ok (x + 1) | _ => Raise TypeError end) in
  let quiet := Build_strikes None None None None in
  memory_run_struck Z.eqb (fun _ => true) m (fun _ s _ => s) 0%nat []
    [(Build_strikes None None (Some (UserError 0)) None, ([4], [])); (Build_strikes None None None (Some (UserError 0)), ([4], []));
     (Build_strikes None (Some (UserError 0)) None None, ([4], [])); (quiet, ([5], []))] =
  (3%nat, [(([4], []), 5); (([5], []), 6)], [Raise (UserError 0); Raise (UserError 0); Ok 5; Ok 6]).
Proof. vm_compute; reflexivity. Qed.
