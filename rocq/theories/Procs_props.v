(* Procs_props.v -- property C109: processes sharing a cache file *)
From Verif Require Import Base PyStr Common_model SmartCache_model SmartCache_spec SmartCache_proofs Procs_model Procs_spec Procs_proofs.

(** ** C109.  Any number of processes, any interleaving of their system calls,
    any of them killed at any point.  If every value and its arguments fit in
    one buffer, every call that returns a value returns the method's value for
    its own arguments. *)
Theorem C109_small_caches_partial : forall set_order O oeq none is_none dump load readable writable bufsize cut method cache_file deps,
  @pickle_ok O oeq none is_none dump load (fun _ b => b) (fun _ b => b) -> buffered bufsize cut -> respects oeq method ->
  forall calls,
  (forall a p v, In (a, p) calls -> method a p = Ok v -> exists D, dump3 dump a p v = (D, None) /\ (length D <= bufsize)%nat) ->
  forall st schedule,
  (* the file is absent, empty, or starts with the complete record of a call *)
  (length (bytes_of cache_file st) <= bufsize)%nat ->
  (bytes_of cache_file st = [] \/ exists D r, right_bytes dump method calls D /\ bytes_of cache_file st = D ++ r) ->
  forall i a p v,
  nth_error (snd (crun set_order oeq none is_none dump load readable writable bufsize cut method cache_file deps
                    (st, starting calls) schedule)) i = Some (Done a p (Ok v)) ->
  nth_error calls i = Some (a, p) /\ exists v', method a p = Ok v' /\ oeq v v' = true.
Proof.
  intros so O oeq none is_none dump load readable writable bufsize cut method f deps K B M calls S st schedule F1 F2 i a p v.
  exact (small_right so oeq none is_none dump load readable writable bufsize cut method f deps K B M calls S st schedule i a p v (conj F1 F2)).
Qed.
Print Assumptions C109_small_caches_partial.

(** Records of any size, however they are cut: if all calls produce the same
    record and no process writes after another one has opened the file for
    writing, the same holds. *)
Theorem C109_one_record_partial : forall set_order O oeq none is_none dump load readable writable bufsize cut method cache_file deps,
  @pickle_ok O oeq none is_none dump load (fun _ b => b) (fun _ b => b) -> buffered bufsize cut -> respects oeq method ->
  forall calls D, right_bytes dump method calls D ->
  (forall a p v, In (a, p) calls -> method a p = Ok v -> dump3 dump a p v = (D, None)) ->
  forall st schedule, (exists k, bytes_of cache_file st = firstn k D) ->
  let step := cstep set_order oeq none is_none dump load readable writable bufsize cut method cache_file deps in
  exclusive step None (st, starting calls) schedule ->
  forall i a p v,
  nth_error (snd (crun set_order oeq none is_none dump load readable writable bufsize cut method cache_file deps
                    (st, starting calls) schedule)) i = Some (Done a p (Ok v)) ->
  nth_error calls i = Some (a, p) /\ exists v', method a p = Ok v' /\ oeq v v' = true.
Proof.
  intros so O oeq none is_none dump load readable writable bufsize cut method f deps K B M calls D R S st schedule F step X i a p v.
  exact (excl_right so oeq none is_none dump load readable writable bufsize cut method f deps K B M calls D R S st schedule i a p v F X).
Qed.
Print Assumptions C109_one_record_partial.

(** no call waits for another process: after a bounded number of its own steps
    it has returned or raised, whatever the others do *)
Theorem C109_no_waiting : forall set_order O oeq none is_none dump load readable writable bufsize cut method cache_file deps,
  buffered bufsize cut -> (1 <= bufsize)%nat ->
  forall calls L, (forall a p v, In (a, p) calls -> method a p = Ok v -> (length (fst (dump3 dump a p v)) <= L)%nat) ->
  forall st schedule i a p, (length (bytes_of cache_file st) <= L)%nat -> nth_error calls i = Some (a, p) ->
  (L + L + 4 <= turns i schedule)%nat ->
  exists r, nth_error (snd (crun (O := O) set_order oeq none is_none dump load readable writable bufsize cut method cache_file deps
                              (st, starting calls) schedule)) i = Some (Done a p r).
Proof.
  intros so O oeq none is_none dump load readable writable bufsize cut method f deps B B1 calls L S st schedule i a p.
  exact (call_ends so oeq none is_none dump load readable writable bufsize cut method f deps B calls L B1 S st schedule i a p).
Qed.
Print Assumptions C109_no_waiting.

(** a process on its own does what the sequential model of the proxy does *)
Theorem C109_alone : forall set_order O oeq none is_none dump load readable writable bufsize cut method cache_file deps,
  @pickle_ok O oeq none is_none dump load (fun _ b => b) (fun _ b => b) -> buffered bufsize cut -> (1 <= bufsize)%nat ->
  forall now st a p,
  let call := disk_call set_order oeq none is_none dump load (fun _ b => b) (fun _ b => b) readable writable
                (fun w a p => (w, method a p)) cache_file deps now (tt, st) a p in
  exists k, forall n, (k <= n)%nat ->
    crun set_order oeq none is_none dump load readable writable bufsize cut method cache_file deps
      (st, starting [(a, p)]) (repeat (0%nat, now) n) = (snd (fst call), [Done a p (snd call)]).
Proof.
  intros so O oeq none is_none dump load readable writable bufsize cut method f deps K B B1 now st a p.
  exact (alone so oeq none is_none dump load readable writable bufsize cut method f deps K B now B1 st a p).
Qed.
Print Assumptions C109_alone.

(** a record larger than the buffer: a process that is half way through the
    file when another one replaces it gets the other one's value, although there
    is only one writer at a time *)
Theorem C109_mixed_refuted : respects (list_eqb Z.eqb) lmethod /\ buffered 4 (chop 4) /\
  let calls := [([1], []); ([1], []); ([2], [])] in
  let schedule := by_turns [(0, 9); (1, 2); (2, 12); (1, 5)]%nat in
  exclusive (lstep 4) None (zfs 5 1, starting calls) schedule /\
  nth_error (snd (lrun 4 (zfs 5 1, starting calls) schedule)) 1 = Some (Done [1] [] (Ok [8; 8; 8; 8; 8; 8])) /\
  lmethod [1] [] = Ok [7; 7; 7; 7; 7; 7].
Proof.
  split; [exact lrespects|]; split; [apply chop_buffered; lia|]; cbn zeta; split; [vm_compute; repeat split|].
  split; vm_compute; reflexivity.
Qed.
Print Assumptions C109_mixed_refuted.

(** two processes storing the same value: a call finds a hole in it, and goes on
    finding it once the first one has finished and the second one was killed *)
Theorem C109_hole_refuted :
  let calls := [([1], []); ([1], []); ([1], []); ([1], [])] in
  let schedule := by_turns [(0, 1); (1, 1); (0, 3); (1, 2); (0, 1); (2, 6); (0, 1); (3, 6)]%nat in
  let out := snd (lrun 4 (zfs 5 1, starting calls) schedule) in
  nth_error out 0 = Some (Done [1] [] (Ok [7; 7; 7; 7; 7; 7])) /\
  nth_error out 2 = Some (Done [1] [] (Ok [0; 0; 0; 0; 7; 7])) /\
  nth_error out 3 = Some (Done [1] [] (Ok [0; 0; 0; 0; 7; 7])) /\
  bytes_of cache_f (fst (lrun 4 (zfs 5 1, starting calls) schedule)) = [1; 1; 0; 6; 0; 0; 0; 0; 7; 7].
Proof. cbn zeta; repeat split; vm_compute; reflexivity. Qed.
Print Assumptions C109_hole_refuted.

(** the same four processes with a buffer that holds the record *)
Example C109_case :
  pickle_ok (list_eqb Z.eqb) [-1] lnone ldump lload (fun _ b => b) (fun _ b => b) /\ buffered 10 (chop 10) /\
  let calls := [([1], []); ([1], []); ([2], []); ([1], [])] in
  (forall a p v, In (a, p) calls -> lmethod a p = Ok v -> exists D, dump3 ldump a p v = (D, None) /\ (length D <= 10)%nat) /\
  map (fun q => match q with Done a _ r => (a, r) | _ => ([], Raise OutOfFuel) end)
    (snd (lrun 10 (zfs 5 1, starting calls) (by_turns [(0, 1); (1, 1); (0, 2); (2, 2); (1, 1); (0, 1); (2, 3); (3, 2); (1, 1); (3, 1); (0, 3); (1, 3); (2, 5); (3, 5)]%nat))) =
  [([1], Ok [7; 7; 7; 7; 7; 7]); ([1], Ok [7; 7; 7; 7; 7; 7]); ([2], Ok [8; 8; 8; 8; 8; 8]); ([1], Ok [7; 7; 7; 7; 7; 7])].
Proof.
  split; [exact lpickle_ok|]; split; [apply chop_buffered; lia|]; cbn zeta; split; [|vm_compute; reflexivity].
  intros a p v I M; repeat (destruct I as [I|I]; [injection I as <- <-; vm_compute in M; injection M as <-; eexists; split; [reflexivity|cbn; lia]|]).
  destruct I.
Qed.

(** one record of ten bytes through a buffer of four, with a killed writer (0)
    and a reader (2) surprised by its successor (1) *)
Example C109_one_record_case :
  let calls := [([1], []); ([1], []); ([1], [])] in
  let schedule := by_turns [(0, 4); (2, 3); (1, 4); (1, 9); (2, 9)]%nat in
  right_bytes ldump lmethod calls [1; 1; 0; 6; 7; 7; 7; 7; 7; 7] /\
  exclusive (lstep 4) None (zfs 5 1, starting calls) schedule /\
  snd (lrun 4 (zfs 5 1, starting calls) schedule) =
    [Writing [1] [] [7; 7; 7; 7; 7; 7] 8 [[7; 7]] None; Done [1] [] (Ok [7; 7; 7; 7; 7; 7]); Done [1] [] (Ok [7; 7; 7; 7; 7; 7])].
Proof.
  cbn zeta; split; [|split; [vm_compute; repeat split|vm_compute; reflexivity]].
  exists [1], [], [7; 7; 7; 7; 7; 7]; split; [left; reflexivity|split; reflexivity].
Qed.
