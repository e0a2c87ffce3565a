(* Common_props.v -- properties C29-C31 of common.py *)
From Verif Require Import Base PyStr Common_model Common_spec Common_proofs.

(** ** C29 *)
Theorem C29_filter_comments : forall lines,
  keeps (fun line => ~ exists r, line = u1 "#" :: r) lines (filter_comments lines).
Proof. exact filter_comments_keeps. Qed.
Print Assumptions C29_filter_comments.

(** the specification determines the result *)
Theorem C29_unique : forall lines out,
  keeps (fun line => ~ exists r, line = u1 "#" :: r) lines out -> out = filter_comments lines.
Proof. intros lines out K; exact (keeps_unique _ _ _ _ K (filter_comments_keeps lines)). Qed.
Print Assumptions C29_unique.

Example C29_case : filter_comments [u "#a"; u "b"; u ""; u " #c"; u "#"] = [u "b"; u ""; u " #c"].
Proof. vm_compute; reflexivity. Qed.

(** ** C30, for Python 2 and 3, every codec registry and every outcome of open *)
Theorem C30_conflicting_mode : forall py2 codec os_open filename mode encoding,
  In (u1 "r") mode -> In (u1 "w") mode ->
  sopen py2 codec os_open filename mode encoding = ([], Raise PlainException).
Proof. exact sopen_both. Qed.
Print Assumptions C30_conflicting_mode.

Theorem C30_one_stream : forall py2 codec os_open filename mode encoding,
  ~ (In (u1 "r") mode /\ In (u1 "w") mode) ->
  ~ (exists e, encoding = Some e /\ e <> u "byte" /\ py2 = true /\ codec e = false) ->
  exists h s, chosen filename mode s /\
    sopen py2 codec os_open filename mode encoding =
      ([s], match os_open s with Some e => Raise e | None => Ok (h, s) end) /\
    (py2 = false \/ encoding = None -> h = Identity).
Proof. exact sopen_one. Qed.
Print Assumptions C30_one_stream.

Theorem C30_choice_is_unique : forall name mode s t, chosen name mode s -> chosen name mode t -> s = t.
Proof. exact chosen_unique. Qed.
Print Assumptions C30_choice_is_unique.

(** Python 2 only: an unknown encoding is reported before anything is opened *)
Theorem C30_unknown_codec : forall py2 codec os_open filename mode encoding,
  ~ (In (u1 "r") mode /\ In (u1 "w") mode) ->
  (exists e, encoding = Some e /\ e <> u "byte" /\ py2 = true /\ codec e = false) ->
  sopen py2 codec os_open filename mode encoding = ([], Raise LookupError).
Proof. exact sopen_codec. Qed.
Print Assumptions C30_unknown_codec.

Example C30_case : let s := sopen false (fun _ => true) (fun _ => None) in
  s (u "a.gz") (u "rb") None = ([GzipFile (u "a.gz") (u "rb")], Ok (Identity, GzipFile (u "a.gz") (u "rb"))) /\
  fst (s (u "a.bz2") (u "w") (Some (u "utf8"))) = [BZ2File (u "a.bz2") (u "w")] /\
  fst (s (u "-") (u "r") None) = [Stdin] /\ fst (s (u "-") (u "a") None) = [Stdout] /\
  fst (s (u "a.gz2") (u "r") None) = [PlainFile (u "a.gz2") (u "r")].
Proof. vm_compute; repeat split. Qed.

(** ** C31 *)
(** stream_codec: UTF-8 under Python 2, the stream itself under Python 3 *)
Theorem C31_codec s : stream_codec true s = (Reader [117; 116; 102; 56], s) /\ stream_codec false s = (Identity, s).
Proof. split; reflexivity. Qed.
Print Assumptions C31_codec.
Theorem C31_caller_stream_untouched : forall A dflt i (body : nat -> streams -> streams * res A) w,
  reader dflt (Some i) body w = body i w.
Proof. exact @reader_given. Qed.
Print Assumptions C31_caller_stream_untouched.

Theorem C31_default_stream_closed : forall A dflt (body : nat -> streams -> streams * res A) w w1 i,
  dflt w = (w1, Ok i) -> is_open w1 i = true ->
  exists w', fst (reader dflt None body w) = w' /\ snd (reader dflt None body w) = snd (body i w1) /\
    is_open w' i = false /\ forall j, j <> i -> is_open w' j = is_open (fst (body i w1)) j.
Proof. exact @reader_default. Qed.
Print Assumptions C31_default_stream_closed.

Theorem C31_default_fails : forall A dflt (body : nat -> streams -> streams * res A) w w1 e,
  dflt w = (w1, Raise e) -> reader dflt None body w = (w1, Raise e).
Proof. exact @reader_default_fails. Qed.
Print Assumptions C31_default_fails.

Example C31_case :
  let dflt w := let '(w', i) := open_new w in (w', Ok i) in
  let body (i : nat) (w : streams) : streams * res Z := (w, Raise ValueError) in
  let w := {| opened := [3%nat]; next_id := 4%nat |} in
  is_open (fst (dflt w)) 4%nat = true /\
  reader dflt None body w = ({| opened := [3%nat]; next_id := 5%nat |}, Raise ValueError) /\
  reader dflt (Some 3%nat) body w = (w, Raise ValueError).
Proof. vm_compute; repeat split. Qed.
Example C29_case_keeps : keeps (fun line => ~ exists r, line = u1 "#" :: r) [u "# x"; u "a"; u " #b"; u "#"] [u "a"; u " #b"].
Proof.
  apply keeps_no; [intros N; apply N; eexists; reflexivity|].
  apply keeps_yes; [intros [r E]; discriminate E|].
  apply keeps_yes; [intros [r E]; discriminate E|].
  apply keeps_no; [intros N; apply N; eexists; reflexivity|apply keeps_nil].
Qed.
Example C30_case_chosen : chosen (u "d.gz") (u "rb") (GzipFile (u "d.gz") (u "rb")) /\ chosen (u "-") (u "w") Stdout.
Proof.
  split; [apply ch_gz; exists (u "d"); reflexivity|apply ch_out; [reflexivity|]].
  intros [E|[]]; discriminate E.
Qed.
