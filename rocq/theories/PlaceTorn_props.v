(* PlaceTorn_props.v -- C133: dumps of places cut short *)
From Verif Require Import Tatoeba_model Csv_model Files_model Files_spec Encoding_model Encoding_spec.
From Verif Require Import Base PyText PyFmt Rose Maps_model Place_model Place_spec Place_proofs PlaceTorn_model PlaceTorn_spec PlaceTorn_proofs.

(** ** C133.  A dump that nothing disturbs writes its text; whatever happens to it,
    the file holds a beginning of that text, the whole of it if dump returned, and
    what it held before is gone *)
Theorem C133_dump repr able strike room fuel h self disk name text : dump repr fuel h self = Ok text ->
  exists k, let '(disk', r) := dump_torn repr able strike room fuel h self disk name in
  disk' = dset name (firstn k text) disk /\ (r = Ok tt -> firstn k text = text) /\
  (room = None -> (forall n, strike n = None) -> (forall s, able s = true) -> r = Ok tt).
Proof.
  unfold dump, dump_torn; destruct (walk fuel h self) as [ps|e]; cbn [rmap]; [intros [= <-]|discriminate].
  set (ls := map (fun dp => to_line repr (at_ h (snd dp)) (fst dp)) ps).
  assert (T : flat_map (fun dp => to_line repr (at_ h (snd dp)) (fst dp) ++ [10]) ps = ended ls) by (unfold ls, ended; rewrite flat_map_map; reflexivity).
  rewrite T; destruct (print_begins able strike ls 0 []) as [b [c [E [Q O]]]].
  assert (A : (forall n, strike n = None) -> (forall s, able s = true) -> snd (print_lines able strike 0 [] ls) = Ok tt).
  { intros S AB; rewrite (print_all able strike ls S); [reflexivity|apply Forall_forall; intros l _; apply AB]. }
  destruct (print_lines able strike 0 [] ls) as [given r]; cbn [snd app] in *; injection E as ->.
  assert (WH : forall k, (k <= length b)%nat -> firstn k b = firstn k (ended ls)).
  { intros k L; rewrite Q, firstn_app; replace (k - length b)%nat with 0%nat by lia; rewrite firstn_O, app_nil_r; reflexivity. }
  assert (W : b = firstn (length b) (ended ls)) by (rewrite <- WH, firstn_all by lia; reflexivity).
  assert (OK : r = Ok tt -> firstn (length b) (ended ls) = ended ls) by (intros R; rewrite <- W, Q, (O R), app_nil_r; reflexivity).
  destruct room as [k|]; [destruct (Nat.ltb_spec k (length b))|].
  - exists k; split; [rewrite WH by lia; reflexivity|split; discriminate].
  - exists (length b); split; [rewrite <- W; reflexivity|split; [exact OK|discriminate]].
  - exists (length b); split; [rewrite <- W; reflexivity|split; [exact OK|intros _; exact A]].
Qed.
Print Assumptions C133_dump.

(** what becomes of a file cut after [k] characters.  An empty one is StopIteration;
    cut before the reading of a line it is refused; cut in a reading or at the end of
    a line it is a tree: the places before that line, and that place with what is
    left of its reading *)
Theorem C133_cut_partial repr dv h t fuel h0 : ascii_digits dv ->
  tree_at h t -> keyed h t -> (forall a, In a (nodes t) -> storable (at_ h a)) -> (rsize t < fuel)%nat ->
  exists text, dump repr fuel h (root t) = Ok text /\ length text = sizes (shown h t) /\
  from_file dv h0 (file_lines (firstn 0 text)) = Raise StopIteration /\
  (forall k, (0 < k <= length text)%nat -> exists m j d l r, falls_in k m j (shown h t) d l r) /\
  forall k m j d l r, falls_in k m j (shown h t) d l r ->
    ((j <= ahead d l)%nat -> from_file dv h0 (file_lines (firstn k text)) = Raise ValueError) /\
    ((ahead d l < j)%nat -> exists h' t', from_file dv h0 (file_lines (firstn k text)) = Ok (h', root t') /\ tree_at h' t' /\ keyed h' t' /\
       shown h' t' = firstn m (shown h t) ++ [(d, (l, reading_left (j - ahead d l) r, None))] /\
       NoDup (nodes t') /\ (forall b, In b (nodes t') -> (length h0 <= b)%nat) /\ forall b, (b < length h0)%nat -> at_ h' b = at_ h0 b).
Proof.
  intros D TA K S B; destruct (file_cut repr dv D h t fuel h0 TA K S B) as [text [E [L C]]].
  exists text; split; [exact E|split; [exact L|split; [reflexivity|split; [|exact C]]]].
  intros k KK; apply falls; [rewrite <- L; exact KK|].
  unfold shown; apply Forall_forall; intros x I; apply in_map_iff in I; destruct I as [[d a] [<- I]]; cbn [fst snd].
  assert (IN : In a (nodes t)) by (rewrite <- (pre_nodes t 0); apply in_map_iff; exists (d, a); split; [reflexivity|exact I]).
  unfold details; cbn [snd]; apply (S a IN).
Qed.
Print Assumptions C133_cut_partial.

(** so a file cut after whole lines is never refused: the claim that it is not
    mistaken for a whole dump fails for every tree of two places or more *)
Theorem C133_lines_refuted repr dv h t fuel h0 m : ascii_digits dv ->
  tree_at h t -> keyed h t -> (forall a, In a (nodes t) -> storable (at_ h a)) -> (rsize t < fuel)%nat -> (0 < m < rsize t)%nat ->
  exists text h' t', dump repr fuel h (root t) = Ok text /\
    from_file dv h0 (file_lines (firstn (sizes (firstn m (shown h t))) text)) = Ok (h', root t') /\ tree_at h' t' /\
    shown h' t' = firstn m (shown h t) /\ rosemap (details h') t' <> rosemap (details h) t.
Proof.
  intros D TA K S B M; destruct (file_cut repr dv D h t fuel h0 TA K S B) as [text [E [L C]]].
  destruct m as [|m]; [lia|].
  assert (LS : length (shown h t) = rsize t) by (unfold shown; rewrite map_length, pre_length; reflexivity).
  destruct (nth_error (shown h t) m) as [[d [[l r] al]]|] eqn:N; [|apply nth_error_None in N; lia].
  assert (ST : exists a, In a (nodes t) /\ details h a = (l, r, al)).
  { apply nth_error_In in N; unfold shown in N; apply in_map_iff in N; destruct N as [[d' a] [X I]]; cbn [fst snd] in X; injection X as -> X.
    exists a; split; [rewrite <- (pre_nodes t 0); apply in_map_iff; exists (d, a); split; [reflexivity|exact I]|unfold details; congruence]. }
  destruct ST as [a [IN DE]]; pose proof (S a IN) as SA; unfold details in DE; injection DE as DL DR DA.
  assert (AN : al = None) by (rewrite <- DA; apply SA); subst al; rewrite AN in N.
  assert (X : firstn (Datatypes.S m) (shown h t) = firstn m (shown h t) ++ [(d, (l, r, None))]).
  { destruct (nth_error_split _ _ N) as [l1 [l2 [-> LM]]]; subst m.
    rewrite !firstn_app, firstn_all2, firstn_all by lia; replace (Datatypes.S (length l1) - length l1)%nat with 1%nat by lia.
    rewrite Nat.sub_diag; cbn; rewrite app_nil_r; reflexivity. }
  assert (SZ : sizes (firstn (Datatypes.S m) (shown h t)) = (sizes (firstn m (shown h t)) + Datatypes.S (line_size d l r))%nat).
  { rewrite X; unfold sizes; rewrite map_app, list_sum_app; cbn; lia. }
  assert (F : falls_in (sizes (firstn (Datatypes.S m) (shown h t))) m (Datatypes.S (line_size d l r)) (shown h t) d l r).
  { split; [exact N|split; [exact SZ|lia]]. }
  destruct (proj2 (C _ _ _ _ _ _ F) ltac:(unfold line_size; lia)) as [h' [t' [FF [TA' [_ [SH _]]]]]].
  assert (RL : reading_left (Datatypes.S (line_size d l r) - ahead d l) r = r).
  { rewrite <- DR; apply left_all; [exact SA|rewrite DR; unfold line_size; lia]. }
  rewrite RL, <- X in SH.
  exists text, h', t'; split; [exact E|split; [exact FF|split; [exact TA'|split; [exact SH|]]]].
  intros EQ; apply (f_equal (fun x => length (nodes x))) in EQ; rewrite !rosemap_nodes, !map_length in EQ.
  apply (f_equal (@length _)) in SH; unfold shown in SH; rewrite firstn_map, !map_length, firstn_length, !pre_length in SH; unfold rsize in *; lia.
Qed.
Print Assumptions C133_lines_refuted.

(** a dump the encoding cannot write does this by itself: it raises, and leaves in
    place of the old file a tree of the places before the first that cannot be
    written *)
Theorem C133_unencodable_refuted repr dv able strike h t fuel h0 disk name m : ascii_digits dv ->
  tree_at h t -> keyed h t -> (forall a, In a (nodes t) -> storable (at_ h a)) -> (rsize t < fuel)%nat -> (0 < m < rsize t)%nat ->
  (forall n, strike n = None) ->
  (forall i d a, nth_error (pre 0 t) i = Some (d, a) -> (i < m)%nat -> able (to_line repr (at_ h a) d) = true) ->
  (forall d a, nth_error (pre 0 t) m = Some (d, a) -> able (to_line repr (at_ h a) d) = false) ->
  exists file h' t', dump_torn repr able strike None fuel h (root t) disk name = (dset name file disk, Raise UnicodeError) /\
    from_file dv h0 (file_lines file) = Ok (h', root t') /\ tree_at h' t' /\ shown h' t' = firstn m (shown h t).
Proof.
  intros D TA K S B M Q AB UN; destruct (C133_lines_refuted repr dv h t fuel h0 m D TA K S B M) as [text [h' [t' [E [FF [TA' [SH _]]]]]]].
  exists (firstn (sizes (firstn m (shown h t))) text), h', t'; split; [|split; [exact FF|split; [exact TA'|exact SH]]].
  unfold dump in E; unfold dump_torn; rewrite (walk_ok h fuel t TA B) in *; cbn [rmap] in E; injection E as <-.
  set (line := fun dp : Z * addr => to_line repr (at_ h (snd dp)) (fst dp)).
  destruct (nth_error (pre 0 t) m) as [[d a]|] eqn:N; [|apply nth_error_None in N; rewrite pre_length in N; lia].
  destruct (nth_error_split _ _ N) as [l1 [l2 [P LM]]].
  rewrite P, map_app; cbn [map]; rewrite (print_unable able strike (map line l1) (line (d, a)) (map line l2) Q).
  - cbn [app]; f_equal; f_equal; rewrite flat_map_app.
    assert (ST : Forall (fun dp => storable (snd dp)) (map (fun da => (fst da, at_ h (snd da))) l1)).
    { apply Forall_forall; intros x I; apply in_map_iff in I; destruct I as [da [<- I]]; cbn [snd]; apply S.
      rewrite <- (pre_nodes t 0), P, map_app; apply in_or_app; left; apply in_map, I. }
    assert (LN : length (flat_map (fun dp => to_line repr (at_ h (snd dp)) (fst dp) ++ [10]) l1) = sizes (firstn m (shown h t))).
    { pose proof (text_length repr _ ST) as TL; unfold text_of in TL; rewrite flat_map_map in TL; cbn [fst snd] in TL; rewrite TL.
      unfold shown; rewrite P, firstn_map, <- LM, firstn_app, Nat.sub_diag, firstn_O, app_nil_r, firstn_all; unfold show_of; rewrite map_map; reflexivity. }
    rewrite <- LN, firstn_app, Nat.sub_diag, firstn_O, app_nil_r, firstn_all; unfold ended, line; rewrite flat_map_map; reflexivity.
  - apply Forall_forall; intros x I; apply in_map_iff in I; destruct I as [[d' a'] [<- I]]; destruct (In_nth_error _ _ I) as [i Ni].
    assert (IL : (i < length l1)%nat) by (apply nth_error_Some; congruence).
    apply (AB i); [rewrite P, nth_error_app1; assumption|lia].
  - apply (UN d a eq_refl).
Qed.
Print Assumptions C133_unencodable_refuted.

(** files of UTF-8 cut after any byte: refused, or read as a text cut after a
    character *)
Theorem C133_bytes dv disk stdin given h name s k : Forall scalar s -> ordinary name -> disk name = Some (firstn k (encoded s)) ->
  (exists j, place_bytes dv disk stdin Encoding_model.utf8 given h name = from_file dv h (file_lines (firstn j s))) \/
  exists e, place_bytes dv disk stdin Encoding_model.utf8 given h name = Raise e.
Proof. exact (bytes_cut dv disk stdin given h name s k). Qed.
Print Assumptions C133_bytes.

(** ** Cases *)
(* Japan with Tokyo (no reading) and in it Ueno, and Osaka *)
Definition japan : list place :=
  [ {| label := u "日本"; reading := Some (u "にほん"); aliases := None; kids := [(u "東京", 1%nat); (u "大阪", 3%nat)] |};
    {| label := u "東京"; reading := None; aliases := None; kids := [(u "上野", 2%nat)] |};
    {| label := u "上野"; reading := Some (u "うえの"); aliases := None; kids := [] |};
    {| label := u "大阪"; reading := Some (u "おおさか"); aliases := None; kids := [] |} ].
Definition japan_t : rose addr := Rose 0%nat [Rose 1%nat [Rose 2%nat []]; Rose 3%nat []].
Ltac each_kid X :=
  match type of X with
  | False => destruct X
  | _ \/ _ => destruct X as [X|X]; each_kid X
  | _ => injection X as <- <-; reflexivity
  end.
Example C133_case_meets : tree_at japan japan_t /\ keyed japan japan_t /\ (forall a, In a (nodes japan_t) -> storable (at_ japan a)) /\ (rsize japan_t < 9)%nat.
Proof.
  split; [|split; [|split]].
  - repeat constructor.
  - intros a I; repeat (destruct I as [<-|I]); try destruct I; (split; [vm_compute; repeat first [apply NoDup_nil|apply NoDup_cons; [intros X; repeat (destruct X as [X|X]; [discriminate|]); exact X|]]|]);
      intros k c X; vm_compute in X; each_kid X.
  - intros a I; repeat (destruct I as [<-|I]); try destruct I; (split; [split; [discriminate|vm_compute; reflexivity]|split; [|reflexivity]]);
      cbn; try exact Logic.I; (split; [split; [discriminate|vm_compute; reflexivity]|discriminate]).
  - cbn; lia.
Qed.
(* ways the file of 38 characters can be cut: how many places are read, and
   the reading of the last *)
Definition cut_at (k : nat) : res (nat * option str) :=
  do text <- dump (fun s => s) 9 japan 0%nat;
  do r <- from_file ascii_dv [] (file_lines (firstn k text));
  do w <- walk 9 (fst r) (snd r);
  Ok (length w, reading (at_ (fst r) (snd (last w (0, 0%nat))))).
Example C133_case_cuts :
  map cut_at [0; 1; 2; 4; 5; 6; 7; 8; 9; 10; 14; 15; 16; 17; 18; 19; 20]%nat =
  [Raise StopIteration; Raise ValueError; Raise ValueError; Raise ValueError; Raise ValueError; Ok (1, Some (u "に")); Ok (1, Some (u "にほ")); Ok (1, Some (u "にほん")); Ok (1, Some (u "にほん"));
   Raise ValueError; Raise ValueError; Ok (2, Some (u "N")); Ok (2, Some (u "No")); Ok (2, Some (u "Non")); Ok (2, None); Ok (2, None); Raise ValueError]%nat.
Proof. vm_compute; reflexivity. Qed.
(* an encoding that has no 上 *)
Example C133_case_unencodable :
  let '(disk, r) := dump_torn (fun s => s) (fun s => negb (mem (u1 "上") s)) (fun _ => None) None 9 japan 0%nat [(u "jp", u "0 世界 せかい")] (u "jp") in
  r = Raise UnicodeError /\ dget (u "jp") disk = Some (u "0 日本 にほん" ++ [10] ++ u "1 東京 None" ++ [10]).
Proof. vm_compute; split; reflexivity. Qed.
Example C133_case_falls : falls_in 15 1 6 (shown japan japan_t) 1 (u "東京") None /\ ahead 1 (u "東京") = 5%nat.
Proof. vm_compute; repeat split; lia. Qed.
