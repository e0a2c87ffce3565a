(* Tatoeba_props.v -- C70 to C75 and C80 *)
From Verif Require Import Base PyText PyFmt Csv_model Tanaka_model Tanaka_spec Tatoeba_model Tatoeba_spec Tatoeba_proofs.

(** C70 *)
Theorem C70_reads date dv (strptime : str -> res date) filter_row langs name rows o :
  (exists r, new_sentences dv strptime filter_row langs name (rows, o) = Ok r) <->
  o = Ok tt /\ exists (detailed : bool) es, columns rows (if detailed then 6 else 3)%nat /\ entries dv strptime filter_row langs detailed rows es.
Proof.
  split.
  - intros [r R]; apply new_iff in R; destruct R as [-> [d [es [D [E _]]]]]; eauto 6.
  - intros [-> [d [es [D E]]]]; eexists; apply new_iff; split; [reflexivity|]; exists d, es; auto.
Qed.
Print Assumptions C70_reads.
Theorem C70_holds date dv (strptime : str -> res date) filter_row langs name rows (detailed : bool) es r :
  columns rows (if detailed then 6 else 3)%nat -> entries dv strptime filter_row langs detailed rows es ->
  new_sentences dv strptime filter_row langs name (rows, Ok tt) = Ok r ->
  (exists ids, sentence_ids r = Ok ids /\ NoDup ids /\ forall i, In i ids <-> known es i) /\
  (forall i e, last_entry es i e -> getitem r i = Ok (e_text e) /\ sentence r i = Ok (e_text e)) /\
  (forall i, ~ known es i -> getitem r i = Raise KeyError /\ sentence r i = Raise InvalidIDError).
Proof.
  intros D E R.
  assert (X : new_sentences dv strptime filter_row langs name (rows, Ok tt) = Ok (mkreader langs name (Some (the_tables es detailed)))) by (apply new_iff; split; [reflexivity|]; exists detailed, es; auto).
  rewrite X in R; injection R as <-; split; [eapply ids_known; eassumption|split; intros; [eapply get_last; eassumption|eapply get_unknown; eassumption]].
Qed.
Print Assumptions C70_holds.
(** every id is either unknown or has a last row *)
Theorem C70_cases date (es : list (entry date)) i : (exists e, last_entry es i e) \/ ~ known es i.
Proof.
  destruct (last_by_dec (fun e : entry date => e_id e) es i) as [L|N]; [left; exact L|right].
  intros [e [I X]]; rewrite Forall_forall in N; exact (N e I X).
Qed.
Print Assumptions C70_cases.
Theorem C70_details date dv (strptime : str -> res date) filter_row langs name rows (detailed : bool) es r :
  columns rows (if detailed then 6 else 3)%nat -> entries dv strptime filter_row langs detailed rows es ->
  new_sentences dv strptime filter_row langs name (rows, Ok tt) = Ok r ->
  if detailed
  then (forall i e, last_entry es i e -> exists x, e_info e = Some x /\ details r i = Ok x) /\
       (forall i, ~ known es i -> details r i = Raise InvalidIDError)
  else forall i, details r i = Raise MissingDataError.
Proof.
  intros D E R.
  assert (X : new_sentences dv strptime filter_row langs name (rows, Ok tt) = Ok (mkreader langs name (Some (the_tables es detailed)))) by (apply new_iff; split; [reflexivity|]; exists detailed, es; auto).
  rewrite X in R; injection R as <-; destruct detailed.
  - split.
    + intros i e L; destruct (details_last dv strptime filter_row langs name rows true es E i e eq_refl L) as [Y N].
      destruct (e_info e) as [x|]; [exists x; auto|elim N; reflexivity].
    + intros i N; eapply details_unknown; try eassumption; reflexivity.
  - intros i; eapply details_missing; try eassumption; reflexivity.
Qed.
Print Assumptions C70_details.
Theorem C70_columns date dv (strptime : str -> res date) filter_row langs name rows o n :
  columns rows n -> n <> 3%nat -> n <> 6%nat -> new_sentences dv strptime filter_row langs name (rows, o) = Raise InvalidFileError.
Proof.
  intros [row [rest [-> L]]] N3 N6; unfold new_sentences, set_sentences, read_sentences; cbn [languages loaded].
  rewrite L, (proj2 (Nat.eqb_neq n 3) N3), (proj2 (Nat.eqb_neq n 6) N6); reflexivity.
Qed.
Print Assumptions C70_columns.
Theorem C70_empty date dv (strptime : str -> res date) filter_row langs name o :
  new_sentences dv strptime filter_row langs name ([], o) = Raise (match o with Ok _ => StopIteration | Raise e => e end).
Proof. destruct o; reflexivity. Qed.
Print Assumptions C70_empty.
Definition day (s : str) : res str := if Nat.eqb (length s) 19 then Ok (firstn 10 s) else Raise ValueError.
Definition six : list (list str) :=
  [[u "1"; u "eng"; u "One"; u "me"; u "2010-01-02 03:04:05"; u "\N"]; [u "2"; u "jpn"; u "二"; u "\N"; u "\N"; u "0000-00-00 00:00:00"];
   [u "1"; u "eng"; u "Uno"; u "you"; u "\N"; u "2011-01-02 03:04:05"]; [u "x"; u "fra"; u "Trois"]].
Example C70_case : exists r, new_sentences ascii_dv day (fun _ => false) (Some [u "eng"; u "jpn"]) (u "f") (six, Ok tt) = Ok r /\
  sentence_ids r = Ok [1; 2] /\ sentence r 1 = Ok (u "Uno") /\ sentence r 3 = Raise InvalidIDError /\
  details r 1 = Ok (Some (u "you"), None, Some (u "2011-01-02")) /\ details r 2 = Ok (None, None, None) /\ language r 2 = Ok (u "jpn").
Proof. eexists; split; [vm_compute; reflexivity|repeat split; vm_compute; reflexivity]. Qed.
Example C70_entries : entries ascii_dv day (fun _ => false) (Some [u "eng"]) true six
  [mkentry 1 (u "eng") (u "One") (Some (Some (u "me"), Some (u "2010-01-02"), None)); mkentry 1 (u "eng") (u "Uno") (Some (Some (u "you"), None, Some (u "2011-01-02")))].
Proof.
  unfold six; apply Entries_row; [reflexivity|left; reflexivity|reflexivity| |].
  { do 7 eexists; split; [reflexivity|split; [reflexivity|split; [right; split; [discriminate|reflexivity]|split]]].
    - right; split; [discriminate|split; [discriminate|eexists; split; vm_compute; reflexivity]].
    - left; split; [left|]; reflexivity. }
  apply Entries_other_language; [reflexivity|intros [X|[]]; discriminate|].
  apply Entries_row; [reflexivity|left; reflexivity|reflexivity| |].
  { do 7 eexists; split; [reflexivity|split; [reflexivity|split; [right; split; [discriminate|reflexivity]|split]]].
    - left; split; [left|]; reflexivity.
    - right; split; [discriminate|split; [discriminate|eexists; split; vm_compute; reflexivity]]. }
  apply Entries_other_language; [reflexivity|intros [X|[]]; discriminate|constructor].
Qed.

(** C71 *)
Theorem C71_unique date dv (strptime : str -> res date) filter_row langs name rows (detailed : bool) es r e :
  columns rows (if detailed then 6 else 3)%nat -> entries dv strptime filter_row langs detailed rows es ->
  new_sentences dv strptime filter_row langs name (rows, Ok tt) = Ok r ->
  (forall e1 e2, In e1 es -> In e2 es -> e_id e1 = e_id e2 -> e_lang e1 = e_lang e2) ->
  In e es -> language r (e_id e) = Ok (e_lang e).
Proof.
  intros D E R U I.
  assert (X : new_sentences dv strptime filter_row langs name (rows, Ok tt) = Ok (mkreader langs name (Some (the_tables es detailed)))) by (apply new_iff; split; [reflexivity|]; exists detailed, es; auto).
  rewrite X in R; injection R as <-; eapply language_unique; eauto.
Qed.
Print Assumptions C71_unique.
Theorem C71_unknown date dv (strptime : str -> res date) filter_row langs name rows (detailed : bool) es r i :
  columns rows (if detailed then 6 else 3)%nat -> entries dv strptime filter_row langs detailed rows es ->
  new_sentences dv strptime filter_row langs name (rows, Ok tt) = Ok r ->
  language r i = Raise InvalidIDError <-> ~ known es i.
Proof.
  intros D E R.
  assert (X : new_sentences dv strptime filter_row langs name (rows, Ok tt) = Ok (mkreader langs name (Some (the_tables es detailed)))) by (apply new_iff; split; [reflexivity|]; exists detailed, es; auto).
  rewrite X in R; injection R as <-; eapply language_unknown; eauto.
Qed.
Print Assumptions C71_unknown.
(** without unique ids: the first language, in order of first appearance, that has the id *)
Theorem C71_first date dv (strptime : str -> res date) filter_row langs name rows (detailed : bool) es r i l :
  columns rows (if detailed then 6 else 3)%nat -> entries dv strptime filter_row langs detailed rows es ->
  new_sentences dv strptime filter_row langs name (rows, Ok tt) = Ok r ->
  language r i = Ok l <-> first_language es i l.
Proof.
  intros D E R.
  assert (X : new_sentences dv strptime filter_row langs name (rows, Ok tt) = Ok (mkreader langs name (Some (the_tables es detailed)))) by (apply new_iff; split; [reflexivity|]; exists detailed, es; auto).
  rewrite X in R; injection R as <-; eapply language_first; eauto.
Qed.
Print Assumptions C71_first.
(** an id given twice: language() follows the language seen first, sentence() the row seen last *)
Example C71_twice : exists r, new_sentences ascii_dv day (fun _ => false) None (u "f") ([[u "1"; u "eng"; u "One"]; [u "2"; u "jpn"; u "二"]; [u "2"; u "eng"; u "Two"]; [u "1"; u "jpn"; u "一"]], Ok tt) = Ok r /\
  language r 2 = Ok (u "eng") /\ sentence r 2 = Ok (u "Two") /\ language r 1 = Ok (u "eng") /\ sentence r 1 = Ok (u "一") /\ language r 3 = Raise InvalidIDError.
Proof. eexists; split; [vm_compute; reflexivity|repeat split; vm_compute; reflexivity]. Qed.

(** C72 *)
Theorem C72_sentences_partial date dv (strptime : str -> res date) filter_row r name src r' e :
  set_sentences dv strptime filter_row r name src = (r', Raise e) ->
  languages r' = languages r /\ loaded r' = loaded r /\ sentences_src r' = name /\
  sentence_ids r' = sentence_ids r /\
  forall i, sentence r' i = sentence r i /\ language r' i = language r i /\ details r' i = details r i /\ getitem r' i = getitem r i.
Proof.
  unfold set_sentences; destruct (read_sentences _ _ _ _ _); intros X; [discriminate|]; injection X as <- _.
  repeat split; reflexivity.
Qed.
Print Assumptions C72_sentences_partial.
Theorem C72_links_partial dv r name src r' e :
  set_links dv r name src = (r', Raise e) ->
  subset r' = subset r /\ filter_sent r' = filter_sent r /\ filter_trans r' = filter_trans r /\ filter_str r' = filter_str r /\
  ldicts r' = ldicts r /\ links_src r' = name /\ groups r' = groups r /\ forall i, group r' i = group r i /\ lgetitem r' i = lgetitem r i.
Proof.
  unfold set_links; destruct (do st <- _; _); intros X; [discriminate|]; injection X as <- _.
  repeat split; reflexivity.
Qed.
Print Assumptions C72_links_partial.
Theorem C72_indices_partial dv r name src r' e :
  set_indices dv r name src = (r', Raise e) ->
  isubset r' = isubset r /\ iedict r' = iedict r /\ idicts r' = idicts r /\ indices_src r' = name /\
  forall i, link r' i = link r i /\ igetitem r' i = igetitem r i.
Proof.
  unfold set_indices; destruct (do d <- _; _); intros X; [discriminate|]; injection X as <- _.
  repeat split; reflexivity.
Qed.
Print Assumptions C72_indices_partial.
(** a reload that succeeds is the same as a new reader with the same options *)
Theorem C72_success date dv (strptime : str -> res date) filter_row r name src :
  snd (set_sentences dv strptime filter_row r name src) = Ok tt ->
  new_sentences dv strptime filter_row (languages r) name src = Ok (fst (set_sentences dv strptime filter_row r name src)).
Proof. unfold new_sentences, set_sentences; cbn [languages loaded]; destruct (read_sentences _ _ _ _ _); cbn [fst snd bind]; [reflexivity|discriminate]. Qed.
Print Assumptions C72_success.
(** the source attribute of each reader does change *)
Theorem C72_source_refuted :
  (exists r r', new_sentences ascii_dv day (fun _ => false) None (u "old") ([[u "1"; u "eng"; u "One"]], Ok tt) = Ok r /\
     set_sentences ascii_dv day (fun _ => false) r (u "new") ([[u "1"; u "eng"; u "One"]; [u "2"]], Ok tt) = (r', Raise ValueError) /\ sentences_src r' <> sentences_src r) /\
  (exists r r', new_links ascii_dv (fun s => s) (u "old") ([[u "1"; u "2"]], Ok tt) None (u "both") = (true, Ok r) /\
     set_links ascii_dv r (u "new") ([[u "1"]], Ok tt) = (r', Raise InvalidFileError) /\ links_src r' <> links_src r) /\
  (exists r r', new_indices ascii_dv (u "old") ([[u "1"; u "2"; u "彼"]], Ok tt) None None = Ok r /\
     set_indices ascii_dv r (u "new") ([[u "1"]], Ok tt) = (r', Raise ValueError) /\ indices_src r' <> indices_src r).
Proof.
  repeat split.
  - eexists; eexists; split; [vm_compute; reflexivity|split; [vm_compute; reflexivity|discriminate]].
  - eexists; eexists; split; [vm_compute; reflexivity|split; [vm_compute; reflexivity|discriminate]].
  - eexists; eexists; split; [vm_compute; reflexivity|split; [vm_compute; reflexivity|discriminate]].
Qed.
Print Assumptions C72_source_refuted.
(** the old sentence is still there after a file that cannot be read, and gone after
    one that can *)
Example C72_case : exists r, new_sentences ascii_dv day (fun _ => false) None (u "old") ([[u "1"; u "eng"; u "One"]], Ok tt) = Ok r /\
  snd (set_sentences ascii_dv day (fun _ => false) r (u "new") ([[u "3"; u "eng"; u "Three"]; [u "2"]], Ok tt)) = Raise ValueError /\
  let r' := fst (set_sentences ascii_dv day (fun _ => false) r (u "new") ([[u "3"; u "eng"; u "Three"]; [u "2"]], Ok tt)) in
  let r2 := fst (set_sentences ascii_dv day (fun _ => false) r (u "new") ([[u "3"; u "eng"; u "Three"]], Ok tt)) in
  sentence r' 1 = Ok (u "One") /\ sentence_ids r' = Ok [1] /\ sentence_ids r2 = Ok [3] /\ sentence r2 3 = Ok (u "Three").
Proof. eexists; split; [vm_compute; reflexivity|]; vm_compute; repeat split. Qed.

(** C73 *)
Theorem C73_groups dv lower name rows ids flt ps : filter_name (lower flt) -> link_rows dv rows ps ->
  exists r, new_links dv lower name (rows, Ok tt) ids flt = (true, Ok r) /\
  (forall i, endpoint (used (lower flt) ids ps) i ->
     exists g, group r i = Ok g /\ In i g /\ forall y, In y g -> connected (used (lower flt) ids ps) i y) /\
  (forall i, ~ endpoint (used (lower flt) ids ps) i -> group r i = Raise InvalidIDError).
Proof.
  intros F L; eexists; split; [apply new_links_ok; eassumption|]; split; intros i E; [apply group_known, E|apply group_unknown, E].
Qed.
Print Assumptions C73_groups.
(** which sources load at all *)
Theorem C73_reads dv lower name rows o ids flt : filter_name (lower flt) ->
  (exists r, new_links dv lower name (rows, o) ids flt = (true, Ok r)) <-> o = Ok tt /\ exists ps, link_rows dv rows ps.
Proof.
  intros F; split.
  - intros [r R].
    assert (D : (exists ps, link_rows dv rows ps) \/ forall ps, ~ link_rows dv rows ps) by (apply link_rows_dec).
    destruct D as [[ps L]|N]; [|rewrite (new_links_bad dv lower name rows o ids flt F N) in R; discriminate].
    split; [|eauto]; destruct o as [[]|e]; [reflexivity|]; rewrite (new_links_failed dv lower name rows e ids flt ps F L) in R; discriminate.
  - intros [-> [ps L]]; eexists; apply new_links_ok; eassumption.
Qed.
Print Assumptions C73_reads.
Theorem C73_bad_row dv lower name rows o ids flt : filter_name (lower flt) -> (forall ps, ~ link_rows dv rows ps) ->
  new_links dv lower name (rows, o) ids flt = (true, Raise InvalidFileError).
Proof. exact (new_links_bad dv lower name rows o ids flt). Qed.
Print Assumptions C73_bad_row.
Example C73_case : exists r, new_links ascii_dv (fun s => s) (u "f") ([[u "1"; u "2"]; [u "3"; u "2"]; [u "7"; u "7"]], Ok tt) None (u "both") = (true, Ok r) /\
  group r 1 = Ok [2; 1; 3] /\ group r 7 = Ok [7] /\ group r 4 = Raise InvalidIDError.
Proof. eexists; split; [vm_compute; reflexivity|repeat split; vm_compute; reflexivity]. Qed.

(** C74: two groups joined by a later row are not merged *)
Theorem C74_bridge_refuted : exists r g, let ps := [(1, 2); (3, 4); (2, 3)] in
  new_links ascii_dv (fun s => s) (u "f") ([[u "1"; u "2"]; [u "3"; u "4"]; [u "2"; u "3"]], Ok tt) None (u "both") = (true, Ok r) /\
  link_rows ascii_dv [[u "1"; u "2"]; [u "3"; u "4"]; [u "2"; u "3"]] ps /\
  group r 4 = Ok g /\ connected ps 4 1 /\ ~ In 1 g /\ (exists gs, groups r = Ok gs /\ ~ partition gs).
Proof.
  eexists; eexists; cbv zeta; split; [vm_compute; reflexivity|]; split.
  { repeat constructor; eexists; eexists; split; try reflexivity; split; vm_compute; reflexivity. }
  split; [vm_compute; reflexivity|]; split; [|split].
  - apply (Conn_trans _ 4 3); [apply Conn_sym, Conn_step; right; left; reflexivity|].
    apply (Conn_trans _ 3 2); [apply Conn_sym, Conn_step; right; right; left; reflexivity|apply Conn_sym, Conn_step; left; reflexivity].
  - intros I; vm_compute in I; destruct I as [X|[X|[]]]; discriminate.
  - eexists; split; [vm_compute; reflexivity|]; intros [_ P].
    assert (X : 0%nat = 1%nat) by (refine (P 0%nat 1%nat _ _ 3 eq_refl eq_refl _ _); cbn; tauto).
    discriminate.
Qed.
Print Assumptions C74_bridge_refuted.
Theorem C74_component_partial dv lower name rows ids flt ps r i : filter_name (lower flt) -> link_rows dv rows ps ->
  new_links dv lower name (rows, Ok tt) ids flt = (true, Ok r) ->
  ~ bridge (used (lower flt) ids ps) -> endpoint (used (lower flt) ids ps) i ->
  exists g, group r i = Ok g /\ forall y, In y g <-> connected (used (lower flt) ids ps) i y.
Proof.
  intros F L R NB E; rewrite (new_links_ok dv lower name rows ids flt ps F L) in R; injection R as <-.
  destruct (group_known ids (lower flt) name ps i E) as [g [G _]]; exists g; split; [exact G|].
  intros y; eapply group_component; eassumption.
Qed.
Print Assumptions C74_component_partial.
(** the groups are a partition exactly when no row bridges two groups *)
Theorem C74_partition_partial dv lower name rows ids flt ps r : filter_name (lower flt) -> link_rows dv rows ps ->
  new_links dv lower name (rows, Ok tt) ids flt = (true, Ok r) ->
  exists gs, groups r = Ok gs /\ (forall x, (exists g, In g gs /\ In x g) <-> endpoint (used (lower flt) ids ps) x) /\
    (partition gs <-> ~ bridge (used (lower flt) ids ps)).
Proof.
  intros F L R; rewrite (new_links_ok dv lower name rows ids flt ps F L) in R; injection R as <-.
  eexists; split; [reflexivity|]; split; [|split; [apply partition_no_bridge|apply groups_partition]].
  intros x; apply groups_cover.
Qed.
Print Assumptions C74_partition_partial.
Example C74_no_bridge : ~ bridge [(1, 2); (3, 2); (5, 6); (1, 3)] /\ bridge [(1, 2); (3, 4); (2, 3)].
Proof.
  split.
  - apply partition_no_bridge; change (partition [[2; 1; 3]; [6; 5]]); split; [repeat constructor; discriminate|].
    intros [|[|n]] [|[|m]] g h x G H I J; cbn in G, H; try (destruct n; discriminate); try (destruct m; discriminate); try reflexivity;
      injection G as <-; injection H as <-; cbn in I, J; lia.
  - exists [(1, 2); (3, 4)], 2, 3, []; split; [reflexivity|split; [|split]].
    + exists (1, 2); split; [left; reflexivity|right; reflexivity].
    + exists (3, 4); split; [right; left; reflexivity|left; reflexivity].
    + intros C.
      assert (H : forall x y, connected [(1, 2); (3, 4)] x y -> x <= 2 <-> y <= 2).
      { intros x y X; induction X as [x E|x y [E|[E|[]]]|x y _ IH|x y z _ IH1 _ IH2]; try injection E as <- <-; try lia; tauto. }
      apply H in C; lia.
Qed.

(** C75 *)
Theorem C75_unknown_filter dv lower name src ids flt : ~ filter_name (lower flt) ->
  new_links dv lower name src ids flt = (false, Raise ValueError).
Proof. exact (new_links_unknown dv lower name src ids flt). Qed.
Print Assumptions C75_unknown_filter.
Theorem C75_all dv lower name rows flt ps r : filter_name (lower flt) -> link_rows dv rows ps ->
  new_links dv lower name (rows, Ok tt) None flt = (true, Ok r) ->
  forall x, (exists g, group r x = Ok g) <-> endpoint ps x.
Proof.
  intros F L R; rewrite (new_links_ok dv lower name rows None flt ps F L) in R; injection R as <-.
  intros x; apply (group_iff None (lower flt) name ps x).
Qed.
Print Assumptions C75_all.
(** a filtered reader answers like an unfiltered one over the rows kept *)
Theorem C75_filtered dv lower name rows ids flt ps r rows' r' :
  filter_name (lower flt) -> link_rows dv rows ps -> link_rows dv rows' (filter (keeps (lower flt) ids) ps) ->
  new_links dv lower name (rows, Ok tt) (Some ids) flt = (true, Ok r) ->
  new_links dv lower name (rows', Ok tt) None flt = (true, Ok r') ->
  ldicts r = ldicts r' /\ groups r = groups r' /\ forall i, group r i = group r' i /\ lgetitem r i = lgetitem r' i.
Proof.
  intros F L L' R R'; rewrite (new_links_ok dv lower name rows (Some ids) flt ps F L) in R; injection R as <-.
  rewrite (new_links_ok dv lower name rows' None flt _ F L') in R'; injection R' as <-; repeat split; reflexivity.
Qed.
Print Assumptions C75_filtered.
Theorem C75_keeps ids p :
  (keeps (u "sent_id") ids p = true <-> In (fst p) ids) /\ (keeps (u "trans_id") ids p = true <-> In (snd p) ids) /\
  (keeps (u "both") ids p = true <-> In (fst p) ids /\ In (snd p) ids).
Proof.
  split; [|split]; [change (keeps (u "sent_id") ids p) with (mem (fst p) ids)|change (keeps (u "trans_id") ids p) with (mem (snd p) ids)|
    change (keeps (u "both") ids p) with (mem (fst p) ids && mem (snd p) ids); rewrite andb_true_iff]; rewrite !mem_In; reflexivity.
Qed.
Print Assumptions C75_keeps.
Example C75_case : let rows := [[u "1"; u "2"]; [u "2"; u "1"]; [u "1"; u "3"]; [u "3"; u "4"]] in let low (s : str) := map (fun c => if (65 <=? c) && (c <=? 90) then c + 32 else c) s in
  (exists r, new_links ascii_dv low (u "f") (rows, Ok tt) (Some [1; 3]) (u "SENT_id") = (true, Ok r) /\ groups r = Ok [[2; 1; 3; 4]]) /\
  (exists r, new_links ascii_dv low (u "f") (rows, Ok tt) (Some [1; 3]) (u "trans_id") = (true, Ok r) /\ groups r = Ok [[1; 2; 3]]) /\
  (exists r, new_links ascii_dv low (u "f") (rows, Ok tt) (Some [1; 3]) (u "both") = (true, Ok r) /\ groups r = Ok [[3; 1]]) /\
  new_links ascii_dv low (u "f") (rows, Ok tt) None (u "all") = (false, Raise ValueError).
Proof. cbv zeta; repeat split; try (eexists; split; vm_compute; reflexivity); vm_compute; reflexivity. Qed.

(** C80 *)
Theorem C80_reads dv name rows o edict ids : unicode_digits dv ->
  (exists r, new_indices dv name (rows, o) edict ids = Ok r) <-> o = Ok tt /\ exists es, ientries dv ids edict rows es.
Proof.
  intros A; split.
  - intros [r R]; apply new_indices_iff in R; [|exact A]; destruct R as [-> [es [E _]]]; eauto.
  - intros [-> [es E]]; eexists; apply new_indices_iff; [exact A|]; eauto.
Qed.
Print Assumptions C80_reads.
Theorem C80_holds dv name rows edict ids es r : unicode_digits dv -> ientries dv ids edict rows es ->
  new_indices dv name (rows, Ok tt) edict ids = Ok r ->
  (forall i e, last_ientry es i e -> igetitem r i = Ok (i_words e) /\ link r i = Ok (i_link e)) /\
  (forall i, (forall e, In e es -> i_id e <> i) -> igetitem r i = Raise KeyError /\ link r i = Raise InvalidIDError).
Proof.
  intros A E R.
  assert (X : new_indices dv name (rows, Ok tt) edict ids = Ok (the_ireader name edict ids es)) by (apply new_indices_iff; [exact A|]; eauto).
  rewrite X in R; injection R as <-; split; intros; [apply index_last; assumption|apply index_unknown, Forall_forall; assumption].
Qed.
Print Assumptions C80_holds.
Theorem C80_keys dv name rows edict ids es r : unicode_digits dv -> ientries dv ids edict rows es ->
  new_indices dv name (rows, Ok tt) edict ids = Ok r ->
  exists d, idicts r = Some d /\ NoDup (dkeys (fst d)) /\ dkeys (fst d) = dkeys (snd d) /\
    forall i, In i (dkeys (fst d)) <-> exists e, In e es /\ i_id e = i.
Proof.
  intros A E R.
  assert (X : new_indices dv name (rows, Ok tt) edict ids = Ok (the_ireader name edict ids es)) by (apply new_indices_iff; [exact A|]; eauto).
  rewrite X in R; injection R as <-; apply index_keys.
Qed.
Print Assumptions C80_keys.
Example C80_case : exists r, new_indices ascii_dv (u "f") ([[u "5"; u "6"; u "彼 は|1"]; [u "7"; u "8"; u "(("]; [u "5"; u "9"; u "今日~"]], Ok tt)
    (Some [(u "今日", [u "きょう"])]) (Some [5]) = Ok r /\
  igetitem r 5 = Ok [mkword (u "今日") (Some (u "きょう")) None None true] /\ link r 5 = Ok 9 /\ link r 7 = Raise InvalidIDError.
Proof. eexists; split; [vm_compute; reflexivity|repeat split; vm_compute; reflexivity]. Qed.
Example C80_case_entries : ientries ascii_dv (Some [5]) None [[u "5"; u "6"; u "彼 は|1"]; [u "7"; u "8"; u "(("]]
  [mkientry 5 6 [mkword (u "彼") None None None false; mkword (u "は") None None None false]].
Proof.
  assert (N : forall c, 128 <= c -> no_delim [c]) by (intros c H; constructor; [intros I; vm_compute in I; lia|constructor]).
  apply (Ientries_in ascii_dv (Some [5]) None _ _ _ _ _ 5 6 [u "彼"; u "は|1"] [mkword (u "彼") None None None false; mkword (u "は") None None None false]); try (vm_compute; reflexivity).
  - intros l E; injection E as <-; left; reflexivity.
  - apply (Pieces_cons [] (u "彼") (u " は|1")); [constructor|discriminate|intros [E|[]]; discriminate E|reflexivity|].
    apply (Pieces_cons (u " ") (u "は|1") []); [repeat constructor|discriminate|intros I; vm_compute in I; lia|exact I|].
    apply Pieces_nil; constructor.
  - apply Forall2_cons; [|apply Forall2_cons; [|constructor]].
    + apply (Written ascii_dv (u "彼") None [] [] None [] None [] false []);
        [discriminate|apply N; vm_compute; discriminate|exact (Part_none _ _)|apply Legacy_none|apply Number_none|exact (Part_none _ _)|left; reflexivity].
    + apply (Written ascii_dv (u "は") None [] (u "|1") None [] None [] false []);
        [discriminate|apply N; vm_compute; discriminate|exact (Part_none _ _)| |apply Number_none|exact (Part_none _ _)|left; reflexivity].
      apply (Legacy_some ascii_dv (u "1")); split; [discriminate|constructor; [exists 1; vm_compute; reflexivity|constructor]].
  - apply Ientries_out with (n := 7) (m := 8); try (vm_compute; reflexivity); [|constructor].
    exists [5]; split; [reflexivity|intros [E|[]]; discriminate E].
Qed.
