(* Corpus_props.v -- C91 and C92 *)
From Verif Require Import Base PyText PyFmt Csv_model Csv_spec Tanaka_model Tanaka_spec Tanaka_proofs Tatoeba_model Tatoeba_spec Tatoeba_proofs Corpus_model Corpus_spec Corpus_proofs.

(** C91: every loaded reader is a finite function, and the inherited methods are those of one *)
Theorem C91_sentences date dv (strptime : str -> res date) filter_row langs name src r :
  new_sentences dv strptime filter_row langs name src = Ok r -> exists ks f, represents (as_sentences r) ks f.
Proof. exact (sentences_represent dv strptime filter_row langs name src r). Qed.
Print Assumptions C91_sentences.
Theorem C91_links dv lower name rows o ids flt r : new_links dv lower name (rows, o) ids flt = (true, Ok r) ->
  exists ks f, represents (as_links r) ks f /\ forall k g, f k = Some g -> NoDup g.
Proof.
  intros R; assert (F : filter_name (lower flt)).
  { destruct (dget (lower flt) filter_values) as [x|] eqn:X; [apply (filter_known lower); eauto|].
    rewrite new_links_unknown in R; [discriminate|intros Y; destruct (proj2 (filter_known lower _) Y); congruence]. }
  destruct (link_rows_dec dv rows) as [[ps L]|N]; [|rewrite (new_links_bad dv lower name rows o ids flt F N) in R; discriminate].
  destruct o as [[]|e]; [|rewrite (new_links_failed dv lower name rows e ids flt ps F L) in R; discriminate].
  rewrite (new_links_ok dv lower name rows ids flt ps F L) in R; injection R as <-.
  do 2 eexists; split; [apply links_represent|]; intros k g G; cbv beta in G; destruct (dget k (link_dict _)) as [n|]; [|discriminate]; exact (groups_nodup _ _ _ G).
Qed.
Print Assumptions C91_links.
Theorem C91_indices dv name src edict ids r : unicode_digits dv -> new_indices dv name src edict ids = Ok r ->
  exists ks f, represents (as_indices r) ks f.
Proof. intros A R; exact (indices_represent dv name src edict ids r R A). Qed.
Print Assumptions C91_indices.
Theorem C91_methods K V (E : EqB K) (m : mapping K V) ks f : represents m ks f ->
  m_len m = Ok (length ks) /\ m_keys m = Ok ks /\
  (forall k, m_contains m k = Ok (match f k with Some _ => true | None => false end)) /\
  (forall k d, m_get m k d = Ok (match f k with Some v => v | None => d end)) /\
  exists vs, m_items m = Ok (combine ks vs) /\ m_values m = Ok vs /\ Forall2 (fun k v => f k = Some v) ks vs.
Proof.
  intros R; split; [exact (rep_len m ks f R)|split; [apply R|split; [intros k; exact (rep_contains m ks f R k)|split; [intros k d; exact (rep_default m ks f R k d)|exact (rep_items m ks f R)]]]].
Qed.
Print Assumptions C91_methods.
(** any other failure of a lookup is not taken for a missing key *)
Theorem C91_other_errors K V (m : mapping K V) k d e : m_getitem m k = Raise e -> e <> KeyError -> e <> InvalidIDError ->
  m_contains m k = Raise e /\ m_get m k d = Raise e.
Proof. intros G N I. unfold m_contains, m_get. rewrite G. destruct e; try (split; reflexivity); contradiction. Qed.
Print Assumptions C91_other_errors.
(** readers are equal exactly when they answer alike *)
Theorem C91_equal K V (E : EqB K) (veq : V -> V -> bool) (m m' : mapping K V) ks ks' f f' : represents m ks f -> represents m' ks' f' ->
  exists b, m_eq veq m m' = Ok b /\
    (b = true <-> forall k, match f k, f' k with Some v, Some v' => veq v v' = true | None, None => True | _, _ => False end).
Proof. exact (rep_eq veq m m' ks ks' f f'). Qed.
Print Assumptions C91_equal.
Theorem C91_values : (forall s t, NoDup s -> NoDup t -> frozenset_eq s t = true <-> forall x, In x s <-> In x t) /\
  (forall a b, list_eq word_eq a b = true <-> Forall2 same_word a b).
Proof.
  split; [exact frozenset_eq_iff|]; intros a b; rewrite list_eq_iff; split; induction 1; constructor; try assumption; apply word_eq_iff; assumption.
Qed.
Print Assumptions C91_values.
(** __repr__ shows the source, whatever it is *)
Theorem C91_repr date (r r' : reader date) l l' :
  (sentences_repr r = sentences_repr r' <-> sentences_src r = sentences_src r') /\ (links_repr l = links_repr l' <-> links_src l = links_src l').
Proof.
  unfold sentences_repr, links_repr; split; split; intros X; try (rewrite X; reflexivity); apply app_inv_head, app_inv_tail in X; exact X.
Qed.
Print Assumptions C91_repr.
Theorem C91_shown date (r : reader date) l :
  sentences_repr r = u "TatoebaSentenceReader(sentences=" ++ [39] ++ sentences_src r ++ [39; 41] /\
  links_repr l = u "TatoebaLinksReader(links=" ++ [39] ++ links_src l ++ [39; 41].
Proof. split; reflexivity. Qed.
Print Assumptions C91_shown.
(** and the name is that of the source: a path, a file object's name, or else how
    the object shows itself *)
Theorem C91_source date dv (strptime : str -> res date) keep langs lower src rows ids flt :
  (forall r, new_sentences dv strptime keep langs (get_src_repr src) rows = Ok r ->
     (forall n, src = Path n -> sentences_src r = n) /\ (forall n x, src = Buffer (Some n) x -> sentences_src r = n) /\ (forall x, src = Buffer None x -> sentences_src r = x)) /\
  (forall b l, new_links dv lower (get_src_repr src) rows ids flt = (b, Ok l) ->
     (forall n, src = Path n -> links_src l = n) /\ (forall n x, src = Buffer (Some n) x -> links_src l = n) /\ (forall x, src = Buffer None x -> links_src l = x)).
Proof.
  split.
  - intros r E. assert (S : sentences_src r = get_src_repr src).
    { unfold new_sentences in E. destruct (set_sentences dv strptime keep (mkreader langs [] None) (get_src_repr src) rows) as [r' o] eqn:X. unfold set_sentences in X.
      repeat match type of X with context [match ?d with _ => _ end] => destruct d end; injection X as <- <-; cbn [bind] in E; try discriminate E; injection E as <-; reflexivity. }
    rewrite S. repeat split; intros; subst; reflexivity.
  - intros b l E. assert (S : links_src l = get_src_repr src).
    { unfold new_links in E. destruct (ids_filter lower (option_map (fun l => set_of l) ids) flt) as [[[fs ft] v]|]; [|discriminate E].
      match type of E with (let (_, _) := ?d in _) = _ => destruct d as [r' o] eqn:X end. unfold set_links in X.
      repeat match type of X with context [match ?d with _ => _ end] => destruct d end; injection X as <- <-; cbn [bind] in E; try discriminate E; injection E as _ <-; reflexivity. }
    rewrite S. repeat split; intros; subst; reflexivity.
Qed.
Print Assumptions C91_source.
Example C91_case :
  (exists r, new_sentences ascii_dv (fun _ => Raise ValueError) (fun _ => false) None (u "f") ([[u "1"; u "eng"; u "One"]; [u "2"; u "jpn"; u "二"]], Ok tt) = Ok (r : reader unit) /\
     m_items (as_sentences r) = Ok [(1, u "One"); (2, u "二")] /\ m_contains (as_sentences r) 3 = Ok false /\ m_get (as_sentences r) 3 (u "?") = Ok (u "?") /\
     sentences_repr r = u "TatoebaSentenceReader(sentences='f')") /\
  (exists r r', new_links ascii_dv (fun s => s) (u "f") ([[u "1"; u "2"]; [u "3"; u "2"]], Ok tt) None (u "both") = (true, Ok r) /\
     new_links ascii_dv (fun s => s) (u "g") ([[u "2"; u "3"]; [u "1"; u "3"]], Ok tt) None (u "both") = (true, Ok r') /\
     m_eq frozenset_eq (as_links r) (as_links r') = Ok true /\ m_len (as_links r) = Ok 3%nat).
Proof.
  split; [eexists; split; [vm_compute; reflexivity|repeat split; vm_compute; reflexivity]|].
  do 2 eexists; split; [vm_compute; reflexivity|split; [vm_compute; reflexivity|split; vm_compute; reflexivity]].
Qed.

(** C92: from the text of a file to the answers of a reader *)
Theorem C92_sentences date dv (strptime : str -> res date) langs name (es : list (Z * str * str)) : ascii_digits dv -> es <> [] ->
  Forall (fun e => short (dec (fst (fst e))) /\ text_field (snd (fst e)) /\ text_field (snd e)) es ->
  exists r, new_sentences dv strptime (fun _ => false) langs name (load_text_file (file_of (map sentence_row es))) = Ok r /\
    (forall a b i l t, filter (fun e => wanted langs (snd (fst e))) es = a ++ (i, l, t) :: b -> Forall (fun e => fst (fst e) <> i) b -> sentence r i = Ok t) /\
    (forall i, Forall (fun e => fst (fst e) <> i \/ ~ wants langs (snd (fst e))) es -> sentence r i = Raise InvalidIDError).
Proof.
  intros A NE F.
  rewrite load_file_of.
  2: { apply Forall_forall; intros row I; apply in_map_iff in I; destruct I as [[[i l] t] [<- I]]; rewrite Forall_forall in F; destruct (F _ I) as [S [L T]]; cbn [fst snd] in *.
       split; [discriminate|split; [discriminate|]]; repeat apply Forall_cons; try apply Forall_nil; try assumption; apply dec_field, S. }
  pose proof (written_rows dv A date strptime langs es) as W; set (xs := map _ (filter _ _)) in W.
  assert (C : columns (map sentence_row es) 3) by (destruct es as [|[[i l] t] es]; [contradiction|]; do 2 eexists; split; reflexivity).
  assert (X : new_sentences dv strptime (fun _ => false) langs name (map sentence_row es, Ok tt) = Ok (mkreader langs name (Some (the_tables xs false)))) by (apply new_iff; split; [reflexivity|]; exists false, xs; auto).
  eexists; split; [exact X|split].
  - intros a b i l t E N; apply (get_last langs name false xs i (mkentry i l t None)).
    unfold xs; rewrite E, map_app; cbn [map]; do 2 eexists; split; [reflexivity|split; [reflexivity|]].
    clear -N; induction N as [|[[j m] s] b J N IH]; constructor; [exact J|exact IH].
  - intros i N; apply (get_unknown langs name false xs i); intros [e [I J]]; apply in_map_iff in I; destruct I as [[[j m] s] [<- I]].
    apply filter_In in I; destruct I as [I W']; rewrite Forall_forall in N; destruct (N _ I) as [Y|Y]; [exact (Y J)|exact (Y (proj1 (wanted_iff _ _) W'))].
Qed.
Print Assumptions C92_sentences.
Theorem C92_detailed date dv (strptime : str -> res date) (strftime : date -> str) langs name (es : list (entry date)) : ascii_digits dv -> es <> [] ->
  (forall d, strptime (strftime d) = Ok d /\ strftime d <> u "\N" /\ strftime d <> u "0000-00-00 00:00:00" /\ text_field (strftime d)) ->
  Forall (fun e => short (dec (e_id e)) /\ text_field (e_lang e) /\ text_field (e_text e) /\
    exists n a m, e_info e = Some (n, a, m) /\ n <> Some (u "\N") /\ (forall s, n = Some s -> text_field s)) es ->
  exists r, new_sentences dv strptime (fun _ => false) langs name (load_text_file (file_of (map (detailed_row strftime) es))) = Ok r /\
    (forall i e, last_entry (filter (fun e => wanted langs (e_lang e)) es) i e -> sentence r i = Ok (e_text e) /\ exists x, e_info e = Some x /\ details r i = Ok x) /\
    (forall i, Forall (fun e => e_id e <> i \/ ~ wants langs (e_lang e)) es -> sentence r i = Raise InvalidIDError /\ details r i = Raise InvalidIDError).
Proof.
  intros A NE P F.
  assert (TN : text_field (u "\N")) by (repeat split; [repeat constructor; discriminate|discriminate|unfold short; cbn; lia]).
  assert (TD : forall d : option date, text_field (date_text strftime d)) by (intros [d|]; cbn [date_text]; [apply P|exact TN]).
  rewrite load_file_of.
  2: { apply Forall_forall; intros row I; apply in_map_iff in I; destruct I as [e [<- I]]; rewrite Forall_forall in F; destruct (F _ I) as [S [L [T [n [a [m [X [_ Tn]]]]]]]].
       unfold detailed_row; rewrite X; split; [discriminate|split; [discriminate|]]; repeat apply Forall_cons; try apply Forall_nil; try assumption; try apply TD; [apply dec_field, S|destruct n; cbn [name_text]; auto]. }
  assert (F' : Forall (fun e : entry date => exists n a m, e_info e = Some (n, a, m) /\ n <> Some (u "\N")) es).
  { eapply Forall_impl; [|exact F]; intros e [_ [_ [_ [n [a [m [X [Y _]]]]]]]]; exists n, a, m; auto. }
  assert (P' : forall d, strptime (strftime d) = Ok d /\ strftime d <> u "\N" /\ strftime d <> u "0000-00-00 00:00:00") by (intros d; destruct (P d) as [? [? [? _]]]; auto).
  pose proof (detailed_rows dv A date strptime strftime P' langs es F') as W; set (xs := filter _ _) in W |- *.
  assert (C : columns (map (detailed_row strftime) es) 6).
  { destruct es as [|e es]; [contradiction|]; inversion F' as [|? ? [n [a [m [X _]]]] _]; subst; cbn [map]; unfold detailed_row at 1; rewrite X; do 2 eexists; split; reflexivity. }
  assert (X : new_sentences dv strptime (fun _ => false) langs name (map (detailed_row strftime) es, Ok tt) = Ok (mkreader langs name (Some (the_tables xs true)))) by (apply new_iff; split; [reflexivity|]; exists true, xs; auto).
  eexists; split; [exact X|split].
  - intros i e L; split; [apply (get_last langs name true xs i e L)|].
    destruct (details_last dv strptime (fun _ => false) langs name _ true xs W i e eq_refl L) as [Y N].
    destruct (e_info e) as [x|]; [exists x; auto|contradiction].
  - intros i N; assert (U : ~ known xs i).
    { intros [e [I J]]; apply filter_In in I; destruct I as [I W']; rewrite Forall_forall in N; destruct (N _ I) as [Y|Y]; [exact (Y J)|exact (Y (proj1 (wanted_iff _ _) W'))]. }
    split; [apply (get_unknown langs name true xs i U)|exact (details_unknown dv strptime (fun _ => false) langs name _ true xs W i eq_refl U)].
Qed.
Print Assumptions C92_detailed.
Theorem C92_links dv lower name ids flt (ps : list (Z * Z)) : ascii_digits dv -> filter_name (lower flt) ->
  Forall (fun p => short (dec (fst p)) /\ short (dec (snd p))) ps ->
  exists r, new_links dv lower name (load_text_file (file_of (map link_row_of ps))) ids flt = (true, Ok r) /\
    (forall i, (exists g, group r i = Ok g) <-> endpoint (used (lower flt) ids ps) i) /\
    (~ bridge (used (lower flt) ids ps) -> forall i g, group r i = Ok g -> forall y, In y g <-> connected (used (lower flt) ids ps) i y).
Proof.
  intros A Fn F; rewrite load_file_of.
  2: { apply Forall_forall; intros row I; apply in_map_iff in I; destruct I as [p [<- I]]; rewrite Forall_forall in F; destruct (F _ I) as [S T].
       split; [discriminate|split; [discriminate|]]; repeat apply Forall_cons; try apply Forall_nil; try assumption; apply dec_field; assumption. }
  eexists; split; [apply new_links_ok; [exact Fn|apply written_links, A]|split].
  - intros i; apply group_iff.
  - intros NB i g G; exact (group_component _ _ _ _ _ _ NB G).
Qed.
Print Assumptions C92_links.
Theorem C92_indices dv name (es : list (Z * Z * list word)) : unicode_digits dv ->
  Forall (fun e => let '(i, m, ws) := e in short (dec i) /\ short (dec m) /\ text_field (join (u " ") (map word_str ws)) /\ Forall (fun w => well_formed w /\ no_space w) ws) es ->
  exists r, new_indices dv name (load_text_file (file_of (map index_row_of es))) None None = Ok r /\
    (forall a b i m ws, es = a ++ (i, m, ws) :: b -> Forall (fun e => fst (fst e) <> i) b -> igetitem r i = Ok ws /\ link r i = Ok m) /\
    (forall i, Forall (fun e => fst (fst e) <> i) es -> igetitem r i = Raise KeyError /\ link r i = Raise InvalidIDError).
Proof.
  intros A F; rewrite load_file_of.
  2: { apply Forall_forall; intros row I; apply in_map_iff in I; destruct I as [[[i m] ws] [<- I]]; rewrite Forall_forall in F; destruct (F _ I) as [S [T [X _]]].
       split; [discriminate|split; [discriminate|]]; repeat apply Forall_cons; try apply Forall_nil; try assumption; try (apply dec_field; assumption); apply X. }
  assert (W := written_indices dv es A); set (xs := map (fun e : Z * Z * list word => let '(i, m, ws) := e in mkientry i m ws) es) in W.
  assert (F' : Forall (fun e : Z * Z * list word => Forall (fun w => well_formed w /\ no_space w) (snd e)) es).
  { eapply Forall_impl; [|exact F]; intros [[i m] ws]; cbn [snd]; intuition. }
  eexists; split; [apply new_indices_iff; [exact A|]; split; [reflexivity|]; exists xs; split; [exact (W F')|reflexivity]|split].
  - intros a b i m ws E N; apply (index_last name None None xs i (mkientry i m ws)); unfold xs; rewrite E, map_app; cbn [map]; do 2 eexists; split; [reflexivity|split; [reflexivity|]].
    clear -N; induction N as [|[[j k] s] b J N IH]; constructor; [exact J|exact IH].
  - intros i N; apply index_unknown; unfold xs; clear -N; induction N as [|[[j k] s] b J N IH]; constructor; [exact J|exact IH].
Qed.
Print Assumptions C92_indices.
Example C92_case :
  file_of (map sentence_row [(1, u "eng", u "One"); (2, u "jpn", u "二")]) = u "1	eng	One
2	jpn	二
" /\ file_of (map link_row_of [(1, 2); (-3, 40)]) = u "1	2
-3	40
" /\ file_of (map index_row_of [(5, 6, [mkword (u "彼") (Some (u "かれ")) (Some 1) None false; mkword (u "は") None None None true])]) = u "5	6	彼(かれ)[01] は~
".
Proof. repeat split; vm_compute; reflexivity. Qed.
Example C92_read : exists r, new_links ascii_dv (fun s => s) (u "f") (load_text_file (file_of (map link_row_of [(1, 2); (-3, 2)]))) None (u "both") = (true, Ok r) /\ group r 1 = Ok [2; 1; -3].
Proof. eexists; split; vm_compute; reflexivity. Qed.
