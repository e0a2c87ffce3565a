(* Corpus_proofs.v *)
From Verif Require Import Base PyText PyFmt Csv_model Csv_spec Csv_proofs Tanaka_model Tanaka_spec Tanaka_proofs Tatoeba_model Tatoeba_spec Tatoeba_proofs Corpus_model Corpus_spec.

Section Mapping.
  Context {K V : Type} `{EqB K}.
  Variable m : mapping K V.
  Variable ks : list K.
  Variable f : K -> option V.
  Hypothesis R : represents m ks f.

  Lemma rep_get k : m_getitem m k = match f k with Some v => Ok v | None => Raise KeyError end.
  Proof. apply R. Qed.
  Lemma rep_contains k : m_contains m k = Ok (match f k with Some _ => true | None => false end).
  Proof. unfold m_contains; rewrite rep_get; destruct (f k); reflexivity. Qed.
  Lemma rep_default k d : m_get m k d = Ok (match f k with Some v => v | None => d end).
  Proof. unfold m_get; rewrite rep_get; destruct (f k); reflexivity. Qed.
  Lemma rep_len : m_len m = Ok (length ks).
  Proof. unfold m_len; rewrite (proj1 R); reflexivity. Qed.
  Lemma rep_items : exists vs, m_items m = Ok (combine ks vs) /\ m_values m = Ok vs /\ Forall2 (fun k v => f k = Some v) ks vs.
  Proof.
    destruct R as [I [ND [Dm G]]]; unfold m_items, m_values; rewrite I; cbn [bind]; assert (D : forall k, In k ks -> f k <> None) by (intros k; apply Dm).
    clear I ND Dm R; induction ks as [|k l IH]; [exists []; repeat split; constructor|].
    destruct IH as [vs [A [B F]]]; [intros x Ix; apply D; right; exact Ix|].
    destruct (f k) as [v|] eqn:E; [|elim (D k); [left; reflexivity|exact E]].
    exists (v :: vs); cbn [mapM combine]; rewrite G, E; cbn [bind]; rewrite A, B; repeat split; constructor; assumption.
  Qed.
End Mapping.

Section Equality.
  Context {K V : Type} `{EqB K}.
  Variable veq : V -> V -> bool.
  Lemma dict_of_app (l : list (K * V)) : forall d, NoDup (dkeys d ++ map fst l) -> fold_left (fun d p => dset (fst p) (snd p) d) l d = d ++ l.
  Proof.
    induction l as [|[k v] l IH]; intros d N; [rewrite app_nil_r; reflexivity|]; cbn [fold_left fst snd].
    assert (S : dset k v d = d ++ [(k, v)]).
    { assert (A : ~ In k (dkeys d)) by (intros I; cbn [map fst] in N; apply NoDup_remove_2 in N; apply N, in_or_app; left; exact I).
      clear -A; induction d as [|[a b] d IH]; [reflexivity|]; cbn [dset app]; cbn [dkeys map fst In] in A.
      rewrite (eqb_neq k a) by (intros ->; apply A; left; reflexivity); rewrite IH by (intros I; apply A; right; exact I); reflexivity. }
    rewrite S, IH; [rewrite <- app_assoc; reflexivity|].
    unfold dkeys in *; rewrite map_app; cbn [map fst]; rewrite <- app_assoc; exact N.
  Qed.
  Lemma dict_of_nodup (l : list (K * V)) : NoDup (map fst l) -> dict_of l = l.
  Proof. intros N; unfold dict_of, dupdate; rewrite dict_of_app; [reflexivity|exact N]. Qed.
  Lemma combine_fst (ks : list K) (vs : list V) f : Forall2 (fun k v => f k = Some v) ks vs -> map fst (combine ks vs) = ks.
  Proof. induction 1 as [|k v ks vs E F IH]; [reflexivity|]; cbn [combine map fst]; rewrite IH; reflexivity. Qed.
  Lemma combine_get (ks : list K) (vs : list V) f k : NoDup ks -> (forall x, In x ks <-> f x <> None) -> Forall2 (fun k v => f k = Some v) ks vs -> dget k (combine ks vs) = f k.
  Proof.
    intros N D F; destruct (f k) as [v|] eqn:E.
    - assert (I : In k ks) by (apply D; congruence); clear D; induction F as [|a b ks vs E' F IH]; [destruct I|]; cbn [combine dget].
      destruct (eqb_spec k a) as [->|Na]; [congruence|]; inversion N; subst; apply IH; [assumption|]; destruct I as [->|I]; [contradiction|exact I].
    - destruct (dget k (combine ks vs)) as [v|] eqn:G; [|reflexivity]; apply dget_In in G; apply (in_map fst) in G; cbn [fst] in G.
      rewrite (combine_fst ks vs f F) in G; apply D in G; contradiction.
  Qed.
  Theorem rep_eq m m' ks ks' f f' : represents m ks f -> represents m' ks' f' ->
    exists b, m_eq veq m m' = Ok b /\
      (b = true <-> forall k, match f k, f' k with Some v, Some v' => veq v v' = true | None, None => True | _, _ => False end).
  Proof.
    intros R R'; destruct (rep_items m ks f R) as [vs [I [_ F]]]; destruct (rep_items m' ks' f' R') as [vs' [I' [_ F']]].
    unfold m_eq; rewrite I, I'; cbn [bind]; eexists; split; [reflexivity|].
    destruct R as [_ [N [D _]]], R' as [_ [N' [D' _]]].
    rewrite !dict_of_nodup; [|rewrite (combine_fst _ _ _ F'); exact N'|rewrite (combine_fst _ _ _ F); exact N].
    unfold dict_eq; rewrite andb_true_iff, Nat.eqb_eq, forallb_forall.
    assert (Len : forall (ks : list K) (vs : list V) f, Forall2 (fun k v => f k = Some v) ks vs -> length (combine ks vs) = length ks).
    { intros a b g X; induction X; cbn [combine length]; congruence. }
    rewrite (Len _ _ _ F), (Len _ _ _ F').
    assert (Mem : forall k v, In (k, v) (combine ks vs) <-> f k = Some v).
    { intros k v; split; intros X.
      - apply In_dget in X; [rewrite <- X; symmetry; apply combine_get; assumption|unfold dkeys; rewrite (combine_fst _ _ _ F); exact N].
      - apply dget_In; rewrite <- X; apply combine_get; assumption. }
    split.
    - intros [L A] k; destruct (f k) as [v|] eqn:E.
      + specialize (A (k, v) (proj2 (Mem k v) E)); cbn [fst snd] in A; rewrite (combine_get ks' vs' f' k N' D' F') in A; destruct (f' k); [exact A|discriminate].
      + destruct (f' k) as [v'|] eqn:E'; [|exact Logic.I].
        assert (Inc : incl ks ks').
        { intros x Ix; apply D'; destruct (f x) as [w|] eqn:X; [|apply D in Ix; congruence].
          specialize (A (x, w) (proj2 (Mem x w) X)); cbn [fst snd] in A; rewrite (combine_get ks' vs' f' x N' D' F') in A; destruct (f' x); congruence. }
        assert (Inc' : incl ks' ks) by (apply NoDup_length_incl; [exact N|lia|exact Inc]).
        assert (Y : In k ks) by (apply Inc', D'; congruence); apply D in Y; congruence.
    - intros A; split.
      + apply Nat.le_antisymm; apply NoDup_incl_length; try assumption; intros x Ix.
        * apply D in Ix; apply D'; specialize (A x); destruct (f x), (f' x); congruence || contradiction.
        * apply D' in Ix; apply D; specialize (A x); destruct (f x), (f' x); congruence || contradiction.
      + intros [k v] X; apply Mem in X; cbn [fst snd]; rewrite (combine_get ks' vs' f' k N' D' F'); specialize (A k); rewrite X in A; destruct (f' k); [exact A|contradiction].
  Qed.
End Equality.

Lemma frozenset_eq_iff s t : NoDup s -> NoDup t -> frozenset_eq s t = true <-> forall x, In x s <-> In x t.
Proof.
  intros N N'; unfold frozenset_eq; rewrite andb_true_iff, Nat.eqb_eq, forallb_forall; split.
  - intros [L A]; assert (I : incl s t) by (intros x Ix; apply mem_In, A, Ix).
    intros x; split; [apply I|]; apply NoDup_length_incl; [exact N|lia|exact I].
  - intros A; split; [|intros x Ix; apply mem_In, A, Ix].
    apply Nat.le_antisymm; apply NoDup_incl_length; try assumption; intros x; apply A.
Qed.
Lemma list_eq_iff {A} (eq : A -> A -> bool) a b : list_eq eq a b = true <-> Forall2 (fun x y => eq x y = true) a b.
Proof.
  revert b; induction a as [|x a IH]; intros [|y b]; cbn [list_eq].
  - split; [constructor|reflexivity].
  - split; [discriminate|intros X; inversion X].
  - split; [discriminate|intros X; inversion X].
  - rewrite andb_true_iff, IH; split; [intros [E F]; constructor; assumption|intros X; inversion X; auto].
Qed.

(** ** the three readers *)
Lemma dict_represents {V} (d : dict Z V) : NoDup (dkeys d) -> represents (mkmapping (dgetitem d) (Ok (dkeys d))) (dkeys d) (fun k => dget k d).
Proof.
  intros N; split; [reflexivity|split; [exact N|split]].
  - intros k; split; [intros I E; apply dget_None in E; contradiction|intros E; destruct (dget k d) eqn:G; [|congruence]; apply In_key_dget; eauto].
  - intros k; cbn [m_getitem]; unfold dgetitem; destruct (dget k d); reflexivity.
Qed.
Lemma sentences_represent {date} dv (strptime : str -> res date) filter_row langs name src r :
  new_sentences dv strptime filter_row langs name src = Ok r ->
  exists ks f, represents (as_sentences r) ks f.
Proof.
  destruct src as [rows o]; intros R; apply new_iff in R; destruct R as [_ [d [es [_ [_ ->]]]]].
  exists (dkeys (sentence_dict (the_tables es d))), (fun k => dget k (sentence_dict (the_tables es d))).
  apply (dict_represents (sentence_dict (the_tables es d))).
  unfold the_tables; rewrite fold_sentences, (fold_keys e_id (fun _ e => e_text e)); apply NoDup_supdate; constructor.
Qed.
Lemma links_nodup ps : NoDup (dkeys (link_dict (links_state ps))).
Proof.
  induction ps as [|[s t] ps IH] using rev_ind; [constructor|]; rewrite links_snoc.
  assert (F : forall (n : nat) (l : list Z) (d : list (Z * nat)), NoDup (dkeys d) -> NoDup (dkeys (fold_left (fun d k => dset k n d) l d))).
  { intros n l; induction l as [|k l IHl]; intros d N; [exact N|]; cbn [fold_left]; apply IHl, NoDup_dset, N. }
  unfold add_link; destruct (dget s _); [|destruct (dget t _)]; cbn [link_dict]; apply F, IH.
Qed.
Lemma groups_nodup ps n g : dget n (group_dict (links_state ps)) = Some g -> NoDup g.
Proof.
  revert n g; induction ps as [|[s t] ps IH] using rev_ind; [discriminate|]; rewrite links_snoc; intros n g.
  assert (F : forall k l, NoDup (supdate match dget k (group_dict (links_state ps)) with Some g => g | None => [] end l)).
  { intros k l; apply NoDup_supdate; destruct (dget k _) eqn:E; [exact (IH _ _ E)|constructor]. }
  assert (S : forall a b : list Z, Some a = Some b -> b = a) by congruence.
  unfold add_link; destruct (dget s _) as [k|]; [|destruct (dget t _) as [k|]]; cbn [group_dict]; rewrite dget_dset; (destruct (eqb n _); [intros X; rewrite (S _ _ X); apply F|apply IH]).
Qed.
Lemma links_represent ids v name ps :
  let st := links_state (used v ids ps) in
  represents (as_links (the_lreader ids v name ps)) (dkeys (link_dict st))
    (fun k => match dget k (link_dict st) with Some n => dget n (group_dict st) | None => None end).
Proof.
  cbv zeta; set (st := links_state (used v ids ps)); destruct (links_inv (used v ids ps)) as [IK IO IC IB IN]; fold st in IK, IO, IC, IB, IN.
  split; [reflexivity|split; [apply links_nodup|split]].
  - intros k; split.
    + intros I; apply In_key_dget in I; destruct I as [n E]; rewrite E; destruct (IO k n E) as [g [G _]]; congruence.
    + intros E; destruct (dget k (link_dict st)) as [n|] eqn:L; [apply In_key_dget; eauto|congruence].
  - intros k; cbn [m_getitem as_links]; unfold lgetitem, dgetitem; cbn [ldicts the_lreader of_option bind fst snd]; fold st.
    destruct (dget k (link_dict st)) as [n|]; cbn [of_option bind]; [|reflexivity]; destruct (dget n (group_dict st)); reflexivity.
Qed.
Lemma indices_represent dv name src edict ids r : new_indices dv name src edict ids = Ok r -> unicode_digits dv ->
  exists ks f, represents (as_indices r) ks f.
Proof.
  destruct src as [rows o]; intros R A; apply new_indices_iff in R; [|exact A]; destruct R as [_ [es [_ ->]]].
  destruct (index_keys name edict ids es) as [d [E [N _]]].
  exists (dkeys (fst d)), (fun k => dget k (fst d)); unfold as_indices, igetitem; rewrite E; cbn [of_option bind].
  apply (dict_represents (fst d) N).
Qed.

(** ** whole files *)
Lemma dec_field n : short (dec n) -> text_field (dec n).
Proof.
  intros S; destruct (dec_chars n) as [F _]; split; [|split; [|exact S]].
  - eapply Forall_impl; [|exact F]; intros c; unfold digit_char, plain_char; lia.
  - destruct (dec n) as [|c r]; [discriminate|]; inversion F as [|? ? X _]; subst; cbn [hd]; unfold digit_char in X; intros E; vm_compute in E; lia.
Qed.
Lemma load_file_of rows : Forall (fun row => row <> [] /\ row <> [[]] /\ Forall text_field row) rows -> load_text_file (file_of rows) = (rows, Ok tt).
Proof. exact (load_text rows). Qed.

Lemma wanted_iff langs l : wanted langs l = true <-> wants langs l.
Proof. destruct langs; cbn [wanted wants]; [apply mem_In|tauto]. Qed.
Section Files.
  Variable dv : Z -> option Z.
  Hypothesis A : ascii_digits dv.

  Section Sentences.
    Variable date : Type.
    Variable strptime : str -> res date.
    Lemma written_rows langs (es : list (Z * str * str)) :
      entries dv strptime (fun _ => false) langs false (map sentence_row es)
        (map (fun e => let '(i, l, t) := e in mkentry i l t None) (filter (fun e => wanted langs (snd (fst e))) es)).
    Proof.
      induction es as [|[[i l] t] es IH]; [constructor|]; cbn [map filter sentence_row fst snd].
      destruct (wanted langs l) eqn:W.
      - cbn [map]; apply Entries_row; [reflexivity|apply wanted_iff, W|apply py_int_dec, A|reflexivity|exact IH].
      - apply Entries_other_language; [reflexivity|rewrite <- wanted_iff; congruence|exact IH].
    Qed.
    Variable strftime : date -> str.
    Hypothesis P : forall d, strptime (strftime d) = Ok d /\ strftime d <> u "\N" /\ strftime d <> u "0000-00-00 00:00:00".
    Lemma date_text_ok d : is_date strptime (date_text strftime d) d.
    Proof.
      destruct d as [d|]; cbn [date_text]; [right|left; split; [left|]; reflexivity].
      destruct (P d) as [X [Y Z]]; split; [exact Y|split; [exact Z|exists d; auto]].
    Qed.
    Lemma name_text_ok n : n <> Some (u "\N") -> is_name (name_text n) n.
    Proof. destruct n as [n|]; cbn [name_text]; intros N; [right; split; [congruence|reflexivity]|left; split; reflexivity]. Qed.
    Lemma detailed_rows langs es : Forall (fun e : entry date => exists n a m, e_info e = Some (n, a, m) /\ n <> Some (u "\N")) es ->
      entries dv strptime (fun _ => false) langs true (map (detailed_row strftime) es) (filter (fun e => wanted langs (e_lang e)) es).
    Proof.
      induction 1 as [|e es [n [a [m [X N]]]] F IH]; [constructor|]; cbn [map filter]; unfold detailed_row at 1; rewrite X.
      destruct (wanted langs (e_lang e)) eqn:W.
      - destruct e as [i l t o]; cbn [e_info e_lang e_text e_id] in *; subst o; apply Entries_row; [reflexivity|apply wanted_iff, W|apply py_int_dec, A| |exact IH].
        exists (name_text n), (date_text strftime a), (date_text strftime m), [], n, a, m; split; [reflexivity|split; [reflexivity|split; [apply name_text_ok, N|split; apply date_text_ok]]].
      - apply Entries_other_language; [reflexivity|rewrite <- wanted_iff; congruence|exact IH].
    Qed.
  End Sentences.

  Lemma written_links ps : link_rows dv (map link_row_of ps) ps.
  Proof.
    induction ps as [|p ps IH]; constructor; [|exact IH]; exists (dec (fst p)), (dec (snd p)); split; [reflexivity|split; apply py_int_dec, A].
  Qed.
End Files.
Lemma written_indices dv es : unicode_digits dv -> Forall (fun e : Z * Z * list word => Forall (fun w => well_formed w /\ no_space w) (snd e)) es ->
  ientries dv None None (map index_row_of es) (map (fun e => let '(i, m, ws) := e in mkientry i m ws) es).
Proof.
  intros U; induction 1 as [|[[i m] ws] es W F IH]; [constructor|]; cbn [map index_row_of snd] in *.
  destruct (pieces_exist (join (u " ") (map word_str ws))) as [ps Pp].
  eapply Ientries_in; [apply py_int_dec, U|apply py_int_dec, U|discriminate|exact Pp| |reflexivity|exact IH].
  apply (parse_sentence_iff dv _ ps ws U Pp), sentence_round_trip; assumption.
Qed.
