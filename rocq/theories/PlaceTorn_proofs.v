(* PlaceTorn_proofs.v -- proofs about dumps cut short *)
From Verif Require Import Base PyText PyFmt Rose Maps_model Place_model Place_spec Place_proofs PlaceTorn_model PlaceTorn_spec.

(* ---------------- the first nodes of a tree ---------------- *)
Section Crop.
  Context {A : Type}.
  Variable f : A -> A.
  Definition cropped (m : nat) (l : list (Z * A)) : list (Z * A) :=
    firstn m l ++ match nth_error l m with Some (d, p) => [(d, f p)] | None => [] end.
  Lemma cropped_left m l r : (m < length l)%nat -> cropped m (l ++ r) = cropped m l.
  Proof.
    intros L; unfold cropped; rewrite firstn_app, nth_error_app1 by exact L.
    replace (m - length l)%nat with 0%nat by lia; rewrite firstn_O, app_nil_r; reflexivity.
  Qed.
  Lemma cropped_right m l r : (length l <= m)%nat -> cropped m (l ++ r) = l ++ cropped (m - length l) r.
  Proof.
    intros L; unfold cropped; rewrite firstn_app, nth_error_app2 by exact L.
    rewrite (firstn_all2 l L), app_assoc; reflexivity.
  Qed.
  Lemma cropped_cons m x l : cropped (S m) (x :: l) = x :: cropped m l.
  Proof. reflexivity. Qed.
End Crop.
Lemma fpre_length {A} d (ks : list (rose A)) : length (flat_map (pre d) ks) = fsize ks.
Proof.
  induction ks as [|k ks IH]; [reflexivity|]; cbn [flat_map]; rewrite app_length, pre_length, IH, fsize_cons; reflexivity.
Qed.
Section CropPlaces.
  Variable f : place -> place.
  Hypothesis same : forall p, label (f p) = label p.
  Definition crops (T : rose place) : Prop :=
    forall m, (m < rsize T)%nat -> apart T ->
    exists T', (forall d, pre d T' = cropped f m (pre d T)) /\ apart T' /\ label (root T') = label (root T).
  Lemma forest_crops ks : Forall crops ks -> forall m, (m < fsize ks)%nat -> Forall apart ks ->
    exists ks', (forall d, flat_map (pre d) ks' = cropped f m (flat_map (pre d) ks)) /\
      (exists c, map (fun T => label (root T)) ks = map (fun T => label (root T)) ks' ++ c) /\ Forall apart ks'.
  Proof.
    induction 1 as [|k ks C F IH]; intros m L AP; [cbn in L; lia|]; inversion AP as [|? ? A1 A2]; subst; rewrite fsize_cons in L.
    destruct (Nat.ltb_spec m (rsize k)) as [X|X].
    - destruct (C m X A1) as [k' [E [A' LB]]]; exists [k']; split; [|split].
      + intros d; cbn [flat_map]; rewrite app_nil_r, cropped_left by (rewrite pre_length; exact X); apply E.
      + exists (map (fun T => label (root T)) ks); cbn; rewrite LB; reflexivity.
      + constructor; [exact A'|constructor].
    - destruct (IH (m - rsize k)%nat ltac:(lia) A2) as [ks' [E [[c LB] A']]]; exists (k :: ks'); split; [|split].
      + intros d; cbn [flat_map]; rewrite cropped_right by (rewrite pre_length; exact X); rewrite pre_length, E; reflexivity.
      + exists c; cbn; rewrite LB; reflexivity.
      + constructor; assumption.
  Qed.
  Lemma tree_crops T : crops T.
  Proof.
    induction T as [q ks IH] using rose_rec_ind; intros m L AP; inversion AP as [? ? ND F]; subst.
    destruct m as [|m].
    - exists (Rose (f q) []); split; [intros d; reflexivity|split; [constructor; constructor|apply same]].
    - destruct (forest_crops ks IH m ltac:(rewrite rsize_eq in L; unfold fsize; lia) F) as [ks' [E [[c LB] A']]].
      exists (Rose q ks'); split; [|split; [|reflexivity]].
      + intros d; cbn [pre]; rewrite cropped_cons, E; reflexivity.
      + constructor; [|exact A']. rewrite LB in ND; clear -ND; induction (map _ ks') as [|x l IH]; [constructor|].
        cbn in ND; inversion ND; subst; constructor; [intros I; apply H1, in_or_app; left; exact I|apply IH; assumption].
  Qed.
End CropPlaces.

(* ---------------- lines ---------------- *)
Lemma file_lines_last l : l <> [] -> no_break l -> file_lines l = [l].
Proof.
  intros NE NB; unfold file_lines.
  assert (G : forall l cur, no_break l -> (l <> [] \/ cur <> []) -> lines_from cur l = [rev cur ++ l]).
  { clear; induction l as [|c l IH]; intros cur NB H; cbn [lines_from].
    - destruct cur as [|x cur]; [destruct H; congruence|rewrite app_nil_r; reflexivity].
    - destruct (NB c (or_introl eq_refl)) as [N1 N2]; destruct (Z.eqb_spec c 10), (Z.eqb_spec c 13); try contradiction.
      rewrite IH; [cbn [rev]; rewrite <- app_assoc; reflexivity|intros d I; apply NB; right; exact I|right; discriminate]. }
  rewrite G; [reflexivity|exact NB|left; exact NE].
Qed.
Lemma file_lines_more ls r : Forall no_break ls -> file_lines (flat_map (fun l => l ++ [10]) ls ++ r) = map (fun l => l ++ [10]) ls ++ file_lines r.
Proof.
  induction 1 as [|l ls N F IH]; [reflexivity|]; cbn [flat_map map app]; rewrite <- !app_assoc; cbn [app].
  rewrite file_lines_line by exact N; f_equal; exact IH.
Qed.
Section Load.
  Variable dv : Z -> option Z.
  Lemma load_ext ls ls' : Forall2 (fun a b => from_line dv a = from_line dv b) ls ls' ->
    forall h path ld ln, load_loop dv h path ld ln ls = load_loop dv h path ld ln ls'.
  Proof.
    induction 1 as [|a b ls ls' E F IH]; intros h path ld ln; [reflexivity|]; cbn [load_loop]; rewrite E.
    destruct (from_line dv b) as [[d p]|e]; cbn [bind]; [|reflexivity].
    destruct (if d =? ld + 1 then _ else _) as [q|e]; cbn [bind]; [|reflexivity].
    destruct (pop_last q) as [[x y]|]; [apply IH|reflexivity].
  Qed.
  Lemma from_file_ext h ls ls' : Forall2 (fun a b => from_line dv a = from_line dv b) ls ls' -> from_file dv h ls = from_file dv h ls'.
  Proof.
    intros F; destruct F as [|a b ls ls' E F]; [reflexivity|]; cbn [from_file]; rewrite E.
    destruct (from_line dv b) as [[d p]|e]; cbn [bind]; [|reflexivity].
    destruct (negb (d =? 0)); [reflexivity|]; rewrite (load_ext _ _ F); reflexivity.
  Qed.
  Lemma load_bad bad e ls : from_line dv bad = Raise e -> forall h path ld ln h', load_loop dv h path ld ln ls = Ok h' ->
    load_loop dv h path ld ln (ls ++ [bad]) = Raise e.
  Proof.
    intros B; induction ls as [|l ls IH]; intros h path ld ln h'; cbn [load_loop app]; [intros _; rewrite B; reflexivity|].
    destruct (from_line dv l) as [[d p]|x]; cbn [bind]; [|discriminate].
    destruct (if d =? ld + 1 then _ else _) as [q|x]; cbn [bind]; [|discriminate].
    destruct (pop_last q) as [[x y]|]; [apply IH|discriminate].
  Qed.
  Lemma from_file_bad h bad e ls : from_line dv bad = Raise e -> (ls = [] \/ exists r, from_file dv h ls = Ok r) ->
    from_file dv h (ls ++ [bad]) = Raise e.
  Proof.
    intros B [->|[r O]]; [cbn [app from_file]; rewrite B; reflexivity|].
    destruct ls as [|l ls]; [discriminate|]; cbn [app from_file] in *.
    destruct (from_line dv l) as [[d p]|x]; cbn [bind] in *; [|discriminate].
    destruct (negb (d =? 0)); [discriminate|].
    destruct (load_loop dv _ _ _ _ ls) as [h'|x] eqn:L; [|discriminate].
    rewrite (load_bad bad e ls B _ _ _ _ _ L); reflexivity.
  Qed.
End Load.

(* ---------------- a line cut short ---------------- *)
Lemma firstn_word i w : word w -> firstn i w = [] \/ word (firstn i w).
Proof.
  intros [_ S]; destruct (firstn i w) as [|c r] eqn:E; [left; reflexivity|right; rewrite <- E; split; [congruence|]].
  unfold solid in *; rewrite forallb_forall in *; intros x I; apply S; rewrite <- (firstn_skipn i w); apply in_or_app; left; exact I.
Qed.
Section Cut.
  Variable repr : str -> str.
  Variable dv : Z -> option Z.
  Definition front (d : Z) (l : str) : str := dec d ++ [32] ++ l ++ [32].
  Lemma front_length d l : length (front d l) = ahead d l.
  Proof. unfold front, ahead; rewrite !app_length; cbn; lia. Qed.
  Lemma line_front p d : storable p -> to_line repr p d = front d (label p) ++ show_reading (reading p).
  Proof.
    intros [_ [_ A]]; unfold to_line, front; rewrite A; change (u " ") with [32]; rewrite <- !app_assoc; reflexivity.
  Qed.
  Lemma few_words s ws : words s ws -> (length ws <= 2)%nat -> from_line dv s = Raise ValueError.
  Proof.
    intros W L; unfold from_line; rewrite (words_fun _ _ _ (words_rstrip s) W).
    destruct ws as [|a [|b [|c ws]]]; try reflexivity; cbn in L; lia.
  Qed.
  Lemma line_short p d j : storable p -> (j <= ahead d (label p))%nat -> from_line dv (firstn j (to_line repr p d ++ [10])) = Raise ValueError.
  Proof.
    intros S L; rewrite (line_front p d S), <- app_assoc, firstn_app, front_length.
    replace (j - ahead d (label p))%nat with 0%nat by lia; rewrite firstn_O, app_nil_r.
    assert (X : exists ws, words (firstn j (front d (label p))) ws /\ (length ws <= 2)%nat).
    { unfold front, ahead in *; destruct S as [WL _].
      rewrite firstn_app; destruct (Nat.leb_spec j (length (dec d))) as [J|J].
      - replace (j - length (dec d))%nat with 0%nat by lia; rewrite firstn_O, app_nil_r.
        destruct (firstn_word j _ (dec_word d)) as [E|W]; [rewrite E; exists []; split; [constructor; reflexivity|cbn; lia]|].
        exists [firstn j (dec d)]; split; [apply (words_one []); [reflexivity|exact W]|cbn; lia].
      - rewrite firstn_all2 by lia; remember (j - length (dec d))%nat as i eqn:I; destruct i as [|i]; [lia|]; cbn [app firstn].
        rewrite firstn_app; destruct (Nat.leb_spec i (length (label p))) as [K|K].
        + replace (i - length (label p))%nat with 0%nat by lia; rewrite firstn_O, app_nil_r.
          destruct (firstn_word i _ WL) as [E|W].
          * rewrite E; exists [dec d]; split; [apply (words_cons [] (dec d) [] []); [reflexivity|apply dec_word|constructor; reflexivity]|cbn; lia].
          * exists [dec d; firstn i (label p)]; split; [|cbn; lia].
            apply (words_cons [] (dec d)); [reflexivity|apply dec_word|]; apply (words_one [32]); [reflexivity|exact W].
        + rewrite firstn_all2 by lia; exists [dec d; label p]; split; [|cbn; lia].
          apply (words_cons [] (dec d)); [reflexivity|apply dec_word|].
          change (32 :: label p ++ firstn (i - length (label p)) [32]) with (([32] ++ label p) ++ firstn (i - length (label p)) [32]).
          apply words_blank_end; [apply words_one; [reflexivity|exact WL]|].
          destruct (i - length (label p))%nat as [|n]; [reflexivity|cbn [firstn]; destruct n; reflexivity]. }
    destruct X as [ws [W LW]]; apply (few_words _ ws W LW).
  Qed.
  Definition with_reading (j : nat) (p : place) : place :=
    {| label := label p; reading := reading_left j (reading p); aliases := aliases p; kids := kids p |}.
  Lemma show_left j r : show_reading (reading_left j r) = firstn j (show_reading r).
  Proof.
    unfold reading_left; destruct (eqb_spec (firstn j (show_reading r)) (u "None")) as [E|N]; [rewrite E; reflexivity|reflexivity].
  Qed.
  Lemma left_storable j p : storable p -> (0 < j)%nat -> storable (with_reading j p).
  Proof.
    intros S J; pose proof (show_word p S) as W; destruct S as [WL [_ A]]; split; [exact WL|split; [|exact A]].
    cbn [reading with_reading]; unfold reading_left.
    destruct (eqb_spec (firstn j (show_reading (reading p))) (u "None")) as [E|N]; [exact I|split; [|exact N]].
    destruct (firstn_word j _ W) as [E|W']; [|exact W'].
    destruct W as [NE _]; destruct (show_reading (reading p)); [contradiction|destruct j; [lia|discriminate]].
  Qed.
  Lemma left_all j p : storable p -> (length (show_reading (reading p)) <= j)%nat -> reading_left j (reading p) = reading p.
  Proof.
    intros [_ [R _]] L; unfold reading_left; rewrite firstn_all2 by exact L.
    destruct (reading p) as [r|]; cbn [show_reading]; [|reflexivity]; destruct R as [_ R]; rewrite eqb_neq by exact R; reflexivity.
  Qed.
  Lemma line_cut p d j : storable p -> (ahead d (label p) < j)%nat ->
    exists g, blank g /\ firstn j (to_line repr p d ++ [10]) = to_line repr (with_reading (j - ahead d (label p)) p) d ++ g.
  Proof.
    intros S L; rewrite (line_front p d S), (line_front (with_reading (j - ahead d (label p)) p) d (left_storable (j - ahead d (label p)) p S ltac:(lia))); cbn [label reading with_reading].
    rewrite show_left, <- app_assoc, firstn_app, front_length, firstn_all2 by (rewrite front_length; lia).
    set (i := (j - ahead d (label p))%nat).
    exists (firstn (i - length (show_reading (reading p))) [10]); split.
    - destruct (i - length (show_reading (reading p)))%nat as [|n]; [reflexivity|cbn [firstn]; destruct n; reflexivity].
    - rewrite firstn_app, app_assoc; reflexivity.
  Qed.

  (* ---------------- the whole text ---------------- *)
  Definition text_of (ps : list (Z * place)) : str := flat_map (fun dp => to_line repr (snd dp) (fst dp) ++ [10]) ps.
  Definition show_of (ps : list (Z * place)) := map (fun dp => (fst dp, det (snd dp))) ps.
  Lemma line_length p d : storable p -> length (to_line repr p d) = line_size d (label p) (reading p).
  Proof. intros S; rewrite (line_front p d S), app_length, front_length; reflexivity. Qed.
  Lemma text_length ps : Forall (fun dp => storable (snd dp)) ps -> length (text_of ps) = sizes (show_of ps).
  Proof.
    induction 1 as [|[d p] ps S F IH]; [reflexivity|].
    change (text_of ((d, p) :: ps)) with ((to_line repr p d ++ [10]) ++ text_of ps).
    change (sizes (show_of ((d, p) :: ps))) with (Datatypes.S (line_size d (label p) (reading p)) + sizes (show_of ps))%nat.
    rewrite !app_length, IH, (line_length p d S); cbn [length]; lia.
  Qed.
  Lemma text_cut ps m d p j : Forall (fun dp => storable (snd dp)) ps -> nth_error ps m = Some (d, p) -> (j <= S (line_size d (label p) (reading p)))%nat ->
    firstn (sizes (show_of (firstn m ps)) + j) (text_of ps) = text_of (firstn m ps) ++ firstn j (to_line repr p d ++ [10]).
  Proof.
    intros F N L; destruct (nth_error_split _ _ N) as [l1 [l2 [E LM]]]; subst m; rewrite E in *; apply Forall_app in F; destruct F as [F1 F2].
    inversion F2 as [|? ? S F3]; subst; cbn [snd] in S.
    rewrite firstn_app, Nat.sub_diag, firstn_O, app_nil_r, firstn_all, <- (text_length l1 F1).
    unfold text_of; rewrite flat_map_app, firstn_app, firstn_all2 by lia; f_equal.
    replace (length _ + j - length _)%nat with j by lia; cbn [flat_map fst snd].
    rewrite firstn_app; replace (j - length (to_line repr p d ++ [10%Z]))%nat with 0%nat by (rewrite app_length, (line_length p d S); cbn; lia).
    rewrite firstn_O, app_nil_r; reflexivity.
  Qed.
  Lemma lines_short ps last : Forall (fun dp => storable (snd dp)) ps -> file_lines (text_of ps ++ last) = lines_of repr ps ++ file_lines last.
  Proof.
    intros F; unfold text_of, lines_of.
    rewrite <- (flat_map_map (fun dp => to_line repr (snd dp) (fst dp)) (fun l => l ++ [10])), file_lines_more, map_map; [reflexivity|].
    apply Forall_forall; intros l I; apply in_map_iff in I; destruct I as [dp [<- I]]; apply line_no_break.
    rewrite Forall_forall in F; apply F, I.
  Qed.
  Lemma last_line p d j : storable p -> (0 < j)%nat -> file_lines (firstn j (to_line repr p d ++ [10])) = [firstn j (to_line repr p d ++ [10])].
  Proof.
    intros S J; pose proof (line_no_break repr p d S) as NB; destruct (Nat.leb_spec j (length (to_line repr p d))) as [L|L].
    - rewrite firstn_app; replace (j - length (to_line repr p d))%nat with 0%nat by lia; rewrite firstn_O, app_nil_r.
      apply file_lines_last.
      + destruct j; [lia|]; destruct (to_line repr p d) as [|c r]; [cbn in L; lia|discriminate].
      + intros c I; apply NB; rewrite <- (firstn_skipn j); apply in_or_app; left; exact I.
    - rewrite firstn_all2 by (rewrite app_length; cbn; lia); apply (file_lines_line _ [] NB).
  Qed.
End Cut.

Section Whole.
  Variable repr : str -> str.
  Variable dv : Z -> option Z.
  Hypothesis digits : ascii_digits dv.
  Lemma storable_pre T : Forall storable (nodes T) -> Forall (fun dp => storable (snd dp)) (pre 0 T).
  Proof.
    intros F; rewrite <- (pre_nodes T 0) in F; rewrite Forall_forall in *; intros dp I; apply F, in_map, I.
  Qed.
  Lemma nodes_pre T : Forall (fun dp => storable (snd dp)) (pre 0 T) -> Forall storable (nodes T).
  Proof.
    intros F; rewrite <- (pre_nodes T 0); rewrite Forall_forall in *; intros p I; apply in_map_iff in I; destruct I as [dp [<- I]]; apply F, I.
  Qed.
  (* the first lines and one more of another reading *)
  Lemma tree_cut h T m d p i g : Forall storable (nodes T) -> apart T -> nth_error (pre 0 T) m = Some (d, p) -> (0 < i)%nat -> blank g ->
    exists h' t, from_file dv h (lines_of repr (firstn m (pre 0 T)) ++ [to_line repr (with_reading i p) d ++ g]) = Ok (h', root t) /\
      tree_at h' t /\ keyed h' t /\ shown h' t = show_of (firstn m (pre 0 T)) ++ [(d, det (with_reading i p))] /\
      NoDup (nodes t) /\ (forall b, In b (nodes t) -> (length h <= b)%nat) /\ forall b, (b < length h)%nat -> at_ h' b = at_ h b.
  Proof.
    intros S AP N J B.
    assert (LM : (m < rsize T)%nat) by (rewrite <- (pre_length 0 T); apply nth_error_Some; congruence).
    destruct (tree_crops (with_reading i) (fun _ => eq_refl) T m LM AP) as [T' [E [AP' _]]].
    specialize (E 0); unfold cropped in E; rewrite N in E.
    pose proof (storable_pre T S) as SP.
    assert (SN : storable p) by (rewrite Forall_forall in SP; apply (SP (d, p)), (nth_error_In _ _ N)).
    assert (S' : Forall storable (nodes T')).
    { apply nodes_pre; rewrite E; apply Forall_app; split.
      - rewrite Forall_forall in *; intros x I; apply SP; rewrite <- (firstn_skipn m); apply in_or_app; left; exact I.
      - constructor; [apply left_storable; assumption|constructor]. }
    destruct (from_file_ok repr dv digits h T' S' AP') as [h' [t [FF [[G1 [G2 G3]] [R [[W1 W2] Fr]]]]]].
    exists h', t; rewrite R; split; [|split; [exact G1|split; [exact G3|split; [|split; [exact W1|split; [intros b Ib; apply W2, Ib|exact Fr]]]]]].
    - rewrite <- FF; apply from_file_ext; rewrite E; unfold lines_of; rewrite map_app; apply Forall2_app.
      + clear; induction (map _ _); constructor; [reflexivity|assumption].
      + constructor; [|constructor]; cbn [fst snd].
        pose proof (left_storable i p SN J) as SL; rewrite !line_ok by (assumption || reflexivity); reflexivity.
    - unfold shown; rewrite <- (pre_rosemap (details h') t 0), G2, pre_rosemap, E; unfold show_of; rewrite map_app; reflexivity.
  Qed.
  Lemma tree_first h T m : Forall storable (nodes T) -> apart T -> (m < rsize T)%nat ->
    firstn m (pre 0 T) = [] \/ exists r, from_file dv h (lines_of repr (firstn m (pre 0 T))) = Ok r.
  Proof.
    intros S AP L; destruct m as [|m]; [left; reflexivity|right].
    destruct (tree_crops (fun p => p) (fun _ => eq_refl) T m ltac:(lia) AP) as [T' [E [AP' _]]].
    specialize (E 0).
    assert (X : firstn (Datatypes.S m) (pre 0 T) = pre 0 T').
    { rewrite E; unfold cropped; destruct (nth_error (pre 0 T) m) as [[d p]|] eqn:N.
      - destruct (nth_error_split _ _ N) as [l1 [l2 [-> LM]]]; subst m.
        rewrite !firstn_app, firstn_all2, firstn_all by lia; replace (Datatypes.S (length l1) - length l1)%nat with 1%nat by lia.
        rewrite Nat.sub_diag; cbn; rewrite app_nil_r; reflexivity.
      - apply nth_error_None in N; rewrite pre_length in N; lia. }
    assert (S' : Forall storable (nodes T')).
    { apply nodes_pre; rewrite <- X; pose proof (storable_pre T S) as SP; rewrite Forall_forall in *; intros x I; apply SP.
      rewrite <- (firstn_skipn (Datatypes.S m)); apply in_or_app; left; exact I. }
    rewrite X; destruct (from_file_ok repr dv digits h T' S' AP') as [h' [t [FF _]]]; eexists; exact FF.
  Qed.

  Lemma file_cut h t fuel h0 : tree_at h t -> keyed h t -> (forall a, In a (nodes t) -> storable (at_ h a)) -> (rsize t < fuel)%nat ->
    exists text, dump repr fuel h (root t) = Ok text /\ length text = sizes (shown h t) /\
    forall k m j d l r, falls_in k m j (shown h t) d l r ->
      ((j <= ahead d l)%nat -> from_file dv h0 (file_lines (firstn k text)) = Raise ValueError) /\
      ((ahead d l < j)%nat -> exists h' t', from_file dv h0 (file_lines (firstn k text)) = Ok (h', root t') /\ tree_at h' t' /\ keyed h' t' /\
         shown h' t' = firstn m (shown h t) ++ [(d, (l, reading_left (j - ahead d l) r, None))] /\
         NoDup (nodes t') /\ (forall b, In b (nodes t') -> (length h0 <= b)%nat) /\ forall b, (b < length h0)%nat -> at_ h' b = at_ h0 b).
  Proof.
    intros TA K ST B; unfold dump; rewrite (walk_ok h fuel t TA B); cbn [rmap].
    set (T := rosemap (at_ h) t).
    assert (S : Forall storable (nodes T)).
    { unfold T; rewrite rosemap_nodes; apply Forall_forall; intros p I; apply in_map_iff in I; destruct I as [a [<- I]]; apply ST, I. }
    pose proof (apart_of h t TA K) as AP; fold T in AP.
    assert (TX : flat_map (fun dp => to_line repr (at_ h (snd dp)) (fst dp) ++ [10]) (pre 0 t) = text_of repr (pre 0 T)).
    { unfold T, text_of; rewrite pre_rosemap, flat_map_map; reflexivity. }
    assert (SH : shown h t = show_of (pre 0 T)).
    { unfold T, show_of, shown; rewrite pre_rosemap, map_map; reflexivity. }
    exists (text_of repr (pre 0 T)); rewrite TX, SH; split; [reflexivity|split; [apply text_length, storable_pre, S|]].
    pose proof (storable_pre T S) as SP.
    intros k m j d l r [N [-> J]].
    unfold show_of in N; rewrite nth_error_map in N; destruct (nth_error (pre 0 T) m) as [[d' p]|] eqn:NP; [|discriminate].
    cbn in N; injection N as -> <- <- AL.
    assert (SN : storable p) by (rewrite Forall_forall in SP; apply (SP (d, p)), (nth_error_In _ _ NP)).
    assert (LM : (m < rsize T)%nat) by (rewrite <- (pre_length 0 T); apply nth_error_Some; congruence).
    unfold show_of; rewrite firstn_map; fold (show_of (firstn m (pre 0 T))).
    assert (SPm : Forall (fun dp => storable (snd dp)) (firstn m (pre 0 T))).
    { rewrite Forall_forall in *; intros x I; apply SP; rewrite <- (firstn_skipn m); apply in_or_app; left; exact I. }
    assert (FL : file_lines (firstn (sizes (show_of (firstn m (pre 0 T))) + j) (text_of repr (pre 0 T))) =
                 lines_of repr (firstn m (pre 0 T)) ++ [firstn j (to_line repr p d ++ [10])]).
    { rewrite (text_cut repr _ m d p j SP NP) by lia; rewrite lines_short by exact SPm; rewrite last_line by (exact SN || lia); reflexivity. }
    split.
    - intros L; rewrite FL; apply from_file_bad.
      + apply line_short; [exact SN|exact L].
      + destruct (tree_first h0 T m S AP LM) as [E|E]; [left; rewrite E; reflexivity|right; exact E].
    - intros L; destruct (line_cut repr p d j SN L) as [g [Bg E]]; rewrite FL, E.
      destruct (tree_cut h0 T m d p (j - ahead d (label p)) g S AP NP ltac:(lia) Bg) as [h' [t' [FF [G1 [G2 [G3 G4]]]]]].
      exists h', t'; split; [exact FF|split; [exact G1|split; [exact G2|split; [|exact G4]]]].
      rewrite G3; unfold det; cbn [label reading aliases with_reading]; rewrite AL; reflexivity.
  Qed.
  Lemma falls ps k : (0 < k <= sizes ps)%nat -> Forall (fun x => snd (snd x) = None) ps -> exists m j d l r, falls_in k m j ps d l r.
  Proof.
    revert k; induction ps as [|[d [[l r] al]] ps IH]; intros k K F; [cbn in K; lia|]; inversion F as [|? ? A F']; subst; cbn in A; subst al.
    assert (E : sizes ((d, (l, r, None)) :: ps) = (S (line_size d l r) + sizes ps)%nat) by reflexivity.
    rewrite E in K; destruct (Nat.leb_spec k (S (line_size d l r))) as [L|L].
    - exists 0%nat, k, d, l, r; repeat split; cbn; lia.
    - destruct (IH (k - S (line_size d l r))%nat ltac:(lia) F') as [m [j [d' [l' [r' [N [Q J]]]]]]].
      exists (S m), j, d', l', r'; split; [exact N|split; [|exact J]].
      cbn [firstn]; change (sizes ((d, (l, r, None)) :: firstn m ps)) with (S (line_size d l r) + sizes (firstn m ps))%nat; lia.
  Qed.
End Whole.

(* ---------------- failing dumps ---------------- *)
Section Printing.
  Variable able : str -> bool.
  Variable strike : nat -> option exn.
  Definition ended (ls : list str) : str := flat_map (fun l => l ++ [10]) ls.
  Lemma print_begins ls : forall n given, exists b c, print_lines able strike n given ls = (given ++ b, snd (print_lines able strike n given ls)) /\
    ended ls = b ++ c /\ (snd (print_lines able strike n given ls) = Ok tt -> c = []).
  Proof.
    induction ls as [|l ls IH]; intros n given; cbn [print_lines].
    - exists [], []; rewrite app_nil_r; repeat split.
    - destruct (strike n); [exists [], (ended (l :: ls)); rewrite app_nil_r; repeat split; discriminate|].
      destruct (able l); [|exists [], (ended (l :: ls)); rewrite app_nil_r; repeat split; discriminate].
      destruct (strike (S n)).
      + exists l, ([10] ++ ended ls); cbn [ended flat_map]; rewrite <- app_assoc; repeat split; discriminate.
      + destruct (IH (S (S n)) ((given ++ l) ++ [10])) as [b [c [E [Q O]]]].
        exists ((l ++ [10]) ++ b), c; rewrite E; cbn [snd ended flat_map]; split; [rewrite !app_assoc; reflexivity|split; [|exact O]].
        fold (ended ls); rewrite Q, !app_assoc; reflexivity.
  Qed.
  Lemma print_all ls : (forall n, strike n = None) -> Forall (fun l => able l = true) ls -> forall n given, print_lines able strike n given ls = (given ++ ended ls, Ok tt).
  Proof.
    intros Q; induction 1 as [|l ls A F IH]; intros n given; cbn [print_lines]; rewrite !Q; [rewrite app_nil_r; reflexivity|].
    rewrite A, IH; cbn [ended flat_map]; rewrite !app_assoc; reflexivity.
  Qed.
  Lemma print_unable l1 l l2 : (forall n, strike n = None) -> Forall (fun l => able l = true) l1 -> able l = false ->
    forall n given, print_lines able strike n given (l1 ++ l :: l2) = (given ++ ended l1, Raise UnicodeError).
  Proof.
    intros Q F A; induction F as [|x l1 A1 F IH]; intros n given; cbn [print_lines app]; rewrite !Q.
    - rewrite A, app_nil_r; reflexivity.
    - rewrite A1, IH; cbn [ended flat_map]; rewrite !app_assoc; reflexivity.
  Qed.
End Printing.

(* ---------------- bytes ---------------- *)
From Verif Require Import Tatoeba_model Csv_model Files_model Files_spec Files_proofs Encoding_model Encoding_spec Utf8_proofs Encoding_proofs.
Lemma encoded_one c : encoded [c] = units c.
Proof. unfold encoded; cbn; apply app_nil_r. Qed.
Lemma units_cut c k : scalar c -> (k < length (units c))%nat -> firstn k (units c) = [] \/ utf8 (firstn k (units c)) = ([], false).
Proof.
  intros S L; destruct (firstn k (units c)) as [|x q] eqn:E; [left; reflexivity|right].
  assert (BU : bytes (units c)) by (rewrite <- encoded_one; apply encoded_bytes; constructor; [exact S|constructor]).
  assert (B : bytes (x :: q)).
  { rewrite <- E; unfold bytes in *; rewrite Forall_forall in *; intros y I; apply BU; rewrite <- (firstn_skipn k); apply in_or_app; left; exact I. }
  destruct (utf8_step (x :: q) B ltac:(discriminate)) as [F|[c' [r [S' [F _]]]]]; [exact F|exfalso].
  assert (U : units c = units c' ++ (r ++ skipn k (units c))) by (rewrite app_assoc, <- F, <- E, firstn_skipn; reflexivity).
  pose proof (utf8_units c [] S) as U1; pose proof (utf8_units c' (r ++ skipn k (units c)) S') as U2.
  rewrite app_nil_r in U1; rewrite <- U, U1 in U2; cbn in U2; unfold push in U2; injection U2 as U2 _ _; subst c'.
  assert (X : length (x :: q) = length (units c ++ r)) by (rewrite F; reflexivity).
  rewrite <- E, firstn_length, app_length in X; lia.
Qed.
Lemma utf8_cut s : Forall scalar s -> forall k, exists j q, firstn k (encoded s) = encoded (firstn j s) ++ q /\ (q = [] \/ utf8 q = ([], false)).
Proof.
  induction 1 as [|c s S F IH]; intros k; [exists 0%nat, []; rewrite firstn_nil; split; [reflexivity|left; reflexivity]|].
  change (encoded (c :: s)) with (units c ++ encoded s); rewrite firstn_app.
  destruct (Nat.ltb_spec k (length (units c))) as [L|L].
  - replace (k - length (units c))%nat with 0%nat by lia; rewrite firstn_O, app_nil_r.
    exists 0%nat, (firstn k (units c)); split; [reflexivity|apply units_cut; assumption].
  - rewrite firstn_all2 by exact L; destruct (IH (k - length (units c))%nat) as [j [q [E Q]]].
    exists (Datatypes.S j), q; split; [rewrite E; cbn [firstn]; change (encoded (c :: firstn j s)) with (units c ++ encoded (firstn j s)); rewrite app_assoc; reflexivity|exact Q].
Qed.
Lemma bytes_cut dv disk stdin given h name s k : Forall scalar s -> ordinary name -> disk name = Some (firstn k (encoded s)) ->
  (exists j, place_bytes dv disk stdin utf8 given h name = from_file dv h (file_lines (firstn j s))) \/
  exists e, place_bytes dv disk stdin utf8 given h name = Raise e.
Proof.
  intros S O D; destruct (utf8_cut s S k) as [j [q [E Q]]].
  assert (SJ : Forall scalar (firstn j s)).
  { rewrite Forall_forall in *; intros x I; apply S; rewrite <- (firstn_skipn j); apply in_or_app; left; exact I. }
  destruct Q as [->|Q].
  - left; exists j; rewrite app_nil_r in E; unfold place_bytes; rewrite open_bytes_ordinary, D, E by exact O; cbn [bind].
    unfold text_source; rewrite (proj2 (utf8_exact _ (firstn j s) (encoded_bytes _ SJ))) by (split; [exact SJ|reflexivity]).
    cbn [lines failure]; rewrite over_ok; destruct (file_lines (firstn j s)); reflexivity.
  - right; assert (U : utf8 (firstn k (encoded s)) = (firstn j s, false)).
    { rewrite E, utf8_encoded, Q by exact SJ; cbn [fst snd]; rewrite app_nil_r; reflexivity. }
    destruct (readers_malformed dv disk stdin utf8 given h name _ _ D U) as [_ [_ [_ [_ R]]]]; exact (proj2 (R O)).
Qed.
