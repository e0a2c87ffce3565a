(* SplitCodes_proofs.v *)
From Verif Require Import Base PyStr PyText Maps_model Maps_proofs Bilingual_model Bilingual_spec Bilingual_proofs Regex DictFormat_model DictFormat_spec DictFormat_proofs
  SplitCodes_model SplitCodes_spec.

Lemma code_char_spec c : code_char c = true <-> group_char c.
Proof.
  unfold code_char, group_char, letter_digit; change (u1 "a") with 97; change (u1 "z") with 122; change (u1 "A") with 65;
  change (u1 "Z") with 90; change (u1 "0") with 48; change (u1 "9") with 57; change (u1 ",") with 44; change (u1 "-") with 45.
  rewrite !orb_true_iff, !andb_true_iff, !Z.leb_le, !Z.eqb_eq; tauto.
Qed.
Lemma code_char_close c : code_char c = true -> isc (u1 ")") c = false.
Proof. rewrite code_char_spec; intros H; apply Z.eqb_neq; change (u1 ")") with 41; intros ->; revert H; unfold group_char, letter_digit; cbn; lia. Qed.

(** the pattern at one position *)
Lemma code_match b l : match mtch code_pattern Some (mkpos b l []) with
  | Some m => exists g q, l = u "(" ++ g ++ u ")" ++ q /\ g <> [] /\ forallb code_char g = true /\
      rest m = q /\ group (u "1") m = Some g
  | None => ~ exists g q, l = u "(" ++ g ++ u ")" ++ q /\ g <> [] /\ forallb code_char g = true
  end.
Proof.
  unfold code_pattern; cbn [Seqs]; rewrite !mtch_seq.
  change (u "(") with [40]; change (u ")") with [41]; change (u1 "(") with 40; change (u1 ")") with 41.
  destruct l as [|c l]; [cbn [mtch rest]; intros [g [q [E _]]]; discriminate E|].
  destruct (Z.eq_dec c (40)) as [->|N].
  2:{ cbn [mtch rest]; unfold isc at 1; replace (c =? 40) with false by (symmetry; apply Z.eqb_neq; exact N).
      intros [g [q [E _]]]; injection E as E _; congruence. }
  rewrite mtch_isc, mtch_seq.
  destruct (skip_split code_char (40 :: b) l []) as [w [q [E [F [Q _]]]]]; subst l.
  destruct w as [|x w].
  - assert (X : mtch (Grp (u "1") (Plus (Chr code_char))) (mtch (Chr (isc (41))) Some) (mkpos (40 :: b) q []) = None).
    { change (mtch (Plus (Chr code_char)) (fun t => mtch (Chr (isc (41))) Some (capture (u "1") (mkpos (40 :: b) q []) t)) (mkpos (40 :: b) q []) = None).
      rewrite mtch_plus by (apply fails_capture, fails_chr; exact code_char_close); cbn [rest]; destruct q as [|d q]; [reflexivity|rewrite Q; reflexivity]. }
    cbn [app]; rewrite X; intros [g [q' [E [N F']]]]; destruct g as [|d g]; [congruence|].
    injection E as ->; cbn [app forallb] in *; apply andb_prop in F'; destruct F'; congruence.
  - assert (Nw : x :: w <> []) by discriminate; revert F Nw; generalize (x :: w) as w'; intros w' F Nw.
    rewrite mtch_grp_plus; [|exact Nw|exact F|exact Q|apply fails_chr; exact code_char_close].
    cbn [mtch rest before caps]; destruct q as [|d q].
    + intros [g [q' [E [N F']]]]; injection E as E; rewrite app_nil_r in E.
      assert (I : In (41) w') by (rewrite E; apply in_app_iff; right; left; reflexivity).
      rewrite forallb_forall in F; specialize (F _ I); discriminate F.
    + unfold isc; destruct (Z.eqb_spec d (41)) as [->|Nd].
      * exists w', q; split; [reflexivity|split; [exact Nw|split; [exact F|split; reflexivity]]].
      * intros [g [q' [E [N F']]]]; injection E as E; symmetry in E; apply app_eq_app in E; destruct E as [m [[E1 E2]|[E1 E2]]].
        -- destruct m as [|y m]; [injection E2 as E2 _; congruence|injection E2 as <- E2].
           assert (I : In d g) by (rewrite E1; apply in_app_iff; right; left; reflexivity).
           rewrite forallb_forall in F'; specialize (F' _ I); congruence.
        -- destruct m as [|y m]; [injection E2 as E2 _; congruence|injection E2 as <- E2].
           assert (I : In (41) w') by (rewrite E1; apply in_app_iff; right; left; reflexivity).
           rewrite forallb_forall in F; specialize (F _ I); discriminate F.
Qed.

Definition texts (ms : list (pos * pos)) : list str :=
  map (fun m => match group (u "1") (snd m) with Some t => t | None => [] end) ms.
Definition occurs (g l : str) : Prop :=
  exists a q, l = a ++ u "(" ++ g ++ u ")" ++ q /\ g <> [] /\ forallb code_char g = true.
Lemma scan_codes : forall n b l g, (length l < n)%nat -> In g (texts (scan n code_pattern b l)) <-> occurs g l.
Proof.
  induction n as [|n IH]; intros b l g L; [lia|]; cbn [scan].
  pose proof (code_match b l) as M; destruct (mtch code_pattern Some (mkpos b l [])) as [m|].
  - destruct M as [g0 [q [-> [N [F [R G]]]]]].
    assert (Lt : (length (rest m) < length (u "(" ++ g0 ++ u ")" ++ q))%nat) by (rewrite R, !app_length; cbn; lia).
    apply Nat.ltb_lt in Lt; rewrite Lt; apply Nat.ltb_lt in Lt; cbn [texts map snd]; fold (texts (scan n code_pattern (before m) (rest m))).
    rewrite G, R; cbn [In]; rewrite IH by (rewrite R in Lt; lia); split.
    + intros [<-|[a [q' [-> H]]]].
      * exists [], q; split; [reflexivity|split; assumption].
      * exists (u "(" ++ g0 ++ u ")" ++ a), q'; split; [rewrite <- !app_assoc; reflexivity|exact H].
    + intros [a [q' [E [N' F']]]]; destruct a as [|y a].
      * left; injection E as E; apply app_eq_app in E; destruct E as [m1 [[E1 E2]|[E1 E2]]]; destruct m1 as [|y m1].
        -- rewrite app_nil_r in E1; exact E1.
        -- injection E2 as <- E2; assert (I : In (u1 ")") g0) by (rewrite E1; apply in_app_iff; right; left; reflexivity).
           rewrite forallb_forall in F; specialize (F _ I); discriminate F.
        -- rewrite app_nil_r in E1; symmetry; exact E1.
        -- injection E2 as <- E2; assert (I : In (u1 ")") g) by (rewrite E1; apply in_app_iff; right; left; reflexivity).
           rewrite forallb_forall in F'; specialize (F' _ I); discriminate F'.
      * right; injection E as <- E; apply app_eq_app in E; destruct E as [m1 [[E1 E2]|[E1 E2]]].
        -- destruct m1 as [|z m1]; [discriminate E2|injection E2 as <- E2].
           assert (I : In (u1 "(") g0) by (rewrite E1; apply in_app_iff; right; left; reflexivity).
           rewrite forallb_forall in F; specialize (F _ I); discriminate F.
        -- destruct m1 as [|z m1]; [discriminate E2|injection E2 as <- E2].
           exists m1, q'; split; [exact E2|split; assumption].
  - destruct l as [|c l].
    + split; [intros []|intros [a [q [E _]]]; destruct a; discriminate E].
    + rewrite IH by (cbn [length] in L; lia); split.
      * intros [a [q [-> H]]]; exists (c :: a), q; split; [reflexivity|exact H].
      * intros [a [q [E H]]]; destruct a as [|y a].
        -- exfalso; apply M; exists g, q; split; [exact E|exact H].
        -- injection E as <- E; exists a, q; split; [exact E|exact H].
Qed.
Lemma findall_codes s g : In g (findall1 code_pattern s) <-> occurs g s.
Proof. apply scan_codes; lia. Qed.

(** parts *)
Lemma split_on_mid c a x : exists p ps, split_on c (a ++ c :: x) = p :: ps /\ forall y, In y (split_on c x) -> In y ps.
Proof.
  induction a as [|d a [p [ps [E H]]]]; cbn [app split_on].
  - rewrite Z.eqb_refl; eexists; eexists; split; [reflexivity|tauto].
  - rewrite E; destruct (d =? c); eexists; eexists; (split; [reflexivity|]); [|exact H].
    intros y I; right; apply H, I.
Qed.
Lemma split_part c g : In c (split_on (u1 ",") g) <-> part c g.
Proof.
  split.
  - intros I; split.
    + pose proof (split_on_free (u1 ",") g) as F; rewrite Forall_forall in F; apply F, I.
    + rewrite <- (join_split (u1 ",") g); generalize dependent (split_on (u1 ",") g); intros l I.
      induction l as [|p l IH]; [destruct I|]; destruct l as [|q l].
      * destruct I as [<-|[]]; exists [], []; rewrite app_nil_r; repeat split; left; reflexivity.
      * rewrite join_cons by discriminate; destruct I as [<-|I].
        -- exists [], ([u1 ","] ++ join [u1 ","] (q :: l)); split; [reflexivity|split; [left; reflexivity|right; eexists; reflexivity]].
        -- destruct (IH I) as [a [b [E [Ha Hb]]]]; exists (p ++ [u1 ","] ++ a), b; rewrite E; split; [rewrite <- !app_assoc; reflexivity|split; [|exact Hb]].
           right; destruct Ha as [->|[a' ->]]; [exists p; reflexivity|exists (p ++ [u1 ","] ++ a'); rewrite <- !app_assoc; reflexivity].
  - intros [N [a [b [-> [Ha Hb]]]]].
    assert (T : forall b, (b = [] \/ exists b', b = u "," ++ b') -> In c (split_on (u1 ",") (c ++ b))).
    { intros b0 [->|[b' ->]]; [rewrite app_nil_r, split_on_one by exact N; left; reflexivity|].
      change (u "," ++ b') with (u1 "," :: b'); rewrite split_on_app by exact N; left; reflexivity. }
    destruct Ha as [->|[a' ->]]; [apply T, Hb|]; rewrite <- app_assoc; change (u "," ++ c ++ b) with (u1 "," :: c ++ b).
    destruct (split_on_mid (u1 ",") a' (c ++ b)) as [p [ps [-> H]]]; right; apply H, T, Hb.
Qed.

(* ---------------- get_codes ---------------- *)
Lemma known_table : forallb (fun c => mem c (split_ws code_table)) known_codes && forallb (fun c => mem c known_codes) (split_ws code_table) = true.
Proof. vm_compute; reflexivity. Qed.
Lemma known_code_spec c : In c known_codes <-> known_code c.
Proof.
  pose proof known_table as T; apply andb_prop in T; destruct T as [T1 T2]; unfold known_code; split; intros I.
  - apply (proj1 (forallb_forall _ _) T1) in I; apply mem_In, I.
  - apply (proj1 (forallb_forall _ _) T2) in I; apply mem_In, I.
Qed.
Lemma get_codes_spec s c : In c (get_codes s) <-> carries s c.
Proof.
  unfold get_codes; rewrite In_supdate, filter_In, in_flat_map, mem_In, known_code_spec; cbn [In]; unfold carries; split.
  - intros [[]|[[g [Ig Ic]] K]]; split; [exact K|]; apply findall_codes in Ig; destruct Ig as [x [y [-> [N F]]]].
    exists x, g, y; split; [reflexivity|split; [exact N|split; [|apply split_part, Ic]]].
    intros d Id; apply code_char_spec; rewrite forallb_forall in F; apply F, Id.
  - intros [K [x [g [y [-> [N [F P]]]]]]]; right; split; [|exact K]; exists g; split; [|apply split_part, P].
    apply findall_codes; exists x, y; split; [reflexivity|split; [exact N|]].
    apply forallb_forall; intros d Id; apply code_char_spec, F, Id.
Qed.
Lemma get_codes_nodup s : NoDup (get_codes s).
Proof. apply NoDup_supdate; constructor. Qed.

Lemma codes_of_from ss : forall acc c, In c (fold_left (fun codes sense => supdate codes (get_codes sense)) ss acc) <->
  In c acc \/ exists s, In s ss /\ carries s c.
Proof.
  induction ss as [|s ss IH]; intros acc c; cbn [fold_left].
  - split; [tauto|intros [H|[s [[] _]]]; exact H].
  - rewrite IH, In_supdate, get_codes_spec; split.
    + intros [[H|H]|[t [I H]]]; [left; exact H|right; exists s; split; [left; reflexivity|exact H]|right; exists t; split; [right; exact I|exact H]].
    + intros [H|[t [[<-|I] H]]]; [left; left; exact H|left; right; exact H|right; exists t; split; assumption].
Qed.
Lemma codes_of_spec ss c : In c (codes_of ss) <-> exists s, In s ss /\ carries s c.
Proof. unfold codes_of; rewrite codes_of_from; cbn [In]; tauto. Qed.

(* ---------------- load_coded_dictionary ---------------- *)
Lemma record_codes w e codes : forall d c w',
  lookup2 c w' (fold_left (fun d code => dset code (dset w e (match dget code d with Some m => m | None => [] end)) d) codes d) =
  if eqb w' w && mem c codes then Some e else lookup2 c w' d.
Proof.
  induction codes as [|x codes IH]; intros d c w'; cbn [fold_left]; [cbn [mem existsb]; rewrite andb_false_r; reflexivity|].
  rewrite IH; destruct (eqb_spec w' w) as [->|Nw]; cbn [andb].
  - destruct (mem_spec c codes) as [I|I], (mem_spec c (x :: codes)) as [J|J]; try reflexivity.
    + exfalso; apply J; right; exact I.
    + destruct J as [->|J]; [|contradiction]; unfold lookup2; rewrite dget_dset_same, dget_dset_same; reflexivity.
    + unfold lookup2; rewrite dget_dset_other by (intros E; apply J; left; symmetry; exact E); reflexivity.
  - unfold lookup2; rewrite dget_dset; destruct (eqb_spec c x) as [->|Nx]; [|reflexivity].
    rewrite dget_dset_other by exact Nw; destruct (dget x d); reflexivity.
Qed.

Definition coded_ok (b : dict str addr) (cd : dict str (dict str addr)) (ps : list parsed) : Prop :=
  forall c w e, lookup2 c w cd = Some e <-> dget w b = Some e /\ carried ps w c.

(** the senses of an entry are those of its pairs *)
Lemma pairs_senses rs ss : valid_entry rs ss -> map snd (pairs_of rs ss) = ss.
Proof.
  intros V; destruct rs as [|r [|r' rs]]; cbn [pairs_of].
  - destruct V as [V|V]; [discriminate|destruct ss; [reflexivity|discriminate]].
  - rewrite map_map; cbn [snd]; apply map_id.
  - destruct V as [V|V]; [discriminate|]; revert V; generalize (r :: r' :: rs) as l; intros l; revert ss.
    induction l as [|x l IH]; intros [|y ss] V; try discriminate; [reflexivity|]; cbn [combine map snd]; f_equal; apply IH; injection V as V; exact V.
Qed.
Lemma pairs_for_senses w ps s : Forall sound ps -> In s (map snd (pairs_for w ps)) <-> exists p, In p ps /\ fst p = w /\ In s (snd (snd p)).
Proof.
  intros F; rewrite in_map_iff; split.
  - intros [[r s'] [<- I]]; apply in_flat_map in I; destruct I as [p [Ip I]]; destruct (eqb_spec (fst p) w) as [E|]; [|destruct I].
    exists p; split; [exact Ip|split; [exact E|]]; rewrite Forall_forall in F; rewrite <- (pairs_senses _ _ (F p Ip)).
    apply (in_map snd) in I; exact I.
  - intros [p [Ip [E I]]]; rewrite Forall_forall in F; rewrite <- (pairs_senses _ _ (F p Ip)) in I.
    apply in_map_iff in I; destruct I as [x [Ex I]]; exists x; split; [exact Ex|]; apply in_flat_map; exists p; split; [exact Ip|].
    rewrite E, eqb_refl; exact I.
Qed.

Lemma loaded_senses n0 h b ps w e c : loaded n0 h b ps -> Forall sound ps -> dget w b = Some e ->
  In c (codes_of (list_at h (senses (entry_at h e)))) <-> carried ps w c.
Proof.
  intros [W [_ D]] F G; destruct (D w e G) as [[_ He] [_ P]].
  change (list_at h (senses (entry_at h e))) with (sn h e); rewrite codes_of_spec.
  rewrite <- (pairs_senses (rd h e) (sn h e)) by (apply (wf_valid h W), He).
  fold (pairs h e); rewrite P; unfold carried; split.
  - intros [s [I C]]; apply (pairs_for_senses w ps s F) in I; destruct I as [p [Ip [E I]]]; exists p, s; split; [exact Ip|split; [exact E|split; [exact I|exact C]]].
  - intros [p [s [Ip [E [I C]]]]]; exists s; split; [apply (pairs_for_senses w ps s F); exists p; split; [exact Ip|split; [exact E|exact I]]|exact C].
Qed.

Lemma load_lines_ok parse n0 : (forall l p, parse l = Ok p -> sound p) ->
  forall lines ps h b cd, (n0 <= length (entries h))%nat -> loaded n0 h b ps -> Forall sound ps -> coded_ok b cd ps ->
  match mapM parse lines with
  | Ok qs => exists h' b' cd', load_lines parse h b cd lines = (h', Ok cd') /\ loaded n0 h' b' (ps ++ qs) /\ coded_ok b' cd' (ps ++ qs)
  | Raise e => exists h', load_lines parse h b cd lines = (h', Raise e)
  end.
Proof.
  intros SD; induction lines as [|l lines IH]; intros ps h b cd Hn L FS CO.
  - cbn [mapM load_lines]; exists h, b, cd; rewrite app_nil_r; split; [reflexivity|split; assumption].
  - cbn [mapM load_lines]; destruct (parse l) as [p|e] eqn:P; cbn [bind]; [|exists h; reflexivity].
    (* one step of the plain loader *)
    pose proof (parse_lines_ok parse n0 SD [l] ps h b Hn L) as ST; cbn [mapM parse_lines] in ST; rewrite P in ST; cbn [bind] in ST.
    destruct ST as [h2 [b2 [ST [L2 [Len2 _]]]]].
    destruct (build_entry h p) as [h1 [entry|x]] eqn:B; [|discriminate ST].
    assert (SP : sound p) by (apply (SD l), P).
    assert (EW : wd h1 entry = fst p).
    { destruct (build_entry_ok h p (proj1 L) SP) as [h1' [B' [_ [_ [Ew _]]]]]; rewrite B in B'; injection B' as <- ->; exact Ew. }
    change (word (entry_at h1 entry)) with (wd h1 entry) in *; rewrite EW in *.
    assert (FS' : Forall sound (ps ++ [p])) by (apply Forall_app; split; [exact FS|constructor; [exact SP|constructor]]).
    assert (NEXT : forall e2, dget (fst p) b2 = Some e2 -> (forall w, w <> fst p -> dget w b2 = dget w b) ->
      (forall x, dget (fst p) b = Some x -> x = e2) ->
      let cd2 := fold_left (fun d code => dset code (dset (fst p) e2 (match dget code d with Some m => m | None => [] end)) d)
                   (codes_of (list_at h2 (senses (entry_at h2 e2)))) cd in
      match (do ys <- mapM parse lines; Ok (p :: ys)) with
      | Ok qs => exists h' b' cd', load_lines parse h2 b2 cd2 lines = (h', Ok cd') /\ loaded n0 h' b' (ps ++ qs) /\ coded_ok b' cd' (ps ++ qs)
      | Raise e => exists h', load_lines parse h2 b2 cd2 lines = (h', Raise e)
      end).
    { intros e2 G2 OT SM cd2.
      assert (CO2 : coded_ok b2 cd2 (ps ++ [p])).
      { intros c w e'; unfold cd2; rewrite record_codes.
        destruct (eqb_spec w (fst p)) as [->|Nw]; cbn [andb].
        - destruct (mem_spec c (codes_of (list_at h2 (senses (entry_at h2 e2))))) as [I|I];
            rewrite (loaded_senses n0 h2 b2 (ps ++ [p]) (fst p) e2 c L2 FS' G2) in I.
          + rewrite G2; split; [intros E; split; [exact E|exact I]|intros [E _]; exact E].
          + split; [|intros [_ H]; contradiction].
            intros E; apply CO in E; destruct E as [E [q [s [Iq H]]]]; exfalso; apply I; exists q, s; split; [apply in_app_iff; left; exact Iq|exact H].
        - rewrite (CO c w e'), (OT w Nw); split; intros [E [q [s [Iq [Eq H]]]]]; (split; [exact E|]); exists q, s.
          + split; [apply in_app_iff; left; exact Iq|split; [exact Eq|exact H]].
          + apply in_app_iff in Iq; destruct Iq as [Iq|[<-|[]]]; [split; [exact Iq|split; [exact Eq|exact H]]|congruence]. }
      specialize (IH (ps ++ [p]) h2 b2 cd2); rewrite <- app_assoc in IH || idtac.
      assert (Hn2 : (n0 <= length (entries h2))%nat) by lia.
      specialize (IH Hn2 L2 FS' CO2).
      destruct (mapM parse lines) as [qs|x]; cbn [bind]; [|exact IH].
      rewrite <- app_assoc in IH; exact IH. }
    destruct (dget (fst p) b) as [old|] eqn:G.
    + destruct (entry_update h1 old entry) as [h3 [[]|x]] eqn:U; [|discriminate ST].
      injection ST as -> <-; apply (NEXT old); [exact G|reflexivity|congruence].
    + injection ST as -> <-; apply (NEXT entry); [apply dget_dset_same|intros w Nw; apply dget_dset_other, Nw|discriminate].
Qed.

Lemma load_coded_spec h hd lines f : wf h -> header f hd ->
  match mapM (parse_line f) lines with
  | Ok ps => exists h' b cd, load_coded_dictionary h (hd :: lines) = (h', Ok cd) /\ wf h' /\
      dkeys b = distinct (map fst ps) /\
      (forall w e, dget w b = Some e -> (length (entries h) <= e < length (entries h'))%nat /\ wd h' e = w /\ pairs h' e = pairs_for w ps) /\
      (forall c w e, lookup2 c w cd = Some e <-> dget w b = Some e /\ carried ps w c)
  | Raise e => exists h', load_coded_dictionary h (hd :: lines) = (h', Raise e)
  end.
Proof.
  intros W H; unfold load_coded_dictionary.
  destruct (detect_in known_formats hd (fun g => iff_refl _)) as [DT _].
  unfold detect_format; rewrite (proj2 (DT f) H).
  pose proof (load_lines_ok (parse_line f) (length (entries h)) (parse_line_sound f) lines [] h [] []) as P.
  assert (L0 : loaded (length (entries h)) h [] []) by (split; [exact W|split; [reflexivity|intros w e; discriminate]]).
  assert (C0 : coded_ok [] [] []) by (intros c w e; split; [discriminate|intros [E _]; discriminate E]).
  specialize (P (le_n _) L0 (Forall_nil _) C0).
  destruct (mapM (parse_line f) lines) as [ps|e]; [|exact P].
  destruct P as [h' [b [cd [E [[W' [K D]] CO]]]]]; exists h', b, cd; split; [exact E|split; [exact W'|split; [exact K|split; [exact D|exact CO]]]].
Qed.

Lemma parse_line_not_stop f l : parse_line f l <> Raise StopIteration.
Proof.
  unfold parse_line; destruct (match_ (line_pattern f) l) as [m|]; [|discriminate].
  destruct (group (u "word") m); [|discriminate]; destruct (group (u "senses") m) as [s|]; [|discriminate].
  destruct (map sense_of (finditer (sense_pattern f) s)); discriminate.
Qed.
Lemma iter_coded h hd lines f : wf h -> header f hd ->
  exists h' o ps, iter_coded_entries h (hd :: lines) =
    (h', (map (fun e => (e, codes_of (sn h' e))) (seq (length (entries h)) (length ps)), o)) /\
    (forall i p, nth_error ps i = Some p -> let e := (length (entries h) + i)%nat in
       (wd h' e, (rd h' e, sn h' e)) = p /\ forall c, In c (codes_of (sn h' e)) <-> exists s, In s (snd (snd p)) /\ carries s c) /\
    match o with
    | Ok _ => mapM (parse_line f) lines = Ok ps
    | Raise e => exists a x b, lines = a ++ x :: b /\ mapM (parse_line f) a = Ok ps /\ parse_line f x = Raise e
    end.
Proof.
  intros W H; unfold iter_coded_entries, iter_entries.
  destruct (detect_in known_formats hd (fun g => iff_refl _)) as [DT _].
  unfold detect_format; rewrite (proj2 (DT f) H).
  destruct (iter_lines_spec (parse_line f) (parse_line_sound f) lines h W) as [h' [es [o [ps [-> [_ [-> [_ [V [_ R]]]]]]]]]].
  assert (G : in_generator o = o).
  { destruct o as [|e]; [reflexivity|]; destruct R as (a & x & b & _ & _ & X); destruct e; try reflexivity; elim (parse_line_not_stop f x X). }
  exists h', o, ps; split; [rewrite G; reflexivity|split; [|exact R]].
  intros i p E; specialize (V i p E); cbv zeta in *; split; [exact V|]; intros c; rewrite codes_of_spec, <- V; reflexivity.
Qed.
