(* Said_proofs.v -- lemmas for C139 *)
From Verif Require Import Base PyStr PyText Scripts_model KanaTable_model Alternations_model Alternations_spec Alternations_proofs
  Common_model SmartCache_model SmartCache_spec SmartCache_proofs Rose Maps_model
  Misc_model Misc_spec Misc_proofs Tree_model Place_model Place_spec Place_proofs Messages_model Said_model.
From Coq Require Import Permutation.

Lemma forget_silent {A} (r : res A) : forget (silent r) = r.
Proof. destruct r; reflexivity. Qed.
Lemma forget_try {A B} (m : told A) (k : A -> told B) : forget (tbind m k) = bind (forget m) (fun a => forget (k a)).
Proof. destruct m; reflexivity. Qed.

(** ** find_node *)
Lemma forget_find_loop shuffle fuel : forall n h s fr nx,
  forget (find_any_loop shuffle fuel n h (Text s) fr nx) = find_loop shuffle fuel n h s fr nx.
Proof.
  induction fuel as [|f IH]; intros n h s fr nx; [reflexivity|]; cbn [find_any_loop find_loop].
  assert (G : forget match pop_last fr with
            | Some ((current_path, next_node), frontier) =>
                try hit <- lookup (Text s) (kids (Place_model.at_ h next_node));
                match hit with
                | Some (l, target_node) => Fine (Found target_node (current_path ++ [l]))
                | None => find_any_loop shuffle f n h (Text s) frontier
                      (nx ++ map (fun ln => (current_path ++ [fst ln], snd ln)) (kids (Place_model.at_ h next_node)))
                end
            | None => find_any_loop shuffle f (S n) h (Text s) (shuffle n nx) []
            end =
            match pop_last fr with
            | Some ((current_path, next_node), frontier) =>
                match dget s (kids (Place_model.at_ h next_node)) with
                | Some target_node => Ok (Found target_node (current_path ++ [s]))
                | None => find_loop shuffle f n h s frontier
                      (nx ++ map (fun ln => (current_path ++ [fst ln], snd ln)) (kids (Place_model.at_ h next_node)))
                end
            | None => find_loop shuffle f (S n) h s (shuffle n nx) []
            end).
  { destruct (pop_last fr) as [[[p a] fr']|]; [|apply IH].
    cbn [lookup tbind]; destruct (dget s (kids (Place_model.at_ h a))); cbn [option_map]; [reflexivity|apply IH]. }
  destruct fr; [destruct nx; [reflexivity|]|]; exact G.
Qed.
Lemma forget_find shuffle fuel h a s : forget (find_any shuffle fuel h a (Text s)) = find_node shuffle fuel h a s.
Proof. unfold find_any, Place_model.find_node; destruct (eqb s _); [reflexivity|apply forget_find_loop]. Qed.

Definition absent (a : arg) : told found := try text <- percent_s (u "no such node ") a; Fail KeyError (Some text).
Definition no_text (a : arg) : Prop := match a with Tuple _ | Other _ => True | _ => False end.
Lemma find_loop_other shuffle fuel : forall n h a s fr nx, no_text a -> (forall b, dget s (kids (Place_model.at_ h b)) = None) ->
  find_any_loop shuffle fuel n h a fr nx =
  match find_loop shuffle fuel n h s fr nx with Raise OutOfFuel => Fail OutOfFuel None | _ => absent a end.
Proof.
  induction fuel as [|f IH]; intros n h a s fr nx N D; [reflexivity|]; cbn [find_any_loop find_loop].
  assert (L : forall d, lookup a d = Fine None) by (destruct a; [destruct N|reflexivity|reflexivity|destruct N]).
  destruct fr as [|x fr]; [destruct nx as [|y nx]; [reflexivity|]|].
  - apply IH; assumption.
  - destruct (pop_last (x :: fr)) as [[[p b] fr']|]; [|apply IH; assumption].
    rewrite L, D; cbn [tbind]; apply IH; assumption.
Qed.
(* the KeyErrors of a search for a text name it *)
Lemma find_loop_said shuffle fuel : forall n h s fr nx e m,
  find_any_loop shuffle fuel n h (Text s) fr nx = Fail e m ->
  e = OutOfFuel /\ m = None \/ e = KeyError /\ m = Some (u "no such node " ++ s).
Proof.
  induction fuel as [|f IH]; intros n h s fr nx e m E; [injection E as <- <-; left; split; reflexivity|]; cbn [find_any_loop] in E.
  destruct fr as [|x fr]; [destruct nx as [|y nx]|].
  - injection E as <- <-; right; split; reflexivity.
  - apply IH in E; exact E.
  - destruct (pop_last (x :: fr)) as [[[p b] fr']|]; [|apply IH in E; exact E].
    cbn [lookup tbind] in E; destruct (dget s (kids (Place_model.at_ h b))); cbn [option_map] in E; [discriminate|apply IH in E; exact E].
Qed.

(** a text that is no key of the store *)
Definition keys_of (h : list place) : list str := flat_map (fun p => dkeys (kids p)) h.
Lemma longer (ks : list str) : exists s : str, ~ In s ks.
Proof.
  assert (H : exists m, forall k, In k ks -> (length k <= m)%nat).
  { induction ks as [|k ks [m IH]]; [exists O; intros k []|].
    exists (Nat.max (length k) m); intros k' [<-|I]; [lia|specialize (IH _ I); lia]. }
  destruct H as [m H]; exists (repeat 0 (S m)); intros I; apply H in I; rewrite repeat_length in I; lia.
Qed.
Lemma fetch_in (h : list place) b : Place_model.at_ h b = no_place \/ In (Place_model.at_ h b) h.
Proof. destruct (nth_in_or_default b h no_place) as [E|E]; [right|left]; exact E. Qed.
Lemma unused h l : exists s, s <> l /\ forall b, dget s (kids (Place_model.at_ h b)) = None.
Proof.
  destruct (longer (l :: keys_of h)) as [s N]; exists s; split; [intros ->; apply N; left; reflexivity|].
  intros b; apply dget_None; intros I; apply N; right; unfold keys_of; apply in_flat_map.
  destruct (fetch_in h b) as [E|E]; [rewrite E in I; destruct I|exists (Place_model.at_ h b); split; assumption].
Qed.

(** ** walk_with_path *)
Lemma forget_with_path h w : forall path ld ln, forget (with_path_told h path ld ln w) = with_path h path ld ln w.
Proof.
  induction w as [|[d n] w IH]; intros path ld ln; [reflexivity|]; cbn [with_path_told with_path].
  rewrite forget_try.
  destruct (d =? ld + 1); [destruct ln as [m|]; [|reflexivity]|destruct (d =? ld); [|destruct (d <? ld); [|reflexivity]]];
    cbn [forget bind]; rewrite forget_try; cbn [forget]; rewrite IH; destruct (with_path h _ d (Some n) w); reflexivity.
Qed.
(* the depths on the stack of a walk never fall from the bottom to the top *)
Lemma pop_last_snoc {A} (l : list A) : l = [] \/ exists r x, l = r ++ [x] /\ pop_last l = Some (x, r).
Proof.
  destruct l as [|y l]; [left; reflexivity|right].
  destruct (@exists_last _ (y :: l)) as [r [x E]]; [discriminate|]; exists r, x; split; [exact E|].
  rewrite E; unfold pop_last; rewrite rev_app_distr; cbn [rev app]; rewrite rev_involutive; reflexivity.
Qed.
Definition rising (l : list (Z * addr)) : Prop := forall r x t, l = r ++ x :: t -> forall y, In y t -> fst x <= fst y.
Lemma rising_next r d a (ks : list (Z * addr)) : rising (r ++ [(d, a)]) -> (forall x, In x r -> fst x <= d) -> (forall x, In x ks -> fst x = d + 1) -> rising (r ++ ks).
Proof.
  intros R B K p x t E y Y.
  destruct (app_eq_app _ _ _ _ E) as [l [[E1 E2]|[E1 E2]]].
  - destruct l as [|x' l].
    + cbn [app] in E2. assert (In x ks) by (rewrite <- E2; left; reflexivity). assert (In y ks) by (rewrite <- E2; right; exact Y).
      rewrite (K x), (K y) by assumption; lia.
    + injection E2 as <- E2; subst t r; apply in_app_or in Y as [Y|Y].
      * refine (R p x (l ++ [(d, a)]) _ y _); [rewrite <- app_assoc; reflexivity|apply in_or_app; left; exact Y].
      * specialize (B x); rewrite (K y Y); enough (fst x <= d) by lia; apply B, in_or_app; right; left; reflexivity.
  - assert (In x ks) by (rewrite E2; apply in_or_app; right; left; reflexivity).
    assert (In y ks) by (rewrite E2; apply in_or_app; right; right; exact Y).
    rewrite (K x), (K y) by assumption; lia.
Qed.
Lemma walk_paths h fuel : forall stack w path ld n, rising stack -> (forall x, In x stack -> fst x <= ld + 1) ->
  walk_loop fuel h stack = Ok w -> exists r, with_path h path ld (Some n) w = Ok r.
Proof.
  induction fuel as [|f IH]; intros stack w path ld n R B E; [discriminate|]; cbn [walk_loop] in E.
  destruct (pop_last_snoc stack) as [->|[r [[d a] [-> P]]]].
  - cbn in E; injection E as <-; exists []; reflexivity.
  - rewrite P in E.
    destruct (walk_loop f h (r ++ rev (map (fun p => (d + 1, p)) (dvals (kids (Place_model.at_ h a)))))) as [w'|e] eqn:W; [|discriminate].
    cbn [rmap bind] in E; injection E as <-.
    assert (D : d <= ld + 1) by (apply (B (d, a)), in_or_app; right; left; reflexivity).
    assert (K : forall x, In x (rev (map (fun p => (d + 1, p)) (dvals (kids (Place_model.at_ h a))))) -> fst x = d + 1).
    { intros x I; apply in_rev, in_map_iff in I as [p [<- _]]; reflexivity. }
    assert (L : forall x, In x r -> fst x <= d).
    { intros x I; destruct (in_split _ _ I) as [p [t ->]].
      apply (R p x (t ++ [(d, a)])) with (y := (d, a)); [rewrite <- app_assoc; reflexivity|apply in_or_app; right; left; reflexivity]. }
    assert (G : forall path', exists r, with_path h path' d (Some a) w' = Ok r).
    { intros path'; apply (IH _ _ path' d a) in W; [exact W|apply (rising_next r d a); assumption|].
      intros x I; apply in_app_or in I as [I|I]; [apply L in I; lia|rewrite (K x I); lia]. }
    cbn [with_path]; destruct (d =? ld + 1) eqn:E1; cbn [bind].
    + destruct (G (path ++ [Place_model.label (Place_model.at_ h n)])) as [q ->]; eexists; reflexivity.
    + destruct (d =? ld) eqn:E2; cbn [bind]; [destruct (G path) as [q ->]; eexists; reflexivity|].
      replace (d <? ld) with true by lia; cbn [bind]; destruct (G (but_last (ld - d) path)) as [q ->]; eexists; reflexivity.
Qed.
Lemma walk_fuel h fuel : forall stack e, walk_loop fuel h stack = Raise e -> e = OutOfFuel.
Proof.
  induction fuel as [|f IH]; intros stack e E; [injection E as <-; reflexivity|]; cbn [walk_loop] in E.
  destruct (pop_last stack) as [[[d a] r]|]; [|discriminate].
  destruct (walk_loop f h _) eqn:W in E; [discriminate|]; cbn [rmap bind] in E; injection E as <-; apply IH in W; exact W.
Qed.
Lemma walk_with_path_fine h fuel a : (exists r, walk_with_path fuel h a = Ok r) \/ walk_with_path fuel h a = Raise OutOfFuel.
Proof.
  unfold walk_with_path, Place_model.walk; cbn [rev app].
  destruct (walk_loop fuel h [(0, a)]) as [w|e] eqn:W; cbn [bind]; [|right; apply walk_fuel in W; subst; reflexivity].
  left; destruct fuel as [|f]; [discriminate|]; cbn [walk_loop pop_last rev app] in W.
  destruct (walk_loop f h (rev (map (fun p => (0 + 1, p)) (dvals (kids (Place_model.at_ h a)))))) as [w'|e] eqn:W'; [|discriminate].
  cbn [rmap bind] in W; injection W as <-; cbn [with_path bind].
  change (0 =? 0 + 1) with false; change (0 =? 0) with true; cbn [bind].
  assert (K : forall x, In x (rev (map (fun p => (0 + 1, p)) (dvals (kids (Place_model.at_ h a))))) -> fst x = 0 + 1).
  { intros x I; apply in_rev, in_map_iff in I as [p [<- _]]; reflexivity. }
  destruct (walk_paths h f (rev (map (fun p => (0 + 1, p)) (dvals (kids (Place_model.at_ h a))))) w' [] 0 a) with (3 := W') as [q Q]; [| |rewrite Q; eexists; reflexivity].
  - intros r x t E y Y; rewrite (K x), (K y); [lia| |]; rewrite E; apply in_or_app; right; [right; exact Y|left; reflexivity].
  - intros x I; rewrite (K x I); lia.
Qed.

(** ** needs_update *)
Section Update.
  Variable set_order : list (option path) -> list (option path).
  Hypothesis order_ok : forall l, Permutation (set_order l) l.

  Lemma forget_check st t deps : forget (check_told set_order st t deps) = check_dependencies set_order st t (map fst deps).
  Proof.
    induction deps as [|[d ty] deps IH]; [reflexivity|]; cbn [check_told check_dependencies map fst].
    rewrite forget_try; destruct d as [p|m|]; [| |reflexivity]; cbn [forget bind]; rewrite ?forget_silent.
    - rewrite forget_try, forget_silent; destruct (any_newer st t [Some p]) as [[|]|]; cbn [bind]; [reflexivity|exact IH|reflexivity].
    - destruct (get_module_dependencies set_order m) as [fs|]; cbn [bind]; [|reflexivity].
      rewrite forget_try, forget_silent; destruct (any_newer st t fs) as [[|]|]; cbn [bind]; [reflexivity|exact IH|reflexivity].
  Qed.
  (* the text is that of the first dependency of an unknown type, when all before it are older *)
  Lemma check_said st t deps e m : check_told set_order st t deps = Fail e (Some m) <->
    exists l ty r, deps = l ++ (DepOther, ty) :: r /\ e = TypeError /\ m = u "Unknown dependency type " ++ ty /\
      check_dependencies set_order st t (map fst l) = Ok false.
  Proof.
    induction deps as [|[d ty] deps IH].
    - split; [discriminate|]; intros [[|] [ty [r [E _]]]]; discriminate.
    - assert (G : forall fs, d <> DepOther ->
        (match d with DepPath p => Ok [Some p] | DepModule m => get_module_dependencies set_order m | DepOther => Raise TypeError end) = Ok fs ->
        (check_told set_order st t ((d, ty) :: deps) = Fail e (Some m) <->
         any_newer st t fs = Ok false /\ check_told set_order st t deps = Fail e (Some m)) /\
        forall l, check_dependencies set_order st t (d :: l) = Ok false <-> any_newer st t fs = Ok false /\ check_dependencies set_order st t l = Ok false).
      { intros fs N F; cbn [check_told check_dependencies]; split; [|intros l; rewrite F; cbn [bind]; destruct (any_newer st t fs) as [[|]|]; cbn [bind]; (split; [intros X; try discriminate X; try (split; [reflexivity|exact X])|intros [X Y]; try discriminate X; try exact Y])].
        destruct d as [p|k|]; [injection F as <-| |congruence]; [|rewrite F]; cbn [silent tbind];
          (destruct (any_newer st t _) as [[|]|]; cbn [silent tbind]; (split; [intros X; try discriminate X; try (split; [reflexivity|exact X])|intros [X Y]; try discriminate X; try exact Y])). }
      assert (C : forall fs, d <> DepOther ->
        (match d with DepPath p => Ok [Some p] | DepModule m => get_module_dependencies set_order m | DepOther => Raise TypeError end) = Ok fs ->
        check_told set_order st t ((d, ty) :: deps) = Fail e (Some m) <->
        exists l ty' r, (d, ty) :: deps = l ++ (DepOther, ty') :: r /\ e = TypeError /\ m = u "Unknown dependency type " ++ ty' /\
          check_dependencies set_order st t (map fst l) = Ok false).
      { intros fs N F; destruct (G fs N F) as [G1 G2]; rewrite G1, IH; split.
        - intros [A [l [ty' [r [-> [E [M Ck]]]]]]]; exists ((d, ty) :: l), ty', r; repeat split; [exact E|exact M|].
          cbn [map fst]; apply G2; split; assumption.
        - intros [l [ty' [r [E [Ex [M Ck]]]]]]; destruct l as [|[d' ty''] l]; [injection E as E _; congruence|].
          injection E as <- <- ->; cbn [map fst] in Ck; apply G2 in Ck as [A Ck].
          split; [exact A|]; exists l, ty', r; repeat split; assumption. }
      destruct d as [p|k|].
      + apply (C [Some p]); [discriminate|reflexivity].
      + destruct (get_module_dependencies set_order k) as [fs|x] eqn:F; [apply (C fs); [discriminate|reflexivity]|].
        clear C G; cbn [check_told]; rewrite F; cbn [silent tbind]; split; [discriminate|].
        intros [l [ty' [r [E [_ [_ Ck]]]]]]; destruct l as [|[d' ty''] l]; [discriminate|].
        injection E as <- <- ->; cbn [map fst check_dependencies] in Ck; rewrite F in Ck; discriminate.
      + clear C G; cbn [check_told tbind]; split.
        * intros E; injection E as <- <-; exists [], ty, deps; repeat split.
        * intros [l [ty' [r [E [-> [-> Ck]]]]]]; destruct l as [|[d' ty''] l]; [injection E as -> ->; reflexivity|].
          injection E as <- <- ->; discriminate.
  Qed.
  (* to find nothing newer is to have looked at everything *)
  Lemma check_fresh st t deps : check_dependencies set_order st t deps = Ok false <-> exists l, looks deps l /\ Forall (fresh st t) l.
  Proof.
    split.
    - intros E; destruct (check_judge set_order order_ok st t deps) as [l [K J]]; exists l; split; [exact K|].
      rewrite E in J; pose proof (judge_verdict st t l) as V; rewrite <- J in V; inversion V; assumption.
    - intros [l [K F]]; revert F; induction K as [|p r l K IH|r l K IH|m r l N K IH|m files r l N ND I K IH]; intros F; cbn [check_dependencies].
      + reflexivity.
      + inversion F as [|x l' [q [f [E [D L]]]] F']; subst; injection E as ->.
        cbn [any_newer getmtime bind]; rewrite D; cbn [bind]; replace (t <? mtime f) with false by lia; apply IH, F'.
      + inversion F as [|x l' [q [f [E _]]] F']; discriminate.
      + inversion F as [|x l' [q [f [E _]]] F']; discriminate.
      + destruct (m_file m) as [|g] eqn:M; [congruence|].
        destruct (module_deps set_order order_ok m g M) as [fs [-> [ND' I']]]; cbn [bind].
        assert (A : any_newer st t fs = Ok false).
        { apply Forall_app in F as [F _]; assert (X : forall g, In g fs -> fresh st t (LFile g)).
          { intros g' J; rewrite Forall_forall in F; apply F, in_map, I, I', J. }
          clear - X; induction fs as [|g fs IH]; [reflexivity|]; cbn [any_newer].
          destruct (X g (or_introl eq_refl)) as [q [f [E [D L]]]]; injection E as ->.
          cbn [getmtime bind]; rewrite D; cbn [bind]; replace (t <? mtime f) with false by lia.
          apply IH; intros g J; apply X; right; exact J. }
        rewrite A; cbn [bind]; apply IH; apply Forall_app in F; apply F.
  Qed.
End Update.

(** ** The others *)
Lemma forget_copy fuel h a : forget (copy_told fuel h a) = Tree_model.copy fuel h a.
Proof. unfold copy_told; destruct (truth_opt h _) eqn:E; [unfold copy; rewrite E; reflexivity|apply forget_silent]. Qed.
Lemma forget_prune p fuel h a : forget (prune_told p fuel h a) = Tree_model.prune p fuel h a.
Proof.
  unfold prune_told, prune; rewrite forget_try, forget_copy; destruct (copy fuel h a) as [[h' b]|]; [|reflexivity]; cbn [bind].
  destruct (for_postorder (prune_body p) fuel h' tt [(b, false)]) as [[h'' s] [o|e]]; reflexivity.
Qed.
Lemma forget_tree_find shuffle fuel h a l : forget (tree_find_told shuffle fuel h a l) = Tree_model.find_node shuffle fuel h a l.
Proof.
  unfold tree_find_told, Tree_model.find_node; destruct (for_breadth (find_body l) shuffle fuel 0 h tt [a] []) as [[h' s] [[n|]|e]]; reflexivity.
Qed.
Lemma forget_sopen py2 codec os name mode enc :
  (fst (sopen_told py2 codec os name mode enc), forget (snd (sopen_told py2 codec os name mode enc))) = sopen py2 codec os name mode enc.
Proof.
  unfold sopen_told; destruct (mem (u1 "r") mode && mem (u1 "w") mode) eqn:E; [unfold sopen; rewrite E; reflexivity|].
  destruct (sopen py2 codec os name mode enc) as [o r]; cbn [fst snd]; rewrite forget_silent; reflexivity.
Qed.
Lemma forget_segment U s l r : forget (segment_forms_told U s l r) = canonical_segment_forms U s l r.
Proof.
  unfold segment_forms_told; destruct (dget (script_type s) sokuon_map) eqn:E; [apply forget_silent|].
  unfold canonical_segment_forms; rewrite E; reflexivity.
Qed.
Lemma forget_candidates U n segs : forall i, forget (candidates_told U i n segs) = candidate_sets U i n segs.
Proof.
  induction segs as [|s segs IH]; intros i; [reflexivity|]; cbn [candidates_told candidate_sets].
  rewrite forget_try, forget_segment; destruct (canonical_segment_forms U s _ _); [|reflexivity]; cbn [bind].
  rewrite forget_try, IH; destruct (candidate_sets U (S i) n segs); reflexivity.
Qed.
Lemma forget_forms U segs : forget (forms_told U segs) = canonical_forms U segs.
Proof. unfold forms_told, canonical_forms; rewrite forget_try, forget_candidates; destruct (candidate_sets U 0 _ segs); reflexivity. Qed.
Lemma segment_said U s l r e m : segment_forms_told U s l r = Fail e (Some m) <->
  ~ kana_segment s /\ e = ValueError /\ m = u "Unsupported script type. Segments must be hiragana or katakana".
Proof.
  unfold segment_forms_told; destruct (maps_spec (script_type s)) as [-> _].
  assert (K : kana_segment s <-> small_tsu (script_type s) <> None).
  { split.
    - intros [c [r' [-> K]]]; destruct (kana_script c K) as [sc [t [I [_ T]]]].
      rewrite (proj2 (Scripts_proofs.script_type_char c r' sc) I); congruence.
    - intros N; destruct s as [|c r']; [exfalso; apply N; reflexivity|]; exists c, r'; split; [reflexivity|].
      destruct (script_type (c :: r')) eqn:E; try (exfalso; apply N; reflexivity); apply Scripts_proofs.script_type_char in E; [left|right]; exact E. }
  rewrite K; destruct (small_tsu (script_type s)) as [t|].
  - split; [|intros [N _]; exfalso; apply N; discriminate].
    destruct (canonical_segment_forms U s l r); discriminate.
  - split; [intros E; injection E as <- <-; repeat split; congruence|intros [_ [-> ->]]; reflexivity].
Qed.
Lemma forms_said U segs e m : forms_told U segs = Fail e (Some m) <->
  e = ValueError /\ m = u "Unsupported script type. Segments must be hiragana or katakana" /\
  exists l s r, segs = l ++ s :: r /\ ~ kana_segment s /\
    forall j seg, nth_error l j = Some seg -> exists vs, canonical_segment_forms U seg (0 <? j)%nat (j <? length segs - 1)%nat = Ok vs.
Proof.
  assert (G : forall n segs i, candidates_told U i n segs = Fail e (Some m) <->
    e = ValueError /\ m = u "Unsupported script type. Segments must be hiragana or katakana" /\
    exists l s r, segs = l ++ s :: r /\ ~ kana_segment s /\
      forall j seg, nth_error l j = Some seg -> exists vs, canonical_segment_forms U seg (0 <? (i + j))%nat ((i + j) <? n - 1)%nat = Ok vs).
  { clear segs; intros n segs; induction segs as [|s segs IH]; intros i.
    - split; [discriminate|]; intros [_ [_ [[|] [s [r [E _]]]]]]; discriminate.
    - cbn [candidates_told].
      destruct (segment_forms_told U s (0 <? i)%nat (i <? n - 1)%nat) as [vs|x y] eqn:F; cbn [tbind].
      + assert (Fo : canonical_segment_forms U s (0 <? i)%nat (i <? n - 1)%nat = Ok vs) by (rewrite <- forget_segment, F; reflexivity).
        assert (T : tbind (candidates_told U (S i) n segs) (fun vs0 => Fine (vs :: vs0)) = Fail e (Some m) <-> candidates_told U (S i) n segs = Fail e (Some m)).
        { destruct (candidates_told U (S i) n segs); cbn [tbind]; [split; discriminate|reflexivity]. }
        rewrite T, IH; split.
        * intros [-> [-> [l [s' [r [-> [N O]]]]]]]; split; [reflexivity|split; [reflexivity|]]; exists (s :: l), s', r; repeat split; [exact N|].
          intros [|j] seg J; cbn [nth_error] in J; [injection J as <-; rewrite Nat.add_0_r; exists vs; exact Fo|].
          replace (i + S j)%nat with (S i + j)%nat by lia; apply O, J.
        * intros [-> [-> [[|s'' l] [s' [r [E [N O]]]]]]].
          -- injection E as <- <-; pose proof (proj2 (segment_said U s (0 <? i)%nat (i <? n - 1)%nat ValueError _) (conj N (conj eq_refl eq_refl))) as X.
             rewrite F in X; discriminate.
          -- injection E as <- ->; split; [reflexivity|split; [reflexivity|]]; exists l, s', r; repeat split; [exact N|].
             intros j seg J; replace (S i + j)%nat with (i + S j)%nat by lia; apply O; exact J.
      + split.
        * intros E; injection E as -> ->; apply segment_said in F as [N [-> ->]]; split; [reflexivity|split; [reflexivity|]].
          exists [], s, segs; repeat split; [exact N|]; intros [|j] seg J; discriminate.
        * intros [-> [-> [[|s'' l] [s' [r [E [N O]]]]]]].
          -- injection E as <- <-; pose proof (proj2 (segment_said U s (0 <? i)%nat (i <? n - 1)%nat ValueError _) (conj N (conj eq_refl eq_refl))) as X.
             rewrite F in X; injection X as -> ->; reflexivity.
          -- injection E as <- ->; destruct (O 0%nat s eq_refl) as [vs Fo]; rewrite Nat.add_0_r in Fo.
             rewrite <- forget_segment, F in Fo; discriminate. }
  unfold forms_told; specialize (G (length segs) segs O); cbn [Nat.add] in G; rewrite <- G.
  destruct (candidates_told U 0 (length segs) segs); cbn [tbind]; split; congruence.
Qed.
Lemma forget_search environ own user isdir l : forget (search_told environ own user isdir l) = search environ own user isdir l.
Proof. induction l as [|p l IH]; [reflexivity|]; cbn [search_told search]; destruct (isdir _); [reflexivity|exact IH]. Qed.
Lemma forget_find_path environ own user isdir : forget (find_path_told environ own user isdir) = find_path environ own user isdir.
Proof. unfold find_path_told, find_path; destruct (dget (u "CJKDATA") environ); [reflexivity|apply forget_search]. Qed.
Lemma forget_resource environ own user isdir name : forget (resource_told environ own user isdir name) = get_resource environ own user isdir name.
Proof. unfold resource_told, get_resource; rewrite forget_try, forget_find_path; reflexivity. Qed.
Lemma forget_lists environ own user isdir listdir : forget (lists_told environ own user isdir listdir) = get_lists environ own user isdir listdir.
Proof.
  unfold lists_told, get_lists; rewrite forget_try, forget_resource; destruct (get_resource environ own user isdir _); [|reflexivity].
  cbn [bind]; apply forget_silent.
Qed.
Lemma forget_list environ own user isdir contents name : forget (list_told environ own user isdir contents name) = get_list environ own user isdir contents name.
Proof.
  unfold list_told, get_list; rewrite forget_try, forget_resource; destruct (get_resource environ own user isdir _) as [f|]; [|reflexivity].
  cbn [bind]; rewrite forget_try, forget_silent; destruct (contents f); reflexivity.
Qed.
Lemma search_said environ own user isdir l e m : search_told environ own user isdir l = Fail e m <->
  e = MissingCJKDataError /\ m = Some please /\ forall p, In p l -> isdir (expanduser environ own user p) = false.
Proof.
  induction l as [|p l IH]; cbn [search_told].
  - split; [intros E; injection E as <- <-; repeat split; intros p []|intros [-> [-> _]]; reflexivity].
  - destruct (isdir (expanduser environ own user p)) eqn:E.
    + split; [discriminate|]; intros [_ [_ H]]; specialize (H p (or_introl eq_refl)); congruence.
    + rewrite IH; split; intros [-> [-> H]]; repeat split; [intros q [<-|I]; [exact E|apply H, I]|intros q I; apply H; right; exact I].
Qed.
Lemma tree_only_fuel l shuffle fuel : forall k h s q r h' s' e, for_breadth (find_body l) shuffle fuel k h s q r = (h', s', Raise e) -> e <> KeyError.
Proof.
  induction fuel as [|f IH]; intros k h s q r h' s' e E; cbn [for_breadth] in E; [injection E as _ _ <-; discriminate|].
  destruct (pop_last q) as [[n fr]|]; [|discriminate E]. unfold find_body at 1 in E. destruct (eqb (Tree_model.label (Tree_model.at_ h n)) l); [discriminate E|].
  destruct fr; exact (IH _ _ _ _ _ _ _ _ E).
Qed.
