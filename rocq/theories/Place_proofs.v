From Verif Require Import Base PyText PyFmt Rose Maps_model Maps_proofs Place_model Place_spec.
From Coq Require Import Permutation.

(* ---------------- walk ---------------- *)
Lemma walk_stack h fuel : forall ts ds, length ds = length ts -> Forall (tree_at h) ts -> (fsize ts < fuel)%nat ->
  walk_loop fuel h (rev (combine ds (map root ts))) = Ok (flat_map (fun dt => pre (fst dt) (snd dt)) (combine ds ts)).
Proof.
  induction fuel as [|f IH]; intros ts ds L F B; [lia|].
  destruct ts as [|[a ks] ts]; destruct ds as [|d ds]; try discriminate L; [reflexivity|].
  inversion F as [|? ? T F']; subst; inversion T as [a' ks' E K]; subst.
  cbn [map root combine rev walk_loop flat_map fst snd]; rewrite pop_last_snoc.
  assert (X : rev (combine ds (map root ts)) ++ rev (map (fun p => (d + 1, p)) (dvals (kids (at_ h a)))) =
              rev (combine (map (fun _ => d + 1) ks ++ ds) (map root (ks ++ ts)))).
  { rewrite <- rev_app_distr, <- E, !map_map, map_app; f_equal; clear.
    induction ks as [|k ks IH]; [reflexivity|cbn [map app combine]; f_equal; exact IH]. }
  rewrite X, IH.
  - cbn [rmap bind pre app]; f_equal; f_equal; clear.
    induction ks as [|k ks IH]; [reflexivity|]; cbn [map app combine flat_map fst snd]; rewrite IH, app_assoc; reflexivity.
  - rewrite !app_length, map_length; injection L as ->; reflexivity.
  - apply Forall_app; split; assumption.
  - rewrite fsize_app; rewrite fsize_cons, rsize_eq in B; unfold fsize in *; lia.
Qed.
Lemma walk_ok h fuel t : tree_at h t -> (rsize t < fuel)%nat -> walk fuel h (root t) = Ok (pre 0 t).
Proof.
  intros T B; unfold walk; change [(0, root t)] with (combine [0] (map root [t])); rewrite (walk_stack h fuel [t] [0]).
  - cbn [combine flat_map fst snd]; rewrite app_nil_r; reflexivity.
  - reflexivity.
  - constructor; [exact T|constructor].
  - rewrite fsize_cons; cbn; lia.
Qed.
Lemma tree_reach h t : forall d0 a0, tree_at h t -> reach h a0 d0 (root t) -> forall d b, In (d, b) (pre d0 t) -> reach h a0 d b.
Proof.
  induction t as [a ks IH] using rose_rec_ind; intros d0 a0 T R d b; cbn [pre root] in *; intros [E|I].
  - injection E as <- <-; exact R.
  - inversion T as [? ? E K]; subst; apply in_flat_map in I; destruct I as [k [Ik I]]; rewrite Forall_forall in IH, K.
    apply (IH k Ik (d0 + 1) a0 (K k Ik)); [|exact I].
    apply (Reach_kid h a0 d0 a); [exact R|rewrite <- E; apply in_map, Ik].
Qed.
Lemma sub_kid h t : forall d0, tree_at h t -> forall d b c, In (d, b) (pre d0 t) -> In c (dvals (kids (at_ h b))) -> In (d + 1, c) (pre d0 t).
Proof.
  induction t as [a ks IH] using rose_rec_ind; intros d0 T d b c; cbn [pre].
  inversion T as [? ? E K]; subst; intros [X|I] C.
  - injection X as <- <-; right; rewrite <- E in C; apply in_map_iff in C; destruct C as [k [<- Ik]].
    apply in_flat_map; exists k; split; [exact Ik|destruct k; left; reflexivity].
  - right; apply in_flat_map in I; destruct I as [k [Ik I]]; apply in_flat_map; exists k; split; [exact Ik|].
    rewrite Forall_forall in IH, K; apply (IH k Ik (d0 + 1) (K k Ik) d b c I C).
Qed.
Lemma pre_reach h t d b : tree_at h t -> (In (d, b) (pre 0 t) <-> reach h (root t) d b).
Proof.
  intros T; split; [apply tree_reach; [exact T|apply Reach_root]|].
  induction 1 as [|d b c R IH C]; [destruct t; left; reflexivity|apply (sub_kid h t 0 T d b c IH C)].
Qed.

(* ---------------- walk_with_path ---------------- *)
(** a state from which the nodes below [p] can be read *)
Definition ready {X} (P : list X) (p : X) (d : Z) (path : list X) (ld : Z) (ln : option X) : Prop :=
  (ld = d /\ path = P /\ ln = Some p) \/ (d < ld /\ exists e, path = (P ++ [p]) ++ e /\ length e = Z.to_nat (ld - (d + 1))).
(** what the step does *)
Lemma step_ready {X} (P : list X) p d path ld ln : ready P p d path ld ln ->
  (if d + 1 =? ld + 1 then match ln with Some n => Ok (path ++ [n]) | None => Raise AttributeError end
   else if d + 1 =? ld then Ok path else if d + 1 <? ld then Ok (but_last (ld - (d + 1)) path) else Raise PlainException) = Ok (P ++ [p]).
Proof.
  intros [[-> [-> ->]]|[L [e [-> E]]]].
  - rewrite Z.eqb_refl; reflexivity.
  - destruct (Z.eqb_spec (d + 1) (ld + 1)); [lia|]; destruct (Z.eqb_spec (d + 1) ld) as [Eq|N].
    + rewrite <- Eq, Z.sub_diag in E; destruct e; [rewrite app_nil_r; reflexivity|discriminate E].
    + destruct (Z.ltb_spec (d + 1) ld); [|lia]; rewrite but_last_app by exact E; reflexivity.
Qed.
Lemma ready_up {X} (P : list X) p x d path ld ln : ready (P ++ [p]) x (d + 1) path ld ln -> ready P p d path ld ln.
Proof.
  intros [[-> [-> ->]]|[L [e [-> E]]]]; right; split; try lia.
  - exists []; rewrite app_nil_r, Z.sub_diag; split; reflexivity.
  - exists (x :: e); split; [rewrite <- !app_assoc; reflexivity|].
    cbn [length]; rewrite E; lia.
Qed.
Definition lab (h : list place) (n : option addr) : option str := option_map (fun a => label (at_ h a)) n.
Lemma rmap_app {X} (l m : list X) r : rmap (app l) (rmap (app m) r) = rmap (app (l ++ m)) r.
Proof. destruct r; cbn; [rewrite app_assoc|]; reflexivity. Qed.
Lemma rmap_nil {X} (r : res (list X)) : rmap (app []) r = r.
Proof. destruct r; reflexivity. Qed.
Definition walks_under (h : list place) (t : rose addr) : Prop :=
  forall P p d path ld ln, ready P p d path ld (lab h ln) ->
  exists path' ld' ln', ready P p d path' ld' (lab h ln') /\
    forall rest, with_path h path ld ln (pre (d + 1) t ++ rest) = rmap (app (labelled h (P ++ [p]) t)) (with_path h path' ld' ln' rest).
Lemma forest_under h ks : Forall (walks_under h) ks -> forall P p d path ld ln, ready P p d path ld (lab h ln) ->
  exists path' ld' ln', ready P p d path' ld' (lab h ln') /\
    forall rest, with_path h path ld ln (flat_map (pre (d + 1)) ks ++ rest) =
      rmap (app (flat_map (labelled h (P ++ [p])) ks)) (with_path h path' ld' ln' rest).
Proof.
  induction 1 as [|k ks H F IH]; intros P p d path ld ln R.
  - exists path, ld, ln; split; [exact R|]; intros rest; rewrite rmap_nil; reflexivity.
  - destruct (H P p d path ld ln R) as [path1 [ld1 [ln1 [R1 E1]]]].
    destruct (IH P p d path1 ld1 ln1 R1) as [path2 [ld2 [ln2 [R2 E2]]]].
    exists path2, ld2, ln2; split; [exact R2|]; intros rest; cbn [flat_map].
    rewrite <- app_assoc, E1, E2, rmap_app; reflexivity.
Qed.
Lemma tree_under h t : walks_under h t.
Proof.
  induction t as [a ks IH] using rose_rec_ind; intros P p d path ld ln R.
  assert (R1 : ready (P ++ [p]) (label (at_ h a)) (d + 1) (P ++ [p]) (d + 1) (lab h (Some a))) by (left; split; [reflexivity|split; reflexivity]).
  destruct (forest_under h ks IH _ _ _ _ _ _ R1) as [path' [ld' [ln' [R' E]]]].
  exists path', ld', ln'; split; [apply (ready_up _ _ _ _ _ _ _ R')|]; intros rest.
  cbn [pre app with_path labelled]; pose proof (step_ready P p d path ld (lab h ln) R) as S.
  replace (match ln with Some n => Ok (path ++ [label (at_ h n)]) | None => Raise AttributeError end)
    with (match lab h ln with Some n => Ok (path ++ [n]) | None => Raise AttributeError end) by (destruct ln; reflexivity).
  rewrite S; cbn [bind]; rewrite E; destruct (with_path h path' ld' ln' rest); reflexivity.
Qed.
Lemma with_path_ok h t : with_path h [] 0 None (pre 0 t) = Ok (labelled h [] t).
Proof.
  destruct t as [a ks]; cbn [pre with_path Z.eqb]; cbn [Z.add Z.eqb bind].
  assert (R1 : ready [] (label (at_ h a)) 0 [] 0 (lab h (Some a))) by (left; split; [reflexivity|split; reflexivity]).
  destruct (forest_under h ks (proj2 (Forall_forall _ ks) (fun k _ => tree_under h k)) _ _ _ _ _ _ R1) as [path' [ld' [ln' [R' E]]]].
  specialize (E []); rewrite app_nil_r in E; cbn [app] in E; change (0 + 1) with 1 in *; rewrite E; cbn [with_path rmap labelled]; rewrite app_nil_r; reflexivity.
Qed.
Lemma walk_with_path_ok h fuel t : tree_at h t -> (rsize t < fuel)%nat -> walk_with_path fuel h (root t) = Ok (labelled h [] t).
Proof. intros T B; unfold walk_with_path; rewrite (walk_ok h fuel t T B); apply with_path_ok. Qed.
Lemma labelled_nodes h t : forall above, map snd (labelled h above t) = nodes t.
Proof.
  induction t as [a ks IH] using rose_rec_ind; intros above; cbn [labelled nodes map snd]; f_equal.
  rewrite map_flat_map; apply flat_map_ext_Forall; eapply Forall_impl; [|exact IH]; intros k H; apply H.
Qed.

(* ---------------- find_node ---------------- *)
Lemma path_snoc h a p b : path_to h a p b -> forall k c, dget k (kids (at_ h b)) = Some c -> path_to h a (p ++ [k]) c.
Proof.
  induction 1 as [a|a k c p b E P IH]; intros k' c' D; cbn [app].
  - apply (Path_cons h a k' c'); [exact D|apply Path_nil].
  - apply (Path_cons h a k c); [exact E|apply IH, D].
Qed.
Lemma path_app h q : forall a p c, path_to h a (p ++ q) c <-> exists b, path_to h a p b /\ path_to h b q c.
Proof.
  intros a p; revert a; induction p as [|k p IH]; intros a c; cbn [app].
  - split; [intros H; exists a; split; [apply Path_nil|exact H]|intros [b [H H']]; inversion H; subst; exact H'].
  - split.
    + intros H; inversion H as [|? ? x ? ? E P]; subst; apply IH in P; destruct P as [b [P Q]]; exists b; split; [|exact Q].
      apply (Path_cons h a k x); assumption.
    + intros [b [H Q]]; inversion H as [|? ? x ? ? E P]; subst; apply (Path_cons h a k x); [exact E|]; apply IH; exists b; split; assumption.
Qed.
Lemma path_snoc_inv h a p k c : path_to h a (p ++ [k]) c -> exists b, path_to h a p b /\ dget k (kids (at_ h b)) = Some c.
Proof.
  intros H; apply path_app in H; destruct H as [b [P Q]]; exists b; split; [exact P|].
  inversion Q as [|? ? x ? ? E R]; subst; inversion R; subst; exact E.
Qed.

Lemma Permutation_map_inv' (h : list place) (nx sh : list (list str * addr)) (us : list (rose addr)) :
  Permutation nx sh -> map root us = map snd nx -> exists us', Permutation us us' /\ map snd sh = map root us'.
Proof.
  intros P E; destruct (Permutation_map_inv root us (l1 := map snd sh)) as [us' [E' P']].
  - rewrite E; apply Permutation_map, Permutation_sym, P.
  - exists us'; split; [exact P'|exact E'].
Qed.
Section Find.
  Variable shuffle : nat -> list (list str * addr) -> list (list str * addr).
  Hypothesis shuffles : forall n l, Permutation l (shuffle n l).
  Variables (h : list place) (a : addr) (l : str).
  Hypothesis dicts : forall p b, path_to h a p b -> NoDup (dkeys (kids (at_ h b))).

  Record inv (d : nat) (fr nx : list (list str * addr)) : Prop := {
    i_fr : forall p b, In (p, b) fr -> path_to h a p b /\ length p = d;
    i_nx : forall p b, In (p, b) nx -> path_to h a p b /\ length p = S d;
    i_done : forall p b, path_to h a p b -> (length p <= d)%nat -> dget l (kids (at_ h b)) = None \/ In (p, b) fr;
    i_all : forall p k b, path_to h a (p ++ [k]) b -> length p = d -> In (p ++ [k], b) nx \/ exists c, In (p, c) fr }.
  Definition answer (r : res found) : Prop :=
    (exists b p, r = Ok (Found b (p ++ [l])) /\ path_to h a (p ++ [l]) b /\
       forall q c, path_to h a (q ++ [l]) c -> (length p <= length q)%nat) \/
    (r = Raise KeyError /\ forall q c, ~ path_to h a (q ++ [l]) c).

  Lemma path_fun p : forall x b c, path_to h x p b -> path_to h x p c -> b = c.
  Proof.
    induction p as [|k p IH]; intros x b c H H'; inversion H; inversion H'; subst; [reflexivity|].
    match goal with A : dget k _ = Some ?y, B : dget k _ = Some ?z |- _ => assert (y = z) by congruence; subst end.
    eapply IH; eassumption.
  Qed.
  Lemma find_loop_ok fuel : forall n d fr nx, inv d fr nx ->
    find_loop shuffle fuel n h l fr nx = Raise OutOfFuel \/ answer (find_loop shuffle fuel n h l fr nx).
  Proof.
    induction fuel as [|f IH]; intros n d fr nx I; [left; reflexivity|]; cbn [find_loop].
    assert (SW : find_loop shuffle f (S n) h l (shuffle n nx) [] = Raise OutOfFuel \/ answer (find_loop shuffle f (S n) h l (shuffle n nx) []) \/ fr <> []).
    { destruct fr as [|x fr]; [|right; right; discriminate].
      destruct (IH (S n) (S d) (shuffle n nx) []) as [X|X]; [|left; exact X|right; left; exact X].
      pose proof (shuffles n nx) as P; split.
      - intros p b J; apply (i_nx _ _ _ I); apply (Permutation_in _ (Permutation_sym P) J).
      - intros p b [].
      - intros p b Hp L; destruct (Nat.eq_dec (length p) (S d)) as [E|NE].
        + destruct p as [|k p _] using rev_ind; [discriminate E|].
          rewrite app_length in E; cbn in E; destruct (i_all _ _ _ I p k b Hp ltac:(lia)) as [J|[c []]].
          right; apply (Permutation_in _ P J).
        + left; destruct (i_done _ _ _ I p b Hp ltac:(lia)) as [J|[]]; exact J.
      - intros p k b Hp L; apply path_snoc_inv in Hp; destruct Hp as [c [Hp D]].
        destruct p as [|k' p _] using rev_ind; [discriminate L|].
        rewrite app_length in L; cbn in L; destruct (i_all _ _ _ I p k' c Hp ltac:(lia)) as [J|[c' []]].
        right; exists c; apply (Permutation_in _ P J). }
    destruct (pop_last fr) as [[[p b] fr']|] eqn:PL.
    - assert (GO : forall X, match fr, nx with [], [] => X | _, _ =>
          match dget l (kids (at_ h b)) with
          | Some target_node => Ok (Found target_node (p ++ [l]))
          | None => find_loop shuffle f n h l fr' (nx ++ map (fun ln => (p ++ [fst ln], snd ln)) (kids (at_ h b)))
          end end = match dget l (kids (at_ h b)) with
          | Some target_node => Ok (Found target_node (p ++ [l]))
          | None => find_loop shuffle f n h l fr' (nx ++ map (fun ln => (p ++ [fst ln], snd ln)) (kids (at_ h b)))
          end).
      { intros X; destruct fr; [discriminate PL|destruct nx; reflexivity]. }
      rewrite GO; clear GO SW; apply pop_last_inv in PL; subst fr.
      destruct (i_fr _ _ _ I p b ltac:(apply in_or_app; right; left; reflexivity)) as [Hp Lp].
      destruct (dget l (kids (at_ h b))) as [c|] eqn:D.
      + right; left; exists c, p; split; [reflexivity|split; [apply (path_snoc h a p b Hp l c D)|]].
        intros q x Hq; apply path_snoc_inv in Hq; destruct Hq as [y [Hq Dy]].
        destruct (le_lt_dec (length p) (length q)) as [L|L]; [exact L|].
        destruct (i_done _ _ _ I q y Hq ltac:(lia)) as [N|J]; [congruence|].
        destruct (i_fr _ _ _ I q y J); lia.
      + apply (IH n d); split.
        * intros q y J; apply (i_fr _ _ _ I), in_or_app; left; exact J.
        * intros q y J; apply in_app_or in J; destruct J as [J|J]; [apply (i_nx _ _ _ I), J|].
          apply in_map_iff in J; destruct J as [[k c] [E J]]; injection E as <- <-; cbn [fst snd].
          split; [|rewrite app_length; cbn; lia].
          apply (path_snoc h a p b Hp), In_dget; [apply (dicts p b Hp)|exact J].
        * intros q y Hq L; destruct (i_done _ _ _ I q y Hq L) as [N|J]; [left; exact N|].
          apply in_app_or in J; destruct J as [J|[J|[]]]; [right; exact J|injection J as <- <-; left; exact D].
        * intros q k y Hq L; destruct (i_all _ _ _ I q k y Hq L) as [J|[c J]]; [left; apply in_or_app; left; exact J|].
          apply in_app_or in J; destruct J as [J|[J|[]]]; [right; exists c; exact J|].
          injection J as <- <-; left; apply in_or_app; right; apply in_map_iff.
          apply path_snoc_inv in Hq; destruct Hq as [b' [Hb Dk]]; rewrite (path_fun p a b' b Hb Hp) in Dk.
          exists (k, y); split; [reflexivity|apply dget_In, Dk].
    - apply pop_last_None in PL; subst fr; destruct nx as [|x nx]; [|destruct SW as [X|[X|X]]; [left; exact X|right; exact X|elim X; reflexivity]].
      right; right; split; [reflexivity|]; intros q c Hq.
      assert (A : forall q c, path_to h a q c -> (length q <= d)%nat).
      { intros q' c' H'; destruct (le_lt_dec (length q') d) as [L|L]; [exact L|exfalso].
        rewrite <- (firstn_skipn (S d) q') in H'; apply path_app in H'; destruct H' as [z [H' _]].
        assert (LE : length (firstn (S d) q') = S d) by (rewrite firstn_length; lia).
        destruct (firstn (S d) q') as [|k r _] using rev_ind; [discriminate LE|].
        rewrite app_length in LE; cbn in LE; destruct (i_all _ _ _ I r k z H' ltac:(lia)) as [[]|[y []]]. }
      pose proof (A _ _ Hq) as L; rewrite app_length in L; cbn in L; apply path_snoc_inv in Hq; destruct Hq as [b [Hb Dl]].
      destruct (i_done _ _ _ I q b Hb ltac:(lia)) as [N|[]]; congruence.
  Qed.
  (** enough fuel *)
  Lemma find_loop_fuel fuel : forall n fr nx ts us,
    Forall (tree_at h) ts -> Forall (tree_at h) us -> map root ts = map snd fr -> map root us = map snd nx ->
    (2 * (fsize ts + fsize us) + (if fr then 1 else 0) < fuel)%nat -> find_loop shuffle fuel n h l fr nx <> Raise OutOfFuel.
  Proof.
    induction fuel as [|f IH]; intros n fr nx ts us Ft Fu Et Eu B; [lia|]; cbn [find_loop].
    destruct fr as [|x fr].
    - destruct nx as [|y nx]; [discriminate|]; cbn [pop_last rev].
      destruct (Permutation_map_inv' h (y :: nx) (shuffle n (y :: nx)) us (shuffles n _) Eu) as [us' [P E']].
      apply (IH _ _ _ us' []); [apply (Permutation_Forall P Fu)|constructor|symmetry; exact E'|reflexivity|].
      rewrite <- (fsize_perm _ _ P); destruct ts; [|discriminate Et].
      destruct (shuffle n (y :: nx)) eqn:S; [pose proof (Permutation_length (shuffles n (y :: nx))) as X; rewrite S in X; discriminate X|].
      cbn [fsize flat_map length] in *; lia.
    - destruct (pop_last (x :: fr)) as [[[p b] fr']|] eqn:PL; [|apply pop_last_None in PL; discriminate PL].
      apply pop_last_inv in PL.
      assert (GO : forall (X Y : res found), match nx with [] => X | _ => X end = X) by (intros; destruct nx; reflexivity).
      destruct nx as [|y nx].
      all: destruct (dget l (kids (at_ h b))); [discriminate|].
      all: rewrite PL, map_app in Et; destruct ts as [|t ts _] using rev_ind; [cbn in Et; destruct (map snd fr'); discriminate Et|].
      all: rewrite map_app in Et; apply app_inj_tail in Et; destruct Et as [Et Eb]; apply Forall_app in Ft; destruct Ft as [Ft Fb]; inversion Fb as [|? ? T _]; subst.
      all: destruct t as [b' ks]; cbn [root] in Eb; subst b'; inversion T as [? ? Ek Fk]; subst.
      all: apply (IH _ _ _ ts (us ++ ks)); [exact Ft|apply Forall_app; split; assumption|exact Et| |].
      all: try (rewrite !map_app, Eu, Ek; f_equal; unfold dvals; rewrite map_map; reflexivity).
      all: rewrite !fsize_app, fsize_cons, rsize_eq in *; unfold fsize in *; cbn [flat_map length app] in *; destruct fr'; lia.
  Qed.
End Find.
(* ---------------- load and dump ---------------- *)
Lemma space_32 : is_space 32 = true. Proof. reflexivity. Qed.
Lemma blank_nil : blank []. Proof. reflexivity. Qed.
Lemma blank_32 : blank [32]. Proof. reflexivity. Qed.
Lemma words_one g w : blank g -> word w -> words (g ++ w) [w].
Proof.
  intros B [N S]; pose proof (W_cons g w [] [] B N S I (W_nil [] blank_nil)) as X; rewrite app_nil_r in X; exact X.
Qed.
Lemma words_cons g w s ws : blank g -> word w -> words (32 :: s) ws -> words (g ++ w ++ 32 :: s) (w :: ws).
Proof. intros B [N S] W; apply W_cons; [exact B|exact N|exact S|exact space_32|exact W]. Qed.
Lemma word_end w : word w -> exists t c, w = t ++ [c] /\ is_space c = false.
Proof.
  intros [N S]; destruct w as [|c t _] using rev_ind; [contradiction|]; exists t, c; split; [reflexivity|].
  unfold solid in S; rewrite forallb_app in S; apply andb_prop in S; destruct S as [_ S]; cbn in S; rewrite andb_true_r in S; apply negb_true_iff, S.
Qed.
Lemma rstrip_line s w g : blank g -> word w -> rstrip ((s ++ w) ++ g) = s ++ w.
Proof.
  intros B W; rewrite rstrip_app by exact B; destruct (word_end w W) as [t [c [-> E]]].
  rewrite app_assoc; apply rstrip_id, E.
Qed.
Lemma mem_solid s : solid s -> mem 32 s = false.
Proof.
  intros S; apply mem_false; intros I; unfold solid in S; rewrite forallb_forall in S; specialize (S 32 I); discriminate S.
Qed.
Lemma dec_word n : word (dec n).
Proof. split; [apply dec_chars|apply dec_solid]. Qed.
Lemma none_word : word (u "None").
Proof. split; [discriminate|vm_compute; reflexivity]. Qed.
Lemma show_word p : storable p -> word (show_reading (reading p)).
Proof. intros [_ [R _]]; destruct (reading p) as [r|]; [apply R|exact none_word]. Qed.
Lemma place_eq p q : label p = label q -> reading p = reading q -> aliases p = aliases q -> kids p = kids q -> p = q.
Proof. destruct p, q; cbn; intros -> -> -> ->; reflexivity. Qed.

Section Load.
  Variable repr : str -> str.
  Variable dv : Z -> option Z.
  Hypothesis digits : ascii_digits dv.

  Lemma line_ok p d g : blank g -> storable p -> from_line dv (to_line repr p d ++ g) = Ok (d, set_kids p []).
  Proof.
    intros Bg S; pose proof (show_word p S) as Wr; destruct S as [Wl [R A]]; unfold to_line; rewrite A.
    change (u " ") with [32]; cbn [app].
    assert (E : dec d ++ 32 :: label p ++ 32 :: show_reading (reading p) = (dec d ++ 32 :: label p ++ [32]) ++ show_reading (reading p))
      by (rewrite <- !app_assoc; cbn [app]; rewrite <- app_assoc; reflexivity).
    unfold from_line; rewrite E, rstrip_line by (exact Bg || exact Wr); rewrite <- E.
    rewrite (split_ws_words _ [dec d; label p; show_reading (reading p)]).
    - rewrite (py_int_dec dv d digits); cbn [of_option bind].
      assert (X : (if eqb (show_reading (reading p)) (u "None") then None else Some (show_reading (reading p))) = reading p).
      { destruct (reading p) as [r|]; cbn [show_reading]; [|reflexivity]; destruct R as [_ R]; rewrite eqb_neq by exact R; reflexivity. }
      rewrite X; unfold place_new; rewrite (mem_solid _ (proj2 Wl)).
      replace (match reading p with Some r => mem 32 r | None => false end) with false
        by (destruct (reading p) as [r|]; [destruct R as [[_ R] _]; symmetry; apply mem_solid, R|reflexivity]).
      cbn [orb bind]; f_equal; f_equal; apply place_eq; cbn; congruence.
    - apply (words_cons [] (dec d)); [exact blank_nil|apply dec_word|].
      apply (words_cons [32] (label p)); [exact blank_32|exact Wl|].
      apply (words_one [32]); [exact blank_32|exact Wr].
  Qed.
  Lemma line_no_break p d : storable p -> no_break (to_line repr p d).
  Proof.
    intros S; pose proof (show_word p S) as [_ Wr]; destruct S as [[_ Wl] [R A]]; unfold to_line; rewrite A; change (u " ") with [32].
    intros c I; repeat (apply in_app_or in I; destruct I as [I|I]); try (destruct I as [<-|[]]; split; discriminate).
    - apply (solid_no_break _ (dec_solid d) c I).
    - apply (solid_no_break _ Wl c I).
    - apply (solid_no_break _ Wr c I).
  Qed.

  Definition det (p : place) := (label p, reading p, aliases p).
  Definition good (h : list place) (t : rose addr) (T : rose place) : Prop :=
    tree_at h t /\ rosemap (details h) t = rosemap det T /\ keyed h t.
  Definition lines_of (ps : list (Z * place)) : list str := map (fun dp => to_line repr (snd dp) (fst dp) ++ [10]) ps.
  Inductive apart : rose place -> Prop :=
  | Apart p Ts : NoDup (map (fun T => label (root T)) Ts) -> Forall apart Ts -> apart (Rose p Ts).

  Lemma tree_nodes_kid h t : tree_at h t -> forall a, In a (nodes t) -> forall c, In c (dvals (kids (at_ h a))) -> In c (nodes t).
  Proof.
    intros T a I c C; rewrite <- (pre_nodes t 0) in *; apply in_map_iff in I; destruct I as [[d a'] [E I]]; cbn in E; subst a'.
    apply in_map_iff; exists (d + 1, c); split; [reflexivity|apply (sub_kid h t 0 T d a c I C)].
  Qed.
  Lemma tree_frame h h' t : (forall b, In b (nodes t) -> at_ h' b = at_ h b) -> tree_at h t -> tree_at h' t /\ rosemap (details h') t = rosemap (details h) t.
  Proof.
    induction t as [a ks IH] using rose_rec_ind; intros F T; inversion T as [? ? E K]; subst; cbn [nodes rosemap] in *.
    assert (G : Forall (fun k => tree_at h' k /\ rosemap (details h') k = rosemap (details h) k) ks).
    { rewrite Forall_forall in *; intros k Ik; apply (IH k Ik); [|apply K, Ik].
      intros b Ib; apply F; right; apply in_flat_map; exists k; split; assumption. }
    split.
    - constructor; [rewrite F by (left; reflexivity); exact E|eapply Forall_impl; [|exact G]; intros k X; apply X].
    - unfold details at 1 3; rewrite F by (left; reflexivity); f_equal.
      clear -G; induction G as [|k ks [_ X] G IH]; [reflexivity|cbn [map]; rewrite X, IH; reflexivity].
  Qed.
  Lemma good_frame h h' t T : (forall b, In b (nodes t) -> at_ h' b = at_ h b) -> good h t T -> good h' t T.
  Proof.
    intros F [A [B C]]; destruct (tree_frame h h' t F A) as [A' B']; split; [exact A'|split; [congruence|]].
    intros a Ia; rewrite F by exact Ia; destruct (C a Ia) as [C1 C2]; split; [exact C1|].
    intros k c I; rewrite F; [apply C2, I|]; apply (tree_nodes_kid h t A a Ia); apply in_map_iff; exists (k, c); split; [reflexivity|exact I].
  Qed.
  Lemma at_app_new h p : at_ (h ++ [p]) (length h) = p.
  Proof. unfold at_, fetch; rewrite app_nth2, Nat.sub_diag by lia; reflexivity. Qed.
  Lemma at_app_old h q b : (b < length h)%nat -> at_ (h ++ q) b = at_ h b.
  Proof. intros L; unfold at_, fetch; apply app_nth1, L. Qed.
  Lemma at_put_same h a p : (a < length h)%nat -> at_ (put h a p) a = p.
  Proof. apply fetch_put_same. Qed.
  Lemma at_put_other h a p b : a <> b -> at_ (put h a p) b = at_ h b.
  Proof. apply fetch_put_other. Qed.

  Definition within (n m : nat) (t : rose addr) : Prop := NoDup (nodes t) /\ forall b, In b (nodes t) -> (n <= b < m)%nat.
  Definition loads (T : rose place) : Prop :=
    forall H P p d path ld ln, ready P p d path ld (Some ln) -> (p < length H)%nat ->
      ~ In (label (root T)) (dkeys (kids (at_ H p))) ->
    exists H' path' ld' ln' t, ready P p d path' ld' (Some ln') /\ good H' t T /\ root t = length H /\
      within (length H) (length H') t /\ (length H <= length H')%nat /\
      (forall b, (b < length H)%nat -> b <> p -> at_ H' b = at_ H b) /\
      at_ H' p = set_kids (at_ H p) (kids (at_ H p) ++ [(label (root T), length H)]) /\
      forall rest, load_loop dv H path ld ln (lines_of (pre (d + 1) T) ++ rest) = load_loop dv H' path' ld' ln' rest.
  Lemma forest_loads Ts : Forall loads Ts -> forall H P p d path ld ln, ready P p d path ld (Some ln) -> (p < length H)%nat ->
      NoDup (dkeys (kids (at_ H p)) ++ map (fun T => label (root T)) Ts) ->
    exists H' path' ld' ln' ts, ready P p d path' ld' (Some ln') /\ Forall2 (good H') ts Ts /\
      NoDup (flat_map nodes ts) /\ (forall b, In b (flat_map nodes ts) -> (length H <= b < length H')%nat) /\ (length H <= length H')%nat /\
      (forall b, (b < length H)%nat -> b <> p -> at_ H' b = at_ H b) /\
      at_ H' p = set_kids (at_ H p) (kids (at_ H p) ++ combine (map (fun T => label (root T)) Ts) (map root ts)) /\
      forall rest, load_loop dv H path ld ln (lines_of (flat_map (pre (d + 1)) Ts) ++ rest) = load_loop dv H' path' ld' ln' rest.
  Proof.
    induction 1 as [|T Ts L F IH]; intros H P p d path ld ln R Lp N.
    - exists H, path, ld, ln, []; split; [exact R|split; [constructor|split; [constructor|split; [intros b []|split; [lia|split; [reflexivity|]]]]]].
      split; [|reflexivity]; cbn [map combine]; rewrite app_nil_r; destruct (at_ H p); reflexivity.
    - assert (NT : ~ In (label (root T)) (dkeys (kids (at_ H p)))).
      { cbn [map] in N; intros I; apply NoDup_remove_2 in N; apply N, in_or_app; left; exact I. }
      destruct (L H P p d path ld ln R Lp NT) as [H1 [path1 [ld1 [ln1 [t [R1 [G1 [Rt [[W1 W1'] [Le1 [Fr1 [K1 E1]]]]]]]]]]]].
      assert (N1 : NoDup (dkeys (kids (at_ H1 p)) ++ map (fun T => label (root T)) Ts)).
      { rewrite K1; cbn [kids set_kids dkeys]; unfold dkeys in *; rewrite map_app, <- app_assoc; exact N. }
      destruct (IH H1 P p d path1 ld1 ln1 R1 ltac:(lia) N1) as [H2 [path2 [ld2 [ln2 [ts [R2 [G2 [W2 [W2' [Le2 [Fr2 [K2 E2]]]]]]]]]]]].
      assert (Fx : forall b, In b (nodes t) -> at_ H2 b = at_ H1 b).
      { intros b Ib; apply Fr2; [apply W1', Ib|intros ->; specialize (W1' p Ib); lia]. }
      exists H2, path2, ld2, ln2, (t :: ts); split; [exact R2|split; [constructor; [apply (good_frame H1), G1; exact Fx|exact G2]|]].
      split; [|split; [|split; [lia|split; [|split]]]].
      + cbn [flat_map]; apply NoDup_app_intro; [exact W1|exact W2|]; intros b I1 I2; specialize (W1' b I1); specialize (W2' b I2); lia.
      + intros b Ib; cbn [flat_map] in Ib; apply in_app_or in Ib; destruct Ib as [Ib|Ib]; [specialize (W1' b Ib)|specialize (W2' b Ib)]; lia.
      + intros b Lb Nb; rewrite Fr2, Fr1; [reflexivity|exact Lb|exact Nb|lia|exact Nb].
      + rewrite K2, K1; cbn [kids set_kids label reading aliases map combine]; rewrite Rt, <- app_assoc; reflexivity.
      + intros rest; cbn [flat_map]; unfold lines_of in *; rewrite map_app, <- app_assoc, E1, E2; reflexivity.
  Qed.
  Lemma tree_loads T : Forall storable (nodes T) -> apart T -> loads T.
  Proof.
    induction T as [q Ts IH] using rose_rec_ind; intros S A H P p d path ld ln R Lp N; cbn [root] in N.
    inversion A as [? ? Nd Fa]; subst; cbn [nodes] in S; inversion S as [|? ? Sq Ss]; subst.
    assert (IH' : Forall loads Ts).
    { rewrite Forall_forall in *; intros T I; apply (IH T I); [|apply Fa, I].
      apply Forall_forall; intros b Ib; apply Ss, in_flat_map; exists T; split; assumption. }
    set (n := length H); set (H1 := H ++ [set_kids q []]).
    assert (E1 : at_ H1 n = set_kids q []) by apply at_app_new.
    assert (E1p : at_ H1 p = at_ H p) by (apply at_app_old, Lp).
    set (H2 := append H1 p n).
    assert (LH1 : length H1 = Datatypes.S n) by (unfold H1; rewrite app_length; cbn; lia).
    assert (LH2 : length H2 = Datatypes.S n) by (unfold H2, append; rewrite length_put; exact LH1).
    assert (E2p : at_ H2 p = set_kids (at_ H p) (kids (at_ H p) ++ [(label q, n)])).
    { unfold H2, append; rewrite at_put_same by lia; rewrite E1, E1p; cbn [label set_kids]; rewrite dset_absent by exact N; reflexivity. }
    assert (Npn : p <> n) by (unfold n; lia).
    assert (E2n : at_ H2 n = set_kids q []) by (unfold H2, append; rewrite at_put_other by exact Npn; exact E1).
    assert (R1 : ready (P ++ [p]) n (d + 1) (P ++ [p]) (d + 1) (Some n)) by (left; split; [reflexivity|split; reflexivity]).
    destruct (forest_loads Ts IH' H2 _ _ _ _ _ _ R1 ltac:(lia)) as [H3 [path3 [ld3 [ln3 [ts [R3 [G3 [W3 [W3' [Le3 [Fr3 [K3 E3]]]]]]]]]]]].
    { rewrite E2n; exact Nd. }
    rewrite E2n in K3; cbn [kids set_kids app label reading aliases] in K3.
    exists H3, path3, ld3, ln3, (Rose n ts).
    assert (LTs : length ts = length Ts) by (apply (Forall2_len _ _ _ G3)).
    assert (DV : dvals (combine (map (fun T => label (root T)) Ts) (map root ts)) = map root ts).
    { unfold dvals; clear -LTs; revert Ts LTs; induction ts as [|t ts IH]; intros [|T Ts] L; try discriminate L; [reflexivity|].
      cbn [map combine snd]; f_equal; apply IH; injection L as ->; reflexivity. }
    assert (DK : dkeys (combine (map (fun T => label (root T)) Ts) (map root ts)) = map (fun T => label (root T)) Ts).
    { unfold dkeys; clear -LTs; revert Ts LTs; induction ts as [|t ts IH]; intros [|T Ts] L; try discriminate L; [reflexivity|].
      cbn [map combine fst]; f_equal; apply IH; injection L as ->; reflexivity. }
    split; [apply (ready_up _ _ _ _ _ _ _ R3)|].
    split; [|split; [reflexivity|split; [|split; [lia|split; [|split]]]]].
    - split; [|split].
      + constructor; [rewrite K3; cbn [kids set_kids]; rewrite DV; reflexivity|].
        clear -G3; induction G3 as [|t T ts Ts X G IH]; constructor; [apply X|exact IH].
      + cbn [rosemap]; unfold details at 1; rewrite K3; cbn [label reading aliases set_kids]; unfold det at 1; f_equal.
        clear -G3; induction G3 as [|t T ts Ts X G IH]; [reflexivity|]; cbn [map]; destruct X as [_ [-> _]]; rewrite IH; reflexivity.
      + intros a [<-|Ia].
        * rewrite K3; cbn [kids set_kids]; rewrite DK; split; [exact Nd|].
          clear -G3; induction G3 as [|t T ts Ts X G IH]; cbn [map combine]; [intros k c []|].
          intros k c [E|I]; [|apply IH, I]; injection E as <- <-; destruct X as [_ [X _]].
          destruct t as [a ks], T as [q' Ts']; cbn [rosemap root] in *; injection X as X _; unfold details in X; unfold det in X; congruence.
        * apply in_flat_map in Ia; destruct Ia as [t [It Ia]].
          clear -G3 It Ia; induction G3 as [|t' T ts Ts X G IH]; [destruct It|destruct It as [->|It]; [apply X, Ia|apply IH, It]].
    - split; cbn [nodes].
      + constructor; [|exact W3]; intros I; specialize (W3' n I); lia.
      + intros b [<-|Ib]; [fold n; lia|]; specialize (W3' b Ib); lia.
    - intros b Lb Nb; rewrite Fr3; [|fold n in Lb; lia|fold n in Lb; lia].
      unfold H2, append; rewrite at_put_other by congruence; apply at_app_old, Lb.
    - rewrite Fr3; [exact E2p|lia|exact Npn].
    - intros rest; cbn [pre lines_of map app load_loop fst snd]; rewrite (line_ok q (d + 1) [10] eq_refl Sq); cbn [bind].
      pose proof (step_ready P p d path ld (Some ln) R) as X; cbn in X; rewrite X; cbn [bind].
      rewrite pop_last_snoc; apply E3.
  Qed.

  Lemma from_file_ok h T : Forall storable (nodes T) -> apart T ->
    exists h' t, from_file dv h (lines_of (pre 0 T)) = Ok (h', length h) /\ good h' t T /\ root t = length h /\
      within (length h) (length h') t /\ forall b, (b < length h)%nat -> at_ h' b = at_ h b.
  Proof.
    destruct T as [q Ts]; intros S A; cbn [pre lines_of map fst snd from_file].
    inversion A as [? ? Nd Fa]; subst; cbn [nodes] in S; inversion S as [|? ? Sq Ss]; subst.
    rewrite (line_ok q 0 [10] eq_refl Sq); cbn [bind Z.eqb negb].
    assert (IH' : Forall loads Ts).
    { rewrite Forall_forall in *; intros T I; apply tree_loads; [|apply Fa, I].
      apply Forall_forall; intros b Ib; apply Ss, in_flat_map; exists T; split; assumption. }
    set (n := length h); set (H2 := h ++ [set_kids q []]).
    assert (E2n : at_ H2 n = set_kids q []) by apply at_app_new.
    assert (LH2 : length H2 = Datatypes.S n) by (unfold H2; rewrite app_length; cbn; lia).
    assert (R1 : ready [n] n 0 [n] 0 (Some n)) by (left; split; [reflexivity|split; reflexivity]).
    destruct (forest_loads Ts IH' H2 _ _ _ _ _ _ R1 ltac:(lia)) as [H3 [path3 [ld3 [ln3 [ts [R3 [G3 [W3 [W3' [Le3 [Fr3 [K3 E3]]]]]]]]]]]].
    { rewrite E2n; exact Nd. }
    rewrite E2n in K3; cbn [kids set_kids app label reading aliases] in K3.
    exists H3, (Rose n ts).
    assert (LTs : length ts = length Ts) by (apply (Forall2_len _ _ _ G3)).
    assert (DV : dvals (combine (map (fun T => label (root T)) Ts) (map root ts)) = map root ts).
    { unfold dvals; clear -LTs; revert Ts LTs; induction ts as [|t ts IH]; intros [|T Ts] L; try discriminate L; [reflexivity|].
      cbn [map combine snd]; f_equal; apply IH; injection L as ->; reflexivity. }
    assert (DK : dkeys (combine (map (fun T => label (root T)) Ts) (map root ts)) = map (fun T => label (root T)) Ts).
    { unfold dkeys; clear -LTs; revert Ts LTs; induction ts as [|t ts IH]; intros [|T Ts] L; try discriminate L; [reflexivity|].
      cbn [map combine fst]; f_equal; apply IH; injection L as ->; reflexivity. }
    specialize (E3 []); rewrite app_nil_r in E3; unfold lines_of in E3; fold n H2; rewrite E3; cbn [load_loop bind].
    split; [reflexivity|split; [|split; [reflexivity|split]]].
    - split; [|split].
      + constructor; [rewrite K3; cbn [kids set_kids]; rewrite DV; reflexivity|].
        clear -G3; induction G3 as [|t T ts Ts X G IH]; constructor; [apply X|exact IH].
      + cbn [rosemap]; unfold details at 1; rewrite K3; cbn [label reading aliases set_kids]; unfold det at 1; f_equal.
        clear -G3; induction G3 as [|t T ts Ts X G IH]; [reflexivity|]; cbn [map]; destruct X as [_ [-> _]]; rewrite IH; reflexivity.
      + intros a [<-|Ia].
        * rewrite K3; cbn [kids set_kids]; rewrite DK; split; [exact Nd|].
          clear -G3; induction G3 as [|t T ts Ts X G IH]; cbn [map combine]; [intros k c []|].
          intros k c [E|I]; [|apply IH, I]; injection E as <- <-; destruct X as [_ [X _]].
          destruct t as [a ks], T as [q' Ts']; cbn [rosemap root] in *; injection X as X _; unfold details in X; unfold det in X; congruence.
        * apply in_flat_map in Ia; destruct Ia as [t [It Ia]].
          clear -G3 It Ia; induction G3 as [|t' T ts Ts X G IH]; [destruct It|destruct It as [->|It]; [apply X, Ia|apply IH, It]].
    - split; cbn [nodes].
      + constructor; [|exact W3]; intros I; specialize (W3' n I); lia.
      + intros b [<-|Ib]; [fold n; lia|]; specialize (W3' b Ib); lia.
    - intros b Lb; rewrite Fr3; [|fold n in Lb; lia|fold n in Lb; lia]; apply at_app_old, Lb.
  Qed.

  Lemma apart_of h t : tree_at h t -> keyed h t -> apart (rosemap (at_ h) t).
  Proof.
    induction t as [a ks IH] using rose_rec_ind; intros T K; cbn [rosemap]; inversion T as [? ? E F]; subst.
    destruct (K a (or_introl eq_refl)) as [ND KL]; constructor.
    - rewrite map_map.
      assert (X : map (fun x => label (root (rosemap (at_ h) x))) ks = dkeys (kids (at_ h a))).
      { transitivity (map (fun c => label (at_ h c)) (map root ks)).
        - rewrite map_map; apply map_ext; intros [c cs]; reflexivity.
        - rewrite E; unfold dvals, dkeys; rewrite map_map; apply map_ext_in; intros [k c] I; cbn [fst snd]; symmetry; apply KL, I. }
      rewrite X; exact ND.
    - rewrite Forall_forall in *; intros x Ix; apply in_map_iff in Ix; destruct Ix as [k [<- Ik]]; apply (IH k Ik); [apply F, Ik|].
      intros b Ib; apply K; right; apply in_flat_map; exists k; split; assumption.
  Qed.
  Lemma pre_rosemap {X Y} (f : X -> Y) t : forall d, pre d (rosemap f t) = map (fun dx => (fst dx, f (snd dx))) (pre d t).
  Proof.
    induction t as [x ks IH] using rose_rec_ind; intros d; cbn [rosemap pre map fst snd]; f_equal.
    rewrite flat_map_map, map_flat_map; apply flat_map_ext_Forall; eapply Forall_impl; [|exact IH]; intros k H; apply H.
  Qed.
  Lemma rosemap_comp {X Y W} (f : X -> Y) (g : Y -> W) t : rosemap g (rosemap f t) = rosemap (fun x => g (f x)) t.
  Proof.
    induction t as [x ks IH] using rose_rec_ind; cbn [rosemap]; f_equal; rewrite map_map.
    induction IH as [|k ks E F IH']; [reflexivity|cbn [map]; rewrite E, IH'; reflexivity].
  Qed.
  Lemma roundtrip h t fuel h0 : tree_at h t -> keyed h t -> (forall a, In a (nodes t) -> storable (at_ h a)) -> (rsize t < fuel)%nat ->
    exists text h' t', dump repr fuel h (root t) = Ok text /\ from_file dv h0 (file_lines text) = Ok (h', root t') /\
      tree_at h' t' /\ keyed h' t' /\ rosemap (details h') t' = rosemap (details h) t /\
      NoDup (nodes t') /\ (forall b, In b (nodes t') -> (length h0 <= b)%nat) /\ forall b, (b < length h0)%nat -> at_ h' b = at_ h0 b.
  Proof.
    intros T K S B; unfold dump; rewrite (walk_ok h fuel t T B); cbn [rmap].
    assert (S' : Forall storable (nodes (rosemap (at_ h) t))).
    { rewrite rosemap_nodes; apply Forall_forall; intros p I; apply in_map_iff in I; destruct I as [a [<- I]]; apply S, I. }
    destruct (from_file_ok h0 (rosemap (at_ h) t) S' (apart_of h t T K)) as [h' [t' [E [[G1 [G2 G3]] [R [[W1 W2] Fr]]]]]].
    eexists; exists h', t'; split; [reflexivity|].
    assert (X : file_lines (flat_map (fun dp => to_line repr (at_ h (snd dp)) (fst dp) ++ [10]) (pre 0 t)) = lines_of (pre 0 (rosemap (at_ h) t))).
    { rewrite pre_rosemap; unfold lines_of; rewrite map_map; cbn [fst snd].
      rewrite <- (flat_map_map (fun dp => to_line repr (at_ h (snd dp)) (fst dp)) (fun l => l ++ [10])), file_lines_all, map_map; [reflexivity|].
      apply Forall_forall; intros l I; apply in_map_iff in I; destruct I as [[d a] [<- I]]; apply line_no_break, S.
      rewrite <- (pre_nodes t 0); apply in_map_iff; exists (d, a); split; [reflexivity|exact I]. }
    rewrite X, E, R; split; [reflexivity|split; [exact G1|split; [exact G3|split; [|split; [exact W1|split; [|exact Fr]]]]]].
    - rewrite G2, rosemap_comp; reflexivity.
    - intros b Ib; apply W2, Ib.
  Qed.
End Load.

(* ---------------- find_node ---------------- *)
Lemma path_reach h a p b : path_to h a p b -> forall d a0, reach h a0 d a -> reach h a0 (d + Z.of_nat (length p)) b.
Proof.
  induction 1 as [a|a k c p b E P IH]; intros d a0 R.
  - cbn [length]; rewrite Z.add_0_r; exact R.
  - cbn [length]; replace (d + Z.of_nat (S (length p))) with ((d + 1) + Z.of_nat (length p)) by lia.
    apply IH, (Reach_kid h a0 d a); [exact R|]; apply in_map_iff; exists (k, c); split; [reflexivity|apply dget_In, E].
Qed.
Lemma reach_in h t d b : tree_at h t -> reach h (root t) d b -> In b (nodes t).
Proof.
  intros T R; apply (pre_reach h t d b T) in R; rewrite <- (pre_nodes t 0); apply in_map_iff; exists (d, b); split; [reflexivity|exact R].
Qed.
Lemma reach_path h t d b : tree_at h t -> keyed h t -> reach h (root t) d b ->
  exists p, path_to h (root t) p b /\ d = Z.of_nat (length p) /\ (p = [] /\ b = root t \/ exists q, p = q ++ [label (at_ h b)]).
Proof.
  intros T K; induction 1 as [|d b c R IH C].
  - exists []; split; [apply Path_nil|split; [reflexivity|left; split; reflexivity]].
  - destruct IH as [p [P [-> _]]]; destruct (K b (reach_in h t _ b T R)) as [ND KL].
    apply in_map_iff in C; destruct C as [[k c'] [E C]]; cbn in E; subst c'; pose proof (KL k c C) as ->.
    exists (p ++ [label (at_ h c)]); split; [apply (path_snoc h _ p b P), In_dget; assumption|].
    split; [rewrite app_length; cbn; lia|right; exists p; reflexivity].
Qed.
Lemma find_node_ok shuffle h t l fuel : (forall n q, Permutation q (shuffle n q)) -> tree_at h t -> keyed h t ->
  l <> label (at_ h (root t)) -> (2 * rsize t + 1 < fuel)%nat ->
  (exists b p, find_node shuffle fuel h (root t) l = Ok (Found b p) /\ path_to h (root t) p b /\ label (at_ h b) = l /\
     forall d c, reach h (root t) d c -> label (at_ h c) = l -> Z.of_nat (length p) <= d) \/
  (find_node shuffle fuel h (root t) l = Raise KeyError /\ forall d c, reach h (root t) d c -> label (at_ h c) <> l).
Proof.
  intros S T K Nl B; unfold find_node; rewrite eqb_neq by exact Nl.
  assert (D : forall p b, path_to h (root t) p b -> NoDup (dkeys (kids (at_ h b)))).
  { intros p b P; apply K, (reach_in h t (0 + Z.of_nat (length p)) b T), (path_reach h _ p b P), Reach_root. }
  assert (I : inv h (root t) l 0 [([], root t)] []).
  { split.
    - intros p b [E|[]]; injection E as <- <-; split; [apply Path_nil|reflexivity].
    - intros p b [].
    - intros p b P L; destruct p; [inversion P; subst; right; left; reflexivity|cbn in L; lia].
    - intros p k b P L; destruct p; [right; exists (root t); left; reflexivity|discriminate L]. }
  destruct (find_loop_ok shuffle S h (root t) l D fuel 0 0 _ _ I) as [X|[[b [p [E [P M]]]]|[E N]]].
  - exfalso; revert X; apply (find_loop_fuel shuffle S h l fuel 0 _ _ [t] []).
    + constructor; [exact T|constructor].
    + constructor.
    + reflexivity.
    + reflexivity.
    + rewrite fsize_cons; cbn [fsize flat_map length]; unfold fsize; cbn; lia.
  - left; exists b, (p ++ [l]); split; [exact E|split; [exact P|split]].
    + pose proof (path_snoc_inv h _ p l b P) as [c [Pc Dc]]; apply dget_In in Dc.
      pose proof (path_reach h _ p c Pc 0 (root t) (Reach_root h (root t))) as Rc.
      destruct (K c (reach_in h t _ c T Rc)) as [_ KL]; symmetry; apply KL, Dc.
    + intros d c R L; destruct (reach_path h t d c T K R) as [q [Pq [-> [[-> ->]|[q' ->]]]]]; [congruence|].
      rewrite L in Pq; pose proof (M q' c Pq); rewrite !app_length; cbn; lia.
  - right; split; [exact E|]; intros d c R L; destruct (reach_path h t d c T K R) as [q [Pq [-> [[-> ->]|[q' ->]]]]]; [congruence|].
    rewrite L in Pq; exact (N q' c Pq).
Qed.

(* ---------------- which files load ---------------- *)
Lemma load_total dv lines : forall h path ld ln, 0 <= ld -> length path = S (Z.to_nat ld) ->
  ((exists h', load_loop dv h path ld ln lines = Ok h') <->
   exists ds, Forall2 (fun line d => exists p, from_line dv line = Ok (d, p)) lines ds /\ steps ld ds).
Proof.
  induction lines as [|line lines IH]; intros h path ld ln L0 LP; cbn [load_loop].
  - split; [intros _; exists []; split; constructor|intros _; exists h; reflexivity].
  - destruct (from_line dv line) as [[d p]|e] eqn:E; cbn [bind].
    + set (path' := if d =? ld + 1 then Ok (path ++ [ln]) else if d =? ld then Ok path
                    else if d <? ld then Ok (but_last (ld - d) path) else Raise PlainException).
      assert (X : (0 <= d <= ld + 1 /\ exists q, path' = Ok q /\ length q = S (Z.to_nat d)) \/
                  (~ (0 <= d <= ld + 1) /\ (path' = Ok [] \/ path' = Raise PlainException))).
      { unfold path'; destruct (Z.eqb_spec d (ld + 1)); [|destruct (Z.eqb_spec d ld); [|destruct (Z.ltb_spec d ld)]].
        - left; split; [lia|eexists; split; [reflexivity|]]; rewrite app_length; cbn; lia.
        - left; split; [lia|eexists; split; [reflexivity|]]; subst; exact LP.
        - destruct (Z.leb_spec 0 d).
          + left; split; [lia|eexists; split; [reflexivity|]]; unfold but_last; rewrite firstn_length; lia.
          + right; split; [lia|left]; unfold but_last; replace (length path - Z.to_nat (ld - d))%nat with 0%nat by lia; reflexivity.
        - right; split; [lia|right; reflexivity]. }
      fold path'; destruct X as [[B [q [-> Lq]]]|[B [-> | ->]]]; cbn [bind].
      * destruct (pop_last q) as [[parent r]|] eqn:PL; [|apply pop_last_None in PL; subst; discriminate Lq].
        rewrite IH by (lia || exact Lq); split.
        -- intros [ds [F S]]; exists (d :: ds); split; [constructor; [exists p; exact E|exact F]|constructor; [lia|exact S]].
        -- intros [ds [F S]]; inversion F as [|? d' ? ds' [p' E'] F']; subst; inversion S as [|? ? ? B' S']; subst.
           assert (d' = d) by congruence; subst; exists ds'; split; assumption.
      * split; [intros [h' X]; discriminate X|]; intros [ds [F S]].
        inversion F as [|? d' ? ds' [p' E'] F']; subst; inversion S as [|? ? ? B' S']; subst.
        assert (d' = d) by congruence; subst; contradiction.
      * split; [intros [h' X]; discriminate X|]; intros [ds [F S]].
        inversion F as [|? d' ? ds' [p' E'] F']; subst; inversion S as [|? ? ? B' S']; subst.
        assert (d' = d) by congruence; subst; contradiction.
    + split; [intros [h' X]; discriminate X|]; intros [ds [F S]].
      inversion F as [|? d' ? ds' [p' E'] F']; congruence.
Qed.
Lemma from_file_total dv h lines : (exists r, from_file dv h lines = Ok r) <->
  exists ds, Forall2 (fun line d => exists p, from_line dv line = Ok (d, p)) lines (0 :: ds) /\ steps 0 ds.
Proof.
  destruct lines as [|line lines]; cbn [from_file].
  - split; [intros [r X]; discriminate X|intros [ds [F _]]; inversion F].
  - destruct (from_line dv line) as [[d p]|e] eqn:E; cbn [bind].
    + destruct (Z.eqb_spec d 0) as [->|N]; cbn [negb].
      * pose proof (load_total dv lines (h ++ [p]) [length h] 0 (length h) ltac:(lia) eq_refl) as X; split.
        -- intros [r Y]; destruct (load_loop dv (h ++ [p]) [length h] 0 (length h) lines) as [h'|e] eqn:L; [|discriminate Y].
           destruct (proj1 X (ex_intro _ h' eq_refl)) as [ds [F S]]; exists ds; split; [constructor; [exists p; exact E|exact F]|exact S].
        -- intros [ds [F S]]; inversion F as [|? ? ? ? _ F']; subst.
           destruct (proj2 X (ex_intro _ ds (conj F' S))) as [h' ->]; eexists; reflexivity.
      * split; [intros [r Y]; discriminate Y|intros [ds [F _]]; inversion F as [|? ? ? ? [p' E'] _]; congruence].
    + split; [intros [r Y]; discriminate Y|intros [ds [F _]]; inversion F as [|? ? ? ? [p' E'] _]; congruence].
Qed.

(* ---------------- aliases are not kept ---------------- *)
Lemma join_longer repr l : (forall s, (length s + 2 <= length (repr s))%nat) ->
  (length (join (u ":") l) <= length (join (u ", ") (map repr l)))%nat.
Proof.
  intros R; induction l as [|x l IH]; [cbn; lia|]; destruct l as [|y l]; [cbn [join map]; apply (Nat.le_trans _ (length x + 2)); [lia|apply R]|].
  cbn [map] in *; rewrite (join_cons (u ":")), (join_cons (u ", ")) by discriminate; rewrite !app_length; change (length (u ":")) with 1%nat; change (length (u ", ")) with 2%nat.
  pose proof (R x); cbn [map] in IH; lia.
Qed.
Lemma words_fun s ws ws' : words s ws -> words s ws' -> ws = ws'.
Proof. intros H H'; rewrite <- (split_ws_words _ _ H), <- (split_ws_words _ _ H'); reflexivity. Qed.
Lemma split_ws_cons w s : word w -> split_ws (w ++ 32 :: s) = w :: split_ws s.
Proof.
  intros W; rewrite (split_ws_words _ (w :: split_ws (32 :: s))).
  - f_equal; change (32 :: s) with ([32] ++ s); apply split_ws_blank, blank_32.
  - apply (words_cons []); [exact blank_nil|exact W|apply words_split_ws].
Qed.
Lemma aliases_lost repr dv p d g x r e q : blank g ->
  (forall s, (length s + 2 <= length (repr s))%nat) -> word (label p) -> word (show_reading (reading p)) ->
  aliases p = Some (x :: r) -> from_line dv (to_line repr p d ++ g) = Ok (e, q) -> aliases q <> aliases p.
Proof.
  intros Bg R Wl Wr A; rewrite A; unfold to_line; rewrite A; change (u " ") with [32]; cbn [app]; unfold repr_list; intros E.
  set (m := join (u ", ") (map repr (x :: r))) in *.
  unfold from_line in E; change (u "[") with [91] in E; change (u "]") with [93] in E.
  replace (dec d ++ 32 :: label p ++ 32 :: show_reading (reading p) ++ 32 :: [91] ++ m ++ [93]) with
    ((dec d ++ 32 :: label p ++ 32 :: show_reading (reading p) ++ 32 :: [91] ++ m) ++ [93]) in E
    by (rewrite <- app_assoc; cbn [app]; rewrite <- app_assoc; cbn [app]; rewrite <- app_assoc; reflexivity).
  rewrite rstrip_line in E by (exact Bg || (split; [discriminate|reflexivity])).
  rewrite <- app_assoc in E; cbn [app] in E; rewrite <- app_assoc in E; cbn [app] in E; rewrite <- app_assoc in E; cbn [app] in E.
  rewrite (split_ws_cons (dec d) _ (dec_word d)) in E.
  rewrite (split_ws_cons (label p) _ Wl) in E.
  rewrite (split_ws_cons _ _ Wr) in E.
  destruct (split_ws (91 :: m ++ [93])) as [|w [|w' ws]] eqn:SW; [| |discriminate E].
  - destruct (of_option ValueError (py_int dv 10 (dec d))) as [z|]; cbn [bind] in E; [|discriminate E].
    unfold place_new in E; destruct (_ || _); [discriminate E|]; cbn [bind] in E; injection E as _ <-; discriminate.
  - destruct (of_option ValueError (py_int dv 10 (dec d))) as [z|]; cbn [bind] in E; [|discriminate E].
    unfold place_new in E; destruct (_ || _); [discriminate E|]; cbn [bind] in E; injection E as _ <-; cbn [aliases].
    pose proof (words_split_ws (91 :: m ++ [93])) as W; rewrite SW in W.
    assert (Wm : forall t, words t [w] -> t = 91 :: m ++ [93] -> w = t).
    { clear; intros t W; inversion W as [|g w0 s ws0 B N S Hs W' E1 E2]; subst; inversion W' as [g' B'|]; subst; intros E1.
      destruct g as [|c g]; [|injection E1 as E1 _; subst c; discriminate B]; cbn [app] in *.
      destruct s as [|c s _] using rev_ind; [rewrite app_nil_r; reflexivity|exfalso].
      assert (Y : w ++ s ++ [c] = (91 :: m) ++ [93]) by exact E1.
      rewrite app_assoc in Y; apply app_inj_tail in Y; destruct Y as [_ ->].
      unfold blank in B'; rewrite forallb_app in B'; apply andb_prop in B'; destruct B' as [_ B']; discriminate B'. }
    specialize (Wm _ W eq_refl).
    intros Y; injection Y as Y; pose proof (join_split (u1 ":") w) as J; rewrite Y in J.
    pose proof (join_longer repr (x :: r) R) as JL; change (u ":") with [u1 ":"] in JL; rewrite J, Wm in JL.
    fold m in JL; cbn [length] in JL; rewrite app_length in JL; cbn in JL; lia.
Qed.

Lemma walk_once h fuel t ps : tree_at h t -> (rsize t < fuel)%nat -> NoDup (nodes t) -> walk fuel h (root t) = Ok ps ->
  NoDup (map snd ps) /\ forall b, In b (map snd ps) <-> exists d, reach h (root t) d b.
Proof.
  intros T B N E; rewrite (walk_ok h fuel t T B) in E; injection E as <-; split; [rewrite pre_nodes; exact N|].
  intros b; rewrite in_map_iff; split.
  - intros [[d c] [<- I]]; exists d; apply (pre_reach h t d c T), I.
  - intros [d R]; exists (d, b); split; [reflexivity|apply (pre_reach h t d b T), R].
Qed.
Lemma find_all_ok h fuel t l : tree_at h t -> (rsize t < fuel)%nat ->
  exists r, find_all fuel h (root t) l = Ok r /\ r = filter (fun pn => eqb (label (at_ h (snd pn))) l) (labelled h [] t).
Proof. intros T B; unfold find_all; rewrite (walk_with_path_ok h fuel t T B); eexists; split; reflexivity. Qed.
Lemma details_lost repr dv : ascii_digits dv ->
  let mk l r a := {| label := l; reading := r; aliases := a; kids := [] |} in
  from_line dv (to_line repr (mk [] None None) 0) = Raise ValueError /\
  from_line dv (to_line repr (mk (u "a") (Some (u "None")) None) 0) = Ok (0, mk (u "a") None None) /\
  from_line dv (to_line repr (mk (u "a") None (Some [])) 0) = Ok (0, mk (u "a") None None) /\
  from_line dv (to_line repr (mk (u "a") (Some []) None) 0) = Raise ValueError.
Proof.
  intros D mk; split; [vm_compute; reflexivity|].
  assert (E0 : py_int dv 10 (u "0") = Some 0) by (apply (py_int_dec dv 0 D)).
  assert (W : from_line dv (u "0 a None") = Ok (0, mk (u "a") None None)).
  { unfold from_line; replace (split_ws (rstrip (u "0 a None"))) with [u "0"; u "a"; u "None"] by (vm_compute; reflexivity).
    rewrite E0; reflexivity. }
  split; [|split].
  - replace (to_line repr _ 0) with (u "0 a None") by (vm_compute; reflexivity); exact W.
  - replace (to_line repr _ 0) with (u "0 a None") by (vm_compute; reflexivity); exact W.
  - vm_compute; reflexivity.
Qed.
Lemma no_break_app s t : no_break s -> no_break t -> no_break (s ++ t).
Proof. intros S T c I; apply in_app_or in I; destruct I as [I|I]; [apply S, I|apply T, I]. Qed.
Lemma no_break_join sep l : no_break sep -> Forall no_break l -> no_break (join sep l).
Proof.
  intros S; induction 1 as [|x l N F IH]; [intros c []|]; destruct l as [|y l]; [exact N|].
  rewrite join_cons by discriminate; apply no_break_app; [exact N|apply no_break_app; [exact S|exact IH]].
Qed.
Lemma root_aliases_lost repr dv h b fuel h0 text h' a x r :
  (forall s, (length s + 2 <= length (repr s))%nat) -> (forall s, no_break (repr s)) ->
  kids (at_ h b) = [] -> word (label (at_ h b)) -> word (show_reading (reading (at_ h b))) -> aliases (at_ h b) = Some (x :: r) ->
  dump repr (S (S fuel)) h b = Ok text -> from_file dv h0 (file_lines text) = Ok (h', a) -> aliases (at_ h' a) <> aliases (at_ h b).
Proof.
  intros R Rb K Wb Wr A.
  assert (T : tree_at h (Rose b [])) by (constructor; [rewrite K; reflexivity|constructor]).
  pose proof (walk_ok h (S (S fuel)) (Rose b []) T ltac:(cbn; lia)) as W; cbn [root] in W.
  unfold dump; rewrite W; cbn [rmap pre flat_map snd fst app]; intros E; injection E as <-.
  rewrite app_nil_r, file_lines_line.
  - cbn [from_file]; destruct (from_line dv (to_line repr (at_ h b) 0 ++ [10])) as [[d p]|e] eqn:F; cbn [bind]; [|discriminate].
    destruct (Z.eqb_spec d 0); cbn [negb]; [|discriminate].
    cbn [file_lines lines_from load_loop bind]; intros E; injection E as <- <-; rewrite at_app_new.
    apply (aliases_lost repr dv _ 0 [10] x r d p eq_refl R Wb Wr A F).
  - unfold to_line; rewrite A; unfold repr_list; change (u " ") with [32]; change (u "[") with [91]; change (u "]") with [93].
    assert (N1 : forall c, c <> 10 -> c <> 13 -> no_break [c]) by (intros c X Y z [<-|[]]; split; assumption).
    repeat apply no_break_app; try (apply N1; discriminate).
    + apply solid_no_break, Wb.
    + apply solid_no_break, Wr.
    + apply no_break_join; [intros c [<-|[<-|[]]]; split; discriminate|].
      apply Forall_forall; intros y I; apply in_map_iff in I; destruct I as [z [<- I]]; apply Rb.
Qed.

(** any line *)
Lemma words_blank_end s ws g : words s ws -> blank g -> words (s ++ g) ws.
Proof.
  intros W B; induction W as [g' B'|g' w s ws B' N S H W IH].
  - constructor. unfold blank in *; rewrite forallb_app, B', B; reflexivity.
  - rewrite <- !app_assoc. constructor; try assumption. destruct s as [|c s]; [|exact H]. cbn [app].
    destruct g as [|c g]; [exact I|]. cbn in B. apply andb_prop in B. apply B.
Qed.
Lemma words_rstrip line : words line (split_ws (rstrip line)).
Proof. destruct (rstrip_split line) as (g & B & E & _). rewrite E at 1. apply words_blank_end; [apply words_split_ws|exact B]. Qed.
Lemma words_solid s ws : words s ws -> Forall solid ws.
Proof. induction 1; constructor; assumption. Qed.
Lemma solid_place l r al : solid l -> (forall x, r = Some x -> solid x) -> (forall xs x, al = Some xs -> In x xs -> solid x) ->
  place_new l r al = Ok {| label := l; reading := r; aliases := al; kids := [] |}.
Proof.
  intros L R A. unfold place_new. rewrite (mem_solid _ L).
  replace (match r with Some r => mem 32 r | None => false end) with false by (destruct r as [x|]; [symmetry; apply mem_solid, R; reflexivity|reflexivity]).
  replace (match al with Some l => mem 32 (concat l) | None => false end) with false; [reflexivity|].
  destruct al as [xs|]; [|reflexivity]. symmetry. apply mem_false. intros I. apply in_concat in I. destruct I as (x & I & J).
  pose proof (mem_solid _ (A xs x eq_refl I)) as M. apply mem_false in M. contradiction.
Qed.
Lemma solid_pieces c xs : solid (join [c] xs) -> forall x, In x xs -> solid x.
Proof.
  induction xs as [|y xs IH]; intros S x; [intros []|]. destruct xs as [|z xs].
  - intros [<-|[]]. exact S.
  - rewrite join_cons in S by discriminate. unfold solid in S. rewrite !forallb_app in S. apply andb_prop in S. destruct S as [S1 S]. apply andb_prop in S. destruct S as [_ S].
    intros [<-|I]; [exact S1|apply IH; [exact S|exact I]].
Qed.
Lemma reading_word_of r : reading_word r (if eqb r (u "None") then None else Some r).
Proof. destruct (eqb_spec r (u "None")); [left|right]; split; auto. Qed.
Lemma reading_word_fun r o : reading_word r o -> (if eqb r (u "None") then None else Some r) = o.
Proof. intros [[-> ->]|[N ->]]; [reflexivity|rewrite eqb_neq by exact N; reflexivity]. Qed.
Lemma from_line_read dv line d p : from_line dv line = Ok (d, p) <->
  exists dw r rest, words line (dw :: label p :: r :: rest) /\ py_int dv 10 dw = Some d /\ reading_word r (reading p) /\ aliases_word rest (aliases p) /\ kids p = [].
Proof.
  pose proof (words_rstrip line) as W. pose proof (words_solid _ _ W) as S. unfold from_line. split.
  - destruct (split_ws (rstrip line)) as [|dw [|l [|r [|a [|b rest]]]]]; try discriminate; destruct (py_int dv 10 dw) as [z|] eqn:P; cbn [of_option bind]; try discriminate;
      inversion S as [|? ? S1 Sa]; subst; inversion Sa as [|? ? S2 Sb]; subst; inversion Sb as [|? ? S3 Sc]; subst; (rewrite solid_place; [|exact S2|intros x X; destruct (eqb r (u "None")); [discriminate|injection X as <-; exact S3]|]).
    + cbn [bind]. intros [= <- <-]. exists dw, r, []. cbn. repeat split; try assumption; [apply reading_word_of|left; auto].
    + intros xs x X; discriminate.
    + cbn [bind]. intros [= <- <-]. exists dw, r, [a]. cbn [label reading aliases kids]. repeat split; try assumption; [apply reading_word_of|right].
      exists (split_on (u1 ":") a). repeat split; [apply split_on_nonempty|apply split_on_free|]. change (u ":") with [u1 ":"]. rewrite join_split. reflexivity.
    + intros xs x [= <-]. inversion Sc; subst. apply (solid_pieces (u1 ":")). rewrite join_split. assumption.
  - intros (dw & r & rest & W' & P & R & A & K). rewrite (words_fun _ _ _ W W') in *.
    inversion S as [|? ? S1 Sa]; subst; inversion Sa as [|? ? S2 Sb]; subst; inversion Sb as [|? ? S3 Sc]; subst.
    assert (RS : forall x, reading p = Some x -> solid x) by (intros x X; destruct R as [[_ R]|[_ R]]; rewrite X in R; [discriminate|injection R as ->; exact S3]).
    rewrite (reading_word_fun _ _ R). destruct A as [[-> A]|(xs & N & F & -> & A)]; rewrite P; cbn [of_option bind].
    + rewrite solid_place; [|exact S2|exact RS|intros xs x X; discriminate]. cbn [bind]. f_equal; f_equal; apply place_eq; cbn; congruence.
    + inversion Sc; subst. change (u ":") with [u1 ":"] in *. rewrite split_join by assumption.
      rewrite solid_place; [|exact S2|exact RS|intros ys x [= <-]; apply (solid_pieces (u1 ":")); assumption]. cbn [bind]. f_equal; f_equal; apply place_eq; cbn; congruence.
Qed.

(** how reading fails *)
Lemma from_line_fails dv line e : from_line dv line = Raise e -> e = ValueError.
Proof.
  unfold from_line. destruct (split_ws (rstrip line)) as [|dw [|l [|r [|a [|b rest]]]]]; try congruence;
    (destruct (py_int dv 10 dw); cbn [of_option bind]; [|congruence]); unfold place_new; destruct (_ || _); cbn [bind]; congruence.
Qed.
Lemma load_fails dv lines : forall h path ld ln e, load_loop dv h path ld ln lines = Raise e -> e = ValueError \/ e = PlainException \/ e = IndexError.
Proof.
  induction lines as [|l lines IH]; intros h path ld ln e; cbn [load_loop]; [discriminate|].
  destruct (from_line dv l) as [[d p]|x] eqn:F; cbn [bind]; [|intros [= <-]; left; eapply from_line_fails; exact F].
  destruct (if d =? ld + 1 then _ else _) as [q|x] eqn:P; cbn [bind].
  - destruct (pop_last q) as [[a b]|]; [apply IH|intros [= <-]; auto].
  - intros [= <-]. destruct (d =? ld + 1), (d =? ld), (d <? ld); try discriminate; injection P as <-; auto.
Qed.
Lemma from_file_refuses dv h lines e : from_file dv h lines = Raise e ->
  lines = [] /\ e = StopIteration \/ lines <> [] /\ (e = ValueError \/ e = PlainException \/ e = IndexError).
Proof.
  destruct lines as [|l lines]; cbn [from_file]; [intros [= <-]; left; auto|intros H; right; split; [discriminate|]].
  destruct (from_line dv l) as [[d p]|x] eqn:F; cbn [bind] in H; [|injection H as <-; left; eapply from_line_fails; exact F].
  destruct (negb (d =? 0)); [injection H as <-; auto|].
  destruct (load_loop _ _ _ _ _ _) as [h'|x] eqn:L; cbn [bind] in H; [discriminate|injection H as <-]. eapply load_fails, L.
Qed.
