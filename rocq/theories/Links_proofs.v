From Verif Require Import Base Maps_model Tatoeba_model Tatoeba_spec Tatoeba_proofs Links_spec.

Notation link := (Z * Z)%type.
Lemma nth_snoc {A} (l : list A) (x : A) n y : nth_error (l ++ [x]) n = Some y <-> nth_error l n = Some y \/ (n = length l /\ y = x).
Proof.
  destruct (Nat.lt_trichotomy n (length l)) as [L|[->|L]].
  - rewrite nth_error_app1 by exact L; split; [tauto|intros [H|[H _]]; [exact H|lia]].
  - rewrite nth_error_app2, Nat.sub_diag by lia; cbn [nth_error]; split.
    + intros [= <-]; right; split; reflexivity.
    + intros [H|[_ ->]]; [|reflexivity]; assert (X : nth_error l (length l) <> None) by congruence; apply nth_error_Some in X; lia.
  - split.
    + intros H; assert (X : nth_error (l ++ [x]) n <> None) by congruence; apply nth_error_Some in X; rewrite app_length in X; cbn [length] in X; lia.
    + intros [H|[H _]]; [|lia]; assert (X : nth_error l n <> None) by congruence; apply nth_error_Some in X; lia.
Qed.
Lemma nth_bound {A} (l : list A) n y : nth_error l n = Some y -> (n < length l)%nat.
Proof. intros H; apply nth_error_Some; congruence. Qed.
Lemma firstn_snoc {A} (l : list A) x n : (n <= length l)%nat -> firstn n (l ++ [x]) = firstn n l.
Proof. intros H; rewrite firstn_app; replace (n - length l)%nat with 0%nat by lia; apply app_nil_r. Qed.
Lemma endpoint_nth ps x : endpoint ps x <-> exists n p, nth_error ps n = Some p /\ (fst p = x \/ snd p = x).
Proof.
  split.
  - intros [p [I H]]; apply In_nth_error in I; destruct I as [n I]; exists n, p; split; assumption.
  - intros [n [p [I H]]]; exists p; split; [apply (nth_error_In _ _ I)|exact H].
Qed.

(** ** settling *)
Lemma settles_endpoint ps x k : settles ps x k -> endpoint ps x.
Proof.
  intros H; apply endpoint_nth; destruct H as [s E _|t E _ _]; eexists k, _; (split; [exact E|]); [right|left]; reflexivity.
Qed.
Lemma settles_bound ps x k : settles ps x k -> (k < length ps)%nat.
Proof. intros [s E _|t E _ _]; apply (nth_bound _ _ _ E). Qed.
Lemma settles_unique ps x k k' : settles ps x k -> settles ps x k' -> k = k'.
Proof.
  intros [s E L|t E N F] [s' E' L'|t' E' N' F'].
  - destruct (Nat.lt_trichotomy k k') as [H|[H|H]]; [elim (L k' _ H E' eq_refl)|exact H|elim (L' k _ H E eq_refl)].
  - elim (N' k _ E eq_refl).
  - elim (N k' _ E' eq_refl).
  - destruct (Nat.lt_trichotomy k k') as [H|[H|H]]; [elim (F' k _ H E eq_refl)|exact H|elim (F k' _ H E' eq_refl)].
Qed.
Lemma settles_snoc_translation ps s t : settles (ps ++ [(s, t)]) t (length ps).
Proof.
  apply (Settles_last _ _ _ s); [apply nth_snoc; right; split; reflexivity|].
  intros j p L E; apply nth_bound in E; rewrite app_length in E; cbn [length] in E; lia.
Qed.
Lemma settles_snoc_new ps s t : s <> t -> ~ endpoint ps s -> settles (ps ++ [(s, t)]) s (length ps).
Proof.
  intros D N; apply (Settles_first _ _ _ t); [apply nth_snoc; right; split; reflexivity| |].
  - intros j p E; apply nth_snoc in E; destruct E as [E|[_ ->]]; [|cbn [snd]; congruence].
    intros X; apply N, endpoint_nth; exists j, p; split; [exact E|right; exact X].
  - intros j p L E; apply nth_snoc in E; destruct E as [E|[-> _]]; [|lia].
    intros X; apply N, endpoint_nth; exists j, p; split; [exact E|left; exact X].
Qed.
Lemma settles_snoc_old ps s t x k : x <> t -> settles ps x k -> settles (ps ++ [(s, t)]) x k.
Proof.
  intros D H; pose proof (settles_bound _ _ _ H) as B; destruct H as [s' E L|t' E N F].
  - apply (Settles_last _ _ _ s'); [apply nth_snoc; left; exact E|].
    intros j p J Ej; apply nth_snoc in Ej; destruct Ej as [Ej|[_ ->]]; [apply (L j p J Ej)|cbn [snd]; congruence].
  - apply (Settles_first _ _ _ t'); [apply nth_snoc; left; exact E| |].
    + intros j p Ej; apply nth_snoc in Ej; destruct Ej as [Ej|[_ ->]]; [apply (N j p Ej)|cbn [snd]; congruence].
    + intros j p J Ej; apply nth_snoc in Ej; destruct Ej as [Ej|[-> _]]; [apply (F j p J Ej)|lia].
Qed.
Lemma settles_exists ps x : endpoint ps x -> exists k, settles ps x k.
Proof.
  induction ps as [|[s t] ps IH] using rev_ind; intros E; [destruct E as [p [[] _]]|].
  destruct (Z.eq_dec x t) as [->|D]; [exists (length ps); apply settles_snoc_translation|].
  assert (X : endpoint ps x \/ ~ endpoint ps x).
  { destruct (links_inv ps) as [IK _ _ _ _]; destruct (dget x (link_dict (links_state ps))) as [n|] eqn:G; [left; apply IK; eauto|right].
    intros H; apply IK in H; destruct H; congruence. }
  destruct X as [X|X].
  - destruct (IH X) as [k K]; exists k; apply settles_snoc_old; assumption.
  - exists (length ps); apply endpoint_app in E; destruct E as [E|E]; [contradiction|]; apply endpoint_one in E; cbn [fst snd] in E.
    destruct E as [<-|<-]; [apply settles_snoc_new; assumption|congruence].
Qed.

(** ** rows below do not matter *)
Lemma founds_snoc ps p n : (n < length ps)%nat -> founds (ps ++ [p]) n <-> founds ps n.
Proof.
  intros L; unfold founds; rewrite firstn_snoc by lia; rewrite nth_error_app1 by exact L; reflexivity.
Qed.
Lemma row_group_bound ps n m : row_group ps n m -> (n < length ps)%nat.
Proof. intros [k [s [t [E _]]]|k s t j q E _ _|k s t j q E _ _ _]; apply (nth_bound _ _ _ E). Qed.
Lemma firstn_bound (ps : list link) n x k : settles (firstn n ps) x k -> (k < n /\ k < length ps)%nat.
Proof. intros H; apply settles_bound in H; rewrite firstn_length in H; lia. Qed.
Lemma row_group_le ps n m : row_group ps n m -> (m <= n)%nat /\ founds ps m.
Proof.
  induction 1 as [n F|n s t k m E S R IH|n s t k m E N S R IH]; [split; [lia|exact F]| |]; apply firstn_bound in S; split; [lia|apply IH|lia|apply IH].
Qed.
Lemma row_group_snoc ps p n m : (n < length ps)%nat -> row_group (ps ++ [p]) n m <-> row_group ps n m.
Proof.
  intros L; split; intros H.
  - induction H as [n F|n s t k m E S R IH|n s t k m E N S R IH].
    + apply Row_founds, (founds_snoc ps p n L), F.
    + rewrite nth_error_app1 in E by exact L; rewrite firstn_snoc in S by lia; pose proof (firstn_bound _ _ _ _ S) as B.
      apply (Row_source ps n s t k m E S), IH; lia.
    + rewrite nth_error_app1 in E by exact L; rewrite firstn_snoc in S, N by lia; pose proof (firstn_bound _ _ _ _ S) as B.
      apply (Row_translation ps n s t k m E N S), IH; lia.
  - induction H as [n F|n s t k m E S R IH|n s t k m E N S R IH].
    + apply Row_founds, (founds_snoc ps p n L), F.
    + pose proof (firstn_bound _ _ _ _ S) as B; apply (Row_source _ n s t k m).
      * rewrite nth_error_app1 by exact L; exact E.
      * rewrite firstn_snoc by lia; exact S.
      * apply IH; lia.
    + pose proof (firstn_bound _ _ _ _ S) as B; apply (Row_translation _ n s t k m).
      * rewrite nth_error_app1 by exact L; exact E.
      * rewrite firstn_snoc by lia; exact N.
      * rewrite firstn_snoc by lia; exact S.
      * apply IH; lia.
Qed.
Lemma row_group_unique ps n m : row_group ps n m -> forall m', row_group ps n m' -> m = m'.
Proof.
  induction 1 as [n F|n s t k m E S R IH|n s t k m E N S R IH]; intros m' H.
  - destruct H as [n F'|n s t k m' E S R|n s t k m' E N S R]; [reflexivity| |]; destruct F as [a [b [E' [Na Nb]]]]; rewrite E in E'; injection E' as <- <-;
      apply settles_endpoint in S; contradiction.
  - destruct H as [n F|n s' t' k' m' E' S' R'|n s' t' k' m' E' N' S' R'].
    + destruct F as [a [b [E' [Na Nb]]]]; rewrite E in E'; injection E' as <- <-; apply settles_endpoint in S; contradiction.
    + rewrite E in E'; injection E' as <- <-; rewrite (settles_unique _ _ _ _ S S') in *; apply IH, R'.
    + rewrite E in E'; injection E' as <- <-; apply settles_endpoint in S; contradiction.
  - destruct H as [n F|n s' t' k' m' E' S' R'|n s' t' k' m' E' N' S' R'].
    + destruct F as [a [b [E' [Na Nb]]]]; rewrite E in E'; injection E' as <- <-; apply settles_endpoint in S; contradiction.
    + rewrite E in E'; injection E' as <- <-; apply settles_endpoint in S'; contradiction.
    + rewrite E in E'; injection E' as <- <-; rewrite (settles_unique _ _ _ _ S S') in *; apply IH, R'.
Qed.

(** ** the invariant *)
Record linv (ps : list link) (st : lstate) (fs : list nat) : Prop := {
  li_founders : founders ps fs;
  li_nodes : nodes st = length fs;
  li_keys : dkeys (group_dict st) = seq 0 (length fs);
  li_group : forall j g m, dget j (group_dict st) = Some g -> nth_error fs j = Some m -> forall x, In x g <-> in_group ps m x;
  li_link : forall x j, dget x (link_dict st) = Some j -> exists k m, settles ps x k /\ row_group ps k m /\ nth_error fs j = Some m }.
Lemma in_group_snoc ps p m x m0 : row_group (ps ++ [p]) (length ps) m0 ->
  in_group (ps ++ [p]) m x <-> in_group ps m x \/ (m = m0 /\ (fst p = x \/ snd p = x)).
Proof.
  intros R0; split.
  - intros [n [q [E [R H]]]]; apply nth_snoc in E; destruct E as [E|[-> ->]].
    + left; exists n, q; split; [exact E|split; [apply (row_group_snoc ps p n m (nth_bound _ _ _ E)), R|exact H]].
    + right; split; [apply (row_group_unique _ _ _ R _ R0)|exact H].
  - intros [[n [q [E [R H]]]]|[-> H]].
    + exists n, q; split; [apply nth_snoc; left; exact E|split; [apply row_group_snoc; [apply (nth_bound _ _ _ E)|exact R]|exact H]].
    + exists (length ps), p; split; [apply nth_snoc; right; split; reflexivity|split; [exact R0|exact H]].
Qed.
Lemma not_founds_snoc ps p m0 fs : founders ps fs -> row_group (ps ++ [p]) (length ps) m0 -> m0 <> length ps -> founders (ps ++ [p]) fs.
Proof.
  intros [F O] R D; split; [|exact O]; intros m; rewrite F; split; intros H.
  - apply founds_snoc; [destruct H as [s [t [E _]]]; apply (nth_bound _ _ _ E)|exact H].
  - assert (L : (m < length (ps ++ [p]))%nat) by (destruct H as [s [t [E _]]]; apply (nth_bound _ _ _ E)); rewrite app_length in L; cbn [length] in L.
    destruct (Nat.eq_dec m (length ps)) as [->|N]; [|apply (founds_snoc ps p m); [lia|exact H]].
    elim D; apply (row_group_unique _ _ _ R), Row_founds, H.
Qed.
Lemma founds_snoc_new ps p fs : founders ps fs -> founds (ps ++ [p]) (length ps) -> founders (ps ++ [p]) (fs ++ [length ps]).
Proof.
  intros [F O] N; split.
  - intros m; rewrite in_app_iff, F; cbn [In]; split.
    + intros [H|[<-|[]]]; [|exact N]; apply founds_snoc; [destruct H as [s [t [E _]]]; apply (nth_bound _ _ _ E)|exact H].
    + intros H; assert (L : (m < length (ps ++ [p]))%nat) by (destruct H as [s [t [E _]]]; apply (nth_bound _ _ _ E)); rewrite app_length in L; cbn [length] in L.
      destruct (Nat.eq_dec m (length ps)) as [->|D]; [right; left; reflexivity|left; apply (founds_snoc ps p m); [lia|exact H]].
  - assert (B : forall i a, nth_error fs i = Some a -> (a < length ps)%nat).
    { intros i a E; apply nth_error_In, F in E; destruct E as [s [t [E _]]]; apply (nth_bound _ _ _ E). }
    intros i j a b Ei Ej L; apply nth_snoc in Ei, Ej; destruct Ei as [Ei|[-> ->]], Ej as [Ej|[-> ->]].
    + apply (O i j a b Ei Ej L).
    + apply (B i a Ei).
    + apply nth_bound in Ej; lia.
    + lia.
Qed.
Lemma in_nodes ps st fs j m : linv ps st fs -> nth_error fs j = Some m -> exists g, dget j (group_dict st) = Some g.
Proof.
  intros I E; apply In_key_dget; rewrite (li_keys _ _ _ I); apply in_seq; apply nth_bound in E; lia.
Qed.
Lemma linv_init : linv [] init [].
Proof.
  split; cbn; try reflexivity; try discriminate.
  split; [|intros [|i] j a b E; discriminate E]; intros m; split; [intros []|intros [s [t [E _]]]; destruct m; discriminate E].
Qed.
(** one row in the group of number [j], which takes the sentence [y] in *)
Lemma linv_join ps st fs s t y j k m :
  linv ps st fs -> row_group (ps ++ [(s, t)]) (length ps) m -> settles ps (if Z.eq_dec y t then s else t) k ->
  (y = s \/ y = t) -> (y = t \/ ~ endpoint ps s) ->
  row_group ps k m -> nth_error fs j = Some m ->
  (forall x, (s = x \/ t = x) -> x = y \/ in_group ps m x) ->
  linv (ps ++ [(s, t)]) (mklstate (dset y j (link_dict st)) (dset j (sadd y (match dget j (group_dict st) with Some g => g | None => [] end)) (group_dict st)) (nodes st)) fs.
Proof.
  intros I R S Y Y' Rk Ej C; pose proof I as [[F O] IN IK IG IL].
  assert (Dm : m <> length ps) by (apply row_group_le in Rk; destruct Rk as [_ [a [b [E _]]]]; apply nth_bound in E; lia).
  destruct (in_nodes _ _ _ _ _ I Ej) as [g G]; rewrite G.
  split; cbn [link_dict group_dict nodes].
  - apply (not_founds_snoc ps (s, t) m fs); [split; assumption|exact R|exact Dm].
  - exact IN.
  - rewrite dkeys_dset; unfold dmem; rewrite G; exact IK.
  - intros i h a; rewrite dget_dset; destruct (eqb_spec i j) as [->|N]; intros E1 E2 x.
    + injection E1 as <-; assert (a = m) by congruence; subst a; rewrite (in_group_snoc ps (s, t) m x m R), In_sadd, (IG j g m G Ej); cbn [fst snd].
      split; [intros [->|H]; [right; split; [reflexivity|destruct Y; [left|right]; congruence]|left; exact H]|].
      intros [H|[_ H]]; [right; exact H|]; apply C in H; destruct H as [->|H]; [left; reflexivity|right; exact H].
    + rewrite (in_group_snoc ps (s, t) a x m R), (IG i h a E1 E2); split; [left; assumption|intros [H|[-> _]]; [exact H|]].
      exfalso; assert (X : NoDup fs).
      { apply NoDup_nth_error; intros p q Lp Epq; destruct (nth_error fs p) as [v|] eqn:Ep; [|apply nth_error_None in Ep; lia]; symmetry in Epq.
        destruct (Nat.lt_trichotomy p q) as [H|[H|H]]; [pose proof (O p q v v Ep Epq H); lia|exact H|pose proof (O q p v v Epq Ep H); lia]. }
      apply N; apply (proj1 (NoDup_nth_error fs) X i j); [apply (nth_bound _ _ _ E2)|congruence].
  - intros x i; rewrite dget_dset; destruct (eqb_spec x y) as [->|N]; intros E.
    + injection E as <-; exists (length ps), m; split; [|split; [exact R|exact Ej]].
      destruct (Z.eq_dec y t) as [->|D]; [apply settles_snoc_translation|].
      destruct Y as [->|Y]; [|contradiction]; apply settles_snoc_new; [exact D|]; destruct Y' as [Y'|Y']; [contradiction|exact Y'].
    + destruct (IL x i E) as [k' [m' [S' [R' E']]]].
      destruct (Z.eq_dec x t) as [->|D].
      * exists (length ps), m; split; [apply settles_snoc_translation|split; [exact R|]].
        destruct (Z.eq_dec y t) as [->|Dy]; [congruence|].
        rewrite (settles_unique _ _ _ _ S' S) in R'; rewrite (row_group_unique _ _ _ R' _ Rk) in E'; exact E'.
      * exists k', m'; split; [apply settles_snoc_old; assumption|split; [|exact E']].
        apply row_group_snoc; [apply (settles_bound _ _ _ S')|exact R'].
Qed.
Lemma linv_step ps st fs s t : linv ps st fs -> (forall x, endpoint ps x <-> exists j, dget x (link_dict st) = Some j) ->
  exists fs', linv (ps ++ [(s, t)]) (add_link (s, t) st) fs'.
Proof.
  intros I K; pose proof I as [[F O] IN IK IG IL].
  assert (FN : firstn (length ps) (ps ++ [(s, t)]) = ps) by (rewrite firstn_app, Nat.sub_diag, firstn_all; apply app_nil_r).
  assert (NL : nth_error (ps ++ [(s, t)]) (length ps) = Some (s, t)) by (apply nth_snoc; right; split; reflexivity).
  assert (IGR : forall x k m, settles ps x k -> row_group ps k m -> in_group ps m x).
  { intros x k m S R; destruct S as [a E _|b E _ _]; exists k; eexists; (split; [exact E|split; [exact R|]]); [right|left]; reflexivity. }
  destruct (add_link_cases s t st) as [[j [Es ->]]|[[Es [j [Et ->]]]|[Es [Et [d [g [-> [D G]]]]]]]].
  - destruct (IL s j Es) as [k [m [S [R E]]]]; exists fs.
    assert (RN : row_group (ps ++ [(s, t)]) (length ps) m).
    { apply (Row_source _ _ s t k m NL); [rewrite FN; exact S|]; apply row_group_snoc; [apply (settles_bound _ _ _ S)|exact R]. }
    apply (linv_join ps st fs s t t j k m); try assumption; [destruct (Z.eq_dec t t); [exact S|contradiction]|right; reflexivity|left; reflexivity|].
    intros x [<-|<-]; [right; apply (IGR s k); assumption|left; reflexivity].
  - assert (Ns : ~ endpoint ps s) by (rewrite K; intros [i H]; congruence).
    destruct (IL t j Et) as [k [m [S [R E]]]]; exists fs.
    assert (RN : row_group (ps ++ [(s, t)]) (length ps) m).
    { apply (Row_translation _ _ s t k m NL); [rewrite FN; exact Ns|rewrite FN; exact S|]; apply row_group_snoc; [apply (settles_bound _ _ _ S)|exact R]. }
    apply (linv_join ps st fs s t s j k m); try assumption; [|left; reflexivity|right; exact Ns|].
    + destruct (Z.eq_dec s t) as [X|_]; [congruence|exact S].
    + intros x [<-|<-]; [left; reflexivity|right; apply (IGR t k); assumption].
  - assert (Ns : ~ endpoint ps s) by (rewrite K; intros [i H]; congruence).
    assert (Nt : ~ endpoint ps t) by (rewrite K; intros [i H]; congruence).
    assert (FD : founds (ps ++ [(s, t)]) (length ps)) by (exists s, t; rewrite FN; repeat split; assumption).
    pose proof (Row_founds _ _ FD) as RN; exists (fs ++ [length ps]).
    assert (B : forall i a, nth_error fs i = Some a -> (a < length ps)%nat).
    { intros i a E; apply nth_error_In, F in E; destruct E as [x [y [E _]]]; apply (nth_bound _ _ _ E). }
    assert (NG : dget (nodes st) (group_dict st) = None).
    { apply dget_None; rewrite IK, IN, in_seq; lia. }
    rewrite NG in G; cbn [In] in G.
    split; cbn [link_dict group_dict nodes].
    + apply founds_snoc_new; [split; assumption|exact FD].
    + rewrite app_length; cbn [length]; lia.
    + rewrite dkeys_dset; unfold dmem; rewrite NG, IK, app_length, IN; cbn [length]; rewrite seq_app; reflexivity.
    + intros i h a; rewrite dget_dset; destruct (eqb_spec i (nodes st)) as [->|N]; intros E1 E2 x.
      * injection E1 as <-; apply nth_snoc in E2; destruct E2 as [E2|[_ ->]]; [apply nth_bound in E2; lia|].
        rewrite (in_group_snoc ps (s, t) (length ps) x (length ps) RN), G; cbn [fst snd]; split.
        -- intros [[]|[->| ->]]; right; (split; [reflexivity|]); [left|right]; reflexivity.
        -- intros [[n [q [En [Rn _]]]]|[_ [<-|<-]]]; [|right; left; reflexivity|right; right; reflexivity].
           apply row_group_le in Rn; apply nth_bound in En; lia.
      * assert (E2' : nth_error fs i = Some a).
        { apply nth_snoc in E2; destruct E2 as [E2|[-> _]]; [exact E2|lia]. }
        rewrite (in_group_snoc ps (s, t) a x (length ps) RN), (IG i h a E1 E2'); split; [left; assumption|].
        intros [H|[-> _]]; [exact H|apply B in E2'; lia].
    + intros x i; rewrite D.
      assert (NN : nth_error (fs ++ [length ps]) (nodes st) = Some (length ps)) by (apply nth_snoc; right; split; [exact IN|reflexivity]).
      destruct (eqb_spec x t) as [->|N]; [rewrite orb_true_r; intros [= <-]; exists (length ps), (length ps); split; [apply settles_snoc_translation|split; [exact RN|exact NN]]|].
      destruct (eqb_spec x s) as [->|N']; cbn [orb].
      * intros [= <-]; exists (length ps), (length ps); split; [apply settles_snoc_new; assumption|split; [exact RN|exact NN]].
      * intros E; destruct (IL x i E) as [k [m [S [R X]]]]; exists k, m; split; [apply settles_snoc_old; assumption|split; [apply row_group_snoc; [apply (settles_bound _ _ _ S)|exact R]|]].
        apply nth_snoc; left; exact X.
Qed.
Lemma links_linv ps : exists fs, linv ps (links_state ps) fs.
Proof.
  induction ps as [|[s t] ps [fs IH]] using rev_ind; [exists []; exact linv_init|]; rewrite links_snoc; apply (linv_step ps _ fs); [exact IH|].
  intros x; destruct (links_inv ps) as [IK _ _ _ _]; symmetry; apply IK.
Qed.

(** ** the statements *)
Lemma row_group_total ps n : (n < length ps)%nat -> exists m, row_group ps n m /\ founds ps m /\ forall m', row_group ps n m' -> m' = m.
Proof.
  intros L.
  assert (X : forall n, (n < length ps)%nat -> exists m, row_group ps n m).
  { clear n L; intros n; induction n as [n IH] using lt_wf_ind; intros L.
    destruct (nth_error ps n) as [[s t]|] eqn:E; [|apply nth_error_None in E; lia].
    assert (DE : forall x, endpoint (firstn n ps) x \/ ~ endpoint (firstn n ps) x).
    { intros x; destruct (links_inv (firstn n ps)) as [IK _ _ _ _]; destruct (dget x (link_dict (links_state (firstn n ps)))) as [j|] eqn:G.
      - left; apply IK; eauto.
      - right; intros H; apply IK in H; destruct H; congruence. }
    destruct (DE s) as [S|S].
    - destruct (settles_exists _ _ S) as [k K]; pose proof (firstn_bound _ _ _ _ K) as [B1 B2]; destruct (IH k B1 B2) as [m R]; exists m; apply (Row_source ps n s t k m); assumption.
    - destruct (DE t) as [T|T].
      + destruct (settles_exists _ _ T) as [k K]; pose proof (firstn_bound _ _ _ _ K) as [B1 B2]; destruct (IH k B1 B2) as [m R]; exists m; apply (Row_translation ps n s t k m); assumption.
      + exists n; apply Row_founds; exists s, t; repeat split; assumption. }
  destruct (X n L) as [m R]; exists m; split; [exact R|split; [apply (row_group_le _ _ _ R)|]].
  intros m' R'; symmetry; apply (row_group_unique _ _ _ R _ R').
Qed.
Lemma settled ps x : endpoint ps x -> exists k, settles ps x k /\ (k < length ps)%nat /\ forall k', settles ps x k' -> k' = k.
Proof.
  intros E; destruct (settles_exists ps x E) as [k K]; exists k; split; [exact K|split; [apply (settles_bound _ _ _ K)|]].
  intros k' K'; apply (settles_unique _ _ _ _ K' K).
Qed.
Lemma vals_at {V} (d : dict nat V) n : dkeys d = seq 0 n -> forall j, dget j d = nth_error (map snd d) j.
Proof.
  assert (G : forall (d : dict nat V) a n, dkeys d = seq a n -> forall j, dget (a + j)%nat d = nth_error (map snd d) j).
  { clear; induction d as [|[k v] d IH]; intros a n E j; [destruct j; reflexivity|].
    destruct n as [|n]; [discriminate E|]; cbn [dkeys map fst seq] in E; injection E as -> E; cbn [dget map snd].
    destruct j as [|j]; [rewrite Nat.add_0_r, eqb_refl; reflexivity|].
    destruct (eqb_spec (a + S j)%nat a) as [X|_]; [lia|]; cbn [nth_error]; rewrite <- (IH (S a) n E j); f_equal; lia. }
  intros E j; exact (G d 0%nat n E j).
Qed.
Lemma groups_are dv lower name rows ids flt ps r : filter_name (lower flt) -> link_rows dv rows ps ->
  new_links dv lower name (rows, Ok tt) ids flt = (true, Ok r) ->
  let us := used (lower flt) ids ps in
  exists fs gs, founders us fs /\ groups r = Ok gs /\ length gs = length fs /\
    forall j m g, nth_error fs j = Some m -> nth_error gs j = Some g -> forall x, In x g <-> in_group us m x.
Proof.
  intros F L R us; rewrite (new_links_ok dv lower name rows ids flt ps F L) in R; injection R as <-.
  destruct (links_linv us) as [fs [FO IN IK IG IL]]; exists fs, (map snd (group_dict (links_state us))); split; [exact FO|split; [reflexivity|split]].
  - rewrite map_length; apply (f_equal (@length nat)) in IK; unfold dkeys in IK; rewrite map_length, seq_length in IK; exact IK.
  - intros j m g Ej Eg; rewrite <- (vals_at _ _ IK) in Eg; apply (IG j g m Eg Ej).
Qed.
Lemma group_is dv lower name rows ids flt ps r i k m : filter_name (lower flt) -> link_rows dv rows ps ->
  new_links dv lower name (rows, Ok tt) ids flt = (true, Ok r) ->
  let us := used (lower flt) ids ps in
  settles us i k -> row_group us k m -> exists g, group r i = Ok g /\ forall x, In x g <-> in_group us m x.
Proof.
  intros F L R us S RG; rewrite (new_links_ok dv lower name rows ids flt ps F L) in R; injection R as <-.
  rewrite group_get; cbv zeta; fold us; destruct (links_linv us) as [fs I]; pose proof I as [FO IN IK IG IL].
  destruct (links_inv us) as [K _ _ _ _]; pose proof (settles_endpoint _ _ _ S) as E; apply K in E; destruct E as [j E]; rewrite E.
  destruct (IL i j E) as [k' [m' [S' [R' Ej]]]]; rewrite (settles_unique _ _ _ _ S' S) in R'; rewrite (row_group_unique _ _ _ R' _ RG) in Ej.
  destruct (in_nodes _ _ _ _ _ I Ej) as [g G]; rewrite G; exists g; split; [reflexivity|apply (IG j g m G Ej)].
Qed.
Lemma founders_unique ps fs fs' : founders ps fs -> founders ps fs' -> fs = fs'.
Proof.
  intros [F O] [F' O']; assert (M : forall x, In x fs <-> In x fs') by (intros x; rewrite F, F'; reflexivity); clear F F' ps.
  revert fs' O' M; induction fs as [|a fs IH]; intros [|b fs'] O' M.
  - reflexivity.
  - elim (proj2 (M b) (or_introl eq_refl)).
  - elim (proj1 (M a) (or_introl eq_refl)).
  - assert (T : forall (x y : nat) zs, (forall i j u v, nth_error (x :: zs) i = Some u -> nth_error (x :: zs) j = Some v -> (i < j)%nat -> (u < v)%nat) -> In y zs -> (x < y)%nat).
    { intros x y zs H I; apply In_nth_error in I; destruct I as [n I]; apply (H 0%nat (S n) x y eq_refl I); lia. }
    assert (E : a = b).
    { pose proof (proj1 (M a) (or_introl eq_refl)) as A; pose proof (proj2 (M b) (or_introl eq_refl)) as B; destruct A as [A|A]; [congruence|]; destruct B as [B|B]; [congruence|].
      apply (T b a fs' O') in A; apply (T a b fs O) in B; lia. }
    subst b; f_equal; apply IH.
    + intros i j u v Ei Ej Lt; apply (O (S i) (S j) u v Ei Ej); lia.
    + intros i j u v Ei Ej Lt; apply (O' (S i) (S j) u v Ei Ej); lia.
    + intros x; split; intros I.
      * destruct (proj1 (M x) (or_intror I)) as [<-|J]; [apply (T a a fs O) in I; lia|exact J].
      * destruct (proj2 (M x) (or_intror I)) as [<-|J]; [apply (T a a fs' O') in I; lia|exact J].
Qed.
