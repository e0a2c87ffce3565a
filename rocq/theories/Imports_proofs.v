(* Imports_proofs.v *)
From Verif Require Import Base Imports_model Imports_spec.

Notation modules := (dict (list (list Z)) (list (list Z))) (only parsing).

(** ** a check that is sound *)
Section Check.
  Variable p : python.
  Variable dists : list str.
  Variable M : list (list str).        (* in an order in which they can be loaded *)
  Notation import_ := (import_ p dists).
  Notation exec := (exec p dists).
  Notation exec_all := (exec_all p dists).
  Notation load := (load p dists).
  Notation resolve := (resolve p).
  Notation outside := (outside p dists).

  Fixpoint position (x : list str) (l : list (list str)) : nat :=
    match l with [] => O | y :: l => if eqb x y then O else S (position x l) end.
  Definition rank (x : list str) : nat := position x M.
  Definition ok_module (r : nat) (x : list str) : bool :=
    if inside x then forallb (fun q => mem q M && (rank q <? r)%nat) (prefixes_from [] x) else dmem x outside.
  Definition there (x : list str) (n : str) : bool := match dget x outside with Some a => mem n a | None => false end.
  Definition ok_name (r : nat) (x : list str) (n : str) : bool :=
    if inside x then mem n (names x) || (is_package x && ok_module r (x ++ [n])) else there x n.
  Definition target (m : list str) (level : nat) (x : list str) : list str := match level with O => resolve m x | S _ => package_of m ++ x end.
  Definition blocked (m : list str) (s : stmt) : bool :=
    match s with
    | From level x [(n, _)] => let x := target m level x in negb (inside x) && negb (there x n)
    | _ => false
    end.
  Definition same_names (a b : list str) : bool := forallb (fun x => mem x b) a.
  Fixpoint ok_stmt (m : list str) (s : stmt) : bool :=
    match s with
    | Import x => ok_module (rank m) (resolve m x)
    | From level x ns => let x := target m level x in ok_module (rank m) x && mem x (x :: M) && forallb (fun n => ok_name (rank m) x (fst n)) ns
    | Try s t => (same_names (bound t) (bound s) && ok_stmt m s) || (same_names (bound s) (bound t) && blocked m s && ok_stmt m t)
    | Bind _ => true
    end.
  Definition checked : bool :=
    forallb (fun x => match dget x source with Some body => forallb (ok_stmt x) body | None => false end) M.
  Hypothesis OK : checked = true.

  Lemma In_M x : In x M -> exists body, dget x source = Some body /\ forallb (ok_stmt x) body = true.
  Proof.
    intro I. unfold checked in OK. rewrite forallb_forall in OK. specialize (OK x I). destruct (dget x source) as [body|]; [|discriminate]. exists body. split; [reflexivity | exact OK].
  Qed.

  (* growing *)
  Definition grows (w w' : modules) : Prop := forall x a, dget x w = Some a -> exists a', dget x w' = Some a' /\ incl a a'.
  Lemma grows_refl w : grows w w.
  Proof. intros x a E. exists a. split; [exact E | apply incl_refl]. Qed.
  Lemma grows_trans w1 w2 w3 : grows w1 w2 -> grows w2 w3 -> grows w1 w3.
  Proof. intros G1 G2 x a E. destruct (G1 x a E) as (b & E2 & I). destruct (G2 x b E2) as (c & E3 & J). exists c. split; [exact E3 | eapply incl_tran; eassumption]. Qed.
  Lemma grows_complete w w' x : grows w w' -> complete w x -> complete w' x.
  Proof. intros G (a & E & I). destruct (G x a E) as (b & E2 & J). exists b. split; [exact E2 | eapply incl_tran; eassumption]. Qed.
  Lemma bind_grows m n w : grows w (bind_name m n w).
  Proof.
    unfold bind_name. destruct (dget m w) as [a|] eqn:E; [|apply grows_refl]. intros x b D. rewrite dget_dset. destruct (eqb_spec x m) as [-> | N].
    - rewrite E in D. injection D as <-. eexists. split; [reflexivity|]. apply incl_appl, incl_refl.
    - exists b. split; [exact D | apply incl_refl].
  Qed.
  Lemma bind_dmem m n w x : dmem x (bind_name m n w) = dmem x w.
  Proof.
    unfold bind_name. destruct (dget m w) as [a|] eqn:E; [|reflexivity]. unfold dmem. rewrite dget_dset. destruct (eqb_spec x m) as [-> | N]; [rewrite E|]; reflexivity.
  Qed.
  Definition post (w w' : modules) : Prop := grows w w' /\ forall x, dmem x w' = true -> dmem x w = true \/ (In x M /\ complete w' x).
  Lemma post_refl w : post w w.
  Proof. split; [apply grows_refl | left; assumption]. Qed.
  Lemma post_trans w1 w2 w3 : post w1 w2 -> post w2 w3 -> post w1 w3.
  Proof.
    intros [G1 N1] [G2 N2]. split; [eapply grows_trans; eassumption|]. intros x D. destruct (N2 x D) as [D2|C]; [|right; exact C].
    destruct (N1 x D2) as [D1 | [I C]]; [left; exact D1 | right; split; [exact I | eapply grows_complete; eassumption]].
  Qed.
  Lemma post_bind m n w : post w (bind_name m n w).
  Proof. split; [apply bind_grows|]. intros x D. left. rewrite bind_dmem in D. exact D. Qed.
  Definition inv (w : modules) (r : nat) : Prop := forall x, dmem x w = true -> (rank x < r)%nat -> complete w x.
  Lemma inv_post w w' r : inv w r -> post w w' -> inv w' r.
  Proof. intros I [G N] x D R. destruct (N x D) as [D0 | [_ C]]; [|exact C]. eapply grows_complete; [exact G|]. exact (I x D0 R). Qed.
  Lemma complete_attr w x n : complete w x -> In n (names x) -> attr w x n = true.
  Proof. intros (a & E & I) J. unfold attr. rewrite E. apply mem_In. exact (I n J). Qed.

  Section Step.
    Variable ld : modules -> list str -> modules * res unit.
    Variable r : nat.
    Hypothesis LD : forall x w, In x M -> (rank x < r)%nat -> inv w r -> exists w', ld w x = (w', Ok tt) /\ post w w' /\ complete w' x.
    Lemma load_all_ok l w : (forall q, In q l -> In q M /\ (rank q < r)%nat) -> inv w r ->
      exists w', load_all ld l w = (w', Ok tt) /\ post w w' /\ forall q, In q l -> complete w' q.
    Proof.
      revert w. induction l as [|q l IH]; intros w H I; [exists w; split; [reflexivity|]; split; [apply post_refl | intros q []]|].
      destruct (H q (or_introl eq_refl)) as [Iq Rq]. destruct (LD q w Iq Rq I) as (w1 & E1 & P1 & C1). cbn [load_all]. rewrite E1.
      destruct (IH w1 (fun q' J => H q' (or_intror J)) (inv_post _ _ _ I P1)) as (w2 & E2 & P2 & C2). exists w2. split; [exact E2|]. split; [eapply post_trans; eassumption|].
      intros q' [<- | J]; [eapply grows_complete; [apply P2 | exact C1] | exact (C2 q' J)].
    Qed.
    Lemma last_prefix x done : x <> [] -> In (done ++ x) (prefixes_from done x).
    Proof.
      revert done. induction x as [|h x IH]; intros done N; [contradiction|]. cbn [prefixes_from]. destruct x as [|h' x]; [left; reflexivity|].
      right. specialize (IH (done ++ [h])). rewrite <- app_assoc in IH. apply IH. discriminate.
    Qed.
    Lemma import_ok x w : ok_module r x = true -> inv w r ->
      exists w', import_ ld x w = (w', Ok tt) /\ post w w' /\ (inside x = true -> complete w' x).
    Proof.
      unfold ok_module, Imports_model.import_. destruct (inside x) eqn:In_.
      - intros H I. rewrite forallb_forall in H. destruct (load_all_ok (prefixes_from [] x) w) as (w' & E & P & C); [|exact I|].
        + intros q J. specialize (H q J). apply andb_true_iff in H. destruct H as [H1 H2]. split; [apply mem_In; exact H1 | apply Nat.ltb_lt; exact H2].
        + exists w'. split; [exact E|]. split; [exact P|]. intros _. apply C. apply (last_prefix x []). destruct x; [discriminate In_ | discriminate].
      - intros H _. rewrite H. exists w. split; [reflexivity|]. split; [apply post_refl | discriminate].
    Qed.
    Lemma name_ok x n w : ok_name r x n = true -> inv w r -> (inside x = true -> complete w x) ->
      exists w', import_name p dists ld x n w = (w', Ok tt) /\ post w w'.
    Proof.
      unfold ok_name, import_name. destruct (inside x) eqn:In_.
      - intros H I C. specialize (C eq_refl). destruct (attr w x n) eqn:A; [exists w; split; [reflexivity | apply post_refl]|].
        apply orb_true_iff in H. destruct H as [H|H]; [apply mem_In in H; rewrite (complete_attr w x n C H) in A; discriminate|].
        apply andb_true_iff in H. destruct H as [-> H]. destruct (import_ok (x ++ [n]) w H I) as (w' & E & P & _). exists w'. split; assumption.
      - unfold there. intros -> _ _. exists w. split; [reflexivity | apply post_refl].
    Qed.
    Lemma bound_here m n w : dmem m w = true -> attr (bind_name m n w) m n = true.
    Proof. unfold dmem, attr, bind_name. destruct (dget m w) as [a|]; [|discriminate]. intros _. rewrite dget_dset_same. apply mem_In, in_or_app. right. left. reflexivity. Qed.
    Lemma attr_grows w w' m n : grows w w' -> attr w m n = true -> attr w' m n = true.
    Proof. unfold attr. intros G. destruct (dget m w) as [a|] eqn:E; [|discriminate]. destruct (G m a E) as (b & -> & I). rewrite !mem_In. apply I. Qed.
    Lemma dmem_grows w w' m : grows w w' -> dmem m w = true -> dmem m w' = true.
    Proof. unfold dmem. intros G. destruct (dget m w) as [a|] eqn:E; [|discriminate]. destruct (G m a E) as (b & -> & _). reflexivity. Qed.
    Lemma names_ok m x ns : forall w, forallb (fun n => ok_name r x (fst n)) ns = true -> inv w r -> (inside x = true -> complete w x) -> dmem m w = true ->
      exists w', import_names p dists ld m x ns w = (w', Ok tt) /\ post w w' /\ forall k, In k (map snd ns) -> attr w' m k = true.
    Proof.
      induction ns as [|[n k] ns IH]; intros w H I C D; [exists w; split; [reflexivity|]; split; [apply post_refl | intros k []]|].
      cbn [forallb fst] in H. apply andb_true_iff in H. destruct H as [H1 H2]. destruct (name_ok x n w H1 I C) as (w1 & E1 & P1). cbn [import_names]. rewrite E1.
      assert (P2 : post w (bind_name m k w1)) by (eapply post_trans; [exact P1 | apply post_bind]).
      assert (D1 : dmem m w1 = true) by (eapply dmem_grows; [apply P1 | exact D]).
      destruct (IH (bind_name m k w1) H2) as (w3 & E3 & P3 & B3).
      - eapply inv_post; eassumption.
      - intro X. eapply grows_complete; [apply P2 | exact (C X)].
      - rewrite bind_dmem. exact D1.
      - exists w3. split; [exact E3|]. split; [eapply post_trans; eassumption|]. cbn [map snd]. intros k' [<- | J]; [|exact (B3 k' J)].
        eapply attr_grows; [apply P3 | apply bound_here; exact D1].
    Qed.
    Lemma same_names_in a b n : same_names a b = true -> In n a -> In n b.
    Proof. unfold same_names. rewrite forallb_forall. intros H I. apply mem_In. exact (H n I). Qed.
    Lemma exec_ok m s : rank m = r -> forall w, ok_stmt m s = true -> inv w r -> dmem m w = true ->
      exists w', exec ld m s w = (w', Ok tt) /\ post w w' /\ forall k, In k (bound s) -> attr w' m k = true.
    Proof.
      intro R. induction s as [x|level x ns|s IHs t IHt|n]; intros w H I D; cbn [ok_stmt Imports_model.exec bound] in *.
      - rewrite R in H. destruct (import_ok _ w H I) as (w1 & E & P & _). rewrite E. eexists. split; [reflexivity|].
        split; [eapply post_trans; [exact P | apply post_bind]|]. intros k [<- | []]. apply bound_here. eapply dmem_grows; [apply P | exact D].
      - fold (target m level x). rewrite R in H. apply andb_true_iff in H. destruct H as [H H2]. apply andb_true_iff in H. destruct H as [H _].
        destruct (import_ok _ w H I) as (w1 & E & P & C). rewrite E.
        destruct (names_ok m (target m level x) ns w1 H2) as (w2 & E2 & P2 & B); [eapply inv_post; eassumption | exact C | eapply dmem_grows; [apply P | exact D]|].
        exists w2. split; [exact E2|]. split; [eapply post_trans; eassumption | exact B].
      - apply orb_true_iff in H. destruct H as [H|H].
        + apply andb_true_iff in H. destruct H as [S H]. destruct (IHs w H I D) as (w1 & E & P & B). rewrite E. exists w1. split; [reflexivity|]. split; [exact P|].
          intros k J. apply in_app_or in J. apply B. destruct J as [J|J]; [exact J | exact (same_names_in _ _ _ S J)].
        + apply andb_true_iff in H. destruct H as [H Ht]. apply andb_true_iff in H. destruct H as [S Bl].
          assert (X : exec ld m s w = (w, Raise ImportError)).
          { clear IHs S. destruct s as [x|level x [|[n k] [|? ?]]|s s'|n]; try discriminate Bl. cbn [blocked] in Bl. apply andb_true_iff in Bl. destruct Bl as [B1 B2].
            cbn [Imports_model.exec]. fold (target m level x). unfold Imports_model.import_. destruct (inside (target m level x)) eqn:In_; [discriminate|].
            unfold there in B2. destruct (dmem (target m level x) outside) eqn:De; [|reflexivity]. cbn [import_names]. unfold import_name. rewrite In_.
            destruct (match dget (target m level x) outside with Some a => mem n a | None => false end); [discriminate | reflexivity]. }
          rewrite X. destruct (IHt w Ht I D) as (w1 & E & P & B). exists w1. split; [exact E|]. split; [exact P|].
          intros k J. apply in_app_or in J. apply B. destruct J as [J|J]; [exact (same_names_in _ _ _ S J) | exact J].
      - eexists. split; [reflexivity|]. split; [apply post_bind|]. intros k [<- | []]. apply bound_here. exact D.
    Qed.
    Lemma exec_all_ok m : rank m = r -> forall body w, forallb (ok_stmt m) body = true -> inv w r -> dmem m w = true ->
      exists w', exec_all ld m body w = (w', Ok tt) /\ post w w' /\ forall k, In k (flat_map bound body) -> attr w' m k = true.
    Proof.
      intros R body. induction body as [|s body IH]; intros w H I D; [exists w; split; [reflexivity|]; split; [apply post_refl | intros k []]|].
      cbn [forallb] in H. apply andb_true_iff in H. destruct H as [H1 H2]. destruct (exec_ok m s R w H1 I D) as (w1 & E1 & P1 & B1). cbn [Imports_model.exec_all]. rewrite E1.
      destruct (IH w1 H2 (inv_post _ _ _ I P1)) as (w2 & E2 & P2 & B2); [eapply dmem_grows; [apply P1 | exact D]|]. exists w2. split; [exact E2|]. split; [eapply post_trans; eassumption|].
      cbn [flat_map]. intros k J. apply in_app_or in J. destruct J as [J|J]; [eapply attr_grows; [apply P2 | exact (B1 k J)] | exact (B2 k J)].
    Qed.
  End Step.

  Lemma load_ok d : forall x w r, (rank x < d)%nat -> In x M -> (rank x < r)%nat -> inv w r -> exists w', load d w x = (w', Ok tt) /\ post w w' /\ complete w' x.
  Proof.
    induction d as [|d IH]; intros x w r Rd Ix Rx I; [lia|]. cbn [Imports_model.load]. destruct (dmem x w) eqn:Dx.
    { exists w. split; [reflexivity|]. split; [apply post_refl | exact (I x Dx Rx)]. }
    destruct (In_M x Ix) as (body & Eb & Ob). rewrite Eb.
    assert (LD : forall y v, In y M -> (rank y < rank x)%nat -> inv v (rank x) -> exists v', load d v y = (v', Ok tt) /\ post v v' /\ complete v' y).
    { intros y v Iy Ry Iv. apply (IH y v (rank x)); try assumption. lia. }
    assert (Dn : dget x w = None) by (unfold dmem in Dx; destruct (dget x w); [discriminate | reflexivity]).
    destruct (exec_all_ok (load d) (rank x) LD x eq_refl body (dset x [] w) Ob) as (w1 & E1 & P1 & B1).
    { intros y Dy Ry. destruct (eqb_spec y x) as [-> | N]; [lia|]. unfold dmem in Dy. rewrite dget_dset_other in Dy by exact N.
      destruct (I y Dy) as (a & Ea & Ia); [lia|]. exists a. rewrite dget_dset_other by exact N. split; assumption. }
    { unfold dmem. rewrite dget_dset_same. reflexivity. }
    rewrite E1. eexists. split; [reflexivity|].
    assert (C1 : complete w1 x).
    { destruct (dget x w1) as [a|] eqn:Ea.
      - exists a. split; [exact Ea|]. intros k J. unfold names in J. rewrite Eb in J. specialize (B1 k J). unfold attr in B1. rewrite Ea in B1. apply mem_In. exact B1.
      - destruct P1 as [G _]. destruct (G x [] (dget_dset_same x [] w)) as (a & E & _). congruence. }
    assert (Gw : grows w w1).
    { intros y a Ey. assert (N : y <> x) by congruence. destruct P1 as [G _]. apply G. rewrite dget_dset_other by exact N. exact Ey. }
    set (w2 := bind_name _ _ w1).
    assert (G2 : grows w1 w2) by apply bind_grows.
    split; [|eapply grows_complete; eassumption]. split; [eapply grows_trans; eassumption|]. intros y Dy. unfold w2 in Dy. rewrite bind_dmem in Dy.
    destruct (proj2 P1 y Dy) as [D0 | [Iy Cy]]; [|right; split; [exact Iy | eapply grows_complete; eassumption]].
    destruct (eqb_spec y x) as [-> | N]; [right; split; [exact Ix | eapply grows_complete; eassumption]|]. left. unfold dmem in D0 |- *. rewrite dget_dset_other in D0 by exact N. exact D0.
  Qed.
End Check.

(** ** names come from somewhere *)
Section Tidy.
  Variable p : python.
  Variable dists : list str.
  Definition tidy (w : modules) : Prop := forall m a n, In (m, a) w -> In n a -> In n (names m) \/ dmem (m ++ [n]) source = true.
  Lemma In_dset (x : list str) b m a (w : modules) : In (x, b) (dset m a w) -> In (x, b) w \/ (x = m /\ b = a).
  Proof.
    induction w as [|[k v] w IH]; cbn [dset]; [intros [E|[]]; injection E as <- <-; right; split; reflexivity|].
    destruct (eqb_spec m k) as [-> | N]; intros [E|I].
    - injection E as <- <-. right. split; reflexivity.
    - left. right. exact I.
    - left. left. exact E.
    - destruct (IH I) as [J|J]; [left; right; exact J | right; exact J].
  Qed.
  Lemma In_ddel (x : list str * list str) m (w : modules) : In x (ddel m w) -> In x w.
  Proof.
    induction w as [|[k v] w IH]; cbn [ddel]; [tauto|]. destruct (eqb m k); [intro I; right; exact I|]. intros [E|I]; [left; exact E | right; exact (IH I)].
  Qed.
  Lemma tidy_bind m n w : tidy w -> In n (names m) \/ dmem (m ++ [n]) source = true -> tidy (bind_name m n w).
  Proof.
    intros T H. unfold bind_name. destruct (dget m w) as [a|] eqn:E; [|exact T]. intros x b k D I. apply In_dset in D. destruct D as [D | [-> ->]]; [exact (T x b k D I)|].
    apply in_app_or in I. destruct I as [I | [<- | []]]; [exact (T m a k (dget_In _ _ _ E) I) | exact H].
  Qed.
  Section Step.
    Variable ld : modules -> list str -> modules * res unit.
    Hypothesis LD : forall w x, tidy w -> tidy (fst (ld w x)).
    Lemma tidy_load_all l : forall w, tidy w -> tidy (fst (load_all ld l w)).
    Proof.
      induction l as [|x l IH]; intros w T; [exact T|]. cbn [load_all]. pose proof (LD w x T) as T1. destruct (ld w x) as [w1 [?|e]]; [apply IH; exact T1 | exact T1].
    Qed.
    Lemma tidy_import x w : tidy w -> tidy (fst (import_ p dists ld x w)).
    Proof. intro T. unfold import_. destruct (inside x); [apply tidy_load_all; exact T | exact T]. Qed.
    Lemma tidy_import_name x n w : tidy w -> tidy (fst (import_name p dists ld x n w)).
    Proof. intro T. unfold import_name. destruct (inside x); [|exact T]. destruct (attr w x n); [exact T|]. destruct (is_package x); [apply tidy_import; exact T | exact T]. Qed.
    Lemma tidy_names m x ns : forall w, tidy w -> incl (map snd ns) (names m) -> tidy (fst (import_names p dists ld m x ns w)).
    Proof.
      induction ns as [|[n k] ns IH]; intros w T I; [exact T|]. cbn [import_names]. pose proof (tidy_import_name x n w T) as T1.
      destruct (import_name p dists ld x n w) as [w1 [?|e]]; [|exact T1]. apply IH; [|intros y J; apply I; right; exact J]. apply tidy_bind; [exact T1|]. left. apply I. left. reflexivity.
    Qed.
    Lemma tidy_exec m s : forall w, tidy w -> incl (bound s) (names m) -> tidy (fst (exec p dists ld m s w)).
    Proof.
      induction s as [x|level x ns|s IHs t IHt|n]; intros w T I; cbn [exec bound] in *.
      - pose proof (tidy_import (resolve p m x) w T) as T1. destruct (import_ p dists ld _ w) as [w1 [?|e]]; [|exact T1]. apply tidy_bind; [exact T1|]. left. apply I. left. reflexivity.
      - match goal with |- context [import_ p dists ld ?y w] => pose proof (tidy_import y w T) as T1; destruct (import_ p dists ld y w) as [w1 [?|e]]; [|exact T1] end.
        apply tidy_names; assumption.
      - pose proof (IHs w T (fun k J => I k (in_or_app _ _ _ (or_introl J)))) as T1. destruct (exec p dists ld m s w) as [w1 [?|e]]; [exact T1|].
        destruct e; try exact T1. apply IHt; [exact T1|]. intros k J. apply I, in_or_app. right. exact J.
      - apply tidy_bind; [exact T|]. left. apply I. left. reflexivity.
    Qed.
    Lemma tidy_exec_all m body : forall w, tidy w -> incl (flat_map bound body) (names m) -> tidy (fst (exec_all p dists ld m body w)).
    Proof.
      induction body as [|s body IH]; intros w T I; [exact T|]. cbn [exec_all flat_map] in *.
      pose proof (tidy_exec m s w T (fun k J => I k (in_or_app _ _ _ (or_introl J)))) as T1. destruct (exec p dists ld m s w) as [w1 [?|e]]; [|exact T1].
      apply IH; [exact T1|]. intros k J. apply I, in_or_app. right. exact J.
    Qed.
  End Step.
  Lemma tidy_load d : forall w x, tidy w -> tidy (fst (load p dists d w x)).
  Proof.
    induction d as [|d IH]; intros w x T; cbn [load]; (destruct (dmem x w); [exact T|]); (destruct (dget x source) as [body|] eqn:E; [|exact T]); [exact T|].
    assert (T0 : tidy (dset x [] w)).
    { intros m a n D I. apply In_dset in D. destruct D as [D | [-> ->]]; [exact (T m a n D I) | destruct I]. }
    pose proof (tidy_exec_all (load p dists d) IH x body _ T0) as T1. unfold names in T1. rewrite E in T1. specialize (T1 (incl_refl _)).
    destruct (exec_all p dists (load p dists d) x body (dset x [] w)) as [w1 [?|e]]; cbn [fst] in *.
    - apply tidy_bind; [exact T1|]. right.
      assert (X : forall y b, dget y source = Some b -> dmem (removelast y ++ [last y []]) source = true).
      { intros y b D. replace (removelast y ++ [last y []]) with y; [unfold dmem; rewrite D; reflexivity|]. apply app_removelast_last. intros ->. discriminate D. }
      exact (X x body E).
    - intros m a n D I. apply In_ddel in D. exact (T1 m a n D I).
  Qed.
End Tidy.

(** ** modules that stop at something outside *)
Section Outer.
  Variable p : python.
  Variable dists : list str.
  Variable ld : modules -> list str -> modules * res unit.
  Fixpoint outer (m : list str) (s : stmt) : bool :=
    match s with
    | Import x => negb (inside (resolve p m x))
    | From level x _ => negb (inside (target p m level x))
    | Try s t => outer m s && outer m t
    | Bind _ => true
    end.
  Fixpoint fine (m : list str) (s : stmt) : bool :=
    match s with
    | Import x => dmem (resolve p m x) (outside p dists)
    | From level x ns => dmem (target p m level x) (outside p dists) && forallb (fun n => there p dists (target p m level x) (fst n)) ns
    | Try s t => fine m s || fine m t
    | Bind _ => true
    end.
  Lemma dset_twice (m : list str) a b (w : modules) : dset m b (dset m a w) = dset m b w.
  Proof.
    induction w as [|[k v] w IH]; cbn [dset]; [rewrite eqb_refl; reflexivity|]. destruct (eqb_spec m k) as [-> | N]; cbn [dset]; [rewrite eqb_refl; reflexivity|].
    rewrite (eqb_neq _ _ N), IH. reflexivity.
  Qed.
  Lemma ddel_new (m : list str) a (w : modules) : dget m w = None -> ddel m (dset m a w) = w.
  Proof.
    induction w as [|[k v] w IH]; cbn [dset dget]; [intros _; cbn [ddel]; rewrite eqb_refl; reflexivity|]. destruct (eqb_spec m k) as [-> | N]; [discriminate|].
    intro D. cbn [ddel]. rewrite (eqb_neq _ _ N), (IH D). reflexivity.
  Qed.
  Lemma bind_again m n a w : bind_name m n (dset m a w) = dset m (a ++ [n]) w.
  Proof. unfold bind_name. rewrite dget_dset_same. apply dset_twice. Qed.
  Lemma outer_names m x ns : inside x = false -> forall a w, exists a', import_names p dists ld m x ns (dset m a w) =
    (dset m a' w, if forallb (fun n => there p dists x (fst n)) ns then Ok tt else Raise ImportError).
  Proof.
    intro N. induction ns as [|[n k] ns IH]; intros a w; [exists a; reflexivity|]. cbn [import_names forallb fst]. unfold import_name. rewrite N. fold (there p dists x n).
    destruct (there p dists x n); [|exists a; reflexivity]. rewrite bind_again. apply IH.
  Qed.
  Lemma outer_exec m s : outer m s = true -> forall a w, exists a', exec p dists ld m s (dset m a w) = (dset m a' w, if fine m s then Ok tt else Raise ImportError).
  Proof.
    induction s as [x|level x ns|s IHs t IHt|n]; intros H a w; cbn [outer fine exec] in *.
    - unfold import_. apply negb_true_iff in H. rewrite H. destruct (dmem (resolve p m x) (outside p dists)); [rewrite bind_again; eexists; reflexivity | exists a; reflexivity].
    - fold (target p m level x). apply negb_true_iff in H. unfold import_. rewrite H. destruct (dmem (target p m level x) (outside p dists)); [|exists a; reflexivity]. apply outer_names. exact H.
    - apply andb_true_iff in H. destruct H as [Hs Ht]. destruct (IHs Hs a w) as [a1 E1]. rewrite E1. destruct (fine m s); [exists a1; reflexivity|]. cbn [orb]. apply IHt. exact Ht.
    - rewrite bind_again. eexists. reflexivity.
  Qed.
  Lemma outer_stops m pre s rest : forallb (outer m) pre = true -> forallb (fine m) pre = true -> outer m s = true -> fine m s = false ->
    forall a w, exists a', exec_all p dists ld m (pre ++ s :: rest) (dset m a w) = (dset m a' w, Raise ImportError).
  Proof.
    induction pre as [|q pre IH]; intros O F Os Fs a w; cbn [app exec_all].
    - destruct (outer_exec m s Os a w) as [a1 E]. rewrite E, Fs. exists a1. reflexivity.
    - cbn [forallb] in O, F. apply andb_true_iff in O. apply andb_true_iff in F. destruct O as [O1 O2], F as [F1 F2]. destruct (outer_exec m q O1 a w) as [a1 E]. rewrite E, F1. apply IH; assumption.
  Qed.
End Outer.
Lemma load_stops p dists d m n w body : dget m w = None -> dget m source = Some body ->
  forallb (outer p m) (firstn (S n) body) = true -> forallb (fine p dists m) (firstn n body) = true -> forallb (fine p dists m) (firstn (S n) body) = false ->
  load p dists (S d) w m = (w, Raise ImportError).
Proof.
  intros D B O F X. cbn [load]. unfold dmem. rewrite D, B. clear B.
  destruct (nth_error body n) as [s|] eqn:E.
  2: { apply nth_error_None in E. rewrite !firstn_all2 in * by lia. congruence. }
  destruct (nth_error_split body n E) as (pre & rest & -> & L).
  assert (F1 : firstn n (pre ++ s :: rest) = pre) by (rewrite <- L, firstn_app, Nat.sub_diag, firstn_all, firstn_O, app_nil_r; reflexivity).
  assert (F2 : firstn (S n) (pre ++ s :: rest) = pre ++ [s]).
  { replace (S n) with (length pre + 1)%nat by lia. rewrite firstn_app_2. reflexivity. }
  rewrite F1 in F. rewrite F2 in O, X. rewrite forallb_app in O, X. rewrite F in X. cbn [forallb andb] in O, X. rewrite andb_true_r in O, X. apply andb_true_iff in O. destruct O as [O1 O2].
  destruct (outer_stops p dists (load p dists d) m pre s rest O1 F O2 X [] w) as [a' ->]. rewrite ddel_new by exact D. reflexivity.
Qed.

(** ** programs *)
Section Programs.
  Variable p : python.
  Variable dists : list str.
  Variable M : list (list str).
  Hypothesis OK : checked p dists M = true.
  Hypothesis Each : forallb (ok_module p dists M (length M)) M = true.
  Hypothesis Inside : forallb inside M = true.
  Hypothesis Packs : forallb (fun x => mem x M) packages = true.
  Hypothesis Stars : forallb (fun x => forallb (fun n => negb (dmem (x ++ [n]) source) || mem (x ++ [n]) M) (all_names x)) packages = true.
  Hypothesis Lost : forallb (fun x => negb (forallb (fun n => mem n (names x) || dmem (x ++ [n]) source) (all_names x))) packages = true.
  Variable depth : nat.
  Hypothesis Deep : (length M <= depth)%nat.
  Definition good (w : modules) : Prop := inv M w (length M) /\ (forall x, dmem x w = true -> In x M) /\ tidy w.
  Lemma good_nil : good [].
  Proof. split; [intros x D; discriminate|]. split; [intros x D; discriminate | intros m a n []]. Qed.
  Lemma rank_lt x : In x M -> (rank M x < length M)%nat.
  Proof.
    unfold rank. induction M as [|y l IH]; intros I; [destruct I|]. cbn [position length]. destruct (eqb_spec x y) as [_|N]; [lia|]. destruct I as [-> | I]; [contradiction|].
    clear -IH I. assert (H : (position x l < length l)%nat).
    { clear IH. induction l as [|z l IH]; [destruct I|]. cbn [position length]. destruct (eqb_spec x z) as [_|N]; [lia|]. destruct I as [-> | I]; [contradiction|]. specialize (IH I). lia. }
    lia.
  Qed.
  Lemma good_load x w : In x M -> inv M w (length M) -> exists w', load p dists depth w x = (w', Ok tt) /\ post M w w' /\ complete w' x.
  Proof. intros I G. pose proof (rank_lt x I) as R. apply (load_ok p dists M OK depth x w (length M)); try assumption. lia. Qed.
  Lemma good_post w w' : good w -> post M w w' -> tidy w' -> good w'.
  Proof.
    intros (I & K & _) P T. split; [eapply inv_post; eassumption|]. split; [|exact T]. intros x D. destruct (proj2 P x D) as [D0 | [Ix _]]; [exact (K x D0) | exact Ix].
  Qed.
  Lemma module_ok x w : In x M -> good w -> exists w', import_module p dists depth x w = (w', Ok tt) /\ good w' /\ complete w' x.
  Proof.
    intros Ix G. unfold import_module. destruct G as (I & K & T).
    pose proof (proj1 (forallb_forall _ _) Each) as Each'. pose proof (proj1 (forallb_forall _ _) Inside) as Inside'.
    destruct (import_ok p dists M (load p dists depth) (length M) (fun y v Iy _ Iv => good_load y v Iy Iv) x w (Each' x Ix) I) as (w' & E & P & C).
    exists w'. split; [exact E|]. split; [|apply C, Inside', Ix]. eapply good_post; [split; [exact I | split; [exact K | exact T]] | exact P|].
    pose proof (tidy_import p dists (load p dists depth) (tidy_load p dists depth) x w T) as T'. rewrite E in T'. exact T'.
  Qed.
  Lemma star_ok x ns : forall w, (forall n, In n ns -> dmem (x ++ [n]) source = true -> In (x ++ [n]) M) -> good w ->
    exists w', star_submodules p dists depth x ns w = (w', Ok tt) /\ good w'.
  Proof.
    induction ns as [|n ns IH]; intros w H G; [exists w; split; [reflexivity | exact G]|]. cbn [star_submodules].
    assert (H' : forall k, In k ns -> dmem (x ++ [k]) source = true -> In (x ++ [k]) M) by (intros k J; apply H; right; exact J).
    destruct (attr w x n); [apply IH; assumption|]. destruct (dmem (x ++ [n]) source) eqn:D; [|apply IH; assumption].
    destruct (module_ok (x ++ [n]) w (H n (or_introl eq_refl) D) G) as (w1 & E & G1 & _). unfold import_module in E. rewrite E. apply IH; assumption.
  Qed.
  Lemma star_fails x w : In x packages -> good w -> exists w', import_star p dists depth x w = (w', Raise AttributeError) /\ good w'.
  Proof.
    intros Ix G. pose proof (proj1 (forallb_forall _ _) Packs x Ix) as P1. pose proof (proj1 (forallb_forall _ _) Stars x Ix) as S1. pose proof (proj1 (forallb_forall _ _) Lost x Ix) as L1. apply mem_In in P1.
    unfold import_star. destruct (module_ok x w P1 G) as (w1 & E & G1 & _). rewrite E.
    destruct (star_ok x (all_names x) w1) as (w2 & E2 & G2); [|exact G1|].
    - intros n In_ D. pose proof (proj1 (forallb_forall _ _) S1 n In_) as S2. cbn beta in S2. rewrite D in S2. cbn [negb orb] in S2. apply mem_In. exact S2.
    - rewrite E2. exists w2. split; [|exact G2]. f_equal. destruct (forallb (attr w2 x) (all_names x)) eqn:F; [|reflexivity]. exfalso.
      apply negb_true_iff in L1. rewrite <- Bool.not_true_iff_false in L1. apply L1. rewrite forallb_forall in F |- *. intros n J. specialize (F n J). unfold attr in F.
      destruct (dget x w2) as [a|] eqn:Da; [|discriminate]. apply mem_In in F. apply dget_In in Da. destruct (proj2 (proj2 G2) x a n Da F) as [H|H]; apply orb_true_iff; [left; apply mem_In; exact H | right; exact H].
  Qed.
End Programs.

(** ** all of it *)
Definition ordered : list (list str) :=
  map (fun n => [u "cjktools"] ++ n)
    [[]; [u "common"]; [u "errors"]; [u "kana_table"]; [u "maps"]; [u "scripts"]; [u "smart_cache"]; [u "alternations"]; [u "resources"]] ++
  map (fun n => [u "cjktools"; u "resources"] ++ [n])
    [u "cjkdata"; u "bilingual_dict"; u "dict_format"; u "auto_format"; u "kanji_list"; u "kanjidic"; u "languages"; u "zhuyin_table"; u "pinyin_table";
     u "place"; u "radkdict"; u "split_by_codes"; u "tree"].
Definition modules_of (p : python) : list (list str) := if has_mapping p then ordered ++ [tatoeba] else ordered.
Definition needs (p : python) : list str :=
  let r := if has_enum p then [u "six"] else [u "six"; u "enum34"] in if exit_stack p then r else r ++ [u "contextlib2>=0.5.3"].
Definition all_checked (p : python) : bool :=
  let M := modules_of p in let dists := needs p in
  checked p dists M && forallb (ok_module p dists M (length M)) M && forallb inside M && forallb (fun x => mem x M) packages &&
  forallb (fun x => forallb (fun n => negb (dmem (x ++ [n]) source) || mem (x ++ [n]) M) (all_names x)) packages &&
  forallb (fun x => negb (forallb (fun n => mem n (names x) || dmem (x ++ [n]) source) (all_names x))) packages &&
  forallb (fun xb => mem (fst xb) (ordered ++ [tatoeba])) source.
Lemma all_checked_true p : all_checked p = true.
Proof. destruct p as [[] [] [] []]; vm_compute; reflexivity. Qed.
Lemma needs_of v : needs (python_of v) = requires v.
Proof. unfold needs, requires, python_of. cbn. destruct (before v 3 4 0), (before v 3 3 0); reflexivity. Qed.
Lemma tatoeba_outer p : forallb (outer p tatoeba) (firstn 4 body_tatoeba) = true.
Proof. destruct p as [[] [] [] []]; vm_compute; reflexivity. Qed.
Lemma tatoeba_fine p : forallb (fine p (needs p) tatoeba) (firstn 3 body_tatoeba) = true.
Proof. destruct p as [[] [] [] []]; vm_compute; reflexivity. Qed.
Lemma tatoeba_stuck p : has_mapping p = false -> forallb (fine p (needs p) tatoeba) (firstn 4 body_tatoeba) = false.
Proof. destruct p as [[] [] [] []]; cbn [has_mapping]; intro H; try discriminate H; clear H; vm_compute; reflexivity. Qed.
Section All.
  Variable v : version.
  Variable depth : nat.
  Hypothesis Deep : (length source <= depth)%nat.
  Let p := python_of v.
  Let dists := requires v.
  Let M := modules_of p.
  Lemma M_deep : (length M <= depth)%nat.
  Proof. unfold M, modules_of. destruct (has_mapping p); vm_compute in Deep |- *; lia. Qed.
  Lemma all_facts : checked p dists M = true /\ forallb (ok_module p dists M (length M)) M = true /\ forallb inside M = true /\ forallb (fun x => mem x M) packages = true /\
    forallb (fun x => forallb (fun n => negb (dmem (x ++ [n]) source) || mem (x ++ [n]) M) (all_names x)) packages = true /\
    forallb (fun x => negb (forallb (fun n => mem n (names x) || dmem (x ++ [n]) source) (all_names x))) packages = true /\
    forallb (fun xb => mem (fst xb) (ordered ++ [tatoeba])) source = true.
  Proof.
    pose proof (all_checked_true p) as F. unfold all_checked in F. cbv zeta in F. fold M in F. unfold p in F. rewrite needs_of in F. fold p dists in F.
    repeat rewrite andb_true_iff in F. tauto.
  Qed.
  Definition sound (w : modules) : Prop := good M w.
  Lemma sound_module x w : In x M -> sound w -> exists w', import_module p dists depth x w = (w', Ok tt) /\ sound w' /\ complete w' x.
  Proof. pose proof all_facts as (A & B & C & D & E & F & G). intros I S. pose proof M_deep. eapply module_ok; eassumption. Qed.
  Lemma sound_star x w : In x packages -> sound w -> exists w', import_star p dists depth x w = (w', Raise AttributeError) /\ sound w'.
  Proof. pose proof all_facts as (A & B & C & D & E & F & G). intros I S. pose proof M_deep. eapply star_fails; eassumption. Qed.
  Lemma source_cases x body : dget x source = Some body -> In x M \/ (x = tatoeba /\ has_mapping p = false).
  Proof.
    intro H. pose proof all_facts as (_ & _ & _ & _ & _ & _ & G). rewrite forallb_forall in G. specialize (G _ (dget_In _ _ _ H)). apply mem_In in G. cbn [fst] in G.
    unfold M, modules_of. destruct (has_mapping p); [left; exact G|]. apply in_app_or in G. destruct G as [G | [<- | []]]; [left; exact G | right; split; reflexivity].
  Qed.
  Lemma tatoeba_out : has_mapping p = false -> ~ In tatoeba M.
  Proof. intros H I. unfold M, modules_of in I. rewrite H in I. apply mem_In in I. vm_compute in I. discriminate. Qed.
  Lemma sound_tatoeba w : has_mapping p = false -> sound w -> exists w', import_module p dists depth tatoeba w = (w', Raise ImportError) /\ sound w'.
  Proof.
    intros H S. unfold import_module, import_. change (inside tatoeba) with true. cbv iota.
    change (prefixes_from [] tatoeba) with [[u "cjktools"]; [u "cjktools"; u "resources"]; tatoeba]. cbn [load_all].
    assert (P1 : In [u "cjktools"] M) by (unfold M, modules_of; rewrite H; apply mem_In; vm_compute; reflexivity).
    assert (P2 : In [u "cjktools"; u "resources"] M) by (unfold M, modules_of; rewrite H; apply mem_In; vm_compute; reflexivity).
    pose proof all_facts as (A & B1 & C1 & D1 & F1 & G1 & H1). pose proof M_deep as MD.
    assert (L : forall x w, In x M -> inv M w (length M) -> exists w', load p dists depth w x = (w', Ok tt) /\ post M w w' /\ complete w' x)
      by (intros; eapply good_load; eassumption).
    destruct (L _ w P1 (proj1 S)) as (w1 & E1 & Po1 & _). rewrite E1.
    assert (S1 : sound w1) by (eapply good_post; [exact S | exact Po1 |]; pose proof (tidy_load p dists depth w [u "cjktools"] (proj2 (proj2 S))) as T; rewrite E1 in T; exact T).
    destruct (L _ w1 P2 (proj1 S1)) as (w2 & E2 & Po2 & _). rewrite E2.
    assert (S2 : sound w2) by (eapply good_post; [exact S1 | exact Po2 |]; pose proof (tidy_load p dists depth w1 [u "cjktools"; u "resources"] (proj2 (proj2 S1))) as T; rewrite E2 in T; exact T).
    assert (D : dget tatoeba w2 = None).
    { destruct (dget tatoeba w2) as [a|] eqn:D; [|reflexivity]. exfalso. apply (tatoeba_out H), (proj1 (proj2 S2)). unfold dmem. rewrite D. reflexivity. }
    destruct depth as [|d]; [vm_compute in Deep; lia|].
    rewrite (load_stops p dists d tatoeba 3 w2 body_tatoeba D eq_refl).
    - exists w2. split; [reflexivity | exact S2].
    - exact (tatoeba_outer p).
    - unfold dists. rewrite <- needs_of. exact (tatoeba_fine p).
    - unfold dists. rewrite <- needs_of. exact (tatoeba_stuck p H).
  Qed.
  Lemma sound_perform r w : known r -> sound w -> sound (fst (perform p dists depth r w)).
  Proof.
    destruct r as [x|x]; cbn [known perform].
    - intros [body B] S. destruct (source_cases x body B) as [I | [-> H]].
      + destruct (sound_module x w I S) as (w' & -> & S' & _). exact S'.
      + destruct (sound_tatoeba w H S) as (w' & -> & S'). exact S'.
    - intros I S. destruct (sound_star x w I S) as (w' & -> & S'). exact S'.
  Qed.
  Lemma sound_session l : Forall known l -> forall w, sound w -> sound (session p dists depth l w).
  Proof. induction 1 as [|r l K _ IH]; intros w S; cbn [session]; [exact S|]. apply IH, sound_perform; assumption. Qed.
  Lemma sound_start l : Forall known l -> sound (session p dists depth l []).
  Proof. intro K. apply sound_session; [exact K | apply good_nil]. Qed.
End All.

(** ** doing without a requirement *)
Definition canon (a b c : bool) : list str := (if a then [u "six"] else []) ++ (if b then [u "enum34"] else []) ++ (if c then [u "contextlib2>=0.5.3"] else []).
Definition canon_of (dists : list str) : list str := canon (mem (u "six") dists) (mem (u "enum34") dists) (mem (u "contextlib2>=0.5.3") dists).
Lemma outside_canon p dists : outside p dists = outside p (canon_of dists).
Proof. unfold outside, site, canon_of. destruct (mem (u "six") dists), (mem (u "enum34") dists), (mem (u "contextlib2>=0.5.3") dists); reflexivity. Qed.
Lemma there_canon p dists x n : there p dists x n = there p (canon_of dists) x n.
Proof. unfold there. rewrite outside_canon. reflexivity. Qed.
Lemma fine_canon p dists m s : fine p dists m s = fine p (canon_of dists) m s.
Proof.
  induction s as [x|level x ns|s IHs t IHt|n]; cbn [fine]; [rewrite outside_canon; reflexivity| |rewrite IHs, IHt; reflexivity | reflexivity].
  rewrite outside_canon. f_equal. induction ns as [|k ns IH]; cbn [forallb]; [reflexivity|]. rewrite there_canon, IH. reflexivity.
Qed.
Lemma fines_canon p dists m l : forallb (fine p dists m) l = forallb (fine p (canon_of dists) m) l.
Proof. induction l as [|s l IH]; cbn [forallb]; [reflexivity|]. rewrite fine_canon, IH. reflexivity. Qed.
Lemma top_stops p dists depth y n body : (2 <= depth)%nat -> dget [u "cjktools"; y] source = Some body ->
  forallb (outer p [u "cjktools"; y]) (firstn (S n) body) = true -> forallb (fine p (canon_of dists) [u "cjktools"; y]) (firstn n body) = true ->
  forallb (fine p (canon_of dists) [u "cjktools"; y]) (firstn (S n) body) = false -> snd (import_module p dists depth [u "cjktools"; y] []) = Raise ImportError.
Proof.
  intros D B O F X. destruct depth as [|[|d]]; [lia | lia|]. unfold import_module, import_.
  change (inside [u "cjktools"; y]) with true. cbv iota. change (prefixes_from [] [u "cjktools"; y]) with [[u "cjktools"]; [u "cjktools"; y]]. cbn [load_all].
  assert (E : load p dists (S (S d)) [] [u "cjktools"] = ([([u "cjktools"], [u "__all__"])], Ok tt)) by (vm_compute; reflexivity).
  rewrite E. rewrite (load_stops p dists (S d) _ n _ body); [reflexivity | | exact B | exact O | rewrite fines_canon; exact F | rewrite fines_canon; exact X].
  cbn [dget]. change (eqb [u "cjktools"; y] [u "cjktools"]) with false. reflexivity.
Qed.
Lemma without_six p dists depth : (2 <= depth)%nat -> mem (u "six") dists = false -> snd (import_module p dists depth [u "cjktools"; u "common"] []) = Raise ImportError.
Proof.
  intros D H. apply (top_stops p dists depth (u "common") 4 body_common D eq_refl); unfold canon_of; try rewrite H;
    destruct p as [[] [] [] []], (mem (u "enum34") dists), (mem (u "contextlib2>=0.5.3") dists); vm_compute; reflexivity.
Qed.
Lemma without_enum p dists depth : (2 <= depth)%nat -> has_enum p = false -> mem (u "enum34") dists = false -> snd (import_module p dists depth [u "cjktools"; u "scripts"] []) = Raise ImportError.
Proof.
  intros D E H. apply (top_stops p dists depth (u "scripts") 1 body_scripts D eq_refl); unfold canon_of; try rewrite H; revert E;
    destruct p as [[] [] [] []], (mem (u "six") dists), (mem (u "contextlib2>=0.5.3") dists); cbn [has_enum]; intro E; try discriminate E; clear E; vm_compute; reflexivity.
Qed.
Lemma without_stack p dists depth : (2 <= depth)%nat -> exit_stack p = false -> mem (u "contextlib2>=0.5.3") dists = false -> snd (import_module p dists depth [u "cjktools"; u "common"] []) = Raise ImportError.
Proof.
  intros D E H. destruct (mem (u "six") dists) eqn:S; [|apply without_six; assumption].
  apply (top_stops p dists depth (u "common") 10 body_common D eq_refl); unfold canon_of; try rewrite H; try rewrite S; revert E;
    destruct p as [[] [] [] []], (mem (u "enum34") dists); cbn [exit_stack]; intro E; try discriminate E; clear E; vm_compute; reflexivity.
Qed.
Lemma since_iff v a b : well_numbered v -> negb (before v a b 0) = true <-> since v a b.
Proof.
  intros [_ Mi]. unfold before, since. rewrite negb_true_iff, orb_false_iff, andb_false_iff, orb_false_iff, andb_false_iff.
  rewrite Z.eqb_neq, Z.eqb_neq, !Z.ltb_ge. lia.
Qed.

(** the errors of an import *)
Section Errors.
  Variable p : python.
  Variable dists : list str.
  Definition refused (e : exn) : Prop := e = ImportError \/ e = RecursionError.
  Section Step.
    Variable ld : dict (list str) (list str) -> list str -> dict (list str) (list str) * res unit.
    Hypothesis L : forall w m w' e, ld w m = (w', Raise e) -> refused e.
    Lemma load_all_errors l : forall w w' e, load_all ld l w = (w', Raise e) -> refused e.
    Proof.
      induction l as [|m l IH]; intros w w' e; cbn [load_all]; [discriminate|].
      destruct (ld w m) as [w1 [x|y]] eqn:E; [apply IH|]. intros [= <- <-]. exact (L _ _ _ _ E).
    Qed.
    Lemma import_errors x w w' e : import_ p dists ld x w = (w', Raise e) -> refused e.
    Proof. unfold import_. destruct (inside x); [apply load_all_errors|]. destruct (dmem _ _); [discriminate|]. intros [= _ <-]. left. reflexivity. Qed.
    Lemma import_name_errors x n w w' e : import_name p dists ld x n w = (w', Raise e) -> refused e.
    Proof.
      unfold import_name. destruct (inside x).
      - destruct (attr w x n); [discriminate|]. destruct (is_package x); [apply import_errors|]. intros [= _ <-]. left. reflexivity.
      - destruct (match dget x (outside p dists) with Some a => mem n a | None => false end); [discriminate|]. intros [= _ <-]. left. reflexivity.
    Qed.
    Lemma import_names_errors m x l : forall w w' e, import_names p dists ld m x l w = (w', Raise e) -> refused e.
    Proof.
      induction l as [|[n k] l IH]; intros w w' e; cbn [import_names]; [discriminate|].
      destruct (import_name p dists ld x n w) as [w1 [y|y]] eqn:E; [apply IH|]. intros [= <- <-]. exact (import_name_errors _ _ _ _ _ E).
    Qed.
    Lemma exec_errors m s : forall w w' e, exec p dists ld m s w = (w', Raise e) -> refused e.
    Proof.
      induction s as [x|lv x l|s IHs t IHt|n]; intros w w' e; cbn [exec].
      - destruct (import_ p dists ld _ w) as [w1 [y|y]] eqn:E; [discriminate|]. intros [= <- <-]. exact (import_errors _ _ _ _ E).
      - destruct (import_ p dists ld _ w) as [w1 [y|y]] eqn:E; [apply import_names_errors|]. intros [= <- <-]. exact (import_errors _ _ _ _ E).
      - destruct (exec p dists ld m s w) as [w1 [y|y]] eqn:E; [discriminate|]. pose proof (IHs _ _ _ E) as R.
        destruct y; try (intros [= <- <-]; exact R). apply IHt.
      - discriminate.
    Qed.
    Lemma exec_all_errors m l : forall w w' e, exec_all p dists ld m l w = (w', Raise e) -> refused e.
    Proof.
      induction l as [|s l IH]; intros w w' e; cbn [exec_all]; [discriminate|].
      destruct (exec p dists ld m s w) as [w1 [y|y]] eqn:E; [apply IH|]. intros [= <- <-]. exact (exec_errors _ _ _ _ _ E).
    Qed.
  End Step.
  Lemma load_errors d : forall w m w' e, load p dists d w m = (w', Raise e) -> refused e.
  Proof.
    induction d as [|d IH]; intros w m w' e; cbn [load]; (destruct (dmem m w); [discriminate|]); destruct (dget m source) as [body|]; try (intros [= _ <-]; left; reflexivity).
    - intros [= _ <-]. right. reflexivity.
    - destruct (exec_all p dists (load p dists d) m body (dset m [] w)) as [w1 [y|y]] eqn:E; [discriminate|]. intros [= <- <-]. exact (exec_all_errors _ IH _ _ _ _ _ E).
  Qed.
  Lemma module_errors d x w w' e : import_module p dists d x w = (w', Raise e) -> refused e.
  Proof. exact (import_errors _ (load_errors d) x w w' e). Qed.
  Lemma submodules_errors d x l : forall w w' e, star_submodules p dists d x l w = (w', Raise e) -> refused e.
  Proof.
    induction l as [|n l IH]; intros w w' e; cbn [star_submodules]; [discriminate|]. destruct (attr w x n); [apply IH|]. destruct (dmem _ source); [|apply IH].
    destruct (import_ p dists (load p dists d) (x ++ [n]) w) as [w1 [y|y]] eqn:E; [apply IH|]. intros [= <- <-]. exact (import_errors _ (load_errors d) _ _ _ _ E).
  Qed.
  Lemma star_errors d x w w' e : import_star p dists d x w = (w', Raise e) -> refused e \/ e = AttributeError.
  Proof.
    unfold import_star. destruct (import_module p dists d x w) as [w1 [y|y]] eqn:E; [|intros [= <- <-]; left; exact (module_errors _ _ _ _ _ E)].
    destruct (star_submodules p dists d x (all_names x) w1) as [w2 [z|z]] eqn:E2; [|intros [= <- <-]; left; exact (submodules_errors _ _ _ _ _ _ E2)].
    destruct (forallb _ _); [discriminate|]. intros [= _ <-]. right. reflexivity.
  Qed.
End Errors.
