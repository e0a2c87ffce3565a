(* CacheNest_proofs.v *)
From Verif Require Import Base PyStr Common_model SmartCache_model SmartCache_spec SmartCache_proofs CacheNest_model CacheNest_spec.
From Coq Require Import Permutation.

Lemma NoDup_dset_fs (q : list Z) (x : file) (st : dict (list Z) file) : NoDup (dkeys st) -> NoDup (dkeys (dset q x st)).
Proof. apply NoDup_dset. Qed.

Section Nest.
  Context {F O : Type}.
  Variable the : F -> cached F O.
  Variable set_order : list (option (list Z)) -> list (option (list Z)).
  Hypothesis order_ok : forall l, Permutation (set_order l) l.
  Variable oeq : O -> O -> bool.
  Variable none : O.
  Variable is_none : O -> bool.
  Variable dump : O -> list Z * option exn.
  Variable load : list Z -> option (O * list Z).
  Variable encode decode : list Z -> list Z -> list Z.
  Variable readable writable : list Z -> bool.
  Hypothesis pok : pickle_ok oeq none is_none dump load encode decode.
  Variable now : nat -> Z.
  Variable fate : nat -> option nat.
  Variable debug : bool.
  Variable show : list Z -> option exn.
  Hypothesis pro : proper the oeq.
  Hypothesis com : complete the.
  Notation exec := (exec the set_order oeq none is_none dump load encode decode readable writable now fate debug show).
  Notation store := (store dump encode writable now fate).
  Notation say := (say debug show).
  Notation evals := (evals the).
  Notation alike := (@CacheNest_spec.alike F O oeq).
  Notation within := (within the).
  Notation is_cache := (is_cache the).
  Notation read_cache := (read_cache oeq none load decode readable).
  Notation try_cache := (try_cache set_order oeq none load decode readable).
  Notation deps f := (dependencies (the f)).
  Notation file_of f := (cache_file (the f)).

  Let req := oeq_r oeq none is_none dump load encode decode pok.
  Let seq := oeq_s oeq none is_none dump load encode decode pok.
  Let teq := oeq_t oeq none is_none dump load encode decode pok.

  Lemma res_eq_trans (r1 r2 r3 : res O) : res_eq oeq r1 r2 -> res_eq oeq r2 r3 -> res_eq oeq r1 r3.
  Proof. intros A B; destruct A as [x y E|e]; inversion B as [x' y' E' X Y|e' X Y]; subst; constructor; exact (teq _ _ _ E E'). Qed.
  Lemma res_eq_refl (r : res O) : res_eq oeq r r.
  Proof. destruct r; constructor; apply req. Qed.

  Lemma evals_alike c p r : evals c p r -> forall q, alike p q -> exists r', evals c q r' /\ res_eq oeq r r'.
  Proof.
    induction 1 as [r|q k r E IH|f a p k v r E1 IH1 E2 IH2|f a p k e E IH]; intros q' A.
    - inversion A as [r1 r2 R| |]; subst; exists r2; split; [constructor|exact R].
    - inversion A as [|q1 k1 k2 K| ]; subst. destruct (IH _ (K (c q))) as (r' & E' & R). exists r'; split; [constructor; exact E'|exact R].
    - inversion A as [| |f1 a1 a2 p1 p2 k1 k2 Ea Ep K]; subst.
      destruct (IH1 _ (same_for_equal _ _ pro f a a2 p p2 Ea Ep)) as (r1 & E1' & R1). inversion R1 as [x y XY X Y|]; subst.
      destruct (IH2 _ (K v y XY)) as (r' & E' & R). exists r'; split; [econstructor; eassumption|exact R].
    - inversion A as [| |f1 a1 a2 p1 p2 k1 k2 Ea Ep K]; subst.
      destruct (IH _ (same_for_equal _ _ pro f a a2 p p2 Ea Ep)) as (r1 & E1' & R1). inversion R1; subst.
      eexists; split; [apply ev_fail; eassumption|constructor].
  Qed.
  Lemma evals_within c c' p r : evals c p r -> forall W, within W p -> (forall q, W q -> c q = c' q) -> evals c' p r.
  Proof.
    induction 1 as [r|q k r E IH|f a p k v r E1 IH1 E2 IH2|f a p k e E IH]; intros W I A.
    - constructor.
    - inversion I as [|q' k' Wq K|]; subst. constructor. rewrite <- (A q Wq). exact (IH W (K _) A).
    - inversion I as [| |f' a' p' k' D K]; subst.
      apply ev_call with v; [exact (IH1 _ (com f a p) (fun q Q => A q (D q Q)))|exact (IH2 W (K v) A)].
    - inversion I as [| |f' a' p' k' D K]; subst. apply ev_fail. exact (IH _ (com f a p) (fun q Q => A q (D q Q))).
  Qed.

  (** the caches are right, unless something newer or missing shows *)
  Definition inv (st : dict (list Z) file) : Prop := NoDup (dkeys st) /\
    forall f x, dget (file_of f) st = Some x ->
      (forall q, watched (deps f) q -> exists y, dget q st = Some y /\ mtime y <= mtime x) ->
      forall a p v, read_cache st (file_of f) a p = Some v -> is_none v = false ->
      exists v', evals (contents st) (method (the f) a p) (Ok v') /\ oeq v v' = true.

  Lemma not_cache f q : watched (deps f) q -> ~ is_cache q.
  Proof. intros W [g ->]. exact (no_source _ _ pro f g W). Qed.
  Definition same_sources (st st' : dict (list Z) file) : Prop := forall q, ~ is_cache q -> dget q st' = dget q st.
  Lemma same_contents st st' q : same_sources st st' -> ~ is_cache q -> contents st q = contents st' q.
  Proof. intros S N. unfold contents. rewrite (S q N). reflexivity. Qed.
  Lemma evals_same st st' p r W : same_sources st st' -> within W p -> (forall q, W q -> ~ is_cache q) ->
    evals (contents st) p r -> evals (contents st') p r.
  Proof. intros S I N E. apply (evals_within _ _ _ _ E W I). intros q Q. exact (same_contents _ _ _ S (N q Q)). Qed.
  Lemma same_sym st st' : same_sources st st' -> same_sources st' st.
  Proof. intros S q N. symmetry. exact (S q N). Qed.

  Lemma inv_write st q x : inv st -> noticed the st q x -> inv (dset q x st).
  Proof.
    intros [N I] [NC L]. split; [apply NoDup_dset_fs, N|]. intros f y D Fr a p v R V.
    assert (Q : q <> file_of f) by (intros ->; apply NC; exists f; reflexivity).
    rewrite dget_dset_other in D by congruence.
    assert (NW : ~ watched (deps f) q).
    { intro W. destruct (Fr q W) as (z & Dz & Lz). rewrite dget_dset_same in Dz. injection Dz as <-. pose proof (L f y W D). lia. }
    rewrite read_cache_load3 in R. rewrite dget_dset_other in R by congruence.
    destruct (I f y D) with (a := a) (p := p) (v := v) as (v' & E & Ev).
    - intros z Wz. destruct (Fr z Wz) as (g & Dg & Lg). rewrite dget_dset_other in Dg by (intros ->; contradiction). exists g; split; assumption.
    - rewrite read_cache_load3. exact R.
    - exact V.
    - exists v'; split; [|exact Ev]. apply (evals_within _ _ _ _ E _ (com f a p)).
      intros z Wz. unfold contents. rewrite dget_dset_other by (intros ->; contradiction). reflexivity.
  Qed.
  Lemma inv_remove st q : inv st -> inv (ddel q st).
  Proof.
    intros [N I]. split; [apply NoDup_ddel, N|]. intros f y D Fr a p v R V.
    rewrite dget_ddel in D by exact N. destruct (eqb_spec (file_of f) q) as [E|Q]; [discriminate|].
    assert (NW : ~ watched (deps f) q).
    { intro W. destruct (Fr q W) as (z & Dz & Lz). rewrite dget_ddel, eqb_refl in Dz by exact N. discriminate. }
    assert (OT : forall z, z <> q -> dget z (ddel q st) = dget z st).
    { intros z Z0. rewrite dget_ddel by exact N. destruct (eqb_spec z q) as [->|_]; [congruence|reflexivity]. }
    rewrite read_cache_load3, OT in R by exact Q.
    destruct (I f y D) with (a := a) (p := p) (v := v) as (v' & E & Ev).
    - intros z Wz. destruct (Fr z Wz) as (g & Dg & Lg). rewrite OT in Dg by (intros ->; contradiction). exists g; split; assumption.
    - rewrite read_cache_load3. exact R.
    - exact V.
    - exists v'; split; [|exact Ev]. apply (evals_within _ _ _ _ E _ (com f a p)).
      intros z Wz. unfold contents. rewrite OT by (intros ->; contradiction). reflexivity.
  Qed.
  Lemma dset_sources st f x : same_sources st (dset (file_of f) x st).
  Proof. intros q N. rewrite dget_dset_other; [reflexivity|]. intros ->. apply N. exists f. reflexivity. Qed.
  Lemma inv_store st f t a p v v' b rest : inv st -> evals (contents st) (method (the f) a p) (Ok v') -> oeq v v' = true ->
    fst (dump3 dump a p v) = decode (file_of f) b ++ rest -> inv (dset (file_of f) {| content := b; mtime := t |} st).
  Proof.
    intros [N I] E Ev D3. split; [apply NoDup_dset_fs, N|]. intros g y D Fr a1 p1 v1 R V.
    set (st' := dset (file_of f) {| content := b; mtime := t |} st) in *.
    assert (S : same_sources st st') by apply dset_sources.
    assert (X : exists v2, evals (contents st) (method (the g) a1 p1) (Ok v2) /\ oeq v1 v2 = true).
    { destruct (eqb_spec (file_of g) (file_of f)) as [Q|Q].
      - apply (own_file _ _ pro) in Q. subst g. subst st'. rewrite read_cache_load3 in R. rewrite dget_dset_same in R. cbn [content] in R.
        destruct (sopen_std (file_of f) (u "rb")); [discriminate|]. destruct (readable (file_of f)); [|discriminate].
        destruct (dump3 dump a p v) as [bb ee] eqn:D0. cbn [fst] in D3.
        destruct (load3_torn oeq none is_none dump load encode decode pok _ _ _ _ _ _ _ D0 D3 a1 p1) as [L|[L|(w & L & H1 & H2 & H3 & _)]]; rewrite L in R.
        + discriminate.
        + injection R as <-. rewrite (ok_none _ _ _ _ _ _ _ pok) in V. discriminate.
        + injection R as <-. destruct (evals_alike _ _ _ E _ (same_for_equal _ _ pro f a a1 p p1 H2 H3)) as (r' & E' & RE).
          inversion RE as [x0 y0 XY X0 Y0|]; subst. exists y0. split; [exact E'|]. exact (teq _ _ _ (teq _ _ _ H1 Ev) XY).
      - assert (OT : dget (file_of g) st' = dget (file_of g) st) by (subst st'; apply dget_dset_other; congruence).
        rewrite OT in D. rewrite read_cache_load3, OT in R.
        apply (I g y D); [|rewrite read_cache_load3; exact R|exact V].
        intros z Wz. destruct (Fr z Wz) as (h & Dh & Lh). rewrite (S z (not_cache _ _ Wz)) in Dh. exists h; split; assumption. }
    destruct X as (v2 & E2 & V2). exists v2. split; [|exact V2].
    exact (evals_same _ _ _ _ _ S (com g a1 p1) (not_cache g) E2).
  Qed.

  Lemma say_files w l w' r : say w l = (w', r) -> files w' = files w.
  Proof. unfold CacheNest_model.say. destruct debug; [destruct (show l)|]; intros E; injection E as <- <-; reflexivity. Qed.
  Lemma say_raise w l w' e : say w l = (w', Raise e) -> debug = true /\ show l = Some e.
  Proof. unfold CacheNest_model.say. destruct debug; [destruct (show l)|]; intros E; try discriminate; injection E as <- <-; split; reflexivity. Qed.

  Lemma store_right w f a p v v' w' o : inv (files w) -> evals (contents (files w)) (method (the f) a p) (Ok v') -> oeq v v' = true ->
    store w v (file_of f) a p = (w', o) -> inv (files w') /\ same_sources (files w) (files w').
  Proof.
    intros I E Ev. unfold CacheNest_model.store.
    destruct (fate (stores w)) as [n|].
    - intros X. injection X as <- <-. cbn [files].
      destruct (sopen_std (file_of f) (u "wb")); [split; [exact I|intros q _; reflexivity]|].
      destruct (writable (file_of f)); [|split; [exact I|intros q _; reflexivity]].
      split; [|apply dset_sources].
      set (b := encode (file_of f) (fst (dump3 dump a p v))).
      destruct (ok_torn _ _ _ _ _ _ _ pok (file_of f) (fst (dump3 dump a p v)) (firstn n b) (skipn n b)) as [t Et]; [symmetry; apply firstn_skipn|].
      exact (inv_store _ _ _ _ _ _ _ _ _ I E Ev Et).
    - unfold store_cache_object.
      destruct (sopen_std (file_of f) (u "wb")); [intros X; injection X as <- <-; split; [exact I|intros q _; reflexivity]|].
      destruct (writable (file_of f)); [|intros X; injection X as <- <-; split; [exact I|intros q _; reflexivity]].
      destruct (dump3 dump a p v) as [b e] eqn:D3. intros X; injection X as <- <-. cbn [files]. split; [|apply dset_sources].
      apply (inv_store _ _ _ _ _ _ _ _ [] I E Ev). rewrite D3, (ok_decode _ _ _ _ _ _ _ pok), app_nil_r. reflexivity.
  Qed.
  Lemma try_right st f a p c : inv st -> try_cache st (file_of f) a p (deps f) = Ok c -> is_none c = false ->
    exists v, evals (contents st) (method (the f) a p) (Ok v) /\ oeq c v = true.
  Proof.
    intros [N I] E NN; unfold SmartCache_model.try_cache in E.
    destruct (needs_update set_order st (file_of f) (deps f)) as [[|]|e] eqn:NU; cbn [bind] in E; [|  |discriminate].
    - injection E as <-; rewrite (ok_none _ _ _ _ _ _ _ pok) in NN; discriminate.
    - destruct (needs_update_false set_order order_ok _ _ _ NU) as [x [D Fr]].
      destruct (read_cache st (file_of f) a p) as [obj|] eqn:RC.
      + injection E as <-. exact (I f x D Fr a p obj RC NN).
      + injection E as <-; rewrite (ok_none _ _ _ _ _ _ _ pok) in NN; discriminate.
  Qed.

  Notation reliable := (reliable the writable dump debug show).
  Lemma reliable_same st st' : same_sources st st' -> reliable st -> reliable st'.
  Proof. intros S [A B C D E]. split; try assumption. intros f q W. rewrite (S q (not_cache _ _ W)). exact (E f q W). Qed.
  Lemma reliable_update st f : reliable st -> exists b, needs_update set_order st (file_of f) (deps f) = Ok b.
  Proof.
    intros R. destruct (dget (file_of f) st) as [x|] eqn:D; [|exists true; apply needs_update_missing; exact D].
    destruct (needs_update_iff set_order order_ok st (file_of f) (deps f) x D (rl_deps _ _ _ _ _ _ R f)) as [b [E _]]; [|exists b; exact E].
    intros q W. pose proof (rl_there _ _ _ _ _ _ R f q W) as T. destruct (dget q st) as [g|]; [exists g; reflexivity|congruence].
  Qed.
  Lemma try_total st f a p e : reliable st -> try_cache st (file_of f) a p (deps f) <> Raise e.
  Proof.
    intros R E. unfold SmartCache_model.try_cache in E. destruct (reliable_update st f R) as [b B]. rewrite B in E. cbn [bind] in E.
    destruct b; [discriminate|]. destruct (read_cache st (file_of f) a p); discriminate.
  Qed.
  Lemma std_minus name : sopen_std name (u "wb") = true -> name = u "-".
  Proof.
    unfold sopen_std, sopen; cbn zeta. destruct (endswith (u ".bz2") name); try discriminate; destruct (endswith (u ".gz") name); try discriminate.
    destruct (eqb_spec name (u "-")) as [-> | N]; [reflexivity|discriminate].
  Qed.
  Lemma store_total w f a p v w' e : reliable (files w) -> store w v (file_of f) a p <> (w', Some (Raise e)).
  Proof.
    intros R. unfold CacheNest_model.store. destruct (fate (stores w)); [discriminate|]. unfold store_cache_object.
    destruct (rl_files _ _ _ _ _ _ R f) as [Wr Mi]. destruct (sopen_std (file_of f) (u "wb")) eqn:SS; [destruct (Mi (std_minus _ SS))|].
    rewrite Wr. unfold dump3. pose proof (rl_dump _ _ _ _ _ _ R) as DU.
    destruct (dump a) as [b1 e1] eqn:D1. pose proof (DU a) as U1. rewrite D1 in U1. cbn [snd] in U1. subst e1.
    destruct (dump p) as [b2 e2] eqn:D2. pose proof (DU p) as U2. rewrite D2 in U2. cbn [snd] in U2. subst e2.
    destruct (dump v) as [b3 e3] eqn:D3. pose proof (DU v) as U3. rewrite D3 in U3. cbn [snd] in U3. subst e3. discriminate.
  Qed.

  Lemma alike_call f a p (k : O -> prog F O) : alike (Call f a p k) (Call f a p k) -> forall v v', oeq v v' = true -> alike (k v) (k v').
  Proof. intros A. inversion A; subst; assumption. Qed.
  Lemma alike_read q (k : option (list Z) -> prog F O) : alike (ReadFile q k) (ReadFile q k) -> forall x, alike (k x) (k x).
  Proof. intros A. inversion A; subst; assumption. Qed.
  Lemma alike_method f a p : alike (method (the f) a p) (method (the f) a p).
  Proof. apply (same_for_equal _ _ pro); apply req. Qed.

  Lemma exec_right n : forall w p w' o W, inv (files w) -> within W p -> (forall q, W q -> ~ is_cache q) -> alike p p ->
    exec n w p = Some (w', o) ->
    inv (files w') /\ same_sources (files w) (files w') /\
    forall r, o = Returned r -> (exists v, r = Ok v) \/ reliable (files w) ->
      exists r', evals (contents (files w)) p r' /\ res_eq oeq r r'.
  Proof.
    induction n as [|n IH]; intros w p w' o W I Wi NW A E; [discriminate|]. cbn [CacheNest_model.exec] in E.
    assert (stop : forall (e : exn) (x : world), files x = files w -> Some (x, Returned (Raise e)) = Some (w', o) ->
      ~ reliable (files w) -> inv (files w') /\ same_sources (files w) (files w') /\
      forall r, o = Returned r -> (exists v, r = Ok v) \/ reliable (files w) -> exists r', evals (contents (files w)) p r' /\ res_eq oeq r r').
    { intros e x X Y NR. injection Y as <- <-. rewrite X. split; [exact I|split; [intros q _; reflexivity|]].
      intros r R [[v V]|V]; [injection R as <-; discriminate|contradiction]. }
    destruct p as [r|q k|f a p k].
    - injection E as <- <-. split; [exact I|split; [intros q _; reflexivity|]]. intros r' R _. injection R as <-. exists r. split; [constructor|apply res_eq_refl].
    - inversion Wi as [|q' k' Wq K|]; subst. destruct (IH _ _ _ _ _ I (K _) NW (alike_read _ _ A _) E) as (I' & S & R).
      split; [exact I'|split; [exact S|]]. intros r Er C. destruct (R r Er C) as (r' & Ev & Eq). exists r'. split; [constructor; exact Ev|exact Eq].
    - inversion Wi as [| |f' a' p' k' D K]; subst. pose proof (alike_call _ _ _ _ A) as AK.
      destruct (try_cache (files w) (file_of f) a p (deps f)) as [c|e] eqn:TC.
      2:{ apply (stop e w eq_refl E). intros R. exact (try_total _ _ _ _ _ R TC). }
      destruct (is_none c) eqn:NC.
      + destruct (say w (u "[cache miss: " ++ basename (file_of f) ++ u "]")) as [w1 [[]|e]] eqn:S1.
        2:{ apply (stop e w1 (say_files _ _ _ _ S1) E). intros R. destruct (say_raise _ _ _ _ S1) as [T SH]. rewrite (rl_quiet _ _ _ _ _ _ R T) in SH. discriminate. }
        pose proof (say_files _ _ _ _ S1) as F1.
        destruct (exec n w1 (method (the f) a p)) as [[w2 o2]|] eqn:E2; [|discriminate].
        destruct (IH w1 (method (the f) a p) w2 o2 (watched (deps f))) as (I2 & SS2 & R2);
          [rewrite F1; exact I|apply com|apply not_cache|apply alike_method|exact E2|]. rewrite F1 in SS2, R2.
        destruct o2 as [[result|e]|].
        * destruct (R2 (Ok result) eq_refl) as (r1 & Ev1 & Eq1); [left; eexists; reflexivity|]. inversion Eq1 as [x y XY X Y|]; subst.
          destruct (say w2 (u "[storing: " ++ basename (file_of f) ++ u "]")) as [w3 [[]|e]] eqn:S3.
          2:{ pose proof (say_files _ _ _ _ S3) as F3. injection E as <- <-. rewrite F3. split; [exact I2|split; [exact SS2|]].
              intros r R [[v V]|V]; [injection R as <-; discriminate|].
              destruct (say_raise _ _ _ _ S3) as [T SH]. rewrite (rl_quiet _ _ _ _ _ _ V T) in SH. discriminate. }
          pose proof (say_files _ _ _ _ S3) as F3.
          pose proof (evals_same _ _ _ _ _ SS2 (com f a p) (not_cache f) Ev1) as Ev2. rewrite <- F3 in I2, SS2, Ev2.
          destruct (store w3 result (file_of f) a p) as [w4 o4] eqn:S4.
          destruct (store_right _ _ _ _ _ _ _ _ I2 Ev2 XY S4) as [I4 SS4].
          assert (SS : same_sources (files w) (files w4)) by (intros q N; rewrite (SS4 q N); exact (SS2 q N)).
          destruct o4 as [[[]|e]|].
          -- destruct (IH _ _ _ _ _ I4 (K result) NW (AK _ _ (req result)) E) as (I' & S & R).
             split; [exact I'|split; [intros q N; rewrite (S q N); exact (SS q N)|]]. intros r Er C.
             destruct (R r Er) as (r' & Ev & Eq); [destruct C as [C|C]; [left; exact C|right; exact (reliable_same _ _ SS C)]|].
             apply (evals_same _ (files w) _ _ _ (same_sym _ _ SS) (K result) NW) in Ev.
             destruct (evals_alike _ _ _ Ev _ (AK result y XY)) as (r'' & Ev'' & Eq'').
             exists r''. split; [exact (ev_call _ _ _ _ _ _ _ _ Ev1 Ev'')|exact (res_eq_trans _ _ _ Eq Eq'')].
          -- injection E as <- <-. split; [exact I4|split; [exact SS|]]. intros r R [[v V]|V]; [injection R as <-; discriminate|].
             exfalso. exact (store_total _ _ _ _ _ _ _ (reliable_same _ _ SS2 V) S4).
          -- injection E as <- <-. split; [exact I4|split; [exact SS|]]. intros r R; discriminate.
        * injection E as <- <-. split; [exact I2|split; [exact SS2|]]. intros r R C. injection R as <-.
          destruct (R2 (Raise e) eq_refl C) as (r1 & Ev1 & Eq1). inversion Eq1; subst. exists (Raise e). split; [apply ev_fail; exact Ev1|constructor].
        * injection E as <- <-. split; [exact I2|split; [exact SS2|]]. intros r R; discriminate.
      + destruct (say w (u "[cache hit: " ++ basename (file_of f) ++ u "]")) as [w1 [[]|e]] eqn:S1.
        2:{ apply (stop e w1 (say_files _ _ _ _ S1) E). intros R. destruct (say_raise _ _ _ _ S1) as [T SH]. rewrite (rl_quiet _ _ _ _ _ _ R T) in SH. discriminate. }
        pose proof (say_files _ _ _ _ S1) as F1.
        destruct (try_right _ _ _ _ _ I TC NC) as (v & Ev1 & Eq1).
        destruct (IH w1 (k c) w' o W) as (I' & S & R); [rewrite F1; exact I|exact (K c)|exact NW|exact (AK _ _ (req c))|exact E|]. rewrite F1 in S, R.
        split; [exact I'|split; [exact S|]]. intros r Er C. destruct (R r Er C) as (r' & Ev & Eq).
        destruct (evals_alike _ _ _ Ev _ (AK c v Eq1)) as (r'' & Ev'' & Eq'').
        exists r''. split; [exact (ev_call _ _ _ _ _ _ _ _ Ev1 Ev'')|exact (res_eq_trans _ _ _ Eq Eq'')].
  Qed.

  Lemma inv_reached (step : world -> world -> Prop) w : (forall w w', inv (files w) -> step w w' -> inv (files w')) -> reached the step w -> inv (files w).
  Proof.
    intros C R. induction R as [w N H|w w' R IH S|w q x R IH X|w q R IH]; cbn [files].
    - split; [exact N|]. intros f x D. rewrite H in D by (exists f; reflexivity). discriminate.
    - exact (C _ _ IH S).
    - exact (inv_write _ _ _ IH X).
    - exact (inv_remove _ _ IH).
  Qed.
  Notation calls_step := (some_call (call the set_order oeq none is_none dump load encode decode readable writable now fate debug show)).
  Lemma within_call f a p : within (watched (deps f)) (Call f a p (fun v => Ret (Ok v))).
  Proof. constructor; [auto|]. intros v. constructor. Qed.
  Lemma alike_top (f : F) (a p : O) : alike (Call f a p (fun v => Ret (Ok v))) (Call f a p (fun v => Ret (Ok v))).
  Proof. constructor; try apply req. intros v v' E. constructor. constructor. exact E. Qed.
  Lemma reached_inv w : reached the calls_step w -> inv (files w).
  Proof.
    apply inv_reached. intros x x' I (n & f & a & p & o & E).
    exact (proj1 (exec_right n x _ x' o _ I (within_call f a p) (not_cache f) (alike_top f a p) E)).
  Qed.
  Lemma evals_top c f a p r : evals c (Call f a p (fun v => Ret (Ok v))) r -> evals c (method (the f) a p) r.
  Proof. intros E. inversion E as [| |f' a' p' k v r' E1 E2|f' a' p' k e E1]; subst; [inversion E2; subst|]; assumption. Qed.
  Lemma call_right w n f a p w' r : reached the calls_step w -> exec n w (Call f a p (fun v => Ret (Ok v))) = Some (w', Returned r) ->
    (exists v, r = Ok v) \/ reliable (files w) -> exists r', evals (contents (files w)) (method (the f) a p) r' /\ res_eq oeq r r'.
  Proof.
    intros R E C. destruct (exec_right n w _ w' _ _ (reached_inv w R) (within_call f a p) (not_cache f) (alike_top f a p) E) as (_ & _ & X).
    destruct (X r eq_refl C) as (r' & Ev & Eq). exists r'. split; [exact (evals_top _ _ _ _ _ Ev)|exact Eq].
  Qed.

  (** ** Termination *)
  Lemma evals_det c p r : evals c p r -> forall r', evals c p r' -> r = r'.
  Proof.
    induction 1 as [r|q k r E IH|f a p k v r E1 IH1 E2 IH2|f a p k e E IH]; intros r' E'.
    - inversion E'; reflexivity.
    - inversion E'; subst. apply IH. assumption.
    - inversion E' as [| |f' a' p' k' v' r2 X1 X2|f' a' p' k' e X1]; subst; apply IH1 in X1; [injection X1 as <-; apply IH2; assumption|discriminate].
    - inversion E' as [| |f' a' p' k' v' r2 X1 X2|f' a' p' k' e' X1]; subst; apply IH in X1; [discriminate|congruence].
  Qed.
  Lemma exec_more n : forall w p x, exec n w p = Some x -> exec (S n) w p = Some x.
  Proof.
    induction n as [|n IH]; intros w p x E; [discriminate|].
    destruct p as [r|q k|f a p k].
    - exact E.
    - cbn [CacheNest_model.exec] in E. apply IH in E. exact E.
    - cbn [CacheNest_model.exec] in E.
      assert (G : forall m, exec (S m) w (Call f a p k) =
            match try_cache (files w) (file_of f) a p (deps f) with
            | Raise e => Some (w, Returned (Raise e))
            | Ok cached_val =>
                if is_none cached_val then
                  match say w (u "[cache miss: " ++ basename (file_of f) ++ u "]") with
                  | (w, Raise e) => Some (w, Returned (Raise e))
                  | (w, Ok _) =>
                      match exec m w (method (the f) a p) with
                      | Some (w, Returned (Ok result)) =>
                          match say w (u "[storing: " ++ basename (file_of f) ++ u "]") with
                          | (w, Raise e) => Some (w, Returned (Raise e))
                          | (w, Ok _) =>
                              match store w result (file_of f) a p with
                              | (w, None) => Some (w, Died)
                              | (w, Some (Raise e)) => Some (w, Returned (Raise e))
                              | (w, Some (Ok _)) => exec m w (k result)
                              end
                          end
                      | out => out
                      end
                  end
                else
                  match say w (u "[cache hit: " ++ basename (file_of f) ++ u "]") with
                  | (w, Raise e) => Some (w, Returned (Raise e))
                  | (w, Ok _) => exec m w (k cached_val)
                  end
            end) by reflexivity.
      rewrite G. clear G.
      destruct (try_cache (files w) (file_of f) a p (deps f)) as [c|e]; [|exact E].
      destruct (is_none c).
      + destruct (say w _) as [w1 [[]|e]]; [|exact E].
        destruct (exec n w1 (method (the f) a p)) as [[w2 o2]|] eqn:E2; [|discriminate]. rewrite (IH _ _ _ E2).
        destruct o2 as [[result|e]|]; try exact E.
        destruct (say w2 _) as [w3 [[]|e]]; [|exact E].
        destruct (store w3 result (file_of f) a p) as [w4 [[[]|e]|]]; try exact E. apply IH, E.
      + destruct (say w _) as [w1 [[]|e]]; [|exact E]. apply IH, E.
  Qed.
  Lemma exec_le n m w p x : (n <= m)%nat -> exec n w p = Some x -> exec m w p = Some x.
  Proof. intros L E. induction L as [|m L IH]; [exact E|]. apply exec_more, IH. Qed.

  Lemma exec_ends c p r : evals c p r -> forall w p' W, inv (files w) -> within W p' -> (forall q, W q -> ~ is_cache q) ->
    alike p' p -> alike p' p' -> (forall q, ~ is_cache q -> contents (files w) q = c q) -> exists n w' o, exec n w p' = Some (w', o).
  Proof.
    induction 1 as [r|q k r E IH|f a p k v r E1 IH1 E2 IH2|f a p k e E1 IH1]; intros w p' W I Wi NW A AA C.
    - inversion A as [r1 r2 R| |]; subst. exists 1%nat, w, (Returned r1). reflexivity.
    - inversion A as [|q1 k1 k2 K| ]; subst. inversion Wi as [|q' k' Wq Wk|]; subst.
      destruct (IH w (k1 (c q)) W I (Wk _) NW (K _) (alike_read _ _ AA _) C) as (n & w' & o & E').
      exists (S n), w', o. cbn [CacheNest_model.exec]. change (option_map content (dget q (files w))) with (contents (files w) q).
      rewrite (C q (NW q Wq)). exact E'.
    - inversion A as [| |f1 a1 a2 p1 p2 k1 k2 Ea Ep K]; subst. inversion Wi as [| |f' a' p' k' D Wk]; subst. pose proof (alike_call _ _ _ _ AA) as AK.
      pose proof (same_for_equal _ _ pro f a1 a p1 p Ea Ep) as AM.
      assert (VAL : forall v1, evals c (method (the f) a1 p1) (Ok v1) -> oeq v1 v = true).
      { intros v1 X. destruct (evals_alike _ _ _ X _ AM) as (r1 & X1 & R1). rewrite <- (evals_det _ _ _ E1 _ X1) in R1. inversion R1; subst; assumption. }
      assert (EC : forall st r1, (forall q, ~ is_cache q -> contents st q = c q) -> evals (contents st) (method (the f) a1 p1) r1 -> evals c (method (the f) a1 p1) r1).
      { intros st r1 Cs X. apply (evals_within _ _ _ _ X _ (com f a1 p1)). intros q Q. exact (Cs q (not_cache _ _ Q)). }
      destruct (try_cache (files w) (file_of f) a1 p1 (deps f)) as [c0|e0] eqn:TC.
      2:{ exists 1%nat, w, (Returned (Raise e0)). cbn [CacheNest_model.exec]. rewrite TC. reflexivity. }
      destruct (is_none c0) eqn:NC.
      + destruct (say w (u "[cache miss: " ++ basename (file_of f) ++ u "]")) as [w1 [[]|e0]] eqn:S1.
        2:{ exists 1%nat, w1, (Returned (Raise e0)). cbn [CacheNest_model.exec]. rewrite TC, NC, S1. reflexivity. }
        pose proof (say_files _ _ _ _ S1) as F1. rewrite <- F1 in I, C.
        destruct (IH1 w1 _ _ I (com f a1 p1) (not_cache f) AM (alike_method f a1 p1) C) as (n1 & w2 & o2 & X2).
        destruct (exec_right _ _ _ _ _ _ I (com f a1 p1) (not_cache f) (alike_method f a1 p1) X2) as (I2 & SS2 & R2).
        destruct o2 as [[result|e0]|].
        * destruct (R2 (Ok result) eq_refl) as (r1 & Ev1 & Eq1); [left; eexists; reflexivity|]. inversion Eq1 as [x y XY X Y|]; subst.
          destruct (say w2 (u "[storing: " ++ basename (file_of f) ++ u "]")) as [w3 [[]|e0]] eqn:S3.
          2:{ exists (S n1), w3, (Returned (Raise e0)). cbn [CacheNest_model.exec]. rewrite TC, NC, S1, X2, S3. reflexivity. }
          pose proof (say_files _ _ _ _ S3) as F3.
          pose proof (evals_same _ _ _ _ _ SS2 (com f a1 p1) (not_cache f) Ev1) as Ev2. rewrite <- F3 in I2, SS2, Ev2.
          destruct (store w3 result (file_of f) a1 p1) as [w4 o4] eqn:S4.
          destruct (store_right _ _ _ _ _ _ _ _ I2 Ev2 XY S4) as [I4 SS4].
          destruct o4 as [[[]|e0]|].
          -- assert (C4 : forall q, ~ is_cache q -> contents (files w4) q = c q).
             { intros q N. rewrite <- (C q N). unfold contents. rewrite (SS4 q N), (SS2 q N). reflexivity. }
             pose proof (teq _ _ _ XY (VAL y (EC _ _ C Ev1))) as RV.
             destruct (IH2 w4 (k1 result) W I4 (Wk _) NW (K _ _ RV) (AK _ _ (req _)) C4) as (n2 & w' & o & X').
             exists (S (Nat.max n1 n2)), w', o. cbn [CacheNest_model.exec]. rewrite TC, NC, S1.
             rewrite (exec_le n1 _ _ _ _ (Nat.le_max_l _ _) X2), S3, S4. exact (exec_le n2 _ _ _ _ (Nat.le_max_r _ _) X').
          -- exists (S n1), w4, (Returned (Raise e0)). cbn [CacheNest_model.exec]. rewrite TC, NC, S1, X2, S3, S4. reflexivity.
          -- exists (S n1), w4, Died. cbn [CacheNest_model.exec]. rewrite TC, NC, S1, X2, S3, S4. reflexivity.
        * exists (S n1), w2, (Returned (Raise e0)). cbn [CacheNest_model.exec]. rewrite TC, NC, S1, X2. reflexivity.
        * exists (S n1), w2, Died. cbn [CacheNest_model.exec]. rewrite TC, NC, S1, X2. reflexivity.
      + destruct (say w (u "[cache hit: " ++ basename (file_of f) ++ u "]")) as [w1 [[]|e0]] eqn:S1.
        2:{ exists 1%nat, w1, (Returned (Raise e0)). cbn [CacheNest_model.exec]. rewrite TC, NC, S1. reflexivity. }
        destruct (try_right _ _ _ _ _ I TC NC) as (v1 & Ev1 & Eq1).
        pose proof (teq _ _ _ Eq1 (VAL v1 (EC _ _ C Ev1))) as RV.
        pose proof (say_files _ _ _ _ S1) as F1. rewrite <- F1 in I, C.
        destruct (IH2 w1 (k1 c0) W I (Wk _) NW (K _ _ RV) (AK _ _ (req _)) C) as (n2 & w' & o & X').
        exists (S n2), w', o. cbn [CacheNest_model.exec]. rewrite TC, NC, S1. exact X'.
    - inversion A as [| |f1 a1 a2 p1 p2 k1 k2 Ea Ep K]; subst. inversion Wi as [| |f' a' p' k' D Wk]; subst.
      pose proof (same_for_equal _ _ pro f a1 a p1 p Ea Ep) as AM.
      assert (VAL : forall v1, ~ evals c (method (the f) a1 p1) (Ok v1)).
      { intros v1 X. destruct (evals_alike _ _ _ X _ AM) as (r1 & X1 & R1). rewrite <- (evals_det _ _ _ E1 _ X1) in R1. inversion R1. }
      assert (EC : forall st r1, (forall q, ~ is_cache q -> contents st q = c q) -> evals (contents st) (method (the f) a1 p1) r1 -> evals c (method (the f) a1 p1) r1).
      { intros st r1 Cs X. apply (evals_within _ _ _ _ X _ (com f a1 p1)). intros q Q. exact (Cs q (not_cache _ _ Q)). }
      destruct (try_cache (files w) (file_of f) a1 p1 (deps f)) as [c0|e0] eqn:TC.
      2:{ exists 1%nat, w, (Returned (Raise e0)). cbn [CacheNest_model.exec]. rewrite TC. reflexivity. }
      destruct (is_none c0) eqn:NC.
      + destruct (say w (u "[cache miss: " ++ basename (file_of f) ++ u "]")) as [w1 [[]|e0]] eqn:S1.
        2:{ exists 1%nat, w1, (Returned (Raise e0)). cbn [CacheNest_model.exec]. rewrite TC, NC, S1. reflexivity. }
        pose proof (say_files _ _ _ _ S1) as F1. rewrite <- F1 in I, C.
        destruct (IH1 w1 _ _ I (com f a1 p1) (not_cache f) AM (alike_method f a1 p1) C) as (n1 & w2 & o2 & X2).
        destruct (exec_right _ _ _ _ _ _ I (com f a1 p1) (not_cache f) (alike_method f a1 p1) X2) as (I2 & SS2 & R2).
        destruct o2 as [[result|e0]|].
        * destruct (R2 (Ok result) eq_refl) as (r1 & Ev1 & Eq1); [left; eexists; reflexivity|]. inversion Eq1 as [x y XY X Y|]; subst.
          destruct (VAL y (EC _ _ C Ev1)).
        * exists (S n1), w2, (Returned (Raise e0)). cbn [CacheNest_model.exec]. rewrite TC, NC, S1, X2. reflexivity.
        * exists (S n1), w2, Died. cbn [CacheNest_model.exec]. rewrite TC, NC, S1, X2. reflexivity.
      + destruct (try_right _ _ _ _ _ I TC NC) as (v1 & Ev1 & Eq1). destruct (VAL v1 (EC _ _ C Ev1)).
  Qed.
  Lemma call_ends w f a p r : reached the calls_step w -> evals (contents (files w)) (method (the f) a p) r ->
    exists n w' o, exec n w (Call f a p (fun v => Ret (Ok v))) = Some (w', o).
  Proof.
    intros R E. assert (E' : exists r', evals (contents (files w)) (Call f a p (fun v => Ret (Ok v))) r').
    { destruct r as [v|e]; [exists (Ok v); apply ev_call with v; [exact E|constructor]|exists (Raise e); apply ev_fail; exact E]. }
    destruct E' as [r' E'].
    exact (exec_ends _ _ _ E' w _ _ (reached_inv w R) (within_call f a p) (not_cache f) (alike_top f a p) (alike_top f a p) (fun q _ => eq_refl)).
  Qed.
End Nest.

(** ** What is printed *)
Section Debug.
  Context {F O : Type}.
  Variable the : F -> cached F O.
  Variable set_order : list (option (list Z)) -> list (option (list Z)).
  Variable oeq : O -> O -> bool.
  Variable none : O.
  Variable is_none : O -> bool.
  Variable dump : O -> list Z * option exn.
  Variable load : list Z -> option (O * list Z).
  Variable encode decode : list Z -> list Z -> list Z.
  Variable readable writable : list Z -> bool.
  Variable now : nat -> Z.
  Variable fate : nat -> option nat.
  Notation exec := (exec the set_order oeq none is_none dump load encode decode readable writable now fate).
  Notation store := (store dump encode writable now fate).
  Notation try_cache := (try_cache set_order oeq none load decode readable).
  Notation deps f := (dependencies (the f)).
  Notation file_of f := (cache_file (the f)).

  Lemma store_same w w0 v f a p : same_state w w0 ->
    snd (store w v f a p) = snd (store w0 v f a p) /\ same_state (fst (store w v f a p)) (fst (store w0 v f a p)).
  Proof.
    intros [S Fi]. unfold CacheNest_model.store. rewrite S, Fi. destruct (fate (stores w0)); [repeat split|].
    destruct (store_cache_object dump encode writable (files w0) (now (stores w0)) v f a p) as [st r]. repeat split.
  Qed.
  Lemma exec_same show show' n : (forall l, show l = None) -> forall w w0 p, same_state w w0 ->
    match exec true show n w p, exec false show' n w0 p with
    | Some (w', o), Some (w0', o') => o = o' /\ same_state w' w0'
    | None, None => True
    | _, _ => False
    end.
  Proof.
    intros Sh. induction n as [|n IH]; intros w w0 p SS; [exact I|]. cbn [CacheNest_model.exec].
    destruct p as [r|q k|f a p k].
    - split; [reflexivity|exact SS].
    - replace (files w0) with (files w) by apply SS. apply IH, SS.
    - replace (files w0) with (files w) by apply SS.
      assert (SAY : forall w l, say true show w l = (World (stores w) (files w) (printed w ++ [l]), Ok tt)) by (intros w1 l; unfold CacheNest_model.say; rewrite Sh; reflexivity).
      assert (SAY' : forall w l, say false show' w l = (w, Ok tt)) by reflexivity.
      destruct (try_cache (files w) (file_of f) a p (deps f)) as [c|e]; [|split; [reflexivity|exact SS]].
      destruct (is_none c); rewrite SAY, SAY'.
      + specialize (IH (World (stores w) (files w) (printed w ++ [u "[cache miss: " ++ basename (file_of f) ++ u "]"])) w0 (method (the f) a p) SS) as IH1.
        destruct (exec true show n _ (method (the f) a p)) as [[w2 o2]|]; destruct (exec false show' n w0 (method (the f) a p)) as [[w2' o2']|];
          try destruct IH1; try exact I; subst. 
        destruct o2' as [[result|e]|]; try (split; [reflexivity|assumption]).
        rewrite SAY, SAY'.
        match goal with SS2 : same_state w2 w2' |- _ =>
          pose proof (store_same (World (stores w2) (files w2) (printed w2 ++ [u "[storing: " ++ basename (file_of f) ++ u "]"])) w2' result (file_of f) a p SS2) as [ST ST'] end.
        destruct (store _ result (file_of f) a p) as [w4 o4]; destruct (store w2' result (file_of f) a p) as [w4' o4']. cbn [fst snd] in ST, ST'. subst o4'.
        destruct o4 as [[[]|e]|]; try (split; [reflexivity|exact ST']). apply IH, ST'.
      + apply IH. exact SS.
  Qed.
  Lemma exec_quiet show n : forall w p w' o, exec false show n w p = Some (w', o) -> printed w' = printed w.
  Proof.
    induction n as [|n IH]; intros w p w' o E; [discriminate|]. cbn [CacheNest_model.exec] in E.
    destruct p as [r|q k|f a p k].
    - injection E as <- <-. reflexivity.
    - exact (IH _ _ _ _ E).
    - assert (SAY' : forall w l, say false show w l = (w, Ok tt)) by reflexivity. rewrite !SAY' in E.
      destruct (try_cache (files w) (file_of f) a p (deps f)) as [c|e]; [|injection E as <- <-; reflexivity].
      destruct (is_none c); [|exact (IH _ _ _ _ E)].
      destruct (exec false show n w (method (the f) a p)) as [[w2 o2]|] eqn:E2; [|discriminate]. apply IH in E2.
      destruct o2 as [[result|e]|]; try (injection E as <- <-; exact E2). rewrite SAY' in E.
      assert (ST : forall w4 o4, store w2 result (file_of f) a p = (w4, o4) -> printed w4 = printed w2).
      { intros w4 o4. unfold CacheNest_model.store. destruct (fate (stores w2)); [intros X; injection X as <- <-; reflexivity|].
        destruct (store_cache_object dump encode writable (files w2) (now (stores w2)) result (file_of f) a p) as [st r]. intros X; injection X as <- <-; reflexivity. }
      destruct (store w2 result (file_of f) a p) as [w4 o4] eqn:S4. specialize (ST _ _ eq_refl). rewrite E2 in ST.
      destruct o4 as [[[]|e]|]; try (injection E as <- <-; exact ST). rewrite <- ST. exact (IH _ _ _ _ E).
  Qed.
  Lemma store_printed w v f a p w' r : store w v f a p = (w', Some r) -> printed w' = printed w /\ stores w' = S (stores w).
  Proof.
    unfold CacheNest_model.store. destruct (fate (stores w)); [discriminate|].
    destruct (store_cache_object dump encode writable (files w) (now (stores w)) v f a p) as [st r']. intros X; injection X as <- <-; split; reflexivity.
  Qed.
  Lemma say_true show w l w' : say true show w l = (w', Ok tt) -> w' = World (stores w) (files w) (printed w ++ [l]).
  Proof. unfold CacheNest_model.say. destruct (show l); [discriminate|]. intros X; injection X as <-. reflexivity. Qed.
  Lemma exec_told show n : forall w p w' v, exec true show n w p = Some (w', Returned (Ok v)) ->
    exists m ls, printed w' = printed w ++ ls /\ told_lines the m ls /\ stores w' = (stores w + m)%nat.
  Proof.
    induction n as [|n IH]; intros w p w' v E; [discriminate|]. cbn [CacheNest_model.exec] in E.
    destruct p as [r|q k|f a p k].
    - injection E as <- _. exists 0%nat, []. rewrite app_nil_r, Nat.add_0_r. repeat split. constructor.
    - exact (IH _ _ _ _ E).
    - destruct (try_cache (files w) (file_of f) a p (deps f)) as [c|e]; [|discriminate].
      destruct (is_none c).
      + destruct (say true show w _) as [w1 [[]|e]] eqn:S1 in E; [|discriminate]. apply say_true in S1. subst w1.
        destruct (exec true show n _ (method (the f) a p)) as [[w2 [[result|e]|]]|] eqn:E2 in E; try discriminate.
        destruct (IH _ _ _ _ E2) as (m1 & l1 & P1 & T1 & N1). cbn [printed stores] in P1, N1.
        destruct (say true show w2 _) as [w3 [[]|e]] eqn:S3 in E; [|discriminate]. apply say_true in S3. subst w3.
        destruct (store _ result (file_of f) a p) as [w4 [[[]|e]|]] eqn:S4 in E; try discriminate.
        apply store_printed in S4. destruct S4 as [P4 N4]. cbn [printed stores] in P4, N4.
        destruct (IH _ _ _ _ E) as (m2 & l2 & P2 & T2 & N2).
        exists (m1 + S m2)%nat, ((u "[cache miss: " ++ basename (file_of f) ++ u "]") :: l1 ++ (u "[storing: " ++ basename (file_of f) ++ u "]") :: l2).
        split; [|split; [apply tl_miss; assumption|lia]].
        rewrite P2, P4, P1, <- !app_assoc. reflexivity.
      + destruct (say true show w _) as [w1 [[]|e]] eqn:S1 in E; [|discriminate]. apply say_true in S1. subst w1.
        destruct (IH _ _ _ _ E) as (m & l & P & T & N). cbn [printed stores] in P, N.
        exists m, ((u "[cache hit: " ++ basename (file_of f) ++ u "]") :: l). split; [|split; [apply tl_hit; exact T|exact N]].
        rewrite P, <- app_assoc. reflexivity.
  Qed.
  (** a call from outside *)
  Lemma call_told show n w f a p w' v : exec true show n w (Call f a p (fun v => Ret (Ok v))) = Some (w', Returned (Ok v)) ->
    (printed w' = printed w ++ [u "[cache hit: " ++ basename (file_of f) ++ u "]"] /\ same_state w' w) \/
    exists m inner, printed w' = printed w ++ (u "[cache miss: " ++ basename (file_of f) ++ u "]") :: inner ++ [u "[storing: " ++ basename (file_of f) ++ u "]"] /\
      told_lines the m inner /\ stores w' = (stores w + S m)%nat.
  Proof.
    destruct n as [|n]; [discriminate|]. intros E. cbn [CacheNest_model.exec] in E.
    destruct (try_cache (files w) (file_of f) a p (deps f)) as [c|e]; [|discriminate].
    destruct (is_none c).
    - right. destruct (say true show w _) as [w1 [[]|e]] eqn:S1 in E; [|discriminate]. apply say_true in S1. subst w1.
      destruct (exec true show n _ (method (the f) a p)) as [[w2 [[result|e]|]]|] eqn:E2 in E; try discriminate.
      destruct (exec_told show n _ _ _ _ E2) as (m1 & l1 & P1 & T1 & N1). cbn [printed stores] in P1, N1.
      destruct (say true show w2 _) as [w3 [[]|e]] eqn:S3 in E; [|discriminate]. apply say_true in S3. subst w3.
      destruct (store _ result (file_of f) a p) as [w4 [[[]|e]|]] eqn:S4 in E; try discriminate.
      apply store_printed in S4. destruct S4 as [P4 N4]. cbn [printed stores] in P4, N4.
      destruct n as [|n]; [discriminate|]. cbn [CacheNest_model.exec] in E. injection E as <- _.
      exists m1, l1. split; [|split; [exact T1|lia]]. rewrite P4, P1, <- !app_assoc. reflexivity.
    - left. destruct (say true show w _) as [w1 [[]|e]] eqn:S1 in E; [|discriminate]. apply say_true in S1. subst w1.
      destruct n as [|n]; [discriminate|]. cbn [CacheNest_model.exec] in E. injection E as <- _. split; [reflexivity|split; reflexivity].
  Qed.
  (** whatever the outcome *)
  Lemma exec_told_any show n : forall w p w' o, exec true show n w p = Some (w', o) ->
    exists ls, printed w' = printed w ++ ls /\ exists m rest, told_lines the m (ls ++ rest).
  Proof.
    induction n as [|n IH]; intros w p w' o E; [discriminate|]. cbn [CacheNest_model.exec] in E. destruct p as [r|q k|f a p k].
    - injection E as <- <-. exists []. split; [symmetry; apply app_nil_r|]. exists 0%nat, []. constructor.
    - exact (IH _ _ _ _ E).
    - destruct (try_cache (files w) (file_of f) a p (deps f)) as [c|e].
      2:{ injection E as <- <-. exists []. split; [symmetry; apply app_nil_r|]. exists 0%nat, []. constructor. }
      assert (SN : forall w l w1 e, say true show w l = (w1, Raise e) -> w1 = w)
        by (intros x l w1 e; unfold CacheNest_model.say; destruct (show l); intros X; [injection X as <- _; reflexivity | discriminate]).
      destruct (is_none c).
      + destruct (say true show w _) as [w1 [[]|e]] eqn:S1 in E.
        2:{ injection E as <- <-. rewrite (SN _ _ _ _ S1). exists []. split; [symmetry; apply app_nil_r|]. exists 0%nat, []. constructor. }
        apply say_true in S1. subst w1.
        destruct (exec true show n _ (method (the f) a p)) as [[w2 o2]|] eqn:E2 in E; [|discriminate].
        destruct (IH _ _ _ _ E2) as (l1 & P1 & m1 & r1 & T1). cbn [printed] in P1.
        assert (open : exists ls, printed w2 = printed w ++ ls /\ exists m rest, told_lines the m (ls ++ rest)).
        { exists ((u "[cache miss: " ++ basename (file_of f) ++ u "]") :: l1). split; [rewrite P1, <- app_assoc; reflexivity|].
          exists (m1 + 1)%nat, (r1 ++ [u "[storing: " ++ basename (file_of f) ++ u "]"]). cbn [app]. rewrite (app_assoc l1 r1 _).
          apply (tl_miss the f m1 (l1 ++ r1) 0 []); [exact T1 | constructor]. }
        destruct o2 as [[result|e]|]; [|injection E as <- <-; exact open|injection E as <- <-; exact open].
        destruct (exec_told show n _ _ _ _ E2) as (m2 & l2 & P2 & T2 & _). cbn [printed] in P2.
        destruct (say true show w2 _) as [w3 [[]|e]] eqn:S3 in E; [|injection E as <- <-; rewrite (SN _ _ _ _ S3); exact open].
        apply say_true in S3. subst w3.
        assert (PS : forall w4 x, store (World (stores w2) (files w2) (printed w2 ++ [u "[storing: " ++ basename (file_of f) ++ u "]"])) result (file_of f) a p = (w4, x) ->
          printed w4 = printed w ++ (u "[cache miss: " ++ basename (file_of f) ++ u "]") :: l2 ++ [u "[storing: " ++ basename (file_of f) ++ u "]"]).
        { intros w4 x. unfold CacheNest_model.store. cbn [stores files printed]. rewrite P2, <- !app_assoc. cbn [app].
          destruct (fate (stores w2)); [intros X; injection X as <- _; reflexivity|].
          destruct (store_cache_object dump encode writable (files w2) (now (stores w2)) result (file_of f) a p) as [st r]. intros X; injection X as <- _; reflexivity. }
        destruct (store _ result (file_of f) a p) as [w4 [[[]|e]|]] eqn:S4 in E.
        * destruct (IH _ _ _ _ E) as (l3 & P3 & m3 & r3 & T3). rewrite (PS _ _ S4) in P3.
          exists ((u "[cache miss: " ++ basename (file_of f) ++ u "]") :: l2 ++ (u "[storing: " ++ basename (file_of f) ++ u "]") :: l3).
          split; [rewrite P3, <- app_assoc; cbn [app]; rewrite <- app_assoc; reflexivity|]. exists (m2 + S m3)%nat, r3.
          cbn [app]. rewrite <- app_assoc. cbn [app]. apply tl_miss; assumption.
        * injection E as <- <-. eexists. split; [exact (PS _ _ S4)|]. exists (m2 + 1)%nat, []. rewrite app_nil_r. apply (tl_miss the f m2 l2 0 []); [exact T2 | constructor].
        * injection E as <- <-. eexists. split; [exact (PS _ _ S4)|]. exists (m2 + 1)%nat, []. rewrite app_nil_r. apply (tl_miss the f m2 l2 0 []); [exact T2 | constructor].
      + destruct (say true show w _) as [w1 [[]|e]] eqn:S1 in E.
        2:{ injection E as <- <-. rewrite (SN _ _ _ _ S1). exists []. split; [symmetry; apply app_nil_r|]. exists 0%nat, []. constructor. }
        apply say_true in S1. subst w1.
        destruct (IH _ _ _ _ E) as (l & P & m & r & T). cbn [printed] in P.
        exists ((u "[cache hit: " ++ basename (file_of f) ++ u "]") :: l). split; [rewrite P, <- app_assoc; reflexivity|]. exists m, r. apply tl_hit. exact T.
  Qed.
End Debug.

(** ** The next call *)
Section Again.
  Context {F O : Type}.
  Variable the : F -> cached F O.
  Variable set_order : list (option (list Z)) -> list (option (list Z)).
  Hypothesis order_ok : forall l, Permutation (set_order l) l.
  Variable oeq : O -> O -> bool.
  Variable none : O.
  Variable is_none : O -> bool.
  Variable dump : O -> list Z * option exn.
  Variable load : list Z -> option (O * list Z).
  Variable encode decode : list Z -> list Z -> list Z.
  Variable readable writable : list Z -> bool.
  Hypothesis pok : pickle_ok oeq none is_none dump load encode decode.
  Variable now : nat -> Z.
  Variable fate : nat -> option nat.
  Variable debug : bool.
  Variable show : list Z -> option exn.
  Notation exec := (exec the set_order oeq none is_none dump load encode decode readable writable now fate debug show).
  Notation store := (store dump encode writable now fate).
  Notation say := (say debug show).
  Notation try_cache := (try_cache set_order oeq none load decode readable).
  Notation deps f := (dependencies (the f)).
  Notation file_of f := (cache_file (the f)).

  Lemma store_ok w v f a p w' : store w v f a p = (w', Some (Ok tt)) ->
    store_cache_object dump encode writable (files w) (now (stores w)) v f a p = (files w', Ok tt).
  Proof.
    unfold CacheNest_model.store. destruct (fate (stores w)); [discriminate|].
    destruct (store_cache_object dump encode writable (files w) (now (stores w)) v f a p) as [st r']. intros X; injection X as <- ->. reflexivity.
  Qed.
  (** what the cache answers after a call that returned [v] *)
  Lemma call_leaves n w f a p w' v : exec n w (Call f a p (fun v => Ret (Ok v))) = Some (w', Returned (Ok v)) ->
    is_none v = false -> readable (file_of f) = true ->
    (exists x, dget (file_of f) (files w') = Some x) /\
    exists v', oeq v' v = true /\ forall a' p', oeq a a' = true -> oeq p p' = true ->
      needs_update set_order (files w') (file_of f) (deps f) = Ok false -> try_cache (files w') (file_of f) a' p' (deps f) = Ok v'.
  Proof.
    destruct n as [|n]; [discriminate|]. intros E N R. cbn [CacheNest_model.exec] in E.
    destruct (try_cache (files w) (file_of f) a p (deps f)) as [c|e] eqn:T; [|discriminate].
    destruct (is_none c) eqn:Nc.
    - destruct (say w _) as [w1 [[]|e]] in E; [|discriminate].
      destruct (exec n w1 (method (the f) a p)) as [[w2 [[result|e]|]]|] in E; try discriminate.
      destruct (say w2 _) as [w3 [[]|e]] in E; [|discriminate].
      destruct (store w3 result (file_of f) a p) as [w4 [[[]|e]|]] eqn:S4 in E; try discriminate.
      destruct n as [|n]; [discriminate|]. cbn [CacheNest_model.exec] in E. injection E as <- <-.
      apply store_ok in S4. split.
      + destruct (store_inv dump encode writable _ _ _ _ _ _ _ S4) as [_ [_ [b [_ ->]]]]. eexists. apply dget_dset_same.
      + destruct (store_try set_order oeq none is_none dump load encode decode readable writable pok _ _ _ _ _ _ _ S4 R) as [_ [v' [Ev TC]]].
        exists v'. split; [exact Ev|]. intros a' p' Ea Ep NU. rewrite TC, NU, Ea, Ep. reflexivity.
    - destruct (say w _) as [w1 [[]|e]] eqn:S1 in E; [|discriminate].
      apply say_files in S1.
      destruct n as [|n]; [discriminate|]. cbn [CacheNest_model.exec] in E. injection E as <- <-. rewrite S1.
      unfold SmartCache_model.try_cache in *. destruct (needs_update set_order (files w) (file_of f) (deps f)) as [[|]|e] eqn:NU; cbn [bind] in T; [injection T as <-; rewrite (ok_none _ _ _ _ _ _ _ pok) in Nc; discriminate| |discriminate].
      split; [destruct (needs_update_false set_order order_ok _ _ _ NU) as (x & D & _); exists x; exact D|].
      exists c. split; [apply (oeq_r oeq none is_none dump load encode decode pok)|]. intros a' p' Ea Ep _. cbn [bind].
      rewrite read_cache_load3 in *.
      destruct (sopen_std (file_of f) (u "rb")); [injection T as <-; rewrite (ok_none _ _ _ _ _ _ _ pok) in Nc; discriminate|].
      rewrite R in *; destruct (dget (file_of f) (files w)) as [x|]; [|injection T as <-; rewrite (ok_none _ _ _ _ _ _ _ pok) in Nc; discriminate].
      rewrite <- (load3_eq oeq none is_none dump load encode decode pok _ a p a' p' Ea Ep), T. reflexivity.
  Qed.
  Lemma call_again n w f a p w' v : exec n w (Call f a p (fun v => Ret (Ok v))) = Some (w', Returned (Ok v)) ->
    is_none v = false -> readable (file_of f) = true -> (forall l, debug = true -> show l = None) ->
    (forall d, In d (deps f) -> valid_dep d) ->
    (forall q x, watched (deps f) q -> dget (file_of f) (files w') = Some x -> exists y, dget q (files w') = Some y /\ mtime y <= mtime x) ->
    exists v', oeq v' v = true /\ forall m a' p', (2 <= m)%nat -> oeq a a' = true -> oeq p p' = true ->
      exists w'', exec m w' (Call f a' p' (fun v => Ret (Ok v))) = Some (w'', Returned (Ok v')) /\ same_state w'' w'.
  Proof.
    intros E N R Sh VD UP. destruct (call_leaves n w f a p w' v E N R) as ([x D] & v' & Ev & TC). exists v'. split; [exact Ev|].
    destruct (needs_update_iff set_order order_ok (files w') (file_of f) (deps f) x D VD) as (b & NU & B).
    { intros q W. destruct (UP q x W D) as (y & Y & _). exists y. exact Y. }
    assert (b = false) as ->.
    { destruct b; [|reflexivity]. destruct (proj1 B eq_refl) as (q & g & W & G & L). destruct (UP q x W D) as (y & Y & M). rewrite G in Y. injection Y as <-. lia. }
    intros m a' p' M Ea Ep. destruct m as [|[|m]]; [lia|lia|]. cbn [CacheNest_model.exec].
    rewrite (TC a' p' Ea Ep NU), (ok_is_none _ _ _ _ _ _ _ pok v' v Ev), N.
    unfold CacheNest_model.say. destruct debug; [rewrite Sh by reflexivity|]; eexists; (split; [reflexivity|split; reflexivity]).
  Qed.
End Again.
