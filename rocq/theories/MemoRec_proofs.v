(* MemoRec_proofs.v *)
From Verif Require Import Base PyStr SmartCache_model SmartCache_spec SmartCache_proofs MemoRec_model MemoRec_spec.

Section P.
  Context {O V : Type}.
  Variable oeq : O -> O -> bool.
  Variable hashable : O -> bool.
  Hypothesis E : equivalence oeq.
  Notation key := (list O * list (str * O))%type (only parsing).
  Variable method : key -> body O V.
  Notation keq := (key_eq oeq).
  Notation dir := (direct method).
  Notation rc := (rec_call oeq hashable method).
  Notation rb n := (run_body (rec_call oeq hashable method n)).

  Scheme yields_m := Induction for yields Sort Prop
  with ends_m := Induction for ends Sort Prop.

  Lemma eval_mono (c c' : key -> option (res V)) (b : body O V) r :
    (forall k r, c k = Some r -> c' k = Some r) -> eval c b = Some r -> eval c' b = Some r.
  Proof.
    intro M. induction b as [r0 | k next IH]; cbn [eval]; [auto|].
    destruct (c k) as [r1|] eqn:C; [|discriminate]. rewrite (M _ _ C). apply IH.
  Qed.
  Lemma direct_S n k r : dir n k = Some r -> dir (S n) k = Some r.
  Proof.
    revert k r; induction n as [|n IH]; intros k r; [discriminate|].
    intro D. change (eval (dir (S n)) (method k) = Some r). apply (eval_mono _ _ _ _ IH D).
  Qed.
  Lemma direct_mono n m k r : (n <= m)%nat -> dir n k = Some r -> dir m k = Some r.
  Proof. induction 1; auto using direct_S. Qed.
  Lemma direct_det n m k r r' : dir n k = Some r -> dir m k = Some r' -> r = r'.
  Proof.
    intros A B. destruct (Nat.le_ge_cases n m) as [L | L].
    - apply (direct_mono n m) in A; [congruence | exact L].
    - apply (direct_mono m n) in B; [congruence | exact L].
  Qed.

  Lemma eval_ends n b r : (forall k r, dir n k = Some r -> yields method k r) -> eval (dir n) b = Some r -> ends method b r.
  Proof.
    intro M. induction b as [r0 | k next IH]; cbn [eval].
    - intro H; injection H as <-; constructor.
    - destruct (dir n k) as [r1|] eqn:C; [|discriminate]. intro H.
      apply (e_call _ _ _ r1); [apply M, C | apply IH, H].
  Qed.
  Lemma direct_yields n k r : dir n k = Some r -> yields method k r.
  Proof.
    revert k r; induction n as [|n IH]; intros k r D; [discriminate|].
    constructor. apply (eval_ends n); [exact IH | exact D].
  Qed.
  Lemma yields_direct k r : yields method k r -> exists n, dir n k = Some r.
  Proof.
    intro Y. induction Y as [k r _ [n IH] | r | k next r1 r _ [n IH1] _ [m IH2]]
      using yields_m with (P0 := fun b r _ => exists n, eval (dir n) b = Some r).
    - exists (S n). exact IH.
    - exists 0%nat. reflexivity.
    - exists (n + m)%nat. cbn [eval].
      rewrite (direct_mono n (n + m) _ _ (Nat.le_add_r _ _) IH1).
      apply (eval_mono (dir m)); [|exact IH2].
      intros k' r'. apply direct_mono, Nat.le_add_l.
  Qed.
  Lemma yields_iff k r : yields method k r <-> exists n, dir n k = Some r.
  Proof. split; [apply yields_direct | intros [n D]; exact (direct_yields n k r D)]. Qed.
  Lemma yields_det k r r' : yields method k r -> yields method k r' -> r = r'.
  Proof. rewrite !yields_iff. intros [n A] [m B]. exact (direct_det _ _ _ _ _ A B). Qed.

  (* ---- the table ---- *)
  Lemma mget_mset (k k2 : key) v (d : list (key * V)) :
    mget oeq k2 (mset oeq k v d) = if keq k2 k then Some v else mget oeq k2 d.
  Proof.
    induction d as [|[k1 w] d IH]; cbn [mset mget]; [reflexivity|].
    destruct (keq k k1) eqn:K.
    - cbn [mget]. destruct (keq k2 k1) eqn:K2.
      + rewrite (e_trans _ (key_eq_equiv _ E) _ _ _ K2 (e_sym _ (key_eq_equiv _ E) _ _ K)). reflexivity.
      + destruct (keq k2 k) eqn:K3; [|reflexivity].
        rewrite (e_trans _ (key_eq_equiv _ E) _ _ _ K3 K) in K2. discriminate.
    - cbn [mget]. destruct (keq k2 k1) eqn:K2.
      + destruct (keq k2 k) eqn:K3; [|reflexivity].
        rewrite (e_trans _ (key_eq_equiv _ E) _ _ _ (e_sym _ (key_eq_equiv _ E) _ _ K3) K2) in K. discriminate.
      + exact IH.
  Qed.
  Lemma mget_eq (k k' : key) (d : list (key * V)) : keq k k' = true -> mget oeq k d = mget oeq k' d.
  Proof.
    intro K; induction d as [|[k1 v1] d IH]; cbn [mget]; [reflexivity|].
    rewrite (equiv_l keq k k' k1 (key_eq_equiv _ E) K), IH; reflexivity.
  Qed.

  (* ---- transparency ---- *)
  Variable P : key -> Prop.
  Hypothesis PC : closed method P.
  Hypothesis PH : forall k, P k -> key_hashable hashable k = true.
  Hypothesis PR : forall k k' r, P k -> P k' -> keq k k' = true -> yields method k r -> yields method k' r.

  Definition cons (d : list (key * V)) : Prop := forall k v, P k -> mget oeq k d = Some v -> yields method k (Ok v).

  Lemma body_sound n : (forall d k d' t r, P k -> cons d -> rc n d k = Some (d', t, r) -> yields method k r /\ cons d') ->
    forall b d d' t r, (forall k, asks b k -> P k) -> cons d -> rb n d b = Some (d', t, r) -> ends method b r /\ cons d'.
  Proof.
    intros IH b; induction b as [r0 | k next IHb]; intros d d' t r A C R; cbn [run_body] in R.
    - injection R as <- <- <-. split; [constructor | exact C].
    - destruct (rc n d k) as [[[d1 t1] r1]|] eqn:K; [|discriminate].
      destruct (rb n d1 (next r1)) as [[[d2 t2] r2]|] eqn:R2; [|discriminate].
      injection R as <- <- <-.
      destruct (IH _ _ _ _ _ (A _ (a_now _ _)) C K) as [Y1 C1].
      destruct (IHb r1 d1 d2 t2 r2) as [Y2 C2]; [| exact C1 | exact R2 |].
      { intros k' H. apply A. apply (a_later _ _ r1 _ H). }
      split; [|exact C2]. exact (e_call _ _ _ _ _ Y1 Y2).
  Qed.
  Lemma call_sound n : forall d k d' t r, P k -> cons d -> rc n d k = Some (d', t, r) -> yields method k r /\ cons d'.
  Proof.
    induction n as [|n IH]; intros d k d' t r Pk C R; [discriminate|].
    cbn [rec_call] in R. rewrite (PH k Pk) in R.
    destruct (mget oeq k d) as [v|] eqn:M; [injection R as <- <- <-; split; [apply C; assumption | exact C]|].
    destruct (rb n d (method k)) as [[[d1 t1] r1]|] eqn:B; [|discriminate].
    destruct (body_sound n IH _ _ _ _ _ (fun k' H => PC k k' Pk H) C B) as [Y C1].
    destruct r1 as [v|e]; injection R as <- <- <-; (split; [constructor; exact Y|]); [|exact C1].
    intros k2 v2 P2. rewrite mget_mset. destruct (keq k2 k) eqn:K; [|apply C1; exact P2].
    intro H; injection H as <-. apply (PR k k2); auto.
    - apply (e_sym _ (key_eq_equiv _ E)), K.
    - constructor; exact Y.
  Qed.

  Lemma body_complete n : (forall d k r, P k -> cons d -> dir n k = Some r -> exists d' t, rc n d k = Some (d', t, r)) ->
    forall b d r, (forall k, asks b k -> P k) -> cons d -> eval (dir n) b = Some r -> exists d' t, rb n d b = Some (d', t, r).
  Proof.
    intros IH b; induction b as [r0 | k next IHb]; intros d r A C D; cbn [eval run_body] in *.
    - injection D as <-. eauto.
    - destruct (dir n k) as [r1|] eqn:K; [|discriminate].
      destruct (IH d k r1 (A _ (a_now _ _)) C K) as (d1 & t1 & R1).
      destruct (call_sound _ _ _ _ _ _ (A _ (a_now _ _)) C R1) as [_ C1].
      destruct (IHb r1 d1 r) as (d2 & t2 & R2); [| exact C1 | exact D |].
      { intros k' H. apply A. apply (a_later _ _ r1 _ H). }
      rewrite R1, R2. eauto.
  Qed.
  Lemma call_complete n : forall d k r, P k -> cons d -> dir n k = Some r -> exists d' t, rc n d k = Some (d', t, r).
  Proof.
    induction n as [|n IH]; intros d k r Pk C D; [discriminate|].
    cbn [rec_call]. rewrite (PH k Pk).
    destruct (mget oeq k d) as [v|] eqn:M.
    - assert (r = Ok v) by (apply (yields_det k); [exact (direct_yields _ _ _ D) | apply C; assumption]). subst. eauto.
    - destruct (body_complete n IH (method k) d r) as (d1 & t1 & R1); [intros k' H; exact (PC k k' Pk H) | exact C | exact D |].
      rewrite R1. destruct r; eauto.
  Qed.

  Lemma run_sound n : forall calls d d' t outs, Forall P calls -> cons d -> rec_run oeq hashable method n d calls = Some (d', t, outs) ->
    Forall2 (yields method) calls outs /\ cons d'.
  Proof.
    induction calls as [|k calls IH]; intros d d' t outs F C R; cbn [rec_run] in R.
    - injection R as <- <- <-. auto.
    - inversion F as [|? ? Pk F']; subst.
      destruct (rc n d k) as [[[d1 t1] r1]|] eqn:K; [|discriminate].
      destruct (rec_run oeq hashable method n d1 calls) as [[[d2 t2] r2]|] eqn:R2; [|discriminate].
      injection R as <- <- <-.
      destruct (call_sound _ _ _ _ _ _ Pk C K) as [Y C1].
      destruct (IH _ _ _ _ F' C1 R2) as [Y2 C2]. split; [constructor; assumption | exact C2].
  Qed.
  Lemma run_complete calls outs : Forall P calls -> Forall2 (yields method) calls outs ->
    exists n d t, rec_run oeq hashable method n [] calls = Some (d, t, outs).
  Proof.
    intros F Y.
    assert (N : exists n, Forall2 (fun k r => dir n k = Some r) calls outs).
    { clear F. induction Y as [|k r ks rs Y _ [n IH]]; [exists 0%nat; constructor|].
      apply yields_iff in Y. destruct Y as [m D]. exists (n + m)%nat. constructor.
      - apply (direct_mono m); [lia | exact D].
      - clear D. induction IH as [|a b l l' D _ IH']; constructor; [apply (direct_mono n); [lia | exact D] | exact IH']. }
    destruct N as [n N]. exists n.
    assert (C : cons []) by (intros k v _; discriminate).
    revert C. generalize (@nil (key * V)) as d. clear Y.
    induction N as [|k r ks rs D _ IH]; intros d C; cbn [rec_run]; [eauto|].
    inversion F as [|? ? Pk F']; subst.
    destruct (call_complete n d k r Pk C D) as (d1 & t1 & R1). rewrite R1.
    destruct (call_sound _ _ _ _ _ _ Pk C R1) as [_ C1].
    destruct (IH F' d1 C1) as (d2 & t2 & R2). rewrite R2. eauto.
  Qed.

  (* ---- each key is computed once ---- *)
  Lemma body_mono n (b : body O V) : (forall d k o, rc n d k = Some o -> rc (S n) d k = Some o) ->
    forall d o, rb n d b = Some o -> rb (S n) d b = Some o.
  Proof.
    intro IH; induction b as [r0 | k next IHb]; intros d o R; [exact R|].
    cbn [run_body] in *. destruct (rc n d k) as [[[d1 t1] r1]|] eqn:K; [|discriminate].
    rewrite (IH _ _ _ K). destruct (rb n d1 (next r1)) as [o2|] eqn:R2; [|discriminate].
    rewrite (IHb _ _ _ R2). exact R.
  Qed.
  Lemma call_S n : forall d k o, rc n d k = Some o -> rc (S n) d k = Some o.
  Proof.
    induction n as [|n IH]; intros d k o R; [discriminate|].
    cbn [rec_call] in R.
    change (rc (S (S n)) d k) with
      (if key_hashable hashable k then
          match mget oeq k d with
          | Some v => Some (d, [], Ok v)
          | None =>
              match rb (S n) d (method k) with
              | None => None
              | Some (d', t, Ok result) => Some (mset oeq k result d', k :: t, Ok result)
              | Some (d', t, Raise e) => Some (d', k :: t, Raise e)
              end
          end
        else Some (d, [], Raise TypeError)).
    destruct (key_hashable hashable k); [|exact R].
    destruct (mget oeq k d); [exact R|].
    destruct (rb n d (method k)) as [o1|] eqn:B; [|discriminate].
    rewrite (body_mono n _ IH _ _ B). exact R.
  Qed.
  Lemma call_mono n m d k o : (n <= m)%nat -> rc n d k = Some o -> rc m d k = Some o.
  Proof. induction 1; auto using call_S. Qed.
  Lemma call_det n m d k o o' : rc n d k = Some o -> rc m d k = Some o' -> o = o'.
  Proof.
    intros A B. destruct (Nat.le_ge_cases n m) as [L | L].
    - apply (call_mono n m) in A; [congruence | exact L].
    - apply (call_mono m n) in B; [congruence | exact L].
  Qed.

  Lemma body_depth n : (forall d k d' t r, P k -> cons d -> dir n k <> None -> rc n d k = Some (d', t, r) ->
      forall k', In k' t -> P k' /\ dir n k' <> None) ->
    forall b d d' t r, (forall k, asks b k -> P k) -> cons d -> eval (dir n) b <> None -> rb n d b = Some (d', t, r) ->
      forall k', In k' t -> P k' /\ dir n k' <> None.
  Proof.
    intros IH b; induction b as [r0 | k next IHb]; intros d d' t r A C D R k' I; cbn [eval run_body] in *.
    - injection R as <- <- <-. destruct I.
    - destruct (dir n k) as [r1'|] eqn:K; [|congruence].
      assert (Pk := A _ (a_now _ _)).
      destruct (rc n d k) as [[[d1 t1] r1]|] eqn:K1; [|discriminate].
      destruct (call_sound _ _ _ _ _ _ Pk C K1) as [Y C1].
      assert (r1' = r1) by (apply (yields_det k); [exact (direct_yields _ _ _ K) | exact Y]). subst r1'.
      destruct (rb n d1 (next r1)) as [[[d2 t2] r2]|] eqn:R2; [|discriminate].
      injection R as <- <- <-. apply in_app_or in I. destruct I as [I | I].
      + apply (IH d k d1 t1 r1); auto. congruence.
      + apply (IHb r1 d1 d2 t2 r2); auto. intros k2 H. apply A. apply (a_later _ _ r1 _ H).
  Qed.
  Lemma call_depth n : forall d k d' t r, P k -> cons d -> dir n k <> None -> rc n d k = Some (d', t, r) ->
      forall k', In k' t -> P k' /\ dir n k' <> None.
  Proof.
    induction n as [|n IH]; intros d k d' t r Pk C D R k' I; [discriminate|].
    cbn [rec_call] in R. rewrite (PH k Pk) in R.
    destruct (mget oeq k d) as [v|] eqn:M; [injection R as <- <- <-; destruct I|].
    destruct (rb n d (method k)) as [[[d1 t1] r1]|] eqn:B; [|discriminate].
    assert (X : In k' (k :: t1)) by (destruct r1; injection R as <- <- <-; exact I).
    destruct X as [<- | X]; [auto|].
    destruct (body_depth n IH _ _ _ _ _ (fun k' H => PC k k' Pk H) C D B k' X) as [P' D']. split; [exact P'|].
    destruct (dir n k') as [r'|] eqn:Dk; [|congruence]. rewrite (direct_S _ _ _ Dk). discriminate.
  Qed.

  (* the keys started inside a call on [k] are less deep than [k] *)
  Lemma least_depth k r : yields method k r -> exists n, dir (S n) k = Some r /\ dir n k = None.
  Proof.
    intro Y. apply yields_iff in Y. destruct Y as [m D].
    induction m as [|m IH]; [discriminate|].
    destruct (dir m k) as [r'|] eqn:Dm.
    - apply IH. rewrite <- Dm. f_equal. rewrite (direct_S _ _ _ Dm) in D. congruence.
    - exists m. auto.
  Qed.
  Hypothesis PD : forall k k' n, P k -> P k' -> keq k k' = true -> dir n k = dir n k'.

  Lemma inner_differs n d k d' t r : P k -> cons d -> rb n d (method k) = Some (d', t, r) ->
    (forall k', In k' t -> P k') /\ forall k', In k' t -> keq k k' = false.
  Proof.
    intros Pk C B.
    destruct (body_sound n (call_sound n) _ _ _ _ _ (fun k' H => PC k k' Pk H) C B) as [Y _].
    destruct (least_depth k r (y_method _ _ _ Y)) as (m & D1 & D0).
    destruct (body_complete m (call_complete m) (method k) d r) as (d1 & t1 & B1); [intros k' H; exact (PC k k' Pk H) | exact C | exact D1 |].
    assert (X : t1 = t).
    { assert (forall a b, (a <= b)%nat -> forall o, rb a d (method k) = Some o -> rb b d (method k) = Some o) as Mo.
      { intros a b L; induction L; intros o; auto. intro H. apply body_mono; [apply call_S | apply IHL, H]. }
      destruct (Nat.le_ge_cases n m) as [L | L].
      - apply (Mo n m L) in B. congruence.
      - apply (Mo m n L) in B1. congruence. }
    subst t1.
    assert (Z : forall k', In k' t -> P k' /\ dir m k' <> None).
    { apply (body_depth m (call_depth m) (method k) d d1 t r); [intros k' H; exact (PC k k' Pk H) | exact C | | exact B1].
      change (dir (S m) k <> None). congruence. }
    split; [intros k' I; apply Z, I|].
    intros k' I. destruct (Z k' I) as [P' N]. destruct (keq k k') eqn:K; [|reflexivity].
    rewrite <- (PD k k' m Pk P' K) in N. congruence.
  Qed.

  Definition again (ki kj : key) : Prop := keq ki kj = true -> exists e, yields method ki (Raise e).
  Lemma FOP_app {A} (R : A -> A -> Prop) (l l' : list A) : ForallOrdPairs R l -> ForallOrdPairs R l' ->
    (forall a b, In a l -> In b l' -> R a b) -> ForallOrdPairs R (l ++ l').
  Proof.
    intros F F' X; induction F as [|a l Fa F IH]; cbn [app]; [exact F'|]. constructor.
    - apply Forall_app. split; [exact Fa|]. apply Forall_forall. intros b I. apply X; [left; reflexivity | exact I].
    - apply IH. intros; apply X; [right|]; assumption.
  Qed.
  Definition good (d d' : list (key * V)) (t : list key) : Prop :=
    (forall k, mget oeq k d' = None -> mget oeq k d = None) /\
    (forall k, In k t -> P k /\ mget oeq k d = None /\ exists r, yields method k r /\ (mget oeq k d' <> None \/ exists e, r = Raise e)) /\
    ForallOrdPairs again t.
  Lemma good_nil d : good d d [].
  Proof. split; [auto|]. split; [intros k [] | constructor]. Qed.
  Lemma good_app d d1 d2 t1 t2 : good d d1 t1 -> good d1 d2 t2 -> good d d2 (t1 ++ t2).
  Proof.
    intros (A1 & A2 & A3) (B1 & B2 & B3). split; [|split].
    - intros k H. apply A1, B1, H.
    - intros k H. apply in_app_or in H. destruct H as [I | I].
      + destruct (A2 k I) as (Pk & Nk & r & Y & Z). split; [exact Pk|]. split; [exact Nk|]. exists r; split; [exact Y|].
        destruct Z as [Z | Z]; [left; intro H; apply Z, B1, H | right; exact Z].
      + destruct (B2 k I) as (Pk & Nk & Z). split; [exact Pk|]. split; [apply A1, Nk | exact Z].
    - apply FOP_app; auto. intros ki kj Ii Ij K.
      destruct (B2 kj Ij) as (_ & N & _). rewrite <- (mget_eq ki kj d1 K) in N.
      destruct (A2 ki Ii) as (_ & _ & r & Y & [Z | (e & ->)]); [congruence | eauto].
  Qed.
  Lemma body_good n : (forall d k d' t r, P k -> cons d -> rc n d k = Some (d', t, r) -> good d d' t) ->
    forall b d d' t r, (forall k, asks b k -> P k) -> cons d -> rb n d b = Some (d', t, r) -> good d d' t.
  Proof.
    intros IH b; induction b as [r0 | k next IHb]; intros d d' t r A C R; cbn [run_body] in *.
    - injection R as <- <- <-. apply good_nil.
    - assert (Pk := A _ (a_now _ _)).
      destruct (rc n d k) as [[[d1 t1] r1]|] eqn:K1; [|discriminate].
      destruct (call_sound _ _ _ _ _ _ Pk C K1) as [_ C1].
      destruct (rb n d1 (next r1)) as [[[d2 t2] r2]|] eqn:R2; [|discriminate].
      injection R as <- <- <-. apply (good_app d d1 d2); [apply (IH _ _ _ _ _ Pk C K1)|].
      apply (IHb r1 d1 d2 t2 r2); auto. intros k2 H. apply A. apply (a_later _ _ r1 _ H).
  Qed.
  Lemma call_good n : forall d k d' t r, P k -> cons d -> rc n d k = Some (d', t, r) -> good d d' t.
  Proof.
    induction n as [|n IH]; intros d k d' t r Pk C R; [discriminate|].
    assert (Yk := proj1 (call_sound _ _ _ _ _ _ Pk C R)).
    cbn [rec_call] in R. rewrite (PH k Pk) in R.
    destruct (mget oeq k d) as [v|] eqn:M; [injection R as <- <- <-; apply good_nil|].
    destruct (rb n d (method k)) as [[[d1 t1] r1]|] eqn:B; [|discriminate].
    destruct (body_good n IH _ _ _ _ _ (fun k' H => PC k k' Pk H) C B) as (G1 & G2 & G3).
    destruct (inner_differs _ _ _ _ _ _ Pk C B) as [_ D].
    assert (F : ForallOrdPairs again (k :: t1)).
    { constructor; [|exact G3]. apply Forall_forall. intros k' I K. rewrite (D k' I) in K. discriminate. }
    destruct r1 as [v|e]; injection R as <- <- <-.
    - split; [|split; [|exact F]].
      + intros k2. rewrite mget_mset. destruct (keq k2 k); [discriminate | apply G1].
      + intros k2 [<- | I].
        * split; [exact Pk|]. split; [exact M|]. exists (Ok v). split; [exact Yk|]. left.
          rewrite mget_mset, (e_refl _ (key_eq_equiv _ E)). discriminate.
        * destruct (G2 k2 I) as (P2 & N2 & r2 & Y2 & Z2). split; [exact P2|]. split; [exact N2|].
          exists r2. split; [exact Y2|]. destruct Z2 as [Z2 | Z2]; [left | right; exact Z2].
          rewrite mget_mset. destruct (keq k2 k); [discriminate | exact Z2].
    - split; [exact G1|]. split; [|exact F].
      intros k2 [<- | I]; [|apply G2, I]. split; [exact Pk|]. split; [exact M|]. eauto.
  Qed.
  Lemma run_good n : forall calls d d' t outs, Forall P calls -> cons d ->
    rec_run oeq hashable method n d calls = Some (d', t, outs) -> good d d' t.
  Proof.
    induction calls as [|k calls IH]; intros d d' t outs F C R; cbn [rec_run] in R.
    - injection R as <- <- <-. apply good_nil.
    - inversion F as [|? ? Pk F']; subst.
      destruct (rc n d k) as [[[d1 t1] r1]|] eqn:K; [|discriminate].
      destruct (rec_run oeq hashable method n d1 calls) as [[[d2 t2] r2]|] eqn:R2; [|discriminate].
      injection R as <- <- <-.
      destruct (call_sound _ _ _ _ _ _ Pk C K) as [Y C1].
      apply (good_app d d1 d2); [apply (call_good _ _ _ _ _ _ Pk C K) | apply (IH _ _ _ _ F' C1 R2)].
  Qed.
  Lemma FOP_nth {A} (R : A -> A -> Prop) (l : list A) : ForallOrdPairs R l -> forall i j a b, (i < j)%nat ->
    nth_error l i = Some a -> nth_error l j = Some b -> R a b.
  Proof.
    induction 1 as [|x l F _ IH]; intros i j a b L Hi Hj; [destruct i; discriminate|].
    destruct j as [|j]; [lia|]. cbn [nth_error] in Hj. destruct i as [|i]; cbn [nth_error] in Hi.
    - injection Hi as <-. rewrite Forall_forall in F. apply F. exact (nth_error_In _ _ Hj).
    - apply (IH i j a b); auto; lia.
  Qed.
  Lemma run_once n calls d t outs : Forall P calls -> rec_run oeq hashable method n [] calls = Some (d, t, outs) ->
    forall i j ki kj, (i < j)%nat -> nth_error t i = Some ki -> nth_error t j = Some kj -> keq ki kj = true ->
    exists e, yields method ki (Raise e).
  Proof.
    intros F R i j ki kj L Hi Hj K. destruct (run_good n calls [] d t outs F) as (_ & _ & G); [intros ? ? _; discriminate | exact R|].
    exact (FOP_nth _ _ G i j ki kj L Hi Hj K).
  Qed.
End P.

Lemma flat_call (O V : Type) oeq hashable (g : list O * list (str * O) -> res V) n (s : unit) d k :
  option_map (fun x => (fst (fst x), snd x)) (rec_call oeq hashable (fun k => Done (g k)) (S n) d k) =
  Some (let '(_, d', r) := memory_call oeq hashable (fun s k => (s, g k)) s d k in (d', r)).
Proof.
  cbn [rec_call run_body]. unfold memory_call. destruct (key_hashable hashable k); [|reflexivity].
  destruct (mget oeq k d) as [v|] eqn:M; [reflexivity|].
  destruct (g k) as [v|e]; [|reflexivity]. cbn [option_map fst snd].
  do 2 f_equal. induction d as [|[k1 w] d IH]; [reflexivity|].
  cbn [mget mset app] in *. destruct (key_eq oeq k k1); [discriminate|]. rewrite (IH M). reflexivity.
Qed.
