(* PruneAsk_proofs.v -- pruning by what a predicate answers *)
From Verif Require Import Base Rose Maps_model Maps_proofs Tree_model Tree_spec Tree_proofs PruneAsk_model PruneAsk_spec.

(* ---------------- chains of parents ---------------- *)
Definition upchain (h : list node) (par : option addr) (up : list addr) : Prop := match par with None => up = [] | Some p => chain h p up end.
Lemma chain_last h a l : chain h a l -> In a l.
Proof. destruct 1; [left; reflexivity|apply in_or_app; right; left; reflexivity]. Qed.
Lemma chain_frame h h' a l : chain h a l -> (forall b, In b l -> parent (at_ h' b) = parent (at_ h b)) -> chain h' a l.
Proof.
  induction 1 as [a P|a p l P C IH]; intros F.
  - apply Chain_top; rewrite F; [exact P|left; reflexivity].
  - apply (Chain_up h' a p); [rewrite F; [exact P|apply in_or_app; right; left; reflexivity]|apply IH; intros b I; apply F, in_or_app; left; exact I].
Qed.
Lemma upchain_frame h h' par up : upchain h par up -> (forall b, In b up -> parent (at_ h' b) = parent (at_ h b)) -> upchain h' par up.
Proof. destruct par as [p|]; [apply chain_frame|auto]. Qed.
Lemma upchain_down h a par up : upchain h par up -> parent (at_ h a) = par -> chain h a (up ++ [a]).
Proof. destruct par as [p|]; cbn [upchain]; [intros C P; apply (Chain_up h a p); assumption|intros -> P; apply Chain_top, P]. Qed.
Lemma chain_fun h a l : chain h a l -> forall m, chain h a m -> l = m.
Proof.
  induction 1 as [a P|a p l P C IH]; intros m M; inversion M as [? Q|? q k Q D]; subst; try congruence; try reflexivity.
  assert (q = p) as -> by congruence; rewrite (IH k D); reflexivity.
Qed.

Section PruneAsk.
  Variable S : Type.
  Variable predicate : S -> list node -> addr -> S * res bool.
  Variable pred : S -> list (str * dict akey value) -> S * res bool.
  Hypothesis looks : forall s h a l, chain h a l -> predicate s h a = pred s (map (details h) l).
  Variable D : addr -> str * dict akey value.
  Notation body := (ask_body S predicate).
  Notation P := (fun s l => pred s (map D l)).
  Notation judge := (asked S addr P).
  Definition step (up : list addr) (k : rose addr) (acc : S * res (list (rose addr))) : S * res (list (rose addr)) :=
    match acc with
    | (s, Ok l) => match judge up k s with
                   | (s, Ok o) => (s, Ok (match o with Some t => t :: l | None => l end))
                   | (s, Raise e) => (s, Raise e)
                   end
    | (s, Raise e) => (s, Raise e)
    end.
  Lemma judge_eq up x ks s : judge up (Rose x ks) s =
    match fold_right (step (up ++ [x])) (s, Ok []) ks with
    | (s, Raise e) => (s, Raise e)
    | (s, Ok []) => match P s (up ++ [x]) with (s, Ok b) => (s, Ok (if b then Some (Rose x []) else None)) | (s, Raise e) => (s, Raise e) end
    | (s, Ok l) => (s, Ok (Some (Rose x l)))
    end.
  Proof. reflexivity. Qed.
  Lemma step_raises up ks s e : fold_right (step up) (s, Raise e) ks = (s, Raise e).
  Proof. induction ks as [|k ks IH]; [reflexivity|]; cbn [fold_right]; rewrite IH; reflexivity. Qed.

  Definition left_of (h h' : list node) (par : option addr) (t : rose addr) (o : option (rose addr)) : Prop :=
    length h' = length h /\ (forall b, details h' b = details h b) /\
    (forall b, ~ In b (nodes t) -> par <> Some b -> at_ h' b = at_ h b) /\
    (forall p, par = Some p -> at_ h' p = match o with Some _ => at_ h p | None => set_children (at_ h p) (ddel (label (at_ h (root t))) (children (at_ h p))) end) /\
    match o with
    | Some t' => linked h' par t' /\ root t' = root t /\ incl (nodes t') (nodes t)
    | None => children (at_ h' (root t)) = [] /\ parent (at_ h' (root t)) = None
    end.
  Definition tree_ask (t : rose addr) : Prop := forall h par st s up, linked h par t -> NoDup (nodes t) ->
    (forall a, In a (nodes t) -> (a < length h)%nat) -> filed_in h par t -> (forall b, details h b = D b) ->
    upchain h par up -> (forall b, In b up -> ~ In b (nodes t)) ->
    exists c, (c <= 2 * rsize t)%nat /\
      match judge up t s with
      | (s', Ok o) => exists h', (forall f, for_postorder body (c + f) h s (st ++ [(root t, false)]) = for_postorder body f h' s' st) /\ left_of h h' par t o
      | (s', Raise e) => forall f, exists h', for_postorder body (c + f) h s (st ++ [(root t, false)]) = (h', s', Raise e)
      end.

  Lemma ask_forest a up ks : Forall tree_ask ks -> forall h done st s,
    children (at_ h a) = filed h (ks ++ done) -> NoDup (dkeys (children (at_ h a))) -> Forall (linked h (Some a)) (ks ++ done) ->
    NoDup (flat_map nodes ks) -> ~ In a (flat_map nodes (ks ++ done)) -> (forall b, In b (flat_map nodes ks) -> ~ In b (flat_map nodes done)) ->
    (a < length h)%nat -> (forall b, In b (flat_map nodes ks) -> (b < length h)%nat) -> (forall b, details h b = D b) ->
    chain h a up -> (forall b, In b up -> ~ In b (flat_map nodes ks)) ->
    exists c, (c <= 2 * fsize ks)%nat /\
      match fold_right (step up) (s, Ok done) ks with
      | (s', Ok l) => exists h',
          (forall f, for_postorder body (c + f) h s (st ++ map (fun k => (root k, false)) ks) = for_postorder body f h' s' st) /\
          length h' = length h /\ (forall b, details h' b = details h b) /\
          (forall b, ~ In b (flat_map nodes ks) -> b <> a -> at_ h' b = at_ h b) /\ parent (at_ h' a) = parent (at_ h a) /\
          children (at_ h' a) = filed h' l /\ NoDup (dkeys (children (at_ h' a))) /\ Forall (linked h' (Some a)) l /\
          incl (flat_map nodes l) (flat_map nodes (ks ++ done))
      | (s', Raise e) => forall f, exists h', for_postorder body (c + f) h s (st ++ map (fun k => (root k, false)) ks) = (h', s', Raise e)
      end.
  Proof.
    induction ks as [|k ks IHks] using rev_ind; intros IH h done st s Ch ND Lk Nn Na Dj La Rg HD Cu Du.
    - exists O; cbn [fold_right flat_map app map] in *; rewrite app_nil_r; split; [lia|].
      exists h; split; [reflexivity|split; [reflexivity|repeat split; auto]]; apply incl_refl.
    - apply Forall_app in IH; destruct IH as [IH IHk]; inversion IHk as [|? ? Tk _]; subst.
      rewrite <- app_assoc in Ch, Lk, Na; cbn [app] in Ch, Lk, Na.
      rewrite flat_map_app in Nn, Dj, Rg, Du; cbn [flat_map] in Nn, Dj, Rg, Du; rewrite app_nil_r in Nn, Dj, Rg, Du.
      rewrite !flat_map_app in Na; cbn [flat_map] in Na.
      pose proof Lk as Lk0; apply Forall_app in Lk; destruct Lk as [Lks Lk]; inversion Lk as [|? ? Lkk Lkd]; subst.
      destruct (NoDup_app_inv _ _ Nn) as [Nks [Nk Dk]].
      assert (Ak : ~ In a (nodes k)) by (intros I; apply Na, in_or_app; right; apply in_or_app; left; exact I).
      pose proof ND as ND0; rewrite Ch in ND0; unfold filed, dkeys in ND0; rewrite map_map, map_app in ND0; cbn [map fst] in ND0.
      rewrite fold_right_app; cbn [fold_right]; unfold step at 2.
      destruct (Tk h (Some a) (st ++ map (fun k => (root k, false)) ks) s up Lkk Nk) as [c1 [Bc Run]].
      + intros b I; apply Rg, in_or_app; right; exact I.
      + intros p Ep; injection Ep as <-; split; [exact La|split; [exact Ak|]].
        apply In_dget; [exact ND|]; rewrite Ch; unfold filed; rewrite map_app; apply in_or_app; right; left; reflexivity.
      + exact HD.
      + exact Cu.
      + intros b I J; apply (Du b I), in_or_app; right; exact J.
      + assert (Fz : fsize (ks ++ [k]) = (fsize ks + rsize k)%nat) by (rewrite fsize_app, fsize_cons; change (fsize (@nil (rose addr))) with O; lia).
        rewrite map_app; cbn [map]; rewrite app_assoc.
        destruct (judge up k s) as [s1 [o|e]]; [|exists c1; split; [lia|]; rewrite step_raises; exact Run].
        destruct Run as [h1 [Run [L1 [D1 [O1 [A1 K1]]]]]].
        specialize (A1 a eq_refl).
        set (done1 := match o with Some t => t :: done | None => done end).
        assert (Lab : forall b, label (at_ h1 b) = label (at_ h b)) by (intros b; specialize (D1 b); injection D1; auto).
        assert (Fl : forall l, filed h1 l = filed h l) by (intros l; apply filed_ext, Forall_forall; intros; apply Lab).
        assert (Ch1 : children (at_ h1 a) = filed h1 (ks ++ done1)).
        { rewrite A1, Fl; unfold done1; destruct o as [t'|].
          - rewrite Ch; unfold filed; rewrite !map_app; cbn [map]; destruct K1 as [_ [Rt _]]; rewrite Rt; reflexivity.
          - cbn [set_children children]; rewrite Ch; unfold filed; rewrite !map_app; cbn [map]; apply ddel_mid.
            unfold dkeys; rewrite map_map; cbn [fst]; intros I; apply NoDup_remove_2 in ND0; apply ND0, in_or_app; left; exact I. }
        assert (ND1 : NoDup (dkeys (children (at_ h1 a)))).
        { rewrite A1; destruct o; [exact ND|cbn [set_children children]; apply NoDup_ddel, ND]. }
        assert (Fr : forall t, (forall b, In b (nodes t) -> ~ In b (nodes k) /\ b <> a) -> linked h (Some a) t -> linked h1 (Some a) t).
        { intros t Q; apply linked_frame; intros b I; destruct (Q b I) as [Q1 Q2]; apply O1; [exact Q1|congruence]. }
        assert (Nd1 : forall b, In b (flat_map nodes done1) -> In b (nodes k) \/ In b (flat_map nodes done)).
        { intros b; unfold done1; destruct o as [t'|]; [|auto]; cbn [flat_map]; intros I; apply in_app_or in I; destruct I as [I|I]; [left; apply K1, I|auto]. }
        destruct (IHks IH h1 done1 st s1 Ch1 ND1) as [c2 [Bc2 Run2]].
        * apply Forall_app; split.
          -- rewrite Forall_forall in *; intros t I; apply Fr; [|apply Lks, I]; intros b J.
             assert (Jb : In b (flat_map nodes ks)) by (apply in_flat_map; exists t; auto).
             split; [apply Dk, Jb|intros ->; apply Na, in_or_app; left; exact Jb].
          -- assert (Fd : Forall (linked h1 (Some a)) done).
             { rewrite Forall_forall in *; intros t I; apply Fr; [|apply Lkd, I]; intros b J.
               assert (Jb : In b (flat_map nodes done)) by (apply in_flat_map; exists t; auto).
               split; [intros X; apply (Dj b); [apply in_or_app; right; exact X|exact Jb]|intros ->; apply Na, in_or_app; right; apply in_or_app; right; exact Jb]. }
             unfold done1; destruct o; [constructor; [apply K1|exact Fd]|exact Fd].
        * exact Nks.
        * rewrite flat_map_app; intros I; apply in_app_or in I; destruct I as [I|I]; [apply Na, in_or_app; left; exact I|].
          apply Nd1 in I; destruct I as [I|I]; [exact (Ak I)|apply Na, in_or_app; right; apply in_or_app; right; exact I].
        * intros b I J; apply Nd1 in J; destruct J as [J|J]; [exact (Dk b I J)|apply (Dj b); [apply in_or_app; left; exact I|exact J]].
        * lia.
        * intros b I; rewrite L1; apply Rg, in_or_app; left; exact I.
        * intros b; rewrite D1; apply HD.
        * apply (chain_frame h); [exact Cu|]; intros b I; destruct (Nat.eq_dec b a) as [->|Nb]; [rewrite A1; destruct o; reflexivity|].
          rewrite O1; [reflexivity|intros J; apply (Du b I), in_or_app; right; exact J|congruence].
        * intros b I J; apply (Du b I), in_or_app; left; exact J.
        * exists (c1 + c2)%nat; split; [lia|].
          destruct (fold_right (step up) (s1, Ok done1) ks) as [s2 [l|e]].
          -- destruct Run2 as [h2 [Run2 [L2 [D2 [O2 [P2 [C2 [ND2 [K2 I2]]]]]]]]]; exists h2; split.
             ++ intros f; rewrite <- Nat.add_assoc, Run; apply Run2.
             ++ split; [lia|split; [intros b; rewrite D2; apply D1|split; [|split; [|split; [exact C2|split; [exact ND2|split; [exact K2|]]]]]]].
                ** intros b Nb Nba; rewrite flat_map_app in Nb; cbn [flat_map] in Nb; rewrite app_nil_r in Nb.
                   rewrite O2; [apply O1; [intros I; apply Nb, in_or_app; right; exact I|congruence]|intros I; apply Nb, in_or_app; left; exact I|exact Nba].
                ** rewrite P2, A1; destruct o; reflexivity.
                ** intros b I; apply I2 in I; rewrite flat_map_app in I; rewrite <- app_assoc, flat_map_app; cbn [app flat_map]; apply in_app_or in I; apply in_or_app.
                   destruct I as [I|I]; [left; exact I|right; apply in_or_app, Nd1, I].
          -- intros f; rewrite <- Nat.add_assoc, Run; apply Run2.
  Qed.

  (** visiting a node whose children are done *)
  Lemma ask_visit h h1 par a ks l s up : linked h par (Rose a ks) -> NoDup (nodes (Rose a ks)) -> (a < length h)%nat -> filed_in h par (Rose a ks) ->
    (forall b, details h b = D b) -> chain h a (up ++ [a]) -> (forall b, In b (up ++ [a]) -> ~ In b (flat_map nodes ks)) ->
    length h1 = length h -> (forall b, details h1 b = details h b) ->
    (forall b, ~ In b (flat_map nodes ks) -> b <> a -> at_ h1 b = at_ h b) -> parent (at_ h1 a) = parent (at_ h a) ->
    children (at_ h1 a) = filed h1 l -> NoDup (dkeys (children (at_ h1 a))) -> Forall (linked h1 (Some a)) l -> incl (flat_map nodes l) (flat_map nodes ks) ->
    match (match l with
           | [] => match P s (up ++ [a]) with (s, Ok b) => (s, Ok (if b then Some (Rose a []) else None)) | (s, Raise e) => (s, Raise e) end
           | _ => (s, Ok (Some (Rose a l)))
           end) with
    | (s', Ok o) => exists h', body h1 s a = (h', s', Ok None) /\ left_of h h' par (Rose a ks) o
    | (s', Raise e) => exists h', body h1 s a = (h', s', Raise e)
    end.
  Proof.
    intros K Nn La Fi HD Cu Du L1 D1 O1 P1 C1 ND1 K1 I1; unfold ask_body.
    inversion K as [? ? ? Pa ND E F]; subst.
    assert (T : truth h1 a = match l with [] => false | _ => true end) by (unfold truth; rewrite C1; destruct l; reflexivity).
    assert (Op : forall p, parent (at_ h a) = Some p -> at_ h1 p = at_ h p /\ p <> a).
    { intros p Ep; destruct (Fi p Ep) as [_ [N _]]; assert (p <> a) by (intros ->; apply N; left; reflexivity).
      split; [|assumption]; apply O1; [intros I; apply N; right; exact I|assumption]. }
    assert (KEEP : left_of h h1 (parent (at_ h a)) (Rose a ks) (Some (Rose a l))).
    { split; [exact L1|split; [exact D1|split; [|split]]].
      + intros b Nb _; apply O1; [intros I; apply Nb; right; exact I|intros ->; apply Nb; left; reflexivity].
      + intros p Ep; apply (Op p Ep).
      + split; [constructor; [exact P1|exact ND1|exact C1|exact K1]|split; [reflexivity|]]; intros b [->|I]; [left; reflexivity|right; apply I1, I]. }
    rewrite T; destruct l as [|k l]; [|exists h1; split; [reflexivity|exact KEEP]].
    assert (LK : predicate s h1 a = P s (up ++ [a])).
    { rewrite (looks s h1 a (up ++ [a])).
      - f_equal; apply map_ext; intros b; rewrite D1; apply HD.
      - apply (chain_frame h); [exact Cu|]; intros b I; destruct (Nat.eq_dec b a) as [->|Nb]; [exact P1|rewrite O1; [reflexivity|apply Du, I|exact Nb]]. }
    rewrite LK; destruct (P s (up ++ [a])) as [s' [[|]|e]]; [exists h1; split; [reflexivity|exact KEEP]| |exists h1; reflexivity].
    assert (C0 : children (at_ h1 a) = []) by exact C1.
    unfold unlink; rewrite P1; destruct (parent (at_ h a)) as [p|] eqn:Ep.
    + destruct (Fi p eq_refl) as [Lp [Np G]]; destruct (Op p eq_refl) as [Ap Npa]; cbn [root] in G.
      assert (Lab : label (at_ h1 a) = label (at_ h a)) by (specialize (D1 a); injection D1; auto).
      unfold truth; rewrite Ap, Lab, G; destruct (children (at_ h p)) as [|kv ch] eqn:Ec; [discriminate G|]; rewrite <- Ec in *; clear Ec kv ch.
      set (h2 := put h1 p _); eexists; split; [reflexivity|]; set (h3 := put h2 a _).
      assert (L2 : length h2 = length h) by (unfold h2; rewrite length_put; exact L1).
      assert (L3 : length h3 = length h) by (unfold h3; rewrite length_put; exact L2).
      assert (A2 : at_ h2 a = at_ h1 a) by (unfold h2; apply at_put_other; congruence).
      assert (A3 : at_ h3 a = set_parent (at_ h1 a) None) by (unfold h3; rewrite at_put_same by lia; rewrite A2; reflexivity).
      assert (P3 : at_ h3 p = set_children (at_ h p) (ddel (label (at_ h a)) (children (at_ h p)))).
      { unfold h3; rewrite at_put_other by congruence; unfold h2; rewrite at_put_same by lia; reflexivity. }
      assert (O3 : forall b, b <> a -> b <> p -> at_ h3 b = at_ h1 b).
      { intros b Nb Nb'; unfold h3; rewrite at_put_other by congruence; unfold h2; apply at_put_other; congruence. }
      split; [exact L3|split; [|split; [|split]]].
      * intros b; destruct (Nat.eq_dec b a) as [->|Nb]; [unfold details; rewrite A3; cbn [set_parent label attrib]; apply D1|].
        destruct (Nat.eq_dec b p) as [->|Nb']; [unfold details; rewrite P3; reflexivity|unfold details at 1; rewrite O3 by assumption; apply D1].
      * intros b Nb Nb'; rewrite O3; [apply O1; [intros I; apply Nb; right; exact I|intros ->; apply Nb; left; reflexivity]|intros ->; apply Nb; left; reflexivity|congruence].
      * intros q Eq; injection Eq as <-; exact P3.
      * cbn [root]; rewrite A3; split; [exact C0|reflexivity].
    + eexists; split; [reflexivity|]; set (h2 := put h1 a _).
      assert (A2 : at_ h2 a = set_parent (at_ h1 a) None) by (unfold h2; apply at_put_same; lia).
      assert (O2 : forall b, b <> a -> at_ h2 b = at_ h1 b) by (intros b Nb; unfold h2; apply at_put_other; congruence).
      split; [unfold h2; rewrite length_put; exact L1|split; [|split; [|split]]].
      * intros b; destruct (Nat.eq_dec b a) as [->|Nb]; [unfold details; rewrite A2; cbn [set_parent label attrib]; apply D1|].
        unfold details at 1; rewrite O2 by exact Nb; apply D1.
      * intros b Nb _; rewrite O2; [apply O1; [intros I; apply Nb; right; exact I|intros ->; apply Nb; left; reflexivity]|intros ->; apply Nb; left; reflexivity].
      * discriminate.
      * cbn [root]; rewrite A2; split; [exact C0|reflexivity].
  Qed.
  Lemma ask_tree t : tree_ask t.
  Proof.
    induction t as [a ks IH] using rose_rec_ind; intros h par st s up K Nn Rg Fi HD Cu Du; cbn [root].
    pose proof K as K0; inversion K as [? ? ? Pa ND E F]; subst.
    assert (La : (a < length h)%nat) by (apply Rg; left; reflexivity).
    cbn [nodes] in Nn; inversion Nn as [|? ? Na Nk]; subst.
    assert (Ca : chain h a (up ++ [a])) by (apply (upchain_down h a (parent (at_ h a))); [exact Cu|reflexivity]).
    assert (Da : forall b, In b (up ++ [a]) -> ~ In b (flat_map nodes ks)).
    { intros b I; apply in_app_or in I; destruct I as [I|[<-|[]]]; [intros J; apply (Du b I); right; exact J|exact Na]. }
    rewrite judge_eq; destruct ks as [|k ks].
    - exists 1%nat; split; [rewrite rsize_eq; cbn; lia|].
      pose proof (ask_visit h h (parent (at_ h a)) a [] [] s up K0 Nn La Fi HD Ca Da eq_refl (fun _ => eq_refl) (fun _ _ _ => eq_refl) eq_refl E ND (Forall_nil _) (incl_refl _)) as V.
      cbn [fold_right].
      assert (RUN : forall f, for_postorder body (1 + f) h s (st ++ [(a, false)]) = match body h s a with (h, s, Ok None) => for_postorder body f h s st | out => out end).
      { intros f; cbn [Nat.add for_postorder]; rewrite pop_last_snoc; unfold truth at 1; rewrite E; cbn [map negb orb]; reflexivity. }
      destruct (P s (up ++ [a])) as [s' [b|e]].
      + destruct V as [h' [Eb Pr]]; exists h'; split; [|exact Pr]; intros f; rewrite RUN, Eb; reflexivity.
      + destruct V as [h' Eb]; intros f; exists h'; rewrite RUN, Eb; reflexivity.
    - remember (k :: ks) as ks0 eqn:Ek.
      destruct (ask_forest a (up ++ [a]) ks0 IH h [] (st ++ [(a, true)]) s) as [c [Bc Run]].
      + rewrite app_nil_r; exact E.
      + exact ND.
      + rewrite app_nil_r; exact F.
      + exact Nk.
      + rewrite app_nil_r; exact Na.
      + intros b _ [].
      + exact La.
      + intros b I; apply Rg; right; exact I.
      + exact HD.
      + exact Ca.
      + exact Da.
      + assert (START : forall f, for_postorder body (Datatypes.S f) h s (st ++ [(a, false)]) = for_postorder body f h s ((st ++ [(a, true)]) ++ map (fun k0 : rose addr => (root k0, false)) ks0)).
        { intros f; cbn [for_postorder]; rewrite pop_last_snoc; unfold truth at 1; rewrite E.
          replace (match map (fun k0 : rose addr => (label (at_ h (root k0)), root k0)) ks0 with [] => false | _ :: _ => true end) with true by (rewrite Ek; reflexivity).
          cbn [negb orb].
          replace (map (fun c0 : addr => (c0, false)) (dvals (map (fun k0 : rose addr => (label (at_ h (root k0)), root k0)) ks0))) with (map (fun k0 : rose addr => (root k0, false)) ks0)
            by (unfold dvals; rewrite !map_map; reflexivity).
          reflexivity. }
        exists (Datatypes.S (c + 1)); split; [rewrite rsize_eq; unfold fsize in Bc; lia|].
        destruct (fold_right (step (up ++ [a])) (s, Ok []) ks0) as [s1 [l|e]].
        * destruct Run as [h1 [Run [L1 [D1 [O1 [P1 [C1 [ND1 [K1 I1]]]]]]]]]; rewrite app_nil_r in I1.
          pose proof (ask_visit h h1 (parent (at_ h a)) a ks0 l s1 up K0 Nn La Fi HD Ca Da L1 D1 O1 P1 C1 ND1 K1 I1) as V.
          assert (RUN : forall f, for_postorder body (Datatypes.S (c + 1) + f) h s (st ++ [(a, false)]) = match body h1 s1 a with (h, s, Ok None) => for_postorder body f h s st | out => out end).
          { intros f; cbn [Nat.add]; rewrite START, <- Nat.add_assoc, Run; cbn [Nat.add for_postorder]; rewrite pop_last_snoc; cbn [orb]; reflexivity. }
          destruct l as [|k1 l1].
          -- destruct (P s1 (up ++ [a])) as [s' [b|e]].
             ++ destruct V as [h' [Eb Pr]]; exists h'; split; [|exact Pr]; intros f; rewrite RUN, Eb; reflexivity.
             ++ destruct V as [h' Eb]; intros f; exists h'; rewrite RUN, Eb; reflexivity.
          -- destruct V as [h' [Eb Pr]]; exists h'; split; [|exact Pr]; intros f; rewrite RUN, Eb; reflexivity.
        * intros f; destruct (Run (1 + f)%nat) as [h' R]; exists h'; cbn [Nat.add]; rewrite START, <- Nat.add_assoc; exact R.
  Qed.
End PruneAsk.

(* ---------------- trees of other things ---------------- *)
Lemma asked_eq {S A} (pred : S -> list A -> S * res bool) up x ks s : asked S A pred up (Rose x ks) s =
  match fold_right (fun k acc => match acc with
                                 | (s, Ok l) => match asked S A pred (up ++ [x]) k s with
                                                | (s, Ok o) => (s, Ok (match o with Some t => t :: l | None => l end))
                                                | (s, Raise e) => (s, Raise e)
                                                end
                                 | (s, Raise e) => (s, Raise e)
                                 end) (s, Ok []) ks with
  | (s, Raise e) => (s, Raise e)
  | (s, Ok []) => match pred s (up ++ [x]) with (s, Ok b) => (s, Ok (if b then Some (Rose x []) else None)) | (s, Raise e) => (s, Raise e) end
  | (s, Ok l) => (s, Ok (Some (Rose x l)))
  end.
Proof. reflexivity. Qed.
Lemma asked_map {S A B} (f : A -> B) (pred : S -> list B -> S * res bool) t : forall up s,
  asked S B pred (map f up) (rosemap f t) s =
  (let '(s', r) := asked S A (fun s l => pred s (map f l)) up t s in (s', rmap (option_map (rosemap f)) r)).
Proof.
  induction t as [x ks IH] using rose_rec_ind; intros up s; cbn [rosemap]; rewrite !asked_eq.
  replace (map f up ++ [f x]) with (map f (up ++ [x])) by (rewrite map_app; reflexivity).
  match goal with |- match fold_right ?F _ _ with _ => _ end = (let '(_, _) := match fold_right ?G _ _ with _ => _ end in _) =>
    assert (K : forall s, fold_right F (s, Ok []) (map (rosemap f) ks) = (let '(s', r) := fold_right G (s, Ok []) ks in (s', rmap (map (rosemap f)) r))) end.
  { clear -IH; intros s; induction IH as [|k ks Hk F IHks]; [reflexivity|]; cbn [fold_right map]; rewrite IHks.
    destruct (fold_right _ (s, Ok []) ks) as [s1 [l|e]]; cbn [rmap]; [|reflexivity].
    rewrite Hk; destruct (asked S A _ (up ++ [x]) k s1) as [s2 [[t|]|e]]; reflexivity. }
  rewrite K; clear K; destruct (fold_right _ (s, Ok []) ks) as [s1 [[|k l]|e]]; cbn [rmap map]; [|reflexivity|reflexivity].
  destruct (pred s1 (map f (up ++ [x]))) as [s2 [[|]|e]]; reflexivity.
Qed.

Lemma prune_ask_ok S predicate pred h t fuel s : (forall s h a l, chain h a l -> predicate s h a = pred s (map (details h) l)) ->
  keyed h t -> truth_opt h (parent (at_ h (root t))) = false -> (2 * rsize t < fuel)%nat ->
  match asked_twice S _ pred (rosemap (details h) t) s with
  | (s', Ok o) => exists h' r, prune_ask S predicate fuel h (root t) s = (s', Ok (h', r)) /\ (forall a, (a < length h)%nat -> at_ h' a = at_ h a) /\
      match o with
      | Some T => exists t', r = Some (root t') /\ linked h' None t' /\ rosemap (details h') t' = T /\ forall a, In a (nodes t') -> (length h <= a)%nat
      | None => r = None
      end
  | (s', Raise e) => prune_ask S predicate fuel h (root t) s = (s', Raise e)
  end.
Proof.
  intros Lo K T B; destruct (copy_ok h t fuel K T) as [h1 [t1 [E [Lk [K1 [D1 [N1 [G1 [O1 L1]]]]]]]]]; [lia|].
  unfold prune_ask, asked_twice; rewrite E.
  assert (Rs : rsize t1 = rsize t) by (unfold rsize; rewrite <- (map_length (details h1)), <- rosemap_nodes, D1, rosemap_nodes, map_length; reflexivity).
  destruct (ask_tree S predicate pred Lo (details h1) t1 h1 None [] s [] Lk N1 (keyed_range h1 t1 K1)) as [c [Bc Run]].
  { intros p; discriminate. } { reflexivity. } { reflexivity. } { intros b []. }
  rewrite <- D1; change (@nil (str * dict akey value)) with (map (details h1) []); rewrite asked_map; cbn [app] in Run.
  destruct (asked S addr _ [] t1 s) as [s1 [o|e]]; cbn [rmap option_map].
  2: { destruct (Run (fuel - c)%nat) as [h' R]; replace (c + (fuel - c))%nat with fuel in R by lia; rewrite R; reflexivity. }
  destruct Run as [h2 [Run [L2 [D2 [O2 [_ V]]]]]].
  assert (END : for_postorder (ask_body S predicate) fuel h1 s [(root t1, false)] = (h2, s1, Ok None)).
  { replace fuel with (c + (fuel - c))%nat by lia; rewrite Run; destruct (fuel - c)%nat as [|f] eqn:Ef; [lia|reflexivity]. }
  rewrite END.
  assert (OLD : forall a, (a < length h)%nat -> at_ h2 a = at_ h a).
  { intros a La; rewrite O2; [apply O1, La| |discriminate]; intros I; apply G1 in I; lia. }
  assert (TOP : forall l, children (at_ h2 (root t1)) = l -> parent (at_ h2 (root t1)) = None -> l = [] ->
    truth h2 (root t1) = false /\ predicate s1 h2 (root t1) = pred s1 [root (rosemap (details h1) t1)] /\ linked h2 None (Rose (root t1) [])).
  { intros l C P0 ->; split; [unfold truth; rewrite C; reflexivity|split].
    - rewrite (Lo s1 h2 (root t1) [root t1]) by (apply Chain_top, P0); cbn [map]; rewrite D2; destruct t1; reflexivity.
    - constructor; [exact P0|rewrite C; constructor|exact C|constructor]. }
  assert (LAST : forall l, children (at_ h2 (root t1)) = l -> parent (at_ h2 (root t1)) = None -> l = [] ->
    match (match pred s1 [root (rosemap (details h1) t1)] with
           | (s, Ok b) => (s, Ok (if b then Some (Rose (root (rosemap (details h1) t1)) []) else None)) | (s, Raise e) => (s, Raise e) end) with
    | (s', Ok o) => exists h' r, (if truth h2 (root t1) then (s1, Ok (h2, Some (root t1)))
        else match predicate s1 h2 (root t1) with (s, Ok b) => (s, Ok (h2, if b then Some (root t1) else None)) | (s, Raise e) => (s, Raise e) end) = (s', Ok (h', r)) /\
        (forall a, (a < length h)%nat -> at_ h' a = at_ h a) /\
        match o with
        | Some T => exists t', r = Some (root t') /\ linked h' None t' /\ rosemap (details h') t' = T /\ forall a, In a (nodes t') -> (length h <= a)%nat
        | None => r = None
        end
    | (s', Raise e) => (if truth h2 (root t1) then (s1, Ok (h2, Some (root t1)))
        else match predicate s1 h2 (root t1) with (s, Ok b) => (s, Ok (h2, if b then Some (root t1) else None)) | (s, Raise e) => (s, Raise e) end) = (s', Raise e)
    end).
  { intros l C P0 Z; destruct (TOP l C P0 Z) as [-> [-> LT]]; destruct (pred s1 _) as [s2 [[|]|e]]; [| |reflexivity].
    - exists h2, (Some (root t1)); split; [reflexivity|split; [exact OLD|]]; exists (Rose (root t1) []); split; [reflexivity|split; [exact LT|split]].
      + cbn [rosemap map]; rewrite D2; destruct t1; reflexivity.
      + intros a [<-|[]]; apply G1; destruct t1; left; reflexivity.
    - exists h2, None; split; [reflexivity|split; [exact OLD|reflexivity]]. }
  destruct o as [[x ks]|]; [|destruct V as [C P0]; exact (LAST [] C P0 eq_refl)].
  destruct V as [V [Rt In1]]; cbn [root] in Rt; subst x; inversion V as [? ? ? Pa ND Ech F]; subst.
  cbn [rosemap]; destruct ks as [|k ks]; cbn [map]; [exact (LAST [] Ech Pa eq_refl)|].
  exists h2, (Some (root t1)); assert (TT : truth h2 (root t1) = true) by (unfold truth; rewrite Ech; reflexivity).
  rewrite TT; split; [reflexivity|split; [exact OLD|]].
  exists (Rose (root t1) (k :: ks)); split; [reflexivity|split; [exact V|split]].
  - transitivity (rosemap (details h1) (Rose (root t1) (k :: ks))); [|reflexivity]; apply rosemap_frame; intros a _; apply D2.
  - intros a I; apply G1, In1, I.
Qed.
Lemma prune_ask_same p fuel h a : prune_ask unit (fun s h n => (s, Ok (p h n))) fuel h a tt = (tt, prune p fuel h a).
Proof.
  unfold prune_ask, prune; destruct (copy fuel h a) as [[h1 n]|e]; cbn [bind]; [|reflexivity].
  assert (BODY : forall h s x, ask_body unit (fun s h n => (s, Ok (p h n))) h s x = prune_body p h s x).
  { intros h0 s x; unfold ask_body, prune_body; destruct (truth h0 x); cbn [orb]; [reflexivity|]; destruct (p h0 x); reflexivity. }
  assert (LOOP : forall f h s st, for_postorder (ask_body unit (fun s h n => (s, Ok (p h n)))) f h s st = for_postorder (prune_body p) f h s st).
  { induction f as [|f IH]; intros h0 s st; [reflexivity|]; cbn [for_postorder]; destruct (pop_last st) as [[[x v] st']|]; [|reflexivity].
    destruct (v || negb (truth h0 x)); [|apply IH]; rewrite BODY; destruct (prune_body p h0 s x) as [[h2 s2] [[[]|]|e]]; try reflexivity; apply IH. }
  rewrite LOOP; destruct (for_postorder _ fuel h1 tt _) as [[h2 []] [o|e]]; [|reflexivity].
  destruct (truth h2 n); cbn [orb]; reflexivity.
Qed.

(* ---------------- the answers, in order ---------------- *)
Section Answers.
  Variables S A : Type.
  Variable g : S -> list A -> S.
  Variable ans : list A -> res bool.
  Notation pred := (fun s l => (g s l, ans l)).
  Notation yes := (answered ans).
  Lemma ask_all_app l m s : ask_all g ans (l ++ m) s = match ask_all g ans l s with (s, None) => ask_all g ans m s | r => r end.
  Proof. revert s; induction l as [|x l IH]; intros s; [reflexivity|]; cbn [app ask_all]; destruct (ans x); [apply IH|reflexivity]. Qed.
  Lemma asked_answers d t : forall up s, asked S A pred up t s =
    match ask_all g ans (bare yes (pathed up t)) s with
    | (s, None) => (s, Ok (if viable yes (pathed up t) then Some (rosemap (fun l => last l d) (keep yes (pathed up t))) else None))
    | (s, Some e) => (s, Raise e)
    end.
  Proof.
    induction t as [x ks IH] using rose_rec_ind; intros up s; rewrite asked_eq; cbn [pathed bare keep rosemap]; rewrite viable_eq.
    set (here := up ++ [x]).
    match goal with |- match fold_right ?F _ _ with _ => _ end = _ =>
      assert (K : forall s, fold_right F (s, Ok []) ks =
        match ask_all g ans (fold_right (fun k l => l ++ bare yes k) [] (map (pathed here) ks)) s with
        | (s, None) => (s, Ok (map (rosemap (fun l => last l d)) (kept yes (map (pathed here) ks))))
        | (s, Some e) => (s, Raise e)
        end) end.
    { clear -IH; intros s; induction IH as [|k ks Hk F IHks]; [reflexivity|]; cbn [fold_right map]; rewrite IHks, ask_all_app.
      destruct (ask_all g ans (fold_right _ [] (map (pathed here) ks)) s) as [s1 [e|]]; [reflexivity|].
      rewrite Hk; destruct (ask_all g ans (bare yes (pathed here k)) s1) as [s2 [e|]]; [reflexivity|].
      unfold kept; cbn [flat_map]; destruct (viable yes (pathed here k)); reflexivity. }
    rewrite K, ask_all_app; clear K; destruct (ask_all g ans (fold_right _ [] (map (pathed here) ks)) s) as [s1 [e|]]; [reflexivity|].
    pose proof (kept_nil yes (map (pathed here) ks)) as KN; fold (kept yes (map (pathed here) ks)).
    destruct (kept yes (map (pathed here) ks)) as [|k0 l0]; rewrite <- KN; cbn [map ask_all orb].
    - rewrite orb_false_r; unfold answered; destruct (ans here) as [b|e] eqn:EA; [|reflexivity].
      unfold here; rewrite last_last; destruct b; reflexivity.
    - rewrite orb_true_r; unfold here; rewrite last_last; reflexivity.
  Qed.
  Lemma asked_twice_answers d t s : asked_twice S A pred t s =
    match ask_all g ans (bare yes (pathed [] t) ++ if existsb (viable yes) (branches (pathed [] t)) then [] else [[root t]]) s with
    | (s, None) => (s, Ok (if viable yes (pathed [] t) then Some (rosemap (fun l => last l d) (keep yes (pathed [] t))) else None))
    | (s, Some e) => (s, Raise e)
    end.
  Proof.
    unfold asked_twice; rewrite (asked_answers d), ask_all_app; destruct (ask_all g ans (bare yes (pathed [] t)) s) as [s1 [e|]]; [reflexivity|].
    destruct t as [x ks]; cbn [pathed app branches root]; rewrite viable_eq; pose proof (kept_nil yes (map (pathed [x]) ks)) as KN.
    cbn [keep rosemap]; fold (kept yes (map (pathed [x]) ks)); destruct (kept yes (map (pathed [x]) ks)) as [|k0 l0]; rewrite <- KN; cbn [map ask_all orb last].
    - rewrite orb_false_r; unfold answered; destruct (ans [x]) as [[|]|e]; reflexivity.
    - rewrite orb_true_r; reflexivity.
  Qed.
End Answers.
