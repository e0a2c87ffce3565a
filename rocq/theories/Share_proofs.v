(* Share_proofs.v *)
From Verif Require Import Base Rose Maps_model Maps_proofs Tree_model Tree_spec Tree_proofs Layout_model TreeFrame_spec TreeFrame_proofs Share_model Share_spec.

(* ---- what is seen ---- *)
Lemma length_view w : length (view w) = length (objs w).
Proof. apply map_length. Qed.
Lemma seen_some w a n : nth_error (objs w) a = Some n -> seen w a = shown w n.
Proof.
  intro E. unfold seen, at_, fetch, view. apply nth_error_nth. rewrite nth_error_map, E. reflexivity.
Qed.
Lemma seen_none w a : nth_error (objs w) a = None -> seen w a = no_node.
Proof. intro E. apply at_out. rewrite length_view. apply nth_error_None, E. Qed.
Lemma store_ext (h h' : list node) : length h = length h' -> (forall a, at_ h a = at_ h' a) -> h = h'.
Proof. intros L E. apply (nth_ext _ _ no_node no_node L). intros a _. exact (E a). Qed.
Lemma nth_error_put {D} (st : list D) : forall a b x, nth_error (put st a x) b =
  if Nat.eqb a b then match nth_error st a with Some _ => Some x | None => None end else nth_error st b.
Proof.
  induction st as [|y r IH]; intros [|a] [|b] x; cbn [put nth_error Nat.eqb]; try reflexivity.
  - destruct (Nat.eqb a b); reflexivity.
  - apply IH.
Qed.
Lemma put_out {D} (st : list D) : forall a x, (length st <= a)%nat -> put st a x = st.
Proof.
  induction st as [|y r IH]; intros [|a] x L; cbn [put length] in *; try reflexivity; [lia|]. f_equal. apply IH. lia.
Qed.

Section Step.
  Context (w : world) (S0 : sound w).
  (* ---- a change to the dictionary of a node, as every node sees it ---- *)
  Lemma seen_with_kids a x b : seen (with_kids w a x) b =
    match nth_error (objs w) a, nth_error (objs w) b with
    | Some n, Some m => if Nat.eqb (s_children n) (s_children m) then set_children (seen w b) x else seen w b
    | _, _ => seen w b
    end.
  Proof.
    unfold with_kids. destruct (nth_error (objs w) a) as [n|] eqn:A; [|reflexivity].
    destruct (nth_error (objs w) b) as [m|] eqn:B.
    - rewrite (seen_some (put_kids w (s_children n) x) b m) by exact B. rewrite (seen_some w b m B).
      unfold shown, kid_dict, att_dict, put_kids, set_children; cbn [objs kid_dicts att_dicts label attrib parent].
      destruct (Nat.eqb_spec (s_children n) (s_children m)) as [E | E].
      + rewrite <- E, fetch_put_same by apply (proj1 (S0 a n A)). reflexivity.
      + rewrite fetch_put_other by exact E. reflexivity.
    - rewrite !seen_none by exact B. reflexivity.
  Qed.
  Lemma seen_with_atts a x b : seen (with_atts w a x) b =
    match nth_error (objs w) a, nth_error (objs w) b with
    | Some n, Some m => if Nat.eqb (s_attrib n) (s_attrib m) then set_attrib (seen w b) x else seen w b
    | _, _ => seen w b
    end.
  Proof.
    unfold with_atts. destruct (nth_error (objs w) a) as [n|] eqn:A; [|reflexivity].
    destruct (nth_error (objs w) b) as [m|] eqn:B.
    - rewrite (seen_some (put_atts w (s_attrib n) x) b m) by exact B. rewrite (seen_some w b m B).
      unfold shown, kid_dict, att_dict, put_atts, set_attrib; cbn [objs kid_dicts att_dicts label children parent].
      destruct (Nat.eqb_spec (s_attrib n) (s_attrib m)) as [E | E].
      + rewrite <- E, fetch_put_same by apply (proj2 (S0 a n A)). reflexivity.
      + rewrite fetch_put_other by exact E. reflexivity.
    - rewrite !seen_none by exact B. reflexivity.
  Qed.
End Step.
Lemma seen_with_parent w a p b : seen (with_parent w a p) b =
  if Nat.eqb a b && Nat.ltb b (length (objs w)) then set_parent (seen w b) p else seen w b.
Proof.
  unfold with_parent. destruct (nth_error (objs w) a) as [n|] eqn:A.
  - assert (La : (a < length (objs w))%nat) by (apply nth_error_Some; congruence).
    set (w' := {| objs := _ |}).
    destruct (Nat.eqb_spec a b) as [<- | N]; cbn [andb].
    + destruct (Nat.ltb_spec a (length (objs w))); [|lia].
      rewrite (seen_some w' a {| s_label := s_label n; s_children := s_children n; s_attrib := s_attrib n; s_parent := p |}).
      * rewrite (seen_some w a n A). reflexivity.
      * cbn [w' objs]. rewrite nth_error_put, Nat.eqb_refl, A. reflexivity.
    + destruct (nth_error (objs w) b) as [m|] eqn:B.
      * rewrite (seen_some w b m B), (seen_some w' b m); [reflexivity|]. cbn [w' objs]. rewrite nth_error_put, (proj2 (Nat.eqb_neq a b) N). exact B.
      * rewrite (seen_none w b B), (seen_none w' b); [reflexivity|]. cbn [w' objs]. rewrite nth_error_put, (proj2 (Nat.eqb_neq a b) N). exact B.
  - apply nth_error_None in A. destruct (Nat.eqb_spec a b) as [<- | N]; cbn [andb]; [|reflexivity].
    destruct (Nat.ltb_spec a (length (objs w))); [lia | reflexivity].
Qed.

(* pointers of the nodes do not change *)
Definition ptrs (n : snode) : addr * addr := (s_children n, s_attrib n).
Lemma ptrs_with_kids w a x : objs (with_kids w a x) = objs w /\ att_dicts (with_kids w a x) = att_dicts w /\
  length (kid_dicts (with_kids w a x)) = length (kid_dicts w).
Proof. unfold with_kids. destruct (nth_error _ _); cbn; auto. split; [reflexivity|]. split; [reflexivity | apply length_put]. Qed.
Lemma ptrs_with_atts w a x : objs (with_atts w a x) = objs w /\ kid_dicts (with_atts w a x) = kid_dicts w /\
  length (att_dicts (with_atts w a x)) = length (att_dicts w).
Proof. unfold with_atts. destruct (nth_error _ _); cbn; auto. split; [reflexivity|]. split; [reflexivity | apply length_put]. Qed.
Lemma ptrs_with_parent w a p : length (objs (with_parent w a p)) = length (objs w) /\
  kid_dicts (with_parent w a p) = kid_dicts w /\ att_dicts (with_parent w a p) = att_dicts w /\
  (forall b m, nth_error (objs (with_parent w a p)) b = Some m -> exists m', nth_error (objs w) b = Some m' /\ ptrs m = ptrs m').
Proof.
  unfold with_parent. destruct (nth_error (objs w) a) as [n|] eqn:A; cbn [objs kid_dicts att_dicts].
  - split; [apply length_put|]. split; [reflexivity|]. split; [reflexivity|]. intros b m. rewrite nth_error_put.
    destruct (Nat.eqb_spec a b) as [<- | N]; [|eauto]. rewrite A. intro X; injection X as <-. exists n. split; [reflexivity | reflexivity].
  - repeat split; auto. intros b m E. exists m. auto.
Qed.
(* pointers and sizes decide soundness and ownership *)
Definition keeps (w w' : world) : Prop :=
  (length (kid_dicts w) <= length (kid_dicts w'))%nat /\ (length (att_dicts w) <= length (att_dicts w'))%nat /\ length (objs w') = length (objs w) /\
  (forall b m, nth_error (objs w') b = Some m -> exists m', nth_error (objs w) b = Some m' /\ ptrs m = ptrs m').
Lemma keeps_refl w : keeps w w.
Proof. repeat split; auto. intros b m E; exists m; auto. Qed.
Lemma keeps_trans w1 w2 w3 : keeps w1 w2 -> keeps w2 w3 -> keeps w1 w3.
Proof.
  intros (A1 & A2 & A3 & A4) (B1 & B2 & B3 & B4). repeat split; try lia. intros b m E. destruct (B4 b m E) as (m' & E' & P).
  destruct (A4 b m' E') as (m'' & E'' & P'). exists m''. split; congruence.
Qed.
Lemma keeps_kids w a x : keeps w (with_kids w a x).
Proof.
  destruct (ptrs_with_kids w a x) as (A & B & C). repeat split; rewrite ?A, ?B, ?C; auto. intros b m E; exists m; auto.
Qed.
Lemma keeps_atts w a x : keeps w (with_atts w a x).
Proof.
  destruct (ptrs_with_atts w a x) as (A & B & C). repeat split; rewrite ?A, ?B, ?C; auto. intros b m E; exists m; auto.
Qed.
Lemma keeps_parent w a x : keeps w (with_parent w a x).
Proof. destruct (ptrs_with_parent w a x) as (A & B & C & D). repeat split; rewrite ?A, ?B, ?C; auto. Qed.
Lemma keeps_sound w w' : keeps w w' -> sound w -> sound w'.
Proof.
  intros (A1 & A2 & A3 & A4) S0 a n E. destruct (A4 a n E) as (m & F & P). injection P as P1 P2. rewrite P1, P2.
  destruct (S0 a m F). lia.
Qed.
Lemma keeps_own R w w' : keeps w w' -> own_theirs R w -> own_theirs R w'.
Proof.
  intros (A1 & A2 & A3 & A4) O a b n m Ra N Ea Eb. destruct (A4 a n Ea) as (n' & Fa & Pa). destruct (A4 b m Eb) as (m' & Fb & Pb).
  injection Pa as -> ->. injection Pb as -> ->. exact (O a b n' m' Ra N Fa Fb).
Qed.

(* ---- the same changes, when the node shares nothing ---- *)
Section Owned.
  Context (R : addr -> Prop) (w : world) (S0 : sound w) (O : own_theirs R w).
  Lemma view_with_kids a x : R a -> view (with_kids w a x) = put (view w) a (set_children (seen w a) x).
  Proof.
    intro Ra. apply store_ext; [rewrite length_put, !length_view, (proj1 (ptrs_with_kids w a x)); reflexivity|].
    intro b. fold (seen (with_kids w a x) b). rewrite (seen_with_kids w S0).
    destruct (nth_error (objs w) a) as [n|] eqn:A.
    - assert (La : (a < length (view w))%nat) by (rewrite length_view; apply nth_error_Some; congruence).
      destruct (Nat.eq_dec a b) as [<- | N].
      + rewrite A, Nat.eqb_refl, at_put_same by exact La. reflexivity.
      + rewrite at_put_other by exact N. destruct (nth_error (objs w) b) as [m|] eqn:B; [|reflexivity].
        rewrite (proj2 (Nat.eqb_neq _ _) (proj1 (O a b n m Ra N A B))). reflexivity.
    - rewrite put_out; [reflexivity|]. rewrite length_view. apply nth_error_None, A.
  Qed.
  Lemma view_with_atts a x : R a -> view (with_atts w a x) = put (view w) a (set_attrib (seen w a) x).
  Proof.
    intro Ra. apply store_ext; [rewrite length_put, !length_view, (proj1 (ptrs_with_atts w a x)); reflexivity|].
    intro b. fold (seen (with_atts w a x) b). rewrite (seen_with_atts w S0).
    destruct (nth_error (objs w) a) as [n|] eqn:A.
    - assert (La : (a < length (view w))%nat) by (rewrite length_view; apply nth_error_Some; congruence).
      destruct (Nat.eq_dec a b) as [<- | N].
      + rewrite A, Nat.eqb_refl, at_put_same by exact La. reflexivity.
      + rewrite at_put_other by exact N. destruct (nth_error (objs w) b) as [m|] eqn:B; [|reflexivity].
        rewrite (proj2 (Nat.eqb_neq _ _) (proj2 (O a b n m Ra N A B))). reflexivity.
    - rewrite put_out; [reflexivity|]. rewrite length_view. apply nth_error_None, A.
  Qed.
End Owned.
Lemma view_with_parent w a p : view (with_parent w a p) = put (view w) a (set_parent (seen w a) p).
Proof.
  apply store_ext; [rewrite length_put, !length_view; apply (ptrs_with_parent w a p)|].
  intro b. fold (seen (with_parent w a p) b). rewrite seen_with_parent.
  destruct (Nat.eqb_spec a b) as [<- | N]; cbn [andb]; [|rewrite at_put_other by exact N; reflexivity].
  destruct (Nat.ltb_spec a (length (objs w))).
  - rewrite at_put_same by (rewrite length_view; lia). reflexivity.
  - rewrite put_out by (rewrite length_view; lia). reflexivity.
Qed.

(* ---- new dictionaries, new nodes ---- *)
Lemma fetch_app_old {D} (d0 : D) st x a : (a < length st)%nat -> fetch d0 (st ++ x) a = fetch d0 st a.
Proof. intro L. unfold fetch. apply app_nth1, L. Qed.
Lemma fetch_app_new {D} (d0 : D) st x : fetch d0 (st ++ [x]) (length st) = x.
Proof. unfold fetch. rewrite app_nth2 by lia. rewrite Nat.sub_diag. reflexivity. Qed.
Lemma fetch_out {D} (d0 : D) st a : (length st <= a)%nat -> fetch d0 st a = d0.
Proof. apply nth_overflow. Qed.
(* more dictionaries, the old ones as they were *)
Definition extends (w w' : world) : Prop :=
  objs w' = objs w /\ (exists x, kid_dicts w' = kid_dicts w ++ x) /\ (exists y, att_dicts w' = att_dicts w ++ y).
Lemma extends_refl w : extends w w.
Proof. split; [reflexivity|]. split; exists []; rewrite app_nil_r; reflexivity. Qed.
Lemma extends_trans w1 w2 w3 : extends w1 w2 -> extends w2 w3 -> extends w1 w3.
Proof.
  intros (A & (x & B) & (y & C)) (A' & (x' & B') & (y' & C')). split; [congruence|]. split.
  - exists (x ++ x'). rewrite B', B, app_assoc. reflexivity.
  - exists (y ++ y'). rewrite C', C, app_assoc. reflexivity.
Qed.
Lemma extends_keeps w w' : extends w w' -> keeps w w'.
Proof.
  intros (A & (x & B) & (y & C)). repeat split; rewrite ?A, ?B, ?C, ?app_length; try lia. intros b m E; exists m; auto.
Qed.
Lemma extends_view w w' : sound w -> extends w w' -> view w' = view w.
Proof.
  intros S0 (A & (x & B) & (y & C)). unfold view. rewrite A. apply map_ext_in. intros n I. apply In_nth_error in I. destruct I as [a I].
  destruct (S0 a n I). unfold shown, kid_dict, att_dict. rewrite B, C, !fetch_app_old by assumption. reflexivity.
Qed.
Lemma new_kids_extends w d : extends w (fst (new_kids w d)).
Proof. split; [reflexivity|]. split; [exists [d] | exists []]; cbn; rewrite ?app_nil_r; reflexivity. Qed.
Lemma new_atts_extends w d : extends w (fst (new_atts w d)).
Proof. split; [reflexivity|]. split; [exists [] | exists [d]]; cbn; rewrite ?app_nil_r; reflexivity. Qed.

Definition given_kids (w : world) (c : option addr) : dict str addr := match c with Some d => kid_dict w d | None => [] end.
Definition given_atts (w : world) (c : option addr) : dict akey value := match c with Some d => att_dict w d | None => [] end.
Lemma or_kids_ok w c w' d : or_kids w c = (w', d) -> extends w w' /\ kid_dict w' d = given_kids w c /\ (d < length (kid_dicts w'))%nat /\
  (given_kids w c <> [] -> w' = w /\ c = Some d) /\ (given_kids w c = [] -> d = length (kid_dicts w)) /\ att_dicts w' = att_dicts w.
Proof.
  assert (N : forall w', new_kids w [] = (w', d) -> extends w w' /\ kid_dict w' d = [] /\ (d < length (kid_dicts w'))%nat /\ d = length (kid_dicts w) /\ att_dicts w' = att_dicts w).
  { unfold new_kids. intros v X; injection X as <- <-. split; [exact (new_kids_extends w [])|].
    unfold kid_dict; cbn [kid_dicts att_dicts]. rewrite fetch_app_new, app_length; cbn [length]. repeat split; lia. }
  unfold or_kids, given_kids. destruct c as [e|].
  - destruct (kid_dict w e) as [|kv r] eqn:K.
    + intro X. destruct (N _ X) as (A & B & C & D & F). do 3 (split; [assumption|]). split; [intro Z; exfalso; apply Z; reflexivity|]. split; [intros _; exact D | exact F].
    + intro X; injection X as <- <-. split; [apply extends_refl|]. split; [exact K|]. split.
      * destruct (Nat.lt_ge_cases e (length (kid_dicts w))) as [L | L]; [exact L|]. unfold kid_dict in K. rewrite fetch_out in K by exact L. discriminate.
      * repeat split; auto; discriminate.
  - intro X. destruct (N _ X) as (A & B & C & D & F). do 3 (split; [assumption|]). split; [intro Z; exfalso; apply Z; reflexivity|]. split; [intros _; exact D | exact F].
Qed.
Lemma or_atts_ok w c w' d : or_atts w c = (w', d) -> extends w w' /\ att_dict w' d = given_atts w c /\ (d < length (att_dicts w'))%nat /\
  (given_atts w c <> [] -> w' = w /\ c = Some d) /\ (given_atts w c = [] -> d = length (att_dicts w)) /\ kid_dicts w' = kid_dicts w.
Proof.
  assert (N : forall w', new_atts w [] = (w', d) -> extends w w' /\ att_dict w' d = [] /\ (d < length (att_dicts w'))%nat /\ d = length (att_dicts w) /\ kid_dicts w' = kid_dicts w).
  { unfold new_atts. intros v X; injection X as <- <-. split; [exact (new_atts_extends w [])|].
    unfold att_dict; cbn [kid_dicts att_dicts]. rewrite fetch_app_new, app_length; cbn [length]. repeat split; lia. }
  unfold or_atts, given_atts. destruct c as [e|].
  - destruct (att_dict w e) as [|kv r] eqn:K.
    + intro X. destruct (N _ X) as (A & B & C & D & F). do 3 (split; [assumption|]). split; [intro Z; exfalso; apply Z; reflexivity|]. split; [intros _; exact D | exact F].
    + intro X; injection X as <- <-. split; [apply extends_refl|]. split; [exact K|]. split.
      * destruct (Nat.lt_ge_cases e (length (att_dicts w))) as [L | L]; [exact L|]. unfold att_dict in K. rewrite fetch_out in K by exact L. discriminate.
      * repeat split; auto; discriminate.
  - intro X. destruct (N _ X) as (A & B & C & D & F). do 3 (split; [assumption|]). split; [intro Z; exfalso; apply Z; reflexivity|]. split; [intros _; exact D | exact F].
Qed.
(* the constructor *)
Lemma make_ok w l c a p w' n : sound w -> make w l c a p = (w', n) ->
  n = length (objs w) /\ sound w' /\
  view w' = view w ++ [{| label := l; children := given_kids w c; attrib := given_atts w a; parent := p |}] /\
  (exists k d, objs w' = objs w ++ [{| s_label := l; s_children := k; s_attrib := d; s_parent := p |}] /\
    (given_kids w c <> [] -> c = Some k) /\ (given_kids w c = [] -> k = length (kid_dicts w)) /\
    (given_atts w a <> [] -> a = Some d) /\ (given_atts w a = [] -> d = length (att_dicts w))) /\
  (exists x, kid_dicts w' = kid_dicts w ++ x) /\ (exists y, att_dicts w' = att_dicts w ++ y).
Proof.
  intros S0 E. unfold make in E. destruct (or_kids w c) as [w1 k] eqn:K. destruct (or_atts w1 a) as [w2 d] eqn:A.
  injection E as <- <-.
  destruct (or_kids_ok _ _ _ _ K) as (X1 & K1 & K2 & K3 & K4 & K5). destruct (or_atts_ok _ _ _ _ A) as (X2 & A1 & A2 & A3 & A4 & A5).
  assert (X : extends w w2) by exact (extends_trans _ _ _ X1 X2).
  assert (S2 : sound w2) by exact (keeps_sound _ _ (extends_keeps _ _ X) S0).
  assert (G : given_atts w1 a = given_atts w a) by (unfold given_atts, att_dict; rewrite K5; reflexivity).
  rewrite G, K5 in *.
  pose proof X as (XO & XK & XA).
  split; [rewrite XO; reflexivity|]. split; [|split; [|split; [|cbn [kid_dicts att_dicts]; split; [exact XK | exact XA]]]].
  - intros b m. cbn [objs kid_dicts att_dicts]. destruct (Nat.lt_ge_cases b (length (objs w2))) as [L | L].
    + rewrite nth_error_app1 by exact L. apply S2.
    + rewrite nth_error_app2 by exact L. destruct (b - length (objs w2))%nat as [|[|]]; cbn; try discriminate. intro Y; injection Y as <-.
      cbn. rewrite A5. split; [exact K2 | exact A2].
  - unfold view at 1; cbn [objs]. rewrite map_app; cbn [map]. f_equal.
    + change (view w2 = view w). apply extends_view; assumption.
    + unfold shown; cbn [s_label s_children s_attrib s_parent]. f_equal. f_equal; [|exact A1].
      unfold kid_dict in *; cbn [kid_dicts]. rewrite A5. exact K1.
  - exists k, d. cbn [objs]. rewrite XO. split; [reflexivity|]. repeat split; auto.
    + intro N. apply K3, N.
    + intro N. apply A3, N.
Qed.

(* ---- a region of nodes that own dictionaries made since [w0] ---- *)
Definition fresh (w0 : world) (a : addr) : Prop := (length (objs w0) <= a)%nat.
Definition region (w0 w : world) : Prop :=
  sound w /\ own_theirs (fresh w0) w /\
  ((length (objs w0) <= length (objs w))%nat /\ (length (kid_dicts w0) <= length (kid_dicts w))%nat /\ (length (att_dicts w0) <= length (att_dicts w))%nat) /\
  ((forall d, (d < length (kid_dicts w0))%nat -> kid_dict w d = kid_dict w0 d) /\
   (forall d, (d < length (att_dicts w0))%nat -> att_dict w d = att_dict w0 d)) /\
  (forall a n, fresh w0 a -> nth_error (objs w) a = Some n -> (length (kid_dicts w0) <= s_children n)%nat /\ (length (att_dicts w0) <= s_attrib n)%nat).
Lemma region_start w : sound w -> region w w.
Proof.
  intro S0. split; [exact S0|]. split; [|split; [lia|split; [split; reflexivity|]]].
  - intros a b n m Fa _ E. unfold fresh in Fa. assert (a < length (objs w))%nat by (apply nth_error_Some; congruence). lia.
  - intros a n Fa E. unfold fresh in Fa. assert (a < length (objs w))%nat by (apply nth_error_Some; congruence). lia.
Qed.
Lemma region_nothing w : sound w -> owned w -> region nothing w.
Proof.
  intros S0 O. split; [exact S0|]. split; [intros a b n m _; apply O; exact I|]. cbn.
  split; [lia|]. split; [split; intros d L; lia|]. intros; lia.
Qed.
Lemma nothing_region w : region nothing w -> sound w /\ owned w.
Proof. intros (S0 & O & _). split; [exact S0|]. intros a b n m _. apply O. unfold fresh; cbn. lia. Qed.
Lemma region_sound w0 w : region w0 w -> sound w.
Proof. intro H; apply H. Qed.
Lemma region_own w0 w : region w0 w -> own_theirs (fresh w0) w.
Proof. intro H; apply H. Qed.
Lemma region_step w0 w w' : region w0 w -> keeps w w' ->
  (forall d, (d < length (kid_dicts w0))%nat -> kid_dict w' d = kid_dict w d) ->
  (forall d, (d < length (att_dicts w0))%nat -> att_dict w' d = att_dict w d) -> region w0 w'.
Proof.
  intros (S0 & O & (L1 & L2 & L3) & (D1 & D2) & F) K E1 E2.
  split; [exact (keeps_sound _ _ K S0)|]. split; [exact (keeps_own _ _ _ K O)|].
  destruct K as (K1 & K2 & K3 & K4). split; [lia|]. split.
  - split; intros d L; [rewrite E1 by exact L; apply D1, L | rewrite E2 by exact L; apply D2, L].
  - intros a n Fa E. destruct (K4 a n E) as (m & E' & P). injection P as -> ->. exact (F a m Fa E').
Qed.
Lemma region_with_kids w0 w a x : region w0 w -> fresh w0 a -> region w0 (with_kids w a x).
Proof.
  intros H Fa. apply (region_step w0 w _ H (keeps_kids w a x)).
  - intros d L. unfold with_kids. destruct (nth_error (objs w) a) as [n|] eqn:E; [|reflexivity].
    unfold kid_dict, put_kids; cbn [kid_dicts]. apply fetch_put_other. destruct H as (_ & _ & _ & _ & F). pose proof (F a n Fa E). lia.
  - intros d L. unfold att_dict. rewrite (proj1 (proj2 (ptrs_with_kids w a x))). reflexivity.
Qed.
Lemma region_with_atts w0 w a x : region w0 w -> fresh w0 a -> region w0 (with_atts w a x).
Proof.
  intros H Fa. apply (region_step w0 w _ H (keeps_atts w a x)).
  - intros d L. unfold kid_dict. rewrite (proj1 (proj2 (ptrs_with_atts w a x))). reflexivity.
  - intros d L. unfold with_atts. destruct (nth_error (objs w) a) as [n|] eqn:E; [|reflexivity].
    unfold att_dict, put_atts; cbn [att_dicts]. apply fetch_put_other. destruct H as (_ & _ & _ & _ & F). pose proof (F a n Fa E). lia.
Qed.
Lemma region_with_parent w0 w a p : region w0 w -> region w0 (with_parent w a p).
Proof.
  intro H. destruct (ptrs_with_parent w a p) as (_ & B & C & _). apply (region_step w0 w _ H (keeps_parent w a p)).
  - intros d L. unfold kid_dict. rewrite B. reflexivity.
  - intros d L. unfold att_dict. rewrite C. reflexivity.
Qed.
Lemma region_extends w0 w w' : region w0 w -> extends w w' -> region w0 w'.
Proof.
  intros H X. apply (region_step w0 w _ H (extends_keeps _ _ X)); destruct X as (_ & (x & E) & (y & E')); destruct H as (_ & _ & (_ & L1 & L2) & _); intros d L.
  - unfold kid_dict. rewrite E. apply fetch_app_old. lia.
  - unfold att_dict. rewrite E'. apply fetch_app_old. lia.
Qed.
(* a node that is given dictionaries no node refers to *)
Lemma region_make w0 w l c a p w' n : region w0 w -> make w l c a p = (w', n) ->
  (forall d, c = Some d -> (length (kid_dicts w0) <= d)%nat /\ forall b m, nth_error (objs w) b = Some m -> s_children m <> d) ->
  (forall d, a = Some d -> (length (att_dicts w0) <= d)%nat /\ forall b m, nth_error (objs w) b = Some m -> s_attrib m <> d) ->
  region w0 w' /\ n = length (objs w) /\
  view w' = view w ++ [{| label := l; children := given_kids w c; attrib := given_atts w a; parent := p |}].
Proof.
  intros H E Hc Ha. destruct (make_ok _ _ _ _ _ _ _ (region_sound _ _ H) E) as (N & S1 & V & (k & d & OB & K1 & K2 & A1 & A2) & (x & XK) & (y & XA)).
  split; [|split; assumption]. pose proof H as (S0 & O & (L1 & L2 & L3) & (D1 & D2) & F).
  assert (Pk : (length (kid_dicts w0) <= k)%nat /\ forall b m, nth_error (objs w) b = Some m -> s_children m <> k).
  { destruct (given_kids w c) as [|e r] eqn:G.
    - rewrite K2 by reflexivity. split; [exact L2|]. intros b m I. pose proof (proj1 (S0 b m I)). lia.
    - apply Hc, K1. discriminate. }
  assert (Pd : (length (att_dicts w0) <= d)%nat /\ forall b m, nth_error (objs w) b = Some m -> s_attrib m <> d).
  { destruct (given_atts w a) as [|e r] eqn:G.
    - rewrite A2 by reflexivity. split; [exact L3|]. intros b m I. pose proof (proj2 (S0 b m I)). lia.
    - apply Ha, A1. discriminate. }
  destruct Pk as [Pk Qk]. destruct Pd as [Pd Qd].
  assert (T : forall b m, nth_error (objs w') b = Some m -> nth_error (objs w) b = Some m /\ (b < length (objs w))%nat \/ b = length (objs w) /\ s_children m = k /\ s_attrib m = d).
  { intros b m. rewrite OB. destruct (Nat.lt_ge_cases b (length (objs w))) as [L | L].
    - rewrite nth_error_app1 by exact L. auto.
    - rewrite nth_error_app2 by exact L. destruct (b - length (objs w))%nat as [|[|]] eqn:Z; cbn; try discriminate. intro Y; injection Y as <-.
      right. repeat split. lia. }
  split; [exact S1|]. split.
  { intros b b' m m' Rb Nb E1 E2. destruct (T _ _ E1) as [[T1 _] | (-> & -> & ->)]; destruct (T _ _ E2) as [[T2 _] | (-> & -> & ->)].
    - exact (O b b' m m' Rb Nb T1 T2).
    - split; [exact (Qk b m T1) | exact (Qd b m T1)].
    - split; [exact (not_eq_sym (Qk b' m' T2)) | exact (not_eq_sym (Qd b' m' T2))].
    - contradiction. }
  rewrite OB, XK, XA, !app_length. split; [cbn [length]; lia|]. split.
  - split; intros e L; unfold kid_dict, att_dict; rewrite ?XK, ?XA, fetch_app_old by lia; [apply D1 | apply D2]; exact L.
  - intros b m Fb Eb. rewrite <- OB in Eb. destruct (T _ _ Eb) as [[T1 _] | (_ & -> & ->)]; [exact (F b m Fb T1) | lia].
Qed.
Lemma dup_ok w0 w l a p w' n : region w0 w -> dup w l a p = (w', n) -> region w0 w' /\ n = length (objs w) /\
  view w' = view w ++ [{| label := l; children := children (seen w a); attrib := attrib (seen w a); parent := p |}].
Proof.
  intros H E. unfold dup in E. pose proof H as (S0 & _ & (_ & L1 & L2) & _).
  pose proof (new_kids_extends w (children (seen w a))) as X1.
  destruct (new_kids w (children (seen w a))) as [w1 c] eqn:E1. cbn [fst] in X1.
  assert (V1 : view w1 = view w) by (apply extends_view; assumption).
  assert (S1 : seen w1 a = seen w a) by (unfold seen; rewrite V1; reflexivity). rewrite S1 in E.
  pose proof (new_atts_extends w1 (attrib (seen w a))) as X2.
  destruct (new_atts w1 (attrib (seen w a))) as [w2 d] eqn:E2. cbn [fst] in X2.
  assert (X : extends w w2) by exact (extends_trans _ _ _ X1 X2).
  assert (H2 : region w0 w2) by exact (region_extends _ _ _ H X).
  assert (V2 : view w2 = view w) by (apply extends_view; assumption).
  injection E1 as <- <-. injection E2 as <- <-. cbn [objs kid_dicts att_dicts] in *.
  edestruct (region_make w0 _ _ _ _ _ _ _ H2 E) as (A & B & C).
  - intros e Y; injection Y as <-. split; [exact L1|]. intros b m I. pose proof (proj1 (S0 b m I)). lia.
  - intros e Y; injection Y as <-. split; [exact L2|]. intros b m I. pose proof (proj2 (S0 b m I)). lia.
  - split; [exact A|]. split; [exact B|]. rewrite C, V2. cbn [given_kids given_atts]. unfold kid_dict, att_dict; cbn [kid_dicts att_dicts].
    rewrite !fetch_app_new. reflexivity.
Qed.

(* ---- copy: the same as on nodes with their own dictionaries, whatever the
   original shares ---- *)
Lemma s_copy_kids_ok w0 n items : fresh w0 n -> forall w stack w' stack', region w0 w -> s_copy_kids w n items stack = (w', stack') ->
  region w0 w' /\ copy_kids (view w) n items stack = (view w', stack').
Proof.
  intro Fn. induction items as [|[l c] r IH]; intros w stack w' stack' H E; cbn [s_copy_kids copy_kids] in *.
  - injection E as <- <-. split; [exact H | reflexivity].
  - destruct (dup w l c (Some n)) as [w1 a] eqn:D. destruct (dup_ok _ _ _ _ _ _ _ H D) as (H1 & -> & V1).
    unfold new_node. rewrite length_view. fold (seen w c). rewrite <- V1.
    assert (V2 : view (with_kids w1 n (dset l (length (objs w)) (children (seen w1 n)))) =
                 put (view w1) n (set_children (at_ (view w1) n) (dset l (length (objs w)) (children (at_ (view w1) n))))).
    { apply (view_with_kids (fresh w0)); [exact (region_sound _ _ H1) | exact (region_own _ _ H1) | exact Fn]. }
    rewrite <- V2. apply IH; [|exact E]. apply region_with_kids; assumption.
Qed.
Lemma copy_kids_stack (P : addr -> Prop) n items : forall h stack h' stack', (forall a, (length h <= a)%nat -> P a) -> Forall P stack ->
  copy_kids h n items stack = (h', stack') -> Forall P stack'.
Proof.
  induction items as [|[l c] r IH]; intros h stack h' stack' Q F E; cbn [copy_kids new_node] in E; [congruence|].
  refine (IH _ _ _ _ _ _ E); [|apply Forall_app; split; [exact F | constructor; [apply Q; lia | constructor]]].
  intros a. rewrite length_put, app_length. intro La. apply Q. lia.
Qed.
Lemma s_copy_loop_ok w0 fuel : forall w stack, region w0 w -> Forall (fresh w0) stack ->
  match s_copy_loop fuel w stack with
  | Ok w' => region w0 w' /\ copy_loop fuel (view w) stack = Ok (view w')
  | Raise e => copy_loop fuel (view w) stack = Raise e
  end.
Proof.
  induction fuel as [|f IH]; intros w stack H F; [reflexivity|]. cbn [s_copy_loop copy_loop].
  destruct (pop_last stack) as [[n rest]|] eqn:P; [|split; [exact H | reflexivity]].
  apply pop_last_inv in P. subst stack. apply Forall_app in F. destruct F as [F1 F2]. inversion F2 as [|? ? Fn _]; subst.
  destruct (s_copy_kids w n (children (seen w n)) rest) as [w1 st1] eqn:K.
  destruct (s_copy_kids_ok w0 n _ Fn _ _ _ _ H K) as [H1 K1]. unfold seen in K1. rewrite K1. apply IH; [exact H1|].
  refine (copy_kids_stack (fresh w0) n _ _ _ _ _ _ F1 K1). intros a. rewrite length_view. unfold fresh. destruct H as (_ & _ & (L & _) & _). lia.
Qed.
Lemma s_copy_ok w0 fuel w self : region w0 w ->
  match s_copy fuel w self with
  | Ok (w', r) => region w0 w' /\ copy fuel (view w) self = Ok (view w', r) /\ r = length (objs w)
  | Raise e => copy fuel (view w) self = Raise e
  end.
Proof.
  intro H. unfold s_copy, copy. fold (seen w self). destruct (truth_opt (view w) (parent (seen w self))); [reflexivity|].
  destruct (dup w (label (seen w self)) self None) as [w1 a] eqn:D. destruct (dup_ok _ _ _ _ _ _ _ H D) as (H1 & -> & V1).
  unfold new_node. rewrite length_view, <- V1.
  assert (Fa : fresh w0 (length (objs w))) by (unfold fresh; destruct H as (_ & _ & (L & _) & _); lia).
  pose proof (s_copy_loop_ok w0 fuel w1 [length (objs w)] H1 (Forall_cons _ Fa (Forall_nil _))) as C.
  destruct (s_copy_loop fuel w1 [length (objs w)]) as [w2|e]; cbn [bind].
  - destruct C as [H2 C]. rewrite C; cbn [bind]. auto.
  - rewrite C. reflexivity.
Qed.

(* ---- the other operations, on nodes of the region ---- *)
Lemma s_add_child_ok w0 w p c : region w0 w -> fresh w0 p -> region w0 (s_add_child w p c) /\ view (s_add_child w p c) = add_child (view w) p c.
Proof.
  intros H Fp. unfold s_add_child, add_child. split.
  - apply region_with_parent, region_with_kids; assumption.
  - rewrite view_with_parent, (view_with_kids (fresh w0)) by first [exact (region_sound _ _ H) | exact (region_own _ _ H) | exact Fp].
    unfold seen. rewrite (view_with_kids (fresh w0)) by first [exact (region_sound _ _ H) | exact (region_own _ _ H) | exact Fp]. reflexivity.
Qed.
Lemma s_del_child_ok w0 w p c : region w0 w -> fresh w0 p -> fresh w0 c -> region w0 (fst (s_del_child w p c)) /\
  del_child (view w) p c = (view (fst (s_del_child w p c)), snd (s_del_child w p c)).
Proof.
  intros H Fp Fc. unfold s_del_child, del_child. fold (seen w c) (seen w p). destruct (dget (label (seen w c)) (children (seen w p))) as [b|]; [|split; [exact H | reflexivity]].
  cbn [fst snd]. set (w1 := with_kids w p _). assert (H1 : region w0 w1) by (apply region_with_kids; assumption).
  assert (V1 : view w1 = put (view w) p (set_children (seen w p) (ddel (label (seen w c)) (children (seen w p))))).
  { apply (view_with_kids (fresh w0)); first [exact (region_sound _ _ H) | exact (region_own _ _ H) | exact Fp]. }
  split; [apply region_with_atts; assumption|].
  rewrite (view_with_atts (fresh w0)) by first [exact (region_sound _ _ H1) | exact (region_own _ _ H1) | exact Fc].
  unfold seen in *. rewrite V1. reflexivity.
Qed.
Lemma s_unlink_ok w0 w a : region w0 w -> (forall p, parent (seen w a) = Some p -> fresh w0 p) -> region w0 (fst (s_unlink w a)) /\
  unlink (view w) a = (view (fst (s_unlink w a)), snd (s_unlink w a)).
Proof.
  intros H Fp. unfold s_unlink, unlink. fold (seen w a).
  assert (D : region w0 (with_parent w a None) /\ (put (view w) a (set_parent (seen w a) None), Ok tt) = (view (with_parent w a None), @Ok unit tt)).
  { split; [apply region_with_parent, H | rewrite view_with_parent; reflexivity]. }
  destruct (parent (seen w a)) as [p|]; [|exact D]. destruct (truth (view w) p); [|exact D]. fold (seen w p).
  destruct (dget (label (seen w a)) (children (seen w p))) as [b|]; [|split; [exact H | reflexivity]]. cbn [fst snd].
  set (w1 := with_kids w p _). assert (H1 : region w0 w1) by (apply region_with_kids; [exact H | apply Fp; reflexivity]).
  assert (V1 : view w1 = put (view w) p (set_children (seen w p) (ddel (label (seen w a)) (children (seen w p))))).
  { apply (view_with_kids (fresh w0)); first [exact (region_sound _ _ H) | exact (region_own _ _ H) | apply Fp; reflexivity]. }
  split; [apply region_with_parent, H1|]. rewrite view_with_parent. unfold seen. rewrite V1. reflexivity.
Qed.
Lemma s_setitem_ok w0 w a k v : region w0 w -> fresh w0 a -> region w0 (s_setitem w a k v) /\ view (s_setitem w a k v) = node_setitem (view w) a k v.
Proof.
  intros H Fa. split; [apply region_with_atts; assumption|].
  unfold s_setitem. rewrite (view_with_atts (fresh w0)) by first [exact (region_sound _ _ H) | exact (region_own _ _ H) | exact Fa]. reflexivity.
Qed.
Lemma s_delitem_ok w0 w a k : region w0 w -> fresh w0 a -> region w0 (fst (s_delitem w a k)) /\
  node_delitem (view w) a k = (view (fst (s_delitem w a k)), snd (s_delitem w a k)).
Proof.
  intros H Fa. unfold s_delitem, node_delitem. fold (seen w a). destruct (dget k (attrib (seen w a))); [|split; [exact H | reflexivity]].
  cbn [fst snd]. split; [apply region_with_atts; assumption|].
  rewrite (view_with_atts (fresh w0)) by first [exact (region_sound _ _ H) | exact (region_own _ _ H) | exact Fa]. reflexivity.
Qed.

(* ---- programs ---- *)
Lemma fresh_nothing a : fresh nothing a.
Proof. unfold fresh; cbn; lia. Qed.
Lemma s_perform_ok w o : region nothing w -> region nothing (s_perform w o) /\ view (s_perform w o) = perform (view w) o.
Proof.
  intro H. destruct o as [l d|a k v|a k|p c|p c|a|f a]; cbn [s_perform perform].
  - pose proof (new_atts_extends w d) as X. destruct (new_atts w d) as [w1 a] eqn:E. cbn [fst] in X.
    pose proof (region_extends _ _ _ H X) as H1. pose proof (extends_view w w1 (region_sound _ _ H) X) as V1.
    destruct (make w1 l None (Some a) None) as [w2 n] eqn:M. cbn [fst new_node].
    injection E as E' <-. destruct (region_make nothing _ _ _ _ _ _ _ H1 M) as (A & B & C).
    + discriminate.
    + intros e Y; injection Y as <-. cbn. split; [lia|]. rewrite <- E'; cbn [objs]. intros b m I. destruct H as (S0 & _). pose proof (proj2 (S0 b m I)). lia.
    + split; [exact A|]. rewrite C, V1. cbn [given_kids given_atts]. rewrite <- E'. unfold att_dict; cbn [att_dicts]. rewrite fetch_app_new. reflexivity.
  - apply s_setitem_ok; [exact H | apply fresh_nothing].
  - destruct (s_delitem_ok nothing w a k H (fresh_nothing a)) as [A B]. rewrite B. auto.
  - apply s_add_child_ok; [exact H | apply fresh_nothing].
  - destruct (s_del_child_ok nothing w p c H (fresh_nothing p) (fresh_nothing c)) as [A B]. rewrite B. auto.
  - destruct (s_unlink_ok nothing w a H (fun p _ => fresh_nothing p)) as [A B]. rewrite B. auto.
  - pose proof (s_copy_ok nothing f w a H) as C. destruct (s_copy f w a) as [[w' r]|e].
    + destruct C as (A & -> & _). auto.
    + rewrite C. auto.
Qed.
Lemma s_program_ok ops : forall w, sound w -> owned w ->
  sound (s_program w ops) /\ owned (s_program w ops) /\ view (s_program w ops) = program (view w) ops.
Proof.
  assert (G : forall w, region nothing w -> region nothing (s_program w ops) /\ view (s_program w ops) = program (view w) ops).
  { induction ops as [|o r IH]; intros w H; [split; [exact H | reflexivity]|].
    unfold s_program, program in *; cbn [fold_left]. destruct (s_perform_ok w o H) as [A B]. rewrite <- B. apply IH, A. }
  intros w S0 O. destruct (G w (region_nothing w S0 O)) as [A B]. destruct (nothing_region _ A). auto.
Qed.
