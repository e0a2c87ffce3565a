(* ClassCache_proofs.v *)
From Verif Require Import Base ClassCache_model ClassCache_spec.

Section Proofs.
  Context {C A : Type} {EC : EqB C}.
  Variable mro : C -> list C.
  Variable lazy : C -> bool.
  Variable kana : C.
  Variable table : A.
  Hypothesis O : orders mro.
  Notation answer := (answer mro lazy kana table).
  Notation after := (after mro lazy kana table).
  Notation got := (got mro lazy kana table).
  Notation asked := (asked mro lazy kana table).
  Notation nearest := (nearest mro lazy kana table).
  Notation get_cached := (get_cached mro lazy kana table).
  Notation get_attr := (get_attr mro).

  Lemma mro_head c : mro c = c :: bases mro c.
  Proof. destruct (O c) as [H _]. unfold bases. destruct (mro c); [discriminate|]. cbn in *. congruence. Qed.
  Lemma after_snoc h c r : after (h ++ [(c, r)]) = fst (get_cached (after h) c r).
  Proof. unfold ClassCache_model.after. rewrite fold_left_app. reflexivity. Qed.

  (* one call *)
  Lemma look_set l c (x : inst C A) d : look (c :: l) (dset c x d) = Some x.
  Proof. cbn [look]. rewrite dget_dset_same. reflexivity. Qed.
  Definition built (c : C) (r : res A) (w : world C A) : res (inst C A) :=
    if lazy c then Ok (Inst (made w) kana table) else rmap (Inst (made w) c) r.
  Lemma call_spec w c r :
    match built c r w with
    | Raise e => get_cached w c r = (w, Raise e)
    | Ok fresh =>
        exists w', get_cached w c r = (w', Ok (match get_attr w c with Some x => x | None => fresh end)) /\
          (forall d, d <> c -> dget d (attrs w') = dget d (attrs w)) /\
          (lazy c = false \/ get_attr w c = None -> dget c (attrs w') = Some (match get_attr w c with Some x => x | None => fresh end)) /\
          (lazy c = true -> get_attr w c <> None -> w' = w) /\
          (made w <= made w' <= S (made w))%nat /\ (get_attr w c = None -> made w' = S (made w))
    end.
  Proof.
    unfold built, ClassCache_model.get_cached. destruct (lazy c) eqn:L.
    - unfold lazy_cached, construct. destruct (get_attr w c) as [x|] eqn:G.
      + exists w. rewrite G. cbn [of_option]. split; [reflexivity|]. split; [reflexivity|]. split; [intros [X|X]; discriminate|]. split; [reflexivity|]. split; [lia | discriminate].
      + exists (World (dset c (Inst (made w) kana table) (attrs w)) (S (made w))). unfold set_attr, ClassCache_model.get_attr. cbn [attrs made].
        rewrite (mro_head c), look_set. split; [reflexivity|].
        split; [intros d N; apply dget_dset_other; congruence|]. split; [intros _; apply dget_dset_same|]. split; [congruence|]. split; [lia | reflexivity].
    - unfold eager_cached, construct. destruct r as [a|e]; [|reflexivity]. cbn [rmap bind]. eexists. unfold set_attr. cbn [attrs made].
      assert (E : get_attr (World (attrs w) (S (made w))) c = get_attr w c) by reflexivity. rewrite E.
      set (x := match get_attr w c with Some x => x | None => Inst (made w) c a end).
      unfold ClassCache_model.get_attr at 1. cbn [attrs]. rewrite (mro_head c), look_set. split; [reflexivity|]. cbn [attrs made].
      split; [intros d N; apply dget_dset_other; congruence|]. split; [intros _; apply dget_dset_same|]. split; [discriminate|]. split; [lia | reflexivity].
  Qed.

  Lemma answer_spec h c r : answer h c r = match built c r (after h) with
      | Raise e => Raise e
      | Ok fresh => Ok (match get_attr (after h) c with Some x => x | None => fresh end)
      end.
  Proof. unfold ClassCache_model.answer. pose proof (call_spec (after h) c r) as H. destruct (built c r (after h)) as [x|e]; [destruct H as (w' & -> & _)|rewrite H]; reflexivity. Qed.

  (* what a class has of its own stays *)
  Lemma own_kept w c r d x : dget d (attrs w) = Some x -> dget d (attrs (fst (get_cached w c r))) = Some x.
  Proof.
    intro D. pose proof (call_spec w c r) as H. destruct (built c r w) as [f|e]; [|rewrite H; exact D].
    destruct H as (w' & -> & Oth & Own & Same & _). cbn [fst]. destruct (eqb_spec d c) as [-> | N]; [|rewrite Oth by exact N; exact D].
    assert (G : get_attr w c = Some x) by (unfold ClassCache_model.get_attr; rewrite mro_head; cbn [look]; rewrite D; reflexivity).
    destruct (lazy c) eqn:L; [rewrite Same by (reflexivity || congruence); exact D|]. rewrite Own by (left; reflexivity). rewrite G. reflexivity.
  Qed.
  Lemma look_keep (d d' : dict C (inst C A)) : (forall c x, dget c d = Some x -> dget c d' = Some x) ->
    forall l x, look l d = Some x -> exists y, look l d' = Some y.
  Proof.
    intros K l. induction l as [|c l IH]; intros x L; [discriminate|]. cbn [look] in *. destruct (dget c d) as [y|] eqn:D.
    - rewrite (K c y D). eexists. reflexivity.
    - destruct (dget c d') as [z|]; [eexists; reflexivity | exact (IH x L)].
  Qed.
  Lemma look_in l (d : dict C (inst C A)) x : look l d = Some x -> exists c, In c l /\ dget c d = Some x.
  Proof.
    induction l as [|c l IH]; intro L; [discriminate|]. cbn [look] in L. destruct (dget c d) as [y|] eqn:D; [injection L as ->; exists c; split; [left; reflexivity | exact D]|].
    destruct (IH L) as (e & I & E). exists e. split; [right; exact I | exact E].
  Qed.
  (* what is stored has been answered *)
  Lemma got_more h e x l : got h e x -> got (h ++ l) e x.
  Proof. intros (b & r & a & -> & E). exists b, r, (a ++ l). rewrite <- app_assoc. split; [reflexivity | exact E]. Qed.
  Lemma got_last h c r x : answer h c r = Ok x -> got (h ++ [(c, r)]) c x.
  Proof. intro E. exists h, r, []. split; [reflexivity | exact E]. Qed.
  Lemma got_inv h c r e x : got (h ++ [(c, r)]) e x -> got h e x \/ (e = c /\ answer h c r = Ok x).
  Proof.
    intros (b & r' & a & E & X). destruct (rev a) as [|y a'] eqn:R.
    - apply (f_equal (@rev _)) in R. rewrite rev_involutive in R. subst a. apply app_inj_tail in E. destruct E as [-> E]. injection E as -> ->. right. split; [reflexivity | exact X].
    - apply (f_equal (@rev _)) in R. rewrite rev_involutive in R. cbn [rev] in R. subst a. rewrite app_comm_cons, app_assoc in E. apply app_inj_tail in E. destruct E as [-> _].
      left. exists b, r', (rev a'). split; [reflexivity | exact X].
  Qed.
  Lemma stored_got h d x : dget d (attrs (after h)) = Some x -> got h d x.
  Proof.
    revert x. induction h as [|[c r] h IH] using rev_ind; intros x; [discriminate|]. rewrite after_snoc. intro D.
    destruct (dget d (attrs (after h))) as [y|] eqn:E.
    - rewrite (own_kept _ c r d y E) in D. injection D as ->. apply got_more, IH. reflexivity.
    - pose proof (call_spec (after h) c r) as H. pose proof (answer_spec h c r) as Aw. destruct (built c r (after h)) as [f|e]; [|rewrite H in D; cbn [fst] in D; congruence].
      destruct H as (w' & Hw & Oth & Own & Same & _). rewrite Hw in D. cbn [fst] in D. destruct (eqb_spec d c) as [-> | N]; [|rewrite Oth in D by exact N; congruence].
      apply got_last. rewrite Aw. destruct (lazy c) eqn:L.
      + destruct (get_attr (after h) c) as [z|] eqn:G; [rewrite Same in D by congruence; congruence|]. rewrite Own in D by (right; reflexivity). congruence.
      + rewrite Own in D by (left; reflexivity). exact (f_equal (of_option PlainException) D).
  Qed.
  Lemma got_stored_eager h c x : lazy c = false -> got h c x -> dget c (attrs (after h)) = Some x.
  Proof.
    intros L. revert x. induction h as [|[d r] h IH] using rev_ind; intros x G; [destruct G as (b & r & a & E & _); destruct b; discriminate|].
    rewrite after_snoc. apply got_inv in G. destruct G as [G | [<- E]]; [apply own_kept, IH, G|].
    pose proof (call_spec (after h) c r) as H. rewrite answer_spec in E. destruct (built c r (after h)) as [f|e]; [|discriminate].
    destruct H as (w' & Hw & _ & Own & _). rewrite Hw. cbn [fst]. rewrite Own by (left; exact L). congruence.
  Qed.
  (* answers come from somewhere *)
  Lemma got_somewhere h c x : got h c x -> exists d, In d (mro c) /\ dget d (attrs (after h)) = Some x.
  Proof.
    revert x. induction h as [|[d r] h IH] using rev_ind; intros x G; [destruct G as (b & r & a & E & _); destruct b; discriminate|].
    rewrite after_snoc. apply got_inv in G. destruct G as [G | [<- E]].
    - destruct (IH x G) as (e & I & D). exists e. split; [exact I | apply own_kept, D].
    - pose proof (call_spec (after h) c r) as H. rewrite answer_spec in E. destruct (built c r (after h)) as [f|e]; [|discriminate].
      destruct H as (w' & Hw & _ & Own & Same & _). rewrite Hw. cbn [fst].
      destruct (get_attr (after h) c) as [z|] eqn:G.
      + destruct (lazy c) eqn:L.
        * rewrite Same by congruence. injection E as ->. exact (look_in _ _ _ G).
        * exists c. split; [rewrite mro_head; left; reflexivity|]. rewrite Own by (left; reflexivity). exact (f_equal (fun o => match o with Ok v => Some v | _ => None end) E).
      + exists c. split; [rewrite mro_head; left; reflexivity|]. rewrite Own by (right; reflexivity). exact (f_equal (fun o => match o with Ok v => Some v | _ => None end) E).
  Qed.

  (* identity *)
  Lemma identities h : (forall d x, dget d (attrs (after h)) = Some x -> (oid x < made (after h))%nat) /\
    (forall d e x y, dget d (attrs (after h)) = Some x -> dget e (attrs (after h)) = Some y -> oid x = oid y -> x = y).
  Proof.
    induction h as [|[c r] h [B U]] using rev_ind; [split; discriminate|]. rewrite after_snoc.
    pose proof (call_spec (after h) c r) as H. destruct (built c r (after h)) as [f|e] eqn:F; [|rewrite H; split; assumption].
    assert (Of : oid f = made (after h)).
    { unfold built in F. destruct (lazy c); [injection F as <-; reflexivity|]. destruct r as [a|]; [|discriminate]. injection F as <-. reflexivity. }
    destruct H as (w' & -> & Oth & Own & Same & [M1 M2] & M3). cbn [fst].
    assert (V : forall d x, dget d (attrs w') = Some x -> (exists e, dget e (attrs (after h)) = Some x) \/ (x = f /\ made w' = S (made (after h)))).
    { intros d x D. destruct (eqb_spec d c) as [-> | N]; [|rewrite Oth in D by exact N; left; exists d; exact D].
      destruct (get_attr (after h) c) as [z|] eqn:G.
      - left. destruct (lazy c) eqn:L; [rewrite Same in D by congruence; exists c; exact D|]. rewrite Own in D by (left; reflexivity). injection D as <-.
        destruct (look_in _ _ _ G) as (e & _ & E). exists e. exact E.
      - right. rewrite Own in D by (right; reflexivity). injection D as <-. split; [reflexivity | apply M3; reflexivity]. }
    split.
    - intros d x D. destruct (V d x D) as [[e E] | [-> M]]; [specialize (B e x E); lia | lia].
    - intros d e x y D E Q. destruct (V d x D) as [[d' D'] | [-> M]], (V e y E) as [[e' E'] | [-> M']].
      + exact (U _ _ _ _ D' E' Q).
      + specialize (B _ _ D'). lia.
      + specialize (B _ _ E'). lia.
      + reflexivity.
  Qed.
  Lemma one_object h c d x y : got h c x -> got h d y -> oid x = oid y -> x = y.
  Proof. intros G G' E. destruct (got_somewhere h c x G) as (e & _ & D), (got_somewhere h d y G') as (e' & _ & D'). exact (proj2 (identities h) _ _ _ _ D D' E). Qed.

  (* the classes of the answers *)
  Lemma class_of_stored : kana_below mro lazy kana -> forall h d x, dget d (attrs (after h)) = Some x -> In (klass x) (mro d).
  Proof.
    intros KB h. induction h as [|[c r] h IH] using rev_ind; intros d x; [discriminate|]. rewrite after_snoc.
    pose proof (call_spec (after h) c r) as H. destruct (built c r (after h)) as [f|e] eqn:F; [|rewrite H; apply IH].
    destruct H as (w' & -> & Oth & Own & Same & _). cbn [fst]. intro D.
    destruct (eqb_spec d c) as [-> | N]; [|rewrite Oth in D by exact N; exact (IH d x D)].
    destruct (get_attr (after h) c) as [z|] eqn:G.
    - destruct (lazy c) eqn:L; [rewrite Same in D by congruence; exact (IH c x D)|]. rewrite Own in D by (left; reflexivity). injection D as <-.
      destruct (look_in _ _ _ G) as (e & I & E). exact (proj2 (proj2 (O c)) e I _ (IH e z E)).
    - rewrite Own in D by (right; reflexivity). injection D as <-. unfold built in F. destruct (lazy c) eqn:L.
      + injection F as <-. exact (KB c L).
      + destruct r as [a|]; [|discriminate]. injection F as <-. cbn [klass]. rewrite mro_head. left. reflexivity.
  Qed.
  Lemma class_of_got : kana_below mro lazy kana -> forall h c x, got h c x -> In (klass x) (mro c).
  Proof. intros KB h c x G. destruct (got_somewhere h c x G) as (d & I & D). exact (proj2 (proj2 (O c)) d I _ (class_of_stored KB h d x D)). Qed.

  (* single inheritance *)
  Lemma look_app (a b : list C) (d : dict C (inst C A)) : look (a ++ b) d = match look a d with Some x => Some x | None => look b d end.
  Proof. induction a as [|c a IH]; [reflexivity|]. cbn [app look]. destruct (dget c d); [reflexivity | exact IH]. Qed.
  Lemma look_same (l : list C) (d d' : dict C (inst C A)) : (forall c, In c l -> dget c d' = dget c d) -> look l d' = look l d.
  Proof.
    induction l as [|c l IH]; intro H; [reflexivity|]. cbn [look]. rewrite (H c (or_introl eq_refl)), IH; [reflexivity|]. intros e I. apply H. right. exact I.
  Qed.
  Lemma In_dec (c : C) l : In c l \/ ~ In c l.
  Proof. destruct (mem c l) eqn:M; [left; apply mem_In; exact M | right; intro I; apply mem_In in I; congruence]. Qed.
  Lemma attr_kept w c r e x : single mro -> get_attr w e = Some x -> get_attr (fst (get_cached w c r)) e = Some x.
  Proof.
    intros Si G. pose proof (call_spec w c r) as H. destruct (built c r w) as [f|x']; [|rewrite H; exact G].
    destruct H as (w' & -> & Oth & Own & Same & _). cbn [fst]. destruct (In_dec c (mro e)) as [I|N].
    - destruct (Si e c I) as [l E]. unfold ClassCache_model.get_attr in *. rewrite E, look_app in *.
      assert (Nl : ~ In c l).
      { intro J. destruct (O e) as (_ & ND & _). rewrite E, mro_head in ND. apply NoDup_remove_2 in ND. apply ND. apply in_or_app. left. exact J. }
      rewrite (look_same l (attrs w) (attrs w')) by (intros d J; apply Oth; intros ->; exact (Nl J)).
      destruct (look l (attrs w)) as [y|]; [exact G|]. destruct (lazy c) eqn:L; [rewrite Same by congruence; exact G|].
      rewrite mro_head. cbn [look]. rewrite Own by (left; reflexivity). rewrite G. reflexivity.
    - unfold ClassCache_model.get_attr in *. rewrite (look_same _ (attrs w)); [exact G|]. intros d J. apply Oth. intros ->. exact (N J).
  Qed.
  Definition tame : Prop := (forall c, lazy c = false) \/ single mro.
  Lemma got_attr h c x : (lazy c = false \/ single mro) -> got h c x -> get_attr (after h) c = Some x.
  Proof.
    intros [L|Si] G; [unfold ClassCache_model.get_attr; rewrite mro_head; cbn [look]; rewrite (got_stored_eager h c x L G); reflexivity|].
    revert x G. induction h as [|[d r] h IH] using rev_ind; intros x G; [destruct G as (b & r & a & E & _); destruct b; discriminate|].
    rewrite after_snoc. apply got_inv in G. destruct G as [G | [<- E]]; [apply attr_kept; [exact Si | apply IH, G]|].
    pose proof (call_spec (after h) c r) as H. rewrite answer_spec in E. destruct (built c r (after h)) as [f|e]; [|discriminate].
    destruct H as (w' & Hw & _ & Own & Same & _). rewrite Hw. cbn [fst].
    destruct (get_attr (after h) c) as [z|] eqn:G.
    - destruct (lazy c) eqn:L; [rewrite Same by congruence; congruence|]. unfold ClassCache_model.get_attr. rewrite mro_head. cbn [look]. rewrite Own by (left; reflexivity). congruence.
    - unfold ClassCache_model.get_attr. rewrite mro_head. cbn [look]. rewrite Own by (right; reflexivity). congruence.
  Qed.
  Lemma asked_dec h c : asked h c \/ ~ asked h c.
  Proof.
    induction h as [|[d r] h IH] using rev_ind; [right; intros (x & b & r & a & E & _); destruct b; discriminate|].
    destruct IH as [[x G]|N]; [left; exists x; apply got_more, G|]. destruct (eqb_spec c d) as [-> | Nd].
    - destruct (answer h d r) as [x|e] eqn:E; [left; exists x; apply got_last, E|]. right. intros [x G]. apply got_inv in G. destruct G as [G | [_ G]]; [apply N; exists x; exact G | congruence].
    - right. intros [x G]. apply got_inv in G. destruct G as [G | [G _]]; [apply N; exists x; exact G | contradiction].
  Qed.
  Lemma attr_nearest h c x : tame -> get_attr (after h) c = Some x <-> nearest h (mro c) x.
  Proof.
    intros T.
    assert (X : forall l a, mro c = a ++ l -> (look l (attrs (after h)) = Some x <-> nearest h l x)).
    { induction l as [|d l IH]; intros a E; [split; [discriminate | inversion 1]|].
      assert (E' : mro c = (a ++ [d]) ++ l) by (rewrite <- app_assoc; exact E). specialize (IH _ E').
      assert (Y : forall y, got h d y -> look (d :: l) (attrs (after h)) = Some y).
      { intros y G. destruct T as [T|Si].
        - cbn [look]. rewrite (got_stored_eager h d y (T d) G). reflexivity.
        - pose proof (got_attr h d y (or_intror Si) G) as Z. unfold ClassCache_model.get_attr in Z. replace (d :: l) with (mro d); [exact Z|].
          destruct (Si c d) as [a' E2]; [rewrite E; apply in_or_app; right; left; reflexivity|].
          destruct (O c) as (_ & ND & _). assert (Q : a' = a).
          { rewrite E2, (mro_head d) in E. assert (ND' := ND). rewrite E2, (mro_head d) in ND'. clear -E ND'. revert a E. induction a' as [|u a' IH]; intros [|v a] E; cbn [app] in E.
            - reflexivity.
            - injection E as <- E. exfalso. cbn [app] in ND'. inversion ND' as [|? ? N _]. apply N. rewrite E. apply in_or_app. right. left. reflexivity.
            - injection E as <- E. exfalso. cbn [app] in ND'. inversion ND' as [|? ? N _]. apply N. apply in_or_app. right. left. reflexivity.
            - injection E as <- E. cbn [app] in ND'. inversion ND' as [|? ? _ ND2]; subst. f_equal. exact (IH ND2 a E). }
          subst a'. rewrite E in E2. apply app_inv_head in E2. symmetry. exact E2. }
      destruct (asked_dec h d) as [[y G]|N].
      - rewrite (Y y G). split; [intro Z; injection Z as <-; apply Near_here, G|]. inversion 1 as [? ? ? G'|? ? ? N]; subst; [rewrite <- (Y y G), (Y x G'); reflexivity|]. elim N. exists y. exact G.
      - cbn [look]. destruct (dget d (attrs (after h))) as [z|] eqn:D; [elim N; exists z; apply stored_got, D|]. rewrite IH. split; [apply Near_next, N|].
        inversion 1 as [? ? ? G'|? ? ? N']; subst; [elim N; exists x; exact G' | assumption]. }
    apply (X (mro c) []). reflexivity.
  Qed.
  Lemma attr_none h c : get_attr (after h) c = None <-> forall d, In d (mro c) -> ~ asked h d.
  Proof.
    split.
    - intros G d I [x Gt]. destruct (got_somewhere h d x Gt) as (e & J & D). apply (proj2 (proj2 (O c)) d I) in J.
      unfold ClassCache_model.get_attr in G. clear -G J D. revert G J. induction (mro c) as [|f l IH]; intros G J; [destruct J|]. cbn [look] in G. destruct (dget f (attrs (after h))) eqn:F; [discriminate|].
      destruct J as [-> | J]; [congruence | exact (IH G J)].
    - intro N. destruct (get_attr (after h) c) as [x|] eqn:G; [|reflexivity]. destruct (look_in _ _ _ G) as (d & I & D). elim (N d I). exists x. apply stored_got, D.
  Qed.

  (* KanaTable first *)
  Lemma all_same h r : (forall c, lazy c = true) -> kana_below mro lazy kana -> exists x, answer [] kana r = Ok x /\ klass x = kana /\ content x = table /\
    forall c r', answer ((kana, r) :: h) c r' = Ok x.
  Proof.
    intros L KB. exists (Inst 0 kana table). rewrite answer_spec. unfold built. rewrite L.
    assert (G0 : get_attr (after []) kana = None) by (apply attr_none; intros d _ (x & b & r' & a & E & _); destruct b; discriminate).
    rewrite G0. split; [reflexivity|]. split; [reflexivity|]. split; [reflexivity|].
    assert (I : dget kana (attrs (after ((kana, r) :: h))) = Some (Inst 0 kana table) /\ forall d x, dget d (attrs (after ((kana, r) :: h))) = Some x -> x = Inst 0 kana table).
    { induction h as [|[c r'] h [K U]] using rev_ind.
      - change [(kana, r)] with ([] ++ [(kana, r)]). rewrite after_snoc. pose proof (call_spec (after []) kana r) as H. unfold built in H. rewrite L in H.
        destruct H as (w' & -> & Oth & Own & _). cbn [fst]. rewrite G0 in Own. specialize (Own (or_intror eq_refl)). split; [exact Own|].
        intros d x D. destruct (eqb_spec d kana) as [-> | N]; [rewrite Own in D; injection D as <-; reflexivity|]. rewrite Oth in D by exact N. discriminate.
      - rewrite app_comm_cons, after_snoc. pose proof (call_spec (after ((kana, r) :: h)) c r') as H. unfold built in H. rewrite L in H. destruct H as (w' & -> & _ & _ & Same & _). cbn [fst].
        rewrite Same; [split; assumption | reflexivity|]. intro N. apply (proj1 (attr_none _ c) N kana (KB c (L c))). eexists. apply stored_got. exact K. }
    intros c r'. rewrite answer_spec. unfold built. rewrite L. destruct (get_attr _ c) as [x|] eqn:G.
    - destruct (look_in _ _ _ G) as (d & _ & D). rewrite (proj2 I d x D). reflexivity.
    - elim (proj1 (attr_none _ c) G kana (KB c (L c))). eexists. apply stored_got. exact (proj1 I).
  Qed.
End Proofs.
