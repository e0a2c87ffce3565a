(* ClassCache_props.v -- C119: get_cached on classes that programs derive *)
From Verif Require Import Base ClassCache_model ClassCache_spec ClassCache_proofs.

(** Kanjidic and RadkDict: what a class has once answered it always answers, unless the constructor fails, which it may
    although there is an object already *)
Theorem C119_same_object_partial {C A} {EC : EqB C} mro lazy kana (table : A) h (c : C) r x : orders mro -> lazy c = false ->
  got mro lazy kana table h c x ->
  answer mro lazy kana table h c r = match r with Ok _ => Ok x | Raise e => Raise e end.
Proof.
  intros O L G. rewrite (answer_spec _ _ _ _ O). rewrite (got_attr _ _ _ _ O h c x (or_introl L) G). unfold built. rewrite L. destruct r; reflexivity.
Qed.
Print Assumptions C119_same_object_partial.

(** KanaTable: it never fails, and with single inheritance the answer stays *)
Theorem C119_kana_same_object_partial {C A} {EC : EqB C} mro lazy kana (table : A) h (c : C) r : orders mro -> lazy c = true ->
  (exists x, answer mro lazy kana table h c r = Ok x) /\
  (single mro -> forall x, got mro lazy kana table h c x -> answer mro lazy kana table h c r = Ok x).
Proof.
  intros O L. rewrite (answer_spec _ _ _ _ O). unfold built. rewrite L. split; [eexists; reflexivity|].
  intros Si x G. rewrite (got_attr _ _ _ _ O h c x (or_intror Si) G). reflexivity.
Qed.
Print Assumptions C119_kana_same_object_partial.
(** ... but not with two bases: when the first base is asked after the second, the class changes its mind *)
Theorem C119_two_bases_refuted {C A} {EC : EqB C} mro lazy kana (table : A) (c d e k : C) l : orders mro -> (forall c, lazy c = true) ->
  mro c = c :: d :: e :: k :: l -> mro d = d :: k :: l -> mro e = e :: k :: l ->
  forall r1 r2 r3 r4, exists x y, answer mro lazy kana table [(e, r1)] c r2 = Ok x /\ answer mro lazy kana table [(e, r1); (c, r2); (d, r3)] c r4 = Ok y /\ oid x <> oid y.
Proof.
  intros O L Mc Md Me r1 r2 r3 r4. destruct (O c) as (_ & ND & _). rewrite Mc in ND.
  inversion ND as [|? ? N1 ND1]; subst. inversion ND1 as [|? ? N2 ND2]; subst. inversion ND2 as [|? ? N3 _]; subst. cbn [In] in N1, N2, N3.
  exists (Inst 0 kana table), (Inst 1 kana table).
  assert (W : forall l : list C, look l ([] : dict C (inst C A)) = None) by (intro l0; induction l0 as [|? ? IH]; [reflexivity | exact IH]).
  assert (W2 : forall (q : C) (x : inst C A) l, ~ In q l -> look l [(q, x)] = None).
  { intros q x l0. induction l0 as [|z l0 IH]; intro N; [reflexivity|]. cbn [look dget]. destruct (eqb_spec z q) as [-> | _]; [elim N; left; reflexivity|]. apply IH. intro I. apply N. right. exact I. }
  assert (S1 : get_cached mro lazy kana table start e r1 = (World [(e, Inst 0 kana table)] 1, Ok (Inst 0 kana table))).
  { unfold get_cached, lazy_cached, get_attr, set_attr, construct, start. cbn [attrs made]. rewrite L, W, Me. cbn [attrs look dset dget]. rewrite eqb_refl. reflexivity. }
  assert (S2 : forall r, get_cached mro lazy kana table (World [(e, Inst 0 kana table)] 1) c r = (World [(e, Inst 0 kana table)] 1, Ok (Inst 0 kana table))).
  { intro r. assert (G : get_attr mro (World [(e, Inst 0 kana table)] 1) c = Some (Inst 0 kana table)).
    { unfold get_attr. cbn [attrs]. rewrite Mc. cbn [look dget]. destruct (eqb_spec c e) as [-> | _]; [tauto|]. destruct (eqb_spec d e) as [-> | _]; [tauto|]. rewrite eqb_refl. reflexivity. }
    unfold get_cached, lazy_cached. rewrite L, G. cbv zeta. rewrite G. reflexivity. }
  assert (S3 : exists a, get_cached mro lazy kana table (World [(e, Inst 0 kana table)] 1) d r3 = (World a 2, Ok (Inst 1 kana table)) /\ dget c a = None /\ dget d a = Some (Inst 1 kana table)).
  { unfold get_cached, lazy_cached, get_attr, set_attr, construct. cbn [attrs made]. rewrite L, Md.
    rewrite W2 by (cbn [In]; intros [-> | [-> | I]]; tauto). cbn [attrs look]. rewrite dget_dset_same. eexists. split; [reflexivity|]. split; [|apply dget_dset_same].
    rewrite dget_dset_other by (intros ->; tauto). cbn [dget]. destruct (eqb_spec c e) as [-> | _]; [tauto | reflexivity]. }
  destruct S3 as (a & S3 & Da & Db).
  unfold answer, after. cbn [fold_left fst snd]. rewrite S1. cbn [fst]. rewrite !S2. cbn [fst snd]. rewrite S3. cbn [fst].
  split; [reflexivity|]. split; [|discriminate]. 
  assert (G : get_attr mro (World a 2) c = Some (Inst 1 kana table)) by (unfold get_attr; cbn [attrs]; rewrite Mc; cbn [look]; rewrite Da, Db; reflexivity).
  unfold get_cached, lazy_cached. rewrite L, G. cbv zeta. rewrite G. reflexivity.
Qed.
Print Assumptions C119_two_bases_refuted.

(** the first answer of a class: the object of the nearest class of its order that has one, or a new object if none has;
    for any bases when no class has the method of KanaTable, for single inheritance otherwise *)
Theorem C119_first_answer {C A} {EC : EqB C} mro lazy kana (table : A) h (c : C) r : orders mro -> ((forall c, lazy c = false) \/ single mro) ->
  lazy c = true \/ (exists a, r = Ok a) ->
  (forall x, nearest mro lazy kana table h (mro c) x -> answer mro lazy kana table h c r = Ok x) /\
  ((forall d, In d (mro c) -> ~ asked mro lazy kana table h d) ->
   exists x, answer mro lazy kana table h c r = Ok x /\
     (if lazy c then klass x = kana /\ content x = table else klass x = c /\ r = Ok (content x)) /\
     forall d y, got mro lazy kana table h d y -> oid y <> oid x).
Proof.
  intros O T B. rewrite (answer_spec _ _ _ _ O). assert (Bu : exists f, built lazy kana table c r (after mro lazy kana table h) = Ok f).
  { unfold built. destruct (lazy c); [eexists; reflexivity|]. destruct B as [B | [a ->]]; [discriminate|]. eexists. reflexivity. }
  destruct Bu as [f F]. rewrite F. split.
  - intros x N. apply (attr_nearest _ _ _ _ O h c x T) in N. rewrite N. reflexivity.
  - intro N. apply (attr_none _ _ _ _ O h c) in N. rewrite N. exists f. split; [reflexivity|]. unfold built in F. split.
    + destruct (lazy c); [injection F as <-; split; reflexivity|]. destruct B as [B | [a ->]]; [discriminate|]. injection F as <-. split; reflexivity.
    + assert (Of : oid f = made (after mro lazy kana table h)) by (destruct (lazy c); [injection F as <-; reflexivity|]; destruct r as [a|]; [|discriminate]; injection F as <-; reflexivity).
      intros d y G. destruct (got_somewhere _ _ _ _ O h d y G) as (e & _ & D). apply (proj1 (identities _ _ _ _ O h)) in D. lia.
Qed.
Print Assumptions C119_first_answer.

(** so a derived class answers with an object of its base when the base was asked first: not an instance of the class *)
Theorem C119_instance_refuted {C A} {EC : EqB C} mro lazy kana (table : A) (c b : C) l a r : orders mro -> (forall c, lazy c = false) ->
  mro c = c :: b :: l ->
  exists x, answer mro lazy kana table [] b (Ok a) = Ok x /\ klass x = b /\ b <> c /\ answer mro lazy kana table [(b, Ok a)] c (Ok r) = Ok x.
Proof.
  intros O L M. assert (Nil : forall d, ~ asked mro lazy kana table [] d) by (intros d (x & b' & r' & a' & E & _); destruct b'; discriminate).
  destruct (proj2 (C119_first_answer mro lazy kana table [] b (Ok a) O (or_introl L) (or_intror (ex_intro _ a eq_refl))) (fun d _ => Nil d)) as (x & X & K & _).
  rewrite L in K. assert (Nb : b <> c) by (intros ->; destruct (O c) as (_ & ND & _); rewrite M in ND; inversion ND as [|? ? N _]; apply N; left; reflexivity).
  exists x. split; [exact X|]. split; [apply K|]. split; [exact Nb|].
  apply (C119_first_answer mro lazy kana table [(b, Ok a)] c (Ok r) O (or_introl L) (or_intror (ex_intro _ r eq_refl))). rewrite M. apply Near_next.
  - intros [y G]. change [(b, Ok a)] with ([] ++ [(b, Ok a)]) in G. apply (got_inv _ _ _ _ []) in G. destruct G as [G | [G _]]; [apply (Nil c); exists y; exact G | congruence].
  - apply Near_here. exists [], (Ok a), []. split; [reflexivity | exact X].
Qed.
Print Assumptions C119_instance_refuted.
(** what remains: the object is an instance of the class or of one of its bases *)
Theorem C119_class_partial {C A} {EC : EqB C} mro lazy kana (table : A) h (c : C) x : orders mro -> kana_below mro lazy kana ->
  got mro lazy kana table h c x -> In (klass x) (mro c).
Proof. intros O K. apply class_of_got; assumption. Qed.
Print Assumptions C119_class_partial.
(** objects with the same number are the same object *)
Theorem C119_identity {C A} {EC : EqB C} mro lazy kana (table : A) h (c d : C) x y : orders mro ->
  got mro lazy kana table h c x -> got mro lazy kana table h d y -> oid x = oid y -> x = y.
Proof. intro O. apply one_object. exact O. Qed.
Print Assumptions C119_identity.
(** once KanaTable itself has been asked, before any derived class, there is one table for all *)
Theorem C119_one_table {C A} {EC : EqB C} mro lazy kana (table : A) h r : orders mro -> (forall c : C, lazy c = true) -> kana_below mro lazy kana ->
  exists x, answer mro lazy kana table [] kana r = Ok x /\ klass x = kana /\ content x = table /\
    forall c r', answer mro lazy kana table ((kana, r) :: h) c r' = Ok x.
Proof. intro O. apply all_same. exact O. Qed.
Print Assumptions C119_one_table.

(** classes: 0 the library's, 1 and 2 derived from it, 3 from both *)
Definition ex_mro (c : nat) : list nat := match c with 0 => [0; 9] | 1 => [1; 0; 9] | 2 => [2; 0; 9] | 3 => [3; 1; 2; 0; 9] | c => [c] end%nat.
Example C119_case : orders ex_mro /\
  answer ex_mro (fun _ => false) 0%nat tt [] 1%nat (Ok tt) = Ok (Inst 0%nat 1%nat tt) /\
  answer ex_mro (fun _ => false) 0%nat tt [(1%nat, Ok tt)] 0%nat (Ok tt) = Ok (Inst 1%nat 0%nat tt) /\
  answer ex_mro (fun _ => false) 0%nat tt [(1%nat, Ok tt); (0%nat, Ok tt)] 2%nat (Ok tt) = Ok (Inst 1%nat 0%nat tt) /\
  answer ex_mro (fun _ => false) 0%nat tt [(1%nat, Ok tt)] 1%nat (Raise OSError) = Raise OSError /\
  answer ex_mro (fun _ => true) 0%nat tt [(2%nat, Ok tt)] 3%nat (Ok tt) = Ok (Inst 0%nat 0%nat tt) /\
  answer ex_mro (fun _ => true) 0%nat tt [(2%nat, Ok tt); (3%nat, Ok tt); (1%nat, Ok tt)] 3%nat (Ok tt) = Ok (Inst 1%nat 0%nat tt).
Proof.
  split; [|repeat split; reflexivity]. intro c. split; [destruct c as [|[|[|[|c]]]]; reflexivity|]. split.
  - destruct c as [|[|[|[|c]]]]; repeat constructor; cbn [In]; lia.
  - intros d. destruct c as [|[|[|[|c]]]]; cbn [ex_mro In]; intros H; repeat (destruct H as [<- | H]); try contradiction; intros x; cbn [ex_mro In]; tauto.
Qed.
Example C119_case_premises : kana_below ex_mro (fun c => (c <? 4)%nat) 0%nat /\ single (fun c => match c with 1 => [1; 0] | 2 => [2; 1; 0] | c => [c] end%nat) /\
  got ex_mro (fun _ => false) 0%nat tt [(1%nat, Ok tt); (0%nat, Ok tt)] 0%nat (Inst 1%nat 0%nat tt).
Proof.
  split; [|split].
  - intros [|[|[|[|c]]]] L; vm_compute; try tauto; discriminate L.
  - intros [|[|[|c]]] d I; cbn [In] in I; repeat destruct I as [<-|I]; try destruct I;
      [exists []|exists []|exists [1%nat]|exists []|exists [2%nat]|exists [2; 1]%nat|exists []]; reflexivity.
  - exists [(1%nat, Ok tt)], (Ok tt), []; split; reflexivity.
Qed.
