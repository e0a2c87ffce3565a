(* Order_proofs.v *)
From Verif Require Import Base Tatoeba_model Rose Maps_model Maps_spec Maps_proofs Tree_model Tree_spec Tree_proofs TreeEq_spec TreeEq_proofs
  Order_spec.
From Coq Require Import Permutation.

(* ---------------- dictionaries ---------------- *)
Lemma F2_length {A B} (R : A -> B -> Prop) l m : Forall2 R l m -> length l = length m.
Proof. induction 1; cbn [length]; congruence. Qed.
Lemma F2_impl {A B} (R S : A -> B -> Prop) : (forall x y, R x y -> S x y) -> forall l m, Forall2 R l m -> Forall2 S l m.
Proof. intros I l m F; induction F; constructor; auto. Qed.

Section Dicts.
  Context {K V : Type} `{EqB K}.
  Lemma equal_perm (d e : dict K V) : equal_dicts d e -> Permutation d e.
  Proof.
    intros [Nd [Ne E]]; apply NoDup_Permutation.
    - apply NoDup_map_inv with (f := fst); exact Nd.
    - apply NoDup_map_inv with (f := fst); exact Ne.
    - intros [k v]; split; intros I; apply dget_In.
      + rewrite <- E; apply In_dget; assumption.
      + rewrite E; apply In_dget; assumption.
  Qed.
  Lemma perm_equal (d e : dict K V) : NoDup (dkeys d) -> Permutation d e -> equal_dicts d e.
  Proof.
    intros N P; split; [exact N|split].
    - apply (Permutation_NoDup (Permutation_map fst P)), N.
    - intros k; apply dget_perm; assumption.
  Qed.
  Lemma equal_sym (d e : dict K V) : equal_dicts d e -> equal_dicts e d.
  Proof. intros [A [B C]]; split; [exact B|split; [exact A|intros k; symmetry; apply C]]. Qed.
End Dicts.

Lemma is_injective_order {K V} `{EqB K} `{EqB V} (d e : dict K V) : equal_dicts d e -> is_injective d = is_injective e.
Proof.
  intros Q; pose proof (equal_perm d e Q) as P.
  apply Bool.eq_iff_eq_true; rewrite !is_injective_spec; split; apply Permutation_NoDup; [|apply Permutation_sym]; apply Permutation_map, P.
Qed.
Lemma invert_injective_order {K V} `{EqB K} `{EqB V} (d e : dict K V) : equal_dicts d e ->
  both equal_dicts (invert_injective_mapping d) (invert_injective_mapping e).
Proof.
  intros Q; pose proof (invert_injective_total d) as Td; pose proof (invert_injective_total e) as Te.
  rewrite <- (is_injective_order d e Q) in Te; destruct (is_injective d).
  - destruct Td as [d' Ed], Te as [e' Ee]; rewrite Ed, Ee; cbn [both].
    destruct Q as [Nd [Ne E]].
    pose proof (invert_injective_get d d' Nd Ed) as Gd; pose proof (invert_injective_get e e' Ne Ee) as Ge.
    assert (Nk : forall (x : dict K V) y, invert_injective_mapping x = Ok y -> NoDup (dkeys y)).
    { unfold invert_injective_mapping; intros x y; assert (NoDup (dkeys (@nil (V * K)))) as N0 by constructor; revert N0.
      generalize (@nil (V * K)); induction x as [|[k v] x IH]; cbn [invert_injective_loop]; intros inv N I.
      - injection I as <-; exact N.
      - destruct (dmem v inv); [discriminate|]; apply (IH _ (NoDup_dset _ _ _ N) I). }
    split; [exact (Nk d d' Ed)|split; [exact (Nk e e' Ee)|]]; intros v.
    destruct (dget v d') as [k|] eqn:G.
    + symmetry; apply Ge; rewrite <- E; apply Gd, G.
    + destruct (dget v e') as [k|] eqn:G'; [|reflexivity].
      apply Ge in G'; rewrite <- E in G'; apply Gd in G'; congruence.
  - rewrite Td, Te; reflexivity.
Qed.
Lemma invert_order {K V} `{EqB K} `{EqB V} (d e : dict K (list V)) : equal_dicts d e ->
  keyed_alike (@Permutation K) (invert_mapping d) (invert_mapping e).
Proof.
  intros Q v; pose proof (equal_perm d e Q) as P.
  assert (L : Permutation (dlist v (invert_mapping d)) (dlist v (invert_mapping e))).
  { rewrite !invert_dlist; unfold occurrences; apply Permutation_flat_map, P. }
  assert (Kk : forall x y : dict K (list V), Permutation x y -> In v (dkeys (invert_mapping x)) -> In v (dkeys (invert_mapping y))).
  { intros x y Pxy I; apply invert_keys in I; destruct I as [k [vs [I J]]]; apply invert_keys; exists k, vs; split; [|exact J].
    apply (Permutation_in _ Pxy), I. }
  unfold dlist in L; destruct (dget v (invert_mapping d)) as [l|] eqn:Gd, (dget v (invert_mapping e)) as [m|] eqn:Ge; [exact L| | |exact I].
  - apply dget_None in Ge; apply Ge, (Kk d e P), In_key_dget; exists l; exact Gd.
  - apply dget_None in Gd; apply Gd, (Kk e d (Permutation_sym P)), In_key_dget; exists m; exact Ge.
Qed.
Lemma multi_order {K V} `{EqB K} (l m : list (K * V)) : Permutation l m -> keyed_alike (@Permutation V) (multi_dict l) (multi_dict m).
Proof.
  intros P k; rewrite !(proj2 (multi_dict_spec _)).
  assert (E : mem k (map fst l) = mem k (map fst m)).
  { apply Bool.eq_iff_eq_true; rewrite !mem_In; split; apply Permutation_in; [|apply Permutation_sym]; apply Permutation_map, P. }
  rewrite <- E; destruct (mem k (map fst l)); [|exact I].
  unfold values_for; apply Permutation_map; clear E.
  induction P as [|x l m P IH|x y l|l m n P IH P' IH']; cbn [filter].
  - constructor.
  - destruct (eqb k (fst x)); [constructor|]; exact IH.
  - destruct (eqb k (fst x)), (eqb k (fst y)); try apply Permutation_refl; apply perm_swap.
  - exact (perm_trans IH IH').
Qed.

(* merge_dicts *)
Lemma merge_order {K V} `{EqB K} `{EqB V} (heap : list (list V)) (args args' : list (dict K addr)) :
  Forall (fun d => Forall (fun it => (snd it < length heap)%nat) d) args ->
  permuted equal_dicts args args' ->
  let '(hp, un) := merge_dicts heap args in let '(hp', un') := merge_dicts heap args' in
  keyed_alike (fun r r' => forall x, In x (fetch [] hp r) <-> In x (fetch [] hp' r')) un un'.
Proof.
  intros B [as' [P F]].
  assert (M : forall d, In d args -> exists e, In e args' /\ equal_dicts d e).
  { intros d I; clear B; revert I; revert P; intros P; assert (Q : forall e, In e as' -> In e args') by (intros e; apply Permutation_in, P).
    clear P; induction F as [|x y l m Exy F IH]; [intros []|]; intros [->|I].
    - exists y; split; [apply Q; left; reflexivity|exact Exy].
    - apply IH; [intros e J; apply Q; right; exact J|exact I]. }
  assert (M' : forall e, In e args' -> exists d, In d args /\ equal_dicts d e).
  { intros e I; apply (Permutation_in _ (Permutation_sym P)) in I; clear B M P; induction F as [|x y l m Exy F IH]; [destruct I|]; destruct I as [->|I].
    - exists x; split; [left; reflexivity|exact Exy].
    - destruct (IH I) as [d [J Q]]; exists d; split; [right; exact J|exact Q]. }
  assert (B' : Forall (fun d => Forall (fun it => (snd it < length heap)%nat) d) args').
  { apply Forall_forall; intros e I; destruct (M' e I) as [d [J Q]]; rewrite Forall_forall in B; pose proof (B d J) as Bd.
    apply (Permutation_Forall (equal_perm d e Q) Bd). }
  pose proof (merge_dicts_spec heap args B) as S1; pose proof (merge_dicts_spec heap args' B') as S2.
  destruct (merge_dicts heap args) as [hp un], (merge_dicts heap args') as [hp' un'].
  destruct S1 as [_ [_ [K1 [G1 _]]]], S2 as [_ [_ [K2 [G2 _]]]]; intros k.
  assert (KK : In k (dkeys un) <-> In k (dkeys un')).
  { rewrite K1, K2; split.
    - intros [d [I J]]; destruct (M d I) as [e [I' Q]]; exists e; split; [exact I'|].
      apply (Permutation_in _ (Permutation_map fst (equal_perm d e Q))), J.
    - intros [e [I J]]; destruct (M' e I) as [d [I' Q]]; exists d; split; [exact I'|].
      apply (Permutation_in _ (Permutation_sym (Permutation_map fst (equal_perm d e Q)))), J. }
  destruct (dget k un) as [r|] eqn:E1, (dget k un') as [r'|] eqn:E2; [| | |exact I].
  - intros x; rewrite (proj2 (proj2 (G1 k r E1))), (proj2 (proj2 (G2 k r' E2))); split.
    + intros [d [it [I [J X]]]]; destruct (M d I) as [e [I' Q]]; exists e, it; split; [exact I'|split; [|exact X]].
      apply (Permutation_in _ (equal_perm d e Q)), J.
    + intros [e [it [I [J X]]]]; destruct (M' e I) as [d [I' Q]]; exists d, it; split; [exact I'|split; [|exact X]].
      apply (Permutation_in _ (Permutation_sym (equal_perm d e Q))), J.
  - apply dget_None in E2; apply E2, KK, In_key_dget; exists r; exact E1.
  - apply dget_None in E1; apply E1, KK, In_key_dget; exists r'; exact E2.
Qed.

(* map_dict with a method that keeps no state *)
Definition stateless {A B} (f : A -> res B) (s : unit) (v : A) : unit * res B := (s, f v).
Lemma stateless_calls {A B} (f : A -> res B) xs ws s : calls (stateless f) tt xs ws s <-> Forall2 (fun v w => f v = Ok w) xs ws.
Proof.
  destruct s; split.
  - intros C; remember tt as s eqn:Es in C at 1; clear Es; induction C as [|s x s1 b xs bs s2 E C IH]; constructor; [|exact IH].
    unfold stateless in E; injection E as _ E; exact E.
  - induction 1 as [|x w xs ws E F IH]; [constructor|]; apply calls_cons with (s1 := tt); [unfold stateless; rewrite E; reflexivity|exact IH].
Qed.
Lemma dget_combine {K V W} `{EqB K} (f : V -> res W) (d : dict K V) ws : Forall2 (fun v w => f v = Ok w) (map snd d) ws -> forall k,
  dget k (combine (dkeys d) ws) = match dget k d with Some v => match f v with Ok w => Some w | Raise _ => None end | None => None end.
Proof.
  revert ws; induction d as [|[k0 v0] d IH]; intros ws F k; cbn [map snd] in F; inversion F as [|? w ? ws' E F']; subst; [reflexivity|].
  unfold dkeys; cbn [map fst combine dget]; destruct (eqb k k0); [rewrite E; reflexivity|apply IH, F'].
Qed.
Lemma combine_keys {K V} (l : list K) (m : list V) : length l = length m -> dkeys (combine l m) = l.
Proof. revert m; induction l as [|x l IH]; intros [|y m] E; try discriminate E; [reflexivity|]; unfold dkeys in *; cbn [combine map fst]; f_equal; apply IH; injection E as E; exact E. Qed.
Lemma all_or_raise {A B} (f : A -> res B) xs : (exists ws, Forall2 (fun v w => f v = Ok w) xs ws) <-> Forall (fun v => exists w, f v = Ok w) xs.
Proof.
  split.
  - intros [ws F]; induction F as [|x w xs ws E F IH]; constructor; [exists w; exact E|exact IH].
  - induction 1 as [|x xs [w E] F [ws IH]]; [exists []; constructor|exists (w :: ws); constructor; assumption].
Qed.
Lemma map_dict_stateless {K W} `{EqB K} (f : W -> res W) (st : list (dict K W)) a ip : (a < length st)%nat -> NoDup (dkeys (fetch [] st a)) ->
  let '(_, st', r) := map_dict (stateless f) tt st a ip in
  (exists ws b, Forall2 (fun v w => f v = Ok w) (map snd (fetch [] st a)) ws /\ r = Ok b /\ fetch [] st' b = combine (dkeys (fetch [] st a)) ws) \/
  (~ Forall (fun v => exists w, f v = Ok w) (map snd (fetch [] st a)) /\ exists e, r = Raise e).
Proof.
  intros L N; destruct (map_dict (stateless f) tt st a ip) as [[s' st'] r] eqn:E; destruct ip.
  - apply map_dict_in_place in E; [|exact N]; destruct E as [[ws [C [-> ->]]]|[e [pr [ws [R [-> ->]]]]]].
    + left; exists ws, a; split; [apply stateless_calls in C; exact C|split; [reflexivity|]].
      rewrite (proj1 (put_spec [] st a a _ L)), Nat.eqb_refl; reflexivity.
    + right; split; [|exists e; reflexivity]; destruct R as [x [post [s1 [Ex [_ Ef]]]]]; rewrite Ex.
      intros F; apply Forall_app in F; destruct F as [_ F]; inversion F as [|? ? [w Ew] _]; subst.
      unfold stateless in Ef; injection Ef as _ Ef; congruence.
  - apply map_dict_copy in E; [|exact N]; destruct E as [[ws [C [-> ->]]]|[e [pr [ws [R [-> ->]]]]]].
    + left; exists ws, (length st); split; [apply stateless_calls in C; exact C|split; [reflexivity|]].
      apply fetch_app_new.
    + right; split; [|exists e; reflexivity]; destruct R as [x [post [s1 [Ex [_ Ef]]]]]; rewrite Ex.
      intros F; apply Forall_app in F; destruct F as [_ F]; inversion F as [|? ? [w Ew] _]; subst.
      unfold stateless in Ef; injection Ef as _ Ef; congruence.
Qed.
Lemma combine_equal {K V W} `{EqB K} (f : V -> res W) (d e : dict K V) ws us : equal_dicts d e ->
  Forall2 (fun v w => f v = Ok w) (map snd d) ws -> Forall2 (fun v w => f v = Ok w) (map snd e) us ->
  equal_dicts (combine (dkeys d) ws) (combine (dkeys e) us).
Proof.
  intros [Nd [Ne E]] F G.
  assert (Ld : length (dkeys d) = length ws) by (unfold dkeys; rewrite map_length, <- (map_length snd d); apply (F2_length _ _ _ F)).
  assert (Le : length (dkeys e) = length us) by (unfold dkeys; rewrite map_length, <- (map_length snd e); apply (F2_length _ _ _ G)).
  split; [rewrite combine_keys; assumption|split; [rewrite combine_keys; assumption|]].
  intros k; rewrite (dget_combine f d ws F), (dget_combine f e us G), E; reflexivity.
Qed.
Lemma map_dict_order {K W} `{EqB K} (f : W -> res W) (st sv : list (dict K W)) a b ip ip' :
  (a < length st)%nat -> (b < length sv)%nat -> equal_dicts (fetch [] st a) (fetch [] sv b) ->
  let '(_, st', r) := map_dict (stateless f) tt st a ip in let '(_, sv', r') := map_dict (stateless f) tt sv b ip' in
  both_or_neither (fun x y => equal_dicts (fetch [] st' x) (fetch [] sv' y)) r r'.
Proof.
  intros La Lb Q; pose proof Q as [Nd [Ne _]].
  pose proof (map_dict_stateless f st a ip La Nd) as Sa; pose proof (map_dict_stateless f sv b ip' Lb Ne) as Sb.
  destruct (map_dict (stateless f) tt st a ip) as [[s1 st'] r], (map_dict (stateless f) tt sv b ip') as [[s2 sv'] r'].
  pose proof (Permutation_map snd (equal_perm _ _ Q)) as P.
  destruct Sa as [[ws [x [F [-> Ex]]]]|[NF [e1 ->]]], Sb as [[us [y [G [-> Ey]]]]|[NG [e2 ->]]]; cbn [both_or_neither].
  - rewrite Ex, Ey; exact (combine_equal f _ _ ws us Q F G).
  - apply NG, (Permutation_Forall P), all_or_raise; exists ws; exact F.
  - apply NF, (Permutation_Forall (Permutation_sym P)), all_or_raise; exists us; exact G.
  - exact I.
Qed.

(* chain_mapping *)
Lemma follow_ext {V} `{EqB V} (ds es : list (dict V V)) : Forall2 dict_eq ds es -> forall v, follow ds v = follow es v.
Proof. induction 1 as [|d e ds es E F IH]; intros v; [reflexivity|]; cbn [follow]; rewrite E; destruct (dget v e); [apply IH|reflexivity]. Qed.
Definition follow_res {V} `{EqB V} (ds : list (dict V V)) (v : V) : res V := match follow ds v with Some w => Ok w | None => Raise KeyError end.
Lemma chain_order {V} `{EqB V} (st sv : list (dict V V)) a0 rest b0 rest' :
  Forall (fun a => (a < length st)%nat) (a0 :: rest) -> Forall (fun a => (a < length sv)%nat) (b0 :: rest') ->
  equal_dicts (fetch [] st a0) (fetch [] sv b0) -> Forall2 (fun a b => dict_eq (fetch [] st a) (fetch [] sv b)) rest rest' ->
  let '(st', r) := chain_mapping st (a0 :: rest) in let '(sv', r') := chain_mapping sv (b0 :: rest') in
  both (fun x y => equal_dicts (fetch [] st' x) (fetch [] sv' y)) r r'.
Proof.
  intros B B' Q F; pose proof Q as [Nd [Ne _]].
  pose proof (chain_mapping_spec st a0 rest B Nd) as Sa; pose proof (chain_mapping_spec sv b0 rest' B' Ne) as Sb; cbn zeta in Sa, Sb.
  destruct (chain_mapping st (a0 :: rest)) as [st' r], (chain_mapping sv (b0 :: rest')) as [sv' r'].
  assert (E : forall v, follow (map (fetch [] st) rest) v = follow (map (fetch [] sv) rest') v).
  { apply follow_ext; clear - F; induction F; cbn [map]; constructor; assumption. }
  destruct Sa as [_ Sa], Sb as [_ Sb].
  pose proof (equal_perm _ _ Q) as P.
  set (ds := map (fetch [] st) rest) in *; set (es := map (fetch [] sv) rest') in *.
  assert (G : forall (d d' : dict V V) cs, Forall2 (fun kv kw => fst kv = fst kw /\ follow cs (snd kv) = Some (snd kw)) d d' ->
    d' = combine (dkeys d) (map snd d') /\ Forall2 (fun v w => follow_res cs v = Ok w) (map snd d) (map snd d')).
  { induction 1 as [|[k v] [k' w] d d' [Ek Ef] X [IH1 IH2]]; [split; [reflexivity|constructor]|]; cbn [fst snd] in Ek, Ef; subst k'.
    unfold dkeys; cbn [map fst snd combine]; split; [f_equal; exact IH1|constructor; [unfold follow_res; rewrite Ef; reflexivity|exact IH2]]. }
  assert (NR : forall (d d' : dict V V) cs kv, Forall2 (fun kv kw => fst kv = fst kw /\ follow cs (snd kv) = Some (snd kw)) d d' ->
    In kv d -> follow cs (snd kv) <> None).
  { induction 1 as [|p q d d' [Ek Ef] X IH]; [intros []|]; intros [->|I]; [congruence|exact (IH I)]. }
  destruct Sa as [[-> Fa]|[-> [kv [Ikv Nkv]]]], Sb as [[-> Fb]|[-> [kw [Ikw Nkw]]]]; cbn [both].
  - destruct (G _ _ _ Fa) as [Ea Ga], (G _ _ _ Fb) as [Eb Gb]; rewrite Ea, Eb.
    apply (combine_equal (follow_res ds)); [exact Q|exact Ga|].
    eapply F2_impl; [|exact Gb]; intros v w; unfold follow_res; rewrite E; exact (fun x => x).
  - apply (NR _ _ _ kw Fa); [apply (Permutation_in _ (Permutation_sym P)), Ikw|rewrite E; exact Nkw].
  - apply (NR _ _ _ kv Fb); [apply (Permutation_in _ P), Ikv|rewrite <- E; exact Nkv].
  - reflexivity.
Qed.

(* ---------------- trees ---------------- *)
Section Permuted.
  Context {A B : Type} (R : A -> B -> Prop).
  Lemma permuted_nil : permuted R [] [].
  Proof. exists []; split; constructor. Qed.
  Lemma permuted_cons x y l m : R x y -> permuted R l m -> permuted R (x :: l) (y :: m).
  Proof. intros E [m' [P F]]; exists (y :: m'); split; [constructor; exact P|constructor; assumption]. Qed.
  Lemma permuted_app l m l' m' : permuted R l m -> permuted R l' m' -> permuted R (l ++ l') (m ++ m').
  Proof. intros [n [P F]] [n' [P' F']]; exists (n ++ n'); split; [apply Permutation_app; assumption|apply Forall2_app; assumption]. Qed.
  Lemma permuted_perm_r l m m' : permuted R l m -> Permutation m m' -> permuted R l m'.
  Proof. intros [n [P F]] Q; exists n; split; [exact (perm_trans P Q)|exact F]. Qed.
  Lemma permuted_perm_l l l' m : permuted R l m -> Permutation l l' -> permuted R l' m.
  Proof.
    intros [n [P F]] Q; destruct (Permutation_Forall2 Q F) as [n' [P' F']]; exists n'; split; [|exact F'].
    exact (perm_trans (Permutation_sym P') P).
  Qed.
  Lemma permuted_in_l l m x : permuted R l m -> In x l -> exists y, In y m /\ R x y.
  Proof.
    intros [n [P F]] I; assert (Q : forall y, In y n -> In y m) by (intros y; apply Permutation_in, P); clear P.
    induction F as [|a b l n E F IH]; [destruct I|]; destruct I as [->|I].
    - exists b; split; [apply Q; left; reflexivity|exact E].
    - apply IH; [exact I|intros y J; apply Q; right; exact J].
  Qed.
  Lemma permuted_in_r l m y : permuted R l m -> In y m -> exists x, In x l /\ R x y.
  Proof.
    intros [n [P F]] I; apply (Permutation_in _ (Permutation_sym P)) in I; clear P.
    induction F as [|a b l n E F IH]; [destruct I|]; destruct I as [->|I].
    - exists a; split; [left; reflexivity|exact E].
    - destruct (IH I) as [x [J X]]; exists x; split; [right; exact J|exact X].
  Qed.
  Lemma permuted_length l m : permuted R l m -> length l = length m.
  Proof. intros [n [P F]]; rewrite (F2_length _ _ _ F); apply Permutation_length, P. Qed.
End Permuted.
Lemma permuted_flat_map {X Y A B} (R : A -> B -> Prop) (f : X -> list A) (g : Y -> list B) ks js' js :
  Permutation js' js -> Forall2 (fun k j => permuted R (f k) (g j)) ks js' -> permuted R (flat_map f ks) (flat_map g js).
Proof.
  intros P F; apply permuted_perm_r with (m := flat_map g js'); [|apply Permutation_flat_map, P]; clear P js.
  induction F as [|k j ks js E F IH]; cbn [flat_map]; [apply permuted_nil|apply permuted_app; assumption].
Qed.
Lemma F2_Forall_impl {A B} (P : A -> Prop) (Q R : A -> B -> Prop) l m :
  Forall P l -> Forall2 Q l m -> (forall x y, P x -> Q x y -> R x y) -> Forall2 R l m.
Proof. intros F G I; revert F; induction G as [|x y l m E G IH]; intros F; constructor; inversion F; subst; auto. Qed.
Lemma F2_map {A B C D} (f : A -> C) (g : B -> D) (R : C -> D -> Prop) l m :
  Forall2 (fun x y => R (f x) (g y)) l m -> Forall2 R (map f l) (map g m).
Proof. induction 1; cbn [map]; constructor; assumption. Qed.

Section Same.
  Context {A B : Type} (R : A -> B -> Prop).
  Lemma rsame_inv x ks y js : rsame R (Rose x ks) (Rose y js) -> R x y /\ permuted (rsame R) ks js.
  Proof. intros S; inversion S as [? ? ? ? js' E P F]; subst; split; [exact E|exists js'; split; assumption]. Qed.
  Lemma rsame_make x ks y js : R x y -> permuted (rsame R) ks js -> rsame R (Rose x ks) (Rose y js).
  Proof. intros E [js' [P F]]; exact (RSame R x y ks js js' E P F). Qed.
  Lemma rsame_root t t' : rsame R t t' -> R (root t) (root t').
  Proof. intros S; destruct t as [x ks], t' as [y js]; exact (proj1 (rsame_inv x ks y js S)). Qed.
  Lemma rsame_nodes t : forall t', rsame R t t' -> permuted R (nodes t) (nodes t').
  Proof.
    induction t as [x ks IH] using rose_rec_ind; intros [y js] S; apply rsame_inv in S; destruct S as [E [js' [P F]]].
    cbn [nodes]; apply permuted_cons; [exact E|]; apply permuted_flat_map with (js' := js'); [exact P|].
    exact (F2_Forall_impl _ _ _ ks js' IH F (fun k j H S => H j S)).
  Qed.
  Lemma rsame_pre t : forall t' d, rsame R t t' -> permuted (fun p q => fst p = fst q /\ R (snd p) (snd q)) (pre d t) (pre d t').
  Proof.
    induction t as [x ks IH] using rose_rec_ind; intros [y js] d S; apply rsame_inv in S; destruct S as [E [js' [P F]]].
    cbn [pre]; apply permuted_cons; [split; [reflexivity|exact E]|]; apply permuted_flat_map with (js' := js'); [exact P|].
    exact (F2_Forall_impl _ _ _ ks js' IH F (fun k j H S => H j (d + 1) S)).
  Qed.
  Lemma rsame_size t t' : rsame R t t' -> rsize t = rsize t'.
  Proof. intros S; exact (permuted_length _ _ _ (rsame_nodes t t' S)). Qed.
  Lemma rsame_viable (p : A -> bool) (q : B -> bool) t t' : (forall x y, R x y -> p x = q y) -> rsame R t t' -> viable p t = viable q t'.
  Proof.
    intros C S; pose proof (rsame_nodes t t' S) as N; unfold viable; apply Bool.eq_iff_eq_true; rewrite !existsb_exists; split.
    - intros [x [I X]]; destruct (permuted_in_l R _ _ x N I) as [y [J E]]; exists y; split; [exact J|rewrite <- (C x y E); exact X].
    - intros [y [I Y]]; destruct (permuted_in_r R _ _ y N I) as [x [J E]]; exists x; split; [exact J|rewrite (C x y E); exact Y].
  Qed.
  Lemma rsame_keep (p : A -> bool) (q : B -> bool) t : (forall x y, R x y -> p x = q y) -> forall t', rsame R t t' -> rsame R (keep p t) (keep q t').
  Proof.
    intros C; induction t as [x ks IH] using rose_rec_ind; intros [y js] S; apply rsame_inv in S; destruct S as [E [js' [P F]]].
    cbn [keep]; apply rsame_make; [exact E|]; apply permuted_flat_map with (js' := js'); [exact P|].
    refine (F2_Forall_impl _ _ _ ks js' IH F (fun k j H S => _)); cbn beta.
    rewrite (rsame_viable p q k j C S); destruct (viable q j); [|apply permuted_nil].
    apply permuted_cons; [apply H, S|apply permuted_nil].
  Qed.
End Same.

Lemma sum_permuted l m : permuted (@eq Z) l m -> sumZ l = sumZ m.
Proof.
  intros [n [P F]]; assert (l = n) as -> by (clear P; induction F; congruence); clear F.
  induction P as [|x l m P IH|x y l|l m n P IH P' IH']; unfold sumZ in *; cbn [fold_right]; lia.
Qed.
Section CountsOrder.
  Variable cm : str -> dict akey value -> nat -> Z.
  Hypothesis cm_ok : forall l d e n, dict_eq d e -> cm l d n = cm l e n.
  Notation D := (str * dict akey value)%type (only parsing).
  Lemma own_same (t t' : rose D) : rsame same_details t t' -> own cm t = own cm t'.
  Proof.
    intros S; destruct t as [[l d] ks], t' as [[l' e] js]; apply rsame_inv in S; destruct S as [[El Ed] P]; cbn [fst snd] in El, Ed; subst l'.
    unfold own; cbn [root branches fst snd]; rewrite (permuted_length _ _ _ P); apply cm_ok, Ed.
  Qed.
  Lemma cum_same (t t' : rose D) : rsame same_details t t' -> cum cm t = cum cm t'.
  Proof.
    intros S; unfold cum; rewrite (own_same t t' S); f_equal; apply sum_permuted.
    destruct t as [x ks], t' as [y js]; apply rsame_inv in S; destruct S as [_ [js' [P F]]]; cbn [branches].
    exists (map (own cm) js'); split; [apply Permutation_map, P|]; apply F2_map.
    eapply F2_impl; [|exact F]; exact own_same.
  Qed.
  Lemma dict_eq_dset {K V} `{EqB K} k (v : V) (d e : dict K V) : dict_eq d e -> dict_eq (dset k v d) (dset k v e).
  Proof. intros E x; rewrite !dget_dset, E; reflexivity. Qed.
  Lemma annotated_same total t : forall t' : rose D, rsame same_details t t' -> rsame same_details (annotated cm total t) (annotated cm total t').
  Proof.
    induction t as [x ks IH] using rose_rec_ind; intros [y js] S; cbn [annotated]; apply rsame_make.
    - unfold noted; rewrite (own_same _ _ S), (cum_same _ _ S); apply rsame_inv in S; destruct S as [[El Ed] _]; split; cbn [fst snd root]; [exact El|].
      repeat apply dict_eq_dset; exact Ed.
    - apply rsame_inv in S; destruct S as [_ [js' [P F]]]; exists (map (annotated cm total) js'); split; [apply Permutation_map, P|].
      apply F2_map; exact (F2_Forall_impl _ _ _ ks js' IH F (fun k j H S => H j S)).
  Qed.
  Lemma tree_dist_order h t fuel h' t' fuel' : keyed h t -> keyed h' t' ->
    truth_opt h (parent (at_ h (root t))) = false -> truth_opt h' (parent (at_ h' (root t'))) = false ->
    (2 * rsize t < fuel)%nat -> (2 * rsize t' < fuel')%nat ->
    rsame same_details (rosemap (details h) t) (rosemap (details h') t') ->
    both (fun r r' => exists u u', root u = snd r /\ root u' = snd r' /\ linked (fst r) None u /\ linked (fst r') None u' /\
            rsame same_details (rosemap (details (fst r)) u) (rosemap (details (fst r')) u'))
      (tree_dist (by_node cm) fuel h (root t)) (tree_dist (by_node cm) fuel' h' (root t')).
  Proof.
    intros K K' T T' L L' S; pose proof (tree_dist_ok cm h t fuel K T L) as A; pose proof (tree_dist_ok cm h' t' fuel' K' T' L') as A'; cbn zeta in A, A'.
    rewrite <- (cum_same _ _ S) in A'; destruct (cum cm (rosemap (details h) t) =? 0).
    - rewrite A, A'; reflexivity.
    - destruct A as [g [u [E [Lu [Du _]]]]], A' as [g' [u' [E' [Lu' [Du' _]]]]]; rewrite E, E'; cbn [both].
      exists u, u'; cbn [fst snd]; repeat split; try assumption; rewrite Du, Du'; apply annotated_same, S.
  Qed.
End CountsOrder.

Section TreesOrder.
  Variables (h : list node) (t : rose addr) (h' : list node) (t' : rose addr).
  Hypothesis S : rsame same_details (rosemap (details h) t) (rosemap (details h') t').
  Definition same_node (a b : addr) : Prop := same_details (details h a) (details h' b).
  Lemma rsame_unmap {A B C D} (f : A -> C) (g : B -> D) (R : C -> D -> Prop) x : forall y,
    rsame R (rosemap f x) (rosemap g y) -> rsame (fun a b => R (f a) (g b)) x y.
  Proof.
    induction x as [a ks IH] using rose_rec_ind; intros [b js] Q; cbn [rosemap] in Q; apply rsame_inv in Q; destruct Q as [E [js' [P F]]].
    apply rsame_make; [exact E|]; apply Permutation_map_inv in P; destruct P as [l [-> P]].
    exists l; split; [apply Permutation_sym, P|]; clear P js.
    revert l F; induction ks as [|k ks IHk]; intros l F; cbn [map] in F; inversion F as [|? c ? m E' F' Ek El]; subst.
    - destruct l; [constructor|discriminate].
    - destruct l as [|j l]; [discriminate|]; injection El as -> ->; inversion IH; subst; constructor; auto.
  Qed.
  Lemma rsame_map {A B C D} (f : A -> C) (g : B -> D) (R : C -> D -> Prop) x : forall y,
    rsame (fun a b => R (f a) (g b)) x y -> rsame R (rosemap f x) (rosemap g y).
  Proof.
    induction x as [a ks IH] using rose_rec_ind; intros [b js] Q; apply rsame_inv in Q; destruct Q as [E [js' [P F]]]; cbn [rosemap].
    apply rsame_make; [exact E|]; exists (map (rosemap g) js'); split; [apply Permutation_map, P|].
    apply F2_map; exact (F2_Forall_impl _ _ _ ks js' IH F (fun k j H S => H j S)).
  Qed.
  Lemma same_tree : rsame same_node t t'.
  Proof. exact (rsame_unmap (details h) (details h') same_details t t' S). Qed.

  Lemma walks_order fuel fuel' sh sh' : (forall n l, Permutation l (sh n l)) -> (forall n l, Permutation l (sh' n l)) ->
    tree_at h t -> tree_at h' t' -> (2 * rsize t < fuel)%nat -> (2 * rsize t < fuel')%nat ->
    both (permuted same_node) (walk_preorder fuel h (root t)) (walk_preorder fuel' h' (root t')) /\
    both (permuted same_node) (walk_postorder fuel h (root t)) (walk_postorder fuel' h' (root t')) /\
    both (permuted same_node) (walk_breadth_first sh fuel h (root t)) (walk_breadth_first sh' fuel' h' (root t')).
  Proof.
    intros Q Q' T T' L L'; pose proof same_tree as W; pose proof (rsame_size _ _ _ W) as Z; pose proof (rsame_nodes _ _ _ W) as N.
    split; [|split].
    - destruct (walk_preorder_ok h fuel t T ltac:(lia)) as [ns [-> [P _]]], (walk_preorder_ok h' fuel' t' T' ltac:(lia)) as [ns' [-> [P' _]]].
      cbn [both]; apply (permuted_perm_r _ _ _ _ (permuted_perm_l _ _ _ _ N (Permutation_sym P)) (Permutation_sym P')).
    - destruct (walk_postorder_ok h fuel t T ltac:(lia)) as [ns [-> [P _]]], (walk_postorder_ok h' fuel' t' T' ltac:(lia)) as [ns' [-> [P' _]]].
      cbn [both]; apply (permuted_perm_r _ _ _ _ (permuted_perm_l _ _ _ _ N (Permutation_sym P)) (Permutation_sym P')).
    - destruct (walk_breadth_ok sh h fuel t Q T ltac:(lia)) as [ps [-> [P _]]], (walk_breadth_ok sh' h' fuel' t' Q' T' ltac:(lia)) as [ps' [-> [P' _]]].
      cbn [both]; apply (Permutation_map snd) in P; apply (Permutation_map snd) in P'; rewrite pre_nodes in P, P'.
      apply (permuted_perm_r _ _ _ _ (permuted_perm_l _ _ _ _ N (Permutation_sym P)) (Permutation_sym P')).
  Qed.
  (* breadth first: level by level the same nodes *)
  Lemma find_order l fuel fuel' sh sh' : (forall n q, Permutation q (sh n q)) -> (forall n q, Permutation q (sh' n q)) ->
    tree_at h t -> tree_at h' t' -> (rsize t < fuel)%nat -> (rsize t < fuel')%nat ->
    both (fun a b => label (at_ h a) = l /\ label (at_ h' b) = l /\ exists d, reach h (root t) d a /\ reach h' (root t') d b)
      (find_node sh fuel h (root t) l) (find_node sh' fuel' h' (root t') l).
  Proof.
    intros Q Q' T T' L L'; pose proof same_tree as W; rewrite (rsame_size _ _ _ W) in L'.
    pose proof (rsame_pre _ t t' 0 W) as N.
    assert (R1 : forall d a, reach h (root t) d a -> exists b, reach h' (root t') d b /\ label (at_ h' b) = label (at_ h a)).
    { intros d a Ra; apply (pre_reach h t d a T) in Ra; destruct (permuted_in_l _ _ _ _ N Ra) as [[d' b] [I [E [El _]]]]; cbn [fst snd details] in E, El; subst d'.
      exists b; split; [apply (pre_reach h' t' d b T'), I|symmetry; exact El]. }
    assert (R2 : forall d b, reach h' (root t') d b -> exists a, reach h (root t) d a /\ label (at_ h a) = label (at_ h' b)).
    { intros d b Rb; apply (pre_reach h' t' d b T') in Rb; destruct (permuted_in_r _ _ _ _ N Rb) as [[d' a] [I [E [El _]]]]; cbn [fst snd details] in E, El; subst d'.
      exists a; split; [apply (pre_reach h t d a T), I|exact El]. }
    destruct (find_node_ok sh h t l fuel Q T L) as [[a [d [-> [Ra [La Ma]]]]]|[-> No]], (find_node_ok sh' h' t' l fuel' Q' T' L') as [[b [e [-> [Rb [Lb Mb]]]]]|[-> No']]; cbn [both].
    - split; [exact La|split; [exact Lb|]]; exists d; split; [exact Ra|].
      destruct (R1 d a Ra) as [b1 [Rb1 Lb1]], (R2 e b Rb) as [a1 [Ra1 La1]].
      pose proof (Mb d b1 Rb1 ltac:(congruence)); pose proof (Ma e a1 Ra1 ltac:(congruence)).
      assert (d = e) as -> by lia; exact Rb.
    - destruct (R1 d a Ra) as [b1 [Rb1 Lb1]]; apply (No' d b1 Rb1); congruence.
    - destruct (R2 e b Rb) as [a1 [Ra1 La1]]; apply (No e a1 Ra1); congruence.
    - reflexivity.
  Qed.
  Lemma copy_order fuel fuel' : keyed h t -> keyed h' t' ->
    truth_opt h (parent (at_ h (root t))) = false -> truth_opt h' (parent (at_ h' (root t'))) = false ->
    (rsize t < fuel)%nat -> (rsize t < fuel')%nat ->
    both (fun r r' => exists u u', root u = snd r /\ root u' = snd r' /\ linked (fst r) None u /\ linked (fst r') None u' /\
            rsame same_details (rosemap (details (fst r)) u) (rosemap (details (fst r')) u'))
      (copy fuel h (root t)) (copy fuel' h' (root t')).
  Proof.
    intros K K' T T' L L'; rewrite (rsame_size _ _ _ same_tree) in L'.
    destruct (copy_ok h t fuel K T L) as [g [u [-> [Lu [_ [Du _]]]]]], (copy_ok h' t' fuel' K' T' L') as [g' [u' [-> [Lu' [_ [Du' _]]]]]].
    cbn [both]; exists u, u'; cbn [fst snd]; repeat split; try assumption; rewrite Du, Du'; exact S.
  Qed.
  Lemma prune_order (pred : str * dict akey value -> dict str addr -> bool) fuel fuel' :
    (forall x y c, same_details x y -> pred x c = pred y c) -> keyed h t -> keyed h' t' ->
    truth_opt h (parent (at_ h (root t))) = false -> truth_opt h' (parent (at_ h' (root t'))) = false ->
    (2 * rsize t < fuel)%nat -> (2 * rsize t < fuel')%nat ->
    both (fun r r' => match snd r, snd r' with
                      | None, None => True
                      | Some a, Some b => exists u u', root u = a /\ root u' = b /\ linked (fst r) None u /\ linked (fst r') None u' /\
                          rsame same_details (rosemap (details (fst r)) u) (rosemap (details (fst r')) u')
                      | _, _ => False
                      end)
      (prune (fun h a => pred (details h a) (children (at_ h a))) fuel h (root t))
      (prune (fun h a => pred (details h a) (children (at_ h a))) fuel' h' (root t')).
  Proof.
    intros C K K' T T' L L'; rewrite (rsame_size _ _ _ same_tree) in L'.
    destruct (prune_any pred h t fuel K T L) as [g [r [-> [_ A]]]], (prune_any pred h' t' fuel' K' T' L') as [g' [r' [-> [_ A']]]].
    assert (Cn : forall x y, same_details x y -> (fun d => pred d []) x = (fun d => pred d []) y) by (intros x y X; apply C, X).
    pose proof (rsame_viable same_details _ _ _ _ Cn S) as V; rewrite <- V in A'; cbn [both snd fst].
    destruct (viable (fun d => pred d []) (rosemap (details h) t)).
    - destruct A as [u [-> [Lu [Du _]]]], A' as [u' [-> [Lu' [Du' _]]]]; exists u, u'; repeat split; try assumption.
      rewrite Du, Du'; apply rsame_keep; [exact Cn|exact S].
    - rewrite A, A'; exact I.
  Qed.
End TreesOrder.
(* two trees of one store: == *)
Lemma equal_order veq h t : (forall v, veq v v = true) -> forall t', keyed h t -> keyed h t' ->
  rsame (same_node h h) t t' -> alike veq h t t'.
Proof.
  intros R; induction t as [a ks IH] using rose_rec_ind; intros [b js] K K' W; apply rsame_inv in W; destruct W as [[El Ed] P].
  cbn [fst snd details] in El, Ed; inversion K as [? ? _ _ _ Fk]; inversion K' as [? ? _ _ _ Fj]; subst.
  rewrite Forall_forall in IH, Fk, Fj; constructor.
  - exact El.
  - intros k; rewrite Ed; destruct (dget k (attrib (at_ h b))) as [v|]; [apply R|exact I].
  - intros k Ik; destruct (permuted_in_l _ _ _ _ P Ik) as [j [Ij Wkj]]; exists j; split; [exact Ij|apply IH; auto].
  - intros j Ij; destruct (permuted_in_r _ _ _ _ P Ij) as [k [Ik Wkj]]; exists k; split; [exact Ik|].
    exact (proj1 (rsame_root _ _ _ Wkj)).
Qed.
Lemma node_eq_order veq h t t' fuel : (forall v, veq v v = true) -> keyed h t -> keyed h t' ->
  (forall a, In a (nodes t) \/ In a (nodes t') -> NoDup (dkeys (attrib (at_ h a)))) -> (rsize t < fuel)%nat ->
  rsame same_details (rosemap (details h) t) (rosemap (details h) t') -> node_eq veq fuel h (root t) (root t') = Ok true.
Proof.
  intros R K K' N L S; destruct (node_eq_alike veq R fuel h t t' K K' N L) as [e [E A]]; rewrite E; f_equal; apply A.
  apply equal_order; [exact R|exact K|exact K'|exact (same_tree h t h t' S)].
Qed.

(* ---------------- languages of a sentence ---------------- *)
(* an entry: a language and the set of its sentences *)
Definition same_entry (p q : str * list Z) : Prop := fst p = fst q /\ forall i, In i (snd p) <-> In i (snd q).
Lemma find_lang_cases i (d : dict str (list Z)) :
  (exists l s, find_lang i d = Ok l /\ In (l, s) d /\ In i s) \/ (find_lang i d = Raise InvalidIDError /\ forall l s, In (l, s) d -> ~ In i s).
Proof.
  induction d as [|[l s] d IH]; cbn [find_lang]; [right; split; [reflexivity|intros ? ? []]|].
  destruct (mem i s) eqn:M.
  - left; exists l, s; split; [reflexivity|split; [left; reflexivity|apply mem_In, M]].
  - destruct IH as [[l' [s' [E [I J]]]]|[E N]].
    + left; exists l', s'; split; [exact E|split; [right; exact I|exact J]].
    + right; split; [exact E|]; intros l' s' [Q|I]; [|exact (N l' s' I)].
      injection Q as <- <-; intros J; apply mem_In in J; congruence.
Qed.
Lemma find_lang_order i (d e : dict str (list Z)) : permuted same_entry d e ->
  both (fun l m => (exists s, In (l, s) d /\ In i s) /\ (exists s, In (m, s) d /\ In i s)) (find_lang i d) (find_lang i e).
Proof.
  intros P; destruct (find_lang_cases i d) as [[l [s [-> [I J]]]]|[-> N]], (find_lang_cases i e) as [[m [s' [-> [I' J']]]]|[-> N']]; cbn [both].
  - split; [exists s; split; assumption|].
    destruct (permuted_in_r _ _ _ _ P I') as [[m1 s1] [I1 [E1 E2]]]; cbn [fst snd] in E1, E2; subst m1.
    exists s1; split; [exact I1|apply E2, J'].
  - destruct (permuted_in_l _ _ _ _ P I) as [[m1 s1] [I1 [E1 E2]]]; cbn [fst snd] in E1, E2.
    apply (N' _ _ I1), E2, J.
  - destruct (permuted_in_r _ _ _ _ P I') as [[m1 s1] [I1 [E1 E2]]]; cbn [fst snd] in E1, E2.
    apply (N _ _ I1), E2, J'.
  - reflexivity.
Qed.
Lemma find_lang_order_one i (d e : dict str (list Z)) : permuted same_entry d e ->
  (forall l s m s', In (l, s) d -> In (m, s') d -> In i s -> In i s' -> l = m) -> find_lang i d = find_lang i e.
Proof.
  intros P U; pose proof (find_lang_order i d e P) as B; destruct (find_lang i d) as [l|x], (find_lang i e) as [m|y]; cbn [both] in B; try contradiction.
  - destruct B as [[s [I J]] [s' [I' J']]]; rewrite (U l s m s' I I' J J'); reflexivity.
  - rewrite B; reflexivity.
Qed.
