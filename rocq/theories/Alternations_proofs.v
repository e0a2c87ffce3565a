(* Alternations_proofs.v *)
From Verif Require Import Base PyStr Scripts_model Scripts_spec Scripts_proofs KanaTable_model KanaTable_spec
  KanaTable_proofs Maps_model Maps_proofs Alternations_model Alternations_spec.

(* ---------------- itertools.product ---------------- *)
Lemma In_product {A} (ls : list (list A)) t : In t (product ls) <-> Forall2 (fun x l => In x l) t ls.
Proof.
  revert t; induction ls as [|l ls IH]; intros t; cbn [product].
  - split; [intros [<-|[]]; constructor|intros F; inversion F; left; reflexivity].
  - rewrite in_flat_map; split.
    + intros [x [Hx Ht]]; apply in_map_iff in Ht; destruct Ht as [t' [<- Ht]]; constructor; [exact Hx|apply IH, Ht].
    + intros F; inversion F as [|x l' t' ls' Hx F']; subst; exists x; split; [exact Hx|apply in_map, IH, F'].
Qed.
Lemma length_product {A} (ls : list (list A)) : length (product ls) = fold_right Nat.mul 1%nat (map (@length A) ls).
Proof.
  induction ls as [|l ls IH]; cbn [product map fold_right]; [reflexivity|].
  rewrite <- IH; clear IH; induction l as [|x l IHl]; cbn [flat_map length Nat.mul]; [reflexivity|].
  rewrite app_length, map_length, IHl; reflexivity.
Qed.
Lemma NoDup_product {A} (ls : list (list A)) : Forall (@NoDup A) ls -> NoDup (product ls).
Proof.
  induction 1 as [|l ls ND F IH]; cbn [product]; [repeat constructor; intros []|].
  induction ND as [|x l Nx ND IHl]; cbn [flat_map]; [constructor|].
  assert (J : forall a l', NoDup a -> NoDup l' -> (forall y : list A, In y a -> ~ In y l') -> NoDup (a ++ l')).
  { clear; intros a l' Na Nl D; induction Na as [|y a Ny Na IHa]; cbn [app]; [exact Nl|].
    constructor; [rewrite in_app_iff; intros [I|I]; [contradiction|apply (D y (or_introl eq_refl) I)]|].
    apply IHa; intros z Hz; apply D; right; exact Hz. }
  apply J; [|exact IHl|].
  - clear - IH; induction IH as [|y p Ny ND IHp]; cbn [map]; [constructor|constructor; [|exact IHp]].
    intros I; apply in_map_iff in I; destruct I as [z [E I]]; injection E as ->; contradiction.
  - intros y Hy I; apply in_map_iff in Hy; destruct Hy as [t [<- _]].
    apply in_flat_map in I; destruct I as [z [Hz I]]; apply in_map_iff in I; destruct I as [t' [E _]].
    injection E as E _; congruence.
Qed.

(* ---------------- C10: voicing maps ---------------- *)
Lemma is_kana_dec c : {is_kana c} + {~ is_kana c}.
Proof.
  unfold is_kana, in_script, between.
  destruct (Z_le_dec 0x3041 c), (Z_le_dec c 0x3096), (Z_le_dec 0x30a1 c), (Z_le_dec c 0x30f6);
    (left; lia) || (right; lia).
Defined.

Definition hv : dict char (list char) := Eval vm_compute in vm_or_empty (hira_voicing kana_rows).
Lemma hira_voicing_perm table : Permutation table kana_rows -> hira_voicing table = Ok hv.
Proof.
  intros P; unfold hira_voicing, dgetitem.
  assert (ND : NoDup (dkeys table)).
  { apply (Permutation_NoDup (l := dkeys kana_rows)); [apply Permutation_map, Permutation_sym, P|].
    apply nodupb_NoDup; vm_compute; reflexivity. }
  assert (G : forall k, dget k table = dget k kana_rows) by (intros k; apply dget_perm; assumption).
  rewrite !G; vm_compute; reflexivity.
Qed.
Lemma hv_keys : dkeys hv = zrange 0x3041 0x3097.
Proof. vm_compute; reflexivity. Qed.
Lemma hv_nodup : NoDup (dkeys hv).
Proof. apply nodupb_NoDup; vm_compute; reflexivity. Qed.
Lemma to_voiced_val : join_voicing hv = to_voiced.
Proof. vm_compute; reflexivity. Qed.
Lemma to_voiced_keys : dkeys to_voiced = zrange 0x3041 0x3097 ++ zrange 0x30a1 0x30f7.
Proof. vm_compute; reflexivity. Qed.
Lemma to_voiced_nodup : NoDup (dkeys to_voiced).
Proof. apply nodupb_NoDup; vm_compute; reflexivity. Qed.

Lemma to_voiced_table : forallb (fun kv => eqb (snd kv) (voiced_forms (fst kv))) to_voiced = true.
Proof. vm_compute; reflexivity. Qed.
Lemma to_voiced_dom c : In c (dkeys to_voiced) <-> is_kana c.
Proof.
  rewrite to_voiced_keys, in_app_iff, !In_zrange; unfold is_kana, in_script, between; lia.
Qed.
Lemma to_voiced_spec c l : dget c to_voiced = Some l <-> is_kana c /\ l = voiced_forms c.
Proof.
  split.
  - intros E; split; [apply to_voiced_dom, (dget_Some_key _ _ _ E)|].
    apply dget_In in E; pose proof (proj1 (forallb_forall _ _) to_voiced_table _ E) as F; cbn [fst snd] in F.
    apply eqb_eq in F; exact F.
  - intros [K ->]; apply to_voiced_dom, In_key_dget in K; destruct K as [l E].
    rewrite E; apply dget_In in E; pose proof (proj1 (forallb_forall _ _) to_voiced_table _ E) as F; cbn [fst snd] in F.
    apply eqb_eq in F; congruence.
Qed.

(* the join does not depend on the order of the hiragana map *)
Lemma kata_pairs_nodup : NoDup (dkeys (map (fun kv : char * list char => (kata_char (fst kv), map kata_char (snd kv))) hv)).
Proof. apply nodupb_NoDup; vm_compute; reflexivity. Qed.
Lemma join_voicing_perm vm : Permutation vm hv -> forall c, dget c (join_voicing vm) = dget c to_voiced.
Proof.
  intros P c; rewrite <- to_voiced_val; unfold join_voicing, kata_voicing.
  assert (NDv : NoDup (dkeys vm)).
  { apply (Permutation_NoDup (l := dkeys hv)); [apply Permutation_map, Permutation_sym, P|exact hv_nodup]. }
  assert (Pk := Permutation_map (fun kv : char * list char => (kata_char (fst kv), map kata_char (snd kv))) P).
  assert (NDk : NoDup (dkeys (map (fun kv : char * list char => (kata_char (fst kv), map kata_char (snd kv))) vm))).
  { eapply Permutation_NoDup; [apply Permutation_map, Permutation_sym, Pk|exact kata_pairs_nodup]. }
  assert (D : forall (d e : dict char (list char)), NoDup (dkeys e) ->
            dget c (dupdate d (dict_of e)) = match dget c e with Some v => Some v | None => dget c d end).
  { intros d e ND; rewrite dget_dupdate.
    rewrite (dget_perm c (rev (dict_of e)) (dict_of e)).
    - rewrite dget_dict_of by exact ND; reflexivity.
    - apply Permutation_sym, Permutation_rev.
    - apply (Permutation_NoDup (l := dkeys (dict_of e))); [apply Permutation_map, Permutation_rev|apply NoDup_dict_of]. }
  rewrite (D vm _ NDk), (D hv _ kata_pairs_nodup).
  rewrite (dget_perm c _ _ Pk NDk), (dget_perm c _ _ P NDv); reflexivity.
Qed.

Lemma mapM_fst_hd (l : dict char (list char)) : (forall kv, In kv l -> snd kv <> []) ->
  exists m, mapM (fun kv => do x <- sitem (snd kv) 0; Ok (fst kv, x)) l = Ok m /\ dkeys m = dkeys l /\
            forall v, dget v m = match dget v l with Some (x :: _) => Some x | _ => None end.
Proof.
  induction l as [|[k [|x xs]] l IH]; intros N; cbn [mapM].
  - exists []; split; [reflexivity|split; reflexivity].
  - exfalso; apply (N (k, [])); [left; reflexivity|reflexivity].
  - destruct IH as [m [E [Ek G]]]; [intros kv I; apply N; right; exact I|].
    cbn [snd fst sitem nth_error of_option bind]; rewrite E; cbn [bind].
    exists ((k, x) :: m); split; [reflexivity|split; [cbn [dkeys map fst]; f_equal; exact Ek|]].
    intros v; cbn [dget]; destruct (eqb v k); [reflexivity|apply G].
Qed.

Lemma from_voiced_of_spec tv : exists fv, from_voiced_of tv = Ok fv /\
  forall v, dget v fv = hd_error (occurrences v tv).
Proof.
  destruct (mapM_fst_hd (invert_mapping tv)) as [m [E [Ek G]]].
  - intros [v l] I; cbn [snd]; assert (E := I); apply In_dget in E; [|apply invert_nodup].
    assert (K : In v (dkeys (invert_mapping tv))) by (apply (in_map fst) in I; exact I).
    apply invert_keys in K; destruct K as [k [vs [I1 I2]]].
    pose proof (invert_dlist v tv) as D; unfold dlist in D; rewrite E in D; rewrite D.
    unfold occurrences; intros Z.
    assert (J : In k (flat_map (fun kvs => repeat (fst kvs) (count v (snd kvs))) tv)).
    { apply in_flat_map; exists (k, vs); split; [exact I1|]; cbn [fst snd].
      apply count_In in I2; destruct (count v vs); [lia|left; reflexivity]. }
    rewrite Z in J; exact J.
  - exists (dict_of m); unfold from_voiced_of; rewrite E; split; [reflexivity|].
    intros v; rewrite dget_dict_of.
    + rewrite G; pose proof (invert_dlist v tv) as D; unfold dlist in D; rewrite <- D.
      destruct (dget v (invert_mapping tv)) as [[|x xs]|]; reflexivity.
    + rewrite Ek; apply invert_nodup.
Qed.

Lemma from_voiced_val : from_voiced_of to_voiced = Ok from_voiced.
Proof. vm_compute; reflexivity. Qed.
Definition vpairs : list (char * char) := Eval vm_compute in dakuten_rows ++ handakuten_rows.
Lemma from_voiced_back : forallb (fun p => eqb (dget (snd p) from_voiced) (Some (fst p))) vpairs = true.
Proof. vm_compute; reflexivity. Qed.
Lemma from_voiced_only : forallb (fun p => mem (snd p, fst p) vpairs) from_voiced = true.
Proof. vm_compute; reflexivity. Qed.
Lemma In_voiced_forms v c : In v (voiced_forms c) <-> In (c, v) vpairs.
Proof.
  unfold voiced_forms; change (dakuten_rows ++ handakuten_rows) with vpairs; rewrite in_map_iff; split.
  - intros [[a b] [<- I]]; apply filter_In in I; destruct I as [I E]; cbn [fst snd] in *.
    apply Z.eqb_eq in E; subst a; exact I.
  - intros I; exists (c, v); split; [reflexivity|apply filter_In; split; [exact I|cbn; apply Z.eqb_refl]].
Qed.
Lemma from_voiced_spec v c : dget v from_voiced = Some c <-> In v (voiced_forms c).
Proof.
  rewrite In_voiced_forms; split; intros I.
  - apply dget_In in I; pose proof (proj1 (forallb_forall _ _) from_voiced_only _ I) as F; cbn [fst snd] in F.
    apply mem_In in F; exact F.
  - pose proof (proj1 (forallb_forall _ _) from_voiced_back _ I) as F; cbn [fst snd] in F; apply eqb_eq in F; exact F.
Qed.
Lemma occ_single : forallb (fun p => Nat.eqb (length (occurrences (fst p) to_voiced)) 1) from_voiced = true.
Proof. vm_compute; reflexivity. Qed.
Lemma from_voiced_perm tv : Permutation tv to_voiced ->
  exists fv, from_voiced_of tv = Ok fv /\ forall v, dget v fv = dget v from_voiced.
Proof.
  intros P; destruct (from_voiced_of_spec tv) as [fv [E G]]; exists fv; split; [exact E|intros v].
  destruct (from_voiced_of_spec to_voiced) as [fv' [E' G']]; rewrite from_voiced_val in E'; injection E' as <-.
  rewrite G, G'.
  assert (Po : Permutation (occurrences v tv) (occurrences v to_voiced)) by (unfold occurrences; apply Permutation_flat_map, P).
  destruct (occurrences v to_voiced) as [|c [|c' o]] eqn:Eo.
  - apply Permutation_sym, Permutation_nil in Po; rewrite Po; reflexivity.
  - apply Permutation_sym, Permutation_length_1_inv in Po; rewrite Po; reflexivity.
  - exfalso; specialize (G' v); rewrite Eo in G'; cbn [hd_error] in G'; apply dget_In in G'.
    pose proof (proj1 (forallb_forall _ _) occ_single _ G') as F; cbn [fst] in F; rewrite Eo in F; discriminate.
Qed.

Lemma voicing_order_independent table vm tv :
  Permutation table kana_rows -> hira_voicing table = Ok vm ->
  forall vm', Permutation vm' vm -> Permutation tv (join_voicing vm') ->
  (forall c l, dget c tv = Some l <-> is_kana c /\ l = voiced_forms c) /\
  exists fv, from_voiced_of tv = Ok fv /\ forall v c, dget v fv = Some c <-> In v (voiced_forms c).
Proof.
  intros P E vm' Pv Pt; rewrite (hira_voicing_perm _ P) in E; injection E as <-.
  assert (NJ : NoDup (dkeys (join_voicing vm'))).
  { unfold join_voicing; apply NoDup_dupdate.
    apply (Permutation_NoDup (l := dkeys hv)); [apply Permutation_map, Permutation_sym, Pv|exact hv_nodup]. }
  assert (NT : NoDup (dkeys tv)).
  { apply (Permutation_NoDup (l := dkeys (join_voicing vm'))); [apply Permutation_map, Permutation_sym, Pt|exact NJ]. }
  assert (G : forall c, dget c tv = dget c to_voiced).
  { intros c; rewrite (dget_perm c _ _ Pt NT); apply join_voicing_perm, Pv. }
  split; [intros c l; rewrite G; apply to_voiced_spec|].
  assert (PT : Permutation tv to_voiced).
  { apply NoDup_Permutation.
    - apply (NoDup_map_inv fst), NT.
    - apply (NoDup_map_inv fst), to_voiced_nodup.
    - intros [k l]; split; intros I.
      + apply dget_In; rewrite <- G; apply In_dget; assumption.
      + apply dget_In; rewrite G; apply In_dget; [exact to_voiced_nodup|exact I]. }
  destruct (from_voiced_perm tv PT) as [fv [E' G']]; exists fv; split; [exact E'|].
  intros v c; rewrite G'; apply from_voiced_spec.
Qed.

Lemma voiced_forms_kata : forallb (fun c => eqb (voiced_forms (c + 96)) (map (fun v => v + 96) (voiced_forms c)))
  (zrange 0x3041 0x3097) = true.
Proof. vm_compute; reflexivity. Qed.
Lemma voiced_forms_scripts c : in_script Hiragana c ->
  voiced_forms (c + 96) = map (fun v => v + 96) (voiced_forms c).
Proof.
  intros I; pose proof (proj1 (forallb_forall _ _) voiced_forms_kata c) as F.
  apply eqb_eq, F, In_zrange; unfold in_script, between in I; lia.
Qed.
Lemma voiced_forms_unique v c c' : In v (voiced_forms c) -> In v (voiced_forms c') -> c = c'.
Proof. intros E F; apply from_voiced_spec in E, F; congruence. Qed.

(* ---------------- C11 ---------------- *)
Lemma maps_spec sc : dget sc sokuon_map = small_tsu sc /\
  dget sc onbin_map = match sc with Hiragana | Katakana => Some (geminable sc) | _ => None end.
Proof. destruct sc; split; reflexivity. Qed.

Lemma vu_dec c : {vu c} + {~ vu c}.
Proof. unfold vu; destruct (Z.eq_dec c 0x3094), (Z.eq_dec c 0x30F4); (left; lia) || (right; lia). Defined.

Definition all_pairs := dakuten_pairs ++ handakuten_pairs.
Lemma pairs_from : forallb (fun p => eqb (dget (fst p) from_voiced) (Some (snd p))
    || (fst p =? 0x3094) || (fst p =? 0x30F4)
    || negb (((0x3041 <=? fst p) && (fst p <=? 0x3096)) || ((0x30a1 <=? fst p) && (fst p <=? 0x30f6)))) all_pairs = true.
Proof. vm_compute; reflexivity. Qed.
Lemma from_pairs : forallb (fun p => mem p all_pairs) from_voiced = true.
Proof. vm_compute; reflexivity. Qed.
Lemma vu_voiced : In (0x3094, 0x3046) dakuten_pairs /\ In (0x30F4, 0x30A6) dakuten_pairs.
Proof. split; apply mem_In; vm_compute; reflexivity. Qed.

Lemma devoice_char c b : is_kana c -> ~ vu c ->
  (dget c from_voiced = Some b <-> In (c, b) dakuten_pairs \/ In (c, b) handakuten_pairs).
Proof.
  intros K N; rewrite <- in_app_iff; fold all_pairs; split; intros I.
  - apply dget_In in I; pose proof (proj1 (forallb_forall _ _) from_pairs _ I) as F; apply mem_In in F; exact F.
  - pose proof (proj1 (forallb_forall _ _) pairs_from _ I) as F; cbn [fst snd] in F.
    destruct (eqb_spec (dget c from_voiced) (Some b)) as [E|E]; [exact E|exfalso].
    unfold vu in N; unfold is_kana, in_script, between in K; cbn [orb] in F; lia.
Qed.

Section Canonical.
  Variable U : UCD.
  Hypothesis ok : ucd_ok U.

  Definition onbin_step (sokuon : char) (onbin : str) (right : bool) (segment : str) : list str :=
    if right && (1 <? Z.of_nat (length segment)) && endswith [sokuon] segment
    then supdate [segment] (map (fun c => removelast segment ++ [c]) onbin)
    else [segment].

  Lemma onbin_cond seg t : (1 <? Z.of_nat (length seg)) && endswith [t] seg = true <->
    exists c pre, seg = (c :: pre) ++ [t].
  Proof.
    rewrite andb_true_iff, endswith_true, Z.ltb_lt; split.
    - intros [L [r ->]]; rewrite app_length in L; cbn [length] in L; destruct r as [|c pre]; [cbn in L; lia|].
      exists c, pre; reflexivity.
    - intros [c [pre ->]]; split; [rewrite app_length; cbn [length]; lia|exists (c :: pre); reflexivity].
  Qed.
  Lemma onbin_step_spec sc t right seg : small_tsu sc = Some t ->
    NoDup (onbin_step t (geminable sc) right seg) /\
    forall x, In x (onbin_step t (geminable sc) right seg) <-> x = seg \/ (right = true /\ restores sc seg x).
  Proof.
    intros Et; unfold onbin_step; rewrite <- andb_assoc.
    destruct ((1 <? Z.of_nat (length seg)) && endswith [t] seg) eqn:C.
    - apply onbin_cond in C; destruct C as [c [pre ->]]; destruct right; cbn [andb].
      + split; [apply NoDup_supdate; repeat constructor; intros []|].
        intros x; rewrite In_supdate, in_map_iff; cbn [In]; rewrite removelast_last; split.
        * intros [[<-|[]]|[k [<- I]]]; [left; reflexivity|right; split; [reflexivity|]].
          exists c, pre, t, k; repeat split; assumption.
        * intros [-> |[_ [c' [pre' [t' [k [E [Et' [I ->]]]]]]]]]; [left; left; reflexivity|right].
          apply app_inj_tail in E; destruct E as [E _]; exists k; split; [rewrite E; reflexivity|exact I].
      + split; [repeat constructor; intros []|intros x; cbn [In]; split; [intros [<-|[]]; tauto|intros [-> |[F _]]; [tauto|discriminate]]].
    - rewrite andb_false_r; split; [repeat constructor; intros []|].
      intros x; cbn [In]; split; [intros [<-|[]]; tauto|intros [-> |[_ R]]; [tauto|exfalso]].
      destruct R as [c [pre [t' [k [E [Et' _]]]]]]; rewrite Et in Et'; injection Et' as <-.
      rewrite (proj2 (onbin_cond seg t)) in C; [discriminate|exists c, pre; exact E].
  Qed.
  (* every variant keeps the first kana *)
  Lemma onbin_step_head sc t right c r x : small_tsu sc = Some t ->
    In x (onbin_step t (geminable sc) right (c :: r)) -> exists r', x = c :: r'.
  Proof.
    intros Et I; apply (onbin_step_spec sc t right (c :: r) Et) in I.
    destruct I as [-> |[_ [c' [pre [t' [k [E [_ [_ ->]]]]]]]]]; [exists r; reflexivity|].
    injection E as -> _; exists (pre ++ [k]); reflexivity.
  Qed.

  Lemma csf_unfold sc t seg left right : (sc = Hiragana \/ sc = Katakana) -> small_tsu sc = Some t ->
    script_type seg = sc ->
    canonical_segment_forms U seg left right =
    do voiced <- (if left then do c <- sitem seg 0; Ok (is_voiced U [c]) else Ok false);
    if (voiced : bool)
    then do devoiced <- mapM devoice (onbin_step t (geminable sc) right seg);
         Ok (supdate (onbin_step t (geminable sc) right seg) devoiced)
    else Ok (onbin_step t (geminable sc) right seg).
  Proof.
    intros K Et Es; unfold canonical_segment_forms; rewrite Es.
    destruct (maps_spec sc) as [-> M]; rewrite Et, M.
    destruct K as [-> | ->]; reflexivity.
  Qed.

  Lemma kana_tsu sc : (sc = Hiragana \/ sc = Katakana) -> exists t, small_tsu sc = Some t.
  Proof. intros [-> | ->]; eexists; reflexivity. Qed.

  Lemma csf_spec c r sc left right : in_script sc c -> (sc = Hiragana \/ sc = Katakana) ->
    (left = true -> ~ vu c) ->
    exists vs, canonical_segment_forms U (c :: r) left right = Ok vs /\ NoDup vs /\
               forall x, In x vs <-> candidate left right (c :: r) x.
  Proof.
    intros I K N.
    destruct (kana_tsu sc K) as [t Et].
    rewrite (csf_unfold sc t _ _ _ K Et) by (apply script_type_char, I).
    destruct (onbin_step_spec sc t right (c :: r) Et) as [ND M].
    pose proof (fun x => onbin_step_head sc t right c r x Et) as HD.
    set (vs := onbin_step t (geminable sc) right (c :: r)) in *.
    assert (KC : is_kana c) by (unfold is_kana; destruct K as [-> | ->]; tauto).
    assert (CAND : forall x, candidate left right (c :: r) x <->
      exists y, In y vs /\ (x = y \/ (left = true /\ devoices y x))).
    { intros x; split.
      - intros [c' [r' [sc' [E [I' [K' [y [Y X]]]]]]]]; injection E as <- <-.
        pose proof (in_script_fun _ _ _ I I') as <-; exists y; split; [apply M, Y|exact X].
      - intros [y [Y X]]; exists c, r, sc; split; [reflexivity|split; [exact I|split; [exact K|]]].
        exists y; split; [apply M, Y|exact X]. }
    destruct (if left then is_voiced U [c] else false) eqn:V.
    - destruct left; [|discriminate]; cbn [sitem nth_error of_option bind]; rewrite V.
      specialize (N eq_refl).
      apply (voiced_char U ok) in V.
      assert (B : exists b, In (c, b) dakuten_pairs \/ In (c, b) handakuten_pairs).
      { destruct V as [[b B]|[b B]]; exists b; [left|right]; exact B. }
      destruct B as [b B]; assert (F := B); apply (devoice_char c b KC N) in F.
      assert (MM : mapM devoice vs = Ok (map (fun v => b :: tl v) vs)).
      { apply mapM_Ok; intros x Ix; destruct (HD x Ix) as [r' ->]; cbn [devoice tl].
        unfold dgetitem; rewrite F; reflexivity. }
      rewrite MM; cbn [bind]; eexists; split; [reflexivity|].
      split; [apply NoDup_supdate, ND|].
      intros x; rewrite In_supdate, in_map_iff, CAND; split.
      + intros [J|[y [<- J]]]; [exists x; split; [exact J|left; reflexivity]|].
        exists y; split; [exact J|right; split; [reflexivity|]].
        destruct (HD y J) as [r' ->]; exists c, b, r'; repeat split; exact B.
      + intros [y [J [-> |[_ D]]]]; [left; exact J|right].
        destruct D as [v [b' [r' [-> [-> B']]]]]; exists (v :: r'); split; [|exact J].
        destruct (HD _ J) as [r'' E]; injection E as -> <-; cbn [tl].
        apply (devoice_char c b' KC N) in B'; congruence.
    - assert (E : (do voiced <- (if left then do c0 <- sitem (c :: r) 0; Ok (is_voiced U [c0]) else Ok false);
                   if (voiced : bool) then do devoiced <- mapM devoice vs; Ok (supdate vs devoiced) else Ok vs) = Ok vs).
      { destruct left; cbn [sitem nth_error of_option bind]; [rewrite V|]; reflexivity. }
      rewrite E; exists vs; split; [reflexivity|split; [exact ND|]].
      intros x; rewrite CAND; split; [intros J; exists x; split; [exact J|left; reflexivity]|].
      intros [y [J [-> |[El D]]]]; [exact J|exfalso]; subst left.
      destruct D as [v [b [r' [-> [-> B]]]]]; destruct (HD _ J) as [r'' E']; injection E' as -> <-.
      assert (V' : is_voiced U [c] = true).
      { apply (voiced_char U ok); destruct B as [B|B]; [left|right]; exists b; exact B. }
      congruence.
  Qed.

  Lemma vu_not_from c : vu c -> dget c from_voiced = None.
  Proof. intros [-> | ->]; vm_compute; reflexivity. Qed.
  Lemma csf_vu c r right : vu c -> canonical_segment_forms U (c :: r) true right = Raise KeyError.
  Proof.
    intros V.
    assert (I : exists sc, in_script sc c /\ (sc = Hiragana \/ sc = Katakana)).
    { destruct V as [-> | ->]; [exists Hiragana|exists Katakana]; (split; [unfold in_script, between; lia|tauto]). }
    destruct I as [sc [I K]]; destruct (kana_tsu sc K) as [t Et].
    rewrite (csf_unfold sc t _ _ _ K Et) by (apply script_type_char, I).
    assert (W : is_voiced U [c] = true).
    { apply (voiced_char U ok); left; destruct V as [-> | ->]; eexists; [apply (proj1 vu_voiced)|apply (proj2 vu_voiced)]. }
    cbn [sitem nth_error of_option bind]; rewrite W.
    pose proof (fun x => onbin_step_head sc t right c r x Et) as HD.
    assert (NE : onbin_step t (geminable sc) right (c :: r) <> []).
    { intros Z; destruct (onbin_step_spec sc t right (c :: r) Et) as [_ M].
      rewrite Z in M; apply (M (c :: r)); left; reflexivity. }
    destruct (onbin_step t (geminable sc) right (c :: r)) as [|x vs]; [congruence|].
    cbn [mapM]; destruct (HD x (or_introl eq_refl)) as [r' ->]; cbn [devoice].
    unfold dgetitem; rewrite (vu_not_from c V); reflexivity.
  Qed.
  Lemma csf_not_kana seg left right : ~ kana_segment seg -> canonical_segment_forms U seg left right = Raise ValueError.
  Proof.
    intros N; unfold canonical_segment_forms.
    assert (E : small_tsu (script_type seg) = None).
    { destruct seg as [|c r]; [reflexivity|].
      destruct (script_type (c :: r)) eqn:E; try reflexivity; exfalso; apply N; exists c, r; split; try reflexivity;
        apply script_type_char in E; [left|right]; exact E. }
    destruct (maps_spec (script_type seg)) as [-> _]; rewrite E; reflexivity.
  Qed.
  Lemma candidate_length left right seg x : candidate left right seg x -> length x = length seg.
  Proof.
    intros [c [r [sc [-> [_ [_ [y [Y X]]]]]]]].
    assert (L : length y = length (c :: r)).
    { destruct Y as [-> |[_ [c' [pre [t [k [E [_ [_ ->]]]]]]]]]; [reflexivity|].
      rewrite E, !app_length; reflexivity. }
    rewrite <- L; destruct X as [-> |[_ [v [b [r' [-> [-> _]]]]]]]; reflexivity.
  Qed.

  (* ---------------- C12 ---------------- *)
  Lemma candidate_sets_spec segs : forall i n,
    match candidate_sets U i n segs with
    | Ok vss => length vss = length segs /\
        forall j seg, nth_error segs j = Some seg -> exists vs, nth_error vss j = Some vs /\
          canonical_segment_forms U seg (0 <? (i + j))%nat ((i + j) <? n - 1)%nat = Ok vs
    | Raise e => exists j seg, nth_error segs j = Some seg /\
          canonical_segment_forms U seg (0 <? (i + j))%nat ((i + j) <? n - 1)%nat = Raise e /\
          forall k seg', (k < j)%nat -> nth_error segs k = Some seg' ->
            is_ok (canonical_segment_forms U seg' (0 <? (i + k))%nat ((i + k) <? n - 1)%nat) = true
    end.
  Proof.
    induction segs as [|seg segs IH]; intros i n; cbn [candidate_sets].
    - split; [reflexivity|intros [|j] seg E; discriminate].
    - assert (Z : (i + 0)%nat = i) by lia.
      destruct (canonical_segment_forms U seg (0 <? i)%nat (i <? n - 1)%nat) as [vs|e] eqn:E; cbn [bind].
      + specialize (IH (S i) n); destruct (candidate_sets U (S i) n segs) as [vss|e]; cbn [bind].
        * destruct IH as [L IH]; split; [cbn [length]; congruence|].
          intros [|j] seg' Ej; cbn [nth_error] in *.
          -- injection Ej as <-; exists vs; rewrite Z; split; [reflexivity|exact E].
          -- destruct (IH j seg' Ej) as [vs' [H1 H2]]; exists vs'; split; [exact H1|].
             replace (i + S j)%nat with (S i + j)%nat by lia; exact H2.
        * destruct IH as [j [seg' [H1 [H2 H3]]]]; exists (S j), seg'; split; [exact H1|split].
          -- replace (i + S j)%nat with (S i + j)%nat by lia; exact H2.
          -- intros [|k] seg'' Lk Ek; cbn [nth_error] in Ek.
             ++ injection Ek as <-; rewrite Z, E; reflexivity.
             ++ replace (i + S k)%nat with (S i + k)%nat by lia; apply H3; [lia|exact Ek].
      + exists O, seg; rewrite Z; split; [reflexivity|split; [exact E|intros k seg' Lk; lia]].
  Qed.

  Lemma canonical_forms_ok segs out : canonical_forms U segs = Ok out ->
    (forall t, In t out <-> length t = length segs /\
       forall i seg x, nth_error segs i = Some seg -> nth_error t i = Some x ->
         exists vs, canonical_segment_forms U seg (0 <? i)%nat (i <? length segs - 1)%nat = Ok vs /\ In x vs) /\
    (exists vss, length vss = length segs /\
       (forall i seg, nth_error segs i = Some seg -> exists vs, nth_error vss i = Some vs /\
          canonical_segment_forms U seg (0 <? i)%nat (i <? length segs - 1)%nat = Ok vs) /\
       length out = fold_right Nat.mul 1%nat (map (@length str) vss)).
  Proof.
    unfold canonical_forms; pose proof (candidate_sets_spec segs 0 (length segs)) as S.
    destruct (candidate_sets U 0 (length segs) segs) as [vss|e]; cbn [bind]; [|discriminate].
    intros E; injection E as <-; destruct S as [L S]; split.
    - intros t; rewrite In_product; split.
      + intros F; split; [rewrite (Forall2_len _ _ _ F); exact L|].
        intros i seg x Es Ex; destruct (S i seg Es) as [vs [Ev Ec]]; cbn [Nat.add] in Ec; exists vs; split; [exact Ec|].
        clear - F Ex Ev; revert i Ex Ev; induction F as [|y l t' vss' Hy F IH]; intros [|i] Ex Ev; try discriminate.
        * cbn in *; congruence.
        * eapply IH; eassumption.
      + intros [Lt A].
        assert (G : forall i x vs, nth_error t i = Some x -> nth_error vss i = Some vs -> In x vs).
        { intros i x vs Ex Ev.
          assert (Li : (i < length segs)%nat) by (rewrite <- L; apply nth_error_Some; congruence).
          destruct (nth_error segs i) as [seg|] eqn:Es; [|apply nth_error_None in Es; lia].
          destruct (A i seg x Es Ex) as [vs' [E' I']]; destruct (S i seg Es) as [vs'' [E'' E3]]; cbn [Nat.add] in E3; congruence. }
        assert (LL : length t = length vss) by congruence.
        clear - G LL; revert vss G LL; induction t as [|x t IH]; intros [|v vss] G LL; try discriminate; constructor.
        * apply (G O); reflexivity.
        * apply IH; [intros i y vs; apply (G (Datatypes.S i))|injection LL as LL; exact LL].
    - exists vss; split; [exact L|split; [exact S|apply length_product]].
  Qed.
  Lemma canonical_forms_raise segs e : canonical_forms U segs = Raise e ->
    exists i seg, nth_error segs i = Some seg /\
      canonical_segment_forms U seg (0 <? i)%nat (i <? length segs - 1)%nat = Raise e.
  Proof.
    unfold canonical_forms; pose proof (candidate_sets_spec segs 0 (length segs)) as S.
    destruct (candidate_sets U 0 (length segs) segs) as [vss|e']; cbn [bind]; [discriminate|].
    intros E; injection E as <-; destruct S as [j [seg [S1 [S2 _]]]]; exists j, seg; split; assumption.
  Qed.
  Lemma canonical_forms_total segs :
    (forall i c r, nth_error segs i = Some (c :: r) -> (0 < i)%nat -> ~ vu c) ->
    Forall kana_segment segs ->
    exists out, canonical_forms U segs = Ok out /\ NoDup out /\ forall t, In t out <-> canonical_sequence segs t.
  Proof.
    intros V K.
    assert (C : forall i seg, nth_error segs i = Some seg ->
      exists vs, canonical_segment_forms U seg (0 <? i)%nat (i <? length segs - 1)%nat = Ok vs /\ NoDup vs /\
               forall x, In x vs <-> candidate (0 <? i)%nat (i <? length segs - 1)%nat seg x).
    { intros i seg E; assert (KS := K); rewrite Forall_forall in KS; destruct (KS _ (nth_error_In _ _ E)) as [c [r [-> Kc]]].
      assert (I : exists sc, in_script sc c /\ (sc = Hiragana \/ sc = Katakana)) by (destruct Kc as [Kc|Kc]; eexists; split; [exact Kc|tauto|exact Kc|tauto]).
      destruct I as [sc [I1 I2]]; apply (csf_spec c r sc); [exact I1|exact I2|].
      intros Hi; apply Nat.ltb_lt in Hi; apply (V i c r E Hi). }
    destruct (canonical_forms U segs) as [out|e] eqn:E.
    - exists out; split; [reflexivity|].
      destruct (canonical_forms_ok segs out E) as [M [vss [L [S _]]]]; split.
      + unfold canonical_forms in E.
        pose proof (candidate_sets_spec segs 0 (length segs)) as S'.
        destruct (candidate_sets U 0 (length segs) segs) as [vss'|e]; cbn [bind] in E; [|discriminate].
        injection E as <-; apply NoDup_product, Forall_forall; intros vs Hvs.
        apply In_nth_error in Hvs; destruct Hvs as [i Hi]; destruct S' as [L' S'].
        assert (Li : (i < length segs)%nat) by (rewrite <- L'; apply nth_error_Some; congruence).
        destruct (nth_error segs i) as [seg|] eqn:Es; [|apply nth_error_None in Es; lia].
        destruct (S' i seg Es) as [vs' [E1 E2]]; cbn [Nat.add] in E2.
        destruct (C i seg Es) as [vs'' [E3 [ND _]]]; congruence.
      + intros t; rewrite M; unfold canonical_sequence; split; intros [Lt A]; (split; [exact Lt|]); intros i seg x Es Ex.
        * destruct (A i seg x Es Ex) as [vs [E1 E2]]; destruct (C i seg Es) as [vs' [E3 [_ E4]]].
          apply E4; congruence.
        * destruct (C i seg Es) as [vs' [E3 [_ E4]]]; exists vs'; split; [exact E3|apply E4, (A i seg x Es Ex)].
    - exfalso; destruct (canonical_forms_raise segs e E) as [i [seg [Es Ec]]].
      destruct (C i seg Es) as [vs [E3 _]]; congruence.
  Qed.
End Canonical.

(* ---------------- C13 ---------------- *)
Lemma kana_script c : is_kana c -> exists sc t, in_script sc c /\ (sc = Hiragana \/ sc = Katakana) /\ small_tsu sc = Some t.
Proof. intros [I|I]; [exists Hiragana|exists Katakana]; eexists; (split; [exact I|split; [tauto|reflexivity]]). Qed.

Lemma onbin_variants_spec seg : kana_segment seg -> exists vs, onbin_variants seg = Ok vs /\
  NoDup vs /\ forall x, In x vs <-> x = seg \/ geminates seg x.
Proof.
  intros [c [r [-> K]]]; destruct (kana_script c K) as [sc [t [I [Ks Et]]]].
  unfold onbin_variants; destruct r as [|d r] using rev_ind; [|clear IHr].
  - cbn; exists [[c]]; split; [reflexivity|split; [repeat constructor; intros []|]].
    intros x; cbn [In]; split; [intros [<-|[]]; tauto|intros [-> |G]; [tauto|exfalso]].
    destruct G as [c' [pre [k [sc' [t' [E _]]]]]]; injection E as _ E; destruct pre; discriminate.
  - assert (L : 1 <? Z.of_nat (length (c :: r ++ [d])) = true)
      by (apply Z.ltb_lt; cbn [length]; rewrite app_length; cbn [length]; lia).
    rewrite L; rewrite (proj2 (script_type_char c (r ++ [d]) sc) I).
    unfold dgetitem; rewrite (proj1 (maps_spec sc)), Et; cbn [of_option bind].
    change (c :: r ++ [d]) with ((c :: r) ++ [d]); rewrite removelast_last.
    eexists; split; [reflexivity|split; [apply NoDup_sadd; repeat constructor; intros []|]].
    intros x; rewrite In_sadd; cbn [In]; split.
    + intros [-> |[<-|[]]]; [right|left; reflexivity].
      exists c, r, d, sc, t; repeat split; assumption.
    + intros [-> |[c' [pre [k [sc' [t' [E [I' [Et' ->]]]]]]]]]; [tauto|left].
      apply app_inj_tail in E; destruct E as [E _]; injection E as <- <-.
      pose proof (in_script_fun _ _ _ I I') as <-; congruence.
Qed.
Lemma fold_sadd_In {A B} `{EqB B} (f : A -> B) l : forall acc x,
  In x (fold_left (fun acc a => sadd (f a) acc) l acc) <-> In x acc \/ exists a, In a l /\ x = f a.
Proof.
  induction l as [|a l IH]; intros acc x; cbn [fold_left In].
  - split; [tauto|intros [E|[a [[] _]]]; exact E].
  - rewrite IH, In_sadd; split.
    + intros [[-> |E]|[b [E ->]]]; [right; exists a; tauto|tauto|right; exists b; tauto].
    + intros [E|[b [[-> |E] ->]]]; [tauto|tauto|right; exists b; tauto].
Qed.
Lemma fold_sadd_NoDup {A B} `{EqB B} (f : A -> B) l : forall acc,
  NoDup acc -> NoDup (fold_left (fun acc a => sadd (f a) acc) l acc).
Proof. induction l as [|a l IH]; intros acc ND; cbn [fold_left]; [exact ND|apply IH, NoDup_sadd, ND]. Qed.

Lemma rendaku_variants_spec seg : kana_segment seg -> exists vs, rendaku_variants seg = Ok vs /\
  NoDup vs /\ forall x, In x vs <-> x = seg \/ voices seg x.
Proof.
  intros [c [r [-> K]]]; unfold rendaku_variants; cbn [sitem nth_error of_option bind tl].
  assert (E : dget c to_voiced = Some (voiced_forms c)) by (apply to_voiced_spec; split; [exact K|reflexivity]).
  unfold dgetitem; rewrite E; cbn [of_option bind].
  eexists; split; [reflexivity|split; [apply (fold_sadd_NoDup (fun v => v :: r)); repeat constructor; intros []|]].
  intros x; rewrite (fold_sadd_In (fun v => v :: r)); cbn [In]; split.
  - intros [[<-|[]]|[v [I ->]]]; [left; reflexivity|right; exists c, r, v; repeat split; exact I].
  - intros [-> |[c' [r' [v [E' [-> I]]]]]]; [tauto|right].
    injection E' as <- <-; exists v; split; [exact I|reflexivity].
Qed.
Lemma rendaku_not_kana seg : ~ kana_segment seg ->
  rendaku_variants seg = Raise (match seg with [] => IndexError | _ => KeyError end).
Proof.
  intros N; destruct seg as [|c r]; unfold rendaku_variants; cbn [sitem nth_error of_option bind]; [reflexivity|].
  unfold dgetitem; replace (dget c to_voiced) with (@None (list char)); [reflexivity|].
  symmetry; apply dget_None; rewrite to_voiced_dom; intros K; apply N; exists c, r; split; [reflexivity|exact K].
Qed.

Lemma mapM_rendaku rs : Forall kana_segment rs -> exists vss, mapM rendaku_variants rs = Ok vss /\
  Forall (@NoDup str) vss /\ Forall2 (fun seg vs => forall x, In x vs <-> x = seg \/ voices seg x) rs vss.
Proof.
  induction 1 as [|seg rs K F IH]; cbn [mapM].
  - exists []; repeat split; constructor.
  - destruct (rendaku_variants_spec seg K) as [vs [-> [ND M]]], IH as [vss [-> [NDs Ms]]]; cbn [bind].
    exists (vs :: vss); repeat split; constructor; assumption.
Qed.

Lemma Forall2_nth {A B} (R : A -> B -> Prop) l m : Forall2 R l m <->
  length l = length m /\ forall i a b, nth_error l i = Some a -> nth_error m i = Some b -> R a b.
Proof.
  split.
  - intros F; split; [apply (Forall2_len _ _ _ F)|].
    induction F as [|x y l m Rxy F IH]; intros [|i] a b Ea Eb; try discriminate; cbn [nth_error] in *.
    + congruence.
    + eapply IH; eassumption.
  - revert m; induction l as [|x l IH]; intros [|y m] [L P]; try discriminate; constructor.
    + apply (P O); reflexivity.
    + apply IH; split; [injection L as L; exact L|intros i; apply (P (S i))].
Qed.

Lemma surface_forms_spec r : r <> [] -> Forall kana_segment r ->
  exists out, surface_forms r = Ok out /\ NoDup out /\ forall t, In t out <-> surface_sequence r t.
Proof.
  destruct r as [|r0 rs]; [congruence|]; intros _ F; inversion F as [|a b K0 Ks]; subst.
  unfold surface_forms; cbn [sitem nth_error of_option bind tl].
  destruct (onbin_variants_spec r0 K0) as [v0 [-> [ND0 M0]]], (mapM_rendaku rs Ks) as [vss [-> [NDs Ms]]]; cbn [bind].
  eexists; split; [reflexivity|split; [apply NoDup_product; constructor; assumption|]].
  intros t; rewrite In_product; unfold surface_sequence.
  rewrite Forall2_nth in Ms; destruct Ms as [LM Ms].
  rewrite Forall2_nth; cbn [length]; rewrite <- LM; split; intros [L A]; (split; [exact L|]).
  - intros [|i] seg x Es Ex; cbn [nth_error] in Es.
    + injection Es as <-; specialize (A O x v0 Ex eq_refl); apply M0 in A; tauto.
    + assert (Li : (i < length vss)%nat) by (rewrite <- LM; apply nth_error_Some; congruence).
      destruct (nth_error vss i) as [vs|] eqn:Ev; [|apply nth_error_None in Ev; lia].
      specialize (A (S i) x vs Ex Ev); apply (Ms i seg vs Es Ev) in A.
      destruct A as [A|A]; [tauto|right; right; split; [discriminate|exact A]].
  - intros [|i] x vs Ex Ev; cbn [nth_error] in Ev.
    + injection Ev as <-; apply M0; destruct (A O r0 x eq_refl Ex) as [B|[[_ B]|[B _]]]; tauto.
    + assert (Li : (i < length rs)%nat) by (rewrite LM; apply nth_error_Some; congruence).
      destruct (nth_error rs i) as [seg|] eqn:Es; [|apply nth_error_None in Es; lia].
      apply (Ms i seg vs Es Ev); destruct (A (S i) seg x Es Ex) as [B|[[B _]|[_ B]]]; [tauto|discriminate|tauto].
Qed.

Lemma vpairs_kana : forallb (fun p => (((0x3041 <=? snd p) && (snd p <=? 0x3096)) || ((0x30a1 <=? snd p) && (snd p <=? 0x30f6)))
   && negb (snd p =? 0x3094) && negb (snd p =? 0x30F4)) vpairs = true.
Proof. vm_compute; reflexivity. Qed.
Lemma voiced_forms_kana v c : In v (voiced_forms c) -> is_kana v /\ ~ vu v.
Proof.
  intros I; apply In_voiced_forms in I; pose proof (proj1 (forallb_forall _ _) vpairs_kana _ I) as F; cbn [snd] in F.
  unfold is_kana, in_script, between, vu; lia.
Qed.
Lemma voiced_forms_pair v c : In v (voiced_forms c) -> In (v, c) dakuten_pairs \/ In (v, c) handakuten_pairs.
Proof.
  intros I; apply from_voiced_spec, dget_In in I; pose proof (proj1 (forallb_forall _ _) from_pairs _ I) as F.
  apply mem_In in F; apply in_app_iff, F.
Qed.

Definition recoverable (r : list str) : Prop :=
  (2 <= length r)%nat /\ exists seg c pre k sc, nth_error r 0 = Some seg /\ seg = (c :: pre) ++ [k] /\
    in_script sc c /\ In k (geminable sc).

Lemma surface_canonical U r t : ucd_ok U -> Forall kana_segment r ->
  (forall i c s, nth_error r i = Some (c :: s) -> (0 < i)%nat -> ~ vu c) ->
  surface_sequence r t ->
  ((exists cs, canonical_forms U t = Ok cs /\ In r cs) <-> (nth_error t 0 = nth_error r 0 \/ recoverable r)).
Proof.
  intros ok K V [L S].
  assert (NTH : forall i x, nth_error t i = Some x -> exists seg, nth_error r i = Some seg).
  { intros i x Ex; destruct (nth_error r i) as [seg|] eqn:Es; [exists seg; reflexivity|].
    apply nth_error_None in Es; assert (i < length t)%nat by (apply nth_error_Some; congruence); lia. }
  assert (KT : Forall kana_segment t).
  { apply Forall_forall; intros x Ix; apply In_nth_error in Ix; destruct Ix as [i Ex].
    destruct (NTH i x Ex) as [seg Es]; destruct (S i seg x Es Ex) as [-> |[[_ G]|[_ G]]].
    - rewrite Forall_forall in K; apply K, (nth_error_In _ _ Es).
    - destruct G as [c [pre [k [sc [t' [-> [I [Et ->]]]]]]]]; exists c, (pre ++ [t']); split; [reflexivity|].
      destruct sc; try discriminate; [left|right]; exact I.
    - destruct G as [c [s [v [-> [-> I]]]]]; exists v, s; split; [reflexivity|apply (voiced_forms_kana v c I)]. }
  assert (VT : forall i c s, nth_error t i = Some (c :: s) -> (0 < i)%nat -> ~ vu c).
  { intros i c s Ex Li; destruct (NTH i _ Ex) as [seg Es]; destruct (S i seg _ Es Ex) as [E |[[E _]|[_ G]]].
    - subst seg; apply (V i c s Es Li).
    - lia.
    - destruct G as [c' [s' [v [-> [E I]]]]]; injection E as -> ->; apply (voiced_forms_kana v c' I). }
  destruct (canonical_forms_total U ok t VT KT) as [out [Eo [_ M]]].
  assert (T : (exists cs, canonical_forms U t = Ok cs /\ In r cs) <-> canonical_sequence t r).
  { rewrite Eo; split; [intros [cs [E I]]; injection E as <-; apply M, I|intros I; exists out; split; [reflexivity|apply M, I]]. }
  rewrite T; clear T M Eo out; unfold canonical_sequence; split.
  - intros [_ A].
    destruct t as [|t0 t'], r as [|r0 r']; try discriminate; [left; reflexivity|].
    specialize (A O t0 r0 eq_refl eq_refl); cbn [Nat.ltb Nat.leb length] in A.
    destruct (S O r0 t0 eq_refl eq_refl) as [-> |[[_ G]|[G _]]]; [left; reflexivity| |congruence].
    destruct (list_eqb_spec t0 r0) as [-> |n]; [left; reflexivity|right].
    destruct A as [c [s [sc [E0 [I [Ks [y [Y [Ey|[F _]]]]]]]]]]; [|discriminate]; subst y.
    destruct Y as [Y|[R Y]]; [congruence|].
    destruct Y as [c1 [pre [t1 [k [E1 [Et [Ik ->]]]]]]]; split.
    + cbn [length] in L |- *; destruct (length t') as [|n']; [discriminate|lia].
    + exists ((c1 :: pre) ++ [k]), c1, pre, k, sc; repeat split; try assumption.
      rewrite E0 in E1; injection E1 as <- _; exact I.
  - intros H; split; [symmetry; exact L|].
    intros i x seg Ex Es; destruct (S i seg x Es Ex) as [-> |[[-> G]|[Ni G]]].
    + (* unchanged *)
      rewrite Forall_forall in K; destruct (K _ (nth_error_In _ _ Es)) as [c [s [-> Kc]]].
      destruct (kana_script c Kc) as [sc [tt' [I [Ks _]]]].
      exists c, s, sc; split; [reflexivity|split; [exact I|split; [exact Ks|]]].
      exists (c :: s); tauto.
    + (* first segment *)
      destruct G as [c [pre [k [sc [t1 [Eseg [I [Et ->]]]]]]]].
      assert (Ks : sc = Hiragana \/ sc = Katakana) by (destruct sc; try discriminate; tauto).
      exists c, (pre ++ [t1]), sc; split; [reflexivity|split; [exact I|split; [exact Ks|]]].
      exists seg; split; [|left; reflexivity].
      destruct H as [H|[L2 [seg' [c' [pre' [k' [sc' [H1 [H2 [H3 H4]]]]]]]]]].
      * left; rewrite Ex, Es in H; congruence.
      * right; split; [apply Nat.ltb_lt; lia|].
        rewrite Es in H1; injection H1 as <-; rewrite Eseg in H2.
        apply app_inj_tail in H2; destruct H2 as [H2 ->]; injection H2 as <- <-.
        pose proof (in_script_fun _ _ _ I H3) as <-.
        exists c, pre, t1, k'; repeat split; assumption.
    + (* voiced *)
      destruct G as [c [s [v [-> [-> I]]]]].
      destruct (voiced_forms_kana v c I) as [Kv _]; destruct (kana_script v Kv) as [sc [tt' [Iv [Ks _]]]].
      exists v, s, sc; split; [reflexivity|split; [exact Iv|split; [exact Ks|]]].
      exists (v :: s); split; [left; reflexivity|right; split; [apply Nat.ltb_lt; lia|]].
      exists v, c, s; repeat split; apply voiced_forms_pair, I.
Qed.

(* ---------------- C14 ---------------- *)
Fixpoint fill_from (p : char) (s : str) : str :=
  match s with
  | [] => []
  | c :: r => if c =? dup_mark then p :: fill_from p r else c :: fill_from c r
  end.
Definition fill (s : str) : str := match s with [] => [] | c :: r => c :: fill_from c r end.

Lemma last_cons {A} (a : list A) : forall x c, last (x :: a) c = last a x.
Proof.
  induction a as [|y a IH]; intros x c; [reflexivity|].
  change (last (x :: y :: a) c) with (last (y :: a) c); rewrite !IH; reflexivity.
Qed.
Lemma fill_from_plain a : forall p r, ~ In dup_mark a -> fill_from p (a ++ r) = a ++ fill_from (last a p) r.
Proof.
  induction a as [|c a IH]; intros p r N; cbn [app fill_from]; [reflexivity|].
  destruct (Z.eqb_spec c dup_mark) as [-> |n]; [exfalso; apply N; left; reflexivity|].
  rewrite IH by (intros I; apply N; right; exact I); cbn [app]; do 2 f_equal.
  destruct a as [|d a]; [reflexivity|]; cbn [last]; clear; revert d; induction a as [|e a IHa]; intros d; [reflexivity|cbn [last]; apply IHa].
Qed.
Lemma fill_from_nomark a p : ~ In dup_mark a -> fill_from p a = a.
Proof. intros N; pose proof (fill_from_plain a p [] N) as E; rewrite !app_nil_r in E; exact E. Qed.

Lemma count_mark_replace a b d : ~ In dup_mark a -> d <> dup_mark ->
  count dup_mark (a ++ d :: b) = pred (count dup_mark (a ++ dup_mark :: b)).
Proof.
  intros N n; rewrite !count_app; cbn [count]; rewrite (proj1 (count_notin _ _) N), eqb_refl, eqb_neq by congruence; cbn; lia.
Qed.

Lemma dup_loop_fill fuel : forall c r, c <> dup_mark -> (count dup_mark (c :: r) < fuel)%nat ->
  dup_loop fuel (c :: r) = Ok (fill (c :: r)).
Proof.
  induction fuel as [|fuel IH]; intros c r Nc L; [lia|cbn [dup_loop]].
  destruct (find [dup_mark] (c :: r)) as [[|p]|] eqn:E.
  - apply find_char_Some in E; destruct E as [a [b [E [La _]]]]; destruct a; [|discriminate].
    injection E as -> _; congruence.
  - apply find_char_Some in E; destruct E as [a [b [E [La Na]]]].
    destruct a as [|c' a]; [discriminate|]; cbn [app] in E; injection E as <- ->.
    cbn [length] in La; injection La as La.
    assert (D : exists d, d = last a c /\ nth_error (c :: a ++ dup_mark :: b) p = Some d /\ d <> dup_mark /\
                skipn (S (S p)) (c :: a ++ dup_mark :: b) = b /\ firstn (S p) (c :: a ++ dup_mark :: b) = c :: a).
    { exists (last a c); split; [reflexivity|].
      assert (A1 : nth_error (c :: a) p = Some (last a c)).
      { subst p; clear; revert c; induction a as [|x a IHa]; intros c; [reflexivity|].
        cbn [length nth_error]; rewrite IHa; f_equal; symmetry; apply last_cons. }
      split; [change (c :: a ++ dup_mark :: b) with ((c :: a) ++ dup_mark :: b); rewrite nth_error_app1 by (cbn [length]; lia); exact A1|].
      split; [intros F; apply Na; rewrite <- F; apply (nth_error_In _ _ A1)|].
      subst p; split.
      - change (skipn (S (length a)) (a ++ dup_mark :: b) = b).
        rewrite skipn_app, skipn_all2 by lia; replace (S (length a) - length a)%nat with 1%nat by lia; reflexivity.
      - cbn [firstn]; f_equal; rewrite firstn_app, firstn_all, Nat.sub_diag; cbn [firstn]; apply app_nil_r. }
    destruct D as [d [Ed [E1 [Nd [E2 E3]]]]].
    unfold sitem; rewrite E1; cbn [of_option bind]; rewrite E2, E3; cbn [app].
    rewrite IH; [|exact Nc|].
    + assert (Naa : ~ In dup_mark a) by (intros I; apply Na; right; exact I).
      unfold fill; rewrite !(fill_from_plain a) by exact Naa; cbn [fill_from].
      destruct (Z.eqb_spec d dup_mark) as [F|_]; [contradiction|]; rewrite Z.eqb_refl, <- Ed; reflexivity.
    + assert (Q := count_mark_replace (c :: a) b d Na Nd); cbn [app] in Q; rewrite Q.
      assert (G : (0 < count dup_mark (c :: a ++ dup_mark :: b))%nat)
        by (apply count_In; right; apply in_app_iff; right; left; reflexivity).
      lia.
  - apply find_char_None in E; f_equal; unfold fill; f_equal; symmetry; apply fill_from_nomark.
    intros I; apply E; right; exact I.
Qed.

Lemma count_le_length (x : char) l : (count x l <= length l)%nat.
Proof. induction l as [|y l IH]; cbn [count length]; [lia|]; destruct (eqb x y); lia. Qed.

Lemma insert_dup_eq s : insert_duplicate_kanji s =
  Ok (match s with [] => [] | c :: r => if c =? dup_mark then s else fill s end).
Proof.
  destruct s as [|c r]; [reflexivity|]; unfold insert_duplicate_kanji.
  destruct (Z.eqb_spec c dup_mark) as [-> |n]; [reflexivity|].
  apply dup_loop_fill; [exact n|]; pose proof (count_le_length dup_mark (c :: r)); lia.
Qed.

Lemma fill_from_length r : forall p, length (fill_from p r) = length r.
Proof. induction r as [|c r IH]; intros p; cbn [fill_from length]; [reflexivity|]; destruct (c =? dup_mark); cbn [length]; rewrite IH; reflexivity. Qed.
Lemma fill_from_nth r : forall p i, (i < length r)%nat -> exists c, nth_error (fill_from p r) i = Some c /\
  ((exists j, (j <= i)%nat /\ nth_error r j = Some c /\ c <> dup_mark /\ forall k, (j < k <= i)%nat -> nth_error r k = Some dup_mark)
   \/ (c = p /\ forall k, (k <= i)%nat -> nth_error r k = Some dup_mark)).
Proof.
  induction r as [|d r IH]; intros p i L; cbn [length] in L; [lia|]; cbn [fill_from].
  destruct (Z.eqb_spec d dup_mark) as [-> |n].
  - destruct i as [|i].
    + exists p; split; [reflexivity|right; split; [reflexivity|intros k Lk; replace k with O by lia; reflexivity]].
    + destruct (IH p i ltac:(lia)) as [c [E [[j [Lj [Ej [Nc M]]]]|[-> M]]]]; exists c || exists p; (split; [exact E|]).
      * left; exists (S j); split; [lia|split; [exact Ej|split; [exact Nc|]]].
        intros [|k] Lk; [lia|cbn [nth_error]; apply M; lia].
      * right; split; [reflexivity|intros [|k] Lk; [reflexivity|cbn [nth_error]; apply M; lia]].
  - destruct i as [|i].
    + exists d; split; [reflexivity|left; exists O; split; [lia|split; [reflexivity|split; [exact n|intros k Lk; lia]]]].
    + destruct (IH d i ltac:(lia)) as [c [E [[j [Lj [Ej [Nc M]]]]|[-> M]]]]; exists c || exists d; (split; [exact E|]); left.
      * exists (S j); split; [lia|split; [exact Ej|split; [exact Nc|]]].
        intros [|k] Lk; [lia|cbn [nth_error]; apply M; lia].
      * exists O; split; [lia|split; [reflexivity|split; [exact n|]]].
        intros [|k] Lk; [lia|cbn [nth_error]; apply M; lia].
Qed.
Lemma fill_expands c r : c <> dup_mark -> expands dup_mark (c :: r) (fill (c :: r)).
Proof.
  intros n; unfold fill; split; [cbn [length]; rewrite fill_from_length; reflexivity|].
  intros [|i] L; cbn [length] in L.
  - exists O, c; split; [lia|split; [reflexivity|split; [exact n|split; [intros k Lk; lia|reflexivity]]]].
  - destruct (fill_from_nth r c i ltac:(lia)) as [x [E [[j [Lj [Ej [Nc M]]]]|[-> M]]]].
    + exists (S j), x; split; [lia|split; [exact Ej|split; [exact Nc|split; [|exact E]]]].
      intros [|k] Lk; [lia|cbn [nth_error]; apply M; lia].
    + exists O, c; split; [lia|split; [reflexivity|split; [exact n|split; [|exact E]]]].
      intros [|k] Lk; [lia|cbn [nth_error]; apply M; lia].
Qed.
Lemma insert_dup_expands s : hd_error s <> Some dup_mark ->
  exists out, insert_duplicate_kanji s = Ok out /\ expands dup_mark s out.
Proof.
  intros H; rewrite insert_dup_eq; destruct s as [|c r].
  - exists []; split; [reflexivity|split; [reflexivity|intros i L; cbn in L; lia]].
  - cbn [hd_error] in H; destruct (Z.eqb_spec c dup_mark) as [-> |n]; [congruence|].
    eexists; split; [reflexivity|apply fill_expands, n].
Qed.
Lemma insert_dup_leading r : insert_duplicate_kanji (dup_mark :: r) = Ok (dup_mark :: r).
Proof. rewrite insert_dup_eq; reflexivity. Qed.
Lemma insert_dup_total s : exists out, insert_duplicate_kanji s = Ok out /\ length out = length s /\
  insert_duplicate_kanji out = Ok out /\
  (forall i c, nth_error s i = Some c -> c <> dup_mark -> nth_error out i = Some c).
Proof.
  destruct s as [|c r].
  - exists []; split; [reflexivity|split; [reflexivity|split; [reflexivity|intros [|i] c E; discriminate]]].
  - destruct (Z.eqb_spec c dup_mark) as [-> |n].
    + exists (dup_mark :: r); rewrite insert_dup_leading; auto.
    + destruct (fill_expands c r n) as [L X].
      rewrite insert_dup_eq, (proj2 (Z.eqb_neq _ _) n).
      exists (fill (c :: r)); split; [reflexivity|split; [exact L|split]].
      * unfold fill; rewrite insert_dup_eq, (proj2 (Z.eqb_neq _ _) n); f_equal; unfold fill; f_equal.
        apply fill_from_nomark; intros I; apply In_nth_error in I; destruct I as [i I].
        assert (Li : (i < length (fill_from c r))%nat) by (apply nth_error_Some; congruence).
        rewrite fill_from_length in Li; destruct (X (S i) ltac:(cbn [length]; lia)) as [j [x [_ [_ [Nx [_ E]]]]]].
        unfold fill in E; cbn [nth_error] in E; congruence.
      * intros i x Ei Nx; assert (Li : (i < length (c :: r))%nat) by (apply nth_error_Some; congruence).
        destruct (X i Li) as [j [y [Lj [Ej [Ny [M E]]]]]]; rewrite E.
        destruct (Nat.eq_dec j i) as [-> |d]; [congruence|].
        specialize (M i ltac:(lia)); congruence.
Qed.

(* ---------------- C15 ---------------- *)
Definition vowelf (p : char) : option char :=
  match (if eqb [p] (u "わ") then Some (u "あ") else dget [p] vlist) with Some (v :: _) => Some v | _ => None end.

Lemma vlist_shape : forallb (fun kv => match snd kv with [v] => (0x3041 <=? v) && (v <=? 0x3096) | _ => false end) vlist = true.
Proof. vm_compute; reflexivity. Qed.
Lemma to_vowel_line_vowelf p : to_vowel_line kana_rows [p] = Ok (option_map (fun v => [v]) (vowelf p)).
Proof.
  rewrite (to_vowel_line_eq kana_rows (Permutation_refl _)); unfold vowelf.
  destruct (eqb [p] (u "わ")); [reflexivity|].
  destruct (dget [p] vlist) as [l|] eqn:E; [|reflexivity].
  apply dget_In in E; pose proof (proj1 (forallb_forall _ _) vlist_shape _ E) as F; cbn [snd] in F.
  destruct l as [|v [|? ?]]; try discriminate; reflexivity.
Qed.
Lemma vowelf_hira p v : vowelf p = Some v -> in_script Hiragana v.
Proof.
  unfold vowelf; destruct (eqb [p] (u "わ")); [intros F; injection F as <-; unfold in_script, between; lia|].
  destruct (dget [p] vlist) as [l|] eqn:E; [|discriminate].
  apply dget_In in E; pose proof (proj1 (forallb_forall _ _) vlist_shape _ E) as F; cbn [snd] in F.
  destruct l as [|w [|? ?]]; try discriminate; intros G; injection G as <-; unfold in_script, between; lia.
Qed.
Lemma vowelf_spec p v : vowelf p = Some v <-> hira_vowel p v.
Proof.
  pose proof (to_vowel_line_spec kana_rows (Permutation_refl _) [p] (option_map (fun v => [v]) (vowelf p))) as S.
  rewrite to_vowel_line_vowelf in S; destruct S as [S _]; specialize (S eq_refl).
  unfold hira_vowel; split.
  - intros E; rewrite E in S; cbn [option_map] in S.
    destruct S as [[k [c [v' [E1 [E2 C]]]]]|[[E1 E2]|[E1 _]]]; [| |discriminate].
    + injection E1 as ->; injection E2 as ->; left; exists c; exact C.
    + right; injection E1 as ->; injection E2 as ->; split; reflexivity.
  - intros H.
    assert (E : exists v', vowelf p = Some v').
    { destruct (vowelf p) as [v'|]; [exists v'; reflexivity|exfalso]; cbn [option_map] in S.
      destruct S as [[k [c [v' [E1 [E2 C]]]]]|[[E1 E2]|[_ [N1 N2]]]]; [discriminate|discriminate|].
      destruct H as [[c C]|[-> ->]]; [apply N2; exists p, c, v; split; [reflexivity|exact C]|apply N1; reflexivity]. }
    destruct E as [v' E]; rewrite E in S |- *; cbn [option_map] in S.
    destruct S as [[k [c [v'' [E1 [E2 C]]]]]|[[E1 E2]|[E1 _]]]; [| |discriminate].
    + injection E1 as <-; injection E2 as ->; f_equal.
      destruct H as [[c' C']|[-> ->]].
      * destruct (coords_lookup _ _ _ C) as [_ G], (coords_lookup _ _ _ C') as [_ G']; congruence.
      * exfalso; destruct (coords_lookup _ _ _ C) as [_ G]; vm_compute in G; discriminate.
    + injection E1 as ->; injection E2 as ->; f_equal.
      destruct H as [[c' C']|[_ ->]]; [|reflexivity].
      exfalso; destruct (coords_lookup _ _ _ C') as [_ G]; vm_compute in G; discriminate.
Qed.

Definition hirab (p : char) : bool := (0x3041 <=? p) && (p <=? 0x3096).
Definition katab (p : char) : bool := (0x30a1 <=? p) && (p <=? 0x30f6).
Lemma hirab_spec p : hirab p = true <-> in_script Hiragana p.
Proof. unfold hirab, in_script, between; lia. Qed.
Lemma katab_spec p : katab p = true <-> in_script Katakana p.
Proof. unfold katab, in_script, between; lia. Qed.

(* one pass over the string with the previous character at hand *)
Fixpoint ex (vow : char -> option char) (kb : char -> bool) (prev : option char) (s : str) : res str :=
  match s with
  | [] => Ok []
  | c :: r =>
      match prev with
      | Some p => if kb p && (c =? long_vowel_mark)
                  then match vow p with
                       | None => Raise TypeError
                       | Some v => rmap (cons v) (ex vow kb (Some c) r)
                       end
                  else rmap (cons c) (ex vow kb (Some c) r)
      | None => rmap (cons c) (ex vow kb (Some c) r)
      end
  end.
Notation exh := (ex vowelf hirab).
Definition kvow (p : char) : option char := if hirab p then vowelf p else option_map (fun v => v + 96) (vowelf (p - 96)).
Definition kanab (p : char) : bool := hirab p || katab p.
Notation exg := (ex kvow kanab).

Lemma rmap_app {A} (d : list A) x (r : res (list A)) : rmap (fun t => (d ++ [x]) ++ t) r = rmap (fun t => d ++ t) (rmap (cons x) r).
Proof. destruct r; cbn [rmap]; [rewrite <- app_assoc|]; reflexivity. Qed.

Lemma mark_not_hira : hirab long_vowel_mark = false. Proof. reflexivity. Qed.
Lemma mark_not_kata : katab long_vowel_mark = false. Proof. reflexivity. Qed.

Lemma replace_loop_ex rest : forall done prev,
  match prev with Some p => hirab p = true -> exists d', done = d' ++ [p] | None => True end ->
  replace_loop (long_finder (length done) prev rest) (done ++ rest) = rmap (fun t => done ++ t) (exh prev rest).
Proof.
  induction rest as [|c r IH]; intros done prev P; cbn [long_finder ex]; [reflexivity|].
  assert (NOHIT : replace_loop (long_finder (S (length done)) (Some c) r) (done ++ c :: r) =
                  rmap (fun t => done ++ t) (rmap (cons c) (exh (Some c) r))).
  { rewrite <- rmap_app, <- IH.
    - rewrite app_length; cbn [length]; rewrite Nat.add_1_r, <- app_assoc; reflexivity.
    - intros _; exists done; reflexivity. }
  destruct prev as [p|]; [|exact NOHIT].
  fold (hirab p); destruct (hirab p && (c =? long_vowel_mark)) eqn:H; [|exact NOHIT].
  apply andb_true_iff in H; destruct H as [H1 H2]; apply Z.eqb_eq in H2; subst c.
  destruct (P H1) as [d' Ed]; cbn [app replace_loop].
  assert (Ep : (match length done with O => of_option IndexError (lastZ (done ++ long_vowel_mark :: r)) | S q => sitem (done ++ long_vowel_mark :: r) q end) = Ok p).
  { rewrite Ed, app_length; cbn [length]; rewrite Nat.add_1_r; unfold sitem.
    rewrite <- app_assoc; cbn [app]; rewrite nth_error_app2, Nat.sub_diag by lia; reflexivity. }
  rewrite Ep; cbn [bind]; rewrite to_vowel_line_vowelf; cbn [bind].
  destruct (vowelf p) as [v|]; cbn [option_map]; [|reflexivity].
  rewrite <- rmap_app, <- IH.
  - rewrite firstn_app, firstn_all, Nat.sub_diag.
    rewrite skipn_app, skipn_all2 by lia; replace (S (length done) - length done)%nat with 1%nat by lia; cbn [firstn skipn app].
    rewrite app_nil_r, app_length; cbn [length]; rewrite Nat.add_1_r, <- app_assoc; reflexivity.
  - rewrite mark_not_hira; discriminate.
Qed.

Lemma rmap_rmap {A B C} (f : B -> C) (g : A -> B) (r : res A) : rmap f (rmap g r) = rmap (fun x => f (g x)) r.
Proof. destruct r; reflexivity. Qed.
Lemma rmap_ext {A B} (f g : A -> B) (r : res A) : (forall x, f x = g x) -> rmap f r = rmap g r.
Proof. intros E; destruct r; cbn [rmap]; [rewrite E|]; reflexivity. Qed.
Lemma rmap_id {A} (r : res A) : rmap (fun x => x) r = r.
Proof. destruct r; reflexivity. Qed.

Lemma seg_hira s : forall prev,
  match prev with Some p => katab p = false | None => True end ->
  Forall (fun c => hirab c = true \/ c = long_vowel_mark) s -> exh prev s = exg prev s.
Proof.
  induction s as [|c r IH]; intros prev P F; cbn [ex]; [reflexivity|].
  inversion F as [|x l Fc Fr]; subst.
  assert (Kc : katab c = false).
  { destruct Fc as [Fc| ->]; [|reflexivity]; apply hirab_spec in Fc; unfold katab; unfold in_script, between in Fc; lia. }
  specialize (IH (Some c) Kc Fr); rewrite IH.
  destruct prev as [p|]; [|reflexivity].
  unfold kanab; rewrite P, orb_false_r; unfold kvow; destruct (hirab p); reflexivity.
Qed.
Lemma seg_kata s : forall prev,
  match prev with Some p => katab p = true \/ p = long_vowel_mark | None => True end ->
  Forall (fun c => katab c = true \/ c = long_vowel_mark) s ->
  rmap (map kataf) (exh (option_map hiraf prev) (map hiraf s)) = exg prev s.
Proof.
  induction s as [|c r IH]; intros prev P F; cbn [map ex]; [reflexivity|].
  inversion F as [|x l Fc Fr]; subst; specialize (IH (Some c) Fc Fr); cbn [option_map] in IH.
  assert (Ec : kataf (hiraf c) = c).
  { destruct Fc as [Fc| ->]; [|reflexivity]; apply katab_spec in Fc; unfold in_script, between in Fc.
    destruct (hiraf_cases c) as [[A ->]|[A _]]; [|lia]; destruct (kataf_cases (c - 96)) as [[B ->]|[B _]]; lia. }
  assert (Em : (hiraf c =? long_vowel_mark) = (c =? long_vowel_mark)).
  { destruct Fc as [Fc| ->]; [|reflexivity]; apply katab_spec in Fc; unfold in_script, between in Fc; unfold long_vowel_mark.
    destruct (hiraf_cases c) as [[A ->]|[A _]]; lia. }
  assert (NH : rmap (map kataf) (rmap (cons (hiraf c)) (exh (Some (hiraf c)) (map hiraf r))) = rmap (cons c) (exg (Some c) r)).
  { rewrite <- IH, !rmap_rmap; apply rmap_ext; intros t; cbn [map]; rewrite Ec; reflexivity. }
  destruct prev as [p|]; cbn [option_map]; [|exact NH].
  rewrite Em; destruct P as [P| ->].
  - assert (Hp : hiraf p = p - 96 /\ hirab (p - 96) = true /\ hirab p = false).
    { apply katab_spec in P; unfold in_script, between in P; unfold hirab.
      destruct (hiraf_cases p) as [[A ->]|[A _]]; lia. }
    destruct Hp as [-> [Hp1 Hp2]].
    replace (kanab p) with true by (unfold kanab; rewrite Hp2, P; reflexivity); rewrite Hp1.
    replace (kvow p) with (option_map (fun v => v + 96) (vowelf (p - 96))) by (unfold kvow; rewrite Hp2; reflexivity).
    destruct (c =? long_vowel_mark); cbn [andb]; [|exact NH].
    destruct (vowelf (p - 96)) as [v|] eqn:V; cbn [option_map]; [|reflexivity].
    rewrite <- IH, !rmap_rmap; apply rmap_ext; intros t; cbn [map]; f_equal.
    apply vowelf_hira in V; unfold in_script, between in V; destruct (kataf_cases v) as [[_ ->]|[A _]]; lia.
  - exact NH.
Qed.
Lemma seg_other s : forall prev,
  match prev with Some p => kanab p = false | None => True end ->
  Forall (fun c => kanab c = false) s -> exg prev s = Ok s.
Proof.
  induction s as [|c r IH]; intros prev P F; cbn [ex]; [reflexivity|].
  inversion F as [|x l Fc Fr]; subst; rewrite (IH (Some c) Fc Fr); cbn [rmap].
  destruct prev as [p|]; [rewrite P|]; reflexivity.
Qed.

Lemma expand_segment_eq seg : segment_ok seg -> expand_segment seg = exg None seg.
Proof.
  intros [sc [c [r [-> [I F]]]]]; unfold expand_segment; rewrite (proj2 (script_type_char c r sc) I).
  assert (Fk : forall (b : char -> bool), (forall x, b x = true <-> in_script sc x) ->
             Forall (fun x => b x = true \/ x = long_vowel_mark) (c :: r)).
  { intros b B; constructor; [left; apply B, I|].
    apply (Forall_impl _ (P := fun x => in_script sc x \/ x = 0x30FC)); [|exact F].
    intros x [Hx|Hx]; [left; apply B, Hx|right; exact Hx]. }
  assert (OTHER : sc <> Hiragana -> sc <> Katakana -> exg None (c :: r) = Ok (c :: r)).
  { intros N1 N2; apply seg_other; [exact Logic.I|].
    assert (G : forall x, in_script sc x -> kanab x = false).
    { intros x Hx; unfold kanab; destruct (hirab x) eqn:E1; [apply hirab_spec in E1; pose proof (in_script_fun _ _ _ Hx E1); congruence|].
      destruct (katab x) eqn:E2; [apply katab_spec in E2; pose proof (in_script_fun _ _ _ Hx E2); congruence|reflexivity]. }
    constructor; [apply G, I|].
    apply (Forall_impl _ (P := fun x => in_script sc x \/ x = 0x30FC)); [|exact F].
    intros x [Hx| ->]; [apply G, Hx|reflexivity]. }
  destruct sc; try (symmetry; apply OTHER; discriminate).
  - (* hiragana *)
    assert (H0 : to_hiragana (c :: r) = c :: r).
    { apply to_hiragana_id; pose proof (Fk hirab hirab_spec) as G.
      apply (Forall_impl _ (P := fun x => hirab x = true \/ x = long_vowel_mark)); [|exact G].
      intros x [Hx| ->]; [apply hirab_spec in Hx; unfold in_script, between in *; lia|unfold in_script, between, long_vowel_mark; lia]. }
    rewrite H0; pose proof (replace_loop_ex (c :: r) [] None Logic.I) as R; cbn [length app] in R; rewrite R.
    rewrite !rmap_rmap, rmap_id; apply seg_hira; [exact Logic.I|exact (Fk hirab hirab_spec)].
  - (* katakana *)
    rewrite to_hiragana_map; pose proof (replace_loop_ex (map hiraf (c :: r)) [] None Logic.I) as R; cbn [length app] in R; rewrite R.
    rewrite rmap_rmap; rewrite <- (seg_kata (c :: r) None Logic.I (Fk katab katab_spec)); cbn [option_map].
    apply rmap_ext; intros t; cbn [app]; apply to_katakana_map.
Qed.

Definition next_prev (prev : option char) (a : str) : option char :=
  match a with [] => prev | c :: r => Some (last r c) end.
Lemma exg_app a : forall prev b, exg prev (a ++ b) =
  do x <- exg prev a; do y <- exg (next_prev prev a) b; Ok (x ++ y).
Proof.
  induction a as [|c a IH]; intros prev b; cbn [app ex].
  - cbn [bind next_prev]; destruct (exg prev b); reflexivity.
  - assert (G : forall v, rmap (cons v) (exg (Some c) (a ++ b)) =
        do x <- rmap (cons v) (exg (Some c) a); do y <- exg (Some (last a c)) b; Ok (x ++ y)).
    { intros v; rewrite IH.
      assert (N : next_prev (Some c) a = Some (last a c)).
      { destruct a as [|d a]; [reflexivity|]; unfold next_prev; rewrite last_cons; reflexivity. }
      rewrite N; destruct (exg (Some c) a) as [x|]; [|reflexivity]; cbn [bind rmap].
      destruct (exg (Some (last a c)) b); reflexivity. }
    unfold next_prev; destruct prev as [p|]; [|apply G].
    destruct (kanab p && (c =? long_vowel_mark)); [|apply G].
    destruct (kvow p); [apply G|reflexivity].
Qed.
Lemma exg_fresh c r prev : c <> long_vowel_mark -> exg prev (c :: r) = exg None (c :: r).
Proof. intros n; cbn [ex]; destruct prev as [p|]; [|reflexivity]; rewrite (proj2 (Z.eqb_neq _ _) n), andb_false_r; reflexivity. Qed.

Lemma expand_segs segs : Forall segment_ok segs -> chain_split segs ->
  rmap (@concat char) (mapM expand_segment segs) = exg None (concat segs).
Proof.
  intros F C; induction C as [|s|s t l M C IH].
  - reflexivity.
  - inversion F as [|x y Fs _]; subst; cbn [mapM concat]; rewrite (expand_segment_eq s Fs), app_nil_r.
    destruct (exg None s); cbn [bind rmap concat]; [rewrite app_nil_r|]; reflexivity.
  - inversion F as [|x y Fs Fr]; subst; specialize (IH Fr).
    change (concat (s :: t :: l)) with (s ++ concat (t :: l)); rewrite exg_app.
    assert (E : exg (next_prev None s) (concat (t :: l)) = exg None (concat (t :: l))).
    { destruct M as [sc [c [r [d [q [-> [-> [_ [_ Nd]]]]]]]]]; cbn [concat app]; apply exg_fresh; exact Nd. }
    rewrite E, <- IH; cbn [mapM]; rewrite (expand_segment_eq s Fs).
    destruct (exg None s) as [x|]; cbn [bind rmap]; [|reflexivity].
    destruct (expand_segment t) as [y|]; cbn [bind rmap]; [|reflexivity].
    destruct (mapM expand_segment l) as [ys|]; cbn [bind rmap concat]; reflexivity.
Qed.
Lemma expand_eq s : expand_long_vowels s = exg None s.
Proof.
  destruct s as [|c r]; [reflexivity|]; unfold expand_long_vowels.
  destruct (script_boundaries_seg (c :: r)) as [E [F C]]; [discriminate|].
  rewrite (expand_segs _ F C), E; reflexivity.
Qed.

Definition before (prev : option char) (s : str) (i : nat) : option char :=
  match i with O => prev | S j => nth_error s j end.
Lemma exg_spec s : forall prev,
  match exg prev s with
  | Ok out => length out = length s /\
      forall i c d, nth_error s i = Some c -> nth_error out i = Some d ->
        (exists p, before prev s i = Some p /\ kanab p = true /\ c = long_vowel_mark /\ kvow p = Some d) \/
        (d = c /\ forall p, before prev s i = Some p -> kanab p = true -> c <> long_vowel_mark)
  | Raise e => e = TypeError /\
      exists i p, before prev s i = Some p /\ kanab p = true /\ nth_error s i = Some long_vowel_mark /\ kvow p = None
  end.
Proof.
  induction s as [|c r IH]; intros prev; cbn [ex].
  - split; [reflexivity|intros [|i] c d E; discriminate].
  - specialize (IH (Some c)).
    assert (BF : forall i, before (Some c) r i = before prev (c :: r) (S i)) by (intros [|i]; reflexivity).
    assert (STEP : forall v,
       ((exists p, prev = Some p /\ kanab p = true /\ c = long_vowel_mark /\ kvow p = Some v) \/
        (v = c /\ forall p, prev = Some p -> kanab p = true -> c <> long_vowel_mark)) ->
       match rmap (cons v) (exg (Some c) r) with
       | Ok out => length out = length (c :: r) /\
           forall i x d, nth_error (c :: r) i = Some x -> nth_error out i = Some d ->
             (exists p, before prev (c :: r) i = Some p /\ kanab p = true /\ x = long_vowel_mark /\ kvow p = Some d) \/
             (d = x /\ forall p, before prev (c :: r) i = Some p -> kanab p = true -> x <> long_vowel_mark)
       | Raise e => e = TypeError /\
           exists i p, before prev (c :: r) i = Some p /\ kanab p = true /\ nth_error (c :: r) i = Some long_vowel_mark /\ kvow p = None
       end).
    { intros v Hv; destruct (exg (Some c) r) as [out|e]; cbn [rmap].
      - destruct IH as [L A]; split; [cbn [length]; congruence|].
        intros [|i] x d Ex Ed; cbn [nth_error] in Ex, Ed.
        + injection Ex as <-; injection Ed as <-; exact Hv.
        + rewrite <- BF; apply A; assumption.
      - destruct IH as [-> [i [p [B [K [E V]]]]]]; split; [reflexivity|].
        exists (S i), p; rewrite <- BF; repeat split; assumption. }
    destruct prev as [p|]; [|apply STEP; right; split; [reflexivity|discriminate]].
    destruct (kanab p && (c =? long_vowel_mark)) eqn:H.
    + apply andb_true_iff in H; destruct H as [H1 H2]; apply Z.eqb_eq in H2.
      destruct (kvow p) as [v|] eqn:V.
      * apply STEP; left; exists p; repeat split; assumption.
      * split; [reflexivity|]; exists O, p; cbn [before nth_error]; subst c; repeat split; assumption.
    + apply STEP; right; split; [reflexivity|].
      intros q Eq Kq ->; injection Eq as <-; rewrite Kq in H; cbn in H; discriminate.
Qed.

Lemma kanab_spec p : kanab p = true <-> is_kana p.
Proof. unfold kanab, is_kana; rewrite orb_true_iff, hirab_spec, katab_spec; tauto. Qed.
Lemma kvow_spec p d : is_kana p -> (kvow p = Some d <-> kana_vowel p d).
Proof.
  intros K; unfold kvow, kana_vowel; destruct (hirab p) eqn:H.
  - apply hirab_spec in H; rewrite vowelf_spec; split; [tauto|].
    intros [[_ E]|[E _]]; [exact E|exfalso; unfold in_script, between in *; lia].
  - assert (Hk : in_script Katakana p /\ ~ in_script Hiragana p).
    { destruct K as [K|K]; [apply hirab_spec in K; congruence|split; [exact K|intros F; apply hirab_spec in F; congruence]]. }
    destruct Hk as [Hk Nh]; split.
    + intros E; right; split; [exact Hk|]; destruct (vowelf (p - 96)) as [v|] eqn:V; cbn [option_map] in E; [|discriminate].
      injection E as <-; exists v; split; [reflexivity|apply vowelf_spec, V].
    + intros [[F _]|[_ [v [-> V]]]]; [contradiction|]; apply vowelf_spec in V; rewrite V; reflexivity.
Qed.
Lemma kvow_none p : is_kana p -> (kvow p = None <-> ~ exists v, kana_vowel p v).
Proof.
  intros K; destruct (kvow p) as [v|] eqn:E.
  - split; [discriminate|intros N; exfalso; apply N; exists v; apply (kvow_spec p v K), E].
  - split; [|reflexivity]; intros _ [v V]; apply (kvow_spec p v K) in V; congruence.
Qed.
Lemma mark_after_before s i p : mark_after s i p <->
  before None s i = Some p /\ kanab p = true /\ nth_error s i = Some long_vowel_mark.
Proof.
  unfold mark_after; split.
  - intros [j [-> [E [K M]]]]; cbn [before]; split; [exact E|split; [apply kanab_spec, K|exact M]].
  - intros [B [K M]]; destruct i as [|j]; [discriminate|].
    exists j; split; [reflexivity|split; [exact B|split; [apply kanab_spec, K|exact M]]].
Qed.

Lemma expand_long_vowels_raise s e : expand_long_vowels s = Raise e <->
  e = TypeError /\ exists i p, mark_after s i p /\ ~ exists v, kana_vowel p v.
Proof.
  rewrite expand_eq; pose proof (exg_spec s None) as S; destruct (exg None s) as [out|e'].
  - split; [discriminate|]; intros [_ [i [p [M N]]]]; exfalso; destruct S as [L A].
    apply mark_after_before in M; destruct M as [B [K E]].
    assert (Li : (i < length out)%nat) by (rewrite L; apply nth_error_Some; congruence).
    destruct (nth_error out i) as [d|] eqn:Ed; [|apply nth_error_None in Ed; lia].
    destruct (A i _ d E Ed) as [[q [Bq [Kq [_ V]]]]|[_ F]].
    + apply N; exists d; apply kvow_spec; [apply kanab_spec, K|congruence].
    + apply (F p B K eq_refl).
  - destruct S as [-> [i [p [B [K [E V]]]]]]; split.
    + intros F; injection F as <-; split; [reflexivity|].
      exists i, p; split; [apply mark_after_before; repeat split; assumption|].
      apply kvow_none; [apply kanab_spec, K|exact V].
    + intros [-> _]; reflexivity.
Qed.
Lemma expand_long_vowels_ok s out : expand_long_vowels s = Ok out ->
  length out = length s /\
  forall i c, nth_error s i = Some c ->
    (exists p d, mark_after s i p /\ kana_vowel p d /\ nth_error out i = Some d) \/
    ((~ exists p, mark_after s i p) /\ nth_error out i = Some c).
Proof.
  rewrite expand_eq; pose proof (exg_spec s None) as S; intros E; rewrite E in S.
  destruct S as [L A]; split; [exact L|].
  intros i c Ec; assert (Li : (i < length out)%nat) by (rewrite L; apply nth_error_Some; congruence).
  destruct (nth_error out i) as [d|] eqn:Ed; [|apply nth_error_None in Ed; lia].
  destruct (A i c d Ec Ed) as [[p [B [K [-> V]]]]|[-> F]].
  - left; exists p, d; split; [apply mark_after_before; repeat split; assumption|split; [|reflexivity]].
    apply kvow_spec; [apply kanab_spec, K|exact V].
  - right; split; [|reflexivity]; intros [p M]; apply mark_after_before in M; destruct M as [B [K M]].
    apply (F p B K); congruence.
Qed.

Lemma csf_kana U : ucd_ok U -> forall c r left right,
  is_kana c -> (left = true -> ~ vu c) ->
  exists vs, canonical_segment_forms U (c :: r) left right = Ok vs /\ NoDup vs /\
             forall x, In x vs <-> candidate left right (c :: r) x.
Proof.
  intros ok c r left right K N; destruct (kana_script c K) as [sc [t [I [Ks _]]]].
  exact (csf_spec U ok c r sc left right I Ks N).
Qed.
Lemma csf_vu_kana U : ucd_ok U -> forall c r right, vu c ->
  is_kana c /\ canonical_segment_forms U (c :: r) true right = Raise KeyError.
Proof.
  intros ok c r right V; split; [|exact (csf_vu U ok c r right V)].
  unfold is_kana, in_script, between; destruct V as [-> | ->]; lia.
Qed.
Lemma recovery_fails : exists r t forms cs,
  Forall kana_segment r /\ surface_forms r = Ok forms /\ In t forms /\
  canonical_forms kana_ucd t = Ok cs /\ ~ In r cs.
Proof.
  exists [u "がく"], [u "がっ"]; eexists; eexists; split.
  - repeat constructor; eexists; eexists; (split; [vm_compute; reflexivity|left; vm_compute; split; discriminate]).
  - split; [vm_compute; reflexivity|split; [apply mem_In; vm_compute; reflexivity|]].
    split; [vm_compute; reflexivity|apply mem_false; vm_compute; reflexivity].
Qed.
Lemma insert_dup_leading_bad : insert_duplicate_kanji (u "々人々") <> Ok (u "々人人").
Proof. vm_compute; discriminate. Qed.
Lemma expand_fails :
  expand_long_vowels (u "ミュージック") = Raise TypeError /\ expand_long_vowels (u "やー") = Raise TypeError.
Proof. vm_compute; split; reflexivity. Qed.
