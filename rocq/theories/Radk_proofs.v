From Verif Require Import Base PyStr PyText Maps_model Maps_proofs Bilingual_spec Bilingual_proofs Radk_model Radk_spec.

(** words are a function of the text *)
Lemma words_eq s ws : words s ws <-> split_ws s = ws.
Proof. split; [apply split_ws_words|intros <-; apply words_split_ws]. Qed.

Lemma begins_spec c line : startswith [c] (rstrip line) = true <-> begins c line.
Proof. unfold begins; rewrite startswith_true; reflexivity. Qed.
Lemma begins_fun c d line : begins c line -> begins d line -> c = d.
Proof. intros [r E] [r' E']; congruence. Qed.
Lemma radical_dec line : radical_line line \/ ~ radical_line line.
Proof. destruct (startswith [u1 "$"] (rstrip line)) eqn:E; [left; apply begins_spec, E|right; intros H; apply begins_spec in H; congruence]. Qed.

(** grouping *)
Lemma dextend_dlist bs : forall (acc : dict radical (list char)) r,
  dlist r (fold_left (fun d b => dextend (fst b) (snd b) d) bs acc) = dlist r acc ++ written bs r.
Proof.
  induction bs as [|[a b] bs IH]; intros acc r; cbn [fold_left written flat_map]; [rewrite app_nil_r; reflexivity|].
  rewrite IH, dlist_dextend; cbn [fst snd]; rewrite (eqb_sym a r); fold (written bs r).
  destruct (eqb r a); [rewrite <- app_assoc|]; reflexivity.
Qed.
Lemma dextend_keys bs : forall acc : dict radical (list char),
  dkeys (fold_left (fun d b => dextend (fst b) (snd b) d) bs acc) = supdate (dkeys acc) (map fst bs).
Proof.
  induction bs as [|[a b] bs IH]; intros acc; cbn [fold_left map fst snd]; [reflexivity|].
  rewrite IH; unfold supdate at 2; cbn [fold_left]; fold (supdate (sadd a (dkeys acc)) (map fst bs)); f_equal.
  unfold dextend, sadd; rewrite dkeys_dset; destruct (mem a (dkeys acc)) eqn:M.
  - apply mem_In, dmem_In in M; rewrite M; reflexivity.
  - apply mem_false in M; destruct (dmem a acc) eqn:D; [apply dmem_In in D; contradiction|reflexivity].
Qed.

Lemma dset_id {K V} `{EqB K} (k : K) (v : V) d : dget k d = Some v -> dset k v d = d.
Proof.
  induction d as [|[a b] d IH]; cbn [dget dset]; [discriminate|]; destruct (eqb_spec k a) as [->|N].
  - intros E; injection E as ->; reflexivity.
  - intros E; rewrite (IH E); reflexivity.
Qed.
Lemma map_dict_id {K V} `{EqB K} (d : dict K V) todo : (forall k v, In (k, v) todo -> dget k d = Some v) ->
  map_dict_loop (fun (s : unit) v => (s, Ok v)) tt todo d = (tt, d, Ok tt).
Proof.
  induction todo as [|[k v] todo IH]; intros A; cbn [map_dict_loop]; [reflexivity|].
  rewrite (dset_id k v d) by (apply A; left; reflexivity); apply IH; intros k' v' I; apply A; right; exact I.
Qed.
Lemma dset_new {K V} `{EqB K} (k : K) (v : V) d : ~ In k (dkeys d) -> dset k v d = d ++ [(k, v)].
Proof.
  induction d as [|[a b] d IH]; intros N; cbn [dset app]; [reflexivity|]; cbn [dkeys map fst In] in N.
  rewrite eqb_neq by (intros ->; apply N; left; reflexivity); rewrite IH; [reflexivity|intros I; apply N; right; exact I].
Qed.
Lemma dupdate_new {K V} `{EqB K} (l : list (K * V)) : forall d, NoDup (dkeys d ++ map fst l) -> dupdate d l = d ++ l.
Proof.
  induction l as [|[k v] l IH]; intros d N; [rewrite app_nil_r; reflexivity|].
  unfold dupdate; cbn [fold_left fst snd]; fold (dupdate (dset k v d) l).
  cbn [map fst] in N; rewrite dset_new by (apply NoDup_remove_2 in N; intros I; apply N, in_or_app; left; exact I).
  rewrite IH; [rewrite <- app_assoc; reflexivity|].
  unfold dkeys; rewrite map_app, <- app_assoc; exact N.
Qed.

Section Loop.
  Variable dv : Z -> option Z.

  Definition strokes_of (line : str) : option (str * Z) :=
    if startswith [u1 "$"] (rstrip line) then
      match split_ws (rstrip line) with
      | [_; r; t] | [_; r; t; _] => match py_int dv 10 t with Some n => Some (r, n) | None => None end
      | _ => None
      end
    else None.
  Lemma strokes_of_header line r n : strokes_of line = Some (r, n) <-> header_of dv line r n.
  Proof.
    unfold strokes_of, header_of, radical_line; rewrite <- begins_spec; destruct (startswith [u1 "$"] (rstrip line)); [|split; [discriminate|intros [X _]; discriminate]].
    split.
    - intros E; split; [reflexivity|]; pose proof (words_split_ws (rstrip line)) as W.
      destruct (split_ws (rstrip line)) as [|d [|r' [|t [|x [|y l]]]]]; try discriminate E;
        (destruct (py_int dv 10 t) as [z|] eqn:P; [|discriminate E]); injection E as -> ->.
      + exists d, t, []; split; [exact W|split; [cbn; lia|exact P]].
      + exists d, t, [x]; split; [exact W|split; [cbn; lia|exact P]].
    - intros [_ [d [t [more [W [L P]]]]]]; apply words_eq in W; rewrite W.
      destruct more as [|x [|y l]]; [rewrite P; reflexivity|rewrite P; reflexivity|cbn [length] in L; lia].
  Qed.
  Lemma header_fun line r n r' n' : header_of dv line r n -> header_of dv line r' n' -> r = r' /\ n = n'.
  Proof. rewrite <- !strokes_of_header; intros E E'; rewrite E in E'; injection E' as -> ->; split; reflexivity. Qed.
  Lemma header_radical line r n : header_of dv line r n -> radical_line line.
  Proof. intros [H _]; exact H. Qed.

  Lemma in_force_skip seen cur line : in_force dv seen cur -> ~ radical_line line -> in_force dv (seen ++ [line]) cur.
  Proof.
    destruct 1 as [a N|a l r n b H N]; intros L.
    - apply IF_none; intros x I; apply in_app_or in I; destruct I as [I|[<-|[]]]; [apply N, I|exact L].
    - rewrite <- app_assoc; apply (IF_some dv a l r n); [exact H|].
      intros x I; apply in_app_or in I; destruct I as [I|[<-|[]]]; [apply N, I|exact L].
  Qed.

  (** one step of the loop *)
  Lemma loop_step line rest cur rtk rts :
    (comment_line line -> radk_loop dv (line :: rest) cur rtk rts = radk_loop dv rest cur rtk rts) /\
    (kanji_line line -> radk_loop dv (line :: rest) cur rtk rts = radk_loop dv rest cur (dextend cur (strip line) rtk) rts) /\
    (forall r n, header_of dv line r n -> radk_loop dv (line :: rest) cur rtk rts = radk_loop dv rest (Some r) rtk (dset (Some r) n rts)) /\
    (forall e, bad_line dv line e -> radk_loop dv (line :: rest) cur rtk rts = Raise e).
  Proof.
    cbn [radk_loop]; change (u "#") with [u1 "#"]; change (u "$") with [u1 "$"].
    split; [|split; [|split]].
    - intros C; rewrite (proj2 (begins_spec _ _) C); reflexivity.
    - intros [C R]; destruct (startswith [u1 "#"] (rstrip line)) eqn:E1; [elim C; apply begins_spec, E1|].
      destruct (startswith [u1 "$"] (rstrip line)) eqn:E2; [elim R; apply begins_spec, E2|].
      replace (strip (rstrip line)) with (strip line); [reflexivity|].
      unfold strip.
      destruct (rstrip_split line) as [g [B [E _]]].
      rewrite E at 1.
      destruct (lstrip_split (rstrip line)) as [g' [B' [E' H']]].
      destruct (lstrip (rstrip line)) as [|c t] eqn:L.
      + assert (Bl : blank (rstrip line ++ g)).
        { rewrite app_nil_r in E'; unfold blank in *; rewrite forallb_app, E', B', B; reflexivity. }
        rewrite <- (app_nil_r (rstrip line ++ g)), lstrip_app by exact Bl; reflexivity.
      + rewrite E', <- !app_assoc, lstrip_app by exact B'; rewrite lstrip_id by exact H'; apply rstrip_app, B.
    - intros r n H; pose proof (header_radical line r n H) as R.
      destruct (startswith [u1 "#"] (rstrip line)) eqn:E1; [apply begins_spec in E1; discriminate (begins_fun _ _ _ E1 R)|].
      rewrite (proj2 (begins_spec _ _) R); destruct H as [_ [d [t [more [W [L P]]]]]]; apply words_eq in W; rewrite W; cbn [length].
      destruct more as [|x [|y l]]; [| |cbn [length] in L; lia]; cbn [length mem eqb EqB_nat Nat.eqb orb]; rewrite P; reflexivity.
    - intros e [R [ws [W B]]].
      destruct (startswith [u1 "#"] (rstrip line)) eqn:E1; [apply begins_spec in E1; discriminate (begins_fun _ _ _ E1 R)|].
      rewrite (proj2 (begins_spec _ _) R); apply words_eq in W; rewrite W.
      destruct B as [[N3 [N4 ->]]|[L [-> [t [T P]]]]].
      + rewrite (proj2 (mem_false (length ws) [3%nat; 4%nat])) by (intros [X|[X|[]]]; congruence); reflexivity.
      + rewrite (proj2 (mem_In (length ws) [3%nat; 4%nat])) by (cbn [In]; intuition congruence).
        destruct ws as [|d [|r [|t' l]]]; [destruct L; discriminate|destruct L; discriminate|destruct L; discriminate|].
        cbn [nth_error] in T; injection T as ->; rewrite P; reflexivity.
  Qed.
  (** the kinds of lines *)
  Lemma line_cases line : comment_line line \/ kanji_line line \/ (exists r n, header_of dv line r n) \/ (exists e, bad_line dv line e).
  Proof.
    destruct (startswith [u1 "#"] (rstrip line)) eqn:E1; [left; apply begins_spec, E1|right].
    destruct (startswith [u1 "$"] (rstrip line)) eqn:E2.
    2:{ left; split; intros H; apply begins_spec in H; congruence. }
    right; apply begins_spec in E2; pose proof (words_split_ws (rstrip line)) as W.
    destruct (split_ws (rstrip line)) as [|d [|r [|t [|x [|y l]]]]];
      try (right; exists PlainException; split; [exact E2|]; eexists; split; [exact W|]; left; cbn [length]; split; [lia|split; [lia|reflexivity]]).
    - destruct (py_int dv 10 t) as [n|] eqn:P.
      + left; exists r, n; split; [exact E2|]; exists d, t, []; split; [exact W|split; [cbn; lia|exact P]].
      + right; exists ValueError; split; [exact E2|]; eexists; split; [exact W|]; right; split; [left; reflexivity|split; [reflexivity|]].
        exists t; split; [reflexivity|exact P].
    - destruct (py_int dv 10 t) as [n|] eqn:P.
      + left; exists r, n; split; [exact E2|]; exists d, t, [x]; split; [exact W|split; [cbn; lia|exact P]].
      + right; exists ValueError; split; [exact E2|]; eexists; split; [exact W|]; right; split; [right; reflexivity|split; [reflexivity|]].
        exists t; split; [reflexivity|exact P].
  Qed.
  Lemma header_not_bad line r n e : header_of dv line r n -> ~ bad_line dv line e.
  Proof.
    intros [_ [d [t [more [W [L P]]]]]] [_ [ws [W' B]]]; apply words_eq in W, W'; rewrite W in W'; subst ws; cbn [length nth_error] in B.
    destruct B as [[N3 [N4 _]]|[_ [_ [t' [T P']]]]]; [|injection T as <-; congruence].
    destruct more as [|x [|y l]]; cbn [length] in *; lia.
  Qed.
  Lemma bad_fun line e e' : bad_line dv line e -> bad_line dv line e' -> e = e'.
  Proof.
    intros [_ [ws [W B]]] [_ [ws' [W' B']]]; apply words_eq in W, W'; rewrite W in W'; subst ws'.
    destruct B as [[N3 [N4 ->]]|[L [-> _]]], B' as [[N3' [N4' ->]]|[L' [-> _]]]; try reflexivity; lia.
  Qed.
  Lemma radical_not_kanji line : radical_line line -> ~ kanji_line line.
  Proof. intros R [_ N]; contradiction. Qed.

  (** strokes of the last header line *)
  Definition last_strokes (lines : list str) (rts : dict radical Z) : dict radical Z :=
    fold_left (fun d l => match strokes_of l with Some (r, n) => dset (Some r) n d | None => d end) lines rts.
  Lemma strokes_nonradical l : ~ radical_line l -> strokes_of l = None.
  Proof. intros N; unfold strokes_of; destruct (startswith [u1 "$"] (rstrip l)) eqn:E; [elim N; apply begins_spec, E|reflexivity]. Qed.

  Lemma loop_ok lines : forall seen cur rtk rts, in_force dv seen cur ->
    (forall l, In l lines -> radical_line l -> exists r n, header_of dv l r n) ->
    exists bs, blocks dv seen lines bs /\
      radk_loop dv lines cur rtk rts = Ok (fold_left (fun d b => dextend (fst b) (snd b) d) bs rtk, last_strokes lines rts).
  Proof.
    induction lines as [|line lines IH]; intros seen cur rtk rts F G.
    - exists []; split; [constructor|reflexivity].
    - assert (G' : forall l, In l lines -> radical_line l -> exists r n, header_of dv l r n) by (intros l I; apply G; right; exact I).
      destruct (loop_step line lines cur rtk rts) as [S1 [S2 [S3 S4]]].
      unfold last_strokes; cbn [fold_left].
      destruct (line_cases line) as [C|[C|[[r [n C]]|[e C]]]].
      + assert (NR : ~ radical_line line) by (intros R; discriminate (begins_fun _ _ _ C R)).
        destruct (IH (seen ++ [line]) cur rtk rts (in_force_skip _ _ _ F NR) G') as [bs [B E]].
        exists bs; split; [apply B_other; [intros [N _]; contradiction|exact B]|].
        rewrite (S1 C), E, (strokes_nonradical line NR); reflexivity.
      + assert (NR : ~ radical_line line) by apply C.
        destruct (IH (seen ++ [line]) cur (dextend cur (strip line) rtk) rts (in_force_skip _ _ _ F NR) G') as [bs [B E]].
        exists ((cur, strip line) :: bs); split; [apply B_kanji; assumption|].
        rewrite (S2 C), E, (strokes_nonradical line NR); reflexivity.
      + destruct (IH (seen ++ [line]) (Some r) rtk (dset (Some r) n rts)) as [bs [B E]]; [|exact G'|].
        { apply (IF_some dv seen line r n []); [exact C|intros x []]. }
        exists bs; split; [apply B_other; [apply radical_not_kanji, (header_radical _ _ _ C)|exact B]|].
        rewrite (S3 r n C), E, (proj2 (strokes_of_header line r n) C); reflexivity.
      + exfalso; destruct (G line (or_introl eq_refl)) as [r [n H]]; [apply C|]; exact (header_not_bad _ _ _ _ H C).
  Qed.
  Lemma loop_bad lines : forall cur rtk rts e, radk_loop dv lines cur rtk rts = Raise e <->
    exists a l b, lines = a ++ l :: b /\ bad_line dv l e /\ forall l', In l' a -> radical_line l' -> exists r n, header_of dv l' r n.
  Proof.
    induction lines as [|line lines IH]; intros cur rtk rts e.
    - split; [discriminate|intros [a [l [b [E _]]]]; destruct a; discriminate].
    - destruct (loop_step line lines cur rtk rts) as [S1 [S2 [S3 S4]]].
      assert (NB : forall cur rtk rts, (forall e, ~ bad_line dv line e) -> (radical_line line -> exists r n, header_of dv line r n) ->
        radk_loop dv lines cur rtk rts = Raise e <->
        exists a l b, line :: lines = a ++ l :: b /\ bad_line dv l e /\ forall l', In l' a -> radical_line l' -> exists r n, header_of dv l' r n).
      { clear -IH; intros cur rtk rts NB H; rewrite IH; split.
        - intros [a [l [b [-> [B G]]]]]; exists (line :: a), l, b; split; [reflexivity|split; [exact B|]].
          intros l' [<-|I]; [exact H|apply G, I].
        - intros [a [l [b [E [B G]]]]]; destruct a as [|l0 a]; injection E as -> E; [elim (NB e B)|].
          exists a, l, b; split; [exact E|split; [exact B|intros l' I; apply G; right; exact I]]. }
      destruct (line_cases line) as [C|[C|[[r [n C]]|[e' C]]]].
      + assert (NR : ~ radical_line line) by (intros R; discriminate (begins_fun _ _ _ C R)).
        rewrite (S1 C); apply NB; [intros x [R _]; contradiction|intros R; contradiction].
      + rewrite (S2 C); destruct C as [_ NR]; apply NB; [intros x [R _]; contradiction|intros R; contradiction].
      + rewrite (S3 r n C); apply NB; [intros x; apply (header_not_bad _ _ _ _ C)|intros _; exists r, n; exact C].
      + rewrite (S4 e' C); split.
        * intros X; injection X as ->; exists [], line, lines; split; [reflexivity|split; [exact C|intros l' []]].
        * intros [a [l [b [E [B G]]]]]; destruct a as [|l0 a]; injection E as -> E; [f_equal; apply (bad_fun l); assumption|].
          destruct (G l0 (or_introl eq_refl)) as [r [n H]]; [apply C|]; elim (header_not_bad _ _ _ _ H C).
  Qed.

  Lemma strokes_snoc lines l r n : strokes dv (lines ++ [l]) r n <->
    (exists q, r = Some q /\ header_of dv l q n) \/ (strokes dv lines r n /\ forall q m, r = Some q -> ~ header_of dv l q m).
  Proof.
    split.
    - intros [a [x [b [q [-> [E [H N]]]]]]]; destruct b as [|y b _] using rev_ind.
      + apply app_inj_tail in E; destruct E as [-> ->]; left; exists q; split; [reflexivity|exact H].
      + rewrite app_comm_cons, app_assoc in E; apply app_inj_tail in E; destruct E as [-> ->]; right; split.
        * exists a, x, b, q; split; [reflexivity|split; [reflexivity|split; [exact H|]]]; intros l' m I; apply N, in_or_app; left; exact I.
        * intros q' m Eq; injection Eq as <-; apply N, in_or_app; right; left; reflexivity.
    - intros [[q [-> H]]|[[a [x [b [q [-> [-> [H N]]]]]]] M]].
      + exists lines, l, [], q; split; [reflexivity|split; [reflexivity|split; [exact H|intros l' m []]]].
      + exists a, x, (b ++ [l]), q; split; [reflexivity|split; [rewrite <- app_assoc; reflexivity|split; [exact H|]]].
        intros l' m I; apply in_app_or in I; destruct I as [I|[<-|[]]]; [apply N, I|apply M; reflexivity].
  Qed.
  Lemma last_strokes_spec lines r n : dget r (last_strokes lines []) = Some n <-> strokes dv lines r n.
  Proof.
    revert n; induction lines as [|l lines IH] using rev_ind; intros n.
    - split; [discriminate|intros [a [l [b [q [_ [E _]]]]]]; destruct a; discriminate].
    - unfold last_strokes in *; rewrite fold_left_app; cbn [fold_left]; rewrite strokes_snoc.
      destruct (strokes_of l) as [[q m]|] eqn:S.
      + apply strokes_of_header in S; rewrite dget_dset; destruct (eqb_spec r (Some q)) as [->|D].
        * split; [intros E; injection E as ->; left; exists q; split; [reflexivity|exact S]|].
          intros [[q' [Eq H]]|[_ N]]; [|elim (N q m eq_refl S)].
          injection Eq as <-; f_equal; apply (header_fun l q m q n S H).
        * rewrite IH; split; [intros X; right; split; [exact X|]|intros [[q' [-> H]]|[X _]]; [|exact X]].
          -- intros q' m' -> H; destruct (header_fun l q m q' m' S H); congruence.
          -- destruct (header_fun l q m q' n S H); congruence.
      + rewrite IH; split; [intros X; right; split; [exact X|]|intros [[q' [-> H]]|[X _]]; [|exact X]].
        * intros q m _ H; apply strokes_of_header in H; congruence.
        * apply strokes_of_header in H; congruence.
  Qed.

  Lemma parse_unfold lines : parse_radkfile dv lines =
    do r <- radk_loop dv lines None [] [];
    Ok {| items := invert_mapping (fst r); radical_to_kanji := fst r; radical_to_stroke_count := snd r |}.
  Proof.
    unfold parse_radkfile; destruct (radk_loop dv lines None [] []) as [[rtk rts]|e]; cbn [bind fst snd]; [|reflexivity].
    rewrite (dupdate_new (invert_mapping rtk) []) by (cbn [dkeys map app]; apply invert_nodup); cbn [app].
    unfold map_dict; cbn [fetch nth]; rewrite map_dict_id; [reflexivity|].
    intros k v I; apply In_dget; [apply invert_nodup|exact I].
  Qed.
  Lemma in_force_nil : in_force dv [] None.
  Proof. apply IF_none; intros l []. Qed.

  (** what is stored under a kanji *)
  Lemma occurrences_grouped (bs : list (radical * str)) k (d := fold_left (fun d b => dextend (fst b) (snd b) d) bs []) :
    dkeys d = distinct (map fst bs) /\
    dlist k (invert_mapping d) = flat_map (fun r => repeat r (count k (written bs r))) (distinct (map fst bs)).
  Proof.
    assert (K : dkeys d = distinct (map fst bs)) by (unfold d; rewrite dextend_keys; apply set_of_distinct).
    split; [exact K|]; rewrite invert_dlist; unfold occurrences.
    assert (ND : NoDup (dkeys d)) by (rewrite K, <- set_of_distinct; apply NoDup_set_of).
    assert (D : forall r vs, In (r, vs) d -> vs = written bs r).
    { intros r vs I; apply (In_dget r vs d ND) in I; pose proof (dextend_dlist bs [] r) as X; fold d in X.
      unfold dlist at 1 in X; rewrite I in X; exact X. }
    rewrite <- K; clear K ND; clearbody d; induction d as [|[r vs] d IH]; [reflexivity|].
    cbn [flat_map dkeys map fst snd]; rewrite (D r vs (or_introl eq_refl)); f_equal; apply IH; intros r' vs' I; apply D; right; exact I.
  Qed.
  Lemma grouped_In (bs : list (radical * str)) k (d := fold_left (fun d b => dextend (fst b) (snd b) d) bs []) :
    (exists r vs, In (r, vs) d /\ In k vs) <-> exists b, In b bs /\ In k (snd b).
  Proof.
    assert (K : dkeys d = distinct (map fst bs)) by (unfold d; rewrite dextend_keys; apply set_of_distinct).
    assert (ND : NoDup (dkeys d)) by (rewrite K, <- set_of_distinct; apply NoDup_set_of).
    assert (W : forall r, dlist r d = written bs r) by (intros r; unfold d; rewrite dextend_dlist; reflexivity).
    split.
    - intros [r [vs [I Ik]]]; apply (In_dget r vs d ND) in I; specialize (W r); unfold dlist in W; rewrite I in W; subst vs.
      unfold written in Ik; apply in_flat_map in Ik; destruct Ik as [b [Ib Ik]]; exists b; split; [exact Ib|].
      destruct (eqb (fst b) r); [exact Ik|destruct Ik].
    - intros [b [Ib Ik]]; assert (Iw : In k (dlist (fst b) d)).
      { rewrite W; apply in_flat_map; exists b; split; [exact Ib|rewrite eqb_refl; exact Ik]. }
      unfold dlist in Iw; destruct (dget (fst b) d) as [vs|] eqn:E; [|destruct Iw].
      exists (fst b), vs; split; [apply dget_In, E|exact Iw].
  Qed.

  Lemma parse_ok lines : (forall l, In l lines -> radical_line l -> exists r n, header_of dv l r n) ->
    exists d bs, parse_radkfile dv lines = Ok d /\ blocks dv [] lines bs /\
      NoDup (dkeys (items d)) /\
      (forall k, In k (dkeys (items d)) <-> exists b, In b bs /\ In k (snd b)) /\
      (forall k, dlist k (items d) = flat_map (fun r => repeat r (count k (written bs r))) (distinct (map fst bs))) /\
      dkeys (radical_to_kanji d) = distinct (map fst bs) /\
      (forall r, dlist r (radical_to_kanji d) = written bs r) /\
      (forall r n, dget r (radical_to_stroke_count d) = Some n <-> strokes dv lines r n).
  Proof.
    intros G; destruct (loop_ok lines [] None [] [] in_force_nil G) as [bs [B E]].
    rewrite parse_unfold, E; cbn [bind fst snd]; eexists; exists bs; split; [reflexivity|]; cbn [items radical_to_kanji radical_to_stroke_count].
    split; [exact B|split; [apply invert_nodup|]].
    split; [intros k; rewrite invert_keys; apply grouped_In|].
    split; [intros k; apply occurrences_grouped|].
    split; [apply (occurrences_grouped bs 0)|].
    split; [intros r; rewrite dextend_dlist; reflexivity|].
    intros r n; apply last_strokes_spec.
  Qed.
  Lemma parse_raise lines e : parse_radkfile dv lines = Raise e <->
    exists a l b, lines = a ++ l :: b /\ bad_line dv l e /\ forall l', In l' a -> radical_line l' -> exists r n, header_of dv l' r n.
  Proof.
    rewrite parse_unfold, <- (loop_bad lines None [] []).
    destruct (radk_loop dv lines None [] []) as [r|e']; cbn [bind]; split; congruence.
  Qed.
  Lemma parse_total lines : (exists d, parse_radkfile dv lines = Ok d) <->
    forall l, In l lines -> radical_line l -> exists r n, header_of dv l r n.
  Proof.
    split.
    - intros [d E] l I R; destruct (line_cases l) as [C|[C|[C|[e C]]]].
      + discriminate (begins_fun _ _ _ C R).
      + destruct C as [_ N]; contradiction.
      + exact C.
      + exfalso; assert (X : exists e', radk_loop dv lines None [] [] = Raise e').
        { clear E; generalize (None : radical) ([] : dict radical (list char)) ([] : dict radical Z).
          induction lines as [|x lines IH]; [destruct I|]; intros cur rtk rts.
          destruct (loop_step x lines cur rtk rts) as [S1 [S2 [S3 S4]]].
          destruct (line_cases x) as [D|[D|[[r [n D]]|[e' D]]]].
          - rewrite (S1 D); destruct I as [->|I]; [discriminate (begins_fun _ _ _ D R)|apply IH, I].
          - rewrite (S2 D); destruct I as [->|I]; [destruct D as [_ N]; contradiction|apply IH, I].
          - rewrite (S3 r n D); destruct I as [->|I]; [elim (header_not_bad _ _ _ _ D C)|apply IH, I].
          - rewrite (S4 e' D); exists e'; reflexivity. }
        destruct X as [e' X]; rewrite parse_unfold, X in E; discriminate E.
    - intros G; destruct (parse_ok lines G) as [d [bs [E _]]]; exists d; exact E.
  Qed.
  Lemma in_force_fun a r r' : in_force dv a r -> in_force dv a r' -> r = r'.
  Proof.
    intros H H'; inversion H as [a1 N E1 R1|a1 l1 r1 n1 b1 H1 N E1 R1]; inversion H' as [a2 N' E2 R2|a2 l2 r2 n2 b2 H2 N' E2 R2]; try reflexivity.
      - elim (N l2); [rewrite <- E2; apply in_or_app; right; left; reflexivity|apply H2].
      - elim (N' l1); [rewrite <- E1; apply in_or_app; right; left; reflexivity|apply H1].
      - rewrite <- E2 in E1; apply app_eq_app in E1; destruct E1 as [m [[X1 X2]|[X1 X2]]]; destruct m as [|y m].
        + injection X2 as -> _; f_equal; apply (header_fun _ _ _ _ _ H1 H2).
        + injection X2 as X2 X3; subst b2; elim (N' l1); [apply in_or_app; right; left; reflexivity|apply H1].
        + injection X2 as -> _; f_equal; apply (header_fun _ _ _ _ _ H1 H2).
        + injection X2 as X2 X3; subst b1; elim (N l2); [apply in_or_app; right; left; reflexivity|apply H2].
  Qed.
  Lemma blocks_fun_aux lines : forall seen bs bs', blocks dv seen lines bs -> blocks dv seen lines bs' -> bs = bs'.
  Proof.
    induction lines as [|l lines IH]; intros seen bs bs' H H'; inversion H; subst; inversion H'; subst; try contradiction; try reflexivity.
    - f_equal; [f_equal; apply (in_force_fun seen); assumption|apply (IH (seen ++ [l])); assumption].
    - apply (IH (seen ++ [l])); assumption.
  Qed.

  (** comments *)
  Lemma loop_comment a c b : forall cur rtk rts, comment_line c -> radk_loop dv (a ++ c :: b) cur rtk rts = radk_loop dv (a ++ b) cur rtk rts.
  Proof.
    induction a as [|l a IH]; intros cur rtk rts C; cbn [app].
    - apply (proj1 (loop_step c b cur rtk rts) C).
    - destruct (loop_step l (a ++ c :: b) cur rtk rts) as [S1 [S2 [S3 S4]]].
      destruct (loop_step l (a ++ b) cur rtk rts) as [T1 [T2 [T3 T4]]].
      destruct (line_cases l) as [D|[D|[[r [n D]]|[e D]]]].
      + rewrite (S1 D), (T1 D); apply IH, C.
      + rewrite (S2 D), (T2 D); apply IH, C.
      + rewrite (S3 r n D), (T3 r n D); apply IH, C.
      + rewrite (S4 e D), (T4 e D); reflexivity.
  Qed.
  Lemma parse_comment a c b : comment_line c -> parse_radkfile dv (a ++ c :: b) = parse_radkfile dv (a ++ b).
  Proof. intros C; rewrite !parse_unfold, loop_comment by exact C; reflexivity. Qed.
  (** white space *)
  Lemma loop_space lines : forall lines' cur rtk rts,
    Forall2 (fun l l' => rstrip l = rstrip l' \/ (kanji_line l /\ kanji_line l' /\ strip l = strip l')) lines lines' ->
    radk_loop dv lines cur rtk rts = radk_loop dv lines' cur rtk rts.
  Proof.
    induction lines as [|l lines IH]; intros lines' cur rtk rts F; inversion F as [|? l' ? ls H F']; subst; [reflexivity|].
    destruct H as [E|[K [K' E]]].
    - cbn [radk_loop]; rewrite E; destruct (startswith (u "#") (rstrip l')); [apply IH, F'|].
      destruct (startswith (u "$") (rstrip l')); [|apply IH, F'].
      destruct (mem _ _); [|reflexivity]; destruct (split_ws (rstrip l')) as [|d [|r [|t more]]]; try reflexivity.
      destruct (py_int dv 10 t); [apply IH, F'|reflexivity].
    - destruct (loop_step l lines cur rtk rts) as [_ [S _]]; destruct (loop_step l' ls cur rtk rts) as [_ [S' _]].
      rewrite (S K), (S' K'), E; apply IH, F'.
  Qed.
  Lemma parse_space lines lines' :
    Forall2 (fun l l' => rstrip l = rstrip l' \/ (kanji_line l /\ kanji_line l' /\ strip l = strip l')) lines lines' ->
    parse_radkfile dv lines = parse_radkfile dv lines'.
  Proof. intros F; rewrite !parse_unfold, (loop_space _ _ _ _ _ F); reflexivity. Qed.
End Loop.

Section Loaded.
  Variable dv : Z -> option Z.
  Lemma loaded lines d : parse_radkfile dv lines = Ok d ->
    exists bs, blocks dv [] lines bs /\ (forall bs', blocks dv [] lines bs' -> bs' = bs) /\
      NoDup (dkeys (items d)) /\
      (forall k, In k (dkeys (items d)) <-> exists b, In b bs /\ In k (snd b)) /\
      (forall k, dlist k (items d) = flat_map (fun r => repeat r (count k (written bs r))) (distinct (map fst bs))) /\
      dkeys (radical_to_kanji d) = distinct (map fst bs) /\
      (forall r, dlist r (radical_to_kanji d) = written bs r) /\
      (forall r n, dget r (radical_to_stroke_count d) = Some n <-> strokes dv lines r n).
  Proof.
    intros E; destruct (parse_ok dv lines (proj1 (parse_total dv lines) (ex_intro _ d E))) as [d' [bs [E' [B R]]]].
    rewrite E in E'; injection E' as <-; exists bs; split; [exact B|split; [|exact R]].
    intros bs' B'; apply (blocks_fun_aux dv lines [] bs' bs B' B).
  Qed.
  Lemma blocks_In lines : forall seen bs r t, blocks dv seen lines bs ->
    (In (r, t) bs <-> exists a line b, lines = a ++ line :: b /\ kanji_line line /\ in_force dv (seen ++ a) r /\ t = strip line).
  Proof.
    induction lines as [|l lines IH]; intros seen bs r t B; inversion B as [|? ? ? r' bs' K F B' |? ? ? bs' K B']; subst.
    - split; [intros []|intros [a [x [b [E _]]]]; destruct a; discriminate E].
    - split.
      + intros [E|I].
        * injection E as <- <-; exists [], l, lines; rewrite app_nil_r; split; [reflexivity|split; [exact K|split; [exact F|reflexivity]]].
        * apply (IH _ _ _ _ B') in I; destruct I as [a [x [b [-> [Kx [Fx ->]]]]]]; exists (l :: a), x, b.
          rewrite <- app_assoc in Fx; split; [reflexivity|split; [exact Kx|split; [exact Fx|reflexivity]]].
      + intros [a [x [b [E [Kx [Fx ->]]]]]]; destruct a as [|y a]; injection E as -> ->.
        * rewrite app_nil_r in Fx; left; f_equal.
          apply (in_force_fun dv seen); assumption.
        * right; apply (IH _ _ _ _ B'); exists a, x, b; rewrite <- app_assoc; split; [reflexivity|split; [exact Kx|split; [exact Fx|reflexivity]]].
    - rewrite (IH _ _ _ _ B'); split.
      + intros [a [x [b [-> [Kx [Fx ->]]]]]]; exists (l :: a), x, b.
        rewrite <- app_assoc in Fx; split; [reflexivity|split; [exact Kx|split; [exact Fx|reflexivity]]].
      + intros [a [x [b [E [Kx [Fx ->]]]]]]; destruct a as [|y a]; injection E as -> ->; [contradiction|].
        exists a, x, b; rewrite <- app_assoc; split; [reflexivity|split; [exact Kx|split; [exact Fx|reflexivity]]].
  Qed.
  Lemma loaded_member lines d k r : parse_radkfile dv lines = Ok d ->
    (In r (dlist k (items d)) <-> exists a line b, lines = a ++ line :: b /\ kanji_line line /\ in_force dv a r /\ In k (strip line)).
  Proof.
    intros E; destruct (loaded lines d E) as [bs [B [_ [_ [_ [D _]]]]]]; rewrite D.
    assert (W : In k (written bs r) <-> exists t, In (r, t) bs /\ In k t).
    { unfold written; rewrite in_flat_map; split.
      - intros [[q t] [I J]]; cbn [fst snd] in J; destruct (eqb_spec q r) as [->|]; [exists t; split; assumption|destruct J].
      - intros [t [I J]]; exists (r, t); split; [exact I|cbn [fst snd]; rewrite eqb_refl; exact J]. }
    assert (X : In r (flat_map (fun r => repeat r (count k (written bs r))) (distinct (map fst bs))) <-> In k (written bs r)).
    { rewrite in_flat_map; split.
      - intros [q [_ J]]; pose proof (repeat_spec _ _ _ J); subst q.
        apply count_In; destruct (count k (written bs r)); [destruct J|lia].
      - intros J; exists r; split.
        + rewrite <- set_of_distinct; apply In_set_of; apply W in J; destruct J as [t [I _]]; apply in_map_iff; exists (r, t); split; [reflexivity|exact I].
        + apply count_In in J; destruct (count k (written bs r)); [lia|left; reflexivity]. }
    rewrite X, W; split.
    - intros [t [I J]]; apply (blocks_In lines [] bs r t B) in I; destruct I as [a [x [b [-> [K [F ->]]]]]].
      exists a, x, b; split; [reflexivity|split; [exact K|split; [exact F|exact J]]].
    - intros [a [x [b [-> [K [F J]]]]]]; exists (strip x); split; [|exact J].
      apply (blocks_In _ [] bs r _ B); exists a, x, b; split; [reflexivity|split; [exact K|split; [exact F|reflexivity]]].
  Qed.
End Loaded.
Lemma space_matters : ~ forall dv lines lines', Forall2 (fun l l' => strip l = strip l') lines lines' ->
  parse_radkfile dv lines = parse_radkfile dv lines'.
Proof.
  intros H; specialize (H ascii_dv [u "# a"] [u " # a"]).
  assert (F : Forall2 (fun l l' => strip l = strip l') [u "# a"] [u " # a"]).
  { constructor; [vm_compute; reflexivity|constructor]. }
  apply H in F; vm_compute in F; discriminate F.
Qed.
