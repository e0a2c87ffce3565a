(* Live_proofs.v *)
From Verif Require Import Base Maps_model Maps_spec Maps_proofs Live_model Live_spec.

(* ---------------- lists ---------------- *)
Section Lists.
  Context {S A B : Type}.
  Variable f : S -> list A -> A -> S * list A * res B.
  Variable truthy : B -> bool.

  (* the calls made, their results, and how it ends *)
  Fixpoint ltrace (fuel i : nat) (s : S) (l : list A) : option (list A * list B * S * list A * option exn) :=
    match fuel with
    | O => None
    | Datatypes.S n =>
        match nth_error l i with
        | None => Some ([], [], s, l, None)
        | Some x =>
            match f s l x with
            | (s', l', Raise e) => Some ([x], [], s', l', Some e)
            | (s', l', Ok b) =>
                match ltrace n (Datatypes.S i) s' l' with
                | None => None
                | Some (xs, bs, s2, l2, o) => Some (x :: xs, b :: bs, s2, l2, o)
                end
            end
        end
    end.
  Definition ended {X} (x : X) (o : option exn) : res X := match o with None => Ok x | Some e => Raise e end.
  Definition kept (xs : list A) (bs : list B) : list A := map fst (filter (fun xb => negb (truthy (snd xb))) (combine xs bs)).
  Lemma procmap_trace fuel : forall i s l,
    match ltrace fuel i s l with
    | None => snd (live_procmap f fuel i s l) = Raise OutOfFuel
    | Some (xs, bs, s', l', o) => live_procmap f fuel i s l = (s', l', ended tt o)
    end.
  Proof.
    induction fuel as [|n IH]; intros i s l; cbn [ltrace live_procmap]; [reflexivity|].
    destruct (nth_error l i) as [x|]; [|reflexivity]; destruct (f s l x) as [[s1 l1] [b|e]]; [|reflexivity].
    specialize (IH (Datatypes.S i) s1 l1); destruct (ltrace n (Datatypes.S i) s1 l1) as [[[[[xs bs] s2] l2] o]|]; exact IH.
  Qed.
  Lemma partial_trace fuel : forall i s l m rj,
    match ltrace fuel i s l with
    | None => snd (live_partial_map f truthy fuel i s l m rj) = Raise OutOfFuel
    | Some (xs, bs, s', l', o) => live_partial_map f truthy fuel i s l m rj = (s', l', ended (m ++ filter truthy bs, rj ++ kept xs bs) o)
    end.
  Proof.
    induction fuel as [|n IH]; intros i s l m rj; cbn [ltrace live_partial_map]; [reflexivity|].
    destruct (nth_error l i) as [x|]; [|cbn [kept filter combine map ended]; unfold kept; cbn [combine filter map]; rewrite !app_nil_r; reflexivity].
    destruct (f s l x) as [[s1 l1] [b|e]]; [|reflexivity].
    destruct (truthy b) eqn:Tb.
    - specialize (IH (Datatypes.S i) s1 l1 (m ++ [b]) rj); destruct (ltrace n (Datatypes.S i) s1 l1) as [[[[[xs bs] s2] l2] o]|]; [|exact IH].
      rewrite IH; unfold kept; cbn [filter combine map snd fst]; rewrite Tb; cbn [negb]; rewrite <- app_assoc; reflexivity.
    - specialize (IH (Datatypes.S i) s1 l1 m (rj ++ [x])); destruct (ltrace n (Datatypes.S i) s1 l1) as [[[[[xs bs] s2] l2] o]|]; [|exact IH].
      rewrite IH; unfold kept; cbn [filter combine map snd fst]; rewrite Tb; cbn [negb map fst]; rewrite <- app_assoc; reflexivity.
  Qed.
  Lemma filtered_trace fuel : forall i s l m,
    match ltrace fuel i s l with
    | None => snd (live_filtered_map f truthy fuel i s l m) = Raise OutOfFuel
    | Some (xs, bs, s', l', o) => live_filtered_map f truthy fuel i s l m = (s', l', ended (m ++ filter truthy bs) o)
    end.
  Proof.
    induction fuel as [|n IH]; intros i s l m; cbn [ltrace live_filtered_map]; [reflexivity|].
    destruct (nth_error l i) as [x|]; [|cbn [filter ended]; rewrite !app_nil_r; reflexivity].
    destruct (f s l x) as [[s1 l1] [b|e]]; [|reflexivity].
    specialize (IH (Datatypes.S i) s1 l1 (if truthy b then m ++ [b] else m)); destruct (ltrace n (Datatypes.S i) s1 l1) as [[[[[xs bs] s2] l2] o]|]; [|exact IH].
    rewrite IH; cbn [filter]; destruct (truthy b); [rewrite <- app_assoc|]; reflexivity.
  Qed.

  (* how a trace answers to [calls] and [first_raise] over a list of items [ys] *)
  Definition answers {T} (g : T -> A -> T * res B) (t : T) (ys : list A) (xs : list A) (bs : list B) (t' : T) (o : option exn) : Prop :=
    match o with
    | None => xs = ys /\ calls g t ys bs t'
    | Some e => exists pre, first_raise g t ys pre bs e t'
    end.
  Lemma answers_cons {T} (g : T -> A -> T * res B) t x ys xs b bs t1 t' o :
    g t x = (t1, Ok b) -> answers g t1 ys xs bs t' o -> answers g t (x :: ys) (x :: xs) (b :: bs) t' o.
  Proof.
    intros E; destruct o as [e|]; cbn [answers].
    - intros [pre [z [post [s1 [-> [C R]]]]]]; exists (x :: pre), z, post, s1; split; [reflexivity|split; [|exact R]].
      exact (calls_cons _ _ _ _ _ _ _ _ E C).
    - intros [-> C]; split; [reflexivity|exact (calls_cons _ _ _ _ _ _ _ _ E C)].
  Qed.
  Lemma answers_raise {T} (g : T -> A -> T * res B) t x ys t' e : g t x = (t', Raise e) -> answers g t (x :: ys) [x] [] t' (Some e).
  Proof. intros E; exists [], x, ys, t; split; [reflexivity|split; [constructor|exact E]]. Qed.

  Lemma appending_trace (app_only : forall s l x, exists e, snd (fst (f s l x)) = l ++ e) fuel : forall i s l xs bs s' l' o, (i <= length l)%nat ->
    ltrace fuel i s l = Some (xs, bs, s', l', o) ->
    (exists e, l' = l ++ e) /\ answers (on_list f) (s, l) (skipn i l') xs bs (s', l') o.
  Proof.
    induction fuel as [|n IH]; intros i s l xs bs s' l' o Li; cbn [ltrace]; [discriminate|].
    destruct (nth_error l i) as [x|] eqn:Nx.
    - assert (Lx : (i < length l)%nat) by (apply nth_error_Some; congruence).
      destruct (app_only s l x) as [e1 E1]; destruct (f s l x) as [[s1 l1] [b|e]] eqn:Ef; cbn [fst snd] in E1; subst l1.
      + destruct (ltrace n (Datatypes.S i) s1 (l ++ e1)) as [[[[[xs1 bs1] s2] l2] o2]|] eqn:T; [|discriminate]; injection 1 as <- <- <- <- <-.
        assert (Li1 : (Datatypes.S i <= length (l ++ e1))%nat) by (rewrite app_length; lia).
        destruct (IH _ _ _ _ _ _ _ _ Li1 T) as [[e2 ->] C]; split; [exists (e1 ++ e2); rewrite app_assoc; reflexivity|].
        assert (Sk : skipn i ((l ++ e1) ++ e2) = x :: skipn (Datatypes.S i) ((l ++ e1) ++ e2)).
        { rewrite <- app_assoc; generalize (e1 ++ e2) as e'; clear - Nx; revert i Nx; induction l as [|y l IHl]; intros [|i] Nx e'; try discriminate.
          - injection Nx as ->; reflexivity.
          - cbn [app skipn]; apply IHl, Nx. }
        rewrite Sk; apply answers_cons with (t1 := (s1, l ++ e1)); [unfold on_list; cbn [fst snd]; rewrite Ef; reflexivity|exact C].
      + injection 1 as <- <- <- <- <-; split; [exists e1; reflexivity|].
        assert (Sk : skipn i (l ++ e1) = x :: skipn (Datatypes.S i) (l ++ e1)).
        { clear - Nx; revert i Nx; induction l as [|y l IHl]; intros [|i] Nx; try discriminate.
          - injection Nx as ->; reflexivity.
          - cbn [app skipn]; apply IHl, Nx. }
        rewrite Sk; apply answers_raise; unfold on_list; cbn [fst snd]; rewrite Ef; reflexivity.
    - injection 1 as <- <- <- <- <-; split; [exists []; rewrite app_nil_r; reflexivity|].
      apply nth_error_None in Nx; rewrite skipn_all2 by exact Nx; split; [reflexivity|constructor].
  Qed.
  Lemma bounded_trace N (small : forall s l x, (length l <= N)%nat -> (length (snd (fst (f s l x))) <= N)%nat) fuel : forall i s l,
    (length l <= N)%nat -> (i <= N < fuel + i)%nat -> ltrace fuel i s l <> None.
  Proof.
    induction fuel as [|n IH]; intros i s l L F; cbn [ltrace].
    - lia.
    - destruct (nth_error l i) as [x|] eqn:Nx; [|discriminate].
      assert (Lx : (i < length l)%nat) by (apply nth_error_Some; congruence).
      pose proof (small s l x L) as Sm; destruct (f s l x) as [[s1 l1] [b|e]]; [|discriminate]; cbn [fst snd] in Sm.
      specialize (IH (Datatypes.S i) s1 l1 Sm ltac:(lia)).
      destruct (ltrace n (Datatypes.S i) s1 l1) as [[[[[xs bs] s2] l2] o]|]; [discriminate|congruence].
  Qed.
  Lemma trace_calls N (small : forall s l x, (length l <= N)%nat -> (length (snd (fst (f s l x))) <= N)%nat) fuel : forall i s l xs bs s' l' o,
    (length l <= N)%nat -> ltrace fuel i s l = Some (xs, bs, s', l', o) -> (length xs + i <= Nat.max N i)%nat.
  Proof.
    induction fuel as [|n IH]; intros i s l xs bs s' l' o L; cbn [ltrace]; [discriminate|].
    destruct (nth_error l i) as [x|] eqn:Nx.
    - assert (Lx : (i < length l)%nat) by (apply nth_error_Some; congruence).
      pose proof (small s l x L) as Sm; destruct (f s l x) as [[s1 l1] [b|e]]; cbn [fst snd] in Sm.
      + destruct (ltrace n (Datatypes.S i) s1 l1) as [[[[[xs1 bs1] s2] l2] o2]|] eqn:T; [|discriminate]; injection 1 as <- <- <- <- <-.
        pose proof (IH _ _ _ _ _ _ _ _ Sm T); cbn [length]; lia.
      + injection 1 as <- <- <- <- <-; cbn [length]; lia.
    - injection 1 as <- <- <- <- <-; cbn [length]; lia.
  Qed.
  Lemma endless_trace (more : forall s l x, exists s' y b, f s l x = (s', l ++ [y], Ok b)) fuel : forall i s l, (i < length l)%nat ->
    ltrace fuel i s l = None.
  Proof.
    induction fuel as [|n IH]; intros i s l L; cbn [ltrace]; [reflexivity|].
    destruct (nth_error l i) as [x|] eqn:Nx; [|apply nth_error_None in Nx; lia].
    destruct (more s l x) as [s' [y [b ->]]]; rewrite IH; [reflexivity|]; rewrite app_length; cbn [length]; lia.
  Qed.

  Variable g : S -> A -> S * res B.
  Lemma skipn_nth {X} (l : list X) i x : nth_error l i = Some x -> skipn i l = x :: skipn (Datatypes.S i) l.
  Proof. revert i; induction l as [|y l IHl]; intros [|i] E; try discriminate; [injection E as ->; reflexivity|cbn [skipn]; apply IHl, E]. Qed.
  Lemma unchanged_trace (same : forall s l x, f s l x = (fst (g s x), l, snd (g s x))) fuel : forall i s l, (i <= length l < fuel + i)%nat ->
    exists xs bs s' o, ltrace fuel i s l = Some (xs, bs, s', l, o) /\ answers g s (skipn i l) xs bs s' o.
  Proof.
    induction fuel as [|n IH]; intros i s l L; cbn [ltrace]; [lia|].
    destruct (nth_error l i) as [x|] eqn:Nx.
    - assert (Lx : (i < length l)%nat) by (apply nth_error_Some; congruence).
      rewrite same, (skipn_nth l i x Nx); destruct (g s x) as [s1 [b|e]] eqn:Eg; cbn [fst snd].
      + destruct (IH (Datatypes.S i) s1 l ltac:(lia)) as [xs [bs [s' [o [-> C]]]]].
        exists (x :: xs), (b :: bs), s', o; split; [reflexivity|exact (answers_cons g s x _ xs b bs s1 s' o Eg C)].
      + exists [x], [], s1, (Some e); split; [reflexivity|exact (answers_raise g s x _ s1 e Eg)].
    - apply nth_error_None in Nx; exists [], [], s, None; split; [reflexivity|].
      rewrite skipn_all2 by exact Nx; split; [reflexivity|constructor].
  Qed.
  Lemma answers_procmap t ys xs bs t' o : answers g t ys xs bs t' o -> procmap g t ys = (t', ended tt o).
  Proof.
    intros An; apply procmap_spec; destruct o as [e|]; cbn [answers ended] in *.
    - right; destruct An as [pre F]; exists e, pre, bs; split; [reflexivity|exact F].
    - left; destruct An as [_ C]; split; [reflexivity|exists bs; exact C].
  Qed.
  Lemma answers_partial t ys xs bs t' o : answers g t ys xs bs t' o -> partial_map g truthy t ys = (t', ended (filter truthy bs, kept xs bs) o).
  Proof.
    intros An; apply partial_map_spec; destruct o as [e|]; cbn [answers ended] in *.
    - right; destruct An as [pre F]; exists e, pre, bs; split; [reflexivity|exact F].
    - left; destruct An as [-> C]; exists bs; split; [exact C|reflexivity].
  Qed.
  Lemma answers_filtered t ys xs bs t' o : answers g t ys xs bs t' o -> filtered_map g truthy t ys = (t', ended (filter truthy bs) o).
  Proof.
    intros An; apply filtered_map_spec; destruct o as [e|]; cbn [answers ended] in *.
    - right; destruct An as [pre F]; exists e, pre, bs; split; [reflexivity|exact F].
    - left; destruct An as [-> C]; exists bs; split; [exact C|reflexivity].
  Qed.
End Lists.

(* removing the item one is called with *)
Section Removing.
  Context {S A B : Type} `{EqB A}.
  Variable f : S -> list A -> A -> S * list A * res B.
  Variable g : S -> A -> S * res B.
  Hypothesis removes : forall s l x, f s l x = (fst (g s x), remove_first x l, snd (g s x)).
  Lemma remove_mid x a b : ~ In x a -> remove_first x (a ++ x :: b) = a ++ b.
  Proof.
    induction a as [|y a IH]; intros N; cbn [app remove_first]; [rewrite eqb_refl; reflexivity|].
    destruct (eqb_spec x y) as [->|n]; [elim N; left; reflexivity|]; f_equal; apply IH; intros I; apply N; right; exact I.
  Qed.
  Lemma removing_trace n : forall rest a fuel s, (length rest <= n)%nat -> NoDup (a ++ rest) -> (length rest < fuel)%nat ->
    exists xs bs s' l' o, ltrace f fuel (length a) s (a ++ rest) = Some (xs, bs, s', l', o) /\ answers g s (evens rest) xs bs s' o /\
      (o = None -> l' = a ++ odds rest).
  Proof.
    induction n as [|n IH]; intros rest a fuel s Ln ND Lf; (destruct fuel as [|fuel]; [lia|]).
    - destruct rest as [|x r]; [|cbn [length] in Ln; lia]; rewrite app_nil_r; cbn [ltrace].
      rewrite (proj2 (nth_error_None a (length a)) (le_n _)).
      exists [], [], s, a, None; split; [reflexivity|split; [split; [reflexivity|constructor]|cbn [odds]; rewrite app_nil_r; reflexivity]].
    - destruct rest as [|x r].
      { rewrite app_nil_r; cbn [ltrace]; rewrite (proj2 (nth_error_None a (length a)) (le_n _)).
        exists [], [], s, a, None; split; [reflexivity|split; [split; [reflexivity|constructor]|cbn [odds]; rewrite app_nil_r; reflexivity]]. }
      assert (Nx : nth_error (a ++ x :: r) (length a) = Some x) by (rewrite nth_error_app2, Nat.sub_diag by lia; reflexivity).
      cbn [ltrace]; rewrite Nx, removes, remove_mid by (apply NoDup_remove_2 in ND; intros I; apply ND, in_or_app; left; exact I).
      destruct (g s x) as [s1 [b|e]] eqn:Eg; cbn [fst snd].
      + apply NoDup_remove_1 in ND; destruct r as [|y r]; cbn [length] in Ln, Lf.
        * rewrite app_nil_r; destruct fuel as [|fuel]; [lia|]; cbn [ltrace].
          assert (Ne : nth_error a (Datatypes.S (length a)) = None) by (apply nth_error_None; lia); rewrite Ne.
          exists [x], [b], s1, a, None; split; [reflexivity|split].
          -- cbn [evens]; apply (answers_cons g s x [] [] b [] s1 s1 None Eg); split; [reflexivity|constructor].
          -- cbn [odds]; rewrite app_nil_r; reflexivity.
        * assert (Sh : a ++ y :: r = (a ++ [y]) ++ r) by (rewrite <- app_assoc; reflexivity).
          assert (Le : Datatypes.S (length a) = length (a ++ [y])) by (rewrite app_length; cbn [length]; lia).
          rewrite Sh in ND |- *; rewrite Le.
          destruct (IH r (a ++ [y]) fuel s1 ltac:(lia) ND ltac:(lia)) as [xs [bs [s' [l' [o [-> [C D]]]]]]].
          exists (x :: xs), (b :: bs), s', l', o; split; [reflexivity|split].
          -- cbn [evens]; exact (answers_cons g s x (evens r) xs b bs s1 s' o Eg C).
          -- intros Eo; rewrite (D Eo), <- app_assoc; reflexivity.
      + eexists [x], [], s1, _, (Some e); split; [reflexivity|split; [|discriminate]].
        assert (Ev : exists q, evens (x :: r) = x :: q) by (destruct r as [|y r]; eexists; reflexivity).
        destruct Ev as [q ->]; exact (answers_raise g s x q s1 e Eg).
  Qed.
End Removing.

(* ---------------- dictionaries ---------------- *)
Section Dicts.
  Context {K W S : Type} `{EqB K}.
  Notation slots := (list (option (K * W))) (only parsing).
  Variable grows : slots -> bool.
  Lemma entries_cons_some p (d : slots) : entries (Some p :: d) = p :: entries d.
  Proof. reflexivity. Qed.
  Lemma entries_app (a b : slots) : entries (a ++ b) = entries a ++ entries b.
  Proof. unfold entries; apply flat_map_app. Qed.
  Lemma entries_some (e : dict K W) : entries (map Some e) = e.
  Proof. induction e as [|p e IH]; [reflexivity|]; cbn [map]; rewrite entries_cons_some, IH; reflexivity. Qed.
  Lemma overwrite_entries k w (d : slots) : match overwrite k w d with
    | Some d' => entries d' = dset k w (entries d) /\ slot_keys d' = slot_keys d /\ In k (dkeys (entries d))
    | None => ~ In k (dkeys (entries d))
    end.
  Proof.
    induction d as [|[[k0 v0]|] d IH]; cbn [overwrite].
    - intros [].
    - rewrite entries_cons_some; cbn [dset]; destruct (eqb_spec k k0) as [->|n].
      + rewrite entries_cons_some; split; [reflexivity|split; [reflexivity|left; reflexivity]].
      + destruct (overwrite k w d) as [d'|]; cbn [option_map].
        * destruct IH as [E [Q I]]; rewrite entries_cons_some, E; split; [reflexivity|split; [|right; exact I]].
          unfold slot_keys in *; cbn [map]; rewrite Q; reflexivity.
        * intros [E|I]; [apply n; symmetry; exact E|exact (IH I)].
    - destruct (overwrite k w d) as [d'|]; cbn [option_map].
      + destruct IH as [E [Q I]]; split; [exact E|split; [|exact I]]; unfold slot_keys in *; cbn [map]; rewrite Q; reflexivity.
      + exact IH.
  Qed.
  Lemma dset_new k (w : W) (d : dict K W) : ~ In k (dkeys d) -> dset k w d = d ++ [(k, w)].
  Proof.
    induction d as [|[a b] d IH]; intros N; cbn [dset]; [reflexivity|].
    destruct (eqb_spec k a) as [->|n]; [elim N; left; reflexivity|]; cbn [app]; f_equal; apply IH; intros I; apply N; right; exact I.
  Qed.
  (* assignment to an item, whatever the table looks like *)
  Lemma store_entries k w (d : slots) : entries (store grows k w d) = dset k w (entries d).
  Proof.
    unfold store; pose proof (overwrite_entries k w d) as O; destruct (overwrite k w d) as [d'|]; [exact (proj1 O)|].
    rewrite (dset_new k w _ O), entries_app; destruct (grows d); [rewrite entries_some|]; reflexivity.
  Qed.
  Lemma store_keys k w (d : slots) : In k (dkeys (entries d)) -> slot_keys (store grows k w d) = slot_keys d.
  Proof.
    intros I; unfold store; pose proof (overwrite_entries k w d) as O; destruct (overwrite k w d) as [d'|]; [exact (proj1 (proj2 O))|contradiction].
  Qed.
  Lemma entry_from_spec (d : slots) : forall i p, match entry_from i p d with
    | None => entries (skipn p d) = []
    | Some (p', e) => (i < p')%nat /\ entries (skipn p d) = e :: entries (skipn (p' - i) d)
    end.
  Proof.
    induction d as [|o d IH]; intros i p; cbn [entry_from].
    - rewrite skipn_nil; reflexivity.
    - destruct p as [|p].
      + destruct o as [e|].
        * split; [lia|]; replace (Datatypes.S i - i)%nat with 1%nat by lia; reflexivity.
        * specialize (IH (Datatypes.S i) O); cbn [skipn] in *; destruct (entry_from (Datatypes.S i) O d) as [[p' e]|].
          -- destruct IH as [L E]; split; [lia|]; replace (p' - i)%nat with (Datatypes.S (p' - Datatypes.S i)) by lia; exact E.
          -- exact IH.
      + specialize (IH (Datatypes.S i) p); cbn [skipn]; destruct (entry_from (Datatypes.S i) p d) as [[p' e]|].
        * destruct IH as [L E]; split; [lia|]; replace (p' - i)%nat with (Datatypes.S (p' - Datatypes.S i)) by lia; exact E.
        * exact IH.
  Qed.
  Lemma slot_keys_keys (d : slots) : dkeys (entries d) = flat_map (fun o => match o with Some k => [k] | None => [] end) (slot_keys d).
  Proof. induction d as [|[[k v]|] d IH]; [reflexivity| |exact IH]; rewrite entries_cons_some; unfold dkeys, slot_keys in *; cbn [map option_map fst flat_map app]; f_equal; exact IH. Qed.
  Lemma same_keys (d e : slots) : slot_keys d = slot_keys e -> forall p, dkeys (entries (skipn p d)) = dkeys (entries (skipn p e)).
  Proof. intros E p; rewrite !slot_keys_keys; unfold slot_keys in *; rewrite <- !skipn_map, E; reflexivity. Qed.
  Lemma used_keys (d : slots) : used d = length (dkeys (entries d)).
  Proof. unfold used, dkeys; rewrite map_length; reflexivity. Qed.
  Lemma keys_suffix (d : slots) p : exists q, dkeys (entries d) = q ++ dkeys (entries (skipn p d)).
  Proof. exists (dkeys (entries (firstn p d))); unfold dkeys; rewrite <- map_app, <- entries_app, firstn_skipn; reflexivity. Qed.
  Lemma In_entries_suffix (d : slots) p e : In e (entries (skipn p d)) -> In e (entries d).
  Proof. intros I; rewrite <- (firstn_skipn p d), entries_app; apply in_or_app; right; exact I. Qed.

  Variable f : S -> slots -> W -> S * slots * res W.
  (* the size at the end is that of the beginning *)
  Lemma loop_size n : forall p size s d s' d', live_loop grows f n p size s d = (s', d', Ok tt) -> used d' = size.
  Proof.
    induction n as [|n IH]; intros p size s d s' d'; cbn [live_loop]; destruct (Nat.eqb_spec (used d) size) as [E|E]; cbn [negb]; try discriminate;
      (destruct (entry_from 0 p d) as [[p' [k v]]|]; [|injection 1 as <- <-; exact E]); [discriminate|].
    destruct (f s d v) as [[s1 d1] [w|e]]; [apply IH|discriminate].
  Qed.
  Lemma gen_size n : forall p size s d acc s' d' r, live_gen f n p size s d acc = (s', d', Ok r) -> used d' = size.
  Proof.
    induction n as [|n IH]; intros p size s d acc s' d' r; cbn [live_gen]; destruct (Nat.eqb_spec (used d) size) as [E|E]; cbn [negb]; try discriminate;
      (destruct (entry_from 0 p d) as [[p' [k v]]|]; [|injection 1 as <- <- <-; exact E]); [discriminate|].
    destruct (f s d v) as [[s1 d1] [w|e]]; [apply IH|discriminate].
  Qed.
  Lemma loop_changed n p size s d : used d <> size -> live_loop grows f n p size s d = (s, d, Raise RuntimeError).
  Proof. intros N; destruct n; cbn [live_loop]; rewrite (proj2 (Nat.eqb_neq _ _) N); reflexivity. Qed.
  Lemma gen_changed n p size s d acc : used d <> size -> live_gen f n p size s d acc = (s, d, Raise RuntimeError).
  Proof. intros N; destruct n; cbn [live_gen]; rewrite (proj2 (Nat.eqb_neq _ _) N); reflexivity. Qed.
  Lemma first_entry (d : slots) k v r : entries d = (k, v) :: r -> exists p', entry_from 0 0 d = Some (p', (k, v)).
  Proof.
    intros E; pose proof (entry_from_spec d 0 0) as Q; destruct (entry_from 0 0 d) as [[p' e]|]; cbn [skipn] in Q.
    - destruct Q as [_ Q]; rewrite E in Q; injection Q as <- _; exists p'; reflexivity.
    - congruence.
  Qed.
  Lemma loop_grown s d k v r s1 d1 w : entries d = (k, v) :: r -> f s d v = (s1, d1, Ok w) -> used (store grows k w d1) <> used d ->
    live_map_dict grows f s d = (s1, store grows k w d1, Raise RuntimeError).
  Proof.
    intros E Ef N; unfold live_map_dict; destruct (first_entry d k v r E) as [p' F].
    assert (U : used d = Datatypes.S (length r)) by (unfold used; rewrite E; reflexivity).
    rewrite U in N |- *; cbn [live_loop]; rewrite U, Nat.eqb_refl, F, Ef; cbn [negb]; apply loop_changed, N.
  Qed.
  Lemma gen_grown s d k v r s1 d1 w : entries d = (k, v) :: r -> f s d v = (s1, d1, Ok w) -> used d1 <> used d ->
    live_map_dict_copy f s d = (s1, d1, Raise RuntimeError).
  Proof.
    intros E Ef N; unfold live_map_dict_copy; destruct (first_entry d k v r E) as [p' F].
    assert (U : used d = Datatypes.S (length r)) by (unfold used; rewrite E; reflexivity).
    rewrite U in N |- *; cbn [live_gen]; rewrite U, Nat.eqb_refl, F, Ef; cbn [negb]; apply gen_changed, N.
  Qed.

  (* methods that keep the keys *)
  Hypothesis keeps : forall s d v, slot_keys (snd (fst (f s d v))) = slot_keys d.
  Lemma loop_keeps n : forall p s d s' d' r, NoDup (dkeys (entries d)) -> n = length (entries (skipn p d)) ->
    live_loop grows f n p (used d) s d = (s', d', r) ->
    slot_keys d' = slot_keys d /\
    ((exists ws, calls (step_in_place f grows) (s, d) (dkeys (entries (skipn p d))) ws (s', d') /\ r = Ok tt) \/
     (exists e pre ws, first_raise (step_in_place f grows) (s, d) (dkeys (entries (skipn p d))) pre ws e (s', d') /\ r = Raise e)).
  Proof.
    induction n as [|n IH]; intros p s d s' d' r ND Ln; cbn [live_loop]; rewrite Nat.eqb_refl; cbn [negb];
      pose proof (entry_from_spec d 0 p) as Q; destruct (entry_from 0 p d) as [[p' [k v]]|].
    - destruct Q as [_ Q]; rewrite Q in Ln; discriminate Ln.
    - injection 1 as <- <- <-; split; [reflexivity|left; exists []; rewrite Q; split; [constructor|reflexivity]].
    - destruct Q as [_ Q]; rewrite Nat.sub_0_r in Q.
      assert (Ikv : In (k, v) (entries d)) by (apply (In_entries_suffix d p); rewrite Q; left; reflexivity).
      pose proof (In_dget k v (entries d) ND Ikv) as G.
      pose proof (keeps s d v) as Kp; destruct (f s d v) as [[s1 d1] [w|e]] eqn:Ef; cbn [fst snd] in Kp; intros E.
      + assert (Ik : In k (dkeys (entries d1))).
        { pose proof (same_keys d1 d Kp O) as Sk; cbn [skipn] in Sk; rewrite Sk; apply (in_map fst) in Ikv; exact Ikv. }
        assert (Sk : slot_keys (store grows k w d1) = slot_keys d) by (rewrite store_keys by exact Ik; exact Kp).
        pose proof (same_keys _ _ Sk) as Sks.
        assert (U : used d = used (store grows k w d1)) by (rewrite !used_keys; pose proof (Sks O) as S0; cbn [skipn] in S0; rewrite S0; reflexivity).
        rewrite U in E; apply IH in E.
        * destruct E as [E1 E2]; split; [rewrite E1; exact Sk|].
          rewrite (Sks p') in E2; rewrite Q; unfold dkeys; cbn [map fst]; fold (dkeys (entries (skipn p' d))).
          assert (St : step_in_place f grows (s, d) k = ((s1, store grows k w d1), Ok w)) by (unfold step_in_place; cbn [fst snd]; rewrite G, Ef; reflexivity).
          destruct E2 as [[ws [C ->]]|[e [pre [ws [[x [post [t1 [Ex [C Er]]]]] ->]]]]].
          -- left; exists (w :: ws); split; [exact (calls_cons _ _ _ _ _ _ _ _ St C)|reflexivity].
          -- right; exists e, (k :: pre), (w :: ws); split; [|reflexivity]; exists x, post, t1; rewrite Ex; split; [reflexivity|split; [exact (calls_cons _ _ _ _ _ _ _ _ St C)|exact Er]].
        * pose proof (Sks O) as S0; cbn [skipn] in S0; rewrite S0; exact ND.
        * rewrite Q in Ln; cbn [length] in Ln; injection Ln as ->.
          pose proof (f_equal (@length K) (Sks p')) as L0; unfold dkeys in L0; rewrite !map_length in L0; symmetry; exact L0.
      + injection E as <- <- <-; split; [exact Kp|]; right; exists e, [], []; split; [|reflexivity].
        rewrite Q; unfold dkeys; cbn [map fst]; exists k, (map fst (entries (skipn p' d))), (s, d); split; [reflexivity|split; [constructor|]].
        unfold step_in_place; cbn [fst snd]; rewrite G, Ef; reflexivity.
    - injection 1 as <- <- <-; split; [reflexivity|left; exists []; rewrite Q; split; [constructor|reflexivity]].
  Qed.
  Lemma gen_keeps n : forall p s d acc s' d' r, NoDup (dkeys acc ++ dkeys (entries (skipn p d))) -> NoDup (dkeys (entries d)) -> n = length (entries (skipn p d)) ->
    live_gen f n p (used d) s d acc = (s', d', r) ->
    slot_keys d' = slot_keys d /\
    ((exists ws, calls (step_copy f) (s, d) (dkeys (entries (skipn p d))) ws (s', d') /\ r = Ok (acc ++ combine (dkeys (entries (skipn p d))) ws)) \/
     (exists e pre ws, first_raise (step_copy f) (s, d) (dkeys (entries (skipn p d))) pre ws e (s', d') /\ r = Raise e)).
  Proof.
    induction n as [|n IH]; intros p s d acc s' d' r NA ND Ln; cbn [live_gen]; rewrite Nat.eqb_refl; cbn [negb];
      pose proof (entry_from_spec d 0 p) as Q; destruct (entry_from 0 p d) as [[p' [k v]]|].
    - destruct Q as [_ Q]; rewrite Q in Ln; discriminate Ln.
    - injection 1 as <- <- <-; split; [reflexivity|left; exists []; rewrite Q; split; [constructor|cbn [dkeys map combine]; rewrite app_nil_r; reflexivity]].
    - destruct Q as [_ Q]; rewrite Nat.sub_0_r in Q.
      assert (Ikv : In (k, v) (entries d)) by (apply (In_entries_suffix d p); rewrite Q; left; reflexivity).
      pose proof (In_dget k v (entries d) ND Ikv) as G.
      pose proof (keeps s d v) as Kp; destruct (f s d v) as [[s1 d1] [w|e]] eqn:Ef; cbn [fst snd] in Kp; intros E.
      + pose proof (same_keys _ _ Kp) as Sks.
        assert (U : used d = used d1) by (rewrite !used_keys; pose proof (Sks O) as S0; cbn [skipn] in S0; rewrite S0; reflexivity).
        rewrite Q in NA; unfold dkeys in NA; cbn [map fst] in NA; fold (dkeys acc) in NA; fold (dkeys (entries (skipn p' d))) in NA.
        assert (Nk : ~ In k (dkeys acc)) by (apply NoDup_remove_2 in NA; intros I; apply NA, in_or_app; left; exact I).
        rewrite (dset_new k w acc Nk) in E; rewrite U in E; apply IH in E.
        * destruct E as [E1 E2]; split; [rewrite E1; exact Kp|].
          rewrite (Sks p') in E2; rewrite Q; unfold dkeys; cbn [map fst]; fold (dkeys (entries (skipn p' d))).
          assert (St : step_copy f (s, d) k = ((s1, d1), Ok w)) by (unfold step_copy; cbn [fst snd]; rewrite G, Ef; reflexivity).
          destruct E2 as [[ws [C ->]]|[e [pre [ws [[x [post [t1 [Ex [C Er]]]]] ->]]]]].
          -- left; exists (w :: ws); split; [exact (calls_cons _ _ _ _ _ _ _ _ St C)|]; cbn [combine]; rewrite <- app_assoc; reflexivity.
          -- right; exists e, (k :: pre), (w :: ws); split; [|reflexivity]; exists x, post, t1; rewrite Ex; split; [reflexivity|split; [exact (calls_cons _ _ _ _ _ _ _ _ St C)|exact Er]].
        * rewrite (Sks p'); unfold dkeys; rewrite map_app; cbn [map fst]; rewrite <- app_assoc; exact NA.
        * pose proof (Sks O) as S0; cbn [skipn] in S0; rewrite S0; exact ND.
        * rewrite Q in Ln; cbn [length] in Ln; injection Ln as ->.
          pose proof (f_equal (@length K) (Sks p')) as L0; unfold dkeys in L0; rewrite !map_length in L0; symmetry; exact L0.
      + injection E as <- <- <-; split; [exact Kp|]; right; exists e, [], []; split; [|reflexivity].
        rewrite Q; unfold dkeys; cbn [map fst]; exists k, (map fst (entries (skipn p' d))), (s, d); split; [reflexivity|split; [constructor|]].
        unfold step_copy; cbn [fst snd]; rewrite G, Ef; reflexivity.
    - injection 1 as <- <- <-; split; [reflexivity|left; exists []; rewrite Q; split; [constructor|cbn [dkeys map combine]; rewrite app_nil_r; reflexivity]].
  Qed.
End Dicts.

(* the number of calls *)
Section Logged.
  Context {K W S : Type} `{EqB K}.
  Variables (grows : list (option (K * W)) -> bool) (f : S -> list (option (K * W)) -> W -> S * list (option (K * W)) * res W).
  Lemma loop_calls n : forall p size s log d s' log' d' r,
    live_loop grows (logged f) n p size (s, log) d = (s', log', d', r) -> (length log' <= length log + n)%nat.
  Proof.
    induction n as [|n IH]; intros p size s log d s' log' d' r; cbn [live_loop]; destruct (negb (Nat.eqb (used d) size));
      try (injection 1 as <- <- <- <-; lia); destruct (entry_from 0 p d) as [[p' [k v]]|]; try (injection 1 as <- <- <- <-; lia).
    unfold logged at 1; cbn [fst snd]; destruct (f s d v) as [[s1 d1] [w|e]].
    - intros E; apply IH in E; rewrite app_length in E; cbn [length] in E; lia.
    - injection 1 as <- <- <- <-; rewrite app_length; cbn [length]; lia.
  Qed.
  Lemma gen_calls n : forall p size s log d acc s' log' d' r,
    live_gen (logged f) n p size (s, log) d acc = (s', log', d', r) -> (length log' <= length log + n)%nat.
  Proof.
    induction n as [|n IH]; intros p size s log d acc s' log' d' r; cbn [live_gen]; destruct (negb (Nat.eqb (used d) size));
      try (injection 1 as <- <- <- <-; lia); destruct (entry_from 0 p d) as [[p' [k v]]|]; try (injection 1 as <- <- <- <-; lia).
    unfold logged at 1; cbn [fst snd]; destruct (f s d v) as [[s1 d1] [w|e]].
    - intros E; apply IH in E; rewrite app_length in E; cbn [length] in E; lia.
    - injection 1 as <- <- <- <-; rewrite app_length; cbn [length]; lia.
  Qed.
End Logged.

(* methods that leave the dictionary alone *)
Section Untouched.
  Context {K W S : Type} `{EqB K}.
  Variables (grows : list (option (K * W)) -> bool) (f : S -> list (option (K * W)) -> W -> S * list (option (K * W)) * res W) (g : S -> W -> S * res W).
  Hypothesis same : forall s d v, f s d v = (fst (g s v), d, snd (g s v)).
  Lemma store_skipn k v w (d : list (option (K * W))) : NoDup (dkeys (entries d)) -> forall i p p', entry_from i p d = Some (p', (k, v)) ->
    skipn (p' - i) (store grows k w d) = skipn (p' - i) d /\ In k (dkeys (entries d)).
  Proof.
    intros ND i p p' E; unfold store.
    assert (G : exists d', overwrite k w d = Some d' /\ skipn (p' - i) d' = skipn (p' - i) d /\ (i < p')%nat /\ In k (dkeys (entries d))).
    { revert ND i p p' E; induction d as [|[[k0 v0]|] d IH]; intros ND i p p' E; cbn [entry_from] in E; [discriminate| |].
      - destruct p as [|p].
        + injection E as <- -> ->; cbn [overwrite]; rewrite eqb_refl; eexists; split; [reflexivity|].
          replace (Datatypes.S i - i)%nat with 1%nat by lia; split; [reflexivity|split; [lia|left; reflexivity]].
        + unfold dkeys in ND; rewrite entries_cons_some in ND; cbn [map fst] in ND; inversion ND as [|? ? N0 ND']; subst.
          destruct (IH ND' (Datatypes.S i) p p' E) as [d' [Eo [Es [L I]]]].
          cbn [overwrite]; destruct (eqb_spec k k0) as [->|n]; [contradiction|]; rewrite Eo; cbn [option_map]; eexists; split; [reflexivity|].
          replace (p' - i)%nat with (Datatypes.S (p' - Datatypes.S i)) by lia; cbn [skipn]; split; [exact Es|split; [lia|right; exact I]].
      - cbn [overwrite]; destruct p as [|p].
        + destruct (IH ND (Datatypes.S i) O p' E) as [d' [Eo [Es [L I]]]]; rewrite Eo; cbn [option_map]; eexists; split; [reflexivity|].
          replace (p' - i)%nat with (Datatypes.S (p' - Datatypes.S i)) by lia; cbn [skipn]; split; [exact Es|split; [lia|exact I]].
        + destruct (IH ND (Datatypes.S i) p p' E) as [d' [Eo [Es [L I]]]]; rewrite Eo; cbn [option_map]; eexists; split; [reflexivity|].
          replace (p' - i)%nat with (Datatypes.S (p' - Datatypes.S i)) by lia; cbn [skipn]; split; [exact Es|split; [lia|exact I]]. }
    destruct G as [d' [-> [Es [_ I]]]]; split; [exact Es|exact I].
  Qed.
  Lemma loop_same n : forall p s d, NoDup (dkeys (entries d)) -> n = length (entries (skipn p d)) ->
    let '(s', d', r) := live_loop grows f n p (used d) s d in
    map_dict_loop g s (entries (skipn p d)) (entries d) = (s', entries d', r).
  Proof.
    induction n as [|n IH]; intros p s d ND Ln; cbn [live_loop]; rewrite Nat.eqb_refl; cbn [negb];
      pose proof (entry_from_spec d 0 p) as Q; destruct (entry_from 0 p d) as [[p' [k v]]|] eqn:Ee.
    - destruct Q as [_ Q]; rewrite Q in Ln; discriminate Ln.
    - rewrite Q; reflexivity.
    - destruct Q as [_ Q]; rewrite Nat.sub_0_r in Q; rewrite Q, same; cbn [map_dict_loop]; destruct (g s v) as [s1 [w|e]]; cbn [fst snd]; [|reflexivity].
      destruct (store_skipn k v w d ND 0 p p' Ee) as [Es Ik]; rewrite Nat.sub_0_r in Es.
      assert (Sk : dkeys (entries (store grows k w d)) = dkeys (entries d)) by (pose proof (same_keys _ _ (store_keys grows k w d Ik) O) as X; exact X).
      assert (U : used d = used (store grows k w d)) by (rewrite !used_keys, Sk; reflexivity).
      rewrite U; specialize (IH p' s1 (store grows k w d)); rewrite Sk, Es, store_entries in IH; apply IH; [exact ND|].
      rewrite Q in Ln; cbn [length] in Ln; injection Ln as ->; reflexivity.
    - rewrite Q; reflexivity.
  Qed.
  Lemma gen_same n : forall p s d acc, n = length (entries (skipn p d)) ->
    live_gen f n p (used d) s d acc = (fst (map_dict_gen g s (entries (skipn p d)) acc), d, snd (map_dict_gen g s (entries (skipn p d)) acc)).
  Proof.
    induction n as [|n IH]; intros p s d acc Ln; cbn [live_gen]; rewrite Nat.eqb_refl; cbn [negb];
      pose proof (entry_from_spec d 0 p) as Q; destruct (entry_from 0 p d) as [[p' [k v]]|] eqn:Ee.
    - destruct Q as [_ Q]; rewrite Q in Ln; discriminate Ln.
    - rewrite Q; reflexivity.
    - destruct Q as [_ Q]; rewrite Nat.sub_0_r in Q; rewrite Q, same; cbn [map_dict_gen]; destruct (g s v) as [s1 [w|e]]; cbn [fst snd]; [|reflexivity].
      apply IH; rewrite Q in Ln; cbn [length] in Ln; injection Ln as ->; reflexivity.
    - rewrite Q; reflexivity.
  Qed.
End Untouched.

(* ---------------- the statements about lists ---------------- *)
Section ListResults.
  Context {S A B : Type}.
  Variables (f : S -> list A -> A -> S * list A * res B) (truthy : B -> bool).
  Lemma ended_ok {X} (x y : X) o : ended x o = Ok y -> o = None.
  Proof. destruct o; [discriminate|reflexivity]. Qed.
  (* one lemma for the three functions: [out bs] is the result of the calls *)
  Lemma appending_result {X} (out : list A -> list B -> X) (r : S * list A * res X) fuel s l :
    (forall s l x, exists e, snd (fst (f s l x)) = l ++ e) ->
    match ltrace f fuel O s l with
    | None => snd r = Raise OutOfFuel
    | Some (xs, bs, s', l', o) => r = (s', l', ended (out xs bs) o)
    end -> snd r <> Raise OutOfFuel ->
    let '(s', l', x) := r in (exists e, l' = l ++ e) /\
      ((exists bs, calls (on_list f) (s, l) l' bs (s', l') /\ x = Ok (out l' bs)) \/
       (exists e pre bs, first_raise (on_list f) (s, l) l' pre bs e (s', l') /\ x = Raise e)).
  Proof.
    intros Ap T N; destruct (ltrace f fuel 0 s l) as [[[[[xs bs] s'] l'] o]|] eqn:E; [|contradiction]; subst r.
    destruct (appending_trace f Ap fuel O s l xs bs s' l' o (Nat.le_0_l _) E) as [P C]; split; [exact P|].
    cbn [skipn] in C; destruct o as [e|]; cbn [answers ended] in *.
    - right; destruct C as [pre C]; exists e, pre, bs; split; [exact C|reflexivity].
    - left; destruct C as [-> C]; exists bs; split; [exact C|reflexivity].
  Qed.
  Lemma trace_loud fuel : (forall s l x, snd (f s l x) <> Raise OutOfFuel) -> forall i s l xs bs s' l' o,
    ltrace f fuel i s l = Some (xs, bs, s', l', o) -> o <> Some OutOfFuel.
  Proof.
    intros Q; induction fuel as [|n IH]; intros i s l xs bs s' l' o; cbn [ltrace]; [discriminate|].
    destruct (nth_error l i) as [x|]; [|injection 1 as <- <- <- <- <-; discriminate].
    pose proof (Q s l x) as Qx; destruct (f s l x) as [[s1 l1] [b|e]]; cbn [snd] in Qx.
    - destruct (ltrace f n (Datatypes.S i) s1 l1) as [[[[[xs1 bs1] s2] l2] o2]|] eqn:T; [|discriminate]; injection 1 as <- <- <- <- <-; exact (IH _ _ _ _ _ _ _ _ T).
    - injection 1 as <- <- <- <- <-; congruence.
  Qed.
  Lemma bounded_result {X} (out : list A -> list B -> X) (r : S * list A * res X) fuel s l N :
    (forall s l x, snd (f s l x) <> Raise OutOfFuel) ->
    (forall s l x, (length l <= N)%nat -> (length (snd (fst (f s l x))) <= N)%nat) -> (length l <= N < fuel)%nat ->
    match ltrace f fuel O s l with
    | None => snd r = Raise OutOfFuel
    | Some (xs, bs, s', l', o) => r = (s', l', ended (out xs bs) o)
    end -> snd r <> Raise OutOfFuel.
  Proof.
    intros Q Sm L T; pose proof (bounded_trace f N Sm fuel O s l (proj1 L) ltac:(lia)) as B0.
    destruct (ltrace f fuel 0 s l) as [[[[[xs bs] s'] l'] o]|] eqn:E; [|congruence]; subst r; cbn [snd].
    pose proof (trace_loud fuel Q O s l xs bs s' l' o E); destruct o as [e|]; cbn [ended]; congruence.
  Qed.
End ListResults.
